# Formal model of GeoMop/MLMC: design

Source: `/repo` (python, pinned commit), read as text only; nothing was run.
Prover: Coq/Rocq 8.16.1, files in `rocq/theories` (logical name `Verif`).

## 1. Method

* The model is a set of shallow, executable Gallina functions, one per python
  function, mirroring it branch by branch. Exceptions are values (`res`: `Ok`/`Err`),
  mutable objects are records passed through functions, `while` loops take fuel and
  running out of fuel is a separate value that no theorem treats as a normal answer.
* Each area has the files `XModel.v` (definitions citing `/repo` lines),
  `XSpec.v` (small specification written without the model's helpers; merged into
  `XProps.v` when it is only a line or two), `XProofs.v` (lemmas) and `XProps.v`
  (only property theorems closed by `exact`, `Print Assumptions`, and the
  non-vacuity `Example`s).
* External behaviour (simulations, md5, clocks, file system order, qsub/qstat,
  random draws, eigen-decompositions) is a universally quantified argument of the
  theorems (Section variable that is discharged), never an axiom.
* Numbers: counters are `nat`/`Z`; running times, targets and coefficients `Q`;
  sample values are exact (`Q` or `R`, or an abstract type when nothing is computed
  with them), with `NaN`/`inf` as explicit constructors where the code branches on
  them. Floating point rounding is not modelled.
* A property that is false of the faithful model gets a theorem `..._refuted`
  (a concrete witness) and, where something weaker is true, `..._partial`. Its
  MANIFEST status is then `partial` and the note says what fails.

## 2. Plan per property

Campaign core (`Tag*`, `Pool*`, `Conc*`, `Storage*`, `Sampler*`, `Adding*`)

* C01 State machine of Sampler + one-process pool + file storage; operations
  set-initial, set-target, schedule, ask, renew, restart. Invariant over the operation list:
  scheduled ids of level l = map (tag l) [0..n-1]; uniqueness from C02.
* C02 Decimal printing of naturals with zero padding as a list of characters;
  injectivity by a parser: `parse (tag l n) = Some (l, n)`.
* C03 One-step theorem on `schedule_samples` plus monotone targets.
* C04 Invariant: scheduled = collected + failed + queued as permutations per level,
  for every simulation oracle and operation list.
* C05 Invariant: each collected record is `sim (level config) (seed id)`; two histories
  with equal counts yield permutation-equal (in fact equal) record lists.
* C06 Pool state machine; multiset of reported ids = scheduled minus queued, for every
  oracle; classification by `calculate_sample` outcome.
* C07 Small-step model: delivery events interleave between the copy and the clear
  of a queue. Refuted by an explicit interleaving; partial: no loss when no delivery
  falls between copy and clear.
* C08 Model of `error_callback`: refuted (sample never reported, counter never 0),
  partial: errors inside the guarded part are reported as failures.
* C09 Loop over an arbitrary list of poll answers and clock readings; stored = concatenation
  of the polled answers; exit conditions exact.
* C10 The arithmetic over Q with ceiling; monotone, bounded, strict progress, fixed point
  reached within a computable number of iterations.
* C11 Restart model: refuted by a crash state after which the loop never ends for any
  fuel; partial: terminates when nothing was lost.
* C12 Memory and HDF models; refuted for Memory, proved for HDF.
* C13 Invariant/characterisation of `unfinished_ids` over the HDF model.
* C14 Operation `renew` in the state machine; theorem over histories.
* C15 File state vs object state are separated; `open` after any history is the
  identity on observations; Sampler construction leaves the file unchanged.
* C16 Refuted by a fresh-object witness; partial for loaded objects with equal level count.
* C17 Writes as a list of primitive file updates; a crash is any prefix. Refuted between
  the id write and the value write; partial: consistent at every other cut, and ids always
  extend values.
* C18 Scheduling as a list of primitive effects; refuted (ids handed to the pool before
  the record is written); partial: at level boundaries nothing is reissued.
* C19 Chunks as slices; concatenation theorem for both storages and layout theorem.
* C20 Simulation relation between Memory and HDF models.
* C21 Polls accumulate cumulative totals: refuted for several polls; partial for one poll
  and the formula actually computed.
* C22 Serialisation of formats; refuted for 3-character location names and for the
  subset comparison of locations; partial under the exact guard.
* C64 Uses the tag model; refuted for counters >= 10^7, proved below.

PBS (`Pbs*`)

* C23 State machine schedule/execute with qsub oracle; conservation invariant.
* C24 Job run as a list of file appends cut anywhere; read back; exactly-once theorem.
* C25 Same run; last record per level; per-level counts.
* C26 Python list removal during iteration modelled with an index; refuted, partial
  exactly when no running job directly follows a finished one in the list (C79).
* C27 Function modelled literally on an ordered set; refuted; partial for single job sets.
* C28 Listing order as an argument; refuted, proved for listings ending in the maximum.
* C29 String split/join round trip for strings without separator; refuted with one.

Quantities (`QType*`, `Quantity*`, `Estimate*`)

* C30, C31, C33 Inductive type of structured types, sizes, key access as (offset, type);
  tiling and row-major index theorems by induction.
* C32 Data as lists of rows; concatenation and slicing.
* C34-C36 Expression trees evaluated on chunks vs evaluated per sample; selection ids
  computed as in the code; theorem: if construction succeeds all operands see the same rows.
* C37 Cache as a finite map keyed by (chunk, address); transparency during one estimate;
  refuted when an address is reused.
* C38-C43 Sums over chunks in Q/R with NaN as an option; equality with textbook formulas.
* C44, C45 Algebra over R on top of the estimate model.
* C52 Draw model; refuted with two chunks, proved with one.

Moments and numerics (`Moments*`, `Alloc*`, `Dist*`, `Orth*`) over stdlib `R`

* C46 field algebra. C47 case analysis (refuted for Fourier). C48 prefix lemma on the
  recurrences (change_size refuted). C49 Legendre recurrence: values at +-1, parity,
  derivative matrix identity, bound and orthogonality as far as reached.
* C50 Cauchy-Schwarz/Lagrange for the allocation; refuted after the rounding/capping done
  by the code where applicable.
* C51 geometric sequences over R. C53 the loop over sorted/unsorted arguments. C54 log
  inequality and Gram matrix. C55 matrix algebra given exact decompositions.

Fields, meshes, simulations (`Field*`, `Mesh*`, `Range*`, `Fourier*`, `Gmsh*`, `Flow*`, `Synth*`)

* C56 concatenation/split of point lists. C57 dependency check and region assignment.
  C58 real analysis. C59 chunked sums; refuted after retry. C60 token-level reader/writer.
  C61 string replacement on character lists. C62 result lists; level consistency refuted
  for several locations. C63 loop over records.

Guarded forms. Where a property above is false in full, the part that does hold for a guard a user can check is a property
of its own: C65 C66 (C31, C32), C67 (C37), C68 (C35), C69 (C40), C70 (C43), C71-C74 (C46, C47, C48, C44), C75 C76 (C50, C51),
C77 C78 (C07, C08), C79-C83 (C26, C27, C28, C29, C23), C84 (C61), C85 (C62), C86 C87 (C57, C56), C88 C89 (C58, C59),
C90 C91 (C53, C54), C95 (C60), C96 (C22), C98 (C97), C142 C143 (C141).

Added while the model grew

* C92-C94 (`Dist*`) calculus on the functional that the density fit minimises, over finite quadratures: stationary points match
  the moments; normalisation and derivatives of the penalised functional are refuted in general, proved where they hold.
* C97, C98 (`Svd*`) state machine of points, factor and samples. C99, C100 (`Svd*`) the search for the number of terms with an
  oracle for the singular values. C101, C102 (`Kl*`, mathcomp matrices) covariance matrix and covariance of the samples.
* C103-C108 (`Shoot*`) both shooting simulations over Q with arbitrary fields; induction on the steps.
* C109-C115 single functions of synthetic simulation, fields, meshes, PBS times, qstat errors and field files; added after a
  seeded bug was not noticed.
* C116-C119 (`Slope*`) search over windows by induction on the recursion; C120-C123 (`Reg*`) regression with an arbitrary
  least-squares solver.
* C124-C127 (`Domain*`) percentiles over Q and the reads of chunks; C128, C129 (`Boot*`) bootstrap and subsamples.
* C130-C132 (`Seed*`) numpy's global generator as a state machine; reproducibility by commuting states, distinctness by counting.
* C133-C136, C139 (`Work*`) tree of files as a function from paths; invariant over the list of samples. C137, C138 (`WorkConc*`)
  all interleavings of the events of several workers.
* C140 (`InitProps`) initial numbers of samples. C141-C144 (`PbsRestart*`) crash and restart of campaigns on a batch system, on
  top of the whole-system invariant of `PbsInv`.
* C145-C147 (`Time*`) piecewise linear interpolation. C148-C151 (`FlowRun*`) directories and files of the flow simulation.
* C152, C153 (`LegDer*`, `MomEq*`) derivatives of Legendre series by induction on the degree; comparison of moment functions.
* C154-C156 (`Script*`) python's format as a state machine over characters, the script and the arguments of the worker.
* C157-C159 (`Adapt*`) the whole loop of the adaptive campaign with arbitrary estimates: invariant over the rounds, measure for
  the end of the loop; refuted for failed samples, which are not replaced.
* C160-C162 (`QWrap*`) constants and conditions wrapped into quantities. C163, C164 (`QSize*`) programs that build quantities, by
  induction over their objects: sizes of types against rows of samples, evaluation of what was built. C170 (`QDict*`) repeated keys.
* C165-C167 (`Prob*`) finite distributions, independent samples and levels: expected value and variance of what `estimate_mean`
  reports over all outcomes of a campaign. C171, C172 (`AllocProb*`) the same with the sample numbers suggested by the code.
* C168 (`PbsLatest*`) latest job of a sample, invariant over runs of the batch pool. C169 (same file) class file of several pools.
* C173-C178 (`Quad*`) composite quadratures: exactness by an affine change of variable on each subinterval, invariant of the
  quadrature kept by the density fit over all sequences of multipliers. C179 (`WorkCwd*`) directory of the calling process.
* C180-C184 (`Par*`) Sampler with a process or thread pool. The thread that delivers results may run at each point of the main
  thread, by an arbitrary oracle; the invariant keeps, per level, scheduled = stored + held by workers or queues + lost. Refuted
  for termination: results lost between copy and clear, thread ended by an escaped exception.
* C185, C186 (`OrthFirst*`) first orthogonalised moment from the triangular factor, means from the row of the identity matrix.
* C187 to C192 (`Plot*`) data behind the plots: geometric choice of moments (Bernoulli inequality for the range), points and curve of the variance plot, stacked bars, eigenvalues in the log scale, common domain, file names. What matplotlib draws is the list of calls.
* C193, C194 (`Covar*`) covariance matrix of a correlated field over R: Cholesky factor of a semidefinite matrix, Schur product, Schoenberg's theorem for exp(-s D) and for powers below one (integral representation of x^b), so every exponent in (0,2] gives a covariance matrix; three points on a line refute every larger one. `np.linalg` and rounding are not modelled.
* C195 to C198 (`Spectrum*`) frequencies of the Fourier field: covariance for given frequencies (finite distributions of the amplitudes), then the mean over the two uniform numbers of a mode as an improper double integral: Taylor remainder of cosine, Wallis integrals over the angle, integrals of powers of -ln u, limit of the exponential series. The normal law is any linear order-preserving mean with its even moments; Box-Muller gives one. The generators themselves are not modelled.
* C199 to C202 (`Sub*`) random subsamples as finite distributions: hypergeometric sizes (Vandermonde, absorption), uniform draws with replacement, chunks in turn with and without the reset of the parameters; estimates through the campaign lemmas of C165. The random generators themselves are not modelled.
* C203, C204 (`Shape*`) arrays as a shape with values in row-major order: slices, reshape, transposition (2, 0, 1); entry by entry, for samples of any number of axes. The integer division of the reshape is exact where it is reached (the float division of python is not modelled).
* C205 (`SpectrumExp*`) the exponential spectrum in the plane: the mean over the angle is a power series in the squared radius satisfying Bessel's equation; the integral over the radius from a to 1 is differentiated twice under the integral sign, its second derivative differs from itself by a boundary term whose primitive is of order a, and a bounded function with f'' = f in the limit is exp(-t). Also settles the plane part of C197.
* C206, C207 (`SynthMcProps`) composition: `calculate` pushed forward along the distribution of the seeds is the law of a level, the campaign theorems C165 and C166 give expected value and variance; the differences of a level are (h_l - h_(l-1)) noise, the number of the location cancels on all levels but the lowest.
* C208 to C211 (`Cont*`) the continuation of class Distribution: loop over rational sizes with an invariant (size = n (5/6)^k, never 4 because 5 does not divide 4 6^k), tolerances as real numbers, calls of an arbitrary minimiser; IEEE infinity for the penalty of a zero vector.
* C212, C213 (`Stats*`) the tests of `stats_tests.py` with arbitrary distribution functions; probabilities of failures as integrals of indicator functions over the uniform value (Coquelicot).
* C214, C215 (`SynthWork*`) refinement of the workspace class by the plain synthetic simulation over sequences of calls; estimates of the work over the real numbers.
* C216, C217 (`Frac*`) invariants of the loops writing the map of regions, for an arbitrary result of the intersection of decompositions; C218 (`Violin*`) arrays as shape and data, the loop by induction on the levels.
* C219, C220 (`Metric*`) integrals of continuous functions (Coquelicot): definiteness, Cauchy-Schwarz, Gibbs inequality under the integral; the quadrature is an input assumed exact.
* C221, C222 (`Env*`) paths as lists of characters with a model of os.path.split, the loop over path components by induction from the end, the endless loop as lack of a result for every number of iterations; commands by cases.
* C223 (`Hist*`) linspace and geomspace over the real numbers; the number of edges bounded through the square root.
* C224, C225 (`BsPlot*`) the plotting object with in-place division through views, exact points of each series; witnesses by computation.
* C226, C227 (`BsReg*`) positions of points and curves of the regression plot for any selection of moments; the misplaced argument of the call as a TypeError for all inputs with three levels.

## 3. Trusted base

* Coq 8.16.1 kernel (with `vm_compute`), no plugins, no axioms of our own.
* `Print Assumptions` under each theorem; per-theorem list in section 5.
* Libraries: the standard library, `mathcomp` (OrthModel, KlModel), `Coquelicot` (integrals and derivatives). Their theorems are
  used, no axiom of theirs.
* The correspondence between python and model: by reading; each definition cites the lines it models and states its
  simplifications. Behaviour of numpy, scipy, h5py and of python's string functions that the code relies on is modelled in
  Gallina next to the caller and is part of this correspondence.

## 4. Modelled and not modelled

Modelled (see the header of each `*Model.v`): `sampler.py`, `sampling_pool.py`, `sampling_pool_pbs.py`, `sample_storage.py`,
`sample_storage_hdf.py`, `level_simulation.py`, `moments.py`, `estimator.py` (without plots), `quantity/*`, `random/correlated_field.py`,
`sim/synth_simulation.py`, `tool/hdf5.py`, `tool/pbs_job.py`, `tool/flow_mc.py`, `tool/gmsh_io.py` (text formats),
`tool/simple_distribution.py`, `tool/distribution.py` (functional, density, divergences, continuation), `tool/stats_tests.py`, `examples/shooting`.

Not modelled: floating point rounding (numbers are exact, with the special values of IEEE 754 where the code meets them), numpy
broadcasting other than the cases used by the code, the HDF5 library below the level "a dataset append/replace is atomic", operating
system processes and signals (only the observable order of events), logging, drawing itself (of `plot/plots.py` only the data handed to matplotlib, lines 40-78, 251-259, 311-377, 415-549), `archive/*`, `tool/process_base.py`,
binary mesh files, `scipy` optimisers and quadratures (only the functions handed to them), wall-clock time.

Seeded bugs. `seeded/LOG.jsonl` lists edits of model definitions that imitate realistic bugs. "failed" names the theorems whose
proof no longer checks after the edit, either directly or because a lemma they use no longer checks. Where no theorem failed
although a claim had become false, a theorem was added or tightened; it is named under "tightened".

## 5. Assumptions of the theorems

`Print Assumptions` of each theorem named in MANIFEST.json, with the file it is in. Letters:

* `-` closed under the global context
* `N` `ClassicalDedekindReals.sig_not_dec`
* `F` `ClassicalDedekindReals.sig_forall_dec`
* `E` `FunctionalExtensionality.functional_extensionality_dep`
* `C` `Classical_Prop.classic`

All four are axioms of the standard library: N and F come with its real numbers, E is used by them and for trees of
files given as functions, C by lemmas of `Reals` and `Coquelicot`. No axiom of another library and none of our own is used.

* C01 (proved) `C01_ids_counted` [SamplerProps] -; `C01_ids_unique` [SamplerProps] -; `C01_handed_once` [SamplerProps] -; `C01_handed_scheduled` [SamplerProps] -
* C02 (proved) `C02_tag_read_back` [TagProps] -; `C02_tag_injective` [TagProps] -
* C03 (proved) `C03_schedule_to_target` [SamplerProps] -; `C03_wrong_length_rejected` [SamplerProps] -; `C03_targets_only_rise` [SamplerProps] -
* C04 (proved) `C04_conservation` [SamplerProps] -; `C04_conservation_restarts` [SamplerProps] -; `C04_ask_collects_all` [SamplerProps] -
* C05 (proved) `C05_records_expected` [SamplerProps] -; `C05_history_independent` [SamplerProps] -; `C05_record_is_answer` [SamplerProps] -
* C06 (proved) `C06_reported_in_order` [SamplerProps] -; `C06_all_reported` [SamplerProps] -; `C06_success_or_failure` [SamplerProps] -; `C06_running` [SamplerProps] -
* C07 (partial) `C07_handover_partial` [ConcProps] -; `C07_handover_refuted` [ConcProps] -; `C07_counter_refuted` [ConcProps] -
* C08 (partial) `C08_worker_error_partial` [ConcProps] -; `C08_escaped_never_reported` [ConcProps] -; `C08_worker_error_refuted` [ConcProps] -
* C09 (proved) `C09_nonpositive_timeout` [SamplerProps] -; `C09_no_timeout` [SamplerProps] -; `C09_timeout` [SamplerProps] -; `C09_ends` [SamplerProps] -; `C09_sampler_instance` [SamplerProps] -
* C10 (proved) `C10_plan_bounds` [SamplerProps] -; `C10_adding_grows` [SamplerProps] -; `C10_adding_converges` [SamplerProps] -; `C10_adding_returns` [SamplerProps] -
* C11 (partial) `C11_returns_iff_partial` [SamplerProps] -; `C11_wait_refuted` [SamplerProps] -
* C12 (partial) `C12_file_n_finished` [StoreProps] -; `C12_memory_n_finished_partial` [StoreProps] -; `C12_memory_n_finished_refuted` [StoreProps] -
* C13 (proved) `C13_unfinished` [StoreProps] -
* C14 (proved) `C14_renew` [SamplerProps] -; `C14_one_outcome` [SamplerProps] -; `C14_same_failures` [SamplerProps] -
* C15 (proved) `C15_reopen` [StoreProps] -; `C15_restart_keeps` [SamplerProps] -
* C16 (partial) `C16_save_global_partial` [StoreProps] -; `C16_save_global_refuted` [StoreProps] -; `C16_more_levels_refuted` [StoreProps] -
* C17 (partial) `C17_crash_partial` [StoreProps] -; `C17_writes_are_save` [StoreProps] -; `C17_crash_refuted` [StoreProps] -
* C18 (partial) `C18_crash_partial` [SamplerProps] -; `C18_effects_are_the_loops` [SamplerProps] -; `C18_crash_refuted` [SamplerProps] -
* C19 (proved) `C19_chunks` [StoreProps] -; `C19_first_n` [StoreProps] -; `C19_memory` [StoreProps] -
* C20 (proved) `C20_same_storages` [StoreProps] -
* C21 (partial) `C21_file_cost_partial` [StoreProps] -; `C21_pool_records` [StoreProps] -; `C21_cost_between_partial` [StoreProps] -; `C21_cost_refuted` [StoreProps] -; `C21_memory_refuted` [StoreProps] -
* C22 (partial) `C22_partial` [FormatProps] -; `C22_refuted` [FormatProps] -
* C23 (proved) `C23_batching` [PbsProps] -; `C23_rejections` [PbsProps] -
* C24 (proved) `C24_outcomes` [PbsProps] -
* C25 (partial) `C25_times_partial` [PbsProps] -; `C25_times_refuted` [PbsProps] -; `C25_level0_refuted` [PbsProps] -
* C26 (partial) `C26_running_partial` [PbsProps] -; `C26_running_refuted` [PbsProps] -
* C27 (partial) `C27_recovery_partial` [PbsProps] -; `C27_recovery_refuted` [PbsProps] -; `C27_raises_refuted` [PbsProps] -
* C28 (partial) `C28_job_numbers_refuted` [PbsProps] -; `C81_job_numbers` [PbsProps] -
* C29 (partial) `C29_class_file_refuted` [PbsProps] -; `C29_stale_refuted` [PbsProps] -; `C82_class_file` [PbsProps] -
* C30 (partial) `C30_tiling_partial` [QTypeProps] -; `C30_tiling_refuted` [QTypeProps] -
* C31 (proved) `C31_declared_paths` [QTypeProps] -
* C32 (partial) `C66_parts_come_back` [QTypeProps] -; `C32_array_partial` [QTypeProps] -; `C32_array_refuted` [QTypeProps] -
* C33 (proved) `C33_replace_scalar` [QTypeProps] -; `C33_moments_on_surface` [QTypeProps] -
* C34 (proved) `C34_chunks` [QuantityProps] -; `C34_samplewise` [QuantityProps] -; `C34_arithmetic` [QuantityProps] -; `C34_constant` [QuantityProps] -
* C35 (partial) `C35_selections_partial` [QuantityProps] -; `C35_own_root_partial` [QuantityProps] -; `C35_subsample_refuted` [QuantityProps] -
* C36 (proved) `C36_condition` [QuantityProps] -; `C36_condition_constant` [QuantityProps] -; `C36_select` [QuantityProps] -; `C36_nan` [QuantityProps] -
* C37 (partial) `C67_estimate_reads` [QuantityProps] -; `C67_chunks_numbered` [QuantityProps] -; `C37_stale_refuted` [QuantityProps] -; `C37_slices_refuted` [QuantityProps] -; `C37_addresses_refuted` [QuantityProps] -
* C38 (proved) `C38_chunking` [EstimateProps] EF; `C38_quantity_chunking` [EstimateProps] EF; `C38_values` [EstimateProps] EF
* C39 (proved) `C39_usable` [EstimateProps] -; `C39_counts` [EstimateProps] EF; `C39_ignored` [EstimateProps] EF; `C39_none_usable` [EstimateProps] EF
* C40 (partial) `C40_every_level_partial` [EstimateProps] EF; `C40_empty_level_refuted` [EstimateProps] EF
* C41 (proved) `C41_variance` [EstimateProps] EF
* C42 (proved) `C42_linear` [EstimateProps] EF; `C42_totals` [EstimateProps] EF; `C42_telescopes` [EstimateProps] EF
* C43 (partial) `C43_items_partial` [EstimateProps] EF; `C43_tuple_refuted` [EstimateProps] EF
* C44 (partial) `C44_zeroth_moment_partial` [MomentsProps] CEFN; `C44_estimated_partial` [MomentsProps] CEFN; `C44_fourier_refuted` [MomentsProps] CEFN
* C45 (proved) `C45_symmetric` [MomentsProps] CEFN; `C45_single_level` [MomentsProps] CEFN; `C45_estimated` [MomentsProps] CEFN
* C46 (partial) `C46_inverse` [MomentsProps] CEFN; `C46_inverse_transform` [MomentsProps] CEFN; `C46_inside` [MomentsProps] CEFN; `C46_ends_outside_partial` [MomentsProps] CEFN; `C46_removed_partial` [MomentsProps] CEFN; `C46_narrow_refuted` [MomentsProps] CEFN
* C47 (partial) `C47_single_partial` [MomentsProps] CEFN; `C47_eval_partial` [MomentsProps] CEFN; `C47_fourier_refuted` [MomentsProps] CEFN; `C47_monomial_refuted` [MomentsProps] CEFN
* C48 (partial) `C48_prefix_partial` [MomentsProps] CEFN; `C48_change_size_refuted` [MomentsProps] CEFN; `C48_change_size_never_refuted` [MomentsProps] CEFN
* C49 (proved) `C49_legendre` [MomentsProps] CEFN; `C49_reference` [MomentsProps] CEFN; `C49_derivatives` [MomentsProps] CEFN
* C50 (partial) `C50_target_partial` [AllocProps] EFN; `C50_optimal` [AllocProps] EFN; `C50_follows_optimal` [AllocProps] EFN; `C50_target_refuted` [AllocProps] EFN
* C51 (partial) `C51_level_params` [AllocProps] CEFN; `C51_wrong_range` [AllocProps] CEFN; `C51_sample_range_partial` [AllocProps] CEFN; `C51_n_samples_partial` [AllocProps] CEFN; `C51_n_samples_refuted` [AllocProps] CEFN; `C51_one_level_refuted` [AllocProps] CEFN
* C52 (partial) `C52_collected` [QuantityProps] -; `C52_one_chunk_partial` [QuantityProps] -; `C52_chunks_refuted` [QuantityProps] -
* C53 (partial) `C53_partial` [CdfProps] EF; `C53_refuted` [CdfProps] EF
* C54 (partial) `C54_partial` [FitProps] CEFN; `C54_refuted` [FitProps] CEFN
* C55 (proved) `C55_orthogonal` [OrthProps] -; `C55_size` [OrthProps] -
* C56 (partial) `C56_partial` [MeshProps] -; `C56_refuted` [MeshProps] -
* C57 (partial) `C57_partial` [FieldProps] -; `C57_refuted` [FieldProps] -
* C58 (partial) `C58_partial` [RangeProps] EF; `C58_refuted` [RangeProps] CEFN
* C59 (partial) `C59_partial` [FourierProps] EFN; `C59_refuted` [FourierProps] EFN
* C60 (partial) `C60_partial` [GmshProps] -; `C60_refuted` [GmshProps] -; `C60_refuted_full` [GmshProps] -
* C61 (partial) `C61_partial` [FlowProps] -; `C61_refuted` [FlowProps] -
* C62 (partial) `C62_partial` [SynthProps] EFN; `C62_refuted` [SynthProps] EFN
* C63 (proved) `C63_outflow` [FlowProps] -
* C64 (partial) `C64_kept_dirs_partial` [TagProps] -; `C64_kept_dirs_refuted` [TagProps] -
* C65 (proved) `C65_paths_read_all` [QTypeProps] -
* C66 (proved) `C66_parts_come_back` [QTypeProps] -; `C66_constructors_succeed` [QTypeProps] -
* C67 (proved) `C67_estimate_reads` [QuantityProps] -; `C67_chunks_numbered` [QuantityProps] -
* C68 (proved) `C68_selections` [QuantityProps] -; `C68_own_root` [QuantityProps] -
* C69 (proved) `C69_finite_mean` [EstimateProps] EF
* C70 (proved) `C70_items` [EstimateProps] EF
* C71 (proved) `C71_ends_outside` [MomentsProps] CEFN; `C71_removed` [MomentsProps] CEFN
* C72 (proved) `C72_one_moment` [MomentsProps] CEFN
* C73 (proved) `C73_prefix` [MomentsProps] CEFN
* C74 (proved) `C74_zeroth_moment` [MomentsProps] CEFN
* C75 (proved) `C75_samples_bound` [AllocProps] EFN
* C76 (proved) `C76_initial_numbers` [AllocProps] CEFN; `C51_level_params` [AllocProps] CEFN
* C77 (proved) `C77_quiet_handover` [ConcProps] -
* C78 (proved) `C78_guarded_errors_reported` [ConcProps] -
* C79 (proved) `C79_running` [PbsProps] -
* C80 (proved) `C80_recovery` [PbsProps] -
* C81 (proved) `C81_job_numbers` [PbsProps] -
* C82 (proved) `C82_class_file` [PbsProps] -
* C83 (proved) `C83_exactly_once` [PbsProps] -; `C83_own_results` [PbsProps] -
* C84 (proved) `C84_substitution` [FlowProps] -
* C85 (proved) `C85_shape` [SynthProps] EFN; `C85_telescopes` [SynthProps] EFN
* C86 (proved) `C86_fields` [FieldProps] -; `C86_permutation` [FieldProps] -
* C87 (proved) `C87_same_field` [MeshProps] -
* C88 (proved) `C88_range` [RangeProps] EF; `C88_conductivity` [RangeProps] CEFN
* C89 (proved) `C89_once` [FourierProps] EFN; `C89_size` [FourierProps] EFN
* C90 (proved) `C90_cdf` [CdfProps] EF; `C90_sorted` [CdfProps] EF
* C91 (proved) `C91_divergence` [FitProps] CEFN; `C91_hessian` [FitProps] EFN
* C92 (proved) `C92_derivatives` [FitProps] EFN; `C92_minimum` [FitProps] CEFN; `C92_moments` [FitProps] EFN
* C93 (partial) `C93_partial` [FitProps] CEFN; `C93_refuted` [FitProps] CEFN
* C94 (partial) `C94_partial` [PenaltyProps] EFN; `C94_refuted` [PenaltyProps] CEFN
* C95 (proved) `C95_mesh` [GmshProps] -; `C95_fields` [GmshProps] -
* C96 (proved) `C96_roundtrip` [FormatProps] -; `C96_reopen` [FormatProps] -
* C97 (partial) `C97_partial` [SvdProps] -; `C97_refuted` [SvdProps] -
* C98 (proved) `C98_samples` [SvdProps] -
* C99 (partial) `C99_partial` [SvdProps] -; `C99_refuted` [SvdProps] -
* C100 (proved) `C100_terms` [SvdProps] -
* C101 (proved) `C101_covariance` [KlProps] -
* C102 (proved) `C102_full` [KlProps] -; `C102_truncated` [KlProps] -
* C103 (proved) `C103_trajectory` [ShootProps] -; `C103_one_result` [ShootProps] -
* C104 (partial) `C104_partial` [ShootProps] -; `C104_refuted` [ShootProps] -
* C105 (proved) `C105_calculate1` [ShootProps] -
* C106 (partial) `C106_partial` [ShootProps] -; `C106_refuted` [ShootProps] -
* C107 (partial) `C107_partial` [ShootProps] -; `C107_refuted` [ShootProps] -
* C108 (proved) `C108_kept_1d` [ShootProps] -; `C108_elements_1d` [ShootProps] -
* C109 (proved) `C109_share` [ChecksProps] -
* C110 (proved) `C110_parameters` [ChecksProps] -
* C111 (proved) `C111_coordinates` [ChecksProps] -
* C112 (proved) `C112_same_regions` [ChecksProps] -
* C113 (proved) `C113_times` [ChecksProps] -
* C114 (proved) `C114_errors` [ChecksProps] -; `C114_reset` [ChecksProps] -
* C115 (proved) `C115_read_twice` [ChecksProps] -
* C116 (proved) `C116_window` [SlopeProps] EF; `C116_none` [SlopeProps] EF
* C117 (partial) `C117_partial` [SlopeProps] EF; `C117_refuted` [SlopeProps] EF
* C118 (proved) `C118_values` [SlopeProps] CEFN; `C118_short` [SlopeProps] CEFN
* C119 (proved) `C119_geometric` [SlopeProps] CEFN
* C120 (proved) `C120_entries` [RegProps] CEFN; `C120_independent` [RegProps] CEFN
* C121 (proved) `C121_curve` [RegProps] CEFN; `C121_few_levels` [RegProps] CEFN
* C122 (proved) `C122_product` [RegProps] CEFN
* C123 (partial) `C123_partial` [RegProps] -; `C123_refuted` [RegProps] -
* C124 (proved) `C124_memory` [DomainProps] -; `C124_file` [DomainProps] -
* C125 (partial) `C125_partial` [DomainProps] -; `C125_refuted` [DomainProps] -; `C125_refuted_full` [DomainProps] -
* C126 (partial) `C126_partial` [DomainProps] -; `C126_refuted` [DomainProps] -; `C126_refuted_full` [DomainProps] -
* C127 (partial) `C127_refuted` [DomainProps] -; `C127_type_error` [DomainProps] -
* C128 (partial) `C128_refuted` [BootProps] EF; `C128_refuted_full` [BootProps] EF
* C129 (proved) `C129_subsample` [BootProps] EF
* C130 (proved) `C130_flow_svd` [SeedProps] -; `C130_synth` [SeedProps] EFN
* C131 (partial) `C131_flow_ignores_seed` [SeedProps] -; `C131_shooting_ignores_seed` [SeedProps] -; `C131_flow_refuted` [SeedProps] -; `C131_shooting_refuted` [SeedProps] -; `C131_synth_refuted` [SeedProps] EFN
* C132 (partial) `C132_partial` [SeedProps] -; `C132_distinct_partial` [SeedProps] -; `C132_refuted` [SeedProps] -; `C132_equal_results` [SeedProps] -
* C133 (proved) `C133_sample_directories` [WorkProps] E
* C134 (proved) `C134_new_pool_erases` [WorkProps] E; `C134_debug_keeps` [WorkProps] -; `C134_new_pool_possible` [WorkProps] E
* C135 (partial) `C135_failed_directory_partial` [WorkProps] E; `C135_failed_directory_refuted` [WorkProps] -
* C136 (partial) `C136_relative_names_partial` [WorkProps] -; `C136_relative_names_refuted` [WorkProps] -; `C136_previous_file_refuted` [WorkProps] -
* C137 (proved) `C137_processes` [WorkProps] E; `C137_no_sample_lost` [WorkProps] E
* C138 (partial) `C138_one_thread_partial` [WorkProps] -; `C138_threads_refuted` [WorkProps] -
* C139 (partial) `C139_new_directory_partial` [WorkProps] E; `C139_debug_directory_refuted` [WorkProps] -
* C140 (proved) `C140_two_numbers` [InitProps] -; `C140_more_numbers` [InitProps] -
* C141 (partial) `C141_resume_partial` [PbsRestartProps] -; `C141_resume_refuted` [PbsRestartProps] -; `C141_erased_never_returns` [PbsRestartProps] -; `C141_pending_never_returns` [PbsRestartProps] -
* C142 (proved) `C142_restart` [PbsRestartProps] -
* C143 (proved) `C143_works_on` [PbsRestartProps] -; `C143_listing_refuted` [PbsRestartProps] -
* C144 (partial) `C144_level_simulation_partial` [PbsRestartProps] -; `C144_level_simulation_refuted` [PbsRestartProps] -
* C145 (proved) `C145_interpolation` [TimeProps] -; `C145_outside` [TimeProps] -
* C146 (partial) `C146_at_times_partial` [TimeProps] -; `C146_at_times_refuted` [TimeProps] -
* C147 (proved) `C147_means` [TimeProps] -
* C148 (proved) `C148_results` [FlowRunProps] -; `C148_failures` [FlowRunProps] -; `C148_success` [FlowRunProps] -; `C148_fine_files` [FlowRunProps] -
* C149 (partial) `C149_used_directory_partial` [FlowRunProps] -; `C149_used_directory_refuted` [FlowRunProps] -
* C150 (proved) `C150_levels` [FlowRunProps] -; `C150_no_mesh` [FlowRunProps] -
* C151 (partial) `C151_existing_partial` [FlowRunProps] -; `C151_no_samples` [FlowRunProps] -; `C151_existing_refuted` [FlowRunProps] -
* C152 (proved) `C152_derivatives` [LegDerProps] CEFN; `C152_agree` [LegDerProps] CEFN; `C152_outside` [LegDerProps] CEFN
* C153 (partial) `C153_equal_partial` [MomEqProps] CEFN; `C153_reference_partial` [MomEqProps] CEFN; `C153_equivalence` [MomEqProps] EF; `C153_equal_refuted` [MomEqProps] CEFN
* C154 (proved) `C154_script` [ScriptProps] -; `C154_jobs` [ScriptProps] -
* C155 (partial) `C155_partial` [ScriptProps] -; `C155_escaped_partial` [ScriptProps] -; `C155_refuted` [ScriptProps] -
* C156 (partial) `C156_partial` [ScriptProps] -; `C156_refuted` [ScriptProps] -
* C157 (proved) `C157_target` [AdaptProps] EFN
* C158 (proved) `C158_ends` [AdaptProps] -
* C159 (partial) `C159_partial` [AdaptProps] EFN; `C159_refuted` [AdaptProps] EFN
* C160 (partial) `C160_conditions_partial` [QWrapProps] -; `C160_bool` [QWrapProps] -; `C160_refuted` [QWrapProps] -
* C161 (partial) `C161_number_partial` [QWrapProps] -; `C161_array_partial` [QWrapProps] -; `C161_two_axes` [QWrapProps] -; `C161_refuted` [QWrapProps] -; `C161_numpy_refuted` [QWrapProps] -
* C162 (partial) `C162_numbers_partial` [QWrapProps] -; `C162_refuted` [QWrapProps] -
* C163 (partial) `C163_sound_partial` [QSizeProps] -; `C163_composed_partial` [QSizeProps] -; `C163_refuted` [QSizeProps] -; `C163_names_refuted` [QSizeProps] -
* C164 (proved) `C164_evaluates` [QSizeProps] -
* C165 (proved) `C165_unbiased` [ProbProps] EF
* C166 (proved) `C166_variance` [ProbProps] EF
* C167 (proved) `C167_reported` [ProbProps] EF
* C168 (proved) `C168_latest_job` [PbsLatestProps] -
* C169 (proved) `C169_first_pool` [PbsLatestProps] -
* C170 (partial) `C170_types_partial` [QDictProps] -; `C170_rows_refuted` [QDictProps] -
* C171 (partial) `C171_target_partial` [AllocProbProps] EFN; `C171_target_refuted` [AllocProbProps] EFN
* C172 (proved) `C172_large_error` [AllocProbProps] EFN
* C173 (proved) `C173_composite` [QuadProps] EFN
* C174 (proved) `C174_semiexact` [QuadProps] CEFN
* C175 (proved) `C175_semidefinite` [QuadProps] CEFN
* C176 (proved) `C176_exact` [QuadProps] CEFN
* C177 (proved) `C177_kept` [QuadProps] EFN; `C177_close` [QuadProps] EFN
* C178 (partial) `C178_start_partial` [QuadProps] CEFN; `C178_simple_refuted` [QuadProps] CEFN
* C179 (partial) `C179_working_directory_partial` [WorkCwdProps] -; `C179_next_pool` [WorkCwdProps] -; `C179_refuted` [WorkCwdProps] -
* C180 (proved) `C180_wait_collects_all` [ParProps] -
* C181 (proved) `C181_records_expected` [ParProps] -; `C181_same_as_one_process` [ParProps] -
* C182 (proved) `C182_always_valid` [ParProps] -; `C182_records_stay` [ParProps] -
* C183 (partial) `C183_wait_ends_refuted` [ParProps] -; `C183_escape_refuted` [ParProps] -; `C183_lost_forever` [ParProps] -; `C183_dead_thread` [ParProps] -; `C183_wait_ends_partial` [ParProps] -
* C184 (proved) `C184_schedule_to_target` [ParProps] -
* C185 (partial) `C185_first_moment_refuted` [OrthFirstProps] -; `C185_first_moment_partial` [OrthFirstProps] -
* C186 (proved) `C186_data_of_fit` [OrthFirstProps] -
* C187 (proved) `C187_subset` [PlotProps] CEFN; `C187_all` [PlotProps] CEFN; `C187_too_many` [PlotProps] CEFN
* C188 (proved) `C188_points` [PlotProps] CEFN; `C188_curve` [PlotProps] EF
* C189 (proved) `C189_stack` [PlotProps] CEFN; `C189_columns` [PlotProps] CEFN
* C190 (partial) `C190_positive_refuted` [PlotProps] EF; `C190_positive_partial` [PlotProps] EF
* C191 (proved) `C191_hull` [PlotProps] EF
* C192 (partial) `C192_extension_refuted` [PlotProps] -; `C192_extension_partial` [PlotProps] -
* C193 (partial) `C193_covariance_partial` [CovarProps] CEFN; `C193_covariance_refuted` [CovarProps] CEFN
* C194 (proved) `C194_correlation_length` [CovarProps] CEFN; `C194_tensor` [CovarProps] CEFN
* C195 (proved) `C195_given_modes` [SpectrumProps] CEFN
* C196 (proved) `C196_gauss_plane` [SpectrumProps] CEFN
* C197 (partial) `C196_gauss_plane` [SpectrumProps] CEFN; `C205_exponential_plane` [SpectrumExpProps] CEFN; `C197_plane_partial` [SpectrumExpProps] CEFN; `C197_line_covariance` [SpectrumProps] CEFN; `C197_line_refuted` [SpectrumProps] CEFN; `C197_exponent_refuted` [SpectrumProps] CEFN; `C197_tensor_refuted` [SpectrumProps] CEFN
* C198 (partial) `C198_sampling_partial` [SpectrumProps] CEFN; `C198_line_refuted` [SpectrumProps] CEFN; `C198_space_refuted` [SpectrumProps] CEFN
* C199 (proved) `C199_average` [SubProps] EF
* C200 (proved) `C200_in_turn` [SubProps] EF
* C201 (proved) `C201_estimates` [SubProps] EF
* C202 (partial) `C202_once_partial` [SubProps] EF; `C202_once_refuted` [SubProps] EF
* C203 (partial) `C203_shapes_partial` [ShapeProps] -; `C203_shapes_refuted` [ShapeProps] -; `C203_numbers_refuted` [ShapeProps] -
* C204 (proved) `C204_keep_dims` [ShapeProps] -
* C205 (proved) `C205_exponential_plane` [SpectrumExpProps] CEFN
* C206 (proved) `C206_synthetic` [SynthMcProps] EFN
* C207 (partial) `C207_offset_partial` [SynthMcProps] EFN; `C207_finest_refuted` [SynthMcProps] EFN
* C208 (proved) `C208_schedule` [ContProps] CEFN
* C209 (partial) `C209_odd_partial` [ContProps] -; `C209_odd_refuted` [ContProps] -
* C210 (proved) `C210_warm_start` [ContProps] CEFN
* C211 (partial) `C211_start_partial` [ContProps] CEFN; `C211_start_refuted` [ContProps] CEFN; `C211_root_refuted` [ContProps] -
* C212 (proved) `C212_chi2` [StatsProps] EFN; `C212_anova` [StatsProps] EFN
* C213 (partial) `C213_t_test_partial` [StatsProps] EFN; `C213_t_test_refuted` [StatsProps] EFN
* C214 (proved) `C214_workspace` [SynthWorkProps] EFN
* C215 (partial) `C215_work_partial` [SynthWorkProps] CEFN; `C215_work_refuted` [SynthWorkProps] EF
* C216 (proved) `C216_regions` [FracProps] -; `C216_region_ids` [FracProps] -
* C217 (partial) `C217_fracture_partial` [FracProps] -; `C217_fracture_refuted` [FracProps] -
* C218 (partial) `C218_violin_partial` [ViolinProps] -; `C218_violin_refuted` [ViolinProps] -
* C219 (proved) `C219_metric` [MetricProps] EFN
* C220 (partial) `C220_kl_partial` [MetricProps] CEFN; `C220_kl_refuted` [MetricProps] CEFN
* C221 (partial) `C221_environment_partial` [EnvProps] -; `C221_environment_refuted` [EnvProps] -
* C222 (partial) `C222_command_partial` [EnvProps] -; `C222_command_refuted` [EnvProps] -
* C223 (partial) `C223_bins_partial` [HistProps] CEFN; `C223_bins_refuted` [HistProps] CEFN
* C224 (partial) `C224_error_plots_partial` [BsPlotProps] EFN; `C224_error_plots_refuted` [BsPlotProps] EF
* C225 (partial) `C225_scatter_partial` [BsPlotProps] EF; `C225_scatter_refuted` [BsPlotProps] EF
* C226 (partial) `C226_regression_partial` [BsRegProps] EF; `C226_regression_refuted` [BsRegProps] EF
* C227 (partial) `C227_drawn_partial` [BsRegProps] EF; `C227_drawn_refuted` [BsRegProps] EF

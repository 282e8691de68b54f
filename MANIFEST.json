{
 "claims": [
  {
   "property": "C01",
   "status": "proved",
   "theorems": [
    "C01_ids_counted",
    "C01_ids_unique",
    "C01_handed_once",
    "C01_handed_scheduled"
   ],
   "note": "Every reachable state of the sampler model (targets, scheduling, polling, adding, renewing, restarts)."
  },
  {
   "property": "C02",
   "status": "proved",
   "theorems": [
    "C02_tag_read_back",
    "C02_tag_injective"
   ],
   "note": "All naturals, including those wider than the padding."
  },
  {
   "property": "C03",
   "status": "proved",
   "theorems": [
    "C03_schedule_to_target",
    "C03_wrong_length_rejected",
    "C03_targets_only_rise"
   ],
   "note": "Targets are rationals; np.float64 rounding is not modelled."
  },
  {
   "property": "C04",
   "status": "proved",
   "theorems": [
    "C04_conservation",
    "C04_conservation_restarts",
    "C04_ask_collects_all"
   ],
   "note": "One-process pool and HDF storage."
  },
  {
   "property": "C05",
   "status": "proved",
   "theorems": [
    "C05_records_expected",
    "C05_history_independent",
    "C05_record_is_answer"
   ],
   "note": "For simulations whose result depends only on the configuration and the seed."
  },
  {
   "property": "C06",
   "status": "proved",
   "theorems": [
    "C06_reported_in_order",
    "C06_all_reported",
    "C06_success_or_failure",
    "C06_running"
   ],
   "note": "OneProcessPool without a work directory."
  },
  {
   "property": "C07",
   "status": "partial",
   "theorems": [
    "C07_handover_partial",
    "C07_handover_refuted",
    "C07_counter_refuted"
   ],
   "note": "A result delivered between the copy and the clear of its queue is lost for ever (refuted, also the counter); proved for all interleavings: nothing is returned twice or made up and the counter is scheduled minus returned."
  },
  {
   "property": "C08",
   "status": "partial",
   "theorems": [
    "C08_worker_error_partial",
    "C08_escaped_never_reported",
    "C08_worker_error_refuted"
   ],
   "note": "Exceptions outside the try block are never reported and leave the counter positive in every continuation; errors inside the try block are reported as failed."
  },
  {
   "property": "C09",
   "status": "proved",
   "theorems": [
    "C09_nonpositive_timeout",
    "C09_no_timeout",
    "C09_timeout",
    "C09_ends",
    "C09_sampler_instance"
   ],
   "note": "Stated for an arbitrary pool and storage, instantiated with the modelled ones; the clock is an arbitrary function."
  },
  {
   "property": "C10",
   "status": "proved",
   "theorems": [
    "C10_plan_bounds",
    "C10_adding_grows",
    "C10_adding_converges",
    "C10_adding_returns"
   ],
   "note": "Positive timeouts or none; rational arithmetic instead of doubles."
  },
  {
   "property": "C100",
   "status": "proved",
   "theorems": [
    "C100_terms"
   ],
   "note": "randomized_svd is an oracle returning as many singular values as asked for."
  },
  {
   "property": "C101",
   "status": "proved",
   "theorems": [
    "C101_covariance"
   ],
   "note": "exp and the power are functions with exp 0 = 1 and 0 for 0."
  },
  {
   "property": "C102",
   "status": "proved",
   "theorems": [
    "C102_full",
    "C102_truncated"
   ],
   "note": "Exact decomposition and positive semidefinite covariance matrix are hypotheses; distributions are finite."
  },
  {
   "property": "C103",
   "status": "proved",
   "theorems": [
    "C103_trajectory",
    "C103_one_result"
   ],
   "note": "exact arithmetic"
  },
  {
   "property": "C104",
   "status": "partial",
   "theorems": [
    "C104_partial",
    "C104_refuted"
   ],
   "note": "false: line 75 of simulation_shooting_2D.py runs the fine sample again, so the coarse result always equals the fine one; proved: the fine result is right"
  },
  {
   "property": "C105",
   "status": "proved",
   "theorems": [
    "C105_calculate1"
   ],
   "note": "the random field is an arbitrary function of the position"
  },
  {
   "property": "C106",
   "status": "partial",
   "theorems": [
    "C106_partial",
    "C106_refuted"
   ],
   "note": "false: level_instance of the 2D simulation writes to the configuration of the simulation itself; proved: all levels share the configuration of the last level"
  },
  {
   "property": "C107",
   "status": "partial",
   "theorems": [
    "C107_partial",
    "C107_refuted"
   ],
   "note": "false: close steps can give equal numbers of elements (steps 1 and 0.9, complexity 2) and the assertion fails; proved when the quotients differ by at least one"
  },
  {
   "property": "C108",
   "status": "proved",
   "theorems": [
    "C108_kept_1d",
    "C108_elements_1d"
   ],
   "note": ""
  },
  {
   "property": "C109",
   "status": "proved",
   "theorems": [
    "C109_share"
   ],
   "note": "Added after a seeded bug was not caught by the earlier theorems."
  },
  {
   "property": "C11",
   "status": "partial",
   "theorems": [
    "C11_returns_iff_partial",
    "C11_wait_refuted"
   ],
   "note": "False in general: after a restart that lost samples the waiting loop never ends. Proved: exactly when it ends."
  },
  {
   "property": "C110",
   "status": "proved",
   "theorems": [
    "C110_parameters"
   ],
   "note": "Added after a seeded bug was not caught by the earlier theorems."
  },
  {
   "property": "C111",
   "status": "proved",
   "theorems": [
    "C111_coordinates"
   ],
   "note": "Added after a seeded bug was not caught by the earlier theorems."
  },
  {
   "property": "C112",
   "status": "proved",
   "theorems": [
    "C112_same_regions"
   ],
   "note": "Added after a seeded bug was not caught by the earlier theorems."
  },
  {
   "property": "C113",
   "status": "proved",
   "theorems": [
    "C113_times"
   ],
   "note": "Added after a seeded bug was not caught by the earlier theorems."
  },
  {
   "property": "C114",
   "status": "proved",
   "theorems": [
    "C114_errors",
    "C114_reset"
   ],
   "note": "Added after a seeded bug was not caught by the earlier theorems."
  },
  {
   "property": "C115",
   "status": "proved",
   "theorems": [
    "C115_read_twice"
   ],
   "note": "Added after a seeded bug was not caught by the earlier theorems."
  },
  {
   "property": "C116",
   "status": "proved",
   "theorems": [
    "C116_window",
    "C116_none"
   ],
   "note": "Over real numbers."
  },
  {
   "property": "C117",
   "status": "partial",
   "theorems": [
    "C117_partial",
    "C117_refuted"
   ],
   "note": "False in full: parts containing the last value are never considered. Proved: a part without the last value is found with its least squares line, best among those for at most twelve values."
  },
  {
   "property": "C118",
   "status": "proved",
   "theorems": [
    "C118_values",
    "C118_short"
   ],
   "note": "Over real numbers; a nonpositive value after a positive one is outside of the model."
  },
  {
   "property": "C119",
   "status": "proved",
   "theorems": [
    "C119_geometric"
   ],
   "note": "Over real numbers."
  },
  {
   "property": "C12",
   "status": "partial",
   "theorems": [
    "C12_file_n_finished",
    "C12_memory_n_finished_partial",
    "C12_memory_n_finished_refuted"
   ],
   "note": "Proved for the file storage. False for the in-memory storage, whose exact count is proved."
  },
  {
   "property": "C120",
   "status": "proved",
   "theorems": [
    "C120_entries",
    "C120_independent"
   ],
   "note": "Over real numbers; the solver is arbitrary; non-positive variances or steps on levels 1,... are outside of the model."
  },
  {
   "property": "C121",
   "status": "proved",
   "theorems": [
    "C121_curve",
    "C121_few_levels"
   ],
   "note": "Over real numbers; hypothesis: the solver minimises the sum of squares (a witness is constructed)."
  },
  {
   "property": "C122",
   "status": "proved",
   "theorems": [
    "C122_product"
   ],
   "note": "Same hypotheses as C121."
  },
  {
   "property": "C123",
   "status": "partial",
   "theorems": [
    "C123_partial",
    "C123_refuted"
   ],
   "note": "False in full: a cached list with one number matches longer lists repeating it. Proved for lists of one length."
  },
  {
   "property": "C124",
   "status": "proved",
   "theorems": [
    "C124_memory",
    "C124_file"
   ],
   "note": "Scalar quantities; np.percentile with linear interpolation over rational numbers."
  },
  {
   "property": "C125",
   "status": "partial",
   "theorems": [
    "C125_partial",
    "C125_refuted",
    "C125_refuted_full"
   ],
   "note": "False: chunks is called without level_id, so the first level of the storage is read for every level. Proved for the level stored first."
  },
  {
   "property": "C126",
   "status": "partial",
   "theorems": [
    "C126_partial",
    "C126_refuted",
    "C126_refuted_full"
   ],
   "note": "False: None stands for 0.01, and the AttributeError of a level without samples is returned instead of raised, so chunks raises AssertionError. Proved: quantile 0 gives the whole range; files with samples on all levels are accepted."
  },
  {
   "property": "C127",
   "status": "partial",
   "theorems": [
    "C127_refuted",
    "C127_type_error"
   ],
   "note": "False: ChunkSpec has no n_samples attribute, so the call always raises."
  },
  {
   "property": "C128",
   "status": "partial",
   "theorems": [
    "C128_refuted",
    "C128_refuted_full"
   ],
   "note": "False for all inputs: the floats of the subsample are used as an index."
  },
  {
   "property": "C129",
   "status": "proved",
   "theorems": [
    "C129_subsample"
   ],
   "note": "One chunk per level; more chunks: C52_chunks_refuted."
  },
  {
   "property": "C13",
   "status": "proved",
   "theorems": [
    "C13_unfinished"
   ],
   "note": "File storage, all histories with distinct identifiers across levels."
  },
  {
   "property": "C130",
   "status": "proved",
   "theorems": [
    "C130_flow_svd",
    "C130_synth"
   ],
   "note": "Flow123d is taken as a function of mesh and field; numpy's global generator is a state machine."
  },
  {
   "property": "C131",
   "status": "partial",
   "theorems": [
    "C131_flow_ignores_seed",
    "C131_shooting_ignores_seed",
    "C131_flow_refuted",
    "C131_shooting_refuted",
    "C131_synth_refuted"
   ],
   "note": "False: gstools and Fourier fields take seeds from the operating system, the shooting ignores the seed, and class counters decide which synthetic samples fail. Proved cases: C130."
  },
  {
   "property": "C132",
   "status": "partial",
   "theorems": [
    "C132_partial",
    "C132_distinct_partial",
    "C132_refuted",
    "C132_equal_results"
   ],
   "note": "Seeds exist and have 32 bits; distinctness is false by counting, so a campaign of more than 2^32 samples of a level repeats one."
  },
  {
   "property": "C133",
   "status": "proved",
   "theorems": [
    "C133_sample_directories"
   ],
   "note": "OneProcessPool; invariant 'holds' by induction over the samples. Simulations are functions from id and visible files to writes."
  },
  {
   "property": "C134",
   "status": "proved",
   "theorems": [
    "C134_new_pool_erases",
    "C134_debug_keeps",
    "C134_new_pool_possible"
   ],
   "note": "The tree of files is assumed closed under parents (rooted)."
  },
  {
   "property": "C135",
   "status": "partial",
   "theorems": [
    "C135_failed_directory_partial",
    "C135_failed_directory_refuted"
   ],
   "note": "False: move_failed_rm keeps the directory, a later successful run does not remove it. Proved: it exists iff some run failed."
  },
  {
   "property": "C136",
   "status": "partial",
   "theorems": [
    "C136_relative_names_partial",
    "C136_relative_names_refuted",
    "C136_previous_file_refuted"
   ],
   "note": "False from the second sample on: the working directory was removed (debug=False, scheduling raises) or is that of the previous sample (debug=True, its modified file is copied). Proved: a sample started in an existing working directory gets the same as with absolute names."
  },
  {
   "property": "C137",
   "status": "proved",
   "theorems": [
    "C137_processes",
    "C137_no_sample_lost"
   ],
   "note": "All interleavings of atomic events Start, Call, Write, Return, Deliver; copying of common files and _process_result are atomic."
  },
  {
   "property": "C138",
   "status": "partial",
   "theorems": [
    "C138_one_thread_partial",
    "C138_threads_refuted"
   ],
   "note": "False with two threads: os.chdir changes the directory of both; one sample's files land in the directory of the other. Proved: with one thread same as processes."
  },
  {
   "property": "C139",
   "status": "partial",
   "theorems": [
    "C139_new_directory_partial",
    "C139_debug_directory_refuted"
   ],
   "note": "False: an existing directory of the sample is used as it is. Proved when the directory of the sample does not exist."
  },
  {
   "property": "C14",
   "status": "proved",
   "theorems": [
    "C14_renew",
    "C14_one_outcome",
    "C14_same_failures"
   ],
   "note": "renew_failed_samples of the sampler with the one-process pool."
  },
  {
   "property": "C140",
   "status": "proved",
   "theorems": [
    "C140_two_numbers",
    "C140_more_numbers"
   ],
   "note": "sample_range is a parameter of the model (range_item); its values are in C51/C76."
  },
  {
   "property": "C141",
   "status": "partial",
   "theorems": [
    "C141_resume_partial",
    "C141_resume_refuted",
    "C141_erased_never_returns",
    "C141_pending_never_returns"
   ],
   "note": "False in full; holds with debug and no pending sample in the set."
  },
  {
   "property": "C142",
   "status": "proved",
   "theorems": [
    "C142_restart"
   ],
   "note": "Campaigns started by a fresh pool; steps of the model are atomic."
  },
  {
   "property": "C143",
   "status": "proved",
   "theorems": [
    "C143_works_on",
    "C143_listing_refuted"
   ],
   "note": "C143_listing_refuted shows that the condition on the listing is needed."
  },
  {
   "property": "C144",
   "status": "partial",
   "theorems": [
    "C144_level_simulation_partial",
    "C144_level_simulation_refuted"
   ],
   "note": "False after a restart with debug."
  },
  {
   "property": "C145",
   "status": "proved",
   "theorems": [
    "C145_interpolation",
    "C145_outside"
   ],
   "note": "Exact arithmetic; scipy.interpolate.interp1d is modelled after its source (external library)."
  },
  {
   "property": "C146",
   "status": "partial",
   "theorems": [
    "C146_at_times_partial",
    "C146_at_times_refuted"
   ],
   "note": "False when a neighbouring time has NaN."
  },
  {
   "property": "C147",
   "status": "proved",
   "theorems": [
    "C147_means"
   ],
   "note": "Exact arithmetic."
  },
  {
   "property": "C148",
   "status": "proved",
   "theorems": [
    "C148_results",
    "C148_failures",
    "C148_success",
    "C148_fine_files"
   ],
   "note": "flow123d is an arbitrary function from directories to written files; the fields are those of C130 and the meshes those of MeshModel.v."
  },
  {
   "property": "C149",
   "status": "partial",
   "theorems": [
    "C149_used_directory_partial",
    "C149_used_directory_refuted"
   ],
   "note": "False: the fine result may be read from a balance file that was in the directory before, when flow123d writes none."
  },
  {
   "property": "C15",
   "status": "proved",
   "theorems": [
    "C15_reopen",
    "C15_restart_keeps"
   ],
   "note": "Storage level (all read functions) and sampler level."
  },
  {
   "property": "C150",
   "status": "proved",
   "theorems": [
    "C150_levels",
    "C150_no_mesh"
   ],
   "note": "gmsh is an arbitrary function of the step."
  },
  {
   "property": "C151",
   "status": "partial",
   "theorems": [
    "C151_existing_partial",
    "C151_no_samples",
    "C151_existing_refuted"
   ],
   "note": "False: the levels are created and the directories stay as they are, but _fields_used_params is only set with clean, and every sample raises a TypeError."
  },
  {
   "property": "C152",
   "status": "proved",
   "theorems": [
    "C152_derivatives",
    "C152_agree",
    "C152_outside"
   ],
   "note": "Exact arithmetic; numpy's legder and legval are modelled after their source."
  },
  {
   "property": "C153",
   "status": "partial",
   "theorems": [
    "C153_equal_partial",
    "C153_reference_partial",
    "C153_equivalence",
    "C153_equal_refuted"
   ],
   "note": "False: the reference domain is not compared. Proved when the reference domains agree, in particular when they are not given; comparison is an equivalence."
  },
  {
   "property": "C154",
   "status": "proved",
   "theorems": [
    "C154_script",
    "C154_jobs"
   ],
   "note": "ScriptProps.v; str.format is modelled for plain fields and doubled braces."
  },
  {
   "property": "C155",
   "status": "partial",
   "theorems": [
    "C155_partial",
    "C155_escaped_partial",
    "C155_refuted"
   ],
   "note": "Proved for lines without braces and for lines with doubled braces; refuted for lines with braces."
  },
  {
   "property": "C156",
   "status": "partial",
   "theorems": [
    "C156_partial",
    "C156_refuted"
   ],
   "note": "Proved for words without characters special to the shell; refuted for a path with a blank."
  },
  {
   "property": "C157",
   "status": "proved",
   "theorems": [
    "C157_target"
   ],
   "note": "whole loop, any estimates"
  },
  {
   "property": "C158",
   "status": "proved",
   "theorems": [
    "C158_ends"
   ],
   "note": "explicit bound on the rounds"
  },
  {
   "property": "C159",
   "status": "partial",
   "theorems": [
    "C159_partial",
    "C159_refuted"
   ],
   "note": "failed samples count as scheduled and are never replaced, so the collected numbers can stay below the estimate (refuted, also beyond three times the target); collected and failed together are enough, and without failures the bound holds"
  },
  {
   "property": "C16",
   "status": "partial",
   "theorems": [
    "C16_save_global_partial",
    "C16_save_global_refuted",
    "C16_more_levels_refuted"
   ],
   "note": "False for an object that created the file and for a different number of levels. Proved for a reopened storage with the same number of levels."
  },
  {
   "property": "C160",
   "status": "partial",
   "theorems": [
    "C160_conditions_partial",
    "C160_bool",
    "C160_refuted"
   ],
   "note": "false for python bools (for every condition: C160_bool); proved for two conditions"
  },
  {
   "property": "C161",
   "status": "partial",
   "theorems": [
    "C161_number_partial",
    "C161_array_partial",
    "C161_two_axes",
    "C161_refuted",
    "C161_numpy_refuted"
   ],
   "note": "false for arrays of two axes and numpy integers; proved for python numbers and arrays of one axis"
  },
  {
   "property": "C162",
   "status": "partial",
   "theorems": [
    "C162_numbers_partial",
    "C162_refuted"
   ],
   "note": "the value has two extra axes; the numbers are right"
  },
  {
   "property": "C163",
   "status": "partial",
   "theorems": [
    "C163_sound_partial",
    "C163_composed_partial",
    "C163_refuted",
    "C163_names_refuted"
   ],
   "note": "False in full: a scalar quantity plus a list of three numbers keeps the scalar type but has three components; a dictionary that repeats a name is smaller than its samples. Proved for all programs whose arithmetic has a second operand of the same size or of size one and whose composed types are as large as their parts (true of QDict, QField, QTimeSeries, QArray with distinct names), subsampling included."
  },
  {
   "property": "C164",
   "status": "proved",
   "theorems": [
    "C164_evaluates"
   ],
   "note": "By induction over the objects of the program, with the invariants of selections and sizes."
  },
  {
   "property": "C165",
   "status": "proved",
   "theorems": [
    "C165_unbiased"
   ],
   "note": "expected value over all outcomes of a campaign with finite sample distributions; chunks of any layout; exact real arithmetic"
  },
  {
   "property": "C166",
   "status": "proved",
   "theorems": [
    "C166_variance"
   ],
   "note": "variance over all outcomes of the campaign"
  },
  {
   "property": "C167",
   "status": "proved",
   "theorems": [
    "C167_reported"
   ],
   "note": "at least two samples on every level (below that the code reports an infinite variance)"
  },
  {
   "property": "C168",
   "status": "proved",
   "theorems": [
    "C168_latest_job"
   ],
   "note": "all runs of the batch pool model"
  },
  {
   "property": "C169",
   "status": "proved",
   "theorems": [
    "C169_first_pool"
   ],
   "note": "names without semicolons and line ends"
  },
  {
   "property": "C17",
   "status": "partial",
   "theorems": [
    "C17_crash_partial",
    "C17_writes_are_save",
    "C17_crash_refuted"
   ],
   "note": "False: identifiers are written before values. Proved: the exact states after a crash; every stored value belongs to a collected identifier."
  },
  {
   "property": "C170",
   "status": "partial",
   "theorems": [
    "C170_types_partial",
    "C170_rows_refuted"
   ],
   "note": "the types are those of the last parts; the samples are not: the key reads the samples of its first part, and the chunk has more rows than the size of the type"
  },
  {
   "property": "C171",
   "status": "partial",
   "theorems": [
    "C171_target_partial",
    "C171_target_refuted"
   ],
   "note": "Refuted: unit variances with costs 1 and 100 give more than 1.4 times the target (the cap of the sample numbers cuts the cheap level). Proved: at most three times the target."
  },
  {
   "property": "C172",
   "status": "proved",
   "theorems": [
    "C172_large_error"
   ],
   "note": "Chebyshev inequality with the bound of C171."
  },
  {
   "property": "C173",
   "status": "proved",
   "theorems": [
    "C173_composite"
   ],
   "note": "exact arithmetic; Coquelicot integrals"
  },
  {
   "property": "C174",
   "status": "proved",
   "theorems": [
    "C174_semiexact"
   ],
   "note": "Gauss rule and quad enter through their documented properties (exactness degree; subintervals tile the domain)"
  },
  {
   "property": "C175",
   "status": "proved",
   "theorems": [
    "C175_semidefinite"
   ],
   "note": ""
  },
  {
   "property": "C176",
   "status": "proved",
   "theorems": [
    "C176_exact"
   ],
   "note": "scipy's quad idealised as an exact integrator"
  },
  {
   "property": "C177",
   "status": "proved",
   "theorems": [
    "C177_kept",
    "C177_close"
   ],
   "note": "invariant over all sequences of evaluations"
  },
  {
   "property": "C178",
   "status": "partial",
   "theorems": [
    "C178_start_partial",
    "C178_simple_refuted"
   ],
   "note": "SimpleDistribution does not multiply by the error of the first moment: refuted for an error 2. Proved for Distribution, and for SimpleDistribution with unit error."
  },
  {
   "property": "C179",
   "status": "partial",
   "theorems": [
    "C179_working_directory_partial",
    "C179_next_pool",
    "C179_refuted"
   ],
   "note": "Holds for samples without workspace; after one sample with a workspace the process is in a removed directory (for every run) and a pool with a relative directory cannot be created."
  },
  {
   "property": "C18",
   "status": "partial",
   "theorems": [
    "C18_crash_partial",
    "C18_effects_are_the_loops",
    "C18_crash_refuted"
   ],
   "note": "False in general: identifiers handed to the pool before save_scheduled_samples are handed out again after a crash. Proved: recorded identifiers are never handed out again."
  },
  {
   "property": "C180",
   "status": "proved",
   "theorems": [
    "C180_wait_collects_all"
   ],
   "note": "holds for every interleaving, also with lost results: then the call does not return"
  },
  {
   "property": "C181",
   "status": "proved",
   "theorems": [
    "C181_records_expected",
    "C181_same_as_one_process"
   ],
   "note": "with C38 the estimates are then those of the campaign in one process"
  },
  {
   "property": "C182",
   "status": "proved",
   "theorems": [
    "C182_always_valid",
    "C182_records_stay"
   ],
   "note": ""
  },
  {
   "property": "C183",
   "status": "partial",
   "theorems": [
    "C183_wait_ends_refuted",
    "C183_escape_refuted",
    "C183_lost_forever",
    "C183_dead_thread",
    "C183_wait_ends_partial"
   ],
   "note": "refuted: a result arriving between copy and clear of its queue is dropped, and an escaped exception ends the thread that delivers results; in both cases no wait returns any more. Proved when neither happens and the workers go on"
  },
  {
   "property": "C184",
   "status": "proved",
   "theorems": [
    "C184_schedule_to_target"
   ],
   "note": ""
  },
  {
   "property": "C185",
   "status": "partial",
   "theorems": [
    "C185_first_moment_refuted",
    "C185_first_moment_partial"
   ],
   "note": "refuted when an eigenvalue is dropped: the first new function can be another one; proved if none is dropped"
  },
  {
   "property": "C186",
   "status": "proved",
   "theorems": [
    "C186_data_of_fit"
   ],
   "note": ""
  },
  {
   "property": "C187",
   "status": "proved",
   "theorems": [
    "C187_subset",
    "C187_all",
    "C187_too_many"
   ],
   "note": "R axioms; rounding is any function to a nearest integer"
  },
  {
   "property": "C188",
   "status": "proved",
   "theorems": [
    "C188_points",
    "C188_curve"
   ],
   "note": "R axioms"
  },
  {
   "property": "C189",
   "status": "proved",
   "theorems": [
    "C189_stack",
    "C189_columns"
   ],
   "note": "R axioms; annotations are not modelled"
  },
  {
   "property": "C19",
   "status": "proved",
   "theorems": [
    "C19_chunks",
    "C19_first_n",
    "C19_memory"
   ],
   "note": "Levels that have results; chunk size of the dataset arbitrary positive."
  },
  {
   "property": "C190",
   "status": "partial",
   "theorems": [
    "C190_positive_refuted",
    "C190_positive_partial"
   ],
   "note": "false: if there are values which are not positive, the first of them is drawn too; the partial theorem says exactly what is drawn when some value is positive"
  },
  {
   "property": "C191",
   "status": "proved",
   "theorems": [
    "C191_hull"
   ],
   "note": "R axioms"
  },
  {
   "property": "C192",
   "status": "partial",
   "theorems": [
    "C192_extension_refuted",
    "C192_extension_partial"
   ],
   "note": "false for names ending with the letters pdf without a dot; otherwise the extension is added exactly when missing and the result is stable"
  },
  {
   "property": "C193",
   "status": "partial",
   "theorems": [
    "C193_covariance_partial",
    "C193_covariance_refuted"
   ],
   "note": "Proved for 'gauss', 'exp' and numbers in (0,2] (also discharges the psd hypothesis of C102 there); refuted for every exponent above 2, which the constructor accepts and its documentation ('should be >= 1') allows. Real arithmetic, no rounding."
  },
  {
   "property": "C194",
   "status": "proved",
   "theorems": [
    "C194_correlation_length",
    "C194_tensor"
   ],
   "note": "Real arithmetic."
  },
  {
   "property": "C195",
   "status": "proved",
   "theorems": [
    "C195_given_modes"
   ],
   "note": "Amplitudes as finite distributions with the second moments of independent standard normal numbers. Real arithmetic, enough memory."
  },
  {
   "property": "C196",
   "status": "proved",
   "theorems": [
    "C196_gauss_plane"
   ],
   "note": "Frequencies from two independent uniform numbers per mode, mean as improper double integral; independence of the modes enters only through linearity of the mean."
  },
  {
   "property": "C197",
   "status": "partial",
   "theorems": [
    "C196_gauss_plane",
    "C205_exponential_plane",
    "C197_plane_partial",
    "C197_line_covariance",
    "C197_line_refuted",
    "C197_exponent_refuted",
    "C197_tensor_refuted"
   ],
   "note": "Holds for 'gauss' (C196) and 'exp' (C205) in the plane without tensor; for another exponent there the covariance of two points is right exactly if their distance is 0 or L. On a line the variance is passed as standard deviation of the frequencies, so the covariance is exp(-r^2/(2 pi^2 L^4)) and wrong for every L except one; the tensor is ignored."
  },
  {
   "property": "C198",
   "status": "partial",
   "theorems": [
    "C198_sampling_partial",
    "C198_line_refuted",
    "C198_space_refuted"
   ],
   "note": "Works on a line for exponent 2 and in the plane; on a line with any other exponent AttributeError (rng.rng), in space NotImplementedError."
  },
  {
   "property": "C199",
   "status": "proved",
   "theorems": [
    "C199_average"
   ],
   "note": "Any chunks."
  },
  {
   "property": "C20",
   "status": "proved",
   "theorems": [
    "C20_same_storages"
   ],
   "note": "For levels with results and non-empty batches; an empty successful batch makes the in-memory storage fail."
  },
  {
   "property": "C200",
   "status": "proved",
   "theorems": [
    "C200_in_turn"
   ],
   "note": "pick_samples itself; subsample resets the parameters before each chunk (C52_chunks_refuted)."
  },
  {
   "property": "C201",
   "status": "proved",
   "theorems": [
    "C201_estimates"
   ],
   "note": "Levels read in one chunk."
  },
  {
   "property": "C202",
   "status": "partial",
   "theorems": [
    "C202_once_partial",
    "C202_once_refuted"
   ],
   "note": "RNG.choice draws with replacement; true only when at most one sample is asked for."
  },
  {
   "property": "C203",
   "status": "partial",
   "theorems": [
    "C203_shapes_partial",
    "C203_shapes_refuted",
    "C203_numbers_refuted"
   ],
   "note": "False in full: results with two or more axes and more than one component are refused by both storages (ValueError; the memory storage computes prod / shape[0] * shape[1] from the left), numbers are refused by the file storage. Proved: exactly which shapes come back, with every entry."
  },
  {
   "property": "C204",
   "status": "proved",
   "theorems": [
    "C204_keep_dims"
   ],
   "note": "All arrays of every rank."
  },
  {
   "property": "C205",
   "status": "proved",
   "theorems": [
    "C205_exponential_plane"
   ],
   "note": "Mean over the two uniform numbers of a mode as improper double integral: Bessel's equation, differentiation under the integral, and the only bounded solution of f'' = f in the limit."
  },
  {
   "property": "C206",
   "status": "proved",
   "theorems": [
    "C206_synthetic"
   ],
   "note": "Composition of the synthetic simulation (calculate), the stored samples and estimate_mean; independent seeds."
  },
  {
   "property": "C207",
   "status": "partial",
   "theorems": [
    "C207_offset_partial",
    "C207_finest_refuted"
   ],
   "note": "False in full: the lowest level does not add the number of the location to the results (coarse step 0), so the estimate is smaller than the mean of the finest results by exactly this number (C207_offset_partial) unless there is one level; refuted for component 2 of the result format of the class with two levels."
  },
  {
   "property": "C208",
   "status": "proved",
   "theorems": [
    "C208_schedule"
   ],
   "note": "Exact arithmetic for the division by 1.2 (python uses floats)."
  },
  {
   "property": "C209",
   "status": "partial",
   "theorems": [
    "C209_odd_partial",
    "C209_odd_refuted"
   ],
   "note": "False in full: the last size is the number of moments, odd or not (refuted for 6 moments: 3, 5, 6); all others are odd."
  },
  {
   "property": "C21",
   "status": "partial",
   "theorems": [
    "C21_file_cost_partial",
    "C21_pool_records",
    "C21_cost_between_partial",
    "C21_cost_refuted",
    "C21_memory_refuted"
   ],
   "note": "False for more than one poll. Proved: value stored, and that it stays between the shortest and longest running time."
  },
  {
   "property": "C210",
   "status": "proved",
   "theorems": [
    "C210_warm_start"
   ],
   "note": "scipy's minimize is an arbitrary function that keeps the number of multipliers; positive errors of at least two moments."
  },
  {
   "property": "C211",
   "status": "partial",
   "theorems": [
    "C211_start_partial",
    "C211_start_refuted",
    "C211_root_refuted"
   ],
   "note": "False in full: for a domain of length one the penalty is 0.01/0 and the functional NaN (refuted); estimate_density passes the tolerance in place of the size and always raises AssertionError. Proved: finite for all other lengths."
  },
  {
   "property": "C212",
   "status": "proved",
   "theorems": [
    "C212_chi2",
    "C212_anova"
   ],
   "note": "Distribution functions of scipy are arbitrary functions; uniform value under the hypothesis."
  },
  {
   "property": "C213",
   "status": "partial",
   "theorems": [
    "C213_t_test_partial",
    "C213_t_test_refuted"
   ],
   "note": "False in full: the assertion is p_val < max_p_val, so the probability of a false failure is 1 - max_p_val; samples whose mean is exactly mu_0 always fail and samples far away pass."
  },
  {
   "property": "C214",
   "status": "proved",
   "theorems": [
    "C214_workspace"
   ],
   "note": "Random values of scipy's norm(1,2) are an arbitrary function of seed and size; the yaml file is given by its two entries."
  },
  {
   "property": "C215",
   "status": "partial",
   "theorems": [
    "C215_work_partial",
    "C215_work_refuted"
   ],
   "note": "False in full: SynthSimulationWorkspace uses the constant 1/20000 and never calls n_ops_estimate. Proved for SynthSimulation."
  },
  {
   "property": "C216",
   "status": "proved",
   "theorems": [
    "C216_regions",
    "C216_region_ids"
   ],
   "note": "The geometry (intersect_decompositions) is an arbitrary input."
  },
  {
   "property": "C217",
   "status": "partial",
   "theorems": [
    "C217_fracture_partial",
    "C217_fracture_refuted"
   ],
   "note": "True with numbers 4+i when no segment lies on two fractures or on the inflow/outflow side. False in general: of two overlapping fractures the first loses the common segments, a fracture on the outflow side becomes boundary; and the documented numbers 1000+i are never used."
  },
  {
   "property": "C218",
   "status": "partial",
   "theorems": [
    "C218_violin_partial",
    "C218_violin_refuted"
   ],
   "note": "The pairing of levels is right for a quantity whose samples accept axis and whose arrays keep both members of a pair on level 0. With the classes of the repository the method raises TypeError for two or more levels and UnboundLocalError otherwise; with the argument accepted a scalar quantity still fails with IndexError at level 0."
  },
  {
   "property": "C219",
   "status": "proved",
   "theorems": [
    "C219_metric"
   ],
   "note": "The quadrature is an input, exact on continuous functions."
  },
  {
   "property": "C22",
   "status": "partial",
   "theorems": [
    "C22_partial",
    "C22_refuted"
   ],
   "note": "False in full: names of three characters cannot be saved, formats with points cannot be loaded and are not compared, reordered locations are accepted, shorter lists of times are repeated; partial for plain formats up to the order of locations."
  },
  {
   "property": "C220",
   "status": "partial",
   "theorems": [
    "C220_kl_partial",
    "C220_kl_refuted"
   ],
   "note": "For normalized densities with Q >= 1e-300 the value lies within 1e-10 above the divergence, is exact from 1e-10 on, and both implementations agree. False in full: equal densities give 1e-10, and for densities with different integrals the implementations differ from the divergence and from each other."
  },
  {
   "property": "C221",
   "status": "partial",
   "theorems": [
    "C221_environment_partial",
    "C221_environment_refuted"
   ],
   "note": "True for paths /c1/.../cn with n > 0. For the root directory the variable tail is unbound; for a path with two leading slashes, which os.path.abspath keeps, the loop never ends."
  },
  {
   "property": "C222",
   "status": "partial",
   "theorems": [
    "C222_command_partial",
    "C222_command_refuted"
   ],
   "note": "Cleaning only with run and the option. False in full: collect and process schedule samples like run, renew is not distinguished from collect, and with generate_jobs of the class itself every command ends with an exception (TypeError: unexpected arguments)."
  },
  {
   "property": "C223",
   "status": "partial",
   "theorems": [
    "C223_bins_partial",
    "C223_bins_refuted"
   ],
   "note": "True for at least 16 samples. With fewer samples there is at most one edge and therefore no bin; a zero sample on the logarithmic axis raises ValueError."
  },
  {
   "property": "C224",
   "status": "partial",
   "theorems": [
    "C224_error_plots_partial",
    "C224_error_plots_refuted"
   ],
   "note": "Each first plot is right. The first two divide the stored arrays in place through views, so a second plot shows other values; and the constructor does not set the attributes, so a fresh object raises AttributeError."
  },
  {
   "property": "C225",
   "status": "partial",
   "theorems": [
    "C225_scatter_partial",
    "C225_scatter_refuted"
   ],
   "note": "True for a table with a row for the total. Estimate.plot_bs_var_log gives a table without it, so every level stands above the label of the previous one."
  },
  {
   "property": "C226",
   "status": "partial",
   "theorems": [
    "C226_regression_partial",
    "C226_regression_refuted"
   ],
   "note": "Values are right for every selection; the positions agree exactly when j*M = m*(number of selected moments), so for all moments, but not for a proper selection such as [1] of two moments."
  },
  {
   "property": "C227",
   "status": "partial",
   "theorems": [
    "C227_drawn_partial",
    "C227_drawn_refuted"
   ],
   "note": "The moments object is passed as n_created_samples. Drawn for at most two levels or vanishing variances; TypeError for every other input."
  },
  {
   "property": "C23",
   "status": "proved",
   "theorems": [
    "C23_batching",
    "C23_rejections"
   ],
   "note": "Refinement to an abstract batching machine, partition of the requested samples, limits, raise after ten consecutive rejections."
  },
  {
   "property": "C24",
   "status": "proved",
   "theorems": [
    "C24_outcomes"
   ],
   "note": "Every prefix of the appended records; exact characterization of both dictionaries."
  },
  {
   "property": "C25",
   "status": "partial",
   "theorems": [
    "C25_times_partial",
    "C25_times_refuted",
    "C25_level0_refuted"
   ],
   "note": "False in full: a kill between the result and the time record loses the last sample, and a job without level 0 samples gets a level 0 record. Proved for kills between samples and levels with executed samples."
  },
  {
   "property": "C26",
   "status": "partial",
   "theorems": [
    "C26_running_partial",
    "C26_running_refuted"
   ],
   "note": "False in full: the list is modified while iterated, so a running job after a finished one is not counted. Proved: never counts too much, forgets no job; exact under a guard, see C79."
  },
  {
   "property": "C27",
   "status": "partial",
   "theorems": [
    "C27_recovery_partial",
    "C27_recovery_refuted",
    "C27_raises_refuted"
   ],
   "note": "False in full: failed samples are dropped, a success may be returned twice, and the poll raises if a new job has finished. Proved: returned set is exactly the successful samples of the set; exactly once see C80."
  },
  {
   "property": "C28",
   "status": "partial",
   "theorems": [
    "C28_job_numbers_refuted",
    "C81_job_numbers"
   ],
   "note": "False in full: the last listed number is used, listing order is arbitrary. Guarded version C81."
  },
  {
   "property": "C29",
   "status": "partial",
   "theorems": [
    "C29_class_file_refuted",
    "C29_stale_refuted",
    "C82_class_file"
   ],
   "note": "False in full: separators in names, and an existing file is kept. Guarded version C82."
  },
  {
   "property": "C30",
   "status": "partial",
   "theorems": [
    "C30_tiling_partial",
    "C30_tiling_refuted"
   ],
   "note": "One level of any type with distinct keys is tiled by its keys, arrays only of parts of size one. Refuted for arrays of larger parts (types made by moments): item access raises ValueError."
  },
  {
   "property": "C31",
   "status": "proved",
   "theorems": [
    "C31_declared_paths"
   ],
   "note": "All formats with distinct names, times and locations."
  },
  {
   "property": "C32",
   "status": "partial",
   "theorems": [
    "C66_parts_come_back",
    "C32_array_partial",
    "C32_array_refuted"
   ],
   "note": "Arrays of parts of size other than one: every item access raises ValueError (refuted). Everything else proved."
  },
  {
   "property": "C33",
   "status": "proved",
   "theorems": [
    "C33_replace_scalar",
    "C33_moments_on_surface"
   ],
   "note": "Types modelled structurally; moments chunk transposition modelled on nested lists."
  },
  {
   "property": "C34",
   "status": "proved",
   "theorems": [
    "C34_chunks",
    "C34_samplewise",
    "C34_arithmetic",
    "C34_constant"
   ],
   "note": "Any expression of arithmetic, numpy functions, comparisons, items, composition, moments and selections over stored data; composition and selection of constants alone excluded."
  },
  {
   "property": "C35",
   "status": "partial",
   "theorems": [
    "C35_selections_partial",
    "C35_own_root_partial",
    "C35_subsample_refuted"
   ],
   "note": "Holds without subsampling; q.subsample(..)+q is built and mixes samples."
  },
  {
   "property": "C36",
   "status": "proved",
   "theorems": [
    "C36_condition",
    "C36_condition_constant",
    "C36_select",
    "C36_nan"
   ],
   "note": "NaN over Coq's SpecFloat."
  },
  {
   "property": "C37",
   "status": "partial",
   "theorems": [
    "C67_estimate_reads",
    "C67_chunks_numbered",
    "C37_stale_refuted",
    "C37_slices_refuted",
    "C37_addresses_refuted"
   ],
   "note": "The part about estimate_mean holds (C67); a cached call in general can return an old value."
  },
  {
   "property": "C38",
   "status": "proved",
   "theorems": [
    "C38_chunking",
    "C38_quantity_chunking",
    "C38_values"
   ],
   "note": "Over real numbers with NaN and infinities; rounding left out."
  },
  {
   "property": "C39",
   "status": "proved",
   "theorems": [
    "C39_usable",
    "C39_counts",
    "C39_ignored",
    "C39_none_usable"
   ],
   "note": "All chunk layouts; quantities with at least one component."
  },
  {
   "property": "C40",
   "status": "partial",
   "theorems": [
    "C40_every_level_partial",
    "C40_empty_level_refuted"
   ],
   "note": "False as stated: a level without usable samples gives NaN. Proved when every level has a usable sample."
  },
  {
   "property": "C41",
   "status": "proved",
   "theorems": [
    "C41_variance"
   ],
   "note": "Over real numbers with NaN and infinities; rounding left out."
  },
  {
   "property": "C42",
   "status": "proved",
   "theorems": [
    "C42_linear",
    "C42_totals",
    "C42_telescopes"
   ],
   "note": "Over real numbers; linearity for data without infinities."
  },
  {
   "property": "C43",
   "status": "partial",
   "theorems": [
    "C43_items_partial",
    "C43_tuple_refuted"
   ],
   "note": "False for tuple keys with more than one entry on array types. Proved for names, single integers, slices and one-entry tuples."
  },
  {
   "property": "C44",
   "status": "partial",
   "theorems": [
    "C44_zeroth_moment_partial",
    "C44_estimated_partial",
    "C44_fourier_refuted"
   ],
   "note": "Proved for Monomial, Legendre and linear transformations keeping the first function (estimates exist and moment 0 is 1 with variance 0). Refuted for Fourier: the estimate of any non-empty data raises ValueError because the array assignment of Fourier moments only accepts one-dimensional values. Guarded form: C74."
  },
  {
   "property": "C45",
   "status": "proved",
   "theorems": [
    "C45_symmetric",
    "C45_single_level",
    "C45_estimated"
   ],
   "note": "For every estimate that exists; C45_estimated says when it does (polynomial families with one usable sample; Fourier never)."
  },
  {
   "property": "C46",
   "status": "partial",
   "theorems": [
    "C46_inverse",
    "C46_inverse_transform",
    "C46_inside",
    "C46_ends_outside_partial",
    "C46_removed_partial",
    "C46_narrow_refuted"
   ],
   "note": "Inverse and inside parts hold in full. End points and outliers hold for domains at least 1e-15 wide; for narrower ones the constructor replaces the width by 1e-15 and both fail. Guarded form: C71."
  },
  {
   "property": "C47",
   "status": "partial",
   "theorems": [
    "C47_single_partial",
    "C47_eval_partial",
    "C47_fourier_refuted",
    "C47_monomial_refuted"
   ],
   "note": "eval_single_moment agrees for all families; eval agrees except for Fourier (wrong index) and the zeroth monomial of an outlier (1 instead of NaN). Guarded form: C72."
  },
  {
   "property": "C48",
   "status": "partial",
   "theorems": [
    "C48_prefix_partial",
    "C48_change_size_refuted",
    "C48_change_size_never_refuted"
   ],
   "note": "Prefix property proved for all families; change_size raises for every object. Guarded form: C73."
  },
  {
   "property": "C49",
   "status": "proved",
   "theorems": [
    "C49_legendre",
    "C49_reference",
    "C49_derivatives"
   ],
   "note": "Over real numbers; also transformed Legendre moments. Derivatives for the object's own size."
  },
  {
   "property": "C50",
   "status": "partial",
   "theorems": [
    "C50_target_partial",
    "C50_optimal",
    "C50_follows_optimal",
    "C50_target_refuted"
   ],
   "note": "Refuted: the limit var * n_levels / target makes the variance exceed the target (1.4 times in the witness). Proved: never more than (2 - 1/L) times the target up to one sample per level, equal to the target for balanced levels; at least two samples; the unlimited allocation is optimal and the code's numbers follow it. Guarded form: C75."
  },
  {
   "property": "C51",
   "status": "partial",
   "theorems": [
    "C51_level_params",
    "C51_wrong_range",
    "C51_sample_range_partial",
    "C51_n_samples_partial",
    "C51_n_samples_refuted",
    "C51_one_level_refuted"
   ],
   "note": "Level parameters hold in full for positive steps. sample_range of one level has only n0; determine_n_samples returns arrays of three or more numbers unchanged. Guarded form: C76."
  },
  {
   "property": "C52",
   "status": "partial",
   "theorems": [
    "C52_collected",
    "C52_one_chunk_partial",
    "C52_chunks_refuted"
   ],
   "note": "Exact for a level read in one chunk; with more chunks every chunk is drawn with the parameters of the whole level."
  },
  {
   "property": "C53",
   "status": "partial",
   "theorems": [
    "C53_partial",
    "C53_refuted"
   ],
   "note": "False in full: arguments right of the domain followed by others, or unsorted ones, give wrong values; partial for sorted arguments."
  },
  {
   "property": "C54",
   "status": "partial",
   "theorems": [
    "C54_partial",
    "C54_refuted"
   ],
   "note": "False only for posteriors below 1e-300, replaced by that number; otherwise proved, see C91."
  },
  {
   "property": "C55",
   "status": "proved",
   "theorems": [
    "C55_orthogonal",
    "C55_size"
   ],
   "note": "Over any real field, decompositions and square roots on the eigenvalues without rounding; detect_treshold_slope_change gives an arbitrary number."
  },
  {
   "property": "C56",
   "status": "partial",
   "theorems": [
    "C56_partial",
    "C56_refuted"
   ],
   "note": "False when the coarse mesh drops another axis (e.g. one element); the rest is C87."
  },
  {
   "property": "C57",
   "status": "partial",
   "theorems": [
    "C57_partial",
    "C57_refuted"
   ],
   "note": "False for a random object shared by fields with different regions and for parameters restricted to other regions; the rest is C86."
  },
  {
   "property": "C58",
   "status": "partial",
   "theorems": [
    "C58_partial",
    "C58_refuted"
   ],
   "note": "False for an upper end b <= 0 and for the clamped porosities; the rest is C88."
  },
  {
   "property": "C59",
   "status": "partial",
   "theorems": [
    "C59_partial",
    "C59_refuted"
   ],
   "note": "False when an attempt fails after its first chunk: summed_modes is not reset."
  },
  {
   "property": "C60",
   "status": "partial",
   "theorems": [
    "C60_partial",
    "C60_refuted",
    "C60_refuted_full"
   ],
   "note": "False in full: names come back with quotes added, elements with fewer than six numbers are dropped, five components raise NameError; partial for meshes without named groups. See C95."
  },
  {
   "property": "C61",
   "status": "partial",
   "theorems": [
    "C61_partial",
    "C61_refuted"
   ],
   "note": "holds for templates without nested brackets; refuted for nested brackets"
  },
  {
   "property": "C62",
   "status": "partial",
   "theorems": [
    "C62_partial",
    "C62_refuted"
   ],
   "note": "levels above the lowest and quantities with as many components as the first; refuted otherwise"
  },
  {
   "property": "C63",
   "status": "proved",
   "theorems": [
    "C63_outflow"
   ],
   "note": ""
  },
  {
   "property": "C64",
   "status": "partial",
   "theorems": [
    "C64_kept_dirs_partial",
    "C64_kept_dirs_refuted"
   ],
   "note": "Holds below 10^7 samples per level; from 10^7 on the last seven digits wrap and further directories are kept."
  },
  {
   "property": "C65",
   "status": "proved",
   "theorems": [
    "C65_paths_read_all"
   ],
   "note": "All nested types with distinct keys and arrays of parts of size one."
  },
  {
   "property": "C66",
   "status": "proved",
   "theorems": [
    "C66_parts_come_back",
    "C66_constructors_succeed"
   ],
   "note": "Same type object for time series and fields."
  },
  {
   "property": "C67",
   "status": "proved",
   "theorems": [
    "C67_estimate_reads",
    "C67_chunks_numbered"
   ],
   "note": "Address reuse of dead objects is allowed; live ones are assumed distinct."
  },
  {
   "property": "C68",
   "status": "proved",
   "theorems": [
    "C68_selections",
    "C68_own_root"
   ],
   "note": ""
  },
  {
   "property": "C69",
   "status": "proved",
   "theorems": [
    "C69_finite_mean"
   ],
   "note": "Guarded form of C40."
  },
  {
   "property": "C70",
   "status": "proved",
   "theorems": [
    "C70_items"
   ],
   "note": "Guarded form of C43."
  },
  {
   "property": "C71",
   "status": "proved",
   "theorems": [
    "C71_ends_outside",
    "C71_removed"
   ],
   "note": "Guarded form of C46."
  },
  {
   "property": "C72",
   "status": "proved",
   "theorems": [
    "C72_one_moment"
   ],
   "note": "Guarded form of C47."
  },
  {
   "property": "C73",
   "status": "proved",
   "theorems": [
    "C73_prefix"
   ],
   "note": "Guarded form of C48."
  },
  {
   "property": "C74",
   "status": "proved",
   "theorems": [
    "C74_zeroth_moment"
   ],
   "note": "Guarded form of C44; C44_estimated_partial says when the estimate returns."
  },
  {
   "property": "C75",
   "status": "proved",
   "theorems": [
    "C75_samples_bound"
   ],
   "note": "Guarded form of C50."
  },
  {
   "property": "C76",
   "status": "proved",
   "theorems": [
    "C76_initial_numbers",
    "C51_level_params"
   ],
   "note": "Guarded form of C51."
  },
  {
   "property": "C77",
   "status": "proved",
   "theorems": [
    "C77_quiet_handover"
   ],
   "note": ""
  },
  {
   "property": "C78",
   "status": "proved",
   "theorems": [
    "C78_guarded_errors_reported"
   ],
   "note": ""
  },
  {
   "property": "C79",
   "status": "proved",
   "theorems": [
    "C79_running"
   ],
   "note": "Whole-system invariant; guard in the statement."
  },
  {
   "property": "C80",
   "status": "proved",
   "theorems": [
    "C80_recovery"
   ],
   "note": ""
  },
  {
   "property": "C81",
   "status": "proved",
   "theorems": [
    "C81_job_numbers"
   ],
   "note": ""
  },
  {
   "property": "C82",
   "status": "proved",
   "theorems": [
    "C82_class_file"
   ],
   "note": ""
  },
  {
   "property": "C83",
   "status": "proved",
   "theorems": [
    "C83_exactly_once",
    "C83_own_results"
   ],
   "note": "Invariant over all runs of the pool with its job processes."
  },
  {
   "property": "C84",
   "status": "proved",
   "theorems": [
    "C84_substitution"
   ],
   "note": ""
  },
  {
   "property": "C85",
   "status": "proved",
   "theorems": [
    "C85_shape",
    "C85_telescopes"
   ],
   "note": ""
  },
  {
   "property": "C86",
   "status": "proved",
   "theorems": [
    "C86_fields",
    "C86_permutation"
   ],
   "note": "Values of fields are functions of the point; see FieldSpec.v for the meaning of a list of fields."
  },
  {
   "property": "C87",
   "status": "proved",
   "theorems": [
    "C87_same_field"
   ],
   "note": "Meshes must drop the same axis and have equal region maps."
  },
  {
   "property": "C88",
   "status": "proved",
   "theorems": [
    "C88_range",
    "C88_conductivity"
   ],
   "note": ""
  },
  {
   "property": "C89",
   "status": "proved",
   "theorems": [
    "C89_once",
    "C89_size"
   ],
   "note": ""
  },
  {
   "property": "C90",
   "status": "proved",
   "theorems": [
    "C90_cdf",
    "C90_sorted"
   ],
   "note": "Quadrature without error."
  },
  {
   "property": "C91",
   "status": "proved",
   "theorems": [
    "C91_divergence",
    "C91_hessian"
   ],
   "note": ""
  },
  {
   "property": "C92",
   "status": "proved",
   "theorems": [
    "C92_derivatives",
    "C92_minimum",
    "C92_moments"
   ],
   "note": "SimpleDistribution without penalty, exponents not clipped."
  },
  {
   "property": "C93",
   "status": "partial",
   "theorems": [
    "C93_partial",
    "C93_refuted"
   ],
   "note": "False in both classes: the multiplier is shifted with the wrong sign in SimpleDistribution, all multipliers are divided in Distribution; holds only where the integral was one before."
  },
  {
   "property": "C94",
   "status": "partial",
   "theorems": [
    "C94_partial",
    "C94_refuted"
   ],
   "note": "False with the penalty active and for Hessian rows above last_size; holds otherwise."
  },
  {
   "property": "C95",
   "status": "proved",
   "theorems": [
    "C95_mesh",
    "C95_fields"
   ],
   "note": "Floating point numbers are assumed to be read back from their text."
  },
  {
   "property": "C96",
   "status": "proved",
   "theorems": [
    "C96_roundtrip",
    "C96_reopen"
   ],
   "note": "Type conversions of numpy and h5py on assignment are modelled."
  },
  {
   "property": "C97",
   "status": "partial",
   "theorems": [
    "C97_partial",
    "C97_refuted"
   ],
   "note": "False: points set again after a sample leave the old factor in use. Proved for one call of set_points followed by samples; see C98 for the general guarded form."
  },
  {
   "property": "C98",
   "status": "proved",
   "theorems": [
    "C98_samples"
   ],
   "note": "The field computed from a factor is an oracle with one value for each point."
  },
  {
   "property": "C99",
   "status": "partial",
   "theorems": [
    "C99_partial",
    "C99_refuted"
   ],
   "note": "False for the range (10, 100) with 100 points: 80 terms. Proved if the estimates at both ends of the range are under the precision."
  }
 ]
}

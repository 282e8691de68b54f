{"id": "C01", "title": "Sample identifiers are unique over a whole campaign", "statement": "Over any history of target changes, schedule_samples calls, polls and restarts (new Sampler on the same storage), the identifiers recorded as scheduled on a level are exactly the tags of counters 0,1,2,...,n-1 of that level, in that order; hence no identifier is ever issued twice, on one level or on two different levels.", "quantifier": "every number of levels, every sequence of set_initial_n_samples / set_level_target_n_samples / schedule_samples / ask / restart operations, every target vector", "why_tests_cant": "Uniqueness has to survive every interleaving of target changes and restarts; a test only runs a few schedules, and a collision would silently reuse a random seed.", "anchors": ["mlmc/sampler.py:Sampler.__init__", "mlmc/sampler.py:Sampler._get_sample_tag", "mlmc/sampler.py:Sampler.schedule_samples"]}
{"id": "C02", "title": "Sample tag formatting is injective", "statement": "Two samples get the same textual identifier only if they have the same level id and the same counter, for all non-negative levels and counters, including values wider than the two/seven digit padding; the level and the counter can be read back from the tag.", "quantifier": "all pairs of natural numbers (level, counter)", "why_tests_cant": "Finitely many tests cannot cover all naturals, in particular the overflow of the zero-padded fields.", "anchors": ["mlmc/sampler.py:Sampler._get_sample_tag"]}
{"id": "C03", "title": "Scheduling brings every level exactly to its target and never beyond", "statement": "After schedule_samples the number of scheduled samples on each level equals max(previous number, integer part of target); nothing is scheduled on levels whose target is already met, no scheduled sample is dropped, and set_level_target_n_samples can only raise targets.", "quantifier": "all target vectors, all previous scheduled counts, all histories", "why_tests_cant": "Holds for all combinations of targets lower/equal/higher than the scheduled counts per level.", "anchors": ["mlmc/sampler.py:Sampler.schedule_samples", "mlmc/sampler.py:Sampler.set_level_target_n_samples", "mlmc/sampler.py:Sampler.set_initial_n_samples"]}
{"id": "C04", "title": "No sample is lost or duplicated between scheduling and storage (synchronous pool, HDF storage)", "statement": "In every reachable state of a campaign with the one-process pool and file storage, on every level the scheduled identifiers are the disjoint union of collected, failed and not-yet-polled identifiers; after ask_sampling_pool_for_samples without timeout nothing remains unpolled, so scheduled = collected + failed and n_finished equals the number of scheduled samples.", "quantifier": "every simulation outcome (success/failure) per sample, every interleaving of schedule and ask calls, every number of levels", "why_tests_cant": "A conservation law over unbounded histories and arbitrary failure patterns.", "anchors": ["mlmc/sampler.py:Sampler", "mlmc/sampling_pool.py:OneProcessPool", "mlmc/sample_storage_hdf.py:SampleStorageHDF"]}
{"id": "C05", "title": "Stored data depend only on how many samples were scheduled, not on how they were scheduled or polled", "statement": "For a deterministic simulation, the (identifier, fine, coarse) record stored for counter i of level l is the simulation of level l (fine parameters of l, coarse parameters of l-1, none for level 0) evaluated at the seed of that identifier; two campaigns that schedule the same number of samples per level store the same records per level whatever the batching, polling or the order of targets.", "quantifier": "all deterministic simulations, all pairs of histories with equal scheduled counts", "why_tests_cant": "Reproducibility quantifies over pairs of arbitrary histories.", "anchors": ["mlmc/sampler.py:Sampler._create_level_sim_objects", "mlmc/sampling_pool.py:SamplingPool.compute_seed", "mlmc/sampling_pool.py:SamplingPool.calculate_sample"]}
{"id": "C06", "title": "A scheduled sample is reported exactly once by the synchronous pool, as success or as failure", "statement": "Every sample handed to the one-process pool appears exactly once over all get_finished calls, in the successful list iff the simulation returned a result of the declared length and in the failed list otherwise; the reported number of running samples is scheduled minus reported.", "quantifier": "all sequences of schedule_sample and get_finished, all simulation outcomes including exceptions and wrong result lengths", "why_tests_cant": "All histories and outcome patterns.", "anchors": ["mlmc/sampling_pool.py:OneProcessPool.schedule_sample", "mlmc/sampling_pool.py:OneProcessPool._process_result", "mlmc/sampling_pool.py:OneProcessPool._queues_to_list"]}
{"id": "C07", "title": "Concurrent pools hand over every result exactly once", "statement": "With the process or thread pool, where results are delivered by another thread at any moment, every completed sample is eventually returned by get_finished exactly once and the running counter reaches zero when all samples are done.", "quantifier": "all interleavings of result delivery with the copy and clear steps of get_finished", "why_tests_cant": "Thread schedules cannot be enumerated by tests; the losing window is a few instructions wide.", "anchors": ["mlmc/sampling_pool.py:OneProcessPool._queues_to_list", "mlmc/sampling_pool.py:ProcessPool.schedule_sample", "mlmc/sampling_pool.py:ThreadPool"]}
{"id": "C08", "title": "A worker error in the process pool ends as a failed sample", "statement": "If evaluating a sample in the process/thread pool raises outside the guarded part (for example while preparing the sample workspace), the sample is still reported as failed and waiting for running samples terminates.", "quantifier": "all samples, all error kinds raised by the worker", "why_tests_cant": "Needs reasoning over all error paths, and the consequence is an unbounded wait.", "anchors": ["mlmc/sampling_pool.py:ProcessPool.schedule_sample", "mlmc/sampling_pool.py:ProcessPool.res_callback", "mlmc/sampling_pool.py:SamplingPool.calculate_sample"]}
{"id": "C09", "title": "Waiting semantics of ask_sampling_pool_for_samples", "statement": "Without timeout the call returns only when the pool reports no running sample, and everything the pool handed over has been stored; with a non-positive timeout it returns 1 and touches neither pool nor storage; with a positive timeout it polls at least once and returns the last reported number of running samples; no polled result is ever dropped.", "quantifier": "all pools (arbitrary poll answers), all clocks, all timeouts", "why_tests_cant": "The loop runs an unbounded number of times against arbitrary answers and clock readings.", "anchors": ["mlmc/sampler.py:Sampler.ask_sampling_pool_for_samples", "mlmc/sampler.py:Sampler._store_samples"]}
{"id": "C10", "title": "Adding samples is monotone, bounded and converges", "statement": "process_adding_samples never lowers a level's target, never plans more than max(already scheduled, ceil(estimate)) samples on a level, schedules at least one new sample on each level that is still below an integer estimate, and repeated calls with a fixed estimate and 0 < coefficient <= 1 reach every level's estimate after finitely many calls; it returns True exactly when after the planning step no level is below its estimate.", "quantifier": "all estimate vectors, all already-scheduled vectors, all coefficients in (0,1]", "why_tests_cant": "Convergence is a statement about all iterates and all rational coefficients.", "anchors": ["mlmc/sampler.py:Sampler.process_adding_samples", "mlmc/sampler.py:Sampler.set_scheduled_and_wait", "mlmc/sampler.py:Sampler.set_level_target_n_samples"]}
{"id": "C11", "title": "Waiting for half of the planned samples terminates after a restart", "statement": "After a restart from a file storage, process_adding_samples returns (its wait for finished samples ends) whatever samples were lost in the interrupted run.", "quantifier": "all crash points of the first run, all estimates", "why_tests_cant": "Non-termination for some crash point cannot be established or excluded by running tests.", "anchors": ["mlmc/sampler.py:Sampler.set_scheduled_and_wait", "mlmc/sampling_pool.py:OneProcessPool.have_permanent_samples"]}
{"id": "C12", "title": "Finished count of a storage equals collected plus failed", "statement": "For each storage, n_finished on a level equals the number of successful plus failed samples saved for that level.", "quantifier": "all sequences of save_samples batches (any mix of successes and failures per level and call)", "why_tests_cant": "All batch sequences; the first batch of a level is special in the in-memory storage.", "anchors": ["mlmc/sample_storage.py:Memory._save_failed", "mlmc/sample_storage.py:Memory.n_finished", "mlmc/sample_storage_hdf.py:SampleStorageHDF.n_finished"]}
{"id": "C13", "title": "Unfinished identifiers of the file storage", "statement": "unfinished_ids returns exactly the scheduled identifiers that are neither collected nor failed, each once, on all levels, in every reachable state of the file; it is empty iff every scheduled sample has an outcome.", "quantifier": "all sequences of save_scheduled_samples, save_samples, clear_failed", "why_tests_cant": "Set difference over arbitrary histories with failures cleared and re-collected.", "anchors": ["mlmc/sample_storage_hdf.py:SampleStorageHDF.unfinished_ids", "mlmc/tool/hdf5.py:LevelGroup.get_unfinished_ids", "mlmc/tool/hdf5.py:LevelGroup.get_finished_ids"]}
{"id": "C14", "title": "Renewing failed samples", "statement": "renew_failed_samples re-runs exactly the failed identifiers, each under its own identifier (so with the same seed), forgets the previous failures and touches no collected data; after the next poll each of them is again collected or failed, no identifier is collected twice, and with a deterministic simulation the same samples fail again.", "quantifier": "all failure patterns, any number of renewals in any history", "why_tests_cant": "Repeated renewals over arbitrary failure histories.", "anchors": ["mlmc/sampler.py:Sampler.renew_failed_samples", "mlmc/sample_storage_hdf.py:SampleStorageHDF.failed_samples", "mlmc/sample_storage_hdf.py:SampleStorageHDF.clear_failed"]}
{"id": "C15", "title": "Reopening the file storage gives back the same data", "statement": "A storage object created on an existing file returns the same scheduled, collected, failed and unfinished samples, level count and cost records as the object that wrote it, and constructing a new Sampler with the same number of levels on it changes none of them.", "quantifier": "all file contents produced by any history", "why_tests_cant": "All histories; a restart path only covered by one small test.", "anchors": ["mlmc/sample_storage_hdf.py:SampleStorageHDF.__init__", "mlmc/sample_storage_hdf.py:SampleStorageHDF.save_global_data", "mlmc/tool/hdf5.py:HDF5.create_file_structure"]}
{"id": "C16", "title": "save_global_data never destroys collected data", "statement": "Calling save_global_data (or constructing a Sampler) on a storage that already holds samples keeps them, and level ids keep addressing the same level.", "quantifier": "all storage states, fresh or loaded, all level counts passed", "why_tests_cant": "Requires considering every state of the object (fresh/loaded) and every level count.", "anchors": ["mlmc/sample_storage_hdf.py:SampleStorageHDF.save_global_data", "mlmc/tool/hdf5.py:HDF5.clear_groups", "mlmc/tool/hdf5.py:HDF5.create_file_structure"]}
{"id": "C17", "title": "Crash consistency of saving results", "statement": "Whatever write the process is interrupted after while saving a batch of results, on reopening the file every identifier counted as collected has its values stored and every stored value belongs to a collected identifier.", "quantifier": "all crash points between file writes, all batches", "why_tests_cant": "Crash points cannot be enumerated for all batches by unit tests.", "anchors": ["mlmc/tool/hdf5.py:LevelGroup.append_successful", "mlmc/tool/hdf5.py:LevelGroup._append_dataset", "mlmc/sample_storage_hdf.py:SampleStorageHDF.save_samples"]}
{"id": "C18", "title": "Crash consistency of scheduling", "statement": "Whatever point the process is interrupted at during schedule_samples, after a restart no identifier is handed to the pool a second time.", "quantifier": "all crash points inside schedule_samples, all plans", "why_tests_cant": "All crash points and plans.", "anchors": ["mlmc/sampler.py:Sampler.schedule_samples", "mlmc/sampler.py:Sampler.__init__"]}
{"id": "C19", "title": "Chunked reading returns every collected sample exactly once and in order", "statement": "Concatenating the chunks delivered for a level gives all collected samples of that level, each once, in collection order; asking for n samples gives the first n; component m of sample i, fine or coarse, is the m-th component the simulation returned for that sample (level 0 exposes the fine part only).", "quantifier": "all stored batches, all chunk sizes, all n, all levels", "why_tests_cant": "All chunk layouts and data sizes.", "anchors": ["mlmc/sample_storage.py:SampleStorage.chunks", "mlmc/sample_storage.py:Memory.sample_pairs_level", "mlmc/tool/hdf5.py:LevelGroup.chunks", "mlmc/sample_storage_hdf.py:SampleStorageHDF.sample_pairs_level"]}
{"id": "C20", "title": "The two storages are interchangeable", "statement": "Fed with the same sequence of saves, the in-memory and the file storage return the same scheduled samples, the same collected samples per level and the same number of collected samples.", "quantifier": "all sequences of save_scheduled_samples and save_samples with contiguous levels", "why_tests_cant": "Equivalence over arbitrary operation sequences.", "anchors": ["mlmc/sample_storage.py:Memory", "mlmc/sample_storage_hdf.py:SampleStorageHDF"]}
{"id": "C21", "title": "Measured cost per sample is the average running time", "statement": "get_n_ops returns for each level the total running time of the successfully timed samples divided by their number, independent of how often the pool was polled.", "quantifier": "all running times, all polling histories", "why_tests_cant": "Depends on the number of polls, which tests fix to one or two.", "anchors": ["mlmc/sample_storage.py:Memory.save_n_ops", "mlmc/sample_storage_hdf.py:SampleStorageHDF.save_n_ops", "mlmc/sampling_pool.py:OneProcessPool._save_running_time"]}
{"id": "C22", "title": "Result format survives the file storage and mismatches are rejected", "statement": "A result format written to the file is read back unchanged (names, units, shapes, times, locations, in order) and opening the storage with a different format raises instead of mixing data.", "quantifier": "all result formats with string or point locations", "why_tests_cant": "All formats, including special lengths of location names.", "anchors": ["mlmc/sample_storage_hdf.py:SampleStorageHDF._hdf_result_format", "mlmc/sample_storage_hdf.py:SampleStorageHDF.save_result_format", "mlmc/quantity/quantity_spec.py:QuantitySpec.__eq__"]}
{"id": "C23", "title": "PBS batching neither loses nor duplicates samples", "statement": "Every sample scheduled in the PBS pool is in exactly one submitted job or still pending; a job is submitted as soon as the accumulated task size exceeds 1 or the package has more than 1000 samples; a rejected submission leaves all its samples pending for the next attempt and more than ten consecutive rejections raise.", "quantifier": "all sequences of task sizes, all qsub outcomes", "why_tests_cant": "All interleavings of submissions and rejections.", "anchors": ["mlmc/sampling_pool_pbs.py:SamplingPoolPBS.schedule_sample", "mlmc/sampling_pool_pbs.py:SamplingPoolPBS.execute"]}
{"id": "C24", "title": "Every sample of a finished PBS job gets exactly one outcome, wherever the job was killed", "statement": "Reading the results of a job that was killed after any number of samples reports each sample scheduled in the job exactly once: with its result, with its error, or as 'job failed', at its own level.", "quantifier": "all job contents (levels mixed, any order), all outcomes, every kill point between sample records", "why_tests_cant": "Every kill point and every mix of outcomes.", "anchors": ["mlmc/tool/pbs_job.py:PbsJob.calculate_samples", "mlmc/tool/pbs_job.py:PbsJob.read_results"]}
{"id": "C25", "title": "PBS job timing records", "statement": "For each level, the last time record of a job gives the number of samples of this level executed in the job (successful or failed) and the time spent on that level.", "quantifier": "all job contents and running times, every kill point", "why_tests_cant": "All mixes of levels and kill points.", "anchors": ["mlmc/tool/pbs_job.py:PbsJob.calculate_samples", "mlmc/sampling_pool_pbs.py:SamplingPoolPBS._get_result_files"]}
{"id": "C26", "title": "The PBS pool reports every still running job as running", "statement": "The number of running samples returned by get_finished counts the samples of every submitted job that qstat does not report finished, so zero running samples means that all submitted jobs are finished.", "quantifier": "all lists of submitted jobs, all subsets reported finished", "why_tests_cant": "Depends on the relative position of finished and running jobs in the list.", "anchors": ["mlmc/sampling_pool_pbs.py:SamplingPoolPBS._qstat_pbs_job", "mlmc/sampling_pool_pbs.py:SamplingPoolPBS._get_result_files"]}
{"id": "C27", "title": "Recovery of PBS samples after a restart stores each recovered sample exactly once", "statement": "The first poll after a restart returns every sample that finished in an earlier job (success or failure) exactly once and none of them is dropped or duplicated.", "quantifier": "all sets of unfinished samples, all job results, all iteration orders of the set", "why_tests_cant": "All iteration orders and result mixes.", "anchors": ["mlmc/sampling_pool_pbs.py:SamplingPoolPBS._collect_unfinished", "mlmc/sampling_pool_pbs.py:SamplingPoolPBS.have_permanent_samples"]}
{"id": "C28", "title": "PBS job numbers are never reused", "statement": "A pool created on a directory with earlier jobs numbers its next job differently from all of them.", "quantifier": "all sets of existing jobs, all directory listing orders", "why_tests_cant": "The listing order is up to the file system.", "anchors": ["mlmc/sampling_pool_pbs.py:SamplingPoolPBS._get_job_count"]}
{"id": "C29", "title": "Worker configuration round-trip", "statement": "The worker process reads back exactly the jobs directory, the level file pattern and the debug flag that the pool wrote.", "quantifier": "all directory names and flags", "why_tests_cant": "All strings, including separators.", "anchors": ["mlmc/tool/pbs_job.py:PbsJob._serialize_pbs_process", "mlmc/tool/pbs_job.py:PbsJob._deserialize_pbs_process"]}
{"id": "C30", "title": "Sub-quantities of a structured result tile it without gap or overlap", "statement": "For every structured type (dictionary, time series, field, array, nested in any way), accessing each key selects consecutive, pairwise disjoint index ranges inside the flattened result which together cover it, each as long as the sub-type's size.", "quantifier": "all nested types, all keys", "why_tests_cant": "All nestings and key orders.", "anchors": ["mlmc/quantity/quantity_types.py:DictType.get_key", "mlmc/quantity/quantity_types.py:TimeSeriesType.get_key", "mlmc/quantity/quantity_types.py:FieldType.get_key", "mlmc/quantity/quantity_types.py:ArrayType.get_key"]}
{"id": "C31", "title": "Path access reads the value the simulation wrote", "statement": "For a declared result format, root[name][time][location][i,j] reads the component of the simulation result written for this name, time, location and array position in the declared (row-major) order.", "quantifier": "all formats (any number of quantities, times, locations, shapes), all valid paths, all data", "why_tests_cant": "All formats and paths.", "anchors": ["mlmc/quantity/quantity.py:make_root_quantity", "mlmc/quantity/quantity.py:Quantity.__getitem__", "mlmc/quantity/quantity_types.py:QType._make_getitem_op"]}
{"id": "C32", "title": "Items of composed quantities give back the parts", "statement": "Building a dictionary, time series, field or array quantity from parts and accessing part k returns samples equal to those of part k; access to array items works for parts of any size.", "quantifier": "all lists of parts, all part sizes", "why_tests_cant": "All part sizes and positions.", "anchors": ["mlmc/quantity/quantity.py:Quantity.QDict", "mlmc/quantity/quantity.py:Quantity.QArray", "mlmc/quantity/quantity_types.py:ArrayType._make_getitem_op"]}
{"id": "C33", "title": "Replacing the scalar type multiplies the size", "statement": "Replacing the scalar at the bottom of a structured type by an array of r entries gives a type r times larger with the same keys, and the data of component m of the old quantity sit at entries m*r..m*r+r-1 of the new one.", "quantifier": "all nested types, all r", "why_tests_cant": "All nestings.", "anchors": ["mlmc/quantity/quantity_types.py:QType.replace_scalar", "mlmc/quantity/quantity_estimate.py:moments"]}
{"id": "C34", "title": "Quantity expressions act sample by sample", "statement": "For any expression built from arithmetic, comparison, item access and composition over one selection, its samples on a chunk are the expression applied to each stored sample separately, in order; so the value for a sample depends neither on the chunk nor on other samples.", "quantifier": "all expressions, all chunks, all data", "why_tests_cant": "All expressions and chunk layouts.", "anchors": ["mlmc/quantity/quantity.py:Quantity.samples", "mlmc/quantity/quantity.py:Quantity.create_quantity"]}
{"id": "C35", "title": "Values of different selections are never combined", "statement": "An operation whose operands come from different selections or different root quantities raises; every expression that can be built combines only values of the same samples.", "quantifier": "all expressions with any number of selections and roots", "why_tests_cant": "All expression trees.", "anchors": ["mlmc/quantity/quantity.py:Quantity.set_selection_id", "mlmc/quantity/quantity.py:Quantity._check_selection_ids", "mlmc/quantity/quantity.py:Quantity.select"]}
{"id": "C36", "title": "Selection keeps exactly the samples meeting all conditions", "statement": "q.select(c1,...,cn) keeps, in order, exactly the samples for which every condition holds for every component of both the fine and the coarse part; NaN never satisfies an ordering comparison.", "quantifier": "all conditions, all data", "why_tests_cant": "All data and condition combinations.", "anchors": ["mlmc/quantity/quantity.py:Quantity.select", "mlmc/quantity/quantity.py:Quantity._process_mask"]}
{"id": "C37", "title": "Caching of samples is transparent during an estimate", "statement": "estimate_mean returns the value it would return without the sample cache; more generally a cached samples call returns the current value of the quantity.", "quantifier": "all expression graphs, all request sequences, all object lifetimes", "why_tests_cant": "The cache key contains object addresses, so correctness depends on object lifetimes.", "anchors": ["mlmc/quantity/quantity.py:Quantity.get_cache_key", "mlmc/quantity/quantity.py:Quantity.samples", "mlmc/quantity/quantity_estimate.py:cache_clear"]}
{"id": "C38", "title": "The mean estimate does not depend on chunking", "statement": "The level means, level variances and sample counts returned by estimate_mean are the same for every division of the stored samples into chunks, and equal the sample mean and the unbiased sample variance of the level differences (fine at level 0) over the samples without NaN.", "quantifier": "all data, all chunk layouts, all numbers of levels", "why_tests_cant": "All layouts and data.", "anchors": ["mlmc/quantity/quantity_estimate.py:estimate_mean"]}
{"id": "C39", "title": "NaN samples are removed pairwise and counted", "statement": "A sample is ignored by the estimate iff some component of its fine or coarse part is NaN; used plus removed samples of each level equal the collected samples; if no sample is usable at all an exception is raised.", "quantifier": "all NaN patterns, all chunk layouts", "why_tests_cant": "All NaN patterns.", "anchors": ["mlmc/quantity/quantity_estimate.py:mask_nan_samples", "mlmc/quantity/quantity_estimate.py:estimate_mean"]}
{"id": "C40", "title": "An estimate that is returned is a number", "statement": "If estimate_mean returns, every component of the mean is a finite number when the data are finite.", "quantifier": "all data and selections", "why_tests_cant": "Needs all selections, including those emptying a single level.", "anchors": ["mlmc/quantity/quantity_estimate.py:estimate_mean", "mlmc/quantity/quantity.py:QuantityMean._calculate_mean_var"]}
{"id": "C41", "title": "Level variances are non-negative and vanish exactly for constant differences", "statement": "Each finite level variance is >= 0 and is 0 iff all level differences of that component are equal; with fewer than two samples the variance is reported as infinite.", "quantifier": "all data", "why_tests_cant": "An inequality for all data.", "anchors": ["mlmc/quantity/quantity_estimate.py:estimate_mean"]}
{"id": "C42", "title": "The estimator is linear and telescopes", "statement": "estimate_mean is linear in the quantity (sums and scalar multiples, equal masks); if the coarse values on every level l >= 1 have the sample mean of the fine values of level l-1, then the estimate equals the sample mean of the fine values of the finest level; total mean is the sum of level means, total variance the sum of level variances divided by the sample counts.", "quantifier": "all data, all level counts", "why_tests_cant": "Algebraic law for all data.", "anchors": ["mlmc/quantity/quantity_estimate.py:estimate_mean", "mlmc/quantity/quantity.py:QuantityMean._calculate_mean_var"]}
{"id": "C43", "title": "Items of a mean are means of items", "statement": "estimate_mean(q)[key] equals estimate_mean(q[key]) for dictionary, time series, field and array quantities whose samples contain no NaN.", "quantifier": "all types, keys and data", "why_tests_cant": "All types and keys.", "anchors": ["mlmc/quantity/quantity.py:QuantityMean.__getitem__", "mlmc/quantity/quantity.py:Quantity.__getitem__"]}
{"id": "C44", "title": "The zeroth moment is exactly one with zero variance", "statement": "For every moment family the estimate of moment 0 is exactly 1 with level variance 0 (for more than one sample per level), whatever the data.", "quantifier": "all data, all levels, all families", "why_tests_cant": "For all data.", "anchors": ["mlmc/moments.py:Monomial._eval_all", "mlmc/moments.py:Fourier._eval_all", "mlmc/moments.py:Legendre._eval_all", "mlmc/quantity/quantity_estimate.py:moments"]}
{"id": "C45", "title": "The covariance estimate is symmetric, and a Gram matrix on one level", "statement": "The estimated covariance matrix of moments is symmetric for any data and any number of levels; with a single level it is positive semidefinite and its first row is the vector of moment means.", "quantifier": "all data, moment functions and sizes", "why_tests_cant": "For all data.", "anchors": ["mlmc/quantity/quantity_estimate.py:covariance"]}
{"id": "C46", "title": "Domain transformation is invertible and outliers become NaN", "statement": "inv_linear and linear are mutually inverse and map the domain end points to the reference end points; with safe evaluation a value inside the domain is mapped inside the reference domain and evaluated, a value outside becomes NaN (and hence is removed from estimates).", "quantifier": "all domains a<b, all reference domains, all values", "why_tests_cant": "For all reals.", "anchors": ["mlmc/moments.py:Moments.linear", "mlmc/moments.py:Moments.inv_linear", "mlmc/moments.py:Moments.clip"]}
{"id": "C47", "title": "Evaluating one moment agrees with evaluating all", "statement": "For each moment family and every index i, eval(i, x) and eval_single_moment(i, x) equal component i of eval_all(x), for every number of moments.", "quantifier": "all families, indices and values", "why_tests_cant": "All indices and values.", "anchors": ["mlmc/moments.py:Fourier.eval", "mlmc/moments.py:Monomial.eval", "mlmc/moments.py:Moments.eval", "mlmc/moments.py:Moments.eval_single_moment"]}
{"id": "C48", "title": "Fewer moments are a prefix of more moments", "statement": "eval_all with size r returns the first r columns of eval_all with a larger size, for each family including linearly transformed moments; change_size(r) gives an object evaluating to the first r functions.", "quantifier": "all sizes, families and values", "why_tests_cant": "All sizes.", "anchors": ["mlmc/moments.py:Moments.change_size", "mlmc/moments.py:TransformedMoments._eval_all", "mlmc/moments.py:Legendre._eval_all"]}
{"id": "C49", "title": "Legendre moments satisfy their defining identities", "statement": "The Legendre functions produced satisfy P_n(1)=1, P_n(-1)=(-1)^n, |P_n|<=1 on the reference interval and are orthogonal on it; eval_diff and eval_diff2 return the exact first and second derivative with respect to the reference variable.", "quantifier": "all orders n and all arguments", "why_tests_cant": "All orders.", "anchors": ["mlmc/moments.py:Legendre.__init__", "mlmc/moments.py:Legendre._eval_diff", "mlmc/moments.py:Legendre._eval_diff2"]}
{"id": "C50", "title": "Estimated numbers of samples meet the target variance", "statement": "With the numbers of samples returned by estimate_n_samples_for_target_variance, the estimator variance of each moment (sum of level variances over sample numbers) is at most the target variance, up to rounding; at least two samples per level are requested; the unconstrained allocation has minimal cost among all allocations meeting the target.", "quantifier": "all variances, costs, numbers of levels and moments, all targets", "why_tests_cant": "An inequality for all reals.", "anchors": ["mlmc/estimator.py:estimate_n_samples_for_target_variance"]}
{"id": "C51", "title": "Level parameters and initial sample numbers", "statement": "determine_level_parameters returns one step per level, strictly decreasing geometrically from the coarse to the fine end of the range (the fine end for one level); sample_range and determine_n_samples return one number per level starting at n0 and ending at nL, monotone.", "quantifier": "all ranges and numbers of levels", "why_tests_cant": "All numbers of levels and real ranges.", "anchors": ["mlmc/estimator.py:determine_level_parameters", "mlmc/estimator.py:calc_level_params", "mlmc/estimator.py:determine_n_samples", "mlmc/sampler.py:Sampler.sample_range"]}
{"id": "C52", "title": "Subsampling returns the requested number of samples", "statement": "q.subsample(k) yields exactly k_l samples on level l, each of them a collected sample.", "quantifier": "all requests, chunk layouts and random draws", "why_tests_cant": "All random draws and chunk layouts.", "anchors": ["mlmc/quantity/quantity.py:Quantity.subsample", "mlmc/quantity/quantity.py:Quantity.pick_samples"]}
{"id": "C53", "title": "The approximated distribution function is a distribution function", "statement": "cdf returns values in [0,1] that do not decrease with the argument, 0 left of and 1 right of the domain, whatever the order of the arguments.", "quantifier": "all argument lists, all densities", "why_tests_cant": "All argument orders and densities.", "anchors": ["mlmc/tool/simple_distribution.py:SimpleDistribution.cdf", "mlmc/tool/distribution.py:Distribution.cdf"]}
{"id": "C54", "title": "Divergence integrands are non-negative and the Hessian is positive semidefinite", "statement": "The Kullback-Leibler integrand p log(p/q) - p + q is >= 0 and 0 only for p = q; the matrix handed to the minimiser as Hessian is symmetric positive semidefinite for every multiplier vector.", "quantifier": "all positive p,q; all multipliers, quadrature points with non-negative weights, moments", "why_tests_cant": "Inequalities for all reals.", "anchors": ["mlmc/tool/simple_distribution.py:KL_divergence", "mlmc/tool/simple_distribution.py:SimpleDistribution._calculate_jacobian_matrix"]}
{"id": "C55", "title": "Orthogonalised moments", "statement": "The moments constructed from a positive definite covariance matrix have the identity as covariance with respect to the same matrix.", "quantifier": "all covariance matrices, given exact eigen and RQ decompositions", "why_tests_cant": "All matrices.", "anchors": ["mlmc/tool/simple_distribution.py:construct_ortogonal_moments"]}
{"id": "C56", "title": "Fine and coarse simulation see the same random field", "statement": "In one sample the coarse and the fine simulation get values of one realisation of each field: value i of the fine part is the field at fine element i, value j of the coarse part the field at coarse element j, elements and values keep the order of the mesh element ids written to the field file.", "quantifier": "all meshes, regions and fields", "why_tests_cant": "All mesh sizes and regions.", "anchors": ["mlmc/tool/flow_mc.py:FlowSim.make_fields", "mlmc/tool/flow_mc.py:FlowSim.generate_random_sample", "mlmc/random/correlated_field.py:Fields"]}
{"id": "C57", "title": "Dependent fields and regions", "statement": "A set of fields evaluates each field from already evaluated fields and constants only, on exactly the points of its regions; points outside keep zero; permuting points permutes the values for region-wise constant or pointwise fields.", "quantifier": "all field sets, all region assignments", "why_tests_cant": "All dependency graphs and region maps.", "anchors": ["mlmc/random/correlated_field.py:Fields.__init__", "mlmc/random/correlated_field.py:Fields.set_points", "mlmc/random/correlated_field.py:Fields.sample"]}
{"id": "C58", "title": "Range mappings", "statement": "positive_to_range maps [0, infinity) strictly increasingly onto [a, b); Kozeny-Carman conductivity is positive and increasing in porosity on (0,1).", "quantifier": "all parameters and arguments", "why_tests_cant": "For all reals.", "anchors": ["mlmc/random/correlated_field.py:positive_to_range", "mlmc/random/correlated_field.py:kozeny_carman"]}
{"id": "C59", "title": "Summation of Fourier modes is independent of memory chunking", "statement": "The sampled field value is the sum over all modes once each, whatever chunk sizes the memory-limited evaluation uses, including after an out-of-memory retry.", "quantifier": "all numbers of modes and points, all failure patterns", "why_tests_cant": "Memory errors cannot be scheduled in tests.", "anchors": ["mlmc/random/correlated_field.py:FourierSpatialCorrelatedField"]}
{"id": "C60", "title": "Mesh and field files round-trip", "statement": "Element data written with write_fields are read back with the same element ids and component values; nodes, elements and physical groups written with write_ascii are read back unchanged.", "quantifier": "all meshes and fields", "why_tests_cant": "All meshes.", "anchors": ["mlmc/tool/gmsh_io.py:GmshIO.read", "mlmc/tool/gmsh_io.py:GmshIO.write_ascii", "mlmc/tool/gmsh_io.py:GmshIO.write_fields"]}
{"id": "C61", "title": "Template substitution replaces every placeholder once and nothing else", "statement": "substitute_placeholders replaces every occurrence of <name> for each given name by its value, leaves all other text unchanged, reports exactly the names that occurred, and the result does not depend on the order of the parameters, provided values contain no angle brackets.", "quantifier": "all template texts, all parameter dictionaries", "why_tests_cant": "All texts.", "anchors": ["mlmc/tool/flow_mc.py:substitute_placeholders"]}
{"id": "C62", "title": "Synthetic simulation: result shape and level consistency", "statement": "A synthetic sample has exactly the declared number of values on every level, and for the same seed the coarse result of level l+1 equals the fine result of level l (so the multilevel sum telescopes).", "quantifier": "all seeds, steps, formats", "why_tests_cant": "All formats and steps.", "anchors": ["mlmc/sim/synth_simulation.py:SynthSimulation.calculate"]}
{"id": "C63", "title": "Outflow extraction", "statement": "The extracted result is minus the sum of the fluxes of the outflow records at time 0 preceding the first later record, an exception if there is none or if one has inflow above the tolerance.", "quantifier": "all balance files", "why_tests_cant": "All record sequences.", "anchors": ["mlmc/tool/flow_mc.py:FlowSim._extract_result"]}
{"id": "C64", "title": "Kept sample directories", "statement": "Outside debug mode the directories kept for successful samples are exactly those of the first five counters of each level.", "quantifier": "all counters and levels", "why_tests_cant": "All counters, including those wider than seven digits.", "anchors": ["mlmc/sampling_pool.py:SamplingPool.move_successful_rm"]}
{"id": "C65", "title": "Full paths read every number exactly once", "statement": "For every type with distinct keys whose arrays hold parts of size one, nested in any way, the full access paths in declared order read the flattened result number by number, each exactly once and in order.", "quantifier": "all such nested types, all data", "why_tests_cant": "All nestings and sizes.", "anchors": ["mlmc/quantity/quantity_types.py:DictType.get_key", "mlmc/quantity/quantity_types.py:ArrayType._make_getitem_op"]}
{"id": "C66", "title": "Parts of dictionaries, time series and fields come back", "statement": "Building a dictionary, time series or field quantity from parts with distinct keys succeeds when the parts share one type, and accessing key k returns exactly the type and the samples of part k, for parts of any size.", "quantifier": "all lists of parts, all part types and sizes, all data", "why_tests_cant": "All part sizes and positions.", "anchors": ["mlmc/quantity/quantity.py:Quantity.QDict", "mlmc/quantity/quantity.py:Quantity.QTimeSeries", "mlmc/quantity/quantity.py:Quantity.QField"]}
{"id": "C67", "title": "The reads of an estimate go through the cache unharmed", "statement": "After any session of building quantities, asking for samples and changing the stored data, clearing the cache and then asking for the samples of a quantity chunk by chunk (as estimate_mean does) returns the current value for every chunk, provided objects alive together have different addresses; the chunks the storage delivers have distinct (level, chunk number) pairs.", "quantifier": "all sessions, graphs, chunk lists and data", "why_tests_cant": "All histories of cached values.", "anchors": ["mlmc/quantity/quantity.py:Quantity.get_cache_key", "mlmc/quantity/quantity.py:Quantity.samples", "mlmc/quantity/quantity_estimate.py:estimate_mean"]}
{"id": "C68", "title": "Selections are not mixed by programs without subsampling", "statement": "For any quantities built without subsample, an operation on two quantities that take different samples from some chunk, or that come from different root quantities, raises; and the samples of a quantity depend only on the data of its own root.", "quantifier": "all expressions with any number of selections and roots", "why_tests_cant": "All expression trees.", "anchors": ["mlmc/quantity/quantity.py:Quantity.set_selection_id", "mlmc/quantity/quantity.py:Quantity._check_selection_ids", "mlmc/quantity/quantity.py:Quantity.select"]}
{"id": "C69", "title": "A usable sample on each level makes the estimate finite", "statement": "If every level has at least one sample without NaN and the data contain no infinite value, estimate_mean returns as many numbers as the quantity has components, all finite.", "quantifier": "all data, all chunk layouts, all numbers of levels", "why_tests_cant": "The test suite only looks at storages in which every level has samples.", "anchors": ["mlmc/quantity/quantity_estimate.py:22-80", "mlmc/quantity/quantity.py:588-605"]}
{"id": "C70", "title": "Items of a mean by name, index or slice are means of items", "statement": "For data without NaN, estimate_mean(q)[key] equals estimate_mean(q[key]) for dictionary, time series and field keys and for a single integer or slice on an array.", "quantifier": "all types, keys and data", "why_tests_cant": "Tests compare a few keys on one format.", "anchors": ["mlmc/quantity/quantity.py:632-651", "mlmc/quantity/quantity_estimate.py:22-80"]}
{"id": "C71", "title": "Domain end points and outliers for domains at least 1e-15 wide", "statement": "For a moment object whose (mapped) domain is at least 1e-15 wide the domain end points map to the reference end points; with safe evaluation every value outside the domain, infinite or NaN becomes NaN, and the moment estimate uses exactly the samples all of whose values lie inside the domain, counting all the others as removed.", "quantifier": "all domains, reference intervals, values, data and chunkings", "why_tests_cant": "For all reals and all data.", "anchors": ["mlmc/moments.py:58-73", "mlmc/quantity/quantity_estimate.py:83-119"]}
{"id": "C72", "title": "One moment agrees with all moments where it is implemented consistently", "statement": "eval_single_moment(i, x) equals component i of eval_all(x) for every family; eval(i, x) does for Legendre and linearly transformed moments, and for monomials of positive order or of a value that is not an outlier.", "quantifier": "all objects, indices and values", "why_tests_cant": "All indices and values.", "anchors": ["mlmc/moments.py:75-112"]}
{"id": "C73", "title": "eval_all with a smaller size is a prefix", "statement": "eval_all with size k returns the first k values of eval_all with size n >= k, for every family including linearly transformed moments.", "quantifier": "all sizes, families and values", "why_tests_cant": "All sizes.", "anchors": ["mlmc/moments.py:90-93", "mlmc/moments.py:122-126", "mlmc/moments.py:256-259"]}
{"id": "C74", "title": "The zeroth polynomial moment is one with zero variance", "statement": "For every estimate of moments that returns, with a first function equal to one (monomials, Legendre, transformations keeping it), the mean of moment 0 is 1 on level 0 and 0 on other levels, its level variance is 0 for more than one sample, and the total mean is 1, for every component of the quantity and both arrangements of moments.", "quantifier": "all data, chunkings and levels", "why_tests_cant": "For all data.", "anchors": ["mlmc/quantity/quantity_estimate.py:83-119"]}
{"id": "C75", "title": "Estimated numbers of samples stay within twice the target variance", "statement": "For all non-negative variances, positive costs and a positive target, estimate_n_samples_for_target_variance returns one number of at least 2 per level, and for each moment the estimator variance with one more sample per level is at most (2 - 1/L) times the target (3 times without the additional sample), and at most the target when all levels have the same product of variance and cost.", "quantifier": "all variances, costs, targets, numbers of levels and moments", "why_tests_cant": "An inequality for all reals.", "anchors": ["mlmc/estimator.py:366-385"]}
{"id": "C76", "title": "Level parameters and initial numbers of samples from at most two numbers", "statement": "For steps 0 < fine < coarse the level parameters are one positive step per level, geometrically decreasing from the coarse to the fine end (the fine end for one level); determine_n_samples with no, one or two positive integers returns one number per level, the first equal to n0, the last equal to nL for more than one level, monotone in between.", "quantifier": "all ranges, numbers and numbers of levels", "why_tests_cant": "All numbers of levels and real ranges.", "anchors": ["mlmc/estimator.py:388-450"]}
{"id": "C77", "title": "Results delivered outside the clearing window are handed over exactly once", "statement": "With the process or thread pool, if no worker exception escapes and no result arrives between the copy and the clear of the queue it goes to, then after the last delivery the next get_finished call completes, every delivered result has been returned exactly once and zero samples are reported as running.", "quantifier": "all interleavings of scheduling, delivery and get_finished steps satisfying the two conditions", "why_tests_cant": "Interleavings of threads cannot be enumerated by tests.", "anchors": ["mlmc/sampling_pool.py:OneProcessPool._queues_to_list", "mlmc/sampling_pool.py:ProcessPool.schedule_sample"]}
{"id": "C78", "title": "Errors inside the guarded part of a worker come back as failed samples", "statement": "In the process and thread pools, when results arrive outside of the clearing window and every error is raised inside the try block, each such sample is returned as failed with exactly its message, nothing else is returned as failed, and the wait ends.", "quantifier": "all interleavings satisfying the conditions, all messages", "why_tests_cant": "Needs all interleavings of callbacks with the main thread.", "anchors": ["mlmc/sampling_pool.py:SamplingPool.calculate_sample", "mlmc/sampling_pool.py:OneProcessPool._process_result"]}
{"id": "C79", "title": "The PBS poll counts running samples exactly when no running job follows a finished one", "statement": "If no running job stands directly after a finished one in the pool's list of submitted jobs (in particular if qstat fails or nothing has finished), the returned number of running samples is the number of samples of all jobs that are submitted and not yet collected, so zero means that all are collected.", "quantifier": "all sequences of requests, polls and progress of the jobs, all answers of qsub with distinct ids, all answers of qstat within the guard", "why_tests_cant": "Depends on the whole history of submissions and polls.", "anchors": ["mlmc/sampling_pool_pbs.py:SamplingPoolPBS._qstat_pbs_job", "mlmc/sampling_pool_pbs.py:SamplingPoolPBS._get_result_files"]}
{"id": "C80", "title": "PBS recovery returns each successful sample exactly once if none failed", "statement": "If all unfinished samples given to the pool after a restart succeeded in their recorded jobs, the first poll returns each of them exactly once with its recorded result, in whatever order the set is iterated.", "quantifier": "all sets of samples, all distributions over jobs, all iteration orders", "why_tests_cant": "All iteration orders of a set and all distributions over jobs.", "anchors": ["mlmc/sampling_pool_pbs.py:SamplingPoolPBS._collect_unfinished"]}
{"id": "C81", "title": "New PBS job numbers when the listing ends with the largest", "statement": "If the directory listing of the job scripts ends with the largest job number, the pool numbers its next job differently from all of them.", "quantifier": "all sets of job numbers and all listings ending with the largest", "why_tests_cant": "All listings.", "anchors": ["mlmc/sampling_pool_pbs.py:SamplingPoolPBS._get_job_count"]}
{"id": "C82", "title": "Worker configuration round-trip for names without separators", "statement": "For a jobs directory and a level file pattern without semicolons and line ends and a fresh output directory, the worker reads back exactly both names and the debug flag.", "quantifier": "all such names, both flags", "why_tests_cant": "All strings.", "anchors": ["mlmc/tool/pbs_job.py:PbsJob._serialize_pbs_process", "mlmc/tool/pbs_job.py:PbsJob._deserialize_pbs_process"]}
{"id": "C83", "title": "No sample is lost or reported twice by the PBS pool", "statement": "At any moment of any run every requested sample is in exactly one place: in exactly one answer of the pool, in a submitted job not yet collected, or in the pending package; every reported result or error is the one computed for that sample, or 'job failed'.", "quantifier": "all sequences of requests, polls, rejections, qstat answers and kills of jobs at any point", "why_tests_cant": "All interleavings of requests, polls, failures and kill points.", "anchors": ["mlmc/sampling_pool_pbs.py:SamplingPoolPBS.get_finished", "mlmc/sampling_pool_pbs.py:SamplingPoolPBS._get_result_files", "mlmc/tool/pbs_job.py:PbsJob.read_results"]}
{"id": "C84", "title": "Template substitution without nested brackets", "statement": "In a template whose opening brackets are closed before the next one, for bracket-free names and values without an opening bracket, substitute_placeholders replaces every placeholder of a given name by its value, keeps all other text, reports the names that occur in the order of the parameters, and neither text nor set of names depends on that order.", "quantifier": "all such template texts, all such parameter dictionaries, all orders", "why_tests_cant": "All texts and dictionaries, including values that contain parts of names.", "anchors": ["mlmc/tool/flow_mc.py:substitute_placeholders"]}
{"id": "C85", "title": "Synthetic simulation: declared number of values and telescoping above the lowest level", "statement": "If all quantities of the format have as many components, times and locations, a sample not turned into nan succeeds with the declared number of fine and coarse values, coarse zero on the lowest level; for one seed the coarse result of a level equals the fine result of the level below it unless that is the lowest, against which each value is larger by the number of its location.", "quantifier": "all distributions, seeds, steps, formats with uniform quantities, class states", "why_tests_cant": "All formats and steps; tests use the fixed format.", "anchors": ["mlmc/sim/synth_simulation.py:SynthSimulation.calculate", "mlmc/sim/synth_simulation.py:SynthSimulation.generate_random_samples"]}
{"id": "C86", "title": "Sets of dependent fields give the values meant", "statement": "A list of fields, each restricted to the same regions as its parameters, no two using one random field object and none named like the field made of a number: Fields is built; after set_points one sample returns for every outer field its value at every point of its regions, computed from the values of its parameters at the same point, and zero elsewhere, and returns no field that is not asked for; the result depends on points only through the point itself, so permuting the points permutes the values.", "quantifier": "all lists of fields meeting the conditions, all meshes, regions, functions and realisations", "why_tests_cant": "Any number of fields, parameters, regions and points.", "anchors": ["mlmc/random/correlated_field.py:Fields.__init__", "mlmc/random/correlated_field.py:Fields.set_points", "mlmc/random/correlated_field.py:Fields.sample"]}
{"id": "C87", "title": "Fine and coarse field files come from one realisation", "statement": "With fields as in C86 and a fine and a coarse mesh seen without the same axis, the two field files of one sample hold for every field asked for one row for each non-boundary element in mesh order, with its element number and the value of one and the same function at the mean of its nodes on the regions of the field and zero elsewhere.", "quantifier": "all meshes, element shapes, regions, fields and realisations meeting the conditions", "why_tests_cant": "All mesh sizes, regions and field sets.", "anchors": ["mlmc/tool/flow_mc.py:FlowSim.extract_mesh", "mlmc/tool/flow_mc.py:FlowSim.make_fields", "mlmc/tool/flow_mc.py:FlowSim.generate_random_sample", "mlmc/tool/flow_mc.py:FlowSim.calculate"]}
{"id": "C88", "title": "Range mappings with positive upper end and nonnegative factor", "statement": "For 0 < b and a < b positive_to_range maps [0, infinity) strictly increasingly onto [a, b). For viscosity above 1e-10, factor >= 0 and power m >= -2 the Kozeny-Carman conductivity is at least 1e-15, never decreases with porosity and strictly increases between porosities in [1e-10, 1-1e-10] whenever the larger value is above 1e-15.", "quantifier": "all real parameters meeting the conditions, all arguments", "why_tests_cant": "For all reals.", "anchors": ["mlmc/random/correlated_field.py:positive_to_range", "mlmc/random/correlated_field.py:kozeny_carman"]}
{"id": "C89", "title": "Chunked Fourier sum is exact when memory depends on chunk size", "statement": "If an attempt runs out of memory only at its first chunk, which is so when the size of a chunk decides whether there is memory for it, then the sampled field at every point is the sum of all modes once each, and with memory for a chunk of one mode the retry loop ends after at most log2 of the number of modes + 1 attempts.", "quantifier": "all numbers of modes and points, dimensions 1 and 2, all memory limits", "why_tests_cant": "Memory errors cannot be scheduled in tests.", "anchors": ["mlmc/random/correlated_field.py:FourierSpatialCorrelatedField.random_field"]}
{"id": "C90", "title": "The distribution function of a normalised density, arguments in order", "statement": "For a non-negative density integrating to one over the domain and quadrature without error, cdf on arguments given in the order: left of the domain, inside (in any order), right of it, returns 0, the integral up to the argument, and 1; for sorted arguments the values lie in [0,1] and do not decrease.", "quantifier": "all densities, all domains, all argument lists in that order", "why_tests_cant": "All argument lists and densities.", "anchors": ["mlmc/tool/simple_distribution.py:SimpleDistribution.cdf", "mlmc/tool/distribution.py:Distribution.cdf"]}
{"id": "C91", "title": "Divergence integrand for posteriors above the floor, and Hessians", "statement": "For q >= 1e-300 the Kullback-Leibler integrand is >= 0 and is 0 only for p = q; the Hessians of both classes are symmetric positive semidefinite.", "quantifier": "all p > 0, q >= 1e-300; all multipliers, points with non-negative weights and moments", "why_tests_cant": "Inequalities for all reals.", "anchors": ["mlmc/tool/simple_distribution.py:KL_divergence", "mlmc/tool/simple_distribution.py:SimpleDistribution._calculate_jacobian_matrix", "mlmc/tool/distribution.py:Distribution._calculate_jacobian_matrix"]}
{"id": "C92", "title": "Minimising the functional matches the moments", "statement": "Without penalty and clipping, the gradient and Hessian handed to the minimiser by SimpleDistribution are the derivatives of the functional; multipliers with zero gradient are a global minimum, and there the density has the given moments.", "quantifier": "all quadratures with non-negative weights, all moments, all multipliers", "why_tests_cant": "Derivatives and global minimality over all reals.", "anchors": ["mlmc/tool/simple_distribution.py:SimpleDistribution._calculate_functional", "mlmc/tool/simple_distribution.py:SimpleDistribution._calculate_gradient", "mlmc/tool/simple_distribution.py:SimpleDistribution._calculate_jacobian_matrix"]}
{"id": "C93", "title": "The density integrates to one after the normalisation step", "statement": "After the step commented 'Fix normalization' in estimate_density_minimize the approximated density integrates to one.", "quantifier": "all multipliers found by the minimiser, both classes", "why_tests_cant": "All multipliers.", "anchors": ["mlmc/tool/simple_distribution.py:SimpleDistribution.estimate_density_minimize", "mlmc/tool/distribution.py:Distribution.estimate_density_minimize"]}
{"id": "C94", "title": "Derivatives of the penalised functional", "statement": "In class Distribution the gradient is the derivative of the functional and the Hessian that of the gradient.", "quantifier": "all multipliers, with or without active penalty, all moment counts", "why_tests_cant": "Derivatives over all reals.", "anchors": ["mlmc/tool/distribution.py:Distribution._calculate_functional", "mlmc/tool/distribution.py:Distribution._calculate_gradient", "mlmc/tool/distribution.py:Distribution._calculate_jacobian_matrix"]}
{"id": "C95", "title": "Mesh files round-trip up to quotes, field files up to four components", "statement": "A mesh with three coordinates per node, at least three tags and nodes per element and group names without white space is read back from the file written by write_ascii, every group under its name in quotes; fields with at most four components and names without line ends and outer quotes written by write_fields are read back with the same values for the same elements and nothing else.", "quantifier": "all such meshes, fields and element numbers", "why_tests_cant": "All meshes and texts.", "anchors": ["mlmc/tool/gmsh_io.py:GmshIO.read", "mlmc/tool/gmsh_io.py:GmshIO.write_ascii", "mlmc/tool/gmsh_io.py:GmshIO.write_fields", "mlmc/tool/gmsh_io.py:GmshIO.write_element_data"]}
{"id": "C96", "title": "Plain result formats survive the file storage and others are rejected", "statement": "A format whose entries have equally many times and equally many named locations, with ASCII texts of at most 50 characters and a first name that does not have three, is read back from a new file as it was; the file can be opened again with it without change, and opening it with a format that differs in the number of entries, a name, unit, shape or time, or lacks a stored location raises.", "quantifier": "all such formats, all formats given when opening again", "why_tests_cant": "All formats.", "anchors": ["mlmc/sample_storage_hdf.py:SampleStorageHDF.save_global_data", "mlmc/sample_storage_hdf.py:SampleStorageHDF.load_result_format", "mlmc/tool/hdf5.py:HDF5.save_result_format", "mlmc/quantity/quantity_spec.py:QuantitySpec.__eq__"]}
{"id": "C97", "title": "Samples belong to the points set last", "statement": "Every array returned by SpatialCorrelatedField.sample has one value for each of the points given to the last call of set_points, equal to sigma times a field computed for these points plus mu.", "quantifier": "All sequences of set_points, cov_matrix, svd_dcmp and sample calls", "why_tests_cant": "Tests set the points of an object once; the stale factor shows only in sequences where points are set again without a new decomposition.", "anchors": ["mlmc/random/correlated_field.py:320-363", "mlmc/random/correlated_field.py:386-388", "mlmc/random/correlated_field.py:430-498"]}
{"id": "C98", "title": "Samples are right if every new set of points is decomposed", "statement": "If on a new SpatialCorrelatedField every call of set_points but the first one and every call of cov_matrix is followed by svd_dcmp, as Field.set_points does, each sample belongs to the points, mu and sigma set last.", "quantifier": "All such sequences of calls, all points, arguments and results of the decompositions", "why_tests_cant": "The claim is about every interleaving of calls on one object and every outcome of a randomised decomposition.", "anchors": ["mlmc/random/correlated_field.py:82-94", "mlmc/random/correlated_field.py:320-363", "mlmc/random/correlated_field.py:430-498"]}
{"id": "C99", "title": "Truncated decomposition reaches the precision or the largest number of terms", "statement": "The number of terms kept by svd_dcmp either makes the ratio of smallest to largest singular value smaller than the precision or is the largest number allowed by the range and the number of points.", "quantifier": "All numbers of points, ranges, precisions and singular values", "why_tests_cant": "Whether the growth by half jumps over the maximum depends on the arithmetic of the range; a test covers a few ranges.", "anchors": ["mlmc/random/correlated_field.py:454-481"]}
{"id": "C100", "title": "Number of terms lies in the range and the search ends", "statement": "The search for the number of terms in svd_dcmp ends, raises only for the missing sp.optmize (in exactly the stated case), and gives a number within the range; if the singular values are not precise enough, one and a half times as many terms would be more than allowed.", "quantifier": "All numbers of points, ranges, precisions >= 0, estimates and singular values", "why_tests_cant": "Termination and the bounds hold for every sequence of singular values, which the randomised decomposition may return differently in each call.", "anchors": ["mlmc/random/correlated_field.py:454-481"]}
{"id": "C101", "title": "Covariance matrix is symmetric with unit diagonal", "statement": "The matrix of cov_matrix is symmetric, has ones on its diagonal and does not change if all points are shifted by the same vector.", "quantifier": "All numbers of points, dimensions, points, correlation tensors and exponents", "why_tests_cant": "The number of points and the coordinates range over infinite sets; tests compare a few grids with statistics of samples.", "anchors": ["mlmc/random/correlated_field.py:390-412"]}
{"id": "C102", "title": "Samples have the prescribed mean and covariance", "statement": "With an exact singular value decomposition of a positive semidefinite covariance matrix C and standard normal numbers, samples have mean mu_i and covariances sigma_i sigma_j C_ij if all terms are kept; with m terms the missing covariance is positive semidefinite with trace equal to the sum of the dropped singular values, so that variances are at most sigma_i^2 C_ii.", "quantifier": "All matrices, decompositions, mu, sigma, numbers of terms and finite distributions with the moments of standard normal numbers", "why_tests_cant": "Tests estimate covariances from samples with statistical error and a few point sets.", "anchors": ["mlmc/random/correlated_field.py:347-363", "mlmc/random/correlated_field.py:482-498"]}
{"id": "C103", "title": "Shooting simulation follows the Euler trajectory", "statement": "The shooting loop makes exactly as many steps as there are random values. Its result is the last point of the explicit Euler trajectory, and NaN exactly when some point of the trajectory lies outside the area.", "quantifier": "all start positions, velocities, areas, positive times and non-empty lists of forces", "why_tests_cant": "the number of steps, the forces and the moment of leaving the area are unbounded; the examples run one random case", "anchors": ["examples/shooting/simulation_shooting_2D.py:85-121", "examples/shooting/simulation_shooting_1D.py:85-121"]}
{"id": "C104", "title": "2D shooting: fine and coarse results come from their own samples", "statement": "In the 2D shooting simulation the fine result is the shot under the random field in the fine points and the coarse result is the shot under the same field in the coarse points.", "quantifier": "all configurations with positive time, all realisations of the two random fields", "why_tests_cant": "results are random; that all level differences are zero looks like excellent convergence", "anchors": ["examples/shooting/simulation_shooting_2D.py:60-83"]}
{"id": "C105", "title": "1D shooting: both results come from one realisation in their own points", "statement": "In the 1D shooting simulation the fine and the coarse result are shots under one realisation of the random field, each taken in the equidistant points of its own level, and the coarse result of the lowest level is zero.", "quantifier": "all configurations with positive time, all realisations of the random field", "why_tests_cant": "the realisation is random and the numbers of elements are unbounded", "anchors": ["examples/shooting/simulation_shooting_1D.py:63-83", "examples/shooting/simulation_shooting_1D.py:123-148"]}
{"id": "C106", "title": "Level simulations of the 2D shooting keep their own configuration", "statement": "After the sampler has created the level simulations of the 2D shooting, the configuration of each level holds the steps of that level and of the next coarser one.", "quantifier": "all lists of level parameters", "why_tests_cant": "needs aliasing between configurations of all levels over a whole campaign; each sample alone looks correct", "anchors": ["examples/shooting/simulation_shooting_2D.py:39-58", "mlmc/sampler.py:62-80"]}
{"id": "C107", "title": "Shooting: levels with decreasing steps get their points", "statement": "For positive decreasing steps not larger than the complexity, creating the points of a level succeeds.", "quantifier": "all complexities and pairs of steps", "why_tests_cant": "only pairs of close steps fail, and the failure appears as failed samples", "anchors": ["examples/shooting/simulation_shooting_1D.py:123-135", "examples/shooting/simulation_shooting_1D.py:53-58"]}
{"id": "C108", "title": "Level simulations of the 1D shooting keep their own configuration", "statement": "After the sampler has created the level simulations of the 1D shooting, the configuration of each level holds the steps of that level and of the next coarser one, the numbers of elements are the integer parts of complexity over step, and the remaining entries are those of the user.", "quantifier": "all lists of level parameters; for the numbers of elements all positive steps and nonnegative complexities", "why_tests_cant": "needs aliasing between configurations of all levels over a whole campaign", "anchors": ["examples/shooting/simulation_shooting_1D.py:41-61", "mlmc/sampler.py:62-80"]}
{"id": "C109", "title": "Share of failed samples of the synthetic simulation", "statement": "After any number n of samples computed by a new process of the synthetic simulation with nan_fraction f, the number k of failed (NaN) samples satisfies f*n <= k < f*(n+1e-10)+1: the wanted share rounded up.", "quantifier": "all fractions in [0,1], all sequences of samples and all random values", "why_tests_cant": "a run checks one fraction and one length", "anchors": ["mlmc/sim/synth_simulation.py:75-131"]}
{"id": "C110", "title": "A field accepts exactly its number of parameters", "statement": "A constant or random field is built only without parameters, a function field only with at least one parameter and exactly as many as the function takes; otherwise the constructor raises.", "quantifier": "all fields, functions of all arities and all parameter lists", "why_tests_cant": "only wrong declarations differ", "anchors": ["mlmc/random/correlated_field.py:44-80"]}
{"id": "C111", "title": "Coordinates kept of a mesh", "statement": "The points of an extracted mesh are the three coordinates of the barycentres when these extend along all axes by at least the tolerance; otherwise exactly two coordinates are kept, in order, and the axis left out is one along which the barycentres extend by less than the tolerance.", "quantifier": "all meshes for which extraction succeeds", "why_tests_cant": "depends on the extent of the whole mesh", "anchors": ["mlmc/tool/flow_mc.py:351-394"]}
{"id": "C112", "title": "Fine and coarse mesh must agree on regions", "statement": "Points of a fine and a coarse mesh are put together only if both meshes give the same numbers to the same region names; if the maps differ in any name (also one present in only one mesh), make_fields raises.", "quantifier": "all pairs of extracted meshes and all fields", "why_tests_cant": "meshes of test campaigns always agree", "anchors": ["mlmc/tool/flow_mc.py:279-300"]}
{"id": "C113", "title": "Times of PBS jobs are summed", "statement": "The time and number of samples reported for a level by collecting finished jobs are the sums over all collected jobs of their last record of the level; a level without a record has no entry.", "quantifier": "all contents of the job files and all lists of distinct finished jobs", "why_tests_cant": "needs many jobs with different time files", "anchors": ["mlmc/sampling_pool_pbs.py:335-376"]}
{"id": "C114", "title": "Tolerated qstat errors", "statement": "While jobs wait, ten failing qstat calls in a row are answered as if all jobs were running, the eleventh and later ones raise; a successful call sets the counter back.", "quantifier": "all pools with waiting jobs and any number of calls", "why_tests_cant": "needs a long series of failures of the queue system", "anchors": ["mlmc/sampling_pool_pbs.py:285-312"]}
{"id": "C115", "title": "Reading a field file twice is refused", "statement": "A written field file, read a second time into the same object, raises AssertionError.", "quantifier": "all element ids and fields with plain names, all ways to write numbers that can be read back", "why_tests_cant": "tests read each file once", "anchors": ["mlmc/tool/gmsh_io.py:95-107", "mlmc/tool/gmsh_io.py:305-343"]}
{"id": "C116", "title": "Search for the best window of a line fit", "statement": "best_fit_all returns a window with both ends in the given ranges, at least three values and without the last value, together with its least squares line, such that residual over squared length is minimal among all such windows and all lines; it returns None exactly when the ranges contain no such window.", "quantifier": "all lists of values and all ranges (also with negative indices)", "why_tests_cant": "the minimum over windows and lines is not observable in one result", "anchors": ["mlmc/tool/simple_distribution.py:537-556"]}
{"id": "C117", "title": "Best linear part of the spectrum", "statement": "best_p1_fit returns the part of the list with at least three values whose linear fit has the smallest residual over squared length.", "quantifier": "all lists with at least four values", "why_tests_cant": "only some lists have their best part at the end or between halved indices", "anchors": ["mlmc/tool/simple_distribution.py:559-579"]}
{"id": "C118", "title": "Eigenvalues after slope detection", "statement": "For nonpositive values followed by at least four positive ones, detect_treshold_slope_change keeps all values from the threshold on, replaces the earlier ones by positive numbers on the least squares line of the logarithms of a window starting at the threshold, and the threshold is at or after the first positive value and at least four before the end; with one to three positive values it raises TypeError.", "quantifier": "all such sequences", "why_tests_cant": "needs all splits into nonpositive and positive values", "anchors": ["mlmc/tool/simple_distribution.py:583-609"]}
{"id": "C119", "title": "Geometric eigenvalues are not changed", "statement": "For nonpositive values followed by a geometric sequence with at least four terms, the threshold is the first positive value, the positive values are kept and the others are replaced by the continuation of the geometric sequence.", "quantifier": "all numbers of nonpositive values, first terms, quotients and lengths", "why_tests_cant": "every length goes through a different number of halvings", "anchors": ["mlmc/tool/simple_distribution.py:559-609"]}
{"id": "C120", "title": "Regression of variances: what is kept", "statement": "estimate_diff_vars_regression returns an array of the same shape in which level 0, moment 0, nearly zero moments and everything for fewer than three levels are the raw variances, and all other entries are positive; the result does not depend on the numbers of created samples nor on earlier calls, and the operation counts are those of the storage.", "quantifier": "all arrays of variances, steps, sample numbers and caches for which the call succeeds, any least squares solver", "why_tests_cant": "needs all shapes and a relation between several calls", "anchors": ["mlmc/estimator.py:56-134"]}
{"id": "C121", "title": "Regression of variances: exact reproduction", "statement": "Variances whose logarithms on levels 1,... are a quadratic function of the logarithm of the step come back unchanged; in particular with at most four levels with different positive steps the regression changes nothing.", "quantifier": "all numbers of levels and moments, all steps, any solver that minimises the sum of squares", "why_tests_cant": "exactness of a minimiser for all inputs", "anchors": ["mlmc/estimator.py:95-134"]}
{"id": "C122", "title": "Regression of variances keeps the product over levels", "statement": "For every moment the product of the regressed variances over the levels 1,... equals the product of the raw ones.", "quantifier": "all arrays with positive variances on levels 1,..., any solver that minimises the sum of squares", "why_tests_cant": "an identity of the minimiser", "anchors": ["mlmc/estimator.py:95-134"]}
{"id": "C123", "title": "Cache of the variances of variances", "statement": "Whatever calls were made before, _variance_of_variance returns the values for its own list of numbers of samples, or raises.", "quantifier": "all sequences of calls on one object", "why_tests_cant": "needs calls with lists of different lengths", "anchors": ["mlmc/estimator.py:136-169"]}
{"id": "C124", "title": "An estimated domain covers the samples it was read from", "statement": "When estimate_domain returns (lo, hi) with a quantile q of at most 1/2, lo <= hi, both bounds lie within the range of the samples read, and for each level l the interval contains at least (1-2q)(n-1)-1 of the n numbers among the first N_l samples read, with NaN left out, where N_l is the number of samples of level l; for memory and file storages.", "quantifier": "every quantile, every number of levels, every list of samples with NaN", "why_tests_cant": "tests compare one domain with one sample set; whether enough samples lie inside depends on ties, NaN and the rounding of indices", "anchors": ["mlmc/estimator.py:275-302", "mlmc/sample_storage.py:58-69"]}
{"id": "C125", "title": "The domain covers the samples of every level", "statement": "The domain returned by estimate_domain contains the central share 1-2q of the fine samples of every level.", "quantifier": "every quantile up to 1/2, every storage content", "why_tests_cant": "tests use simulations whose levels have nearly the same distribution, so reading one level only goes unseen", "anchors": ["mlmc/estimator.py:288-299"]}
{"id": "C126", "title": "Quantile None and levels without samples in estimate_domain", "statement": "With quantile None the domain is the whole range of the samples, and a level of a file without collected samples ends the search without an error.", "quantifier": "every storage content", "why_tests_cant": "a test with many samples loses only one percent of them, and tests always collect all levels first", "anchors": ["mlmc/estimator.py:275-302", "mlmc/tool/hdf5.py:378-388"]}
{"id": "C127", "title": "The function estimate_domain of the module returns a domain", "statement": "mlmc.estimator.estimate_domain returns the hull of the quantile ranges of all levels.", "quantifier": "every storage content and quantile", "why_tests_cant": "no test calls this function, and its fault does not depend on input data", "anchors": ["mlmc/estimator.py:344-363", "mlmc/quantity/quantity_spec.py:25-28"]}
{"id": "C128", "title": "Bootstrap estimates are computed", "statement": "est_bootstrap(n) with n > 0 returns after computing one estimate of the moments from each of n subsamples.", "quantifier": "every stored data, sample vector, moments and random draws", "why_tests_cant": "no test calls est_bootstrap; the fault is a type mismatch between subsample and select that exists for all data", "anchors": ["mlmc/estimator.py:171-218", "mlmc/quantity/quantity.py:149-172", "mlmc/quantity/quantity.py:307-364"]}
{"id": "C129", "title": "Estimates of a subsample use the requested numbers of samples", "statement": "For levels read in one chunk, the estimate of quantity.subsample(vec) uses, together with the samples removed for NaN, exactly vec[l] samples on level l, all of them collected samples of that level.", "quantifier": "every number of levels and samples, every vec up to the collected numbers, every draw", "why_tests_cant": "tests check counts of one random draw without NaN", "anchors": ["mlmc/quantity/quantity.py:307-364", "mlmc/quantity/quantity_estimate.py:22-80"]}
{"id": "C130", "title": "Seeded simulations are reproducible", "statement": "For fields by decomposition of the covariance matrix (model svd) the flow simulation, and without failed samples (nan_fraction 0) the synthetic simulation, give a result determined by configuration and seed, whatever the process computed before.", "quantifier": "every state of the random generators and counters, every configuration and seed", "why_tests_cant": "a test would have to repeat every sample in another process after another history", "anchors": ["mlmc/tool/flow_mc.py:224-277", "mlmc/random/correlated_field.py:430-498", "mlmc/sim/synth_simulation.py:75-131"]}
{"id": "C131", "title": "Every simulation is determined by its seed", "statement": "The result of calculate(config, seed) depends only on configuration and seed for all kinds of fields, the shooting simulations and the synthetic simulation.", "quantifier": "every simulation, state of the process, configuration and seed", "why_tests_cant": "results look random either way; only repeating a sample shows that its seed has no influence", "anchors": ["mlmc/tool/flow_mc.py:16-52", "mlmc/tool/flow_mc.py:224-277", "mlmc/random/correlated_field.py:501-553", "mlmc/random/correlated_field.py:673-674", "examples/shooting/simulation_shooting_1D.py:63-83"]}
{"id": "C132", "title": "Different samples have different seeds", "statement": "compute_seed gives each identifier a seed accepted by np.random.seed, and different identifiers of a level different seeds.", "quantifier": "every identifier and every hash function with 16 bytes", "why_tests_cant": "collisions need more samples than tests make", "anchors": ["mlmc/sampling_pool.py:75-84", "mlmc/sampler.py:114-120"]}
{"id": "C133", "title": "Directories of samples hold exactly what their samples left", "statement": "For a new OneProcessPool with a work directory and debug=False, and any sequence of samples with workspace whose common files are named by absolute paths outside the output directory: scheduling never raises, each sample succeeds or fails exactly as if it ran alone in a directory holding the common files and nothing else, and afterwards output/ holds failed/<id> for each id with a failed run (files of the last failed run), several_successful/<id> for each id with number below 5 and a successful run (files of the last one), nothing else, and nothing outside of output/ has changed.", "quantifier": "all file trees, work directories, lists of samples (repeated ids allowed), common files and simulation programs (functions from id and directory contents to written files and success)", "why_tests_cant": "Tests run one simulation in a fresh directory; leftovers depend on sequences of successes and failures and on file names that collide.", "anchors": ["mlmc/sampling_pool.py:26-51", "mlmc/sampling_pool.py:86-204", "mlmc/sampling_pool.py:219-252"]}
{"id": "C134", "title": "A new pool erases exactly its output directory", "statement": "A new SamplingPool with debug=False leaves in the output directory only the empty directories failed and several_successful; every other existing file and directory is untouched (missing parent directories are made); it succeeds whenever no file is in the place of the output directory or its parents. With debug=True every existing entry is kept.", "quantifier": "all file trees closed under parents, all absolute or relative work directories", "why_tests_cant": "A test looks at one directory; the claim is about all other entries of the tree.", "anchors": ["mlmc/sampling_pool.py:26-51"]}
{"id": "C135", "title": "A directory in failed/ tells that the sample failed", "statement": "After any samples, output/failed/<id> exists if and only if the last run of the sample <id> failed.", "quantifier": "all sequences of samples in a OneProcessPool with debug=False", "why_tests_cant": "Needs a failed sample that is renewed and then succeeds; tests never renew samples with workspaces.", "anchors": ["mlmc/sampling_pool.py:165-204", "mlmc/sampling_pool.py:230-252", "mlmc/sampler.py:270-295"]}
{"id": "C136", "title": "Relative names of common files", "statement": "Common files named relative to the working directory of the process give each sample the same files as the absolute names.", "quantifier": "all working directories, pools, sequences of samples, lists of relative names", "why_tests_cant": "Tests use absolute paths or one sample; the working directory changes with each sample.", "anchors": ["mlmc/sampling_pool.py:140-163", "mlmc/sampling_pool.py:193-204"]}
{"id": "C137", "title": "Processes keep the directories of samples apart", "statement": "When samples with distinct ids are computed by any number of processes, in any interleaving of starting, calling, writing files, returning and processing results: each running program sees its common files and its own writes only, each result delivered is the one of the sample run alone, once all are done output/ holds exactly what C133 says; an idle process can always take a new sample and each result can always be processed (no OS error).", "quantifier": "all interleavings of all sets of samples with distinct ids and all numbers of processes", "why_tests_cant": "The number of interleavings grows exponentially; tests see the few schedules of one machine.", "anchors": ["mlmc/sampling_pool.py:86-204", "mlmc/sampling_pool.py:230-252", "mlmc/sampling_pool.py:297-322"]}
{"id": "C138", "title": "Threads keep the directories of samples apart", "statement": "The claim of C137 for ThreadPool.", "quantifier": "all interleavings of all sets of samples with distinct ids and all numbers of threads", "why_tests_cant": "The threads share the working directory of the process; the damage needs a second os.chdir between the chdir and a write of the first sample.", "anchors": ["mlmc/sampling_pool.py:150-163", "mlmc/sampling_pool.py:325-337"]}
{"id": "C139", "title": "With debug a sample starts in a clean directory", "statement": "In a pool with debug=True the program of a sample finds its common files in its directory and nothing else.", "quantifier": "all file trees, samples and programs", "why_tests_cant": "Needs a directory left by an interrupted or earlier run of the same sample.", "anchors": ["mlmc/sampling_pool.py:41-51", "mlmc/sampling_pool.py:128-163", "mlmc/sampling_pool.py:230-252"]}
{"id": "C140", "title": "Initial numbers of samples become the numbers scheduled", "statement": "After set_initial_n_samples(v) and schedule_samples on any reachable sampler: with no, one (n, then 10) or two numbers each level l has max(previous, sample_range(n0, nL)[l]) scheduled samples, keeping the previous ones; with three or more numbers, as many as levels, max(previous, integer part of the number); another count of numbers (and more than one level) is a ValueError and nothing is handed to the pool.", "quantifier": "all environments, numbers of levels, histories and arguments", "why_tests_cant": "Tests use one or two arguments on a new sampler.", "anchors": ["mlmc/sampler.py:82-112", "mlmc/sampler.py:122-150"]}
{"id": "C141", "title": "A restarted batch-system campaign gives the results computed before", "statement": "After a restart, Sampler hands the unfinished sample ids of the storage to the new SamplingPoolPBS; the pool's polls give the results of those samples that were computed before the crash, and go on to serve new samples. False: without debug the constructor erases the job files and, whatever was on disk and whatever happens later, no poll ever returns; with debug, one sample that was still pending in the old pool's package blocks all polls. It holds with debug when no sample of the set was pending.", "quantifier": "all crashed campaigns (any sequence of requests, polls, job progress, answers of qsub and qstat), all id sets, all later operations", "why_tests_cant": "The failure shows only after a process crash with jobs on a batch system, and as 'never returns' over all continuations.", "anchors": ["mlmc/sampling_pool_pbs.py:60-92", "mlmc/sampling_pool_pbs.py:378-424", "mlmc/sampling_pool.py:38-51", "mlmc/sampler.py:153-158"]}
{"id": "C142", "title": "Recovery of a crashed batch-system campaign gives exactly the computed results", "statement": "For a campaign of a fresh pool with distinct sample ids, stopped at any moment, a new pool with debug that is given any set of requested and not pending ids returns in its first poll exactly the recorded results of samples of the set, each with the value of its own calculation, and each id once if all of them were computed.", "quantifier": "all operation sequences (requests of any sizes, polls, partial progress of jobs, accepted and rejected submissions), all sets of ids, all answers", "why_tests_cant": "Requires all crash points of all interleavings of pool and jobs.", "anchors": ["mlmc/sampling_pool_pbs.py:198-245", "mlmc/sampling_pool_pbs.py:378-424", "mlmc/tool/pbs_job.py:230-260", "mlmc/tool/pbs_job.py:285-336"]}
{"id": "C143", "title": "A restarted batch-system pool neither loses nor duplicates later samples", "statement": "After restart with debug and the recovery poll, provided the listing of job scripts ends with the last script, at any later time every new request and every sample of old uncollected jobs is in exactly one place: given back by one poll, in the files of one uncollected job, or pending. (Without the proviso a job number is used again and old records are given back for the new job: refuted.)", "quantifier": "all crashed campaigns, all later operation sequences with distinct ids", "why_tests_cant": "Needs all histories before and after a crash.", "anchors": ["mlmc/sampling_pool_pbs.py:94-105", "mlmc/sampling_pool_pbs.py:198-245", "mlmc/sampling_pool_pbs.py:322-376"]}
{"id": "C144", "title": "A batch job calculates samples with the level simulation they were scheduled with", "statement": "The pickled level simulation that a job loads for a level is the one passed to schedule_sample. Holds in an output directory without such files when each level has one simulation; false after a restart with debug, because an existing file is never rewritten.", "quantifier": "all directories, all sequences of scheduled level simulations", "why_tests_cant": "A test would need a restart with changed simulation settings and inspection of which pickle the job loads.", "anchors": ["mlmc/sampling_pool_pbs.py:169-196", "mlmc/tool/pbs_job.py:112-119"]}
{"id": "C145", "title": "A time series is interpolated linearly between its times", "statement": "For at least two distinct times in any order and a point in their range, TimeSeriesType.time_interpolation gives for every component and sample the convex combination of the values at the two neighbouring times (chosen by the point alone), NaN if one of them is NaN; a point outside of the range raises ValueError.", "quantifier": "all lists of distinct rational times, all points, all sizes of the inner type, all chunks", "why_tests_cant": "Needs all orders of times, all positions of the point and all shapes.", "anchors": ["mlmc/quantity/quantity_types.py:143-151", "mlmc/quantity/quantity_types.py:161-174"]}
{"id": "C146", "title": "Interpolation at a stored time is the item of that time", "statement": "time_interpolation(t) for a stored time t equals the item [t]. Holds for series without NaN; false with NaN: the value at t is computed from t and a neighbouring time, so a NaN there makes it NaN.", "quantifier": "all series of at least two distinct times", "why_tests_cant": "The failing case needs a NaN at one time only.", "anchors": ["mlmc/quantity/quantity_types.py:153-174"]}
{"id": "C147", "title": "The mean of an interpolated time series is the interpolation of the means", "statement": "Interpolating a time series and then taking a weighted sum over the samples gives the same as interpolating the weighted sums.", "quantifier": "all series without NaN, all weights, all points in the range", "why_tests_cant": "A statement about all data and weights.", "anchors": ["mlmc/quantity/quantity_types.py:161-174"]}
{"id": "C148", "title": "A flow sample is made of the results of its own two runs", "statement": "In a directory without water_balance.yaml, whatever flow123d does and returns: if calculate returns, the fine result was read from the balance file written by the run on the fine fields with the common files of the fine step, and the coarse result from the balance file written by the run on the coarse fields with the common files of the coarse step (zeros without a coarse step); a run that writes no balance file makes the sample fail; runs that write readable balance files make a sample; the files of the fine run are kept with the prefix fine_.", "quantifier": "all behaviours of flow123d, all directories without a balance file, all fields", "why_tests_cant": "Tests do not run flow123d and cannot enumerate what a failed run leaves behind.", "anchors": ["mlmc/tool/flow_mc.py:223-277", "mlmc/tool/flow_mc.py:302-319", "mlmc/tool/flow_mc.py:412-445"]}
{"id": "C149", "title": "A flow sample calculated in a used directory is made of its own runs", "statement": "In any directory, also one left by an earlier calculation, a returned sample consists of the results of its own two runs of flow123d.", "quantifier": "all behaviours of flow123d, all directories", "why_tests_cant": "The failure needs a used directory and a failing flow123d.", "anchors": ["mlmc/tool/flow_mc.py:223-277", "mlmc/tool/flow_mc.py:302-319"]}
{"id": "C150", "title": "Samples of a level use the mesh and input of its step and of the step below", "statement": "With clean set, if gmsh makes a usable mesh for every nonzero step and different steps are printed differently, then all levels are created, from any work directory, and afterwards the samples of each level read the names of fields, mesh and input made for its own step and the mesh and input made for the step of the level below. A step without a mesh stops the creation of the levels.", "quantifier": "all lists of steps, all work directories, all meshes", "why_tests_cant": "Quantifies over numbers of levels and contents of work directories.", "anchors": ["mlmc/tool/flow_mc.py:77-88", "mlmc/tool/flow_mc.py:153-221", "mlmc/sampler.py:62-80"]}
{"id": "C151", "title": "A flow simulation can be continued with existing common files", "statement": "Without clean, a flow simulation uses the common files found in the work directory, so that a campaign can be continued.", "quantifier": "all work directories", "why_tests_cant": "The existing tests only use clean.", "anchors": ["mlmc/tool/flow_mc.py:139", "mlmc/tool/flow_mc.py:153-221", "mlmc/tool/flow_mc.py:223-240", "mlmc/random/correlated_field.py:176-187"]}
{"id": "C152", "title": "Derivatives of Legendre moments of any degree", "statement": "eval_all_der with any degree returns the derivatives of that degree, with respect to the reference variable, of the functions returned by eval_all, also for transformed moments; degrees 1 and 2 agree with eval_diff and eval_diff2; outside of the domain all values are NaN.", "quantifier": "all sizes, degrees, domains, linear transformations and values", "why_tests_cant": "Infinitely many polynomials, degrees and points; the loop of legder changes its input while it runs.", "anchors": ["mlmc/moments.py:95-98", "mlmc/moments.py:199-219", "mlmc/moments.py:261-264"]}
{"id": "C153", "title": "Moment functions that compare equal return the same values", "statement": "If two moment objects compare equal then they return the same values for all arguments.", "quantifier": "all moment objects made by the constructors, all values", "why_tests_cant": "Quantifies over all pairs of objects.", "anchors": ["mlmc/moments.py:41-49", "mlmc/moments.py:250-254"]}
{"id": "C154", "title": "Script of a PBS job", "statement": "For keyword arguments that give the nodes, cores, memory, wall time, queue and name, with or without select flags, python and std_out_err, and for a working directory, optional requests and environment lines without braces, the script of job n is exactly the expected list of lines: the header with the given values (flags after colons, python3 and oe as defaults), the requests, the working directory, the environment lines and the command of the worker, with the number of the job in at least four digits. Scripts of two different jobs have different output, error and command lines and the same first seven lines.", "quantifier": "all settings, values, directories and job numbers", "why_tests_cant": "The text of a script is formed from arbitrary user values; tests compare one script at most.", "anchors": ["mlmc/sampling_pool_pbs.py:119-167", "mlmc/sampling_pool_pbs.py:247-258"]}
{"id": "C155", "title": "Lines of the user in the script", "statement": "The optional requests and environment lines appear in the script unchanged. This holds for lines without braces, and any line can be had by writing each of its braces twice; a line such as export PATH=${HOME}/bin makes the creation of every script raise a KeyError, and the name of a setting in braces is replaced silently.", "quantifier": "all lines and settings", "why_tests_cant": "The failure depends on the characters of lines a user supplies.", "anchors": ["mlmc/sampling_pool_pbs.py:119-167", "mlmc/sampling_pool_pbs.py:247-258"]}
{"id": "C156", "title": "Arguments of the worker", "statement": "The worker started by the last line of the script reads from its command line the output directory and the number of the job the script was made for. This holds for an output directory and a python command that are words of letters, digits and / . _ -; with a blank in the path the worker gets another directory and another job.", "quantifier": "all settings, directories and job numbers", "why_tests_cant": "The path of the working directory is chosen by the user; tests use temporary directories without blanks.", "anchors": ["mlmc/sampling_pool_pbs.py:119-167", "mlmc/sampling_pool_pbs.py:247-258", "mlmc/tool/pbs_job.py:101-110"]}
{"id": "C157", "title": "A finished adaptive campaign meets the variances of its last estimate", "statement": "When generate_samples with a target variance returns, every level has at least as many scheduled samples as the last estimate asks for (and at least two). With these numbers the variance of every moment, computed from the variances of that last estimate, is at most three times the target, and at most (2 - 1/L) times the target with one more sample per level. The last estimate was made in a state of this campaign.", "quantifier": "for all simulations, level parameters, earlier histories, clocks, timeouts, adding coefficients in (0, 1], variances and costs that may change with the state, initial numbers and numbers of rounds", "why_tests_cant": "A test runs one campaign with one simulation and one random seed; the claim couples the scheduling loop with the formula for every sequence of estimates", "anchors": ["examples/shooting/shooting_1D.py:95-144", "examples/shooting/shooting_2D.py:139-188", "mlmc/sampler.py:195-252", "mlmc/estimator.py:366-385"]}
{"id": "C158", "title": "The adaptive campaign ends when the estimates are bounded", "statement": "If the estimates are never above B on a level, generate_samples returns after at most L*B + 1 rounds of the loop: each round that returns False raises the number of scheduled samples of a level that is below its estimate, and none is lowered.", "quantifier": "for all simulations, histories without restart, clocks, positive timeouts, adding coefficients in (0, 1] and all estimates bounded by B that may change with every state", "why_tests_cant": "Non-termination depends on the sequence of estimates; tests see a few rounds of one sequence", "anchors": ["examples/shooting/shooting_1D.py:95-160", "mlmc/sampler.py:195-252"]}
{"id": "C159", "title": "Collected samples of a finished campaign reach the estimated numbers", "statement": "After generate_samples and all_collect every level has at least as many collected samples as the last estimate asks for, so that their numbers meet the variances of that estimate as in C157.", "quantifier": "for all simulations including failing ones, histories without restart, estimates and clocks", "why_tests_cant": "Tests use simulations that rarely fail; failed samples are counted as scheduled and are not replaced", "anchors": ["examples/shooting/shooting_1D.py:95-160", "mlmc/sampler.py:184-229"]}
{"id": "C160", "title": "Combined conditions are conditions", "statement": "A numpy function such as logical_and of a condition and another condition or a python bool gives a condition again: select accepts it and it has one truth value per sample. Holds for two conditions; false for python bools: bool is a subclass of int, so the constant gets the scalar type, the combination is rejected by select and its value has three axes.", "quantifier": "all conditions, functions of two truth values, types and numbers of samples", "why_tests_cant": "The branch for bools in wrap can never be reached; tests combine conditions only with conditions", "anchors": ["mlmc/quantity/quantity.py:403-479", "mlmc/quantity/quantity.py:149-172"]}
{"id": "C161", "title": "Constants act component by component", "statement": "q op c combines every number of the quantity with the number c; for an array c of the shape of the array quantity q, component m of every sample is combined with entry m of c. Holds for python numbers and arrays of one axis; false for arrays of two axes, which are spread over an extra axis and over fine and coarse values or raise, and for numpy integers, which raise.", "quantifier": "all quantities, operations, constants and chunk shapes", "why_tests_cant": "Tests use numbers and lists; the wrong result of a matrix constant has plausible numbers in an array with one more axis", "anchors": ["mlmc/quantity/quantity.py:177-243", "mlmc/quantity/quantity.py:438-457", "mlmc/quantity/quantity.py:515-539"]}
{"id": "C162", "title": "Arithmetic of constants gives a constant", "statement": "The result of an operation on two constant quantities is a constant quantity that acts in expressions like the combined number. False: two axes are added to the value once more, so expressions with it have five axes; the numbers on the last three axes are right.", "quantifier": "all operations, numbers and chunk shapes", "why_tests_cant": "The test checks only the class of the result", "anchors": ["mlmc/quantity/quantity.py:207-223", "mlmc/quantity/quantity.py:515-539"]}
{"id": "C163", "title": "Samples have as many components as the type says", "statement": "The samples of every numeric quantity, whatever operations built it from stored data, constants and other quantities, have exactly size(qtype) components, where qtype is the type the quantity carries.", "quantifier": "for all programs of quantity operations, all stored chunks of the declared form, all levels and chunk numbers", "why_tests_cant": "The type is computed at construction and the components at evaluation by unrelated code (qtype of an operand, get_key, replace_scalar, numpy broadcasting); tests use a handful of expressions and never compare the two for every operation.", "anchors": ["mlmc/quantity/quantity.py:177-243", "mlmc/quantity/quantity.py:366-504", "mlmc/quantity/quantity_types.py:100-246"]}
{"id": "C164", "title": "Expressions that pass construction can be evaluated", "statement": "A quantity from stored data that was built by operations with matching numbers of components (arithmetic and comparison between operands of the same number of components or with a single component, items of arrays of numbers, composition with distinct names, selection by conditions), without subsampling and without raising, is evaluated without an exception on every chunk whose arrays have the declared number of components, to as many components as its type says.", "quantifier": "for all programs of such operations, all chunks of the declared form, all levels and chunk numbers", "why_tests_cant": "The check of selections happens only when the expression is built; whether it suffices for every later evaluation is a statement about all expressions and all chunks.", "anchors": ["mlmc/quantity/quantity.py:35-135", "mlmc/quantity/quantity.py:149-504", "mlmc/quantity/quantity_types.py:51-246"]}
{"id": "C165", "title": "The multilevel estimate of the mean is unbiased", "statement": "Let every level have a distribution of samples (fine and coarse values of each component) and let the campaign draw a number of independent samples on every level, at least one on each. Whatever the outcome and however the samples are split into chunks, the estimate succeeds, and the expected value of the reported mean of a component is the sum over levels of the expected level differences. If the coarse value of each level has the same expected value as the fine value of the level below, this is the expected fine value of the last level.", "quantifier": "all quantity types, level numbers, finite sample distributions, sample counts >= 1, chunk layouts", "why_tests_cant": "A test sees single random outcomes with noise; it cannot compute the expected value over all outcomes for all distributions.", "anchors": ["mlmc/quantity/quantity_estimate.py:22-80", "mlmc/quantity/quantity.py:568-605"]}
{"id": "C166", "title": "The variance of the multilevel estimate is the sum of level variances over sample counts", "statement": "For independent samples on independent levels, at least one on each, the variance of the reported mean over all outcomes of the campaign is the sum over levels of the variance of the level difference divided by the number of samples of the level.", "quantifier": "all quantity types, level numbers, finite sample distributions, sample counts >= 1, chunk layouts", "why_tests_cant": "The variance over all outcomes is not observable in a run; a test can only compare noisy repetitions with a tolerance.", "anchors": ["mlmc/quantity/quantity_estimate.py:22-80", "mlmc/quantity/quantity.py:568-605"]}
{"id": "C167", "title": "The reported variance is an unbiased estimate of the variance of the mean estimate", "statement": "For independent samples on independent levels, at least two on each, the expected value of the variance reported with the mean equals the variance of the reported mean over all outcomes of the campaign.", "quantifier": "all quantity types, level numbers, finite sample distributions, sample counts >= 2, chunk layouts", "why_tests_cant": "A divisor n instead of n - 1 or a missing division by n changes the expectation by little for large n, within the noise of a random test.", "anchors": ["mlmc/quantity/quantity_estimate.py:22-80", "mlmc/quantity/quantity.py:568-605"]}
{"id": "C168", "title": "The recorded job of a sample is the latest job written for it", "statement": "At any moment of any run of the batch pool, with identifiers that may be scheduled repeatedly and with failing submissions, the file of sample and job numbers gives for a sample the highest number among the jobs whose list of scheduled samples contains it, and nothing for a sample in no job.", "quantifier": "all runs of requests, polls and workers, all identifiers", "why_tests_cant": "Repeated identifiers across retried submissions need long sequences of failures.", "anchors": ["mlmc/tool/pbs_job.py:230-261", "mlmc/tool/pbs_job.py:362-372", "mlmc/sampling_pool_pbs.py:198-245"]}
{"id": "C169", "title": "Workers of all pools of an output directory use the parameters of the first pool", "statement": "When pools are created one after another in the same output directory without erasing it, the worker processes read the jobs directory, level file pattern and debug flag of the first pool, whatever the later pools are given (names without separators).", "quantifier": "all names, flags and numbers of pools", "why_tests_cant": "Tests start with a new directory.", "anchors": ["mlmc/tool/pbs_job.py:76-99"]}
{"id": "C170", "title": "A dictionary of quantities keeps the last part of a repeated key", "statement": "A dictionary quantity built from key and part pairs in which keys may repeat behaves as a python dict: each key is present once, and access gives the type and the samples of the last part given for the key.", "quantifier": "all key and part lists", "why_tests_cant": "Repeated keys are not tried.", "anchors": ["mlmc/quantity/quantity.py:488-491", "mlmc/quantity/quantity_types.py:198-212"]}
{"id": "C171", "title": "Suggested sample numbers reach the target variance", "statement": "When estimate_n_samples_for_target_variance is given the exact variances of the level differences and the campaign draws the returned numbers of independent samples, the variance (over all outcomes of the campaign) of the mean reported by estimate_mean is at most the target variance.", "quantifier": "all quantity types, all finite level laws (any number of levels and components), all positive costs, all positive targets, all ways of storing the samples in chunks", "why_tests_cant": "The variance of the reported mean is an average over all outcomes of a random campaign; a test sees a few outcomes, and the rounding and the cap on the sample numbers matter only for particular cost and variance ratios.", "anchors": ["mlmc/estimator.py:366-385", "mlmc/quantity/quantity_estimate.py:22-80", "mlmc/quantity/quantity.py:568-605"]}
{"id": "C172", "title": "Probability of a large error of the estimate", "statement": "With the sample numbers of C171, and coarse simulations distributed with the same expected value as the fine simulation one level below, the mean reported by estimate_mean differs from the expected value of the finest simulation by eps or more with probability at most 3*target/eps^2.", "quantifier": "all quantity types, all finite level laws, costs, targets, all eps > 0, all ways of storing the samples in chunks", "why_tests_cant": "The statement bounds a probability over all outcomes of the campaign; running tests gives a few outcomes.", "anchors": ["mlmc/estimator.py:366-385", "mlmc/quantity/quantity_estimate.py:22-80", "mlmc/quantity/quantity.py:568-605"]}
{"id": "C173", "title": "The composite Gauss quadrature integrates polynomials exactly", "statement": "The points and weights built from a rule on [-1,1] (leggauss) and the subintervals reported by scipy's quad, which tile the domain in any order, integrate every polynomial of degree below D exactly over the domain when the rule is exact below D; the points lie in the domain, the weights are positive and add up to the length of the domain.", "quantifier": "all rules, all tilings of all domains, all polynomials of degree below D", "why_tests_cant": "A test tries a few integrands; exactness for all polynomials and all subdivisions is a statement about infinitely many.", "anchors": ["mlmc/tool/simple_distribution.py:222-230", "mlmc/tool/simple_distribution.py:364-372", "mlmc/tool/simple_distribution.py:419-427"]}
{"id": "C174", "title": "Semi-exact moments and covariances are exact for polynomial densities", "statement": "For monomials, Legendre polynomials and their linear transformations on a domain without logarithm, compute_semiexact_moments and compute_semiexact_cov return the exact integrals of moment functions (and their products) with the density, when the density is a polynomial of d coefficients and 2(n-1)+d does not exceed the exactness of the rule.", "quantifier": "all moment objects made by the constructors, all polynomial densities, all subdivisions of the domain found by quad", "why_tests_cant": "Tests compare a few distributions with a tolerance; the degree bound at which exactness ends is not visible in them.", "anchors": ["mlmc/tool/simple_distribution.py:349-378", "mlmc/tool/simple_distribution.py:402-440"]}
{"id": "C175", "title": "The semi-exact covariance matrix is symmetric and positive semidefinite", "statement": "For every density that is nonnegative on the domain, compute_semiexact_cov gives a symmetric matrix of finite numbers whose quadratic form is nonnegative, for every family of moment functions.", "quantifier": "all moment objects, all nonnegative densities, all subdivisions, all vectors", "why_tests_cant": "Semidefiniteness is a statement about all vectors and all densities.", "anchors": ["mlmc/tool/simple_distribution.py:402-440"]}
{"id": "C176", "title": "Exact moments and covariances fill the whole matrix with the right integrals", "statement": "With an exact integrator, compute_exact_cov returns the matrix of integrals of products of the moment functions with the density in every position (both triangles and the diagonal), and compute_exact_moments the integrals of the moment functions (families other than Fourier).", "quantifier": "all moment objects, all densities with integrable products, all sizes", "why_tests_cant": "Tests check small sizes and a few densities.", "anchors": ["mlmc/tool/simple_distribution.py:329-346", "mlmc/tool/simple_distribution.py:381-398"]}
{"id": "C177", "title": "The density fit always works with a quadrature of its whole domain", "statement": "After the first forced update and any sequence of evaluations (with or without renewing the quadrature), the stored points and weights integrate polynomials of degree below D exactly over the domain, points are inside, weights positive, the stored moments are those at the stored points and the stored gradient is the quadrature of the moments with the density of the stored multipliers. The quadrature used at any multipliers was made for them, or the first order change since it was made is below the tolerance.", "quantifier": "all sequences of multipliers the optimiser may try, all tolerances, all subdivisions", "why_tests_cant": "The updates depend on the sequence of multipliers chosen by the optimiser; tests see few sequences.", "anchors": ["mlmc/tool/simple_distribution.py:198-238", "mlmc/tool/distribution.py:281-323"]}
{"id": "C178", "title": "The density fit starts from the uniform density", "statement": "The first multipliers give the uniform density 1/(b-a) on the domain, for both classes and all errors of the moments.", "quantifier": "all domains, sizes and moment errors", "why_tests_cant": "Tests use unit errors, where both classes agree; the difference appears for other errors only.", "anchors": ["mlmc/tool/simple_distribution.py:142-144", "mlmc/tool/distribution.py:226-229", "mlmc/tool/simple_distribution.py:96-105", "mlmc/tool/distribution.py:184-194"]}
{"id": "C179", "title": "Computing samples leaves the working directory of the process in place", "statement": "After OneProcessPool computes any samples, the calling process is in the working directory it had before.", "quantifier": "all sequences of samples, with and without workspace, failing or succeeding, all trees of files", "why_tests_cant": "Tests run in a fresh process and use absolute paths, so that nobody notices that the process sits in a removed directory.", "anchors": ["mlmc/sampling_pool.py:128-138", "mlmc/sampling_pool.py:193-204", "mlmc/sampling_pool.py:219-252"]}
{"id": "C180", "title": "A wait on a process pool collects every sample once", "statement": "With ProcessPool or ThreadPool, ask_sampling_pool_for_samples without timeout that returns has returned 0, and then every scheduled sample of every level is in the file exactly once, as collected or as failed; nothing is left with the workers or in the queues.", "quantifier": "all campaigns, all simulations, all orders and moments in which results arrive, also when results were lost or exceptions escaped", "why_tests_cant": "The order in which results of workers arrive changes from run to run; tests with a process pool see one order on a fast machine.", "anchors": ["mlmc/sampler.py:122-193", "mlmc/sampling_pool.py:230-323", "mlmc/sample_storage_hdf.py:121-160"]}
{"id": "C181", "title": "A parallel campaign stores the samples of the campaign in one process", "statement": "With a deterministic simulation the records stored when the wait returns are, up to their order, those of the simulation at the seeds of the scheduled identifiers, hence those of any campaign in one process with as many samples.", "quantifier": "all simulations, campaigns and interleavings", "why_tests_cant": "The order in which results of workers arrive changes from run to run; tests with a process pool see one order on a fast machine.", "anchors": ["mlmc/sampler.py:122-193", "mlmc/sampling_pool.py:74-113", "mlmc/sampling_pool.py:297-323"]}
{"id": "C182", "title": "In a parallel campaign each stored record is genuine at every moment", "statement": "At every moment the identifiers stored, with the workers or in the queues are scheduled ones without repetition, each stored record is an accepted answer of the simulation of its level, and later operations only append.", "quantifier": "all reached states under all interleavings, all further operations", "why_tests_cant": "The order in which results of workers arrive changes from run to run; tests with a process pool see one order on a fast machine.", "anchors": ["mlmc/sampler.py:122-286", "mlmc/sampling_pool.py:230-323"]}
{"id": "C183", "title": "A wait on a process pool ends when the workers finish", "statement": "If the workers finish every sample, ask_sampling_pool_for_samples without timeout returns.", "quantifier": "all campaigns, simulations and interleavings", "why_tests_cant": "The window between copy and clear of a queue is a few instructions long, and an exception that escapes a calculation needs a full disk or a lost process; neither happens in tests.", "anchors": ["mlmc/sampler.py:160-182", "mlmc/sampling_pool.py:281-294", "mlmc/sampling_pool.py:306-323"]}
{"id": "C184", "title": "Scheduling with a process pool reaches the targets", "statement": "schedule_samples with ProcessPool or ThreadPool that returns has brought each level to the maximum of what was scheduled before and the integer part of its target, keeping the identifiers scheduled before.", "quantifier": "all reached states under all interleavings, all targets of matching length", "why_tests_cant": "The order in which results of workers arrive changes from run to run; tests with a process pool see one order on a fast machine.", "anchors": ["mlmc/sampler.py:122-150", "mlmc/sampling_pool.py:315-323"]}
{"id": "C185", "title": "The first orthogonalised moment is the constant one", "statement": "Of the moment functions made by construct_ortogonal_moments from functions whose first is the constant one, the first is again the constant one.", "quantifier": "all positive definite covariance matrices with 1 in the corner, all exact decompositions, all tolerances", "why_tests_cant": "Tests use Legendre moments of a few distributions with a small tolerance, where the rows of the retained eigenvectors happen to be in general position.", "anchors": ["mlmc/tool/simple_distribution.py:756-841", "mlmc/estimator.py:304-331"]}
{"id": "C186", "title": "The density fit of construct_density always gets the moments 1, 0, ..., 0", "statement": "If no eigenvalue is dropped, the means of the orthogonalised moment functions over the samples their covariance was estimated from are 1 for the first and 0 for the others, also for the signed weights of a multilevel estimate.", "quantifier": "all samples, weights and positive definite covariance estimates, all exact decompositions", "why_tests_cant": "It is a statement about all samples; tests compare densities up to a tolerance.", "anchors": ["mlmc/estimator.py:304-331", "mlmc/tool/simple_distribution.py:756-841"]}
{"id": "C187", "title": "Chosen moments are different and exist", "statement": "If fewer than n_moments indices are requested, moments_subset returns exactly that many indices, strictly increasing, all between 1 and n_moments-1, starting with 1 and (for at least two) ending with n_moments-1; it is the least increasing sequence lying nowhere below the rounded geometrical sequence. Without a number all indices but 0 are returned. If n_moments or more are requested some index is out of range.", "quantifier": "all numbers of moments and all requested sizes, any rounding to a nearest integer", "why_tests_cant": "tests call it for one or two sizes; that increasing the repeated indices never leaves the range needs the convexity of the geometrical sequence", "anchors": ["mlmc/plot/plots.py:40-57"]}
{"id": "C188", "title": "Data of the level variance plot", "statement": "After any methods are added to the plot, the data of each chosen moment are the (step, variance) points of all methods in order and the stored range of steps is the range of all steps. The curve of a moment uses strictly increasing steps, one point for every step except the smallest, with the value of the point added first.", "quantifier": "all sequences of methods, all tables", "why_tests_cant": "plots are not compared in tests; which points survive depends on ties between the steps of different methods", "anchors": ["mlmc/plot/plots.py:74-78", "mlmc/plot/plots.py:511-549"]}
{"id": "C189", "title": "Bars of the variance breakdown add up", "statement": "For every method the bars of the levels stand on each other from the last level to the first, each as high as the level's variance divided by its number of samples, so that every column ends at the variance of the estimate (column 0: its average); error bars reach the reference values with one side zero. All columns of all methods are further apart than the bar width and every column has its label.", "quantifier": "all tables, numbers of samples, reference tables and sequences of methods", "why_tests_cant": "the picture is not checked by tests; accumulation over levels and over calls is unbounded", "anchors": ["mlmc/plot/plots.py:415-472"]}
{"id": "C190", "title": "Only positive eigenvalues in the logarithmic scale", "statement": "Among decreasing eigenvalues add_values draws exactly the positive ones when the scale is logarithmic.", "quantifier": "all decreasing lists of eigenvalues", "why_tests_cant": "test matrices are positive definite, so the cut is never exercised", "anchors": ["mlmc/plot/plots.py:311-344"]}
{"id": "C191", "title": "Common domain of the plots", "statement": "After any nonempty sequence of added domains the common domain is the smallest interval containing all of them, whatever their order.", "quantifier": "all sequences of domains", "why_tests_cant": "needs all sequences; the first one is treated specially", "anchors": ["mlmc/plot/plots.py:251-259", "mlmc/plot/plots.py:358-366"]}
{"id": "C192", "title": "Saved plots have the pdf extension", "statement": "A figure saved by _show_and_save is written to a file with the extension .pdf, the given name or the title.", "quantifier": "all file names and titles", "why_tests_cant": "needs all names; tests pass None or a fixed name", "anchors": ["mlmc/plot/plots.py:60-71"]}
{"id": "C193", "title": "Covariance matrices of correlated fields are covariances", "statement": "For every exponent the constructor of a correlated field accepts, the matrix cov_matrix computes for any points is a covariance matrix: it has a real factor F with C = F F^T, no negative value of its quadratic form, and ones on the diagonal.", "quantifier": "all exponents, dimensions, correlation lengths, positive semidefinite tensors, numbers of points and positions", "why_tests_cant": "Tests draw a few fields; exponents above two fail only for points close to each other, and positivity for all points needs Schoenberg's theorem, not samples.", "anchors": ["mlmc/random/correlated_field.py:270-315", "mlmc/random/correlated_field.py:390-412"]}
{"id": "C194", "title": "Correlation length and tensor of a correlated field", "statement": "Without a tensor the covariance of two points at distance r is exp(-(r/L)^2) for 'gauss', exp(-r/L) for 'exp', exp(-(r/L)^a) for a number a; it is 1 at r=0, 1/e at r=L and strictly decreasing in r. A tensor A^T A gives the covariance of the points moved by A with correlation length 1.", "quantifier": "all points, dimensions, correlation lengths above machine epsilon, positive exponents, matrices A", "why_tests_cant": "A test compares sample correlations within statistical error at a few distances; a wrong power or length is visible only in the exact function.", "anchors": ["mlmc/random/correlated_field.py:270-315", "mlmc/random/correlated_field.py:405-411"]}
{"id": "C195", "title": "Fourier field for given frequencies", "statement": "For given frequencies and uncorrelated amplitudes of mean 0 and variance 1, the Fourier field has mean 0 and variance 1 in every point, and the covariance of two points x, y is the mean over the modes of cos(2 pi k.(x-y)).", "quantifier": "all numbers of modes, frequencies, points, dimensions 1 and 2, distributions of the amplitudes with these moments", "why_tests_cant": "A test sees one realisation; mean and covariance are statements about all amplitudes, and a wrong normalisation or phase shows only statistically.", "anchors": ["mlmc/random/correlated_field.py:571-581", "mlmc/random/correlated_field.py:676-745"]}
{"id": "C196", "title": "The Gaussian Fourier field in the plane has the prescribed covariance", "statement": "In dimension 2 with corr_exp 'gauss' and no tensor, the covariance of the Fourier field averaged over its random frequencies equals the entry exp(-(r/L)^2) of the covariance matrix that SpatialCorrelatedField computes for the same parameters.", "quantifier": "all correlation lengths above machine epsilon, points, numbers of modes", "why_tests_cant": "The mean over the frequencies is an improper integral over two uniform numbers; sampling sees it with noise and cannot tell a slightly wrong scale from chance.", "anchors": ["mlmc/random/correlated_field.py:561-630", "mlmc/random/correlated_field.py:676-745", "mlmc/random/correlated_field.py:390-412"]}
{"id": "C197", "title": "Fourier fields have the covariance of their parameters", "statement": "For every exponent, dimension 1 or 2, correlation length and tensor, the covariance of a Fourier field averaged over its frequencies equals the entry of the covariance matrix of the same parameters.", "quantifier": "all exponents, correlation lengths, tensors, points", "why_tests_cant": "The deviation is a wrong correlation length or shape of the covariance, invisible in single samples; the code runs without error.", "anchors": ["mlmc/random/correlated_field.py:561-653", "mlmc/random/correlated_field.py:696-699"]}
{"id": "C198", "title": "Fourier fields can be sampled", "statement": "A Fourier field of a dimension from 1 to 3 that was constructed and got its points can be sampled.", "quantifier": "all exponents, dimensions 1 to 3, parameters, random numbers", "why_tests_cant": "Tests cover the two combinations that work; the failing ones raise only when a sample is drawn.", "anchors": ["mlmc/random/correlated_field.py:609-653", "mlmc/random/correlated_field.py:676-745"]}
{"id": "C199", "title": "Average composition of a subsample", "statement": "q.subsample(vec) on a level with n collected samples read in any chunks: for every number g of a sample, n times the expected sum of g over the samples drawn is vec[l] times the sum of g over the collected samples. So every collected sample is drawn vec[l]/n times on average and the expected number of samples is vec[l]; no reading fails and only collected samples come.", "quantifier": "All k <= n, all chunks of at most n samples, all functions g.", "why_tests_cant": "The draws are random and the sizes are hypergeometric per chunk; tests compare a few frequencies.", "anchors": ["mlmc/quantity/quantity.py:307-364"]}
{"id": "C200", "title": "pick_samples in turn gives exactly k samples", "statement": "pick_samples applied to the chunks of a level one after another with one object of parameters (k, n), n the number of all samples: whatever is drawn, exactly k samples come, all of them collected samples, and every collected sample comes k/n times on average.", "quantifier": "All k <= n, all lists of chunks with n samples in total.", "why_tests_cant": "The number in each chunk is random; the claim is about every outcome of positive probability.", "anchors": ["mlmc/quantity/quantity.py:307-323"]}
{"id": "C201", "title": "Estimates from subsamples are unbiased", "statement": "For levels read in one chunk, the estimate of the mean from a random subsample of vec[l] samples per level has as expected value the estimate from all collected samples, and its variance is the sum over levels of the population variance of the level differences divided by vec[l].", "quantifier": "All levels, samples of finite numbers, 1 <= vec[l] <= number collected, every component, any storage chunks of the full data.", "why_tests_cant": "An expected value over all subsamples is not observable in a test.", "anchors": ["mlmc/quantity/quantity.py:307-364", "mlmc/quantity/quantity_estimate.py:22-80"]}
{"id": "C202", "title": "A subsample holds no sample more often than collected", "statement": "The samples drawn by q.subsample(vec) on a level are, with multiplicities, part of the collected samples (drawing without repetition, as in the method S cited by pick_samples).", "quantifier": "All k <= n, all chunks.", "why_tests_cant": "Repetitions occur at random.", "anchors": ["mlmc/quantity/quantity.py:307-323"]}
{"id": "C203", "title": "Results of every shape come back from the storages", "statement": "For a simulation whose result is an array of any shape, sample_pairs_level of either storage gives an array with the axes component, sample, fine/coarse, whose entry (m, i, k) is component m of the fine or coarse result of the i-th sample of the slice.", "quantifier": "all shapes, numbers of samples, slices, levels and values", "why_tests_cant": "Simulations in the tests return flat vectors; with one axis the division in the reshape is never evaluated, and numbers as results are never written to a file.", "anchors": ["mlmc/sample_storage.py:261-285", "mlmc/sample_storage_hdf.py:169-184", "mlmc/tool/hdf5.py:365-376"]}
{"id": "C204", "title": "Chunks of sub-quantities are brought to three axes without moving a value", "statement": "keep_dims keeps the values in order, takes the last two axes as sample and fine/coarse and joins all axes before them into one, and refuses arrays with fewer than two axes.", "quantifier": "all arrays", "why_tests_cant": "Tests select a few sub-quantities; the number of leading axes is unbounded.", "anchors": ["mlmc/quantity/quantity_types.py:34-49"]}
{"id": "C205", "title": "The exponential Fourier field in the plane has the prescribed covariance", "statement": "In dimension 2 with corr_exp 'exp' and no tensor, the covariance of the Fourier field averaged over its random frequencies equals the entry exp(-r/L) of the covariance matrix that SpatialCorrelatedField computes for the same parameters.", "quantifier": "all correlation lengths above machine epsilon, points, numbers of modes", "why_tests_cant": "The mean over the frequencies is an improper integral of a heavy-tailed radius; sampling converges slowly and cannot tell a slightly wrong spectrum from chance.", "anchors": ["mlmc/random/correlated_field.py:632-653", "mlmc/random/correlated_field.py:676-745", "mlmc/random/correlated_field.py:390-412"]}
{"id": "C206", "title": "Synthetic simulation: expected value, bias and variance of the multilevel estimate", "statement": "For the synthetic simulation without artificial failures, with positive steps, the multilevel estimate of a component has the expected value E x + h_L * E noise where x is the drawn number, noise = sqrt(1e-4+|x|) and h_L is the finest step; so it lies between E x and E x + h_L * sqrt(1e-4 + E|x|). Its variance is Var(x + h_0 noise)/N_0 + sum over the other levels of (h_l - h_(l-1))^2 Var(noise)/N_l, where Var(noise) <= 1e-4 + E|x|.", "quantifier": "for all drawn values, distributions of the seeds, formats with equal quantities, steps, numbers of samples, numbers of levels, components and layouts of the stored data", "why_tests_cant": "Tests look at one campaign with random values and compare with a tolerance; the exact formulas for all distributions and numbers of levels need a proof.", "anchors": ["mlmc/sim/synth_simulation.py:75-131", "mlmc/quantity/quantity_estimate.py:22-80"]}
{"id": "C207", "title": "Synthetic simulation: the multilevel estimate has the mean of the finest results", "statement": "For the synthetic simulation the expected value of the multilevel estimate is the expected value of the fine result on the finest level.", "quantifier": "for all drawn values, distributions of the seeds, formats with equal quantities, steps, numbers of samples, numbers of levels and components", "why_tests_cant": "Tests of the project use location 0 or do not compare with the finest level; that the telescoping sum loses exactly the number of the location shows up only when all components and levels are considered.", "anchors": ["mlmc/sim/synth_simulation.py:116-131", "mlmc/quantity/quantity_estimate.py:22-80"]}
{"id": "C208", "title": "Sizes and tolerances of the continuation in the density fit", "statement": "Distribution.estimate_density_minimize fits with numbers of moments that grow strictly from 3 (or uses all moments at once if there are at most five) to the number of given moments, each at most 1.2 times the previous one plus 2.2; the loop that makes them ends; the tolerances do not grow, start at the larger of tol and a tenth of the first error and end at tol.", "quantifier": "for all numbers of moments, positive tolerances and first errors (also NaN)", "why_tests_cant": "The loop divides by 1.2 and rounds to odd numbers; that it always ends at 3, repeats no size and that no size exceeds the number of moments concerns all numbers of moments.", "anchors": ["mlmc/tool/distribution.py:95-126"]}
{"id": "C209", "title": "Only odd numbers of moments are used in the continuation", "statement": "All sizes used by Distribution.estimate_density_minimize are odd ('Using just odd numbers').", "quantifier": "for all numbers of moments greater than five", "why_tests_cant": "Tests use few numbers of moments and do not look at the sizes.", "anchors": ["mlmc/tool/distribution.py:95-110"]}
{"id": "C210", "title": "Every fit of the continuation starts from the density of the fit before", "statement": "For a domain, at least two moments with positive errors and a minimiser that keeps the number of multipliers, estimate_density_minimize gets through all its calls of the minimiser without an error; the first call starts from the uniform density on the domain, each other one from exactly the density the previous one ended with (extended by zero multipliers, so that the stabilisation term is zero), with more moments and a tolerance that is not larger; the last call has all moments and the tolerance tol, and its result is kept.", "quantifier": "for all minimisers, domains, errors, numbers of moments, tolerances, moment functions with first moment one and points", "why_tests_cant": "The property is about all intermediate states for any behaviour of the minimiser; tests see the final density of a few distributions.", "anchors": ["mlmc/tool/distribution.py:111-146", "mlmc/tool/distribution.py:216-249"]}
{"id": "C211", "title": "Both density fits start with finite values", "statement": "estimate_density_minimize evaluates a finite functional at its first multipliers, and estimate_density reaches the solver.", "quantifier": "for all domains, positive errors of moments, tolerances, quadratures, moments and means", "why_tests_cant": "The value is NaN only for domains of length exactly one, where the first multipliers vanish; tests of the project do not use such domains and do not call estimate_density.", "anchors": ["mlmc/tool/distribution.py:159-181", "mlmc/tool/distribution.py:216-237", "mlmc/tool/distribution.py:340-360"]}
{"id": "C212", "title": "chi2_test and anova fail with the given probability", "statement": "chi2_test passes exactly if the value of the distribution function at the sum of squared deviations over var_0 lies strictly between p/2 and 1 - p/2; it does not depend on shift and scale of the samples (with var_0 scaled); when this value is uniform on [0,1] it fails with probability max_p_val. anova rejects with probability 0.05 when its p-value is uniform.", "quantifier": "for all samples, variances, levels of significance in [0,1] and distribution functions", "why_tests_cant": "A failure probability is not visible in single runs; it is an integral over all values of the statistic.", "anchors": ["mlmc/tool/stats_tests.py:20-54"]}
{"id": "C213", "title": "t_test fails with the given probability", "statement": "t_test has false failures with probability max_p_val (docstring): when the value of the distribution function is uniform on [0,1] the assertion fails with probability max_p_val.", "quantifier": "for all samples, means and levels of significance in [0,1]", "why_tests_cant": "The reversed comparison lets samples with the right mean fail; a test suite that does not call the function with correct samples does not see it.", "anchors": ["mlmc/tool/stats_tests.py:5-17"]}
{"id": "C214", "title": "The simulation with a workspace gives the results of the synthetic simulation", "statement": "Calls of SynthSimulationWorkspace.calculate in one process, with a configuration file that says 'norm' and a fraction of failures, return exactly the results (including artificial failures) of SynthSimulation.calculate with the distribution norm(1,2) and this fraction, whatever fraction was given to the constructor; without the file nothing changes; with another distribution every call fails but is counted.", "quantifier": "for all sequences of calls, seeds, steps, formats and fractions", "why_tests_cant": "The two classes have separate copies of the code and of the counters; equality must hold after every history of calls.", "anchors": ["mlmc/sim/synth_simulation.py:147-296", "mlmc/sim/synth_simulation.py:75-131"]}
{"id": "C215", "title": "The task size grows with finer steps", "statement": "For both synthetic simulations the task size handed to LevelSimulation is positive and grows strictly when the step decreases.", "quantifier": "for all positive steps and positive complexities", "why_tests_cant": "Monotonicity over all steps and complexities, through the change of the logarithm at step 1/2.", "anchors": ["mlmc/sim/synth_simulation.py:58-73", "mlmc/sim/synth_simulation.py:133-134", "mlmc/sim/synth_simulation.py:196-216"]}
{"id": "C216", "title": "Region numbers of the fractured box", "statement": "make_regions gives regions whose id is their position, with unique names: 0 unused, 1 the box with mesh_step, 2 inflow and 3 outflow on the boundary, 4+i fracture i with frac_step. The region ids written by fill_lg are: points 0; a polygon 1 exactly when it is inside the box; a segment 3 on the outflow side, 2 on the inflow side, otherwise 4+i for the last fracture i through it, otherwise 0; no exception is raised.", "quantifier": "for every number of fractures, every common decomposition and every maps of intersect_decompositions with one map per fracture and one for the box", "why_tests_cant": "The decomposition library is outside the repository and the only test is commented out; the order of the writes shows only for overlapping lines.", "anchors": ["mlmc/random/frac_geom.py:33-46", "mlmc/random/frac_geom.py:68-93", "mlmc/random/frac_geom.py:96-118"]}
{"id": "C217", "title": "Every fracture keeps its own region", "statement": "In the generated mesh every segment of fracture i carries the region of fracture i, with number 1000+i as documented.", "quantifier": "for every set of fractures", "why_tests_cant": "Needs fractures which overlap or lie on the boundary of the box; the test of the module is commented out.", "anchors": ["mlmc/random/frac_geom.py:18-30", "mlmc/random/frac_geom.py:77-90"]}
{"id": "C218", "title": "Violin plot of neighbouring levels", "statement": "fine_coarse_violinplot draws, for each pair of neighbouring levels, the fine samples of level l and the coarse samples of level l+1 under one label.", "quantifier": "for every number of levels and all collected samples", "why_tests_cant": "The only caller is a script outside the tests; the method needs seaborn and collected samples.", "anchors": ["mlmc/estimator.py:249-273", "mlmc/quantity/quantity.py:127-135"]}
{"id": "C219", "title": "L2_distance is a metric", "statement": "L2_distance is non-negative, its square is the integral of the squared difference, it is symmetric, zero exactly for functions equal on the interval, satisfies the triangle inequality, and scaling both functions by k scales it by |k|.", "quantifier": "for all functions continuous on [a, b], a < b, with an exact quadrature", "why_tests_cant": "The distance is an integral; tests can evaluate a few pairs of densities only.", "anchors": ["mlmc/tool/simple_distribution.py:462-464", "mlmc/tool/distribution.py:453-455"]}
{"id": "C220", "title": "KL_divergence returns the divergence", "statement": "KL_divergence(P, Q, a, b) is the integral of P log(P/Q): non-negative for normalized densities, zero exactly for equal ones, and both implementations agree.", "quantifier": "for all continuous positive densities on [a, b], with an exact quadrature", "why_tests_cant": "The value is an integral of arbitrary densities.", "anchors": ["mlmc/tool/simple_distribution.py:443-459", "mlmc/tool/distribution.py:441-450"]}
{"id": "C221", "title": "Environment of a working directory", "statement": "set_environment_variables terminates for every working directory and chooses the cluster settings exactly for directories under /storage.", "quantifier": "for every absolute working directory", "why_tests_cant": "Depends on the path of the working directory; no test calls it.", "anchors": ["mlmc/tool/process_base.py:105-138"]}
{"id": "C222", "title": "Commands of a process", "statement": "Only the command run schedules new samples; collect and process work with what is stored; the option clean has an effect with run only; every command ends with the collection of samples.", "quantifier": "for every command, option and overriding class", "why_tests_cant": "The class is used by scripts outside the tests.", "anchors": ["mlmc/tool/process_base.py:12-27", "mlmc/tool/process_base.py:53-66", "mlmc/tool/process_base.py:177-189"]}
{"id": "C223", "title": "Bins of the histogram of raw samples", "statement": "add_raw_samples draws a histogram whose edges increase from the lower to the upper bound of the common domain and cover all samples, with int(sqrt(N)/2) edges, on the linear and the logarithmic axis.", "quantifier": "for all samples (positive on the logarithmic axis) and every previous domain", "why_tests_cant": "A plot; tests do not look at the bins.", "anchors": ["mlmc/plot/plots.py:158-168", "mlmc/plot/plots.py:278-289"]}
{"id": "C224", "title": "Error plots of the bootstrap", "statement": "plot_bs_var_error_contributions, plot_bs_level_variances_error and plot_bs_var_log_var draw the contributions V_l/n_l^2, the errors relative to 2 V_l^2/(n_l-1) and the scaled square roots of the stored bootstrap estimates, and leave the stored data unchanged.", "quantifier": "for all stored data, numbers of samples and orders of the calls", "why_tests_cant": "The methods need a figure; the data they leave behind are not checked.", "anchors": ["mlmc/plot/plots.py:557-563", "mlmc/plot/plots.py:681-727"]}
{"id": "C225", "title": "Positions and labels of the plotted variances", "statement": "plot_bs_variances puts the value of every moment above the zeroth and of every row at its own place next to the tick of the row, inside the limits of the axis, and the ticks carry the labels of the rows.", "quantifier": "for all tables of variances and numbers of moments and levels", "why_tests_cant": "Only a figure is produced.", "anchors": ["mlmc/plot/plots.py:593-618", "mlmc/plot/plots.py:651-679", "mlmc/estimator.py:230-246"]}
{"id": "C226", "title": "Regression curves run through the positions of their points", "statement": "plot_var_regression draws for every selected moment the points of the reference and of the estimate, the regression curve and its relative error, with the curve at the same horizontal positions as the points of its moment.", "quantifier": "for all selections of moments, numbers of levels and variances", "why_tests_cant": "Only a figure is produced.", "anchors": ["mlmc/plot/plots.py:593-618", "mlmc/plot/plots.py:764-806"]}
{"id": "C227", "title": "The regression plot can be drawn from an estimator", "statement": "plot_var_regression obtains estimated and regressed variances from the estimator and draws them.", "quantifier": "for all numbers of levels, moments and variances", "why_tests_cant": "No test calls the plot; with two levels it works.", "anchors": ["mlmc/plot/plots.py:780-784", "mlmc/estimator.py:56-93", "mlmc/estimator.py:136-169"]}

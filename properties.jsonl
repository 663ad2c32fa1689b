{"id": "C01", "title": "exp_sequence produces exactly the log-linear grid, in strictly increasing order", "statement": "For num_linear >= 1, initial_step_size >= 1 and base >= 2, the values produced by exp_sequence(start, num_linear, initial_step_size, base) are strictly increasing, the first is start, and the set of values ever produced is exactly {start + i*initial_step_size*base^k : k >= 0, 0 <= i <= num_linear}.", "quantifier": "all integers start, all num_linear >= 1, initial_step_size >= 1, base >= 2, every position of the infinite output", "why_tests_cant": "The claim ranges over unboundedly many parameter values and arbitrarily long outputs; a test enumerates a few. The generator is infinite.", "anchors": ["src/sdanalysis/StepSize.py:exp_sequence"]}
{"id": "C02", "title": "generate_steps is the grid below total_steps followed by total_steps", "statement": "For num_linear >= 1 generate_steps(total, n, start) terminates; its output is strictly increasing, ends with total_steps, contains before the end exactly the values of exp_sequence(start, n, 1, 10) smaller than total_steps, and is [total_steps] when start >= total_steps.", "quantifier": "all integers total_steps and start, all num_linear >= 1", "why_tests_cant": "The claim ranges over unboundedly many parameter values and arbitrarily long outputs; a test enumerates a few.", "anchors": ["src/sdanalysis/StepSize.py:generate_steps"]}
{"id": "C03", "title": "generate_steps terminates for every accepted num_linear (refuted for num_linear <= 0)", "statement": "Every call of generate_steps that is accepted produces total_steps after finitely many operations. (The code violates this: for num_linear <= 0 and start < total_steps it yields start and then loops for ever without yielding.)", "quantifier": "all integers total_steps, num_linear, start", "why_tests_cant": "Non-termination cannot be observed by a finite test run.", "anchors": ["src/sdanalysis/StepSize.py:generate_steps", "src/sdanalysis/StepSize.py:exp_sequence", "src/sdanalysis/main.py:--linear-steps"]}
{"id": "C04", "title": "generate_steps only shifts with start", "statement": "generate_steps(total+c, n, start+c) is generate_steps(total, n, start) with c added to every element: the differences between points do not depend on the start value.", "quantifier": "all integers total_steps, start, c, all num_linear >= 1", "why_tests_cant": "The claim ranges over unboundedly many parameter values and arbitrarily long outputs; a test enumerates a few.", "anchors": ["src/sdanalysis/StepSize.py:generate_steps"]}
{"id": "C05", "title": "Step gaps stay proportional to elapsed time", "statement": "For consecutive outputs s < s' of generate_steps(total, n, start), either s' - s = 1 or (s' - s) * n <= 10 * (s - start): the relative resolution on a log scale never degrades.", "quantifier": "all total_steps, start, n >= 1, every pair of consecutive outputs", "why_tests_cant": "The claim ranges over unboundedly many parameter values and arbitrarily long outputs; a test enumerates a few.", "anchors": ["src/sdanalysis/StepSize.py:generate_steps", "src/sdanalysis/StepSize.py:exp_sequence"]}
{"id": "C06", "title": "The first num_linear+1 outputs are consecutive integers", "statement": "If start + num_linear < total_steps, the first num_linear + 1 values of generate_steps(total_steps, num_linear, start) are start, start+1, ..., start+num_linear.", "quantifier": "all start, total_steps, num_linear >= 1", "why_tests_cant": "The claim ranges over unboundedly many parameter values and arbitrarily long outputs; a test enumerates a few.", "anchors": ["src/sdanalysis/StepSize.py:generate_steps"]}
{"id": "C07", "title": "GenerateStepSeries iterates in strictly increasing order from 0 to total_steps and stops", "statement": "For total_steps >= 0, num_linear >= 1 and gen_steps != 0, iterating a GenerateStepSeries raises no error, yields a finite strictly increasing sequence (so no duplicates) whose first element is 0 and last element is total_steps, and thereafter every further next() raises StopIteration.", "quantifier": "all total_steps >= 0, num_linear >= 1, gen_steps != 0, max_gen", "why_tests_cant": "The state (queue, dictionary, live generators) grows without bound; only an invariant over every reachable state covers all interleavings of generators.", "anchors": ["src/sdanalysis/StepSize.py:GenerateStepSeries"]}
{"id": "C08", "title": "get_index reports exactly the key-frame sequences that contain the current step", "statement": "After a next() that returned s, get_index() lists without repetition exactly those generator indexes m such that s is an element of generate_steps(total_steps, num_linear, start_m), where start_m is the step at which generator m was added; in particular it is never empty. Conversely every element of every such sequence is returned by some next().", "quantifier": "all parameters as in C07, every step of the iteration, every generator index", "why_tests_cant": "Needs every reachable state of the merged iteration.", "anchors": ["src/sdanalysis/StepSize.py:GenerateStepSeries.get_index", "src/sdanalysis/StepSize.py:GenerateStepSeries.__next__"]}
{"id": "C09", "title": "When and how many key frames are added", "statement": "Generator 0 starts at 0; the other generators are numbered in order and start exactly at the first (max_gen - 1) yielded steps s > 0 that are multiples of gen_steps. There are never more than max(1, max_gen) generators.", "quantifier": "all parameters as in C07, every reachable state", "why_tests_cant": "Depends on the entire history of the iteration.", "anchors": ["src/sdanalysis/StepSize.py:GenerateStepSeries._add_generator", "src/sdanalysis/StepSize.py:GenerateStepSeries.__next__"]}
{"id": "C10", "title": "Key frames are evenly spaced when gen_steps is on the grid", "statement": "If gen_steps > 0 is itself an element of the exp_sequence grid from 0 (as for the default 200000 / 20000 / 1000000 with num_linear = 100), generator m starts at m*gen_steps for every m < max_gen with m*gen_steps <= total_steps, and no other generator exists. (Without that hypothesis key frames can be skipped.)", "quantifier": "all total_steps >= 0, num_linear >= 1, max_gen >= 1, every gen_steps on the grid", "why_tests_cant": "An inductive chain: generator m is what makes key frame m+1 reachable.", "anchors": ["src/sdanalysis/StepSize.py:GenerateStepSeries", "src/sdanalysis/params.py:SimulationParams.gen_steps"]}
{"id": "C11", "title": "With a single generator the series equals generate_steps", "statement": "If max_gen <= 1, list(GenerateStepSeries(total, n, g, max_gen)) == list(generate_steps(total, n, 0)) and get_index() is always [0].", "quantifier": "all total_steps >= 0, num_linear >= 1, gen_steps != 0, max_gen <= 1", "why_tests_cant": "The claim ranges over unboundedly many parameter values and arbitrarily long outputs; a test enumerates a few.", "anchors": ["src/sdanalysis/StepSize.py:GenerateStepSeries", "src/sdanalysis/StepSize.py:generate_steps"]}
{"id": "C12", "title": "The step series holds no stale state", "statement": "After every next(), the step table holds exactly the current step and the pending steps, the pending steps are all larger than the current one, pairwise distinct, and never more numerous than the generators: memory does not grow with the length of the iteration.", "quantifier": "every reachable state", "why_tests_cant": "An invariant over all reachable states.", "anchors": ["src/sdanalysis/StepSize.py:GenerateStepSeries"]}
{"id": "C13", "title": "GenerateStepSeries accepts every integer configuration (refuted)", "statement": "next() on a freshly built series either returns a step or raises StopIteration. (The code violates this: gen_steps = 0 raises ZeroDivisionError and total_steps < 0 raises KeyError on the first next().)", "quantifier": "all integer total_steps, num_linear >= 1, gen_steps, max_gen", "why_tests_cant": "The failing region is infinite and not covered by the project's tests.", "anchors": ["src/sdanalysis/StepSize.py:GenerateStepSeries.__next__"]}
{"id": "C14", "title": "iter_trajectory skips exactly the corrupt frames", "statement": "iter_trajectory yields, in file order, a frame for every index whose read succeeds and nothing for indexes whose read raises RuntimeError; any other exception ends the iteration at that index.", "quantifier": "all trajectories, all patterns of corrupt frames", "why_tests_cant": "All subsets of corrupt positions.", "anchors": ["src/sdanalysis/read/_gsd.py:iter_trajectory"]}
{"id": "C15", "title": "The step count comes from the last readable frame among the final ten", "statement": "_get_num_steps returns the timestep of the last readable frame if one of the final ten frames is readable; it raises IndexError if the file has fewer than ten frames all unreadable, and RuntimeError if the final ten are all unreadable.", "quantifier": "all trajectories and corruption patterns", "why_tests_cant": "All corruption patterns.", "anchors": ["src/sdanalysis/read/_gsd.py:_get_num_steps"]}
{"id": "C16", "title": "The linear reader numbers key frames consecutively and stops at steps_max", "statement": "read_gsd_trajectory(linear_steps=None) yields the longest prefix of the readable frames with timestep <= steps_max, each with the index list [0..c-1], where c is the number of frames so far whose timestep is a multiple of keyframe_interval, capped.", "quantifier": "all trajectories, steps_max, keyframe_interval != 0, keyframe_max", "why_tests_cant": "The claim ranges over unboundedly many parameter values and arbitrarily long outputs; a test enumerates a few.", "anchors": ["src/sdanalysis/read/_gsd.py:_gsd_linear_trajectory", "src/sdanalysis/read/_gsd.py:read_gsd_trajectory"]}
{"id": "C17", "title": "The linear reader creates at most keyframe_max key frames (refuted)", "statement": "No frame is yielded with more than keyframe_max indexes. (The code violates this by one: the cap reached is keyframe_max + 1; that bound is proved tight.)", "quantifier": "all trajectories and keyframe_max >= 0", "why_tests_cant": "Needs the cap to be reached for arbitrary keyframe_max.", "anchors": ["src/sdanalysis/read/_gsd.py:_gsd_linear_trajectory"]}
{"id": "C18", "title": "The exponential reader only yields correctly labelled frames", "statement": "Every frame yielded by read_gsd_trajectory with linear_steps given is a readable frame of the file, frames appear in file order without repetition, and the accompanying index list is exactly the list of key-frame sequences containing that frame's timestep.", "quantifier": "all trajectories (with any missing, extra or corrupt frames), all step parameters", "why_tests_cant": "All alignments of two sequences.", "anchors": ["src/sdanalysis/read/_gsd.py:_gsd_exponential_trajectory"]}
{"id": "C19", "title": "The exponential reader loses nothing when file and step sequence agree", "statement": "If the readable frames have strictly increasing timesteps and either every step of the sequence up to the last timestep of the file is present in the file, or every frame of the file is on the step sequence, then every frame whose timestep is a step of the sequence is yielded.", "quantifier": "all trajectories and step parameters meeting the hypothesis", "why_tests_cant": "All alignments of two sequences.", "anchors": ["src/sdanalysis/read/_gsd.py:_gsd_exponential_trajectory"]}
{"id": "C20", "title": "The exponential reader yields every frame that is on the step sequence (refuted)", "statement": "Every readable frame whose timestep is on the step sequence is yielded. (The code violates this: after catching up it can overshoot, and a matching later frame is dropped.)", "quantifier": "all trajectories with strictly increasing timesteps", "why_tests_cant": "Only particular interleavings of missing steps expose it.", "anchors": ["src/sdanalysis/read/_gsd.py:_gsd_exponential_trajectory"]}
{"id": "C21", "title": "open_trajectory visits every frame_interval-th frame", "statement": "open_trajectory(gsd file, frame_interval=k), k >= 1, yields the readable frames among file indexes 0, k, 2k, ... in order, and none else; an unknown progressbar value raises ValueError before any frame.", "quantifier": "all trajectories, corruption patterns, k >= 1", "why_tests_cant": "The claim ranges over unboundedly many parameter values and arbitrarily long outputs; a test enumerates a few.", "anchors": ["src/sdanalysis/read/_read.py:open_trajectory"]}
{"id": "C22", "title": "WriteCache never loses, duplicates or reorders rows", "statement": "With a file name, after any sequence of append and flush operations the rows in the file's table followed by the rows in the cache are exactly the rows appended, in order (a table of the same name that existed before is replaced at the first write if the first operation is an append); after flush the cache is empty.", "quantifier": "all operation sequences, all cache multipliers >= 0", "why_tests_cant": "Histories are unbounded; the boundary is at multiples of 8192.", "anchors": ["src/sdanalysis/read/_read.py:WriteCache"]}
{"id": "C23", "title": "WriteCache bounds memory and what a crash can lose", "statement": "With cache_multiplier >= 1, after any sequence of appends at most cache_multiplier*8192 rows are unwritten, and the file then holds a prefix of the appended rows whose length is a multiple of that size.", "quantifier": "all append counts, all crash points between operations", "why_tests_cant": "Every crash point.", "anchors": ["src/sdanalysis/read/_read.py:WriteCache.append"]}
{"id": "C24", "title": "len(WriteCache) counts the rows appended (only if flush is never called directly)", "statement": "len(cache) equals the number of rows appended so far. (Holds for append-only histories; the code violates it after an explicit flush, where the flushed rows are forgotten.)", "quantifier": "all operation sequences", "why_tests_cant": "Histories are unbounded.", "anchors": ["src/sdanalysis/read/_read.py:WriteCache.__len__"]}
{"id": "C25", "title": "WriteCache without a file acts as a list (refuted)", "statement": "Without a file name append never fails. (The code violates this: the append after a full cache - row 8193 for the default - raises AssertionError, which is how process_file without outfile fails on long trajectories.)", "quantifier": "all append counts", "why_tests_cant": "Needs more than 8192 rows.", "anchors": ["src/sdanalysis/read/_read.py:WriteCache.append", "src/sdanalysis/read/_read.py:process_file"]}
{"id": "C26", "title": "Key frames do not influence each other", "statement": "The rows process_file produces for key frame k, and its molecular relaxations, are those obtained by processing only the frames whose index list contains k.", "quantifier": "all sequences of (indexes, frame), all key frames, any per-frame computation", "why_tests_cant": "All interleavings of key frames.", "anchors": ["src/sdanalysis/read/_read.py:process_file"]}
{"id": "C27", "title": "The time column counts from the key frame's first frame", "statement": "Every row process_file produces for key frame k has time = timestep of the frame - timestep of the first accepted frame whose index list contains k; a row for that first frame has time 0.", "quantifier": "all frame sequences and key frames", "why_tests_cant": "All interleavings.", "anchors": ["src/sdanalysis/read/_read.py:process_file", "src/sdanalysis/dynamics/dynamics.py:Dynamics.compute_time_delta"]}
{"id": "C28", "title": "Bad frames are skipped without disturbing the rest", "statement": "Frames without particles produce no rows and change no state; a frame for which the computation raises ValueError or RuntimeError produces no row for that key frame and the rows of the other key frames are unchanged; any other exception aborts.", "quantifier": "all frame sequences and all patterns of failing frames", "why_tests_cant": "All patterns of failures.", "anchors": ["src/sdanalysis/read/_read.py:process_file"]}
{"id": "C29", "title": "Custom molecular relaxations accumulate over the trajectory (refuted)", "statement": "When mol_relaxations is passed, the summary of a key frame reflects every frame of that key frame. (The code violates this: the definitions are reset on every frame, so the summary reflects the last accepted frame only.)", "quantifier": "all frame sequences", "why_tests_cant": "Needs a multi-frame history and a molecule that relaxed earlier.", "anchors": ["src/sdanalysis/read/_read.py:process_file", "src/sdanalysis/dynamics/relaxations.py:Relaxations.set_mol_relax"]}
{"id": "C30", "title": "process_file writes to the file what it would return in memory", "statement": "Up to 8192 rows (beyond which the in-memory mode fails), the rows of table 'dynamics' written with outfile are exactly the rows, in order, returned without outfile; and with outfile all rows are written whatever their number.", "quantifier": "all frame sequences", "why_tests_cant": "The claim ranges over unboundedly many parameter values and arbitrarily long outputs; a test enumerates a few.", "anchors": ["src/sdanalysis/read/_read.py:process_file", "src/sdanalysis/read/_read.py:WriteCache"]}
{"id": "C31", "title": "First passage: the status is the earliest time the threshold was exceeded", "statement": "After any sequence of add(timediff, distance), get_status()[i] is the minimum of 2^32-1 and all timediff values for which distance[i] > threshold; with increasing times that is the first passage time. NaN distances never count.", "quantifier": "all histories of add calls, all molecules", "why_tests_cant": "All histories.", "anchors": ["src/sdanalysis/dynamics/relaxations.py:MolecularRelaxation.add"]}
{"id": "C32", "title": "A recorded first-passage time never increases, and the order of frames is irrelevant", "statement": "Each add leaves every status unchanged or lowers it; adding the same frames in any order gives the same statuses.", "quantifier": "all histories and permutations of them", "why_tests_cant": "All permutations.", "anchors": ["src/sdanalysis/dynamics/relaxations.py:MolecularRelaxation.add"]}
{"id": "C33", "title": "Relaxation later than 2^32-2 steps is recorded (refuted)", "statement": "A molecule which first exceeds the threshold at time t is reported with status t. (The code violates this for t >= 2^32-1: the sentinel 2^32-1 is reported, i.e. 'never relaxed'.)", "quantifier": "all times t", "why_tests_cant": "Needs simulations of more than four thousand million steps.", "anchors": ["src/sdanalysis/dynamics/relaxations.py:MolecularRelaxation"]}
{"id": "C34", "title": "Last passage: the status is the last exit before irreversibility", "statement": "For cutoff >= threshold, get_status()[i] of a LastMolecularRelaxation is 2^32-1 if distance[i] never exceeded the cutoff; otherwise, with k the first call with distance[i] > cutoff, it is the time of the first call j <= k with distance[i] > threshold after the last call before k with distance[i] < threshold.", "quantifier": "all histories of add calls, all molecules, all thresholds <= cutoff", "why_tests_cant": "All histories of a three-state machine.", "anchors": ["src/sdanalysis/dynamics/relaxations.py:LastMolecularRelaxation"]}
{"id": "C35", "title": "The vectorised last-passage update implements the documented per-molecule algorithm", "statement": "The three array updates of LastMolecularRelaxation.add act on each molecule independently, as the documented sequential algorithm with the one documented difference that a molecule may go from state 0 to state 2 in one call; the state is always 0, 1 or 2.", "quantifier": "all states and inputs", "why_tests_cant": "All states and distances incl. ties and NaN.", "anchors": ["src/sdanalysis/dynamics/relaxations.py:LastMolecularRelaxation.add"]}
{"id": "C36", "title": "A completed last passage is final", "statement": "Once get_status()[i] of a LastMolecularRelaxation is a time, no later call changes it.", "quantifier": "all histories", "why_tests_cant": "All histories.", "anchors": ["src/sdanalysis/dynamics/relaxations.py:LastMolecularRelaxation"]}
{"id": "C37", "title": "Last passage is never earlier than first passage", "statement": "For the same threshold, non-decreasing times and cutoff >= threshold, the last-passage status of a molecule is at least its first-passage status.", "quantifier": "all histories with non-decreasing times", "why_tests_cant": "All histories.", "anchors": ["src/sdanalysis/dynamics/relaxations.py:MolecularRelaxation", "src/sdanalysis/dynamics/relaxations.py:LastMolecularRelaxation"]}
{"id": "C38", "title": "Size mismatches are rejected without a trace", "statement": "add with an array of another length raises RuntimeError and changes no status and no state; otherwise it raises nothing and keeps the number of molecules.", "quantifier": "all states and inputs", "why_tests_cant": "The claim ranges over unboundedly many parameter values and arbitrarily long outputs; a test enumerates a few.", "anchors": ["src/sdanalysis/dynamics/relaxations.py:MolecularRelaxation.add", "src/sdanalysis/dynamics/relaxations.py:LastMolecularRelaxation.add"]}
{"id": "C39", "title": "set_mol_relax accepts exactly the well-formed definitions", "statement": "set_mol_relax succeeds iff every definition has a name, a threshold >= 0 (or NaN), for last_passage a cutoff that is not negative, and a type that is 'rotation' or 'translation'; then there is exactly one fresh relaxation per distinct name, configured by the last definition of that name (cutoff default 3*threshold).", "quantifier": "all lists of definitions", "why_tests_cant": "The claim ranges over unboundedly many parameter values and arbitrarily long outputs; a test enumerates a few.", "anchors": ["src/sdanalysis/dynamics/relaxations.py:Relaxations.set_mol_relax", "src/sdanalysis/dynamics/relaxations.py:create_mol_relaxations"]}
{"id": "C40", "title": "Translational and rotational relaxations see the right motion", "statement": "Relaxations.add feeds every relaxation of type rotation the rotation magnitudes and every relaxation of type translation the displacement magnitudes, with time = timestep - initial timestep, exactly once each.", "quantifier": "all sets of definitions, all frames", "why_tests_cant": "The claim ranges over unboundedly many parameter values and arbitrarily long outputs; a test enumerates a few.", "anchors": ["src/sdanalysis/dynamics/relaxations.py:Relaxations.add"]}
{"id": "C41", "title": "threshold_relaxation returns the first crossing", "statement": "If some value is below (decay) / above (growth) the threshold and none is NaN, threshold_relaxation returns the time of the first such value and, if that is not the first sample, the error is the gap to the preceding sample.", "quantifier": "all arrays of equal length, all thresholds", "why_tests_cant": "The claim ranges over unboundedly many parameter values and arbitrarily long outputs; a test enumerates a few.", "anchors": ["src/sdanalysis/relaxation.py:threshold_relaxation"]}
{"id": "C42", "title": "threshold_relaxation signals a curve that never relaxes (refuted)", "statement": "If no value crosses the threshold the result is not a valid time. (The code violates this: it returns the first time, with error time[0]-time[-1] <= 0 for increasing times.)", "quantifier": "all arrays without a crossing", "why_tests_cant": "Negative case over all arrays.", "anchors": ["src/sdanalysis/relaxation.py:threshold_relaxation"]}
{"id": "C43", "title": "max_time_relaxation / max_value_relaxation locate the first maximum ignoring NaN", "statement": "If some value is not NaN and no value is -inf, max_time_relaxation returns the time, and (for finite values) max_value_relaxation the value, at the first index holding the largest non-NaN value; NaN if all values are NaN or the array is empty; RuntimeError if lengths differ.", "quantifier": "all arrays", "why_tests_cant": "The claim ranges over unboundedly many parameter values and arbitrarily long outputs; a test enumerates a few.", "anchors": ["src/sdanalysis/relaxation.py:max_time_relaxation", "src/sdanalysis/relaxation.py:max_value_relaxation"]}
{"id": "C44", "title": "The error of a maximum is a non-negative neighbour gap", "statement": "For strictly increasing times and at least two samples the error of max_time_relaxation is positive and equals the one-sided gap at the ends and half the two-sided gap inside; for finite values the error of max_value_relaxation is >= 0.", "quantifier": "all arrays", "why_tests_cant": "The claim ranges over unboundedly many parameter values and arbitrarily long outputs; a test enumerates a few.", "anchors": ["src/sdanalysis/relaxation.py:max_time_relaxation", "src/sdanalysis/relaxation.py:max_value_relaxation"]}
{"id": "C45", "title": "diffusion_constant recovers the slope", "statement": "If the samples with 2 < msd < 50 number at least three, have two distinct times, and lie on a line msd = 2*dimensions*D*t + b, the diffusion constant is D; with at most two such samples the result is NaN, whatever the other samples.", "quantifier": "all data sets, all D, b, dimensions >= 1", "why_tests_cant": "The claim ranges over unboundedly many parameter values and arbitrarily long outputs; a test enumerates a few.", "anchors": ["src/sdanalysis/relaxation.py:diffusion_constant"]}
{"id": "C46", "title": "The supplied derivatives are the derivatives", "statement": "_ddx_exponential_decay and _d2dx2_exponential_decay are the first and second derivatives in x of _exponential_decay for all parameters, and for a > 0, b != 0 the equation _exponential_decay(x,a,b,-1/e) = 0 has exactly one solution, x = (1 + ln a)/b.", "quantifier": "all reals x, a, b, c", "why_tests_cant": "A statement about all reals.", "anchors": ["src/sdanalysis/relaxation.py:_exponential_decay", "src/sdanalysis/relaxation.py:_ddx_exponential_decay", "src/sdanalysis/relaxation.py:_d2dx2_exponential_decay"]}
{"id": "C47", "title": "Each quantity is summarised by its documented method", "statement": "compute_relaxation_value raises RuntimeError iff lengths differ, and otherwise uses diffusion_constant with dimension 2 for 'msd' and 1 for 'msr', growth threshold 0.16 for 'struct_msd', time of maximum for 'alpha' and 'gamma', decay threshold 1/e for every other name.", "quantifier": "all names and arrays", "why_tests_cant": "All strings.", "anchors": ["src/sdanalysis/relaxation.py:compute_relaxation_value"]}
{"id": "C48", "title": "Relaxation times written by comp-relaxations are simulation times (refuted)", "statement": "The value stored for a relaxation in table 'relaxations' is an element of the time column of its key frame. (The code violates this: the table's row labels are used as the time axis.)", "quantifier": "all dynamics tables", "why_tests_cant": "Tests only check that columns exist.", "anchors": ["src/sdanalysis/relaxation.py:compute_relaxations", "src/sdanalysis/relaxation.py:series_relaxation_value"]}
{"id": "C49", "title": "Only fully relaxed key frames are averaged", "statement": "compute_molecular_relaxations raises ValueError iff one of the columns temperature, pressure, keyframe is missing; otherwise its rows are exactly the (keyframe, temperature, pressure) groups (with no NaN key) in which no entry is NaN or 2^32-1, each with the mean and the harmonic mean of the group's values.", "quantifier": "all tables", "why_tests_cant": "The claim ranges over unboundedly many parameter values and arbitrarily long outputs; a test enumerates a few.", "anchors": ["src/sdanalysis/relaxation.py:compute_molecular_relaxations"]}
{"id": "C50", "title": "The harmonic mean never exceeds the mean", "statement": "For positive relaxation times the reported harmonic mean is at most the reported mean, with equality iff all are equal, and both lie between the smallest and the largest value.", "quantifier": "all non-empty lists of positive numbers", "why_tests_cant": "All lists of reals.", "anchors": ["src/sdanalysis/relaxation.py:compute_molecular_relaxations"]}
{"id": "C51", "title": "A HoomdFrame has a sensible number of molecules", "statement": "If all body ids are >= -1 or bodies are absent, HoomdFrame raises ValueError iff there are fewer positions than molecules; otherwise the number of molecules is between 1 and N (for N >= 1), equals max(body)+1 when that is in 1..N, and N otherwise.", "quantifier": "all snapshots", "why_tests_cant": "The claim ranges over unboundedly many parameter values and arbitrarily long outputs; a test enumerates a few.", "anchors": ["src/sdanalysis/frame.py:HoomdFrame._get_num_bodies"]}
{"id": "C52", "title": "All per-molecule arrays of a frame agree in length", "statement": "position, x/y/z_position and orientation all have length len(frame), and x/y/z_position are the columns of position. (The code violates the same claim for image, which is not cut to the molecules.)", "quantifier": "all snapshots with at least N positions and orientations", "why_tests_cant": "The claim ranges over unboundedly many parameter values and arbitrarily long outputs; a test enumerates a few.", "anchors": ["src/sdanalysis/frame.py:HoomdFrame", "src/sdanalysis/frame.py:LammpsFrame"]}
{"id": "C53", "title": "LammpsFrame boxes always have six entries", "statement": "LammpsFrame.box has length 6: the first min(6, len) entries are those given and the rest are 0; orientation is the identity quaternion for every particle; dimensions is 2.", "quantifier": "all frames", "why_tests_cant": "The claim ranges over unboundedly many parameter values and arbitrarily long outputs; a test enumerates a few.", "anchors": ["src/sdanalysis/frame.py:LammpsFrame"]}
{"id": "C54", "title": "Simulation file names round-trip", "statement": "For non-negative pressure and temperature, a Trimer, an optional standard prefix (dump, trajectory, thermo) and either a space group that contains no '-' or '/', is non-empty and does not start with P, T or ID, or no space group, moment of inertia and harmonic force, get_filename_vars(sim_params.filename(prefix)) returns the temperature and pressure with two decimals, correctly rounded, and the space group.", "quantifier": "all pressures, temperatures, inertia/force values, space groups and prefixes as stated", "why_tests_cant": "All parameter values.", "anchors": ["src/sdanalysis/params.py:SimulationParams.filename", "src/sdanalysis/util.py:Variables.from_filename"]}
{"id": "C55", "title": "File names of every simulation round-trip (refuted)", "statement": "get_filename_vars(sim_params.filename()) gives back pressure, temperature and space group for all parameters. (The code violates this: negative pressure gives an empty pressure; Disc, Sphere, Dimer or a moment of inertia / harmonic force without space group gives a wrong crystal.)", "quantifier": "all simulation parameters", "why_tests_cant": "Only unusual parameters expose it.", "anchors": ["src/sdanalysis/params.py:SimulationParams.filename", "src/sdanalysis/util.py:Variables.from_filename"]}
{"id": "C56", "title": "get_filename_vars field rules", "statement": "For a file name whose dash-separated stem (after removing a standard prefix) has fewer than three fields all variables are None; otherwise, unless a field is empty (IndexError), pressure is the rest of the last field starting with P, temperature of the last starting with T, iteration id of the last starting with ID, crystal the last field of another kind; fields are independent of the directory and the extension.", "quantifier": "all paths", "why_tests_cant": "All strings.", "anchors": ["src/sdanalysis/util.py:Variables.from_filename", "src/sdanalysis/util.py:get_filename_vars"]}
{"id": "C57", "title": "A file name without T/P marks can be analysed (refuted)", "statement": "process_file accepts every readable trajectory file name of at least three fields, e.g. the README's trajectory-Trimer-13.50-1.20.gsd. (The code violates this: the field 'Trimer' is taken as temperature 'rimer' and float() raises ValueError.)", "quantifier": "all file names", "why_tests_cant": "The documented example itself.", "anchors": ["src/sdanalysis/util.py:Variables.from_filename", "src/sdanalysis/read/_read.py:process_file", "README.md"]}
{"id": "C58", "title": "set_filename_vars changes only temperature, pressure and space group", "statement": "set_filename_vars sets temperature and pressure to the numbers in the file name if present, the space group if a crystal is present, and nothing else; if a number does not parse it raises ValueError, having changed at most the temperature.", "quantifier": "all file names and parameter records", "why_tests_cant": "The claim ranges over unboundedly many parameter values and arbitrarily long outputs; a test enumerates a few.", "anchors": ["src/sdanalysis/util.py:set_filename_vars"]}
{"id": "C59", "title": "temp_context restores every attribute on normal exit", "statement": "After leaving temp_context(**changes) normally, every attribute that existed on entry has its value from entry, whatever was set in the body, also for arbitrarily nested contexts.", "quantifier": "all parameter records, changes, bodies, nestings", "why_tests_cant": "All nestings and bodies.", "anchors": ["src/sdanalysis/params.py:SimulationParams.temp_context"]}
{"id": "C60", "title": "temp_context restores on exceptions and removes new attributes (refuted)", "statement": "After leaving temp_context in any way the attributes are exactly those on entry. (The code violates this when the body raises, and for attributes that did not exist on entry.)", "quantifier": "all bodies", "why_tests_cant": "Exceptional exits are not tested.", "anchors": ["src/sdanalysis/params.py:SimulationParams.temp_context"]}
{"id": "C61", "title": "Path attributes are always paths", "statement": "infile, outfile and output are a Path or None / the working directory, after any sequence of assignments; assigning None to outfile or output keeps the old value.", "quantifier": "all sequences of assignments", "why_tests_cant": "The claim ranges over unboundedly many parameter values and arbitrarily long outputs; a test enumerates a few.", "anchors": ["src/sdanalysis/params.py:SimulationParams"]}
{"id": "C62", "title": "parse_directory indexes every file", "statement": "If every matching file name has a non-empty temperature and pressure, parse_directory returns a table in which every leaf is one of the files with those variables, every file's variables lead to a leaf, and the last file wins among equals; otherwise the first unusable file makes it raise AssertionError (IndexError for an empty field).", "quantifier": "all lists of files", "why_tests_cant": "The claim ranges over unboundedly many parameter values and arbitrarily long outputs; a test enumerates a few.", "anchors": ["src/sdanalysis/util.py:parse_directory"]}
{"id": "C63", "title": "create_freud_box keeps lengths and tilts", "statement": "For boxes of 3 or 6 numbers create_freud_box uses the three lengths and, for 6, the tilts (2D boxes use Lx, Ly, xy only); fewer than three numbers raise ValueError.", "quantifier": "all boxes", "why_tests_cant": "The claim ranges over unboundedly many parameter values and arbitrarily long outputs; a test enumerates a few.", "anchors": ["src/sdanalysis/util.py:create_freud_box"]}
{"id": "C64", "title": "LAMMPS trajectories parse back", "statement": "Parsing the text of a lammpstrj file with any number of well-formed frames yields exactly those frames: timestep, box lengths and, for every column, the array whose entry id-1 is the value on the line of atom id, whatever the order of the atom lines.", "quantifier": "all lists of frames, all atom orders, all columns including id", "why_tests_cant": "All files.", "anchors": ["src/sdanalysis/read/_lammps.py:parse_lammpstrj"]}
{"id": "C65", "title": "Malformed LAMMPS headers are reported", "statement": "If a section header is not the expected one parse_lammpstrj raises RuntimeError after yielding the frames before it; it yields no partial frame.", "quantifier": "all files", "why_tests_cant": "All files.", "anchors": ["src/sdanalysis/read/_lammps.py:parse_lammpstrj"]}
{"id": "C66", "title": "LAMMPS reading stops at steps_max", "statement": "read_lammps_trajectory yields the longest prefix of frames with timestep <= steps_max, each labelled with key frame 0.", "quantifier": "all files", "why_tests_cant": "The claim ranges over unboundedly many parameter values and arbitrarily long outputs; a test enumerates a few.", "anchors": ["src/sdanalysis/read/_lammps.py:read_lammps_trajectory"]}
{"id": "C67", "title": "Tracked translation equals the true displacement for small steps", "statement": "If between consecutive frames no coordinate moves by half a box length or more, delta_translation equals final minus initial unwrapped position, whatever periodic images the stored positions are in and however many periods are crossed.", "quantifier": "all boxes (orthogonal and tilted), all trajectories of any length, all choices of images", "why_tests_cant": "All trajectories.", "anchors": ["src/sdanalysis/dynamics/_util.py:TrackedMotion.add"]}
{"id": "C68", "title": "Tracked translation is always right modulo the box", "statement": "After any frames, delta_translation differs from last minus first position by a lattice vector, and every single update is at most half a box length per lattice direction.", "quantifier": "all boxes and trajectories", "why_tests_cant": "All trajectories.", "anchors": ["src/sdanalysis/dynamics/_util.py:TrackedMotion.add"]}
{"id": "C69", "title": "Tracked rotation accumulates turns in 2D", "statement": "For molecules rotating about z by less than pi between frames, delta_rotation's first component is the total angle turned and the others are 0, beyond 2 pi and for either sign of each quaternion.", "quantifier": "all sequences of angles", "why_tests_cant": "All sequences.", "anchors": ["src/sdanalysis/dynamics/_util.py:TrackedMotion.add", "src/sdanalysis/util.py:z2quaternion"]}
{"id": "C70", "title": "Frames without orientation interrupt rotation only", "statement": "A frame without orientation adds no rotation and the next one does not either; translation is tracked as if orientation were present.", "quantifier": "all sequences of frames", "why_tests_cant": "All patterns.", "anchors": ["src/sdanalysis/dynamics/_util.py:TrackedMotion.add"]}
{"id": "C71", "title": "The reference frame has no motion", "statement": "compute_all on the frame the Dynamics was created from gives time 0, displacement, msd, mfd, mean_rotation and msr 0, scattering function, rot1, rot2 and com_struct 1, and NaN for alpha, alpha_rot and gamma.", "quantifier": "all frames with at least ten particles and wave number > 0", "why_tests_cant": "The claim ranges over unboundedly many parameter values and arbitrarily long outputs; a test enumerates a few.", "anchors": ["src/sdanalysis/dynamics/dynamics.py:Dynamics.compute_all"]}
{"id": "C72", "title": "Correlation functions are bounded", "statement": "scattering function, rot1 and rot2 lie in [-1,1], com_struct, struct and overlap in [0,1].", "quantifier": "all states", "why_tests_cant": "All reals.", "anchors": ["src/sdanalysis/dynamics/dynamics.py:Dynamics"]}
{"id": "C73", "title": "Moments obey their inequalities", "statement": "msd, mfd, msr >= 0, mfd >= msd^2, mean_displacement^2 <= msd, and where defined alpha >= -1/2, alpha_rot >= -2/3, gamma >= -1.", "quantifier": "all states", "why_tests_cant": "All reals.", "anchors": ["src/sdanalysis/dynamics/dynamics.py:Dynamics"]}
{"id": "C74", "title": "Ensemble quantities do not depend on particle numbering", "statement": "Permuting the particles consistently in all frames leaves every ensemble quantity of compute_all other than overlap unchanged (struct: see C78).", "quantifier": "all states and permutations", "why_tests_cant": "All permutations.", "anchors": ["src/sdanalysis/dynamics/dynamics.py:Dynamics"]}
{"id": "C75", "title": "compute_all always reports all quantities", "statement": "compute_all returns every documented quantity, with NaN for the scattering function unless requested with a wave number, com_struct without wave number, and struct without wave number, molecule or orientation.", "quantifier": "all configurations", "why_tests_cant": "The claim ranges over unboundedly many parameter values and arbitrarily long outputs; a test enumerates a few.", "anchors": ["src/sdanalysis/dynamics/dynamics.py:Dynamics.compute_all"]}
{"id": "C76", "title": "structural_relax is the fraction that moved further than dist (refuted)", "statement": "structural_relax returns the proportion of particles which have moved further than dist, as documented. (The code returns the proportion that moved less than dist; that is proved.)", "quantifier": "all arrays", "why_tests_cant": "The claim ranges over unboundedly many parameter values and arbitrarily long outputs; a test enumerates a few.", "anchors": ["src/sdanalysis/dynamics/dynamics.py:structural_relax"]}
{"id": "C77", "title": "mobile_overlap is defined for every system (refuted below ten particles)", "statement": "mobile_overlap returns a fraction in [0,1] that is 1 when both arguments are equal and non-negative. (Holds for ten or more particles; the code raises ZeroDivisionError for fewer.)", "quantifier": "all arrays, any tie-breaking of the sort", "why_tests_cant": "All arrays and sort orders.", "anchors": ["src/sdanalysis/dynamics/dynamics.py:mobile_overlap"]}
{"id": "C78", "title": "struct uses each molecule's own motion (refuted for more than one molecule)", "statement": "The positions compute_struct_relax compares are those of the molecule's particles after its own rotation and translation. (The code pairs rotations and translations of different molecules as soon as there are two; for one molecule the pairing is right.)", "quantifier": "all numbers of molecules and motions", "why_tests_cant": "Needs different motions of different molecules.", "anchors": ["src/sdanalysis/dynamics/_util.py:molecule2particles", "src/sdanalysis/dynamics/dynamics.py:Dynamics.compute_struct_relax"]}
{"id": "C79", "title": "struct rotates about the axis the molecule rotated about (refuted)", "statement": "A molecule rotated in the plane by theta is rotated by theta about z in compute_struct_relax. (The code passes the angles in reverse order, rotating about x.)", "quantifier": "all angles", "why_tests_cant": "Tests use no rotation.", "anchors": ["src/sdanalysis/dynamics/dynamics.py:Dynamics.compute_struct_relax"]}
{"id": "C80", "title": "Orientational order is a number in [0,1]", "statement": "orientational_order of every molecule is in [0,1]; it is 1 iff every neighbour present is aligned with it: rotated against it by nothing or by a half turn.", "quantifier": "all neighbour lists, all unit quaternions", "why_tests_cant": "All reals.", "anchors": ["src/sdanalysis/order.py:orientational_order"]}
{"id": "C81", "title": "Orientational order does not depend on the frame of reference or quaternion sign", "statement": "Rotating all molecules by the same rotation, or replacing any quaternion by its negative, leaves orientational_order unchanged.", "quantifier": "all configurations", "why_tests_cant": "All reals.", "anchors": ["src/sdanalysis/order.py:_orientational_order"]}
{"id": "C82", "title": "In two dimensions the order is the mean squared cosine", "statement": "For orientations theta_i about z the order of molecule i is the mean of cos^2(theta_j - theta_i) over its neighbour slots, a missing slot counting 1.", "quantifier": "all angles and neighbour lists", "why_tests_cant": "All reals.", "anchors": ["src/sdanalysis/order.py:_orientational_order", "src/sdanalysis/order.py:_neighbour_relative_angle"]}
{"id": "C83", "title": "relative_distances marks missing neighbours by -1 (refuted)", "statement": "Missing neighbours have distance -1, as documented. (The code returns 0; all entries are >= 0 and entries of present neighbours are their distances.)", "quantifier": "all neighbour lists", "why_tests_cant": "The claim ranges over unboundedly many parameter values and arbitrarily long outputs; a test enumerates a few.", "anchors": ["src/sdanalysis/order.py:relative_distances"]}
{"id": "C84", "title": "Molecules are centred and keep their shape", "statement": "After construction the mean of a molecule's positions is 0 and all differences between positions are those given.", "quantifier": "all non-empty arrays of floats", "why_tests_cant": "All reals.", "anchors": ["src/sdanalysis/molecules.py:Molecule"]}
{"id": "C85", "title": "Trimer geometry", "statement": "In a Trimer(radius, distance, angle) the outer particles are at the given distance from the central one and enclose the given angle; all z coordinates are 0.", "quantifier": "all distances >= 0, all angles in [0, 360]", "why_tests_cant": "All reals.", "anchors": ["src/sdanalysis/molecules.py:Trimer"]}
{"id": "C86", "title": "Molecule equality is an equivalence (refuted)", "statement": "== on molecules is total and an equivalence relation. (The code violates this: Disc() and Sphere() both equal Molecule() but not each other, and comparing a Trimer or Dimer with a plain Molecule raises AttributeError; on molecules of the same concrete class it is an equivalence.)", "quantifier": "all pairs and triples of molecules", "why_tests_cant": "All triples.", "anchors": ["src/sdanalysis/molecules.py:Molecule.__eq__", "src/sdanalysis/molecules.py:Trimer.__eq__", "src/sdanalysis/molecules.py:Dimer.__eq__"]}
{"id": "C87", "title": "Angle/quaternion round trip", "statement": "quaternion2z(z2quaternion(theta)) = theta for theta in (-pi, pi], z2quaternion always gives unit quaternions, and quaternion2z is in [-pi, pi].", "quantifier": "all reals", "why_tests_cant": "All reals.", "anchors": ["src/sdanalysis/util.py:z2quaternion", "src/sdanalysis/util.py:quaternion2z"]}
{"id": "C88", "title": "orientation2positions puts every particle in its place", "statement": "Entry p*N+m of orientation2positions is the position of molecule m plus particle p's offset rotated by the orientation of molecule m; distances between particles of one molecule are those of the template.", "quantifier": "all molecules, numbers of molecules, orientations", "why_tests_cant": "All sizes and reals.", "anchors": ["src/sdanalysis/util.py:orientation2positions"]}
{"id": "C89", "title": "frame2data columns describe the same particle", "statement": "All columns of frame2data have length num_particles*len(frame) and entry p*N+m of each belongs to particle p of molecule m; giving both order_function and order_list raises ValueError.", "quantifier": "all frames, molecules, orderings", "why_tests_cant": "All sizes.", "anchors": ["src/sdanalysis/figures/configuration.py:frame2data"]}
{"id": "C90", "title": "colour_orientation never indexes outside the palette", "statement": "For every angle in [-pi, pi] the palette index lies in -180..180, and it selects hue (truncated degrees) mod 360.", "quantifier": "all angles in [-pi, pi]", "why_tests_cant": "All reals.", "anchors": ["src/sdanalysis/figures/configuration.py:colour_orientation"]}
{"id": "C91", "title": "The trajectory slider always points at a frame (refuted)", "statement": "After any sequence of next/previous/play/drag/file-change actions the slider index is a valid frame index. (The code violates this: the initial end is one too large and the correction on file change misses value = number of frames; it may be one beyond the last frame and even beyond its own end, never further; once right it stays right until a file with exactly as many frames as the index is selected.)", "quantifier": "all action sequences, trajectory lengths", "why_tests_cant": "All histories of user actions.", "anchors": ["src/sdanalysis/figures/interactive_config.py:TrimerFigure"]}
{"id": "C92", "title": "The selected file always exists", "statement": "After any sequence of pressure/temperature/crystal/iteration selections offered by the interface, get_selected_file() returns a file of the directory.", "quantifier": "all directories, all action sequences", "why_tests_cant": "All histories of user actions.", "anchors": ["src/sdanalysis/figures/interactive_config.py:TrimerFigure"]}
{"id": "C93", "title": "Command line options reach process_file (refuted for --molecule and --output)", "statement": "sdanalysis OPTIONS comp-dynamics calls process_file with the given steps_max, keyframe_interval, linear_steps (None for --linear-dynamics), keyframe_max and wave_number. For an option given several times, under any of its names, the last value counts; for unknown options and values that cannot be converted the usage message is shown. (For these it holds; with --molecule or --output the code raises TypeError, and only then.)", "quantifier": "all option combinations", "why_tests_cant": "All combinations of options.", "anchors": ["src/sdanalysis/main.py:sdanalysis", "src/sdanalysis/main.py:comp_dynamics"]}
{"id": "C94", "title": "Index lists yielded by the linear reader can be kept (refuted)", "statement": "A consumer that stores the pairs yielded by read_gsd_trajectory(linear_steps=None), e.g. list(...), finds beside each frame the index list of that frame. (The code violates this: one list object is yielded every time, so all stored lists show the final content; exact condition for agreement proved.)", "quantifier": "all trajectories and parameters", "why_tests_cant": "Depends on when the consumer looks at the list, for every trajectory.", "anchors": ["src/sdanalysis/read/_gsd.py:_gsd_linear_trajectory"]}
{"id": "C95", "title": "WriteCache replaces an existing table (refuted)", "statement": "With to_append=False the table holds only rows of this cache after the first write. (The code violates this when flush is called before the first append: the empty write only switches to append mode, so later rows are added behind the old table; and when nothing is ever appended the old table stays.)", "quantifier": "all operation sequences and previous tables", "why_tests_cant": "Needs an earlier result file and a flush of an empty cache.", "anchors": ["src/sdanalysis/read/_read.py:WriteCache._flush_file"]}
{"id": "C96", "title": "process_file leaves no stale rows in the output file (refuted)", "statement": "After process_file with outfile returned normally, table 'dynamics' holds the rows of this run only. (The code violates this when every frame failed to analyse: the old table stays beside the new molecular_relaxations; whenever there is at least one row it holds.)", "quantifier": "all frame sequences and previous files", "why_tests_cant": "Needs an earlier result file and a trajectory whose frames all fail.", "anchors": ["src/sdanalysis/read/_read.py:process_file"]}
{"id": "C97", "title": "exponential_relaxation recovers an exact decay", "statement": "If the finite values lie on a*exp(-b*t) with a > 1/e, b > 0, and at least four of them, at two different times, lie within value_width/2 of 1/e, exponential_relaxation returns the time at which the curve equals 1/e, with error 0. It raises RuntimeError if the lengths differ, gives NaN with fewer than four such values, and never a non-positive time.", "quantifier": "all data sets, a, b, widths", "why_tests_cant": "All data sets and all parameters.", "anchors": ["src/sdanalysis/relaxation.py:exponential_relaxation"]}
{"id": "C98", "title": "The error of exponential_relaxation is non-negative (refuted)", "statement": "The error reported beside a relaxation time is >= 0. (The code violates this: the upper end of the interval uses the larger decay rate, so with an uncertainty in the rate alone the error is negative for every fit.)", "quantifier": "all fit results", "why_tests_cant": "Needs the sign for every fit result.", "anchors": ["src/sdanalysis/relaxation.py:exponential_relaxation"]}
{"id": "C99", "title": "exponential_relaxation ignores non-finite values also with uncertainties (refuted)", "statement": "Values that are not finite are left out of the fit, whether or not sigma is given. (The code violates this: value and time are masked but sigma is not, so indexing sigma raises IndexError for every such input with at least four values in the fit region.)", "quantifier": "all data sets with a non-finite value and sigma", "why_tests_cant": "All data sets.", "anchors": ["src/sdanalysis/relaxation.py:exponential_relaxation"]}
{"id": "C100", "title": "Every analysed key frame has a row in table 'relaxations' (refuted)", "statement": "After compute_relaxations every key frame of table 'dynamics' has a row in table 'relaxations'. (The code violates this: the join keeps only key frames in which every molecule relaxed, so the dynamic quantities of the others are lost; the rows that exist are exactly described.)", "quantifier": "all pairs of tables", "why_tests_cant": "All tables.", "anchors": ["src/sdanalysis/relaxation.py:compute_relaxations"]}
{"id": "C101", "title": "Every frame has a length (refuted for body ids below -1)", "statement": "len(frame) is defined for every HoomdFrame that can be created. (The code violates this exactly when there are bodies and all ids are below -1, as hoomd uses for floppy bodies: the number of molecules is then negative, len() raises ValueError and the arrays are cut at the wrong end.)", "quantifier": "all snapshots", "why_tests_cant": "Needs unusual body ids; the claim ranges over all of them.", "anchors": ["src/sdanalysis/frame.py:HoomdFrame._get_num_bodies"]}
{"id": "C102", "title": "A LAMMPS file that is cut off yields only true frames (refuted)", "statement": "If a lammpstrj file is cut off anywhere (still being written) parse_lammpstrj yields only frames that are in the complete file. (The code violates this when the cut is inside the last number of a frame; for cuts at a line end it yields exactly the complete frames and then raises.)", "quantifier": "all files, all places of the cut", "why_tests_cant": "All lengths of all files.", "anchors": ["src/sdanalysis/read/_lammps.py:parse_lammpstrj"]}
{"id": "C103", "title": "Tilted LAMMPS cells are analysed with their tilt (refuted)", "statement": "The freud box of a LammpsFrame has the tilt factors written on the box bound lines. (The code ignores everything after the two bounds; the box is always the rectangle of the bound differences.)", "quantifier": "all frames", "why_tests_cant": "All boxes.", "anchors": ["src/sdanalysis/read/_lammps.py:parse_lammpstrj", "src/sdanalysis/frame.py:LammpsFrame.box"]}
{"id": "C104", "title": "Rows carry the temperature and pressure of the file name", "statement": "Every row that process_file returns or writes has as temperature and pressure the numbers that the input file's name gives, NaN where it gives none; rows already in the output table are the only others.", "quantifier": "all file names, trajectories, float parsers, prior tables", "why_tests_cant": "All inputs and histories.", "anchors": ["src/sdanalysis/read/_read.py:process_file", "src/sdanalysis/util.py:Variables.from_filename"]}
{"id": "C105", "title": "Frames of another size are rejected (refuted for one particle)", "statement": "TrackedMotion.add raises for a frame whose number of particles differs from the previous one, and the tracked motion is unchanged. (The code violates this for a frame of a single particle, and for every frame after it: numpy broadcasts it to all particles.)", "quantifier": "all states and frames", "why_tests_cant": "All sizes and states.", "anchors": ["src/sdanalysis/dynamics/_util.py:TrackedMotion.add"]}
{"id": "C106", "title": "A rejected frame leaves no trace (refuted)", "statement": "If TrackedMotion.add raises, the tracked motion is unchanged, so that process_file can skip the frame. (The code violates this when the orientations are rejected: the translation has already been added and is counted again with the next frame.)", "quantifier": "all states and frames", "why_tests_cant": "Needs an exception half way through an update.", "anchors": ["src/sdanalysis/dynamics/_util.py:TrackedMotion.add"]}
{"id": "C107", "title": "Rotation about any fixed axis is tracked by its angle (refuted)", "statement": "If a molecule turns about one of the coordinate axes by less than pi between frames, delta_rotation holds the total angle in the component of that axis and 0 in the others. (The code violates this for the y axis: a turn by 3pi/4 is tracked as (pi, pi/4, pi). It is proved for z and x below pi and for y below pi/3.)", "quantifier": "all frame sequences", "why_tests_cant": "All angles and sequences.", "anchors": ["src/sdanalysis/dynamics/_util.py:TrackedMotion.add"]}
{"id": "C108", "title": "In the plane rot1 and rot2 are the documented averages", "statement": "For rotations about z, rot1 is the average of e(0).e(t) and rot2 of 2(e(0).e(t))^2 - 1, where e is any unit vector of the plane fixed in the molecule.", "quantifier": "all rotations and vectors", "why_tests_cant": "All angles and vectors.", "anchors": ["src/sdanalysis/dynamics/dynamics.py:Dynamics.compute_rotational_relax1", "src/sdanalysis/dynamics/dynamics.py:Dynamics.compute_rotational_relax2"]}
{"id": "C109", "title": "compute_all reports the averages over the true motion", "statement": "If between frames no molecule moves by half a box or turns (about z) by pi, compute_all returns for every frame of a trajectory of at least ten molecules the documented averages over true displacements and angles since the reference frame (time, mean_displacement, msd, mfd, mean_rotation, msr, rot1, rot2, alpha, alpha_rot, gamma, scattering_function, com_struct), whatever periodic images and quaternion signs the frames use.", "quantifier": "all trajectories", "why_tests_cant": "All trajectories, boxes and representations.", "anchors": ["src/sdanalysis/dynamics/dynamics.py:Dynamics.compute_all", "src/sdanalysis/dynamics/_util.py:TrackedMotion.add"]}
{"id": "C110", "title": "num_neighbours counts the molecules within the radius (refuted)", "statement": "num_neighbours(box, position, max_radius) gives for every molecule the number of other molecules within max_radius, as documented. (The code violates this: it asks freud for at most nine neighbours, so it returns the smaller of nine and the true number.)", "quantifier": "all configurations, sizes and radii", "why_tests_cant": "All sizes; the tests do not have dense configurations.", "anchors": ["src/sdanalysis/order.py:num_neighbours"]}
{"id": "C111", "title": "Making a molecule leaves its arguments alone (refuted)", "statement": "Molecule(positions=p, radii=r) does not change the caller's array p or dictionary r, so that they can be used again. (The code violates this: the array is centred in place and the dictionary gets an entry for 'A'. They are unchanged exactly when the positions are centred already and the dictionary has 'A'; nothing else is changed.)", "quantifier": "all arrays and dictionaries", "why_tests_cant": "Aliasing: the effect is on an object the test does not look at.", "anchors": ["src/sdanalysis/molecules.py:Molecule.__attrs_post_init__"]}
{"id": "C112", "title": "Distances given as integers are accepted (refuted)", "statement": "Dimer(distance=d) and Molecule(positions=p) accept integers as they do floats, and a dimer has its particles the given distance apart on the y axis, centred. (The code violates this: for every integer distance, and every integer array, construction raises TypeError; for floats it holds.)", "quantifier": "all distances and arrays", "why_tests_cant": "All values; the tests use one default.", "anchors": ["src/sdanalysis/molecules.py:Dimer", "src/sdanalysis/molecules.py:Molecule.__attrs_post_init__"]}
{"id": "C113", "title": "Each particle has a position and a radius (refuted)", "statement": "For every molecule num_particles is the number of positions and get_radii gives one radius per particle. (It holds for Disc, Sphere, Trimer and Dimer, with the radii given; for a Molecule made of lists nothing is checked: the numbers may differ and get_radii raises KeyError exactly when a particle has a type without a radius.)", "quantifier": "all molecules", "why_tests_cant": "All parameters, lists and dictionaries.", "anchors": ["src/sdanalysis/molecules.py:Molecule.get_radii", "src/sdanalysis/molecules.py:Molecule.num_particles"]}
{"id": "C114", "title": "get_types lists the types present in a molecule (refuted)", "statement": "get_types() is the sorted list of the particle types present in the molecule, as documented. (The code violates this: 'A' is always listed, and every type given a radius; the list is sorted and contains exactly these.)", "quantifier": "all molecules", "why_tests_cant": "All lists and dictionaries.", "anchors": ["src/sdanalysis/molecules.py:Molecule.get_types"]}
{"id": "C115", "title": "quaternion_rotation gives the angle between two orientations (refuted)", "statement": "quaternion_rotation(initial, final) is the angle of the rotation that leads from one orientation to the other. (The code violates this: it returns half that angle, or pi less half of it if the quaternions have opposite signs; only for equal orientations is it right.)", "quantifier": "all pairs of unit quaternions", "why_tests_cant": "All reals; the tests check a range and zero only.", "anchors": ["src/sdanalysis/util.py:quaternion_rotation"]}
{"id": "C116", "title": "relative_orientations does not depend on the sign of a quaternion (refuted)", "statement": "relative_orientations gives for every neighbour the angle of rotation between the molecules, 0 for a missing one, whichever of its two quaternions describes an orientation. (The code violates this: it is the angle if the dot product of the quaternions is not negative, and a full turn less the angle otherwise.)", "quantifier": "all configurations and neighbour lists", "why_tests_cant": "All reals and signs.", "anchors": ["src/sdanalysis/order.py:relative_orientations", "src/sdanalysis/order.py:_neighbour_relative_angle"]}
{"id": "C117", "title": "The legend shows the colours of the plot (refuted)", "statement": "The colour bar beside the plot assigns to an orientation the colour with which molecules of this orientation are drawn. (The code violates this for every orientation: the palette starts at -pi in the legend and at 0 in the plot, so hues differ by 179 to 181 degrees.)", "quantifier": "all angles", "why_tests_cant": "All reals; nothing compares the two.", "anchors": ["src/sdanalysis/figures/interactive_config.py:TrimerFigure.create_legend", "src/sdanalysis/figures/configuration.py:colour_orientation"]}
{"id": "C118", "title": "order_list is an alternative to order_function (refuted)", "statement": "frame2data(frame, order_list=v) equals frame2data(frame, order_function=lambda _: v), as documented. (The code violates this: text is accepted from a function only, and numbers that are not int64 or float64, such as float32, are drawn as all crystalline when they come from a function; for bool, int64, float64 and for categories it holds.)", "quantifier": "all frames, molecules and classifications", "why_tests_cant": "All types and values of a classification.", "anchors": ["src/sdanalysis/figures/configuration.py:frame2data"]}
{"id": "C119", "title": "The interactive figure shows what is selected", "statement": "After any sequence of offered actions none of which raised, the figure shows the frame at the slider of the selected file, coloured by the chosen classification, with the file's name and the frame's timestep.", "quantifier": "all directories, trajectories, classifications and action sequences (files do not change meanwhile)", "why_tests_cant": "All histories of user actions, with callbacks that trigger each other.", "anchors": ["src/sdanalysis/figures/interactive_config.py:TrimerFigure.update_frame", "src/sdanalysis/figures/interactive_config.py:TrimerFigure.update_current_trajectory"]}
{"id": "C120", "title": "The play button starts and stops one animation", "statement": "After any sequence of offered actions, also ones that raised, exactly one periodic callback is registered if play was pressed an odd number of times and none otherwise, and pressing it never raises.", "quantifier": "all action sequences", "why_tests_cant": "All histories.", "anchors": ["src/sdanalysis/figures/interactive_config.py:TrimerFigure._play_pause_toggle"]}
{"id": "C121", "title": "A figure offers its own models only (refuted)", "statement": "The classifications offered by a figure are the built-in ones and the models it was made with, and do not change. (The code violates this: the dictionary is shared by all figures, so models of earlier figures are offered too, and a model of the same name loaded by a later figure replaces that of an earlier one. A label always stands for the last model loaded under its name.)", "quantifier": "all sequences of figures and models", "why_tests_cant": "Effects of one object on another.", "anchors": ["src/sdanalysis/figures/interactive_config.py:TrimerFigure.__init__", "src/sdanalysis/figures/interactive_config.py:TrimerFigure.get_order_function"]}
{"id": "C122", "title": "Custom molecular relaxations can be given on the command line (refuted)", "statement": "sdanalysis comp-dynamics --mol-relaxations FILE computes the relaxations that are defined in FILE. (The code violates this for every file and every trajectory: yaml.parse is given the path instead of the content and returns events, so the command always raises; no dynamics and no relaxations are written.)", "quantifier": "all files, trajectories, options", "why_tests_cant": "All inputs; no test uses the option.", "anchors": ["src/sdanalysis/main.py:comp_dynamics", "src/sdanalysis/read/_read.py:process_file", "src/sdanalysis/dynamics/relaxations.py:Relaxations.set_mol_relax"]}
{"id": "C123", "title": "Corrupted frames are skipped by run_analysis.order (refuted)", "statement": "order(infile, outfile) writes one row per frame that can be read and skips corrupted frames, as it logs. (The code violates this: iterating over the trajectory already reads the frame outside of the try, so a corrupted frame ends the program; the rows before it are written. If all frames can be read, or fail only the second time, it holds.)", "quantifier": "all trajectories, any number of corrupted frames", "why_tests_cant": "All patterns of corruption.", "anchors": ["src/sdanalysis/run_analysis.py:order"]}
{"id": "C124", "title": "run_analysis.order reports the fraction of ordered molecules (refuted)", "statement": "In each row of order(infile, outfile) the number is the fraction of molecules that create_orient_ordering(0.9) considers ordered in HoomdFrame(snapshot). (The code violates this for molecules of several particles, since it counts all particles and takes them as each other's neighbours; it holds if every particle is a molecule.)", "quantifier": "all snapshots and neighbour lists", "why_tests_cant": "All snapshots.", "anchors": ["src/sdanalysis/run_analysis.py:order", "src/sdanalysis/order.py:create_orient_ordering", "src/sdanalysis/frame.py:HoomdFrame"]}
{"id": "C125", "title": "The orientational order is an average over neighbours (refuted)", "statement": "In the plane orientational_order gives for each molecule the average of cos^2 of the relative angle over its neighbours. (The code violates this: a missing neighbour counts as aligned; with m of k places filled the answer is 1 - m/k (1 - average), and a molecule without neighbours is perfectly ordered.)", "quantifier": "all configurations and neighbour lists", "why_tests_cant": "All reals and lists.", "anchors": ["src/sdanalysis/order.py:orientational_order", "src/sdanalysis/order.py:_neighbour_relative_angle"]}
{"id": "C126", "title": "The output of an analysis describes the true motion", "statement": "process_file(infile, outfile, wave_number=k) writes, for every key frame of a trajectory of at least ten molecules, one row of averages of the true motion per frame, labelled with the key frame and the numbers of the file name, and for each molecule the six relaxation times of its true displacements and angles (exact unless a distance is within rounding of a threshold), provided that between frames nothing moves by half a box or turns by pi.", "quantifier": "all trajectories, any images, quaternion signs, key frames", "why_tests_cant": "Whole-program statement over all trajectories.", "anchors": ["src/sdanalysis/read/_read.py:process_file", "src/sdanalysis/dynamics/relaxations.py:Relaxations.add", "src/sdanalysis/dynamics/dynamics.py:Dynamics.compute_all"]}
{"id": "C127", "title": "Trajectories at constant pressure are analysed in the box of each frame (refuted)", "statement": "The rows and relaxation times of process_file describe the true motion also if the box changes between frames. (The code violates this: the box of the key frame is used for ever, so a molecule that crosses the boundary of a box that has changed gets a wrong displacement. It holds if the stored positions are those in space.)", "quantifier": "all trajectories with changing boxes", "why_tests_cant": "All boxes; the tests have constant boxes.", "anchors": ["src/sdanalysis/dynamics/_util.py:TrackedMotion.add", "src/sdanalysis/read/_read.py:process_file"]}
{"id": "C128", "title": "What the analysis of a gsd file with a number of linear steps writes", "statement": "process_file of a gsd file with linear_steps=n and keyframe_interval=G (a point of the log-linear grid) writes for key frame j exactly the frames of the file at the steps of generate_steps(total, n, j*G), for j < keyframe_max and j*G <= total, measured from the first of them: one row of averages of the true motion per frame and the relaxation times of every molecule, where molecules are the first particles of a snapshot, corrupted frames are skipped, and total is steps_max or the step of the last readable snapshot (among the last ten).", "quantifier": "all files of readable and corrupted snapshots with increasing steps that are all on the sequences, or contain all of them", "why_tests_cant": "Whole-program statement over all files.", "anchors": ["src/sdanalysis/read/_read.py:process_file", "src/sdanalysis/read/_gsd.py:_gsd_exponential_trajectory", "src/sdanalysis/frame.py:HoomdFrame"]}
{"id": "C129", "title": "What the analysis of a gsd file without linear steps writes", "statement": "process_file of a gsd file with linear_steps=None writes for key frame j <= keyframe_max every frame, up to the first one after steps_max, from frame number j of those at a multiple of keyframe_interval on: one row of averages of the true motion per frame and the relaxation times of every molecule, skipping corrupted frames.", "quantifier": "all files of readable and corrupted snapshots", "why_tests_cant": "Whole-program statement over all files.", "anchors": ["src/sdanalysis/read/_read.py:process_file", "src/sdanalysis/read/_gsd.py:_gsd_linear_trajectory", "src/sdanalysis/frame.py:HoomdFrame"]}
{"id": "C130", "title": "What the analysis of a lammpstrj file writes", "statement": "process_file of a lammpstrj file writes one key frame: for every frame in the text up to the first one after steps_max, one row of averages of the true motion of the atoms, identified by their ids whatever the order of the lines, in the rectangle of the box bounds, and the relaxation times of every atom; atoms do not turn. Unix and DOS line ends mean the same.", "quantifier": "all well-formed files with columns id, x, y, z (and others) that show a motion of less than half a box between frames", "why_tests_cant": "Whole-program statement over all files.", "anchors": ["src/sdanalysis/read/_read.py:process_file", "src/sdanalysis/read/_lammps.py:read_lammps_trajectory", "src/sdanalysis/frame.py:LammpsFrame"]}
{"id": "C131", "title": "create_wave_vector returns the wave vectors whatever was called before", "statement": "Each call of create_wave_vector(k, n) with n >= 0 returns the n vectors of length |k| in the directions 2 pi j / n, and raises ValueError for n < 0, after any sequence of earlier calls whose results were only read; at most 128 results are remembered and the arrays handed out keep their contents.", "quantifier": "all sequences of calls, all wave numbers and resolutions", "why_tests_cant": "The cache makes the result depend on an unbounded history.", "anchors": ["src/sdanalysis/dynamics/_util.py:create_wave_vector"]}
{"id": "C132", "title": "An array returned by create_wave_vector belongs to the caller (refuted)", "statement": "A caller may modify the array that it got; other calls still return the wave vectors. (The code violates this: the array is the one in the cache, so a later call with the same arguments returns the modified array. Calls with other arguments are not affected.)", "quantifier": "all sequences of calls and modifications", "why_tests_cant": "Effects of one caller on another.", "anchors": ["src/sdanalysis/dynamics/_util.py:create_wave_vector"]}
{"id": "C133", "title": "create_wave_vector computes its values a single time (refuted)", "statement": "The documentation says the values only need to be computed a single time and are just returned the rest of the time. (The code violates this: after 128 other pairs of arguments they are computed again. With fewer than 128 other pairs in between, the same array is returned.)", "quantifier": "all sequences of calls", "why_tests_cant": "Depends on an unbounded history of calls.", "anchors": ["src/sdanalysis/dynamics/_util.py:create_wave_vector"]}
{"id": "C134", "title": "Wave vectors are radially symmetric", "statement": "The n wave vectors all have the length |k|, a turn by 2 pi / n permutes them, for n >= 2 their sum is zero, for n >= 3 the sum of the squares of their components along a direction is the same for every direction; and the intermediate scattering function does not change if all displacements are turned by a multiple of 2 pi / n.", "quantifier": "all wave numbers, resolutions, displacements", "why_tests_cant": "Identities over all reals and all n.", "anchors": ["src/sdanalysis/dynamics/_util.py:create_wave_vector", "src/sdanalysis/dynamics/dynamics.py:Dynamics.__init__", "src/sdanalysis/dynamics/dynamics.py:Dynamics.compute_isf"]}
{"id": "C135", "title": "calculate_wave_number finds the first maximum of the structure factor", "statement": "calculate_wave_number(box, positions) is the first of the 200 wave numbers from 0.5 to 20 at which the structure factor 1 + 4 pi rho / q sum (g(r) - 1) r sin(q r) dr of the radial distribution function up to the shortest side / 2.2 is largest; density and number of particles do not matter.", "quantifier": "all boxes that freud accepts, all positions and radial distribution functions", "why_tests_cant": "All reals; ties and the edges of the range.", "anchors": ["src/sdanalysis/dynamics/_util.py:calculate_wave_number", "src/sdanalysis/dynamics/_util.py:_static_structure_factor"]}
{"id": "C136", "title": "The calculated wave number does not depend on the unit of length (refuted)", "statement": "Expressing the same configuration in a unit of length that is c times smaller divides the wave number by c. (The code violates this: the answer is always one of 200 values between 0.5 and 20, so for c > 40 it never is.)", "quantifier": "all configurations, radial distribution functions, units", "why_tests_cant": "All configurations.", "anchors": ["src/sdanalysis/dynamics/_util.py:calculate_wave_number"]}
{"id": "C137", "title": "A wave number can be calculated in every box (refuted)", "statement": "calculate_wave_number(box, positions) returns a number for every box with positive sides. (The code violates this: the range is computed from the sides instead of the distances between opposite faces, so freud refuses tilted boxes; in the plane exactly if 1.1 Lx < sqrt(1 + xy^2) min(Lx, Ly). Tilts up to 0.458 are fine.)", "quantifier": "all boxes and positions", "why_tests_cant": "All reals; the tests use rectangular boxes.", "anchors": ["src/sdanalysis/dynamics/_util.py:calculate_wave_number", "src/sdanalysis/dynamics/relaxations.py:Relaxations.__init__"]}
{"id": "C138", "title": "The output of an analysis without a wave number", "statement": "process_file(infile, wave_number=None, outfile=outfile) writes for every key frame one row per frame in which the averages of the true motion are as with a wave number and the scattering function and structural relaxations are NaN, and the relaxation times of the true motion for the distance pi / (2 k), where k, between 0.5 and 20, is the first maximum of the structure factor of the first frame of the key frame.", "quantifier": "all trajectories in boxes tilted little enough for freud", "why_tests_cant": "Whole-program statement over all trajectories.", "anchors": ["src/sdanalysis/read/_read.py:process_file", "src/sdanalysis/dynamics/relaxations.py:Relaxations.__init__", "src/sdanalysis/dynamics/_util.py:calculate_wave_number"]}
{"id": "C139", "title": "A trajectory can be analysed without a wave number if it can be with one (refuted)", "statement": "Whenever process_file with a wave number analyses a trajectory, it also does without one. (The code violates this: a wave number is calculated for every frame, also where it is not used, so a single frame in a tilted box, anywhere in the file, makes process_file raise RuntimeError, and the relaxation times are not written.)", "quantifier": "all trajectories, any frame", "why_tests_cant": "Depends on a frame at any place in a file.", "anchors": ["src/sdanalysis/read/_read.py:process_file", "src/sdanalysis/dynamics/relaxations.py:Relaxations.__init__"]}
{"id": "C140", "title": "What the analysis of a trajectory file without a wave number writes", "statement": "For gsd files with and without linear steps and for lammpstrj files, from the contents of the file: process_file without a wave number uses the same key frames and frames as with one, and writes what C138 says about them.", "quantifier": "all files as in C128, C129 and C130, in boxes tilted little enough for freud", "why_tests_cant": "Whole-program statement over all files.", "anchors": ["src/sdanalysis/read/_read.py:process_file", "src/sdanalysis/read/_gsd.py:read_gsd_trajectory", "src/sdanalysis/read/_lammps.py:read_lammps_trajectory"]}
{"id": "C141", "title": "Thermodynamic quantities are averaged over milliseconds", "statement": "Reading a table of thermodynamic quantities gives, for every column of numbers, in the order of the file, the averages of the values that are not NaN over windows of 200000 steps from the smallest step on, up to the window of the largest step, with NaN for an empty window, where only the last row of each step counts and the rows may be in any order; columns of text and a column called time are left out.", "quantifier": "all tables with integer steps", "why_tests_cant": "All tables, any order, repetitions and gaps.", "anchors": ["src/sdanalysis/figures/thermodynamics.py:read_file"]}
{"id": "C142", "title": "Every row of a table of thermodynamic quantities is shown (refuted)", "statement": "For each step of the file the dashboard has a point with the last values of that step. (The code violates this: rows less than 200000 steps apart are replaced by their mean. It holds if different steps are at least 200000 apart.)", "quantifier": "all tables with integer steps", "why_tests_cant": "All tables.", "anchors": ["src/sdanalysis/figures/thermodynamics.py:read_file"]}
{"id": "C143", "title": "The thermodynamics dashboard shows the selected file (refuted)", "statement": "The plots are those of the selected file in the directory that is entered. (The code violates this: entering a directory that has a file with the same name, or no file, leaves the plots as they are. For all sequences of actions with readable files, the plots are those of the file of that name in the directory that was entered when the name last changed; which is the selected file if no two directories have a file name in common.)", "quantifier": "all directories, files and sequences of actions", "why_tests_cant": "Any number of actions; effects of one callback on another.", "anchors": ["src/sdanalysis/figures/thermodynamics.py:update_file_list", "src/sdanalysis/figures/thermodynamics.py:update_file"]}
{"id": "C144", "title": "The chosen quantity is kept when another file is selected (refuted)", "statement": "The quantity that is chosen in the second tab stays chosen when another file that has it is selected. (The code violates this: it becomes the third column of numbers of the new file. It is kept while the file is.)", "quantifier": "all files, all states", "why_tests_cant": "All states of the dashboard.", "anchors": ["src/sdanalysis/figures/thermodynamics.py:update_factors"]}
{"id": "C145", "title": "The first tab plots four quantities (refuted)", "statement": "Whenever a file is shown, the first tab has plots of temperature, pressure, potential and kinetic energy. (The code violates this: the plots are made when the dashboard starts, and there are none if it starts in a directory without files. It holds if it starts in a directory with readable files.)", "quantifier": "all directories and files", "why_tests_cant": "Depends on the state at the start.", "anchors": ["src/sdanalysis/figures/thermodynamics.py:update_datacolumns", "src/sdanalysis/figures/thermodynamics.py:update_file_list"]}
{"id": "C146", "title": "A file that cannot be shown changes nothing (refuted)", "statement": "If a selected file cannot be read, or lacks one of the quantities, the dashboard stays as it is. (The code violates this: the name of that file is shown as selected, the factors may be those of that file, and the plots are those of the file before; with less than three columns there is not even an error. The plots are never a mixture of two files, and from any state a readable file with another name is shown when it is selected or found.)", "quantifier": "all files, all states and actions", "why_tests_cant": "All states, including those after errors.", "anchors": ["src/sdanalysis/figures/thermodynamics.py:update_file", "src/sdanalysis/figures/thermodynamics.py:update_file_list", "src/sdanalysis/figures/thermodynamics.py:update_datacolumns"]}
{"id": "C147", "title": "What the command writes", "statement": "sdanalysis OPTIONS comp-dynamics INFILE OUTFILE, for every command line that is no misuse, without --molecule, --output and --mol-relaxations and with a positive wave number, writes for a gsd file with a key frame every --keyframe-interval steps and the given (or 100) linear steps, for a gsd file with --linear-dynamics, and for a lammpstrj file, one row of averages of the true motion per frame of each key frame and the true passage times of every molecule, with the last value given for each option under any of its names and the documented defaults.", "quantifier": "all command lines, files and motions", "why_tests_cant": "Command lines, files and trajectories are unbounded; the whole program is composed.", "anchors": ["src/sdanalysis/main.py:111-165", "src/sdanalysis/read/_read.py:process_file"]}
{"id": "C148", "title": "Every wave number that is accepted can be analysed (refuted)", "statement": "If a command line is accepted with one wave number and analyses a file, it does so with every other wave number that the command line accepts. (The code violates this: with zero or a negative number every analysis of every file raises, and nothing is written. With positive ones C147 holds.)", "quantifier": "all command lines, files and wave numbers", "why_tests_cant": "All files and all numbers.", "anchors": ["src/sdanalysis/main.py:98-103", "src/sdanalysis/dynamics/relaxations.py:54-86"]}
{"id": "C149", "title": "Key frames are those of the command line for every format (refuted)", "statement": "--keyframe-interval, --keyframe-max, --linear-steps and --linear-dynamics choose the key frames of the analysis, whatever the format of the file. (The code violates this: for a lammpstrj file two command lines that differ in these options only always write the same, one key frame.)", "quantifier": "all command lines and lammpstrj files", "why_tests_cant": "Equality of the results for all files.", "anchors": ["src/sdanalysis/read/_read.py:118-127", "src/sdanalysis/read/_lammps.py:28-39"]}
{"id": "C150", "title": "A file that is no trajectory is refused with a message (refuted)", "statement": "For an INFILE whose suffix is neither .gsd nor .lammpstrj the program shows a usage message or an error about the file. (The code violates this: it ends with UnboundLocalError, for example for .GSD; at least OUTFILE keeps its tables.)", "quantifier": "all command lines and file names", "why_tests_cant": "All names.", "anchors": ["src/sdanalysis/read/_read.py:118-128"]}
{"id": "C151", "title": "comp-dynamics followed by comp-relaxations", "statement": "After sdanalysis comp-dynamics INFILE OUTFILE has finished for a trajectory whose name has a temperature and a pressure, sdanalysis comp-relaxations OUTFILE does not fail. The table relaxations has exactly one row for each key frame all of whose molecules passed all six thresholds and no other row; the row has the arithmetic and the harmonic mean over the molecules of the passage times tau_D, tau_F, tau_T2, tau_T3 and tau_T4 of the true motion (and of tau_L if no distance is within rounding of a threshold), and values of the dynamic quantities.", "quantifier": "all trajectories, command lines, numbers of key frames and molecules, fitting routines", "why_tests_cant": "The two commands communicate by a file; no test runs both on arbitrary trajectories and compares with the true motion.", "anchors": ["src/sdanalysis/main.py:111-182", "src/sdanalysis/read/_read.py:process_file", "src/sdanalysis/relaxation.py:compute_relaxations"]}
{"id": "C152", "title": "Relaxation times do not depend on the file name (refuted)", "statement": "The relaxation times of a key frame all of whose molecules relaxed are in the table relaxations whatever the name of the trajectory file. (The code violates this: if the name lacks the temperature or the pressure, the column is NaN, groups with NaN are dropped, and the table has no rows at all, for every trajectory; no error is shown.)", "quantifier": "all file names and trajectories", "why_tests_cant": "All trajectories; the loss is silent.", "anchors": ["src/sdanalysis/read/_read.py:159-190", "src/sdanalysis/relaxation.py:502-526"]}
{"id": "C153", "title": "StructRelaxations averages over the particles of a molecule (refuted)", "statement": "After any frames, get_status of StructRelaxations has for every molecule the mean of the first passage times of its own particles, for distances in the order in which the package lists particles (orientation2positions, gsd frames: the first particle of all molecules, then the second). (The code violates this: it takes consecutive entries, so that with this order molecules are mixed; with the particles of one molecule after another it is true.)", "quantifier": "all numbers of molecules and particles, thresholds and sequences of frames", "why_tests_cant": "All histories; the class has no test.", "anchors": ["src/sdanalysis/dynamics/relaxations.py:297-305", "src/sdanalysis/util.py:170-175"]}
{"id": "C154", "title": "A molecule with a particle that has not relaxed is marked (refuted)", "statement": "If a particle of a molecule has not passed the threshold, get_status of StructRelaxations gives the molecule 2^32 - 1, which is what the averages of comp-relaxations leave out. (The code violates this: the mark is averaged with the times of the other particles. A molecule has the mark exactly if none of its particles passed.)", "quantifier": "all histories", "why_tests_cant": "All histories.", "anchors": ["src/sdanalysis/dynamics/relaxations.py:297-305", "src/sdanalysis/relaxation.py:513"]}
{"id": "C155", "title": "A status keeps its values (refuted)", "statement": "An array returned by get_status keeps its values when more frames are added, and writing into it does not change the relaxation. (The code violates this for first passages: the array is the internal one and always shows the present state. It is true for last passages.)", "quantifier": "all sequences of calls", "why_tests_cant": "Aliasing over all sequences of calls.", "anchors": ["src/sdanalysis/dynamics/relaxations.py:220-221", "src/sdanalysis/dynamics/relaxations.py:291-294"]}
{"id": "C156", "title": "frame_interval applies to every kind of trajectory (refuted)", "statement": "open_trajectory(filename, frame_interval=k) yields the frames of the file whose index is a multiple of k, for gsd and lammpstrj files alike. (The code violates this: it holds for gsd files; a lammpstrj file is always read whole.)", "quantifier": "all file names, files, intervals and progress bars", "why_tests_cant": "All files and intervals; the test of frame_interval only looks at the type of each frame.", "anchors": ["src/sdanalysis/read/_read.py:198-241"]}
{"id": "C157", "title": "Wrong arguments of open_trajectory are reported (refuted)", "statement": "open_trajectory with a progressbar other than None, True and 'notebook', or with an interval of 0, raises ValueError when the first frame is asked for, whatever the kind of file. (The code violates this: lammpstrj files ignore both arguments. For gsd files it is true, and a negative interval is an empty trajectory.)", "quantifier": "all files and arguments", "why_tests_cant": "All arguments and file names.", "anchors": ["src/sdanalysis/read/_read.py:221-230", "src/sdanalysis/read/_read.py:238-241"]}
{"id": "C158", "title": "A file name of no known kind is reported (refuted)", "statement": "open_trajectory raises for a file name with neither of the extensions .gsd and .lammpstrj, and for a missing file. (The code violates the first part: every such name, of an existing file or not, is an empty trajectory. The second is true for names of the two kinds.)", "quantifier": "all file names and contents of the disk", "why_tests_cant": "All file names.", "anchors": ["src/sdanalysis/read/_read.py:216-241"]}
{"id": "C159", "title": "The ordering does not depend on origin and periodic images", "statement": "For a planar configuration, choosing another origin and other periodic images of the molecules changes neither relative_orientations nor the classification by create_ml_ordering if no two molecules within the radius are equally far from a third, and does not change orientational_order if it is clear which are the max_neighbours nearest within the radius.", "quantifier": "all boxes (also tilted), positions, orientations, translations, images, machine learning models, radii and numbers of neighbours; freud by its contract", "why_tests_cant": "All configurations and images.", "anchors": ["src/sdanalysis/order.py:89-121", "src/sdanalysis/order.py:174-262"]}
{"id": "C160", "title": "The ordering follows the names of the molecules", "statement": "Listing the molecules of a planar configuration in another order lists the values of relative_orientations, orientational_order and of create_ml_ordering (for models that classify each row by itself) in that order, under the conditions of C159.", "quantifier": "all configurations and permutations", "why_tests_cant": "All permutations.", "anchors": ["src/sdanalysis/order.py:28-65", "src/sdanalysis/order.py:186-262"]}
{"id": "C161", "title": "The ordering is local", "statement": "What relative_orientations and orientational_order say about a molecule depends only on the distances and orientations of the molecules within max_radius of it: it is the same in two configurations of equally many molecules that agree in these, under the conditions of C159 for this molecule.", "quantifier": "all pairs of configurations", "why_tests_cant": "Any number of other molecules may differ.", "anchors": ["src/sdanalysis/order.py:186-262"]}
{"id": "C162", "title": "The machine learning ordering depends on the orientations only (refuted)", "statement": "The classification by create_ml_ordering is the same whichever of the two quaternions of opposite sign describes each orientation. (The code violates this for some models already for two molecules. It is true if in both descriptions the quaternions of molecules within 3.5 of each other have a dot product that is not negative.)", "quantifier": "all configurations, signs and models", "why_tests_cant": "All configurations and signs; hoomd may write either sign.", "anchors": ["src/sdanalysis/order.py:89-121", "src/sdanalysis/order.py:209-231"]}
{"id": "C163", "title": "What create_orient_ordering calls ordered", "statement": "For molecules turned in the plane, create_orient_ordering(t) calls a molecule ordered exactly if the squared cosines of the angles to its (at most 8) nearest neighbours within 3.5, summed and 1 added for each of the 8 that is missing, divided by 8, exceed t. A higher threshold only takes molecules away; from 1 on no molecule is ordered, below 0 every one is.", "quantifier": "all planar boxes, positions, orientations of either sign, thresholds; freud by its contract", "why_tests_cant": "All configurations and thresholds.", "anchors": ["src/sdanalysis/order.py:68-86", "src/sdanalysis/order.py:124-147", "src/sdanalysis/order.py:234-262"]}
{"id": "C164", "title": "The order parameter is the average over the neighbours", "statement": "orientational_order is the average of the squared cosine of the angle over the neighbours that the molecule has.", "quantifier": "all planar configurations, radii and numbers of neighbours", "why_tests_cant": "All configurations.", "anchors": ["src/sdanalysis/order.py:54-65", "src/sdanalysis/order.py:234-262"]}
{"id": "C165", "title": "--log-file writes the log to the file", "statement": "With sdanalysis --log-file F the log messages of the package are written to F.", "quantifier": "all orders and repetitions of the options, all loggers and levels", "why_tests_cant": "All command lines.", "anchors": ["src/sdanalysis/main.py:39-41", "src/sdanalysis/main.py:46-62"]}
{"id": "C166", "title": "-v chooses which messages are logged", "statement": "Without -v the package logs warnings and above, with -v also information, with two or more also debug messages, and nothing else.", "quantifier": "all orders and repetitions of the options, all loggers and levels", "why_tests_cant": "All command lines.", "anchors": ["src/sdanalysis/main.py:32-36", "src/sdanalysis/main.py:46-62"]}
{"id": "C167", "title": "figure -v and the loggers of libraries", "statement": "figure -v makes the debug messages of the interactive configuration appear where the log goes, whatever the options before the command, and changes nothing for other loggers; gsd and freud only log warnings and above whatever the options.", "quantifier": "all command lines, loggers and levels", "why_tests_cant": "All command lines.", "anchors": ["src/sdanalysis/main.py:22-27", "src/sdanalysis/main.py:185-190"]}
{"id": "C168", "title": "Where the exponential fit starts", "statement": "exponential_relaxation depends on its fitting routine and its root finder only through what they answer for the points whose value lies within width/2 of 1/e, the start (1, 1/t) ((1, 0) if t is 0) and the start t, where t is the time of the first finite value closest to 1/e; such a t exists as soon as one value is finite.", "quantifier": "all times, values (NaN and infinities included), uncertainties, widths, fitting routines and root finders", "why_tests_cant": "All series and all external routines.", "anchors": ["src/sdanalysis/relaxation.py:190-220", "src/sdanalysis/relaxation.py:230-238"]}
{"id": "C169", "title": "The relaxation time of an exact decay, with scipy's Newton iteration", "statement": "For values a*exp(-b*t) with a > 1/e that come within width/2 <= 0.15 of 1/e at four points at least, exponential_relaxation with 20 Newton steps and tolerance 1e-4 returns a time at most 1e-4 before the crossing of 1/e and never after it, with error 0 (NaN if that time is not positive). For any fitted a, b > 0 a time that is returned is never after the crossing of the fitted curve.", "quantifier": "all decays, times, widths up to 0.3, both stopping tests of scipy", "why_tests_cant": "All decays, over the reals.", "anchors": ["src/sdanalysis/relaxation.py:158-257"]}
{"id": "C170", "title": "The columns of the table of relaxations", "statement": "For a key frame with dynamics, compute_relaxations writes one relaxation for every column of the table dynamics except keyframe, temperature, pressure, mean_displacement, mean_rotation, mfd and overlap, in their order, each computed from that column in the rows of the key frame only. A missing table or a missing key column of the dynamics is a KeyError.", "quantifier": "all tables, all functions that compute a relaxation", "why_tests_cant": "All tables.", "anchors": ["src/sdanalysis/relaxation.py:428-499"]}
{"id": "C171", "title": "How a wrong definition of a relaxation is rejected", "statement": "set_mol_relax raises if and only if some definition is faulty; the exception is that of the first fault of the first faulty definition: ValueError for a missing name or threshold, a text that is no number or a negative value, TypeError for a value that cannot be a number, KeyError for an unknown type. last_passage is off for None, False, 0 and the empty text.", "quantifier": "all lists of definitions, all YAML values, all ways float reads text", "why_tests_cant": "All lists of definitions.", "anchors": ["src/sdanalysis/dynamics/relaxations.py:109-130", "src/sdanalysis/dynamics/relaxations.py:308-335"]}
{"id": "C172", "title": "A rejected list of definitions leaves the relaxations as they were", "statement": "If set_mol_relax raises the relaxations of the object are those before the call.", "quantifier": "all lists of definitions", "why_tests_cant": "All lists of definitions.", "anchors": ["src/sdanalysis/dynamics/relaxations.py:109-130"]}
{"id": "C173", "title": "Every number of a LAMMPS frame stands in the file", "statement": "Each entry of each column of a frame from parse_lammpstrj is the number on the line of that atom.", "quantifier": "all texts, all contents of fresh memory", "why_tests_cant": "All files.", "anchors": ["src/sdanalysis/read/_lammps.py:79-90"]}
{"id": "C174", "title": "Bad atom lines are reported", "statement": "An atom line with a field that is no number, an id that is no integer, an id that is not in 1..n, or too few fields to have an id, and a heading without id, end parse_lammpstrj with an exception after the frames before; no part of the frame is yielded.", "quantifier": "all files, all places of the line", "why_tests_cant": "All files.", "anchors": ["src/sdanalysis/read/_lammps.py:74-95"]}
{"id": "C175", "title": "Which parameters give a file name", "statement": "SimulationParams.filename() raises if and only if the pressure or temperature, or an inertia scale or force that is not None, is no number; the first of these in the order of the name decides, ValueError for a text and TypeError otherwise. A molecule None is written as None.", "quantifier": "all values of the attributes", "why_tests_cant": "All combinations of values.", "anchors": ["src/sdanalysis/params.py:88-117"]}
{"id": "C176", "title": "An empty quantity has no relaxation", "statement": "For a quantity without values every relaxation is reported as NaN.", "quantifier": "all thresholds and settings, all results of the fits", "why_tests_cant": "All settings.", "anchors": ["src/sdanalysis/relaxation.py:100-306"]}
{"id": "C177", "title": "What a Dynamics object needs", "statement": "Dynamics() succeeds if and only if there are positions and the orientations, if given, are not empty; otherwise RuntimeError. After any frames compute_struct_relax raises if and only if there is no wave number (ValueError), it is 0 (ZeroDivisionError), there is no molecule (AttributeError) or the molecule has no particles (ValueError).", "quantifier": "all positions, orientations, molecules, wave numbers, all sequences of frames", "why_tests_cant": "All sequences of frames, including faulty ones.", "anchors": ["src/sdanalysis/dynamics/dynamics.py:67-112", "src/sdanalysis/dynamics/dynamics.py:305-326"]}
{"id": "C178", "title": "An input that cannot be opened keeps the output of order", "statement": "run_analysis.order on a trajectory that cannot be opened raises and leaves the output file as it was; otherwise the result does not depend on what the file held.", "quantifier": "all trajectories, all earlier contents", "why_tests_cant": "All trajectories.", "anchors": ["src/sdanalysis/run_analysis.py:20-42"]}
{"id": "C179", "title": "Classes are told apart by their colours", "statement": "In a figure of plot_frame with categorical_colour two particles have the same colour if and only if their molecules are of the same class.", "quantifier": "all frames, classes, molecules, colour maps and sources", "why_tests_cant": "All frames and numbers of classes.", "anchors": ["src/sdanalysis/figures/configuration.py:45-83", "src/sdanalysis/figures/configuration.py:162-213"]}
{"id": "C180", "title": "A class has the same colour in every figure", "statement": "A class that occurs in two figures with the same colour map has the same colour in both.", "quantifier": "all pairs of figures, all factors", "why_tests_cant": "All pairs of figures.", "anchors": ["src/sdanalysis/figures/configuration.py:61-67"]}
{"id": "C181", "title": "A figure keeps showing its frame", "statement": "After other figures are made a figure shows the circles and colours it showed before.", "quantifier": "all sequences of two figures, with and without a common source", "why_tests_cant": "All sequences of calls.", "anchors": ["src/sdanalysis/figures/configuration.py:205-213"]}
{"id": "C182", "title": "The relaxation time does not depend on the unit of time", "statement": "For an exact decay, multiplying all times by a factor multiplies the relaxation time by this factor.", "quantifier": "all decays, all factors, both stopping tests of scipy", "why_tests_cant": "All real factors.", "anchors": ["src/sdanalysis/relaxation.py:158-257"]}
{"id": "C183", "title": "Every relaxation has its column", "statement": "After process_file with an output file, the table molecular_relaxations has, for each key frame and each relaxation that was asked for, a column of its name with the times of its molecules.", "quantifier": "all trajectories, key frames and definitions of relaxations", "why_tests_cant": "All names and sequences of frames.", "anchors": ["src/sdanalysis/read/_read.py:175-191", "src/sdanalysis/dynamics/relaxations.py:109-130"]}
{"id": "C184", "title": "Equal molecules have the same shape", "statement": "Molecules for which == is true have the same particles, positions and radii, and molecules of a class with the same particles, positions and radii are equal.", "quantifier": "all molecules of all classes", "why_tests_cant": "All numbers, ints and floats.", "anchors": ["src/sdanalysis/molecules.py:60-61", "src/sdanalysis/molecules.py:127-168", "src/sdanalysis/molecules.py:195-218"]}
{"id": "C185", "title": "The text of a Trimer tells which one it is", "statement": "Two Trimers have the same repr() if and only if they are equal.", "quantifier": "all pairs of Trimers, of subclasses too", "why_tests_cant": "All numbers, ints and floats.", "anchors": ["src/sdanalysis/molecules.py:154-168"]}
{"id": "C186", "title": "A later decay is reported as a later relaxation time", "statement": "The time that comp-relaxations reports for a quantity other than the mean displacements increases with the row of the table dynamics, as written by comp-dynamics, in which the quantity first falls below 1/e.", "quantifier": "all tables dynamics of any number of rows, all key frames and quantities", "why_tests_cant": "Tables with more rows than one write has.", "anchors": ["src/sdanalysis/read/_read.py:57-79", "src/sdanalysis/relaxation.py:394-472"]}
{"id": "C187", "title": "Deleting an attribute of the parameters", "statement": "del on a SimulationParams removes exactly the attribute that is named, after which reading it raises AttributeError (so does reading infile, outfile or output if the attribute behind it is removed); for infile, outfile, output themselves and attributes which are not set it raises AttributeError and changes nothing.", "quantifier": "all parameter objects and attribute names", "why_tests_cant": "All objects and names.", "anchors": ["src/sdanalysis/params.py:33-86", "src/sdanalysis/params.py:118-129"]}
{"id": "C188", "title": "Reading a gsd file with a senseless interval or number of steps", "statement": "read_gsd_trajectory yields no frame for a key frame interval of 0, and raises ZeroDivisionError as soon as a frame can be read. For a negative number of steps it yields no frame either, ending with KeyError if the steps are logarithmic and normally if they are not.", "quantifier": "all trajectories, with unreadable frames anywhere, and all other arguments", "why_tests_cant": "All trajectories.", "anchors": ["src/sdanalysis/read/_gsd.py:91-116", "src/sdanalysis/read/_gsd.py:119-189", "src/sdanalysis/StepSize.py:93-171"]}
{"id": "C189", "title": "A LAMMPS frame without positions ends the analysis with KeyError", "statement": "If a frame of a lammpstrj file has no column x, y or z, process_file gets all frames before it, as written, and then KeyError, unless a frame up to it is later than the number of steps asked for.", "quantifier": "all well-formed files, Unix and DOS line ends, any columns", "why_tests_cant": "All sequences of frames.", "anchors": ["src/sdanalysis/read/_lammps.py:28-95", "src/sdanalysis/frame.py:79-83", "src/sdanalysis/read/_read.py:126-147"]}
{"id": "C190", "title": "Correlation functions are bounded in floating point arithmetic", "statement": "In floating point arithmetic rot1, rot2 and the scattering function are between -1 and 1, and com_struct, struct and the orientational order between 0 and 1; all of them are exactly 1 if nothing has moved, or the neighbours are aligned.", "quantifier": "all numbers of molecules up to 2^p (p bits of precision), all values, all orders in which numpy may add them, any rounding that preserves order and keeps numbers of p bits", "why_tests_cant": "Rounding errors depend on the values, their number and the order of the additions.", "anchors": ["src/sdanalysis/dynamics/dynamics.py:233-259", "src/sdanalysis/dynamics/dynamics.py:410-428", "src/sdanalysis/order.py:85-86"]}
{"id": "C191", "title": "Averages do not depend on the numbering of the molecules in floating point arithmetic", "statement": "mean_displacement, msd and mfd (and the same of rotations) are the same for the same molecules in another order.", "quantifier": "all lists of displacements and their permutations", "why_tests_cant": "Rounding errors depend on the order of the additions.", "anchors": ["src/sdanalysis/dynamics/dynamics.py:179-193", "src/sdanalysis/dynamics/dynamics.py:217-231"]}
{"id": "C192", "title": "alpha is at least -1/2 in floating point arithmetic", "statement": "The non-Gaussian parameter alpha is at least -1/2 (alpha_rot at least -2/3), and gamma at least -1.", "quantifier": "all lists of displacements and rotations", "why_tests_cant": "Rounding errors depend on the values.", "anchors": ["src/sdanalysis/dynamics/dynamics.py:195-215", "src/sdanalysis/dynamics/dynamics.py:261-303"]}
{"id": "C193", "title": "No motion is lost over many frames", "statement": "delta_translation is the sum of the wrapped displacements of all frames, in the single precision of trajectory files.", "quantifier": "all sequences of frames", "why_tests_cant": "Number of frames.", "anchors": ["src/sdanalysis/dynamics/_util.py:133-149"]}
{"id": "C194", "title": "One molecule in ten is called mobile", "statement": "mobile_overlap compares floor(N/10) molecules, although it multiplies N by the double next to 0.1.", "quantifier": "all N up to 2^52, any rounding that preserves order and keeps numbers of 53 bits", "why_tests_cant": "All N.", "anchors": ["src/sdanalysis/dynamics/dynamics.py:430-445"]}
{"id": "C195", "title": "A caller may reuse its arrays", "statement": "Dynamics and Relaxations objects report the motion between the values that the arrays had when they were passed, also if several objects are given the same arrays and the caller changes arrays between the calls.", "quantifier": "all sequences of creating arrays, changing arrays, making objects and adding frames", "why_tests_cant": "All interleavings of writes and calls, any number of objects.", "anchors": ["src/sdanalysis/dynamics/_util.py:108-156", "src/sdanalysis/read/_read.py:128-156"]}
{"id": "C196", "title": "An array got from delta_translation keeps its values", "statement": "The values of delta_translation and delta_rotation that were obtained at one frame are not changed by adding another frame.", "quantifier": "all sequences of creating arrays, changing arrays, making objects and adding frames", "why_tests_cant": "All later calls.", "anchors": ["src/sdanalysis/dynamics/_util.py:149-153", "src/sdanalysis/dynamics/dynamics.py:136-142"]}
{"id": "C197", "title": "Positions may be integers", "statement": "A frame with positions given as integers is compared like one with the same positions given as floats.", "quantifier": "all frames and states", "why_tests_cant": "All positions and states.", "anchors": ["src/sdanalysis/dynamics/_util.py:126-127", "src/sdanalysis/dynamics/_util.py:149"]}
{"id": "C198", "title": "molecule2particles leaves its arguments alone", "statement": "molecule2particles changes none of the arrays it is given; molecules whose orientation is all zeros are placed unrotated.", "quantifier": "all arrays of orientations", "why_tests_cant": "All arrays.", "anchors": ["src/sdanalysis/dynamics/_util.py:42-54"]}
{"id": "C199", "title": "Relaxation times of a LAMMPS trajectory", "statement": "After comp-dynamics and comp-relaxations on a lammpstrj file in which all molecules move further than every distance threshold, the table of relaxations has a row with the average times for which the molecules stayed within these distances.", "quantifier": "all well formed lammpstrj files, options and motions", "why_tests_cant": "All files and all motions of molecules.", "anchors": ["src/sdanalysis/main.py:117-180", "src/sdanalysis/relaxation.py:502-526", "src/sdanalysis/frame.py:101-105"]}
{"id": "C200", "title": "The complete frames of an unfinished lammpstrj file are analysed", "statement": "comp-dynamics on a lammpstrj file which has complete frames followed by anything else (a frame that is cut off, a wrong header, a wrong line of an atom) writes the rows and relaxation times of the complete frames.", "quantifier": "all files of complete frames, all ways in which the rest is broken, all motions", "why_tests_cant": "All files and all places where they break off.", "anchors": ["src/sdanalysis/read/_lammps.py:42-95", "src/sdanalysis/read/_read.py:31-79", "src/sdanalysis/read/_read.py:128-195"]}
{"id": "C201", "title": "steps_max cuts the trajectory off", "statement": "comp-dynamics with --num-steps / process_file(steps_max=m) returns and writes exactly what it would for the file that ends with its last frame up to step m, whatever follows in the file.", "quantifier": "all gsd files (with corrupted frames), all lammpstrj files, all m, key frame options, molecules, wave numbers, earlier contents of the output", "why_tests_cant": "All files and all places where they are cut; the two runs of the reader have to be compared frame by frame.", "anchors": ["src/sdanalysis/read/_gsd.py:91-116", "src/sdanalysis/read/_gsd.py:119-189", "src/sdanalysis/read/_lammps.py:28-39", "src/sdanalysis/read/_read.py:82-195"]}
{"id": "C202", "title": "Same motion, same analysis", "statement": "Two trajectories that show the same motion are analysed alike: another origin of the coordinates, other periodic images of the particles (in any frame), other signs of the quaternions and another number of the first step change nothing of the rows, relaxation times, written tables and exceptions.", "quantifier": "all films (also ones on which the analysis fails), all shifts, all choices of images and signs per particle and frame, all molecules, wave numbers, definitions of relaxations, earlier contents of the output", "why_tests_cant": "A relation between two runs over all pairs of trajectories; a test compares one pair.", "anchors": ["src/sdanalysis/dynamics/_util.py:133-156", "src/sdanalysis/dynamics/dynamics.py:328-394", "src/sdanalysis/dynamics/relaxations.py:135-162", "src/sdanalysis/read/_read.py:82-195"]}
{"id": "C203", "title": "Unit of length", "statement": "Positions, box and molecule in another unit of length (with the wave number in the matching unit): the mean displacement changes by the factor, the mean squared and mean fourth displacements by its second and fourth power, and all other columns, the molecular relaxation times and the exceptions are unchanged.", "quantifier": "all films, all factors a > 0, all molecules and wave numbers, the default definitions of relaxations", "why_tests_cant": "Scaling of every column over all inputs.", "anchors": ["src/sdanalysis/dynamics/dynamics.py:328-408", "src/sdanalysis/dynamics/relaxations.py:57-90", "src/sdanalysis/read/_read.py:82-195"]}
{"id": "C204", "title": "Simulations that start at another step", "statement": "The analysis of a trajectory does not depend on the number of its first step: if all step numbers (and steps_max) are larger by c, the same rows, relaxation times, tables and exceptions result.", "quantifier": "all gsd files (with corrupted and broken frames), all lammpstrj files, all c, key frame options, molecules, wave numbers", "why_tests_cant": "All files and all c; the readers select frames by step number, the analysis subtracts the first.", "anchors": ["src/sdanalysis/read/_gsd.py:91-116", "src/sdanalysis/read/_gsd.py:119-189", "src/sdanalysis/read/_lammps.py:28-39", "src/sdanalysis/read/_read.py:82-195"]}
{"id": "C205", "title": "Frames in between do not matter", "statement": "If two trajectories record the same motion, both finely enough that no molecule moves by half the box or turns by pi between frames, then the row of a frame that both contain is the same, however many frames lie between it and the first frame of its key frame.  If one trajectory only lacks some frames of the other, then none of its first passage times (tau_D, tau_F, tau_T2, tau_T3, tau_T4) is earlier.", "quantifier": "all pairs of trajectories of all motions that can be followed, all molecules, all rounding functions, all images and signs", "why_tests_cant": "All pairs of trajectories: displacements and rotations are accumulated frame by frame, so independence of the frames needs induction along both.", "anchors": ["src/sdanalysis/dynamics/dynamics.py:144-176", "src/sdanalysis/dynamics/_util.py:133-156", "src/sdanalysis/dynamics/relaxations.py:135-185", "src/sdanalysis/dynamics/relaxations.py:209-222", "src/sdanalysis/read/_read.py:82-195"]}
{"id": "C206", "title": "Numbering of the molecules", "statement": "The analysis of a trajectory in which the molecules are numbered in another way, the same in every frame, has the same rows, and the relaxation times of every molecule are found under its new number; errors are the same.", "quantifier": "all trajectories of a fixed number of molecules, all permutations of them, all options", "why_tests_cant": "All permutations and all trajectories; the quantities sort, pair and average over molecules in different ways.", "anchors": ["src/sdanalysis/dynamics/dynamics.py:305-326", "src/sdanalysis/dynamics/dynamics.py:328-394", "src/sdanalysis/dynamics/dynamics.py:431-445", "src/sdanalysis/dynamics/_util.py:42-54", "src/sdanalysis/dynamics/_util.py:133-156", "src/sdanalysis/dynamics/relaxations.py:135-185", "src/sdanalysis/read/_read.py:82-195"]}
{"id": "C207", "title": "Unit of time", "statement": "If all step numbers of a trajectory (and steps_max and the distance of key frames) are multiplied by c > 0, the time column of every row and all molecular relaxation times are multiplied by c, molecules that have not relaxed stay so, and everything else, exceptions included, is unchanged, as long as no two steps are 2^32 - 1 apart.", "quantifier": "all trajectories, all c > 0, all definitions of relaxations, earlier contents of the output; all gsd files (with corrupted and broken frames) without linear steps", "why_tests_cant": "A relation between two runs over all trajectories and factors; 2^32 - 1 is used as a mark in the same array as the times.", "anchors": ["src/sdanalysis/dynamics/dynamics.py:349-394", "src/sdanalysis/dynamics/relaxations.py:135-162", "src/sdanalysis/dynamics/relaxations.py:187-221", "src/sdanalysis/dynamics/relaxations.py:238-294", "src/sdanalysis/read/_gsd.py:91-116", "src/sdanalysis/read/_read.py:82-195"]}
{"id": "C208", "title": "Voronoi neighbours of the periodic configuration", "statement": "The number of neighbours that compute_voronoi_neighs gives for a particle is the number of images of other particles whose Voronoi cells share an edge with its cell in the infinite periodic configuration, not merely among the points within the buffer.", "quantifier": "all flat boxes (tilted ones included), all configurations without coinciding particles, every particle", "why_tests_cant": "freud divides the plane for the points and the images in a buffer of width 5 only; whether the missing images matter depends on the empty regions of the configuration.", "anchors": ["src/sdanalysis/order.py:312-315", "src/sdanalysis/order.py:150-171", "src/sdanalysis/util.py:178-193"]}
{"id": "C209", "title": "The ordering by the number of neighbours follows the configuration", "statement": "create_neigh_ordering(n) calls exactly those particles ordered that have n Voronoi neighbours in the periodic configuration, and the answer does not change when all particles are moved together, single particles are replaced by their periodic images, or the particles are numbered differently (the answers are renumbered too), for configurations in which every circle of radius r, 2 r < 5, contains a particle.", "quantifier": "all flat boxes, all such configurations, all translations, images and numberings, all n", "why_tests_cant": "The buffer freud adds depends on where the particles are in the box; that the result does not is a statement about all configurations.", "anchors": ["src/sdanalysis/order.py:150-171", "src/sdanalysis/order.py:312-315"]}
{"id": "C210", "title": "The buttons of the figure offer what the directory has, in numerical order (refuted)", "statement": "At every time, whatever was clicked before, the pressures, temperatures, crystals and iterations offered are exactly those that occur in the file names of the directory together with the values chosen before them, each once, and pressures and temperatures are in numerical order. (The code violates the last part: values are sorted as strings, so 13.50 comes before 2.00. The order is numerical if all are written with the same number of characters.)", "quantifier": "all directories of usable file names, all histories of actions, also actions that raise", "why_tests_cant": "The number of directories and of sequences of clicks is unbounded; tests look at one.", "anchors": ["src/sdanalysis/figures/interactive_config.py:109-151", "src/sdanalysis/figures/interactive_config.py:181-230"]}
{"id": "C211", "title": "Every model given to the figure can be chosen (refuted)", "statement": "Every model given to the figure, and every built-in classification, can be chosen with one of the buttons at every time. (The code violates this: of several models with the same stem only the last can be chosen, and a model with the name of a built-in classification replaces it. All others can.)", "quantifier": "all lists of models, all contents of the shared dictionary, all histories of actions", "why_tests_cant": "Name clashes depend on the combination of all models ever loaded.", "anchors": ["src/sdanalysis/figures/interactive_config.py:60-66", "src/sdanalysis/figures/interactive_config.py:87-94", "src/sdanalysis/figures/interactive_config.py:354-357"]}
{"id": "C212", "title": "The windows of one figure server do not disturb each other", "statement": "However many browser windows are opened at the server of the command figure, and whatever is done in them in which order, every window starts with the same figure (the same labels of the classifications too) and is at any time in the state it would be in if it were the only window; if the figure cannot be made, every window fails with the same exception.", "quantifier": "all numbers of windows, all interleavings of actions (also raising ones), all lists of models (also with equal stems, or with one that cannot be loaded), all directories", "why_tests_cant": "All figures write to one dictionary of the class; that this is harmless here is a statement about all interleavings.", "anchors": ["src/sdanalysis/main.py:193-234", "src/sdanalysis/figures/interactive_config.py:60-66", "src/sdanalysis/figures/interactive_config.py:87-94", "src/sdanalysis/figures/interactive_config.py:452-456"]}
{"id": "C213", "title": "The analysis does not depend on the directions of the axes (refuted for struct)", "statement": "Two trajectory files of the same motion, one in axes that are turned by any angle, mirrored and moved, and started at another step, give for every key frame the same rows (time, displacements, rotations, alpha, gamma, overlap, com_struct, and for whole degrees the scattering function) and exactly the same relaxation times, whatever boxes, periodic images and quaternion signs the files use. (The code's struct column is different: the rotation of the particles is about x and does not start from the orientation of the molecule.)", "quantifier": "All trajectories of at least ten molecules that are fine enough to be followed, all angles, mirror images, origins, boxes, wave numbers, key frames and wrapping, sorting and rounding functions", "why_tests_cant": "A test compares one trajectory in one orientation; the invariance concerns all rotations of all trajectories, and the scattering function is only invariant for the rotations that map its 360 wave vectors to each other.", "anchors": ["src/sdanalysis/dynamics/dynamics.py:153-181", "src/sdanalysis/dynamics/dynamics.py:233-235", "src/sdanalysis/dynamics/dynamics.py:305-326", "src/sdanalysis/dynamics/dynamics.py:328-395", "src/sdanalysis/read/_read.py:95-195"]}
{"id": "C214", "title": "Allowing more key frames only adds key frames", "statement": "When the maximal number of key frames is raised, the rows and the relaxation data of the key frames that were already there stay as they were; the other key frames had no rows before. For the linear reader this holds for every file; for the exponential one for files that contain only steps of the series, or all steps of the series up to their end. (For other files frames of the first key frame can get lost.)", "quantifier": "All files with frames in order of time, key-frame intervals, maximal numbers of key frames M <= M', step limits, and all computations made for a frame", "why_tests_cant": "A test runs one file with two values; here it is for all files, intervals and pairs of values, and it needs the order in which the generators of steps are started.", "anchors": ["src/sdanalysis/StepSize.py:95-171", "src/sdanalysis/read/_gsd.py:91-189", "src/sdanalysis/read/_read.py:82-195"]}
{"id": "C215", "title": "Continuing a simulation only adds rows (refuted for the last step)", "statement": "When more frames are appended to a gsd file, process_file writes the rows it wrote before, and further ones behind them. (With linear_steps and without steps_max the code violates this: the last step of the file belongs to every key frame, and it can be missing from the analysis of the longer file. The rows before that step stay for every key frame. Without linear_steps, or with steps_max, all rows stay.)", "quantifier": "All files of readable and corrupted frames and all continuations, key-frame intervals and numbers, and all computations made for a frame", "why_tests_cant": "A test would compare two particular files; the documentation says that unfinished simulations are analysed, so the point where a file ends is arbitrary, and with it the last step of all series.", "anchors": ["src/sdanalysis/read/_gsd.py:31-189", "src/sdanalysis/StepSize.py:95-171", "src/sdanalysis/read/_read.py:82-195"]}
{"id": "C216", "title": "The tables of an output file belong to the same analysis (refuted)", "statement": "After any sequence of comp-dynamics and comp-relaxations on one output file the tables dynamics, molecular_relaxations and relaxations are those of the last analysis, whatever was in the file before. (The code violates this in three ways: an analysis of which every frame is skipped leaves the dynamics of the one before and replaces the molecules; one that crashes after 8192 rows replaces the dynamics and leaves the molecules; the relaxations stay when the analysis is repeated. It holds for dynamics and molecular_relaxations when the last analysis completes with a row, and for relaxations computed after it. A crash leaves whole blocks of 8192 rows or nothing.)", "quantifier": "All sequences of commands, all states of the output file, all files analysed and computations made for a frame", "why_tests_cant": "A test runs one command on a new file; the sequences of commands that share a file are unbounded, and a crash can come after any number of rows.", "anchors": ["src/sdanalysis/read/_read.py:82-195", "src/sdanalysis/relaxation.py:428-499", "src/sdanalysis/main.py:117-182"]}
{"id": "C217", "title": "Running a command again changes nothing", "statement": "What comp-dynamics writes to an output file, and whether and how it fails, does not depend on what is in the file: every table is replaced or stays. So running a command a second time, also one that failed, leaves all tables as they are and ends in the same way; and so does a script of analyses followed by comp-relaxations, run again as a whole. (With comp-relaxations first this is false.)", "quantifier": "All files analysed and computations made for a frame, all states of the output file, all scripts", "why_tests_cant": "A test would run one command twice on one file; the state left by a command that failed after any number of rows, and scripts of any length, are out of its reach.", "anchors": ["src/sdanalysis/read/_read.py:31-195", "src/sdanalysis/relaxation.py:428-499", "src/sdanalysis/main.py:117-182"]}
{"id": "C218", "title": "A part of the molecules", "statement": "When the frames of a trajectory are cut down to some of the molecules (any selection, in any order), Relaxations with a given wave number still succeeds and gives every molecule that is left the times it had among all of them: the times of a molecule depend on its own motion only. (Without a wave number the code computes one from the positions of all molecules, and the distances depend on it.) When the molecules are divided into two parts, the values of mean_displacement, msd, mfd, scattering_function, com_struct, mean_rotation, msr, rot1 and rot2 that Dynamics reports for the whole are the averages of those of the parts, weighted with their numbers of molecules. The non-Gaussian parameter alpha has no such rule.", "quantifier": "for all frames with the same number of molecules, all selections and divisions of the molecules, all wave numbers, definitions of relaxation times and box wrappings, and all runs that succeed for the whole", "why_tests_cant": "a test compares one selection of one trajectory; that no molecule has an effect on the times of another, and that averages combine exactly, is about every selection and every sequence of frames", "anchors": ["src/sdanalysis/dynamics/relaxations.py:38-184", "src/sdanalysis/dynamics/_util.py:89-156", "src/sdanalysis/dynamics/dynamics.py:67-394"]}
{"id": "C219", "title": "Relaxation times that must be in order", "statement": "A molecule is never reported to exceed a larger threshold before a smaller one. With the default definitions, whatever frames are added to a Relaxations object (also ones it rejects), every molecule has tau_F <= tau_D, tau_F <= tau_L and tau_T4 <= tau_T3 <= tau_T2; and if the frames are in order of time and span less than 2^32 steps, tau_L <= tau_D: the last passage is between the first passages of the distance and of three times the distance. (The last one is false for frames out of order and for later frames.)", "quantifier": "for all sequences of frames, also rejected ones, all molecules, thresholds, wave numbers (given or calculated) and roundings that keep the order of numbers", "why_tests_cant": "a test looks at one trajectory; that an ordering of reported times holds for every motion, also with returns, missing orientations and rejected frames, is about all sequences of frames", "anchors": ["src/sdanalysis/dynamics/relaxations.py:38-184", "src/sdanalysis/dynamics/relaxations.py:187-335"]}
{"id": "C220", "title": "A system made of copies of a system", "statement": "What Dynamics reports is about the molecules, not about how many there are: if every molecule of a system is taken the same number of times, in any order and the same in all frames, the frames are accepted again and every column of compute_all except overlap and struct is the same number as for the single system. (For overlap it is false: one in ten of fifteen molecules is one molecule, of thirty three. The pairing of sites in struct depends on the number of molecules, so it is not claimed.)", "quantifier": "for all sequences of accepted frames of at least ten molecules, numbers of copies, orders of the molecules, wave numbers other than zero (also none given), non-empty molecules, periodic wraps and Euler angles", "why_tests_cant": "a test compares one small system; that the averages carry no factor of the system size holds for all sizes and numbers of copies only by proof", "anchors": ["src/sdanalysis/dynamics/dynamics.py:67-445", "src/sdanalysis/dynamics/_util.py:89-156"]}
{"id": "C221", "title": "A film shown backwards", "statement": "The motion from the last frame to the first is the motion from the first to the last: if the frames of a two-dimensional trajectory are given to Dynamics in the opposite order, on a clock that runs backwards, they are accepted and compute_all reports for the last of them the same row, in all columns except struct. (For struct it is false, also with all other columns equal.)", "quantifier": "for all numbers of frames, all true motions of at least ten molecules that move by less than half a box and turn by less than pi between frames, all periodic images and signs of quaternions, wave numbers other than zero (also none given), non-empty molecules, and every wrap of a vector into the box", "why_tests_cant": "a test reverses one film; that the accumulated steps cancel in the opposite order for every path, image and sign is about all trajectories", "anchors": ["src/sdanalysis/dynamics/dynamics.py:67-445", "src/sdanalysis/dynamics/_util.py:89-156"]}
{"id": "C222", "title": "A frame that occurs twice", "statement": "A frame that is given twice in a row (as when a simulation is restarted and its first frame is written again) has no effect the second time: the Relaxations object, with the default or other definitions, and the Dynamics object are the same afterwards as if it had been given one time, whatever frames come before and after, and an exception later is the same one.", "quantifier": "for all sequences of frames of one size, with and without orientations (which must not be zero), thresholds, first and last passages, definitions of relaxations, roundings, wave numbers, and every wrap of a vector into a box with an area", "why_tests_cant": "a test repeats one frame of one film; that no state of the last passage counts a frame twice and that no rotation or translation is added is about all states of the objects", "anchors": ["src/sdanalysis/dynamics/relaxations.py:109-184", "src/sdanalysis/dynamics/relaxations.py:187-294", "src/sdanalysis/dynamics/_util.py:133-156", "src/sdanalysis/dynamics/dynamics.py:144-160"]}

# Formal model of sdanalysis: design

The code under /repo/src/sdanalysis is modelled in Coq 8.16.1 (`rocq/theories`), function
by function.  Nothing of /repo is executed.

## Layout

Per component `X`:

- `XModel.v`  executable definitions, each with the file and lines it models; no proofs
- `XSpec.v` / top of `XProofs.v`  the specification, independent of the model's helpers
- `XProofs.v` lemmas
- `XProps.v`  the property theorems (named after the property ids), closed by `exact`,
  an `Example` meeting the hypotheses, and `Print Assumptions`

## Modelling conventions

- Python `int` is `Z`; timesteps are exact.  Exceptions are values (`Base.result`).
- Generators are resumable state machines; unbounded Python loops take fuel with an explicit
  out-of-fuel value, and theorems either show that some fuel suffices or that none does.
- Python dicts are insertion-ordered association lists (`Base.dict`).
- Code that only compares floats is modelled over exact extended numbers (NaN, infinities,
  rationals): comparisons of IEEE numbers are exact.  Code that computes with floats
  (norms, means, cosines, quaternions) is modelled over the reals `R`; rounding is then
  not modelled, which each file says, except in FloatModel (averages, correlation functions and
  tracking with rounding of every operation) and where a function `fl` rounds distances.
- Arrays are values; AliasModel has arrays with addresses that several objects share, and shows
  when the models with values agree with it.
- Python strings are Coq `string`s of bytes (ASCII input).

## Trusted base

- The Coq kernel and coqchk.
- Axioms: those `Print Assumptions` lists for each theorem, all from the standard library
  (see the end of this file and the comments in each `*Props.v`).
- The reading of the Python code, and of the external libraries where a definition
  states a contract for them: `queue.PriorityQueue` (a min-queue), `gsd` (a list of read
  outcomes), `pandas` (row tables), `freud.box.wrap` (nearest image), `rowan` (quaternion
  formulas), `scipy.optimize.curve_fit` (least squares for linear models), `click`.
- Not modelled: the text of log messages, progress bars, plotting (bokeh), learned models (a
  parameter), the search for nearest neighbours and the division of the plane (contracts), HDF5
  storage beyond row order, threads.

Status convention in MANIFEST.json: a property that the code violates is `partial`, with a
`_refuted` theorem (a witness) and the strongest true version.

## Mutation tests

`seeded/LOG.jsonl` records each edit. `theorems_failed` are the statements whose proofs stopped
compiling; `property_theorems_blocked` are all property theorems in files that could not be built
any more. A proof that stops compiling is evidence that the theorem rejects the edit, not proof of
it: a script can break although the statement still holds. Where that was noticed, the log says so.

## Plan per property

- **C01** exp_sequence produces exactly the log-linear grid, in strictly increasing order — StepSizeModel: `exp_sequence` as a resumable state machine (fuel only for the inner loop, explicit out-of-fuel value); spec = arithmetic set; induction over rounds.
- **C02** generate_steps is the grid below total_steps followed by total_steps — Same model with the takewhile wrapper; spec = sorted list of the set below total.
- **C03** generate_steps terminates for every accepted num_linear (refuted for num_linear <= 0) — Refutation: for every fuel the second resume of the machine is out of fuel when num_linear <= 0. Positive part is C02.
- **C04** generate_steps only shifts with start — Simulation relation between the two machines (shift).
- **C05** Step gaps stay proportional to elapsed time — From the set characterisation of C01 and strict order.
- **C06** The first num_linear+1 outputs are consecutive integers — From C02.
- **C07** GenerateStepSeries iterates in strictly increasing order from 0 to total_steps and stops — Object state machine (queue as multiset of ints with delete-min contract, values dict, heap of generator states); invariant by induction over next() calls.
- **C08** get_index reports exactly the key-frame sequences that contain the current step — Same invariant, ghost list of starts.
- **C09** When and how many key frames are added — Same invariant plus induction over the emitted list.
- **C10** Key frames are evenly spaced when gen_steps is on the grid — Induction over m using grid closure under multiplication by... (start m*G sequence contains (m+1)*G by shift).
- **C11** With a single generator the series equals generate_steps — Corollary of the invariant with one generator.
- **C12** The step series holds no stale state — The invariant itself.
- **C13** GenerateStepSeries accepts every integer configuration (refuted) — Witness executions + classification theorem.
- **C14** iter_trajectory skips exactly the corrupt frames — Trajectory = list of read outcomes; induction.
- **C15** The step count comes from the last readable frame among the final ten — Retry loop as recursion on the retry count.
- **C16** The linear reader numbers key frames consecutively and stops at steps_max — Loop over frames with accumulated list; induction.
- **C17** The linear reader creates at most keyframe_max key frames (refuted) — Witness + exact bound.
- **C18** The exponential reader only yields correctly labelled frames — Model co-iterates frames and the GenerateStepSeries object; refined to recursion over a list of (step, indexes) via C07/C08; hang for linear_steps <= 0 excluded (C03).
- **C19** The exponential reader loses nothing when file and step sequence agree — As C18.
- **C20** The exponential reader yields every frame that is on the step sequence (refuted) — Witness.
- **C21** open_trajectory visits every frame_interval-th frame — Index arithmetic on lists.
- **C22** WriteCache never loses, duplicates or reorders rows — WriteCache state + file table; ghost history; induction over operations.
- **C23** WriteCache bounds memory and what a crash can lose — Same.
- **C24** len(WriteCache) counts the rows appended (only if flush is never called directly) — Same, with witness.
- **C25** WriteCache without a file acts as a list (refuted) — Same, threshold exactly size+1.
- **C26** Key frames do not influence each other — process_file loop generic in the per-key-frame state and step function (Section variables closed by quantification); projection lemma.
- **C27** The time column counts from the key frame's first frame — Same.
- **C28** Bad frames are skipped without disturbing the rest — Same.
- **C29** Custom molecular relaxations accumulate over the trajectory (refuted) — Instantiation with the relaxation model and witness.
- **C30** process_file writes to the file what it would return in memory — Composition of C22 and the loop.
- **C31** First passage: the status is the earliest time the threshold was exceeded — Per-molecule fold over exact distances (extended rationals incl. NaN/inf).
- **C32** A recorded first-passage time never increases, and the order of frames is irrelevant — Permutation invariance of fold min.
- **C33** Relaxation later than 2^32-2 steps is recorded (refuted) — Witness and exact bound.
- **C34** Last passage: the status is the last exit before irreversibility — Invariant of the 3-state machine; spec by positions in the history.
- **C35** The vectorised last-passage update implements the documented per-molecule algorithm — Model both the array version and the documented sequential algorithm; prove equality up to the documented difference.
- **C36** A completed last passage is final — Absorbing state.
- **C37** Last passage is never earlier than first passage — From C31 and C34.
- **C38** Size mismatches are rejected without a trace — Direct over the model.
- **C39** set_mol_relax accepts exactly the well-formed definitions — Induction over the definition list with Python dict semantics.
- **C40** Translational and rotational relaxations see the right motion — Map over the dict.
- **C41** threshold_relaxation returns the first crossing — argmax over comparisons; extended rationals.
- **C42** threshold_relaxation signals a curve that never relaxes (refuted) — Witness and general theorem.
- **C43** max_time_relaxation / max_value_relaxation locate the first maximum ignoring NaN — nanargmax recursion.
- **C44** The error of a maximum is a non-negative neighbour gap — Arithmetic over Q.
- **C45** diffusion_constant recovers the slope — Least squares closed form over R (curve_fit of a linear model by its normal-equation contract).
- **C46** The supplied derivatives are the derivatives — Reals: derivable_pt_lim, uniqueness by monotonicity.
- **C47** Each quantity is summarised by its documented method — String dispatch.
- **C48** Relaxation times written by comp-relaxations are simulation times (refuted) — Table model with row labels; witness.
- **C49** Only fully relaxed key frames are averaged — Group-by model.
- **C50** The harmonic mean never exceeds the mean — AM-HM over R.
- **C51** A HoomdFrame has a sensible number of molecules — Integers.
- **C52** All per-molecule arrays of a frame agree in length — Lists.
- **C53** LammpsFrame boxes always have six entries — Lists.
- **C54** Simulation file names round-trip — Strings: formatting of integers/hundredths, split on '-', prefix tests.
- **C55** File names of every simulation round-trip (refuted) — Witnesses.
- **C56** get_filename_vars field rules — Specification by last matching field.
- **C57** A file name without T/P marks can be analysed (refuted) — Witness + general class.
- **C58** set_filename_vars changes only temperature, pressure and space group — Record model.
- **C59** temp_context restores every attribute on normal exit — Dict model of __dict__, programs as nested syntax.
- **C60** temp_context restores on exceptions and removes new attributes (refuted) — Witnesses.
- **C61** Path attributes are always paths — State machine over assignments.
- **C62** parse_directory indexes every file — Nested dict model.
- **C63** create_freud_box keeps lengths and tilts — Case analysis.
- **C64** LAMMPS trajectories parse back — Line level parser over strings; printer as spec.
- **C65** Malformed LAMMPS headers are reported — Same.
- **C66** LAMMPS reading stops at steps_max — Same.
- **C67** Tracked translation equals the true displacement for small steps — R: wrap by floor, induction over frames; tilted via fractional coordinates.
- **C68** Tracked translation is always right modulo the box — Same.
- **C69** Tracked rotation accumulates turns in 2D — R: quaternion algebra, atan2 defined from Ratan.
- **C70** Frames without orientation interrupt rotation only — State machine with option orientations.
- **C71** The reference frame has no motion — R, sums.
- **C72** Correlation functions are bounded — R.
- **C73** Moments obey their inequalities — R, Cauchy-Schwarz.
- **C74** Ensemble quantities do not depend on particle numbering — Permutation of sums.
- **C75** compute_all always reports all quantities — Key list.
- **C76** structural_relax is the fraction that moved further than dist (refuted) — Counting.
- **C77** mobile_overlap is defined for every system (refuted below ten particles) — Counting, any sorting permutation.
- **C78** struct uses each molecule's own motion (refuted for more than one molecule) — Index arithmetic + witness.
- **C79** struct rotates about the axis the molecule rotated about (refuted) — Quaternion algebra + witness.
- **C80** Orientational order is a number in [0,1] — R.
- **C81** Orientational order does not depend on the frame of reference or quaternion sign — R.
- **C82** In two dimensions the order is the mean squared cosine — R.
- **C83** relative_distances marks missing neighbours by -1 (refuted) — Lists.
- **C84** Molecules are centred and keep their shape — R.
- **C85** Trimer geometry — R trigonometry.
- **C86** Molecule equality is an equivalence (refuted) — Finite classes with parameters.
- **C87** Angle/quaternion round trip — R.
- **C88** orientation2positions puts every particle in its place — Lists + R.
- **C89** frame2data columns describe the same particle — Index arithmetic.
- **C90** colour_orientation never indexes outside the palette — Truncation on R.
- **C91** The trajectory slider always points at a frame (refuted) — State machine.
- **C92** The selected file always exists — State machine over nested dict.
- **C93** Command line options reach process_file (refuted for --molecule and --output) — Options record to keyword set.
- **C94** Index lists yielded by the linear reader can be kept (refuted) — The final content of the shared list is part of the model of the linear reader; witness and iff.
- **C95** WriteCache replaces an existing table (refuted) — Invariant of the cache; witness with a flush before the first append; exact condition.
- **C96** process_file leaves no stale rows in the output file (refuted) — Composition of the process_file model with the cache model; witness and the version with at least one row.
- **C97** exponential_relaxation recovers an exact decay — R: curve_fit and newton by contract (with instances), uniqueness of the parameters of an exponential through two points.
- **C98** The error of exponential_relaxation is non-negative (refuted) — R: closed form of the root; sign for all fits.
- **C99** exponential_relaxation ignores non-finite values also with uncertainties (refuted) — Lengths of masked arrays.
- **C100** Every analysed key frame has a row in table 'relaxations' (refuted) — Left join model; witness and exact rows.
- **C101** Every frame has a length (refuted for body ids below -1) — Integers; witness and iff.
- **C102** A LAMMPS file that is cut off yields only true frames (refuted) — Line counting: a successful frame consumes all its lines; witness by computation.
- **C103** Tilted LAMMPS cells are analysed with their tilt (refuted) — Witness and exact box.
- **C104** Rows carry the temperature and pressure of the file name — Invariant over the rows of the cache and the table, for any labelling function.
- **C105** Frames of another size are rejected (refuted for one particle) — Lists with numpy broadcasting; witness.
- **C106** A rejected frame leaves no trace (refuted) — State after the exception; witness.
- **C107** Rotation about any fixed axis is tracked by its angle (refuted) — Quaternion algebra, Euler angles by atan2/asin; induction over frames; witness.
- **C108** In the plane rot1 and rot2 are the documented averages — Trigonometry.
- **C109** compute_all reports the averages over the true motion — Composition of C67, C69 and the exact dictionary; averages as sums over indices.
- **C110** num_neighbours counts the molecules within the radius (refuted) — Contract of freud's query; count is min(9, number within the radius); counterexample with eleven molecules.
- **C111** Making a molecule leaves its arguments alone (refuted) — Heap with arrays and dictionaries; frame condition for everything else.
- **C112** Distances given as integers are accepted (refuted) — Integer and float arrays told apart; geometry over the reals.
- **C113** Each particle has a position and a radius (refuted) — Lookup of every particle in the dictionary left on the heap; counterexamples for unchecked lists.
- **C114** get_types lists the types present in a molecule (refuted) — Insertion sort is a sorted permutation of the keys left on the heap; counterexample.
- **C115** quaternion_rotation gives the angle between two orientations (refuted) — Angle of rotation by the trace of the rotation; cos of the intrinsic distance is the dot product.
- **C116** relative_orientations does not depend on the sign of a quaternion (refuted) — As C115, for every slot of the neighbour list.
- **C117** The legend shows the colours of the plot (refuted) — Contract of bokeh's LinearColorMapper; integer arithmetic on truncated and floored degrees.
- **C118** order_list is an alternative to order_function (refuted) — Case analysis over the type of the classification; counterexamples for float32 and text.
- **C119** The interactive figure shows what is selected — Invariant of the state machine of the figure over histories without exceptions.
- **C120** The play button starts and stops one animation — Parity invariant over histories.
- **C121** A figure offers its own models only (refuted) — Dictionary threaded through the creation of figures; last assignment of a name.
- **C122** Custom molecular relaxations can be given on the command line (refuted) — Composition of the command line model with the process_file model; the first event has no get.
- **C123** Corrupted frames are skipped by run_analysis.order (refuted) — Frames with the outcome of both reads; induction over the trajectory.
- **C124** run_analysis.order reports the fraction of ordered molecules (refuted) — Composition of snapshot, order and frame models; witness of two molecules of two particles.
- **C125** The orientational order is an average over neighbours (refuted) — Arithmetic of means with missing entries; witness.
- **C126** The output of an analysis describes the true motion — Composition of C31, C34, C67, C69, C75, C109 and the process_file model: invariant over the visited frames of all key frames; rounding of distances by contract.
- **C127** Trajectories at constant pressure are analysed in the box of each frame (refuted) — The run equals that of a motion in the first box, for which C126 holds; witness with a box growing from 10 to 12.
- **C128** What the analysis of a gsd file with a number of linear steps writes — Composition of the reader (exp_l on a correct series), HoomdFrame (C51) and C126; the frames of a key frame are the picked sublist.
- **C129** What the analysis of a gsd file without linear steps writes — Composition of linear_ok, HoomdFrame and C126.
- **C130** What the analysis of a lammpstrj file writes — Composition of C64 (text to frames), C66 (steps_max), LammpsFrame and C126; the text determines the frames.
- **C131** create_wave_vector returns the wave vectors whatever was called before — Invariant of the cache: every array belongs to one pair of arguments; induction over the history from the end.
- **C132** An array returned by create_wave_vector belongs to the caller (refuted) — The same invariant with stores into arrays of other owners; counterexample of three events.
- **C133** create_wave_vector computes its values a single time (refuted) — Invariant: the entries used since are distinct and in the given list; counterexample by counting misses.
- **C134** Wave vectors are radially symmetric — Turning permutes the vectors; a sum that equals its own turn is zero; double angles for the squares.
- **C135** calculate_wave_number finds the first maximum of the structure factor — Specification of argmax by induction; affine dependence on the density.
- **C136** The calculated wave number does not depend on the unit of length (refuted) — The answer is on the grid; arithmetic.
- **C137** A wave number can be calculated in every box (refuted) — Distance between faces against range; contract of freud.
- **C138** The output of an analysis without a wave number — Invariant of C126 for a wave number per frame (kw), composed with C135 and C136.
- **C139** A trajectory can be analysed without a wave number if it can be with one (refuted) — The objects of every frame are built before they are looked up; C137.
- **C140** What the analysis of a trajectory file without a wave number writes — The readers of C128-C130 with any way to analyse a list of frames (predicate runs).
- **C141** Thermodynamic quantities are averaged over milliseconds — ThermoModel.read_file against ThermoSpec.table_of (windows, latest, is_mean): slices of the sorted rows are the rows of a window; uniqueness of the table.
- **C142** Every row of a table of thermodynamic quantities is shown (refuted) — From C141: a window with one row has its value as mean; two rows 100000 apart refute.
- **C143** The thermodynamics dashboard shows the selected file (refuted) — Invariant `current src` of all runs; last change of the file name in the trace; two directories with the same name refute.
- **C144** The chosen quantity is kept when another file is selected (refuted) — Case analysis of one action from any state; concrete run refutes.
- **C145** The first tab plots four quantities (refuted) — Keys of default_columns after the start; an empty start directory refutes.
- **C146** A file that cannot be shown changes nothing (refuted) — Every callback leaves the plots or sets both to the table read last; from any state a good file is shown; files with few columns refute.
- **C147** What the command writes — CommandModel composes main, the readers and process_file; options are unique values of the relations of C93, then C128-C130.
- **C148** Every wave number that is accepted can be analysed (refuted) — The constructor of Relaxations raises for every frame (division by zero, or rounding keeps the sign and the threshold is negative); induction over the frames.
- **C149** Key frames are those of the command line for every format (refuted) — The reader of lammpstrj does not get the options: equality of the runs; an example file with a frame at the interval refutes.
- **C150** A file that is no trajectory is refused with a message (refuted) — Case analysis of the suffix.
- **C151** comp-dynamics followed by comp-relaxations — PipelineModel turns the tables of process_file into those of compute_relaxations. The aggregation of the dynamics never raises (groups are not empty); the groups of the molecular table are the summaries; positivity of the times because the distance at time 0 is 0; C49 and C100.
- **C152** Relaxation times do not depend on the file name (refuted) — A key with NaN equals no key, so no group has it.
- **C153** StructRelaxations averages over the particles of a molecule (refuted) — StatusModel reshapes the status of first_init; C31 for each particle.
- **C154** A molecule with a particle that has not relaxed is marked (refuted) — The sum of n numbers up to the mark is n times the mark only if all are the mark.
- **C155** A status keeps its values (refuted) — Heap of arrays; the object is simulated by the values of MolRelaxModel over any calls.
- **C156** frame_interval applies to every kind of trajectory (refuted) — OpenModel chooses by path_suffix between open_gsd (C21) and parse_lammpstrj (C64); extensions are specified without path_suffix.
- **C157** Wrong arguments of open_trajectory are reported (refuted) — C21_bad_arguments lifted to file names; independence of the arguments for lammpstrj.
- **C158** A file name of no known kind is reported (refuted) — path_suffix is characterised both ways by the extension of the last part of the path.
- **C159** The ordering does not depend on origin and periodic images — NeighModel composes compute_neighbours with OrderModel; distances in the periodic plane are specified by near (some image closer than rho), so that lists of nearest neighbours of two configurations with the same view are equal (no ties) or permutations (clear cut).
- **C160** The ordering follows the names of the molecules — The view of molecule a of the reordered configuration is that of molecule sigma(a).
- **C161** The ordering is local — Two configurations with the same surroundings of a molecule have the same view from it.
- **C162** The machine learning ordering depends on the orientations only (refuted) — C116 composed with the neighbour search and a threshold on the first angle.
- **C163** What create_orient_ordering calls ordered — From C82 (planar orientations) and the contract of the neighbour search; the list of neighbours is unique up to order where it is clear cut (NeighProofs.view_perm).
- **C164** The order parameter is the average over the neighbours — Same; bounds of the value; counterexample with two molecules.
- **C165** --log-file writes the log to the file — State machine of the logging module; case distinction on which callback runs first.
- **C166** -v chooses which messages are logged — As C165.
- **C167** figure -v and the loggers of libraries — Effective level by induction on the name of the logger.
- **C168** Where the exponential fit starts — Characterise the accumulated minimum (closest) by first_closest; then the calls are the only places where the two runs could differ.
- **C169** The relaxation time of an exact decay, with scipy's Newton iteration — Convexity of the decay: a Newton step never passes the root; from a start within 0.15 of 1/e the distance contracts quadratically, so 20 steps suffice.
- **C170** The columns of the table of relaxations — Characterise the filtered list of columns by an inductive relation; groups as in C48/C100.
- **C171** How a wrong definition of a relaxation is rejected — Inductive list of faults in order, equivalent to make_relax failing; induction on the list of definitions.
- **C172** A rejected list of definitions leaves the relaxations as they were — Counterexample; induction on the definitions before the faulty one.
- **C173** Every number of a LAMMPS frame stands in the file — Invariant of the arrays under storing; counterexamples with arbitrary memory.
- **C174** Bad atom lines are reported — Prefix of good atom lines keeps arrays of length n; then one step that fails; counterexample with id 0.
- **C175** Which parameters give a file name — Case analysis on the values in the order of evaluation; inductive first fault.
- **C176** An empty quantity has no relaxation — Computation; the fits are parameters that are never called.
- **C177** What a Dynamics object needs — The attributes and dyn_ok are invariant under frames; structural relaxation total for a molecule with particles.
- **C178** An input that cannot be opened keeps the output of order — Case analysis.
- **C179** Classes are told apart by their colours — np.unique is sorted and without repetition; the places of classes are injective; entries of the tiled column by C89.
- **C180** A class has the same colour in every figure — Place of a class is its first place among the factors; counterexample with two frames.
- **C181** A figure keeps showing its frame — Sources as a heap; frame lemma of plot_frame.
- **C182** The relaxation time does not depend on the unit of time — C169 in both units; counterexample by evaluating the first step of Newton's method with bounds of exp.
- **C183** Every relaxation has its column — dget of the columns after dset and reset_index; induction over the key frames; counterexamples by computation.
- **C184** Equal molecules have the same shape — Constructors depend on the values of numbers only; periodicity of sin and cos.
- **C185** The text of a Trimer tells which one it is — Cut the text at commas and brackets, contract of format() with an instance.
- **C186** A later decay is reported as a later relaxation time — C48_labels on the rows as written; counterexample of 8193 rows by computation on Z.
- **C187** Deleting an attribute of the parameters — Case analysis of delattr; dictionaries without duplicates.
- **C188** Reading a gsd file with a senseless interval or number of steps — Unreadable frames are skipped (induction); errors of the step series (C13).
- **C189** A LAMMPS frame without positions ends the analysis with KeyError — C64 (what the parser gives for a text that was written), induction over the frames.
- **C190** Correlation functions are bounded in floating point arithmetic — Sums of n numbers in [lo, hi] stay in [n lo, n hi] because these are kept by the rounding; induction over the grouping.
- **C191** Averages do not depend on the numbering of the molecules in floating point arithmetic — Calculus of relative errors of nonnegative numbers; counterexample with Coq.Floats.SpecFloat.
- **C192** alpha is at least -1/2 in floating point arithmetic — The same calculus and Cauchy-Schwarz; counterexample with SpecFloat.
- **C193** No motion is lost over many frames — Induction over the frames; a fixed point of the subtraction of SpecFloat.
- **C194** One molecule in ten is called mobile — N*0.1 is between k and k+15/16, both kept by the rounding.
- **C195** A caller may reuse its arrays — Heap of arrays; invariant that results of all objects are distinct arrays and not frames; simulation of the models with values step by step.
- **C196** An array got from delta_translation keeps its values — Addresses of results never change; values kept by the simulation of C195.
- **C197** Positions may be integers — Case distinction on the type of the elements.
- **C198** molecule2particles leaves its arguments alone — Heap; cases of np.allclose.
- **C199** Relaxation times of a LAMMPS trajectory — Composition of C147_lammps with C151_relaxations; all orientations are 1, so by induction over the frames all angles stay the same.
- **C200** The complete frames of an unfinished lammpstrj file are analysed — C65, C102, C174 for the parser; the invariant of the write cache (C23) for what is saved; C130 for the same file without the broken end.
- **C201** steps_max cuts the trajectory off — Two runs of each reader side by side: the loops agree on the common part, and the first later frame stops the longer run.  For the exponential reader the series of steps is that of C07 for both, since the last snapshot of the shorter file is at step m.
- **C202** Same motion, same analysis — A general simulation lemma for process_file (SimProofs.v): related objects give related rows, so the outcomes are related.  The relation for C202 is equality of the sums of displacements and rotations; the previous positions may differ by the shift and by periods, which Box.wrap removes.
- **C203** Unit of length — The same simulation lemma with the sums of displacements scaled by a; each column is a homogeneous function of the displacements.
- **C204** Simulations that start at another step — The readers commute with the shift of the steps (linear_loop: t mod K is unchanged); the films differ in time only, and the simulation lemma of C202, with equality for places and signs, needs no contract.  Refutations by concrete files.
- **C205** Frames in between do not matter — Induction along the trajectory with the invariant of C126: the object after a frame is that made of the true motion since the first frame, so the row is a function of two frames.  First passage times by C31 and inclusion of the observations.
- **C206** Numbering of the molecules — Simulation: renumbering commutes with every step of the analysis, by reorder lemmas for each array operation; sums and means by permutation.  overlap: the set of the largest tenth is unique without ties.  struct: two molecules of two particles as a counterexample.
- **C207** Unit of time — Simulation of the two runs (SimProofs.process_sim): the states are related by multiplying init_time and all times but the mark; comparisons s > t are preserved below the limit.  The linear reader commutes with the factor by induction on the file.
- **C208** Voronoi neighbours of the periodic configuration — If p is closest to x among the buffered points, then it is among all images: walk from p to x; an image closer to x than p would be within 2 r of p on the first part of the segment (dense), hence in the buffer.  So the edges of p are the same, and the ridges that lead away from p are in bijection with its neighbours.  Refutation: five molecules close together, the cell of the outer one reaches half way through the box.
- **C209** The ordering by the number of neighbours follows the configuration — Translations map edges to edges; a renumbered and shifted configuration has the same set of images up to a translation, so particle f i has the translated neighbours of particle i; by C208 both runs count them.
- **C210** The buttons of the figure offer what the directory has, in numerical order (refuted) — Invariant: the keys of the nested dictionaries are distinct on all levels; with is_full (C92) the lists offered are their sorted keys.  Strings of digits of equal length compare as their numbers.
- **C211** Every model given to the figure can be chosen (refuted) — add_under gives the function found under each stem; the labels are the keys of the dictionary in every state.
- **C212** The windows of one figure server do not disturb each other — Loading the same models again leaves the dictionary as it is (same keys in the same order, under each name the last model), so after the first window it is constant; invariant over the events: each window has the history of its own actions.
- **C213** The analysis does not depend on the directions of the axes (refuted for struct) — AxesProps.v. film (C205) gives rows and summaries as functions of the true motion; these only use norms of displacements and absolute angles; the scattering function is a sum over 360 directions, periodic, so that it can be shifted and reversed. Counterexample for struct evaluated through the whole analysis.
- **C214** Allowing more key frames only adds key frames — MoreKeysProps.v. The specification of the series determines it (C09_determined); the starts for M are the first M of those for M' (induction over positions, using that each step has an earlier start); both readers return the frames that C18/C19 say, in file order; C26 turns equal frames into equal rows.
- **C215** Continuing a simulation only adds rows (refuted for the last step) — ContinueProps.v. Readers on a longer list of frames return a longer list (induction); series up to different last steps agree below the smaller one (induction over steps, ranks of the starts); process_file on a longer list of frames has a longer list of rows.
- **C216** The tables of an output file belong to the same analysis (refuted) — StoreModel.v, StoreSpec.v, StoreProps.v. A store of three tables, commands as transitions; induction over the sequence of commands; the bounded loss of C23 for the crash.
- **C217** Running a command again changes nothing — RepeatProps.v. Simulation of two runs on different files: the cache is the same, and the tables are the same from the first write on; over is idempotent and associative; induction over the script.
- **C218** A part of the molecules — Selecting molecules commutes with every update of TrackedMotion, of the relaxation arrays and of Dynamics (elementwise operations); the summaries and sums of the selections follow. Closed example of twenty molecules for alpha.
- **C219** Relaxation times that must be in order — earliest is monotone in the threshold; the last exit is at or before the first escape, which is the first passage of the cutoff when times do not decrease; a simulation shows that all default relaxations see one history of distances and one of rotations, whatever was rejected.
- **C220** A system made of copies of a system — means over a list repeated m times, in any order, are the means over the list; the state after the frames of the copied system is the copied state (as for parts of a system); the twelve averages are means, or quotients of means. The overlap by a counterexample with 15 molecules.
- **C221** A film shown backwards — small steps are symmetric, so the reversed list of true states is again slow; by the invariant of C109 both objects hold the differences of the same two states, with opposite signs; every column but struct is even in them.
- **C222** A frame that occurs twice — the wrap of 0 is 0 by the contract (an image within half a box), q/q is one and its Euler angles are 0, so the motion is kept; first and last passage updates are idempotent molecule by molecule (all states of the last passage); induction over the frames before.

## What is modelled

| Code (src/sdanalysis) | Model | Simplifications |
|---|---|---|
| StepSize.py | StepSizeModel | none for integers; generator as state machine |
| read/_gsd.py | GsdModel | gsd library by its read outcomes |
| dynamics/relaxations.py (molecular relaxations) | MolRelaxModel | distances are inputs, comparisons exact |
| read/_read.py WriteCache | WriteCacheModel | HDF5 as a list of rows |
| read/_read.py process_file | ProcessModel, ProcessPathModel | analysis objects are parameters |
| relaxation.py | RelaxationModel, RelaxFitModel, RelaxFullModel, RelaxTableModel | curve_fit, newton, pandas by contract; reals |
| frame.py | FrameModel | arrays as lists |
| read/_lammps.py | LammpsModel, PyStr | ASCII text; float() by contract |
| dynamics/_util.py (TrackedMotion, molecule2particles) | MotionModel, RVec | over the reals; float32 rounding not modelled |
| dynamics/dynamics.py (Dynamics) | DynModel | over the reals; the box is given |
| params.py, util.py (file names) | ParamsModel | exact numbers; POSIX paths as strings |
| order.py | OrderModel | over the reals; freud's neighbour lists are inputs (see NeighModel) |
| molecules.py | MoleculeModel | over the reals; arrays of N x 3, N > 0; moment_inertia_scale and repr not modelled |
| util.py (quaternions) | UtilModel | over the reals; float32 rounding not modelled |
| figures/configuration.py, legend of figures/interactive_config.py | ConfigModel | columns of data; drawing by bokeh not modelled |
| figures/interactive_config.py (TrimerFigure) | FigureModel | state machine of user actions; layout and styles not modelled; files do not change meanwhile |
| main.py (options, comp_dynamics) | MainModel | command line already split into options and values; path checks and logging not modelled |
| run_analysis.py | RunModel | over the reals; text of the numbers not modelled |
| process_file with Dynamics, TrackedMotion and Relaxations together | EndModel | frames with the list of their key frames (as in ProcessModel); two-dimensional molecule; distances rounded when compared |
| a gsd file and process_file together | EndGsdModel | a snapshot has orientations, as gsd fills them in; reading a frame gives a snapshot or an exception |
| a lammpstrj file and process_file together | EndLammpsModel | numbers of the file as reals; conversion to single precision an idempotent function |
| wave vectors and wave numbers: `create_wave_vector` with its `lru_cache` (128 entries by recency, arrays by reference, stores by callers), `_static_structure_factor`, `calculate_wave_number` | WaveModel | calls with keyword arguments (other cache keys), NaN and rounding not modelled |
| figures/thermodynamics.py (all but drawing) | ThermoModel | reals and NaN, no infinities; integer steps, 5 ns each exactly; glob and read_table are the parameters ls and content; bokeh widgets call callbacks at once on a change of value; exceptions of callbacks are logged |
| main.py:111-165 with _read.py:82-195 (whole program) | CommandModel | rational wave numbers; the paths are parameters gsd_of and text_of; the command line is split already; if the name and the reader both fail the error of the reader is shown |
| main.py:168-182 after process_file (_read.py:57-79, 159-191) | PipelineModel | all summaries have the columns of the first; infinite temperatures are text in the keys; the rows of the table dynamics are labelled from 0 in each chunk of 8192 |
| relaxations.py:220-221, 291-305 (StructRelaxations, aliasing of a status) | StatusModel | exact means; only the array _status has an address |
| _read.py:198-242 (open_trajectory by file name) | OpenModel | a file is what gsd reads in it and its text; OSError is OtherError |
| order.py:89-147, 174-262 (from box and positions on) | NeighModel | freud's NearestNeighbors by contract (NeighSpec.nearest_list); its RuntimeError for a box smaller than twice the radius is not modelled; configurations that are not planar are not covered by the contract |
| main.py:22-62, 185-190 (logging) | LogModel | state of Python's logging module and order of click's eager callbacks; text of messages not modelled |
| relaxation.py:230-238 (scipy.optimize.newton) | NewtonModel | over the reals; both versions of the stopping test; rounding and overflow not modelled |
| figures/configuration.py:45-83, 162-213 (plot_circles, plot_frame) | PlotModel | bokeh by contract: one circle for each row, factor_cmap by place, gray otherwise; factors are strings; sizes, tools and hover text not modelled |
| read/_read.py:175-191 (columns of molecular_relaxations) | ClashModel | pandas by contract: assignment replaces a column, reset_index raises ValueError for a name that is taken |
| molecules.py:154-158 (Trimer.__repr__) | ReprModel | format() of numbers by contract, with an instance |
| dynamics/dynamics.py:179-303, 410-446, _util.py:149, order.py:85-86 in floating point | FloatModel | an arbitrary rounding after every operation, any order of additions; IEEE arithmetic by Coq.Floats.SpecFloat (no primitive floats, no axioms) for counterexamples; no underflow and overflow |
| dynamics/_util.py:42-54, 108-156, dynamics.py:136-142 with shared arrays | AliasModel | arrays of vectors and of quaternions have addresses; views of the same memory are one address; arrays of objects that could not be made are not counted |
| order.py:312-315 | VoronoiModel | freud's buffer and qhull by contract (VoronoiSpec); points in the plane over the reals; the ridges are an argument |
| order.py:150-171 | VoronoiModel.create_neigh_ordering | neighbours is an int |
| main.py:193-234, interactive_config.py:452-456 | SessionModel | bokeh's Server by contract: one make_document per window, callbacks one at a time; --ip only reaches bokeh |
| process_file and compute_relaxations as transitions of the output file, _read.py:82-195, relaxation.py:428-499, main.py:117-182 | StoreModel.v | compute_relaxations is a parameter of the two tables it reads (modelled in RelaxationModel.v and PipelineModel.v); the file exists and can be opened; a crash inside to_hdf is not modelled |

External contracts that theorems rely on are explicit hypotheses, each with an instance
that satisfies them:

- `scipy.optimize.curve_fit`: `fits_lines` (least squares for a line), exact data for the
  exponential; may raise RuntimeError otherwise.
- `scipy.optimize.newton`: a returned value is a root.
- `float()` of a string: any partial function, or a parser of the printed numbers.
- pandas `groupby`/`mean`/`hmean`: one row per key, over the values of that key.
- `freud.box.Box.wrap`: `wrap_ok` (an image of the vector within half a cell in each lattice
  direction); instance `freud_wrap`.
- rowan's quaternion functions: the textbook formulas over the reals, `to_euler` as in rowan 1.2;
  its value in gimbal lock is a parameter.
- `np.argsort`: `argsort_ok` (a sorting permutation, ties arbitrary); instance `sort_index`.
- `rowan.geometry.intrinsic_distance`: norm of the logarithm; for a negative real quaternion its
  angle may be 0 or pi.
- freud `NearestNeighbors`: `nn_ok` (at most k of the molecules within the radius, all if no more);
  instance `some_nn`. `r_sq_list` holds -1 for a missing neighbour.
- bokeh `LinearColorMapper`: divides the range evenly among the palette.
- numpy: comparing an array of numbers with a string is false everywhere; `logical_not` of text
  is a TypeError.
- bokeh: assigning a property calls the registered functions before the assignment returns, if the
  value changed; an exception in a handler is logged and the document goes on.
- gsd `trajectory[i]`: negative indices count from the end, IndexError outside.
- click: the last value of an option counts; unknown options and values that cannot be converted
  end the program with the usage message.
- `yaml.parse(text)`: a generator whose first element is the event of the start of the stream, or
  which raises a YAML error.
- iterating over a gsd trajectory reads frame 0, 1, ... until IndexError.
- floating point: distances and thresholds are rounded with a relative error of at most u < 1
  (`rounds`); instance `fl100`.
- freud `RDF(dr, rmax).compute`: RuntimeError if rmax exceeds half the distance between opposite
  faces of the box (cell list), otherwise as many values as radii, at least two (`rdf_ok`);
  instance `histogram`.

## Assumptions per theorem (output of Print Assumptions)

- Closed under the global context:
  C01_exp_sequence_grid, C01_exp_sequence_complete, C02_generate_steps, C03_termination_refuted, C03_generate_steps_hangs, C03_termination_partial, C04_shift, C05_gap_bound, C06_linear_prefix, C07_C08_C09_series, C09_generator_count, C09_determined, C10_even_keyframes, C11_single_generator, C12_no_stale_state, C13_accepts_all_refuted, C13_errors_partial, C14_iter_trajectory, C14_readables, C15_num_steps, C15_exhaustive, C16_linear_reader, C17_keyframe_max_refuted, C17_keyframe_max_partial, C18_exponential_sound, C18_exponential_errors, C19_exponential_complete, C20_complete_refuted, C21_open_trajectory, C21_bad_arguments, C22_no_loss, C22_new_table, C22_flush_empties, C22_append_mode, C23_bounded_loss, C24_len_refuted, C24_len_partial, C25_list_refuted, C25_list_partial, C26_keyframes_independent, C27_times_from_first_frame, C28_empty_frames_ignored, C28_failures_do_not_abort, C28_failing_frame, C28_aborts, C29_custom_refuted, C29_custom_partial, C29_default_accumulates, C30_file_or_memory, C30_file_result, C31_first_passage, C31_first_crossing, C32_monotone_and_order, C33_late_relaxation_refuted, C33_late_relaxation_partial, C34_last_passage, C34_escape_is_cutoff, C34_unique, C35_documented_algorithm, C36_final, C37_last_after_first, C38_size_mismatch, C38_always_sized, C38_add, C39_set_mol_relax, C39_defaults, C40_routing, C40_reachable, C41_first_crossing, C41_nan_samples, C41_first_sample, C42_never_relaxed_refuted, C42_never_relaxed_partial, C43_first_maximum, C43_maximum_exists, C43_no_maximum, C44_time_error, C44_value_error, C49_missing_column, C49_groups, C50_means, C50_columns, C51_number_of_molecules, C51_no_positions, C52_hoomd_lengths, C52_lammps_lengths, C52_image_refuted, C53_lammps_box, C53_lammps_orientation, C54_filename_round_trip, C55_round_trip_refuted, C56_filename_fields, C56_fields_exist, C56_fields_determine, C57_readme_refuted, C57_name_refuted, C57_unreadable_never_analysed, C57_first_frame_ValueError, C57_readable_partial, C58_set_filename_vars, C58_unreadable_name, C58_succeeds, C59_temp_context_restores, C59_reachable, C60_temp_context_refuted, C60_exact_partial, C61_paths, C61_assign, C62_parse_directory, C62_unusable_file, C63_freud_box, C63_frame_boxes, C64_parse_back, C64_every_entry, C64_order_irrelevant, C64_dos_line_ends, C65_wrong_header, C66_steps_max, C66_no_limit, C86_equality_refuted, C86_equality_partial, C86_parameters_partial, C89_both, C91_frame_refuted, C91_range_refuted, C91_bounds_partial, C91_stays_partial, C91_recovers_partial, C92_selected_file, C92_every_file, C92_no_files, C93_options_refuted, C93_options_partial, C93_usage_partial, C93_error_partial, C94_kept_lists_refuted, C94_kept_lists_partial, C95_replaces_refuted, C95_replaces_partial, C96_stale_rows_refuted, C96_stale_rows_partial, C101_always_a_length_refuted, C101_always_a_length_partial, C102_cut_refuted, C102_cut_partial, C103_tilt_refuted, C103_tilt_partial, C104_rows_labelled, C119_shown, C120_playing, C121_own_refuted, C121_replaced_refuted, C121_label_partial, C121_fault, C122_custom_refuted, C122_never_works, C153_by_molecule_partial, C153_by_particle_refuted, C154_none_partial, C154_unrelaxed_refuted, C155_last_partial, C155_live_partial, C155_snapshot_refuted, C156_gsd_partial, C156_lammps_partial, C156_interval_refuted, C157_gsd_partial, C157_lammps_partial, C157_reported_refuted, C158_missing_partial, C158_silent_partial, C158_unsupported_refuted, C165_file_partial, C165_file_refuted, C166_level_partial, C166_level_refuted, C167_interactive, C167_libraries, C170_columns, C170_missing, C171_fault, C172_unchanged_refuted, C172_before_partial, C173_origin_partial, C173_entries_refuted, C174_bad_atom_partial, C174_no_id_partial, C174_ids_refuted, C175_file_name, C175_no_molecule, C176_empty_refuted, C176_threshold_refuted, C180_same_partial, C181_kept_partial, C183_columns_partial, C183_columns_refuted, C185_text_partial, C185_text_refuted, C187_delete, C188_zero, C188_negative, C210_offers_partial, C210_numerical_partial, C210_numerical_refuted, C211_models_partial, C211_models_refuted, C212_windows, C212_determined, C214_exponential, C214_linear, C214_exponential_rows, C214_linear_rows, C214_mixed_file_refuted, C215_linear, C215_steps_max, C215_unfinished_partial, C215_unfinished_refuted, C216_last_analysis_partial, C216_relaxations_partial, C216_interrupted_partial, C216_mixed_refuted, C216_crash_refuted, C216_stale_refuted, C217_independent, C217_again, C217_script, C217_order_refuted, C219_distances, C219_cutoff, C219_cutoff_refuted
- `ClassicalDedekindReals.sig_forall_dec`:
  C88_positions, C88_mismatch, C177_init, C189_columns
- `ClassicalDedekindReals.sig_forall_dec`, `FunctionalExtensionality.functional_extensionality_dep`:
  C76_fraction_refuted, C76_fraction_partial, C77_overlap_refuted, C77_overlap_partial, C77_three_refuted, C78_own_motion_partial, C84_centred, C110_count_refuted, C110_count_partial, C111_arguments_refuted, C111_arguments_partial, C112_integer_refuted, C113_radii_refuted, C113_radii_exact_partial, C114_types_refuted, C114_types_partial, C141_windows, C142_shown_partial, C142_shown_refuted, C143_selected_partial, C143_distinct_names_partial, C143_name_partial, C143_selected_refuted, C144_quantity_partial, C144_quantity_refuted, C145_plots_partial, C145_plots_refuted, C146_recovers_partial, C146_reported_partial, C146_unchanged_refuted, C190_bounds, C190_start, C191_numbering_refuted, C192_alpha_partial, C192_alpha_refuted, C192_minus_one, C193_track_partial, C193_track_refuted, C194_tenth, C198_refuted, C198_kept_partial, C198_unrotated, C198_zeros_refuted, C220_overlap_refuted
- `ClassicalDedekindReals.sig_forall_dec`, `ClassicalDedekindReals.sig_not_dec`, `FunctionalExtensionality.functional_extensionality_dep`:
  C45_slope, C45_few_samples, C45_least_squares, C47_lengths, C47_growth, C47_peak, C47_decay, C47_line, C48_simulation_times_refuted, C48_labels_partial, C72_bounded, C73_inequalities, C75_all_quantities_partial, C78_own_motion_refuted, C78_no_turn_partial, C79_axis_refuted, C79_axis_partial, C83_missing_refuted, C83_distances_partial, C85_not_a_number, C87_unit, C88_rigid, C90_palette, C90_exact, C97_other_cases, C99_gaps_refuted, C99_without_sigma_partial, C100_all_keyframes_refuted, C100_rows_partial, C108_planar_rotation, C112_dimer_partial, C112_three_refuted, C113_radii_partial, C114_classes, C117_legend_refuted, C117_legend_partial, C117_zero_refuted, C131_wave_vectors, C132_own_array_partial, C132_own_array_refuted, C133_computed_once_partial, C133_computed_once_refuted, C134_symmetry, C134_scattering, C135_wave_number, C135_density, C135_same_function, C136_units_partial, C136_units_refuted, C136_hundred_refuted, C137_every_box_partial, C137_every_box_refuted, C152_unnamed_partial, C168_start, C168_exists, C176_empty_partial, C184_shape_partial, C184_shape_refuted, C186_row_partial, C186_row_refuted, C191_error_partial, C191_numbering_partial, C204_exponential_refuted, C206_overlap_partial, C206_struct_refuted, C208_voronoi_partial, C209_counted, C209_moved
- `ClassicalDedekindReals.sig_forall_dec`, `ClassicalDedekindReals.sig_not_dec`, `Classical_Prop.classic`, `FunctionalExtensionality.functional_extensionality_dep`:
  C46_derivatives, C67_true_displacement, C68_modulo_box, C68_single_update, C69_turns_accumulate, C70_orientation_gaps, C71_reference_frame, C72_states, C74_renumbering, C75_all_quantities_refuted, C75_nine_refuted, C80_bounds, C80_fully_ordered, C81_rotation, C81_sign, C82_planar, C85_trimer, C87_round_trip, C87_any_angle, C87_bounds, C89_columns, C89_categories, C97_exact_decay, C98_error_sign_refuted, C98_error_partial, C98_negative_refuted, C99_sigma_refuted, C105_wrong_size_refuted, C105_wrong_size_partial, C106_rejected_refuted, C106_rejected_partial, C107_axis_refuted, C107_axis_partial, C109_true_averages, C115_rotation_refuted, C115_rotation_partial, C115_only_zero_partial, C116_relative_refuted, C116_relative_partial, C118_alternative_refuted, C118_alternative_partial, C123_skips_refuted, C123_rows_partial, C123_stops_partial, C124_fraction_refuted, C124_fraction_partial, C125_mean_refuted, C125_mean_partial, C126_trajectory, C126_exact_times, C127_changing_box_refuted, C127_unwrapped_partial, C128_gsd_exponential, C129_gsd_linear, C130_lammps, C138_default_wave_number, C139_tilted_partial, C139_tilted_refuted, C140_gsd_exponential, C140_gsd_linear, C140_lammps, C147_exponential, C147_linear, C147_lammps, C148_nonpositive_partial, C148_wave_refuted, C149_lammps_partial, C149_keyframes_refuted, C150_suffix_partial, C150_suffix_refuted, C151_relaxations, C151_commands, C151_commands_linear, C152_unnamed_refuted, C159_relative, C159_ml, C159_order, C160_relative, C160_order, C160_ml, C161_local, C162_sign_partial, C162_sign_refuted, C163_ordered, C163_threshold, C164_average_partial, C164_average_refuted, C169_accurate, C169_never_late, C177_struct, C178_output, C179_apart_partial, C179_apart_refuted, C180_same_refuted, C181_refused_partial, C181_kept_refuted, C182_unit_partial, C182_unit_refuted, C195_values_partial, C195_process_file, C195_buffer_refuted, C195_refuted, C196_kept_partial, C196_live, C196_refuted, C197_refuted, C197_floats_partial, C197_added_refuted, C199_lammps_partial, C199_lammps_refuted, C200_lost_partial, C200_refuted, C201_linear_partial, C201_exponential_partial, C201_lammps_partial, C201_refuted, C202_same_motion, C203_unit_of_length, C204_gsd_partial, C204_lammps_partial, C204_refuted, C205_films, C206_renumbered_partial, C207_film, C207_gsd, C208_sparse_refuted, C213_axes_partial, C213_struct_refuted, C218_times, C218_averages, C218_alpha_refuted, C219_default, C220_copies, C221_backwards, C221_struct_refuted, C222_twice

All of these axioms are declared in Coq's standard library (Reals, Logic).

{"id": "C01", "title": "Live list behaves as an ordered set of stable indices", "statement": "For every history of LinkedList operations (from/new, push, del, connect_all, starting and advancing iterations), the list behaves like the pair (content vector, ordered sequence of live indices): push appends one fresh index equal to the previous length, a successful del removes exactly the given index from the live sequence and keeps the order of the others, contents are never moved or lost, and the forward chain, the backward chain, head, tail and the alive flags all describe that same sequence.", "quantifier": "every finite sequence of operations on a list of any length and any element type", "why_tests_cant": "the link surgery in del/push has head/tail/middle/singleton cases whose interaction over arbitrary histories is unbounded", "anchors": ["src/iterator.rs: LinkedList::{new,from,push,del,connect_all}, Node"]}
{"id": "C02", "title": "del rejects exactly the dead and out-of-range indices, and a rejected del changes nothing", "statement": "del(idx) returns Err iff idx is not the index of a live element, and in that case the list, its contents and its running iterations are left exactly as they were; it never panics on a list obtained through the public API.", "quantifier": "every reachable list and every usize index", "why_tests_cant": "the set of reachable lists is infinite and double deletions may be arbitrarily far apart", "anchors": ["src/iterator.rs: LinkedList::del"]}
{"id": "C03", "title": "Single iteration visits every live element exactly once in order, also when elements are deleted during it", "statement": "After into_iter, repeated get/get_mut/enumerate/enumerate_mut/indicies return the live elements in order, each once, then None forever; if elements are deleted while the iteration runs, an element not yet returned is returned later iff it is not deleted, and no dead element is ever returned.", "quantifier": "every reachable list, every interleaving of advancing steps with successful deletions", "why_tests_cant": "the interleavings of deletions and steps are unbounded", "anchors": ["src/iterator.rs: into_iter, get, get_mut, enumerate, enumerate_mut, indicies, del"]}
{"id": "C04", "title": "Double iteration visits every unordered pair of live elements exactly once", "statement": "After into_double_iter on a list that is not modified, repeated get_double/enumerate_double/indicies_double return every pair (i,j) with i before j in live order exactly once, in lexicographic order, then None; it does not panic.", "quantifier": "every reachable list of any length", "why_tests_cant": "number of pairs and deletion patterns preceding the iteration are unbounded", "anchors": ["src/iterator.rs: into_double_iter, get_double, enumerate_double, indicies_double"]}
{"id": "C05", "title": "Double iteration with removal of the just-returned second element is complete and never returns a dead element", "statement": "If, during a double iteration, the only modification is deleting the second element of the pair just returned (the coalescence loop), then both members of every returned pair are alive when returned, no pair is returned twice, the iteration terminates, and each pair of elements that are both still alive at the end was returned.", "quantifier": "every reachable list and every decision function for which pairs trigger deletion", "why_tests_cant": "decisions depend on arbitrary data, giving exponentially many deletion patterns", "anchors": ["src/iterator.rs: indicies_double, del", "tests/merge_fpt.rs: merging loop"]}
{"id": "C06", "title": "Which deletions a double iteration tolerates", "statement": "During a double iteration about to return (i,j), deleting a live element leaves what is still to come unchanged except for the pairs of that element EXACTLY when the deletion is harmless: the element is not i (unless exactly one live element lies between i and j) and is not j as the last live element (unless at most one lies between). With any number of harmless deletions the iteration returns every pair of survivors once, in lexicographic order, and nothing else than pairs live at the start. The condition is sharp: other deletions can end the iteration early or return an element paired with itself.", "quantifier": "every reachable list, every deletion during the double iteration", "why_tests_cant": "depends on the relative position of cursor, tail and deleted node", "anchors": ["src/iterator.rs: del, get_double"]}
{"id": "C07", "title": "connect_all restores every element ever inserted", "statement": "After connect_all the live sequence is 0..n-1 in index order with all contents unchanged, whatever was deleted before, and the result is link-for-link what from() would build for the same contents; it never panics.", "quantifier": "every reachable list", "why_tests_cant": "arbitrary previous deletion history", "anchors": ["src/iterator.rs: connect_all, from, Node::list_with_length"]}
{"id": "C08", "title": "Coalescence conserves total size", "statement": "For merging agents merge(i,j) with i and j distinct and alive (and a Brownian i) succeeds, kills exactly j, and the total size of the live agents is unchanged; hence any sequence of such merges keeps the total size. Every other call is described too: a dead i or i=j loses j's size, a dead j gives Err after i has already grown, an index out of range panics, and an agent that cannot grow gives Err with j still alive.", "quantifier": "every reachable list of merging agents, every sequence of merges", "why_tests_cant": "unbounded merge histories and sizes", "anchors": ["src/iterator.rs: LinkedList::merge", "src/agent_mod/cont_passive_merge.rs: Merge::{size,add_size}"]}
{"id": "C09", "title": "Clearing displacement lists zeroes exactly the live entries", "statement": "LinkedList<Position<T>>::clear leaves the links alone and turns every coordinate of every live position into 0, keeping dimensions; dead entries are unchanged.", "quantifier": "every reachable list of positions", "why_tests_cant": "any length, dimension and deletion pattern", "anchors": ["src/iterator.rs: clear", "src/position.rs: Position::clear"]}
{"id": "C10", "title": "distance is a metric guarded by dimension", "statement": "Position<f64>::distance returns Err exactly when the dimensions differ; otherwise on exact reals it is non-negative, symmetric, zero iff the positions are equal and satisfies the triangle inequality; in f64 it is exactly symmetric and exactly 0 from a finite position to itself.", "quantifier": "all positions of all dimensions", "why_tests_cant": "continuous input space, unbounded dimension", "anchors": ["src/position.rs: distance, norm, inner_product"]}
{"id": "C11", "title": "Vector arithmetic is coordinatewise and dimension checked", "statement": "Add and Sub on positions of equal dimension give the coordinatewise result and panic on different dimensions; scalar_mul, mut_scalar_mul act on every coordinate; inner_product is the sum of the coordinate products (Err on different dimensions); mut_add/mut_sub agree with Add/Sub when dimensions agree. The in-place operations do not check dimensions: a longer operand is cut to the receiver's length, a shorter one panics.", "quantifier": "all positions of all dimensions and scalar types", "why_tests_cant": "unbounded dimension; in-place loops index without checking", "anchors": ["src/position.rs: Add, Sub, Numerics::{mut_add,mut_sub,scalar_mul,mut_scalar_mul}"]}
{"id": "C12", "title": "Position text round trip and reading", "statement": "Parsing the printed text of a non-empty position gives the position back (given that number texts round trip), and distinct positions print differently. Parsing is total: around the core only white space and parentheses are ignored, the core is cut at commas and colons, and the coordinates are the values of the pieces, where a piece that is not a number is silently read as 0. A pair (t,x) of a process file is read exactly when it has two numeric pieces; a non-numeric piece panics, another number of pieces is Err.", "quantifier": "all non-empty positions / all strings", "why_tests_cant": "string space is infinite", "anchors": ["src/position.rs: Display, LowerExp, FromStr"]}
{"id": "C13", "title": "Integer lattice distances: exact, or exactly this overflow", "statement": "Position<i32>::distance and norm are the correctly rounded f64 value of the true Euclidean distance and taxi_distance is the true value whenever the i32 intermediate results fit (distance and norm: sum of squares up to 2^53); in a debug build the call panics exactly when one of them overflows, and in a release build the result is given by the two's complement formulas. Different dimensions give Err.", "quantifier": "all i32 positions", "why_tests_cant": "overflow region cannot be enumerated", "anchors": ["src/position.rs: impl Position<i32>"]}
{"id": "C14", "title": "Constant-step clock", "statement": "into_iter on a ConstStep yields 0, dt, dt+dt, ... (repeated addition); consecutive values never decrease, every yielded value is <= tmax, iteration ends at the first value exceeding tmax and, in diff form, each item (t,dt) satisfies next t = t + dt.", "quantifier": "all dt, tmax, including rounding", "why_tests_cant": "number of steps is unbounded and rounding matters", "anchors": ["src/time_mod/mod.rs: ConstStep, TimeIterator, TimeDiffIterator"]}
{"id": "C15", "title": "Exponential-step clock keeps its step within bounds", "statement": "For every exponential clock a program can build with numbers (new or convert_from, then set_tmax and set_inc; set_inc on lengths from 2 on) every step dt reported lies in [dt_min, dt_max], steps never decrease, times start at 0, never decrease, never exceed tmax, and t_{k+1}=t_k+dt_k where dt_k is the step reported with t_k; on exact reals the k-th step is min(dt_max, dt_min*inc^floor(k/length)). The plain and the diff iterator agree. (With length 1, set_inc lowers inc to 1/2 and steps fall below dt_min.)", "quantifier": "all parameters accepted by the constructor and set_inc, all step counts", "why_tests_cant": "unbounded step counts, multiplicative growth", "anchors": ["src/time_mod/mod.rs: ExponentialStep"]}
{"id": "C16", "title": "renew restarts the clock", "statement": "After any number of steps, renew makes the iterator produce exactly the sequence a fresh iterator with the same parameters produces.", "quantifier": "all iterators after all histories", "why_tests_cant": "arbitrary histories", "anchors": ["src/time_mod/mod.rs: renew"]}
{"id": "C17", "title": "When the clock ends", "statement": "On exact reals the constant clock yields exactly floor(tmax/dt)+1 values and the exponential clock at most tmax/dt_min+1. In f64 a constant clock ends if and only if it never reaches a time within tmax to which adding dt changes nothing; it does end, after at most 4*tmax/dt+1 values, when tmax <= 2^52*dt (likewise for the exponential clock), and there are clocks beyond (dt=1, tmax=2^54) that never end.", "quantifier": "all accepted parameters", "why_tests_cant": "termination is a liveness property over unbounded runs; floating point can stagnate", "anchors": ["src/time_mod/mod.rs: ConstStep::next, ExponentialStep::next"]}
{"id": "C18", "title": "Exactly which parameters the clock constructors and setters accept, and what they build", "statement": "new accepts exactly what is not below 1e-15 (and for exponential clocks dt_max not below dt_min, length >= 1); set_tmax accepts exactly what is not negative, replacing a value below 1e-10 (constant) or 1e-15 (exponential) by f64::MAX; set_inc accepts exactly what is above 1 and caps it at length/2; convert_from panics exactly on a negative tmax or step, inverted steps and (exponential) a length below 10. A rejected call changes nothing and an accepted one changes only what it sets. Numbers accepted by new are positive and ordered. The holes are part of the claim: NaN is accepted, convert_from accepts a zero step (a clock that stays at 0), a clock of length 2 gets inc = 1.", "quantifier": "all f64 (including NaN) and usize parameter values", "why_tests_cant": "input space", "anchors": ["src/time_mod/mod.rs: new, set_tmax, set_inc, convert_from"]}
{"id": "C19", "title": "A successful boundary step ends inside the system", "statement": "Whenever check_bc(pos, dp) returns Ok, the system's own inclusion test accepts the new position, for every number type; on exact reals the new position lies in the ball, cube or cylinder. In f64, for sizes up to 2^1022, finite position and displacement and (ball, cylinder) a norm that does not overflow, it consists of finite numbers inside the bounds. Outside those conditions (NaN displacement, overflowing norm, larger cube) there are calls that return Ok with a NaN position.", "quantifier": "all systems, dimensions, boundary types, positions and displacements", "why_tests_cant": "continuous input space and every coordinate branch combination", "anchors": ["src/system_mod/cont_circ.rs: check_bc, check_inclusion", "src/system_mod/cont_cubic.rs: check_bc", "src/system_mod/cont_cyl.rs: check_bc"]}
{"id": "C20", "title": "Interior moves are not altered", "statement": "If pos+dp is inside, check_bc returns Ok and pos becomes exactly pos+dp (coordinatewise f64 sum).", "quantifier": "all systems, positions, displacements", "why_tests_cant": "continuous input space", "anchors": ["src/system_mod/*: check_bc"]}
{"id": "C21", "title": "Reflection at the spherical wall", "statement": "For the circular system a move to distance s>R ends on the same line through the centre (on the same ray when s<=2R) at distance |2R-s| and is accepted iff s<=3R; otherwise Err(TooLargeTimeStep).", "quantifier": "all radii, dimensions, positions, displacements (exact reals)", "why_tests_cant": "continuous", "anchors": ["src/system_mod/cont_circ.rs: check_bc"]}
{"id": "C22", "title": "Reflecting and periodic cubic walls", "statement": "For the cubic system each coordinate is treated independently: reflecting coordinates beyond a wall are mirrored at it, periodic ones are translated by the period 2L, mixed systems reflect the first d coordinates and wrap the others; moves of at most one reflection/period (|x|<=3L) are accepted, others give Err.", "quantifier": "all side lengths, dims, boundary types, positions, displacements (exact reals)", "why_tests_cant": "continuous, 3 boundary types x 3 branches per coordinate", "anchors": ["src/system_mod/cont_cubic.rs: check_bc"]}
{"id": "C23", "title": "Cylinder walls", "statement": "For the cylindrical system the axial coordinates (length L) and radial coordinates (radius R) are each handled as in C21/C22 and acceptance means inside both.", "quantifier": "all cylinders, positions, displacements (exact reals)", "why_tests_cant": "continuous", "anchors": ["src/system_mod/cont_cyl.rs: check_bc, check_inclusion"]}
{"id": "C24", "title": "Random positions are inside the system", "statement": "random_pos of all systems and random_pos_to_vec of ball and cube only produce positions of the system's dimension inside the system, on exact reals and in f64. The cylinder's random_pos_to_vec produces positions radially inside but within a cylinder of TWICE the length, and is inside the system exactly when the axial samples are in the middle half; a cylinder of radius 0 never returns.", "quantifier": "every random stream, system and dimension", "why_tests_cant": "every stream of random numbers", "anchors": ["src/system_mod/cont_circ.rs, cont_cubic.rs, cont_cyl.rs: random_pos, random_pos_to_vec"]}
{"id": "C25", "title": "When position_out_of_system is outside", "statement": "position_out_of_system returns a position of the system's dimension that the system does not contain: on exact reals always for cubes, balls and cylinders with an axial coordinate, and for cylinders without one exactly if the radius is below 2*length*sqrt(dimension); in f64 for finite sizes (ball: at least 2^-538; below, or for an infinite radius, it can be inside). The in-place version agrees.", "quantifier": "all systems", "why_tests_cant": "all sizes and dims", "anchors": ["src/system_mod/*: position_out_of_system"]}
{"id": "C26", "title": "Dimension mismatches", "statement": "check_inclusion returns Err(InvalidDimension) exactly when the position's dimension does not match. For check_bc the outcome for every combination of dimensions of system, position and displacement is determined: which ones are processed, which ones panic and which ones report InvalidDimension (possibly after the position was changed).", "quantifier": "all systems and positions", "why_tests_cant": "unbounded dims", "anchors": ["src/system_mod/*: check_inclusion, check_bc"]}
{"id": "C27", "title": "What a failed boundary step leaves behind", "statement": "When check_bc returns Err(TooLargeTimeStep) the position has been moved: what is left of it is outside the system by its own inclusion test and the position before the call is lost. (On exact reals the value left is given by C21-C23.)", "quantifier": "all systems, positions, displacements", "why_tests_cant": "continuous", "anchors": ["src/system_mod/*: check_bc"]}
{"id": "C28", "title": "Inclusion means inside", "statement": "On exact reals check_inclusion returns Ok(true) exactly for positions inside. In f64 this is exact for cubes and NaN-free positions; for balls it is exact up to the rounding of the norm for radii up to 2^511; infinite coordinates are never inside. NaN coordinates are reported inside every system, and beyond 2^511 a point well inside may be reported outside because its norm overflows.", "quantifier": "all f64 positions including NaN and infinities", "why_tests_cant": "special values", "anchors": ["src/system_mod/*: check_inclusion"]}
{"id": "C29", "title": "Type tags survive text round trip, and exactly which texts are read", "statement": "Parsing the printed form of SystemType, BoundaryCond, TargetType, AgentType, MoveType, InitType, InteractType gives the value back and distinct values print differently; TimeType prints its steps with five decimals, so what is read back is the value of that shortened text. For every text and each of the eight parsers it is determined whether it is read (and as what), is an Err, or panics: blank text, for instance, panics in six of them. The default interaction is read back from its text.", "quantifier": "all values (all dimensions/parameters) and all strings", "why_tests_cant": "infinite value and string spaces", "anchors": ["src/system_mod/mod.rs: SystemType, BoundaryCond", "src/target_mod/mod.rs: TargetType", "src/agent_mod/types.rs", "src/time_mod/mod.rs: TimeType"]}
{"id": "C30", "title": "Target detection", "statement": "check_find returns Ok(true) iff the Euclidean distance to the target centre is strictly less than its size, Err iff dimensions differ.", "quantifier": "all targets and positions", "why_tests_cant": "continuous", "anchors": ["src/target_mod/cont_bulk.rs: check_find"]}
{"id": "C31", "title": "Uniform initialisation puts agents inside and off the target", "statement": "In a ball or cube new_uniform and renew_uniform are rejection sampling: they return with the first candidate inside the system and off the target, having consumed exactly the samples up to it, keep all other agent parameters, and do not return only while no such candidate comes; in f64 a success means finite coordinates inside by the system's test and off the target by the target's test. In a cylinder the agent is off the target and radially inside but only within twice the length. An interaction that does not fit is refused before any sample is drawn; a target of another dimension never gives a success.", "quantifier": "every system, target, random stream", "why_tests_cant": "random stream and geometry", "anchors": ["src/agent_mod/cont_passive_indep.rs, cont_passive_merge.rs, cont_passive_exp.rs, cont_passive_lj.rs: new_uniform, renew_uniform"]}
{"id": "C32", "title": "Force is minus the gradient of the potential", "statement": "For exponential and Lennard-Jones agents the force function equals -dV/dr of the potential function at every r>0 and the coefficients correspond to the documented parameters.", "quantifier": "all r>0, all parameters (exact reals)", "why_tests_cant": "continuous identity", "anchors": ["src/agent_mod/cont_passive_exp.rs, cont_passive_lj.rs: potential, force"]}
{"id": "C33", "title": "Pair interactions obey action-reaction", "statement": "For agents at different places mutual_displacement is the unit vector from one agent to the other with the Euclidean distance: swapping agents negates it (in f64 exactly, coordinate by coordinate) and returns the same distance; the in-place version agrees; the total displacement added by one full pass over all pairs is zero and each agent's is the sum of the repulsions by all others. Agents at the same place give distance 0 and a vector of NaNs, in every dimension.", "quantifier": "all numbers of agents, positions, dims", "why_tests_cant": "continuous, unbounded number of agents", "anchors": ["src/agent_mod/cont_passive_*: mutual_displacement, mutual_displacement_to_vec"]}
{"id": "C34", "title": "Random moves scale with sqrt(2 D dt)", "statement": "random_move(_to_vec) adds to each coordinate one gaussian sample times sqrt(2*coeff_diff*dt), consuming one sample per coordinate in order; unsupported Levy moves give Err and change nothing.", "quantifier": "all agents, dims, samples, time steps", "why_tests_cant": "continuous, random stream", "anchors": ["src/agent_mod/cont_passive_*: random_move, random_move_to_vec", "src/random_mod/mod.rs: get_gaussian_vec, get_gaussian_to_vec"]}
{"id": "C35", "title": "Growing a merging agent", "statement": "add_size(k) increases the size by k, changes nothing else of a Levy agent (Err) and sets the diffusion coefficient of a Brownian one to size^(-alpha); growing twice is growing by the sum; merge is add_size of the other's size. The agent's own coefficient D0 does not enter: the law D0*size^(-alpha) holds exactly for D0 = 1, and renewal resets to size 1 and coefficient 1.", "quantifier": "all agents, sizes, alphas", "why_tests_cant": "continuous", "anchors": ["src/agent_mod/cont_passive_merge.rs: Merge impl, renew_uniform"]}
{"id": "C36", "title": "Histogram bookkeeping", "statement": "After adding any samples, ensemble equals the number of samples, the counts of either histogram add up to the number of samples not below the (raised) minimum nor above the maximum, and ensemble, bins, counts and success depend only on the multiset of samples, not their order (on exact reals the whole state). Columns of a vector analysis and the lines of a process analysis are counted likewise. NaN compares as neither below nor above and is therefore counted, in bin 0.", "quantifier": "all sample sequences and bin configurations", "why_tests_cant": "unbounded sequences", "anchors": ["src/analysis.rs: TimeAnalysis::{add_ensemble,clear}, Bin"]}
{"id": "C37", "title": "Samples within range fall in an existing bin", "statement": "With bins configured by update_from_bin_size every sequence of samples is accepted and each bin counts exactly the in-range samples of its interval (exact reals); in f64 no sample makes the analysis fail while both numbers of bins are below 2^52, though rounding can place a sample in the neighbouring bin. The sizes accepted and the conversion from a number of bins are determined. With update_from_num_bin every sample except the maximum itself is accepted and the maximum panics.", "quantifier": "all bin configurations and in-range samples", "why_tests_cant": "boundary values under rounding", "anchors": ["src/analysis.rs: update_from_bin_size, update_from_num_bin, add_ensemble"]}
{"id": "C38", "title": "Histogram output is a normalised density with correct centres", "statement": "On exact reals the computed densities satisfy sum(density*width) = in-range fraction for linear and log bins, and the exported rows are exactly (centre, count, count/(samples*width)) for the bins whose density reaches 1e-15; the multi-column and process exports show exactly the bins with centre at most the maximum, with the stated rows (process rows with mean at most 1e-15 are left out). After any history draw and clear succeed, and on exact reals no data makes an analysis fail. What is thereby lost (last bin, very wide bins, non-positive processes) and a panic for bins below the float spacing are exhibited.", "quantifier": "all histograms with ensemble>0 (exact reals)", "why_tests_cant": "unbounded", "anchors": ["src/analysis.rs: bin_pos, lbin_pos, export_distribution, export_log_distribution"]}
{"id": "C39", "title": "Mean and standard deviation", "statement": "On exact reals draw stores the average and the population standard deviation of the added samples (also for process analyses), and the row written has them. In f64 no sample gives NaN, and rounding can make the deviation of equal samples NaN. The titles of the summary file list ensemble, mean, deviation while single-variable and process rows are written mean, deviation, ensemble; the one-column vector row matches its titles.", "quantifier": "all sample sequences (exact reals)", "why_tests_cant": "unbounded sequences", "anchors": ["src/analysis.rs: TimeAnalysis::draw, export_mean_stddev"]}
{"id": "C40", "title": "clear makes an analysis reusable", "statement": "After clear, adding samples and drawing gives the same state as a fresh analysis with the same bins, for single-variable and vector analyses after any history. For process analyses this holds for all per-bin results, but the number of points is kept: the mean after a clear is divided by the points from before the clear as well.", "quantifier": "all histories", "why_tests_cant": "arbitrary histories", "anchors": ["src/analysis.rs: TimeAnalysis::clear, ProcessAnalysis::clear, TimeVecAnalysis::clear"]}
{"id": "C41", "title": "Which data files are merged into one data set", "statement": "analyze groups the files so that every reported group is the analysis from scratch of all lines of exactly the files whose parameters count as the same, no two groups count as the same, no file is lost and the order of files does not matter to the histograms. A run never fails, whatever the files hold (exact reals; f64 under the conditions of C37; vector rows of the declared width). Equal parameters always count as the same; on exact reals and without a hash collision two sets are merged exactly when each parameter agrees in the whole part of its 1e10-fold (sign lost, capped at 2^64-1), so for non-negative multiples of 1e-10 below about 1.8e9 only equal ones are; doubles from 0 to 900000 are merged only if every parameter differs by less than 2e-10. Outside, different parameters are merged: closer than 1e-10, negative with positive, large ones.", "quantifier": "all pairs of parameter sets", "why_tests_cant": "hash collisions cannot be enumerated", "anchors": ["src/macros.rs: derive_hash", "src/analysis.rs: DataSet, analyze"]}
{"id": "C42", "title": "Configuration files can be read back", "statement": "Reading the configuration printed at the start of a data file yields the same argument values and leaves exactly the data, for every sequence of argument structs and all values except: cylindrical systems, mixed boundary conditions and directories with a colon (for which reading is Err(InvalidFormat)), directories with a line break or blanks at the ends, positions without coordinates.", "quantifier": "all argument values", "why_tests_cant": "infinite values incl. type tags containing separators", "anchors": ["src/macros.rs: impl_argument_trait", "src/argument.rs: CommandReader, Argument"]}
{"id": "C43", "title": "Argument vector slicing and dispatch", "statement": "The command line is partitioned into consecutive, disjoint, complete blocks for system, target, agent, time, simulation, each struct reads exactly its own block (wrong number: Err; a word that is no value of its field: panic), any wrong total gives Err, and the analyse mode is selected exactly for the analysis argument counts, which never clash with those of a simulation. Fewer arguments than are to be skipped panic; the _fixed variant hands the skipped arguments to the analysis too; the vector analysis asks for 5 or 6 arguments of which only 4 or 5 reach it.", "quantifier": "all argument vectors", "why_tests_cant": "all lengths", "anchors": ["src/setup.rs: setup_simulation, setup_simulation_fixed", "src/macros.rs", "moledyn_proc/src/lib.rs"]}
{"id": "C44", "title": "Output names", "statement": "The analysis output directory chosen is one that did not exist. Two runs write to the same data file name exactly when the parameters listed in the name are equal; the position of the target, the diffusion coefficient, the initialisation, the number of samples and the seed are not listed, so a run differing only in these overwrites the file. The histogram name is determined by the data set alone and distinct data sets get distinct names.", "quantifier": "all file-system states, all parameter sets", "why_tests_cant": "unbounded existing directory sets", "anchors": ["src/analysis.rs: analyze", "src/macros.rs: export_file"]}
{"id": "C45", "title": "Generated code matches the argument structs", "statement": "The macro accepts exactly a literal and six identifiers of which the last five are known names, with an optional last comma that changes nothing; for all combinations of supported names code is generated, and the fields used by it exist in the argument structs, without duplicates, exactly for systems other than the cylinder and agents other than the merging one. The boundary target the generator knows never compiles.", "quantifier": "all identifiers, all combinations", "why_tests_cant": "combinatorial", "anchors": ["moledyn_proc/src/lib.rs: construct_dataset, ident_to_dataset"]}
{"id": "C46", "title": "Errors compare by kind", "statement": "Error equality is an equivalence relation with exactly three classes: input/output errors, messages, and all error codes; so it does not distinguish different codes, but their printed texts do.", "quantifier": "all errors", "why_tests_cant": "pairs", "anchors": ["src/error.rs: Error, PartialEq, Category"]}
{"id": "C47", "title": "Whole target-search runs keep agents inside, conserve size and report clock times", "statement": "In the merging, independent and repelling first-passage simulations, after every step that does not end the run every live agent is inside the system and off the target, the sizes of the live agents add up to the initial number, the set of live agents only shrinks and (merging) no two live agents are closer than two radii. A run ends only by an agent standing on the target, by a refused move (TooLargeTimeStep), or by the clock running out; it never panics. The reported time is the number of steps times dt (fixed step), or the clock's time at the START of the final step (clocked runs: the final step is not counted; mfpt_exp counts the skipped first step instead and writes 0 when the clock runs out), which is at most tmax.", "quantifier": "all systems, targets, initial conditions, random streams, numbers of agents, numbers of steps", "why_tests_cant": "whole executions of unbounded length", "anchors": ["tests/merge_fpt.rs: n_ptl_fpt", "tests/n_ptl_rts_iterator.rs: n_ptl_fpt", "tests/large_n_simulation.rs: n_ptl_fpt", "examples/mfpt_exp.rs: main"]}
{"id": "C48", "title": "Runs consume their random samples deterministically", "statement": "Each vector routine draws exactly one sample per coordinate in order; placing an agent draws whole blocks of dim uniform samples; in a movement pass the j-th live agent moves by exactly the j-th block of dim normal samples, so k quiet steps of N searchers consume k*N blocks; and two generators that give the same samples give the same results and the same remaining samples, so equal seeds give equal runs.", "quantifier": "all systems, agents, generators (streams), numbers of steps", "why_tests_cant": "all streams and all runs", "anchors": ["src/random_mod/mod.rs: get_uniform_vec, get_gaussian_vec, get_uniform_to_vec, get_gaussian_to_vec, get_uniform_to_vec_nonstandard, get_gaussian_to_vec_nonstandard", "tests/merge_fpt.rs: n_ptl_fpt", "examples/mfpt_exp.rs: main"]}
{"id": "C49", "title": "Exact reflection at the spherical wall", "statement": "check_bc_exact: a move that starts inside the ball and leaves it is replaced by the mirror image of its end point in the tangent plane at the point where the segment crosses the sphere, and is accepted exactly when that image is inside; interior moves are not altered.", "quantifier": "all dimensions, radii, start points and displacements", "why_tests_cant": "continuum of geometries", "anchors": ["src/system_mod/cont_circ.rs: check_bc_exact"]}
{"id": "C50", "title": "First order reflection", "statement": "On exact reals, whenever check_bc_first_order returns Ok the new position lies inside the ball; a step that leaves the ball is replaced by the position of the first order expansion (crossing parameter and excess taken to first order), accepted exactly when inside, and this is at most 2|dp|^2/radius away from the exact mirror image when the step is no longer than the radius and leaves the ball to first order. In f64 an accepted position without NaN is inside up to rounding; the claim without that condition fails for a step out of the ball from its centre, which is accepted with a NaN position.", "quantifier": "all systems, positions and displacements", "why_tests_cant": "degenerate geometries (start at the centre)", "anchors": ["src/system_mod/cont_circ.rs: check_bc_first_order"]}
{"id": "C51", "title": "Random positions are uniform samples by rejection", "statement": "random_pos and random_pos_to_vec draw uniform samples in whole blocks of dim and return the image, under the affine map of the box onto the system's bounding box, of the FIRST block the system accepts, leaving the generator just behind that block; the call can only go on for ever while no block is accepted. (Given uniform samples the position is thus uniform on the system; the cylinder's in-place version uses a box of twice the length.)", "quantifier": "all systems, generators (streams), vectors", "why_tests_cant": "every stream of random numbers", "anchors": ["src/system_mod/cont_circ.rs, cont_cubic.rs, cont_cyl.rs: random_pos, random_pos_to_vec", "src/random_mod/mod.rs: get_uniform_vec, get_uniform_to_vec_nonstandard"]}
{"id": "C52", "title": "A single search returns the first time the target is found", "statement": "The time returned by the search of one searcher is k*dt (repeated addition) where k >= 1 is the number of the first displacement after which check_find holds, the generator having given one block of dim normal samples per displacement; a refused step is TooLargeTimeStep. It is the same time, error and generator as the simulation of a list of one searcher, and (exact reals) the same as with a reused, cleared displacement vector of the right dimension; a Default position is no such vector (InvalidDimension). For n searchers the result is the smallest of their times, f64::MAX for n = 0. With a displacement vector of the right dimension the free diffusion test's table holds, for each k, the sum over the samples of the squared distance after k steps.", "quantifier": "all systems, targets, generators (streams), step sizes, numbers of searchers", "why_tests_cant": "runs of unbounded length over all random streams", "anchors": ["tests/rts_n_searcher.rs: n_ptl_fpt", "tests/single_ptl_rts.rs: test_single_ptl_fpt, test_ptl_diffusion_in_time", "tests/n_ptl_rts_iterator.rs: n_ptl_fpt", "src/agent_mod/cont_passive_indep.rs: random_move, random_move_to_vec"]}
{"id": "C53", "title": "The ensemble mean is the mean of consecutive samples", "statement": "ensemble_n_ptl_fpt returns the sum, in order, of num_ensemble samples each started from the generator state the previous one left, divided by num_ensemble (exact reals: the arithmetic mean, between smallest and largest sample); the first sample that fails fails the call. Zero samples give NaN.", "quantifier": "all sampling functions, generators, ensemble sizes", "why_tests_cant": "unbounded ensembles and all streams", "anchors": ["tests/rts_n_searcher.rs: ensemble_n_ptl_fpt", "tests/merge_fpt.rs: ensemble_n_ptl_fpt", "tests/n_ptl_rts_iterator.rs: ensemble_n_ptl_fpt"]}
{"id": "C54", "title": "From the command line to the data file and back", "statement": "A call of examples/mfpt_exp.rs with the words of 18 accepted settings runs exactly these settings and leaves one file, at the path that shows the parameters: the configuration followed by one line per finished search, all num_ensemble of them if it ends normally and fewer if it ends by a refused step; it never panics. Reading that file gives back all settings, and a call with them writes the same file. Analysing a directory of such files (complete, cut at the end of any line, or unrelated) groups them by data set and reports number, mean and deviation of the values of all files of each data set; files whose configuration is incomplete and unrelated files without a line of the form a:b in second place are skipped. Limits: settings with different dimensions panic after the header is written; a note with a colon in its second line makes the whole analysis panic.", "quantifier": "all settings, random streams, ensembles, directories of files, cut points", "why_tests_cant": "whole executions; every crash point of a run at a line end", "anchors": ["examples/mfpt_exp.rs: main", "src/setup.rs: setup_simulation", "src/analysis.rs: DataSet::from_file, TimeAnalysis::analyze, TimeVecAnalysis::analyze, ProcessAnalysis::analyze", "moledyn_proc/src/lib.rs: construct_dataset, setup_simulation"]}
{"id": "C55", "title": "The files an analysis writes", "statement": "An analysis that succeeds writes one summary and, for each data set found, one linear and one logarithmic histogram, all under different names; the summary has a title line and one row per data set with its ten parameters, mean, deviation and number of samples; equal names mean equal parameters. With doubles and bins given by their size every directory of data files can be analysed. Limit: the titles of the last three columns of the summary are in a different order (ensemble, mean, stddev) from their values (mean, stddev, ensemble). Asking for n >= 10 bins is the same as asking for bins of an n-th of the range; fewer bins are refused before any file is read.", "quantifier": "all directories of data files, all bin requests", "why_tests_cant": "all parameter sets and all contents", "anchors": ["src/analysis.rs: TimeAnalysis::{analyze,export,export_distribution,export_log_scaled_distribution,export_mean_stddev}, DataSet::export_file_removed_idx", "src/macros.rs: export_form, export_file"]}
{"id": "C56", "title": "Index sets give different random numbers", "statement": "The seed of a run is the seed argument plus a hash of the parameters; runs that differ only in idx_set have seeds 570914867 apart per step of the index (exact arithmetic), and for doubles strictly increasing seeds as long as the hash is not negative and stays below 2^53. Runs with equal parameters and equal resulting seeds write equal data. Limits: for a system size of 1e20 or a repulsion strength of -20 different index sets give the same seed; a sum over 2^128 panics. A hash that is not a number or negative adds nothing; one beyond 2^128 counts as 2^128 - 1.", "quantifier": "all parameters, index sets and seed arguments", "why_tests_cant": "all index sets; floating point", "anchors": ["examples/mfpt_exp.rs: main (seed)", "src/random_mod/mod.rs: rng_seed"]}
{"id": "C57", "title": "The files written for vectors of times and for processes", "statement": "An analysis of vectors of nvar times or of processes that succeeds has one group per data set with at least one line, whose ensemble is the number of lines of all its files and whose mean and deviation (per column; for processes over the values of all pairs) are those of all their numbers; it writes one summary and two histograms per group under different names, with the rows described by the groups. A single line with another number of values than nvar makes the whole analysis of vectors fail. Limits: for nvar other than 1 the summary's three titles do not fit its 1+2*nvar values per row; for processes the titles ensemble, long_term_mean, long_term_stddev stand over mean, deviation, ensemble. In double precision, with bins given by their size, a request up to 2^700 with at most 2^24 linear bins from 0 to the maximum and a logarithmic factor between 1 + 2^-19 and 2^50, and a log2 that is increasing with a relative error up to 2^-40, the analysis of every directory of data files succeeds: for processes always, for vectors as soon as every line has nvar values.", "quantifier": "all directories of data files, numbers of columns and bin requests", "why_tests_cant": "all parameter sets and all contents", "anchors": ["src/analysis.rs: TimeVecAnalysis::{analyze,export,export_distribution,export_log_scaled_distribution}, ProcessAnalysis::{analyze,export,export_distribution,export_log_scaled_distribution}", "src/macros.rs: export_form, export_file"]}
{"id": "C58", "title": "A data directory after any sequence of calls", "statement": "After any sequence of calls - runs that end, runs that are killed (before the file, with an empty file, or after any number of values), analyses and rejected calls - a directory that was empty holds exactly one file for each run whose file was not replaced later, complete or with the values written before the kill; analyses do not disturb it. An analysis of it that ends normally reports for each data set number, mean and deviation of all these values, none lost and none counted twice. Repeating a killed run leaves the directory as if it had only been done then. Two calls use the same file exactly when directory, index and the ten parameters agree; limit: target position, movement, start, number of searches and seed are not among them, so such a run replaces the values of the other.", "quantifier": "all sequences of calls, kill points, settings, random streams, orders in which the directory is listed", "why_tests_cant": "crash points and histories of several processes", "anchors": ["examples/mfpt_exp.rs: main", "src/setup.rs: export_simulation_info, setup_simulation", "src/analysis.rs: TimeAnalysis::analyze", "src/macros.rs: export_file"]}
{"id": "C59", "title": "Numbers computed in double precision are close to the exact ones", "statement": "For 1 to 2^50 finite samples of magnitude at most 2^480 the reported mean is finite and differs from the average by at most 2(n+1) roundings (2^-53) of the average magnitude; the square of the reported deviation differs from the variance by at most 8(n+3) roundings of the mean square, and the deviation is NaN only if the variance is below that bound - for the analysis of times, every column of the vector analysis, and every bin of the process analysis. A linear density is count/(samples*width) up to two roundings, the logarithmic density of bin i up to i+4. The k-th time of the constant clock is k*dt up to k roundings, and the clock that stops after n ticks has (n-1)*dt <= tmax < n*dt up to n roundings. The ensemble mean of the search programs is as close to the average of the samples as the reported mean.", "quantifier": "all lists of samples, rows and pairs, bin settings, clocks and numbers of ticks", "why_tests_cant": "sums of unbounded length over all doubles", "anchors": ["src/analysis.rs: add_ensemble, draw, add_pair (TimeAnalysis, TimeVecAnalysis, ProcessAnalysis)", "src/time_mod/mod.rs: ConstStep, next", "tests/rts_n_searcher.rs: ensemble_n_ptl_fpt"]}
{"id": "C60", "title": "Objects built from arguments are what the arguments say", "statement": "convert_from builds a system exactly from valid arguments (positive size, at least one dimension, a mixed boundary of at most dim coordinates; for a cylinder matching type and boundary, radius >= 0 and length > 0), keeps every field, and panics on all others; except for the cylinder of radius 0 it is the system new builds. For the agents it gives exactly num_agent equal agents with the movement, start and parameters of the arguments; a specific start gives position and dimension, a uniform one an empty position; repelling agents panic exactly when a specific start has another dimension. new puts an agent at the given position, with its dimension and movement, records that position as its start, computes the coefficients of potential and force, and panics exactly for an interaction of another kind or dimension; with a specific start convert_from gives copies of that agent. The target is taken over unchecked. Limits: NaN passes all tests of sizes; kind and boundary condition of a disc, agent type and start dimension are not checked. With the default interaction (exponential, two dimensions, length 0.1) an agent can be put at exactly the places of the plane, with strength/0.1 as its force.", "quantifier": "all argument values of all systems, targets and agents", "why_tests_cant": "all sizes, dimensions, positions and numbers of agents, NaN included", "anchors": ["src/system_mod/cont_circ.rs, cont_cubic.rs, cont_cyl.rs: convert_from, new", "src/target_mod/cont_bulk.rs: convert_from", "src/agent_mod/cont_passive_indep.rs, cont_passive_merge.rs, cont_passive_exp.rs, cont_passive_lj.rs: convert_from"]}
{"id": "C61", "title": "Boundary steps in double precision against the exact walls", "statement": "In double precision the walls of a cube (half width up to 2^1022) are exact: with m the coordinatewise rounded sum of position and displacement, a step is accepted exactly when every coordinate of m is within three half widths and ends exactly at the mirrored or translated point. For balls and for the radial part of cylinders (radius from 2^-400 to 2^400, up to 2^40 coordinates, |m| up to 2^400) the new position is the exact image of m up to 32*(dim+4) roundings (2^-53) of |m|, and the step is accepted or refused as in exact arithmetic unless |m| is within that relative distance of the wall or of three radii; the axial part is exact. Limit: the window at the wall is not empty, a searcher in a disc of radius 7 is refused a step of length 2^-20 with TooLargeTimeStep.", "quantifier": "all sizes in the stated ranges, all finite positions and displacements whose sum does not overflow, every boundary condition", "why_tests_cant": "rounding errors near the walls depend on the bits of every coordinate; no finite set of positions settles exactness or an error bound", "anchors": ["src/system_mod/cont_cubic.rs: check_bc", "src/system_mod/cont_circ.rs: check_bc", "src/system_mod/cont_cyl.rs: check_bc"]}
{"id": "C62", "title": "Histograms in double precision: which bin a sample is counted in and where bins are reported", "statement": "For every configuration by bin size, every sequence of finite samples and every bin of the time, multi-column and process analyses run in double precision: the count of a linear bin is at least the number of in-range samples inside its exact interval with both edges moved inwards by the fraction 2^-51 of their distance from the low end, and at most the number inside the interval with the edges moved outwards by as much; the logarithmic bins satisfy the same with the edges moved by (2 u + 4 e) in the exponent and 2 u of their value, where e is the relative error of the platform's log2 and u = 2^-53. So a sample not that close to an edge is always counted in exactly the bin that contains it. The exported tables list the bins in order (omitting those below 1e-15), and the position written for bin j is the exact arithmetic (geometric) middle of the bin up to 4 (j + 2) (respectively j + 3) roundings. In double precision, with bins given by their size, a request up to 2^700 with at most 2^24 linear bins from 0 to the maximum and a logarithmic factor between 1 + 2^-19 and 2^50, and a log2 that is increasing with a relative error up to 2^-40, no sequence of rows of the right width (NaN and infinities included) makes an analysis of vectors or of processes fail, and the loops of both exports end inside their columns.", "quantifier": "all platforms' log2 with relative error up to 1/8, all double configurations with finite ends, all finite samples and their number and order, all bins", "why_tests_cant": "A test checks a few samples against a few bins; that rounding can only misplace samples within 2^-51 of an edge, and that reported positions do not drift further than a roundoff per bin, is a statement about all doubles and all bins.", "anchors": ["src/analysis.rs: add_ensemble, add_pair, export_distribution, export_log_scaled_distribution, update_from_bin_size"]}
{"id": "C63", "title": "The usage message says exactly which arguments are read", "statement": "When a program built with setup_simulation! is started with a number of arguments that fits neither the simulation nor the analysis it prints a message to standard error and fails with InvalidNumberOfArguments, and in no other case. The message gives the number of arguments and the arguments, the number expected, one line per structure listing its argument names in parentheses, one line per argument with its explanation, and the same for the analysis. The names listed are, in order, exactly the arguments that the words of the command line are read into, and their number is the number expected: giving one word per listed name is accepted, each word becoming the value of the name at its place. Reading a block of words is `new` of the values; `clear` resets every field to a fixed default whatever it held.", "quantifier": "every combination of argument structures of the crate, every analysis, every list of argument words without line breaks, every width and number of skipped words", "why_tests_cant": "The set of command lines is infinite and the message is assembled by macros for every combination of structures; a test compares single outputs of single structures.", "anchors": ["src/setup.rs: export_simulation_item!, setup_simulation!, setup_simulation_fixed!, convert_from", "src/argument.rs: impl_fn_info!, impl_fn_brief_info!, impl_fn_read_args_from_vec!", "src/macros.rs: impl_structure! (new, clear)", "src/analysis.rs: brief_info, info"]}
{"id": "C64", "title": "Access to coordinates, clocks and classes of agents", "statement": "p[i] can be read or assigned exactly for i below the dimension (otherwise the program panics), an assignment changes that coordinate only, ranges are the coordinates between their ends, push and extend append, iterating returns the coordinates in order. The iterator with differences returns the times of the clock it was made from, each time being the previous one plus the step returned with it, in double precision exactly as well. Every agent type lives in exactly one kind of space, is passive or active, independent or interacting, and is determined by the answers.", "quantifier": "every position, index, range, clock state and number of calls, every agent type", "why_tests_cant": "Indices, positions and histories of a clock are unbounded.", "anchors": ["src/position.rs: Index, IndexMut, push, extend, iter, iter_mut, into_iter", "src/time_mod/mod.rs: current_time, dt, into_diff, TimeDiffIterator::next", "src/agent_mod/types.rs: AgentType"]}
{"id": "C65", "title": "Default analyses are the ones set up for their documented range", "statement": "A default TimeAnalysis, TimeVecAnalysis or ProcessAnalysis is exactly what update_from_bin_size sets up for times from 0 (or 1e-15) to 1e13 with bins of 1e10 and factor 1.2 (ten columns for vectors): its hard-coded numbers of bins are the computed ones, its counters are empty, and it therefore accepts every sample and counts it in the bin where it lies. In double precision this holds on every platform whose log2 is increasing with a relative error up to 2^-40: no samples, rows of ten numbers or lines of pairs make a default analysis fail, and the loops of its exports end inside their columns.", "quantifier": "all samples, all mathematical libraries with an accurate enough log2, exact reals and doubles", "why_tests_cant": "The hard-coded sizes 1001 and 355 must be the right ones for every sample that can arrive; a test tries some samples.", "anchors": ["src/analysis.rs: Default for TimeAnalysis, TimeVecAnalysis, ProcessAnalysis, update_from_bin_size, allocate_vectors"]}
{"id": "C66", "title": "Program with independent searchers one at a time: shortest search time of each ensemble member", "statement": "A call of the program of tests/test_setup.rs with the 13 words of its settings runs with exactly these values and leaves one file, whose name shows the parameters and which holds a configuration and one line for each finished ensemble member; it ends normally with all members or by a refused step with fewer. The value of a member is the least number of steps after which one of its searchers finds the target, times dt, or the largest float if none does: abandoning a searcher when the best time so far has passed changes nothing as long as dt is not negative. If the seed overflows or the system cannot be built nothing is written. Limits: the time limit has no effect, the step is missing from the configuration, and the program's own analysis cannot read any of its files (it panics or finds nothing).", "quantifier": "all settings, generators, seeds, numbers of searchers and ensemble members; exact arithmetic and doubles", "why_tests_cant": "over all random sequences and abandoned searches; unreadable files concern every run", "anchors": ["tests/test_setup.rs: test_setup", "src/setup.rs: setup_simulation!", "src/analysis.rs: define_dataset!, analyze"]}
{"id": "C67", "title": "Program with searchers that move together: time of the step in which the target is found", "statement": "A call of the program of tests/arguments.rs with the 13 words of its settings runs with exactly these values and leaves one file, whose name shows the parameters and which holds the whole configuration and one line for each finished ensemble member. In every member all searchers get new places, then move in turn, step by step, each through the reflecting boundary, the generator being used in that order; the value is the time at the beginning of the step in which the first of them finds the target, or zero if the time limit passes first; the value is determined by the seed. A run that ends normally has all members, any other ends by a refused displacement and has fewer. If the seed overflows, or the system or the clock cannot be built, nothing is written. Reading the file gives back all settings, and running with them gives the same file; the analysis of a directory of such files averages exactly the values of each data set and writes a summary row and two histograms for each of them under distinct names. Limits: a find in the first step is recorded as 0, like no find at all; no searchers give zeros; the initial positions have no effect; runs with different idx_set are never averaged together; the histograms have another name prefix than the data.", "quantifier": "all settings, generators, seeds, numbers of searchers, steps and ensemble members, all directories of data files; every scalar type, doubles for the limit on idx_set", "why_tests_cant": "the order in which searchers consume random numbers and the first find are over all random sequences and all sizes; the files over all settings", "anchors": ["tests/arguments.rs: main", "src/setup.rs: setup_simulation!", "src/linked_list.rs: LinkedList::get_mut, connect_all, into_iter", "src/analysis.rs: define_dataset!, analyze"]}
{"id": "C68", "title": "Line ends of data files", "statement": "A data file (and every text) has the same lines, configuration and data when every line end is written as \"\\r\\n\", and the analysis of a directory gives the same result; the end of the last line may be missing; whatever is appended to a file whose last line is ended only adds data. Limit: a file cut inside a number is not recognised: the part written is counted as another number, or the analysis panics.", "quantifier": "all texts, all argument structures, all directories, all three kinds of analysis", "why_tests_cant": "over all texts and all places where a write can be cut", "anchors": ["src/analysis.rs: from_file, analyze", "src/argument.rs: read_args_from_lines", "std: BufRead::lines"]}
{"id": "C69", "title": "Tables and configurations are laid out in columns", "statement": "A configuration text has one line for each field of the structure, in order: the name, blanks up to the width, a colon, a blank and the text of the value; the titles of a table, its lines of data (integers and floats, each followed by a tab), the summary lines of an analysis and the lines of a distribution consist of cells whose positions are given by the width and the lengths of the texts; cells that fit stand in columns of equal width; cutting a line at its tabs gives the cells back; a variable that is not a number makes the line an error. Limits: titles are not separated and drift by one column per cell against the data.", "quantifier": "every list of fields and values, every width, every list of texts, every column", "why_tests_cant": "the layout depends on the lengths of all texts in front of a column; a test sees one width and one line", "anchors": ["src/macros.rs: export_form!, export_data!, pub_export_form!, pub_export_data!, TypeName", "src/argument.rs: impl_fn_print_configuration!", "src/analysis.rs: export_distribution, export_log_scaled_distribution, export_mean_stddev"]}
{"id": "C70", "title": "Generated programs: one data file, readable, for any structures and any following code", "statement": "For every choice of structures for which simulation! compiles there is a program with the given prefix and these structures; a call with the words of all values, from which the structures can be built, writes exactly one file in the directory given: a configuration from which the values of the call are read back, followed by what the code after the macro writes, and ends as this code ends; two calls write to the same name exactly if the listed parameters agree; four or five words ask for the analysis and are never taken for a run; a wrong number of words, a word that is not the text of a value or refused values leave no file; every choice of values has a call; examples/mfpt_exp.rs is such a program. Each structure accepts exactly the words of admissible values, and the file is in the directory named by the last word.", "quantifier": "every invocation of the macro with supported names, every code after it, every command line, every value", "why_tests_cant": "the macro is expanded once per test; a test cannot run all combinations of structures, all following code and all command lines", "anchors": ["moledyn_proc/src/lib.rs: simulation, proc_setup_simulation, proc_export_simulation_info, ident_to_dataset", "src/setup.rs: setup_simulation!, export_simulation_info!, read_arguments!", "examples/mfpt_exp.rs: main"]}
{"id": "C71", "title": "Forces, random steps, pair directions and free walks in double precision are close to the exact ones", "statement": "On doubles of ordinary magnitude: the Lennard-Jones force and potential are finite and within 64 roundings of the attractive plus the repulsive part of the exact value; the exponential force and potential are within (k + 2 r/gamma + 7) roundings of the exact value if the exponential function of the machine is accurate up to k roundings; a random step is each sample times sqrt(2 c dt) up to 4 roundings; the distance and unit vector between two agents in n dimensions are exact up to n + 4 and n + 7 roundings; a walk of n steps that never meets the wall ends, in every system, within 2n roundings of the start plus the sum of its displacements, and a Brownian walk within 4n + 8 roundings of the start plus sqrt(2 c dt) times the sum of the Gaussian samples; the inner product is within 4n + 1 roundings of the exact one.", "quantifier": "all doubles in the stated ranges, all distances, all dimensions and numbers of steps up to 2^50, all systems, all sample streams", "why_tests_cant": "rounding errors depend on every bit of the inputs, and their growth over long walks cannot be covered by samples", "anchors": ["src/agent_mod/cont_passive_lj.rs: potential, force, coeff", "src/agent_mod/cont_passive_exp.rs: potential, force, coeff", "src/agent_mod/cont_passive_indep.rs: random_move, mutual_displacement", "src/system_mod/cont_circ.rs, cont_cubic.rs, cont_cylinder.rs: check_bc, check_inclusion", "src/position.rs: inner_product, norm, distance"]}
{"id": "C72", "title": "Exact and first order reflection in double precision", "statement": "A displacement of a ball's particle that clearly leaves the ball, is not longer than a diameter and meets the wall under an angle of cosine c (c^2 at least 64 slack) ends, by check_bc_exact on doubles, finitely and within 64 slack / c radii of the mirror image of its end in the tangent plane at the point where the exact segment leaves the ball; it is accepted or refused as in exact arithmetic except within that distance of the wall. By check_bc_first_order, started in the outer half of the radius with a displacement of cosine c to the outward direction at the start, it ends finitely and within 128 slack / c^2 radii of the first order image of exact arithmetic (hit where the linearised distance reaches the radius), accepted or refused likewise. One that clearly stays inside is carried out unaltered by both reflections. Accepted positions without NaN are inside up to rounding. Limit: grazing displacements can give an accepted position that is not a number.", "quantifier": "all radii between 2^-200 and 2^200, all dimensions up to 2^40, all finite positions and displacements, all angles", "why_tests_cant": "error bounds near tangency depend on cancellation in the discriminant for every bit pattern; sampled displacements almost never graze the wall", "anchors": ["src/system_mod/cont_circ.rs: check_bc_exact, check_bc_first_order, check_inclusion"]}
{"id": "C73", "title": "Ensembles on reused agents and clocks", "statement": "An experiment on agents that went through earlier experiments (merged, dead, anywhere) with a used clock gives the time and leaves the random generator in the state of an experiment with as many agents made for it and a new clock; the ensemble of tests/large_n_simulation.rs is therefore the mean over such experiments, which run with the coefficient that belongs to size 1 (1 in exact arithmetic). A run of examples/mfpt_exp.rs for any number of samples writes the times of as many runs for one sample, each continuing the generator of the run before, and when a sample fails exactly the times before it. Limit: the diffusion coefficient the reused agents were made with has no influence.", "quantifier": "all systems that can be built, all targets of that dimension, all agent numbers, sample numbers, radii, exponents, clocks and random generators, any scalar type", "why_tests_cant": "a leak from one experiment into the next (a dead link, a cursor, a size, a planned move, a clock) shows only for particular histories of merges and finds, and changes a random result that no test can predict", "anchors": ["tests/large_n_simulation.rs: ensemble_n_ptl_fpt, n_ptl_fpt", "examples/mfpt_exp.rs: main", "src/agent_mod/cont_passive_merge.rs: renew_uniform", "src/agent_mod/cont_passive_exp.rs: renew_uniform", "src/iterator.rs: connect_all, clear"]}
{"id": "C74", "title": "The three reflections at a spherical wall compared", "statement": "For a step that starts in the ball and leaves it, the position the programs use (scaled back along the ray from the centre) is at most 2 l^2 / radius away from the mirror image in the tangent plane, l being the length of the part of the step that lies outside. Straight outward the two agree exactly, as far inside as the step reached outside, while the first order version is off by 2 (1 - |p|/radius) times the overshoot. The ray version accepts exactly the steps that end within three radii of the centre; the exact version exactly those with (1 - 3t)|dp|^2 <= 2 p.dp, hence all that leave in their second half. Limit: the exact version refuses steps along the tangent of a boundary point as too large time steps, however short they are. In double precision too: for a radius whose square neither over- nor underflows, every coordinate of the position the programs use is within 2 l^2 / radius plus 64*(dimension + 4) roundings of the end point's distance of that mirror image, at any angle.", "quantifier": "all balls that can be built, all dimensions, all positions in the ball and all displacements leaving it, in exact arithmetic", "why_tests_cant": "the tests compare the three at a grid of positions and displacements and only write the differences to a file; the order of the error and the condition for acceptance are statements about all of them", "anchors": ["src/system_mod/cont_circ.rs: check_bc, check_bc_exact, check_bc_first_order", "tests/boundary_cond.rs: test_error_check_bc, single_test_cont_circ_exact"]}
{"id": "C75", "title": "Point files and bins of the sampling tests", "statement": "The tests that write uniform or normal vectors write one point per line, the successive pairs of samples in order, and the version with a reused position writes the same file and leaves the generator in the same state. The tests that write random positions of a disc write only points that pass the disc's own test, as many as asked for unless a rejection never ends; in exact arithmetic both versions write the same file (limit: on doubles the first line can differ, the two round differently). Cut at the tabs, such a file reads back as the points. The bounds of the histogram tests cut the range in equal bins and every value of the range has a bin; the data binned are the samples in order, with normal samples outside the range recorded in the first or last bin.", "quantifier": "all numbers of points, discs, random generators, scalar types, texts of numbers, ranges and numbers of bins", "why_tests_cant": "the tests only write the files and pictures for one seed and assert nothing about them", "anchors": ["tests/random_vec.rs: test_cont_circ_random_pos_contour, test_cont_circ_random_pos_to_vec_contour, test_get_uniform_vec, test_get_uniform_to_vec, test_get_gaussian_vec, test_get_gaussian_to_vec", "tests/random_histogram.rs: bin_bounds, histogram_uniform, histogram_gaussian", "src/random_mod/mod.rs: get_uniform_vec, get_uniform_to_vec, get_gaussian_vec, get_gaussian_to_vec", "src/system_mod/cont_circ.rs: random_pos, random_pos_to_vec"]}
{"id": "C76", "title": "Integer vector arithmetic: exact, or exactly this overflow", "statement": "Adding and subtracting positions with i32 coordinates and multiplying one by an i32 gives the true coordinatewise result when every coordinate of it is an i32; in a debug build the call panics exactly when one is not, in a release build each coordinate is the two's complement reading of the true one. Different dimensions panic. The in-place forms give the same results and panics; they cut a longer operand to the receiver's length and panic on a shorter one. Subtracting what was added gives the vector back (also after wrapping), and translating both ends by the same vector without overflow leaves the taxi distance; a wrapped translation does not.", "quantifier": "all i32 vectors of all dimensions, all i32 factors, both build modes", "why_tests_cant": "overflow depends on the values of all coordinates; tests use a few small vectors in one build mode", "anchors": ["src/position.rs: Add, Sub, Numerics (scalar_mul, mut_scalar_mul, mut_add, mut_sub), mut_add_bench, clear"]}
{"id": "C77", "title": "Indexing, slicing and comparing positions", "statement": "p[i] reads and p[i] = v writes exactly that coordinate and panics exactly beyond the end; p[a..b] holds the coordinates a..b-1 and panics exactly when b < a or b is beyond the end; p[..b] and p[a..] are the corresponding slices, and p[..k] followed by p[k..] is p. Comparing positions is the lexicographic order of the coordinates (a strict total order on reals, a proper prefix is smaller); with f64 coordinates -0.0 equals 0.0, there is no answer exactly when the first coordinates that are not equal include a NaN, and == holds exactly when the comparison answers Equal.", "quantifier": "all positions of all dimensions, all indices and ranges, all f64 values including NaN", "why_tests_cant": "universally quantified over contents, bounds and special values", "anchors": ["src/position.rs: Index, IndexMut, Index<Range>, Index<RangeTo>, Index<RangeFrom>, derive(PartialEq, PartialOrd)"]}
{"id": "C78", "title": "The reflection test programs", "statement": "Computed exactly, the step-by-step check of the exact reflection in tests/boundary_cond.rs fails none of its assertions (hit point on the wall, residual perpendicular to it) for any ball, any position in it and any displacement, and reports exactly what check_bc_exact reports. Its grid test succeeds. The test listing the differences of the three reflections succeeds and writes nothing, since none of its displacements leaves the disc; both hold in double precision as well, for every libm whose cos and sin stay within [-1, 1]. Exactly computed, the test listing exact and radial images succeeds and its rows are exactly those of the 800 displacements that leave the disc and whose two images are at least 1e-10 apart, each with start, end, the true mirror image (in the disc) and the radial image; there are such rows.", "quantifier": "all balls, dimensions, positions and displacements for the check; all libms for the grid tests; all 800 displacements for the listing", "why_tests_cant": "the tests are ignored by default, cover a grid in one dimension of positions, and never reach their own assertions", "anchors": ["tests/boundary_cond.rs: single_test_cont_circ_exact, test_cont_circ_reflection, test_check_bc_realization, test_error_check_bc", "src/system_mod/cont_circ.rs: check_bc, check_bc_exact, check_bc_first_order"]}
{"id": "C79", "title": "Whole runs in double precision", "statement": "In double precision, up to the relative error slack(n) = 32(n + 4)/2^53 of a computed norm: a boundary step that succeeds ends inside; after any number of steps of merging agents or of independent searchers in any lengths of step, nobody found, every agent alive is inside the system and off the target, no two merging agents alive are closer than twice the interaction radius, and whoever disappeared in a step was that close to one who stayed; the step that ends a simulation leaves somebody alive, inside and on the target. A simulation that reports a time t does so after such a history: agents placed off the target, k steps like that, the finding step, and t is the k + 1 additions of the step; with an exponential clock, the steps are those the renewed clock delivers, in every state the clock can be in. Outside ordinary numbers this fails: with a coefficient of 2^1000 a searcher at NaN goes on for ever.", "quantifier": "all three systems, dimensions up to 2^40, sizes between 2^-400 and 2^300, samples of at most 2^100 and uniform samples in [0,1], coefficients and steps of at most 2^150, all populations, numbers of steps, histories of the list, clocks and libms", "why_tests_cant": "rounding of millions of random steps cannot be sampled to exclude one agent on the wrong side of a wall or one undetected encounter", "anchors": ["tests/merge_fpt.rs", "tests/n_ptl_rts_iterator.rs: n_ptl_fpt", "src/agent_mod/cont_passive_merge.rs: merge", "src/system_mod/mod.rs: check_bc", "src/system_mod/cont_circ.rs", "src/system_mod/cont_cubic.rs", "src/system_mod/cont_cyl.rs"]}
{"id": "C80", "title": "Repelling agents in double precision", "statement": "In double precision, up to slack(n) = 32(n + 4)/2^53: the move an agent makes in the program of repelling agents is the planned one, or the planned one times one factor, and never longer than the limit, whatever the planned move, so long as its coordinates are finite; a plan short enough is carried out as it is. After a step of up to 2^20 agents no two of which are at (nearly) the same place, everybody has moved by no more than the limit, is inside the system and off the target; or the step ends the sample and somebody has moved by no more than the limit and is inside and on the target. A sample that reports a time t, on a list used before, put everybody off the target and went through steps of the first kind until the step that ends at t, which is of the second; a sample that reports 0 never had anybody on the target. Two agents at exactly the same place are the exception: both become NaN, and the sample goes on to the end of the clock.", "quantifier": "all three systems, dimensions up to 2^40, sizes between 2^-400 and 2^300, any samples of at most 2^100, any exponential that is between 0 and 1 for arguments that are not positive, forces of at most 2^100, up to 2^20 agents, all numbers and lengths of steps, all earlier histories of the list", "why_tests_cant": "a force that overflows, a limit not respected by rounding or a lost agent happens for rare configurations of many agents after many steps", "anchors": ["examples/mfpt_exp.rs: main", "src/agent_mod/cont_passive_exp.rs: random_force, force", "src/agent_mod/mod.rs", "src/system_mod/mod.rs: check_bc", "src/position.rs: mut_scalar_mul, norm"]}
{"id": "C81", "title": "Changing the bins of an analysis in use", "statement": "update_from_bin_size on an analysis that was used before refuses exactly negative minima, sizes and factors and a maximum below the minimum, and then has changed nothing; otherwise it changes the bins and nothing else, and allocate_vectors empties the histograms. update_from_num_bin refuses exactly a negative minimum, a maximum below the minimum or below 1e-15, and fewer than ten bins, changes nothing when it fails, and gives the three analyses the same bins: the number wanted of equal ones from the minimum (at least 1e-15) to the maximum. Cleared, given new bins and allocated, an analysis of times or of vectors of times is what a new one with these bins is, whatever was done with it. Without clear, an analysis of times or a process shows mean and deviation of all samples, old and new, and bins filled by the new ones only. Three exceptions: an analysis of vectors forgets the sums of the old samples but not their number, so that its means are wrong; a process keeps the number of points even through clear; new bins without allocate_vectors make a sample inside the range crash the program.", "quantifier": "all analyses, all sequences of samples before and after, all old and new bins; moments on exact reals, everything else for any number type", "why_tests_cant": "which of a dozen fields survive which of three calls is only visible for histories that mix them", "anchors": ["src/analysis.rs: update_from_bin_size, update_from_num_bin, allocate_vectors, clear, add_ensemble, add_pair, draw"]}

# Formal model of key262yek/moledyn in Rocq (Coq 8.16.1)

The plan was written before the proofs and is kept up to date as the model grows (sections 2, 4 and 5 are regenerated).
`properties.jsonl` holds the English claims, `MANIFEST.json` maps each claim to theorem names,
`rocq/theories` holds the model (`Model_*.v`), the small independent specifications (`Spec_*.v`),
the proofs (`Proof_*.v`, `Refine_LinkedList.v`, `Text*.v`, `Args*.v`) and the property files (`Properties_*.v`: nothing but
`Theorem`, `exact lemma`, `Print Assumptions`, and `Example`s showing that the hypotheses are satisfiable).
`seeded/LOG.jsonl` records the wrong programs tried against the theorems.

## 1. How the code is modelled

* **&mut / self** become state-passing functions; `Result` is `outcome` with constructors `Ok v`, `Err code`,
  `Panic` (index out of bounds, `panic!`, `unwrap` on None, `expect`) and, for `loop{}`/`while` only, `Fuel`
  (the fuel given to the model was not enough; never a normal-looking value).  A function that can both change its `&mut`
  argument and return `Err` returns the pair (state afterwards, outcome).
* **f64**. One model text is parametrised by a record `scalar` of operations and instantiated twice:
  * `F64 lm` : Flocq `IEEE754.BinarySingleNaN` binary64, round to nearest even, with NaN, infinities and signed zeros
    (NaN payloads are not modelled; no code path observes them).  libm functions (`exp`, `log2`, `powf`, ...) are the parameter
    `lm` of that instance, because their values are platform dependent.  `powi(2)` is `x*x`.
  * `RR` : the Coq standard library's real numbers: idealised exact arithmetic, used for geometry and calculus claims.  Each
    claim says which instance it is about; claims proved for an arbitrary `scalar` hold for both.
* **usize** is `nat` (lengths, indices, counters that cannot reach 2^64) or `Z` with an explicit wrap/saturation where the claim is about
  it (`as usize` casts saturate and send NaN to 0; i32 arithmetic wraps or panics according to the build).
* **Pcg64** is an oracle: a state type and two step functions (uniform in (0,1), gaussian); no distributional claim is made.
  For the f64 instance the documented range of `Open01` (rand 0.7: `(2k+1)/2^53`, k<2^52) is a hypothesis of the theorems that need it.
* **Strings** are Coq `string`s (ASCII bytes); decimal printing/parsing of `usize` and `u128` is modelled completely, printing/parsing of
  `f64` is a parameter (`numtext`) with a round-trip hypothesis (`faithful`) stated in each theorem that uses it; an instance
  satisfying it is constructed (`b64_text`).
* **File system / process exit / time of day** are oracles (set of existing paths), or not modelled.
* **Derived and macro-generated code** (argument structs, `Display`, `FromStr`, hashing, the `simulation!` procedural macro) is
  modelled by what it expands to.

## 2. Plan per property

`properties.jsonl` has the full English statement of each property.  The column "theorems" counts the theorems listed in
`MANIFEST.json`.

| id | title | what is modelled | how it is proved | theorems |
|----|-------|------------------|------------------|----------|
| C01 | Live list behaves as an ordered set of stable indices | `LinkedList<T>` with its arrays, head, tail, cursors (src/iterator.rs) | refinement to (contents, list of live indices); representation invariant preserved by every operation, induction over operation lists | 4 |
| C02 | del rejects exactly the dead and out-of-range indices, and a rejected del changes nothing | `LinkedList<T>` with its arrays, head, tail, cursors (src/iterator.rs) | same refinement; case analysis on `del` | 1 |
| C03 | Single iteration visits every live element exactly once in order, also when elements are deleted during it | cursor `current[0]` | refinement to a "remaining live indices" cursor, any interleaving of `next` and `del` | 5 |
| C04 | Double iteration visits every unordered pair of live elements exactly once | cursors `current[0..1]` | remaining-pairs function; double iteration = the ordered pairs | 4 |
| C05 | Double iteration with removal of the just-returned second element is complete and never returns a dead element | same, with `del` of the second element | invariant on the remaining pairs | 2 |
| C06 | Which deletions a double iteration tolerates | same, with any `del` | exact condition (iff) under which no surviving pair is skipped; the two ways to fail as separate theorems | 4 |
| C07 | connect_all restores every element ever inserted | `LinkedList<T>` with its arrays, head, tail, cursors (src/iterator.rs) | refinement | 1 |
| C08 | Coalescence conserves total size | `LinkedList::merge`, `Merge` for `ContPassiveMergeAgent` | sum over live indices; exact effect when the conditions are not met | 7 |
| C09 | Clearing displacement lists zeroes exactly the live entries | `LinkedList<Position>::clear` | induction along the live chain | 2 |
| C10 | distance is a metric guarded by dimension | `Position::distance`, `norm` | Cauchy-Schwarz/Minkowski on R; commutation, sign and relative error bounds on binary64 (Flocq) | 8 |
| C11 | Vector arithmetic is coordinatewise and dimension checked | `Position` operators and `Numerics` | induction over lists, any scalar | 8 |
| C12 | Position text round trip and reading | `Display`/`FromStr` of positions | string induction; exact description of what is read from any text | 7 |
| C13 | Integer lattice distances: exact, or exactly this overflow | `Position<i32>` distances, debug and release builds | integer arithmetic with wrap/panic; correct rounding of the square root (Flocq) | 9 |
| C14 | Constant-step clock | `ConstStep` | induction over steps; monotonicity of rounding (Flocq) for f64; closed form on R | 4 |
| C15 | Exponential-step clock keeps its step within bounds | `ExponentialStep` | invariant on (dt, inc, clock) over steps | 6 |
| C16 | renew restarts the clock | `renew` of both clocks | induction over steps | 3 |
| C17 | When the clock ends | both clocks, `TimeDiffIterator` | termination on R by Archimedes, on binary64 by spacing of floats; stagnation by invariant | 6 |
| C18 | Exactly which parameters the clock constructors and setters accept, and what they build | constructors, `set_*`, `convert_from` | case analysis, exact (iff) | 13 |
| C19 | A successful boundary step ends inside the system | `check_inclusion`, `check_bc` of the three systems (src/system_mod) | generic over `scalar` by case analysis; binary64 with magnitude hypotheses | 10 |
| C20 | Interior moves are not altered | `check_inclusion`, `check_bc` of the three systems (src/system_mod) | case analysis + list induction | 1 |
| C21 | Reflection at the spherical wall | `check_inclusion`, `check_bc` of the three systems (src/system_mod) on R | norm scaling lemma | 1 |
| C22 | Reflecting and periodic cubic walls | `check_inclusion`, `check_bc` of the three systems (src/system_mod) on R and binary64 | linear arithmetic per coordinate | 2 |
| C23 | Cylinder walls | `check_inclusion`, `check_bc` of the three systems (src/system_mod) on R | norm scaling and linear arithmetic per block | 1 |
| C24 | Random positions are inside the system | `random_pos*` | induction over the fuel of the rejection loop; R and binary64; exact description for the cylinder | 15 |
| C25 | When position_out_of_system is outside | `position_out_of_system*` | norm bounds on R; binary64 by monotone rounding | 10 |
| C26 | Dimension mismatches | `check_inclusion`, `check_bc` of the three systems (src/system_mod) | case analysis, any scalar | 3 |
| C27 | What a failed boundary step leaves behind | `check_inclusion`, `check_bc` of the three systems (src/system_mod) | case analysis: exact state after each error | 2 |
| C28 | Inclusion means inside | `check_inclusion` | equivalence on R; on binary64 for finite values, special values separately | 6 |
| C29 | Type tags survive text round trip, and exactly which texts are read | `Display`/`FromStr` of the type tags | string induction; exact set of accepted texts | 28 |
| C30 | Target detection | `ContBulkTarget::check_find` | norm lemma | 3 |
| C31 | Uniform initialisation puts agents inside and off the target | `new_uniform`, `renew_uniform` of the four agents | loop induction over the oracle stream | 8 |
| C32 | Force is minus the gradient of the potential | potentials and forces | `derivable_pt_lim` on R | 4 |
| C33 | Pair interactions obey action-reaction | mutual displacements, force loop | list algebra; sums over pairs on R | 5 |
| C34 | Random moves scale with sqrt(2 D dt) | `random_move*` | list induction, any scalar; R closed form | 4 |
| C35 | Growing a merging agent | `add_size`, `merge` of `ContPassiveMergeAgent` | case analysis | 6 |
| C36 | Histogram bookkeeping | `add_data` of the three analyses | list induction; counting | 8 |
| C37 | Samples within range fall in an existing bin | bin index computation | floor/ceil arguments on R; monotone rounding on binary64 | 11 |
| C38 | Histogram output is a normalised density with correct centres | `draw`, `export_distribution*` | sums over bins | 14 |
| C39 | Mean and standard deviation | running mean/variance, `export_mean_stddev` | induction over samples | 7 |
| C40 | clear makes an analysis reusable | `clear` | state equality | 4 |
| C41 | Which data files are merged into one data set | `derive_hash!`, `analyze` grouping | equivalence relation on keys; exact classes; which values share a cell, on R and on binary64 | 14 |
| C42 | Configuration files can be read back | argument text, file header, `from_file` | string induction over a generic argument schema | 4 |
| C43 | Argument vector slicing and dispatch | argument slicing, `analyze` dispatch | list arithmetic | 13 |
| C44 | Output names | file names | injectivity of joined texts | 5 |
| C45 | Generated code matches the argument structs | identifier tables of moledyn_proc | finite tables, `forallb` evaluated by the kernel, lifted to all identifiers | 7 |
| C46 | Errors compare by kind | error type | case analysis | 5 |
| C47 | Whole target-search runs keep agents inside, conserve size and report clock times | loops of the simulations | invariant over the run, uses C01-C08, C14-C20 | 16 |
| C48 | Runs consume their random samples deterministically | oracle consumption | sample counting over oracle streams | 11 |
| C49 | Exact reflection at the spherical wall | `check_bc_exact` | quadratic equation on R | 2 |
| C50 | First order reflection | `check_bc_first_order` | case analysis on R; the returned position is the first order expansion, with a proved distance to the exact reflected point; binary64 numbers by computation | 5 |
| C51 | Random positions are uniform samples by rejection | rejection loops | first accepted block of the stream, on R | 1 |
| C52 | A single search returns the first time the target is found | the search loop, the minimum over searchers, the loop with a reused vector, the diffusion test | induction on the loop: first visit of the path the samples describe; the list of one searcher by computing one pass; exact reals for the reused vector | 8 |
| C53 | The ensemble mean is the mean of consecutive samples | the ensemble loop for any sampling function | induction on the number of samples; bounds on R | 4 |
| C54 | From the command line to the data file and back | main of examples/mfpt_exp.rs with argument reading, file path, header, the run of Model_Run, seed; reading of a directory as text and its analysis | composition of the argument round trip (C42), the header and file reader and the run theorems (C47); analysis of texts equals analysis of the values (induction on the files), grouping facts of C41/C39; cut files by induction on the field list | 12 |
| C55 | The files an analysis writes | export, export_distribution, export_log_scaled_distribution, summary, file names | text lemmas on padded columns (Words); names by injectivity of the number texts and of separators; success from C37 | 10 |
| C56 | Index sets give different random numbers | the hash of the parameters and the cast to u128 | exact reals: floor arithmetic; doubles: monotone rounding of sums below 2^53 (Flocq); computation for the limits | 10 |
| C57 | The files written for vectors of times and for processes | analyze and export of TimeVecAnalysis and ProcessAnalysis on the texts of a directory | grouping as in C54 with label_groups, moments by the exact sums of C39/C40, text lemmas of C55 for rows and names; success in doubles: the number of bins exceeds the exact quotient by at least 1/4, so the centre after the last bin is past the maximum by a quarter bin (a factor l^(3/4)) minus the roundings of C62 (Proof_Export64*) | 9 |
| C58 | A data directory after any sequence of calls | a disk as the list of its files; what one call (finished or killed) does to it; listing of a directory | induction on the history with the list of surviving runs as invariant; paths by injectivity of the number texts and the last slash; then composition of C54, C55 | 5 |
| C59 | Numbers computed in double precision are close to the exact ones | the analysis, clock and ensemble models on the doubles of Float64; exact values on R in Spec_Accuracy.v | standard rounding-error analysis: induction over the summing loops with factors (1+u)^n, multiplicative (1-u)^n <= theta <= (1-u)^-n calculus for products and quotients (Proof_Rel64), Jensen's inequality for the cancellation in the variance | 9 |
| C60 | Objects built from arguments are what the arguments say | convert_from of the systems, the target and the agents (Model_System, Model_Agent) | case analysis over all arguments; reals for the tests of sizes, any arithmetic for the agents | 10 |
| C61 | Boundary steps in double precision against the exact walls | check_bc of the three systems on the doubles of Float64; exact walls in Spec_System, error measure in Spec_Wall64.v | cube: Sterbenz' lemma makes 2L-x exact, monotone rounding for the refused moves; ball: error bounds of the computed norm (Proof_Norm64) propagated through the factor (2r-n)/n, Minkowski's inequality for the norm of the image; refused tiny step by computation | 5 |
| C62 | Histograms in double precision: which bin a sample is counted in and where bins are reported | The analyses of Model_Analysis at the scalar F64 lm (Flocq binary64), with the platform's log2 as a parameter. Spec_Hist64 defines counted, lin_count, log_count, accurate_log2. | Quotient and difference roundings are bounded relatively, the floor of a rounded quotient is shown to equal the exact floor except near integers; the rows are computed by induction over the bins, positions by the error of repeated addition/multiplication. A libm with correctly rounded log2 is constructed to show the hypothesis on log2 can be met.; exports end because the centre after the last bin exceeds the maximum (Proof_Export64) | 9 |
| C63 | The usage message says exactly which arguments are read | Model_Usage.v: the text printed by export_simulation_item!, brief_info/info of the analyses, Default values, new/clear, convert_from of the simulation parameter structs. | Line by line decomposition of the text (text_lines), a scanner for names in parentheses as independent specification, C43's block reading for the values; the two inconsistencies (six listed arguments of TimeVecAnalysis, the unlisted short form) and the crash of a cleared target as counterexample theorems. | 11 |
| C64 | Access to coordinates, clocks and classes of agents | Model_Access.v: accessors on the coordinate list, clock readings, AgentType predicates. | Induction over the list / over the number of calls; case analysis for the types. | 6 |
| C65 | Default analyses are the ones set up for their documented range | Model_Default (tv_default, pa_default) and Model_Analysis.ta_default. | The bounds 1.2^353.5 < 1e28 < 1.2^354 are checked in integers; in doubles the quotient of the logarithms is a hypothesis (353.6 to 354.4). Safety by C37. | 8 |
| C66 | Program with independent searchers one at a time: shortest search time of each ensemble member | the whole program: setup, seed, convert_from, file, the nested loops of the ensemble with one shared displacement vector, and the analysis of a directory (Model_Program3) | induction over steps, searchers and members with the invariant that the best time is attained and no finished searcher beats it; the cut-off is harmless because adding dt never goes below (proved for doubles incl. NaN and infinity); the unreadable file by following the reader through the four lines that follow the missing clock lines | 11 |
| C67 | Program with searchers that move together: time of the step in which the target is found | Model_Program3 (crowd_main, crowd_program and what they call): command line, seed, configuration, linked list of searchers, loop over a copy of the clock, data lines, analysis of the directory. | The sweep over the linked list is reduced to a walk over the indices 0..n-1 (C01-C08), then induction over turns and steps with the invariant that searcher i uses block j*n+i of the normal samples; the value of Spec_Program3 is proved functional; the file part reuses the configuration round trip (C42, C54) without a simulation part. | 13 |
| C68 | Line ends of data files | text_lines (BufRead::lines), read_data, analyze_dir of Model_Args and Model_Program; with_crlf in Spec_Lines. | Induction over the lines of a text; files of runs are shown to have no carriage return and to end with a line end. | 7 |
| C69 | Tables and configurations are laid out in columns | the macros that write one line, with the dispatch on the type of a variable; texts of floats are a parameter | positions of characters by induction over the cells; splitting at tabs with the lemmas on cutting texts | 12 |
| C70 | Generated programs: one data file, readable, for any structures and any following code | the generated program as a function of the structures found by name, of the code after the macro and of the analysis; the code after the macro is any function of the values read | from the lemmas on command lines, configurations and file names (C43, C44, C54); the structures are found by name for every supported invocation by cases | 16 |
| C71 | Forces, random steps, pair directions and free walks in double precision are close to the exact ones | the interaction laws, random moves, pair displacements, boundary steps and inner product instantiated with binary64; the machine's exp is a parameter with a stated accuracy | relative-error calculus for products, quotients, roots and sums of nonnegative terms; w - 1 and exp by first-order bounds; walks by the interior lemma (C20) and the error of repeated summation | 10 |
| C72 | Exact and first order reflection in double precision | circ_check_bc_exact and circ_check_bc_first_order instantiated with binary64, unchanged; slack as in C61 | a calculus of approximations (ap: finite, magnitude bound, absolute error) carried through inner products, discriminant, root, hitting time and reflection factor; Cauchy-Schwarz for sums of coordinates; comparison with the exact solution proved in C26/C50; for the first order variant the same calculus carried through a, b, cos, t and k of the code (Proof_First64), with the exact first order point of C50 as reference | 6 |
| C73 | Ensembles on reused agents and clocks | the ensemble loop (reuse_loop, large_n_ensemble) on top of large_n_fpt; exp_ensemble and mfpt_exp as they are | relational invariants: two lists that agree but for their cursors run alike, renewal of every agent equals construction of new agents, connect_all restores the links of a new list, cleared moves are equal; induction over pairs, agents, steps and samples | 5 |
| C74 | The three reflections at a spherical wall compared | circ_check_bc, circ_check_bc_exact and circ_check_bc_first_order as they are, at exact reals; the reflection along the ray also in double precision | closed forms of the three positions over inner products, then real algebra (Cauchy-Schwarz, the last crossing makes the outward speed non-negative); in double precision C61 composed with it, the factor at the rounded distance against the factor at the true one | 6 |
| C75 | Point files and bins of the sampling tests | the writing loops with a new and with a reused position, the line format, bin_bounds and the data loops; not the drawing of the pictures | induction over the number of points with the sampling lemmas of C48 and C51; closed forms for the bounds | 8 |
| C76 | Integer vector arithmetic: exact, or exactly this overflow | the generic bodies of src/position.rs at T = i32 (Model_Int) | induction over the coordinates; uniqueness of the representative in [-2^31, 2^31) | 5 |
| C77 | Indexing, slicing and comparing positions | Model_Int: index, index_mut, the three slice operators with std's bounds checks, the derived comparisons | induction over the coordinates; f64 comparisons through Flocq's Bcompare | 5 |
| C78 | The reflection test programs | Model_Check: the four functions; cos, sin and pi are arguments (cos, sin, PI of the reals; any functions into [-1, 1] and the double nearest to pi for binary64); rows are kept as numbers, their text ({:.5e}) is not modelled; nested loops are flattened in their order | the quadratic formula for the hit, the chord inequality for acceptance, uniqueness of hit and mirror image; in binary64 the grids' bounds by computation and the inclusion bound of C61/C72 | 5 |
| C79 | Whole runs in double precision | the loops of Model_Run, Model_LinkedList, Model_Agent and Model_System at the scalar F64; samples are an oracle whose values are bounded, found and placed positions are compared exactly with the true system | error bounds of one move and of one boundary step (C61, C72), accepted positions checked by the computed norm (slack), an invariant (ordinary coordinates) along the passes over the list, then the decomposition of simulations into steps proved for the run properties | 9 |
| C80 | Repelling agents in double precision | the loops of the program in Model_Run at the scalar F64; exp is any function with values in [0, 1] on numbers that are not positive | bounds on every planned move (kicks of bounded size summed over the list), the limit as one rounded factor, boundary steps of C72 and C79, an invariant along both passes of a step, then induction over steps and the clock | 5 |
| C81 | Changing the bins of an analysis in use | Model_Rebin: the two update functions as a new state and a result, on the analyses of Model_Analysis | case analysis for the fields; the re-binned analysis is the new one with the old sums, which commute with adding samples | 13 |

## 3. Trusted base

* Coq's kernel (8.16.1); `Print Assumptions` output is listed in section 5.  No functors, no axioms, no admitted goals, no kernel
  check switched off.
* The reading of the Rust code: every definition of a `Model_*.v` file cites file and lines.
* The semantics given to std, in `Base.v`, `Scalar.v`, `Float64.v` and the first part of `Model_Text.v` (vectors, `?`, IEEE arithmetic through
  Flocq, `as` casts, string splitting and trimming, integer text).
* Library code used: Coq's standard library, Flocq (theorems only; it has no axioms of its own), mathcomp is not used.

**Modelled** (function by function)

| file | model |
|------|-------|
| src/iterator.rs | Model_LinkedList.v: all of it |
| src/position.rs, src/random_mod/mod.rs | Model_Position.v, Model_Text.v (`Display`, `FromStr`); `Position<i32>` too |
| src/time_mod/mod.rs | Model_Time.v; text of `TimeType` and arguments in Model_Text.v / Model_Args.v |
| src/system_mod/*.rs, src/target_mod/cont_bulk.rs | Model_System.v; text and arguments in Model_Text.v / Model_Args.v |
| src/agent_mod/*.rs | Model_Agent.v; text and arguments in Model_Text.v / Model_Args.v |
| src/analysis.rs | Model_Analysis.v (bins, draws, rows, grouping of files, `analyze`), Model_Args.v (arguments, file header, file names) |
| src/argument.rs, src/setup.rs, src/macros.rs, moledyn_proc/src/lib.rs | Model_Args.v |
| src/error.rs | Base.v (`errcode`), Model_Error.v |
| tests/merge_fpt.rs, tests/n_ptl_rts_iterator.rs, tests/large_n_simulation.rs, examples/mfpt_exp.rs | Model_Run.v |
| tests/rts_n_searcher.rs, tests/single_ptl_rts.rs | Model_Search.v |
| examples/mfpt_exp.rs as a whole program, `analyze` on the texts of a directory, the exported texts | Model_Program.v, Model_Program2.v (vectors of times, processes) |
| the disk under a sequence of calls, also killed ones (setup.rs 49-93, analysis.rs 533-573) | Model_Disk.v |

**Not modelled**

* rand / rand_pcg generators, libm, OS, allocation failure, overflow of `usize` counters (2^64 steps), what a panic does to the process;
* the bodies of `benches/`, the tests other than those above, `examples/token_tree.rs`;
* the actual writing of files (creation of directories, input/output errors; the model gives paths and texts; a killed run leaves its file as it was after one of its flushes), `TypeName`/`type_of`, the brief usage texts' layout;
* `src/target_mod/cont_boundary.rs` (not compiled: not declared in `target_mod/mod.rs`).

## 4. Findings: where the code does not do what one would expect

Each is a theorem about the model (name ending in `_counterexample`), that is a concrete run or an exact characterisation of the
failing inputs.  The properties are stated with these limits in view: the positive theorems of the same number say where the
property does hold.

| theorem | what it shows |
|---------|---------------|
| `C59_deviation_nan_counterexample` | Limit of C59: the deviation of three samples 1/10 is NaN, although the true one is zero - within the bound of [near_deviation], which allows this. |
| `C31_f64_cylinder_agent_outside_counterexample` | Limit of C31 for cylinders: a fresh agent is placed at (0, 1.5) in a cylinder of length 1 (radius 1, target at (5,5), samples 1/2, 7/8). |
| `C33_f64_coincident_nan_counterexample` | Limit of C33 for agents at the same place: every coordinate of the direction is NaN (any dimension, any finite position). |
| `C35_own_coefficient_lost_counterexample` | Limit of C35: growing by 0 already changes an agent of diffusion coefficient 2 to coefficient 1. |
| `C08_merge_loses_size_counterexample` | Limit of C08 without the liveness and distinctness conditions, which [merge] does not check: merging into a dead element, or an element into itself, succeeds and the size of [j] is gone; |
| `C08_failed_merge_grows_counterexample` | and merging a dead element is reported as an error after [i] has grown. |
| `C36_nan_sample_is_counted_counterexample` | A NaN sample is not inside any range, yet it is counted, in bin 0. |
| `C37_maximum_panics_counterexample` | Bins given by their number ([update_from_num_bin]): the maximum itself is in range but makes the analysis panic - for every range and every number of bins in exact arithmetic, and for [1, 11] with 10 bins in binary64. |
| `C37_f64_maximum_panics_counterexample` | (see the line above) |
| `C37_f64_wrong_bin_counterexample` | Binary64: a sample can land one bin too high (minimum 1, bins of the double nearest 0.1: 1.5 lies in bin 4 and is counted in bin 5). |
| `C37_f64_zero_bin_size_panics_counterexample` | Degenerate sizes are accepted and then panic: bin size 0 and factor 1 when allocating, factor 1/2 at the first sample in range. |
| `C37_f64_factor_one_panics_counterexample` | (see the line above) |
| `C37_f64_factor_half_panics_counterexample` | (see the line above) |
| `C38_nonpositive_process_lost_counterexample` | What the export loses. A process whose values are never positive exports nothing. |
| `C38_last_bin_lost_counterexample` | The multi-column export drops the last bin when its centre is above the maximum, with the samples in it ... |
| `C38_small_density_lost_counterexample` | ... the single-variable export drops samples when the bins are very wide ... |
| `C38_f64_narrow_bin_panics_counterexample` | ... and in binary64 the multi-column export panics when the bin is smaller than the spacing of the numbers. |
| `C39_f64_equal_samples_counterexample` | Binary64: three equal samples of 0.1 have standard deviation NaN; no sample gives NaN for both; an empty data file is reported so. |
| `C39_f64_no_sample_counterexample` | (see the line above) |
| `C39_f64_empty_file_counterexample` | (see the line above) |
| `C39_titles_do_not_match_counterexample` | The summary file: the titles say ensemble, mean, deviation; single-variable and process rows are written mean, deviation, ensemble. |
| `C40_process_clear_keeps_points_counterexample` | The process analysis forgets to reset its number of points: per bin all is as fresh, but the long-term mean is divided by the points from before the clear as well. |
| `C40_process_mean_after_clear_counterexample` | (see the line above) |
| `C41_close_parameters_merge_counterexample` | Different parameters that are merged, whatever the hash: closer than 1e-10; -k e-10 and (k+1) e-10; all above about 1.8e9; in binary64 even 4.2e-9 and 4.3e-9. |
| `C41_negative_merges_with_positive_counterexample` | (see the line above) |
| `C41_large_parameters_merge_counterexample` | (see the line above) |
| `C41_f64_decimal_collision_counterexample` | (see the line above) |
| `C42_cylinder_counterexample` | Limit of C42 for cylindrical systems and mixed boundary conditions: their texts contain a colon, and reading the printed lines is an error, whatever the other values are. |
| `C42_mixed_boundary_counterexample` | (see the line above) |
| `C42_colon_in_directory_counterexample` | (see the line above) |
| `C43_too_few_counterexample` | With fewer arguments than are to be skipped the program crashes. |
| `C43_fixed_variant_counterexample` | The [_fixed] variant hands the skipped arguments over too, so with a skipped program name (4 or 5 arguments) the analysis either gets a wrong number of arguments or takes the program name for the lower bound. |
| `C43_vector_analysis_counterexample` | The analysis of vectors asks for 5 or 6 arguments, but only 4 or 5 reach it: 4 are an error there, and 6 never get there. |
| `C44_overwritten_counterexample` | Limit of C44: the position of the target, the diffusion coefficient, the way of initialising, the number of samples and the seed do not enter the name, so a second run that differs only in these creates the same file again. |
| `C45_cylinder_and_merging_counterexample` |  |
| `C45_boundary_target_counterexample` | The generator knows a boundary target, for which no structure is compiled. |
| `C46_codes_counterexample` | Limit of C46: "distinguishes different error codes" does not hold. |
| `C55_too_few_bins_counterexample` | Fewer than ten bins, or a negative or empty range: the analysis stops with InvalidArgumentInput before a file is read. |
| `C60_nan_size_counterexample` | Limit of C60: not-a-number passes every test of a size. |
| `C60_kind_not_checked_counterexample` | Limit of C60: a boundary condition that does not fit the kind of system is kept by the disc (which always reflects), and a specific start of any dimension is accepted by the other agents. |
| `C67_first_step_is_zero_counterexample` | Limit of C67: a search that succeeds in the first step is recorded as zero, as one that does not succeed within the time limit. |
| `C67_no_searchers_counterexample` | Limit of C67: without searchers every value is zero. |
| `C67_start_ignored_counterexample` | Limit of C67: the initial positions on the command line have no effect on the values. |
| `C67_f64_idx_set_not_averaged_counterexample` | Limit of C67: runs with different [idx_set], made to enlarge the ensemble, are never averaged together (doubles, no collision of the two digests). |
| `C58_other_target_replaces_counterexample` | Limit of C58: runs that differ only in the position of the target, the movement, the start, the number of searches or the seed use one file: only the last one's values are left. |
| `C73_coefficient_ignored_counterexample` | Limit of C73: the diffusion coefficient the agents were made with has no influence at all. |
| `C76_wrapped_translation_counterexample` | Limit: a wrapped translation changes taxi distances. |
| `C77_nan_not_equal_counterexample` | A position with a NaN is not equal to itself; a NaN behind a difference does not matter. |
| `C68_cut_number_counterexample` | Limit of C68: a file that ends inside a number (the beginning [t] of it was written) is not recognised as incomplete: what stands there is one more line of data, counted with the number [y] it happens to show, and the analysis panics if it shows none. |
| `C74_grazing_step_counterexample` | So the exact reflection does not accept every short step: from a point on the unit circle, every step along the tangent, however short, is refused as a too large time step, while the reflection along the ray accepts it. |
| `C75_disc_files_differ_counterexample` |  |
| `C11_inplace_rejects_other_dimension_counterexample` | C11: so "the in-place operations reject operands of a different dimension" is false. |
| `C13_distance_overflow_counterexample` | Limit of C13 beyond: a difference of 46341 overflows the i32 product (panic in a debug build, the wrapped value -2147479015, whose square root is NaN, in a release build); and the taxi distance wraps to a negative number. |
| `C13_taxi_overflow_counterexample` | (see the line above) |
| `C54_note_in_directory_panics_counterexample` | Limit of C54: ... but a note with a line "author: me" makes the whole analysis panic. |
| `C55_ensemble_column_is_mean_counterexample` | Limit of C55: in every row of the summary the word under the title "ensemble" is the mean, and the number of samples stands under "stddev". |
| `C56_large_system_counterexample` | Limits of C56: for a system of size 1e20, and for a repulsion of strength -20, index sets 1 and 2 get the same seed (and so, by the theorem above, the same data). |
| `C56_negative_strength_counterexample` | (see the line above) |
| `C56_seed_overflow_counterexample` | Limit of C56: a seed that overflows 128 bits makes the (debug) program panic. |
| `C57_vector_titles_counterexample` | Limit of C57: with any other number of columns than one the title line does not fit the rows: it always has three titles, a row 1 + 2 nvar values. |
| `C57_process_ensemble_column_counterexample` | Limit of C57: in every row of the summary of processes the word under the title "ensemble" is the mean, and the number of runs stands under "long_term_stddev". |
| `C66_time_limit_ignored_counterexample` | Limit of C66: the time limit on the command line has no effect, neither on the values nor on the file. |
| `C66_step_not_recorded_counterexample` | Limit of C66: the step is not written to the configuration (only to the name of the file): runs with different steps have the same configuration lines. |
| `C66_analysis_cannot_read_counterexample` | Limit of C66: as the lines of the clock are missing, the analysis of the same program cannot read any file the program writes: on a directory of such files it panics or gives no result at all, and it panics as soon as one run had an output directory whose name is not a number. |
| `C81_process_keeps_points_counterexample` | Limit of C81: a process keeps the number of points from before, through clear, new bins and allocation. |
| `C81_vectors_mix_counterexample` | Limit of C81: an analysis of vectors forgets the sums but not the number of samples when its vectors are allocated: the means shown are the sums of the new samples over the number of all. |
| `C81_mean_of_twos_counterexample` | ... for instance, in double precision: one sample 2, new bins, one sample 2, and the mean shown is 1. |
| `C81_not_allocated_counterexample` | Limit of C81: new bins without new vectors: a sample inside the range can make the analysis crash. |
| `C72_tangential_nan_counterexample` |  |
| `C80_coincident_agents_counterexample` |  |
| `C79_lost_searcher_counterexample` |  |
| `C52_no_searcher_counterexample` | Limit of C52: without searchers the time is [f64::MAX], not an error. |
| `C52_default_vector_counterexample` | Limit of C52: a default position has no coordinates and is not a usable scratch vector; the free diffusion test stops at its first step. |
| `C53_no_samples_counterexample` | Limit of C53: the mean over no samples is not a number. |
| `C19_f64_overflow_gives_nan_and_ok_counterexample` | Limit of C19: unit ball, position 0, displacement 2^600: the norm overflows, the position becomes NaN and the result is Ok. |
| `C19_f64_nan_displacement_is_ok_counterexample` | Limit of C19: a NaN displacement is accepted by all three systems. |
| `C19_f64_huge_cube_gives_nan_counterexample` | Limit of C19: a cube wider than 2^1022 turns an overflowing move into NaN and accepts it. |
| `C24_f64_cylindrical_random_to_outside_counterexample` |  |
| `C24_zero_radius_cylinder_never_returns_counterexample` | Limit of C24: [convert_from] lets a cylinder of radius 0 through, and then [random_pos] never returns. |
| `C25_cylinder_without_axis_out_is_inside_counterexample` | Limit of C25: a cylinder without axial coordinates (radius 10, length 1, dimension 2): the "outside" point (2,2) is inside. |
| `C25_f64_tiny_or_infinite_ball_out_is_inside_counterexample` | Limit of C25: in a ball of radius 2^-539 the squares underflow and every "outside" point is inside; also for radius infinity. |
| `C26_check_bc_dimension_errors_counterexample` | Limit of C26: a displacement that is too short panics; one that is too long is silently accepted; a position of the wrong dimension is changed before the error is returned. |
| `C27_failed_step_moves_position_counterexample` | Limit of C27: after Err(TooLargeTimeStep) the position has been moved (cube of half-width 1: 0 + 10 ends at 8; unit ball: 0 + 10 ends at -8). |
| `C28_f64_nan_is_inside_counterexample` | Limit of C28: a position of NaNs is inside every system. |
| `C28_f64_norm_overflow_counterexample` | Limit of C28: in a ball of radius 2^600 the point at distance 2^520 from the centre is reported outside. |
| `C50_first_order_from_centre_counterexample` | Doubles: false. A step out of the ball that starts at its centre divides 0 by 0; the result is not a number and is accepted. |
| `C69_shifted_counterexample` | Limit of C69: titles have nothing between them and data have a tab, so that from the second column on no cell of a line stands under its title, |
| `C69_joined_counterexample` | and two titles of which the first fills its cell are not separated at all: the line is the one of their joined text. |
| `C12_bad_text_counterexample` | Limit of C12: "an unparsable coordinate is rejected" does not hold: no text is ever rejected. |
| `C12_space_after_comma_counterexample` | In particular "(1.0, 2.0)", with a space after the comma, is read as (1.0, 0.0) if " 2.0" is not the text of a number. |
| `C29_time_type_counterexample` | so two steps with the same five decimals print the same, and one of them does not read back. |
| `C29_blank_text_counterexample` | Limit of C29: "malformed text gives Err rather than a panic" does not hold: blank text crashes six of the eight parsers. |
| `C15_set_inc_steps_below_minimum_counterexample` | Limit of C15 after [set_inc] on a clock of length 1: inc becomes 1/2 and the second step (1/2) is below dt_min = 1. |
| `C17_f64_clock_never_ends_counterexample` | Limit of C17 in binary64 beyond that: with dt = 1 and tmax = 2^54 the clock reaches 2^53, where adding 1 rounds back, and yields values <= tmax forever. |
| `C18_nan_accepted_counterexample` | Limit of C18: NaN steps are accepted. |
| `C18_length_two_never_increases_counterexample` | Limit of C18: a length-2 exponential clock gets inc = 1 and never increases its step. |
| `C18_zero_step_accepted_counterexample` | Limit of C18: [convert_from] accepts a zero step, and that clock stays at time 0 forever. |
| `C18_small_tmax_becomes_infinite_counterexample` | Limit of C18: a positive tmax below 1e-10 is silently replaced by infinity (f64::MAX). |
| `C63_vector_analysis_counterexample` | Limit of C63 for the analysis of vectors: it lists six arguments, but with six the program prints the message again (unless this is the number of the arguments of the simulation). |
| `C63_short_form_counterexample` | Limit of C63: the shorter form of the analysis, with the number of bins in the third place, is not mentioned. |
| `C63_cleared_target_counterexample` | Limit of C63: a cleared target cannot be printed (the program crashes), and a cleared system cannot be built. |
| `C61_tiny_step_refused_counterexample` | Limit of C61: the window at the wall is not empty. In the disc of radius 7 a searcher inside it makes a step of 2^-20 that ends within rounding of the wall: the step is reported as TooLargeTimeStep (and the run that made it ends). |

## 5. What `Print Assumptions` lists

The property files run `Print Assumptions` after every theorem.  No axiom of this development exists; the standard library's that
occur are

* `D` = `ClassicalDedekindReals.sig_forall_dec` and `ClassicalDedekindReals.sig_not_dec` (the construction of the reals),
* `F` = `FunctionalExtensionality.functional_extensionality_dep` (used by the same construction),
* `C` = `Classical_Prop.classic` (used by Flocq's rounding lemmas and by the reals' analysis).

Theorems by the set they depend on:

* closed under the global context (no axiom) — 315 theorems: `C01_chains_agree_with_alive_flags`, `C01_list_refines_live_sequence`, `C01_no_panic`, `C01_push_appends`, `C02_del_exact`, `C03_any_mix_of_advancing_calls`, `C03_iteration_with_deletions`, `C03_one_call_any_form`, `C03_plain_iteration`, `C03_returned_element_is_live`, `C04_any_mix_of_advancing_calls`, `C04_double_iteration_all_pairs`, `C04_one_call_any_form`, `C04_pairs_are_the_unordered_pairs`, `C05_coalescing_double_iteration`, `C05_returned_pair_is_live`, `C06_calm_iteration_complete`, `C06_deleting_first_cursor_self_pair`, `C06_deleting_last_of_row_ends`, `C06_deletion_tolerated_iff`, `C07_connect_all_restores`, `C08_any_merge_history_conserves_total`, `C08_failed_merge_grows_counterexample`, `C08_merge_conserves_total`, `C08_merge_loses_size_counterexample`, `C08_merge_refused`, `C08_merging_agents_any_history`, `C08_merging_agents_conserve_size`, `C09_clear_live_only`, `C09_positions_zeroed`, `C10_distance_rejects_exactly_different_dimensions`, `C11_add_sub_coordinatewise`, `C11_bench_add`, `C11_extend_and_clear`, `C11_inner_product`, `C11_inplace_operand_cut`, `C11_scalar_mul_coordinatewise`, `C12_bad_text_counterexample`, `C12_distinct_text`, `C12_faithful_number_text_exists`, `C12_pair_reading`, `C12_reading`, `C12_round_trip`, `C12_space_after_comma_counterexample`, `C13_distance_debug_panics_iff`, `C13_rejects_other_dimension`, `C13_release_formulas`, `C13_taxi_debug_exact_or_panic`, `C13_taxi_exact`, `C13_taxi_overflow_counterexample`, `C14_constant_clock`, `C14_constant_clock_diff`, `C14_constant_clock_stays_ended`, `C15_exponential_clock_chain`, `C15_exponential_clock_stays_ended`, `C15_plain_and_diff_agree`, `C16_constant_renew`, `C16_constructors_are_fresh`, `C16_exponential_renew`, `C18_convert_exact`, `C18_exponential_set_tmax_validates`, `C18_new_exact`, `C18_set_inc_exact`, `C18_set_tmax_validates`, `C19_ok_is_accepted_by_inclusion`, `C20_interior_moves_exact`, `C25_out_to_vec_agrees`, `C26_check_bc_dimensions`, `C26_inclusion_reports_dimension`, `C27_too_large_step_loses_the_position`, `C29_agent_type`, `C29_blank_text_counterexample`, `C29_boundary_condition`, `C29_default_interaction`, `C29_distinct_boundary_conditions`, `C29_distinct_init_types`, `C29_distinct_interact_types`, `C29_distinct_move_types`, `C29_distinct_system_types`, `C29_distinct_target_and_agent_types`, `C29_init_type`, `C29_interact_number`, `C29_interact_type`, `C29_move_type`, `C29_reading_agent_type`, `C29_reading_boundary_condition`, `C29_reading_init_type`, `C29_reading_interact_type`, `C29_reading_move_type`, `C29_reading_system_type`, `C29_reading_target_type`, `C29_reading_time_type`, `C29_reading_words`, `C29_system_type`, `C29_target_type`, `C29_time_type_constant`, `C29_time_type_counterexample`, `C29_time_type_exponential`, `C30_find_rejects_exactly_other_dimensions`, `C31_unfit_recipe_refused`, `C31_wrong_target_never_succeeds`, `C32_constructors_set_coefficients`, `C32_uniform_and_renew_set_coefficients`, `C33_to_vec_agrees`, `C34_errors_change_nothing`, `C34_random_move`, `C34_random_move_to_vec`, `C35_add_size`, `C35_growth_additive`, `C35_merge_is_add_size`, `C36_columns_are_independent`, `C36_counts_add_up`, `C36_first_row_sets_columns`, `C36_process_counts`, `C38_draw_and_clear_never_fail`, `C38_process_draw_and_clear_never_fail`, `C38_vector_draw_and_clear_never_fail`, `C39_one_column_matches`, `C39_titles_do_not_match_counterexample`, `C40_clear_is_fresh`, `C40_process_clear_keeps_points_counterexample`, `C40_vector_clear_is_fresh`, `C41_equal_parameters_merge`, `C41_groups`, `C42_colon_in_directory_counterexample`, `C42_configuration_reads_back`, `C42_cylinder_counterexample`, `C42_mixed_boundary_counterexample`, `C43_agents_from_words`, `C43_analysis`, `C43_analysis_words`, `C43_blocks_unique`, `C43_fixed_variant_counterexample`, `C43_modes_do_not_clash`, `C43_one_structure`, `C43_run`, `C43_systems_from_words`, `C43_too_few_counterexample`, `C43_vector_analysis_counterexample`, `C43_vector_analysis_words`, `C43_wrong_number`, `C44_directory_is_found`, `C44_directory_is_new`, `C44_file_name`, `C44_histogram_name`, `C44_overwritten_counterexample`, `C45_accepted_exactly`, `C45_accepted_input`, `C45_boundary_target_counterexample`, `C45_cylinder_and_merging_counterexample`, `C45_fields_exist`, `C45_last_comma_ignored`, `C45_unknown_names_rejected`, `C46_codes_counterexample`, `C46_equivalence`, `C46_every_error_has_one_kind`, `C46_kinds`, `C46_texts_differ`, `C47_clocked_simulation`, `C47_independent_simulation`, `C47_independent_step`, `C47_merging_run`, `C47_merging_simulation`, `C47_merging_step`, `C47_mfpt_exp_outcomes`, `C47_nobody_never_ends`, `C48_independent_pass`, `C48_independent_run`, `C48_merging_pass`, `C48_merging_run`, `C48_placing`, `C48_same_samples_same_clocked_simulation`, `C48_same_samples_same_independent_simulation`, `C48_same_samples_same_merging_simulation`, `C48_same_samples_same_mfpt_exp`, `C48_vector_routines`, `C49_interior_and_accepted`, `C52_default_vector_counterexample`, `C52_no_searcher_counterexample`, `C52_same_as_list_of_one`, `C52_search`, `C53_mean`, `C53_samples_determined`, `C54_command_line`, `C54_cut_file`, `C54_dimension_mismatch_panics`, `C54_groups`, `C54_note_in_directory_panics_counterexample`, `C54_other_files_skipped`, `C54_process_data_read`, `C54_run_again`, `C54_run_file`, `C54_run_leaves_data_file`, `C54_time_data_read`, `C54_vector_data_read`, `C55_analysis_succeeds`, `C55_command_line`, `C55_ensemble_column_is_mean_counterexample`, `C55_names_identify`, `C55_result_files`, `C55_too_few_bins_counterexample`, `C56_same_seed_same_data`, `C56_seed_overflow_counterexample`, `C57_process_ensemble_column_counterexample`, `C57_process_files`, `C57_process_groups`, `C57_vector_files`, `C57_vector_groups`, `C57_vector_titles_counterexample`, `C57_wrong_width_fails`, `C58_analysis_after_calls`, `C58_directory_after_calls`, `C58_other_target_replaces_counterexample`, `C58_repeated_run_repairs`, `C58_same_file_iff`, `C60_agents`, `C60_agents_same_as_new`, `C60_default_interaction`, `C60_kind_not_checked_counterexample`, `C60_new_agents`, `C60_same_as_new`, `C60_target`, `C63_analysis_names`, `C63_clear`, `C63_cleared_can_be_written`, `C63_cleared_target_counterexample`, `C63_following_the_message`, `C63_message`, `C63_new`, `C63_printed_exactly_when_the_number_is_wrong`, `C63_short_form_counterexample`, `C63_simulation_parameters`, `C63_vector_analysis_counterexample`, `C64_agent_classes`, `C64_assign`, `C64_build`, `C64_clock_with_differences`, `C64_ranges`, `C64_read`, `C65_default_is_empty`, `C66_analysis_cannot_read_counterexample`, `C66_analysis_command`, `C66_command_line`, `C66_nothing_written`, `C66_step_not_recorded_counterexample`, `C66_time_limit_ignored_counterexample`, `C67_analysis_command`, `C67_analysis_succeeds`, `C67_command_line`, `C67_first_step_is_zero_counterexample`, `C67_groups`, `C67_no_searchers_counterexample`, `C67_nothing_written`, `C67_result_files`, `C67_run_again`, `C67_run_file`, `C67_start_ignored_counterexample`, `C67_value_determined`, `C68_appended`, `C68_cut_number_counterexample`, `C68_directory`, `C68_file`, `C68_last_line`, `C68_lines`, `C68_run_files`, `C69_columns`, `C69_configuration`, `C69_data`, `C69_data_cut`, `C69_distribution`, `C69_joined_counterexample`, `C69_public_data_cut`, `C69_shifted_counterexample`, `C69_summary_line`, `C69_summary_titles`, `C69_text_refused`, `C69_titles`, `C70_agents_accept`, `C70_analysis`, `C70_building`, `C70_calls_exist`, `C70_clocks_accept`, `C70_directory`, `C70_example`, `C70_file_names`, `C70_no_confusion`, `C70_places_accept`, `C70_program_exists`, `C70_refused`, `C70_run`, `C70_unreadable_word`, `C70_values_survive`, `C70_wrong_number`, `C71_walk_deterministic`, `C73_coefficient_ignored_counterexample`, `C73_mfpt_exp_samples_independent`, `C73_reused_agents_mean`, `C73_used_agents_are_as_good_as_new`, `C75_binned_data`, `C75_disc_files`, `C75_points_read_back`, `C75_vector_files`, `C76_debug_exact_or_panic`, `C76_in_place_forms`, `C76_laws`, `C76_release_wraps`, `C76_wrapped_translation_counterexample`, `C77_index`, `C77_slices`, `C81_clear_then_new_bins`, `C81_new_number`, `C81_new_sizes`, `C81_new_sizes_process`, `C81_new_sizes_vector`, `C81_process_keeps_points_counterexample`.

* depends on C, D, F — 267 theorems: `C10_distance_is_a_metric`, `C10_distance_is_euclidean`, `C10_f64_distance_accuracy`, `C10_f64_distance_nonnegative`, `C10_f64_distance_symmetric`, `C10_f64_distance_to_self`, `C10_norm_is_euclidean`, `C11_inner_product_is_dot`, `C11_inplace_rejects_other_dimension_counterexample`, `C13_distance_correctly_rounded`, `C13_distance_overflow_counterexample`, `C13_norm_correctly_rounded`, `C14_f64_times_never_decrease`, `C15_exponential_clock_closed_form`, `C15_f64_exponential_clock`, `C15_set_inc_steps_below_minimum_counterexample`, `C17_constant_clock_count`, `C17_exponential_clock_ends`, `C17_f64_clock_never_ends_counterexample`, `C17_f64_constant_clock_ends`, `C17_f64_constant_clock_ends_iff`, `C17_f64_exponential_clock_ends`, `C18_constant_new_validates`, `C18_exponential_new_validates`, `C18_f64_new_positive`, `C18_length_two_never_increases_counterexample`, `C18_nan_accepted_counterexample`, `C18_set_inc_validates`, `C18_small_tmax_becomes_infinite_counterexample`, `C18_zero_step_accepted_counterexample`, `C19_circular_ends_inside`, `C19_cubic_ends_inside`, `C19_cylindrical_ends_inside`, `C19_f64_circular_ends_inside`, `C19_f64_cubic_ends_inside`, `C19_f64_cylindrical_ends_inside`, `C19_f64_huge_cube_gives_nan_counterexample`, `C19_f64_nan_displacement_is_ok_counterexample`, `C19_f64_overflow_gives_nan_and_ok_counterexample`, `C21_circular_reflection`, `C22_cubic_walls`, `C22_f64_cubic_walls`, `C23_cylinder_walls`, `C24_circular_random_inside`, `C24_circular_random_to_inside`, `C24_cubic_random_inside`, `C24_cubic_random_to_inside`, `C24_cylindrical_random_inside`, `C24_cylindrical_random_to_inside_iff`, `C24_cylindrical_random_to_twice_as_long`, `C24_f64_circular_random_inside`, `C24_f64_circular_random_to_inside`, `C24_f64_cubic_random_inside`, `C24_f64_cubic_random_to_inside`, `C24_f64_cylindrical_random_inside`, `C24_f64_cylindrical_random_to_outside_counterexample`, `C24_f64_cylindrical_random_to_twice_as_long`, `C24_zero_radius_cylinder_never_returns_counterexample`, `C25_circular_out_is_outside`, `C25_cubic_out_is_outside`, `C25_cylinder_without_axis`, `C25_cylinder_without_axis_out_is_inside_counterexample`, `C25_cylindrical_out_is_outside`, `C25_f64_circular_out_is_outside`, `C25_f64_cubic_out_is_outside`, `C25_f64_cylindrical_out_is_outside`, `C25_f64_tiny_or_infinite_ball_out_is_inside_counterexample`, `C26_check_bc_dimension_errors_counterexample`, `C27_failed_step_moves_position_counterexample`, `C28_f64_circular_inclusion`, `C28_f64_circular_inside_is_finite`, `C28_f64_cubic_inclusion`, `C28_f64_nan_is_inside_counterexample`, `C28_f64_norm_overflow_counterexample`, `C28_inclusion_exact`, `C30_f64_find`, `C30_find_iff_closer_than_size`, `C31_cylinder_agents`, `C31_f64_cylinder_agent_outside_counterexample`, `C31_f64_new_inside_off_target`, `C31_f64_renewed_inside_off_target`, `C31_new_is_rejection_sampling`, `C31_renew_is_rejection_sampling`, `C32_exponential_force`, `C32_lennard_jones_force`, `C33_f64_coincident_nan_counterexample`, `C33_f64_reaction_exact`, `C33_pair_pass`, `C33_unit_vector_and_reaction`, `C34_random_move_to_vec_reals`, `C35_growth_law_iff_unit_coefficient`, `C35_own_coefficient_lost_counterexample`, `C35_renewal_resets`, `C36_exact_order_of_samples`, `C36_f64_order_of_samples`, `C36_nan_sample_is_counted_counterexample`, `C36_order_of_samples`, `C37_accepted_sizes`, `C37_every_value_has_a_bin`, `C37_exact_bins`, `C37_f64_factor_half_panics_counterexample`, `C37_f64_factor_one_panics_counterexample`, `C37_f64_maximum_panics_counterexample`, `C37_f64_never_out_of_bounds`, `C37_f64_wrong_bin_counterexample`, `C37_f64_zero_bin_size_panics_counterexample`, `C37_maximum_panics_counterexample`, `C37_number_of_bins_converted`, `C38_columns_exported`, `C38_columns_never_fail`, `C38_exported_rows`, `C38_f64_narrow_bin_panics_counterexample`, `C38_last_bin_lost_counterexample`, `C38_never_fails`, `C38_nonpositive_process_lost_counterexample`, `C38_normalised`, `C38_process_exported`, `C38_process_never_fails`, `C38_small_density_lost_counterexample`, `C39_f64_empty_file_counterexample`, `C39_f64_equal_samples_counterexample`, `C39_f64_no_sample_counterexample`, `C39_moments`, `C39_process_moments`, `C40_process_mean_after_clear_counterexample`, `C41_close_parameters_merge_counterexample`, `C41_f64_decimal_collision_counterexample`, `C41_f64_merged_are_close`, `C41_f64_run_never_fails`, `C41_grid_parameters_separated`, `C41_large_parameters_merge_counterexample`, `C41_merged_exactly`, `C41_negative_merges_with_positive_counterexample`, `C41_order_of_files`, `C41_process_run_never_fails`, `C41_run_never_fails`, `C41_vector_run_never_fails`, `C47_clock_reports_start_of_step`, `C47_f64_limit_is_the_smaller_length`, `C47_limit_is_the_smaller_length`, `C47_merging_run_geometry`, `C47_mfpt_exp_in_a_ball_never_fails`, `C47_mfpt_exp_time_counts_skipped_step`, `C47_moves_are_limited`, `C47_reported_time`, `C48_repelling_step`, `C49_exact_mirror_image`, `C50_f64_numbers_inside`, `C50_first_order_close_to_exact`, `C50_first_order_exact_reals`, `C50_first_order_from_centre_counterexample`, `C50_first_order_position`, `C51_random_positions_are_rejection_sampling`, `C52_matching_vector`, `C52_minimum`, `C52_minimum_f64`, `C52_reused_vector`, `C53_mean_value`, `C53_no_samples_counterexample`, `C55_bins_by_number`, `C55_f64_ample_analysis_succeeds`, `C55_f64_analysis_succeeds`, `C55_f64_bins_by_number`, `C56_exact_seeds`, `C56_f64_seed_of_any_hash`, `C56_f64_seeds_increase`, `C56_large_system_counterexample`, `C56_negative_strength_counterexample`, `C56_race_seed_value`, `C56_race_seeds_increase`, `C56_seed_value`, `C57_f64_process_analysis_succeeds`, `C57_f64_vector_analysis_succeeds`, `C59_clock_times`, `C59_density`, `C59_deviation_nan_counterexample`, `C59_ensemble_mean`, `C59_log_density`, `C59_mean_and_deviation`, `C59_process`, `C59_tick_count`, `C59_vector_columns`, `C60_default_interaction_force`, `C60_nan_size_counterexample`, `C60_systems`, `C61_ball_close`, `C61_cube_exact`, `C61_cylinder_close`, `C61_move_rounded_once`, `C61_tiny_step_refused_counterexample`, `C62_exact_away_from_edges`, `C62_f64_process_exports_succeed`, `C62_f64_vector_exports_succeed`, `C62_process_counts`, `C62_process_rows`, `C62_time_counts`, `C62_time_rows`, `C62_vector_counts`, `C62_vector_rows`, `C65_default_counts`, `C65_default_is_set_up`, `C65_default_vector_never_fails`, `C65_f64_default_is_set_up`, `C65_f64_default_never_fails`, `C65_f64_fine_default_is_set_up`, `C65_f64_fine_defaults_never_fail`, `C66_exact_refused`, `C66_exact_value`, `C66_f64_refused`, `C66_f64_run_file`, `C66_f64_value`, `C67_f64_idx_set_not_averaged_counterexample`, `C71_brownian_walk`, `C71_exponential_force`, `C71_exponential_potential`, `C71_free_walk`, `C71_inner_product`, `C71_lennard_jones_force`, `C71_lennard_jones_potential`, `C71_pair`, `C71_random_step`, `C72_exact_reflection_close`, `C72_first_order_close`, `C72_first_order_image_exact`, `C72_inside_unaltered`, `C72_numbers_inside`, `C72_tangential_nan_counterexample`, `C73_mean_with_coefficient_one`, `C74_exact_accepts`, `C74_f64_radial_close_to_mirror`, `C74_grazing_step_counterexample`, `C74_radial_accepts`, `C74_radial_close_to_exact`, `C74_straight_outward`, `C75_bin_bounds`, `C75_disc_files_differ_counterexample`, `C75_disc_files_same`, `C75_outliers`, `C77_f64_order`, `C77_nan_not_equal_counterexample`, `C77_order_is_lexicographic`, `C78_check_never_fails`, `C78_error_test_writes_nothing`, `C78_f64_tests_pass`, `C78_realization_rows`, `C78_reflection_test_passes`, `C79_boundary_step`, `C79_clocked_simulation`, `C79_independent_simulation`, `C79_lost_searcher_counterexample`, `C79_merging_run`, `C79_merging_simulation`, `C79_merging_step`, `C79_searching_run`, `C79_searching_step`, `C80_coincident_agents_counterexample`, `C80_move_is_limited`, `C80_run`, `C80_sample`, `C80_step`, `C81_f64_new_number_refused`, `C81_mean_of_twos_counterexample`, `C81_new_number_refused`, `C81_not_allocated_counterexample`, `C81_processes_go_on`, `C81_times_go_on`, `C81_vectors_mix_counterexample`.


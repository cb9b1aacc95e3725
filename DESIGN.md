# Formal model of openmps/openmps in Rocq (Coq 8.16.1)

## 1. What is modelled, and how

All of the program that computes something is modelled, function by function; every definition in an `M_*.v` file cites
the lines of `/repo/src/OpenMps` it stands for.

| file | models |
|------|--------|
| `M_Num` | the operations the C++ applies to `double`, as a record `num`; `Vector`, `Matrix` of `defines.hpp`/`Vector.hpp` |
| `M_NumR`, `M_NumF`, `M_NumB` | the instances of `num`: exact reals; IEEE-754 binary64 as `SpecFloat` (to run it); binary64 as Flocq's `binary_float` (to reason about it), with a proof that both compute the same |
| `M_Config` | the switches of `defines.hpp` (2-D/3-D, `MPS_HS`, `MPS_HL`, `MPS_ECS`, `MPS_GC`, `MPS_DS`, `MPS_SPP`, `PRESSURE_GRADIENT_MIDPOINT`, `PRESSURE_EXPLICIT`, `CENTRAL_GRAVITY`) as fields of a record, over which the theorems quantify |
| `M_Particle`, `M_Env`, `M_Grid` | `Particle.hpp`, `Environment.hpp`, `Grid.hpp` (storage, cell numbers, `Store`, `Clear`, the iterator) |
| `M_Computer` | `Computer.hpp`: neighbour search, `AccumulateNeighbor`, densities, error correction, viscosity and gravity, wall motion, the pressure matrix and right-hand side, the conjugate-gradient solver, the explicit pressure, the pressure gradient with and without correction matrix, dynamic stabilisation, `DetermineDt`, `ForwardTime`, `AddParticles`, histories of API calls |
| `M_Par` | the OpenMP loops as threads reading and writing shared locations step by step, and concurrent `Grid::Store` calls with `#pragma omp atomic capture` |
| `M_Main` | `Main.cpp`: the main loop, output numbering, the catch clause, exit status |
| `M_Csv` | `Main.cpp` and `stov.hpp`: reading and writing particle tables, as text |
| `M_Text` | `std::stod` (`stov.hpp`), `operator<<(std::ostream&, double)` (`Main.cpp`), the property tree's `stream_translator<double>`: library functions, after their documentation (glibc/libstdc++, "C" locale, default precision 6) |
| `M_Bench` | `Benchmark/*/generate*.py`: which particles, where, and the corners of the domain, as numbers; `M_Script`: the property tree of their files, with the numbers as text |
| `M_Post` | the evaluation scripts `Benchmark/CentralGravity/check_result.py`, `Benchmark/DamBreak/koshizukaoka1996_edge.py`, `koshizukaoka1996_shape.py`, `zhouetal1999.py`: order and reading of the files, time axis, front, surface, gauges and sensor, `calculate_n0` |
| `M_App` | `Main.cpp`: loading of the settings tree (`LoadCondition`, `LoadEnvironment`, `LoadParticles`), file names, the program from settings to files |
| `M_Xml` | `Main.cpp`: `read_xml` (Boost/RapidXML, flags as Boost's default), the program from the text of the settings file; the XML text the benchmark scripts write (`minidom`'s `toprettyxml`) |
| `M_Console` | `Main.cpp`: what is printed on the screen (`printTime`, the error message), next to files and ending |
| `M_Disk` | `Main.cpp`: `OutputToCsv` as operations on the directory |
| `M_Start` | `Main.cpp`: `System`, the arguments of `main`, and the settings file on the disk |
| `M_Fault` | `Main.cpp`: `OutputToCsv` and `main` when files cannot be opened or written |
| `M_Log` | `Main.cpp`: `main` as the sequence of everything that can be seen, files and lines |

Conventions.

* **Arithmetic.** Everything numeric is written once against `num`. Theorems that need no law of arithmetic are proved
  for every `num`, hence for binary64 as well (C02-C04, C08-C10, C25-C28, C37-C47, C56-C59 ...). Theorems about sums,
  forces, the solver are about `Rnum`, i.e. about the program with `double` read as a real number; rounding errors are
  outside of them. Some statements are proved of binary64 itself: C06, C28, C29, C53, C54, C70, C71.
* **Undefined behaviour** is a result of its own (`None` / `Undef`): out-of-bounds accesses, `static_cast` of an
  out-of-range `double` to an integer, `*std::max_element` of nothing. Theorems have to rule it out or say when it happens.
* **Exceptions** carry the state they leave behind; the caller may go on using the object.
* **Loops.** A parallel loop is a pair (compute, write); the sequential run is the model of the phase, and C39 shows that
  every interleaving of reads and writes gives the same state.
* **Division by zero over the reals.** Coq's `x / 0` is an unspecified real where C++ gives inf or NaN. Wherever it would
  matter the theorems exclude it by hypotheses (particles apart, `0 < n0`, `dt <> 0`). It is harmless in C61, which
  equates formula with formula; for coinciding particles that theorem says nothing about the C++ program. With g = 0 the
  constructor computes `sqrt(2 C l0 / 0)` = inf, hence `MaxDt` = the requested maximum, which division over the reals does
  not yield; this is why `E_Rest` writes the weightless environment down.

Files: `M_*` model, `S_*` specifications (no proofs, readable without the model's helpers), `P_*` lemmas, `T_*` property
theorems (named `Cnn_...`), `E_*` examples that meet the hypotheses, `V_*` the repository's own unit tests run on the model (below).

## 2. What is not modelled

* The clock (`Timer.hpp`, date and time on the screen: a parameter of C86), what `std::terminate` prints. Failing output files are part of C89 only; C90 also allows them; the other theorems are about runs in which files can be written. Different paths are taken to name different files.
* `std::stod` and `operator<<` of `double` are parameters of the theorems C43-C46, C64-C66, which so hold for any number format; `M_Text`
  models them as documented (the C++ library itself is not modelled), and C72 is about those. `n(chars)` after `nan`, the sign of a printed NaN and
  numbers of more than 2^31 digits are left out.
* Boost's `read_xml` (RapidXML) and Python's `minidom` are library code, modelled in `M_Xml` as documented; a character reference may
  have any number of digits there; a settings file that cannot be opened is part of C89.
* ViennaCL / uBLAS: the solver is modelled by the expressions in `Computer.hpp` on lists and sparse rows, evaluated
  sequentially. The default build uses ViennaCL with OpenMP, whose reductions have an unspecified order; C76 (`M_Red`) is about all
  these orders. That ViennaCL computes every element of `prod` and of a vector expression sequentially is assumed (it is not in /repo).
* `ARTIFICIAL_COLLISION_FORCE` (`ModifyTooNear`): that code does not compile at this commit (`particles[i]->...` on
  objects, a missing `Environment` member).
* Of the evaluation scripts: plotting and the comparison curves.
* The wall callbacks are arbitrary functions of a hidden state that only the pre-hook changes; that they may be called
  concurrently is assumed.
* Memory exhaustion, 64-bit wrap-around of particle counts (cell numbers are checked against 2^63).
* The code of `C40`: `#pragma omp atomic capture` is taken at its word (an indivisible fetch-and-increment), the memory
  model is sequentially consistent.

## 3. Trusted base

* Coq's kernel (8.16.1), including its `vm_compute` conversion, used for the binary64 witnesses.
* That the model says what the C++ says (section 1; checked by reading, by the seeded errors in `seeded/LOG.jsonl`, and by the
  repository's own unit tests, written down in `V_Tests`: the model passes all of them in binary64 when they are evaluated with `vm_compute` on the tests'
  lattices with the tests' tolerances; the small ones are lemmas there. They are tests, not offered as proofs of any property).
* That the specifications `S_*` and theorem statements say what `properties.jsonl` says.
* Axioms: only those of the standard library listed in section 6; stdpp, Flocq and Coquelicot add none of their own.
  `Print Assumptions` of every theorem is summarised there. There is no `Admitted`, no `Axiom`/`Parameter`, no functor
  or module type, no plugin.

## 4. Properties and proofs

(R): exact arithmetic; (any): every `num`; (64): binary64.

| id | model used | how it is proved |
|----|------------|------------------|
| C01 | search over (R) | block numbers are floors, so points closer than a block are in adjacent blocks; iterator theorem C02; the list is a permutation of the filtered indices |
| C02, C03 | grid (any) | induction over the iterator's position; case analysis of `Store` |
| C04 | search (any) | simulation between two runs that start from different grid contents |
| C05 | grid (any), 3-D | cleared if nx = ny (proof); refuted otherwise by two witnesses (out of bounds; not cleared) |
| C06, C29 | search, matrix: (R) and (64) | symmetry of the squared differences, also after rounding |
| C07 | search (R) | floor arithmetic; the two-block upper margin is part of the statement |
| C08-C10, C38, C47 | API histories (any) | invariants by induction over histories |
| C11 | step (R) | triangle inequality on the lists of C01 |
| C12-C16 | environment, `DetermineDt` (R) | real analysis; finite lattice sums; maximum of a list |
| C17 | (R) and a concrete run | general formula for the throttled dt; witness |
| C18-C22 | density, source, correction (R) | neighbour sums as sums over all particles within the radius; C20 with Coquelicot derivatives |
| C23, C24 | explicit phase (R) | closed form of the phase; antisymmetric double sums |
| C25-C28, C37 | phases (any) | effect of every phase on one particle (`P_Point`) |
| C30, C31 | matrix (R) | rows in closed form; the quadratic form as a sum of squares; induction along a path to the surface |
| C32-C34 | solver (R) | residual invariant; orthogonality and conjugacy by induction, at most n independent directions; invariance of a subspace |
| C35, C36, C50 | gradient, stabilisation (R) | closed forms, antisymmetric double sums, linear algebra |
| C39, C40 | threads | independence of iterations, commutation; counting invariants of `Store` |
| C41, C42 | main loop | induction over steps and files |
| C43-C46 | CSV text | induction over texts and rows |
| C48 | grid (R, B64) | lattice points in a half-open box; cells as keys: a block meets at most m+1 cells along an axis; in B64 the rounding of the block number widens the block by (n+2) 2^-50 NeighborLength |
| C49 | (R) | field arithmetic; witness for the transposed inverse |
| C51 | explicit build (R) | closed form |
| C52, C55 | step (R) | relation between two runs kept by every phase |
| C53, C54 | (64), (R) | witnesses computed by `vm_compute`; bounds |
| C56 | step (any), (R) | every phase is defined on every reachable state; the search fails iff a block is too full; C33 |
| C57-C59 | API histories (any) | relation between two runs: equal up to disabled particles / up to everything not visible |
| C60 | step, main loop (R) | every sum vanishes; induction over steps |
| C61 | step (R) | every phase equals a phase of a scheme written down on plain lists of particles (`S_Scheme`) |
| C62 | step (R) | every phase leaves a particle with an empty neighbour list to gravity; its row of the system is void (CG does not touch it); induction over steps |
| C63 | step (R) | every phase commutes with an isometry and a renumbering: sums over lists that are permutations of each other, symmetric 2x2/3x3 inverses, CG on permuted systems |
| C64-C66 | settings tree to files (any) | inversion of the loading code path by path; decimal numerals denote distinct numbers; induction over files |
| C67 | movement phase (R), (64) | closed form of C24; sums over pairs of fluid particles; witness by computation |
| C68 | step (R) | C61 and antisymmetric double sums; the phases one by one |
| C69 | step, application | every phase but the prescribed motion commutes with a change of callbacks and clock (`P_Conv`); C58; C26; C45 and C66 for the files |
| C70 | (64) `M_NumB` | Flocq's correctness theorems of the operations; monotonicity of rounding; C54-like witnesses for the refutations |
| C71 | (64) search | C53's characterisation; relative errors of difference, quotient, square, sum, root; both block coordinates are off by at most 6n/2^53 |
| C72 | (64) `M_Text` | digits of a fraction (exponent, rounding, carry) over the reals; rows of digits as numbers; Flocq's division for the nearest double; error of rounding |
| C73 | `M_Bench`, step (R) | membership in the lists of cells, no cell twice; a path of cells to the rim or the water surface; gravity moves the fluid of a scene at rest by at most 0.2 l_0 as a whole, so C33_step and C14_step (the step-level forms of C33 and C14) apply; under central gravity everybody moves at most 0.2 l_0 towards the origin, and a corner of the block is at the surface |
| C74 | `M_Script`, `M_App`, `M_Text` (any arithmetic, B64, R) | the paths looked up one by one in the tree of the script; C44_read for the table; C72_setting and C72_stod for the numerals; bounds on round(k l_0); then C73 |
| C75 | `M_Step`, `M_Bench` (R) | a lattice scene that is its own image gives a renumbering; C63 with the run as both sides; then sums over mirror pairs cancel |
| C76 | `M_Red` (any / R / binary64) | the step as a function of the solver's result; the result ranges over all arrangements of its sums; over R each sum is determined (permutation invariance), elsewhere only pressures and fluid motion depend on the result; counterexample to reproducibility by running |
| C77 | the step (R); a run in binary64 | conversion of states to other units (`S_Scale`); every phase commutes with it (`P_Scale`), the solver because a scaled system has the scaled iterates; histories by induction; counterexample for the length unit by running |
| C78 | the step, over R and in binary64 | the scene `S_Tight` is written for any `num`; over R the hypotheses of C33_step are shown; in binary64 by running |
| C79-C81 | the evaluation scripts (`M_Post`), names and contents of the files | numerals of equal length sort as numbers; what `write_csv` writes, cut at commas and line ends; the loops of `calculate_n0` list the lattice of C13; the density after a step is a maximum with N0 |
| C82 | `py_gauges` (`M_Post`), levels and sensor in `S_Gauge` | the table row by row; densities are at least N0 after a step (C81), whoever is not fluid is where it was at first (C26) |
| C83 | `py_sorted`, `py_series`, `py_picture` (`M_Post`) | names sort in one order only; C79 (they sort as written), C41 (when they are written) |
| C84 | pressure equation (R), frames of `S_Scheme` | at a positive maximum all terms of the Laplacian vanish, which spreads to the free surface; elimination for existence; comparison with the unit response for the error; C61 for the program |
| C85 | the XML reader and the scripts' XML writer (text) | grammar (S_Xml) as mutual inductive; the reader follows every derivation; reading is stable under extension of the text, so a cut root would end twice; comments are removed from the tree without changing any path looked up (C65) |
| C86 | the screen output next to the files (any arithmetic; fixed-point format in B64) | each line from the output record of the main loop (C41, C42, C43); rounding of the exact fraction |
| C87 | the directory `result` as a map, opening and appending as events; a kill is a prefix of the events | induction over the files with distinct names (C66); a prefix that ends with a newline is made of whole lines; then C45 |
| C88 | two computers of `M_Computer` / two runs of `M_Main`, related by `but_density` (any) | the search commutes with a change of the densities; computing them makes the states equal; then the simulation of C57; velocities of particles out of use from C25 |
| C89 | `M_Fault`: each file has a fate (written, not opened, spoilt) | the history of C87 with blocks that depend on the fate; induction over the blocks, distinct names from C66 |
| C90 | `M_Start`: arguments and disk in, events out | the name appears in the first line only; outputs have numbered names (C66), so the settings file survives (C89) |

### Examples that meet the hypotheses

| properties | example |
|------------|---------|
| steps and phases of a reachable state, neighbour lists, densities, matrix, solver, time, walls (C01, C04, C06-C11, C18, C19, C23-C34, C37-C39, C47, C54, C56) | `E_Real.example_two_drops`: a completed step of two drops; the phases' states are exhibited |
| C02, C03, C05, C40 | `E_Grid`: grids filled in binary64, a schedule of five concurrent `Store` calls of which one throws |
| C12-C16 | the environments of `E_Real` and `E_Scene` |
| C14, C20, C21, C35, C50, C51 | `E_Plus2`: a particle with a full lattice neighbourhood (at rest; stretched; rotating; linear pressure; one particle under pressure; explicit build) |
| C36 | `E_Overlap`: two particles nearer than allowed |
| C41-C46, C64-C66 | `E_App`: whole runs of the program from a settings tree and a table, in binary64, by computation |
| C67, C68 | `E_Phys`: a sheared plus, in the repository's build and in an explicit one in which the step is shown to complete |
| C69 | `E_Restart`: two complete runs of the program, the second from a file of the first |
| C70, C71 | `E_Float`: a step of two particles in binary64 (`example_float`), their neighbour lists (`example_float_search`) |
| C72 | `E_Text`: a numeral (`example_numeral`), `T_Hex`: a hexadecimal one and a word (`example_hex`), a file (`example_file`), the whole program on real text (`example_text_run`) |
| C73, C14_step, C33_step | `E_Bench`: the three scripts with the constants they have (`static_script`, `koshizuka_script`, `zhou_script`), a cell of the water column (`static_script_density`, `static_script_cell`) |
| C74 | `E_Script`: `exact_python` (a str of that kind), `static_script_loads` and `static_script_runs` (the static script with its constants) |
| C75 | `E_Mirror`: `static_script_symmetric`; `E_Central`: `central_script` (the scripts after their first steps) |
| C73_central_runs, C74_central_run | `E_Central`: `central_script`, `central_script_runs` |
| C76 | `E_Red`: five particles running into one another, two orders of summation (binary64) |
| C77 | `E_Scale`: two overlapping particles with virtual surface particles, in mm, ms and g/cm^3 |
| C79-C81 | `E_Post`: a run over the number 100000 and the scripts on the files of `E_Text`, in binary64, by computation |
| C82 | `E_Gauge`: the scene, gauges and sensor of the scripts as they are, after the first step |
| C83 | `E_Axis`: the central-gravity scene with an output after one step, read from the reversed directory |
| C32 | `E_Params`: the two drops, for any tolerance (`example_tolerance`) |
| C84 | `E_Max`: the two drops (`example_max`) |
| C48 | `E_Cells`: a reachable state over R with one particle per cell (`example_cells`), a scene in double (`example_cell_scene`) |
| C85 | `E_Xml`: a document with all features (`example_document`), the static scene's file (`example_script_text`), cut files (`example_cut`), the lost line (`example_lost_line`), a letter by number (`example_spelled`), two files that differ in comments (`example_commented`) |
| C86 | `E_Console`: a whole run with its screen (`example_screen`), one that ends with the message (`example_error`), printed times (`example_times`) |
| C87 | `E_Disk`: a directory with old files, killed at three moments (`example_killed`), a cut table read back (`example_cut_file`); `E_Log.example_order` |
| C88 | `E_Blind`: the run of `E_App` with other densities (`example_other_densities`), and with its table cut off inside the last number (`example_cut`) |
| C89 | `E_Fault`: the run of `E_Log`, second file not opened (`example_fault`) |
| C90 | `E_Start`: the run of `E_Log` from a disk (`example_start`, `example_settings_name`) |
| C60, C61, C62, C63 | `E_Rest`, `E_Scheme`, `E_Alone`, `E_Sym` |
| C05, C17, C35, C45, C49, C53, C54 (refuted parts) | the witness is part of the theorem or of the example |

## 5. What the proofs found in the code

Where a property a user would expect is false of the faithful model, the theorem proves the negation, usually with a
concrete witness (`..._refuted`, or named in the table), and what is true instead.

* **3-D grid not cleared / out of bounds (C05).** In the 3-D `Grid::Clear` the y loop runs to the x extent: with fewer y than x
  blocks memory outside the array is written, with more some blocks keep their contents (stale neighbours). With equal
  extents it is right.
* **3x3 inverse transposed (C49).** `Matrix::Inverse`-like code in the gradient correction returns the transposed inverse in
  3-D; harmless for the (symmetric) correction matrix, wrong for other matrices.
* **Momentum (C24, C35).** Viscosity conserves the momentum of the fluid; the pressure gradient does, pair by pair, but the
  virtual particle of the SPP build pushes without being pushed back.
* **Missed neighbours in binary64 (C53).** The block number is a rounded quotient; two points at distance less than a block may
  land two blocks apart. Over the reals (C01) this cannot happen.
* **Upper margin (C07).** A particle is only disabled when it lies more than two blocks above the upper corner of the domain; the
  lower side has a different margin.
* **Disabled particles throttle the time step (C17).** A particle that leaves is disabled and then treated as a wall: put at
  its wall position with velocity (new - old)/dt. `DetermineDt` takes the maximum speed over all particles, so that
  enormous velocity limits the next step.
* **Overfull block (C56).** `Grid::Store` throws when a block holds more particles than it has room for; `main` does not catch that
  exception (only a solver failure ends in the orderly final output).
* **CSV (C43-C46).** Short rows and empty text are undefined behaviour (out-of-range access); a blank first line is taken as the
  header; CRLF is rejected; written files carry six significant digits, so that reading back is not the identity.
* **The CFL limit does not bound the motion (C54).** The automatic step is derived from the velocities before the step; gravity
  adds up to g dt^2. One search per step (C11) is enough as long as nobody moves by more than half the margin between
  NeighborLength and R_e; nothing in the program enforces this in the presence of large pressure or viscous accelerations.
* **A step with no particles (C10)** is undefined behaviour when the time step is automatic.
* **An isolated particle keeps its pressure (C62).** In the implicit SPP build the row of a particle without neighbours is empty and
  its right-hand side 0, so that the solver leaves whatever pressure it had (from its last contact); E_Alone.v has a drop falling with
  pressure 7. Its motion is not affected, its output is.
* **One output too many (C41_rounding).** The number of outputs is `ceil((endTime - startTime) / outputInterval)` computed in
  binary64. For 1, 1.6 and 0.2 the quotient is 3.0000000000000004, so a fourth file is written, for the time 1.8 > endTime.
* **Settings (C65).** A missing `type` attribute of the particle table is undefined behaviour (`get()` on an empty
  `boost::optional`), every other missing entry an uncaught exception; a `minStepCountPerOutput` of "-1" is accepted (as 2^64 - 1).
* **No viscous limit of the time step (C67).** `MaxDt` and `DetermineDt` know the Courant and the gravity limit only. Viscosity is
  treated explicitly, so that for dt x (sum of the viscous coefficients of a particle) > 1 it overshoots:
  `C67_refuted_automatic_step` has two particles whose velocity difference grows by a factor over 300 in one automatic step.
* **Restarting from an output file (C69).** The states are those of the original trajectory only if the numbers survive: `OutputToCsv` uses
  the stream's default precision (6 digits), which in general loses digits. Even with exact numbers the files of the restarted run differ
  (`C69_refuted_same_files`): the step that passes the output time overshoots it, the time is not in the file, and the new clock starts at 0.
  A particle that leaves the grid after the restart is put back where it was at the restart, not where it was at first.
* **Rounding (C70, C71).** A positive automatic step can be too small to change the time (`C70_refuted_progress`): the main loop then never
  ends. `DetermineDt` compares squared speeds with `<`, so a NaN velocity counts only if its particle is the first (`C70_refuted_nan`).
* **Numbers in files (C72).** Particle files carry six digits, so a restart continues from slightly different particles
  (`C72_refuted_lossless`); restarting from a restart file changes nothing more (`C72_file`). `std::stod` throws on inexact subnormals, so a
  file written by the program with a value such as the smallest normal double cannot be read by it (`C72_refuted_tiny`). With startTime 1, endTime 1.6 and
  outputInterval 0.2, as texts, the program writes a file for 1.8 (`C41_rounding_text`).
* **Benchmark scenes (C73).** `generate_koshizukaoka1996.py` sets maxX to the inner width of the tank, so the right wall and its dummies lie outside
  the domain given; they are kept only because the program takes particles out of use at the end of the grid, two to three blocks further out (C07_upper_margin).
* **Benchmark files (C74).** None of the scripts writes `c`, so an explicit build terminates on every benchmark file (`C74_rejected`), as does a
  three-dimensional one (no `minY`).
* **No bitwise reproducibility (C76).** The default build adds up the solver's inner products in an order nobody fixes. In exact arithmetic this changes nothing
  (`C76_exact`); in binary64 the same call on the same state has outcomes with different pressures, positions and velocities of the fluid
  (`C76_refuted_reproducible`), while everything else is the same in all of them (`C76_same_elsewhere`).
* **A length compared with machine epsilon (C77).** `AccumulateNeighbor` creates the virtual surface particle only if the distance of the weighted centre of the
  neighbours exceeds `std::numeric_limits<double>::epsilon()`, a number without unit. All other tests in the program are between quantities of the same kind. So with very
  small lengths (about 1e-15 in the unit chosen) virtual particles disappear, and with them the pressure boundary condition: `C77_refuted_length`.
* **The iteration limit of the solver has no slack (C78).** `SolvePressurePoissonEquation` stops after as many iterations as there are particles. In exact arithmetic that is
  enough (C33); with rounding it is not: with few particles, some of them close together, the step throws (`C78_refuted_rounding`; three particles suffice). The limit should
  be a multiple of the number of unknowns.
* **check_result.py fails on the default build (C81).** It looks for particles with n < beta n0, but with `MPS_SPP` the program stores max(n, n0), so there are none, and
  `max(surface)` raises ValueError on the first file written after a step (`C81_refuted_central`).
* **Five digits (C79).** File names have at least five digits and are sorted as texts: from file 100000 on the scripts take the files in the wrong order and
  `int(filename[10:15])` loses the last digit (`C79_refuted_sorted`). A `startTime` of 100000 output intervals suffices (`C79_refuted_run`).
* **The splash filter of zhouetal1999.py has no effect on the default build (C82).** It counts particles with n > 0.1 n0 only, but with `MPS_SPP` n >= n0 after every step: a single
  droplet thrown up at the gauge is reported as the water level (`min_n`; `C82_levels`).
* **White space between comments (C85).** The reader drops text that consists of white space only, even inside the particle table: a line end between two comments in the table is lost,
  so the rows on either side become one line, and a particle is lost with it (`example_lost_line`). `Sample.xml` contains a stray `-->`, which is harmless: it is read as text.
* **The time in the error message (C86).** The lines on the screen give the time with `startTime`, the error message without it (`tComputer` is shifted only after a successful
  output): after the line for t=120 the message says t=20 (`example_error`; times in hundredths there).
* **No sign that an output file is complete (C87).** Files are written in place. If the program is killed while it writes one, the file often ends with a whole line and is then
  read back as a table with fewer particles, without any message (`C87_cut_read`). Files of an earlier, longer run are not removed, and the evaluation scripts take every file they find (`C87_complete`).
* **Failing output is not reported (C89).** `OutputToCsv` never looks at the state of its stream. With no directory `result`, no permission or a full disk the program computes to
  the end, prints a line for every file with its number of particles, `finished`, and returns 0, with nothing on the disk (`C89_nothing_written`).

## 6. Axioms

`Print Assumptions` of every property theorem and example, by result. The axioms are those of the standard library's real
numbers (`ClassicalDedekindReals.sig_not_dec`, `ClassicalDedekindReals.sig_forall_dec`,
`FunctionalExtensionality.functional_extensionality_dep`) and, where noted, `Classical_Prop.classic`.

**closed under the global context** (138): C02_iteration, C03_store, C04_history_independent, C05_clear_square, C05_refuted_not_cleared, C05_refuted_out_of_bounds, C06_symmetric_binary64, C08_types_permanent, C09_no_out_of_bounds, C10_no_particles, C15_constants, C17_refuted, C25_prescribed_motion, C26_files, C26_position, C26_walls_never_move, C27_explicit, C27_gradient, C27_matrix, C27_stabilisation, C28_inactive_keep_pressure, C28_pressure_not_negative_binary64, C29_symmetric_binary64, C32_tolerance, C37_implicit_moves_fluid_only, C37_stabilisation_moves_fluid_only, C38_time, C38_timeline_exists, C39_auto_step_deterministic, C39_loops_deterministic, C39_step_deterministic, C40_exception_iff, C40_no_deadlock, C40_nothing_lost, C40_terminates, C41_rounding, C42_ending, C42_failure, C43_count, C43_every_particle, C43_file, C43_shows, C44_column_order, C44_layout, C44_missing_column, C44_read, C44_refuted_blank_first_line, C44_refuted_carriage_return, C44_unknown_column, C45_faithful, C45_round_trip, C46_long_row, C46_no_line, C46_short_row, C47_add_particles, C53_what_is_found, C54_binary64, C56_otherwise, C56_overflow_iff, C57_disabled_no_influence, C57_history, C58_call, C58_history_independent, C59_restart, C59_restart_without_disabled, C64_complete, C64_settings, C65_missing_entry, C65_other_entries, C65_table, C66_files, C67_refuted_automatic_step, C69_files, C69_only_positions_matter, C69_refuted_same_files, C69_restart, C69_restart_faithful, C70_refuted_nan, C70_refuted_progress, C73_central, C73_koshizuka, C73_static, C73_zhou, C74_loads, C74_rejected, C76_every_outcome, C76_no_out_of_bounds, C76_outcome, C76_refuted_reproducible, C76_same_elsewhere, C76_sequential, C77_refuted_length, C79_refuted_sorted, C79_refuted_taken, C79_sorted, C79_taken, C80_reads, C85_comments, C85_cut, C85_reads, C85_runs, C85_script, C85_script_cut, C86_count, C86_screen, C87_complete, C87_cut, C87_cut_inside, C87_cut_read, C87_killed, C87_reported, C88_call, C88_cut, C88_files, C88_program, C89_no_settings, C89_nothing_written, C89_unnoticed, C90_again, C90_arguments, C90_contents, C90_killed, example_around, example_concurrent, example_deep, example_format, example_missing, example_numbers, example_other, example_radius, example_readable, example_restart, example_rows, example_run, example_settings_text, example_short_row, example_table_read, example_wide.

**`functional_extensionality_dep`, `sig_forall_dec`** (3): C53_refuted, C86_time, example_numeral.

**`functional_extensionality_dep`, `sig_forall_dec`, `sig_not_dec`** (179): C01_search_exact, C01_step_lists, C06_symmetric_real, C07_disabled_iff_outside, C07_step, C07_upper_margin, C11_before_solver, C11_lists_suffice, C11_margin, C11_midstep, C11_sums, C11_vector_sums, C12_weight_decreasing, C12_weight_inside, C12_weight_not_negative, C12_weight_outside, C12_weight_positive_iff, C12_weight_vanishes_at_radius, C13_constructor_defined, C13_independent_of_spacing, C13_lambda, C13_positive_iff, C13_reference_density, C14_lattice_density, C14_step, C15_gravity, C15_limits, C16_at_rest, C16_cfl, C16_step_taken, C17_throttle, C18_density_phase, C18_step, C19_fills_deficit, C19_no_virtual_particle, C19_virtual_particle, C20_density_now, C20_free_surface, C20_source, C20_standard_source, C21_common_velocity, C21_rigid_motion, C22_error_correction, C22_step, C23_free_fall, C24_explicit_phase, C24_momentum, C24_uniform_motion, C26_walls_at_rest, C28_pressure_not_negative_real, C29_symmetric_real, C30_diagonal, C30_excluded_rows, C30_right_hand_side, C30_rows, C30_sign, C31_definite, C31_semidefinite, C32_failure, C32_pressure, C32_solver, C32_step, C33_pressure, C33_solver_converges, C33_step, C34_excluded_stay_zero, C35_gradient_phase, C35_momentum, C35_momentum_balance, C35_no_torque, C35_pair, C35_refuted_not_conserved, C36_momentum, C36_no_overlap, C36_opposite, C36_pair, C36_stabilisation_phase, C36_step, C36_step_momentum, C38_monotone, C41_complete, C41_schedule, C48_apart, C48_cells, C48_lattice_never_overflows, C49_invert2, C49_invert3, C49_invert3_symmetric, C49_refuted_invert3, C50_linear_pressure, C51_explicit_phase, C51_state_pressure, C52_environment, C52_history, C52_step, C54_displacement_bound, C54_refuted, C55_galilean, C56_completes, C60_files, C60_forever, C60_step, C61_step, C62_alone, C62_trajectory, C63_automatic, C63_dt, C63_numbering, C63_numbering_outcome, C63_series, C63_step, C63_symmetry_kept, C67_average, C67_dissipative, C67_energy, C68_advance, C68_momentum, C73_central_runs, C73_density, C73_first_step, C73_koshizuka_runs, C73_static_domain, C73_static_runs, C73_zhou_runs, C74_central_run, C74_koshizuka_run, C74_static_run, C74_zhou_run, C75_balance, C75_central, C75_central_scene, C75_left_right, C75_static, C76_exact, C76_exact_histories, C77_automatic, C77_environment, C77_history, C77_step, C77_time_and_mass, C78_refuted_rounding, C80_edge, C81_no_deficit, C81_reference_density, C81_refuted_central, C81_refuted_surface, C82_gauges, C82_levels, C82_zhou, C83_pictures, C83_series, C83_time_axis, C84_accuracy, C84_bound, C84_comparison, C84_exists, C84_maximum, C84_sign, C84_unique, C84_unit_response, example_cells, example_lattice, example_lone_drop, example_max, example_mirror, example_momentum, example_order, example_overlap, example_push, example_rest, example_rotating, example_scale, example_scheme, example_shear, example_slope, example_state_equation, example_stretched, example_tolerance, example_two_drops.

**`classic`, `functional_extensionality_dep`, `sig_forall_dec`, `sig_not_dec`** (38): C20_speed_is_derivative, C41_rounding_text, C48_binary64, C48_scene, C70_cfl, C70_constants, C70_density, C70_step, C70_time, C70_weight, C71_mutual, C71_search, C72_file, C72_hex, C72_print, C72_refuted_lossless, C72_refuted_tiny, C72_reread, C72_setting, C72_stod, C72_words, C74_coordinates, C74_python, C74_static_python, C79_refuted_run, C85_python, C85_static, example_cell_scene, example_edge, example_file, example_float, example_float_search, example_n0, example_print, example_setting, example_stod, example_surface, example_text_run.

{"id": "C01", "title": "Neighbour search is exact", "statement": "After the neighbour search at the start of a step, the neighbour list of every enabled particle i holds exactly the enabled particles j != i whose distance to i is below NeighborLength, each once: no neighbour is missed, none is spurious, none is repeated (exact arithmetic; 2-D, and 3-D when nx = ny).", "quantifier": "every particle set (any number, any positions and types), every environment, every previous state of the grid", "why_tests_cant": "the cell decomposition must work for every placement relative to the cell borders and every history of the reused grid", "anchors": ["src/OpenMps/Computer.hpp:SearchNeighbor", "src/OpenMps/Grid.hpp:Grid::Store", "src/OpenMps/Grid.hpp:Grid::Iterator"]}
{"id": "C02", "title": "Grid iterator visits each stored particle of the adjacent blocks exactly once and stops", "statement": "Iterating from cbegin(x) to cend() terminates, never touches a block outside the grid, and yields precisely the particles stored in the 3^D blocks around x that lie inside the grid, block by block, each once.", "quantifier": "every grid content, every query position inside the grid, any arithmetic (also IEEE doubles), both dimensions", "why_tests_cant": "the transition state packs a block number and a slot number in one integer; all fill patterns of 9/27 blocks and all border positions are unboundedly many", "anchors": ["src/OpenMps/Grid.hpp:Iterator::Increment", "src/OpenMps/Grid.hpp:Iterator::CreateBegin", "src/OpenMps/Grid.hpp:Iterator::operator*"]}
{"id": "C03", "title": "Store: accept, reject, overflow", "statement": "Storing a particle whose block lies in the grid and is not full appends it to that block and touches no other block; one outside the grid is reported as not stored and the grid is unchanged; one that hits a full block raises the grid exception. Iteration afterwards sees exactly the accepted particles.", "quantifier": "every grid state, position and particle number", "why_tests_cant": "depends on all fill levels and all positions", "anchors": ["src/OpenMps/Grid.hpp:Grid::Store", "src/OpenMps/Grid.hpp:Grid::Clear"]}
{"id": "C04", "title": "Search results do not depend on history", "statement": "The outcome of a neighbour search is a function of the particles and the environment only: whatever the grid held before (previous steps, an aborted search that overflowed a block), the resulting neighbour lists and disabled set are the same (2-D; in 3-D only when the grid has as many blocks along y as along x).", "quantifier": "every pair of previous grid states", "why_tests_cant": "needs all histories of the reused buffers", "anchors": ["src/OpenMps/Grid.hpp:Grid::Clear", "src/OpenMps/Computer.hpp:SearchNeighbor"]}
{"id": "C05", "title": "Clear() really clears (3-D)", "statement": "In the 3-D build Clear() empties every block and accesses no block outside the grid. (Refuted: the y loop runs to the x extent.)", "quantifier": "every grid shape", "why_tests_cant": "depends on the shape; tests are 2-D only", "anchors": ["src/OpenMps/Grid.hpp:Grid::Clear"]}
{"id": "C06", "title": "Neighbourhood is symmetric and irreflexive", "statement": "After a search, j is in the list of i iff i is in the list of j, and nobody is its own neighbour - for the actual IEEE binary64 arithmetic, not only for exact reals.", "quantifier": "every particle set and environment, exact and binary64 arithmetic", "why_tests_cant": "the unit test samples one lattice; symmetry of rounded distances must hold for all inputs", "anchors": ["src/OpenMps/Computer.hpp:SearchNeighbor", "src/OpenMps/Computer.hpp:R"]}
{"id": "C07", "title": "Particles leaving the domain are disabled, and only those", "statement": "A search disables an enabled particle iff one coordinate is below the lower corner or at/above lower corner + (ceil((max-min)/NeighborLength)+2) * NeighborLength; all other particles keep their type. (The reading 'iff outside [MinX,MaxX]' is refuted: there is a two-block margin on the upper side only.)", "quantifier": "every particle set and environment", "why_tests_cant": "boundary behaviour for all coordinates", "anchors": ["src/OpenMps/Computer.hpp:SearchNeighbor", "src/OpenMps/Grid.hpp:Grid::Store", "src/OpenMps/Grid.hpp:Grid::Grid"]}
{"id": "C08", "title": "Disabling is permanent; identity and types are otherwise immutable", "statement": "Through any sequence of AddParticles / ForwardTime calls (including calls that throw), no particle is removed or reordered, the particle at index i keeps its type unless it becomes Disabled, and a Disabled particle stays Disabled.", "quantifier": "every API history", "why_tests_cant": "unbounded sequences of calls and exceptions", "anchors": ["src/OpenMps/Computer.hpp:ForwardTime", "src/OpenMps/Computer.hpp:AddParticles", "src/OpenMps/Particle.hpp:Particle::Disable"]}
{"id": "C09", "title": "No out-of-bounds access", "statement": "From a constructed computer, no sequence of AddParticles and ForwardTime(dt) calls indexes any of the per-particle arrays, the neighbour table, the grid or the pressure system outside its bounds, provided every position converts to a block number (2-D, or 3-D with equal x/y extents). In particular a neighbour row can never overflow.", "quantifier": "every API history, any arithmetic", "why_tests_cant": "memory safety over all inputs and histories", "anchors": ["src/OpenMps/Computer.hpp:Neighbor", "src/OpenMps/Computer.hpp:AccumulateNeighbor", "src/OpenMps/Computer.hpp:AddParticles", "src/OpenMps/Computer.hpp:SetPressurePoissonEquation"]}
{"id": "C10", "title": "A step with no particles is undefined", "statement": "ForwardTime() without argument on a computer without particles has undefined behaviour (the maximum of an empty range is dereferenced), while ForwardTime(dt) is fine.", "quantifier": "every environment", "why_tests_cant": "undefined behaviour cannot be asserted by a test", "anchors": ["src/OpenMps/Computer.hpp:DetermineDt", "src/OpenMps/Computer.hpp:ForwardTime"]}
{"id": "C11", "title": "One search per step suffices", "statement": "If since the search every particle has moved by at most courant*R_e (in particular by at most MaxDx when l_0 <= R_e), the stored neighbour lists still contain every enabled pair closer than R_e, so every neighbour sum equals the sum over all enabled particles within R_e.", "quantifier": "every particle set and displacement field", "why_tests_cant": "depends on all pairs and all displacement combinations", "anchors": ["src/OpenMps/Environment.hpp:NeighborLength", "src/OpenMps/Computer.hpp:AccumulateNeighbor", "src/OpenMps/Computer.hpp:ForwardTime"]}
{"id": "C12", "title": "Weight function", "statement": "The weight of a distance is r_e/r-1 strictly inside (0,r_e) and 0 elsewhere; it is never negative, is strictly decreasing inside, positive exactly inside, and tends to 0 at r_e.", "quantifier": "all distances and radii", "why_tests_cant": "all reals", "anchors": ["src/OpenMps/Particle.hpp:Particle::W"]}
{"id": "C13", "title": "Reference density is the full lattice sum", "statement": "N0 equals the weight sum over all non-zero points of the square/cubic lattice with spacing l_0 - the half-open loop range loses nothing - it depends only on r_e/l_0, not on l_0, and is positive iff r_e > l_0.", "quantifier": "all l_0 > 0 and ratios", "why_tests_cant": "all real parameters", "anchors": ["src/OpenMps/Environment.hpp:Environment::Environment"]}
{"id": "C14", "title": "A particle in an undisturbed lattice has density N0", "statement": "A fluid or wall particle whose enabled surroundings within R_e are exactly a translated lattice of spacing l_0 gets number density N0 (before and after free-surface filling).", "quantifier": "every particle set containing such a neighbourhood, every position of the lattice", "why_tests_cant": "the unit test checks one lattice against one constant", "anchors": ["src/OpenMps/Computer.hpp:ComputeNeighborDensities", "src/OpenMps/Environment.hpp:Environment::Environment"]}
{"id": "C15", "title": "Time step limits", "statement": "MaxDt <= the requested maximum and <= sqrt(2 courant l_0/g) (or courant l_0/c in the explicit build); NeighborLength >= R_e.", "quantifier": "all parameters", "why_tests_cant": "all reals", "anchors": ["src/OpenMps/Environment.hpp:Environment::Environment"]}
{"id": "C16", "title": "CFL condition", "statement": "The automatic time step satisfies 0 < dt <= MaxDt and |u_i| dt <= MaxDx for every particle, and is the largest such step; dt = MaxDt when everything is at rest.", "quantifier": "every non-empty particle set", "why_tests_cant": "all velocity fields", "anchors": ["src/OpenMps/Computer.hpp:DetermineDt"]}
{"id": "C17", "title": "Disabled particles should not influence the step (refuted)", "statement": "'The automatic time step depends only on enabled particles' is false: a disabled particle is teleported to its wall position, given the corresponding enormous velocity, and that velocity throttles the next step.", "quantifier": "existential witness; general formula for all states", "why_tests_cant": "needs the interaction of leaving the domain, wall repositioning and step control", "anchors": ["src/OpenMps/Computer.hpp:DetermineDt", "src/OpenMps/Computer.hpp:ComputeExplicitForces"]}
{"id": "C18", "title": "Number density", "statement": "After the density phase every fluid and wall particle has N = max(N0, sum of weights over all enabled particles within R_e) (without SPP: just the sum), hence N >= N0; dummy and disabled particles keep their N; nothing else about any particle changes.", "quantifier": "every state satisfying C11's displacement bound", "why_tests_cant": "all configurations", "anchors": ["src/OpenMps/Computer.hpp:ComputeNeighborDensities"]}
{"id": "C19", "title": "The virtual surface particle fills exactly the density deficit", "statement": "When the raw density n of a particle is below N0 and its neighbourhood is not perfectly balanced, exactly one virtual particle takes part in neighbour sums, at distance R_e/(N0-n+1), opposite to the weighted centroid of the neighbours, and its weight is exactly N0-n; otherwise no virtual particle takes part.", "quantifier": "every state", "why_tests_cant": "all configurations", "anchors": ["src/OpenMps/Computer.hpp:AccumulateNeighbor"]}
{"id": "C20", "title": "The HS source term is the time derivative of the density", "statement": "The density variation speed used as pressure source is the derivative at time 0 of the number density when the particles move uniformly with their current velocities (no neighbour exactly at distance R_e; coincident particles excluded).", "quantifier": "every configuration and velocity field", "why_tests_cant": "a derivative identity over all reals", "anchors": ["src/OpenMps/Computer.hpp:NeighborDensityVariationSpeed"]}
{"id": "C21", "title": "Rigid motion produces no source", "statement": "If all particles move as a rigid body (translation plus rotation), the density variation speed is zero; adding a common velocity to all particles never changes it.", "quantifier": "every configuration, every rigid velocity field", "why_tests_cant": "all reals", "anchors": ["src/OpenMps/Computer.hpp:NeighborDensityVariationSpeed"]}
{"id": "C22", "title": "Error correction has a sign", "statement": "With the SPP build the ECS correction of every fluid/wall particle is >= 0, is 0 when the density does not increase, and equals 2 * relative density error * speed otherwise.", "quantifier": "every state after a density phase", "why_tests_cant": "all reals", "anchors": ["src/OpenMps/Computer.hpp:ComputeErrorCorrection"]}
{"id": "C23", "title": "Free fall", "statement": "A fluid particle with no neighbour within R_e gets velocity u + g dt and position x + (u + g dt) dt from the explicit phase.", "quantifier": "every state, every dt", "why_tests_cant": "all states", "anchors": ["src/OpenMps/Computer.hpp:ComputeExplicitForces"]}
{"id": "C24", "title": "Viscosity conserves momentum", "statement": "With uniform gravity the explicit phase changes the total velocity of the fluid by exactly N_fluid * g * dt whenever no wall interacts with the fluid; a uniformly moving fluid feels no viscous force.", "quantifier": "every state with symmetric neighbour lists", "why_tests_cant": "sums over all pairs in all configurations", "anchors": ["src/OpenMps/Computer.hpp:ComputeExplicitForces"]}
{"id": "C25", "title": "Walls, dummies and disabled particles follow the prescribed motion", "statement": "After a step every non-fluid particle sits at positionWall(i,t,dt) for the new time t with velocity (new - old)/dt, unaffected by the fluid, pressure or stabilisation; the pre-hook runs exactly once per step, before any wall position is asked for.", "quantifier": "every state, every wall motion, any arithmetic", "why_tests_cant": "any callback, any history", "anchors": ["src/OpenMps/Computer.hpp:ComputeExplicitForces", "src/OpenMps/Computer.hpp:ForwardTime"]}
{"id": "C26", "title": "Fixed walls stay fixed", "statement": "In the application, after any number of successful steps every particle that is not (or no longer) fluid and has been through a step is at its initial position; walls and dummies never move.", "quantifier": "every input file, any number of steps, any arithmetic with x-x=0", "why_tests_cant": "unbounded runs", "anchors": ["src/OpenMps/Main.cpp:main", "src/OpenMps/Computer.hpp:ComputeExplicitForces"]}
{"id": "C27", "title": "Dummy particles only contribute to density", "statement": "Velocities, positions, pressures of dummies do not influence the viscous force, the pressure equation coefficients, the pressure gradient or the stabilisation of others, other than through their effect on the number density and the virtual surface particle.", "quantifier": "every state, any change of dummy velocities/pressures", "why_tests_cant": "all states", "anchors": ["src/OpenMps/Computer.hpp:ComputeExplicitForces", "src/OpenMps/Computer.hpp:SetPressurePoissonEquation", "src/OpenMps/Computer.hpp:ModifyByPressureGradient", "src/OpenMps/Computer.hpp:DynamicStabilize"]}
{"id": "C28", "title": "Pressure is never negative", "statement": "After a step no fluid or wall particle has a negative pressure (in any arithmetic, in particular binary64); dummy and disabled particles keep the pressure they had (implicit build).", "quantifier": "every successful step", "why_tests_cant": "all outcomes of an iterative solver", "anchors": ["src/OpenMps/Computer.hpp:ComputeImplicitForces"]}
{"id": "C29", "title": "Pressure matrix is symmetric", "statement": "The coefficient matrix of the pressure equation is symmetric, exactly, also in binary64.", "quantifier": "every state after a search", "why_tests_cant": "the unit test checks one 6x6 lattice within 1e-3", "anchors": ["src/OpenMps/Computer.hpp:SetPressurePoissonEquation"]}
{"id": "C30", "title": "Pressure matrix structure", "statement": "Rows of dummy/disabled particles are unit rows with zero right-hand side and zero start value; in every other row the off-diagonal entries are >= 0, are non-zero exactly for non-dummy enabled neighbours within R_e, and the diagonal is minus their sum minus the virtual particle's coefficient.", "quantifier": "every state after a search", "why_tests_cant": "all configurations", "anchors": ["src/OpenMps/Computer.hpp:SetPressurePoissonEquation"]}
{"id": "C31", "title": "Pressure matrix is negative semi-definite on the fluid", "statement": "For every vector that vanishes on dummy/disabled particles the quadratic form of the pressure matrix is <= 0, and it is < 0 for non-zero vectors if every fluid/wall particle is connected through neighbours to one with a virtual surface particle.", "quantifier": "every state, every vector", "why_tests_cant": "quadratic form over all vectors", "anchors": ["src/OpenMps/Computer.hpp:SetPressurePoissonEquation"]}
{"id": "C32", "title": "A solved pressure equation is solved", "statement": "If the solver returns normally, either the start value already had zero residual (and is kept; likewise if the tolerance is 0), or the true residual |b-Ax| is below eps times the initial one (exact arithmetic); otherwise it throws.", "quantifier": "every matrix, right-hand side, start value and tolerance", "why_tests_cant": "all linear systems", "anchors": ["src/OpenMps/Computer.hpp:SolvePressurePoissonEquation"]}
{"id": "C33", "title": "The solver converges within n iterations", "statement": "In exact arithmetic, for a symmetric matrix that is definite on an invariant subspace containing the initial residual, the solver never throws; applied to the pressure equation of any state whose fluid is connected to a free surface it always succeeds.", "quantifier": "every size n, every such system", "why_tests_cant": "the classical finite-termination theorem over all n", "anchors": ["src/OpenMps/Computer.hpp:SolvePressurePoissonEquation"]}
{"id": "C34", "title": "Dummy and disabled unknowns stay zero", "statement": "While solving the pressure equation the unknowns of dummy and disabled particles remain exactly 0, so the unit rows do not disturb the solution.", "quantifier": "every iteration of every solve", "why_tests_cant": "all iterates", "anchors": ["src/OpenMps/Computer.hpp:SolvePressurePoissonEquation", "src/OpenMps/Computer.hpp:SetPressurePoissonEquation"]}
{"id": "C35", "title": "Pressure forces obey action and reaction (without virtual particles)", "statement": "The mid-point pressure gradient gives opposite velocity changes to the two members of every fluid pair; the total fluid momentum is unchanged if no wall and no virtual particle acts. With a virtual particle it is not (refuted in general).", "quantifier": "every state with symmetric neighbour lists", "why_tests_cant": "all pairs in all configurations", "anchors": ["src/OpenMps/Computer.hpp:ModifyByPressureGradient", "src/OpenMps/defines.hpp:PRESSURE_GRADIENT_MIDPOINT"]}
{"id": "C36", "title": "Stabilisation is well defined, repulsive and momentum-free", "statement": "In the dynamic stabilisation the radicand is positive and the coefficient strictly positive for every overlapping pair, pairs not overlapping get nothing, the pair contributions are opposite, so the total fluid momentum is unchanged if only fluid particles overlap.", "quantifier": "every state with symmetric neighbour lists and distinct saved positions", "why_tests_cant": "all pairs", "anchors": ["src/OpenMps/Computer.hpp:DynamicStabilize", "src/OpenMps/Computer.hpp:SaveX"]}
{"id": "C37", "title": "Only fluid moves after the explicit phase", "statement": "The implicit and stabilisation phases change position and velocity of fluid particles only, by du and du*dt.", "quantifier": "every state, any arithmetic", "why_tests_cant": "all states", "anchors": ["src/OpenMps/Computer.hpp:ModifyByPressureGradient", "src/OpenMps/Computer.hpp:DynamicStabilize"]}
{"id": "C38", "title": "Simulated time", "statement": "After any sequence of steps the time is the sum of the steps taken, in order, starting from 0; it is advanced even if the step throws; it never decreases with non-negative steps.", "quantifier": "every API history", "why_tests_cant": "unbounded histories", "anchors": ["src/OpenMps/Environment.hpp:SetNextT", "src/OpenMps/Computer.hpp:ForwardTime"]}
{"id": "C39", "title": "Parallel loops are deterministic", "statement": "Every OpenMP-parallel loop of a step yields the same state under every schedule and every interleaving of its iterations' reads and writes as the sequential loop.", "quantifier": "every schedule, thread count and interleaving", "why_tests_cant": "schedules cannot be enumerated by tests", "anchors": ["src/OpenMps/Computer.hpp:OMP_PARALLEL_FOR"]}
{"id": "C40", "title": "Concurrent Store loses nothing", "statement": "Concurrent Store calls (atomic capture) leave in each block exactly the accepted particles, in some order, whatever the interleaving; the exception is raised iff a block receives more than its capacity.", "quantifier": "every interleaving of any number of threads", "why_tests_cant": "schedules", "anchors": ["src/OpenMps/Grid.hpp:Grid::Store"]}
{"id": "C41", "title": "Output schedule", "statement": "The application writes the initial state as file ceil(start/interval) and then consecutive numbers; output k is written at the first step time >= k*interval, less than MaxDt late, after at least minStepCountPerOutput steps since the previous output.", "quantifier": "every run that does not throw", "why_tests_cant": "unbounded runs", "anchors": ["src/OpenMps/Main.cpp:main"]}
{"id": "C42", "title": "Failure handling of the application", "statement": "A solver failure ends the run with an error message and exit code 0 without writing further files; a block overflow is not caught and terminates the program abnormally.", "quantifier": "every run", "why_tests_cant": "needs all runs", "anchors": ["src/OpenMps/Main.cpp:main", "src/OpenMps/Grid.hpp:Grid::Exception", "src/OpenMps/Computer.hpp:Exception"]}
{"id": "C43", "title": "CSV output", "statement": "Every output file has the header and one line per particle in index order, disabled ones included; the reported count is the number of particles that are not disabled.", "quantifier": "every state", "why_tests_cant": "all states", "anchors": ["src/OpenMps/Main.cpp:OutputToCsv"]}
{"id": "C44", "title": "CSV input accepts any column order", "statement": "Reading is invariant under permutation of columns (header and data alike), blanks and tabs anywhere, empty lines; unknown, or missing, column names are errors.", "quantifier": "every input text", "why_tests_cant": "all texts", "anchors": ["src/OpenMps/Main.cpp:InputFromCsv"]}
{"id": "C45", "title": "CSV round trip", "statement": "Reading back what was written yields the same particles (types exactly, numbers as printed/parsed) in the same order.", "quantifier": "every particle list, every number printer/parser pair", "why_tests_cant": "all states", "anchors": ["src/OpenMps/Main.cpp:OutputToCsv", "src/OpenMps/Main.cpp:InputFromCsv"]}
{"id": "C46", "title": "CSV input is undefined on short rows and empty text", "statement": "A data row with too few columns or a text without any non-empty line leads to undefined behaviour, not to an error.", "quantifier": "every such text", "why_tests_cant": "undefined behaviour cannot be asserted by a test", "anchors": ["src/OpenMps/Main.cpp:InputFromCsv"]}
{"id": "C47", "title": "AddParticles appends", "statement": "Adding particles appends them in order, leaves existing particles, time and environment untouched and keeps every per-particle array as long as the particle list.", "quantifier": "every API history", "why_tests_cant": "all histories", "anchors": ["src/OpenMps/Computer.hpp:AddParticles"]}
{"id": "C48", "title": "A lattice never overflows a block", "statement": "Particles on a lattice of spacing >= l_0 never raise the grid exception: no block receives more than (ceil(NeighborLength/l_0)+1)^D of them. The same holds when every enabled particle is anywhere in its own cell of a lattice of cells of side >= l_0, hence when any two are at least sqrt(D) l_0 apart. In double precision it holds for particles within delta of distinct points of such a lattice if 2 delta plus the rounding of the block numbers is less than l_0, and so for the first step of every scene the input generators lay out (lattice coordinates computed in double, up to 10^9 cells from the origin).", "quantifier": "every lattice placement and particle set on it; every reachable state with one particle per cell; both exact arithmetic and binary64", "why_tests_cant": "all placements", "anchors": ["src/OpenMps/Grid.hpp:Grid::Grid", "src/OpenMps/Grid.hpp:Grid::Store"]}
{"id": "C49", "title": "Matrix inversion", "statement": "InvertMatrix returns the inverse whenever the determinant is non-zero in 2-D, and in 3-D for symmetric input; for general 3x3 input it returns the transposed inverse (refuted as an inverse). For a zero determinant it returns val * identity.", "quantifier": "every matrix", "why_tests_cant": "all reals", "anchors": ["src/OpenMps/Computer.hpp:InvertMatrix", "src/OpenMps/Computer.hpp:CreateMatrix"]}
{"id": "C50", "title": "Gradient correction is exact for linear pressure", "statement": "With the gradient-correction matrix and pressure differences, a linear pressure field without dummies or virtual particles around yields a velocity change of exactly -dt N/(rho n0) grad p.", "quantifier": "every configuration with regular correction matrix", "why_tests_cant": "all configurations", "anchors": ["src/OpenMps/Computer.hpp:ModifyByPressureGradient"]}
{"id": "C51", "title": "Explicit pressure", "statement": "In the explicit build pressure is c^2 * max(0, rho0 n/n0 - rho0): zero iff n <= n0, never negative, monotone in density.", "quantifier": "every state", "why_tests_cant": "all reals", "anchors": ["src/OpenMps/Computer.hpp:ComputeImplicitForces"]}
{"id": "C52", "title": "Translation invariance", "statement": "Shifting all particles, the domain and the wall motion by one common vector shifts the result of a step by that vector and changes nothing else (exact arithmetic).", "quantifier": "every state and shift", "why_tests_cant": "all reals", "anchors": ["src/OpenMps/Computer.hpp:ForwardTime"]}
{"id": "C53", "title": "Rounded cell computation can miss neighbours (refuted for binary64)", "statement": "Exactness of the neighbour search (C01) does not carry over verbatim to binary64: there are doubles for which two particles closer than NeighborLength land in non-adjacent blocks.", "quantifier": "existential witness in binary64", "why_tests_cant": "needs a specially constructed rounding case", "anchors": ["src/OpenMps/Grid.hpp:Grid::Block", "src/OpenMps/Computer.hpp:SearchNeighbor"]}
{"id": "C54", "title": "A step does not move particles further than MaxDx (refuted)", "statement": "'No particle moves further than MaxDx in the explicit phase' is false, because acceleration within the step is not accounted for; the true bound without viscosity is MaxDx + g dt^2 <= 3 MaxDx.", "quantifier": "existential witness and general bound", "why_tests_cant": "all states", "anchors": ["src/OpenMps/Computer.hpp:DetermineDt", "src/OpenMps/Environment.hpp:Environment::Environment"]}
{"id": "C55", "title": "Galilean invariance", "statement": "An observer moving with a constant velocity sees the same step: with all velocities changed by c, the positions before the step by g and the prescribed wall positions after the step by g + dt c, ForwardTime(dt) ends in the same way, with the same pressures, densities and types, velocities changed by c and positions changed by g + dt c (exact arithmetic, dt not 0, builds without central gravity).", "quantifier": "every reachable state, every g, c, dt", "why_tests_cant": "all reals, all states", "anchors": ["src/OpenMps/Computer.hpp:ForwardTime"]}
{"id": "C56", "title": "How a step can end", "statement": "When every enabled particle can be located on the grid, ForwardTime(dt) raises the grid-overflow exception exactly when some block inside the grid holds more enabled particles than the grid's per-block capacity; otherwise it completes or, only in builds with the linear solver, reports that the solver did not converge. In exact arithmetic it completes whenever neighbour lists serve, particles stay apart and every group of coupled unknowns reaches the surface.", "quantifier": "every reachable state, every dt, every build configuration", "why_tests_cant": "the iff ranges over all particle arrangements; absence of any other failure cannot be sampled", "anchors": ["src/OpenMps/Computer.hpp:ForwardTime", "src/OpenMps/Computer.hpp:SearchNeighbor", "src/OpenMps/Grid.hpp:Store", "src/OpenMps/Computer.hpp:SolvePressurePoissonEquation"]}
{"id": "C57", "title": "Particles out of use have no influence", "statement": "Whatever the disabled particles contain (position, velocity, pressure, density), ForwardTime(dt) and any sequence of AddParticles/ForwardTime(dt) calls ends the same way and gives every enabled particle, the time and the environment exactly the same values.", "quantifier": "every two reachable states of the same environment that agree except in disabled particles, every dt, every history with chosen steps, every arithmetic and build configuration", "why_tests_cant": "ranges over all contents of disabled particles, all histories that led to the two states and all continuations", "anchors": ["src/OpenMps/Computer.hpp:ForwardTime", "src/OpenMps/Computer.hpp:SearchNeighbor", "src/OpenMps/Computer.hpp:AccumulateNeighbor", "src/OpenMps/Particle.hpp:Disable"]}
{"id": "C58", "title": "Only the visible state matters", "statement": "Two computers for the same environment that show the same particles and environment (and have the same solver accuracy and wall callbacks) cannot be told apart by any sequence of calls: same exceptions, same particles, same times. Stale grid contents, neighbour lists, matrices, start vectors or saved positions of earlier steps never leak into later ones.", "quantifier": "every pair of reachable states, every sequence of AddParticles, ForwardTime() and ForwardTime(dt) calls, every arithmetic and build configuration", "why_tests_cant": "ranges over all pairs of histories and all continuations", "anchors": ["src/OpenMps/Computer.hpp:ForwardTime", "src/OpenMps/Computer.hpp:AddParticles", "src/OpenMps/Computer.hpp:SetPressurePoissonEquation", "src/OpenMps/Computer.hpp:SaveX"]}
{"id": "C59", "title": "Stop and resume", "statement": "At any point a new Computer constructed from the current environment and given the current particles continues exactly like the original, for every further sequence of calls.", "quantifier": "every reachable state, every continuation, every arithmetic and build configuration", "why_tests_cant": "ranges over all stopping points and all continuations", "anchors": ["src/OpenMps/Computer.hpp:Computer", "src/OpenMps/Computer.hpp:AddParticles", "src/OpenMps/Computer.hpp:Particles", "src/OpenMps/Computer.hpp:GetEnvironment"]}
{"id": "C60", "title": "A fluid at rest stays at rest", "statement": "Without gravity, particles that start with zero velocity and zero pressure, nothing overlapping and the walls standing still, never move: after any number of steps every position is the initial one and all velocities and pressures are exactly zero; every output file shows this, and the pressure solver never fails.", "quantifier": "every such arrangement of particles and walls, every number of steps, every default-source build without explicit pressure (exact arithmetic)", "why_tests_cant": "ranges over all arrangements and unboundedly many steps; a test shows that a particular arrangement did not drift visibly", "anchors": ["src/OpenMps/Computer.hpp:ForwardTime", "src/OpenMps/Computer.hpp:ComputeExplicitForces", "src/OpenMps/Computer.hpp:ComputeImplicitForces", "src/OpenMps/Computer.hpp:DynamicStabilize", "src/Main.cpp:main"]}
{"id": "C61", "title": "A completed step is exactly one step of the MPS scheme", "statement": "In exact arithmetic, and as long as no particle is displaced within the step by more than half the difference between the neighbour-search radius and the interaction radius, the frame after ForwardTime(dt) is what one step of the published scheme yields from the frame before it: particles outside the grid are removed; densities; viscosity, gravity and prescribed wall motion; densities again; pressures that solve the discrete Poisson equation (all particles within the radius, the virtual surface particle, the source term with error compensation) up to the tolerance and are clamped at zero, or follow the equation of state in the explicit build; acceleration of the fluid by the (corrected) pressure gradient; stabilisation of overlapping pairs. Nothing else in the frame changes and nothing but the frame, the clock, dt, the wall motion and the constants enters.", "quantifier": "every build configuration, every reachable state, every wall motion, every dt and solver tolerance, any number of particles", "why_tests_cant": "Tests compare a few frames with stored ones; the claim relates the result of the cell grid, neighbour lists, sparse matrix and solver to sums over all particles for every frame.", "anchors": ["src/OpenMps/Computer.hpp:ForwardTime", "src/OpenMps/Computer.hpp:SearchNeighbor", "src/OpenMps/Computer.hpp:ComputeNeighborDensities", "src/OpenMps/Computer.hpp:ComputeExplicitForces", "src/OpenMps/Computer.hpp:SetPressurePoissonEquation", "src/OpenMps/Computer.hpp:SolvePressurePoissonEquation", "src/OpenMps/Computer.hpp:ModifyByPressureGradient", "src/OpenMps/Computer.hpp:DynamicStabilize"]}
{"id": "C62", "title": "A particle on its own moves freely", "statement": "In exact arithmetic, a fluid particle that has no particle in use within the search radius at the start of a step and is still in use after it: its velocity becomes u + dt g and its position x + dt u', whatever the other particles do; its number density becomes N0 in the SPP build and 0 otherwise, and its pressure 0 - except that in the implicit SPP build its equation is void, so that it keeps its old pressure (clamped at zero). Over n such steps it follows the ballistic curve x + n dt u + n(n+1)/2 dt^2 g.", "quantifier": "every build configuration, every reachable state, any other particles, every dt, every number of steps", "why_tests_cant": "No influence must reach the particle through the grid, the neighbour lists, the linear system shared by all particles or the virtual surface particle, in any state.", "anchors": ["src/OpenMps/Computer.hpp:ForwardTime", "src/OpenMps/Computer.hpp:SetPressurePoissonEquation", "src/OpenMps/Computer.hpp:ComputeExplicitForces", "src/OpenMps/Computer.hpp:ModifyByPressureGradient"]}
{"id": "C63", "title": "No preferred direction, origin or numbering", "statement": "In exact arithmetic, take two computers whose particles are the same up to a rotation, reflection and shift of space and a renumbering, with the same constants, gravity rotated likewise and correspondingly moving walls. If in a step the same particles are in use afterwards (the domains and their grids may be different), ForwardTime(dt) and ForwardTime() lead to frames that are again the same up to that rotation, shift and numbering, for positions, velocities, pressures, densities and types; the automatic step is the same; and either both solve the pressure equation or both report failure. In particular a symmetric flow stays symmetric, and the order in which particles were added does not matter: with the same environment the step even ends in the same way, including the grid exception.", "quantifier": "every build configuration, every orthogonal matrix, shift and renumbering, every pair of reachable corresponding states, every wall motion, every dt, series of any number of steps", "why_tests_cant": "Grid, neighbour lists, matrix assembly and the solver all work in the order of indices and along the axes; that nothing of it shows in the result is a statement about all frames and all rotations.", "anchors": ["src/OpenMps/Computer.hpp:ForwardTime", "src/OpenMps/Computer.hpp:DetermineDt", "src/OpenMps/Computer.hpp:SearchNeighbor", "src/OpenMps/Computer.hpp:SetPressurePoissonEquation", "src/OpenMps/Computer.hpp:ModifyByPressureGradient", "src/OpenMps/Grid.hpp"]}
{"id": "C64", "title": "The settings file governs the run", "statement": "Every constant the program computes with is the number given for it in the settings file (value attribute of the first element of that name), or derived from such numbers: start and end time, output interval, solver tolerance, l_0, rho, nu, the corners of the domain axis by axis; R_e = r_eByl_0 l_0, NeighborLength = R_e (1 + 2 courant), MaxDx = courant l_0, MaxDt the smaller of outputInterval / minStepCountPerOutput and the physical limit, gravity (0, .., -g). The clock starts at 0 and the particles are those of the CSV table. Conversely, if all entries the build needs can be read, the radius is usable and the table is readable, loading succeeds and the run is the one of that data.", "quantifier": "every build configuration, every settings tree, every number format", "why_tests_cant": "The entries are looked up by 17 path strings and passed on as 11 positional arguments of the same type; a swapped pair shows only for settings in which the two values differ and matter.", "anchors": ["src/OpenMps/Main.cpp:LoadEnvironment", "src/OpenMps/Main.cpp:LoadCondition", "src/OpenMps/Main.cpp:LoadParticles", "src/OpenMps/Main.cpp:main", "src/OpenMps/Environment.hpp:Environment"]}
{"id": "C65", "title": "Incomplete, malformed and superfluous settings", "statement": "If an entry the build needs is missing or is no number, or the table is not said to be CSV or has a bad header or value, the program is aborted by an uncaught exception before any file is written. If the table's format is not given, the radius' ceiling is no int or a row is too short, the behaviour is undefined (before any file is written). Entries the build does not need, further entries of the same name after the first, and the order of the entries have no effect on the files or on how the program ends.", "quantifier": "every build configuration, every settings tree, every number of steps", "why_tests_cant": "Whether an entry is needed depends on the build; the claim is about every way a file can be incomplete or have extra contents.", "anchors": ["src/OpenMps/Main.cpp:LoadEnvironment", "src/OpenMps/Main.cpp:LoadCondition", "src/OpenMps/Main.cpp:LoadParticles", "src/OpenMps/Main.cpp:main"]}
{"id": "C66", "title": "Output files: names and contents", "statement": "The files are named result/particles_NNNNN.csv with consecutive numbers from ceil(startTime / outputInterval) on, with five digits (more only if the number needs them), so no file is written twice; each holds exactly the frame (all particles, in order) after some number of time steps, starting from the particles of the settings file, the first after none, the numbers of steps not decreasing from file to file.", "quantifier": "every build configuration, every settings tree, every number of steps, every ending of the program", "why_tests_cant": "Five digits overflow after 99999 files and the numbering depends on the start time; contents concern every run.", "anchors": ["src/OpenMps/Main.cpp:OutputToCsv", "src/OpenMps/Main.cpp:main"]}
{"id": "C67", "title": "Viscosity averages and dissipates; no time-step limit for it", "statement": "Apart from gravity, the movement phase gives every fluid particle, in every component, a velocity between the smallest and the largest among itself and its neighbours within R_e, provided dt times the sum of its viscous coefficients is at most 1; under the same condition for all fluid particles and away from walls the kinetic energy (relative to free fall) does not grow, and whatever the time step, viscosity never does positive work on the old velocities. The automatic time step does not ensure the condition: one automatic step can multiply a velocity difference by more than 300.", "quantifier": "every configuration with uniform gravity, every state in the middle of a step with particles at distinct places, every time step (exact arithmetic); the refutation in binary64 with the default configuration", "why_tests_cant": "A maximum principle over all states; its failure appears only for large viscosity, far from the tested constants.", "anchors": ["src/OpenMps/Computer.hpp:ComputeExplicitForces", "src/OpenMps/Computer.hpp:DetermineDt", "src/OpenMps/Environment.hpp:MaxDt"]}
{"id": "C68", "title": "Momentum of a whole step; particles advance with their new velocity", "statement": "In builds without surface particles (SPP), gradient correction and central gravity, with nothing but fluid, a completed step changes the total momentum by exactly (number of fluid particles that are still in use) x dt x g: viscosity, pressure and stabilisation cancel out. In every build every fluid particle is moved in a step by dt times the velocity it has at the end of it, as is every other particle if dt is not 0.", "quantifier": "every reachable state, every time step such that nobody moves further than half the search margin; every build named", "why_tests_cant": "Cancellation over all pairs in all phases, for every configuration of particles.", "anchors": ["src/OpenMps/Computer.hpp:ForwardTime", "src/OpenMps/Computer.hpp:ComputeExplicitForces", "src/OpenMps/Computer.hpp:ModifyByPressureGradient", "src/OpenMps/Computer.hpp:DynamicStabilize"]}
{"id": "C69", "title": "Only prescribed positions matter; runs can be restarted", "statement": "ForwardTime(dt) depends on the wall callbacks, their state and the clock only through the positions they prescribe for the particles that are not fluid after the step. Hence the program started again from the particles it had reached (clock at zero, walls held where they are now) goes through the same states as if it had gone on, as long as nobody leaves the grid, and conversely; in particular, a program whose particle table is an output file of an earlier run with the same settings, in which the numbers have survived printing and reading, writes only states of the earlier trajectory. They need not be the states the earlier run would have written: the overshoot of the output time is forgotten.", "quantifier": "every two computers with any callbacks and clocks; every number of steps before and after the restart; every settings file; any arithmetic", "why_tests_cant": "Ranges over all callback programs, all histories and all restart points.", "anchors": ["src/OpenMps/Computer.hpp:ForwardTime", "src/OpenMps/Computer.hpp:ComputeExplicitForces", "src/Main.cpp:OutputToCsv", "src/Main.cpp:main"]}
{"id": "C70", "title": "What survives rounding: densities, time steps, time", "statement": "Computed in binary64, with every rounding, overflow and underflow: the weight of a pair is never negative and never NaN, whatever the distances; the reference density and, after a step, the density of every fluid and wall particle are not negative and not NaN, and with the surface treatment SPP the density is at least the reference density; if no velocity component is NaN, the automatic step lies between 0 and MaxDt and no particle's speed times the step exceeds MaxDx by more than one rounding; time never decreases in a step. What does not survive: a positive automatic step need not advance the time, and a NaN velocity makes the step NaN or goes unnoticed depending on the position in the particle list.", "quantifier": "all doubles; every reachable state and every build; every automatic step", "why_tests_cant": "Ranges over all binary64 values including subnormals, infinities and NaN, and over all particle sets.", "anchors": ["src/OpenMps/Computer.hpp:DetermineDt", "src/OpenMps/Computer.hpp:ComputeNeighborDensities", "src/OpenMps/Particle.hpp:W", "src/OpenMps/Environment.hpp:SetNextT"]}
{"id": "C71", "title": "Rounding can lose or add neighbours only at the very edge", "statement": "With the search computed in binary64: a particle nearer than NeighborLength by the fraction (n+1)/2^49 of it, where n is the number of blocks along the longest axis, is in the neighbour list; no particle is in it whose true distance exceeds NeighborLength by more than 1/2^49 of it; and of two particles either both or none has the other in its list (NeighborLength finite and between 2^-400 and 2^400).", "quantifier": "every reachable state, every pair of enabled particles, every NeighborLength between 2^-400 and 2^400, both dimensions", "why_tests_cant": "Errors occur only for particular bit patterns of coordinates; holds for all of them.", "anchors": ["src/OpenMps/Computer.hpp:SearchNeighbor", "src/OpenMps/Grid.hpp:Grid", "src/OpenMps/Computer.hpp:R"]}
{"id": "C72", "title": "Numbers in files: six digits", "statement": "Every number written to a particle file is a decimal numeral with at most six significant digits, no such numeral is nearer to the double, and the relative error is at most 5e-6. A numeral in a particle table, whatever its form (point, exponent, sign, white space before it, text behind it), is read as the double nearest to its value, and reading fails exactly if that is too large for a double or inexact and below the normal numbers. A setting is accepted exactly if it is a decimal numeral (white space around allowed) that is not too large; it becomes the nearest double. A particle file whose numbers are not tiny (zero, infinite, NaN or at least 2^-1021 in magnitude) can be read back: same particles in the same order, same types, every number within (5e-6 + 2^-52) relative error, zeros, infinities and NaN exactly; writing what was read gives the identical file. What does not hold: different particles can give the same file, and a file containing a number near the smallest normal double cannot be read.", "quantifier": "all doubles; all numerals; all particle lists, both dimensions", "why_tests_cant": "Ranges over all binary64 values and all decimal texts; the hard cases (ties, carries into the next power of ten, underflow) are a vanishing fraction.", "anchors": ["src/OpenMps/Main.cpp:OutputToCsv", "src/OpenMps/Main.cpp:InputFromCsv", "src/OpenMps/Main.cpp:LoadEnvironment", "src/OpenMps/stov.hpp:stov"]}
{"id": "C73", "title": "The benchmark scenes run", "statement": "The scripts of the benchmarks write the scenes they are meant to write: exactly one particle per cell of a lattice of width l_0, at rest; for the static pressure a column of width x height water particles between one layer of wall and three layers of dummies on the floor and both sides; for the two dam breaks water of the given size at the left (right) wall of a tank whose walls end in a rim; for the central gravity a block around the origin; the domain of the static scene is the box around its particles. In exact arithmetic, for every size, l_0 and physical constant (Courant number 0.1 and r_e/l_0 2.4 as in the scripts, up to 10^8 cells each way), each of the first three scenes is accepted, and the first time step succeeds: the grid does not overflow, the pressure equation is solved, no particle is taken out of use, walls and dummies stay in place, and the time is one maximum time step later. The central-gravity scene is accepted, too, and its first step succeeds in the builds with central gravity (at least three columns of particles; a domain of up to 10^9 cells each way). The same as for the first three holds for every scene of fluid, walls and dummies on a lattice with one particle per cell, from each of whose fluid and wall cells one reaches the open through neighbouring cells. In such a scene the density of each fluid particle that has fluid all around within the radius is exactly the reference density N0 after the first step.", "quantifier": "all sizes, lattice widths and physical constants; all tank-like lattice scenes; all feature switches of the implicit two-dimensional build with surface particles and uniform gravity (central gravity for the last scene)", "why_tests_cant": "Ranges over all sizes and constants and over all lattice scenes; a test runs one scene, and a singular pressure matrix or an overflowing block shows up only in certain shapes.", "anchors": ["Benchmark/StaticPressure/generate.py:main", "Benchmark/DamBreak/generate_koshizukaoka1996.py:main", "Benchmark/DamBreak/generate_zhouetal1999.py:main", "Benchmark/CentralGravity/generate.py:main", "src/OpenMps/Computer.hpp:Computer::ForwardTime", "src/OpenMps/Environment.hpp:Environment"]}
{"id": "C74", "title": "The benchmark files are loaded as meant", "statement": "The settings file a benchmark script writes is loaded by the two-dimensional implicit builds, whatever the other feature switches: the condition and the environment have the values of the script (the maximum time step is outputInterval / minStepCountPerOutput; surfaceRatio is used exactly by the builds without SPP), and the particles are those of the scene, in the same order, at rest. With the number formats as they are (Python's str on one side, the program's readers of settings and of particle tables on the other, both in binary64) nothing is lost: each setting and each coordinate is read as the double the script had, provided it is finite and, for coordinates, not tiny; for the static scene with up to 10^8 cells each way and l_0 between 10^-12 and 10^12 that is always so. In exact arithmetic the first time step after loading succeeds for the static scene, both dam breaks and, in builds with central gravity, the central-gravity scene, of every size. Explicit builds and three-dimensional builds reject every such file and write nothing.", "quantifier": "all values of the settings, all sizes, all lattice scenes, all build switches, any white space between the elements, any number format that reads what it wrote, and any str that writes a decimal numeral whose nearest double is the number", "why_tests_cant": "Ranges over all settings, sizes and doubles; whether a written coordinate is read back exactly depends on every digit.", "anchors": ["Benchmark/StaticPressure/generate.py:main", "Benchmark/DamBreak/generate_koshizukaoka1996.py:main", "Benchmark/DamBreak/generate_zhouetal1999.py:main", "Benchmark/CentralGravity/generate.py:main", "src/OpenMps/Main.cpp:LoadCondition", "src/OpenMps/Main.cpp:LoadEnvironment", "src/OpenMps/Main.cpp:LoadParticles"]}
{"id": "C75", "title": "Symmetric scenes stay symmetric", "statement": "If the loaded particles stand at rest on a lattice and are their own mirror image in a vertical line, then under uniform gravity, in exact arithmetic, they are their own mirror image after every number of successful steps as long as nobody has left the domain: to every particle there is one of the same type, pressure and density at the mirrored place with the mirrored velocity. Under central gravity the same holds for the reflections in the two axes and in the diagonals through the origin. So the static-pressure benchmark stays symmetric about the middle of the tank, its fluid as a whole never gets a sideways momentum and its centre of mass stays on the centre line; the central-gravity benchmark keeps both mirror symmetries, and the diagonal one when it is a square. The result does not depend on the order in which the particles are listed.", "quantifier": "all two-dimensional builds, all settings, all symmetric scenes on a lattice of any size, all numbers of steps", "why_tests_cant": "A symmetry of the whole history of a run for every scene, size, setting and number of steps; a run in floating point only shows approximate symmetry.", "anchors": ["src/OpenMps/Computer.hpp:ForwardTime", "src/OpenMps/Grid.hpp:Grid", "Benchmark/StaticPressure/generate.py:main", "Benchmark/CentralGravity/generate.py:main"]}
{"id": "C76", "title": "The order of the solver's sums", "statement": "In the default build (ViennaCL with OpenMP) the solver's inner products are parallel reductions whose additions happen in no fixed order, so one and the same call may have several outcomes. In exact arithmetic there is only one, that of the sequential program. In any arithmetic: the sequential outcome is one of them; two completed outcomes of the same call agree in everything - time, step, number of particles, types, densities, wall state, positions and velocities of walls and dummies, pressures of dummies and removed particles - except the pressures of fluid and wall particles and the motion of the fluid; in every outcome the time has advanced by the step, walls are where the callbacks put them, removed particles stay removed, no pressure of a fluid or wall particle is negative; a history of such calls never reads or writes out of bounds (apart from the known cases of C09), and a call throws the grid exception exactly when a block overflows, else completes or reports the solver's failure. But two runs of the same binary on the same input need not agree bit by bit: in binary64 there are reachable states whose next step has outcomes with different pressures, positions and velocities.", "quantifier": "all states (all histories of calls, each with its own order of summation), all ways to arrange and bracket every sum of the solver, all builds; existence of a counterexample to bitwise reproducibility", "why_tests_cant": "The order of a parallel reduction depends on threads and timing; a test sees one of them and cannot enumerate the others, let alone along a history.", "anchors": ["src/OpenMps/Computer.hpp:SolvePressurePoissonEquation", "src/OpenMps/Computer.hpp:ForwardTime", "src/OpenMps/defines.hpp:USE_VIENNACL", "src/OpenMps/defines.hpp:VIENNACL_WITH_OPENMP"]}
{"id": "C77", "title": "The choice of units does not matter", "statement": "Express the whole simulation in other units of length, time and mass (density): positions, velocities, pressures, gravity, viscosity, density, time limits, domain, sound speed and the prescribed wall motion are multiplied by the corresponding powers. Then, in exact arithmetic, the environment constructed from the converted arguments is the converted environment, the automatic time step is the converted time step, and every history of calls ends in the converted state - same particles removed, same exceptions, same neighbour lists, positions and pressures converted; the solver's tolerance has no unit. This holds for every choice of time and mass units in all builds, and for every choice of length unit in builds without virtual surface particles. In builds with them there is one exception: whether a particle has a virtual particle is decided by comparing a length with the machine epsilon 2^-52 itself; the statement holds as long as no such comparison comes out differently in the new unit, and fails otherwise: in binary64 the same three particles, with lengths multiplied by 2^-60, make ForwardTime throw instead of return.", "quantifier": "all positive conversion factors of length, time and density, all arguments, all histories of calls, all wall motions, all builds", "why_tests_cant": "Conversion factors, arguments and histories range over infinite sets; a wrong power of dt or l_0 in one term can be invisible in every benchmark written in SI units.", "anchors": ["src/OpenMps/Computer.hpp:ForwardTime", "src/OpenMps/Computer.hpp:AccumulateNeighbor", "src/OpenMps/Environment.hpp:Environment", "src/OpenMps/Computer.hpp:DetermineDt"]}
{"id": "C78", "title": "Rounding can make the pressure solver give up", "statement": "Expected: a call of ForwardTime that completes in exact arithmetic also completes in binary64. Refuted: three fluid particles at rest on a line, two of them l_0/32 apart and connected to the free surface, all numbers exactly representable, accuracy 10^-10: in exact arithmetic the call returns normally (the solver needs at most as many iterations as there are particles, C33), while in binary64 the same call throws because the residual has not fallen below the accuracy after that many iterations.", "quantifier": "refuted by one scene; the exact half holds for every execution of the call", "why_tests_cant": "A test can show the exception in binary64 but not that it is due to rounding: that the same call succeeds in exact arithmetic needs a proof.", "anchors": ["src/OpenMps/Computer.hpp:SolvePressurePoissonEquation", "src/OpenMps/Computer.hpp:ForwardTime"]}
{"id": "C79", "title": "Output files sort in time order", "statement": "The evaluation scripts take the files of a run in the order of their names and read the number of a file from characters 10 to 14 of its name. As long as all numbers are below 100000, this is the order in which the files were written, and the number read is the number of the file (start number + position). However the directory lists them, the scripts go through the files in the order in which they were written. From 100000 on it is not so: file n >= 100000 sorts before every older file m > n/10, and the script takes n/10 for its number.", "quantifier": "every settings tree, every build, every run; refuted for every pair of numbers on both sides of 100000", "why_tests_cant": "A test would need more than 100000 files, or a late startTime; the order has to hold for every run.", "anchors": ["src/OpenMps/Main.cpp:OutputToCsv", "Benchmark/CentralGravity/check_result.py:output", "Benchmark/DamBreak/koshizukaoka1996_edge.py:main"]}
{"id": "C80", "title": "Evaluation scripts read the files as written", "statement": "A script that reads an output file with csv.DictReader(skipinitialspace) gets one row per particle, in the order of the particles, and finds under Type, x, (y,) z, u, (v,) w, p, n what the program printed for that particle. The front of the fluid computed by koshizukaoka1996_edge.py is the largest x of a fluid particle (as printed); the script fails iff there is no fluid particle.", "quantifier": "every list of particles, both dimensions, every number format without separators", "why_tests_cant": "It concerns every file that can be written.", "anchors": ["src/OpenMps/Main.cpp:OutputToCsv", "Benchmark/DamBreak/koshizukaoka1996_edge.py:output", "Benchmark/CentralGravity/check_result.py:output"]}
{"id": "C81", "title": "Evaluation scripts: reference density and surface", "statement": "calculate_n0(r_e) of the scripts is the N0 of every plane environment with r_eByl_0 = r_e (exact arithmetic). Expected: check_result.py finds the surface of the drop as the particles with n < beta n0. Refuted: in a build with virtual surface particles (the default) every fluid or wall particle ends every step with n >= n0, so in a scene without dummy particles the script takes the maximum of an empty list and fails on every file written after a step, for every beta up to 1 - 10^-5, in particular on the scene of CentralGravity/generate.py.", "quantifier": "every environment; every reachable state and step, every beta; every size of the scene", "why_tests_cant": "The equality holds for all radii, and the failure for all runs.", "anchors": ["Benchmark/CentralGravity/check_result.py:calculate_n0", "Benchmark/DamBreak/zhouetal1999.py:calculate_n0", "src/OpenMps/Environment.hpp:Environment", "src/OpenMps/Computer.hpp:ComputeNeighborDensities"]}
{"id": "C82", "title": "Water gauges of the dam-break script", "statement": "On a file of the program zhouetal1999.py reports at each gauge the height of the highest particle within half a particle width whose density is above a tenth of n0 (0 if none is above the floor), and the mean pressure of the wall particles at the sensor; it fails only if there are none. In a build with virtual surface particles this is, in every file but the first, the highest fluid particle there, however isolated: its density threshold leaves out no splash; walls, dummies and particles that have left the domain do not disturb it, if at first nothing was above the floor at the gauge. This is so for the scene of its generator with any gauge between the left wall and the water.", "quantifier": "every written table; every number of steps >= 1 from every start; every tank, water column and gauge", "why_tests_cant": "It concerns every file of every run, whatever the fluid does.", "anchors": ["Benchmark/DamBreak/zhouetal1999.py:output", "Benchmark/DamBreak/generate_zhouetal1999.py", "src/OpenMps/Main.cpp:OutputToCsv"]}
{"id": "C83", "title": "Time axis of the evaluation scripts", "statement": "The scripts sort the directory and plot the k-th file over the time k dt (dt being the outputInterval). Whatever order the directory lists the files in, this file holds the particles of the run at time k dt or later by less than MaxDt, as long as all file numbers are below 100000. The i-th picture of koshizukaoka1996_shape.py, said to be of the time i DT, is of a time from i (DT - dt) to i DT + MaxDt (its floor(DT/dt) makes it lag by up to i dt if dt does not divide DT).", "quantifier": "every settings tree, every run however it ends, every order of the directory, every k and i, any evaluation function", "why_tests_cant": "The order of a directory and the lengths of the steps vary from run to run.", "anchors": ["Benchmark/CentralGravity/check_result.py:main", "Benchmark/DamBreak/koshizukaoka1996_edge.py:main", "Benchmark/DamBreak/koshizukaoka1996_shape.py:main", "Benchmark/DamBreak/zhouetal1999.py:main", "src/OpenMps/Main.cpp:main"]}
{"id": "C84", "title": "The pressure equation has one solution, with a maximum principle", "statement": "If no two particles are at the same place and every particle with an unknown pressure is connected with the free surface, the pressure equation of a step has exactly one exact solution. Stronger compression anywhere never lowers a pressure anywhere; if the fluid is nowhere rarefied, no pressure is negative (setting negative pressures to 0 changes nothing); the highest positive pressure is at a particle where the fluid is being compressed. The pressures the program arrives at differ from those of the exact solution (negative ones set to 0) by at most the solver's tolerance times the residual of the pressures before, times the pressure a unit compression everywhere would cause at that particle.", "quantifier": "every frame of particles (any number, both dimensions, both weight variants) and every reachable state and step, exact arithmetic", "why_tests_cant": "It is a statement about all configurations of particles; a test sees the solution of one system.", "anchors": ["src/OpenMps/Computer.hpp:SetPressurePoissonEquation", "src/OpenMps/Computer.hpp:SolvePressurePoissonEquation", "src/OpenMps/Computer.hpp:ComputeImplicitForces"]}
{"id": "C85", "title": "The text of the settings file", "statement": "A settings file is read as the tree it stands for, however it is written: either kind of quotes, characters as themselves, by name or by number (decimal or hexadecimal, as UTF-8), white space in tags and between elements, comments, CDATA and processing instructions anywhere, with or without a byte order mark; the run is then the one the tree prescribes, and two files whose trees differ in comments only are run alike. A file that ends anywhere before the end of its root element (cut off, or still being written) is never run: the program is aborted and no output file is written. The text the benchmark scripts write is read as the tree of C74, so that in binary64 every setting and particle of the script arrives in the program. White space alone between two pieces of markup is lost (also in the particle table).", "quantifier": "every document of the grammar, every cut, every build, all settings and scenes of the scripts", "why_tests_cant": "The claims are about all ways to write a file and all points where it can end.", "anchors": ["src/OpenMps/Main.cpp:main", "src/OpenMps/Main.cpp:LoadParticles", "Benchmark/StaticPressure/generate.py:main", "Benchmark/DamBreak/generate_koshizukaoka1996.py:main", "Benchmark/DamBreak/generate_zhouetal1999.py:main", "Benchmark/CentralGravity/generate.py:main", "Benchmark/Sample/Sample.xml"]}
{"id": "C86", "title": "What the screen says", "statement": "The program prints the name of the settings file, then exactly one line for each file it writes, in the same order: the digits of the file's name, the simulated time (start time included) with four decimals, off by at most half a unit of the last, the number of time steps made so far (never decreasing), and the number of particles in use in that file (never increasing); at the end 'finished', after a message if the pressure equation could not be solved. The message names the file that was not written, the number of steps completed and the time, here without the start time, so it disagrees with the lines before it when the start time is not 0. When the program is aborted, nothing follows the last line.", "quantifier": "every build, every text of a settings file, every number of steps and every ending; all finite doubles for the format of the time", "why_tests_cant": "The lines are to agree with the files of every run, whatever its length and ending.", "anchors": ["src/OpenMps/Main.cpp:main", "src/OpenMps/Main.cpp:OutputToCsv", "src/OpenMps/Computer.hpp:Exception"]}
{"id": "C87", "title": "The result directory at any moment", "statement": "Whenever the program is killed, the files of the run up to some point are complete, the next one may be cut anywhere, and everything else in the directory (later files of the run, files with other names) is as it was before; after a complete run all its files are complete and files an earlier run left under other numbers are still there. When the line about a file has appeared on the screen the file is complete, and of the files without a line at most the next one has been touched. A file cut at the end of a line is exactly the file of the first particles: nothing distinguishes it from a complete one, and a run started from it takes these particles without any message. A file cut inside a row is read as undefined if the row has lost an item; if only the last item has been cut, it is read without any message and only the number density of that particle differs.", "quantifier": "every build, settings tree, run and ending; every moment of the run; every state of the directory before", "why_tests_cant": "The program can be killed at any point of any run, and the directory can hold anything.", "anchors": ["src/OpenMps/Main.cpp:OutputToCsv", "src/OpenMps/Main.cpp:InputFromCsv", "src/OpenMps/Main.cpp:main"]}
{"id": "C88", "title": "The number densities given at the start do not matter", "statement": "Two computers whose particles differ at most in the number density (dummy particles, whose density is never computed, excepted) and, for particles out of use, in the pressure: every step ends the same way in both (same exception, or none), and once a step has been completed all particles in use are equal and the others have the same positions, velocities and types. So the last column of the particle table has no influence on a run: names, number and times of the files, the ending, and every file after the first completed step agree, apart from the columns p and n of particles out of use. In particular a table whose last number has been cut off (C87) gives the same run.", "quantifier": "every build, wall motion, environment with a square ground, history, number format; every two tables that differ in this way; any number of steps", "why_tests_cant": "That a value is never read before it is overwritten must hold in every build, for every particle and on every path through the step.", "anchors": ["src/OpenMps/Computer.hpp:ForwardTime", "src/OpenMps/Computer.hpp:ComputeNeighborDensities", "src/OpenMps/Main.cpp:InputFromCsv", "src/OpenMps/Main.cpp:main"]}
{"id": "C89", "title": "Output files that cannot be written go unnoticed", "statement": "Whatever happens to the output files of a run - each one may, independently of the others, be impossible to open, or be left with arbitrary contents because the disk is full - the program prints exactly the same lines (including the number of particles of each file) and ends the same way as when every file is written. A file that was not hit is complete; one that could not be opened is what it was before the run; all other files are untouched. In particular, if nothing at all can be written (no directory `result`) the disk is unchanged and the program reports every file, `finished`, and exit code 0. Without a readable settings file the program prints the name of the file and terminates without touching any file.", "quantifier": "every build, settings file, number format, clock, run length, previous contents of the disk, and every assignment of failures to files", "why_tests_cant": "The failures can hit any subset of an unbounded number of files; a test injects a few.", "anchors": ["src/OpenMps/Main.cpp:OutputToCsv", "src/OpenMps/Main.cpp:main"]}
{"id": "C90", "title": "What a run depends on, and running again", "statement": "What the program does depends on nothing on the disk but the contents of the settings file: started with another name of the settings file (first argument), with other further arguments, on a disk where that name has the same contents, it prints the same lines after the first, ends the same way and does the same to the disk. Without an argument it reads ../../Benchmark/Sample/Sample.xml. If the settings file does not have the name of an output file, a second run of the same command on the disk left by the first prints the same, ends the same way and leaves every file as it is. And if writing works, a run that is killed at any moment and then started again from the beginning does the same as one that was not interrupted and leaves the same disk.", "quantifier": "every build (with sequential reductions, see C76), argument list, contents of the disk, number format, run length, and every assignment of failures to output files, and every moment of interruption", "why_tests_cant": "It is about every disk and every settings file, and about two runs of unbounded length.", "anchors": ["src/OpenMps/Main.cpp:main", "src/OpenMps/Main.cpp:OutputToCsv", "src/OpenMps/Main.cpp:System"]}

{"id": "C01", "title": "Diagram stays a closed graph", "statement": "After any history of Monte Carlo steps started from a fresh diagram, every G line runs between two existing vertices and is the outgoing line of its tail and the incoming line of its head; every vertex has exactly one incoming G line, one outgoing G line and one W line, and is the end of that W line on the side its direction records. Nothing points to a removed object.", "quantifier": "every number n of Hop steps, every seed/state of the random engine, every pair of G/W weight tables, every lattice, inverse temperature, reweighting table and maximum order 1..9, with and without the vertex-correction (Gamma3) updates", "why_tests_cant": "The random walk is unbounded and branches on 32-bit random words at up to a dozen places per step; a test run visits a vanishing part of the histories and a single bad rarely-accepted update corrupts every later sample.", "anchors": ["src/module/markov/markov.cpp: Hop, AddInteraction, DeleteInteraction, Reconnect", "src/module/diagram/diagram_check.cpp: _CheckTopo"]}
{"id": "C02", "title": "Momentum is conserved at every vertex", "statement": "After any history, at every vertex the momentum of the incoming G line equals that of the outgoing G line plus or minus the W line's momentum (sign given by the vertex's side), up to the worm's momentum at the two worm ends, modulo the size 20001 of the momentum ring.", "quantifier": "every number n of Hop steps, every seed/state of the random engine, every pair of G/W weight tables, every lattice, inverse temperature, reweighting table and maximum order 1..9, with and without the vertex-correction (Gamma3) updates", "why_tests_cant": "The random walk is unbounded and branches on 32-bit random words at up to a dozen places per step; a test run visits a vanishing part of the histories and a single bad rarely-accepted update corrupts every later sample.", "anchors": ["src/module/markov/markov.cpp: CreateWorm, MoveWormOnG, MoveWormOnW, Reconnect, AddInteraction", "src/module/diagram/diagram_check.cpp: _CheckK"]}
{"id": "C03", "title": "Momentum occupation tables are exact", "statement": "After any history the table that says whether a G (W) momentum is in use says so exactly for the momenta carried by existing lines; no two G lines share a momentum, no two W lines share an absolute momentum, no W line has momentum 0. As a consequence no step aborts with 'add occupied' or 'remove empty'.", "quantifier": "every number n of Hop steps, every seed/state of the random engine, every pair of G/W weight tables, every lattice, inverse temperature, reweighting table and maximum order 1..9, with and without the vertex-correction (Gamma3) updates", "why_tests_cant": "The random walk is unbounded and branches on 32-bit random words at up to a dozen places per step; a test run visits a vanishing part of the histories and a single bad rarely-accepted update corrupts every later sample.", "anchors": ["src/module/diagram/diagram.cpp: AddGHash, RemoveGHash, ReplaceGHash, AddWHash, RemoveWHash, ReplaceWHash", "src/module/markov/markov.cpp"]}
{"id": "C04", "title": "A Monte Carlo step never aborts and never has undefined behaviour", "statement": "From a fresh diagram, any number of Hop steps terminates normally: no ABORT, no exception for an invalid table index, no read through an unset pointer, no read outside a fixed array, no modulo by zero in the random-integer routine, provided the maximum order is between 1 and 9, the order-reweighting table has more entries than the maximum order and a time difference of two generated times lands in a valid time bin.", "quantifier": "every number n of Hop steps, every seed/state of the random engine, every pair of G/W weight tables, every lattice, inverse temperature, reweighting table and maximum order 1..9, with and without the vertex-correction (Gamma3) updates", "why_tests_cant": "The random walk is unbounded and branches on 32-bit random words at up to a dozen places per step; a test run visits a vanishing part of the histories and a single bad rarely-accepted update corrupts every later sample.", "anchors": ["src/module/markov/markov.cpp: Hop and every update", "src/utility/rng.h: irn", "src/module/diagram/component_bundle.cpp"]}
{"id": "C05", "title": "Order and object counts", "statement": "After any history the recorded order is at most the configured maximum; away from order 0 there are exactly Order W lines, 2*Order G lines and 2*Order vertices; at order 0 exactly one W line, two G lines and two vertices are kept. All fixed-size arrays indexed by order or slot are therefore accessed within bounds.", "quantifier": "every number n of Hop steps, every seed/state of the random engine, every pair of G/W weight tables, every lattice, inverse temperature, reweighting table and maximum order 1..9, with and without the vertex-correction (Gamma3) updates", "why_tests_cant": "The random walk is unbounded and branches on 32-bit random words at up to a dozen places per step; a test run visits a vanishing part of the histories and a single bad rarely-accepted update corrupts every later sample.", "anchors": ["src/module/markov/markov.cpp: AddInteraction, DeleteInteraction, JumpToOrder0, JumpBackToOrder1", "src/utility/convention.h: MAX_ORDER"]}
{"id": "C06", "title": "Spin is continuous along every G line", "statement": "After any history the spin at which a G line leaves its tail vertex is the spin with which it enters its head vertex.", "quantifier": "every number n of Hop steps, every seed/state of the random engine, every pair of G/W weight tables, every lattice, inverse temperature, reweighting table and maximum order 1..9, with and without the vertex-correction (Gamma3) updates", "why_tests_cant": "The random walk is unbounded and branches on 32-bit random words at up to a dozen places per step; a test run visits a vanishing part of the histories and a single bad rarely-accepted update corrupts every later sample.", "anchors": ["src/module/markov/markov.cpp: MoveWormOnG, AddInteraction, JumpBackToOrder1", "src/module/diagram/diagram_check.cpp: _CheckSpin"]}
{"id": "C07", "title": "Exactly one measuring line", "statement": "After any history exactly one line of the diagram is marked as the measuring line; it is a G line iff the diagram says it measures on G, and the diagram's measuring-line pointer is that line. The measuring line is never deleted.", "quantifier": "every number n of Hop steps, every seed/state of the random engine, every pair of G/W weight tables, every lattice, inverse temperature, reweighting table and maximum order 1..9, with and without the vertex-correction (Gamma3) updates", "why_tests_cant": "The random walk is unbounded and branches on 32-bit random words at up to a dozen places per step; a test run visits a vanishing part of the histories and a single bad rarely-accepted update corrupts every later sample.", "anchors": ["src/module/markov/markov.cpp: ChangeMeasureFromGToW, ChangeMeasureFromWToG, DeleteInteraction", "src/module/diagram/diagram_check.cpp: _CheckStatus"]}
{"id": "C08", "title": "Worm bookkeeping", "statement": "After any history, when a worm exists its two ends are distinct existing vertices, Masha is the OUT end of its W line, and a W line is marked as a worm line exactly when one of its two end vertices is a worm end; without a worm no W line is marked. At order 0 there is no worm.", "quantifier": "every number n of Hop steps, every seed/state of the random engine, every pair of G/W weight tables, every lattice, inverse temperature, reweighting table and maximum order 1..9, with and without the vertex-correction (Gamma3) updates", "why_tests_cant": "The random walk is unbounded and branches on 32-bit random words at up to a dozen places per step; a test run visits a vanishing part of the histories and a single bad rarely-accepted update corrupts every later sample.", "anchors": ["src/module/markov/markov.cpp: CreateWorm, DeleteWorm, MoveWormOnG, MoveWormOnW", "src/module/diagram/diagram_check.cpp: _CheckStatus"]}
{"id": "C09", "title": "Vertex-correction bookkeeping", "statement": "After any history at most one line carries a vertex correction; it is a G line iff the status is 1 and a W line iff the status is 2; that line is not the measuring line, is not instantaneous, is never deleted, and the diagram's stored end pointers are this line's end slots.", "quantifier": "every number n of Hop steps, every seed/state of the random engine, every pair of G/W weight tables, every lattice, inverse temperature, reweighting table and maximum order 1..9, with and without the vertex-correction (Gamma3) updates", "why_tests_cant": "The random walk is unbounded and branches on 32-bit random words at up to a dozen places per step; a test run visits a vanishing part of the histories and a single bad rarely-accepted update corrupts every later sample.", "anchors": ["src/module/markov/gamma3_updates.cpp", "src/module/markov/markov.cpp", "src/module/diagram/diagram_check.cpp: _CheckStatus"]}
{"id": "C10", "title": "An instantaneous interaction has equal end times", "statement": "In every reachable diagram the two ends of a W line marked instantaneous (delta) carry the same imaginary time. (CheckDiagram aborts the program otherwise.)", "quantifier": "every reachable diagram", "why_tests_cant": "The failing history needs a specific sequence of seven accepted updates; random testing does not reach it in a short run.", "anchors": ["src/module/markov/markov.cpp: JumpBackToOrder1, AddDeltaInteraction, DeleteInteraction", "src/module/diagram/diagram_check.cpp: _CheckStatus"]}
{"id": "C11", "title": "Stored line weights equal recomputed weights", "statement": "After any history the weight cached on each G and W line of a diagram of order >= 1 is bit for bit the value one gets by evaluating the weight table at the line's current end points, spins and flags.", "quantifier": "every number n of Hop steps, every seed/state of the random engine, every pair of G/W weight tables, every lattice, inverse temperature, reweighting table and maximum order 1..9, with and without the vertex-correction (Gamma3) updates; for any arithmetic, including IEEE doubles", "why_tests_cant": "The random walk is unbounded and branches on 32-bit random words at up to a dozen places per step; a test run visits a vanishing part of the histories and a single bad rarely-accepted update corrupts every later sample.", "anchors": ["src/module/markov/markov.cpp", "src/module/weight/component_MC.cpp: GClass::Weight, WClass::Weight", "src/module/diagram/diagram_check.cpp: _CheckWeight"]}
{"id": "C12", "title": "Diagram weight is the signed product of line weights", "statement": "In exact arithmetic, after any history from a fresh diagram of non-zero weight (or from a loaded diagram whose weight is non-zero) the diagram weight equals the product of all line weights times (-1)^Order times the fermion-loop sign (and equals the normalisation constant at order 0).", "quantifier": "every number n of Hop steps, every seed/state of the random engine, every pair of G/W weight tables, every lattice, inverse temperature, reweighting table and maximum order 1..9, with and without the vertex-correction (Gamma3) updates", "why_tests_cant": "The random walk is unbounded and branches on 32-bit random words at up to a dozen places per step; a test run visits a vanishing part of the histories and a single bad rarely-accepted update corrupts every later sample.", "anchors": ["src/module/markov/markov.cpp", "src/module/diagram/diagram.cpp: FixDiagram", "src/module/diagram/diagram_check.cpp: _CheckWeight"]}
{"id": "C13", "title": "Phase is the phase of the weight", "statement": "In exact arithmetic, after any such history of non-zero weight the recorded phase is the unit complex number Weight/|Weight|.", "quantifier": "every number n of Hop steps, every seed/state of the random engine, every pair of G/W weight tables, every lattice, inverse temperature, reweighting table and maximum order 1..9, with and without the vertex-correction (Gamma3) updates", "why_tests_cant": "The random walk is unbounded and branches on 32-bit random words at up to a dozen places per step; a test run visits a vanishing part of the histories and a single bad rarely-accepted update corrupts every later sample.", "anchors": ["src/module/markov/markov.cpp", "src/utility/complex.h: phase"]}
{"id": "C14", "title": "Fermion-loop sign counts loops", "statement": "After any history the fermion-loop sign is (-1)^(number of closed G loops - 1): loops are the cycles of the map sending a vertex to the head of its outgoing G line.", "quantifier": "every number n of Hop steps, every seed/state of the random engine, every pair of G/W weight tables, every lattice, inverse temperature, reweighting table and maximum order 1..9, with and without the vertex-correction (Gamma3) updates", "why_tests_cant": "The random walk is unbounded and branches on 32-bit random words at up to a dozen places per step; a test run visits a vanishing part of the histories and a single bad rarely-accepted update corrupts every later sample.", "anchors": ["src/module/markov/markov.cpp: Reconnect, AddInteraction, DeleteInteraction", "src/module/diagram/diagram_IO.cpp: BuildNew"]}
{"id": "C15", "title": "A rejected or inapplicable update changes nothing", "statement": "A step whose proposal is rejected, or that returns early, leaves every observable part of the diagram unchanged (only the random engine, the step counter, the proposal statistics and, when no vertex correction is present, the scratch external point may change).", "quantifier": "every number n of Hop steps, every seed/state of the random engine, every pair of G/W weight tables, every lattice, inverse temperature, reweighting table and maximum order 1..9, with and without the vertex-correction (Gamma3) updates", "why_tests_cant": "The random walk is unbounded and branches on 32-bit random words at up to a dozen places per step; a test run visits a vanishing part of the histories and a single bad rarely-accepted update corrupts every later sample.", "anchors": ["src/module/markov/markov.cpp", "src/module/markov/gamma3_updates.cpp"]}
{"id": "C16", "title": "Metropolis-Hastings acceptance", "statement": "In exact arithmetic each accepted-or-rejected proposal is accepted exactly when the drawn number is below pi(new) q(new->old) / (pi(old) q(old->new)), where pi is the product of |Weight|, order, worm, polarisation and vertex-correction reweighting factors and q are the proposal densities of the update and of its inverse.", "quantifier": "every state satisfying the invariant, every update, every draw", "why_tests_cant": "A wrong factor biases every result silently; detecting it statistically needs a high-precision reference for each of 21 updates at each order.", "anchors": ["src/module/markov/markov.cpp", "src/module/markov/gamma3_updates.cpp"]}
{"id": "C17", "title": "A fermion loop sits on one site", "statement": "After any history the two ends of every G line are on the same lattice site, hence all vertices of a loop share one site.", "quantifier": "every number n of Hop steps, every seed/state of the random engine, every pair of G/W weight tables, every lattice, inverse temperature, reweighting table and maximum order 1..9, with and without the vertex-correction (Gamma3) updates", "why_tests_cant": "The random walk is unbounded and branches on 32-bit random words at up to a dozen places per step; a test run visits a vanishing part of the histories and a single bad rarely-accepted update corrupts every later sample.", "anchors": ["src/module/markov/markov.cpp: AddInteraction, Reconnect, ChangeRLoop, JumpBackToOrder1"]}
{"id": "C18", "title": "No tadpoles; order one is the Fock diagram", "statement": "After any history no G line starts and ends at the same vertex unless that vertex is a worm end; in particular a worm-free diagram of order <= 1 consists of two vertices joined by two antiparallel G lines, which JumpBackToOrder1 assumes.", "quantifier": "every number n of Hop steps, every seed/state of the random engine, every pair of G/W weight tables, every lattice, inverse temperature, reweighting table and maximum order 1..9, with and without the vertex-correction (Gamma3) updates", "why_tests_cant": "The random walk is unbounded and branches on 32-bit random words at up to a dozen places per step; a test run visits a vanishing part of the histories and a single bad rarely-accepted update corrupts every later sample.", "anchors": ["src/module/markov/markov.cpp: JumpBackToOrder1"]}
{"id": "C19", "title": "Hop runs exactly the announced number of steps and picks a legal update", "statement": "Hop(n) performs max(n,0) steps, increments the counter by that number, consumes at least one random word per step and in each step executes at most one update, chosen by the interval of the partial sums that contains the drawn number; the two disabled updates do nothing.", "quantifier": "every n, every engine, every arithmetic", "why_tests_cant": "n and the engine stream are unbounded.", "anchors": ["src/module/markov/markov.cpp: Hop, BuildNew"]}
{"id": "C20", "title": "At order 0 only the jump back acts", "statement": "In any order-0 state every update other than the jump back to order 1 leaves the diagram untouched.", "quantifier": "every order-0 state with a well-formed diagram, every update, every engine state", "why_tests_cant": "quantifies over all states and random streams", "anchors": ["src/module/markov/markov.cpp"]}
{"id": "C21", "title": "A fresh diagram satisfies every structural promise", "statement": "The diagram built from scratch passes all structural promises (C01-C03, C05-C09, C11, C17, C18), for every weight table and every lattice the builder supports (two or three dimensions, first extent at least 2).", "quantifier": "every lattice and every pair of weight tables", "why_tests_cant": "infinitely many tables and lattices", "anchors": ["src/module/diagram/diagram_IO.cpp: BuildNew", "src/module/diagram/diagram.cpp: FixDiagram"]}
{"id": "C22", "title": "CheckDiagram accepts every reachable diagram", "statement": "After any history of the simulation the built-in check of the topology, of the momenta and of the spins reports success, and so does the check of the flags when every delta line has equal end times (which C10 shows is not guaranteed). In exact arithmetic the whole check reports success exactly when, in addition, no stored line weight is within 1e-9 of zero.", "quantifier": "every history (any configuration, any random stream, any number of steps, saves, loads, messages)", "why_tests_cant": "quantifies over all reachable diagrams; a test runs the check on the few states it visits", "anchors": ["src/module/diagram/diagram_check.cpp: CheckDiagram"]}
{"id": "C23", "title": "CheckDiagram rejects broken diagrams", "statement": "If the built-in check succeeds on a diagram of non-zero order, then the object counts match the order, every listed G line and W line is mutually linked with existing vertices, the spins at the two ends of each G line agree, momentum is conserved modulo 2*MAX_K+1 at every vertex with the worm's momentum counted at its ends, exactly one line is flagged as measuring line and of the kind the diagram records, and delta lines have equal end times.", "quantifier": "every diagram state at all (no invariant assumed)", "why_tests_cant": "quantifies over all, including corrupt, memory states", "anchors": ["src/module/diagram/diagram_check.cpp: _CheckTopo"]}
{"id": "C24", "title": "Save and load restores the diagram", "statement": "Writing a diagram to its dictionary form and reading it back yields a diagram with the same vertices, lines, momenta, spins, times, worm and signs; at order 0 (which shares its form with order 1) it does not restore the order.", "quantifier": "every diagram state satisfying the invariant", "why_tests_cant": "quantifies over all diagrams", "anchors": ["src/module/diagram/diagram_IO.cpp: ToDict, FromDict", "src/module/diagram/diagram.cpp: FixDiagram"]}
{"id": "C25", "title": "Re-initialising a worm-free diagram leaves no worm line", "statement": "After Reset (new weight tables) of a worm-free diagram no W line is marked as a worm line.", "quantifier": "every reachable worm-free diagram", "why_tests_cant": "needs a history with a deleted worm whose stale end pointers still match a line", "anchors": ["src/module/diagram/diagram.cpp: Reset, FixDiagram"]}
{"id": "C26", "title": "Re-initialising preserves the order", "statement": "Reset of a diagram keeps its order.", "quantifier": "every reachable diagram", "why_tests_cant": "order 0 shares its memory representation with order 1; only histories that stop at order 0 show it", "anchors": ["src/module/diagram/diagram.cpp: Reset, FixDiagram"]}
{"id": "C27", "title": "Bundle behaves as a set of slots", "statement": "For any sequence of additions and removals of live elements on a fresh bundle with fewer than 20 live elements at each addition: the slots returned are distinct from the live ones, the live elements are exactly those added and not removed, names number the live elements 0..count-1 without gaps, and lookup by name inverts naming.", "quantifier": "every sequence of operations", "why_tests_cant": "unbounded operation sequences", "anchors": ["src/module/diagram/component_bundle.cpp"]}
{"id": "C28", "title": "Bundle::Add aborts cleanly when full", "statement": "Adding to a bundle that already holds 20 elements aborts with a message instead of touching memory outside the array.", "quantifier": "every full bundle", "why_tests_cant": "reads one element past an array: tests that do not trip a sanitizer pass", "anchors": ["src/module/diagram/component_bundle.cpp: Add()"]}
{"id": "C29", "title": "Momentum is a cyclic group of order 20001", "statement": "Addition and subtraction of in-range momenta stay in range, are associative, commutative, have 0 as neutral element and agree with integer arithmetic modulo 20001.", "quantifier": "all pairs/triples of the 20001 momenta", "why_tests_cant": "20001^3 triples", "anchors": ["src/utility/momentum.cpp"]}
{"id": "C30", "title": "Scaling a momentum by an integer stays in range", "statement": "k*p is an in-range momentum congruent to the integer product for every integer k and momentum p.", "quantifier": "all k and p", "why_tests_cant": "only large factors fail", "anchors": ["src/utility/momentum.cpp: operator*"]}
{"id": "C31", "title": "urn() is in [0,1)", "statement": "Every value of the uniform generator is at least 0 and below 1, the 2^32 engine words give 2^32 distinct equally spaced values, in exact and in IEEE double arithmetic.", "quantifier": "all 2^32 engine words", "why_tests_cant": "2^32 words", "anchors": ["src/utility/rng.h: urn, RANDBL_32"]}
{"id": "C32", "title": "irn(a,b) is in [a,b]", "statement": "For a <= b with b-a+1 representable, the integer generator returns a value in [a,b], every value in the range is attainable, and for b = a-1 it divides by zero.", "quantifier": "all ranges and engine words", "why_tests_cant": "unbounded", "anchors": ["src/utility/rng.h: irn"]}
{"id": "C33", "title": "Lattice index is a bijection", "statement": "Vec2Index maps the in-range coordinate vectors one to one onto 0..Vol-1 and Index2Vec is its inverse, in any dimension.", "quantifier": "all lattice sizes, dimensions and coordinates", "why_tests_cant": "unbounded", "anchors": ["src/lattice/lattice.cpp: Vec2Index, Index2Vec"]}
{"id": "C34", "title": "CoordiIndex depends only on the displacement", "statement": "For in-range sites, CoordiIndex(a,b) is the index of b-a modulo the lattice size, is below Vol, is invariant under common translation, and is 0 iff the coordinates agree.", "quantifier": "all lattices and site pairs", "why_tests_cant": "unbounded", "anchors": ["src/lattice/lattice.cpp: CoordiIndex, Shift"]}
{"id": "C35", "title": "Weight-table index is injective and in range", "statement": "The linear index computed for (spins, sublattices, displacement, time bin) is below the table size and two argument tuples share an index only if they agree in all four components.", "quantifier": "all tables, all in-range arguments", "why_tests_cant": "unbounded", "anchors": ["src/module/weight/index_map.cpp: IndexMapSPIN2::GetIndex, IndexMapSPIN4::GetIndex"]}
{"id": "C36", "title": "Time bin is in range and antiperiodic", "statement": "For two times in [0,beta), in exact arithmetic the bin of their difference is in 0..MaxTauBin-1, a difference and the difference plus beta share a bin, and the symmetry factor is -1 exactly when the second time is not larger than the first for an antisymmetric table.", "quantifier": "all pairs of times", "why_tests_cant": "uncountably many", "anchors": ["src/module/weight/index_map.cpp: TauIndex, GetTauSymmetryFactor"]}
{"id": "C37", "title": "IsSameSpin recognises equal spins", "statement": "The same-spin test on a G spin index is true exactly when the index encodes equal in and out spin.", "quantifier": "all spin indices", "why_tests_cant": "-", "anchors": ["src/module/weight/index_map.cpp: IndexMapSPIN2::IsSameSpin"]}
{"id": "C38", "title": "Directed and plain weight evaluation agree", "statement": "Evaluating a line weight by naming which end is IN gives the same result as the plain evaluation with the ends in order, for every argument, except for a W line marked both measuring and instantaneous, where they differ.", "quantifier": "all arguments", "why_tests_cant": "unbounded", "anchors": ["src/module/weight/component_MC.cpp"]}
{"id": "C39", "title": "Estimator cells do not overlap", "statement": "A measurement at order n (1 <= n <= max order) with table index i below the table size is added to exactly one cell, distinct (n,i) go to distinct cells, all in bounds.", "quantifier": "all sizes, orders and indices", "why_tests_cant": "unbounded", "anchors": ["src/module/weight/weight_estimator.cpp: Measure"]}
{"id": "C40", "title": "Squeezing statistics keeps the estimate", "statement": "Dividing the statistics by a positive factor leaves the normalised estimate (accumulated weight / accumulated norm) unchanged; a non-positive factor aborts.", "quantifier": "all estimator states and factors", "why_tests_cant": "unbounded", "anchors": ["src/module/weight/weight_estimator.cpp: SqueezeStatistics"]}
{"id": "C41", "title": "Annealing keeps the normalisation factor", "statement": "Changing beta through Anneal leaves the normalisation factor Norm/NormAccu that converts statistics to weights unchanged, as its comment promises.", "quantifier": "all estimator states and beta", "why_tests_cant": "-", "anchors": ["src/module/weight/weight_estimator.cpp: Anneal"]}
{"id": "C42", "title": "Loading statistics stays in bounds", "statement": "Loading saved statistics whose shape passes the code's own check never writes outside the estimator's array.", "quantifier": "all saved shapes accepted by the check", "why_tests_cant": "needs a file saved with a larger maximum order", "anchors": ["src/module/weight/weight_estimator.cpp: FromDict"]}
{"id": "C43", "title": "Scalar estimator's mean", "statement": "After any sequence of measurements the reported value is the mean of the recorded samples.", "quantifier": "all sample sequences", "why_tests_cant": "unbounded", "anchors": ["src/estimator/estimator.cpp"]}
{"id": "C44", "title": "Complex arithmetic is a field", "statement": "In exact arithmetic the complex +, -, *, / of two complex operands satisfy the field laws and in-place forms equal the out-of-place forms even when the operand aliases the target (except 0/=0 self division).", "quantifier": "all complex numbers", "why_tests_cant": "uncountable", "anchors": ["src/utility/complex.cpp"]}
{"id": "C45", "title": "Mixed real/complex addition and subtraction", "statement": "x+z and z-x for real x and complex z equal the result of first converting x to complex.", "quantifier": "all x, z", "why_tests_cant": "no test covers the overloads", "anchors": ["src/utility/complex.cpp: operator+(real,Complex), operator-(Complex,real)"]}
{"id": "C46", "title": "Real power of a complex number", "statement": "pow(z,u) equals z^u.", "quantifier": "all z and u", "why_tests_cant": "-", "anchors": ["src/utility/complex.h: pow(Complex,real)"]}
{"id": "C47", "title": "phase has modulus one", "statement": "phase(z) has modulus 1 and z = |z| phase(z) for z<>0, and is 0 for z = 0; the principal square root squares to its argument and has non-negative real part.", "quantifier": "all z", "why_tests_cant": "uncountable", "anchors": ["src/utility/complex.h: phase, sqrt"]}
{"id": "C48", "title": "A signal during a delayed section is delivered at its end, once", "statement": "With the interrupt guard engaged, a signal arriving at any point of the section does not run the default action until Resume, and is then delivered.", "quantifier": "every interleaving of signals with Delay/Resume", "why_tests_cant": "asynchronous schedules", "anchors": ["src/utility/abort.cpp: InterruptHandler"]}
{"id": "C49", "title": "The guard is off after Resume", "statement": "After Resume the interrupt guard no longer reports that it is delaying.", "quantifier": "every history of Delay/Resume/signals", "why_tests_cant": "asynchronous schedules", "anchors": ["src/utility/abort.cpp: InterruptHandler::Resume"]}
{"id": "C50", "title": "Spin current conservation along interaction lines", "statement": "After any history, for each W line the sum over its two ends of (outgoing minus incoming spin) is 0, except that a line carrying one worm end has minus (Ira) or plus (Masha) the worm's spin; so a worm that can be deleted leaves a spin-conserving interaction.", "quantifier": "every number n of Hop steps, every seed/state of the random engine, every pair of G/W weight tables, every lattice, inverse temperature, reweighting table and maximum order 1..9, with and without the vertex-correction (Gamma3) updates", "why_tests_cant": "The random walk is unbounded and branches on 32-bit random words at up to a dozen places per step; a test run visits a vanishing part of the histories and a single bad rarely-accepted update corrupts every later sample.", "anchors": ["src/module/markov/markov.cpp: CreateWorm, MoveWormOnG, CanNotMoveWorm"]}
{"id": "C51", "title": "Time bins are in range in double arithmetic", "statement": "For the times the generator can produce (a uniform double times Beta) the time-bin index used to read the weight tables is a valid index, in IEEE double arithmetic, for every Beta between 2^-500 and 2^500 and every positive number of time slices below 2^31.", "quantifier": "every pair of 32-bit random words, every finite double Beta in the range, every number of time slices that fits an int", "why_tests_cant": "Whether the rounded quotient floor(t * (MaxTauBin / Beta)) can reach MaxTauBin depends on rounding for particular Beta and bin counts; there are 2^64 pairs of times per Beta and 2^63 doubles.", "anchors": ["src/module/weight/index_map.cpp: TauIndex, GetTauSymmetryFactor"]}
{"id": "C52", "title": "A fresh diagram passes the built-in check", "statement": "Right after BuildNew, for any weight tables with non-zero entries, CheckDiagram reports success.", "quantifier": "all lattices and all non-zero weight tables", "why_tests_cant": "tests use tables with entries of order one; the check compares with an absolute tolerance", "anchors": ["src/module/diagram/diagram_check.cpp: _CheckWeight", "src/utility/complex.h: Equal"]}
{"id": "C53", "title": "Recorded history never overflows and only thins", "statement": "Whatever sequence of Measure, AddStatistics, ClearStatistics, SqueezeStatistics (positive factor) and Estimate is called, no call aborts, the recorded history never exceeds its array, and it is an in-order subsequence of the running averages present at the AddStatistics calls since the last clear; it is all of them while there are at most 10000. A non-positive squeeze factor aborts.", "quantifier": "all operation sequences, any arithmetic", "why_tests_cant": "needs more than 10000 records and every interleaving of the calls", "anchors": ["src/estimator/estimator.cpp: AddStatistics, SqueezeStatistics, ClearStatistics"]}
{"id": "C54", "title": "Saving and loading a scalar estimator is transparent", "statement": "Loading what an estimator saved restores value, norm, history, mean and error bar, and continuing after the load behaves as continuing without it; loading never writes outside the history array.", "quantifier": "all estimator states and files", "why_tests_cant": "needs more than 10000 records before the save, or an over-long file", "anchors": ["src/estimator/estimator.cpp: ToDict, FromDict"]}
{"id": "C55", "title": "The saved estimate describes the saved accumulators", "statement": "The mean written by ToDict is Accu/Norm of the same dictionary.", "quantifier": "all estimator states", "why_tests_cant": "depends on the call order before the save", "anchors": ["src/estimator/estimator.cpp: ToDict"]}
{"id": "C56", "title": "Error bar is half the spread of the last two thirds of the history", "statement": "Estimate reports as error half of the difference between the largest and the smallest of the recorded averages after the first third.", "quantifier": "all histories with entries of magnitude below 1e30", "why_tests_cant": "unbounded histories", "anchors": ["src/estimator/estimator.cpp: _update"]}
{"id": "C57", "title": "Clearing resets the estimate", "statement": "After ClearStatistics the estimator reports the same mean and error as a new one.", "quantifier": "all histories of calls", "why_tests_cant": "the error survives only if Estimate was called before", "anchors": ["src/estimator/estimator.cpp: ClearStatistics, _update"]}
{"id": "C58", "title": "Named estimators are found under their own name", "statement": "After adding estimators with distinct names to a bundle, looking up a name gives the estimator added under it; a duplicate name aborts; looking up a name that was never added does not give another quantity's estimator.", "quantifier": "all lists of names", "why_tests_cant": "unbounded", "anchors": ["src/estimator/estimator.cpp: EstimatorBundle"]}
{"id": "C59", "title": "A weight-estimator cell holds exactly what was measured there", "statement": "After any sequence of measurements the entry for order n and index i is the sum, in order, of the contributions measured with that order and index.", "quantifier": "all sequences of in-range measurements, any arithmetic", "why_tests_cant": "unbounded", "anchors": ["src/module/weight/weight_estimator.cpp: Measure"]}
{"id": "C60", "title": "Statistics saved with a lower maximum order load into the right cells", "statement": "Loading statistics saved with maximum order o into an estimator with maximum order o' >= o restores norm and every entry of orders 1..o and leaves the higher orders zero.", "quantifier": "all tables, orders and estimator contents", "why_tests_cant": "relies on the memory layout of both arrays", "anchors": ["src/module/weight/weight_estimator.cpp: FromDict, ToDict"]}
{"id": "C61", "title": "A GammaG measurement goes to one cell of its own", "statement": "After any sequence of calls on a GammaG object (measure, norm, squeeze, clear, reload) a measurement with sites on the lattice and times that have a bin adds its weight, with the sign of the time order, to exactly the array entry [spin][displacement][bin of the outgoing time][bin of the incoming time] and changes nothing else; for exact times in [0,Beta) every pair has a bin, the bin is that of the difference modulo Beta and the sign is negative iff exactly one end precedes the external point.", "quantifier": "all lattices, table sizes below 2^32, call sequences and arguments", "why_tests_cant": "index arithmetic over all arguments and histories", "anchors": ["src/module/weight/gamma3.cpp: GammaGClass, Measure, ClearStatistics, SqueezeStatistics, StatisFromDict"]}
{"id": "C62", "title": "GammaG returns what it measured", "statement": "If a single contribution w is measured and the accumulated array is loaded as weight, Weight returns w for the same arguments and 0 for arguments with another spin, displacement or bin.", "quantifier": "all arguments", "why_tests_cant": "agreement of two index/sign computations over all arguments", "anchors": ["src/module/weight/gamma3.cpp: Measure, Weight, WeightFromDict, StatisToDict"]}
{"id": "C63", "title": "GammaG keeps sublattices apart", "statement": "Contributions from sites on different sublattices are accumulated in different cells. (False: the sublattice is ignored by both Measure and Weight.)", "quantifier": "all sites", "why_tests_cant": "needs a lattice with several sublattices and gamma runs", "anchors": ["src/module/weight/gamma3.cpp: Measure, Weight", "src/lattice/lattice.cpp: CoordiIndex"]}
{"id": "C64", "title": "After a change of Beta the three-point functions use the new Beta", "statement": "Loading the three-point functions at a new Beta makes them use it. (False: only null pointers are replaced, the objects keep the old Beta, and a measurement with times of the new run is written outside the array.)", "quantifier": "all runs with annealing", "why_tests_cant": "needs annealing with gamma enabled and particular times", "anchors": ["src/module/weight/weight.cpp: _AllocateGammaGW, FromDict, Anneal", "src/environment/envMonteCarlo.cpp: ListenToMessage"]}
{"id": "C65", "title": "A GammaW measurement goes to one cell, exactly for physical spins", "statement": "With tables whose entries are below the announced sizes, a GammaW measurement is recorded iff the spins of the two ends obey the conservation law of a worm-free diagram; it then changes exactly one entry, selected by spin flip, displacement class and bin class; files with such entries load into a zeroed object of that kind.", "quantifier": "all arguments, tables and contents", "why_tests_cant": "index arithmetic through two lookup tables for all arguments", "anchors": ["src/module/weight/gamma3.cpp: GammaWClass::Measure, _SpinIndex, WeightFromDict"]}
{"id": "C66", "title": "GammaW returns what it measured under exchanged spins", "statement": "A contribution w recorded in an empty cell is returned by Weight, once the accumulated array is loaded as weight, for the same points with exchanged spins, divided by the symmetry factor of the points and by 2 for spin-flipping lines.", "quantifier": "all arguments, tables, values", "why_tests_cant": "sixteen spin cases times the conjugation flag times all table contents", "anchors": ["src/module/weight/gamma3.cpp: GammaWClass::Measure, Weight, WeightFromDict"]}
{"id": "C67", "title": "An accepted GammaW file keeps accesses inside the arrays", "statement": "Once WeightFromDict has accepted a file, Measure and Weight access the arrays in bounds. (False: table entries are not compared with RSize and TauSize, and a second file with larger sizes is accepted while the arrays keep the first size.)", "quantifier": "all accepted files", "why_tests_cant": "silent memory corruption", "anchors": ["src/module/weight/gamma3.cpp: GammaWClass::WeightFromDict"]}
{"id": "C68", "title": "A new run with three-point functions starts from a defined state", "statement": "Starting a run with runGamma3 reads only initialised members. (False: GammaG and GammaW pointers are tested while uninitialised, and the GammaW normalisation is never initialised in a new run. It is in a continued run.)", "quantifier": "all new runs with runGamma3", "why_tests_cant": "undefined behaviour usually looks harmless in a test", "anchors": ["src/module/weight/weight.cpp: Weight::Weight, _AllocateGammaGW", "src/module/weight/gamma3.cpp: GammaWClass::GammaWClass, MeasureNorm"]}
{"id": "C69", "title": "A measurement succeeds and touches exactly its own entries", "statement": "After any interleaving of updates, measurements, squeezing, saving and loading, Measure succeeds, adds the sample to exactly one histogram cell or normalisation per kind of diagram, counts it once under its order, and leaves everything else alone.", "quantifier": "all runs, all generators, all retuned factors", "why_tests_cant": "needs every reachable diagram, including the pointers it holds", "anchors": ["src/module/markov/markov_monitor.cpp: Measure, BuildNew, SqueezeStatistics"]}
{"id": "C70", "title": "Reweighting factors cancel in the results", "statement": "What a visit to a diagram adds to Sigma, Polar, GammaG, GammaW or their normalisations, times the probability with which the walk visits it, does not depend on OrderReWeight, GammaGReweight or GammaWReweight, and depends on PolarReweight only by a factor common to the histogram and its normalisation.", "quantifier": "all regular reachable worm-free diagrams, all positive factors", "why_tests_cant": "a biased estimator converges to a wrong number without failing", "anchors": ["src/module/markov/markov_monitor.cpp: Measure", "src/module/markov/markov.cpp"]}
{"id": "C71", "title": "Adjusting the factors never breaks the sampler", "statement": "Whatever has been measured, AdjustOrderReWeight succeeds and leaves all factors positive (OrderTimeRatio positive with Order+1 entries, squeezing factors at least 1).", "quantifier": "all runs", "why_tests_cant": "division by small or zero counts arises only in rare runs", "anchors": ["src/module/markov/markov_monitor.cpp: AdjustOrderReWeight"]}
{"id": "C72", "title": "A failed adjustment changes nothing", "statement": "If AdjustOrderReWeight returns false the factors are unchanged. (False: without worm samples it returns false after changing OrderReWeight.)", "quantifier": "all statistics", "why_tests_cant": "needs statistics without a single worm sample", "anchors": ["src/module/markov/markov_monitor.cpp: AdjustOrderReWeight"]}
{"id": "C73", "title": "Printing statistics changes nothing", "statement": "PrintOrderReWeight leaves the simulation parameters unchanged. (False: it assigns the ratio of worm-free to worm samples to WormSpaceReweight.)", "quantifier": "all statistics", "why_tests_cant": "the effect is on the sampling, not on the printed text", "anchors": ["src/module/markov/markov_monitor.cpp: PrintOrderReWeight"]}
{"id": "C74", "title": "Adjusted factors aim at the requested time ratios", "statement": "After a successful AdjustOrderReWeight the counts, rescaled by the change of their factors, stand in the ratios of OrderTimeRatio to order 0, worm and worm-free samples are balanced, and so are the measuring sections. (OrderTimeRatio[0] is ignored: refuted.)", "quantifier": "all statistics, all positive factors and ratios", "why_tests_cant": "statistical target", "anchors": ["src/module/markov/markov_monitor.cpp: AdjustOrderReWeight"]}
{"id": "C75", "title": "Accepted parameters are long enough", "statement": "A parameter file that was accepted has an OrderTimeRatio entry for every order used. (False: the length is never checked; AdjustOrderReWeight reads past the end.)", "quantifier": "all parameter files", "why_tests_cant": "out-of-bounds read without visible failure", "anchors": ["src/module/parameter/parameter.cpp: ParaMC::FromDict", "src/module/markov/markov_monitor.cpp: AdjustOrderReWeight"]}
{"id": "C76", "title": "Printing leaves the walk able to enter and leave the worm space", "statement": "After PrintOrderReWeight worms can still be created and deleted. (False in double arithmetic: without samples the factor becomes NaN and no worm is ever created; with worm-free samples only it becomes infinite and a worm, once created, is never deleted.)", "quantifier": "all generators, all numbers of steps", "why_tests_cant": "statement about all continuations", "anchors": ["src/module/markov/markov_monitor.cpp: PrintOrderReWeight", "src/module/markov/markov.cpp: CreateWorm, DeleteWorm"]}
{"id": "C77", "title": "Saved counters are restored", "statement": "Saving and loading the monitor restores the sum and norm of every counter, also when the maximal order has changed: common orders are kept, new ones start from zero.", "quantifier": "all runs, all pairs of maximal orders", "why_tests_cant": "all run lengths and orders", "anchors": ["src/module/markov/markov_monitor.cpp: ToDict, FromDict", "src/estimator/estimator.cpp: EstimatorBundle::FromDict"]}
{"id": "C78", "title": "Adjusting twice is adjusting once", "statement": "A second AdjustOrderReWeight without new samples changes nothing. (False: the counters are not reset, so the correction is applied again. True where the counts are already on target.)", "quantifier": "all statistics", "why_tests_cant": "needs two adjustments on the same statistics", "anchors": ["src/module/markov/markov_monitor.cpp: AdjustOrderReWeight", "src/environment/envMonteCarlo.cpp: AdjustOrderReWeight"]}
{"id": "C79", "title": "Every step can be undone", "statement": "Whatever one Monte Carlo step did to the diagram, there are random words with which one further step restores it, up to the numbering of the slots: the inverse update is always possible and has positive acceptance. (True when the ends of every delta line have equal times; false otherwise: ChangeDeltaToContinuous then has no way back.)", "quantifier": "all regular reachable diagrams, all engines, all positive reweighting factors", "why_tests_cant": "needs the existence of a suitable random draw for every reachable diagram; a missing inverse shows only as a subtly wrong stationary distribution", "anchors": ["src/module/markov/markov.cpp: Hop and all updates", "src/module/markov/gamma3_updates.cpp"]}
{"id": "C80", "title": "Squeezing all statistics keeps every estimate", "statement": "MarkovMonitor::SqueezeStatistics divides each sum and its own normalisation by the same positive factor, in every histogram, weight estimator and three-point function, and touches nothing else.", "quantifier": "all measured states, all factors", "why_tests_cant": "all states; a factor applied to the wrong member biases results without failing", "anchors": ["src/module/markov/markov_monitor.cpp: SqueezeStatistics", "src/module/weight/gamma3.cpp: SqueezeStatistics", "src/estimator/estimator.cpp: SqueezeStatistics"]}
{"id": "C81", "title": "Saved parameters and messages are restored exactly", "statement": "ParaMC::ToDict followed by FromDict restores every parameter, the update counter and the state of the random engine (Seed alone is not kept); Message::Save followed by Load restores the message.", "quantifier": "all parameter sets whose integers fit their C++ types, all engines, all messages", "why_tests_cant": "every combination of parameter values; a key written under one name and read under another only shows for non-default values", "anchors": ["src/module/parameter/parameter.cpp: ParaMC::ToDict, FromDict", "src/module/parameter/message.cpp", "src/utility/dictionary.h", "src/utility/pyglue/type_cast.h"]}
{"id": "C82", "title": "A diagram survives the Python dictionaries", "statement": "Writing a reachable diagram as Python dictionaries (names, lattice vectors, spins, momenta as Python objects) and reading them back gives the same diagram up to slot numbers, with the same order.", "quantifier": "all diagrams reachable by any sequence of updates, on every lattice whose extents fit an int", "why_tests_cant": "all reachable diagrams; conversions truncate integers and ignore extra entries silently", "anchors": ["src/module/diagram/diagram_IO.cpp", "src/utility/pyglue/type_cast.h: Convert"]}
{"id": "C83", "title": "Loading a file into a dictionary replaces its contents", "statement": "After Dictionary::Load or BigLoad, each key of the file has the value from the file. (False: entries are inserted into the map, so a key that was already there keeps its old value; proved for all files.)", "quantifier": "all dictionaries and files", "why_tests_cant": "only shows when a dictionary is reused, with a key in common", "anchors": ["src/utility/pyglue/type_cast.h:93-113", "src/utility/dictionary.cpp: Load, BigLoad"]}
{"id": "C84", "title": "Bosonic functions use the basis of BoseBasis.dat", "statement": "Weight::_LoadBasis loads the fermionic basis from FermiBasis.dat and the bosonic one from BoseBasis.dat, and stops if the Beta of either differs from the job's. (False: the second Load goes into the same dictionary, so the bosonic basis is always the fermionic one and the Beta of BoseBasis.dat is never looked at.)", "quantifier": "all pairs of files", "why_tests_cant": "the program runs and gives plausible numbers with the wrong basis", "anchors": ["src/module/weight/weight.cpp:183-201"]}
{"id": "C85", "title": "Integers are converted exactly or refused", "statement": "A Python integer that fits the C++ type is converted exactly (true); one that does not is refused (false: 2^32 becomes 0 and a negative number of time bins becomes 2^32-1).", "quantifier": "all integers", "why_tests_cant": "boundary values of three integer types", "anchors": ["src/utility/pyglue/type_cast.cpp:39-86"]}
{"id": "C86", "title": "Parameters that load make sense", "statement": "Every parameter set FromDict accepts has 2 lattice extents, Order at most 9 and a reweighting factor for each order (true, with Order at least -1); and its values are usable (false: Order -1, a negative number of thermalisation sweeps, an empty lattice are accepted).", "quantifier": "all input files", "why_tests_cant": "all input files", "anchors": ["src/module/parameter/parameter.cpp:31-102"]}
{"id": "C87", "title": "Annealing keeps every structural promise", "statement": "Whatever sequence of Monte Carlo steps, saves, reloads, reweightings and annealing messages to a Beta that is not lower, the diagram keeps all structural promises, every further step and every further annealing succeeds, annealing changes neither topology, spins, sites, times nor momenta, and in exact arithmetic every vertex time lies in [0, Beta) of the current Beta.", "quantifier": "all weight tables, parameters, random streams and sequences of operations, in any number system (doubles included)", "why_tests_cant": "the sequences are unbounded and mix times drawn at several values of Beta", "anchors": ["src/environment/envMonteCarlo.cpp:151-205", "src/module/diagram/diagram_IO.cpp", "src/module/diagram/diagram.cpp"]}
{"id": "C88", "title": "Annealing leaves all vertex times in the range of the new Beta", "statement": "After ListenToMessage every vertex time lies below the new Beta. False: a message that lowers Beta is accepted, Reset and CheckDiagram succeed, and a vertex keeps a time beyond the new Beta.", "quantifier": "all histories and messages", "why_tests_cant": "needs the right message at the right moment; the built-in check does not notice", "anchors": ["src/environment/envMonteCarlo.cpp:151-205", "src/module/diagram/diagram.cpp"]}
{"id": "C89", "title": "A job goes on through steps, saves, messages and restarts", "statement": "A job started from new with usable parameters: whatever sequence of Monte Carlo steps, measurements, status prints, reweightings, saves, messages to a Beta that is not lower (taken while no worm ends are stale) and restarts with Load, the diagram keeps every structural promise, the step counter counts every step, and the next step, measurement, print, reweighting and save all succeed.", "quantifier": "all parameters, weight files, random streams and sequences of operations, in exact arithmetic and in doubles", "why_tests_cant": "the sequences are unbounded, across process restarts", "anchors": ["src/environment/envMonteCarlo.cpp:27-205", "src/main.cpp:49-125"]}
{"id": "C90", "title": "A restart restores the saved state", "statement": "Load after any Save, whatever happened after that Save, gives back the saved parameters (Seed aside), random engine and counter, the same diagram up to storage slots, and the same accumulated estimates; line weights are those of the weight file found at the restart.", "quantifier": "all jobs and all weight files that load", "why_tests_cant": "covers every reachable state and every file other processes may leave", "anchors": ["src/environment/envMonteCarlo.cpp:58-113", "src/module/diagram/diagram_IO.cpp", "src/module/parameter/parameter.cpp"]}
{"id": "C91", "title": "When a message is taken and when it ends the job", "statement": "With weight and basis files for the message's Beta, a newer message that does not lower Beta, met without stale worm ends, keeps the diagram, gives the lines the new weights, and is taken if and only if the times on every delta line agree and no new line weight is tiny; otherwise the job ends. That a well formed message never ends a job is false.", "quantifier": "all jobs, messages and weight files", "why_tests_cant": "the outcome depends on the diagram of the moment", "anchors": ["src/environment/envMonteCarlo.cpp:151-205", "src/module/diagram/diagram_check.cpp:73-108"]}
{"id": "C92", "title": "Messages are gated by their version", "statement": "A message that is not taken changes nothing. One that is taken is newer, and its Version and Beta become those of the job. The same message is not taken again, also not after Save and restart.", "quantifier": "all jobs, messages and files", "why_tests_cant": "all states and all later files", "anchors": ["src/environment/envMonteCarlo.cpp:151-205", "src/module/parameter/parameter.cpp"]}
{"id": "C93", "title": "Basis files must match the message", "statement": "A message is taken only if FermiBasis.dat was written for the message's Beta, to 1e-10. So annealing messages are never taken with the basis files written at set-up: the claim that a message raising Beta is taken when weights for the new Beta are there is false, the job ends.", "quantifier": "all jobs, messages and files", "why_tests_cant": "interplay of files written by three programs", "anchors": ["src/environment/envMonteCarlo.cpp:151-205", "src/module/weight/weight.cpp:183-201", "inlist.py:139-142", "basis.py:65-68"]}
{"id": "C94", "title": "What Load needs and what StartFromNew leaves", "statement": "Load succeeds only with parameter, statistics, weight and both basis files; StartFromNew writes the parameter file and leaves the statistics file as it is. That a started job can be restarted is false: before its first Save the program ends for want of a statistics file.", "quantifier": "all files", "why_tests_cant": "every combination of files, missing, broken or present", "anchors": ["src/environment/envMonteCarlo.cpp:27-113", "src/main.cpp:49-60"]}
{"id": "C95", "title": "A crash during Save leaves one state or the other", "statement": "After a crash during Save, a restart gives the state of this Save or of the one before. False: Save writes parameters, diagram and statistics one after the other, and a crash in between restarts with the new counter and engine but the old diagram and statistics. A parameter file broken half way ends the restart.", "quantifier": "all jobs and crash points", "why_tests_cant": "needs a crash at a chosen moment", "anchors": ["src/environment/envMonteCarlo.cpp:95-113"]}
{"id": "C96", "title": "A diagram that passed the check keeps passing it", "statement": "A diagram that passed CheckDiagram when a message was taken passes every later check. False when the message is taken while the stale worm ends point at live vertices: the next update creates a diagram that fails the check and the program ends.", "quantifier": "all runs", "why_tests_cant": "a rare coincidence of recycled names and a message", "anchors": ["src/environment/envMonteCarlo.cpp:151-205", "src/module/diagram/diagram.cpp:114-169", "src/main.cpp:102-105"]}
{"id": "C97", "title": "Save and restart right after a message are transparent", "statement": "A job that saves and restarts right after taking a message measures like one that goes on. False: the estimators of the running job keep the old Beta in their normalisation and the next message scales their norm by a different power than after a restart.", "quantifier": "all runs", "why_tests_cant": "needs two messages and a restart in between; the numbers look plausible", "anchors": ["src/environment/envMonteCarlo.cpp:151-205", "src/module/weight/weight_estimator.cpp:36-43"]}
{"id": "C98", "title": "Every iteration of the main loop succeeds", "statement": "From any job, with a factor in OrderTimeRatio for every order and messages that do not lower Beta or meet stale worm ends: start, thermalisation and each of the first 2^31-1 iterations either succeed or end the program at a check that is meant to end it, whatever timers fire. That the program runs for as long as one likes is false: the int counters of the main loop overflow at the 2^31st measurement at one order.", "quantifier": "all jobs, random streams, timers and files", "why_tests_cant": "2^31 iterations, all interleavings of four timers", "anchors": ["src/main.cpp:49-125"]}
{"id": "C99", "title": "The walk is irreducible on what it has reached", "statement": "If two diagrams were both reached by Monte Carlo steps from one starting diagram, then the second can be reached from the first, up to the numbering of slots, in as many steps as the two walks together: before each step finitely many random words exist such that any engine yielding them makes the step. Assumes that no diagram left on the way to the first has a delta line between unequal times (C79).", "quantifier": "all regular histories, all pairs of walks, all engines and parameters (exact arithmetic)", "why_tests_cant": "a statement about all pairs of reachable diagrams and the existence of a path between them", "anchors": ["src/module/markov/markov.cpp: Hop and all updates", "src/module/markov/gamma3_updates.cpp"]}
{"id": "C100", "title": "Slot numbers have no influence on what can happen", "statement": "Two runs at diagrams that are equal up to the numbering of vertex and line slots can do the same: every walk of the one is possible for the other and leads to the same diagram up to numbering.", "quantifier": "all regular histories, all walks of any length, all engines (exact arithmetic)", "why_tests_cant": "an equivalence of unbounded behaviours", "anchors": ["src/module/markov/markov.cpp: Hop and all updates", "src/module/diagram/component_bundle.h"]}
{"id": "C101", "title": "A restart does not change what the walk can do", "statement": "The diagram loaded from the file of a saved diagram (Order at least 1, no vertex correction) is the saved one up to slot numbers; every walk the run could have made without the restart is possible after it, and every walk after it was possible without it.", "quantifier": "all regular histories, walks of any length (exact arithmetic)", "why_tests_cant": "compares all continuations of two processes", "anchors": ["src/module/diagram/diagram_IO.cpp", "src/module/markov/markov.cpp: Hop and all updates"]}
{"id": "C102", "title": "Lines carry the table entries the weight file gives them", "statement": "Whatever a job has done (starting, running, measuring, printing, reweighting, saving, taking messages, restarting), every G line of its diagram carries plus or minus the G entry, and every W line the smooth or delta W entry, of the job's arrays that the spins, sublattices, displacement and time bin of its ends select in row-major order; measuring lines carry 1. The arrays are the first entries of the weight file read at the start, at the restart and at the message.", "quantifier": "all jobs, all files, all parameters", "why_tests_cant": "holds after every finite sequence of operations; one wrong stride, a swapped table or a line not refreshed after a message spoils the sampling without a visible failure", "anchors": ["src/environment/envMonteCarlo.cpp: BuildNew, Load, ListenToMessage", "src/module/weight/component_MC.cpp: Weight", "src/module/diagram/diagram.cpp: Reset"]}
{"id": "C103", "title": "A job samples the distribution its parameters ask for", "statement": "A job that takes no message performs, whatever restarts, PrintStatus and AdjustOrderReWeight there were, Metropolis steps: the acceptance ratio is the ratio of |Weight| times OrderReWeight of the order, WormSpaceReweight in worm space and PolarReweight when a W line measures, with the factors that the job's parameters have at that moment, times the ratio of the proposal densities. Its walk is a regular history, so that the theorems on histories apply.", "quantifier": "all jobs without messages, all files, all engines (ratio in exact arithmetic)", "why_tests_cant": "a statement about the ratio at every reachable state, connecting the parameter file with the accept decision", "anchors": ["src/environment/envMonteCarlo.cpp", "src/module/markov/markov.cpp: Hop and all updates"]}
{"id": "C104", "title": "Load without a parameter file", "statement": "If the parameter file is missing, Load gives the parameters, arrays and fresh diagram that StartFromNew would give from the input file, and the estimators of the last Save.", "quantifier": "all jobs that saved, all input files with the same Order, MaxTauBin, L and NSublat", "why_tests_cant": "concerns every combination of old statistics and new input", "anchors": ["src/environment/envMonteCarlo.cpp: Load, BuildNew"]}
{"id": "C105", "title": "Restart before the first Save", "statement": "StartFromNew leaves a parameter file; Load before the first Save gives the same parameters, arrays and (up to slot numbers) fresh diagram, but the estimators of the statistics file that was there before.", "quantifier": "all jobs that saved, all input files with the same Order, MaxTauBin, L and NSublat", "why_tests_cant": "concerns every combination of old statistics and new input", "anchors": ["src/environment/envMonteCarlo.cpp: BuildNew, Load, Save"]}
{"id": "C106", "title": "Parameters in use are those of the file", "statement": "After a parameter dictionary was read, every field is the entry of that name in its section, with the documented kind: integers in range (a bool passes as 0 or 1), numbers, lists entry by entry, a switch that must be a bool; Version, Counter, Seed and RNG have defaults.", "quantifier": "all dictionaries", "why_tests_cant": "over all dictionaries and all their value kinds", "anchors": ["src/module/parameter/parameter.cpp: _FromDict", "src/utility/dictionary.h", "src/utility/pyglue/type_cast.cpp"]}
{"id": "C107", "title": "What each step of the main loop leaves alone", "statement": "Hop leaves setup, factors, tables and statistics; Measure leaves parameters, tables, diagram and counts; PrintStatus leaves everything but WormSpaceReweight and its print state; AdjustOrderReWeight leaves everything but the reweighting factors, which become those MarkovMonitor::AdjustOrderReWeight computes (the three-point ones stay if there are no three-point functions).", "quantifier": "all environments, all numbers of steps", "why_tests_cant": "absence of effects cannot be sampled", "anchors": ["src/environment/envMonteCarlo.cpp", "src/main.cpp: MonteCarlo"]}
{"id": "C108", "title": "The work the main loop does", "statement": "A run of n iterations makes exactly n times Sweep Monte Carlo steps, whatever messages it takes, leaves all parameters but Version, Beta, Counter, RNG and the reweighting factors alone, and its sigma and polar tables count the physical diagrams it ended iterations with, by order. The thermalisation before it makes Toss, taken as an unsigned number, times Sweep steps (a Toss of -1 means 2^32-1 sweeps) and measures nothing.", "quantifier": "all jobs, all runs of any length, all message files and timer firings (messages that lower Beta or meet stale worm ends excluded)", "why_tests_cant": "about arbitrarily long runs with arbitrary interleavings of timers and messages", "anchors": ["src/main.cpp: MonteCarlo"]}
{"id": "C109", "title": "A restart gives the state of the last Save", "statement": "At any moment after the disk timer has fired, the files on disk give back on Load the environment at the end of the iteration that saved last, up to the message taken and the reweighting made after the Save in that same iteration: Counter and random number state exactly, diagram up to slot numbers, statistics.", "quantifier": "all jobs, all runs, all moments", "why_tests_cant": "the crash can come after any iteration of any run", "anchors": ["src/main.cpp: MonteCarlo", "src/environment/envMonteCarlo.cpp: Save, Load"]}
{"id": "C110", "title": "Timers", "statement": "Each of the four timers fires, at a step that is a multiple of 100, exactly if at least its interval has passed since it fired last, and at no other step; n firings take at least n intervals; and the start time of the disk timer is that of the Save the files come from.", "quantifier": "all runs, all clock readings (a clock that does not run backwards within a check)", "why_tests_cant": "depends on wall clock time and on arbitrarily long runs", "anchors": ["src/main.cpp: MonteCarlo", "src/utility/timer.cpp: check, restart"]}
{"id": "C111", "title": "Reweighting factors change only when their timer fires", "statement": "An iteration in which the reweighting timer does not fire leaves OrderReWeight and PolarReweight alone, and WormSpaceReweight too unless the printing timer fires; if it fires, the factors are those MarkovMonitor::AdjustOrderReWeight makes of the old ones and of the statistics at the end of the iteration.", "quantifier": "all iterations of all runs", "why_tests_cant": "absence of a change in the sampled distribution at other times cannot be sampled", "anchors": ["src/main.cpp: MonteCarlo", "src/environment/envMonteCarlo.cpp: AdjustOrderReWeight"]}
{"id": "C112", "title": "Every iteration measures exactly once", "statement": "Unless it takes a message, an iteration changes the statistics exactly by one measurement of the diagram it ends with, weighted with the factor of its order at the beginning of the iteration; so over any run the counts of each order in physical and worm space grow by the number of iterations that ended there.", "quantifier": "all jobs, all runs without messages (counts in exact arithmetic)", "why_tests_cant": "about arbitrarily long runs", "anchors": ["src/main.cpp: MonteCarlo", "src/module/markov/markov_monitor.cpp: Measure"]}
{"id": "C113", "title": "Jobs that take messages sample what their current parameters and files ask for", "statement": "After any number of steps, measurements, factor changes, saves, taken messages (with new Beta and new weight files) and restarts (with whatever weight file is then on disk), a Monte Carlo step is a Metropolis step for |Weight| times the reweighting factors of the parameters in force, with line weights of the arrays in force: the proposal is accepted with probability min(1, target ratio times proposal ratio), where the target is positive and no line weight is 0.", "quantifier": "all jobs whose line weights are not 0 at the start and at each restart (a taken message checks this itself), all random streams; exact arithmetic", "why_tests_cant": "needs the correct distribution after every sequence of messages and restarts", "anchors": ["src/environment/envMonteCarlo.cpp: ListenToMessage, Load", "src/module/diagram/diagram_initialize.cpp: Reset, FixDiagram", "src/module/markov/markov.cpp: Hop"]}
{"id": "C114", "title": "Measurements stay unbiased through messages and restarts", "statement": "In every such job a measurement in physical space adds, to the histogram entry that the external legs select, the bare diagram weight times one factor q (the inverse of the sampled probability weight up to labels), and at order 0 adds q times the lattice volume to the normalisation: the ratio estimates the sum of diagram weights, with the parameters and arrays in force.", "quantifier": "all such jobs, all measurements outside worm space, runGamma3 off; exact arithmetic", "why_tests_cant": "bias relative to the sampled distribution is not observable in one run", "anchors": ["src/module/markov/markov_monitor.cpp: Measure", "src/environment/envMonteCarlo.cpp: ListenToMessage"]}
{"id": "C115", "title": "Python reference counts match the holders", "statement": "Whatever a program does with Python::Object (construct, copy, assign, take from a list, Get(NewRef), give a raw pointer to an Object, Destroy, PyList_SetItem, PyDict_SetItem as the glue uses them), it never touches a freed object, every object has exactly as many references as there are Objects, raw pointers and containers that hold it, and unless objects hold each other in a circle everything is freed once the last holder is gone.", "quantifier": "for all sequences of operations on any number of Objects", "why_tests_cant": "A use after free or a leak shows only for particular orders of copies, assignments and destructions; tests run a few orders and never see counts.", "anchors": ["src/utility/pyglue/object.h:57-99", "src/utility/pyglue/object.cpp:75-133", "src/utility/pyglue/type_cast.h:116-205"]}
{"id": "C116", "title": "Conversions between C++ and Python values keep the counts and the values", "statement": "CastToPy of a value built of bools, integers, reals, strings, vectors, maps and AnyObjects gives one new reference to an object with that value and leaves the others alone; destroying the result frees every object it made. Convert to a type without tuples leaves the objects as they are, fails exactly when the value has another shape, and otherwise gives the value, holding the references its AnyObjects account for. A value that fits its type comes back unchanged.", "quantifier": "for all values, all nestings of types without std::tuple, all heaps with right counts", "why_tests_cant": "Leaks and shared structure are invisible to a test of values, and nesting is unbounded.", "anchors": ["src/utility/pyglue/type_cast.h:31-66", "src/utility/pyglue/type_cast.h:93-205", "src/utility/pyglue/type_cast.cpp:14-207", "src/utility/pyglue/pywrapper.cpp:34-38"]}
{"id": "C117", "title": "Converting a Python tuple leaves its references alone", "statement": "Convert of a Python tuple to a std::tuple leaves the number of references of the tuple as it was.", "quantifier": "for all tuples and element types", "why_tests_cant": "The lost references show only as a crash when the tuple is destroyed, which tests with tuples held elsewhere do not meet.", "anchors": ["src/utility/pyglue/type_cast.h:67-91", "src/utility/pyglue/object.cpp:107-112"]}
{"id": "C118", "title": "The collected weight is the normalisation-weighted average of the runs' estimates", "statement": "For a directory of statistics files in which every file is either unreadable or carries Sigma and Polar histograms with the common Norm and number of orders, one collecting pass (CollectStatis, then UpdateWeight) that succeeds returns for Sigma and Polar the sum over the accepted orders of the average of the files' own estimates Norm*WeightAccu/NormAccu, each weighted with its NormAccu. The result does not depend on the order in which the directory lists the files. Collecting succeeds exactly when there is a file and at least three quarters of them can be read.", "quantifier": "For all lists of files, all norms, numbers of orders, elements, bins, thresholds, accepted orders, and every smoothing function; exact arithmetic.", "why_tests_cant": "A test fixes a few files with given numbers; it cannot show that the pooling is the weighted average, or free of the listing order, for every number of files and every data.", "anchors": ["dyson/collect.py:31-41", "dyson/collect.py:43-99", "dyson/collect.py:146-233", "dyson/main.py:248-252"]}
{"id": "C119", "title": "A file that fails to merge does not enter the result", "statement": "A statistics file that is reported as 'Fails to merge' contributes nothing to the collected Sigma and Polar, the outcome does not depend on the listing order, and files with fewer orders only add to the orders they have. FALSE of the code: the data are added before the norms are compared, so four runs that all estimate 1 can be collected into 7/8; the listing order can decide between success and failure; and a file with one order is broadcast onto every order.", "quantifier": "Existential witnesses: concrete lists of files.", "why_tests_cant": "The witnesses need a failing file among good ones and a comparison of the final estimate; the code only logs the failure and goes on, so a test that checks that collecting succeeds passes.", "anchors": ["dyson/collect.py:31-41", "dyson/collect.py:175-211"]}
{"id": "C120", "title": "Which orders are accepted into the result", "statement": "A successful pass accepts at least order 1, at least the orders accepted before (as far as they are measured) and at most the orders measured; over any sequence of passes the accepted orders never go down. Every newly accepted order has, as the noise of the last order up to it that carries a signal, a value below the threshold, and the first refused order has one at or above it. The two claims 'an order is accepted when its own noise is below the threshold' and 'missing statistics fail the version, not the program' are FALSE: an order without data is accepted with the noise of the order before it and stays accepted when its noisy data arrive, and without a signal at order 1 the program ends with an exception.", "quantifier": "For all files, thresholds, numbers of orders/elements/bins, sequences of passes and every smoothing function.", "why_tests_cant": "The accepted order depends on data of all earlier orders and all earlier passes through a variable that is not reset; single-pass tests with signal in every order never see it.", "anchors": ["dyson/collect.py:43-99", "dyson/collect.py:223-233", "dyson/main.py:248-252", "dyson/main.py:314-317"]}
{"id": "C121", "title": "Fourier transforms of a weight keep the function it stands for", "statement": "Weight.FFT brings a weight into the space and time domain asked for. In (K,W) its data are the sums over sites and time bins with the phases exp(-i k r) and exp(-i omega_m tau_n), tau_n the middle of bin n, omega_m even (symmetric weights) or odd (antisymmetric weights) multiples of pi/Beta. Data in any of the four domains stand for exactly one function of site and time; every FFT keeps it, so any sequence of FFTs that ends in the domains it started from gives the data back.", "quantifier": "for all lattice sizes, numbers of bins, Beta > 0, symmetries, data and sequences of FFT requests", "why_tests_cant": "Each run checks one lattice, one number of bins and a few functions within a rounding tolerance; a wrong phase on one frequency or one axis can hide in it. The claim is for every lattice, every number of bins and every function.", "anchors": ["dyson/weight.py:206-218", "dyson/weight.py:219-231", "dyson/weight.py:265-321", "dyson/weight.py:43-44"]}
{"id": "C122", "title": "Merge keeps the weighted average of the merged weights, RollBack undoes the last Merge", "statement": "If Merge and RollBack are called in one time domain, with any FFTs in between and at most one RollBack per Merge, the weight stands for the average, weighted by the ratios, of the weights merged and not taken back (as long as the ratios add up to more than 1e-3). If RollBack is called more often, each call takes the last merged weight off once more. FALSE of the code: AccuData/Norm equals Data in every domain (the transform of AccuData in time leaves out a phase).", "quantifier": "for all sequences of FFT, Merge and RollBack calls that keep to one time domain for Merge and RollBack, all ratios and weights", "why_tests_cant": "Whether the account is right depends on the whole history of calls and transforms; tests look at one Merge.", "anchors": ["dyson/weight.py:176-204", "dyson/weight.py:206-218", "dyson/weight.py:299-315"]}
{"id": "C123", "title": "SigmaDeltaT and Polar are the averages over the successful versions", "statement": "After any number of versions of the self-consistency loop (collecting statistics), with any of them failing in any of the three ways, SigmaDeltaT is the average of the SigmaDeltaT of the successful versions, version n with the ratio n/(n+10). Polar is the same average if no version fails; if versions fail before Polar is merged, each failure takes the last successful Polar off once more.", "quantifier": "for all sequences of outcomes (success, statistics not collected, denominator touches zero for G or for W), all lattices, all weights", "why_tests_cant": "The weights after many versions depend on every earlier outcome; failures happen rarely and in the middle of long runs.", "anchors": ["dyson/main.py:194-315", "dyson/main.py:30-45", "dyson/weight.py:176-204", "dyson/calculator.py:121-142"]}
{"id": "C124", "title": "A version that fails leaves Polar as it was", "statement": "A version that ends in CollectStatisFailure or DenorminatorTouchZero leaves Polar as it was before the version. FALSE of the code: (1) a version that fails before Polar.Merge rolls back an earlier success, and twice if it happens twice: Polars 1 and 0 with two failures in between give -7/15; (2) a version that fails in W_Dyson rolls back in the frequency domain, where AccuData lacks a phase: Polar zero, then a failing version, leaves a Polar that is not zero; (3) after a first version that fails in W_Dyson, Polar is the one that was rejected.", "quantifier": "existential witnesses; (3) for all weights", "why_tests_cant": "Needs particular sequences of failures during a production run.", "anchors": ["dyson/main.py:295-312", "dyson/main.py:256-276", "dyson/weight.py:192-204", "dyson/weight.py:299-315"]}
{"id": "C125", "title": "G_Dyson and W_Dyson solve the Dyson equations in space and time", "statement": "If the denominators have inverses, the G returned by G_Dyson stands for the only function g with g = g0 + D^2 g0*Sigma*g + D g0*SigmaDeltaT*g, the * being matrix products over spin and sublattice and convolutions over the lattice and the circle of time (antiperiodic), D = Beta/MaxTauBin, products of two smooth functions taken as the mean of the two bins that meet there. The W returned by W_Dyson stands for the only function w with w = W0*Polar*W0 + D W0*Polar*w (periodic).", "quantifier": "for all lattice sizes, numbers of bins, Beta > 0, numbers of spin and sublattice indices, all G0, SigmaDeltaT, Sigma, W0, Polar in any domains with invertible denominators; any solver that solves such systems", "why_tests_cant": "Each run checks one lattice, one number of bins and a few functions within a rounding tolerance; a wrong phase on one frequency or one axis can hide in it. The claim is for every lattice, every number of bins and every function.", "anchors": ["dyson/calculator.py:107-160", "dyson/weight.py:242-250", "dyson/weight.py:323-329"]}
{"id": "C126", "title": "ChiTensor is the sum of the chains of Polar and W0", "statement": "The ChiTensor of W_Dyson is the susceptibility, the sum of the chains -P, -P*W0*P, -P*W0*P*W0*P, ... FALSE of the code: it solves chi = -P + W0*P*chi instead of chi = -P + P*W0*chi, which differs when W0 and Polar do not commute; with two sublattices, W0 between them and Polar on one, the element between the sublattices is -1 instead of 0.", "quantifier": "what is solved: for all inputs with invertible denominators; the refutation: a witness, for every solver", "why_tests_cant": "The two equations agree for the lattices with one sublattice and full spin symmetry that tests use.", "anchors": ["dyson/calculator.py:121-134"]}
{"id": "C127", "title": "A denominator at or below zero fails the version", "statement": "Check_Denorminator raises DenorminatorTouchZero if the smallest determinant in numpy's order (real part first) has a negative real part and an imaginary part below 1e-4; for real determinants that is: if one is negative. FALSE of the code: that a determinant equal to zero, or any real negative determinant, raises it; 0 among positive ones passes, and -1 passes beside -2+i.", "quantifier": "for all lists of determinants; witnesses for the refuted part", "why_tests_cant": "Determinants at zero are met at phase transitions only; no unit test reaches one.", "anchors": ["dyson/calculator.py:219-227"]}
{"id": "C128", "title": "C++ and Python agree on where a weight is stored and what it means", "statement": "For sites on the lattice and times in [0, Beta), the element of a weight table that the C++ addresses is the numpy element [spin in, sublattice in, spin out, sublattice out, site, time bin] with the site and bin computed by dyson/weight.py. The coordinates that the Fourier transform and IndexToCoordi read from this site index are the displacement modulo the lattice size, component by component; adding the indices of a->b and b->c as the Dyson equations do gives the index of a->c. A bin stands for the same time on both sides.", "quantifier": "all lattice sizes, sublattices, spins, sites, times and bin numbers whose table fits 32 bits; times over the reals", "why_tests_cant": "The two programs are in different languages and only meet in files; a unit test on either side would fix one lattice and a few indices, and a transposed axis only shows for unequal sizes.", "anchors": ["dyson/weight.py:38-66", "dyson/weight.py:80-81", "dyson/weight.py:143-149", "src/module/weight/index_map.cpp:36-63", "src/module/weight/index_map.cpp:102-124", "src/lattice/lattice.cpp:47-92"]}
{"id": "C129", "title": "The Fock self-energy that Python adds is the first-order diagram of the Monte Carlo", "statement": "Whatever tables G and W hold, between any two vertices at any two times SigmaSmoothT_FirstOrder gives minus the sum over the inner spin of the G line times the W line that the C++ Weight module returns for these vertices (with the sign of tau < 0 taken out, as the table stores tau > 0), and it is zero between different spins.", "quantifier": "all tables, lattices, sublattices, sites, times and spins", "why_tests_cant": "the two sides are written in two languages with two index conventions; a test can compare them only on sample tables", "anchors": ["dyson/calculator.py:10-25", "src/module/weight/component_MC.cpp:17-110"]}
{"id": "C130", "title": "The bubble that Python adds is made of the two lines of the Monte Carlo", "statement": "For a G that is even in the displacement, at times that do not differ by whole bins, Polar_FirstOrder gives the product of the G line one way and the G line back as the C++ module returns them. It does not for a G that is only reversible (from a to b at r as from b to a at -r): the line back is taken at r instead of -r, so on a lattice with several sublattices the bubble between cells is lost.", "quantifier": "all tables, lattices, sublattices, sites, times and spins", "why_tests_cant": "on one-sublattice lattices every symmetric table hides the difference", "anchors": ["dyson/calculator.py:61-80", "src/module/weight/component_MC.cpp:17-62"]}
{"id": "C131", "title": "The delta part of the first-order self-energy is the Hartree-Fock one", "statement": "If G is a straight line over the last two time bins, SigmaDeltaT_FirstOrder is the exchange term G(Beta) W0 summed over the inner spin, minus, for equal sublattices at distance zero, the sum over all spins, sublattices and cells of the density there times W0.", "quantifier": "all numbers of sublattices, cells and bins (at least two), all G linear in the last two bins, all W0", "why_tests_cant": "it needs every lattice size and every table; a test sees one model", "anchors": ["dyson/calculator.py:27-58"]}
{"id": "C132", "title": "At equal times the G line is the limit from below", "statement": "At equal times the C++ module returns minus the value of the first time bin, though the sign is the one of tau < 0; for a time just before it returns minus the last bin. So the line at equal times is neither the limit from below nor the extrapolated density that Python uses for the same diagram.", "quantifier": "all tables, sites and times", "why_tests_cant": "equal times have measure zero in a simulation, and Hartree diagrams only arise for some updates", "anchors": ["src/module/weight/component_MC.cpp:17-62", "src/module/weight/index_map.cpp:31-56", "dyson/calculator.py:27-58"]}
{"id": "C133", "title": "Chi is the correlation of S^z, and its disconnected part is the product of the magnetisations", "statement": "Calculate_Chi gives a quarter of chi(UU,UU) + chi(DD,DD) - chi(UU,DD) - chi(DD,UU); adding the zeroth order adds the product of half the differences of the densities of the two spins on the two sublattices, so nothing if the densities of the spins agree.", "quantifier": "all tensors, sublattices, sites and times, all G", "why_tests_cant": "a test covers single tensors", "anchors": ["dyson/calculator.py:161-211"]}
{"id": "C134", "title": "The tables of neighbours are the shells of the lattice", "statement": "On every lattice the tables NearestNeighbor and NextNearestNeighbor hold, folded onto the torus, exactly the sites at the shortest and the second shortest distance, each once (on ValenceBond the two together hold the shortest; Cubic and Assymetric_Triangular have no second table). The third table holds the sites twice as far as the nearest ones: those with a site halfway on Pyrochlore, those without on Kagome.", "quantifier": "all eleven lattices, all sublattices, all displacements, all tori at least two cells wide (three for Triangular)", "why_tests_cant": "the tables are typed in by hand; a test checks symmetry or a coordination number, not that no site is missing at any size", "anchors": ["dyson/model.py:340-624", "dyson/lattice.py:18-202"]}
{"id": "C135", "title": "The bare interaction of the spin models is complete and symmetric", "statement": "On every torus at least two cells wide (three for Triangular) a spin model builds without an error; the bare W between two cells is the sum of the couplings of the tables that name the cell, times S.S; and it is the same seen from both ends, for the Kitaev model too. On a torus of width one it is not symmetric: the tables name cells outside the torus.", "quantifier": "all lattices, sizes, couplings, sublattices, cells and spins", "why_tests_cant": "a test sees single sizes; the indices wrap differently at every size", "anchors": ["dyson/model.py:294-624", "dyson/weight.py:52-57"]}
{"id": "C136", "title": "The bare interaction conserves the spin", "statement": "S.S is half the exchange of the spins minus a quarter, so its elements vanish unless the spins going in and out add up to the same. The Kitaev model also builds SxSx and SySy bonds, which flip two equal spins: the claim is false for it, although the updates of the Monte Carlo rely on it.", "quantifier": "all spins; for the refutation one torus", "why_tests_cant": "a test of the Heisenberg model does not see the Kitaev model, and the Monte Carlo never notices missing configurations", "anchors": ["dyson/model.py:103-105", "dyson/model.py:298-306", "dyson/model.py:480-492"]}
{"id": "C137", "title": "The momenta of FourierTransformation fit the torus", "statement": "The wave of a momentum given by integers turns by the same angle whichever cell stands for a site of the torus. This holds on all lattices if all sides are equal, and for all sides on all lattices but Checkerboard, Kagome and Pyrochlore, whose reciprocal vectors are listed in another order than the lattice vectors; there it is false.", "quantifier": "all lattices, sizes, integers p, sublattices and displacements", "why_tests_cant": "the usual tests take a torus with equal sides", "anchors": ["dyson/lattice.py:18-202", "dyson/lattice.py:242-262", "dyson/lattice.py:294-300"]}
{"id": "C138", "title": "Bare Green's function of the spin models", "statement": "In the Heisenberg, J1J2 and Kitaev models the bare G is that of a fermion bound to a site with the chemical potential i*pi/(2 beta) and the given field: G(0)+G(beta)=1, it evolves with the energy of the spin, the weights of empty and doubly occupied sites cancel, and the difference of the two occupations is tanh(beta h/2). Refuted for descriptions containing \"ImW\": there the weights do not cancel.", "quantifier": "for every positive temperature, field, spin and times", "why_tests_cant": "It is an identity in continuous temperature, field and time; a test compares a few floating-point numbers.", "anchors": ["dyson/model.py:308-328", "dyson/weight.py:83-84"]}
{"id": "C139", "title": "Kernel of free fermions and the sign of the field", "statement": "The kernel with which the bare G of the Hubbard model is filled is exp(-w t)/(1+exp(-beta w)), exact for |beta w/2| <= 100 and otherwise within a relative error exp(-200). Refuted: that one and the same field favours the same spin in the fermion and in the spin models.", "quantifier": "for every energy, time and positive beta", "why_tests_cant": "The three branches of the kernel must join for all real energies; samples miss the joints.", "anchors": ["dyson/model.py:164-210", "dyson/model.py:308-328"]}
{"id": "C140", "title": "The hopping matrix is Hermitian", "statement": "The hopping of the Hubbard model between two cells is minus the hopping times the number of entries for that cell in the tables of neighbours times the matrix of the phase, on the square and honeycomb lattices; with vanishing phase it is Hermitian. Refuted with a phase: both directions of a bond carry the same phase. Refuted: that the first Pauli matrix is Hermitian and squares to one.", "quantifier": "for every torus of linear size at least 2, hopping and phase; every pair of cells, sublattices and spins", "why_tests_cant": "It holds for all lattice sizes and hoppings, in particular across the boundary where the neighbour tables wrap.", "anchors": ["dyson/model.py:107-162", "dyson/weight.py:83-84"]}
{"id": "C141", "title": "The Hubbard repulsion is on-site and a model that cannot be built is reported", "statement": "Refuted: the repulsion U is placed on the pair of spin indices (DOWN DOWN, DOWN UP), which does not conserve spin, and at all distances, and it is missing between UP and DOWN on one site. Refuted: a Hamiltonian with one hopping raises IndexError inside, which Build swallows, and the model is returned with zero G and W.", "quantifier": "the properties would be for every U, lattice and Hamiltonian", "why_tests_cant": "A test of the shape or of one element of the array does not see where the repulsion is missing.", "anchors": ["dyson/model.py:9-67", "dyson/model.py:90-92", "dyson/model.py:212-216"]}
{"id": "C142", "title": "The annealed field reaches zero and stays", "statement": "If DeltaField is a whole number of steps Interval, it is so after any sequence of successful and failed versions, and that many successes later the field is within 1e-5 of zero (exactly zero if the step is larger than that) and does not change any more; n failures after a decrease leave the field a 2^n-th of the step from the last good one. Refuted: if it is not a whole number of steps the field passes zero and grows for ever, and if the first sublattice has no field the others are never decreased.", "quantifier": "for every field, step, number of sublattices and sequence of outcomes", "why_tests_cant": "The property is about all histories of successes and failures.", "anchors": ["dyson/model.py:69-85", "dyson/main.py:290-330"]}
{"id": "C143", "title": "Process numbers of Monte Carlo jobs", "statement": "Without files of statistics in the directory (those being written begin with \"_\") a Monte Carlo job starts afresh with process numbers 0 to Duplicate-1; with files of earlier processes it resumes the smallest of their numbers, each once, at most Duplicate of them. Refuted: that Duplicate processes start (fewer if there are fewer files), that numbers are distinct if a file has been copied, that a file named otherwise is ignored. A Dyson job has the single number 0 however many duplicates are asked for.", "quantifier": "for every content of the directory, number of duplicates and set of earlier process numbers", "why_tests_cant": "Which processes are resumed depends on the set of file names; the numbers must be read back from every decimal name.", "anchors": ["job_class.py:5-12", "job_class.py:49-63", "src/job/job.cpp:31-34", "IO.py:24-31", "job_class.py:86-94"]}
{"id": "C144", "title": "Each job is queued once with its own input file", "statement": "The queues contain every process number of every job in the TO_DO list once; with at most one job of each type all input files are distinct; timers given to the processes stay within a fifth of the ones asked for and positive if larger than 1. Refuted: two Monte Carlo jobs in TO_DO take the same process numbers and overwrite each other's input files; a timer of 1 may become 0.", "quantifier": "for every list of jobs, timers and random numbers", "why_tests_cant": "Collisions of names depend on all pairs of jobs and numbers.", "anchors": ["job_manager.py:24-69", "job_manager.py:96", "job_class.py:29-37", "job_class.py:74-97", "inlist.py:123-133"]}
{"id": "C145", "title": "The manager never runs more than CPU busy processes and runs every job once", "statement": "At no time, under any durations and signals, do more than CPU processes of the kind that keeps a CPU busy run on this machine; what has been started is a first part of the queue in its order; if all processes end, the manager ends after having started every job once. check_status takes only ended processes off the list. Refuted: that it takes off all that have ended (the list is shortened while it is iterated).", "quantifier": "for every list of jobs, durations of processes, number of CPUs and sequence of signals", "why_tests_cant": "It is an invariant over all interleavings of processes ending, signals and polling.", "anchors": ["job_manager.py:71-134", "job_manager.py:153-180"]}
{"id": "C146", "title": "Stopping the manager", "statement": "SIGINT and SIGTERM end all running processes, and the manager soon after if the queue is empty. Refuted: if jobs are left, the manager goes on and starts them in place of those it has ended. Refuted: a job that cannot be submitted is reported; instead the manager ends with status 0, leaving started processes running.", "quantifier": "for every history; the refutations by witnesses", "why_tests_cant": "The handler returns into the loop, which only shows with jobs still queued at the time of the signal.", "anchors": ["job_manager.py:136-180"]}
{"id": "C147", "title": "Versions sent by a Dyson job increase over restarts", "statement": "Over all sessions of one Dyson job, from its first start without files, the Version numbers broadcast in the message file are strictly increasing, provided weights and parameters get written whenever a version ends well; this includes versions that fail, sessions cut by a signal between saving and broadcasting, and restarts. It is false without the proviso: if the parameter file cannot be written (the exception is swallowed), the same Version is sent again after a restart.", "quantifier": "all inputs, lattices, and sequences of successful, failed and interrupted versions and restarts", "why_tests_cant": "A test runs one session; the numbering depends on what each session left on disk and on where it was interrupted.", "anchors": ["dyson/main.py:99-122", "dyson/main.py:124-127", "dyson/main.py:194-196", "dyson/main.py:294-332", "dyson/main.py:367-377"]}
{"id": "C148", "title": "A Dyson job uses the Monte Carlo statistics", "statement": "A Dyson job with DysonOnly False takes the self-energy and polarization of each version from the collected Monte Carlo statistics. True of a job that found a weight file when it started; false of a job started fresh: IsNewCalculation is never reset, so it goes on with first-order diagrams for as long as the process lives.", "quantifier": "all inputs and all sequences of versions of a session", "why_tests_cant": "No finite run shows that the statistics are never read, only that they have not been read yet.", "anchors": ["dyson/main.py:209-270", "dyson/main.py:337-338", "dyson/main.py:367", "dyson/main.py:395"]}
{"id": "C149", "title": "Restarting a Dyson job loses nothing but the unfinished version", "statement": "After a version is saved, and possibly failed versions after it, a restart resumes with the Version, the weights and the annealed field of the saved version (positive). But the output file of measurements is overwritten by the new session, as Observable.Load is never called, and the list of symmetries of the parameters grows by the lattice name with every session, so restarting is not idempotent (both refuted).", "quantifier": "all inputs, files, histories of sessions, failures after the last saved version", "why_tests_cant": "It relates two processes through three files over arbitrarily long histories.", "anchors": ["dyson/main.py:99-108", "dyson/main.py:162", "dyson/main.py:326-331", "dyson/main.py:367-377", "dyson/measure.py:9-18", "dyson/measure.py:124-134"]}
{"id": "C150", "title": "Signals are delayed while files are written", "statement": "Inside a DelayedInterrupt block no SIGINT or SIGTERM acts; afterwards the handlers are those from before, nothing happens if no signal came, and otherwise, if SIGINT had a Python handler, that handler is called exactly once with the last signal. It is false that a signal then acts as it would have before the block: SIGTERM is passed to the handler of SIGINT, and if SIGINT was ignored or had its default an integer is called, a TypeError.", "quantifier": "all handlers and all sequences of signals arriving in the block", "why_tests_cant": "Signals arrive at any point and in any number.", "anchors": ["dyson/logger.py:38-55", "dyson/main.py:101"]}
{"id": "C151", "title": "Padding gives the requested width", "statement": "Center, Right and Left return a text that fits padded with blanks to exactly the width, on the left, on the right, or on both sides with at most one blank more on the right. For a text longer than a non-negative width they do not return it unchanged: the unsigned difference wraps and the int loop counter overflows, which is undefined.", "quantifier": "all texts and widths within int", "why_tests_cant": "Lengths are unbounded and the failure is undefined behaviour.", "anchors": ["src/utility/utility.cpp:78-107", "src/utility/utility.h:59-67"]}
{"id": "C152", "title": "The bosonic kernel of the basis functions", "statement": "For every frequency other than zero and positive Beta, BoseKernel(w,t,Beta) is w e^(-wt)/(1-e^(-Beta w)) up to a relative error below e^(-400), exactly that for |Beta w/2| at most 200, positive, and unchanged under w to -w with t to Beta-t; the grid of frequencies is antisymmetric, ends at -100 and 100, and never meets zero, where the code would divide by zero.", "quantifier": "all real w, t, Beta > 0; all grid indices", "why_tests_cant": "The kernel is a function of three real numbers with two cut-offs.", "anchors": ["basis.py:23-30", "basis.py:33-34"]}
{"id": "C153", "title": "The basis functions are sampled at the centres of the time bins", "statement": "The times at which GenerateBasis takes the kernel are the centres of the bins of imaginary time used by IndexToTau. False: the shift is 1/Nt/2 instead of Beta/Nt/2, so it holds exactly when Beta is 1, and for Beta below 1/2 the last time is later than Beta.", "quantifier": "all numbers of bins, all Beta, all bins", "why_tests_cant": "A test at Beta = 1 passes; the claim is for every Beta.", "anchors": ["basis.py:35-37", "dyson/weight.py:43-44", "dyson/gamma3_calc.py:527-532"]}
{"id": "C154", "title": "The recorded magnetisation", "statement": "The entry <Sz_i> of the output is half the difference of the occupations of the two spins of sublattice i, read off G at time Beta: exactly so whenever G is linear over its last two bins, and for the bare G of the spin models it tends with the number of bins to tanh(Beta h/2)/2, the magnetisation of a free spin in the field h of the sublattice, with vanishing imaginary part.", "quantifier": "all tables linear in time; all Beta > 0, fields, sublattices, in the limit of many bins", "why_tests_cant": "A limit, and a statement on all tables.", "anchors": ["dyson/measure.py:111-113", "dyson/model.py:321-326", "dyson/weight.py:14"]}
{"id": "C155", "title": "The recorded susceptibilities are static", "statement": "UnifChi is the sum over all sites and the integral over imaginary time of the spin correlation per sublattice; StagChi is the same at the staggered momentum. The first is true, the second is true for the triangular lattice only. For Chain, Square, Cubic, Checkerboard and the others Chi has been brought back to imaginary time and StagChi is the first time bin alone: too small by the number of bins for correlations constant in time; StagMag^2 density loses its dependence on Beta and falls with the number of bins.", "quantifier": "all tables Chi, lattices, momenta, numbers of bins", "why_tests_cant": "The quantity looks plausible in a run; only comparison with its definition for all tables shows what it is.", "anchors": ["dyson/measure.py:20-37", "dyson/measure.py:52-61", "dyson/measure.py:68-87", "dyson/lattice.py:219-262", "dyson/weight.py:206-218", "dyson/weight.py:265-277"]}
{"id": "C156", "title": "The table of time pairs", "statement": "SymmetryMapping numbers the unordered pairs of time bins one to one from 0: TauSqueeze is the same for (t1,t2) and (t2,t1) and for no other pair, TauRestore gives back the pair in order, there are n(n+1)/2 of them. TauSymFactor is 1 on the diagonal and 2 off it, TauFlag is 1 exactly below the diagonal. The last sentence is false beyond 257 bins: 't1 is t2' compares objects, and Python 2 keeps one object only for each number up to 256, so from bin 257 on the diagonal has factor 2 and flag 1.", "quantifier": "all numbers of bins, all pairs of bins", "why_tests_cant": "All pairs for all sizes; the error appears only at more than 257 bins.", "anchors": ["dyson/gamma3_calc.py:639-662"]}
{"id": "C157", "title": "The table of site pairs", "statement": "RSqueeze gives two pairs of sites the same number exactly when a mirror of the lattice (x to -x, y to -y, both; for the triangular lattice (-x-y,y), (-x,-y), (x+y,-y)) takes one to the other, RSymFactor is the number of pairs with that number, RRestore holds one pair for each number. True for every square lattice and for triangular lattices with Lx = Ly; false for a triangular lattice of 4 by 2: there the mirrors are no group, classes overwrite one another, and a pair carries factor 3 though no other pair has its number.", "quantifier": "all lattice sizes and pairs of sites", "why_tests_cant": "Every lattice size; a test with Lx = Ly sees nothing.", "anchors": ["dyson/gamma3_calc.py:612-637", "dyson/gamma3_calc.py:664-697"]}
{"id": "C158", "title": "Compressing the three-point function loses nothing", "statement": "UnCompressGammaW after CompressGammaW gives back every function that the mirrors leave alone and that turns to minus its conjugate when both ends are exchanged; CompressGammaW after UnCompressGammaW gives back every compressed table; the expanded function has both symmetries. The last is false for the exchange at equal times: nothing makes the diagonal of the compressed table antihermitian.", "quantifier": "all functions, lattices (triangular: Lx = Ly), numbers of bins", "why_tests_cant": "All functions of a class; loss at one entry goes unseen.", "anchors": ["dyson/gamma3_calc.py:700-747"]}
{"id": "C159", "title": "The Monte Carlo reads the three-point function that Python wrote", "statement": "GammaWClass::Weight on the compressed table gives the entry of the function that CompressGammaW was given. True for t_out bin <= t_in bin, and for pairs of sites that a mirror exchanges. False in general: below the diagonal Python expands with the two sites exchanged and the C++ does not.", "quantifier": "all functions with the symmetries, all sites and bins, at most 257 bins", "why_tests_cant": "Two programs in two languages; on symmetric pairs of sites and above the diagonal they agree.", "anchors": ["src/module/weight/gamma3.cpp:295-342", "dyson/gamma3_calc.py:724-747", "dyson/main.py:83-99"]}
{"id": "C160", "title": "The Monte Carlo collects the three-point function into the compressed table", "statement": "If GammaWClass::Measure meets every configuration once with the weight of a function that has the symmetries, each entry of the compressed table holds the value of the function. True on the diagonal of the times. False off it: the entry holds the mean of the function and of the function with the two sites exchanged at the same times, because the contributions from below the diagonal are put in without exchanging the sites.", "quantifier": "all functions with the symmetries, lattices (triangular: Lx = Ly), at most 257 bins", "why_tests_cant": "A statement on sums over all configurations; a run gives plausible numbers.", "anchors": ["src/module/weight/gamma3.cpp:378-423", "dyson/gamma3_calc.py:639-697"]}
{"id": "C161", "title": "The three-point functions of the Dyson job have the symmetry that compression takes for granted", "statement": "If G(Beta - tau) is the conjugate of G(tau) and W likewise, GGGammaG turns to its conjugate when its two times are exchanged, from SimpleGG and through any number of versions, and the GammaW made from it turns to minus its conjugate when both ends are exchanged, so CompressGammaW loses nothing of it. The bare G of a spin without field has the property. The steps attach lines continued (anti)periodically to all times. Not for every G: with a real G the first component of GammaW is real and symmetric, and compression and expansion change its sign below the diagonal.", "quantifier": "all G, W, starting functions, numbers of bins and of versions", "why_tests_cant": "An invariant of an iteration over any number of versions and all functions of a class.", "anchors": ["dyson/gamma3_calc.py:12-193", "dyson/gamma3_calc.py:410-447", "dyson/main.py:170-246", "dyson/gamma3_calc.py:700-747"]}
{"id": "C162", "title": "Two interaction lines attached to the three-point function", "statement": "AddTwoW_To_GammaW, by products of Fourier transforms, gives the sum over all places of the function with one W line from each end, displacements modulo lattice and Beta, with the sign -1 and a factor 4 for the second component; with a real W it keeps the exchange symmetry of the function, so the hypothesis of C161 on it holds. The lines are W at the times of the coarse bins. True when MaxTauBinTiny divides MaxTauBin; else the stride gives another number of samples than bins (10 and 4: five), and a larger MaxTauBinTiny makes the stride zero and the slice fails.", "quantifier": "all functions, interactions, lattice sizes and numbers of bins", "why_tests_cant": "An identity of sums over all places for all tables.", "anchors": ["dyson/gamma3_calc.py:205-233", "dyson/gamma3_calc.py:316-408"]}
{"id": "C163", "title": "The susceptibility obtained from the three-point function is the random-phase formula, and at first order it is the one of the Dyson equation", "statement": "FullGGGammaG followed by Calculate_Chi returns at each momentum and frequency -d/2 divided by 1-2Jd (d: difference of the UP and DOWN three-point function at equal times, J: Sz part of W0 times the time step and its phase), for an interaction that couples Sz with Sz. With the three-point function of SimpleGG this is the Chi that W_Dyson gives for Polar_FirstOrder when G is local and the same for both spins. It is not so in a field (DOWN DOWN is filled with the UP values) nor with hopping (only site 0 is filled): refuted.", "quantifier": "all lattices, bins, interactions of that form, three-point functions, momenta and frequencies with an invertible denominator", "why_tests_cant": "tests compare numbers of one run; agreement of the two routes for every G, and which G break it, needs the algebra of the two solves", "anchors": ["dyson/gamma3_calc.py:12-32", "dyson/gamma3_calc.py:456-513", "dyson/calculator.py:60-79", "dyson/calculator.py:107-134", "dyson/main.py:27-29"]}
{"id": "C164", "title": "EnforceSumRule leaves Polar up to one factor and Chi at the origin at 0.75, ends for free spins, but need not end and aims at three times the Sz value", "statement": "With EnforceSumRule the Dyson job multiplies Polar until Chi at site 0, bin 0 is within 0.001 of 0.75. When it ends, Polar is the old one times one number and Chi satisfies the rule. Without interaction and magnetisation it ends from every positive Chi. It need not end (Polar zero with a magnetised spin): refuted. Chi only contains Sz Sz, which is 1/4 for a spin 1/2 with itself; the loop always ends at least 0.499 away from that: the claim that it imposes the rule of Chi is refuted.", "quantifier": "all lattices, sublattices, interactions, Green's functions, polarizations and numbers of passes", "why_tests_cant": "termination of the loop for every polarization cannot be tested, and a run that ends shows 0.75 as asked", "anchors": ["dyson/main.py:273-292", "dyson/calculator.py:121-134", "dyson/calculator.py:161-209"]}
{"id": "C165", "title": "Chi in the output counts the disconnected part once without EnforceSumRule and twice with it", "statement": "Chi measured at the end of a version is the connected part plus the product of the two magnetisations. With EnforceSumRule the product is added twice, as the loop has already added it to the same ChiTensor; so Chi changes even if the rule held at once: refuted.", "quantifier": "all lattices, sublattices, sites, bins, interactions, Green's functions and polarizations", "why_tests_cant": "tests without magnetisation give the same number on both paths", "anchors": ["dyson/main.py:21-25", "dyson/main.py:277-290", "dyson/main.py:322-325", "dyson/calculator.py:161-183"]}
{"id": "C166", "title": "The collected three-point functions are weighted averages of complete files, but a file that fails can still enter", "statement": "With Gamma3 CollectStatis returns, when every file is complete and the norms agree, the sum of the accumulated weights over the sum of the accumulated norms, times the norm, for GammaG and GammaW. A file that fails to merge should not enter the result; a file without GammaWStatis is counted as failed while its GammaG has been added: refuted.", "quantifier": "all numbers of files, accumulated weights, norms and elements", "why_tests_cant": "tests use a few good files; what stays behind from a file that fails half way depends on the order of the merges", "anchors": ["dyson/collect.py:152-221", "dyson/main.py:250"]}
{"id": "C167", "title": "Collecting only (-c) saves the statistics that CollectStatis accepts", "statement": "main.py with -c should write the merged statistics. It never does: CollectStatis returns four values and the caller unpacks two, which raises ValueError whatever the files are: refuted.", "quantifier": "all lists of statistics files", "why_tests_cant": "no test runs main.py -c; the statement is about every list of files", "anchors": ["dyson/main.py:384-393", "dyson/collect.py:221"]}
{"id": "C168", "title": "A dictionary being saved is never seen half written, and nothing is saved when the name has a directory", "statement": "While SaveBigDict saves under a plain name, at every moment the file holds the old or the new dictionary, no other file but the temporary one changes, and the list of statistics files shows no file being written; at the end the new one is there and the temporary file gone. With a directory in the name the underscore is put before the directory, so that the call fails unless such a directory exists: that it saves wherever the directory exists is refuted (statis_total of main.py).", "quantifier": "all disks, names, dictionaries and moments at which the program may stop", "why_tests_cant": "a test sees the state before or after; being killed or read at every point in between, and every name, is a statement about all prefixes of the run", "anchors": ["IO.py:23-30", "dyson/collect.py:9", "dyson/collect.py:146-150", "dyson/main.py:365", "dyson/main.py:392"]}
{"id": "C169", "title": "A job computes with weights at least as new as the version it reports", "statement": "Let the Dyson program and any number of Monte Carlo jobs run at the same time, the program saving weights and parameters and then broadcasting the message, turns failing and the program being killed and restarted at any step, and the jobs reading the message and loading the weights at any moment. If no saving fails, every job that has taken a version v > 0 holds weights written by a turn u >= v. That u = v is false: the program may save the next weights between the job's two reads. The claim is also false as soon as a saving fails, since Measure logs any failure and the message goes out all the same: a failed saving of the weights leaves a job at version 2 with the weights of turn 1, and a failed saving of the parameters followed by a restart lets the weight file fall below a message already read.", "quantifier": "all interleavings of all finite runs of the Dyson program with failures and kills and of any number of jobs; Dyson parameters saved in one step", "why_tests_cant": "Needs concurrent programs, particular interleavings and failing writes; no test runs the two programs together.", "anchors": ["dyson/main.py:101-122", "dyson/main.py:194-196", "dyson/main.py:318-332", "dyson/main.py:367-375", "dyson/parameter.py:19-26", "src/environment/envMonteCarlo.cpp:151-193"]}
{"id": "C170", "title": "Reading the message never ends a job", "statement": "A job that calls ListenToMessage while the Dyson program is running either keeps its version or takes a newer one together with weights. Its version never goes down and a version is never taken without weights, whatever fails; a call that finds a newer message and a weight file takes both. That the call never ends the job is false: SaveDict empties the message file before writing it, Message::Load catches only IOInvalid, and the SyntaxError of evaluating a torn text becomes a RunTimeException that nothing catches. A job survives every run in which each opening of the message file is followed at once by its writing; a program killed between the two leaves a file that ends every job that listens until the next message has been written.", "quantifier": "all interleavings of all finite runs of the Dyson program with failures and kills and of any number of jobs", "why_tests_cant": "The window between emptying and writing the file is hit by chance only, and needs two programs.", "anchors": ["IO.py:11-21", "src/module/parameter/message.cpp:12-26", "src/utility/dictionary.cpp:48-57", "src/utility/pyglue/object.cpp:59-75", "src/environment/envMonteCarlo.cpp:151-193", "src/main.cpp:25-47"]}
{"id": "C171", "title": "Entry t of every list in the output file belongs to the t-th measurement", "statement": "After any number of calls of Observable.Measure in one run, every list of the history is either empty or holds exactly one value per call in the order of the calls; the common quantities and the magnetisation and density of every sublattice are never missing, the staggered ones are there on every lattice that has them, and no lattice that can be built meets the Assert. On the pyrochlore lattice the claim is false: each call appends UnifChi at line 31 and again at line 93, so after t calls that list has 2t entries and its entries no longer belong to the calls with the same number.", "quantifier": "all lattices, numbers of sublattices, numbers of calls and measured values", "why_tests_cant": "A test would have to run a Dyson job on every lattice for several turns and compare the lists.", "anchors": ["dyson/measure.py:15-49", "dyson/measure.py:52-122", "dyson/lattice.py:8-15", "dyson/main.py:318-325"]}
{"id": "C172", "title": "The recorded occupation is one particle per site in the spin models", "statement": "The entry <n_i> of the output, the mean over all momenta of G extrapolated from its last two time bins, is for every table and every lattice the extrapolated element of G on the site itself, and the sum of the occupations of both spins at time Beta whenever G is linear over its bins. For the bare G of the spin models its real part tends with the number of bins to 1. That the entry itself tends to 1 is false: its imaginary part tends to 1/cosh(Beta h/2), which is never 0, because the empty and the doubly occupied state cancel in the partition function but not in the number of particles.", "quantifier": "all lattice sizes, tables G, sublattices, Beta > 0 and fields; numbers of bins >= 2 and the limit of many bins; exact arithmetic", "why_tests_cant": "A limit over the number of bins and an identity for all tables; a test sees single runs with discretisation errors.", "anchors": ["dyson/measure.py:115-117", "dyson/model.py:308-326", "dyson/weight.py:281-297"]}

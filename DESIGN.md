# Verification design for Feynman_Simulator (diagrammatic Monte Carlo)

The subject is the C++ in `/repo/src` (pinned commit), read as text. The model and
proofs are in Coq 8.16 under `rocq/theories/`. Nothing from `/repo` is built or run.

## How the model is organised

| layer | files | content |
|---|---|---|
| arithmetic | `Num.v`, `NumR.v`, `NumF.v` | a record of operations standing for C++ `real`; instances: real numbers (exact), IEEE binary64 (`Coq.Floats.SpecFloat`, executable) |
| outcome | `Base.v` | every modelled function returns `Ok`, `Abort` (ABORT / ASSERT / THROW), or `UB` (C++ undefined behaviour); state monad on top |
| utilities | `Momentum.v`, `Lattice.v`, `RNG.v`, `Complex.v`, `Bundle.v`, `IndexMap.v`, ... | function-by-function transcriptions with file/line comments |
| diagram | `Diagram.v`, `Weights.v`, `DiagramCheck.v`, `DiagramIO.v` | memory of the diagram, FixDiagram, CheckDiagram, save/load |
| Markov chain | `Markov.v` | each update and `Hop`, statement by statement |
| specification | `History.v`, `Target.v`, `Alike.v` | the call sequences of a simulation; the distribution it is meant to sample; equality of diagrams up to slot numbers |
| proofs | `P_*.v` | invariants, refinement lemmas |
| results | `Prop_*.v` | `Theorem ... exact lemma.` + `Print Assumptions` + a concrete `Example` beside each |

### Modelling decisions

* **Undefined behaviour is an outcome.** A read through an unset pointer, an array index
  out of range, or `x % 0` yields `UB`. `ABORT`/`ASSERT_ALLWAYS`/`THROW_ERROR` yield `Abort`.
* **Pointers** to vertices/lines are slot numbers 0..19 of the fixed arrays of
  `Bundle` (`component_bundle.cpp`); the value 20 stands for null/uninitialised and
  dereferencing it is `UB`.
* **Memory layout.** The arrays of structs are represented as one map per struct field.
  This is a change of representation only: no field overlaps another.
* **Arithmetic.** The updates are written over an abstract record of operations (`Num`)
  with no laws, so structural theorems hold for IEEE doubles as well as for exact reals.
  Their one arithmetic hypothesis (time-bin indices of generated times are in range, part of
  `cfg_ok`) is proved for exact reals (`setup_exact`) and for IEEE doubles (`setup_ieee`).
  Theorems about weights being products, phases and acceptance ratios are stated for the
  instance over Coq's `R` (exact arithmetic; rounding is not modelled there).
* **Random engine** (`std::mt19937`-like `RandomFactory` engine) is an arbitrary state
  machine producing words in `[0, 2^32)`; theorems quantify over it.
* **Weight tables** are arbitrary functions from the linear index to complex numbers;
  the index computation itself (IndexMap) is modelled, including its range check.
  The two vertex-correction tables are arbitrary functions of their arguments.
* **Not modelled**: logging, pretty printing, gnuplot/graphviz output, calls of
  Python functions and numpy arrays in the Python glue (its Object wrapper, reference counts and
  conversions are modelled in Glue.v), file formats, the time spent,
  memory allocation failure, signals other than in the interrupt-guard model, overflow of
  the `double` statistics counters.

## Trusted base

* Coq kernel (8.16.1), `coqchk`.
* Axioms: only those of Coq's standard library. Every results file ends each theorem with
  `Print Assumptions`. Theorems over `NumR` and those using `Reals` list
  `ClassicalDedekindReals.sig_forall_dec`, `ClassicalDedekindReals.sig_not_dec` and
  `FunctionalExtensionality.functional_extensionality_dep`; where noted also
  `Classical_Prop.classic` (Flocq-based statements on doubles). Structural theorems are
  closed under the global context.
* The transcription of the C++ into Gallina: each definition cites the lines it models.
* The C++ semantics assumed: LP64 (`unsigned long` 64 bits, `int` 32 bits), two's
  complement conversion from unsigned to int, no reordering of the statements modelled.
* Jobs (C89-C98): the text form of the random engine reads back as written (`read (show e) = e`);
  Python's `pprint`/`eval` and the `hickle`/`numpy` files return the values written; one
  ListenToMessage reads one snapshot of the files; which timers fire is an input; functions
  whose `return` is missing are called where the value is not used.
* The glue (C115-C117): the CPython calls behave as their documentation says (which references
  they take, give and borrow); small integers and strings are not interned; no finalizer and no
  collector of cycles runs; an address is not used twice; returning an Object elides the copy.
* The Python side (C118-C172): Python and numpy arithmetic is taken as exact; numpy's fft family
  computes the sums of its documentation; `Merge` and `RollBack` copy weights (in Python Data may be
  the same array as BackUpWeight.Data while Norm is at most 1e-3); the Fortran LU solver returns a
  solution whenever the matrix has an inverse (`goodSolver`; `someSolver` shows there is one);
  `Smooth` of collect.py is arbitrary.

## Properties

The statement of each property is in `properties.jsonl`; status in `MANIFEST.json`.

| id | what is modelled | how it is proved |
|---|---|---|
| C01-C09, C17, C18, C50 | all of `Markov::Hop` with its 21 active updates, `Diagram` memory, hashes, bundles, random draws | one invariant `Inv`; per update: symbolic execution in a weakest-precondition calculus shows the outcome is `Ok` and the new diagram is an explicit function of the old one; `Inv` preserved by each such function; induction over the number of steps and the random stream |
| C10 | same | false: `_refuted` with an executed history |
| C11 | same + `GClass/WClass::Weight` both overloads + IndexMap | part of the invariant, for any arithmetic |
| C12, C13 | same over `NumR` | product over live lines, changes of finitely many factors |
| C14 | the loop permutation | a transposition changes the number of cycles by one; splicing fixed points does not |
| C15, C20 | each update | from the same symbolic execution; C15 also in the form 'no acceptance counted => diagram unchanged' in exact arithmetic (a counter kept in doubles could saturate) |
| C16 | each update over `NumR`; the target distribution and the proposal densities are specified in `Target.v` (the densities are a table read off the draws of each update, part of the trusted statement) | the explicit threshold of each of the 21 updates satisfies detailed balance (`P_MH.v`, field arithmetic on the invariant); then the step semantics |
| C19 | `Hop`, partial sums | induction on the number of steps; which update a drawn word selects in any arithmetic, the exact uniform choice over `NumR` (in doubles the partial sums may stay below 1, then a draw can select nothing) |
| C21 | `Diagram::BuildNew`, `FixDiagram` | direct |
| C22, C23, C52 | `CheckDiagram` and its five parts | completeness from the invariant (an equivalence in exact arithmetic); soundness for arbitrary memory by inversion of the loops; C52 refuted by an executed fresh diagram with weights 1e-10 |
| C24-C26 | `ToDict`, `FromDict`, `Reset`, `FixDiagram` | round trip; refutations with witnesses |
| C27, C28 | `Bundle` | refinement to a finite set by induction over the operations; refutation |
| C29, C30 | `Momentum` | modular arithmetic; refutation for factors >= 4 |
| C31, C32 | `RandomFactory` | arithmetic; IEEE through SpecFloat/Flocq (every operation of `urn` is exact) |
| C51 | `TauIndex`, `RandomPickTau` in IEEE doubles | relative-error bounds of Flocq; the largest time is at most (1-2^-32) Beta, the three roundings lose at most a factor (1+2^-53)^3 |
| C33, C34 | `Lattice` | induction on the dimension |
| C35-C38 | `IndexMap`, `GClass/WClass::Weight` | mixed-radix arithmetic, floor; refutation for C37 |
| C39-C42, C59, C60 | `WeightEstimator`, `WeightArray`, `SigmaClass/PolarClass::Measure` | array as list with `UB` outside; induction over operation sequences; C41, C42 refuted with witnesses |
| C43, C53-C58 | `Estimator<real>`, `EstimatorBundle` | induction over operation sequences; refutations: C43 (norm starts at 1), C54 (interval lost, over-long file), C55 (stale mean), C57 (stale error), C58 (missing name) |
| C44-C47 | `Complex` | field; refutations |
| C48, C49 | `InterruptHandler` | small-step model with signals between any two statements (a handler runs to its end before the next event); invariant over schedules; C49 refuted |
| C61-C68 | `GammaGClass`, `GammaWClass`, their creation and loading in `weight::Weight` (pointer members may be uninitialised) | mixed-radix index arithmetic, invariants over call sequences; case analysis over the spins; C63, C64, C67, C68 refuted with witnesses |
| C69-C78 | `MarkovMonitor` (measurement, squeezing, statistics, adjusting, saving) on top of the walk | `run`: any interleaving of updates, measurements, squeezes, save/load; per diagram kind the exact effect of a measurement (any arithmetic); cancellation of the factors against `target` (exact arithmetic); trapped walk by induction over steps in double arithmetic; C72, C73, C75, C76, C78 and part of C74 refuted with computed witnesses |
| C79 | all 21 updates and `Hop` (exact arithmetic); `alike` (Alike.v): same diagram up to slot numbers; `emits`: an engine yields given words | `P_Undo.v`: per update an inverse proposal exists and gives an `alike` diagram; `P_Can.v`: explicit words that make the update propose it; positivity of its acceptance from detailed balance (C16); `P_Reach.v`: two further invariants of histories; without equal times refuted by a computed run in double arithmetic plus a proof about all continuations |
| C80 | `SqueezeStatistics` of the monitor, estimators, `GammaGClass`, `GammaWClass` | case analysis (exact arithmetic); added after a mutation of `ggSqueeze` survived |
| C81-C86 | `PyDict.v`: Python values, `Convert`, `Dictionary`; `Param.v`: `ParaMC`, `Message`, `_LoadBasis`; `ConfigPy.v`: the dictionaries of a diagram. The text form of the engine is a parameter (`show`, `read`) with `read (show e) = e`; Python's `pprint`/`eval` are trusted to return the value written | lookup lemmas for `std::map` assignment and `insert`; range lemmas for the conversions; the diagram invariant bounds every integer a reachable diagram contains (`tconf_fits`); C83-C86 refuted (in part) with witnesses and, for C83/C84, characterised for all inputs |
| C87 | Life.v: histories extended by the annealing step (`li_anneal`: Diag.Reset with the tables of a Beta that is not smaller). The invariant speaks of *storable* times (`tau_gen`, P_WP.v: 0 or a draw at the current or an earlier, not larger Beta), separate from *drawn* times (`tau_draw`), which only reversibility (C79) needs. | `life_inv` (P_Life.v) by induction over lives; the IEEE time bin of a time drawn at an older Beta stays in range by the gap argument in P_FloatTau.v (`TauIndex_F`). |
| C88 | same, with a lower Beta | refuted by a run in IEEE doubles: one ChangeTauOnVertex, then annealing from Beta 1 to 1/2 passes Reset and CheckDiagram. |
| C89-C97 | `Env.v`: `EnvMonteCarlo` BuildNew, Load, Save, AdjustOrderReWeight, ListenToMessage on a `disk` of seven files that may be missing or broken; `Job.v`: `job`, the reachable states of a process together with its files and its last Save, across restarts | `EnvOk` invariant by induction over `job` (P_Env.v, P_Job.v, P_JobR.v) on top of the histories with annealing (C87), the dictionary round trips (C81-C86) and the monitor (C69-C78); an exact outcome of a message over `NumR`; refutations by executed double-precision runs (C91, C93-C97) |
| C98 | `MainLoop.v`: `MonteCarlo()`; the timers that fire and the files other processes leave are inputs (`tick`) | one iteration from any `job` (P_Main.v); the refutation by induction over 2^31 - 1 idle iterations |
| C99-C101 | all 21 updates and `Hop` (exact arithmetic); `Walks.v`: `steps`, `can_reach` (words are named step by step, any engine yielding them) | `P_Trans.v`: every proposal of a diagram, carried over by a renaming of slots, is a proposal of the renamed diagram; detailed balance makes its threshold positive; `alike` is an equivalence; return along a walk by C79 step by step, each undoing step carried over to the diagram actually reached. |
| C102 | `Env.v`: arrays from the weight file, `tabOf`, `weightReset`; `JobSpec.v`: `selected`, `holds` (row-major place of spins, sublattices, displacement, time bin) | `P_Env2.v`: the reads of `loadGW` give the arrays; the table lookup of `Weights.v` equals the place; by C12 every line carries its lookup; induction over the job. |
| C103 | `JobSpec.v`: jobs without messages (`plain`), `jobTarget`, `jobDensity` | every such job is a regular history with retuned factors (`plain_reg`); C16 instantiated with the job's own parameters (`job_metropolis`). |
| C104, C105 | `Env.v` `envLoad`, `envBuildNew`; `JobSpec.v` `kept_stats` | `P_Env2.v`: success of each read of Load from the success of StartFromNew and the saved statistics; diagram file round trip. |
| C106 | `Param.v` `paraFromDict` | `P_Param2.v`: inversion of every read against predicates on Python values. |
| C107 | `Env.v` | `P_Env2.v`: inversion of each step. |
| C108, C111, C112 | `MainLoop.v`: one iteration and the loop of main.cpp; `MainSpec.v`: `trace`, `seen`, `wormy`, `steady` | `P_Main2.v`: inversion of an iteration, frames of C107, effect of Measure (C69), induction over the run. |
| C109, C110 | `Clock.v`: timers with the readings of time(0) as input, checks only at multiples of 100 | `P_Main2.v`: the snapshot of the last Save is carried along the run (`job`), Load by C89; timers by induction over the run. |
| C113 | `VividSpec.v`: jobs with messages and restarts with other weight files (`vivid`), no zero line weights at start and restart | `good` (invariant, loop sign, weight invariant, worm weight 1) kept by every constructor (`vivid_good`: `reset_sign`, `copy_sign2` for changed tables, `check_reset` for messages), then the one-step analysis of C16 without histories (`step_good`); the jobs of C103 are a special case (`plain_vivid`). |
| C114 | the same jobs, `envMeasure`, `jobTarget` | effect of a measurement (`envMeasure_ok`) rewritten with `phase_share` and `wi_p`, as for C17/C70 but from `good` (`vivid_unbiased`). |
| C115 | Glue.v: a heap of Python objects with reference counts (bool, int, float, str, list, tuple, dict, None), CPython's INCREF / DECREF with recursive release as a worklist, PyList_SetItem and PyDict_SetItem, the Object wrapper (object.cpp) as thirteen operations on any number of Objects and raw pointers; touching a freed object is UB, null dereference Abort | GlueSpec.v states the invariant WF: the count of every object is the number of its holders. P_Glue.v proves that INCREF, release, alloc, SetItem and every operation keep it (grun_ok, induction on the program), so nothing freed is touched; no_leak follows holders upward by rank, all_gone uses that the interpreter's constants stay (P_Glue2.v). A list put into itself is the refuted part |
| C116 | Glue.v: CastToPy (cast) and Convert (conv, convert) for scalars, vectors, maps and AnyObjects, with every temporary Object's copy and destruction | GlueSpec.v: den (value of the object at an address), rep (value of a C++ variable), tconv (conversion on values, with the cases of PyDict.v). P_Glue2.v: conv_ok by induction on the type; cast_any by induction on the value, with containers under construction masked out; freed: after Destroy a new object would have an endless chain of ever larger new holders; tconv_tpy for the round trip |
| C117 | Glue.v: Convert to std::tuple with AddToTuple handing obj.Get() to a by-value Object | tuple_law: with n elements n-1 references that belong to others are used up; refuted: an Object that alone holds a pair is left with a freed one |
| C118, C119, C120 | `Collect.v`: `MergeFromDict` with numpy's in-place addition (equal first axes, or a first axis of length 1 broadcast), the loop of `CollectStatis` with its except clause and the 0.75 rule, `WeightEstimator.UpdateWeight` with the variable `RelativeError` that is never reset, the module function `UpdateWeight`, one pass of the collecting branch of `main.py` and sequences of passes. Exact arithmetic; the spline `Smooth` is an arbitrary function to (average, sigma); `runGamma3=False`; figures and logs left out. | `CollectSpec.v` states the pooled average, the noise of an order and what regular files are, without the model's functions. `P_Collect.v`: merging regular files is a commutative sum, the scan over the elements finds the first largest average, the variable holds the noise of the last order with a signal (invariant over the loop on orders). `P_Collect3.v`: files lacking a histogram (C118_keys). `P_Collect2.v`: passes, and the witnesses of the refutations. Theorems in `Prop_Collect.v`. |
| C121, C122 | `PyWeight.v`: class Weight of weight.py over exact complex numbers: fft/ifft/fftn/ifftn as sums, ChangeSymmetry, the extra phase (on Data, not on AccuData), FFT with requests, Merge, RollBack | `PyWeightSpec.v` says what a weight stands for with explicit Matsubara/Fourier sums. `P_Fourier.v`: orthogonality of the phases on mixed-radix lattices; `P_PyWeight.v`: each transform is inverse to its counterpart and they commute; `P_PyWeight2.v`, `P_SelfCons.v`: invariants over any list of calls (`tidy`, `steady`); the claim about AccuData is refuted on two bins |
| C123, C124 | `SelfCons.v`: the calls one version of main.py makes on SigmaDeltaT and Polar, by outcome | induction on the versions into the `tidy`/`steady` accounts of C122; C124 by witnesses on one site and two bins, part (3) for all weights. EnforceSumRule, the DysonOnly branch and Sigma are not in it (Sigma is replaced in every version) |
| C125, C126 | `Dyson.v`: G_Dyson, Calculate_Denorminator, W_Dyson; the LU solver is a parameter | `DysonSpec.v` states the equations in space and time. `P_Dyson.v`: convolution theorem for the lattice and the (anti)periodic circle of midpoint times; `P_Dyson2.v`: both sides have the same transforms; inverse matrices give uniqueness. C126 refuted with two sublattices for any solver |
| C127 | `Dyson.v` `smallest`, `checkFails` | the minimum of a list under the lexicographic order; witnesses |
| C128 | PyIndex.v (IndexMap of weight.py, position of an element in a C-contiguous numpy array), next to Lattice.v, IndexMap.v and the coords/addSite of C121/C125 | both index functions equal the row-major rank of the displacement; the rank turns componentwise addition modulo the size into addSite; floor and wrap of the time agree over the reals |
| C129, C130, C132 | `FirstOrder.v`: SigmaSmoothT_FirstOrder, Polar_FirstOrder (calculator.py 10-25, 61-80) on arrays as functions of their indices; `FirstOrderSpec.v`: the lines of the C++ Weight module (`Weights.v`) between two vertices, tables read through both index maps | `P_First.v`: closed forms of the loops over spins, the index maps agree (C128), the bin of -tau is the mirrored bin off the grid; `P_First3.v`: a dimer chain on which the bubble differs, a stair-like G at equal times |
| C131, C133 | `FirstOrder.v`: SigmaDeltaT_FirstOrder, Add_ChiTensor_ZerothOrder, Calculate_Chi (calculator.py 27-58, 161-211) | `P_First2.v`: sums over cells pulled out of the loops, linear extrapolation to Beta exact on straight lines, the S^z projection multiplied out |
| C134 | `BareModel.v`: the tables of lattice.py (vectors over the reals with sqrt 3) and of model.py (neighbours, entries literally) ; `BareSpec.v`: distances in space | `P_Bare.v`, `P_Bare2.v`: distances are a whole quadratic form over a fixed denominator (per lattice), close sites lie in a box (proved for all displacements), inside the box every displacement is checked by computation |
| C135, C136 | `BareModel.v`: __SpinModel as a list of statements `Data[:,i,:,j,k] += J*M` with IndexError as an outcome | `P_Bare3.v`: induction over the statements, injectivity of the index of a cell, offsets of i,j are the negatives of those of j,i; `P_Bare4.v`: Kitaev bonds, thin torus |
| C137 | `BareModel.v`: KVec from ReciprocalLatVec; `BareSpec.v`: the angle K.r | `P_Bare4.v`: products of lattice and reciprocal vectors, sums exchanged; Checkerboard 4 x 2 as the counterexample |
| C138 | `spinMu`, `spinMuField`, `spinG`, `spinBareG` (BareG.v) over exact reals and complex numbers, `cexp` for np.exp | identities of exp, cos, sin; `C138_imW_refuted` for real chemical potentials |
| C139 | `FermiKernel` with its three branches, `localTerm` | the middle branch is rewritten as the Fermi function, the outer ones are bounded with exp(-200); `C139_sign_refuted` |
| C140 | `spinOrbit`, `kineticWrites`, `kinetic`, on top of the tables and `doWrites` of BareModel.v | closed form as for C135 (sum over statements); Hermitian because the table for (j,i) is that for (i,j) reversed; `C140_hermitian_refuted`, `C140_pauli_refuted` |
| C141 | `hubbardW`, `buildHubbard` with the diagonalisation as an oracle `solve` | witnesses; the second holds for every `solve` |
| C142 | `DecreaseField`, `RevertField`, `version` (one turn of the loop in main.py as far as the field goes); values are floats, taken as reals | induction over the list of outcomes: success takes a field of k steps to k-1, failure to 2k+1 half steps; `C142_endless_refuted`, `C142_first_refuted` |
| C143 | `dec`, `statisFile`, `firstPart`, `toInt`, `picked`, `sorted`, `currentPID`, `jobMC`, `jobDyson` (Manager.v), file names as strings; signs and blanks that Python's int accepts are not | decimal printing is inverted by reading (DecimalString), digits contain no underscore; sorting is a permutation; witnesses |
| C144 | `atoms`, `queue`, `queueBack`, `infile`, `jitter` | a partition is a permutation; the name of the input file determines type and number; witnesses |
| C145 | `scan`/`checkList` (iteration by position over a list that shrinks), `turn`, `submit`, `happen`, `history`; durations are an arbitrary function of the process, time in units of SLEEP | `scan` equals a structural sweep; invariant over all events; termination by lexicographic descent on (jobs left, time to the last end + length of the lists) |
| C146 | `stopTheWorld`, and failure of a submission as an oracle `ok`; a signal between Popen and the append to the list is not modelled | the invariant says that whatever runs is in the lists; witnesses |
| C147, C148, C149 | Session.v: the files of a Dyson job, its process, one step per version (done, failed, cut) and restart; the numbers themselves are left out except the annealed field (BareG.v) | induction over the sequence of events with an invariant relating messages, memory and the parameter file; witnesses for the refuted parts; a file is written entirely or not at all |
| C150 | Session.v: handlers as values of signal.getsignal, the object's slots, arrivals, exit | induction over the arriving signals; signals between two lines of enter and exit are left out |
| C151 | Session.v: the unsigned subtraction, the int counter with overflow as a distinct outcome | arithmetic over Z |
| C152, C153 | Basis.v: the kernel with its two branches over the reals, both grids; rounding is left out, the singular value decomposition is not modelled | field identities over exp and sinh; parity of 999; an equivalence for the shift of the times |
| C154, C155 | Measure.v: FourierTransformation for any real vectors of the sites, the domain Chi is in at each line, the entries UnifChi, StagChi, StagMag^2 density, <Sz_i>; Energy, SumRule, <n_i>, the BK entries and the FFT back and forth are left out | finite sums in C; continuity of the bare G and limits of Coquelicot; witness with two bins for the refuted part |
| C156-C160 | Squeeze.v: GetR, MirrorR, SymmetryMapping with its loops, tables and `is`, CompressGammaW, UnCompressGammaW, and GammaWClass::Weight and Measure on exact numbers for the spin indices that change no sign; SqueezeSpec.v: the mirrors as matrices modulo the lattice, the two symmetries. Tables are kept by coordinates; complex64 rounding left out | invariants of the two loops by induction on the list of pairs; the mirrors as Klein's group; sums over classes; witnesses: 258 bins, triangular 4 by 2, square 2 by 2 with two bins |
| C161 | Vertex.v: SimpleGG, AddW_To_GGGammaG, AddTwoG_To_GammaG, AddG_To_GGGammaG, AddG_To_WWGammaW and one pass of the loop on one sublattice; AddTwoW_To_GammaW, which goes through Fourier transforms, is a function that keeps the symmetry (a hypothesis of C161_passes, shown for a real W by C162_keeps) | algebra in C with finite sums, induction on the versions; values against an antiperiodic continuation; witness with two bins for the refuted part |
| C162 | TwoW.v: Wtot with its stride, FFTGammaW and FFTWshift as the transforms of PyWeight.v over Lx, Ly and the bins in one combined index, the products, the signs | convolution theorem from the orthogonality of the transforms (P_Fourier) and addition of sites (P_Dyson); arithmetic for the stride |
| C163 | BKChi.v: FullGGGammaG and Calculate_Chi of gamma3_calc.py on one sublattice, with the LU solver as in C125 (any function that solves regular systems); Polar_FirstOrder and SimpleGG as before | the difference of UP UP and DOWN DOWN is a left eigenvector of the denominator; linearity of the transforms; witnesses with one bin for the refuted parts |
| C164, C165 | SumRule.v: the loop of EnforceSumRule with W_Dyson, Add_ChiTensor_ZerothOrder and Calculate_Chi of the earlier files, the complex square root, and the Chi of Measure; no DenorminatorTouchZero within the loop, Chi at the origin not zero | induction on the passes; without W0 the solve is linear in Polar, so each pass takes the square root of the ratio to the target, a contraction; witnesses on one site for the refuted parts |
| C166, C167 | CollectGamma.v: CollectStatis with runGamma3 on top of Collect.v, exceptions half way through a file, the fraction of files accepted, the tuple it returns and its unpacking in main.py -c; arrays of one shape, complex64 rounding left out | induction on the files with the running sums; witnesses with four files and with one |
| C168 | BigDict.v: SaveBigDict as the list of the states of a disk (writing, written, renamed), the extension, the directory part of a name, GetFileList as a predicate on names; a rename is one step, as POSIX has it | cases on the states, strings by induction; witness for a name with a directory |
| C169, C170 | `Channel.v`: the weight, parameter and message files, the turns of the Dyson program as single file accesses with failures and kills, any number of jobs reading the message and loading the weights; of the message only Version; the guard for three-point functions (envMonteCarlo.cpp 153) is taken as passed | `P_Channel.v`: invariant relating message, parameter file, weight file, phase and what each job holds, kept by every step of every interleaving; growth of versions and presence of weights without assumptions on failures; survival when opening and writing are adjacent; witnesses for mixed versions, failed savings and the torn message |
| C171 | `Observe.v`: Append, the names one call of Measure appends on each lattice, and the calls of one run; keys are names instead of texts, values are arbitrary | `P_Observe.v`: a list grows in each call by as many copies as its name occurs, induction over the calls; occurrences counted for every lattice and every number of sublattices; witness on the pyrochlore lattice |
| C172 | `Occupation.v`: the entry <n_i>, from G transformed to momenta | `P_Occupation.v`: the mean over momenta is the value at the origin by orthogonality of the plane waves on any lattice; closed form of the bare occupations, continuity in the width of a bin and the limit; the limit of the imaginary part is positive |

## Mutation tests

`seeded/LOG.jsonl`: each line one edit of the model (for updates described by a relation, of the
program and of the relation together, so that the mutant is a consistent wrong program).
`first_failing_proofs` names the lemmas that stop compiling; `theorems_failed` lists all theorems
of the results files that depend on them. An edit with no failing proof is a survivor; the theorem
added because of it is in `theorems_tightened`.

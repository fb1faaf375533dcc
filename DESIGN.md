# DESIGN: a Rocq (Coq 8.16.1) model of FastPGM

## 1. Approach

Source: `/repo` (jjiantong/FastPGM, C++), read as text.  Everything below is
hand translation; there is no extraction from C++ and the code is not run.  The
theorems are about the Gallina model in `rocq/theories`; each model definition
cites the file and lines it models.

* **Outcomes.** A C++ call is modelled by a total Gallina function into
  `outcome A := Ok a | Err e`, with `e` one of: `OutOfBounds` (vector/array access
  outside the allocation, erase on empty, dangling iterator), `Exit1` (`exit(1)`),
  `Exit0`, `DivZero` (integer division by zero, or the 0/0 of a floating division that
  would give NaN), `NullDeref`, `Uninit` (reading an uninitialised scalar),
  `Thrown` (uncaught C++ exception, e.g. `.at()`), `Overflow` (signed overflow, only in C67 and C70), `OutOfFuel` (never claimed as a
  normal result; theorems prove it unreachable).
* **Numbers.** `int` indices and counts are `nat` (or `Z` where negative values
  occur), without overflow.  C67 and C70 close this gap for exact inference and for
  the tests of structure learning: there a product or sum beyond a largest int is the outcome `Overflow`.  `double` is idealised as exact rational
  arithmetic `Qc` (canonical rationals, Leibniz equality).  Every
  "equals" in a theorem about probabilities is equality of exact rationals.  C65
  closes the gap for exact inference: there every arithmetic operation is rounded by
  an arbitrary function of bounded relative error, and the answers are shown to stay
  within an explicit distance of the exact ones (underflow and overflow excluded, and
  underflow shown to matter).  For the independence tests of structure learning see C71;
  for parameter learning see C72; for sampling rounding stays outside.
* **Pointers and pointer-ordered sets.** Objects are list indices.  Where the code
  iterates over a `std::set` of pointers the iteration order is an arbitrary
  permutation passed as an argument; theorems quantify over it.
* **Parallel loops.** `#pragma omp parallel for` is modelled by executing the
  iterations in an arbitrary order (a permutation argument), each iteration being a
  list of reads and writes on an explicit memory; theorems quantify over
  the permutation, and for the flattened loops we also prove that the write sets are disjoint
  and that no iteration reads what another writes (so finer interleavings cannot
  matter).  Weak memory is not modelled.
* **External functions** (`pchisq` in the G-square test, the C++ random engine) are
  function arguments (oracles) quantified over in the theorems.  The comparison of the
  p-value of the G-square test is an arbitrary function of the counts in C18-C23 and
  C48-C62; C66 computes the statistic itself, over the real numbers with `ln`, and C71 with
  every operation rounded (the format of `double` is taken from the library Flocq, which adds no axiom).
* **Properties.** `theories/Properties_*.v` contain only the property theorems, each
  closed by `exact`, followed by `Print Assumptions`, and the non-vacuity
  `Example`s next to them.  A theorem named `..._partial` proves part of a
  property, one named `..._refuted` exhibits a concrete input on which the
  faithful model violates the property.

## 2. Files (planned)

| file | contents |
|---|---|
| `Base.v` | outcome monad, list/permutation lemmas, finite sums over `Qc` |
| `TableModel.v` / `TableSpec.v` / `TableProofs*.v` | `PotentialTableBase` |
| `Schedule*.v` | parallel loops, `Compute2DIndex` |
| `JTreeModel.v`, `JTree*.v` | moralise, triangulate, Prim, assign, collect, distribute, query, reset |
| `GraphModel.v`, `Graph*.v` | adjacency matrix, Kahn, network edges, edge histories |
| `ChoiceModel.v`, `Choice*.v` | `ChoiceGenerator` |
| `PCModel.v`, `PC*.v` | PC-stable skeleton, separating sets, orientation |
| `CellTable*.v`, `IndTest*.v` | contingency tables, grouped G-square |
| `Param*.v`, `Node*.v` | CPT learning, `DiscreteNode` counts, parent combos |
| `Text*.v`, `Dataset*.v` | Split/Trim, CSV, LIBSVM |
| `Misc*.v` | NaryCount, ArgMax, Accuracy, options, Round, sampler, BIF |
| `Properties_*.v` | the theorems |

## 3. Per-property plan

| id | model | proof |
|---|---|---|
| C01 | `config_of_index`, `index_of_config`, `cum_levels` as loops over `cum_levels` | mixed-radix induction over the dims; two-sided inverse and bound |
| C02 | `TableReduction` Pre/Main/Post on a table record with all its fields | positions kept by the filter = image of the slice; semantic `value` function on assignments |
| C03 | `TableMarginalization` (three overloads), scatter-add over all indices | scatter-add = sum over the fibre; fibre = completions |
| C04 | `TableExtension`, `TableMultiplication`, `TableDivision` | pointwise via C01 |
| C05 | `TableReorganization*` | permutation of entries; modulo lemma for trailing variables |
| C06 | `Normalize`, `NormalizeCPT` | field reasoning; blockwise sums |
| C07 | `TableMultiplicationTwoExtension` | proved for overlapping/non-empty distinct scopes; refuted for scalar left operand and for same scope in different order |
| C08 | `PredictUseJTInfer` end to end | Hugin invariants over the rooted tree + C02-C06, C09; result compared with the brute-force posterior `Spec` |
| C09 | `Moralize`, `Triangulate`, `FormJunctionTree` | elimination cliques have a junction tree; exchange argument for Prim; contraction of redundant cliques |
| C10 | same | refuted (`NullDeref` on a two-node edgeless network); iff theorem: succeeds exactly when the moral graph is connected |
| C11 | `Compute2DIndex`, flattened loops with iteration-order argument | flattening bijection; commuting writes; Bernstein conditions |
| C12 | engine state with backup; list of queries | invariant: state after each query = state after construction |
| C13, C14 | Kahn's algorithm with FIFO queue and in-degree array | loop invariant; acyclicity as "no nonempty path x to x" |
| C15 | network record: edge list, parent/child sets | invariant over op lists |
| C16 | `AddDiscreteParent`, `RemoveParent` on sets of configs | exact set characterisation for nodes and for networks (`ComboProofs.v`); removal and refused additions refuted |
| C17 | `ChoiceGenerator` state machine | lexicographic successor; enumeration theorem |
| C18, C19 | PC-stable skeleton with CI oracle | loop invariants; equality with order-free definition |
| C20 | `OrientVStructure` | refuted by concrete oracle run; partial: holds when no insertion is refused; for any tests: the unordered pairs joined by an edge are an invariant of every step (OrientPairs.v, PCAny.v) |
| C21 | `DirectLeftEdges` | acyclic orientation always exists; refuted on complete graphs (iterator invalidation) |
| C22 | `Counts2D/3D/3DGroup` | counting induction over rows |
| C23 | `ComputeGSquareXYZ(Group)` decision logic, statistic and p-value as oracles | equality when df>0; refuted for df=0; out-of-bounds for group > 8 |
| C24, C25 | `ParameterLearning` | counts; algebra; ROOT refuted for odd N |
| C26 | `FindRootsInDAGForest`, `AddRootNode` | component traversal |
| C27, C28 | `Dataset` load/store on character level (files as strings of codes) | induction over lines; refutations |
| C29-C31 | `Split`, `Trim*`, `NaryCount` | structural induction; mixed radix |
| C32-C34 | `Inference` constructor, `ArgMax`, `Accuracy`, `Predict` loop | induction; refutations |
| C35, C36 | `OrderEdge`, `FindCompelled`, `GetSHD` | refutations and partial results |
| C37 | forward sampling with an oracle for `discrete_distribution` | support and conditional dependence; measure of draws |
| C38, C39 | `AddCount`/`GetProbability`, BIF loader's `prob*10000` | exact error formula, bound, refutation of equality |
| C40 | `ParseParameters` over argv with bounds | refutation (fall-through) and partial correctness |
| C41, C42 | complete graph index, transposition | closed-form bijection |
| C43 | `SaveBNStructure` edge loop | refuted for empty edge list; for learned structures: every edge kept by the orientation has one of two shapes (LearnedProofs.v) |
| C44 | `OrientImplied`, rules | the list of directions set, each justified when set (OrientSound.v), for any network with agreeing families |
| C45 | `Round` over Qc | floor arithmetic |
| C46 | composition of C24, C08, C10 | learned tables are positive, so the evidence weight is non-zero |
| C47 | `learn_params` appends to the tables it is given | refuted by computation; exact effect proved |
| C48 | skeleton search + orientation with tests that answer by d-separation | skeleton exactness from the path criterion (adjacent nodes are never separated, parents separate non-adjacent nodes); colliders = v-structures; soundness of each rule in every equivalent DAG |
| C49 | the same with `DirectLeftEdges` | adjacencies and v-structures kept; refuted on a chain of three nodes; complete graphs end in an invalid iterator |
| C50 | `StoreCSVData` after the loaders | induction over rows and columns; refuted for empty cells in training data |
| C51 | `LoadBIFFile` on characters; `XMLBIFParser` on the texts of its elements | the loaders' histories of counts are permutations of each other; refuted for the standard table order |
| C52 | same run as C48 | completeness of the three rules: directed into one end of an undirected edge means directed into both; an order of the nodes in which earlier undirected neighbours are adjacent can start with either end of the edge, and directing along it gives an equivalent DAG |
| C53, C35 | C52's run followed by `GetSHD` | the labels of `FindCompelled` satisfy the same recursion as the edges directed by the orientation rules (`compelled_rule`), so the converted true graph is the essential graph; for true DAGs on which `FindCompelled` does not erase twice |
| C54 | `EvaluateAccuracy` with a reference file: `LoadGroundTruthProbabilityTable`, `CalculateMSE`, `CalculateHellingerDistance`, `Predict` in inference mode; `std::sqrt`, `std::stod` are parameters | the file is read into blocks that line up with the blocks of the answer; composed with C01; zero criterion for any injective non-negative root |
| C55 | the job `BNEI_JT`: `LoadXMLBIFFile`, `Dataset(Network*)`, `LoadCSVTestingData`, the evidence of the rows, `JunctionTree`, `EvaluateAccuracy` | composition of C38/C51, C50, C01 and C54; the distribution is stated on the contents of the file |
| C56 | the job `Sample_Generator`: network file, forward sampling, LIBSVM writer, LIBSVM reader with the maps of the network, CSV writer | composition of C38/C51, C37, C28 and C27 on the contents of the file; read-back with C50/C55 |
| C57 | the job `C_PCStable_JT`: both files, structure with ROOT, parameters, queries, predictions, accuracy | composition of C26/C27, C21 (families acyclic for any tests), C15, C23, C06, C31; transfer of the network theorems from edge lists to families |
| C58 | the job `BNL_PCStable` with both files as texts: `SaveBNStructure`, `SaveBNParameter` | table entries by configuration (C01), families acyclic for any tests (C21), essential graph (C20), counts by permutation of the edges |
| C59 | the jobs `BNSL_PCStable`, `BNL_PCStable`, `C_PCStable_JT` with a reference network: `LoadBIFFile`, `GetSHD` after learning | the loaded reference is the network of the file (C30), the learned structure is the essential graph (C20), distance as in C35 |
| C60 | the job `C_PCStable_JT` with both files: ROOT added before saving (PCStable.cpp L39-53), its name and values | as C58; the table of ROOT and the columns for it as in C25; edges of the result by permutation; families with ROOT acyclic for any tests |
| C61 | the variants of `Collect`/`Distribute` and `LoadEvidenceToNodes` in JunctionTree.cpp and Clique.cpp, not reached from `PredictUseJTInfer` (MessageModel.v) | each level function as a list of single messages; messages with different ends commute; any order in which children come before parents gives the same tables; zeroed entries: separators are 0 only where the clique below is 0, so 0/0 = 0 changes nothing |
| C62 | main.cpp, `GetLastPath` and the jobs with their file accesses (ProgramModel.v): a state of files and output that is kept when the job fails | composition of C40 with the jobs by following the binds; frame, completeness and append-only output proved once for each primitive and for bind |
| C63 | the members of `PotentialTableBase` that work on `potentialsICPT` and `pt_scores` (ImportanceModel.v): a factor with its two further arrays | each array with the shape of the factor is itself a factor, so the specifications of C02, C03 and C06 carry over; the accumulating sum is proved for any initial contents |
| C64 | a heap of objects with addresses that are never reused, every `new`, `delete` and dereference of the five jobs, faults as distinct outcomes (MemoryModel.v); answers of tests, orders of visits, tree shapes and queries are arguments | a logic of owned parts of the heap: a program is correct from a heap that splits into the parts it owns and forgotten ones; every function gets one rule, the jobs are sequences of rules |
| C65 | the inference code a second time with a function `rnd` applied to the result of every arithmetic operation (RoundModel.v); with the identity it is the model of C08 | a relation between the exact and the rounded run: equal shapes, entries equal up to a common factor per table and c to the power of a count; every function keeps it and adds to the counts; static bounds on the counts along the tree give a polynomial K |
| C66 | the sum of the code over `R` with `ln`, the comparison of the p-value with the level for an arbitrary distribution function, the check of the level (GSquareModel.v), on top of the loops of CellModel.v | Gibbs' inequality cell by cell with its equality case; sums over configurations reordered by induction on the permutation; counts of repeated rows; a finite maximum over all pairs and sets, then C52 |
| C67 | the functions of TableModel.v and JTModel.v again with a largest int, a product or sum beyond it being the outcome `Overflow` (IntModel.v) | refinement by induction on every loop; bounds on every table kept through evidence, messages and marginals; cliques contain every complete set of the moral graph; the family with a common child for every two roots |
| C68 | the loaders of DataModel.v | the number reader against a grammar of numbers; every line against its words, every word against its parts, both directions; induction on the lines of an arbitrary text |
| C69 | the CSV loaders of DataModel.v, with the string that a failed `getline` leaves unchanged | every line against its cells; a loop that reads cells fails exactly when one is missing; the coding of a wide row is that of its first cells; induction on the lines of an arbitrary text |
| C70 | LimitModel.v: the tests of CellModel.v with every product and sum of ints checked against the largest int | simulation up to overflow; intermediate values bounded by final ones; products over subsets of the variables; the search asks only for tests without repeated variables ([decides_apart]) |
| C71 | GRoundModel.v: the statistic, the p-value and the test of GSquareModel.v with every conversion and operation rounded, in the order of the code | the argument of the logarithm carries at most seven factors; a bound A^k (M + E) - M is kept by every operation and addition; the summands weigh 2N together and each logarithm is at most log N; decisions away from the level agree, hence the search does ([decides_apart]) |
| C72 | LearnRoundModel.v: ParameterLearning.cpp with every sum and quotient of doubles rounded | both runs count the same rows, so only the quotient differs: one error in numerator, denominator and quotient each; smoothed entries are positive, hence no evidence is impossible and C65 applies with three errors per entry |
| C73 | LearnModel.v (C24) against LikelihoodSpec.v | the likelihood regroups into one product per node and column of its table (powers by counts); Gibbs' inequality for rational weights, by the inequality of arithmetic and geometric means over the list of observations, with its equality case |
| C74 | LearnModel.v and JTModel.v against DSepSpec.v | two equivalent graphs are connected by reversals of edges x -> y whose ends have the same other parents (a least node with a differing incoming edge, and its last such parent, give one); such a reversal keeps the product of ratios of counts over the families, zero counts included |
| C75 | CopyModel.v: Network.cpp L31-54 (copy constructor), L153-163, L349-365 | the models of learning and inference read the nodes only; counting parents and children against the list of directed edges; uniform answers from the theorem on exact inference with no tables |
| C76 | LearnModel.v, PCModel.v, JTModel.v against RecoverSpec.v | the joint probability is the product over the nodes of chance of the family over chance of the parents; counts are marginals of row counts; the product of ratios does not change within an equivalence class (C74); bounds by the sensitivity of ratios, products and sums; the limit form by choosing the closeness and the number of rows from the bounds |
| C77 | JTModel.v, GSquareModel.v, PCModel.v against IndepSpec.v | a walk that is not blocked contains a path that is not blocked; barren nodes sum to 1; the families of the ancestors split into those that touch the part reachable from the variable and the others, so the sum factorises; with C01 this is about the answers, with C66 about the test |
| C78 | OrientModel.v, PCModel.v, LearnModel.v, JTModel.v against ExtendSpec.v | the arrows of the essential graph are kept, and a new collider needs two open edges at a node; conversely an order of the nodes along the forced arrows that puts two neighbours before the node is a draw under which no edge is refused; with C76 and C66 the rest of the pipeline follows |
| C79 | JTModel.v, UtilModel.v against BayesSpec.v | rows with the same evidence get the same label; among them the rows with a value are as many as its posterior says (C76), so the most probable value (C34) is right most often; a prediction from less evidence is a prediction from more; with nearly representative data each combination of the evidence loses at most 2We rows in proportion, W the number of combinations of the variables outside |
| C80 | SampleModel.v, GenModel.v, LearnModel.v, JTModel.v against SimulateSpec.v | a row is produced by the draws in a box whose volume is its probability (C37), so its frequency is within the discrepancy; margins by summation; then C76 and C79; the limit form by choosing the discrepancy and the number of samples from the explicit bounds |

## 4. Trusted base

* Coq 8.16.1 kernel (and `vm_compute`), the std++ and standard libraries.
* What `Print Assumptions` lists for each theorem: see section 5 (kept current).
* The faithfulness of the hand translation and the idealisations of section 1.

## 5. Assumptions listed by `Print Assumptions`

Every property theorem in `Properties_*.v` except those of C66 and C71 and four others (`C77_test`, `C77_learning`, `C78_answers`, `C79_from_data`) prints `Closed under the global context`: no axiom is
used, neither our own nor a library's. The theorems of C66 and C71 (`Properties_GSquare.v`, `Properties_GRound.v`) and these four (`Properties_Indep.v`, `Properties_Extend.v`, `Properties_Bayes.v`) speak about real numbers and
logarithms and rest on (some of) the axioms of the real numbers in Coq's standard library:
`ClassicalDedekindReals.sig_forall_dec`, `ClassicalDedekindReals.sig_not_dec`,
`FunctionalExtensionality.functional_extensionality_dep` and `Classical_Prop.classic`.
`coqchk -o` on the whole development additionally names seven entries
`Coq.ssr.ssrunder.Under_rel.*`: these are the fields of an opaque module of the ssreflect plugin that std++ loads;
no theorem here depends on them.

## 6. What is modelled and what is not

Modelled, function by function (each definition cites file and lines): the table operations, the graph and network
operations, junction-tree construction and message passing (Hugin, in all four implemented forms, with both
ways of entering evidence), the inference queries, counting and parameter
learning, the contingency tables, the statistic and the decision logic of the G-square test, the PC-stable skeleton search with
its parallel loops, edge orientation, the structural Hamming distance, the text utilities, the CSV and LIBSVM loaders and writers, the extraction of evidence
from test rows, the command-line parser, forward sampling, the BIF and XMLBIF loaders, the comparison with reference
probabilities, and the exact inference, sample generator, classification and learning jobs (with their output files and, for learning,
the comparison with a reference network) of `fastpgm_api.cpp`, and the program itself: `main.cpp` with the files it reads
and writes (a set of named files, each absent, complete or partly written) and the results and refusals it prints, and
(separately, C64) the heap objects of the five jobs of `fastpgm_api.cpp`: every `new`, `delete` and dereference.

Idealised: `double` as exact rationals (no rounding except in C65, C71 and C72, no overflow, NaN as the error `DivZero`); `int` as unbounded
integers except in C67 and C70 and where a comment says otherwise; the G-square statistic and its p-value (except in C66 and C71) as an arbitrary decision on the
exact counts; random numbers as an arbitrary stream; hash iteration orders and pointer orders as arbitrary orders;
OpenMP loops as arbitrary interleavings of their iterations (with the shared unprotected objects listed
separately); the OpenMP tasks of the recursive message passing run one after the other; files as strings of character codes read by `getline`; XMLBIF files as the texts of their elements; `std::stod` as an arbitrary partial function.

Not modelled: timing, the heap storage inside `std::vector`, `std::set` and `std::string`, console output other than the results and refusals of the program, the commented-out engines (`VariableElimination.cpp`,
`BruteForce.cpp`) and the build system. The repository contains no approximate inference engine (the help text names two).

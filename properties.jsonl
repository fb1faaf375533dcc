{"id": "C01", "title": "A factor has exactly one slot per configuration", "statement": "Converting a configuration of a factor's variables to its table position and back is lossless in both directions: every in-range configuration gets an in-range position, different configurations get different positions, and every position decodes to an in-range configuration that encodes back to it.", "quantifier": "all variable counts, all positive domain sizes, all configurations and all positions", "why_tests_cant": "The index arithmetic depends on the whole vector of domain sizes; tests sample a few shapes, mostly with equal domain sizes (the comment in Clique.cpp records that equal sizes hid an ordering bug).", "anchors": ["src/fastpgm/PotentialTableBase.cpp:GetConfigValueByTableIndex", "src/fastpgm/PotentialTableBase.cpp:GetTableIndexByConfigValue", "src/fastpgm/PotentialTableBase.cpp:ConstructCumLevels"]}
{"id": "C02", "title": "Conditioning a factor on evidence is exact slicing", "statement": "After conditioning a factor on X=e, X is gone from the factor's variables, the order of the others is kept, and for every configuration of the others the value equals the original factor's value at that configuration extended with X=e; conditioning the only variable leaves a scalar; a variable not in the factor or an out-of-range value is not silently accepted as evidence.", "quantifier": "all well-formed factors, all positions of the observed variable, all evidence values", "why_tests_cant": "Requires all shapes and all positions of the evidence variable; an off-by-one in the stride shows only for particular combinations of domain sizes.", "anchors": ["src/fastpgm/PotentialTableBase.cpp:TableReduction", "src/fastpgm/PotentialTableBase.cpp:TableReductionPre", "src/fastpgm/PotentialTableBase.cpp:TableReductionMain", "src/fastpgm/PotentialTableBase.cpp:TableReductionPost"]}
{"id": "C03", "title": "Marginalising a factor is exact summation", "statement": "Marginalising a factor to a subset of its variables gives a factor over exactly that subset whose value at each configuration is the sum of the original over all completions; summing out one variable has the same meaning; total mass is preserved; and the fast modulo variant agrees with it whenever the kept variables are the trailing ones.", "quantifier": "all well-formed factors, all subsets of kept variables in any order, all variables to sum out", "why_tests_cant": "The claim is about every shape, every subset and every order of the kept variables.", "anchors": ["src/fastpgm/PotentialTableBase.cpp:TableMarginalization", "src/fastpgm/PotentialTableBase.cpp:TableMarginalizationOneVariable", "src/fastpgm/PotentialTableBase.cpp:TableMarginalizationSimplified"]}
{"id": "C04", "title": "Multiplying and dividing factors is pointwise", "statement": "Multiplying a factor by another whose variables are a subset of its own gives, at every configuration, the product of the two values (whatever the order of variables in the two tables); extending a factor to a superset keeps its meaning; dividing gives the pointwise quotient with the convention x/0 = 0.", "quantifier": "all pairs of well-formed factors with one scope contained in the other, all variable orders", "why_tests_cant": "Correctness depends on the alignment of two independent variable orders and domain-size vectors.", "anchors": ["src/fastpgm/PotentialTableBase.cpp:TableMultiplication", "src/fastpgm/PotentialTableBase.cpp:TableExtension", "src/fastpgm/PotentialTableBase.cpp:TableDivision"]}
{"id": "C05", "title": "Reordering the storage of a factor does not change its meaning", "statement": "Re-organising a factor to another variable order (or moving the separator variables to the tail) is a permutation of its entries and leaves the value at every configuration unchanged; after the re-organisation the fast 'index mod separator size' mapping addresses the same separator entry as the general mapping.", "quantifier": "all well-formed factors, all target orders, all subsets moved to the tail", "why_tests_cant": "The optimised message passing silently relies on it for every clique/separator pair produced from any network.", "anchors": ["src/fastpgm/PotentialTableBase.cpp:TableReorganization", "src/fastpgm/PotentialTableBase.cpp:TableReorganizationPre", "src/fastpgm/inference/JunctionTree.cpp:ReorganizeTableStorage"]}
{"id": "C06", "title": "Normalisation yields a distribution or is undefined", "statement": "Normalising a factor with non-zero mass rescales every entry by the same constant and the result sums to one; normalising a conditional table rescales each parent configuration separately so each sums to one; with zero mass plain normalisation divides by zero while the conditional variant leaves the zero block unchanged.", "quantifier": "all non-negative factors, all numbers of parents", "why_tests_cant": "Zero-mass blocks and unusual shapes are rare in test data.", "anchors": ["src/fastpgm/PotentialTableBase.cpp:Normalize", "src/fastpgm/PotentialTableBase.cpp:NormalizeCPT"]}
{"id": "C07", "title": "The general product of two factors is their product", "statement": "The product of any two factors, extended to the union of their variables, is the pointwise product - including when one of them is a scalar left by full conditioning, and when both have the same variables in different orders.", "quantifier": "all pairs of well-formed factors", "why_tests_cant": "The failing cases (scalar left operand, same scope in different order) are not reached by tests on complete CPTs.", "anchors": ["src/fastpgm/PotentialTableBase.cpp:TableMultiplicationTwoExtension", "src/fastpgm/PotentialTableBase.cpp:TableMultiplicationOneVariable"]}
{"id": "C08", "title": "Junction-tree inference is exact", "statement": "For every discrete Bayesian network whose moral graph is connected, every evidence with positive probability and every unobserved query variable, the distribution returned by the junction-tree engine equals the posterior obtained by multiplying all conditional probability tables, fixing the evidence, summing out everything else and normalising.", "quantifier": "all connected networks, all CPT values >= 0, all evidence sets of positive probability, all query variables, all thread counts, all memory addresses of cliques/separators (tie breaking)", "why_tests_cant": "Exactness is a statement over all networks and evidence; tests compare accuracy numbers on a few fixed datasets.", "anchors": ["src/fastpgm/inference/JunctionTree.cpp:PredictUseJTInfer", "src/fastpgm/inference/JunctionTree.cpp:Collect", "src/fastpgm/inference/JunctionTree.cpp:Distribute", "src/fastpgm/inference/JunctionTree.cpp:CalculateMarginalProbability", "src/fastpgm/inference/JunctionTreeStructure.cpp:AssignPotentials"]}
{"id": "C09", "title": "The constructed clique tree is a junction tree", "statement": "For every network with connected moral graph the constructed structure is a tree over the cliques, every family (node with its parents) is contained in some clique, no clique is contained in another, separators are the intersections of their end cliques, and any two cliques share only variables found in every clique on the path between them.", "quantifier": "all DAGs with connected moral graph, all elimination tie-breaks, all orders in which equal-weight separators are visited", "why_tests_cant": "The running intersection property depends on global graph structure; a greedy tie-break error shows only on particular graphs and memory layouts.", "anchors": ["src/fastpgm/inference/JunctionTreeStructure.cpp:Moralize", "src/fastpgm/inference/JunctionTreeStructure.cpp:Triangulate", "src/fastpgm/inference/JunctionTreeStructure.cpp:FormJunctionTree"]}
{"id": "C10", "title": "Building a junction tree never crashes on a valid network", "statement": "Constructing the inference engine for any valid discrete network (any DAG, including one with isolated nodes or several components) succeeds.", "quantifier": "all DAGs", "why_tests_cant": "Only networks with several connected components expose it; learned test networks are patched with a ROOT node.", "anchors": ["src/fastpgm/inference/JunctionTreeStructure.cpp:FormJunctionTree", "src/fastpgm/fastpgm_api/fastpgm_api.cpp:BNEI_JT"]}
{"id": "C11", "title": "Parallel table loops give the same result for every thread schedule", "statement": "The flattened parallel loops (evidence loading, marginalisation and extension index computation, multiplication) compute the same tables for every number of threads and every order in which iterations are executed: each flattened index addresses exactly one entry of exactly one table, distinct iterations write distinct cells and no iteration reads a cell another writes.", "quantifier": "all tree levels, all lists of table sizes, all iteration orders / thread counts", "why_tests_cant": "Schedules cannot be enumerated by tests and a race may never show on the test machine.", "anchors": ["include/fastpgm/inference/JunctionTree.h:Compute2DIndex", "src/fastpgm/inference/JunctionTree.cpp:SeparatorLevelCollectionOptimized", "src/fastpgm/inference/JunctionTree.cpp:CliqueLevelCollection", "src/fastpgm/inference/JunctionTree.cpp:LoadEvidenceToNodesOptimized"]}
{"id": "C12", "title": "Queries do not influence each other", "statement": "The answer to a query on a junction-tree engine depends only on that query's evidence, not on which queries were answered before: each prediction restores the engine to its state after construction.", "quantifier": "all sequences of queries of any length", "why_tests_cant": "History independence ranges over all query sequences.", "anchors": ["src/fastpgm/inference/JunctionTree.cpp:ResetJunctionTree", "src/fastpgm/inference/JunctionTree.cpp:BackUpJunctionTree", "src/fastpgm/inference/JunctionTree.cpp:Predict"]}
{"id": "C13", "title": "Cycle detection is exact", "statement": "The cycle check answers true exactly when the directed graph contains a directed cycle.", "quantifier": "all directed graphs of any size (including self loops), with in-degrees computed from the graph", "why_tests_cant": "Both directions quantify over all graphs.", "anchors": ["src/fastpgm/common.cpp:DirectedGraphContainsCircle", "src/fastpgm/Network.cpp:ContainCircle"]}
{"id": "C14", "title": "Topological order is a topological order", "statement": "For every acyclic network the returned order contains every node exactly once and every edge goes forward; for cyclic graphs the returned sequence is strictly shorter.", "quantifier": "all directed graphs", "why_tests_cant": "All graphs; also the order is cached, so it depends on the edit history.", "anchors": ["src/fastpgm/common.cpp:TopoSortOfDAGZeroInDegreeFirst", "src/fastpgm/Network.cpp:GenTopoOrd", "src/fastpgm/Network.cpp:GetTopoOrd"]}
{"id": "C15", "title": "Editing edges keeps a network consistent and acyclic", "statement": "After any sequence of adding and deleting directed edges starting from an edgeless network, the network is acyclic, and a node's recorded parents/children are exactly those given by the directed edges; adding an edge that would close a cycle is refused and leaves edges, parents and children as before.", "quantifier": "all sequences of AddDirectedEdge/DeleteDirectedEdge calls between existing distinct nodes", "why_tests_cant": "Histories are unbounded; the rollback path needs a cycle-closing insertion.", "anchors": ["src/fastpgm/Network.cpp:AddDirectedEdge", "src/fastpgm/Network.cpp:DeleteDirectedEdge", "src/fastpgm/Network.cpp:SetParentChild", "src/fastpgm/Network.cpp:RemoveParentChild"]}
{"id": "C16", "title": "Parent configurations match the parents", "statement": "After adding any sequence of parents, a node's recorded set of parent configurations is exactly the set of all joint assignments to its current parents; removing a parent restores exactly the configurations of the remaining parents.", "quantifier": "all sequences of AddParent/RemoveParent with arbitrary domain sizes", "why_tests_cant": "Needs add/remove histories with parents of different domain sizes.", "anchors": ["src/fastpgm/Node.cpp:AddDiscreteParent", "src/fastpgm/Node.cpp:RemoveParent"]}
{"id": "C17", "title": "The choice generator enumerates every subset exactly once", "statement": "For 0 < b <= a, successive calls to Next() return every b-element subset of {0..a-1} exactly once, in lexicographic order with increasing elements, and then the empty choice forever; asking for choices in groups of n returns the same sequence chopped in groups of n.", "quantifier": "all a, b, all group sizes, all numbers of calls", "why_tests_cant": "PC-stable's correctness depends on it for every neighbourhood size and depth.", "anchors": ["src/fastpgm/ChoiceGenerator.cpp:Next", "src/fastpgm/ChoiceGenerator.cpp:NextN"]}
{"id": "C18", "title": "The PC-stable skeleton does not depend on order, grouping or threads", "statement": "Given a deterministic conditional-independence decision, the skeleton found at each depth is the same for every edge order, test group size and thread schedule, and equals the order-free PC-stable definition: an edge is removed at depth d exactly when some d-subset of the neighbours (in the graph at the start of that depth) of one of its end points is judged to separate them.", "quantifier": "all data sets (through an arbitrary CI oracle), all variable counts, all depths, all group sizes >= 1, all batch/stack schedules", "why_tests_cant": "Order independence ('stable') is a statement about all permutations and groupings.", "anchors": ["src/fastpgm/structure_learning/PCStable.cpp:SearchAtDepth", "src/fastpgm/structure_learning/PCStable.cpp:CheckEdge", "src/fastpgm/structure_learning/PCStable.cpp:Testing"]}
{"id": "C19", "title": "Every removed edge has a valid separating set", "statement": "After skeleton search, two variables are non-adjacent exactly when a separating set was recorded for them; each recorded set was judged separating by the CI test, does not contain the two variables, and has the size of the depth at which the edge was removed.", "quantifier": "all CI oracles, all variable counts, group sizes and schedules", "why_tests_cant": "Invariant over the whole search.", "anchors": ["src/fastpgm/structure_learning/PCStable.cpp:StructLearnByPCStable", "src/fastpgm/structure_learning/PCStable.cpp:Testing"]}
{"id": "C20", "title": "Collider orientation never leaves a contradictory edge", "statement": "After v-structure orientation every pair of variables adjacent in the skeleton is connected by exactly one edge (directed or undirected), and no pair has both an undirected and a directed edge.", "quantifier": "all skeletons and separating-set maps reachable from some CI oracle", "why_tests_cant": "The failing case needs a cycle-closing collider in the middle of an orientation sequence.", "anchors": ["src/fastpgm/structure_learning/PCStable.cpp:OrientVStructure", "src/fastpgm/Network.cpp:AddDirectedEdge"]}
{"id": "C21", "title": "Extending a learned pattern to a DAG is safe", "statement": "Turning the remaining undirected edges into directed ones yields a DAG with the same skeleton, for every partially directed acyclic pattern, without terminating the program or touching invalid memory.", "quantifier": "all partially directed acyclic graphs", "why_tests_cant": "The invalid-memory case needs a complete graph (vector at capacity).", "anchors": ["src/fastpgm/structure_learning/StructureLearning.cpp:DirectLeftEdges", "src/fastpgm/structure_learning/StructureLearning.cpp:Direct", "src/fastpgm/Network.cpp:GenerateUndirectedCompleteGraph"]}
{"id": "C22", "title": "Contingency tables are exact counts", "statement": "For every data set, the cell (x,y,z) of the table built for a CI test is the number of rows with X=x, Y=y and conditioning variables equal to the configuration numbered z, the marginal tables are the sums of the cells, and building a group of tables at once gives the same counts as building each alone.", "quantifier": "all data sets, all X, Y, conditioning sets of any size, all group sizes", "why_tests_cant": "Counts depend on all data; tests check one data set's final graph only.", "anchors": ["src/fastpgm/structure_learning/CellTable.cpp:FillTable", "src/fastpgm/structure_learning/CellTable.cpp:FillTableGroup"]}
{"id": "C23", "title": "Testing in groups decides as testing one at a time", "statement": "The independence decision for (X,Y|Z) does not depend on whether it was made alone or as part of a group of tests, for any group size the user passes.", "quantifier": "all data sets, all group sizes", "why_tests_cant": "The difference shows only for tests with zero degrees of freedom or group sizes above eight.", "anchors": ["src/fastpgm/structure_learning/IndependenceTest.cpp:ComputeGSquareXYZ", "src/fastpgm/structure_learning/IndependenceTest.cpp:ComputeGSquareXYZGroup"]}
{"id": "C24", "title": "Learned CPTs are smoothed relative frequencies", "statement": "After parameter learning on a complete data set, the entry for X=x given parents=u equals (N(x,u)+a)/(N(u)+a*r) with r the number of values of X, every entry is positive and every column sums to one.", "quantifier": "all DAGs, all complete data sets, all smoothing constants > 0", "why_tests_cant": "The claim ranges over all data and structures.", "anchors": ["src/fastpgm/parameter_learning/ParameterLearning.cpp:LearnParamsKnowStructCompData"]}
{"id": "C25", "title": "The artificial ROOT variable gets a probability distribution", "statement": "When learning parameters for a network with an added ROOT node, ROOT's own table is a probability distribution.", "quantifier": "all data set sizes and smoothing constants", "why_tests_cant": "Fails only for odd sample sizes.", "anchors": ["src/fastpgm/parameter_learning/ParameterLearning.cpp:LearnParamsKnowStructCompData"]}
{"id": "C26", "title": "Adding ROOT connects the network", "statement": "Adding the ROOT node to any DAG yields a DAG that is connected (one edge from ROOT to exactly one parentless node in each component).", "quantifier": "all DAGs with any number of components", "why_tests_cant": "Depends on arbitrary graph shapes.", "anchors": ["src/fastpgm/structure_learning/StructureLearning.cpp:FindRootsInDAGForest", "src/fastpgm/structure_learning/StructureLearning.cpp:AddRootNode"]}
{"id": "C27", "title": "CSV value coding is a faithful dictionary", "statement": "Loading a training CSV assigns to every variable's distinct strings the identifiers 0,1,2,... in order of first appearance, consistently for all rows, so decoding the stored rows gives back the file's cells; loading a test CSV with that dictionary codes known values identically and omits unknown or empty cells.", "quantifier": "all rectangular CSV contents, all numbers of rows and columns", "why_tests_cant": "All files.", "anchors": ["src/fastpgm/Dataset.cpp:LoadCSVTrainingData", "src/fastpgm/Dataset.cpp:LoadCSVTestingData"]}
{"id": "C28", "title": "LIBSVM files survive a store/load round trip", "statement": "Writing a discrete data set in LIBSVM format and loading it again gives the same rows: same number of instances, same number of variables and same values.", "quantifier": "all discrete data sets", "why_tests_cant": "Fails on trailing all-zero columns and on files without final newline, which typical fixtures avoid.", "anchors": ["src/fastpgm/Dataset.cpp:StoreLIBSVMData", "src/fastpgm/Dataset.cpp:LoadLIBSVMTrainingData", "src/fastpgm/Dataset.cpp:LoadLIBSVMTestingData"]}
{"id": "C29", "title": "Splitting a string loses nothing", "statement": "Splitting a string at the delimiter characters returns one more piece than there are delimiter characters, no piece contains a delimiter, and re-joining the pieces with the delimiters found gives back the string.", "quantifier": "all strings and delimiter sets", "why_tests_cant": "All strings, including empty pieces at either end.", "anchors": ["src/fastpgm/common.cpp:Split"]}
{"id": "C30", "title": "Trimming removes exactly white space", "statement": "Trimming removes exactly the maximal run of blank/control characters on the side(s) named and nothing else; it is idempotent and never removes a printable or non-ASCII character.", "quantifier": "all byte strings", "why_tests_cant": "Non-ASCII bytes are negative as signed chars; tests use ASCII data.", "anchors": ["src/fastpgm/common.cpp:TrimRight", "src/fastpgm/common.cpp:TrimLeft", "src/fastpgm/common.cpp:Trim"]}
{"id": "C31", "title": "N-ary counting lists every configuration exactly once in the documented order", "statement": "Given the number of values of each digit, the counter returns each combination exactly once, first digit most significant and second digit least significant; with no digits it is undefined.", "quantifier": "all lists of positive ranges", "why_tests_cant": "The assignment of numbers of an XMLBIF table to configurations relies on it for every number of parents.", "anchors": ["src/fastpgm/common.cpp:NaryCount", "src/fastpgm/XMLBIFParser.cpp:AssignProbsToNodes"]}
{"id": "C32", "title": "Evidence and ground truth come from the right variables", "statement": "For every test row, the evidence given to inference consists of exactly the row's observed non-class variables and the ground truth is the row's class value.", "quantifier": "all test rows, complete or with missing cells", "why_tests_cant": "Wrong only for rows with a missing cell before the class column.", "anchors": ["src/fastpgm/inference/Inference.cpp:Inference"]}
{"id": "C33", "title": "Prediction returns a most probable value", "statement": "The predicted label is the smallest value with maximal posterior probability; accuracy is the fraction of rows predicted correctly.", "quantifier": "all non-negative distributions with positive mass, all prediction/ground-truth vectors", "why_tests_cant": "All distributions, ties included.", "anchors": ["src/fastpgm/inference/Inference.cpp:ArgMax", "src/fastpgm/inference/Inference.cpp:Accuracy"]}
{"id": "C34", "title": "Prediction works for any number of test rows", "statement": "Predicting labels for a test set of any size succeeds.", "quantifier": "all test-set sizes", "why_tests_cant": "Bundled test sets all have at least 20 rows.", "anchors": ["src/fastpgm/inference/JunctionTree.cpp:Predict"]}
{"id": "C35", "title": "Structural Hamming distance is well defined", "statement": "Comparing two learned/true graphs never crashes, is zero when the equivalence classes' edges agree pairwise, and counts each node pair at most once.", "quantifier": "all pairs of DAG / pattern over the same nodes", "why_tests_cant": "A node with three pairwise non-adjacent parents triggers the failing path; bundled comparisons may avoid it.", "anchors": ["src/fastpgm/structure_learning/BNSLComparison.cpp:GetSHD", "src/fastpgm/Network.cpp:FindCompelled", "src/fastpgm/Network.cpp:OrderEdge"]}
{"id": "C36", "title": "Edges are ordered as the algorithm requires", "statement": "Ordering the edges of a DAG sorts them by increasing topological position of the head and, for equal heads, by decreasing topological position of the tail, listing each edge exactly once.", "quantifier": "all DAGs", "why_tests_cant": "All DAGs and topological orders.", "anchors": ["src/fastpgm/Network.cpp:OrderEdge"]}
{"id": "C37", "title": "Forward sampling draws from the network", "statement": "A generated sample assigns every variable a value within its domain, the value of each variable depends only on its parents' sampled values, and with exact uniform draws the probability (measure of the draws) of a sample is the product of its conditional probabilities; values of probability zero are never drawn.", "quantifier": "all DAGs, all CPTs, all draws", "why_tests_cant": "Distributional statement over all networks.", "anchors": ["src/fastpgm/SampleSetGenerator.cpp:GenerateSamplesBasedOnCPTs", "src/fastpgm/Network.cpp:GetTopoOrd"]}
{"id": "C38", "title": "Loading a BIF network preserves its probabilities", "statement": "The conditional probabilities of a loaded BIF network equal those in the file.", "quantifier": "all BIF files with up to four decimals", "why_tests_cant": "The deviation is small and never asserted by tests.", "anchors": ["src/fastpgm/CustomNetwork.cpp:LoadBIFFile", "src/fastpgm/DiscreteNode.cpp:AddCount", "src/fastpgm/DiscreteNode.cpp:GetProbability"]}
{"id": "C39", "title": "Counting yields smoothed conditional probabilities", "statement": "After any sequence of counts added to a discrete node, the reported probability of a value given a parent configuration is (count+a)/(total+a*r) for the counts added under that configuration; it sums to one over the values and is uniform for unseen configurations.", "quantifier": "all histories of AddCount calls", "why_tests_cant": "Histories are unbounded.", "anchors": ["src/fastpgm/DiscreteNode.cpp:AddCount", "src/fastpgm/DiscreteNode.cpp:GetProbability", "src/fastpgm/DiscreteNode.cpp:InitializeCPT"]}
{"id": "C40", "title": "Command-line options are parsed as documented", "statement": "Every documented option sets exactly its own parameter, independently of the order and of the other options; a missing value is reported rather than read past the argument list.", "quantifier": "all argument lists", "why_tests_cant": "A fall-through case corrupts an unrelated option only for particular values.", "anchors": ["src/fastpgm/Parameter.cpp:ParseParameters"]}
{"id": "C41", "title": "The complete graph stores each pair at its own position", "statement": "The initial complete undirected graph contains each unordered pair of distinct variables exactly once, at the position computed for it by the parallel initialisation, with no position written twice.", "quantifier": "all variable counts, all thread schedules", "why_tests_cant": "All n; parallel writes.", "anchors": ["src/fastpgm/Network.cpp:GenerateUndirectedCompleteGraph"]}
{"id": "C42", "title": "Column-major data equals row-major data", "statement": "The column-major copy used for CI tests holds exactly the row-major values transposed.", "quantifier": "all data sets", "why_tests_cant": "All sizes.", "anchors": ["src/fastpgm/Dataset.cpp:RowMajor2ColumnMajor", "src/fastpgm/Dataset.cpp:Vector2IntArray"]}
{"id": "C43", "title": "Saving a learned network never crashes", "statement": "Saving the structure of any learned network succeeds, including a network with no edges.", "quantifier": "all networks", "why_tests_cant": "Only the independent-data corner case has no edge.", "anchors": ["src/fastpgm/structure_learning/StructureLearning.cpp:SaveBNStructure"]}
{"id": "C44", "title": "Implied orientations are sound", "statement": "Every edge oriented by the implication rules is oriented as one of the three documented rules demands (avoiding a new collider or a directed cycle), the skeleton is unchanged and the directed part stays acyclic.", "quantifier": "all patterns", "why_tests_cant": "All graphs and all rule-application orders.", "anchors": ["src/fastpgm/structure_learning/PCStable.cpp:OrientImplied", "src/fastpgm/structure_learning/PCStable.cpp:Rule1", "src/fastpgm/structure_learning/PCStable.cpp:Rule2", "src/fastpgm/structure_learning/PCStable.cpp:Rule3"]}
{"id": "C45", "title": "Rounding is to the nearest decimal", "statement": "Rounding a non-negative number to b decimals gives the nearest multiple of 10^-b (ties up).", "quantifier": "all non-negative numbers (exact arithmetic), all b", "why_tests_cant": "All values.", "anchors": ["src/fastpgm/inference/Inference.cpp:Round"]}
{"id": "C46", "title": "A learned network answers every query exactly", "statement": "Parameters learned with positive smoothing from complete data, followed by building the inference engine, always succeed on a connected network (or on any network after the artificial root is added), and every query with evidence in range returns the exact posterior of the distribution given by the smoothed relative frequencies.", "quantifier": "all DAGs, all complete data sets, all positive smoothing constants, all evidence, all schedules of the parallel loops, all random choices", "why_tests_cant": "It is a statement about all data sets, networks and schedules.", "anchors": ["src/fastpgm/parameter_learning/ParameterLearning.cpp:LearnParamsKnowStructCompData", "src/fastpgm/inference/JunctionTree.cpp:PredictUseJTInfer"]}
{"id": "C47", "title": "Learning parameters again replaces the old parameters", "statement": "Calling parameter learning a second time on the same network and data leaves the answers of the inference engine unchanged.", "quantifier": "all networks, all data sets", "why_tests_cant": "Tests learn once per network; the property is about histories of calls.", "anchors": ["src/fastpgm/parameter_learning/ParameterLearning.cpp:LearnParamsKnowStructCompData", "src/fastpgm/inference/JunctionTreeStructure.cpp:AssignPotentials"]}
{"id": "C48", "title": "PC-stable recovers the pattern of a DAG from perfect tests", "statement": "When the independence tests answer exactly by d-separation in some DAG, structure learning returns a graph with exactly the adjacencies of that DAG, in which every v-structure of the DAG is directed, and in which every directed edge has the direction it has in every DAG that is Markov equivalent to the true one; it terminates without touching invalid memory.", "quantifier": "all DAGs on any number of nodes, all test functions that answer by d-separation, all group sizes, thread schedules and search depths above the largest number of parents", "why_tests_cant": "Quantifies over all DAGs and over all members of each Markov equivalence class.", "anchors": ["src/fastpgm/structure_learning/PCStable.cpp:StructLearnByPCStable", "src/fastpgm/structure_learning/PCStable.cpp:OrientVStructure", "src/fastpgm/structure_learning/PCStable.cpp:OrientImplied"]}
{"id": "C49", "title": "The learned DAG stays in the learned equivalence class", "statement": "When the learned pattern is extended to a DAG (the default output), the DAG has the adjacencies and the v-structures of the pattern and no other v-structures, so that it belongs to the learned Markov equivalence class.", "quantifier": "all DAGs with perfect tests, all coin tosses of the extension", "why_tests_cant": "All graphs and all random choices.", "anchors": ["src/fastpgm/structure_learning/StructureLearning.cpp:DirectLeftEdges", "src/fastpgm/structure_learning/PCStable.cpp:StructLearnByPCStable"]}
{"id": "C50", "title": "CSV files survive a load/store round trip", "statement": "Loading a CSV training file and storing the data set writes a file with the same header and the same cells; loading a test file with a dictionary and storing it writes the same cells with the unknown ones emptied, and loading that file gives the same data set.", "quantifier": "all rectangular CSV contents, all dictionaries", "why_tests_cant": "The cells are arbitrary strings and may be empty, unknown or repeated in any pattern.", "anchors": ["src/fastpgm/Dataset.cpp:StoreCSVData", "src/fastpgm/Dataset.cpp:LoadCSVTrainingData", "src/fastpgm/Dataset.cpp:LoadCSVTestingData"]}
{"id": "C51", "title": "BIF and XMLBIF forms of a network load to the same network", "statement": "Loading the BIF file and the XMLBIF file of the same network yields the same variables, values, arcs and conditional probability tables.", "quantifier": "all networks with complete tables, all texts of them in both formats", "why_tests_cant": "The two loaders index their tables differently; an error shows only for particular numbers of parents and values.", "anchors": ["src/fastpgm/CustomNetwork.cpp:LoadBIFFile", "src/fastpgm/XMLBIFParser.cpp:AssignProbsToNodes", "src/fastpgm/XMLBIFParser.cpp:GetUnconnectedNodes", "src/fastpgm/common.cpp:NaryCount"]}
{"id": "C52", "title": "PC-stable returns the essential graph of the true DAG", "statement": "When the independence tests answer exactly by d-separation in some DAG, the pattern returned by structure learning is the essential graph of that DAG: an edge is directed x to y exactly when all DAGs that are Markov equivalent to the true one have it that way, and it is left undirected exactly when some equivalent DAG has it one way and some equivalent DAG has it the other way.", "quantifier": "all DAGs on any number of nodes, all test functions that answer by d-separation, all group sizes, thread schedules and search depths above the largest number of parents", "why_tests_cant": "That no further edge could have been directed is a statement about all DAGs of the equivalence class (completeness of the orientation rules); a test can only compare single graphs.", "anchors": ["src/fastpgm/structure_learning/PCStable.cpp:StructLearnByPCStable", "src/fastpgm/structure_learning/PCStable.cpp:OrientVStructure", "src/fastpgm/structure_learning/PCStable.cpp:OrientImplied"]}
{"id": "C53", "title": "Learning with perfect tests is at structural Hamming distance 0", "statement": "Learning a structure with independence tests that answer by d-separation in the true DAG, and then comparing the learned graph with the true DAG, reports a structural Hamming distance of 0.", "quantifier": "all true DAGs with at least one edge, all test functions that answer by d-separation, all group sizes, thread schedules and search depths above the largest number of parents", "why_tests_cant": "It joins the completeness of the orientation rules with the labelling of compelled edges in the comparison; both are statements about all DAGs, and the comparison is known to fail on some.", "anchors": ["src/fastpgm/structure_learning/BNSLComparison.cpp:GetSHD", "src/fastpgm/Network.cpp:FindCompelled", "src/fastpgm/Network.cpp:OrderEdge", "src/fastpgm/structure_learning/PCStable.cpp:StructLearnByPCStable"]}
{"id": "C54", "title": "Errors against a reference file", "statement": "In inference mode with a file of reference probabilities, the two numbers reported are the averages over the test cases of the root mean square difference between the posterior probabilities (rounded to seven decimals) and the reference probabilities, and of the root mean square difference between their square roots, taken over all values of unobserved nodes with positive reference probability; either number is 0 exactly when all compared probabilities agree.", "quantifier": "all networks and tables a junction tree can be built from, all schedules, all evidence lists of positive probability, all reference files with one line per node and test case", "why_tests_cant": "The alignment of the reference file with the flattened answers depends on which nodes are observed in each test case and on all domain sizes.", "anchors": ["src/fastpgm/inference/Inference.cpp:EvaluateAccuracy", "src/fastpgm/inference/Inference.cpp:LoadGroundTruthProbabilityTable", "src/fastpgm/inference/Inference.cpp:CalculateMSE", "src/fastpgm/inference/Inference.cpp:CalculateHellingerDistance", "src/fastpgm/inference/JunctionTree.cpp:Predict"]}
{"id": "C55", "title": "Exact inference from files", "statement": "Running exact inference (junction tree) on a network file, a CSV test file and a file of reference probabilities prints errors that compare the reference with the posterior probabilities of the distribution described by the network file, given the observed cells of each test row; empty cells and cells that name no value of their variable count as unobserved.", "quantifier": "all proper connected network files, all CSV test files with a column per variable and at least twenty rows, all reference files, all orders of hash tables and all schedules", "why_tests_cant": "The result passes through the file loaders, the dictionaries of values, evidence extraction, tree construction, message passing and the comparison; a shift of a row, a column or a dictionary in any of them can cancel out on a given sample.", "anchors": ["src/fastpgm/fastpgm_api/fastpgm_api.cpp:BNEI_JT", "src/fastpgm/Dataset.cpp:LoadCSVTestingData", "src/fastpgm/CustomNetwork.cpp:LoadXMLBIFFile", "src/fastpgm/inference/Inference.cpp:EvaluateAccuracy", "src/fastpgm/inference/JunctionTree.cpp:JunctionTree"]}
{"id": "C56", "title": "The sample generator job", "statement": "Generating a sample set from a network file writes, for any number of samples, samples drawn from the distribution of the file: for uniform draws each sample appears with its joint probability in the network file, the LIBSVM file reads back as exactly the drawn samples, and the CSV file lists the names of the variables and, per sample, the names of its values, so that the other jobs read it with every cell observed.", "quantifier": "all proper network files, all class variables within range, all numbers of samples and all draws", "why_tests_cant": "The files of a random run cannot be compared with an expected output; a swapped column, a class variable written to the wrong place or a wrong parent configuration leaves files that look right.", "anchors": ["src/fastpgm/fastpgm_api/fastpgm_api.cpp:Sample_Generator", "src/fastpgm/SampleSetGenerator.cpp:GenerateSamplesBasedOnCPTs", "src/fastpgm/SampleSetGenerator.cpp:OutputLIBSVM", "src/fastpgm/Dataset.cpp:LoadLIBSVMTestingData", "src/fastpgm/Dataset.cpp:StoreCSVData"]}
{"id": "C57", "title": "The classification job", "statement": "Classifying a test file with a network learned from a training file reports the fraction of the test rows whose class, in the first column, is the first of the most probable classes under the learned distribution given the other known cells of the row. The learned distribution is the product of the add-one smoothed relative frequencies of the training rows along the learned structure, which has no cycle. This holds for test files of at least twenty rows whose classes all occur in the training file; the job fails only if learning the structure fails.", "quantifier": "all training and test tables with the same number of columns, all outcomes of the independence tests, all coin flips, hash orders and thread schedules", "why_tests_cant": "The reported number depends on every stage from the text files to the last division; a stage that mixes up two columns, codes or rows still reports a plausible accuracy, and no test has an independent value to compare with for all files.", "anchors": ["src/fastpgm/fastpgm_api/fastpgm_api.cpp:C_PCStable_JT", "src/fastpgm/structure_learning/PCStable.cpp:StructLearnCompData", "src/fastpgm/inference/Inference.cpp:GetAccuracy", "src/fastpgm/Dataset.cpp:LoadCSVTestingData"]}
{"id": "C58", "title": "The learning job and its files", "statement": "Learning a network from a CSV file writes a parameter file with exactly one line for every value of every variable and all values of its parents, with the names and values of the file and the add-one smoothed relative frequency in its rows; after the structure is learned, nothing fails. If the tests are those of a directed graph with an edge, the structure file lists exactly the edges of the essential graph of that graph, each once and numbered, under the right number of nodes and edges.", "quantifier": "all training tables with distinct column names, all outcomes of the independence tests (for the structure file: all directed acyclic graphs whose d-separations the tests answer), all coin flips and thread schedules", "why_tests_cant": "The files have one line per configuration of every family, so that their correctness is a statement about all tables; a test would compare with files produced by the same program.", "anchors": ["src/fastpgm/fastpgm_api/fastpgm_api.cpp:BNL_PCStable", "src/fastpgm/parameter_learning/ParameterLearning.cpp:SaveBNParameter", "src/fastpgm/structure_learning/StructureLearning.cpp:SaveBNStructure", "src/fastpgm/DiscreteNode.cpp:GetValueNameByIndex"]}
{"id": "C59", "title": "Comparison of a learned structure with a reference network", "statement": "If a reference network file is given to the learning jobs, they write the same files as without it and report a distance that is 0 exactly if the learned structure represents the Markov equivalence class of the reference.", "quantifier": "all training tables, all reference networks in BIF files and all texts of them, all directed acyclic graphs whose d-separations the tests answer, all coin flips, thread schedules and choices of files to save", "why_tests_cant": "A test compares with one reference file; the claim is about every reference and about every layout and naming of it.", "anchors": ["src/fastpgm/fastpgm_api/fastpgm_api.cpp:BNSL_PCStable", "src/fastpgm/fastpgm_api/fastpgm_api.cpp:BNL_PCStable", "src/fastpgm/fastpgm_api/fastpgm_api.cpp:C_PCStable_JT", "src/fastpgm/structure_learning/BNSLComparison.cpp:GetSHD", "src/fastpgm/CustomNetwork.cpp:LoadBIFFile"]}
{"id": "C60", "title": "Files of the classification job", "statement": "The classification job can save the structure and the parameters it classifies with: the structure file lists exactly the arcs of the learned directed graph and the arcs from the added node ROOT into each connected component, with the right numbers of nodes and edges; the parameter file has exactly one line for every value of every variable and of ROOT and all values of its parents, with the probability used for the classification; saving does not change the accuracy.", "quantifier": "all training tables with distinct column names and all test files, all outcomes of the independence tests (for the exact structure file: all directed acyclic graphs with two non-adjacent variables whose d-separations the tests answer), all coin flips, thread schedules and choices of files to save", "why_tests_cant": "The files have one line per configuration of every family of a structure that depends on the data and on random orientations; a test would compare with files produced by the same program.", "anchors": ["src/fastpgm/fastpgm_api/fastpgm_api.cpp:C_PCStable_JT", "src/fastpgm/structure_learning/PCStable.cpp:StructLearnCompData", "src/fastpgm/structure_learning/StructureLearning.cpp:AddRootNode", "src/fastpgm/structure_learning/StructureLearning.cpp:SaveBNStructure", "src/fastpgm/parameter_learning/ParameterLearning.cpp:SaveBNParameter"]}
{"id": "C61", "title": "All implemented forms of message passing and of entering evidence agree", "statement": "The engine implements message passing in several forms (with precomputed positions, without, level by level, recursively from the root) and two ways of entering evidence (removing the observed variables from the tables, or zeroing the contradicting entries). Whichever is called, the answers for the unobserved variables are the exact posteriors; the four forms of message passing leave identical tables; with the second way of entering evidence an observed variable gets all probability on its observed value; impossible evidence is never answered with numbers.", "quantifier": "all networks and non-negative tables, all memory orders and thread schedules, all evidence (with at most one value per variable for the exact posteriors), all variants", "why_tests_cant": "The forms visit the tree in different orders and divide by different intermediate tables, some with zeros; agreement on a few networks says nothing about other trees, orders of children and zero patterns.", "anchors": ["src/fastpgm/inference/JunctionTree.cpp:Collect", "src/fastpgm/inference/Clique.cpp:Collect2", "src/fastpgm/inference/Clique.cpp:Collect3", "src/fastpgm/inference/Clique.cpp:Distribute2", "src/fastpgm/inference/Clique.cpp:Distribute3", "src/fastpgm/inference/JunctionTree.cpp:LoadEvidenceToNodes", "src/fastpgm/inference/Clique.cpp:UpdateMessage"]}
{"id": "C62", "title": "The command line program runs the requested job on the named files", "statement": "Given options for one of the implemented jobs, the program runs that job with the values of the options (defaults for the others) on the named files in the directory dataset of the project, prints its result and writes its outputs beside the input file under the documented names. Whatever the arguments, the files and the outcome, no other file changes, a successful run leaves only complete files, and a request that cannot be served is refused with a message and a failing exit code.", "quantifier": "all command lines, all contents of the file system (including missing files and files that cannot be written), all outcomes of the jobs including failures, all schedules and random draws", "why_tests_cant": "The claim about the files that do not change and about the state left behind by a failure at any point ranges over all arguments, file contents and failure points.", "anchors": ["src/fastpgm/main.cpp:main", "src/fastpgm/Parameter.cpp:ParseParameters", "src/fastpgm/fastpgm_api/fastpgm_api.cpp:BNSL_PCStable", "src/fastpgm/fastpgm_api/fastpgm_api.cpp:BNL_PCStable", "src/fastpgm/fastpgm_api/fastpgm_api.cpp:BNEI_JT", "src/fastpgm/fastpgm_api/fastpgm_api.cpp:C_PCStable_JT", "src/fastpgm/fastpgm_api/fastpgm_api.cpp:Sample_Generator", "src/fastpgm/fastpgm_api/fastpgm_api.cpp:GetLastPath"]}
{"id": "C63", "title": "The importance function of a factor can be reset, normalised, read and summed like the factor itself", "statement": "Resetting the importance function of a factor makes every column (the numbers of the first variable for one combination of values of the others) uniform and add up to one; normalising the importance function or the scores divides every column with a positive sum by that sum and leaves the other columns, the factor and the other array alone; looking a case up returns its column; summing out returns, per value of the first variable, the sum over all values of the others; looking up a full case also tells its position in the factor.", "quantifier": "all factors with any number of variables and values, all numbers in the arrays, all cases", "why_tests_cant": "The claims are about every shape of factor and every content of the arrays; index arithmetic that is right for two or three variables may be wrong for more.", "anchors": ["src/fastpgm/PotentialTableBase.cpp:UniformDistribution", "src/fastpgm/PotentialTableBase.cpp:NormalizeICPT", "src/fastpgm/PotentialTableBase.cpp:NormalizePtScore", "src/fastpgm/PotentialTableBase.cpp:GetReducedICPTPotentials", "src/fastpgm/PotentialTableBase.cpp:GetReducedIndexAndPotential", "src/fastpgm/PotentialTableBase.cpp:GetMarginalizedProbabilities"]}
{"id": "C64", "title": "Every object of a job is used only while it exists and given back exactly once", "statement": "In each of the five jobs (learn a structure, learn a network, infer, classify, sample) no object on the heap is used or deleted after it was deleted, no null pointer and no pointer that was never set is used or deleted, arrays are deleted as arrays and single objects as single objects, and at the end every object has been given back.", "quantifier": "all jobs, all sizes of the data and of the network, all sequences of tests, answers and edge visits of the search, all shapes of the clique tree, all queries", "why_tests_cant": "A use after a delete often goes unnoticed in a run, and whether it happens depends on the answers of the tests and on the order in which edges are visited; the number of such histories is unbounded.", "anchors": ["src/fastpgm/fastpgm_api/fastpgm_api.cpp:BNSL_PCStable", "src/fastpgm/fastpgm_api/fastpgm_api.cpp:C_PCStable_JT", "src/fastpgm/structure_learning/PCStable.cpp:CheckEdge", "src/fastpgm/Network.cpp:~Network", "src/fastpgm/inference/JunctionTreeStructure.cpp:FormJunctionTree", "src/fastpgm/PotentialTableBase.cpp:TableMarginalization"]}
{"id": "C65", "title": "Rounding errors do not accumulate beyond a bound that depends on the tree only", "statement": "When every addition, multiplication and division of exact inference is rounded with a relative error of at most u, construction succeeds for the same networks, impossible evidence is reported in the same way, every reported posterior differs from the exact one by a relative error of at most K u / (1 - K u) for an explicit K that depends only on the number of cliques, the size of the largest table and the number of tables, and the reported label is the exact one whenever that one leads by more than the rounding errors.", "quantifier": "all connected networks, all non-negative tables and all rounded versions of them, all rounding functions of relative error u, all evidence, all address orders, all schedules of the parallel loops, all queries", "why_tests_cant": "A test compares a few answers with a tolerance; it cannot show that no network, evidence or summation order makes cancellation or a nearly-zero divisor blow the error up.", "anchors": ["src/fastpgm/PotentialTableBase.cpp:TableMarginalizationPost", "src/fastpgm/PotentialTableBase.cpp:Normalize", "src/fastpgm/inference/JunctionTreeStructure.cpp:AssignPotentials", "src/fastpgm/inference/JunctionTree.cpp:SeparatorLevelCollectionOptimized", "src/fastpgm/inference/JunctionTree.cpp:CliqueLevelDistributionOptimized", "src/fastpgm/inference/JunctionTree.cpp:GetProbabilitiesAllNodes"]}
{"id": "C66", "title": "The test of conditional independence is the G-square test", "statement": "For any data set, two variables and a set of conditioning variables, the test answers by the textbook statistic 2 sum n log(n n_z / (n_xz n_yz)) and its adjusted degrees of freedom. The statistic is never negative, zero exactly when the data are conditionally independent, and at most 2 N log d. The answer does not depend on which variable is named first, on the order of the conditioning variables or on the order of the rows. Independent data are always accepted, dependent data are rejected when there are enough rows with the same frequencies, and learning from enough rows whose independences are those of a graph returns the essential graph.", "quantifier": "all data sets of any size, all pairs of variables, all conditioning sets, all significance levels, all orders of rows and variables, all numbers of copies, group sizes and thread schedules", "why_tests_cant": "A test compares a few tables with another implementation; that the sign, the zero set, the symmetry and the large-sample behaviour are right for every table is an inequality over all count tables.", "anchors": ["src/fastpgm/structure_learning/IndependenceTest.cpp:ComputeGSquareXYZ", "src/fastpgm/structure_learning/IndependenceTest.cpp:ComputeGSquareXY", "src/fastpgm/structure_learning/IndependenceTest.cpp:ComputeGSquareXYZGroup", "src/fastpgm/structure_learning/IndependenceTest.cpp:IndependenceTest"]}
{"id": "C67", "title": "Exact inference does not overflow ints on networks whose clique tables fit", "statement": "Building the junction tree and answering any session of queries computes every table size, stride, position and loop length without integer overflow, so the answers are those of unlimited integers. This holds when the largest int is at least the largest table times its number of variables, the largest table times the number of tables, and the sum of the domain sizes. It fails otherwise: when pairwise joined nodes have more value combinations than the largest int, construction overflows, and this happens for networks of binary nodes with tables of at most 8 entries.", "quantifier": "all networks, all tables, all sizes of int, all orders of memory addresses, all sessions of queries with any evidence, all thread schedules", "why_tests_cant": "Tests run networks whose cliques are small; whether a product of domain sizes overflows depends on the cliques that triangulation makes, which no bound on the input tables controls.", "anchors": ["src/fastpgm/PotentialTableBase.cpp:ConstructCumLevels", "src/fastpgm/PotentialTableBase.cpp:ConstructVarDimsAndCumLevels", "src/fastpgm/PotentialTableBase.cpp:TableMarginalizationMain", "src/fastpgm/inference/JunctionTree.cpp:LoadEvidenceToNodesOptimized", "src/fastpgm/inference/JunctionTree.cpp:SeparatorLevelDistribution", "src/fastpgm/inference/JunctionTreeStructure.cpp:Triangulate"]}
{"id": "C68", "title": "A LIBSVM file with a field that is not a number is refused, and every number stored is one of the file", "statement": "Loading a LIBSVM training or test file succeeds exactly when the first word of every line is an integer and every other word is an index, a colon and a value, all integers that fit an int and the index not negative. The rows loaded are then these numbers, line by line. One field without a number makes the whole load fail.", "quantifier": "all texts, including texts that are no LIBSVM files; all class variables; all numbers of variables of test files", "why_tests_cant": "The malformed files are infinitely many: tests try a few, while a field silently read as zero or as another number corrupts the training data without any sign.", "anchors": ["src/fastpgm/Dataset.cpp:LoadLIBSVMTrainingData", "src/fastpgm/Dataset.cpp:LoadLIBSVMTestingData"]}
{"id": "C69", "title": "A CSV file is loaded cell by cell, or refused when a row does not fit the header", "statement": "Whatever text a CSV file holds, loading it as training data gives one instance for each line after the header, and instance j gives variable i the code of cell i of line j; a file in which a row has more or fewer cells than the header, or which has no row, or whose header repeats a name, is refused. Loading it as test data does the same with the codes of the training data and leaves out empty and unknown cells.", "quantifier": "all texts, also those that are no tables; all dictionaries of known values", "why_tests_cant": "Malformed tables are infinitely many; a dropped cell or an invented instance changes the learned model without any message.", "anchors": ["src/fastpgm/Dataset.cpp:LoadCSVTrainingData", "src/fastpgm/Dataset.cpp:LoadCSVTestingData", "src/fastpgm/common.cpp:Split", "src/fastpgm/common.cpp:TrimRight"]}
{"id": "C70", "title": "Structure learning overflows no int", "statement": "The conditional-independence tests behind structure learning never overflow a 32-bit int: the sizes, strides and positions of the contingency tables, the counts and the degrees of freedom stay in range for every data set whose number of rows is an int, so that the learned skeleton is the one computed with unlimited integers.", "quantifier": "all data sets, all numbers of values, all group sizes, schedules and search depths; all ranges of int", "why_tests_cant": "An overflow needs columns with many values or deep conditioning sets; it depends on products over every set of variables that some run may test, and a wrapped size silently allocates a small table.", "anchors": ["src/fastpgm/structure_learning/CellTable.cpp:Counts3D", "src/fastpgm/structure_learning/CellTable.cpp:Counts3DGroup", "src/fastpgm/structure_learning/CellTable.cpp:Counts2D", "src/fastpgm/structure_learning/IndependenceTest.cpp:IndependenceResult", "src/fastpgm/structure_learning/PCStable.cpp:StructLearnByPCStable"]}
{"id": "C71", "title": "Rounding does not change what the independence test answers, away from the level", "statement": "The conditional-independence test works in double precision. Its statistic differs from the textbook G-square statistic by at most an explicit bound that depends on the precision, the number of rows and the number of cells only; so whenever the p-value is not within that bound of the significance level, the answer, and with it the learned structure, is the one exact arithmetic would give. Data that are exactly independent give exactly the statistic 0, and the order of the rows has no influence at all.", "quantifier": "all data sets, variables, conditioning sets, levels, group sizes and schedules; all roundings with relative error at most u, all computed logarithms and distribution functions", "why_tests_cant": "Rounding errors depend on every count in the table and on the order of up to as many additions as there are rows; a test compares with another floating-point program, not with the real statistic.", "anchors": ["src/fastpgm/structure_learning/IndependenceTest.cpp:ComputeGSquareXYZ", "src/fastpgm/structure_learning/IndependenceTest.cpp:ComputeGSquareXYZGroup", "src/fastpgm/structure_learning/IndependenceTest.cpp:ComputeGSquareXY", "src/fastpgm/structure_learning/PCStable.cpp:StructLearnByPCStable"]}
{"id": "C72", "title": "Rounding in parameter learning is harmless, through to the answers", "statement": "Learning the parameters of a network in floating point fails in exactly the cases in which exact arithmetic would divide by zero; otherwise every table entry is the smoothed relative frequency up to three rounding errors, is positive with smoothing, and each distribution sums to one up to three errors. Learning and then asking exact inference, with rounding from the first count to the last answer, never fails on a connected network with smoothing and returns posteriors that are the exact posteriors of the exactly learned network up to a number of errors that depends on the junction tree only, not on the data; a most probable label that leads by more than that is reported.", "quantifier": "all networks, complete data sets, smoothing parameters, roundings with relative error at most c, evidence, variable orders, schedules and coin tosses for ROOT", "why_tests_cant": "The error depends on all counts and on every operation of the propagation; a test can compare two floating-point programs on some data, not bound the distance to the real-number answer for all data.", "anchors": ["src/fastpgm/parameter_learning/ParameterLearning.cpp:LearnParamsKnowStructCompData", "src/fastpgm/inference/JunctionTree.cpp:GetProbabilitiesAllNodes", "src/fastpgm/inference/JunctionTree.cpp:PredictUseJTInfer"]}
{"id": "C73", "title": "Learned parameters are the most likely ones, and the only ones", "statement": "Learning the parameters of a network from complete data returns the conditional distributions under which the data are most probable: every other choice of conditional distributions for the same structure makes the data less probable, and equally probable only if it is the same choice. With smoothing by k the same holds for the data extended by k imagined observations of every combination of a node's and its parents' values. Smoothed parameters need not maximise the probability of the data alone, and without smoothing learning fails when a combination of parents' values is absent, although a best choice exists.", "quantifier": "all networks built through the API, complete data sets, smoothing parameters, and all competing conditional distributions", "why_tests_cant": "The claim compares the result with a continuum of other parameters; a test can compare with a few of them.", "anchors": ["src/fastpgm/parameter_learning/ParameterLearning.cpp:LearnParamsKnowStructCompData"]}
{"id": "C74", "title": "Without smoothing, equivalent structures learn the same distribution and give the same answers", "statement": "Structures with the same adjacencies and the same v-structures cannot be told apart by independence tests. Learning the parameters of two of them from the same complete data without smoothing, when both succeed, gives the same joint distribution, the same probability of the data and the same posteriors, and exact inference on the two learned networks returns the same numbers. With smoothing this fails, and learning may fail with a division by zero for one of them only.", "quantifier": "all pairs of Markov equivalent networks built through the API, all complete data sets, evidence, variable orders and schedules", "why_tests_cant": "Equivalence classes and data sets are unbounded, and two members of a class may differ in every edge.", "anchors": ["src/fastpgm/parameter_learning/ParameterLearning.cpp:LearnParamsKnowStructCompData", "src/fastpgm/inference/JunctionTree.cpp:GetProbabilitiesAllNodes", "src/fastpgm/structure_learning/PCStable.cpp:StructLearnCompData"]}
{"id": "C75", "title": "A copy of a network behaves like the original", "statement": "Copying a network gives a network with the same nodes, value sets, edges, topological order and tables: learning, inference and comparison treat the copy as they treat the original, and the original is left as it was.", "quantifier": "all networks built through the API, all later learning runs, queries and variable orders", "why_tests_cant": "The copy must agree with the original under every later operation; a test exercises some operations on some networks.", "anchors": ["src/fastpgm/Network.cpp:Network(Network &net)", "src/fastpgm/Network.cpp:CheckEdges", "include/fastpgm/Network.h:Network"]}
{"id": "C76", "title": "Learning from data that look like draws from a network gives back its distribution and its answers", "statement": "If every row is exactly as frequent in the data as a network says, then learning without smoothing on that network's structure returns its tables, and learning on any equivalent structure returns its joint distribution and makes the junction tree give its posteriors. If the frequencies of the families are only off by at most e, learning (with k occurrences added) still succeeds and every entry, and every answer of the junction tree, is off by at most an explicit bound that goes to 0 with e and k/rows. After structure learning with tests that never err the same holds for the structure found, provided it has no additional v-structure; with one, a different distribution is learned even from exact data.", "quantifier": "all networks built through the API, all parameters, all complete data sets, error bounds, smoothing amounts, evidence, variable orders and schedules", "why_tests_cant": "Consistency of an estimator speaks about all networks, all data sets and all error bounds at once.", "anchors": ["src/fastpgm/parameter_learning/ParameterLearning.cpp:LearnParamsKnowStructCompData", "src/fastpgm/inference/JunctionTree.cpp:GetProbabilitiesAllNodes", "src/fastpgm/structure_learning/PCStable.cpp:StructLearnCompData"]}
{"id": "C77", "title": "Exact inference and the tests respect d-separation", "statement": "Evidence about variables that the existing evidence d-separates from a variable does not change the label, the marginal or the probabilities answered for it; in particular, evidence on its parents, children and their other parents makes everything else irrelevant, and evidence on its parents and other non-descendants makes the answer the entry of its table. If the parameters induce no other independences, these are the only irrelevant variables. In data exactly as frequent as the network says, separated variables pass the independence test at every level below 1, and then structure learning from enough copies returns the essential graph of the network.", "quantifier": "all networks built through the API, all parameters, all variables, sets of evidence of positive probability, variable orders, schedules; all data sets that match a network, levels and chi-square functions", "why_tests_cant": "The independence structure is a statement about all parameters of a graph and all values of the evidence.", "anchors": ["src/fastpgm/inference/JunctionTree.cpp:GetProbabilitiesAllNodes", "src/fastpgm/inference/JunctionTree.cpp:PredictUseJTInfer", "src/fastpgm/structure_learning/PCStable.cpp:StructLearnCompData"]}
{"id": "C78", "title": "Exactly when a learned acyclic graph stays in the equivalence class, and learning from data to answers", "statement": "When structure learning is asked for an acyclic graph and its tests never err, the result has the adjacencies of the true graph and every arrow on which the graphs equivalent to it agree, whatever random directions are drawn. It is equivalent to the true graph for every draw exactly if any two edges at a node whose directions the equivalence class leaves open belong to a triangle; otherwise some draw makes a collider the true graph does not have. Under that condition, learning the structure with the G-square test from enough copies of data that match a faithful network, learning the parameters from the same data, building the junction tree and querying answers with the probabilities of the network the data came from.", "quantifier": "all acyclic graphs with two non-adjacent nodes, group sizes, schedules, depths above the number of parents, random directions; all networks, positive parameters, matching data, numbers and orders of copies, levels, chi-square functions, variable orders, evidence of positive probability", "why_tests_cant": "Whether random directions leave the equivalence class depends on the graph and the draw; a test sees one draw on one graph.", "anchors": ["src/fastpgm/structure_learning/StructureLearning.cpp:DirectLeftEdges", "src/fastpgm/structure_learning/PCStable.cpp:StructLearnCompData", "src/fastpgm/parameter_learning/ParameterLearning.cpp:LearnParamsKnowStructCompData", "src/fastpgm/inference/JunctionTree.cpp:GetProbabilitiesAllNodes"]}
{"id": "C79", "title": "Predictions are the best possible ones", "statement": "On test rows that are as frequent as the network says, the accuracy reported for the predicted labels of a variable is at least the accuracy of any predictions that depend on the same evidence only. Giving more variables as evidence does not lower it. A network whose parameters were learned from representative data on an equivalent structure does as well. When the network is right about the frequency of every row only up to e, no predictions from the same evidence exceed its accuracy by more than 2e times the number of combinations of values; the same with the corresponding e for parameters learned with smoothing from nearly representative data. A network whose structure was learned as well, with the G-square test from enough copies of representative data, gives the best predictions whenever the edges that the equivalence class leaves reversible form cliques.", "quantifier": "all networks, parameters, test data of at least 20 rows that are representative or nearly so, class variables, sets of evidence variables, competing predictions, amounts of smoothing, variable orders, schedules", "why_tests_cant": "A test compares with the classifiers it contains; the claim is about all of them, on all networks.", "anchors": ["src/fastpgm/inference/JunctionTree.cpp:PredictUseJTInfer", "src/fastpgm/inference/JunctionTree.cpp:Predict", "src/fastpgm/inference/Inference.cpp:Accuracy", "src/fastpgm/structure_learning/PCStable.cpp:StructLearnCompData"]}
{"id": "C80", "title": "Learning from generated samples gives back the network", "statement": "When the random numbers used by the sample generator have discrepancy at most e (every box of the unit cube receives a fraction of the draws within e of its volume), every combination of values is as frequent among the samples as the network says, up to e, and impossible combinations do not occur; this holds for the files written by the sample generator job as well, against the network file it read. Parameters learned from the samples, with any amount of smoothing, and the answers of the junction tree built on them, then differ from those of the original network by an explicit bound that goes to zero with e and the number of samples; its predictions on samples generated separately are nearly the best ones. So for every error allowed there are a discrepancy and a number of samples from which on parameters, answers and predictions are right up to that error, and draws of any discrepancy exist.", "quantifier": "all networks, parameters, lists of draws, discrepancies, amounts of smoothing, evidence, schedules, variable orders", "why_tests_cant": "A test runs the generator with one seed on one network and compares with a tolerance somebody chose; the claim gives the tolerance for every network and every sequence of draws.", "anchors": ["src/fastpgm/SampleSetGenerator.cpp:GenerateSamplesBasedOnCPTs", "src/fastpgm/parameter_learning/ParameterLearning.cpp:LearnParamsKnowStructCompData", "src/fastpgm/inference/JunctionTree.cpp:GetProbabilitiesAllNodes"]}

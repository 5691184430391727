{"id": "C01", "title": "Dataset query offsets are always a valid segmentation", "statement": "For every non-empty query-id column, Dataset(X, y, qids) exposes query_offsets that start at 0, are strictly increasing, end at the number of instances, and one entry of query_ids per distinct id; get_query_sizes is positive everywhere and sums to the number of instances.", "quantifier": "every list of query ids (any order, any repetition), every matrix with as many rows", "why_tests_cant": "the segmentation is produced by np.unique + argsort on arbitrary id columns; tests only load two fixed files", "anchors": ["rankeval/dataset/dataset.py:Dataset.__init__", "rankeval/dataset/dataset.py:Dataset.get_query_sizes", "rankeval/dataset/dataset.py:Dataset.query_iterator"]}
{"id": "C02", "title": "Query ids survive the compact representation", "statement": "If the rows of each query are adjacent, then get_qids_dataset() returns exactly the query-id column given to the constructor, and query_iterator yields exactly the maximal runs of equal ids in row order. If some query's rows are not adjacent the round trip fails, i.e. rows are silently attributed to a different query.", "quantifier": "every query-id column", "why_tests_cant": "an equivalence over all id columns (holds iff the ids are grouped)", "anchors": ["rankeval/dataset/dataset.py:Dataset.__init__", "rankeval/dataset/dataset.py:Dataset.get_qids_dataset", "rankeval/dataset/dataset.py:Dataset.query_iterator"]}
{"id": "C03", "title": "subset keeps exactly the requested queries", "statement": "dataset.subset(qs) contains, in the original row order, exactly the rows whose query id is in qs, with their feature vectors and labels; nothing else changes, and the surviving queries keep their sizes.", "quantifier": "every grouped dataset, every list of requested ids (present or not, repeated or not)", "why_tests_cant": "ranges over all datasets and all id lists", "anchors": ["rankeval/dataset/dataset.py:Dataset.subset", "rankeval/dataset/dataset.py:Dataset.get_qids_dataset"]}
{"id": "C04", "title": "split returns disjoint, exhaustive partitions", "statement": "dataset.split(train, vali) puts every row of every query in exactly one of train/vali/test whenever at least one query is left for the test set; the three parts are disjoint, exhaustive, and keep queries whole. When no query is left for test (e.g. train_size=1.0) the returned test set is instead the whole dataset.", "quantifier": "every grouped dataset with non-negative ids, every permutation drawn by the random generator, every train/vali ratio accepted by the method", "why_tests_cant": "must hold for every random permutation and every ratio/size combination", "anchors": ["rankeval/dataset/dataset.py:Dataset.split"]}
{"id": "C05", "title": "split drops exactly the rows with a negative query id", "statement": "The partitions returned by split contain a row if and only if its int32 query id is >= 0. Hence rows whose id is negative (which includes ids >= 2^31 as read by the loader) silently vanish from all partitions.", "quantifier": "every int32 query id", "why_tests_cant": "needs the whole int32 range: the id column is cast to uint32 and compared with the int32 ids", "anchors": ["rankeval/dataset/dataset.py:Dataset.split", "rankeval/dataset/_svmlight_format.cpp:parse_line"]}
{"id": "C06", "title": "kfold produces a partition in every fold", "statement": "For n_folds >= 3 and at least n_folds queries, in every fold the train, validation and test query ids are pairwise disjoint and together are all the query ids; validation and test have floor(n/k) or floor(n/k) + (n mod k) queries. For n_folds = 2 (allowed by the documentation) train is always empty.", "quantifier": "every number of queries, every number of folds, every shuffle", "why_tests_cant": "modular index arithmetic over all (n, k, fold) triples and all shuffles", "anchors": ["rankeval/dataset/dataset.py:Dataset.kfold"]}
{"id": "C07", "title": "kfold rotates: every query is tested once and validated once", "statement": "For n_folds >= 3 and at least n_folds queries, concatenating the test parts over the folds gives each query id exactly once, and the same holds for the validation parts.", "quantifier": "every number of queries, every number of folds, every shuffle", "why_tests_cant": "a counting statement over all folds of all sizes", "anchors": ["rankeval/dataset/dataset.py:Dataset.kfold"]}
{"id": "C08", "title": "get_query_offsets finds the right rows", "statement": "For a query id present in a grouped dataset get_query_offsets returns [start, end) such that the rows with that id are exactly those with start <= row < end. For an absent id it raises (AttributeError, not the documented LookupError).", "quantifier": "every grouped dataset and every id", "why_tests_cant": "all datasets and all ids, including absent ones", "anchors": ["rankeval/dataset/dataset.py:Dataset.get_query_offsets"]}
{"id": "C09", "title": "Equality of datasets", "statement": "On datasets of the same shape, Dataset equality is equality of X, y and query_ids (hence an equivalence relation) and implies equal hashes. It does not imply equal query boundaries: there are datasets that compare equal (and hash equal) but group their rows differently. Across different shapes == broadcasts: datasets with different numbers of rows can compare equal, others raise, and the relation is not transitive.", "quantifier": "every pair/triple of datasets", "why_tests_cant": "an equivalence-relation law plus a negative statement", "anchors": ["rankeval/dataset/dataset.py:Dataset.__eq__", "rankeval/dataset/dataset.py:Dataset.__hash__"]}
{"id": "C10", "title": "subset_features selects columns only", "statement": "dataset.subset_features(fs) has, in row i and column j, the value X[i, fs[j]], and the labels, ids and query segmentation of a grouped dataset are unchanged.", "quantifier": "every grouped dataset, every list of valid feature indices", "why_tests_cant": "all datasets and all index lists", "anchors": ["rankeval/dataset/dataset.py:Dataset.subset_features"]}
{"id": "C11", "title": "A well-formed svmlight line is read densely", "statement": "A data line 'label qid:q f1:v1 ... fk:vk' with strictly increasing feature ids >= 1 appends one label, one qid and one row whose column f holds the value given for f and 0 elsewhere, padded to the widest row seen so far; a comment after # and extra blanks do not matter.", "quantifier": "every line of that shape, every number of features, every previous state", "why_tests_cant": "all ids, gaps and widths", "anchors": ["rankeval/dataset/_svmlight_format.cpp:parse_line"]}
{"id": "C12", "title": "Widening the matrix while loading preserves every earlier cell", "statement": "When a row with a larger feature id arrives, the in-place reshape leaves every earlier row with its old values followed by zeros, whatever the number of rows and widths.", "quantifier": "every number of rows, every old/new width", "why_tests_cant": "in-place overlapping moves over arbitrary sizes", "anchors": ["rankeval/dataset/_svmlight_format.cpp:reshape_data"]}
{"id": "C13", "title": "Loading any valid file yields the dense matrix", "statement": "Loading a file whose data lines are well formed and whose first data line has at least one feature returns a rectangular matrix with one row per data line, equal to the sparse rows padded with zeros up to the largest feature id in the file. If leading rows have no feature at all, the data can be silently assigned to the wrong rows.", "quantifier": "every sequence of well-formed lines", "why_tests_cant": "all files; depends on the order in which new maxima appear", "anchors": ["rankeval/dataset/_svmlight_format.cpp:parse_file", "rankeval/dataset/_svmlight_format.cpp:parse_line", "rankeval/dataset/_svmlight_format.cpp:reshape_data", "rankeval/dataset/svmlight_format.py:load_svmlight_file"]}
{"id": "C14", "title": "dump then load is the identity", "statement": "Dumping a dataset with at least two instances and loading the file again gives the same X, y and query ids. With exactly one instance the qid is not written and Dataset.load of the dumped file raises.", "quantifier": "every matrix of finite values with at least two rows and at least one column, every id column of non-negative int32", "why_tests_cant": "round trip over all matrices and ids, through the character-level format", "anchors": ["rankeval/dataset/_svmlight_format.cpp:dump_svmlight_file", "rankeval/dataset/_svmlight_format.cpp:parse_line", "rankeval/dataset/svmlight_format.py:dump_svmlight_file", "rankeval/dataset/dataset.py:Dataset.dump", "rankeval/dataset/dataset.py:Dataset.load"]}
{"id": "C15", "title": "Malformed input is rejected, never half-read", "statement": "Loading raises for every file that contains a data line without numeric label (also one that stops after its e), without second token, or with a token that is not id:value; comment lines are skipped wherever they occur and do not affect the result.", "quantifier": "every file with at least one such line, at any position", "why_tests_cant": "all positions and all surrounding lines", "anchors": ["rankeval/dataset/_svmlight_format.cpp:parse_line", "rankeval/dataset/_svmlight_format.cpp:parse_file"]}
{"id": "C16", "title": "Metric.eval evaluates each query on its own rows and averages", "statement": "For every metric using the default eval, detailed_scores[i] is eval_per_query on the labels and scores of the i-th query only, it has length n_queries, and the returned average is the mean of the non-NaN detailed scores.", "quantifier": "every dataset, every score vector, every per-query metric", "why_tests_cant": "all datasets and score vectors", "anchors": ["rankeval/metrics/metric.py:Metric.eval", "rankeval/metrics/metric.py:Metric.query_iterator"]}
{"id": "C17", "title": "Metrics depend on scores only through the ranking", "statement": "Applying a strictly increasing transformation to the predicted scores changes no ranking metric (Precision, Recall, MRR, MAP, DCG, NDCG, ERR, Pfound, RBP, PrecisionMax), if sorting is a function of the order of the scores.", "quantifier": "every label vector, every score vector, every strictly increasing function", "why_tests_cant": "all monotone transformations", "anchors": ["rankeval/metrics/precision.py", "rankeval/metrics/recall.py", "rankeval/metrics/mrr.py", "rankeval/metrics/map.py", "rankeval/metrics/dcg.py", "rankeval/metrics/ndcg.py", "rankeval/metrics/err.py", "rankeval/metrics/pfound.py", "rankeval/metrics/rbp.py"]}
{"id": "C18", "title": "Without ties the metric value does not depend on row order or on the sorting algorithm", "statement": "If the scores of a query are pairwise distinct, permuting its rows leaves every ranking metric unchanged, whatever valid argsort is used. With ties the value may depend on the sorting algorithm.", "quantifier": "every query without ties, every permutation, every correct argsort", "why_tests_cant": "all permutations and all sorting algorithms (numpy's default argsort is not stable)", "anchors": ["rankeval/metrics/precision.py", "rankeval/metrics/dcg.py", "rankeval/metrics/map.py", "rankeval/metrics/err.py"]}
{"id": "C19", "title": "cutoff k looks at the top k only", "statement": "A cutoff not smaller than the number of rows gives the same value as no cutoff, for every ranking metric; and Precision, MRR, DCG, RBP with cutoff k depend only on the labels of the k best ranked rows.", "quantifier": "every query, every cutoff", "why_tests_cant": "all cutoffs and queries", "anchors": ["rankeval/metrics/precision.py", "rankeval/metrics/dcg.py", "rankeval/metrics/rbp.py", "rankeval/metrics/mrr.py"]}
{"id": "C20", "title": "Precision and Recall are fractions with the documented meaning", "statement": "Precision@k is (relevant among the top k)/(number retrieved), lies in [0,1] and raises only when nothing is retrieved; Recall@k is (relevant among the top k)/(relevant), lies in [0,1], is non-decreasing in k, equals 1 without cutoff when a relevant row exists, and is no_relevant_results when none exists.", "quantifier": "every query, threshold and cutoff >= 0", "why_tests_cant": "all queries, thresholds, cutoffs", "anchors": ["rankeval/metrics/precision.py:Precision.eval_per_query", "rankeval/metrics/recall.py:Recall.eval_per_query"]}
{"id": "C21", "title": "MRR is the reciprocal rank of the first relevant row", "statement": "MRR is 1/r where r is the 1-based position of the first row in ranking order with label >= threshold within the cutoff, and 0 if there is none; it is non-decreasing in the cutoff.", "quantifier": "every query, threshold, cutoff", "why_tests_cant": "all queries", "anchors": ["rankeval/metrics/mrr.py:MRR.eval_per_query"]}
{"id": "C22", "title": "Average precision is in [0,1] and rewards relevant rows", "statement": "With non-negative labels AP@k lies in [0,1] whenever a relevant row is retrieved, and equals 1 iff the retrieved relevant rows are exactly the first min(k, #relevant) positions. When no relevant row is retrieved AP returns no_relevant_results (default 1.0) even if relevant rows exist, so a worse ranking can score higher.", "quantifier": "every query with non-negative labels, every cutoff", "why_tests_cant": "all queries and rankings", "anchors": ["rankeval/metrics/map.py:MAP.eval_per_query"]}
{"id": "C23", "title": "No ranking beats the ideal DCG", "statement": "For every label vector, cutoff and gain (flat or exponential), DCG of any ranking is at most the DCG obtained by ranking with the labels themselves.", "quantifier": "every label vector, every score vector, every cutoff", "why_tests_cant": "a rearrangement inequality over all permutations", "anchors": ["rankeval/metrics/dcg.py:DCG.eval_per_query"]}
{"id": "C24", "title": "NDCG is in [0,1] and is 1 for a perfect ranking", "statement": "With non-negative labels NDCG is in [0,1]; it is 1 when the rows are ranked by non-increasing label; when the ideal DCG is 0 it is no_relevant_results.", "quantifier": "every query with non-negative labels, cutoff >= 1, both gains", "why_tests_cant": "all queries", "anchors": ["rankeval/metrics/ndcg.py:NDCG.eval_per_query"]}
{"id": "C25", "title": "NDCG.eval is independent of what was evaluated before", "statement": "For a fresh dataset object the result of NDCG.eval does not depend on previous eval calls on the same metric object, provided datasets that compare equal also have the same query boundaries; otherwise a stale ideal DCG is used. eval_per_query called directly after an eval raises IndexError or uses the previous dataset's ideal DCG.", "quantifier": "every history of eval / eval_per_query calls", "why_tests_cant": "all call histories", "anchors": ["rankeval/metrics/ndcg.py:NDCG.eval", "rankeval/metrics/ndcg.py:NDCG.eval_per_query", "rankeval/dataset/dataset.py:Dataset.__eq__"]}
{"id": "C26", "title": "ERR is a probability-weighted reciprocal rank", "statement": "With non-negative labels ERR is in [0,1), is non-decreasing in the cutoff, and is bounded by the probability that the user stops within the cutoff.", "quantifier": "every query with non-negative labels, every cutoff", "why_tests_cant": "all queries", "anchors": ["rankeval/metrics/err.py:ERR.eval_per_query"]}
{"id": "C27", "title": "Pfound is in [0,1) and its persistence parameter", "statement": "With non-negative labels and a parameter in [0,1] Pfound is in [0,1); it is non-decreasing in p_abandonment (so the parameter acts as a continuation probability: at 1 no abandonment takes place, at 0 only the first row counts).", "quantifier": "every query, every parameter in [0,1]", "why_tests_cant": "all queries and parameters", "anchors": ["rankeval/metrics/pfound.py:Pfound.eval_per_query"]}
{"id": "C28", "title": "RBP is in [0,1] and degenerates to P@1", "statement": "For p in [0,1], RBP lies in [0, 1-p^n] and hence in [0,1]; with p = 0 it equals Precision@1; if all rows are relevant it equals 1-p^n.", "quantifier": "every query, threshold, cutoff and p in [0,1]", "why_tests_cant": "all queries and parameters", "anchors": ["rankeval/metrics/rbp.py:RBP.eval_per_query"]}
{"id": "C29", "title": "MSE.eval is the mean squared error over all rows", "statement": "When the query ids are exactly 0..n_queries-1 (in any order) and no cutoff is set, MSE.eval returns the mean squared error over all instances and each query's share at its id. For other ids it raises IndexError or drops/misplaces values, because it indexes by query id.", "quantifier": "every dataset, every score vector", "why_tests_cant": "all id columns", "anchors": ["rankeval/metrics/mse.py:MSE.eval"]}
{"id": "C30", "title": "RMSE relation to the squared error", "statement": "RMSE of a query is the square root of the *sum* of squared errors (non-negative, zero iff the scores equal the labels), not of the mean: for a query with more than one row and a non-zero error it differs from the root mean squared error.", "quantifier": "every query", "why_tests_cant": "all queries", "anchors": ["rankeval/metrics/rmse.py:RMSE.eval_per_query", "rankeval/metrics/mse.py:MSE.eval_per_query"]}
{"id": "C31", "title": "Scoring walks each tree to the right leaf", "statement": "For every model whose arrays encode binary trees, score() terminates, never reads outside the arrays, and gives each instance the sum over trees of weight * (value of the leaf selected by the rule x[f] <= threshold goes left).", "quantifier": "every ensemble of trees (any shape, size and depth), every dataset with enough features, every number type", "why_tests_cant": "termination and memory safety of an unchecked loop over all tree shapes", "anchors": ["rankeval/scoring/_efficient_scoring.pyx:basic_scoring", "rankeval/scoring/_efficient_scoring.pyx:_score_single_instance_single_tree"]}
{"id": "C32", "title": "Basic and detailed scoring agree", "statement": "Detailed scoring returns for every (instance, tree) the leaf reached and leaf value * tree weight; in exact arithmetic its row sums are the basic scores, also after learning rate and base score are applied (for at least one tree).", "quantifier": "every ensemble, dataset, learning rate and base score", "why_tests_cant": "all ensembles", "anchors": ["rankeval/scoring/_efficient_scoring.pyx:detailed_scoring", "rankeval/scoring/scorer.py:Scorer.score", "rankeval/model/rt_ensemble.py:RTEnsemble.score"]}
{"id": "C33", "title": "Parallel scoring is schedule independent", "statement": "Whatever way the parallel loop interleaves its iterations over instances (or trees), the resulting score matrix is the sequential one.", "quantifier": "every interleaving of the per-iteration steps, any number of threads", "why_tests_cant": "all schedules", "anchors": ["rankeval/scoring/_efficient_scoring.pyx:basic_scoring", "rankeval/scoring/_efficient_scoring.pyx:detailed_scoring"]}
{"id": "C34", "title": "Score caching is transparent", "statement": "Any sequence of score(dataset, detailed, cache) and clear_cache() calls returns at each call the same values as an uncached model would (in exact arithmetic).", "quantifier": "every history of score/clear_cache calls over any datasets", "why_tests_cant": "all call histories", "anchors": ["rankeval/model/rt_ensemble.py:RTEnsemble.score", "rankeval/model/rt_ensemble.py:RTEnsemble.clear_cache", "rankeval/scoring/scorer.py:Scorer.score"]}
{"id": "C35", "title": "Pruning keeps exactly the first trees", "statement": "model.copy(n) (and the n_trees constructor argument) yields a model with min(n, n_trees) trees whose scores are those of the first n trees, leaves the original model untouched, and has an empty score cache when trees are removed.", "quantifier": "every ensemble laid out tree after tree, every n >= 0", "why_tests_cant": "all ensembles and prefixes", "anchors": ["rankeval/model/rt_ensemble.py:RTEnsemble.copy", "rankeval/model/rt_ensemble.py:RTEnsemble._prune_model"]}
{"id": "C36", "title": "Structural statistics of the ensemble", "statement": "num_leaves, num_nodes and height_trees are the leaf count, node count and height of each tree; every tree has num_nodes = 2*num_leaves - 1; max_leaves is the maximum of num_leaves.", "quantifier": "every ensemble laid out tree after tree", "why_tests_cant": "all tree shapes", "anchors": ["rankeval/model/rt_ensemble.py:RTEnsemble.num_leaves", "rankeval/model/rt_ensemble.py:RTEnsemble.num_nodes", "rankeval/model/rt_ensemble.py:RTEnsemble.height_trees", "rankeval/model/rt_ensemble.py:RTEnsemble.max_leaves"]}
{"id": "C37", "title": "Feature compatibility check guards every read", "statement": "score() raises RuntimeError iff the model uses a feature index >= dataset.n_features; when it does not raise and features are non-negative, no read outside a row takes place.", "quantifier": "every ensemble and dataset", "why_tests_cant": "all models and datasets", "anchors": ["rankeval/model/rt_ensemble.py:RTEnsemble.score", "rankeval/scoring/_efficient_scoring.pyx:_score_single_instance_single_tree"]}
{"id": "C38", "title": "Loading a QuickRank file reproduces its trees", "statement": "Loading the XML of any ensemble of trees (with an info header) yields a model that encodes exactly those trees, weights, features - 1 and thresholds, laid out tree after tree in pre-order.", "quantifier": "every list of weighted trees", "why_tests_cant": "all tree shapes, through an event-stream parser with a stack", "anchors": ["rankeval/model/proxy_QuickRank.py:ProxyQuickRank.load", "rankeval/model/proxy_QuickRank.py:ProxyQuickRank._count_nodes"]}
{"id": "C39", "title": "QuickRank save then load is the identity on the ensemble", "statement": "For every model encoding trees, save() followed by loading returns a model that encodes the same trees and weights (hence the same unscaled scores). learning_rate and base_score are not restored, so scores change when they are not neutral.", "quantifier": "every ensemble", "why_tests_cant": "all ensembles", "anchors": ["rankeval/model/proxy_QuickRank.py:ProxyQuickRank.save", "rankeval/model/proxy_QuickRank.py:ProxyQuickRank._get_node_xml_element", "rankeval/model/proxy_QuickRank.py:ProxyQuickRank.load"]}
{"id": "C40", "title": "Loading a LightGBM file reproduces its trees", "statement": "Loading the text form of any list of trees given as LightGBM arrays (internal nodes with children >= 0, leaves as -(k+1)) yields a model encoding the same trees with weight 1; unsupported decision types, categorical features and non-zero default values are rejected.", "quantifier": "every list of array-encoded trees, including single-leaf trees", "why_tests_cant": "all trees, index arithmetic across trees", "anchors": ["rankeval/model/proxy_LightGBM.py:ProxyLightGBM.load", "rankeval/model/proxy_LightGBM.py:ProxyLightGBM._count_nodes"]}
{"id": "C41", "title": "Loading an XGBoost dump reproduces its trees", "statement": "Loading the pre-order dump of any list of trees rebuilds exactly those trees.", "quantifier": "every list of trees", "why_tests_cant": "all tree shapes, queue based reconstruction", "anchors": ["rankeval/model/proxy_XGBoost.py:ProxyXGBoost.load"]}
{"id": "C42", "title": "XGBoost's strict comparison is preserved", "statement": "After loading, an instance goes left at a split exactly when XGBoost's x < t holds in float32, for every threshold t with -2^24 < t <= 2^24. Outside that range there are thresholds for which an instance with x = t goes left instead of right.", "quantifier": "every pair of float32 values", "why_tests_cant": "all float32 values: rounding of t - 1 decides", "anchors": ["rankeval/model/proxy_XGBoost.py:ProxyXGBoost.load"]}
{"id": "C43", "title": "Loading a scikit-learn export reproduces the trees", "statement": "Loading the file written by export_scikit_model yields the same tree shapes, features and leaves, weight 1, base score and learning rate, up to the six decimals written for thresholds; a threshold smaller than 5e-7 becomes 0 and routes instances differently.", "quantifier": "every list of trees with parent-before-child node ids", "why_tests_cant": "all trees", "anchors": ["rankeval/model/proxy_ScikitLearn.py:ProxyScikitLearn.load", "rankeval/model/proxy_ScikitLearn.py:ProxyScikitLearn.export_scikit_model"]}
{"id": "C44", "title": "Loading a Jforests file reproduces its trees", "statement": "Loading the XML of any list of array-encoded trees with at least one split each yields a model encoding the same trees, weights and thresholds.", "quantifier": "every list of array-encoded trees", "why_tests_cant": "all trees", "anchors": ["rankeval/model/proxy_Jforests.py:ProxyJforests.load", "rankeval/model/proxy_Jforests.py:ProxyJforests._count_nodes"]}
{"id": "C45", "title": "Loading a CatBoost model reproduces its trees", "statement": "For an ensemble whose trees all have the same number of nodes (node ids ascending, root last) loading yields the same trees, flipping 'greater than' conditions; with trees of different sizes the loader leaves tree roots unset.", "quantifier": "every list of equally sized trees", "why_tests_cant": "all trees; index remapping", "anchors": ["rankeval/model/proxy_CatBoost.py:ProxyCatBoost.load", "rankeval/model/proxy_CatBoost.py:ProxyCatBoost._count_nodes"]}
{"id": "C46", "title": "Topological analysis counts nodes by position", "statement": "The topology matrix returned by topological_analysis has at (row d, column c) the number of trees that have a node at depth d and position c of the full binary tree (only split nodes, plus the root, when include_leaves is false), for trees of height at most 62.", "quantifier": "every ensemble laid out tree after tree with parents before children", "why_tests_cant": "all tree shapes; 64-bit heap indices", "anchors": ["rankeval/analysis/_efficient_topological.pyx:efficient_topological_analysis", "rankeval/analysis/_efficient_topological.pyx:_compute_node_indices"]}
{"id": "C47", "title": "Tree heights agree between the two implementations", "statement": "The heights reported by topological_analysis equal model.height_trees(), i.e. the true heights, for every tree of height at most 62.", "quantifier": "every ensemble laid out tree after tree with parents before children", "why_tests_cant": "all tree shapes", "anchors": ["rankeval/analysis/_efficient_topological.pyx:_compute_node_indices", "rankeval/analysis/_efficient_topological.pyx:most_significant_bit", "rankeval/model/rt_ensemble.py:RTEnsemble.height_trees"]}
{"id": "C48", "title": "most_significant_bit is the integer logarithm", "statement": "The bit-twiddling loop returns floor(log2 v) for every 1 <= v < 2^63.", "quantifier": "every 64-bit value", "why_tests_cant": "2^63 inputs", "anchors": ["rankeval/analysis/_efficient_topological.pyx:most_significant_bit"]}
{"id": "C49", "title": "Feature importance partitions the instances correctly", "statement": "At every visited split the instances of the node are rearranged so that those with x[f] <= threshold come first, the segment keeps the same instances, and everything outside the segment is untouched.", "quantifier": "every segment, feature column and threshold", "why_tests_cant": "in-place partition over all arrays", "anchors": ["rankeval/analysis/_efficient_feature_impl.cpp:c_feature_importance_tree"]}
{"id": "C50", "title": "MSE importances are non-negative and add up to the error reduction", "statement": "In exact arithmetic, when every visited split sends at least one instance to its left, each split's gain is >= 0 and the importances of a tree sum to (MSE of the constant prediction) - (MSE of the final per-leaf means). When all instances of a node starting at position 0 go right, the code uses 0 instead of their mean and the importance can be negative.", "quantifier": "every tree and dataset", "why_tests_cant": "all trees and datasets", "anchors": ["rankeval/analysis/_efficient_feature_impl.cpp:c_feature_importance_tree", "rankeval/analysis/feature.py:feature_importance"]}
{"id": "C51", "title": "Feature counts count visited splits", "statement": "feature_count[f] is the number of visited split nodes testing f; the total is the number of visited nodes. A single-leaf tree makes the code write at index -1.", "quantifier": "every ensemble and dataset", "why_tests_cant": "all trees", "anchors": ["rankeval/analysis/_efficient_feature_impl.cpp:c_feature_importance_tree"]}
{"id": "C52", "title": "Feature importance never accesses memory out of bounds", "statement": "c_feature_importance_tree stays within its arrays when every visited node sends at least one instance left; otherwise a node whose instances all go right and whose left child is a split is pushed with an empty segment of 2^32 elements.", "quantifier": "every tree and dataset", "why_tests_cant": "signed/unsigned comparison over all segment bounds", "anchors": ["rankeval/analysis/_efficient_feature_impl.cpp:c_feature_importance_tree", "rankeval/analysis/_efficient_feature_impl.h"]}
{"id": "C53", "title": "Tree-wise performance uses exactly the first k trees", "statement": "In tree_wise_performance the value reported for model m at coordinate k is the metric on the sum of the partial scores of its first min(k, n_trees) trees; entries beyond the model's size are NaN; it raises IndexError when step exceeds the largest model.", "quantifier": "every set of models and every step >= 1", "why_tests_cant": "all steps and model sizes", "anchors": ["rankeval/analysis/effectiveness.py:tree_wise_performance"]}
{"id": "C54", "title": "Query-wise performance is a cumulative distribution", "statement": "The reported curve is non-decreasing, within [0,1], its i-th value is the fraction of queries scoring below the (i+1)-th edge (at most the last edge for the last bin), and it ends at 1 when the range is not restricted.", "quantifier": "every score vector, number of bins, range", "why_tests_cant": "all score distributions", "anchors": ["rankeval/analysis/effectiveness.py:query_wise_performance", "rankeval/analysis/effectiveness.py:document_graded_relevance"]}
{"id": "C55", "title": "Query-class averages recombine to the overall mean", "statement": "The class value is the mean over exactly the queries of that class; the class means weighted by class sizes give the overall mean.", "quantifier": "every classification of the queries", "why_tests_cant": "all classifications", "anchors": ["rankeval/analysis/effectiveness.py:query_class_performance"]}
{"id": "C56", "title": "The rank confusion matrix counts every pair once", "statement": "For integer labels 0..L-1, the entries sum to the number of unordered pairs (with each row paired with itself unless same-label pairs are skipped); for labels a != b, M[a,b] + M[b,a] is the number of same-query pairs with those labels; without score ties M[a,b] is exactly the number of pairs in which the a-row is scored below the b-row.", "quantifier": "every dataset, score vector", "why_tests_cant": "all datasets and rankings", "anchors": ["rankeval/analysis/effectiveness.py:rank_confusion_matrix"]}
{"id": "C57", "title": "model_performance entries are independent evaluations", "statement": "Each entry [dataset, model, metric] is the average that metric.eval returns for that model's scores on that dataset, independently of the other entries and of caching, for metrics without state.", "quantifier": "every list of datasets, models, metrics", "why_tests_cant": "all lists", "anchors": ["rankeval/analysis/effectiveness.py:model_performance"]}
{"id": "C58", "title": "Randomization test p-values", "statement": "For every sequence of random selections both p-values are in [0,1], one-sided <= two-sided, identical systems give p = 1, and swapping the systems does not change the p-values when the means differ.", "quantifier": "every pair of score vectors, every outcome of the random generator, every n_perm >= 1", "why_tests_cant": "all random outcomes", "anchors": ["rankeval/analysis/statistical.py:_randomization"]}
{"id": "C59", "title": "k-fold scoring never trains on what it tests", "statement": "In each fold of the k-fold scoring the training rows and test rows are complementary, no query is split, the query sizes passed match the training rows, and every row receives exactly one score over the folds. Outside a notebook the function always fails at the end (progress_bar undefined).", "quantifier": "every dataset, k, shuffle, algorithm", "why_tests_cant": "all shuffles and sizes", "anchors": ["rankeval/analysis/statistical.py:_kfold_scoring"]}
{"id": "C60", "title": "Bias/variance decomposition is exact", "statement": "In exact arithmetic the reported error equals bias + variance, for the MSE as well as for the IR metrics, and all three are non-negative.", "quantifier": "every score matrix and label vector", "why_tests_cant": "all matrices", "anchors": ["rankeval/analysis/statistical.py:bias_variance"]}
{"id": "C61", "title": "Interrupted download", "statement": "After a crash at any point of a dataset download, the next load_dataset call without force_download either works on complete files or downloads again. (False: the directory is created before the download and is taken as proof of completion.) force_download=True always recovers. download_if_missing=False never downloads only if both sub-directories exist.", "quantifier": "every crash point, every sequence of calls", "why_tests_cant": "all crash points", "anchors": ["rankeval/dataset/datasets_fetcher.py:__fetch_dataset_and_models__"]}
{"id": "C62", "title": "Graphviz export node counts", "statement": "export_graphviz draws exactly the nodes up to max_depth, one arrow per father and son, and dots for the nodes just below; with output_leaves given, the count shown at each node is the number of instances whose exit leaf lies below it, i.e. of the rows that pass the node (the root shows the number of instances). With max_depth it raises TypeError exactly when the tree is higher than max_depth, on interpreters where a NumPy integer does not pass for a mapping in '%' formatting; elsewhere never.", "quantifier": "every tree, every leaf assignment, every max_depth and combination of options", "why_tests_cant": "all trees", "anchors": ["rankeval/visualization/topological.py:export_graphviz"]}
{"id": "C63", "title": "Several svmlight files are loaded independently", "statement": "load_svmlight_files succeeds exactly when the list is non-empty and every file loads, and returns the individual results in order; in particular the matrices need not have the same number of features, although the documentation promises it.", "quantifier": "every list of files", "why_tests_cant": "all files; the existing tests load the same file twice", "anchors": ["rankeval/dataset/svmlight_format.py:load_svmlight_files"]}
{"id": "C64", "title": "Average tree shape", "statement": "avg_tree_shape has, at (depth, position), exactly the fraction of the trees that have a node there, and stores an entry only for positions used by at least one tree.", "quantifier": "every ensemble laid out tree after tree with parents before children, height at most 63", "why_tests_cant": "all tree shapes", "anchors": ["rankeval/analysis/topological.py:TopologicalAnalysisResult.avg_tree_shape"]}
{"id": "C65", "title": "Fullness per level", "statement": "fullness_per_level is, for each level, the average over the positions used by at least one tree of the fraction of trees having a node there. (The documented meaning, how full the level is, fails: a level with two of eight nodes is reported as full.)", "quantifier": "every ensemble laid out tree after tree with parents before children, height at most 63", "why_tests_cant": "all tree shapes", "anchors": ["rankeval/analysis/topological.py:TopologicalAnalysisResult.fullness_per_level"]}
{"id": "C66", "title": "RMSE importances", "statement": "With the RMSE metric, feature_importance takes the square root of the importance of the first feature only; every other feature keeps its MSE importance.", "quantifier": "every model and dataset, in any arithmetic", "why_tests_cant": "all models and datasets", "anchors": ["rankeval/analysis/feature.py:feature_importance"]}
{"id": "C67", "title": "Normalised importances", "statement": "With normalize=True every importance is divided by the largest one: when the importances are non-negative and one is positive, the results lie between 0 and 1, keep their ratios, and the largest is 1.", "quantifier": "every model and dataset, exact arithmetic", "why_tests_cant": "all models and datasets", "anchors": ["rankeval/analysis/feature.py:feature_importance"]}
{"id": "C68", "title": "Coordinates of the bins", "statement": "The coordinate reported for a bin by query_wise_performance and document_graded_relevance is its lower edge plus one over the number of bins; this is the upper edge of the bin if and only if the range has width 1.", "quantifier": "every range and every positive number of bins, exact arithmetic", "why_tests_cant": "all ranges; tests use metrics in [0,1]", "anchors": ["rankeval/analysis/effectiveness.py:query_wise_performance", "rankeval/analysis/effectiveness.py:document_graded_relevance"]}
{"id": "C69", "title": "Data sets of different sizes are refused", "statement": "rank_confusion_matrix raises ValueError, and document_graded_relevance raises, as soon as two of the data sets have a different number of rows.", "quantifier": "every list of datasets and models", "why_tests_cant": "all lists of datasets", "anchors": ["rankeval/analysis/effectiveness.py:rank_confusion_matrix", "rankeval/analysis/effectiveness.py:document_graded_relevance"]}
{"id": "C70", "title": "Average tree contributions", "statement": "In tree_wise_average_contribution the value of tree t of a model is the mean over the rows of the absolute partial score of that tree; entries beyond the size of the model are NaN.", "quantifier": "every set of models and datasets, exact arithmetic", "why_tests_cant": "all models and datasets", "anchors": ["rankeval/analysis/effectiveness.py:tree_wise_average_contribution"]}
{"id": "C72", "title": "Table of p-values", "statement": "Each cell [dataset, metric] of statistical_significance is the result of the randomization test on the values per query of the two models on that dataset, independently of the other cells and of caching; a model tested against itself has p-values 1 on every dataset with a query.", "quantifier": "every list of datasets and metrics, every pair of models, every outcome of the random generator", "why_tests_cant": "all lists and random outcomes", "anchors": ["rankeval/analysis/statistical.py:statistical_significance"]}
{"id": "C73", "title": "Downloads stay inside their directory", "statement": "load_dataset / __fetch_dataset_and_models__, stopped at any point, changes nothing outside <data home>/<dataset name> except the creation of missing directories on the way to it, for archives whose member names do not climb with '..'; the file tree stays well formed. (False without that condition: extractall of an archive with '../' names writes elsewhere.)", "quantifier": "every catalogue entry, every state of the disk, every archive, every crash point", "why_tests_cant": "all archives and crash points", "anchors": ["rankeval/dataset/datasets_fetcher.py:__fetch_dataset_and_models__", "rankeval/dataset/datasets_fetcher.py:load_dataset"]}
{"id": "C74", "title": "What load_dataset returns", "statement": "On an empty data directory load_dataset opens the train, test and validation files with the contents of the downloaded archive, returns the licence and, when asked for, all model files of the second archive and nothing else; later calls change nothing and use the network only for the catalogue; an unknown name returns None and touches nothing.", "quantifier": "every catalogue, archive, fold and state of the disk", "why_tests_cant": "all archives and sequences of calls", "anchors": ["rankeval/dataset/datasets_fetcher.py:load_dataset", "rankeval/dataset/dataset_container.py"]}
{"id": "C71", "title": "PrecisionMax", "statement": "PrecisionMax is the fraction of the retrieved rows whose label is the best one of the query, between 0 and 1 and positive without a cutoff; it does not depend on the scale of the labels. It raises ZeroDivisionError when nothing is retrieved and ValueError on an empty query.", "quantifier": "every query, cutoff and argsort, exact arithmetic", "why_tests_cant": "all queries and cutoffs", "anchors": ["rankeval/metrics/precision_max.py:PrecisionMax.eval_per_query"]}
{"id": "C75", "title": "Feature importance with other metrics", "statement": "With a metric that is neither MSE nor RMSE, feature_importance credits each feature with the sum, over its splits (level by level, tree by tree), of the metric before the split minus the metric after it, where the predictions of a level are the means of the residuals of the groups of instances and the last level times the tree weight is added to the prediction; the count of a feature is its number of splits, modulo 2^16. Normalising divides by the largest importance. (False readings, refuted: a split that improves a ranking metric gets a negative importance, normalising then reverses the order; a tree that is a single leaf counts a use of the last feature.)", "quantifier": "every model with split roots, data set, deterministic metric, arithmetic", "why_tests_cant": "all trees and metrics", "anchors": ["rankeval/analysis/feature.py:feature_importance", "rankeval/analysis/feature.py:_feature_importance_tree"]}
{"id": "C76", "title": "The two feature importance algorithms agree", "statement": "For the squared error, the Python algorithm for arbitrary metrics returns the same importances as the C++ algorithm; its counts are at least as large, and differ where a split is reached by fewer than two instances.", "quantifier": "every model and data set the C++ code handles without faults, exact arithmetic", "why_tests_cant": "all trees and data sets", "anchors": ["rankeval/analysis/feature.py:_feature_importance_tree", "rankeval/analysis/_efficient_feature_impl.cpp"]}
{"id": "C77", "title": "Kendall's tau", "statement": "The tau of a query is (P-Q)/sqrt((P+Q+T)(P+Q+U)), counted over the pairs of its documents as documented, and NaN exactly when the labels or the scores are all equal. It lies between -1 and 1, is 1 (-1) exactly when the scores order the documents as (opposite to) the labels, ties included, depends on the order of the scores only, changes sign when it is reversed and does not depend on the order of the documents. The score of a data set is the mean over the queries with a value, NaN if there is none.", "quantifier": "every query and data set; exact arithmetic, order statements in any arithmetic", "why_tests_cant": "all label and score vectors", "anchors": ["rankeval/metrics/kendall_tau.py:Kendalltau.eval_per_query", "rankeval/metrics/kendall_tau.py:Kendalltau.eval", "rankeval/metrics/metric.py:Metric.eval"]}
{"id": "C78", "title": "Spearman's rho", "statement": "The rho of a query is Pearson's correlation of the average ranks, and NaN exactly when the labels or the scores are all equal. It lies between -1 and 1, is 1 (-1) exactly when the scores order the documents as (opposite to) the labels, equals 1 - 6 sum d^2 / (n(n^2-1)) without ties, depends on the order of the scores only and not on the order of the documents. The ranks of n documents add up to n(n+1)/2. The score of a data set is the mean over the queries with a value.", "quantifier": "every query and data set; exact arithmetic, order statements in any arithmetic", "why_tests_cant": "all label and score vectors", "anchors": ["rankeval/metrics/spearman_rho.py:SpearmanRho.eval_per_query", "rankeval/metrics/spearman_rho.py:SpearmanRho.eval", "rankeval/metrics/metric.py:Metric.eval"]}
{"id": "C81", "title": "The picture of the average tree shape", "statement": "plot_shape cuts the half circle of each ring in equal sectors. Every sector of ring l lies in the arc of exactly one of the 2^l positions of that level, and its colour is the fraction of the trees of the ensemble that have a node at that position. There are at most max_level+1 rings and no counted node of those levels is left out.", "quantifier": "every well-formed ensemble, every max_level >= 0, every order of the trees", "why_tests_cant": "all tree shapes and depths", "anchors": ["rankeval/visualization/topological.py:plot_shape", "rankeval/analysis/topological.py:TopologicalAnalysisResult.avg_tree_shape"]}
{"id": "C79", "title": "The catalogue of the data sets", "statement": "The catalogue that the script writes is read back with the same value under every sequence of keys, and two dictionaries give the same file exactly when they hold the same values. The reader accepts exactly the texts of the JSON grammar (of strings and objects), keeping the last value of a repeated key, and an entry takes each of its fields from its own key. Each of the four entries has the keys the fetcher needs, is stored under its own name and has URLs that end in the names of its archives. Every entry can be loaded from an archive with its files (false: istella-full names a validation file 'None').", "quantifier": "every dictionary of strings and dictionaries; every file system, server and archive", "why_tests_cant": "all dictionaries and characters; the downloads need the network", "anchors": ["rankeval/dataset/write_json_dataset_catalogue.py:main", "rankeval/dataset/write_json_dataset_catalogue.py:__add_istella_full__", "rankeval/dataset/datasets_fetcher.py:__dataset_catalogue__", "rankeval/dataset/datasets_fetcher.py:load_dataset"]}
{"id": "C80", "title": "The bar plot of the important features", "statement": "plot_feature_importance draws exactly max_features pairs of bars, from the largest importance (or count) downwards, and no feature left out has a larger one; heights and labels belong to the same feature, bars do not overlap and lie in the picture. Asking for more features than there are is an error. align_y_axis gives both axes ticks at the same heights, at distances that are multiples of the resolution, covering the axis. (False for counts from 65536 on, for a single feature, and when no importance is positive.)", "quantifier": "all importances, counts, names and orders of equal values; all axis bounds", "why_tests_cant": "all inputs; pictures are not compared in tests", "anchors": ["rankeval/visualization/feature.py:plot_feature_importance", "rankeval/visualization/feature.py:align_y_axis"]}
{"id": "C82", "title": "The figures of the effectiveness analyses", "statement": "The plot functions of visualization/effectiveness.py draw exactly the values of the analysis they are given: one figure, panel and curve (or series of bars) for each data set, model and metric as chosen by compare, under the right names, with the legend in the last panel; the ring on a tree-wise curve is its first maximum; bars never overlap, ticks are in the middle of their groups and every value fits below the top of the axis; query curves are percentages; a confusion matrix is drawn with logarithms exactly when one count is more than twice every other. Other comparisons are refused. (Panels of the query-wise figures do not name their metric or model, except the last; a query-class figure comparing metrics is entitled with the last model only; a one-cell matrix raises; without a positive value the bars are invisible.)", "quantifier": "all coordinates, values (numbers or NaN) and options", "why_tests_cant": "all inputs; pictures are not compared in tests", "anchors": ["rankeval/visualization/effectiveness.py:plot_model_performance", "rankeval/visualization/effectiveness.py:plot_tree_wise_performance", "rankeval/visualization/effectiveness.py:plot_tree_wise_average_contribution", "rankeval/visualization/effectiveness.py:plot_query_wise_performance", "rankeval/visualization/effectiveness.py:plot_document_graded_relevance", "rankeval/visualization/effectiveness.py:is_log_scale_matrix", "rankeval/visualization/effectiveness.py:plot_rank_confusion_matrix", "rankeval/visualization/effectiveness.py:plot_query_class_performance"]}
{"id": "C83", "title": "The printed names of metrics", "statement": "str of a metric shows its name, its cutoff when one is set and its threshold when it is not 1; with names free of '@' and '[' two metrics are printed alike exactly when these agree, and with the default names only metrics of one class are printed alike. (Exceptions, proved: Precision and PrecisionMax share the name P; implementation, p, p_abandonment and no_relevant_results are not shown, so metrics with the same name can give different values; a chosen name can imitate a cutoff.)", "quantifier": "all metrics, names, cutoffs and thresholds, any injective formatting of thresholds", "why_tests_cant": "all pairs of metrics", "anchors": ["rankeval/metrics/precision.py:Precision.__str__", "rankeval/metrics/precision_max.py:PrecisionMax.__str__", "rankeval/metrics/ndcg.py:NDCG.__str__", "rankeval/metrics/rbp.py:RBP.__str__"]}
{"id": "C84", "title": "The parallel loops of the analyses give the same result in every schedule", "statement": "Iterations that write only cells of their own and read only those and cells nobody writes end, in every interleaving of their loads and stores, with the memory and the results each has when run alone, and no schedule blocks or goes on for ever. This holds for the loop over the trees and the loop over the coordinates of the topological analysis and for the loops of the feature importance (zeroing, residuals, filling, gains, update of the predictions): every schedule gives the values of the sequential loop. The reductions give the same sum in any order and grouping in exact arithmetic. (Exceptions, proved: trees that are not stored one after the other share cells, and the result depends on the schedule; in float32 a reduction depends on the grouping.)", "quantifier": "all ensembles laid out tree by tree, all data, every interleaving of the loads and stores of all iterations", "why_tests_cant": "the number of interleavings is exponential and a test sees only the schedules the machine happens to choose", "anchors": ["rankeval/analysis/_efficient_topological.pyx:efficient_topological_analysis", "rankeval/analysis/_efficient_topological.pyx:_compute_node_indices", "rankeval/analysis/_efficient_feature_impl.cpp:c_feature_importance", "rankeval/analysis/_efficient_feature_impl.cpp:c_feature_importance_tree"]}
{"id": "C85", "title": "How far float32 scores are from the exact ones", "statement": "In the float32 arithmetic of the model every sum, difference, product and quotient is a nearest float32, so its relative error is at most u = 2^-24 (products and quotients: plus t = 2^-150). The score of a document under n trees therefore differs from the exact sum of weight times leaf by at most ((1+u)^n - 1) times the sum of the magnitudes plus n (1+u)^n t, whatever the order and grouping of the additions; after learning rate and base score the bound grows by two more roundings, and it holds for what score returns, detailed or not, after any history of calls. Documents whose exact scores are further apart than their two bounds are ordered as in exact arithmetic, and no intermediate result overflows while (1+u)^n times the sum of the magnitudes (plus n (1+u)^n t) stays below 2^128. (Exceptions, proved: with a smaller gap two documents can get one score; twice the largest float32 is out of range.)", "quantifier": "all ensembles, documents, weights, learning rates and base scores, any number of trees, all orders of addition, all histories of scoring", "why_tests_cant": "the bound is over all float32 values and any number of trees", "anchors": ["rankeval/scoring/_efficient_scoring.pyx:basic_scoring", "rankeval/scoring/_efficient_scoring.pyx:detailed_scoring", "rankeval/scoring/scorer.py:Scorer.score", "rankeval/model/rt_ensemble.py:RTEnsemble.score"]}
{"id": "C86", "title": "What a DOT reader finds in an exported tree", "statement": "Read with a lexer and parser for DOT (words, quoted strings, HTML strings with nested tags, attribute lists, edges, subgraphs), the text that export_graphviz returns is a graph named Tree that consists of default attributes followed by exactly one statement per item of the drawing of C62, in order: the number of the node, the lines of its label (number, counts with percentage, test or output, after the \\n or <br/> and the entities are decoded), its fill colour as the four bytes of the colour map with three quarters of the alpha, the two ends of the arrow and the True/False marks of the root, the members of each rank; for both styles of characters, rounded or not, whenever the feature names of the drawn nodes have no control character, ampersand, and no quote or backslash (plain) or angle bracket (HTML). Written to a file the text is the same, and the file holds nothing else. When the call raises, the exception is that of C62 and the file is left without a readable graph, empty when the arguments were refused. (Exceptions, proved: a name with a quote can add a node that the tree does not have; a name with < makes the HTML text unreadable; a refused call empties an existing file.)", "quantifier": "all well-formed ensembles, trees, options, styles, feature names and previous file contents", "why_tests_cant": "tests compare a few outputs or only call the function; no test reads the text back for all names, styles and trees", "anchors": ["rankeval/visualization/topological.py:export_graphviz"]}
{"id": "C87", "title": "XML model files are read by the grammar of XML and survive interrupted saves", "statement": "A text is read as an element tree exactly when it is a document of the grammar of XML (declaration, comments, elements with matching tags and distinct attributes, references, ends of lines; ASCII, without CDATA, processing instructions, document types and namespaces), and then as the one tree of that document; any other text is refused with ParseError before anything is loaded. The text written by save, with the indentation of _xmlprettyprint and the escapes of ElementTree, is a document with the same elements, attributes and texts up to blanks before first children, whenever names are XML names and texts have no carriage return. Hence for every finite float32 model with at least one tree the file written by ProxyQuickRank.save, read by ProxyQuickRank.load, gives back the trees and the weights; a QuickRank or Jforests text whose document describes trees loads these trees; and a save that stops before the end leaves a file that is refused, unless only the final newline is missing, in which case it loads as the whole file. (Exceptions, proved: a carriage return in a text comes back as a newline; an element name with a blank gives a file that cannot be read.)", "quantifier": "all texts, all writable element trees, all finite float32 models, all points of interruption", "why_tests_cant": "tests load two small files and save one model; they cannot try every file, model and every prefix of every saved file", "anchors": ["rankeval/model/proxy_QuickRank.py:ProxyQuickRank.save", "rankeval/model/proxy_QuickRank.py:ProxyQuickRank._xmlprettyprint", "rankeval/model/proxy_QuickRank.py:ProxyQuickRank.load", "rankeval/model/proxy_Jforests.py:ProxyJforests.load"]}
{"id": "C88", "title": "Arrays shared between objects change only by the client, and careful clients see values", "statement": "In a memory of arrays shared by reference between data sets, scorers, models, caches and the client: no call of the library (constructing, subsetting, splitting and folding data sets, loading, scoring, copying and pruning models, clearing caches) changes an array that existed before it. Parts made by subset, split and kfold, and copies of models with their cached scores, hold arrays of their own: they have the value given by the functional model, later writes to the original are not seen by them and writes to them are seen by nothing else. subset_features and the constructor share the labels (and the matrix) they are given. score without caching returns new arrays that nothing else refers to, or the arrays of the cache. A client that does not write into the arrays of models, of cached scores and of hashed data sets finds in every reachable state the models and answers of the functional model, hashed data sets never change, and every cached answer is the one that scoring afresh would give. (Exceptions, proved: writing into a returned array changes the cached answer, also when the request asked for no caching; writing into a scored data set leaves stale scores and a stale hash; a feature subset changes with the labels of the original.)", "quantifier": "all programs of client writes and library calls, all arrays, data sets, models and requests, any arithmetic", "why_tests_cant": "tests check a few results right after they are computed; they do not follow who else holds an array through arbitrary later calls and writes", "anchors": ["rankeval/dataset/dataset.py:Dataset.subset", "rankeval/dataset/dataset.py:Dataset.subset_features", "rankeval/dataset/dataset.py:Dataset.__hash__", "rankeval/model/rt_ensemble.py:RTEnsemble.score", "rankeval/model/rt_ensemble.py:RTEnsemble.copy", "rankeval/scoring/scorer.py:Scorer.score"]}
{"id": "C89", "title": "How far computed metrics are from the exact ones", "statement": "Let every arithmetic operation, exponential, logarithm, power and root be rounded with a relative error of at most u (and an absolute error eta when a product, quotient or power underflows), without changing signs, comparisons and counts being exact, and let np.sum and np.nanmean add in any order, each of n numbers passing through at most D(n) additions. Then on a query of n documents every metric raises the same exception as in exact arithmetic or returns a value within k roundings of the exact one: k is 1 for Precision and Recall, 2 for MRR, n+2 for MAP, 6+D(n) for DCG, 14+2D(n) for NDCG, 4+D(n) for RBP and RMSE, and 3n and 6n+1 for ERR and Pfound in units of u times the largest gain; a value that is exactly 0 is computed as 0. Storing in float32 and averaging over the queries adds 2+D(number of queries) roundings. k roundings are a relative error of 2ku, so metrics that differ by more than their errors are ranked correctly. float32 with functions accurate to one unit is such an arithmetic (u = 2^-23), so the NDCG of a query has a relative error of at most (14+2D(n)) 2^-22. (Exception, proved: the values are not always equal; a precision of 1/3 is no float32.)", "quantifier": "all metrics, cutoffs, parameters, labels, scores, data sets, argsort functions, orders of addition and roundings within the bounds", "why_tests_cant": "tests compare a few values up to a chosen tolerance; they cannot show that the tolerance holds for every list of labels and every order in which NumPy adds", "anchors": ["rankeval/metrics/metric.py:Metric.eval", "rankeval/metrics/dcg.py:DCG.eval_per_query", "rankeval/metrics/ndcg.py:NDCG.eval_per_query", "rankeval/metrics/map.py:MAP.eval_per_query", "rankeval/metrics/err.py:ERR.eval_per_query", "rankeval/metrics/pfound.py:Pfound.eval_per_query", "rankeval/metrics/rbp.py:RBP.eval_per_query", "rankeval/metrics/mse.py:MSE.eval", "rankeval/metrics/rmse.py:RMSE.eval_per_query"]}
{"id": "C90", "title": "Shared metric objects do not leak between analyses", "statement": "Metric objects are shared by all analyses and by direct calls, and NDCG keeps the ideal DCGs of the data sets it has seen. Provided the data sets come from the constructor and no two of them can be confused (same object, or different hash, or == answers and equal ones have the same labels and query boundaries), model_performance, tree_wise_performance, query_wise_performance, query_class_performance, statistical_significance, bias_variance and feature_importance return, after any history of analyses (also ones that raised in the middle) and direct eval_per_query calls on the same objects, exactly what they return when each metric is a function computed from scratch: the same values or the same exception. In particular two histories give the same result, an object may occur several times in the list of metrics, and in real arithmetic every entry of model_performance is the NDCG of the scores of the model. (Exception, proved: with two data sets that are equal but have other query boundaries, one call of model_performance returns a wrong row.)", "quantifier": "all histories, data sets, models, lists of metric objects, arguments of the analyses, argsort functions and orders of addition", "why_tests_cant": "tests use fresh metric objects and few call orders; the claim is about every sequence of calls, including ones that fail half way", "anchors": ["rankeval/metrics/ndcg.py:NDCG.eval", "rankeval/metrics/ndcg.py:NDCG.eval_per_query", "rankeval/analysis/effectiveness.py:model_performance", "rankeval/analysis/effectiveness.py:tree_wise_performance", "rankeval/analysis/effectiveness.py:query_wise_performance", "rankeval/analysis/effectiveness.py:query_class_performance", "rankeval/analysis/statistical.py:statistical_significance", "rankeval/analysis/statistical.py:bias_variance", "rankeval/analysis/feature.py:feature_importance"]}
{"id": "C91", "title": "Only the trees of a model matter", "statement": "Two models whose arrays hold the same trees with the same weights, in whatever order the nodes are stored, and that have the same learning rate and base score, are interchangeable: after any calls of score and clear_cache, score returns the same predictions and the same contributions of the trees (or the same exception); model_performance, tree_wise_performance, tree_wise_average_contribution, query_wise_performance, query_class_performance, document_graded_relevance, rank_confusion_matrix, statistical_significance and feature_importance return the same tables or the same exception, in any arithmetic; the numbers of nodes and leaves, the heights, the pruned copies and (parents stored before children, heights up to 63) the topological matrix agree too. Every loader produces arrays that hold the trees of the file, so files of different programs with the same trees, and a model saved and loaded again with its learning rate and base score, give interchangeable models. (Exceptions, proved: the numbers of the exit leaves depend on the layout; with a metric other than MSE and RMSE, feature_importance of a tree that is a single leaf reads the last node of the arrays; the topological matrix depends on the layout when a child is stored before its parent.)", "quantifier": "all pairs of models with the same trees, all data sets with rows as wide as declared, all histories, metrics, arguments and arithmetics", "why_tests_cant": "tests compare the scores of a few files; the claim relates all layouts of all trees through every analysis, with caches in any state", "anchors": ["rankeval/model/rt_ensemble.py:RTEnsemble.score", "rankeval/scoring/_efficient_scoring.pyx", "rankeval/analysis/effectiveness.py", "rankeval/analysis/statistical.py:statistical_significance", "rankeval/analysis/feature.py:feature_importance", "rankeval/analysis/topological.py", "rankeval/model/proxy_QuickRank.py", "rankeval/model/proxy_LightGBM.py", "rankeval/model/proxy_XGBoost.py", "rankeval/model/proxy_ScikitLearn.py", "rankeval/model/proxy_Jforests.py", "rankeval/model/proxy_CatBoost.py"]}
{"id": "C92", "title": "The signed-rank arithmetic is IEEE 754 arithmetic", "statement": "The float32 values used in the other statements are signed ranks rounded once to nearest-even. They agree with the IEEE 754 format: the finite float32 bit patterns are exactly the ranks below 255*2^23 (the value of a rank is read off the bits, -0 and +0 share rank 0), and +, -, *, / by a non-zero value, the comparisons and the conversion of integers and of float64 values give the float of the rank that the rank arithmetic gives, or the infinity of the right sign if that rank is too large; division by zero gives NaN or an infinity. Hence a tree sends a row of finite values to the same leaf in both, and if no partial score overflows the scores agree, bit for bit up to the sign of zero, with an error bound in real numbers. (Exception, proved: when a partial sum overflows, the ranks continue with a finite number and float32 stays infinite.)", "quantifier": "all finite float32 and float64 values, all ensembles and rows", "why_tests_cant": "float32 has 2^32 values and each operation 2^64 pairs; tests sample a few", "anchors": ["rankeval/scoring/_efficient_scoring.pyx:basic_scoring", "rankeval/dataset/_svmlight_loader.cpp", "rankeval/model/rt_ensemble.py:RTEnsemble.initialize"]}
{"id": "C93", "title": "Missing values, infinities and signed zeros", "statement": "Scoring with the special values of float32. A NaN feature goes to the right child at every node; it is scored as +inf when no node value is +inf, also in the detailed scores. Rows with equal values (==) get the same scores, so the sign of a zero is not seen. A model loaded from an XGBoost dump scores every row, with missing and infinite values, as the booster whose missing values all take the 'no' branch (thresholds in (-2^24, 2^24]); on rows without NaN the directions of the dump do not matter. A NaN contribution of a tree makes the score NaN; finite contributions never give NaN; non-negative ones give a non-negative score. A data set with a NaN is not equal to any other object, not even to a copy, so cached scores are only found through the same object; after any history of score and clear_cache the scores are those of a fresh model (or, for a plain request, the scores of a detailed one). (Exceptions, proved: the default direction 'missing=' of the dump is lost, so a row with a missing value gets another score than in XGBoost; with a threshold +inf a NaN and +inf part; infinite parts of opposite sign give NaN.)", "quantifier": "all float32 values including NaN, infinities and -0, all ensembles, rows, dumps and histories", "why_tests_cant": "the test data contain no NaN or infinity; the claim covers every placement of special values", "anchors": ["rankeval/scoring/_efficient_scoring.pyx:basic_scoring", "rankeval/scoring/_efficient_scoring.pyx:detailed_scoring", "rankeval/model/proxy_XGBoost.py:ProxyXGBoost.load", "rankeval/model/rt_ensemble.py:RTEnsemble.score", "rankeval/dataset/dataset.py:Dataset.__eq__"]}
{"id": "C94", "title": "Models of programs that compare doubles", "statement": "LightGBM, scikit-learn, Jforests, QuickRank and CatBoost keep thresholds and leaf values in double precision; the loaders store them in float32 cells and rows are float32. A comparison feature <= threshold after both sides are rounded to float32 agrees with the comparison of the doubles, except that it also holds where both sides round to the same float32. Hence, on a row where no visited comparison is of that kind, each tree of the loaded model reaches the leaf that the program with doubles reaches, and the score is the float32 sum of the weighted rounded leaves; with float32 thresholds and rows this is always so. That score is finite if the bound of the sum is below 2^128 and differs from the exact weighted sum of the double leaves by at most ((1+2^-24)^(n+1)-1) times the sum of the magnitudes plus (1+2^-24)^n (sum of |weights| + n) 2^-150. (Exceptions, proved: with the threshold 0.1 the float32 next to 0.1 goes right in LightGBM and left in the loaded model; a missing value counts as 0 in LightGBM with decision type 2 and goes right in the loaded model.)", "quantifier": "all doubles including NaN and infinities for the comparisons, all model files of the shapes in the loader properties, all rows; finite values for the error bound", "why_tests_cant": "the tests compare scores of a few rows with a tolerance; the disturbed rows lie within one float32 of a threshold", "anchors": ["rankeval/model/proxy_LightGBM.py:ProxyLightGBM.load", "rankeval/model/proxy_ScikitLearn.py:ProxyScikitLearn.load", "rankeval/model/proxy_Jforests.py:ProxyJforests.load", "rankeval/model/proxy_QuickRank.py:ProxyQuickRank.load", "rankeval/model/proxy_CatBoost.py:ProxyCatBoost.load", "rankeval/scoring/_efficient_scoring.pyx:_score_single_instance_single_tree"]}
{"id": "C95", "title": "Sizes computed in double precision", "statement": "The sizes that the code computes through doubles are the intended integers. For 0 <= n < 2^53 and 0 < k <= 2^53, int(np.floor(n/k)), int(n/k) and ceil(n/float(k)) are the exact floor and ceiling of n/k; hence kfold, _kfold_scoring, load_svmlight_file and the CatBoost loader give what they give with exact division. In split, finite sizes that pass the checks with a validation size that is not negative give part sizes between 0 and the number n of queries (n <= 2^53), each within 1/2 + 2^-53 * ratio * n of ratio * n; if queries remain for the test part, the three parts are a partition of the rows by whole queries with these numbers of queries, and if exactly none remains the test part is the whole data set. For decimal ratios c/d with d*n < 2^50 whose product with n is not halfway between two integers the parts are those of exact arithmetic, and decimals with c1/d1 + c2/d2 <= 1 are always accepted. (Exceptions, proved: at a tie the double may round to the other side (0.575 of 100 is 57); two doubles whose exact sum exceeds 1 are accepted; NaN passes the checks and fails later; a negative validation size is accepted; above 2^53 the fold size can be one too large.)", "quantifier": "all integers below 2^53, all finite doubles, all data sets and permutations of their queries", "why_tests_cant": "the tests use a handful of sizes; whether a rounded quotient or product crosses an integer depends on the exact values", "anchors": ["rankeval/dataset/dataset.py:Dataset.split", "rankeval/dataset/dataset.py:Dataset.kfold", "rankeval/analysis/statistical.py:_kfold_scoring", "rankeval/dataset/svmlight_format.py:load_svmlight_file", "rankeval/model/proxy_CatBoost.py:ProxyCatBoost.load"]}
{"id": "C96", "title": "Data files of which only the beginning was written", "statement": "Let f be the svmlight file that a data set of at least two rows was dumped to, g a beginning of f (an interrupted dump, a truncated copy), and m the number of newlines in g. Loading g raises RuntimeError, raises ZeroDivisionError if g is empty, or gives the first m rows, labels and query ids as they were dumped and at most one more row. That row has the label that was dumped; its cells before the cut are as dumped, at most one is the number at a beginning of the cell's text, and the others are zero; its query id is as dumped, or a number read from a beginning of the id and then all cells are zero. If m>0 the number of features is as dumped. If g ends with a newline, exactly the data set of the first m rows is loaded; if only the last newline, or the blank before it too, is missing, the whole data set is. (Exceptions, proved: 125 may come back as 12, lost cells as zeros, query 17 as query 1, a first row without features.)", "quantifier": "all data sets with grouped int32 query ids, at least two rows and one feature, whose values print and read back; all finite float32 values; all beginnings of the file", "why_tests_cant": "the tests load only complete files; the outcome depends on the character at which the file ends", "anchors": ["rankeval/dataset/dataset.py:Dataset.dump", "rankeval/dataset/dataset.py:Dataset.load", "rankeval/dataset/svmlight_format.py:load_svmlight_file", "rankeval/dataset/svmlight_format.py:dump_svmlight_file", "rankeval/dataset/_svmlight_format.cpp:parse_line"]}
{"id": "C97", "title": "Model dumps of which only the beginning was written", "statement": "Take the first n lines of an XGBoost or scikit-learn dump. They always load without an error. If the last of them is the line that announces a tree, scoring any row reads outside the arrays. Otherwise scores and partial scores are exactly those of the trees that are there, where in the tree that was cut every split without any line of its right subtree has become a leaf whose value is the threshold of the split. An XGBoost dump that ends inside a line does the same as one that ends before or after that line, or loads a leaf with the number at a beginning of its value, or raises ValueError if that beginning is no number. The first lines of a LightGBM file are a complete file of the first trees, or end inside the block of a tree. In the latter case they load without an error; if only the first line of the block is there, scoring any row reads outside the arrays; otherwise the incomplete tree is there with weight 0, adding its value times 0 to scores and partial scores, so that in exact arithmetic the scores are those of the complete trees. In particular an incomplete dump is not rejected, and thresholds are added to the scores (proved on a concrete file).", "quantifier": "all lists of trees of any shape, all printed forms of their dumps, all beginnings (XGBoost, thresholds without closing bracket) or numbers of lines (scikit-learn, nodes numbered in the order of the lines; LightGBM), all rows with the features tested, every number type", "why_tests_cant": "the tests load only complete files; the outcome depends on where in the pre-order of a tree the file ends, and on an out-of-bounds read that need not crash", "anchors": ["rankeval/model/proxy_XGBoost.py:ProxyXGBoost.load", "rankeval/model/proxy_XGBoost.py:ProxyXGBoost._count_nodes", "rankeval/model/proxy_ScikitLearn.py:ProxyScikitLearn.load", "rankeval/scoring/_efficient_scoring.pyx:basic_scoring", "rankeval/scoring/_efficient_scoring.pyx:detailed_scoring", "rankeval/scoring/_efficient_scoring.pyx:_score_single_instance_single_tree", "rankeval/model/proxy_LightGBM.py:ProxyLightGBM.load"]}
{"id": "C98", "title": "Metrics when scores or labels are NaN or infinite", "statement": "NumPy sorts NaN last and the metrics reverse the order, so the documents with a NaN score are ranked first, then the others by decreasing score; a document one of whose trees contributes NaN precedes every document with a number. The ranking metrics do not change when NaN is replaced by +inf (if no score is +inf) or under any change that keeps that order; Precision at the number of NaN scores is the fraction of relevant documents among them; if all scores are NaN every order is possible. One NaN label makes the NDCG of its query NaN at every cutoff, also for an NDCG object after any history, and one NaN score or label makes the RMSE of its query NaN. The largest of some labels is NaN if one of them is, so one NaN label, retrieved or not, makes ERR and Pfound NaN and PrecisionMax 0; Precision, Recall, MRR and RBP see of a label only whether it reaches the threshold, so NaN counts as not relevant. A query whose value is NaN is left out of the mean: changing its labels and scores has no effect as long as the value stays NaN. (Exceptions, proved: NaN is not ranked last; with a score +inf NaN and +inf part; replacing a score by NaN can improve the RMSE; average precision divides by NaN labels, so there NaN does not count as not relevant.)", "quantifier": "all metrics, labels, scores, data sets and histories; every sorting algorithm; every arithmetic with NaN, in particular float32 and float64", "why_tests_cant": "no test has a NaN score or label; NumPy leaves the order of equal keys open, and the mean hides the queries that failed", "anchors": ["rankeval/metrics/metric.py:Metric.eval", "rankeval/metrics/ndcg.py:NDCG.eval", "rankeval/metrics/ndcg.py:NDCG.eval_per_query", "rankeval/metrics/dcg.py:DCG.eval_per_query", "rankeval/metrics/precision.py:Precision.eval_per_query", "rankeval/metrics/rmse.py:RMSE.eval_per_query", "rankeval/metrics/mse.py:MSE.eval_per_query", "rankeval/metrics/mrr.py:MRR.eval_per_query", "rankeval/metrics/err.py:ERR.eval_per_query", "rankeval/metrics/pfound.py:Pfound.eval_per_query", "rankeval/metrics/precision_max.py:PrecisionMax.eval_per_query", "rankeval/metrics/recall.py:Recall.eval_per_query", "rankeval/metrics/rbp.py:RBP.eval_per_query"]}
{"id": "C99", "title": "From the files to the metric", "statement": "For a readable data file (each data line has a query id, increasing feature ids and a label, the lines of a query are adjacent) and a model whose arrays hold its trees, in particular one loaded from a file of QuickRank, LightGBM, XGBoost, Jforests, scikit-learn (as exported) or CatBoost (trees of one size): loading succeeds; if some tree tests a feature that no line reaches, score raises RuntimeError; otherwise the score of each line is the float32 sum over the trees of weight times the leaf found by looking up, on the line itself, the value of each tested feature (0 when absent), then learning rate and base score (one half for XGBoost by default); and Metric.eval applies the metric to the labels and scores of the lines of each query, in the order of first occurrence of the query ids, reporting the first error or the mean of the values that are numbers. (Exception, proved: a feature absent from the whole file is refused although its value would be 0 on each line.)", "quantifier": "all data files, model files, numbers of trees, lines and queries; all metrics, arithmetics and readings of numerals; cache on or off", "why_tests_cant": "the tests check the loaders, the scorer and the metrics one by one on a few files; no test relates the text of a line to the value of the metric", "anchors": ["rankeval/dataset/svmlight_format.py:load_svmlight_file", "rankeval/dataset/dataset.py:Dataset.load", "rankeval/model/rt_ensemble.py:RTEnsemble.__init__", "rankeval/model/rt_ensemble.py:RTEnsemble.score", "rankeval/model/proxy_XGBoost.py:ProxyXGBoost.load", "rankeval/model/proxy_QuickRank.py:ProxyQuickRank.load", "rankeval/metrics/metric.py:Metric.eval"]}
{"id": "C100", "title": "Bytes of a data file that the loader does not see", "statement": "The loader reads each line as a C string. So a NUL byte hides the rest of its line, and a line that begins with NUL hides the rest of the file, without any error: loading a file gives what its visible part gives, errors included, and every file has a visible part without NUL. White space at the end of a non-empty line (such as a carriage return), and a newline missing at the end of the file, do not change anything. (Exception, proved: a line with only white space is an error, not nothing.)", "quantifier": "all byte sequences, well-formed or not; all readings of numerals", "why_tests_cant": "no test file contains NUL bytes or carriage returns; data that vanish silently are only visible when the number of rows is known beforehand", "anchors": ["rankeval/dataset/_svmlight_format.cpp:parse_file", "rankeval/dataset/_svmlight_format.cpp:parse_line", "rankeval/dataset/svmlight_format.py:load_svmlight_file"]}
{"id": "C101", "title": "Data sets by path and by open stream", "statement": "A path is read and written compressed exactly when its last component is a name that is not only dots followed by .gz (gzip) or .bz2 (bzip2). Writing a data set to a path changes that file only, and loading the path gives the data set back, compressed or not. A path can be loaded any number of times with the same result. A stream loads like a file with the text not yet read, and changes nothing else; after a successful load without NUL bytes nothing is left, so a second load of the same stream raises ZeroDivisionError; a line that begins with NUL ends the first data set, and the next load begins after it. (Exception, proved: a file named just .gz is not uncompressed, although its path ends in .gz as the documentation says.)", "quantifier": "all paths, files, streams, data sets and readings of numerals; all compressions that give back what was written", "why_tests_cant": "the tests load a few paths and one stream each; the rule for the extension is hidden in os.path.splitext, and the state of a stream after loading is not looked at", "anchors": ["rankeval/dataset/svmlight_format.py:_open", "rankeval/dataset/svmlight_format.py:load_svmlight_file", "rankeval/dataset/svmlight_format.py:load_svmlight_files", "rankeval/dataset/svmlight_format.py:dump_svmlight_file", "rankeval/dataset/dataset.py:Dataset.load", "rankeval/dataset/dataset.py:Dataset.dump", "rankeval/dataset/_svmlight_format.cpp:parse_file"]}

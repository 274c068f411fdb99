{"id": "C01", "title": "Each split partitions the node's samples", "statement": "In a tree returned by NewTree every non-leaf node sends each of its samples to exactly one child: the left child's samples are, in order, exactly the node's samples whose split-feature value is <= the node's threshold, the right child's are exactly the others; nothing is lost or duplicated, at every depth.", "quantifier": "every data matrix, gradient/label vector, index list, option record and legal sort/sum implementation for which NewTree returns", "why_tests_cant": "A test sees a few data sets; a lost sample needs a particular tie or NaN pattern at a particular depth.", "anchors": ["tree.go:NewTree", "tree.go:maybeInsertChildNode"]}
{"id": "C02", "title": "A training sample is predicted by the leaf that contains it", "statement": "For a tree returned by NewTree, calling PredictSingle on the feature vector of any sample the tree was grown from returns the value of a leaf whose sample list contains that sample, and every sample is in the sample list of exactly one leaf.", "quantifier": "every data matrix, gradient/label vector, index list, option record and legal sort/sum implementation for which NewTree returns", "why_tests_cant": "Quantifies over all training sets and all samples, including NaN, infinities, ties.", "anchors": ["tree.go:NewTree", "tree.go:PredictSingle"]}
{"id": "C03", "title": "Depth never exceeds MaxDepth", "statement": "The tree returned by NewTree has depth at most max(0, MaxDepth); with MaxDepth <= 0 it is a single leaf.", "quantifier": "every data matrix, gradient/label vector, index list, option record and legal sort/sum implementation for which NewTree returns", "why_tests_cant": "All depths and all data.", "anchors": ["tree.go:NewTree"]}
{"id": "C04", "title": "Branches() counts the nodes", "statement": "For a tree returned by NewTree, Branches() is the number of nodes of the tree, it is odd, and it is at most 2^(MaxDepth+1)-1.", "quantifier": "every data matrix, gradient/label vector, index list, option record and legal sort/sum implementation for which NewTree returns", "why_tests_cant": "Unbounded tree shapes.", "anchors": ["tree.go:Branches", "tree.go:maybeInsertChildNode"]}
{"id": "C05", "title": "Leaf() is exactly 'has no children'", "statement": "In a tree returned by NewTree every node for which Leaf() is true has no children and every node for which it is false has both children, so no traversal can dereference a missing child.", "quantifier": "every data matrix, gradient/label vector, index list, option record and legal sort/sum implementation for which NewTree returns", "why_tests_cant": "Leaf() is inferred from a floating point score (== 0 or +Inf); whether a score can collide with the sentinel is a for-all question over float arithmetic.", "anchors": ["tree.go:Leaf", "tree.go:findBetterSplit"]}
{"id": "C06", "title": "Node values follow the boosting formulas", "statement": "Every node of an XGB tree returned by NewTree holds value -(sum of its samples' gradients)/(sum of its samples' hessians + Lambda), every node of a non-XGB tree holds the mean of its samples' targets, bit for bit in float64.", "quantifier": "every data matrix, gradient/label vector, index list, option record and legal sort/sum implementation for which NewTree returns", "why_tests_cant": "All data and all depths.", "anchors": ["tree.go:NewTree"]}
{"id": "C07", "title": "The chosen split is the best admissible one", "statement": "At each non-leaf node of a tree returned by NewTree the recorded score is the score of one candidate boundary, and no admissible candidate boundary (any scanned feature, any boundary between distinct neighbouring values leaving at least int(MinChildWeight) sorted samples on both sides) scores strictly better; among equal scores the first in scan order wins. A node with MaxDepth left that is a leaf had no candidate better than the initial score.", "quantifier": "every data matrix, gradient/label vector, index list, option record and legal sort/sum implementation for which NewTree returns", "why_tests_cant": "Optimality over all candidates for all data sets.", "anchors": ["tree.go:findBetterSplit", "tree.go:maybeInsertChildNode"]}
{"id": "C08", "title": "Minimum child weight", "statement": "When all scanned feature values are finite, a split whose threshold lies strictly below the upper neighbour leaves at least int(MinChildWeight) samples in both children; the left child always has that many when the midpoint does not overflow. The right side can be violated only when the float64 midpoint of two neighbouring values rounds up to the upper one (a concrete data set with an empty right child exists).", "quantifier": "every data matrix, options and sort implementation", "why_tests_cant": "The violation needs two feature values one ulp apart.", "anchors": ["tree.go:findBetterSplit", "tree.go:maybeInsertChildNode"]}
{"id": "C09", "title": "Thresholds lie between the neighbouring values", "statement": "For finite float64 a < b whose sum does not overflow, the threshold (a+b)/2 computed in float64 satisfies a <= t <= b, and t <= c < b for every float64 c < b that is not below the exact midpoint (so t < b unless b is the only float64 in [midpoint, b]); if the sum overflows t is infinite and separates no finite values.", "quantifier": "every pair of float64 values", "why_tests_cant": "2^128 pairs; depends on IEEE rounding and subnormals.", "anchors": ["tree.go:findBetterSplit"]}
{"id": "C10", "title": "NewTree does not panic on well-formed data", "statement": "If X is a non-empty rectangular matrix without NaN, the index list is non-empty, duplicate-free and in range, the gradient/hessian (or target) vectors have one entry per row, the scratch buffers are long enough and for every two values a < b of one column the float64 midpoint m satisfies a <= m < b, NewTree returns a tree. Without the midpoint condition there is a data set of finite numbers on which NewTree panics.", "quantifier": "every well-formed training set", "why_tests_cant": "Panics depend on rounding of midpoints at arbitrary depth.", "anchors": ["tree.go:NewTree", "utils/math.go:TransposeFloats"]}
{"id": "C11", "title": "Column sub-sampling reaches only the root", "statement": "If AllowedColumns is non-empty the root of the tree returned by NewTree splits on an allowed column (or is a leaf), but descendants ignore AllowedColumns: there is a data set on which a child splits on a column that was not allowed.", "quantifier": "every data matrix, gradient/label vector, index list, option record and legal sort/sum implementation for which NewTree returns", "why_tests_cant": "For-all over data plus an existential witness that contradicts the documented per-tree sub-sampling.", "anchors": ["tree.go:clone", "tree.go:maybeInsertChildNode"]}
{"id": "C12", "title": "XGB trees split only on strictly positive gain", "statement": "Every non-leaf node of an XGB tree returned by NewTree has a recorded gain strictly greater than 0 (and never NaN), where the gain already includes the Gamma penalty; every node of a non-XGB tree has a recorded score below +Inf.", "quantifier": "every data matrix, gradient/label vector, index list, option record and legal sort/sum implementation for which NewTree returns", "why_tests_cant": "All data, all float anomalies.", "anchors": ["tree.go:findBetterSplit", "tree.go:Leaf"]}
{"id": "C13", "title": "Exact-arithmetic optimality of XGB weights and gains", "statement": "In exact real arithmetic the value formula used by NewTree minimises G*w + (H+Lambda)*w^2/2 over all w whenever H+Lambda > 0, and the gain formula equals the decrease of the minimal objective obtained by the split minus Gamma/2.", "quantifier": "all real G, H, Lambda, Gamma with positive denominators", "why_tests_cant": "An optimality statement over all reals.", "anchors": ["tree.go:NewTree", "tree.go:findBetterSplit"]}
{"id": "C14", "title": "Exact-arithmetic meaning of the regression split score", "statement": "In exact real arithmetic the non-XGB score of a boundary equals the change in the sum of squared deviations from the mean, hence is never positive, and the node value (the mean) minimises the sum of squared deviations.", "quantifier": "all real target lists and all boundaries", "why_tests_cant": "Quantifies over all reals and list lengths.", "anchors": ["tree.go:findBetterSplit", "tree.go:NewTree"]}
{"id": "C15", "title": "PredictSingle is total on wide enough rows and returns a leaf value", "statement": "On a tree returned by NewTree, PredictSingle never panics on a row with at least as many entries as the training rows, returns the value of a leaf of the tree, and its result depends on the row only through the comparisons row[f] <= threshold at the tree's split features.", "quantifier": "every built tree and every row, including NaN and infinite entries", "why_tests_cant": "Unbounded input space.", "anchors": ["tree.go:PredictSingle"]}
{"id": "C16", "title": "Predict is element-wise PredictSingle", "statement": "Predict(data, preds) stores PredictSingle of row i at position i, keeps entries beyond len(data) unchanged, allocates exactly len(data) entries when preds is nil, and panics when preds is shorter than data.", "quantifier": "every tree, data and buffer", "why_tests_cant": "All lengths of data and buffers.", "anchors": ["tree.go:Predict"]}
{"id": "C17", "title": "NewTree remembers the index list in the caller's options", "statement": "NewTree called with Indexes == nil leaves 0..len(X)-1 in the caller's option record, so a later call with the same record and another matrix is grown from that old index list, not from the new matrix's rows; with explicit Indexes the record's observable fields are unchanged.", "quantifier": "every option record and every pair of matrices", "why_tests_cant": "History property over successive calls.", "anchors": ["tree.go:NewTree"]}
{"id": "C18", "title": "ArgSort returns the sorting permutation", "statement": "ArgSort(a) returns indexes that are a permutation of 0..len(a)-1 and values v with v[i] = a[idx[i]]; if a has no NaN, v is non-decreasing. MemArgSort gives the same result in any buffers of the right length, whatever they contained before, and neither modifies its input.", "quantifier": "every slice and every prior buffer content, every legal sort.Sort", "why_tests_cant": "All permutations and buffer histories; sort.Sort is not stable.", "anchors": ["utils/math.go:ArgSort", "utils/math.go:MemArgSort"]}
{"id": "C19", "title": "SampleSlice and SampleMatrix select exactly the requested entries", "statement": "SampleSlice(s, ix) returns the list s[ix[0]], s[ix[1]], ... and panics exactly when there are more indexes than elements or some index is out of range; SampleMatrix returns the sub-matrix of the requested rows and columns under the same guard per row.", "quantifier": "every slice/matrix and index list", "why_tests_cant": "All index lists.", "anchors": ["utils/math.go:SampleSlice", "utils/math.go:SampleMatrix"]}
{"id": "C20", "title": "TransposeFloats transposes", "statement": "For a non-empty rectangular matrix with at least one column, the result has one row per column with entry [i][j] equal to m[j][i], and transposing twice gives the matrix back; an empty matrix panics.", "quantifier": "every rectangular matrix", "why_tests_cant": "All shapes.", "anchors": ["utils/math.go:TransposeFloats"]}
{"id": "C21", "title": "DenseCol and AddToCol address one column", "statement": "For 0 <= col < columns, DenseCol returns column col; AddToCol(D,s,col) adds s[i] to entry (i,col) and leaves every other entry unchanged. The guard admits col == columns: there AddToCol silently modifies column 0 from row 1 on and DenseCol returns column 0 without its first entry.", "quantifier": "every matrix shape, column and vector", "why_tests_cant": "All shapes; the off-by-one is silent.", "anchors": ["utils/math.go:DenseCol", "utils/math.go:AddToCol"]}
{"id": "C22", "title": "One-hot encoding", "statement": "OHELabels returns the distinct labels in order of first occurrence without repetition, and a matrix whose row i has a single 1 at the position of label i in that list and 0 elsewhere, so the labels can be recovered; it panics exactly for an empty label list.", "quantifier": "every label list", "why_tests_cant": "All lists.", "anchors": ["utils/libsvm.go:oneHotEncodeDense", "utils/libsvm.go:distinctElements"]}
{"id": "C23", "title": "SoftMax outputs are probabilities in float64", "statement": "Each output of SoftMax is NaN or lies in [0,1] in float64; if no input is NaN, every exponential is finite, their float sum does not overflow and at least one exponential is non-zero then no output is NaN. If some exponential overflows to +Inf that entry's output is NaN (so two scores above about 710 poison the prediction).", "quantifier": "every float64 slice, every exponential function that is never negative, every summation order", "why_tests_cant": "All float values, all summation orders.", "anchors": ["utils/loss_acti.go:SoftMax"]}
{"id": "C24", "title": "SoftMax in exact arithmetic", "statement": "In exact real arithmetic the SoftMax outputs are positive, sum to 1 and preserve strictly the order of the inputs, so the most probable class is the one with the highest raw score.", "quantifier": "every non-empty real vector", "why_tests_cant": "All reals.", "anchors": ["utils/loss_acti.go:SoftMax"]}
{"id": "C25", "title": "Normalization", "statement": "In exact arithmetic Normalization of a vector with non-zero sum sums to 1 and is proportional to the input; in float64 non-negative inputs give outputs that are NaN or in [0,1].", "quantifier": "every vector", "why_tests_cant": "All vectors.", "anchors": ["utils/loss_acti.go:Normalization"]}
{"id": "C26", "title": "Gradients are residuals and NegGradients their negation", "statement": "For both losses NegGradients(y,p) is y-p element-wise and Gradients(y,p) is its exact float64 negation, of the same length; Gradients is the derivative in p of (y-p)^2/2 in exact arithmetic.", "quantifier": "every pair of equal-length float64 vectors", "why_tests_cant": "All float values including signed zeros and NaN.", "anchors": ["utils/loss_acti.go:SQErrLoss", "utils/loss_acti.go:MSELoss"]}
{"id": "C27", "title": "Hessians and losses stay in range", "statement": "SQErrLoss.Hessian is all ones; MSELoss.Hessian of a probability p in [0,1] lies in [0,1/4] in exact arithmetic and in [0,1] in float64; both Loss functions return a non-negative number or NaN.", "quantifier": "every float64 vector", "why_tests_cant": "All floats.", "anchors": ["utils/loss_acti.go:Hessian", "utils/loss_acti.go:Loss"]}
{"id": "C28", "title": "The returned ensemble reproduces the training scores", "statement": "When early stopping is off (EarlyStop <= 0), the raw score PredictSingle computes for training row i and class k is bit-for-bit the raw score NewMultiClass had accumulated for (i,k) at the end of training, for every number of rounds, classes and rows.", "quantifier": "every data set with one label per row, option record, loss, random draws", "why_tests_cant": "Bit-exactness over all rounds and classes.", "anchors": ["xgb.go:NewMultiClass", "multiclass.go:PredictSingle"]}
{"id": "C29", "title": "Early stopping of one class misassigns later trees", "statement": "When a class stops before a later one, trees of the later classes are stored under smaller positions and PredictSingle adds them to the wrong class: there is a training run in which the ensemble's raw scores on a training row differ from the scores accumulated in training; each stored round holds, in class order, exactly the trees of the classes not yet stopped.", "quantifier": "every training run", "why_tests_cant": "Needs a particular stopping history.", "anchors": ["xgb.go:NewMultiClass", "multiclass.go:PredictSingle"]}
{"id": "C30", "title": "Ensemble shape", "statement": "NewMultiClass returns at most Rounds rounds, each with at most one tree per distinct label; the first stored round has exactly one tree per distinct label; ClassLabels() lists the distinct labels of the data in order of first occurrence and is a fresh copy.", "quantifier": "every data set, options and random draws", "why_tests_cant": "All training histories.", "anchors": ["xgb.go:NewMultiClass", "multiclass.go:ClassLabels"]}
{"id": "C31", "title": "No sub-sampling with MinSample >= 1 trains nothing", "statement": "If MinSample >= 1 and either XGB is false or SubSample >= 1, every round is skipped: the ensemble is empty, Rounds() is -1 and every prediction panics. More generally a round is trained iff the number of sub-sampled rows is at least MinSample.", "quantifier": "every data set and options", "why_tests_cant": "A for-all over data showing a silent failure mode of legal options (Check accepts SubSample = 1, MinSample = 5).", "anchors": ["xgb.go:NewMultiClass"]}
{"id": "C32", "title": "Early stopping criterion", "statement": "A class is stopped only in a round where its loss was <= 1e-6 or after EarlyStop consecutive trained rounds without a loss decrease, never when EarlyStop <= 0, and once stopped never gets another tree.", "quantifier": "every training history", "why_tests_cant": "Temporal property over unbounded histories.", "anchors": ["xgb.go:NewMultiClass"]}
{"id": "C33", "title": "SubSample returns increasing in-range indexes", "statement": "SubSample(n, p) returns a strictly increasing list of indexes in 0..n-1: exactly those whose random draw is <= p; with p >= 1 all of them.", "quantifier": "every n, p and sequence of draws in [0,1)", "why_tests_cant": "All random sequences.", "anchors": ["xgb.go:SubSample"]}
{"id": "C34", "title": "updateLeaves only rewrites leaf values", "statement": "In regular gradient boosting the leaf update changes nothing but the value of leaves: shape, thresholds, samples and inner values are untouched, and each leaf's value becomes (sum of gradients)/(sum of hessians) over its samples.", "quantifier": "every tree", "why_tests_cant": "All tree shapes.", "anchors": ["xgb.go:updateLeaves", "xgb.go:applyToLeafs"]}
{"id": "C35", "title": "Rounds() and Classes() are swapped", "statement": "For a model returned by NewMultiClass with at least one round, Classes() returns the number of trained rounds and Rounds() the number of distinct labels (the opposite of their documentation); with no trained round Classes() is 0 and Rounds() is -1.", "quantifier": "every trained model", "why_tests_cant": "Whether they ever differ from documentation for all models.", "anchors": ["multiclass.go:Rounds", "multiclass.go:Classes"]}
{"id": "C36", "title": "PredictSingleClass is the first maximum of PredictSingle", "statement": "PredictSingleClass returns an index into ClassLabels(); no probability is larger than the one at that index and every earlier one is smaller (when none is NaN); if the first probability is NaN it returns 0.", "quantifier": "every model and row", "why_tests_cant": "All probability vectors.", "anchors": ["multiclass.go:PredictSingleClass"]}
{"id": "C37", "title": "Accuracy is the percentage of correct rows", "statement": "Accuracy returns 100*(right/len) computed in float64 where right counts the rows whose predicted label equals the given label; it lies in [0,100] for non-empty data and is NaN for empty data.", "quantifier": "every model and data set", "why_tests_cant": "All sizes; float rounding at the upper end.", "anchors": ["multiclass.go:Accuracy"]}
{"id": "C38", "title": "PredictSingle ignores the caller's buffer", "statement": "PredictSingle and PredictSingleClass return the same result whatever optional buffers are supplied and leave those buffers unmodified (contrary to the documentation that they are filled).", "quantifier": "every model, row and buffer", "why_tests_cant": "Frame property for all buffers.", "anchors": ["multiclass.go:PredictSingle"]}
{"id": "C39", "title": "ClassesFromProbs is row-wise argmax", "statement": "ClassesFromProbs returns for each row the lowest column index holding the row maximum.", "quantifier": "every matrix without NaN", "why_tests_cant": "All matrices.", "anchors": ["xgb.go:ClassesFromProbs"]}
{"id": "C40", "title": "LogOddsFromProbs does not compute log odds", "statement": "LogOddsFromProbs returns log(v*(s-v)) with s the row sum; this equals the log odds log(v/(s-v)) only when s-v = 1 (for 0<v<s), so it is wrong for every probability matrix with more than one class entry in (0,1).", "quantifier": "every real probability row", "why_tests_cant": "For-all characterisation of when a formula is right.", "anchors": ["xgb.go:LogOddsFromProbs"]}
{"id": "C41", "title": "Saved trees predict identically after loading", "statement": "Serialising a tree with JSONTree and reading the lines back gives a tree with the same shape, thresholds, split features, values, scores and Leaf() status, so PredictSingle agrees on every row, provided all stored numbers are finite.", "quantifier": "every tree, every row", "why_tests_cant": "All trees.", "anchors": ["utils/json.go:JSONTree", "utils/json.go:UnJSONTree", "xjson.go:creator", "xjson.go:JNode"]}
{"id": "C42", "title": "Node ids are consecutive in pre-order", "statement": "JSONTree numbers the nodes 1..n in pre-order and each node's Leftid/Rightid is the id of the corresponding child, 0 exactly when there is none.", "quantifier": "every tree", "why_tests_cant": "All shapes.", "anchors": ["utils/json.go:JSONTree"]}
{"id": "C43", "title": "Loading a saved model loses the last round", "statement": "UnJSONMultiClass applied to what JSONMultiClass wrote returns a model with the same learning rate, labels, base score and exactly all rounds except the last; a one-round model loads as an empty one whose predictions panic. The XGB flag is not restored.", "quantifier": "every model with finite numbers", "why_tests_cant": "All models.", "anchors": ["xjson.go:UnJSONMultiClass", "xjson.go:JSONMultiClass"]}
{"id": "C44", "title": "Models with non-finite numbers are refused on save", "statement": "JSONMultiClass returns an error if a NaN or infinity occurs in a written field of some node or in the metadata (except the +Inf score of regular-boosting leaves), otherwise it succeeds; on error what was written is a prefix of complete earlier items.", "quantifier": "every model", "why_tests_cant": "All positions of the bad number.", "anchors": ["xjson.go:JSONMultiClass", "utils/json.go:JSONTree"]}
{"id": "C45", "title": "Truncated model files never yield invented trees", "statement": "Reading any byte prefix of a saved model either returns an error or a model whose rounds are a prefix of the saved rounds.", "quantifier": "every model and every truncation point", "why_tests_cant": "Every crash point of the writer.", "anchors": ["xjson.go:UnJSONMultiClass", "utils/json.go:UnJSONTree"]}
{"id": "C46", "title": "Unknown activation names load but cannot predict", "statement": "A model saved under an activation name other than 'softmax' loads without error and then panics on every prediction.", "quantifier": "every model and every other name", "why_tests_cant": "All strings.", "anchors": ["xjson.go:ProbTransformMap", "multiclass.go:PredictSingle"]}
{"id": "C47", "title": "Feature importance of a reloaded XGB model is ranked backwards", "statement": "FeatureImportance of a reloaded XGB model lists features in non-decreasing gain (worst first), while that of the trained model lists them in non-increasing gain.", "quantifier": "every XGB model", "why_tests_cant": "All models.", "anchors": ["xjson.go:UnJSONMultiClass", "tree.go:Less"]}
{"id": "C48", "title": "Cross-validation folds partition the samples", "statement": "The n folds produced by CrossValidationSamples are pairwise disjoint, duplicate-free and together contain every sample index exactly once; every fold has floor(tot/n) samples except the last, which also takes the remainder.", "quantifier": "every data set size, fold count and sequence of random draws on which the function returns", "why_tests_cant": "All random sequences.", "anchors": ["utils/stat.go:CrossValidationSamples", "utils/stat.go:fillRemaining"]}
{"id": "C49", "title": "Train and test sets are complementary and labels stay aligned", "statement": "On its i-th call the sampler returns as test set the rows of fold i and as training set the rows of all other folds, so no row is in both and together they are all rows; each row keeps its own label; feature names are not carried over.", "quantifier": "every data set with one label per row", "why_tests_cant": "All data sets and folds.", "anchors": ["utils/stat.go:CrossValidationSamples", "utils/stat.go:fillDataBunch"]}
{"id": "C50", "title": "The sampler ends after n calls", "statement": "The sampler returns a (train,test) pair on each of its first n calls and nil,nil on every later call.", "quantifier": "every call history", "why_tests_cant": "Unbounded history.", "anchors": ["utils/stat.go:CrossValidationSamples"]}
{"id": "C51", "title": "Fold count adjustment", "statement": "For tot >= 2 the number of folds used is min(requested or 5, floor(tot/2)); if that is below 2 an error is returned with 0 folds; an error accompanies a positive n exactly when n is smaller than requested; every fold then has at least 2 samples.", "quantifier": "every data size and requested fold", "why_tests_cant": "All integers.", "anchors": ["utils/stat.go:CrossValidationSamples"]}
{"id": "C52", "title": "Datasets with fewer than two rows panic", "statement": "CrossValidationSamples panics (integer division by zero) for data with 0 or 1 rows, for every requested fold count, instead of returning its error.", "quantifier": "every requested fold count", "why_tests_cant": "All fold counts.", "anchors": ["utils/stat.go:CrossValidationSamples"]}
{"id": "C53", "title": "Fold drawing cannot get stuck", "statement": "While folds are being drawn there is always an index not yet used, and for every random stream in which each index keeps re-appearing the drawing loop terminates.", "quantifier": "every random stream", "why_tests_cant": "Infinite random streams.", "anchors": ["utils/stat.go:CrossValidationSamples"]}
{"id": "C54", "title": "Cross-validation accuracy is the mean over folds", "statement": "MultiClassCrossValidation returns the float64 sum of the per-fold test accuracies divided by n, counting folds that produced no ensemble as 0; in concurrent mode it sends exactly one error, then one accuracy, then one option pointer and the values match what it returns.", "quantifier": "every data set, fold outcome and mode", "why_tests_cant": "All fold outcomes.", "anchors": ["cv/cv.go:MultiClassCrossValidation"]}
{"id": "C55", "title": "Grid search visits exactly the grid", "statement": "Grid evaluates, in nested-loop order, exactly the hyperparameter combinations obtained by repeatedly adding the step to the lower bound while not above the upper bound; every evaluated combination lies within the bounds.", "quantifier": "every grid", "why_tests_cant": "All grids.", "anchors": ["cv/cv.go:Grid"]}
{"id": "C56", "title": "Grid search result", "statement": "When no evaluation fails, Grid returns the maximum accuracy over the evaluated combinations that belong to a complete batch of NCPUs (0 and nil options if none is positive) and the first combination reaching it; the last incomplete batch is never collected, so the best combination can be missed; the returned accuracies list is always empty.", "quantifier": "every grid, NCPUs and accuracy function", "why_tests_cant": "All grids and batch sizes.", "anchors": ["cv/cv.go:Grid", "cv/cv.go:rescueConcValues"]}
{"id": "C57", "title": "Grid search is schedule independent and does not deadlock", "statement": "For every interleaving of the worker goroutines and the collector over the unbuffered channels, a batch is always able to make progress until it is collected and the result is the same as evaluating the batch sequentially.", "quantifier": "every interleaving of any number of workers", "why_tests_cant": "All schedules.", "anchors": ["cv/cv.go:Grid", "cv/cv.go:rescueConcValues", "cv/cv.go:MultiClassCrossValidation"]}
{"id": "C58", "title": "Grid needs NCPUs >= 1", "statement": "With NCPUs = 0 (as in DefaultGGridOptions) Grid panics as soon as the grid is non-empty; with negative NCPUs it panics immediately.", "quantifier": "every grid", "why_tests_cant": "All grids.", "anchors": ["cv/cv.go:Grid", "cv/cv.go:DefaultGGridOptions"]}
{"id": "C59", "title": "A gradient step stays in the search box", "statement": "The options a parameter step sends differ from a copy of its input (a copy has EarlyStop and TreeMethod reset to their zero values) only in that parameter, and either pass the bounds check of the grid options or have that parameter unchanged.", "quantifier": "every accuracy outcome, option record and grid", "why_tests_cant": "All accuracy values and floats.", "anchors": ["cv/grad.go:ParamaterGradStep", "cv/grad.go:checkAgainstOptions"]}
{"id": "C60", "title": "A parameter step can try to send twice", "statement": "ParamaterGradStep attempts exactly one send on its output channel when the lowered options pass Check and both cross-validations succeed, and attempts two or more (the goroutine blocks forever once its reader is gone) when with central differences the lowered options fail Check or a cross-validation fails.", "quantifier": "every option record and outcome", "why_tests_cant": "All inputs.", "anchors": ["cv/grad.go:ParamaterGradStep"]}
{"id": "C61", "title": "GradStep has a data race on the options", "statement": "GradStep writes the received parameters into the option record that its not-yet-started workers still have to clone, so its result can depend on the schedule: two schedules exist with different results; if all workers clone before the first receive the result is the per-parameter combination.", "quantifier": "every interleaving", "why_tests_cant": "All schedules.", "anchors": ["cv/grad.go:GradStep"]}
{"id": "C62", "title": "Accuracies returned by GradientGrid are strictly increasing", "statement": "The accuracy list returned by GradientGrid is strictly increasing, all positive, and its last element is the returned best accuracy (0 if empty).", "quantifier": "every run", "why_tests_cant": "All histories of accuracies.", "anchors": ["cv/grad.go:GradientGrid", "cv/hybrid.go:HybridGradientGrid"]}
{"id": "C63", "title": "GradientGrid can return options that were not the best", "statement": "The option record returned by GradientGrid is the same object a later GradStep mutates in place, so there is a run in which the returned options are not those whose accuracy is the returned best accuracy.", "quantifier": "existential over runs", "why_tests_cant": "Needs an aliasing history.", "anchors": ["cv/grad.go:GradientGrid", "cv/grad.go:GradStep"]}
{"id": "C64", "title": "fuzz stays within the requested fraction", "statement": "In exact arithmetic fuzz(f,p) differs from f by at most |p*f| and fuzzOptions changes only Rounds, SubSample, ColSubSample, Lambda, Gamma, LearningRate and BaseScore, in place.", "quantifier": "every value and random draw", "why_tests_cant": "All draws.", "anchors": ["cv/grad.go:fuzz", "cv/grad.go:fuzzOptions"]}
{"id": "C65", "title": "The central difference is multiplied by h instead of divided", "statement": "With central differences the derivative used is (pacc-macc)/2*h, which equals the central difference quotient (pacc-macc)/(2h) only if pacc = macc or h = 1 or h = -1.", "quantifier": "all real accuracies and h > 0", "why_tests_cant": "For-all characterisation.", "anchors": ["cv/grad.go:ParamaterGradStep"]}
{"id": "C66", "title": "Options Clone and Equal", "statement": "Clone copies every field except EarlyStop (reset to 0) and TreeMethod (set to exact); o.Equal(o.Clone()) holds when no field is NaN; Equal ignores EarlyStop, is not reflexive for records whose TreeMethod is not exact (the regular-boosting defaults) and is not symmetric.", "quantifier": "every option record", "why_tests_cant": "All records.", "anchors": ["options.go:Clone", "options.go:Equal"]}
{"id": "C67", "title": "Options.Check accepts exactly the documented ranges", "statement": "Check returns nil iff Rounds>0, MinSample>=1, MaxDepth>=2 and none of the float range violations compares true; hence NaN hyperparameters are accepted; DefaultXOptions passes and DefaultGOptions fails.", "quantifier": "every option record", "why_tests_cant": "All records including NaN.", "anchors": ["options.go:Check"]}
{"id": "C68", "title": "Feats accumulate gains per feature", "statement": "After any sequence of Add and Merge calls made by one goroutine, each feature appears once, in order of first addition, with the left-to-right float64 sum of its gains. Merging a set without repeated features into itself adds every gain to itself.", "quantifier": "every sequence of calls", "why_tests_cant": "All call histories.", "anchors": ["tree.go:Add", "tree.go:Merge"]}
{"id": "C69", "title": "Feats.Add is not concurrency-safe", "statement": "Although documented as safe, two concurrent Adds of the same new feature can both append it: a schedule exists after which the feature appears twice; no schedule loses a gain contribution in total.", "quantifier": "every interleaving of Adds", "why_tests_cant": "All schedules.", "anchors": ["tree.go:Add"]}
{"id": "C70", "title": "Feature importance aggregates node scores and is sorted", "statement": "FeatureImportance of a non-leaf tree or of an ensemble lists each split feature exactly once with the sum, in visiting order, of the scores of the nodes splitting on it, sorted best first (descending for XGB, ascending otherwise) when no sum is NaN; a single-leaf tree gives an error.", "quantifier": "every tree and ensemble", "why_tests_cant": "All trees.", "anchors": ["tree.go:FeatureImportance", "multiclass.go:FeatureImportance"]}
{"id": "C71", "title": "Concurrent idGiver calls never share an id", "statement": "For every interleaving of any number of goroutines calling Next, the returned ids are pairwise distinct and, after n completed calls, are exactly 1..n.", "quantifier": "every schedule", "why_tests_cant": "All schedules.", "anchors": ["utils/json.go:Next"]}
{"id": "C72", "title": "Confusion matrix entries count", "statement": "Entry [a][p] of Confusions.Matrix() is the number of rows whose actual label is the a-th label and predicted label the p-th, whatever calls were made before; Matrix panics if and only if the data has more labels than rows and one of the extra labels is a class.", "quantifier": "every label and prediction list", "why_tests_cant": "All lists.", "anchors": ["confu/confu.go:Matrix", "confu/confu.go:MCConfusions"]}
{"id": "C73", "title": "Confusion matrix margins and accuracy", "statement": "Each row of the matrix sums to the number of occurrences of its label, the total is the number of rows when all labels are known, and the diagonal sums to the number of correct predictions that Accuracy counts.", "quantifier": "every model and data set", "why_tests_cant": "All data sets.", "anchors": ["confu/confu.go:Matrix", "multiclass.go:Accuracy"]}
{"id": "C74", "title": "TopNForLabelM returns the N largest counts", "statement": "For a known label it returns min(N, labels) positions (indexes into Labels, not labels) with their counts in non-increasing order, and no count left out exceeds one returned; unknown labels give nil; negative N panics.", "quantifier": "every matrix, N, label and sort implementation", "why_tests_cant": "All matrices and N.", "anchors": ["confu/confu.go:TopNForLabelM", "confu/confu.go:memIntSort"]}
{"id": "C75", "title": "TopNForLabelM without copy is overwritten by the next call", "statement": "Without docopy the returned slices alias internal buffers that every later such call returns again with other contents; with docopy they keep their contents through any later calls.", "quantifier": "every call history", "why_tests_cant": "Aliasing across calls.", "anchors": ["confu/confu.go:TopNForLabelM"]}
{"id": "C76", "title": "LibSVM text round trip loses the last row", "statement": "Reading back the text LibSVM() produces (saying whether it has a header) returns all rows but the last, with their labels (-1 if the bunch has none for each row) and keys, each value being the nearest float to the original rounded to four decimals; with a newline added all rows come back. If a row that is read holds a NaN or an infinity, reading fails with an error.", "quantifier": "every data bunch with 64-bit labels and keys without white space or colons", "why_tests_cant": "All data sets.", "anchors": ["utils/libsvm.go:LibSVM", "utils/libsvm.go:ParseLibSVMFromReader"]}
{"id": "C77", "title": "Blank lines make the LibSVM reader panic", "statement": "ParseLibSVMFromReader's outcome is decided by the newline-terminated lines: data if all are well formed and the reader ends with EOF, with one row and label per line; a panic if the first line that is not well formed is blank; an error otherwise. What follows the last newline is ignored. It always returns.", "quantifier": "every input text", "why_tests_cant": "All strings.", "anchors": ["utils/libsvm.go:parseLibSVMLine", "utils/libsvm.go:ParseLibSVMFromReader"]}
{"id": "C78", "title": "CSV records to data", "statement": "ParseCSVFromReader returns exactly one row per record with as many values as fields (minus one with labels), labels aligned with rows when requested, and an error if any field does not parse.", "quantifier": "every record sequence", "why_tests_cant": "All record sequences.", "anchors": ["utils/csv.go:ParseCSVFromReader", "utils/csv.go:recordsToData"]}
{"id": "C79", "title": "ReadNameMap", "statement": "ReadNameMap maps each number to the name of its last line and ignores an unterminated last line. The first line that is not a number and a name decides: a panic if it has no field (only possible with the default separator) or just a number, an error if its first field is not a number. A read error is never reported.", "quantifier": "every file content", "why_tests_cant": "All strings.", "anchors": ["confu/confu.go:ReadNameMap"]}
{"id": "C80", "title": "SoftMaxDense works row by row", "statement": "SoftMaxDense leaves its input unchanged and row i of the result is SoftMax of row i of the input, whatever the destination contained, when shapes agree.", "quantifier": "every matrix and destination", "why_tests_cant": "All shapes.", "anchors": ["utils/loss_acti.go:activationDense"]}
{"id": "C81", "title": "Every tree is fitted to the loss derivatives at the current predictions", "statement": "In every training run, the tree trained for a class in a round is grown on the sub-sampled rows from the loss gradients and hessians of that class' 0/1 indicator evaluated at the probabilities of the ensemble of all trees trained before it, and the loss that drives early stopping is the loss of the ensemble right after adding the tree.", "quantifier": "every dataset, option record, random draws and training run", "why_tests_cant": "Relates every step of an unbounded loop over mutable matrices to a declarative description of the ensemble so far.", "anchors": ["xgb.go:NewMultiClass"]}
{"id": "C82", "title": "Trained models predict without panicking", "statement": "A model with at least one round returned by NewMultiClass predicts on every row at least as wide as the first training row: PredictSingle returns one probability per class label and PredictSingleClass a valid class index.", "quantifier": "every training run and every row", "why_tests_cant": "Absence of panics for all trained ensembles and all inputs.", "anchors": ["multiclass.go:PredictSingle", "tree.go:Tree.PredictSingle"]}
{"id": "C83", "title": "The model loader is total", "statement": "UnJSONMultiClass neither panics nor loops on any input: for every byte sequence it returns a model or an error, and it returns an error whenever the reader fails with anything but io.EOF.", "quantifier": "every byte sequence, every decoder behaviour", "why_tests_cant": "Tests can only feed a few malformed files; the claim is about all of them.", "anchors": ["xjson.go:UnJSONMultiClass", "utils/json.go:UnJSONTree"]}
{"id": "C84", "title": "Cross-validation accuracy is a percentage", "statement": "The accuracy returned by MultiClassCrossValidation is never NaN and lies between 0 and 100 inclusive in float64 arithmetic, whatever the options and the random draws, for data with one label per row and fewer than 2^46 rows.", "quantifier": "every data set, options and random draws", "why_tests_cant": "Rounding of the sum and the quotient has to be bounded for all fold outcomes.", "anchors": ["cv/cv.go:MultiClassCrossValidation", "multiclass.go:Accuracy"]}
{"id": "C85", "title": "A step of zero makes the grid search endless", "statement": "If every hyperparameter range is non-empty and the step of some hyperparameter is not positive (integers) or does not change its lower bound when added (floats, e.g. 0 or too small), Grid never returns successfully: it only ends if an evaluation fails.", "quantifier": "every grid, evaluation and number of iterations", "why_tests_cant": "Non-termination cannot be observed by a finite test.", "anchors": ["cv/cv.go:Grid"]}
{"id": "C86", "title": "Grid leaves goroutines blocked", "statement": "When Grid returns without error on n combinations, exactly n mod NCPUs of the evaluation goroutines it started are still running or blocked on a send nobody will receive; after an error at least one is.", "quantifier": "every interleaving, grid and number of processors", "why_tests_cant": "All schedules; a leaked goroutine is not observable by the caller.", "anchors": ["cv/cv.go:Grid", "cv/cv.go:rescueConcValues"]}
{"id": "C87", "title": "Gradient steps and the search box under all schedules", "statement": "In every interleaving of GradStep in which each parameter step sends once, the options in use are at any time those it was given or lie within the ranges of the grid options. Without that condition this fails: an interleaving of central differences on options with MinSample below 1 ends with a Gamma above its range.", "quantifier": "every interleaving, option record, grid and accuracy", "why_tests_cant": "All schedules.", "anchors": ["cv/grad.go:GradStep", "cv/grad.go:ParamaterGradStep"]}
{"id": "C88", "title": "Options with MinSample below 1 are never moved", "statement": "If MinSample is below 1, as in the defaults for plain gradient boosting, GradStep returns the options it was given (after its own evaluation), whatever the accuracies; this holds in every interleaving in which each parameter step sends once.", "quantifier": "every accuracy, grid, step and interleaving", "why_tests_cant": "All inputs and schedules.", "anchors": ["cv/grad.go:GradStep", "cv/grad.go:checkAgainstOptions"]}
{"id": "C89", "title": "Gradient searches evaluate with 5 folds", "statement": "Every accuracy GradientGrid and HybridGradientGrid collect is that of a 5-fold cross-validation of the evaluated options, whatever the number of folds requested.", "quantifier": "every data set, fold number and grid", "why_tests_cant": "All runs.", "anchors": ["cv/grad.go:GradientGrid", "cv/hybrid.go:HybridGradientGrid"]}
{"id": "C90", "title": "GradientGrid ignores EarlyStop and NCPUs", "statement": "GradientGrid gives the same result for two grid option records that differ only in EarlyStop, NCPUs, Verbose and WriteBest.", "quantifier": "every pair of grid option records", "why_tests_cant": "For-all over option records.", "anchors": ["cv/grad.go:GradientGrid"]}
{"id": "C91", "title": "Every combination is a starting point", "statement": "If the search returns without error, GradientGrid evaluated a starting option record for every (MinChildWeight, MaxDepth) pair of the grid with the other parameters fuzzed middle values, and HybridGradientGrid one for every (Rounds, MinChildWeight, MaxDepth, Lambda) tuple, with exactly that Rounds.", "quantifier": "every grid, data set and random draw", "why_tests_cant": "All grids.", "anchors": ["cv/grad.go:GradientGrid", "cv/hybrid.go:HybridGradientGrid"]}
{"id": "C92", "title": "A gradient step terminates unless the step is denormal", "statement": "GradStep returns for every option record and grid if its cross-validations return and its step is non-positive or at least 2^-990; with the smallest positive float64 as step and MinSample below 1, a parameter step does not return.", "quantifier": "every option record, grid, step and accuracy", "why_tests_cant": "Termination.", "anchors": ["cv/grad.go:ParamaterGradStep"]}
{"id": "C93", "title": "A parameter that is zero becomes NaN", "statement": "With forward differences, a parameter step on a parameter equal to 0 whose raised options have the same accuracy as the current ones sends options in which that parameter is NaN, which pass the bounds check.", "quantifier": "every option record within the grid ranges, step and accuracy", "why_tests_cant": "All inputs.", "anchors": ["cv/grad.go:ParamaterGradStep", "cv/grad.go:checkAgainstOptions"]}
{"id": "C94", "title": "Fuzzing can make valid options invalid", "statement": "There are options that pass Check and random draws such that after fuzzOptions they do not: Rounds is 0 and SubSample above 1.", "quantifier": "existential over options and draws", "why_tests_cant": "Needs particular draws.", "anchors": ["cv/grad.go:fuzzOptions"]}
{"id": "C95", "title": "PrintTopN", "statement": "PrintTopN panics for N < 1 (if there is a label); otherwise its text has one line for each class that occurs in the data, in class order, listing its most frequent predictions (at most N, most frequent first, with their non-zero counts).", "quantifier": "every model, data set, N, name map and call history", "why_tests_cant": "All data sets and N.", "anchors": ["confu/confu.go:PrintTopN", "confu/confu.go:TopNPerLabel", "confu/confu.go:MakeSimpleNameMap"]}
{"id": "C96", "title": "CSV text round trip", "statement": "Reading back the text CSV() produces, with the same separator and with labels, returns every row with its label (-1 if the bunch has none for each row), each value being the nearest float to the original rounded to four decimals (NaN and infinities as they were), and the keys without leading white space. If rows differ in length reading fails with an error.", "quantifier": "every data bunch with 64-bit labels, every one-byte separator that does not occur in numbers, keys without separators, quotes or line ends", "why_tests_cant": "All data sets, separators and floats.", "anchors": ["utils/csv.go:CSV", "utils/csv.go:DataBunchFromCSVFile", "utils/csv.go:ParseCSVFromReader"]}
{"id": "C97", "title": "Writing an empty data bunch", "statement": "LibSVM() and CSV() panic exactly when the bunch has no rows; String() never panics, whatever the number of labels.", "quantifier": "every data bunch", "why_tests_cant": "All data bunches.", "anchors": ["utils/libsvm.go:LibSVM", "utils/csv.go:CSV", "utils/libsvm.go:String"]}
{"id": "C98", "title": "Training returns on well-formed data", "statement": "NewMultiClass returns a model (no panic, no endless loop) if the data has at least one row, rows of equal length, no NaN and no two values of a column whose rounded midpoint fails to separate them, one label per row, non-negative fractions for row and column sampling and no round with an empty sample. A round whose draws select no row (XGBoost, SubSample < 1, MinSample <= 0) makes training fail. Finite data and options that Check accepts are not enough: two rows that differ in the last bit can make training panic.", "quantifier": "every data bunch, option record, loss with derivatives of the right length, and random draws", "why_tests_cant": "Quantifies over all tables, options and draws.", "anchors": ["xgb.go:NewMultiClass", "tree.go:NewTree", "options.go:Check"]}
{"id": "C99", "title": "Ordinary numbers can always be split", "statement": "If a < b have at most 52 significant bits (integers below 2^52, all float32 values) then the float midpoint computed for a split satisfies a <= m < b, so a rectangular non-empty table of such numbers meets the condition of C98.", "quantifier": "every pair of such numbers, every such table", "why_tests_cant": "All pairs of floats.", "anchors": ["tree.go:findBetterSplit", "tree.go:NewTree"]}
{"id": "C100", "title": "Cross-validation returns on well-formed data", "statement": "MultiClassCrossValidation returns an accuracy or an error, without panicking or looping for ever, for every fold number, if the data has at least two rows and is as in C98, the options are ones Check accepts (or nil), and the random integers reach every row index again and again.", "quantifier": "every data bunch, fold number, option record, concurrency flag and draws", "why_tests_cant": "All inputs and random streams.", "anchors": ["cv/cv.go:MultiClassCrossValidation", "utils/stat.go:CrossValidationSamples"]}
{"id": "C101", "title": "Only the order of a feature's values matters", "statement": "If the values of the features are changed so that within every column any two rows compare as before (scaling, shifting, taking logarithms ...), training gives the same ensemble up to the threshold values: the same trees, splits, samples and leaf values, and the same training scores. A tree predicts the same value for every training row before and after. Row sub-sampling must be off for the ensemble statement, because unselected rows may fall on either side of a new threshold.", "quantifier": "every data set and every order-preserving change of it, all options without row sub-sampling, every sort that looks at its elements through the comparison only", "why_tests_cant": "A relation between two runs over all data sets.", "anchors": ["tree.go:NewTree", "xgb.go:NewMultiClass", "tree.go:findBetterSplit"]}
{"id": "C102", "title": "A smaller depth limit only cuts the tree", "statement": "Growing a tree with MaxDepth n instead of a larger m gives the same tree cut at level n: nodes above the level have the same samples, split, threshold and value, and those at the level become leaves with the value and the samples of the inner node they replace.", "quantifier": "every table, options, and n <= m", "why_tests_cant": "A relation between two runs for all depths.", "anchors": ["tree.go:NewTree"]}
{"id": "C103", "title": "Fewer rounds give a prefix of the longer training", "statement": "With the same data, options and draws, training for n rounds gives the first boosters of training for m >= n rounds, with the same labels, base score and learning rate.", "quantifier": "all data, options, draws and n <= m", "why_tests_cant": "A relation between two runs for all round numbers.", "anchors": ["xgb.go:NewMultiClass"]}
{"id": "C104", "title": "A constant feature is ignored", "statement": "Appending a column with the same non-NaN value in every row changes neither a tree nor a trained ensemble, and rows extended by that value predict as before, if columns are not sub-sampled.", "quantifier": "all rectangular tables with at least one column, options, draws, and constants", "why_tests_cant": "A relation between two runs over all data sets.", "anchors": ["tree.go:NewTree", "tree.go:findBetterSplit", "xgb.go:NewMultiClass"]}
{"id": "C105", "title": "Label values are only names", "statement": "Renaming the labels of the training data one-to-one gives the same trees, scores and history, and the class labels renamed; the accuracy on renamed test data is the same.", "quantifier": "all data, one-to-one renamings, options and draws", "why_tests_cant": "A relation between two runs over all renamings.", "anchors": ["xgb.go:NewMultiClass", "utils/libsvm.go:oneHotEncodeDense", "multiclass.go:Accuracy"]}
{"id": "C106", "title": "One label only", "statement": "A model trained on data with a single distinct label has that one class label, and every class prediction it returns is index 0.", "quantifier": "all data with one label, options, draws and rows", "why_tests_cant": "All inputs.", "anchors": ["xgb.go:NewMultiClass", "multiclass.go:PredictSingleClass"]}
{"id": "C107", "title": "A printed tree tells the tree", "statement": "Printing a tree returns exactly when every inner node has two children and a name for its feature; trees from training always print when there are no names or enough of them. Two trees with the same text have the same shape, feature names, leaf samples, and thresholds and values to three decimals; without names the feature numbers are the same too. Following the printed rules gives the tree's predictions, except for values equal to a threshold: the text says '<', prediction uses '<='.", "quantifier": "all trees, names without line breaks, spacings and rows", "why_tests_cant": "Text is compared over all trees.", "anchors": ["tree.go:Print", "tree.go:feature", "tree.go:PredictSingle"]}
{"id": "C108", "title": "A printed feature set tells the set", "statement": "The text has one header line and one line per feature in the order of the set; it exists exactly when there are enough gains. Equal texts mean equal method, features, and gains to three decimals. The header says 'descending order' also for sets that were never sorted.", "quantifier": "all feature sets", "why_tests_cant": "All sets.", "anchors": ["tree.go:Feats.String", "tree.go:Feats.Add"]}
{"id": "C109", "title": "Printed options", "statement": "Two option records with the same text agree on the method, rounds, depth, and to three decimals on the learning rate and minimum child weight, and for XGBoost on the sampling fractions, base score, gamma and lambda. Other fields, such as EarlyStop, are not shown.", "quantifier": "all pairs of option records", "why_tests_cant": "All pairs of options.", "anchors": ["options.go:String"]}
{"id": "C110", "title": "Printed matrices", "statement": "The text of a matrix with at least one row is the rows between brackets, one per line, all inside one more pair of brackets; a matrix without rows makes the function panic.", "quantifier": "all matrices and number formats", "why_tests_cant": "All sizes.", "anchors": ["utils/math.go:PrintDenseMatrix"]}
{"id": "C111", "title": "Saving the best model to a file", "statement": "Saving writes the file xgbmodelN.json, N being the integer part of the accuracy, and no other file. If the file cannot be created nothing changes. Otherwise its earlier contents are lost, whatever happens later, and it holds an initial part of the new model's text; with working writes and finite numbers it holds all of it and a nil error is returned, and with a number that is not finite an error is returned. An error of the final flush is not reported: a nil error can leave an empty file.", "quantifier": "all data, options, draws, accuracies, directories, buffer sizes and patterns of write errors", "why_tests_cant": "Needs failing disks and all models.", "anchors": ["cv/cv.go:writeBest", "xjson.go:JSONMultiClass"]}
{"id": "C112", "title": "A grid search that saves its best models", "statement": "With WriteBest a grid search that returns without error returns what it would return without it; either no file has changed and nothing beat accuracy 0, or the file for the returned accuracy holds a model trained on all the data with the returned options, loading as that model without its last round. Every other changed file belongs to a result not better than the returned one, so the best model is in the changed file with the highest number.", "quantifier": "all grids, numbers of workers, data, draws and directories", "why_tests_cant": "All sequences of results.", "anchors": ["cv/cv.go:Grid", "cv/cv.go:rescueConcValues", "cv/cv.go:writeBest"]}
{"id": "C113", "title": "The loss is the mean squared difference", "statement": "The loss of both loss functions differs from the exact mean of the squared differences by at most (n+3) 2^-52 of it plus 2^-1073 whenever it is finite, and then all labels and predictions are finite; in exact arithmetic it is that mean. Perfect finite predictions have loss 0. A loss of 0 does not imply equal values.", "quantifier": "all finite or infinite labels and predictions, up to 2^50 of them", "why_tests_cant": "Rounding of all inputs.", "anchors": ["utils/loss_acti.go:Loss"]}
{"id": "C114", "title": "How close node values are to the exact formulas", "statement": "A finite value of a regression node differs from the exact mean of its samples' targets by at most 2^-52 of the sum of their magnitudes plus 2^-1074; a finite value of an XGB node with Hessians in [0,1] and lambda in [0,2^1000] differs from -G/(H+lambda), computed exactly, by at most n 2^-50 of the sum of the magnitudes of the gradients divided by H+lambda, plus 2^-1074. This holds for every order of the additions. A node all of whose targets are equal need not have that value.", "quantifier": "all data, options, nodes and orders of summation", "why_tests_cant": "The order of additions of the linear algebra library is not known.", "anchors": ["tree.go:NewTree"]}
{"id": "C115", "title": "Probabilities sum to one up to rounding", "statement": "If no predicted probability is NaN and one is positive, then the exact sum of the n returned probabilities differs from 1 by at most n 2^-51, for SoftMax, Normalization of non-negative numbers and the predictions of every trained model. The sum need not be exactly 1.", "quantifier": "all scores, exponentials and orders of summation; all trained models and rows", "why_tests_cant": "Rounding of all inputs.", "anchors": ["utils/loss_acti.go:SoftMax", "utils/loss_acti.go:Normalization", "multiclass.go:PredictSingle"]}
{"id": "C116", "title": "Gradient searches that save their best models", "statement": "With WriteBest a gradient or hybrid search that returns, returns what it would return without it. Every file it has changed is named after the positive accuracy of one of its evaluations and holds what was saved after it; without an error the file of the best accuracy holds a model trained with the options as they were after the best evaluation, and nothing is written if no accuracy is positive. The model saved need not be one of the options returned: the search changes that record after saving.", "quantifier": "all searches, data, draws and initial directories", "why_tests_cant": "The contents of shared option records change after the save; effect of every path on the files.", "anchors": ["cv/grad.go:GradientGrid", "cv/hybrid.go:HybridGradientGrid", "cv/cv.go:writeBest"]}
{"id": "C117", "title": "Redundant columns change nothing", "statement": "If a further last column orders the training rows exactly as an earlier column does (a copy of it, the same quantity in other units, its logarithm), then training with it gives the same tree and the same ensemble as training without it, as long as columns are not sub-sampled.", "quantifier": "all tables without NaN in the two columns, options, labels, learning problems; every comparison sort", "why_tests_cant": "Ties between equally good splits are resolved by the order of the scan; no finite set of tables shows that the later column never wins.", "anchors": ["tree.go:findBetterSplit", "tree.go:NewTree", "xgb.go:NewMultiClass"]}
{"id": "C118", "title": "What the splits of a tree achieve", "statement": "In exact arithmetic the regularised objective of the leaves of an XGB tree, each leaf at its best weight and charged gamma/2, equals that of the undivided sample minus the sum of the gains of its inner nodes. The squared deviations within the leaves of a regression tree are those of the whole sample minus what each split removed, never more than those of the whole sample, and do not increase when MaxDepth is raised.", "quantifier": "all trees NewTree builds; all real derivatives with non-negative Hessians, lambda > 0, all gamma; all targets; all depth limits", "why_tests_cant": "An identity over all trees and all real numbers.", "anchors": ["tree.go:NewTree", "tree.go:findBetterSplit"]}
{"id": "C119", "title": "A deep regression tree memorises its sample", "statement": "With MinChildWeight at most 1, no column sub-sampling and MaxDepth at least the number of samples, the leaves of a regression (non-XGB) tree are exactly the groups of equal rows; if all rows differ, the tree predicts each training row's own target.", "quantifier": "all tables whose midpoints separate (C99), all targets up to 2^400, fewer than 2^51 samples", "why_tests_cant": "Holds for every table because a column with two values always offers a split with a finite score, and each split makes both parts smaller.", "anchors": ["tree.go:NewTree", "tree.go:findBetterSplit", "tree.go:PredictSingle"]}
{"id": "C120", "title": "Saturated leaves become NaN", "statement": "In gradient boosting (XGB false) with MSELoss, a leaf whose samples' probabilities are already exactly their 0/1 targets receives the value NaN; all probabilities the model predicts for the rows of that leaf are then NaN and the predicted class is the first one. Hence more rounds can destroy a perfect training accuracy.", "quantifier": "all training runs, rounds, classes, leaves and rows", "why_tests_cant": "Appears only after as many rounds as it takes the probabilities to reach 0 or 1 exactly.", "anchors": ["xgb.go:updateLeaves", "utils/loss_acti.go:MSELoss.Hessian", "multiclass.go:PredictSingle", "multiclass.go:PredictSingleClass"]}
{"id": "C121", "title": "Boosting with deep trees learns its training set", "statement": "Plain gradient boosting (XGB false, no early stopping, at least one round) with MaxDepth at least the number of rows and MinChildWeight at most 1 succeeds on every training set of rows that all differ and that carry two or more labels; the trained model predicts every training row's own label, and Accuracy on the training set is exactly 100. This holds as long as the scores stay bounded: |BaseScore| + Rounds*LearningRate at most 600 with SQErrLoss, |BaseScore| at most 500 and classes*Rounds*LearningRate at most 7 with MSELoss. It does not hold without such a bound.", "quantifier": "all tables whose midpoints separate (C99) with at most 2^40 rows, all labels, learning rates from 2^-30 to 1, base scores and numbers of rounds within the bounds; every math.Exp with relative error at most 2^-40, every order of summation and every sort", "why_tests_cant": "An invariant over all rounds of all training runs, with rounding in every score, probability and leaf value.", "anchors": ["xgb.go:NewMultiClass", "xgb.go:updateLeaves", "tree.go:NewTree", "utils/loss_acti.go:SoftMax", "multiclass.go:Accuracy"]}
{"id": "C122", "title": "Which options a training depends on", "statement": "Two option records that agree on XGB, LearningRate, BaseScore and Loss, on Rounds, MaxDepth, EarlyStop and MinSample (or both have a non-positive value there), on the number of samples MinChildWeight asks for (its integer part, at least 1) and, for XGB only, on Lambda, Gamma, SubSample and ColSubSample (or both sub-sample nothing), train the same model or fail in the same way: in plain gradient boosting Lambda, Gamma, SubSample, ColSubSample and always TreeMethod and Verbose have no influence. Without sub-sampling the random numbers have none either, so training is deterministic. The call leaves the caller's MinChildWeight raised to at least 1 and everything else as it was.", "quantifier": "all data, option records, random draws and environments", "why_tests_cant": "Equality of whole training runs for all pairs of option records.", "anchors": ["xgb.go:NewMultiClass", "tree.go:findBetterSplit", "options.go:Options"]}
{"id": "C123", "title": "Trees and ensembles are no larger than the training data allows", "statement": "On a table whose values can be separated by their midpoints, every node of a grown tree other than the root has at least max(1, int(MinChildWeight)) samples; a tree over s samples has therefore at most 2*(s/m)-1 nodes (Branches), its depth plus one times m is at most s, and with fewer than 2m samples it is a single leaf. A trained model has at most Rounds times the number of classes trees, each within this bound for the number of rows.", "quantifier": "all tables with separating midpoints, option records, losses, random draws and environments", "why_tests_cant": "A bound over all data sets and options; the exception (neighbouring floating-point values, for which MinChildWeight is violated) is rare in tests.", "anchors": ["tree.go:NewTree", "tree.go:findBetterSplit", "tree.go:Branches", "xgb.go:NewMultiClass"]}
{"id": "C124", "title": "Sorting a slice with indexes keeps values and indexes together", "statement": "When any program that uses only Less and Swap (such as sort.Sort) runs on the Slice made from a list of numbers, the index list stays a permutation of 0..n-1, every value stays next to its original position, and the values end exactly as if the plain list had been sorted by the same program. Less is a strict weak order on all floating-point numbers with NaN first. With pairwise different non-NaN numbers the result is that of ArgSort; the insertion sort that Go uses for short slices ends sorted.", "quantifier": "all lists of numbers, all programs over Less and Swap, NaN and infinities included", "why_tests_cant": "It quantifies over all sorting programs and inputs; a Swap that forgets the indexes sorts correctly in every test that looks only at the values.", "anchors": ["utils/sorter.go:Slice.Swap", "utils/sorter.go:NewSlice"]}
{"id": "C125", "title": "One-hot encoding of the names of a data bunch", "statement": "OHEKeys returns a table with one row per name and one column per different name, columns in the order of first appearance, with a single 1 in each row, at the column of the name; with pairwise different names it is the identity matrix. Without names it panics. The encoder of the labels is the same function.", "quantifier": "all data bunches, all lists of names", "why_tests_cant": "The statement is about every entry of the table for every list of names, repeated names included.", "anchors": ["utils/libsvm.go:OHEKeys", "utils/libsvm.go:oneHotEncodeDense"]}
{"id": "C126", "title": "What the text of a stored node shows", "statement": "Two stored nodes have the same String exactly when they agree in the identifier, samples, number of samples, leaf flag, branches, children and kind, and in the score, value and threshold to three decimals. The feature a node splits on is not shown: there are nodes that split on different features with the same text.", "quantifier": "all pairs of stored nodes", "why_tests_cant": "Injectivity of a printed form over all values cannot be enumerated, in particular as there is no separator between the value and the threshold.", "anchors": ["utils/json.go:JSONNode.String"]}
{"id": "C127", "title": "The LibSVM reader reports the first line that it cannot read", "statement": "ParseLibSVMFromReader ends with an error about a line exactly when one of the complete lines of the input cannot be read; the error then names the first such line with its number counted from 1, the header included, and quotes it; different line numbers give different messages. When the reader ends with data it is the same data as without errors.", "quantifier": "all texts, number parsers, with and without header, with any reader error at the end", "why_tests_cant": "The equivalence is over all inputs, including headers and mixtures of readable and unreadable lines.", "anchors": ["utils/libsvm.go:svmliberror", "utils/libsvm.go:ParseLibSVMFromReader"]}
{"id": "C128", "title": "The order of the rows does not matter when sums are exact", "statement": "Two calls of NewTree with the same hyperparameters and the same samples in any order give the same tree (splits, thresholds, values, scores, counts) and the same predictions, whatever sorting algorithm orders ties and in whatever order sums are added, provided the sums of gradients and Hessians (or targets) need no rounding: integers with a total below 2^53, or the gradients of two equally likely classes. Without this, the order of the rows can change the predictions.", "quantifier": "all tables without NaN, orders of the rows, sorting algorithms, orders of addition, options", "why_tests_cant": "It compares all permutations of all data sets and all implementations of sorting and summation; tests compare runs of one implementation.", "anchors": ["tree.go:NewTree", "tree.go:findBetterSplit", "utils/math.go:ArgSort"]}
{"id": "C129", "title": "Features that are not reported as important do not matter", "statement": "If two rows agree on the features listed by FeatureImportance (of a model or of a tree), they get the same probabilities, the same class and the same tree value; with an empty list all rows do. The converse fails: a listed feature need not change any predicted class.", "quantifier": "all models and trees (trained, loaded or hand-made) for which FeatureImportance returns, all pairs of rows", "why_tests_cant": "It relates the report to predictions on all pairs of rows.", "anchors": ["tree.go:FeatureImportance", "multiclass.go:FeatureImportance", "multiclass.go:PredictSingle"]}
{"id": "C130", "title": "Conflicting labels bound the accuracy", "statement": "Rows that agree on the features a model uses get one label. So the number of rows counted by Accuracy as right is at most the sum over the groups of such rows of the largest number of equal labels in the group, and a data set (of at most 2^40 rows) with two such rows and different labels has an Accuracy below 100.", "quantifier": "all models, data sets, groupings of rows", "why_tests_cant": "It is an upper bound over all models and training options.", "anchors": ["multiclass.go:Accuracy", "multiclass.go:PredictSingleClass"]}
{"id": "C131", "title": "Every save and load loses a round", "statement": "A finite model saved and loaded k times can always be loaded again, has k rounds less (none if it had at most k), predicts like the original without its last k rounds, and panics on every prediction once no round is left.", "quantifier": "all finite models, all k, all texts of numbers that parse back", "why_tests_cant": "It is an induction on the number of cycles for all models.", "anchors": ["json.go:JSONMultiClass", "json.go:UnJSONMultiClass"]}
{"id": "C132", "title": "Outside the range of the training data predictions are constant", "statement": "If two rows differ only in values that are both at most, or both not below, every training value of that feature, trees and models trained on that data predict the same for both; infinities behave like the extreme training values and NaN like the largest. This needs training values with a midpoint between them: otherwise the largest value and +Inf can be predicted differently, the latter as NaN.", "quantifier": "all data sets whose values have midpoints, options, draws, pairs of rows", "why_tests_cant": "Extrapolation ranges over unbounded sets of values, including NaN and infinities.", "anchors": ["tree.go:PredictSingle", "tree.go:findBetterSplit", "multiclass.go:PredictSingle"]}
{"id": "C133", "title": "Learning rate 0 predicts the first label", "statement": "A model trained with LearningRate 0 (and a BaseScore other than negative zero) predicts the first of its class labels for every row, even if leaf values are infinite or NaN, and its Accuracy on any data is the share of that label.", "quantifier": "all data sets, options, rounds, draws, test data", "why_tests_cant": "It covers all inputs including non-finite leaf values.", "anchors": ["xgb.go:NewMultiClass", "multiclass.go:PredictSingleClass", "multiclass.go:Accuracy"]}
{"id": "C134", "title": "Probabilities are ordered like scores", "statement": "In float64, if math.Exp does not reverse the order of the scores and no probability is NaN, a class with a larger score never has a smaller probability; the class returned has a score larger than those of all earlier classes, and any class with a larger score has exactly the same probability. Different scores can get equal probabilities, so that the larger one loses.", "quantifier": "all score vectors, sums in any order, trained models and rows", "why_tests_cant": "Rounding of exponentials, sums and quotients must be considered for all scores.", "anchors": ["utils/loss_acti.go:SoftMax", "multiclass.go:PredictSingleClass"]}
{"id": "C135", "title": "What MinChildWeight, Gamma and Lambda restrict", "statement": "With a larger MinChildWeight or Gamma a node with the same samples and columns that was not split is not split either, and its best split does not get a better score. Whole trees can still grow: there are data on which a larger Gamma or a larger MinChildWeight gives more nodes. A larger Lambda never increases the magnitude of the value of a node with the same samples; in exact arithmetic it never improves a worthwhile split, but in float64 it can make a node splittable that was not.", "quantifier": "all data, options, finite derivatives, nodes with equal samples", "why_tests_cant": "It compares all pairs of trainings; the counterexamples need data chosen for the purpose.", "anchors": ["tree.go:findBetterSplit", "tree.go:NewTree"]}
{"id": "C136", "title": "Rounding in the scores cannot decide a clear case", "statement": "A finite raw score of a class with n trees differs from the exact score (BaseScore plus the tree values times the learning rate) by at most (n+1) 2^-52 A + n 2^-1074, where A is the sum of the magnitudes of the terms; if A is at most 600 it is finite and at most 610 in magnitude. If the exact score of a class leads those of all others by the error bounds plus 2^-34, PredictSingleClass returns that class.", "quantifier": "all models with a softmax (trained, loaded or hand-made) with fewer than 2^40 classes and trees per class, all rows with finite tree values, every accurate exponential and every order of summation", "why_tests_cant": "It bounds accumulated rounding for all models and rows.", "anchors": ["multiclass.go:PredictSingle", "multiclass.go:PredictSingleClass", "utils/loss_acti.go:SoftMax"]}
{"id": "C137", "title": "What the file of a model holds", "statement": "A saved file holds the whole model: with one more line containing ROUND at its end the loader returns all rounds, and the loaded model predicts like the original. Two models with the same file agree in learning rate, labels, base score and trees apart from the sample lists, and predict the same. Saving a loaded model again writes an initial part of the original file.", "quantifier": "all models that can be saved, all extra lines, all writers, rows, every decoder that parses back what was printed", "why_tests_cant": "It is a statement about all models and texts; equality of files must imply equality of predictions on all rows.", "anchors": ["xjson.go:JSONMultiClass", "xjson.go:UnJSONMultiClass", "utils/json.go:JSONTree"]}
{"id": "C138", "title": "A grid search over ordinary data returns", "statement": "Grid returns, without panicking or looping for ever, for every number of folds, if the data is as in C100, NCPUs is positive, the integer steps are positive, the float steps are not tiny compared with the bounds and the sampling fractions start at 0 or above; the default options are of this kind. An integer hyperparameter gets (hi-lo)/step+1 values and a float one at most 1+2(hi-lo)/step. The search returns no error with at least four rows and a number of folds other than 1, and an error otherwise once NCPUs combinations have been tried.", "quantifier": "every grid of this kind, every data bunch, fold number and draws", "why_tests_cant": "Termination over all grids, data and random streams; repeated floating-point addition.", "anchors": ["cv/cv.go:Grid", "cv/cv.go:DefaultXGridOptions", "cv/cv.go:MultiClassCrossValidation"]}
{"id": "C139", "title": "Where a gradient step moves a parameter", "statement": "A parameter step sends unchanged copies of the options (once per failure) and then the first of its trials that lies in the search box, or an unchanged copy if none does: trial k adds derivative * grid step * step * 0.8^k to the parameter, as long as more than a tenth of the step is left. If the raised options are at least as accurate as the lowered (central) or current ones, the parameter does not decrease, and if they are at most as accurate it does not increase, unless it becomes NaN. A whole gradient step changes each of the six parameters to the value in the first record its parameter step sent, and no other field.", "quantifier": "every option record, grid, parameter, step, fraction and accuracy function", "why_tests_cant": "Holds for all accuracy functions and option records, with float64 rounding, infinities and NaN.", "anchors": ["cv/grad.go:ParamaterGradStep", "cv/grad.go:GradStep", "cv/grad.go:checkAgainstOptions"]}
{"id": "C140", "title": "The gradient searches over ordinary data return", "statement": "On ordinary data (at least two rows) GradientGrid and HybridGradientGrid return, for grid options with fair steps on the looped axes, non-negative bounds for the two sub-sampling fractions, a DeltaFraction between 0 and 1 and a Step that is not tiny; the default grid is of this kind. The options that they return can be trained with. They make at most NSteps + 1 evaluations for each starting point. With at least four rows they return no error, whatever the number of folds asked for; with fewer they return an error, accuracy -1 and no options as soon as there is one starting point.", "quantifier": "every ordinary data set, grid and sequence of random values in which each row index keeps appearing", "why_tests_cant": "Totality of nested loops, hill climbing with restarts and in-place changes of the options, over all accuracies and random sequences.", "anchors": ["cv/grad.go:GradientGrid", "cv/grad.go:GradStep", "cv/grad.go:fuzzOptions", "cv/hybrid.go:HybridGradientGrid"]}
{"id": "C141", "title": "CSV files with quoted fields", "statement": "A file whose fields are each written as they are, where that is possible, or between double quotes with their own quotes doubled (RFC 4180), white space before a field not counting, is read as exactly those fields: separators, quotes, line ends and leading white space inside quotes are kept. On files without quotes the reader does what C96 assumes of it, for every separator the library accepts.", "quantifier": "every separator, every list of records and every way of writing their fields", "why_tests_cant": "All texts: the reader goes through lines, quotes and separators at once, and a quoted field may go over many lines.", "anchors": ["utils/csv.go:ParseCSVFromReader", "utils/csv.go:DataBunchFromCSVFile"]}
{"id": "C142", "title": "Which column names survive a CSV file", "statement": "CSV() writes column names without quoting. Names that can be written as they are come back without leading white space, and names the caller has quoted come back without the quotes, with all rows. If some name contains the separator (and none a quote or line end) the text cannot be read back: an error is returned. The same holds if the first name with a quote has it after other text, never closes it, or has text after the closing quote. A name with a line end can carry rows: two different data sets have the same text. Quotes that close in a later name can make the file readable with names that are not those written.", "quantifier": "every data set, separator and list of names", "why_tests_cant": "All names and data sets; the refuted claim is that a file that can be read back has the same names.", "anchors": ["utils/csv.go:CSV", "utils/csv.go:DataBunchFromCSVFile", "utils/csv.go:ParseCSVFromReader"]}
{"id": "C143", "title": "The order of the columns matters only for ties", "statement": "If the columns of the training table are put in another order (and the random choice of columns follows them), training gives the same model with the column numbers renamed, and every row whose columns are moved in the same way gets the same probabilities and the same class, provided that in no node another column reaches the score of the chosen split. With ties the order decides: exchanging two equal columns changes the prediction of some rows.", "quantifier": "every table, reordering, option record, sort and draw of rows and columns", "why_tests_cant": "All tables and all reorderings; a relation between two trainings.", "anchors": ["tree.go:NewTree", "tree.go:findBetterSplit", "xgb.go:NewMultiClass", "multiclass.go:PredictSingle", "multiclass.go:PredictSingleClass"]}
{"id": "C144", "title": "Missing values make the training panic", "statement": "NaN in the training data is not treated as a missing value. A threshold that is NaN sends every sample of its node to the right, and a returned tree can only contain such a node on its last level: below the root a node without samples occurs only at depth MaxDepth (its value is NaN, or 0 for an XGB tree with positive Lambda). Hence a column without any value is never split on above the last level, and on a table without any value a tree with MaxDepth of at least 2 is a single leaf or is not returned at all. One missing value among ordinary numbers is enough to make training panic, also with the default options, where the same data with a number in its place trains.", "quantifier": "every table, option record, sort and summation order", "why_tests_cant": "All tables with missing values and all orders in which a sort may leave NaN.", "anchors": ["tree.go:NewTree", "tree.go:maybeInsertChildNode", "tree.go:findBetterSplit", "utils/math.go:TransposeFloats", "xgb.go:NewMultiClass"]}
{"id": "C145", "title": "One label: nothing is learned", "statement": "When all training labels are the same, XGB training (squared error or MSE loss, Gamma not negative, Lambda positive, LearningRate and BaseScore finite, exp(BaseScore) finite and positive) learns nothing: every tree of the model is a single leaf with the value 0, the prediction is 1 for every row, and any activation function used in the place of softmax is applied to a single number equal to BaseScore (if that is not 0), so all rows get the same prediction and the regression by one class that the README suspects to be possible is not. With regular gradient boosting and the MSE loss (the default) all predictions are NaN.", "quantifier": "every table, option record, row, activation function and random draws", "why_tests_cant": "All tables and all activation functions.", "anchors": ["xgb.go:NewMultiClass", "multiclass.go:PredictSingle", "tree.go:NewTree", "utils/math.go:SoftMaxDense", "README.md:45"]}
{"id": "C146", "title": "Processors with a fused multiply-add", "statement": "On a processor where the compiler combines the product and the sum of the score update into one operation that rounds once, a prediction has the same panics and the same number of scores as without; each score obeys the same error bound, so the two differ by at most twice that bound; and a class with the margin of C136 is returned on both. The gain of a split is the same number on both, unless the bracket it halves is below 2^-1021. Without a margin the class returned can depend on the processor, and where predictions are fused the scores of a training row are not always those that the training ended with.", "quantifier": "every model and row, for both processors", "why_tests_cant": "Tests run on one processor; the claim is about every model and row on two.", "anchors": ["multiclass.go:PredictSingle", "multiclass.go:PredictSingleClass", "tree.go:228", "xgb.go:NewMultiClass"]}
{"id": "C147", "title": "The example program and the default options", "statement": "The default options of both packages are the XGB ones, pass their own check, and training and searching with them return. The default grid has 368640 combinations. The example program searches 27648 combinations, none with the learning rate 0.3 although its range ends there; with fewer than 7 rows in its file it never reaches its end, since every cross-validated accuracy is then zero and no options are found; over ordinary data its trainings and searches all return without an error, it reaches its end unless a training grew no round or a search found no options, and the class that it prints is between 1 and the number of labels.", "quantifier": "every training file, table, and sequence of random numbers", "why_tests_cant": "The program draws its samples at random and trains tens of thousands of models; a test sees one run on one file.", "anchors": ["examples/basicboost.go:main", "options.go:DefaultOptions", "cv/cv.go:DefaultGridOptions", "cv/cv.go:Grid", "cv/grad.go:GradientGrid"]}
{"id": "C148", "title": "As many labels as rows", "statement": "If the data has more labels than rows and the surplus labels occur among the others, training without early stopping gives exactly the model of the data without them; with early stopping it may not, because the loss that decides when to stop is averaged over the surplus labels too. A surplus label that no row has becomes a class. With fewer labels than rows, training never returns a model with trees: either it panics or every round was skipped for want of samples; with no labels at all (a CSV file read without labels) it always panics. The accuracy ignores surplus labels and is never returned with too few.", "quantifier": "every table, list of labels and surplus labels, options, loss whose derivatives are computed row by row (both losses of the package), and sequence of random numbers", "why_tests_cant": "The two lengths are never compared by the program; what happens depends on buffers of different lengths used over all rounds, classes and sub-samples.", "anchors": ["xgb.go:NewMultiClass", "tree.go:Predict", "utils/math.go:SampleSlice", "utils/libsvm.go:oneHotEncodeDense", "multiclass.go:Accuracy"]}
{"id": "C149", "title": "GradStep with an output channel works on a copy and sends its result once", "statement": "Called with an output channel, GradStep never changes the caller's option record; before it returns it sends exactly the record it returns, once, and that record is one it could have returned, without a channel, for a copy of the options whose EarlyStop is 0. Nothing that its goroutines do after the return changes any option record or sends anything more. As long as the channel has a reader it does not block. The exception: with forward differences and a cross-validation that fails (too few rows), it returns the caller's record and sends nothing, so a reader that waits for the result waits forever. Without a channel the caller's record is the one changed and returned.", "quantifier": "every option record, grid options, data, step and fold numbers, all cross-validation results, and all interleavings of the goroutines", "why_tests_cant": "The channel result depends on the interleaving of six goroutines with the caller, and the absence of writes or sends after the return is about all continuations.", "anchors": ["cv/grad.go:GradStep", "cv/grad.go:ParamaterGradStep", "options.go:Clone"]}
{"id": "C150", "title": "Cross-validation samples share rows with the data unless copies are asked for", "statement": "Without the optional argument the samples of CrossValidationSamples hold the rows of the caller's data themselves: whatever is written later to any row, the training and test sets are the fold's part of what the data has become, so scaling a test set in place changes the data and the training sets of the other folds. With usecopies=true every call returns rows that are new and pairwise different, with the values the data has at the time of the call: writing to the data or to earlier samples does not change them, and writing to them changes nothing else. Labels are always copies; keys are never carried over, despite the documentation.", "quantifier": "every data set, number of folds, sequence of random numbers, number of calls, and every sequence of writes to rows between the calls", "why_tests_cant": "Independence of memory is a statement about all later writes by the caller, for every number of calls and every fold layout.", "anchors": ["utils/stat.go:CrossValidationSamples", "utils/stat.go:fillDataBunch"]}
{"id": "C151", "title": "What a line of a model file means", "statement": "A line is accepted as a node (or, the first one, as the metadata) exactly when it is a JSON text (RFC 8259) that is null or an object in which every value given to a known field has that field's type. Keys match a field without regard to letter case; the last value other than null counts; a field without a value is 0, false, empty or nil; members with unknown keys are ignored; with different keys the order of the members does not matter. Integers must be written without fraction or exponent, and the ids of nodes without a minus sign. A number for a float field gives the float64 nearest to the decimal, ties to even, with the sign as written, and is rejected if that overflows. Escapes in strings and keys stand for the characters RFC 8259 says.", "quantifier": "every text, every order and letter case of the members, every number of digits", "why_tests_cant": "Equivalence with a grammar and correct rounding hold for infinitely many texts; files edited by hand or written by other programs use forms no test lists.", "anchors": ["utils/json.go:UnJSONTree", "utils/json.go:JSONNode", "xjson.go:UnJSONMultiClass", "xjson.go:JSONMetaData"]}
{"id": "C152", "title": "Model files are JSON lines", "statement": "Every node and the metadata are written as one line of JSON with exactly the documented members, without a newline and, for nodes, without the words ROUND or CLASS that mark headings, whatever the finite values; the line reads back as the same record, names in UTF-8 included. So a model saved with encoding/json reloads as C43 says, provided the decimal text of a float64 reads back as that float64.", "quantifier": "every node with finite floats and non-negative ids, every metadata record with finite floats and a name in UTF-8, every model that can be written, and every text of floats that reads back", "why_tests_cant": "Quoting, number texts and the heading words must be right for all values; one node line containing a heading word would corrupt a whole file.", "anchors": ["utils/json.go:JSONTree", "utils/json.go:JSONNode", "xjson.go:JSONMultiClass", "xjson.go:JSONMetaData"]}
{"id": "C153", "title": "Editing a line without changing its meaning does not change the model", "statement": "Loading depends on each line of a file only through what the line means: whether it contains ROUND or CLASS and which node it describes (for the first line: which metadata). In particular, rewriting a node line or the first line with other white space, another order of members, other spellings of numbers or additional unknown members gives the same result of loading, the same model or the same failure, as long as no line gains or loses a heading word. What follows the last newline is ignored.", "quantifier": "every pair of files that agree line by line, every position of the edited line, every decoder of lines", "why_tests_cant": "The reader keeps its position between the trees it reads recursively, so that an edit has no effect on anything else is about all files and all positions.", "anchors": ["xjson.go:UnJSONMultiClass", "utils/json.go:UnJSONTree"]}
{"id": "C154", "title": "A Confusions shares memory with the data and hands out its matrix", "statement": "MCConfusions keeps the labels of the data by reference: the counts are those of the labels at the first call that needs the matrix, not at the time of MCConfusions. From then on the matrix is cached: later calls return the same rows, and only writes of the program to these rows change them. The calls themselves write only to the two buffers of the Confusions: no array that existed before MCConfusions is changed by the library.", "quantifier": "every model and data, every sequence of calls to Matrix and the TopN methods, with arbitrary writes of the program in between", "why_tests_cant": "Which memory is shared shows only in programs that write to it between calls; the claim is about all such programs.", "anchors": ["confu/confu.go:MCConfusions", "confu/confu.go:Matrix", "confu/confu.go:TopNForLabelM"]}
{"id": "C155", "title": "Predicting from several goroutines", "statement": "Goroutines that call PredictSingle, PredictSingleClass and Accuracy on the same model, in any number and interleaving, each get the result the call gives when made alone; a panic happens only if some call panics when made alone; no call waits for another one and all end. This holds although Accuracy with a number of classes writes an internal buffer without synchronisation, a data race on a new model; without that argument nothing of the model is written.", "quantifier": "every model, every set of calls, every interleaving, and whatever a racing read of the buffer returns", "why_tests_cant": "Races show only under some schedules; the absence of an effect is about all of them.", "anchors": ["multiclass.go:Accuracy", "multiclass.go:PredictSingle", "multiclass.go:PredictSingleClass"]}
{"id": "C156", "title": "Losses and activations can be computed in place", "statement": "Loss, NegGradients, Gradients, Hessian, SoftMax, Normalization and their matrix forms give, for arguments and destination of the same shape, the result they give with a nil destination, whatever the destination held and also when it is one of the arguments (which then loses its contents); they change no other matrix, and a nil destination is replaced by a new matrix. Loss and gradients panic when shapes differ. The Hessians do not compare shapes: the one of SQErrLoss fills the destination with ones, the one of MSELoss fills its first entries, keeps the others and panics if it is too small. An activation panics if the destination is too short (its matrix form also if the destination has fewer rows or columns than the argument); if it is longer, SoftMax counts what it held in the sum, so the outputs are not probabilities.", "quantifier": "every memory, every choice of arguments and destination, equal or different, every shape and contents", "why_tests_cant": "In-place use is safe only because no entry is read after it was overwritten, for all sizes and all ways the arguments can coincide.", "anchors": ["utils/loss_acti.go:SQErrLoss", "utils/loss_acti.go:MSELoss", "utils/loss_acti.go:SoftMax", "utils/loss_acti.go:Normalization", "utils/loss_acti.go:SoftMaxDense", "utils/loss_acti.go:NormalizationDense"]}
{"id": "C157", "title": "What training prints with Verbose", "statement": "Verbose changes neither the trained model nor any panic. Without it training prints and logs nothing. With it, one line with round, class and loss is printed for every tree, in the order in which the trees are built; right after the line of the last tree of a class a line is logged when the class stops for lack of progress, once per class, exactly for those classes whose last EarlyStop losses all failed to improve and whose last loss is above the smallest allowed loss. A class that stops because its loss is small enough is not reported. Stops, missing ensembles and reductions of the number of folds go to the log, everything else to the standard output.", "quantifier": "every dataset, options, draws and external code", "why_tests_cant": "That output never influences the model and that the reports agree with the history of losses is a statement about all runs.", "anchors": ["xgb.go:NewMultiClass"]}
{"id": "C158", "title": "What cross-validation logs", "statement": "A cross-validation that returns an error has printed and logged nothing. Otherwise, if fewer folds are used than asked for, the first line says so and gives the number used, the number of samples and the last complaint, which lists the numbers of folds tried before; then, fold by fold, come the lines of the training and, if training gave no ensemble, a line. This line is meant to name the fold but gives the number of folds instead. The result is the same as without output.", "quantifier": "every dataset with labels, every number of folds, options, draws", "why_tests_cant": "The list of tried numbers and the order of the lines hold for all sizes; the wrong number in the complaint looks right for the only fold one happens to test.", "anchors": ["cv/cv.go:MultiClassCrossValidation", "cv/cv.go:CrossValidationSamples"]}
{"id": "C159", "title": "What Grid prints with Verbose", "statement": "Verbose does not change what Grid returns, and without it Grid prints nothing. With it, the headings are the pairs of rounds and child weight in order, all of them if no error is returned; the other lines are, in order, the outcomes (accuracy and options) better than all outcomes before, so the last of them is what Grid returns, and if there is none, Grid returns 0 and no options. A line about an outcome can come below the heading of another pair than its own when NCPUs is larger than 1.", "quantifier": "every dataset, grid options with at least one CPU, draws", "why_tests_cant": "It relates the whole output to the outcomes of all evaluations for all grids and numbers of CPUs.", "anchors": ["cv/cv.go:Grid", "cv/cv.go:rescueConcValues"]}
{"id": "C160", "title": "What the gradient searches print with Verbose", "statement": "Verbose does not change what GradientGrid and HybridGradientGrid return, and without it they print nothing. With it the headings are the child weights (for the hybrid search: pairs of rounds and child weight) in order, all of them if no error is returned; without an error the accuracies printed are exactly the list of accuracies returned, and every printed pair of accuracy and options is one that was evaluated. The options returned need not be those printed with the best accuracy.", "quantifier": "every cross-validation, gradient step and fuzzing function, grid options, number of steps", "why_tests_cant": "It relates the printed lines to the evaluations of all possible searches.", "anchors": ["cv/grad.go:GradientGrid", "cv/hybrid.go:HybridGradientGrid"]}
{"id": "C161", "title": "SubSample keeps rows independently, with a chance just above subsample", "statement": "When the numbers drawn are independent and equally likely, SubSample keeps every row with the same chance and independently of the other rows: every set of rows has the chance p^k (1-p)^(n-k), and the number of rows kept is binomial, not the fixed share of the rows the name suggests. With the 2^53 values of rand.Float64 the number of values that keep a row is min(2^53, floor(subsample*2^53)+1), so p is above subsample by at most 2^-53 and is not 0 even if subsample is 0.", "quantifier": "every number of rows, every subsample, every set of rows, every finite list of equally likely values", "why_tests_cant": "It is an exact distribution over all sequences of random numbers; a test sees a few of them and could not tell an error of 2^-53.", "anchors": ["xgb.go:SubSample"]}
{"id": "C162", "title": "Cross-validation folds are uniformly random", "statement": "When rand.IntN draws equally likely independent numbers, all ways to assign the rows to folds with the given sizes are equally likely. The sizes are tot/n, the last fold has the remainder too, and a row is in a fold with a chance that is the share of the rows in that fold. The drawing by rejection ends with probability one: the chance that N draws are not enough is at most tot*((tot-1)/tot)^N.", "quantifier": "every data set, number of folds, assignment and number of draws", "why_tests_cant": "It compares the numbers of all sequences of draws with a given effect; the loop has no bound on the number of draws.", "anchors": ["utils/stat.go:CrossValidationSamples"]}
{"id": "C163", "title": "Fuzzing loses rounds", "statement": "The fuzz of an option is symmetric in exact arithmetic: up and down by the same amount. The number of rounds is cut to an integer afterwards, so up and down together give one round less than twice the number unless the change is an integer. With the percentages used in the library (0.1 and 0.2) a number of rounds up to 9 (up to 4 for 0.2) never rises: it stays when the draw is up and falls by one when it is down (by a draw of at least 2^-20). Repeated fuzzing never brings it back.", "quantifier": "every option record, every draw in [0,1), every sequence of fuzzing calls; the bias for every percentage and number of rounds in exact arithmetic", "why_tests_cant": "A statement about averages over all draws and about float64 rounding for every draw.", "anchors": ["cv/grad.go:fuzz", "cv/grad.go:fuzzOptions"]}
{"id": "C164", "title": "Labels that a model has not seen", "statement": "A trained model predicts only labels that occur in its training data. Its accuracy on any data is therefore at most the percentage of rows whose label it has seen. When every label of a data set occurs once, the accuracy of a cross-validation that returns is exactly 0. Given that some rows are in a fold, another row is in the same fold with chance (size - rows there) / (rows - rows there), so all m rows of a label fall in one fold, and are missing from its training data, with chance falling(size, m) / falling(rows, m).", "quantifier": "every training data, option record, stream of draws and test data; every data set, fold count and set of rows for the chances, counted over all sequences of random numbers of a given length", "why_tests_cant": "A bound for all test data and an exact count over all streams of random numbers.", "anchors": ["multiclass.go:Accuracy", "multiclass.go:PredictSingleClass", "cv/cv.go:MultiClassCrossValidation", "utils/stat.go:CrossValidationSamples", "xgb.go:NewMultiClass"]}
{"id": "C165", "title": "With the squared error loss a tree moves a score by at most the learning rate", "statement": "When the loss is SQErrLoss and Lambda is not negative, every tree of a trained model answers to every row either NaN or a number of magnitude at most 1, in regular and in XGB boosting, with rounding. In exact arithmetic a score therefore differs from BaseScore by at most the number of trees times the learning rate, and with K classes no probability leaves [1/(1+(K-1)exp(2B)), 1/(1+(K-1)exp(-2B))] for B = rounds * learning rate. In XGB boosting with positive Lambda, an accurate exponential and |BaseScore| + rounds * |learning rate| <= 600, no tree value, score or probability is NaN or infinite. MSELoss has no such bound: a tree can answer more than 2.", "quantifier": "every data set with fewer than 2^53 rows and a label per row, option record, stream of draws and row to be predicted", "why_tests_cant": "A bound over all data, all rounds and all rounding errors; the absence of NaN is an induction over the history of the training.", "anchors": ["xgb.go:NewMultiClass", "xgb.go:updateLeaves", "tree.go:NewTree", "utils/loss_acti.go:SQErrLoss"]}
{"id": "C166", "title": "Training rows can be moved a little", "statement": "Two rows on the same side of every threshold of a model get the same scores, probabilities and class. When training uses all rows in every round, a training row whose values are moved less than half-way to the other values of their columns (less the rounding error of the half-way point) is predicted exactly as before. With row sub-sampling this fails: a threshold can fall on a row that was left out, and any move upwards changes its class.", "quantifier": "every model and pair of rows; every finite table with separable values, labels, options without row sub-sampling, training row and moved row", "why_tests_cant": "A neighbourhood of every training row in every trained model.", "anchors": ["tree.go:PredictSingle", "tree.go:findBetterSplit", "multiclass.go:PredictSingle", "xgb.go:NewMultiClass"]}
{"id": "C167", "title": "A BaseScore too far from zero trains a model that knows nothing", "statement": "In exact arithmetic adding BaseScore to every score does not change a probability. In float64 it does: if BaseScore is NaN, or its exponential is infinite or 0, then with SQErrLoss or MSELoss every tree of the trained model is one leaf whose value is NaN (or 0 when it was grown on no rows). The loss is NaN, so early stopping removes no class and every trained round has a tree for every class. Every prediction is NaN in every class, the first class is predicted for every row, and the accuracy on any data is the percentage of rows with the first label. No error is reported: Options.Check does not look at BaseScore.", "quantifier": "every training data with a label per row, option record with one of the two losses, stream of draws, row to be predicted and test data", "why_tests_cant": "The training returns without an error for every such option record, and the claim is about all trees, rows and test data.", "anchors": ["xgb.go:NewMultiClass", "utils/loss_acti.go:SoftMaxDense", "options.go:Check", "multiclass.go:PredictSingleClass", "multiclass.go:Accuracy"]}
{"id": "C168", "title": "Chance that a round is trained", "statement": "With row sub-sampling in XGB boosting a round is trained when at least MinSample rows are selected. The number of sequences of draws with which this happens is the sum of C(n,k) kept^k dropped^(n-k) for k >= MinSample. The number of trained rounds is binomial with this chance and Rounds trials; in particular nothing at all is trained with chance (1-a)^Rounds, where a is the chance of a round, and then Rounds() is -1 and every prediction panics. On well-formed data training itself returns for every sequence of draws when MinSample is at least 1.", "quantifier": "every finite set of equally likely values of a draw, data set and option record with XGB and SubSample < 1 with which training returns", "why_tests_cant": "An exact count over all sequences of random numbers of all rounds.", "anchors": ["xgb.go:NewMultiClass", "xgb.go:SubSample"]}
{"id": "C169", "title": "Columns offered to the root of an XGB tree", "statement": "With column sub-sampling the root of a tree may split on a given set of columns with the chance kept^k dropped^(n-k) of drawing the set, but never on the empty set, and on all columns with the chance of drawing all or none of them. The root splits on one of these columns and no candidate split of these columns has a better score.", "quantifier": "every number of columns and set of columns, counted over all sequences of draws; every tree of every trained model with XGB and ColSubSample < 1", "why_tests_cant": "An exact count over all sequences of random numbers, and an optimality over all candidates for every tree of every model.", "anchors": ["xgb.go:NewMultiClass", "xgb.go:SubSample", "tree.go:NewTree"]}

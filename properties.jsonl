{"id": "C01", "title": "Dense batch prediction is schedule independent", "statement": "PredictDense with any number of threads that returns, returns with exactly the predictions slice that the single-threaded call leaves behind: the result does not depend on nThreads, on GOMAXPROCS or on how the goroutines are interleaved, down to individual loads and stores of prediction cells.", "quantifier": "every ensemble, input matrix, predictions slice, thread count and every interleaving of the feeder and worker goroutines", "why_tests_cant": "A test observes a handful of schedules picked by the runtime; the number of interleavings is astronomical and the race detector only sees the executed ones.", "anchors": ["leaves.go:PredictDense", "leaves.go:predictInnerAndTransform"]}
{"id": "C02", "title": "CSR batch prediction is schedule independent", "statement": "PredictCSR with any number of threads that returns, returns with exactly the predictions slice that the single-threaded call leaves behind, although each worker reuses one feature buffer for all the batches it happens to receive.", "quantifier": "every ensemble, CSR matrix, predictions slice, thread count, interleaving and assignment of batches to workers", "why_tests_cant": "Which batches share a worker (and hence a buffer) is decided by the scheduler; tests see few assignments.", "anchors": ["leaves.go:PredictCSR", "leaves.go:predictCSRInner"]}
{"id": "C03", "title": "Parallel prediction neither deadlocks nor runs forever", "statement": "If predicting every row on its own succeeds, then every execution of the multi-threaded PredictDense/PredictCSR is finite and cannot get stuck before the call returns: the task channel, close and WaitGroup protocol always completes.", "quantifier": "every schedule of feeder and workers, every number of rows and threads", "why_tests_cant": "Deadlocks show only on particular schedules; a finite test run cannot show that all executions terminate.", "anchors": ["leaves.go:PredictDense", "leaves.go:PredictCSR"]}
{"id": "C04", "title": "Parallel prediction is free of data races on the predictions slice", "statement": "At no point of any execution of the multi-threaded calls can two goroutines be about to access the same cell of predictions, and a worker only ever touches the cells of the rows of its own batch.", "quantifier": "every reachable state of every schedule", "why_tests_cant": "Race detectors only report races in executed schedules.", "anchors": ["leaves.go:PredictDense", "leaves.go:PredictCSR"]}
{"id": "C05", "title": "Dense batch rows equal single predictions", "statement": "When PredictDense succeeds, the NOutputGroups() values stored for row i equal what Predict stores for that row alone, for every row.", "quantifier": "every ensemble, matrix, row index and thread count", "why_tests_cant": "Tests compare only a couple of row indices on fixed matrices.", "anchors": ["leaves.go:PredictDense", "leaves.go:Predict"]}
{"id": "C06", "title": "CSR row equals prediction of its densified row", "statement": "When PredictCSR succeeds, the values stored for row i equal what Predict stores for the dense row in which absent columns carry the model's missing value (0.0 for LightGBM, sklearn and gblinear; NaN for XGBoost trees), the last duplicate of a column wins and columns >= NFeatures() are ignored; nothing leaks from one row into another.", "quantifier": "every ensemble, CSR matrix (duplicates, unsorted and out-of-range columns included), row and thread count", "why_tests_cant": "Leaks between rows depend on the order rows reuse the buffer and on which columns they touch.", "anchors": ["leaves.go:predictCSRInner", "lgensemble.go:resetFVals", "xgensemble.go:resetFVals", "xgblinear.go:resetFVals"]}
{"id": "C07", "title": "Batch prediction writes exactly its output window", "statement": "A successful Predict/PredictDense/PredictCSR changes no cell of predictions at or beyond nRows*NOutputGroups(), keeps its length, and the value of every cell inside the window does not depend on what the slice held before.", "quantifier": "every well formed ensemble, input, slice length and prior content", "why_tests_cant": "Requires quantifying over all prior contents and all cells outside the window.", "anchors": ["leaves.go:Predict", "leaves.go:PredictDense", "leaves.go:PredictCSR"]}
{"id": "C08", "title": "Predict fails exactly on documented conditions and then writes nothing", "statement": "Predict returns an error iff the predictions slice is shorter than NOutputGroups(), or fvals is shorter than NFeatures(), or leaf indices are requested with fewer than all estimators; on error predictions is untouched.", "quantifier": "all ensembles, slices and nEstimators", "why_tests_cant": "An iff over all sizes.", "anchors": ["leaves.go:Predict", "leaves.go:checkNEstimators"]}
{"id": "C09", "title": "Batch calls fail exactly on documented conditions and then write nothing", "statement": "PredictDense returns an error iff predictions is shorter than NOutputGroups()*nrows, or ncols is 0 or smaller than NFeatures(), or leaf indices are requested with fewer than all estimators; PredictCSR iff the first or the last holds; on error predictions is untouched.", "quantifier": "all ensembles, matrices, thread counts and nEstimators (products inside the int range)", "why_tests_cant": "An iff over all sizes, including error precedence.", "anchors": ["leaves.go:PredictDense", "leaves.go:PredictCSR"]}
{"id": "C10", "title": "nEstimators selects a prefix of the estimators", "statement": "For tree ensembles nEstimators <= 0 or >= NEstimators() uses all estimators, otherwise exactly the first nEstimators of each group; estimators past that prefix never influence the result. gblinear always uses its single estimator.", "quantifier": "all integers nEstimators and all ensembles", "why_tests_cant": "Off-by-one boundaries over all integers and all models.", "anchors": ["lgensemble.go:adjustNEstimators", "xgensemble.go:adjustNEstimators", "xgblinear.go:adjustNEstimators"]}
{"id": "C11", "title": "LightGBM/sklearn raw score is the in-order sum of its trees", "statement": "The raw score of group k with n estimators is the IEEE double sum, in estimator order and starting from 0.0, of tree i*NRawOutputGroups()+k for i < n, each multiplied by 1.0.", "quantifier": "all ensembles, feature vectors, groups and n", "why_tests_cant": "All models and inputs; rounding order matters.", "anchors": ["lgensemble.go:predictInner"]}
{"id": "C12", "title": "Random forest raw score averages over the estimators used", "statement": "With average_output the score of group k is the in-order double sum of tree outputs each multiplied by 1/n, n being the adjusted number of estimators actually used.", "quantifier": "all ensembles, vectors, groups and n", "why_tests_cant": "All models and inputs.", "anchors": ["lgensemble.go:predictInner", "lgensemble_io.go:LGEnsembleFromReader"]}
{"id": "C13", "title": "XGBoost raw score is base score plus weighted trees", "statement": "The raw score of group k is the in-order double sum starting from base_score of tree i*NRawOutputGroups()+k times its own drop weight (1.0 for gbtree), for i < n.", "quantifier": "all ensembles, vectors, groups and n", "why_tests_cant": "All models and inputs.", "anchors": ["xgensemble.go:predictInner"]}
{"id": "C14", "title": "gblinear raw score is the affine function of the weights", "statement": "The raw score of group k is base_score + bias_k, then in feature order plus fvals[i]*w[i,k] with row-major weights (feature major, group minor, biases last).", "quantifier": "all models and feature vectors", "why_tests_cant": "All models and inputs.", "anchors": ["xgblinear.go:predictInner"]}
{"id": "C15", "title": "Leaf-index prediction layout and range", "statement": "A leaf-index ensemble stores at position g*NEstimators()+i the index of the leaf that estimator i of group g reaches, as an exact double, and that index is smaller than NLeaves()[g*NEstimators()+i].", "quantifier": "all ensembles built of well formed trees, all feature vectors", "why_tests_cant": "All trees and inputs; group/estimator transposition is easy to get wrong and invisible for one group.", "anchors": ["lgensemble.go:predictLeafIndicesInner", "xgensemble.go:predictLeafIndicesInner", "leaves.go:EnsembleWithLeafPredictions"]}
{"id": "C16", "title": "NLeaves layout", "statement": "NLeaves() has NRawOutputGroups()*NEstimators() entries and entry g*NEstimators()+i is the number of leaves of estimator i of group g.", "quantifier": "all tree ensembles", "why_tests_cant": "All shapes.", "anchors": ["lgensemble.go:NLeaves", "xgensemble.go:NLeaves", "lgtree.go:nLeaves", "misc.go:GetNLeaves"]}
{"id": "C17", "title": "PredictSingle agrees with Predict", "statement": "PredictSingle returns the single value Predict would store when NOutputGroups() is 1 and Predict would succeed, and 0.0 otherwise.", "quantifier": "all ensembles, vectors, nEstimators", "why_tests_cant": "All inputs.", "anchors": ["leaves.go:PredictSingle", "leaves.go:Predict"]}
{"id": "C18", "title": "Raw/leaf views compose and do not disturb the model", "statement": "EnsembleWithRawPredictions and EnsembleWithLeafPredictions can be chained in any order and number: the resulting ensemble behaves exactly as the last view applied directly to the original model, and metadata (NEstimators, NFeatures, NRawOutputGroups, NLeaves, Name) is preserved.", "quantifier": "every finite sequence of view operations on every ensemble", "why_tests_cant": "Unbounded chains of wrappers.", "anchors": ["leaves.go:EnsembleWithRawPredictions", "leaves.go:EnsembleWithLeafPredictions"]}
{"id": "C19", "title": "Logistic output is a probability and exponential output is positive", "statement": "A logistic model's output lies in [0,1] and is never NaN for any non-NaN raw score; the exponential transformation's output is >= 0; both provided math.Exp returns a non-NaN non-negative value.", "quantifier": "every double raw score, every exp implementation meeting that contract", "why_tests_cant": "2^64 inputs and rounding.", "anchors": ["transformation/logistic.go", "transformation/exponential.go", "util/util.go:Sigmoid"]}
{"id": "C20", "title": "Softmax outputs form a distribution", "statement": "Softmax outputs lie in [0,1] and are ordered as the exponentials of the raw scores whenever the sum of exponentials lies between 2^-1022 and 2^1022. Over n classes each output is then within a relative (n+2)*2^-52 (plus half the smallest double) of its exponential over the exact sum of the exponentials, and the outputs add up to one within (n+2)*2^-52. Outside it fails: a class whose exponential overflows gets NaN, an overflowing sum gives all zeros, a subnormal sum gives infinity and a sum above 2^1022 can give an output above one.", "quantifier": "every vector of raw scores, every exp implementation meeting the contract", "why_tests_cant": "Rounding over all doubles.", "anchors": ["transformation/softmax.go", "util/util.go:SoftmaxFloat64Slice"]}
{"id": "C21", "title": "A successful Predict has written its outputs", "statement": "When Predict returns nil every one of the NOutputGroups() cells has been written. (Holds for ensembles whose transformation accepts the number of raw groups; the implementation discards the error of Transform, so it fails otherwise, and for leaf predictions of gblinear.)", "quantifier": "all ensembles and inputs", "why_tests_cant": "All combinations of transformation and raw group count.", "anchors": ["leaves.go:predictInnerAndTransform", "transformation/logistic.go", "transformation/exponential.go", "xgblinear.go:predictLeafIndicesInner"]}
{"id": "C22", "title": "Transformation names", "statement": "Transformation().Name() of every transformation a loader or view can install is the documented distinct name of its type and never panics; TransformType.Name is total on the declared types.", "quantifier": "all transformation types", "why_tests_cant": "Small domain, but the claim is total and is violated for Exponential.", "anchors": ["transformation/transformation.go:Name", "transformation/exponential.go:Name"]}
{"id": "C23", "title": "Numerical split semantics", "statement": "A numerical node sends a value left exactly as the LightGBM rule says: NaN is read as 0 unless missing type is NaN; a missing value (NaN, or |v| within 1e-35 for missing type Zero) follows the default direction; anything else goes left iff value <= threshold.", "quantifier": "all doubles including NaN, infinities, signed zeros; all flags", "why_tests_cant": "2^64 values per flag combination.", "anchors": ["lgtree.go:numericalDecision", "lgtree.go:isZero"]}
{"id": "C24", "title": "Categorical split semantics", "statement": "A categorical node sends value v left iff the integer part of v is a member of the category set the model stores; this holds whichever internal encoding (single category, 32-bit set, large set) the node uses. Treatment of NaN must not depend on the platform.", "quantifier": "all category sets, encodings and doubles; platforms for the NaN part", "why_tests_cant": "All sets and values; platform dependence cannot be observed on one machine.", "anchors": ["lgtree.go:categoricalDecision", "lgtree.go:findInBitset", "util/util.go:FindInBitsetUint32"]}
{"id": "C25", "title": "NumberOfSetBits is the population count", "statement": "NumberOfSetBits returns, modulo 2^32, the number of one bits in the bitset.", "quantifier": "every slice of uint32", "why_tests_cant": "2^32 words and unbounded lengths.", "anchors": ["util/util.go:NumberOfSetBits"]}
{"id": "C26", "title": "FirstNonZeroBit finds the lowest set bit", "statement": "FirstNonZeroBit errs iff all bits are zero, otherwise returns the least set bit position (for slices shorter than 2^27 words).", "quantifier": "every slice of uint32", "why_tests_cant": "2^32 words and unbounded lengths; de Bruijn table.", "anchors": ["util/util.go:FirstNonZeroBit"]}
{"id": "C27", "title": "ConstructBitset encodes exactly the given values", "statement": "For non-negative values, bit v of the result is set iff v is in the list, and the result has just enough words; negative values panic or corrupt nothing else.", "quantifier": "every list of ints", "why_tests_cant": "Unbounded lists.", "anchors": ["util/util.go:ConstructBitset"]}
{"id": "C28", "title": "LightGBM text trees keep their meaning", "statement": "If the arrays of a text tree describe a proper binary tree, loading succeeds and for every feature vector the loaded tree reaches the same leaf (index and value) as walking the original arrays.", "quantifier": "every proper tree of any size and shape, every feature vector", "why_tests_cant": "All tree shapes; the loader relays out nodes so that the right child is implicit.", "anchors": ["lgensemble_io.go:lgTreeFromReader", "lgtree.go:predict"]}
{"id": "C29", "title": "Tree loading terminates on every input", "statement": "Loading a tree from any LightGBM text block, XGBoost node array or sklearn node array - cyclic, shared or otherwise malformed - takes at most twice the number of declared nodes plus one loop iterations.", "quantifier": "every child array content", "why_tests_cant": "Cyclic garbage inputs are unbounded; termination is not testable.", "anchors": ["lgensemble_io.go:lgTreeFromReader", "xgensemble_io.go:xgTreeFromTreeModel", "skensemble_io.go:lgTreeFromSklearnDecisionTreeRegressor"]}
{"id": "C30", "title": "A model that loaded can be evaluated", "statement": "After a successful load, prediction on a feature vector of NFeatures() values always returns. (False of the code: child arrays that share or cycle nodes load without error and then make prediction loop forever or panic; true for proper trees.)", "quantifier": "every file accepted by the loader", "why_tests_cant": "All malformed files.", "anchors": ["lgensemble_io.go:lgTreeFromReader", "lgtree.go:predict"]}
{"id": "C31", "title": "LightGBM header validation", "statement": "LGEnsembleFromReader succeeds only if version is v2 or v3, num_class = num_tree_per_iteration >= 1, and the number of tree_sizes entries is a multiple of num_class; the ensemble then has exactly that many trees, NEstimators() = trees/num_class >= 1, NRawOutputGroups() = num_class.", "quantifier": "every byte stream", "why_tests_cant": "All byte streams.", "anchors": ["lgensemble_io.go:LGEnsembleFromReader"]}
{"id": "C32", "title": "Parameter block parsing", "statement": "ReadParamsUntilBlank returns exactly the key/value lines up to the first blank line or end of input, last value wins, and leaves the reader just after the blank line; a line with two '=' is an error.", "quantifier": "every block of lines", "why_tests_cant": "All inputs.", "anchors": ["util/util.go:ReadParamsUntilBlank"]}
{"id": "C33", "title": "Objective to transformation mapping", "statement": "With loadTransformation the LightGBM loader installs exponential for poisson/gamma/tweedie, none for regression*, logistic for 'binary sigmoid:1', softmax for 'multiclass num_class:<n>' with matching n, none for average_output models, and fails otherwise.", "quantifier": "every objective string", "why_tests_cant": "All strings.", "anchors": ["lgensemble_io.go:LGEnsembleFromReader", "lgensemble_io.go:lgObjectiveParse"]}
{"id": "C34", "title": "LightGBM JSON trees keep their meaning", "statement": "For every JSON tree written as LightGBM writes it (num_leaves not understated, num_cat positive if there are categorical splits, categories from 0 to 2^31-1) the loaded tree reaches, for every feature vector, the leaf value that walking the JSON tree reaches; the scores of a loaded model are the sums of these. A split that names no feature is on feature 0, one that names no default side sends missing values to the right. (With num_leaves understated the loader writes through stale pointers and prediction does not return; with num_cat = 0 it can panic; wider or negative categories are misread.)", "quantifier": "every JSON tree and model, every slice growth policy, every feature vector", "why_tests_cant": "All tree shapes and aliasing behaviours.", "anchors": ["lgensemble_io.go:unmarshalTree", "lgensemble_io.go:unmarshalNode", "lgensemble_io.go:LGEnsembleFromJSON"]}
{"id": "C35", "title": "LightGBM text and JSON loaders agree", "statement": "The same proper tree given in text form and in JSON form yields the same prediction value for every feature vector, and the same model in both forms gives the same output of Predict for every feature vector and estimator count. (Except for models that average: the JSON loader sums them.)", "quantifier": "every tree and model expressible in both formats", "why_tests_cant": "All trees and models.", "anchors": ["lgensemble_io.go:lgTreeFromReader", "lgensemble_io.go:unmarshalTree", "lgensemble_io.go:LGEnsembleFromJSON"]}
{"id": "C36", "title": "XGBoost binary records round-trip", "statement": "Reading a byte stream that is the little-endian encoding of a header, tree, gbtree or gblinear model returns that model and leaves the reader exactly behind it.", "quantifier": "every model value", "why_tests_cant": "All values and sizes.", "anchors": ["internal/xgbin/xgbin_io.go"]}
{"id": "C37", "title": "Truncated XGBoost models are never accepted", "statement": "If a byte stream is a proper prefix of an encoded model, loading it does not succeed: no silently shortened model.", "quantifier": "every model and every truncation point", "why_tests_cant": "Every truncation point of every model.", "anchors": ["internal/xgbin/xgbin_io.go", "xgensemble_io.go:XGEnsembleFromReader"]}
{"id": "C38", "title": "XGBoost trees keep their meaning", "statement": "If the node array of an XGBoost tree describes a proper tree, the loaded tree reaches the leaf value XGBoost reaches: NaN follows the default direction, other values go left iff value < split condition. (The implementation compares with <=, so the claim holds only when no compared feature equals its threshold; the difference is exhibited.)", "quantifier": "every proper tree and feature vector", "why_tests_cant": "All trees, all doubles.", "anchors": ["xgensemble_io.go:xgTreeFromTreeModel", "lgtree.go:numericalDecision"]}
{"id": "C39", "title": "XGBoost ensemble loading end to end", "statement": "Loading the encoding of a well formed gbtree/dart model yields an ensemble whose raw predictions are base_score plus the weighted sum of the reference trees, with NEstimators, NFeatures, NRawOutputGroups and Name taken from the file.", "quantifier": "every well formed model and feature vector", "why_tests_cant": "All models.", "anchors": ["xgensemble_io.go:XGEnsembleFromReader"]}
{"id": "C40", "title": "gblinear loading end to end", "statement": "Loading the encoding of a gblinear model whose weight vector has (features+1)*groups entries yields an ensemble computing the affine function; a shorter weight vector is accepted and makes prediction panic.", "quantifier": "every model and feature vector", "why_tests_cant": "All models.", "anchors": ["xgblinear_io.go:XGBLinearFromReader", "xgblinear.go:predictInner"]}
{"id": "C41", "title": "NFeatures bounds the features a model needs", "statement": "A feature vector of NFeatures() values is always long enough for prediction. (False: a tree model with a single feature, max_feature_idx = 0, reports NFeatures() = 0, so PredictCSR and Predict on an empty vector panic.)", "quantifier": "every loaded model", "why_tests_cant": "All models.", "anchors": ["lgensemble.go:NFeatures", "xgensemble.go:NFeatures", "leaves.go:PredictCSR"]}
{"id": "C42", "title": "Pickle protocol 0 decoding", "statement": "Decoding the protocol-0 encoding of a Python object (ints, floats, None, unicode, tuples, lists, string-keyed dicts, globals, reduce, build; memoising as pickle does) returns that object.", "quantifier": "every such object", "why_tests_cant": "Unbounded nesting.", "anchors": ["internal/pickle/decoder.go", "internal/pickle/machine.go"]}
{"id": "C43", "title": "Pickle memo identity", "statement": "GET returns the current state of the object that was PUT. (True for dicts; false for lists that were appended to after the PUT, since the memo keeps the old slice header.)", "quantifier": "every opcode sequence", "why_tests_cant": "All opcode sequences; aliasing.", "anchors": ["internal/pickle/decoder.go:Decode", "internal/pickle/machine.go"]}
{"id": "C44", "title": "Unicode escape decoding", "statement": "Decoding the raw-unicode-escape of any byte string (backslash and newline escaped) restores it.", "quantifier": "every byte string", "why_tests_cant": "Unbounded strings, two sequential replace passes.", "anchors": ["internal/pickle/decoder.go:decodeUnicode"]}
{"id": "C45", "title": "Numpy raw data decoding", "statement": "Iterating over raw bytes visits consecutive disjoint chunks covering all of them or errs when the length is not a multiple; the 56-byte sklearn node record and 8-byte floats/ints round-trip in both endiannesses used.", "quantifier": "every byte string and record", "why_tests_cant": "All records.", "anchors": ["internal/pickle/numpy.go:Iterate", "internal/pickle/sklearn.go:SklearnNodeFromBytes", "util/util.go:Float64FromBytes"]}
{"id": "C46", "title": "sklearn trees keep their meaning", "statement": "If a sklearn node array describes a proper tree, the loaded tree yields value*scale+base of the leaf reached by value <= threshold walking (NaN read as 0) for every feature vector.", "quantifier": "every proper tree, scale, base and feature vector", "why_tests_cant": "All trees.", "anchors": ["skensemble_io.go:lgTreeFromSklearnDecisionTreeRegressor"]}
{"id": "C47", "title": "sklearn prior is counted once", "statement": "The raw score of a loaded sklearn model for group j is the in-order sum over estimators of leaf value*learning_rate, with the initial estimator's prior of group j folded into the first estimator only.", "quantifier": "every model and feature vector", "why_tests_cant": "All models.", "anchors": ["skensemble_io.go:SKEnsembleFromReader"]}
{"id": "C48", "title": "Dense and CSR matrices from the same array predict alike", "statement": "CSRMatFromArray represents exactly the given dense array, so PredictCSR on it and PredictDense on the array store identical predictions for any model whose missing value plays no role.", "quantifier": "every array, shape and ensemble", "why_tests_cant": "All shapes.", "anchors": ["mat/mat.go:CSRMatFromArray", "mat/mat.go:DenseMatFromArray", "leaves.go:PredictCSR", "leaves.go:PredictDense"]}
{"id": "C49", "title": "libsvm loading", "statement": "Loading returns one row per line up to the first blank line or the limit, with the columns and values of the line; a dense matrix satisfies Rows*Cols = len(Values). (False of the code when the first rows have no records; a doubled space silently drops the rest of a line.)", "quantifier": "every text", "why_tests_cant": "All texts.", "anchors": ["mat/mat_io.go:readFromLibsvm", "mat/mat_io.go:recordsToDenseMat", "mat/mat_io.go:recordsToCSRMat"]}
{"id": "C50", "title": "CSV round-trip", "statement": "Writing a consistent non-empty dense matrix and reading it back with the same delimiter restores it.", "quantifier": "every matrix and delimiter, given a correctly rounding float printer/parser", "why_tests_cant": "All matrices.", "anchors": ["mat/mat_io.go:WriteStr", "mat/mat_io.go:readFromCsv"]}
{"id": "C51", "title": "Tolerance comparison", "statement": "AlmostEqualFloat64Slices succeeds iff lengths agree and every pair of finite elements differs (in float64) by at most the threshold; NumMismatchedFloat64Slices counts the other pairs. (False for NaN: a NaN element always compares as equal.)", "quantifier": "all slices and thresholds", "why_tests_cant": "All doubles.", "anchors": ["util/util.go:AlmostEqualFloat64Slices", "util/util.go:AlmostEqualFloat64", "util/util.go:NumMismatchedFloat64Slices"]}
{"id": "C52", "title": "Tree traversal is bounded", "statement": "Tree prediction either stops within as many node visits as the tree has nodes or never stops; for trees produced from proper inputs it always stops.", "quantifier": "every tree (malformed included) and feature vector", "why_tests_cant": "Non-termination is not testable.", "anchors": ["lgtree.go:predict"]}
{"id": "C53", "title": "Batch splitting covers every row exactly once", "statement": "For every positive number of rows the batches handed to the workers partition the rows 0..nRows-1 into consecutive runs of at most BatchSize rows.", "quantifier": "every row count up to 2^53", "why_tests_cant": "All row counts; the batch count is computed in floating point.", "anchors": ["leaves.go:PredictDense", "leaves.go:PredictCSR"]}
{"id": "C54", "title": "A transformed prediction is the transformation of the raw prediction", "statement": "Whenever Predict succeeds, the raw view of the same model succeeds on the same arguments, and the outputs are exactly the logistic, exponential or softmax formula (in float64) of the raw view's outputs.", "quantifier": "every model, feature vector, estimator count and buffer", "why_tests_cant": "All models and inputs.", "anchors": ["leaves.go:predictInnerAndTransform", "leaves.go:EnsembleWithRawPredictions", "transformation/logistic.go", "transformation/exponential.go", "transformation/softmax.go"]}
{"id": "C55", "title": "Feature values beyond those the model looks at change nothing", "statement": "If Predict succeeds on a feature vector, it succeeds with the same predictions on every longer vector that starts with it.", "quantifier": "every model, feature vector, extension, estimator count and buffer", "why_tests_cant": "All models, all extensions.", "anchors": ["leaves.go:Predict", "lgtree.go:predict", "xgblinear.go:predictInner"]}
{"id": "C56", "title": "CSV loading", "statement": "Loading returns one row per line up to the first blank line or the limit; each field is a number or, if empty, the default value; rows of different widths and malformed fields are errors. (Absent first or last values are lost if the delimiter is white space.)", "quantifier": "every text, single-byte delimiter, default value and limit", "why_tests_cant": "All texts.", "anchors": ["mat/mat_io.go:readFromCsv", "mat/mat_io.go:DenseMatFromCsv"]}
{"id": "C57", "title": "LightGBM JSON header validation", "statement": "A JSON model is only loaded if name is tree, version is v2, num_class and num_tree_per_iteration are the same number >= 1 and tree_info is a non-empty array whose length is a multiple of it, and no transformation is asked for; the loaded model reports these numbers. Everything else is refused with an error, never a panic.", "quantifier": "every JSON value with distinct lower-case keys", "why_tests_cant": "All documents.", "anchors": ["lgensemble_io.go:LGEnsembleFromJSON"]}
{"id": "C58", "title": "Writing a matrix to a writer or file that may fail", "statement": "WriteStr appends a prefix of the matrix's CSV text to the writer; it reports success exactly if no Write failed, and then the whole text is there. ToCsvFile leaves a prefix of the text in the file; if no write to the file fails it reports success and the file is complete. A matrix without cells is one empty line; a matrix whose dimensions disagree with its values is an error and nothing is written. (If ToCsvFile reports success at most 4096 bytes are missing: the error of the last flush is dropped.)", "quantifier": "every matrix, delimiter and sequence of write results", "why_tests_cant": "All failure points of the device.", "anchors": ["mat/mat_io.go:WriteStr", "mat/mat_io.go:ToCsvFile"]}
{"id": "C59", "title": "Transformations keep the order of the raw scores", "statement": "If math.Exp is monotone: for logistic and exponential models, of two inputs the one with the larger raw score never gets the smaller prediction; for softmax models, of two classes of one prediction the one with the larger raw score never gets the smaller probability, so that the largest raw score belongs to a most probable class.", "quantifier": "every model, pair of inputs and estimator count; for softmax every raw vector whose sum of exponentials is within [2^-1022, 2^1022]", "why_tests_cant": "All pairs of inputs, floating-point rounding.", "anchors": ["transformation/logistic.go", "transformation/exponential.go", "transformation/softmax.go", "util/util.go:Sigmoid", "util/util.go:SoftmaxFloat64"]}
{"id": "C60", "title": "A raw score is close to the exact sum", "statement": "If a raw score is finite, it differs from the real-number formula (sum of leaf values, their average, base score plus weighted leaf values, or base score plus bias plus weighted features) by at most ((1+2^-53)^k - 1) times the sum of the absolute values of the terms, plus at most about k times half the smallest positive float64 where products are involved; k is the number of terms plus at most two.", "quantifier": "every model of the four kinds, feature vector and estimator count", "why_tests_cant": "Real-number error bound over all models and inputs.", "anchors": ["lgensemble.go:predictInner", "xgensemble.go:predictInner", "xgblinear.go:predictInner"]}
{"id": "C61", "title": "Calls at the same time do not disturb each other", "statement": "Several PredictDense and PredictCSR calls may run at the same time, on the same or different models, as long as no two of them get a common cell as predictions. Whatever the interleaving of all their goroutines: a call that has returned leaves in its slice exactly what the single-threaded call alone leaves, and keeps it while the others go on; cells given to no call are not changed; the program panics only with a panic one of the calls has alone; if every call alone always completes, so do all of them together. With a common cell this is false.", "quantifier": "every set of calls with disjoint slices, every interleaving of their loads, stores and channel operations", "why_tests_cant": "Unbounded number of calls, goroutines and interleavings.", "anchors": ["leaves.go:PredictDense", "leaves.go:PredictCSR"]}
{"id": "C62", "title": "Models that loaders accept are consistent", "statement": "A model a loader returns has at least one output group, as many trees as fit an int, and a transformation that fits the number of raw scores, so that the prediction guarantees apply to it. This holds for every accepted LightGBM text and JSON model, XGBoost, gblinear and scikit-learn file with these exceptions: a one-score transformation (binary, poisson, gamma, tweedie, binary:logistic) loaded on request for a file with several groups (prediction then succeeds and writes nothing; the raw view is always consistent), XGBoost and gblinear files that announce less than one group, scikit-learn files that announce no classes.", "quantifier": "every input a loader accepts, well-formed or not", "why_tests_cant": "All byte sequences and JSON values.", "anchors": ["lgensemble_io.go:LGEnsembleFromReader", "lgensemble_io.go:LGEnsembleFromJSON", "xgensemble_io.go:XGEnsembleFromReader", "xgblinear_io.go:XGBLinearFromReader", "skensemble_io.go:SKEnsembleFromReader"]}
{"id": "C63", "title": "From the file to every cell of the output", "statement": "Load a model file and predict a dense or CSR matrix with any number of threads: under every schedule the call returns nil, and the cell of row i and group k holds exactly the value that the trees (or weights) written in the file give for row i, summed, averaged or weighted as the file says and passed through the transformation the file's objective names.", "quantifier": "every proper LightGBM text or JSON, XGBoost, gblinear and scikit-learn file; every matrix with enough columns and readable entries, thread count, estimator count and schedule", "why_tests_cant": "Unbounded files, matrices and schedules; joins loaders and the parallel engine.", "anchors": ["leaves.go:PredictDense", "leaves.go:PredictCSR", "lgensemble_io.go:LGEnsembleFromReader", "xgensemble_io.go:XGEnsembleFromReader", "skensemble_io.go:SKEnsembleFromReader"]}
{"id": "C64", "title": "The JSON loader reads every JSON spelling of a model and nothing else", "statement": "Any RFC 8259 text of a model object loads as that object: white space between tokens, the choice of escapes in strings and whatever follows the closing brace make no difference. A stream that does not start with a JSON value, that breaks off inside the object, or whose nesting exceeds the package's limit makes the loader return an error; no byte sequence makes it loop.", "quantifier": "every byte stream, layout, escape spelling, cut position and nesting limit", "why_tests_cant": "Infinitely many spellings of one model and unboundedly many malformed or truncated streams.", "anchors": ["lgensemble_io.go:LGEnsembleFromJSON"]}
{"id": "C65", "title": "The scikit-learn loader takes only gradient boosting classifiers", "statement": "Loading from a pickle succeeds only for an instance of sklearn's GradientBoostingClassifier whose attributes have the documented Python and numpy types: regressors and other classes, arrays stored column by column, arrays of another element type and estimator tables of another shape give an error instead of a model. The model has as many scores as the object has classes, one for two classes.", "quantifier": "every picklable Python object, every spelling of it the decoder understands, every stream around it", "why_tests_cant": "The objects to be refused are infinitely many; a test shows that some of them are.", "anchors": ["skensemble_io.go:SKEnsembleFromReader", "internal/pickle/sklearn.go", "internal/pickle/numpy.go"]}
{"id": "C66", "title": "Loading does not crash the program", "statement": "Every loading call comes back with a model or with an error. LightGBM text: for every byte stream whose complete tree blocks have arrays of matching lengths and children that exist. LightGBM JSON: for every byte stream whose num_leaves and categories are not out of proportion. XGBoost trees and linear models: for every written file, cut off anywhere or followed by anything, whose trees name only nodes they have. scikit-learn: for every pickled classifier whose trees name only nodes they have. Matrix files: for every byte stream. Files with a dangling reference do crash the caller, for which there are witnesses.", "quantifier": "every byte stream (text, JSON, matrices), every prefix of every written file (XGBoost), every spelling of every pickled classifier (scikit-learn), every platform", "why_tests_cant": "A fuzzer samples streams; the absence of an index out of range must hold for all of them.", "anchors": ["lgensemble_io.go:LGEnsembleFromReader", "lgensemble_io.go:LGEnsembleFromJSON", "xgensemble_io.go:XGEnsembleFromReader", "xgblinear_io.go:XGBLinearFromReader", "skensemble_io.go:SKEnsembleFromReader", "mat/mat_io.go"]}
{"id": "C67", "title": "Loading from a file is loading from its contents", "statement": "The FromFile functions give exactly what the FromReader functions give on the contents of the named file, with the same options, and an error if the file cannot be opened; no other file matters. So what holds for readers holds for files, for instance the predictions of a LightGBM text model.", "quantifier": "every file system, name, option and contents", "why_tests_cant": "All contents and options.", "anchors": ["lgensemble_io.go:LGEnsembleFromFile", "xgensemble_io.go:XGEnsembleFromFile", "xgblinear_io.go:XGBLinearFromFile", "skensemble_io.go:SKEnsembleFromFile", "mat/mat_io.go:DenseMatFromLibsvmFile", "mat/mat_io.go:CSRMatFromLibsvmFile", "mat/mat_io.go:DenseMatFromCsvFile"]}
{"id": "C68", "title": "How a stream arrives does not matter", "statement": "A loader gives the same result, model or error, however the stream splits its bytes over the calls of Read: one byte at a time, in pieces larger or smaller than the buffer, with the end reported together with the last bytes or after them. Lines may be longer than the buffer. XGBoost loaders accept any number of empty reads, the text and matrix loaders fewer than 100 in a row, the scikit-learn loader none. A stream with 100 empty reads in a row is to the text and matrix loaders one that fails there with an error: what they need before that point they read as usual, and what they need after it is an error. Reading a matrix in batches continues where the last call stopped.", "quantifier": "every stream of bytes and every way to cut it into reads", "why_tests_cant": "There are exponentially many ways to cut a stream; a test reads from a file or a string.", "anchors": ["lgensemble_io.go:LGEnsembleFromReader", "xgensemble_io.go:XGEnsembleFromReader", "xgblinear_io.go:XGBLinearFromReader", "skensemble_io.go:SKEnsembleFromReader", "internal/pickle/decoder.go:readLine", "util/util.go:ReadParamsUntilBlank", "mat/mat_io.go"]}
{"id": "C69", "title": "What is predicted for a row depends on nothing but the row", "statement": "If a row of one batch call and a row of another call, or of the same one, hold the same feature values, their outputs are the same: whether the calls are dense or sparse, whatever the other rows, the position, the number of threads and the previous contents of the output slice. One row may have further columns. So splitting a batch, reordering it or repeating rows changes nothing else.", "quantifier": "every model, every pair of batch calls, every schedule", "why_tests_cant": "All pairs of batches and schedules.", "anchors": ["leaves.go:PredictDense", "leaves.go:PredictCSR"]}
{"id": "C70", "title": "The leaves reached determine the prediction", "statement": "If the leaf-index view of a tree model gives the same output for two feature vectors, the model itself gives the same output for both, for every number of estimators, raw or transformed. So leaf indices are a complete description of what the model knows about a vector.", "quantifier": "every tree model, every pair of vectors, every number of estimators", "why_tests_cant": "All pairs of vectors with the same leaves.", "anchors": ["leaves.go:EnsembleWithLeafPredictions", "leaves.go:Predict", "lgtree.go:predict"]}
{"id": "C71", "title": "How a sparse row is written down does not matter", "statement": "Two sparse matrices whose rows say the same about the model's columns give the same predictions: entries may be stored in any order (if no column is repeated; otherwise the last entry of a column counts), missing values may be stored or left out, and columns the model does not have may be present or absent. If the call returns for one matrix, every call for the other one returns with the same result, on any number of threads.", "quantifier": "every model, every pair of matrices, every schedule", "why_tests_cant": "All orders of all rows and all ways to leave out missing values.", "anchors": ["leaves.go:PredictCSR", "leaves.go:predictCSRInner", "leaves.go:resetFVals"]}
{"id": "C72", "title": "A file cut short is refused or loads as the whole file would", "statement": "If a beginning of a model file loads without error, then the whole file loads as the same model: a loader never silently accepts part of a model. What follows a model in a file is not looked at.", "quantifier": "every file of every format and every point where it is cut off", "why_tests_cant": "All files and all places to cut them.", "anchors": ["xgensemble_io.go:XGEnsembleFromReader", "xgblinear_io.go:XGBLinearFromReader", "lgensemble_io.go:LGEnsembleFromReader", "lgensemble_io.go:LGEnsembleFromJSON", "skensemble_io.go:SKEnsembleFromReader", "util/util.go:ReadParamsUntilBlank"]}
{"id": "C73", "title": "How a LightGBM text model is spelled does not matter", "statement": "Two text files whose blocks say the same about the parameters the loader knows load as the same model: the order of the lines, lines with other keys, earlier lines with a repeated key, white space and carriage returns at the ends of lines, and what follows the last tree do not matter.", "quantifier": "every text that loads and every other spelling of it", "why_tests_cant": "All orders of the lines and all additions between them.", "anchors": ["lgensemble_io.go:LGEnsembleFromReader", "lgensemble_io.go:lgTreeFromReader", "util/util.go:ReadParamsUntilBlank"]}
{"id": "C74", "title": "Only the sides of the splits matter", "statement": "For a tree model loaded from a file, two feature vectors that are on the same side of every split met on the way down each tree get the same answer from every Predict call: a prediction changes only when a feature crosses a split, and features that are not asked for on the way do not count at all.", "quantifier": "every model file of the four tree formats, every pair of feature vectors, every call", "why_tests_cant": "All pairs of vectors and all models.", "anchors": ["leaves.go:Predict", "lgtree.go:predict", "lgensemble_io.go:LGEnsembleFromReader", "lgensemble_io.go:LGEnsembleFromJSON", "xgensemble_io.go:XGEnsembleFromReader", "skensemble_io.go:SKEnsembleFromReader"]}
{"id": "C75", "title": "Raw scores stay between the sums of the smallest and of the largest leaf values", "statement": "If the leaf values of every tree are finite, every raw score Predict writes lies between the sum of the trees' smallest and the sum of their largest contributions, both added up like the score itself in floating point. The contribution of a leaf is its value for LightGBM and scikit-learn, the value times 1/n for a random forest of n trees, and the value times the weight of the tree, on top of the base score, for XGBoost. In particular no feature values can make the score NaN.", "quantifier": "every well formed model, every feature vector, every number of estimators, all bounds on the leaf values", "why_tests_cant": "All feature values, all sums of floating point numbers.", "anchors": ["leaves.go:Predict", "lgensemble.go:predictInner", "xgensemble.go:predictInner", "lgtree.go:predict"]}
{"id": "C76", "title": "Error messages about values that contain themselves", "statement": "Reading any bytes as a scikit-learn model can end the program for want of stack (which Go cannot recover from) only if the decoder meets a dict or list that contains itself: error messages format the offending value without noticing cycles. A message about values without cycles is always delivered, and the pickle of a finite object, model or not, never ends the program this way. That every file is answered by a model, an error or a recoverable panic is false.", "quantifier": "every byte string, every history of the decoder, every heap", "why_tests_cant": "All byte strings and all object graphs.", "anchors": ["skensemble_io.go:SKEnsembleFromReader", "internal/pickle/decoder.go:Decode", "internal/pickle/types.go:ParseClass"]}
{"id": "C77", "title": "Predictions written over the input", "statement": "When the feature slice and the predictions slice share memory, a single-threaded call still leaves what a call on separate copies would leave, provided no feature is read after its cell was written: always for Predict on models that transform their scores; for PredictDense when the predictions do not run ahead of the rows (output not wider than a row and starting no later than the features; for raw scores and leaf indices, starting one output row earlier); for PredictCSR when no entry of a row lies in the output of an earlier row. Overwriting features by their raw scores, or letting the output run ahead, gives wrong predictions. A transformation may be applied to raw scores in place, which gives the transformed predictions, but not when its output starts within the scores after their beginning.", "quantifier": "every model, every memory, every position and length of the two slices, every number of rows", "why_tests_cant": "All overlaps of two slices and all models.", "anchors": ["leaves.go:Predict", "leaves.go:PredictDense", "leaves.go:PredictCSR", "leaves.go:predictInnerAndTransform", "lgensemble.go:predictInner", "transformation/softmax.go:Transform", "util/util.go:SoftmaxFloat64Slice"]}
{"id": "C78", "title": "A loaded model is not larger than its file", "statement": "A model that loads has, counted together, at most as many tree nodes and leaf values as its LightGBM text or JSON file has bytes, and at most a twelfth as many for an XGBoost file; a linear model has at most one weight per four bytes. Counts and child references announced by a hostile file cannot make it larger. For a pickle the bound is the square of its length, because one tree may be named many times; no linear bound holds. Categorical bitsets are not bounded by the file.", "quantifier": "every byte sequence that one of the loaders accepts", "why_tests_cant": "All files, with every inconsistency between the counts, arrays and references in them.", "anchors": ["lgensemble_io.go:LGEnsembleFromReader", "lgensemble_io.go:LGEnsembleFromJSON", "lgensemble_io.go:lgTreeFromReader", "xgensemble_io.go:XGEnsembleFromReader", "xgblinear_io.go:XGBLinearFromReader", "skensemble_io.go:SKEnsembleFromReader", "internal/pickle/decoder.go:Decode"]}
{"id": "C79", "title": "Monotone constraints of the training hold for the predictions", "statement": "If at every split on a feature no leaf of the left branch is above (or, for a decreasing constraint, below) a leaf of the right branch - what training with a monotone constraint on that feature gives - then raising that feature, everything else unchanged, never moves a prediction of the loaded model in the wrong direction: raw scores for any number of estimators, random forest averages, and probabilities, with all rounding. For linear models the sign of the weight decides. Zero must not be marked as missing for a numerical split of LightGBM, as a missing value goes to its default side; then the claim is false.", "quantifier": "every model file whose trees satisfy the constraint, every pair of vectors, every number of estimators", "why_tests_cant": "All pairs of feature vectors and all sums of rounded numbers.", "anchors": ["leaves.go:Predict", "lgtree.go:predict", "lgensemble.go:predictInner", "xgensemble.go:predictInner", "xgblinear.go:predictInner"]}
{"id": "C80", "title": "Every ensemble of trees can be written to a file that loads as it", "statement": "For any list of binary decision trees of any shape and depth - thresholds of any value, for LightGBM any missing type, default direction and any non-empty set of categories below 2^31 - there is a file of each format (LightGBM text, LightGBM JSON, XGBoost binary, scikit-learn pickle) that the loader accepts, whatever follows it in the stream, with the stated numbers of features, groups and estimators, and whose raw scores are for every vector and every number of estimators the (weighted, averaged or scaled) sums of the values of these trees. The same holds for linear models of any weights. The files are given by an explicit writer. The text and the JSON file of one ensemble give the same scores, bit for bit. In particular no kind of node, no nesting and no number of trees within the limits of the format is refused or misread.", "quantifier": "every list of trees, every feature vector, every number of estimators", "why_tests_cant": "All tree shapes, all thresholds and category sets and all vectors.", "anchors": ["lgensemble_io.go:LGEnsembleFromReader", "lgensemble_io.go:LGEnsembleFromJSON", "xgensemble_io.go:XGEnsembleFromReader", "skensemble_io.go:SKEnsembleFromReader", "leaves.go:Predict"]}
{"id": "C81", "title": "Models one after another in a stream", "statement": "A loader takes from the front of the reader exactly the bytes of one model and leaves the reader right behind them: if a model is loaded from a stream and something is left (or the format is not LightGBM text, which the end of the stream also ends) then the bytes taken are a text that loads as the same model whatever comes behind it and however the stream ends. So models of LightGBM text, XGBoost, gblinear and scikit-learn, in any order and any number, written one after another and loaded in turn from the same reader are the models that the texts give alone; conversely models loaded in turn come from such texts. No such text is the beginning of another. A LightGBM text that ends with the stream and not with a blank line swallows what is put behind it.", "quantifier": "every byte stream, every sequence of formats and models", "why_tests_cant": "All streams and all sequences of models.", "anchors": ["lgensemble_io.go:LGEnsembleFromReader", "xgensemble_io.go:XGEnsembleFromReader", "xgblinear_io.go:XGBLinearFromReader", "skensemble_io.go:SKEnsembleFromReader"]}
{"id": "C82", "title": "A matrix read in pieces is the matrix read at once", "statement": "If a libsvm or CSV text can be read as a matrix without a limit then, for every k > 0, reading it with limit k again and again from the same reader until a piece has fewer than k rows gives pieces without an error, which one under the other are that matrix, and leaves the reader in the same place: no row is lost or doubled at the limits. Conversely if the pieces can be read then so can the whole, for sparse matrices always, for dense ones if the pieces have the same number of columns. Rows of different lengths in different pieces are not noticed.", "quantifier": "every text, every limit, every number of pieces", "why_tests_cant": "All texts and all ways to cut them.", "anchors": ["mat/mat_io.go:readFromLibsvm", "mat/mat_io.go:readFromCsv", "mat/mat_io.go:DenseMatFromLibsvm", "mat/mat_io.go:CSRMatFromLibsvm", "mat/mat_io.go:DenseMatFromCsv"]}
{"id": "C83", "title": "Asking for the transformation changes nothing but the transformation", "statement": "For every byte stream and each of the four stream formats: if the model loads with the transformation asked for then it also loads without, and what is loaded without behaves in every prediction call, and in its metadata, as the raw view of what is loaded with. If it loads without, then the result is a raw model, and loading with the transformation either gives a model of which it is the raw view or is refused by an error: never a crash, a hang or another model. For LightGBM JSON asking for the transformation is always refused.", "quantifier": "every byte stream, every format, every input and number of estimators", "why_tests_cant": "All files, including the malformed ones, with both settings of the flag.", "anchors": ["lgensemble_io.go:LGEnsembleFromReader", "lgensemble_io.go:LGEnsembleFromJSON", "xgensemble_io.go:XGEnsembleFromReader", "xgblinear_io.go:XGBLinearFromReader", "skensemble_io.go:SKEnsembleFromReader", "leaves.go:EnsembleWithRawPredictions"]}
{"id": "C84", "title": "A model stopped earlier is the first part of the longer one", "statement": "Take a model file and the file of the same training stopped after fewer iterations. LightGBM text and XGBoost: if the longer file loads, so does the shorter one (same header but for the number of trees, and the first trees), with the same groups, features, name and transformation, and every Predict call on it is the Predict call on the longer model with that number of estimators, errors included. LightGBM JSON and scikit-learn: if both files describe proper trees, those of the shorter being the first of the longer, the scores agree in the same way. So nEstimators does what early stopping would have done.", "quantifier": "every pair of such files, every input, every number of estimators", "why_tests_cant": "All models, all ways of writing them down, all lengths.", "anchors": ["leaves.go:Predict", "lgensemble_io.go:LGEnsembleFromReader", "lgensemble_io.go:LGEnsembleFromJSON", "xgensemble_io.go:XGEnsembleFromReader", "skensemble_io.go:SKEnsembleFromReader"]}
{"id": "C85", "title": "What a call that did not succeed leaves in the predictions", "statement": "A call that returns an error has written nothing. A single-threaded call that panics (a matrix shorter than announced, a bad column number, a tree that asks for a feature that is not there), and whose caller recovers, has stopped at a row on which Predict on its own does not succeed either; every row before it holds its prediction, and no cell behind that row was written. If the model transforms its scores, the cells of that row are untouched too; raw scores and leaf indices may be half done.", "quantifier": "every model, input, matrix, slice and point at which the call stops", "why_tests_cant": "Every access that may panic is a different point to stop at.", "anchors": ["leaves.go:Predict", "leaves.go:PredictDense", "leaves.go:PredictCSR", "leaves.go:predictInnerAndTransform", "leaves.go:predictCSRInner"]}
{"id": "C86", "title": "Predicted probabilities are close to the mathematical ones", "statement": "If math.Exp has a relative error of at most eps (and eps is at most 1/8), then the output of a logistic model differs from 1/(1+exp(-raw score)) by at most about 2 eps plus four roundings, relatively; the outputs of a softmax model, whose scores are at most 300 and not all below -300, differ from exp(score)/(sum of the exp(scores)) by at most about 4 eps plus n + 3 roundings, relatively, and add up to one; and the output of a binary LightGBM or XGBoost model (trees or linear) differs from the logistic function of the exact score (the sum of the leaf values its trees pick, of base score and weighted leaf values, or of base score, bias and weighted features) by at most that, plus a quarter of the rounding error of the score; with several classes the softmax of the exact scores is met up to a further factor exp(2 d), if no score has a rounding error above d. The output of an exponential model is as exact as math.Exp.", "quantifier": "every such exponential function, every model, input, estimator limit and raw score", "why_tests_cant": "The real-valued functions cannot be computed exactly by a test, and there are 2^64 raw scores; the error of the sum depends on every leaf.", "anchors": ["transformation/logistic.go:Transform", "transformation/softmax.go:Transform", "transformation/exponential.go:Transform", "util/util.go:Sigmoid", "util/util.go:SoftmaxFloat64Slice", "leaves.go:Predict"]}
{"id": "C87", "title": "The same predictions on every machine", "statement": "A model without categorical splits gives bit for bit the same raw outputs for every feature vector (NaN and infinities included) on every two machines that do not fuse multiplications with additions, whatever the architecture, the number of processors and the schedule, in single and batch calls, dense or sparse; with a transformation the outputs agree if the machines compute math.Exp alike. With categorical splits this holds for all vectors whose values at these splits have an int32 as integer part, or are NaN where NaN counts as missing. With the same release of Go a stream (LightGBM JSON, XGBoost, scikit-learn) is loaded as the same model, or refused with the same error, unless the machine with less memory crashes; for LightGBM text this holds if the machines also convert a negative, huge or NaN threshold of a categorical split alike.", "quantifier": "every two machines, model, feature vector, matrix, schedule and stream", "why_tests_cant": "A test runs on one machine; the language leaves the conversions and the fusing of operations open, so only a proof over all machines shows which results cannot depend on it.", "anchors": ["leaves.go:Predict", "leaves.go:PredictDense", "leaves.go:PredictCSR", "lgtree.go:categoricalDecision", "lgtree.go:numericalDecision", "lgensemble_io.go:LGEnsembleFromReader", "lgensemble_io.go:LGEnsembleFromJSON", "xgensemble_io.go:XGEnsembleFromReader", "xgblinear_io.go:XGBLinearFromReader", "skensemble_io.go:SKEnsembleFromReader"]}
{"id": "C88", "title": "What fused multiply-add can change", "statement": "Go compilers may compute x*y + z with one rounding instead of two, as they do on arm64, ppc64le, s390x and riscv64. Whichever additions of a prediction are fused, in single and batch calls (dense or sparse, any number of goroutines), every output, transformed or not, stays the same bit for bit for LightGBM models that are not random forests, scikit-learn models, XGBoost models whose trees have weight one, and linear models on features that are integers of at most 29 bits; the same calls are refused and the same panics occur. The raw scores of random forests, of weighted (dart) trees and of linear models on other features may differ, but each choice obeys the same error bound against the exact sum, and fusing makes no prediction of a well-formed model fail or succeed. Whatever is fused in a batch call that returns, each row holds what a single prediction of that row stores with some choice. A batch call whose rows can each be predicted on their own always returns: no execution of its goroutines runs forever, crashes or gets stuck, and no two goroutines are ever about to access the same cell. Everything a batch call can do without fusing it can do when fusing is allowed. The scikit-learn loader accepts the same streams whichever leaf values it computes with fused multiply-add, and gives the same model but for the leaf values, each of which is value times learning rate plus prior rounded once or twice; after the first estimator only the sign of a zero may differ, and with learning rate one nothing does.", "quantifier": "every choice of fusing at every single addition, every model, feature vector, matrix, schedule and estimator limit", "why_tests_cant": "The choice is made by the compiler for each architecture; tests run on one machine with one choice.", "anchors": ["lgensemble.go:predictInner", "xgensemble.go:predictInner", "xgblinear.go:predictInner", "leaves.go:predictInnerAndTransform", "leaves.go:Predict", "leaves.go:PredictDense", "leaves.go:PredictCSR", "skensemble_io.go:SKEnsembleFromReader", "skensemble_io.go:lgTreeFromSklearnDecisionTreeRegressor"]}
{"id": "C89", "title": "Zero matrices and matrices from arrays", "statement": "For sizes that are not negative and whose product is an int, DenseMatZero returns a matrix of exactly this shape all of whose cells are +0 (the one DenseMatFromArray makes of as many zeros), or panics if there is not enough memory; DenseMatFromArray makes every matrix from its own values, rows and columns again. Negative sizes, or sizes whose product wraps around, are accepted by both.", "quantifier": "every shape, every matrix and every amount of memory", "why_tests_cant": "Shapes range over all pairs of ints; the wrap-around is out of the reach of a test that allocates what it asks for.", "anchors": ["mat/mat.go:DenseMatZero", "mat/mat.go:DenseMatFromArray"]}
{"id": "C90", "title": "The order of the estimators matters for rounding only", "statement": "If two models have the same estimators (with their weights) in another order, their raw scores for the same feature vector differ by at most twice the rounding error of the sum: relative to the sum of the absolute values of the terms, about 2 n units in the last place for n estimators. This holds for LightGBM and scikit-learn sums, random forests and XGBoost models with weights, for any number of classes. One predicts for a vector exactly when the other does. The scores need not be equal bit for bit.", "quantifier": "every model, every permutation of its estimators, every feature vector", "why_tests_cant": "There are n! orders and unboundedly many models; a test compares a few.", "anchors": ["lgensemble.go:predictInner", "xgensemble.go:predictInner", "leaves.go:Predict"]}
{"id": "C91", "title": "Feature numbers are only names", "statement": "If the features of a tree model are renumbered and the values of a feature vector are moved accordingly, every Predict and PredictSingle call returns the same outputs, bit for bit (the same errors and panics included), and so do the rows of batch calls, dense or sparse, on any number of threads: a split reads the value at its own feature index and nothing else. This includes leaf-index models. Both vectors must be long enough for their models.", "quantifier": "every tree model, every renumbering (bijective or not), every pair of vectors that agree up to it, every estimator limit", "why_tests_cant": "There are unboundedly many models, renumberings and vectors; a test fixes one.", "anchors": ["lgtree.go:predict", "lgtree.go:numericalDecision", "lgtree.go:categoricalDecision", "leaves.go:Predict", "leaves.go:PredictSingle", "leaves.go:PredictDense", "leaves.go:PredictCSR"]}
{"id": "C92", "title": "A class of a model is a model of its own", "statement": "Take out of a multi-class model what it holds for class k: the trees of that class in their order with their weights, or column k of a linear model's weights. The one-output model made of these gives, for every feature vector and every estimator limit, exactly the raw score the whole model gives for class k, bit for bit. So classes never influence each other's raw scores. The whole model predicts exactly when the vector has a cell for each class and every class alone predicts.", "quantifier": "every model kind, every number of classes, every class, every vector and every estimator limit", "why_tests_cant": "There are unboundedly many models, classes and vectors; a test compares one model with one slice of it.", "anchors": ["lgensemble.go:predictInner", "xgensemble.go:predictInner", "xgblinear.go:predictInner", "leaves.go:Predict"]}

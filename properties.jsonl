{"id": "C01", "title": "Axis names and indices stay a bijection", "statement": "After any history of points.setNames / features.setNames calls (list, dict, None, or single names with oldIdentifiers), on an axis of length n: every name is a unique string, getName(getIndex(s)) == s for every existing name s, getIndex(getName(i)) == i for every named index i < n, and exactly one of 'named'/'unnamed' holds for each index.", "quantifier": "every axis length, every starting naming, every sequence of setNames calls and every argument shape", "why_tests_cant": "The state is a pair of redundant structures (dict and list) mutated by several code paths; tests sample a few calls while the invariant must survive every history.", "anchors": ["nimble/core/data/axis.py: Axis._setNames, _setNamesFromList, _setNamesFromDict, _getName, _getIndexByName", "nimble/core/data/base.py: Base.checkInvariants"]}
{"id": "C02", "title": "A rejected setNames leaves the names untouched", "statement": "If setNames raises for any reason (wrong length, unknown old identifier, duplicate, name already in use, non-string), every name and every name lookup on that axis is exactly what it was before the call.", "quantifier": "every naming and every rejected argument", "why_tests_cant": "Requires that validation precede mutation on all paths for all arguments.", "anchors": ["nimble/core/data/axis.py: Axis._setNames, _setNamesFromList, _setNamesFromDict", "nimble/core/data/_dataHelpers.py: valuesToPythonList"]}
{"id": "C03", "title": "Single identifiers resolve to one in-range index", "statement": "points.getIndex / features.getIndex, and indexing with a single identifier, return i for an integer 0<=i<n, n+i for -n<=i<0, the unique index holding the name for a string, and raise otherwise; whatever is returned is a valid index of the axis. An integral float is accepted as the integer it equals.", "quantifier": "every axis length, naming, and identifier (int, float, string)", "why_tests_cant": "Boundary behaviour at -n, n-1, n for all n, and for all identifier kinds.", "anchors": ["nimble/core/data/axis.py: Axis._getIndex, _getIndexByName", "nimble/core/data/base.py: Base.__getitem__"]}
{"id": "C04", "title": "Multiple-identifier indexing denotes the documented selection", "statement": "obj[rows, cols], points[...] and features[...] with a slice select the inclusive range start..stop by step (names or indices, either direction, defaults at the ends); a boolean list selects exactly the True positions and must have the axis length; a list of identifiers selects the listed indices in the listed order and duplicates are rejected; the full slice selects everything.", "quantifier": "all axis lengths, slices (any start, stop, step), masks and identifier lists", "why_tests_cant": "Inclusive, negative step and default-end combinations are unbounded; tests pick a few.", "anchors": ["nimble/core/data/axis.py: Axis._processMultiple, _getItem, _processSingle"]}
{"id": "C05", "title": "copy, extract, delete and retain agree and lose nothing", "statement": "For every selection S of points (or features): copy(S) and extract(S) return the same object; extract(S) and delete(S) leave the same object, which holds exactly the non-selected points in their original order; retain(S) leaves what copy(S) returns; every point together with its name ends up in exactly one of the two parts.", "quantifier": "every data object, every selection by index/name list, range, number, or predicate function", "why_tests_cant": "Relational property between four methods over all shapes and selections.", "anchors": ["nimble/core/data/axis.py: Axis._genericStructuralFrontend, _getTargetIndices, _retain_prepList", "nimble/core/data/listAxis.py: ListPoints._structuralBackend_implementation", "nimble/core/data/points.py: copy, extract, delete, retain"]}
{"id": "C06", "title": "permute rearranges data and names by one bijection", "statement": "points.permute(order) accepts order exactly when it is a rearrangement of 0..n-1; afterwards position i holds both the row and the name that were at order[i]; permuting by the inverse order restores the object; without an argument the result is some rearrangement of the points with names attached.", "quantifier": "every object and every permutation", "why_tests_cant": "Off-by-inverse errors are invisible on 2-cycles, identity and symmetric samples.", "anchors": ["nimble/core/data/axis.py: Axis._permute", "nimble/core/data/listAxis.py: _permute_implementation", "nimble/core/data/features.py: permute"]}
{"id": "C07", "title": "sort returns a stable ordered rearrangement", "statement": "points.sort(by, reverse) rearranges the points (rows with their names) so that they are ordered by the given features, compared lexicographically in the listed priority order (reversed order if reverse=True), and points that tie on all keys keep their original relative order.", "quantifier": "every object, every list of sort keys, both directions", "why_tests_cant": "Lexicographic ordering is obtained by repeated stable sorts; correctness for any number of keys and ties needs induction.", "anchors": ["nimble/core/data/axis.py: Axis._sort, _sortByIdentifier, _sortByFunction", "nimble/core/data/points.py: sort"]}
{"id": "C08", "title": "insert then extract is the identity", "statement": "points.insert(i, other) places other's points contiguously before old index i (append at n), shifts the rest, keeps every original row with its name; extracting the inserted positions afterwards returns other's data and restores the original. When both objects have feature names, other's features are aligned by name first.", "quantifier": "all pairs of compatible objects, all insertion positions", "why_tests_cant": "Index shifting and name merging for all positions and name patterns.", "anchors": ["nimble/core/data/axis.py: Axis._insert, _alignNames, _setInsertedCountAndNames, _validateInsertableData", "nimble/core/data/listAxis.py: _insert_implementation"]}
{"id": "C09", "title": "repeat copies every point the stated number of times", "statement": "points.repeat(total, copyPointByPoint) returns total copies: row j of the result is row j mod n (object by object) or j div total (point by point) of the source, and new names '<name>_1..total' are distinct when the originals are.", "quantifier": "all objects, all total >= 1, both modes", "why_tests_cant": "Modular index arithmetic over all sizes.", "anchors": ["nimble/core/data/axis.py: Axis._repeat", "nimble/core/data/listAxis.py: _repeat_implementation"]}
{"id": "C10", "title": "transpose is an involution that swaps axes", "statement": "obj.transpose() (and obj.T) puts element (i,j) at (j,i), swaps point and feature names, and applying it twice restores the object, for all representations including empty axes.", "quantifier": "all shapes including zero-length axes, all namings", "why_tests_cant": "Empty-axis handling and all shapes.", "anchors": ["nimble/core/data/base.py: Base.transpose, T", "nimble/core/data/list.py: List._transpose_implementation", "nimble/core/data/sparse.py: Sparse._transpose_implementation"]}
{"id": "C11", "title": "unique keeps the first occurrence of each distinct point", "statement": "points.unique() returns the distinct points in order of first appearance, each with the name of its first occurrence; every source row is in the result and no two result rows are equal.", "quantifier": "all objects", "why_tests_cant": "Needs set reasoning over unbounded rows.", "anchors": ["nimble/core/data/axis.py: Axis.unique", "nimble/core/data/listAxis.py: _unique_implementation", "nimble/core/data/sparseAxis.py: _unique_implementation"]}
{"id": "C12", "title": "flatten and unflatten are inverse on the data", "statement": "flatten(order='point'|'feature') lays out all p*f values in that order in one point, and unflatten((p,f), order) restores the original values at the original positions; when both axes carry names that do not contain the separator, unflatten also restores the names.", "quantifier": "all shapes with p,f >= 1, both orders, all namings", "why_tests_cant": "div/mod index arithmetic over all shapes and name strings.", "anchors": ["nimble/core/data/base.py: Base.flatten, unflatten, _flattenNames, _unflattenNames", "nimble/core/data/list.py: _flatten_implementation, _unflatten_implementation"]}
{"id": "C13", "title": "groupByFeature is a partition", "statement": "groupByFeature(by) maps each distinct value of the feature to an object holding exactly the points with that value, in original order with their names; each point appears in exactly one group.", "quantifier": "all objects and grouping features", "why_tests_cant": "Partition over unbounded distinct values.", "anchors": ["nimble/core/data/base.py: Base.groupByFeature"]}
{"id": "C14", "title": "trainAndTestSets splits the points without loss", "statement": "trainAndTestSets(testFraction, labels) returns objects in which every source point appears in exactly one of train/test, the test size is round(testFraction*n), the label columns are removed from X and put in Y in the same point order, so row i of trainX and row i of trainY come from the same source point.", "quantifier": "all objects, all fractions in [0,1], all label selections", "why_tests_cant": "Boundary fractions (0, 1) and label forms are an infinite family.", "anchors": ["nimble/core/data/base.py: Base.trainAndTestSets"]}
{"id": "C15", "title": "Category encodings are faithful", "statement": "transformFeatureToIntegers replaces values by 0..k-1 so that two points receive equal integers iff their original values were equal, and returns the mapping used; replaceFeatureWithBinaryFeatures yields one column per distinct value, each row having exactly one 1, in the column of its original value, for every data type (List, Matrix, DataFrame, Sparse).", "quantifier": "all objects, all features, all representations", "why_tests_cant": "Bijectivity over unbounded category sets; representation equivalence.", "anchors": ["nimble/core/data/base.py: Base.transformFeatureToIntegers, replaceFeatureWithBinaryFeatures", "nimble/core/data/list.py: _replaceFeatureWithBinaryFeatures_implementation", "nimble/core/data/sparse.py: _replaceFeatureWithBinaryFeatures_implementation"]}
{"id": "C16", "title": "merge computes the documented join", "statement": "a.merge(b, point, feature, onFeature) yields, for point='intersection'/'union'/'left', exactly the relational join of the two objects on the key feature, with every value placed under the feature name it had in its source object, and missing values where no source exists.", "quantifier": "all pairs of objects, all key multiplicities, all naming histories", "why_tests_cant": "Join multiplicity and column placement depend on name insertion history which tests do not vary.", "anchors": ["nimble/core/data/base.py: Base.merge, _genericMergeFrontend", "nimble/core/data/list.py: List._merge_implementation"]}
{"id": "C17", "title": "Name propagation of binary operations", "statement": "For a + b (and the other elementwise operators) with equal shapes: values are combined position by position; if both operands name an axis the names must be consistent on at least one axis and disjoint-or-equal otherwise the call raises; the result keeps names common to both or present on only one operand; neither operand is modified.", "quantifier": "all pairs of objects and namings", "why_tests_cant": "Combinatorics of partially named axes.", "anchors": ["nimble/core/data/base.py: Base._genericBinaryOperations, _genericBinary_axisNames, _genericBinary_sizeValidation", "nimble/core/data/_dataHelpers.py: equalNames, mergeNonDefaultNames, inconsistentNames"]}
{"id": "C18", "title": "abs(obj) keeps names", "statement": "abs(obj) has the absolute value at every position and the same point and feature names as obj.", "quantifier": "all objects, all four naming combinations", "why_tests_cant": "Depends on combinations of named/unnamed axes.", "anchors": ["nimble/core/data/base.py: Base.__abs__"]}
{"id": "C19", "title": "A view shows exactly its window and views compose", "statement": "view(pointStart, pointEnd, featureStart, featureEnd) (inclusive ends, by index, negative index or name) reads at (i,j) the source element (pointStart+i, featureStart+j) with matching names, rejects bounds outside the object, and a view of a view equals the view of the composed window; nothing outside the window can be read.", "quantifier": "all objects, all windows, all nesting depths and identifier kinds", "why_tests_cant": "Offset composition for arbitrary nesting.", "anchors": ["nimble/core/data/base.py: Base.view, _view_backend", "nimble/core/data/views.py: BaseView._view_backend"]}
{"id": "C20", "title": "Views are read-only", "statement": "No operation available on a view object changes the source object (every mutating method raises).", "quantifier": "all views, all mutating methods including item assignment", "why_tests_cant": "Universal over the method set: one missing override breaks it.", "anchors": ["nimble/core/data/views.py: BaseView, AxisView", "nimble/core/data/base.py: Base.__setitem__"]}
{"id": "C21", "title": "Item assignment and replaceRectangle change only their target", "statement": "obj[x,y] = v and replaceRectangle(with, pointStart, featureStart, pointEnd, featureEnd) set exactly the cells of the addressed rectangle to the given value(s), leave every other cell, the shape and all names unchanged, and reject rectangles that do not fit.", "quantifier": "all objects, all rectangles, all replacement shapes", "why_tests_cant": "Frame property over all cells and all shapes.", "anchors": ["nimble/core/data/base.py: Base.replaceRectangle, __setitem__", "nimble/core/data/list.py: _replaceRectangle_implementation", "nimble/core/data/sparse.py: _replaceRectangle_implementation, _replaceRectangle_zeros_implementation"]}
{"id": "C22", "title": "Sparse element reads equal the logical matrix after any history", "statement": "For a Sparse object, obj[i,j] returns the value last stored at (i,j) (0 if none) after every history of reads, in-place updates, sorts and structural operations.", "quantifier": "all sparse objects and all operation histories", "why_tests_cant": "Correctness depends on a cached sort order staying in step with the coordinate arrays across arbitrary histories.", "anchors": ["nimble/core/data/sparse.py: Sparse.__init__, _getitem_implementation, _sortInternal, _resetSorted, _binaryLocateInternal, _replaceRectangle_zeros_implementation, _transform_implementation"]}
{"id": "C23", "title": "Sparse structural operations agree with dense ones", "statement": "points/features copy, extract, insert, permute, repeat, unique and transpose on a Sparse object give the object whose dense form is the dense operation applied to the dense form.", "quantifier": "all sparse objects (entries in any internal order, explicit zeros allowed) and arguments", "why_tests_cant": "Refinement across all coordinate layouts.", "anchors": ["nimble/core/data/sparseAxis.py: SparseAxis._structuralBackend_implementation, _permute_implementation, _insert_implementation, _repeat_implementation, _unique_implementation", "nimble/core/data/sparse.py: _transpose_implementation"]}
{"id": "C24", "title": "Equality test, copy and type conversion preserve the matrix", "statement": "obj.copy(to=T) for T in the four data types has the same elements and names; isIdentical(obj, obj.copy(to=T)) is true, is symmetric and false whenever an element or name differs.", "quantifier": "all objects, all type pairs", "why_tests_cant": "Round-trips over all values including explicit zeros in sparse form.", "anchors": ["nimble/core/data/base.py: Base.copy, isIdentical", "nimble/core/data/sparse.py: _copy_implementation, _isIdentical_implementation", "nimble/core/data/list.py: _copy_implementation, _isIdentical_implementation"]}
{"id": "C25", "title": "Object creation attaches names as given", "statement": "nimble.data(source, pointNames, featureNames): names given as a list label positions in order; as a dict name->index label exactly those indices, rejecting out-of-range, negative or duplicate positions; from a dict source or list of dicts, each value lands under the key it came from.", "quantifier": "all sources and all name arguments", "why_tests_cant": "Reordering bugs appear only on particular permutations and partial dicts.", "anchors": ["nimble/core/_createHelpers.py: _namesDictToList, _dictNames, extractNamesFromRawList, convertToDict", "nimble/core/create.py: data"]}
{"id": "C26", "title": "keepPoints / keepFeatures select and order exactly as requested", "statement": "nimble.data(..., keepPoints=P, keepFeatures=F) returns the data restricted to the listed points and features in the listed order, with their own names, and rejects unknown, duplicated or out-of-range identifiers, whatever the source kind; the result equals loading everything and then copying those points and features.", "quantifier": "all sources, all keep lists (indices, names, mixed)", "why_tests_cant": "The loader interleaves selection with parsing; equivalence with load-then-select is over all inputs.", "anchors": ["nimble/core/_createHelpers.py: _limitToKeptFeatures, _limitToKeptPoints, _keepIndexValuesValidation, _loadcsvUsingPython"]}
{"id": "C27", "title": "CSV column types do not depend on row order", "statement": "When a CSV is loaded, a feature becomes numeric exactly when all of its non-empty entries parse as numbers, and strings otherwise, independent of the order of the rows.", "quantifier": "all columns of strings and all row orders", "why_tests_cant": "Streaming type inference is order sensitive in principle; needs quantification over permutations.", "anchors": ["nimble/core/_createHelpers.py: _csvColTypeTracking, _colTypeConversion, _intFloatOrString"]}
{"id": "C28", "title": "CSV save/load round trip of names and cells", "statement": "Saving an object to CSV with names and loading it again yields the same names and cell strings.", "quantifier": "all names and cell strings", "why_tests_cant": "Quoting over all strings.", "anchors": ["nimble/core/data/_dataHelpers.py: csvCommaFormat", "nimble/core/data/list.py: _saveCSV_implementation", "nimble/core/data/base.py: Base.save"]}
{"id": "C29", "title": "String queries select what they say", "statement": "A query such as 'age >= 30' or 'name is missing' passed to points.copy/extract/delete/retain/count denotes the comparison of the named feature with the (number or string) value; names that contain operators or spaces are still resolved when they are present in the object; malformed queries are rejected.", "quantifier": "all name sets and query strings", "why_tests_cant": "Parsing ambiguity over all strings.", "anchors": ["nimble/match/query.py: QueryString"]}
{"id": "C30", "title": "match functions quantify correctly over data", "statement": "match.anyX(data) is true iff some element (or some element of the axis slice) satisfies X, allX iff all do; anyAll per-feature variants return one boolean per feature; and a match value given as a list/constant/function denotes membership/equality/application.", "quantifier": "all data and predicates", "why_tests_cant": "Quantifier semantics on empty and mixed data.", "anchors": ["nimble/match/match.py: anyValuesBackend, allValuesBackend, _convertMatchToFunction"]}
{"id": "C31", "title": "fill methods only replace matched values and use the documented source", "statement": "fillMatching with forwardFill / backwardFill / interpolate / constant / mean etc. leaves unmatched values untouched; forward fill replaces a matched value by the nearest earlier unmatched one, backward by the nearest later one, interpolate by the point on the line through the neighbouring unmatched values; matched values with no such source are rejected or left per documentation.", "quantifier": "all vectors and match predicates", "why_tests_cant": "Loop invariants over arbitrary runs of missing values.", "anchors": ["nimble/fill/fill.py: forwardFill, backwardFill, interpolate, constant", "nimble/core/data/axis.py: Axis._fillMatching"]}
{"id": "C32", "title": "Cross-validation folds partition the points", "statement": "For k-fold cross validation on n points: folds are pairwise disjoint, cover all points, sizes differ by at most one, each (train,test) pair is a disjoint cover; leave-one-out is the n-fold case; group folding keeps all points with the same group value in one fold.", "quantifier": "all n, k and random shuffles", "why_tests_cant": "Over all n,k and all random orders.", "anchors": ["nimble/core/tune.py: KFoldIterator, GroupFoldIterator, FoldIterator"]}
{"id": "C33", "title": "Tuning selects an optimal tested argument set", "statement": "The reported best argument set of a Tuning/Validator run has a performance not worse than every tested set, is the first tested among equals, and the sorted results list starts with it; brute-force tuning tests every combination of the cartesian product exactly once.", "quantifier": "all performance sequences, all argument grids", "why_tests_cant": "All sequences incl. ties; product enumeration.", "anchors": ["nimble/core/tune.py: Validator.validate, Validator._sortedResults, BruteForce, Tuning"]}
{"id": "C34", "title": "Consecutive and iterative tuning visit what they document", "statement": "Consecutive tuning optimizes each argument in order, every candidate of each argument being tested with the best values found so far for earlier arguments; iterative tuning moves in the direction of improvement.", "quantifier": "all grids and performance functions", "why_tests_cant": "History-dependent search over arbitrary performance functions.", "anchors": ["nimble/core/tune.py: Consecutive, Iterative"]}
{"id": "C35", "title": "nimble.Tune ranges enumerate the documented values", "statement": "Tune(start,end,change,changeType) denotes start, start+change (or start*change), ... up to and including end when reached, never beyond end, for increasing and decreasing ranges, and construction terminates.", "quantifier": "all numeric ranges", "why_tests_cant": "Termination and endpoint inclusion over all ranges.", "anchors": ["nimble/core/tune.py: Tune"]}
{"id": "C36", "title": "alternateControl brackets randomness", "statement": "Code run inside nimble.random.alternateControl() does not affect the random stream outside it: after leaving (normally or by exception), the sequence continues exactly as if the block had not run, and nested use is properly handled.", "quantifier": "all histories of draws, seeds and nested/exceptional exits", "why_tests_cant": "Trace property over arbitrary nested histories.", "anchors": ["nimble/random/randomness.py: alternateControl, setSeed"]}
{"id": "C37", "title": "random.data has exactly the requested shape and sparsity", "statement": "nimble.random.data(numPoints,numFeatures,sparsity) has the requested shape, and exactly int(p*f*(1-sparsity)) non-zero values at distinct cells, identically for sparse and dense return types under the same seed.", "quantifier": "all sizes, sparsities and random draws", "why_tests_cant": "Index bijection over all sizes.", "anchors": ["nimble/random/randomness.py: data"]}
{"id": "C38", "title": "Configuration reads see the latest write, saves persist exactly the changes", "statement": "settings.get(section, option) returns the latest value given by set in this session, else the saved value; changeset saved by saveChanges is visible to the next session and nothing else changes; settings.reset-like reverts restore saved values; a registered hook runs with each effective change of its option.", "quantifier": "all histories of set/get/delete/saveChanges", "why_tests_cant": "Overlay semantics over arbitrary histories.", "anchors": ["nimble/core/configuration.py: SessionConfiguration"]}
{"id": "C39", "title": "Log queries return the requested sessions and entries", "statement": "showLog(leastSessionsAgo, mostSessionsAgo, maximumEntries) shows only entries from sessions between most (inclusive) and least sessions ago, at most maximumEntries of them and the latest ones, in chronological order; every nimble session gets a new, larger session number.", "quantifier": "all log histories and query arguments", "why_tests_cant": "Over all logs and argument combinations.", "anchors": ["nimble/core/logger/session_logger.py: SessionLogger.setup, log, showLog, _showLogQueryAndValues, _showLogOutputString"]}
{"id": "C40", "title": "Error metrics are well-formed", "statement": "fractionCorrect + fractionIncorrect == 1, both in [0,1]; RMSE and MAE are non-negative and 0 iff all predictions equal the known values; MAE <= RMSE; the confusion matrix of n predictions has non-negative integer cells, with cell (a,b) the number of points predicted a and known b, so its cells sum to n and its diagonal share equals fractionCorrect; the binary counts TP+FP+TN+FN == n.", "quantifier": "all label and prediction vectors", "why_tests_cant": "Algebraic identities over all vectors.", "anchors": ["nimble/calculate/loss.py: _computeError, fractionIncorrect, rootMeanSquareError, meanAbsoluteError", "nimble/calculate/similarity.py: fractionCorrect, confusionMatrix", "nimble/calculate/binary.py"]}
{"id": "C41", "title": "Normalisation maps into the stated range", "statement": "rangeNormalize maps min to start, max to end and everything into [start,end] preserving order; percentileNormalize maps values to (#smaller + (#equal-1)/2)/(n-1), so min->0 and max->1 when unique, preserves order, ignores NaN, and treats a second vector with the same value consistently.", "quantifier": "all vectors incl. ties and NaN", "why_tests_cant": "All tie/NaN patterns.", "anchors": ["nimble/calculate/normalize.py: rangeNormalize, percentileNormalize"]}
{"id": "C42", "title": "Sparse statistics equal dense statistics", "statement": "mean, variance, uniqueCount, proportionZero, mode and standard deviation of a Sparse feature equal those of the same data in dense form (ignoring NaN).", "quantifier": "all vectors incl. implicit zeros and NaN", "why_tests_cant": "Algebraic identity over all nnz/nan patterns.", "anchors": ["nimble/calculate/statistic.py: mean, variance, mode, proportionZero, uniqueCount"]}
{"id": "C43", "title": "Best-performance direction is detected correctly", "statement": "A performance function's optimum ('max'/'min') is detected as 'max' iff performances over the trials are monotone improving the right way, otherwise 'min', so that tuning minimises losses and maximises scores.", "quantifier": "all performance functions", "why_tests_cant": "Over all functions.", "anchors": ["nimble/calculate/utility.py: detectBestResult, _runTrialGivenParameters"]}
{"id": "C44", "title": "Argument merging never silently drops or overrides", "statement": "When arguments are given both as a dict and as keywords, the effective arguments contain every key of either, raise if a key has two different values, and neither input is changed.", "quantifier": "all pairs of argument mappings", "why_tests_cant": "All overlaps.", "anchors": ["nimble/_utility.py: mergeArguments", "nimble/core/_learnHelpers.py"]}
{"id": "C45", "title": "Retraining keeps earlier arguments", "statement": "trainedLearner.retrain(X,Y,**new) trains with the new values for the named arguments and the previously set values for all others, and after any sequence of retrains the reported arguments are those in effect.", "quantifier": "all histories of retrain calls", "why_tests_cant": "History property.", "anchors": ["nimble/core/interfaces/universal_interface.py: TrainedLearner.retrain, train"]}
{"id": "C46", "title": "Score columns carry the label they score", "statement": "trainedLearner.getScores and apply(..., scoreMode='allScores'/'bestScore') return for every point the score of label L in the column named L, and the best label is the one with maximal score (first among ties).", "quantifier": "all label sets and internal label orders", "why_tests_cant": "Inverse-permutation errors vanish on 2-cycles.", "anchors": ["nimble/core/interfaces/universal_interface.py: TrainedLearner.getScores, apply", "nimble/core/interfaces/_interface_helpers.py: extractWinningPredictionLabel"]}
{"id": "C47", "title": "One-vs-one multiclass voting is wired to the right pairs", "statement": "OneVsOne training creates one learner for each unordered pair of distinct labels, trained on exactly the points with those two labels; prediction picks a label with the most votes; pairwise score lookup (a,b) returns the score of the learner trained on that pair with a sign matching the order.", "quantifier": "all label sets and data", "why_tests_cant": "Pair-index arithmetic over all k.", "anchors": ["nimble/core/interfaces/universal_interface.py: _generateMulticlass / train", "nimble/core/interfaces/_interface_helpers.py: generateAllPairs, valueFromOneVOneData, calculateSingleLabelScoresFromOneVsOneScores, extractWinningPredictionLabel"]}
{"id": "C48", "title": "KNN predicts a modal label among the k nearest", "statement": "KNNClassifier with k returns for each test point a label with maximal count among the k training points at smallest distance, ties going to the label of the nearest.", "quantifier": "all training sets, k, test points", "why_tests_cant": "All distances and ties.", "anchors": ["nimble/learners/knn_classification.py: KNNClassifier.apply"]}
{"id": "C49", "title": "Splitting, collapsing and expanding features preserve every value", "statement": "features.splitByParsing with positions or single-character separators yields pieces that reassemble to the original string; points.splitByCollapsingFeatures yields for every (point, collapsed feature) exactly one row with that feature's name and value and the other values repeated; combineByExpandingFeatures inverts it.", "quantifier": "all objects and rules", "why_tests_cant": "Round trip over all tables.", "anchors": ["nimble/core/data/features.py: Features.splitByParsing", "nimble/core/data/points.py: Points.splitByCollapsingFeatures, combineByExpandingFeatures", "nimble/core/data/_dataHelpers.py: fillArrayWithCollapsedFeatures, fillArrayWithExpandedFeatures"]}
{"id": "C50", "title": "mapReduce groups every emitted pair once", "statement": "points.mapReduce(mapper, reducer): the reducer is called exactly once per distinct key with all values emitted for it in point order, and results appear in order of first emission of their key.", "quantifier": "all mappers, reducers and objects", "why_tests_cant": "Over all functions.", "anchors": ["nimble/core/data/axis.py: Axis._mapReduce"]}
{"id": "C51", "title": "Display limits select a head and tail without reordering", "statement": "Printed representation of an object with limits shows a prefix and a suffix of points and features in order, never more than the limit, and everything when it fits; table rendering aligns each cell with its header.", "quantifier": "all shapes and limits", "why_tests_cant": "Over all shapes and limits.", "anchors": ["nimble/core/data/_dataHelpers.py: indicesSplit", "nimble/core/data/base.py: Base._arrangeDataWithLimits", "nimble/_utility.py: tableString"]}
{"id": "C52", "title": "A user's call validates its arguments, internal calls do not repeat it", "statement": "Every call of a tracked learning function (train, trainAndApply, trainAndTest, normalizeData, TrainedLearner.apply/test, ...) made by the user validates its arguments, whatever earlier calls did and however they ended (including by an exception); functions it calls internally do not validate again.", "quantifier": "all sequences of calls, call trees and exceptions", "why_tests_cant": "Trace property over arbitrary call trees and histories.", "anchors": ["nimble/core/_learnHelpers.py: trackEntry", "nimble/core/learn.py: train, trainAndApply, trainAndTest"]}
{"id": "C53", "title": "points/features.transform and calculate apply the function exactly where asked", "statement": "points.transform(f, points=S) replaces exactly the rows in S by f(row) and leaves all others and all names unchanged; calculate(f) returns one result row per selected point in order; calculateOnElements applies f to each selected element.", "quantifier": "all functions, selections, objects and representations", "why_tests_cant": "Frame property over all functions.", "anchors": ["nimble/core/data/axis.py: Axis._transform, _calculate_backend", "nimble/core/data/listAxis.py: _transform_implementation", "nimble/core/data/sparse.py: _calculate_implementation"]}
{"id": "C54", "title": "Every cross-validation run uses every fold", "statement": "However often a KFold / LeaveOneOut / GroupFold validator is asked to validate argument sets, and whatever happened in earlier validations (including a learner raising), each validation trains and tests on every fold exactly once.", "quantifier": "all histories of validations, with failures at any fold", "why_tests_cant": "A history property: the iterator is shared state between validations.", "anchors": ["nimble/core/tune.py: FoldIterator, CrossValidator._validate"]}
{"id": "C55", "title": "setSeed makes what follows reproducible", "statement": "After nimble.random.setSeed(z) succeeds, everything drawn from nimble's random sources depends on z only, whatever was drawn or seeded before; a setSeed that raises leaves the random state unchanged.", "quantifier": "all earlier histories and all later programs", "why_tests_cant": "Hyperproperty over pairs of histories.", "anchors": ["nimble/random/randomness.py: setSeed, generateSubsidiarySeed"]}
{"id": "C56", "title": "matchingElements and countElements report exactly the matching elements", "statement": "obj.matchingElements(toMatch, points, features) returns an object of booleans with the selected points and features in order with their names, True exactly at the elements for which the function, query or value matches; obj.countElements(condition) returns the number of elements satisfying the condition.", "quantifier": "all objects, conditions and selections", "why_tests_cant": "Over all functions, query strings and objects.", "anchors": ["nimble/core/data/base.py: Base.matchingElements, Base.countElements, Base._calculate_backend", "nimble/core/data/_dataHelpers.py: wrapMatchFunctionFactory, validateElementFunction"]}
{"id": "C57", "title": "Stretching repeats the single point or feature along the other operand", "statement": "X.stretch op Y and Y op X.stretch (arithmetic and logical) succeed exactly when X is a point as long as Y's points or a feature as long as Y's features (two stretched objects: one point and one feature) with consistent names along the common axis and no zero divisor; element (i, j) is op applied to the elements of the two operands at (i, j) with axes of length one repeated; names follow one rule (the names of the operand that has them, numbered when its single name is repeated, the combined names when both have as many, otherwise none); the operands are not changed.", "quantifier": "all pairs of objects, names and operators", "why_tests_cant": "Over all shapes, names and element types; includes the state of the name caches.", "anchors": ["nimble/core/data/stretch.py: Stretch._stretchArithmetic, _stretchArithmetic_validation, _getOutputNames, _stretchLogical", "nimble/core/data/base.py: Base.stretch, _defaultBinaryOperations_implementation"]}
{"id": "C58", "title": "Matrix multiplication and matrix powers compute the linear algebra they name", "statement": "a @ b (also reflected and in place) of numeric, non-empty objects succeeds exactly when the inner dimensions agree and their names are consistent; element (i, j) is the sum of the products along row i of a and column j of b; points are named as in a, features as in b; multiplication of integer objects is associative; matrixPower(p) of a square object is the p-fold product (identity for 0, of the inverse for negative p) under the names of the object, and powers multiply by adding exponents.", "quantifier": "all objects, dimensions, names and exponents", "why_tests_cant": "Algebraic laws over all matrices and exponents.", "anchors": ["nimble/core/data/base.py: Base.matrixMultiply, __matmul__, __rmatmul__, __imatmul__, _genericMatMul_implementation, matrixPower", "nimble/core/data/list.py: List._matmul__implementation", "nimble/core/create.py: identity", "nimble/calculate/linalg.py: inverse"]}
{"id": "C59", "title": "Arithmetic on Sparse objects computes the same elements as on dense objects", "statement": "Whatever the sparsity patterns, sort state and sizes, an operator between two Sparse objects or a Sparse object and a scalar gives, at every position, the operator applied to the elements at that position - the same elements as for the dense types - keeps no explicit zeros, and raises ZeroDivisionError exactly when a divisor is zero; a stretched Sparse object behaves as if its point or feature were repeated.", "quantifier": "all Sparse objects (any pattern of stored elements, any internal order), operators and scalars", "why_tests_cant": "Over all sparsity patterns and values, including the interaction of two patterns.", "anchors": ["nimble/core/data/sparse.py: Sparse._binaryOperations_implementation, _scalarBinary_implementation, _genericMul_implementation, _genericPow_implementation, _genericFloordiv_implementation, _genericMod_implementation, _scalarZeroPreservingBinary_implementation, _containsZero_implementation", "nimble/core/data/stretch.py: StretchSparse"]}
{"id": "C60", "title": "Logical operators combine truth values position by position", "statement": "a & b, a | b, a ^ b of two objects succeed exactly when the shapes agree, no axis is empty, every element is True, False, 0 or 1 and the names are accepted; every element of the result is the connective of the two truth values at that position, and the names follow the rule of the arithmetic operators; ~a negates every truth value under the names of a; the operators commute, satisfy De Morgan's laws, double negation and a ^ a = False, names included.", "quantifier": "all objects, names, elements", "why_tests_cant": "Algebraic laws over all objects and names.", "anchors": ["nimble/core/data/base.py: Base.__and__, __or__, __xor__, __invert__, _genericLogicalBinary, _logicalValidationAndConversion, matchingElements", "nimble/match/match.py: allValues"]}
{"id": "C61", "title": "nimble.data on Python data holds exactly the given values and names", "statement": "nimble.data of a list, list of lists, dict of lists or values, or list of dicts, makes an object with one point per row (key, dict) holding the given elements at their positions, with values counted as missing replaced; names given are used, names asked for or detected are taken out of the data, dict items are reordered to the order of the given names; ragged rows, repeated or wrongly many names, unequal keys are refused. keepPoints/keepFeatures give the identified part of that object in the given order; convertToType converts each element to the type asked for its feature; rowsArePoints=False gives the transpose.", "quantifier": "all lists and dicts, names arguments, identifiers, missing-value lists, types", "why_tests_cant": "Over all shapes, values and combinations of arguments.", "anchors": ["nimble/core/_createHelpers.py: initDataObject, extractNames, extractNamesFromRawList, autoDetectNamesFromRaw, _extractNamesFromDict, _extractNamesFromListOfDict, _dictNames, replaceMissingData, analyzeValues, getKeepIndexValues, convertToTypeDictToList, elementTypeConvert", "nimble/core/data/list.py: List.__init__"]}
{"id": "C62", "title": "nimble.fetchFiles stores what the web serves, once, in the data directory", "statement": "A file fetched from a url is stored below home/nimbleData at the host and path of the url with the content served, archives are extracted and gzip files decompressed beside it, and the paths of the data are returned. Nothing else changes, whatever the archive contains. Later calls return the same paths with the stored content without downloading, unless overwrite is asked for; a failing call changes no stored file.", "quantifier": "all urls, contents, file systems and histories of calls", "why_tests_cant": "Over all contents (including hostile archives), prior states of the disk and sequences of calls.", "anchors": ["nimble/core/_createHelpers.py: fileFetcher, _DirectURLManager, _getNimbleDataPath, _processArchiveFile, _processCompressedFile", "nimble/core/create.py: fetchFiles"]}
{"id": "C63", "title": "Arguments reach the methods of a custom learner", "statement": "nimble.train accepts arguments for a custom learner exactly when every name is a parameter of its train or apply method and every parameter without a default is given. After any history of train, retrain and incrementalTrain calls, train, incrementalTrain, apply and getScores receive for each parameter the value of the call, else the most recent value given before, else the default; a refused call changes nothing.", "quantifier": "all learner signatures, arguments and histories of calls", "why_tests_cant": "Over all signatures and all sequences of calls with all outcomes.", "anchors": ["nimble/core/interfaces/universal_interface.py: UniversalInterface._trainBackend, _argumentValueValidation, _getMethodArguments, TrainedLearner.apply, retrain, incrementalTrain, getScores", "nimble/core/interfaces/custom_learner.py: CustomLearnerInterface, CustomLearner, validateCustomLearnerSubclass"]}
{"id": "C64", "title": "Nested nimble.Init objects are instantiated as written; parameter sets", "statement": "A nimble.Init of any depth is turned into objects built with exactly the arguments written, inner objects first, or refused with InvalidArgumentValue when a name is unknown or arguments are missing or unknown at any level. Where a class has several parameter sets, arguments that fit one of them are accepted.", "quantifier": "all trees of Init objects and all parameter sets", "why_tests_cant": "Trees of any depth and width, any parameter sets.", "anchors": ["nimble/core/interfaces/universal_interface.py: UniversalInterface._argumentInit, _chooseBestParameterSet, _validateArgumentValues"]}
{"id": "C65", "title": "Filling matched elements by a learner", "statement": "nimble.fillMatching trains and applies the learner on a copy with NaN at the matched positions and replaces exactly the matched elements in the chosen points and features by the elements of the result at the same position; names, shape and every other element stay. It is refused when an unmatched element is missing (or the match object has another shape or other names); a call that fails changes nothing. nimble.KNNImputation keeps every element that is not missing and replaces a missing one by the prediction for its point from the points that have all the features the point has and the missing one; answers do not depend on one another and the predictor never sees a missing value.", "quantifier": "all objects, match functions and match objects, learners, choices of points and features, predictors", "why_tests_cant": "Over all data and all learners; a test fixes both.", "anchors": ["nimble/core/learn.py: fillMatching", "nimble/learners/knn_imputation.py: KNNImputation.train, apply", "nimble/match/match.py: _convertMatchToFunction", "nimble/fill/fill.py: constant"]}
{"id": "C66", "title": "Reading elements of an object", "statement": "obj[kx, ky] with two single identifiers returns the element at that position; with any other combination of identifiers, inclusive slices, masks and lists of identifiers it returns an object made of the selected points and features in the order of the key with their names, and a key that selects nothing valid raises. points[k] and features[k] select on one axis; obj[k] selects on the long axis of a one-dimensional object, or by a name only one axis has, and raises otherwise. iterateElements yields exactly the elements `only` accepts, each once, in point or feature order, for dense and sparse storage alike. countUniqueElements returns a count for every distinct element of the selected window, and the counts are right.", "quantifier": "all objects, keys, orders, filters and stored orders of sparse entries", "why_tests_cant": "Over all keys, data and storage orders; a test fixes them.", "anchors": ["nimble/core/data/base.py: __getitem__, iterateElements, countUniqueElements", "nimble/core/data/axis.py: _getitem", "nimble/core/data/_dataHelpers.py: denseCountUnique, NimbleElementIterator", "nimble/core/data/sparse.py: _countUnique_implementation, _iterateElements_implementation"]}
{"id": "C67", "title": "Multiclass strategies", "statement": "Training with the OneVsAll strategy trains exactly one learner per distinct label, each on the same data with its own label as 1 and every other label as 0. Predicting returns for every test point the label of the learner with the highest answer (the first of equal ones); bestScore returns that label with its score, allScores one feature per label, named and ordered by the labels' text, holding that label's score. With OneVsOne every point gets the label with most votes among the pairwise predictions, bestScore adds the number of votes, allScores the votes of every label, and point names are kept. Raw scores of other packages are turned into one score per label: one score for two labels gives -s and s, one per label is kept, one per pair gives the fraction of comparisons a label wins. Test data is accepted exactly when its shape fits the training data.", "quantifier": "all training and test objects, label sets and orders, learners and answers", "why_tests_cant": "Over all labels, set orders, learner answers and ties; a test fixes them.", "anchors": ["nimble/core/interfaces/universal_interface.py: _train OneVsAll, TrainedLearners.apply, _formatScoresToOvA, _validTestData", "nimble/core/interfaces/_interface_helpers.py: extractWinningPredictionIndex, extractWinningPredictionLabel, countWins, extractConfidenceScores, calculateSingleLabelScoresFromOneVsOneScores, checkClassificationStrategy"]}
{"id": "C68", "title": "High dimension data", "statement": "nimble.data on a regular nested list of three or more dimensions succeeds, reports those dimensions, and holds exactly that nested list: copy('numpy array') returns it; points of different dimensions are refused. len(points) and len(features) are the first dimension and the product of the others. Reading one point returns that sublist with one dimension less; copying, extracting, inserting and permuting points act on the sublists and keep the dimensions of a point; flatten lists every value in order and unflatten with the original dimensions restores the object; operators work element by element and refuse different dimensions.", "quantifier": "all nested lists, dimensions, selections, insertion positions and orders", "why_tests_cant": "Over every depth and every size of each dimension; a test fixes one cube.", "anchors": ["nimble/core/_createHelpers.py: highDimensionCheck, flattenHighDimensionData", "nimble/core/data/base.py: copy, flatten, unflatten, _processMultipleIndices, _genericBinary_validation", "nimble/core/data/points.py, axis.py: _getitem, _structuralFrontend, _insert, _permute"]}
{"id": "C69", "title": "Data objects are independent", "statement": "A program that makes and changes data objects (creation, copy, operators, in-place operators, points.copy/extract/delete/retain/insert/append/permute, features.delete, transpose, flatten, unflatten) behaves as if every object were a value of its own: a statement changes only the object it is called on, a statement that raises changes nothing, and every object always reports the dimensions its data has. A computation that treats an object as two-dimensional leaves it as it was.", "quantifier": "all programs of any length over any number of objects and dimensions", "why_tests_cant": "Over all histories of operations on any number of objects; tests check one object after one call.", "anchors": ["nimble/core/data/base.py: _dims, dimensions, _genericBinary, _treatAs2D, _referenceFrom, copy, transpose, flatten, unflatten", "nimble/core/data/axis.py: _structuralFrontend, _insert, _setInsertedCountAndNames"]}
{"id": "C70", "title": "Matrix Market files", "statement": "An object saved to a Matrix Market file and loaded again has the same size, the same point and feature names and the same numbers, for List, Matrix, Sparse and DataFrame objects, with or without includeNames. Loading a dense file returns the matrix whose columns its numbers list and refuses any other count; names in its comments are used, otherwise the names of the caller; names that do not fit are refused. Saving is refused exactly when an axis is only partly named. A path ending in .csv or .mtx (in any case) is saved and loaded in that format.", "quantifier": "all files, sizes, names, values, paths and names arguments", "why_tests_cant": "Over every name text, every layout of comments and blank lines and every size; tests write a few small files.", "anchors": ["nimble/core/data/base.py: save", "nimble/core/data/list.py, matrix.py, sparse.py, dataframe.py: _saveMTX_implementation", "nimble/core/_createHelpers.py: _loadmtxForAuto, createDataFromFile, _autoFileTypeChecker"]}
{"id": "C71", "title": "Reshaping Sparse objects", "statement": "splitByParsing, splitByCollapsingFeatures and combineByExpandingFeatures of a Sparse object give the object that the other types give: the same names and the same values in the same places, whatever the order in which the features are listed and wherever zeros are; they refuse the same calls and a refused call leaves the names and values as they were.", "quantifier": "all Sparse objects, storage orders, features, orders of the features listed, values (zeros included) and parsing rules", "why_tests_cant": "Over every pattern of zeros and every order of the listed features; the tests list features in increasing order in objects without zeros.", "anchors": ["nimble/core/data/sparseAxis.py: _splitByCollapsingFeatures_implementation, _combineByExpandingFeatures_implementation, _splitByParsing_implementation", "nimble/core/data/points.py: _splitByCollapsingFeatures, _combineByExpandingFeatures", "nimble/core/data/features.py: _splitByParsing"]}
{"id": "C72", "title": "Copies to other formats", "statement": "copy gives the same data in the format asked for, however the format is spelled: for every one of the nimble types, nested Python lists, numpy arrays, scipy matrices, pandas DataFrames and dictionaries, element (i, j) of the copy is element (i, j) of the object (element (j, i) with rowsArePoints=False), names and metadata go along where the format has room for them, a nimble copy copied back is the object again, the object itself is unchanged, and formats or combinations of arguments that cannot be served are refused.", "quantifier": "all two-dimensional objects of the four types, element values (None, NaN, texts, booleans, zeros), names, spellings of the format and values of rowsArePoints and outputAs1D", "why_tests_cant": "Over all pairs of types and formats with all mixtures of element types and empty shapes; the tests copy a handful of numeric objects.", "anchors": ["nimble/core/data/base.py: copy, _copy_outputAs1D, _copy_pythonList, _copy_nestedPythonTypes", "nimble/core/data/list.py: _copy_implementation", "nimble/core/data/matrix.py: _copy_implementation", "nimble/core/data/dataframe.py: _copy_implementation, _asNumpyArray", "nimble/core/data/sparse.py: _copy_implementation, __init__", "nimble/core/data/_dataHelpers.py: createListOfDict, createDictOfList, createDataNoValidation", "nimble/_utility.py: numpy2DArray"]}
{"id": "C73", "title": "Typed storage holds the values given", "statement": "Matrix objects keep one element type and DataFrame objects one per feature, yet what a user reads back is what was put in: copying, extracting, deleting, sorting, permuting and repeating points or features moves every element unchanged, insertion widens the types so that no old or new value changes, assignment and replaceRectangle store the value given, flatten and unflatten move every element to its place in the order asked for, transform stores what the function returned, and collapse and expand of a DataFrame keep every value under its new position.", "quantifier": "all Matrix and DataFrame objects of all shapes, element types and values (including NaN, None, infinities, texts), all index lists, insertion points, rectangles and functions", "why_tests_cant": "Over all combinations of element types of the object and of the new values; a silent cast shows only for particular pairs of types and values.", "anchors": ["nimble/core/data/matrixAxis.py: _structuralBackend_implementation, _permute_implementation, _repeat_implementation, _insert_implementation, _transform_implementation, _convertBaseDtype", "nimble/core/data/matrix.py: _setitem_implementation, _replaceRectangle_implementation, _flatten_implementation, _unflatten_implementation", "nimble/core/data/dataframeAxis.py: _structuralBackend_implementation, _permute_implementation, _repeat_implementation, _insert_implementation, _combineByExpandingFeatures_implementation, _splitByCollapsingFeatures_implementation", "nimble/core/data/dataframe.py: _setDtypes, _asNumpyArray, _replaceRectangle_implementation, _flatten_implementation, _unflatten_implementation", "nimble/core/data/_dataHelpers.py: updateConvertType, fillArrayWithCollapsedFeatures, fillArrayWithExpandedFeatures"]}
{"id": "C74", "title": "merge of Matrix objects is the relational join", "statement": "a.merge(b, point, feature, onFeature) on Matrix objects makes a the relational join of the two: a point for every pair of matching points (by point name or by equal values of the feature), unmatched points as the point option says, the features the feature option says, every element that of the object it came from (NaN where neither has one), and names to match; two matching points with different values for a shared feature are refused. It needs no points in either object, allows several matches of one point, and an object merged with itself by its names stays as it is.", "quantifier": "all pairs of Matrix objects of all shapes (with or without points), all values including NaN, all point and feature options, by names or any feature", "why_tests_cant": "Ranges over all pairs of tables, overlaps of names and keys with duplicates; single examples do not show columns swapped for some orders of the names, or NaN left unfilled.", "anchors": ["nimble/core/data/matrix.py: _merge_implementation", "nimble/core/data/base.py: merge, _genericMergeFrontend", "nimble/core/data/axis.py: _getMatchingNames"]}
{"id": "C75", "title": "merge of Sparse objects is the relational join", "statement": "a.merge(b, point, feature, onFeature) on Sparse objects makes a the relational join of the two objects as they are seen (elements not stored are zeros): a point for every pair of matching points (by point name or by equal values of the feature), unmatched points as the point option says, the features the feature option says, every element that of the object it came from (NaN where neither has one), with consistent storage of the result and names to match; matching points with different values for a shared feature are refused and a is left standing for the same table.", "quantifier": "all pairs of Sparse objects of all shapes, in every storage order, all values including zeros and NaN, all point and feature options, by names or any feature", "why_tests_cant": "Ranges over all pairs of matrices, all storage orders and all places of zeros; example tests use keys and features without zeros, where counting stored entries and counting points agree.", "anchors": ["nimble/core/data/sparse.py: _merge_implementation", "nimble/core/data/base.py: merge, _genericMergeFrontend", "nimble/core/data/axis.py: _getMatchingNames"]}
{"id": "C76", "title": "Regression learners and linear equations", "statement": "nimble.RidgeRegression finds, for every output feature, the weights that minimise the squared errors on the training data plus lamb times the squared weights (no other weights are as good), whatever the order of the training points; with lamb > 0 training always succeeds; data linear in the features is learned exactly with lamb = 0; apply predicts the weighted sum of the features of each point; nimble.MultiOutputRidgeRegression predicts the same, output by output. nimble.calculate.solve returns a solution of A x = b for b a point or a feature, leastSquaresSolution one with the least residual, both named after the features of A; inverse returns the inverse or fails on a singular object; shapes that do not fit are refused with the documented exceptions.", "quantifier": "all numeric training and test objects of all shapes, all penalties, all orders of points, all vectors b", "why_tests_cant": "Optimality is a statement about all alternative weights and all data; example tests compare a few numbers.", "anchors": ["nimble/learners/ridge_regression.py: train, apply", "nimble/learners/multioutput_ridge_regression.py: train, apply", "nimble/calculate/linalg.py: inverse, solve, leastSquaresSolution, _backendSolversValidation", "nimble/_utility.py: dtypeConvert"]}
{"id": "C77", "title": "Objects made from sparse matrices", "statement": "nimble.data(source, returnType='Sparse') for a scipy sparse matrix: entries for the same position are added up, zeros are not stored, nothing else is lost; the object has the size, the names (given, in the data, or looked for there) and the elements, with missing values replaced, that the same data has as a nested list, and is refused in the same cases with the same exception; convertToType gives each element the one type asked for its feature or is refused because some element cannot be converted.", "quantifier": "all matrices of entries with repeated positions and stored zeros, in any order, all names arguments, missing values and types", "why_tests_cant": "The rules are about every arrangement of entries and header; example tests show a few dense matrices.", "anchors": ["nimble/_utility.py: removeDuplicatesNative", "nimble/core/_createHelpers.py: extractNamesFromScipySparse, extractNames, elementTypeConvert, _replaceMissingData, initDataObject"]}
{"id": "C78", "title": "Learning functions on the caller's objects", "statement": "train, TrainedLearner.apply and test, trainAndApply, trainAndTest, trainAndTestOnTrainingData, normalizeData and retrain fit the learner on exactly the data and labels given, whether the labels are an object of their own or a feature of the data under a name or an index (then not part of what the learner sees); what is left out for testing is taken from the training data; answers are new objects with the names of the points asked about and of the labels; the caller's objects are never changed, also when the call fails; arguments that do not fit are refused before training with the documented exception.", "quantifier": "all objects, labels inside or beside the data, testing data given or left out, all score modes and plain strategies, all learners and performance functions", "why_tests_cant": "Tests try a few learners on small data; aliasing, name transfer and refusals are about every combination of arguments.", "anchors": ["nimble/core/learn.py: normalizeData, train, trainAndApply, _trainAndTestBackend, trainAndTest, trainAndTestOnTrainingData", "nimble/core/_learnHelpers.py: validateLearningArguments, computeMetrics, _2dOutputFlagCheck", "nimble/core/interfaces/universal_interface.py: train, _train, TrainedLearner.apply, test, retrain, _validTestData", "nimble/calculate/utility.py: performanceFunction"]}
{"id": "C79", "title": "Replacing points and features", "statement": "points.replace and features.replace put vector k of the data at the k-th location (given by index or name, or by the names of the data, or all locations if the data has the shape of the object), leave every other element and all names as they are, and either do all of it or, with the documented exception, nothing.", "quantifier": "all objects, data objects or raw data with or without names, all lists of locations, both axes", "why_tests_cant": "Tests replace one or two vectors; repeated locations, refused calls and data in the other direction are about every combination.", "anchors": ["nimble/core/data/axis.py: Axis._replace", "nimble/core/data/points.py: Points.replace", "nimble/core/data/features.py: Features.replace", "nimble/core/data/matrixAxis.py: _transform_implementation"]}
{"id": "C80", "title": "Similarities and statistics of points and features", "statement": "statistics returns one line per point (feature) with its name and the value of the named statistic, labelled with it, also per group; similarities returns the symmetric table of covariances, correlations (between -1 and 1, 1 on the diagonal) or dot products of all pairs, using the positions where both have a number, with the names on both axes, and leaves the object as it is. A name is recognised up to capitals and blanks; any other is refused.", "quantifier": "all objects, both axes, all names of functions, all patterns of missing values", "why_tests_cant": "Tests compare a few tables with numpy; symmetry, bounds and the two code paths (with and without missing values) agreeing are claims about every table.", "anchors": ["nimble/core/data/axis.py: Axis._similarities, _statistics, _statisticsBackend", "nimble/calculate/similarity.py: _nanCovCorr, correlation, covariance", "nimble/_utility.py: _getStatsFunction", "nimble/core/data/_dataHelpers.py: validateInputString, cleanKeywordInput"]}
{"id": "C81", "title": "Transforming Sparse objects", "statement": "points.transform, features.transform and transformElements of a Sparse object give the elements that the same function gives on a dense object: the vectors (elements) selected hold what the function returned for them, the others what they held, whether or not they are stored; no zero is stored afterwards, and names stay. When the function raises during points.transform or features.transform, or during a transformElements that does not keep zeros, the object is as it was; during one that keeps zeros, some of the selected elements have been transformed.", "quantifier": "all Sparse objects (any stored pattern and type), all functions, all selections, both axes", "why_tests_cant": "Tests transform a few objects; that every stored pattern and every sequence of result types gives the dense answer is a claim about all of them.", "anchors": ["nimble/core/data/sparseAxis.py: SparseAxis._transform_implementation", "nimble/core/data/sparse.py: _transform_implementation, _transformEachElement_noPreserve_implementation, _transformEachElement_zeroPreserve_implementation", "nimble/core/data/_dataHelpers.py: validateAxisFunction, validateElementFunction, modifyNumpyArrayValue", "nimble/core/data/axis.py: Axis._transform"]}
{"id": "C82", "title": "calculateOnElements of Sparse objects", "statement": "calculateOnElements of a Sparse object gives a new object with the selected points and features in the order given, no names, and at each position what the function gives for that element (None as NaN); with preserveZeros, zeros stay zero and the function is given only what is not zero. When the function raises for one of the elements selected, its exception is raised and there is no result.", "quantifier": "all Sparse objects (any stored pattern and type), all functions, all selections, preserveZeros and skipNoneReturnValues on or off", "why_tests_cant": "The stored elements are computed without their positions and put back: that this is right for every pattern, also without any stored element, is a claim about all of them.", "anchors": ["nimble/core/data/sparse.py: Sparse._calculate_implementation", "nimble/core/data/base.py: calculateOnElements, _calculate_backend, _calculate_genericVectorized", "nimble/core/_createHelpers.py: extractNamesFromScipySparse, initDataObject", "nimble/_utility.py: removeDuplicatesNative"]}
{"id": "C83", "title": "features.normalize replaces exactly the features asked for", "statement": "features.normalize replaces each feature asked for by what the function makes of it, in the calling object and, with applyResultTo, in the second object, each from the values both had before the call; other features, the points and all names stay. Objects with another number of features or contradicting feature names are refused with nothing changed. An exception comes from the function or from a result of another length, and then exactly the features before that one are normalized.", "quantifier": "all pairs of objects, all functions of one or two features (also failing or giving other lengths), all selections of features", "why_tests_cant": "The loop rewrites both objects while it reads them, for any number of features and any function.", "anchors": ["nimble/core/data/features.py: Features.normalize", "nimble/core/data/axis.py: Axis._transform, _getIndex, _getNamesNoGeneration"]}
{"id": "C84", "title": "calculate.residuals is what a linear regression leaves", "statement": "nimble.calculate.residuals gives an object with the points, features and names of toPredict; each feature is what is left of it by the linear function of the control variables, with a constant, that has the least squared errors. So the residuals of a feature sum to zero and are orthogonal to every control variable, a feature that is such a linear function leaves zeros, adding one changes nothing, and the least squares routine used does not matter. Objects with different numbers of points, or without points or features, are refused.", "quantifier": "all objects of numbers, of any size, and all least squares routines", "why_tests_cant": "That no other weights have smaller errors is a claim about all weights, for all data.", "anchors": ["nimble/calculate/statistic.py: residuals", "nimble/core/data/base.py: _genericBinaryOperations, _defaultBinaryOperations_implementation"]}
{"id": "C85", "title": "features.report lists the statistics of every feature", "statement": "obj.features.report gives an object with one point per feature, in order and named as the features: first the index, then the statistics asked for (all ten, none, or the list given, in that order), nan where one raised a ValueError, then what the extra functions give. Quartiles are computed once but are those of the feature. The columns are called index, the statistics and the functions; a name that occurs more than once is numbered, and for names without a parenthesis the labels are distinct. A statistic that does not exist is refused; any other exception is one of a statistic or an extra function.", "quantifier": "all objects, statistics, lists of statistics and extra functions", "why_tests_cant": "The statistics asked for, the names that collide and the features whose statistics raise are any.", "anchors": ["nimble/core/data/features.py: Features.report", "nimble/core/data/axis.py: _setNames"]}

# Design: a Rocq model of willfind/nimble

(The first version of this file was the plan, committed before the proofs; this version keeps the plan line of every
property and adds what was built.)

## Method
* `/repo` is only read. The model is shallow Gallina, one definition per Python function (or per loop of it), exceptions as
  values (`Err e`), mutation as a returned state, each definition commented with `file:lines` and with what it simplifies.
* Files: `XModel.v` (definitions only), `XSpec.v` (vocabulary of the statements: relations and closed forms that do not call
  the model), `X..Proofs.v` (lemmas), `XProps.v` (the theorems of the manifest, `Print Assumptions` after each, and
  `Example`s showing concrete cases that meet the hypotheses).
* A property the code violates gets a `_refuted` theorem: a concrete witness evaluated in the model, i.e. a claim about what
  the code does. The unrestricted claim is then proved only under the guard the witness motivates, with suffix `_partial`.
* Loops that Python runs until a condition are modelled by structural recursion, or with fuel plus a theorem that the fuel
  suffices (or the refutation that no fuel does).
* Every model was tested with seeded bugs (`seeded/LOG.jsonl`): one edit of one definition per line, the claim it breaks, and
  the theorems that stop compiling.

## Trusted base
* Coq 8.16.1's kernel, including `vm_compute` (used for concrete examples and witnesses).
* `Print Assumptions` after every theorem of the manifest answers "Closed under the global context": no theorem uses an axiom.
  Loading the standard library makes the seven declarations of the module type `Coq.ssr.ssrunder.Under_rel` visible to a
  checker that lists every axiom of the environment; nothing here depends on them. Only the standard library is used.
* That the definitions are what the Python text does. Python/numpy/pandas/scipy/sqlite/csv primitives are replaced by their
  documented meaning, as each comment states. In particular: finite floats are exact rationals (no rounding) wherever numbers
  are computed with; ints are unbounded; random draws are arbitrary values of the right kind; sort comparisons on arbitrary
  values are an arbitrary total preorder.
* Parameters that stand for library behaviour appear as universally quantified variables of the theorems (for example
  `isInt`/`isFloat`: which texts int()/float() accept; `npArith`: numpy arithmetic on one pair of elements; `leb`: an order).
  When a theorem needs a fact about such a parameter it is an explicit hypothesis (e.g. `ParseOracle`), with an example
  instance next to it.

## What is modelled
Each line is the header of a model file (its sources and simplifications).

* **ArgsModel.v** — Model of the argument handling of custom learners (C63, C64). Sources: /repo/nimble/_utility.py:58-91 (inspectArguments), /repo/nimble/core/interfaces/custom_learner.py:40-416, /repo/nimble/core/interfaces/universal_interface.py:280-425 (train, _trainBackend, argument validation), 427-450 (_argumentInit), 451-500 (_chooseBestParameterSet), 501-527 (_getMethodArguments), 605-660, 1236-1262 (apply), 1437-1478 (retrain), 1508-1530 (incrementalTrain), 1603-1622 (getScores). Simplified: data, random seeds, labels, logging and output formats are left out; argument values are plain (no Tune); the learner's own methods do not raise once they are called.
* **BinOpModel.v** — Model of the elementwise arithmetic operators between objects (C17) and of abs(obj) (C18), for List objects. Sources: /repo/nimble/core/data/base.py:5191-5214 (__abs__), 5216-5256 (validation), 5272-5284, 5286-5366 (names), 5368-5390, 5391-5445 (_genericBinaryOperations), 5447-5458, 5946-5985 (_validateEqualNames); _dataHelpers.py:84-125, 127-147, 831-864; list.py:600-645, 777-781; /repo/nimble/_utility.py:155-191 (numpy2DArray). Elements are [pval] (MatchModel.v); object names and paths are not modelled.
* **CalcModel.v** — Model of nimble.calculate. Sources: /repo/nimble/calculate/loss.py, similarity.py, binary.py, normalize.py, statistic.py, utility.py. Numbers are rationals (exact) instead of floats; a vector object is the list of its elements.
* **CalcSparseModel.v** — Model of calculateOnElements of Sparse objects (C82). Sources: /repo/nimble/core/data/base.py:955-962, 1079-1146, sparse.py:201-239, /repo/nimble/core/_createHelpers.py (FromSparseModel.v). The result is given as the table that the new Sparse object shows. Simplifications: scipy takes elements of any type; views are left out (they always use the dense path); the first element of a selection of mixed types is not turned into text before the type of the results is found (the function sees the element itself).
* **CalcStatModel.v** — Model of the counting statistics of /repo/nimble/calculate/statistic.py: mode (252-305) and uniqueCount (403-416). Elements are of any type with a zero; missing is [None]; [sorted] uses the order of the elements.
* **ConfModel.v** — Model of nimble.settings. Source: /repo/nimble/core/configuration.py:57-330 (SessionConfiguration). The parser is configparser.ConfigParser with case-sensitive option names and its default interpolation ('%%' stands for '%'; '%(name)s' references and the DEFAULT section are not modelled). The file on disk is the content of the parser when it was last written: the text format is not modelled.
* **CopyModel.v** — Model of [copy]: the same data as a nimble object of another type, as nested Python lists, numpy arrays, scipy matrices, a pandas DataFrame or dictionaries. Sources: /repo/nimble/core/data/base.py:3680-3874, list.py:264-331, 777-781, matrix.py:181-223, dataframe.py:195-262, 585-604, sparse.py:357-406, _dataHelpers.py:398-451, _utility.py:147-188, 286-311, 364-368. Two-dimensional objects; objects with more dimensions only as far as the refusals (their copies: HighModel.v). Views, datetimes, integers beyond 64 bits and missing packages are not modelled.
* **CsvModel.v** — Model of loading a CSV file (C25, C26, C27). Sources: /repo/nimble/core/_createHelpers.py:173-215 (autoDetectNamesFromRaw), 2350-2435 (_intFloatOrString, _intFloatBoolOrString, _csvColTypeTracking, _colTypeConversion), 2437-2483 (_checkCSVForNames), 2506-2529 (_namesDictToList), 2556-2658 (_checkForDuplicates, _keepIndexValuesValidation, _limitToKeptFeatures), 2799-3104 (_loadcsvUsingPython). The input is the list of non-empty rows that csv.reader yields after the leading comments. Which strings int() and float() accept are the parameters [isInt] and [isFloat]. The result is the nested list handed to pandas/numpy, before any later conversion.
* **CsvTextModel.v** — Model of writing a List object to a CSV file and of reading the text of a CSV file (C28). Sources: /repo/nimble/core/data/base.py:1850-1923 (save, _writeFeatureNamesToCSV), data/_dataHelpers.py:769-777 (csvCommaFormat), data/list.py:202-224 (_saveCSV_implementation), core/_createHelpers.py:2248 (StringIO with newline=None), 2437-2483 (_checkCSVForNames), 2485-2503 (_advancePastComments), 2857-2867 (the lines given to csv.reader); csv.reader itself is CPython's Modules/_csv.c with the dialect excel (comma, the double quote, doublequote, not strict). Simplifications: inputSeparator=',' is given (no csv.Sniffer); a cell is the string that str() gives for it; the limit on the length of a field is not modelled.
* **DimsModel.v** — Model of the records behind the dimensions of data objects. [self._dims] is a Python list, so two objects can hold the same list; some operations change that list in place and others replace it (/repo/nimble/core/data/base.py, axis.py).
* **DisplayModel.v** — Model of how an object is laid out as text (C51). Sources: /repo/nimble/core/data/_dataHelpers.py:161-192 (indicesSplit), 802-829 (arrangeFinalTable); base.py:2560-2690 (toString, padding of the cells and _validateAndTruncatePrintTarget), 2718-2750 (_show), 5689-5738 (_arrangePointNames), 5740-5933 (_arrangeDataWithLimits); /repo/nimble/_utility.py:500-590 (tableString). The box-drawing characters are replaced by ASCII characters of the same length: the column placeholder by two dashes, the row placeholder by a bar, the mark of a cut text by one dash. [cellText r c] stands for formatIfNeeded(self[r, c], sigDigits); [fnameOf c] for the feature name, None if it is None, all names are default or names are not included.
* **ElementsModel.v** — Model of the elementwise methods transformElements, calculateOnElements, matchingElements, countElements (C53, C56) for List and Matrix objects. Sources: /repo/nimble/core/data/base.py:808-818, 955-962, 1051-1080, 1082-1145, 1191-1196; _createHelpers.py:163-215, 331-347; list.py:139-156; _dataHelpers.py:305-333, 515-605, 699-704. Elements are [pval] (MatchModel.v).
* **FetchModel.v** — Model of nimble.fetchFiles / fetchFile for a url of a downloadable file (C62). Source: /repo/nimble/core/_createHelpers.py: 1748-1764 (_isDownloadable), 1766-1843 (archives and gzip), 1923-1946 (_getNimbleDataPath, _getURLResponse), 1948-2009 (_DirectURLManager), 3106-3130 (fileFetcher); core/create.py:550-615. Not modelled: the 'uci::' and 'nimble::' sources (1845-1921, 2011-2096), bz2 and xz tars, symbolic links, permissions. Paths are absolute, split at '/', and '..' is resolved on the text of the path.
* **FillModel.v** — Model of nimble.fill and points/features.fillMatching. Sources: /repo/nimble/fill/fill.py:29-33 (_booleanElementMatch), 35-92 (constant), 274-353 (forwardFill), 355-437 (backwardFill), 439-515 (interpolate), 521-547 (statsBackend); core/data/axis.py:757-803 (_fillMatching). A vector is the list of its values, a match is the list of booleans [toFill] (the match function applied to every value, or the given boolean vector). The intermediate Nimble objects (points.calculate of one vector) are the lists themselves.
* **FlatModel.v** — Model of flatten and unflatten for two dimensional data. Sources: /repo/nimble/core/data/base.py:4005-4297, list.py:345-373 (the numpy reshapes of matrix.py:238-245, dataframe.py:294-324 and sparse.py:564-574 have the same effect on the values; the dtype bookkeeping of DataFrame is not modelled).
* **FoldModel.v** — Model of the cross-validation folds and of the Validator bookkeeping. Sources: /repo/nimble/core/tune.py:55-193 (FoldIterator, KFoldIterator, GroupFoldIterator), 195-263 (Validator), 265-345 (CrossValidator._validate), 1735-1745 (the sorted results of Tuning.tune).
* **FromSparseModel.v** — Model of nimble.data(source, ..., returnType="Sparse") for a scipy sparse source (C77). Sources: /repo/nimble/_utility.py: 370-436 (removeDuplicatesNative); /repo/nimble/core/_createHelpers.py: 352-459 (extractNamesFromScipySparse), 718-780 (extractNames), 894-971 (elementTypeConvert, scipy sparse), 1020-1026 (_replaceMissingData, scipy sparse), 1448-1726 (initDataObject); data/axis.py:79-106. Every source is made a coo_matrix first (initDataObject, 1502-1505). Simplified: an array keeps each value as it is when some of them are replaced (numpy may change the type of the array); rowsArePoints is True, keepPoints and keepFeatures are 'all'.
* **GetModel.v** — Reading elements of an object: obj[...], points[...], features[...], countUniqueElements and iterateElements. Sources: /repo/nimble/core/data/base.py, axis.py, _dataHelpers.py, sparse.py.
* **HighModel.v** — Model of data with more than two dimensions: creation from nested lists (/repo/nimble/core/_createHelpers.py 1137-1304), the dimensions an object reports (/repo/nimble/core/data/base.py 231-255), and the operations that must keep values and dimensions together.
* **IdentModel.v** — Model of [isIdentical] and of the type conversions of copy. Sources: /repo/nimble/core/data/base.py:1794-1820, 5938-5944, _dataHelpers.py:380-396, 868-917, list.py:188-200, matrix.py:126-129, dataframe.py:148-152, sparse.py:262-300.
* **ImputeModel.v** — Model of nimble.fillMatching (filling matched elements by a learner) and of the learner nimble.KNNImputation (C65), for List objects. Sources: /repo/nimble/core/learn.py:632-672; /repo/nimble/learners/knn_imputation.py:43-112. Not modelled: the validation of the arguments and the refusal of [missing_values] for scikit-learn (learn.py:632-642), logging, and the learners themselves (functions that may raise).
* **LearnModel.v** — Model of the learner-facing helpers. Sources: /repo/nimble/_utility.py:94-126 (mergeArguments), /repo/nimble/core/_learnHelpers.py:686-705 (trackEntry), /repo/nimble/learners/knn_classification.py:39-128 (KNNClassifier), /repo/nimble/core/interfaces/_interface_helpers.py:296-345, 552-655, /repo/nimble/core/interfaces/universal_interface.py:1236-1300 (apply), 1437-1480 (retrain), 1598-1640 (getScores), 1802-1930 (TrainedLearners.apply).
* **LogModel.v** — Model of the session log. Source: /repo/nimble/core/logger/session_logger.py:96-182 (showLog checks), 215-262 (setup), 275-309 (log), 706-782 (showLog), 901-954 (the query), 1280-1330 (output). The database is the list of rows of the table [logger] in insertion order; SQLite's INSERT/SELECT/ORDER BY/LIMIT/LIKE are modelled directly. Timestamps are numbers (the text format sorts chronologically); parsing of dates and the layout of the text are not modelled.
* **LogicModel.v** — Model of the logical operators between objects (&, |, ^) and of ~obj, for List objects (C60). Sources: /repo/nimble/core/data/base.py:5460-5515 (__and__, __or__, __xor__, __invert__, _genericLogicalBinary, _logicalValidationAndConversion); match.py:539-574 (allValues). The operands go through matchingElements (ElementsModel.v) and _genericBinaryOperations (BinOpModel.v).
* **MapReduceModel.v** — Model of the object mapReduce returns (C50). Source: /repo/nimble/core/data/axis.py:699-755 [_mapReduce] for objects of type List: the pairs are handed to nimble.data (RawModel.v), whose names arguments are left 'automatic'.
* **MatMulModel.v** — Model of matrix multiplication and matrix powers of List objects (C58). Sources: /repo/nimble/core/data/base.py:4860-4869 (matrixMultiply), 4871-4895 (__matmul__, __rmatmul__, __imatmul__), 4897-4952 (_genericMatMul_implementation), 4954-5007 (matrixPower); list.py:621-640 (_matmul__implementation); /repo/nimble/core/create.py:529-549 (identity); /repo/nimble/calculate/linalg.py:32-112 (inverse). Object names and paths are not modelled. The data of both operands is converted to numbers in place, so their states are part of the outcome.
* **MatchModel.v** — Model of nimble.match (C30). Sources: /repo/nimble/match/match.py:24-476 (elementwise functions), 478-574 (anyValues, allValues), 1605-1629 (anyAllValuesBackend), 1631-1692 (_convertMatchToFunction); core/data/base.py:452-459 (__iter__).
* **MergeMatModel.v** — Model of merge for Matrix objects (C74). Sources: /repo/nimble/core/data/matrix.py:247-373 (Matrix._merge_implementation); the frontend base.py:4670-4785 and the dict of matches are those of MergeModel.v. The array is rewritten as an array of objects first, so elements keep their value; arrays know the number of their columns, so the widths come from the axes (List objects read rows[0]).
* **MergeModel.v** — Model of merge for List objects (C16). Sources: /repo/nimble/core/data/base.py:4560-4583 (merge), 4670-4785 (_genericMergeFrontend); axis.py:1517-1527 (_getMatchingNames); list.py:375-530 (List._merge_implementation). Elements are [pval] (MatchModel.v). Reads [row[i]] at positions that come from the names of an axis are modelled by [nth i row PNaN]: they are in range for a consistent object.
* **MergeSparseModel.v** — Model of merge for Sparse objects (C75). Sources: /repo/nimble/core/data/sparse.py:612-780 (Sparse._merge_implementation); the frontend base.py:4670-4785 is that of MergeModel.v, reading the elements as [seen] (SparseReshapeModel.v). Not modelled: that the entries of other are sorted as well.
* **MtxModel.v** — Model of saving to and loading from Matrix Market files (/repo/nimble/core/data/base.py 1850-1914 save; data/list.py 226-258, matrix.py 153-179, sparse.py 326-351, dataframe.py 177-193 _saveMTX_implementation; core/_createHelpers.py 1727-1747 _autoFileTypeChecker, 2243-2306 the dispatch of createDataFromFile, 2660-2722 _loadmtxForAuto). A file is its list of bytes.
* **MultiModel.v** — Multiclass strategies end to end: training one classifier per label, the predictions and scores of the collection, and the conversion of raw scores to one score per label. Sources: /repo/nimble/core/interfaces/universal_interface.py:196-238, 1562-1599, 1648-1670, 1802-1948 and _interface_helpers.py:152-300, 573-660.
* **NamesModel.v** — Model of the naming half of an axis (points or features). Source: /repo/nimble/core/data/axis.py
* **NormModel.v** — features.normalize (features.py:1859-2018).
* **NormRangeModel.v** — nimble.calculate.rangeNormalize given to features.normalize.
* **PrepModel.v** — Model of trainAndTestSets and of the two category encodings. Sources: /repo/nimble/core/data/base.py:520-680, 1518-1722, 5946-5985, list.py:528-533 (matrix.py and dataframe.py do the same on arrays), sparse.py:241-256, 784-797, _dataHelpers.py:463-505.
* **QueryModel.v** — Model of query strings (C29). Sources: /repo/nimble/match/query.py:25-26 (operatorDict), 121-124 (_accepted), 126-206 (QueryString.__init__), 208-218 (__call__); core/data/axis.py:1104-1131 (_axisQueryFunction), 1142-1183 (target resolution of _genericStructuralFrontend).
* **RandModel.v** — Model of nimble's random state. Source: /repo/nimble/random/randomness.py:34-58 (sources, setSeed), 60-228 (data), 230-283 (seeds), 297-347 (alternateControl). The two generators are abstract: a state, a seeding function and drawing functions. Seeding with None reads the operating system's randomness, which is a value [world] that every seeding moves on. Logging is not modelled.
* **RawModel.v** — Model of nimble.data(source, ..., returnType="List") for in-memory Python data: lists, lists of lists, dicts and lists of dicts (C61). Source: /repo/nimble/core/_createHelpers.py: 173-215 (autoDetectNamesFromRaw), 218-281 (extractNamesFromRawList), 499-574 (dicts), 643-670 (_dictNames), 673-780 (extractNames), 783-827 (convertData), 894-971 (elementTypeConvert, lists), 974-1046 (_replaceMissingData, lists), 1306-1372 (getKeepIndexValues, convertToTypeDictToList), 1374-1446 (analyzeValues), 1448-1726 (initDataObject), 2556-2618; data/list.py:66-123 (List.__init__); data/axis.py:79-106. copyData=True (the default) copies the source first, so nothing here changes it; numpy, scipy and pandas sources, more than two dimensions and the other return types are not modelled.
* **ReplaceModel.v** — Model of points.replace and features.replace. Sources: /repo/nimble/core/data/axis.py:641-698 [_replace] (the part after the locations are known is TableOps.replace), points.py:1534-1615, features.py:1595-1676, matrixAxis.py:179-192, 252-267. Simplifications: objects of two dimensions; the names given with the data are lists or None; paths, the log and the type of the object built are left out.
* **ReportModel.v** — features.report (features.py:2330-2462).
* **ReshapeModel.v** — Model of features.splitByParsing, points.splitByCollapsingFeatures and points.combineByExpandingFeatures for List objects (C49). Sources: /repo/nimble/core/data/features.py:2143-2199, points.py:1975-2008, 2126-2210; listAxis.py:211-239, 305-321; _dataHelpers.py:335-378; sparseAxis.py:391-424 (collapsing a Sparse object). Elements are [pval] (MatchModel.v). [strOf v] is str(v) and numpy's conversion of a number to text. Identifiers are names and indices (floats are refused by getIndex). Where a Python float nan is compared inside a tuple or a list it counts as different from every other (true of different objects; the theorems exclude nan in those positions).
* **ResidModel.v** — nimble.calculate.residuals (statistic.py:427-481).
* **RidgeModel.v** — Model of the regression learners of nimble and of nimble.calculate.solve, leastSquaresSolution and inverse (C76). Sources: /repo/nimble/learners/ridge_regression.py:39-68, /repo/nimble/learners/multioutput_ridge_regression.py:35-55, /repo/nimble/calculate/linalg.py:32-121 (inverse), 302-372 (the solvers), /repo/nimble/_utility.py:313-323 (dtypeConvert). Simplifications: floats are exact rationals; arrays with NaN or infinities are not followed (OutOfFuel); the routines of numpy and scipy are parameters.
* **SimStatModel.v** — Model of points.similarities / features.similarities and points.statistics / features.statistics. Sources: /repo/nimble/core/data/axis.py:861-935 (_similarities, _statistics, _statisticsBackend), 1572-1580 (_process_statistics); /repo/nimble/calculate/similarity.py:45-121; /repo/nimble/_utility.py:42-46, 596-632; /repo/nimble/core/data/_dataHelpers.py:193-224. Simplifications: numbers are exact; the statistics themselves are parameters (the calculations are the subject of C41 and C71); letters are ASCII; paths and the log are left out; the values of a statistic are stored as they are (nimble.data would turn its markers of missing values into nan).
* **SparseArithModel.v** — Model of the elementwise operators of Sparse objects (C59). Sources: /repo/nimble/core/data/sparse.py:1020-1026 (_containsZero), 1028-1073 (_binaryOperations_implementation), 1075-1092 (_scalarBinary), 1121-1146 (_genericMul), 1148-1170 (_genericPow), 1172-1187 (_genericFloordiv), 1189-1213 (_genericMod), 1215-1231 (_scalarZeroPreserving); base.py:5227-5284 (validation), 5447-5458 (the dense default); stretch.py:250-280 (StretchSparse). The other operand is a Sparse object or a scalar; names are those of C17 (the same Base code). An in-place operator runs the plain one on the object itself (base.py:5424-5427) and takes over its result, so only plain and reflected operators appear.
* **SparseModel.v** — Model of the Sparse data type: a scipy coo_matrix plus the cache of the last internal sort. Sources: /repo/nimble/core/data/sparse.py and sparseAxis.py. Names are handled by the axes (TableModel/TableOps) and are not repeated here. Values are an abstract type with a distinguished zero; Python's [== 0] is equality with it.
* **SparseReshapeModel.v** — Model of splitByParsing, splitByCollapsingFeatures and combineByExpandingFeatures on Sparse objects (C71). Sources: /repo/nimble/core/data/sparseAxis.py:391-447, 487-513 with the front ends features.py:2143-2199, points.py:1975-2008, 2126-2214 (the same code as for the other types, C49). A missing entry reads as the integer 0.
* **StransModel.v** — Model of transform and transformElements of Sparse objects (C81). Sources: /repo/nimble/core/data/sparseAxis.py:84-123, sparse.py:144-199, axis.py:490-506, _dataHelpers.py:553-697, 1157-1172, base.py:808-818, 5644-5687. A Sparse object here is its axes, the dtype of its data and the stored entries; positions that are not stored are read as 0. Simplifications: integers have no bounds and floats are exact; functions that return dictionaries or values that are not allowed as elements are left out (the same InvalidArgumentValue, raised by the function).
* **StretchModel.v** — Model of the [stretch] attribute of List objects (C57). Sources: /repo/nimble/core/data/stretch.py:41-246 (Stretch); base.py:5406-5410 (an object with a Stretch on the right hands the call to the Stretch), 5498-5515 (_logicalValidationAndConversion), 5447-5458 (the numpy operation). Objects are List objects, so that the result type needs no conversion (214-216); StretchSparse is not modelled. The state of both operands after a call is part of the result because the data of both is converted in place.
* **StrictModel.v** — Model of merge with point='strict' or feature='strict' for List objects (C16). Source: /repo/nimble/core/data/base.py:4560-4678 (merge, _genericStrictMerge_implementation); _dataHelpers.py:84-104 (mergeNames); axis.py:376-380. [other] is copied first, so that other may be self. Simplifications: [sorted(a) != sorted(b)] on elements is modelled as "not a rearrangement of equal elements" (the same for elements with a total order; unorderable elements raise TypeError in the code, NaN never matches).
* **TableModel.v** — Model of a two-dimensional nimble object of type List and of the axis operations that move whole points or features. Sources: /repo/nimble/core/data/axis.py, listAxis.py, list.py, base.py. The element type is abstract.
* **TableOps.v** — Further table operations: insert, unique, sort variants, transform, calculate, groupByFeature, mapReduce. Sources: /repo/nimble/core/data/axis.py, listAxis.py, base.py, _dataHelpers.py.
* **TuneModel.v** — Model of the argument selectors and of nimble.Tune. Sources: /repo/nimble/core/tune.py:732-782 (BruteForce), 785-887 (Consecutive), 1005-1136 (Iterative), 1382-1455 (Tune.__init__).
* **TypedModel.v** — Model of the storage operations of Matrix objects (one numpy dtype) and DataFrame objects (one pandas dtype per feature). Sources: /repo/nimble/core/data/matrixAxis.py:55-290, matrix.py:224-246, 400-405, dataframeAxis.py:57-310, dataframe.py:270-320, 568-604, _dataHelpers.py:335-378, 625-700. These are the *_implementation methods: the front ends (names, validation, indices) are those of TableModel.v, ReshapeModel.v and the others. Simplifications: integers have no bounds and floats are exact, datetimes are left out, an exception of numpy or pandas in the middle of an assignment leaves the data as it was.
* **ViewModel.v** — Model of views, item assignment and replaceRectangle. Sources: /repo/nimble/core/data/base.py:2181-2426 (item assignment, view, pointView), 3879-4000 (replaceRectangle), views.py, list.py:535-567 and 670-790 (ListView, ListPassThrough, FeatureViewer), matrix.py:400-428, sparse.py:408-561, 573-610, 872-972, 1300-1329.
* **WorkModel.v** — Model of the learning functions of nimble on the caller's objects (C78): which data the learner is trained on, applied to and compared with. Sources: /repo/nimble/core/learn.py: 385-468 (normalizeData), 677-838 (train, without tuning), 841-981 (trainAndApply), 1018-1045 (_trainAndTestBackend), 1047-1218 (trainAndTest), 1221-1400 (trainAndTestOnTrainingData, without crossValidationFolds); /repo/nimble/core/_learnHelpers.py: 118-168 (computeMetrics), 574-705; /repo/nimble/core/interfaces/_interface_helpers.py: 662-670; universal_interface.py: 165-312 (train, _train), 1037-1150 (test), 1152-1306 (apply), 1412-1495 (retrain), 1648-1670 (_validTestData); /repo/nimble/calculate/utility.py: 352-540 (performanceFunction). Objects live in a store and are passed by reference, so that what happens to the caller's objects shows. Simplified: the arguments of the learner, the random seed and the log are left out; the learner's [train] and [apply] read the objects and return new ones; the strategies 'OneVsAll' and 'OneVsOne' (C67) and the scores (C46) are parameters.

## What is not modelled
* Storage types: structural operations are modelled for List objects (rows of values) and for Sparse objects (COO entries
  plus the cached sort). Matrix and DataFrame are covered only where a comment says that the code does the same on arrays.
  Objects of more than two dimensions, dtype bookkeeping and pandas index handling are not modelled.
* External packages (scikit-learn, keras, autoimpute, shogun, matplotlib, SQL server and file system failures), plotting,
  pickling, MTX and HDF5 files, URL fetching, dates.
* Floating-point rounding, overflow of numpy integers, numpy scalars as a separate type, complex numbers.
* Concurrency: the code has no threads of its own; two sessions writing one log are covered in LogModel as interleaved
  histories.
* Validation of argument types by `validateAxisFunction`, `validateInputString` etc. is modelled where the property is about
  the refusal, and otherwise left out.
* Logging side effects of API calls except in the log model (C39) and the call-stack flag (C52).

## Per property

### C01 Axis names and indices stay a bijection
*Plan.* Model an axis as (length, optional (ordered name->index dict, inverse list)). `_setNames` branch by branch with exceptions as values; invariant = the one checkInvariants asserts. Prove preservation for all list/None/scalar calls and for dict / oldIdentifiers calls under an explicit non-collision guard; lift by induction on call sequences; `_refuted` witnesses for the colliding calls the code accepts.

*Built.* status **partial** in NamesProps.v: `C01_names_bijection_partial`, `C01_set_list_of_names`, `C01_names_bijection_refuted_dict`, `C01_names_bijection_refuted_rename`. Bijection proved for every history of setNames/permute/remove/insert whose new names do not collide; list form proved without guard. Refuted in full: dict with two names for one index, and oldIdentifiers with duplicate new names, are accepted and break the bijection.

### C02 A rejected setNames leaves the names untouched
*Plan.* Same model: error result returns the state; prove observables unchanged for every rejected call.

*Built.* status **proved** in NamesProps.v: `C02_rejected_setNames_changes_nothing`. For every axis satisfying the repository's own invariant (checkInvariants).

### C03 Single identifiers resolve to one in-range index
*Plan.* Model `_getIndex` over int/float/string identifiers; prove the result characterisation; `_refuted` for floats out of range.

*Built.* status **partial** in NamesProps.v: `C03_getIndex_denotes_partial`, `C03_getIndex_in_range_partial`, `C03_getName_denotes`, `C03_getIndex_float_refuted`. Proved for ints, strings and floats inside the axis; refuted for integral floats outside (no range check).

### C04 Multiple-identifier indexing denotes the documented selection
*Plan.* Model `_processMultiple` (slice/mask/list); spec = arithmetic progression / filter / map.

*Built.* status **partial** in NamesProps.v: `C04_slice_selection_partial`, `C04_reverse_slice_refuted`, `C04_mask_selection`, `C04_mask_wrong_length`, `C04_mixed_mask_refuted`, `C04_identifier_list_selection`. Slices, masks and lists characterised; refuted: [::-1] selects nothing, and a boolean key with extra non-boolean entries is accepted.

### C05 copy, extract, delete and retain agree and lose nothing
*Plan.* Model tables as rows + names; model `_genericStructuralFrontend` target computation and the List backend; prove partition and the four-way agreement for all selections.

*Built.* status **proved** in TableProps.v: `C05_structural_partition`. All selection kinds (ids, predicate, range, number, random sample given as distinct members of the selection).

### C06 permute rearranges data and names by one bijection
*Plan.* Model `_permute`; prove acceptance iff permutation, pointwise equation, inverse restores.

*Built.* status **proved** in TableProps.v: `C06_permute_moves_names_with_data`, `C06_permute_accepts_every_rearrangement`, `C06_permute_inverse`. permute(None) is the same function applied to a shuffled range; the shuffle is covered by quantifying over all rearrangements.

### C07 sort returns a stable ordered rearrangement
*Plan.* Model the reversed sequence of stable sorts; prove sorted by lexicographic order, permutation, stability by induction on the key list.

*Built.* status **proved** in TableProps.v: `C07_sort_by_keys`, `C07_sort_by_function`, `C07_sort_by_names`. Keys by identifier list, by function and by names; comparison abstracted as an arbitrary total preorder.

### C08 insert then extract is the identity
*Plan.* Model `_insert` and the names merge; prove extract-after-insert.

*Built.* status **partial** in TableProps.v: `C08_insert_places_contiguously`, `C08_insert_then_extract`, `C08_append_accepts`, `C08_insert_into_empty_refuted`, `C08_partial_names_refuted`. Every accepted insert proved; append acceptance proved. Refuted: insert(0, other) on an empty axis and combination of consistent but partial names are rejected.

### C09 repeat copies every point the stated number of times
*Plan.* Model `_repeat`; mod/div law.

*Built.* status **partial** in TableProps.v: `C09_repeat`, `C09_repeat_partial_names_refuted`. Proved when the axis is unnamed or fully named; refuted for partially named axes (TypeError).

### C10 transpose is an involution that swaps axes
*Plan.* Model list transpose incl. empty axes; involution.

*Built.* status **proved** in TableProps.v: `C10_transpose_swaps`, `C10_transpose_involutive`. List representation, all shapes.

### C11 unique keeps the first occurrence of each distinct point
*Plan.* Model the seen-set loop; first-occurrence spec.

*Built.* status **partial** in TableProps.v: `C11_unique_partial`, `C11_unique_set_partial`, `C11_unique_marker_refuted`, `C11_unique_empty_vectors_refuted`. Proved when no stored value is a missing marker and vectors are non-empty; both exclusions are refuted by witnesses.

### C12 flatten and unflatten are inverse on the data
*Plan.* Model flatten/unflatten of values and names; round trip by div/mod; `_refuted` for names with separators.

*Built.* status **partial** in FlatProps.v: `C12_flatten_places_every_element`, `C12_unflatten_places_every_element`, `C12_unflatten_inverts_flatten`, `C12_names_round_trip_partial`, `C12_names_round_trip_refuted_bar`, `C12_names_round_trip_refuted_lost`, `C12_flatten_atomic_refuted`. Data: flatten/unflatten place every element exactly and are inverse for every shape and order. Names: proved for wholly named/unnamed axes with unambiguous names and more than one element; refuted otherwise (name ending in " |", partly named axes, 1x1, clashing joined names raise after mutation).

### C13 groupByFeature is a partition
*Plan.* Model grouping loop; partition theorem.

*Built.* status **proved** in TableProps.v: `C13_groupByFeature_partition`, `C13_countUniqueValues`. Grouping key is an arbitrary function of the row; also countUniqueValues mode.

### C14 trainAndTestSets splits the points without loss
*Plan.* Model trainAndTestSets over abstract shuffle; partition + refuted at fraction 0.

*Built.* status **partial** in PrepProps.v: `C14_split_no_labels`, `C14_split_label_columns_partial`, `C14_split_label_object`, `C14_split_rejects`, `C14_empty_test_set_refuted`. Proved for no labels and for a labels object with the same point names (complete), and for label columns whenever the test set is non-empty; refuted for an empty test set (labels stay in trainX). testFraction*n is taken exactly (no float rounding); the shuffle is an arbitrary permutation.

### C15 Category encodings are faithful
*Plan.* Model both encodings, List and Sparse; refuted for Sparse zero category.

*Built.* status **proved** in EncodeProps.v: `C15_integers`, `C15_binary_columns`, `C15_binary_one_hot`, `C15_sparse_binary_partial`, `C15_sparse_unique_values`, `C15_sparse_zero_category_refuted`, `C15_binary_failure_not_atomic_refuted`. Proved for every input the statement ranges over.

### C16 merge computes the documented join
*Plan.* Model List merge incl. strict axes; join spec; refuted after rename, for forced names and failing merges.

*Built.* status **partial** in MergeProps.v, StrictProps.v: `C16_join_partial`, `C16_no_sort`, `C16_union_sorted_partial`, `C16_list_names_in_order`, `C16_names_required`, `C16_key_unknown`, `C16_key_not_unique`, `C16_key_index_differs`, `C16_left_on_feature_refuted`, `C16_renamed_refuted`, `C16_refill_refuted`, `C16_failure_changes_refuted`, `C16_with_itself_refuted`, `C16_empty_refuted`, `C16_sort_index_refuted`, `C16_sort_index_zero_refuted`, `C16_strict_features_partial`, `C16_strict_points_partial`, `C16_strict_key_partial`, `C16_strict_key_unknown`, `C16_strict_sizes`, `C16_strict_names_refused`, `C16_strict_sorted`, `C16_strict_unsorted`, `C16_strict_failed`, `C16_strict_force_overrides_refuted`, `C16_strict_failure_names_refuted`. The join of List objects (all combinations of union, intersection, left; by point names, by a feature name or index) is proved equal to the relational join, with the errors for conflicts, under conditions that are each refuted when dropped (names set out of order, left join on a feature behind an unshared one, NaN refilled by several matches, empty objects, other is self). Strict points (by name, position or the values of a feature) and strict features are modelled too, with the names after the merge and the final sort. The other storage types are not modelled.

### C17 Name propagation of binary operations
*Plan.* Model name rules; prove.

*Built.* status **partial** in BinOpProps.v: `C17_elementwise`, `C17_scalar`, `C17_left_not_numeric`, `C17_right_not_numeric`, `C17_shapes`, `C17_empty`, `C17_refused_inplace_refuted`, `C17_position_refuted`. Proved for List objects and scalars, every operator, plain/reflected/in-place, with numpy arithmetic on a pair of elements as a parameter; outcome, names, values, errors and purity characterised exactly. Refuted in full: a refused in-place call has already converted numeric strings of self; elements of a sum depend on the element type of the whole array.

### C18 abs(obj) keeps names
*Plan.* Model __abs__ name branch; refuted + partial.

*Built.* status **partial** in BinOpProps.v: `C18_abs_partial`, `C18_point_names_refuted`, `C18_truncates_refuted`. Proved except for objects mixing bools and floats (C18_truncates_refuted) and for objects whose feature names were never created, whose point names are dropped (C18_point_names_refuted).

### C19 A view shows exactly its window and views compose
*Plan.* Model views as windows; composition; refuted for names/negatives/overrun.

*Built.* status **partial** in ViewProps.v: `C19_exists`, `C19_window`, `C19_live_partial`, `C19_nested_partial`, `C19_pointView_of_view`, `C19_sparse`, `C19_nested_names_refuted`, `C19_nested_escape_refuted`, `C19_sparse_live_refuted`. Window contents, names, existence and out-of-window rejection proved for all objects; nesting to any depth for in-view non-negative indices; pointView/featureView of a view by any identifier; Sparse vector and window views. Refuted: names/negative indices in a view of a view, escape from the first window, Sparse vector views are copies.

### C20 Views are read-only
*Plan.* Model item assignment through a view; refuted; the listed overrides are modelled as a method table.

*Built.* status **partial** in ViewProps.v: `C20_methods_partial`, `C20_list`, `C20_matrix_setitem_refuted`. All overridden methods over any history; List views fully. Refuted: Matrix view item assignment writes to the source.

### C21 Item assignment and replaceRectangle change only their target
*Plan.* Model replaceRectangle/setitem; frame theorem; refuted for missing featureEnd.

*Built.* status **partial** in ViewProps.v: `C21_setitem_one`, `C21_setitem_lists_partial`, `C21_setitem_keys_refuted`, `C21_setitem_partial_write_refuted`, `C21_rectangle_number`, `C21_rectangle_object_partial`, `C21_rectangle_mismatch`, `C21_rectangle_default_end_refuted`, `C21_rectangle_overflow_refuted`, `C21_sparse_zero_partial`, `C21_sparse_rectangle_partial`, `C21_sparse_rectangle_refuted`. Item assignment by single ids and by lists on both axes; replaceRectangle by number and by object (List and Sparse). Refuted: mixed/full keys raise TypeError, partial writes, default featureEnd for non-square objects, overflow below, Sparse IndexError.

### C22 Sparse element reads equal the logical matrix after any history
*Plan.* Model COO + cached sort; abstraction to a function of (i,j); invariant over histories; refuted for the stale cache.

*Built.* status **partial** in SparseProps.v: `C22_read_is_stored_value`, `C22_write_changes_one_element`, `C22_reads_after_any_history_partial`, `C22_invariant_after_any_history_partial`, `C22_inplace_without_cache`, `C22_stale_cache_refuted`. Reads/writes exact for every consistent object and after every history of reads, writes, structural operations and zero-free maps. Refuted in full: zero-creating in-place operations leave a stale index cache (C22_stale_cache_refuted).

### C23 Sparse structural operations agree with dense ones
*Plan.* Refinement lemmas op by op.

*Built.* status **proved** in SparseProps.v: `C23_copy_extract_points_features`, `C23_delete_leaves`, `C23_permute`, `C23_transpose`, `C23_insert`, `C23_repeat`, `C23_unique`, `C23_results_consistent`. Refinement of the dense table operations by the Sparse ones (copy/extract/delete/permute/transpose/insert/repeat/unique). Front-end name handling is C05-C11.

### C24 Equality test, copy and type conversion preserve the matrix
*Plan.* Round-trip lemmas dense<->sparse.

*Built.* status **partial** in SparseProps.v: `C24_sparse_to_dense_and_back`, `C24_copy_preserves`, `C24_isIdentical_sparse`, `C24_isIdentical_same_type_partial`, `C24_isIdentical_symmetric`, `C24_copy_is_identical`, `C24_isIdentical_across_types_refuted`. Copies and conversions preserve elements and names; isIdentical is exact within a type and symmetric. isIdentical across types is always False (C24_isIdentical_across_types_refuted).

### C25 Object creation attaches names as given
*Plan.* Model _namesDictToList etc.

*Built.* status **partial** in CsvProps.v: `C25_csv_dict_names`, `C25_csv_dict_duplicates`, `C25_csv_names_partial`, `C25_csv_automatic`, `C25_csv_blank_corner`, `C25_csv_rectangular`, `C25_csv_names_refuted`. csv files: names given by list, dict, True/False or automatically, blank corner, rectangularity. In-memory data: C61; mtx files: C70. Nine deviations proved in C25_csv_names_refuted (e.g. point name list dropped with featureNames=False).

### C26 keepPoints / keepFeatures select and order exactly as requested
*Plan.* Model keep logic; equivalence to load-then-select; refuted for None names.

*Built.* status **partial** in CsvProps.v: `C26_csv_keep_partial`, `C26_csv_trailing_separator`, `C26_csv_numeric_only`, `C26_csv_unknown_points`, `C26_csv_duplicate_points`, `C26_csv_unknown_features`, `C26_csv_unnamed_features`, `C26_csv_ambiguous_names`, `C26_csv_keep_refuted`. csv files: exactly the requested points/features in requested order with their names and cells, for every explicit name setting; unknown/duplicate/ambiguous requests refused. In-memory data: C61; mtx files: C70_keep_partial. Exceptions proved in C26_csv_keep_refuted.

### C27 CSV column types do not depend on row order
*Plan.* Model streaming tracker; order dependence refuted; partial for columns whose first row is non-empty.

*Built.* status **partial** in CsvProps.v: `C27_csv_types_partial`, `C27_kind_unique`, `C27_csv_row_order_partial`, `C27_csv_row_order_refuted`. csv: a feature whose first kept entry is filled has the kind its entries determine; independent of line order when the first line is filled; refuted when the first entry is blank.

### C28 CSV save/load round trip of names and cells
*Plan.* Model quoting and a CSV reader; round trip under guard; refuted for quotes.

*Built.* status **partial** in CsvTextProps.v: `C28_text_read_back`, `C28_save_load_partial`, `C28_save_load_refuted`, `C28_empty_refused`, `C28_missing_names_refused`, `C28_save_without_names`, `C28_line_ends`, `C28_last_line_end`. Character-level model of the csv writer and of Python's csv.reader: every table of safe cells is read back exactly and save+load restores names and cells; eight deviations proved in C28_save_load_refuted (quotes, newlines, '#', blank cells, partly named axes). mtx files: C70. Missing: pickle.

### C29 String queries select what they say
*Plan.* Model QueryString tokenizer.

*Built.* status **partial** in QueryProps.v: `C29_sound`, `C29_rejects_malformed`, `C29_axis_complete_partial`, `C29_is_complete`, `C29_element_complete_partial`, `C29_element_is_complete`, `C29_name_first`, `C29_selects`, `C29_structural`, `C29_answered`, `C29_comparisons`, `C29_is_functions`, `C29_accepted_names`, `C29_operator_in_name_refuted`, `C29_is_in_name_refuted`, `C29_element_value_refuted`. Query-string parser modelled with its regular expressions; soundness, rejection and is-queries in full; operator queries complete under the stated guard (one padded operator, harmless "is"), with refutations of the unrestricted claim. float() and the any/all functions on one element are parameters.

### C30 match functions quantify correctly over data
*Plan.* Model any/all backend.

*Built.* status **proved** in MatchProps.v: `C30_any`, `C30_all`, `C30_raising`, `C30_match_value`, `C30_match_list`, `C30_match_function`, `C30_missing`, `C30_signs`, `C30_trichotomy`, `C30_complements`, `C30_types`. Elementwise functions over Python ints, floats (exact rationals plus inf/nan), bools, strings, None; numpy scalars, complex and datetimes not modelled.

### C31 fill methods only replace matched values and use the documented source
*Plan.* Model fill loops over an abstract match predicate; characterise output.

*Built.* status **partial** in FillProps.v: `C31_constant`, `C31_forward`, `C31_backward`, `C31_statistic`, `C31_interpolate`, `C31_fillMatching_function`, `C31_fillMatching_matrix_partial`, `C31_untouched`, `C31_fills_conservative`, `C31_limitTo_order_refuted`, `C31_limitTo_name_refuted`. All fill functions (interpolation over exact rationals, default arguments) and fillMatching; boolean-object matches are right only when limitTo is ascending and not one string (refuted otherwise). kNeighbors fills are not modelled.

### C32 Cross-validation folds partition the points
*Plan.* Model makeFoldList; partition, balance; group folds.

*Built.* status **proved** in FoldProps.v: `C32_kfold_partition`, `C32_kfold_rejects`, `C32_leaveOneOut`, `C32_group_folds`, `C32_group_missing_dropped`, `C32_validation_uses_folds`, `C32_collected_labels`. KFold, LeaveOneOut and GroupFold partitions, the per-fold (train,test) sets of every data object and the gathered labels. The order drawn by the random generator is a parameter (any permutation).

### C33 Tuning selects an optimal tested argument set
*Plan.* Model Validator and BruteForce.

*Built.* status **partial** in FoldProps.v, TuneProps.v: `C33_best_is_first_best`, `C33_sorted_results`, `C33_nan_first_refuted`, `C33_bruteforce_all_combinations`. Best and sorted results proved for every history of validations when performances are totally ordered; refuted when the first performance is NaN. Brute-force enumeration proved.

### C34 Consecutive and iterative tuning visit what they document
*Plan.* Model Consecutive/Iterative as state machines; refuted.

*Built.* status **partial** in TuneProps.v: `C34_consecutive_greedy_partial`, `C34_single_value_ends_search_refuted`, `C34_second_loop_skips_candidate_refuted`, `C34_iterative_climbs_partial`, `C34_iterative_picks_worse_refuted`, `C34_iterative_position_lost_refuted`. Consecutive with one loop equals the documented greedy search (guards: later Tunes have >= 2 distinct values); refuted for single-valued Tunes and for a second loop (late-bound key). Iterative climbs to the peak of a unimodal performance for one tuned argument; refuted when both neighbours are better and when moving two arguments at once fails.

### C35 nimble.Tune ranges enumerate the documented values
*Plan.* Model Tune enumeration in Z; refuted for negative and multiply by 0/1.

*Built.* status **partial** in TuneProps.v: `C35_add_increasing`, `C35_add_decreasing`, `C35_add_wrong_direction`, `C35_multiply_increasing_partial`, `C35_multiply_decreasing_partial`, `C35_multiply_diverges_refuted`, `C35_equal_bounds_refuted`, `C35_range_partial`, `C35_descending_range_refuted`. Exact integer add ranges and positive rational multiply ranges; refuted: divergence for start<=0 or change=1, start=end, descending ranges. Floating-point rounding is not modelled.

### C36 alternateControl brackets randomness
*Plan.* State machine over abstract PRNG state.

*Built.* status **proved** in RandProps.v: `C36_block_restores`, `C36_block_transparent`, `C36_setSeed_refused`, `C36_block_reproducible`. All programs over abstract generators, with nesting, exceptions and failing seeds.

### C37 random.data has exactly the requested shape and sparsity
*Plan.* Model index sampling; exact nnz.

*Built.* status **proved** in RandProps.v: `C37_random_data`, `C37_random_full`, `C37_random_rejects`. Positions and values drawn are arbitrary (distinct positions, non-zero values); the rounding of the float product gridSize*density is not modelled.

### C38 Configuration reads see the latest write, saves persist exactly the changes
*Plan.* State machine overlay; refuted for hook.

*Built.* status **partial** in ConfProps.v: `C38_get_partial`, `C38_file_partial`, `C38_get_section_partial`, `C38_get_all_partial`, `C38_set_outcome_partial`, `C38_save_outcome_partial`, `C38_hook_called_partial`, `C38_hook_registration`, `C38_no_other_calls`, `C38_hook_refuted`, `C38_get_changes_hooks_refuted`, `C38_percent_refuted`, `C38_failed_save_refuted`. All histories of set/setDefault/saveChanges/get/hook/restart, for string values without % and files without %. Refuted: hook missed when a changed option is set back to the saved value; get() changes whether later sets call hooks; values with %% read differently after saving; a failed saveChanges leaks half-saved changes into later saves.

### C39 Log queries return the requested sessions and entries
*Plan.* Model SQL query as list function.

*Built.* status **partial** in LogProps.v: `C39_showLog_partial`, `C39_session_constant`, `C39_session_numbers_partial`, `C39_rejects`, `C39_most_inclusive_refuted`, `C39_concurrent_sessions_refuted`, `C39_number_reused_refuted`, `C39_current_session_refuted`, `C39_search_refuted`. Query semantics over all histories for search texts without LIKE wildcards; session numbering when sessions do not overlap. Refuted: mostSessionsAgo inclusive; numbers of concurrent sessions; numbers of sessions that log nothing; current session before it logged; wildcards in searchForText. Date parsing and text layout not modelled.

### C40 Error metrics are well-formed
*Plan.* Model over Q/lists.

*Built.* status **partial** in CalcProps.v: `C40_fractions`, `C40_error_metrics`, `C40_validation`, `C40_confusion_matrix_labels_given`, `C40_confusion_matrix_no_labels_partial`, `C40_confusion_unseen_label_refuted`, `C40_confusion_matrix_integer_labels`, `C40_binary_counts`, `C40_binary_ratios`. All of it proved over exact rationals, except: without given labels the confusion matrix is only built when every predicted label occurs among the known ones (refuted otherwise: ValueError). RMSE is handled through its square (the final square root is not modelled); missing values and multi-feature inputs are not modelled.

### C41 Normalisation maps into the stated range
*Plan.* Model over Q; refuted for NaN.

*Built.* status **partial** in CalcProps.v: `C41_range_normalize`, `C41_percentile_partial`, `C41_percentile_formula`, `C41_percentile_second_vector`, `C41_two_missing_refuted`, `C41_tied_minimum_refuted`, `C41_single_value_refuted`. rangeNormalize fully; percentileNormalize for any argsort order when at most one value is missing and at least two are present; refuted with two missing values, with a tied minimum looked up in the second vector, and for a single value (ZeroDivisionError). Exact rationals.

### C42 Sparse statistics equal dense statistics
*Plan.* Model over Q.

*Built.* status **proved** in CalcProps.v: `C42_mean`, `C42_variance`, `C42_proportion_zero`, `C42_minimum_maximum`, `C42_minimum_maximum_meaning`, `C42_mode`, `C42_unique_count`. mean, variance (both divisors), proportionZero, minimum, maximum, mode, uniqueCount: Sparse formula equals dense one for every vector with implicit zeros and missing values. Standard deviation is the square root of the variance (root not modelled); median/quartiles go through the dense form.

### C43 Best-performance direction is detected correctly
*Plan.* Model.

*Built.* status **proved** in CalcProps.v: `C43_direction`. For the list of scores of one trial. The randomised choice of the trials and the aggregation over trials are not modelled.

### C44 Argument merging never silently drops or overrides
*Plan.* Model dict merge.

*Built.* status **proved** in LearnProps.v: `C44_merge_arguments`. All dict pairs. Values compared with decidable equality (Python != on arrays or NaN not modelled).

### C45 Retraining keeps earlier arguments
*Plan.* State machine; refuted.

*Built.* status **partial** in LearnProps.v: `C45_retrain_arguments_used_partial`, `C45_reported_arguments_refuted`, `C45_refused_retrain_leaks_refuted`. Arguments used by each training proved for all histories without Tune values; reported arguments refuted (only the last call), and a refused retrain leaves partial updates (refuted).

### C46 Score columns carry the label they score
*Plan.* Model permutation code; refuted.

*Built.* status **proved** in LearnProps.v: `C46_score_columns`, `C46_one_vs_all_winner`, `C46_one_vs_all_scores`. Score order is np.unique(labels), as every interface sets it; scores of the backend are taken as given, one per class in that order.

### C47 One-vs-one multiclass voting is wired to the right pairs
*Plan.* Model pair enumeration and index.

*Built.* status **partial** in LearnProps.v: `C47_all_pairs_once`, `C47_ovo_training_partial`, `C47_ovo_label_column_first_refuted`, `C47_pair_score_lookup`, `C47_winning_label`. Pairs, lookup, voting proved; training alignment proved when the label column is last or all features are named, refuted otherwise.

### C48 KNN predicts a modal label among the k nearest
*Plan.* Model over Q distances.

*Built.* status **proved** in LearnProps.v: `C48_knn_prediction`, `C48_knn_scores`. Exact integer coordinates instead of floats; k >= 1 and a nonempty training set.

### C49 Splitting, collapsing and expanding features preserve every value
*Plan.* Model over strings / tables.

*Built.* status **partial** in ReshapeProps.v: `C49_split_partial`, `C49_split_reassembles`, `C49_split_total`, `C49_split_refused`, `C49_split_count`, `C49_collapse_partial`, `C49_expand_partial`, `C49_expand_clash`, `C49_expand_same_text`, `C49_round_trip_partial`, `C49_split_long_separator_refuted`, `C49_split_backwards_refuted`, `C49_split_name_taken_refuted`, `C49_collapse_types_refuted`, `C49_collapse_nothing_refuted`, `C49_collapse_default_names_refuted`, `C49_expand_position_refuted`. List objects. splitByParsing: proved for a separator, a position, a function, and lists of one-character separators and non-decreasing positions; refuted for longer separators in a list (rest of the separator stays), positions that go back, and a resulting name in use (object corrupted). Collapse: proved when numpy keeps the values (one type among retained, one among collapsed) and point names are absent or complete; refuted otherwise (1 becomes '1', True becomes 1, None_0 twice). Expand: proved when the feature of names does not stand behind all kept features, with the clash and same-text refusals; refuted for value, id, name (values lost silently). Round trip proved when the retained values tell the points apart. nan among the grouping values is not covered; the Sparse implementation is the subject of C71.

### C50 mapReduce groups every emitted pair once
*Plan.* Model over abstract mapper/reducer.

*Built.* status **partial** in MapReduceProps.v, TableProps.v: `C50_mapReduce_object_partial`, `C50_mapReduce_object_refuted`, `C50_mapReduce`, `C50_dedup_spec`. The pairs (C50_mapReduce): proved for all objects, mappers and reducers. The object made of them (List; C50_mapReduce_object_partial): proved unless the pairs read as a line of names above data, in which case the first pair becomes feature names (C50_mapReduce_object_refuted).

### C51 Display limits select a head and tail without reordering
*Plan.* Model indicesSplit, the column-by-column layout loop with its width budget, padding, and tableString; prove by a loop invariant that what is shown is a prefix and a suffix in order within the limits, and that cells line up with headers.

*Built.* status **partial** in DisplayProps.v: `C51_layout_partial`, `C51_ends_partial`, `C51_points_partial`, `C51_cut`, `C51_cut_quoted`, `C51_unnamed`, `C51_padding`, `C51_center`, `C51_tableString_partial`, `C51_never_ends_refuted`, `C51_fits_but_hidden_refuted`, `C51_range_refuted`, `C51_requests_refused_refuted`, `C51_features_number_refuted`, `C51_empty_refuted`, `C51_table_limit_refuted`, `C51_snip_refuted`, `C51_headers_overwritten_refuted`. The layout of toString (points, features, names, widths, limits), the padding of cells and tableString without a row limit, for all shapes, texts and limits; proved under guards, the failures outside them are the _refuted theorems (a loop that never ends, columns hidden although they fit, wrong points for a range, tableString with a row limit). Number formatting (formatIfNeeded) is an uninterpreted function; box characters are ASCII of the same length.

### C52 A user's call validates its arguments, internal calls do not repeat it
*Plan.* Call-tree semantics of the validation/logging flag; refuted for two nested calls.

*Built.* status **partial** in LearnProps.v: `C52_outermost_validates_partial`, `C52_second_nested_call_refuted`. Outermost call always validates, for all call trees and exceptions; exactly-once only for chains of nested calls, refuted for two nested calls.

### C53 points/features.transform and calculate apply the function exactly where asked
*Plan.* Model transform; frame.

*Built.* status **partial** in ElementsProps.v, TableProps.v: `C53_transformElements_partial`, `C53_transformElements_False_refuted`, `C53_calculateOnElements_partial`, `C53_calculateOnElements_truncates_refuted`, `C53_calculateOnElements_header_refuted`, `C53_calculateOnElements_empty_refuted`, `C53_sparse_subset_refuted`, `C53_transform_frame`, `C53_transform_accepts`, `C53_calculate_rows_partial`, `C53_calculate_names_refuted`. transform: exact frame, including the state after an exception. calculate: values and order proved; names proved unless all points are selected in a different order, which is refuted. transformElements/calculateOnElements (List, Matrix): exact frame for functions that treat 0, 0.0 and False alike and, for calculateOnElements with a one-argument function, give results of one kind, and for functions of the position, whose results do not read as a line of names above data (then the first point becomes feature names: C53_calculateOnElements_header_refuted); the unrestricted claims are refuted (False becomes 0.0, results truncated to the type of the first, empty selection means all, Sparse subset shape).

### C54 Every cross-validation run uses every fold
*Plan.* Fold iterator as a state machine over histories of validations.

*Built.* status **partial** in FoldProps.v: `C54_repeated_validations_partial`, `C54_after_failure_refuted`. Proved for histories in which no validation raises; refuted after a failure (fold index is not reset).

### C55 setSeed makes what follows reproducible
*Plan.* Abstract generators; same seed, same program, same draws.

*Built.* status **partial** in RandProps.v: `C55_setSeed_reproducible`, `C55_failed_setSeed_refuted`. Reproducibility proved; "a failing setSeed leaves the state unchanged" is refuted (pythonRandom is already reseeded when numpy rejects the seed).

### C56 matchingElements and countElements report exactly the matching elements
*Plan.* Elementwise loops over the table; exact characterisation.

*Built.* status **partial** in ElementsProps.v: `C56_matching_partial`, `C56_matching_string`, `C56_count_partial`, `C56_count_comparison`, `C56_count_false_refuted`. matchingElements proved for nonempty duplicate-free selections; countElements for every comparison query and every condition that treats 0, 0.0 and False alike; "is false" counted as 0 is refuted. DataFrame (applymap) and Sparse (preserveZeros) variants not modelled apart from the Sparse subset refutation in C53.

### C57 Stretching repeats the single point or feature along the other operand
*Plan.* Model Stretch on List objects: in-place conversion of both operands, validation, numpy broadcasting (lengths equal or one), _getOutputNames with the created / not created state of names; prove the exact outcome and the naming rule by cases on that state, the values from the zipRows lemma of C17.

*Built.* status **partial** in StretchProps.v: `C57_source`, `C57_arithmetic_partial`, `C57_left_not_numeric`, `C57_right_not_numeric`, `C57_logical_partial`, `C57_names_asked_refuted`, `C57_names_asked_both_refuted`, `C57_single_element_refuted`, `C57_operands_changed_refuted`, `C57_scalar_refuted`, `C57_empty_other_refuted`, `C57_reflected_both_refuted`. List objects, every arithmetic operator and and/or/xor, with an object on either side or with a second stretched object; numpy arithmetic on a pair of elements is a parameter. Outcome, shape, values, names, errors and the state of both operands characterised exactly under guards; outside them refuted: asking for default names makes the same call fail, a single named element raises IndexError, an object without points, a scalar gets AttributeError, both operands are converted in place (powers turn their ints into floats).

### C58 Matrix multiplication and matrix powers compute the linear algebra they name
*Plan.* Model the List product loop, the validation order and in-place conversion, matrixPower with identity, inverse and the multiplication loop; prove the element formula by induction over the running total, and associativity / power laws by algebra of finite sums over Z.

*Built.* status **proved** in MatMulProps.v: `C58_matmul`, `C58_empty`, `C58_not_numeric`, `C58_not_an_object`, `C58_in_place`, `C58_integers`, `C58_associative`, `C58_power`, `C58_power_sum`, `C58_negative_power`, `C58_singular`, `C58_not_square`, `C58_refused_changes_refuted`, `C58_empty_power_zero_refuted`. List objects; element multiplication and addition and scipy inversion are parameters. Exact outcome of @ (both orders, in place), integer matrices: product, associativity, powers, power sums; negative powers are powers of the inverse. Refuted: a refused multiplication may already have converted numeric strings in place; power 0 of a 0x0 object raises.

### C59 Arithmetic on Sparse objects computes the same elements as on dense objects
*Plan.* Reuse the coo model of C22 (entries, sort cache, val); model each operator path (union of stored positions, dense quotient, aligned data arrays for the remainder, stored-only scalars); prove val of the result pointwise, the alignment of two full sorted patterns by uniqueness of sorted enumerations, and compare with dense arithmetic.

*Built.* status **partial** in SparseArithProps.v: `C59_same_as_dense_partial`, `C59_same_as_dense_scalar_partial`, `C59_sum_difference_product`, `C59_quotient`, `C59_power`, `C59_remainder`, `C59_scalar`, `C59_scalar_zero_divisor`, `C59_shapes`, `C59_stretched_partial`, `C59_stretched_sum_partial`, `C59_remainder_of_zero_refuted`, `C59_nan_scalar_refuted`, `C59_invalid_refuted`, `C59_floor_of_rounded_refuted`, `C59_stretched_single_refuted`. Sparse with Sparse or scalar, all seven operators, plain and reflected; numpy and scipy element arithmetic are parameters, scipy sparse-sparse operations are modelled by their documented effect. Proved exactly per operator and as agreement with dense arithmetic. Refuted: the remainder fails when the left object has zeros, not-a-number and infinite scalars skip the zeros, invalid operations are not refused, floor division is the floor of a rounded quotient, one pair of stretched objects is refused. Non-Sparse objects as other operand are not modelled.

### C60 Logical operators combine truth values position by position
*Plan.* Compose the models of allValues, matchingElements and _genericBinaryOperations; prove the exact outcome from their specifications, the laws from the outcome and symmetry of the name rule.

*Built.* status **proved** in LogicProps.v: `C60_logical`, `C60_invert`, `C60_not_an_object`, `C60_commutes`, `C60_de_morgan`, `C60_double_negation`, `C60_with_itself`. List objects (the operand conversion, matchingElements, name merging and the elementwise operation); other operand a stretched object is C57. Boolean Matrix/Sparse data, which skips the conversion, not modelled. FloatOracle (float(s) gives a float) is the only assumption on parameters.

### C61 nimble.data on Python data holds exactly the given values and names
*Plan.* Model initDataObject for Python lists and dicts: name extraction, missing values, layout, axes, keep, convertToType; prove the size, names and source of each element for each kind of source, then keep, convert and rowsArePoints relative to the plain object.

*Built.* status **partial** in RawProps.v: `C61_rows_partial`, `C61_flat_partial`, `C61_dict_rows_partial`, `C61_dict_values_partial`, `C61_list_of_dicts_partial`, `C61_keep`, `C61_convert`, `C61_convert_kept`, `C61_convert_keys`, `C61_rows_as_features`, `C61_no_data_refuted`, `C61_only_header_refuted`, `C61_empty_rows_refuted`, `C61_dict_header_refuted`, `C61_dict_values_refuted`, `C61_empty_dict_refuted`, `C61_flat_names_refuted`, `C61_keep_all_refuted`, `C61_keep_turned_refuted`, `C61_callers_dict_refuted`, `C61_negative_key_refuted`. Return type List; names given as a dict not covered (rows, dicts), sources other than Python lists and dicts not modelled. The full statement is false of the code: data without elements has uninitialised elements (C61_no_data_refuted, C61_only_header_refuted, C61_empty_rows_refuted); a dict whose first list is text loses it to the header detection (C61_dict_header_refuted); dicts of values and empty dicts drop names (C61_dict_values_refuted, C61_empty_dict_refuted); featureNames=True on a flat list raises IndexError (C61_flat_names_refuted); keeping every point is refused (C61_keep_all_refuted); keepPoints with rowsArePoints=False keeps features (C61_keep_turned_refuted); the caller's convertToType dict is emptied and negative keys ignored (C61_callers_dict_refuted, C61_negative_key_refuted).

### C62 nimble.fetchFiles stores what the web serves, once, in the data directory
*Plan.* Model fileFetcher with direct urls over an abstract file system (tree of files and folders) and web; prove the location, frame, content for plain, gzip and archive files, repeated calls, failed calls and histories by induction over the calls.

*Built.* status **partial** in FetchProps.v: `C62_where`, `C62_inside`, `C62_elsewhere`, `C62_no_network`, `C62_plain`, `C62_gzip`, `C62_archive_partial`, `C62_escaping_archive`, `C62_again_partial`, `C62_failed`, `C62_history_partial`, `C62_query_refuted`, `C62_dots_refuted`, `C62_second_archive_refuted`, `C62_member_overwrites_refuted`, `C62_compressed_tar_refuted`, `C62_gzip_name_refuted`, `C62_below_refuted`, `C62_slash_refuted`, `C62_killed_refuted`. Direct urls only (uci:: and nimble:: sources not modelled); the file system is a tree of files and folders, the web a function from urls to content. The full statement is false of the code: urls that differ in the query share a file (C62_query_refuted), a url with .. is stored outside (C62_dots_refuted), a second archive with the same member names is not extracted (C62_second_archive_refuted), members overwrite fetched files (C62_member_overwrites_refuted), compressed tars raise on the second call (C62_compressed_tar_refuted), gzip data without .gz is destroyed (C62_gzip_name_refuted), urls below one another (C62_below_refuted), urls ending in / (C62_slash_refuted), a killed process leaves a partial file taken for the data (C62_killed_refuted).

### C63 Arguments reach the methods of a custom learner
*Plan.* Model signatures, inspectArguments, the merged defaults, argument validation, Python's call binding and the dicts a TrainedLearner keeps; prove which arguments are accepted, and by induction over histories of calls with outcomes what every method receives.

*Built.* status **partial** in ArgsProps.v: `C63_accepted_arguments`, `C63_train_receives`, `C63_retrain_receives`, `C63_settings_exist`, `C63_apply_receives`, `C63_incremental_receives`, `C63_apply_only_argument_refuted`, `C63_required_apply_parameter_refuted`, `C63_retrain_never_again_refuted`, `C63_incremental_never_refuted`, `C63_incremental_arguments_refuted`, `C63_scores_ignore_arguments_refuted`, `C63_default_of_apply_hides_refuted`, `C63_keyword_only_refuted`. Signatures, defaults, validation, Python call binding and the stored dicts are modelled; data, seeds, Tune values and exceptions of the learner itself are not. Proved: accepted arguments, what train/retrain/apply/incrementalTrain receive after any history with any outcomes. The full statement is false of the code: arguments of apply only cannot be given at training (C63_apply_only_argument_refuted, C63_required_apply_parameter_refuted), one such retrain disables retraining (C63_retrain_never_again_refuted), arguments block incrementalTrain (C63_incremental_never_refuted), incrementalTrain arguments are not seen by apply and retrain forgets them (C63_incremental_arguments_refuted), scores ignore arguments (C63_scores_ignore_arguments_refuted), defaults of apply hide missing train arguments (C63_default_of_apply_hides_refuted), keyword-only parameters (C63_keyword_only_refuted).

### C64 Nested nimble.Init objects are instantiated as written; parameter sets
*Plan.* Model _chooseBestParameterSet, validation and the recursion of _argumentInit over trees of Inits; prove by induction on the size of the tree that the objects are exactly the tree and that refusals are exactly the invalid trees.

*Built.* status **partial** in ArgsProps.v: `C64_parameter_sets`, `C64_last_set_wins_refuted`, `C64_init_trees`. Init trees and the choice of the parameter set are modelled for any interface (a function from names to parameter sets); calling a class builds an object from its keyword arguments. The statement about parameter sets is false of the code: the last satisfiable set is chosen and arguments that fit another one are refused (C64_last_set_wins_refuted).

### C65 Filling matched elements by a learner
*Plan.* Model fillMatching on top of matchingElements, |, isIdentical, features.fillMatching and transformElements, with the learner a function; prove the outcome for every learner and every kind of refusal. Model KNNImputation loop by loop with an abstract predictor and prove each filled element is the declaratively described answer.

*Built.* status **partial** in ImputeProps.v: `C65_fill`, `C65_exclusive`, `C65_atomic_partial`, `C65_knn`, `C65_knn_clean`, `C65_knn_determined`, `C65_knn_fill_complete`, `C65_nameless_mask_refuted`, `C65_misaligned_refuted`, `C65_half_filled_refuted`, `C65_knn_other_data_refuted`. List objects; learners are arbitrary functions that may raise. The full statement is false of the code: a match object without names is refused for an object with names (C65_nameless_mask_refuted); with a learner that drops features elements are filled from the wrong feature (C65_misaligned_refuted) or the call fails half way (C65_half_filled_refuted), so C65_atomic_partial assumes that the learner keeps the shape; KNNImputation applied to other data than it was trained on drops points and leaves missing values (C65_knn_other_data_refuted).

### C66 Reading elements of an object
*Plan.* Model __getitem__ on top of the identifier resolution and structural copies, iteration over dense rows and sorted sparse entries, and both counting paths; specify selections, windows, visits and counts declaratively and prove them for all keys, orders and storage orders.

*Built.* status **partial** in GetProps.v: `C66_getitem`, `C66_getitem_complete`, `C66_selection_unique`, `C66_single_key`, `C66_axis_item`, `C66_iterate`, `C66_iterate_total`, `C66_iterate_determined`, `C66_sparse_iterate`, `C66_sparse_iterate_total`, `C66_sparse_dense_agree`, `C66_sparse_only_zero_refuted`, `C66_count_partial`, `C66_sparse_count_partial`, `C66_count_one_element_refuted`, `C66_count_nan_refuted`, `C66_count_sparse_empty_refuted`, `C66_count_stored_zero_refuted`. Two-dimensional objects. Indexing and iteration hold in full (C66_getitem, C66_getitem_complete, C66_single_key, C66_axis_item, C66_iterate, C66_sparse_iterate). Counting is false of the code in corners: one element selected (C66_count_one_element_refuted), distinct NaN objects (C66_count_nan_refuted), no stored value of a non-numeric Sparse (C66_count_sparse_empty_refuted), an explicitly stored 0 (C66_count_stored_zero_refuted); Sparse calls `only` with 0 even without zeros (C66_sparse_only_zero_refuted).

### C67 Multiclass strategies
*Plan.* Model training one learner per label over an abstract fit function, TrainedLearners.apply for both strategies on tables, and the score conversion; specify label sets, relabelled data, first best answers, votes and pairwise wins declaratively; induction over learners, rows and votes.

*Built.* status **partial** in MultiProps.v: `C67_ova_train`, `C67_ova_train_feature`, `C67_ova_predict_partial`, `C67_ova_best_partial`, `C67_ova_all_partial`, `C67_ova_other_mode`, `C67_ovo_predict`, `C67_ovo_best`, `C67_ovo_all_partial`, `C67_format_binary`, `C67_format_ova`, `C67_format_ovo`, `C67_test_data`, `C67_ova_point_names_refuted`, `C67_label_text_refuted`, `C67_set_order_refuted`, `C67_best_label_text_refuted`, `C67_missing_label_refuted`, `C67_ovo_string_labels_refuted`. Training, OneVsOne prediction and best scores, the conversion of raw scores (for the sizes a strategy produces) and the shape check hold in full. OneVsAll results need labels with distinct texts (C67_label_text_refuted) and lose the point names (C67_ova_point_names_refuted), report the text instead of the label in bestScore (C67_best_label_text_refuted), depend on the order of a Python set when scores tie (C67_set_order_refuted), and labels read as missing are predicted as nan (C67_missing_label_refuted); OneVsOne allScores needs numeric labels (C67_ovo_string_labels_refuted).

### C68 High dimension data
*Plan.* Model creation from nested lists, the stored rows with their dimensions and each operation on them; specify regular nested lists by an inductive shape relation and the value list of a tree; induction over trees, dimensions and rows.

*Built.* status **partial** in HighProps.v: `C68_create`, `C68_create_unequal`, `C68_create_exact`, `C68_copy_array`, `C68_copy_list_partial`, `C68_shape`, `C68_point`, `C68_point_range`, `C68_sparse_point`, `C68_points_copy`, `C68_points_extract`, `C68_insert_partial`, `C68_insert_reject`, `C68_permute`, `C68_flatten`, `C68_flatten_reject`, `C68_unflatten`, `C68_unflatten_reject`, `C68_flatten_unflatten`, `C68_by_feature`, `C68_binary`, `C68_binary_reject`, `C68_ragged_refuted`, `C68_spread_refuted`, `C68_letters_refuted`, `C68_copy_list_refuted`, `C68_many_keys_refuted`, `C68_insert_refuted`. Regular nested lists, single points, ranges, copy/extract/insert/permute, flatten/unflatten and operators are proved. Irregular lists are accepted with values dropped or repeated (C68_ragged_refuted, C68_spread_refuted, C68_letters_refuted), copy to a python list converts values (C68_copy_list_partial, C68_copy_list_refuted), points[[...]] returns a two-dimensional object (C68_many_keys_refuted) and insert compares only the number of features (C68_insert_partial, C68_insert_refuted).

### C69 Data objects are independent
*Plan.* Model a memory of dimension lists with references, and programs as statement lists; the specification runs the same statements on independent values; simulation by an invariant that shared references occur only between marked objects.

*Built.* status **partial** in DimsProps.v: `C69_independent_partial`, `C69_no_operator`, `C69_consistent_partial`, `C69_consistent_holds`, `C69_private_data`, `C69_linked`, `C69_treat_as_2D`, `C69_alias_refuted`. Independence and consistent dimensions are proved for every program that does not resize in place an object linked by an operator (C69_independent_partial, C69_consistent_partial; all programs without operators: C69_no_operator), and the data of other objects is untouched in every program. The full statement is false: the result of an operator shares the list of dimensions of its left operand (C69_linked, C69_alias_refuted).

### C70 Matrix Market files
*Plan.* Model files as byte lists, the writers of the four types, the reader of names and scipy's dense reader line by line; specify files by relations (Comments, Names, Values, ByColumns); round trips by composing what the writer writes with the inductive reading relations.

*Built.* status **partial** in MtxProps.v: `C70_names_read`, `C70_dense_read`, `C70_list_round_trip_partial`, `C70_list_no_names_partial`, `C70_scipy_round_trip_partial`, `C70_scipy_no_names_partial`, `C70_load_partial`, `C70_comment_names`, `C70_keep_partial`, `C70_list_refused`, `C70_scipy_refused`, `C70_format_csv`, `C70_format_mtx`, `C70_comma_refuted`, `C70_white_refuted`, `C70_empty_refuted`, `C70_newline_refuted`, `C70_bool_refuted`, `C70_truncated_refuted`, `C70_given_refuted`, `C70_both_refuted`, `C70_columns_refuted`, `C70_format_refuted`, `C70_dot_refuted`. Round trips are proved for names without commas, line ends and trailing white space, and elements that print as numbers; reading of comments, dense bodies and formats is proved for every file. The full statement is false: C70_comma_refuted, C70_white_refuted, C70_empty_refuted, C70_newline_refuted, C70_bool_refuted, C70_truncated_refuted, C70_given_refuted, C70_both_refuted, C70_columns_refuted, C70_format_refuted, C70_dot_refuted. scipy.io.mmwrite/mmread on coordinate files are parameters, assumed to agree on the matrix saved.

### C71 Reshaping Sparse objects
*Plan.* Model the three implementations on the coo matrix (entries, data type, argsort of the listed features); prove the value at every position of the new matrix from the entries, ranks for argsort, and refinement of the dense operations of C49.

*Built.* status **partial** in SparseReshapeProps.v: `C71_split_text`, `C71_split_partial`, `C71_split_same_result`, `C71_split_refused`, `C71_collapse_partial`, `C71_collapse_does`, `C71_collapse_orders`, `C71_collapse_zero`, `C71_expand_partial`, `C71_expand_clash`, `C71_expand_same_text`, `C71_collapse_order_refuted`, `C71_collapse_kept_zero_refuted`, `C71_split_numbers_refuted`, `C71_stored_zero_refuted`, `C71_expand_unnamed_refuted`. Split: proved for text rules in objects that can hold text, and any rule when each new feature is of one type (or everything is a float); the result and the names are always those of the other types. Collapse: proved for all objects without zeros among the collapsed values, zeros last among the kept ones and an order of features that undoes itself; C71_collapse_does says exactly what happens without the last two, C71_collapse_zero that a collapsed zero is always an exception. Expand: proved for named features wherever the feature of names stands. The full statement is false: C71_collapse_order_refuted, C71_collapse_kept_zero_refuted, C71_collapse_zero, C71_split_numbers_refuted, C71_stored_zero_refuted, C71_expand_unnamed_refuted.

### C72 Copies to other formats
*Plan.* Model the four stores (list, array with dtype, frame with column dtypes, coo matrix), the resolution of the format name on characters and every branch of the four _copy_implementation methods; define what an object holds (Stands) and what a copy shows cell by cell; prove each format by relating both to the table, the round trip by composition.

*Built.* status **partial** in CopyProps.v: `C72_spelling`, `C72_unknown_format`, `C72_high_refused`, `C72_flat_format`, `C72_flat_shape`, `C72_flat`, `C72_array`, `C72_pandas_partial`, `C72_list`, `C72_list_turned_partial`, `C72_coo_partial`, `C72_compressed_partial`, `C72_compressed_text_refused`, `C72_list_of_dict_partial`, `C72_dict_of_list_partial`, `C72_nimble_partial`, `C72_there_and_back_partial`, `C72_source_partial`, `C72_source_changes`, `C72_list_turned_text_refuted`, `C72_list_turned_empty_refuted`, `C72_unnamed_lost_refuted`, `C72_csr_turned_refuted`, `C72_coo_none_refuted`, `C72_csr_mixed_refuted`, `C72_pandas_empty_refuted`, `C72_source_refuted`, `C72_sparse_empty_text_refuted`. Proved for all objects and formats with exactly the guards that the counterexamples make necessary: C72_list_turned_text_refuted, C72_list_turned_empty_refuted, C72_unnamed_lost_refuted, C72_csr_turned_refuted, C72_coo_none_refuted, C72_csr_mixed_refuted, C72_pandas_empty_refuted, C72_source_refuted, C72_sparse_empty_text_refuted. C72_source_changes says exactly what the one kind of copy that changes its object does to it. Views and the copies of objects with more than two dimensions are not covered here.

### C73 Typed storage holds the values given
*Plan.* Model numpy and pandas storage as rows with one dtype, or one per column, and a cast per element; each _implementation method becomes list surgery on rows or columns followed by casts. Define the order of dtypes and when a value fits a dtype; prove that casts of fitting values keep them, that promotion makes all old and new values fit, and compute positions for repeat, insert, flatten and collapse; transform by an invariant over the vectors already visited.

*Built.* status **partial** in TypedProps.v: `C73_take_matrix`, `C73_drop_matrix`, `C73_permute_matrix`, `C73_take_frame`, `C73_permute_frame`, `C73_drop_frame`, `C73_repeat_matrix`, `C73_repeat_frame`, `C73_insert_matrix`, `C73_insert_frame`, `C73_assign_matrix`, `C73_assign_many_partial`, `C73_assign_any_value_refuted`, `C73_replace_matrix_partial`, `C73_replace_matrix_constant_partial`, `C73_replace_frame`, `C73_replace_frame_constant`, `C73_replace_matrix_refuted`, `C73_flatten_matrix`, `C73_unflatten_matrix`, `C73_flatten_round_trip`, `C73_flatten_frame`, `C73_unflatten_frame_partial`, `C73_unflatten_frame_refuted`, `C73_transform_matrix`, `C73_transform_none_refuted`, `C73_collapse_frame_partial`, `C73_collapse_first_refuted`, `C73_expand_frame_partial`, `C73_expand_missing_refuted`. Selections, insertions, DataFrame replaceRectangle, flatten, Matrix unflatten and Matrix transform are proved without restriction. Partial where the code changes values: C73_assign_any_value_refuted, C73_replace_matrix_refuted, C73_unflatten_frame_refuted, C73_transform_none_refuted, C73_collapse_first_refuted, C73_expand_missing_refuted; the positive theorems carry exactly the guards needed (C73_assign_matrix is an equivalence). Floats are exact and integers unbounded in the model; datetimes and the transform of DataFrame objects are not modelled.

### C74 merge of Matrix objects is the relational join
*Plan.* Model Matrix._merge_implementation on the frontend of C16, with widths taken from the axes and no fill of NaN (the assignment goes to a copy). Show by induction over the left points that the merged rows are the row join of the prepared rows with the values of self; transfer to tables through the column sources of C16; the join without a fill equals the join of C16 when there is nothing to fill; merging with itself by computing joinRows and joinCols on equal names.

*Built.* status **partial** in MergeMatProps.v: `C74_join_partial`, `C74_join_filled`, `C74_with_itself`, `C74_no_sort`, `C74_union_sorted_partial`, `C74_names_required`, `C74_key_unknown`, `C74_key_not_unique`, `C74_key_index_differs`, `C74_fill_refuted`, `C74_left_on_feature_refuted`, `C74_renamed_refuted`, `C74_renamed_by_names_refuted`, `C74_failure_changes_refuted`. The join with the values of self is proved for all shapes, several matches and aliasing. Partial because the code does not fill NaN of self from other (C74_fill_refuted), swaps columns when names were set out of order (C74_renamed_refuted, C74_renamed_by_names_refuted), compares another feature in some left joins (C74_left_on_feature_refuted) and leaves a broken object when refused (C74_failure_changes_refuted).

### C75 merge of Sparse objects is the relational join
*Plan.* Model Sparse._merge_implementation on the stored entries (sorted by feature), with the key as column 0 when joining by names, and the frontend of C16. Relate the rows rebuilt from entries to the table the object stands for; show that the key entries are the points when no key is zero; show by induction over the left keys that the points built are the row join of C74; the storage built from the points holds the joined values (trailing zeros may be missing) and is a valid sparse storage.

*Built.* status **partial** in MergeSparseProps.v: `C75_join_partial`, `C75_with_itself`, `C75_names_required`, `C75_key_unknown`, `C75_key_not_unique`, `C75_key_index_differs`, `C75_zero_key_refuted`, `C75_zero_key_lost_refuted`, `C75_rest_zero_refuted`, `C75_empty_refuted`, `C75_text_refuted`, `C75_text_number_refuted`, `C75_unnamed_refuted`, `C75_unnamed_broken_refuted`, `C75_fill_refuted`, `C75_renamed_refuted`. The join with the values of self is proved for all shapes and all storage orders of numeric objects. Partial because the code loses or misplaces points whose key is zero (C75_zero_key_refuted, C75_zero_key_lost_refuted), shifts the zeros of unmatched points of other (C75_rest_zero_refuted), fails on an empty join (C75_empty_refuted) and on text (C75_text_refuted, C75_text_number_refuted), joins unnamed points with names that look like positions (C75_unnamed_refuted, C75_unnamed_broken_refuted), does not fill NaN (C75_fill_refuted) and swaps columns when names were set out of order (C75_renamed_refuted).

### C76 Regression learners and linear equations
*Plan.* Model train and apply of the two ridge learners and the solvers of linalg.py on arrays of rationals with their shape and whether they are boolean; numpy's inversion is a parameter required to return the inverse or fail on singular matrices, shown to exist by Gaussian elimination. Show that the weights satisfy the normal equations, expand the loss around them, and use the inverse for uniqueness; positive definiteness for lamb > 0; order independence from uniqueness.

*Built.* status **partial** in RidgeProps.v: `C76_inversion_exists`, `C76_ridge_minimises_partial`, `C76_ridge_trains_partial`, `C76_ridge_exact_partial`, `C76_ridge_order_partial`, `C76_ridge_predicts_partial`, `C76_multi_predicts_partial`, `C76_multi_same_partial`, `C76_solve`, `C76_least_squares`, `C76_solve_passes_on`, `C76_solve_not_square`, `C76_solve_not_vector`, `C76_solve_incompatible_partial`, `C76_inverse`, `C76_inverse_not_square`, `C76_booleans_refuted`, `C76_solution_shape_refuted`, `C76_single_element_refuted`. Proved over exact rationals for all numeric data, given an inversion (solving) routine that inverts (solves); such routines are constructed (C76_inversion_exists, C76_example_solver). Partial because features that are all booleans are multiplied with and/or (C76_booleans_refuted), the solution is a point even if b is a feature (C76_solution_shape_refuted) and a single element b of the wrong size raises ValueError (C76_single_element_refuted).

### C77 Objects made from sparse matrices
*Plan.* Model removeDuplicatesNative, extractNamesFromScipySparse, the replacement and conversion of stored values on lists of entries, str() and float() of text as parameters. Show by induction that the entries kept hold the sums; that the dicts of names are the header cells in order with the missing key '0' filled in; compare with the theorem for nested lists (C61) through a specification of the header and the elements shared by both.

*Built.* status **partial** in FromSparseProps.v: `C77_duplicates_summed`, `C77_duplicates_text_refused`, `C77_sparse_source_partial`, `C77_same_as_list_partial`, `C77_coo_source_partial`, `C77_convert_partial`, `C77_text_first_refuted`, `C77_repeated_names_refuted`, `C77_zero_name_refuted`, `C77_single_row_refuted`, `C77_zero_missing_refuted`, `C77_zero_replacement_refuted`, `C77_convert_zeros_refuted`. Proved for all matrices of entries (numbers where positions repeat), against what the nested list gives (C77_same_as_list_partial). Partial because the full statement is false: repeated feature names are renamed (C77_repeated_names_refuted), a zero among the point names is refused if feature names are in the data too (C77_zero_name_refuted), a single row of text is taken for names (C77_single_row_refuted), zeros that are not stored are neither replaced nor converted (C77_zero_missing_refuted, C77_convert_zeros_refuted), zeros made are stored (C77_zero_replacement_refuted), and text before a number at a position raises TypeError (C77_text_first_refuted).

### C78 Learning functions on the caller's objects
*Plan.* Model the functions as programs on a store of objects passed by reference, the learner (fit, predict, scores) and the performance function as parameters. Relate labels inside the data to the pair of objects extract makes (C05); then evaluate each program symbolically by cases on the arguments and show that the store only grows.

*Built.* status **partial** in WorkProps.v: `C78_train`, `C78_apply`, `C78_test`, `C78_train_and_apply`, `C78_train_and_test`, `C78_training_data`, `C78_normalize_partial`, `C78_retrain_partial`, `C78_performance_checked`, `C78_normalize_labels_refuted`, `C78_strategy_case_refuted`, `C78_mode_case_refuted`, `C78_test_labels_alone_refuted`, `C78_retrain_names_refuted`. Proved in full for train, apply, test, trainAndApply, trainAndTest, trainAndTestOnTrainingData and the checks of performance functions, for all learners and performance functions as parameters, without tuning and the strategies OneVsAll and OneVsOne (C67). Partial because the full statement is false: normalizeData with labels named by an identifier never succeeds (C78_normalize_labels_refuted), retrain keeps the names of the first labels (C78_retrain_names_refuted), strategies and score modes in another case pass the check and are ignored or refused later (C78_strategy_case_refuted, C78_mode_case_refuted), and labels to test with are not accepted without data to test with (C78_test_labels_alone_refuted).

### C79 Replacing points and features
*Plan.* Model the front end (data object, turning of vectors, names, locations) around the loop of single transforms of TableOps.v. Invariant of the loop: vectors at earlier locations hold their last assignment. For a Matrix array, the loop over C73's transform with a function that returns the vector.

*Built.* status **partial** in ReplaceProps.v: `C79_replace_partial`, `C79_accepts`, `C79_everything`, `C79_matrix`, `C79_column_refuted`, `C79_names_ignored_refuted`. Proved in full for what the code does, for all inputs of two dimensions. Partial because the statement is false in two respects: raw data for an object with one feature (point) is turned and then refused (C79_column_refuted), and the names of data with as many points as the object are not followed (C79_names_ignored_refuted).

### C80 Similarities and statistics of points and features
*Plan.* Model the cleaning of names, the choice of the function, the table of statistics (over TableOps.calculate), the two paths of _nanCovCorr (vectorised; loop over i <= j writing both cells) and dot products through C58. Both paths are related to one specification of covariance (Sxy - SxSy/n over the shared positions); bounds by Cauchy-Schwarz, proved from sums of squares.

*Built.* status **partial** in SimStatProps.v: `C80_statistics`, `C80_grouped`, `C80_similarities_partial`, `C80_unreadable`, `C80_refused`, `C80_symmetric`, `C80_diagonal`, `C80_correlation_bounds`, `C80_nothing_over_zero`, `C80_dot_product`, `C80_count_refuted`, `C80_no_elements_refuted`, `C80_dot_changes_refuted`. Proved for all inputs (exact numbers; np.std is a parameter, exact where the bounds need it). Partial because the statement is false in three respects: 'count' is accepted and then raises ValueError (C80_count_refuted), covariances of vectors without elements are 0 instead of missing (C80_no_elements_refuted), and asking for dot products changes strings in the object (C80_dot_changes_refuted).

### C81 Transforming Sparse objects
*Plan.* Model the stored entries and their dtype. Axis transform: build the new entries from the vectors, choose the type (newDt), cast all; shown to denote the dense result. transformElements keeping zeros: a loop over the stored data with modifyNumpyArrayValue, by an invariant relating data position by position to the original entries; otherwise calculateOnElements of C53 over the dense table with the wrapper function, and _referenceFrom. Specification: Shows x t (object x shows table t).

*Built.* status **partial** in StransProps.v: `C81_transform`, `C81_transform_empty`, `C81_transformElements_zeros_partial`, `C81_transformElements_bool_refuted`, `C81_transformElements_partial`, `C81_transformElements_none_refuted`, `C81_transformElements_header_refuted`, `C81_transform_numbers`, `C81_transformElements_zeros_numbers`. points.transform and features.transform in full. transformElements is partial because the statement is false in three respects: integers stored in an object of type bool become True (C81_transformElements_bool_refuted), None results of functions that do not keep zeros leave the element (C81_transformElements_none_refuted), and results that read as names lose the first point (C81_transformElements_header_refuted). The element type after a transformElements that does not keep zeros is not modelled.

### C82 calculateOnElements of Sparse objects
*Plan.* Model the stored entries with their dtype (C81), numpy.vectorize over the stored data (C53), the selection of stored entries, and nimble.data on a coo_matrix (C77). Show that an object whose first element is no text is given no names, that the coo_matrix built from the results has one entry per position, and combine C77 (duplicates_summed), the cell-wise description of vectorize and the readings of stored positions. Without preserveZeros the dense table shown is unique, so C53 applies.

*Built.* status **partial** in CalcSparseProps.v: `C82_calculateOnElements_zeros_partial`, `C82_calculateOnElements_partial`, `C82_calculateOnElements_one_axis`, `C82_calculateOnElements_subset_partial`, `C82_calculateOnElements_subset_refuted`, `C82_calculateOnElements_zero_subset_refuted`, `C82_calculateOnElements_truncates_refuted`. Proved for preserveZeros over the whole object and for everything without preserveZeros. The statement is false for preserveZeros with points and features given: the results keep their original positions and the shape is cut at the last of them (C82_calculateOnElements_subset_refuted), nothing but zeros selected is a ValueError (C82_calculateOnElements_zero_subset_refuted), and one of the two without the other is a TypeError (C82_calculateOnElements_one_axis). What holds with points and features given is C82_calculateOnElements_subset_partial. Results of more than one kind are truncated (C82_calculateOnElements_truncates_refuted).

### C83 features.normalize replaces exactly the features asked for
*Plan.* Model normalize over transform (C53): the checks, the identifiers, and the loop that writes feature j of both objects. Describe features as lists of elements by position; show transform with a constant function and one index writes that feature, and keep over the loop that the features before j are what the function made of the original ones and the others are untouched.

*Built.* status **partial** in NormProps.v, NormRangeProps.v: `C83_normalize_self`, `C83_normalize_self_accepts`, `C83_normalize_both_partial`, `C83_normalize_both_accepts_partial`, `C83_normalize_refuses`, `C83_normalize_unknown`, `C83_normalize_index_refuted`, `C83_normalize_name_refuted`, `C83_normalize_names_refuted`, `C83_normalize_range_partial`. Proved for the calling object alone, and with applyResultTo for all features or a list of identifiers. The statement is false with applyResultTo for a single identifier, which is documented: an index raises TypeError (C83_normalize_index_refuted) and a name is taken letter by letter (C83_normalize_name_refuted). Whether names contradict each other depends on earlier failed lookups (C83_normalize_names_refuted).

### C84 calculate.residuals is what a linear regression leaves
*Plan.* Model residuals over the arrays of C76: the checks, the feature of ones, one least squares problem per feature, and the difference with the names of toPredict. The least errors carry over from the routine; orthogonality by moving the weights a little along one control variable (a quadratic in the step that is never negative has no linear term); uniqueness from orthogonality of the difference.

*Built.* status **proved** in ResidProps.v: `C84_residuals`, `C84_residuals_orthogonal`, `C84_residuals_exact`, `C84_residuals_determined`, `C84_residuals_accepts`, `C84_residuals_refuses`. Exact rationals for floats; scipy.linalg.lstsq is a parameter of which the least squares property is required, used one column after the other (a routine that meets it is given, lsq_least). Text that reads as a number is converted (floatOf); objects with missing values are not followed.

### C85 features.report lists the statistics of every feature
*Plan.* Model the loop that numbers the names (Counter and the dict of what remains), the loop over the statistics that keeps the quartiles, and the object made of the rows. The numbering by an invariant (what remains is the count in the rest of the list); the kept quartiles by an invariant of the cache; distinct labels by injectivity of the suffix.

*Built.* status **proved** in ReportProps.v: `C85_report`, `C85_report_accepts`, `C85_report_labels`, `C85_report_refuses`, `C85_report_names_refuted`. nimble.calculate's functions are parameters that read the elements of the feature; dtypes=False. The condition that names have no parenthesis is needed: C85_report_names_refuted gives functions called f, f and 'f (0)', for which the numbering makes a label twice and the report fails. Objects without features are not followed.

## Where the code departs from its documentation
One line per `_refuted` theorem; the witness is in the statement.

* `C01_names_bijection_refuted_dict` (NamesProps.v) — C01 is false in full: a dict giving two names to one index is accepted and leaves two names that both resolve to index 0.
* `C01_names_bijection_refuted_rename` (NamesProps.v) — C01 is false in full: renaming two points to one name is accepted; the first point then still reports its old name, which no longer resolves.
* `C03_getIndex_float_refuted` (NamesProps.v) — C03 is false in full: an integral float beyond the axis is "resolved".
* `C04_mixed_mask_refuted` (NamesProps.v) — a "mask" with extra non-boolean entries is accepted, and shifts positions
* `C04_reverse_slice_refuted` (NamesProps.v) — the reversing slice [::-1] selects nothing on two or more points
* `C08_insert_into_empty_refuted` (TableProps.v) — an insertion at index 0 of an empty axis is rejected although appending works
* `C08_partial_names_refuted` (TableProps.v) — objects whose partially given feature names agree cannot be combined
* `C09_repeat_partial_names_refuted` (TableProps.v) — repeat of a partially named axis fails
* `C11_unique_empty_vectors_refuted` (TableProps.v)
* `C11_unique_marker_refuted` (TableProps.v) — Missing from C11: (1) with at least one duplicate, stored missing markers are rewritten, so the result holds a row the source does not (norm maps the marker 0 to 9 here); (2) without elements nothing is deduplicated only when the axis has vectors of length zero.
* `C12_flatten_atomic_refuted` (FlatProps.v) — (3) When two joined names coincide flatten raises - after the data has already been reshaped, so the object is left inconsistent.
* `C12_names_round_trip_refuted_bar` (FlatProps.v) — C12 is false for names in full. (1) A point name that does not contain the delimiter but ends in " |" is split in the wrong place.
* `C12_names_round_trip_refuted_lost` (FlatProps.v) — (2) Names of a partly named axis, and of a 1 x 1 object, are lost.
* `C14_empty_test_set_refuted` (PrepProps.v) — C14 is false of the code when the test set is empty: with testFraction 0 and the label column named "y", the label column stays in trainX and trainY has no features (base.py:1706-1712).
* `C15_binary_failure_not_atomic_refuted` (EncodeProps.v) — C15 is not atomic: when the feature has no name but another one has, the call raises after the feature has been removed from the object (base.py:572 runs before 585).
* `C15_sparse_zero_category_refuted` (EncodeProps.v) — C15 is false of Sparse: in the column [0; 5; 0] the point 0 (value 0) gets no 1 in any of the new columns (sparse.py:784-797).
* `C16_empty_refuted` (MergeProps.v) — other without points
* `C16_failure_changes_refuted` (MergeProps.v) — a merge by point names that is refused has already changed self
* `C16_left_on_feature_refuted` (MergeProps.v)
* `C16_refill_refuted` (MergeProps.v) — NaN in a shared feature and two matches: the first match fills self, the second then seems to disagree
* `C16_renamed_refuted` (MergeProps.v)
* `C16_sort_index_refuted` (MergeProps.v)
* `C16_sort_index_zero_refuted` (MergeProps.v)
* `C16_strict_failure_names_refuted` (StrictProps.v) — A forced merge that fails leaves self with the names made up for the merge.
* `C16_strict_force_overrides_refuted` (StrictProps.v) — Forced, with names that differ at a position both have named: instead of the refusal the error message announces, the features are taken together and the name of other is dropped.
* `C16_with_itself_refuted` (MergeProps.v) — a.merge(a) by point names: the rows of other have changed under way
* `C17_position_refuted` (BinOpProps.v) — An element of a sum depends on elements at other positions: numpy adds two arrays of bools as a logical or, two arrays of Python objects as numbers.
* `C17_refused_inplace_refuted` (BinOpProps.v) — An in-place call that is refused has already turned the numeric strings of self into numbers.
* `C18_point_names_refuted` (BinOpProps.v)
* `C18_truncates_refuted` (BinOpProps.v) — Missing (BoolsAndFloats): the array has Python objects, numpy.vectorize takes the type of the first result, abs(-2.5) becomes 2.
* `C19_nested_escape_refuted` (ViewProps.v) — ... and a view of a view can show what lies outside the first view.
* `C19_nested_names_refuted` (ViewProps.v) — The restriction to non-negative in-view indices is needed: a view of a view looks identifiers up in the SOURCE and then shifts them.
* `C19_sparse_live_refuted` (ViewProps.v)
* `C20_matrix_setitem_refuted` (ViewProps.v) — Matrix: item assignment through a view changes the source.
* `C21_rectangle_default_end_refuted` (ViewProps.v) — The two restrictions of C21_rectangle_object_partial are needed: with featureEnd left out a replacement of one point and two features makes one point LONGER; one that sticks out below is accepted, overwrites the points it meets and then fails.
* `C21_rectangle_overflow_refuted` (ViewProps.v)
* `C21_setitem_keys_refuted` (ViewProps.v) — Keys that mix a single identifier with several, or that select a whole axis, are documented but raise a TypeError (the object is unchanged).
* `C21_setitem_partial_write_refuted` (ViewProps.v) — A rejected item assignment may have changed some elements: float identifiers are not range checked, so the error comes from the write.
* `C21_sparse_rectangle_refuted` (ViewProps.v) — When every nonzero element lies above the rectangle the call fails.
* `C22_stale_cache_refuted` (SparseProps.v) — The full claim is false: reading an element fills the index cache; a zero preserving in-place operation (sparse.py:179, 1186-1206) or a rectangle of zeros (sparse.py:604-611) then removes entries without resetting it, and the next read returns another element's value.
* `C24_isIdentical_across_types_refuted` (SparseProps.v) — ...but a copy to another type never is, although the documentation says "Return True if all values and names ... match".
* `C25_csv_names_refuted` (CsvProps.v) — names the user gives are lost or replaced: (1) a list of point names is dropped when featureNames=False; (2) both lists are dropped for a file with one line; (3) with a blank first cell the names of the file replace the list, also (4) with pointNames=False; (5) a list of feature names takes the first column away and names the points; (6) a dict with a position out of range or negative is refused with IndexError or TypeError; (7) a header with a repeated name is accepted; (8) a list shorter than the file names the points 'a', 'l', 'l', or (9) is refused with IndexError
* `C26_csv_keep_refuted` (CsvProps.v) — requests that are not honoured: (1) with possible point names that repeat, the last feature stays text; (2) an index one beyond the features of an unnamed file gives IndexError; (3) all features of an unnamed file in another order, (4) two unnamed features of a file with a header, by index, are refused; (5) a point name that occurs twice together with an unknown one gives TypeError; (6) a point name found by the automatic names is refused, its index gives the name
* `C27_csv_row_order_refuted` (CsvProps.v) — with a blank entry first a numeric feature stays text: the types depend on the order of the lines
* `C28_save_load_refuted` (CsvTextProps.v) — objects that do not come back: (1) a cell that starts with a double quote swallows the rest of the file; (2) a cell with a line end is split into two points, or (3) the file cannot be loaded; (4) an empty line inside a quoted cell disappears; (5) some names missing: the file cannot be written (TypeError); (6) a first name that starts with # makes the header a comment and the first point the header; (7) a point whose only cell is empty disappears; (8) an unnamed last feature of empty cells disappears
* `C29_element_value_refuted` (QueryProps.v) — elementwise, a value containing " is " is rejected, and text after a newline is dropped
* `C29_is_in_name_refuted` (QueryProps.v) — nor one whose name contains " is " when the value happens to hold "is "
* `C29_operator_in_name_refuted` (QueryProps.v) — a feature whose name contains a padded operator cannot be queried
* `C31_limitTo_name_refuted` (FillProps.v)
* `C31_limitTo_order_refuted` (FillProps.v) — Refutation: with a boolean object and the vectors listed out of order, the wrong mask is used: an unmatched cell changes and a matched cell does not.
* `C33_nan_first_refuted` (FoldProps.v)
* `C34_iterative_picks_worse_refuted` (TuneProps.v)
* `C34_iterative_position_lost_refuted` (TuneProps.v)
* `C34_second_loop_skips_candidate_refuted` (TuneProps.v)
* `C34_single_value_ends_search_refuted` (TuneProps.v) — Refuted without the length guard: a Tune with a single value ends the whole search; the candidates of the later argument "c" are never tested.
* `C35_descending_range_refuted` (TuneProps.v) — ... but a descending range gets two extra values below its stop
* `C35_equal_bounds_refuted` (TuneProps.v) — Refuted: start = end is not a one-element range but an UnboundLocalError
* `C35_multiply_diverges_refuted` (TuneProps.v) — Refuted: for the accepted arguments below construction never ends -- in particular for the default start 0
* `C38_failed_save_refuted` (ConfProps.v) — C38 refuted without [plain]: a saveChanges that raises (here for the value "50%") leaves other changes half saved: a later saveChanges(section, option) of a third option writes them to the file too.
* `C38_get_changes_hooks_refuted` (ConfProps.v) — C38 refuted: calling get(), or printing the settings, decides whether a later set calls the hook.
* `C38_hook_refuted` (ConfProps.v) — C38 refuted, hooks: "called when the value is changed" fails when a changed option is set back to the value in the file: the change is silent.
* `C38_percent_refuted` (ConfProps.v) — C38 refuted without [plain]: a value containing '%%' is read back as it was set until it is saved, and differently afterwards.
* `C39_concurrent_sessions_refuted` (LogProps.v) — C39 refuted: two sessions open at the same time get the same number.
* `C39_current_session_refuted` (LogProps.v)
* `C39_most_inclusive_refuted` (LogProps.v) — C39 refuted: mostSessionsAgo is documented as included, but is excluded: entries from exactly that many sessions ago are not shown, and leastSessionsAgo = mostSessionsAgo, which is accepted, shows nothing.
* `C39_number_reused_refuted` (LogProps.v) — C39 refuted: a session that only reads the log gives its number to the next one; and before it has logged anything, "0 sessions ago" is the session before it.
* `C39_search_refuted` (LogProps.v) — C39 refuted without [noWildcard]: searchForText "a_b" also finds "axb".
* `C40_confusion_unseen_label_refuted` (CalcProps.v)
* `C41_single_value_refuted` (CalcProps.v) — a single value (or one value and one missing) divides by zero
* `C41_tied_minimum_refuted` (CalcProps.v) — a tied minimum has a positive percentile in the first vector and 0 in the second
* `C41_two_missing_refuted` (CalcProps.v) — with two missing values the largest value does not get percentile 1
* `C45_refused_retrain_leaks_refuted` (LearnProps.v) — Refuted: a refused retrain (a Tune value) leaves the values that precede it in the argument dict behind, and the next retrain trains with them.
* `C45_reported_arguments_refuted` (LearnProps.v) — Refuted: the reported arguments are those of the last call only, although the training used the earlier ones as well.
* `C47_ovo_label_column_first_refuted` (LearnProps.v) — Refuted without the guard: label in column 0 of unnamed data. After the first pair the label column has moved, and feature values are taken for labels.
* `C49_collapse_default_names_refuted` (ReshapeProps.v) — Points that have no names but whose names were asked for once: refused (two points called None_0), after the data have changed.
* `C49_collapse_nothing_refuted` (ReshapeProps.v) — Collapsing no features deletes every point.
* `C49_collapse_types_refuted` (ReshapeProps.v) — Collapsing changes values that are not collapsed: a number next to text becomes text, True next to a number becomes 1.
* `C49_expand_position_refuted` (ReshapeProps.v) — The feature of names is the last of value, id, name: the ids are written over the place of the first name and the values of the last name are lost, without an error; with value and name alone there is an exception.
* `C49_split_backwards_refuted` (ReshapeProps.v) — Positions that go back: characters are repeated, nothing is refused.
* `C49_split_long_separator_refuted` (ReshapeProps.v) — A list with a separator of more than one character: only its first character is skipped, the rest stays in the next piece.
* `C49_split_name_taken_refuted` (ReshapeProps.v) — A resulting name that is in use: refused, but the data have been split and the names no longer fit the features.
* `C50_mapReduce_object_refuted` (MapReduceProps.v) — Missing: a key and a value that are texts, above a pair with a number, become the names of the features.
* `C51_empty_refuted` (DisplayProps.v) — str() of an object without points, or without features
* `C51_features_number_refuted` (DisplayProps.v) — A number of features: the first ones are shown, without a placeholder, not a head and a tail
* `C51_fits_but_hidden_refuted` (DisplayProps.v) — Two columns of one digit need four characters; with room for four neither is shown
* `C51_headers_overwritten_refuted` (DisplayProps.v) — The list of headers given by the caller has its entries replaced by the padded ones
* `C51_never_ends_refuted` (DisplayProps.v) — One feature, two characters wide, and two characters too few: the loop does not end (base.py:5838: at the only column the four characters kept for a placeholder are given back at every turn)
* `C51_range_refuted` (DisplayProps.v) — A range of points that does not begin at 0: point 0 is shown, which was not asked for, and none of the others
* `C51_requests_refused_refuted` (DisplayProps.v) — One point of several, an empty range, a range past the end
* `C51_snip_refuted` (DisplayProps.v) — and the place of the mark for left out rows cuts off all rows behind it
* `C51_table_limit_refuted` (DisplayProps.v) — tableString: whenever rows have to be dropped to meet the limit it raises instead
* `C52_second_nested_call_refuted` (LearnProps.v) — Refuted: the second of two nested calls takes itself for a user call.
* `C53_calculateOnElements_empty_refuted` (ElementsProps.v) — Missing (nonempty selections): an empty list of points selects all points.
* `C53_calculateOnElements_header_refuted` (ElementsProps.v) — Missing (LikeHeader): when the results for the first point are texts and one for the second is a number, the first point is taken for the names of the features: the result has a point less.
* `C53_calculateOnElements_truncates_refuted` (ElementsProps.v) — Missing (OneKind): numpy.vectorize takes the type of the first result, later ones are truncated to it.
* `C53_calculate_names_refuted` (TableProps.v) — Missing: selecting all points in another order labels the results with the names in their original order.
* `C53_sparse_subset_refuted` (ElementsProps.v) — Sparse with preserveZeros on a subset: the result keeps the positions of the source, so it has the wrong shape; with only one of points and features given the call fails.
* `C53_transformElements_False_refuted` (ElementsProps.v) — Missing (ZeroUniform): a function that maps 0 to 0 is not called for False (or 0.0) either, the element becomes 0.0.
* `C54_after_failure_refuted` (FoldProps.v) — Refuted in general: when the learner fails in fold 0, the next validation with the same validator silently skips that fold.
* `C55_failed_setSeed_refuted` (RandProps.v) — C55 refuted: a setSeed that raises (a negative seed) has already reseeded one of the two sources.
* `C56_count_false_refuted` (ElementsProps.v) — Missing (uniform on zeros): a condition false for 0 is taken to be false for False too, so "is false" counts nothing.
* `C57_empty_other_refuted` (StretchProps.v) — Objects without points: the result has no points, but gets the name of the stretched point.
* `C57_names_asked_both_refuted` (StretchProps.v) — NamesReady, second part: of two stretched objects.
* `C57_names_asked_refuted` (StretchProps.v) — NamesReady: asking for the names of the stretched point makes the same call fail.
* `C57_operands_changed_refuted` (StretchProps.v) — Both operands are converted in place: a power turns the ints of both objects into floats for good.
* `C57_reflected_both_refuted` (StretchProps.v) — Explicit reflected call with two stretched objects.
* `C57_scalar_refuted` (StretchProps.v) — A number as the other operand gets an AttributeError from arithmetic where the code means to refuse it with ImproperObjectAction, as the logical operators do.
* `C57_single_element_refuted` (StretchProps.v) — SingleElementReady: one named element with a named feature fails with an internal error.
* `C58_empty_power_zero_refuted` (MatMulProps.v) — The power 0 of an object without points and features is refused although its power 1 is not.
* `C58_refused_changes_refuted` (MatMulProps.v) — A multiplication that is refused can still have changed the object: its numeric strings are floats afterwards.
* `C59_floor_of_rounded_refuted` (SparseArithProps.v)
* `C59_invalid_refuted` (SparseArithProps.v) — numpy refuses inf - inf; between Sparse objects it is not-a-number.
* `C59_nan_scalar_refuted` (SparseArithProps.v) — Multiplied by not-a-number, the zeros of a Sparse object stay zeros; in a dense object every element becomes not-a-number. Multiplied by infinity, numpy refuses 0 * inf and Sparse does not.
* `C59_remainder_of_zero_refuted` (SparseArithProps.v) — The remainder of two Sparse objects raises as soon as the left one has a zero, although every element has a remainder.
* `C59_stretched_single_refuted` (SparseArithProps.v) — Two stretched Sparse objects, a single element and a point of two: refused, although the other order is not.
* `C61_callers_dict_refuted` (RawProps.v) — The caller's dict for convertToType comes back without the items used.
* `C61_dict_header_refuted` (RawProps.v) — A dict of lists whose first list is text: with featureNames left automatic that list becomes the names of the features, and the key has no row.
* `C61_dict_values_refuted` (RawProps.v) — A dict of values: names given for the features are dropped, even too many.
* `C61_empty_dict_refuted` (RawProps.v) — An empty dict drops the names given.
* `C61_empty_rows_refuted` (RawProps.v)
* `C61_flat_names_refuted` (RawProps.v) — featureNames=True with a flat list: an IndexError, for every list.
* `C61_keep_all_refuted` (RawProps.v) — keepPoints naming every point, to reorder them, is refused, if the names were given and not found in the data.
* `C61_keep_turned_refuted` (RawProps.v) — keepPoints with rowsArePoints=False keeps features.
* `C61_negative_key_refuted` (RawProps.v) — A negative index in that dict is accepted and converts nothing.
* `C61_no_data_refuted` (RawProps.v) — Data without elements, but with names: the elements are whatever np.empty finds in memory.
* `C61_only_header_refuted` (RawProps.v)
* `C62_below_refuted` (FetchProps.v) — A url below another one: whichever comes second fails.
* `C62_compressed_tar_refuted` (FetchProps.v) — A compressed tar: the first call returns the file, every later call raises.
* `C62_dots_refuted` (FetchProps.v) — A url with '..' is stored outside the data directory.
* `C62_gzip_name_refuted` (FetchProps.v) — gzip data without the extension .gz is destroyed.
* `C62_killed_refuted` (FetchProps.v) — A process killed while it writes leaves an empty (or partial) file, which all later calls take for the data.
* `C62_member_overwrites_refuted` (FetchProps.v) — A member of an archive replaces the file fetched from another url.
* `C62_query_refuted` (FetchProps.v) — Two urls that differ in the query (or scheme, or fragment) are one file: the second call returns what the first one fetched.
* `C62_second_archive_refuted` (FetchProps.v) — A second archive in the same place with the same member names: the members of the first one are returned for it.
* `C62_slash_refuted` (FetchProps.v) — A url that ends in '/' is never fetched: the first call leaves a directory, later calls say that nothing can be downloaded.
* `C63_apply_only_argument_refuted` (ArgsProps.v) — Refuted: an argument of apply only (documented as to be used "during training and application") cannot be given at training: whatever the learner, the call never trains.
* `C63_default_of_apply_hides_refuted` (ArgsProps.v) — Refuted: arguments are accepted although the train method needs one of them, because apply has a default for a parameter of that name.
* `C63_incremental_arguments_refuted` (ArgsProps.v) — Refuted: arguments given to incrementalTrain are not used by apply, and the arguments that retrain keeps for training are lost for incrementalTrain.
* `C63_incremental_never_refuted` (ArgsProps.v) — Refuted: an argument that training got and incrementalTrain does not have (or an unknown one once given to incrementalTrain) makes every later incrementalTrain fail.
* `C63_keyword_only_refuted` (ArgsProps.v) — Refuted: a keyword-only parameter without a default makes a learner untrainable: nimble does not know the name, and Python requires it.
* `C63_required_apply_parameter_refuted` (ArgsProps.v) — Refuted: a learner whose apply method alone has a parameter without a default cannot be trained at all.
* `C63_retrain_never_again_refuted` (ArgsProps.v) — Refuted: after one retrain with an argument of apply only (it is accepted, then the training fails), no later retrain trains, whatever happens in between.
* `C63_scores_ignore_arguments_refuted` (ArgsProps.v) — Refuted: the arguments of a call of getScores, or of apply with a scoreMode, do not reach the scores, nor do the stored ones: the scores are those for the defaults, next to labels for the arguments.
* `C64_last_set_wins_refuted` (ArgsProps.v) — Refuted: arguments that fit one of the parameter sets are refused when a later set has nothing missing either, even though it does not know them.
* `C65_half_filled_refuted` (ImputeProps.v) — Refutation: and if the result lacks a position the call raises after some elements have been filled.
* `C65_knn_other_data_refuted` (ImputeProps.v) — Refutation: applied to other data than it was trained on, KNNImputation looks for missing values where the training data had them: it drops the points beyond the training data and leaves missing values in place.
* `C65_misaligned_refuted` (ImputeProps.v) — Refutation: with a learner whose result lacks a feature (as an imputer that drops features without any value), matched elements are filled from the wrong feature.
* `C65_nameless_mask_refuted` (ImputeProps.v) — Refutation: a boolean object without names marks all missing values of an object with names, and is refused: the check compares names too.
* `C66_count_nan_refuted` (GetProps.v) — Refutation: NaN objects that are not the same object are counted apart in data of no numeric type.
* `C66_count_one_element_refuted` (GetProps.v) — Refutation: selecting one element is an AttributeError.
* `C66_count_sparse_empty_refuted` (GetProps.v) — Refutation: a Sparse object of no numeric type without stored values (for instance all False) cannot be counted.
* `C66_count_stored_zero_refuted` (GetProps.v) — Refutation: explicitly stored zeros (here two of them) disappear from the counts: only the one position that is not stored is counted.
* `C66_sparse_only_zero_refuted` (GetProps.v) — Refutation: a Sparse object calls [only] with 0 even if it contains no 0, so an [only] that accepts every element may still raise.
* `C67_best_label_text_refuted` (MultiProps.v) — bestScore reports the text of the label where the prediction has the label itself.
* `C67_label_text_refuted` (MultiProps.v) — Labels that differ but read the same (1 and "1") train, and then every prediction fails.
* `C67_missing_label_refuted` (MultiProps.v) — A label nimble.data takes for a missing value ("NA") is predicted as nan.
* `C67_ova_point_names_refuted` (MultiProps.v) — OneVsAll predictions have lost the names of the points, which OneVsOne keeps.
* `C67_ovo_string_labels_refuted` (MultiProps.v) — OneVsOne allScores needs numbers as labels, although predicting works.
* `C67_set_order_refuted` (MultiProps.v) — With equal scores the prediction depends on the order of the set of labels, which for strings changes from run to run.
* `C68_copy_list_refuted` (HighProps.v) — copy('python list') should return the nested list the object holds. With numbers beside strings the numbers come back as strings; with integers beside floats or booleans they change their type.
* `C68_insert_refuted` (HighProps.v) — Appending should be refused when the dimensions differ ("Cannot perform points.append operation when data has different dimensions"). Only the numbers of features are compared: 2 x 3 sublists are appended to 3 x 2 ones and read back regrouped.
* `C68_letters_refuted` (HighProps.v) — A string beside a list is taken apart into its letters instead of being refused.
* `C68_many_keys_refuted` (HighProps.v) — points[[i, ...]] should select the same sublists as points.copy([i, ...]). It returns a two-dimensional object.
* `C68_ragged_refuted` (HighProps.v) — Every accepted nested list should be regular. Only the lengths along the first elements are compared, so a list whose later sublists are shorter is accepted; the object then reports dimensions its data does not have, and copying it to an array fails.
* `C68_spread_refuted` (HighProps.v) — The values stored should be the values given. A later point with a single value is spread over all its elements.
* `C69_alias_refuted` (DimsProps.v) — An operation should change only the object it is called on. After c = a + b, extracting a point from c makes a report one point fewer: a's reported dimensions are no longer those of its data.
* `C70_bool_refuted` (MtxProps.v) — Booleans and text are written, although the first line promises real numbers: the file cannot be loaded.
* `C70_both_refuted` (MtxProps.v) — pointNames=True on a file that has names of points: the first column is taken out of the data and thrown away.
* `C70_columns_refuted` (MtxProps.v) — rowsArePoints=False should load the transposed object with its names: the names stay on their axes, so that a file that is not square is refused, and in a square one they name the wrong things.
* `C70_comma_refuted` (MtxProps.v) — A name with a comma is written as two names: the file cannot be loaded.
* `C70_dot_refuted` (MtxProps.v) — A file called .mtx is saved as csv and loaded as Matrix Market.
* `C70_empty_refuted` (MtxProps.v) — A single empty name is lost.
* `C70_format_refuted` (MtxProps.v) — A format given by the caller is used for saving, the extension for loading: a Matrix Market file in x.csv is handed to the csv reader as bytes, a csv file in x.mtx to the Matrix Market reader as text.
* `C70_given_refuted` (MtxProps.v) — The names the caller gives should be used: a file with names overrides them, without a word.
* `C70_newline_refuted` (MtxProps.v) — A name with a line end ends the comments: the file cannot be loaded.
* `C70_truncated_refuted` (MtxProps.v) — A save that is refused should leave the file alone: a List object has already overwritten it with an unfinished file.
* `C70_white_refuted` (MtxProps.v) — White space at the end of the last name is lost.
* `C71_collapse_kept_zero_refuted` (SparseReshapeProps.v) — A zero among the values kept: the values after it move one feature to the left.
* `C71_collapse_order_refuted` (SparseReshapeProps.v) — Features in the order b, c, a: every value stands next to another feature's name.
* `C71_expand_unnamed_refuted` (SparseReshapeProps.v) — Without feature names and with the feature of names last: an exception after the data have changed.
* `C71_split_numbers_refuted` (SparseReshapeProps.v) — An object of numbers whose feature is split into text by a function: the numbers of the other features become text.
* `C71_stored_zero_refuted` (SparseReshapeProps.v) — Zeros are stored: by expanding, and by splitting with a function that returns one. The object's own rule (no stored zeros) no longer holds.
* `C72_coo_none_refuted` (CopyProps.v) — A coo matrix reads 0 where the object has None or an empty text.
* `C72_csr_mixed_refuted` (CopyProps.v) — Booleans beside numbers: the List object refuses what the Matrix object does.
* `C72_csr_turned_refuted` (CopyProps.v) — rowsArePoints=False: asked for csr, given csc.
* `C72_list_turned_empty_refuted` (CopyProps.v) — Without points the transposed list has no rows, although there are features.
* `C72_list_turned_text_refuted` (CopyProps.v) — rowsArePoints=False turns the numbers beside a text into text.
* `C72_pandas_empty_refuted` (CopyProps.v) — An empty List object loses its names in a pandas DataFrame.
* `C72_source_refuted` (CopyProps.v) — Copying a Matrix object to Sparse changes the Matrix object.
* `C72_sparse_empty_text_refuted` (CopyProps.v) — A text that is empty reads 0 in a Sparse copy.
* `C72_unnamed_lost_refuted` (CopyProps.v) — Two unnamed features: one value is lost.
* `C73_assign_any_value_refuted` (TypedProps.v) — A value that the type has not is changed without a word: 1.5 in a Matrix of integers becomes 1, 5 in a Matrix of booleans True.
* `C73_collapse_first_refuted` (TypedProps.v) — Collapsing the first features of a DataFrame of integers raises a ValueError, when the data have been replaced already; in a DataFrame of booleans every feature name becomes True.
* `C73_expand_missing_refuted` (TypedProps.v) — With integers the missing combination is a ValueError, with booleans True.
* `C73_replace_matrix_refuted` (TypedProps.v) — Not so in a Matrix of integers: replaceRectangle(2.5, ...) stores 2, and NaN an arbitrary integer.
* `C73_transform_none_refuted` (TypedProps.v) — What None becomes depends on what was returned before: with the points in the other order, the same point holds NaN.
* `C73_unflatten_frame_refuted` (TypedProps.v) — unflatten((3, 2), order='feature') on a DataFrame: the type of the first feature is taken from its first two elements, 2.5 becomes 2.
* `C74_failure_changes_refuted` (MergeMatProps.v) — a merge by point names that is refused has already changed self
* `C74_fill_refuted` (MergeMatProps.v) — NaN of self in a shared feature is not filled from the matching point of other, although the values do not disagree (a List object fills it)
* `C74_left_on_feature_refuted` (MergeMatProps.v) — a 'left' join of the features on a feature that comes after one that other does not have: another feature of self is compared
* `C74_renamed_by_names_refuted` (MergeMatProps.v) — and by point names too
* `C74_renamed_refuted` (MergeMatProps.v) — feature names set out of order: an 'intersection' labels the values with each other's names
* `C75_empty_refuted` (MergeSparseProps.v) — no matching points: instead of an object without points, an AttributeError
* `C75_fill_refuted` (MergeSparseProps.v) — NaN of self in a shared feature is not filled from the matching point
* `C75_renamed_refuted` (MergeSparseProps.v) — feature names set out of order: an 'intersection' labels the values with each other's names
* `C75_rest_zero_refuted` (MergeSparseProps.v) — a point of other without a match: its value 8 of feature z is shown as y
* `C75_text_number_refuted` (MergeSparseProps.v) — and text that reads as a number becomes that number
* `C75_text_refuted` (MergeSparseProps.v) — text is refused after the join has been found
* `C75_unnamed_broken_refuted` (MergeSparseProps.v) — or the merge is refused when self has been changed: one point, two names
* `C75_unnamed_refuted` (MergeSparseProps.v)
* `C75_zero_key_lost_refuted` (MergeSparseProps.v) — without a match a point of self is lost
* `C75_zero_key_refuted` (MergeSparseProps.v) — the first key is zero and not stored, so the second key is taken for that of the first point: matching points are said to have different values
* `C76_booleans_refuted` (RidgeProps.v) — Features that are all booleans: numpy multiplies arrays of booleans with "and" and "or", so two points that are True count as one, and the weight is twice the best one. As numbers 1 the same data is learned correctly.
* `C76_single_element_refuted` (RidgeProps.v) — a single element b that does not fit is not recognised: scipy raises a ValueError
* `C76_solution_shape_refuted` (RidgeProps.v) — "Shape of xObj matches bObj": the solution is a point although b is a feature
* `C77_convert_zeros_refuted` (FromSparseProps.v) — Converting leaves the zeros that are not stored as they are (numbers among text), and stores the zeros it makes.
* `C77_repeated_names_refuted` (FromSparseProps.v) — Feature names must differ, and a nested list with two equal ones is refused. Here one is silently renamed.
* `C77_single_row_refuted` (FromSparseProps.v) — A single row of text is data in a nested list (there is no row of numbers below it); here it is taken for the names.
* `C77_text_first_refuted` (FromSparseProps.v) — Text before a number at the same position raises TypeError, not the exception (ValueError) raised for text after a number.
* `C77_zero_missing_refuted` (FromSparseProps.v) — treatAsMissing=[0] leaves the zeros that are not stored.
* `C77_zero_name_refuted` (FromSparseProps.v) — A point may have the name 0 if only the points have names in the data, but not if the features have them too.
* `C77_zero_replacement_refuted` (FromSparseProps.v) — replaceMissingWith=0 stores zeros: the matrix is no longer one of entries that are not zero.
* `C78_mode_case_refuted` (WorkProps.v) — A scoreMode written in another case ('BESTSCORE') passes the check, and every such call fails after the learner has been trained.
* `C78_normalize_labels_refuted` (WorkProps.v) — normalizeData takes the labels out of a copy to train, and then applies the learner to the data that still has them: with labels named by an identifier it never succeeds, whatever the data and the learner.
* `C78_retrain_names_refuted` (WorkProps.v) — After training again with labels named 'kind', the answers are still named after the labels of the first training.
* `C78_strategy_case_refuted` (WorkProps.v) — A strategy written in another case ('onevsall') passes the check, which lowers it, and then has no effect: the call trains what it trains without it.
* `C78_test_labels_alone_refuted` (WorkProps.v) — Leaving out [testX] means the training data, but not if [testY] is an object: the check of the two asks None for its points.
* `C79_column_refuted` (ReplaceProps.v) — *** An object with one feature cannot be given its points as a list, array or the like (nor one with one point its features): the column is taken for a row.
* `C79_names_ignored_refuted` (ReplaceProps.v)
* `C80_count_refuted` (SimStatProps.v) — "count" is listed as an accepted statistic and raises an undocumented exception.
* `C80_dot_changes_refuted` (SimStatProps.v) — Asking for dot products changes the object: its strings become numbers.
* `C80_no_elements_refuted` (SimStatProps.v) — The covariances of vectors without elements are 0, not missing.
* `C81_transformElements_bool_refuted` (StransProps.v) — An integer given for an element of an object of type bool is stored as True.
* `C81_transformElements_header_refuted` (StransProps.v) — When the results for the first point are texts and those for the second are not, the first point is taken for names and is lost.
* `C81_transformElements_none_refuted` (StransProps.v) — A function that gives None where zeros are not kept leaves the element as it was, although None results are not to be skipped.
* `C82_calculateOnElements_subset_refuted` (CalcSparseProps.v) — But the results keep the positions of the original and the shape ends at the last of them: a selection of one element gives a 2 x 1 object whose first point is zero.
* `C82_calculateOnElements_truncates_refuted` (CalcSparseProps.v) — Results of more than one kind are cast to the kind of the first stored one.
* `C82_calculateOnElements_zero_subset_refuted` (CalcSparseProps.v) — and when everything selected is zero there is nothing to compute with, which is an error
* `C83_normalize_index_refuted` (NormProps.v) — One identifier, documented, raises TypeError with a second object, and is accepted without one.
* `C83_normalize_name_refuted` (NormProps.v) — One name, documented, is taken letter by letter: asked for the feature "ab", the features "a" and "b" are normalized and "ab" is not.
* `C83_normalize_names_refuted` (NormProps.v) — Names that were never given are no contradiction, until some feature of that object is looked for by a name (the lookup fails and leaves default names): the same call on an object that shows the same is then refused.
* `C85_report_names_refuted` (ReportProps.v) — REFUTED without the condition on the names: numbering can make a label that is already there, and then there is no report although everything could be computed.

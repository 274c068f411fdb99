# A Rocq model of rmera/boo

Source: `/repo` (Go). Model and proofs: `/verif/rocq/theories`. Property list: `properties.jsonl`
(C01...). Status per property: `MANIFEST.json`. Seeded-bug log: `seeded/LOG.jsonl`.

## Conventions of the model

* **Panics.** A Go function that can panic returns `res A := Ok a | Panic | Diverge`. Slice indexing,
  slicing, nil dereference and explicit `panic` are modelled by `Panic`. `Diverge` is "fuel exhausted" and
  only occurs in loops whose termination is not structural (random fold drawing, float-stepped loops).
* **Integers.** Go `int`/`uint` are unbounded `Z`. No property depends on 64-bit wrap-around; the one conversion
  `int(float64)` is modelled as on amd64 (truncation; `-2^63` when out of range or NaN).
* **float64.** `f64 := binary_float 53 1024` of Flocq (`BinarySingleNaN`), i.e. IEEE-754 binary64, round to
  nearest even, one NaN. `+ - * /` and comparisons are the IEEE operations. Go may fuse `x*y+z` on some
  architectures; the model is the amd64 behaviour (no fusion). `Fma.v` (C146) has the prediction and the gain with fused operations;
  the other places where a compiler can fuse are the steps of cv/grad.go (lines 82-90, 143-154, 307), modelled without only.
* **Generic formulas.** Small numeric formulas (leaf value, gains, softmax, losses) are written once over a record
  `num` of operations, instantiated with `f64` (what the program computes) and with `R` (exact arithmetic). The
  exact-arithmetic theorems are about the very same definitions.
* **External code** (not in /repo) is a record `Env` of functions, and theorems quantify over every `Env`
  satisfying the stated spec (`EnvOk`): `sort.Sort` (any permutation; sorted if `Less` is a strict weak order on the
  elements; stability is not assumed), `floats.Sum` (any association/order of additions), `math.Exp`, `math.Log`.
  A concrete `Env` satisfying the spec is exhibited (`env0`, `env0_ok`). `encoding/json` is a codec record with the
  laws `CodecOk` (`JsonCodec.v` exhibits one; `GoJson.v` is a model of `encoding/json` itself, written from the behaviour of Go 1.22
  since its source is not in /repo, and `c152_codec` shows that it meets `CodecOk`), `strconv.ParseFloat` a `parser` with `ParserOk`, `encoding/csv` a reader with
  `ReaderOk`; instances of both are exhibited (`ReadersNum.v`, `ReadersCsv.v`). `CsvReader.v` is a model of the reader of
  `encoding/csv` itself, quotes included; `c141_reader` shows that it meets `ReaderOk`.
* **Randomness** is an explicit stream of draws, universally quantified.
  Chances (C161, C162) are numbers of sequences of draws with an effect among all sequences; the draws being independent and equally
  likely, and rand.Float64 returning k/2^53, is a reading of the documentation of math/rand, outside the model.
* **Goroutines** are state machines over explicit steps; theorems quantify over all schedules.
* **Aliasing** is modelled only where a property is about it (an explicit store of option records, explicit
  shared buffers, a heap of slices for the confusion matrices).
* **Refuted expectations.** Where the code does not do what its documentation or a user would expect, the theorem is about
  what it does, and a theorem ending in `_refuted` gives a concrete counterexample to the expectation.

## Layout of the proofs

`Spec*.v` hold the vocabulary of the statements and do not use the helpers of the model beyond its data types. `Props*.v` hold
the property theorems, one-line proofs from lemmas, an example `cNN_nonvacuous` that meets the hypotheses for each property, and
`Print Assumptions`. All the other files are model (first table below) or proof support.

## Plan per property

| property | what is modelled | how it is proved |
|---|---|---|
| C01-C07, C10-C12, C15 | `NewTree`, `maybeInsertChildNode`, `findBetterSplit`, `PredictSingle` over f64 | induction on depth with an inversion lemma for one `NewTree` step; invariants of the scan loop |
| C08, C09 | threshold computation on f64 | Flocq rounding lemmas (monotonicity of rounding) + counting on sorted lists; witness by `vm_compute` |
| C13, C14, C24, C25, C40, C65 | generic formulas at `R` | real algebra (field/nra), induction on lists |
| C16, C18-C22, C80 | utils functions | list induction |
| C17, C75, C63 | explicit store / buffers threaded through calls | direct computation, witnesses |
| C23, C26, C27, C37 | f64 formulas | Flocq rounding lemmas, for every summation tree |
| C28-C32, C34, C81, C82 | `NewMultiClass` as a fold over rounds and classes with explicit state | loop invariants |
| C33 | `SubSample` | list induction |
| C35, C36, C38, C39 | `MultiClass` accessors | list induction |
| C41-C47, C83 | JSON writer/reader at line level over strings, JSON codec as a record with laws | induction on trees / rounds / lines |
| C48-C54, C84 | `CrossValidationSamples` with random stream | invariants of the drawing loop |
| C55-C58, C85, C86 | Grid: sequential semantics and a small-step machine of workers and collector | invariants over schedules, confluence |
| C59-C65, C87-C94 | `ParamaterGradStep`, `GradStep`, `GradientGrid`, `HybridGradientGrid` | case analysis, trace semantics, witnesses |
| C66, C67 | `Options` | direct |
| C68-C71 | `Feats`, `idGiver` sequential and interleaved | invariants over schedules |
| C72-C75, C95 | `Confusions` | list induction, sort spec |
| C76-C79, C96, C97 | text readers and writers over byte strings | induction on lines |
| C98-C100 | training, cross-validation | totality: every indexing is in range, every node has samples on both sides |
| C101-C106 | pairs of runs of `NewTree` and `NewMultiClass` | simulation: equal states or states related node by node |
| C107-C110 | printed descriptions (`Print`, `String`) | text lemmas, injectivity by parsing back |
| C111, C112, C116 | `writeBest` alone and during the searches, bufio buffer and file as explicit state | simulation with the search that does not save |
| C117 | pairs of runs (SpecInv) | a second scan of equal gains finds nothing better |
| C118, C119, C120 | trees as NewTree leaves them, leaf updates of the training loop | induction over the grown tree; real arithmetic (C118), magnitude bounds (C119) |
| C121 | the training loop with leaf updates, SoftMax, Accuracy | invariant on the scores of every training row over the rounds, rounding bounds, accurate exponential as hypothesis |
| C122 | pairs of runs of `NewMultiClass` | equality of every step under related options |
| C123 | `NewTree`, `NewMultiClass` | induction on grown trees with the sample counts on both sides of a split |
| C124 | `NewSlice`, `Swap`, `sort.Float64Slice` | induction on programs over Less and Swap; invariant: every value sits next to its index |
| C125 | `OHEKeys`, `oneHotEncodeDense` | transport of the encoder of int labels along an injective numbering of the names |
| C126 | `JSONNode.String` | injectivity of the printed form field by field |
| C127 | `ParseLibSVMFromReader`, `svmliberror` | induction on the complete lines |
| C128 | `NewTree`, `findBetterSplit` | the candidates of a node depend only on the multiset of its samples; exact sums of multiples of a power of two |
| C129 | `FeatureImportance`, `PredictSingle` | the report covers every split feature; equal comparisons give equal paths |
| C130 | `Accuracy` | counting by groups of rows with equal predictions |
| C131 | `JSONMultiClass`, `UnJSONMultiClass` | induction on the cycles over C43 |
| C132 | `NewTree`, `PredictSingle` | every threshold lies between two training values, strictly below the larger |
| C133 | `PredictSingle`, `SoftMax` | adding zeros changes no score but by NaN; equal or NaN probabilities |
| C134 | `SoftMax` | monotonicity of rounding, case analysis on infinities |
| C135 | `NewTree`, `findBetterSplit` | induction on the scan, monotonicity of rounding; counterexamples by computation |
| C136 | `PredictMC`, `rawScores`, `SoftMax` | error analysis of sums and products; shares of accurate exponentials |
| C137 | `JSONMultiClass`, `UnJSONMultiClass` | induction on rounds and trees |
| C138 | `Grid`, `MultiClassCrossValidation` | each float addition advances by half a step; then C100 for every combination |
| C139 | `ParamaterGradStep`, `GradStep` | induction on the trials; signs of float operations |
| C140 | `GradientGrid`, `HybridGradientGrid`, `GradStep`, `fuzzOptions` | invariant on the option records; bounds on the numbers of evaluations and steps |
| C141 | `csv.Reader` as `ParseCSVFromReader` sets it up | invariant on the lines still to be read; induction on fields and records |
| C142 | `CSV`, `DataBunchFromCSVFile` | parsing of the header with the reader of C141; splitting at separators |
| C143 | `NewTree`, `NewMultiClass`, `PredictSingle` on two tables | the candidates of the two tables correspond; without ties the first best one is the same; then induction over nodes, classes and rounds |
| C144 | `NewTree`, `NewMultiClass` on tables with NaN | a scan of no samples panics, so an empty node must be on the last level; the candidates of a NaN column have NaN thresholds; witnesses by computation |
| C145 | `NewMultiClass`, `MultiClass.PredictSingle` with one label | the probability of the only class is 1, so gradients and hessians are 0 in every round (induction over the history); GB leaves are 0/0 |
| C146 | `MultiClass.PredictSingle`, `PredictSingleClass`, the XGB gain with `Bfma` of Flocq | one rounding in the place of two in the error analysis of C136; halving is exact; witnesses by computation |
| C147 | `examples/basicboost.go`, `DefaultOptions`, `DefaultGridOptions` | composition of C76/C98/C138/C140; the ranges of the grids are computed, the rest is by induction |
| C148 | `NewMultiClass`, `Accuracy` with lists of labels of another length | the buffers of the two trainings agree on the rows (induction over rounds and classes); witnesses by computation |
| C149 | `GradStep` from its first line to its return, as a machine over a store of option records and an output channel | invariant over all executions; simulation of the machine of C61 |
| C150 | `CrossValidationSamples` with rows as positions in a memory | invariant over calls and arbitrary writes in between; the folds are those of C48 |
| C151 | `json.Unmarshal` for a node and for the metadata: scanner, strings, numbers, fields | the parser is equivalent to the grammar of RFC 8259 given as a relation; fields by induction on the members; numbers by Flocq's rounding |
| C152 | `json.Marshal` for a node and for the metadata, the text of a float64 | the text is derived in the grammar; composition with C151; C43 for this codec |
| C153 | `UnJSONMultiClass` on two files that agree line by line | induction on the lines and on the depth of the trees |
| C154 | `Confusions` with its slices as arrays in memory, written by the program between the calls | invariant over calls and arbitrary writes; the first call computes what C72 says of the labels in memory then |
| C155 | goroutines that call PredictSingle, PredictSingleClass and Accuracy on one model; reads of `predtmp` give anything | invariant: each goroutine's remaining count gives its sequential result; measure for termination |
| C156 | losses and activations entry by entry on arrays in memory, any of the arguments being the destination | invariant of the loops: what is ahead in the arguments is still the old contents |
| C157-C160 | the model of training, cross-validation and the searches with the list of printed and logged lines beside the result | the result is that of the model without output, by induction over the loops; the lines by an invariant over the lines so far |
| C161, C162 | `SubSample`, `CrossValidationSamples` applied to all sequences of N draws from a finite list of values | counting: products over rows (C161); a bijection of the sequences by renaming rows (C162), double counting for the shares |
| C163 | `fuzz`, `fuzzOptions` | real arithmetic; rounding bounds for the float64 version |
| C113-C115 | the same f64 formulas as C13, C23, C26 | forward error analysis with Flocq, for every order of the additions |
| C164 | `PredictSingleClass`, `Accuracy`, `MultiClassCrossValidation`, `CrossValidationSamples` | membership of labels in first occurrences; counting of words |
| C165 | `NewMultiClass`, `NewTree`, `updateLeaves`, `SQErrLoss` | every partial sum of n gradients is at most n and the hessians add up to n exactly; induction over the history |
| C166 | `PredictSingle` of trees and models, `findBetterSplit` | thresholds are half-way points of neighbours in the node, and the row is in the node |
| C167 | `NewMultiClass`, `SoftMaxDense`, `Options.Check`, `PredictSingleClass`, `Accuracy` | scores of all rows are BaseScore or NaN, the quotient in the softmax is NaN; induction over the history |
| C168 | `NewMultiClass`, `SubSample` | counting of words; the trained rounds are those with enough selected rows |
| C169 | `SubSample`, `NewTree` | counting of words; the optimality theorem of splits at the root |

## Trusted base

* Coq 8.16.1 kernel (`vm_compute` included; `native_compute` is not used).
* Axioms: what `Print Assumptions` lists under each theorem in the `Props*.v` files, tabulated at the end of this file. They are
  axioms of the standard library only: `ClassicalDedekindReals.sig_forall_dec`, `ClassicalDedekindReals.sig_not_dec`,
  `FunctionalExtensionality.functional_extensionality_dep`, `Classical_Prop.classic` (all through `Reals` and Flocq).
* The reading of the Go source into the model (comments cite files and lines) and the laws assumed of external code above.

## What is modelled

| code in /repo | model |
|---|---|
| tree.go: TreeOptions, DefaultGTreeOptions, DefaultXTreeOptions, clone, NewTree, maybeInsertChildNode, findBetterSplit, Branches, Leaf, Predict, PredictSingle | `Tree.v` |
| tree.go: feature, Print; Feats.String; options.go: String; utils/math.go: PrintDenseMatrix | `Print.v` |
| tree.go: Feats, NewFeats, Add, Merge, Len/Less/Swap, FeatureImportance; multiclass.go: FeatureImportance; utils/json.go: idGiver | `Feats.v` (sequential, and interleaved machines) |
| options.go: Options, DefaultXOptions, DefaultGOptions, DefaultOptions, Equal, Clone, Check | `Options.v` |
| xgb.go: NewMultiClass, LogOddsFromProbs, ClassesFromProbs, SubSample; multiclass.go: all | `Train.v`; predictions by several goroutines, `PredConc.v`; output, `Verbose.v` |
| xgb.go: updateLeaves, applyToLeafs | `Tree.v` |
| xjson.go: all; utils/json.go: JSONTree, UnJSONTree | `Json.v`; the text of the lines, `GoJson.v` |
| utils/math.go: SampleMatrix, SampleSlice, idSorter, MemArgSort, ArgSort, TransposeFloats, DenseCol, AddToCol, ToOnes | `Utils.v` |
| utils/loss_acti.go: all | `Utils.v`; with arguments and destinations in memory, `LossMem.v` |
| utils/libsvm.go: DataBunch, OHELabels, distinctElements, oneHotEncodeDense | `Utils.v` |
| utils/libsvm.go: getithLabel, String, LibSVM, parseLibSVMLine, DataBunchFromLibSVMFile, ParseLibSVMFromReader | `Readers.v` |
| utils/csv.go: CSV, DataBunchFromCSVFile, recordsToData, ParseCSVFromReader | `Readers.v` |
| utils/stat.go: all | `CV.v`; with rows in memory, `CVShare.v` |
| cv/cv.go: MultiClassCrossValidation | `CV.v` (values), `GridConc.v` (channel operations), `Verbose.v` (output) |
| cv/cv.go: GridOptions, Clone, DefaultGGridOptions, DefaultXGridOptions, DefaultGridOptions, Grid, rescueConcValues | `Grid.v` (sequential), `GridConc.v` (goroutines), `Verbose.v` (output) |
| cv/cv.go: writeBest; xjson.go: JSONMultiClass writing to a bufio.Writer | `Save.v` (grid search), `SaveGrad.v` (gradient searches) |
| cv/grad.go: all; cv/hybrid.go: all | `Grad.v` (sequential), `GradConc.v` (goroutines of GradStep), `GradOut.v` (GradStep with an output channel) |
| confu/confu.go: MakeSimpleNameMap, MCConfusions, Matrix, PrintTopN, TopNPerLabel, TopNForLabelM, idSorter, memIntSort | `Confu.v`; with the slices in memory, `ConfuShare.v` |
| confu/confu.go: ReadNameMap | `Readers.v` |
| utils/sorter.go: all; utils/json.go: JSONNode.String; utils/libsvm.go: OHEKeys, svmliberror and the errors of ParseLibSVMFromReader | `Misc.v` |
| examples/basicboost.go: main | `Main.v` |

### Simplifications

* Memory exhaustion, stack overflow (deeply nested trees in a model file) and `int` overflow are not modelled.
* Loss functions are pure functions on slices; a loss object is identified by its name.
* The contents of scratch buffers are not threaded through `NewTree` when a theorem (C18) shows the result does not depend on them.
* Rows of a `DataBunch` are values, except in `CVShare.v` (C150), where they are positions in a memory of rows; slices that
  overlap in part are not modelled. Nothing in the library writes to a row.
* Matrices that are views of parts of other matrices, and empty matrices as destinations, are not modelled.
* Printed and logged lines are outputs of separate versions of training, cross-validation and the searches (`Verbose.v`, C157-C160);
  the date and time in front of logged lines, and what the concurrent evaluations inside `Grid` log (in any order), are not modelled.
  The other files model the functions without their output; C157-C160 prove that the results are the same.
* Feats: unlocked reads of a slice in `Add` are atomic steps.
* Writing a model in `Json.v`: a failed `WriteString`'s partial output is not recorded (in `Save.v` it is).
* `GoJson.v`: the limit of 10000 nested arrays and objects, the ranges of 64-bit integers and the limit on the exponents of
  numbers with more than 10000 digits are not modelled; a null element of an array that replaces an earlier array of the same
  field is 0. The text of a float64 is a parameter `fmt` with the law `FmtOk` (a JSON number that reads back as the same float);
  `GoFmt.v` has an instance.
* Grid: a worker that panics inside a complete batch ends the program; evaluations are placed where results are collected;
  panics of left-over workers are not modelled. Every job has its own arbitrary but fixed random stream.
* GradStep machine: the shared record is cloned in one step and the evaluation belongs to that step. `GradConc.v` is the part
  without the `out` channel; `GradOut.v` adds the channel, the first cross-validation and the return.
* Confusion matrices: sorting and reversing a buffer are single writes; writes of the user to
  the labels, to the returned matrix and to returned lists are modelled in `ConfuShare.v` only, where every slice is an array in
  memory; assigning other slices to the exported fields, or to the rows of the returned matrix, is not modelled.
* Readers: a reader is its text plus a flag for how it ends; `csv.Reader` is assumed to behave on quote-free text
  only (`CsvReader.v` is a model of it that includes quotes); of the error texts only those of C127 are modelled; opening a file is
  an option.

## What is not modelled

* tree.go: debug (prints when Debug is set).
* utils/libsvm.go: the commented-out DataBunchFromLibCSVFile. utils/csv.go: csverror (not used by the library).
* examples/basicboost.go: the formatting of its output. The tests.

## Files

| file | content |
|---|---|
| `Base.v` | Go-level basics: results of code that can panic, slice indexing, monadic loops |
| `F64.v` | float64 (IEEE-754 binary64, round to nearest even) and the record of numeric operations over which the formulas of the library are written once |
| `F64Lemmas.v` | Order and rounding facts about float64 (proof support; no model content) |
| `Env.v` | Code that is called by /repo but lives outside it (Go standard library, gonum) |
| `EnvLemmas.v` | Facts about [is_sum] and satisfiability of [EnvOk] (proof support) |
| `Utils.v` | Model of utils/math.go, utils/loss_acti.go and the one-hot encoder of utils/libsvm.go |
| `Tree.v` | Model of tree.go (construction and prediction of a single tree) |
| `Spec.v` | Specification vocabulary, independent of the model's helper functions |
| `UtilsProofs.v` | Proofs about utils/math.go (proof support) |
| `TreeProofs.v` | Proofs about tree construction and prediction (proof support) |
| `TreeSplit.v` | Proofs about the choice of splits (proof support) |
| `TreeMid.v` | Thresholds, child sizes and absence of panics (proof support) |
| `Examples.v` | Concrete inputs used to show that theorem hypotheses are satisfiable, and to witness refutations |
| `TreeThms.v` | Assembly of the tree theorems from the lemmas (proof support) |
| `UtilsThms.v` | Proof support for the properties of the utils package (C18-C22, C80) |
| `RealProofs.v` | Exact-arithmetic facts about the formulas of the library, instantiated at [RN] (proof support for C13, C14, C24, C25, C26, C27) |
| `ActProofs.v` | Float64 facts about SoftMax, Normalization and the losses (proof support for C23, C25, C26, C27) |
| `Options.v` | Model of options.go |
| `Train.v` | Model of xgb.go and multiclass.go: training an ensemble and predicting with it |
| `SpecTrain.v` | Specification vocabulary for training and ensemble prediction |
| `TrainProofs.v` | Proofs about training and ensemble prediction |
| `TrainThms.v` | Lemmas behind the property theorems on training and ensemble prediction (C28-C40) |
| `TrainSteps.v` | Each training step fits a tree to the current predictions and records the loss after it (C29, C32, C81) |
| `TrainMore.v` | Lemmas behind C29-C40, C66 and C67 |
| `TrainEx.v` | Options (C66, C67) and concrete training runs |
| `Text.v` | Byte strings and the functions of bufio and strings that the library calls on them |
| `Feats.v` | Model of the feature-importance part of tree.go and multiclass.go, and of utils/json.go's idGiver |
| `SpecFeats.v` | Specification vocabulary for feature importance and ids |
| `FeatsThms.v` | Proofs about feature importance and ids (C68-C71) |
| `FeatsConc.v` | Interleaved idGiver.Next and Feats.Add (C69, C71), and trained trees have two children per inner node (C70) |
| `Json.v` | Model of xjson.go and utils/json.go: writing and reading models |
| `SpecJson.v` | Specification vocabulary for saving and loading |
| `JsonProofs.v` | Proofs about saving and loading (C41-C46, C83) |
| `JsonCodec.v` | A concrete codec that meets [CodecOk], so that the theorems about saved models are not vacuous |
| `JsonMore.v` | Saving and loading: the statements of C41-C47 and C83, and concrete runs |
| `CV.v` | Model of utils/stat.go and of MultiClassCrossValidation in cv/cv.go |
| `SpecCV.v` | Specification vocabulary for cross-validation |
| `CVProofs.v` | Proofs about cross-validation (C48-C54, C84) |
| `CVEx.v` | Concrete cases for cross-validation |
| `Grid.v` | Model of the grid search in cv/cv.go |
| `SpecGrid.v` | Specification vocabulary for the grid search |
| `GridProofs.v` | Proofs about the grid search (C55, C56, C58, C85) |
| `GridConc.v` | The goroutines of the grid search: cv/cv.go:158-259 and the channel operations of cv/cv.go:15-52 |
| `GridConcProofs.v` | Every interleaving of the grid search gives the sequential result (C57, C86) |
| `GridEx.v` | Concrete cases for the grid search |
| `Grad.v` | Model of cv/grad.go and cv/hybrid.go |
| `GradConc.v` | The goroutines of GradStep, cv/grad.go:173-203 with a nil output channel |
| `SpecGrad.v` | Specification vocabulary for the gradient searches |
| `GradProofs.v` | Proofs about the parameter steps and GradStep |
| `GradConcProofs.v` | Proofs about the interleavings of GradStep |
| `GradMore.v` | The statements about GradStep in terms of its parameters |
| `GradSearch.v` | Proofs about GradientGrid and HybridGradientGrid |
| `GradNum.v` | Floating point facts about the gradient steps |
| `GradTot.v` | Totality of the gradient steps, and zero parameters |
| `GradEx.v` | Concrete cases for the gradient searches |
| `Confu.v` | Model of confu/confu.go: confusion matrices |
| `SpecConfu.v` | Specification vocabulary for confusion matrices (C72-C75, C95) |
| `ConfuProofs.v` | Confusion matrices: the matrix and its margins |
| `ConfuMore.v` | Confusion matrices: the calls of a program, aliasing of the returned slices, printing |
| `ConfuEx.v` | Examples of confusion matrices: the model of TrainEx on rows labelled 7, 7, 6 |
| `Readers.v` | Model of the text formats: utils/libsvm.go, utils/csv.go and ReadNameMap of confu/confu.go |
| `CsvReader.v` | Model of the library's csv.Reader as utils/csv.go:103-122 uses it: Comma set, TrimLeadingSpace, everything else left at its default |
| `SpecReaders.v` | Specification vocabulary for the text formats |
| `ReadersProofs.v` | Lemmas on the text formats: words, lines, the LibSVM reader |
| `ReadersNum.v` | Printing and reading numbers: lemmas, and a float parser that satisfies [ParserOk] |
| `ReadersMore.v` | The round trip through the LibSVM text, the CSV records and text, the name files |
| `ReadersCsv.v` | CSV records, the round trip through the CSV text, and the name files |
| `ReadersEx.v` | Concrete cases for the text formats |
| `SpecCsv.v` | Specification vocabulary for CSV files with quoted fields |
| `CsvProofs.v` | The model of csv.Reader: it does what is assumed of it on texts without quotes, and it reads quoted fields |
| `CsvQuote.v` | Quoted fields |
| `CsvKeys.v` | Keys with separators, quotes and line ends in them |
| `CsvEx.v` | Cases of the CSV theorems |
| `PropsCsv.v` | CSV files with quotes, and keys that need them: C141, C142 |
| `PropsTree.v` | Property theorems about NewTree and Tree prediction (C01-C12, C15-C17) |
| `PropsUtils.v` | Property theorems about the utils package: C18-C23, C25-C27 (float64) and C80 |
| `PropsReal.v` | Exact-arithmetic property theorems: C13, C14, C24 and the exact parts of C25-C27 |
| `PropsTrain.v` | Property theorems about training, ensemble prediction and options: C28-C40, C66, C67, C81, C82 |
| `PropsFeats.v` | Property theorems about feature importance and ids: C68-C71 |
| `PropsJson.v` | Property theorems about saving and loading models: C41-C47, C83 |
| `PropsCV.v` | Cross-validation: C48-C54, C84 |
| `PropsGrid.v` | Grid search: C55-C58, C85, C86 |
| `PropsGrad.v` | Gradient searches: C59-C65, C87-C94 |
| `PropsConfu.v` | Confusion matrices: C72-C75, C95 |
| `PropsReaders.v` | Text formats: C76-C79, C96, C97 |
| `SpecTot.v` | Specification vocabulary: well-formed training input |
| `TreeShort.v` | Midpoints of numbers with at most 52 significant bits (proof support for C99) |
| `TrainTot.v` | Training does not panic on well-formed input (proof support for C98) |
| `TrainTotEx.v` | Concrete cases for C98 and C99 |
| `CVTot.v` | Cross-validation returns on well-formed input (proof support for C100) |
| `CVTotEx.v` | Concrete case for C100 |
| `PropsTot.v` | C98-C100: training and cross-validation return on well-formed data |
| `SpecInv.v` | Specification vocabulary: pairs of runs on related inputs |
| `TreeInv.v` | A tree only depends on the order of the values in each column (proof support for C101) |
| `InvMore.v` | Pairs of training runs: depth, rounds, constant columns, labels (proof support for C102-C105) |
| `InvEx.v` | Concrete cases for C101-C106 |
| `PropsInv.v` | Properties C101-C106: pairs of runs |
| `Print.v` | Model of the functions that describe trees, feature sets, options and matrices as text: tree.go:300-336 and 390-401, options.go:138-146, utils/math.go:92-101 |
| `SpecPrint.v` | Specification vocabulary: what the printed descriptions show |
| `PrintProofs.v` | Proofs about the printed descriptions (proof support for C107-C110) |
| `PrintEx.v` | Concrete cases and witnesses for the printed descriptions |
| `PropsPrint.v` | Property theorems about the printed descriptions of trees, feature sets, options and matrices: C107-C110 |
| `Save.v` | Model of saving the best model of a search to a file: cv/cv.go:232-276 (rescueConcValues with writebest, writeBest), with os.Create and bufio.Writer |
| `SpecSave.v` | Specification vocabulary for saved models |
| `SaveProofs.v` | Proofs about saved models (proof support for C111 and C112) |
| `SaveEx.v` | Concrete cases and witnesses for saved models |
| `PropsSave.v` | Property theorems about saving the best model: C111 and C112 |
| `NumErr.v` | Rounding errors of sums, products and quotients (proof support; no model content) |
| `SpecErr.v` | Vocabulary of the error-bound properties: exact means and sums of float64 data |
| `ErrProofs.v` | Proofs of the error bounds (C113-C116) |
| `ErrEx.v` | Examples and witnesses for the error bounds (C113-C115) |
| `PropsErr.v` | Property theorems about rounding errors: C113, C114 and C115 |
| `SaveGrad.v` | Model of saving the best model during GradientGrid and HybridGradientGrid: cv/grad.go:218-298 and cv/hybrid.go with [o.WriteBest] |
| `SaveGradProofs.v` | Proofs about saving the best model during gradient searches |
| `SaveGradEx.v` | Concrete cases and witnesses for gradient searches that save their best models |
| `PropsSaveGrad.v` | Property theorems about gradient searches that save their best models: C116 |
| `DupProofs.v` | A column that is ordered like an earlier one changes nothing (proof support for C117) |
| `SpecFit.v` | Specification vocabulary: how well a tree fits the samples it was built from, in exact arithmetic |
| `FitProofs.v` | What the splits of a tree achieve in exact arithmetic (proof support for C118) |
| `MemProofs.v` | A regression tree without depth limit separates all different rows (proof support for C119) |
| `SatProofs.v` | Leaf values that are not numbers, and what they do to a model (proof support for C120) |
| `FitEx.v` | Concrete inputs for C117 to C119 and C120 |
| `PropsFit.v` | C117-C119 and C120: redundant columns, what splits achieve, memorisation, saturation |
| `SpecLearn.v` | Specification vocabulary: an accurate exponential, and training sets that can be learnt |
| `LearnNum.v` | Arithmetic of boosting steps and of SoftMax with an accurate exponential (proof support for C121) |
| `LearnProofs.v` | Gradient boosting with deep trees learns its training set (proof support for C121) |
| `LearnEx.v` | An environment with an accurate exponential, and concrete inputs for C121 |
| `PropsLearn.v` | C121: plain gradient boosting with trees deep enough learns every training set without repeated rows |
| `SpecOpt.v` | Specification vocabulary: which options a training depends on |
| `OptProofs.v` | Which options a training depends on (proof support for C122) |
| `OptEx.v` | Concrete inputs for C122 |
| `PropsOpt.v` | C122: which options a training depends on |
| `SpecSize.v` | Specification vocabulary: the size of trees and ensembles |
| `SizeProofs.v` | Size bounds (proof support for C123) |
| `SizeEx.v` | Concrete inputs for C123 |
| `PropsSize.v` | C123: how large trees and ensembles can get |
| `Misc.v` | Model of the small helpers of the package: utils/sorter.go, [OHEKeys] (utils/libsvm.go:25-28, 227-250), [String] of a JSON node (utils/json.go:28-33) and the error of the libSVM reader (utils/libsvm.go:136-138, 158-198) |
| `SpecMisc.v` | Specification vocabulary: sorters with index slices, one-hot encodings of names, texts of nodes and errors |
| `MiscProofs.v` | Proof support for C124-C127 |
| `MiscEx.v` | Concrete inputs for C124-C127 |
| `PropsMisc.v` | C124-C127: sorting with indexes, one-hot encoded names, the text of a node, the error of the libSVM reader |
| `SpecRow.v` | Specification vocabulary: the order of the rows |
| `RowProofs.v` | C128: with exact sums the order of the rows does not matter |
| `RowEx.v` | Concrete inputs for C128 |
| `PropsRow.v` | C128: the order of the rows |
| `SpecUse.v` | Specification vocabulary for what a prediction depends on |
| `UseProofs.v` | What a prediction depends on: proofs for C129-C131 |
| `UseEx.v` | Concrete inputs for C129-C134 |
| `PropsUse.v` | C129-C134: what a prediction depends on |
| `SpecReg.v` | Specification vocabulary for C135: options that restrict the growth of a tree |
| `RegProofs.v` | Options that restrict the growth of a tree: proofs for C135 |
| `RegEx.v` | Concrete cases for C135 |
| `PropsReg.v` | C135: options that restrict the growth of a tree |
| `SpecScore.v` | Vocabulary of C136: the scores of a model in exact arithmetic |
| `ScoreProofs.v` | Proofs of C136 |
| `ScoreEx.v` | A concrete model for C136: two classes, two rounds, the second class leads by 8 |
| `PropsScore.v` | C136: how exact scores are, and what that means for the class |
| `FileProofs.v` | Proofs of C137: what the file of a model holds |
| `PropsFile.v` | C137: what the file of a model holds |
| `SpecGridTot.v` | Specification vocabulary: grids that can be searched to the end |
| `GridTot.v` | Proofs for C138: a search over a good grid returns |
| `GridTotEx.v` | The default grid can be searched (C138) |
| `PropsGridTot.v` | A grid search over ordinary data returns: C138 |
| `SpecGradDir.v` | Specification vocabulary: where a gradient step moves a parameter |
| `GradDir.v` | Proofs for C139: size and direction of a gradient step |
| `GradDirEx.v` | A concrete case for C139: the raised options are more accurate, the first trial leaves the box, the second is taken |
| `PropsGradDir.v` | Size and direction of a gradient step: C139 |
| `SpecGradTot.v` | Specification vocabulary: grid options with which the gradient searches return |
| `GradRet.v` | Proofs for C140: the gradient searches return |
| `GradRetEx.v` | Gradient searches: how many evaluations, when an error, the default grid (C140) |
| `PropsGradTot.v` | The gradient searches over ordinary data return: C140 |
| `SpecCols.v` | Specification vocabulary: tables whose columns are in another order |
| `ColProofs.v` | The order of the columns matters only for ties (proof support for C143) |
| `ColTrain.v` | The order of the columns matters only for ties: training (proof support for C143) |
| `ColEx.v` | Examples for C143 |
| `PropsCols.v` | C143: the order of the columns |
| `MissProofs.v` | Proofs about tables with missing values (proof support) |
| `MissEx.v` | Witnesses for tables with missing values |
| `PropsMiss.v` | Property C144: tables with missing values (NaN) |
| `OneProofs.v` | Training on a single label (proof support for C145) |
| `OneEx.v` | Witnesses for training with a single label |
| `PropsOne.v` | Property C145: training with one label |
| `Fma.v` | Processors with a fused multiply-add |
| `FmaProofs.v` | Proofs of C146 |
| `FmaGain.v` | The gain with the fused operation (proof support for C146) |
| `FmaEx.v` | Witnesses for C146 |
| `PropsFma.v` | C146: processors with a fused multiply-add |
| `Main.v` | The example program, examples/basicboost.go, and the default options of the two packages |
| `MainProofs.v` | Proofs about the example program (C147) |
| `MainEx.v` | Concrete case for C147 |
| `PropsMain.v` | The example program and the default options: C147 |
| `SpecSurp.v` | Vocabulary of C148: data whose number of labels is not the number of rows |
| `SurpProofs.v` | Proofs of C148: labels and rows of different number |
| `SurpEx.v` | Runs for C148 |
| `PropsSurp.v` | C148: data whose number of labels is not the number of rows |
| `GradOut.v` | GradStep with or without an output channel, cv/grad.go:173-203, from its first line to its return |
| `GradOutProofs.v` | Proofs about GradStep with an output channel |
| `GradOutEx.v` | Concrete cases for GradStep with an output channel |
| `PropsGradOut.v` | GradStep with an output channel: C149 |
| `CVShare.v` | The sampler of utils/stat.go with the rows as slices: a row is a position in a list of arrays, so that sharing a row and copying it are different |
| `SpecCVShare.v` | Specification vocabulary for the sharing of rows |
| `CVShareProofs.v` | Proofs about the sharing of rows by the sampler of the cross-validation |
| `CVShareEx.v` | Concrete cases for the sharing of rows |
| `PropsCVShare.v` | The rows of the cross-validation samples: C150 |
| `GoJson.v` | [encoding/json] (Go 1.22) on the two records that the library saves: the writer and the reader behind utils/json.go:63-68 (json.Unmarshal of a node), utils/json.go:122 (json.Marshal of a node), xjson.go:46 (json.Unmarshal of the metadata) and xjson.go:145 (json.Marshal of the metadata) |
| `SpecGoJson.v` | Vocabulary for the theorems about the text of model files: the grammar of JSON (RFC 8259) as a relation between values and texts, and the meaning of the members of an object for the fields of a record |
| `GoJsonNum.v` | Support for the theorems about JSON: numbers |
| `GoJsonStr.v` | Support for the theorems about JSON: strings |
| `GoJsonVal.v` | Support for the theorems about JSON: the reader accepts exactly the texts of the grammar |
| `GoJsonRec.v` | Support for the theorems about JSON: the records, and [goCodec] is a codec |
| `GoJsonWrite.v` | Support for the theorems about JSON: what the writer writes is read back; [goCodec] satisfies [CodecOk] |
| `GoFmt.v` | The text of a float64 in JSON (encode.go [floatEncoder], behind utils/json.go:122 and xjson.go:145): the shortest decimal that reads back as the same float64, in plain notation from 1e-6 up to 1e21 and with an exponent elsewhere |
| `SpecGoFile.v` | Vocabulary for C153: texts of model files that agree line by line |
| `GoFileProofs.v` | Proofs for C153 (xjson.go:37-94, utils/json.go:62-94): a file is read line by line |
| `GoJsonEx.v` | Concrete lines and files for C151-C153, and the file-level facts for the codec of GoJson.v (encoding/json behind utils/json.go:62-133 and xjson.go:15-150) |
| `PropsGoJson.v` | Property theorems about the text of model files: C151-C153 |
| `ConfuShare.v` | The Confusions of confu/confu.go with all their slices in one memory, the labels of the data among them, so that writes of a program to its own slices, to exported fields and to a returned matrix can be followed |
| `SpecConfuShare.v` | Vocabulary for C154 |
| `ConfuShareProofs.v` | Proofs for C154 (confu/confu.go:66-209) |
| `ConfuShareEx.v` | Concrete cases for C154 (confu/confu.go:66-209): the model and the rows of ConfuEx.v |
| `PropsConfuShare.v` | Property theorems about what a Confusions shares with the program: C154 |
| `PredConc.v` | Predictions and accuracies of one model computed by several goroutines at a time: multiclass.go:34-108 |
| `SpecPredConc.v` | Specification vocabulary for predictions by several goroutines (C155) |
| `PredConcProofs.v` | Proofs for C155 (multiclass.go:34-108) |
| `PredConcEx.v` | A concrete case for C155 (multiclass.go:34-108): a trained model of three classes; two goroutines ask for the accuracy on the rows of ConfuEx.v with three classes, a third one for the class of a row |
| `PropsPredConc.v` | Property theorems about predictions by several goroutines: C155 |
| `LossMem.v` | Losses and activations with their destinations in memory, utils/loss_acti.go and utils/math.go:140-145: a slice is a part of an array, a matrix a whole array, and arguments and destination may be the same |
| `SpecLossMem.v` | Specification vocabulary for destinations of losses and activations (C156) |
| `LossMemProofs.v` | Proofs for C156 (utils/loss_acti.go) |
| `LossMemEx.v` | Concrete cases for C156 (utils/loss_acti.go): labels and predictions as 2x2 matrices |
| `PropsLossMem.v` | Property theorems about destinations of losses and activations: C156 |
| `Verbose.v` | What the library prints and logs: xgb.go:104-135, cv/cv.go:27, 39, 185-187 and 249-251, cv/grad.go:236-238 and 258-260, cv/hybrid.go:28-30 and 59-61 |
| `SpecVerbose.v` | Specification vocabulary for what is printed and logged |
| `VerboseProofs.v` | Proofs about what is printed and logged: training and cross-validation (C157, C158) |
| `VerboseCV.v` | Proofs about what is printed and logged: cross-validation (C158) |
| `VerboseGrid.v` | Proofs about what the searches print (C159, C160) |
| `VerboseGrad.v` | Proofs about what the gradient searches print (C160) |
| `VerboseEx.v` | Concrete cases for what is printed and logged |
| `PropsVerbose.v` | What is printed and logged: C157-C160 |
| `SpecChance.v` | Specification vocabulary for chances: how many of the equally likely sequences of random numbers have an effect |
| `ChanceProofs.v` | Counting sequences of draws; the distribution of SubSample (proof support for C161, C162) |
| `ChanceCV.v` | The distribution of the folds of CrossValidationSamples (proof support for C162) |
| `ChanceFuzz.v` | The effect of fuzz on average and on the number of rounds (proof support for C163) |
| `ChanceEx.v` | Concrete cases for C161-C163 |
| `PropsChance.v` | Property theorems about chances: C161 (SubSample), C162 (folds), C163 (fuzz) |
| `SpecUnseen.v` | Specification vocabulary for labels that occur only among the test rows (C164) |
| `UnseenProofs.v` | Proofs about labels that occur only among the test rows (C164) |
| `UnseenChance.v` | Proofs about the chance that given rows are in one fold (C164) |
| `UnseenEx.v` | Concrete cases for labels that occur only among the test rows (C164) |
| `PropsUnseen.v` | Property theorems about labels that occur only among the test rows: C164 |
| `SpecBound.v` | Specification vocabulary for bounded scores (C165) |
| `BoundProofs.v` | Proofs about bounded leaf values and scores (C165) |
| `BoundEx.v` | Concrete cases of C165 |
| `PropsBound.v` | C165: with the squared error loss a tree moves a score by at most the learning rate |
| `SpecShift.v` | Specification vocabulary for rows that are moved a little (C166) |
| `ShiftProofs.v` | Proofs about rows that are moved a little (C166) |
| `ShiftEx.v` | Concrete cases of C166 |
| `PropsShift.v` | C166: predictions are constant between thresholds; training rows can be moved a little |
| `SpecFar.v` | Vocabulary for base scores that are too far from zero (C167) |
| `FarProofs.v` | Training from a base score that has no useful exponential (proof support for C167) |
| `FarEx.v` | Concrete case for C167 |
| `PropsFar.v` | C167: in exact arithmetic BaseScore cancels; a BaseScore that is NaN or has no finite positive exponential silently gives a model that knows nothing |
| `SpecLot.v` | Vocabulary for the chance that rounds are trained (C168) and for the columns offered to a root (C169) |
| `LotProofs.v` | The chance that rounds are trained, and the columns offered to a root (proof support for C168, C169) |
| `LotEx.v` | Concrete cases for C168 and C169 |
| `PropsLot.v` | Property theorems C168 (rounds left to chance) and C169 (columns offered to a root) |

## Assumptions of the property theorems

A1 = `ClassicalDedekindReals.sig_forall_dec`, A2 = `ClassicalDedekindReals.sig_not_dec`, A3 = `functional_extensionality_dep`, A4 = `Classical_Prop.classic`; "-" = closed under the global context.

| theorem | assumptions |
|---|---|
| c141_reader | - |
| c141_fields | - |
| c141_quoted_file | - |
| c141_fuel | - |
| c141_fields_fuel | - |
| c142_keys | A1, A2, A3, A4 |
| c142_separator | - |
| c142_bare_quote | - |
| c142_open_quote | - |
| c142_after_quote | - |
| c142_same_text | - |
| c142_keys_kept_refuted | A1, A2, A3, A4 |
| c01_split_partition | A1, A2, A3, A4 |
| c01_root_samples | A1, A2, A3, A4 |
| c02_training_sample_leaf | A1, A2, A3, A4 |
| c03_depth | A1, A2, A3, A4 |
| c04_branches | A1, A2, A3, A4 |
| c05_leaf_children | A1, A2, A3, A4 |
| c06_node_value | A1, A2, A3, A4 |
| c07_best_split | A1, A2, A3, A4 |
| c08_min_child_weight | A1, A2, A3, A4 |
| c08_right_child_refuted | A1, A2, A3, A4 |
| c09_threshold_between | A1, A2, A3, A4 |
| c09_threshold_overflow | A1, A2, A3, A4 |
| c10_no_panic | A1, A2, A3, A4 |
| c10_no_panic_refuted | A1, A2, A3, A4 |
| c11_allowed_root | A1, A2, A3, A4 |
| c11_descendants_refuted | A1, A2, A3, A4 |
| c12_positive_gain | A1, A2, A3, A4 |
| c15_predict_total | A1, A2, A3, A4 |
| c16_predict_elementwise | - |
| c17_remembers_indexes | A1, A2, A3, A4 |
| c18_argsort | A1, A2, A3, A4 |
| c19_sample_slice | - |
| c19_sample_matrix | - |
| c20_transpose | - |
| c20_transpose_panic | - |
| c21_densecol | - |
| c21_addtocol | A1, A2, A3, A4 |
| c22_one_hot | A1, A2, A3, A4 |
| c23_softmax_range | A1, A2, A3, A4 |
| c23_softmax_no_nan | A1, A2, A3, A4 |
| c23_softmax_overflow | A1, A2, A3, A4 |
| c25_normalization_range | A1, A2, A3, A4 |
| c26_gradients | A1, A2, A3, A4 |
| c27_loss_nonneg | A1, A2, A3, A4 |
| c27_sq_hessian | A1, A2, A3, A4 |
| c27_mse_hessian | A1, A2, A3, A4 |
| c80_softmax_dense | A1, A2, A3, A4 |
| c13_value_optimal | A1, A3 |
| c13_gain_is_decrease | A1, A3 |
| c14_mean_optimal | A1, A3 |
| c14_score_is_change | A1, A3 |
| c24_softmax_exact | A1, A2, A3, A4 |
| c25_normalization_exact | A1, A3 |
| c26_derivative | A1, A3 |
| c27_mse_hessian_exact | A1, A3 |
| c28_training_scores | A1, A2, A3, A4 |
| c28_no_early_stop | A1, A2, A3, A4 |
| c29_round_contents | A1, A2, A3, A4 |
| c29_reproduction_refuted | A1, A2, A3, A4 |
| c30_shape | A1, A2, A3, A4 |
| c31_trained_rounds | A1, A2, A3, A4 |
| c31_nothing_trained | A1, A2, A3, A4 |
| c32_early_stop | A1, A2, A3, A4 |
| c33_subsample | A1, A2, A3, A4 |
| c34_update_leaves | A1, A2, A3, A4 |
| c35_rounds_classes_swapped | A1, A2, A3, A4 |
| c36_first_maximum | A1, A2, A3, A4 |
| c36_index_in_labels | A1, A2, A3, A4 |
| c37_accuracy | A1, A2, A3, A4 |
| c38_buffers_ignored | A1, A2, A3, A4 |
| c39_classes_from_probs | A1, A2, A3, A4 |
| c40_not_log_odds | A1, A2, A3, A4 |
| c40_float_entries | A1, A2, A3, A4 |
| c66_clone_equal | A1, A2, A3, A4 |
| c66_equal_characterised | - |
| c66_reflexive_symmetric_refuted | A1, A2, A3, A4 |
| c67_check | A1, A2, A3, A4 |
| c67_default_options | A1, A2, A3, A4 |
| c67_nan_rejected_refuted | A1, A2, A3, A4 |
| c81_gradient_boosting | A1, A2, A3, A4 |
| c82_prediction_total | A1, A2, A3, A4 |
| c68_gains_accumulate | A1, A2, A3, A4 |
| c69_no_gain_lost | A1, A2, A3, A4 |
| c69_known_features_safe | A1, A2, A3, A4 |
| c69_concurrent_add_refuted | A1, A2, A3, A4 |
| c70_tree_importance | A1, A2, A3, A4 |
| c70_ensemble_importance | A1, A2, A3, A4 |
| c70_trained_shape | A1, A2, A3, A4 |
| c71_unique_ids | - |
| c41_tree_round_trip | A1, A2, A3, A4 |
| c42_preorder_ids | A1, A2, A3, A4 |
| c43_reload | A1, A2, A3, A4 |
| c43_trained_writable | A1, A2, A3, A4 |
| c44_save_errors | A1, A2, A3, A4 |
| c45_truncated_file | A1, A2, A3, A4 |
| c45_truncated_any | A1, A2, A3, A4 |
| c46_unknown_activation | A1, A2, A3, A4 |
| c47_importance_after_reload | A1, A2, A3, A4 |
| c83_loader_total | A1, A2, A3, A4 |
| c83_read_error | A1, A2, A3, A4 |
| c48_folds_partition | - |
| c49_train_test_complementary | - |
| c50_sampler_ends | - |
| c51_fold_count | - |
| c52_too_few_rows_panic | - |
| c53_drawing_terminates | - |
| c54_mean_over_folds | A1, A2, A3, A4 |
| c84_cv_accuracy_range | A1, A2, A3, A4 |
| c55_grid_points | A1, A2, A3, A4 |
| c55_finite | A1, A2, A3, A4 |
| c55_terminates | A1, A2, A3, A4 |
| c56_grid_result | A1, A2, A3, A4 |
| c56_last_batch_missed | A1, A2, A3, A4 |
| c57_schedules | A1, A2, A3, A4 |
| c58_needs_processors | A1, A2, A3, A4 |
| c58_default_options | A1, A2, A3, A4 |
| c66_clone_grid | - |
| c85_zero_step | A1, A2, A3, A4 |
| c86_goroutine_leak | A1, A2, A3, A4 |
| c59_step_in_box | A1, A2, A3, A4 |
| c60_sends | A1, A2, A3, A4 |
| c60_blocked | A1, A2, A3, A4 |
| c61_read_first | A1, A2, A3, A4 |
| c61_some_run | A1, A2, A3, A4 |
| c61_race_refuted | A1, A2, A3, A4 |
| c61_progress | A1, A2, A3, A4 |
| c62_gradient | A1, A2, A3, A4 |
| c62_hybrid | A1, A2, A3, A4 |
| c63_returned_best_refuted | A1, A2, A3, A4 |
| c63_hybrid_refuted | A1, A2, A3, A4 |
| c64_fuzz_real | A1, A3 |
| c64_fuzz_float | A1, A2, A3, A4 |
| c64_fuzz_options | A1, A2, A3, A4 |
| c65_central | A1, A3 |
| c87_box_all_schedules | A1, A2, A3, A4 |
| c87_escape_refuted | A1, A2, A3, A4 |
| c88_plain_not_moved | A1, A2, A3, A4 |
| c88_plain_all_schedules | A1, A2, A3, A4 |
| c89_five_folds | A1, A2, A3, A4 |
| c90_ignored | A1, A2, A3, A4 |
| c91_gradient_starts | A1, A2, A3, A4 |
| c91_hybrid_starts | A1, A2, A3, A4 |
| c92_terminates | A1, A2, A3, A4 |
| c92_smallest_step | A1, A2, A3, A4 |
| c93_zero_to_nan | A1, A2, A3, A4 |
| c94_fuzz_invalid_refuted | A1, A2, A3, A4 |
| c72_trained_labels | A1, A2, A3, A4 |
| c72_matrix_counts | A1, A2, A3, A4 |
| c72_more_labels_panic | A1, A2, A3, A4 |
| c73_margins | A1, A2, A3, A4 |
| c74_top_n | A1, A2, A3, A4 |
| c75_copies_kept | A1, A2, A3, A4 |
| c75_shared | A1, A2, A3, A4 |
| c75_overwritten | A1, A2, A3, A4 |
| c95_print | A1, A2, A3, A4 |
| c95_simple_names | - |
| c76_round_trip | A1, A2, A3, A4 |
| c76_special_values | A1, A2, A3, A4 |
| c77_text_lines | - |
| c77_data | - |
| c77_panic | - |
| c77_terminates | - |
| c78_data | - |
| c78_panic | - |
| c78_terminates | - |
| c79_names | - |
| c79_success | - |
| c79_failures | - |
| c79_terminates | - |
| c79_split | - |
| c96_round_trip | A1, A2, A3, A4 |
| c96_ragged | A1, A2, A3, A4 |
| c97_empty_data | - |
| c97_string | - |
| c98_training_total | A1, A2, A3, A4 |
| c98_losses | A1, A2, A3, A4 |
| c98_empty_round | A1, A2, A3, A4 |
| c98_close_values_refuted | A1, A2, A3, A4 |
| c99_midpoint | A1, A2, A3, A4 |
| c99_table | A1, A2, A3, A4 |
| c99_integers | A1, A2, A3, A4 |
| c99_float32 | A1, A3 |
| c100_cv_returns | A1, A2, A3, A4 |
| c100_checked_options | A1, A2, A3, A4 |
| c100_default_options | A1, A2, A3, A4 |
| c101_tree_order | A1, A2, A3, A4 |
| c101_training_order | A1, A2, A3, A4 |
| c101_sort_exists | A1, A2, A3, A4 |
| c102_depth_cut | A1, A2, A3, A4 |
| c103_rounds_prefix | A1, A2, A3, A4 |
| c104_tree_constant | A1, A2, A3, A4 |
| c104_training_constant | A1, A2, A3, A4 |
| c104_prediction_constant | A1, A2, A3, A4 |
| c105_training_renamed | A1, A2, A3, A4 |
| c105_accuracy_renamed | A1, A2, A3, A4 |
| c106_single_label | A1, A2, A3, A4 |
| c107_returns | - |
| c107_trained_tree_prints | A1, A2, A3, A4 |
| c107_faithful | A1, A3 |
| c107_feature_number | - |
| c107_three_decimals | A1, A3 |
| c107_lines | - |
| c107_reading | - |
| c107_reading_refuted | A1, A2, A3, A4 |
| c108_text | - |
| c108_faithful | A1, A3 |
| c108_order_refuted | A1, A2, A3, A4 |
| c109_faithful | A1, A3 |
| c109_text | - |
| c109_all_fields_refuted | A1, A2, A3, A4 |
| c110_matrix | - |
| c111_cannot_create | - |
| c111_effect | A1, A2, A3, A4 |
| c111_one_file | - |
| c111_complete | A1, A2, A3, A4 |
| c111_silent_failure | A1, A2, A3, A4 |
| c111_names | - |
| c111_keeps_old_refuted | A1, A2, A3, A4 |
| c111_nil_error_refuted | A1, A2, A3, A4 |
| c112_grid_files | A1, A2, A3, A4 |
| c112_numbers | A1, A2, A3, A4 |
| c112_save_exists | A1, A2, A3, A4 |
| c112_best_file | A1, A2, A3, A4 |
| c113_loss_error | A1, A2, A3, A4 |
| c113_loss_exact | A1, A3 |
| c113_perfect | A1, A2, A3, A4 |
| c113_zero_refuted | A1, A2, A3, A4 |
| c114_mean_value | A1, A2, A3, A4 |
| c114_xgb_value | A1, A2, A3, A4 |
| c114_equal_targets_refuted | A1, A2, A3, A4 |
| c115_softmax_sum | A1, A2, A3, A4 |
| c115_normalization_sum | A1, A2, A3, A4 |
| c115_predictions | A1, A2, A3, A4 |
| c115_exact_sum_refuted | A1, A2, A3, A4 |
| c116_gradient_files | A1, A2, A3, A4 |
| c116_hybrid_files | A1, A2, A3, A4 |
| c116_library_cv | A1, A2, A3, A4 |
| c116_best_file | A1, A2, A3, A4 |
| c116_returned_options_refuted | A1, A2, A3, A4 |
| c116_hybrid_returned_refuted | A1, A2, A3, A4 |
| c117_tree_redundant | A1, A2, A3, A4 |
| c117_training_redundant | A1, A2, A3, A4 |
| c118_objective | A1, A2, A3, A4 |
| c118_best | A1, A3 |
| c118_regression | A1, A2, A3, A4 |
| c118_deeper | A1, A2, A3, A4 |
| c119_separated | A1, A2, A3, A4 |
| c119_memorised | A1, A2, A3, A4 |
| c120_nan_tree | A1, A2, A3, A4 |
| c120_saturated | A1, A2, A3, A4 |
| c120_more_rounds_refuted | A1, A2, A3, A4 |
| c121_learns | A1, A2, A3, A4 |
| c121_high_base_refuted | A1, A2, A3, A4 |
| c121_nonvacuous | A1, A2, A3, A4 |
| c122_same_options | A1, A2, A3, A4 |
| c122_deterministic | A1, A2, A3, A4 |
| c122_options_left | A1, A2, A3, A4 |
| c122_draws_refuted | A1, A2, A3, A4 |
| c122_nonvacuous | A1, A2, A3, A4 |
| c123_tree_size | A1, A2, A3, A4 |
| c123_model_size | A1, A2, A3, A4 |
| c123_close_values_refuted | A1, A2, A3, A4 |
| c124_pairs | - |
| c124_total | - |
| c124_order | A1, A2, A3, A4 |
| c124_sorted | A1, A2, A3, A4 |
| c124_argsort | A1, A2, A3, A4 |
| c124_insertion | A1, A2, A3, A4 |
| c125_names | A1, A2, A3, A4 |
| c125_different_names | A1, A2, A3, A4 |
| c125_labels | A1, A2, A3, A4 |
| c126_text | A1, A3 |
| c126_split_refuted | A1, A2, A3, A4 |
| c127_first_bad_line | - |
| c127_number | - |
| c127_message | - |
| c127_lines | - |
| c127_same_reader | - |
| c128_row_order | A1, A2, A3, A4 |
| c128_integers | A1, A2, A3, A4 |
| c128_halves | A1, A2, A3, A4 |
| c128_rounding_refuted | A1, A2, A3, A4 |
| c129_unused_features | A1, A2, A3, A4 |
| c129_tree | A1, A2, A3, A4 |
| c129_leaf | A1, A2, A3, A4 |
| c129_no_feature | A1, A2, A3, A4 |
| c129_converse_refuted | A1, A2, A3, A4 |
| c130_ceiling | A1, A2, A3, A4 |
| c130_conflict | A1, A2, A3, A4 |
| c131_cycles | A1, A2, A3, A4 |
| c132_tree | A1, A2, A3, A4 |
| c132_model | A1, A2, A3, A4 |
| c132_close_values_refuted | A1, A2, A3, A4 |
| c133_no_learning | A1, A2, A3, A4 |
| c134_order | A1, A2, A3, A4 |
| c134_class | A1, A2, A3, A4 |
| c134_strict_refuted | A1, A2, A3, A4 |
| c135_leaf_stays | A1, A2, A3, A4 |
| c135_gamma_shrinks_refuted | A1, A2, A3, A4 |
| c135_mcw_shrinks_refuted | A1, A2, A3, A4 |
| c135_lambda_value | A1, A2, A3, A4 |
| c135_lambda_gain | A1, A3 |
| c135_lambda_leaf_refuted | A1, A2, A3, A4 |
| c136_score_error | A1, A2, A3, A4 |
| c136_score_finite | A1, A2, A3, A4 |
| c136_margin | A1, A2, A3, A4 |
| c137_extra_line | A1, A2, A3, A4 |
| c137_same_file | A1, A2, A3, A4 |
| c137_resave | A1, A2, A3, A4 |
| c138_int_values | - |
| c138_float_values | A1, A2, A3, A4 |
| c138_grid_returns | A1, A2, A3, A4 |
| c138_no_error | A1, A2, A3, A4 |
| c138_error | A1, A2, A3, A4 |
| c139_step_size | A1, A2, A3, A4 |
| c139_direction | A1, A2, A3, A4 |
| c139_whole_step | A1, A2, A3, A4 |
| c140_gradient_returns | A1, A2, A3, A4 |
| c140_hybrid_returns | A1, A2, A3, A4 |
| c140_gradient_evaluations | A1, A2, A3, A4 |
| c140_hybrid_evaluations | A1, A2, A3, A4 |
| c140_no_error | A1, A2, A3, A4 |
| c140_gradient_error | A1, A2, A3, A4 |
| c140_hybrid_error | A1, A2, A3, A4 |
| c143_tree_columns | A1, A2, A3, A4 |
| c143_training_columns | A1, A2, A3, A4 |
| c143_ties_refuted | A1, A2, A3, A4 |
| c144_empty_nodes | A1, A2, A3, A4 |
| c144_nan_threshold | A1, A2, A3, A4 |
| c144_missing_column | A1, A2, A3, A4 |
| c144_missing_table | A1, A2, A3, A4 |
| c144_one_missing_refuted | A1, A2, A3, A4 |
| c145_zero_trees | A1, A2, A3, A4 |
| c145_certain | A1, A2, A3, A4 |
| c145_raw_score | A1, A2, A3, A4 |
| c145_same_everywhere | A1, A2, A3, A4 |
| c145_boosting_nan | A1, A2, A3, A4 |
| c146_plain | A1, A2, A3, A4 |
| c146_same_rows | A1, A2, A3, A4 |
| c146_score_error | A1, A2, A3, A4 |
| c146_score_finite | A1, A2, A3, A4 |
| c146_difference | A1, A2, A3, A4 |
| c146_margin | A1, A2, A3, A4 |
| c146_gain | A1, A2, A3, A4 |
| c146_class_refuted | A1, A2, A3, A4 |
| c146_training_scores_refuted | A1, A2, A3, A4 |
| c147_defaults | A1, A2, A3, A4 |
| c147_default_grid_size | A1, A2, A3, A4 |
| c147_grid_size | A1, A2, A3, A4 |
| c147_few_rows | A1, A2, A3, A4 |
| c147_few_cv | A1, A2, A3, A4 |
| c147_few_grid | A1, A2, A3, A4 |
| c147_small | A1, A2, A3, A4 |
| c147_class | A1, A2, A3, A4 |
| c147_ends | A1, A2, A3, A4 |
| c68_merge_self | A1, A2, A3, A4 |
| c70_new_tree_shape | A1, A2, A3, A4 |
| c88_default_plain | A1, A2, A3, A4 |
| c147_failures | A1, A2, A3, A4 |
| c148_surplus | A1, A2, A3, A4 |
| c148_losses | A1, A2, A3, A4 |
| c148_early_stop_refuted | A1, A2, A3, A4 |
| c148_fewer | A1, A2, A3, A4 |
| c148_none | A1, A2, A3, A4 |
| c148_accuracy | A1, A2, A3, A4 |
| c149_caller_unchanged | A1, A2, A3, A4 |
| c149_sent | A1, A2, A3, A4 |
| c149_final | A1, A2, A3, A4 |
| c149_same_as_copy | A1, A2, A3, A4 |
| c149_nil_channel | A1, A2, A3, A4 |
| c149_nil_runs | A1, A2, A3, A4 |
| c149_early_stop | A1, A2, A3, A4 |
| c149_progress | A1, A2, A3, A4 |
| c149_always_sends_refuted | A1, A2, A3, A4 |
| c150_shared | - |
| c150_copied | - |
| c150_independent | - |
| c150_ended | - |
| c150_separate_refuted | A1, A2, A3, A4 |
| c151_node | A1, A2, A3, A4 |
| c151_meta | A1, A2, A3, A4 |
| c151_unique | - |
| c151_order | A1, A2, A3, A4 |
| c151_unknown | A1, A2, A3, A4 |
| c151_string | - |
| c151_integer | - |
| c151_float | A1, A2, A3, A4 |
| c151_negative_id | A1, A2, A3, A4 |
| c152_node | A1, A2, A3, A4 |
| c152_meta | A1, A2, A3, A4 |
| c152_name | - |
| c152_codec | A1, A2, A3, A4 |
| c152_formatter | A1, A2, A3, A4 |
| c152_reload | A1, A2, A3, A4 |
| c153_lines | A1, A2, A3, A4 |
| c153_edit_node | A1, A2, A3, A4 |
| c153_edit_meta | A1, A2, A3, A4 |
| c154_first_call | A1, A2, A3, A4 |
| c154_cached | A1, A2, A3, A4 |
| c154_calls_keep | A1, A2, A3, A4 |
| c154_own_memory | A1, A2, A3, A4 |
| c154_snapshot_refuted | A1, A2, A3, A4 |
| c154_copy_refuted | A1, A2, A3, A4 |
| c155_results | A1, A2, A3, A4 |
| c155_panic | A1, A2, A3, A4 |
| c155_progress | A1, A2, A3, A4 |
| c155_finite | A1, A2, A3, A4 |
| c155_unshared | A1, A2, A3, A4 |
| c155_race_refuted | A1, A2, A3, A4 |
| c156_loss | A1, A2, A3, A4 |
| c156_neg_gradients | A1, A2, A3, A4 |
| c156_gradients | A1, A2, A3, A4 |
| c156_shapes | A1, A2, A3, A4 |
| c156_sq_hessian | A1, A2, A3, A4 |
| c156_mse_hessian | A1, A2, A3, A4 |
| c156_mse_hessian_panic | A1, A2, A3, A4 |
| c156_softmax | A1, A2, A3, A4 |
| c156_normalization | A1, A2, A3, A4 |
| c156_softmax_dense | A1, A2, A3, A4 |
| c156_normalization_dense | A1, A2, A3, A4 |
| c156_longer_refuted | A1, A2, A3, A4 |
| c157_same | A1, A2, A3, A4 |
| c157_quiet | A1, A2, A3, A4 |
| c157_training | A1, A2, A3, A4 |
| c157_train_lines | - |
| c158_same | A1, A2, A3, A4 |
| c158_says | A1, A2, A3, A4 |
| c158_fold_number_refuted | A1, A2, A3, A4 |
| c159_same | A1, A2, A3, A4 |
| c159_quiet | A1, A2, A3, A4 |
| c159_says | A1, A2, A3, A4 |
| c159_heading_refuted | A1, A2, A3, A4 |
| c160_same | A1, A2, A3, A4 |
| c160_quiet | A1, A2, A3, A4 |
| c160_gradient_says | A1, A2, A3, A4 |
| c160_hybrid_says | A1, A2, A3, A4 |
| c160_printed_options_refuted | A1, A2, A3, A4 |
| c148_classes | A1, A2, A3, A4 |
| c156_dense_short | A1, A2, A3, A4 |
| c161_total | - |
| c161_rows | A1, A2, A3, A4 |
| c161_number | A1, A2, A3, A4 |
| c161_chance | A1, A2, A3, A4 |
| c162_uniform | - |
| c162_sizes | - |
| c162_share | - |
| c162_ends | - |
| c162_begins | - |
| c163_symmetric | A1, A3 |
| c163_rounds_biased | A1, A3 |
| c163_small_rounds | A1, A2, A3, A4 |
| c163_never_back | A1, A2, A3, A4 |
| c157_streams | - |
| c157_texts | A1, A2, A3, A4 |
| c164_seen | A1, A2, A3, A4 |
| c164_accuracy | A1, A2, A3, A4 |
| c164_distinct | A1, A2, A3, A4 |
| c164_next | - |
| c164_together | - |
| c165_tree | A1, A2, A3, A4 |
| c165_score | A1, A2, A3, A4 |
| c165_confidence | A1, A2, A3, A4 |
| c165_finite | A1, A2, A3, A4 |
| c165_mse_refuted | A1, A2, A3, A4 |
| c166_alike | A1, A2, A3, A4 |
| c166_training_row | A1, A2, A3, A4 |
| c166_distance | A1, A2, A3, A4 |
| c166_left_out_refuted | A1, A2, A3, A4 |
| c167_cancels | A1, A2, A3 |
| c167_unchecked | A1, A2, A3, A4 |
| c167_trees | A1, A2, A3, A4 |
| c167_predictions | A1, A2, A3, A4 |
| c168_round | - |
| c168_rounds | A1, A2, A3, A4 |
| c169_columns | A1, A2, A3, A4 |
| c169_root | A1, A2, A3, A4 |
| c168_nothing | A1, A2, A3, A4 |
| c168_returns | A1, A2, A3, A4 |

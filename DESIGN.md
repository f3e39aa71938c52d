# Design

Source under study: /repo (godeep, Go). The code is read as text; the model is written by hand in Gallina, function by function, each definition citing the file and lines it stands for.

## Model

* `Base.v` outcomes (`Ok`, `Err`, `Panic`, `Diverge`), 64-bit `uint` arithmetic with explicit wrap-around, state-and-outcome monad where the state survives errors and panics.
* `Num.v` the number types: a record of operations without laws, instances for wrapped Go integers; floats in `NumFloat.v`.
* Scalars (`*number.Scalar[T]`) are addresses in a memory (list of values); nil is `None`. Tensors are objects in a second heap; every graph-level tensor type is a constructor of one node kind with child ids, plus the embedded `TensorMat` fields. Sharing of scalars and of tensor nodes is explicit.
* A context is the list of pushed operations (the linked list itself is modelled and refined separately); a graph is a list of operations; `Exec` runs them in order on the memory and may panic.

* Layers (`ModelLayer.v`) are objects in a third heap, with the fields of `layer.Base` and of every layer type; models (`ModelModel.v`) are records of ids, graphs and contexts.
* Streams (`ModelIO.v`) are byte lists with a writer that may stop accepting bytes; number types come with a little-endian codec (`ModelCodec.v`).

Specifications live in files that do not import the model: row-major position, list of all indices, pointwise lookup, mathematical expression evaluator, binary formats.

## Trusted base

* Coq 8.16.1 kernel.
* Axioms: what `Print Assumptions` prints under every property theorem (see the section *Assumptions* below). Only standard-library axioms (those of `Reals` and functional extensionality that come with it) and only for the theorems about real arithmetic and float rounding.
* The correspondence between the Gallina model and the Go text, by reading.

## Assumptions

`Print Assumptions` stands under every theorem of the `P_*.v` files. It prints

* nothing (closed under the global context) for all theorems of P_Index, P_Access, P_Eager, P_Graph, P_Graph2, P_Net, P_Fwd, P_Back, P_Trn, P_Trn2, P_Save2, P_From, P_Str, P_Nest, P_Again, P_Epoch, P_Reset, for C95_point, for C56 and C57 except C57_metric, for C42, for C47 (except C47_same_value), C59, and for P_Save except C30;
* `sig_forall_dec` and `functional_extensionality_dep` for C51_linear, C51_relu, C51_relu_at_zero, C52_relu, C52_relu_negative_alpha, C47_same_value, C50_transitive, C68_squares, C95_decimals, all theorems of P_Adj (C70), C75_gradient and C76_small_steps;
* the same and `sig_not_dec` for the other theorems of P_Act (except the next line), C57_metric and C68_refuted;
* the same and `classic` for C51_gelu, C52_sigmoid_increasing, C48, C49, the rest of C50, C58, C53, C54, C55, P_ImgIO (C80-C83) except C81_not_an_image, C81_missing_channels and C81_pixels, which are closed, C68_cross_entropy, C75_costs, C30, C95_steps, C95_end, C96_same_partial, C96_refuted, C97, P_Scalar (C101-C104), P_Rand (C105, C106).

All of them are axioms of the Coq standard library (`Reals`, `Logic.Classical_Prop`, `Logic.FunctionalExtensionality`); they come in through the real numbers and Flocq 4.1.0. No axiom is stated in this development.

## What is modelled

| Code | Model |
| --- | --- |
| tools/tools.go, tools/math.go | ModelTools.v, ModelImg.v (`Distant`, `Bar`) |
| number, operation, context, graph | Num.v, ModelOps.v, ModelContext.v, ModelGraph.v |
| number/constructors.go, NewRand (one value) | ModelRand.v |
| tensor (eager and graph versions) | ModelTensor.v, ModelGraph.v |
| scalar (f16, f32, f64, comparison) | ModelF16.v |
| scalar (the interface Scalar: types mixed, arithmetic in place, Copy, String, getters and setters) | ModelScalar.v |
| activation | ModelAct.v |
| layer (all types: build, forward, derivative, backward, fit, reset) | ModelLayer.v |
| model (push, compile, predict, train, trainable, save, load) | ModelModel.v, ModelIO.v |
| model/model_layer.go (models used as layers) | ModelNest.v |
| img/simple_scale.go, img/smooth_scale.go | ModelImg.v |
| img/image.go, img/save.go (without the image formats) | ModelImgIO.v |
| String of shapes, tensors, layers and models; Type and Index of layers | ModelStr.v |
| the progress display of Train | ModelShow.v |

Not modelled: decoding and encoding of image files (the Go image packages: what image.Decode returns is an argument of the loaders, ToImg returns what the encoders are given; PngSave and JpgSave are ToImg followed by an encoder), how fmt.Sprint writes floats (an argument of the model), timing (when progress is printed is an argument), error message texts, the random number generators (their results are arbitrary values; in C105 and C106 an arbitrary k below 2^53, of which rand.Float64 makes k / 2^53).

## Number types

`Num` has no laws, so theorems about a generic `T` hold for every Go number type including floats. Where laws are needed they are hypotheses of the theorem (record types in Laws.v and NetLaws.v), with these instances:

* `NumIntS.v` integers of width w with wrap-around, every law needed by C35-C37 and C60;
* `NumQ.v` exact rationals, `NumReal.v` real numbers;
* `NumFloat.v` float64 and float32 as Flocq's binary64 and binary32, no laws claimed; used by C81.

float64 computations in image scaling and progress bars use Flocq's binary64. Conversions of a float64 out of range to an integer, which Go leaves to the implementation, are a parameter `odd`. Multiplications and additions are not fused (Go allows fusing on some processors).

## Files

* Model: Base, Num, Model*.
* Specifications: Spec, Denote, ObjSpec, GraphSpec, NetSpec, FwdSpec, IOSpec, IONetSpec, ImgSpec, FailSpec, ReachSpec, GradSpec, BwdSpec, BwdPost, AdjSpec, ImgIOSpec (uses the records of ModelImgIO), FromProofs section Statement, TrnSpec (one step of training), TrnScript (what the layers show), the first half of TrnProg (histories).
* Proofs: Index*, Exec*, Build*, Tensor*, Eager*, Access*, Compile*, Context*, Count*, Ill*, Transfer*, Soft*, Agree, Pointwise (tensors and graphs); F16*; Act*; Net* (dense stacks with training); Fwd* (forward passes of every layer graph); IO*; Img*, Bar*, Dist*; Fail*, IntMain (panics of integer graphs); Fit*, Grad*; Bwd* (backward loops of every layer); Adj* (their derivatives); Trn* (training of chains of layers of any kind: TrnTri, TrnOwn, TrnSite, TrnKind, TrnXfer the building blocks; TrnDer, TrnDense, TrnConvs, TrnKer, TrnBias, TrnPar, TrnBody, TrnChain, TrnFit the graphs that training compiles; TrnComp CompileBackPropagation; TrnRun one call of ExecFit; TrnAux, TrnLine, TrnPrep, TrnMade what Compile leaves behind; TrnHist, TrnTotal, TrnMain whole programs; TrnLaws what follows for frozen layers, rate zero and momenta); Desc* (training steps of such chains as steps against the gradient).
* Texts: StrSpec (reading texts), StrProofs, StrChain (section Text: the lines of a summary), StrTwice; ShowStep (first section: the lines of the display), ShowProofs.
* Scalars: ScalarSpec (what mixed arithmetic should give; uses the types of ModelScalar), ScalarProofs. Random values: RandProofs. Compiling again: AgainProofs. What Train draws: EpochProofs. ResetIS: ResetProofs.
* Models as layers: NestSpec (which layers a model of models stands for; uses the type ref of ModelNest), NestProofs, NestMain.
* Theorems: P_*, nothing else in them besides examples.

## Simplifications

* Memory is unlimited: `make` never fails.
* Error values are kinds, not message strings.
* A slice of operands captured by an operation is captured by value. (In Go, `Bind` on the captured tensor after compilation would be visible through the shared backing array.)
* Slices passed by the caller (shape arguments) are not modified by the caller afterwards.
* Functions passed to Activate are pure and total.
* Random initial values are arbitrary values.
* Models used as layers: methods are called after the last Push, so that a PreLayer which is a model is the layer its methods end at (ModelNest.v, Flatten).
* Goroutines are not used by the code under study, so execution is sequential.

## Plan per property

* **C01 Row-major indexing is a bijection** - Model GetIndexMul/GetDataSize/GetIndex/ReverseIndex with 64-bit wrap-around; specification is an independent recursive `flat` position and the lexicographic list of all indices; induction on the shape.
* **C02 Bad indices are refused and change nothing** - GetOperand/Get/Set on the heap model; case analysis plus C01.
* **C03 Shape comparison is exact** - Model Equals/GetEqShapeErr; induction on the first shape.
* **C04 Constructors build well-formed, unshared tensors** - Constructors in the heap monad; freshness = every scalar address is new and all distinct.
* **C05 Element count equals the product of the shape** - False of the code (the product wraps); refuted by a witness, proved under the bound (C04).
* **C06 Get returns what Set stored, and only that cell changes** - Heap model, injectivity of flat positions from C01.
* **C07 LoadData/GetData round trip** - Heap model, induction on the data.
* **C08 Copy is deep** - Freshness of the copy's addresses; a later history is any list of writes through the other tensor's addresses.
* **C09 Eager element-wise arithmetic** - Eager methods in the heap monad, generic number type; induction on the element list.
* **C10 Eager reductions** - Eager reductions; specification groups elements by leading indices.
* **C11 Transpose reverses the axes and is an involution** - Index reversal against the independent lookup `at`.
* **C12 SubTensor takes exactly the requested slice** - Same, with coordinate shift.
* **C13 Concatenation places both inputs side by side and refuses incompatible shapes** - Positive part for compatible shapes; refuted for shapes that differ elsewhere (both versions).
* **C14 Reshape keeps the data in row-major order** - Graph version proved; eager version refuted when the element count changes, proved when equal.
* **C15 Dot product** - Contraction over removed coordinates; specification by inserting k in both indices.
* **C16 SoftMax gives a probability distribution** - Over the rationals (exact arithmetic) with the number-generic code; refuted for constant inputs.
* **C17 Extended sub-tensors pad with zeros** - Refuted when the range crosses the end; proved when inside.
* **C18 Operations run in exactly the order they were pushed** - Linked-list model of Context refined to a list; exec of appended lists.
* **C19 A compiled graph computes the mathematical value of its expression** - Expressions (trees obtained by unfolding the node heap) with a separate evaluator; simulation invariant over the builder: every built node's scalars hold the node's value after executing the emitted operations, new operations only write new addresses.
* **C20 Graphs are re-runnable** - Same theorem quantifies over the memory the graph is executed in; histories by induction.
* **C21 Ill-shaped expressions are reported** - Error cases of each builder; refuted for Concat and for a second attempt (flag set before validation).
* **C22 Eager and graph versions agree** - Corollary of C19 and C09-C15 via the common specification.
* **C23 Transfer and Fill overwrite exactly their target** - Direct exec of Set operations; frame lemma.
* **C24 Flatten keeps every element** - Refuted for expressions not compiled yet; proved for plain tensors.
* **C25 Views see later writes** - Pointer-level statement about the views' addresses.
* **C26 Shared sub-expressions are computed once** - Counting destinations in the emitted operations; second build emits nothing.
* **C27 Tensor Save/Load round trip** - Byte-level little-endian codec with a generic fixed-width number codec; induction on elements.
* **C28 Truncated files are reported** - Same model; induction with the remaining byte count.
* **C29 SaveFull/LoadFull round trip** - encoding/binary rejects the non-fixed-size type int: model returns the error; refuted.
* **C30 Save works for every supported number type** - Refuted for T = int.
* **C31 Dense layer forward pass** - Dense builder in the layer monad; exec of the emitted block.
* **C32 Predict of a stack of Dense layers is function composition** - Induction on the number of layers.
* **C33 Predict is pure** - Address freshness of the returned copy; write-set of compiled graphs.
* **C34 Wrong input shapes are refused** - Error paths of Predict/ExecFit.
* **C35 A training step is a gradient step** - Exec of the emitted backward blocks, induction on layers.
* **C36 Momentum influences training** - Refuted: theorem that weights do not depend on momentum when 0*m = 0.
* **C37 Zero learning rate changes nothing** - Corollary of C35.
* **C38 Frozen layers are never changed by training** - Write-set argument: Fit runs only trainable layers' graphs, and no other graph writes weights.
* **C39 SetTrainable(false) on a model freezes all of it** - Refuted by the first layer.
* **C40 Model Save/Load round trip** - Codec composed along the layer chain with the saved/loaded flags.
* **C41 Saving twice writes the same file** - Chains proved; refuted with a Concat layer.
* **C42 Training reaches every trainable layer** - Chains proved; refuted with a Concat layer.
* **C43 Train and TrainOne compile the model on demand** - Refuted: nil dereference in the model.
* **C44 MaxPool2D covers the image with windows** - Window arithmetic; refuted for stride 1 (empty window panics) and strides >= 3 (cells dropped).
* **C45 UpSampling2D repeats cells** - Index arithmetic; refuted for the xy constructor.
* **C46 Conv2D output size and values** - Composition of C19 on the expression each output cell is built from.
* **C47 float16 survives a round trip through float32** - Exhaustive over the 65536 patterns by computation inside Coq (finite domain), value semantics through integers scaled by a power of two.
* **C48 float32 to float16 conversion rounds correctly** - Arithmetic proof over all 32-bit words: the result is a nearest representable value, ties to even.
* **C49 float16 arithmetic is correctly rounded** - Through Flocq's double-rounding theorems.
* **C50 Scalar comparison is a total order consistent with equality** - Case analysis; refuted with NaN.
* **C51 Activation derivatives are the derivatives** - Real analysis (standard library reals); exact arithmetic instead of floats; refuted for ELU/SELU.
* **C52 Activation ranges** - Real analysis.
* **C53 SimpleScale never fails and samples nearest cells** - Index computation with rounded binary64 division and multiplication (Flocq).
* **C54 SmoothScale works for any target size** - Refuted for every enlargement; proved for reductions, with the result compared to the bilinear mean over the reals (ImgBlend.v: error bound step by step).
* **C55 Progress bar has the requested width** - String model; progress as a binary64 product truncated.
* **C56 Integer tensors compute modulo 2^w and only fail on division by zero** - Instantiation of the generic theorems at wrapped integers.
* **C57 Distance** - Over the reals.
* **C58 float64 to float16 conversion rounds correctly** - Composition of Flocq's float64 to float32 rounding with C48; refuted because of double rounding.
* **C59 float16 classification agrees with the format** - Case analysis over the fields.
* **C60 Every history of calls on a dense model is explained by the mathematical network** - Simulation: invariant relating the heap to the mathematical weights, induction on the history.
* **C61 The momentum argument is ignored by dense models** - Two runs of C60 compared.
* **C62 Training a dense model before compiling it panics** - Execution of the model.
* **C63 Programs that build, compile and query any network** - Network description as a term, simulation over the builder of every layer type.
* **C64 Networks that fit never panic** - Progress version of C63.
* **C65 Pushing layers is connecting them** - Two programs, equal states.
* **C66 Deconv2D output size and values** - As C46, counting which inputs reach an output cell.
* **C67 Saving or loading can be tried again after a failure** - Flags of the walk over the layer graph; refuted without reset, proved after reset where no join exists.
* **C68 Training follows the gradient** - The step of C35 over the reals compared with the derivative of the loss by the chain rule, induction on layers; refuted for squares with a non-linear last activation.
* **C69 Backward loops compute the sums they stand for** - One lemma per loop shape (add to one cell, write own cells), then Exec of each emitted block against BwdSpec.
* **C70 Errors and updates of each layer are derivatives** - The sums of C69 compared with the slopes of the layer's value: layers are affine in one cell, sums are exchanged; the maximum is locally constant or the cell itself. Refuted for kernels higher than wide and for unequal steps.
* **C71 Training any chain of layers does what the description says** - Invariant over the calls of a program: the layers hold the parameters of the description, momenta of convolutions live in tensors of their own, tensors of the user share no scalar with the model. Before the first training step the graph of training is compiled (TrnComp), after it every step is one ExecFit (TrnRun). Train is one step for each pick of the random source (NetScript.picked, as in C56); lists of different lengths are refused before anything happens. Training with tensors of other shapes is an error of ExecFit before anything is written to parameters or momenta (TrnHist, fit_bad); Train stops there, the steps before it count (steps_stop). The first training compiles the model even when it is refused, so the program compiles first (ensure_bp, as in C60) to name the model object in that case. SetTrainable changes flags of layers only; everything the graphs of training read is the same for layers that are alike up to flags (TrnHist, Section Alike).
* **C72 Training a chain that fits never panics** - Every sum of the description exists when shapes fit, other shapes are refused; induction on the calls. Excluded: training on empty lists with a positive batch, where the code panics.
* **C73 Flattening does not change learning** - Refuted: a flattening layer counts as a second layer above the one below, whose error is halved.
* **C74 Networks that predict can be trained** - Refuted for kernels wider than high and for steps that differ; C72 is the positive part.
* **C75 Training a chain of any layers follows the gradient** - DescSpec states the cost as a function of one cell of the parameters. Each layer with parameters is a bilinear form in input and weights with an index map (DescLay); pooling at unique maxima, up-sampling and flattening copy cells (DescForm). The chain rule is one induction over the chain, for an arbitrary differentiable family of parameters (DescChain); one cell is a special case (DescMain). DescProg lifts it to programs with the invariant of C71.
* **C76 Small training steps make the cost smaller** - The family of the same induction is now the step itself as a function of alpha: the derivative of the cost at alpha = 0 is minus a sum of squares with positive weights.
* **C77 A frozen layer in any chain keeps its parameters** - Induction on the history of C71, whose states say which layers are trainable.
* **C78 Rate zero changes nothing in any chain** - Every sum that is added is a sum of zeros; tensors of parameters are as long as their shapes say (invariant).
* **C79 The momentum only reaches the bias of convolutions** - The tensors of momenta of weights and of dense layers stay zero; two histories compared.
* **C80 LoadImage shows the picture** - One loop lemma for all three loaders (ImgIO.v: load_fills) on top of the painting lemma of C53; a picture is bounds and a total function At. Refuted for bounds that do not begin at 0.
* **C81 ToImg saves what was loaded** - Loop invariant over the pixels written so far; the 256 levels are checked by computation with Flocq's binary64 and binary32.
* **C82 LoadSimpleScaled is loading followed by SimpleScale** - Both loops are described cell by cell; int and uint positions agree below 2^51.
* **C83 LoadSmoothScaled blends the four neighbours** - The error bound of C54 followed by truncation to uint32; exact arithmetic on integers for the same size. Refuted for enlarging.
* **C84 FromModels joins the models in order** - ModelFrom.v; inversion of every step of the monadic program; running joined graphs is running them one after the other (exec_app).
* **C85, C86, C87 FromModels reports errors, connects and trains** - Refuted by concrete programs.
* **C88, C89 Texts of shapes and tensors** - `ints` reads the numbers of a text; it undoes decimal notation (induction on the digits) and so separates texts.
* **C90, C94 The summary of a chain and its numbers** - Induction on the chain; the invariant of C71 gives the layers and outputs after any history. Index is computed by BuildIx apart from LBuild; `late` stands for Go's order of evaluation in `return p.Index, p.PreBuild()`, C94 is refuted for one of the two.
* **C91, C92, C93 Each layer once, always, told apart** - Refuted: doubling by induction on a tower of joins, and concrete programs.
* **C95, C96, C97 The progress display** - Each float operation is a rounding of reals (Flocq), so order is kept and four relative errors bound the percentage; the text of the percentage is the nearest integer of hundredths. TrainShown is Train with the display; equal step by step while i*batch+j does not wrap around. C97 refuted by a case.
* **C98, C99, C100 Models used as layers** - Pushes of layers and models build a forest (NestSpec: contents, spelled, below); invariants of Push tie FirstLayer, LastLayer and PreLayer to it (NestProofs); resolving each PreLayer to a layer gives the state that pushing the layers one after the other gives. SetTrainable follows the same chain; refuted for the first layers of inner models. C100 is refuted by an empty model and by a model pushed into itself.
* **C101, C102, C103, C104 Scalars of mixed types** - The getters of types that are not wider lose nothing, so one operation of Flocq rounds the exact result (for F16 C49); refuted for wider arguments by sums for which another number is nearer. Arithmetic in place on a list of cells. fmt.Sprint of a float32 is an argument, so the texts of two F64 are equal whatever it does.
* **C105, C106 Random values** - rand.Float64 is at most 1 - 2^-53, so a fraction of the rounded difference of the bounds falls at least to the float below when the difference was rounded up, and never exceeds the exact difference (differences below the normal numbers are exact); the rest is monotonicity of rounding. Refuted by computing for the upper bound, for float32 and for overflow. Integers: the conversion of a number below 1 is 0.
* **C107-C110 Compiling again** - each layer has two marks, set when its forward and its backward operations are put into a graph; every step of Compile, CompileBackPropagation, Predict, Train, TrainOne and Push is shown to leave marks alone, whatever the state. A marked last layer adds nothing, so the second graph is empty, and Predict then copies what the output holds (the scalars of the input are not those of the output). C110 is the same for the backward pass. C108 and C109 are refuted by computing.
* **C111, C112 What Train draws** - two calls of Train whose steps draw the same pairs are equal, by unfolding the two loops; with indices all 0 that is training on one pair, and for a longer list the indices are found by search. No pairs: the first step panics, or there is none.
* **C113 ResetIS** - an inductive predicate lists the ways a model can come about; an empty reset graph, or no forward graph yet, is an invariant of it.

## The log of wrong programs

`seeded/LOG.jsonl` has one line per edited definition.

* `failed_lemmas` are the lemmas and theorems whose proofs no longer go through. The rebuild stops at the first file with a failure, so later files are not checked.
* `failed_theorems` are the property theorems that use one of these, by the references Coq records. They are theorems without a checked proof, which is not always the same as false ones: an edit can break the proof of a theorem that still holds.
* An edit that broke nothing has `survived: true`. If a theorem was tightened afterwards, it is named in `tightened`, and the line is that of the second run.

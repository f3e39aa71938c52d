{"id": "C01", "title": "Row-major indexing is a bijection", "statement": "For a shape whose dimensions are all positive and whose element count fits in a uint, turning a flat position into a multi-index and back gives the same position, turning an in-range multi-index into a flat position and back gives the same multi-index, and every flat position obtained from an in-range multi-index is smaller than the element count.", "quantifier": "every shape of every rank, every in-range multi-index, every flat position", "why_tests_cant": "the set of shapes and indices is unbounded; off-by-one strides only show on particular mixed shapes", "anchors": ["tools/tools.go: GetIndexMul, GetDataSize, GetIndex, ReverseIndex"]}
{"id": "C02", "title": "Bad indices are refused and change nothing", "statement": "Get and Set with a multi-index of the right length that is out of range in any dimension return an error and leave every tensor unchanged; with an in-range index on a well-formed tensor they never fail.", "quantifier": "every tensor, every multi-index of matching rank, every stored value", "why_tests_cant": "needs all indices in all dimensions, including zero-sized dimensions", "anchors": ["tools/tools.go: GetIndex", "tensor/tensor_mat.go: GetOperand, Get, Set"]}
{"id": "C03", "title": "Shape comparison is exact", "statement": "Comparing two shapes yields 'equal' exactly when they are identical, 'different rank' exactly when the lengths differ, and otherwise the first position where they differ; the error helper returns no error exactly when shapes are identical.", "quantifier": "every pair of shapes", "why_tests_cant": "unbounded ranks and dimension values", "anchors": ["tools/tools.go: Equals, GetEqShapeErr"]}
{"id": "C04", "title": "Constructors build well-formed, unshared tensors", "statement": "NewZeros, NewOnes and NewFromValues return a tensor whose number of stored scalars is the product of the requested shape (as long as it fits in a uint), holding zeros, ones, or the given values truncated or zero-padded to that size, and none of those scalars is shared with any other tensor or other position.", "quantifier": "every shape with a product below 2^64, every value list (shorter, equal or longer than the size), every prior program state", "why_tests_cant": "needs all shapes and all prior heaps; aliasing is a statement about absence of sharing with everything else", "anchors": ["tensor/constructor.go: NewZeros, NewOnes, NewFromValues, initMat"]}
{"id": "C05", "title": "Element count equals the product of the shape", "statement": "The number of scalars allocated by a constructor is the product of the dimensions for every shape a caller can write.", "quantifier": "every shape of uint dimensions", "why_tests_cant": "overflow needs dimensions far larger than a test can allocate", "anchors": ["tools/tools.go: GetDataSize", "tensor/constructor.go: NewZeros"]}
{"id": "C06", "title": "Get returns what Set stored, and only that cell changes", "statement": "On a tensor with unshared scalars, after Set(v, i) succeeds, Get(i) returns v, Get(j) for any other in-range j returns what it returned before, and every tensor sharing no scalar with it is unchanged.", "quantifier": "every well-formed tensor, every pair of in-range multi-indices, every value", "why_tests_cant": "needs every pair of indices of every shape: a stride bug makes two particular indices collide", "anchors": ["tensor/tensor_mat.go: Get, Set, GetOperand"]}
{"id": "C07", "title": "LoadData/GetData round trip", "statement": "LoadData with a slice of the tensor's size makes GetData return exactly that slice in order; with any other length it returns an error and changes nothing. LoadFromTensor from an unshared tensor of identical shape makes the data equal to the source's, and with any other shape errors and changes nothing.", "quantifier": "every tensor with unshared scalars, every data slice of every length", "why_tests_cant": "unbounded sizes and contents", "anchors": ["tensor/tensor_mat.go: LoadData, GetData, LoadFromTensor"]}
{"id": "C08", "title": "Copy is deep", "statement": "Copy returns a tensor with the same shape and data; afterwards no write through the copy is visible in the original or any other tensor, and vice versa.", "quantifier": "every program state and every sequence of later writes", "why_tests_cant": "isolation is about all later histories of writes", "anchors": ["tensor/tensor_mat.go: Copy"]}
{"id": "C09", "title": "Eager element-wise arithmetic", "statement": "The eager methods Add, Sub, Mul, Div, AddScalar, SubScalar, MulScalar, DivScalar, Neg, Abs and Activate return a new tensor of the same shape whose every element is the operation applied to the corresponding elements; inputs and all other tensors are unchanged and the result shares no scalar with them; binary methods return an error when shapes differ.", "quantifier": "every number type, every shape, every content", "why_tests_cant": "all shapes and contents; absence of mutation and sharing", "anchors": ["tensor/oper2.go", "tensor/oper_scalar.go", "tensor/abs.go", "tensor/neg.go", "tensor/activate.go"]}
{"id": "C10", "title": "Eager reductions", "statement": "Eager Sum, Avg, Max and Min of a tensor equal the left-to-right sum, mean, largest and smallest of its elements; the dimension-wise versions with dimension D return shape[:D+1]-shaped tensors whose every element reduces exactly the elements whose leading D+1 indices agree with it.", "quantifier": "every number type, every shape, every D, every content", "why_tests_cant": "unbounded shapes; block boundaries are where off-by-one errors sit", "anchors": ["tensor/tensor_math.go", "tensor/dim_math.go", "tools/math.go"]}
{"id": "C11", "title": "Transpose reverses the axes and is an involution", "statement": "The element at index (i1..in) of the transpose is the element at (in..i1) of the source, its shape is the reversed shape, and transposing twice gives back the same shape and data; for eager and graph versions.", "quantifier": "every shape and rank, every index", "why_tests_cant": "all ranks, all index permutations", "anchors": ["tensor/transpose.go", "tools/tools.go: GetInvertedIndex"]}
{"id": "C12", "title": "SubTensor takes exactly the requested slice", "statement": "SubTensor(d, from, to) with d a valid dimension and from < to <= shape[d] has shape[d] replaced by to-from and its element at index i equals the source element at i with from added to coordinate d; every other argument combination returns an error; for eager and graph versions.", "quantifier": "every shape, dimension, range and index", "why_tests_cant": "all ranges against all shapes, including boundaries", "anchors": ["tensor/sub_tensor.go"]}
{"id": "C13", "title": "Concatenation places both inputs side by side and refuses incompatible shapes", "statement": "Concatenating along dimension d two tensors whose shapes agree everywhere except possibly at d gives a tensor whose shape[d] is the sum, with the first input's elements at coordinates below its own shape[d] and the second's after; inputs whose shapes differ anywhere else are refused with an error.", "quantifier": "every pair of shapes, every dimension, every content", "why_tests_cant": "needs every pair of shapes; the unchecked mismatches are specific combinations", "anchors": ["tensor/concat.go"]}
{"id": "C14", "title": "Reshape keeps the data in row-major order", "statement": "Reshaping to a shape with the same element count preserves the row-major data; reshaping to a larger shape pads with zeros and to a smaller one truncates.", "quantifier": "every tensor, every new shape", "why_tests_cant": "all pairs of shapes; growing and shrinking", "anchors": ["tensor/reshape.go"]}
{"id": "C15", "title": "Dot product", "statement": "The dot product of two vectors of equal length is the sum of the products of their elements; on chosen dimensions (da, db) the element of the result at (i without da, j without db) is the sum over k of A[i with k at da] * B[j with k at db]; operands whose contracted dimensions differ are refused.", "quantifier": "every pair of shapes and dimensions, every content", "why_tests_cant": "all ranks and contraction dimensions", "anchors": ["tensor/dot_product.go"]}
{"id": "C16", "title": "SoftMax gives a probability distribution", "statement": "For every non-empty input the outputs are between 0 and 1, keep the order of the inputs and add up to 1 (in exact arithmetic).", "quantifier": "every non-empty input tensor", "why_tests_cant": "all contents including constant inputs", "anchors": ["tensor/softmax.go"]}
{"id": "C17", "title": "Extended sub-tensors pad with zeros", "statement": "SubExtendedTensor / FOSubTensor with a range reaching past the end of the dimension returns the existing elements followed by zeros.", "quantifier": "every shape, dimension and range", "why_tests_cant": "all ranges, in particular those crossing the end of the dimension", "anchors": ["tensor/sub_tensor.go: SubExtendedTensor, FOSubTensor"]}
{"id": "C18", "title": "Operations run in exactly the order they were pushed", "statement": "Reading the operations of a context returns exactly the sequence of pushed operations, each once, oldest first, after any sequence of pushes and reads; a graph executes them in that order, and appending one graph to another executes the first then the second.", "quantifier": "every sequence of pushes and reads, every program of operations", "why_tests_cant": "all histories", "anchors": ["context/context.go: Push, GetOps", "graph/graph.go: NewGraph, NewFromGraph, AddFromGraph, Exec"]}
{"id": "C19", "title": "A compiled graph computes the mathematical value of its expression", "statement": "For every well-shaped expression over tensors built from element-wise arithmetic, scalars, activations, transposition, slicing, concatenation, reshaping, reductions, dot products and soft-max, with arbitrary sharing of sub-expressions, compiling it into a graph succeeds and, after executing the graph, the result tensor has the shape and exactly the data obtained by evaluating the expression mathematically on the input tensors' data; the input tensors are not modified.", "quantifier": "every finite expression DAG, every number type, every input content", "why_tests_cant": "infinitely many expressions, sharing patterns and contents", "anchors": ["graph/graph.go", "tensor/*.go BuildGraph", "operation/*.go Cal"]}
{"id": "C20", "title": "Graphs are re-runnable", "statement": "After compilation, overwriting the data of the input tensors any number of times and executing again always yields the value of the expression on the current inputs: results do not depend on earlier executions, and executing twice in a row gives the same result as once.", "quantifier": "every expression, every history of input updates and executions", "why_tests_cant": "all histories", "anchors": ["graph/graph.go: Exec", "tensor/*.go BuildGraph"]}
{"id": "C21", "title": "Ill-shaped expressions are reported", "statement": "Compiling an expression containing an element-wise operation on different shapes, an invalid slice, or an invalid contraction returns an error, every time it is attempted.", "quantifier": "every expression and every number of compile attempts", "why_tests_cant": "all expressions and histories of attempts", "anchors": ["tensor/oper2.go", "tensor/sub_tensor.go", "tensor/dot_product.go", "tensor/concat.go"]}
{"id": "C22", "title": "Eager and graph versions agree", "statement": "For every operation offered in both forms, the eager method and compiling plus executing the graph node give the same shape and data on the same inputs (for number types where 0 + x = x).", "quantifier": "every operation, every input for which both succeed", "why_tests_cant": "all operations, shapes and contents", "anchors": ["tensor/*.go"]}
{"id": "C23", "title": "Transfer and Fill overwrite exactly their target", "statement": "Executing a graph containing Transfer(from, to) makes to's data equal to from's at that point of the execution order, Fill(t, v) makes every element of t equal to v's value at that point; no scalar outside the target changes because of them; Transfer between different shapes is refused.", "quantifier": "every pair of tensors, every memory content", "why_tests_cant": "absence of other effects over all memories", "anchors": ["tensor/copy.go", "tensor/fill.go"]}
{"id": "C24", "title": "Flatten keeps every element", "statement": "Flatten(t) inside a graph yields the one-dimensional tensor of all elements of t in row-major order, for every tensor t.", "quantifier": "every tensor expression t", "why_tests_cant": "t ranges over all expressions, including ones not compiled yet", "anchors": ["tensor/reshape.go: Flatten"]}
{"id": "C25", "title": "Views see later writes", "statement": "Graph-level transposes, slices, concatenations and reshapes share the scalars of their sources: after compiling, a value written into the source through Set is read back through the view at the corresponding index, without executing the graph.", "quantifier": "every view expression, every index, every written value", "why_tests_cant": "all indices and compositions of views", "anchors": ["tensor/transpose.go", "tensor/sub_tensor.go", "tensor/concat.go", "tensor/reshape.go"]}
{"id": "C26", "title": "Shared sub-expressions are computed once", "statement": "Compiling an expression emits each sub-expression's operations exactly once however often it is used, and compiling again adds nothing.", "quantifier": "every expression DAG", "why_tests_cant": "all sharing patterns", "anchors": ["tensor/*.go BuildGraph"]}
{"id": "C27", "title": "Tensor Save/Load round trip", "statement": "For number types of fixed size, Load from the bytes produced by Save restores exactly the saved data into a tensor of the same size, consuming exactly size*width bytes and leaving the rest of the stream untouched.", "quantifier": "every tensor, every content, every suffix of the stream", "why_tests_cant": "all contents, all stream suffixes", "anchors": ["tensor/tensor_mat.go: Save, Load"]}
{"id": "C28", "title": "Truncated files are reported", "statement": "Load from a stream holding fewer bytes than the tensor needs returns an error without panicking, and changes only elements whose bytes were completely present.", "quantifier": "every truncation point", "why_tests_cant": "every crash/truncation point of every file", "anchors": ["tensor/tensor_mat.go: Load"]}
{"id": "C29", "title": "SaveFull/LoadFull round trip", "statement": "SaveFull writes shape and data so that LoadFull on any tensor object restores both.", "quantifier": "every tensor", "why_tests_cant": "every tensor and type", "anchors": ["tensor/tensor_mat.go: SaveFull, LoadFull"]}
{"id": "C30", "title": "Save works for every supported number type", "statement": "Save/Load round-trips for every type admitted by the Number constraint.", "quantifier": "every number type and tensor", "why_tests_cant": "type-level quantification", "anchors": ["tensor/tensor_mat.go: Save", "types/types.go"]}
{"id": "C31", "title": "Dense layer forward pass", "statement": "After a prediction each output of a Dense layer is the activation of the sum over inputs of input*weight plus the bias, with the weights currently stored in the layer, for inputs of any shape (flattened) and any number of units.", "quantifier": "every input size, unit count, weights, bias, activation, input", "why_tests_cant": "unbounded sizes and contents", "anchors": ["layer/dense.go: BuildFeedforward"]}
{"id": "C32", "title": "Predict of a stack of Dense layers is function composition", "statement": "For a model made of an Input layer followed by any number of Dense layers, Predict(x) equals the composition of the layers' mathematical functions with the current weights, regardless of what was predicted before.", "quantifier": "every depth, widths, weights, activations, inputs, and every history of predictions", "why_tests_cant": "unbounded depth and history", "anchors": ["model/model.go: Push, Compile, Predict", "layer/dense.go", "layer/base.go"]}
{"id": "C33", "title": "Predict is pure", "statement": "Predict does not change the weights or the given input tensor, predicting twice gives equal outputs, and a tensor returned by Predict is never changed by later predictions or training.", "quantifier": "every model of the modelled kinds, every later history", "why_tests_cant": "all later histories", "anchors": ["model/model.go: Predict"]}
{"id": "C34", "title": "Wrong input shapes are refused", "statement": "Predict with an input whose shape differs from the input layer's returns an error, and a training step with a wrong input or target shape returns an error and changes no weight.", "quantifier": "every model, every wrong shape", "why_tests_cant": "all shapes", "anchors": ["model/model.go: Predict, ExecFit", "tensor/tensor_mat.go: LoadFromTensor"]}
{"id": "C35", "title": "A training step is a gradient step", "statement": "One training step on a stack of Dense layers adds alpha*dif_i*x_j to every weight w_ij and alpha*dif_i to every bias, where dif of the last layer is target minus output, dif of a hidden layer is its activation derivative times the back-propagated sum, all computed from the values before the step; the returned loss is the sum of |target - output|.", "quantifier": "every depth, width, weight, sample, learning rate", "why_tests_cant": "unbounded nets and values; aliasing or ordering errors in the graph only show for particular depths", "anchors": ["model/model.go: CompileBackPropagation, ExecFit, TrainOne", "layer/dense.go: BuildBackpropagation"]}
{"id": "C36", "title": "Momentum influences training", "statement": "The momentum argument of Train changes the weight updates from the second step on.", "quantifier": "every dense model, every sample sequence, every momentum", "why_tests_cant": "all histories", "anchors": ["layer/dense.go: BuildBackpropagation"]}
{"id": "C37", "title": "Zero learning rate changes nothing", "statement": "Training a Dense model with alpha = 0 leaves every weight and bias unchanged (for number types where 0*x = 0 and x + 0 = x).", "quantifier": "every dense model, every training history", "why_tests_cant": "all histories", "anchors": ["layer/dense.go", "model/model.go"]}
{"id": "C38", "title": "Frozen layers are never changed by training", "statement": "A layer whose trainable flag is false keeps its weights and biases through any sequence of training steps.", "quantifier": "every model of the modelled kinds, every training history", "why_tests_cant": "all histories", "anchors": ["layer/base.go: Fit, SetTrainable", "model/model.go"]}
{"id": "C39", "title": "SetTrainable(false) on a model freezes all of it", "statement": "After SetTrainable(false) on a model no training step changes any weight of that model.", "quantifier": "every model", "why_tests_cant": "all models and histories", "anchors": ["model/model_layer.go: SetTrainable"]}
{"id": "C40", "title": "Model Save/Load round trip", "statement": "Saving a model and loading the file into a model of the same architecture makes all corresponding weights and biases equal, and so all predictions equal.", "quantifier": "every chain of layers, all weights", "why_tests_cant": "unbounded architectures", "anchors": ["layer/base.go: Save, Load", "model/model.go / model_layer.go"]}
{"id": "C41", "title": "Saving twice writes the same file", "statement": "After ResetSave, saving again writes the complete model again.", "quantifier": "every layer graph, including ones with Concat", "why_tests_cant": "all layer graphs", "anchors": ["layer/base.go: Save, ResetSave", "layer/concat.go"]}
{"id": "C42", "title": "Training reaches every trainable layer", "statement": "Fit updates every trainable layer from which the output is reachable.", "quantifier": "every layer graph, including ones with Concat", "why_tests_cant": "all layer graphs", "anchors": ["layer/base.go: Fit", "layer/concat.go"]}
{"id": "C43", "title": "Train and TrainOne compile the model on demand", "statement": "Calling Train or TrainOne on a freshly constructed model compiles it and trains; it does not crash.", "quantifier": "every model", "why_tests_cant": "all models", "anchors": ["model/model.go: Train, TrainOne, CompileBackPropagation"]}
{"id": "C44", "title": "MaxPool2D covers the image with windows", "statement": "MaxPool2D with strides (sx, sy) outputs in each cell the maximum of the non-empty window of the input it stands for, and every input cell belongs to some window.", "quantifier": "every image size and stride", "why_tests_cant": "all sizes and strides", "anchors": ["layer/max_pool_2d.go"]}
{"id": "C45", "title": "UpSampling2D repeats cells", "statement": "UpSampling2D with factors (sx, sy) outputs at (f,x,y) the input at (f, x/sx, y/sy), and both its constructors build that layer.", "quantifier": "every image size and factor", "why_tests_cant": "all sizes", "anchors": ["layer/up_sampling_2d.go"]}
{"id": "C46", "title": "Conv2D output size and values", "statement": "Conv2D with kernel (kw,kh) and strides (sx,sy) on an input at least as large as the kernel has one output per kernel position, equal to the activation of bias plus the sum of input*weight over the window.", "quantifier": "every image, kernel, stride and filter count", "why_tests_cant": "all sizes", "anchors": ["layer/conv2d.go"]}
{"id": "C47", "title": "float16 survives a round trip through float32", "statement": "Converting any float16 to float32 and back gives the same bits, and its float32 value is the value the IEEE 754 binary16 format assigns to it.", "quantifier": "all 65536 float16 bit patterns", "why_tests_cant": "the existing tests do not enumerate them, and value correctness needs the format's semantics", "anchors": ["scalar/f16.go: f16bitsToF32bits, f32bitsToF16bits"]}
{"id": "C48", "title": "float32 to float16 conversion rounds correctly", "statement": "Converting any float32 to float16 gives the round-to-nearest-even binary16 value, with overflow to infinity, signed zeros kept, and NaN mapped to NaN.", "quantifier": "all 2^32 float32 bit patterns", "why_tests_cant": "needs all bit patterns and a definition of correct rounding", "anchors": ["scalar/f16.go: f32bitsToF16bits"]}
{"id": "C49", "title": "float16 arithmetic is correctly rounded", "statement": "Add, Sub, Mul and Div on float16 scalars return the correctly rounded binary16 result of the exact operation (no double-rounding error from computing in float32).", "quantifier": "all pairs of finite float16 values", "why_tests_cant": "2^32 pairs per operation and a definition of exact result", "anchors": ["scalar/f16.go: Add, Sub, Mul, Div"]}
{"id": "C50", "title": "Scalar comparison is a total order consistent with equality", "statement": "Cmp returns less/equal/greater consistently: swapping arguments flips the answer, and it returns 'equal' only for equal values.", "quantifier": "all pairs of scalar values of each type", "why_tests_cant": "all pairs, including NaN", "anchors": ["scalar/f16.go: Cmp", "scalar/f32.go: Cmp", "scalar/f64.go: Cmp"]}
{"id": "C51", "title": "Activation derivatives are the derivatives", "statement": "For Linear, Relu, ELU, SELU, Sigmoid, Tanh, Sin and Swish, Derive is the mathematical derivative of Activate at every point where it exists.", "quantifier": "every real input, every alpha", "why_tests_cant": "all reals", "anchors": ["activation/*.go"]}
{"id": "C52", "title": "Activation ranges", "statement": "Sigmoid outputs lie strictly between 0 and 1, Tanh strictly between -1 and 1, Sin in [-1,1], Relu with alpha >= 0 preserves order.", "quantifier": "every real input", "why_tests_cant": "all reals", "anchors": ["activation/sigmoid.go", "activation/tanh.go", "activation/sin.go", "activation/relu.go"]}
{"id": "C53", "title": "SimpleScale never fails and samples nearest cells", "statement": "Scaling a three-dimensional image to any positive size succeeds and every output cell is the input cell at floor(x*W/w), floor(y*H/h).", "quantifier": "every image and target size", "why_tests_cant": "floating-point index computation over all sizes", "anchors": ["img/simple_scale.go"]}
{"id": "C54", "title": "SmoothScale works for any target size", "statement": "SmoothScale to any positive size returns an image.", "quantifier": "every image and target size", "why_tests_cant": "all sizes, in particular enlargements", "anchors": ["img/smooth_scale.go"]}
{"id": "C55", "title": "Progress bar has the requested width", "statement": "Bar(p, size) has exactly max(size,0) characters for every progress between 0 and 1.", "quantifier": "every size and progress", "why_tests_cant": "all sizes and floats", "anchors": ["tools/bar.go"]}
{"id": "C56", "title": "Integer tensors compute modulo 2^w and only fail on division by zero", "statement": "On integer tensors element-wise arithmetic wraps modulo 2^w into the signed range, and executing a graph panics only if some division has a zero divisor (or a reduction of nothing).", "quantifier": "every width, every content", "why_tests_cant": "all values including extremes", "anchors": ["operation/*.go", "types/types.go"]}
{"id": "C57", "title": "Distance", "statement": "Distant between two slices is zero for identical slices, symmetric, and refused for slices of different length (exact arithmetic).", "quantifier": "every pair of slices", "why_tests_cant": "all pairs", "anchors": ["tools/tools.go: Distant"]}
{"id": "C58", "title": "float64 to float16 conversion rounds correctly", "statement": "Building a float16 from a float64 gives the binary16 number nearest to the float64, ties to even.", "quantifier": "all finite float64 values", "why_tests_cant": "2^64 values, and the wrong ones differ only in bits beyond float32", "anchors": ["scalar/f16.go: F16fromF64, S64"]}
{"id": "C59", "title": "float16 classification agrees with the format", "statement": "IsNaN, IsInf, IsFinite, IsNormal and Signbit say what the IEEE 754 binary16 format says of each bit pattern, and NaN and Inf constants encode a NaN and the infinity of the asked sign.", "quantifier": "all 65536 float16 bit patterns", "why_tests_cant": "needs the definition of the format for every pattern", "anchors": ["scalar/f16.go: IsNaN, IsQuietNaN, IsInf, IsFinite, IsNormal, Signbit, NaN, Inf"]}
{"id": "C60", "title": "Every history of calls on a dense model is explained by the mathematical network", "statement": "For a model built from an Input layer and any number of Dense layers (or Dense layers only), any sequence of creating tensors, predicting, training (one pair or epochs with random picks), reading tensors, refused calls with wrong shapes or lengths, and changing trainable flags, shows exactly the numbers of the pure network description, starting from the random initial parameters, and never panics; afterwards the layer objects hold the parameters of that description.", "quantifier": "every architecture, number type whose 1 is not 0, activation, random source, initial heap and finite sequence of calls", "why_tests_cant": "unbounded architectures and call sequences; aliasing between layers, tensors and graphs shows only in particular orders", "anchors": ["model/model.go", "model/model_layer.go", "layer/dense.go", "layer/base.go", "layer/input.go", "graph/graph.go"]}
{"id": "C61", "title": "The momentum argument is ignored by dense models", "statement": "Replacing the momentum of every training call by any other number changes neither what is shown nor any parameter (for number types where 0*x = 0).", "quantifier": "every dense model, every history, every replacement", "why_tests_cant": "all histories and values", "anchors": ["layer/dense.go: BuildBackpropagation", "model/model.go: TrainOne, Train"]}
{"id": "C62", "title": "Training a dense model before compiling it panics", "statement": "For every freshly built dense model, TrainOne with any arguments and Train with lists of equal length panic.", "quantifier": "every dense model, all arguments", "why_tests_cant": "all models and arguments", "anchors": ["model/model.go: TrainOne, Train, CompileBackPropagation"]}
{"id": "C63", "title": "Programs that build, compile and query any network", "statement": "For layers of every kind (Input, Dense, Conv2D, Deconv2D, MaxPool2D, UpSampling2D, Flatten, Norm, ENorm, SoftMax, SubTensor, Concat) connected in any acyclic way, with sharing, joins and inputs that are never set, a program that builds them, compiles the model between two of them and then creates tensors, predicts, reads tensors and makes refused calls in any order shows exactly the numbers of the mathematical network; bias and weights are fresh draws of the right shapes and are never changed; the program panics exactly where the mathematical network has no value.", "quantifier": "every layer graph whose shapes fit, every number type, activation, random source, initial heap and finite sequence of calls", "why_tests_cant": "unbounded layer graphs and call sequences; shared layers and aliasing fail only in particular shapes", "anchors": ["layer/*.go: Connect, Build, BuildFeedforward", "model/model.go: Compile, Predict, FromInOut"]}
{"id": "C64", "title": "Networks that fit never panic", "statement": "If every convolution has a channel, every pooling stride is at least 2 and normalisations see at least one number with a division that does not fail, then every sequence of calls on existing tensors ends without panic.", "quantifier": "every such network and every finite sequence of calls", "why_tests_cant": "unbounded networks and histories", "anchors": ["layer/*.go", "model/model.go: Predict"]}
{"id": "C65", "title": "Pushing layers is connecting them", "statement": "NewModel followed by Push of layer after layer makes the same model, the same layers and the same later results as making the layers, connecting each to the one before and using FromInOut.", "quantifier": "every first layer, every list of layers, every later history, every heap", "why_tests_cant": "all lists of layers", "anchors": ["model/model.go: NewModel, Push, FromInOut"]}
{"id": "C66", "title": "Deconv2D output size and values", "statement": "Deconv2D with kernel (kw,kh) and strides (sx,sy) outputs (w-1)*sx+kw by (h-1)*sy+kh cells; each is the activation of the bias plus, for every input cell and kernel cell that fall on it, their product.", "quantifier": "every image, kernel, stride and filter count", "why_tests_cant": "all sizes", "anchors": ["layer/deconv2d.go"]}
{"id": "C67", "title": "Saving or loading can be tried again after a failure", "statement": "If saving (or loading) a network fails because the writer is full (the file ends early), the next save (load) moves the whole network.", "quantifier": "every layer graph, every place where the failure happens", "why_tests_cant": "all failure points in all layer graphs", "anchors": ["layer/base.go: Save, Load, ResetSave, ResetLoad", "model/model.go: Save, Load"]}
{"id": "C68", "title": "Training follows the gradient", "statement": "One TrainOne step changes every weight and bias of a trainable layer by minus alpha times the derivative of half the squared error with respect to it.", "quantifier": "every stack of dense layers, input, target, weights reached by any history, over exact real arithmetic", "why_tests_cant": "Derivatives are limits; tests compare finite differences at a few points with a tolerance.", "anchors": ["layer/dense.go", "layer/base.go", "model/model.go"]}
{"id": "C69", "title": "Backward loops compute the sums they stand for", "statement": "The operations that a convolution, deconvolution, dense, max pooling or up-sampling layer appends while compiling its backward pass succeed when executed and leave in the error of the input, the derivatives and the new parameters exactly the sums given by an independent description, and write to no other existing scalar.", "quantifier": "every size of input, kernel and stride that fits, every memory, every number type", "why_tests_cant": "Index arithmetic over six nested loops depends on all sizes at once; tests cover a few sizes.", "anchors": ["layer/conv2d.go", "layer/deconv2d.go", "layer/dense.go", "layer/max_pool_2d.go", "layer/up_sampling_2d.go"]}
{"id": "C70", "title": "Errors and updates of each layer are derivatives", "statement": "Over exact real arithmetic the error a layer passes to its input is the derivative, with respect to that input, of its outputs weighted with their errors, times the derivative below; the change of weights and biases is the derivative with respect to them.", "quantifier": "every size, kernel, step, weights, input and error", "why_tests_cant": "Derivatives are limits; finite differences are compared at a few points with a tolerance and mostly on square kernels.", "anchors": ["layer/conv2d.go", "layer/deconv2d.go", "layer/dense.go", "layer/max_pool_2d.go", "layer/up_sampling_2d.go"]}
{"id": "C71", "title": "Training any chain of layers does what the description says", "statement": "A program that pushes layers of any kind onto an input (or a dense layer of its own), compiles the model and then creates tensors, reads them, predicts, trains on one pair, trains on lists of pairs for any number of epochs and any batch size and calls SetTrainable on layers or on the model, in any order, shows exactly what a mathematical description shows: predictions are the layers composed, every training step returns the sum of absolute errors and replaces bias and weights by the described ones (errors propagated through every layer kind, convolution bias momentum kept from step to step), training on lists is one step for each pair the random source picks, lists of different lengths are refused without any change, a step with tensors of other shapes is refused without any change, training on lists stops at the first picked pair of other shapes and keeps the steps before it, layers that are not trainable keep bias and weights while their momenta are updated, SetTrainable on the model leaves out the lowest layer, and in the end the layers hold the described parameters.", "quantifier": "every chain of dense, convolution, deconvolution, pooling, up-sampling, flattening, normalisation and softmax layers that fits, every history of calls, every number type, every random source", "why_tests_cant": "A step depends on the heap sharing among eleven tensors per layer and on all earlier steps; tests train a few fixed networks and look at the loss.", "anchors": ["model/model.go", "layer/dense.go", "layer/conv2d.go", "layer/deconv2d.go", "layer/max_pool_2d.go", "layer/up_sampling_2d.go", "layer/flatten.go", "layer/base.go"]}
{"id": "C72", "title": "Training a chain that fits never panics", "statement": "When the layers of a chain fit each other, no call of such a program panics, whatever the shapes of the tensors it is given, provided that the calls name existing tensors and layers and that training on lists does not pick from empty lists. Predictions on tensors of the input's shape and training steps on tensors of the input's and output's shape are never refused; all other refusals are the ones that C71 describes.", "quantifier": "every chain that fits, every history of calls on existing tensors of any shape", "why_tests_cant": "Index errors and nil dereferences depend on sizes; tests see a few sizes.", "anchors": ["model/model.go", "layer/base.go", "layer/conv2d.go"]}
{"id": "C73", "title": "Flattening does not change learning", "statement": "Putting a flattening layer between two layers of one axis changes neither predictions nor what training does.", "quantifier": "all chains", "why_tests_cant": "Both networks train; only a comparison step by step shows the difference.", "anchors": ["layer/flatten.go", "layer/base.go"]}
{"id": "C74", "title": "Networks that predict can be trained", "statement": "A chain of layers that compiles and predicts can also be trained.", "quantifier": "all chains of layers", "why_tests_cant": "Examples use square kernels and equal steps.", "anchors": ["layer/conv2d.go"]}
{"id": "C75", "title": "Training a chain of any layers follows the gradient", "statement": "After any history of calls, one call of TrainOne on a chain of dense, convolution, deconvolution, pooling, up-sampling and flattening layers moves every cell of every bias and every weight of a trainable layer by alpha times the speed of its layer against the partial derivative of the cost in that cell, plus momentum times the last change for the bias of a convolution. The cost is half the sum of squares for a linear last layer and the cross entropy for a sigmoid one.", "quantifier": "all chains, all sizes, all histories, all inputs and targets, every parameter cell, real arithmetic", "why_tests_cant": "A numeric gradient check sees a few networks and tolerates errors; a wrong factor or a dropped layer of the chain rule still makes training converge.", "anchors": ["model/model.go", "layer/base.go", "layer/dense.go", "layer/conv2d.go", "layer/deconv2d.go", "layer/max_pool_2d.go"]}
{"id": "C76", "title": "Small training steps make the cost smaller", "statement": "When all layers are trainable, then unless all partial derivatives are zero there is a positive bound such that one call of TrainOne with a smaller positive alpha and no momentum makes the cost of the trained example strictly smaller.", "quantifier": "all chains, all histories, all inputs and targets, all small alpha, real arithmetic", "why_tests_cant": "Tests see loss curves of a few runs; no run shows that every layer contributes in the right direction.", "anchors": ["model/model.go", "layer/base.go"]}
{"id": "C77", "title": "A frozen layer in any chain keeps its parameters", "statement": "After SetTrainable(false) on a layer of any kind, or on the model for a layer that is not the lowest, no prediction, training call or SetTrainable on other layers changes its bias or weights, until SetTrainable(true) is called on it or on the model.", "quantifier": "every chain of layers of any kind, every layer of it, every history before and after", "why_tests_cant": "all chains and histories; a wrong flag only shows when training follows", "anchors": ["layer/base.go: Fit, SetTrainable", "model/model_layer.go: SetTrainable", "model/model.go: ExecFit, Train, TrainOne"]}
{"id": "C78", "title": "Rate zero changes nothing in any chain", "statement": "Training a chain of layers of any kind with alpha = 0 leaves every bias and weight unchanged, if the momentum is zero or there is no convolution (for number types where 0*x = x*0 = 0 and x + 0 = x).", "quantifier": "every chain of layers of any kind, every history", "why_tests_cant": "all chains, histories and values", "anchors": ["layer/dense.go: BuildBackpropagation", "layer/conv2d.go: BuildBackpropagation", "layer/deconv2d.go: BuildBackpropagation", "model/model.go: TrainOne, Train"]}
{"id": "C79", "title": "The momentum only reaches the bias of convolutions", "statement": "In chains without convolution layers, replacing the momentum of every training call by any other number changes neither what is shown nor any parameter. In any chain, one training step with two different momenta shows the same loss and gives the same weights in all layers and the same bias in dense layers (for number types where 0*x = 0).", "quantifier": "every chain of layers of any kind, every history, every replacement", "why_tests_cant": "all chains, histories and values", "anchors": ["layer/dense.go: BuildBackpropagation", "layer/conv2d.go: BuildBackpropagation", "layer/deconv2d.go: BuildBackpropagation", "model/model.go: TrainOne, Train"]}
{"id": "C80", "title": "LoadImage shows the picture", "statement": "LoadImage gives a tensor of shape [4, width, height]; cell [d, x, y] is channel d (red, green, blue, alpha) of the pixel in column x and row y of the picture divided by 65535, rounded to the nearest float64 and converted to T. If the file cannot be decoded the error is returned and no tensor is made.", "quantifier": "every picture (any size that fits, any colours), every number type", "why_tests_cant": "all pictures and colours", "anchors": ["img/image.go: LoadImage"]}
{"id": "C81", "title": "ToImg saves what was loaded", "statement": "ToImg refuses tensors that are not of rank 3 and tensors with pixels but fewer than four channels; otherwise pixel (x, y) is uint8(v*255) for the first four channels, and the tensor is left alone. Loading a picture and saving it gives the same picture.", "quantifier": "every tensor, every picture", "why_tests_cant": "all pictures and all 256 levels of each channel, float64 and float32", "anchors": ["img/save.go: ToImg", "img/image.go: LoadImage"]}
{"id": "C82", "title": "LoadSimpleScaled is loading followed by SimpleScale", "statement": "LoadSimpleScaled gives the same tensor as LoadImage followed by SimpleScale to the same size; each cell shows the pixel at (x*W/w, y*H/h).", "quantifier": "every picture with pixels, every target size (products below 2^51)", "why_tests_cant": "all pictures and sizes, rounding of float64", "anchors": ["img/image.go: LoadSimpleScaled", "img/simple_scale.go: SimpleScale"]}
{"id": "C83", "title": "LoadSmoothScaled blends the four neighbours", "statement": "LoadSmoothScaled succeeds for every target size; each cell is the mean of the four pixels around x*W/w, y*H/h weighted by distance, cut to 16 bits and divided by 65535; asked for the size of the picture it gives what LoadImage gives; a picture of one colour stays one.", "quantifier": "every picture, every target size", "why_tests_cant": "all pictures and sizes, rounding of float64", "anchors": ["img/image.go: LoadSmoothScaled"]}
{"id": "C84", "title": "FromModels joins the models in order", "statement": "Whenever FromModels returns a model, its graphs are the graphs of the given models, forward and reset graphs from first to last and the backward graph from last to first; its input is the first model's, its output, target, rate, momentum, loss and error graph are the last one's. Predict is loading the first input, running each model in order and copying the last output. No models is an error; compiled and connected models are not changed.", "quantifier": "every list of models in every state, every input", "why_tests_cant": "The states and lengths are unbounded; no test in the repository calls FromModels.", "anchors": ["model/model.go:52-139", "graph/graph.go:27-41"]}
{"id": "C85", "title": "FromModels reports models that do not compile", "statement": "When a model cannot be compiled FromModels returns an error.", "quantifier": "every list of models", "why_tests_cant": "Errors of Compile are ignored inside FromModels; no test has such a model.", "anchors": ["model/model.go:63-73"]}
{"id": "C86", "title": "Stacked models feed each other", "statement": "In a model made by FromModels the second model computes on what the first one gives, also when both were compiled before.", "quantifier": "every pair of compiled models and every input", "why_tests_cant": "No test stacks models that were compiled before.", "anchors": ["model/model.go:57-67"]}
{"id": "C87", "title": "A model made of models learns like one model", "statement": "A training step of the model FromModels makes of two models changes the parameters as the same layers pushed into one model.", "quantifier": "every pair of models, every input and target", "why_tests_cant": "No test trains such a model.", "anchors": ["model/model.go:69-73", "layer/base.go:81-97", "layer/dense.go:136-138"]}
{"id": "C88", "title": "Numbers and shapes are written in decimal", "statement": "ShapeStr writes a shape as the decimal notations of its sizes, in order, with \", \" between them and brackets around; reading the integers of the text gives the shape back, so different shapes have different texts.", "quantifier": "every number and every shape", "why_tests_cant": "Lengths and sizes are unbounded; no test calls ShapeStr.", "anchors": ["tools/tools.go:118-129"]}
{"id": "C89", "title": "The text of a tensor says what it holds", "statement": "String of a tensor writes the number of dimensions, the number of values, the shape and the values in order, without changing anything; for integers the text determines the tensor.", "quantifier": "every well-formed tensor in every state, every notation of numbers", "why_tests_cant": "Shapes and values are unbounded; tests call String only in failure messages.", "anchors": ["tensor/tensor_mat.go:123-142"]}
{"id": "C90", "title": "The summary of a chain lists its layers from the input on", "statement": "After any history of predictions and training steps String of a model that is a chain of layers gives a line for every layer from the input to the last one, with its number, the number of the layer below, its word and its output shape, between a first and a last line.", "quantifier": "every chain of layers of any kinds and lengths, every history, both orders in which Go may read Index", "why_tests_cant": "Chains and histories are unbounded; no test looks at summaries.", "anchors": ["model/model.go:402-410", "layer/base.go:241-266", "layer/base.go:81-97"]}
{"id": "C91", "title": "The summary lists every layer once", "statement": "Every layer of a model appears in exactly one line of its summary.", "quantifier": "every model", "why_tests_cant": "The flag printed that should stop repetitions is never set; no test joins a layer with itself.", "anchors": ["layer/base.go:241-266", "layer/concat.go:145-160"]}
{"id": "C92", "title": "A model can always be printed", "statement": "String of a model returns a text.", "quantifier": "every model in every state", "why_tests_cant": "No test prints a model that is not compiled or made of models.", "anchors": ["model/model.go:402-410", "layer/base.go:241-275", "layer/input.go:54-56"]}
{"id": "C93", "title": "Layers of different kinds have different lines", "statement": "The summary tells kinds of layers apart.", "quantifier": "every two kinds of layers", "why_tests_cant": "No test looks at summaries.", "anchors": ["layer/deconv2d.go:29", "layer/up_sampling_2d.go:22", "layer/conv2d.go:29", "layer/max_pool_2d.go:22"]}
{"id": "C94", "title": "Layers are numbered by their position", "statement": "The number of a layer of a chain is the number of layers below it.", "quantifier": "every chain of layers, both orders in which Go may read Index in `return p.Index, p.PreBuild()`", "why_tests_cant": "A test sees one compiler's order.", "anchors": ["layer/dense.go:47", "layer/conv2d.go:63", "layer/deconv2d.go:63", "layer/base.go:81-97"]}
{"id": "C95", "title": "The progress display shows how far training is", "statement": "In step j of epoch i the display is a line with the percentage of steps done, rounded to hundredths, in a column of seven characters, the epoch and the step in columns as wide as the number of epochs and of steps, the loss with eight decimals in at least ten characters, and a bar that fills the rest of the terminal. The percentage never goes down and is 100.00 in the last step.", "quantifier": "every number of epochs and steps with fewer than 2^64 steps in all, every step, loss and terminal width up to 2^53", "why_tests_cant": "Output depends on time and terminal; tests run without one.", "anchors": ["model/model.go:337-384", "model/model.go:391-397", "tools/bar.go:5-25"]}
{"id": "C96", "title": "The display does not disturb training", "statement": "Train with a display does to the model what Train without it does, whenever lines are printed; in particular strings.Repeat is never given a negative count.", "quantifier": "every model, every list of inputs and targets, every number of epochs and steps, every choice of moments to print", "why_tests_cant": "Lines are printed every 300 ms and only on a terminal.", "anchors": ["model/model.go:352-384", "model/model.go:391-397"]}
{"id": "C97", "title": "100.00% means that training is over", "statement": "The display shows 100.00% only in the last step.", "quantifier": "every number of epochs and steps", "why_tests_cant": "Needs more than 10000 steps and a terminal.", "anchors": ["model/model.go:354-356"]}
{"id": "C98", "title": "A model of models is the model of their layers", "statement": "When models are pushed into models, every method of the outer model does what it does for the model into which all the layers are pushed one after the other.", "quantifier": "every sequence of pushes, in any order and to any depth, that pushes nothing twice; every state of the layers; every method and program", "why_tests_cant": "The number of nestings and of orders of pushing is unbounded; tests nest no models.", "anchors": ["model/model_layer.go:13-110", "model/model.go:141-150"]}
{"id": "C99", "title": "SetTrainable of a model of models reaches every layer but the first", "statement": "SetTrainable of a model hands the value on to every layer it is made of except the first one.", "quantifier": "every model of models", "why_tests_cant": "Freezing of nested models is not tested.", "anchors": ["model/model_layer.go:40-46"]}
{"id": "C100", "title": "Every model can be pushed", "statement": "Push accepts every model and the result can be used.", "quantifier": "every model", "why_tests_cant": "Edge cases of Push are not tested.", "anchors": ["model/model.go:141-150", "model/model_layer.go:80-82"]}
{"id": "C101", "title": "Arithmetic of scalars of different types rounds once", "statement": "Add, Sub, Mul and Div of a scalar with a scalar of any of the three types give the exact result of the two values, rounded once to the nearest number of the type of the receiver (infinity of the right sign if it is too large).", "quantifier": "every pair of finite scalars of type F16, F32 or F64, every operation, divisors that are not zero", "why_tests_cant": "2^128 pairs; wrong results differ in the last bit.", "anchors": ["scalar/f16.go:44-58", "scalar/f32.go:31-34", "scalar/f64.go:31-34"]}
{"id": "C102", "title": "Arithmetic in place stores what arithmetic returns", "statement": "SelfAdd, SelfSub, SelfMul and SelfDiv store in the receiver what Add, Sub, Mul and Div return and change no other scalar, also when receiver and argument are the same; Copy and the operations return a scalar of its own.", "quantifier": "every memory of scalars of mixed types, every pair of pointers", "why_tests_cant": "Aliased receivers and arguments are rarely tried.", "anchors": ["scalar/f16.go:39-75", "scalar/f32.go:28-40", "scalar/f64.go:28-40"]}
{"id": "C103", "title": "String shows the value of a scalar", "statement": "The text of a scalar is that of a float with the same value.", "quantifier": "every scalar of type F16, F32 or F64, whatever fmt.Sprint makes of a float32", "why_tests_cant": "Tests look at numbers that are exact in float32.", "anchors": ["scalar/f16.go:211-213", "scalar/f32.go:52-54", "scalar/f64.go:52-54"]}
{"id": "C104", "title": "Getters give what setters stored", "statement": "G32 after S32 and G64 after S64 give back the value.", "quantifier": "every scalar of the three types, every float", "why_tests_cant": "Holds only for values exact in the type of the scalar.", "anchors": ["scalar/f16.go:22-37", "scalar/f32.go:23-26", "scalar/f64.go:23-26"]}
{"id": "C105", "title": "Random values lie between their bounds", "statement": "ScalarRand(min, max) and the elements of NewRand are at least min and less than max.", "quantifier": "every pair of bounds and every random number, float64 and float32", "why_tests_cant": "The cases that reach or pass the upper bound need one random number in 2^53, or bounds that round badly.", "anchors": ["number/constructors.go:25-29", "tensor/constructor.go:38-46"]}
{"id": "C106", "title": "Every integer between the bounds can be drawn", "statement": "ScalarRand of an integer type can give every value from min up to max.", "quantifier": "every integer type and pair of bounds", "why_tests_cant": "A test that looks at the range only is satisfied by a constant.", "anchors": ["number/constructors.go:25-29"]}
{"id": "C107", "title": "Compiling a model again changes nothing", "statement": "Calling Compile on a model that is compiled leaves it giving the same predictions.", "quantifier": "every model, every state", "why_tests_cant": "A test compiles once.", "anchors": ["model/model.go:152-186", "layer/base.go:99-116"]}
{"id": "C108", "title": "Layers can be added to a compiled model", "statement": "A model that is compiled, extended with Push and compiled again predicts like the same layers compiled once.", "quantifier": "every model and every layer pushed", "why_tests_cant": "A test builds all layers before compiling.", "anchors": ["model/model.go:141-186", "layer/base.go:99-116"]}
{"id": "C109", "title": "Each graph computes its expression", "statement": "A graph of an expression computes its value on the current inputs, also if a part of the expression is compiled in another graph.", "quantifier": "every expression, every order of compiling", "why_tests_cant": "The result is right until an input changes.", "anchors": ["graph/graph.go:18-25", "tensor/oper2.go:35-45"]}
{"id": "C110", "title": "Compiling the backward pass again changes nothing", "statement": "Calling CompileBackPropagation on a model whose backward pass is compiled leaves its training as it was.", "quantifier": "every model, every state", "why_tests_cant": "A test compiles once.", "anchors": ["model/model.go:188-245", "layer/base.go:118-137", "layer/base.go:189-207"]}
{"id": "C111", "title": "An epoch of Train uses every pair", "statement": "In every epoch of Train with a batch of 0 every pair of input and target is used, so each of them has an influence on what is learned.", "quantifier": "every model, state, list of pairs and choice of rand.Intn", "why_tests_cant": "The indices are drawn anew in each run, so a test sees a few of the possible choices.", "anchors": ["model/model.go:331-333", "model/model.go:345-351"]}
{"id": "C112", "title": "Training on no pairs", "statement": "Train with empty lists of inputs and targets returns, without a panic and without changing what the model predicts.", "quantifier": "every compiled model and state, every number of epochs and batch size", "why_tests_cant": "A test trains on some data.", "anchors": ["model/model.go:316-333", "model/model.go:345-351"]}
{"id": "C113", "title": "Resetting the inner state keeps what was learned", "statement": "ResetIS on a compiled model leaves every parameter, every tensor and every later prediction as it is; on a model that is not compiled it compiles it.", "quantifier": "every model made by Push, Compile, CompileBackPropagation, Predict, TrainOne, Train and ResetIS in any order, every state", "why_tests_cant": "A test resets a few models in a few states.", "anchors": ["model/model.go:247-256", "model/model.go:152-186", "layer/base.go:223-231"]}

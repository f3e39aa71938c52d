{
 "claims": [
  {
   "property": "C01",
   "status": "proved",
   "theorems": [
    "C01_position_round_trip",
    "C01_index_round_trip"
   ],
   "note": "Shapes with zero dimensions are covered too (no positions exist)."
  },
  {
   "property": "C02",
   "status": "proved",
   "theorems": [
    "C02_get_out_of_range",
    "C02_set_out_of_range",
    "C02_get_in_range",
    "C02_set_in_range"
   ],
   "note": ""
  },
  {
   "property": "C03",
   "status": "proved",
   "theorems": [
    "C03_equal_shapes",
    "C03_different_rank",
    "C03_first_difference",
    "C03_error_iff_different"
   ],
   "note": ""
  },
  {
   "property": "C04",
   "status": "proved",
   "theorems": [
    "C04_zeros",
    "C04_ones",
    "C04_from_values",
    "C04_random",
    "C04_new_is_unshared",
    "C04_new_is_apart",
    "C04_others_keep_their_value"
   ],
   "note": ""
  },
  {
   "property": "C05",
   "status": "partial",
   "theorems": [
    "C05_element_count_partial",
    "C05_element_count_refuted"
   ],
   "note": "Refuted as stated: the product wraps modulo 2^64, the shape [2^32, 2^32] gives no element. Proved for shapes whose element count fits in 64 bits."
  },
  {
   "property": "C06",
   "status": "proved",
   "theorems": [
    "C06_set_get"
   ],
   "note": ""
  },
  {
   "property": "C07",
   "status": "proved",
   "theorems": [
    "C07_load_data",
    "C07_load_data_wrong_size",
    "C07_get_data",
    "C07_load_from_tensor",
    "C07_load_from_tensor_wrong_shape"
   ],
   "note": ""
  },
  {
   "property": "C08",
   "status": "proved",
   "theorems": [
    "C08_copy",
    "C08_copy_is_deep"
   ],
   "note": ""
  },
  {
   "property": "C09",
   "status": "proved",
   "theorems": [
    "C09_abs",
    "C09_neg",
    "C09_activate",
    "C09_arithmetic",
    "C09_arithmetic_elements",
    "C09_arithmetic_refuses",
    "C09_scalar"
   ],
   "note": "An integer division by zero panics; every other case returns the result."
  },
  {
   "property": "C10",
   "status": "proved",
   "theorems": [
    "C10_reduce",
    "C10_dim_reduce",
    "C10_dim_reduce_elements",
    "C10_dim_reduce_refuses"
   ],
   "note": ""
  },
  {
   "property": "C100",
   "status": "partial",
   "theorems": [
    "C100_refuted"
   ],
   "note": "Refuted: a model without layers makes Push panic when the outer model has a layer; an empty model accepts itself and its methods never return."
  },
  {
   "property": "C101",
   "status": "partial",
   "theorems": [
    "C101_once_partial",
    "C101_refuted"
   ],
   "note": "Refuted for arguments of a wider type (F16 with F32, F32 with F64): they are rounded, or the result is rounded, twice, and another number of the type is nearer. Proved, with the sign of zero, when the argument is not wider than the receiver."
  },
  {
   "property": "C102",
   "status": "proved",
   "theorems": [
    "C102_self",
    "C102_new",
    "C102_copy"
   ],
   "note": ""
  },
  {
   "property": "C103",
   "status": "partial",
   "theorems": [
    "C103_text_partial",
    "C103_refuted"
   ],
   "note": "Refuted for F64: String prints the value as a float32, so 1 and 1 + 2^-52 have the same text and 1e300 the text of infinity. Proved for F16 and F32."
  },
  {
   "property": "C104",
   "status": "partial",
   "theorems": [
    "C104_partial",
    "C104_refuted"
   ],
   "note": "Refuted for float64 in an F32. Proved for types that are wide enough, and for F16 when the value came from an F16."
  },
  {
   "property": "C105",
   "status": "partial",
   "theorems": [
    "C105_between_partial",
    "C105_between_32_partial",
    "C105_value",
    "C105_value_32",
    "C105_scalar_32",
    "C105_monotone",
    "C105_max_refuted",
    "C105_float32_refuted",
    "C105_overflow_refuted"
   ],
   "note": "Refuted: ScalarRand(1, 2) of float64 can be 2, ScalarRand of float32 can be more than max, and bounds too far apart give NaN. Proved: float64 values are never below min or above max if max - min does not overflow; elements of a float32 tensor lie between the rounded bounds; the value is the rounded fraction of the rounded difference above min (C105_value, C105_value_32, C105_scalar_32), grows with the random number and starts at min."
  },
  {
   "property": "C106",
   "status": "partial",
   "theorems": [
    "C106_always_min",
    "C106_refuted"
   ],
   "note": "Refuted: T(rand.Float64()) is zero for every integer type, so the result is always min (C106_always_min)."
  },
  {
   "property": "C107",
   "status": "partial",
   "theorems": [
    "C107_twice",
    "C107_marks",
    "C107_kept",
    "C107_again",
    "C107_stale",
    "C107_refuted"
   ],
   "note": "Refuted: the second Compile makes an empty feed-forward graph, for every model whose first graph was not empty (C107_twice; C107_marks, C107_kept and C107_again if predictions, training, compilations and pushes come in between), and predictions are then what the output held before, whatever the input (C107_stale)."
  },
  {
   "property": "C108",
   "status": "partial",
   "theorems": [
    "C108_nothing",
    "C108_refuted"
   ],
   "note": "Refuted: layers that are in a graph already add nothing to later ones (C108_nothing), so the longer model does not see its input."
  },
  {
   "property": "C109",
   "status": "partial",
   "theorems": [
    "C109_refuted"
   ],
   "note": "Refuted: parts that are compiled in another graph are not computed; the result is stale unless that graph runs before."
  },
  {
   "property": "C11",
   "status": "proved",
   "theorems": [
    "C11_transpose",
    "C11_transpose_elements",
    "C11_transpose_involution",
    "C22_eager_equals_graph"
   ],
   "note": "The graph version is the transpose case of C22 (and of C19)."
  },
  {
   "property": "C110",
   "status": "partial",
   "theorems": [
    "C110_twice",
    "C110_again",
    "C110_refuted"
   ],
   "note": "Refuted: the second backward graph is empty, for every model whose first one was not (C110_twice; C110_again if something is done in between, with C107_kept), so the first training step replaces all parameters by the zeros that the new parameters start with."
  },
  {
   "property": "C111",
   "status": "partial",
   "theorems": [
    "C111_zero",
    "C111_one_pair",
    "C111_picked",
    "C111_subset",
    "C111_refuted"
   ],
   "note": "Refuted: the pairs are drawn with replacement. For every model and all pairs there is a choice for which the call does what it does with the first pair alone (C111_one_pair), and a case shows the second pair without influence. Proved: a batch of 0 is as many steps as pairs; the result depends on the pairs drawn only, not on their order in the lists or on other pairs."
  },
  {
   "property": "C112",
   "status": "partial",
   "theorems": [
    "C112_panics",
    "C112_no_step",
    "C112_refuted"
   ],
   "note": "Refuted: with a batch size given, rand.Intn(0) panics for every model whose backward pass is compiled. Proved for a batch of 0 or no epochs: only alpha and momentum are stored."
  },
  {
   "property": "C113",
   "status": "proved",
   "theorems": [
    "C113_same",
    "C113_compiles",
    "C113_empty"
   ],
   "note": "No kind of layer adds an operation to the reset graph, so ResetIS has nothing to do. Models joined by FromModels and models used as layers are not among the ways a model can come about here."
  },
  {
   "property": "C12",
   "status": "proved",
   "theorems": [
    "C12_sub_tensor",
    "C12_sub_tensor_elements",
    "C12_sub_tensor_refuses",
    "C22_eager_equals_graph"
   ],
   "note": ""
  },
  {
   "property": "C13",
   "status": "partial",
   "theorems": [
    "C13_concat_partial",
    "C13_concat_elements",
    "C13_concat_refuses_refuted",
    "C13_concat_graph_refuses_refuted",
    "C22_eager_equals_graph"
   ],
   "note": "Proved for compatible shapes. The refusal of incompatible shapes is refuted for the eager and the graph version."
  },
  {
   "property": "C14",
   "status": "partial",
   "theorems": [
    "C14_reshape_same",
    "C14_reshape_smaller_panics",
    "C14_reshape_larger_unreadable",
    "C14_reshape_any_size_refuted",
    "C19_graph_computes_value"
   ],
   "note": "The graph version pads and truncates (C19, EReshape). The eager version works only for an equal element count; for every other count it panics or returns a tensor that cannot be read."
  },
  {
   "property": "C15",
   "status": "proved",
   "theorems": [
    "C15_dot",
    "C15_dot_elements",
    "C15_dot_vectors",
    "C15_dot_refuses",
    "C15_default_dimensions",
    "C22_eager_equals_graph"
   ],
   "note": ""
  },
  {
   "property": "C16",
   "status": "partial",
   "theorems": [
    "C16_softmax_partial",
    "C16_softmax_graph_partial",
    "C16_softmax_constant_fails",
    "C16_softmax_refuted"
   ],
   "note": "Exact rational arithmetic. Proved for inputs that are not all equal; for inputs that are all equal the sum is zero and the division fails."
  },
  {
   "property": "C17",
   "status": "partial",
   "theorems": [
    "C17_extended_slice_partial",
    "C17_extended_slice_crossing_fails",
    "C17_extended_slice_refuted"
   ],
   "note": "Works when the range lies inside the dimension or starts after its end; every range that crosses the end is refused."
  },
  {
   "property": "C18",
   "status": "proved",
   "theorems": [
    "C18_contexts_are_queues",
    "C18_execution_order",
    "C18_appended_graph_runs_after",
    "C18_copied_graph"
   ],
   "note": "The linked list is proved to be a queue, for any interleaving of pushes to several contexts."
  },
  {
   "property": "C19",
   "status": "proved",
   "theorems": [
    "C19_graph_computes_value"
   ],
   "note": "All number types, arbitrary sharing. Extended slices crossing the end of the dimension are excluded because the code refuses them (C17)."
  },
  {
   "property": "C20",
   "status": "proved",
   "theorems": [
    "C20_graph_reruns",
    "C20_twice_is_once"
   ],
   "note": ""
  },
  {
   "property": "C21",
   "status": "partial",
   "theorems": [
    "C21_ill_shaped_is_refused_partial",
    "C21_every_time_refuted",
    "C21_missing_dimension_refuted",
    "C21_join_refuted"
   ],
   "note": "The first attempt is refused for element-wise operations on different shapes, invalid slices, mismatching contractions and joins whose first difference is elsewhere. False: a second attempt succeeds with an empty result; a contraction over a missing dimension panics; a join whose later dimensions differ is accepted."
  },
  {
   "property": "C22",
   "status": "proved",
   "theorems": [
    "C22_eager_equals_graph"
   ],
   "note": "For reshapes that keep the element count (see C14)."
  },
  {
   "property": "C23",
   "status": "partial",
   "theorems": [
    "C23_transfer_partial",
    "C23_transfer_expression_partial",
    "C23_other_size_is_refused",
    "C23_fill",
    "C23_other_shape_refuted",
    "C23_in_place_refuted"
   ],
   "note": "Holds when no target scalar is written before it is read as a source element. Different sizes are refused. False: different shapes of equal size are accepted; transferring a transpose into its own source gives wrong data."
  },
  {
   "property": "C24",
   "status": "partial",
   "theorems": [
    "C24_flatten_plain_tensor_partial",
    "C24_flatten_operation_refuted"
   ],
   "note": "Holds for tensors that hold their data. False for operations that are not compiled yet: the result is empty."
  },
  {
   "property": "C25",
   "status": "proved",
   "theorems": [
    "C25_views_are_live",
    "C25_set_then_read_view",
    "C25_view_execution_does_nothing"
   ],
   "note": "All compositions of transposes, slices, extended slices, joins and reshapes."
  },
  {
   "property": "C26",
   "status": "proved",
   "theorems": [
    "C26_each_subexpression_once"
   ],
   "note": "Counts the operations of every object; also shows that building again changes nothing."
  },
  {
   "property": "C27",
   "status": "proved",
   "theorems": [
    "C27_round",
    "C27_file"
   ],
   "note": "Every tensor whose scalars are not shared, every content, every rest of the stream, every number type with a codec that loses nothing (C30 shows which); also what reaches a writer that stops taking bytes."
  },
  {
   "property": "C28",
   "status": "proved",
   "theorems": [
    "C28_truncated"
   ],
   "note": "Every truncation point of every file."
  },
  {
   "property": "C29",
   "status": "partial",
   "theorems": [
    "C29_refuted",
    "C29_never"
   ],
   "note": "Refuted: both functions hand values of type int and uint to encoding/binary, which refuses them, so they fail on every tensor and do nothing."
  },
  {
   "property": "C30",
   "status": "partial",
   "theorems": [
    "C30_types_partial",
    "C30_int",
    "C30_refuted"
   ],
   "note": "Refuted for int, where Save and Load fail on every tensor with data; proved for float32, float64, int16, int32 and int64 with their little-endian codecs."
  },
  {
   "property": "C31",
   "status": "proved",
   "theorems": [
    "C31_dense"
   ],
   "note": "One dense layer with the weights any history left in it, inputs of any shape."
  },
  {
   "property": "C32",
   "status": "proved",
   "theorems": [
    "C32_predict",
    "C32_history",
    "C32_on_demand"
   ],
   "note": "Dense stacks with or without Input layer, started in any state. "
  },
  {
   "property": "C33",
   "status": "proved",
   "theorems": [
    "C33_kept",
    "C33_twice"
   ],
   "note": "Dense stacks with or without Input layer, started in any state. Later histories include training and more predictions."
  },
  {
   "property": "C34",
   "status": "proved",
   "theorems": [
    "C34_predict",
    "C34_train_one",
    "C34_lengths",
    "C34_train"
   ],
   "note": "Dense stacks with or without Input layer, started in any state. Train over many pairs stops at the first unsuitable pair; what it learned before stays."
  },
  {
   "property": "C35",
   "status": "proved",
   "theorems": [
    "C35_step",
    "C32_history"
   ],
   "note": "Number types with 0*x = 0 and x + 0 = x; layers of at least one unit."
  },
  {
   "property": "C36",
   "status": "partial",
   "theorems": [
    "C36_refuted",
    "C36_momentum_ignored"
   ],
   "note": "Refuted: momentum never has any effect on dense models."
  },
  {
   "property": "C37",
   "status": "proved",
   "theorems": [
    "C37_rate_zero"
   ],
   "note": "Laws hold for the integer types and exact rationals."
  },
  {
   "property": "C38",
   "status": "proved",
   "theorems": [
    "C38_frozen"
   ],
   "note": "Dense stacks with or without Input layer, started in any state. "
  },
  {
   "property": "C39",
   "status": "partial",
   "theorems": [
    "C39_freeze_partial",
    "C39_refuted",
    "C39_chain_refuted"
   ],
   "note": "True for models that start with an Input layer; refuted for models that start with a Dense layer. For chains of any layers the positive part is C77."
  },
  {
   "property": "C40",
   "status": "proved",
   "theorems": [
    "C40_round",
    "C40_layers",
    "C40_history"
   ],
   "note": "Whole programs over every layer graph, also with sharing and joins: the file has every layer with parameters once; a program with other random numbers that loads it shows from then on the predictions of the saved network and has its weights and biases. C40_history covers every sequence of predictions, saves with limited room, loads of any bytes and resets."
  },
  {
   "property": "C41",
   "status": "partial",
   "theorems": [
    "C41_again_partial",
    "C41_chain",
    "C41_refuted"
   ],
   "note": "Refuted for layer graphs with Concat: after ResetSave the second file misses everything behind the first join (concrete program, and the general theorem says exactly what is written). Proved: complete for networks without joins; a second save without ResetSave writes nothing."
  },
  {
   "property": "C42",
   "status": "partial",
   "theorems": [
    "C42_previous_layers_partial",
    "C42_nothing_else",
    "C42_refuted"
   ],
   "note": "Refuted as stated: two trainable dense layers under a Concat layer keep their parameters in a training step (C42_refuted). Proved: Fit gives every trainable layer reached over previous layers its new parameters, and changes no other tensor, whatever it returns."
  },
  {
   "property": "C43",
   "status": "partial",
   "theorems": [
    "C43_refuted",
    "C43_uncompiled"
   ],
   "note": "Refuted: every dense model panics when trained before Compile."
  },
  {
   "property": "C44",
   "status": "partial",
   "theorems": [
    "C44_pool_partial",
    "C44_maximum",
    "C44_cover",
    "C44_once",
    "C44_stride_one",
    "C44_refuted"
   ],
   "note": "Refuted as stated: stride 1 panics (general theorem C44_stride_one and a concrete program), stride 3 on a 4x4 image never looks at the last row and column (concrete program). Proved: for strides of at least 2 the program shows the maximum of each window and no window is empty; with stride 2 the windows cover the image; no cell lies in two windows."
  },
  {
   "property": "C45",
   "status": "partial",
   "theorems": [
    "C45_up_partial",
    "C45_refuted"
   ],
   "note": "Refuted for the constructor with two factors, which builds a MaxPool2D (concrete program). Proved for NewUpSampling2D: output cell (f,x,y) is input cell (f,x/k,y/k), every size and factor."
  },
  {
   "property": "C46",
   "status": "proved",
   "theorems": [
    "C46_conv"
   ],
   "note": "Whole program (build, compile, predict, read): output size, one output per kernel position, and the value of every output cell, for every image, kernel, stride, filter count, activation, number type (sums in the order of the code) and heap."
  },
  {
   "property": "C47",
   "status": "partial",
   "theorems": [
    "C47_same_value",
    "C47_round_trip_partial",
    "C47_signalling_refuted",
    "C47_nan"
   ],
   "note": "Value preservation for all patterns; the round trip for all but signalling NaNs, for which it is false (the quiet bit gets set; sign and payload stay)."
  },
  {
   "property": "C48",
   "status": "proved",
   "theorems": [
    "C48_rounds"
   ],
   "note": "All 2^32 patterns, against Flocq rounding."
  },
  {
   "property": "C49",
   "status": "proved",
   "theorems": [
    "C49_add",
    "C49_sub",
    "C49_mul",
    "C49_div",
    "C49_div_by_zero",
    "C49_nan",
    "C49_add_infinity"
   ],
   "note": "All pairs of finite numbers, with the sign of zero results; also NaN operands, division by zero and sums with an infinity."
  },
  {
   "property": "C50",
   "status": "partial",
   "theorems": [
    "C50_f16_order",
    "C50_f32_order",
    "C50_f64_order",
    "C50_flip",
    "C50_transitive",
    "C50_nan_refuted",
    "C50_mixed_refuted"
   ],
   "note": "Holds for arguments of one type that are not NaN; false for NaN (compares equal to everything) and for mixed types."
  },
  {
   "property": "C51",
   "status": "partial",
   "theorems": [
    "C51_linear",
    "C51_relu",
    "C51_relu_at_zero",
    "C51_sigmoid",
    "C51_swish",
    "C51_tanh",
    "C51_sin",
    "C51_elu_partial",
    "C51_selu_partial",
    "C51_elu_refuted",
    "C51_elu_always_wrong",
    "C51_selu_refuted",
    "C51_gelu"
   ],
   "note": "True for Linear, Relu, Sigmoid, Tanh, Sin, Swish; ELU and SELU only for negative inputs, refuted for positive ones. Real arithmetic."
  },
  {
   "property": "C52",
   "status": "proved",
   "theorems": [
    "C52_sigmoid",
    "C52_sigmoid_increasing",
    "C52_sigmoid_symmetric",
    "C52_tanh",
    "C52_sin",
    "C52_relu",
    "C52_relu_negative_alpha",
    "C52_elu"
   ],
   "note": "Real arithmetic."
  },
  {
   "property": "C53",
   "status": "partial",
   "theorems": [
    "C53_samples_partial",
    "C53_whole_factors",
    "C53_same_size",
    "C53_not_an_image",
    "C53_no_pixels",
    "C53_refuted"
   ],
   "note": "Refuted as stated: 49*2/98 is computed in float64 as slightly less than 1, so the cell before is taken (C53_refuted). Proved: scaling always succeeds for images with pixels, each cell is at floor(x*W/w), or one before if x*W/w is whole; exactly there when shrinking by whole factors; a copy for the same size. Sizes up to 2^51 per product."
  },
  {
   "property": "C54",
   "status": "partial",
   "theorems": [
    "C54_shrink_partial",
    "C54_otherwise_fails",
    "C54_refuted"
   ],
   "note": "Refuted as stated: SmoothScale fails for every image with pixels if one side does not become smaller (C54_otherwise_fails). Proved: it works if both sides become smaller, and then each cell is the bilinear mean of the four cells around its place, with an explicit bound on the errors of float64 (finite pixels); four channels whatever the image has."
  },
  {
   "property": "C55",
   "status": "partial",
   "theorems": [
    "C55_bar_partial",
    "C55_refuted"
   ],
   "note": "Refuted as stated: with 2^53+5 characters and progress 1 there is one too many. Proved for all sizes up to 2^53, with the number of marks within one of (size-2)*progress."
  },
  {
   "property": "C56",
   "status": "proved",
   "theorems": [
    "C56_wraps",
    "C56_divides",
    "C56_panics",
    "C56_panics_without_division"
   ],
   "note": "Exact: panics if and only if. Note that the count of a mean can be zero in small integer types, e.g. 65536 elements of int16."
  },
  {
   "property": "C57",
   "status": "proved",
   "theorems": [
    "C57_refused",
    "C57_integers",
    "C57_metric"
   ],
   "note": "Over the reals also the triangle inequality, and zero only for equal slices; for machine integers symmetry and the root of zero for identical slices."
  },
  {
   "property": "C58",
   "status": "partial",
   "theorems": [
    "C58_from64_partial",
    "C58_double_rounding_refuted"
   ],
   "note": "Correct for float64 values that are float32 values; false otherwise because of rounding twice."
  },
  {
   "property": "C59",
   "status": "proved",
   "theorems": [
    "C59_kinds",
    "C59_constants"
   ],
   "note": "All patterns."
  },
  {
   "property": "C60",
   "status": "proved",
   "theorems": [
    "C32_history",
    "C32_total"
   ],
   "note": "Layers of at least one unit for training calls; Train on empty lists excluded."
  },
  {
   "property": "C61",
   "status": "proved",
   "theorems": [
    "C36_momentum_ignored",
    "C36_refuted"
   ],
   "note": ""
  },
  {
   "property": "C62",
   "status": "proved",
   "theorems": [
    "C43_uncompiled",
    "C43_refuted"
   ],
   "note": ""
  },
  {
   "property": "C63",
   "status": "proved",
   "theorems": [
    "C63_network"
   ],
   "note": "By a simulation over the builder of every layer; the network description is FwdSpec.v, the histories FwdScript.v."
  },
  {
   "property": "C64",
   "status": "proved",
   "theorems": [
    "C64_safe"
   ],
   "note": ""
  },
  {
   "property": "C65",
   "status": "proved",
   "theorems": [
    "C65_pushed"
   ],
   "note": ""
  },
  {
   "property": "C66",
   "status": "proved",
   "theorems": [
    "C66_deconv"
   ],
   "note": "Whole program, every cell."
  },
  {
   "property": "C67",
   "status": "partial",
   "theorems": [
    "C67_stuck",
    "C67_retry_partial",
    "C67_refuted"
   ],
   "note": "Refuted: after any save or load the next one moves no byte and still reports success (general theorem and concrete program). Proved: after ResetSave/ResetLoad it works in networks without joins, wherever the failure was."
  },
  {
   "property": "C68",
   "status": "partial",
   "theorems": [
    "C68_squares",
    "C68_cross_entropy",
    "C68_refuted"
   ],
   "note": "Refuted for squares with any last activation (C68_refuted: sigmoid). Proved for dense stacks of any depth over the reals: squares with a linear last layer, cross entropy with a sigmoid last layer."
  },
  {
   "property": "C69",
   "status": "proved",
   "theorems": [
    "C69_conv_input",
    "C69_conv_weights",
    "C69_deconv_input",
    "C69_deconv_weights",
    "C69_dense_input",
    "C69_dense_params",
    "C69_pool_input",
    "C69_pool_derivatives",
    "C69_up_input"
   ],
   "note": "Loops of BackPropagation of each layer; tensors of the layer must not share scalars, convolution needs KW <= KH and kernels inside the input. The last row and column of a pooling layer must not be empty for its derivatives."
  },
  {
   "property": "C70",
   "status": "partial",
   "theorems": [
    "C70_conv_input",
    "C70_conv_weights",
    "C70_conv_bias",
    "C70_deconv_input",
    "C70_deconv_weights",
    "C70_deconv_bias",
    "C70_dense_input",
    "C70_dense_weights",
    "C70_dense_bias",
    "C70_up",
    "C70_pool_input",
    "C70_pool_derivative",
    "C70_one_slope",
    "C70_tall_kernel_refuted",
    "C70_unequal_steps_refuted"
   ],
   "note": "Refuted for convolutions: with KW < KH the error of the input is not the derivative (C70_tall_kernel_refuted), with SX <> SY the weights do not follow it (C70_unequal_steps_refuted). Proved for every other case: square kernels, equal steps, deconvolution, dense layers, up-sampling, and max pooling at cells whose value is unique in their window."
  },
  {
   "property": "C71",
   "status": "proved",
   "theorems": [
    "C71_training"
   ],
   "note": "Chains of layers (no joins, no sub-tensor layers); TrainOne, SetTrainable and Train (any epochs, batch size and picks; different lengths refused) with tensors of any shapes (other shapes refused; Train keeps the steps before the first unsuitable pair); layers whose backward pass compiles (train_fit in TrnSpec: kernels not wider than high, windows inside the input at the step of the second axis, pooling strides of at least two). Numbers that count layers must not be zero (tallies, counts_up)."
  },
  {
   "property": "C72",
   "status": "proved",
   "theorems": [
    "C72_safe"
   ],
   "note": "Same chains and calls, any shapes of tensors; together with C71 the safe calls show what the description shows. Train must not pick from empty lists, where the code panics. A convolution needs a channel, normalisation and softmax need a non-empty input and a division that never fails."
  },
  {
   "property": "C73",
   "status": "partial",
   "theorems": [
    "C73_refuted"
   ],
   "note": "Refuted: two dense layers learn differently with a flattening layer between them (the error below is halved)."
  },
  {
   "property": "C74",
   "status": "partial",
   "theorems": [
    "C74_refuted",
    "C72_safe"
   ],
   "note": "Refuted for a kernel wider than high and for steps that differ. C72_safe is the positive part."
  },
  {
   "property": "C75",
   "status": "proved",
   "theorems": [
    "C75_gradient",
    "C75_costs"
   ],
   "note": "Real arithmetic. Hypotheses (chain_smooth, ends): activations are differentiable with the given derivative at the sums that occur; kernels are square with equal steps; each maximum taken by a pooling layer is unique; the last layer has parameters and its activation belongs to the cost. speed is 1 unless a flattening layer is above (C73). Normalisation, softmax and sub-tensor layers are left out. A layer that is not trainable keeps its parameters (s_keep)."
  },
  {
   "property": "C76",
   "status": "proved",
   "theorems": [
    "C76_small_steps"
   ],
   "note": "Same chains and hypotheses as C75; momentum zero; all layers trainable."
  },
  {
   "property": "C77",
   "status": "proved",
   "theorems": [
    "C77_frozen"
   ],
   "note": "Chains and calls of C71."
  },
  {
   "property": "C78",
   "status": "proved",
   "theorems": [
    "C78_rate_zero"
   ],
   "note": "Chains and calls of C71. With a momentum the bias of a convolution still moves (example C78_case)."
  },
  {
   "property": "C79",
   "status": "proved",
   "theorems": [
    "C79_ignored",
    "C79_step"
   ],
   "note": "Chains and calls of C71."
  },
  {
   "property": "C80",
   "status": "partial",
   "theorems": [
    "C80_loads_partial",
    "C80_no_file",
    "C80_integers",
    "C80_refuted"
   ],
   "note": "Refuted as stated: the pixels are read from (0, 0) on even if the bounds of the picture begin elsewhere, as those of the first frame of a GIF can (C80_refuted: a white picture is loaded as black). Proved for pictures whose bounds begin at 0; tensors of integers keep only whether a channel has its brightest value."
  },
  {
   "property": "C81",
   "status": "partial",
   "theorems": [
    "C81_not_an_image",
    "C81_missing_channels",
    "C81_pixels",
    "C81_round_trip_partial",
    "C81_round_trip_32_partial",
    "C81_refuted",
    "C81_integers_refuted"
   ],
   "note": "Refuted as stated for colours of 16 bits and for tensors of integers. Proved: the pixels of every image ToImg makes and when it refuses; the round trip for float64 and float32, colours of eight bits per channel and bounds that begin at 0. The tensor has fewer than 2^63 bytes as an image."
  },
  {
   "property": "C82",
   "status": "partial",
   "theorems": [
    "C82_is_scaling",
    "C82_samples_partial"
   ],
   "note": "Equality with loading and scaling is proved without restriction on colours and bounds; the position is exact up to the rounding of float64 described in C53, for bounds that begin at 0."
  },
  {
   "property": "C83",
   "status": "partial",
   "theorems": [
    "C83_never_fails",
    "C83_blends_partial",
    "C83_same_size",
    "C83_refuted"
   ],
   "note": "Refuted for enlarging a picture of one colour: the last row and column are blended with what lies outside of the picture (C83_refuted). Proved: success, the distance to the bilinear mean (less than 1 of 65535 plus an error of float64; width plus height below 2^32, bounds that begin at 0), the same size."
  },
  {
   "property": "C84",
   "status": "proved",
   "theorems": [
    "C84_none",
    "C84_result",
    "C84_untouched",
    "C84_predict",
    "C84_fit"
   ],
   "note": "The models given are different objects."
  },
  {
   "property": "C85",
   "status": "partial",
   "theorems": [
    "C85_refuted"
   ],
   "note": "Refuted: a flattening layer without input cannot be compiled; the error is dropped and CompileBackPropagation then panics."
  },
  {
   "property": "C86",
   "status": "partial",
   "theorems": [
    "C86_refuted"
   ],
   "note": "Refuted: a model that was compiled keeps reading its own input tensor; the answer of the stack does not depend on the input."
  },
  {
   "property": "C87",
   "status": "partial",
   "theorems": [
    "C87_refuted"
   ],
   "note": "Refuted: the last layer of the first model is counted by its own model and by the next, so its error is halved."
  },
  {
   "property": "C88",
   "status": "proved",
   "theorems": [
    "C88_number",
    "C88_shape",
    "C88_apart"
   ],
   "note": ""
  },
  {
   "property": "C89",
   "status": "proved",
   "theorems": [
    "C89_tensor",
    "C89_integers",
    "C89_apart"
   ],
   "note": "What fmt.Sprint makes of a number is an argument; decimal notation for integers."
  },
  {
   "property": "C90",
   "status": "proved",
   "theorems": [
    "C90_summary",
    "C90_lines"
   ],
   "note": "Words as the constructors set them (C93)."
  },
  {
   "property": "C91",
   "status": "partial",
   "theorems": [
    "C91_refuted"
   ],
   "note": "Refuted: printed is never set; a tower of n joins of a layer with itself has n + 1 layers and 2^(n+1) - 1 lines (C91_tower, C91_case: a compiled model). Chains are listed once: C90."
  },
  {
   "property": "C92",
   "status": "partial",
   "theorems": [
    "C92_refuted"
   ],
   "note": "Refuted: String panics for a model that is not compiled and for FromModels of two models that begin with an Input. Compiled chains are printed: C90."
  },
  {
   "property": "C93",
   "status": "partial",
   "theorems": [
    "C93_refuted",
    "C93_pooling_refuted"
   ],
   "note": "Refuted: Deconv2D is called Conv2D, UpSampling2D is called MaxPool, Input and SubTensor have no word."
  },
  {
   "property": "C94",
   "status": "partial",
   "theorems": [
    "C94_late",
    "C94_refuted"
   ],
   "note": "Refuted if Go reads Index before calling PreBuild: then the layer above a layer with parameters has number 1 (C94_case: two layers numbered 1). Proved for the other order. Both are about the summaries of C90."
  },
  {
   "property": "C95",
   "status": "proved",
   "theorems": [
    "C95_steps",
    "C95_end",
    "C95_decimals",
    "C95_point"
   ],
   "note": "float64(p.Loss.Value) is an argument."
  },
  {
   "property": "C96",
   "status": "partial",
   "theorems": [
    "C96_same_partial",
    "C96_refuted"
   ],
   "note": "Refuted for 2^64 steps and more: i*batch+j and epochs*batch wrap around, the percentage takes eight characters and strings.Repeat panics. Proved for fewer steps and widths up to 2^53; the printed values of the loss are arguments."
  },
  {
   "property": "C97",
   "status": "partial",
   "theorems": [
    "C97_refuted"
   ],
   "note": "Refuted: step 97 of 100 of the last of 1000 epochs shows 100.00%."
  },
  {
   "property": "C98",
   "status": "proved",
   "theorems": [
    "C98_nested",
    "C98_any"
   ],
   "note": "Methods are called after the last Push; a push may follow the push of the model it goes into."
  },
  {
   "property": "C99",
   "status": "partial",
   "theorems": [
    "C99_reached",
    "C99_refuted"
   ],
   "note": "Refuted: the first layer of every model inside is left out too, so SetTrainable(false) of [a, [b, c]] reaches c only. C99_reached gives exactly the layers reached."
  }
 ]
}

#!/usr/bin/env python3
"""Regenerates properties.jsonl (source of truth for the property list)."""
import json, os
S = "src/acetone_nnet/"
P = []
def p(id, title, statement, quant, why, anchors):
    P.append(dict(id=id, title=title, statement=statement, quantifier=quant, why_tests_cant=why, anchors=[S + a if not a.startswith("src/") else a for a in anchors]))

p("C01", "Layers are executed after all their producers",
  "For every acyclic model whose links are consistent, importing the model yields a layer list that contains every layer exactly once and in which each layer comes after every layer it reads from.",
  "all finite acyclic layer graphs (any size, any branching, any listing order, with or without constant layers)",
  "Tests sample a few architectures; the traversal order depends on the shape of the whole graph.",
  ["graph/graph_interpretor.py:tri_topo", "graph/graph_interpretor.py:parcours_prof_topo"])
p("C02", "The network input stays first and importing never hits an internal assertion",
  "For every acyclic model in which every non-constant layer depends on the input, importing succeeds, the first layer of the result is the input layer, and the constants directly follow it.",
  "all finite acyclic graphs whose non-constant layers are reachable from the first listed layer",
  "The failure needs a particular combination of sources, constants and listing order.",
  ["graph/graph_interpretor.py:tri_topo", "graph/graph_interpretor.py:assign_liveliness_index"])
p("C03", "A working buffer is never overwritten while its tensor is still needed",
  "For every model in which no layer lists the same input twice, when the generated inference function lets a layer write its output buffer, no other tensor that a later layer (or the caller) still needs is stored in that buffer.",
  "all topologically ordered graphs without repeated inputs, all pairs of layers, all execution points",
  "Buffer reuse collisions appear only for particular interleavings of branch lifetimes.",
  ["graph/graph_interpretor.py:assign_liveliness_index"])
p("C04", "The number of working buffers is minimal",
  "For every model without repeated inputs, no assignment of working buffers that avoids overwriting needed tensors (for the same execution order) uses fewer buffers than the generated code declares.",
  "all such graphs and all alternative assignments",
  "A test can only compare with one hand-made assignment.",
  ["graph/graph_interpretor.py:assign_liveliness_index", "graph/graph_interpretor.py:tri_topo"])
p("C05", "Every buffer used is declared",
  "Each layer's buffer number is smaller than the number of working buffers declared in the generated header, and each declared buffer is used by some layer.",
  "all graphs", "Universally quantified over graphs.",
  ["graph/graph_interpretor.py:tri_topo", "generator/neural_network.py:generate_function_header_file"])
p("C06", "Tensors read by several layers are preserved until their last reader",
  "Every layer whose output is read more than once gets a saved copy; for every model without repeated inputs the saved copy is not reused for another tensor before the last reader has run; other layers get none.",
  "all topologically ordered graphs without repeated inputs",
  "Depends on lifetimes of all multi-reader tensors.",
  ["graph/graph_interpretor.py:assign_cst", "ir/layer.py:find_output_str"])
p("C07", "A layer may use the same tensor twice",
  "Models in which a layer lists the same tensor twice (x + x, x * x, concat(x, x)) keep all needed tensors intact, as C03 and C06 promise for other models.",
  "all topologically ordered graphs, including those with repeated inputs",
  "Needs a graph in which the doubly released buffer is taken by an unrelated live branch.",
  ["graph/graph_interpretor.py:assign_liveliness_index", "graph/graph_interpretor.py:assign_cst"])
p("C08", "The generated inference function computes the network",
  "For every supported layer graph, running the generated inference function on an input leaves in the output array exactly the value obtained by evaluating every layer's reference function along the graph (what compute_inference returns), whatever the buffers contained before.",
  "all graphs, all layer parameters, all inputs, all initial buffer contents",
  "Combines scheduling, buffer reuse and every layer's loop nest: the space is unbounded.",
  ["templates/template_source_file.c.tpl", "generator/neural_network.py:generate_function_source_file", "generator/neural_network.py:compute_inference"])
p("C09", "The generated inference function stays inside its buffers",
  "With the buffer sizes declared by the generated header, no loop of the generated inference function reads or writes outside an array.",
  "all graphs, all layer parameters accepted by the constructors, all inputs",
  "Out-of-bounds accesses depend on all shapes at once and are often silent.",
  ["generator/neural_network.py:generate_function_header_file", "templates/template_header_file.c.tpl"])
p("C10", "Successive inferences are independent",
  "Calling the generated inference function on an input gives the same result whatever inferences ran before on the same context.",
  "all graphs, all call histories, all inputs",
  "Histories are unbounded.",
  ["templates/template_source_file.c.tpl", "templates/template_main_file.c.tpl"])
p("C11", "Dense layers compute x.W + b",
  "The generated code of a Dense layer computes, for every output, the activation of the dot product of the input with the matching weight column plus bias, as the Python reference does.",
  "all sizes, weights, biases, inputs, activation functions, including output buffer = input buffer",
  "All sizes and values.", ["generator/layers/dense/DenseDefault.py", "templates/layers/template_Dense.c.tpl", "generator/layers/dense/Dense.py:forward_path_layer"])
p("C12", "MatMul layers compute the batched matrix product",
  "The generated code of a MatMul layer whose two operands have the same number of channels computes, per channel, the matrix product of its operands, as the Python reference does.",
  "all shapes with equal channel counts, all values", "All sizes and values.",
  ["generator/layers/matmul/MatMulDefault.py", "templates/layers/template_MatMul.c.tpl", "generator/layers/matmul/MatMul.py:forward_path_layer"])
p("C13", "Gemm layers compute alpha*op(A)*op(B) + beta*C for every transposition",
  "For each of the four transposition choices the generated Gemm code computes alpha times the product of the (possibly transposed) operands plus beta times the bias, as the Python reference does.",
  "all shapes, transposition flags, alpha, beta and values", "All sizes, flags and values.",
  ["generator/layers/gemm/GemmDefault.py", "templates/layers/Gemm/template_gemm_nn.c.tpl", "templates/layers/Gemm/template_gemm_nt.c.tpl", "templates/layers/Gemm/template_gemm_tn.c.tpl", "templates/layers/Gemm/template_gemm_tt.c.tpl"])
p("C14", "The six-loop convolution equals the mathematical convolution and the Python reference",
  "The generated six-loop code computes at each output position the bias plus the sum over channels and kernel positions of weight times zero-padded input; with dilation 1 and one group this is also what the Python reference computes.",
  "all channel counts, kernel sizes, strides, paddings, values", "All shapes and values.",
  ["templates/layers/Conv/template_Conv_6loops.c.tpl", "generator/layers/convolution/Conv2D.py:forward_path_layer"])
p("C15", "The im2col/GEMM convolution (nn) equals the six-loop convolution",
  "Choosing std_gemm_nn instead of 6loops for a convolution (dilation 1) does not change the layer's result.",
  "all channel counts, kernel sizes, strides, paddings, values", "All shapes and values.",
  ["templates/layers/Conv/template_im2col.c.tpl", "templates/layers/Conv/template_Conv_gemm_nn.c.tpl", "generator/layers/convolution/Conv2DStdGemm.py"])
p("C16", "The transposed im2row/GEMM variants equal the six-loop convolution",
  "Choosing std_gemm_nt, std_gemm_tn or std_gemm_tt does not change a convolution's result.",
  "all shapes and values", "Square single-channel examples hide index swaps.",
  ["templates/layers/Conv/template_im2row.c.tpl", "templates/layers/Conv/template_Conv_gemm_nt.c.tpl", "templates/layers/Conv/template_Conv_gemm_tn.c.tpl", "templates/layers/Conv/template_Conv_gemm_tt.c.tpl"])
p("C17", "The indirect-GEMM pointer table denotes the im2col matrix",
  "Every entry of the pointer table built for the indirect GEMM convolution points to the input element (or the padding zero) that im2col would place there.",
  "all shapes, strides and paddings", "Fails only when the kernel does not visit every input element.",
  ["generator/layers/convolution/Conv2DIndirectGemm.py:create_ppatches"])
p("C18", "The Winograd 3x3 convolution equals the direct convolution",
  "For a 3x3 kernel with stride 1 the Winograd F(2x2,3x3) tile computation gives the direct convolution, and the tiling covers every output element.",
  "all tiles, all output sizes", "An algebraic identity and a tiling argument over all sizes.",
  ["generator/layers/convolution/Conv2Ddirect_block.py", "templates/layers/Conv/template_Conv3x3_winograd.c.tpl"])
p("C19", "SAME padding yields ceil(input/stride) outputs",
  "With SAME padding and dilation 1 the computed pads are non-negative, differ by at most one between opposite sides with the extra cell on the documented side, and make the output size formula equal ceil(input/stride); VALID gives no padding; explicit pads are used in top, left, bottom, right order.",
  "all input sizes, kernel sizes and strides", "All sizes.",
  ["ir/layer.py:compute_padding"])
p("C20", "Pooling computes the max / mean of the in-range window",
  "When the left and top pads are equal, the generated pooling code computes for every output the maximum (resp. mean) of exactly the input elements of its window that lie inside the image.",
  "all shapes, pool sizes, strides, pads (left=top), values", "All shapes and values.",
  ["templates/layers/template_Pooling2D.c.tpl", "generator/layers/pooling/average_pooling/AveragePooling2DDefault.py", "generator/layers/pooling/max_pooling/MaxPooling2DDefault.py"])
p("C21", "Generated pooling and Python pooling agree",
  "The generated pooling code and the Python reference return the same tensor.",
  "all shapes, pads, values", "They differ only for particular pads.",
  ["generator/layers/pooling/Pooling2D.py:forward_path_layer", "templates/layers/template_Pooling2D.c.tpl"])
p("C22", "Pad layers implement the four numpy padding modes",
  "The generated Pad code (constant, edge, reflect, wrap) produces the tensor numpy's pad returns for that mode, for all pads the mode supports.",
  "all shapes, pads, values", "All shapes and values.",
  ["generator/layers/padding/Pad.py", "templates/layers/Pad/template_Constant_Pad.c.tpl", "templates/layers/Pad/template_Pad_Non_Constant.c.tpl"])
p("C23", "Transpose moves every element to its permuted position",
  "For every permutation of channel, height and width the generated Transpose code produces the transposed tensor, as the Python reference does.",
  "all six permutations, all shapes and values, including output buffer = input buffer", "All shapes.",
  ["generator/layers/transpose/TransposeDefault.py", "templates/layers/template_Transpose.c.tpl"])
p("C24", "Concatenate places each operand in its slice",
  "The generated Concatenate code produces, for each axis, the concatenation of its operands in order, for any number of operands.",
  "all axes, operand counts, shapes and values", "Any number of operands.",
  ["generator/layers/concatenate/ConcatenateDefault.py", "templates/layers/template_Concatenate.c.tpl", "generator/layers/concatenate/Concatenate.py:forward_path_layer"])
p("C25", "Gather and GatherElements select the indexed elements",
  "The generated Gather / GatherElements code selects along the chosen axis the elements named by the index tensor, as the Python reference does.",
  "all axes, index lists, shapes and values", "All index tensors.",
  ["generator/layers/gather/GatherDefault.py", "templates/layers/template_Gather.c.tpl", "generator/layers/gather_elements/GatherElementsDefault.py", "templates/layers/template_GatherElements.c.tpl"])
p("C26", "Tile repeats its input",
  "The generated Tile code produces the input repeated along each axis, as numpy's tile does.",
  "all shapes, repeats, values", "All shapes.",
  ["generator/layers/tile/TileDefault.py", "templates/layers/template_Tile.c.tpl"])
p("C27", "Broadcast arithmetic layers apply their operator with numpy broadcasting",
  "The generated code of Add, Subtract, Multiply, Divide, Maximum, Minimum and Average combines the broadcast operands (and the folded constant) in order, as the Python reference does.",
  "all operand counts, broadcastable shapes, values", "Any number of operands and shapes.",
  ["generator/layers/broadcast/Broadcast.py", "templates/layers/template_Broadcast.c.tpl"])
p("C28", "Batch normalisation computes scale*(x-mean)/sqrt(var+eps)+bias per channel",
  "The generated BatchNormalization code applies the affine normalisation of its channel to each element, as the Python reference does.",
  "all shapes and values", "All shapes and values.",
  ["templates/layers/template_BatchNormalization.c.tpl", "generator/layers/batch_normalization/BatchNormalization.py:forward_path_layer"])
p("C29", "Softmax outputs are a probability distribution along the requested axis",
  "The generated Softmax code produces positive values summing to one along the axis, equal to the Python reference.",
  "all shapes, axes, values", "All shapes and values.",
  ["generator/layers/softmax/SoftmaxDefault.py", "templates/layers/template_Softmax.c.tpl", "generator/layers/softmax/Softmax.py"])
p("C30", "Reduce layers reduce the requested axes",
  "The generated ReduceSum/Mean/Prod/Max/Min code computes the reduction over the requested axes, as the Python reference does.",
  "all axis sets, shapes and values", "Some axis pairs need particular values to fail.",
  ["generator/layers/reduce/Reduce.py", "templates/layers/template_Reduce.c.tpl"])
p("C31", "Resize samples inside the input",
  "For every coordinate mode and size the index computed by the nearest-neighbour resize code lies inside the input and follows the documented coordinate transformation.",
  "all sizes, scales and modes", "Rounding corner cases over all sizes.",
  ["generator/layers/resize/Resize.py", "templates/layers/Resize/template_ResizeNearest.c.tpl"])
p("C32", "Generated activation expressions equal the Python activations",
  "For every activation function the C expression emitted by the generator evaluates to the same value as the Python computation, for every argument and parameter.",
  "all activation functions, arguments and parameters", "Boundary values (0, clip bounds).",
  ["generator/activation_functions.py"])
p("C33", "Flatten leaves the tensor's elements in order",
  "After the generated Flatten code the layer's output buffer holds the previous layer's tensor (channels_first) or its channel-last reordering, wherever the previous layer's output was stored.",
  "all graphs, shapes and values", "Fails only for particular buffer allocations.",
  ["generator/layers/flatten/FlattenDefault.py", "templates/layers/template_Flatten.c.tpl"])
p("C34", "Input and output layout conversions are inverse permutations",
  "Converting an input from channels_last to channels_first and an output back moves each element to the position denoting the same (channel, row, column), and the two conversions are inverse of each other.",
  "all shapes and values", "All shapes.",
  ["templates/layers/template_Input_Layer.c.tpl", "templates/memory_layout/template_output.c.tpl", "generator/neural_network.py:compute_inference"])
p("C35", "The test driver processes every sample exactly once",
  "The generated main loop splits the test samples into batches of at most the maximal batch size so that each sample is loaded, inferred and printed exactly once, in order, without exceeding the batch arrays.",
  "all numbers of samples and batch sizes", "All sample counts.",
  ["templates/template_main_file.c.tpl"])
p("C36", "Fusing activation layers preserves the network's result",
  "Removing an activation layer by fusing it into its only producer leaves the value computed by the network unchanged.",
  "all graphs, layer functions and inputs", "All graphs.",
  ["pattern_matching/patterns/FuseActivationLayers.py"])
p("C37", "Fusing batch normalisation into the preceding convolution preserves the result",
  "Rescaling the convolution's weights and biases and removing the batch normalisation gives the same output tensor.",
  "all weights, statistics, inputs and shapes", "All values.",
  ["pattern_matching/patterns/FuseConvBatchNorm.py"])
p("C38", "Replacing MatMul+Add by Dense and x*sigmoid(x) by SiLU preserves the result",
  "The replacements compute the same tensor as the layers they replace.",
  "all shapes and values", "All values.",
  ["pattern_matching/patterns/FuseMatMulAdd.py", "pattern_matching/patterns/FuseSigmoidMul.py"])
p("C39", "Renumbering after a fusion keeps identifiers unique and links intact",
  "After layers are removed and the following layers renumbered, identifiers remain pairwise distinct, follow list order, and saved-tensor entries still denote the same layers.",
  "all layer lists and removal positions", "All lists.",
  ["pattern_matching/Pattern.py:update_indices", "pattern_matching/Pattern.py:update_dict_cst"])
p("C40", "Implementation selection follows id over name over default",
  "The implementation chosen for each layer is the one requested for its identifier if any, otherwise the one requested for its type, otherwise the default; layers not concerned are unaffected.",
  "all layer lists and request maps", "All maps.",
  ["generator/neural_network.py:select_layers_implementation", "versioning/versioning.py:implement"])
p("C41", "Implementation registries never silently replace an implementation",
  "Registering a name twice or asking for an unknown implementation raises KeyError and leaves the registry unchanged; after any registration history each registered name builds the implementation registered first.",
  "all registration/lookup histories", "Histories are unbounded.",
  ["versioning/layer_factories.py"])
p("C42", "Code generation never overwrites existing files",
  "If any file to be generated already exists, generation raises FileExistsError and writes nothing.",
  "all directory states and generation options", "All directory states.",
  ["generator/neural_network.py:generate_c_files"])
p("C43", "Q-format strings, post-shifts and quantised parameters are consistent",
  "A rendered Q format parses back to its integers; malformed strings are rejected; the post-accumulation shift is never negative and rescales the accumulator to the output format; a quantised parameter differs from its value by at most half a unit in the last place.",
  "all integers, strings and real parameters", "All strings and values.",
  ["quantize/qform.py", "quantize/activation.py", "generator/neural_network.py:quantize_layers"])
p("C44", "Binary parameter sections are aligned and disjoint",
  "Every parameter array in the binary parameter file starts at the smallest multiple of the alignment not below the end of the previous one, so arrays never overlap.",
  "all parameter lists and power-of-two alignments", "All lists.",
  ["generator/neural_network.py:generate_bin_parameter_file"])
p("C45", "NNet input/output normalisation in C equals the Python one",
  "The generated pre-processing clamps and normalises each input exactly as the Python normalizer and the post-processing rescales each output likewise, whenever the declared minimum does not exceed the maximum.",
  "all bounds, means, ranges and inputs", "All values.",
  ["importers/NNET_importer/nnet_normalize.py", "templates/normalization/template_pre_processing.c.tpl", "templates/normalization/template_post_processing.c.tpl"])
p("C46", "Importers link layers symmetrically",
  "After importing, a layer is listed among another's inputs exactly as often as the other lists it among its consumers, and every layer's identifier is its position in the imported list.",
  "all models", "All models.",
  ["importers/ONNX_importer/parser_ONNX.py:load_onnx", "importers/JSON_importer/parser_JSON.py:load_json"])
p("C47", "The Python inference evaluates every layer on its producers' outputs",
  "compute_inference gives each layer its inputs in the order of its input list and returns the last layer's output, or fails explicitly when an input is missing.",
  "all graphs and layer functions", "All graphs.",
  ["generator/neural_network.py:compute_inference"])
p("C48", "Test dataset loading takes at most the requested number of samples, in order",
  "Loading a text dataset returns the first min(requested, available) samples in file order.",
  "all datasets and requested counts", "All counts.",
  ["generator/neural_network.py:_load_dataset"])

p("C49", "Channels-last blocked and depth-wise convolutions equal the direct convolution",
  "The direct_block code (any kernel, stride, equal top and left padding, dilation 1) and the depth-wise code, run on channels-last tensors with re-laid-out weights, compute the same values as the mathematical convolution, for every block size dividing the number of filters.",
  "all shapes, strides, pads, block sizes, weights and inputs", "All shapes and weight layouts.",
  ["generator/layers/convolution/Conv2Ddirect_block.py", "templates/layers/Conv/template_Conv_direct_block.c.tpl", "templates/layers/Conv/template_Conv_DW_HWC.c.tpl"])

p("C50", "Importing ONNX Mul/Sub/Div nodes with initialisers preserves their meaning",
  "An ONNX Mul, Sub or Div node with a constant operand is imported as a layer computing the node's value on every input.",
  "all constants and inputs", "Particular constant values take a different path.",
  ["importers/ONNX_importer/create_layer.py:create_mul,create_sub,create_div"])

p("C51", "Linear and cubic resize code equals the Python interpolation",
  "The code generated for a linear or cubic Resize computes, for every output element, the value of the Python layer, without reading outside the input.",
  "all shapes, scales, coordinate modes, values and cubic coefficients", "All shapes and factors, in particular one-row and one-column inputs.",
  ["generator/layers/resize/resize_linear", "generator/layers/resize/resize_cubic", "templates/layers/Resize"])

p("C52", "Custom generation functions are honoured as documented",
  "A list of (file name, function) pairs given for a category replaces the default functions of that category, an empty list disables it, and the file of each pair is produced by its function.",
  "all custom generation requests and directory states", "All requests.",
  ["generator/neural_network.py:select_generation_functions"])

p("C53", "Parameter arrays are declared and defined alike, with the values the code reads",
  "Every parameter array declared in the generated header is defined in the generated parameter file with the declared size, and a layer's arrays are laid out as its code reads them, for the C and the binary form of the parameters.",
  "all models and parameter values", "All models and layer implementations.",
  ["generator/neural_network.py:generate_parameter_file,generate_bin_parameter_file,generate_function_header_file", "templates/template_parameter_file.c.tpl", "templates/template_header_file.c.tpl"])

p("C54", "Quantised layers compute the same integers in C and in Python",
  "A quantised MatMul or Add layer gives, in the generated code and in Python, the same integers, including when an intermediate value overflows; without overflow a MatMul gives the exact sum of products rounded down to the output format.",
  "all shapes, formats, integer operands and widths", "All operands and accumulators.",
  ["generator/layers/matmul/MatMul.py", "generator/layers/broadcast/add/Add.py", "quantize/activation.py", "templates/layers/template_MatMul.c.tpl"])

p("C55", "An imported NNet file computes the network it describes",
  "Loading a well-formed NNet file succeeds, and the generated code and the Python inference of the loaded model compute, for every input, the composition of the file's affine layers with ReLU after all but the last, between the input normalisation and the output rescaling when normalisation is on.",
  "all numbers of layers, sizes, weights, biases, bounds and inputs", "All networks and inputs.",
  ["importers/NNET_importer/parser_NNET.py", "importers/NNET_importer/nnet_normalize.py"])

p("C57", "The optimiser terminates",
  "The pattern-matching pass ends on every list of layers: it never applies replacements for ever.",
  "all layer lists, links, activations and saved-tensor dictionaries", "Termination over all graphs.",
  ["pattern_matching/PatternMatcher.py", "pattern_matching/Pattern.py"])

p("C56", "ONNX data-movement nodes of every rank keep their ONNX meaning",
  "An ONNX Gather, GatherElements, Concat, Tile or Transpose node on tensors of rank one to four, with negative axes and indices allowed, is imported as a layer whose generated code computes what the ONNX operator specification says.",
  "all ranks, shapes, axes, indices, operand lists and values", "All ranks and axes: tensors of lower rank are run as rank four with shifted axes.",
  ["importers/ONNX_importer/create_layer.py:get_shape,create_gather,create_gather_elements,create_concat,create_tile,create_transpose", "generator/layers/gather/Gather.py"])

p("C60", "ONNX Reduce and Softmax nodes of every rank keep their ONNX meaning",
  "An ONNX ReduceSum/Mean/Prod/Max/Min or Softmax node on tensors of rank one to four is imported as a layer whose generated code computes what the ONNX operator specification of the model's opset says, defaults included.",
  "all ranks, shapes, axes, opsets and values", "All ranks, axes and opsets.",
  ["importers/ONNX_importer/create_layer.py:create_reduce_sum,create_reduce_max,create_softmax", "generator/layers/reduce/Reduce.py", "generator/layers/softmax/Softmax.py"])

p("C58", "ONNX Conv nodes keep their ONNX meaning",
  "An ONNX Conv node on images is imported as a layer whose generated code computes the convolution of the ONNX operator specification with the node's kernel, strides, dilations, groups, padding (explicit, VALID, SAME_UPPER, SAME_LOWER) and optional bias.",
  "all image and kernel sizes, strides, dilations, groups, paddings, weights and images", "All shapes and attribute combinations.",
  ["importers/ONNX_importer/create_layer.py:create_conv", "generator/layers/convolution/Conv2D.py:Conv2D.__init__", "ir/layer.py:compute_padding"])
p("C59", "ONNX pooling nodes keep their ONNX meaning",
  "An ONNX MaxPool, AveragePool or GlobalAveragePool node on images is imported as a layer whose generated code computes, for every output pixel, the maximum (the mean) of the pixels below the window given by the node's kernel, strides, dilations and padding.",
  "all image and kernel sizes, strides, dilations, paddings and images", "All shapes and attribute combinations.",
  ["importers/ONNX_importer/create_layer.py:create_max_pool,create_average_pool,create_global_average_pool", "generator/layers/pooling/Pooling2D.py:Pooling2D.__init__"])
p("C61", "ONNX element-wise nodes broadcast tensors of any ranks",
  "An ONNX Add, Sub, Mul, Div, Max, Min or Mean node over computed tensors of ranks one to four is imported as a layer whose generated code computes the multidirectional (numpy) broadcast of the operation.",
  "all numbers of operands, ranks, shapes and values", "All ranks, shapes and values.",
  ["importers/ONNX_importer/create_layer.py:create_add,create_sub,create_mul,create_div,create_max,create_min,create_avg", "generator/layers/broadcast/Broadcast.py"])

p("C62", "ONNX Gemm, MatMul and BatchNormalization nodes keep their ONNX meaning",
  "An ONNX Gemm, MatMul or BatchNormalization node is imported as a layer whose generated code computes what the ONNX operator specification says: alpha*A'*B' + beta*C with any transpositions and a broadcast C; the numpy product of vectors, matrices and stacks of matrices; the per-channel affine normalisation of tensors of any rank.",
  "all shapes, ranks, transpositions, scale factors and values", "All shapes and values.",
  ["importers/ONNX_importer/create_layer.py:create_gemm,create_matmul,create_batch_norm", "generator/layers/gemm/Gemm.py:Gemm.__init__", "generator/layers/matmul/MatMul.py:MatMul.__init__", "generator/layers/batch_normalization/BatchNormalization.py:BatchNormalization.__init__"])

p("C63", "ONNX Pad nodes keep their ONNX meaning",
  "An ONNX Pad node is imported as a layer whose generated code computes what the ONNX operator specification says, in the constant, edge, wrap and reflect modes, with pads on all axes or on the listed ones, and with the defaults of the optional mode, constant and axes.",
  "all shapes, ranks, pads, modes and values", "All shapes, pads and values.",
  ["importers/ONNX_importer/create_layer.py:create_pad,create_pad_obj", "generator/layers/padding/Pad.py:Pad.__init__"])
p("C64", "ONNX activation nodes keep their ONNX meaning",
  "An ONNX Relu, Tanh, Sigmoid, Exp, Log, LeakyRelu or Clip node is imported as a layer whose generated code applies the function of the ONNX operator specification (over the reals) to every element, also in place, with the defaults of the optional alpha, min and max.",
  "all shapes, real values and parameters", "All real inputs and all parameters.",
  ["importers/ONNX_importer/create_layer.py:instantiate_activation_layer,create_activation_layer", "generator/activation_functions.py"])
p("C65", "ONNX nodes that are not made into layers keep their ONNX meaning",
  "A Reshape, Flatten, Unsqueeze, Dropout, LRN, Shape or Constant node, for which the importer creates no layer, still gives its consumers the tensor the ONNX operator specification defines: every element at its coordinates, and constants with their elements and dimensions.",
  "all shapes, ranks, axes, values and encodings of constants", "All shapes and all coordinates.",
  ["importers/ONNX_importer/create_layer.py:bypass,create_initializer"])

p("C66", "ONNX Resize nodes keep their ONNX meaning",
  "An ONNX Resize node in nearest mode is imported as a layer whose generated code gives every output element the input element at the transformed and rounded coordinates of the ONNX operator specification, for the scales or the sizes, with the defaults of the optional attributes and inputs; the layer rebuilt by the implementation selection keeps the output size.",
  "all shapes, sizes, scales, modes and values; all binary64 roundings", "All sizes: the rounding of input * (output / input) is wrong for about four pairs in a hundred only.",
  ["importers/ONNX_importer/create_layer.py:create_resize,resize_set_default_attributes_values", "generator/layers/resize/Resize.py:Resize.__init__", "generator/layers/resize/resize_nearest/ResizeNearestDefault.py:resize_nearest_default_implementation"])

p("C67", "Exported ONNX graphs are well formed",
  "The ONNX graph exported from a network defines every value name once, every node reads only names that are graph inputs, initialisers or outputs of earlier nodes, and every declared output is a defined value.",
  "all networks, layer attributes, weights and layer lists in topological order", "All networks: names are built from layer class names and identifiers and collide or dangle only for some kinds and combinations of layers.",
  ["exporters/ONNX_exporter/exporter_onnx.py", "exporters/ONNX_exporter/acetone_to_onnx_layer.py:generate_input_output_name,create_initializer_tensor,list_exporters,list_activation_exporters,export_input,export_output"])

p("C68", "Exported ONNX graphs compute the network",
  "Running the ONNX graph exported from a network on the network's input gives, for every layer, a tensor with the value of that layer, and therefore the same outputs; the declared output shapes are those of the tensors.",
  "all networks, layer attributes, weights, input values and runs of the exported graph", "All layers, attribute values and inputs: wrong attribute orders, dropped parameters and wrong element types show only for particular attributes, and equality must hold for every input value.",
  ["exporters/ONNX_exporter/exporter_onnx.py", "exporters/ONNX_exporter/acetone_to_onnx_layer.py:list_exporters,list_activation_exporters,export_conv2d,export_pool,export_softmax,export_gather,export_tile,export_gemm,export_broadcast,export_flatten,export_activation,export_output"])

p("C69", "Imported Keras models compute what Keras computes",
  "Importing a Keras model (Sequential or functional) succeeds, and the imported network, the generated C program and the Python inference return, on every input, the tensor Keras computes, element by element in Keras's order.",
  "all Keras models over the supported layer classes, all layer options, weights and inputs", "All graphs, options, weights and inputs: ignored options (data_format, second entry of a tuple, axis) and wrong orders of the weights are visible only for particular options, and equality must hold for every input value.",
  ["importers/H5_importer/parser_h5.py:load_keras,create_actv,get_layer_size,get_output_dimensions,get_input_dimensions", "generator/neural_network.py:CodeGenerator.compute_inference,CodeGenerator.generate_function_source_file"])

p("C70", "Programs generated in channels_last order compute the network",
  "With gen_data_format='channels_last' and channels_last implementations selected for convolutions and poolings, the generated C program returns, in the model's own data format, the same tensor as the channels_first program and as the Python inference, on every input.",
  "all supported layer graphs, selections of implementations, weights and inputs", "All graphs, selections and inputs: a layer that reads the other order gives right results on symmetric or one-channel tensors, and equality must hold for every input value.",
  ["generator/neural_network.py:CodeGenerator.__init__,CodeGenerator.generate_function_source_file", "generator/layers/input/InputDefault.py", "generator/layers/convolution/Conv2Ddirect_block.py", "generator/layers/pooling/max_pooling/MaxPooling2DDefault.py", "generator/layers/pooling/average_pooling/AveragePooling2DDefault.py", "templates/layers/template_Pooling2D_HWC.c.tpl"])

p("C71", "Imported PyTorch programs compute what PyTorch computes",
  "Importing a program exported by torch.export succeeds, and the imported network, the generated C program and the Python inference return, on every input, the tensor PyTorch computes, in the memory format of the example input.",
  "all exported programs over the operations the importer knows, all options, parameters and inputs", "All graphs, options, parameters and inputs: activations and batch_norm are merged in place into the layer of their operand, which is wrong only for particular sharings and orders; ignored options matter only for particular values; equality must hold for every input value.",
  ["importers/PYTORCH_importer/parse_pytorch.py:load_pytorch,TorchToACETONE.visit_placeholder,TorchToACETONE.visit_call_function", "generator/neural_network.py:CodeGenerator.compute_inference,CodeGenerator.generate_function_source_file"])

p("C72", "Imported ONNX models compute what ONNX specifies",
  "Importing an ONNX model file succeeds, and the imported network, the generated C program and the Python inference return, on every input, the output tensor that the ONNX operator documentation specifies for the whole graph.",
  "all model files over the operators the importer knows, all graphs, attributes, initialisers, announced dimensions and inputs", "All graphs and attributes: which layer holds a tensor depends on the order of the nodes, on the nodes that are bypassed and on when an initialiser is first read; shapes are completed and axes shifted according to the announced rank; equality must hold for every input value.",
  ["importers/ONNX_importer/parser_ONNX.py:load_onnx", "importers/ONNX_importer/create_layer.py:layer_type,unused_layers,create_input_layer,create_initializer_layer,get_shape,_collect_node_inputs", "graph/graph_interpretor.py:tri_topo", "generator/neural_network.py:CodeGenerator.compute_inference,CodeGenerator.generate_function_source_file"])

p("C73", "The implementation chosen for the convolutions does not change the result",
  "Whatever registered implementation the versions argument selects for each Conv2D layer (by layer number, by type name, or the default), the generated C program ends normally and returns, on every input, the same output; for imported models it is the output the framework specifies.",
  "all supported networks, all versions arguments, all weights and inputs", "All combinations of implementations and layers, all geometries and inputs: variants differ only for particular paddings, strides and dilations, need different scratch arrays, and must agree on every input value.",
  ["generator/neural_network.py:CodeGenerator.select_layers_implementation", "versioning/versioning.py:versioning", "generator/layers/convolution/Conv2D6loops.py", "generator/layers/convolution/Conv2DStdGemm.py", "generator/layers/convolution/Conv2DIndirectGemm.py"])

p("C74", "Constants written in the generated files are exact",
  "With to_hex, every finite parameter or test value is written in the generated C files and in the output files as a hexadecimal constant whose value, for a C compiler and for the tool's own reader, is exactly the number; two different numbers are never written alike.",
  "all finite IEEE binary64 numbers (and, by exact conversion, binary32 ones)", "All 2^64 bit patterns: the text is shortened by a string replacement whose effect depends on the digits (seven zeros before the exponent), so a wrong replacement shows only on particular fractions or exponents.",
  ["generator/neural_network.py:CodeGenerator.data2c,CodeGenerator.c2data", "cli/compare.py:preprocess_line"])

p("C75", "acetone_compare reports the errors between the Python and C outputs",
  "Given the file of outputs of the Python inference, that of the generated program and the number of tests, the comparison reads exactly the numbers written, reports the greatest absolute and relative difference over all the values of those tests, and says the files are similar exactly when all the values are within the tolerance.",
  "all pairs of files, all numbers of tests, all values, both precisions", "All output values and file lengths: the maximum must be over every value of every line; NaN makes max order-dependent, missing lines are dropped by zip, and an off-by-one in the number of lines shows only on longer files.",
  ["cli/compare.py:compare_floats,preprocess_line,compare_lines,compare_files,cli_compare", "generator/neural_network.py:CodeGenerator.compute_inference,CodeGenerator.data2c", "templates/template_main_file.c.tpl"])

p("C76", "Import, optimisation and choice of implementations together keep what the network computes",
  "Loading a model from ONNX, Keras or PyTorch, letting the generator optimise it, and selecting the implementations of the remaining layers by type or by number yields a program that returns, for every input, what the framework specifies as the model's output; so does the Python inference on the same layers.",
  "all models of the covered sets, all selections of implementations, all inputs", "The passes compose: fusions renumber layers and rewrite parameters, versions are matched against the new numbers, implementations read fused parameters. Only all models times all selections times all inputs settle it.",
  ["generator/neural_network.py:CodeGenerator.__init__,select_layers_implementation,generate_function_source_file,compute_inference", "pattern_matching/PatternMatcher.py:PatternMatcher.match", "versioning/versioning.py:versioning", "importers/ONNX_importer/parser_ONNX.py:load_onnx", "importers/H5_importer/parser_h5.py:load_keras", "importers/PYTORCH_importer/parse_pytorch.py:load_pytorch"])

p("C77", "The debug mode shows the tensors the layers compute, and its tools find the first wrong one",
  "In debug mode the Python inference and the generated C code record, for every layer after the input except constants (and, for Keras, layers merged with a following Softmax), the tensor that layer computes in the framework's layout, with its name and number. The tools read both recordings back in the order of the numbers, select layers by number, and comparing two recordings answers True exactly when all tensors are close and otherwise names the first that is not.",
  "all networks, all inputs, all data formats, all layer numbers, all lists of tensors", "All networks and layer counts: buffers are shared between layers, so a tensor must be printed before it is overwritten; numbers of two digits, saved tensors and transposed layouts only show on larger networks.",
  ["generator/neural_network.py:CodeGenerator.load_debug_target,CodeGenerator.compute_inference,CodeGenerator.generate_function_source_file", "templates/template_source_file.c.tpl", "debug/debug_tools.py:compare_result,reorder_outputs,extract_outputs_c,extract_outputs_python"])

p("C78", "Rounding errors of the generated program are bounded",
  "Run in float or double, the generated program of a network whose layers compute in the data type (C83 and C86 are about the others) returns on every input values whose distance to what the network computes in exact arithmetic, with the same weights, is at most the bound obtained by propagating relative and absolute rounding errors layer by layer; for a Dense or Conv2D layer of n products the distance is at most ((1+u)^(n+2)-1) times the layer applied to absolute values, plus n+1 times the smallest number; the sigmoid's error does not depend on its argument; the convolution algorithms return the same floating-point numbers.",
  "all formats with rounding to nearest (binary32, binary64), all supported networks of such layers, all weights, all inputs and input errors", "Rounding errors depend on every value and on the order of the additions; a test compares a few values with a tolerance and cannot bound the others.",
  ["templates/layers/template_Dense.c.tpl", "templates/layers/Conv/template_Conv_6loops.c.tpl", "templates/layers/template_Softmax.c.tpl", "generator/activation_functions.py:Sigmoid.write_activation_str", "generator/neural_network.py:CodeGenerator.generate_function_source_file"])

p("C79", "The acetone_generate command generates the program its options describe",
  "A command line with the four required options is accepted exactly when its integers are integers, whatever the order of the options, in the separate, '=' and abbreviated forms; each option has the last value given or its documented default. The network is read by the loader of the file's extension (.json, .onnx, .nnet, .h5), optimised only on request, every Conv2D layer is implemented by the algorithm of --conv, a boolean option set to False is off, and --normalize only has an effect on NNET files.",
  "all command lines, all file names, all networks", "Command lines are unbounded combinations of options, forms and values; tests call the Python class, not the command.",
  ["cli/generate.py:acetone_generate,cli_acetone", "importers/parser.py:parser", "importers/JSON_importer/parser_JSON.py:load_json", "generator/layers/input/Input.py:InputLayer", "generator/neural_network.py:CodeGenerator.__init__,CodeGenerator.select_layers_implementation"])

p("C80", "A network exported to ONNX and imported again is the same network",
  "The ONNX file the tool writes for a network is read back by the tool, and the network read back computes, on the same input, the same output: the C program generated from it returns the values of the C program generated from the original network.",
  "all networks, all weights, all inputs, all convolution implementations", "Networks and weights are unbounded; the tests compare the exported file with onnxruntime on a few networks and never import it again.",
  ["exporters/ONNX_exporter/exporter_onnx.py:onnx_exporter", "exporters/ONNX_exporter/acetone_to_onnx_layer.py", "importers/ONNX_importer/parser_ONNX.py:load_onnx", "importers/ONNX_importer/create_layer.py"])

p("C81", "A nearest-neighbour resize reads the documented pixels with the rounding of its coordinates",
  "A Resize layer in nearest mode whose scales are the quotients of its sizes computes positions with floating-point numbers: the generated C code divides in double precision and stores the position in a float, Python keeps doubles. Both nevertheless take, for every output pixel, the input pixel that ONNX's formula and rounding mode give in exact arithmetic, so C and Python agree and neither leaves the input because of a rounding error.",
  "every pair of sizes per axis, every output position, coordinate transformations half_pixel, pytorch_half_pixel, align_corners and asymmetric, the four nearest modes, every input",
  "The error depends on the sizes and on how near a position is to the boundary between two pixels: positions that are exactly integers or half-integers are decided by the last bit, and tests use a few small sizes.",
  ["src/acetone_nnet/generator/layers/resize/Resize.py: scale, half_pixel, pytorch_half_pixel, align_corners, asymmetric and their _implem", "src/acetone_nnet/generator/layers/resize/resize_nearest/ResizeNearest.py", "src/acetone_nnet/generator/layers/resize/resize_nearest/ResizeNearestDefault.py", "src/acetone_nnet/templates/layers/Resize/template_ResizeNearest.c.tpl", "src/acetone_nnet/templates/template_source_file.c.tpl: float x, float y"])
p("C82", "Numbers written in decimal keep their value",
  "With to_hex=False, every finite parameter is written in the generated C files as a decimal floating constant that a C compiler, and the tool's own reader, read back as exactly the number, in double and in float, and two different numbers are never written alike; the values of the debugging file are read back as the numbers the program computed; the values of the output file are those of the program to the precision of the text.",
  "all finite IEEE binary64 and binary32 numbers, all layers and tensors of a debugging file",
  "All 2^64 bit patterns: nine or seventeen digits suffice only because no two floating-point numbers are closer than the spacing of the decimal ones at any exponent, powers of two and subnormal numbers included, and because rounding twice (decimal to double to float) does not meet a tie; tests read a few numbers.",
  ["src/acetone_nnet/generator/neural_network.py:CodeGenerator.data2c,CodeGenerator.c2data,CodeGenerator.generate_main_file", "src/acetone_nnet/templates/template_main_file.c.tpl", "src/acetone_nnet/templates/template_source_file.c.tpl", "src/acetone_nnet/debug/debug_tools.py:extract_outputs_c"])
p("C83", "A program generated in double precision computes in double precision",
  "With data_type double, every activation and every resized pixel of the generated program is the mathematical value up to the rounding of double precision; in particular an image resized linearly keeps the pixels lying on the grid.",
  "all binary64 numbers, all pixels and grid positions",
  "The defect only shows at arguments where single and double precision differ; a test comparing with a tolerance of single precision accepts it, and the actual accuracy (2^-21 everywhere, but no better) is a statement about all binary64 numbers.",
  ["src/acetone_nnet/generator/activation_functions.py:Sigmoid,TanH", "src/acetone_nnet/templates/template_source_file.c.tpl", "src/acetone_nnet/templates/layers/Resize/template_ResizeLinear2D.c.tpl", "src/acetone_nnet/templates/layers/Resize/template_ResizeLinear1D.c.tpl"])
p("C84", "The training hooks read, replace and save the parameters",
  "In the generated shared library, save_weights writes every weight and bias array in order and nothing else; copy_weights given another network's parameters of the same shapes makes the program that network; the saved file can replace parameters.dat; batch_loop gives every row of a batch to exactly one inference, inside the arrays passed.",
  "all networks, parameter values, page sizes, batch sizes",
  "All networks and batch sizes: the test copies one network without batch normalisation back onto itself with one row, in binary mode and single precision.",
  ["src/acetone_nnet/generator/neural_network.py:CodeGenerator.generate_train_hook_file", "src/acetone_nnet/templates/template_train_hook_file.c.tpl", "src/acetone_nnet/templates/template_makefile.tpl"])
p("C85", "Every name the generated files use is defined exactly once, and make finds every file it needs",
  "For every network and every option, the object files that the generated Makefile links into the program and into the shared library define each identifier once and define all those they use, and every file the Makefile asks for is generated or made by one of its rules, custom files included.",
  "all networks, generation options and custom generation requests",
  "All networks, options and custom files: the arrays of every layer, the normalisation constants and the test inputs are declared, defined and used by six different templates.",
  ["src/acetone_nnet/templates/template_makefile.tpl", "src/acetone_nnet/templates/template_test_dataset_header.c.tpl", "src/acetone_nnet/templates/template_header_file.c.tpl", "src/acetone_nnet/templates/template_train_hook_file.c.tpl", "src/acetone_nnet/generator/neural_network.py:CodeGenerator.generate_makefile,CodeGenerator.select_generation_functions"])
p("C86", "C's mixed float and double expressions cost no more than single precision",
  "In a float program C computes with doubles wherever a literal, exp, log or sqrt occurs and rounds when the result is stored. With these conversions every activation returns the mathematical value within a few roundings to the data type, on every number; Softmax of n numbers is within (n+1) 2^-22 of the exact one, relatively, and a batch normalisation within 2^-22 of the sum of the magnitudes of its two terms. An activation whose expression is only stored in a float is the one C78 propagates bounds through.",
  "all numbers of the data type, all parameters, all numbers of elements",
  "Which operations are done in float depends on the types of the operands in the emitted text; a test sees a few values, where both readings give the same digits.",
  ["src/acetone_nnet/generator/activation_functions.py:write_activation_str", "src/acetone_nnet/templates/layers/template_Softmax.c.tpl", "src/acetone_nnet/templates/layers/template_BatchNormalization.c.tpl", "src/acetone_nnet/templates/template_source_file.c.tpl"])
p("C87", "A Keras model written to JSON is read back with the same links",
  "json_from_keras_model followed by load_json gives a network in which every layer reads the layers it is applied to in the Keras model, in the order of its operands, in the model's data format, with its weights and bias.",
  "all Sequential and functional models, of any size and wiring",
  "The positions written depend on the order in which layers are listed, on names and on the number of calls; a test has one chain or one diamond.",
  ["src/acetone_nnet/importers/JSON_importer/JSON_from_keras_model.py:json_from_keras_model", "src/acetone_nnet/importers/JSON_importer/parser_JSON.py:load_json"])
out = os.path.join(os.path.dirname(__file__), "..", "properties.jsonl")
with open(out, "w") as f:
    for x in P:
        f.write(json.dumps(x) + "\n")
print(len(P))

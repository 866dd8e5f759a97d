{"id": "C01", "title": "Layers are executed after all their producers", "statement": "For every acyclic model whose links are consistent, importing the model yields a layer list that contains every layer exactly once and in which each layer comes after every layer it reads from.", "quantifier": "all finite acyclic layer graphs (any size, any branching, any listing order, with or without constant layers)", "why_tests_cant": "Tests sample a few architectures; the traversal order depends on the shape of the whole graph.", "anchors": ["src/acetone_nnet/graph/graph_interpretor.py:tri_topo", "src/acetone_nnet/graph/graph_interpretor.py:parcours_prof_topo"]}
{"id": "C02", "title": "The network input stays first and importing never hits an internal assertion", "statement": "For every acyclic model in which every non-constant layer depends on the input, importing succeeds, the first layer of the result is the input layer, and the constants directly follow it.", "quantifier": "all finite acyclic graphs whose non-constant layers are reachable from the first listed layer", "why_tests_cant": "The failure needs a particular combination of sources, constants and listing order.", "anchors": ["src/acetone_nnet/graph/graph_interpretor.py:tri_topo", "src/acetone_nnet/graph/graph_interpretor.py:assign_liveliness_index"]}
{"id": "C03", "title": "A working buffer is never overwritten while its tensor is still needed", "statement": "For every model in which no layer lists the same input twice, when the generated inference function lets a layer write its output buffer, no other tensor that a later layer (or the caller) still needs is stored in that buffer.", "quantifier": "all topologically ordered graphs without repeated inputs, all pairs of layers, all execution points", "why_tests_cant": "Buffer reuse collisions appear only for particular interleavings of branch lifetimes.", "anchors": ["src/acetone_nnet/graph/graph_interpretor.py:assign_liveliness_index"]}
{"id": "C04", "title": "The number of working buffers is minimal", "statement": "For every model without repeated inputs, no assignment of working buffers that avoids overwriting needed tensors (for the same execution order) uses fewer buffers than the generated code declares.", "quantifier": "all such graphs and all alternative assignments", "why_tests_cant": "A test can only compare with one hand-made assignment.", "anchors": ["src/acetone_nnet/graph/graph_interpretor.py:assign_liveliness_index", "src/acetone_nnet/graph/graph_interpretor.py:tri_topo"]}
{"id": "C05", "title": "Every buffer used is declared", "statement": "Each layer's buffer number is smaller than the number of working buffers declared in the generated header, and each declared buffer is used by some layer.", "quantifier": "all graphs", "why_tests_cant": "Universally quantified over graphs.", "anchors": ["src/acetone_nnet/graph/graph_interpretor.py:tri_topo", "src/acetone_nnet/generator/neural_network.py:generate_function_header_file"]}
{"id": "C06", "title": "Tensors read by several layers are preserved until their last reader", "statement": "Every layer whose output is read more than once gets a saved copy; for every model without repeated inputs the saved copy is not reused for another tensor before the last reader has run; other layers get none.", "quantifier": "all topologically ordered graphs without repeated inputs", "why_tests_cant": "Depends on lifetimes of all multi-reader tensors.", "anchors": ["src/acetone_nnet/graph/graph_interpretor.py:assign_cst", "src/acetone_nnet/ir/layer.py:find_output_str"]}
{"id": "C07", "title": "A layer may use the same tensor twice", "statement": "Models in which a layer lists the same tensor twice (x + x, x * x, concat(x, x)) keep all needed tensors intact, as C03 and C06 promise for other models.", "quantifier": "all topologically ordered graphs, including those with repeated inputs", "why_tests_cant": "Needs a graph in which the doubly released buffer is taken by an unrelated live branch.", "anchors": ["src/acetone_nnet/graph/graph_interpretor.py:assign_liveliness_index", "src/acetone_nnet/graph/graph_interpretor.py:assign_cst"]}
{"id": "C08", "title": "The generated inference function computes the network", "statement": "For every supported layer graph, running the generated inference function on an input leaves in the output array exactly the value obtained by evaluating every layer's reference function along the graph (what compute_inference returns), whatever the buffers contained before.", "quantifier": "all graphs, all layer parameters, all inputs, all initial buffer contents", "why_tests_cant": "Combines scheduling, buffer reuse and every layer's loop nest: the space is unbounded.", "anchors": ["src/acetone_nnet/templates/template_source_file.c.tpl", "src/acetone_nnet/generator/neural_network.py:generate_function_source_file", "src/acetone_nnet/generator/neural_network.py:compute_inference"]}
{"id": "C09", "title": "The generated inference function stays inside its buffers", "statement": "With the buffer sizes declared by the generated header, no loop of the generated inference function reads or writes outside an array.", "quantifier": "all graphs, all layer parameters accepted by the constructors, all inputs", "why_tests_cant": "Out-of-bounds accesses depend on all shapes at once and are often silent.", "anchors": ["src/acetone_nnet/generator/neural_network.py:generate_function_header_file", "src/acetone_nnet/templates/template_header_file.c.tpl"]}
{"id": "C10", "title": "Successive inferences are independent", "statement": "Calling the generated inference function on an input gives the same result whatever inferences ran before on the same context.", "quantifier": "all graphs, all call histories, all inputs", "why_tests_cant": "Histories are unbounded.", "anchors": ["src/acetone_nnet/templates/template_source_file.c.tpl", "src/acetone_nnet/templates/template_main_file.c.tpl"]}
{"id": "C11", "title": "Dense layers compute x.W + b", "statement": "The generated code of a Dense layer computes, for every output, the activation of the dot product of the input with the matching weight column plus bias, as the Python reference does.", "quantifier": "all sizes, weights, biases, inputs, activation functions, including output buffer = input buffer", "why_tests_cant": "All sizes and values.", "anchors": ["src/acetone_nnet/generator/layers/dense/DenseDefault.py", "src/acetone_nnet/templates/layers/template_Dense.c.tpl", "src/acetone_nnet/generator/layers/dense/Dense.py:forward_path_layer"]}
{"id": "C12", "title": "MatMul layers compute the batched matrix product", "statement": "The generated code of a MatMul layer whose two operands have the same number of channels computes, per channel, the matrix product of its operands, as the Python reference does.", "quantifier": "all shapes with equal channel counts, all values", "why_tests_cant": "All sizes and values.", "anchors": ["src/acetone_nnet/generator/layers/matmul/MatMulDefault.py", "src/acetone_nnet/templates/layers/template_MatMul.c.tpl", "src/acetone_nnet/generator/layers/matmul/MatMul.py:forward_path_layer"]}
{"id": "C13", "title": "Gemm layers compute alpha*op(A)*op(B) + beta*C for every transposition", "statement": "For each of the four transposition choices the generated Gemm code computes alpha times the product of the (possibly transposed) operands plus beta times the bias, as the Python reference does.", "quantifier": "all shapes, transposition flags, alpha, beta and values", "why_tests_cant": "All sizes, flags and values.", "anchors": ["src/acetone_nnet/generator/layers/gemm/GemmDefault.py", "src/acetone_nnet/templates/layers/Gemm/template_gemm_nn.c.tpl", "src/acetone_nnet/templates/layers/Gemm/template_gemm_nt.c.tpl", "src/acetone_nnet/templates/layers/Gemm/template_gemm_tn.c.tpl", "src/acetone_nnet/templates/layers/Gemm/template_gemm_tt.c.tpl"]}
{"id": "C14", "title": "The six-loop convolution equals the mathematical convolution and the Python reference", "statement": "The generated six-loop code computes at each output position the bias plus the sum over channels and kernel positions of weight times zero-padded input; with dilation 1 and one group this is also what the Python reference computes.", "quantifier": "all channel counts, kernel sizes, strides, paddings, values", "why_tests_cant": "All shapes and values.", "anchors": ["src/acetone_nnet/templates/layers/Conv/template_Conv_6loops.c.tpl", "src/acetone_nnet/generator/layers/convolution/Conv2D.py:forward_path_layer"]}
{"id": "C15", "title": "The im2col/GEMM convolution (nn) equals the six-loop convolution", "statement": "Choosing std_gemm_nn instead of 6loops for a convolution (dilation 1) does not change the layer's result.", "quantifier": "all channel counts, kernel sizes, strides, paddings, values", "why_tests_cant": "All shapes and values.", "anchors": ["src/acetone_nnet/templates/layers/Conv/template_im2col.c.tpl", "src/acetone_nnet/templates/layers/Conv/template_Conv_gemm_nn.c.tpl", "src/acetone_nnet/generator/layers/convolution/Conv2DStdGemm.py"]}
{"id": "C16", "title": "The transposed im2row/GEMM variants equal the six-loop convolution", "statement": "Choosing std_gemm_nt, std_gemm_tn or std_gemm_tt does not change a convolution's result.", "quantifier": "all shapes and values", "why_tests_cant": "Square single-channel examples hide index swaps.", "anchors": ["src/acetone_nnet/templates/layers/Conv/template_im2row.c.tpl", "src/acetone_nnet/templates/layers/Conv/template_Conv_gemm_nt.c.tpl", "src/acetone_nnet/templates/layers/Conv/template_Conv_gemm_tn.c.tpl", "src/acetone_nnet/templates/layers/Conv/template_Conv_gemm_tt.c.tpl"]}
{"id": "C17", "title": "The indirect-GEMM pointer table denotes the im2col matrix", "statement": "Every entry of the pointer table built for the indirect GEMM convolution points to the input element (or the padding zero) that im2col would place there.", "quantifier": "all shapes, strides and paddings", "why_tests_cant": "Fails only when the kernel does not visit every input element.", "anchors": ["src/acetone_nnet/generator/layers/convolution/Conv2DIndirectGemm.py:create_ppatches"]}
{"id": "C18", "title": "The Winograd 3x3 convolution equals the direct convolution", "statement": "For a 3x3 kernel with stride 1 the Winograd F(2x2,3x3) tile computation gives the direct convolution, and the tiling covers every output element.", "quantifier": "all tiles, all output sizes", "why_tests_cant": "An algebraic identity and a tiling argument over all sizes.", "anchors": ["src/acetone_nnet/generator/layers/convolution/Conv2Ddirect_block.py", "src/acetone_nnet/templates/layers/Conv/template_Conv3x3_winograd.c.tpl"]}
{"id": "C19", "title": "SAME padding yields ceil(input/stride) outputs", "statement": "With SAME padding and dilation 1 the computed pads are non-negative, differ by at most one between opposite sides with the extra cell on the documented side, and make the output size formula equal ceil(input/stride); VALID gives no padding; explicit pads are used in top, left, bottom, right order.", "quantifier": "all input sizes, kernel sizes and strides", "why_tests_cant": "All sizes.", "anchors": ["src/acetone_nnet/ir/layer.py:compute_padding"]}
{"id": "C20", "title": "Pooling computes the max / mean of the in-range window", "statement": "When the left and top pads are equal, the generated pooling code computes for every output the maximum (resp. mean) of exactly the input elements of its window that lie inside the image.", "quantifier": "all shapes, pool sizes, strides, pads (left=top), values", "why_tests_cant": "All shapes and values.", "anchors": ["src/acetone_nnet/templates/layers/template_Pooling2D.c.tpl", "src/acetone_nnet/generator/layers/pooling/average_pooling/AveragePooling2DDefault.py", "src/acetone_nnet/generator/layers/pooling/max_pooling/MaxPooling2DDefault.py"]}
{"id": "C21", "title": "Generated pooling and Python pooling agree", "statement": "The generated pooling code and the Python reference return the same tensor.", "quantifier": "all shapes, pads, values", "why_tests_cant": "They differ only for particular pads.", "anchors": ["src/acetone_nnet/generator/layers/pooling/Pooling2D.py:forward_path_layer", "src/acetone_nnet/templates/layers/template_Pooling2D.c.tpl"]}
{"id": "C22", "title": "Pad layers implement the four numpy padding modes", "statement": "The generated Pad code (constant, edge, reflect, wrap) produces the tensor numpy's pad returns for that mode, for all pads the mode supports.", "quantifier": "all shapes, pads, values", "why_tests_cant": "All shapes and values.", "anchors": ["src/acetone_nnet/generator/layers/padding/Pad.py", "src/acetone_nnet/templates/layers/Pad/template_Constant_Pad.c.tpl", "src/acetone_nnet/templates/layers/Pad/template_Pad_Non_Constant.c.tpl"]}
{"id": "C23", "title": "Transpose moves every element to its permuted position", "statement": "For every permutation of channel, height and width the generated Transpose code produces the transposed tensor, as the Python reference does.", "quantifier": "all six permutations, all shapes and values, including output buffer = input buffer", "why_tests_cant": "All shapes.", "anchors": ["src/acetone_nnet/generator/layers/transpose/TransposeDefault.py", "src/acetone_nnet/templates/layers/template_Transpose.c.tpl"]}
{"id": "C24", "title": "Concatenate places each operand in its slice", "statement": "The generated Concatenate code produces, for each axis, the concatenation of its operands in order, for any number of operands.", "quantifier": "all axes, operand counts, shapes and values", "why_tests_cant": "Any number of operands.", "anchors": ["src/acetone_nnet/generator/layers/concatenate/ConcatenateDefault.py", "src/acetone_nnet/templates/layers/template_Concatenate.c.tpl", "src/acetone_nnet/generator/layers/concatenate/Concatenate.py:forward_path_layer"]}
{"id": "C25", "title": "Gather and GatherElements select the indexed elements", "statement": "The generated Gather / GatherElements code selects along the chosen axis the elements named by the index tensor, as the Python reference does.", "quantifier": "all axes, index lists, shapes and values", "why_tests_cant": "All index tensors.", "anchors": ["src/acetone_nnet/generator/layers/gather/GatherDefault.py", "src/acetone_nnet/templates/layers/template_Gather.c.tpl", "src/acetone_nnet/generator/layers/gather_elements/GatherElementsDefault.py", "src/acetone_nnet/templates/layers/template_GatherElements.c.tpl"]}
{"id": "C26", "title": "Tile repeats its input", "statement": "The generated Tile code produces the input repeated along each axis, as numpy's tile does.", "quantifier": "all shapes, repeats, values", "why_tests_cant": "All shapes.", "anchors": ["src/acetone_nnet/generator/layers/tile/TileDefault.py", "src/acetone_nnet/templates/layers/template_Tile.c.tpl"]}
{"id": "C27", "title": "Broadcast arithmetic layers apply their operator with numpy broadcasting", "statement": "The generated code of Add, Subtract, Multiply, Divide, Maximum, Minimum and Average combines the broadcast operands (and the folded constant) in order, as the Python reference does.", "quantifier": "all operand counts, broadcastable shapes, values", "why_tests_cant": "Any number of operands and shapes.", "anchors": ["src/acetone_nnet/generator/layers/broadcast/Broadcast.py", "src/acetone_nnet/templates/layers/template_Broadcast.c.tpl"]}
{"id": "C28", "title": "Batch normalisation computes scale*(x-mean)/sqrt(var+eps)+bias per channel", "statement": "The generated BatchNormalization code applies the affine normalisation of its channel to each element, as the Python reference does.", "quantifier": "all shapes and values", "why_tests_cant": "All shapes and values.", "anchors": ["src/acetone_nnet/templates/layers/template_BatchNormalization.c.tpl", "src/acetone_nnet/generator/layers/batch_normalization/BatchNormalization.py:forward_path_layer"]}
{"id": "C29", "title": "Softmax outputs are a probability distribution along the requested axis", "statement": "The generated Softmax code produces positive values summing to one along the axis, equal to the Python reference.", "quantifier": "all shapes, axes, values", "why_tests_cant": "All shapes and values.", "anchors": ["src/acetone_nnet/generator/layers/softmax/SoftmaxDefault.py", "src/acetone_nnet/templates/layers/template_Softmax.c.tpl", "src/acetone_nnet/generator/layers/softmax/Softmax.py"]}
{"id": "C30", "title": "Reduce layers reduce the requested axes", "statement": "The generated ReduceSum/Mean/Prod/Max/Min code computes the reduction over the requested axes, as the Python reference does.", "quantifier": "all axis sets, shapes and values", "why_tests_cant": "Some axis pairs need particular values to fail.", "anchors": ["src/acetone_nnet/generator/layers/reduce/Reduce.py", "src/acetone_nnet/templates/layers/template_Reduce.c.tpl"]}
{"id": "C31", "title": "Resize samples inside the input", "statement": "For every coordinate mode and size the index computed by the nearest-neighbour resize code lies inside the input and follows the documented coordinate transformation.", "quantifier": "all sizes, scales and modes", "why_tests_cant": "Rounding corner cases over all sizes.", "anchors": ["src/acetone_nnet/generator/layers/resize/Resize.py", "src/acetone_nnet/templates/layers/Resize/template_ResizeNearest.c.tpl"]}
{"id": "C32", "title": "Generated activation expressions equal the Python activations", "statement": "For every activation function the C expression emitted by the generator evaluates to the same value as the Python computation, for every argument and parameter.", "quantifier": "all activation functions, arguments and parameters", "why_tests_cant": "Boundary values (0, clip bounds).", "anchors": ["src/acetone_nnet/generator/activation_functions.py"]}
{"id": "C33", "title": "Flatten leaves the tensor's elements in order", "statement": "After the generated Flatten code the layer's output buffer holds the previous layer's tensor (channels_first) or its channel-last reordering, wherever the previous layer's output was stored.", "quantifier": "all graphs, shapes and values", "why_tests_cant": "Fails only for particular buffer allocations.", "anchors": ["src/acetone_nnet/generator/layers/flatten/FlattenDefault.py", "src/acetone_nnet/templates/layers/template_Flatten.c.tpl"]}
{"id": "C34", "title": "Input and output layout conversions are inverse permutations", "statement": "Converting an input from channels_last to channels_first and an output back moves each element to the position denoting the same (channel, row, column), and the two conversions are inverse of each other.", "quantifier": "all shapes and values", "why_tests_cant": "All shapes.", "anchors": ["src/acetone_nnet/templates/layers/template_Input_Layer.c.tpl", "src/acetone_nnet/templates/memory_layout/template_output.c.tpl", "src/acetone_nnet/generator/neural_network.py:compute_inference"]}
{"id": "C35", "title": "The test driver processes every sample exactly once", "statement": "The generated main loop splits the test samples into batches of at most the maximal batch size so that each sample is loaded, inferred and printed exactly once, in order, without exceeding the batch arrays.", "quantifier": "all numbers of samples and batch sizes", "why_tests_cant": "All sample counts.", "anchors": ["src/acetone_nnet/templates/template_main_file.c.tpl"]}
{"id": "C36", "title": "Fusing activation layers preserves the network's result", "statement": "Removing an activation layer by fusing it into its only producer leaves the value computed by the network unchanged.", "quantifier": "all graphs, layer functions and inputs", "why_tests_cant": "All graphs.", "anchors": ["src/acetone_nnet/pattern_matching/patterns/FuseActivationLayers.py"]}
{"id": "C37", "title": "Fusing batch normalisation into the preceding convolution preserves the result", "statement": "Rescaling the convolution's weights and biases and removing the batch normalisation gives the same output tensor.", "quantifier": "all weights, statistics, inputs and shapes", "why_tests_cant": "All values.", "anchors": ["src/acetone_nnet/pattern_matching/patterns/FuseConvBatchNorm.py"]}
{"id": "C38", "title": "Replacing MatMul+Add by Dense and x*sigmoid(x) by SiLU preserves the result", "statement": "The replacements compute the same tensor as the layers they replace.", "quantifier": "all shapes and values", "why_tests_cant": "All values.", "anchors": ["src/acetone_nnet/pattern_matching/patterns/FuseMatMulAdd.py", "src/acetone_nnet/pattern_matching/patterns/FuseSigmoidMul.py"]}
{"id": "C39", "title": "Renumbering after a fusion keeps identifiers unique and links intact", "statement": "After layers are removed and the following layers renumbered, identifiers remain pairwise distinct, follow list order, and saved-tensor entries still denote the same layers.", "quantifier": "all layer lists and removal positions", "why_tests_cant": "All lists.", "anchors": ["src/acetone_nnet/pattern_matching/Pattern.py:update_indices", "src/acetone_nnet/pattern_matching/Pattern.py:update_dict_cst"]}
{"id": "C40", "title": "Implementation selection follows id over name over default", "statement": "The implementation chosen for each layer is the one requested for its identifier if any, otherwise the one requested for its type, otherwise the default; layers not concerned are unaffected.", "quantifier": "all layer lists and request maps", "why_tests_cant": "All maps.", "anchors": ["src/acetone_nnet/generator/neural_network.py:select_layers_implementation", "src/acetone_nnet/versioning/versioning.py:implement"]}
{"id": "C41", "title": "Implementation registries never silently replace an implementation", "statement": "Registering a name twice or asking for an unknown implementation raises KeyError and leaves the registry unchanged; after any registration history each registered name builds the implementation registered first.", "quantifier": "all registration/lookup histories", "why_tests_cant": "Histories are unbounded.", "anchors": ["src/acetone_nnet/versioning/layer_factories.py"]}
{"id": "C42", "title": "Code generation never overwrites existing files", "statement": "If any file to be generated already exists, generation raises FileExistsError and writes nothing.", "quantifier": "all directory states and generation options", "why_tests_cant": "All directory states.", "anchors": ["src/acetone_nnet/generator/neural_network.py:generate_c_files"]}
{"id": "C43", "title": "Q-format strings, post-shifts and quantised parameters are consistent", "statement": "A rendered Q format parses back to its integers; malformed strings are rejected; the post-accumulation shift is never negative and rescales the accumulator to the output format; a quantised parameter differs from its value by at most half a unit in the last place.", "quantifier": "all integers, strings and real parameters", "why_tests_cant": "All strings and values.", "anchors": ["src/acetone_nnet/quantize/qform.py", "src/acetone_nnet/quantize/activation.py", "src/acetone_nnet/generator/neural_network.py:quantize_layers"]}
{"id": "C44", "title": "Binary parameter sections are aligned and disjoint", "statement": "Every parameter array in the binary parameter file starts at the smallest multiple of the alignment not below the end of the previous one, so arrays never overlap.", "quantifier": "all parameter lists and power-of-two alignments", "why_tests_cant": "All lists.", "anchors": ["src/acetone_nnet/generator/neural_network.py:generate_bin_parameter_file"]}
{"id": "C45", "title": "NNet input/output normalisation in C equals the Python one", "statement": "The generated pre-processing clamps and normalises each input exactly as the Python normalizer and the post-processing rescales each output likewise, whenever the declared minimum does not exceed the maximum.", "quantifier": "all bounds, means, ranges and inputs", "why_tests_cant": "All values.", "anchors": ["src/acetone_nnet/importers/NNET_importer/nnet_normalize.py", "src/acetone_nnet/templates/normalization/template_pre_processing.c.tpl", "src/acetone_nnet/templates/normalization/template_post_processing.c.tpl"]}
{"id": "C46", "title": "Importers link layers symmetrically", "statement": "After importing, a layer is listed among another's inputs exactly as often as the other lists it among its consumers, and every layer's identifier is its position in the imported list.", "quantifier": "all models", "why_tests_cant": "All models.", "anchors": ["src/acetone_nnet/importers/ONNX_importer/parser_ONNX.py:load_onnx", "src/acetone_nnet/importers/JSON_importer/parser_JSON.py:load_json"]}
{"id": "C47", "title": "The Python inference evaluates every layer on its producers' outputs", "statement": "compute_inference gives each layer its inputs in the order of its input list and returns the last layer's output, or fails explicitly when an input is missing.", "quantifier": "all graphs and layer functions", "why_tests_cant": "All graphs.", "anchors": ["src/acetone_nnet/generator/neural_network.py:compute_inference"]}
{"id": "C48", "title": "Test dataset loading takes at most the requested number of samples, in order", "statement": "Loading a text dataset returns the first min(requested, available) samples in file order.", "quantifier": "all datasets and requested counts", "why_tests_cant": "All counts.", "anchors": ["src/acetone_nnet/generator/neural_network.py:_load_dataset"]}
{"id": "C49", "title": "Channels-last blocked and depth-wise convolutions equal the direct convolution", "statement": "The direct_block code (any kernel, stride, equal top and left padding, dilation 1) and the depth-wise code, run on channels-last tensors with re-laid-out weights, compute the same values as the mathematical convolution, for every block size dividing the number of filters.", "quantifier": "all shapes, strides, pads, block sizes, weights and inputs", "why_tests_cant": "All shapes and weight layouts.", "anchors": ["src/acetone_nnet/generator/layers/convolution/Conv2Ddirect_block.py", "src/acetone_nnet/templates/layers/Conv/template_Conv_direct_block.c.tpl", "src/acetone_nnet/templates/layers/Conv/template_Conv_DW_HWC.c.tpl"]}
{"id": "C50", "title": "Importing ONNX Mul/Sub/Div nodes with initialisers preserves their meaning", "statement": "An ONNX Mul, Sub or Div node with a constant operand is imported as a layer computing the node's value on every input.", "quantifier": "all constants and inputs", "why_tests_cant": "Particular constant values take a different path.", "anchors": ["src/acetone_nnet/importers/ONNX_importer/create_layer.py:create_mul,create_sub,create_div"]}
{"id": "C51", "title": "Linear and cubic resize code equals the Python interpolation", "statement": "The code generated for a linear or cubic Resize computes, for every output element, the value of the Python layer, without reading outside the input.", "quantifier": "all shapes, scales, coordinate modes, values and cubic coefficients", "why_tests_cant": "All shapes and factors, in particular one-row and one-column inputs.", "anchors": ["src/acetone_nnet/generator/layers/resize/resize_linear", "src/acetone_nnet/generator/layers/resize/resize_cubic", "src/acetone_nnet/templates/layers/Resize"]}
{"id": "C52", "title": "Custom generation functions are honoured as documented", "statement": "A list of (file name, function) pairs given for a category replaces the default functions of that category, an empty list disables it, and the file of each pair is produced by its function.", "quantifier": "all custom generation requests and directory states", "why_tests_cant": "All requests.", "anchors": ["src/acetone_nnet/generator/neural_network.py:select_generation_functions"]}
{"id": "C53", "title": "Parameter arrays are declared and defined alike, with the values the code reads", "statement": "Every parameter array declared in the generated header is defined in the generated parameter file with the declared size, and a layer's arrays are laid out as its code reads them, for the C and the binary form of the parameters.", "quantifier": "all models and parameter values", "why_tests_cant": "All models and layer implementations.", "anchors": ["src/acetone_nnet/generator/neural_network.py:generate_parameter_file,generate_bin_parameter_file,generate_function_header_file", "src/acetone_nnet/templates/template_parameter_file.c.tpl", "src/acetone_nnet/templates/template_header_file.c.tpl"]}
{"id": "C54", "title": "Quantised layers compute the same integers in C and in Python", "statement": "A quantised MatMul or Add layer gives, in the generated code and in Python, the same integers, including when an intermediate value overflows; without overflow a MatMul gives the exact sum of products rounded down to the output format.", "quantifier": "all shapes, formats, integer operands and widths", "why_tests_cant": "All operands and accumulators.", "anchors": ["src/acetone_nnet/generator/layers/matmul/MatMul.py", "src/acetone_nnet/generator/layers/broadcast/add/Add.py", "src/acetone_nnet/quantize/activation.py", "src/acetone_nnet/templates/layers/template_MatMul.c.tpl"]}
{"id": "C55", "title": "An imported NNet file computes the network it describes", "statement": "Loading a well-formed NNet file succeeds, and the generated code and the Python inference of the loaded model compute, for every input, the composition of the file's affine layers with ReLU after all but the last, between the input normalisation and the output rescaling when normalisation is on.", "quantifier": "all numbers of layers, sizes, weights, biases, bounds and inputs", "why_tests_cant": "All networks and inputs.", "anchors": ["src/acetone_nnet/importers/NNET_importer/parser_NNET.py", "src/acetone_nnet/importers/NNET_importer/nnet_normalize.py"]}
{"id": "C57", "title": "The optimiser terminates", "statement": "The pattern-matching pass ends on every list of layers: it never applies replacements for ever.", "quantifier": "all layer lists, links, activations and saved-tensor dictionaries", "why_tests_cant": "Termination over all graphs.", "anchors": ["src/acetone_nnet/pattern_matching/PatternMatcher.py", "src/acetone_nnet/pattern_matching/Pattern.py"]}
{"id": "C56", "title": "ONNX data-movement nodes of every rank keep their ONNX meaning", "statement": "An ONNX Gather, GatherElements, Concat, Tile or Transpose node on tensors of rank one to four, with negative axes and indices allowed, is imported as a layer whose generated code computes what the ONNX operator specification says.", "quantifier": "all ranks, shapes, axes, indices, operand lists and values", "why_tests_cant": "All ranks and axes: tensors of lower rank are run as rank four with shifted axes.", "anchors": ["src/acetone_nnet/importers/ONNX_importer/create_layer.py:get_shape,create_gather,create_gather_elements,create_concat,create_tile,create_transpose", "src/acetone_nnet/generator/layers/gather/Gather.py"]}
{"id": "C60", "title": "ONNX Reduce and Softmax nodes of every rank keep their ONNX meaning", "statement": "An ONNX ReduceSum/Mean/Prod/Max/Min or Softmax node on tensors of rank one to four is imported as a layer whose generated code computes what the ONNX operator specification of the model's opset says, defaults included.", "quantifier": "all ranks, shapes, axes, opsets and values", "why_tests_cant": "All ranks, axes and opsets.", "anchors": ["src/acetone_nnet/importers/ONNX_importer/create_layer.py:create_reduce_sum,create_reduce_max,create_softmax", "src/acetone_nnet/generator/layers/reduce/Reduce.py", "src/acetone_nnet/generator/layers/softmax/Softmax.py"]}
{"id": "C58", "title": "ONNX Conv nodes keep their ONNX meaning", "statement": "An ONNX Conv node on images is imported as a layer whose generated code computes the convolution of the ONNX operator specification with the node's kernel, strides, dilations, groups, padding (explicit, VALID, SAME_UPPER, SAME_LOWER) and optional bias.", "quantifier": "all image and kernel sizes, strides, dilations, groups, paddings, weights and images", "why_tests_cant": "All shapes and attribute combinations.", "anchors": ["src/acetone_nnet/importers/ONNX_importer/create_layer.py:create_conv", "src/acetone_nnet/generator/layers/convolution/Conv2D.py:Conv2D.__init__", "src/acetone_nnet/ir/layer.py:compute_padding"]}
{"id": "C59", "title": "ONNX pooling nodes keep their ONNX meaning", "statement": "An ONNX MaxPool, AveragePool or GlobalAveragePool node on images is imported as a layer whose generated code computes, for every output pixel, the maximum (the mean) of the pixels below the window given by the node's kernel, strides, dilations and padding.", "quantifier": "all image and kernel sizes, strides, dilations, paddings and images", "why_tests_cant": "All shapes and attribute combinations.", "anchors": ["src/acetone_nnet/importers/ONNX_importer/create_layer.py:create_max_pool,create_average_pool,create_global_average_pool", "src/acetone_nnet/generator/layers/pooling/Pooling2D.py:Pooling2D.__init__"]}
{"id": "C61", "title": "ONNX element-wise nodes broadcast tensors of any ranks", "statement": "An ONNX Add, Sub, Mul, Div, Max, Min or Mean node over computed tensors of ranks one to four is imported as a layer whose generated code computes the multidirectional (numpy) broadcast of the operation.", "quantifier": "all numbers of operands, ranks, shapes and values", "why_tests_cant": "All ranks, shapes and values.", "anchors": ["src/acetone_nnet/importers/ONNX_importer/create_layer.py:create_add,create_sub,create_mul,create_div,create_max,create_min,create_avg", "src/acetone_nnet/generator/layers/broadcast/Broadcast.py"]}
{"id": "C62", "title": "ONNX Gemm, MatMul and BatchNormalization nodes keep their ONNX meaning", "statement": "An ONNX Gemm, MatMul or BatchNormalization node is imported as a layer whose generated code computes what the ONNX operator specification says: alpha*A'*B' + beta*C with any transpositions and a broadcast C; the numpy product of vectors, matrices and stacks of matrices; the per-channel affine normalisation of tensors of any rank.", "quantifier": "all shapes, ranks, transpositions, scale factors and values", "why_tests_cant": "All shapes and values.", "anchors": ["src/acetone_nnet/importers/ONNX_importer/create_layer.py:create_gemm,create_matmul,create_batch_norm", "src/acetone_nnet/generator/layers/gemm/Gemm.py:Gemm.__init__", "src/acetone_nnet/generator/layers/matmul/MatMul.py:MatMul.__init__", "src/acetone_nnet/generator/layers/batch_normalization/BatchNormalization.py:BatchNormalization.__init__"]}
{"id": "C63", "title": "ONNX Pad nodes keep their ONNX meaning", "statement": "An ONNX Pad node is imported as a layer whose generated code computes what the ONNX operator specification says, in the constant, edge, wrap and reflect modes, with pads on all axes or on the listed ones, and with the defaults of the optional mode, constant and axes.", "quantifier": "all shapes, ranks, pads, modes and values", "why_tests_cant": "All shapes, pads and values.", "anchors": ["src/acetone_nnet/importers/ONNX_importer/create_layer.py:create_pad,create_pad_obj", "src/acetone_nnet/generator/layers/padding/Pad.py:Pad.__init__"]}
{"id": "C64", "title": "ONNX activation nodes keep their ONNX meaning", "statement": "An ONNX Relu, Tanh, Sigmoid, Exp, Log, LeakyRelu or Clip node is imported as a layer whose generated code applies the function of the ONNX operator specification (over the reals) to every element, also in place, with the defaults of the optional alpha, min and max.", "quantifier": "all shapes, real values and parameters", "why_tests_cant": "All real inputs and all parameters.", "anchors": ["src/acetone_nnet/importers/ONNX_importer/create_layer.py:instantiate_activation_layer,create_activation_layer", "src/acetone_nnet/generator/activation_functions.py"]}
{"id": "C65", "title": "ONNX nodes that are not made into layers keep their ONNX meaning", "statement": "A Reshape, Flatten, Unsqueeze, Dropout, LRN, Shape or Constant node, for which the importer creates no layer, still gives its consumers the tensor the ONNX operator specification defines: every element at its coordinates, and constants with their elements and dimensions.", "quantifier": "all shapes, ranks, axes, values and encodings of constants", "why_tests_cant": "All shapes and all coordinates.", "anchors": ["src/acetone_nnet/importers/ONNX_importer/create_layer.py:bypass,create_initializer"]}
{"id": "C66", "title": "ONNX Resize nodes keep their ONNX meaning", "statement": "An ONNX Resize node in nearest mode is imported as a layer whose generated code gives every output element the input element at the transformed and rounded coordinates of the ONNX operator specification, for the scales or the sizes, with the defaults of the optional attributes and inputs; the layer rebuilt by the implementation selection keeps the output size.", "quantifier": "all shapes, sizes, scales, modes and values; all binary64 roundings", "why_tests_cant": "All sizes: the rounding of input * (output / input) is wrong for about four pairs in a hundred only.", "anchors": ["src/acetone_nnet/importers/ONNX_importer/create_layer.py:create_resize,resize_set_default_attributes_values", "src/acetone_nnet/generator/layers/resize/Resize.py:Resize.__init__", "src/acetone_nnet/generator/layers/resize/resize_nearest/ResizeNearestDefault.py:resize_nearest_default_implementation"]}
{"id": "C67", "title": "Exported ONNX graphs are well formed", "statement": "The ONNX graph exported from a network defines every value name once, every node reads only names that are graph inputs, initialisers or outputs of earlier nodes, and every declared output is a defined value.", "quantifier": "all networks, layer attributes, weights and layer lists in topological order", "why_tests_cant": "All networks: names are built from layer class names and identifiers and collide or dangle only for some kinds and combinations of layers.", "anchors": ["src/acetone_nnet/exporters/ONNX_exporter/exporter_onnx.py", "src/acetone_nnet/exporters/ONNX_exporter/acetone_to_onnx_layer.py:generate_input_output_name,create_initializer_tensor,list_exporters,list_activation_exporters,export_input,export_output"]}
{"id": "C68", "title": "Exported ONNX graphs compute the network", "statement": "Running the ONNX graph exported from a network on the network's input gives, for every layer, a tensor with the value of that layer, and therefore the same outputs; the declared output shapes are those of the tensors.", "quantifier": "all networks, layer attributes, weights, input values and runs of the exported graph", "why_tests_cant": "All layers, attribute values and inputs: wrong attribute orders, dropped parameters and wrong element types show only for particular attributes, and equality must hold for every input value.", "anchors": ["src/acetone_nnet/exporters/ONNX_exporter/exporter_onnx.py", "src/acetone_nnet/exporters/ONNX_exporter/acetone_to_onnx_layer.py:list_exporters,list_activation_exporters,export_conv2d,export_pool,export_softmax,export_gather,export_tile,export_gemm,export_broadcast,export_flatten,export_activation,export_output"]}
{"id": "C69", "title": "Imported Keras models compute what Keras computes", "statement": "Importing a Keras model (Sequential or functional) succeeds, and the imported network, the generated C program and the Python inference return, on every input, the tensor Keras computes, element by element in Keras's order.", "quantifier": "all Keras models over the supported layer classes, all layer options, weights and inputs", "why_tests_cant": "All graphs, options, weights and inputs: ignored options (data_format, second entry of a tuple, axis) and wrong orders of the weights are visible only for particular options, and equality must hold for every input value.", "anchors": ["src/acetone_nnet/importers/H5_importer/parser_h5.py:load_keras,create_actv,get_layer_size,get_output_dimensions,get_input_dimensions", "src/acetone_nnet/generator/neural_network.py:CodeGenerator.compute_inference,CodeGenerator.generate_function_source_file"]}
{"id": "C70", "title": "Programs generated in channels_last order compute the network", "statement": "With gen_data_format='channels_last' and channels_last implementations selected for convolutions and poolings, the generated C program returns, in the model's own data format, the same tensor as the channels_first program and as the Python inference, on every input.", "quantifier": "all supported layer graphs, selections of implementations, weights and inputs", "why_tests_cant": "All graphs, selections and inputs: a layer that reads the other order gives right results on symmetric or one-channel tensors, and equality must hold for every input value.", "anchors": ["src/acetone_nnet/generator/neural_network.py:CodeGenerator.__init__,CodeGenerator.generate_function_source_file", "src/acetone_nnet/generator/layers/input/InputDefault.py", "src/acetone_nnet/generator/layers/convolution/Conv2Ddirect_block.py", "src/acetone_nnet/generator/layers/pooling/max_pooling/MaxPooling2DDefault.py", "src/acetone_nnet/generator/layers/pooling/average_pooling/AveragePooling2DDefault.py", "src/acetone_nnet/templates/layers/template_Pooling2D_HWC.c.tpl"]}
{"id": "C71", "title": "Imported PyTorch programs compute what PyTorch computes", "statement": "Importing a program exported by torch.export succeeds, and the imported network, the generated C program and the Python inference return, on every input, the tensor PyTorch computes, in the memory format of the example input.", "quantifier": "all exported programs over the operations the importer knows, all options, parameters and inputs", "why_tests_cant": "All graphs, options, parameters and inputs: activations and batch_norm are merged in place into the layer of their operand, which is wrong only for particular sharings and orders; ignored options matter only for particular values; equality must hold for every input value.", "anchors": ["src/acetone_nnet/importers/PYTORCH_importer/parse_pytorch.py:load_pytorch,TorchToACETONE.visit_placeholder,TorchToACETONE.visit_call_function", "src/acetone_nnet/generator/neural_network.py:CodeGenerator.compute_inference,CodeGenerator.generate_function_source_file"]}
{"id": "C72", "title": "Imported ONNX models compute what ONNX specifies", "statement": "Importing an ONNX model file succeeds, and the imported network, the generated C program and the Python inference return, on every input, the output tensor that the ONNX operator documentation specifies for the whole graph.", "quantifier": "all model files over the operators the importer knows, all graphs, attributes, initialisers, announced dimensions and inputs", "why_tests_cant": "All graphs and attributes: which layer holds a tensor depends on the order of the nodes, on the nodes that are bypassed and on when an initialiser is first read; shapes are completed and axes shifted according to the announced rank; equality must hold for every input value.", "anchors": ["src/acetone_nnet/importers/ONNX_importer/parser_ONNX.py:load_onnx", "src/acetone_nnet/importers/ONNX_importer/create_layer.py:layer_type,unused_layers,create_input_layer,create_initializer_layer,get_shape,_collect_node_inputs", "src/acetone_nnet/graph/graph_interpretor.py:tri_topo", "src/acetone_nnet/generator/neural_network.py:CodeGenerator.compute_inference,CodeGenerator.generate_function_source_file"]}
{"id": "C73", "title": "The implementation chosen for the convolutions does not change the result", "statement": "Whatever registered implementation the versions argument selects for each Conv2D layer (by layer number, by type name, or the default), the generated C program ends normally and returns, on every input, the same output; for imported models it is the output the framework specifies.", "quantifier": "all supported networks, all versions arguments, all weights and inputs", "why_tests_cant": "All combinations of implementations and layers, all geometries and inputs: variants differ only for particular paddings, strides and dilations, need different scratch arrays, and must agree on every input value.", "anchors": ["src/acetone_nnet/generator/neural_network.py:CodeGenerator.select_layers_implementation", "src/acetone_nnet/versioning/versioning.py:versioning", "src/acetone_nnet/generator/layers/convolution/Conv2D6loops.py", "src/acetone_nnet/generator/layers/convolution/Conv2DStdGemm.py", "src/acetone_nnet/generator/layers/convolution/Conv2DIndirectGemm.py"]}
{"id": "C74", "title": "Constants written in the generated files are exact", "statement": "With to_hex, every finite parameter or test value is written in the generated C files and in the output files as a hexadecimal constant whose value, for a C compiler and for the tool's own reader, is exactly the number; two different numbers are never written alike.", "quantifier": "all finite IEEE binary64 numbers (and, by exact conversion, binary32 ones)", "why_tests_cant": "All 2^64 bit patterns: the text is shortened by a string replacement whose effect depends on the digits (seven zeros before the exponent), so a wrong replacement shows only on particular fractions or exponents.", "anchors": ["src/acetone_nnet/generator/neural_network.py:CodeGenerator.data2c,CodeGenerator.c2data", "src/acetone_nnet/cli/compare.py:preprocess_line"]}
{"id": "C75", "title": "acetone_compare reports the errors between the Python and C outputs", "statement": "Given the file of outputs of the Python inference, that of the generated program and the number of tests, the comparison reads exactly the numbers written, reports the greatest absolute and relative difference over all the values of those tests, and says the files are similar exactly when all the values are within the tolerance.", "quantifier": "all pairs of files, all numbers of tests, all values, both precisions", "why_tests_cant": "All output values and file lengths: the maximum must be over every value of every line; NaN makes max order-dependent, missing lines are dropped by zip, and an off-by-one in the number of lines shows only on longer files.", "anchors": ["src/acetone_nnet/cli/compare.py:compare_floats,preprocess_line,compare_lines,compare_files,cli_compare", "src/acetone_nnet/generator/neural_network.py:CodeGenerator.compute_inference,CodeGenerator.data2c", "src/acetone_nnet/templates/template_main_file.c.tpl"]}
{"id": "C76", "title": "Import, optimisation and choice of implementations together keep what the network computes", "statement": "Loading a model from ONNX, Keras or PyTorch, letting the generator optimise it, and selecting the implementations of the remaining layers by type or by number yields a program that returns, for every input, what the framework specifies as the model's output; so does the Python inference on the same layers.", "quantifier": "all models of the covered sets, all selections of implementations, all inputs", "why_tests_cant": "The passes compose: fusions renumber layers and rewrite parameters, versions are matched against the new numbers, implementations read fused parameters. Only all models times all selections times all inputs settle it.", "anchors": ["src/acetone_nnet/generator/neural_network.py:CodeGenerator.__init__,select_layers_implementation,generate_function_source_file,compute_inference", "src/acetone_nnet/pattern_matching/PatternMatcher.py:PatternMatcher.match", "src/acetone_nnet/versioning/versioning.py:versioning", "src/acetone_nnet/importers/ONNX_importer/parser_ONNX.py:load_onnx", "src/acetone_nnet/importers/H5_importer/parser_h5.py:load_keras", "src/acetone_nnet/importers/PYTORCH_importer/parse_pytorch.py:load_pytorch"]}
{"id": "C77", "title": "The debug mode shows the tensors the layers compute, and its tools find the first wrong one", "statement": "In debug mode the Python inference and the generated C code record, for every layer after the input except constants (and, for Keras, layers merged with a following Softmax), the tensor that layer computes in the framework's layout, with its name and number. The tools read both recordings back in the order of the numbers, select layers by number, and comparing two recordings answers True exactly when all tensors are close and otherwise names the first that is not.", "quantifier": "all networks, all inputs, all data formats, all layer numbers, all lists of tensors", "why_tests_cant": "All networks and layer counts: buffers are shared between layers, so a tensor must be printed before it is overwritten; numbers of two digits, saved tensors and transposed layouts only show on larger networks.", "anchors": ["src/acetone_nnet/generator/neural_network.py:CodeGenerator.load_debug_target,CodeGenerator.compute_inference,CodeGenerator.generate_function_source_file", "src/acetone_nnet/templates/template_source_file.c.tpl", "src/acetone_nnet/debug/debug_tools.py:compare_result,reorder_outputs,extract_outputs_c,extract_outputs_python"]}
{"id": "C78", "title": "Rounding errors of the generated program are bounded", "statement": "Run in float or double, the generated program of a network whose layers compute in the data type (C83 and C86 are about the others) returns on every input values whose distance to what the network computes in exact arithmetic, with the same weights, is at most the bound obtained by propagating relative and absolute rounding errors layer by layer; for a Dense or Conv2D layer of n products the distance is at most ((1+u)^(n+2)-1) times the layer applied to absolute values, plus n+1 times the smallest number; the sigmoid's error does not depend on its argument; the convolution algorithms return the same floating-point numbers.", "quantifier": "all formats with rounding to nearest (binary32, binary64), all supported networks of such layers, all weights, all inputs and input errors", "why_tests_cant": "Rounding errors depend on every value and on the order of the additions; a test compares a few values with a tolerance and cannot bound the others.", "anchors": ["src/acetone_nnet/templates/layers/template_Dense.c.tpl", "src/acetone_nnet/templates/layers/Conv/template_Conv_6loops.c.tpl", "src/acetone_nnet/templates/layers/template_Softmax.c.tpl", "src/acetone_nnet/generator/activation_functions.py:Sigmoid.write_activation_str", "src/acetone_nnet/generator/neural_network.py:CodeGenerator.generate_function_source_file"]}
{"id": "C79", "title": "The acetone_generate command generates the program its options describe", "statement": "A command line with the four required options is accepted exactly when its integers are integers, whatever the order of the options, in the separate, '=' and abbreviated forms; each option has the last value given or its documented default. The network is read by the loader of the file's extension (.json, .onnx, .nnet, .h5), optimised only on request, every Conv2D layer is implemented by the algorithm of --conv, a boolean option set to False is off, and --normalize only has an effect on NNET files.", "quantifier": "all command lines, all file names, all networks", "why_tests_cant": "Command lines are unbounded combinations of options, forms and values; tests call the Python class, not the command.", "anchors": ["src/acetone_nnet/cli/generate.py:acetone_generate,cli_acetone", "src/acetone_nnet/importers/parser.py:parser", "src/acetone_nnet/importers/JSON_importer/parser_JSON.py:load_json", "src/acetone_nnet/generator/layers/input/Input.py:InputLayer", "src/acetone_nnet/generator/neural_network.py:CodeGenerator.__init__,CodeGenerator.select_layers_implementation"]}
{"id": "C80", "title": "A network exported to ONNX and imported again is the same network", "statement": "The ONNX file the tool writes for a network is read back by the tool, and the network read back computes, on the same input, the same output: the C program generated from it returns the values of the C program generated from the original network.", "quantifier": "all networks, all weights, all inputs, all convolution implementations", "why_tests_cant": "Networks and weights are unbounded; the tests compare the exported file with onnxruntime on a few networks and never import it again.", "anchors": ["src/acetone_nnet/exporters/ONNX_exporter/exporter_onnx.py:onnx_exporter", "src/acetone_nnet/exporters/ONNX_exporter/acetone_to_onnx_layer.py", "src/acetone_nnet/importers/ONNX_importer/parser_ONNX.py:load_onnx", "src/acetone_nnet/importers/ONNX_importer/create_layer.py"]}
{"id": "C81", "title": "A nearest-neighbour resize reads the documented pixels with the rounding of its coordinates", "statement": "A Resize layer in nearest mode whose scales are the quotients of its sizes computes positions with floating-point numbers: the generated C code divides in double precision and stores the position in a float, Python keeps doubles. Both nevertheless take, for every output pixel, the input pixel that ONNX's formula and rounding mode give in exact arithmetic, so C and Python agree and neither leaves the input because of a rounding error.", "quantifier": "every pair of sizes per axis, every output position, coordinate transformations half_pixel, pytorch_half_pixel, align_corners and asymmetric, the four nearest modes, every input", "why_tests_cant": "The error depends on the sizes and on how near a position is to the boundary between two pixels: positions that are exactly integers or half-integers are decided by the last bit, and tests use a few small sizes.", "anchors": ["src/acetone_nnet/generator/layers/resize/Resize.py: scale, half_pixel, pytorch_half_pixel, align_corners, asymmetric and their _implem", "src/acetone_nnet/generator/layers/resize/resize_nearest/ResizeNearest.py", "src/acetone_nnet/generator/layers/resize/resize_nearest/ResizeNearestDefault.py", "src/acetone_nnet/templates/layers/Resize/template_ResizeNearest.c.tpl", "src/acetone_nnet/templates/template_source_file.c.tpl: float x, float y"]}
{"id": "C82", "title": "Numbers written in decimal keep their value", "statement": "With to_hex=False, every finite parameter is written in the generated C files as a decimal floating constant that a C compiler, and the tool's own reader, read back as exactly the number, in double and in float, and two different numbers are never written alike; the values of the debugging file are read back as the numbers the program computed; the values of the output file are those of the program to the precision of the text.", "quantifier": "all finite IEEE binary64 and binary32 numbers, all layers and tensors of a debugging file", "why_tests_cant": "All 2^64 bit patterns: nine or seventeen digits suffice only because no two floating-point numbers are closer than the spacing of the decimal ones at any exponent, powers of two and subnormal numbers included, and because rounding twice (decimal to double to float) does not meet a tie; tests read a few numbers.", "anchors": ["src/acetone_nnet/generator/neural_network.py:CodeGenerator.data2c,CodeGenerator.c2data,CodeGenerator.generate_main_file", "src/acetone_nnet/templates/template_main_file.c.tpl", "src/acetone_nnet/templates/template_source_file.c.tpl", "src/acetone_nnet/debug/debug_tools.py:extract_outputs_c"]}
{"id": "C83", "title": "A program generated in double precision computes in double precision", "statement": "With data_type double, every activation and every resized pixel of the generated program is the mathematical value up to the rounding of double precision; in particular an image resized linearly keeps the pixels lying on the grid.", "quantifier": "all binary64 numbers, all pixels and grid positions", "why_tests_cant": "The defect only shows at arguments where single and double precision differ; a test comparing with a tolerance of single precision accepts it, and the actual accuracy (2^-21 everywhere, but no better) is a statement about all binary64 numbers.", "anchors": ["src/acetone_nnet/generator/activation_functions.py:Sigmoid,TanH", "src/acetone_nnet/templates/template_source_file.c.tpl", "src/acetone_nnet/templates/layers/Resize/template_ResizeLinear2D.c.tpl", "src/acetone_nnet/templates/layers/Resize/template_ResizeLinear1D.c.tpl"]}
{"id": "C84", "title": "The training hooks read, replace and save the parameters", "statement": "In the generated shared library, save_weights writes every weight and bias array in order and nothing else; copy_weights given another network's parameters of the same shapes makes the program that network; the saved file can replace parameters.dat; batch_loop gives every row of a batch to exactly one inference, inside the arrays passed.", "quantifier": "all networks, parameter values, page sizes, batch sizes", "why_tests_cant": "All networks and batch sizes: the test copies one network without batch normalisation back onto itself with one row, in binary mode and single precision.", "anchors": ["src/acetone_nnet/generator/neural_network.py:CodeGenerator.generate_train_hook_file", "src/acetone_nnet/templates/template_train_hook_file.c.tpl", "src/acetone_nnet/templates/template_makefile.tpl"]}
{"id": "C85", "title": "Every name the generated files use is defined exactly once, and make finds every file it needs", "statement": "For every network and every option, the object files that the generated Makefile links into the program and into the shared library define each identifier once and define all those they use, and every file the Makefile asks for is generated or made by one of its rules, custom files included.", "quantifier": "all networks, generation options and custom generation requests", "why_tests_cant": "All networks, options and custom files: the arrays of every layer, the normalisation constants and the test inputs are declared, defined and used by six different templates.", "anchors": ["src/acetone_nnet/templates/template_makefile.tpl", "src/acetone_nnet/templates/template_test_dataset_header.c.tpl", "src/acetone_nnet/templates/template_header_file.c.tpl", "src/acetone_nnet/templates/template_train_hook_file.c.tpl", "src/acetone_nnet/generator/neural_network.py:CodeGenerator.generate_makefile,CodeGenerator.select_generation_functions"]}
{"id": "C86", "title": "C's mixed float and double expressions cost no more than single precision", "statement": "In a float program C computes with doubles wherever a literal, exp, log or sqrt occurs and rounds when the result is stored. With these conversions every activation returns the mathematical value within a few roundings to the data type, on every number; Softmax of n numbers is within (n+1) 2^-22 of the exact one, relatively, and a batch normalisation within 2^-22 of the sum of the magnitudes of its two terms. An activation whose expression is only stored in a float is the one C78 propagates bounds through.", "quantifier": "all numbers of the data type, all parameters, all numbers of elements", "why_tests_cant": "Which operations are done in float depends on the types of the operands in the emitted text; a test sees a few values, where both readings give the same digits.", "anchors": ["src/acetone_nnet/generator/activation_functions.py:write_activation_str", "src/acetone_nnet/templates/layers/template_Softmax.c.tpl", "src/acetone_nnet/templates/layers/template_BatchNormalization.c.tpl", "src/acetone_nnet/templates/template_source_file.c.tpl"]}
{"id": "C87", "title": "A Keras model written to JSON is read back with the same links", "statement": "json_from_keras_model followed by load_json gives a network in which every layer reads the layers it is applied to in the Keras model, in the order of its operands, in the model's data format, with its weights and bias.", "quantifier": "all Sequential and functional models, of any size and wiring", "why_tests_cant": "The positions written depend on the order in which layers are listed, on names and on the number of calls; a test has one chain or one diamond.", "anchors": ["src/acetone_nnet/importers/JSON_importer/JSON_from_keras_model.py:json_from_keras_model", "src/acetone_nnet/importers/JSON_importer/parser_JSON.py:load_json"]}

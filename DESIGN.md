# Formal model of onera/acetone in Rocq (Coq 8.16.1)

ACETONE imports a neural network, schedules it, allocates buffers and emits C.
The repository is modelled at three levels:

1. **Generator logic** (Python): importers, graph sorting, buffer allocation,
   padding, layer-implementation selection, fusion passes, quantisation, file
   handling.  Modelled as total Gallina functions, exceptions as `None`.
2. **Generated C code**: for each layer, the C loop nest that the mustache
   template renders to is modelled as a Gallina program over a memory of
   named arrays (`CMem.v`).  Every array access is bounds checked in the model:
   an out-of-range access makes the whole program `None`.  Aliasing between a
   layer's input array and its output array is modelled, because arrays are
   addressed by name and the names come from the modelled allocator.
3. **Python reference inference** (`forward_path_layer`, `compute_inference`):
   modelled as functions on flat row-major tensors built with the `tab`
   combinators of `Tensor.v`.

A property theorem compares one of these levels with a *specification* written
without reference to the model (an ONNX operator of any rank, a numpy padding
mode, a list of producers, a probability distribution, ...), or compares two of
the levels with each other (generated C = Python).

Naming: `Cnn_...` theorems live in `Properties*.v`, next to a concrete example
meeting their hypotheses.  Suffix `_partial`: a strict part of the property;
suffix `_refuted`: the negation of a part of the property, on a concrete
instance that the code accepts.  A property with a `_refuted` theorem has the
manifest status `partial`: its full statement is false of the code, the note
says where it does hold (proved, for all inputs) and where it does not.

## Numbers

* Data-movement layers are proved over an arbitrary element type, hence also
  for the floating-point values of the real code, bit for bit.
* Arithmetic layers are proved over an arbitrary numeric structure `num`
  (carrier, 0, 1, +, -, *, /, <, exp, ...).  Theorems that need algebraic laws
  take them as an explicit hypothesis (`ring_laws N`, `order_laws N`, ...), and
  `RealInst.v`, `NumInst.v` show instances of the laws.
* Summation order: where C and Python add the same terms in the same order no
  law is needed and none is assumed.
* Floating-point rounding: C78 takes the model over rounded numbers and bounds
  the errors; C66 has the sizes of Resize layers in binary64 (Flocq).  Elsewhere
  the arithmetic is abstract; overflow, NaN and signed zeros are not modelled
  (but C75 reads infinities and NaN).  C `int` overflow of *indices* is not
  modelled (indices are mathematical integers); overflow of quantised *data* is
  (C54, wrapping).

## Properties, model and method

| id | modelled in | method |
|----|-------------|--------|
| C01, C02 | Graph.v (tri_topo, parcours_prof_topo) | DFS invariant: reverse post-order of a DAG, induction on fuel, fuel shown sufficient |
| C03, C04, C05 | Graph.v (assign_liveliness_index) | allocator invariant: every index is either free or held by exactly one live node; minimality by a clique of live nodes |
| C06 | Graph.v (assign_cst, find_output_str) | same invariant for the cst pool |
| C07 | Graph.v | refutation by a concrete graph |
| C08, C10, C47 | Net.v, LayerKinds.v: program of a whole network over CMem | simulation invariant: every needed tensor is in the array its readers use; per-layer contracts |
| C09 | Bounds.v, BoundsSpec.v | the emitted loops are run on a one-element arithmetic; a run inside the arrays there implies a run inside them for every arithmetic |
| C11-C13, C28 | Linear.v | loop invariants, comparison with a sum over indices |
| C14-C18, C49 | Conv.v, ConvHWC.v | loop invariants, re-indexing of sums, ring identities (Winograd) |
| C19 | Padding.v | arithmetic on Z |
| C20, C21 | Pooling.v | loop invariants, order laws |
| C22-C26, C33 | Movement.v, Pad.v | index arithmetic over CMem |
| C27, C50 | Broadcast.v | index arithmetic, refutations |
| C29, C30 | Reduce.v | loop invariants; reals for "sums to one" |
| C31, C51 | Resize.v | rational coordinates |
| C32, C45 | Activation.v, Nnet.v | parser of the emitted C expression, case analysis over an ordered structure / R |
| C34 | Tensor.v, Movement.v | permutation arithmetic |
| C35, C42, C48 | Driver.v | induction on the number of batches; state machine over file sets |
| C36-C39, C57 | Pattern.v, FuseValues.v, FusionSafe.v | the optimiser runs on a heap of mutable layers; every fusion preserves the dataflow semantics; decreasing measure |
| C40, C41, C52 | Versioning.v | finite-map reasoning, histories by induction |
| C43, C44, C54 | Quant.v | Z/Q arithmetic, strings |
| C46 | Import.v, ImportSpec.v | induction over node lists; links as multisets |
| C53 | Params.v | list reasoning |
| C55 | Nnet.v | parser of the file, then C11 and C08 |
| C56, C60, C61 | OnnxOps.v, OnnxSpec.v | row-major offset arithmetic for any rank, reduced to the rank-4 layer code |
| C58, C59 | OnnxWindow.v, OnnxWindowSpec.v | layer constructor + C14/C20 |
| C62 | OnnxLinear.v, OnnxLinearSpec.v | layer constructor + C11-C13, C28 |
| C63-C65 | OnnxMisc.v, OnnxMiscSpec.v | layer constructor + C22, C32 |
| C66 | OnnxResize.v, ResizeFloat.v | layer constructor + C31; error analysis in Flocq |
| C67 | ExportSpec.v, Export.v, ExportNames.v | names of a layer are a permutation of its keys, keys of two layers are disjoint |
| C68 | ExportSpec.v (runs of a graph), ExportOps.v, ExportOps2.v, ExportDet.v, ExportRun.v, ExportMeaning.v | each node holds for the layer value (operator lemmas), nodes are functional (node_det), induction along the sorted layers; refutations by inverting node_holds |
| C69 | KerasSpec.v (Keras semantics, independent), Keras.v (importer), KerasProofs.v, KerasOps*.v (one lemma per layer class), KerasModel.v (positions and links), KerasRun.v (values, schedule, supported) | per-layer agreement up to the channel layout, induction along the nodes, then C46 (links), C01/C02 (schedule) and C08 (program); refutations by computing one layer |
| C70 | HwcNet.v (program with gen_data_format = channels_last), HwcLemmas.v (each layer between channels_last tensors), HwcProofs.v | an auxiliary network whose functions are those of the channels_last code; its values are the documented values reordered; C18/C20/C49 give the layers, NetProofs.inference_ok the program; refutations by running both programs |
| C71 | TorchSpec.v (PyTorch semantics, independent), Torch.v (importer), TorchOps*.v (one lemma per operation, fusion of batch_norm and activations), TorchModel.v (invariant of the visit), TorchRun.v (values, schedule, supported) | invariant of the visited prefix: which layer holds which tensor and the function it computes after the merges; then C01 (schedule) and C08 (program); refutations by computing the imported network and the PyTorch run |
| C72 | OnnxModelSpec.v (runs of an ONNX model file, independent of the tool; covered options), OnnxModel.v (importer: nodes, layers, links, schedule), OnnxModelOps*.v (one lemma per operator, from C58-C65), OnnxModelNode.v (all the nodes), ImportConstants.v, ImportChains.v (which tensors share a layer), OnnxModelNet.v (values, schedule, supported), OnnxModelNames.v (names nothing defines) | links from C46, layers from the operator lemmas; induction on the rank of the graph gives the value of every layer, the last scheduled layer holds the output; the generated program by C08; example: a run of a small convolutional network, for every input |
| C73 | Variants.v (versions argument, builders, applicable variants), LayerKinds.v, Versioning.v | the layer's documented function does not depend on the variant, every applicable variant is supported (C15, C17): C08 twice and uniqueness of values; importers through C69, C71, C72 |
| C74 | HexLit.v (float.hex, str.replace, data2c on characters; the value of a C hexadecimal constant) | the only p of the text is before the exponent, so the replacement drops seven zero digits after the point or nothing; value of the digits by induction |
| C75 | Compare.v (compare.py on the characters of the two files, Python max/min on numbers with NaN, the lines printed by Python and C) | the texts are read back by induction on the values (C74); the folds of max are the greatest error by induction on values and lines |
| C76 | Pipeline.v (the passes of the constructor in order, on the layers of Pattern.v) | C36 gives the optimised layers and their values; changing implementations keeps the invariant under which the generated code is correct (C73's lemmas on each layer); the importers' theorems give the values of the source model |
| C77 | Debug.v (targets, traces of the Python loop and of the C layers, the text of the debug file and its reader, dictionary and sort of the tools, names in scope of the C function) | the traces by induction on the layers with the invariants of C08; the reader by induction on the printed layers; sort and comparison by induction on the lists |
| C78 | Rounding.v (rounded arithmetic `fnum F`, bounds `bnd` and their arithmetic, the network of the bounds), FloatFormats.v (binary32 and binary64 from Flocq) | the model of the code is generic in the arithmetic (C08), so it is taken over rounded numbers; a three-way logical relation (float, real, bound) is preserved by every operation, activation and layer, then along the schedule; single layers: induction on the number of products |
| C79 | Cli.v (argparse's reading of arguments, the options' types and defaults, file suffixes, binding of a call's arguments, the settings that reach the generator) | the written forms of an option are an inductive relation independent of the parser; induction over the command line, over path components; C40 for the implementations |
| C80 | RoundTrip.v (`reread`: the exported graph of Export.v as the source of OnnxModel.v; no new code) | every condition of C72 (well-formed, covered, exclusive, annotated, read once) proved of the exported graph from C67 and C68; uniqueness of values (C08) |
| C81 | FloatResize.v (positions in binary64, stored in binary32 by C; floor, ceil and halves as the code computes them), specification of C31 | error bound on the position below half the distance of two possible positions; exactness at half-integers (both are multiples of 2^-25 less than 2^-25 apart); concrete roundings evaluated for the refutations |
| C82 | Decimal.v (value of decimal constants, printf %.Pg, Python's repr, on characters; roundings of Flocq) | the digits are within half a unit of the last one; two numbers of a format are at least 2^-p times their size apart, so a text nearer than half of that is read as the number; the characters by cases on the position of the point |
| C83 | DoublePrecision.v (expf: correctly rounded exponential of the argument rounded to float; double arithmetic calling it; a pixel of the linear Resize in float variables) | an absolute error bound of expf on negative numbers of any size, the quotient of two rounded operations; near 0, expf is 1, which refutes double accuracy |
| C84 | Hooks.v (arrays by name, memcpy, copy_weights, save_weights, pointers of batch_loop), on Params.v, Quant.v (parameters.dat) and Driver.v | induction on the list of parameters; the calls are those of C35; refutations by small networks |
| C85 | Linking.v (identifiers defined and used by each generated file; files generated, asked for by the Makefile, and its rules) on Params.v and Hooks.v | the prefixes of array names are never prefixes of one another, so names determine array and layer; declared = defined from C53; cases on the options and on the suffix of a file name |
| C86 | Typed.v (the emitted expressions with C's usual arithmetic conversions: types float and double, roundings to binary32 and binary64; Softmax and BatchNormalization loops) on Activation.v, Decimal.v, DoublePrecision.v | the parsed text is computed once and for all; Sigmoid and TanH are those of C83 stored in the data type; the others by relative errors, Softmax by induction on the elements; C86_covered shows which activations are operations of a format of C78 |
| C87 | JsonWriter.v (prev_layer_idx, data format, shapes, weights of json_from_keras_model; the constructors' check of the weights' dimensions) on Import.v (the reading loop) | the written entries meet json_consistent of C46, so its theorem applies; the positions found are the operands', sorted; np.moveaxis on row-major arrays; concrete counterexamples |

Properties added after this table was written are described in the header of
their `Properties*.v` file.  The detailed, current status is in MANIFEST.json.

## Trusted base

* Coq's kernel (8.16.1), including `vm_compute`.  No flag relaxing a kernel
  check, no axiom, no `Admitted`, no functor, no module type.
* Assumptions: ASSUMPTIONS.md (generated by tools/assumptions.py) lists what
  `Print Assumptions` prints for every theorem of MANIFEST.json.  Most theorems
  are closed under the global context.  Those about real numbers use the
  standard library's `ClassicalDedekindReals.sig_forall_dec`,
  `ClassicalDedekindReals.sig_not_dec`,
  `FunctionalExtensionality.functional_extensionality_dep` and
  `Classical_Prop.classic`.  Flocq is used as a library of proved theorems and
  adds no axiom.  (The other names vcheck lists, such as
  `RbaseSymbolsImpl.Rplus` or `Under_rel`, are the opaque fields of sealed
  modules of the standard library, not axioms in the sense of
  `Print Assumptions`.)
* The reading of the Python/mustache/C text that the model encodes: each
  definition cites the file and lines it models (paths relative to
  src/acetone_nnet).  There is no automatic extraction from /repo.
* The semantics given to numpy, ONNX, Keras and C in the specifications.

## What is modelled

* graph/graph_interpretor.py: all functions.  ir/layer.py: compute_padding,
  find_output_str.
* generator/neural_network.py: constructor (order of the passes), selection of
  implementations and generation functions, compute_inference, the inference
  function emitted (template_source_file.c.tpl), main, Makefile/file checks,
  parameter files (C and binary), the test dataset, quantize_layers.
* generator/activation_functions.py: all activations.
* generator/layers: Input, Constant, Dense, MatMul, Gemm, Conv2D (6loops,
  std_gemm, indirect_gemm, Winograd, direct_block, depth-wise), poolings,
  paddings, Broadcast, Concatenate, Gather, GatherElements, Tile, Transpose,
  Flatten, Reduce, Softmax, BatchNormalization, Resize, ActivationLayer:
  constructor checks, Python forward function and C template.
* pattern_matching: the matcher and every pattern.
* versioning: registries and selection.
* importers: names/links of the ONNX, H5, JSON and PyTorch importers; creation
  of layers of the ONNX importer (all node types of layer_type except LSTM);
  the NNet importer and its normalisation; whole-model import of Keras,
  PyTorch and ONNX models (C69, C71, C72) and the ONNX exporter (C67, C68).
* numbers as text: data2c, float.hex, printf "%a", float.fromhex (C74, C75), repr, printf "%.Pg" and decimal reading (C82);
* the single precision inside double programs (C83; elsewhere, in exact arithmetic, expf is read as exp);
  cli/compare.py: all functions; cli/generate.py: the options and what they
  become (C79).
* quantize/qform.py, quantize/activation.py.

## What is not modelled

* LSTM (its constructor always raises), Dot ("STAND BY"), AddBias,
  Conv2DGemmTarget (registration commented out), half_pixel_symmetric and
  tf_crop_and_resize resizing (the emitted text is not C).
* Overflow, NaN and signed zeros in tensor values, fused multiply-add and excess
  precision; C compiler behaviour; timing.
* The text of the emitted files outside the inference function, the activation
  expressions, the parameter arrays, the driver, the training hooks and the
  identifiers and files of C85.
* logging, the debug package (except what C77 covers), tests and tutorials.

## Findings (false properties, each a `_refuted` theorem)

See the notes of MANIFEST.json; among them: a layer reading one tensor twice
breaks the buffer allocator (C07); transposed GEMM convolutions (C16); indirect
GEMM with padding (C17); Winograd with odd output heights (C18); wrap padding
out of bounds (C22); max/min over two axes (C30); Sub/Div with a constant
imported as Add/Mul (C50); Flatten behind a shared tensor (C33); fusions that
change the result (C36, C38, C39); parameters.dat overwritten (C42) and missing
arrays (C53); ONNX nodes accepted with another meaning (C56, C58-C60, C62-C66);
exported graphs that are not valid (C67, C68); Keras and PyTorch options that
are ignored (C69, C71); channels_last programs (C70); infinite parameters (C74);
outputs whose errors the comparison hides (C75); command-line options that are
inverted or ignored (C79); exported graphs that are not read back (C80); Python
resizing taking another pixel than C (C81); outputs written with six digits (C82);
Sigmoid, TanH and linear Resize in single precision in double programs (C83);
hooks that do not replace BatchNormalization statistics, write const arrays or take double arrays as float (C84);
programs with external inputs that define a name twice (C85),
JSON files written from Keras whose convolution kernels the importer rejects or misreads
and whose operands are in the order of the layers (C87).

## Mutation testing

seeded/LOG.jsonl: every entry is an edit of a model definition in a scratch
copy, the claim it breaks and the theorems that then fail to compile.  Theorems
that survived an edit they should have caught were strengthened
(`tightened`).

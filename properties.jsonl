{"id": "C01", "title": "Row-major layout of a tensor", "statement": "For every shape with non-negative dimensions, a freshly constructed or allocated Tensor reports total() = product of the dimensions, strides() in which each entry is the product of the dimensions to its right, and the flat offset sum_k index[k]*strides()[k] puts the valid multi-indices of the shape in one-to-one correspondence with the offsets 0..total()-1 of data().", "quantifier": "every rank, every list of non-negative dimensions (whose product fits in int), every valid multi-index", "why_tests_cant": "A test checks a handful of shapes; the bijection must hold for all ranks and sizes, including zero-sized dimensions.", "anchors": ["src/runtime/tensor.cpp: calculateStrides, Tensor::init, Tensor::allocate", "include/deepworks/tensor.hpp: Tensor"]}
{"id": "C02", "title": "Dynamic (negative) shapes are rejected atomically", "statement": "Tensor(shape), Tensor(shape, data) and allocate(shape) throw exactly when some dimension is negative, and when they throw, no tensor anywhere has changed its shape, strides, total, data pointer or contents.", "quantifier": "every shape, every tensor, every state of all other tensors and their aliases", "why_tests_cant": "Needs all shapes and a frame condition over every other live object.", "anchors": ["src/runtime/tensor.cpp: Tensor::init, Tensor::allocate, Tensor::Tensor"]}
{"id": "C03", "title": "reshape keeps the data and changes only the view", "statement": "reshape(shape) succeeds exactly when the product of the new dimensions equals total(); on success the flat contents, total() and data() are unchanged, strides() are recomputed for the new shape, the element order is preserved and no other storage is touched; on failure nothing changes. If the new shape has no negative dimension the tensor stays well-formed. (Shapes with an even number of negative dimensions are accepted although allocate rejects them.)", "quantifier": "every tensor state, every requested shape", "why_tests_cant": "The accept/reject boundary and the frame condition range over all shapes and all states.", "anchors": ["src/runtime/tensor.cpp: Tensor::reshape"]}
{"id": "C04", "title": "copyTo copies everything, touches nothing else, and leaves the two tensors independent", "statement": "copyTo(dst) throws exactly when shapes/strides differ or dst is empty; on success dst holds the same flat values as the source, every storage cell outside dst is unchanged, and later writes through one tensor do not show through the other unless they shared storage before.", "quantifier": "every pair of tensors in every heap state, including aliased pairs", "why_tests_cant": "Frame conditions and aliasing quantify over all heaps.", "anchors": ["src/runtime/tensor.cpp: Tensor::copyTo"]}
{"id": "C05", "title": "Tensor copies alias, separate allocations never do", "statement": "After any history of construction, copy, allocate, reshape, copyTo and fill calls: a copy of a Tensor keeps reporting the same shape, total and data as the original (changes made through one are seen through the other), two tensors that were allocated separately never overlap in storage, every owned tensor has exactly total() cells behind data(), and no call in the history reads or writes outside the storage it owns.", "quantifier": "every finite sequence of Tensor API calls", "why_tests_cant": "The invariant must hold after every history; aliasing bugs show up only in particular interleavings of calls.", "anchors": ["src/runtime/tensor.cpp: Descriptor, Tensor::Tensor, allocate, reshape, copyTo", "src/initializers.cpp: zeros, constant"]}
{"id": "C06", "title": "Output size of Convolution and MaxPooling is the number of window positions", "statement": "For positive stride and kernel and non-negative padding, when the kernel fits in the padded input the reported output height/width is exactly the number of start positions, multiples of the stride, at which the window fits in the padded input. When the kernel does not fit, no window position exists and the reported size is given exactly: 1 when the overhang is smaller than the stride, else 1 minus the whole strides in the overhang (0 or negative).", "quantifier": "every input size, kernel, padding and stride", "why_tests_cant": "Integer division with truncation: boundary cases are unbounded.", "anchors": ["src/expression/nn.cpp: MaxPooling::outShape, Convolution::outShape", "src/runtime/cpu/kernels/kernels.cpp: im2col"]}
{"id": "C07", "title": "im2col reads and writes only inside its buffers and lays out exactly the padded windows", "statement": "For every image and every kernel/padding/stride/dilation for which output sizes are non-negative, im2col performs only in-bounds reads of the image, leaves every cell of the column buffer written and nothing else touched, and the cell for (channel, kernel row, kernel column, output row, output column) is the image pixel under that window position, or the fill value when the position lies in the padding.", "quantifier": "all image sizes, channel counts, kernels, paddings, strides, dilations, image contents and fill values", "why_tests_cant": "Pointer-walking loops over four geometric parameters cannot be enumerated.", "anchors": ["src/runtime/cpu/kernels/kernels.cpp: im2col"]}
{"id": "C08", "title": "col2im is the adjoint of im2col", "statement": "For every geometry, col2im performs only in-bounds accesses and adds to every image pixel exactly the sum of the column-buffer cells that im2col would have filled from this pixel; hence for all images x and columns y, <im2col(x), y> = <x, col2im(y)> when the image starts at zero.", "quantifier": "all geometries, all images and all column buffers", "why_tests_cant": "Universal over geometry and contents.", "anchors": ["src/runtime/cpu/kernels/kernels.cpp: col2im, im2col"]}
{"id": "C09", "title": "Convolution forward is 2-D cross-correlation with zero padding plus bias", "statement": "The output of a Convolution layer at (n, o, i, j) is bias[o] plus the sum over input channels and kernel positions of weight[o,c,a,b] times the zero-padded input at row i*stride-pad+a, column j*stride-pad+b of image n, channel c; every output element is written and no access is out of bounds.", "quantifier": "all batch sizes, channels, image sizes, kernels, paddings, strides, weights and inputs", "why_tests_cant": "Equality with the mathematical definition must hold for all shapes and contents.", "anchors": ["src/runtime/cpu/kernels/kernels.cpp: CPUConvolutionalForward, im2col", "src/runtime/cpu/layers/cpuconvolution.cpp: CPUConvolution::forward"]}
{"id": "C10", "title": "Parallel convolution is schedule independent", "statement": "The batch loops of convolution forward and input-gradient that run under OpenMP give the same output, column buffer and gradient for every order and every interleaving of the iterations' memory writes, because distinct iterations touch disjoint cells. The same holds for the gradient loop of Add, and bit for bit: it does not depend on laws of arithmetic that float does not have.", "quantifier": "every permutation and every element-level interleaving of the loop iterations, every geometry, every element type and rounding", "why_tests_cant": "Thread schedules are not controllable from unit tests.", "anchors": ["src/runtime/cpu/kernels/kernels.cpp: CPUConvolutionalForward, CPUConvolutionalInputGrad"]}
{"id": "C11", "title": "Convolution gradients are the true derivatives", "statement": "The input gradient added by backward and the weight and bias gradients stored by backward equal the partial derivatives of <grad_output, output> with respect to input, weight and bias.", "quantifier": "all geometries, inputs, weights and incoming gradients", "why_tests_cant": "Numerical gradient checks sample finitely many points with tolerance.", "anchors": ["src/runtime/cpu/kernels/kernels.cpp: CPUConvolutionalInputGrad, CPUConvolutionalWeightsGrad, CPUConvolutionalBiasGrad"]}
{"id": "C12", "title": "MaxPooling forward returns the window maximum", "statement": "Every output of MaxPooling is the maximum of its window of the input, where padding positions count as the fill value; without padding, and more generally whenever the window contains no padding or some value not below the fill value, this is the maximum of the real pixels. The fill value is the smallest positive float, so a padded window of negative pixels yields that constant instead of a pixel.", "quantifier": "all geometries and inputs", "why_tests_cant": "Needs all window positions and contents; existing tests only use non-negative inputs.", "anchors": ["src/runtime/cpu/kernels/kernels.cpp: CPUMaxPoolingForward, im2col"]}
{"id": "C13", "title": "MaxPooling backward routes each gradient to one maximal position", "statement": "backward adds each incoming gradient to exactly one input pixel, the maximal cell of the window whose value forward returned (which of several equal cells is the matrix library's choice, the same in both passes), and drops it exactly when the selected position is padding; without padding the total of the gradient is preserved, and at inputs whose window maxima are unique this is the derivative of the forward pass.", "quantifier": "all geometries, inputs and incoming gradients", "why_tests_cant": "Universal over inputs with ties and overlapping windows.", "anchors": ["src/runtime/cpu/kernels/kernels.cpp: CPUMaxPoolingInputGrad, CPUMaxPoolingForward"]}
{"id": "C14", "title": "Layout conversion NCHW <-> NHWC is a lossless permutation", "statement": "NCHW2NHWC followed by NHWC2NCHW (and the reverse) restores the data exactly, each conversion moves element (n,c,h,w) to its place in the other layout, every destination cell receives its element and no access is out of bounds.", "quantifier": "all N, C, H, W and all contents", "why_tests_cant": "Index arithmetic over four unbounded dimensions.", "anchors": ["src/runtime/cpu/kernels/kernels.cpp: utils::NCHW2NHWC, utils::NHWC2NCHW"]}
{"id": "C15", "title": "GlobalAvgPooling forward and gradient", "statement": "Each output is the arithmetic mean of its channel plane; backward adds grad/(H*W) to each pixel of the plane, which is the derivative of the forward pass; the sum of the gradient is preserved.", "quantifier": "all shapes with H*W > 0, all inputs and gradients", "why_tests_cant": "Universal over sizes and contents.", "anchors": ["src/runtime/cpu/kernels/kernels.cpp: CPUGlobalAvgPoolingForward, CPUGlobalAvgPoolingInputGrad"]}
{"id": "C16", "title": "Linear is x*W^T + b on the flattened input, with the exact gradients", "statement": "For an input of any rank >= 2 a Linear layer computes, for every sample, bias plus the inner products with the weight rows over all non-batch dimensions flattened in memory order; backward adds the derivative with respect to the input and stores the derivatives with respect to weight and bias.", "quantifier": "all batch sizes, feature counts, unit counts, inputs, weights, gradients", "why_tests_cant": "Universal over sizes and contents.", "anchors": ["src/runtime/cpu/kernels/kernels.cpp: CPULinearForward, CPULinearAddBias, CPULinearInputGrad, CPULinearWeightGrad, CPULinearBiasGrad", "src/runtime/cpu/layers/cpulinear.cpp"]}
{"id": "C17", "title": "Element-wise activations compute their documented function and its derivative", "statement": "ReLU, LeakyReLU, ELU and Sigmoid compute max(0,x), x or alpha*x, x or alpha*(exp x - 1), 1/(1+exp(-x)) on every element independently; their backward passes add grad_output times the derivative of that function at every point where it is differentiable.", "quantifier": "all sizes, inputs, alphas and gradients", "why_tests_cant": "Real analysis over all points, not samples.", "anchors": ["src/runtime/cpu/kernels/kernels.cpp: CPUReLU*, CPULeakyReLU*, CPUELU*, CPUSigmoid*"]}
{"id": "C18", "title": "Softmax yields a probability distribution per row", "statement": "For every non-empty row the outputs are positive, at most 1, sum to 1, are invariant under adding a constant to the row, keep the order of the inputs, and no exponential is ever taken of a positive number (so none can overflow).", "quantifier": "all batch sizes, class counts >= 1 and inputs", "why_tests_cant": "Must hold for all inputs including very large ones.", "anchors": ["src/runtime/cpu/kernels/kernels.cpp: CPUSoftmaxForward"]}
{"id": "C19", "title": "Softmax gradient is the true derivative", "statement": "Softmax backward adds the vector-Jacobian product of the softmax at the forward input; each row of the added gradient sums to zero.", "quantifier": "all sizes, inputs and gradients", "why_tests_cant": "Real analysis over all points.", "anchors": ["src/runtime/cpu/kernels/kernels.cpp: CPUSoftmaxInputGrad"]}
{"id": "C20", "title": "BatchNorm in training mode normalises every feature", "statement": "In training mode each output feature over the batch has mean beta and variance gamma^2*var/(var+eps), where mean and var are the batch statistics of the input feature; BatchNorm2D does the same per channel over batch and plane.", "quantifier": "all batch sizes >= 1, features, inputs, gamma, beta, eps > 0", "why_tests_cant": "Universal over inputs.", "anchors": ["src/runtime/cpu/kernels/kernels.cpp: CPUBatchNorm1DForward", "src/runtime/cpu/layers/cpubatchnorm1d.cpp", "src/runtime/cpu/layers/cpubatchnorm2d.cpp"]}
{"id": "C21", "title": "BatchNorm running statistics and evaluation mode", "statement": "After any history of training forwards the running mean and variance are the exponentially weighted sums sum_k (1-alpha)*alpha^(T-1-k)*stat_k (starting from zero), running variance is never negative when 0<=alpha<=1, an evaluation-mode forward uses exactly these and changes neither the running statistics nor gamma/beta, so evaluation is repeatable and treats each sample independently of the rest of the batch.", "quantifier": "every finite history of training and evaluation forwards with arbitrary batches", "why_tests_cant": "Histories are unbounded.", "anchors": ["src/runtime/cpu/kernels/kernels.cpp: CPUBatchNorm1DForward"]}
{"id": "C22", "title": "BatchNorm gradients are the true derivatives in training mode", "statement": "After a training-mode forward, backward adds the derivative of <grad_output, output> with respect to the input (through batch mean and variance) and stores the derivatives with respect to gamma and beta. After an evaluation-mode forward the same formula is used and differs from the derivative of the evaluated function.", "quantifier": "all batches, gamma, eps > 0, incoming gradients", "why_tests_cant": "Real analysis over all points.", "anchors": ["src/runtime/cpu/kernels/kernels.cpp: CPUBatchNorm1DInputGrad, CPUBatchNorm1DParamGrad"]}
{"id": "C23", "title": "BatchNorm2D backward replaces instead of accumulating", "statement": "Unlike every other layer, BatchNorm2D backward overwrites the gradient of its input: the result is right exactly when no other consumer of that placeholder has already contributed a non-zero gradient.", "quantifier": "all graphs in which the input of BatchNorm2D has another consumer, all gradients", "why_tests_cant": "Depends on the consumer set and processing order of arbitrary graphs.", "anchors": ["src/runtime/cpu/layers/cpubatchnorm2d.cpp: CPUBatchNorm2D::backward"]}
{"id": "C24", "title": "Dropout semantics", "statement": "In evaluation mode Dropout is the identity. In training mode each element is either 0 (when its uniform draw is below p) or x/(1-p), so the draw-average of the output is x. Backward multiplies by the same keep mask but not by 1/(1-p): it returns exactly (1-p) times the derivative.", "quantifier": "all sizes, inputs, draws, 0 <= p < 1", "why_tests_cant": "Universal over random draws.", "anchors": ["src/runtime/cpu/kernels/kernels.cpp: CPUDropoutForward, CPUDropoutInputGrad", "src/runtime/cpu/layers/cpudropout.cpp"]}
{"id": "C25", "title": "Cross-entropy loss and its gradient", "statement": "CrossEntropyLoss::forward returns -(1/N) sum log p[i,target_i], which is non-negative for probabilities; backward writes every element of grad_output, namely its partial derivative; composed with Softmax backward the gradient with respect to the logits is (p - onehot(target))/N. Both calls throw exactly when the prediction and target do not have shapes {n,m} and {n,1} or (backward) the gradient's shape differs from the prediction's. Labels outside 0..classes-1 make both calls access memory outside the row or the buffer.", "quantifier": "all batch sizes, class counts, positive predictions and label vectors", "why_tests_cant": "Universal over contents and labels.", "anchors": ["src/loss.cpp: CrossEntropyLoss::forward, CrossEntropyLoss::backward", "src/runtime/cpu/kernels/kernels.cpp: CPUNLLLoss, MatchTargetTo1dMatrix, CPULog"]}
{"id": "C26", "title": "Accuracy metrics count matching arg-max rows", "statement": "accuracy and accuracyOneHot return the fraction of rows whose maximal prediction is the label (respectively the maximal label column, as chosen by the matrix library when several are equal), lie in [0,1], are invariant under permuting the samples, and agree when the one-hot labels encode the class labels; they throw exactly on shape mismatch.", "quantifier": "all row counts >= 1, class counts >= 1, predictions and labels", "why_tests_cant": "Universal over contents including ties.", "anchors": ["src/metrics.cpp: accuracy, accuracyOneHot"]}
{"id": "C27", "title": "SGD step", "statement": "SGD::step sets every trainable parameter w to w - lr*grad element-wise, leaves frozen parameters, all gradients and everything else unchanged, independently of the iteration order of the parameter map; with lr changed by set_lr, the new rate applies from the next step.", "quantifier": "all parameter maps, orders, gradients, learning rates, histories of steps and set_lr", "why_tests_cant": "Hash-map order and histories are unbounded.", "anchors": ["src/optimizer.cpp: SGD::step, SGD::set_lr"]}
{"id": "C28", "title": "Momentum velocity over any history", "statement": "After any sequence of gradients the velocity of a trainable parameter equals sum_k gamma^(T-1-k)*lr_k*g_k and the weight has decreased by the sum of all velocities; parameters frozen during a step keep both weight and velocity in that step.", "quantifier": "every finite sequence of steps, gradients, freeze/unfreeze and learning-rate changes", "why_tests_cant": "Histories are unbounded.", "anchors": ["src/optimizer.cpp: SGDMomentum::step"]}
{"id": "C29", "title": "Adam moments and bias correction over any history", "statement": "After any sequence of gradients for an always-trainable parameter the first and second moments equal (1-b1)*sum b1^(T-1-k) g_k and (1-b2)*sum b2^(T-1-k) g_k^2; for a constant gradient g the bias-corrected moments are exactly g and g^2, so each step moves the weight by lr*g/(|g|+eps); the iteration counter advances once per step even for frozen parameters, so a parameter frozen in the past is under-corrected.", "quantifier": "every finite sequence of steps and gradients, 0 <= betas < 1, eps > 0", "why_tests_cant": "Histories are unbounded.", "anchors": ["src/optimizer.cpp: Adam::Adam, Adam::step"]}
{"id": "C30", "title": "Sequential DataLoader epochs", "statement": "With shuffle off and 1 <= batch_size, an epoch of pull calls delivers exactly floor(size/batch_size) full batches whose samples are dataset items 0,1,2,... in order, each at its own slot of X and y, then returns false exactly once and starts over; this repeats for any number of epochs.", "quantifier": "every dataset size, batch size, number of pulls and dataset contents", "why_tests_cant": "Unbounded number of calls and sizes.", "anchors": ["src/dataloader.cpp: DataLoader::pull, seqIndices, makeShape"]}
{"id": "C31", "title": "Shuffled DataLoader batches", "statement": "With shuffle on, every delivered batch consists of batch_size distinct in-range dataset items, the number of batches per epoch is the same as without shuffle, for every behaviour of the random generator and every hash-set order; but different batches of an epoch may repeat items and an epoch need not visit every item.", "quantifier": "every sequence of random draws, every set iteration order, every size", "why_tests_cant": "Random draws cannot be enumerated.", "anchors": ["src/dataloader.cpp: randomIndices, DataLoader::pull"]}
{"id": "C32", "title": "DataLoader failure behaviour", "statement": "If the dataset throws while a batch is being filled, or the caller's tensors have the wrong shape, the loader position is unchanged, so the next sequential pull delivers the same batch; tensors passed empty are allocated with shape {batch_size, sample shape...}.", "quantifier": "every failure point inside a batch, every history", "why_tests_cant": "Failure points must be injected everywhere.", "anchors": ["src/dataloader.cpp: DataLoader::pull"]}
{"id": "C33", "title": "Graph construction collects exactly the needed part of the expression", "statement": "For every expression built with the layer API, building a Model terminates after at most (#outputs + #argument links) traversal steps, and the data nodes of the model are exactly the placeholders from which some output is reachable, the operations exactly their producers, the links exactly their argument and result relations.", "quantifier": "every expression DAG (any sharing), every list of outputs", "why_tests_cant": "Graphs are unbounded and sharing patterns matter.", "anchors": ["src/model/graphbuilder.cpp: GraphBuilder::unroll, GraphBuilder::build"]}
{"id": "C34", "title": "Duplicated links for shared sub-expressions", "statement": "In a model every operation is linked once when the expression is a chain or a tree; when a placeholder with a producer is pending twice in the traversal its producer is linked repeatedly, so its recorded inputs and outputs are its arguments followed by that many extra id 0 entries: layers that check their arity then throw at run time.", "quantifier": "every expression DAG, every argument order", "why_tests_cant": "Depends on the traversal order of arbitrary DAGs.", "anchors": ["src/model/graphbuilder.cpp: GraphBuilder::unroll, build", "src/model/model.cpp: initNodeId"]}
{"id": "C35", "title": "Layer names are unique and complete", "statement": "A Model is constructed only if all layer names (user given or generated from the lower-cased type and the position in the topological order) are pairwise distinct and non-empty for non-empty types; otherwise construction throws. In a constructed model getLayer(name) returns the layer with that name for every layer and throws for every other name; generated names never collide with each other.", "quantifier": "every graph, every topological order, every assignment of user names", "why_tests_cant": "Universal over strings and orders.", "anchors": ["src/model/model.cpp: checkNamesAreUnique, initNodeId, Model::getLayer"]}
{"id": "C36", "title": "Parameter and state keys never collide", "statement": "The keys layer-name + '.' + parameter-name of params() and state() are distinct for distinct (layer, parameter) pairs, whatever the layer names contain, so no parameter or buffer is silently dropped from params() or state(); state tensors alias the live parameter data.", "quantifier": "every set of layers with distinct names, arbitrary characters", "why_tests_cant": "Universal over strings.", "anchors": ["src/model/model.cpp: Model::Impl::Impl", "src/expression/nn.cpp: init functions"]}
{"id": "C37", "title": "Model::forward evaluates the expression", "statement": "For every expression DAG and every topological order chosen by the graph library, forward leaves in each output tensor the value obtained by evaluating the expression bottom-up on the given inputs, executes every layer exactly once, and changes no input tensor and no parameter.", "quantifier": "every DAG, every topological order, all inputs, any layer implementation", "why_tests_cant": "Universal over graphs and schedules.", "anchors": ["src/runtime/cpu/cpubackend.cpp: CPUBackend::CPUBackend, bind, forward", "src/model/model.cpp: initNodeId"]}
{"id": "C38", "title": "Model::backward computes the gradient of the whole expression", "statement": "If every layer adds the correct vector-Jacobian product to its input gradients and stores the correct parameter gradient, then after forward and backward the gradient stored for every parameter is the partial derivative of sum_o <grad_output_o, output_o> with respect to that parameter, for every DAG (including shared sub-expressions) and every topological order.", "quantifier": "every DAG, every topological order, all inputs, parameters and incoming gradients", "why_tests_cant": "Gradient checking samples finitely many points of finitely many graphs.", "anchors": ["src/runtime/cpu/cpubackend.cpp: CPUBackend::backward", "src/runtime/cpu/layers/*.cpp"]}
{"id": "C39", "title": "backward is repeatable and overwrites parameter gradients", "statement": "Calling backward again with the same arguments leaves the same parameter gradients (they are assigned, not accumulated, contrary to the Parameter documentation), inputs, outputs and parameters are never modified, and the caller's grad_output tensors are modified exactly when the corresponding output placeholder is itself consumed by a layer of the model.", "quantifier": "every DAG, every number of backward calls", "why_tests_cant": "Histories and graphs are unbounded.", "anchors": ["src/runtime/cpu/cpubackend.cpp: CPUBackend::backward"]}
{"id": "C40", "title": "Execution before compile is refused", "statement": "For every history of calls on a Model, forward and backward throw without any effect until compile has been called, and never throw for that reason afterwards.", "quantifier": "every finite history of API calls", "why_tests_cant": "Histories are unbounded.", "anchors": ["src/model/model.cpp: Model::compile, forward, backward"]}
{"id": "C41", "title": "train(mode) switches every parameter", "statement": "After train(mode) every parameter of the model reports is_trainable() == mode, parameter data and gradients are unchanged, and the last call wins; with train(false) the optimizers change nothing.", "quantifier": "every model, every sequence of train calls", "why_tests_cant": "Histories are unbounded.", "anchors": ["src/model/model.cpp: Model::train", "src/model/parameter.cpp"]}
{"id": "C42", "title": "State dictionary round trip", "statement": "For every state dictionary, loading the bytes written by save_state into a dictionary with the same names and shapes makes it equal to the saved one, for every hash-map iteration order on either side, and consumes exactly the bytes written; names absent from the file keep their value.", "quantifier": "every state dictionary, every name, shape, contents and iteration order", "why_tests_cant": "Universal over byte strings and orders.", "anchors": ["src/serialization.cpp: save_state, load_state, write_sequence, read_sequence, write_value, read_value"]}
{"id": "C43", "title": "Configuration round trip", "statement": "load_cfg applied to the bytes of save_cfg yields the same configuration (inputs, outputs, placeholder shapes, ordered operations with types, ids and all attributes) for every iteration order of the maps, and consumes exactly the bytes written, so save followed by load recovers both parts from one file.", "quantifier": "every configuration with supported attributes, every iteration order", "why_tests_cant": "Universal over configurations.", "anchors": ["src/serialization.cpp: save_cfg, load_cfg, write_attribute, read_attribute, save, load"]}
{"id": "C44", "title": "Kind confusion is detected", "statement": "load_state of any file written by save_cfg or save throws without touching the dictionary, and load_cfg of any file written by save_state throws, as does load_cfg of a missing or empty file.", "quantifier": "every configuration and state dictionary", "why_tests_cant": "Universal over contents.", "anchors": ["src/serialization.cpp: SerializationKind, load_state, load_cfg"]}
{"id": "C45", "title": "Truncated state and configuration files", "statement": "For every prefix of a file written by save_state, load_state either throws or returns normally with every tensor element being either its saved value, its old value, or (for at most one element) a mixture of their bytes; entries before the cut are fully restored. In particular a cut inside tensor data of the last entry, and an empty file, are accepted silently. For every prefix of a file written by save_cfg, load_cfg throws or returns and never is undefined behaviour; the parts written completely (inputs, outputs and placeholders, then layer by layer) are restored. A damaged size of an array attribute is undefined behaviour.", "quantifier": "every state dictionary and configuration, every truncation point, every damaged array size", "why_tests_cant": "Every crash point of a write must be covered.", "anchors": ["src/serialization.cpp: load_state, read_value, read_sequence"]}
{"id": "C46", "title": "A failing load_state is not atomic but is confined", "statement": "When load_state throws because of an unknown name or a shape mismatch at entry k, exactly the entries before k have been overwritten with the file's values, all other tensors are untouched, and no shape ever changes.", "quantifier": "every file, every target dictionary, every position of the first bad entry", "why_tests_cant": "Failure positions and contents are unbounded.", "anchors": ["src/serialization.cpp: load_state"]}
{"id": "C47", "title": "Rebuilding a model from its configuration preserves its function", "statement": "Model::Build(model.cfg()) succeeds for every model whose inputs are leaves and whose outputs are results of layers, has the same layers (names, types, attributes) and, given the same parameter values by name, computes the same outputs wherever the links of the rebuilt model are intact (always with one output; never when an output is needed for another output by an operation that counts its inputs); the order of inputs and outputs is the topological order, which may differ from the order the user gave.", "quantifier": "every expression DAG, every topological order before and after, all inputs and parameters", "why_tests_cant": "Universal over graphs and orders.", "anchors": ["src/model/model.cpp: createConfig, Model::Build", "src/expression/nn.cpp: make_layer"]}
{"id": "C48", "title": "make_layer reconstructs each supported layer and rejects the rest", "statement": "make_layer(type, name, attrs, inputs) with the attributes recorded by a layer creates a layer with the same type, name, attributes, parameter shapes and output shape for each of the 13 types, and throws for every other type string.", "quantifier": "every type string, attribute values and input shapes", "why_tests_cant": "Universal over strings and values.", "anchors": ["src/expression/nn.cpp: make_layer, make_typed_layer, init and outShape functions", "include/deepworks/base_op.hpp"]}
{"id": "C49", "title": "Image reading selects the decoder by extension and writes the whole tensor", "statement": "ReadImage chooses PNG exactly for paths whose text after the last dot (or the whole path without dot) is png, JPEG exactly for jpg or jpeg, and throws otherwise; an empty tensor becomes {height,width,channels}, a non-empty one is accepted exactly when its total matches, and then element (h,w,c) of the image lands at offset (h*width+w)*channels+c with every element written.", "quantifier": "every path string, image size, contents and tensor state", "why_tests_cant": "Universal over strings and sizes.", "anchors": ["src/io/image_reader.cpp: IsPngFile, IsJpegFile, ReadImage, ReadPngFile, ReadJpegFile"]}
{"id": "C50", "title": "Initializers fill exactly the tensor", "statement": "zeros/constant set all total() elements to the value, uniform and xavierUniform put every element in [lower,upper) respectively within sqrt(6)/(in+out) of zero, nothing outside the tensor is written, and xavierUniform throws for rank 0; a first dimension of zero with rank other than 2 divides by zero.", "quantifier": "every shape and every behaviour of the generator within its contract", "why_tests_cant": "Universal over shapes and draws.", "anchors": ["src/initializers.cpp: zeros, constant, xavierUniform, uniform"]}
{"id": "C51", "title": "Add layer and fan-out", "statement": "Add computes the element-wise sum of two equally shaped inputs, is rejected at construction for different shapes, and its backward adds the incoming gradient to both inputs, also when both inputs are the same placeholder (total factor 2) and for every interleaving of the parallel loop.", "quantifier": "all shapes, inputs, gradients and loop schedules, aliased or distinct inputs", "why_tests_cant": "Aliasing and schedules.", "anchors": ["src/runtime/cpu/layers/cpuadd.cpp", "src/runtime/cpu/kernels/kernels.cpp: CPUAddForward", "src/expression/nn.cpp: Add::outShape"]}
{"id": "C52", "title": "Labels and pooled indices survive the float representation up to 2^24", "statement": "Class labels, argmax indices kept by MaxPooling and the correct-count of the accuracy metrics are stored in 32-bit floats: every integer of magnitude at most 2^24 is represented exactly, and counting up by one is exact up to 2^24 and gets stuck there.", "quantifier": "every integer in range; every count beyond it", "why_tests_cant": "The boundary is at 16 million.", "anchors": ["src/runtime/cpu/kernels/kernels.cpp: CPUMaxPoolingForward, MatchTargetTo1dMatrix", "src/metrics.cpp: accuracy"]}
{"id": "C53", "title": "Training sessions never throw and never misbehave", "statement": "Take a compiled model whose layers fit the shapes of the expression and an optimizer (SGD, SGDMomentum or Adam, in any state it can reach) constructed from its parameters. Then every sequence of forward, backward, train, step and set_lr calls with tensors of the model's input and output shapes and without a backward before the first forward returns: no call throws, reads or writes out of bounds, or reads something forward did not leave behind; and the model is usable in the same way afterwards.", "quantifier": "every such model, optimizer, and finite sequence of calls with any tensor contents and any random draws", "why_tests_cant": "Sequences of calls and contents are unbounded; each call depends on what the earlier ones left in the layers' buffers.", "anchors": ["src/model/model.cpp: forward, backward, train", "src/optimizer.cpp", "src/runtime/cpu/layers"]}
{"id": "C54", "title": "Models are built from exactly the layers written", "statement": "Creating one of the 13 layers and applying it to placeholders of shapes it is meant for returns a placeholder of exactly the documented shape (window layers: as many places as the window fits), gives the layer exactly its parameters and buffers with their names, shapes and initial values, and compiling yields the implementation of that layer with those sizes, strides, paddings and coefficients, able to run. Hence every model a program builds this way compiles, and together with an optimizer created from its parameters survives every training session. Wrong ranks throw, except that Linear, Convolution and BatchNorm read dimensions of too flat arguments out of bounds before any check.", "quantifier": "every layer, attribute values, argument shapes, random draws; every program that creates inputs, applies layers (also again) and constructs models, in any order", "why_tests_cant": "Universal over programs, shapes and values.", "anchors": ["src/expression/nn.cpp: init and outShape functions", "include/deepworks/base_op.hpp", "src/runtime/cpu/layers/cpulayer.cpp: ICPULayer::create", "src/runtime/cpu/cpubackend.cpp", "src/model/model.cpp: compile"]}
{"id": "C55", "title": "A training iteration is a step along the gradient of the loss", "statement": "One iteration of the training loop of the samples (forward, cross-entropy forward and backward, model backward, optimizer step) returns the mean negative log-likelihood of the labels, and the optimizer makes its step with, for every parameter element, the derivative of that loss with respect to that element; with SGD every trainable element moves by exactly minus learning rate times the derivative and frozen parameters do not move. step() changes the parameters of the model to exactly what the optimizer computes and nothing else. A model that ends in Softmax can be trained on any sequence of labelled batches with any optimizer: every iteration returns and every loss is a nonnegative number.", "quantifier": "every model with one input and one two-dimensional output built from the library's layers, every batch, label, parameter value (away from kinks and ties of ReLU-like and pooling layers for the derivative), optimizer, and number of iterations", "why_tests_cant": "Derivatives and unbounded sequences over reals; the correctness is a composition over arbitrary graphs.", "anchors": ["samples/cifar10/main.cpp: main", "samples/mnist/main.cpp: main", "src/model/model.cpp: forward, backward", "src/loss.cpp", "src/optimizer.cpp: step"]}
{"id": "C56", "title": "In evaluation mode a prediction depends only on the sample and the weights", "statement": "After train(false), forward changes no parameter and no buffer (running statistics stay what they are), and the prediction for a sample depends only on that sample and on the weights and running statistics: not on the other samples of the batch, the place of the sample in the batch, the size of the batch the model was built for, random draws, memory contents, or any earlier forward call. After any number of such calls, every later call returns what it would have returned before them.", "quantifier": "every model built from the library's layers whose tensors have the batch as first dimension, every pair of batches and positions, every number of calls in between", "why_tests_cant": "Quantifies over the other samples, batch sizes and histories.", "anchors": ["src/model/model.cpp: forward, train", "src/runtime/cpu/layers/cpubatchnorm1d.cpp", "src/runtime/cpu/layers/cpubatchnorm2d.cpp", "src/runtime/cpu/layers/cpudropout.cpp", "src/runtime/cpu/cpubackend.cpp: forward"]}
{"id": "C57", "title": "The sample programs train their networks and print what they measured", "statement": "Each of the four samples (mnist, iris, cifar10, cifar100) builds, for every batch size, the network shown in its source, layer by layer, with the documented shapes and as many scores per image as there are classes. Given datasets that fit the network, the training program runs to its end and saves once: it prints the epochs 0, 1, ... in order, after every freq-th batch the mean of the losses since the last print, at the end of every epoch the mean of what is left, and as accuracy the fraction of the validation samples whose label scores highest, validation being in evaluation mode and leaving parameters alone; losses are not negative and accuracies between 0 and 1. Datasets smaller than a batch print nan; a frequency of zero divides by zero.", "quantifier": "every batch size (within int range), number of epochs, frequency, dataset contents, order of samples drawn by the loader, initial values and random draws; for the training program also every other network that is a classifier and every optimizer", "why_tests_cant": "Universal over data, batch sizes, epochs and draws.", "anchors": ["samples/mnist/main.cpp: buildMNISTModel, main", "samples/iris/main.cpp: buildIrisModel, main", "samples/cifar10/main.cpp: buildCIFAR10Model, main", "samples/cifar100/main.cpp: create_basic_block, make_layer, buildResnetModel, main", "src/dataloader.cpp", "src/metrics.cpp", "src/loss.cpp"]}
{"id": "C58", "title": "Over a whole session weights move in optimizer steps only, by the rule of the optimizer", "statement": "In every sequence of forward, backward, train, step and set_lr calls on a compiled model with an optimizer constructed from its parameters, each parameter (apart from the mask Dropout keeps among its parameters) ends at its value at the start minus what the optimizer's textbook rule prescribes for the gradients it had at the steps in which it was trainable, each with the learning rate in force at that step: for SGD the sum of learning rate times gradient, for momentum the sum of the velocities, for Adam the bias-corrected moves with the step counter counting every step. Without a step no weight changes; after train(false) no weight changes whatever is called until train(true). The optimizer keeps its other settings, and its learning rate is the last one set.", "quantifier": "every such model, every optimizer and setting, every finite sequence of calls with any tensor contents and random draws", "why_tests_cant": "Sequences are unbounded and the sums depend on all of them.", "anchors": ["src/optimizer.cpp: step, set_lr", "src/model/model.cpp: forward, backward, train, params", "src/model/parameter.cpp"]}
{"id": "C59", "title": "A model saved to a file and loaded again is the same model", "statement": "Take any model a program builds from the library's layers, compile it, use it in any way (training included) and save it. Saving succeeds, and loading the file, in the same program or another, gives a model whose expression is a copy of the part of the original that its outputs need, with the inputs and outputs of the original (in the order in which the original numbered them) and with every name in the state holding exactly the saved tensor. The loaded model compiles, is usable, and in evaluation mode predicts exactly what the original predicts. Using a model changes no name and no shape in its state, so training cannot make a model unsavable; a model whose names, shapes and lists of links have at most as many bytes as can be allocated can always be saved and loaded (1024 bytes for the networks of the samples). The sample programs in mode test, given the file that mode train saved and the same batch size, print one line: the accuracy of the trained model, which is the last one the training program printed (unless some sample has two equally high scores).", "quantifier": "every program, expression, session, iteration order of the hash maps, order chosen by the graph library, initial values drawn while loading, and store the model is loaded into", "why_tests_cant": "Universal over programs, histories and iteration orders of unordered maps.", "anchors": ["src/serialization.cpp: save, load, save_cfg, load_cfg, save_state, load_state", "src/model/model.cpp: Build, state, compile, forward", "include/deepworks/serialization.hpp", "samples/mnist/main.cpp: main"]}
{"id": "C60", "title": "The sample programs train on what is in their files", "statement": "Every row of an iris table, in order, is one sample: its first four fields are the data and the species in the fifth is the label; a last line end makes no difference. Every picture in the folders of the MNIST, CIFAR-10 and CIFAR-100 samples is one sample: the data is the picture divided by 255 (row by row, or as three colour planes) and the label is the digit or class its folder names. The CIFAR-100 sample numbers the names it meets; both of its datasets use one numbering, different names get different numbers, and with at most 100 names the numbers are below 100. So each program, given such files, trains on exactly these samples. A row with fewer than five fields is read out of bounds, a table that cannot be opened counts as empty, an unknown name counts as class 0, a foreign entry in the MNIST folder or a picture of another size makes the program throw, as do a missing directory and a MNIST folder whose number is no int, and the CIFAR-100 numbers depend on the order in which the file system lists the folders.", "quantifier": "every table, every directory tree and listing order, every picture content, every conversion of text to numbers", "why_tests_cant": "Files are unbounded and arbitrary; listing order is up to the file system.", "anchors": ["samples/iris/utility.cpp: SplitLineByComma, IrisCSVDataset", "samples/mnist/utility.cpp: Dataset", "samples/cifar10/utility.cpp: CIFAR10Dataset, HWC2CHW", "samples/cifar100/utility.cpp: CIFAR100Dataset", "src/io/image_reader.cpp: ReadImage"]}
{"id": "C61", "title": "Every iteration of the training programs descends along the gradient of the loss", "statement": "When one of the sample programs (or the same program with any other differentiable classifier) trains, then in every iteration of every epoch every element of every parameter of the network moves by the textbook rule of the optimizer (SGD, momentum, Adam), where the derivative in that rule is the derivative of the mean cross-entropy loss on exactly the batch of that iteration with respect to that element, at the weights of that moment; the loss printed is that loss. In iterations in which a rectifier gets an exact zero or a max pooling sees a tie, the loss is still the loss of the batch.", "quantifier": "every differentiable network (no Dropout; what BatchNorm2D reads is read by nothing else), including the four of the samples, every optimizer, batch size, number of epochs, data, order of samples, initial weights and draws", "why_tests_cant": "Derivatives are limits, and the statement is about every iteration of an unbounded run from arbitrary weights.", "anchors": ["samples/mnist/main.cpp: main", "samples/iris/main.cpp: main", "samples/cifar10/main.cpp: main", "samples/cifar100/main.cpp: main", "src/model/model.cpp: forward, backward, train", "src/optimizer.cpp: step", "src/loss.cpp: forward, backward", "src/runtime/cpu/layers"]}
{"id": "C62", "title": "The drawing of a model shows the model, and printed shapes and tensors tell what they hold", "statement": "The file save_dot writes for a model, read by the rules of the DOT language, has one node for every placeholder the outputs need, labelled with its number and shape, one box for every layer call, labelled with the layer's name and type, one arrow for every argument of every call and one from every call to its result, labelled with the ports, and nothing else; no two of them have the same name. This holds in every iteration order of the hash maps whenever every call was linked once and the names given by the user are identifiers of the DOT language that are not reserved and not Placeholder_k; generated names always are. A configuration with a placeholder missing makes save_dot throw. Printing a shape shows all its dimensions and different shapes print differently; printing a tensor shows every element in memory order, and the text determines how many elements there are and how each is printed. Not so: a call linked repeatedly is drawn with arrows for arguments it does not have, and a layer named with two words is torn into three nodes.", "quantifier": "every expression, set of outputs, order chosen by the graph library, iteration order of the hash maps, name, shape and tensor", "why_tests_cant": "The file is a text of unbounded length whose meaning is given by a grammar; names are arbitrary strings.", "anchors": ["src/serialization.cpp: save_dot", "include/deepworks/shape.hpp: operator<<", "src/runtime/tensor.cpp: operator<<"]}
{"id": "C63", "title": "The layers, the loss and the optimizers compute what the project's reference kernels compute", "statement": "For all shapes, values, gradients and earlier contents of the buffers, Linear, ReLU, LeakyReLU, ELU, Sigmoid, Softmax, Dropout (given the mask drawn), GlobalAvgPooling, Add, BatchNorm1D and BatchNorm2D compute in exact arithmetic the outputs, the saved statistics, the input gradients and the parameter gradients that the plain loops of tests/unit/kernels_reference.cpp compute: backward adds the reference gradient to the gradient of the input (BatchNorm2D replaces it). The cross-entropy loss equals the reference for all labels and predictions, also where it is not finite or undefined; its gradient equals the reference whenever the labels are classes. One step and every history of steps of SGD, momentum and Adam (with frozen parameters and changing learning rates) equals the reference steps. Not so: a label outside its row that still points into the tensor is accepted by both, which then can differ; and the reference gradient of Dropout is not the derivative of the reference forward pass, so that comparing the two cannot reveal the factor the library leaves out.", "quantifier": "every shape, tensor content, parameter value, mask, label, mode, gradient memory and history of optimizer steps", "why_tests_cant": "The unit tests compare the two on a few random tensors of fixed shapes.", "anchors": ["tests/unit/kernels_reference.cpp", "src/runtime/cpu/kernels/kernels.cpp", "src/runtime/cpu/layers", "src/optimizer.cpp: step", "src/loss.cpp: forward, backward"]}
{"id": "C64", "title": "Rounding does not spoil the results: outputs stay near the exact ones and clear predictions do not change", "statement": "Let every arithmetic operation of every layer be rounded (with any relative error up to u and absolute error up to eta, as 32-bit floats have with 2^-24 and 2^-150 while nothing overflows) and let sums be added in any order and bracketing. For every model and every exact result and every eps there are positive bounds such that, with u and eta below them and inputs given within them, every possible rounded evaluation of the model gives outputs within eps of the exact ones; and if in the exact result one class has the highest score, every such evaluation has that class highest. For Linear and Convolution the error is explicitly bounded by ((1+u)^(K+1)-1) times the sum of the absolute values of the K products and the bias, plus the amplified error of the inputs, plus a term in eta; ReLU, MaxPooling and Dropout in evaluation mode add no error. The expressions rounded are exactly those the layers compute.", "quantifier": "every model of the library's layers (positive epsilons, Dropout that does not drop everything), every parameter value and input, every way of rounding each operation, every order and bracketing of every sum", "why_tests_cant": "Rounding errors and orders of summation depend on compiler, vector width and data; tests see a few of them.", "anchors": ["src/runtime/cpu/kernels/kernels.cpp", "src/runtime/cpu/layers", "src/runtime/cpu/cpubackend.cpp: forward"]}
{"id": "C65", "title": "The sample programs do from the command line what their arguments say", "statement": "Started with 'train ROOT BATCH EPOCHS FREQUENCY FILE', each of the four sample programs trains the network it is written for on the data below ROOT in batches of BATCH for EPOCHS epochs, prints the progress every FREQUENCY batches, and writes the trained model to FILE and nothing else. Started with 'test ROOT BATCH FILE' on that file with that batch size, on any machine with the same floats and any data below ROOT, it prints one line, the accuracy of the trained model in evaluation mode on that data, and writes nothing; on the data of the training run this is the last accuracy printed there, unless classes tie. Numbers are decimal, after white space, with or without sign, up to the first other character; what does not begin like a number counts as 0, numbers outside int are undefined behaviour. Further arguments are ignored; another mode throws; a directory of pictures that is missing throws. With no epochs the new network is saved. Not checked: too few arguments are undefined behaviour, a FREQUENCY that is no number divides by zero, a FILE that cannot be written goes unnoticed (the program says that the model is saved), and so do missing iris tables (the program prints figures that are no numbers and saves the network it began with). Nor does the test command check BATCH: with another batch size than in training, on data with a whole batch, it never ends normally, and for iris and mnist it is undefined behaviour.", "quantifier": "every program, argument vector, disk content, machine (generator, hash orders, sorting, random numbers, memory contents, decoders), batch size and number of epochs", "why_tests_cant": "Universal over arguments, files, data, machines and pairs of runs.", "anchors": ["samples/iris/main.cpp: main", "samples/mnist/main.cpp: main", "samples/cifar10/main.cpp: main", "samples/cifar100/main.cpp: main", "src/serialization.cpp: save, load"]}
{"id": "C66", "title": "Several models in one program share the layers they have in common and nothing else", "statement": "A program may build several models, also over the same placeholders and layers, compile each, give each its own optimizer, and then call train, forward, backward, step and set_lr on them in any order. If each model by itself is used by the rules (tensors of its shapes, forward before backward), every call returns, all models stay usable, and every forward pass gives the value of the model's expression at the current parameters, whichever model's training changed them last. Models without a common layer do not notice each other: tensors, parameters, buffers, backends and optimizers are those of the run in which the others do not exist, and an exception in one leaves the others where they were. Building a further model does not change what the earlier ones do. Not so: two models over overlapping expressions can sometimes be built in one order and not in the other, and when two models share a Dropout layer, backward of one uses the mask of the other if that ran last.", "quantifier": "every set of models a program can build from the layer API, every interleaving of calls on them, all tensors, parameters and draws", "why_tests_cant": "Universal over programs with any number of models and over all interleavings of their calls.", "anchors": ["src/model/model.cpp: Model, compile, train, forward, backward, params", "src/runtime/cpu/cpubackend.cpp: forward, backward", "src/optimizer.cpp: step", "include/deepworks/layer_info.hpp"]}
{"id": "C67", "title": "Overflow, infinities and NaN in forward passes and training", "statement": "All numbers are IEEE 754 32-bit floats: a result beyond the largest float becomes infinite, 0/0 and similar give NaN, every other result is rounded to a neighbouring float; the direction of rounding and the order of additions in sums and products are not fixed. Softmax gives finite floats between 0 and 1 for every finite input, however large, and a positive one (at least 2^-28) to the largest number of each row; Sigmoid gives finite floats between 0 and 1. In a whole network no infinity and no NaN occurs if bounds on the inputs, carried through the layers, stay below the largest float, and then the result is one of the rounded evaluations of C64. If the logit of each sample's class is at most 60 below the largest, one training step with cross entropy, Softmax, Linear and SGD has a finite loss (at most 512), gradients at the logits of at most 16 and finite weights, given room for the learning rate; loss, gradients and new weights then differ from the exact ones (computed from the same probabilities) by at most a few units in the last place and the error of adding up the batch; the new weights of all layers of a network Linear, ReLU, ..., Linear, Softmax of any depth and widths are finite and near those of a step along the exact gradient too, with error bounds that follow from the widths. It fails beyond: if one sample's logit is 104 or more below another one, the loss is infinite and the step turns every weight and bias of the last layer into NaN, for ever, and so those of the units of the layers before it that were active for that sample.", "quantifier": "all constructed models with fitting layers, all finite inputs and weights, all roundings of every operation and all orders of every sum, all batch sizes up to 2^23, all labels, all exp and log functions within the stated accuracy", "why_tests_cant": "overflow depends on magnitudes that tests with small random numbers never reach; the order of Eigen's additions and its vectorised exp differ per machine, and a test observes one of them", "anchors": ["src/runtime/cpu/kernels/kernels.cpp: CPUSoftmaxForward, CPUSigmoidForward, CPULinearForward, BatchNorm", "src/runtime/cpu/layers/cpusoftmax.cpp", "src/runtime/cpu/layers/cpulinear.cpp", "src/loss.cpp: CrossEntropyLoss", "src/optimizer.cpp: SGD::step"]}
{"id": "C68", "title": "A network keeps its batch size: what happens to batches of another size", "statement": "The first dimension of the placeholders fixes the batch size of a network. forward never changes the shape of a tensor it is given. Given a batch of another size, activation and Dropout layers throw. The other layers do not check: Linear, Softmax, BatchNorm1D, Add and GlobalAvgPooling are undefined behaviour, as are Convolution and MaxPooling for larger batches; for smaller ones these two compute the first items of their output and silently leave the rest as it was. BatchNorm2D keeps buffers of the size of its first batch: a later larger batch is undefined behaviour, as is a first batch smaller than its output; after a full batch a smaller one gets its own normalised items followed by the items of the earlier answer. A model with a Linear layer reading an input never returns from forward for another batch size, and is undefined behaviour if that layer comes first.", "quantifier": "every model built from the layer API with such layers, every batch size, shape, tensor content and parameter value", "why_tests_cant": "Universal over shapes, batch sizes and the old contents of buffers; a test cannot observe undefined behaviour reliably.", "anchors": ["src/runtime/cpu/layers", "src/runtime/cpu/kernels/kernels.cpp", "src/runtime/cpu/cpubackend.cpp: forward, bind", "src/model/model.cpp: forward"]}
{"id": "C69", "title": "Sizes are 32-bit ints: when the layers' integer arithmetic is exact and when it overflows", "statement": "Sizes, offsets and window positions are 32-bit ints, and overflow is undefined behaviour. The size a Convolution or MaxPooling layer gives its result is the mathematical one exactly when input size plus twice the padding is an int. For tensors of shapes the library can make (positive dimensions, at most INT_MAX elements), forward, backward and the parameter gradients of every layer give exactly the results of unbounded arithmetic; of Convolution and MaxPooling if also the position behind the last window is an int (for kernels that fit the padded image it is, if padded size plus stride is) and the unfolded windows, for Convolution those of the whole batch, have at most INT_MAX elements, and for MaxPooling if a window has at most 2^24 elements. So a whole model whose layers all have this room computes, through any history of forward and backward passes, changes of mode and optimizer steps, exactly what it would with unbounded integers. Beyond these bounds forward is undefined behaviour although all tensors the user sees are within the limits: for batches whose unfolded windows are too many, and for large strides even if only one window is looked at; positions of maxima above 2^24 are recorded wrongly.", "quantifier": "every layer, geometry, shape, tensor content, parameter value and gradient memory; every constructed model and every history of calls on it", "why_tests_cant": "The bounds are reached with gigabytes of data or extreme attributes, and overflow need not show in a test.", "anchors": ["src/expression/nn.cpp: MaxPooling::outShape, Convolution::outShape", "src/runtime/cpu/kernels/kernels.cpp: im2col, col2im, CPUConvolutionalForward, CPUConvolutionalInputGrad, CPUMaxPoolingForward, CPUMaxPoolingInputGrad", "src/runtime/cpu/layers/cpuconvolution.cpp", "src/runtime/cpu/layers/cpumaxpooling.cpp", "src/runtime/tensor.cpp: Tensor, init"]}
{"id": "C70", "title": "Momentum and Adam in floats: bounds over any number of steps, and what never recovers", "statement": "All numbers are IEEE 754 32-bit floats, rounded in any direction, and products may or may not be rounded before they are added. One step of SGDMomentum gives a velocity near gamma*v + lr*g and a weight near w - v', with the stated errors. Over any number of steps with gradients up to G and |gamma| at most 1 - 2^-10, velocities that start at zero are finite and never exceed 2|lr|G/(1-|gamma|), but for 2^-100, and the weights are finite as long as adding that much at every step is. One step of Adam gives averages near beta*old + (1-beta)*new and a weight near the exact one for these averages: its change has a relative error of 14 units of 2^-23. With Adam moving means and variances that start at zero keep bounds that one step keeps, variances never become negative, and weights are finite as long as the largest possible change at every step is; the numbers 1 - pow(beta, t) are any floats between a positive bound and 1. Nothing recovers: a weight that is infinite or NaN stays infinite or NaN with SGD, SGDMomentum and Adam whatever follows, and one infinite or NaN gradient makes it so with SGD and SGDMomentum, the velocity too. With Adam a weight whose moving variance has become infinite is never changed again by any finite gradients, and nothing is reported; one finite gradient of 2^76 is enough.", "quantifier": "all weights, velocities, moving averages and gradients, all sequences of gradients of any length, all roundings of every operation", "why_tests_cant": "Universal over unbounded histories of steps and over roundings; large gradients do not occur in tests.", "anchors": ["src/optimizer.cpp: SGD::step, SGDMomentum::step, Adam::step"]}
{"id": "C71", "title": "Gradients of dense networks with any activations in floats, and units that learn nothing", "statement": "All numbers are IEEE 754 32-bit floats, rounded in any direction; sums are added in any order. In networks of Linear layers with ReLU, LeakyReLU, ELU, Sigmoid or nothing between them, of any depth and widths, backward gives finite gradients for all weights and biases, near the exact ones by the chain rule at the same activations, if the gradient of the output is finite and bounds carried through the layers by widths, weights and slopes stay below the largest float (for ELU, inputs from -65 on); the error bounds follow from the same quantities. With Softmax and cross entropy at the end and logits of the labels at most 60 below the largest, this holds from the loss on. It also means that saturated units learn nothing: if for all samples of a batch a unit's Sigmoid has been rounded to 0 or 1, or its ReLU was inactive, the gradients of the weights and bias behind it are exactly zero, however wrong the network is, and SGD leaves them as they are.", "quantifier": "all numbers of layers, widths, activations and slopes, batch sizes, weights, activations and output gradients, all roundings of every operation and all orders of every sum, all exp functions within the stated accuracy", "why_tests_cant": "Universal over depths, widths, values and roundings; tests compare a few small layers with another implementation up to a tolerance.", "anchors": ["src/runtime/cpu/kernels/kernels.cpp: CPUReLUInputGrad, CPULeakyReLUInputGrad, CPUELUInputGrad, CPUSigmoidInputGrad, CPULinearInputGrad, CPULinearWeightGrad, CPULinearBiasGrad", "src/runtime/cpu/cpubackend.cpp: backward", "src/runtime/cpu/layers/cpulinear.cpp: backward, updateGradients", "src/loss.cpp: CrossEntropyLoss::backward"]}
{"id": "C72", "title": "Training dense classifiers in floats stays finite over any number of iterations", "statement": "All numbers are IEEE 754 32-bit floats, rounded in any direction; sums are added in any order. A classifier of Linear layers with ReLU, LeakyReLU, ELU, Sigmoid or nothing between them, Softmax and cross entropy is trained with SGD on any sequence of batches with inputs up to A. If weights and biases begin with at most W0 and there is room for weights up to Wb, which means that bounds carried forward and backward through the layers stay below the largest float and logits within 30, then after any number of iterations for which the bound on weights, which grows at each by the largest possible step, is still at most Wb, all weights and biases are finite and within that bound, and the loss of every batch on the way is finite and at most 512. Without a limit on logits the same holds until a confident mistake, a label whose logit is more than 60 below the largest of its sample. In iterations without one the new weights are near those of a step along the exact gradient of the loss, by the chain rule, at the activations of the forward pass, with a stated error. The same holds with SGDMomentum: velocities that begin at zero stay within 2|lr|G/(1-|gamma|), but for 2^-100, G being the bound on gradients, the bound on weights grows by that much at each iteration, and each iteration computes gamma*v + lr*g and w - v' but for stated errors. Training never recovers: a weight, bias or velocity that is infinite or NaN stays so whatever batches follow. For up to 2^22 iterations the bounds on weights are at most twice the initial one plus the sum of the steps (doubled, for SGD).", "quantifier": "all networks of such layers, depths and widths, slopes, initial weights, learning rates, all sequences of batches of any length, all roundings of every operation and all orders of every sum, all exp and log functions within the stated accuracy", "why_tests_cant": "Universal over unbounded sequences of batches, networks and roundings; a test trains one network for a while on one machine.", "anchors": ["src/runtime/cpu/cpubackend.cpp: forward, backward", "src/runtime/cpu/kernels/kernels.cpp: CPULinearForward, CPUReLUForward, CPULeakyReLUForward, CPUELUForward, CPUSigmoidForward, CPUSoftmaxForward", "src/optimizer.cpp: SGD::step, SGDMomentum::step", "src/loss.cpp: CrossEntropyLoss::forward, CrossEntropyLoss::backward", "samples/mnist/main.cpp: training loop", "samples/iris/main.cpp: training loop"]}
{"id": "C73", "title": "No gradient makes Adam move a weight by more than a fixed multiple of the learning rate", "statement": "In exact arithmetic, if the coefficients satisfy 0 <= beta1 < 1, 0 < beta2 < 1 and beta1^2 < beta2 and epsilon is positive, then after any history of steps, frozen parameters and changes of the learning rate the next step moves no weight by more than the learning rate times (1-beta1)/(1-beta1^t) * sqrt((1-beta2^t)/((1-beta2)(1-beta1^2/beta2))), however large its gradients are, where t is the number of the step. With the default coefficients this factor is at most 7.3 in every step. Over a whole history a weight moves by at most the sum of the learning rates of its steps times 1/sqrt((1-beta2)(1-beta1^2/beta2)). Multiplying all gradients and epsilon by the same positive number changes no weight. Findings: one large gradient after many zero ones moves a weight by more than three times the learning rate, while a constant gradient moves it by less than once; and with coefficients 0.9 and 0.5, which the constructor accepts, steps have no such bound.", "quantifier": "all parameters, initial counters, learning rates, coefficients in the stated range, gradients and histories of any length", "why_tests_cant": "Universal over unbounded histories and gradients of any size; a test observes a few steps.", "anchors": ["src/optimizer.cpp: Adam::Adam, Adam::step, Adam::set_lr", "include/deepworks/optimizer.hpp: Adam"]}
{"id": "C74", "title": "Training a one-layer classifier does nearly as well as any fixed weights and learns separable samples", "statement": "In exact arithmetic, a classifier of one Linear layer and Softmax is trained with cross entropy and SGD on any sequence of batches whose samples have norm at most A. The losses of the iterations, added up, exceed the losses of any fixed weights and biases on the same batches by at most their squared distance from the initial ones over twice the learning rate, plus the learning rate times 1 + A^2 for each iteration. An iteration moves the weights closer to all weights whose loss on the batch is smaller by more than the learning rate times 1 + A^2. The stored gradients bound the loss of all other weights from below, and where all gradients are zero no weights have a smaller loss. With a learning rate of at most 1 / (9 (1 + A^2)) an iteration lowers the loss of its batch by at least 8/9 of the learning rate times the sum of the squared gradients, and T iterations on one batch bring its loss down to that of any other weights plus a constant divided by T. With such a learning rate the losses of the iterations on any sequence of batches, added up, are at most 16/7 of those of any fixed weights plus a constant that does not depend on the number of iterations. If some weights give the class of every sample of the batch the strictly largest score, enough iterations on it reach an accuracy of 1 and all further ones keep it. If they do so by a common margin for all batches, the average loss over any long enough sequence of such batches falls below any positive number. With batches of bounded size the share of iterations that misclassify a sample of their batch does so too.", "quantifier": "all numbers of classes and features, batch sizes, sequences of batches of any length, labels, initial weights, learning rates and weights to compare with", "why_tests_cant": "Universal over all weights to compare with and over unbounded sequences of batches; a test trains once.", "anchors": ["samples/iris/main.cpp: training loop", "samples/mnist/main.cpp: training loop", "src/runtime/cpu/layers/cpulinear.cpp", "src/runtime/cpu/layers/cpusoftmax.cpp", "src/loss.cpp: CrossEntropyLoss", "src/optimizer.cpp: SGD::step"]}

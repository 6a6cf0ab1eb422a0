{"id": "C01", "title": "Element addressing is a bijection onto storage", "statement": "For a matrix of any size, the in-range triples (x,y,z) correspond one-to-one to the stored elements: writing one element through operator() makes that element read back as written, leaves every other element, the dimensions and the element count unchanged, and never touches memory outside the matrix.", "quantifier": "all dimensions, all element types and values, all pairs of in-range indices", "why_tests_cant": "Only a handful of shapes and indices can be tried; aliasing of two indices can occur at any shape.", "anchors": ["src/SimpleMatrix.tpp: getIndex, operator()", "include/cnn_from_scratch/Matrix/SimpleMatrix.h: operator[]", "include/cnn_from_scratch/Matrix/dim.h: getFlatIdx, size"]}
{"id": "C02", "title": "Row-by-row entry of values", "statement": "Building a matrix from a list of values (or calling setEntries) places value number l*X*Y + r*Y + c at row r, column c, layer l; if the number of values differs from the element count a size exception is raised and the matrix keeps its previous contents.", "quantifier": "all dimensions, all value lists of any length", "why_tests_cant": "Tests cover two shapes; the transposition from row order to column storage can fail only on non-square or deep shapes.", "anchors": ["src/SimpleMatrix.tpp: setEntries, SimpleMatrix(dim3, std::vector<T>&&)"]}
{"id": "C03", "title": "Iteration visits every element exactly once", "statement": "Iterating a matrix, view or expression from begin() to end() yields exactly size() positions, each in-range index exactly once, in column-major order (first index fastest); it.idx() is the index of the element returned by *it; and the distance from begin() to any visited position is its storage position.", "quantifier": "all dimensions, including dimensions with zeros", "why_tests_cant": "An off-by-one carry in the iterator shows only at particular shapes; empty shapes are unbounded in number.", "anchors": ["include/cnn_from_scratch/Matrix/dim.h: DimIterator", "include/cnn_from_scratch/Matrix/MatrixIterator.h", "include/cnn_from_scratch/Matrix/SubMatrixView.h: begin, end"]}
{"id": "C04", "title": "Reshape only relabels", "statement": "reshape succeeds exactly when the element count is unchanged; it then changes only the dimensions (the storage order of the elements is kept, and reshaping back restores the matrix), otherwise it raises a transform exception and changes nothing.", "quantifier": "all matrices and all target dimensions", "why_tests_cant": "Infinite family of shapes.", "anchors": ["src/SimpleMatrix.tpp: reshape"]}
{"id": "C05", "title": "Size and storage stay consistent over every history", "statement": "After any sequence of matrix operations (construction, element writes, setEntries, vector assignment, resize, reshape, assignment from another matrix or expression, compound assignment, sub-view writes, moves), size() equals the number of stored elements, even when some of the operations raised an exception.", "quantifier": "all finite histories of operations with any arguments", "why_tests_cant": "Histories are unbounded.", "anchors": ["src/SimpleMatrix.tpp", "include/cnn_from_scratch/Matrix/SimpleMatrix.h", "src/SubMatrixView.tpp", "include/cnn_from_scratch/Matrix/MatrixMath.h"]}
{"id": "C06", "title": "Resizing keeps a storage prefix", "statement": "resize(x,y,z) gives a matrix of exactly those dimensions whose storage is the old storage cut off or extended by zero values; growing only the depth therefore keeps every element at its index.", "quantifier": "all matrices and all target dimensions", "why_tests_cant": "Infinite family of shapes.", "anchors": ["src/SimpleMatrix.tpp: resize"]}
{"id": "C07", "title": "Moving a matrix transfers it and empties the source", "statement": "Move construction or assignment gives the destination exactly the source's dimensions and elements and leaves the source as an empty 0x0x0 matrix that can be used again.", "quantifier": "all matrices", "why_tests_cant": "All shapes.", "anchors": ["include/cnn_from_scratch/Matrix/dim.h: Dim(Dim&&), operator=(Dim&&)", "include/cnn_from_scratch/Matrix/SimpleMatrix.h: move constructor"]}
{"id": "C08", "title": "A sub-matrix view is created exactly when the region fits", "statement": "Creating a view of a region of a matrix (or of another view) succeeds if and only if the whole region lies inside the matrix (and inside that view); otherwise a size exception is raised.", "quantifier": "all parents, all start indices and sizes, all nesting depths", "why_tests_cant": "Boundary conditions in three axes for all sizes.", "anchors": ["include/cnn_from_scratch/Matrix/SubMatrixView.h: SubMatrixView constructors", "src/SimpleMatrix.tpp: subMatView, slices, slice", "src/SubMatrixView.tpp: slices, slice"]}
{"id": "C09", "title": "A view reads and writes exactly its region", "statement": "Element i of a view is element start+i of the parent (starts add up for nested views); filling or assigning through the view makes the view's elements equal to the assigned values and leaves every parent element outside the region, and the parent's dimensions, unchanged.", "quantifier": "all parents, regions, nesting and right-hand sides not reading the parent", "why_tests_cant": "A write one cell outside the region is visible only for particular strides/regions.", "anchors": ["src/SubMatrixView.tpp: operator(), operator=", "include/cnn_from_scratch/Matrix/SubMatrixView.h"]}
{"id": "C10", "title": "Checked view access rejects every index outside the view", "statement": "SubMatrixView::at returns the element for an index inside the view and raises out_of_range for every other index.", "quantifier": "all views and all integer indices", "why_tests_cant": "All indices including negative ones.", "anchors": ["src/SubMatrixView.tpp: at"]}
{"id": "C11", "title": "Assigning an expression to a matrix it mentions", "statement": "Assigning (or compound-assigning) to a matrix an expression that reads the same matrix gives the value the expression had before the assignment.", "quantifier": "all expressions and matrices", "why_tests_cant": "Lazy evaluation makes the outcome depend on which cells are read after being written; this differs per expression and shape.", "anchors": ["src/SimpleMatrix.tpp: operator=(MatrixType&&)", "include/cnn_from_scratch/Matrix/MatrixMath.h: expression templates, operator+= ..", "src/Layers/Kernel.cpp: getdLdX (dLdX = dLdX + filter_gradient)"]}
{"id": "C12", "title": "Copying between overlapping regions of one matrix", "statement": "Assigning one view of a matrix to another view of the same matrix gives the destination the values the source had before the assignment.", "quantifier": "all pairs of equally sized regions of one matrix", "why_tests_cant": "Overlap patterns are unbounded.", "anchors": ["src/SubMatrixView.tpp: operator=(const SubMatrixView<T>&)"]}
{"id": "C13", "title": "Scaling a matrix by one of its own elements", "statement": "M op= s applies the value s had at the call to every element, also when s is a reference to an element of M.", "quantifier": "all matrices, all operators, all scalars including references into the matrix", "why_tests_cant": "Aliasing between the scalar argument and the matrix.", "anchors": ["include/cnn_from_scratch/Matrix/MatrixMath.h: operator+=, -=, *=, /= (Scalar)"]}
{"id": "C14", "title": "Element-wise expressions of any depth evaluate pointwise", "statement": "Any expression built from matrices, views, scalars, element-wise operators, abs/apply and transposes has, at each index, the value obtained by applying the operators to the operands' elements at that index; it raises a size exception exactly when two operands of an element-wise operator differ in dimensions; and converting it to a matrix stores exactly these values.", "quantifier": "all expression trees, shapes and element types", "why_tests_cant": "Expression trees are unbounded.", "anchors": ["include/cnn_from_scratch/Matrix/MatrixMath.h: ElementWiseMatrixOperationResult, ScalarOperationResult, UnaryOperationResult", "src/SimpleMatrix.tpp: SimpleMatrix(MatrixType&&)"]}
{"id": "C15", "title": "Matrix multiplication", "statement": "matrixMultiply(A,B) raises a size exception exactly when inner dimensions or depths differ; otherwise every layer of the result is the mathematical matrix product of the corresponding layers, and multiplication is associative and transposes as (AB)^T = B^T A^T.", "quantifier": "all shapes and contents, lvalue and temporary operands", "why_tests_cant": "All shapes; the outcome for temporaries depends on an evaluation order no test can force.", "anchors": ["include/cnn_from_scratch/Matrix/MatrixMath.h: matrixMultiply, GeneralMatrixOperationResult"]}
{"id": "C16", "title": "Transposition", "statement": "transpose(M) has first and second dimension swapped and element (i,j,k) equal to element (j,i,k) of M; transposing twice gives M back. This holds whether M is a named matrix or a temporary.", "quantifier": "all shapes, contents and value categories", "why_tests_cant": "All shapes; reading an operand after it was moved from.", "anchors": ["include/cnn_from_scratch/Matrix/MatrixMath.h: transpose"]}
{"id": "C17", "title": "Rotation", "statement": "rotate<n>(M) is the rotation of each layer of a square matrix by n quarter turns (rotations compose by adding quarter turns modulo four, so rotate<1> after rotate<3> and rotate<2> twice are the identity); a non-square matrix raises a transform exception.", "quantifier": "all square and non-square matrices, n = 1,2,3", "why_tests_cant": "All sizes.", "anchors": ["include/cnn_from_scratch/Matrix/MatrixMath.h: rotate"]}
{"id": "C18", "title": "Convolution", "statement": "convolve(A,B) of two flat matrices with unit stride and B no larger than A has dimensions A-B+1 and each element is the sum over B of B(i) * A(position+i); no element outside A or B is read. With stride s, element p is taken at position s*p and still nothing outside A is read.", "quantifier": "all shapes with B inside A, all strides", "why_tests_cant": "All shapes and strides; out-of-range reads may go unnoticed in a test.", "anchors": ["include/cnn_from_scratch/Matrix/MatrixMath.h: convolve"]}
{"id": "C19", "title": "Dot product", "statement": "dot(a,b) of two row/column vectors with the same number of elements is the sum of the products of their elements, and any other shapes raise a size exception.", "quantifier": "all vectors of any element type", "why_tests_cant": "Truncation depends on the element values.", "anchors": ["include/cnn_from_scratch/Matrix/MatrixMath.h: dot"]}
{"id": "C20", "title": "Reductions: sum and mean", "statement": "sum(M) is the sum of all elements (in storage order) and mean(M) is the sum divided by the number of elements.", "quantifier": "all matrices of any element type", "why_tests_cant": "All contents; signed/unsigned mixing appears only for some values.", "anchors": ["include/cnn_from_scratch/Matrix/MatrixMath.h: sum, mean"]}
{"id": "C21", "title": "Reductions: extrema and their positions", "statement": "max/min return the largest/smallest element of a non-empty matrix, maxIndex/minIndex the index of the first such element in storage order; member and free versions agree.", "quantifier": "all non-empty matrices over a totally ordered element type", "why_tests_cant": "All contents and tie patterns.", "anchors": ["include/cnn_from_scratch/Matrix/MatrixMath.h: max, min, minIndex, maxIndex", "src/SimpleMatrix.tpp: minIndex, maxIndex"]}
{"id": "C22", "title": "Matrix comparison", "statement": "matrixEqual returns true exactly when dimensions agree and all elements agree (within eps for the tolerant version); it is reflexive and symmetric.", "quantifier": "all pairs of matrices", "why_tests_cant": "All contents.", "anchors": ["include/cnn_from_scratch/Matrix/MatrixMath.h: matrixEqual"]}
{"id": "C23", "title": "Convolution layer forward pass", "statement": "For an input with the layer's channel count and at least the filter size, the output has (X-fx+1, Y-fy+1, filters) and element (x,y,f) is bias f plus the sum over channels and filter positions of weight * input; an input with another channel count raises a layer exception. No memory outside the matrices is accessed for any input.", "quantifier": "all layer sizes, weights, strides and inputs of any shape", "why_tests_cant": "All sizes, including inputs smaller than the filter.", "anchors": ["src/Layers/Kernel.cpp: propagateForward, outputSize, checkSize"]}
{"id": "C24", "title": "Convolution layer weight gradient is exact", "statement": "The weight gradient computed for an input and an output gradient is the derivative of the loss with respect to every weight.", "quantifier": "all sizes, weights, inputs and output gradients", "why_tests_cant": "Numerical spot checks cover one 3x3 case.", "anchors": ["src/Layers/Kernel.cpp: getdLdW"]}
{"id": "C25", "title": "Convolution layer input gradient is exact", "statement": "The input gradient computed by the layer is the derivative of the loss with respect to every input element, for every input shape accepted in the forward pass.", "quantifier": "all sizes, weights, inputs and output gradients, square or not", "why_tests_cant": "One square case is tested.", "anchors": ["src/Layers/Kernel.cpp: getdLdX, padInput", "include/cnn_from_scratch/Matrix/MatrixMath.h: rotate"]}
{"id": "C26", "title": "Convolution layer bias gradient is exact", "statement": "The bias gradient of filter f is the sum of the output gradient over output channel f, i.e. the derivative of the loss with respect to bias f.", "quantifier": "all sizes and output gradients", "why_tests_cant": "No test exists.", "anchors": ["src/Layers/Kernel.cpp: getdLdB"]}
{"id": "C27", "title": "Fully connected layer forward pass", "statement": "The output is the column vector W * v + b where v is the input flattened in storage order; the first input fixes the accepted element count, and any later input with another element count raises a layer exception without changing weights or biases.", "quantifier": "all sizes, inputs and histories of calls", "why_tests_cant": "Histories and sizes unbounded.", "anchors": ["src/Layers/ConnectedLayer.cpp: propagateForward, checkSize"]}
{"id": "C28", "title": "Fully connected layer gradients are exact", "statement": "Weight, bias and input gradients are the derivatives of the loss with respect to each weight, bias and input element, and the input gradient has the shape of the input that was propagated.", "quantifier": "all sizes, weights, inputs (of any accepted shape) and output gradients", "why_tests_cant": "All shapes; no test exists.", "anchors": ["src/Layers/ConnectedLayer.cpp: getdLdW, getdLdX, getdLdB, propagateBackward"]}
{"id": "C29", "title": "Fresh parameters are normalised", "statement": "After construction (convolution) or the first input (fully connected) every weight and bias is a finite non-zero number in [-1,1] and the weight and bias vectors each have Euclidean norm one.", "quantifier": "all sequences of random numbers the generator can return", "why_tests_cant": "Random.", "anchors": ["src/Layers/Kernel.cpp: Kernel", "src/Layers/ConnectedLayer.cpp: checkSize", "include/cnn_from_scratch/Matrix/MatrixMath.h: l2Norm"]}
{"id": "C30", "title": "Pooling windows tile inside the input", "statement": "The output size is the number of stride positions at which the pool fits, in each axis; every window lies inside the input, so for an input at least as large as the pool the pass neither throws nor reads outside.", "quantifier": "all pool sizes, strides >= 1 and input shapes", "why_tests_cant": "All shapes and strides.", "anchors": ["src/Layers/Pooling.cpp: outputSize, propagateForward"]}
{"id": "C31", "title": "Pooling values", "statement": "Max (min, average) pooling gives at each output position the maximum (minimum, mean) of its window, per channel.", "quantifier": "all inputs, pool sizes, strides", "why_tests_cant": "All contents.", "anchors": ["src/Layers/Pooling.cpp: propagateForward"]}
{"id": "C32", "title": "Max/min pooling gradient goes to the selected element", "statement": "The input gradient of max/min pooling is, at each input element, the sum of the output gradients of the windows whose first extremal element it is, and zero elsewhere; its total equals the total of the output gradient; results stored for another batch slot or an earlier pass have no influence.", "quantifier": "all inputs, pool sizes, strides (overlapping windows included), histories of passes and batch slots", "why_tests_cant": "All contents, ties, overlaps, histories.", "anchors": ["src/Layers/Pooling.cpp: propagateForward, getdLdX"]}
{"id": "C33", "title": "Average pooling gradient is exact", "statement": "The input gradient of average pooling is the derivative of the loss with respect to every input element (each output gradient divided by the pool area, added over all windows containing the element).", "quantifier": "all inputs, pool sizes, strides", "why_tests_cant": "No test exists.", "anchors": ["src/Layers/Pooling.cpp: getdLdX"]}
{"id": "C34", "title": "Pooling rejects an input smaller than the pool", "statement": "If the input is smaller than the pool in some axis the pass raises an exception instead of reading outside the input.", "quantifier": "all pool sizes, strides >= 1 and smaller inputs", "why_tests_cant": "All shapes.", "anchors": ["src/Layers/Pooling.cpp: propagateForward", "include/cnn_from_scratch/Matrix/SubMatrixView.h"]}
{"id": "C35", "title": "Activation forward pass", "statement": "The output has the input's shape and each element is the selected function of the input element; relu is non-negative, sigmoid lies in (0,1), tanh in (-1,1), all are monotone.", "quantifier": "all real inputs, shapes and activation kinds", "why_tests_cant": "All reals.", "anchors": ["src/Layers/Activation.cpp"]}
{"id": "C36", "title": "Activation backward pass is the derivative", "statement": "Back-propagation through an activation layer multiplies each output gradient by the derivative of the activation function at the corresponding input.", "quantifier": "all activation kinds, inputs and gradients", "why_tests_cant": "Tests call activationGradient on the input, never through the backward pass that receives the output.", "anchors": ["src/Layers/Activation.cpp: propagateBackward, activationGradient", "src/ModelDescription.tpp: backwardsPropagation"]}
{"id": "C37", "title": "Activation names", "statement": "Converting an activation kind to text and back gives the same kind, different kinds have different texts, and any other text is rejected with a runtime error.", "quantifier": "all kinds, all strings", "why_tests_cant": "All strings.", "anchors": ["include/cnn_from_scratch/Layers/Activation.h: toString, fromString"]}
{"id": "C38", "title": "Softmax output is a probability distribution", "statement": "For every non-empty input vector all outputs are in (0,1], sum to one, keep the order of the inputs, do not change when a constant is added to all inputs, and no intermediate exponential exceeds one.", "quantifier": "all input vectors of any length", "why_tests_cant": "All reals.", "anchors": ["src/Layers/Softmax.cpp: softMax, propagateForward"]}
{"id": "C39", "title": "Softmax backward pass is the cross-entropy gradient", "statement": "The gradient returned is the derivative of -ln(output of the true label) with respect to every input, and its elements sum to zero.", "quantifier": "all input vectors and labels", "why_tests_cant": "All reals.", "anchors": ["src/Layers/Softmax.cpp: getdLdX, propagateBackward"]}
{"id": "C40", "title": "Softmax label protocol", "statement": "Back-propagation before any true label was assigned raises a layer exception; assigning a label index not below the label count raises out_of_range and keeps the previous label; otherwise the most recently assigned label is used. An input that is not a vector with one element per label is rejected.", "quantifier": "all histories of label assignments and passes", "why_tests_cant": "Histories unbounded.", "anchors": ["src/Layers/Softmax.cpp: assignTrueLabel, propagateBackward, checkSize, propagateForward"]}
{"id": "C41", "title": "Loss function", "statement": "The loss is finite and non-negative for every probability in [0,1], at most log2(100000), decreasing in the probability of the true label, and zero exactly when that probability is at least 1 - 1e-5.", "quantifier": "all probability vectors and labels", "why_tests_cant": "All reals.", "anchors": ["src/ModelDescription.tpp: lossFcn"]}
{"id": "C42", "title": "Back-propagated gradient is the gradient of the reported loss", "statement": "The gradient that starts back-propagation is the derivative of the value reported as loss.", "quantifier": "all probability vectors and labels", "why_tests_cant": "All reals.", "anchors": ["src/ModelDescription.tpp: lossFcn, backwardsPropagation", "src/Layers/Softmax.cpp: getdLdX"]}
{"id": "C43", "title": "Batch update is the averaged gradient step", "statement": "Applying a batch replaces every weight w by w - rate * (mean over the batch slots of the stored gradients) and likewise for biases; shapes are unchanged and a rate of zero changes nothing; a slot whose gradient has another shape raises a size exception.", "quantifier": "all layer sizes, batch sizes >= 1, rates and stored gradients", "why_tests_cant": "All contents.", "anchors": ["src/Layers/Kernel.cpp: applyBatch", "src/Layers/ConnectedLayer.cpp: applyBatch"]}
{"id": "C44", "title": "Back-propagation through a whole network is the gradient", "statement": "For a network of convolution, pooling, fully connected and activation layers ending in softmax, the weight and bias gradients stored by a forward pass followed by a backward pass are the partial derivatives of -ln(probability of the true label) with respect to each parameter of each layer, for every depth.", "quantifier": "all networks of any depth whose layers are differentiable at the point, all parameters and inputs", "why_tests_cant": "Depth, sizes and values unbounded.", "anchors": ["src/ModelDescription.tpp: forwardPropagation, backwardsPropagation", "src/Layers/*.cpp"]}
{"id": "C45", "title": "A training step is a descent step", "statement": "Along the batch update, the derivative of the batch loss with respect to the learning rate at rate zero is minus the squared norm of the averaged gradient; hence a small enough rate never increases the loss to first order.", "quantifier": "all layers and stored gradients", "why_tests_cant": "All contents.", "anchors": ["src/Layers/Kernel.cpp: applyBatch", "src/Layers/ConnectedLayer.cpp: applyBatch", "src/ModelDescription.tpp"]}
{"id": "C46", "title": "Forward propagation result", "statement": "The result holds one recorded matrix per layer plus the input; label_idx is the first index of the largest output, confidence is that output and is at least 1/(number of labels); weights and biases are unchanged by a pass.", "quantifier": "all networks and inputs", "why_tests_cant": "All.", "anchors": ["src/ModelDescription.tpp: forwardPropagation"]}
{"id": "C47", "title": "A label outside the label set is rejected safely", "statement": "Back-propagating with a label that is not one of the output labels raises an exception without reading outside any matrix and without changing the stored gradients.", "quantifier": "all networks, results and labels", "why_tests_cant": "All labels.", "anchors": ["src/ModelDescription.tpp: assignLoss, backwardsPropagation, lossFcn"]}
{"id": "C48", "title": "Layer names are unique", "statement": "In every sequence of addKernel/addPooling/addConnectedLayer/addActivation/setOutputLabels calls that sets the output labels once, all layers have different names and layers keep their insertion order.", "quantifier": "all build histories", "why_tests_cant": "Histories unbounded.", "anchors": ["src/ModelDescription.tpp: addKernel, addPooling, addConnectedLayer, addActivation, setOutputLabels"]}
{"id": "C49", "title": "Work split covers each batch slot once", "statement": "The index ranges given to the worker threads are disjoint and together cover exactly the slots 0..batch_size-1.", "quantifier": "all batch sizes and thread counts", "why_tests_cant": "All pairs of numbers; rounding of the float division.", "anchors": ["src/ModelDescription.tpp: runEpoch"]}
{"id": "C50", "title": "Float ceilings are exact", "statement": "The float-based computations of work per thread, number of batches and pooled size equal the exact integer ceiling.", "quantifier": "all non-negative numerators and positive denominators representable in the API", "why_tests_cant": "Rounding errors occur only for some large values.", "anchors": ["src/ModelDescription.tpp: runEpoch", "src/Layers/Pooling.cpp: outputSize"]}
{"id": "C51", "title": "Every data point is used exactly once per epoch", "statement": "In every interleaving of the worker threads, an epoch takes every data point from the source exactly once, writes each batch slot from at most one thread, and terminates without deadlock.", "quantifier": "all schedules, batch sizes, thread counts and data set sizes", "why_tests_cant": "Schedules.", "anchors": ["src/ModelDescription.tpp: runEpoch"]}
{"id": "C52", "title": "Reported success count", "statement": "The number of successes counted for a batch equals the number of its data points whose predicted label index equals the true label index, in every interleaving.", "quantifier": "all schedules", "why_tests_cant": "Schedules.", "anchors": ["src/ModelDescription.tpp: runEpoch"]}
{"id": "C53", "title": "Gradients use the data point's own label", "statement": "In every interleaving of the worker threads, the gradient stored for a data point is computed from that data point's own label.", "quantifier": "all schedules", "why_tests_cant": "Races.", "anchors": ["src/ModelDescription.tpp: runEpoch, backwardsPropagation", "src/Layers/Softmax.cpp: assignTrueLabel, propagateBackward"]}
{"id": "C54", "title": "Batch update does not depend on thread scheduling", "statement": "For a full batch the parameters after the update are the same (in exact arithmetic) for all interleavings in which no two label hand-overs overlap, and equal to those of a single thread.", "quantifier": "all schedules", "why_tests_cant": "Schedules.", "anchors": ["src/ModelDescription.tpp: runEpoch", "src/Layers/Kernel.cpp: applyBatch", "src/Layers/ConnectedLayer.cpp: applyBatch"]}
{"id": "C55", "title": "A partial batch averages only its own data", "statement": "The update made after a batch is the average over the data points of that batch, also when fewer data points than the batch size remain.", "quantifier": "all data set sizes and batch sizes", "why_tests_cant": "Depends on history of earlier batches.", "anchors": ["src/ModelDescription.tpp: runEpoch, train", "src/Layers/Kernel.cpp: applyBatch, setBatchSize", "src/Layers/ConnectedLayer.cpp: applyBatch, setBatchSize"]}
{"id": "C56", "title": "First-use initialisation is safe under concurrency", "statement": "When several threads propagate the first inputs through a fully connected layer, every thread uses the initialised weights.", "quantifier": "all schedules", "why_tests_cant": "Schedules.", "anchors": ["src/Layers/ConnectedLayer.cpp: checkSize, propagateForward", "src/ModelDescription.tpp: runEpoch"]}
{"id": "C57", "title": "Matrix text round-trip", "statement": "Reading back a matrix that was written gives the same dimensions and every element within half a millionth of the original, consumes exactly the written text, and writing the result again produces the same text.", "quantifier": "all matrices of finite values, any following text", "why_tests_cant": "All shapes and values.", "anchors": ["src/SimpleMatrix.tpp: serialize, deserialize"]}
{"id": "C58", "title": "Label/value lines round-trip", "statement": "expect is the inverse of place: reading back a placed line yields the value and leaves the stream after the line; any text not starting with the label raises a runtime error.", "quantifier": "all labels, integers and following text", "why_tests_cant": "All values.", "anchors": ["include/cnn_from_scratch/Serialization.h: place, expect"]}
{"id": "C59", "title": "Layer text round-trip", "statement": "Deserialising the text of a layer of the same kind restores the layer's observable behaviour (shape parameters, stride, activation function, weights up to the printed precision).", "quantifier": "all layers", "why_tests_cant": "All layer configurations.", "anchors": ["src/Layers/Kernel.cpp: serialize, deserialize", "src/Layers/Pooling.cpp: serialize, deserialize", "src/Layers/ConnectedLayer.cpp: serialize, deserialize", "src/Layers/Activation.cpp: serialize, deserialize"]}
{"id": "C60", "title": "Model save/load round-trip", "statement": "loadModel on the file written by saveModel returns true and gives a model with the same layers in the same order and the same output labels, up to the printed precision of weights.", "quantifier": "all models", "why_tests_cant": "All architectures.", "anchors": ["src/ModelDescription.tpp: saveModel, loadModel"]}
{"id": "C61", "title": "Loading reports malformed files", "statement": "For every file content, loadModel returns (true or false) without exception or undefined behaviour, and returns true only if the file is a complete model description; a missing file returns false.", "quantifier": "all byte sequences", "why_tests_cant": "All files.", "anchors": ["src/ModelDescription.tpp: loadModel", "src/SimpleMatrix.tpp: deserialize", "include/cnn_from_scratch/Serialization.h"]}
{"id": "C62", "title": "A loaded model can be trained further", "statement": "A loaded model accepts the same training calls as the saved one.", "quantifier": "all models", "why_tests_cant": "All architectures.", "anchors": ["src/Layers/ConnectedLayer.cpp: deserialize, getdLdX"]}
{"id": "C63", "title": "MNIST header and big-endian decoding", "statement": "Opening a well-formed pair of files yields the counts and sizes stored big-endian in their headers; wrong magic numbers or differing counts stop the program.", "quantifier": "all header contents", "why_tests_cant": "All 32-bit values.", "anchors": ["src/MNISTReader.cpp: MNISTReader, read"]}
{"id": "C64", "title": "MNIST images are found at their place", "statement": "getImage(i) returns label byte i and the image whose pixel (r,c) is (byte[16 + i*h*w + r*w + c] - 128)/255; reading sequentially with nextImage gives the same images as random access, in any mixture of calls; an index not below the count raises an error.", "quantifier": "all files, indices and call histories", "why_tests_cant": "Histories unbounded.", "anchors": ["src/MNISTReader.cpp: getImage, nextImage"]}
{"id": "C65", "title": "The training generator yields its announced number of images", "statement": "After construction or reset, the generator yields exactly size() data points, the images 1..n-1 in order, and then reports that no data is available; it never reads past the end.", "quantifier": "all files and histories of calls", "why_tests_cant": "Histories unbounded.", "anchors": ["src/main.cpp: MNistGenerator"]}
{"id": "C66", "title": "Progress bar", "statement": "The bar always has the same total width and shows a percentage between 1 and 100 for every batch number below the number of batches.", "quantifier": "all batch numbers and counts", "why_tests_cant": "All pairs.", "anchors": ["include/cnn_from_scratch/LoadingBar.h: loadingBar"]}
{"id": "C67", "title": "A forward pass never fails", "statement": "For every network whose layer sizes fit together and every input of the right size, forwardPropagation returns normally, records the input of every layer with its size, and the predicted label index is that of a label.", "quantifier": "all networks, inputs, slots and number types, also before the first use", "why_tests_cant": "All architectures and values, infinities and NaN included.", "anchors": ["src/ModelDescription.tpp: forwardPropagation", "src/Layers/Kernel.cpp: propagateForward", "src/Layers/ConnectedLayer.cpp: propagateForward", "src/Layers/Pooling.cpp: propagateForward", "src/Layers/Activation.cpp: propagateForward", "src/Layers/Softmax.cpp: propagateForward"]}
{"id": "C68", "title": "A backward pass after a forward pass never fails", "statement": "For every network whose layer sizes fit together (convolutions after the first layer with square outputs), backwardsPropagation with the result of forwardPropagation returns normally, and the gradients stored in the slot have the sizes of the parameters.", "quantifier": "all networks, inputs, labels, slots and number types", "why_tests_cant": "All architectures and values.", "anchors": ["src/ModelDescription.tpp: forwardPropagation, backwardsPropagation"]}
{"id": "C69", "title": "Training an initialised network never fails", "statement": "In every interleaving, for every number of threads, batch size and number of epochs, training of a network whose layers have been used before on data of the right size ends with a normal return.", "quantifier": "all networks, data sets, hyperparameters and schedules", "why_tests_cant": "Schedules and histories are unbounded.", "anchors": ["src/ModelDescription.tpp: train, runEpoch"]}
{"id": "C70", "title": "Training with one thread never fails", "statement": "With one thread, training of a network whose sizes fit, also a newly built one, on data of the right size ends with a normal return, and all fully connected layers are initialised then.", "quantifier": "all networks, data sets and hyperparameters", "why_tests_cant": "Histories are unbounded.", "anchors": ["src/ModelDescription.tpp: train, runEpoch"]}
{"id": "C71", "title": "The training of the main program never fails", "statement": "For every pair of complete MNIST files with at least one batch of images of 28 rows and columns and digits as labels, the program builds its network and trains it without exception or undefined behaviour.", "quantifier": "all files, random numbers and number types", "why_tests_cant": "All files.", "anchors": ["src/main.cpp: main", "src/ModelDescription.tpp: train", "src/MNISTReader.cpp"]}
{"id": "C72", "title": "Validation never fails", "statement": "For every network whose sizes fit and whose layers have been used before, and every complete pair of test files, the validation with any number of threads ends without exception or undefined behaviour in every interleaving.", "quantifier": "all networks, files, numbers of threads, schedules and number types", "why_tests_cant": "Schedules and files are unbounded.", "anchors": ["src/main.cpp: validate", "src/ModelDescription.tpp: forwardPropagation", "src/MNISTReader.cpp: getImage"]}
{"id": "C73", "title": "Validation always ends", "statement": "The threads of the validation never block each other for ever, and every execution has a bounded number of steps.", "quantifier": "all networks, files, numbers of threads and schedules", "why_tests_cant": "Schedules are unbounded.", "anchors": ["src/main.cpp: validate"]}
{"id": "C74", "title": "Validation counts the recognised images", "statement": "In every interleaving the count is the number of test images for which the label found by forwardPropagation, run without threads, is the label of the image; the parameters of the model are not changed.", "quantifier": "all networks, files, numbers of threads and schedules", "why_tests_cant": "Schedules are unbounded; a lost or doubled image shows rarely.", "anchors": ["src/main.cpp: validate", "src/ModelDescription.tpp: forwardPropagation"]}
{"id": "C75", "title": "Validation has no data races", "statement": "No two threads of the validation can access the same memory at the same time, one of them writing, without synchronisation.", "quantifier": "all schedules", "why_tests_cant": "Races show rarely in tests.", "anchors": ["src/main.cpp: validate", "src/Layers/Pooling.cpp: propagateForward"]}
{"id": "C76", "title": "The printed accuracy is the percentage of recognised images", "statement": "For every count c of n images with c at most n, the printed accuracy is the float nearest to 100 c / n and lies between 0 and 100.", "quantifier": "all counts and numbers of images", "why_tests_cant": "All pairs; the error shows for large counts only.", "anchors": ["src/main.cpp: validate"]}
{"id": "C77", "title": "A sample is an existing image", "statement": "For every value r of rand(), the number of the sample is the integer part of r n / RAND_MAX and the number of one of the n images.", "quantifier": "all values of rand(), of RAND_MAX and numbers of images", "why_tests_cant": "The failing value has probability 1 in 2^31.", "anchors": ["src/main.cpp: validate"]}
{"id": "C78", "title": "An image is printed with the brightness of its values", "statement": "For every image of finite values printImage writes one row per row and one cell per column, with brightness between 0 and 255, larger values at least as bright as smaller ones, the smallest value black and the largest white.", "quantifier": "all images, sizes and values", "why_tests_cant": "All images.", "anchors": ["include/cnn_from_scratch/imageUtil.h: printImage, printImageBWImpl, printImageColorImpl"]}
{"id": "C79", "title": "Samples are printed without failure", "statement": "For every usable network, every complete pair of test files and all values of rand(), the samples are printed without exception or undefined behaviour; each shows the label that forwardPropagation finds for an image, the label of that image and its picture. The parameters of the model do not change.", "quantifier": "all networks, files and random numbers", "why_tests_cant": "The failing value has probability 1 in 2^31.", "anchors": ["src/main.cpp: validate, operator<<", "include/cnn_from_scratch/imageUtil.h", "src/MNISTReader.cpp: getImage", "src/ModelDescription.tpp: forwardPropagation"]}
{"id": "C80", "title": "The whole program", "statement": "For all complete training and test files the program trains its network, counts the recognised test images, prints the count and the samples, saves the trained network if asked to, and returns normally.", "quantifier": "all files, random numbers and number types", "why_tests_cant": "All files and executions.", "anchors": ["src/main.cpp: main, validate", "src/ModelDescription.tpp: train, saveModel", "src/MNISTReader.cpp"]}
{"id": "C81", "title": "The shipped model file can be loaded", "statement": "loadModel returns true for data/trained_model.model_data and yields its six layers and ten labels.", "quantifier": "every text with the first lines of that file", "why_tests_cant": "loadModel is not called by the program or the tests.", "anchors": ["src/ModelDescription.tpp: loadModel", "src/Layers/Kernel.cpp: deserialize", "data/trained_model.model_data"]}
{"id": "C82", "title": "Activation functions of doubles stay in their ranges", "statement": "For every finite double each activation function gives a finite double: at least 0 for relu, between 0 and 1 for sigmoid, between -1 and 1 for tangent, never larger in absolute value than the larger of 1 and the argument; the derivatives lie between 0 and 1; larger arguments do not give smaller results.", "quantifier": "all finite doubles, including those for which exp overflows", "why_tests_cant": "2^64 arguments.", "anchors": ["src/Layers/Activation.cpp: relu, sigmoid, leaky relu, tangent and their gradients"]}
{"id": "C83", "title": "Softmax of doubles gives probabilities", "statement": "For all finite inputs the outputs are doubles between 0 and 1 whose sum differs from 1 by at most 2^-51 for every label; larger inputs do not get smaller probabilities.", "quantifier": "all sizes and finite inputs", "why_tests_cant": "Overflow and rounding depend on the inputs.", "anchors": ["src/Layers/Softmax.cpp: propagateForward"]}
{"id": "C84", "title": "The predicted label belongs to the largest output", "statement": "The label that forwardPropagation selects is the one whose input of the softmax layer is largest.", "quantifier": "all finite inputs", "why_tests_cant": "Rounding ties are rare.", "anchors": ["src/Layers/Softmax.cpp: propagateForward", "src/ModelDescription.tpp: forwardPropagation"]}
{"id": "C85", "title": "No infinity and no NaN in the forward pass", "statement": "If the parameters are at most 2^w and the image at most 2^e in absolute value, and the bounds computed from w, e and the layer sizes stay below 2^127, then all values of the forward pass are finite, within these bounds, and so are the recorded floats; the confidence is the largest probability.", "quantifier": "all networks, parameters and images within the bounds", "why_tests_cant": "All images and parameters.", "anchors": ["src/ModelDescription.tpp: forwardPropagation", "src/Layers/Kernel.cpp: propagateForward", "src/Layers/ConnectedLayer.cpp: propagateForward", "src/Layers/Pooling.cpp: propagateForward"]}
{"id": "C86", "title": "The loss is finite and between 0 and 17", "statement": "For every recorded probability, also 0, the loss is a finite float between 0 and 17, and 0 if the probability is at least 1 - 10^-5.", "quantifier": "all probabilities and labels", "why_tests_cant": "All floats.", "anchors": ["src/ModelDescription.tpp: assignLoss", "src/ModelDescription.tpp: lossFcn"]}
{"id": "C87", "title": "Training has no data races", "statement": "No two worker threads of the training can access the same memory at the same time, one of them writing, without synchronisation.", "quantifier": "all schedules, networks and numbers of threads", "why_tests_cant": "Races show rarely in tests.", "anchors": ["src/ModelDescription.tpp: runEpoch", "src/ModelDescription.tpp: backwardsPropagation", "src/Layers/Softmax.cpp: assignTrueLabel", "src/Layers/ConnectedLayer.cpp: checkSize"]}
{"id": "C88", "title": "No infinity and no NaN in training", "statement": "If the parameters are at most 2^w, the images at most 2^e and the learning rate at most 2^r in absolute value, and the bounds computed from these and the layer sizes stay below 2^127 for forward passes and 2^970 otherwise, then every batch ends with finite parameters and gradients within the computed bounds.", "quantifier": "all networks, parameters, images and schedules within the bounds", "why_tests_cant": "All images, parameters and schedules.", "anchors": ["src/ModelDescription.tpp: backwardsPropagation", "src/ModelDescription.tpp: runEpoch", "src/Layers/Kernel.cpp: propagateBackward, applyBatch", "src/Layers/ConnectedLayer.cpp: propagateBackward, applyBatch"]}
{"id": "C89", "title": "Printed numbers are right up to the last digit", "statement": "For every finite number, precision and notation the text that operator<< writes is a decimal numeral whose value differs from the number by at most half a unit of the last digit that the format keeps, in the form that the format prescribes. For all counts, the accuracy after the validation is written with a relative error of at most 5.3e-6, and every confidence between 0 and 1 with one of at most 5e-6.", "quantifier": "all finite doubles and floats, all precisions, all counts", "why_tests_cant": "2^64 numbers; carries into a new digit are rare.", "anchors": ["src/main.cpp: validate", "src/main.cpp: operator<<", "include/cnn_from_scratch/Matrix/SimpleMatrix.h: operator<<"]}
{"id": "C90", "title": "Matrices are printed as aligned tables", "statement": "For every matrix or expression, operator<< writes one line per row with the cells of every layer in brackets, separated by commas; all cells have the same width and show the element up to two digits after the point (integers exactly) with its sign in the first column.", "quantifier": "all sizes, elements and output streams", "why_tests_cant": "All sizes and values.", "anchors": ["include/cnn_from_scratch/Matrix/SimpleMatrix.h: operator<<"]}
{"id": "C91", "title": "Printing a matrix leaves the format of the stream unchanged", "statement": "After operator<< of a matrix the precision and notation of all streams are as before.", "quantifier": "all matrices, streams and formats", "why_tests_cant": "All formats.", "anchors": ["include/cnn_from_scratch/Matrix/SimpleMatrix.h: operator<<"]}
{"id": "C92", "title": "The accuracy printed after an epoch", "statement": "For every execution of an epoch, with any number of threads, the printed accuracy is the percentage of data points whose recorded result has the label of the data point, with a relative error of at most 5.001e-6; it is 100 if all are recognised.", "quantifier": "all networks, data, schedules and numbers of threads", "why_tests_cant": "All schedules and counts.", "anchors": ["src/ModelDescription.tpp: runEpoch", "src/ModelDescription.tpp: train"]}
{"id": "C93", "title": "Images of bytes are printed with their values", "statement": "For every image of integers, printImage writes one row per row and one cell per column: for three layers the exact colours (larger values as 255), otherwise gray values between 0 and 255 that keep the order and the proportions up to rounding down, with the smallest value black and 255 or more white.", "quantifier": "all images, sizes and values", "why_tests_cant": "All images.", "anchors": ["include/cnn_from_scratch/imageUtil.h: printImage, printImageBWImpl, printImageColorImpl"]}
{"id": "C94", "title": "The norms of all layers are printed", "statement": "For every usable network debugLayerWeights writes, for each layer in order, the square root of the sum of the squares of its weights and of its biases, without failure.", "quantifier": "all networks, parameters and number types", "why_tests_cant": "All networks.", "anchors": ["src/main.cpp: debugLayerWeights", "include/cnn_from_scratch/Matrix/MatrixMath.h: l2Norm"]}
{"id": "C95", "title": "Saved matrices are aligned tables", "statement": "The text of a saved matrix has one line with the three sizes, then for every layer one line per row and an empty line, and nothing else. If all elements are finite and below 99999999.9999995 in absolute value, every such line has 17 characters per column: the element, right aligned in 16 characters, and a blank.", "quantifier": "all sizes, all elements", "why_tests_cant": "All sizes and values.", "anchors": ["src/SimpleMatrix.tpp: serialize"]}
{"id": "C96", "title": "A result with too few recorded matrices is rejected", "statement": "backwardsPropagation with a result that has fewer matrices than the network needs (one more than layers) raises an exception and changes no parameter, gradient or recorded value, only the label of the output layer.", "quantifier": "all results, networks, labels in range and number types", "why_tests_cant": "All networks and results.", "anchors": ["src/ModelDescription.tpp: backwardsPropagation, assignLoss"]}
{"id": "C97", "title": "Runs are reproducible", "statement": "Two runs of train, validate or the main program with the same files, initial numbers and results of rand() give the same parameters, counts, printed text and saved file, apart from the measured time.", "quantifier": "all schedules, networks, files and number types", "why_tests_cant": "Differences in the last digit appear for some schedules only.", "anchors": ["src/ModelDescription.tpp: train, runEpoch", "src/main.cpp: main, validate"]}
{"id": "C98", "title": "Matrices in texts of another layout are loaded", "statement": "SimpleMatrix::deserialize accepts any decimal numerals (sign, point, exponent, any number of digits), any white space between them and any remark at the end of a row, and stores the nearest doubles; if a number is missing, malformed or too large it returns false, and the numbers before it are stored. If a size is missing, malformed or does not fit int it returns false and the matrix is unchanged. A layer whose weights or biases fail in this way returns false too, leaves what comes later unchanged and is not marked as initialised.", "quantifier": "all sizes, numerals, layouts and texts that follow", "why_tests_cant": "The round trip only covers the texts that the program writes.", "anchors": ["src/SimpleMatrix.tpp: deserialize", "include/cnn_from_scratch/Serialization.h: clearLine", "src/Layers/Kernel.cpp: deserialize", "src/Layers/ConnectedLayer.cpp: deserialize"]}
{"id": "C99", "title": "Files that are too short are reported", "statement": "If a data file ends before the number of images its header promises, the images before the end are delivered, and the attempt to read the next one is reported as an error.", "quantifier": "all pairs of files whose headers promise n images and that hold m < n, all learning rates", "why_tests_cant": "The tests read complete files.", "anchors": ["src/MNISTReader.cpp: nextImage, read", "src/main.cpp: MNistGenerator, main"]}
{"id": "C100", "title": "All ways to reach an element agree", "statement": "Below 2^64 elements size() of a dim3 is the number of elements, and getFlatIdx gives every index its own position below it. In a matrix that fits int: the element at the index is the one at that position, dim(k) is the size in direction k, an iterator built from the index has that position, 0 at begin() and the number of elements at end(), an increment adds one, and the difference of two iterators is that of the positions; a view gives the same element for three numbers and for an index, and subMatCopy gives the block, or throws if it is not inside.", "quantifier": "all sizes, indices, views and element types", "why_tests_cant": "Mixed-up directions are hidden in cubes and single layers.", "anchors": ["include/cnn_from_scratch/Matrix/dim.h: size, getFlatIdx", "include/cnn_from_scratch/Matrix/MatrixIterator.h: MatrixIterator, operator-", "src/SimpleMatrix.tpp: dim, subMatCopy", "src/SubMatrixView.tpp: operator()"]}
{"id": "C101", "title": "Rounding errors of sums, layers and updates are small", "statement": "With doubles, every finite element computed by the product and convolution of matrices, sum, mean, the convolution and fully connected layers (outputs and gradients), pooling (averages and gradients) and applyBatch differs from the exact value for the same doubles by at most a small multiple of 2^-52, growing linearly with the number of terms, times the sum of the absolute values of the terms, plus a multiple of 2^-1074. Two orders of the gradients in a batch therefore give nearly, though not exactly, the same parameters.", "quantifier": "all finite results, all sizes", "why_tests_cant": "Errors depend on all inputs together.", "anchors": ["include/cnn_from_scratch/Matrix/MatrixMath.h: matrixMultiply, convolve, sum, mean", "src/Layers/Kernel.cpp: propagateForward, getdLdW, getdLdB, getdLdX, applyBatch", "src/Layers/ConnectedLayer.cpp: propagateForward, getdLdW, getdLdX, applyBatch", "src/Layers/Pooling.cpp: propagateForward, propagateBackward"]}
{"id": "C102", "title": "The forward pass with doubles is close to the exact one", "statement": "If exp and tanh have errors of about one unit in the last place, then every layer computes, from doubles near given real numbers, doubles near the numbers the layer would compute from them with exact arithmetic, with bounds that follow from the sizes of the layers and of the parameters. The probabilities and the label of a whole pass are therefore near those of exact arithmetic; the label is the same if the largest exact output is far enough from the others. The probabilities of the network of main.cpp with initial parameters have errors of at most 2^-15.", "quantifier": "all networks, images and parameters up to given sizes", "why_tests_cant": "Needs a comparison with exact real arithmetic.", "anchors": ["src/Layers/Activation.cpp: the activation functions", "src/Layers/Softmax.cpp: propagateForward", "src/Layers/Kernel.cpp: propagateForward", "src/Layers/ConnectedLayer.cpp: propagateForward", "src/Layers/Pooling.cpp: propagateForward", "src/ModelDescription.tpp: forwardPropagation", "src/main.cpp: main"]}
{"id": "C103", "title": "The gradients computed with doubles are close to the derivatives of the loss", "statement": "Under the assumptions of C102, the gradients that a forward and a backward pass store for all but the first m layers differ from those of exact arithmetic by at most bounds that follow from the sizes, if no sign at a ReLU and no maximum of a window in these layers is so close that rounding may change it. With ReLU and linear activations in these layers the gradients are as close to the derivatives of the loss. The gradients of the fully connected layer of main.cpp, with initial parameters, have errors of at most 2^-6.", "quantifier": "all networks, images, labels, slots and parameters up to given sizes", "why_tests_cant": "Needs a comparison with exact derivatives.", "anchors": ["src/Layers/Activation.cpp: the gradients of the activation functions", "src/Layers/Softmax.cpp: propagateBackward", "src/Layers/Kernel.cpp: propagateBackward", "src/Layers/ConnectedLayer.cpp: propagateBackward", "src/Layers/Pooling.cpp: propagateBackward", "src/ModelDescription.tpp: backwardsPropagation", "src/main.cpp: main"]}
{"id": "C104", "title": "setBatchSize replaces the gradients and nothing else", "statement": "setBatchSize with n >= 0 gives every convolution and fully connected layer n empty gradients, gives every pooling layer n slots and keeps those it has, and changes no parameter, size or other layer. With a negative number the first layer with slots throws length_error: its gradients are gone (a pooling layer keeps its slots), the other layers are unchanged, and every run of train ends that way before an image is read.", "quantifier": "all networks, numbers, number types and runs", "why_tests_cant": "The tests use one batch size.", "anchors": ["src/Layers/Kernel.cpp: setBatchSize", "src/Layers/ConnectedLayer.cpp: setBatchSize", "src/Layers/Pooling.cpp: setBatchSize", "src/ModelDescription.tpp: train"]}
{"id": "C105", "title": "A batch of training with doubles is close to a step of gradient descent", "statement": "Under the assumptions of C103, after a full batch in which no two threads overlap between storing a label and using it, on any number of threads, the new parameters of all but the first m layers differ from those of one exact step of gradient descent from the same parameters by at most |rate| times the error of the gradients plus (batch size + 3) roundings of |parameter| + |rate| * (mean size of the gradients), and a few times the smallest positive double. With ReLU and linear activations in these layers the exact step uses the derivatives of the loss. For the fully connected layer of main.cpp with parameters up to 1 the error of the gradients is at most 2^-6, for all images and without assumptions on the decisions of the other layers.", "quantifier": "all networks, batches, labels, threads, interleavings and parameters up to given sizes", "why_tests_cant": "Needs a comparison with exact derivatives for every interleaving.", "anchors": ["src/Layers/Kernel.cpp: applyBatch", "src/Layers/ConnectedLayer.cpp: applyBatch", "src/ModelDescription.tpp: runEpoch, train", "src/main.cpp: main"]}
{"id": "C106", "title": "The accuracy that validate finds with doubles is that of exact arithmetic up to close decisions", "statement": "For a usable network of doubles with parameters of bounded size and a complete pair of test files, the number of recognised images differs from the number that exact arithmetic recognises by at most the number of images whose largest exact output does not exceed the others by a margin computed from the sizes. The exact results may be those for the floats of the pixels or for (byte - 128) / 255. For the network of main.cpp with parameters up to 16 the margin is 2^-12. It holds for any number of threads and all interleavings of steps.", "quantifier": "all networks, parameters up to given sizes, test files, threads and interleavings", "why_tests_cant": "Needs exact arithmetic for every image and all interleavings.", "anchors": ["src/main.cpp: main", "src/ModelDescription.tpp: forwardPropagation", "src/MNISTReader.cpp: getImage"]}
{"id": "C107", "title": "Sizes that cannot be read are reported", "statement": "If a size in the text of a layer is missing or does not fit its type, loading the layer throws runtime_error; the sizes before it are stored and the rest of the layer is not changed.", "quantifier": "all layers, sizes, numbers and texts that follow", "why_tests_cant": "The tests only load texts that the program wrote.", "anchors": ["src/Layers/Kernel.cpp: deserialize", "src/Layers/ConnectedLayer.cpp: deserialize", "src/Layers/Pooling.cpp: deserialize", "include/cnn_from_scratch/Serialization.h: expect"]}
{"id": "C108", "title": "A layer rejects the text of anything else", "statement": "Loading a layer from a stream that has failed, is at its end, or does not go on with the name of the kind of layer, such as the text of a layer of another kind, throws runtime_error and leaves the layer unchanged. So does a pooling layer or an activation layer whose type is not one of the known names.", "quantifier": "all layers, texts and streams", "why_tests_cant": "The tests only load texts that the program wrote.", "anchors": ["src/Layers/Kernel.cpp: deserialize", "src/Layers/ConnectedLayer.cpp: deserialize", "src/Layers/Pooling.cpp: deserialize", "src/Layers/Activation.cpp: deserialize", "src/Layers/Softmax.cpp: deserialize", "include/cnn_from_scratch/Serialization.h: expect"]}

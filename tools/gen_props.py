#!/usr/bin/env python3
"""Writes /verif/properties.jsonl (one JSON object per line) from the table below."""
import json
P = []
def p(id, title, statement, quantifier, why, *anchors):
    P.append(dict(id=id, title=title, statement=statement, quantifier=quantifier, why_tests_cant=why, anchors=list(anchors)))

SM="src/SimpleMatrix.tpp"; SMH="include/cnn_from_scratch/Matrix/SimpleMatrix.h"; DIM="include/cnn_from_scratch/Matrix/dim.h"
MI="include/cnn_from_scratch/Matrix/MatrixIterator.h"; MM="include/cnn_from_scratch/Matrix/MatrixMath.h"
SVH="include/cnn_from_scratch/Matrix/SubMatrixView.h"; SV="src/SubMatrixView.tpp"
KE="src/Layers/Kernel.cpp"; CO="src/Layers/ConnectedLayer.cpp"; PO="src/Layers/Pooling.cpp"; AC="src/Layers/Activation.cpp"; SO="src/Layers/Softmax.cpp"
ACH="include/cnn_from_scratch/Layers/Activation.h"
MD="src/ModelDescription.tpp"; SE="include/cnn_from_scratch/Serialization.h"; MN="src/MNISTReader.cpp"; MA="src/main.cpp"
LB="include/cnn_from_scratch/LoadingBar.h"; IU="include/cnn_from_scratch/imageUtil.h"

# ---- matrix storage -------------------------------------------------------------------------
p("C01","Element addressing is a bijection onto storage",
  "For a matrix of any size, the in-range triples (x,y,z) correspond one-to-one to the stored elements: writing one element through operator() makes that element read back as written, leaves every other element, the dimensions and the element count unchanged, and never touches memory outside the matrix.",
  "all dimensions, all element types and values, all pairs of in-range indices","Only a handful of shapes and indices can be tried; aliasing of two indices can occur at any shape.",SM+": getIndex, operator()",SMH+": operator[]",DIM+": getFlatIdx, size")
p("C02","Row-by-row entry of values",
  "Building a matrix from a list of values (or calling setEntries) places value number l*X*Y + r*Y + c at row r, column c, layer l; if the number of values differs from the element count a size exception is raised and the matrix keeps its previous contents.",
  "all dimensions, all value lists of any length","Tests cover two shapes; the transposition from row order to column storage can fail only on non-square or deep shapes.",SM+": setEntries, SimpleMatrix(dim3, std::vector<T>&&)")
p("C03","Iteration visits every element exactly once",
  "Iterating a matrix, view or expression from begin() to end() yields exactly size() positions, each in-range index exactly once, in column-major order (first index fastest); it.idx() is the index of the element returned by *it; and the distance from begin() to any visited position is its storage position.",
  "all dimensions, including dimensions with zeros","An off-by-one carry in the iterator shows only at particular shapes; empty shapes are unbounded in number.",DIM+": DimIterator",MI,SVH+": begin, end")
p("C04","Reshape only relabels",
  "reshape succeeds exactly when the element count is unchanged; it then changes only the dimensions (the storage order of the elements is kept, and reshaping back restores the matrix), otherwise it raises a transform exception and changes nothing.",
  "all matrices and all target dimensions","Infinite family of shapes.",SM+": reshape")
p("C05","Size and storage stay consistent over every history",
  "After any sequence of matrix operations (construction, element writes, setEntries, vector assignment, resize, reshape, assignment from another matrix or expression, compound assignment, sub-view writes, moves), size() equals the number of stored elements, even when some of the operations raised an exception.",
  "all finite histories of operations with any arguments","Histories are unbounded.",SM,SMH,SV,MM)
p("C06","Resizing keeps a storage prefix",
  "resize(x,y,z) gives a matrix of exactly those dimensions whose storage is the old storage cut off or extended by zero values; growing only the depth therefore keeps every element at its index.",
  "all matrices and all target dimensions","Infinite family of shapes.",SM+": resize")
p("C07","Moving a matrix transfers it and empties the source",
  "Move construction or assignment gives the destination exactly the source's dimensions and elements and leaves the source as an empty 0x0x0 matrix that can be used again.",
  "all matrices","All shapes.",DIM+": Dim(Dim&&), operator=(Dim&&)",SMH+": move constructor")
# ---- views -------------------------------------------------------------------------------------
p("C08","A sub-matrix view is created exactly when the region fits",
  "Creating a view of a region of a matrix (or of another view) succeeds if and only if the whole region lies inside the matrix (and inside that view); otherwise a size exception is raised.",
  "all parents, all start indices and sizes, all nesting depths","Boundary conditions in three axes for all sizes.",SVH+": SubMatrixView constructors",SM+": subMatView, slices, slice",SV+": slices, slice")
p("C09","A view reads and writes exactly its region",
  "Element i of a view is element start+i of the parent (starts add up for nested views); filling or assigning through the view makes the view's elements equal to the assigned values and leaves every parent element outside the region, and the parent's dimensions, unchanged.",
  "all parents, regions, nesting and right-hand sides not reading the parent","A write one cell outside the region is visible only for particular strides/regions.",SV+": operator(), operator=",SVH)
p("C10","Checked view access rejects every index outside the view",
  "SubMatrixView::at returns the element for an index inside the view and raises out_of_range for every other index.",
  "all views and all integer indices","All indices including negative ones.",SV+": at")
p("C11","Assigning an expression to a matrix it mentions",
  "Assigning (or compound-assigning) to a matrix an expression that reads the same matrix gives the value the expression had before the assignment.",
  "all expressions and matrices","Lazy evaluation makes the outcome depend on which cells are read after being written; this differs per expression and shape.",SM+": operator=(MatrixType&&)",MM+": expression templates, operator+= ..",KE+": getdLdX (dLdX = dLdX + filter_gradient)")
p("C12","Copying between overlapping regions of one matrix",
  "Assigning one view of a matrix to another view of the same matrix gives the destination the values the source had before the assignment.",
  "all pairs of equally sized regions of one matrix","Overlap patterns are unbounded.",SV+": operator=(const SubMatrixView<T>&)")
p("C13","Scaling a matrix by one of its own elements",
  "M op= s applies the value s had at the call to every element, also when s is a reference to an element of M.",
  "all matrices, all operators, all scalars including references into the matrix","Aliasing between the scalar argument and the matrix.",MM+": operator+=, -=, *=, /= (Scalar)")
# ---- expressions -------------------------------------------------------------------------------
p("C14","Element-wise expressions of any depth evaluate pointwise",
  "Any expression built from matrices, views, scalars, element-wise operators, abs/apply and transposes has, at each index, the value obtained by applying the operators to the operands' elements at that index; it raises a size exception exactly when two operands of an element-wise operator differ in dimensions; and converting it to a matrix stores exactly these values.",
  "all expression trees, shapes and element types","Expression trees are unbounded.",MM+": ElementWiseMatrixOperationResult, ScalarOperationResult, UnaryOperationResult",SM+": SimpleMatrix(MatrixType&&)")
p("C15","Matrix multiplication",
  "matrixMultiply(A,B) raises a size exception exactly when inner dimensions or depths differ; otherwise every layer of the result is the mathematical matrix product of the corresponding layers, and multiplication is associative and transposes as (AB)^T = B^T A^T.",
  "all shapes and contents, lvalue and temporary operands","All shapes; the outcome for temporaries depends on an evaluation order no test can force.",MM+": matrixMultiply, GeneralMatrixOperationResult")
p("C16","Transposition",
  "transpose(M) has first and second dimension swapped and element (i,j,k) equal to element (j,i,k) of M; transposing twice gives M back. This holds whether M is a named matrix or a temporary.",
  "all shapes, contents and value categories","All shapes; reading an operand after it was moved from.",MM+": transpose")
p("C17","Rotation",
  "rotate<n>(M) is the rotation of each layer of a square matrix by n quarter turns (rotations compose by adding quarter turns modulo four, so rotate<1> after rotate<3> and rotate<2> twice are the identity); a non-square matrix raises a transform exception.",
  "all square and non-square matrices, n = 1,2,3","All sizes.",MM+": rotate")
p("C18","Convolution",
  "convolve(A,B) of two flat matrices with unit stride and B no larger than A has dimensions A-B+1 and each element is the sum over B of B(i) * A(position+i); no element outside A or B is read. With stride s, element p is taken at position s*p and still nothing outside A is read.",
  "all shapes with B inside A, all strides","All shapes and strides; out-of-range reads may go unnoticed in a test.",MM+": convolve")
p("C19","Dot product",
  "dot(a,b) of two row/column vectors with the same number of elements is the sum of the products of their elements, and any other shapes raise a size exception.",
  "all vectors of any element type","Truncation depends on the element values.",MM+": dot")
p("C20","Reductions: sum and mean",
  "sum(M) is the sum of all elements (in storage order) and mean(M) is the sum divided by the number of elements.",
  "all matrices of any element type","All contents; signed/unsigned mixing appears only for some values.",MM+": sum, mean")
p("C21","Reductions: extrema and their positions",
  "max/min return the largest/smallest element of a non-empty matrix, maxIndex/minIndex the index of the first such element in storage order; member and free versions agree.",
  "all non-empty matrices over a totally ordered element type","All contents and tie patterns.",MM+": max, min, minIndex, maxIndex",SM+": minIndex, maxIndex")
p("C22","Matrix comparison",
  "matrixEqual returns true exactly when dimensions agree and all elements agree (within eps for the tolerant version); it is reflexive and symmetric.",
  "all pairs of matrices","All contents.",MM+": matrixEqual")
# ---- Kernel -----------------------------------------------------------------------------------
p("C23","Convolution layer forward pass",
  "For an input with the layer's channel count and at least the filter size, the output has (X-fx+1, Y-fy+1, filters) and element (x,y,f) is bias f plus the sum over channels and filter positions of weight * input; an input with another channel count raises a layer exception. No memory outside the matrices is accessed for any input.",
  "all layer sizes, weights, strides and inputs of any shape","All sizes, including inputs smaller than the filter.",KE+": propagateForward, outputSize, checkSize")
p("C24","Convolution layer weight gradient is exact",
  "The weight gradient computed for an input and an output gradient is the derivative of the loss with respect to every weight.",
  "all sizes, weights, inputs and output gradients","Numerical spot checks cover one 3x3 case.",KE+": getdLdW")
p("C25","Convolution layer input gradient is exact",
  "The input gradient computed by the layer is the derivative of the loss with respect to every input element, for every input shape accepted in the forward pass.",
  "all sizes, weights, inputs and output gradients, square or not","One square case is tested.",KE+": getdLdX, padInput",MM+": rotate")
p("C26","Convolution layer bias gradient is exact",
  "The bias gradient of filter f is the sum of the output gradient over output channel f, i.e. the derivative of the loss with respect to bias f.",
  "all sizes and output gradients","No test exists.",KE+": getdLdB")
# ---- Connected -----------------------------------------------------------------------------------
p("C27","Fully connected layer forward pass",
  "The output is the column vector W * v + b where v is the input flattened in storage order; the first input fixes the accepted element count, and any later input with another element count raises a layer exception without changing weights or biases.",
  "all sizes, inputs and histories of calls","Histories and sizes unbounded.",CO+": propagateForward, checkSize")
p("C28","Fully connected layer gradients are exact",
  "Weight, bias and input gradients are the derivatives of the loss with respect to each weight, bias and input element, and the input gradient has the shape of the input that was propagated.",
  "all sizes, weights, inputs (of any accepted shape) and output gradients","All shapes; no test exists.",CO+": getdLdW, getdLdX, getdLdB, propagateBackward")
p("C29","Fresh parameters are normalised",
  "After construction (convolution) or the first input (fully connected) every weight and bias is a finite non-zero number in [-1,1] and the weight and bias vectors each have Euclidean norm one.",
  "all sequences of random numbers the generator can return","Random.",KE+": Kernel",CO+": checkSize",MM+": l2Norm")
# ---- Pooling -----------------------------------------------------------------------------------
p("C30","Pooling windows tile inside the input",
  "The output size is the number of stride positions at which the pool fits, in each axis; every window lies inside the input, so for an input at least as large as the pool the pass neither throws nor reads outside.",
  "all pool sizes, strides >= 1 and input shapes","All shapes and strides.",PO+": outputSize, propagateForward")
p("C31","Pooling values",
  "Max (min, average) pooling gives at each output position the maximum (minimum, mean) of its window, per channel.",
  "all inputs, pool sizes, strides","All contents.",PO+": propagateForward")
p("C32","Max/min pooling gradient goes to the selected element",
  "The input gradient of max/min pooling is, at each input element, the sum of the output gradients of the windows whose first extremal element it is, and zero elsewhere; its total equals the total of the output gradient; results stored for another batch slot or an earlier pass have no influence.",
  "all inputs, pool sizes, strides (overlapping windows included), histories of passes and batch slots","All contents, ties, overlaps, histories.",PO+": propagateForward, getdLdX")
p("C33","Average pooling gradient is exact",
  "The input gradient of average pooling is the derivative of the loss with respect to every input element (each output gradient divided by the pool area, added over all windows containing the element).",
  "all inputs, pool sizes, strides","No test exists.",PO+": getdLdX")
p("C34","Pooling rejects an input smaller than the pool",
  "If the input is smaller than the pool in some axis the pass raises an exception instead of reading outside the input.",
  "all pool sizes, strides >= 1 and smaller inputs","All shapes.",PO+": propagateForward",SVH)
# ---- Activation ----------------------------------------------------------------------------------
p("C35","Activation forward pass",
  "The output has the input's shape and each element is the selected function of the input element; relu is non-negative, sigmoid lies in (0,1), tanh in (-1,1), all are monotone.",
  "all real inputs, shapes and activation kinds","All reals.",AC)
p("C36","Activation backward pass is the derivative",
  "Back-propagation through an activation layer multiplies each output gradient by the derivative of the activation function at the corresponding input.",
  "all activation kinds, inputs and gradients","Tests call activationGradient on the input, never through the backward pass that receives the output.",AC+": propagateBackward, activationGradient",MD+": backwardsPropagation")
p("C37","Activation names",
  "Converting an activation kind to text and back gives the same kind, different kinds have different texts, and any other text is rejected with a runtime error.",
  "all kinds, all strings","All strings.",ACH+": toString, fromString")
# ---- Softmax / loss -------------------------------------------------------------------------------
p("C38","Softmax output is a probability distribution",
  "For every non-empty input vector all outputs are in (0,1], sum to one, keep the order of the inputs, do not change when a constant is added to all inputs, and no intermediate exponential exceeds one.",
  "all input vectors of any length","All reals.",SO+": softMax, propagateForward")
p("C39","Softmax backward pass is the cross-entropy gradient",
  "The gradient returned is the derivative of -ln(output of the true label) with respect to every input, and its elements sum to zero.",
  "all input vectors and labels","All reals.",SO+": getdLdX, propagateBackward")
p("C40","Softmax label protocol",
  "Back-propagation before any true label was assigned raises a layer exception; assigning a label index not below the label count raises out_of_range and keeps the previous label; otherwise the most recently assigned label is used. An input that is not a vector with one element per label is rejected.",
  "all histories of label assignments and passes","Histories unbounded.",SO+": assignTrueLabel, propagateBackward, checkSize, propagateForward")
p("C41","Loss function",
  "The loss is finite and non-negative for every probability in [0,1], at most log2(100000), decreasing in the probability of the true label, and zero exactly when that probability is at least 1 - 1e-5.",
  "all probability vectors and labels","All reals.",MD+": lossFcn")
p("C42","Back-propagated gradient is the gradient of the reported loss",
  "The gradient that starts back-propagation is the derivative of the value reported as loss.",
  "all probability vectors and labels","All reals.",MD+": lossFcn, backwardsPropagation",SO+": getdLdX")
# ---- network ----------------------------------------------------------------------------------------
p("C43","Batch update is the averaged gradient step",
  "Applying a batch replaces every weight w by w - rate * (mean over the batch slots of the stored gradients) and likewise for biases; shapes are unchanged and a rate of zero changes nothing; a slot whose gradient has another shape raises a size exception.",
  "all layer sizes, batch sizes >= 1, rates and stored gradients","All contents.",KE+": applyBatch",CO+": applyBatch")
p("C44","Back-propagation through a whole network is the gradient",
  "For a network of convolution, pooling, fully connected and activation layers ending in softmax, the weight and bias gradients stored by a forward pass followed by a backward pass are the partial derivatives of -ln(probability of the true label) with respect to each parameter of each layer, for every depth.",
  "all networks of any depth whose layers are differentiable at the point, all parameters and inputs","Depth, sizes and values unbounded.",MD+": forwardPropagation, backwardsPropagation","src/Layers/*.cpp")
p("C45","A training step is a descent step",
  "Along the batch update, the derivative of the batch loss with respect to the learning rate at rate zero is minus the squared norm of the averaged gradient; hence a small enough rate never increases the loss to first order.",
  "all layers and stored gradients","All contents.",KE+": applyBatch",CO+": applyBatch",MD)
p("C46","Forward propagation result",
  "The result holds one recorded matrix per layer plus the input; label_idx is the first index of the largest output, confidence is that output and is at least 1/(number of labels); weights and biases are unchanged by a pass.",
  "all networks and inputs","All.",MD+": forwardPropagation")
p("C47","A label outside the label set is rejected safely",
  "Back-propagating with a label that is not one of the output labels raises an exception without reading outside any matrix and without changing the stored gradients.",
  "all networks, results and labels","All labels.",MD+": assignLoss, backwardsPropagation, lossFcn")
p("C48","Layer names are unique",
  "In every sequence of addKernel/addPooling/addConnectedLayer/addActivation/setOutputLabels calls that sets the output labels once, all layers have different names and layers keep their insertion order.",
  "all build histories","Histories unbounded.",MD+": addKernel, addPooling, addConnectedLayer, addActivation, setOutputLabels")
# ---- training --------------------------------------------------------------------------------------
p("C49","Work split covers each batch slot once",
  "The index ranges given to the worker threads are disjoint and together cover exactly the slots 0..batch_size-1.",
  "all batch sizes and thread counts","All pairs of numbers; rounding of the float division.",MD+": runEpoch")
p("C50","Float ceilings are exact",
  "The float-based computations of work per thread, number of batches and pooled size equal the exact integer ceiling.",
  "all non-negative numerators and positive denominators representable in the API","Rounding errors occur only for some large values.",MD+": runEpoch",PO+": outputSize")
p("C51","Every data point is used exactly once per epoch",
  "In every interleaving of the worker threads, an epoch takes every data point from the source exactly once, writes each batch slot from at most one thread, and terminates without deadlock.",
  "all schedules, batch sizes, thread counts and data set sizes","Schedules.",MD+": runEpoch")
p("C52","Reported success count",
  "The number of successes counted for a batch equals the number of its data points whose predicted label index equals the true label index, in every interleaving.",
  "all schedules","Schedules.",MD+": runEpoch")
p("C53","Gradients use the data point's own label",
  "In every interleaving of the worker threads, the gradient stored for a data point is computed from that data point's own label.",
  "all schedules","Races.",MD+": runEpoch, backwardsPropagation",SO+": assignTrueLabel, propagateBackward")
p("C54","Batch update does not depend on thread scheduling",
  "For a full batch the parameters after the update are the same (in exact arithmetic) for all interleavings in which no two label hand-overs overlap, and equal to those of a single thread.",
  "all schedules","Schedules.",MD+": runEpoch",KE+": applyBatch",CO+": applyBatch")
p("C55","A partial batch averages only its own data",
  "The update made after a batch is the average over the data points of that batch, also when fewer data points than the batch size remain.",
  "all data set sizes and batch sizes","Depends on history of earlier batches.",MD+": runEpoch, train",KE+": applyBatch, setBatchSize",CO+": applyBatch, setBatchSize")
p("C56","First-use initialisation is safe under concurrency",
  "When several threads propagate the first inputs through a fully connected layer, every thread uses the initialised weights.",
  "all schedules","Schedules.",CO+": checkSize, propagateForward",MD+": runEpoch")
# ---- serialisation ----------------------------------------------------------------------------------
p("C57","Matrix text round-trip",
  "Reading back a matrix that was written gives the same dimensions and every element within half a millionth of the original, consumes exactly the written text, and writing the result again produces the same text.",
  "all matrices of finite values, any following text","All shapes and values.",SM+": serialize, deserialize")
p("C58","Label/value lines round-trip",
  "expect is the inverse of place: reading back a placed line yields the value and leaves the stream after the line; any text not starting with the label raises a runtime error.",
  "all labels, integers and following text","All values.",SE+": place, expect")
p("C59","Layer text round-trip",
  "Deserialising the text of a layer of the same kind restores the layer's observable behaviour (shape parameters, stride, activation function, weights up to the printed precision).",
  "all layers","All layer configurations.",KE+": serialize, deserialize",PO+": serialize, deserialize",CO+": serialize, deserialize",AC+": serialize, deserialize")
p("C60","Model save/load round-trip",
  "loadModel on the file written by saveModel returns true and gives a model with the same layers in the same order and the same output labels, up to the printed precision of weights.",
  "all models","All architectures.",MD+": saveModel, loadModel")
p("C61","Loading reports malformed files",
  "For every file content, loadModel returns (true or false) without exception or undefined behaviour, and returns true only if the file is a complete model description; a missing file returns false.",
  "all byte sequences","All files.",MD+": loadModel",SM+": deserialize",SE)
p("C62","A loaded model can be trained further",
  "A loaded model accepts the same training calls as the saved one.",
  "all models","All architectures.",CO+": deserialize, getdLdX")
# ---- MNIST ----------------------------------------------------------------------------------------------
p("C63","MNIST header and big-endian decoding",
  "Opening a well-formed pair of files yields the counts and sizes stored big-endian in their headers; wrong magic numbers or differing counts stop the program.",
  "all header contents","All 32-bit values.",MN+": MNISTReader, read")
p("C64","MNIST images are found at their place",
  "getImage(i) returns label byte i and the image whose pixel (r,c) is (byte[16 + i*h*w + r*w + c] - 128)/255; reading sequentially with nextImage gives the same images as random access, in any mixture of calls; an index not below the count raises an error.",
  "all files, indices and call histories","Histories unbounded.",MN+": getImage, nextImage")
p("C65","The training generator yields its announced number of images",
  "After construction or reset, the generator yields exactly size() data points, the images 1..n-1 in order, and then reports that no data is available; it never reads past the end.",
  "all files and histories of calls","Histories unbounded.",MA+": MNistGenerator")
p("C66","Progress bar",
  "The bar always has the same total width and shows a percentage between 1 and 100 for every batch number below the number of batches.",
  "all batch numbers and counts","All pairs.",LB+": loadingBar")
# ---- no failures ------------------------------------------------------------------------------------------
p("C67","A forward pass never fails",
  "For every network whose layer sizes fit together and every input of the right size, forwardPropagation returns normally, records the input of every layer with its size, and the predicted label index is that of a label.",
  "all networks, inputs, slots and number types, also before the first use","All architectures and values, infinities and NaN included.",MD+": forwardPropagation",KE+": propagateForward",CO+": propagateForward",PO+": propagateForward",AC+": propagateForward",SO+": propagateForward")
p("C68","A backward pass after a forward pass never fails",
  "For every network whose layer sizes fit together (convolutions after the first layer with square outputs), backwardsPropagation with the result of forwardPropagation returns normally, and the gradients stored in the slot have the sizes of the parameters.",
  "all networks, inputs, labels, slots and number types","All architectures and values.",MD+": forwardPropagation, backwardsPropagation")
p("C69","Training an initialised network never fails",
  "In every interleaving, for every number of threads, batch size and number of epochs, training of a network whose layers have been used before on data of the right size ends with a normal return.",
  "all networks, data sets, hyperparameters and schedules","Schedules and histories are unbounded.",MD+": train, runEpoch")
p("C70","Training with one thread never fails",
  "With one thread, training of a network whose sizes fit, also a newly built one, on data of the right size ends with a normal return, and all fully connected layers are initialised then.",
  "all networks, data sets and hyperparameters","Histories are unbounded.",MD+": train, runEpoch")
p("C71","The training of the main program never fails",
  "For every pair of complete MNIST files with at least one batch of images of 28 rows and columns and digits as labels, the program builds its network and trains it without exception or undefined behaviour.",
  "all files, random numbers and number types","All files.",MA+": main",MD+": train",MN)
# ---- validation -------------------------------------------------------------------------------------------
p("C72","Validation never fails",
  "For every network whose sizes fit and whose layers have been used before, and every complete pair of test files, the validation with any number of threads ends without exception or undefined behaviour in every interleaving.",
  "all networks, files, numbers of threads, schedules and number types","Schedules and files are unbounded.",MA+": validate",MD+": forwardPropagation",MN+": getImage")
p("C73","Validation always ends",
  "The threads of the validation never block each other for ever, and every execution has a bounded number of steps.",
  "all networks, files, numbers of threads and schedules","Schedules are unbounded.",MA+": validate")
p("C74","Validation counts the recognised images",
  "In every interleaving the count is the number of test images for which the label found by forwardPropagation, run without threads, is the label of the image; the parameters of the model are not changed.",
  "all networks, files, numbers of threads and schedules","Schedules are unbounded; a lost or doubled image shows rarely.",MA+": validate",MD+": forwardPropagation")
p("C75","Validation has no data races",
  "No two threads of the validation can access the same memory at the same time, one of them writing, without synchronisation.",
  "all schedules","Races show rarely in tests.",MA+": validate",PO+": propagateForward")
# ---- what the program prints ------------------------------------------------------------------------------
p("C76","The printed accuracy is the percentage of recognised images",
  "For every count c of n images with c at most n, the printed accuracy is the float nearest to 100 c / n and lies between 0 and 100.",
  "all counts and numbers of images","All pairs; the error shows for large counts only.",MA+": validate")
p("C77","A sample is an existing image",
  "For every value r of rand(), the number of the sample is the integer part of r n / RAND_MAX and the number of one of the n images.",
  "all values of rand(), of RAND_MAX and numbers of images","The failing value has probability 1 in 2^31.",MA+": validate")
p("C78","An image is printed with the brightness of its values",
  "For every image of finite values printImage writes one row per row and one cell per column, with brightness between 0 and 255, larger values at least as bright as smaller ones, the smallest value black and the largest white.",
  "all images, sizes and values","All images.",IU+": printImage, printImageBWImpl, printImageColorImpl")
p("C79","Samples are printed without failure",
  "For every usable network, every complete pair of test files and all values of rand(), the samples are printed without exception or undefined behaviour; each shows the label that forwardPropagation finds for an image, the label of that image and its picture. The parameters of the model do not change.",
  "all networks, files and random numbers","The failing value has probability 1 in 2^31.",MA+": validate, operator<<",IU,MN+": getImage",MD+": forwardPropagation")
p("C80","The whole program",
  "For all complete training and test files the program trains its network, counts the recognised test images, prints the count and the samples, saves the trained network if asked to, and returns normally.",
  "all files, random numbers and number types","All files and executions.",MA+": main, validate",MD+": train, saveModel",MN)
p("C81","The shipped model file can be loaded",
  "loadModel returns true for data/trained_model.model_data and yields its six layers and ten labels.",
  "every text with the first lines of that file","loadModel is not called by the program or the tests.",MD+": loadModel",KE+": deserialize","data/trained_model.model_data")
# ---- doubles ----------------------------------------------------------------------------------------------
p("C82","Activation functions of doubles stay in their ranges",
  "For every finite double each activation function gives a finite double: at least 0 for relu, between 0 and 1 for sigmoid, between -1 and 1 for tangent, never larger in absolute value than the larger of 1 and the argument; the derivatives lie between 0 and 1; larger arguments do not give smaller results.",
  "all finite doubles, including those for which exp overflows","2^64 arguments.",AC+": relu, sigmoid, leaky relu, tangent and their gradients")
p("C83","Softmax of doubles gives probabilities",
  "For all finite inputs the outputs are doubles between 0 and 1 whose sum differs from 1 by at most 2^-51 for every label; larger inputs do not get smaller probabilities.",
  "all sizes and finite inputs","Overflow and rounding depend on the inputs.",SO+": propagateForward")
p("C84","The predicted label belongs to the largest output",
  "The label that forwardPropagation selects is the one whose input of the softmax layer is largest.",
  "all finite inputs","Rounding ties are rare.",SO+": propagateForward",MD+": forwardPropagation")
p("C85","No infinity and no NaN in the forward pass",
  "If the parameters are at most 2^w and the image at most 2^e in absolute value, and the bounds computed from w, e and the layer sizes stay below 2^127, then all values of the forward pass are finite, within these bounds, and so are the recorded floats; the confidence is the largest probability.",
  "all networks, parameters and images within the bounds","All images and parameters.",MD+": forwardPropagation",KE+": propagateForward",CO+": propagateForward",PO+": propagateForward")
p("C86","The loss is finite and between 0 and 17",
  "For every recorded probability, also 0, the loss is a finite float between 0 and 17, and 0 if the probability is at least 1 - 10^-5.",
  "all probabilities and labels","All floats.",MD+": assignLoss",MD+": lossFcn")
p("C87","Training has no data races",
  "No two worker threads of the training can access the same memory at the same time, one of them writing, without synchronisation.",
  "all schedules, networks and numbers of threads","Races show rarely in tests.",MD+": runEpoch",MD+": backwardsPropagation",SO+": assignTrueLabel",CO+": checkSize")
p("C88","No infinity and no NaN in training",
  "If the parameters are at most 2^w, the images at most 2^e and the learning rate at most 2^r in absolute value, and the bounds computed from these and the layer sizes stay below 2^127 for forward passes and 2^970 otherwise, then every batch ends with finite parameters and gradients within the computed bounds.",
  "all networks, parameters, images and schedules within the bounds","All images, parameters and schedules.",MD+": backwardsPropagation",MD+": runEpoch",KE+": propagateBackward, applyBatch",CO+": propagateBackward, applyBatch")
# ---- console output ---------------------------------------------------------------------------------------
p("C89","Printed numbers are right up to the last digit",
  "For every finite number, precision and notation the text that operator<< writes is a decimal numeral whose value differs from the number by at most half a unit of the last digit that the format keeps, in the form that the format prescribes. For all counts, the accuracy after the validation is written with a relative error of at most 5.3e-6, and every confidence between 0 and 1 with one of at most 5e-6.",
  "all finite doubles and floats, all precisions, all counts","2^64 numbers; carries into a new digit are rare.",MA+": validate",MA+": operator<<",SMH+": operator<<")
p("C90","Matrices are printed as aligned tables",
  "For every matrix or expression, operator<< writes one line per row with the cells of every layer in brackets, separated by commas; all cells have the same width and show the element up to two digits after the point (integers exactly) with its sign in the first column.",
  "all sizes, elements and output streams","All sizes and values.",SMH+": operator<<")
p("C91","Printing a matrix leaves the format of the stream unchanged",
  "After operator<< of a matrix the precision and notation of all streams are as before.",
  "all matrices, streams and formats","All formats.",SMH+": operator<<")
p("C92","The accuracy printed after an epoch",
  "For every execution of an epoch, with any number of threads, the printed accuracy is the percentage of data points whose recorded result has the label of the data point, with a relative error of at most 5.001e-6; it is 100 if all are recognised.",
  "all networks, data, schedules and numbers of threads","All schedules and counts.",MD+": runEpoch",MD+": train")
p("C93","Images of bytes are printed with their values",
  "For every image of integers, printImage writes one row per row and one cell per column: for three layers the exact colours (larger values as 255), otherwise gray values between 0 and 255 that keep the order and the proportions up to rounding down, with the smallest value black and 255 or more white.",
  "all images, sizes and values","All images.",IU+": printImage, printImageBWImpl, printImageColorImpl")
p("C94","The norms of all layers are printed",
  "For every usable network debugLayerWeights writes, for each layer in order, the square root of the sum of the squares of its weights and of its biases, without failure.",
  "all networks, parameters and number types","All networks.",MA+": debugLayerWeights",MM+": l2Norm")
p("C95","Saved matrices are aligned tables",
  "The text of a saved matrix has one line with the three sizes, then for every layer one line per row and an empty line, and nothing else. If all elements are finite and below 99999999.9999995 in absolute value, every such line has 17 characters per column: the element, right aligned in 16 characters, and a blank.",
  "all sizes, all elements","All sizes and values.",SM+": serialize")
p("C96","A result with too few recorded matrices is rejected",
  "backwardsPropagation with a result that has fewer matrices than the network needs (one more than layers) raises an exception and changes no parameter, gradient or recorded value, only the label of the output layer.",
  "all results, networks, labels in range and number types","All networks and results.",MD+": backwardsPropagation, assignLoss")
p("C97","Runs are reproducible",
  "Two runs of train, validate or the main program with the same files, initial numbers and results of rand() give the same parameters, counts, printed text and saved file, apart from the measured time.",
  "all schedules, networks, files and number types","Differences in the last digit appear for some schedules only.",MD+": train, runEpoch",MA+": main, validate")
p("C98","Matrices in texts of another layout are loaded",
  "SimpleMatrix::deserialize accepts any decimal numerals (sign, point, exponent, any number of digits), any white space between them and any remark at the end of a row, and stores the nearest doubles; if a number is missing, malformed or too large it returns false, and the numbers before it are stored. If a size is missing, malformed or does not fit int it returns false and the matrix is unchanged. A layer whose weights or biases fail in this way returns false too, leaves what comes later unchanged and is not marked as initialised.",
  "all sizes, numerals, layouts and texts that follow","The round trip only covers the texts that the program writes.",SM+": deserialize",SE+": clearLine",KE+": deserialize",CO+": deserialize")
p("C99","Files that are too short are reported",
  "If a data file ends before the number of images its header promises, the images before the end are delivered, and the attempt to read the next one is reported as an error.",
  "all pairs of files whose headers promise n images and that hold m < n, all learning rates","The tests read complete files.",MN+": nextImage, read","src/main.cpp: MNistGenerator, main")
p("C100","All ways to reach an element agree",
  "Below 2^64 elements size() of a dim3 is the number of elements, and getFlatIdx gives every index its own position below it. In a matrix that fits int: the element at the index is the one at that position, dim(k) is the size in direction k, an iterator built from the index has that position, 0 at begin() and the number of elements at end(), an increment adds one, and the difference of two iterators is that of the positions; a view gives the same element for three numbers and for an index, and subMatCopy gives the block, or throws if it is not inside.",
  "all sizes, indices, views and element types","Mixed-up directions are hidden in cubes and single layers.",DIM+": size, getFlatIdx",MI+": MatrixIterator, operator-",SM+": dim, subMatCopy",SV+": operator()")
p("C101","Rounding errors of sums, layers and updates are small",
  "With doubles, every finite element computed by the product and convolution of matrices, sum, mean, the convolution and fully connected layers (outputs and gradients), pooling (averages and gradients) and applyBatch differs from the exact value for the same doubles by at most a small multiple of 2^-52, growing linearly with the number of terms, times the sum of the absolute values of the terms, plus a multiple of 2^-1074. Two orders of the gradients in a batch therefore give nearly, though not exactly, the same parameters.",
  "all finite results, all sizes","Errors depend on all inputs together.",MM+": matrixMultiply, convolve, sum, mean",KE+": propagateForward, getdLdW, getdLdB, getdLdX, applyBatch",CO+": propagateForward, getdLdW, getdLdX, applyBatch",PO+": propagateForward, propagateBackward")
p("C102","The forward pass with doubles is close to the exact one",
  "If exp and tanh have errors of about one unit in the last place, then every layer computes, from doubles near given real numbers, doubles near the numbers the layer would compute from them with exact arithmetic, with bounds that follow from the sizes of the layers and of the parameters. The probabilities and the label of a whole pass are therefore near those of exact arithmetic; the label is the same if the largest exact output is far enough from the others. The probabilities of the network of main.cpp with initial parameters have errors of at most 2^-15.",
  "all networks, images and parameters up to given sizes","Needs a comparison with exact real arithmetic.",AC+": the activation functions",SO+": propagateForward",KE+": propagateForward",CO+": propagateForward",PO+": propagateForward",MD+": forwardPropagation",MA+": main")
p("C103","The gradients computed with doubles are close to the derivatives of the loss",
  "Under the assumptions of C102, the gradients that a forward and a backward pass store for all but the first m layers differ from those of exact arithmetic by at most bounds that follow from the sizes, if no sign at a ReLU and no maximum of a window in these layers is so close that rounding may change it. With ReLU and linear activations in these layers the gradients are as close to the derivatives of the loss. The gradients of the fully connected layer of main.cpp, with initial parameters, have errors of at most 2^-6.",
  "all networks, images, labels, slots and parameters up to given sizes","Needs a comparison with exact derivatives.",AC+": the gradients of the activation functions",SO+": propagateBackward",KE+": propagateBackward",CO+": propagateBackward",PO+": propagateBackward",MD+": backwardsPropagation",MA+": main")
p("C104","setBatchSize replaces the gradients and nothing else",
  "setBatchSize with n >= 0 gives every convolution and fully connected layer n empty gradients, gives every pooling layer n slots and keeps those it has, and changes no parameter, size or other layer. With a negative number the first layer with slots throws length_error: its gradients are gone (a pooling layer keeps its slots), the other layers are unchanged, and every run of train ends that way before an image is read.",
  "all networks, numbers, number types and runs","The tests use one batch size.",KE+": setBatchSize",CO+": setBatchSize",PO+": setBatchSize",MD+": train")
p("C105","A batch of training with doubles is close to a step of gradient descent",
  "Under the assumptions of C103, after a full batch in which no two threads overlap between storing a label and using it, on any number of threads, the new parameters of all but the first m layers differ from those of one exact step of gradient descent from the same parameters by at most |rate| times the error of the gradients plus (batch size + 3) roundings of |parameter| + |rate| * (mean size of the gradients), and a few times the smallest positive double. With ReLU and linear activations in these layers the exact step uses the derivatives of the loss. For the fully connected layer of main.cpp with parameters up to 1 the error of the gradients is at most 2^-6, for all images and without assumptions on the decisions of the other layers.",
  "all networks, batches, labels, threads, interleavings and parameters up to given sizes","Needs a comparison with exact derivatives for every interleaving.",KE+": applyBatch",CO+": applyBatch",MD+": runEpoch, train",MA+": main")
p("C106","The accuracy that validate finds with doubles is that of exact arithmetic up to close decisions",
  "For a usable network of doubles with parameters of bounded size and a complete pair of test files, the number of recognised images differs from the number that exact arithmetic recognises by at most the number of images whose largest exact output does not exceed the others by a margin computed from the sizes. The exact results may be those for the floats of the pixels or for (byte - 128) / 255. For the network of main.cpp with parameters up to 16 the margin is 2^-12. It holds for any number of threads and all interleavings of steps.",
  "all networks, parameters up to given sizes, test files, threads and interleavings","Needs exact arithmetic for every image and all interleavings.",MA+": main",MD+": forwardPropagation",MN+": getImage")
p("C107","Sizes that cannot be read are reported",
  "If a size in the text of a layer is missing or does not fit its type, loading the layer throws runtime_error; the sizes before it are stored and the rest of the layer is not changed.",
  "all layers, sizes, numbers and texts that follow","The tests only load texts that the program wrote.",KE+": deserialize",CO+": deserialize",PO+": deserialize",SE+": expect")
p("C108","A layer rejects the text of anything else",
  "Loading a layer from a stream that has failed, is at its end, or does not go on with the name of the kind of layer, such as the text of a layer of another kind, throws runtime_error and leaves the layer unchanged. So does a pooling layer or an activation layer whose type is not one of the known names.",
  "all layers, texts and streams","The tests only load texts that the program wrote.",KE+": deserialize",CO+": deserialize",PO+": deserialize",AC+": deserialize",SO+": deserialize",SE+": expect")
with open("/verif/properties.jsonl","w") as f:
    for o in P: f.write(json.dumps(o)+"\n")
print(len(P))

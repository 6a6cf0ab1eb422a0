# One line per property: status and note; read by gen_manifest.py.
s("C01","proved","All dimensions whose element count fits an int, any element type.")
s("C02","proved","Constructor and setEntries, including the exceptions and the unchanged matrix after one.")
s("C03","partial","Proved for every shape with no zero dimension or zero depth; refuted for matrices with x=0 or y=0 and z>0 (C03_empty_refuted).")
s("C04","proved","Exact success condition, value, exception and inverse.")
s("C05","partial","Invariant over all histories of operations except a resize/assignment to a negative element count, where it is refuted (C05_resize_refuted).")
s("C06","proved","Storage prefix and depth growth.")
s("C07","proved","Move gives exact contents and an empty reusable source.")
s("C08","partial","Exact success condition for non-negative starts and sizes, and every nesting depth; negative starts are accepted by the code (C08_negative_refuted).")
s("C09","proved","Read, fill and assign with frame conditions; non-empty views.")
s("C10","partial","Exact for non-negative indices; negative indices are accepted (C10_negative_refuted).")
s("C11","partial","Right whenever element k is computed from cells at or after k (covers all element-wise expressions); refuted for M = transpose(M) and M = view of M.")
s("C12","partial","Right when the destination does not start after the source or regions are disjoint; refuted for the remaining overlaps.")
s("C13","partial","Right for scalars outside the matrix and for its last element; refuted for references to earlier elements.")
s("C14","partial","All expression trees over named matrices, temporaries, views, named expressions, element-wise operators, scalars, apply and transposes of named objects; transposes of temporaries are refuted (C16_temporary_refuted).")
s("C15","partial","Exact product and size exception, associativity and transposition law for named operands; with temporaries the result may be empty (C15_temporary_refuted).")
s("C16","partial","Exact for named operands; refuted for every temporary.")
s("C17","proved","rotate<n> is n quarter turns; composition and full turn; non-square rejected.")
s("C18","partial","Exact for unit stride, and for windows inside A for any stride; refuted for strides above one, because the output size ignores the stride.")
s("C19","partial","Exact for int vectors and for float vectors holding whole numbers, exact size condition; refuted for fractional floats, which are truncated each step.")
s("C20","partial","Sum and floating-point mean exact; integer mean exact for non-negative sums, refuted for negative ones.")
s("C21","proved","First largest/smallest element and index, member and free functions, any strict weak order; reals and integers are instances. Finite doubles: C21_finite.")
s("C22","proved","Exact characterisation, tolerant version, symmetry, reflexivity; shapes that can be iterated (no zero row or column count unless depth is zero).")
s("C23","partial","Exact output for stride one and inputs at least as large as the filter, any number type; channel mismatch rejected. Refuted: an input one column narrower than the filter and any stride above one read outside the input.")
s("C24","proved","Derivative over the reals for every weight, plus the exact sum of products for any number type.")
s("C25","partial","Derivative for outputs with as many rows as columns; refuted for all other shapes (MatrixTransformException).")
s("C26","proved","Sum and derivative over the reals.")
s("C27","partial","Exact output, rejection and unchanged layer over every history of calls; a first input without elements is outside (C27_empty_refuted).")
s("C28","partial","Derivatives when the compiler evaluates the dimensions before moving the temporary (g++) and the input has the shape of the first one; refuted for the other order and for other shapes.")
s("C29","partial","Exact over the reals for any rand sequence and odd RAND_MAX. C29_double: with doubles the sum of squares differs from 1 by at most 2^-50 for every parameter. Refuted for an even RAND_MAX (NaN, C29_ex_double).")
s("C30","partial","Exact for sizes up to 2^24 and strides 1..2^24; refuted above 2^24 (float arithmetic) and for stride 0.")
s("C31","partial","Exact under C30's size bounds, for reals and finite doubles; above them the pass can fail (C30_inside_refuted).")
s("C32","partial","Exact under C30's size bounds, including independence of slot contents (also for finite doubles); also the derivative where the extremum is strict.")
s("C33","partial","Exact under C30's size bounds.")
s("C34","partial","Proved if max(X, qx) * max(Y, qy) * C is below 2^29, or below 2^31 with sizes up to 2^24. Refuted above: the product of the sizes, or the rounded size, is not an int.")
s("C35","proved","Element-wise for any number type; ranges and monotonicity over the reals.")
s("C36","partial","The layer evaluates the derivative function at its output: right for relu and linear, off by less than 2e-9 for leaky relu, refuted for sigmoid and tanh.")
s("C37","proved","All kinds, texts and enum numbers.")
s("C38","proved","Over the reals.")
s("C39","proved","Over the reals.")
s("C40","proved","All histories of label assignments; exact condition on inputs.")
s("C41","partial","All clauses with the float constant 1e-5f in place of 1e-5; with 1e-5 itself the bounds are missed slightly (C41_bounds_refuted).")
s("C42","partial","Refuted; proved to be proportional by a factor given in the theorem.")
s("C43","proved","Any number type, any number of slots; for zero slots the mean is 0/0.")
s("C44","partial","Any number of layers, any sizes, over the reals. Hypotheses: activations relu (no pre-activation 0) or linear, no pooling ties, square outputs for every convolution but the first layer; refuted for sigmoid, tanh and leaky relu (C44_activation_refuted) and for every convolution after the first layer whose output is not square (C44_not_square_refuted).")
s("C45","partial","False with sigmoid activations: C45_sigmoid_refuted is a network where every small rate raises the loss of the batch. Otherwise: derivative and strict decrease, for the formulas and for the layers after any execution of a full batch. Same hypotheses as C44 (differentiable activations, no ties, square convolution outputs) and no overlapping label hand-overs.")
s("C46","partial","Proved except that weights are unchanged: the first pass through a fresh fully connected layer initialises them (C46_first_pass_refuted); afterwards no pass changes them.")
s("C47","partial","Refuted: lossFcn reads outside the probabilities before the label is rejected. Proved: once past lossFcn, the label is rejected before any gradient is stored.")
s("C48","proved","All histories of calls, failed ones included. Names are distinct if setOutputLabels was called at most once; C48_two_calls shows that this is needed.")
s("C49","partial","Disjoint always; exact cover for batch sizes below 2^24 and 1 to 2^24 threads; refuted at batch size 2^24+1 (C49_refuted).")
s("C50","partial","Exact for numerators below 2^24 and denominators 1 to 2^24; refuted at 2^24+1 (C50_refuted, C50_pool_refuted). For all sizes the error is at most one plus 2^-22 (2^-21 for pooling) of the quotient (C50_near_partial, C50_pool_near_partial).")
s("C51","partial","Every interleaving, any number type, any network. Sizes below 2^24; refuted for 2^24+1 data points (C51_refuted). C51_writes_partial assumes that fully connected layers are initialised.")
s("C52","proved","Every interleaving and every state of the layers; with initialised layers the predictions are those of the parameters at the start of the batch.")
s("C53","partial","Refuted (C53_refuted): the output layer's label is shared. This is so for every network and any two data points with different labels (C53_mixed_refuted, C53_always_refuted). Proved for executions without overlapping hand-overs, in particular one thread; in general the label is that of some data point.")
s("C54","partial","Over the reals, for initialised layers of fitting shapes: same parameters for all schedules and thread counts, equal to sequential gradient descent, for one batch and for whole calls of train with full batches. With doubles the order changes the result (C101_same_update_refuted), by a bounded amount (C101_order).")
s("C55","partial","Refuted (stale slots, and an exception in a first incomplete batch). C55_any_batch_partial gives the exact update after any batch; C54_value_partial shows the claim for full batches.")
s("C56","partial","Refuted: another thread may get an exception or use weights that are not filled yet. Proved when one thread has completed a forward pass before.")
s("C57","partial","Proved for matrices with at least one element: same dimensions, exact consumption for any following text, same text when written again, error at most 5e-7 plus the rounding of the decimal number to a double (always below 1e-6). Half a millionth exactly is refuted, and so is exact consumption for matrices without elements.")
s("C58","partial","Round trip proved for every label, int, unsigned and following text. Other text raises a runtime error for every label that is not empty and does not end in a blank; refuted for a label that ends in a blank.")
s("C59","partial","Refuted: strides, the activation function and layers whose weights have no elements (such as a connected layer that was never used) are not restored. Proved: everything else is restored for all layers whose matrices have elements, all finite.")
s("C60","partial","Refuted: activations are left out, labels with white space change, never used connected layers and layers after the Softmax make loading fail. Proved for all other models: true, the same layers in order (up to C59), the same labels and regular names.")
s("C61","partial","Refuted: a missing file, texts without layers and saved models with carriage returns at the ends of the lines give true, length_error can leave the call, and missing values or too large sizes are undefined behaviour. Proved: no other exception leaves the call, for every content.")
s("C62","partial","Refuted: after loading, the backward pass of a connected layer that is not the first layer always raises an exception. Proved: as first layer it works.")
s("C63","proved","For all files with complete headers, for both byte orders of the machine; numbers are signed 32-bit. Missing files stop the program too; a file shorter than its magic number is undefined behaviour (C63_short).")
s("C64","partial","Proved for all complete files with less than 2^31 pixels per image and all histories of calls with indices whose offsets the file system can represent. Refuted beyond: after such an index every image is undefined, as are missing data and larger images.")
s("C65","partial","Proved for all complete files with at least one image and all histories; with no image the constructor raises an exception. Refuted for files shorter than their headers say.")
s("C66","partial","Proved exactly for up to 2^24 batches; refuted above (101%, one column more). Between 1 and 101% for every count. The count of = signs is exact for all arguments, with undefined conversions.")
s("C67","proved","Any number type, any network whose sizes fit, fresh or used; the network of main.cpp as an instance.")
s("C68","proved","Any number type and network; square outputs are part of the statement because of C25. The order of evaluation of C28 is a hypothesis.")
s("C69","partial","Every interleaving, any number type. Hypotheses: batch size, threads and data points below 2^24 (C50) and at least one full batch of data (C55_first_batch_refuted).")
s("C70","partial","Any number type, new networks included. Hypotheses: batch size and data points below 2^24 and at least one full batch of data.")
s("C71","partial","Proved for one thread and up to 2^24 images. Refuted for two or more threads (C71_threads_refuted; the code uses hardware_concurrency): the label of the output layer and the first use of the fully connected layer are data races.")
s("C72","partial","Every interleaving of single accesses, any number type, n + threads at most 2^31. Missing: the effects that C++ allows for the data race of C75.")
s("C73","proved","Every reachable state; the bound on the number of steps is explicit. Same interleaving semantics and hypotheses as C72.")
s("C74","partial","Every interleaving of single accesses, though threads overwrite each other's indices in the pooling layers. Missing: the effects that C++ allows for the data race of C75.")
s("C75","partial","Refuted for every network with a pooling layer for maxima or minima (also that of main.cpp), two threads and two images: the index slot 0 is written by all threads. Proved: the reader is used by one thread at a time, all other layers and parameters are only read.")
s("C76","partial","Proved exactly for up to 671088 images; refuted for 671091 images (more than 100) and for none (not a number). For any number of images the relative error is at most 5 * 2^-24 (C76_near_partial) and the number at most 100.00003.")
s("C77","partial","Valid for all values of rand() below RAND_MAX; exact for up to 2^20 images unless r n / RAND_MAX is an integer, where it may be one less (never for the RAND_MAX of the GNU C library, C77_gnu_partial). Refuted for RAND_MAX, which selects image n.")
s("C78","partial","Proved for floats: gray images with values up to 2^24 that are not constant with a value of at least 1, colour images without negative values. Refuted: constant images of value at least 1 and negative colour values are undefined; the largest value is not white if below 1, for MNIST at most 169 of 255. Integers: C93.")
s("C79","partial","Proved for at least one image and values of rand() below RAND_MAX, for any number type; refuted for RAND_MAX and for no images: an exception ends the program.")
s("C80","partial","One thread, 33 to 2^24 training images of 28 x 28 with digits as labels, at least one test image, values of rand() below RAND_MAX. Refuted for RAND_MAX: the model is not saved. Several threads: refuted by C71_threads_refuted.")
s("C81","partial","Refuted: the file has a line for the activation function that Kernel::deserialize does not expect; the call returns false and leaves one kernel in the model. Proved for every text with such a line.")
s("C82","proved","exp, tanh: any functions with the stated ranges (C82_correctly_rounded: correctly rounded functions have them); for the last part also monotone.")
s("C83","proved","Same assumptions on exp as C82.")
s("C84","partial","Refuted: 0 and 2^-60 give equal probabilities, also with a correctly rounded exp. Proved: the label has the largest probability, and no other input is larger by 2^-50 or more (if exp(x) <= 1 - 2^-51 for x <= -2^-50).")
s("C85","proved","Square roots and conversions to float are correctly rounded. C85_main: the network of main.cpp on images with values up to 256.")
s("C86","proved","log2: any function that is exact at powers of two and between them otherwise.")
s("C87","partial","Refuted for every network that fits its data, two or more threads, a batch size of at least two and two data points: the label of the output layer is written by all threads; also the first use of a fully connected layer. Proved: the data source is used by one thread at a time, the slots by one thread each, and parameters of used layers do not change.")
s("C88","proved","One thread; any number of threads if all layers have their parameters. C88_main: the first batch of main.cpp. C88_unbounded_refuted: bounds are needed.")
s("C89","proved","The text is that of printf in the C locale; the sign of a NaN is not modelled.")
s("C90","partial","Proved for std::cout and absolute values below 9999.995 (doubles, floats), and for ints up to 9999 on any stream, sizes not zero. Refuted: other streams (the format is set for std::cout), wider numbers, the smallest int, and matrices without columns.")
s("C91","partial","Refuted for the notation of std::cout, which is reset. Proved: its precision and all other streams keep their format.")
s("C92","proved","Batch size, threads and data points below 2^24.")
s("C93","partial","Gray images: some value below 255, none at or below 255 - 2^31. Refuted: images that are white everywhere, images whose values are all larger, values below that, and negative values in colour images are undefined.")
s("C94","proved","For every square root function and text of a number; addition in the order of the code.")
s("C95","proved","The limit on the elements is part of the statement; C95_wide_refuted shows that wider elements break the columns.")
s("C96","partial","Proved for results with at least one matrix. Refuted for results without matrices: back() of an empty vector is undefined.")
s("C97","partial","Proved for one thread and any type of numbers, also for runs that fail. Refuted for two threads and doubles: the order of the data points in a batch changes the sum of the gradients. In exact arithmetic: C54.")
s("C98","proved","What is malformed is given exactly (C98_malformed): the end of the text, a character that starts no number, a sign, point or exponent without digits, or a value above the largest double. Numbers need not be followed by white space, only by a character that continues no number.")
s("C99","partial","The images before the end are delivered. Refuted otherwise: the read is not checked, and the behaviour of the reader, of validate (any number of threads) and of the program (with one thread; short files for training or for validation) is undefined.")
s("C100","proved","")
s("C101","proved","")
s("C102","proved","")
s("C103","proved","")
s("C104","proved","")
s("C105","proved","")
s("C106","proved","")
s("C107","partial","For missing labels, for numbers written in decimal that do not fit int (or unsigned, from 2^32 on) and for words in place of numbers. Refuted otherwise: a negative number of filters is stored modulo 2^32 and loading goes on, the last number of a pooling layer is accepted as the nearest int or 0, and a text that ends after a label leads to undefined behaviour.")
s("C108","proved","All kinds of layers, any element type, any text.")

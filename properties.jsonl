{"id": "C01", "title": "Shape construction accepts exactly the valid shapes and computes row-major strides", "statement": "Constructing a TensorShape from a vector of ints succeeds iff the vector is non-empty, its first entry is >= 0, all other entries are > 0 and every suffix product fits a 32-bit int. It aborts (assert) iff the vector is empty or an entry has the wrong sign, and otherwise (some suffix product exceeds INT_MAX) it has undefined behaviour (signed overflow). On success size() is the rank, shape(i) is the i-th entry, chunk(i) is the product of entries i.. except that chunk(0) is 1 when the first entry is 0; every chunk is in 1..INT_MAX.", "quantifier": "every vector of 32-bit ints of every length", "why_tests_cant": "The domain is infinite in rank and 2^32 per entry; overflow and sign corners are rare points of it.", "anchors": ["src/tensor/tensor_shape.cpp: TensorShape::TensorShape(const vector<int>&)", "src/tensor/tensor_shape.h: shape, chunk, size"]}
{"id": "C02", "title": "Copying a shape reproduces it; copying a default-constructed shape aborts", "statement": "Copy-constructing or assigning a successfully constructed TensorShape yields a shape with the same rank, extents and chunks (whatever the destination held before). Copying a default-constructed TensorShape always aborts.", "quantifier": "every constructible shape, every destination", "why_tests_cant": "needs all shapes and all previous destinations", "anchors": ["src/tensor/tensor_shape.cpp: copy constructor, operator="]}
{"id": "C03", "title": "Zeros, Ones, Eyes and the shape constructor fill every element correctly", "statement": "For every valid shape, Tensor(shape) and Zeros(shape) hold 0 at every element, Ones(shape) holds 1 at every element, Eyes(n) (n >= 1, n*n <= INT_MAX) has shape {n,n} and element (i,j) equal to 1 if i = j and 0 otherwise. Eyes(0) aborts and Eyes(n) with n*n > INT_MAX is undefined behaviour. No existing tensor changes.", "quantifier": "every shape, every element index, every prior heap", "why_tests_cant": "all sizes", "anchors": ["src/tensor/tensor.cpp: Tensor(shape), Zeros, Ones, Eyes"]}
{"id": "C04", "title": "Copy and move construction make independent deep copies", "statement": "Copy-constructing (or move-constructing) from a tensor that owns a buffer gives a tensor with the same shape and the same elements in a fresh buffer; the source keeps its shape and elements, and any later write through either tensor leaves the other unchanged. Copying or move-constructing a tensor that has no buffer (default constructed or moved-from) is undefined behaviour.", "quantifier": "every source tensor, every later write", "why_tests_cant": "aliasing shows only under later writes; all sizes", "anchors": ["src/tensor/tensor.cpp: Tensor(const Tensor&), Tensor(Tensor&&)"]}
{"id": "C05", "title": "Copy assignment copies iff the element counts agree", "statement": "a = b (copy assignment, b holding initialised elements) leaves a with exactly b's shape and elements when a owns a buffer with the same element count as b. When a's count is larger the assignment is undefined behaviour (reads past b's buffer). When a's count is smaller, a ends with b's shape but only the first (old count) elements are copied and reading any further element of a is undefined. When a has no buffer, only as many elements as a's old shape says are copied, into a buffer of that size, so reading later elements is out of bounds. The element-count agreement is thus necessary and sufficient for a correct copy between tensors that own buffers.", "quantifier": "every pair of destination and source tensors", "why_tests_cant": "tests in the repo assign only equal-sized tensors; the failure is silent memory corruption", "anchors": ["src/tensor/tensor.cpp: operator=(const Tensor&)"]}
{"id": "C06", "title": "Move assignment transfers the buffer, empties the source and abandons the old buffer", "statement": "a = std::move(b) gives a the shape, elements and buffer of b, leaves b with its shape but no buffer, and never frees a's previous buffer, which becomes unreachable (a leak) if a owned one. Self-move-assignment loses the buffer: the tensor ends without a buffer.", "quantifier": "every pair of tensors, including the same object", "why_tests_cant": "leaks and self-move are not observable by value tests", "anchors": ["src/tensor/tensor.cpp: operator=(Tensor&&)"]}
{"id": "C07", "title": "Element-wise binary operators on equal shapes", "statement": "t1+t2, t1-t2, t1*t2, t1/t2 (and add/sub/mul/div) and t1^t2 on tensors of equal shape return a fresh tensor of that shape whose element at every multi-index is the scalar operation applied to the operands' elements at that multi-index; operands keep shape and contents; this holds for every OpenMP schedule.", "quantifier": "all equal-shaped operand pairs, all element types and scalar operations, all schedules", "why_tests_cant": "all shapes, all values, all interleavings", "anchors": ["src/tensor/ops/add.cpp", "src/tensor/ops/sub.cpp", "src/tensor/ops/mul.cpp", "src/tensor/ops/div.cpp", "src/tensor/ops/power.cpp"]}
{"id": "C08", "title": "Broadcasting over one missing leading axis; exact result for more", "statement": "If t2's shape is t1's shape without its first axis, t1 op t2 (op in + - * /) has at each multi-index (i0,rest) the value t1[i0,rest] op t2[rest]. If t2 lacks k >= 2 leading axes, only the elements whose first k-1 indices are all 0 get that value and all other elements of the result are 0 - so broadcasting over two or more axes is correct for every element iff the first k-1 extents multiply to 1 (or the ignored elements happen to be 0). Exception: when t1's first extent is 0 and t2 lacks k >= 2 axes, the operator reads and writes out of bounds as soon as it has more than one element to fill.", "quantifier": "all operand pairs with suffix-compatible shapes, all schedules", "why_tests_cant": "the repo test checks only the part of the output that the code writes", "anchors": ["src/tensor/ops/add.cpp", "src/tensor/ops/sub.cpp", "src/tensor/ops/mul.cpp", "src/tensor/ops/div.cpp"]}
{"id": "C09", "title": "Element-wise operators accept exactly suffix-compatible shapes", "statement": "t1 op t2 for op in + - * / aborts iff t2's shape is not a suffix of t1's shape; t1^t2 aborts iff the shapes differ. When accepted and both operands are initialised there is no undefined behaviour, for every schedule, provided t1's first extent is not 0 or t2 lacks at most one axis.", "quantifier": "all pairs of tensors, all schedules", "why_tests_cant": "all ranks and extents", "anchors": ["src/tensor/ops/add.cpp", "src/tensor/ops/sub.cpp", "src/tensor/ops/mul.cpp", "src/tensor/ops/div.cpp", "src/tensor/ops/power.cpp"]}
{"id": "C10", "title": "Tensor-scalar operators and unary maths functions are element-wise", "statement": "t+v, t-v, t*v, t/v, t^v, -t, exp(t), log(t), sqrt(t), return a fresh tensor with t's shape whose every element is the scalar function of the corresponding element; t is unchanged; for every schedule.", "quantifier": "all tensors, scalars, schedules", "why_tests_cant": "all sizes and schedules", "anchors": ["src/tensor/ops/add.cpp", "src/tensor/ops/sub.cpp", "src/tensor/ops/mul.cpp", "src/tensor/ops/div.cpp", "src/tensor/ops/power.cpp", "src/tensor/ops/negate.cpp", "src/tensor/ops/exp.cpp", "src/tensor/ops/log.cpp", "src/tensor/ops/sqrt.cpp"]}
{"id": "C11", "title": "Equality returns a 0/1 mask; shapes are not checked", "statement": "t1 == t2 on equal shapes (and t == v) returns a tensor whose element is 1 exactly where the elements compare equal and 0 elsewhere; equal(.,.,eps) is 1 exactly where |x-y| < eps (strictly, so eps = 0 yields all 0), and aborts for eps < 0. Operands of different rank abort; operands of equal rank but different extents are NOT rejected: if t2 has fewer elements than t1 the behaviour is undefined, and otherwise t2's flat prefix is compared.", "quantifier": "all tensors, eps, schedules", "why_tests_cant": "the missing extent check (t1 compared with itself) passes all equal-shape tests", "anchors": ["src/tensor/ops/equal.cpp"]}
{"id": "C12", "title": "matmul into a fresh tensor is the matrix product", "statement": "For tensors of shapes {m,k} and {k,n} (all > 0, m*n <= INT_MAX) t1 % t2 has shape {m,n} and element (i,j) equal to the left-to-right accumulation of t1[i,l]*t2[l,j] for l = 0..k-1 starting from 0, for every schedule; over the reals this is the sum over l. Operands are unchanged. Any other shapes abort, and m*n > INT_MAX is undefined behaviour.", "quantifier": "all m,k,n, all contents, all schedules", "why_tests_cant": "all sizes, schedules; the overflow of m*n needs >2^31 outputs", "anchors": ["src/tensor/ops/matmul.cpp"]}
{"id": "C13", "title": "matmul into a caller-supplied tensor", "statement": "matmul(t1,t2,out) with out a distinct tensor owning at least m*n elements writes the product row-major into the first m*n elements of out's existing buffer, keeps the elements beyond, does not change out's shape, and returns a deep copy of out. If out owns fewer than m*n elements (or none) out becomes a fresh {m,n} tensor and its previous buffer is leaked. Hence out has shape {m,n} afterwards iff it had that shape or was too small.", "quantifier": "all operands, all previous outputs, all schedules", "why_tests_cant": "the repo test only reuses an output of exactly the right shape", "anchors": ["src/tensor/ops/matmul.cpp"]}
{"id": "C14", "title": "matmul is not safe when the output aliases an operand", "statement": "matmul(a,b,a) for n x n matrices with n >= 2 (the output aliases the left operand) has a data race under every OpenMP schedule, and two interleavings of the same call can leave different contents. matmul(a,b,b) (the output aliases the right operand) is deterministic but does not compute the product in general.", "quantifier": "existence over inputs and schedules", "why_tests_cant": "schedule-dependent", "anchors": ["src/tensor/ops/matmul.cpp"]}
{"id": "C15", "title": "argmax/argmin return the extreme value of each row/column", "statement": "argmax(t,0) (argmin(t,0)) on a rank-2 tensor with at least one row returns, for each column, a value occurring in this column such that no entry of the column is strictly greater (smaller); any other axis gives the same per row. For every strict partial order on the scalars (hence also for IEEE floats with NaN) and every schedule. The result is the value, not its index. Rank other than 2 aborts. With zero rows and two or more columns argmax(t,0) reads out of bounds.", "quantifier": "all rank-2 tensors, orders, schedules", "why_tests_cant": "all sizes, NaN placement, schedules", "anchors": ["src/tensor/ops/argmax.cpp", "src/tensor/ops/argmin.cpp"]}
{"id": "C16", "title": "reduce_sum / reduce_mean", "statement": "reduce_sum(t) accumulates all elements left to right from 0; reduce_sum(t,0) / reduce_sum(t,axis!=0) give per-column / per-row accumulations of a rank-2 tensor; reduce_mean divides these by the element count / rows / cols. Over the reals the total equals the sum of the column sums and of the row sums, and mean*count = sum. For every schedule; t unchanged; rank != 2 with an axis aborts.", "quantifier": "all tensors, axes, schedules", "why_tests_cant": "all sizes", "anchors": ["src/tensor/ops/reduce_sum.cpp", "src/tensor/ops/reduce_mean.cpp"]}
{"id": "C17", "title": "Parallel loops are race-free and schedule-independent", "statement": "In every element-wise operator, reduction, argmax/argmin and matmul with an output distinct from its operands, no two iterations of a parallel region touch a common memory cell that one of them writes, and every interleaving of the iterations' individual reads and writes ends in the same heap as sequential execution.", "quantifier": "all inputs and all interleavings of reads and writes", "why_tests_cant": "interleavings are exponentially many", "anchors": ["src/tensor/openmp_support.h", "src/tensor/ops/add.cpp", "src/tensor/ops/sub.cpp", "src/tensor/ops/mul.cpp", "src/tensor/ops/div.cpp", "src/tensor/ops/negate.cpp", "src/tensor/ops/power.cpp", "src/tensor/ops/exp.cpp", "src/tensor/ops/log.cpp", "src/tensor/ops/sqrt.cpp", "src/tensor/ops/equal.cpp", "src/tensor/ops/argmax.cpp", "src/tensor/ops/argmin.cpp", "src/tensor/ops/reduce_sum.cpp", "src/tensor/ops/reduce_mean.cpp", "src/tensor/ops/matmul.cpp"]}
{"id": "C18", "title": "Memory safety and no leak over arbitrary histories of well-typed tensor operations", "statement": "Any finite sequence of shape construction, copy construction, element-wise/broadcast/reduction/matmul operations bound to new variables, in-range element reads and writes, Reshape, equal-count copy assignment and destruction, never reaches undefined behaviour (it may only stop in an assertion or at int overflow of an oversized result), never leaks, and after all variables are destroyed no block is live.", "quantifier": "all operation histories", "why_tests_cant": "histories are unbounded", "anchors": ["src/tensor/tensor.cpp", "src/tensor/ops/add.cpp", "src/tensor/ops/sub.cpp", "src/tensor/ops/mul.cpp", "src/tensor/ops/div.cpp", "src/tensor/ops/negate.cpp", "src/tensor/ops/power.cpp", "src/tensor/ops/exp.cpp", "src/tensor/ops/log.cpp", "src/tensor/ops/sqrt.cpp", "src/tensor/ops/equal.cpp", "src/tensor/ops/argmax.cpp", "src/tensor/ops/argmin.cpp", "src/tensor/ops/reduce_sum.cpp", "src/tensor/ops/reduce_mean.cpp", "src/tensor/ops/matmul.cpp"]}
{"id": "C19", "title": "Reshape keeps the elements", "statement": "Reshape(s) aborts iff s's element count differs from the tensor's (or s is not a valid shape); otherwise the flat elements and the buffer are unchanged and the shape is s; hence reshaping back restores the tensor.", "quantifier": "all tensors and shapes", "why_tests_cant": "all shapes", "anchors": ["src/tensor/tensor.cpp: Reshape"]}
{"id": "C20", "title": "A one-value tensor cannot be destroyed without undefined behaviour", "statement": "Tensor(val) holds the single element val with shape {0} and element count 1, but its buffer comes from scalar new, so destroying it (delete[]) is undefined behaviour, whatever happened in between, unless its buffer was moved away or replaced by a larger one - and the replacement in a growing copy assignment is undefined too.", "quantifier": "every value", "why_tests_cant": "mismatched delete[] usually goes unnoticed at run time", "anchors": ["src/tensor/tensor.cpp: Tensor(DType), ~Tensor, operator="]}
{"id": "C21", "title": "Assigning a computed tensor to an existing one leaks its buffer each time", "statement": "t = expr (the result of an operator assigned to a tensor owning a buffer) gives t the value of the expression and leaks exactly one block; after n such assignments n blocks are leaked.", "quantifier": "all n, all operands", "why_tests_cant": "leaks are invisible to value tests", "anchors": ["src/tensor/tensor.cpp: operator=(Tensor&&), ~Tensor"]}
{"id": "C22", "title": "Smooth activations: actd is the derivative of act", "statement": "For identity, sigmoid, arctan, tanhyperbolic, bipolarsigmoid, comploglog and smoothrelu, evaluated in exact real arithmetic, actd(z) is the derivative of act at z for every real z.", "quantifier": "all real z", "why_tests_cant": "one-point finite differences in the repo test cannot establish a derivative everywhere", "anchors": ["src/act.cpp"]}
{"id": "C23", "title": "Kinked activations: derivative away from kinks, one-sided at kinks", "statement": "relu, absolute, hardtanh, relucos, relusin: actd(z) is the derivative of act at every z other than the kinks (0; -1 and 1 for hardtanh); at each kink act is not differentiable and actd returns the right derivative (relu, absolute, relucos, relusin at 0), and for hardtanh the inner one-sided derivative 1 at both kinks.", "quantifier": "all real z", "why_tests_cant": "all points incl. kinks", "anchors": ["src/act.cpp"]}
{"id": "C24", "title": "lecuntanh derivative is only approximate", "statement": "lecuntanh.actd differs from the derivative of lecuntanh.act at every real z, by less than 3.4e-9 in absolute value and by a relative error of exactly 1/343180000 at all z.", "quantifier": "all real z", "why_tests_cant": "the repo test uses tolerance 1e-6", "anchors": ["src/act.cpp"]}
{"id": "C25", "title": "Activation ranges and monotonicity", "statement": "sigmoid and comploglog lie strictly in (0,1), tanhyperbolic and bipolarsigmoid strictly in (-1,1), arctan in (-pi/2,pi/2), lecuntanh in (-1.7159,1.7159), hardtanh in [-1,1], relu >= max(0,z) with equality, absolute >= 0, smoothrelu > max(0,z); sigmoid, arctan, tanhyperbolic, bipolarsigmoid, comploglog, lecuntanh, smoothrelu and identity are strictly increasing, relu and hardtanh non-decreasing. In exact real arithmetic.", "quantifier": "all real z", "why_tests_cant": "all reals", "anchors": ["src/act.cpp"]}
{"id": "C26", "title": "Activation gradients overflow to NaN in floating point", "statement": "In IEEE double arithmetic, for every exp function that overflows to +infinity at some finite argument, smoothrelu.actd at that argument, sigmoid.actd at its negation and (if exp(-inf) = 0) comploglog.actd at that argument are NaN, while sigmoid.act, comploglog.act, bipolarsigmoid.act and .actd take their limit values there and the true derivatives are finite everywhere.", "quantifier": "all exp implementations with overflow", "why_tests_cant": "only reached at |z| > 709.78", "anchors": ["src/act.cpp"]}
{"id": "C27", "title": "Dense layer forward pass", "statement": "Layer::forwardprop(x) for an m x p input and (p+1) x n weights (m,p >= 1) returns the m x n matrix with entry (r,j) = act(W(0,j) + sum_i x(r,i) W(i+1,j)); it does not change the weights, and it throws if the column count of x differs from p.", "quantifier": "all sizes, inputs, weights, activations", "why_tests_cant": "all sizes and values", "anchors": ["src/layer/layer.cpp: Layer::forwardprop", "src/matop.cpp: addcol, funcop"]}
{"id": "C28", "title": "Batch rows are processed independently", "statement": "For a network of dense layers, row r of forwardprop(X) equals the forwardprop of the single row X(r); prediction for one sample never depends on the other samples in the batch.", "quantifier": "all networks, depths, batches", "why_tests_cant": "all depths and batch sizes", "anchors": ["src/neuralnet.cpp: NeuralNet::forwardprop, predict", "src/layer/layer.cpp"]}
{"id": "C29", "title": "Back-propagated gradients are the true gradients of the cost", "statement": "For every network of dense layers (any depth and widths) whose activations' actd is the derivative of act at the pre-activations reached, and whose output layer is QuadraticOutput or CrossEntropyOutput with its built-in activation, or SoftmaxOutput with label rows summing to 1, after forwardprop(x) and backprop(y) the gradient stored in each layer, minus lambda*W, is the exact gradient of computecost(forwardprop(x),y) with respect to the layer's weight matrix (as directional derivative in every direction and as partial derivative in every entry).", "quantifier": "all depths, widths, batches, weights, inputs, labels", "why_tests_cant": "a gradient check samples finitely many nets and points with tolerance", "anchors": ["src/neuralnet.cpp", "src/layer/layer.cpp", "src/layer/outputlayer.cpp", "src/output/crossentropyoutput.cpp: costfunc, costfuncdelta", "src/output/kullbackleibleroutput.cpp: costfunc, costfuncdelta", "src/output/quadraticoutput.cpp: costfunc, costfuncdelta", "src/output/softmaxoutput.cpp: costfunc, costfuncdelta"]}
{"id": "C30", "title": "The Kullback-Leibler output back-propagates the negated gradient", "statement": "KullbackLeiblerOutput's delta is exactly minus the gradient of its cost with respect to the output activations (for positive labels and activations), so a training step with a small enough learning rate strictly increases the cost whenever the gradient is non-zero.", "quantifier": "all labels and outputs", "why_tests_cant": "sign shows only by analysing the formula everywhere", "anchors": ["src/output/kullbackleibleroutput.cpp"]}
{"id": "C31", "title": "Custom activations in the built-in outputs are ignored by the delta", "statement": "Constructing QuadraticOutput (CrossEntropyOutput) from a LayerParam keeps the param's activation, but the delta is (a-y)/n regardless; with an activation whose derivative differs from 1 (from sigmoid's) the stored gradient is in general not the gradient of the cost. The other constructors fix the activation (sigmoid for cross entropy, identity for the other three) and take rates, regularisation, sizes and weight deviation from their arguments.", "quantifier": "existence, for a concrete net", "why_tests_cant": "needs comparing with the analytic derivative", "anchors": ["src/output/quadraticoutput.cpp", "src/output/crossentropyoutput.cpp"]}
{"id": "C32", "title": "A training step with small learning rate decreases the cost", "statement": "Under the hypotheses of C29 with lambda = 0 and a common learning rate, if some weight gradient is non-zero there is eta0 > 0 such that for every learning rate 0 < eta < eta0 one feeddata(x,y) of the plain trainer strictly decreases computecost on (x,y).", "quantifier": "all nets and data", "why_tests_cant": "needs analysis", "anchors": ["src/trainer/trainer.cpp", "src/neuralnet.cpp"]}
{"id": "C33", "title": "update applies W - lrate*grad to all layers with gradients taken before any weight changes", "statement": "feeddata(x,y) of the plain trainer replaces every layer's weights by W - lrate*grad where all grads are those of the weights before the call; grad includes lambda*W for all rows including the bias row; layer sizes never change.", "quantifier": "all nets", "why_tests_cant": "all nets", "anchors": ["src/neuralnet.cpp: update", "src/layer/layer.cpp: update, backprop", "src/trainer/trainer.cpp"]}
{"id": "C34", "title": "predict returns the first maximal class and its score", "statement": "predict(x) returns one row per sample with column 0 the smallest index of a maximal output entry of that row and column 1 this entry, getresult() afterwards is the full output, and weights are unchanged.", "quantifier": "all outputs", "why_tests_cant": "ties and all sizes", "anchors": ["src/layer/outputlayer.cpp: argmax", "src/neuralnet.cpp: predict"]}
{"id": "C35", "title": "Cost functions: signs and minima", "statement": "In exact arithmetic with n >= 1 rows: quadratic cost is >= 0 and 0 iff prediction = label; cross-entropy cost for labels in [0,1] and predictions in (0,1) is >= its value at prediction = label; softmax cost is >= 0 for non-negative labels and unchanged by adding a constant to a row of outputs; KL cost summed over a row is >= 0 when both rows are positive distributions and 0 iff they are equal.", "quantifier": "all labels and predictions", "why_tests_cant": "convexity-type inequality over all reals", "anchors": ["src/output/crossentropyoutput.cpp: costfunc, costfuncdelta", "src/output/kullbackleibleroutput.cpp: costfunc, costfuncdelta", "src/output/quadraticoutput.cpp: costfunc, costfuncdelta", "src/output/softmaxoutput.cpp: costfunc, costfuncdelta"]}
{"id": "C36", "title": "Learning-rate decay fires exactly once, at call number step", "statement": "For Trainer, SGDTrainer and MomentumTrainer constructed with (r0,k,step): over any sequence of feeddata calls, all layers use their initial learning rates in calls 1..step-1 and r0*exp(-k*step) from call step on (never if step = 0 or no decay configured).", "quantifier": "all call sequences", "why_tests_cant": "unbounded histories", "anchors": ["src/trainer/trainer.cpp", "src/trainer/sgdtrainer.cpp", "src/trainer/momentumtrainer.cpp"]}
{"id": "C37", "title": "BatchTrainer decay can be skipped over", "statement": "BatchTrainer counts mini-batches but tests iters == step only at the end of a feeddata call, so decay is applied iff step equals the running batch total at the end of some call; for n rows per call and batch size b with ceil(n/b) > 1 and step not a multiple of ceil(n/b), it is never applied.", "quantifier": "all call sequences", "why_tests_cant": "unbounded histories", "anchors": ["src/trainer/batchtrainer.cpp"]}
{"id": "C38", "title": "BatchTrainer covers all samples with equal-size cyclic batches", "statement": "feeddata(x,y) with 2 <= batchsize <= rows+1 performs exactly ceil(rows/batchsize) forward/backward/update steps, the j-th on the batchsize consecutive rows starting at j*batchsize, indices taken modulo rows; every sample is used at least once and at most twice (all batches have exactly batchsize rows, no out-of-range access). For batchsize = 1 and for batchsize > rows+1 every call throws before any training.", "quantifier": "all row counts and batch sizes", "why_tests_cant": "off-by-one over all sizes", "anchors": ["src/trainer/batchtrainer.cpp: feeddata"]}
{"id": "C39", "title": "BatchTrainer cannot report a cost unless the batch is the whole data set", "statement": "feeddata(x,y,true) compares the last mini-batch output (batchsize rows) with all of y; it throws whenever batchsize differs from rows (built-in costs), after having trained.", "quantifier": "all sizes", "why_tests_cant": "all sizes", "anchors": ["src/trainer/batchtrainer.cpp: feeddata(x,y,ccost)"]}
{"id": "C40", "title": "SGDTrainer processes rows in order, one update per row, and reports the post-epoch cost", "statement": "SGDTrainer::feeddata performs, for r = 0..rows-1 in order, forward/backward/update on row r alone, each using weights updated by the previous rows; feeddata(x,y,true) returns the sum over rows of the cost of the row under the final weights and does not alter weights further.", "quantifier": "all data", "why_tests_cant": "all sizes", "anchors": ["src/trainer/sgdtrainer.cpp"]}
{"id": "C41", "title": "Momentum trainer applies an exponential moving average of gradients", "statement": "For momentum mu != 0, in the t-th call every layer is updated with lrate times (1-mu) * sum_{i<=t} mu^(t-i) g_i where g_i is that layer's back-propagated gradient in call i.", "quantifier": "all numbers of calls, all gradient sequences", "why_tests_cant": "unbounded histories", "anchors": ["src/trainer/momentumtrainer.cpp"]}
{"id": "C42", "title": "Zero momentum does not reduce to plain gradient descent", "statement": "With momentum 0 the t-th call updates the output layer with its current gradient but hidden layers with 1/t of theirs (the accumulated term is multiplied by the integer quotient (t-1)/t = 0), so hidden layers effectively train with a 1/t rate; from t = 2 on this differs from Trainer whenever a hidden gradient is non-zero.", "quantifier": "all t", "why_tests_cant": "integer division masks only at t=1", "anchors": ["src/trainer/momentumtrainer.cpp: feeddata"]}
{"id": "C43", "title": "Copying a network shares its hidden layers", "statement": "A copy-constructed or assigned NeuralNet shares hidden layers with the original but has its own input and output layers: after any training of the copy the original's hidden weights equal the copy's, while the original's output weights are unchanged. So copies are independent iff there is no hidden layer.", "quantifier": "all histories of operations on the copy", "why_tests_cant": "aliasing over histories", "anchors": ["src/neuralnet.cpp: copy constructor, operator=", "src/neuralnet.h"]}
{"id": "C44", "title": "Copies of derived trainers restart and enable decay", "statement": "Copy-constructing SGDTrainer/BatchTrainer/MomentumTrainer resets the iteration count to 0 and enables decay even if the source had none; the copy constructor of Trainer and all assignments keep both. A source constructed without decay (step 0) and its copy nevertheless train every network identically over every history (MomentumTrainer: momentum other than 0). For a source with decay, the copy starts the schedule afresh: it changes the rate at its own call number step (BatchTrainer: when its own batch count hits step at the end of a call), whatever the source has already done.", "quantifier": "all trainer states", "why_tests_cant": "state-dependent", "anchors": ["src/trainer/trainer.cpp: feeddata", "src/trainer/sgdtrainer.cpp: feeddata", "src/trainer/batchtrainer.cpp: feeddata", "src/trainer/momentumtrainer.cpp: feeddata"]}
{"id": "C45", "title": "Copying an input layer grows it", "statement": "Copy-constructing an InputLayer of a rows x c weight matrix gives a (rows+1) x c matrix with re-initialised weights, so k successive copies report getpnnodes() larger by k; forwardprop (identity) is unaffected.", "quantifier": "all copy chains", "why_tests_cant": "chains", "anchors": ["src/layer/inputlayer.cpp", "src/neuralnet.cpp: constructor"]}
{"id": "C46", "title": "Weight initialisation normalisation", "statement": "randominit(s) on a matrix with at least 2 entries: for every draw sequence that is not all 0, the resulting weights satisfy sqrt(sum (S - w)^2 / N) = |s| where S is the SUM (not the mean) of the weights; hence their standard deviation is at most |s|, with equality exactly when the weights add up to 0. A 1x1 weight matrix always divides by zero: in binary64 the weight becomes inf or NaN. Because the engine is default-seeded on each call, two layers with the same dimensions and s get identical weights.", "quantifier": "all draw sequences, sizes, s", "why_tests_cant": "all sizes", "anchors": ["src/layer/layer.cpp: randominit"]}
{"id": "C47", "title": "save/load round trip", "statement": "save followed by load into a network with the same number of weights replaces each weight w by parse(print w), in the same position of the same layer when the layer sizes agree, for all depths and sizes, and changes nothing else; hence the round trip is exact iff each weight survives printing with the stream's precision (6 significant digits). A weight that prints as something unreadable (inf, nan) loses itself and every weight after it. Loading from a file that cannot be opened changes nothing.", "quantifier": "all networks and weights", "why_tests_cant": "all sizes, all values", "anchors": ["src/neuralnet.cpp: save, load"]}
{"id": "C48", "title": "load from a truncated or malformed file silently zeroes the remaining weights", "statement": "load reads tokens in order; from the first missing or unparsable token on, all remaining weights of all layers become 0 with no error indication. A crash at any point during save leaves a proper prefix of the new contents (the old contents are gone) so a later load yields a prefix of the saved weights, at most one mangled weight, then zeros.", "quantifier": "all truncation points, all file contents", "why_tests_cant": "crash points", "anchors": ["src/neuralnet.cpp: save, load"]}
{"id": "C49", "title": "Convolution forward pass (stride 1)", "statement": "For a single sample and stride 1, Conv2DLayer::forwardprop output channel k at flat position i*ow+j is act( sum over input channels c and window offsets (u,v) of padded image_c(i+u,j+v) * filter_{c,k}(u,v) ), where image_c is read column-major from the sample; output size (w - spatial + 2*padding + 1) x (h - ...).", "quantifier": "all sizes and values", "why_tests_cant": "all sizes", "anchors": ["src/layer/conv2dlayer.cpp: forwardprop, convolve, toimage, addzeropadding"]}
{"id": "C50", "title": "Convolution ignores batch rows and mishandles strides", "statement": "With two or more samples every output row of Conv2DLayer::forwardprop is the same, a function of interleaved entries of the whole batch; with stride >= 2 outputs whose row or column index is not a multiple of the stride are never computed; a negative stride (the type is int) makes every forwardprop with at least one sample throw.", "quantifier": "all batches", "why_tests_cant": "needs batch > 1 and stride > 1 comparisons", "anchors": ["src/layer/conv2dlayer.cpp"]}
{"id": "C51", "title": "Copying a convolution layer changes its stride and loses its weights and sizes", "statement": "After Conv2DLayer copy construction or assignment the target's stride equals the source's filter size, and the weights, filters and input sizes are not copied: a copy-constructed layer reads uninitialised sizes, an assigned one keeps its own, and self-assignment changes the stride to the filter size. A MaxPoolLayer's copy construction and assignment inherit all this and also copy the recorded maximum positions: a forward pass of a copy-constructed one reads uninitialised sizes.", "quantifier": "all layers", "why_tests_cant": "all", "anchors": ["src/layer/conv2dlayer.cpp: operator="]}
{"id": "C52", "title": "Pooling forward passes", "statement": "For one sample, one channel and stride 1, MaxPoolLayer::forwardprop gives at (i,j) the maximum of 0 and the window entries (so 0 on all-negative windows), MeanPoolLayer the window mean; with several channels every output channel is the SUM over all input channels of their pooled values; with stride s the window for output (i,j) starts at (i,j), not (i*s,j*s).", "quantifier": "all images", "why_tests_cant": "all sizes and signs", "anchors": ["src/layer/maxpoollayer.cpp", "src/layer/meanpoollayer.cpp"]}
{"id": "C53", "title": "NormLayer scales by a range that sticks between passes", "statement": "After a backprop, NormLayer::forwardprop divides by max-min of its input and remembers that range: consecutive forwardprops without a backprop in between all divide by the range of the first one. backprop divides by that range and forgets it. After construction the range is indeterminate, so the first forwardprop reads an uninitialised value.", "quantifier": "all histories of forward/backward calls", "why_tests_cant": "histories", "anchors": ["src/layer/normlayer.cpp"]}
{"id": "C54", "title": "SoftmaxLayer forward yields a distribution; backward is not its derivative", "statement": "SoftmaxLayer::forwardprop returns rows of positive entries summing to 1, invariant under adding a constant to a row; backprop(delta) returns softmax(delta), in particular it is never 0 for delta = 0, so it is not the transpose-Jacobian product.", "quantifier": "all inputs", "why_tests_cant": "all reals", "anchors": ["src/layer/softmaxlayer.cpp"]}
{"id": "C55", "title": "setlrate, randomize and accessors affect only what they name", "statement": "setlrate(r) sets the rate of the input, all hidden and the output layer and changes no weight, nor the result of forwardprop; randomize(i,s) re-initialises only hidden layer i (or the output layer if i >= number of hidden layers); gethidden(i)/getoutput() return the current contents, sethiddenw(i,w)/setoutputw(w) change the weights of the named layer and nothing else (layers held by several positions are one object); an index out of range is undefined behaviour.", "quantifier": "all networks", "why_tests_cant": "frame conditions", "anchors": ["src/neuralnet.cpp", "src/neuralnet.h"]}
{"id": "C56", "title": "Training on well-shaped data never fails", "statement": "For a network of distinct dense hidden layers whose sizes chain from p inputs to c outputs and a built-in cost, any sequence of feeddata calls (with or without cost) of Trainer, SGDTrainer, MomentumTrainer, and of BatchTrainer with 2 <= batchsize <= rows+1, on data with p columns and labels with c columns and the same number (>= 1) of rows, never throws and has no undefined behaviour, and the layer sizes still chain afterwards.", "quantifier": "all call sequences, depths, widths, data", "why_tests_cant": "unbounded histories and all sizes", "anchors": ["src/trainer/trainer.cpp: feeddata", "src/trainer/sgdtrainer.cpp: feeddata", "src/trainer/batchtrainer.cpp: feeddata", "src/trainer/momentumtrainer.cpp: feeddata", "src/neuralnet.cpp", "src/layer/layer.cpp"]}
{"id": "C57", "title": "GradientChecker accepts only gradients that are wrong everywhere, and leaves the network as it was", "statement": "GradientChecker::issame(m1,m2) is true exactly when the sizes agree and no two corresponding entries are within 1e-6 of each other, so a non-empty matrix is never the same as itself; check() returns on every network of dense layers whose sizes chain, restores all weights (also of the caller's network, whose hidden layers it shares), never looks at the output layer, and answers true iff in every hidden layer every weight's central-difference estimate (taken with all previously probed weights of that layer lowered by eps) differs from the backpropagated gradient by at least 1e-6; for networks of identity-activation layers with quadratic cost, where the estimate of the first weight is exact, it therefore always answers false.", "quantifier": "all networks of dense layers, data and weights", "why_tests_cant": "all inputs and architectures", "anchors": ["test/gradient_checker.cpp", "test/gradient_checker.h"]}
{"id": "C58", "title": "Trainer and MomentumTrainer report the cost from before the update", "statement": "feeddata(x,y,true) of Trainer and MomentumTrainer returns computecost of the outputs that the network had before the call (the weights it starts from), not of the updated network.", "quantifier": "all networks, data, trainer states", "why_tests_cant": "needs comparison with the pre-call network for all inputs", "anchors": ["src/trainer/trainer.cpp", "src/trainer/momentumtrainer.cpp"]}
{"id": "C61", "title": "Asking for the cost does not change training", "statement": "For each of the four trainers and every program of feeddata calls, predictions and forward passes on a network of distinct dense hidden layers: passing ccost = false in every feeddata call instead of the flags actually used leaves the trainer state and all weights, rates, regularisation and activations at the end as they would have been.", "quantifier": "all programs (call sequences), networks, data, scalar types", "why_tests_cant": "unbounded histories", "anchors": ["src/trainer/trainer.cpp: feeddata", "src/trainer/sgdtrainer.cpp: feeddata", "src/trainer/batchtrainer.cpp: feeddata", "src/trainer/momentumtrainer.cpp: feeddata", "src/neuralnet.cpp"]}
{"id": "C62", "title": "The batch gradient is the mean of the per-sample gradients; sample order does not matter", "statement": "For a network of dense layers with a built-in cost the gradient (regularisation included) of every weight on a batch of n rows, in any order and with any repetitions, is the arithmetic mean of the gradients of the single rows; hence permuting the rows of each batch over a whole training history of Trainer leads to the same weights.", "quantifier": "all networks, data sets, permutations and call sequences (real arithmetic)", "why_tests_cant": "all permutations, histories and sizes", "anchors": ["src/layer/layer.cpp: backprop", "src/layer/outputlayer.cpp", "src/trainer/trainer.cpp"]}
{"id": "C66", "title": "Predictions and forward passes between training calls do not influence training", "statement": "For each of the four trainers: removing all predict and forwardprop calls from a program of training calls, predictions and forward passes changes neither the costs returned by the training calls nor the trainer nor the weights, rates, regularisation and activations at the end.", "quantifier": "all programs, networks, data, scalar types", "why_tests_cant": "unbounded histories and interleavings", "anchors": ["src/neuralnet.cpp: predict, forwardprop", "src/trainer/trainer.cpp: feeddata", "src/trainer/sgdtrainer.cpp: feeddata", "src/trainer/batchtrainer.cpp: feeddata", "src/trainer/momentumtrainer.cpp: feeddata"]}
{"id": "C59", "title": "Convolution backward pass: what it computes and when it throws", "statement": "With stride 1, after Conv2DLayer::forwardprop on any non-empty batch, backprop throws for every incoming delta of the size of the output unless the filter side is 2*padding+1; without a preceding forward pass it always throws. When it succeeds, the stored gradient and the returned delta are exactly the sums stated: they use the derivative of the activation AT THE DELTA (not at the pre-activation, and not multiplied by the delta), the image of the last channel only, and exchanged row/column roles. In particular with the identity activation gradient and delta do not depend on the incoming delta at all.", "quantifier": "every image size, channel and filter count, filter side, padding, batch, weights, activation and incoming delta", "why_tests_cant": "the class of sizes for which it throws is infinite and the formula must hold for every weight, image and delta; tests only look at output sizes", "anchors": ["src/layer/conv2dlayer.cpp: backprop, toimage, flip, convolve, addzeropadding"]}
{"id": "C60", "title": "Pooling backward passes cannot train what is in front of them", "statement": "MaxPoolLayer::backprop hands the layer before it a matrix of its own output size, which equals its input size only for 1x1 windows that skip nothing; MeanPoolLayer::backprop hands it an empty matrix. So a dense layer in front of a pooling layer throws in backprop, for every batch and delta.", "quantifier": "every pooling configuration, batch, dense layer and delta", "why_tests_cant": "it is a statement about all configurations; a test shows one", "anchors": ["src/layer/maxpoollayer.cpp: backprop", "src/layer/meanpoollayer.cpp: backprop", "src/layer/layer.cpp: backprop"]}
{"id": "C67", "title": "Matrix helpers", "statement": "addcol prepends a column of ones and throws exactly on matrices without rows or columns; addrow prepends a row of ones; addcols/addrows insert one column/row of the given value at the given position, keep everything else in order and throw for positions beyond the end; rowsum and sumall add every element exactly once; repeat tiles; funcop, exponential and logorithm act element by element. The Armadillo operations the code relies on (element access, rows, cols, submat, shed_col, flips, min, max) give exactly the elements asked for when all of them exist and throw otherwise.", "quantifier": "every matrix, position and value", "why_tests_cant": "sizes and positions are unbounded, boundary positions are where such code goes wrong", "anchors": ["src/matop.cpp: addcol, addcols, addrow, addrows, sumall, rowsum, exponential, repeat, logorithm, funcop"]}
{"id": "C63", "title": "Training a network without hidden layers converges to the least-squares optimum", "statement": "A network with no hidden layer and a QuadraticOutput(p, c, rate eta, regularisation lambda), trained by repeated Trainer::feeddata(x, y) without decay, performs gradient descent on J = computecost + lambda/2 |W|^2. Write L = (1/N) sum_r (1 + |x_r|^2) + lambda. One call changes J by at most -(1/eta - L/2)|W' - W|^2; over any number of calls with eta L < 2 and lambda >= 0 J never increases and the squared weight changes sum to at most J_0/(1/eta - L/2). If moreover lambda > 0, two networks with different initial weights approach each other by the factor q = 1 - eta lambda (2 - eta L) in [0,1) per call (squared distance), there is exactly one weight matrix with the smallest J, and from every initial weight matrix the weights converge to it at the rate q. With one sample and lambda = 0 the prediction error is multiplied by exactly 1 - eta (1 + |x|^2) in every call. Exact real arithmetic.", "quantifier": "every sample matrix and labels, every initial weight matrix, every rate and lambda in the stated range, every number of calls", "why_tests_cant": "Convergence is a statement about the limit of an unbounded training history for all data and starting points; a test sees a finite prefix of one run.", "anchors": ["src/trainer/trainer.cpp: feeddata", "src/output/quadraticoutput.cpp", "src/layer/layer.cpp: forwardprop, update", "src/layer/outputlayer.cpp: backprop"]}
{"id": "C64", "title": "When the trainers coincide", "statement": "A BatchTrainer without decay whose batch size equals the number of samples (at least 2) does over any history of feeddata calls exactly what a Trainer with the same counters does: same networks, same counters, same failures. On data sets of one sample SGDTrainer::feeddata and Trainer::feeddata are the same over any history, with or without decay.", "quantifier": "all networks (any layer kinds), all data, all call histories, any arithmetic", "why_tests_cant": "equality of two programs over unbounded histories and all networks", "anchors": ["src/trainer/batchtrainer.cpp: feeddata", "src/trainer/sgdtrainer.cpp: feeddata", "src/trainer/trainer.cpp: feeddata"]}
{"id": "C65", "title": "The cost an output layer reports", "statement": "After forwardprop(x) and backprop(y) OutputLayer::getcostval() is the sum of the cost of that prediction for y, it is not changed by update, and a later forwardprop changes the prediction used but keeps the old labels. Inside a NeuralNet it is computecost(forwardprop(x), y). But NeuralNet::getoutput() returns a copy that has lost the labels: getoutput().getcostval() throws for every built-in cost as soon as the network has predicted something.", "quantifier": "all networks with hidden layers of any kind, all data, any arithmetic", "why_tests_cant": "all networks and inputs", "anchors": ["src/layer/outputlayer.cpp: getcostval, backprop, copy constructor", "src/neuralnet.h: getoutput"]}
{"id": "C68", "title": "Several trainers and networks in one program", "statement": "Trainers of the four classes hold a pointer to their network; any number of trainers and networks may be alive, several trainers may share a network, networks may be copied, assigned and destroyed. (a) Over every history a trainer's counter advances by one per feeddata call on THAT trainer (BatchTrainer: by one per mini-batch), whatever is done to other trainers and networks, and its settings and its network never change unless it is assigned to. (b) A default-constructed trainer, or one whose network was destroyed, stays unusable until it is assigned to: feeddata and the copy constructors of the derived classes are undefined behaviour (a default BatchTrainer already reads its uninitialised batch size), while copying it as a Trainer works and gives an equally unusable object. (c) Training and calling networks that share no layer with network k never influences network k, its trainers or any value they will return. (d) Every program in which objects are alive when used, used trainers are bound to live networks, data fits and assigned networks have the sizes the momentum accumulators were made for, runs without exception, abort or undefined behaviour.", "quantifier": "every program (sequence of constructions, copies, assignments, training calls, network calls and destructions) over any number of networks and trainers, any scalar type", "why_tests_cant": "quantifies over unbounded interleavings of operations on unboundedly many objects", "anchors": ["src/trainer/trainer.cpp", "src/trainer/sgdtrainer.cpp", "src/trainer/batchtrainer.cpp", "src/trainer/momentumtrainer.cpp", "src/trainer/trainer.h: nnet", "src/neuralnet.cpp: copy, operator="]}
{"id": "C69", "title": "A MomentumTrainer is tied to the layer sizes its network had at construction", "statement": "MomentumTrainer allocates its accumulators once, from the sizes of its network at construction. feeddata on data that fits the network succeeds exactly when every accumulator has the size of the corresponding weights. If meanwhile another network was assigned to that network: different output size or the first differing hidden size throws; the same sizes but more or fewer hidden layers is an access past the end of a vector (undefined behaviour).", "quantifier": "every network of dense layers before and after the assignment, every data set that fits, every momentum and decay setting", "why_tests_cant": "ranges over all pairs of architectures", "anchors": ["src/trainer/momentumtrainer.cpp: initmomentum, feeddata", "src/neuralnet.cpp: operator=, update(ograd, hgrad)", "src/neuralnet.h: gethidden"]}
{"id": "C70", "title": "Rounding errors do not change the answer of a clear prediction", "statement": "Compare forwardprop and predict as computed in floating point (every operation rounded with relative error u and underflow error eta; for double u = 2^-53 and eta = 2^-1075) with the same network in exact arithmetic. Let M bound the inputs, and for every layer with n inputs let w be the largest absolute column sum of its weights (bias row included), and let its activation have Lipschitz constant L, absolute value at most z at 0, and computed value within r of the exact one. If the activations entering a layer are at most M with error e, those leaving it are at most z + L w max(1,M) with error L (e w + ((1+u)^(n+2) - 1) w max(1,M+e) + 2(n+1) eta (1+u)^(n+2)) + r. This bound holds whatever order and association the matrix product uses (BLAS, vectorised, with or without fused multiply-add). If the best class leads every other class by more than twice the final error in exact arithmetic, predict returns the same class in floating point, and a score within the error. identity, relu, absolute and hardtanh have L = 1 and r = 0; tanh and arctan L = 1 and the error of the library function; sigmoid L = 1/4 and an explicit r. Without overflow.", "quantifier": "every network of dense layers, all weights and inputs, every order of summation, every rounding satisfying the standard model, every libm", "why_tests_cant": "a statement about all weights, inputs and evaluation orders, comparing with exact real values no program computes", "anchors": ["src/layer/layer.cpp: forwardprop", "src/neuralnet.cpp: forwardprop, predict", "src/neuralnet.cpp: predict", "src/act.cpp"]}
{"id": "C71", "title": "What a training call that ends in an exception has already done", "statement": "On a network of Layers, forwardprop, backprop or predict that throws in the forward pass leaves every parameter (weights, rates, activations, what the layers compute from) and getresult() as they were. A Trainer::feeddata that throws has counted the call and applied a decay due at it, but learned nothing, unless only the cost of the finished step could not be computed. MomentumTrainer likewise, and its accumulated gradients are unchanged if they fit the network. SGDTrainer::feeddata that throws has learned exactly the rows before the first row that fails, BatchTrainer::feeddata exactly the mini-batches before the first that fails, counting each. In every untouched case every later sequence of feeddata calls, with any of the four trainers, gives the same results, costs and weights as if the failed call had not been made (up to the trainer's counter).", "quantifier": "every network of Layers, every trainer state, every data and label matrices, every statement at which the call can throw, every later sequence of calls", "why_tests_cant": "a failure can happen at any statement and its consequences concern every later history of calls; tests sample a few failures and look at a few fields", "anchors": ["src/neuralnet.cpp: forwardprop, backprop, update, predict", "src/trainer/trainer.cpp: feeddata", "src/trainer/sgdtrainer.cpp: feeddata", "src/trainer/batchtrainer.cpp: feeddata", "src/trainer/momentumtrainer.cpp: feeddata", "src/layer/layer.cpp", "src/output/crossentropyoutput.cpp: costfunc, costfuncdelta", "src/output/kullbackleibleroutput.cpp: costfunc, costfuncdelta", "src/output/quadraticoutput.cpp: costfunc, costfuncdelta", "src/output/softmaxoutput.cpp: costfunc, costfuncdelta"]}
{"id": "C72", "title": "Exactly which data the networks and the trainers accept", "statement": "For a network of Layers with p inputs and c outputs (built-in cost): forwardprop returns iff the matrix has at least one row and p columns. Trainer and MomentumTrainer (accumulators of this network) return iff in addition the labels have c columns and as many rows as the samples. SGDTrainer returns iff the samples have no rows at all, or have p columns and the labels c columns and at least as many rows; surplus labels have no effect, and with too few labels the rows that have one are learned before the exception. BatchTrainer (without cost) returns iff the widths are right, 2 <= batchsize <= rows + 1 for samples and for labels, and the last mini-batch starts at an existing label row; if the numbers of rows differ, sample i mod (rows of samples) is taught with label i mod (rows of labels), i.e. wrapped rows get wrong labels silently. All other data makes the call throw; no choice of data makes it abort or have undefined behaviour.", "quantifier": "every well-sized network, every trainer state, every data and label matrices of any sizes, every batch size including negative ones", "why_tests_cant": "the accepted set is infinite and so is the rejected one; a test shows single members of each", "anchors": ["src/neuralnet.cpp: forwardprop", "src/trainer/trainer.cpp: feeddata", "src/trainer/sgdtrainer.cpp: feeddata", "src/trainer/batchtrainer.cpp: feeddata", "src/trainer/momentumtrainer.cpp: feeddata"]}
{"id": "C73", "title": "A layer object used on its own behaves as its getters say", "statement": "Layer(pn, n, lrate, stddev, lambda, f) has getpnnodes() = pn + 1 (bias included) and getnnodes() = n, the given rates and activation, empty z, a and delta, and an uninitialised gradient; a negative size throws. Then in every program of calls forwardprop, backprop, update(), update(g), setw, setlrate, setlambda, randominit on it, in any order, with exceptions caught and the program going on: no call aborts; getlrate() and getlambda() return what was last set; getactfunc() never changes; geta() is what the last successful forwardprop returned and always the activation of getz(); getpnnodes() and getnnodes() change only by setw; the weights change only in setw, randominit and successful updates, gradient and delta only in backprop. update() subtracts lrate * grad element-wise if the sizes agree and otherwise throws and changes nothing; before the first backprop it mixes uninitialised memory into the weights. backprop after forwardprop computes delta, gradient and result by the usual formulas if its argument has the size of the output and otherwise throws and changes nothing. Layer() and Layer(LayerParam()) throw in every forwardprop until setw. InputLayer(n) returns its argument and changes nothing but z and a; its inherited backprop throws. A copied OutputLayer has no labels (its getcostval() throws), an assigned one keeps its own labels. argmax() throws iff there are rows but no columns.", "quantifier": "every constructor argument, every sequence of method calls including failing ones, every matrix argument", "why_tests_cant": "statements about all call sequences, including those continued after an exception, and about uninitialised memory", "anchors": ["src/layer/layer.h", "src/layer/layer.cpp", "src/layer/inputlayer.cpp", "src/layer/outputlayer.cpp"]}
{"id": "C74", "title": "Every kind of layer used on its own: what each call can change", "statement": "For a Layer, Conv2DLayer, MaxPoolLayer, NormLayer or SoftmaxLayer object and every program of calls forwardprop, backprop, update(), update(g), setw, setlrate, setlambda, randominit on it: the kind and all sizes never change; getlrate() and getlambda() return what was last set; the activation stays. Weights change only by setw, by randominit (not for NormLayer and SoftmaxLayer) and by update of a Layer or Conv2DLayer, so pooling, normalisation and softmax layers never learn; gradient and delta change only in backprop of a Layer or Conv2DLayer. geta() of a convolution or pooling layer is the value before the activation although forwardprop returned the activated one; of a Layer and NormLayer it is what forwardprop returned; of a SoftmaxLayer it never changes. update(g) of a convolution layer subtracts lrate * g if the sizes agree and throws otherwise. backprop of a max pooling layer returns its argument, of a mean pooling layer an empty matrix.", "quantifier": "every layer of every kind, every sequence of method calls, every argument", "why_tests_cant": "a frame property of all call sequences and all layer kinds", "anchors": ["src/layer/layer.cpp", "src/layer/conv2dlayer.cpp", "src/layer/maxpoollayer.cpp", "src/layer/meanpoollayer.cpp", "src/layer/normlayer.cpp", "src/layer/softmaxlayer.cpp"]}
{"id": "C75", "title": "Tensor variables behave like independent immutable values", "statement": "Take any program that declares tensors (zeros, ones, eyes, gaussian, copies, results of any operator, reduction or matmul), writes and reads elements, reshapes, copy-assigns tensors with equal element counts, assigns results, move-assigns, multiplies into an existing tensor and destroys variables, within the documented requirements. Its outcome and the extents and elements of every variable at every point are exactly those of the program read over plain mathematical arrays, where each statement only changes its target (a move empties its source; multiplying into a large enough tensor overwrites only its first m*n elements). In particular no two variables ever share elements, whatever was copied, moved, reshaped or destroyed before, and thread schedules never matter.", "quantifier": "all programs over tensor variables, all element values, all scalar types, all thread schedules", "why_tests_cant": "a refinement statement about all programs; tests run particular ones", "anchors": ["src/tensor/tensor.cpp", "src/tensor/tensor_shape.cpp", "src/tensor/ops"]}
{"id": "C76", "title": "Equal hidden units stay equal forever", "statement": "If two units of a hidden layer start with the same bias, the same incoming weights and the same outgoing weights in the next layer, then after any number of successful training calls of any of the four trainers (any data, any decay, any cost request), they still have the same bias, incoming and outgoing weights, and they give the same output on every row of every input. In particular constant initialisation can never be trained apart; equal incoming weights alone are not enough.", "quantifier": "all dense networks of any depth, all unit pairs, all four trainers, all histories of training calls, all data, all scalar types (so also rounded arithmetic)", "why_tests_cant": "an invariant of arbitrary training histories; tests run particular ones", "anchors": ["src/neuralnet.cpp: forwardprop, backprop, update", "src/layer/layer.cpp: backprop, update", "src/trainer/trainer.cpp: feeddata", "src/trainer/sgdtrainer.cpp: feeddata", "src/trainer/batchtrainer.cpp: feeddata", "src/trainer/momentumtrainer.cpp: feeddata"]}
{"id": "C77", "title": "A unit whose activation is flat on the training data never learns", "statement": "In exact arithmetic, without regularisation on the first hidden layer: if the gradient of the activation is 0 at a first-layer unit's net input on every training sample, no training call of any trainer ever changes the bias or the incoming weights of that unit, and its net input on every input stays what it was. For the rectifier: a unit that is negative on all samples keeps giving 0 on all of them forever. At net input exactly 0 the rectifier's gradient is 1, so strictness is needed. With regularisation lambda on that layer and lrate * lambda < 1 (before and after any decay), the plain, SGD and batch trainers multiply the bias and incoming weights of such a rectifier unit by one common factor in (0,1] - k calls of Trainer without decay by exactly (1 - lrate * lambda)^k - so it stays off on all samples; with lrate * lambda = 1 one call puts it at 0, where its gradient is 1 again, and with lrate * lambda > 1 one call turns it on for all the samples.", "quantifier": "all dense networks, all units of the first hidden layer, all activations, all four trainers, all histories of training calls on data on which the unit is flat", "why_tests_cant": "an invariant of arbitrary training histories over the reals", "anchors": ["src/act.cpp: relu, relugrad", "src/layer/layer.cpp: backprop, update", "src/trainer/trainer.cpp: feeddata", "src/trainer/sgdtrainer.cpp: feeddata", "src/trainer/batchtrainer.cpp: feeddata", "src/trainer/momentumtrainer.cpp: feeddata"]}
{"id": "C78", "title": "A perfect fit is a fixed point of training", "statement": "In exact arithmetic and without regularisation: if the network's output on every training set equals its labels exactly (for the softmax output: the softmax of the output equals the labels), then no sequence of successful training calls by a newly made trainer of any kind changes any weight. With the Kullback-Leibler output this fails: one call of the plain trainer on perfectly fitted, non-zero labels lowers every output bias by the full learning rate.", "quantifier": "all dense networks of any depth with quadratic, cross-entropy or softmax output, all four trainers, all histories of calls on fitted data; for Kullback-Leibler all networks and all fitted data", "why_tests_cant": "quantifies over all networks, histories and real weights", "anchors": ["src/output/crossentropyoutput.cpp: costfunc, costfuncdelta", "src/output/kullbackleibleroutput.cpp: costfunc, costfuncdelta", "src/output/quadraticoutput.cpp: costfunc, costfuncdelta", "src/output/softmaxoutput.cpp: costfunc, costfuncdelta", "src/layer/layer.cpp: backprop, update", "src/trainer/trainer.cpp: feeddata", "src/trainer/sgdtrainer.cpp: feeddata", "src/trainer/batchtrainer.cpp: feeddata", "src/trainer/momentumtrainer.cpp: feeddata"]}
{"id": "C79", "title": "What a saved network file loses, and that it loses it only once", "statement": "save() writes every weight with six significant decimal digits. Saving a network and loading the file into a network of the same sizes (or the same one) reads every weight back without error as the double nearest to its six-digit decimal; each weight changes by at most one part in 199999 of its size, zero stays zero, and nothing but the weights changes. A weight comes back unchanged exactly when it is the double nearest to some six-digit decimal. Saving the loaded network writes the same file character for character, so any number of further saves and loads changes nothing more.", "quantifier": "all networks of any depth and sizes whose weights are doubles that are 0 or at least 2^-1021 in size (no subnormals), all six-digit texts in fixed and in exponent form", "why_tests_cant": "quantifies over all doubles and all networks; tests compare a few files", "anchors": ["src/neuralnet.cpp: save, load"]}
{"id": "C80", "title": "Going on with training from a saved file", "statement": "Loading one file (any contents) into two networks that were set up in the same way (sizes, rates, regularisation, activations, cost) makes them equal, whatever their weights were. If every weight survives printing, a program that saves a network, loads the file in another process into a network set up in the same way, and goes on there with any sequence of training calls, predictions and forward passes sees exactly the costs and answers it would have seen without the interruption and ends with the same weights: for plain, per-sample and mini-batch training with any new trainer provided the decay is off or already over in both, for all four classes with the same trainer state. Weights that are doubles nearest to six-digit decimals survive, and so does every network that has been loaded once. The momentum, the number of calls made so far (decay) and the learning rates are not in the file: resuming with a fresh momentum or decaying trainer, or into a network with the original rate, gives other weights.", "quantifier": "all dense networks of any depth, all files, all continuations of the program, all four trainers, all scalar types; six-digit part: all doubles that are 0 or at least 2^-1021 in size", "why_tests_cant": "quantifies over all networks and all continuations", "anchors": ["src/neuralnet.cpp: save, load, setlrate", "src/trainer/trainer.cpp: feeddata", "src/trainer/sgdtrainer.cpp: feeddata", "src/trainer/batchtrainer.cpp: feeddata", "src/trainer/momentumtrainer.cpp: feeddata"]}
{"id": "C81", "title": "A reloaded network gives nearly the same answers", "statement": "In exact arithmetic: if every weight of a network changes by at most the fraction rho, its outputs on inputs bounded by M change by at most a number computed layer by layer from rho, M, the largest absolute column sum of each weight matrix and the Lipschitz constants of the activations; with n layers whose activations are 1-Lipschitz and vanish at 0, column sums at most w (w >= 1) and inputs at most 1, this is at most w^n((1+rho)^n-1). predict names the same class for every sample whose class wins by more than twice that number. Saving a network and loading it into one set up in the same way is such a change with rho = 1/199999.", "quantifier": "all dense networks of any depth with Lipschitz activations, all weight changes within rho, all inputs; save and load: all weights that are doubles, 0 or at least 2^-1021 in size", "why_tests_cant": "a bound over all networks, all inputs and all perturbations", "anchors": ["src/neuralnet.cpp: forwardprop, predict, save, load", "src/layer/layer.cpp: forwardprop", "src/act.cpp"]}
{"id": "C82", "title": "What training a softmax output conserves, and how unnormalised labels make it run away", "statement": "In exact arithmetic, for a network with softmax output: if every label row sums to 1 and the output layer is not regularised, no sequence of successful training calls by a newly made trainer of any kind changes, for any row of the output layer's weights (the biases, or the weights leaving one unit of the last hidden layer), the sum of that row over the outputs. With regularisation lambda each call of the plain trainer without decay multiplies these sums by 1 - lrate lambda. If the label rows sum to s instead, every call of the plain trainer without decay adds lrate (s - 1) to the sum of the output biases, whatever the samples, so training on such labels never settles.", "quantifier": "all dense networks of any depth with softmax output, all four trainers, all histories of calls, all samples, all label matrices with the given row sum", "why_tests_cant": "an invariant of arbitrary training histories over the reals", "anchors": ["src/output/softmaxoutput.cpp: costfuncdelta", "src/layer/layer.cpp: backprop, update", "src/trainer/trainer.cpp: feeddata", "src/trainer/sgdtrainer.cpp: feeddata", "src/trainer/batchtrainer.cpp: feeddata", "src/trainer/momentumtrainer.cpp: feeddata"]}
{"id": "C83", "title": "Numbering and sign of units do not matter", "statement": "Renumber the units of any dense layer (moving their weights and biases with them), and change the sign of units whose activation is odd (identity, arctan, tanh, bipolar sigmoid, LeCun tanh, hard tanh): in exact arithmetic the renumbered network, trained with the same kind of trainer on correspondingly renumbered inputs and labels, reports the same cost at every call, stays the renumbered copy of the other network, and gives the renumbered answers; when only hidden units are renumbered the answers are equal.", "quantifier": "all dense networks, all permutations of all layers, all admissible sign changes, all four trainers, all histories of training calls and all four built-in costs", "why_tests_cant": "a relation between two runs over all permutations and all training histories", "anchors": ["src/layer/layer.cpp", "src/layer/outputlayer.cpp", "src/neuralnet.cpp", "src/trainer/trainer.cpp", "src/trainer/sgdtrainer.cpp", "src/trainer/batchtrainer.cpp", "src/trainer/momentumtrainer.cpp"]}
{"id": "C84", "title": "Only the relative frequency of samples matters to whole-batch training", "statement": "In exact arithmetic, with any built-in cost: give Trainer or MomentumTrainer, call by call, the same samples in any other order, with every sample repeated the same number of times (a different number and order in each call): every reported cost is the same, the trainer ends in the same state, and the two networks have the same parameters and answer every input alike. (SGDTrainer depends on the order.)", "quantifier": "all dense networks, both whole-batch trainers, all histories of training calls, all sample sets, all orders and multiplicities", "why_tests_cant": "a relation between two runs over all histories and all rearrangements of the data", "anchors": ["src/trainer/trainer.cpp: feeddata", "src/trainer/momentumtrainer.cpp: feeddata", "src/layer/layer.cpp: backprop", "src/output/crossentropyoutput.cpp: costfunc, costfuncdelta", "src/output/kullbackleibleroutput.cpp: costfunc, costfuncdelta", "src/output/quadraticoutput.cpp: costfunc, costfuncdelta", "src/output/softmaxoutput.cpp: costfunc, costfuncdelta"]}
{"id": "C85", "title": "The example programs run to the end", "statement": "A network built by the public constructors whose consecutive layers agree about the number of units between them can be trained and asked without failure. In particular the programs example/spiral.cpp and example/xor_problem.cpp, for every outcome of the random initialisation, every number of iterations, every content of the data files with labels in range, and also without the files: every training call returns a cost, predict names one of the classes for every pixel (even with NaN scores), and every pixel of the canvas is coloured exactly once and no other address is written. A label outside the classes ends the program with an exception before any training.", "quantifier": "all scalar behaviours (including NaN), all random initialisations, all data, all picture sizes, all iteration counts; constructors: all depths, sizes, rates and activations", "why_tests_cant": "whole-program statement over all inputs and all random weights", "anchors": ["example/spiral.cpp: main, load, loadsample", "example/xor_problem.cpp: main, load, loadsample, cost, costd", "src/layer/layer.cpp: Layer", "src/neuralnet.cpp: NeuralNet"]}
{"id": "C86", "title": "Training one layer reaches the best possible cost", "statement": "Take a network without hidden layers whose output is QuadraticOutput, CrossEntropyOutput or SoftmaxOutput (softmax labels summing to 1 per row), trained by Trainer without decay on a fixed set of samples, in real arithmetic. Every number of calls goes through. With a learning rate up to 2/L, where L is the curvature (1, 1/4 or 1) times the mean of 1+|x|^2 plus the regularisation, no later objective (cost plus lambda/2 |W|^2) exceeds an earlier one. With a rate up to 1/L, after K calls the objective exceeds that of ANY weights V by at most |V-W0|^2/(2 eta K); so it converges to the infimum, and with regularisation the squared distance to optimal weights shrinks by the factor 1 - eta*lambda per call.", "quantifier": "all inputs, labels, numbers of samples and classes, initial weights, competitors, rates up to the bound, and all numbers of calls", "why_tests_cant": "a convergence rate over all data and all numbers of calls", "anchors": ["src/output/quadraticoutput.cpp: costfunc, costfuncdelta", "src/output/crossentropyoutput.cpp: costfunc, costfuncdelta", "src/output/softmaxoutput.cpp: costfunc, costfuncdelta", "src/layer/layer.cpp: backprop, update", "src/trainer/trainer.cpp: feeddata"]}
{"id": "C87", "title": "Data that one layer can separate are learned completely", "statement": "In the setting of C86 without regularisation and with rate up to 1/L: if SOME weights single out the right class of every sample (softmax, one-hot labels), then from every initial weights there is a number of calls after which the cost stays below any given eps and predict() gives the right class for every sample, for ever. Likewise for CrossEntropyOutput with 0/1 labels and any number of outputs: if some weights put every output on the right side of 1/2, then training eventually does and keeps doing so.", "quantifier": "all separable data sets, initial weights, numbers of classes, rates up to the bound; all later numbers of calls", "why_tests_cant": "eventual correctness for ever: a statement over infinitely long training from every start", "anchors": ["src/output/softmaxoutput.cpp: costfunc, costfuncdelta", "src/output/crossentropyoutput.cpp: costfunc, costfuncdelta", "src/trainer/trainer.cpp: feeddata", "src/neuralnet.cpp: predict"]}
{"id": "C88", "title": "Online learning: training on a changing stream competes with every fixed network", "statement": "In the setting of C86 (one layer; quadratic, cross-entropy or softmax output; no decay), let every feeddata call get different data, chosen in any way. Every call goes through and does not make the objective on its own data worse. If eta times the curvature of each data set is at most 1, the objectives after the calls add up to at most what ANY fixed weights V would have paid on the same stream plus |V-W0|^2/(2 eta); the objectives before the calls obey the same bound times 1/(1-B) if eta*curvature <= B (labels for which costs are nonnegative). SGDTrainer on a list of data sets is such a stream, one element per row. With softmax and one-hot labels, predicting each element before training on it, the sum of the error rates is at most (cost of V + |V-W0|^2/(2 eta))/((1-B) ln 2).", "quantifier": "all streams of data sets of any sizes and any length, all competitors, all initial weights, rates up to the bound", "why_tests_cant": "a worst-case guarantee over all streams, including adversarial ones", "anchors": ["src/trainer/trainer.cpp: feeddata", "src/trainer/sgdtrainer.cpp: feeddata", "src/output/crossentropyoutput.cpp: costfunc, costfuncdelta", "src/output/kullbackleibleroutput.cpp: costfunc, costfuncdelta", "src/output/quadraticoutput.cpp: costfunc, costfuncdelta", "src/output/softmaxoutput.cpp: costfunc, costfuncdelta", "src/layer/layer.cpp: backprop, update", "src/neuralnet.cpp: predict"]}
{"id": "C89", "title": "Training never changes the first layer in directions the samples do not have", "statement": "Dense network, any costs; the layer that receives the samples has lambda = 0. If every row of every sample set fed satisfies the linear relation u0 + u1 x1 + ... + up xp = 0, then u0 b + u1 w1 + ... + up wp of every unit of the first layer (b bias, w weights) is the same after any sequence of feeddata calls of Trainer, SGDTrainer, BatchTrainer or MomentumTrainer, with or without decay. So a feature that is 0 in all samples keeps its (random) initial weights; two equal features keep the difference of their weights; for a one-hot group the bias minus the sum of the group weights is kept. With lambda and the plain trainer without decay, each such combination is multiplied by exactly (1 - lrate*lambda) per call.", "quantifier": "all relations, sample and label sets satisfying them, trainers, networks, activations, costs, and all histories", "why_tests_cant": "a conservation law over every history, independent of what is learnt", "anchors": ["src/trainer/trainer.cpp: feeddata", "src/trainer/sgdtrainer.cpp: feeddata", "src/trainer/batchtrainer.cpp: feeddata", "src/trainer/momentumtrainer.cpp: feeddata", "src/layer/layer.cpp: forward, backprop, update", "src/neuralnet.cpp: forward, backprop, update"]}
{"id": "C90", "title": "Matrix algebra is valid for tensor programs", "statement": "In exact arithmetic: after any program that respects the documented requirements, computing a matrix expression (built from 2-D tensor variables, zeros, Ones, Eyes, +, -, element-wise *, scalar *, unary -, matmul) one operation at a time, under any OpenMP schedules, goes through whenever the sizes fit and stay within int, and the result tensor holds exactly the matrix the expression means mathematically. Hence two expressions that are equal in matrix algebra give equal tensors: matmul is associative and distributes over + and -, Eyes(n) is its identity on both sides, scalars move through it, + and * are commutative, and so on.", "quantifier": "all programs before, all expressions, sizes, contents and schedules", "why_tests_cant": "infinitely many expressions, sizes and schedules; equality must hold for all contents", "anchors": ["src/tensor/tensor.cpp: Tensor, Ones, Eyes", "src/tensor/ops/add.cpp", "src/tensor/ops/sub.cpp", "src/tensor/ops/mul.cpp", "src/tensor/ops/negate.cpp", "src/tensor/ops/matmul.cpp", "src/tensor/tensor_shape.cpp"]}
{"id": "C91", "title": "Similar samples get similar answers", "statement": "In exact arithmetic: two samples that differ by at most e in every feature get network outputs that differ by at most e times the product over the layers of (Lipschitz constant of the activation) x (largest sum of absolute non-bias weights into one unit); so predict gives both the same class whenever the winner leads by more than twice that bound, with confidences that differ by at most the bound. Lipschitz constants of all library activations are given.", "quantifier": "all dense networks, weights, activations with a Lipschitz constant, samples and distances e", "why_tests_cant": "infinitely many perturbations of every input", "anchors": ["src/neuralnet.cpp: forwardprop, predict", "src/layer/layer.cpp: forwardprop", "src/act.cpp: all activations"]}
{"id": "C92", "title": "Which functions a network can compute", "statement": "In exact arithmetic: with non-negative weights and non-decreasing activations no output decreases when a feature increases; a network of identity activations of any depth is affine and is matched exactly by one without hidden layers; multiplying the weights into a relu, identity or absolute unit by s > 0 and dividing the weights out of it by s changes no answer; without hidden layers (any increasing activation) the samples given one class form a convex set, so no such network, however trained, solves XOR, while one hidden layer of two relu units does.", "quantifier": "all dense networks of any depth and size, all weights and samples", "why_tests_cant": "infinitely many networks and inputs; impossibility of XOR is a statement about every weight matrix", "anchors": ["src/neuralnet.cpp: forwardprop, predict", "src/layer/layer.cpp: forwardprop", "src/act.cpp", "example/xor_problem.cpp"]}
{"id": "C93", "title": "One hidden layer of q relu units can fit any q + 1 samples", "statement": "In exact arithmetic: for any at most q + 1 samples of any size with any real labels there are weights with which every network of one hidden layer of q relu units and identity outputs answers exactly the labels, provided equal samples have equal labels; that proviso is necessary for every dense network. Consequently every consistent classification of q + 1 samples is achieved by predict for some weights.", "quantifier": "all sample matrices, labels, classes and q", "why_tests_cant": "existence of weights for every data set", "anchors": ["src/neuralnet.cpp: forwardprop, predict", "src/layer/layer.cpp: forwardprop", "src/act.cpp: relu, identity"]}
{"id": "C94", "title": "MomentumTrainer on one layer converges", "statement": "In exact arithmetic, for a network without hidden layers with quadratic, cross-entropy or softmax output, fixed data and momentum 0 <= mu < 1: every number of MomentumTrainer calls goes through; with learning rate at most 2 / curvature the regularised objective after any number of calls is at most the first one; with learning rate below 1 / curvature it is within an explicit O(1/K) bound after K calls, and so comes and stays as close as one likes to the objective of any other weights.", "quantifier": "all data, initial weights, regularisations, momenta, learning rates under the stated bound, numbers of calls", "why_tests_cant": "a statement about unboundedly many calls and all data", "anchors": ["src/trainer/momentumtrainer.cpp: feeddata, initmomentum", "src/output/crossentropyoutput.cpp: costfunc, costfuncdelta", "src/output/kullbackleibleroutput.cpp: costfunc, costfuncdelta", "src/output/quadraticoutput.cpp: costfunc, costfuncdelta", "src/output/softmaxoutput.cpp: costfunc, costfuncdelta", "src/layer/layer.cpp: update"]}
{"id": "C95", "title": "A NaN weight is permanent, spreads, and blinds the network", "statement": "A weight that is NaN stays NaN under every trainer and any data. If one weight of output j is NaN (and the output activation and the cost pass NaN on, as the built-in costs and every activation but relu and hardtanh do in IEEE binary64), one call of the plain trainer makes every weight of output j and of every hidden layer NaN; with NaN-passing activations a further call makes every weight NaN. Once the first hidden layer is NaN the network answers every sample with the same values.", "quantifier": "all networks with dense hidden layers of any depth, all scalar types with an element absorbing + - * / (IEEE NaN), all data, all trainers and call histories (first part), all samples", "why_tests_cant": "a test shows the NaN of one run; that no data, trainer or number of calls ever repairs it, and that it reaches every layer whatever the depth, ranges over all histories and networks", "anchors": ["src/layer/layer.cpp: forward, backprop, update", "src/trainer/trainer.cpp", "src/trainer/momentumtrainer.cpp", "src/output/crossentropyoutput.cpp: costfunc, costfuncdelta", "src/output/kullbackleibleroutput.cpp: costfunc, costfuncdelta", "src/output/quadraticoutput.cpp: costfunc, costfuncdelta", "src/output/softmaxoutput.cpp: costfunc, costfuncdelta", "src/act.cpp"]}
{"id": "C96", "title": "Regularised training cannot diverge", "statement": "In exact arithmetic: let every layer of a network have regularisation lambda > 0 and a learning rate in [0, 1/lambda] (the decayed rate of the trainer too), hidden activations that are bounded together with their derivative (sigmoid, arctan, tanh, bipolar sigmoid, complementary log-log, Lecun tanh and hard tanh are; the other six built-in ones are not), and a softmax output, or a quadratic or cross-entropy output with answers in [0,1]. Then there is a bound M, fixed before training by the network and the size B of the features, such that no weight ever exceeds M, whatever features of size at most B and labels in [0,1] are fed, in whatever number of Trainer, SGDTrainer or BatchTrainer calls of whatever sizes. Without hidden layers M = max(initial size, max(1,B)/lambda). For MomentumTrainer without decay with 0 < mu < 1 the same holds if also 2 mu lrate lambda < 1 - mu.", "quantifier": "all network depths and widths, all initial weights, all sequences of data within the limits, all batch sizes, all numbers of calls", "why_tests_cant": "A test sees finitely many calls and finitely many data sets; the claim is that no sequence of data, even adversarial, can make the weights grow without limit.", "anchors": ["src/layer/layer.cpp: backprop, update", "src/layer/outputlayer.cpp: backprop", "src/output/softmaxoutput.cpp", "src/trainer/trainer.cpp: feeddata", "src/trainer/sgdtrainer.cpp: feeddata", "src/trainer/batchtrainer.cpp: feeddata", "src/trainer/momentumtrainer.cpp: feeddata", "src/act.cpp"]}
{"id": "C97", "title": "Constructing and assigning trainers", "statement": "A default-constructed trainer that is never assigned to is unusable in every later state of every program: feeddata with at least one row dereferences a null pointer (for a BatchTrainer it reads the uninitialised batch size first). A trainer constructed for a network with decay arguments (r0, k, step) sets, over any successful sequence of feeddata calls, all learning rates to r0*exp(-k*step) exactly if its counter (calls, or mini-batches of a BatchTrainer) equals step when a call compares them, and leaves them alone otherwise; one constructed without decay arguments never changes a rate. After a = b between trainers of one class the two are interchangeable: every sequence of feeddata calls gives through a what it gives through b - the same returned values, the same networks, the same failure at the same call. Assignment through Trainer& between different classes hands over network, counter and decay settings only; the destination keeps its class and what only its class has. A trainer whose network is gone or never was tolerates one call: an SGDTrainer given data without rows returns 0 and changes only its counter, unless its decay is due in that call.", "quantifier": "all programs over several networks and trainers, all constructor arguments, all sequences of feeddata calls", "why_tests_cant": "the claims are about every later history of the object; a test follows finitely many, and cannot observe undefined behaviour reliably", "anchors": ["src/trainer/trainer.cpp: constructors, operator=", "src/trainer/sgdtrainer.cpp: constructors, operator=", "src/trainer/batchtrainer.cpp: constructors, operator=", "src/trainer/momentumtrainer.cpp: constructors, operator="]}
{"id": "C98", "title": "Which learning rates are too large", "statement": "In exact arithmetic, for a network without hidden layers with identity output, quadratic cost, learning rate eta and regularisation lambda, fed the same data over and over by the plain trainer: along every direction v of curvature h (an eigenvector of x^T x + lambda, x with its leading 1) each call multiplies the distance of the weights from what the data want by exactly 1 - eta h. So with eta h > 2 and any non-zero initial distance the objective and the weights exceed every bound from some call on; with eta h = 2 the error only flips its sign and the objective stays above a positive bound. For one sample that direction is the sample itself and h the smoothness constant of C63, so the limit 2 / smoothness given there is exact.", "quantifier": "all data, initial weights, directions of curvature, learning rates, regularisations and numbers of calls", "why_tests_cant": "divergence is a statement about unboundedly many calls, for every data set and every start", "anchors": ["src/layer/layer.cpp: backprop, update", "src/output/quadraticoutput.cpp", "src/trainer/trainer.cpp: feeddata"]}
{"id": "C99", "title": "Convolution and pooling layers on inputs or filters of the wrong size", "statement": "For the forward passes of the convolution, max pooling and mean pooling layers: columns after the first channels x width x height are never looked at (answer, state and failure are the same whatever they hold); with fewer columns forwardprop throws. With stride 1 and a filter larger than the padded image nothing is reported at construction; forwardprop throws if the filter exceeds the image in one direction only or by exactly 1 in some direction, but if it exceeds it by 2 or more in both directions forwardprop succeeds and answers ((excess - 1) x (excess - 1)) values per filter that depend on neither the input nor the weights: indeterminate memory (convolution) or zeros (pooling).", "quantifier": "all image sizes, channel and filter counts, filter sizes, paddings, batches", "why_tests_cant": "all sizes and inputs; a test cannot show that the answer never depends on the input, and cannot observe indeterminate memory reliably", "anchors": ["src/layer/conv2dlayer.cpp: forwardprop, toimage, convolve, constructor", "src/layer/maxpoollayer.cpp: forwardprop, maxpool", "src/layer/meanpoollayer.cpp: forwardprop, meanpool"]}
{"id": "C100", "title": "A small enough rate makes training of a deep regularised network converge to a stationary point", "statement": "For a network of dense hidden layers (identity, sigmoid, arctan, tanh, bipolar sigmoid, complementary log-log or smooth relu activations) with one of the quadratic, cross-entropy or softmax outputs, every layer regularised with lambda >= lam > 0, and labels for which the cost is bounded below (any for the quadratic output, in [0,1] otherwise): there is a learning rate eta0 > 0 such that with any 0 < eta < eta0 repeated feeddata(x, y) never fails, never raises the objective (cost + lambda/2 sum of squared weights), lowers it in each call by at least eta/2 times the squared length of its gradient, keeps every weight at most sqrt(2 J0/lam), makes the objective converge and the gradient tend to zero, with some gradient among the first K of squared length at most 2 J0/(eta K). Without the regularisation assumption the decrease of one call holds with a rate that depends only on the sizes of the layers, the data and a bound on the weights.", "quantifier": "all depths, layer sizes, batches, labels, initial weights, regularisations, all rates below eta0, all numbers of training calls", "why_tests_cant": "a limit over infinitely many calls, for all networks and all rates below a threshold, over exact reals", "anchors": ["src/trainer/trainer.cpp: feeddata", "src/neuralnet.cpp: forwardprop, backprop, update, setlrate", "src/layer/layer.cpp: forwardprop, backprop, update", "src/output/quadraticoutput.cpp", "src/output/crossentropyoutput.cpp", "src/output/softmaxoutput.cpp"]}
{"id": "C101", "title": "A small enough rate makes MomentumTrainer converge to a stationary point of a deep regularised network", "statement": "For the networks, outputs and labels of C100 (dense hidden layers with smooth activations, every layer regularised with lambda >= lam > 0): there is a learning rate eta0 > 0, independent of the momentum, such that for any 0 < eta < eta0 and any momentum 0 < mu < 1 a new MomentumTrainer can be called with feeddata(x, y) for ever without failing; the objective (cost + lambda/2 sum of squared weights) never exceeds its initial value J0 although it need not fall in each call, every weight stays at most sqrt(2 J0/lam), the objective converges and its gradient tends to zero. Momentum 0 is excluded because hidden layers are then trained with gradient/iters (C42).", "quantifier": "all depths, layer sizes, batches, labels, initial weights, regularisations, all rates below eta0, all momenta in (0,1), all numbers of training calls", "why_tests_cant": "a limit over infinitely many calls of a two-state recurrence, for all networks, momenta and rates below a threshold, over exact reals", "anchors": ["src/trainer/momentumtrainer.cpp: feeddata, initmomentum", "src/trainer/trainer.cpp", "src/neuralnet.cpp: forwardprop, backprop, update, setlrate", "src/layer/layer.cpp: forwardprop, backprop, update", "src/output/quadraticoutput.cpp", "src/output/crossentropyoutput.cpp", "src/output/softmaxoutput.cpp"]}
{"id": "C102", "title": "A small enough rate makes SGDTrainer and BatchTrainer reach any wanted gradient on a deep regularised network", "statement": "For the networks, outputs and labels of C100 (dense hidden layers with smooth activations, every layer regularised with lambda >= lam > 0) and every eps > 0 there is a learning rate eta0 > 0 such that for any 0 < eta < eta0 repeated SGDTrainer::feeddata(x, y) - which trains on one row after the other - reaches, after some number k <= 2 J0/(eta N eps) of calls, a network where the squared gradient of the objective of all N rows is at most eps; until then no call fails, each lowers the objective by at least eta N/2 times the squared gradient, and every weight stays at most sqrt(2 J0/lam). The same holds for BatchTrainer when its batch size divides the number of rows, with N replaced by the number of batches. For any split of the rows into equal batches, in any order, one pass lowers the objective by eta times the number of batches times the squared gradient up to a fixed multiple of eta^2.", "quantifier": "all depths, layer sizes, data sets, labels, initial weights, regularisations, targets eps, all rates below eta0, all splits into equal batches", "why_tests_cant": "a statement about arbitrarily many passes of row-by-row updates, for all networks and all rates below a threshold, over exact reals", "anchors": ["src/trainer/sgdtrainer.cpp: feeddata", "src/trainer/batchtrainer.cpp: feeddata", "src/trainer/trainer.cpp: feeddata", "src/neuralnet.cpp: forwardprop, backprop, update, setlrate", "src/layer/layer.cpp: forwardprop, backprop, update", "src/output/quadraticoutput.cpp", "src/output/crossentropyoutput.cpp", "src/output/softmaxoutput.cpp"]}
{"id": "C103", "title": "MomentumTrainer with momentum 0 on a deep regularised network: the output layer settles, the hidden layers only slowly", "statement": "For the networks, outputs and labels of C100 there is a learning rate eta0 > 0 such that for any 0 < eta < eta0 a new MomentumTrainer with momentum 0 (whose k-th call updates hidden layers with 1/k of their gradient, C42) can be called with feeddata(x, y) for ever without failing. Call k (from 1) lowers the objective (cost + lambda/2 sum of squared weights) by at least eta/2 times (squared gradient of the hidden layers / k + squared gradient of the output layer); every weight stays at most sqrt(2 J0/lam), the objective converges and the gradient of the output layer tends to zero. The hidden gradient gets below every bound again and again, but the guarantee is only logarithmic: among the first K calls one has a squared hidden gradient of at most 2 J0/(eta ln(K + 1)).", "quantifier": "all depths, layer sizes, data sets, labels, initial weights, regularisations, all rates below eta0, every number of calls", "why_tests_cant": "a statement about infinitely many calls, for all networks and all rates below a threshold, over exact reals", "anchors": ["src/trainer/momentumtrainer.cpp: feeddata, initmomentum", "src/neuralnet.cpp: forwardprop, backprop, update, setlrate", "src/layer/layer.cpp: forwardprop, backprop, update", "src/output/quadraticoutput.cpp", "src/output/crossentropyoutput.cpp", "src/output/softmaxoutput.cpp"]}
{"id": "C104", "title": "A network of layers of any classes runs the layers' own passes in order", "statement": "For a network of dense, convolution, max pooling, normalisation and softmax layers in any order (each object listed once): forwardprop gives hidden layer k the result of layer k-1, and what it returns, and every layer object afterwards, is exactly what the classes' own forwardprop gives on these inputs; backprop gives the last hidden layer what the output layer returned and every other one what its successor returned, each object becoming what its own backprop makes of it; update and update(ograd, hgrads) apply the own update of each layer to its gradient (the k-th given one), which changes dense and convolution layers only. Layers outside the network do not change. A forward or backward pass that does not return ends as the first failing layer's own call does on the input it got.", "quantifier": "all networks, layer classes, orders, data and labels", "why_tests_cant": "tests fix one architecture; the claim is about arbitrary sequences of layers and about failures at any position", "anchors": ["src/neuralnet.cpp: forwardprop, backprop, update", "src/layer/conv2dlayer.cpp", "src/layer/maxpoollayer.cpp", "src/layer/normlayer.cpp", "src/layer/softmaxlayer.cpp"]}
{"id": "C105", "title": "Layers without weights in front of a network are a fixed preprocessing", "statement": "Put max pooling, softmax and normalisation layers (the latter set to measure the next input) in front of the hidden layers of a network of any layers. Then every sequence of Trainer::feeddata calls, with any decay settings and with or without cost, does what it does on the network without them when that is fed the features - what those layers make of the inputs, one after the other - instead: the same values are returned, the same call fails in the same way, and trainer, output layer and the remaining hidden layers end up the same. The features a later input would get are never changed by training. A prediction is the prediction on the features, and an input the layers in front reject fails in the way they fail. The same holds for every sequence of BatchTrainer::feeddata calls (with or without cost, any batch size) on data whose mini-batches have the features of the given ones, and of SGDTrainer::feeddata(x, y) calls on data with the features row by row. Consequence, in exact arithmetic: such layers followed directly by a linear, logistic or softmax output, trained on fixed data with a rate up to 1 / curvature of the features, never fail and come arbitrarily close to the best fit any single layer has on the features.", "quantifier": "all networks, layers in front, remaining layers of any class, data, decay settings and numbers of calls", "why_tests_cant": "the claim is about every history of calls; NormLayer keeps a scale between calls and the pooling layer its images, so one call shows nothing about the next", "anchors": ["src/neuralnet.cpp: forwardprop, backprop, update, setlrate, predict", "src/trainer/trainer.cpp: feeddata", "src/trainer/batchtrainer.cpp: feeddata", "src/trainer/sgdtrainer.cpp: feeddata", "src/layer/maxpoollayer.cpp", "src/layer/normlayer.cpp", "src/layer/softmaxlayer.cpp"]}

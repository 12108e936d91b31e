# DESIGN: a Rocq (Coq 8.16.1) model of kiddos/nnet

The C++ in /repo is read as text; nothing is built or run. The model is executable Gallina; each definition cites the file and
lines it models. All theorems are about that model. `properties.jsonl` has the English claims, `MANIFEST.json` the theorem names,
`ASSUMPTIONS.md` the generated `Print Assumptions` of every claimed theorem, `seeded/LOG.jsonl` the wrong programs tried.

## 1. Trusted base

* Coq 8.16.1's kernel (with `vm_compute` in some concrete examples), and the reading of C++ made by the model (section 3).
* Standard-library axioms only. `ASSUMPTIONS.md` lists them per theorem; there are two groups:
  * *Closed under the global context* (no axiom): every theorem about tensors, heaps, histories, trainers, copying, save/load, shapes and
    all other statements that hold for every scalar type, and C26/C46 on binary64 (`SpecFloat`, the executable IEEE specification).
  * `ClassicalDedekindReals.sig_not_dec`, `ClassicalDedekindReals.sig_forall_dec`, `FunctionalExtensionality.functional_extensionality_dep`,
    `Classical_Prop.classic`: the theorems over Coq's real numbers (derivatives, sums, means, convergence; Coquelicot is used for
    derivatives and adds no axiom of its own).
* No axiom, `Admitted`, functor or module type of ours; no kernel check switched off. Parameters such as `exp`, random draws, the
  text printed for a number, OpenMP schedules and the contents of uninitialised memory are universally quantified variables of the
  theorems, not axioms.

## 2. Files (rocq/theories)

| file | contents |
|---|---|
| `Base` | outcomes `res` = Ok / Undef kind (undefined behaviour) / Abort (failed `assert`) / Throw (C++ exception); 32-bit int arithmetic with overflow = Undef; scalar interface `dtype` (operations only, no laws) |
| `Mem`, `Par` | heap of blocks with allocation kind and possibly uninitialised cells; OpenMP parallel-for as arbitrary interleavings of single reads and writes; race-freedom and determinism |
| `Tensor`, `TensorOps` | src/tensor: TensorShape, Tensor (all constructors, assignments, destructor, Reshape, access), all of src/tensor/ops |
| `TSpec` | independent vocabulary for tensors: products, row-major position, element at a multi-index |
| `Hist` | client programs over tensor variables (C18, C20, C21) |
| `TVal` | the same programs over immutable values: the specification of C75 |
| `InvP` | lifting of weight invariants to all trainers (C76-C78, C82, C89) |
| `Dec` | text of doubles: `%.6g` output, decimal input, six-digit rounding (C79) |
| `Func` | function computed by a dense network on one sample, `answers` (C91-C93) |
| `Heavy` | gradient steps with momentum on a smooth convex function (C94) |
| `InvR` | an invariant of all calls that may mention the learning rates (C96) |
| `Bound` | bounds of one forward-backward pass and of one step (C96) |
| `Convex` | smooth convex losses and gradient descent over real matrices (C86, C87) |
| `RelP` | lifting of relations between two networks to all trainers (C83) |
| `Mat` | the part of Armadillo that is used, and src/matop.cpp |
| `Act` | src/act.{h,cpp} |
| `Layer` | src/layer/{layer,inputlayer,outputlayer}.cpp and src/output/*.cpp |
| `Conv`, `Misc` | conv2dlayer, maxpoollayer, meanpoollayer; normlayer, softmaxlayer |
| `Net`, `World` | src/neuralnet.cpp without I/O; programs holding several networks that share layers |
| `Trainer` | src/trainer/*.cpp |
| `Session` | several trainers and networks alive at once: null, dangling and shared bindings (C68, C69) |
| `SaveLoad` | NeuralNet::save/load down to characters and stream state |
| `GradCheck` | test/gradient_checker.cpp |
| `TLemmas TOps TOps2 TMem TMatmul TFlat HistP NetP RInst RMat Grad TrainP TrainP2 FunEq ConfEq ConvP ExNet LinReg …` | lemmas |
| `P_*` | the property theorems (`Cnn_name`), each with an `Example` meeting its hypotheses |

## 3. Modelling decisions and simplifications

* **Scalars.** Every model function is polymorphic in a record `dtype` of scalar operations *without laws*. Structural theorems hold for
  every `dtype`, hence for float and double with whatever rounding. Theorems of analysis instantiate `dtype` with Coq's reals. NaN and
  overflow theorems use binary64.
* **Undefined behaviour** is an outcome: null dereference, out of bounds, use after free, read of an uninitialised cell, mismatched
  `new`/`delete[]`, signed overflow in tensor shapes.
* **assert** is active (CMakeLists.txt sets `CMAKE_BUILD_TYPE Debug`, NDEBUG undefined) and modelled as `Abort`.
* **OpenMP.** A parallel region is a list of iterations; an iteration is a list of reads, a function and at most one write. A schedule is any
  list of iteration numbers, each letting that iteration perform its next single read or write. Theorems quantify over all schedules.
  Interleaving semantics is justified by the race-freedom theorem (C17). The pragmas in src/layer are inactive (HAVE_OPENMP is never defined).
* **Armadillo** is modelled from its documented behaviour: column-major storage, bounds and size checks on (default) throwing
  `std::logic_error`; `mat(r,c)` without fill has unspecified contents (an explicit `junk` parameter). Products, `sum` and `accu` add in index
  order starting from 0; BLAS may associate differently, which changes floating-point results only in rounding (C70 bounds the error of
  a whole forward pass for every order of summation). `insert_rows`/`insert_cols` with operands that have no columns/rows are not distinguished further.
* **Sizes.** int arithmetic on layer sizes in Conv/pooling is taken without overflow; trainers' iteration counters are unbounded.
* **Random numbers, exp, printing, strtod** are parameters; C79 instantiates printing and reading with correctly rounded decimal
  conversion (what glibc does in round-to-nearest) on real values, so -0, infinities, NaN and overflow while reading are outside C79.
* **Objects.** Hidden layers are shared objects (`shared_ptr`) in a store; networks own their input and output layers.

Not modelled: OpenCV, the characters of the data files read by /repo/example, run_experiment.py, the unit tests (except GradientChecker), logging and printing (debug.h,
`operator<<`), `randomize(stddev)`'s choice of a random layer index, GradientChecker's printing, the values that the random engines draw,
num_get's treatment of digit grouping, self-aliasing inside Armadillo expressions.

## 4. Per property: what is modelled and how it is proved

| property | how |
|---|---|
| C01, C02 | shape constructors as loops with checked int arithmetic; iff-characterisation by induction on the extents |
| C03-C06 | constructors and assignments on the heap model; results characterised cell by cell, freshness and frame stated on the heap |
| C07-C11 | operators as parallel loops; result at every multi-index through the row-major bijection, for all schedules |
| C12-C14 | matmul as nested parallel loops; left-to-right accumulation, over R a sum; races exhibited for aliased outputs at every n >= 2 |
| C15, C16 | reductions; C15 for every strict partial order on scalars |
| C17 | generic interleaving theorem (`Par`) applied to each operator |
| C18, C20, C21 | invariant "every live block is owned by exactly one variable" over arbitrary programs; leak counting |
| C19 | direct |
| C22-C25 | Coquelicot `is_derive` and monotonicity over R; C24 by interval reasoning on constants |
| C26 | binary64 by cases on the specification of exp at the overflowing argument |
| C27, C28 | entrywise formula of the dense pass; row independence over any scalars by induction on layers |
| C29-C32 | differentiate the network along a line in weight space, match with the backward pass by induction over layers; descent from the first-order expansion |
| C33, C58, C61, C64, C66 | trainer steps in closed form over any scalars; induction on histories |
| C34, C35 | argmax loop invariant; convexity inequalities |
| C36, C37 | counter invariant over histories of calls |
| C38-C40 | batch index arithmetic; loops in closed form; coverage by counting |
| C41, C42 | closed form of the moving average by induction on calls |
| C43, C45, C51 | copy constructors on the object store; reachability of shared layers |
| C44 | trainer copies, by bisimulation of histories |
| C46 | algebra over R for the normalisation; binary64 for 1x1 |
| C47, C48 | token stream of save, state machine of load; prefix of the file = crash point |
| C49, C50, C52, C59, C60 | loops over padded images in closed form |
| C53, C54 | state machine of NormLayer over call histories; softmax over R |
| C55, C65, C67 | direct, over all states |
| C56 | size invariant preserved by every step, hence no Throw and no Undef over any history |
| C57 | gradient checker loops: entrywise criterion, restoration of weights |
| C62 | linearity of the gradient in the per-row terms |
| C63 | one-step descent lemma, contraction on the distance to the optimum, convergence (limit over R) |
| C68 | trainer objects bound to networks by pointer: per-trainer counters over arbitrary interleavings, null and dangling uses |
| C69 | MomentumTrainer whose network was reassigned to another architecture |
| C70 | rounded arithmetic over R with the standard model of rounding (binary64 instance from Flocq); error by induction on evaluation trees and layers |
| C71 | Exc.v: the training code with the objects' state at every throw; erasing those states gives back the functions of Net.v/Trainer.v (C71_refines); the state at a throw characterised per trainer; futures via "reads only the configuration" (P_Session). C71_layer (`P_Exc2.v`): the exact state of a single layer object after each of forwardprop, backprop and update has thrown |
| C72 | both directions by induction over layers, rows and mini-batches: sizes that fit run, the first size that does not fit throws |
| C73 | programs of calls on one Layer object with caught exceptions (states at throws from Exc.v); getters specified from the history alone; invariant by induction on the program |
| C74 | programs of virtual calls on a layer of any kind (h_forward, h_backprop, ... of Misc.v/Net.v); a per-call frame lemma for every kind, lifted to programs by induction |
| C75 | TVal.v: the client programs of Hist.v over plain arrays (no heap, no schedules) as the specification; forward simulation from the heap model, statement by statement, on top of the ownership invariant of C18 |
| C76-C78 | InvP.v: an invariant of the weights that one pass and one step preserve is lifted to every training call of the four trainer classes; C76 over any scalars (twin columns and rows), C77 over R (zero column of the gradient; with regularisation in P_DeadReg.v, via InvR.v: the column is lambda times the weights, so it only shrinks), C78 over R (zero deltas; batch rows through a row-wise description of the network) |
| C79 | Dec.v writes out the characters of `operator<<(double)` at the default precision 6 (`%.6g`: fixed or exponent form, trailing zeros removed) and of the decimal to double conversion of `operator>>`, both correctly rounded (Flocq's FLX radix 10 precision 6, FLT radix 2); the stream state machine of SaveLoad.v is used with these two as its printer and reader; the six-digit rounding is injective on what it produces because a double has more than six digits |
| C80 | load described layer by layer (a function of sizes and file only), hence equal setups become equal configurations; the simulation between equally configured networks of C66 is extended to pairs of equivalent trainers; the six-digit part uses C79; three concrete counterexamples for what is not saved |
| C81 | perturbation analysis over R by induction on the layers (as C70, but the weights differ instead of the arithmetic), a closed form by induction, and the instance rho = 1/199999 from C79 |
| C82 | Invariant over histories (InvP) of the row sums of the output weights; the softmax delta row sums to (1 - label sum)/rows; plain-trainer drift by induction on the calls. P_Sum. |
| C83 | A relation between two runs (RelP.v: lifting of a layer relation through passes, steps and every training call of the four trainers); products of relabelled matrices by reindexing finite sums; costs case by case. Over R. P_Perm. |
| C84 | Same relational lifting (RelP.v); every matrix of the second run has rows that are (scaled) copies of rows of the first; sums over rearranged rows by counting preimages. Over R. P_Dist. |
| C85 | Models of the constructors' braced lists, of the two example mains and their readers (file contents as functions); well-sizedness of built networks by induction on the list of layers, then C56, C34 and index arithmetic. Any scalars. P_Examples. |
| C86 | One call = one gradient step on a convex objective (exact formula for all three outputs); smoothness and convexity of quadratic, logistic and softmax losses via second derivatives (Coquelicot) in `Convex`; standard rate and contraction by telescoping. Real scalars. P_Convex. |
| C87 | From C86 with a scaled separating network as competitor: its objective tends to 0, so every sample's loss falls below ln 2, which forces the right class; predict via C34. Real scalars. P_Separable. |
| C88 | Potential argument with the squared distance to the competitor, one step per call (`Convex.step_key`, `step_before`), induction on the stream; SGDTrainer by C40; a wrong softmax prediction costs at least ln 2. Real scalars. P_Online. |
| C89 | Gradient of the first layer = (samples with bias)^T delta + lambda W, so its combination by u is lambda times that of W; lifted to all trainers by `InvP`; plain trainer with lambda by induction. Real scalars. P_Ortho. |
| C90 | A small language of matrix expressions with a size checker and a mathematical meaning; compilation to the client language of `Hist`; induction on the expression in the value semantics of C75 (`TVal`), transferred to the heap model by C75. Real scalars. P_Alg. |
| C91 | `Func`: the function a dense network computes on one sample, tied to `net_forward` by C03; induction on layers with the max-norm; derivative bounds by the mean value theorem. P_Lip. |
| C92 | Induction on the layers of `Func.value` for monotone / affine / collapse / rescaling; linear inequalities for convexity and XOR. P_Shape. |
| C93 | A direction that separates the samples (induction over the finitely many differences), then interpolation by relu units, one unit per distinct projection (induction on q). P_Fit. |
| C94 | `Heavy`: momentum steps on a smooth convex function; an energy (objective + multiple of squared velocity) and the auxiliary point w - eta mu/(1-mu) v; the code's step is shown to be such a step (as C86). Real scalars. P_Heavy. |
| C95 | NaN: permanence by the invariant lemma of InvP (`feeds_inv`) for every trainer; spread by following the NaN column through `chain_pass` (dot products with an absorbing element), `P_NaN.v`; scalars are abstract with an absorbing element, `C95_ieee` instantiates with SpecFloat binary64. |
| C96 | Invariant over all calls: per-layer bounds on the weights, computed from the output backwards (delta of the output sums to at most 1, each hidden layer multiplies it by derivative bound x width x weight bound; the step w - lrate(g + lambda w) keeps abs w below (bound of g)/lambda). For momentum the invariant is on w - c v with c = lrate mu/(1-mu) and on v. `P_Bound.v`, with the lifting to feeds in `InvR.v` and the pass bound in `Bound.v`. |
| C97 | `P_Ctor.v`, over the programs of Session.v: C97_default from the invariant of C68; C97_decay from C36/C37 over the constructors; C97_assign by a simulation between the two trainer objects (they may differ only in a BatchTrainer's unread stored data); C97_objects ties the constructors here to those the other properties use; C97_empty by evaluation of the call with the pointer undefined |
| C98 | `P_Rate.v`: the weights along an eigen-direction of x^T x + lambda follow a scalar recursion, solved by induction on the calls; the objective is bounded below by the error along that direction (Cauchy-Schwarz) |
| C99 | `P_ConvSize.v`: congruence of the passes in the image slices; every step of the passes either succeeds or throws, so one throwing channel makes the pass throw; the unsigned/int arithmetic of the output size evaluated for a filter larger than the image |
| C100 | `Smooth.v`, `Smooth2.v`, `P_Smooth.v`, `P_Converge.v`: activations and slopes are Lipschitz on bounded sets, so the stored gradients of two networks with weights bounded by M that differ by e differ by at most L e (induction over the layers, forwards and backwards); along the gradient step the slope of the objective (C29) therefore stays below -1/2 the squared gradient, and the mean value theorem gives the decrease; regularisation turns the objective into a bound on the weights, so the step can be repeated for ever; monotone convergence |
| C101 | `P_MomConv.v`: the potential J + eta mu/(2(1-mu)) |V|^2, with V the averaged gradient the trainer keeps, falls in each call by eta/2 |V|^2 (same Lipschitz bounds as C100, along the direction V instead of the gradient); it bounds the objective, hence the weights, for ever; V tends to zero, so the gradient (V_{k+1} - mu V_k)/(1-mu) does, and J converges with the potential |
| C102 | `P_SgdConv.v`, `P_SgdReach.v`: within a pass the weights move at most (number of batches) eta G, so by the Lipschitz bounds of C100 each step along the gradient of one batch changes the objective of all rows as the step at the start of the pass would, up to O(eta^2); the batch gradients add up to (number of batches) times the full gradient (C62), which gives C102_pass; while the squared gradient exceeds eps the O(eta^2) is at most half of the gain, and the objective, bounded below by 0, can fall only finitely often |
| C103 | `P_Mom0.v`: the step of C101 along the direction (hidden gradient / k, output gradient), whose inner product with the gradient is at least its squared length; the objective plus c ln(k+1) would fall for ever if the hidden gradient stayed above a bound (1/k >= ln(k+1) - ln k), but the objective is non-negative |
| C104 | `P_Mixed.v`: the loops over the hidden layers as one chain over the layer heap, by induction on the list of layers with distinct objects; the result is stated with the classes' own functions (`ran_forward`, `ran_backprop`, `ran_update`), failures with `same_end` |
| C105 | `P_Front.v`: a relational simulation of the two networks: heaps agree outside the front layers, each front layer is `alike` what it was at the start (same class, geometry, activation; normval 0 between calls); forward, backprop, decay and update as chains over front ++ back (`chain_app`), failures with `both`. `P_FrontBest.v`: C105_best composes this simulation with C86 `P_FrontMini.v`: the same simulation over the mini-batches (C38_batches) and rows (sgd_row); SGDTrainer with cost is left out, because its predictions leave a normalising layer with a stored range. |

Every property in `properties.jsonl` is expressible in the model; none is `not_applicable`.

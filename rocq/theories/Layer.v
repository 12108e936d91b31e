(** Layer.v - model of /repo/src/layer/layer.{h,cpp}, inputlayer.cpp, outputlayer.cpp and of the four
    built-in outputs in /repo/src/output. *)
From Verif Require Import Base Mat Act.
From Coq Require Import Arith.
Local Open Scope nat_scope.

Section Layer.
Context {D : dtype}.
Notation mat := (mat D).
Notation actfunc := (actfunc D).

(** layer.h:56-61 - the members of Layer. *)
Record layer := L {
  l_lrate : D; l_lambda : D; l_act : actfunc;
  l_pa : mat; l_z : mat; l_a : mat; l_delta : mat;
  l_W : mat; l_grad : mat }.

Definition set_W (l : layer) (w : mat) : layer :=
  L (l_lrate l) (l_lambda l) (l_act l) (l_pa l) (l_z l) (l_a l) (l_delta l) w (l_grad l).
Definition set_lrate (l : layer) (r : D) : layer :=
  L r (l_lambda l) (l_act l) (l_pa l) (l_z l) (l_a l) (l_delta l) (l_W l) (l_grad l).
Definition set_lambda (l : layer) (r : D) : layer :=
  L (l_lrate l) r (l_act l) (l_pa l) (l_z l) (l_a l) (l_delta l) (l_W l) (l_grad l).

(** ** Construction *)

(** The k-th value drawn by [std::uniform_real_distribution<double> dist(-s, s)] from a freshly constructed
    [std::default_random_engine] (layer.cpp:54-55): the engine is default-seeded, so it is a function of s and k. *)
Context (draw : D -> nat -> D).
(** Contents of memory that Armadillo leaves uninitialised ([mat(r, c)] without fill). *)
Context (junk : nat -> D).
Definition mat_uninit (r c : nat) : mat := mk r c (fun i j => junk (j * r + i)).

(** Row-major visiting order of the loops [for i < n_rows for j < n_cols]. *)
Definition rowmajor (r c : nat) : list (nat * nat) := flat_map (fun i => map (fun j => (i, j)) (seq 0 c)) (seq 0 r).

(** layer.cpp:53-74 randominit on the weight matrix [w]. *)
Definition randominit_w (s : D) (w : mat) : mat :=
  let r := nr w in let c := nc w in
  let w0 := mk r c (fun i j => draw s (i * c + j)) in                                     (* :57-63 *)
  let mean := fold_left (fun acc ij => dadd acc (at_ w0 (fst ij) (snd ij))) (rowmajor r c) d0 in
  let dev := fold_left (fun acc ij => let diff := dsub mean (at_ w0 (fst ij) (snd ij)) in dadd acc (dmul diff diff))
               (rowmajor r c) d0 in                                                       (* :65-71 *)
  let dev' := dsqrt (ddiv dev (dofZ (Z.of_nat (r * c)))) in                               (* :72 *)
  mmap (fun x => dmul x (ddiv s dev')) w0.                                                (* :73 *)
Definition randominit (s : D) (l : layer) : layer := set_W l (randominit_w s (l_W l)).

(** layer.cpp:7-9 *)
Definition layer_default : layer := L d0 d0 identity mempty mempty mempty mempty mempty mempty.

(** layer.cpp:18-23 (five arguments: standard deviation 1) and :25-31.  A negative dimension makes Armadillo
    throw (the request converts to a huge unsigned number).  Simplifications: a negative dimension with the other one 0,
    which Armadillo accepts, is not distinguished; [pnnodes+1] is taken without overflow. *)
Definition layer_new (pn n : Z) (lrate stddev lambda : D) (f : actfunc) : res layer :=
  if ((0 <=? pn + 1) && (0 <=? n))%Z then
    let r := Z.to_nat (pn + 1) in let c := Z.to_nat n in
    Ok (randominit stddev (L lrate lambda f mempty mempty mempty mempty (mat_uninit r c) (mat_uninit r c)))
  else Throw.

(** layer.h:13-24 *)
Record layer_param := LP { lp_prev : Z; lp_nodes : Z; lp_stddev : D; lp_lrate : D; lp_lambda : D; lp_act : actfunc }.
Definition layer_param_default : layer_param := LP 0 0 d1 (dlit 1 2) d0 identity.
(** layer.cpp:33-35 *)
Definition layer_of_param (p : layer_param) : res layer :=
  layer_new (lp_prev p) (lp_nodes p) (lp_lrate p) (lp_stddev p) (lp_lambda p) (lp_act p).

(** layer.cpp:11-16 (copy constructor) and :37-51 (assignment) copy every member, i.e. are the identity on the
    record. *)
Definition layer_copy (l : layer) : layer :=
  L (l_lrate l) (l_lambda l) (l_act l) (l_pa l) (l_z l) (l_a l) (l_delta l) (l_W l) (l_grad l).
Definition layer_assign (dst src : layer) : layer := layer_copy src.

(** ** Propagation *)

(** layer.cpp:76-82 *)
Definition forwardprop (l : layer) (x : mat) : res (mat * layer) :=
  pa <- addcol x ;;
  z <- mmul pa (l_W l) ;;
  let a := funcop z (act (l_act l)) in
  Ok (a, L (l_lrate l) (l_lambda l) (l_act l) pa z a (l_delta l) (l_W l) (l_grad l)).

(** [grad = pa.t() * delta; grad = grad + lambda * W] - layer.cpp:87-89, outputlayer.cpp:48-50 *)
Definition reg_grad (l : layer) (delta : mat) : res mat :=
  g <- mmul (mt (l_pa l)) delta ;;
  madd g (mscal (l_lambda l) (l_W l)).

(** layer.cpp:84-93 *)
Definition backprop (l : layer) (d : mat) : res (mat * layer) :=
  delta <- mschur d (funcop (l_z l) (actd (l_act l))) ;;
  g <- reg_grad l delta ;;
  dw <- mmul delta (mt (l_W l)) ;;
  r <- submat dw 0 1 (Z.of_nat (nr delta) - 1) (Z.of_nat (nr (l_W l)) - 1) ;;
  Ok (r, L (l_lrate l) (l_lambda l) (l_act l) (l_pa l) (l_z l) (l_a l) delta (l_W l) g).

(** layer.cpp:95-101 *)
Definition update_with (l : layer) (g : mat) : res layer :=
  w <- msub (l_W l) (mscal (l_lrate l) g) ;; Ok (set_W l w).
Definition update (l : layer) : res layer := update_with l (l_grad l).

(** ** InputLayer *)

(** inputlayer.cpp:11-17: members left alone are default-constructed *)
Definition input_new (n : Z) : res layer :=
  if (0 <=? n)%Z
  then let m := mat_uninit (Z.to_nat n) (Z.to_nat n) in Ok (L d0 d0 identity mempty mempty mempty mempty m m)
  else Throw.
(** inputlayer.cpp:7-9: the copy constructor calls the five-argument Layer constructor (standard deviation 1)
    with getpnnodes() = W.n_rows *)
Definition input_copy (l : layer) : res layer :=
  layer_new (Z.of_nat (nr (l_W l))) (Z.of_nat (nc (l_W l))) (l_lrate l) d1 (l_lambda l) (l_act l).
(** inputlayer.cpp:24-28 *)
Definition input_forward (l : layer) (x : mat) : mat * layer :=
  (x, L (l_lrate l) (l_lambda l) (l_act l) (l_pa l) x x (l_delta l) (l_W l) (l_grad l)).

(** ** OutputLayer *)

(** type.h:21-22; cost(y, h) and costd(y, a, z) may throw (Armadillo size checks) *)
Definition costfun := mat -> mat -> res mat.
Definition costdfun := mat -> mat -> mat -> res mat.

(** outputlayer.h:28-31 *)
Record output := O { o_l : layer; o_cost : costfun; o_costd : costdfun; o_y : mat }.

(** outputlayer.cpp:13-35 *)
Definition output_of (l : res layer) (c : costfun) (cd : costdfun) : res output := b <- l ;; Ok (O b c cd mempty).
(** outputlayer.cpp:7-11: y is not copied *)
Definition output_copy (o : output) : output := O (layer_copy (o_l o)) (o_cost o) (o_costd o) mempty.
(** outputlayer.cpp:37-43: y keeps its old value *)
Definition output_assign (dst src : output) : output := O (layer_assign (o_l dst) (o_l src)) (o_cost src) (o_costd src) (o_y dst).

(** OutputLayer inherits Layer::forwardprop. *)
Definition output_forward (o : output) (x : mat) : res (mat * output) :=
  '(a, l) <- forwardprop (o_l o) x ;; Ok (a, O l (o_cost o) (o_costd o) (o_y o)).

(** outputlayer.cpp:45-55 *)
Definition output_backprop (o : output) (label : mat) : res (mat * output) :=
  let l := o_l o in
  delta <- o_costd o label (l_a l) (l_z l) ;;
  g <- reg_grad l delta ;;
  nd <- mmul delta (mt (l_W l)) ;;
  r <- shed_col nd 0 ;;
  Ok (r, O (L (l_lrate l) (l_lambda l) (l_act l) (l_pa l) (l_z l) (l_a l) delta (l_W l) g) (o_cost o) (o_costd o) label).

Definition output_update (o : output) : res output := l <- update (o_l o) ;; Ok (O l (o_cost o) (o_costd o) (o_y o)).
Definition output_update_with (o : output) (g : mat) : res output :=
  l <- update_with (o_l o) g ;; Ok (O l (o_cost o) (o_costd o) (o_y o)).

(** outputlayer.cpp:57-72: per row, scan for the first maximum.  [a(i, 0)] throws when there is no column. *)
Definition row_argmax (a : mat) (i : nat) : nat * D :=
  fold_left (fun best j => if dltb (snd best) (at_ a i j) then (j, at_ a i j) else best)
            (seq 1 (nc a - 1)) (0, at_ a i 0).
Definition argmax (o : output) : res mat :=
  let a := l_a (o_l o) in
  if (nc a =? 0) && negb (nr a =? 0) then Throw
  else Ok (mk (nr a) 2 (fun i j => let b := row_argmax a i in match j with 0 => dofZ (Z.of_nat (fst b)) | _ => snd b end)).

(** outputlayer.cpp:74-77 *)
Definition getcostval (o : output) : res D := J <- o_cost o (o_y o) (l_a (o_l o)) ;; Ok (sumall J).

(** ** The built-in outputs; [n] below is y.n_rows as a double *)
Definition rowsD (y : mat) : D := dofZ (Z.of_nat (nr y)).
Definition divs (m : mat) (c : D) : mat := mmap (fun x => ddiv x c) m.

(** quadraticoutput.cpp:27-30 *)
Definition quad_cost : costfun := fun y h =>
  diff <- msub y h ;; p <- mschur diff diff ;; Ok (divs (divs p (dofZ 2)) (rowsD y)).
(** quadraticoutput.cpp:32-34 *)
Definition quad_costd : costdfun := fun y a _ => d <- msub a y ;; Ok (divs d (rowsD y)).

(** crossentropyoutput.cpp:31-33 *)
Definition ce_cost : costfun := fun y h =>
  p <- mschur y (mmap dlog h) ;;
  q <- mschur (mmap (fun v => dsub (dofZ 1) v) y) (mmap dlog (mmap (fun v => dsub (dofZ 1) v) h)) ;;
  s <- madd p q ;;
  Ok (divs (mmap dneg s) (rowsD y)).
(** crossentropyoutput.cpp:35-37 *)
Definition ce_costd : costdfun := fun y a _ => d <- msub a y ;; Ok (divs d (rowsD y)).

(** kullbackleibleroutput.cpp:31-34 *)
Definition kl_cost : costfun := fun y h =>
  r <- mdiv y h ;; p <- mschur y (logorithm r) ;; Ok (divs p (rowsD y)).
(** kullbackleibleroutput.cpp:36-38 *)
Definition kl_costd : costdfun := fun y a _ => r <- mdiv y a ;; Ok (divs r (rowsD y)).

(** softmaxoutput.cpp:28-30 and :36-38: P = expo % (1.0 / sumexpo) *)
Definition softmax_P (y h : mat) : res mat :=
  let expo := exponential h in
  let sumexpo := repeatm (rowsum expo) 1 (nc y) in
  mschur expo (mmap (fun s => ddiv (dofZ 1) s) sumexpo).
(** softmaxoutput.cpp:27-33 *)
Definition sm_cost : costfun := fun y h =>
  P <- softmax_P y h ;; p <- mschur y (mmap dlog P) ;; Ok (divs (mmap dneg p) (rowsD y)).
(** softmaxoutput.cpp:35-41 *)
Definition sm_costd : costdfun := fun y a _ =>
  P <- softmax_P y a ;; d <- msub P y ;; Ok (divs d (rowsD y)).

(** Constructors: quadraticoutput.cpp:10-25, crossentropyoutput.cpp:10-29, kullbackleibleroutput.cpp:10-29,
    softmaxoutput.cpp:10-25. *)
Definition quadratic_output pn n lrate stddev lambda := output_of (layer_new pn n lrate stddev lambda identity) quad_cost quad_costd.
Definition crossentropy_output pn n lrate stddev lambda := output_of (layer_new pn n lrate stddev lambda sigmoid) ce_cost ce_costd.
Definition kl_output pn n lrate stddev lambda := output_of (layer_new pn n lrate stddev lambda identity) kl_cost kl_costd.
Definition softmax_output pn n lrate stddev lambda := output_of (layer_new pn n lrate stddev lambda identity) sm_cost sm_costd.
Definition quadratic_output_param p := output_of (layer_of_param p) quad_cost quad_costd.
Definition crossentropy_output_param p := output_of (layer_of_param p) ce_cost ce_costd.
Definition kl_output_param p := output_of (layer_of_param p) kl_cost kl_costd.
Definition softmax_output_param p := output_of (layer_of_param p) sm_cost sm_costd.

End Layer.
Arguments layer : clear implicits.
Arguments output : clear implicits.

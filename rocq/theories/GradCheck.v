(** GradCheck.v - model of /repo/test/gradient_checker.{h,cpp}. *)
From Verif Require Import Base Mat Act Layer Conv Misc Net.
From Coq Require Import Arith.
Local Open Scope nat_scope.

Section GradCheck.
Context {D : dtype}.
Notation mat := (mat D).
Notation net := (net D).
Notation lheap := (lheap D).
Context (junk : nat -> D).

(** [m[k]]: Armadillo's flat (column-major) access, not bounds-checked *)
Definition flat (m : mat) (k : nat) : res D := match nth_error (el m) k with Some v => Ok v | None => Undef OutOfBounds end.
Definition set_flat (m : mat) (k : nat) (v : D) : res mat :=
  if k <? length (el m) then Ok (Mat (nr m) (nc m) (upd k v (el m))) else Undef OutOfBounds.

(** gradient_checker.cpp:81-101 (the printing of the matrices is left out) *)
Definition issame (m1 m2 : mat) : res bool :=
  if negb (nr m1 =? nr m2) || negb (nc m1 =? nc m2) then Ok false
  else foldM (fun same ij =>
         v1 <- flat m1 (fst ij * nc m1 + snd ij) ;;
         v2 <- flat m2 (fst ij * nc m1 + snd ij) ;;
         Ok (if dltb (dabs (dsub v1 v2)) (dlit 1 6) then false else same)) (rowmajor (nr m1) (nc m1)) true.

(** gradient_checker.cpp:34 *)
Definition eps : D := dlit 1 6.

(** gradient_checker.cpp:49-64, one iteration; state: perturb, gradient, nnet and the shared layers *)
Definition probe (x y W : mat) (i : nat) (s : mat * mat * net * lheap) (jk : nat * nat) : res (mat * mat * net * lheap) :=
  let '(perturb, gradient, n, H) := s in
  let k := fst jk * nc perturb + snd jk in
  v <- flat perturb k ;;
  p1 <- set_flat perturb k (dadd v eps) ;;
  H1 <- net_sethiddenw n H i p1 ;;
  '(pr1, n1, H1) <- net_forward junk n H1 x ;;
  loss1 <- net_computecost n1 pr1 y ;;
  v' <- flat p1 k ;;
  p2 <- set_flat p1 k (dsub v' (dmul (dofZ 2) eps)) ;;
  H2 <- net_sethiddenw n1 H1 i p2 ;;
  '(pr2, n2, H2) <- net_forward junk n1 H2 x ;;
  loss2 <- net_computecost n2 pr2 y ;;
  H3 <- net_sethiddenw n2 H2 i W ;;
  gradient' <- set_flat gradient (fst jk * nc gradient + snd jk) (ddiv (dsub loss1 loss2) (dmul (dofZ 2) eps)) ;;
  Ok (p2, gradient', n2, H3).

(** gradient_checker.cpp:38-77, one hidden layer *)
Definition check_layer (x y : mat) (s : bool * net * lheap) (i : nat) : res (bool * net * lheap) :=
  let '(success, n, H) := s in
  l <- net_gethidden n H i ;;
  let W := l_W l in
  '(_, gradient, n, H) <- foldM (probe x y W i) (rowmajor (nr W) (nc W)) (W, l_grad l, n, H) ;;
  '(_, n, H) <- net_forward junk n H x ;;
  '(n, H) <- net_backprop junk n H y ;;
  t <- net_gethidden n H i ;;
  b <- issame gradient (l_grad t) ;;
  Ok (if b then success else false, n, H).

(** gradient_checker.cpp:33-79 *)
Definition gc_check (x y : mat) (n : net) (H : lheap) : res (bool * net * lheap) :=
  foldM (check_layer x y) (seq 0 (length (n_hidden n))) (true, n, H).

(** gradient_checker.cpp:11-31; [rnd] are the values of [(rand() % 10000) / 10000.0] in the order they are drawn,
    [dflt] the default-constructed NeuralNet that is then assigned. *)
Record checker := GC { gc_net : net; gc_data : mat; gc_label : mat }.
Definition gc_new (draw : D -> nat -> D) (rnd : nat -> D) (dflt n : net) : res checker :=
  inp <- net_getinput draw junk n ;;
  let id := nc (l_W inp) in
  let od := nc (l_W (o_l (net_getoutput n))) in
  Ok (GC (net_assign dflt n) (mk 1 id (fun _ j => rnd j)) (mk 1 od (fun _ j => rnd (id + j)))).
Definition gc_run (g : checker) (H : lheap) : res (bool * checker * lheap) :=
  '(b, n, H') <- gc_check (gc_data g) (gc_label g) (gc_net g) H ;; Ok (b, GC n (gc_data g) (gc_label g), H').
End GradCheck.
Arguments checker : clear implicits.

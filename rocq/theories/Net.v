(** Net.v - model of /repo/src/neuralnet.{h,cpp}: networks whose hidden layers are shared objects. *)
From Verif Require Import Base Mat Act Layer Conv Misc.
From Coq Require Import Arith.
Local Open Scope nat_scope.

Section Net.
Context {D : dtype}.
Notation mat := (mat D).
Notation layer := (layer D).
Notation output := (output D).
Context (draw : D -> nat -> D) (junk : nat -> D).

(** ** Layer objects behind a shared_ptr<Layer>, with virtual dispatch *)
Inductive hlayer :=
| HDense (l : layer)
| HConv (c : conv D)
| HMaxPool (p : maxpool D)
| HNorm (n : norml D)
| HSoftmax (s : softl D).

(** The Layer subobject (layer.h), i.e. what slicing copies. *)
Definition h_base (h : hlayer) : layer :=
  match h with
  | HDense l => l | HConv c => cv_l c | HMaxPool p => cv_l (mp_c p) | HNorm n => nl_l n | HSoftmax s => sl_l s
  end.
Definition h_with (h : hlayer) (l : layer) : hlayer :=
  match h with
  | HDense _ => HDense l
  | HConv c => HConv (cv_set c l (cv_images c))
  | HMaxPool p => HMaxPool (MP (cv_set (mp_c p) l (cv_images (mp_c p))) (mp_indexes p))
  | HNorm n => HNorm (NL l (nl_val n))
  | HSoftmax s => HSoftmax (SL l (sl_p s))
  end.

(** virtual forwardprop / backprop *)
Definition h_forward (h : hlayer) (x : mat) : res (mat * hlayer) :=
  match h with
  | HDense l => '(a, l') <- forwardprop l x ;; Ok (a, HDense l')
  | HConv c => '(a, c') <- conv_forward junk c x ;; Ok (a, HConv c')
  | HMaxPool p => '(a, p') <- maxpool_forward junk p x ;; Ok (a, HMaxPool p')
  | HNorm n => '(a, n') <- norm_forward n x ;; Ok (a, HNorm n')
  | HSoftmax s => '(a, s') <- soft_forward s x ;; Ok (a, HSoftmax s')
  end.
Definition h_backprop (h : hlayer) (d : mat) : res (mat * hlayer) :=
  match h with
  | HDense l => '(a, l') <- backprop l d ;; Ok (a, HDense l')
  | HConv c => '(a, c') <- conv_backprop junk c d ;; Ok (a, HConv c')
  | HMaxPool p => '(a, p') <- maxpool_backprop p d ;; Ok (a, HMaxPool p')
  | HNorm n => '(a, n') <- norm_backprop n d ;; Ok (a, HNorm n')
  | HSoftmax s => '(a, s') <- soft_backprop s d ;; Ok (a, HSoftmax s')
  end.
(** virtual update: Conv2DLayer inherits Layer's; pooling, norm and softmax layers override it to do nothing
    (maxpoollayer.cpp:53-55, normlayer.cpp:34-36, softmaxlayer.cpp:28-30) *)
Definition h_update_with (h : hlayer) (g : mat) : res hlayer :=
  match h with
  | HDense l => l' <- update_with l g ;; Ok (HDense l')
  | HConv c => l' <- update_with (cv_l c) g ;; Ok (h_with h l')
  | _ => Ok h
  end.
Definition h_update (h : hlayer) : res hlayer := h_update_with h (l_grad (h_base h)).
(** virtual randominit: overridden by norm and softmax layers (normlayer.cpp:38, softmaxlayer.cpp:32) *)
Definition h_randominit (h : hlayer) (s : D) : hlayer :=
  match h with
  | HNorm _ | HSoftmax _ => h
  | _ => h_with h (randominit draw s (h_base h))
  end.

(** The objects that shared pointers point to. *)
Definition lheap := list hlayer.
Definition lget (H : lheap) (p : nat) : res hlayer := match nth_error H p with Some l => Ok l | None => Undef NullDeref end.

(** ** NeuralNet *)

(** neuralnet.h:47-54 ([eps] is never read) *)
Record net := N { n_result : mat; n_cost : costfun (D:=D); n_costd : costdfun (D:=D);
                  n_input : layer; n_hidden : list nat; n_output : output }.

Definition set_result (n : net) (r : mat) : net := N r (n_cost n) (n_costd n) (n_input n) (n_hidden n) (n_output n).
Definition set_input (n : net) (i : layer) : net := N (n_result n) (n_cost n) (n_costd n) i (n_hidden n) (n_output n).
Definition set_output (n : net) (o : output) : net := N (n_result n) (n_cost n) (n_costd n) (n_input n) (n_hidden n) o.

(** neuralnet.cpp:18-21.  The parameters are taken by value and copied once more into the members. *)
Definition net_new (input : layer) (output : output) (hidden : list nat) : res net :=
  i1 <- input_copy draw junk input ;;
  let o1 := output_copy output in
  i2 <- input_copy draw junk i1 ;;
  Ok (N mempty (o_cost o1) (o_costd o1) i2 hidden (output_copy o1)).
(** neuralnet.cpp:13-16 *)
Definition net_copy (n : net) : res net :=
  i <- input_copy draw junk (n_input n) ;;
  Ok (N (n_result n) (n_cost n) (n_costd n) i (n_hidden n) (output_copy (n_output n))).
(** neuralnet.cpp:23-31 *)
Definition net_assign (dst src : net) : net :=
  N (n_result src) (n_cost src) (n_costd src) (layer_assign (n_input dst) (n_input src)) (n_hidden src)
    (output_assign (n_output dst) (n_output src)).

(** The loop neuralnet.cpp:35-38 *)
Fixpoint hidden_forward (ids : list nat) (x : mat) (H : lheap) : res (mat * lheap) :=
  match ids with
  | [] => Ok (x, H)
  | p :: r => h <- lget H p ;; '(a, h') <- h_forward h x ;; hidden_forward r a (upd p h' H)
  end.
(** neuralnet.cpp:33-41 *)
Definition net_forward (n : net) (H : lheap) (x : mat) : res (mat * net * lheap) :=
  let '(cur, i') := input_forward (n_input n) x in
  '(cur', H') <- hidden_forward (n_hidden n) cur H ;;
  '(r, o') <- output_forward (n_output n) cur' ;;
  Ok (r, set_result (set_output (set_input n i') o') r, H').

(** The loop neuralnet.cpp:45-48, last hidden layer first *)
Fixpoint hidden_backprop (rids : list nat) (d : mat) (H : lheap) : res lheap :=
  match rids with
  | [] => Ok H
  | p :: r => h <- lget H p ;; '(d', h') <- h_backprop h d ;; hidden_backprop r d' (upd p h' H)
  end.
(** neuralnet.cpp:43-49 *)
Definition net_backprop (n : net) (H : lheap) (y : mat) : res (net * lheap) :=
  '(d, o') <- output_backprop (n_output n) y ;;
  H' <- hidden_backprop (rev (n_hidden n)) d H ;;
  Ok (set_output n o', H').

(** neuralnet.cpp:51-56 *)
Definition net_update (n : net) (H : lheap) : res (net * lheap) :=
  o' <- output_update (n_output n) ;;
  H' <- foldM (fun H p => h <- lget H p ;; h' <- h_update h ;; Ok (upd p h' H)) (n_hidden n) H ;;
  Ok (set_output n o', H').
(** neuralnet.cpp:58-63; [hgrad[i]] is not bounds-checked *)
Definition net_update_with (n : net) (H : lheap) (ograd : mat) (hgrad : list mat) : res (net * lheap) :=
  o' <- output_update_with (n_output n) ograd ;;
  H' <- foldM (fun H ip => h <- lget H (snd ip) ;;
                 match nth_error hgrad (fst ip) with
                 | None => Undef OutOfBounds
                 | Some g => h' <- h_update_with h g ;; Ok (upd (snd ip) h' H)
                 end) (combine (seq 0 (length (n_hidden n))) (n_hidden n)) H ;;
  Ok (set_output n o', H').

(** neuralnet.cpp:65-70 *)
Definition net_predict (n : net) (H : lheap) (x : mat) : res (mat * net * lheap) :=
  '(r, n', H') <- net_forward n H x ;;
  let n'' := set_result n' r in
  m <- argmax (n_output n'') ;;
  Ok (m, n'', H').

(** neuralnet.cpp:72-75 *)
Definition net_computecost (n : net) (pred y : mat) : res D := J <- n_cost n y pred ;; Ok (sumall J).

(** neuralnet.cpp:77-82 *)
Definition net_setlrate (n : net) (H : lheap) (r : D) : res (net * lheap) :=
  H' <- foldM (fun H p => h <- lget H p ;; Ok (upd p (h_with h (set_lrate (h_base h) r)) H)) (n_hidden n) H ;;
  let o := n_output n in
  Ok (set_output (set_input n (set_lrate (n_input n) r)) (O (set_lrate (o_l o) r) (o_cost o) (o_costd o) (o_y o)), H').

(** neuralnet.cpp:89-97 *)
Definition net_randomize (n : net) (H : lheap) (index : nat) (s : D) : res (net * lheap) :=
  match nth_error (n_hidden n) index with
  | Some p => h <- lget H p ;; Ok (n, upd p (h_randominit h s) H)
  | None => let o := n_output n in Ok (set_output n (O (randominit draw s (o_l o)) (o_cost o) (o_costd o) (o_y o)), H)
  end.

(** neuralnet.h:37-44: accessors.  gethidden and getoutput return copies; gethidden slices. [hidden[index]] is
    not bounds-checked. *)
Definition net_gethidden (n : net) (H : lheap) (i : nat) : res layer :=
  match nth_error (n_hidden n) i with None => Undef OutOfBounds | Some p => h <- lget H p ;; Ok (layer_copy (h_base h)) end.
Definition net_getoutput (n : net) : output := output_copy (n_output n).
Definition net_getinput (n : net) : res layer := input_copy draw junk (n_input n).
Definition net_sethiddenw (n : net) (H : lheap) (i : nat) (w : mat) : res lheap :=
  match nth_error (n_hidden n) i with
  | None => Undef OutOfBounds
  | Some p => h <- lget H p ;; Ok (upd p (h_with h (set_W (h_base h) w)) H)
  end.
Definition net_setoutputw (n : net) (w : mat) : net :=
  let o := n_output n in set_output n (O (set_W (o_l o) w) (o_cost o) (o_costd o) (o_y o)).

End Net.
Arguments hlayer : clear implicits.
Arguments lheap : clear implicits.
Arguments net : clear implicits.

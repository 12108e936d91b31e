(** Exc.v - what the objects look like when a C++ exception leaves a call: the same code as Layer.v, Net.v and Trainer.v, with the
    members at the moment of the throw.  P_Exc.v proves that forgetting those states gives back exactly the functions of
    Layer.v, Net.v and Trainer.v.
    Armadillo checks sizes before it assigns, so a throwing statement leaves its target unchanged; memory exhaustion is not
    modelled.  For layer kinds other than Layer the object after an exception is arbitrary ([wreck]). *)
From Verif Require Import Base Mat Act Layer Conv Misc Net Trainer.
From Coq Require Import Arith.
Local Open Scope nat_scope.

(** Finished with state s and value a; left by an exception in state s; aborted; undefined behaviour. *)
Inductive xr (S A : Type) := XOk (s : S) (a : A) | XThrow (s : S) | XAbort | XUndef (u : ub).
Arguments XOk {S A}. Arguments XThrow {S A}. Arguments XAbort {S A}. Arguments XUndef {S A}.
(** Run r, which changes no object; the objects are in state s. *)
Definition xlift {S A B} (s : S) (r : res A) (k : A -> xr S B) : xr S B :=
  match r with Ok a => k a | Throw => XThrow s | Abort => XAbort | Undef u => XUndef u end.
(** Run m on a part of the state; [put] inserts the part. *)
Definition xin {S1 S A B} (put : S1 -> S) (m : xr S1 A) (k : S -> A -> xr S B) : xr S B :=
  match m with XOk s a => k (put s) a | XThrow s => XThrow (put s) | XAbort => XAbort | XUndef u => XUndef u end.
Fixpoint xfold {S A} (f : S -> A -> xr S unit) (l : list A) (s : S) : xr S unit :=
  match l with [] => XOk s tt | a :: r => xin (fun s => s) (f s a) (fun s' _ => xfold f r s') end.

Section Exc.
Context {D : dtype}.
Notation mat := (mat D).
Notation layer := (layer D).
Notation output := (output D).
Notation net := (net D).
Notation lheap := (lheap D).
Context (junk : nat -> D) (wreck : hlayer D -> hlayer D).

Definition put_pa (l : layer) (m : mat) : layer := L (l_lrate l) (l_lambda l) (l_act l) m (l_z l) (l_a l) (l_delta l) (l_W l) (l_grad l).
Definition put_z (l : layer) (m : mat) : layer := L (l_lrate l) (l_lambda l) (l_act l) (l_pa l) m (l_a l) (l_delta l) (l_W l) (l_grad l).
Definition put_a (l : layer) (m : mat) : layer := L (l_lrate l) (l_lambda l) (l_act l) (l_pa l) (l_z l) m (l_delta l) (l_W l) (l_grad l).
Definition put_delta (l : layer) (m : mat) : layer := L (l_lrate l) (l_lambda l) (l_act l) (l_pa l) (l_z l) (l_a l) m (l_W l) (l_grad l).
Definition put_grad (l : layer) (m : mat) : layer := L (l_lrate l) (l_lambda l) (l_act l) (l_pa l) (l_z l) (l_a l) (l_delta l) (l_W l) m.

(** layer.cpp:76-82 *)
Definition xforward (l : layer) (x : mat) : xr layer mat :=
  xlift l (addcol x) (fun pa => let l1 := put_pa l pa in
  xlift l1 (mmul (l_pa l1) (l_W l1)) (fun z => let l2 := put_z l1 z in
  let a := funcop (l_z l2) (act (l_act l2)) in XOk (put_a l2 a) a)).
(** layer.cpp:87-89 and outputlayer.cpp:48-50 *)
Definition xgrad (l : layer) : xr layer unit :=
  xlift l (mmul (mt (l_pa l)) (l_delta l)) (fun g => let l1 := put_grad l g in
  xlift l1 (madd (l_grad l1) (mscal (l_lambda l1) (l_W l1))) (fun g' => XOk (put_grad l1 g') tt)).
(** layer.cpp:84-93 *)
Definition xbackprop (l : layer) (d : mat) : xr layer mat :=
  xlift l (mschur d (funcop (l_z l) (actd (l_act l)))) (fun delta =>
  xin (fun l => l) (xgrad (put_delta l delta)) (fun l2 _ =>
  xlift l2 (mmul (l_delta l2) (mt (l_W l2))) (fun dw =>
  xlift l2 (submat dw 0 1 (Z.of_nat (nr (l_delta l2)) - 1) (Z.of_nat (nr (l_W l2)) - 1)) (fun r => XOk l2 r)))).
(** layer.cpp:95-101 *)
Definition xupdate_with (l : layer) (g : mat) : xr layer unit :=
  xlift l (msub (l_W l) (mscal (l_lrate l) g)) (fun w => XOk (set_W l w) tt).

Definition with_l (o : output) (l : layer) : output := O l (o_cost o) (o_costd o) (o_y o).
(** OutputLayer inherits forwardprop and update *)
Definition xout_forward (o : output) (x : mat) : xr output mat := xin (with_l o) (xforward (o_l o) x) (fun o a => XOk o a).
Definition xout_update_with (o : output) (g : mat) : xr output unit := xin (with_l o) (xupdate_with (o_l o) g) (fun o a => XOk o a).
(** outputlayer.cpp:45-55 *)
Definition xout_backprop (o : output) (label : mat) : xr output mat :=
  let o1 := O (o_l o) (o_cost o) (o_costd o) label in
  xlift o1 (o_costd o1 (o_y o1) (l_a (o_l o1)) (l_z (o_l o1))) (fun delta =>
  xin (with_l o1) (xgrad (put_delta (o_l o1) delta)) (fun o2 _ =>
  xlift o2 (mmul (l_delta (o_l o2)) (mt (l_W (o_l o2)))) (fun nd =>
  xlift o2 (shed_col nd 0) (fun r => XOk o2 r)))).

(** ** Layer objects: virtual calls *)
Definition xh_forward (h : hlayer D) (x : mat) : xr (hlayer D) mat :=
  match h with
  | HDense l => xin HDense (xforward l x) (fun h a => XOk h a)
  | _ => xlift (wreck h) (h_forward junk h x) (fun '(a, h') => XOk h' a)
  end.
Definition xh_backprop (h : hlayer D) (d : mat) : xr (hlayer D) mat :=
  match h with
  | HDense l => xin HDense (xbackprop l d) (fun h a => XOk h a)
  | _ => xlift (wreck h) (h_backprop junk h d) (fun '(a, h') => XOk h' a)
  end.
(** The only statement of every update is one assignment. *)
Definition xh_update_with (h : hlayer D) (g : mat) : xr (hlayer D) unit := xlift h (h_update_with h g) (fun h' => XOk h' tt).

(** ** NeuralNet *)
(** neuralnet.cpp:35-38 *)
Fixpoint xhidden_forward (ids : list nat) (x : mat) (H : lheap) : xr lheap mat :=
  match ids with
  | [] => XOk H x
  | p :: r => xlift H (lget H p) (fun h => xin (fun h' => upd p h' H) (xh_forward h x) (fun H' a => xhidden_forward r a H'))
  end.
(** neuralnet.cpp:33-41 *)
Definition xnet_forward (n : net) (H : lheap) (x : mat) : xr (net * lheap) mat :=
  let '(cur, i') := input_forward (n_input n) x in
  let n1 := set_input n i' in
  xin (fun H' => (n1, H')) (xhidden_forward (n_hidden n1) cur H) (fun '(n1, H1) cur' =>
  xin (fun o' => (set_output n1 o', H1)) (xout_forward (n_output n1) cur') (fun '(n2, H2) r =>
  XOk (set_result n2 r, H2) r)).
(** neuralnet.cpp:45-48 *)
Fixpoint xhidden_backprop (rids : list nat) (d : mat) (H : lheap) : xr lheap unit :=
  match rids with
  | [] => XOk H tt
  | p :: r => xlift H (lget H p) (fun h => xin (fun h' => upd p h' H) (xh_backprop h d) (fun H' d' => xhidden_backprop r d' H'))
  end.
(** neuralnet.cpp:43-49 *)
Definition xnet_backprop (n : net) (H : lheap) (y : mat) : xr (net * lheap) unit :=
  xin (fun o' => (set_output n o', H)) (xout_backprop (n_output n) y) (fun '(n1, H1) d =>
  xin (fun H' => (n1, H')) (xhidden_backprop (rev (n_hidden n1)) d H1) (fun s _ => XOk s tt)).
(** neuralnet.cpp:51-56 *)
Definition xnet_update (n : net) (H : lheap) : xr (net * lheap) unit :=
  xin (fun o' => (set_output n o', H)) (xout_update_with (n_output n) (l_grad (o_l (n_output n)))) (fun '(n1, H1) _ =>
  xin (fun H' => (n1, H')) (xfold (fun H p => xlift H (lget H p) (fun h => xin (fun h' => upd p h' H) (xh_update_with h (l_grad (h_base h))) (fun H' _ => XOk H' tt))) (n_hidden n1) H1)
    (fun s _ => XOk s tt)).
(** neuralnet.cpp:58-63 *)
Definition xnet_update_with (n : net) (H : lheap) (og : mat) (hg : list mat) : xr (net * lheap) unit :=
  xin (fun o' => (set_output n o', H)) (xout_update_with (n_output n) og) (fun '(n1, H1) _ =>
  xin (fun H' => (n1, H')) (xfold (fun H ip => xlift H (lget H (snd ip)) (fun h =>
       match nth_error hg (fst ip) with
       | None => XUndef OutOfBounds
       | Some g => xin (fun h' => upd (snd ip) h' H) (xh_update_with h g) (fun H' _ => XOk H' tt)
       end)) (combine (seq 0 (length (n_hidden n1))) (n_hidden n1)) H1) (fun s _ => XOk s tt)).
(** neuralnet.cpp:65-70 *)
Definition xnet_predict (n : net) (H : lheap) (x : mat) : xr (net * lheap) mat :=
  xin (fun s => s) (xnet_forward n H x) (fun '(n1, H1) r =>
  let n2 := set_result n1 r in xlift (n2, H1) (argmax (n_output n2)) (fun m => XOk (n2, H1) m)).

(** ** Trainers: the state is the trainer, its network and the layer objects *)
(** trainer.cpp:37-39 *)
Definition xtrain_step (n : net) (H : lheap) (x y : mat) : xr (net * lheap) unit :=
  xin (fun s => s) (xnet_forward n H x) (fun '(n1, H1) _ =>
  xin (fun s => s) (xnet_backprop n1 H1 y) (fun '(n2, H2) _ => xnet_update n2 H2)).
(** trainer.cpp:31-40 *)
Definition xfeeddata (t : trainer D) (n : net) (H : lheap) (x y : mat) : xr (trainer D * net * lheap) unit :=
  let t' := tick t in
  xlift (t', n, H) (decay t' n H) (fun '(n1, H1) =>
  xin (fun '(n, H) => (t', n, H)) (xtrain_step n1 H1 x y) (fun s _ => XOk s tt)).
(** [if (ccost) cost = computecost(getresult(), y)] - trainer.cpp:45-49, momentumtrainer.cpp:83-87 *)
Definition xcost {T} (s : T * net * lheap) (y : mat) (ccost : bool) : xr (T * net * lheap) D :=
  let '(t, n, H) := s in if ccost then xlift s (net_computecost n (n_result n) y) (fun c => XOk s c) else XOk s (dofZ 0).
(** trainer.cpp:42-50 *)
Definition xfeeddata_cost t n H x y ccost := xin (fun s => s) (xfeeddata t n H x y) (fun s _ => xcost s y ccost).

(** sgdtrainer.cpp:31-33 *)
Definition xsgd_row (n : net) (H : lheap) (x y : mat) (i : nat) : xr (net * lheap) unit :=
  xlift (n, H) (mrow x i) (fun xi =>
  xin (fun s => s) (xnet_forward n H xi) (fun '(n1, H1) _ =>
  xlift (n1, H1) (mrow y i) (fun yi =>
  xin (fun s => s) (xnet_backprop n1 H1 yi) (fun '(n2, H2) _ => xnet_update n2 H2)))).
(** sgdtrainer.cpp:24-35 *)
Definition xsgd_feeddata (t : trainer D) (n : net) (H : lheap) (x y : mat) : xr (trainer D * net * lheap) unit :=
  let t' := tick t in
  xlift (t', n, H) (decay t' n H) (fun '(n1, H1) =>
  xin (fun '(n, H) => (t', n, H)) (xfold (fun '(n, H) i => xsgd_row n H x y i) (seq 0 (nr x)) (n1, H1)) (fun s _ => XOk s tt)).
(** sgdtrainer.cpp:40-46 *)
Fixpoint xsgd_costs (t : trainer D) (x y : mat) (rows : list nat) (c : D) (n : net) (H : lheap) : xr (trainer D * net * lheap) D :=
  match rows with
  | [] => XOk (t, n, H) c
  | i :: r =>
    xlift (t, n, H) (mrow x i) (fun xi =>
    xin (fun '(n, H) => (t, n, H)) (xnet_predict n H xi) (fun '(t, n1, H1) _ =>
    xlift (t, n1, H1) (mrow y i) (fun yi =>
    xlift (t, n1, H1) (net_computecost n1 (n_result n1) yi) (fun ci => xsgd_costs t x y r (dadd c ci) n1 H1))))
  end.
(** sgdtrainer.cpp:37-48 *)
Definition xsgd_feeddata_cost t n H x y (ccost : bool) : xr (trainer D * net * lheap) D :=
  xin (fun s => s) (xsgd_feeddata t n H x y) (fun '(t', n', H') _ =>
  if ccost then xsgd_costs t' x y (seq 0 (nr x)) (dofZ 0) n' H' else XOk (t', n', H') (dofZ 0)).

(** batchtrainer.cpp:37-45 *)
Definition xbatch_loop (b : Z) (tx ty : mat) (starts : list Z) (t : trainer D) (n : net) (H : lheap) : xr (trainer D * net * lheap) unit :=
  xfold (fun '(t, n, H) i =>
    xlift (t, n, H) (mrows tx i (i + b - 1)) (fun xb =>
    xin (fun '(n, H) => (t, n, H)) (xnet_forward n H xb) (fun '(t, n1, H1) _ =>
    xlift (t, n1, H1) (mrows ty i (i + b - 1)) (fun yb =>
    xin (fun '(n, H) => (t, n, H)) (xnet_backprop n1 H1 yb) (fun '(t, n2, H2) _ =>
    xin (fun '(n, H) => (t, n, H)) (xnet_update n2 H2) (fun '(t, n3, H3) _ => XOk (tick t, n3, H3) tt)))))) starts (t, n, H).
(** batchtrainer.cpp:28-50 *)
Definition xbatch_feeddata (t : btrainer D) (n : net) (H : lheap) (x y : mat) : xr (btrainer D * net * lheap) unit :=
  let b := bt_size t in
  let t1 := BT (bt_t t) x y b in
  xlift (t1, n, H) (wrap_rows x b) (fun tx =>
  xlift (t1, n, H) (wrap_rows y b) (fun ty =>
  xin (fun '(t, n, H) => (BT t x y b, n, H)) (xbatch_loop b tx ty (steps (Z.of_nat (nr x)) b) (bt_t t1) n H) (fun '(t2, n2, H2) _ =>
  xlift (t2, n2, H2) (decay (bt_t t2) n2 H2) (fun '(n3, H3) => XOk (t2, n3, H3) tt)))).
(** batchtrainer.cpp:52-62 *)
Definition xbatch_feeddata_cost t n H x y (ccost : bool) : xr (btrainer D * net * lheap) D :=
  xin (fun s => s) (xbatch_feeddata t n H x y) (fun '(t', n', H') _ =>
  xlift (t', n', H') (foldM (fun c _ => if ccost then ci <- net_computecost n' (n_result n') y ;; Ok (dadd c ci) else Ok c)
    (steps (Z.of_nat (nr x)) (bt_size t)) (dofZ 0)) (fun c => XOk (t', n', H') c)).

(** momentumtrainer.cpp:67-75: the accumulators are replaced one after the other *)
Fixpoint xmom_hidden (mu : D) (it : Z) (n : net) (H : lheap) (i : nat) (todo : list mat) : xr (list mat) unit :=
  match todo with
  | [] => XOk [] tt
  | acc :: r =>
    xlift todo (net_gethidden n H i) (fun l =>
    xlift todo (mom_hidden mu it acc (l_grad l)) (fun g => xin (cons g) (xmom_hidden mu it n H (S i) r) (fun s _ => XOk s tt)))
  end.
(** momentumtrainer.cpp:58-78 *)
Definition xmomentum_feeddata (t : mtrainer D) (n : net) (H : lheap) (x y : mat) : xr (mtrainer D * net * lheap) unit :=
  let t' := MT (tick (mt_t t)) (mt_mom t) (mt_ograd t) (mt_hgrads t) in
  xlift (t', n, H) (decay (mt_t t') n H) (fun '(n0, H0) =>
  xin (fun '(n, H) => (t', n, H)) (xnet_forward n0 H0 x) (fun '(t', n1, H1) _ =>
  xin (fun '(n, H) => (t', n, H)) (xnet_backprop n1 H1 y) (fun '(t', n2, H2) _ =>
  xlift (t', n2, H2) (madd (mscal (mt_mom t') (mt_ograd t')) (mscal (dsub (dofZ 1) (mt_mom t')) (l_grad (o_l (net_getoutput n2))))) (fun og =>
  let t2 := MT (mt_t t') (mt_mom t') og (mt_hgrads t') in
  xin (fun hg => (MT (mt_t t2) (mt_mom t2) (mt_ograd t2) hg, n2, H2)) (xmom_hidden (mt_mom t2) (t_iters (mt_t t2)) n2 H2 0 (mt_hgrads t2)) (fun '(t3, n3, H3) _ =>
  xin (fun '(n, H) => (t3, n, H)) (xnet_update_with n3 H3 (mt_ograd t3) (mt_hgrads t3)) (fun s _ => XOk s tt)))))).
(** momentumtrainer.cpp:80-88 *)
Definition xmomentum_feeddata_cost t n H x y ccost := xin (fun s => s) (xmomentum_feeddata t n H x y) (fun s _ => xcost s y ccost).
End Exc.

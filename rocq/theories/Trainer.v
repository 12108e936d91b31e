(** Trainer.v - model of /repo/src/trainer.
    A trainer holds a pointer to a network; here the network (and the layer objects) are passed in and out
    explicitly.  Default-constructed (null pointer) and dangling
    trainers are in Session.v.  Counters are unbounded. *)
From Verif Require Import Base Mat Act Layer Conv Misc Net.
From Coq Require Import Arith.
Local Open Scope Z_scope.

Section Trainer.
Context {D : dtype}.
Notation mat := (mat D).
Notation net := (net D).
Notation lheap := (lheap D).
Context (junk : nat -> D).

(** trainer.h:24-28 *)
Record trainer := T { t_iters : Z; t_step : Z; t_usedecay : bool; t_k : D; t_r0 : D }.
(** trainer.cpp:7-8 and :10-11 *)
Definition trainer_new : trainer := T 0 0 false (dofZ 0) (dofZ 0).
Definition trainer_new_decay (r0 k : D) (step : Z) : trainer := T 0 step true k r0.
(** trainer.cpp:13-15, :17-25 *)
Definition trainer_copy (t : trainer) : trainer := T (t_iters t) (t_step t) (t_usedecay t) (t_k t) (t_r0 t).
Definition trainer_assign (dst src : trainer) : trainer := trainer_copy src.

Definition tick (t : trainer) : trainer := T (t_iters t + 1) (t_step t) (t_usedecay t) (t_k t) (t_r0 t).

(** [if (usedecay && iters == step) nnet->setlrate(r0 * exp(-k*iters));] - trainer.cpp:33-35,
    sgdtrainer.cpp:26-28, momentumtrainer.cpp:60-62, batchtrainer.cpp:47-49 *)
Definition decay (t : trainer) (n : net) (H : lheap) : res (net * lheap) :=
  if t_usedecay t && (t_iters t =? t_step t)
  then net_setlrate n H (dmul (t_r0 t) (dexp (dmul (dneg (t_k t)) (dofZ (t_iters t)))))
  else Ok (n, H).

(** forwardprop, backprop, update *)
Definition train_step (n : net) (H : lheap) (x y : mat) : res (net * lheap) :=
  '(_, n1, H1) <- net_forward junk n H x ;;
  '(n2, H2) <- net_backprop junk n1 H1 y ;;
  net_update n2 H2.

(** trainer.cpp:31-40 *)
Definition feeddata (t : trainer) (n : net) (H : lheap) (x y : mat) : res (trainer * net * lheap) :=
  let t' := tick t in
  '(n1, H1) <- decay t' n H ;;
  '(n2, H2) <- train_step n1 H1 x y ;;
  Ok (t', n2, H2).
(** trainer.cpp:42-50 *)
Definition feeddata_cost (t : trainer) (n : net) (H : lheap) (x y : mat) (ccost : bool) : res (D * trainer * net * lheap) :=
  '(t', n', H') <- feeddata t n H x y ;;
  if ccost then c <- net_computecost n' (n_result n') y ;; Ok (c, t', n', H') else Ok (dofZ 0, t', n', H').

(** ** SGDTrainer *)
(** sgdtrainer.cpp:12-13: the copy constructor goes through the decay constructor *)
Definition sgd_copy (t : trainer) : trainer := trainer_new_decay (t_r0 t) (t_k t) (t_step t).

(** sgdtrainer.cpp:31-33, one row: y.row(i) is evaluated after forwardprop(x.row(i)) *)
Definition sgd_row (n : net) (H : lheap) (x y : mat) (i : nat) : res (net * lheap) :=
  xi <- mrow x i ;;
  '(_, n1, H1) <- net_forward junk n H xi ;;
  yi <- mrow y i ;;
  '(n2, H2) <- net_backprop junk n1 H1 yi ;;
  net_update n2 H2.
(** sgdtrainer.cpp:30-34 *)
Definition sgd_rows (n : net) (H : lheap) (x y : mat) (rows : list nat) : res (net * lheap) :=
  foldM (fun '(n, H) i => sgd_row n H x y i) rows (n, H).
(** sgdtrainer.cpp:24-35 *)
Definition sgd_feeddata (t : trainer) (n : net) (H : lheap) (x y : mat) : res (trainer * net * lheap) :=
  let t' := tick t in
  '(n1, H1) <- decay t' n H ;;
  '(n2, H2) <- sgd_rows n1 H1 x y (seq 0 (nr x)) ;;
  Ok (t', n2, H2).
(** sgdtrainer.cpp:37-48 *)
Definition sgd_feeddata_cost (t : trainer) (n : net) (H : lheap) (x y : mat) (ccost : bool) : res (D * trainer * net * lheap) :=
  '(t', n', H') <- sgd_feeddata t n H x y ;;
  '(c, n2, H2) <- foldM (fun '(c, n, H) i =>
       if ccost : bool then
         xi <- mrow x i ;;
         '(_, n1, H1) <- net_predict junk n H xi ;;
         yi <- mrow y i ;;
         ci <- net_computecost n1 (n_result n1) yi ;;
         Ok (dadd c ci, n1, H1)
       else Ok (c, n, H)) (seq 0 (nr x)) (dofZ 0, n', H') ;;
  Ok (c, t', n2, H2).

(** ** BatchTrainer *)
(** batchtrainer.h:22-24 *)
Record btrainer := BT { bt_t : trainer; bt_x : mat; bt_y : mat; bt_size : Z }.
(** batchtrainer.cpp:7-8, :10-12, :14-16, :18-22 *)
Definition batch_new (b : Z) : btrainer := BT trainer_new mempty mempty b.
Definition batch_new_decay (b : Z) (r0 k : D) (step : Z) : btrainer := BT (trainer_new_decay r0 k step) mempty mempty b.
Definition batch_copy (t : btrainer) : btrainer :=
  BT (trainer_new_decay (t_r0 (bt_t t)) (t_k (bt_t t)) (t_step (bt_t t))) mempty mempty (bt_size t).
Definition batch_assign (dst src : btrainer) : btrainer :=
  BT (trainer_assign (bt_t dst) (bt_t src)) (bt_x dst) (bt_y dst) (bt_size src).

(** batchtrainer.cpp:32-35: the data followed by its first batchsize-1 rows *)
Definition wrap_rows (m : mat) (b : Z) : res mat :=
  s <- submat m 0 0 (b - 2) (Z.of_nat (nc m) - 1) ;; insert_rows m (nr m) s.
(** batchtrainer.cpp:37-45 *)
Definition batch_loop (b : Z) (trainx trainy : mat) (starts : list Z) (t : trainer) (n : net) (H : lheap)
  : res (trainer * net * lheap) :=
  foldM (fun '(t, n, H) i =>
    xb <- mrows trainx i (i + b - 1) ;;
    '(_, n1, H1) <- net_forward junk n H xb ;;
    yb <- mrows trainy i (i + b - 1) ;;
    '(n2, H2) <- net_backprop junk n1 H1 yb ;;
    '(n3, H3) <- net_update n2 H2 ;;
    Ok (tick t, n3, H3)) starts (t, n, H).
(** batchtrainer.cpp:28-50 *)
Definition batch_feeddata (t : btrainer) (n : net) (H : lheap) (x y : mat) : res (btrainer * net * lheap) :=
  let b := bt_size t in
  tx <- wrap_rows x b ;;
  ty <- wrap_rows y b ;;
  '(t', n1, H1) <- batch_loop b tx ty (steps (Z.of_nat (nr x)) b) (bt_t t) n H ;;
  '(n2, H2) <- decay t' n1 H1 ;;
  Ok (BT t' x y b, n2, H2).
(** batchtrainer.cpp:52-62 *)
Definition batch_feeddata_cost (t : btrainer) (n : net) (H : lheap) (x y : mat) (ccost : bool)
  : res (D * btrainer * net * lheap) :=
  '(t', n', H') <- batch_feeddata t n H x y ;;
  c <- foldM (fun c _ => if ccost : bool then ci <- net_computecost n' (n_result n') y ;; Ok (dadd c ci) else Ok c)
         (steps (Z.of_nat (nr x)) (bt_size t)) (dofZ 0) ;;
  Ok (c, t', n', H').

(** ** MomentumTrainer *)
(** momentumtrainer.h:25-27 *)
Record mtrainer := MT { mt_t : trainer; mt_mom : D; mt_ograd : mat; mt_hgrads : list mat }.
Definition zero_like (m : mat) : mat := zeros (nr m) (nc m).
(** momentumtrainer.cpp:46-56 *)
Definition initmomentum (t : trainer) (mu : D) (n : net) (H : lheap) : res mtrainer :=
  hs <- mapM (fun i => l <- net_gethidden n H i ;; Ok (zero_like (l_W l))) (seq 0 (length (n_hidden n))) ;;
  Ok (MT t mu (zero_like (l_W (o_l (net_getoutput n)))) hs).
(** momentumtrainer.cpp:7-27 *)
Definition momentum_new (mu : D) (n : net) (H : lheap) : res mtrainer := initmomentum trainer_new mu n H.
Definition momentum_new_decay (mu r0 k : D) (step : Z) (n : net) (H : lheap) : res mtrainer :=
  initmomentum (trainer_new_decay r0 k step) mu n H.
(** momentumtrainer.cpp:30-32, :34-40 *)
Definition momentum_copy (t : mtrainer) : mtrainer :=
  MT (trainer_new_decay (t_r0 (mt_t t)) (t_k (mt_t t)) (t_step (mt_t t))) (mt_mom t) (mt_ograd t) (mt_hgrads t).
Definition momentum_assign (dst src : mtrainer) : mtrainer :=
  MT (trainer_assign (mt_t dst) (mt_t src)) (mt_mom src) (mt_ograd src) (mt_hgrads src).

(** momentumtrainer.cpp:67-75, one accumulated hidden gradient; [(iters-1)/iters] is integer division *)
Definition mom_hidden (mu : D) (iters : Z) (acc g : mat) : res mat :=
  if negb (deqb mu (dofZ 0)) then madd (mscal mu acc) (mscal (dsub (dofZ 1) mu) g)
  else madd (mscal (dofZ ((iters - 1) / iters)) acc) (mscal (ddiv (dofZ 1) (dofZ iters)) g).
(** momentumtrainer.cpp:58-78 *)
Definition momentum_feeddata (t : mtrainer) (n : net) (H : lheap) (x y : mat) : res (mtrainer * net * lheap) :=
  let t' := tick (mt_t t) in
  let mu := mt_mom t in
  '(n0, H0) <- decay t' n H ;;
  '(_, n1, H1) <- net_forward junk n0 H0 x ;;
  '(n2, H2) <- net_backprop junk n1 H1 y ;;
  og <- madd (mscal mu (mt_ograd t)) (mscal (dsub (dofZ 1) mu) (l_grad (o_l (net_getoutput n2)))) ;;
  hg <- mapM (fun ia => l <- net_gethidden n2 H2 (fst ia) ;; mom_hidden mu (t_iters t') (snd ia) (l_grad l))
          (combine (seq 0 (length (mt_hgrads t))) (mt_hgrads t)) ;;
  '(n3, H3) <- net_update_with n2 H2 og hg ;;
  Ok (MT t' mu og hg, n3, H3).
(** momentumtrainer.cpp:80-88 *)
Definition momentum_feeddata_cost (t : mtrainer) (n : net) (H : lheap) (x y : mat) (ccost : bool)
  : res (D * mtrainer * net * lheap) :=
  '(t', n', H') <- momentum_feeddata t n H x y ;;
  if ccost then c <- net_computecost n' (n_result n') y ;; Ok (c, t', n', H') else Ok (dofZ 0, t', n', H').


Lemma sgd_row_inv n H x y i r : sgd_row n H x y i = Ok r -> exists xi yi, mrow x i = Ok xi /\ mrow y i = Ok yi /\ train_step n H xi yi = Ok r.
Proof.
  unfold sgd_row, train_step. intros E. apply bind_ok in E as (xi & X & E). apply bind_ok in E as ([[a n1] H1] & F & E). apply bind_ok in E as (yi & Y & E).
  exists xi, yi. rewrite F. cbn [bind]. auto.
Qed.
Lemma sgd_row_step n H x y i xi yi : mrow x i = Ok xi -> mrow y i = Ok yi -> sgd_row n H x y i = train_step n H xi yi.
Proof. intros X Y. unfold sgd_row, train_step. rewrite X. cbn [bind]. destruct (net_forward junk n H xi) as [[[a n1] H1]| | |]; cbn [bind]; try reflexivity. now rewrite Y. Qed.
End Trainer.
Arguments trainer : clear implicits.
Arguments btrainer : clear implicits.
Arguments mtrainer : clear implicits.

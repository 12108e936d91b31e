(** P_Equiv.v - C64: when the trainers coincide. *)
From Verif Require Import Base Mat Act Layer Conv Misc Net NetP Trainer TrainP TrainP2 ExNet P_Train P_Decay P_Batch P_Sgd.
From Coq Require Import Arith List ZArith Lia.
Import ListNotations.
Local Open Scope nat_scope.

Section Equiv.
Context {D : dtype} (junk : nat -> D).
Notation mat := (mat D).
Notation net := (net D).
Notation lheap := (lheap D).

(** The outcome of a BatchTrainer history with the trainer reduced to its counters (its copy of the last data is dropped). *)
Definition forget (r : res (btrainer D * net * lheap)) : res (trainer D * net * lheap) :=
  '(t, n, H) <- r ;; Ok (bt_t t, n, H).
(** A whole data set of b samples. *)
Definition full_set (b : nat) (d : mat * mat) : Prop :=
  wf (fst d) /\ wf (snd d) /\ nr (fst d) = b /\ nr (snd d) = b /\ 1 <= nc (fst d) /\ 1 <= nc (snd d).

Lemma nbatches_one rows : 1 <= rows -> nbatches rows rows = 1.
Proof.
  intros H. pose proof (nbatches_cover rows rows H) as [A B]. destruct (nbatches rows rows) as [|[|k]]; auto; nia.
Qed.
Lemma batch_whole (t : btrainer D) (n : net) (H : lheap) x y b : bt_size t = Z.of_nat b -> 2 <= b -> t_usedecay (bt_t t) = false -> full_set b (x, y) ->
  batch_feeddata junk t n H x y = ('(t', n', H') <- feeddata junk (bt_t t) n H x y ;; Ok (BT t' x y (bt_size t), n', H')).
Proof.
  intros Hb H2 Hd (W1 & W2 & E1 & E2 & C1 & C2). cbn [fst snd] in *. rewrite (C38_batches junk t n H x y b) by (auto; lia).
  rewrite E1, nbatches_one by lia. cbn [seq foldM bind].
  replace (pick x (batch_rows b b 0)) with x by (rewrite <- E1; symmetry; apply pick_all; [assumption|lia]).
  replace (pick y (batch_rows b b 0)) with y by (rewrite <- E2; symmetry; apply pick_all; [assumption|lia]).
  unfold feeddata, decay. cbn [tick t_usedecay ticks]. rewrite Hd. cbn [andb bind].
  destruct (train_step junk n H x y) as [[n1 H1]| | |]; cbn [bind]; reflexivity.
Qed.

(** A BatchTrainer without decay whose batch size is the number of samples does, over any history of calls, exactly
    what a Trainer with the same counters does - including how calls fail. *)
Theorem C64_batch : forall b (data : list (mat * mat)) (t : btrainer D) (n : net) (H : lheap),
  bt_size t = Z.of_nat b -> 2 <= b -> t_usedecay (bt_t t) = false -> Forall (full_set b) data ->
  forget (foldM (fun '(t, n, H) d => batch_feeddata junk t n H (fst d) (snd d)) data (t, n, H)) =
  foldM (fun '(t, n, H) d => feeddata junk t n H (fst d) (snd d)) data (bt_t t, n, H).
Proof.
  intros b data. induction data as [|[x y] data IH]; intros t n H Hb H2 Hd HF; [reflexivity|]. inversion HF as [|? ? F1 F2]; subst.
  cbn [foldM fst snd]. rewrite (batch_whole t n H x y b) by assumption.
  destruct (feeddata junk (bt_t t) n H x y) as [[[t' n'] H']| | |] eqn:E; cbn [bind]; try reflexivity.
  rewrite IH; auto. cbn [bt_t]. clear IH. unfold feeddata in E. apply bind_ok in E as ([n1 H1] & _ & E). apply bind_ok in E as ([n2 H2'] & _ & E). injection E as <- <- <-. exact Hd.
Qed.
(** SGDTrainer and Trainer do the same on data sets of one sample, with or without decay. *)
Theorem C64_sgd : forall (data : list (mat * mat)) (t : trainer D) (n : net) (H : lheap),
  Forall (fun d => wf (fst d) /\ wf (snd d) /\ nr (fst d) = 1 /\ nr (snd d) = 1) data ->
  foldM (fun '(t, n, H) d => sgd_feeddata junk t n H (fst d) (snd d)) data (t, n, H) =
  foldM (fun '(t, n, H) d => feeddata junk t n H (fst d) (snd d)) data (t, n, H).
Proof.
  intros data. induction data as [|[x y] data IH]; intros t n H HF; [reflexivity|]. inversion HF as [|? ? (W1 & W2 & E1 & E2) F2]; subst. cbn [fst snd] in *.
  cbn [foldM fst snd].
  assert (E : sgd_feeddata junk t n H x y = feeddata junk t n H x y).
  { rewrite C40_epoch by lia. rewrite E1. cbn [seq foldM].
    assert (Rx : forall m : mat, wf m -> nr m = 1 -> row_of m 0 = m). { intros m Wm Em. unfold row_of. transitivity (mk (nr m) (nc m) (at_ m)); [|now apply mk_at]. rewrite Em. apply mk_ext. intros i j Hi Hj. replace i with 0 by lia. reflexivity. }
    rewrite !Rx by assumption. unfold feeddata at 2. destruct (decay (tick t) n H) as [[n0 H0]| | |]; cbn [bind]; try reflexivity.
    unfold feeddata, decay. cbn [tick trainer_new t_usedecay andb bind]. destruct (train_step junk n0 H0 x y) as [[n1 H1]| | |]; reflexivity. }
  rewrite E. destruct (feeddata junk t n H x y) as [[[t' n'] H']| | |]; cbn [bind]; try reflexivity. now apply IH.
Qed.
End Equiv.

(** Two calls of a BatchTrainer of size 4 on a network with a hidden layer. *)
Example C64_example : Forall (full_set (D := Zdt) 4) [(exx4, exy4); (exx4, exy4)] /\ t_usedecay (bt_t (batch_new (D := Zdt) 4)) = false /\
  is_ok (foldM (fun '(t, n, H) d => batch_feeddata (D := Zdt) exj t n H (fst d) (snd d)) [(exx4, exy4); (exx4, exy4)] (batch_new 4, exn, exH)) = true.
Proof. split; [repeat constructor|]. split; vm_compute; reflexivity. Qed.

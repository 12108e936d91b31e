(** P_Sgd.v - C40: SGDTrainer; C58: which cost Trainer and MomentumTrainer report. *)
From Verif Require Import Base Mat Act Layer Conv Misc Net NetP Trainer TrainP TrainP2 ExNet P_Train FunEq.
From Coq Require Import Arith.
Local Open Scope nat_scope.

Section Generic.
Context {D : dtype}.
Notation mat := (mat D).
Context (junk : nat -> D).

(** The single-row matrix made of row r. *)
Definition row_of (m : mat) (r : nat) : mat := mk 1 (nc m) (fun _ j => at_ m r j).

(** ** C40 *)
(** SGDTrainer::feeddata(x, y) is: the decay test, then one call of a decay-free Trainer::feeddata per row, in order. *)
Theorem C40_epoch : forall (t : trainer D) n H x y, nr x <= nr y ->
  sgd_feeddata junk t n H x y =
    ('(n0, H0) <- decay (tick t) n H ;;
     '(_, n1, H1) <- foldM (fun '(u, n, H) r => feeddata junk u n H (row_of x r) (row_of y r)) (seq 0 (nr x)) (trainer_new, n0, H0) ;;
     Ok (tick t, n1, H1)).
Proof.
  intros t n H x y Hr. unfold sgd_feeddata. destruct (decay (tick t) n H) as [[n0 H0]| | |]; cbn [bind]; try reflexivity.
  assert (G : forall l u n H, t_usedecay u = false -> (forall r, In r l -> r < nr x) ->
     sgd_rows junk n H x y l = ('(_, n1, H1) <- foldM (fun '(u, n, H) r => feeddata junk u n H (row_of x r) (row_of y r)) l (u, n, H) ;; Ok (n1, H1))).
  { clear n H n0 H0. unfold sgd_rows. induction l as [|r l IH]; intros u n H Hu Hl; [reflexivity|]. cbn [foldM].
    assert (Lr := Hl r (or_introl eq_refl)). rewrite (sgd_row_step junk n H x y r (row_of x r) (row_of y r)) by (unfold mrow; rewrite (proj2 (Nat.ltb_lt r _)) by lia; reflexivity).
    assert (Ef : feeddata junk u n H (row_of x r) (row_of y r) = ('(n2, H2) <- train_step junk n H (row_of x r) (row_of y r) ;; Ok (tick u, n2, H2))).
    { unfold feeddata, decay. cbn [tick t_usedecay]. rewrite Hu. reflexivity. }
    rewrite Ef. destruct (train_step junk n H (row_of x r) (row_of y r)) as [[n2 H2]| | |]; cbn [bind]; try reflexivity.
    apply IH; [exact Hu|]. intros; apply Hl; now right. }
  rewrite (G _ trainer_new) by (try reflexivity; intros r Hr'%in_seq; lia).
  destruct (foldM _ _ _) as [[[u n1] H1]| | |]; reflexivity.
Qed.
(** With fewer label rows than sample rows the call cannot succeed. *)
Theorem C40_missing_labels : forall (t : trainer D) n H x y, nr y < nr x -> forall r, sgd_feeddata junk t n H x y <> Ok r.
Proof.
  intros t n H x y Hr [[t' n'] H'] E. unfold sgd_feeddata in E. apply bind_ok in E as ([n0 H0] & _ & E). apply bind_ok in E as ([n1 H1] & E & _).
  unfold sgd_rows in E. replace (seq 0 (nr x)) with (seq 0 (nr y) ++ nr y :: seq (S (nr y)) (nr x - S (nr y))) in E.
  2:{ change (nr y :: seq (S (nr y)) (nr x - S (nr y))) with (seq (nr y) (S (nr x - S (nr y)))). rewrite <- seq_app. f_equal. lia. }
  assert (X : forall A S (f : S -> A -> res S) l1 l2 s s', foldM f (l1 ++ l2) s = Ok s' -> exists s1, foldM f l2 s1 = Ok s').
  { clear. induction l1 as [|a l1 IH]; intros l2 s s' E; [eauto|]. cbn [app foldM] in E. apply bind_ok in E as (s1 & _ & E). eauto. }
  apply X in E as ([n2 H2] & E). cbn [foldM] in E. apply bind_ok in E as ([n3 H3] & E & _). apply sgd_row_inv in E as (xi & yi & _ & E & _).
  unfold mrow in E. rewrite Nat.ltb_irrefl in E. discriminate.
Qed.

(** The reported cost: the sum over rows, in order from 0, of the cost of each row under the weights reached at the end
    of the epoch [n1, H1]; computing it changes no weight. *)
Theorem C40_cost : forall (t : trainer D) n H x y c t' n' H', dense_hidden n H ->
  sgd_feeddata_cost junk t n H x y true = Ok (c, t', n', H') ->
  exists n1 H1 costs,
    sgd_feeddata junk t n H x y = Ok (t', n1, H1) /\ same_weights n1 H1 n' H' /\ length costs = nr x /\
    (forall r, r < nr x -> exists a m K, net_forward junk n1 H1 (row_of x r) = Ok (a, m, K) /\ net_computecost n1 a (row_of y r) = Ok (nth r costs d0)) /\
    c = fold_left dadd costs (dofZ 0).
Proof.
  intros t n H x y c t' n' H' Hd E. unfold sgd_feeddata_cost in E. apply bind_ok in E as ([[t1 n1] H1] & E1 & E). apply bind_ok in E as ([[c2 n2] H2] & E2 & E).
  injection E as -> -> -> ->.
  assert (Hd1 : dense_hidden n1 H1).
  { unfold sgd_feeddata in E1. apply bind_ok in E1 as ([n0 H0] & D0 & E1). apply bind_ok in E1 as ([n3 H3] & D1 & E1). injection E1 as <- <- <-.
    apply decay_same in D0 as [D0 _]; [|assumption]. unfold sgd_rows in D1. clear -D0 D1.
    assert (G : forall l n H n1 H1, dense_hidden n H -> foldM (fun '(n, H) i => sgd_row junk n H x y i) l (n, H) = Ok (n1, H1) -> dense_hidden n1 H1).
    { induction l as [|i l IH]; intros n H n1 H1 Hd E; cbn [foldM] in E; [injection E as <- <-; assumption|]. apply bind_ok in E as ([n2 H2] & E & E').
      apply sgd_row_inv in E as (xi & yi & _ & _ & E). apply train_step_moves in E; [|assumption]. decompose [ex and] E. eapply IH; eauto. }
    eapply G; eauto. }
  exists n1, H1.
  assert (G : forall k s c0 n2 H2 c' n' H', dense_hidden n2 H2 -> same_weights n1 H1 n2 H2 -> n_cost n2 = n_cost n1 -> s + k = nr x ->
    foldM (fun '(c, n, H) i => if true then xi <- mrow x i ;; '(_, n1, H1) <- net_predict junk n H xi ;; yi <- mrow y i ;; ci <- net_computecost n1 (n_result n1) yi ;; Ok (dadd c ci, n1, H1)
       else Ok (c, n, H)) (seq s k) (c0, n2, H2) = Ok (c', n', H') ->
    exists costs, length costs = k /\ same_weights n1 H1 n' H' /\
      (forall r, r < k -> exists a m K, net_forward junk n1 H1 (row_of x (s + r)) = Ok (a, m, K) /\ net_computecost n1 a (row_of y (s + r)) = Ok (nth r costs d0)) /\
      c' = fold_left dadd costs c0).
  { clear -Hd1. induction k as [|k IH]; intros s c0 n2 H2 c' n' H' Hd2 HS HC Hs E; cbn [seq foldM] in E.
    - injection E as <- <- <-. exists []. split; [reflexivity|]. split; [assumption|]. split; [intros r Hr; lia|reflexivity].
    - apply bind_ok in E as ([[c3 n3] H3] & E & E'). apply bind_ok in E as (xi & X & E). apply bind_ok in E as ([[pm n4] H4] & P & E).
      apply bind_ok in E as (yi & Y & E). apply bind_ok in E as (ci & C & E). injection E as <- <- <-.
      unfold mrow in X, Y. destruct (s <? nr x); [|discriminate]. destruct (s <? nr y); [|discriminate]. injection X as <-. injection Y as <-.
      fold (row_of x s) in P. fold (row_of y s) in C. apply predict_inv in P as (a & m & P1 & -> & P2).
      destruct (same_forward junk n2 H2 n1 H1 (row_of x s) a m H4 Hd2 Hd1 (same_weights_sym _ _ _ _ HS) P1) as (m1 & K1 & Q1 & Q2 & Q3 & Q4 & Q5 & Q6 & Q7 & [Q8 _] & [Q9 _] & _).
      destruct (IH (S s) (dadd c0 ci) (set_result m a) H4 c' n' H') as (costs & I1 & I2 & I3 & I4).
      + exact Q2.
      + eapply same_weights_trans; [exact HS|]. exact Q4.
      + cbn. congruence.
      + lia.
      + exact E'.
      + exists (ci :: costs). split; [cbn; lia|]. split; [assumption|]. split; [|exact I4].
        intros [|r] Hr; cbn [nth].
        * rewrite Nat.add_0_r. do 3 eexists. split; [exact Q1|]. unfold net_computecost in *. cbn [set_result n_cost n_result] in C. rewrite Q8, HC in C. exact C.
        * rewrite Nat.add_succ_r. apply I3. lia. }
  destruct (G (nr x) 0 (dofZ 0) n1 H1 c n' H' Hd1 (same_weights_refl _ _ Hd1) eq_refl eq_refl E2) as (costs & A1 & A2 & A3 & A4).
  exists costs. split; [assumption|]. split; [assumption|]. split; [assumption|]. split; [exact A3|assumption].
Qed.

(** ** C58 *)
(** The plain trainer and the momentum trainer report the cost the network had BEFORE the call's update. *)
Theorem C58_trainer : forall (t : trainer D) n H x y c t' n' H', dense_hidden n H ->
  feeddata_cost junk t n H x y true = Ok (c, t', n', H') ->
  exists a n1 H1, net_forward junk n H x = Ok (a, n1, H1) /\ net_computecost n a y = Ok c.
Proof.
  intros t n H x y c t' n' H' Hd E. unfold feeddata_cost in E. apply bind_ok in E as ([[t1 n1] H1] & E1 & E). apply bind_ok in E as (c0 & C & E). injection E as -> -> -> ->.
  unfold feeddata in E1. apply bind_ok in E1 as ([n0 H0] & D0 & E1). apply bind_ok in E1 as ([n3 H3] & D1 & E1). injection E1 as <- <- <-.
  apply decay_same in D0 as (Hd0 & S0 & [K0 _]); [|assumption].
  destruct (train_step_moves junk n0 H0 x y n3 H3 Hd0 D1) as (a & m1 & K1 & m2 & K2 & k0 & k2 & k' & M1 & M2 & M3 & M4 & M5 & M6 & M7 & M8 & M9 & M10 & M11 & M12 & M13).
  destruct (same_forward junk n0 H0 n H x a m1 K1 Hd0 Hd (same_weights_sym _ _ _ _ S0) M1) as (m1' & K1' & Q1 & _). exists a, m1', K1'. split; [exact Q1|].
  assert (KC : n_cost n3 = n_cost n0).
  { unfold train_step in D1. rewrite M1 in D1. cbn [bind] in D1. rewrite M2 in D1. cbn [bind] in D1. pose proof (forward_kc _ _ _ _ _ _ _ M1) as [[A _] _]. pose proof (backprop_kc _ _ _ _ _ _ M2) as [[B _] _].
    unfold net_update in D1. apply bind_ok in D1 as (o & _ & D1). apply bind_ok in D1 as (? & _ & D1). injection D1 as <- _. cbn. congruence. }
  unfold net_computecost in *. rewrite <- K0, <- KC, <- M13. exact C.
Qed.
Theorem C58_momentum : forall (t : mtrainer D) n H x y c t' n' H', dense_hidden n H ->
  momentum_feeddata_cost junk t n H x y true = Ok (c, t', n', H') ->
  exists a n1 H1, net_forward junk n H x = Ok (a, n1, H1) /\ net_computecost n a y = Ok c.
Proof.
  intros t n H x y c t' n' H' Hd E. unfold momentum_feeddata_cost in E. apply bind_ok in E as ([[t1 n1] H1] & E1 & E). apply bind_ok in E as (c0 & C & E). injection E as -> -> -> ->.
  unfold momentum_feeddata in E1. apply bind_ok in E1 as ([n0 H0] & D0 & E1). apply bind_ok in E1 as ([[a m1] K1] & F & E1). apply bind_ok in E1 as ([m2 K2] & B & E1).
  apply bind_ok in E1 as (og & _ & E1). apply bind_ok in E1 as (hg & _ & E1). apply bind_ok in E1 as ([m3 K3] & U & E1). injection E1 as <- <- <-.
  apply decay_same in D0 as (Hd0 & S0 & [K0 _]); [|assumption].
  destruct (same_forward junk n0 H0 n H x a m1 K1 Hd0 Hd (same_weights_sym _ _ _ _ S0) F) as (m1' & K1' & Q1 & _). exists a, m1', K1'. split; [exact Q1|].
  pose proof (forward_kc _ _ _ _ _ _ _ F) as [[A1 _] A2]. pose proof (backprop_kc _ _ _ _ _ _ B) as [[B1 _] B2].
  unfold net_update_with in U. apply bind_ok in U as (o & _ & U). apply bind_ok in U as (? & _ & U). injection U as <- _.
  unfold net_computecost in *. cbn [set_output n_cost n_result] in C. rewrite B2, A2 in C. rewrite <- K0, <- A1, <- B1. exact C.
Qed.
End Generic.

(** ** Examples: three rows; the last update really changes the cost reported. *)
Example ex_sgd : match sgd_feeddata_cost (D := Zdt) exj trainer_new exn exH exx exy true with Ok (c, _, _, _) => true | _ => false end = true.
Proof. vm_compute. reflexivity. Qed.
Example ex_dense_hidden : dense_hidden exn exH.
Proof. apply ex_well_sized. Qed.
Example ex_feed_cost : match feeddata_cost (D := Zdt) exj trainer_new exn exH exx exy true with Ok (c, _, n', H') =>
    match net_forward (D := Zdt) exj n' H' exx with Ok (a', _, _) => match net_computecost n' a' exy with Ok c' => negb (c =? c')%Z | _ => false end | _ => false end | _ => false end = true.
Proof. vm_compute. reflexivity. Qed.

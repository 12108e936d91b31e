(** P_Session.v - C68: several trainers and networks in one program. *)
From Verif Require Import Base Mat Act Layer Conv Misc Net NetP Trainer TrainP TrainP2 ExNet P_Train P_Batch P_Mom World P_World Session.
From Coq Require Import Arith.
Local Open Scope nat_scope.

Section Generic.
Context {D : dtype}.
Notation mat := (mat D).
Notation layer := (layer D).
Notation net := (net D).
Notation lheap := (lheap D).
Notation session := (session D).
Notation tobj := (tobj D).
Notation sop := (sop D).
Context (draw : D -> nat -> D) (junk : nat -> D).
Notation sstep := (sstep draw junk).
Notation srun := (srun draw junk).

(** ** Specification *)

(** Operations that may change trainer j other than by training with it. *)
Definition retargets (j : nat) (op : sop) : Prop := match op with SAssign d _ => d = j | SDropTrainer i => i = j | _ => False end.
(** The class of a trainer, with the settings of its class. *)
Inductive tclass := CTrainer | CSgd | CBatch (batchsize : option Z) | CMomentum (momentum : D).
Definition class_of (o : tobj) : tclass :=
  match to_kind o with
  | KPlain _ => CTrainer | KSgd _ => CSgd | KBatch _ _ _ b => CBatch b | KMom m => CMomentum (mt_mom m)
  end.
Definition is_batch (o : tobj) : option nat := match to_kind o with KBatch _ _ _ (Some b) => Some (Z.to_nat b) | _ => None end.
(** How far one operation advances trainer j's counter: one per feeddata, for a BatchTrainer one per mini-batch. *)
Definition advance (j : nat) (b : option nat) (op : sop) : nat :=
  match op with
  | SFeed i x _ _ => if i =? j then match b with Some b => nbatches (nr x) b | None => 1 end else 0
  | _ => 0
  end.
Definition advance_all (j : nat) (b : option nat) (ops : list sop) : nat := fold_right (fun op a => advance j b op + a) 0 ops.
(** The network of a trainer is gone, or never was. *)
Definition unbound (s : session) (o : tobj) : Prop :=
  match to_net o with None => True | Some k => nth_error (s_nets s) k = Some None end.

(** ** Lemmas *)
Lemma nth_upd {A} (l : list A) j (a : A) : j < length l -> nth_error (upd j a l) j = Some a.
Proof. intros Hj. rewrite nth_error_upd, Nat.eqb_refl. destruct (nth_error l j) eqn:E; [reflexivity|]. apply nth_error_None in E. lia. Qed.
Lemma nth_lt {A} (l : list A) j (a : A) : nth_error l j = Some a -> j < length l.
Proof. intros E. apply nth_error_Some. congruence. Qed.

Lemma batch_loop_ticks b tx ty l : forall (t : trainer D) n H t' n' H', batch_loop junk b tx ty l t n H = Ok (t', n', H') -> t' = ticks t (length l).
Proof.
  unfold batch_loop. induction l as [|i l IH]; intros t n H t' n' H' E; cbn [foldM length] in E.
  - injection E as <- _ _. now rewrite ticks_0.
  - apply bind_ok in E as ([[t1 n1] H1] & E1 & E). apply IH in E. apply bind_ok in E1 as (xb & _ & E1). apply bind_ok in E1 as ([[r n2] H2] & _ & E1).
    apply bind_ok in E1 as (yb & _ & E1). apply bind_ok in E1 as ([n3 H3] & _ & E1). apply bind_ok in E1 as ([n4 H4] & _ & E1). injection E1 as <- _ _.
    rewrite E. apply ticks_S.
Qed.
Lemma wrap_size (x : mat) b r : wrap_rows x b = Ok r -> (2 <= b)%Z.
Proof.
  unfold wrap_rows, submat, sub_ok. intros E. apply bind_ok in E as (s & E & _). destruct (andb _ _) eqn:Q in E; [|discriminate].
  repeat (apply andb_prop in Q as [Q ?]). repeat match goal with HH : (_ <=? _)%Z = true |- _ => apply Z.leb_le in HH end. lia.
Qed.
Lemma batch_counts (t : btrainer D) n H x y c v t' n' H' : batch_feeddata_cost junk t n H x y c = Ok (v, t', n', H') ->
  bt_t t' = ticks (bt_t t) (nbatches (nr x) (Z.to_nat (bt_size t))) /\ bt_size t' = bt_size t /\ (2 <= bt_size t)%Z.
Proof.
  unfold batch_feeddata_cost, batch_feeddata. intros E. apply bind_ok in E as ([[t1 n1] H1] & E1 & E). apply bind_ok in E as (cc & _ & E). injection E as _ <- _ _.
  apply bind_ok in E1 as (tx & Ex & E1). apply bind_ok in E1 as (ty & _ & E1). apply bind_ok in E1 as ([[t2 n2] H2] & E2 & E1). apply bind_ok in E1 as ([n3 H3] & _ & E1).
  injection E1 as <- _ _. cbn [bt_t bt_size]. apply wrap_size in Ex. split; [|auto]. apply batch_loop_ticks in E2. rewrite E2. f_equal.
  rewrite <- (Z2Nat.id (bt_size t)) at 1 by lia. rewrite steps_list by lia. now rewrite map_length, seq_length.
Qed.
Lemma feed_on_counts kd (n : net) (H : lheap) x y c v kd' n' H' k : feed_on junk kd n H x y c = Ok (v, kd', n', H') ->
  class_of (TO k kd') = class_of (TO k kd) /\ is_batch (TO k kd') = is_batch (TO k kd) /\
  to_base (TO k kd') = ticks (to_base (TO k kd)) (match is_batch (TO k kd) with Some b => nbatches (nr x) b | None => 1 end).
Proof.
  assert (T1 : forall t : trainer D, tick t = ticks t 1) by (intros []; reflexivity).
  destruct kd as [t|t|t bx by_ ob|m]; cbn [feed_on]; intros E.
  - apply bind_ok in E as ([[[v1 t1] n1] H1] & E1 & E). injection E as _ <- _ _. unfold feeddata_cost, feeddata in E1. apply bind_ok in E1 as ([[t2 n2] H2] & E2 & E1).
    apply bind_ok in E2 as ([n3 H3] & _ & E2). apply bind_ok in E2 as ([n4 H4] & _ & E2). injection E2 as <- _ _.
    assert (t1 = tick t) as -> by (destruct c; [apply bind_ok in E1 as (? & _ & E1)|]; injection E1 as _ <- _ _; reflexivity). cbn. rewrite T1. auto.
  - apply bind_ok in E as ([[[v1 t1] n1] H1] & E1 & E). injection E as _ <- _ _. unfold sgd_feeddata_cost, sgd_feeddata in E1. apply bind_ok in E1 as ([[t2 n2] H2] & E2 & E1).
    apply bind_ok in E2 as ([n3 H3] & _ & E2). apply bind_ok in E2 as ([n4 H4] & _ & E2). injection E2 as <- _ _. apply bind_ok in E1 as ([[c5 n5] H5] & _ & E1). injection E1 as _ <- _ _.
    cbn. rewrite T1. auto.
  - apply bind_ok in E as (b & Eb & E). destruct ob as [b0|]; [|discriminate]. injection Eb as ->. apply bind_ok in E as ([[[v1 t1] n1] H1] & E1 & E). injection E as _ <- _ _.
    destruct (batch_counts _ _ _ _ _ _ _ _ _ _ E1) as (A & B & C). cbn [bt_t bt_size] in *. cbn. rewrite B, A. auto.
  - apply bind_ok in E as ([[[v1 t1] n1] H1] & E1 & E). injection E as _ <- _ _. unfold momentum_feeddata_cost, momentum_feeddata in E1. apply bind_ok in E1 as ([[t2 n2] H2] & E2 & E1).
    apply bind_ok in E2 as ([n3 H3] & _ & E2). apply bind_ok in E2 as ([[r4 n4] H4] & _ & E2). apply bind_ok in E2 as ([n5 H5] & _ & E2). apply bind_ok in E2 as (og & _ & E2).
    apply bind_ok in E2 as (hg & _ & E2). apply bind_ok in E2 as ([n6 H6] & _ & E2). injection E2 as <- _ _.
    assert (t1 = MT (tick (mt_t m)) (mt_mom m) og hg) as -> by (destruct c; [apply bind_ok in E1 as (? & _ & E1)|]; injection E1 as _ <- _ _; reflexivity).
    cbn. rewrite T1. auto.
Qed.
Lemma feed_blind_counts kd u (x y : mat) v kd' k : feed_blind kd u x y = Ok (v, kd') ->
  class_of (TO k kd') = class_of (TO k kd) /\ is_batch (TO k kd') = is_batch (TO k kd) /\
  to_base (TO k kd') = ticks (to_base (TO k kd)) (match is_batch (TO k kd) with Some b => nbatches (nr x) b | None => 1 end).
Proof.
  assert (T1 : forall t : trainer D, tick t = ticks t 1) by (intros []; reflexivity).
  destruct kd as [t|t|t bx by_ ob|m]; cbn [feed_blind]; intros E; try discriminate.
  - destruct (fires (tick t) || (0 <? Z.of_nat (nr x))%Z); [discriminate|]. injection E as _ <-. cbn. rewrite T1. auto.
  - apply bind_ok in E as (b & Eb & E). destruct ob as [b0|]; [|discriminate]. injection Eb as ->. apply bind_ok in E as (tx & E1 & E). apply bind_ok in E as (ty & _ & E).
    destruct (Z.ltb_spec 0 (Z.of_nat (nr x))) as [L|L]; [rewrite orb_true_r in E; discriminate|]. rewrite orb_false_r in E. destruct (fires t); [discriminate|]. injection E as _ <-.
    apply wrap_size in E1. cbn. repeat split. replace (nr x) with 0 by lia. unfold nbatches. rewrite Nat.div_small by lia. now rewrite ticks_0.
Qed.
Lemma feed_counts (s : session) o x y c v kd' w : feed junk s o x y c = Ok (v, kd', w) ->
  class_of (TO (to_net o) kd') = class_of o /\ is_batch (TO (to_net o) kd') = is_batch o /\
  to_base (TO (to_net o) kd') = ticks (to_base o) (match is_batch o with Some b => nbatches (nr x) b | None => 1 end).
Proof.
  unfold feed. destruct o as [p kd]. cbn [to_net to_kind]. destruct (deref s p) as [[k n]|u| |] eqn:Ed; intros E; try discriminate.
  - apply bind_ok in E as ([[[v1 kd1] n1] H1] & E1 & E). injection E as _ <- _. eapply feed_on_counts; eauto.
  - apply bind_ok in E as ([v1 kd1] & E1 & E). injection E as _ <- _. eapply feed_blind_counts; eauto.
Qed.
(** The trainer list after one step. *)
Lemma sstep_trainer (s : session) op s' j o : sstep s op = Ok s' -> nth_error (s_trainers s) j = Some (Some o) -> ~ retargets j op ->
  exists o', nth_error (s_trainers s') j = Some (Some o') /\ to_net o' = to_net o /\ class_of o' = class_of o /\ is_batch o' = is_batch o /\
    to_base o' = ticks (to_base o) (advance j (is_batch o) op).
Proof.
  intros E Hj Hr.
  assert (Keep : s_trainers s' = s_trainers s \/ (exists a, s_trainers s' = s_trainers s ++ [a]) -> advance j (is_batch o) op = 0 ->
    exists o', nth_error (s_trainers s') j = Some (Some o') /\ to_net o' = to_net o /\ class_of o' = class_of o /\ is_batch o' = is_batch o /\ to_base o' = ticks (to_base o) (advance j (is_batch o) op)).
  { intros Hs ->. rewrite ticks_0. exists o. split; [|auto]. destruct Hs as [->|[a ->]]; [assumption|]. rewrite nth_error_app1; [assumption|]. eapply nth_lt; eauto. }
  destruct op as [d|c k|sl i|d i|i x y c|i|il ol hs|k no|k|d k|k]; cbn [Session.sstep] in E.
  - injection E as <-. apply Keep; [right; eexists; reflexivity|reflexivity].
  - apply bind_ok in E as (n & _ & E). apply bind_ok in E as (kd & _ & E). injection E as <-. apply Keep; [right; eexists; reflexivity|reflexivity].
  - apply bind_ok in E as (n & _ & E). apply bind_ok in E as (kd & _ & E). injection E as <-. apply Keep; [right; eexists; reflexivity|reflexivity].
  - apply bind_ok in E as (n & _ & E). apply bind_ok in E as (o2 & _ & E). apply bind_ok in E as (o3 & _ & E). injection E as <-. cbn in *. rewrite nth_error_upd.
    destruct (Nat.eqb_spec j d); [congruence|]. exists o. rewrite ticks_0. auto.
  - apply bind_ok in E as (o1 & E1 & E). apply bind_ok in E as ([[v kd] w] & E2 & E). injection E as <-. cbn [set_trainer s_trainers].
    assert (ET : s_trainers (match w with Some (k, n', H') => set_net k n' H' s | None => s end) = s_trainers s) by (destruct w as [[[? ?] ?]|]; reflexivity). rewrite ET.
    cbn [advance]. rewrite Nat.eqb_sym. destruct (Nat.eqb_spec j i) as [->|Hne].
    + unfold live_trainer in E1. rewrite Hj in E1. injection E1 as <-. destruct (feed_counts _ _ _ _ _ _ _ _ E2) as (A & B & C).
      eexists. split; [apply nth_upd; eapply nth_lt; eauto|]. cbn [to_net]. auto.
    + rewrite nth_error_upd. destruct (Nat.eqb_spec j i); [contradiction|]. exists o. rewrite ticks_0. auto.
  - apply bind_ok in E as (n & _ & E). injection E as <-. cbn in *. rewrite nth_error_upd. destruct (Nat.eqb_spec j i); [congruence|]. exists o. rewrite ticks_0. auto.
  - apply bind_ok in E as (n & _ & E). injection E as <-. apply Keep; [now left|reflexivity].
  - apply bind_ok in E as (n & _ & E). apply bind_ok in E as ([n' H'] & _ & E). injection E as <-. apply Keep; [now left|reflexivity].
  - apply bind_ok in E as (n & _ & E). apply bind_ok in E as (n' & _ & E). injection E as <-. apply Keep; [now left|reflexivity].
  - apply bind_ok in E as (n & _ & E). apply bind_ok in E as (n' & _ & E). injection E as <-. apply Keep; [now left|reflexivity].
  - apply bind_ok in E as (n & _ & E). injection E as <-. apply Keep; [now left|reflexivity].
Qed.
Lemma ticks_ticks (t : trainer D) a b : ticks (ticks t a) b = ticks t (a + b).
Proof. unfold ticks. cbn [t_iters t_step t_usedecay t_k t_r0]. f_equal. lia. Qed.

(** ** C68: counters *)

(** Whatever else happens in the program - other trainers training the same network, the network being copied,
    assigned to, retrained by hand or destroyed, other trainers being created from this one - a trainer that is not itself assigned to or destroyed
    keeps its network pointer, its class, batch size, momentum and decay settings, and its counter advances exactly
    by its own feeddata calls (by the number of mini-batches, for a BatchTrainer). *)
Theorem C68_counters : forall ops s s' j o, srun ops s = Ok s' -> nth_error (s_trainers s) j = Some (Some o) ->
  Forall (fun op => ~ retargets j op) ops ->
  exists o', nth_error (s_trainers s') j = Some (Some o') /\ to_net o' = to_net o /\ class_of o' = class_of o /\
    t_iters (to_base o') = (t_iters (to_base o) + Z.of_nat (advance_all j (is_batch o) ops))%Z /\
    t_step (to_base o') = t_step (to_base o) /\ t_usedecay (to_base o') = t_usedecay (to_base o) /\
    t_k (to_base o') = t_k (to_base o) /\ t_r0 (to_base o') = t_r0 (to_base o).
Proof.
  assert (G : forall ops s s' j o, srun ops s = Ok s' -> nth_error (s_trainers s) j = Some (Some o) -> Forall (fun op => ~ retargets j op) ops ->
    exists o', nth_error (s_trainers s') j = Some (Some o') /\ to_net o' = to_net o /\ class_of o' = class_of o /\ to_base o' = ticks (to_base o) (advance_all j (is_batch o) ops)).
  { unfold Session.srun. induction ops as [|op ops IH]; intros s s' j o E Hj Hf; cbn [foldM] in E.
    - injection E as <-. exists o. cbn. rewrite ticks_0. auto.
    - inversion Hf as [|? ? F1 F2]; subst. apply bind_ok in E as (s1 & E1 & E). destruct (sstep_trainer _ _ _ _ _ E1 Hj F1) as (o1 & A1 & A2 & A3 & A4 & A5).
      destruct (IH _ _ _ _ E A1 F2) as (o2 & B1 & B2 & B3 & B4). exists o2. split; [assumption|]. split; [congruence|]. split; [congruence|].
      cbn [advance_all fold_right]. rewrite B4, A5, A4, ticks_ticks. reflexivity. }
  intros ops s s' j o E Hj Hf. destruct (G _ _ _ _ _ E Hj Hf) as (o' & A & B & C & F). exists o'. rewrite F. cbn. repeat split; auto.
Qed.

(** ** C68: trainers without a network *)
(** Networks that are gone stay gone. *)
Lemma sstep_dead (s : session) op s' k : sstep s op = Ok s' -> nth_error (s_nets s) k = Some None -> nth_error (s_nets s') k = Some None.
Proof.
  intros E Hk. assert (App : forall a, nth_error (s_nets s ++ [a]) k = Some None) by (intros a; rewrite nth_error_app1; [assumption|]; eapply nth_lt; eauto).
  assert (Other : forall i n0 n' H', live_net s i = Ok n0 -> nth_error (s_nets (set_net i n' H' s)) k = Some None).
  { intros i n0 n' H' L. cbn. rewrite nth_error_upd. destruct (Nat.eqb_spec k i) as [->|]; [|assumption]. unfold live_net in L. rewrite Hk in L. discriminate. }
  destruct op as [d|c i|sl i|d i|i x y c|i|il ol hs|i no|i|d i|i]; cbn [Session.sstep] in E.
  - injection E as <-. assumption.
  - apply bind_ok in E as (n & _ & E). apply bind_ok in E as (kd & _ & E). injection E as <-. assumption.
  - apply bind_ok in E as (n & _ & E). apply bind_ok in E as (kd & _ & E). injection E as <-. assumption.
  - apply bind_ok in E as (n & _ & E). apply bind_ok in E as (o2 & _ & E). apply bind_ok in E as (o3 & _ & E). injection E as <-. assumption.
  - apply bind_ok in E as (o1 & E1 & E). apply bind_ok in E as ([[v kd] w] & E2 & E). injection E as <-. cbn [set_trainer s_nets]. unfold feed in E2.
    destruct (deref s (to_net o1)) as [[i' n]|u| |] eqn:Ed; try discriminate.
    + apply bind_ok in E2 as ([[[v1 kd1] n1] H1] & _ & E2). injection E2 as _ _ <-. unfold deref in Ed. destruct (to_net o1) as [k1|]; [|discriminate].
      apply bind_ok in Ed as (n2 & L & Ed). injection Ed as <- <-. eapply Other; eauto.
    + apply bind_ok in E2 as ([v1 kd1] & _ & E2). injection E2 as _ _ <-. assumption.
  - apply bind_ok in E as (n & _ & E). injection E as <-. assumption.
  - apply bind_ok in E as (n & _ & E). injection E as <-. apply App.
  - apply bind_ok in E as (n & L & E). apply bind_ok in E as ([n' H'] & _ & E). injection E as <-. eapply Other; eauto.
  - apply bind_ok in E as (n & _ & E). apply bind_ok in E as (n' & _ & E). injection E as <-. apply App.
  - apply bind_ok in E as (n & L & E). apply bind_ok in E as (n' & _ & E). injection E as <-. eapply Other; eauto.
  - apply bind_ok in E as (n & _ & E). injection E as <-. cbn. rewrite nth_error_upd. destruct (Nat.eqb_spec k i) as [->|]; [now rewrite Hk|assumption].
Qed.
Lemma srun_dead ops : forall s s' k, srun ops s = Ok s' -> nth_error (s_nets s) k = Some None -> nth_error (s_nets s') k = Some None.
Proof.
  unfold Session.srun. induction ops as [|op ops IH]; intros s s' k E Hk; cbn [foldM] in E; [injection E as <-; assumption|].
  apply bind_ok in E as (s1 & E1 & E). eauto using sstep_dead.
Qed.
Lemma unbound_deref s o : unbound s o -> exists u, deref s (to_net o) = Undef u /\ u = (if to_net o then UseAfterFree else NullDeref).
Proof. unfold unbound, deref. destruct (to_net o) as [k|]; [|eauto]. unfold live_net. intros ->. cbn. eauto. Qed.

(** The undefined behaviour met: null pointer, or network destroyed. *)
Definition blind_ub (o : tobj) : ub := match to_net o with None => NullDeref | Some _ => UseAfterFree end.

(** A default-constructed trainer, or one whose network has been destroyed, stays unusable over every history until
    it is assigned to: feeddata of a Trainer or MomentumTrainer is undefined behaviour; of an SGDTrainer too, unless
    the data has no rows and no decay is due; of a BatchTrainer it never returns.  Copy-constructing
    a Trainer from it (also by slicing) gives another such trainer; copy-constructing an object of the derived
    class is undefined behaviour. *)
Theorem C68_unbound : forall ops s s' j o, srun ops s = Ok s' -> nth_error (s_trainers s) j = Some (Some o) -> unbound s o ->
  Forall (fun op => ~ retargets j op) ops ->
  (forall x y c,
     match to_kind o with
     | KPlain _ | KMom _ => sstep s' (SFeed j x y c) = Undef (blind_ub o)
     | KSgd _ => 1 <= nr x -> sstep s' (SFeed j x y c) = Undef (blind_ub o)
     | KBatch _ _ _ None => sstep s' (SFeed j x y c) = Undef UninitRead
     | KBatch _ _ _ (Some b) => sstep s' (SFeed j x y c) = Undef (blind_ub o) \/ sstep s' (SFeed j x y c) = Throw
     end) /\
  (match to_kind o with KPlain _ => True | _ => sstep s' (SCopy false j) = Undef (blind_ub o) end) /\
  (exists s'' o'', sstep s' (SCopy true j) = Ok s'' /\ nth_error (s_trainers s'') (length (s_trainers s')) = Some (Some o'') /\ unbound s'' o'').
Proof.
  intros ops s s' j o E Hj Hu Hf.
  destruct (C68_counters _ _ _ _ _ E Hj Hf) as (o' & A & B & C & _).
  assert (Hu' : unbound s' o') by (unfold unbound in *; rewrite B; destruct (to_net o); [eauto using srun_dead|exact I]).
  destruct (unbound_deref _ _ Hu') as (u & Ed & Eu). assert (Bu : u = blind_ub o) by (rewrite Eu; unfold blind_ub; rewrite B; destruct (to_net o); reflexivity). rewrite Bu in Ed. clear u Eu Bu.
  assert (EL : live_trainer s' j = Ok o') by (unfold live_trainer; now rewrite A).
  split; [|split].
  - intros x y c. unfold class_of in C. cbn [Session.sstep]. rewrite EL. cbn [bind]. unfold feed. rewrite Ed.
    destruct (to_kind o) as [t|t|t bx by_ ob|m], (to_kind o') as [t'|t'|t' bx' by_' ob'|m']; try discriminate; cbn [feed_blind].
    + reflexivity.
    + intros Hx. rewrite (proj2 (Z.ltb_lt 0 (Z.of_nat (nr x)))) by lia. rewrite orb_true_r. reflexivity.
    + assert (ob' = ob) as -> by congruence. destruct ob as [b|]; [|reflexivity]. cbn [read_int bind]. destruct (wrap_rows x b) as [tx|u| |] eqn:W; cbn [bind].
      * destruct (wrap_rows y b) as [ty|u| |] eqn:W2; cbn [bind].
        -- pose proof (wrap_size _ _ _ W) as Wb. assert (1 <= nr x).
           { unfold wrap_rows, submat, sub_ok in W. apply bind_ok in W as (q & W & _). destruct (andb _ _) eqn:Q in W; [|discriminate].
             repeat (apply andb_prop in Q as [Q ?]). repeat match goal with HH : (_ <=? _)%Z = true |- _ => apply Z.leb_le in HH | HH : (_ <? _)%Z = true |- _ => apply Z.ltb_lt in HH end. lia. }
           rewrite (proj2 (Z.ltb_lt 0 (Z.of_nat (nr x)))) by lia. rewrite orb_true_r. now left.
        -- exfalso. revert W2. unfold wrap_rows, submat, insert_rows. destruct (sub_ok _ _ _ _ _); cbn [bind]; [|discriminate]. destruct (_ && _); discriminate.
        -- exfalso. revert W2. unfold wrap_rows, submat, insert_rows. destruct (sub_ok _ _ _ _ _); cbn [bind]; [|discriminate]. destruct (_ && _); discriminate.
        -- now right.
      * exfalso. revert W. unfold wrap_rows, submat, insert_rows. destruct (sub_ok _ _ _ _ _); cbn [bind]; [|discriminate]. destruct (_ && _); discriminate.
      * exfalso. revert W. unfold wrap_rows, submat, insert_rows. destruct (sub_ok _ _ _ _ _); cbn [bind]; [|discriminate]. destruct (_ && _); discriminate.
      * now right.
    + reflexivity.
  - unfold class_of in C. cbn [Session.sstep]. rewrite EL. cbn [bind]. unfold copy_trainer.
    destruct (to_kind o) as [t|t|t bx by_ ob|m], (to_kind o') as [t'|t'|t' bx' by_' ob'|m']; try discriminate; try exact I; rewrite Ed; reflexivity.
  - cbn [Session.sstep]. rewrite EL. cbn [bind copy_trainer]. do 2 eexists. split; [reflexivity|]. cbn [add_trainer s_trainers].
    split; [rewrite nth_error_app2, Nat.sub_diag by lia; reflexivity|]. unfold unbound in *. cbn. exact Hu'.
Qed.

(** ** C68: isolation *)
(** The network an operation works on, for the operations that train or call one. *)
Definition works_on (s : session) (op : sop) : option nat :=
  match op with
  | SFeed j _ _ _ => match nth_error (s_trainers s) j with Some (Some o) => to_net o | _ => None end
  | SCall k _ => Some k
  | _ => None
  end.
Definition mine (s : session) (k : nat) (op : sop) : bool := match works_on s op with Some i => i =? k | None => false end.

Ltac fin := unfold has_ids, has_ids2 in *; cbn in *; auto using outside_refl.
Lemma rel_feed_on ids B1 B2 kd n K1 K2 x y c : has_ids ids n -> agree ids K1 K2 -> outside ids B1 K1 -> outside ids B2 K2 ->
  Rel ids (has_ids2 ids) B1 B2 (feed_on junk kd n K1 x y c) (feed_on junk kd n K2 x y c).
Proof.
  intros E HA O1 O2. destruct kd as [t|t|t bx by_ ob|t]; cbn [feed_on].
  - unfold feeddata_cost, feeddata. eapply rel_bind with (P := has_ids2 ids).
    + eapply rel_bind with (P := has_ids2 ids).
      * eapply rel_bind; [apply rel_decay; auto|]. intros n0 M1 M2 E' HA' O1' O2'. eapply rel_bind; [apply rel_step; auto|]. intros n2 N1 N2 E2 HA2 O12 O22. apply rel_ok; fin.
      * intros [t' n'] M1 M2 E' HA' O1' O2'. destruct c; [apply rel_pure; intros cc _|]; apply rel_ok; fin.
    + intros [[cc t'] n'] M1 M2 E' HA' O1' O2'. apply rel_ok; fin.
  - unfold sgd_feeddata_cost, sgd_feeddata, sgd_rows. eapply rel_bind with (P := has_ids2 ids).
    + eapply rel_bind with (P := has_ids2 ids).
      * eapply rel_bind; [apply rel_decay; auto|]. intros n0 M1 M2 E' HA' O1' O2'. eapply rel_bind with (P := has_ids ids).
        -- apply rel_foldM; auto. intros n1 i N1 N2 _ E2 HA2 O12 O22. unfold sgd_row. apply rel_pure. intros xi _. eapply rel_bind; [apply rel_forward; auto|]. intros [r n3] L1 L2 E3 HA3 O13 O23. apply rel_pure. intros yi _. eapply rel_bind; [apply rel_backprop; auto|]. intros n4 M1' M2' E4 HA4 O14 O24. apply rel_update; auto.
        -- intros n2 N1 N2 E2 HA2 O12 O22. apply rel_ok; fin.
      * intros [t' n'] M1 M2 E' HA' O1' O2'. eapply rel_bind with (P := has_ids2 ids).
        -- apply rel_foldM; auto. intros [cc n1] i N1 N2 _ E2 HA2 O12 O22. destruct c; [|apply rel_ok; fin]. apply rel_pure. intros xi _.
           eapply rel_bind; [apply rel_predict; auto|]. intros [r n3] L1 L2 E3 HA3 O13 O23. apply rel_pure. intros yi _. apply rel_pure. intros ci _. apply rel_ok; fin.
        -- intros [cc n2] N1 N2 E2 HA2 O12 O22. apply rel_ok; fin.
    + intros [[cc t'] n'] M1 M2 E' HA' O1' O2'. apply rel_ok; fin.
  - apply rel_pure. intros b _. unfold batch_feeddata_cost, batch_feeddata, batch_loop. eapply rel_bind with (P := has_ids2 ids).
    + eapply rel_bind with (P := has_ids2 ids).
      * cbn zeta. apply rel_pure. intros tx _. apply rel_pure. intros ty _. eapply rel_bind with (P := has_ids2 ids).
        -- apply rel_foldM; auto. intros [t1 n1] i N1 N2 _ E2 HA2 O12 O22. apply rel_pure. intros xb _. eapply rel_bind; [apply rel_forward; auto|].
           intros [r n3] L1 L2 E3 HA3 O13 O23. apply rel_pure. intros yb _. eapply rel_bind; [apply rel_backprop; auto|]. intros n4 L3 L4 E4 HA4 O14 O24.
           eapply rel_bind; [apply rel_update; auto|]. intros n5 L5 L6 E5 HA5 O15 O25. apply rel_ok; fin.
        -- intros [t1 n1] N1 N2 E2 HA2 O12 O22. eapply rel_bind; [apply rel_decay; auto|]. intros n5 L5 L6 E5 HA5 O15 O25. apply rel_ok; fin.
      * intros [t' n'] M1 M2 E' HA' O1' O2'. apply rel_pure. intros cc _. apply rel_ok; fin.
    + intros [[cc t'] n'] M1 M2 E' HA' O1' O2'. apply rel_ok; fin.
  - unfold momentum_feeddata_cost, momentum_feeddata. eapply rel_bind with (P := has_ids2 ids).
    + eapply rel_bind with (P := has_ids2 ids).
      * cbn zeta. eapply rel_bind; [apply rel_decay; auto|]. intros n0 M1 M2 E' HA' O1' O2'. eapply rel_bind; [apply rel_forward; auto|]. intros [r n1] L1 L2 E3 HA3 O13 O23.
        eapply rel_bind; [apply rel_backprop; auto|]. intros n4 L3 L4 E4 HA4 O14 O24. apply rel_pure. intros og' _.
        rewrite (mapM_ext (fun ia => l <- net_gethidden n4 L3 (fst ia) ;; mom_hidden (mt_mom t) (t_iters (tick (mt_t t))) (snd ia) (l_grad l))
                          (fun ia => l <- net_gethidden n4 L4 (fst ia) ;; mom_hidden (mt_mom t) (t_iters (tick (mt_t t))) (snd ia) (l_grad l)))
          by (intros [i g] _; cbn [fst snd]; now rewrite (rel_gethidden ids n4 L3 L4 i E4 HA4)).
        apply rel_pure. intros hg' _. eapply rel_bind; [apply rel_update_with; auto|]. intros n5 L5 L6 E5 HA5 O15 O25. apply rel_ok; fin.
      * intros [t' n'] M1 M2 E' HA' O1' O2'. destruct c; [apply rel_pure; intros cc _|]; apply rel_ok; fin.
    + intros [[cc t'] n'] M1 M2 E' HA' O1' O2'. apply rel_ok; fin.
Qed.
Lemma feed_on_frame kd (n : net) (H : lheap) x y c v kd' n' H' : feed_on junk kd n H x y c = Ok (v, kd', n', H') -> n_hidden n' = n_hidden n /\ outside (n_hidden n) H H'.
Proof.
  intros E. pose proof (rel_feed_on (n_hidden n) H H kd n H H x y c eq_refl (fun _ _ => eq_refl) (outside_refl _ _) (outside_refl _ _)) as R.
  rewrite E in R. cbn in R. destruct R as (_ & R1 & _ & R2 & _). auto.
Qed.
Lemma feed_on_local kd (n : net) (H1 H2 : lheap) x y c : agree (n_hidden n) H1 H2 ->
  match feed_on junk kd n H1 x y c, feed_on junk kd n H2 x y c with
  | Ok (r1, K1), Ok (r2, K2) => r1 = r2 /\ agree (n_hidden n) K1 K2
  | Undef u, Undef v => u = v
  | Abort, Abort | Throw, Throw => True
  | _, _ => False
  end.
Proof.
  intros HA. pose proof (rel_feed_on (n_hidden n) H1 H2 kd n H1 H2 x y c eq_refl HA (outside_refl _ _) (outside_refl _ _)) as R. unfold Rel in R.
  destruct (feed_on junk kd n H1 x y c) as [[a K1]| | |], (feed_on junk kd n H2 x y c) as [[b K2]| | |]; auto. destruct R as (R1 & _ & R2 & _). auto.
Qed.

(** Which networks are alive with which layer objects, and who points where. *)
Definition wiring (s : session) : list (option (list nat)) * list (option (option nat)) :=
  (map (option_map (@n_hidden D)) (s_nets s), map (option_map (@to_net D)) (s_trainers s)).
Lemma map_upd {A B} (f : A -> B) l : forall j a, map f (upd j a l) = upd j (f a) (map f l).
Proof. induction l as [|x l IH]; intros [|j] a; cbn; f_equal; auto. Qed.
Lemma upd_same {A} (l : list A) : forall j a, nth_error l j = Some a -> upd j a l = l.
Proof. induction l as [|x l IH]; intros [|j] a E; cbn in *; try discriminate; [now injection E as ->|]. f_equal. auto. Qed.
Lemma wiring_net s1 s2 k n2 : wiring s1 = wiring s2 -> nth_error (s_nets s2) k = Some (Some n2) -> exists n1, nth_error (s_nets s1) k = Some (Some n1) /\ n_hidden n1 = n_hidden n2.
Proof.
  intros E Hk. injection E as E _. pose proof (map_nth_error (option_map (@n_hidden D)) _ _ Hk) as M. rewrite <- E in M. rewrite nth_error_map in M.
  destruct (nth_error (s_nets s1) k) as [[n1|]|]; try discriminate. injection M as M. eauto.
Qed.
Lemma wiring_trainer s1 s2 j o2 : wiring s1 = wiring s2 -> nth_error (s_trainers s2) j = Some (Some o2) -> exists o1, nth_error (s_trainers s1) j = Some (Some o1) /\ to_net o1 = to_net o2.
Proof.
  intros E Hk. injection E as _ E. pose proof (map_nth_error (option_map (@to_net D)) _ _ Hk) as M. rewrite <- E in M. rewrite nth_error_map in M.
  destruct (nth_error (s_trainers s1) j) as [[n1|]|]; try discriminate. injection M as M. eauto.
Qed.
Lemma wiring_works s1 s2 op : wiring s1 = wiring s2 -> works_on s1 op = works_on s2 op.
Proof.
  intros E. destruct op; cbn; auto. injection E as _ E. pose proof (f_equal (fun l => nth_error l j) E) as M. cbn in M. rewrite !nth_error_map in M.
  destruct (nth_error (s_trainers s1) j) as [[o1|]|], (nth_error (s_trainers s2) j) as [[o2|]|]; cbn in M; congruence.
Qed.
(** One working step, in terms of the network worked on. *)
Lemma work_step s op s' i n : sstep s op = Ok s' -> works_on s op = Some i -> nth_error (s_nets s) i = Some (Some n) ->
  exists n', s_nets s' = upd i (Some n') (s_nets s) /\ n_hidden n' = n_hidden n /\ outside (n_hidden n) (s_heap s) (s_heap s') /\
    wiring s' = wiring s /\
    (forall j o, nth_error (s_trainers s) j = Some (Some o) -> to_net o <> Some i -> nth_error (s_trainers s') j = Some (Some o)).
Proof.
  intros E Hw Ei. destruct op as [d|c k|sl j|d j|j x y c|j|il ol hs|k no|k|d k|k]; cbn [works_on] in Hw; try discriminate; cbn [Session.sstep] in E.
  - apply bind_ok in E as (o1 & E1 & E). apply bind_ok in E as ([[v kd] w] & E2 & E). injection E as <-. unfold live_trainer in E1. destruct (nth_error (s_trainers s) j) as [[o|]|] eqn:Ej; try discriminate.
    injection E1 as <-. unfold feed in E2. rewrite Hw in E2. unfold deref, live_net in E2. rewrite Ei in E2. cbn [bind] in E2.
    apply bind_ok in E2 as ([[[v1 kd1] n1] H1] & E3 & E2). injection E2 as _ <- <-. destruct (feed_on_frame _ _ _ _ _ _ _ _ _ _ E3) as [F1 F2].
    exists n1. cbn [set_trainer set_net s_nets s_heap s_trainers]. split; [reflexivity|]. split; [assumption|]. split; [assumption|]. split.
    + unfold wiring. cbn [s_nets s_trainers set_trainer set_net]. rewrite !map_upd. cbn [option_map to_net]. rewrite F1. rewrite (upd_same _ i); [|now rewrite nth_error_map, Ei]. rewrite (upd_same _ j); [reflexivity|]. rewrite nth_error_map, Ej. reflexivity.
    + intros j' o' Ej' Ho'. rewrite nth_error_upd. destruct (Nat.eqb_spec j' j) as [->|]; [|assumption]. rewrite Ej in Ej'. congruence.
  - injection Hw as ->. apply bind_ok in E as (n0 & L & E). apply bind_ok in E as ([n' H'] & E1 & E). injection E as <-. unfold live_net in L. rewrite Ei in L.
    injection L as <-. destruct (do_frame _ _ _ _ _ _ _ E1) as [F1 F2]. exists n'. cbn [set_net s_nets s_heap s_trainers]. repeat (split; [first [reflexivity|assumption]|]). split; [|auto].
    unfold wiring. cbn [s_nets s_trainers set_trainer set_net]. rewrite !map_upd. cbn [option_map]. rewrite F1. rewrite (upd_same _ i); [reflexivity|now rewrite nth_error_map, Ei].
Qed.
(** Two sessions that look the same to network k and the trainers bound to it. *)
Definition same_for (k : nat) (n : net) (s1 s2 : session) : Prop :=
  wiring s1 = wiring s2 /\ nth_error (s_nets s1) k = Some (Some n) /\ nth_error (s_nets s2) k = Some (Some n) /\ agree (n_hidden n) (s_heap s1) (s_heap s2) /\
  (forall j o, nth_error (s_trainers s1) j = Some (Some o) -> to_net o = Some k -> nth_error (s_trainers s2) j = Some (Some o)).
Lemma my_step k n s1 s2 op s1' : same_for k n s1 s2 -> works_on s1 op = Some k -> sstep s1 op = Ok s1' ->
  exists s2' n', sstep s2 op = Ok s2' /\ same_for k n' s1' s2'.
Proof.
  intros (HW & N1 & N2 & HA & HT) Hw E. destruct (work_step _ _ _ _ _ E Hw N1) as (n' & W1 & W2 & W3 & W4 & W5).
  destruct op as [d|c i|sl j|d j|j x y c|j|il ol hs|i no|i|d i|i]; cbn [works_on] in Hw; try discriminate.
  - destruct (nth_error (s_trainers s1) j) as [[o|]|] eqn:Ej; try discriminate. pose proof (HT _ _ Ej Hw) as Ej2.
    cbn [Session.sstep] in E. unfold live_trainer in E. rewrite Ej in E. cbn [bind] in E. unfold feed in E. rewrite Hw in E. unfold deref, live_net in E. rewrite N1 in E. cbn [bind] in E.
    apply bind_ok in E as ([[v kd] w] & E & ES). apply bind_ok in E as ([[[v1 kd1] n1] H1] & E & E0). injection E0 as <- <- <-. injection ES as ES.
    pose proof (feed_on_local (to_kind o) n (s_heap s1) (s_heap s2) x y c HA) as R. rewrite E in R. destruct (feed_on junk (to_kind o) n (s_heap s2) x y c) as [[[[v2 kd2] n2] H2]| | |] eqn:E2; try contradiction.
    destruct R as [R RA]. injection R as <- <- <-.
    assert (n1 = n') as ->. { assert (nth_error (s_nets s1') k = Some (Some n1)) as Q by (subst s1'; cbn; apply nth_upd; eapply nth_lt; eauto). rewrite W1, nth_upd in Q by (eapply nth_lt; eauto). congruence. }
    eexists. exists n'. split.
    { cbn [Session.sstep]. unfold live_trainer. rewrite Ej2. cbn [bind]. unfold feed. rewrite Hw. unfold deref, live_net. rewrite N2. cbn [bind]. rewrite E2. cbn [bind]. reflexivity. }
    subst s1'. split; [|split; [|split; [|split]]]; cbn [set_trainer set_net s_nets s_heap s_trainers] in *.
    + rewrite W4, HW. symmetry. unfold wiring. cbn [s_nets s_trainers set_trainer set_net]. rewrite !map_upd. cbn [option_map to_net]. rewrite W2. rewrite (upd_same _ k); [|now rewrite nth_error_map, N2]. rewrite (upd_same _ j); [reflexivity|]. rewrite nth_error_map, Ej2. cbn. now rewrite Hw.
    + apply nth_upd; eapply nth_lt; eauto.
    + apply nth_upd; eapply nth_lt; eauto.
    + rewrite W2. assumption.
    + intros j' o'. rewrite !nth_error_upd. rewrite Ej, Ej2. destruct (Nat.eqb_spec j' j); auto.
  - injection Hw as ->. cbn [Session.sstep] in E. unfold live_net in E. rewrite N1 in E. cbn [bind] in E. apply bind_ok in E as ([n1 H1] & E & ES). injection ES as ES.
    pose proof (do_local draw junk no n (s_heap s1) (s_heap s2) HA) as R. rewrite E in R. destruct (net_do draw junk no n (s_heap s2)) as [[n2 H2]| | |] eqn:E2; try contradiction. destruct R as [<- RA].
    assert (n1 = n') as ->. { assert (nth_error (s_nets s1') k = Some (Some n1)) as Q by (subst s1'; cbn; apply nth_upd; eapply nth_lt; eauto). rewrite W1, nth_upd in Q by (eapply nth_lt; eauto). congruence. }
    eexists. exists n'. split.
    { cbn [Session.sstep]. unfold live_net. rewrite N2. cbn [bind]. rewrite E2. cbn [bind]. reflexivity. }
    subst s1'. split; [|split; [|split; [|split]]]; cbn [set_trainer set_net s_nets s_heap s_trainers] in *; auto.
    + rewrite W4, HW. symmetry. unfold wiring. cbn [s_nets s_trainers set_trainer set_net]. rewrite !map_upd. cbn [option_map]. rewrite W2. rewrite (upd_same _ k); [reflexivity|now rewrite nth_error_map, N2].
    + apply nth_upd; eapply nth_lt; eauto.
    + apply nth_upd; eapply nth_lt; eauto.
    + rewrite W2. assumption.
Qed.
Lemma their_step k n i m s1 s2 op s1' : same_for k n s1 s2 -> works_on s1 op = Some i -> i <> k -> nth_error (s_nets s1) i = Some (Some m) -> disjoint n m ->
  sstep s1 op = Ok s1' -> same_for k n s1' s2.
Proof.
  intros (HW & N1 & N2 & HA & HT) Hw Hne Hi Hd E. destruct (work_step _ _ _ _ _ E Hw Hi) as (m' & W1 & W2 & (_ & W3) & W4 & W5).
  split; [congruence|]. split; [rewrite W1, nth_error_upd; destruct (Nat.eqb_spec k i); [congruence|assumption]|]. split; [assumption|]. split.
  - intros p Hp. rewrite W3 by (apply Hd; exact Hp). apply HA; assumption.
  - intros j o Ej Ho. destruct (wiring_trainer s1 s1' j o (eq_sym W4) Ej) as (o1 & E1 & E1'). rewrite (W5 j o1 E1) in Ej by congruence. injection Ej as <-. apply HT; assumption.
Qed.

(** Programs that only train (through any trainers) and call networks which share no layer with network k, besides
    network k itself: network k, its hidden layers, the trainers bound to it and everything they will ever return are
    exactly as if only the operations on network k had been executed. *)
Theorem C68_isolation : forall ops s s' k n, nth_error (s_nets s) k = Some (Some n) -> srun ops s = Ok s' ->
  Forall (fun op => exists i m, works_on s op = Some i /\ nth_error (s_nets s) i = Some (Some m) /\ (i = k \/ disjoint n m)) ops ->
  exists s'' n', srun (filter (mine s k) ops) s = Ok s'' /\
    nth_error (s_nets s') k = Some (Some n') /\ nth_error (s_nets s'') k = Some (Some n') /\
    (forall i, net_gethidden n' (s_heap s') i = net_gethidden n' (s_heap s'') i) /\
    (forall j o, nth_error (s_trainers s) j = Some (Some o) -> to_net o = Some k ->
       nth_error (s_trainers s') j = nth_error (s_trainers s'') j /\
       forall x y c, feed_value junk s' j x y c = feed_value junk s'' j x y c).
Proof.
  intros ops s s' k n N0 E Hf.
  assert (G : forall ops s1 s2 n1 s1', same_for k n1 s1 s2 -> n_hidden n1 = n_hidden n -> wiring s1 = wiring s ->
     Forall (fun op => exists i m, works_on s op = Some i /\ nth_error (s_nets s) i = Some (Some m) /\ (i = k \/ disjoint n m)) ops ->
     srun ops s1 = Ok s1' -> exists s2' n', srun (filter (mine s k) ops) s2 = Ok s2' /\ same_for k n' s1' s2' /\ wiring s1' = wiring s).
  { clear E Hf ops s'. unfold Session.srun. induction ops as [|op ops IH]; intros s1 s2 n1 s1' HS Hn HW Hf E; cbn [foldM filter] in *.
    - injection E as <-. exists s2, n1. auto.
    - inversion Hf as [|? ? F1 F2]; subst. destruct F1 as (i & m & A1 & A2 & A3). apply bind_ok in E as (s3 & E3 & E).
      rewrite <- (wiring_works _ _ op HW) in A1. unfold mine at 1. rewrite <- (wiring_works _ _ op HW), A1. destruct (wiring_net _ _ _ _ HW A2) as (m1 & M1 & M2).
      destruct (work_step _ _ _ _ _ E3 A1 M1) as (m' & _ & _ & _ & W4 & _). destruct (Nat.eqb_spec i k) as [->|Hne].
      + destruct (my_step k n1 s1 s2 op s3 HS A1 E3) as (s4 & n4 & E4 & S4). cbn [foldM]. rewrite E4. cbn [bind]. apply IH with (s1 := s3) (n1 := n4); auto; [|congruence].
        destruct HS as (_ & Q1 & _). destruct S4 as (_ & Q2 & _). destruct (wiring_net s3 s1 k n1 ltac:(congruence) Q1) as (q & Q3 & Q4). rewrite Q2 in Q3. injection Q3 as <-. congruence.
      + destruct A3 as [|A3]; [contradiction|]. apply IH with (s1 := s3) (n1 := n1); auto; [|congruence].
        eapply their_step; eauto. intros p Hp. rewrite M2. apply A3. congruence. }
  destruct (G ops s s n s' ltac:(repeat split; auto) eq_refl eq_refl Hf E) as (s'' & n' & R & (S1 & S2 & S3 & S4 & S5) & HW).
  exists s'', n'. split; [assumption|]. split; [assumption|]. split; [assumption|].
  assert (GH : forall i, net_gethidden n' (s_heap s') i = net_gethidden n' (s_heap s'') i) by (intros i; apply (rel_gethidden (n_hidden n')); auto; reflexivity).
  split; [assumption|]. intros j o Ej Ho.
  destruct (wiring_trainer s' s j o HW Ej) as (o1 & E1 & Ho1). pose proof (S5 j o1 E1 ltac:(congruence)) as E2. split; [congruence|].
  intros x y c. unfold feed_value, live_trainer. rewrite E1, E2. cbn [bind]. unfold feed. rewrite Ho1, Ho. unfold deref, live_net. rewrite S2, S3. cbn [bind].
  pose proof (feed_on_local (to_kind o1) n' (s_heap s') (s_heap s'') x y c S4) as R2.
  destruct (feed_on junk (to_kind o1) n' (s_heap s') x y c) as [[[[v1 kd1] n1] H1]|u| |], (feed_on junk (to_kind o1) n' (s_heap s'') x y c) as [[[[v2 kd2] n2] H2]|u2| |]; try contradiction; cbn [bind]; try congruence.
  destruct R2 as [R2 _]. congruence.
Qed.
End Generic.

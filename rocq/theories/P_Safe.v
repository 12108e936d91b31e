(** P_Safe.v - C68: programs with several networks and trainers that never fail. *)
From Verif Require Import Base Mat Act Layer Conv Misc Net NetP Trainer TrainP TrainP2 ExNet P_Train P_Batch P_Mom World P_World Session SessP P_Session.
From Coq Require Import Arith.
Local Open Scope nat_scope.

Section Generic.
Context {D : dtype}.
Notation mat := (mat D).
Notation layer := (layer D).
Notation net := (net D).
Notation lheap := (lheap D).
Notation session := (session D).
Notation tobj := (tobj D).
Notation sop := (sop D).
Context (draw : D -> nat -> D) (junk : nat -> D).
Notation sstep := (sstep draw junk).
Notation srun := (srun draw junk).

(** ** C68: programs that never fail *)
(** All live networks have dense hidden layers whose sizes chain from p inputs to c outputs, and the accumulators of
    every MomentumTrainer have the sizes of its network's layers. *)
Definition mom_at (s : session) (m : mtrainer D) (k : nat) : Prop :=
  k < length (s_nets s) /\ forall n, nth_error (s_nets s) k = Some (Some n) -> mom_fits n (s_heap s) m.
Definition sane (p c : nat) (s : session) : Prop :=
  (forall k n, nth_error (s_nets s) k = Some (Some n) -> well_sized n (s_heap s) p c) /\
  (forall j o m k, nth_error (s_trainers s) j = Some (Some o) -> to_kind o = KMom m -> to_net o = Some k -> mom_at s m k).
Definition net_alive (s : session) (k : nat) : Prop := exists n, nth_error (s_nets s) k = Some (Some n).
Definition trainer_alive (s : session) (j : nat) (o : tobj) : Prop := nth_error (s_trainers s) j = Some (Some o).
Definition bound (s : session) (o : tobj) : Prop := exists k, to_net o = Some k /\ net_alive s k.
Definition is_mom (o : tobj) : Prop := match to_kind o with KMom _ => True | _ => False end.
Definition no_size (o : tobj) : Prop := match to_kind o with KBatch _ _ _ None => True | _ => False end.
Definition same_dims (w w' : mat) : Prop := nr w' = nr w /\ nc w' = nc w.

(** Proper use in state s: objects are alive, trainers that are used have a live network, data fits the networks. *)
Definition proper (p c : nat) (s : session) (op : sop) : Prop :=
  match op with
  | SDefault _ => True
  | SNew _ k | SCopyNet k | SDropNet k => net_alive s k
  | SCopy slice j => exists o, trainer_alive s j o /\ (slice = false -> bound s o /\ ~ no_size o)
  | SAssign d j => exists od o, trainer_alive s d od /\ trainer_alive s j o /\ ~ no_size o /\ (is_mom od -> is_mom o)
  | SDropTrainer j => exists o, trainer_alive s j o
  | SFeed j x y cost => exists o, trainer_alive s j o /\ bound s o /\ samples p c (x, y) /\
      match to_kind o with
      | KBatch _ _ _ b => exists b', b = Some (Z.of_nat b') /\ 2 <= b' <= nr x + 1 /\ (cost = true -> b' = nr x)
      | _ => True
      end
  | SBuild i o hs => exists ls, hs = map (@HDense D) ls /\ chained p ls (o_l o) c /\
      (o_costd o = quad_costd \/ o_costd o = ce_costd \/ o_costd o = kl_costd \/ o_costd o = sm_costd) /\
      (o_cost o = quad_cost \/ o_cost o = ce_cost \/ o_cost o = kl_cost \/ o_cost o = sm_cost)
  | SCall k o => exists n, nth_error (s_nets s) k = Some (Some n) /\
      match o with
      | OForward x | OPredict x => 1 <= nr x /\ nc x = p
      | OSetLrate _ | ORandomize _ _ => True
      | OSetOutputW w => same_dims (l_W (o_l (n_output n))) w
      | OSetHiddenW i w => exists l, net_gethidden n (s_heap s) i = Ok l /\ same_dims (l_W l) w
      | _ => False
      end
  | SAssignNet d k => net_alive s d /\ exists n, nth_error (s_nets s) k = Some (Some n) /\
      forall j o m, trainer_alive s j o -> to_net o = Some d -> to_kind o = KMom m -> mom_fits n (s_heap s) m
  end.

Lemma sane_step_net p c s k n n' H' : sane p c s -> nth_error (s_nets s) k = Some (Some n) -> keep n (s_heap s) n' H' -> sane p c (set_net k n' H' s).
Proof.
  intros [S1 S2] Hk (K1 & K2 & K3 & K4). split; cbn [set_net s_nets s_heap s_trainers].
  - intros i m. rewrite nth_error_upd. destruct (Nat.eqb_spec i k) as [->|Hne]; intros E.
    + rewrite Hk in E. injection E as <-. eapply well_sim; eauto.
    + eapply well_sim; [apply (S1 i m E)|reflexivity|apply dims_refl|split; reflexivity|assumption].
  - intros j o m i Ej Ek En. destruct (S2 j o m i Ej Ek En) as [LL S3]. split; [cbn; rewrite upd_length; assumption|]. cbn [set_net s_nets s_heap s_trainers]. intros q. rewrite nth_error_upd. destruct (Nat.eqb_spec i k) as [->|Hne]; intros E.
    + rewrite Hk in E. injection E as <-. eapply mom_sim; [eapply (proj1 (S1 k n Hk))|apply S3; assumption|assumption|assumption|assumption].
    + eapply mom_sim; [apply (S1 i q E)|apply S3; assumption|reflexivity|apply dims_refl|assumption].
Qed.
Lemma sane_add p c s o : sane p c s -> (forall m k, to_kind o = KMom m -> to_net o = Some k -> mom_at s m k) -> sane p c (add_trainer o s).
Proof.
  intros [S1 S2] Ho. split; [exact S1|]. cbn [add_trainer s_nets s_heap s_trainers]. intros j o1 m k Ej.
  destruct (Nat.lt_ge_cases j (length (s_trainers s))) as [L|L].
  - rewrite nth_error_app1 in Ej by assumption. eauto.
  - rewrite nth_error_app2 in Ej by assumption. destruct (j - length (s_trainers s)) as [|[|q]]; cbn in Ej; try discriminate. injection Ej as <-. eauto.
Qed.
Lemma sane_set p c s j o : sane p c s -> (forall o1 m k, o = Some o1 -> to_kind o1 = KMom m -> to_net o1 = Some k -> mom_at s m k) -> sane p c (set_trainer j o s).
Proof.
  intros [S1 S2] Ho. split; [exact S1|]. cbn [set_trainer s_nets s_heap s_trainers]. intros i o1 m k. rewrite nth_error_upd. destruct (Nat.eqb_spec i j) as [->|]; [|eauto].
  destruct (nth_error (s_trainers s) j); [|discriminate]. intros E. injection E as ->. eauto.
Qed.
Lemma mom_fits_eq (n : net) (H : lheap) m m' : mt_hgrads m' = mt_hgrads m -> mt_ograd m' = mt_ograd m -> mom_fits n H m -> mom_fits n H m'.
Proof. intros E1 E2 (ls & A & B & C). exists ls. rewrite E1, E2. auto. Qed.

Lemma mom_at_eq (s : session) m m' k : mt_hgrads m' = mt_hgrads m -> mt_ograd m' = mt_ograd m -> mom_at s m k -> mom_at s m' k.
Proof. intros E1 E2 [A B]. split; [assumption|]. intros n Hn. eapply mom_fits_eq; eauto. Qed.

(** Each call succeeds. *)
Lemma feed_on_ok p c kd n H x y cost : 1 <= p -> 1 <= c -> well_sized n H p c -> samples p c (x, y) ->
  match kd with
  | KBatch _ _ _ b => exists b', b = Some (Z.of_nat b') /\ 2 <= b' <= nr x + 1 /\ (cost = true -> b' = nr x)
  | KMom m => mom_fits n H m
  | _ => True
  end ->
  exists v kd' n' H', feed_on junk kd n H x y cost = Ok (v, kd', n', H') /\ (forall m, kd' = KMom m -> mom_fits n' H' m).
Proof.
  intros Hp Hc W Hs Hk. destruct kd as [t|t|t bx by_ ob|m]; cbn [feed_on].
  - destruct (C56_trainer junk p c [((x, y), cost)] t n H Hp W) as (t' & n' & H' & E & _); [constructor; [exact Hs|constructor]|]. cbn [foldM fst snd] in E.
    apply bind_ok in E as ([[t1 n1] H1] & E & _). apply bind_ok in E as ([[[v t2] n2] H2] & E & _). rewrite E. cbn [bind]. do 4 eexists. split; [reflexivity|discriminate].
  - destruct (C56_sgd junk p c [((x, y), cost)] t n H Hp Hc W) as (t' & n' & H' & E & _); [constructor; [exact Hs|constructor]|]. cbn [foldM fst snd] in E.
    apply bind_ok in E as ([[t1 n1] H1] & E & _). apply bind_ok in E as ([[[v t2] n2] H2] & E & _). rewrite E. cbn [bind]. do 4 eexists. split; [reflexivity|discriminate].
  - destruct Hk as (b & -> & Hb & Hcost). cbn [read_int bind]. set (bt := BT t bx by_ (Z.of_nat b)).
    assert (G : exists v t' n' H', batch_feeddata_cost junk bt n H x y cost = Ok (v, t', n', H')).
    { destruct (C56_batch junk p c b [(x, y)] bt n H Hp Hc (proj1 Hb) eq_refl W) as (t' & n' & H' & E & W'); [constructor; [split; [exact Hs|apply Hb]|constructor]|].
      cbn [foldM fst snd] in E. apply bind_ok in E as ([[t1 n1] H1] & E & E'). injection E' as -> -> ->. unfold batch_feeddata_cost. rewrite E. cbn [bind].
      destruct cost.
      - specialize (Hcost eq_refl). subst b. destruct Hs as (Q1 & Q2 & Q3 & Q4). cbn [fst snd] in *.
        assert (R : nr (n_result n') = nr x /\ nc (n_result n') = c).
        { rewrite (C38_batches junk bt n H x y (nr x)) in E by (cbn; auto; lia). assert (N1 : nbatches (nr x) (nr x) = 1) by (unfold nbatches; replace (nr x + nr x - 1) with (1 * nr x + (nr x - 1)) by lia; rewrite Nat.div_add_l by lia; rewrite Nat.div_small by lia; reflexivity).
          rewrite N1 in E. cbn [seq foldM] in E. apply bind_ok in E as ([n2 H2] & E2 & E). apply bind_ok in E2 as ([n3 H3] & E2 & E3). cbn [foldM] in E3. injection E3 as -> ->.
          apply bind_ok in E as ([n4 H4] & E4 & E). injection E as _ <- <-. pose proof (proj1 (well_fits _ _ _ _) W) as ((ls & Hf) & _).
          destruct (step_ok junk n H ls p c (pick x (batch_rows (nr x) (nr x) 0)) (pick y (batch_rows (nr x) (nr x) 0)) Hf Hp) as (m' & K' & l' & Em & Fm' & Km & R1 & R2).
          { unfold samples. cbn [fst snd pick nr nc mk]. rewrite (proj1 (C38_equal_size (nr x) (nr x) 0)). repeat split; auto; lia. }
          rewrite E2 in Em. injection Em as <- <-. destruct (decay_ok (ticks (bt_t bt) 1) n2 H2 l' p c Fm') as (n5 & H5 & ls5 & E5 & _ & _ & R5). rewrite E4 in E5. injection E5 as <- <-.
          rewrite R5. split; [|assumption]. rewrite R1. cbn [pick nr mk]. apply C38_equal_size. }
        assert (GC : forall l (v0 : D), exists v, foldM (fun c0 (_ : Z) => ci <- net_computecost n' (n_result n') y;; Ok (dadd c0 ci)) l v0 = Ok v).
        { destruct (builtin_sized_cost (n_cost n')) with (y := y) (h := n_result n') as [J EJ]; [apply well_fits in W'; apply W'|lia|lia|].
          induction l as [|z l IH]; intros v0; cbn [foldM]; [eauto|]. unfold net_computecost at 1. rewrite EJ. cbn [bind]. apply IH. }
        destruct (GC (steps (Z.of_nat (nr x)) (bt_size bt)) (dofZ 0)) as [v Ev]. rewrite Ev. cbn [bind]. eauto.
      - assert (GC : forall l (v0 : D), foldM (fun c0 (_ : Z) => Ok c0) l v0 = Ok v0) by (induction l as [|z l IH]; intros v0; cbn [foldM bind]; auto).
        rewrite GC. cbn [bind]. eauto. }
    destruct G as (v & t' & n' & H' & E). rewrite E. cbn [bind]. do 4 eexists. split; [reflexivity|discriminate].
  - pose proof (proj1 (well_fits _ _ _ _) W) as ((ls & Hf) & _). destruct Hk as (ls0 & E0 & F0 & G0). rewrite (hidden_layers_dense n H ls (proj2 (proj1 Hf))) in E0. injection E0 as <-.
    destruct (mom_ok junk p c m n H x y ls Hp Hf Hs F0 G0) as (m1 & n1 & H1 & ls1 & E1 & F1 & K1 & A1 & O1 & R1 & R2). unfold momentum_feeddata_cost. rewrite E1. cbn [bind].
    assert (M1 : mom_fits n1 H1 m1) by (exists ls1; split; [apply hidden_layers_dense, F1|auto]).
    destruct cost; [|cbn [bind]; do 4 eexists; split; [reflexivity|]; intros m' E; injection E as <-; exact M1].
    assert (W1 : well_sized n1 H1 p c) by (eapply well_kc; eauto). destruct Hs as (S1 & S2 & S3 & S4). cbn in S1, S2, S3, S4.
    destruct (builtin_sized_cost (n_cost n1)) with (y := y) (h := n_result n1) as [J EJ]; [apply well_fits in W1; apply W1|lia|lia|].
    unfold net_computecost. rewrite EJ. cbn [bind]. do 4 eexists. split; [reflexivity|]. intros m' E. injection E as <-. exact M1.
Qed.
Lemma randominit_dims (s : D) (w : mat) : same_dims w (randominit_w draw s w).
Proof. split; reflexivity. Qed.
Lemma init_ok (t0 : trainer D) (mu : D) (n : net) (H : lheap) : dense_hidden n H -> exists m, initmomentum t0 mu n H = Ok m /\ mom_fits n H m.
Proof.
  intros Hd. destruct (dense_ls n H Hd) as (ls & Hnd & Hdn).
  assert (Ei : exists t, initmomentum t0 mu n H = Ok t).
  { unfold initmomentum. pose proof (hidden_layers_dense n H ls Hdn) as L. unfold hidden_layers in L.
    assert (X : forall l ks, mapM (net_gethidden n H) l = Ok ks -> exists r, mapM (fun i => l <- net_gethidden n H i ;; Ok (zero_like (l_W l))) l = Ok r).
    { clear. induction l as [|i l IH]; intros ks E; cbn [mapM] in *; [eauto|]. apply bind_ok in E as (u & E1 & E). apply bind_ok in E as (us & E2 & E).
      rewrite E1. cbn [bind]. destruct (IH _ E2) as [r ->]. cbn [bind]. eauto. }
    destruct (X _ _ L) as [r ->]. cbn [bind]. eauto. }
  destruct Ei as [m Em]. exists m. split; [assumption|]. destruct (momentum_new_shape t0 mu n H m Hd Em) as (A & B & ks & L & C & E). exists ks. split; [assumption|]. rewrite C, E. split; [|split; reflexivity].
  clear. induction ks; cbn; constructor; auto. split; reflexivity.
Qed.
Lemma hidden_keep (n : net) (H : lheap) i q (h h' : hlayer D) : nth_error (n_hidden n) i = Some q -> nth_error H q = Some h -> sim h h' -> keep n H n (upd q h' H).
Proof. intros E1 E2 S. split; [reflexivity|]. split; [apply dims_refl|]. split; [split; reflexivity|]. eapply simH_upd; eauto. Qed.

Lemma proper_step p c s op : 1 <= p -> 1 <= c -> sane p c s -> proper p c s op -> exists s', sstep s op = Ok s' /\ sane p c s'.
Proof.
  intros Hp Hc HS HP. destruct op as [d|sp k|sl j|d j|j x y cost|j|il ol hs|k no|k|d k|k]; cbn [proper Session.sstep] in *.
  - eexists. split; [reflexivity|]. apply sane_add; [assumption|]. intros m k _ E. destruct d; discriminate E.
  - destruct HP as [n Hk]. unfold live_net. rewrite Hk. cbn [bind]. pose proof (proj1 HS k n Hk) as W. destruct sp as [d|d|b d|mu d]; cbn [new_bound bind];
      try (eexists; split; [reflexivity|]; apply sane_add; [assumption|]; intros m i Q; discriminate Q).
    destruct (init_ok (base_of d) mu n (s_heap s)) as (m & E & M); [apply W|]. rewrite E. cbn [bind]. eexists. split; [reflexivity|]. apply sane_add; [assumption|]. intros m' i Q1 Q2. cbn in Q1, Q2. injection Q1 as <-. injection Q2 as <-. split; [eapply nth_lt; eauto|]. intros q Q3. congruence.
  - destruct HP as (o & Hj & HP). unfold live_trainer. unfold trainer_alive in Hj. rewrite Hj. cbn [bind]. destruct sl.
    + cbn [copy_trainer bind]. eexists. split; [reflexivity|]. apply sane_add; [assumption|]. intros m i Q; discriminate Q.
    + destruct (HP eq_refl) as ((k & Hk & n & Hn) & HP2). unfold copy_trainer. destruct (to_kind o) as [t|t|t bx by_ ob|m] eqn:Ek; rewrite ?Hk; unfold deref, live_net; rewrite ?Hn; cbn [bind].
      * eexists. split; [reflexivity|]. apply sane_add; [assumption|]. intros m i Q; discriminate Q.
      * eexists. split; [reflexivity|]. apply sane_add; [assumption|]. intros m i Q; discriminate Q.
      * unfold no_size in HP2. rewrite Ek in HP2. destruct ob as [b|]; [|tauto]. cbn [read_int bind]. eexists. split; [reflexivity|]. apply sane_add; [assumption|]. intros m i Q; discriminate Q.
      * eexists. split; [reflexivity|]. apply sane_add; [assumption|]. intros m' i Q1 Q2. cbn in Q1, Q2. injection Q1 as <-. injection Q2 as <-. eapply mom_at_eq; [| |eapply (proj2 HS); eauto]; reflexivity.
  - destruct HP as (od & o & Hd & Hj & HP1 & HP2). unfold live_trainer, trainer_alive in *. rewrite Hd, Hj. cbn [bind]. unfold is_mom, no_size in *.
    assert (G : exists o', assign_trainer od o = Ok o' /\ (forall m k, to_kind o' = KMom m -> to_net o' = Some k -> mom_at s m k)).
    { unfold assign_trainer. destruct (to_kind od) as [dt|dt|dt dx dy db|dm]; destruct (to_kind o) as [t|t|t bx by_ ob|m] eqn:Ek; try (eexists; split; [reflexivity|]; intros m' i Q; discriminate Q).
      - destruct ob as [b|]; [|tauto]. cbn [read_int bind]. eexists; split; [reflexivity|]; intros m' i Q; discriminate Q.
      - exfalso; apply HP2; exact I.
      - exfalso; apply HP2; exact I.
      - exfalso; apply HP2; exact I.
      - eexists; split; [reflexivity|]. intros m' i Q1 Q2. cbn in Q1, Q2. injection Q1 as <-. eapply mom_at_eq; [| |eapply (proj2 HS); eauto]; reflexivity. }
    destruct G as (o' & E & G). rewrite E. cbn [bind]. eexists. split; [reflexivity|]. apply sane_set; [assumption|]. intros o1 m k Q. injection Q as <-. apply G.
  - destruct HP as (o & Hj & (k & Hk & n & Hn) & Hs & HP). unfold live_trainer, trainer_alive in *. rewrite Hj. cbn [bind]. unfold feed. rewrite Hk. unfold deref, live_net. rewrite Hn. cbn [bind].
    destruct (feed_on_ok p c (to_kind o) n (s_heap s) x y cost Hp Hc (proj1 HS k n Hn) Hs) as (v & kd & n' & H' & E & M).
    { destruct (to_kind o) eqn:Ek; auto. eapply (proj2 HS _ _ _ _ Hj Ek Hk); eauto. }
    rewrite E. cbn [bind]. eexists. split; [reflexivity|]. pose proof (feed_on_keep junk _ _ _ _ _ _ _ _ _ _ E) as KP. apply sane_set.
    + eapply sane_step_net; eauto.
    + intros o1 m i Q1 Q2 Q3. injection Q1 as <-. cbn in Q2, Q3. injection Q3 as <-. unfold mom_at. cbn [set_net s_nets s_heap]. rewrite upd_length. split; [eapply nth_lt; eauto|]. intros q. rewrite nth_upd by (eapply nth_lt; eauto). intros Q. injection Q as <-. apply M. assumption.
  - destruct HP as (o & Hj). unfold live_trainer, trainer_alive in *. rewrite Hj. cbn [bind]. eexists. split; [reflexivity|]. apply sane_set; [assumption|]. discriminate.
  - destruct HP as (ls & -> & Hch & B1 & B2).
    assert (G : exists n, net_new draw junk il ol (seq (length (s_heap s)) (length (map (@HDense D) ls))) = Ok n /\ n_hidden n = seq (length (s_heap s)) (length ls) /\ l_W (o_l (n_output n)) = l_W (o_l ol) /\ n_cost n = o_cost ol /\ o_costd (n_output n) = o_costd ol).
    { unfold net_new, input_copy, layer_new. rewrite !(proj2 (Z.leb_le _ _)) by lia. cbn [andb bind]. rewrite !(proj2 (Z.leb_le _ _)) by lia. cbn [andb bind]. eexists. split; [reflexivity|]. cbn. rewrite map_length. auto. }
    destruct G as (n & E & G1 & G2 & G3 & G4). rewrite E. cbn [bind]. eexists. split; [reflexivity|].
    assert (Ext : forall (m : net) ks, dense_net m (s_heap s) ks -> dense_net m (s_heap s ++ map (@HDense D) ls) ks).
    { intros m ks [N1 N2]. split; [assumption|]. unfold dense_at in *. induction N2 as [|a b la lb Q N2 IH]; constructor; [rewrite nth_error_app1; [assumption|eapply nth_lt; eauto]|]. inversion N1; auto. }
    split; cbn [s_nets s_heap s_trainers].
    + intros k m Ek. destruct (Nat.lt_ge_cases k (length (s_nets s))) as [L|L].
      * rewrite nth_error_app1 in Ek by assumption. pose proof (proj1 HS k m Ek) as W. apply well_fits in W as ((ks & F1 & F2) & F3). apply well_fits. split; [|assumption]. exists ks. split; auto.
      * rewrite nth_error_app2 in Ek by assumption. destruct (k - length (s_nets s)) as [|[|q]]; cbn in Ek; try discriminate. injection Ek as <-.
        apply well_fits. rewrite G3, G4. split; [|auto]. exists ls. destruct Hch as (q & C1 & C2 & C3 & C4). split.
        -- split; [rewrite G1; apply seq_NoDup|]. rewrite G1. unfold dense_at. clear. generalize (s_heap s). induction ls as [|l ls IH]; intros H; cbn; constructor.
           ++ rewrite nth_error_app2, Nat.sub_diag by lia. reflexivity.
           ++ specialize (IH (H ++ [HDense l])). rewrite app_length in IH. cbn in IH. rewrite Nat.add_1_r, <- app_assoc in IH. exact IH.
        -- exists q. rewrite G2, G4. split; [assumption|]. split; [assumption|]. split; [assumption|]. split; [assumption|]. now apply builtin_sized_costd.
    + intros j o m k Ej Ek En. destruct (proj2 HS j o m k Ej Ek En) as [LL S3]. split; cbn [s_nets s_heap]; [rewrite app_length; lia|]. intros q Eq.
      rewrite nth_error_app1 in Eq by assumption. destruct (S3 q Eq) as (ks & K1 & K2 & K3). pose proof (proj1 HS k q Eq) as W. destruct (dense_ls q (s_heap s) (proj1 W)) as (ks0 & Hdn).
      rewrite (hidden_layers_dense q (s_heap s) ks0 (proj2 Hdn)) in K1. injection K1 as ->. exists ks. split; [apply hidden_layers_dense, Ext; assumption|auto].
  - destruct HP as (n & Hn & HP). unfold live_net. rewrite Hn. cbn [bind]. pose proof (proj1 HS k n Hn) as W.
    assert (G : exists n' H', net_do draw junk no n (s_heap s) = Ok (n', H') /\ keep n (s_heap s) n' H').
    { pose proof (proj1 (well_fits _ _ _ _) W) as ((ls & Hf) & _). destruct no as [x|y| |og hg|x|r|i st|i w|w|t x y cc|t x y cc|t x y cc|t x y cc]; try contradiction; cbn [net_do].
      - destruct HP as [P1 P2]. destruct (predict_ok junk n (s_heap s) ls p c x Hf Hp P1 P2 Hc) as (m & n' & H' & ls' & E & _). unfold net_predict in E. apply bind_ok in E as ([[r n1] H1] & E & _). rewrite E. cbn [bind].
        do 2 eexists. split; [reflexivity|]. eapply fwd_keep; eauto.
      - destruct HP as [P1 P2]. destruct (predict_ok junk n (s_heap s) ls p c x Hf Hp P1 P2 Hc) as (m & n' & H' & ls' & E & _). rewrite E. cbn [bind]. do 2 eexists. split; [reflexivity|]. eapply predict_keep; eauto.
      - destruct (net_setlrate_dense n (s_heap s) ls r (proj1 Hf)) as [E _]. rewrite E. do 2 eexists. split; [reflexivity|]. eapply setl_keep; eauto.
      - unfold net_randomize. destruct (nth_error (n_hidden n) i) as [q|] eqn:Q.
        + destruct (proj2 (proj1 W) q (nth_error_In _ _ Q)) as [l El]. unfold lget. rewrite El. cbn [bind]. do 2 eexists. split; [reflexivity|]. eapply hidden_keep; eauto. cbn. split; reflexivity.
        + do 2 eexists. split; [reflexivity|]. split; [reflexivity|]. split; [split; reflexivity|]. split; [split; reflexivity|]. apply simH_refl.
      - destruct HP as (l & El & D1 & D2). unfold net_gethidden in El. unfold net_sethiddenw. destruct (nth_error (n_hidden n) i) as [q|] eqn:Q; [|discriminate].
        destruct (proj2 (proj1 W) q (nth_error_In _ _ Q)) as [l0 El0]. unfold lget in *. rewrite El0 in *. cbn [bind h_base] in *. injection El as <-. rewrite layer_copy_id in *. do 2 eexists. split; [reflexivity|]. eapply hidden_keep; eauto. cbn. split; assumption.
      - do 2 eexists. split; [reflexivity|]. split; [reflexivity|]. split; [cbn; exact HP|]. split; [split; reflexivity|]. apply simH_refl. }
    destruct G as (n' & H' & E & KP). rewrite E. cbn [bind]. eexists. split; [reflexivity|]. eapply sane_step_net; eauto.
  - destruct HP as [n Hn]. unfold live_net. rewrite Hn. cbn [bind]. pose proof (proj1 HS k n Hn) as W.
    assert (G : exists n', net_copy draw junk n = Ok n' /\ n_hidden n' = n_hidden n /\ dims (o_l (n_output n)) (o_l (n_output n')) /\ kc n n').
    { unfold net_copy, input_copy, layer_new. rewrite !(proj2 (Z.leb_le _ _)) by lia. cbn [andb bind]. eexists. split; [reflexivity|]. cbn. repeat split. }
    destruct G as (n' & E & G1 & G2 & G3). rewrite E. cbn [bind]. eexists. split; [reflexivity|]. split; cbn [s_nets s_heap s_trainers].
    + intros i m Ei. destruct (Nat.lt_ge_cases i (length (s_nets s))) as [L|L].
      * rewrite nth_error_app1 in Ei by assumption. apply (proj1 HS i m Ei).
      * rewrite nth_error_app2 in Ei by assumption. destruct (i - length (s_nets s)) as [|[|q]]; cbn in Ei; try discriminate. injection Ei as <-.
        eapply well_sim; eauto. apply simH_refl.
    + intros j o m i Ej Ek En. destruct (proj2 HS j o m i Ej Ek En) as [LL S3]. split; cbn [s_nets s_heap]; [rewrite app_length; lia|]. intros q Eq.
      rewrite nth_error_app1 in Eq by assumption. auto.
  - destruct HP as ([nd Hd] & n & Hn & HP). unfold live_net. rewrite Hd, Hn. cbn [bind]. eexists. split; [reflexivity|]. pose proof (proj1 HS k n Hn) as W.
    split; cbn [set_net s_nets s_heap s_trainers].
    + intros i m. rewrite nth_error_upd. destruct (Nat.eqb_spec i d) as [->|]; [|apply HS]. rewrite Hd. intros Q. injection Q as <-.
      eapply well_sim; [exact W|reflexivity|split; reflexivity|split; reflexivity|apply simH_refl].
    + intros j o m i Ej Ek En. destruct (proj2 HS j o m i Ej Ek En) as [LL S3]. split; cbn [set_net s_nets s_heap]; [rewrite upd_length; assumption|]. intros q. rewrite nth_error_upd.
      destruct (Nat.eqb_spec i d) as [->|]; [|apply S3]. rewrite Hd. intros Q. injection Q as <-.
      eapply mom_sim; [apply W|eapply HP; eauto|reflexivity|split; reflexivity|apply simH_refl].
  - destruct HP as [n Hn]. unfold live_net. rewrite Hn. cbn [bind]. eexists. split; [reflexivity|]. split; cbn [s_nets s_heap s_trainers].
    + intros i m. rewrite nth_error_upd. destruct (Nat.eqb_spec i k) as [->|]; [|apply HS]. rewrite Hn. discriminate.
    + intros j o m i E1 E2 E3. destruct (proj2 HS j o m i E1 E2 E3) as [LL S3]. split; cbn [s_nets s_heap]; [rewrite upd_length; assumption|]. intros q. rewrite nth_error_upd.
      destruct (Nat.eqb_spec i k) as [->|]; [rewrite Hn; discriminate|]. apply S3.
Qed.

(** Whatever a program does with its networks and trainers, as long as each operation is a proper use in the state it
    is executed in, nothing throws, aborts or is undefined, and all sizes still fit at the end. *)
Theorem C68_safe : forall p c ops s, 1 <= p -> 1 <= c -> sane p c s ->
  (forall pre op post s1, ops = pre ++ op :: post -> srun pre s = Ok s1 -> proper p c s1 op) ->
  exists s', srun ops s = Ok s' /\ sane p c s'.
Proof.
  intros p c ops. induction ops as [|op ops IH]; intros s Hp Hc HS HP.
  - exists s. split; [reflexivity|assumption].
  - destruct (proper_step p c s op Hp Hc HS) as (s1 & E1 & S1); [apply (HP [] op ops s); reflexivity|].
    destruct (IH s1 Hp Hc S1) as (s' & E' & S').
    { intros pre op' post s2 -> E2. apply (HP (op :: pre) op' post s2); [reflexivity|]. unfold Session.srun in *. cbn [foldM]. rewrite E1. exact E2. }
    exists s'. split; [|assumption]. unfold Session.srun in *. cbn [foldM]. rewrite E1. exact E'.
Qed.
(** In particular every program that starts with nothing. *)
Corollary C68_safe_program : forall p c ops, 1 <= p -> 1 <= c ->
  (forall pre op post s1, ops = pre ++ op :: post -> srun pre (SS [] [] []) = Ok s1 -> proper p c s1 op) ->
  exists s', srun ops (SS [] [] []) = Ok s'.
Proof.
  intros p c ops Hp Hc HP. destruct (C68_safe p c ops (SS [] [] []) Hp Hc) as (s' & E & _); eauto.
  split; [intros [|k] n Q; discriminate Q|intros [|j] o m k Q; discriminate Q].
Qed.
End Generic.

(** ** Examples over the computable scalars *)
(** A decidable condition that implies [proper] for the operations used below. *)
Section Check.
Context {D : dtype}.
Definition netb (s : session D) (k : nat) : bool := match nth_error (s_nets s) k with Some (Some _) => true | _ => false end.
Definition boundb (s : session D) (o : tobj D) : bool := match to_net o with Some k => netb s k | None => false end.
Definition sizedb (o : tobj D) : bool := match to_kind o with KBatch _ _ _ None => false | _ => true end.
Definition momb (o : tobj D) : bool := match to_kind o with KMom _ => true | _ => false end.
Definition with_trainer (s : session D) (j : nat) (f : tobj D -> bool) : bool := match nth_error (s_trainers s) j with Some (Some o) => f o | _ => false end.
Definition properb (p c : nat) (s : session D) (op : sop D) : bool :=
  match op with
  | SDefault _ => true
  | SNew _ k | SCopyNet k | SDropNet k => netb s k
  | SCopy sl j => with_trainer s j (fun o => sl || (boundb s o && sizedb o))
  | SAssign d j => with_trainer s d (fun od => with_trainer s j (fun o => sizedb o && (negb (momb od) || momb o)))
  | SDropTrainer j => with_trainer s j (fun _ => true)
  | SFeed j x y cost => with_trainer s j (fun o => boundb s o && (1 <=? nr x) && (nc x =? p) && (nr y =? nr x) && (nc y =? c) &&
      match to_kind o with
      | KBatch _ _ _ None => false
      | KBatch _ _ _ (Some b) => (2 <=? b)%Z && (b <=? Z.of_nat (nr x) + 1)%Z && (negb cost || (b =? Z.of_nat (nr x))%Z)
      | _ => true
      end)
  | SCall k (OForward x) | SCall k (OPredict x) => netb s k && (1 <=? nr x) && (nc x =? p)
  | SAssignNet d k => netb s d && netb s k && forallb (fun o => match o with Some o => negb (momb o) || match to_net o with Some i => negb (i =? d) | None => true end | None => true end) (s_trainers s)
  | _ => false
  end.
Lemma netb_alive s k : netb s k = true -> net_alive s k.
Proof. unfold netb, net_alive. destruct (nth_error (s_nets s) k) as [[n|]|]; try discriminate. eauto. Qed.
Lemma boundb_ok s o : boundb s o = true -> bound s o.
Proof. unfold boundb, bound. destruct (to_net o) as [k|]; [|discriminate]. intros E. exists k. split; [reflexivity|]. now apply netb_alive. Qed.
Lemma with_ok s j f : with_trainer s j f = true -> exists o, trainer_alive s j o /\ f o = true.
Proof. unfold with_trainer, trainer_alive. destruct (nth_error (s_trainers s) j) as [[o|]|]; try discriminate. eauto. Qed.
Lemma sizedb_ok (o : tobj D) : sizedb o = true -> ~ no_size o.
Proof. unfold sizedb, no_size. destruct (to_kind o) as [| |? ? ? [?|]|]; try discriminate; auto. Qed.
Ltac split_and := repeat match goal with Q : (_ && _)%bool = true |- _ => apply andb_prop in Q as [? ?] end.
Lemma properb_ok p c s op : properb p c s op = true -> proper p c s op.
Proof.
  destruct op as [d|sp k|sl j|d j|j x y cost|j|il ol hs|k no|k|d k|k]; cbn [properb proper]; intros E; try discriminate; auto using netb_alive.
  - destruct (with_ok _ _ _ E) as (o & A & B). exists o. split; [assumption|]. intros ->. cbn in B. split_and. auto using boundb_ok, sizedb_ok.
  - destruct (with_ok _ _ _ E) as (od & A & B). destruct (with_ok _ _ _ B) as (o & A1 & B1). split_and. exists od, o. split; [assumption|]. split; [assumption|]. split; [auto using sizedb_ok|].
    unfold momb, is_mom in *. destruct (to_kind od); try tauto. intros _. destruct (to_kind o); try discriminate. exact I.
  - destruct (with_ok _ _ _ E) as (o & A & B). split_and. repeat match goal with Q : (_ =? _) = true |- _ => apply Nat.eqb_eq in Q | Q : (_ <=? _) = true |- _ => apply Nat.leb_le in Q end.
    exists o. split; [assumption|]. split; [auto using boundb_ok|]. split; [repeat split; cbn; auto|].
    destruct (to_kind o) as [| |? ? ? [b|]|]; auto; try discriminate. split_and. repeat match goal with Q : (_ <=? _)%Z = true |- _ => apply Z.leb_le in Q end.
    exists (Z.to_nat b). split; [f_equal; lia|]. split; [lia|]. intros ->. cbn [negb orb] in *. match goal with Q : (_ =? _)%Z = true |- _ => apply Z.eqb_eq in Q end. lia.
  - destruct (with_ok _ _ _ E) as (o & A & _). eauto.
  - destruct no; try discriminate; split_and; repeat match goal with Q : (_ =? _) = true |- _ => apply Nat.eqb_eq in Q | Q : (_ <=? _) = true |- _ => apply Nat.leb_le in Q end;
      match goal with Q : netb _ _ = true |- _ => apply netb_alive in Q as [n Q] end; exists n; auto.
  - split_and. split; [auto using netb_alive|]. match goal with Q : netb _ k = true |- _ => apply netb_alive in Q as [n Q] end. exists n. split; [assumption|].
    intros j o m A1 A2 A3. exfalso. match goal with Q : forallb _ _ = true |- _ => rewrite forallb_forall in Q; specialize (Q _ (nth_error_In _ _ A1)); cbn beta iota in Q end.
    unfold momb in *. rewrite A3, A2, Nat.eqb_refl in *. discriminate.
Qed.
End Check.

Local Open Scope nat_scope.
Definition sh0 : list (hlayer Zdt) := [HDense (zl (zm 2 2 [1; 2; 1; -1]%Z))].
Definition snull : session Zdt := SS [] [] [].
Definition sprog : list (sop Zdt) :=
  [SBuild (zl mempty) exo sh0; SNew (NMom (1 : Zdt)%Z (Some ((1 : Zdt)%Z, (1 : Zdt)%Z, 1%Z))) 0; SFeed 0 exx exy true;
   SBuild (zl mempty) exo sh0; SNew (NBatch 2%Z None) 1; SNew (NSgd None) 1; SFeed 1 exx exy true;
   SCopy false 0; SFeed 3 exx exy false; SCopyNet 0; SAssignNet 1 0; SFeed 0 exx exy true; SCall 2 (OPredict exx);
   SDefault DBatch; SDropTrainer 2; SDropNet 1; SAssign 4 1].
Definition run_of (ops : list (sop Zdt)) : session Zdt := match srun exdr exj ops snull with Ok s => s | _ => snull end.
Lemma run_of_eq ops s : srun exdr exj ops snull = Ok s -> run_of ops = s.
Proof. unfold run_of. intros ->. reflexivity. Qed.
Lemma run_of_ok ops : is_ok (srun exdr exj ops snull) = true -> srun exdr exj ops snull = Ok (run_of ops).
Proof. unfold run_of. destruct (srun exdr exj ops snull); try discriminate. reflexivity. Qed.
(** This program - two networks, a copy, an assignment, trainers of three classes - is proper throughout. *)
Example C68_safe_example : forall pre op post s1, sprog = pre ++ op :: post -> srun exdr exj pre snull = Ok s1 -> proper 1 1 s1 op.
Proof.
  intros pre op post s1 E R. apply run_of_eq in R. subst s1.
  assert (B : forall il, proper 1 1 (run_of pre) (SBuild il exo sh0)).
  { intros il. exists [zl (zm 2 2 [1; 2; 1; -1]%Z)]. split; [reflexivity|]. split; [|split; left; reflexivity]. exists 2. cbn. repeat split; lia. }
  unfold sprog in E.
  repeat (destruct pre as [|? pre]; cbn [app] in E; [injection E as <- _; first [apply properb_ok; vm_compute; reflexivity|apply B]|injection E as <- E]).
  destruct pre; discriminate E.
Qed.
Example C68_safe_runs : is_ok (srun exdr exj sprog snull) = true.
Proof. vm_compute. reflexivity. Qed.

(** Two networks without common layers; trainers 0 and 1 for network 0, trainer 2 for network 1, trainer 3 for nothing. *)
Definition sess2 : session Zdt := run_of
  [SBuild (zl mempty) exo sh0; SBuild (zl mempty) exo sh0; SNew (NPlain None) 0; SNew (NMom (1 : Zdt)%Z None) 0; SNew (NSgd None) 1; SDefault DPlain].
Definition swork : list (sop Zdt) := [SFeed 0 exx exy false; SFeed 2 exx exy false; SFeed 1 exx exy false].
Definition hid (s : session Zdt) (k : nat) := match nth_error (s_nets s) k with Some (Some n) => Some (n_hidden n) | _ => None end.
Definition outw (s : session Zdt) (k : nat) := match nth_error (s_nets s) k with Some (Some n) => Some (l_W (o_l (n_output n))) | _ => None end.
Definition cnt (s : session Zdt) (j : nat) := match nth_error (s_trainers s) j with Some (Some o) => Some (t_iters (to_base o)) | _ => None end.
Example C68_isolation_example : exists n m s', nth_error (s_nets sess2) 0 = Some (Some n) /\ nth_error (s_nets sess2) 1 = Some (Some m) /\ disjoint n m /\
  srun exdr exj swork sess2 = Ok s' /\
  Forall (fun op => exists i q, works_on sess2 op = Some i /\ nth_error (s_nets sess2) i = Some (Some q) /\ (i = 0 \/ disjoint n q)) swork.
Proof.
  assert (H0 : hid sess2 0 = Some [0]) by (vm_compute; reflexivity). assert (H1 : hid sess2 1 = Some [1]) by (vm_compute; reflexivity). unfold hid in H0, H1.
  destruct (nth_error (s_nets sess2) 0) as [[n|]|] eqn:E0; try discriminate. destruct (nth_error (s_nets sess2) 1) as [[m|]|] eqn:E1; try discriminate.
  assert (R : is_ok (srun exdr exj swork sess2) = true) by (vm_compute; reflexivity). destruct (is_ok_ex _ R) as [s' Es']. exists n, m, s'.
  assert (Dj : disjoint n m) by (injection H0 as H0; injection H1 as H1; unfold disjoint; rewrite H0, H1; intros p [<-|[]] [Q|[]]; discriminate Q).
  split; [reflexivity|]. split; [reflexivity|]. split; [assumption|]. split; [assumption|].
  assert (W : works_on sess2 (SFeed 0 exx exy false) = Some 0 /\ works_on sess2 (SFeed 2 exx exy false) = Some 1 /\ works_on sess2 (SFeed 1 exx exy false) = Some 0) by (vm_compute; auto).
  destruct W as (W0 & W1 & W2). unfold swork. repeat constructor; eauto 10.
Qed.
(** The work changes network 0, network 1 and three counters, not trainer 3. *)
Example C68_counters_example : let s' := match srun exdr exj swork sess2 with Ok s => s | _ => snull end in
  cnt sess2 1 = Some 0%Z /\ cnt s' 0 = Some 1%Z /\ cnt s' 1 = Some 1%Z /\ cnt s' 2 = Some 1%Z /\ cnt s' 3 = Some 0%Z /\
  outw s' 0 <> outw sess2 0 /\ outw s' 1 <> outw sess2 1 /\ Forall (fun op => ~ retargets 1 op) swork.
Proof. cbv zeta. repeat split; try (vm_compute; first [reflexivity|discriminate]). unfold swork. repeat constructor; cbn; auto. Qed.
(** Feeding trainer 3, and feeding trainer 2 once network 1 has gone, are undefined. *)
Example C68_unbound_example :
  (exists o, nth_error (s_trainers sess2) 3 = Some (Some o) /\ unbound sess2 o) /\
  match sstep exdr exj sess2 (SFeed 3 exx exy false) with Undef NullDeref => True | _ => False end /\
  match srun exdr exj [SDropNet 1; SFeed 0 exx exy false; SFeed 2 exx exy false] sess2 with Undef UseAfterFree => True | _ => False end.
Proof. split; [eexists; split; vm_compute; exact I || reflexivity|]. split; vm_compute; exact I. Qed.

Print Assumptions C68_counters.
Print Assumptions C68_unbound.
Print Assumptions C68_isolation.
Print Assumptions C68_safe.
Print Assumptions C68_safe_program.

(** P_Accept.v - C72: exactly which data the networks and trainers accept. *)
From Verif Require Import Base Mat Act Layer Conv Misc Net NetP Trainer TrainP TrainP2 ExNet P_Train P_Decay P_Batch P_Mom FunEq ConfEq P_Conf SessP P_Session P_Safe Exc ExcP P_Exc.
From Coq Require Import Arith.
Local Open Scope nat_scope.

Section Generic.
Context {D : dtype}.
Notation mat := (mat D).
Notation layer := (layer D).
Notation net := (net D).
Notation lheap := (lheap D).
Context (junk : nat -> D) (wreck : hlayer D -> hlayer D).

(** ** Specification *)
(** The call returns if P holds and throws otherwise; it never aborts and is never undefined. *)
Definition returns_iff {A} (P : Prop) (r : res A) : Prop := (P -> exists a, r = Ok a) /\ (~ P -> r = Throw).

(** ** Lemmas *)
Definition strict_costd (cd : costdfun (D := D)) : Prop := forall y a z, ~ (nr y = nr a /\ nc y = nc a) -> cd y a z = Throw.
Definition builtin_costd (cd : costdfun (D := D)) : Prop := cd = quad_costd \/ cd = ce_costd \/ cd = kl_costd \/ cd = sm_costd.
Lemma builtin_strict cd : builtin_costd cd -> strict_costd cd.
Proof.
  assert (Q : strict_costd quad_costd). { intros y a z E. unfold quad_costd, msub. rewrite mzip_throw; [reflexivity|]. intros [A B]. apply E. auto. }
  intros [-> | [-> | [-> | ->]]]; [exact Q|exact Q| |].
  - intros y a z E. unfold kl_costd, mdiv. rewrite mzip_throw; [reflexivity|]. exact E.
  - intros y a z E. unfold sm_costd, softmax_P, mschur, msub. destruct (Nat.eq_dec (nc y) (nc a)) as [Ec|Ec].
    + rewrite mzip_ok by (cbn; lia). cbn [bind]. rewrite mzip_throw; [reflexivity|]. cbn. intros [A B]. apply E. auto.
    + rewrite mzip_throw; [reflexivity|]. cbn. intros [A B]. lia.
Qed.
Lemma forward_reject n H ls p c x : fits_net n H ls p c -> ~ (1 <= nr x /\ nc x = p) -> net_forward junk n H x = Throw.
Proof.
  intros [Hdn (q & F1 & F2 & F3 & F4 & F5)] Hx. rewrite (net_forward_dense junk n H ls) by assumption. destruct ls as [|l ls]; cbn [fits lforward] in *.
  - subst q. cbn [bind]. unfold output_forward. rewrite forward_throw; [reflexivity|]. unfold fwd_ok. rewrite F3. lia.
  - destruct F1 as (G1 & G2 & G3). rewrite forward_throw; [reflexivity|]. unfold fwd_ok. rewrite G2. lia.
Qed.
Lemma forward_fits n H ls p c x : fits_net n H ls p c -> 1 <= p -> 1 <= nr x -> nc x = p ->
  exists a n1 H1, net_forward junk n H x = Ok (a, n1, H1) /\ nr a = nr x /\ nc a = c /\ l_a (o_l (n_output n1)) = a /\ kc n n1.
Proof.
  intros [Hdn (q & F1 & F2 & F3 & F4 & F5)] Hp Hx Hxc. rewrite (net_forward_dense junk n H ls) by assumption. rewrite <- Hxc in F1.
  destruct (lforward_fits ls x q Hx F1) as (b & ls1 & A1 & A2 & A3 & A4 & A5). rewrite A1. cbn [bind].
  rewrite out_forward_ok by (unfold fwd_ok; lia). cbn [bind]. do 3 eexists. split; [reflexivity|]. cbn. rewrite A2, F4. repeat split.
Qed.
Lemma backprop_reject n1 H1 y a : builtin_costd (o_costd (n_output n1)) -> l_a (o_l (n_output n1)) = a -> ~ (nr y = nr a /\ nc y = nc a) -> net_backprop junk n1 H1 y = Throw.
Proof.
  intros Hb <- Hy. unfold net_backprop, output_backprop. rewrite (builtin_strict _ Hb) by exact Hy. reflexivity.
Qed.
Lemma pass_reject n H ls p c x y : fits_net n H ls p c -> builtin_costd (o_costd (n_output n)) -> 1 <= p -> ~ samples p c (x, y) ->
  net_forward junk n H x = Throw \/ exists a n1 H1, net_forward junk n H x = Ok (a, n1, H1) /\ net_backprop junk n1 H1 y = Throw.
Proof.
  intros Hf Hb Hp Hs. destruct (le_dec 1 (nr x)) as [X1|X1]; [|left; apply (forward_reject n H ls p c); auto; lia].
  destruct (Nat.eq_dec (nc x) p) as [X2|X2]; [|left; apply (forward_reject n H ls p c); auto; lia]. right.
  destruct (forward_fits n H ls p c x Hf Hp X1 X2) as (a & n1 & H1 & E & A1 & A2 & A3 & [_ K]). exists a, n1, H1. split; [exact E|].
  apply (backprop_reject n1 H1 y a); [rewrite K; exact Hb|exact A3|]. intros [Y1 Y2]. apply Hs. repeat split; cbn; congruence.
Qed.
Lemma train_reject n H ls p c x y : fits_net n H ls p c -> builtin_costd (o_costd (n_output n)) -> 1 <= p -> ~ samples p c (x, y) -> train_step junk n H x y = Throw.
Proof.
  intros Hf Hb Hp Hs. unfold train_step. destruct (pass_reject n H ls p c x y Hf Hb Hp Hs) as [->|(a & n1 & H1 & -> & E)]; [reflexivity|]. cbn [bind]. rewrite E. reflexivity.
Qed.
Lemma samples_dec p c (x y : mat) : {samples p c (x, y)} + {~ samples p c (x, y)}.
Proof.
  unfold samples. cbn [fst snd]. destruct (le_dec 1 (nr x)); [|right; lia]. destruct (Nat.eq_dec (nc x) p); [|right; lia]. destruct (Nat.eq_dec (nr y) (nr x)); [|right; lia]. destruct (Nat.eq_dec (nc y) c); [left; auto|right; lia].
Qed.

(** ** C72 *)
(** forwardprop: at least one row, and as many columns as the network has inputs. *)
Theorem C72_forward : forall p c n H x, 1 <= p -> well_sized n H p c -> returns_iff (1 <= nr x /\ nc x = p) (net_forward junk n H x).
Proof.
  intros p c n H x Hp Hw. apply well_fits in Hw as ((ls & Hf) & _). split; [intros [X1 X2]|intros X]; [|eapply forward_reject; eauto].
  destruct (forward_fits n H ls p c x Hf Hp X1 X2) as (a & n1 & H1 & E & _). eauto.
Qed.
(** Trainer: samples and labels that match the network and each other. *)
Theorem C72_trainer : forall p c t n H x y b, 1 <= p -> well_sized n H p c -> returns_iff (samples p c (x, y)) (feeddata_cost junk t n H x y b).
Proof.
  intros p c t n H x y b Hp Hw. split; intros Hs.
  - destruct (C56_trainer junk p c [((x, y), b)] t n H Hp Hw) as (t' & n' & H' & E & _); [repeat constructor; apply Hs|]. cbn [foldM fst snd] in E.
    destruct (feeddata_cost junk t n H x y b) as [a|u| |]; [eauto|discriminate..].
  - apply well_fits in Hw as ((ls & Hf) & Hb & _). unfold feeddata_cost, feeddata. destruct (decay_ok (tick t) n H ls p c Hf) as (n0 & H0 & ls0 & E0 & F0 & [_ K0] & _). rewrite E0. cbn [bind].
    rewrite (train_reject n0 H0 ls0 p c) by (auto; rewrite K0; exact Hb). reflexivity.
Qed.
(** MomentumTrainer whose accumulators belong to the network: the same. *)
Theorem C72_momentum : forall p c t n H x y b, 1 <= p -> well_sized n H p c -> mom_fits n H t -> returns_iff (samples p c (x, y)) (momentum_feeddata_cost junk t n H x y b).
Proof.
  intros p c t n H x y b Hp Hw (lsm & Lm & HA & HO). split; intros Hs.
  - pose proof (proj1 (well_fits _ _ _ _) Hw) as ((ls & Hf) & Hb & Hc). rewrite (hidden_layers_dense n H ls (proj2 (proj1 Hf))) in Lm. injection Lm as <-.
    destruct (mom_ok junk p c t n H x y ls Hp Hf Hs HA HO) as (t1 & n1 & H1 & ls1 & E1 & F1 & K1 & _ & _ & R1 & R2). unfold momentum_feeddata_cost. rewrite E1. cbn [bind].
    destruct b; [|eauto]. pose proof Hs as (S1 & S2 & S3 & S4). cbn [fst snd] in *. destruct (builtin_sized_cost (n_cost n1)) with (y := y) (h := n_result n1) as [J EJ]; [rewrite (proj1 K1); exact Hc|congruence|congruence|].
    unfold net_computecost. rewrite EJ. cbn [bind]. eauto.
  - apply well_fits in Hw as ((ls & Hf) & Hb & _). unfold momentum_feeddata_cost, momentum_feeddata. destruct (decay_ok (tick (mt_t t)) n H ls p c Hf) as (n0 & H0 & ls0 & E0 & F0 & [_ K0] & _). rewrite E0. cbn [bind].
    destruct (pass_reject n0 H0 ls0 p c x y F0 ltac:(rewrite K0; exact Hb) Hp Hs) as [->|(a & n1 & H1 & -> & E)]; [reflexivity|]. cbn [bind]. rewrite E. reflexivity.
Qed.

(** SGDTrainer: no rows at all; or rows of the right width with at least as many labels. *)
Lemma row_ok n H p c x y i : 1 <= p -> well_sized n H p c -> i < nr x -> i < nr y -> nc x = p -> nc y = c -> exists n' H', sgd_row junk n H x y i = Ok (n', H') /\ well_sized n' H' p c.
Proof.
  intros Hp Wm Hi Hj Hx Hy. assert (X1 : mrow x i = Ok (mk 1 (nc x) (fun _ j => at_ x i j))) by (unfold mrow; now rewrite (proj2 (Nat.ltb_lt _ _) Hi)).
  assert (X2 : mrow y i = Ok (mk 1 (nc y) (fun _ j => at_ y i j))) by (unfold mrow; now rewrite (proj2 (Nat.ltb_lt _ _) Hj)). rewrite (sgd_row_step junk _ _ _ _ _ _ _ X1 X2).
  pose proof (proj1 (well_fits _ _ _ _) Wm) as ((l & Fm) & _). destruct (step_ok junk n H l p c (mk 1 (nc x) (fun _ j => at_ x i j)) (mk 1 (nc y) (fun _ j => at_ y i j)) Fm Hp) as (m' & K' & l' & Em & Fm' & Km & _); [repeat split; cbn; auto|].
  exists m', K'. split; [exact Em|]. eapply well_kc; eauto.
Qed.
Lemma rows_ok p c x y : 1 <= p -> nc x = p -> nc y = c -> forall k n H, well_sized n H p c -> k <= nr x -> k <= nr y -> exists n' H', sgd_rows junk n H x y (seq 0 k) = Ok (n', H') /\ well_sized n' H' p c.
Proof.
  intros Hp Hx Hy k n H Hw K1 K2. destruct (foldM_inv (fun s : net * lheap => well_sized (fst s) (snd s) p c) (fun '(n, H) i => sgd_row junk n H x y i) (seq 0 k)) with (s := (n, H)) as ([n1 H1] & E1 & W1); [|exact Hw|eauto].
  intros i Hi%in_seq [m K] Wm. destruct (row_ok m K p c x y i Hp Wm) as (m' & K' & E & W); auto; try lia. exists (m', K'). auto.
Qed.
Lemma row_reject n H p c x y i : 1 <= p -> well_sized n H p c -> i < nr x -> ~ (nc x = p /\ i < nr y /\ nc y = c) -> sgd_row junk n H x y i = Throw.
Proof.
  intros Hp Hw Hi Hn. unfold sgd_row, mrow. rewrite (proj2 (Nat.ltb_lt _ _) Hi). cbn [bind]. pose proof (proj1 (well_fits _ _ _ _) Hw) as ((ls & Hf) & Hb & _).
  destruct (Nat.eq_dec (nc x) p) as [X2|X2]; [|rewrite (forward_reject n H ls p c) by (auto; cbn; lia); reflexivity].
  destruct (forward_fits n H ls p c (mk 1 (nc x) (fun _ j => at_ x i j)) Hf Hp) as (a & n1 & H1 & E & A1 & A2 & A3 & [_ K]); [cbn; lia|exact X2|]. rewrite E. cbn [bind].
  destruct (Nat.ltb_spec i (nr y)) as [Y|Y]; [|reflexivity]. cbn [bind]. rewrite (backprop_reject n1 H1 _ a); [reflexivity|rewrite K; exact Hb|exact A3|]. cbn in *. intros [Y1 Y2]. apply Hn. repeat split; auto. congruence.
Qed.
Lemma sgd_costs_ok p c x y (b : bool) : 1 <= p -> 1 <= c -> nc x = p -> nc y = c -> nr x <= nr y -> forall rows, (forall i, In i rows -> i < nr x) -> forall cst n H, well_sized n H p c ->
  exists s, foldM (sgd_cost_step junk x y b) rows (cst, n, H) = Ok s.
Proof.
  intros Hp Hc Hx Hy Hr rows Hrows cst n H Hw.
  destruct (foldM_inv (fun s : D * net * lheap => well_sized (snd (fst s)) (snd s) p c) (sgd_cost_step junk x y b) rows) with (s := (cst, n, H)) as (s & E & _); [|exact Hw|eauto].
  intros i Hi [[c0 m] K] Wm. specialize (Hrows i Hi). cbn [fst snd sgd_cost_step] in *. destruct b; [|eexists; split; [reflexivity|exact Wm]].
  unfold mrow. rewrite (proj2 (Nat.ltb_lt _ _) Hrows), (proj2 (Nat.ltb_lt i (nr y))) by lia. cbn [bind].
  pose proof (proj1 (well_fits _ _ _ _) Wm) as ((l & Fm) & _). destruct (predict_ok junk m K l p c (mk 1 (nc x) (fun _ j => at_ x i j)) Fm Hp) as (pm & m' & K' & l' & Em & Fm' & Km & R1 & R2); [cbn; lia|exact Hx|exact Hc|].
  rewrite Em. cbn [bind]. assert (Wm' : well_sized m' K' p c) by (eapply well_kc; eauto).
  destruct (builtin_sized_cost (n_cost m')) with (y := mk 1 (nc y) (fun _ j => at_ y i j)) (h := n_result m') as [J EJ]; [apply well_fits in Wm'; apply Wm'|cbn in *; lia|cbn; lia|].
  unfold net_computecost. rewrite EJ. cbn [bind]. eexists. split; [reflexivity|exact Wm'].
Qed.
Theorem C72_sgd : forall p c t n H x y b, 1 <= p -> 1 <= c -> well_sized n H p c ->
  returns_iff (nr x = 0 \/ (nc x = p /\ nr x <= nr y /\ nc y = c)) (sgd_feeddata_cost junk t n H x y b).
Proof.
  intros p c t n H x y b Hp Hc Hw. pose proof (proj1 (well_fits _ _ _ _) Hw) as ((ls & Hf) & _). unfold sgd_feeddata_cost, sgd_feeddata.
  destruct (decay_ok (tick t) n H ls p c Hf) as (n0 & H0 & ls0 & E0 & F0 & K0 & _). rewrite E0. cbn [bind]. assert (W0 : well_sized n0 H0 p c) by (eapply well_kc; eauto).
  split; intros Hs.
  - destruct Hs as [Z|(X & R & Y)]; [rewrite Z; cbn; eauto|]. destruct (rows_ok p c x y Hp X Y (nr x) n0 H0 W0) as (n1 & H1 & -> & W1); auto. cbn [bind].
    change (exists a, ('(c0, n2, H2) <- foldM (sgd_cost_step junk x y b) (seq 0 (nr x)) (dofZ 0, n1, H1) ;; Ok (c0, tick t, n2, H2)) = Ok a).
    destruct (sgd_costs_ok p c x y b Hp Hc X Y R (seq 0 (nr x))) with (cst := dofZ (d := D) 0%Z) (n := n1) (H := H1) as ([[c1 n2] H2] & E); [intros i Hi%in_seq; lia|exact W1|]. rewrite E. cbn [bind]. eauto.
  - assert (G : sgd_rows junk n0 H0 x y (seq 0 (nr x)) = Throw); [|rewrite G; reflexivity].
    assert (Hx : 1 <= nr x) by lia.
    destruct (Nat.eq_dec (nc x) p) as [X|X]; [destruct (Nat.eq_dec (nc y) c) as [Y|Y]|].
    + assert (R : nr y < nr x) by lia. replace (nr x) with (nr y + (nr x - nr y)) by lia. rewrite seq_app. unfold sgd_rows. rewrite TMem.foldM_app.
      destruct (rows_ok p c x y Hp X Y (nr y) n0 H0 W0) as (n1 & H1 & E & W1); [lia|lia|]. unfold sgd_rows in E. rewrite E. cbn [bind]. replace (nr x - nr y) with (S (nr x - nr y - 1)) by lia. cbn [seq foldM Nat.add].
      rewrite (row_reject n1 H1 p c) by (auto; lia). reflexivity.
    + replace (nr x) with (S (nr x - 1)) by lia. unfold sgd_rows. cbn [seq foldM]. rewrite (row_reject n0 H0 p c) by (auto; lia). reflexivity.
    + replace (nr x) with (S (nr x - 1)) by lia. unfold sgd_rows. cbn [seq foldM]. rewrite (row_reject n0 H0 p c) by (auto; lia). reflexivity.
Qed.
(** Surplus labels are ignored: only the first nr x rows of y matter. *)
Theorem C72_sgd_surplus : forall t n H x y y' b, nr x <= nr y -> nr x <= nr y' -> nc y = nc y' -> (forall i j, i < nr x -> j < nc y -> at_ y i j = at_ y' i j) ->
  sgd_feeddata_cost junk t n H x y b = sgd_feeddata_cost junk t n H x y' b.
Proof.
  intros t n H x y y' b R R' Hc Hy. assert (M : forall i, i < nr x -> mrow y i = mrow y' i).
  { intros i Hi. unfold mrow. rewrite (proj2 (Nat.ltb_lt i (nr y))), (proj2 (Nat.ltb_lt i (nr y'))) by lia. f_equal. rewrite <- Hc. apply mk_ext. intros _ j _ Hj. now apply Hy. }
  assert (F : forall {S} (f g : S -> nat -> res S) l, (forall i s, In i l -> f s i = g s i) -> forall s, foldM f l s = foldM g l s).
  { intros S f g. induction l as [|i l IH]; intros E s; [reflexivity|]. cbn [foldM]. rewrite E by now left. apply bind_ext. intros s'. apply IH. intros j s2 Hj. apply E. now right. }
  unfold sgd_feeddata_cost, sgd_feeddata, sgd_rows. rewrite !bind_assoc. apply bind_ext. intros [n0 H0].
  rewrite (F _ (fun '(n, H) i => sgd_row junk n H x y i) (fun '(n, H) i => sgd_row junk n H x y' i)) by (intros i [n1 H1] Hi%in_seq; unfold sgd_row; rewrite M by lia; reflexivity).
  apply bind_ext. intros [[t1 n1] H1].
  rewrite (F _ (fun '(c, n, H) i => if b : bool then xi <- mrow x i ;; '(_, n1, H1) <- net_predict junk n H xi ;; yi <- mrow y i ;; ci <- net_computecost n1 (n_result n1) yi ;; Ok (dadd c ci, n1, H1) else Ok (c, n, H))
             (fun '(c, n, H) i => if b : bool then xi <- mrow x i ;; '(_, n1, H1) <- net_predict junk n H xi ;; yi <- mrow y' i ;; ci <- net_computecost n1 (n_result n1) yi ;; Ok (dadd c ci, n1, H1) else Ok (c, n, H)));
    [reflexivity|]. intros i [[c2 n2] H2] Hi%in_seq. rewrite M by lia. reflexivity.
Qed.
(** Too few labels: the rows that have one are learned before the exception. *)
Theorem C72_sgd_short : forall p c t n H x y b, 1 <= p -> well_sized n H p c -> nc x = p -> nc y = c -> nr y < nr x ->
  exists n0 H0 nk Hk n' H', decay (tick t) n H = Ok (n0, H0) /\ sgd_rows junk n0 H0 x y (seq 0 (nr y)) = Ok (nk, Hk) /\
    xsgd_feeddata_cost junk wreck t n H x y b = XThrow (tick t, n', H') /\ untouched nk Hk n' H'.
Proof.
  intros p c t n H x y b Hp Hw X Y R. pose proof (proj1 (well_fits _ _ _ _) Hw) as ((ls & Hf) & _).
  destruct (decay_ok (tick t) n H ls p c Hf) as (n0 & H0 & ls0 & E0 & F0 & K0 & _). assert (W0 : well_sized n0 H0 p c) by (eapply well_kc; eauto).
  destruct (rows_ok p c x y Hp X Y (nr y) n0 H0 W0) as (nk & Hk & E & W1); [lia|lia|].
  assert (G : sgd_rows junk n0 H0 x y (seq 0 (nr x)) = Throw).
  { replace (nr x) with (nr y + (nr x - nr y)) by lia. rewrite seq_app. unfold sgd_rows in *. rewrite TMem.foldM_app. rewrite E. cbn [bind]. replace (nr x - nr y) with (S (nr x - nr y - 1)) by lia. cbn [seq foldM Nat.add].
    rewrite (row_reject nk Hk p c) by (auto; lia). reflexivity. }
  assert (S0 : sgd_feeddata_cost junk t n H x y b = Throw) by (unfold sgd_feeddata_cost, sgd_feeddata; rewrite E0; cbn [bind]; rewrite G; reflexivity).
  rewrite <- (xsgd_feeddata_cost_ref junk wreck t n H x y b) in S0.
  destruct (xsgd_feeddata_cost junk wreck t n H x y b) as [s a|[[t' n'] H']| |u] eqn:EX; try discriminate.
  exists n0, H0, nk, Hk, n', H'. split; [exact E0|]. split; [exact E|].
  destruct (C71_sgd junk wreck _ _ _ _ _ _ _ _ _ (proj1 Hw) EX) as (-> & n0' & H0' & E0' & [(k & mk & Kk & L & A & B & U)|(_ & nk' & Hk' & A & _)]); rewrite E0 in E0'; injection E0' as <- <-; [|rewrite G in A; discriminate].
  split; [reflexivity|]. destruct (Nat.lt_trichotomy k (nr y)) as [Q|[->|Q]].
  - exfalso. destruct (rows_ok p c x y Hp X Y k n0 H0 W0) as (n2 & H2 & E2 & W2); [lia|lia|]. rewrite A in E2. injection E2 as -> ->. destruct (row_ok n2 H2 p c x y k Hp W2) as (n3 & H3 & E3 & _); auto. rewrite B in E3. discriminate.
  - rewrite A in E. injection E as -> ->. exact U.
  - exfalso. replace k with (nr y + (k - nr y)) in A by lia. rewrite seq_app in A. unfold sgd_rows in A, E. rewrite TMem.foldM_app, E in A. cbn [bind] in A. replace (k - nr y) with (S (k - nr y - 1)) in A by lia. cbn [seq foldM Nat.add] in A.
    rewrite (row_reject nk Hk p c) in A by (auto; lia). discriminate.
Qed.

(** BatchTrainer. *)
Lemma wrap_empty (m : mat) (b : Z) : nc m = 0 -> wrap_rows m b = Throw.
Proof.
  intros E. unfold wrap_rows, submat, sub_ok. rewrite E. destruct ((0 <=? 0)%Z && (0 <=? b - 2)%Z && (b - 2 <? Z.of_nat (nr m))%Z && (0 <=? 0)%Z); reflexivity.
Qed.
Lemma foldM_same {T B} (f g : T -> B -> res T) : (forall s i, f s i = g s i) -> forall l s, foldM f l s = foldM g l s.
Proof. intros E. induction l as [|i l IH]; intros s; cbn [foldM]; [reflexivity|]. rewrite E. apply bind_ext. exact IH. Qed.
Definition wrapped (m : mat) (b : nat) : mat := mk (nr m + (b - 1)) (nc m) (fun i j => at_ m (i mod nr m) j).
Definition bbody (b : nat) (x y : mat) (s : trainer D * net * lheap) (i : Z) : res (trainer D * net * lheap) :=
  let '(t, n, H) := s in
  xb <- mrows (wrapped x b) i (i + Z.of_nat b - 1) ;; '(_, n1, H1) <- net_forward junk n H xb ;;
  yb <- mrows (wrapped y b) i (i + Z.of_nat b - 1) ;; '(n2, H2) <- net_backprop junk n1 H1 yb ;; '(n3, H3) <- net_update n2 H2 ;; Ok (tick t, n3, H3).
Lemma batch_unfold (t : btrainer D) n H x y b : bt_size t = Z.of_nat b -> 2 <= b -> b <= nr x + 1 -> b <= nr y + 1 -> 1 <= nc x -> 1 <= nc y ->
  batch_feeddata junk t n H x y = ('(t', n1, H1) <- foldM (bbody b x y) (map (fun j => Z.of_nat (j * b)) (seq 0 (nbatches (nr x) b))) (bt_t t, n, H) ;;
    '(n2, H2) <- decay t' n1 H1 ;; Ok (BT t' x y (Z.of_nat b), n2, H2)).
Proof. intros Hbt Hb Hx Hy Cx Cy. unfold batch_feeddata. rewrite Hbt, !wrap_ok by lia. cbn [bind]. rewrite steps_list by lia. unfold batch_loop.
  rewrite (foldM_same _ (bbody b x y)); [reflexivity|]. intros [[t0 n0] H0] i. reflexivity. Qed.
Lemma bbody_step b x y t n H s : 2 <= b -> s < nr x -> s < nr y ->
  bbody b x y (t, n, H) (Z.of_nat s) = ('(n3, H3) <- train_step junk n H (pick x (map (fun i => (s + i) mod nr x) (seq 0 b))) (pick y (map (fun i => (s + i) mod nr y) (seq 0 b))) ;; Ok (tick t, n3, H3)).
Proof.
  intros Hb Hx Hy. unfold bbody, wrapped. rewrite (mrows_pick x (nr x) b s) by lia. cbn [bind]. rewrite (mrows_pick y (nr y) b s) by lia.
  unfold train_step. rewrite !bind_assoc. apply bind_ext. intros [[a n1] H1]. cbn [bind]. rewrite bind_assoc. apply bind_ext. intros [n2 H2]. reflexivity.
Qed.
Lemma batch_samples p c b s (x y : mat) : 2 <= b -> nc x = p -> nc y = c -> samples p c (pick x (map (fun i => (s + i) mod nr x) (seq 0 b)), pick y (map (fun i => (s + i) mod nr y) (seq 0 b))).
Proof. intros Hb Hx Hy. unfold samples. cbn [fst snd pick nr nc mk]. rewrite !map_length, seq_length. repeat split; auto; lia. Qed.
Lemma bbody_ok p c b x y t n H s : 1 <= p -> 2 <= b -> nc x = p -> nc y = c -> s < nr x -> s < nr y -> well_sized n H p c ->
  exists n' H', bbody b x y (t, n, H) (Z.of_nat s) = Ok (tick t, n', H') /\ well_sized n' H' p c.
Proof.
  intros Hp Hb Hx Hy Sx Sy Hw. rewrite bbody_step by assumption. pose proof (proj1 (well_fits _ _ _ _) Hw) as ((l & Fm) & _).
  destruct (step_ok junk n H l p c _ _ Fm Hp (batch_samples p c b s x y Hb Hx Hy)) as (m' & K' & l' & -> & Fm' & Km & _). cbn [bind]. do 2 eexists. split; [reflexivity|]. eapply well_kc; eauto.
Qed.
Lemma bbody_late b x y t n H s p c : 2 <= b -> 1 <= p -> nc x = p -> well_sized n H p c -> s < nr x -> nr y <= s -> bbody b x y (t, n, H) (Z.of_nat s) = Throw.
Proof.
  intros Hb Hp Hc Hw Hx Hy. unfold bbody, wrapped. rewrite (mrows_pick x (nr x) b s) by lia. cbn [bind]. pose proof (proj1 (well_fits _ _ _ _) Hw) as ((ls & Hf) & _).
  destruct (forward_fits n H ls p c (pick x (map (fun i => (s + i) mod nr x) (seq 0 b))) Hf Hp) as (a & n1 & H1 & -> & _); [cbn; rewrite map_length, seq_length; lia|exact Hc|]. cbn [bind].
  unfold mrows. cbn [nr nc mk]. destruct (Z.ltb_spec (Z.of_nat s + Z.of_nat b - 1) (Z.of_nat (nr y + (b - 1)))); [lia|]. rewrite andb_false_r. reflexivity.
Qed.
Lemma bloop_ok p c b x y : 1 <= p -> 2 <= b -> nc x = p -> nc y = c -> forall k s t n H, well_sized n H p c -> (forall j, j < s + k -> j * b < nr x /\ j * b < nr y) ->
  exists n' H', foldM (bbody b x y) (map (fun j => Z.of_nat (j * b)) (seq s k)) (t, n, H) = Ok (ticks t k, n', H') /\ well_sized n' H' p c.
Proof.
  intros Hp Hb Hx Hy. induction k as [|k IH]; intros s t n H Hw Hj; cbn [seq map foldM]; [rewrite ticks_0; eauto|].
  destruct (bbody_ok p c b x y t n H (s * b) Hp Hb Hx Hy) as (n1 & H1 & -> & W1); [apply Hj; lia|apply Hj; lia|exact Hw|]. cbn [bind].
  destruct (IH (S s) (tick t) n1 H1 W1) as (n2 & H2 & E2 & W2); [intros j L; apply Hj; lia|]. rewrite E2, ticks_S. eauto.
Qed.
(** The batch size b fits the data: 2 <= b <= rows + 1 for samples and labels, and the last batch, which starts at sample
    (ceil(rows/b) - 1) * b, starts at an existing label. *)
Definition batch_accepts (p c : nat) (b : Z) (x y : mat) : Prop :=
  nc x = p /\ nc y = c /\ (2 <= b)%Z /\ (b <= Z.of_nat (nr x) + 1)%Z /\ (b <= Z.of_nat (nr y) + 1)%Z /\ (nbatches (nr x) (Z.to_nat b) - 1) * Z.to_nat b < nr y.
Lemma batch_returns p c (t : btrainer D) n H x y : 1 <= p -> 1 <= c -> well_sized n H p c -> returns_iff (batch_accepts p c (bt_size t) x y) (batch_feeddata junk t n H x y).
Proof.
  intros Hp Hc Hw. split.
  - intros (X & Y & B1 & B2 & B3 & B4). set (b := Z.to_nat (bt_size t)) in *. assert (Hbt : bt_size t = Z.of_nat b) by lia. rewrite (batch_unfold t n H x y b) by lia.
    destruct (bloop_ok p c b x y Hp ltac:(lia) X Y (nbatches (nr x) b) 0 (bt_t t) n H Hw) as (n1 & H1 & -> & W1).
    { intros j L. pose proof (nbatches_lt (nr x) b j ltac:(lia) L). split; [assumption|]. assert (j * b <= (nbatches (nr x) b - 1) * b) by (apply Nat.mul_le_mono_r; lia). lia. }
    cbn [bind]. pose proof (proj1 (well_fits _ _ _ _) W1) as ((ls & Hf) & _). destruct (decay_ok (ticks (bt_t t) (nbatches (nr x) b)) n1 H1 ls p c Hf) as (n0 & H0 & ls0 & -> & _). cbn [bind]. eauto.
  - intros N. destruct (Z_lt_dec (bt_size t) 2) as [L|L]; [apply C38_throws; lia|]. destruct (Z_gt_dec (bt_size t) (Z.of_nat (nr x) + 1)) as [L'|L']; [apply C38_throws; lia|].
    set (b := Z.to_nat (bt_size t)) in *. assert (Hbt : bt_size t = Z.of_nat b) by lia.
    destruct (Nat.eq_dec (nc x) 0) as [X0|X0]; [unfold batch_feeddata; rewrite wrap_empty by assumption; reflexivity|].
    destruct (Z_gt_dec (bt_size t) (Z.of_nat (nr y) + 1)) as [L2|L2]; [unfold batch_feeddata; rewrite Hbt, wrap_ok, (wrap_throw y) by lia; reflexivity|].
    destruct (Nat.eq_dec (nc y) 0) as [Y0|Y0]; [unfold batch_feeddata; rewrite Hbt, wrap_ok, (wrap_empty y) by lia; reflexivity|].
    rewrite (batch_unfold t n H x y b) by lia. enough (G : foldM (bbody b x y) (map (fun j => Z.of_nat (j * b)) (seq 0 (nbatches (nr x) b))) (bt_t t, n, H) = Throw) by (rewrite G; reflexivity).
    assert (Hk : exists k, nbatches (nr x) b = S k). { destruct (nbatches (nr x) b) eqn:E; [|eauto]. destruct (nbatches_cover (nr x) b); [lia|]. rewrite E in *. lia. } destruct Hk as [k Hk].
    destruct (samples_dec p c (pick x (map (fun i => (0 + i) mod nr x) (seq 0 b))) (pick y (map (fun i => (0 + i) mod nr y) (seq 0 b)))) as [Sm|Sm].
    + destruct Sm as (_ & X & _ & Y). cbn [fst snd pick nc mk] in X, Y.
      assert (T : nr y <= (nbatches (nr x) b - 1) * b). { destruct (le_lt_dec (nr y) ((nbatches (nr x) b - 1) * b)); [assumption|]. exfalso. apply N. unfold batch_accepts. fold b. repeat split; auto; lia. }
      destruct (nbatches_cover (nr y) b ltac:(lia)) as [C1 C2]. set (k0 := nbatches (nr y) b) in *.
      assert (K0 : k0 < nbatches (nr x) b). { destruct (le_lt_dec (nbatches (nr x) b) k0) as [Q|Q]; [|assumption]. exfalso. assert (Z0 : nbatches (nr x) b - 1 < k0) by lia. pose proof (nbatches_lt (nr y) b _ ltac:(lia) Z0). lia. }
      replace (nbatches (nr x) b) with (k0 + (nbatches (nr x) b - k0)) by lia. rewrite seq_app, map_app, TMem.foldM_app.
      destruct (bloop_ok p c b x y Hp ltac:(lia) X Y k0 0 (bt_t t) n H Hw) as (n1 & H1 & -> & W1).
      { intros j Hj. split; [apply nbatches_lt; lia|apply nbatches_lt; lia]. }
      cbn [bind]. replace (nbatches (nr x) b - k0) with (S (nbatches (nr x) b - k0 - 1)) by lia. cbn [seq map foldM Nat.add].
      rewrite (bbody_late b x y _ n1 H1 (k0 * b) p c); [reflexivity|lia|assumption|assumption|assumption| |assumption]. apply nbatches_lt; lia.
    + rewrite Hk. cbn [seq map foldM]. rewrite Nat.mul_0_l, bbody_step by lia. pose proof (proj1 (well_fits _ _ _ _) Hw) as ((ls & Hf) & Hb & _). rewrite (train_reject n H ls p c) by auto. reflexivity.
Qed.
Theorem C72_batch : forall p c (t : btrainer D) n H x y, 1 <= p -> 1 <= c -> well_sized n H p c ->
  returns_iff (batch_accepts p c (bt_size t) x y) (batch_feeddata_cost junk t n H x y false).
Proof.
  intros p c t n H x y Hp Hc Hw. destruct (batch_returns p c t n H x y Hp Hc Hw) as [A B]. unfold batch_feeddata_cost. split; intros Q; [|rewrite (B Q); reflexivity].
  destruct (A Q) as [[[t' n'] H'] ->]. cbn [bind]. assert (F : forall (l : list Z) (d : D), foldM (fun c0 (_ : Z) => Ok c0) l d = Ok d) by (induction l; cbn; auto). rewrite F. cbn [bind]. eauto.
Qed.
(** What an accepted call with different numbers of samples and labels does: sample row i of the wrapped data is taught
    with label row i of the wrapped labels, i.e. row i mod (rows of x) with row i mod (rows of y). *)
Theorem C72_batch_pairing : forall p c (t : btrainer D) n H x y b, 1 <= p -> 1 <= c -> bt_size t = Z.of_nat b -> batch_accepts p c (bt_size t) x y ->
  batch_feeddata junk t n H x y =
    ('(n1, H1) <- foldM (fun '(n, H) j => train_step junk n H (pick x (batch_rows (nr x) b j)) (pick y (batch_rows (nr y) b j))) (seq 0 (nbatches (nr x) b)) (n, H) ;;
     '(n2, H2) <- decay (ticks (bt_t t) (nbatches (nr x) b)) n1 H1 ;; Ok (BT (ticks (bt_t t) (nbatches (nr x) b)) x y (bt_size t), n2, H2)).
Proof.
  intros p c t n H x y b Hp Hc Hbt (X & Y & B1 & B2 & B3 & B4). rewrite Hbt in *. rewrite Nat2Z.id in B4. rewrite (batch_unfold t n H x y b) by lia.
  assert (G : forall k s t n H, s + k = nbatches (nr x) b -> foldM (bbody b x y) (map (fun j => Z.of_nat (j * b)) (seq s k)) (t, n, H) =
    ('(n1, H1) <- foldM (fun '(n, H) j => train_step junk n H (pick x (batch_rows (nr x) b j)) (pick y (batch_rows (nr y) b j))) (seq s k) (n, H) ;; Ok (ticks t k, n1, H1))).
  { clear t n H Hbt. induction k as [|k IH]; intros s t n H Hs; cbn [seq map foldM]; [cbn; now rewrite ticks_0|].
    rewrite bbody_step; [|lia|apply nbatches_lt; lia|]. 2:{ assert (s * b <= (nbatches (nr x) b - 1) * b) by (apply Nat.mul_le_mono_r; lia). lia. }
    rewrite !bind_assoc. fold (batch_rows (nr x) b s) (batch_rows (nr y) b s). apply bind_ext. intros [n1 H1]. cbn [bind]. rewrite (IH (S s) (tick t) n1 H1) by lia. rewrite ticks_S. reflexivity. }
  rewrite G by lia. rewrite bind_assoc. apply bind_ext. intros [n1 H1]. cbn [bind]. apply bind_ext. intros [n2 H2]. reflexivity.
Qed.
End Generic.

(** ** Examples *)
(** A 1-input, 1-output network (one hidden layer) and the four trainers. *)
Definition kind {A} (r : res A) : option bool := match r with Ok _ => Some true | Throw => Some false | _ => None end.
Example C72_example_net : well_sized (D := Zdt) exn exH 1 1. Proof. apply ex_well_sized. Qed.
Example C72_example_forward : kind (net_forward (D := Zdt) exj exn exH (zm 3 1 [1; 2; 3]%Z)) = Some true /\ kind (net_forward (D := Zdt) exj exn exH (zm 1 2 [1; 2]%Z)) = Some false /\ kind (net_forward (D := Zdt) exj exn exH mempty) = Some false.
Proof. repeat split; vm_compute; reflexivity. Qed.
(** Three samples and four labels: Trainer throws, SGDTrainer accepts. *)
Example C72_example_surplus : kind (feeddata_cost (D := Zdt) exj trainer_new exn exH (zm 3 1 [1; 2; 3]%Z) exy4 false) = Some false /\
  kind (sgd_feeddata_cost (D := Zdt) exj trainer_new exn exH (zm 3 1 [1; 2; 3]%Z) exy4 true) = Some true /\ kind (sgd_feeddata_cost (D := Zdt) exj trainer_new exn exH (zm 0 7 []) exy4 true) = Some true.
Proof. repeat split; vm_compute; reflexivity. Qed.
(** Four samples and three labels.  Batches of three: the second batch starts at row 3, which has no label, so the call throws.
    Batches of two: accepted, and sample 3 is taught with label 0. *)
Example C72_example_batch : kind (batch_feeddata_cost (D := Zdt) exj (batch_new 3) exn exH exx4 (zm 3 1 [1; 2; 3]%Z) false) = Some false /\
  kind (batch_feeddata_cost (D := Zdt) exj (batch_new 2) exn exH exx4 (zm 3 1 [1; 2; 3]%Z) false) = Some true /\
  map (batch_rows 4 2) (seq 0 (nbatches 4 2)) = [[0; 1]; [2; 3]] /\ map (batch_rows 3 2) (seq 0 (nbatches 4 2)) = [[0; 1]; [2; 0]].
Proof. repeat split; vm_compute; reflexivity. Qed.
Example C72_example_batch_hyp : batch_accepts (D := Zdt) 1 1 2 exx4 (zm 3 1 [1; 2; 3]%Z).
Proof. repeat split; vm_compute; try reflexivity; try discriminate; lia. Qed.
Example C72_example_momentum : match momentum_new (D := Zdt) 1%Z exn exH with Ok t => mom_fits exn exH t /\ kind (momentum_feeddata_cost (D := Zdt) exj t exn exH exx exy true) = Some true /\ kind (momentum_feeddata_cost (D := Zdt) exj t exn exH exx exy4 true) = Some false | _ => False end.
Proof.
  cbn. split; [|split; vm_compute; reflexivity]. eexists. split; [reflexivity|]. split; [repeat constructor|]; vm_compute; repeat split; reflexivity.
Qed.
(** One label for two samples (C72_sgd_short). *)
Example C72_example_short : nr (zm 1 1 [5%Z]) < nr exx /\ nc exx = 1. Proof. vm_compute. auto. Qed.
Print Assumptions C72_forward. Print Assumptions C72_trainer. Print Assumptions C72_momentum. Print Assumptions C72_sgd. Print Assumptions C72_sgd_surplus. Print Assumptions C72_sgd_short. Print Assumptions C72_batch. Print Assumptions C72_batch_pairing.

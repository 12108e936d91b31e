(** P_Converge.v - C100: training a deep regularised network with a small enough rate converges to a stationary point. *)
From Coq Require Import Reals Lra Psatz.
From Coquelicot Require Import Coquelicot.
From Verif Require Import Base Mat Act Layer Conv Misc Net NetP RInst RMat P_Act Grad P_Grad Trainer TrainP TrainP2 P_Train FunEq P_Mom P_Descent P_Linear Smooth Smooth2 P_Cost P_Smooth.
From Coq Require Import Arith.
Local Open Scope nat_scope.

(** ** Proof *)
Lemma ce_term u v m : (0 <= u <= 1)%R -> (0 < v < 1)%R -> (0 < m)%R -> (0 <= - (u * ln v + (1 - u) * ln (1 - v)) / m)%R.
Proof.
  intros Hu Hv Hm. pose proof (ln_le v ltac:(lra)). pose proof (ln_le (1 - v) ltac:(lra)). pose proof (neg_mul u (ln v)). pose proof (neg_mul (1 - u) (ln (1 - v))).
  apply Rmult_le_pos; [|left; now apply Rinv_0_lt_compat]. lra.
Qed.
Lemma cost_ge0 junk (m : rnet) K ks p c x y a n1 H1 cv : fits_net m K ks p c -> 1 <= p -> samples p c (x, y) -> built_in m y -> n_cost m = quad_cost \/ all_in 0 1 y ->
  net_forward (D := Rdt) junk m K x = Ok (a, n1, H1) -> net_computecost n1 a y = Ok cv -> (0 <= cv)%R.
Proof.
  intros Hf Hp Hs Hb Hy HF HC. pose proof Hs as (S1 & S2 & S3 & S4). cbn in S1, S2, S3, S4.
  destruct (forward_backward_ok (D := Rdt) junk _ _ _ p c x y Hf Hp S1 S2 S3 S4) as (a' & n1' & H1' & n2 & H2 & k2 & A1 & A2 & A3 & A4 & _).
  pose proof (eq_trans (eq_sym HF) A1) as Q. injection Q as <- <- <-.
  destruct (pass_dense (D := Rdt) junk _ _ _ x y a n1 H1 n2 H2 (proj1 Hf) HF A4) as (b & ls1 & delta & ls2' & dx & _ & _ & P3 & _ & _ & _ & _ & _ & _ & _ & _ & _ & P13).
  assert (Wa : wf a) by (rewrite P3; apply wf_mk). assert (Sz : same_size a y) by (split; congruence). assert (Hr : 1 <= nr y) by lia.
  assert (Hm : (0 < INR (nr y))%R) by (apply lt_0_INR; lia).
  assert (QC : n_cost m = quad_cost -> (0 <= cv)%R).
  { intros E. destruct (C35_quadratic n1 a y ltac:(congruence) Wa Sz Hr) as (c1 & C1 & C2 & _). rewrite C1 in HC. injection HC as <-. exact C2. }
  destruct Hy as [Hy|Hy]; [auto|]. destruct Hb as [(E & _ & _)|[(E & _ & Ea)|(E & _ & _ & _)]]; [auto| |].
  - pose proof (compute_R n1 ce_cost a y _ ltac:(congruence) ltac:(rewrite (as_mk a _ _ Wa (proj1 Sz) (proj2 Sz)) at 1; now apply ce_cost_mk)) as C1. rewrite C1 in HC. injection HC as <-.
    apply sumN_nonneg. intros i Hi. apply sumN_nonneg. intros j Hj. apply ce_term; [now apply Hy| |assumption].
    rewrite P3. unfold fwd_out. rewrite Ea. rewrite at_mk; [apply sig_range| |]; rewrite P3 in A2, A3; cbn in A2, A3; congruence.
  - destruct (C35_softmax n1 a y ltac:(congruence) Wa Sz Hr) as (c1 & C1 & C2 & _); [intros; now apply Hy|]. rewrite C1 in HC. injection HC as <-. exact C2.
Qed.

(** The objective bounds every weight. *)
Lemma reg_layer lam B (l : rlayer) : (0 < lam)%R -> (lam <= l_lambda l)%R -> (l_lambda l / 2 * sqnorm (l_W l) <= B)%R -> small_layer (sqrt (2 * B / lam)) l.
Proof.
  intros Hl Hll HB i j Hi Hj. apply abs_sqrt. eapply Rle_trans; [apply sq_entry; assumption|]. pose proof (sqnorm_nonneg (l_W l)).
  apply (Rmult_le_reg_r lam); [assumption|]. unfold Rdiv. rewrite Rmult_assoc, Rinv_l by lra. nra.
Qed.
Definition regs (ks : list rlayer) : R := sumL (map (fun l : rlayer => l_lambda l / 2 * sqnorm (l_W l))%R ks).
Lemma regs_nonneg ks : Forall (fun l : rlayer => (0 <= l_lambda l)%R) ks -> (0 <= regs ks)%R.
Proof. unfold regs, sumL. induction 1 as [|k ks Hk Hks IH]; cbn [map fold_right]; [lra|]. pose proof (sqnorm_nonneg (l_W k)). assert (0 <= l_lambda k / 2 * sqnorm (l_W k))%R by (apply Rmult_le_pos; lra). lra. Qed.
Lemma regs_small lam : (0 < lam)%R -> forall ks B, Forall (fun l : rlayer => (lam <= l_lambda l)%R) ks -> (regs ks <= B)%R -> Forall (small_layer (sqrt (2 * B / lam))) ks.
Proof.
  intros Hl. induction ks as [|k ks IH]; intros B Hk HB; constructor; apply Forall_cons_iff in Hk as [K1 K2].
  - apply reg_layer; auto. unfold regs, sumL in HB. cbn [map fold_right] in HB. assert (Q : (0 <= regs ks)%R) by (apply regs_nonneg; eapply Forall_impl; [|exact K2]; cbn; intros; lra). unfold regs, sumL in Q. lra.
  - apply IH; [assumption|]. unfold regs, sumL in *. cbn [map fold_right] in HB. pose proof (sqnorm_nonneg (l_W k)). assert (0 <= l_lambda k / 2 * sqnorm (l_W k))%R by (apply Rmult_le_pos; lra). lra.
Qed.
Lemma small_lnear M M' t l : lnear M 0 t l l -> small_layer M' l -> lnear M' 0 t l l.
Proof.
  intros (A & B & ((C1 & C2) & D & _)) Hs. split; [assumption|]. split; [assumption|]. split; [auto|]. split; [assumption|]. intros i j Hi Hj. specialize (Hs i j ltac:(congruence) ltac:(congruence)).
  split; [assumption|]. split; [assumption|]. rewrite Rminus_diag_eq, Rabs_R0 by reflexivity. lra.
Qed.
Lemma small_lsnear M M' : forall ts ks, lsnear M 0 ts ks ks -> Forall (small_layer M') ks -> lsnear M' 0 ts ks ks.
Proof. induction ts as [|t ts IH]; intros [|k ks] Hn Hs; cbn in *; auto. apply Forall_cons_iff in Hs as [S1 S2]. destruct Hn. split; [eapply small_lnear; eauto|auto]. Qed.

Lemma objective_bounds junk n H ts p c x y M lam m K ks J B : fits_net n H ts p c -> 1 <= p -> samples p c (x, y) -> built_in n y -> n_cost n = quad_cost \/ all_in 0 1 y ->
  (0 < lam)%R -> Forall (fun l : rlayer => (lam <= l_lambda l)%R) ts -> (lam <= l_lambda (o_l (n_output n)))%R ->
  built n ts M m K ks -> objective junk m K x y = Ok J -> (J <= B)%R -> (0 <= J)%R /\ built n ts (sqrt (2 * B / lam)) m K ks.
Proof.
  intros Hf Hp Hs Hb Hy Hlam Hls Hlo Hm HJ HB. pose proof (built_fits n H ts p c M m K ks Hf Hm) as Hfm. destruct Hm as (M1 & M2 & M3 & M4).
  assert (Hbm : built_in m y). { destruct M2 as [K1 K2]. destruct M4 as ((E & _) & _). unfold built_in in *. rewrite K1, K2, E. exact Hb. }
  assert (Hym : n_cost m = quad_cost \/ all_in 0 1 y) by (destruct M2 as [-> _]; exact Hy).
  unfold objective in HJ. apply bind_ok in HJ as ([[a n1] H1] & E1 & HJ). apply bind_ok in HJ as (cv & E2 & HJ). apply bind_ok in HJ as (ks' & E3 & HJ). injection HJ as <-.
  pose proof (eq_trans (eq_sym E3) (hidden_layers_dense _ _ _ (proj2 M1))) as Q. injection Q as ->. fold (regs ks) in *.
  pose proof (cost_ge0 junk m K ks p c x y a n1 H1 cv Hfm Hp Hs Hbm Hym E1 E2) as Hc.
  assert (Hks : Forall (fun l : rlayer => (lam <= l_lambda l)%R) ks).
  { pose proof (lsnear_act _ _ _ _ _ M3) as Q. clear -Q Hls. induction Q as [|t k ts ks (_ & E & _) Q IH]; constructor; apply Forall_cons_iff in Hls as [L1 L2]; auto. now rewrite E. }
  assert (Hko : (lam <= l_lambda (o_l (n_output m)))%R) by (destruct M4 as ((_ & ->) & _); exact Hlo).
  assert (R0 : (0 <= regs ks)%R) by (apply regs_nonneg; eapply Forall_impl; [|exact Hks]; cbn; intros; lra).
  assert (R1 : (0 <= l_lambda (o_l (n_output m)) / 2 * sqnorm (l_W (o_l (n_output m))))%R) by (pose proof (sqnorm_nonneg (l_W (o_l (n_output m)))); apply Rmult_le_pos; lra).
  split; [lra|]. split; [assumption|]. split; [assumption|]. split; [eapply small_lsnear; [exact M3|]|eapply small_lnear; [exact M4|]].
  - apply regs_small; auto. lra.
  - apply reg_layer; auto. lra.
Qed.

Lemma layers_bound (ls : list rlayer) : exists M, Forall (small_layer M) ls.
Proof.
  induction ls as [|l ls (M & IH)]; [exists 0%R; constructor|]. destruct (mat_bound (l_W l)) as (B & HB). exists (Rmax B M). constructor.
  - intros i j Hi Hj. eapply Rle_trans; [now apply HB|apply Rmax_l].
  - eapply Forall_impl; [|exact IH]. intros k Hk i j Hi Hj. eapply Rle_trans; [now apply Hk|apply Rmax_r].
Qed.
Lemma built_self n H ts : dense_net n H ts -> exists M, built n ts M n H ts.
Proof.
  intros Hd. destruct (layers_bound ts) as (M1 & B1). destruct (layers_bound [o_l (n_output n)]) as (M2 & B2). apply Forall_cons_iff in B2 as [B2 _].
  exists (Rmax M1 M2). destruct (same_built n H ts n H (Rmax M1 M2) Hd) as (ks & L & B).
  - split; [eapply dense_net_hidden; eauto|]. split; [|repeat split]. exists ts, ts. split; [apply hidden_layers_dense, Hd|]. split; [apply hidden_layers_dense, Hd|]. clear. induction ts; constructor; auto. repeat split.
  - split.
    + exists ts. split; [apply hidden_layers_dense, Hd|]. eapply Forall_impl; [|exact B1]. intros k Hk i j Hi Hj. eapply Rle_trans; [now apply Hk|apply Rmax_l].
    + intros i j Hi Hj. eapply Rle_trans; [now apply B2|apply Rmax_r].
  - pose proof (eq_trans (eq_sym L) (hidden_layers_dense _ _ _ (proj2 Hd))) as Q. injection Q as ->. assumption.
Qed.
Lemma objective_ok junk n H ts p c x y : fits_net n H ts p c -> 1 <= p -> samples p c (x, y) -> built_in n y -> exists J, objective junk n H x y = Ok J.
Proof.
  intros Hf Hp (S1 & S2 & S3 & S4) Hb. cbn in S1, S2, S3, S4.
  destruct (forward_backward_ok (D := Rdt) junk _ _ _ p c x y Hf Hp S1 S2 S3 S4) as (a & n1 & H1 & n2 & H2 & k2 & A1 & A2 & A3 & A4 & _).
  unfold objective. rewrite A1. cbn [bind]. destruct (forward_kc _ _ _ _ _ _ _ A1) as [[K1 _] _]. unfold net_computecost. rewrite K1.
  destruct (builtin_sized_cost (D := Rdt) (n_cost n)) with (y := y) (h := a) as (J & EJ); [|congruence|congruence|].
  - destruct Hb as [(E & _)|[(E & _)|(E & _)]]; auto.
  - rewrite EJ. cbn [bind]. rewrite (hidden_layers_dense _ _ _ (proj2 (proj1 Hf))). cbn [bind]. eexists; reflexivity.
Qed.

(** ** C100 *)
Theorem C100_converges : forall junk (n : rnet) (H : rheap) p c (x y : rmat) lam,
  1 <= p -> well_sized n H p c -> samples p c (x, y) -> built_in n y -> (n_cost n = quad_cost \/ all_in 0 1 y) ->
  (forall ls, hidden_layers n H = Ok ls -> Forall (fun l => In (l_act l) seven /\ (lam <= l_lambda l)%R) ls) ->
  (0 < lam <= l_lambda (o_l (n_output n)))%R ->
  exists eta0, (0 < eta0)%R /\
    forall (t : trainer Rdt) eta, no_decay t -> (0 < eta < eta0)%R ->
      exists n0 H0 (J g : nat -> R), net_setlrate (D := Rdt) n H eta = Ok (n0, H0) /\ objective junk n H x y = Ok (J 0) /\
        (forall k, exists t' n' H', train junk t n0 H0 x y k = Ok (t', n', H') /\ objective junk n' H' x y = Ok (J k) /\
           slope2 junk n' H' x y = Ok (g k) /\ small (sqrt (2 * J 0%nat / lam)) n' H') /\
        (forall k, 0 <= J (S k) <= J k - eta / 2 * g k /\ 0 <= g k)%R /\
        is_lim_seq g 0%R /\ ex_finite_lim_seq J /\
        (forall K, 1 <= K -> exists k, k < K /\ (g k <= 2 * J 0%nat / (eta * INR K))%R).
Proof.
  intros junk n H p c x y lam Hp Hw Hs Hb Hy HL [Hlam Hlo]. pose proof (proj1 (well_fits _ _ _ _) Hw) as ((ts & Hf) & _).
  pose proof (HL _ (hidden_layers_dense _ _ _ (proj2 (proj1 Hf)))) as HT.
  assert (HA : Forall (fun l : rlayer => In (l_act l) seven) ts) by (eapply Forall_impl; [|exact HT]; cbn; tauto).
  assert (Hls : Forall (fun l : rlayer => (lam <= l_lambda l)%R) ts) by (eapply Forall_impl; [|exact HT]; cbn; tauto). clear HT HL.
  destruct (objective_ok junk n H ts p c x y Hf Hp Hs Hb) as (J0 & EJ0). set (M := sqrt (2 * J0 / lam)).
  destruct (step_near junk n H ts p c x y M Hf Hp Hs Hb HA) as (eta0 & He & St). exists eta0. split; [assumption|].
  intros t eta Ht Heta. destruct (net_setlrate_dense n H ts (eta : Rdt) (proj1 Hf)) as [ES Hr].
  set (n0 := setrate_net n (eta : Rdt)) in *. set (H0 := put_layers (n_hidden n) (map (relr (eta : Rdt)) ts) H) in *.
  pose proof (objective_setrate junk n H ts x y J0 eta (proj1 Hf) EJ0) as EJ. fold n0 H0 in EJ.
  assert (OB : forall M' m K ks J, built n ts M' m K ks -> objective junk m K x y = Ok J -> (J <= J0)%R -> (0 <= J)%R /\ built n ts M m K ks).
  { intros M' m K ks J Bm E HJ. eapply objective_bounds; eauto. }
  assert (B0 : built n ts M n0 H0 (map (relr (eta : Rdt)) ts)).
  { destruct (built_self n H ts (proj1 Hf)) as (M' & (B1 & B2 & B3 & B4)). apply (OB M' n0 H0 _ J0); [|exact EJ|lra].
    split; [exact Hr|]. split; [exact B2|]. split; [|exact B4]. eapply lsnear_same; [|exact B3]. clear. induction ts; cbn; constructor; auto. repeat split. }
  assert (Inv : forall k, exists t' n' H' ks J, train junk t n0 H0 x y k = Ok (t', n', H') /\ no_decay t' /\ built n ts M n' H' ks /\
     Forall (fun l : rlayer => l_lrate l = eta) ks /\ l_lrate (o_l (n_output n')) = eta /\ objective junk n' H' x y = Ok J /\ (0 <= J <= J0)%R).
  { induction k as [|k (t' & n' & H' & ks & J & I1 & I2 & I3 & I4 & I5 & I6 & I7)].
    - exists t, n0, H0, (map (relr (eta : Rdt)) ts), J0. split; [reflexivity|]. split; [assumption|]. split; [assumption|]. split; [clear; induction ts; cbn; constructor; auto|]. split; [reflexivity|].
      split; [assumption|]. split; [|lra]. eapply OB; eauto. lra.
    - destruct (St n' H' ks t' eta I3 I4 I5 I2 Heta) as (J1 & g & t2 & m' & K' & ks' & J' & A1 & A2 & A3 & A4 & A5 & A6 & A7 & A8 & A9 & A10).
      pose proof (eq_trans (eq_sym I6) A1) as Q. injection Q as <-. assert (HJ' : (J' <= J0)%R) by (assert (0 <= eta / 2 * g)%R by (apply Rmult_le_pos; lra); lra).
      destruct (OB _ _ _ _ _ A6 A9 HJ') as [Z1 Z2]. exists t2, m', K', ks', J'. rewrite train_S, I1. cbn [bind]. auto 10. }
  set (J := fun k => match train junk t n0 H0 x y k with Ok (_, n', H') => match objective junk n' H' x y with Ok j => j | _ => 0%R end | _ => 0%R end).
  set (g := fun k => match train junk t n0 H0 x y k with Ok (_, n', H') => match slope2 junk n' H' x y with Ok j => j | _ => 0%R end | _ => 0%R end).
  assert (EJz : J 0 = J0). { unfold J. change (train junk t n0 H0 x y 0) with (Ok (t, n0, H0)). cbn. now rewrite EJ. }
  assert (Step : forall k, exists t' n' H', train junk t n0 H0 x y k = Ok (t', n', H') /\ objective junk n' H' x y = Ok (J k) /\ slope2 junk n' H' x y = Ok (g k) /\ small M n' H' /\
     (0 <= J k)%R /\ (0 <= J (S k) <= J k - eta / 2 * g k)%R /\ (0 <= g k)%R).
  { intros k. destruct (Inv k) as (t' & n' & H' & ks & Jk & I1 & I2 & I3 & I4 & I5 & I6 & I7). destruct (Inv (S k)) as (t1 & n1 & H1 & ks1 & Jk1 & I1' & _ & _ & _ & _ & I6' & I7').
    destruct (St n' H' ks t' eta I3 I4 I5 I2 Heta) as (J1 & g1 & t2 & m' & K' & ks' & J' & A1 & A2 & A3 & A4 & A5 & A6 & A7 & A8 & A9 & A10).
    pose proof (eq_trans (eq_sym I6) A1) as Q. injection Q as <-. pose proof I1' as I1''. rewrite train_S, I1 in I1''. cbn [bind] in I1''. rewrite A4 in I1''. injection I1'' as <- <- <-.
    pose proof (eq_trans (eq_sym I6') A9) as Q. injection Q as ->.
    assert (EJk : J k = Jk) by (unfold J; now rewrite I1, I6). assert (Egk : g k = g1) by (unfold g; now rewrite I1, A2). assert (EJk1 : J (S k) = J') by (unfold J; now rewrite I1', A9).
    exists t', n', H'. rewrite EJk, Egk, EJk1. split; [assumption|]. split; [assumption|]. split; [assumption|]. split; [apply (built_same n H ts n' H' M ks (proj1 Hf) I3)|]. lra. }
  assert (Bnd : forall k, (0 <= J k)%R /\ (0 <= J (S k) <= J k - eta / 2 * g k)%R /\ (0 <= g k)%R) by (intros k; destruct (Step k) as (? & ? & ? & ? & ? & ? & ? & B); exact B).
  assert (LJ : ex_finite_lim_seq J). { apply (ex_finite_lim_seq_decr J 0%R); intros k; destruct (Bnd k) as (Q1 & Q2 & Q3); [|assumption]. assert (0 <= eta / 2 * g k)%R by (apply Rmult_le_pos; lra). lra. }
  exists n0, H0, J, g. split; [exact ES|]. split; [rewrite EJz; exact EJ0|]. split.
  { intros k. destruct (Step k) as (t' & n' & H' & Z1 & Z2 & Z3 & Z4 & _). exists t', n', H'. rewrite EJz. auto. }
  split; [intros k; apply Bnd|]. split; [|split; [exact LJ|]].
  - destruct LJ as (l & LJ). apply (is_lim_seq_le_le (fun _ => 0%R) g (fun k => (2 / eta) * (J k - J (S k)))%R).
    + intros k. destruct (Bnd k) as (Q1 & Q2 & Q3). split; [assumption|]. apply (Rmult_le_reg_l (eta / 2)); [lra|]. replace (eta / 2 * (2 / eta * (J k - J (S k))))%R with (J k - J (S k))%R by (field; lra). lra.
    + apply is_lim_seq_const.
    + replace (Finite 0%R) with (Rbar_mult (2 / eta)%R (l - l)%R) by (cbn; f_equal; ring). apply is_lim_seq_scal_l. apply is_lim_seq_minus'; [assumption|]. now apply is_lim_seq_incr_1 in LJ.
  - intros K HK. 
    destruct (Classical_Prop.classic (exists k, k < K /\ (g k <= 2 * J 0%nat / (eta * INR K))%R)) as [|Hn]; [assumption|]. exfalso.
    assert (HKp : (0 < INR K)%R) by (apply lt_0_INR; lia). set (b := (2 * J 0%nat / (eta * INR K))%R) in *.
    assert (Hb' : forall k, k < K -> (b < g k)%R). { intros k Hk. apply Rnot_le_lt. intros Hle. apply Hn. exists k. auto. }
    assert (T : forall k, k <= K -> (J k + INR k * (eta / 2 * b) <= J 0%nat)%R /\ ((1 <= k)%nat -> J k + INR k * (eta / 2 * b) < J 0%nat)%R).
    { induction k as [|k IH]; intros Hk; [cbn; split; [lra|lia]|]. destruct IH as [IH _]; [lia|]. rewrite S_INR. destruct (Bnd k) as (Q1 & Q2 & Q3). specialize (Hb' k ltac:(lia)).
      assert (eta / 2 * b < eta / 2 * g k)%R by (apply Rmult_lt_compat_l; lra). split; [lra|intros _; lra]. }
    destruct (T K (Nat.le_refl _)) as [_ T2]. specialize (T2 HK). destruct (Bnd K) as (Q1 & _).
    assert (Eb : (INR K * (eta / 2 * b) = J 0%nat)%R) by (unfold b; field; lra). lra.
Qed.

(** ** The hypotheses can be met *)
(** 1 input, 2 sigmoid units, 1 sigmoid output with the cross-entropy cost, regularisation 1/2 everywhere, label 1. *)
Definition cvl (f : actfunc Rdt) (W : rmat) : rlayer := L (D := Rdt) 1%R (/ 2)%R f mempty mempty mempty mempty W mempty.
Definition cvn : rnet := N (D := Rdt) mempty ce_cost ce_costd (cvl identity mempty) [0] (O (cvl sigmoid (rm 3 1 [1; 0; -2]%R)) ce_cost ce_costd mempty).
Definition cvH : rheap := [HDense (cvl sigmoid (rm 2 2 [1; 2; 1; -1]%R))].
Lemma C100_example : well_sized cvn cvH 1 1 /\ samples 1 1 (exdx, exdy) /\ built_in cvn exdy /\ all_in 0 1 exdy /\
  (forall ls, hidden_layers cvn cvH = Ok ls -> Forall (fun l => In (l_act l) seven /\ (/ 2 <= l_lambda l)%R) ls) /\
  (0 < / 2 <= l_lambda (o_l (n_output cvn)))%R /\ small 2 cvn cvH /\ same_build cvn cvH cvn cvH /\ no_decay (trainer_new (D := Rdt)) /\
  exists ls, hidden_layers cvn cvH = Ok ls /\ length ls = 1.
Proof.
  assert (Hdn : dense_net cvn cvH [cvl sigmoid (rm 2 2 [1; 2; 1; -1]%R)]). { split; [repeat constructor; intros []|]. constructor; [reflexivity|constructor]. }
  assert (L0 : hidden_layers cvn cvH = Ok [cvl sigmoid (rm 2 2 [1; 2; 1; -1]%R)]) by (apply hidden_layers_dense, Hdn).
  split. { split; [eapply dense_net_hidden; eauto|]. split; [|split; cbn; auto]. eexists. split; [exact L0|]. exists 2. cbn. lia. }
  split; [unfold samples; cbn; lia|]. split; [right; left; repeat split|]. split; [intros [|i] [|j] Hi Hj; cbn in *; try lia; lra|].
  split. { intros ls L. rewrite L0 in L. injection L as <-. constructor; [|constructor]. split; [cbn; auto|cbn; lra]. }
  split; [cbn; lra|]. split.
  { split; [eexists; split; [exact L0|]; constructor; [|constructor]|]; intros [|[|[|i]]] [|[|j]] Hi Hj; cbn in *; try lia; unfold Rabs; destruct Rcase_abs; lra. }
  split. { split; [eapply dense_net_hidden; eauto|]. split; [|repeat split]. do 2 eexists. split; [exact L0|]. split; [exact L0|]. constructor; [|constructor]. repeat split. }
  split; [reflexivity|]. eexists. split; [exact L0|reflexivity].
Qed.

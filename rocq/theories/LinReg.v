(** LinReg.v - least squares by gradient descent: pure mathematics used by P_Linear.v. *)
From Coq Require Import Reals Lra Psatz.
From Coquelicot Require Import Coquelicot.
From Verif Require Import Base Mat RInst RMat.
From Coq Require Import Arith.
Local Open Scope R_scope.

Definition dot (m : nat) (f g : nat -> R) : R := sumN m (fun i => f i * g i).
Lemma dot_nonneg m f : 0 <= dot m f f.
Proof. apply sumN_nonneg. intros. nra. Qed.
Lemma dot_sym m f g : dot m f g = dot m g f.
Proof. apply sumN_ext. intros. ring. Qed.
Lemma dot_lin m (a b : R) f g h : dot m f (fun i => a * g i + b * h i) = a * dot m f g + b * dot m f h.
Proof. unfold dot. rewrite <- !sumN_scal, <- sumN_plus. apply sumN_ext. intros. ring. Qed.
Lemma dot_ext m f f' g g' : (forall i, (i < m)%nat -> f i = f' i) -> (forall i, (i < m)%nat -> g i = g' i) -> dot m f g = dot m f' g'.
Proof. intros A B. apply sumN_ext. intros i Hi. now rewrite A, B. Qed.
(** |f + s g|^2 *)
Lemma dot_sq m (s : R) f g : dot m (fun i => f i + s * g i) (fun i => f i + s * g i) = dot m f f + 2 * s * dot m f g + s * s * dot m g g.
Proof.
  transitivity (sumN m (fun i => f i * f i + (2 * s) * (f i * g i) + (s * s) * (g i * g i))); [apply sumN_ext; intros; ring|].
  rewrite !sumN_plus, !sumN_scal. reflexivity.
Qed.
Lemma cauchy_schwarz m f g : dot m f g * dot m f g <= dot m f f * dot m g g.
Proof.
  pose proof (dot_nonneg m f) as Hf. pose proof (dot_nonneg m g) as Hg. destruct (Req_dec (dot m g g) 0) as [E|E].
  - assert (Z : forall i, (i < m)%nat -> g i = 0). { intros i Hi. assert (g i * g i = 0) by (apply (sumN_nonneg_0 m (fun i => g i * g i)); [intros; nra|exact E|assumption]). nra. }
    assert (dot m f g = 0) as -> by (apply sumN_zero; intros i Hi; rewrite Z by assumption; ring). rewrite E. lra.
  - pose proof (dot_nonneg m (fun i => f i + (- dot m f g / dot m g g) * g i)) as P. rewrite dot_sq in P.
    assert (0 < dot m g g) by lra. apply (Rmult_le_compat_r (dot m g g)) in P; [|lra]. field_simplify in P; [|lra]. nra.
Qed.

Section LS.
Variables (N m : nat) (X : nat -> nat -> R).
Hypothesis HN : (1 <= N)%nat.
Definition ap (w : nat -> R) (r : nat) : R := dot m (X r) w.
(** X^T u / N *)
Definition adj (u : nat -> R) (i : nat) : R := sumN N (fun r => X r i * u r) / INR N.
(** mean squared norm of the samples *)
Definition S2 : R := sumN N (fun r => dot m (X r) (X r)) / INR N.
(** |X e|^2 / N *)
Definition Qf (e : nat -> R) : R := dot N (ap e) (ap e) / INR N.
Lemma Npos : 0 < INR N. Proof. now apply lt_0_INR. Qed.
Lemma S2_nonneg : 0 <= S2.
Proof. unfold S2. apply Rmult_le_pos; [apply sumN_nonneg; intros; apply dot_nonneg|]. apply Rlt_le, Rinv_0_lt_compat, Npos. Qed.
Lemma Qf_nonneg e : 0 <= Qf e.
Proof. unfold Qf. apply Rmult_le_pos; [apply dot_nonneg|]. apply Rlt_le, Rinv_0_lt_compat, Npos. Qed.
Lemma adj_dot e u : dot m e (adj u) = dot N (ap e) u / INR N.
Proof.
  unfold dot at 1, adj. transitivity (sumN m (fun i => sumN N (fun r => X r i * e i * u r)) / INR N).
  - unfold Rdiv. rewrite <- sumN_scal_r. apply sumN_ext. intros i Hi. rewrite <- Rmult_assoc, <- sumN_scal. f_equal. apply sumN_ext. intros. ring.
  - f_equal. rewrite sumN_swap. apply sumN_ext. intros r Hr. unfold ap, dot. rewrite <- sumN_scal_r. apply sumN_ext. intros. ring.
Qed.
Lemma Q_dot e : dot m e (adj (ap e)) = Qf e.
Proof. apply adj_dot. Qed.
(** |X^T u / N|^2 <= S2 * |u|^2 / N *)
Lemma adj_le u : dot m (adj u) (adj u) <= S2 * (dot N u u / INR N).
Proof.
  pose proof Npos as HNp.
  assert (E : S2 * (dot N u u / INR N) = sumN m (fun i => dot N (fun r => X r i) (fun r => X r i) * dot N u u / (INR N * INR N))).
  { unfold S2. unfold dot at 1. rewrite sumN_swap. transitivity (sumN m (fun i => sumN N (fun r => X r i * X r i)) * (dot N u u / (INR N * INR N))); [field; lra|].
    rewrite <- sumN_scal_r. apply sumN_ext. intros i Hi. unfold dot at 2. field. lra. }
  rewrite E. apply sumN_le. intros i Hi. unfold adj. pose proof (cauchy_schwarz N (fun r => X r i) u) as CS. fold (dot N (fun r => X r i) u).
  replace (dot N (fun r => X r i) u / INR N * (dot N (fun r => X r i) u / INR N)) with (dot N (fun r => X r i) u * dot N (fun r => X r i) u / (INR N * INR N)) by (field; lra).
  apply Rmult_le_compat_r; [|exact CS]. apply Rlt_le, Rinv_0_lt_compat. nra.
Qed.
Lemma Q_le e : Qf e <= S2 * dot m e e.
Proof.
  pose proof Npos as HNp. unfold Qf, S2. replace (sumN N (fun r => dot m (X r) (X r)) / INR N * dot m e e) with (sumN N (fun r => dot m (X r) (X r)) * dot m e e / INR N) by (field; lra).
  apply Rmult_le_compat_r; [apply Rlt_le, Rinv_0_lt_compat; lra|]. rewrite <- sumN_scal_r. apply sumN_le. intros r Hr. apply cauchy_schwarz.
Qed.

Variable lam : R.
Hypothesis Hlam : 0 <= lam.
(** smoothness constant *)
Definition Lip : R := S2 + lam.
(** A e = X^T X e / N + lam e *)
Definition A (e : nat -> R) (i : nat) : R := adj (ap e) i + lam * e i.
Definition QA (e : nat -> R) : R := Qf e + lam * dot m e e.
Lemma QA_dot e : dot m e (A e) = QA e.
Proof. unfold A, QA. rewrite <- Q_dot. transitivity (dot m e (fun i => 1 * adj (ap e) i + lam * e i)); [apply dot_ext; intros; ring|]. rewrite dot_lin. ring. Qed.
Lemma A_le e : dot m (A e) (A e) <= Lip * QA e.
Proof.
  unfold A. rewrite dot_sq. rewrite (dot_sym m (adj (ap e)) e), Q_dot. pose proof (adj_le (ap e)) as H1. fold (Qf e) in H1. pose proof (Q_le e) as H2. pose proof (Qf_nonneg e). pose proof S2_nonneg. pose proof (dot_nonneg m e).
  unfold Lip, QA. assert (lam * Qf e <= lam * (S2 * dot m e e)) by (apply Rmult_le_compat_l; assumption). nra.
Qed.
Lemma QA_le e : QA e <= Lip * dot m e e.
Proof. unfold QA, Lip. pose proof (Q_le e). nra. Qed.
Lemma QA_ge e : lam * dot m e e <= QA e.
Proof. unfold QA. pose proof (Qf_nonneg e). lra. Qed.
(** the error after one gradient step *)
Lemma contraction eta e : 0 <= eta -> eta * Lip <= 2 ->
  dot m (fun i => e i - eta * A e i) (fun i => e i - eta * A e i) <= (1 - eta * lam * (2 - eta * Lip)) * dot m e e.
Proof.
  intros H1 H2. rewrite (dot_ext m _ (fun i => e i + - eta * A e i) _ (fun i => e i + - eta * A e i)) by (intros; ring). rewrite dot_sq, QA_dot.
  pose proof (A_le e) as HA. pose proof (QA_ge e) as HQ. pose proof (dot_nonneg m e). 
  assert (eta * eta * dot m (A e) (A e) <= eta * eta * (Lip * QA e)) by (apply Rmult_le_compat_l; [nra|assumption]).
  assert (eta * (2 - eta * Lip) * (lam * dot m e e) <= eta * (2 - eta * Lip) * QA e) by (apply Rmult_le_compat_l; [nra|assumption]). nra.
Qed.

(** the objective of one output column *)
Variable y : nat -> R.
Definition F (w : nat -> R) : R := dot N (fun r => ap w r - y r) (fun r => ap w r - y r) / INR N / 2 + lam / 2 * dot m w w.
Definition gradF (w : nat -> R) (i : nat) : R := adj (fun r => ap w r - y r) i + lam * w i.
Lemma ap_lin s w g r : ap (fun i => w i + s * g i) r = ap w r + s * ap g r.
Proof. unfold ap. rewrite (dot_ext m _ (X r) _ (fun i => 1 * w i + s * g i)) by (intros; ring). rewrite dot_lin. ring. Qed.
Lemma F_step s w g : F (fun i => w i + s * g i) = F w + s * dot m g (gradF w) + s * s / 2 * QA g.
Proof.
  pose proof Npos. unfold F, gradF, QA.
  rewrite (dot_ext N _ (fun r => (ap w r - y r) + s * ap g r) _ (fun r => (ap w r - y r) + s * ap g r)) by (intros; rewrite ap_lin; ring).
  rewrite !dot_sq. rewrite (dot_ext m g g (fun i => adj (fun r => ap w r - y r) i + lam * w i) (fun i => 1 * adj (fun r => ap w r - y r) i + lam * w i)) by (intros; ring). rewrite dot_lin, adj_dot, (dot_sym N (ap g) (fun r => ap w r - y r)). unfold Qf. rewrite (dot_sym m g w). field. lra.
Qed.
Lemma F_nonneg w : 0 <= F w.
Proof.
  unfold F. pose proof Npos. pose proof (dot_nonneg m w). pose proof (dot_nonneg N (fun r => ap w r - y r)) as P.
  assert (0 <= dot N (fun r => ap w r - y r) (fun r => ap w r - y r) / INR N) by (apply Rmult_le_pos; [exact P|apply Rlt_le, Rinv_0_lt_compat; assumption]). nra.
Qed.
Lemma F_ext w w' : (forall i, (i < m)%nat -> w i = w' i) -> F w = F w'.
Proof.
  intros E. unfold F. rewrite (dot_ext m w w' w w') by assumption. f_equal. f_equal. f_equal. apply dot_ext; intros r Hr; f_equal; apply dot_ext; auto.
Qed.
Lemma gradF_ext w w' i : (forall i, (i < m)%nat -> w i = w' i) -> (i < m)%nat -> gradF w i = gradF w' i.
Proof.
  intros E Hi. unfold gradF, adj. rewrite E by assumption. f_equal. f_equal. apply sumN_ext. intros r Hr. f_equal. f_equal. apply dot_ext; auto.
Qed.
Lemma descent eta w : 0 <= eta -> F (fun i => w i - eta * gradF w i) <= F w - eta * (1 - eta * Lip / 2) * dot m (gradF w) (gradF w).
Proof.
  intros He. rewrite (F_ext _ (fun i => w i + - eta * gradF w i)) by (intros; ring).
  rewrite F_step. pose proof (QA_le (gradF w)). pose proof (dot_nonneg m (gradF w)). assert (eta * eta / 2 * QA (gradF w) <= eta * eta / 2 * (Lip * dot m (gradF w) (gradF w))) by (apply Rmult_le_compat_l; [nra|assumption]). nra.
Qed.
Lemma gradF_diff w v i : gradF w i - gradF v i = A (fun k => w k - v k) i.
Proof.
  unfold gradF, A, adj. pose proof Npos. replace (sumN N (fun r => X r i * ap (fun k => w k - v k) r)) with (sumN N (fun r => X r i * (ap w r - y r)) - sumN N (fun r => X r i * (ap v r - y r))); [field; lra|].
  rewrite <- sumN_minus. apply sumN_ext. intros r Hr. replace (ap (fun k => w k - v k) r) with (ap w r - ap v r); [ring|].
  unfold ap. rewrite (dot_ext m _ (X r) (fun k => w k - v k) (fun k => 1 * w k + -1 * v k)) by (intros; ring). rewrite dot_lin. ring.
Qed.

(** two runs *)
Lemma contraction2 eta w v : 0 <= eta -> eta * Lip <= 2 ->
  let d := fun i => (w i - eta * gradF w i) - (v i - eta * gradF v i) in
  dot m d d <= (1 - eta * lam * (2 - eta * Lip)) * dot m (fun i => w i - v i) (fun i => w i - v i).
Proof.
  intros H1 H2 d. pose proof (contraction eta (fun i => w i - v i) H1 H2) as C. cbn beta in C.
  rewrite (dot_ext m d (fun i => w i - v i - eta * A (fun k => w k - v k) i) d (fun i => w i - v i - eta * A (fun k => w k - v k) i)); [exact C| |];
    intros i Hi; unfold d; rewrite <- gradF_diff; ring.
Qed.
(** a stationary point minimises F *)
Lemma stationary_min w v : (forall i, (i < m)%nat -> gradF w i = 0) -> F w <= F v.
Proof.
  intros Z. rewrite (F_ext v (fun i => w i + 1 * (v i - w i))) by (intros; ring). rewrite F_step.
  assert (dot m (fun i => v i - w i) (gradF w) = 0) as -> by (apply sumN_zero; intros i Hi; rewrite Z by assumption; ring).
  pose proof (QA_ge (fun i => v i - w i)). pose proof (dot_nonneg m (fun i => v i - w i)). nra.
Qed.
Lemma min_unique w v : 0 < lam -> (forall i, (i < m)%nat -> gradF w i = 0) -> F v <= F w -> forall i, (i < m)%nat -> v i = w i.
Proof.
  intros Hl Z Hv i Hi. rewrite (F_ext v (fun i => w i + 1 * (v i - w i))) in Hv by (intros; ring). rewrite F_step in Hv.
  assert (E : dot m (fun i => v i - w i) (gradF w) = 0) by (apply sumN_zero; intros k Hk; rewrite Z by assumption; ring). rewrite E in Hv.
  pose proof (QA_ge (fun i => v i - w i)). pose proof (dot_nonneg m (fun i => v i - w i)).
  assert (Zd : dot m (fun i => v i - w i) (fun i => v i - w i) = 0) by nra.
  assert ((v i - w i) * (v i - w i) = 0) by (apply (sumN_nonneg_0 m (fun i => (v i - w i) * (v i - w i))); [intros; apply Rle_0_sqr|exact Zd|assumption]). apply Rmult_integral in H1. lra.
Qed.

(** gradient descent converges *)
Section Limit.
Variable eta : R.
Hypothesis He : 0 < eta.
Hypothesis HL : eta * Lip < 2.
Hypothesis Hl0 : 0 < lam.
Definition q : R := 1 - eta * lam * (2 - eta * Lip).
Lemma q_range : 0 <= q < 1.
Proof.
  unfold q. pose proof S2_nonneg. assert (lam <= Lip) by (unfold Lip; lra). split.
  - assert (eta * lam * (2 - eta * Lip) <= eta * Lip * (2 - eta * Lip)). { apply Rmult_le_compat_r; [lra|]. apply Rmult_le_compat_l; lra. }
    pose proof (Rle_0_sqr (1 - eta * Lip)) as P. unfold Rsqr in P. lra.
  - assert (0 < eta * lam) by (now apply Rmult_lt_0_compat). assert (0 < eta * lam * (2 - eta * Lip)) by (apply Rmult_lt_0_compat; lra). lra.
Qed.
Fixpoint gd (w : nat -> R) (k : nat) : nat -> R :=
  match k with O => w | S k' => fun i => gd w k' i - eta * gradF (gd w k') i end.
Lemma gd_contraction w v k : dot m (fun i => gd w k i - gd v k i) (fun i => gd w k i - gd v k i) <= q ^ k * dot m (fun i => w i - v i) (fun i => w i - v i).
Proof.
  induction k as [|k IH]; [cbn; lra|]. cbn [gd pow]. pose proof (contraction2 eta (gd w k) (gd v k) ltac:(lra) ltac:(lra)) as C. cbn beta zeta in C.
  fold q in C. eapply Rle_trans; [exact C|]. rewrite Rmult_assoc. apply Rmult_le_compat_l; [apply q_range|exact IH].
Qed.
Lemma gd_tail w k : forall i, gd w (S k) i = gd (gd w 1) k i.
Proof.
  assert (E : gd w (S k) = gd (gd w 1) k); [|intros; now rewrite E]. induction k as [|k IH]; [reflexivity|]. change (gd w (S (S k))) with (fun i => gd w (S k) i - eta * gradF (gd w (S k)) i). rewrite IH. reflexivity.
Qed.
Lemma dot_ge m' f i : (i < m')%nat -> f i * f i <= dot m' f f.
Proof.
  intros Hi. unfold dot. pose proof (sumN_single m' (fun k => if Nat.eqb k i then f i * f i else 0) i Hi) as E. cbn beta in E. rewrite Nat.eqb_refl in E. rewrite <- E.
  - apply sumN_le. intros k Hk. destruct (Nat.eqb_spec k i); [subst; lra|apply Rle_0_sqr].
  - intros k Hk Hne. destruct (Nat.eqb_spec k i); [congruence|reflexivity].
Qed.
Lemma gd_cauchy w : exists c, 0 <= c /\ forall k i, (i < m)%nat -> Rabs (gd w (S k) i - gd w k i) <= c * sqrt q ^ k.
Proof.
  set (d := dot m (fun i => gd w 1 i - w i) (fun i => gd w 1 i - w i)). exists (sqrt d). split; [apply sqrt_pos|]. intros k i Hi.
  pose proof (dot_nonneg m (fun i => gd w 1 i - w i)) as Hd. fold d in Hd. destruct q_range as [Q0 Q1].
  assert (P : (gd w (S k) i - gd w k i) * (gd w (S k) i - gd w k i) <= q ^ k * d).
  { pose proof (gd_contraction (gd w 1) w k) as C. fold d in C. eapply Rle_trans; [|exact C]. rewrite gd_tail. apply (dot_ge m (fun i => gd (gd w 1) k i - gd w k i) i Hi). }
  apply Rsqr_incr_0_var; [|apply Rmult_le_pos; [apply sqrt_pos|apply pow_le, sqrt_pos]]. rewrite <- Rsqr_abs. unfold Rsqr.
  replace (sqrt d * sqrt q ^ k * (sqrt d * sqrt q ^ k)) with ((sqrt d * sqrt d) * ((sqrt q * sqrt q) ^ k)) by (rewrite Rpow_mult_distr; ring).
  rewrite !sqrt_sqrt by assumption. lra.
Qed.
Lemma gd_lim w i : (i < m)%nat -> exists l : R, is_lim_seq (fun k => gd w k i) l.
Proof.
  intros Hi. destruct (gd_cauchy w) as (c & Hc & B). destruct q_range as [Q0 Q1].
  assert (Qs : Rabs (sqrt q) < 1). { rewrite Rabs_right by (apply Rle_ge, sqrt_pos). rewrite <- sqrt_1. apply sqrt_lt_1; lra. }
  assert (E : ex_series (fun k => gd w (S k) i - gd w k i)).
  { apply (ex_series_le (K := R_AbsRing) (V := R_CompleteNormedModule) _ (fun k => c * sqrt q ^ k)); [intros k; apply B, Hi|].
    apply (ex_series_scal c (fun k => sqrt q ^ k)). exists (/ (1 - sqrt q)). now apply is_series_geom. }
  destruct E as [l E]. exists (l + gd w 0 i). apply is_lim_seq_incr_1.
  apply (is_lim_seq_ext (fun k => sum_n (fun k => gd w (S k) i - gd w k i) k + gd w 0 i)).
  - intros k. induction k as [|k IH]; [rewrite sum_O; cbn; ring|]. rewrite sum_Sn. unfold plus. cbn [AbelianGroup.plus]. 
    match goal with |- ?a = ?b => change (sum_n (fun k => gd w (S k) i - gd w k i) k + (gd w (S (S k)) i - gd w (S k) i) + gd w 0 i = gd w (S (S k)) i) end. lra.
  - apply is_lim_seq_plus'; [exact E|apply is_lim_seq_const].
Qed.
Lemma lim_sumN n (f : nat -> nat -> R) (l : nat -> R) : (forall i, (i < n)%nat -> is_lim_seq (fun k => f k i) (l i)) -> is_lim_seq (fun k => sumN n (f k)) (sumN n l).
Proof.
  induction n as [|n IH]; intros H; [apply (is_lim_seq_ext (fun _ => 0)); [reflexivity|apply is_lim_seq_const]|].
  apply (is_lim_seq_ext (fun k => sumN n (f k) + f k n)); [intros; now rewrite sumN_last|]. rewrite sumN_last. apply is_lim_seq_plus'; [apply IH; intros; apply H; lia|apply H; lia].
Qed.
Lemma lim_grad (ws : nat -> nat -> R) (v : nat -> R) i : (forall i, (i < m)%nat -> is_lim_seq (fun k => ws k i) (v i)) -> (i < m)%nat -> is_lim_seq (fun k => gradF (ws k) i) (gradF v i).
Proof.
  intros H Hi. unfold gradF, adj, Rdiv. apply is_lim_seq_plus'.
  - apply (is_lim_seq_scal_r _ (/ INR N) (sumN N (fun r => X r i * (ap v r - y r)))). apply (lim_sumN N (fun k r => X r i * (ap (ws k) r - y r))). intros r Hr.
    apply (is_lim_seq_scal_l _ (X r i) (ap v r - y r)). apply (is_lim_seq_minus' _ _ (ap v r) (y r)); [|apply is_lim_seq_const].
    unfold ap, dot. apply (lim_sumN m (fun k j => X r j * ws k j)). intros j Hj. apply (is_lim_seq_scal_l _ (X r j) (v j)). now apply H.
  - apply (is_lim_seq_scal_l _ lam (v i)). now apply H.
Qed.
(** the unique stationary point *)
Lemma stationary_exists : exists v, forall i, (i < m)%nat -> gradF v i = 0.
Proof.
  assert (C : forall m', (m' <= m)%nat -> exists v : nat -> R, forall i, (i < m')%nat -> is_lim_seq (fun k => gd (fun _ => 0) k i) (Finite (v i))).
  { induction m' as [|m' IH]; intros Hm; [exists (fun _ => 0); intros; lia|]. destruct (IH ltac:(lia)) as [v Hv]. destruct (gd_lim (fun _ => 0) m' ltac:(lia)) as [u Hu].
    exists (fun i => if Nat.eqb i m' then u else v i). intros i Hi. destruct (Nat.eqb_spec i m'); [now subst|apply Hv; lia]. }
  destruct (C m (le_n _)) as [v Hv]. exists v. intros i Hi.
  pose proof (lim_grad (gd (fun _ => 0)) v i Hv Hi) as L1. pose proof (Hv i Hi) as L2. apply is_lim_seq_incr_1 in L2. cbn [gd] in L2.
  assert (L3 : is_lim_seq (fun k => gd (fun _ => 0) k i - eta * gradF (gd (fun _ => 0) k) i) (v i - eta * gradF v i)).
  { apply is_lim_seq_minus'; [now apply Hv|]. apply (is_lim_seq_scal_l _ eta (gradF v i) L1). }
  apply is_lim_seq_unique in L2. apply is_lim_seq_unique in L3. rewrite L2 in L3. injection L3 as L3. 
  assert (eta * gradF v i = 0) by lra. apply Rmult_integral in H. lra.
Qed.
End Limit.
End LS.

(** Convex.v - gradient descent on a convex smooth loss of a linear map (real analysis used by P_Convex.v). *)
From Coq Require Import Reals Lra Psatz Arith Lia.
From Coquelicot Require Import Coquelicot.
From Verif Require Import Base RMat LinReg.
Local Open Scope R_scope.

(** ** Second-order bounds along a line *)
Lemma le_of_derive f df : (forall t, is_derive f t (df t)) -> (forall t, 0 <= t -> df t <= 0) -> forall t, 0 <= t -> f t <= f 0.
Proof.
  intros D N t Ht. destruct (MVT_gen f 0 t df) as (c & Hc & E).
  - intros; apply D.
  - intros s _. apply derivable_continuous_pt. exists (df s). apply is_derive_Reals. apply D.
  - rewrite Rmin_left in Hc by lra. specialize (N c (proj1 Hc)). nra.
Qed.
Lemma taylor2 f g h B : (forall t, is_derive f t (g t)) -> (forall t, is_derive g t (h t)) -> (forall t, h t <= B) -> f 1 <= f 0 + g 0 + B / 2.
Proof.
  intros Df Dg HB.
  assert (V : forall t, 0 <= t -> g t - g 0 - B * t <= 0).
  { intros t Ht. pose proof (le_of_derive (fun t => g t - g 0 - B * t) (fun t => h t - B)) as L. cbn beta in L. specialize (L ltac:(intros s; auto_derive; [eexists; apply Dg|replace (Derive (fun x : R => g x) s) with (h s) by (symmetry; apply is_derive_unique, Dg); ring]) ltac:(intros s _; specialize (HB s); lra) t Ht). lra. }
  pose proof (le_of_derive (fun t => f t - f 0 - t * g 0 - B / 2 * (t * t)) (fun t => g t - g 0 - B * t)) as L. cbn beta in L.
  specialize (L ltac:(intros s; auto_derive; [eexists; apply Df|replace (Derive (fun x : R => f x) s) with (g s) by (symmetry; apply is_derive_unique, Df); field]) V 1 ltac:(lra)). lra.
Qed.
Lemma taylor2_low f g h : (forall t, is_derive f t (g t)) -> (forall t, is_derive g t (h t)) -> (forall t, 0 <= h t) -> f 0 + g 0 <= f 1.
Proof.
  intros Df Dg HB. pose proof (taylor2 (fun t => - f t) (fun t => - g t) (fun t => - h t) 0) as T. cbn beta in T.
  specialize (T ltac:(intros t; apply (is_derive_opp f), Df) ltac:(intros t; apply (is_derive_opp g), Dg) ltac:(intros t; specialize (HB t); lra)). lra.
Qed.

(** ** Row losses *)
(** [phi] is convex with gradient [gr] and curvature at most [beta], on the first c coordinates. *)
Definition smooth_convex (c : nat) (beta : R) (phi : (nat -> R) -> R) (gr : (nat -> R) -> nat -> R) : Prop :=
  forall z z', phi z + sumN c (fun j => gr z j * (z' j - z j)) <= phi z' <= phi z + sumN c (fun j => gr z j * (z' j - z j)) + beta / 2 * sumN c (fun j => (z' j - z j) * (z' j - z j)).
Lemma smooth_sum c beta (f : nat -> R -> R) (g : nat -> R -> R) :
  (forall j, (j < c)%nat -> forall u v, f j u + g j u * (v - u) <= f j v <= f j u + g j u * (v - u) + beta / 2 * ((v - u) * (v - u))) ->
  smooth_convex c beta (fun z => sumN c (fun j => f j (z j))) (fun z j => g j (z j)).
Proof.
  intros A z z'. rewrite <- sumN_scal, <- !sumN_plus. split; apply sumN_le; intros j Hj; apply (A j Hj).
Qed.
(** Half the squared distance to y. *)
Lemma quad_smooth c (y : nat -> R) : smooth_convex c 1 (fun z => sumN c (fun j => (y j - z j) * (y j - z j) / 2)) (fun z j => z j - y j).
Proof. apply (smooth_sum c 1 (fun j u => (y j - u) * (y j - u) / 2) (fun j u => u - y j)). intros j _ u v. cbn beta. pose proof (Rle_0_sqr (v - u)) as P. unfold Rsqr in P. split; lra. Qed.
(** The logistic loss. *)
Definition sig (z : R) : R := 1 / (1 + exp (- z)).
Lemma sig_range z : 0 < sig z < 1.
Proof. unfold sig. pose proof (exp_pos (- z)). split; [apply Rdiv_lt_0_compat; lra|]. apply (Rmult_lt_reg_r (1 + exp (- z))); [lra|]. unfold Rdiv. rewrite Rmult_assoc, Rinv_l by lra. lra. Qed.
Lemma sig_derive z : is_derive sig z (sig z * (1 - sig z)).
Proof. unfold sig. pose proof (exp_pos (- z)). auto_derive; [lra|]. field. lra. Qed.
Lemma ln_sig z : - ln (sig z) = ln (1 + exp z) - z.
Proof.
  pose proof (exp_pos z). unfold sig. replace (1 / (1 + exp (- z))) with (/ ((1 + exp z) * exp (- z))).
  - rewrite ln_Rinv by (apply Rmult_lt_0_compat; [lra|apply exp_pos]). rewrite ln_mult by (lra || apply exp_pos). rewrite ln_exp. lra.
  - rewrite exp_Ropp. field. split; lra.
Qed.
Lemma ln_one_sig z : - ln (1 - sig z) = ln (1 + exp z).
Proof.
  pose proof (exp_pos z). unfold sig. replace (1 - 1 / (1 + exp (- z))) with (/ (1 + exp z)).
  - rewrite ln_Rinv by lra. lra.
  - rewrite exp_Ropp. field. split; lra.
Qed.
Lemma logistic_1d y u v : let f z := - (y * ln (sig z) + (1 - y) * ln (1 - sig z)) in
  f u + (sig u - y) * (v - u) <= f v <= f u + (sig u - y) * (v - u) + 1 / 4 / 2 * ((v - u) * (v - u)).
Proof.
  intros f. assert (Ef : forall z, f z = ln (1 + exp z) - y * z). { intros z. unfold f. pose proof (ln_sig z). pose proof (ln_one_sig z). replace (- (y * ln (sig z) + (1 - y) * ln (1 - sig z))) with (y * - ln (sig z) + (1 - y) * - ln (1 - sig z)) by ring. rewrite H, H0. ring. }
  rewrite !Ef. set (k := fun t => ln (1 + exp (u + t * (v - u))) - y * (u + t * (v - u))).
  assert (K0 : k 0 = ln (1 + exp u) - y * u) by (unfold k; now rewrite Rmult_0_l, Rplus_0_r). assert (K1 : k 1 = ln (1 + exp v) - y * v) by (unfold k; now replace (u + 1 * (v - u)) with v by ring).
  rewrite <- K0, <- K1. set (d := v - u) in *.
  assert (D1 : forall t, is_derive k t ((sig (u + t * d) - y) * d)).
  { intros t. unfold k. pose proof (exp_pos (u + t * d)). auto_derive; [lra|]. unfold sig. rewrite exp_Ropp. field. lra. }
  assert (D2 : forall t, is_derive (fun t => (sig (u + t * d) - y) * d) t (sig (u + t * d) * (1 - sig (u + t * d)) * (d * d))).
  { intros t. auto_derive; [eexists; apply sig_derive|]. replace (Derive (fun x : R => sig x) (u + t * d)) with (sig (u + t * d) * (1 - sig (u + t * d))) by (symmetry; apply is_derive_unique, sig_derive). ring. }
  assert (Q : (sig u - y) * d = (fun t => (sig (u + t * d) - y) * d) 0) by (cbn beta; now rewrite Rmult_0_l, Rplus_0_r).
  rewrite Q. split.
  - apply (taylor2_low k _ _ D1 D2). intros t. pose proof (sig_range (u + t * d)). assert (0 <= d * d) by nra. apply Rmult_le_pos; [nra|assumption].
  - pose proof (taylor2 k _ _ (1 / 4 * (d * d)) D1 D2) as T. cbn beta in *. eapply Rle_trans; [apply T|]; [|lra]. intros t. pose proof (sig_range (u + t * d)). assert (0 <= d * d) by nra. assert (sig (u + t * d) * (1 - sig (u + t * d)) <= 1 / 4) by (pose proof (Rle_0_sqr (sig (u + t * d) - 1 / 2)) as P; unfold Rsqr in P; lra). nra.
Qed.
Lemma logistic_smooth c (y : nat -> R) : smooth_convex c (1 / 4) (fun z => sumN c (fun j => - (y j * ln (sig (z j)) + (1 - y j) * ln (1 - sig (z j))))) (fun z j => sig (z j) - y j).
Proof. apply (smooth_sum c (1 / 4) (fun j u => - (y j * ln (sig u) + (1 - y j) * ln (1 - sig u))) (fun j u => sig u - y j)). intros j _ u v. apply logistic_1d. Qed.
(** The softmax loss; the labels sum to 1. *)
Definition smx (c : nat) (z : nat -> R) (j : nat) : R := exp (z j) * (1 / sumN c (fun k => exp (z k))).
Lemma term_le c f j : (j < c)%nat -> (forall i, 0 <= f i) -> f j <= sumN c f.
Proof.
  intros Hj P. replace (f j) with (sumN c (fun k => if (k =? j)%nat then f k else 0)).
  - apply sumN_le. intros i _. destruct (i =? j)%nat; [apply Rle_refl|apply P].
  - rewrite (sumN_single c _ j Hj); [now rewrite Nat.eqb_refl|]. intros i _ Hi. destruct (Nat.eqb_spec i j); [contradiction|reflexivity].
Qed.
Lemma sumexp_pos c z : (1 <= c)%nat -> 0 < sumN c (fun k => exp (z k)).
Proof. intros Hc. apply sumN_pos; [exact Hc|]. intros. apply exp_pos. Qed.
Lemma smx_loss c (y z : nat -> R) : (1 <= c)%nat -> sumN c y = 1 -> sumN c (fun j => - (y j * ln (smx c z j))) = ln (sumN c (fun k => exp (z k))) - sumN c (fun j => y j * z j).
Proof.
  intros Hc Hy. pose proof (sumexp_pos c z Hc) as P. rewrite <- (Rmult_1_r (ln _)), <- Hy, <- sumN_scal, <- sumN_minus. apply sumN_ext. intros j _. unfold smx.
  rewrite ln_mult by (apply exp_pos || apply Rdiv_lt_0_compat; lra). rewrite ln_exp. unfold Rdiv. rewrite Rmult_1_l, ln_Rinv by exact P. ring.
Qed.
Lemma smx_smooth c (y : nat -> R) : (1 <= c)%nat -> sumN c y = 1 -> smooth_convex c 1 (fun z => sumN c (fun j => - (y j * ln (smx c z j)))) (fun z j => smx c z j - y j).
Proof.
  intros Hc Hy z z'. rewrite !smx_loss by assumption. set (d := fun j => z' j - z j).
  set (e := fun t j => exp (z j + t * d j)). set (S0 := fun t => sumN c (e t)). set (S1 := fun t => sumN c (fun j => d j * e t j)). set (S2 := fun t => sumN c (fun j => d j * d j * e t j)).
  assert (P0 : forall t, 0 < S0 t) by (intros t; apply sumN_pos; [exact Hc|intros; apply exp_pos]).
  assert (E0 : forall t, is_derive S0 t (S1 t)). { intros t. apply (d_sumN c e). intros i _. unfold e. auto_derive; [exact I|]. ring. }
  assert (E1 : forall t, is_derive S1 t (S2 t)). { intros t. apply (d_sumN c (fun t j => d j * e t j)). intros i _. unfold e. auto_derive; [exact I|]. ring. }
  set (f := fun t => ln (S0 t)). set (g := fun t => S1 t / S0 t). set (h := fun t => (S2 t * S0 t - S1 t * S1 t) / (S0 t * S0 t)).
  assert (Df : forall t, is_derive f t (g t)). { intros t. unfold f, g. specialize (P0 t). auto_derive; [split; [eexists; apply E0|split; [exact P0|exact I]]|]. replace (Derive (fun x : R => S0 x) t) with (S1 t) by (symmetry; apply is_derive_unique, E0). field. lra. }
  assert (Dg : forall t, is_derive g t (h t)). { intros t. unfold g, h. specialize (P0 t). auto_derive; [split; [eexists; apply E1|split; [eexists; apply E0|split; [lra|exact I]]]|]. replace (Derive (fun x : R => S0 x) t) with (S1 t) by (symmetry; apply is_derive_unique, E0). replace (Derive (fun x : R => S1 x) t) with (S2 t) by (symmetry; apply is_derive_unique, E1). field. lra. }
  assert (F0 : f 0 = ln (sumN c (fun k => exp (z k)))). { unfold f, S0, e. f_equal. apply sumN_ext. intros. now rewrite Rmult_0_l, Rplus_0_r. }
  assert (F1 : f 1 = ln (sumN c (fun k => exp (z' k)))). { unfold f, S0, e, d. f_equal. apply sumN_ext. intros. f_equal. ring. }
  assert (G0 : g 0 = sumN c (fun j => smx c z j * d j)).
  { unfold g, S1, S0, e, smx, Rdiv. rewrite <- sumN_scal_r. apply sumN_ext. intros j _. rewrite Rmult_0_l, Rplus_0_r. rewrite (sumN_ext c (fun j0 => exp (z j0 + 0 * d j0)) (fun k => exp (z k))) by (intros; now rewrite Rmult_0_l, Rplus_0_r). ring. }
  rewrite <- F0, <- F1. rewrite (sumN_ext c (fun j => (smx c z j - y j) * (z' j - z j)) (fun j => smx c z j * d j - (y j * z' j - y j * z j))) by (intros; unfold d; ring). rewrite !sumN_minus, <- G0.
  assert (LO : forall t, 0 <= h t).
  { intros t. unfold h. apply Rdiv_le_0_compat; [|specialize (P0 t); nra].
    pose proof (cauchy_schwarz c (fun j => d j * sqrt (e t j)) (fun j => sqrt (e t j))) as CS. unfold dot in CS.
    rewrite (sumN_ext c (fun i => d i * sqrt (e t i) * sqrt (e t i)) (fun j => d j * e t j)) in CS by (intros; rewrite Rmult_assoc, sqrt_sqrt; [reflexivity|left; apply exp_pos]).
    rewrite (sumN_ext c (fun i => d i * sqrt (e t i) * (d i * sqrt (e t i))) (fun j => d j * d j * e t j)) in CS by (intros; replace (d i * sqrt (e t i) * (d i * sqrt (e t i))) with (d i * d i * (sqrt (e t i) * sqrt (e t i))) by ring; rewrite sqrt_sqrt; [reflexivity|left; apply exp_pos]).
    rewrite (sumN_ext c (fun i => sqrt (e t i) * sqrt (e t i)) (e t)) in CS by (intros; apply sqrt_sqrt; left; apply exp_pos). fold (S0 t) (S1 t) (S2 t) in CS. lra. }
  assert (HI : forall t, h t <= sumN c (fun j => d j * d j)).
  { intros t. specialize (P0 t). assert (A : S2 t <= sumN c (fun j => d j * d j) * S0 t).
    { unfold S2. rewrite <- sumN_scal_r. apply sumN_le. intros j Hj. apply Rmult_le_compat_l; [nra|]. unfold S0.
      apply (term_le c (e t) j Hj). intros. left. apply exp_pos. }
    unfold h. apply (Rmult_le_reg_r (S0 t * S0 t)); [nra|]. unfold Rdiv. rewrite Rmult_assoc, Rinv_l by nra. nra. }
  split.
  - pose proof (taylor2_low f g h Df Dg LO). lra.
  - pose proof (taylor2 f g h _ Df Dg HI) as T. change (sumN c (fun j => (z' j - z j) * (z' j - z j))) with (sumN c (fun j => d j * d j)). lra.
Qed.

(** ** Gradient descent *)
Section GD.
Context (M m c : nat) (HM : (1 <= M)%nat) (X : nat -> nat -> R) (phi : nat -> (nat -> R) -> R) (gr : nat -> (nat -> R) -> nat -> R) (beta lam : R).
Context (Hb : 0 <= beta) (HS : forall r, (r < M)%nat -> smooth_convex c beta (phi r) (gr r)).
Definition ip (A B : nat -> nat -> R) : R := sumN m (fun i => sumN c (fun j => A i j * B i j)).
Definition ZZ (W : nat -> nat -> R) (r j : nat) : R := sumN m (fun i => X r i * W i j).
Definition FF (W : nat -> nat -> R) : R := sumN M (fun r => phi r (ZZ W r)) / INR M + lam / 2 * ip W W.
Definition GG (W : nat -> nat -> R) (i j : nat) : R := sumN M (fun r => X r i * gr r (ZZ W r) j) / INR M + lam * W i j.
Definition SX : R := sumN M (fun r => dot m (X r) (X r)) / INR M.
Definition LL : R := beta * SX + lam.
Definition diff (V W : nat -> nat -> R) i j := V i j - W i j.
Lemma ip_sym A B : ip A B = ip B A. Proof. unfold ip. do 2 (apply sumN_ext; intros). ring. Qed.
Lemma ip_lin A B C (a b : R) : ip A (fun i j => a * B i j + b * C i j) = a * ip A B + b * ip A C.
Proof. unfold ip. rewrite <- !sumN_scal, <- sumN_plus. apply sumN_ext. intros. rewrite <- !sumN_scal, <- sumN_plus. apply sumN_ext. intros. ring. Qed.
Lemma ip_ext A A' B B' : (forall i j, (i < m)%nat -> (j < c)%nat -> A i j = A' i j) -> (forall i j, (i < m)%nat -> (j < c)%nat -> B i j = B' i j) -> ip A B = ip A' B'.
Proof. intros E F. unfold ip. do 2 (apply sumN_ext; intros). now rewrite E, F. Qed.
Lemma ip_pos A : 0 <= ip A A. Proof. unfold ip. do 2 (apply sumN_nonneg; intros). nra. Qed.
Lemma Mpos : 0 < INR M. Proof. now apply lt_0_INR. Qed.
Lemma SX_pos : 0 <= SX.
Proof. unfold SX. apply Rdiv_le_0_compat; [|exact Mpos]. apply sumN_nonneg. intros. apply dot_nonneg. Qed.
Lemma Z_diff V W r j : ZZ V r j - ZZ W r j = ZZ (diff V W) r j.
Proof. unfold ZZ, diff. rewrite <- sumN_minus. apply sumN_ext. intros. ring. Qed.
Lemma Z_sq V W r : sumN c (fun j => (ZZ V r j - ZZ W r j) * (ZZ V r j - ZZ W r j)) <= dot m (X r) (X r) * ip (diff V W) (diff V W).
Proof.
  unfold ip. rewrite sumN_swap, <- sumN_scal. apply sumN_le. intros j _. rewrite !Z_diff. unfold ZZ.
  exact (cauchy_schwarz m (X r) (fun i => diff V W i j)).
Qed.
Lemma G_ip V W : ip (GG W) (diff V W) = sumN M (fun r => sumN c (fun j => gr r (ZZ W r) j * (ZZ V r j - ZZ W r j))) / INR M + lam * ip W (diff V W).
Proof.
  unfold ip, GG. rewrite <- sumN_scal.
  rewrite (sumN_ext m (fun i => sumN c (fun j => (sumN M (fun r => X r i * gr r (ZZ W r) j) / INR M + lam * W i j) * diff V W i j)) (fun i => sumN c (fun j => sumN M (fun r => X r i * gr r (ZZ W r) j / INR M * diff V W i j)) + lam * sumN c (fun j => W i j * diff V W i j))).
  - rewrite sumN_plus. f_equal. unfold Rdiv at 2. rewrite <- sumN_scal_r.
    rewrite (sumN_ext m _ (fun i => sumN M (fun r => sumN c (fun j => X r i * gr r (ZZ W r) j / INR M * diff V W i j)))) by (intros; apply sumN_swap). rewrite sumN_swap. apply sumN_ext. intros r _. rewrite sumN_swap, <- sumN_scal_r. apply sumN_ext. intros j _.
    rewrite Z_diff. change (ZZ (diff V W) r j) with (sumN m (fun i => X r i * diff V W i j)). rewrite <- sumN_scal, <- sumN_scal_r. apply sumN_ext. intros. unfold Rdiv. ring.
  - intros i _. rewrite <- sumN_scal, <- sumN_plus. apply sumN_ext. intros j _. rewrite Rmult_plus_distr_r. f_equal; [|ring]. unfold Rdiv. rewrite Rmult_assoc, <- sumN_scal_r. apply sumN_ext. intros. ring.
Qed.
Lemma ip_sq V W : ip V V = ip W W + 2 * ip W (diff V W) + ip (diff V W) (diff V W).
Proof.
  unfold ip, diff. rewrite <- sumN_scal, <- !sumN_plus. apply sumN_ext. intros. rewrite <- sumN_scal, <- !sumN_plus. apply sumN_ext. intros. ring.
Qed.
Lemma F_low V W : FF W + ip (GG W) (diff V W) + lam / 2 * ip (diff V W) (diff V W) <= FF V.
Proof.
  rewrite G_ip. unfold FF. rewrite (ip_sq V W). pose proof Mpos as P.
  assert (E : sumN M (fun r => phi r (ZZ W r)) + sumN M (fun r => sumN c (fun j => gr r (ZZ W r) j * (ZZ V r j - ZZ W r j))) <= sumN M (fun r => phi r (ZZ V r))).
  { rewrite <- sumN_plus. apply sumN_le. intros r Hr. apply (HS r Hr). }
  apply (Rmult_le_compat_r (/ INR M)) in E; [|left; now apply Rinv_0_lt_compat]. unfold Rdiv in *. lra.
Qed.
Lemma F_up V W : FF V <= FF W + ip (GG W) (diff V W) + LL / 2 * ip (diff V W) (diff V W).
Proof.
  rewrite G_ip. unfold FF, LL. rewrite (ip_sq V W). pose proof Mpos as P. set (I := ip (diff V W) (diff V W)).
  assert (E : sumN M (fun r => phi r (ZZ V r)) <= sumN M (fun r => phi r (ZZ W r)) + sumN M (fun r => sumN c (fun j => gr r (ZZ W r) j * (ZZ V r j - ZZ W r j))) + beta / 2 * I * sumN M (fun r => dot m (X r) (X r))).
  { rewrite <- sumN_scal, <- !sumN_plus. apply sumN_le. intros r Hr. eapply Rle_trans; [apply (HS r Hr)|]. apply Rplus_le_compat_l. pose proof (Z_sq V W r) as Q. fold I in Q. apply (Rmult_le_compat_l (beta / 2)) in Q; [|lra]. lra. }
  apply (Rmult_le_compat_r (/ INR M)) in E; [|left; now apply Rinv_0_lt_compat]. unfold SX, Rdiv in *. lra.
Qed.
Definition step (eta : R) (W : nat -> nat -> R) i j := W i j - eta * GG W i j.
Lemma ip_step eta W : ip (GG W) (diff (step eta W) W) = - eta * ip (GG W) (GG W).
Proof.
  rewrite (ip_ext (GG W) (GG W) (diff (step eta W) W) (fun i j => - eta * GG W i j + 0 * GG W i j)); [rewrite ip_lin; ring|reflexivity|]. intros. unfold diff, step. ring.
Qed.
Lemma ip_step2 eta W : ip (diff (step eta W) W) (diff (step eta W) W) = eta * eta * ip (GG W) (GG W).
Proof.
  unfold ip. rewrite <- sumN_scal. apply sumN_ext. intros. rewrite <- sumN_scal. apply sumN_ext. intros. unfold diff, step. ring.
Qed.
(** One step: how the distance to any competitor V changes. *)
Lemma step_key eta V W : 0 < eta -> eta * LL <= 1 ->
  2 * eta * (FF (step eta W) - FF V) + ip (diff (step eta W) V) (diff (step eta W) V) <= (1 - eta * lam) * ip (diff W V) (diff W V).
Proof.
  intros He HL. pose proof (F_low V W) as A. pose proof (F_up (step eta W) W) as B. rewrite ip_step, ip_step2 in B. pose proof (ip_pos (GG W)) as P.
  assert (E : ip (diff (step eta W) V) (diff (step eta W) V) = ip (diff W V) (diff W V) + 2 * eta * ip (GG W) (diff V W) + eta * eta * ip (GG W) (GG W)).
  { unfold ip. rewrite <- !sumN_scal, <- !sumN_plus. apply sumN_ext. intros. rewrite <- !sumN_scal, <- !sumN_plus. apply sumN_ext. intros. unfold diff, step. ring. }
  assert (E2 : ip (diff V W) (diff V W) = ip (diff W V) (diff W V)) by (unfold ip, diff; do 2 (apply sumN_ext; intros); ring). rewrite E2 in A. rewrite E.
  set (g := ip (GG W) (GG W)) in *. set (k := ip (GG W) (diff V W)) in *. set (q := ip (diff W V) (diff W V)) in *.
  assert (LL / 2 * (eta * eta * g) <= eta / 2 * g). { replace (LL / 2 * (eta * eta * g)) with (eta * LL * (eta / 2 * g)) by field. rewrite <- (Rmult_1_l (eta / 2 * g)) at 2. apply Rmult_le_compat_r; [|exact HL]. apply Rmult_le_pos; lra. }
  apply (Rmult_le_compat_l (2 * eta)) in A; [|lra]. assert (B' : FF (step eta W) <= FF W - eta / 2 * g) by lra. apply (Rmult_le_compat_l (2 * eta)) in B'; [|lra]. lra.
Qed.
(** The same for the value before the step, for objectives that are nowhere negative. *)
Lemma step_before eta V W : 0 < eta -> 0 < LL -> 0 <= lam -> (forall U, 0 <= FF U) ->
  2 * eta * ((1 - eta * LL) * FF W - FF V) + ip (diff (step eta W) V) (diff (step eta W) V) <= ip (diff W V) (diff W V).
Proof.
  intros He HL Hl HF. pose proof (F_low V W) as A. pose proof (F_up (step (/ LL) W) W) as B. rewrite ip_step, ip_step2 in B. pose proof (ip_pos (GG W)) as P. pose proof (ip_pos (diff V W)) as P2. specialize (HF (step (/ LL) W)).
  assert (E : ip (diff (step eta W) V) (diff (step eta W) V) = ip (diff W V) (diff W V) + 2 * eta * ip (GG W) (diff V W) + eta * eta * ip (GG W) (GG W)).
  { unfold ip. rewrite <- !sumN_scal, <- !sumN_plus. apply sumN_ext. intros. rewrite <- !sumN_scal, <- !sumN_plus. apply sumN_ext. intros. unfold diff, step. ring. }
  rewrite E. set (g := ip (GG W) (GG W)) in *. set (k := ip (GG W) (diff V W)) in *. set (q := ip (diff W V) (diff W V)) in *.
  replace (- / LL * g) with (- (g / LL)) in B by (unfold Rdiv; ring). replace (LL / 2 * (/ LL * / LL * g)) with (g / LL / 2) in B by (field; lra).
  assert (G : g <= 2 * LL * FF W). { assert (g / LL <= 2 * FF W) by lra. apply (Rmult_le_compat_l LL) in H; [|lra]. replace (LL * (g / LL)) with g in H by (field; lra). lra. }
  apply (Rmult_le_compat_l (eta * eta)) in G; [|nra]. assert (A' : k <= FF V - FF W). { assert (0 <= lam / 2 * ip (diff V W) (diff V W)) by (apply Rmult_le_pos; lra). lra. }
  apply (Rmult_le_compat_l (2 * eta)) in A'; [|lra]. lra.
Qed.
Lemma step_down eta W : 0 < eta -> eta * LL <= 2 -> FF (step eta W) <= FF W.
Proof.
  intros He HL. pose proof (F_up (step eta W) W) as B. rewrite ip_step, ip_step2 in B. pose proof (ip_pos (GG W)) as P. set (g := ip (GG W) (GG W)) in *.
  assert (LL / 2 * (eta * eta * g) <= eta * g); [|lra]. replace (LL / 2 * (eta * eta * g)) with (eta * LL * (eta / 2 * g)) by field. replace (eta * g) with (2 * (eta / 2 * g)) by field. apply Rmult_le_compat_r; [|exact HL]. apply Rmult_le_pos; lra.
Qed.
Fixpoint iter (eta : R) (W : nat -> nat -> R) (k : nat) : nat -> nat -> R := match k with O => W | S k => step eta (iter eta W k) end.
Lemma iter_sum eta V W K : 0 < eta -> eta * LL <= 1 -> 0 <= lam -> 2 * eta * sumN K (fun k => FF (iter eta W (S k)) - FF V) + ip (diff (iter eta W K) V) (diff (iter eta W K) V) <= ip (diff W V) (diff W V).
Proof.
  intros He HL Hl. induction K as [|K IH]; [cbn; lra|]. rewrite sumN_last. pose proof (step_key eta V (iter eta W K) He HL) as A. cbn [iter] in *. pose proof (ip_pos (diff (iter eta W K) V)) as P.
  set (q := ip (diff (iter eta W K) V) (diff (iter eta W K) V)) in *. assert (0 <= eta * lam * q) by (apply Rmult_le_pos; [apply Rmult_le_pos; lra|exact P]). lra.
Qed.
Lemma iter_mono eta W k j : 0 < eta -> eta * LL <= 2 -> FF (iter eta W (k + j)) <= FF (iter eta W k).
Proof. intros He HL. induction j as [|j IH]; [rewrite Nat.add_0_r; lra|]. rewrite Nat.add_succ_r. cbn [iter]. pose proof (step_down eta (iter eta W (k + j)) He HL). lra. Qed.
Theorem gd_rate eta V W K : 0 < eta -> eta * LL <= 1 -> 0 <= lam -> (1 <= K)%nat -> FF (iter eta W K) <= FF V + ip (diff W V) (diff W V) / (2 * eta * INR K).
Proof.
  intros He HL Hl HK. pose proof (iter_sum eta V W K He HL Hl) as A. pose proof (ip_pos (diff (iter eta W K) V)) as P. assert (PK : 0 < INR K) by (now apply lt_0_INR).
  assert (B : sumN K (fun _ => FF (iter eta W K) - FF V) <= sumN K (fun k => FF (iter eta W (S k)) - FF V)).
  { apply sumN_le. intros k Hk. apply Rplus_le_compat_r. replace K with (S k + (K - S k))%nat at 1 by lia. apply iter_mono; lra. }
  rewrite sumN_const in B. apply (Rmult_le_compat_l (2 * eta)) in B; [|lra]. set (D := ip (diff W V) (diff W V)) in *.
  apply (Rmult_le_reg_r (2 * eta * INR K)); [apply Rmult_lt_0_compat; lra|]. rewrite Rmult_plus_distr_r. replace (D / (2 * eta * INR K) * (2 * eta * INR K)) with D by (field; lra). lra.
Qed.
(** If V is at least as good as every iterate, the distance to it shrinks geometrically. *)
Theorem gd_contract eta V W K : 0 < eta -> eta * LL <= 1 -> 0 <= lam -> (forall k, FF V <= FF (iter eta W k)) ->
  ip (diff (iter eta W K) V) (diff (iter eta W K) V) <= (1 - eta * lam) ^ K * ip (diff W V) (diff W V).
Proof.
  intros He HL Hl HV. assert (Q : 0 <= 1 - eta * lam). { pose proof SX_pos. unfold LL in HL. assert (0 <= eta * (beta * SX)) by (apply Rmult_le_pos; [lra|apply Rmult_le_pos; assumption]). lra. }
  induction K as [|K IH]; [cbn; lra|]. pose proof (step_key eta V (iter eta W K) He HL) as A. specialize (HV (S K)). cbn [iter] in *. cbn [pow].
  assert (0 <= 2 * eta * (FF (step eta (iter eta W K)) - FF V)) by (apply Rmult_le_pos; lra). apply (Rmult_le_compat_l (1 - eta * lam)) in IH; [|exact Q]. lra.
Qed.
End GD.

(** ** Extensionality *)
Section Ext.
Context (M m c : nat) (X : nat -> nat -> R) (phi : nat -> (nat -> R) -> R) (gr : nat -> (nat -> R) -> nat -> R) (beta lam : R).
Context (HS : forall r, (r < M)%nat -> smooth_convex c beta (phi r) (gr r)).
Context (Hg : forall r z z', (forall j, (j < c)%nat -> z j = z' j) -> forall j, (j < c)%nat -> gr r z j = gr r z' j).
Lemma phi_ext r z z' : (r < M)%nat -> (forall j, (j < c)%nat -> z j = z' j) -> phi r z = phi r z'.
Proof.
  intros Hr E. pose proof (HS r Hr z z') as A. rewrite !(sumN_zero c) in A by (intros j Hj; rewrite E by assumption; ring). lra.
Qed.
Definition eqW (W V : nat -> nat -> R) : Prop := forall i j, (i < m)%nat -> (j < c)%nat -> W i j = V i j.
Lemma Z_ext W V : eqW W V -> forall r j, (j < c)%nat -> ZZ m X W r j = ZZ m X V r j.
Proof. intros E r j Hj. unfold ZZ. apply sumN_ext. intros i Hi. now rewrite E. Qed.
Lemma F_ext W V : eqW W V -> FF M m c X phi lam W = FF M m c X phi lam V.
Proof.
  intros E. unfold FF. f_equal; [f_equal; apply sumN_ext; intros r Hr; apply phi_ext; [exact Hr|now apply Z_ext]|]. f_equal. now apply ip_ext.
Qed.
Lemma step_ext eta W V : eqW W V -> eqW (step M m X gr lam eta W) (step M m X gr lam eta V).
Proof.
  intros E i j Hi Hj. unfold step, GG. rewrite (E i j Hi Hj). do 4 f_equal. apply sumN_ext. intros r Hr. f_equal. apply Hg; [|exact Hj]. now apply Z_ext.
Qed.
Lemma iter_ext eta W V k : eqW W V -> eqW (iter M m X gr lam eta W k) (iter M m X gr lam eta V k).
Proof. intros E. induction k as [|k IH]; [exact E|]. cbn [iter]. now apply step_ext. Qed.
End Ext.

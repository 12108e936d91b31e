(** P_Cost.v - C35: signs and minima of the four cost functions, in exact arithmetic. *)
From Coq Require Import Reals Lra.
From Coquelicot Require Import Coquelicot.
From Verif Require Import Base Mat Act Layer Conv Misc Net NetP RInst RMat P_Act Grad P_Grad P_Mom.
From Coq Require Import Arith.
Local Open Scope nat_scope.

(** ** Specification *)
Definition same_size (a b : rmat) : Prop := nr a = nr b /\ nc a = nc b.
Definition same_entries (a b : rmat) : Prop := forall i j, i < nr b -> j < nc b -> at_ a i j = at_ b i j.
Definition all_in (lo hi : R) (m : rmat) : Prop := forall i j, i < nr m -> j < nc m -> (lo <= at_ m i j <= hi)%R.
Definition all_inside (lo hi : R) (m : rmat) : Prop := forall i j, i < nr m -> j < nc m -> (lo < at_ m i j < hi)%R.
Definition row_sum (m : rmat) (i : nat) : R := sumN (nc m) (fun j => at_ m i j).
(** [m] with [c i] added to every entry of row i. *)
Definition shift_rows (m : rmat) (c : nat -> R) : rmat := mk (D := Rdt) (nr m) (nc m) (fun i j => at_ m i j + c i)%R.

(** ** ln u <= u - 1 *)
Lemma ln_lt (u : R) : (0 < u)%R -> u <> 1%R -> (ln u < u - 1)%R.
Proof.
  intros Hu H1. assert (ln u <> 0)%R. { intros E. apply H1. rewrite <- (exp_ln u Hu), E. apply exp_0. }
  pose proof (exp_ineq1 (ln u) H) as P. rewrite exp_ln in P by assumption. lra.
Qed.
Lemma ln_le (u : R) : (0 < u)%R -> (ln u <= u - 1)%R.
Proof. intros Hu. destruct (Req_dec u 1) as [->|H1]; [rewrite ln_1; lra|]. left. now apply ln_lt. Qed.
(** y ln(y/p) >= y - p, with equality only for y = p (y, p positive). *)
Lemma gibbs (y p : R) : (0 < y)%R -> (0 < p)%R -> (y - p <= y * ln (y / p))%R /\ (y * ln (y / p) = y - p -> y = p)%R.
Proof.
  intros Hy Hp. assert (Hq : (0 < p / y)%R) by now apply Rdiv_lt_0_compat.
  assert (E : ln (y / p) = (- ln (p / y))%R). { rewrite <- ln_Rinv by assumption. f_equal. field. lra. }
  rewrite E. pose proof (ln_le _ Hq) as L. assert (E2 : (y * (p / y) = p)%R) by (field; lra).
  assert (y * ln (p / y) <= y * (p / y - 1))%R by (apply Rmult_le_compat_l; lra). split; [lra|]. intros Q.
  destruct (Req_dec (p / y) 1) as [P1|P1]. { rewrite P1 in E2. lra. }
  pose proof (ln_lt _ Hq P1). assert (y * ln (p / y) < y * (p / y - 1))%R by (apply Rmult_lt_compat_l; lra). lra.
Qed.
Lemma neg_mul (u v : R) : (0 <= u)%R -> (v <= 0)%R -> (0 <= - (u * v))%R.
Proof. intros. enough (0 <= u * - v)%R by lra. apply Rmult_le_pos; lra. Qed.
Lemma gibbs0 (y p : R) : (0 <= y)%R -> (0 < p)%R -> (y * ln y - (y - p) >= y * ln p)%R /\ (y * ln y - (y - p) = y * ln p -> y = p)%R.
Proof.
  intros [Hy|<-] Hp; [|split; lra]. destruct (gibbs y p Hy Hp) as [A B]. rewrite ln_div in A, B by assumption. split; [nra|]. intros Q. apply B. nra.
Qed.

Lemma compute_R (n : rnet) cf (pred y : rmat) (f : nat -> nat -> R) : n_cost n = cf -> cf y pred = Ok (mk (D := Rdt) (nr y) (nc y) f) ->
  net_computecost n pred y = Ok (sumN (nr y) (fun i => sumN (nc y) (f i))).
Proof. intros E1 E2. unfold net_computecost. rewrite E1, E2. cbn [bind]. unfold sumall. rewrite accu_mk, sumN_swap. reflexivity. Qed.
Lemma as_mk (m : rmat) r c : wf m -> nr m = r -> nc m = c -> m = mk (D := Rdt) r c (at_ m).
Proof. intros W <- <-. symmetry. now apply mk_at. Qed.
Lemma sum2_le r c (f g : nat -> nat -> R) : (forall i j, i < r -> j < c -> (f i j <= g i j)%R) -> (sumN r (fun i => sumN c (f i)) <= sumN r (fun i => sumN c (g i)))%R.
Proof. intros H. apply sumN_le. intros i Hi. apply sumN_le. auto. Qed.
Lemma sum2_eq r c (f g : nat -> nat -> R) : (forall i j, i < r -> j < c -> (f i j <= g i j)%R) -> sumN r (fun i => sumN c (f i)) = sumN r (fun i => sumN c (g i)) ->
  forall i j, i < r -> j < c -> f i j = g i j.
Proof.
  intros H E i j Hi Hj.
  assert (N : forall i, i < r -> (0 <= sumN c (fun j => g i j - f i j))%R) by (intros; apply sumN_nonneg; intros k Hk; specialize (H i0 k H0 Hk); lra).
  assert (Z : sumN r (fun i => sumN c (fun j => g i j - f i j)%R) = 0%R).
  { rewrite (sumN_ext r _ (fun i => sumN c (g i) - sumN c (f i))%R) by (intros; apply sumN_minus). rewrite sumN_minus. lra. }
  pose proof (sumN_nonneg_0 _ _ N Z i Hi) as Zi.
  assert (g i j - f i j = 0)%R; [|lra]. apply (sumN_nonneg_0 c (fun j => g i j - f i j)%R); auto. intros k Hk. specialize (H i k Hi Hk). lra.
Qed.

(** ** C35 *)
Theorem C35_quadratic : forall (n : rnet) (pred y : rmat), n_cost n = quad_cost -> wf pred -> same_size pred y -> 1 <= nr y ->
  exists c, net_computecost n pred y = Ok c /\ (0 <= c)%R /\ (c = 0%R <-> same_entries pred y).
Proof.
  intros n pred y Hc W [S1 S2] Hr. assert (Hm : (0 < INR (nr y))%R) by (apply lt_0_INR; lia).
  set (f := fun i j => ((at_ y i j - at_ pred i j) * (at_ y i j - at_ pred i j) / 2 / INR (nr y))%R).
  assert (Hf : forall i j, i < nr y -> j < nc y -> (0 <= f i j)%R).
  { intros i j _ _. unfold f. apply Rdiv_le_0_compat; [|assumption]. apply Rdiv_le_0_compat; [|lra]. apply Rle_0_sqr. }
  eexists. split; [|split].
  - apply (compute_R n quad_cost pred y f Hc). rewrite (as_mk pred _ _ W S1 S2). now apply quad_cost_mk.
  - apply sumN_nonneg. intros i Hi. apply sumN_nonneg. auto.
  - split.
    + intros E i j Hi Hj. pose proof (sumN_nonneg_0 _ _ (fun i Hi => sumN_nonneg _ _ (fun j Hj => Hf i j Hi Hj)) E i Hi) as E1.
      pose proof (sumN_nonneg_0 _ _ (fun j Hj => Hf i j Hi Hj) E1 j Hj) as E2. unfold f in E2.
      assert (Q : ((at_ y i j - at_ pred i j) * (at_ y i j - at_ pred i j) = 0)%R).
      { apply (f_equal (fun v => v * 2 * INR (nr y))%R) in E2. rewrite !Rmult_0_l in E2. rewrite <- E2. field. lra. }
      apply Rmult_integral in Q. toR. destruct Q; lra.
    + intros E. apply sumN_zero. intros i Hi. apply sumN_zero. intros j Hj. unfold f. rewrite (E i j Hi Hj). field. lra.
Qed.

(** Labels in [0,1], predictions in (0,1): the cost is at least the cost of predicting the label exactly (with
    0 ln 0 = 0), and equal to it only there. *)
Theorem C35_crossentropy : forall (n : rnet) (pred y : rmat), n_cost n = ce_cost -> wf pred -> wf y -> same_size pred y -> 1 <= nr y ->
  all_in 0 1 y -> all_inside 0 1 pred ->
  exists c c0, net_computecost n pred y = Ok c /\ net_computecost n y y = Ok c0 /\ (c0 <= c)%R /\ (c = c0 <-> same_entries pred y).
Proof.
  intros n pred y Hc W Wy [S1 S2] Hr Hy Hp. assert (Hm : (0 < INR (nr y))%R) by (apply lt_0_INR; lia).
  set (f := fun (h : rmat) i j => (- (at_ y i j * ln (at_ h i j) + (1 - at_ y i j) * ln (1 - at_ h i j)) / INR (nr y))%R).
  assert (K : forall i j, i < nr y -> j < nc y -> (f y i j <= f pred i j)%R /\ (f y i j = f pred i j -> at_ pred i j = at_ y i j)).
  { intros i j Hi Hj. specialize (Hy i j Hi Hj). specialize (Hp i j). rewrite S1, S2 in Hp. specialize (Hp Hi Hj). unfold f. set (u := at_ y i j) in *. set (v := at_ pred i j) in *.
    enough (G : forall u v m : R, (0 < m)%R -> (0 <= u <= 1)%R -> (0 < v < 1)%R ->
      (- (u * ln u + (1 - u) * ln (1 - u)) / m <= - (u * ln v + (1 - u) * ln (1 - v)) / m)%R /\ (- (u * ln u + (1 - u) * ln (1 - u)) / m = - (u * ln v + (1 - u) * ln (1 - v)) / m -> v = u)%R) by (apply G; assumption).
    clear. intros u v m Hm Hu Hv. destruct (gibbs0 u v) as [A1 A2]; [lra|lra|]. destruct (gibbs0 (1 - u) (1 - v)) as [B1 B2]; [lra|lra|].
    assert (Hi : (0 < / m)%R) by now apply Rinv_0_lt_compat. split.
    - unfold Rdiv. apply Rmult_le_compat_r; [lra|]. lra.
    - intros E. unfold Rdiv in E. apply Rmult_eq_reg_r in E; [|lra]. symmetry. apply A2. lra. }
  exists (sumN (nr y) (fun i => sumN (nc y) (f pred i))), (sumN (nr y) (fun i => sumN (nc y) (f y i))). split; [|split; [|split]].
  - apply (compute_R n ce_cost pred y _ Hc). rewrite (as_mk pred _ _ W S1 S2) at 1. now apply ce_cost_mk.
  - apply (compute_R n ce_cost y y _ Hc). rewrite (as_mk y _ _ Wy eq_refl eq_refl) at 2. now apply ce_cost_mk.
  - apply sum2_le. intros. now apply K.
  - split.
    + intros E i j Hi Hj. apply K; auto. apply (sum2_eq (nr y) (nc y)); auto. intros; now apply K.
    + intros E. apply sumN_ext. intros i Hi. apply sumN_ext. intros j Hj. unfold f. now rewrite (E i j Hi Hj).
Qed.

Lemma soft_le1 c (h : nat -> R) j : j < c -> (0 < exp (h j) * (1 / sumN c (fun k => exp (h k))) <= 1)%R.
Proof.
  intros Hj. assert (Hs : (exp (h j) <= sumN c (fun k => exp (h k)))%R).
  { assert (E : sumN c (fun k => if k =? j then exp (h j) else 0)%R = exp (h j)).
    { rewrite (sumN_single c _ j Hj); [now rewrite Nat.eqb_refl|]. intros i Hi Hn. destruct (Nat.eqb_spec i j); [lia|reflexivity]. }
    rewrite <- E. apply sumN_le. intros i Hi. pose proof (exp_pos (h i)). destruct (Nat.eqb_spec i j) as [->|]; lra. }
  pose proof (exp_pos (h j)) as P. assert (0 < sumN c (fun k => exp (h k)))%R by lra. split.
  - apply Rmult_lt_0_compat; [assumption|]. apply Rdiv_lt_0_compat; lra.
  - apply (Rmult_le_reg_r (sumN c (fun k => exp (h k)))); [assumption|]. rewrite Rmult_1_l. replace (exp (h j) * (1 / sumN c (fun k => exp (h k))) * sumN c (fun k => exp (h k)))%R with (exp (h j)) by (field; lra). assumption.
Qed.
Lemma soft_shift (e S t : R) : (0 < S)%R -> (0 < t)%R -> (e * t * (1 / (S * t)) = e * (1 / S))%R.
Proof. intros. field. split; lra. Qed.
Theorem C35_softmax : forall (n : rnet) (pred y : rmat), n_cost n = sm_cost -> wf pred -> same_size pred y -> 1 <= nr y ->
  (forall i j, i < nr y -> j < nc y -> (0 <= at_ y i j)%R) ->
  exists c, net_computecost n pred y = Ok c /\ (0 <= c)%R /\ forall s, net_computecost n (shift_rows pred s) y = Ok c.
Proof.
  intros n pred y Hc W [S1 S2] Hr Hy. assert (Hm : (0 < INR (nr y))%R) by (apply lt_0_INR; lia).
  set (f := fun i j => (- (at_ y i j * ln (exp (at_ pred i j) * (1 / sumN (nc y) (fun k => exp (at_ pred i k))))) / INR (nr y))%R).
  exists (sumN (nr y) (fun i => sumN (nc y) (f i))). split; [|split].
  - apply (compute_R n sm_cost pred y f Hc). rewrite (as_mk pred _ _ W S1 S2) at 1. now apply sm_cost_mk.
  - apply sumN_nonneg. intros i Hi. apply sumN_nonneg. intros j Hj. unfold f. apply Rdiv_le_0_compat; [|assumption].
    destruct (soft_le1 (nc y) (fun k => at_ pred i k) j Hj) as [P1 P2]. specialize (Hy i j Hi Hj).
    assert (L : (ln (exp (at_ pred i j) * (1 / sumN (nc y) (fun k => exp (at_ pred i k)))) <= 0)%R). { pose proof (ln_le _ P1). lra. }
    now apply neg_mul.
  - intros s. apply (compute_R n sm_cost _ y f Hc). unfold shift_rows. rewrite S1, S2. rewrite sm_cost_mk by reflexivity. f_equal. apply mk_ext. intros i j Hi Hj.
    assert (Q : (exp (at_ pred i j + s i) * (1 / sumN (nc y) (fun k => exp (at_ pred i k + s i))) = exp (at_ pred i j) * (1 / sumN (nc y) (fun k => exp (at_ pred i k))))%R).
    { rewrite (sumN_ext (nc y) (fun k => exp (at_ pred i k + s i))%R (fun k => exp (at_ pred i k) * exp (s i))%R) by (intros; apply exp_plus). rewrite sumN_scal_r.
      rewrite (exp_plus (at_ pred i j) (s i)). apply soft_shift; [apply sumN_pos; [lia|intros; apply exp_pos]|apply exp_pos]. }
    rewrite Q. reflexivity.
Qed.

(** Rows of both matrices are positive distributions: the Kullback-Leibler cost is >= 0 and 0 only for equal ones. *)
Theorem C35_kl : forall (n : rnet) (pred y : rmat), n_cost n = kl_cost -> wf pred -> same_size pred y -> 1 <= nr y ->
  (forall i j, i < nr y -> j < nc y -> (0 < at_ y i j)%R /\ (0 < at_ pred i j)%R) ->
  (forall i, i < nr y -> row_sum y i = 1%R /\ row_sum pred i = 1%R) ->
  exists c, net_computecost n pred y = Ok c /\ (0 <= c)%R /\ (c = 0%R <-> same_entries pred y).
Proof.
  intros n pred y Hc W [S1 S2] Hr Hpos Hsum. assert (Hm : (0 < INR (nr y))%R) by (apply lt_0_INR; lia).
  set (f := fun i j => (at_ y i j * ln (at_ y i j / at_ pred i j) / INR (nr y))%R).
  set (g := fun i j => ((at_ y i j - at_ pred i j) / INR (nr y))%R).
  assert (Z : sumN (nr y) (fun i => sumN (nc y) (g i)) = 0%R).
  { apply sumN_zero. intros i Hi. destruct (Hsum i Hi) as [Q1 Q2]. unfold row_sum in Q1, Q2. rewrite S2 in Q2.
    transitivity ((sumN (nc y) (fun j => at_ y i j - at_ pred i j)) * / INR (nr y))%R; [rewrite <- sumN_scal_r; reflexivity|]. rewrite (sumN_minus (nc y) (fun j => at_ y i j) (fun j => at_ pred i j)). toR. rewrite Q1, Q2. lra. }
  assert (K : forall i j, i < nr y -> j < nc y -> (g i j <= f i j)%R /\ (g i j = f i j -> at_ pred i j = at_ y i j)).
  { intros i j Hi Hj. destruct (Hpos i j Hi Hj) as [Y P]. destruct (gibbs _ _ Y P) as [A B]. assert (Hi' : (0 < / INR (nr y))%R) by now apply Rinv_0_lt_compat. unfold f, g, Rdiv. split.
    - apply Rmult_le_compat_r; [lra|]. exact A.
    - intros E. apply Rmult_eq_reg_r in E; [|lra]. symmetry. apply B. symmetry. exact E. }
  exists (sumN (nr y) (fun i => sumN (nc y) (f i))). split; [|split].
  - apply (compute_R n kl_cost pred y f Hc). rewrite (as_mk pred _ _ W S1 S2) at 1. now apply kl_cost_mk.
  - rewrite <- Z. apply sum2_le. intros. now apply K.
  - split.
    + intros E i j Hi Hj. apply K; auto. apply (sum2_eq (nr y) (nc y) g f); auto; [intros; now apply K|congruence].
    + intros E. apply sumN_zero. intros i Hi. apply sumN_zero. intros j Hj. unfold f. rewrite (E i j Hi Hj). destruct (Hpos i j Hi Hj) as [Y P].
      replace (at_ y i j / at_ y i j)%R with 1%R by (field; apply Rgt_not_eq; exact Y). rewrite ln_1. lra.
Qed.

(** A case that meets the hypotheses of all four: two classes, one sample. *)
Lemma C35_example : let y := rm 1 2 [/2; /2]%R in let p := rm 1 2 [/4; 3/4]%R in
  wf p /\ wf y /\ same_size p y /\ 1 <= nr y /\ all_in 0 1 y /\ all_inside 0 1 p /\
  (forall i j, i < nr y -> j < nc y -> (0 < at_ y i j)%R /\ (0 < at_ p i j)%R) /\
  (forall i, i < nr y -> row_sum y i = 1%R /\ row_sum p i = 1%R) /\ ~ same_entries p y.
Proof.
  cbn zeta. assert (E : forall i j, i < 1 -> j < 2 -> i = 0 /\ (j = 0 \/ j = 1)) by lia.
  repeat split; try reflexivity; try (cbn; lia); try (intros i j Hi Hj; destruct (E i j Hi Hj) as [-> [-> | ->]]; cbn; lra);
   try (destruct (E i j H H0) as [-> [-> | ->]]; cbn; lra).
  - destruct i; [|cbn in H; lia]. unfold row_sum, sumN. cbn. lra.
  - destruct i; [|cbn in H; lia]. unfold row_sum, sumN. cbn. lra.
  - intros Q. specialize (Q 0 0). cbn in Q. assert (/4 = /2)%R by (apply Q; lia). lra.
Qed.

(** P_Rate.v - C98: which learning rates are too large.  The exact motion of the weights along a direction of constant curvature,
    and what a rate above 2/curvature does. *)
From Coq Require Import Reals Lra Psatz.
From Coquelicot Require Import Coquelicot.
From Verif Require Import Base Mat Act Layer Conv Misc Net NetP RInst RMat P_Act Grad P_Grad Trainer TrainP TrainP2 P_Train FunEq P_Mom P_Descent LinReg P_Linear.
From Coq Require Import Arith.
Local Open Scope nat_scope.

(** ** Specification *)
(** Sample r with a leading 1. *)
Definition aug (x : rmat) (r i : nat) : R := match i with 0 => 1%R | S k => at_ x r k end.
(** What the direction v gives on sample r. *)
Definition on (x : rmat) (v : nat -> R) (r : nat) : R := sumN (nc x + 1) (fun k => aug x r k * v k)%R.
(** v is a direction of curvature h: the mean over the samples of (their value on v) times (the sample), plus lam v, is h v. *)
Definition curvature (x : rmat) (lam : R) (v : nat -> R) (h : R) : Prop :=
  forall i, i < nc x + 1 -> (sumN (nr x) (fun r => aug x r i * on x v r) / INR (nr x) + lam * v i = h * v i)%R.
(** The component of column j of the weights along v, and where the data want it. *)
Definition along (v : nat -> R) (W : rmat) (j : nat) : R := sumN (nr W) (fun i => v i * at_ W i j)%R.
Definition wanted (x y : rmat) (v : nat -> R) (h : R) (j : nat) : R := (sumN (nr x) (fun r => on x v r * at_ y r j) / INR (nr x) / h)%R.
Definition norm2 (m : nat) (v : nat -> R) : R := sumN m (fun i => v i * v i)%R.

(** ** Proof *)
Lemma on_ap (x : rmat) v r : on x v r = ap (nc x + 1) (Xb x) v r.
Proof. apply sumN_ext. intros k _. destruct k; reflexivity. Qed.
Lemma curv_A (x : rmat) lam v h i : curvature x lam v h -> i < nc x + 1 -> (adj (nr x) (Xb x) (ap (nc x + 1) (Xb x) v) i + lam * v i = h * v i)%R.
Proof.
  intros C Hi. rewrite <- C by assumption. reflexivity.
Qed.
Lemma curv_dot (x : rmat) lam v h w : 1 <= nr x -> curvature x lam v h ->
  (dot (nc x + 1) v (fun i => adj (nr x) (Xb x) (ap (nc x + 1) (Xb x) w) i + lam * w i) = h * dot (nc x + 1) v w)%R.
Proof.
  intros Hn C. transitivity (dot (nc x + 1) v (fun i => 1 * adj (nr x) (Xb x) (ap (nc x + 1) (Xb x) w) i + lam * w i)%R); [apply dot_ext; auto; intros; lra|].
  rewrite dot_lin, adj_dot by assumption. rewrite Rmult_1_l.
  transitivity (dot (nc x + 1) w (fun i => h * v i + 0 * v i)%R); [|rewrite dot_lin, (dot_sym _ w v); ring].
  rewrite (dot_ext _ w w (fun i => h * v i + 0 * v i)%R (fun i => 1 * adj (nr x) (Xb x) (ap (nc x + 1) (Xb x) v) i + lam * v i)%R); [|auto|].
  - rewrite dot_lin, adj_dot, (dot_sym _ w v), (dot_sym _ (ap _ _ w)) by assumption. ring.
  - intros i Hi. rewrite <- (curv_A x lam v h i C Hi). ring.
Qed.
Lemma grad_along (x y : rmat) lam v h w j : 1 <= nr x -> curvature x lam v h -> (h <> 0)%R ->
  (dot (nc x + 1) v (gradF (nr x) (nc x + 1) (Xb x) lam (fun r => at_ y r j) w) = h * (dot (nc x + 1) v w - wanted x y v h j))%R.
Proof.
  intros Hn C Hh. assert (Hp : (0 < INR (nr x))%R) by (now apply lt_0_INR).
  transitivity (dot (nc x + 1) v (fun i => 1 * (adj (nr x) (Xb x) (ap (nc x + 1) (Xb x) w) i + lam * w i) + (-1) * adj (nr x) (Xb x) (fun r => at_ y r j) i)%R).
  { apply dot_ext; auto. intros i Hi. unfold gradF, adj. transitivity (1 * (sumN (nr x) (fun r => Xb x r i * ap (nc x + 1) (Xb x) w r) / INR (nr x) + lam * w i) + (-1) * (sumN (nr x) (fun r => Xb x r i * at_ y r j) / INR (nr x)))%R; [|reflexivity].
    rewrite (sumN_ext (nr x) _ (fun r => Xb x r i * ap (nc x + 1) (Xb x) w r + (-1) * (Xb x r i * at_ y r j))%R) by (intros; ring).
    rewrite sumN_plus, sumN_scal. field. lra. }
  rewrite dot_lin, curv_dot with (h := h), adj_dot by assumption. unfold wanted. rewrite (sumN_ext (nr x) (fun r => on x v r * at_ y r j)%R (fun r => ap (nc x + 1) (Xb x) v r * at_ y r j)%R) by (intros; now rewrite on_ap).
  unfold dot at 2. field. split; [lra|assumption].
Qed.
Lemma gd_along (x y : rmat) lam v h eta w j K : 1 <= nr x -> curvature x lam v h -> (h <> 0)%R ->
  (dot (nc x + 1) v (gd (nr x) (nc x + 1) (Xb x) lam (fun r => at_ y r j) eta w K) - wanted x y v h j = (1 - eta * h) ^ K * (dot (nc x + 1) v w - wanted x y v h j))%R.
Proof.
  intros Hn C Hh. induction K as [|K IH]; [cbn; lra|]. cbn [gd pow]. set (g := gd _ _ _ _ _ _ _ K) in *.
  rewrite (dot_ext _ v v _ (fun i => 1 * g i + (- eta) * gradF (nr x) (nc x + 1) (Xb x) lam (fun r => at_ y r j) g i)%R) by (auto; intros; ring).
  rewrite dot_lin, grad_along with (h := h) by assumption. rewrite Rmult_assoc, <- IH. ring.
Qed.
Lemma F_below (x y : rmat) lam v h w j : 1 <= nr x -> (0 <= lam)%R -> curvature x lam v h -> (0 < h)%R -> (0 < norm2 (nc x + 1) v)%R ->
  (h / (2 * norm2 (nc x + 1) v) * (dot (nc x + 1) v w - wanted x y v h j) ^ 2 <= F (nr x) (nc x + 1) (Xb x) lam (fun r => at_ y r j) w)%R.
Proof.
  intros Hn Hl C Hh Hv. set (d := (dot (nc x + 1) v w - wanted x y v h j)%R). change (norm2 (nc x + 1) v) with (dot (nc x + 1) v v) in *. set (V := dot (nc x + 1) v v) in *.
  assert (EQ : QA (nr x) (nc x + 1) (Xb x) lam v = (h * V)%R).
  { rewrite <- QA_dot by assumption. unfold A. apply curv_dot; assumption. }
  pose proof (F_nonneg (nr x) (nc x + 1) (Xb x) Hn lam Hl (fun r => at_ y r j) (fun i => w i + (- d / V) * v i)%R) as P.
  rewrite F_step, EQ, grad_along with (h := h) in P by (assumption || lra). fold d in P.
  assert (E : (F (nr x) (nc x + 1) (Xb x) lam (fun r => at_ y r j) w + - d / V * (h * d) + - d / V * (- d / V) / 2 * (h * V) = F (nr x) (nc x + 1) (Xb x) lam (fun r => at_ y r j) w - h / (2 * V) * d ^ 2)%R) by (field; lra).
  rewrite E in P. lra.
Qed.

(** ** C98 *)
(** Along a direction of curvature h <> 0, K calls multiply the distance from the wanted value by (1 - eta h)^K, whatever the other directions do. *)
Theorem C98_direction : forall junk (t : trainer Rdt) (n : rnet) (H : rheap) (x y : rmat) p c eta lam v h,
  linear_net n p c eta lam -> no_decay t -> 1 <= p -> samples p c (x, y) -> curvature x lam v h -> (h <> 0)%R ->
  forall K, exists t' n', train junk t n H x y K = Ok (t', n', H) /\
    forall j, j < c -> (along v (weights n') j - wanted x y v h j = (1 - eta * h) ^ K * (along v (weights n) j - wanted x y v h j))%R.
Proof.
  intros junk t n H x y p c eta lam v h Hl Ht Hp Hs C Hh K. pose proof Hs as (S1 & S2 & S3 & S4). cbn [fst snd] in *.
  destruct (lin_train junk t n H x y p c eta lam Hl Ht Hp Hs K) as (t' & n' & E & _ & Hl' & W). exists t', n'. split; [exact E|]. intros j Hj.
  pose proof Hl as (_ & _ & _ & _ & A1 & A2 & _). pose proof Hl' as (_ & _ & _ & _ & B1 & B2 & _). unfold along. unfold weights at 1 3. rewrite A1, B1.
  pose proof (gd_along x y lam v h eta (col (weights n) j) j K S1 C Hh) as G. rewrite S2 in G. unfold dot in G. unfold col at 2 in G. rewrite <- G. f_equal. apply sumN_ext. intros i Hi. rewrite W by assumption.
  unfold gdW. change (nr (weights n)) with (nr (l_W (o_l (n_output n)))). rewrite A1. reflexivity.
Qed.

Lemma J_below (x y W : rmat) lam v h j : 1 <= nr x -> (0 <= lam)%R -> nr W = nc x + 1 -> j < nc W -> curvature x lam v h -> (0 < h)%R -> (0 < norm2 (nc x + 1) v)%R ->
  (h / (2 * norm2 (nc x + 1) v) * (along v W j - wanted x y v h j) ^ 2 <= Jof x y lam W)%R.
Proof.
  intros Hn Hl HW Hj C Hh Hv. eapply Rle_trans; [unfold along; rewrite HW; apply (F_below x y lam v h (col W j) j); assumption|].
  unfold Jof. rewrite <- HW. change (F (nr x) (nr W) (Xb x) lam (fun r => at_ y r j) (col W j)) with ((fun k => F (nr x) (nr W) (Xb x) lam (fun r => at_ y r k) (col W k)) j). set (f := fun k => F (nr x) (nr W) (Xb x) lam (fun r => at_ y r k) (col W k)).
  assert (P : forall k, (0 <= f k)%R) by (intros; apply F_nonneg; assumption). clearbody f.
  assert (Q : forall n, j < n -> (f j <= sumN n f)%R).
  { induction n as [|n IH]; intros; [lia|]. rewrite sumN_last. destruct (Nat.eq_dec j n) as [->|].
    - assert (0 <= sumN n f)%R by (apply sumN_nonneg; auto). lra.
    - specialize (IH ltac:(lia)). specialize (P n). lra. }
  exact (Q _ Hj).
Qed.

(** After K calls the objective is at least h (1 - eta h)^(2 K) / (2 |v|^2) times the squared initial distance along v. *)
Theorem C98_objective : forall junk (t : trainer Rdt) (n : rnet) (H : rheap) (x y : rmat) p c eta lam v h,
  linear_net n p c eta lam -> no_decay t -> 1 <= p -> samples p c (x, y) -> (0 <= lam)%R -> curvature x lam v h -> (0 < h)%R -> (0 < norm2 (p + 1) v)%R ->
  forall K, exists t' n' J, train junk t n H x y K = Ok (t', n', H) /\ objective junk n' H x y = Ok J /\
    forall j, j < c -> (h / (2 * norm2 (p + 1) v) * ((1 - eta * h) ^ K * (along v (weights n) j - wanted x y v h j)) ^ 2 <= J)%R.
Proof.
  intros junk t n H x y p c eta lam v h Hl Ht Hp Hs Hlam C Hh Hv K. pose proof Hs as (S1 & S2 & S3 & S4). cbn [fst snd] in *.
  destruct (C98_direction junk t n H x y p c eta lam v h Hl Ht Hp Hs C ltac:(lra) K) as (t' & n' & E & G).
  destruct (lin_train junk t n H x y p c eta lam Hl Ht Hp Hs K) as (t2 & n2 & E2 & _ & Hl' & _). rewrite E in E2. injection E2 as <- <-.
  exists t', n', (Jof x y lam (weights n')). split; [exact E|]. split; [eapply lin_objective; eauto|]. intros j Hj. rewrite <- G by assumption. rewrite <- S2.
  pose proof Hl' as (_ & _ & _ & _ & B1 & B2 & _). assert (HW : nr (weights n') = nc x + 1) by (unfold weights; congruence). assert (HC : j < nc (weights n')) by (unfold weights; congruence). rewrite <- S2 in Hv. apply J_below; assumption.
Qed.

(** A rate above 2/h: whatever small error there is along v in one output, the objective and the weights exceed every bound from some call on. *)
Theorem C98_diverges : forall junk (t : trainer Rdt) (n : rnet) (H : rheap) (x y : rmat) p c eta lam v h j,
  linear_net n p c eta lam -> no_decay t -> 1 <= p -> samples p c (x, y) -> (0 <= lam)%R -> curvature x lam v h -> (0 < h)%R -> (0 < norm2 (p + 1) v)%R ->
  (2 < eta * h)%R -> j < c -> along v (weights n) j <> wanted x y v h j ->
  forall B, exists K0, forall K, K0 <= K -> exists t' n' J, train junk t n H x y K = Ok (t', n', H) /\ objective junk n' H x y = Ok J /\ (B < J)%R /\
    (B < sumN (p + 1) (fun i => at_ (weights n') i j * at_ (weights n') i j))%R.
Proof.
  intros junk t n H x y p c eta lam v h j Hl Ht Hp Hs Hlam C Hh Hv He Hj Hd B. set (d := (along v (weights n) j - wanted x y v h j)%R).
  assert (Hd' : (0 < Rabs d)%R) by (apply Rabs_pos_lt; unfold d; lra). set (V := norm2 (p + 1) v) in *. set (w := wanted x y v h j).
  (* |d_K| is large *)
  set (M := (1 + Rabs B + Rabs B * (2 * V / h) + Rabs w + 1 + V * (Rabs B + 1))%R).
  destruct (Pow_x_infinity (1 - eta * h) ltac:(rewrite Rabs_left by lra; lra) (M / Rabs d)%R) as [K0 HK]. exists K0. intros K HKK.
  destruct (C98_objective junk t n H x y p c eta lam v h Hl Ht Hp Hs Hlam C Hh Hv K) as (t' & n' & J & E & EJ & GJ).
  destruct (C98_direction junk t n H x y p c eta lam v h Hl Ht Hp Hs C ltac:(lra) K) as (t2 & n2 & E2 & G). rewrite E in E2. injection E2 as <- <-.
  exists t', n', J. split; [exact E|]. split; [exact EJ|]. specialize (HK K ltac:(lia)). specialize (G j Hj). specialize (GJ j Hj). fold V d in GJ. fold d w in G.
  set (D := ((1 - eta * h) ^ K * d)%R) in *.
  assert (HD : (M <= Rabs D)%R).
  { unfold D. rewrite Rabs_mult. apply Rge_le in HK. apply (Rmult_le_compat_r (Rabs d)) in HK; [|lra]. unfold Rdiv in HK. rewrite Rmult_assoc, Rinv_l, Rmult_1_r in HK by lra. exact HK. }
  pose proof (Rabs_pos B). pose proof (Rle_abs B). pose proof (Rabs_pos w).
  assert (Hq : (0 <= 2 * V / h)%R) by (apply Rmult_le_pos; [lra|apply Rlt_le, Rinv_0_lt_compat, Hh]).
  assert (HM : (1 + Rabs B * (2 * V / h) <= M)%R) by (unfold M; nra).
  split.
  - eapply Rlt_le_trans; [|exact GJ]. rewrite <- (Rsqr_pow2 D), (Rsqr_abs D). unfold Rsqr.
    assert (Q : (Rabs B * (2 * V / h) < Rabs D * Rabs D)%R) by nra.
    apply (Rmult_lt_compat_l (h / (2 * V))) in Q; [|apply Rdiv_lt_0_compat; lra]. replace (h / (2 * V) * (Rabs B * (2 * V / h)))%R with (Rabs B) in Q by (field; lra). lra.
  - (* Cauchy-Schwarz *)
    pose proof (cauchy_schwarz (p + 1) v (fun i => at_ (weights n') i j)) as CS. set (S := sumN (p + 1) (fun i => at_ (weights n') i j * at_ (weights n') i j)%R) in *.
    change (dot (p + 1) v v) with V in CS. change (dot (p + 1) (fun i => at_ (weights n') i j) (fun i => at_ (weights n') i j)) with S in CS.
    destruct (lin_train junk t n H x y p c eta lam Hl Ht Hp Hs K) as (t2 & n2 & E2 & _ & Hl' & _). rewrite E in E2. injection E2 as <- <-. pose proof Hl' as (_ & _ & _ & _ & B1 & _).
    assert (Ea : along v (weights n') j = dot (p + 1) v (fun i => at_ (weights n') i j)) by (unfold along, dot; unfold weights at 1; now rewrite B1). rewrite Ea in G. set (a := dot (p + 1) v (fun i => at_ (weights n') i j)) in *.
    assert (Ha : (1 + V * (Rabs B + 1) <= Rabs a)%R).
    { assert (Rabs D <= Rabs a + Rabs w)%R by (rewrite <- G; unfold Rminus; eapply Rle_trans; [apply Rabs_triang|]; rewrite Rabs_Ropp; lra). unfold M in HD. nra. }
    assert (Hs2 : (V * (Rabs B + 1) < V * S)%R). { eapply Rlt_le_trans; [|exact CS]. change (a * a)%R with (Rsqr a). rewrite (Rsqr_abs a). unfold Rsqr. assert (0 <= V * (Rabs B + 1))%R by nra. nra. }
    apply Rmult_lt_reg_l in Hs2; [|exact Hv]. lra.
Qed.

(** With the rate exactly 2/h the error along v only changes its sign from call to call: the objective never gets below a positive bound. *)
Theorem C98_border : forall junk (t : trainer Rdt) (n : rnet) (H : rheap) (x y : rmat) p c eta lam v h j,
  linear_net n p c eta lam -> no_decay t -> 1 <= p -> samples p c (x, y) -> (0 <= lam)%R -> curvature x lam v h -> (0 < h)%R -> (0 < norm2 (p + 1) v)%R ->
  (eta * h = 2)%R -> j < c ->
  forall K, exists t' n' J, train junk t n H x y K = Ok (t', n', H) /\ objective junk n' H x y = Ok J /\
    (along v (weights n') j - wanted x y v h j = (-1) ^ K * (along v (weights n) j - wanted x y v h j))%R /\
    (h / (2 * norm2 (p + 1) v) * (along v (weights n) j - wanted x y v h j) ^ 2 <= J)%R.
Proof.
  intros junk t n H x y p c eta lam v h j Hl Ht Hp Hs Hlam C Hh Hv He Hj K.
  destruct (C98_objective junk t n H x y p c eta lam v h Hl Ht Hp Hs Hlam C Hh Hv K) as (t' & n' & J & E & EJ & GJ).
  destruct (C98_direction junk t n H x y p c eta lam v h Hl Ht Hp Hs C ltac:(lra) K) as (t2 & n2 & E2 & G). rewrite E in E2. injection E2 as <- <-.
  exists t', n', J. split; [exact E|]. split; [exact EJ|]. specialize (G j Hj). specialize (GJ j Hj). rewrite He in *. replace (1 - 2)%R with (-1)%R in * by lra. split; [exact G|].
  rewrite Rpow_mult_distr, <- pow_mult, (Nat.mul_comm K 2), pow_mult in GJ. replace ((-1) ^ 2)%R with 1%R in GJ by ring. rewrite pow1, Rmult_1_l in GJ. exact GJ.
Qed.

(** Data with one sample (x, y): the sample itself, with its leading 1, is a direction, and its curvature is the smoothness constant of C63; what the data want of it is the label:
    so 2/smoothness is the exact limit for the learning rate. *)
Theorem C98_one_sample : forall (x y : rmat) lam j, nr x = 1 -> (0 <= lam)%R ->
  let v := aug x 0 in let h := smoothness x lam in
  curvature x lam v h /\ (1 <= h)%R /\ (1 <= norm2 (nc x + 1) v)%R /\ wanted x y v h j = (norm2 (nc x + 1) v * at_ y 0 j / h)%R.
Proof.
  intros x y lam j Hx Hl v h. assert (En : norm2 (nc x + 1) v = (1 + sumN (nc x) (fun i => at_ x 0 i * at_ x 0 i))%R) by (unfold norm2, v; rewrite Nat.add_1_r, sumN_S; cbn [aug]; f_equal; lra).
  assert (Eo : on x v 0 = norm2 (nc x + 1) v) by reflexivity.
  assert (Eh : h = (norm2 (nc x + 1) v + lam)%R) by (unfold h, smoothness; rewrite Hx, sumN_S, sumN_0, En; cbn [INR]; field).
  assert (0 <= sumN (nc x) (fun i => at_ x 0 i * at_ x 0 i))%R by (apply sumN_nonneg; intros; nra).
  split; [|split; [lra|split; [lra|]]].
  - intros i Hi. rewrite Hx, sumN_S, sumN_0, Eo, Eh. change (aug x 0 i) with (v i). cbn [INR]. field.
  - unfold wanted. rewrite Hx, sumN_S, sumN_0, Eo. cbn [INR]. field. lra.
Qed.

(** The network of C63_example's shape on one sample x = 1, y = 3 without regularisation, weights 0: curvature 2, so a rate above 1 diverges; here 3/2. *)
Definition c98x : rmat := mk (D := Rdt) 1 1 (fun _ _ => 1)%R.
Definition c98y : rmat := mk (D := Rdt) 1 1 (fun _ _ => 3)%R.
Example C98_example : exists (n : rnet) v h, linear_net n 1 1 (3/2)%R 0%R /\ no_decay (trainer_new (D := Rdt)) /\ samples (D := Rdt) 1 1 (c98x, c98y) /\
  curvature c98x 0%R v h /\ h = 2%R /\ (0 < norm2 (1 + 1) v)%R /\ (2 < 3/2 * h)%R /\ along v (weights n) 0 = 0%R /\ wanted c98x c98y v h 0 = 3%R.
Proof.
  set (W := mk (D := Rdt) 2 1 (fun _ _ => 0)%R).
  set (n := N (D := Rdt) mempty quad_cost quad_costd (L (D := Rdt) 0%R 0%R identity mempty mempty mempty mempty mempty mempty) [] (O (D := Rdt) (L (D := Rdt) (3/2)%R 0%R identity mempty mempty mempty mempty W mempty) quad_cost quad_costd mempty)).
  exists n, (aug c98x 0), (smoothness c98x 0). destruct (C98_one_sample c98x c98y 0%R 0 eq_refl ltac:(lra)) as (A & B & C & E).
  assert (X : at_ c98x 0 0 = 1%R) by (unfold c98x; rewrite (at_mk (D := Rdt)) by lia; reflexivity).
  assert (Sm : smoothness c98x 0 = 2%R).
  { unfold smoothness. change (nr c98x) with 1. change (nc c98x) with 1. rewrite !sumN_S, !sumN_0, X. cbn [INR]. field. }
  assert (Nm : norm2 (1 + 1) (aug c98x 0) = 2%R) by (unfold norm2; cbn [Nat.add]; rewrite !sumN_S, !sumN_0; cbn [aug]; rewrite X; lra).
  split; [repeat split|]. split; [reflexivity|]. split; [repeat split; cbn; lia|]. split; [exact A|]. split; [exact Sm|]. split; [rewrite Nm; lra|]. split; [rewrite Sm; lra|]. split.
  - unfold along. apply sumN_zero. intros i Hi. change (weights n) with W. unfold W. rewrite (at_mk (D := Rdt)) by (cbn in *; lia). apply Rmult_0_r.
  - rewrite E. change (nc c98x + 1) with (1 + 1). rewrite Nm, Sm. unfold c98y. rewrite (at_mk (D := Rdt)) by lia. lra.
Qed.

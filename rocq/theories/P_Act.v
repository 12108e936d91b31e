(** P_Act.v - properties C22-C26: the activation functions.
    C22-C25 in exact real arithmetic, C26 in IEEE binary64 (Coq's SpecFloat). *)
From Coq Require Import Reals Lra Lia ZArith Bool Floats.SpecFloat.
From Coquelicot Require Import Coquelicot.
From Verif Require Import Base RInst Act.
Local Open Scope R_scope.

(** ** Specification: one-sided derivatives *)
Definition right_deriv (f : R -> R) (x d : R) : Prop :=
  forall eps, 0 < eps -> exists del, 0 < del /\ forall h, 0 < h < del -> Rabs ((f (x + h) - f x) / h - d) < eps.
Definition left_deriv (f : R -> R) (x d : R) : Prop :=
  forall eps, 0 < eps -> exists del, 0 < del /\ forall h, - del < h < 0 -> Rabs ((f (x + h) - f x) / h - d) < eps.

(** Lemmas about them. *)
Lemma deriv_right (f : R -> R) x d : is_derive f x d -> right_deriv f x d.
Proof.
  intros H%is_derive_Reals eps He. destruct (H eps He) as [del Hd]. exists del. split; [apply cond_pos|].
  intros h Hh. apply Hd; [lra|]. rewrite Rabs_pos_eq; lra.
Qed.
Lemma deriv_left (f : R -> R) x d : is_derive f x d -> left_deriv f x d.
Proof.
  intros H%is_derive_Reals eps He. destruct (H eps He) as [del Hd]. exists del. split; [apply cond_pos|].
  intros h Hh. apply Hd; [lra|]. rewrite Rabs_left; lra.
Qed.
Lemma right_ext f g x d r : 0 < r -> (forall y, x <= y < x + r -> f y = g y) -> right_deriv g x d -> right_deriv f x d.
Proof.
  intros Hr Heq H eps He. destruct (H eps He) as (del & Hd & Hh). exists (Rmin del r).
  split; [apply Rmin_glb_lt; assumption|]. intros h Hl. assert (Rmin del r <= del) by apply Rmin_l. assert (Rmin del r <= r) by apply Rmin_r.
  rewrite !Heq by lra. apply Hh. lra.
Qed.
Lemma left_ext f g x d r : 0 < r -> (forall y, x - r < y <= x -> f y = g y) -> left_deriv g x d -> left_deriv f x d.
Proof.
  intros Hr Heq H eps He. destruct (H eps He) as (del & Hd & Hh). exists (Rmin del r).
  split; [apply Rmin_glb_lt; assumption|]. intros h Hl. assert (Rmin del r <= del) by apply Rmin_l. assert (Rmin del r <= r) by apply Rmin_r.
  rewrite !Heq by lra. apply Hh. lra.
Qed.
Lemma right_unique f x d1 d2 : right_deriv f x d1 -> right_deriv f x d2 -> d1 = d2.
Proof.
  intros H1 H2. apply cond_eq. intros eps He. destruct (H1 (eps/2)) as (e1 & P1 & Q1); [lra|]. destruct (H2 (eps/2)) as (e2 & P2 & Q2); [lra|].
  set (h := Rmin e1 e2 / 2). assert (0 < Rmin e1 e2) by (apply Rmin_glb_lt; assumption).
  assert (Rmin e1 e2 <= e1) by apply Rmin_l. assert (Rmin e1 e2 <= e2) by apply Rmin_r.
  assert (A := Q1 h ltac:(unfold h; lra)). assert (B := Q2 h ltac:(unfold h; lra)).
  replace (d1 - d2) with (- ((f (x + h) - f x) / h - d1) + ((f (x + h) - f x) / h - d2)) by ring.
  eapply Rle_lt_trans; [apply Rabs_triang|]. rewrite Rabs_Ropp. lra.
Qed.
Lemma left_unique f x d1 d2 : left_deriv f x d1 -> left_deriv f x d2 -> d1 = d2.
Proof.
  intros H1 H2. apply cond_eq. intros eps He. destruct (H1 (eps/2)) as (e1 & P1 & Q1); [lra|]. destruct (H2 (eps/2)) as (e2 & P2 & Q2); [lra|].
  set (h := - (Rmin e1 e2 / 2)). assert (0 < Rmin e1 e2) by (apply Rmin_glb_lt; assumption).
  assert (Rmin e1 e2 <= e1) by apply Rmin_l. assert (Rmin e1 e2 <= e2) by apply Rmin_r.
  assert (A := Q1 h ltac:(unfold h; lra)). assert (B := Q2 h ltac:(unfold h; lra)).
  replace (d1 - d2) with (- ((f (x + h) - f x) / h - d1) + ((f (x + h) - f x) / h - d2)) by ring.
  eapply Rle_lt_trans; [apply Rabs_triang|]. rewrite Rabs_Ropp. lra.
Qed.
Lemma kink (f : R -> R) x dr dl : right_deriv f x dr -> left_deriv f x dl -> dr <> dl -> ~ ex_derive f x.
Proof.
  intros Hr Hl Hne [d Hd]. apply Hne. rewrite (right_unique f x dr d Hr (deriv_right _ _ _ Hd)).
  symmetry. exact (left_unique f x dl d Hl (deriv_left _ _ _ Hd)).
Qed.
Lemma deriv_local (f g : R -> R) x d a b : a < x < b -> (forall y, a < y < b -> f y = g y) -> is_derive g x d -> is_derive f x d.
Proof.
  intros Hx Heq H. apply (is_derive_ext_loc g); [|assumption].
  assert (Hp : 0 < Rmin (x - a) (b - x)) by (apply Rmin_glb_lt; lra). exists (mkposreal _ Hp). intros y Hy. symmetry. apply Heq.
  unfold ball in Hy; simpl in Hy; unfold AbsRing_ball, abs, minus, plus, opp in Hy; simpl in Hy.
  assert (Rmin (x - a) (b - x) <= x - a) by apply Rmin_l. assert (Rmin (x - a) (b - x) <= b - x) by apply Rmin_r.
  apply Rabs_def2 in Hy. lra.
Qed.

(** act and actd of an activation object, at the reals *)
Definition F (a : actfunc Rdt) : R -> R := act a.
Definition F' (a : actfunc Rdt) : R -> R := actd a.

Lemma lit_R n : @lit Rdt n = IZR n.
Proof. reflexivity. Qed.
Ltac ua := unfold F, F', identity, sigmoid, arctan, comploglog, tanhyperbolic, bipolarsigmoid, lecuntanh, hardtanh, absolute, relu, relucos, relusin,
   smoothrelu, initactfunc, f_identity, f_identitygrad, f_sigmoid, f_sigmoidgrad, f_arctan, f_arctangrad, f_tanh, f_tanhgrad,
   f_bipolargrad, f_bipolar, f_comploglog, f_complogloggrad, f_lecun, f_lecungrad, f_hardtanh, f_hardtanhgrad, f_absolute, f_absolutegrad,
   f_relu, f_relugrad, f_relucos, f_relucosgrad, f_relusin, f_relusingrad, f_smoothrelu, f_smoothrelugrad, lit in *;
  cbn [act actd Rdt car d0 d1 dadd dsub dmul ddiv dneg dabs dexp dlog dltb dleb deqb dofZ dlit dtanh datan dsin dcos dfmax dfmin] in *.

Lemma ep z : 0 < exp z. Proof. apply exp_pos. Qed.
Lemma exp_inv z : exp z * exp (- z) = 1.
Proof. rewrite <- exp_plus. replace (z + - z) with 0 by ring. apply exp_0. Qed.

Ltac exps z := pose proof (ep z); pose proof (ep (- z)); pose proof (exp_inv z).

(** * C22 *)
Lemma d_sigmoid z : is_derive (F sigmoid) z (F' sigmoid z).
Proof. ua. exps z. auto_derive; [lra|]. field. lra. Qed.
Lemma d_bipolar z : is_derive (F bipolarsigmoid) z (F' bipolarsigmoid z).
Proof. ua. exps z. auto_derive; [lra|]. field. lra. Qed.
Lemma tanh_exp z : tanh z = (exp z - exp (- z)) / (exp z + exp (- z)).
Proof. unfold tanh, sinh, cosh. exps z. field. lra. Qed.
Lemma d_tanh z : is_derive tanh z (1 - tanh z * tanh z).
Proof.
  apply (is_derive_ext (fun z => (exp z - exp (- z)) / (exp z + exp (- z)))); [intros t; symmetry; apply tanh_exp|].
  rewrite tanh_exp. exps z. auto_derive; [lra|]. field. lra.
Qed.
Theorem C22_smooth : forall z : R,
  is_derive (F identity) z (F' identity z) /\
  is_derive (F sigmoid) z (F' sigmoid z) /\
  is_derive (F arctan) z (F' arctan z) /\
  is_derive (F tanhyperbolic) z (F' tanhyperbolic z) /\
  is_derive (F bipolarsigmoid) z (F' bipolarsigmoid z) /\
  is_derive (F comploglog) z (F' comploglog z) /\
  is_derive (F smoothrelu) z (F' smoothrelu z).
Proof.
  intros z. split; [|split; [|split; [|split; [|split; [|split]]]]].
  - ua. auto_derive; [exact I|ring].
  - apply d_sigmoid.
  - ua. replace (1 / (1 + z * z)) with (/ (1 + z ^ 2)) by (field; nra). apply is_derive_Reals. apply derivable_pt_lim_atan.
  - ua. apply d_tanh.
  - apply d_bipolar.
  - ua. auto_derive; [exact I|]. ring.
  - ua. exps z. auto_derive; [lra|]. field. lra.
Qed.

(** * C23 *)
Ltac rb := unfold Rltb', Rleb'; repeat match goal with
  | |- context[Rlt_dec ?a ?b] => destruct (Rlt_dec a b); try lra
  | |- context[Rle_dec ?a ?b] => destruct (Rle_dec a b); try lra
  end; simpl andb; cbv iota; try reflexivity; try lra.

Lemma d_relu z : z <> 0 -> is_derive (F relu) z (F' relu z).
Proof.
  intros Hz. destruct (Rlt_or_le z 0).
  - apply (deriv_local _ (fun _ => 0) z _ (z - 1) 0); [lra| |]; ua; [intros y Hy; rb|]. rb. auto_derive; [exact I|ring].
  - apply (deriv_local _ (fun y => y) z _ 0 (z + 1)); [lra| |]; ua; [intros y Hy; rb|]; rb. auto_derive; [exact I|ring].
Qed.
Lemma d_absolute z : z <> 0 -> is_derive (F absolute) z (F' absolute z).
Proof.
  intros Hz. destruct (Rlt_or_le z 0).
  - apply (deriv_local _ (fun y => - y) z _ (z - 1) 0); [lra| |]; ua; [intros y Hy; apply Rabs_left; lra|]; rb. auto_derive; [exact I|ring].
  - apply (deriv_local _ (fun y => y) z _ 0 (z + 1)); [lra| |]; ua; [intros y Hy; apply Rabs_pos_eq; lra|]; rb. auto_derive; [exact I|ring].
Qed.
Lemma hard_mid y : -1 <= y <= 1 -> F hardtanh y = y.
Proof. intros H. ua. rewrite Rmin_right by lra. apply Rmax_right. lra. Qed.
Lemma hard_lo y : y <= -1 -> F hardtanh y = -1.
Proof. intros H. ua. rewrite Rmin_right by lra. apply Rmax_left. lra. Qed.
Lemma hard_hi y : 1 <= y -> F hardtanh y = 1.
Proof. intros H. ua. rewrite Rmin_left by lra. apply Rmax_right. lra. Qed.
Lemma d_hardtanh z : z <> 1 -> z <> -1 -> is_derive (F hardtanh) z (F' hardtanh z).
Proof.
  intros H1 H2. destruct (Rlt_or_le z (-1)); [|destruct (Rlt_or_le z 1)].
  - apply (deriv_local _ (fun _ => -1) z _ (z - 1) (-1)); [lra|intros y Hy; apply hard_lo; lra|]; ua; rb; auto_derive; [exact I|ring].
  - apply (deriv_local _ (fun y => y) z _ (-1) 1); [lra|intros y Hy; apply hard_mid; lra|]; ua; rb; auto_derive; [exact I|ring].
  - apply (deriv_local _ (fun _ => 1) z _ 1 (z + 1)); [lra|intros y Hy; apply hard_hi; lra|]; ua; rb; auto_derive; [exact I|ring].
Qed.
Lemma d_relucos z : z <> 0 -> is_derive (F relucos) z (F' relucos z).
Proof.
  intros Hz. destruct (Rlt_or_le z 0).
  - apply (deriv_local _ (fun y => 0 + cos y) z _ (z - 1) 0); [lra|intros y Hy; ua; rewrite Rmax_left by lra; reflexivity|]; ua; rb; auto_derive; [exact I|ring].
  - apply (deriv_local _ (fun y => y + cos y) z _ 0 (z + 1)); [lra|intros y Hy; ua; rewrite Rmax_right by lra; reflexivity|]; ua; rb; auto_derive; [exact I|ring].
Qed.
Lemma d_relusin z : z <> 0 -> is_derive (F relusin) z (F' relusin z).
Proof.
  intros Hz. destruct (Rlt_or_le z 0).
  - apply (deriv_local _ (fun y => 0 + sin y) z _ (z - 1) 0); [lra|intros y Hy; ua; rewrite Rmax_left by lra; reflexivity|]; ua; rb; auto_derive; [exact I|ring].
  - apply (deriv_local _ (fun y => y + sin y) z _ 0 (z + 1)); [lra|intros y Hy; ua; rewrite Rmax_right by lra; reflexivity|]; ua; rb; auto_derive; [exact I|ring].
Qed.

Theorem C23_away_from_kinks : forall z : R,
  (z <> 0 -> is_derive (F relu) z (F' relu z) /\ is_derive (F absolute) z (F' absolute z) /\
             is_derive (F relucos) z (F' relucos z) /\ is_derive (F relusin) z (F' relusin z)) /\
  (z <> 1 -> z <> -1 -> is_derive (F hardtanh) z (F' hardtanh z)).
Proof.
  intros z. split; [|apply d_hardtanh]. intros Hz.
  split; [now apply d_relu|]. split; [now apply d_absolute|]. split; [now apply d_relucos|now apply d_relusin].
Qed.

Lemma sides (f g1 g2 : R -> R) x dr dl : (forall y, x <= y < x + 1 -> f y = g1 y) -> (forall y, x - 1 < y <= x -> f y = g2 y) ->
  is_derive g1 x dr -> is_derive g2 x dl -> dr <> dl -> right_deriv f x dr /\ left_deriv f x dl /\ ~ ex_derive f x.
Proof.
  intros H1 H2 D1 D2 Hne. assert (A : right_deriv f x dr) by (eapply right_ext; [apply Rlt_0_1|exact H1|now apply deriv_right]).
  assert (B : left_deriv f x dl) by (eapply left_ext; [apply Rlt_0_1|exact H2|now apply deriv_left]).
  split; [exact A|]. split; [exact B|]. eapply kink; eauto.
Qed.

Theorem C23_at_kinks :
  (right_deriv (F relu) 0 (F' relu 0) /\ left_deriv (F relu) 0 0 /\ ~ ex_derive (F relu) 0) /\
  (right_deriv (F absolute) 0 (F' absolute 0) /\ left_deriv (F absolute) 0 (-1) /\ ~ ex_derive (F absolute) 0) /\
  (right_deriv (F relucos) 0 (F' relucos 0) /\ left_deriv (F relucos) 0 0 /\ ~ ex_derive (F relucos) 0) /\
  (right_deriv (F relusin) 0 (F' relusin 0) /\ left_deriv (F relusin) 0 1 /\ ~ ex_derive (F relusin) 0) /\
  (right_deriv (F hardtanh) (-1) (F' hardtanh (-1)) /\ left_deriv (F hardtanh) (-1) 0 /\ ~ ex_derive (F hardtanh) (-1)) /\
  (right_deriv (F hardtanh) 1 0 /\ left_deriv (F hardtanh) 1 (F' hardtanh 1) /\ ~ ex_derive (F hardtanh) 1).
Proof.
  split; [|split; [|split; [|split; [|split]]]].
  - replace (F' relu 0) with 1 by (ua; rb; reflexivity).
    apply (sides _ (fun y => y) (fun _ => 0)); [intros y Hy; ua; rb; reflexivity| | | |lra].
    + intros y Hy; ua; rb; reflexivity.
    + auto_derive; [exact I|ring].
    + auto_derive; [exact I|ring].
  - replace (F' absolute 0) with 1 by (ua; rb; reflexivity).
    apply (sides _ (fun y => y) (fun y => - y)); [intros y Hy; ua; apply Rabs_pos_eq; lra| | | |lra].
    + intros y Hy; ua; rewrite <- Rabs_Ropp; apply Rabs_pos_eq; lra.
    + auto_derive; [exact I|ring].
    + auto_derive; [exact I|ring].
  - replace (F' relucos 0) with 1 by (ua; rb; rewrite sin_0; ring).
    apply (sides _ (fun y => y + cos y) (fun y => 0 + cos y)); [intros y Hy; ua; rewrite Rmax_right by lra; reflexivity| | | |lra].
    + intros y Hy; ua; rewrite Rmax_left by lra; reflexivity.
    + auto_derive; [exact I|rewrite sin_0; ring].
    + auto_derive; [exact I|rewrite sin_0; ring].
  - replace (F' relusin 0) with 2 by (ua; rb; rewrite cos_0; ring).
    apply (sides _ (fun y => y + sin y) (fun y => 0 + sin y)); [intros y Hy; ua; rewrite Rmax_right by lra; reflexivity| | | |lra].
    + intros y Hy; ua; rewrite Rmax_left by lra; reflexivity.
    + auto_derive; [exact I|rewrite cos_0; ring].
    + auto_derive; [exact I|rewrite cos_0; ring].
  - replace (F' hardtanh (-1)) with 1 by (ua; rb; reflexivity).
    apply (sides _ (fun y => y) (fun _ => -1)); [intros y Hy; apply hard_mid; lra|intros y Hy; apply hard_lo; lra| | |lra];
      auto_derive; try exact I; ring.
  - replace (F' hardtanh 1) with 1 by (ua; rb; reflexivity).
    apply (sides _ (fun _ => 1) (fun y => y)); [intros y Hy; apply hard_hi; lra|intros y Hy; apply hard_mid; lra| | |lra];
      auto_derive; try exact I; ring.
Qed.

(** * C24 *)
Theorem C24_lecuntanh : forall z : R, exists d, is_derive (F lecuntanh) z d /\ 0 < d /\
  F' lecuntanh z <> d /\ (d - F' lecuntanh z) / d = 1 / 343180000 /\ Rabs (F' lecuntanh z - d) < 34 / 10 ^ 10.
Proof.
  intros z. set (x := 2 / 3 * z). exps x. set (s := exp x + exp (- x)).
  assert (Hs : 0 < s) by (unfold s; lra).
  assert (Hs2 : 4 <= s * s).
  { unfold s. pose proof (Rle_0_sqr (exp x - exp (- x))) as Q. unfold Rsqr in Q.
    replace ((exp x + exp (- x)) * (exp x + exp (- x))) with ((exp x - exp (- x)) * (exp x - exp (- x)) + 4 * (exp x * exp (- x))) by ring. lra. }
  set (d := 17159 / 10000 * (2 / 3) * (4 / (s * s))). exists d.
  assert (Hd : is_derive (F lecuntanh) z d).
  { ua. change (10 ^ 4)%Z with 10000%Z.
    apply (is_derive_ext (fun z => 17159 / 10000 * ((exp (2/3*z) - exp (- (2/3*z))) / (exp (2/3*z) + exp (- (2/3*z)))))).
    { intros t. rewrite (tanh_exp (2 / 3 * t)). reflexivity. }
    auto_derive; fold x; [unfold s in Hs; lra|]. unfold d.
    replace (exp x + exp (- x)) with s by reflexivity.
    replace (4 / (s * s)) with (4 * (exp x * exp (- x)) / (s * s)) by (rewrite H1; field; lra). unfold s. field. unfold s in Hs. lra. }
  assert (Eg : F' lecuntanh z = 114393333 / 100000000 * (4 / (s * s))).
  { ua. change (10 ^ 8)%Z with 100000000%Z. fold x. fold s. field. lra. }
  assert (P : 0 < 4 / (s * s)) by (apply Rdiv_lt_0_compat; nra).
  assert (P1 : 4 / (s * s) <= 1) by (apply (Rle_div_l 4 1 (s * s)); lra).
  assert (D0 : 0 < d) by (unfold d; apply Rmult_lt_0_compat; lra).
  assert (E : d - F' lecuntanh z = d * (1 / 343180000)) by (rewrite Eg; unfold d; field; lra).
  split; [exact Hd|]. split; [exact D0|]. split; [|split].
  - intros Ec. rewrite Ec in E. lra.
  - rewrite E. field. lra.
  - rewrite Rabs_minus_sym, E. rewrite Rabs_pos_eq by nra. unfold d. replace (10 ^ 10) with 10000000000 by ring. set (q := 4 / (s * s)) in *. lra.
Qed.

(** * C25 *)
Definition increasing (f : R -> R) := forall x y, x < y -> f x < f y.
Definition nondecreasing (f : R -> R) := forall x y, x <= y -> f x <= f y.

Lemma inv1 x y : 0 < x -> x < y -> / y < / x.
Proof. intros. apply Rinv_lt_contravar; [nra|assumption]. Qed.
Lemma sig_eq z : F sigmoid z = / (1 + exp (- z)).
Proof. ua. unfold Rdiv. ring. Qed.
Lemma sig_inc : increasing (F sigmoid).
Proof. intros x y H. rewrite !sig_eq. pose proof (ep (- y)). apply inv1; [lra|]. assert (exp (- y) < exp (- x)) by (apply exp_increasing; lra). lra. Qed.
Lemma sig_range z : 0 < F sigmoid z < 1.
Proof.
  rewrite sig_eq. pose proof (ep (- z)). split; [apply Rinv_0_lt_compat; lra|]. rewrite <- Rinv_1. apply inv1; lra.
Qed.
Lemma bip_sig z : F bipolarsigmoid z = 2 * F sigmoid z - 1.
Proof. ua. unfold Rdiv. ring. Qed.
Lemma tanh_sig z : tanh z = 2 * F sigmoid (2 * z) - 1.
Proof.
  rewrite sig_eq, tanh_exp. replace (- (2 * z)) with (- z + - z) by ring. rewrite exp_plus. exps z.
  replace (exp z) with (/ exp (- z)) by (field_simplify_eq; lra). field. split; nra.
Qed.

Theorem C25_ranges : forall z : R,
  (0 < F sigmoid z < 1) /\ (0 < F comploglog z < 1) /\ (-1 < F tanhyperbolic z < 1) /\ (-1 < F bipolarsigmoid z < 1) /\
  (- PI / 2 < F arctan z < PI / 2) /\ (- (17159 / 10000) < F lecuntanh z < 17159 / 10000) /\ (-1 <= F hardtanh z <= 1) /\
  F relu z = Rmax 0 z /\ 0 <= F absolute z /\ Rmax 0 z < F smoothrelu z /\ F identity z = z /\
  (0 < F' smoothrelu z < 1) /\ (0 < F' sigmoid z <= 1 / 4).
Proof.
  intros z. assert (T : forall x, -1 < tanh x < 1) by (intros x; rewrite tanh_sig; pose proof (sig_range (2 * x)); lra).
  assert (G : F' smoothrelu z = F sigmoid z).
  { rewrite sig_eq. ua. exps z. replace (exp (- z)) with (/ exp z) by (field_simplify_eq; lra). field. lra. }
  repeat match goal with |- _ /\ _ => split end.
  - apply sig_range.
  - apply sig_range.
  - ua. assert (exp (- exp z) < exp 0) by (apply exp_increasing; pose proof (ep z); lra). rewrite exp_0 in *. lra.
  - ua. pose proof (ep (- exp z)). lra.
  - apply T.
  - apply T.
  - rewrite bip_sig. pose proof (sig_range z). lra.
  - rewrite bip_sig. pose proof (sig_range z). lra.
  - ua. apply atan_bound.
  - ua. apply atan_bound.
  - ua. change (10 ^ 4)%Z with 10000%Z. pose proof (T (2 / 3 * z)). nra.
  - ua. change (10 ^ 4)%Z with 10000%Z. pose proof (T (2 / 3 * z)). nra.
  - ua. apply Rmax_l.
  - ua. apply Rmax_lub; [lra|apply Rmin_l].
  - ua. unfold Rleb'. destruct (Rle_dec 0 z); [rewrite Rmax_right; lra|rewrite Rmax_left; lra].
  - ua. apply Rabs_pos.
  - ua. pose proof (ep z). apply Rmax_lub_lt; [rewrite <- ln_1; apply ln_increasing; lra|].
    rewrite <- (ln_exp z) at 1. apply ln_increasing; lra.
  - reflexivity.
  - rewrite G. apply sig_range.
  - rewrite G. apply sig_range.
  - ua. exps z. apply Rdiv_lt_0_compat; [apply Rdiv_lt_0_compat; lra|lra].
  - ua. exps z. set (e := exp (- z)) in *. replace (e / (1 + e) / (1 + e)) with (e / ((1 + e) * (1 + e))) by (field; lra).
    apply (Rle_div_l e (1 / 4) ((1 + e) * (1 + e))); [nra|]. pose proof (Rle_0_sqr (e - 1)) as Q. unfold Rsqr in Q. lra.
Qed.

Theorem C25_monotone :
  increasing (F sigmoid) /\ increasing (F arctan) /\ increasing (F tanhyperbolic) /\ increasing (F bipolarsigmoid) /\
  increasing (F comploglog) /\ increasing (F lecuntanh) /\ increasing (F smoothrelu) /\ increasing (F identity) /\
  nondecreasing (F relu) /\ nondecreasing (F hardtanh).
Proof.
  assert (T : increasing tanh) by (intros x y H; rewrite !tanh_sig; assert (S := sig_inc (2 * x) (2 * y)); lra).
  repeat match goal with |- _ /\ _ => split end.
  - apply sig_inc.
  - intros x y H. ua. now apply atan_increasing.
  - exact T.
  - intros x y H. rewrite !bip_sig. assert (S := sig_inc x y H). lra.
  - intros x y H. ua. assert (exp (- exp y) < exp (- exp x)); [|lra]. apply exp_increasing. assert (exp x < exp y) by now apply exp_increasing. lra.
  - intros x y H. ua. change (10 ^ 4)%Z with 10000%Z. assert (S := T (2 / 3 * x) (2 / 3 * y)). lra.
  - intros x y H. ua. pose proof (ep x). apply ln_increasing; [lra|]. assert (exp x < exp y) by now apply exp_increasing. lra.
  - intros x y H. exact H.
  - intros x y H. ua. rb.
  - intros x y H. ua. apply Rle_max_compat_l. apply Rle_min_compat_l. exact H.
Qed.

(** * C26 - binary64 *)

(** IEEE 754 binary64 arithmetic with round to nearest even (Coq's executable specification); the libm
    functions are parameters. *)
Definition b64 := spec_float.
Definition SFdt (fexp flog ftanh fatan fsin fcos : b64 -> b64) (fpow : b64 -> b64 -> b64) : dtype := {|
  car := b64;
  d0 := S754_zero false; d1 := binary_normalize 53 1024 1 0 false;
  dadd := SFadd 53 1024; dsub := SFsub 53 1024; dmul := SFmul 53 1024; ddiv := SFdiv 53 1024;
  dneg := SFopp; dabs := SFabs; dexp := fexp; dlog := flog; dsqrt := SFsqrt 53 1024; dpow := fpow;
  dltb := SFltb; dleb := SFleb; deqb := SFeqb;
  dofZ := fun z => binary_normalize 53 1024 z 0 false;
  dlit := fun m e => SFdiv 53 1024 (binary_normalize 53 1024 m 0 false) (binary_normalize 53 1024 (10 ^ e) 0 false);
  dtanh := ftanh; datan := fatan; dsin := fsin; dcos := fcos;
  dfmax := fun x y => if SFltb x y then y else x; dfmin := fun x y => if SFltb y x then y else x |}.

Theorem C26_nan : forall fexp flog ftanh fatan fsin fcos fpow (z : b64),
  let D := SFdt fexp flog ftanh fatan fsin fcos fpow in
  (fexp z = S754_infinity false -> actd (D:=D) smoothrelu z = S754_nan) /\
  (fexp (SFopp z) = S754_infinity false ->
     actd (D:=D) sigmoid z = S754_nan /\ act (D:=D) sigmoid z = S754_zero false) /\
  (fexp z = S754_infinity false -> fexp (S754_infinity true) = S754_zero false ->
     actd (D:=D) comploglog z = S754_nan /\ act (D:=D) comploglog z = binary_normalize 53 1024 1 0 false) /\
  (fexp (SFopp z) = S754_infinity false -> act (D:=D) bipolarsigmoid z = binary_normalize 53 1024 (-1) 0 false /\
     actd (D:=D) bipolarsigmoid z = S754_zero false).
Proof.
  intros fexp flog ftanh fatan fsin fcos fpow z D. split; [|split; [|split]].
  - intros H. cbv beta iota zeta delta [actd smoothrelu initactfunc f_smoothrelugrad D SFdt dexp]. rewrite H. reflexivity.
  - intros H. cbv beta iota zeta delta [act actd sigmoid initactfunc f_sigmoidgrad f_sigmoid D SFdt dexp dneg]. rewrite H. split; reflexivity.
  - intros H H0. cbv beta iota zeta delta [act actd comploglog initactfunc f_complogloggrad f_comploglog D SFdt dexp dneg]. rewrite H.
    cbn [SFopp negb]. rewrite H0. split; reflexivity.
  - intros H. cbv beta iota zeta delta [act actd bipolarsigmoid initactfunc f_bipolargrad f_bipolar D SFdt dexp dneg]. rewrite H. split; reflexivity.
Qed.
(** The contrast in exact arithmetic: those derivatives exist and are bounded at every argument. *)
Theorem C26_exact_contrast : forall z : R, 0 < F' smoothrelu z < 1 /\ 0 < F' sigmoid z <= 1 / 4 /\ 0 < F' comploglog z <= 1.
Proof.
  intros z. destruct (C25_ranges z) as (_&_&_&_&_&_&_&_&_&_&_& A & B). split; [exact A|]. split; [exact B|]. ua. pose proof (ep z).
  split; [apply Rmult_lt_0_compat; apply ep|]. assert (H1 : exp z < exp (exp z)).
  { apply exp_increasing. pose proof (exp_ineq1_le z). lra. }
  pose proof (exp_inv (exp z)). pose proof (ep (- exp z)). nra.
Qed.

(** A witness for the hypotheses of C26: an exponential that overflows at +710 and underflows at -inf. *)
Definition ex_exp (z : b64) : b64 :=
  if SFltb (binary_normalize 53 1024 709 0 false) z then S754_infinity false else S754_zero false.
Example ex_exp_ok : ex_exp (binary_normalize 53 1024 710 0 false) = S754_infinity false /\
  ex_exp (SFopp (binary_normalize 53 1024 (-710) 0 false)) = S754_infinity false /\ ex_exp (S754_infinity true) = S754_zero false.
Proof. vm_compute. auto. Qed.

Print Assumptions C22_smooth. Print Assumptions C24_lecuntanh. Print Assumptions C25_ranges. Print Assumptions C26_nan.

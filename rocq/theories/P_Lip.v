(** P_Lip.v - C91: similar samples get similar answers. *)
From Coq Require Import Reals Lra Lia.
From Coquelicot Require Import Coquelicot.
From Verif Require Import Base Mat Act Layer Conv Misc Net NetP TrainP ExNet RInst RMat P_Act P_Round P_Pred P_Drift Func.
Local Open Scope nat_scope.

(** ** Specification *)
(** g is a bound for how much the layer can enlarge differences: a Lipschitz constant of the activation function times the
    largest absolute column sum of the weights, biases left out. *)
Definition gain (l : layer Rdt) (g : R) : Prop :=
  exists c w : R, lipschitz (act (l_act l)) c /\ (0 <= c)%R /\ (0 <= w)%R /\
    (forall j, j < nc (l_W l) -> (sumN (nr (l_W l) - 1) (fun k => Rabs (at_ (l_W l) (S k) j)) <= w)%R) /\ g = (c * w)%R.
Definition product (gs : list R) : R := fold_right Rmult 1%R gs.
(** Class c wins row i of a by more than m. *)
Definition wins_by (a : mat Rdt) (i c : nat) (m : R) : Prop := c < nc a /\ forall j, j < nc a -> j <> c -> (at_ a i j + m < at_ a i c)%R.

(** ** Proof *)
Lemma gain_nonneg l g : gain l g -> (0 <= g)%R.
Proof. intros (c & w & _ & C & W & _ & ->). now apply Rmult_le_pos. Qed.
Lemma unit_lip l g v w e : gain l g -> (0 <= e)%R -> (forall k, k < nr (l_W l) - 1 -> (Rabs (v k - w k) <= e)%R) -> forall j, j < nc (l_W l) -> (Rabs (unit_of l v j - unit_of l w j) <= g * e)%R.
Proof.
  intros (c & b & Lc & C0 & B0 & HB & ->) He HV j Hj. unfold unit_of. eapply Rle_trans; [apply Lc|]. rewrite Rmult_assoc. apply Rmult_le_compat_l; [assumption|].
  match goal with |- (Rabs (?w0 + ?s - (?w0' + ?s')) <= _)%R => replace (w0 + s - (w0 + s'))%R with (s - s')%R by lra end.
  rewrite <- sumN_minus. eapply Rle_trans; [apply sumN_abs_le|]. eapply Rle_trans; [apply (sumN_le' _ _ (fun k => e * Rabs (at_ (l_W l) (S k) j))%R)|].
  - intros k Hk. change (car Rdt) with R. match goal with |- (Rabs (?p * ?q - ?r * ?q') <= _)%R => replace (p * q - r * q)%R with ((p - r) * q)%R by (change (car Rdt) with R; lra) end. rewrite Rabs_mult. apply Rmult_le_compat_r; [apply Rabs_pos|]. now apply HV.
  - rewrite sumN_scal. rewrite (Rmult_comm b). apply Rmult_le_compat_l; [assumption|]. now apply HB.
Qed.
Lemma value_lip ls : forall gs p v w e, Forall2 gain ls gs -> chained p ls -> ls <> [] -> (0 <= e)%R -> (forall k, k < p -> (Rabs (v k - w k) <= e)%R) ->
  forall j, j < width p ls -> (Rabs (value ls v j - value ls w j) <= product gs * e)%R.
Proof.
  induction ls as [|l ls IH]; intros gs p v w e HG HC HN He HV j Hj; [congruence|]. inversion HG as [|? g ? gs' G1 G2]; subst. destruct HC as [C1 C2]. cbn [width] in Hj.
  assert (U : forall k, k < nc (l_W l) -> (Rabs (unit_of l v k - unit_of l w k) <= g * e)%R) by (apply unit_lip; [assumption|assumption|intros; apply HV; lia]).
  cbn [value fold_left product fold_right]. destruct ls as [|l2 ls].
  - inversion G2; subst. cbn [fold_left product fold_right width] in *. rewrite Rmult_1_r. now apply U.
  - replace (g * fold_right Rmult 1 gs' * e)%R with (product gs' * (g * e))%R by (unfold product; ring). apply (IH gs' (nc (l_W l))); try assumption; [discriminate|]. apply Rmult_le_pos; [eapply gain_nonneg; exact G1|assumption].
Qed.

Lemma all_width n H ls p : all_layers n H ls -> width p ls = nc (l_W (o_l (n_output n))) /\ ls <> [].
Proof. intros (_ & hs & _ & ->). split; [apply width_app|destruct hs; discriminate]. Qed.
(** Two samples (rows of any two batches) that differ by at most e in every feature get outputs that differ by at most e times
    the product of the layers' gains. *)
Theorem C91_lipschitz : forall junk junk' (n : net Rdt) (H : lheap Rdt) ls gs (x a x' a' : mat Rdt) i i' e,
  all_layers n H ls -> Forall2 gain ls gs -> answers junk n H x a -> answers junk' n H x' a' -> i < nr x -> i' < nr x' ->
  (forall k, k < nc x -> (Rabs (at_ x i k - at_ x' i' k) <= e)%R) ->
  nc x = nc x' /\ nc a = nc a' /\ forall j, j < nc a -> (Rabs (at_ a i j - at_ a' i' j) <= product gs * e)%R.
Proof.
  intros jk jk' n H ls gs x a x' a' i i' e HL HG HA HA' Hi Hi' He. destruct (answers_value _ _ _ _ _ _ HL HA) as (A1 & A2 & A3 & A4 & A4' & A5). destruct (answers_value _ _ _ _ _ _ HL HA') as (B1 & B2 & B3 & B4 & B4' & B5).
  destruct (all_width n H ls (nc x) HL) as [W1 W2]. assert (EC : nc x = nc x') by (destruct ls; [congruence|]; cbn in A1, B1; lia). split; [assumption|]. split; [congruence|].
  intros j Hj. rewrite A5, B5 by (try assumption; congruence). apply (value_lip ls gs (nc x)); try assumption; [|rewrite W1; congruence].
  eapply Rle_trans; [apply Rabs_pos|]. apply (He 0). lia.
Qed.
(** So a prediction that wins by more than twice that bound is the prediction for every sample within e. *)
Theorem C91_predict : forall junk junk' (n : net Rdt) (H : lheap Rdt) ls gs (x a x' p p' : mat Rdt) n1 H1 n2 H2 i i' c e,
  all_layers n H ls -> Forall2 gain ls gs -> answers junk n H x a -> wins_by a i c (2 * (product gs * e)) ->
  net_predict (D := Rdt) junk n H x = Ok (p, n1, H1) -> net_predict (D := Rdt) junk' n H x' = Ok (p', n2, H2) -> i < nr x -> i' < nr x' ->
  (forall k, k < nc x -> (Rabs (at_ x i k - at_ x' i' k) <= e)%R) ->
  (at_ p i 0 : R) = INR c /\ (at_ p' i' 0 : R) = INR c /\ (Rabs (at_ p i 1 - at_ p' i' 1) <= product gs * e)%R.
Proof.
  intros jk jk' n H ls gs x a x' p p' n1 H1 n2 H2 i i' c e HL HG HA (Wc & WW) HP HP' Hi Hi' He.
  destruct (C34_predict (D := Rdt) jk n H x p n1 H1 HP) as (z & m1 & K1 & R1 & _ & R2 & _ & _ & _ & _ & R3). assert (z = a) by (destruct HA as (? & ? & HA); congruence). subst z.
  destruct (C34_predict (D := Rdt) jk' n H x' p' n2 H2 HP') as (a' & m2 & K2 & S1 & _ & S2 & _ & _ & _ & _ & S3). assert (HA' : answers jk' n H x' a') by (do 2 eexists; exact S1).
  destruct (C91_lipschitz _ _ _ _ _ _ _ _ _ _ i i' e HL HG HA HA' Hi Hi' He) as (X1 & X2 & X3). set (E := (product gs * e)%R) in *.
  destruct (answers_value _ _ _ _ _ _ HL HA) as (_ & A2 & _). destruct (answers_value _ _ _ _ _ _ HL HA') as (_ & B2 & _).
  assert (E0 : (0 <= E)%R) by (eapply Rle_trans; [apply Rabs_pos|exact (X3 c Wc)]).
  destruct (R3 i ltac:(lia) (ordered_R a i)) as (k & (Q1 & Q2 & _) & Q4 & Q5). destruct (S3 i' ltac:(lia) (ordered_R a' i')) as (k' & (J1 & J2 & _) & J4 & J5).
  assert (Ek : k = c).
  { destruct (Nat.eq_dec k c) as [|N]; [assumption|]. exfalso. pose proof (WW k Q1 N) as G. specialize (Q2 c Wc). cbn in Q2. unfold Rltb' in Q2. destruct (Rlt_dec _ _) as [|X]; [discriminate|]. apply X. change (car Rdt) with R in *; lra. }
  assert (Ek' : k' = c).
  { destruct (Nat.eq_dec k' c) as [|N]; [assumption|]. exfalso. rewrite <- X2 in J1. pose proof (WW k' J1 N) as G. pose proof (X3 k' J1) as G1. pose proof (X3 c Wc) as G2.
    apply Rabs_le_between in G1, G2. specialize (J2 c ltac:(lia)). cbn in J2. unfold Rltb' in J2. destruct (Rlt_dec _ _) as [|X]; [discriminate|]. apply X. change (car Rdt) with R in *; lra. }
  subst k k'. rewrite Q4, J4, Q5, J5. cbn [dofZ Rdt]. rewrite INR_IZR_INZ. split; [reflexivity|]. split; [reflexivity|]. apply X3; assumption.
Qed.

(** ** The activation functions of the library *)
Lemma lip_deriv (f f' : R -> R) c : (forall z, is_derive f z (f' z)) -> (forall z, Rabs (f' z) <= c)%R -> lipschitz f c.
Proof.
  intros HD HB z z'. destruct (Rtotal_order z z') as [L|[->|L]].
  - destruct (MVT_cor2 f f' z z' L) as (t & E & _). { intros s _. apply is_derive_Reals. apply HD. }
    replace (f z - f z')%R with (- (f z' - f z))%R by lra. rewrite Rabs_Ropp, E, Rabs_mult. rewrite (Rabs_minus_sym z z'). apply Rmult_le_compat_r; [apply Rabs_pos|apply HB].
  - rewrite !Rminus_diag_eq by reflexivity. rewrite Rabs_R0. lra.
  - destruct (MVT_cor2 f f' z' z L) as (t & E & _). { intros s _. apply is_derive_Reals. apply HD. }
    rewrite E, Rabs_mult. apply Rmult_le_compat_r; [apply Rabs_pos|apply HB].
Qed.
Lemma lip_max : lipschitz (Rmax 0) 1.
Proof. intros z z'. unfold Rmax. destruct (Rle_dec 0 z), (Rle_dec 0 z'); unfold Rabs; repeat destruct Rcase_abs; lra. Qed.
Lemma lip_plus f g c d : lipschitz f c -> lipschitz g d -> lipschitz (fun z => f z + g z)%R (c + d).
Proof.
  intros Lf Lg z z'. replace (f z + g z - (f z' + g z'))%R with ((f z - f z') + (g z - g z'))%R by lra. eapply Rle_trans; [apply Rabs_triang|]. specialize (Lf z z'). specialize (Lg z z'). lra.
Qed.
Lemma lip_ext f g c : (forall z, f z = g z) -> lipschitz f c -> lipschitz g c.
Proof. intros E L z z'. rewrite <- !E. apply L. Qed.
Theorem C91_constants :
  lipschitz (F identity) 1 /\ lipschitz (F sigmoid) (1 / 4) /\ lipschitz (F arctan) 1 /\ lipschitz (F tanhyperbolic) 1 /\ lipschitz (F bipolarsigmoid) (1 / 2) /\
  lipschitz (F comploglog) 1 /\ lipschitz (F lecuntanh) (115 / 100) /\ lipschitz (F hardtanh) 1 /\ lipschitz (F absolute) 1 /\ lipschitz (F relu) 1 /\
  lipschitz (F relucos) 2 /\ lipschitz (F relusin) 2 /\ lipschitz (F smoothrelu) 1.
Proof.
  assert (S : lipschitz (F sigmoid) (1 / 4)). { apply (lip_deriv _ (F' sigmoid)); [apply d_sigmoid|]. intros z. destruct (C25_ranges z) as (_ & _ & _ & _ & _ & _ & _ & _ & _ & _ & _ & _ & Q). rewrite Rabs_pos_eq; lra. }
  assert (T : lipschitz tanh 1). { apply (lip_deriv _ (fun z => 1 - tanh z * tanh z)%R); [apply d_tanh|]. intros z. destruct (C25_ranges z) as (_ & _ & Q & _). change (F tanhyperbolic z) with (tanh z) in Q. rewrite Rabs_pos_eq; nra. }
  assert (TC : forall c s, (0 <= c)%R -> (0 <= s)%R -> lipschitz (fun z => c * tanh (s * z))%R (c * s)).
  { intros c s Hc Hs z z'. rewrite <- Rmult_minus_distr_l, Rabs_mult, (Rabs_pos_eq c) by assumption. rewrite Rmult_assoc. apply Rmult_le_compat_l; [assumption|]. eapply Rle_trans; [apply T|]. rewrite <- Rmult_minus_distr_l, Rabs_mult, (Rabs_pos_eq s) by assumption. lra. }
  repeat split.
  - intros z z'. ua. lra.
  - exact S.
  - apply (lip_deriv _ (F' arctan)); [intros z; apply C22_smooth|]. intros z. ua. assert (0 < / (1 + z * z) <= 1)%R. { split; [apply Rinv_0_lt_compat; nra|]. rewrite <- Rinv_1. apply Rinv_le_contravar; nra. } unfold Rdiv. rewrite Rmult_1_l, Rabs_pos_eq; lra.
  - exact T.
  - intros z z'. rewrite !bip_sig. replace (2 * F sigmoid z - 1 - (2 * F sigmoid z' - 1))%R with (2 * (F sigmoid z - F sigmoid z'))%R by lra. rewrite Rabs_mult, (Rabs_pos_eq 2) by lra. specialize (S z z'). lra.
  - apply (lip_deriv _ (F' comploglog)); [intros z; apply C22_smooth|]. intros z. destruct (C26_exact_contrast z) as (_ & _ & Q). rewrite Rabs_pos_eq; lra.
  - intros z z'. eapply Rle_trans; [apply (TC (17159 / 10000)%R (2 / 3)%R); lra|]. pose proof (Rabs_pos (z - z')). lra.
  - intros z z'. ua. unfold Rmax, Rmin. repeat destruct (Rle_dec _ _); unfold Rabs; repeat destruct Rcase_abs; lra.
  - intros z z'. ua. rewrite Rmult_1_l. apply Rabs_triang_inv2.
  - eapply lip_ext; [|exact lip_max]. intros z. destruct (C25_ranges z) as (_ & _ & _ & _ & _ & _ & _ & Q & _). now rewrite Q.
  - replace 2%R with (1 + 1)%R by lra. apply (lip_plus (Rmax 0) cos); [exact lip_max|]. apply (lip_deriv _ (fun z => - sin z)%R); [intros z; auto_derive; [exact I|ring]|]. intros z. rewrite Rabs_Ropp. apply Rabs_le. pose proof (SIN_bound z). lra.
  - replace 2%R with (1 + 1)%R by lra. apply (lip_plus (Rmax 0) sin); [exact lip_max|]. apply (lip_deriv _ cos); [intros z; auto_derive; [exact I|ring]|]. intros z. apply Rabs_le. pose proof (COS_bound z). lra.
  - apply (lip_deriv _ (F' smoothrelu)); [intros z; apply C22_smooth|]. intros z. destruct (C26_exact_contrast z) as (Q & _). rewrite Rabs_pos_eq; lra.
Qed.

(** ** A concrete case: 2 features, a hidden layer of one rectified unit, two linear outputs. *)
Definition lipl (f : actfunc Rdt) (W : mat Rdt) : layer Rdt := L (D := Rdt) 1%R 0%R f mempty mempty mempty mempty W mempty.
Definition lipH : lheap Rdt := [HDense (lipl relu (Mat (D := Rdt) 3 1 [0; 1; -1]%R))].
Definition lipn : net Rdt := N (D := Rdt) mempty quad_cost quad_costd (lipl identity mempty) [0] (O (lipl identity (Mat (D := Rdt) 2 2 [0; 1; 0; -1]%R)) quad_cost quad_costd mempty).
Definition lipx : mat Rdt := Mat (D := Rdt) 1 2 [3; 1]%R.
Theorem C91_example : exists ls a, all_layers lipn lipH ls /\ Forall2 gain ls [2%R; 1%R] /\ answers (fun _ => 0%R) lipn lipH lipx a /\
  product [2%R; 1%R] = 2%R /\ (at_ a 0 0 : R) = 2%R /\ (at_ a 0 1 : R) = (-2)%R /\ wins_by a 0 0 (2 * (product [2%R; 1%R] * (9 / 10))) /\
  exists p n1 H1, net_predict (D := Rdt) (fun _ => 0%R) lipn lipH lipx = Ok (p, n1, H1).
Proof.
  set (h := lipl relu (Mat (D := Rdt) 3 1 [0; 1; -1]%R)). set (o := lipl identity (Mat (D := Rdt) 2 2 [0; 1; 0; -1]%R)).
  assert (HL : all_layers lipn lipH [h; o]). { split; [split; [repeat constructor; cbn; intuition|intros p [<-|[]]; exists h; reflexivity]|]. exists [h]. split; reflexivity. }
  assert (HG : Forall2 gain [h; o] [2%R; 1%R]).
  { destruct C91_constants as (L1 & _ & _ & _ & _ & _ & _ & _ & _ & L2 & _). constructor; [|constructor; [|constructor]].
    - exists 1%R, 2%R. split; [exact L2|]. split; [lra|]. split; [lra|]. split; [|lra]. intros [|j] Hj; cbn in Hj; [|lia]. unfold sumN. cbn. rewrite Rabs_R1. replace (Rabs (-1)) with 1%R by (rewrite Rabs_left; lra). lra.
    - exists 1%R, 1%R. split; [exact L1|]. split; [lra|]. split; [lra|]. split; [|lra]. intros [|[|j]] Hj; cbn in Hj; [| |lia]; unfold sumN; cbn; [rewrite Rabs_R1; lra|replace (Rabs (-1)) with 1%R by (rewrite Rabs_left; lra); lra]. }
  destruct (answers_ex (fun _ => 0%R) lipn lipH [h; o] lipx HL) as (a & HA); [cbn; lia|cbn; lia|cbn; lia|repeat constructor|].
  destruct (answers_value _ _ _ _ _ _ HL HA) as (_ & A2 & A3 & _ & _ & A5). cbn in A2, A3.
  assert (V : forall z, (0 <= z)%R -> act (relu (D := Rdt)) z = z). { intros z Hz. destruct (C25_ranges z) as (_ & _ & _ & _ & _ & _ & _ & Q & _). unfold F in Q. rewrite Q. now apply Rmax_right. }
  assert (U : unit_of h (feature lipx 0) 0 = 2%R). { unfold unit_of. change (l_act h) with (relu (D := Rdt)). match goal with |- act _ ?z = _ => assert (E : z = 2%R) by (unfold sumN, feature; cbn; lra); rewrite E end. apply V. lra. }
  assert (E0 : (at_ a 0 0 : R) = 2%R). { rewrite A5 by (cbn; lia). cbn [value fold_left]. unfold unit_of at 1. change (l_act o) with (identity (D := Rdt)). generalize U. generalize (unit_of h (feature lipx 0)). intros u Hu. unfold sumN. cbn. rewrite Hu. unfold f_identity. lra. }
  assert (E1 : (at_ a 0 1 : R) = (-2)%R). { rewrite A5 by (cbn; lia). cbn [value fold_left]. unfold unit_of at 1. change (l_act o) with (identity (D := Rdt)). generalize U. generalize (unit_of h (feature lipx 0)). intros u Hu. unfold sumN. cbn. rewrite Hu. unfold f_identity. lra. }
  exists [h; o], a. split; [exact HL|]. split; [exact HG|]. split; [exact HA|]. split; [unfold product; cbn; lra|]. split; [exact E0|]. split; [exact E1|]. split.
  - split; [lia|]. intros [|[|j]] Hj Hn; [congruence| |lia]. change (car Rdt) with R in *. rewrite E0, E1. unfold product. cbn. lra.
  - destruct HA as (n1 & H1 & HA). eapply predict_when; [exact HA|lia].
Qed.

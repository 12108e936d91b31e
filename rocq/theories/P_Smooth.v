(** P_Smooth.v - C100: training a deep regularised network with a small enough rate converges to a stationary point. *)
From Coq Require Import Reals Lra Psatz.
From Coquelicot Require Import Coquelicot.
From Verif Require Import Base Mat Act Layer Conv Misc Net NetP RInst RMat P_Act Grad P_Grad Trainer TrainP TrainP2 P_Train FunEq P_Mom P_Descent P_Linear Smooth Smooth2 P_Cost.
From Coq Require Import Arith.
Local Open Scope nat_scope.

(** ** Specification *)
(** forwardprop(x), backprop(y), then the sum of the squares of every stored gradient entry: the squared length of
    the gradient of the objective. *)
Definition slope2 (junk : nat -> R) (n : rnet) (H : rheap) (x y : rmat) : res R :=
  '(a, n1, H1) <- net_forward (D := Rdt) junk n H x ;;
  '(n2, H2) <- net_backprop (D := Rdt) junk n1 H1 y ;;
  ls <- hidden_layers n2 H2 ;;
  Ok (sumL (map (fun l : rlayer => sqnorm (l_grad l)) ls) + sqnorm (l_grad (o_l (n_output n2))))%R.
(** Same layer sizes, activations, regularisation and cost; weights, rates and cached matrices may differ. *)
Definition same_layer (l l' : rlayer) : Prop :=
  l_act l' = l_act l /\ l_lambda l' = l_lambda l /\ nr (l_W l') = nr (l_W l) /\ nc (l_W l') = nc (l_W l).
Definition same_build (n : rnet) (H : rheap) (m : rnet) (K : rheap) : Prop :=
  dense_hidden m K /\ (exists ls ks, hidden_layers n H = Ok ls /\ hidden_layers m K = Ok ks /\ Forall2 same_layer ls ks) /\
  same_layer (o_l (n_output n)) (o_l (n_output m)) /\ n_cost m = n_cost n /\ o_costd (n_output m) = o_costd (n_output n).
(** Every weight of the network is at most M in absolute value. *)
Definition small_layer (M : R) (l : rlayer) : Prop := forall i j, i < nr (l_W l) -> j < nc (l_W l) -> (Rabs (at_ (l_W l) i j) <= M)%R.
Definition small (M : R) (n : rnet) (H : rheap) : Prop :=
  (exists ls, hidden_layers n H = Ok ls /\ Forall (small_layer M) ls) /\ small_layer M (o_l (n_output n)).

(** ** Proof *)
Definition Nw (ts : list rlayer) : R := sumL (map (fun t : rlayer => INR (nr (l_W t)) * INR (nc (l_W t)))%R ts).
Lemma Nw_nonneg ts : (0 <= Nw ts)%R.
Proof. unfold Nw, sumL. induction ts as [|t ts IH]; cbn [map fold_right]; [lra|]. pose proof (pos_INR (nr (l_W t))). pose proof (pos_INR (nc (l_W t))). nra. Qed.

Lemma sum2_bound r c (f : nat -> nat -> R) b : (forall i j, i < r -> j < c -> (f i j <= b)%R) -> (sumN r (fun i => sumN c (f i)) <= INR r * INR c * b)%R.
Proof.
  intros Hf. eapply Rle_trans; [apply (sumN_le _ _ (fun _ => INR c * b)%R)|].
  - intros i Hi. eapply Rle_trans; [apply (sumN_le _ _ (fun _ => b))|]; [auto|]. rewrite sumN_const. lra.
  - rewrite sumN_const. lra.
Qed.
Lemma layer_slope r c G Lg e s (l l' : rlayer) (g : rmat) : (0 <= e)%R -> (0 <= s)%R -> (0 <= Lg)%R -> mnear r c G Lg e g (l_grad l') ->
  nr (l_W l') = r -> nc (l_W l') = c -> (forall i j, i < r -> j < c -> (Rabs (at_ g i j) <= s)%R) ->
  (fulldir l' (oppm g) <= - sqnorm g + INR r * INR c * (Lg * e * s))%R.
Proof.
  intros He Hs HL ((G1 & G2) & _ & Hn) E1 E2 Hg. unfold fulldir, sqnorm, inner. rewrite E1, E2, G1, G2.
  eapply Rle_trans; [|apply Rplus_le_compat_l; apply (sum2_bound r c (fun i j => (at_ g i j - at_ (l_grad l') i j) * at_ g i j)%R)].
  - right. rewrite <- sumN_opp, <- sumN_plus. apply sumN_ext. intros i Hi. rewrite <- sumN_opp, <- sumN_plus. apply sumN_ext. intros j Hj.
    unfold oppm. rewrite at_mk by congruence. cbn. ring.
  - intros i j Hi Hj. eapply Rle_trans; [apply Rle_abs|]. rewrite Rabs_mult. destruct (Hn i j Hi Hj) as (_ & _ & N3). apply Rmult_le_compat; auto using Rabs_pos.
Qed.
Lemma sq_entry (g : rmat) i j : i < nr g -> j < nc g -> (at_ g i j * at_ g i j <= sqnorm g)%R.
Proof.
  intros Hi Hj. unfold sqnorm, inner.
  assert (G : forall m (f : nat -> R) k, k < m -> (forall i, i < m -> (0 <= f i)%R) -> (f k <= sumN m f)%R).
  { clear. intros m f k Hk Hf. assert (E : sumN m (fun i => if i =? k then f k else 0%R) = f k).
    { rewrite (sumN_single _ _ k Hk); [now rewrite Nat.eqb_refl|]. intros i Hi Hne. destruct (Nat.eqb_spec i k); [contradiction|reflexivity]. }
    rewrite <- E at 1. apply sumN_le. intros i Hi. destruct (Nat.eqb_spec i k); subst; [lra|auto]. }
  eapply Rle_trans; [|apply (G _ (fun i => sumN (nc g) (fun j => at_ g i j * at_ g i j)%R) i Hi)].
  - apply (G _ (fun j => at_ g i j * at_ g i j)%R j Hj). intros; apply Rle_0_sqr.
  - intros; apply sumN_nonneg. intros; apply Rle_0_sqr.
Qed.
Lemma sqnorm_nonneg (g : rmat) : (0 <= sqnorm g)%R.
Proof. unfold sqnorm, inner. apply sumN_nonneg. intros. apply sumN_nonneg. intros. apply Rle_0_sqr. Qed.
Definition sqs (ks : list rlayer) : R := sumL (map (fun l : rlayer => sqnorm (l_grad l)) ks).
Lemma sqs_nonneg ks : (0 <= sqs ks)%R.
Proof. unfold sqs, sumL. induction ks as [|k ks IH]; cbn [map fold_right]; [lra|]. pose proof (sqnorm_nonneg (l_grad k)). lra. Qed.
Lemma sqs_in ks : Forall (fun l : rlayer => (sqnorm (l_grad l) <= sqs ks)%R) ks.
Proof.
  induction ks as [|k ks IH]; constructor.
  - unfold sqs, sumL. cbn [map fold_right]. pose proof (sqs_nonneg ks) as Q. unfold sqs, sumL in Q. lra.
  - eapply Forall_impl; [|exact IH]. intros l Hl. unfold sqs, sumL in *. cbn [map fold_right]. pose proof (sqnorm_nonneg (l_grad k)). cbn beta in Hl. lra.
Qed.
Lemma layers_slope G Lg e s : (0 <= e)%R -> (0 <= s)%R -> (0 <= Lg)%R -> forall k2 k2', gsnear G Lg e k2 k2' ->
  Forall2 (fun l l' : rlayer => nr (l_W l') = nr (l_W l) /\ nc (l_W l') = nc (l_W l)) k2 k2' ->
  Forall (fun l : rlayer => forall i j, i < nr (l_W l) -> j < nc (l_W l) -> (Rabs (at_ (l_grad l) i j) <= s)%R) k2 ->
  (sumL (map (fun lD => fulldir (fst lD) (snd lD)) (combine k2' (map (fun l : rlayer => oppm (l_grad l)) k2))) <= - sqs k2 + Nw k2 * (Lg * e * s))%R.
Proof.
  intros He Hs HL k2 k2' Hg. induction Hg as [|l l' k k' Hl Hk IH]; intros Hd Hb.
  - unfold sqs, Nw, sumL. cbn. lra.
  - inversion Hd as [|u v us vs [D1 D2] Hd']; subst. inversion Hb as [|u us Hb1 Hb2]; subst. specialize (IH Hd' Hb2).
    pose proof (layer_slope _ _ G Lg e s l l' (l_grad l) He Hs HL Hl D1 D2 Hb1) as Q.
    unfold sqs, Nw, sumL in *. cbn [map combine fold_right fst snd]. lra.
Qed.

Lemma lnear_mono M M' e t l l' : (M <= M')%R -> (0 <= e)%R -> lnear M e t l l' -> lnear M' e t l l'.
Proof. intros HM He (A & B & C). split; [assumption|]. split; [assumption|]. eapply mnear_mono; [exact HM|apply Rle_refl|assumption|exact C]. Qed.
Lemma lsnear_mono M M' e : (M <= M')%R -> (0 <= e)%R -> forall ts ks ks', lsnear M e ts ks ks' -> lsnear M' e ts ks ks'.
Proof. intros HM He. induction ts as [|t ts IH]; intros [|k ks] [|k' ks'] Hn; cbn in *; auto; try contradiction. destruct Hn. split; [eapply lnear_mono; eauto|auto]. Qed.
Lemma built_mono n ts M M' m K ks : (M <= M')%R -> built n ts M m K ks -> built n ts M' m K ks.
Proof. intros HM (A & B & C & E). split; [assumption|]. split; [assumption|]. split; [eapply lsnear_mono; eauto; lra|eapply lnear_mono; eauto; lra]. Qed.
Lemma lnear_right M e t l l' : lnear M e t l l' -> lnear M 0 t l' l'.
Proof.
  intros (A & B & (C1 & C2 & C3)). split; [assumption|]. split; [assumption|]. split; [assumption|]. split; [assumption|]. intros i j Hi Hj. destruct (C3 i j Hi Hj) as (N1 & N2 & N3).
  split; [assumption|]. split; [assumption|]. rewrite Rminus_diag_eq, Rabs_R0 by reflexivity. lra.
Qed.
Lemma lsnear_right M e : forall ts ks ks', lsnear M e ts ks ks' -> lsnear M 0 ts ks' ks'.
Proof. induction ts as [|t ts IH]; intros [|k ks] [|k' ks'] Hn; cbn in *; auto; try contradiction. destruct Hn. split; [eapply lnear_right; eauto|eauto]. Qed.
Definition sameWAL (l l' : rlayer) : Prop := l_W l' = l_W l /\ l_act l' = l_act l /\ l_lambda l' = l_lambda l.
Lemma lnear_same M t l l' : sameWAL l l' -> lnear M 0 t l l -> lnear M 0 t l' l'.
Proof. intros (E1 & E2 & E3) (A & B & C). unfold lnear. now rewrite E1, E2, E3. Qed.
Lemma lsnear_same M : forall ts ks ks', Forall2 sameWAL ks ks' -> lsnear M 0 ts ks ks -> lsnear M 0 ts ks' ks'.
Proof. induction ts as [|t ts IH]; intros ks ks' HS Hn; inversion HS; subst; cbn in *; auto; try contradiction. destruct Hn. split; [eapply lnear_same; eauto|eauto]. Qed.

Definition grad_le (G s : R) (k l2 : rlayer) : Prop :=
  nr (l_grad l2) = nr (l_W k) /\ nc (l_grad l2) = nc (l_W k) /\
  forall i j, i < nr (l_W k) -> j < nc (l_W k) -> (Rabs (at_ (l_grad l2) i j) <= G)%R /\ (Rabs (at_ (l_grad l2) i j) <= s)%R.
Lemma line_near M G s xi t k l2 : (0 <= xi)%R -> (xi * G <= 1)%R -> (0 <= s)%R -> lnear M 0 t k k -> grad_le G s k l2 ->
  lnear (M + 1) (xi * s) t k (set_W k (line xi (l_W k) (oppm (l_grad l2)))).
Proof.
  intros Hx HG Hs (A & _ & (C1 & _ & C3)) (D1 & D2 & D3). destruct C1 as [C1 C2]. split; [assumption|]. split; [assumption|]. split; [auto|]. split; [split; cbn; assumption|].
  intros i j Hi Hj. cbn [set_W l_W]. unfold line. rewrite at_mk by congruence. unfold oppm. rewrite at_mk by congruence.
  destruct (D3 i j) as [N1 N2]; [congruence|congruence|]. destruct (C3 i j Hi Hj) as (N3 & _ & _).
  change (near (M + 1) 1 (xi * s) (at_ (l_W k) i j) (at_ (l_W k) i j + xi * - at_ (l_grad l2) i j)%R). split; [lra|]. split.
  - eapply Rle_trans; [apply Rabs_triang|]. rewrite Rabs_mult, Rabs_Ropp, (Rabs_pos_eq xi) by assumption. assert (xi * Rabs (at_ (l_grad l2) i j) <= xi * G)%R by (apply Rmult_le_compat_l; assumption). lra.
  - match goal with |- (Rabs ?v <= _)%R => replace v with (xi * at_ (l_grad l2) i j)%R by ring end. rewrite Rabs_mult, (Rabs_pos_eq xi) by assumption. rewrite Rmult_1_l. apply Rmult_le_compat_l; assumption.
Qed.
Lemma lines_near M G s xi : (0 <= xi)%R -> (xi * G <= 1)%R -> (0 <= s)%R -> forall ts ks k2, lsnear M 0 ts ks ks -> Forall2 (grad_le G s) ks k2 ->
  lsnear (M + 1) (xi * s) ts ks (lines xi ks (map (fun l : rlayer => oppm (l_grad l)) k2)).
Proof.
  intros Hx HG Hs. induction ts as [|t ts IH]; intros ks k2 Hn Hg; inversion Hg as [|k l2 ks' k2' G1 G2]; subst; cbn in Hn; try contradiction; [exact I|].
  destruct Hn as [N1 N2]. unfold lines. cbn [map combine fst snd lsnear]. split; [eapply line_near; eauto|]. now apply IH.
Qed.
Lemma lsnear_act M e : forall ts ks ks', lsnear M e ts ks ks' -> Forall2 (fun t k : rlayer => l_act k = l_act t /\ l_lambda k = l_lambda t /\ nr (l_W k) = nr (l_W t) /\ nc (l_W k) = nc (l_W t)) ts ks.
Proof. induction ts as [|t ts IH]; intros [|k ks] [|k' ks'] Hn; cbn in *; try contradiction; constructor. destruct Hn as [((A & A') & _ & ((B & C) & _)) _]; auto. destruct Hn; eauto. Qed.
Lemma relr_id (l : rlayer) r : l_lrate l = r -> relr (r : Rdt) l = l.
Proof. destruct l; cbn. intros ->. reflexivity. Qed.
Lemma abs_sqrt u q : (u * u <= q)%R -> (Rabs u <= sqrt q)%R.
Proof. intros Hq. rewrite <- sqrt_Rsqr_abs. apply sqrt_le_1_alt. exact Hq. Qed.

Lemma step_near junk n H ts p c x y M : fits_net n H ts p c -> 1 <= p -> samples p c (x, y) -> built_in n y -> Forall (fun l : rlayer => In (l_act l) seven) ts ->
  exists eta0, (0 < eta0)%R /\ forall m K ks (t : trainer Rdt) eta, built n ts M m K ks -> Forall (fun l : rlayer => l_lrate l = eta) ks -> l_lrate (o_l (n_output m)) = eta ->
    no_decay t -> (0 < eta < eta0)%R ->
    exists J g t' m' K' ks' J', objective junk m K x y = Ok J /\ slope2 junk m K x y = Ok g /\ (0 <= g)%R /\ feeddata (D := Rdt) junk t m K x y = Ok (t', m', K') /\ no_decay t' /\
      built n ts (M + 1) m' K' ks' /\ Forall (fun l : rlayer => l_lrate l = eta) ks' /\ l_lrate (o_l (n_output m')) = eta /\
      objective junk m' K' x y = Ok J' /\ (J' <= J - eta / 2 * g)%R.
Proof.
  intros Hf Hp Hs Hb HA.
  assert (Hcd : o_costd (n_output n) = quad_costd \/ o_costd (n_output n) = ce_costd \/ o_costd (n_output n) = sm_costd) by (destruct Hb as [(_ & E & _)|[(_ & E & _)|(_ & E & _)]]; auto).
  assert (HAo : In (l_act (o_l (n_output n))) seven) by (destruct Hb as [(_ & _ & ->)|[(_ & _ & ->)|(_ & _ & -> & _)]]; cbn; auto).
  destruct (pass_near junk n H ts p c x y (M + 1) Hf Hp Hs Hcd) as (G & Lg & HG & HL & Pn).
  { eapply Forall_impl; [|exact HA]. intros l Hl. now apply seven_lip. }
  { now apply seven_lip. }
  set (No := (INR (nr (l_W (o_l (n_output n)))) * INR (nc (l_W (o_l (n_output n)))))%R). set (NT := (Nw ts + No)%R).
  assert (HNT : (0 <= NT)%R). { unfold NT, No. pose proof (Nw_nonneg ts). pose proof (pos_INR (nr (l_W (o_l (n_output n))))). pose proof (pos_INR (nc (l_W (o_l (n_output n))))). nra. }
  exists (Rmin (/ (G + 1)) (/ (2 * NT * Lg + 1))). assert (H2 : (0 <= 2 * NT * Lg)%R) by (apply Rmult_le_pos; lra). split; [apply Rmin_glb_lt; apply Rinv_0_lt_compat; lra|].
  intros m K ks t eta Hm Hr Hro Ht [He0 He1]. pose proof (Rlt_le_trans _ _ _ He1 (Rmin_l _ _)) as HeG. pose proof (Rlt_le_trans _ _ _ He1 (Rmin_r _ _)) as HeL. clear He1.
  assert (HeG' : (eta * G <= 1)%R). { apply (Rmult_lt_compat_r (G + 1)) in HeG; [|lra]. rewrite Rinv_l in HeG by lra. lra. }
  assert (HeL' : (eta * (2 * NT * Lg) <= 1)%R). { apply (Rmult_lt_compat_r (2 * NT * Lg + 1)) in HeL; [|lra]. rewrite Rinv_l in HeL by lra. lra. }
  pose proof (built_fits n H ts p c M m K ks Hf Hm) as Hfm. pose proof Hm as (M1 & M2 & M3 & M4).
  assert (Hbm : built_in m y).
  { destruct M2 as [K1 K2]. destruct M4 as ((E & _) & _). unfold built_in in *. rewrite K1, K2, E. exact Hb. }
  pose proof Hs as (S1 & S2 & S3 & S4). cbn in S1, S2, S3, S4.
  destruct (forward_backward_ok (D := Rdt) junk _ _ _ p c x y Hfm Hp S1 S2 S3 S4) as (a & n1 & H1 & n2 & H2' & k2 & A1 & A2 & A3 & A4 & A5 & A6 & A7).
  destruct (pass_dense (D := Rdt) junk _ _ _ x y a n1 H1 n2 H2' (proj1 Hfm) A1 A4) as (b & ls1 & delta & ls2' & dx & P1 & P2 & P3 & P4 & P5 & P6 & P7 & P8 & P9 & P10 & P11 & P12 & P13).
  assert (E2 : ls2' = k2).
  { pose proof (eq_trans (eq_sym (hidden_layers_dense _ _ _ (proj2 P9))) (hidden_layers_dense _ _ _ (proj2 (proj1 A5)))) as Q. now injection Q. }
  subst ls2'. pose proof (passes_form (D := Rdt) _ _ _ _ P1 _ _ _ P7) as PF.
  set (gq := (sqs k2 + sqnorm (l_grad (o_l (n_output n2))))%R). assert (Hgq : (0 <= gq)%R) by (unfold gq; pose proof (sqs_nonneg k2); pose proof (sqnorm_nonneg (l_grad (o_l (n_output n2)))); lra).
  set (s := sqrt gq). assert (Hs0 : (0 <= s)%R) by apply sqrt_pos. assert (Hss : (s * s = gq)%R) by (apply sqrt_sqrt; assumption).
  pose proof (built_mono n ts M (M + 1) m K ks ltac:(lra) Hm) as Hm1.
  destruct (Pn 0%R m K ks m K ks a n1 H1 n2 H2' k2 a n1 H1 n2 H2' k2) as [Z1 Z2]; auto; try lra; try apply Hm1; try apply A5.
  assert (Wo : l_W (o_l (n_output n2)) = l_W (o_l (n_output m))) by (rewrite P10; reflexivity).
  assert (GL : Forall2 (grad_le G s) ks k2).
  { assert (Q1 : Forall (fun l : rlayer => (sqnorm (l_grad l) <= gq)%R) k2).
    { eapply Forall_impl; [|apply sqs_in]. intros l Hl. cbn beta in Hl. unfold gq. pose proof (sqnorm_nonneg (l_grad (o_l (n_output n2)))). lra. }
    unfold gsnear in Z1. assert (Es : s = sqrt gq) by reflexivity. clearbody s. clearbody gq. clear -PF Q1 Z1 Es. induction PF as [|k l2 ks k2 ((R1 & R2 & _) & R3 & _) PF IH]; constructor; inversion Q1 as [|u us Q2 Q3]; subst; inversion Z1 as [|u v us vs Z2 Z3]; subst; [|auto].
    split; [assumption|]. split; [assumption|]. intros i j Hi Hj. destruct Z2 as (_ & _ & Z2). rewrite R3 in Z2. split; [apply Z2; assumption|].
    try rewrite Es. apply abs_sqrt. eapply Rle_trans; [apply sq_entry; congruence|exact Q2]. }
  assert (GLo : grad_le G s (o_l (n_output m)) (o_l (n_output n2))).
  { destruct A7 as [g1 g2]. rewrite Wo in g1, g2. split; [assumption|]. split; [assumption|]. intros i j Hi Hj. destruct M4 as (_ & _ & ((w1 & w2) & _)). destruct Z2 as (_ & _ & Z2). split; [apply Z2; congruence|].
    apply abs_sqrt. eapply Rle_trans; [apply sq_entry; congruence|]. unfold gq. pose proof (sqs_nonneg k2). lra. }
  set (Ds := map (fun l : rlayer => oppm (l_grad l)) k2). set (Do := oppm (l_grad (o_l (n_output n2)))).
  assert (HD : length Ds = length ks) by (unfold Ds; rewrite map_length; symmetry; apply (Forall2_len _ _ _ PF)).
  assert (HAk : Forall (fun l : rlayer => smooth_act (l_act l)) ks).
  { pose proof (lsnear_act _ _ _ _ _ M3) as Q. clear -Q HA. induction Q as [|t k ts ks (E & _) Q IH]; constructor; inversion HA; subst; auto. rewrite E. now apply seven_smooth. }
  pose proof (along junk m K ks p c x y Ds Do Hfm Hp Hs Hbm HAk HD) as AL.
  pose proof (along_start junk m K ks p c x y Ds Do Hfm Hp Hs Hbm HAk HD) as AS.
  set (F := phi junk m K ks x y Ds Do) in *.
  (* the moved networks are near *)
  assert (NR : forall xi, (0 <= xi <= eta)%R -> lsnear (M + 1) (xi * s) ts ks (lines xi ks Ds) /\
     lnear (M + 1) (xi * s) (o_l (n_output n)) (o_l (n_output m)) (o_l (n_output (movedN m Do xi))) /\ built n ts (M + 1) (movedN m Do xi) (movedH m K ks Ds xi) (lines xi ks Ds)).
  { intros xi [X1 X2]. assert (XG : (xi * G <= 1)%R) by (eapply Rle_trans; [apply Rmult_le_compat_r; [exact HG|exact X2]|exact HeG']).
    pose proof (lines_near M G s xi X1 XG Hs0 ts ks k2 M3 GL) as N1. pose proof (line_near M G s xi _ _ _ X1 XG Hs0 M4 GLo) as N2. split; [exact N1|]. split; [exact N2|].
    split; [apply moved_dense; assumption|]. split; [exact M2|]. split; [eapply lsnear_right; exact N1|eapply lnear_right; exact N2]. }
  (* slope along the way *)
  assert (SL : forall xi, (0 <= xi <= eta)%R -> exists d, is_derive F xi d /\ (d <= - gq / 2)%R).
  { intros xi Hxi. destruct (AL xi) as (_ & a' & n1' & H1' & n2' & H2'' & k2' & B1 & B2 & B3 & B4). eexists. split; [exact B4|]. destruct (NR xi Hxi) as (N1 & N2 & N3).
    assert (Hxs : (0 <= xi * s)%R) by (apply Rmult_le_pos; lra).
    destruct (Pn (xi * s)%R m K ks (movedN m Do xi) (movedH m K ks Ds xi) (lines xi ks Ds) a n1 H1 n2 H2' k2 a' n1' H1' n2' H2'' k2') as [Y1 Y2]; auto; try apply A5; try apply Hm1.
    destruct (pass_dense (D := Rdt) junk _ _ _ x y a' n1' H1' n2' H2'' (proj1 N3) B1 B2) as (b' & ls1' & delta' & ls2'' & dx' & P1' & P2' & P3' & P4' & P5' & P6' & P7' & P8' & P9' & P10' & _).
    assert (E2' : ls2'' = k2').
    { pose proof (eq_trans (eq_sym (hidden_layers_dense _ _ _ (proj2 P9'))) (hidden_layers_dense _ _ _ (proj2 B3))) as Q. now injection Q. }
    subst ls2''. pose proof (passes_form (D := Rdt) _ _ _ _ P1' _ _ _ P7') as PF'.
    assert (DM : Forall2 (fun l l' : rlayer => nr (l_W l') = nr (l_W l) /\ nc (l_W l') = nc (l_W l)) k2 k2').
    { unfold Ds in PF'. clear -PF PF' HD. clear HD. revert k2' PF'. induction PF as [|k l2 ks k2 (_ & R3 & _) PF IH]; intros k2' PF'; inversion PF' as [|u v us vs (_ & R3' & _) PF'']; subst; constructor; auto.
      rewrite R3, R3'. cbn. auto. }
    assert (NWe : Nw k2 = Nw ts).
    { unfold Nw, sumL. pose proof (lsnear_act _ _ _ _ _ M3) as Q. clear -Q PF. revert k2 PF. induction Q as [|t k ts ks (_ & _ & E1 & E2) Q IH]; intros k2 PF; inversion PF as [|u v us vs (_ & R3 & _) PF']; subst; [reflexivity|].
      cbn [map fold_right]. rewrite (IH _ PF'), R3, E1, E2. reflexivity. }
    pose proof (layers_slope G Lg (xi * s) s Hxs Hs0 HL k2 k2' Y1 DM) as Q1.
    assert (Q2 : Forall (fun l : rlayer => forall i j, i < nr (l_W l) -> j < nc (l_W l) -> (Rabs (at_ (l_grad l) i j) <= s)%R) k2).
    { clearbody s. clear -GL PF. induction GL as [|k l2 ks k2 (g1 & g2 & g3) GL IH]; constructor; inversion PF as [|u v us vs (_ & R3 & _) PF']; subst; auto. rewrite R3. intros i j Hi Hj. now apply g3. }
    specialize (Q1 Q2). fold Ds in Q1. rewrite NWe in Q1.
    destruct M4 as (_ & _ & ((w1 & w2) & _)). destruct GLo as (_ & _ & g3). rewrite w1, w2 in g3.
    pose proof (layer_slope _ _ G Lg (xi * s) s (o_l (n_output n2)) (o_l (n_output n2')) _ Hxs Hs0 HL Y2) as Q3. rewrite P10' in Q3 at 1 2. specialize (Q3 w1 w2 (fun i j Hi Hj => proj2 (g3 i j Hi Hj))). fold Do No in Q3.
    assert (Q4 : (NT * (Lg * (xi * s) * s) <= gq / 2)%R).
    { replace (NT * (Lg * (xi * s) * s))%R with (xi * (NT * Lg) * gq)%R by (rewrite <- Hss; ring). assert (xi * (NT * Lg) <= / 2)%R; [|nra].
      assert (0 <= NT * Lg)%R by (apply Rmult_le_pos; lra). assert (xi * (NT * Lg) <= eta * (NT * Lg))%R by (apply Rmult_le_compat_r; lra). lra. }
    unfold NT in Q4. unfold gq at 1. unfold gq in Q4. lra. }
  assert (DEC : (F eta <= F 0 - eta / 2 * gq)%R).
  { destruct (MVT_gen F 0 eta (Derive F)) as (xi & Hxi & E).
    - rewrite Rmin_left, Rmax_right by lra. intros xi Hxi. destruct (SL xi ltac:(lra)) as (d & D1 & _). apply Derive_correct. eexists; exact D1.
    - rewrite Rmin_left, Rmax_right by lra. intros xi Hxi. destruct (SL xi ltac:(lra)) as (d & D1 & _). apply continuity_pt_filterlim. apply (ex_derive_continuous (V := R_NormedModule)). eexists; exact D1.
    - rewrite Rmin_left, Rmax_right in Hxi by lra. destruct (SL xi Hxi) as (d & D1 & D2). rewrite (is_derive_unique _ _ _ D1) in E. nra. }
  (* the step itself *)
  assert (Gh : Forall gsized k2) by exact A6.
  set (m' := set_output n2 (with_layer (n_output n2) (stepped (o_l (n_output n2))))). set (K' := put_layers (n_hidden n2) (map (fun l : rlayer => stepped l) k2) H2').
  assert (TS : train_step (D := Rdt) junk m K x y = Ok (m', K')).
  { unfold train_step. rewrite A1. cbn [bind]. rewrite A4. cbn [bind]. apply (net_update_ok n2 H2' k2); [apply A5|assumption|assumption]. }
  assert (FD : exists t', feeddata (D := Rdt) junk t m K x y = Ok (t', m', K') /\ no_decay t').
  { unfold feeddata, decay. cbn [tick t_usedecay]. rewrite Ht. cbn [andb bind]. rewrite TS. cbn [bind]. eexists. split; [reflexivity|]. exact Ht. }
  destruct FD as (t' & FD & Ht').
  assert (DK : dense_net m' K' (map (fun l : rlayer => stepped l) k2)).
  { split; [apply A5|]. cbn. eapply dense_put; [apply (proj1 A5)|]. apply map_length. }
  assert (R2 : Forall (fun l : rlayer => l_lrate l = eta) k2).
  { clear -PF Hr. induction PF as [|k l2 ks k2 (_ & _ & _ & E & _) PF IH]; constructor; inversion Hr; subst; auto. }
  assert (Ro : l_lrate (o_l (n_output n2)) = eta) by (rewrite P10; exact Hro).
  assert (SWs : Forall2 sameWAL (lines eta ks Ds) (map (fun l : rlayer => stepped l) k2)).
  { unfold Ds. clear -PF Gh R2. revert Gh R2. induction PF as [|k l2 ks k2 (_ & E1 & E2 & _ & E3) PF IH]; intros Gh R2; [constructor|]. apply Forall_cons_iff in Gh as [[g1 g2] Gh']. apply Forall_cons_iff in R2 as [R3 R4].
    unfold lines. cbn [map combine fst snd]. constructor; [|now apply IH]. split; [|split; cbn; congruence]. rewrite <- (relr_id l2 eta) at 1 by assumption. rewrite stepped_line by assumption. cbn. now rewrite E1. }
  assert (SWo : sameWAL (o_l (n_output (movedN m Do eta))) (o_l (n_output m'))).
  { split; [|split; cbn; rewrite P10; reflexivity]. cbn [m' set_output with_layer n_output o_l]. rewrite <- (relr_id (o_l (n_output n2)) eta) at 1 by assumption. rewrite stepped_line by apply A7. cbn. now rewrite Wo. }
  exists (F 0%R), gq, t', m', K', (map (fun l : rlayer => stepped l) k2), (F eta). split; [exact AS|]. split.
  { unfold slope2. rewrite A1. cbn [bind]. rewrite A4. cbn [bind]. rewrite (hidden_layers_dense n2 H2' k2 (proj2 (proj1 A5))). reflexivity. }
  split; [assumption|]. split; [exact FD|]. split; [exact Ht'|]. split.
  { destruct (NR eta ltac:(lra)) as (_ & _ & (_ & _ & N3 & N4)). split; [exact DK|]. split.
    - destruct M2 as [q1 q2]. split; [cbn; congruence|]. cbn. apply backprop_kc in A4 as [[_ q3] _]. apply forward_kc in A1 as [[_ q4] _]. congruence.
    - split; [eapply lsnear_same; [exact SWs|exact N3]|eapply lnear_same; [exact SWo|exact N4]]. }
  split. { apply Forall_forall. intros l Hl. apply in_map_iff in Hl as (l0 & <- & Hl0). cbn. rewrite Forall_forall in R2. now apply R2. }
  split; [exact Ro|]. split; [|exact DEC].
  destruct (AL eta) as [Key _]. apply (Key m' K' (map (fun l : rlayer => stepped l) k2)); [exact DK| |apply SWo| |apply SWo|apply SWo|].
  - clear -SWs. induction SWs as [|u v us vs (E & _) SW IH]; cbn; [reflexivity|]. now rewrite E, IH.
  - clear -SWs. induction SWs as [|u v us vs (_ & E) SW IH]; constructor; auto.
  - cbn. exact P12.
Qed.

(** ** From the user's words to [built] *)
Lemma same_built n H ts m K M : dense_net n H ts -> same_build n H m K -> small M m K -> exists ks, hidden_layers m K = Ok ks /\ built n ts M m K ks.
Proof.
  intros Hd (Hm & (ls & ks & L1 & L2 & HF) & Ho & Hc1 & Hc2) ((ks' & L3 & Sm) & So). pose proof (eq_trans (eq_sym L2) L3) as Q. injection Q as <-.
  pose proof (eq_trans (eq_sym L1) (hidden_layers_dense _ _ _ (proj2 Hd))) as Q. injection Q as ->. exists ks. split; [assumption|].
  destruct (dense_of_hidden m K Hm) as (ks' & L4 & Hmd). pose proof (eq_trans (eq_sym L2) L4) as Q. injection Q as <-.
  assert (G : forall t k : rlayer, same_layer t k -> small_layer M k -> lnear M 0 t k k).
  { intros t k (E1 & E2 & E3 & E4) Hk. split; [auto|]. split; [auto|]. split; [auto|]. split; [auto|]. intros i j Hi Hj. rewrite <- E3 in Hi. rewrite <- E4 in Hj. specialize (Hk i j Hi Hj).
    split; [assumption|]. split; [assumption|]. rewrite Rminus_diag_eq, Rabs_R0 by reflexivity. lra. }
  split; [assumption|]. split; [split; auto|]. split; [|auto]. clear -HF Sm G. induction HF as [|t k ts ks E HF IH]; [exact I|]. apply Forall_cons_iff in Sm as [S1 S2]. cbn. auto.
Qed.
Lemma built_same n H ts m K M ks : dense_net n H ts -> built n ts M m K ks -> same_build n H m K /\ small M m K /\ hidden_layers m K = Ok ks.
Proof.
  intros Hd (D1 & [C1 C2] & N1 & N2). pose proof (hidden_layers_dense _ _ _ (proj2 D1)) as L. split; [|split; [|assumption]].
  - split; [eapply dense_net_hidden; eauto|]. split; [|split; [|auto]].
    + exists ts, ks. split; [apply hidden_layers_dense, Hd|]. split; [assumption|]. pose proof (lsnear_act _ _ _ _ _ N1) as Q. clear -Q. induction Q as [|t k ts ks (A & B & C & E) Q IH]; constructor; auto. split; auto.
    + destruct N2 as ((A & B) & _ & ((E1 & E2) & _)). split; auto.
  - split.
    + exists ks. split; [assumption|]. clear -N1. revert ks N1. induction ts as [|t ts IH]; intros [|k ks] N1; cbn in N1; try contradiction; constructor; [|apply IH, N1].
      destruct N1 as [(_ & _ & ((E1 & E2) & _ & N)) _]. intros i j Hi Hj. rewrite E1 in Hi. rewrite E2 in Hj. apply (N i j Hi Hj).
    + destruct N2 as (_ & _ & ((E1 & E2) & _ & N)). intros i j Hi Hj. rewrite E1 in Hi. rewrite E2 in Hj. apply (N i j Hi Hj).
Qed.

(** setlrate leaves the objective alone. *)
Lemma objective_setrate junk n H ls x y J (r : R) : dense_net n H ls -> objective junk n H x y = Ok J ->
  objective junk (setrate_net n (r : Rdt)) (put_layers (n_hidden n) (map (relr (r : Rdt)) ls) H) x y = Ok J.
Proof.
  intros Hd E. destruct (net_setlrate_dense n H ls (r : Rdt) Hd) as [_ Hr]. unfold objective in *. apply bind_ok in E as ([[a n'] H'] & E1 & E). apply bind_ok in E as (cv & E2 & E). apply bind_ok in E as (ls' & E3 & E). injection E as <-.
  pose proof (eq_trans (eq_sym E3) (hidden_layers_dense _ _ _ (proj2 Hd))) as Q. injection Q as ->.
  assert (SW : same_weights n H (setrate_net n (r : Rdt)) (put_layers (n_hidden n) (map (relr (r : Rdt)) ls) H)).
  { exists ls, (map (relr (r : Rdt)) ls). split; [assumption|]. split; [apply hidden_layers_dense, Hr|]. split; [|split; reflexivity]. clear. induction ls; cbn; constructor; auto. split; reflexivity. }
  destruct (same_forward (D := Rdt) junk _ _ _ _ x a n' H' (dense_net_hidden _ _ _ Hd) (dense_net_hidden _ _ _ Hr) SW E1) as (m1' & K1' & FB & _ & _ & _ & _ & R1 & R2 & [KC1 _] & [KC2 _] & _).
  rewrite FB. cbn [bind]. unfold net_computecost in *. rewrite KC2. rewrite KC1 in E2. cbn [setrate_net set_output set_input n_cost]. rewrite E2. cbn [bind].
  rewrite (hidden_layers_dense _ _ _ (proj2 Hr)). cbn [bind]. rewrite map_map. reflexivity.
Qed.

(** ** C100 *)
Theorem C100_step : forall junk (n : rnet) (H : rheap) p c (x y : rmat) M,
  1 <= p -> well_sized n H p c -> samples p c (x, y) -> built_in n y ->
  (forall ls, hidden_layers n H = Ok ls -> Forall (fun l => In (l_act l) seven) ls) ->
  exists eta0, (0 < eta0)%R /\
    forall m K ks (t : trainer Rdt) eta, same_build n H m K -> small M m K -> hidden_layers m K = Ok ks ->
      Forall (fun l => l_lrate l = eta) ks -> l_lrate (o_l (n_output m)) = eta -> no_decay t -> (0 < eta < eta0)%R ->
      exists J g t' m' K' J', objective junk m K x y = Ok J /\ slope2 junk m K x y = Ok g /\ (0 <= g)%R /\
        feeddata (D := Rdt) junk t m K x y = Ok (t', m', K') /\ same_build n H m' K' /\ small (M + 1) m' K' /\
        objective junk m' K' x y = Ok J' /\ (J' <= J - eta / 2 * g)%R.
Proof.
  intros junk n H p c x y M Hp Hw Hs Hb HA. pose proof (proj1 (well_fits _ _ _ _) Hw) as ((ts & Hf) & _).
  destruct (step_near junk n H ts p c x y M Hf Hp Hs Hb (HA _ (hidden_layers_dense _ _ _ (proj2 (proj1 Hf))))) as (eta0 & He & St). exists eta0. split; [assumption|].
  intros m K ks t eta Hm Sm L Hr Hro Ht Heta. destruct (same_built n H ts m K M (proj1 Hf) Hm Sm) as (ks' & L' & B). pose proof (eq_trans (eq_sym L) L') as Q. injection Q as <-.
  destruct (St m K ks t eta B Hr Hro Ht Heta) as (J & g & t' & m' & K' & ks' & J' & A1 & A2 & A3 & A4 & A5 & A6 & A7 & A8 & A9 & A10).
  destruct (built_same n H ts m' K' _ ks' (proj1 Hf) A6) as (B1 & B2 & _). exists J, g, t', m', K', J'. auto 10.
Qed.

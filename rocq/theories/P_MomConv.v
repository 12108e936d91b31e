(** P_MomConv.v - C101: MomentumTrainer on a deep regularised network with a small enough rate converges to a stationary point. *)
From Coq Require Import Reals Lra Psatz.
From Coquelicot Require Import Coquelicot.
From Verif Require Import Base Mat Act Layer Conv Misc Net NetP RInst RMat P_Act Grad P_Grad Trainer TrainP TrainP2 P_Train FunEq P_Mom P_Descent P_Linear P_Heavy Smooth Smooth2 P_Cost P_Smooth P_Converge.
From Coq Require Import Arith.
Local Open Scope nat_scope.

(** ** Specification *)
(** The squared length of the averaged gradient kept by the trainer. *)
Definition speed2 (u : mtrainer Rdt) : R := (sumL (map (fun v => sqnorm v) (mt_hgrads u)) + sqnorm (mt_ograd u))%R.

(** ** Proof *)
Definition vle (G s : R) (k : rlayer) (v : rmat) : Prop :=
  nr v = nr (l_W k) /\ nc v = nc (l_W k) /\ forall i j, i < nr (l_W k) -> j < nc (l_W k) -> (Rabs (at_ v i j) <= G)%R /\ (Rabs (at_ v i j) <= s)%R.
Lemma layer_dir r c G Lg e s (l' : rlayer) (g v : rmat) : (0 <= e)%R -> (0 <= s)%R -> (0 <= Lg)%R -> mnear r c G Lg e g (l_grad l') ->
  nr (l_W l') = r -> nc (l_W l') = c -> nr v = r -> nc v = c -> (forall i j, i < r -> j < c -> (Rabs (at_ v i j) <= s)%R) ->
  (fulldir l' (oppm v) <= - inner g v + INR r * INR c * (Lg * e * s))%R.
Proof.
  intros He Hs HL ((G1 & G2) & _ & Hn) E1 E2 V1 V2 Hg. unfold fulldir, inner. rewrite E1, E2, G1, G2.
  eapply Rle_trans; [|apply Rplus_le_compat_l; apply (sum2_bound r c (fun i j => (at_ g i j - at_ (l_grad l') i j) * at_ v i j)%R)].
  - right. rewrite <- sumN_opp, <- sumN_plus. apply sumN_ext. intros i Hi. rewrite <- sumN_opp, <- sumN_plus. apply sumN_ext. intros j Hj.
    unfold oppm. rewrite at_mk by congruence. cbn. ring.
  - intros i j Hi Hj. eapply Rle_trans; [apply Rle_abs|]. rewrite Rabs_mult. destruct (Hn i j Hi Hj) as (_ & _ & N3). apply Rmult_le_compat; auto using Rabs_pos.
Qed.
Definition dots (k2 : list rlayer) (Vs : list rmat) : R := sumL (map (fun lv => inner (l_grad (fst lv)) (snd lv)) (combine k2 Vs)).
Definition sqV (Vs : list rmat) : R := sumL (map (fun v => sqnorm v) Vs).
Lemma layers_dir G Lg e s : (0 <= e)%R -> (0 <= s)%R -> (0 <= Lg)%R -> forall k2 k2', gsnear G Lg e k2 k2' -> forall Vs,
  Forall2 (fun l l' : rlayer => nr (l_W l') = nr (l_W l) /\ nc (l_W l') = nc (l_W l)) k2 k2' -> Forall2 (vle G s) k2 Vs ->
  (sumL (map (fun lD => fulldir (fst lD) (snd lD)) (combine k2' (map oppm Vs))) <= - dots k2 Vs + Nw k2 * (Lg * e * s))%R.
Proof.
  intros He Hs HL k2 k2' Hg. induction Hg as [|l l' k k' Hl Hk IH]; intros Vs Hd Hb; inversion Hb as [|u v us vs Hb1 Hb2]; subst.
  - unfold dots, Nw, sumL. cbn. lra.
  - inversion Hd as [|u w us ws [D1 D2] Hd']; subst. specialize (IH _ Hd' Hb2). destruct Hb1 as (V1 & V2 & V3).
    pose proof (layer_dir _ _ G Lg e s l' (l_grad l) v He Hs HL Hl D1 D2 V1 V2 (fun i j Hi Hj => proj2 (V3 i j Hi Hj))) as Q.
    unfold dots, Nw, sumL in *. cbn [map combine fold_right fst snd]. lra.
Qed.
Lemma line_nearV M G s xi t k v : (0 <= xi)%R -> (xi * G <= 1)%R -> (0 <= s)%R -> lnear M 0 t k k -> vle G s k v ->
  lnear (M + 1) (xi * s) t k (set_W k (line xi (l_W k) (oppm v))).
Proof.
  intros Hx HG Hs Hk (D1 & D2 & D3). apply (line_near M G s xi t k (set_dg k mempty v)); auto. split; [exact D1|]. split; [exact D2|exact D3].
Qed.
Lemma lines_nearV M G s xi : (0 <= xi)%R -> (xi * G <= 1)%R -> (0 <= s)%R -> forall ts ks Vs, lsnear M 0 ts ks ks -> Forall2 (vle G s) ks Vs ->
  lsnear (M + 1) (xi * s) ts ks (lines xi ks (map oppm Vs)).
Proof.
  intros Hx HG Hs. induction ts as [|t ts IH]; intros ks Vs Hn Hg; inversion Hg as [|k v ks' Vs' G1 G2]; subst; cbn in Hn; try contradiction; [exact I|].
  destruct Hn as [N1 N2]. unfold lines. cbn [map combine fst snd lsnear]. split; [eapply line_nearV; eauto|]. now apply IH.
Qed.

(** One averaged gradient. *)
Lemma sum2_ext r c (f g : nat -> nat -> R) : (forall i j, i < r -> j < c -> f i j = g i j) -> sumN r (fun i => sumN c (f i)) = sumN r (fun i => sumN c (g i)).
Proof. intros E. apply sumN_ext. intros i Hi. apply sumN_ext. auto. Qed.
Lemma sum2_lin r c (f g : nat -> nat -> R) a b : (a * sumN r (fun i => sumN c (f i)) + b * sumN r (fun i => sumN c (g i)) = sumN r (fun i => sumN c (fun j => a * f i j + b * g i j)))%R.
Proof. rewrite <- !sumN_scal, <- sumN_plus. apply sumN_ext. intros i Hi. now rewrite <- !sumN_scal, <- sumN_plus. Qed.
Section Mixed.
Context (mu : R) (Hmu : (0 < mu < 1)%R) (v g : rmat) (E1 : nr v = nr g) (E2 : nc v = nc g).
Notation v' := (mixed (D := Rdt) mu (1 - mu)%R v g).
Lemma at_mixed i j : i < nr v -> j < nc v -> (at_ v' i j = mu * at_ v i j + (1 - mu) * at_ g i j)%R.
Proof. intros Hi Hj. unfold mixed. rewrite at_mk by assumption. reflexivity. Qed.
Lemma mixed_inner : (mu / 2 * sqnorm v + (1 - mu) * inner g v' >= (1 - mu / 2) * sqnorm v')%R.
Proof using All.
  unfold sqnorm, inner. cbn [mixed nr nc mk]. rewrite <- E1, <- E2. rewrite sum2_lin, <- sumN_scal. apply Rle_ge. apply sumN_le. intros i Hi. rewrite <- sumN_scal. apply sumN_le. intros j Hj.
  cbn beta. fold (mixed (D := Rdt) mu (1 - mu)%R v g). pose proof (at_mixed i j Hi Hj) as Q. unfold mixed in Q |- *. cbn [dadd dmul Rdt] in Q |- *. rewrite Q. set (a := at_ v i j). set (b := at_ g i j). clearbody a b. clear -Hmu.
  assert (E : (mu / 2 * (a * a) + (1 - mu) * (b * (mu * a + (1 - mu) * b)) - (1 - mu / 2) * ((mu * a + (1 - mu) * b) * (mu * a + (1 - mu) * b)) = mu / 2 * ((1 - mu) * (1 - mu) * ((a - b) * (a - b))))%R) by field.
  assert (0 <= mu / 2 * ((1 - mu) * (1 - mu) * ((a - b) * (a - b))))%R by (apply Rmult_le_pos; [lra|apply Rmult_le_pos; apply Rle_0_sqr]). lra.
Qed.
Lemma mixed_sq : ((1 - mu) * (1 - mu) * sqnorm g <= 2 * sqnorm v' + 2 * sqnorm v)%R.
Proof using All.
  unfold sqnorm, inner. cbn [mixed nr nc mk]. rewrite <- E1, <- E2. rewrite sum2_lin, <- sumN_scal. apply sumN_le. intros i Hi. rewrite <- sumN_scal. apply sumN_le. intros j Hj.
  cbn beta. pose proof (at_mixed i j Hi Hj) as Q. unfold mixed in Q |- *. cbn [dadd dmul Rdt] in Q |- *. rewrite Q. set (a := at_ v i j). set (b := at_ g i j). clearbody a b. clear -Hmu.
  pose proof (Rle_0_sqr (2 * mu * a + (1 - mu) * b)) as P1. pose proof (Rle_0_sqr a) as P2. unfold Rsqr in *. assert (mu * mu <= 1)%R by nra. assert (mu * mu * (a * a) <= a * a)%R by nra. nra.
Qed.
End Mixed.
Lemma sqV_nonneg Vs : (0 <= sqV Vs)%R.
Proof. unfold sqV, sumL. induction Vs as [|v Vs IH]; cbn [map fold_right]; [lra|]. pose proof (sqnorm_nonneg v). lra. Qed.
Lemma sqV_in Vs : Forall (fun v => (sqnorm v <= sqV Vs)%R) Vs.
Proof.
  induction Vs as [|v Vs IH]; constructor.
  - unfold sqV, sumL. cbn [map fold_right]. pose proof (sqV_nonneg Vs) as Q. unfold sqV, sumL in Q. lra.
  - eapply Forall_impl; [|exact IH]. intros l Hl. unfold sqV, sumL in *. cbn [map fold_right]. pose proof (sqnorm_nonneg v). cbn beta in Hl. lra.
Qed.
Definition newV (mu : R) (Vs : list rmat) (k2 : list rlayer) : list rmat := map (fun al => mixed (D := Rdt) mu (1 - mu)%R (fst al) (l_grad (snd al))) (combine Vs k2).
Definition alike (acc : rmat) (l : rlayer) : Prop := nr acc = nr (l_grad l) /\ nc acc = nc (l_grad l).
Lemma newV_inner mu : (0 < mu < 1)%R -> forall Vs k2, Forall2 alike Vs k2 -> ((1 - mu / 2) * sqV (newV mu Vs k2) <= mu / 2 * sqV Vs + (1 - mu) * dots k2 (newV mu Vs k2))%R.
Proof.
  intros Hm Vs k2 HF. induction HF as [|v l Vs k2 [A B] HF IH]; unfold newV, sqV, dots, sumL in *; cbn [map combine fold_right fst snd] in *; [lra|]. pose proof (mixed_inner mu Hm v (l_grad l) A B). lra.
Qed.
Lemma newV_sq mu : (0 < mu < 1)%R -> forall Vs k2, Forall2 alike Vs k2 -> ((1 - mu) * (1 - mu) * sqs k2 <= 2 * sqV (newV mu Vs k2) + 2 * sqV Vs)%R.
Proof.
  intros Hm Vs k2 HF. induction HF as [|v l Vs k2 [A B] HF IH]; unfold newV, sqV, sqs, sumL in *; cbn [map combine fold_right fst snd] in *; [lra|]. pose proof (mixed_sq mu Hm v (l_grad l) A B). lra.
Qed.
Lemma mix_bound mu G a b : (0 < mu < 1)%R -> (Rabs a <= G)%R -> (Rabs b <= G)%R -> (Rabs (mu * a + (1 - mu) * b) <= G)%R.
Proof.
  intros Hm Ha Hb. eapply Rle_trans; [apply Rabs_triang|]. rewrite !Rabs_mult, (Rabs_pos_eq mu), (Rabs_pos_eq (1 - mu)) by lra. nra.
Qed.
(** A velocity fits a layer and is bounded by G. *)
Definition vfit (G : R) (k : rlayer) (v : rmat) : Prop := nr v = nr (l_W k) /\ nc v = nc (l_W k) /\ forall i j, i < nr (l_W k) -> j < nc (l_W k) -> (Rabs (at_ v i j) <= G)%R.

Lemma mstep_near junk n H ts p c x y M : fits_net n H ts p c -> 1 <= p -> samples p c (x, y) -> built_in n y -> Forall (fun l : rlayer => In (l_act l) seven) ts ->
  exists G eta0, (0 <= G)%R /\ (0 < eta0)%R /\ forall m K ks (u : mtrainer Rdt) eta mu, built n ts M m K ks -> Forall (fun l : rlayer => l_lrate l = eta) ks -> l_lrate (o_l (n_output m)) = eta ->
    no_decay (mt_t u) -> mt_mom u = mu -> (0 < mu < 1)%R -> Forall2 (vfit G) ks (mt_hgrads u) -> vfit G (o_l (n_output m)) (mt_ograd u) -> (0 < eta < eta0)%R ->
    exists J g u' m' K' ks' J', objective junk m K x y = Ok J /\ slope2 junk m K x y = Ok g /\ (0 <= g)%R /\ momentum_feeddata (D := Rdt) junk u m K x y = Ok (u', m', K') /\
      no_decay (mt_t u') /\ mt_mom u' = mu /\ built n ts (M + 1) m' K' ks' /\ Forall (fun l : rlayer => l_lrate l = eta) ks' /\ l_lrate (o_l (n_output m')) = eta /\
      Forall2 (vfit G) ks' (mt_hgrads u') /\ vfit G (o_l (n_output m')) (mt_ograd u') /\
      objective junk m' K' x y = Ok J' /\ (J' + eta * mu / (2 * (1 - mu)) * speed2 u' <= J + eta * mu / (2 * (1 - mu)) * speed2 u - eta / 2 * speed2 u')%R /\
      ((1 - mu) * (1 - mu) * g <= 2 * speed2 u' + 2 * speed2 u)%R.
Proof.
  intros Hf Hp Hs Hb HA.
  assert (Hcd : o_costd (n_output n) = quad_costd \/ o_costd (n_output n) = ce_costd \/ o_costd (n_output n) = sm_costd) by (destruct Hb as [(_ & E & _)|[(_ & E & _)|(_ & E & _)]]; auto).
  assert (HAo : In (l_act (o_l (n_output n))) seven) by (destruct Hb as [(_ & _ & ->)|[(_ & _ & ->)|(_ & _ & -> & _)]]; cbn; auto).
  destruct (pass_near junk n H ts p c x y (M + 1) Hf Hp Hs Hcd) as (G & Lg & HG & HL & Pn).
  { eapply Forall_impl; [|exact HA]. intros l Hl. now apply seven_lip. }
  { now apply seven_lip. }
  set (No := (INR (nr (l_W (o_l (n_output n)))) * INR (nc (l_W (o_l (n_output n)))))%R). set (NT := (Nw ts + No)%R).
  assert (HNT : (0 <= NT)%R). { unfold NT, No. pose proof (Nw_nonneg ts). pose proof (pos_INR (nr (l_W (o_l (n_output n))))). pose proof (pos_INR (nc (l_W (o_l (n_output n))))). nra. }
  exists G, (Rmin (/ (G + 1)) (/ (2 * NT * Lg + 1))). assert (H2 : (0 <= 2 * NT * Lg)%R) by (apply Rmult_le_pos; lra). split; [assumption|]. split; [apply Rmin_glb_lt; apply Rinv_0_lt_compat; lra|].
  intros m K ks u eta mu Hm Hr Hro Ht Emu Hmu HV HVo [He0 He1]. pose proof (Rlt_le_trans _ _ _ He1 (Rmin_l _ _)) as HeG. pose proof (Rlt_le_trans _ _ _ He1 (Rmin_r _ _)) as HeL. clear He1.
  assert (HeG' : (eta * G <= 1)%R). { apply (Rmult_lt_compat_r (G + 1)) in HeG; [|lra]. rewrite Rinv_l in HeG by lra. lra. }
  assert (HeL' : (eta * (2 * NT * Lg) <= 1)%R). { apply (Rmult_lt_compat_r (2 * NT * Lg + 1)) in HeL; [|lra]. rewrite Rinv_l in HeL by lra. lra. }
  pose proof (built_fits n H ts p c M m K ks Hf Hm) as Hfm. pose proof Hm as (M1 & M2 & M3 & M4).
  assert (Hbm : built_in m y).
  { destruct M2 as [K1 K2]. destruct M4 as ((E & _) & _). unfold built_in in *. rewrite K1, K2, E. exact Hb. }
  pose proof Hs as (S1 & S2 & S3 & S4). cbn in S1, S2, S3, S4.
  destruct (forward_backward_ok (D := Rdt) junk _ _ _ p c x y Hfm Hp S1 S2 S3 S4) as (a & n1 & H1 & n2 & H2' & k2 & A1 & A2 & A3 & A4 & A5 & A6 & A7).
  destruct (pass_dense (D := Rdt) junk _ _ _ x y a n1 H1 n2 H2' (proj1 Hfm) A1 A4) as (b & ls1 & delta & ls2' & dx & P1 & P2 & P3 & P4 & P5 & P6 & P7 & P8 & P9 & P10 & P11 & P12 & P13).
  assert (E2 : ls2' = k2).
  { pose proof (eq_trans (eq_sym (hidden_layers_dense _ _ _ (proj2 P9))) (hidden_layers_dense _ _ _ (proj2 (proj1 A5)))) as Q. now injection Q. }
  subst ls2'. pose proof (passes_form (D := Rdt) _ _ _ _ P1 _ _ _ P7) as PF.
  pose proof (built_mono n ts M (M + 1) m K ks ltac:(lra) Hm) as Hm1.
  destruct (Pn 0%R m K ks m K ks a n1 H1 n2 H2' k2 a n1 H1 n2 H2' k2) as [Z1 Z2]; auto; try lra; try apply Hm1; try apply A5.
  assert (Wo : l_W (o_l (n_output n2)) = l_W (o_l (n_output m))) by (rewrite P10; reflexivity).
  (* the averaged gradients *)
  set (Vs := newV mu (mt_hgrads u) k2). set (Vo := mixed (D := Rdt) mu (1 - mu)%R (mt_ograd u) (l_grad (o_l (n_output n2)))).
  assert (AL2 : Forall2 alike (mt_hgrads u) k2).
  { clear -HV PF A6. revert k2 PF A6. induction HV as [|k v ks Vs (V1 & V2 & _) HV IH]; intros k2 PF A6; inversion PF as [|q l2 qs k2' (_ & R3 & _) PF']; subst; constructor; apply Forall_cons_iff in A6 as [[g1 g2] A6]; auto. split; congruence. }
  assert (ALo : alike (mt_ograd u) (o_l (n_output n2))) by (destruct HVo as (V1 & V2 & _); destruct A7 as [g1 g2]; split; congruence).
  set (sq := (sqV Vs + sqnorm Vo)%R). assert (Hsq : (0 <= sq)%R) by (unfold sq; pose proof (sqV_nonneg Vs); pose proof (sqnorm_nonneg Vo); lra).
  set (s := sqrt sq). assert (Hs0 : (0 <= s)%R) by apply sqrt_pos. assert (Hss : (s * s = sq)%R) by (apply sqrt_sqrt; assumption).
  assert (VF : Forall2 (vfit G) ks Vs).
  { unfold Vs, newV. unfold gsnear in Z1. clear -HV PF Z1 Hmu A6. revert k2 PF Z1 A6. induction HV as [|k v ks Vs (V1 & V2 & V3) HV IH]; intros k2 PF Z1 A6; inversion PF as [|q l2 qs k2' (_ & R3 & _) PF']; subst; [constructor|]. apply Forall_cons_iff in A6 as [[g1 g2] A6].
    inversion Z1 as [|q w qs ws Z2 Z3]; subst. cbn [combine map fst snd]. constructor; [|now apply IH]. split; [exact V1|]. split; [exact V2|]. intros i j Hi Hj. rewrite at_mixed by congruence. apply mix_bound; [assumption|now apply V3|].
    destruct Z2 as (_ & _ & Z2). rewrite R3 in Z2. apply Z2; assumption. }
  assert (VFo : vfit G (o_l (n_output m)) Vo).
  { destruct HVo as (V1 & V2 & V3). split; [exact V1|]. split; [exact V2|]. intros i j Hi Hj. unfold Vo. rewrite at_mixed by congruence. apply mix_bound; [assumption|now apply V3|].
    destruct M4 as (_ & _ & ((w1 & w2) & _)). destruct Z2 as (_ & _ & Z2). apply Z2; congruence. }
  assert (VL : Forall2 (vle G s) ks Vs).
  { assert (Q : Forall (fun v => (sqnorm v <= sq)%R) Vs). { eapply Forall_impl; [|apply sqV_in]. intros v Hv. cbn beta in Hv. unfold sq. pose proof (sqnorm_nonneg Vo). lra. }
    assert (Es : s = sqrt sq) by reflexivity. clearbody s sq Vs. clear -VF Q Es. induction VF as [|k v ks Vs (V1 & V2 & V3) VF IH]; constructor; apply Forall_cons_iff in Q as [Q1 Q2]; auto.
    split; [assumption|]. split; [assumption|]. intros i j Hi Hj. split; [auto|]. rewrite Es. apply abs_sqrt. eapply Rle_trans; [apply sq_entry; congruence|exact Q1]. }
  assert (VLo : vle G s (o_l (n_output m)) Vo).
  { destruct VFo as (V1 & V2 & V3). split; [assumption|]. split; [assumption|]. intros i j Hi Hj. split; [auto|]. apply abs_sqrt. eapply Rle_trans; [apply sq_entry; congruence|]. unfold sq. pose proof (sqV_nonneg Vs). lra. }
  set (Ds := map oppm Vs). set (Do := oppm Vo).
  assert (HD : length Ds = length ks) by (unfold Ds; rewrite map_length; symmetry; apply (Forall2_len _ _ _ VL)).
  assert (HAk : Forall (fun l : rlayer => smooth_act (l_act l)) ks).
  { pose proof (lsnear_act _ _ _ _ _ M3) as Q. clear -Q HA. induction Q as [|t k ts ks (E & _) Q IH]; constructor; inversion HA; subst; auto. rewrite E. now apply seven_smooth. }
  pose proof (along junk m K ks p c x y Ds Do Hfm Hp Hs Hbm HAk HD) as AL.
  pose proof (along_start junk m K ks p c x y Ds Do Hfm Hp Hs Hbm HAk HD) as AS.
  set (F := phi junk m K ks x y Ds Do) in *.
  assert (NR : forall xi, (0 <= xi <= eta)%R -> lsnear (M + 1) (xi * s) ts ks (lines xi ks Ds) /\
     lnear (M + 1) (xi * s) (o_l (n_output n)) (o_l (n_output m)) (o_l (n_output (movedN m Do xi))) /\ built n ts (M + 1) (movedN m Do xi) (movedH m K ks Ds xi) (lines xi ks Ds)).
  { intros xi [X1 X2]. assert (XG : (xi * G <= 1)%R) by (eapply Rle_trans; [apply Rmult_le_compat_r; [exact HG|exact X2]|exact HeG']).
    pose proof (lines_nearV M G s xi X1 XG Hs0 ts ks Vs M3 VL) as N1. pose proof (line_nearV M G s xi _ _ _ X1 XG Hs0 M4 VLo) as N2. split; [exact N1|]. split; [exact N2|].
    split; [apply moved_dense; assumption|]. split; [exact M2|]. split; [eapply lsnear_right; exact N1|eapply lnear_right; exact N2]. }
  set (dt := (dots k2 Vs + inner (l_grad (o_l (n_output n2))) Vo)%R).
  assert (SL : forall xi, (0 <= xi <= eta)%R -> exists d, is_derive F xi d /\ (d <= - dt + sq / 2)%R).
  { intros xi Hxi. destruct (AL xi) as (_ & a' & n1' & H1' & n2' & H2'' & k2' & B1 & B2 & B3 & B4). eexists. split; [exact B4|]. destruct (NR xi Hxi) as (N1 & N2 & N3).
    assert (Hxs : (0 <= xi * s)%R) by (apply Rmult_le_pos; lra).
    destruct (Pn (xi * s)%R m K ks (movedN m Do xi) (movedH m K ks Ds xi) (lines xi ks Ds) a n1 H1 n2 H2' k2 a' n1' H1' n2' H2'' k2') as [Y1 Y2]; auto; try apply A5; try apply Hm1.
    destruct (pass_dense (D := Rdt) junk _ _ _ x y a' n1' H1' n2' H2'' (proj1 N3) B1 B2) as (b' & ls1' & delta' & ls2'' & dx' & P1' & P2' & P3' & P4' & P5' & P6' & P7' & P8' & P9' & P10' & _).
    assert (E2' : ls2'' = k2').
    { pose proof (eq_trans (eq_sym (hidden_layers_dense _ _ _ (proj2 P9'))) (hidden_layers_dense _ _ _ (proj2 B3))) as Q. now injection Q. }
    subst ls2''. pose proof (passes_form (D := Rdt) _ _ _ _ P1' _ _ _ P7') as PF'.
    assert (VL2 : Forall2 (vle G s) k2 Vs).
    { clearbody Vs s. clear -VL PF. revert k2 PF. induction VL as [|k v ks Vs V VL IH]; intros k2 PF; inversion PF as [|q l2 qs k2' (_ & R3 & _) PF']; subst; constructor; auto. unfold vle in *. now rewrite R3. }
    assert (DM : Forall2 (fun l l' : rlayer => nr (l_W l') = nr (l_W l) /\ nc (l_W l') = nc (l_W l)) k2 k2').
    { clearbody Ds. clear -PF PF' HD. revert Ds HD k2' PF'. induction PF as [|k l2 ks k2 (_ & R3 & _) PF IH]; intros [|d Ds] HD k2' PF'; try discriminate; unfold lines in PF'; cbn [combine map fst snd] in PF'; inversion PF' as [|q v qs vs (_ & R3' & _) PF'']; subst; constructor.
      - rewrite R3, R3'. cbn. auto.
      - apply (IH Ds); [simpl in HD; lia|exact PF'']. }
    assert (NWe : Nw k2 = Nw ts).
    { unfold Nw, sumL. pose proof (lsnear_act _ _ _ _ _ M3) as Q. clear -Q PF. revert k2 PF. induction Q as [|t k ts ks (_ & _ & E1 & E2) Q IH]; intros k2 PF; inversion PF as [|q v qs vs (_ & R3 & _) PF']; subst; [reflexivity|].
      cbn [map fold_right]. rewrite (IH _ PF'), R3, E1, E2. reflexivity. }
    pose proof (layers_dir G Lg (xi * s) s Hxs Hs0 HL k2 k2' Y1 Vs DM VL2) as Q1. fold Ds in Q1. rewrite NWe in Q1.
    destruct M4 as (_ & _ & ((w1 & w2) & _)). destruct VLo as (v1 & v2 & g3). rewrite w1, w2 in g3. rewrite w1 in v1. rewrite w2 in v2.
    pose proof (layer_dir _ _ G Lg (xi * s) s (o_l (n_output n2')) _ Vo Hxs Hs0 HL Y2) as Q3. rewrite P10' in Q3 at 1 2. specialize (Q3 w1 w2 v1 v2 (fun i j Hi Hj => proj2 (g3 i j Hi Hj))). fold Do No in Q3.
    assert (Q4 : (NT * (Lg * (xi * s) * s) <= sq / 2)%R).
    { replace (NT * (Lg * (xi * s) * s))%R with (xi * (NT * Lg) * sq)%R by (rewrite <- Hss; ring). assert (xi * (NT * Lg) <= / 2)%R; [|nra].
      assert (0 <= NT * Lg)%R by (apply Rmult_le_pos; lra). assert (xi * (NT * Lg) <= eta * (NT * Lg))%R by (apply Rmult_le_compat_r; lra). lra. }
    unfold NT in Q4. unfold dt. lra. }
  assert (DEC : (F eta <= F 0 - eta * dt + eta * sq / 2)%R).
  { destruct (MVT_gen F 0 eta (Derive F)) as (xi & Hxi & E).
    - rewrite Rmin_left, Rmax_right by lra. intros xi Hxi. destruct (SL xi ltac:(lra)) as (d & D1 & _). apply Derive_correct. eexists; exact D1.
    - rewrite Rmin_left, Rmax_right by lra. intros xi Hxi. destruct (SL xi ltac:(lra)) as (d & D1 & _). apply continuity_pt_filterlim. apply (ex_derive_continuous (V := R_NormedModule)). eexists; exact D1.
    - rewrite Rmin_left, Rmax_right in Hxi by lra. destruct (SL xi Hxi) as (d & D1 & D2). rewrite (is_derive_unique _ _ _ D1) in E. nra. }
  pose proof (newV_inner mu Hmu _ _ AL2) as I1. pose proof (mixed_inner mu Hmu _ _ (proj1 ALo) (proj2 ALo)) as I2. fold Vs in I1. fold Vo in I2.
  pose proof (newV_sq mu Hmu _ _ AL2) as I3. pose proof (mixed_sq mu Hmu _ _ (proj1 ALo) (proj2 ALo)) as I4. fold Vs in I3. fold Vo in I4.
  set (sq0 := (sqV (mt_hgrads u) + sqnorm (mt_ograd u))%R).
  assert (I5 : ((1 - mu / 2) * sq <= mu / 2 * sq0 + (1 - mu) * dt)%R) by (unfold sq, sq0, dt; lra).
  (* the step itself *)
  set (m' := set_output n2 (with_layer (n_output n2) (stepped_with (o_l (n_output n2)) Vo))). set (ks' := map (fun lg => stepped_with (fst lg) (snd lg)) (combine k2 Vs)). set (K' := put_layers (n_hidden n2) ks' H2').
  assert (Gf : Forall2 gfit k2 Vs).
  { clearbody Vs. clear -VF PF. revert k2 PF. induction VF as [|k v ks Vs (V1 & V2 & _) VF IH]; intros k2 PF; inversion PF as [|q l2 qs k2' (_ & R3 & _) PF']; subst; constructor; auto. split; congruence. }
  assert (Gfo : gfit (o_l (n_output n2)) Vo) by (destruct VFo as (V1 & V2 & _); split; congruence).
  assert (FD : exists t', momentum_feeddata (D := Rdt) junk u m K x y = Ok (MT t' mu Vo Vs, m', K') /\ no_decay t').
  { exists (tick (mt_t u)). split; [|exact Ht]. unfold momentum_feeddata, decay. cbn [tick t_usedecay]. rewrite Ht. cbn [andb bind]. rewrite A1. cbn [bind]. rewrite A4. cbn [bind]. unfold net_getoutput, output_copy. cbn [o_l]. rewrite layer_copy_id.
    rewrite Emu. rewrite madd_scal_ok by apply ALo. cbn [bind]. rewrite (mom_list n2 H2' k2 (proj2 P9) _ _ (mt_hgrads u) (Forall2_len _ _ _ AL2) AL2). cbn [bind].
    assert (Eu : negb (deqb (d := Rdt) mu (dofZ 0)) = true). { cbn. unfold Reqb'. destruct (Req_EM_T mu 0); [lra|reflexivity]. }
    unfold mom_u, mom_v. cbn [t_iters tick]. rewrite Eu. 
    match goal with |- context [net_update_with n2 H2' ?a ?b] => change a with Vo; change b with Vs end.
    rewrite (net_update_with_ok n2 H2' k2 Vo Vs P9 Gfo Gf). reflexivity. }
  destruct FD as (t' & FD & Ht').
  assert (HLk : length k2 = length Vs) by apply (Forall2_len _ _ _ Gf).
  assert (DK : dense_net m' K' ks').
  { split; [apply A5|]. cbn. eapply dense_put; [apply (proj1 A5)|]. unfold ks'. rewrite map_length, combine_length. lia. }
  assert (R2 : Forall (fun l : rlayer => l_lrate l = eta) k2).
  { clear -PF Hr. induction PF as [|k l2 ks k2 (_ & _ & _ & E & _) PF IH]; constructor; inversion Hr; subst; auto. }
  assert (Ro : l_lrate (o_l (n_output n2)) = eta) by (rewrite P10; exact Hro).
  assert (SLn : forall (l : rlayer) v, l_lrate l = eta -> nr v = nr (l_W l) -> nc v = nc (l_W l) -> l_W (stepped_with l v) = line eta (l_W l) (oppm v)).
  { clear. intros l v El e1 e2. unfold stepped_with, line. cbn [l_W set_W]. apply (mk_ext (nr (l_W l)) (nc (l_W l))). intros i j Hi Hj. unfold oppm. rewrite at_mk by congruence. rewrite El. cbn [dsub dmul Rdt]. toR. ring. }
  assert (SWs : Forall2 sameWAL (lines eta ks Ds) ks').
  { unfold Ds, ks'. clearbody Vs. clear -PF Gf R2 SLn. revert Vs Gf R2. induction PF as [|k l2 ks k2 (_ & E1 & E2 & _ & E3) PF IH]; intros Vs Gf R2; inversion Gf as [|q v qs vs [g1 g2] Gf']; subst; [constructor|]. apply Forall_cons_iff in R2 as [R3 R4].
    unfold lines. cbn [map combine fst snd]. constructor; [|now apply IH]. split; [|split; cbn; congruence]. rewrite SLn by assumption. cbn. now rewrite E1. }
  assert (SWo : sameWAL (o_l (n_output (movedN m Do eta))) (o_l (n_output m'))).
  { split; [|split; cbn; rewrite P10; reflexivity]. cbn [m' set_output with_layer n_output o_l]. rewrite SLn by (assumption || apply Gfo). cbn. now rewrite Wo. }
  exists (F 0%R), (sqs k2 + sqnorm (l_grad (o_l (n_output n2))))%R, (MT t' mu Vo Vs), m', K', ks', (F eta). split; [exact AS|]. split.
  { unfold slope2. rewrite A1. cbn [bind]. rewrite A4. cbn [bind]. rewrite (hidden_layers_dense n2 H2' k2 (proj2 (proj1 A5))). reflexivity. }
  split; [pose proof (sqs_nonneg k2); pose proof (sqnorm_nonneg (l_grad (o_l (n_output n2)))); lra|]. split; [exact FD|]. split; [exact Ht'|]. split; [reflexivity|]. split.
  { destruct (NR eta ltac:(lra)) as (_ & _ & (_ & _ & N3 & N4)). split; [exact DK|]. split.
    - destruct M2 as [q1 q2]. split; [cbn; congruence|]. cbn. apply backprop_kc in A4 as [[_ q3] _]. apply forward_kc in A1 as [[_ q4] _]. congruence.
    - split; [eapply lsnear_same; [exact SWs|exact N3]|eapply lnear_same; [exact SWo|exact N4]]. }
  split. { unfold ks'. clearbody Vs. clear -R2. revert Vs. induction R2 as [|l k2 E R2 IH]; intros [|v Vs]; cbn; constructor; auto. }
  split; [exact Ro|]. split.
  { cbn [mt_hgrads]. unfold ks'. clearbody Vs. clear -VF PF. revert k2 PF. induction VF as [|k v ks Vs V VF IH]; intros k2 PF; inversion PF as [|q l2 qs k2' (_ & R3 & _) PF']; subst; cbn [combine map fst snd]; constructor; auto.
    unfold vfit in *. cbn [stepped_with set_W l_W nr nc mk]. now rewrite R3. }
  split. { cbn [mt_ograd m' set_output with_layer n_output o_l]. unfold vfit in *. cbn [stepped_with set_W l_W nr nc mk]. now rewrite Wo. }
  split; [|split].
  - destruct (AL eta) as [Key _]. apply (Key m' K' ks'); [exact DK| |apply SWo| |apply SWo|apply SWo|].
    + clear -SWs. induction SWs as [|q v qs vs (E & _) SW IH]; cbn; [reflexivity|]. now rewrite E, IH.
    + clear -SWs. induction SWs as [|q v qs vs (_ & E) SW IH]; constructor; auto.
    + cbn. exact P12.
  - change (speed2 (MT t' mu Vo Vs)) with sq. change (speed2 u) with sq0.
    assert (Q : (eta / (1 - mu) * ((1 - mu / 2) * sq) <= eta / (1 - mu) * (mu / 2 * sq0 + (1 - mu) * dt))%R).
    { apply Rmult_le_compat_l; [|exact I5]. apply Rmult_le_pos; [lra|]. left. apply Rinv_0_lt_compat. lra. }
    replace (eta / (1 - mu) * (mu / 2 * sq0 + (1 - mu) * dt))%R with (eta * mu / (2 * (1 - mu)) * sq0 + eta * dt)%R in Q by (field; lra).
    replace (eta / (1 - mu) * ((1 - mu / 2) * sq))%R with (eta * mu / (2 * (1 - mu)) * sq + eta * sq)%R in Q by (field; lra). lra.
  - change (speed2 (MT t' mu Vo Vs)) with sq. change (speed2 u) with sq0. unfold sq, sq0. lra.
Qed.

Lemma zero_entries (l : rlayer) i j : i < nr (l_W l) -> j < nc (l_W l) -> at_ (zero_like (l_W l)) i j = 0%R.
Proof. intros Hi Hj. unfold zero_like, zeros. now rewrite (at_mk (D := Rdt)). Qed.
Lemma zero_sq (l : rlayer) : sqnorm (zero_like (l_W l)) = 0%R.
Proof.
  unfold sqnorm, inner. change (nr (zero_like (l_W l))) with (nr (l_W l)). change (nc (zero_like (l_W l))) with (nc (l_W l)). transitivity (sumN (nr (l_W l)) (fun _ => 0%R)).
  - apply sumN_ext. intros i Hi. transitivity (sumN (nc (l_W l)) (fun _ => 0%R)); [|rewrite sumN_const; ring]. apply sumN_ext. intros j Hj. rewrite (zero_entries l i j Hi Hj). ring.
  - rewrite sumN_const. ring.
Qed.
Lemma zero_fit G (l : rlayer) : (0 <= G)%R -> vfit G l (zero_like (l_W l)).
Proof. intros HG. split; [reflexivity|]. split; [reflexivity|]. intros i j Hi Hj. rewrite zero_entries by assumption. now rewrite Rabs_R0. Qed.
Lemma speed_nonneg u : (0 <= speed2 u)%R.
Proof. unfold speed2. pose proof (sqV_nonneg (mt_hgrads u)) as Q. unfold sqV in Q. pose proof (sqnorm_nonneg (mt_ograd u)). lra. Qed.

(** ** C101 *)
Theorem C101_converges : forall junk (n : rnet) (H : rheap) p c (x y : rmat) lam,
  1 <= p -> well_sized n H p c -> samples p c (x, y) -> built_in n y -> (n_cost n = quad_cost \/ all_in 0 1 y) ->
  (forall ls, hidden_layers n H = Ok ls -> Forall (fun l => In (l_act l) seven /\ (lam <= l_lambda l)%R) ls) ->
  (0 < lam <= l_lambda (o_l (n_output n)))%R ->
  exists eta0, (0 < eta0)%R /\
    forall eta mu, (0 < eta < eta0)%R -> (0 < mu < 1)%R ->
      exists n0 H0 u (J g : nat -> R), net_setlrate (D := Rdt) n H eta = Ok (n0, H0) /\ momentum_new (D := Rdt) mu n0 H0 = Ok u /\ objective junk n H x y = Ok (J 0) /\
        (forall k, exists u' n' H', mtrain junk u n0 H0 x y k = Ok (u', n', H') /\ objective junk n' H' x y = Ok (J k) /\
           slope2 junk n' H' x y = Ok (g k) /\ small (sqrt (2 * J 0%nat / lam)) n' H' /\ (0 <= J k <= J 0%nat)%R) /\
        is_lim_seq g 0%R /\ ex_finite_lim_seq J.
Proof.
  intros junk n H p c x y lam Hp Hw Hs Hb Hy HL [Hlam Hlo]. pose proof (proj1 (well_fits _ _ _ _) Hw) as ((ts & Hf) & _).
  pose proof (HL _ (hidden_layers_dense _ _ _ (proj2 (proj1 Hf)))) as HT.
  assert (HA : Forall (fun l : rlayer => In (l_act l) seven) ts) by (eapply Forall_impl; [|exact HT]; cbn; tauto).
  assert (Hls : Forall (fun l : rlayer => (lam <= l_lambda l)%R) ts) by (eapply Forall_impl; [|exact HT]; cbn; tauto). clear HT HL.
  destruct (objective_ok junk n H ts p c x y Hf Hp Hs Hb) as (J0 & EJ0). set (M := sqrt (2 * J0 / lam)).
  destruct (mstep_near junk n H ts p c x y M Hf Hp Hs Hb HA) as (G & eta0 & HG & He & St). exists eta0. split; [assumption|].
  intros eta mu Heta Hmu. destruct (net_setlrate_dense n H ts (eta : Rdt) (proj1 Hf)) as [ES Hr].
  set (n0 := setrate_net n (eta : Rdt)) in *. set (H0 := put_layers (n_hidden n) (map (relr (eta : Rdt)) ts) H) in *. set (ts0 := map (relr (eta : Rdt)) ts) in *.
  pose proof (objective_setrate junk n H ts x y J0 eta (proj1 Hf) EJ0) as EJ. fold n0 H0 in EJ.
  assert (OB : forall M' m K ks J, built n ts M' m K ks -> objective junk m K x y = Ok J -> (J <= J0)%R -> (0 <= J)%R /\ built n ts M m K ks).
  { intros M' m K ks J Bm E HJ. eapply objective_bounds; eauto. }
  assert (B0 : built n ts M n0 H0 ts0).
  { destruct (built_self n H ts (proj1 Hf)) as (M' & (B1 & B2 & B3 & B4)). apply (OB M' n0 H0 _ J0); [|exact EJ|lra].
    split; [exact Hr|]. split; [exact B2|]. split; [|exact B4]. eapply lsnear_same; [|exact B3]. unfold ts0. clear. induction ts; cbn; constructor; auto. repeat split. }
  (* the trainer *)
  assert (EU : exists u, momentum_new (D := Rdt) mu n0 H0 = Ok u /\ mt_t u = trainer_new (D := Rdt) /\ mt_mom u = mu /\ mt_hgrads u = map (fun l : rlayer => zero_like (l_W l)) ts0 /\ mt_ograd u = zero_like (l_W (o_l (n_output n0)))).
  { destruct (C56_momentum (D := Rdt) junk p c [] (trainer_new (D := Rdt)) (mu : Rdt) n0 H0 Hp) as (u & _ & _ & _ & EU & _); [|constructor|].
    - pose proof (built_fits n H ts p c M n0 H0 ts0 Hf B0) as Hf0. apply well_fits. split; [exists ts0; exact Hf0|]. apply well_fits in Hw as (_ & Hw2). exact Hw2.
    - exists u. split; [exact EU|]. destruct (momentum_new_shape (D := Rdt) _ _ _ _ _ (dense_net_hidden _ _ _ Hr) EU) as (U1 & U2 & ls & L & U3 & U4). pose proof (eq_trans (eq_sym L) (hidden_layers_dense _ _ _ (proj2 Hr))) as Q. injection Q as ->. auto. }
  destruct EU as (u & EU & U1 & U2 & U3 & U4).
  assert (Usp : speed2 u = 0%R).
  { unfold speed2. rewrite U3, U4, zero_sq, map_map. clear. induction ts0 as [|l ls IH]; unfold sumL in *; cbn [map fold_right]; [lra|]. rewrite zero_sq. lra. }
  set (cc := (eta * mu / (2 * (1 - mu)))%R). assert (Hcc : (0 <= cc)%R) by (unfold cc; apply Rmult_le_pos; [nra|left; apply Rinv_0_lt_compat; lra]).
  set (Good := fun u' n' H' J => no_decay (mt_t u') /\ mt_mom u' = mu /\ exists ks, built n ts M n' H' ks /\
     Forall (fun l : rlayer => l_lrate l = eta) ks /\ l_lrate (o_l (n_output n')) = eta /\ Forall2 (vfit G) ks (mt_hgrads u') /\ vfit G (o_l (n_output n')) (mt_ograd u') /\ objective junk n' H' x y = Ok J /\ (0 <= J)%R /\ (J + cc * speed2 u' <= J0)%R).
  assert (St' : forall u' n' H' J, Good u' n' H' J -> exists g u2 n2 H2 J2, slope2 junk n' H' x y = Ok g /\ (0 <= g)%R /\ momentum_feeddata (D := Rdt) junk u' n' H' x y = Ok (u2, n2, H2) /\ Good u2 n2 H2 J2 /\
      (J2 + cc * speed2 u2 <= J + cc * speed2 u' - eta / 2 * speed2 u2)%R /\ ((1 - mu) * (1 - mu) * g <= 2 * speed2 u2 + 2 * speed2 u')%R).
  { intros u' n' H' J (I1 & I2 & ks & I3 & I4 & I5 & I6 & I7 & I8 & I9 & I10).
    destruct (St n' H' ks u' eta mu I3 I4 I5 I1 I2 Hmu I6 I7 Heta) as (J1 & g & u2 & m' & K' & ks' & J' & A1 & A2 & A3 & A4 & A5 & A6 & A7 & A8 & A9 & A10 & A11 & A12 & A13 & A14).
    pose proof (eq_trans (eq_sym I8) A1) as Q. injection Q as <-. fold cc in A13. pose proof (speed_nonneg u2). assert (0 <= eta / 2 * speed2 u2)%R by (apply Rmult_le_pos; lra). assert (0 <= cc * speed2 u2)%R by (apply Rmult_le_pos; lra).
    destruct (OB _ _ _ _ _ A7 A12) as [Z1 Z2]; [lra|]. exists g, u2, m', K', J'. split; [assumption|]. split; [assumption|]. split; [assumption|]. split; [|auto].
    split; [assumption|]. split; [assumption|]. exists ks'. repeat (split; [assumption|]). lra. }
  assert (Inv : forall k, exists u' n' H' J, mtrain junk u n0 H0 x y k = Ok (u', n', H') /\ Good u' n' H' J).
  { induction k as [|k (u' & n' & H' & J & I1 & I2)].
    - exists u, n0, H0, J0. split; [reflexivity|]. split; [rewrite U1; reflexivity|]. split; [assumption|]. exists ts0. split; [assumption|]. split; [unfold ts0; clear; induction ts; cbn; constructor; auto|]. split; [reflexivity|].
      split. { rewrite U3. clear -HG. induction ts0; cbn; constructor; auto. now apply zero_fit. } split; [rewrite U4; now apply zero_fit|]. split; [assumption|]. split; [|rewrite Usp; lra]. eapply OB; eauto. lra.
    - destruct (St' _ _ _ _ I2) as (g & u2 & n2 & H2 & J2 & A1 & A2 & A3 & A4 & _). exists u2, n2, H2, J2. rewrite mtrain_S, I1. cbn [bind]. auto. }
  set (J := fun k => match mtrain junk u n0 H0 x y k with Ok (_, n', H') => match objective junk n' H' x y with Ok j => j | _ => 0%R end | _ => 0%R end).
  set (g := fun k => match mtrain junk u n0 H0 x y k with Ok (_, n', H') => match slope2 junk n' H' x y with Ok j => j | _ => 0%R end | _ => 0%R end).
  set (s := fun k => match mtrain junk u n0 H0 x y k with Ok (u', _, _) => speed2 u' | _ => 0%R end).
  assert (EJz : J 0 = J0). { unfold J. change (mtrain junk u n0 H0 x y 0) with (Ok (u, n0, H0)). cbv beta iota. change (objective junk n0 H0 x y = Ok J0) in EJ. now rewrite EJ. }
  assert (Step : forall k, exists u' n' H', mtrain junk u n0 H0 x y k = Ok (u', n', H') /\ objective junk n' H' x y = Ok (J k) /\ slope2 junk n' H' x y = Ok (g k) /\ small M n' H' /\
     (0 <= J k)%R /\ (J k + cc * s k <= J0)%R /\ (0 <= s k)%R /\ (J (S k) + cc * s (S k) <= J k + cc * s k - eta / 2 * s (S k))%R /\ (0 <= g k)%R /\ ((1 - mu) * (1 - mu) * g k <= 2 * s (S k) + 2 * s k)%R).
  { intros k. destruct (Inv k) as (u' & n' & H' & Jk & I1 & I2). destruct (St' _ _ _ _ I2) as (g1 & u2 & n2 & H2 & J2 & A1 & A2 & A3 & A4 & A5 & A6).
    assert (I1' : mtrain junk u n0 H0 x y (S k) = Ok (u2, n2, H2)) by (rewrite mtrain_S, I1; exact A3).
    destruct I2 as (_ & _ & ks & I3 & _ & _ & _ & _ & I8 & I9 & I10). destruct A4 as (_ & _ & ks2 & _ & _ & _ & _ & _ & A8 & _).
    assert (EJk : J k = Jk) by (unfold J; now rewrite I1, I8). assert (Egk : g k = g1) by (unfold g; now rewrite I1, A1). assert (EJk1 : J (S k) = J2) by (unfold J; now rewrite I1', A8).
    assert (Esk : s k = speed2 u') by (unfold s; now rewrite I1). assert (Esk1 : s (S k) = speed2 u2) by (unfold s; now rewrite I1').
    exists u', n', H'. rewrite EJk, Egk, EJk1, Esk, Esk1. split; [assumption|]. split; [assumption|]. split; [assumption|]. split; [apply (built_same n H ts n' H' M ks (proj1 Hf) I3)|].
    pose proof (speed_nonneg u'). auto 10. }
  set (P := fun k => (J k + cc * s k)%R).
  assert (Bnd : forall k, (0 <= J k)%R /\ (P k <= J0)%R /\ (0 <= s k)%R /\ (P (S k) <= P k - eta / 2 * s (S k))%R /\ (0 <= g k)%R /\ ((1 - mu) * (1 - mu) * g k <= 2 * s (S k) + 2 * s k)%R) by (intros k; destruct (Step k) as (? & ? & ? & ? & ? & ? & ? & B); exact B).
  assert (Hcs : forall k, (0 <= cc * s k)%R) by (intros k; apply Rmult_le_pos; [assumption|apply Bnd]).
  assert (LP : ex_finite_lim_seq P).
  { apply (ex_finite_lim_seq_decr P 0%R); intros k.
    - destruct (Bnd k) as (_ & _ & _ & Q & _). destruct (Bnd (S k)) as (_ & _ & Q3 & _). assert (0 <= eta / 2 * s (S k))%R by (apply Rmult_le_pos; lra). lra.
    - unfold P. specialize (Hcs k). destruct (Bnd k) as (Q & _). lra. }
  destruct LP as (l & LP).
  assert (LS1 : is_lim_seq (fun k => s (S k)) 0%R).
  { apply (is_lim_seq_le_le (fun _ => 0%R) _ (fun k => (2 / eta) * (P k - P (S k)))%R).
    - intros k. split; [apply Bnd|]. destruct (Bnd k) as (_ & _ & _ & Q & _). apply (Rmult_le_reg_l (eta / 2)); [lra|]. replace (eta / 2 * (2 / eta * (P k - P (S k))))%R with (P k - P (S k))%R by (field; lra). lra.
    - apply is_lim_seq_const.
    - replace (Finite 0%R) with (Rbar_mult (2 / eta)%R (l - l)%R) by (cbn; f_equal; ring). apply is_lim_seq_scal_l. apply is_lim_seq_minus'; [assumption|]. now apply is_lim_seq_incr_1 in LP. }
  assert (LS : is_lim_seq s 0%R) by now apply is_lim_seq_incr_1.
  exists n0, H0, u, J, g. split; [exact ES|]. split; [exact EU|]. split; [rewrite EJz; exact EJ0|]. split; [|split].
  - intros k. destruct (Step k) as (u' & n' & H' & Z1 & Z2 & Z3 & Z4 & Z5 & Z6 & _). exists u', n', H'. rewrite EJz. specialize (Hcs k). repeat (split; [assumption|]). lra.
  - assert (Hmm : (0 < (1 - mu) * (1 - mu))%R) by (apply Rmult_lt_0_compat; lra).
    apply (is_lim_seq_le_le (fun _ => 0%R) g (fun k => / ((1 - mu) * (1 - mu)) * (2 * s (S k) + 2 * s k))%R).
    + intros k. destruct (Bnd k) as (_ & _ & _ & _ & Q1 & Q2). split; [assumption|]. apply (Rmult_le_reg_l ((1 - mu) * (1 - mu))); [assumption|]. rewrite <- Rmult_assoc, Rinv_r by lra. lra.
    + apply is_lim_seq_const.
    + replace (Finite 0%R) with (Rbar_mult (/ ((1 - mu) * (1 - mu)))%R (2 * 0 + 2 * 0)%R) by (cbn; f_equal; ring). apply is_lim_seq_scal_l. apply is_lim_seq_plus'; apply (is_lim_seq_scal_l _ 2%R 0%R); assumption.
  - exists (l - cc * 0)%R. apply (is_lim_seq_ext (fun k => P k - cc * s k)%R); [intros k; unfold P; ring|]. apply is_lim_seq_minus'; [assumption|]. now apply (is_lim_seq_scal_l _ cc 0%R).
Qed.

(** The hypotheses are those of C100_converges: [C100_example]; here with a momentum. *)
Lemma C101_example : exists eta0, (0 < eta0)%R /\ forall eta, (0 < eta < eta0)%R -> exists n0 H0 u, net_setlrate (D := Rdt) cvn cvH eta = Ok (n0, H0) /\ momentum_new (D := Rdt) (9 / 10)%R n0 H0 = Ok u /\
  forall k, exists s, mtrain (fun _ => 0%R) u n0 H0 exdx exdy k = Ok s.
Proof.
  destruct C100_example as (E1 & E2 & E3 & E4 & E5 & E6 & _). destruct (C101_converges (fun _ => 0%R) cvn cvH 1 1 exdx exdy (/ 2)%R (le_n 1) E1 E2 E3 (or_intror E4) E5 E6) as (eta0 & P0 & P).
  exists eta0. split; [assumption|]. intros eta He. destruct (P eta (9 / 10)%R He ltac:(lra)) as (n0 & H0 & u & J & g & A1 & A2 & _ & A3 & _). exists n0, H0, u. split; [assumption|]. split; [assumption|].
  intros k. destruct (A3 k) as (u' & n' & H' & A4 & _). eexists. exact A4.
Qed.

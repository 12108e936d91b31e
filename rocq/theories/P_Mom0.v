(** P_Mom0.v - C103: MomentumTrainer with momentum 0, whose hidden layers are trained with gradient/iters (C42), on a deep regularised network with a small enough rate. *)
From Coq Require Import Reals Lra Psatz.
From Coquelicot Require Import Coquelicot.
From Verif Require Import Base Mat Act Layer Conv Misc Net NetP RInst RMat P_Act Grad P_Grad Trainer TrainP TrainP2 P_Train FunEq P_Mom P_Descent P_Linear P_Heavy Smooth Smooth2 P_Cost P_Smooth P_Converge P_MomConv.
From Coq Require Import Arith.
Local Open Scope nat_scope.

(** ** Specification *)
(** The squared lengths of the gradients a backprop stores: all hidden layers together, and the output layer. *)
Definition slopes (junk : nat -> R) (n : rnet) (H : rheap) (x y : rmat) : res (R * R) :=
  '(a, n1, H1) <- net_forward (D := Rdt) junk n H x ;;
  '(n2, H2) <- net_backprop (D := Rdt) junk n1 H1 y ;;
  ls <- hidden_layers n2 H2 ;;
  Ok (sumL (map (fun l : rlayer => sqnorm (l_grad l)) ls), sqnorm (l_grad (o_l (n_output n2)))).

(** ** Proof *)
Section Slow.
Context (T : R) (HT : (1 <= T)%R) (acc g : rmat) (E1 : nr acc = nr g) (E2 : nc acc = nc g).
Definition slow : rmat := mixed (D := Rdt) (IZR 0) (1 / T)%R acc g.
Lemma at_slow i j : i < nr acc -> j < nc acc -> (at_ slow i j = at_ g i j / T)%R.
Proof. intros Hi Hj. unfold slow, mixed. rewrite at_mk by assumption. cbn [dadd dmul Rdt]. toR. change (IZR 0) with 0%R. field. lra. Qed.
Lemma slow_inner : (inner g slow = sqnorm g / T)%R.
Proof.
  unfold sqnorm, inner, Rdiv. rewrite Rmult_comm, <- sumN_scal. apply sumN_ext. intros i Hi. rewrite <- sumN_scal. apply sumN_ext. intros j Hj. rewrite at_slow by congruence. unfold Rdiv. ring.
Qed.
Lemma slow_sq : (sqnorm slow <= sqnorm g / T)%R.
Proof.
  assert (E : (sqnorm slow = sqnorm g / T / T)%R).
  { unfold sqnorm, inner, Rdiv. change (nr slow) with (nr acc). change (nc slow) with (nc acc). rewrite E1, E2. rewrite Rmult_assoc, (Rmult_comm (sumN _ _)), <- sumN_scal. apply sumN_ext. intros i Hi. rewrite <- sumN_scal. apply sumN_ext. intros j Hj. rewrite at_slow by congruence. unfold Rdiv. ring. }
  rewrite E. assert (0 <= sqnorm g / T)%R by (apply Rmult_le_pos; [apply sqnorm_nonneg|left; apply Rinv_0_lt_compat; lra]).
  apply (Rmult_le_reg_r T); [lra|]. replace (sqnorm g / T / T * T)%R with (sqnorm g / T)%R by (field; lra). nra.
Qed.
End Slow.
Lemma slow_bound T a G : (1 <= T)%R -> (Rabs a <= G)%R -> (Rabs (a / T) <= G)%R.
Proof.
  intros HT Ha. unfold Rdiv. rewrite Rabs_mult, (Rabs_right (/ T)) by (apply Rle_ge; left; apply Rinv_0_lt_compat; lra). apply (Rmult_le_reg_r T); [lra|]. rewrite Rmult_assoc, Rinv_l, Rmult_1_r by lra. pose proof (Rabs_pos a). nra.
Qed.
Lemma at_plain (acc g : rmat) i j : i < nr acc -> j < nc acc -> (at_ (mixed (D := Rdt) 0%R (1 - 0)%R acc g) i j = at_ g i j :> R)%R.
Proof. intros Hi Hj. unfold mixed. rewrite at_mk by assumption. cbn [dadd dmul Rdt]. toR. ring. Qed.
Lemma plain_inner (acc g : rmat) : nr acc = nr g -> nc acc = nc g -> (inner g (mixed (D := Rdt) 0%R (1 - 0)%R acc g) = sqnorm g)%R /\ (sqnorm (mixed (D := Rdt) 0%R (1 - 0)%R acc g) = sqnorm g)%R.
Proof.
  intros E1 E2. unfold sqnorm, inner. change (nr (mixed (D := Rdt) 0%R (1 - 0)%R acc g)) with (nr acc). change (nc (mixed (D := Rdt) 0%R (1 - 0)%R acc g)) with (nc acc). rewrite <- E1, <- E2.
  split; apply sumN_ext; intros i Hi; apply sumN_ext; intros j Hj; now rewrite at_plain by congruence.
Qed.
Definition slowV (T : R) (Vs : list rmat) (k2 : list rlayer) : list rmat := map (fun al => slow T (fst al) (l_grad (snd al))) (combine Vs k2).
Lemma slowV_dots T : (1 <= T)%R -> forall Vs k2, Forall2 alike Vs k2 -> (dots k2 (slowV T Vs k2) = sqs k2 / T)%R.
Proof.
  intros HT Vs k2 F. unfold dots, sqs, slowV, sumL. induction F as [|v l Vs k2 [E1 E2] F IH]; cbn [map combine fst snd fold_right]; [unfold Rdiv; ring|]. rewrite IH, slow_inner by assumption. unfold Rdiv. ring.
Qed.
Lemma slowV_sq T : (1 <= T)%R -> forall Vs k2, Forall2 alike Vs k2 -> (sqV (slowV T Vs k2) <= sqs k2 / T)%R.
Proof.
  intros HT Vs k2 F. unfold sqV, sqs, slowV, sumL. induction F as [|v l Vs k2 [E1 E2] F IH]; cbn [map combine fst snd fold_right]; [unfold Rdiv; lra|]. pose proof (slow_sq T HT _ _ E1 E2) as Q. unfold Rdiv in *. lra.
Qed.

Lemma mstep0_near junk n H ts p c x y M : fits_net n H ts p c -> 1 <= p -> samples p c (x, y) -> built_in n y -> Forall (fun l : rlayer => In (l_act l) seven) ts ->
  exists G eta0, (0 <= G)%R /\ (0 < eta0)%R /\ forall m K ks (u : mtrainer Rdt) eta, built n ts M m K ks -> Forall (fun l : rlayer => l_lrate l = eta) ks -> l_lrate (o_l (n_output m)) = eta ->
    no_decay (mt_t u) -> mt_mom u = 0%R -> (0 <= t_iters (mt_t u))%Z -> Forall2 (vfit G) ks (mt_hgrads u) -> vfit G (o_l (n_output m)) (mt_ograd u) -> (0 < eta < eta0)%R ->
    exists J gh go u' m' K' ks' J', objective junk m K x y = Ok J /\ slopes junk m K x y = Ok (gh, go) /\ (0 <= gh)%R /\ (0 <= go)%R /\ momentum_feeddata (D := Rdt) junk u m K x y = Ok (u', m', K') /\
      no_decay (mt_t u') /\ mt_mom u' = 0%R /\ t_iters (mt_t u') = (t_iters (mt_t u) + 1)%Z /\ built n ts (M + 1) m' K' ks' /\ Forall (fun l : rlayer => l_lrate l = eta) ks' /\ l_lrate (o_l (n_output m')) = eta /\
      Forall2 (vfit G) ks' (mt_hgrads u') /\ vfit G (o_l (n_output m')) (mt_ograd u') /\
      objective junk m' K' x y = Ok J' /\ (J' <= J - eta / 2 * (gh / IZR (t_iters (mt_t u) + 1) + go))%R.
Proof.
  intros Hf Hp Hs Hb HA.
  assert (Hcd : o_costd (n_output n) = quad_costd \/ o_costd (n_output n) = ce_costd \/ o_costd (n_output n) = sm_costd) by (destruct Hb as [(_ & E & _)|[(_ & E & _)|(_ & E & _)]]; auto).
  assert (HAo : In (l_act (o_l (n_output n))) seven) by (destruct Hb as [(_ & _ & ->)|[(_ & _ & ->)|(_ & _ & -> & _)]]; cbn; auto).
  destruct (pass_near junk n H ts p c x y (M + 1) Hf Hp Hs Hcd) as (G & Lg & HG & HL & Pn).
  { eapply Forall_impl; [|exact HA]. intros l Hl. now apply seven_lip. }
  { now apply seven_lip. }
  set (No := (INR (nr (l_W (o_l (n_output n)))) * INR (nc (l_W (o_l (n_output n)))))%R). set (NT := (Nw ts + No)%R).
  assert (HNT : (0 <= NT)%R). { unfold NT, No. pose proof (Nw_nonneg ts). pose proof (pos_INR (nr (l_W (o_l (n_output n))))). pose proof (pos_INR (nc (l_W (o_l (n_output n))))). nra. }
  exists G, (Rmin (/ (G + 1)) (/ (2 * NT * Lg + 1))). assert (H2 : (0 <= 2 * NT * Lg)%R) by (apply Rmult_le_pos; lra). split; [assumption|]. split; [apply Rmin_glb_lt; apply Rinv_0_lt_compat; lra|].
  intros m K ks u eta Hm Hr Hro Ht Emu Hit HV HVo [He0 He1]. set (T := IZR (t_iters (mt_t u) + 1)). assert (HT : (1 <= T)%R) by (unfold T; apply IZR_le; lia). pose proof (Rlt_le_trans _ _ _ He1 (Rmin_l _ _)) as HeG. pose proof (Rlt_le_trans _ _ _ He1 (Rmin_r _ _)) as HeL. clear He1.
  assert (HeG' : (eta * G <= 1)%R). { apply (Rmult_lt_compat_r (G + 1)) in HeG; [|lra]. rewrite Rinv_l in HeG by lra. lra. }
  assert (HeL' : (eta * (2 * NT * Lg) <= 1)%R). { apply (Rmult_lt_compat_r (2 * NT * Lg + 1)) in HeL; [|lra]. rewrite Rinv_l in HeL by lra. lra. }
  pose proof (built_fits n H ts p c M m K ks Hf Hm) as Hfm. pose proof Hm as (M1 & M2 & M3 & M4).
  assert (Hbm : built_in m y).
  { destruct M2 as [K1 K2]. destruct M4 as ((E & _) & _). unfold built_in in *. rewrite K1, K2, E. exact Hb. }
  pose proof Hs as (S1 & S2 & S3 & S4). cbn in S1, S2, S3, S4.
  destruct (forward_backward_ok (D := Rdt) junk _ _ _ p c x y Hfm Hp S1 S2 S3 S4) as (a & n1 & H1 & n2 & H2' & k2 & A1 & A2 & A3 & A4 & A5 & A6 & A7).
  destruct (pass_dense (D := Rdt) junk _ _ _ x y a n1 H1 n2 H2' (proj1 Hfm) A1 A4) as (b & ls1 & delta & ls2' & dx & P1 & P2 & P3 & P4 & P5 & P6 & P7 & P8 & P9 & P10 & P11 & P12 & P13).
  assert (E2 : ls2' = k2).
  { pose proof (eq_trans (eq_sym (hidden_layers_dense _ _ _ (proj2 P9))) (hidden_layers_dense _ _ _ (proj2 (proj1 A5)))) as Q. now injection Q. }
  subst ls2'. pose proof (passes_form (D := Rdt) _ _ _ _ P1 _ _ _ P7) as PF.
  pose proof (built_mono n ts M (M + 1) m K ks ltac:(lra) Hm) as Hm1.
  destruct (Pn 0%R m K ks m K ks a n1 H1 n2 H2' k2 a n1 H1 n2 H2' k2) as [Z1 Z2]; auto; try lra; try apply Hm1; try apply A5.
  assert (Wo : l_W (o_l (n_output n2)) = l_W (o_l (n_output m))) by (rewrite P10; reflexivity).
  (* the averaged gradients *)
  set (Vs := slowV T (mt_hgrads u) k2). set (Vo := mixed (D := Rdt) 0%R (1 - 0)%R (mt_ograd u) (l_grad (o_l (n_output n2)))).
  assert (AL2 : Forall2 alike (mt_hgrads u) k2).
  { clear -HV PF A6. revert k2 PF A6. induction HV as [|k v ks Vs (V1 & V2 & _) HV IH]; intros k2 PF A6; inversion PF as [|q l2 qs k2' (_ & R3 & _) PF']; subst; constructor; apply Forall_cons_iff in A6 as [[g1 g2] A6]; auto. split; congruence. }
  assert (ALo : alike (mt_ograd u) (o_l (n_output n2))) by (destruct HVo as (V1 & V2 & _); destruct A7 as [g1 g2]; split; congruence).
  set (sq := (sqV Vs + sqnorm Vo)%R). assert (Hsq : (0 <= sq)%R) by (unfold sq; pose proof (sqV_nonneg Vs); pose proof (sqnorm_nonneg Vo); lra).
  set (s := sqrt sq). assert (Hs0 : (0 <= s)%R) by apply sqrt_pos. assert (Hss : (s * s = sq)%R) by (apply sqrt_sqrt; assumption).
  assert (VF : Forall2 (vfit G) ks Vs).
  { unfold Vs, slowV. unfold gsnear in Z1. clear -HV PF Z1 HT A6. revert k2 PF Z1 A6. induction HV as [|k v ks Vs (V1 & V2 & V3) HV IH]; intros k2 PF Z1 A6; inversion PF as [|q l2 qs k2' (_ & R3 & _) PF']; subst; [constructor|]. apply Forall_cons_iff in A6 as [[g1 g2] A6].
    inversion Z1 as [|q w qs ws Z2 Z3]; subst. cbn [combine map fst snd]. constructor; [|now apply IH]. split; [exact V1|]. split; [exact V2|]. intros i j Hi Hj. rewrite at_slow by congruence. apply slow_bound; [assumption|].
    destruct Z2 as (_ & _ & Z2). rewrite R3 in Z2. apply Z2; assumption. }
  assert (VFo : vfit G (o_l (n_output m)) Vo).
  { destruct HVo as (V1 & V2 & V3). split; [exact V1|]. split; [exact V2|]. intros i j Hi Hj. unfold Vo. rewrite at_plain by congruence.
    destruct M4 as (_ & _ & ((w1 & w2) & _)). destruct Z2 as (_ & _ & Z2). apply Z2; congruence. }
  assert (VL : Forall2 (vle G s) ks Vs).
  { assert (Q : Forall (fun v => (sqnorm v <= sq)%R) Vs). { eapply Forall_impl; [|apply sqV_in]. intros v Hv. cbn beta in Hv. unfold sq. pose proof (sqnorm_nonneg Vo). lra. }
    assert (Es : s = sqrt sq) by reflexivity. clearbody s sq Vs. clear -VF Q Es. induction VF as [|k v ks Vs (V1 & V2 & V3) VF IH]; constructor; apply Forall_cons_iff in Q as [Q1 Q2]; auto.
    split; [assumption|]. split; [assumption|]. intros i j Hi Hj. split; [auto|]. rewrite Es. apply abs_sqrt. eapply Rle_trans; [apply sq_entry; congruence|exact Q1]. }
  assert (VLo : vle G s (o_l (n_output m)) Vo).
  { destruct VFo as (V1 & V2 & V3). split; [assumption|]. split; [assumption|]. intros i j Hi Hj. split; [auto|]. apply abs_sqrt. eapply Rle_trans; [apply sq_entry; congruence|]. unfold sq. pose proof (sqV_nonneg Vs). lra. }
  set (Ds := map oppm Vs). set (Do := oppm Vo).
  assert (HD : length Ds = length ks) by (unfold Ds; rewrite map_length; symmetry; apply (Forall2_len _ _ _ VL)).
  assert (HAk : Forall (fun l : rlayer => smooth_act (l_act l)) ks).
  { pose proof (lsnear_act _ _ _ _ _ M3) as Q. clear -Q HA. induction Q as [|t k ts ks (E & _) Q IH]; constructor; inversion HA; subst; auto. rewrite E. now apply seven_smooth. }
  pose proof (along junk m K ks p c x y Ds Do Hfm Hp Hs Hbm HAk HD) as AL.
  pose proof (along_start junk m K ks p c x y Ds Do Hfm Hp Hs Hbm HAk HD) as AS.
  set (F := phi junk m K ks x y Ds Do) in *.
  assert (NR : forall xi, (0 <= xi <= eta)%R -> lsnear (M + 1) (xi * s) ts ks (lines xi ks Ds) /\
     lnear (M + 1) (xi * s) (o_l (n_output n)) (o_l (n_output m)) (o_l (n_output (movedN m Do xi))) /\ built n ts (M + 1) (movedN m Do xi) (movedH m K ks Ds xi) (lines xi ks Ds)).
  { intros xi [X1 X2]. assert (XG : (xi * G <= 1)%R) by (eapply Rle_trans; [apply Rmult_le_compat_r; [exact HG|exact X2]|exact HeG']).
    pose proof (lines_nearV M G s xi X1 XG Hs0 ts ks Vs M3 VL) as N1. pose proof (line_nearV M G s xi _ _ _ X1 XG Hs0 M4 VLo) as N2. split; [exact N1|]. split; [exact N2|].
    split; [apply moved_dense; assumption|]. split; [exact M2|]. split; [eapply lsnear_right; exact N1|eapply lnear_right; exact N2]. }
  set (dt := (dots k2 Vs + inner (l_grad (o_l (n_output n2))) Vo)%R).
  assert (SL : forall xi, (0 <= xi <= eta)%R -> exists d, is_derive F xi d /\ (d <= - dt + sq / 2)%R).
  { intros xi Hxi. destruct (AL xi) as (_ & a' & n1' & H1' & n2' & H2'' & k2' & B1 & B2 & B3 & B4). eexists. split; [exact B4|]. destruct (NR xi Hxi) as (N1 & N2 & N3).
    assert (Hxs : (0 <= xi * s)%R) by (apply Rmult_le_pos; lra).
    destruct (Pn (xi * s)%R m K ks (movedN m Do xi) (movedH m K ks Ds xi) (lines xi ks Ds) a n1 H1 n2 H2' k2 a' n1' H1' n2' H2'' k2') as [Y1 Y2]; auto; try apply A5; try apply Hm1.
    destruct (pass_dense (D := Rdt) junk _ _ _ x y a' n1' H1' n2' H2'' (proj1 N3) B1 B2) as (b' & ls1' & delta' & ls2'' & dx' & P1' & P2' & P3' & P4' & P5' & P6' & P7' & P8' & P9' & P10' & _).
    assert (E2' : ls2'' = k2').
    { pose proof (eq_trans (eq_sym (hidden_layers_dense _ _ _ (proj2 P9'))) (hidden_layers_dense _ _ _ (proj2 B3))) as Q. now injection Q. }
    subst ls2''. pose proof (passes_form (D := Rdt) _ _ _ _ P1' _ _ _ P7') as PF'.
    assert (VL2 : Forall2 (vle G s) k2 Vs).
    { clearbody Vs s. clear -VL PF. revert k2 PF. induction VL as [|k v ks Vs V VL IH]; intros k2 PF; inversion PF as [|q l2 qs k2' (_ & R3 & _) PF']; subst; constructor; auto. unfold vle in *. now rewrite R3. }
    assert (DM : Forall2 (fun l l' : rlayer => nr (l_W l') = nr (l_W l) /\ nc (l_W l') = nc (l_W l)) k2 k2').
    { clearbody Ds. clear -PF PF' HD. revert Ds HD k2' PF'. induction PF as [|k l2 ks k2 (_ & R3 & _) PF IH]; intros [|d Ds] HD k2' PF'; try discriminate; unfold lines in PF'; cbn [combine map fst snd] in PF'; inversion PF' as [|q v qs vs (_ & R3' & _) PF'']; subst; constructor.
      - rewrite R3, R3'. cbn. auto.
      - apply (IH Ds); [simpl in HD; lia|exact PF'']. }
    assert (NWe : Nw k2 = Nw ts).
    { unfold Nw, sumL. pose proof (lsnear_act _ _ _ _ _ M3) as Q. clear -Q PF. revert k2 PF. induction Q as [|t k ts ks (_ & _ & E1 & E2) Q IH]; intros k2 PF; inversion PF as [|q v qs vs (_ & R3 & _) PF']; subst; [reflexivity|].
      cbn [map fold_right]. rewrite (IH _ PF'), R3, E1, E2. reflexivity. }
    pose proof (layers_dir G Lg (xi * s) s Hxs Hs0 HL k2 k2' Y1 Vs DM VL2) as Q1. fold Ds in Q1. rewrite NWe in Q1.
    destruct M4 as (_ & _ & ((w1 & w2) & _)). destruct VLo as (v1 & v2 & g3). rewrite w1, w2 in g3. rewrite w1 in v1. rewrite w2 in v2.
    pose proof (layer_dir _ _ G Lg (xi * s) s (o_l (n_output n2')) _ Vo Hxs Hs0 HL Y2) as Q3. rewrite P10' in Q3 at 1 2. specialize (Q3 w1 w2 v1 v2 (fun i j Hi Hj => proj2 (g3 i j Hi Hj))). fold Do No in Q3.
    assert (Q4 : (NT * (Lg * (xi * s) * s) <= sq / 2)%R).
    { replace (NT * (Lg * (xi * s) * s))%R with (xi * (NT * Lg) * sq)%R by (rewrite <- Hss; ring). assert (xi * (NT * Lg) <= / 2)%R; [|nra].
      assert (0 <= NT * Lg)%R by (apply Rmult_le_pos; lra). assert (xi * (NT * Lg) <= eta * (NT * Lg))%R by (apply Rmult_le_compat_r; lra). lra. }
    unfold NT in Q4. unfold dt. lra. }
  assert (DEC : (F eta <= F 0 - eta * dt + eta * sq / 2)%R).
  { destruct (MVT_gen F 0 eta (Derive F)) as (xi & Hxi & E).
    - rewrite Rmin_left, Rmax_right by lra. intros xi Hxi. destruct (SL xi ltac:(lra)) as (d & D1 & _). apply Derive_correct. eexists; exact D1.
    - rewrite Rmin_left, Rmax_right by lra. intros xi Hxi. destruct (SL xi ltac:(lra)) as (d & D1 & _). apply continuity_pt_filterlim. apply (ex_derive_continuous (V := R_NormedModule)). eexists; exact D1.
    - rewrite Rmin_left, Rmax_right in Hxi by lra. destruct (SL xi Hxi) as (d & D1 & D2). rewrite (is_derive_unique _ _ _ D1) in E. nra. }
  pose proof (slowV_dots T HT _ _ AL2) as I1. pose proof (slowV_sq T HT _ _ AL2) as I2. fold Vs in I1, I2. destruct (plain_inner _ _ (proj1 ALo) (proj2 ALo)) as [I3 I4]. fold Vo in I3, I4.
  (* the step itself *)
  set (m' := set_output n2 (with_layer (n_output n2) (stepped_with (o_l (n_output n2)) Vo))). set (ks' := map (fun lg => stepped_with (fst lg) (snd lg)) (combine k2 Vs)). set (K' := put_layers (n_hidden n2) ks' H2').
  assert (Gf : Forall2 gfit k2 Vs).
  { clearbody Vs. clear -VF PF. revert k2 PF. induction VF as [|k v ks Vs (V1 & V2 & _) VF IH]; intros k2 PF; inversion PF as [|q l2 qs k2' (_ & R3 & _) PF']; subst; constructor; auto. split; congruence. }
  assert (Gfo : gfit (o_l (n_output n2)) Vo) by (destruct VFo as (V1 & V2 & _); split; congruence).
  assert (FD : exists t', momentum_feeddata (D := Rdt) junk u m K x y = Ok (MT (D := Rdt) t' 0%R Vo Vs, m', K') /\ no_decay t' /\ t_iters t' = (t_iters (mt_t u) + 1)%Z).
  { exists (tick (mt_t u)). split; [|split; [exact Ht|reflexivity]]. unfold momentum_feeddata, decay. cbn [tick t_usedecay]. rewrite Ht. cbn [andb bind]. rewrite A1. cbn [bind]. rewrite A4. cbn [bind]. unfold net_getoutput, output_copy. cbn [o_l]. rewrite layer_copy_id.
    rewrite Emu. rewrite madd_scal_ok by apply ALo. cbn [bind]. rewrite (mom_list n2 H2' k2 (proj2 P9) _ _ (mt_hgrads u) (Forall2_len _ _ _ AL2) AL2). cbn [bind].
    assert (Eu : negb (deqb (d := Rdt) (0%R : Rdt) (dofZ 0)) = false). { cbn. unfold Reqb'. destruct (Req_EM_T 0 0); [reflexivity|lra]. }
    unfold mom_u, mom_v. cbn [t_iters tick]. rewrite Eu. replace ((t_iters (mt_t u) + 1 - 1) / (t_iters (mt_t u) + 1))%Z with 0%Z by (symmetry; apply Z.div_small; lia).
    match goal with |- context [net_update_with n2 H2' ?a ?b] => change a with Vo; change b with Vs end.
    rewrite (net_update_with_ok n2 H2' k2 Vo Vs P9 Gfo Gf). reflexivity. }
  destruct FD as (t' & FD & Ht' & Hti).
  assert (HLk : length k2 = length Vs) by apply (Forall2_len _ _ _ Gf).
  assert (DK : dense_net m' K' ks').
  { split; [apply A5|]. cbn. eapply dense_put; [apply (proj1 A5)|]. unfold ks'. rewrite map_length, combine_length. lia. }
  assert (R2 : Forall (fun l : rlayer => l_lrate l = eta) k2).
  { clear -PF Hr. induction PF as [|k l2 ks k2 (_ & _ & _ & E & _) PF IH]; constructor; inversion Hr; subst; auto. }
  assert (Ro : l_lrate (o_l (n_output n2)) = eta) by (rewrite P10; exact Hro).
  assert (SLn : forall (l : rlayer) v, l_lrate l = eta -> nr v = nr (l_W l) -> nc v = nc (l_W l) -> l_W (stepped_with l v) = line eta (l_W l) (oppm v)).
  { clear. intros l v El e1 e2. unfold stepped_with, line. cbn [l_W set_W]. apply (mk_ext (nr (l_W l)) (nc (l_W l))). intros i j Hi Hj. unfold oppm. rewrite at_mk by congruence. rewrite El. cbn [dsub dmul Rdt]. toR. ring. }
  assert (SWs : Forall2 sameWAL (lines eta ks Ds) ks').
  { unfold Ds, ks'. clearbody Vs. clear -PF Gf R2 SLn. revert Vs Gf R2. induction PF as [|k l2 ks k2 (_ & E1 & E2 & _ & E3) PF IH]; intros Vs Gf R2; inversion Gf as [|q v qs vs [g1 g2] Gf']; subst; [constructor|]. apply Forall_cons_iff in R2 as [R3 R4].
    unfold lines. cbn [map combine fst snd]. constructor; [|now apply IH]. split; [|split; cbn; congruence]. rewrite SLn by assumption. cbn. now rewrite E1. }
  assert (SWo : sameWAL (o_l (n_output (movedN m Do eta))) (o_l (n_output m'))).
  { split; [|split; cbn; rewrite P10; reflexivity]. cbn [m' set_output with_layer n_output o_l]. rewrite SLn by (assumption || apply Gfo). cbn. now rewrite Wo. }
  exists (F 0%R), (sqs k2), (sqnorm (l_grad (o_l (n_output n2)))), (MT (D := Rdt) t' 0%R Vo Vs), m', K', ks', (F eta). split; [exact AS|]. split.
  { unfold slopes. rewrite A1. cbn [bind]. rewrite A4. cbn [bind]. rewrite (hidden_layers_dense n2 H2' k2 (proj2 (proj1 A5))). reflexivity. }
  split; [apply sqs_nonneg|]. split; [apply sqnorm_nonneg|]. split; [exact FD|]. split; [exact Ht'|]. split; [reflexivity|]. split; [exact Hti|]. split.
  { destruct (NR eta ltac:(lra)) as (_ & _ & (_ & _ & N3 & N4)). split; [exact DK|]. split.
    - destruct M2 as [q1 q2]. split; [cbn; congruence|]. cbn. apply backprop_kc in A4 as [[_ q3] _]. apply forward_kc in A1 as [[_ q4] _]. congruence.
    - split; [eapply lsnear_same; [exact SWs|exact N3]|eapply lnear_same; [exact SWo|exact N4]]. }
  split. { unfold ks'. clearbody Vs. clear -R2. revert Vs. induction R2 as [|l k2 E R2 IH]; intros [|v Vs]; cbn; constructor; auto. }
  split; [exact Ro|]. split.
  { cbn [mt_hgrads]. unfold ks'. clearbody Vs. clear -VF PF. revert k2 PF. induction VF as [|k v ks Vs V VF IH]; intros k2 PF; inversion PF as [|q l2 qs k2' (_ & R3 & _) PF']; subst; cbn [combine map fst snd]; constructor; auto.
    unfold vfit in *. cbn [stepped_with set_W l_W nr nc mk]. now rewrite R3. }
  split. { cbn [mt_ograd m' set_output with_layer n_output o_l]. unfold vfit in *. cbn [stepped_with set_W l_W nr nc mk]. now rewrite Wo. }
  split.
  - destruct (AL eta) as [Key _]. apply (Key m' K' ks'); [exact DK| |apply SWo| |apply SWo|apply SWo|].
    + clear -SWs. induction SWs as [|q v qs vs (E & _) SW IH]; cbn; [reflexivity|]. now rewrite E, IH.
    + clear -SWs. induction SWs as [|q v qs vs (_ & E) SW IH]; constructor; auto.
    + cbn. exact P12.
  - fold T. assert (Q1 : (dt = sqs k2 / T + sqnorm (l_grad (o_l (n_output n2))))%R) by (unfold dt; lra). assert (Q2 : (sq <= dt)%R) by (unfold sq; lra). rewrite <- Q1. nra.
Qed.

Lemma ln_step k : (ln (INR (S (S k))) <= ln (INR (S k)) + / INR (S k))%R.
Proof.
  assert (P : (0 < INR (S k))%R) by (apply lt_0_INR; lia). rewrite (S_INR (S k)).
  replace (INR (S k) + 1)%R with (INR (S k) * (1 + / INR (S k)))%R by (field; lra).
  pose proof (Rinv_0_lt_compat _ P) as P'. rewrite ln_mult by lra. apply Rplus_le_compat_l.
  replace (/ INR (S k))%R with (ln (exp (/ INR (S k)))) at 2 by apply ln_exp. apply Rcomplements.ln_le; [lra|]. apply exp_ineq1_le.
Qed.
(** A falling sequence whose falls are at least c / (k + 1) from K on loses c times the logarithm. *)
Lemma log_fall (J : nat -> R) c K n : (forall k, K <= k < K + n -> (J (S k) <= J k - c / INR (S k))%R) -> (0 <= c)%R ->
  (J (K + n)%nat + c * ln (INR (S (K + n))) <= J K + c * ln (INR (S K)))%R.
Proof.
  intros F Hc. induction n as [|n IH]; [rewrite Nat.add_0_r; lra|]. assert (IH' := IH (fun k Hk => F k ltac:(lia))). rewrite Nat.add_succ_r. pose proof (F (K + n) ltac:(lia)) as F1. pose proof (ln_step (K + n)) as L.
  assert (c * ln (INR (S (S (K + n)))) <= c * (ln (INR (S (K + n))) + / INR (S (K + n))))%R by (apply Rmult_le_compat_l; assumption). unfold Rdiv in F1. lra.
Qed.
Lemma ln_unbounded B : exists k, (B < ln (INR (S k)))%R.
Proof.
  destruct (nfloor_ex (exp B)) as (k & K1 & K2); [left; apply exp_pos|]. exists (S k). apply exp_lt_inv. rewrite exp_ln by (apply lt_0_INR; lia). rewrite !S_INR. lra.
Qed.

(** ** C103 *)
Theorem C103_converges : forall junk (n : rnet) (H : rheap) p c (x y : rmat) lam,
  1 <= p -> well_sized n H p c -> samples p c (x, y) -> built_in n y -> (n_cost n = quad_cost \/ all_in 0 1 y) ->
  (forall ls, hidden_layers n H = Ok ls -> Forall (fun l => In (l_act l) seven /\ (lam <= l_lambda l)%R) ls) ->
  (0 < lam <= l_lambda (o_l (n_output n)))%R ->
  exists eta0, (0 < eta0)%R /\
    forall eta, (0 < eta < eta0)%R ->
      exists n0 H0 u (J gh go : nat -> R), net_setlrate (D := Rdt) n H eta = Ok (n0, H0) /\ momentum_new (D := Rdt) 0%R n0 H0 = Ok u /\ objective junk n H x y = Ok (J 0) /\
        (forall k, exists u' n' H', mtrain junk u n0 H0 x y k = Ok (u', n', H') /\ objective junk n' H' x y = Ok (J k) /\
           slopes junk n' H' x y = Ok (gh k, go k) /\ small (sqrt (2 * J 0%nat / lam)) n' H' /\ (0 <= J k)%R /\
           (J (S k) <= J k - eta / 2 * (gh k / INR (S k) + go k))%R) /\
        ex_finite_lim_seq J /\ is_lim_seq go 0%R /\
        (forall K eps, (0 < eps)%R -> exists k, K <= k /\ (gh k < eps)%R) /\
        (forall K, 1 <= K -> exists k, k < K /\ (gh k <= 2 * J 0%nat / (eta * ln (INR (S K))))%R).
Proof.
  intros junk n H p c x y lam Hp Hw Hs Hb Hy HL [Hlam Hlo]. pose proof (proj1 (well_fits _ _ _ _) Hw) as ((ts & Hf) & _).
  pose proof (HL _ (hidden_layers_dense _ _ _ (proj2 (proj1 Hf)))) as HT.
  assert (HA : Forall (fun l : rlayer => In (l_act l) seven) ts) by (eapply Forall_impl; [|exact HT]; cbn; tauto).
  assert (Hls : Forall (fun l : rlayer => (lam <= l_lambda l)%R) ts) by (eapply Forall_impl; [|exact HT]; cbn; tauto). clear HT HL.
  destruct (objective_ok junk n H ts p c x y Hf Hp Hs Hb) as (J0 & EJ0). set (M := sqrt (2 * J0 / lam)).
  destruct (mstep0_near junk n H ts p c x y M Hf Hp Hs Hb HA) as (G & eta0 & HG & He & St). exists eta0. split; [assumption|].
  intros eta Heta. destruct (net_setlrate_dense n H ts (eta : Rdt) (proj1 Hf)) as [ES Hr].
  set (n0 := setrate_net n (eta : Rdt)) in *. set (H0 := put_layers (n_hidden n) (map (relr (eta : Rdt)) ts) H) in *. set (ts0 := map (relr (eta : Rdt)) ts) in *.
  pose proof (objective_setrate junk n H ts x y J0 eta (proj1 Hf) EJ0) as EJ. fold n0 H0 in EJ.
  assert (OB : forall M' m K ks J, built n ts M' m K ks -> objective junk m K x y = Ok J -> (J <= J0)%R -> (0 <= J)%R /\ built n ts M m K ks).
  { intros M' m K ks J Bm E HJ. eapply objective_bounds; eauto. }
  assert (B0 : built n ts M n0 H0 ts0).
  { destruct (built_self n H ts (proj1 Hf)) as (M' & (B1 & B2 & B3 & B4)). apply (OB M' n0 H0 _ J0); [|exact EJ|lra].
    split; [exact Hr|]. split; [exact B2|]. split; [|exact B4]. eapply lsnear_same; [|exact B3]. unfold ts0. clear. induction ts; cbn; constructor; auto. repeat split. }
  assert (EU : exists u, momentum_new (D := Rdt) 0%R n0 H0 = Ok u /\ mt_t u = trainer_new (D := Rdt) /\ mt_mom u = 0%R /\ mt_hgrads u = map (fun l : rlayer => zero_like (l_W l)) ts0 /\ mt_ograd u = zero_like (l_W (o_l (n_output n0)))).
  { destruct (C56_momentum (D := Rdt) junk p c [] (trainer_new (D := Rdt)) (0%R : Rdt) n0 H0 Hp) as (u & _ & _ & _ & EU & _); [|constructor|].
    - pose proof (built_fits n H ts p c M n0 H0 ts0 Hf B0) as Hf0. apply well_fits. split; [exists ts0; exact Hf0|]. apply well_fits in Hw as (_ & Hw2). exact Hw2.
    - exists u. split; [exact EU|]. destruct (momentum_new_shape (D := Rdt) _ _ _ _ _ (dense_net_hidden _ _ _ Hr) EU) as (U1 & U2 & ls & L & U3 & U4). pose proof (eq_trans (eq_sym L) (hidden_layers_dense _ _ _ (proj2 Hr))) as Q. injection Q as ->. auto. }
  destruct EU as (u & EU & U1 & U2 & U3 & U4).
  set (Good := fun u' n' H' (k : nat) J => no_decay (mt_t u') /\ mt_mom u' = 0%R /\ t_iters (mt_t u') = Z.of_nat k /\ exists ks, built n ts M n' H' ks /\
     Forall (fun l : rlayer => l_lrate l = eta) ks /\ l_lrate (o_l (n_output n')) = eta /\ Forall2 (vfit G) ks (mt_hgrads u') /\ vfit G (o_l (n_output n')) (mt_ograd u') /\ objective junk n' H' x y = Ok J /\ (0 <= J)%R /\ (J <= J0)%R).
  assert (St' : forall u' n' H' k J, Good u' n' H' k J -> exists gh go u2 n2 H2 J2, slopes junk n' H' x y = Ok (gh, go) /\ (0 <= gh)%R /\ (0 <= go)%R /\ momentum_feeddata (D := Rdt) junk u' n' H' x y = Ok (u2, n2, H2) /\ Good u2 n2 H2 (S k) J2 /\
      (J2 <= J - eta / 2 * (gh / INR (S k) + go))%R).
  { intros u' n' H' k J (I1 & I2 & Ik & ks & I3 & I4 & I5 & I6 & I7 & I8 & I9 & I10).
    destruct (St n' H' ks u' eta I3 I4 I5 I1 I2 ltac:(lia) I6 I7 Heta) as (J1 & gh & go & u2 & m' & K' & ks' & J' & A1 & A2 & A3 & A3' & A4 & A5 & A6 & A6' & A7 & A8 & A9 & A10 & A11 & A12 & A13).
    pose proof (eq_trans (eq_sym I8) A1) as Q. injection Q as <-. rewrite Ik in A13, A6'. replace (Z.of_nat k + 1)%Z with (Z.of_nat (S k)) in A13, A6' by lia. rewrite <- INR_IZR_INZ in A13.
    assert (0 <= gh / INR (S k))%R by (apply Rmult_le_pos; [assumption|left; apply Rinv_0_lt_compat; apply lt_0_INR; lia]). assert (0 <= eta / 2 * (gh / INR (S k) + go))%R by (apply Rmult_le_pos; lra).
    destruct (OB _ _ _ _ _ A7 A12) as [Z1 Z2]; [lra|]. exists gh, go, u2, m', K', J'. repeat (split; [assumption|]). split; [|assumption].
    split; [assumption|]. split; [assumption|]. split; [assumption|]. exists ks'. repeat (split; [assumption|]). lra. }
  assert (Inv : forall k, exists u' n' H' J, mtrain junk u n0 H0 x y k = Ok (u', n', H') /\ Good u' n' H' k J).
  { induction k as [|k (u' & n' & H' & J & I1 & I2)].
    - exists u, n0, H0, J0. split; [reflexivity|]. split; [rewrite U1; reflexivity|]. split; [assumption|]. split; [rewrite U1; reflexivity|]. exists ts0. split; [assumption|]. split; [unfold ts0; clear; induction ts; cbn; constructor; auto|]. split; [reflexivity|].
      split. { rewrite U3. clear -HG. induction ts0; cbn; constructor; auto. now apply zero_fit. } split; [rewrite U4; now apply zero_fit|]. split; [assumption|]. split; [|lra]. eapply OB; eauto. lra.
    - destruct (St' _ _ _ _ _ I2) as (gh & go & u2 & n2 & H2 & J2 & A1 & A2 & A2' & A3 & A4 & _). exists u2, n2, H2, J2. rewrite mtrain_S, I1. cbn [bind]. auto. }
  set (J := fun k => match mtrain junk u n0 H0 x y k with Ok (_, n', H') => match objective junk n' H' x y with Ok j => j | _ => 0%R end | _ => 0%R end).
  set (gh := fun k => match mtrain junk u n0 H0 x y k with Ok (_, n', H') => match slopes junk n' H' x y with Ok (g, _) => g | _ => 0%R end | _ => 0%R end).
  set (go := fun k => match mtrain junk u n0 H0 x y k with Ok (_, n', H') => match slopes junk n' H' x y with Ok (_, g) => g | _ => 0%R end | _ => 0%R end).
  assert (EJz : J 0 = J0). { unfold J. change (mtrain junk u n0 H0 x y 0) with (Ok (u, n0, H0)). cbv beta iota. change (objective junk n0 H0 x y = Ok J0) in EJ. now rewrite EJ. }
  assert (Step : forall k, exists u' n' H', mtrain junk u n0 H0 x y k = Ok (u', n', H') /\ objective junk n' H' x y = Ok (J k) /\ slopes junk n' H' x y = Ok (gh k, go k) /\ small M n' H' /\
     (0 <= J k)%R /\ (J (S k) <= J k - eta / 2 * (gh k / INR (S k) + go k))%R /\ (0 <= gh k)%R /\ (0 <= go k)%R).
  { intros k. destruct (Inv k) as (u' & n' & H' & Jk & I1 & I2). destruct (St' _ _ _ _ _ I2) as (g1 & g2 & u2 & n2 & H2 & J2 & A1 & A2 & A2' & A3 & A4 & A5).
    assert (I1' : mtrain junk u n0 H0 x y (S k) = Ok (u2, n2, H2)) by (rewrite mtrain_S, I1; exact A3).
    destruct I2 as (_ & _ & _ & ks & I3 & _ & _ & _ & _ & I8 & I9 & I10). destruct A4 as (_ & _ & _ & ks2 & _ & _ & _ & _ & _ & A8 & _).
    assert (EJk : J k = Jk) by (unfold J; now rewrite I1, I8). assert (Egk : gh k = g1) by (unfold gh; now rewrite I1, A1). assert (Egk' : go k = g2) by (unfold go; now rewrite I1, A1). assert (EJk1 : J (S k) = J2) by (unfold J; now rewrite I1', A8).
    exists u', n', H'. rewrite EJk, Egk, Egk', EJk1. split; [assumption|]. split; [assumption|]. split; [assumption|]. split; [apply (built_same n H ts n' H' M ks (proj1 Hf) I3)|]. auto. }
  assert (Bnd : forall k, (0 <= J k)%R /\ (J (S k) <= J k - eta / 2 * (gh k / INR (S k) + go k))%R /\ (0 <= gh k)%R /\ (0 <= go k)%R) by (intros k; destruct (Step k) as (? & ? & ? & ? & ? & ? & ? & B); exact B).
  assert (Hq : forall k, (0 <= gh k / INR (S k))%R) by (intros k; apply Rmult_le_pos; [apply Bnd|left; apply Rinv_0_lt_compat; apply lt_0_INR; lia]).
  assert (Dn : forall k, (J (S k) <= J k - eta / 2 * (gh k / INR (S k)))%R /\ (J (S k) <= J k - eta / 2 * go k)%R /\ (J (S k) <= J k)%R).
  { intros k. destruct (Bnd k) as (_ & B1 & _ & B2). specialize (Hq k). set (q := (gh k / INR (S k))%R) in *. clearbody q. assert (0 <= eta / 2 * q)%R by (apply Rmult_le_pos; lra). assert (0 <= eta / 2 * go k)%R by (apply Rmult_le_pos; lra). rewrite Rmult_plus_distr_l in B1. lra. }
  assert (LJ : ex_finite_lim_seq J) by (apply (ex_finite_lim_seq_decr J 0%R); intros k; [apply Dn|apply Bnd]).
  assert (Fall : forall K m b, (0 <= b)%R -> (forall k, K <= k < K + m -> (b <= gh k)%R) -> (J (K + m)%nat + eta / 2 * b * ln (INR (S (K + m))) <= J K + eta / 2 * b * ln (INR (S K)))%R).
  { intros K m b Hb0 Hg. apply log_fall; [|apply Rmult_le_pos; lra]. intros k Hk. destruct (Dn k) as (D1 & _). specialize (Hg k Hk). assert (P : (0 < / INR (S k))%R) by (apply Rinv_0_lt_compat; apply lt_0_INR; lia).
    unfold Rdiv in *. assert (eta * / 2 * b * / INR (S k) <= eta * / 2 * (gh k * / INR (S k)))%R; [|lra]. rewrite (Rmult_assoc (eta * / 2)). apply Rmult_le_compat_l; [lra|]. apply Rmult_le_compat_r; lra. }
  exists n0, H0, u, J, gh, go. split; [exact ES|]. split; [exact EU|]. split; [rewrite EJz; exact EJ0|]. split; [|split; [exact LJ|split; [|split]]].
  - intros k. destruct (Step k) as (u' & n' & H' & Z1 & Z2 & Z3 & Z4 & Z5 & Z6 & _). exists u', n', H'. rewrite EJz. repeat (split; [assumption|]). assumption.
  - destruct LJ as (l & LJ). apply (is_lim_seq_le_le (fun _ => 0%R) _ (fun k => (2 / eta) * (J k - J (S k)))%R).
    + intros k. split; [apply Bnd|]. destruct (Dn k) as (_ & Q & _). apply (Rmult_le_reg_l (eta / 2)); [lra|]. replace (eta / 2 * (2 / eta * (J k - J (S k))))%R with (J k - J (S k))%R by (field; lra). lra.
    + apply is_lim_seq_const.
    + replace (Finite 0%R) with (Rbar_mult (2 / eta)%R (l - l)%R) by (cbn; f_equal; ring). apply is_lim_seq_scal_l. apply is_lim_seq_minus'; [assumption|]. now apply is_lim_seq_incr_1 in LJ.
  - intros K eps Heps. set (cst := (eta / 2 * eps)%R). assert (Hc : (0 < cst)%R) by (unfold cst; apply Rmult_lt_0_compat; lra).
    destruct (ln_unbounded ((J K + cst * ln (INR (S K))) / cst)) as (m & Hm).
    destruct (Classical_Prop.classic (exists k, K <= k /\ (gh k < eps)%R)) as [C|C]; [exact C|]. exfalso.
      assert (Q := Fall K m eps (Rlt_le _ _ Heps)). fold cst in Q. assert (Q' : (J (K + m)%nat + cst * ln (INR (S (K + m))) <= J K + cst * ln (INR (S K)))%R).
      { apply Q. intros k Hk. destruct (Rlt_le_dec (gh k) eps); [|assumption]. exfalso. apply C. exists k. split; [lia|assumption]. }
      assert (L : (ln (INR (S m)) <= ln (INR (S (K + m))))%R) by (apply Rcomplements.ln_le; [apply lt_0_INR; lia|apply le_INR; lia]).
      apply (Rmult_lt_compat_l cst) in Hm; [|assumption]. replace (cst * ((J K + cst * ln (INR (S K))) / cst))%R with (J K + cst * ln (INR (S K)))%R in Hm by (field; lra).
      apply (Rmult_le_compat_l cst) in L; [|lra]. destruct (Bnd (K + m)) as (B & _). lra.
  - intros K HK. set (b := (2 * J 0%nat / (eta * ln (INR (S K))))%R).
    assert (Lp : (0 < ln (INR (S K)))%R). { rewrite <- ln_1. apply ln_increasing; [lra|]. apply lt_1_INR. lia. }
    destruct (Classical_Prop.classic (exists k, k < K /\ (gh k <= b)%R)) as [C|C]; [exact C|]. exfalso.
    assert (All : forall k, k < K -> (b < gh k)%R). { intros k Hk. destruct (Rle_lt_dec (gh k) b); [|assumption]. exfalso. apply C. now exists k. }
    assert (Hb0 : (0 <= b)%R). { unfold b. apply Rmult_le_pos; [destruct (Bnd 0) as (B & _); lra|]. left. apply Rinv_0_lt_compat. apply Rmult_lt_0_compat; lra. }
    (* a slightly larger bound still holds for the finitely many calls *)
    assert (Mn : exists b', (b < b')%R /\ forall k, k < K -> (b' <= gh k)%R).
    { clearbody b gh. clear -All HK. induction K as [|K IH]; [lia|]. destruct (Nat.eq_dec K 0) as [->|NE].
      - exists (gh 0%nat). split; [apply All; lia|]. intros k Hk. replace k with 0 by lia. lra.
      - destruct (IH ltac:(lia) (fun k Hk => All k ltac:(lia))) as (b' & B1 & B2). exists (Rmin b' (gh K)). split; [apply Rmin_glb_lt; [assumption|apply All; lia]|].
        intros k Hk. destruct (Nat.eq_dec k K) as [->|]; [apply Rmin_r|]. eapply Rle_trans; [apply Rmin_l|]. apply B2. lia. }
    destruct Mn as (b' & B1 & B2). pose proof (Fall 0 K b' ltac:(lra) (fun k Hk => B2 k (proj2 Hk))) as Q. cbn [Nat.add] in Q. change (INR 1) with 1%R in Q. rewrite ln_1 in Q. destruct (Bnd K) as (B3 & _).
    assert (E : (eta / 2 * b * ln (INR (S K)) = J 0%nat)%R) by (unfold b; field; split; lra).
    assert (eta / 2 * b * ln (INR (S K)) < eta / 2 * b' * ln (INR (S K)))%R; [|lra]. apply Rmult_lt_compat_r; [assumption|]. apply Rmult_lt_compat_l; lra.
Qed.

(** The hypotheses are those of C100_converges: [C100_example]. *)
Lemma C103_example : exists eta0, (0 < eta0)%R /\ forall eta, (0 < eta < eta0)%R -> exists n0 H0 u, net_setlrate (D := Rdt) cvn cvH eta = Ok (n0, H0) /\ momentum_new (D := Rdt) 0%R n0 H0 = Ok u /\
  forall k, exists s, mtrain (fun _ => 0%R) u n0 H0 exdx exdy k = Ok s.
Proof.
  destruct C100_example as (E1 & E2 & E3 & E4 & E5 & E6 & _). destruct (C103_converges (fun _ => 0%R) cvn cvH 1 1 exdx exdy (/ 2)%R (le_n 1) E1 E2 E3 (or_intror E4) E5 E6) as (eta0 & P0 & P).
  exists eta0. split; [assumption|]. intros eta He. destruct (P eta He) as (n0 & H0 & u & J & gh & go & A1 & A2 & _ & A3 & _). exists n0, H0, u. split; [assumption|]. split; [assumption|].
  intros k. destruct (A3 k) as (u' & n' & H' & A4 & _). eexists. exact A4.
Qed.

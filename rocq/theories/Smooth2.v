(** Smooth2.v - lemmas for C100: one step from bounded weights decreases the objective by eta/2 times the squared gradient. *)
From Coq Require Import Reals Lra Psatz.
From Coquelicot Require Import Coquelicot.
From Verif Require Import Base Mat Act Layer Conv Misc Net NetP RInst RMat P_Act Grad P_Grad Trainer TrainP TrainP2 P_Train FunEq P_Mom P_Descent P_Linear Smooth.
From Coq Require Import Arith.
Local Open Scope nat_scope.

(** A network built like (n, ts) with weights bounded by M. *)
Definition built (n : rnet) (ts : list rlayer) (M : R) (m : rnet) (K : rheap) (ks : list rlayer) : Prop :=
  dense_net m K ks /\ kc n m /\ lsnear M 0 ts ks ks /\ lnear M 0 (o_l (n_output n)) (o_l (n_output m)) (o_l (n_output m)).

Lemma lsnear_fits M e : forall ts ks ks' p q, lsnear M e ts ks ks' -> fits p ts q -> fits p ks q.
Proof.
  induction ts as [|t ts IH]; intros [|k ks] [|k' ks'] p q Hn Hf; cbn in *; try contradiction; auto. destruct Hn as [(_ & _ & ((W1 & W2) & _)) Hn]. destruct Hf as (F1 & F2 & F3).
  split; [assumption|]. split; [congruence|]. rewrite W2. eapply IH; eauto.
Qed.
Lemma built_fits n H ts p c M m K ks : fits_net n H ts p c -> built n ts M m K ks -> fits_net m K ks p c.
Proof.
  intros (_ & q & F1 & F2 & F3 & F4 & F5) (B1 & [B2 B3] & B4 & (_ & _ & ((W1 & W2) & _))). split; [assumption|]. exists q. split; [eapply lsnear_fits; eauto|].
  split; [assumption|]. split; [congruence|]. split; [congruence|]. now rewrite B3.
Qed.

Lemma pass_near junk n H ts p c x y M : fits_net n H ts p c -> 1 <= p -> samples p c (x, y) ->
  o_costd (n_output n) = quad_costd \/ o_costd (n_output n) = ce_costd \/ o_costd (n_output n) = sm_costd ->
  Forall (fun t : rlayer => lip_act (l_act t)) ts -> lip_act (l_act (o_l (n_output n))) ->
  exists G Lg, (0 <= G)%R /\ (0 <= Lg)%R /\
    forall e m K ks m' K' ks' a n1 H1 n2 H2 k2 a' n1' H1' n2' H2' k2', (0 <= e)%R ->
      built n ts M m K ks -> built n ts M m' K' ks' -> lsnear M e ts ks ks' -> lnear M e (o_l (n_output n)) (o_l (n_output m)) (o_l (n_output m')) ->
      net_forward (D := Rdt) junk m K x = Ok (a, n1, H1) -> net_backprop (D := Rdt) junk n1 H1 y = Ok (n2, H2) -> dense_net n2 H2 k2 ->
      net_forward (D := Rdt) junk m' K' x = Ok (a', n1', H1') -> net_backprop (D := Rdt) junk n1' H1' y = Ok (n2', H2') -> dense_net n2' H2' k2' ->
      gsnear G Lg e k2 k2' /\
      mnear (nr (l_W (o_l (n_output n)))) (nc (l_W (o_l (n_output n)))) G Lg e (l_grad (o_l (n_output n2))) (l_grad (o_l (n_output n2'))).
Proof.
  intros (Hd & q & F1 & F2 & F3 & F4 & F5) Hp (S1 & S2 & S3 & S4) Hcd HA HAo. cbn in S1, S2, S3, S4. set (ol := o_l (n_output n)) in *.
  destruct (mat_bound x) as (Xb & HXb).
  destruct (chain_near M ts p q F1 HA (nr x) Xb 0%R) as (Bo & Lo & C1 & C2).
  destruct (forward_near M Bo Lo (nr x) ol HAo) as (Ba & La & Bz & Lz & C3).
  destruct (delta_near (o_costd (n_output n)) y Ba La Hcd) as (Bd & Ld & C4).
  destruct (down_near M Bd Ld (nr x) ol) as (Bw & Lw & C5).
  destruct (grad_near M Bo Lo Bd Ld (nr x) ol) as (Bg & Lgo & C6).
  destruct (C2 Bw Lw) as (G & Lg & Bx & Lx & C7).
  exists (Rmax 0 (Rmax G Bg)), (Rmax 0 (Rmax Lg Lgo)). split; [apply Rmax_l|]. split; [apply Rmax_l|].
  intros e m K ks m' K' ks' a n1 H1 n2 H2 k2 a' n1' H1' n2' H2' k2' He (B1 & [_ B2] & B3 & B4) (B1' & [_ B2'] & B3' & B4') Hn Hno HF HB Hk HF' HB' Hk'.
  destruct (pass_dense (D := Rdt) junk m K ks x y a n1 H1 n2 H2 B1 HF HB) as (b & ls1 & delta & ls2 & dx & P1 & P2 & P3 & P4 & P5 & P6 & P7 & P8 & P9 & P10 & P11 & P12 & P13).
  destruct (pass_dense (D := Rdt) junk m' K' ks' x y a' n1' H1' n2' H2' B1' HF' HB') as (b' & ls1' & delta' & ls2' & dx' & P1' & P2' & P3' & P4' & P5' & P6' & P7' & P8' & P9' & P10' & P11' & P12' & P13').
  assert (E : ls2 = k2).
  { pose proof (eq_trans (eq_sym (hidden_layers_dense n2 H2 ls2 (proj2 P9))) (hidden_layers_dense n2 H2 k2 (proj2 Hk))) as Q. now injection Q. }
  assert (E' : ls2' = k2').
  { pose proof (eq_trans (eq_sym (hidden_layers_dense n2' H2' ls2' (proj2 P9'))) (hidden_layers_dense n2' H2' k2' (proj2 Hk'))) as Q. now injection Q. }
  subst ls2 ls2'.
  assert (Hx : mnear (nr x) p Xb 0 e x x).
  { split; [auto|]. split; [auto|]. intros i j Hi Hj. apply near_const. apply HXb; congruence. }
  assert (Hb : mnear (nr x) q Bo Lo e b b') by (eapply C1; eauto).
  assert (Hb' : mnear (nr x) (nr (l_W ol) - 1) Bo Lo e b b') by (replace (nr (l_W ol) - 1) with q by lia; assumption).
  destruct (C3 e (o_l (n_output m)) (o_l (n_output m')) b b' He Hno Hb') as [Ha _]; [lia|]. rewrite <- P3, <- P3' in Ha.
  assert (Hdl : mnear (nr x) (nc (l_W ol)) Bd Ld e delta delta').
  { rewrite F4, <- S3, <- S4 in Ha |- *. eapply (C4 e a a'); [assumption|exact Ha| | | |]; [rewrite <- B2; exact P4|rewrite <- B2'; exact P4'|rewrite P3; apply wf_mk|rewrite P3'; apply wf_mk]. }
  assert (Hdw := C5 e (o_l (n_output m)) (o_l (n_output m')) delta delta' He Hno Hdl).
  replace (nr (l_W ol) - 1) with q in Hdw by lia.
  destruct (C7 e ks ks' x x b b' ls1 ls1' _ _ dx dx' k2 k2' He Hn Hx P1 P1' Hdw P7 P7') as [R1 _].
  pose proof (C6 e (o_l (n_output m)) (o_l (n_output m')) b b' delta delta' He ltac:(lia) Hno Hb' Hdl) as R2.
  pose proof (Rmax_l G Bg). pose proof (Rmax_r G Bg). pose proof (Rmax_l Lg Lgo). pose proof (Rmax_r Lg Lgo).
  pose proof (Rmax_r 0 (Rmax G Bg)). pose proof (Rmax_r 0 (Rmax Lg Lgo)). split.
  - eapply gsnear_mono; [| | |exact R1]; lra.
  - rewrite P10, P10'. eapply mnear_mono; [| | |exact R2]; lra.
Qed.

(** ** The objective along a line of weights *)
Definition movedN (m : rnet) (Do : rmat) (xi : R) : rnet := net_setoutputw m (line xi (l_W (o_l (n_output m))) Do).
Definition movedH (m : rnet) (K : rheap) (ks : list rlayer) (Ds : list rmat) (xi : R) : rheap := put_layers (n_hidden m) (lines xi ks Ds) K.

Lemma moved_dense m K ks Ds Do xi : dense_net m K ks -> length Ds = length ks -> dense_net (movedN m Do xi) (movedH m K ks Ds xi) (lines xi ks Ds).
Proof. intros Hd HL. split; [apply Hd|]. cbn. eapply dense_put; [exact Hd|]. unfold lines. rewrite map_length, combine_length. lia. Qed.
Lemma fits_lines xi : forall ks Ds p q, length Ds = length ks -> fits p ks q -> fits p (lines xi ks Ds) q.
Proof. induction ks as [|k ks IH]; intros [|d Ds] p q HL Hf; try discriminate; cbn in *; [assumption|]. destruct Hf as (F1 & F2 & F3). split; [assumption|]. split; [assumption|]. apply IH; [lia|assumption]. Qed.
Lemma moved_fits m K ks p c Ds Do xi : fits_net m K ks p c -> length Ds = length ks -> fits_net (movedN m Do xi) (movedH m K ks Ds xi) (lines xi ks Ds) p c.
Proof. intros (Hd & q & F1 & F2 & F3 & F4 & F5) HL. split; [now apply moved_dense|]. exists q. cbn. auto using fits_lines. Qed.

Lemma line_line t xi (W Dm : rmat) : line t (line xi W Dm) Dm = line (xi + t) W Dm.
Proof. unfold line at 1 3. cbn [line nr nc mk]. apply (mk_ext (nr W) (nc W)). intros i j Hi Hj. unfold line. rewrite at_mk by assumption. toR. ring. Qed.
Lemma lines_lines t xi : forall ks Ds, map (fun lD => line t (l_W (fst lD)) (snd lD)) (combine (lines xi ks Ds) Ds) = map (fun l : rlayer => l_W l) (lines (xi + t) ks Ds).
Proof. induction ks as [|k ks IH]; intros [|d Ds]; try reflexivity. unfold lines in *. cbn [combine map fst snd set_W l_W]. rewrite line_line. f_equal. apply IH. Qed.

Lemma objective_key junk (n : rnet) (H : rheap) ls x y Ws Wo cv : dense_net n H ls -> length Ws = length ls -> cost_at junk n H x y Ws Wo = Ok cv ->
  forall m K ks, dense_net m K ks -> map (fun l : rlayer => l_W l) ks = Ws -> l_W (o_l (n_output m)) = Wo ->
    Forall2 (fun l l' : rlayer => l_act l' = l_act l /\ l_lambda l' = l_lambda l) ls ks ->
    l_act (o_l (n_output m)) = l_act (o_l (n_output n)) -> l_lambda (o_l (n_output m)) = l_lambda (o_l (n_output n)) -> n_cost m = n_cost n ->
    objective junk m K x y = Ok (cv + penalty ls Ws + l_lambda (o_l (n_output n)) / 2 * sqnorm Wo)%R.
Proof.
  intros Hdn HWl CA m K ks Hm EW EWo EA EAo EL EC. unfold cost_at in CA.
  rewrite (set_hidden_dense n H ls) in CA by assumption. cbn [bind] in CA.
  set (kk := map (fun lw => set_W (fst lw) (snd lw)) (combine ls Ws)) in CA.
  assert (Hk : dense_net (net_setoutputw n Wo) (put_layers (n_hidden n) kk H) kk).
  { split; [apply Hdn|]. cbn. eapply dense_put; [exact Hdn|]. unfold kk. rewrite map_length, combine_length. lia. }
  apply bind_ok in CA as ([[a' m1] K1] & FA & CA).
  assert (SW : same_weights (net_setoutputw n Wo) (put_layers (n_hidden n) kk H) m K).
  { exists kk, ks. split; [apply hidden_layers_dense, Hk|]. split; [apply hidden_layers_dense, Hm|]. split.
    - unfold kk. clear -EA EW HWl. revert Ws HWl EW. induction EA as [|l l' us vs [E1 E2] EA IH]; intros [|w ws] HWl EW; try discriminate; [constructor|].
      cbn in EW. injection EW as EW1 EW2. cbn [combine map fst snd]. constructor; [split; cbn; auto|]. apply IH; auto.
    - split; cbn; auto. }
  destruct (same_forward (D := Rdt) junk _ _ m K x a' m1 K1 (dense_net_hidden _ _ _ Hk) (dense_net_hidden _ _ _ Hm) SW FA) as (m1' & K1' & FB & _ & _ & _ & _ & R1 & R2 & [KC1 _] & [KC2 _] & _).
  unfold objective. rewrite FB. cbn [bind]. unfold net_computecost in CA |- *. rewrite KC1 in CA. rewrite KC2, EC. cbn in CA. match type of CA with ?x = _ => match goal with |- (c <- ?y ;; _) = _ => change y with x end end. rewrite CA. cbn [bind].
  rewrite (hidden_layers_dense m K ks (proj2 Hm)). cbn [bind]. rewrite EWo, EL. do 2 f_equal. f_equal. unfold penalty.
  clear -EA EW HWl. revert Ws HWl EW. induction EA as [|l l' us vs [E1 E2] EA IH]; intros [|w ws] HWl EW; try discriminate; [reflexivity|].
  cbn in EW. injection EW as EW1 EW2. cbn [combine map fst snd]. unfold sumL in *. cbn [fold_right]. rewrite (IH ws) by (auto; simpl in HWl; lia). now rewrite E2, EW1.
Qed.

Lemma lines_conf a b : forall ks Ds, Forall2 (fun l l' : rlayer => l_act l' = l_act l /\ l_lambda l' = l_lambda l) (lines a ks Ds) (lines b ks Ds).
Proof. induction ks as [|k ks IH]; intros [|d Ds]; cbn; constructor; [cbn; auto|apply IH]. Qed.

Section Along.
Context (junk : nat -> R) (m : rnet) (K : rheap) (ks : list rlayer) (p c : nat) (x y : rmat) (Ds : list rmat) (Do : rmat).
Context (Hf : fits_net m K ks p c) (Hp : 1 <= p) (Hs : samples p c (x, y)) (Hb : built_in m y) (HA : Forall (fun l => smooth_act (l_act l)) ks) (HD : length Ds = length ks).
Definition phi (xi : R) : R := match objective junk (movedN m Do xi) (movedH m K ks Ds xi) x y with Ok v => v | _ => 0%R end.

Lemma along xi :
  (forall m' K' ks', dense_net m' K' ks' -> map (fun l : rlayer => l_W l) ks' = map (fun l : rlayer => l_W l) (lines xi ks Ds) ->
     l_W (o_l (n_output m')) = line xi (l_W (o_l (n_output m))) Do ->
     Forall2 (fun l l' : rlayer => l_act l' = l_act l /\ l_lambda l' = l_lambda l) (lines xi ks Ds) ks' ->
     l_act (o_l (n_output m')) = l_act (o_l (n_output m)) -> l_lambda (o_l (n_output m')) = l_lambda (o_l (n_output m)) -> n_cost m' = n_cost m ->
     objective junk m' K' x y = Ok (phi xi)) /\
  exists a n1 H1 n2 H2 k2, net_forward (D := Rdt) junk (movedN m Do xi) (movedH m K ks Ds xi) x = Ok (a, n1, H1) /\ net_backprop (D := Rdt) junk n1 H1 y = Ok (n2, H2) /\
    dense_net n2 H2 k2 /\
    is_derive phi xi (sumL (map (fun lD => fulldir (fst lD) (snd lD)) (combine k2 Ds)) + fulldir (o_l (n_output n2)) Do)%R.
Proof using All.
  pose proof (moved_fits m K ks p c Ds Do xi Hf HD) as Hm. destruct Hs as (S1 & S2 & S3 & S4). cbn in S1, S2, S3, S4.
  destruct (forward_backward_ok (D := Rdt) junk _ _ _ p c x y Hm Hp S1 S2 S3 S4) as (a & n1 & H1 & n2 & H2 & k2 & A1 & A2 & A3 & A4 & A5 & A6 & A7).
  destruct (pass_dense (D := Rdt) junk _ _ _ x y a n1 H1 n2 H2 (proj1 Hm) A1 A4) as (b & ls1 & delta & ls2' & dx & P1 & P2 & P3 & P4 & P5 & P6 & P7 & P8 & P9 & _).
  assert (El : length (lines xi ks Ds) = length ks) by (unfold lines; rewrite map_length, combine_length; lia).
  destruct (C29_regularised junk (movedN m Do xi) (movedH m K ks Ds xi) x y a n1 H1 n2 H2 (lines xi ks Ds) ls1 k2 Ds Do) as (C & C1 & C2); auto.
  { eapply dense_net_hidden, Hm. }
  { apply hidden_layers_dense, Hm. }
  { apply hidden_layers_dense, P8. }
  { apply hidden_layers_dense, A5. }
  { eapply smooth_layers; [|exact P1]. clear -HA HD. revert Ds HD. induction HA as [|k ks Hk Hks IH]; intros [|d Ds] HD; try discriminate; cbn; constructor; [exact Hk|]. apply (IH Hks Ds). simpl in HD. lia. }
  { lia. }
  cbn zeta in C1, C2.
  set (J := fun t : R => (C t + penalty (lines xi ks Ds) (map (fun lD => line t (l_W (fst lD)) (snd lD)) (combine (lines xi ks Ds) Ds)) +
     l_lambda (o_l (n_output (movedN m Do xi))) / 2 * sqnorm (line t (l_W (o_l (n_output (movedN m Do xi)))) Do))%R) in *.
  assert (Key : forall t m' K' ks', dense_net m' K' ks' -> map (fun l : rlayer => l_W l) ks' = map (fun l : rlayer => l_W l) (lines (xi + t) ks Ds) ->
     l_W (o_l (n_output m')) = line (xi + t) (l_W (o_l (n_output m))) Do ->
     Forall2 (fun l l' : rlayer => l_act l' = l_act l /\ l_lambda l' = l_lambda l) (lines xi ks Ds) ks' ->
     l_act (o_l (n_output m')) = l_act (o_l (n_output m)) -> l_lambda (o_l (n_output m')) = l_lambda (o_l (n_output m)) -> n_cost m' = n_cost m ->
     objective junk m' K' x y = Ok (J t)).
  { intros t m' K' ks' Z1 Z2 Z3 Z4 Z5 Z6 Z7. apply (objective_key junk (movedN m Do xi) (movedH m K ks Ds xi) (lines xi ks Ds) x y _ _ (C t) (proj1 Hm)) with (ks := ks'); auto.
    - rewrite map_length, combine_length. lia.
    - rewrite Z2. symmetry. apply lines_lines.
    - rewrite Z3. cbn. symmetry. apply line_line. }
  assert (Ephi : forall t, phi (xi + t) = J t).
  { intros t. unfold phi. rewrite (Key t _ _ (lines (xi + t) ks Ds)); auto using lines_conf. apply moved_dense; [apply Hf|assumption]. }
  split.
  { pose proof (Key 0%R) as K0. rewrite <- (Ephi 0%R), Rplus_0_r in K0. exact K0. }
  exists a, n1, H1, n2, H2, k2. split; [assumption|]. split; [assumption|]. split; [apply A5|].
  apply (is_derive_ext (fun s => J (s - xi)%R)). { intros s. rewrite <- Ephi. f_equal. ring. }
  evar_last. { apply (is_derive_comp (V := R_NormedModule) J (fun s => s - xi)%R); [rewrite Rminus_diag_eq by reflexivity; exact C2|]. auto_derive; [exact I|reflexivity]. }
  unfold scal. cbn. unfold mult. cbn. ring.
Qed.
(** The network itself is the start of the line. *)
Lemma along_start : objective junk m K x y = Ok (phi 0%R).
Proof using All.
  destruct (along 0%R) as [Key _]. destruct Hs as (S1 & S2 & S3 & S4). cbn in S1, S2, S3, S4.
  destruct (forward_backward_ok (D := Rdt) junk _ _ _ p c x y Hf Hp S1 S2 S3 S4) as (a & n1 & H1 & n2 & H2 & k2 & A1 & A2 & A3 & A4 & A5 & A6 & A7).
  destruct (pass_dense (D := Rdt) junk _ _ _ x y a n1 H1 n2 H2 (proj1 Hf) A1 A4) as (b & ls1 & delta & ls2' & dx & P1 & P2 & P3 & P4 & P5 & P6 & P7 & P8 & P9 & P10 & P11 & P12 & P13).
  assert (HS : Forall smooth_at ls1) by (eapply smooth_layers; eauto).
  destruct (C29_gradient junk m K x y a n1 H1 n2 H2 ks ls1 k2 Ds Do) as (C & C1 & C0 & _); auto; try (apply hidden_layers_dense; first [apply Hf|apply P8|apply A5]).
  { eapply dense_net_hidden, Hf. }
  assert (Line0 : forall W Dm : rmat, sqnorm (line 0 W Dm) = sqnorm W).
  { intros W Dm. unfold sqnorm, inner. cbn [line nr nc mk]. apply sumN_ext. intros i Hi. apply sumN_ext. intros j Hj. unfold line. rewrite at_mk by assumption. cbn. ring. }
  assert (E0 : objective junk (movedN m Do 0) (movedH m K ks Ds 0) x y = Ok (phi 0%R)).
  { apply (Key _ _ (lines 0 ks Ds)); auto using lines_conf. apply moved_dense; [apply Hf|assumption]. }
  assert (HL0 : length (map (fun lD : rlayer * rmat => line 0 (l_W (fst lD)) (snd lD)) (combine ks Ds)) = length ks) by (rewrite map_length, combine_length; lia).
  rewrite (objective_key junk m K ks x y _ _ (C 0%R) (proj1 Hf) HL0 (C1 0%R) _ _ (lines 0 ks Ds)) in E0.
  all: try reflexivity.
  - rewrite <- E0. unfold objective. rewrite A1. cbn [bind]. unfold net_computecost in C0 |- *. rewrite P13, C0. cbn [bind].
    rewrite (hidden_layers_dense m K ks (proj2 (proj1 Hf))). cbn [bind]. rewrite Line0. do 2 f_equal. f_equal. unfold penalty.
    clear -HD Line0. revert Ds HD. induction ks as [|k ks' IH]; intros [|d Ds] HD; try discriminate; [reflexivity|].
    cbn [combine map fst snd]. unfold sumL in *. cbn [fold_right]. rewrite Line0. f_equal. apply IH. simpl in HD. lia.
  - apply moved_dense; [apply Hf|assumption].
  - unfold lines. rewrite map_map. reflexivity.
  - clear -HD. revert Ds HD. induction ks as [|k ks' IH]; intros [|d Ds] HD; try discriminate; [constructor|]. cbn. constructor; [cbn; auto|]. apply IH. simpl in HD. lia.
Qed.
End Along.

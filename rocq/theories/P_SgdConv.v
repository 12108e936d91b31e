(** P_SgdConv.v - C102: SGDTrainer and mini-batch training of a deep regularised network with a small enough rate reach any wanted gradient. *)
From Coq Require Import Reals Lra Psatz.
From Coquelicot Require Import Coquelicot.
From Verif Require Import Base Mat Act Layer Conv Misc Net NetP RInst RMat P_Act Grad P_Grad Trainer TrainP TrainP2 P_Train FunEq P_Mom P_Descent P_Linear Smooth Smooth2 P_Cost P_Smooth P_Converge P_MomConv P_Batch P_Sgd P_Mean.
From Coq Require Import Arith Permutation.
Local Open Scope nat_scope.

(** ** One step on one batch, seen from the objective of the whole data *)
Definition passed (junk : nat -> R) (m : rnet) (K : rheap) (x y : rmat) (n2 : rnet) (H2 : rheap) (k2 : list rlayer) : Prop :=
  exists a n1 H1, net_forward (D := Rdt) junk m K x = Ok (a, n1, H1) /\ net_backprop (D := Rdt) junk n1 H1 y = Ok (n2, H2) /\ dense_net n2 H2 k2.
Definition near_pass (junk : nat -> R) (n : rnet) (ts : list rlayer) (M : R) (x y : rmat) (G Lg : R) : Prop :=
  forall e m K ks m' K' ks' n2 H2 k2 n2' H2' k2', (0 <= e)%R -> built n ts M m K ks -> built n ts M m' K' ks' -> lsnear M e ts ks ks' -> lnear M e (o_l (n_output n)) (o_l (n_output m)) (o_l (n_output m')) ->
    passed junk m K x y n2 H2 k2 -> passed junk m' K' x y n2' H2' k2' ->
    gsnear G Lg e k2 k2' /\ mnear (nr (l_W (o_l (n_output n)))) (nc (l_W (o_l (n_output n)))) G Lg e (l_grad (o_l (n_output n2))) (l_grad (o_l (n_output n2'))).
Definition pf (l l2 : rlayer) : Prop := regularised l l2 /\ l_W l2 = l_W l /\ l_lambda l2 = l_lambda l /\ l_lrate l2 = l_lrate l /\ l_act l2 = l_act l.
Lemma passed_ok junk (m : rnet) K ks p c x y : fits_net m K ks p c -> 1 <= p -> samples p c (x, y) ->
  exists n2 H2 k2, passed junk m K x y n2 H2 k2 /\ Forall gsized k2 /\ gsized (o_l (n_output n2)).
Proof.
  intros Hf Hp (S1 & S2 & S3 & S4). cbn in S1, S2, S3, S4.
  destruct (forward_backward_ok (D := Rdt) junk _ _ _ p c x y Hf Hp S1 S2 S3 S4) as (a & n1 & H1 & n2 & H2 & k2 & A1 & A2 & A3 & A4 & A5 & A6 & A7).
  exists n2, H2, k2. split; [|auto]. exists a, n1, H1. split; [assumption|]. split; [assumption|apply A5].
Qed.
Lemma passed_shape junk (m : rnet) K ks x y n2 H2 k2 : dense_net m K ks -> passed junk m K x y n2 H2 k2 ->
  Forall2 pf ks k2 /\ l_W (o_l (n_output n2)) = l_W (o_l (n_output m)) /\ l_act (o_l (n_output n2)) = l_act (o_l (n_output m)) /\ l_lambda (o_l (n_output n2)) = l_lambda (o_l (n_output m)) /\
  l_lrate (o_l (n_output n2)) = l_lrate (o_l (n_output m)) /\ n_cost n2 = n_cost m /\ o_costd (n_output n2) = o_costd (n_output m).
Proof.
  intros Hd (a & n1 & H1 & A1 & A2 & A3).
  destruct (pass_dense (D := Rdt) junk _ _ _ x y a n1 H1 n2 H2 Hd A1 A2) as (b & ls1 & delta & ls2' & dx & P1 & P2 & P3 & P4 & P5 & P6 & P7 & P8 & P9 & P10 & P11 & P12 & P13).
  assert (E2 : ls2' = k2). { pose proof (eq_trans (eq_sym (hidden_layers_dense _ _ _ (proj2 P9))) (hidden_layers_dense _ _ _ (proj2 A3))) as Q. now injection Q. }
  subst ls2'. split; [exact (passes_form (D := Rdt) _ _ _ _ P1 _ _ _ P7)|]. rewrite P10. cbn. repeat (split; [reflexivity|]). split; [exact P12|].
  apply backprop_kc in A2 as [[_ q3] _]. apply forward_kc in A1 as [[_ q4] _]. congruence.
Qed.
Lemma near_pass_mono junk n ts M x y G Lg G' Lg' : (G <= G')%R -> (Lg <= Lg')%R -> near_pass junk n ts M x y G Lg -> near_pass junk n ts M x y G' Lg'.
Proof.
  intros HG HL P e m K ks m' K' ks' n2 H2 k2 n2' H2' k2' He B1 B2 N1 N2 Q1 Q2. destruct (P e m K ks m' K' ks' n2 H2 k2 n2' H2' k2' He B1 B2 N1 N2 Q1 Q2) as [R1 R2].
  split; [eapply gsnear_mono; eauto|eapply mnear_mono; eauto].
Qed.
Lemma near_pass_all junk n H ts p c M : fits_net n H ts p c -> 1 <= p ->
  o_costd (n_output n) = quad_costd \/ o_costd (n_output n) = ce_costd \/ o_costd (n_output n) = sm_costd ->
  Forall (fun t : rlayer => lip_act (l_act t)) ts -> lip_act (l_act (o_l (n_output n))) ->
  forall ds, Forall (samples p c) ds -> exists G Lg, (0 <= G)%R /\ (0 <= Lg)%R /\ Forall (fun d => near_pass junk n ts M (fst d) (snd d) G Lg) ds.
Proof.
  intros Hf Hp Hcd HA HAo. induction ds as [|[x y] ds IH]; intros HS; [exists 0%R, 0%R; repeat split; try lra; constructor|]. inversion HS as [|? ? S1 S2]; subst.
  destruct (IH S2) as (G & Lg & HG & HL & HF). destruct (pass_near junk n H ts p c x y M Hf Hp S1 Hcd HA HAo) as (G' & Lg' & HG' & HL' & Pn).
  exists (Rmax G G'), (Rmax Lg Lg'). split; [eapply Rle_trans; [exact HG|apply Rmax_l]|]. split; [eapply Rle_trans; [exact HL|apply Rmax_l]|]. constructor.
  - cbn [fst snd]. apply (near_pass_mono junk n ts M x y G' Lg'); [apply Rmax_r|apply Rmax_r|]. intros e m K ks m' K' ks' n2 H2 k2 n2' H2' k2' He B1 B2 N1 N2 (a & n1 & H1 & Q1 & Q2 & Q3) (a' & n1' & H1' & Q1' & Q2' & Q3').
    apply (Pn e m K ks m' K' ks' a n1 H1 n2 H2 k2 a' n1' H1' n2' H2' k2'); assumption.
  - eapply Forall_impl; [|exact HF]. intros d Hd. eapply near_pass_mono; [| |exact Hd]; apply Rmax_l.
Qed.

Definition dots2 (k2 kd : list rlayer) : R := sumL (map (fun lv => inner (l_grad (fst lv)) (l_grad (snd lv))) (combine k2 kd)).
Lemma layer_dir2 r c G Lg e (l' : rlayer) (g0 gr v : rmat) : (0 <= e)%R -> (0 <= G)%R -> (0 <= Lg)%R -> mnear r c G Lg e g0 (l_grad l') -> mnear r c G Lg e gr v ->
  nr (l_W l') = r -> nc (l_W l') = c -> (fulldir l' (oppm v) <= - inner g0 gr + INR r * INR c * (2 * (Lg * e * G)))%R.
Proof.
  intros He HG HL ((G1 & G2) & _ & Hn) (_ & (V1 & V2) & Hv) E1 E2. unfold fulldir, inner. rewrite E1, E2, G1, G2.
  eapply Rle_trans; [|apply Rplus_le_compat_l; apply (sum2_bound r c (fun i j => (at_ g0 i j - at_ (l_grad l') i j) * at_ v i j + at_ g0 i j * (at_ gr i j - at_ v i j))%R)].
  - right. rewrite <- sumN_opp, <- sumN_plus. apply sumN_ext. intros i Hi. rewrite <- sumN_opp, <- sumN_plus. apply sumN_ext. intros j Hj.
    unfold oppm. rewrite at_mk by congruence. cbn. ring.
  - intros i j Hi Hj. eapply Rle_trans; [apply Rle_abs|]. eapply Rle_trans; [apply Rabs_triang|]. rewrite !Rabs_mult. destruct (Hn i j Hi Hj) as (N1 & _ & N3). destruct (Hv i j Hi Hj) as (_ & V3 & V4).
    assert (Rabs (at_ g0 i j - at_ (l_grad l') i j) * Rabs (at_ v i j) <= Lg * e * G)%R by (apply Rmult_le_compat; auto using Rabs_pos).
    assert (Rabs (at_ g0 i j) * Rabs (at_ gr i j - at_ v i j) <= G * (Lg * e))%R by (apply Rmult_le_compat; auto using Rabs_pos). lra.
Qed.
Definition dims (l l' : rlayer) : Prop := nr (l_W l') = nr (l_W l) /\ nc (l_W l') = nc (l_W l).
Lemma layers_dir2 G Lg e : (0 <= e)%R -> (0 <= G)%R -> (0 <= Lg)%R -> forall k2 k2', gsnear G Lg e k2 k2' -> forall kd kv, gsnear G Lg e kd kv ->
  Forall2 dims k2 k2' -> Forall2 dims k2 kd ->
  (sumL (map (fun lD => fulldir (fst lD) (snd lD)) (combine k2' (map (fun l : rlayer => oppm (l_grad l)) kv))) <= - dots2 k2 kd + Nw k2 * (2 * (Lg * e * G)))%R.
Proof.
  intros He HG HL k2 k2' Hg. induction Hg as [|l l' k k' Hl Hk IH]; intros kd kv Hv Hd Hd2; inversion Hd2 as [|? d ? ds [D1 D2] Hd2']; subst.
  - inversion Hv; subst. unfold dots2, Nw, sumL. cbn. lra.
  - inversion Hd as [|u w us ws [D3 D4] Hd']; subst. inversion Hv as [|? v ? vs V1 V2]; subst. specialize (IH _ _ V2 Hd' Hd2'). rewrite D1, D2 in V1.
    pose proof (layer_dir2 _ _ G Lg e l' (l_grad l) (l_grad d) (l_grad v) He HG HL Hl V1 D3 D4) as Q.
    unfold dots2, Nw, sumL in *. cbn [map combine fold_right fst snd]. lra.
Qed.
(** A step of length xi on top of a distance e. *)
Lemma shift_near M G e xi t k0 k (v : rmat) : (0 <= xi)%R -> (0 <= e)%R -> (0 <= G)%R -> (e + xi * G <= 1)%R -> lnear M 0 t k0 k0 -> lnear (M + 1) e t k0 k ->
  nr v = nr (l_W t) -> nc v = nc (l_W t) -> (forall i j, i < nr (l_W t) -> j < nc (l_W t) -> (Rabs (at_ v i j) <= G)%R) ->
  lnear (M + 1) (e + xi * G) t k0 (set_W k (line xi (l_W k) (oppm v))).
Proof.
  intros Hx He HG H1 (_ & _ & (_ & _ & B)) (A & A' & ((C1 & C1') & (C2 & C2') & C)) D1 D2 D3. split; [assumption|]. split; [assumption|]. split; [auto|]. split; [split; cbn; assumption|].
  intros i j Hi Hj. cbn [set_W l_W]. unfold line. rewrite at_mk by congruence. unfold oppm. rewrite at_mk by congruence.
  specialize (D3 i j Hi Hj). destruct (C i j Hi Hj) as (N3 & _ & N4). destruct (B i j Hi Hj) as (N5 & _).
  change (near (M + 1) 1 (e + xi * G) (at_ (l_W k0) i j) (at_ (l_W k) i j + xi * - at_ v i j)%R). 
  assert (X : (Rabs (at_ (l_W k0) i j - (at_ (l_W k) i j + xi * - at_ v i j)) <= e + xi * G)%R).
  { replace (at_ (l_W k0) i j - (at_ (l_W k) i j + xi * - at_ v i j))%R with ((at_ (l_W k0) i j - at_ (l_W k) i j) + xi * at_ v i j)%R by ring.
    eapply Rle_trans; [apply Rabs_triang|]. rewrite Rabs_mult, (Rabs_pos_eq xi) by assumption. assert (xi * Rabs (at_ v i j) <= xi * G)%R by (apply Rmult_le_compat_l; assumption). lra. }
  split; [lra|]. split; [|lra].
  set (w := (at_ (l_W k) i j + xi * - at_ v i j)%R) in *. set (w0 := at_ (l_W k0) i j) in *. replace w with (w0 + - (w0 - w))%R by ring. eapply Rle_trans; [apply Rabs_triang|]. rewrite Rabs_Ropp. lra.
Qed.
Lemma lnear_sameR M e t k0 l l' : sameWAL l l' -> lnear M e t k0 l -> lnear M e t k0 l'.
Proof. intros (E1 & E2 & E3) (A & B & C). unfold lnear. now rewrite E1, E2, E3. Qed.
Lemma lsnear_sameR M e : forall ts k0 ks ks', Forall2 sameWAL ks ks' -> lsnear M e ts k0 ks -> lsnear M e ts k0 ks'.
Proof. induction ts as [|t ts IH]; intros [|a k0] ks ks' HS Hn; inversion HS; subst; cbn in *; auto; try contradiction. destruct Hn. split; [eapply lnear_sameR; eauto|eauto]. Qed.
Lemma lnear_mono_e M e e' t k k' : (e <= e')%R -> lnear M e t k k' -> lnear M e' t k k'.
Proof. intros He (A & B & (C1 & C2 & C)). split; [assumption|]. split; [assumption|]. split; [assumption|]. split; [assumption|]. intros i j Hi Hj. destruct (C i j Hi Hj) as (? & ? & ?). repeat split; try assumption. lra. Qed.
Lemma lsnear_mono_e M e e' : (e <= e')%R -> forall ts ks ks', lsnear M e ts ks ks' -> lsnear M e' ts ks ks'.
Proof. intros He. induction ts as [|t ts IH]; intros [|k ks] [|k' ks']; cbn; auto. intros [A B]. split; [eapply lnear_mono_e; eauto|auto]. Qed.
Lemma shifts_near M G e xi : (0 <= xi)%R -> (0 <= e)%R -> (0 <= G)%R -> (e + xi * G <= 1)%R -> forall ts k0 ks kv, lsnear M 0 ts k0 k0 -> lsnear (M + 1) e ts k0 ks ->
  Forall2 (fun (k l2 : rlayer) => nr (l_grad l2) = nr (l_W k) /\ nc (l_grad l2) = nc (l_W k) /\ forall i j, i < nr (l_W k) -> j < nc (l_W k) -> (Rabs (at_ (l_grad l2) i j) <= G)%R) ks kv ->
  lsnear (M + 1) (e + xi * G) ts k0 (lines xi ks (map (fun l : rlayer => oppm (l_grad l)) kv)).
Proof.
  intros Hx He HG H1. induction ts as [|t ts IH]; intros k0 ks kv Hn Hn2 HF; destruct k0 as [|a k0]; destruct ks as [|k ks]; cbn in Hn2; try contradiction; inversion HF as [|? v ? kv' (g1 & g2 & g3) HF']; subst; [exact I|].
  destruct Hn as [N1 N2]. destruct Hn2 as [N3 N4]. unfold lines. cbn [map combine fst snd lsnear]. split; [|now apply IH].
  pose proof N3 as (_ & _ & (_ & (C1 & C2) & _)). eapply shift_near; eauto; try congruence. intros i j Hi Hj. apply g3; congruence.
Qed.

Lemma inc_step junk n H ts p c x y xd yd M G Lg : fits_net n H ts p c -> 1 <= p -> samples p c (x, y) -> samples p c (xd, yd) -> built_in n y -> Forall (fun l : rlayer => In (l_act l) seven) ts ->
  (0 <= G)%R -> (0 <= Lg)%R -> near_pass junk n ts (M + 1) x y G Lg -> near_pass junk n ts (M + 1) xd yd G Lg ->
  forall m0 K0 ks0 nf Hf0 kf nd Hd kd, built n ts M m0 K0 ks0 -> passed junk m0 K0 x y nf Hf0 kf -> passed junk m0 K0 xd yd nd Hd kd ->
  forall m K ks (t : trainer Rdt) eta e, built n ts (M + 1) m K ks -> lsnear (M + 1) e ts ks0 ks -> lnear (M + 1) e (o_l (n_output n)) (o_l (n_output m0)) (o_l (n_output m)) ->
    Forall (fun l : rlayer => l_lrate l = eta) ks -> l_lrate (o_l (n_output m)) = eta -> no_decay t -> (0 < eta)%R -> (0 <= e)%R -> (e + eta * G <= 1)%R ->
    exists J t' m' K' ks' J', objective junk m K x y = Ok J /\ feeddata (D := Rdt) junk t m K xd yd = Ok (t', m', K') /\ no_decay t' /\
      built n ts (M + 1) m' K' ks' /\ lsnear (M + 1) (e + eta * G) ts ks0 ks' /\ lnear (M + 1) (e + eta * G) (o_l (n_output n)) (o_l (n_output m0)) (o_l (n_output m')) /\
      Forall (fun l : rlayer => l_lrate l = eta) ks' /\ l_lrate (o_l (n_output m')) = eta /\ objective junk m' K' x y = Ok J' /\
      (J' <= J - eta * (dots2 kf kd + inner (l_grad (o_l (n_output nf))) (l_grad (o_l (n_output nd)))) +
        eta * ((Nw ts + INR (nr (l_W (o_l (n_output n)))) * INR (nc (l_W (o_l (n_output n))))) * (2 * (Lg * (e + eta * G) * G))))%R.
Proof.
  intros Hf Hp Hs Hsd Hb HA HG HL Pf Pd m0 K0 ks0 nf Hf0 kf nd Hd kd Hm0 Qf Qd m K ks t eta e Hm Na Nb Hr Hro Ht He0 He HeG.
  pose proof (built_fits n H ts p c (M + 1) m K ks Hf Hm) as Hfm. pose proof Hm as (M1 & M2 & M3 & M4). pose proof Hm0 as (M10 & M20 & M30 & M40).
  pose proof (built_mono n ts M (M + 1) m0 K0 ks0 ltac:(lra) Hm0) as Hm01.
  assert (Hbm : built_in m y). { destruct M2 as [K1 K2]. destruct M4 as ((E & _) & _). unfold built_in in *. rewrite K1, K2, E. exact Hb. }
  destruct (passed_ok junk m K ks p c xd yd Hfm Hp Hsd) as (n2 & H2 & k2 & Q2 & A6 & A7). destruct (passed_shape junk m K ks xd yd n2 H2 k2 M1 Q2) as (PF & Wo & Wa & Wl & Wr & Wc & Wd).
  destruct (Pd e m0 K0 ks0 m K ks nd Hd kd n2 H2 k2 He Hm01 Hm Na Nb Qd Q2) as [Z1 Z2].
  destruct (passed_shape junk m0 K0 ks0 x y nf Hf0 kf M10 Qf) as (PFf & Wof & _). destruct (passed_shape junk m0 K0 ks0 xd yd nd Hd kd M10 Qd) as (PFd & Wod & _).
  set (e1 := (e + eta * G)%R) in *. assert (He1 : (0 <= e1)%R) by (unfold e1; assert (0 <= eta * G)%R by (apply Rmult_le_pos; lra); lra).
  assert (Hee : (e <= e1)%R) by (unfold e1; assert (0 <= eta * G)%R by (apply Rmult_le_pos; lra); lra).
  (* the gradient of the batch is bounded *)
  assert (LW : Forall2 dims kd k2).
  { pose proof (lsnear_act _ _ _ _ _ M3) as L1. pose proof (lsnear_act _ _ _ _ _ M30) as L2. clear -L1 L2 PF PFd. revert ks0 L2 kd PFd k2 PF. induction L1 as [|t k ts ks (_ & _ & a1 & a2) L1 IH]; intros ks0 L2 kd PFd k2 PF; inversion L2 as [|? k0 ? ks0' (_ & _ & b1 & b2) L2']; subst; inversion PFd as [|? d ? kd' (_ & w1 & _) PFd']; subst; inversion PF as [|? l2 ? k2' (_ & w2 & _) PF']; subst; constructor.
    - unfold dims. rewrite w1, w2. split; congruence.
    - eapply IH; eauto. }
  assert (GL : Forall2 (fun (k l2 : rlayer) => nr (l_grad l2) = nr (l_W k) /\ nc (l_grad l2) = nc (l_W k) /\ forall i j, i < nr (l_W k) -> j < nc (l_W k) -> (Rabs (at_ (l_grad l2) i j) <= G)%R) ks k2).
  { unfold gsnear in Z1. clear -PF Z1 A6 LW. revert kd Z1 LW A6. induction PF as [|k l2 ks k2 (_ & R3 & _) PF IH]; intros kd Z1 LW A6; [constructor|]. apply Forall_cons_iff in A6 as [[g1 g2] A6].
    inversion Z1 as [|d w qs ws Zd Z3]; subst. inversion LW as [|? ? ? ? [D1 D2] LW']; subst. constructor; [|eapply IH; eauto].
    rewrite <- R3. split; [assumption|]. split; [assumption|]. intros i j Hi Hj. destruct Zd as (_ & _ & Zd). apply Zd; congruence. }
  set (Ds := map (fun l : rlayer => oppm (l_grad l)) k2). set (Do := oppm (l_grad (o_l (n_output n2)))).
  assert (HD : length Ds = length ks) by (unfold Ds; rewrite map_length; symmetry; apply (Forall2_len _ _ _ PF)).
  assert (HAk : Forall (fun l : rlayer => smooth_act (l_act l)) ks).
  { pose proof (lsnear_act _ _ _ _ _ M3) as Q. clear -Q HA. induction Q as [|t k ts ks (E & _) Q IH]; constructor; inversion HA; subst; auto. rewrite E. now apply seven_smooth. }
  pose proof (along junk m K ks p c x y Ds Do Hfm Hp Hs Hbm HAk HD) as AL.
  pose proof (along_start junk m K ks p c x y Ds Do Hfm Hp Hs Hbm HAk HD) as AS.
  set (F := phi junk m K ks x y Ds Do) in *.
  assert (NR : forall xi, (0 <= xi <= eta)%R -> lsnear (M + 1) e1 ts ks0 (lines xi ks Ds) /\
     lnear (M + 1) e1 (o_l (n_output n)) (o_l (n_output m0)) (o_l (n_output (movedN m Do xi))) /\ built n ts (M + 1) (movedN m Do xi) (movedH m K ks Ds xi) (lines xi ks Ds)).
  { intros xi [X1 X2]. assert (XG : (xi * G <= eta * G)%R) by (apply Rmult_le_compat_r; lra). assert (X3 : (e + xi * G <= 1)%R) by (unfold e1 in HeG; lra). assert (X4 : (e + xi * G <= e1)%R) by (unfold e1; lra).
    pose proof (shifts_near M G e xi X1 He HG X3 ts ks0 ks k2 M30 Na GL) as N1. destruct Z2 as (_ & (z1 & z2) & Z2).
    pose proof (shift_near M G e xi _ _ _ (l_grad (o_l (n_output n2))) X1 He HG X3 M40 Nb z1 z2 (fun i j Hi Hj => proj1 (proj2 (Z2 i j Hi Hj)))) as N2.
    pose proof (lsnear_mono_e _ _ _ X4 _ _ _ N1) as N1'. pose proof (lnear_mono_e _ _ _ _ _ _ X4 N2) as N2'. split; [exact N1'|]. split; [exact N2'|].
    split; [apply moved_dense; assumption|]. split; [exact M2|]. split; [eapply lsnear_right; exact N1'|eapply lnear_right; exact N2']. }
  set (dt := (dots2 kf kd + inner (l_grad (o_l (n_output nf))) (l_grad (o_l (n_output nd))))%R).
  set (NT := (Nw ts + INR (nr (l_W (o_l (n_output n)))) * INR (nc (l_W (o_l (n_output n)))))%R).
  assert (SL : forall xi, (0 <= xi <= eta)%R -> exists d, is_derive F xi d /\ (d <= - dt + NT * (2 * (Lg * e1 * G)))%R).
  { intros xi Hxi. destruct (AL xi) as (_ & a' & n1' & H1' & n2' & H2'' & k2' & B1 & B2 & B3 & B4). eexists. split; [exact B4|]. destruct (NR xi Hxi) as (N1 & N2 & N3).
    assert (Q' : passed junk (movedN m Do xi) (movedH m K ks Ds xi) x y n2' H2'' k2') by (exists a', n1', H1'; auto).
    destruct (Pf e1 m0 K0 ks0 _ _ _ nf Hf0 kf n2' H2'' k2' He1 Hm01 N3 N1 N2 Qf Q') as [Y1 Y2]. destruct (passed_shape junk _ _ _ x y n2' H2'' k2' (proj1 N3) Q') as (PF' & Wo' & _).
    assert (DM : Forall2 dims kf k2').
    { pose proof (lsnear_act _ _ _ _ _ M30) as L2. destruct N3 as (_ & _ & N3 & _). pose proof (lsnear_act _ _ _ _ _ N3) as L1. clearbody Ds. set (kk := lines xi ks Ds) in *. clearbody kk. clear -L1 L2 PFf PF'. revert ks0 L2 kf PFf k2' PF'. induction L1 as [|t k ts ks (_ & _ & a1 & a2) L1 IH]; intros ks0 L2 kd PFd k2 PF; inversion L2 as [|? k0 ? ks0' (_ & _ & b1 & b2) L2']; subst; inversion PFd as [|? d ? kd' (_ & w1 & _) PFd']; subst; inversion PF as [|? l2 ? k2' (_ & w2 & _) PF']; subst; constructor.
      - unfold dims. rewrite w1, w2. split; congruence.
      - eapply IH; eauto. }
    assert (DM2 : Forall2 dims kf kd).
    { clear -PFf PFd. revert kd PFd. induction PFf as [|k l2 ks k2 (_ & R3 & _) PF IH]; intros kd PFd; inversion PFd as [|? d ? kd' (_ & w1 & _) PFd']; subst; constructor; auto. unfold dims. rewrite R3, w1. auto. }
    assert (NWe : Nw kf = Nw ts).
    { unfold Nw, sumL. pose proof (lsnear_act _ _ _ _ _ M30) as Q. clear -Q PFf. revert kf PFf. induction Q as [|t k ts ks (_ & _ & E1 & E2) Q IH]; intros k2 PF; inversion PF as [|q v qs vs (_ & R3 & _) PF']; subst; [reflexivity|].
      cbn [map fold_right]. rewrite (IH _ PF'), R3, E1, E2. reflexivity. }
    assert (Z1' : gsnear G Lg e1 kd k2).
    { clear -Z1 Hee HL. unfold gsnear in *. induction Z1 as [|? ? ? ? (a & b & Z) Z1 IH]; constructor; auto. split; [assumption|]. split; [assumption|]. intros i j Hi Hj. destruct (Z i j Hi Hj) as (? & ? & ?). repeat split; try assumption. assert (Lg * e <= Lg * e1)%R by (apply Rmult_le_compat_l; assumption). lra. }
    assert (Z2' : mnear (nr (l_W (o_l (n_output n)))) (nc (l_W (o_l (n_output n)))) G Lg e1 (l_grad (o_l (n_output nd))) (l_grad (o_l (n_output n2)))).
    { destruct Z2 as (a & b & Z). split; [assumption|]. split; [assumption|]. intros i j Hi Hj. destruct (Z i j Hi Hj) as (? & ? & ?). repeat split; try assumption. assert (Lg * e <= Lg * e1)%R by (apply Rmult_le_compat_l; assumption). lra. }
    pose proof (layers_dir2 G Lg e1 He1 HG HL kf k2' Y1 kd k2 Z1' DM DM2) as Q1. fold Ds in Q1. rewrite NWe in Q1.
    destruct M4 as (_ & _ & ((w1 & w2) & _)).
    pose proof (layer_dir2 _ _ G Lg e1 (o_l (n_output n2')) _ _ _ He1 HG HL Y2 Z2') as Q3. rewrite Wo' in Q3. specialize (Q3 w1 w2). fold Do in Q3.
    unfold dt, NT. lra. }
  assert (DEC : (F eta <= F 0 - eta * dt + eta * (NT * (2 * (Lg * e1 * G))))%R).
  { destruct (MVT_gen F 0 eta (Derive F)) as (xi & Hxi & E).
    - rewrite Rmin_left, Rmax_right by lra. intros xi Hxi. destruct (SL xi ltac:(lra)) as (d & D1 & _). apply Derive_correct. eexists; exact D1.
    - rewrite Rmin_left, Rmax_right by lra. intros xi Hxi. destruct (SL xi ltac:(lra)) as (d & D1 & _). apply continuity_pt_filterlim. apply (ex_derive_continuous (V := R_NormedModule)). eexists; exact D1.
    - rewrite Rmin_left, Rmax_right in Hxi by lra. destruct (SL xi Hxi) as (d & D1 & D2). rewrite (is_derive_unique _ _ _ D1) in E. nra. }
  (* the step itself *)
  set (m' := set_output n2 (with_layer (n_output n2) (stepped (o_l (n_output n2))))). set (K' := put_layers (n_hidden n2) (map (fun l : rlayer => stepped l) k2) H2).
  pose proof Q2 as (a & n1 & H1 & A1 & A4 & A5).
  assert (TS : train_step (D := Rdt) junk m K xd yd = Ok (m', K')).
  { unfold train_step. rewrite A1. cbn [bind]. rewrite A4. cbn [bind]. apply (net_update_ok n2 H2 k2); [apply A5|assumption|assumption]. }
  assert (FD : exists t', feeddata (D := Rdt) junk t m K xd yd = Ok (t', m', K') /\ no_decay t').
  { unfold feeddata, decay. cbn [tick t_usedecay]. rewrite Ht. cbn [andb bind]. rewrite TS. cbn [bind]. eexists. split; [reflexivity|]. exact Ht. }
  destruct FD as (t' & FD & Ht').
  assert (DK : dense_net m' K' (map (fun l : rlayer => stepped l) k2)).
  { split; [apply A5|]. cbn. eapply dense_put; [apply A5|]. apply map_length. }
  assert (R2 : Forall (fun l : rlayer => l_lrate l = eta) k2).
  { clear -PF Hr. induction PF as [|k l2 ks k2 (_ & _ & _ & E & _) PF IH]; constructor; inversion Hr; subst; auto. }
  assert (Ro : l_lrate (o_l (n_output n2)) = eta) by congruence.
  assert (SWs : Forall2 sameWAL (lines eta ks Ds) (map (fun l : rlayer => stepped l) k2)).
  { unfold Ds. clear -PF A6 R2. revert A6 R2. induction PF as [|k l2 ks k2 (_ & E1 & E2 & _ & E3) PF IH]; intros Gh R2; [constructor|]. apply Forall_cons_iff in Gh as [[g1 g2] Gh']. apply Forall_cons_iff in R2 as [R3 R4].
    unfold lines. cbn [map combine fst snd]. constructor; [|now apply IH]. split; [|split; cbn; congruence]. rewrite <- (relr_id l2 eta) at 1 by assumption. rewrite stepped_line by assumption. cbn. now rewrite E1. }
  assert (SWo : sameWAL (o_l (n_output (movedN m Do eta))) (o_l (n_output m'))).
  { split; [|split; cbn; congruence]. cbn [m' set_output with_layer n_output o_l]. rewrite <- (relr_id (o_l (n_output n2)) eta) at 1 by assumption. rewrite stepped_line by apply A7. cbn. now rewrite Wo. }
  destruct (NR eta ltac:(lra)) as (N1 & N2 & (_ & _ & N3 & N4)).
  exists (F 0%R), t', m', K', (map (fun l : rlayer => stepped l) k2), (F eta). split; [exact AS|]. split; [exact FD|]. split; [exact Ht'|]. split.
  { split; [exact DK|]. split.
    - destruct M2 as [q1 q2]. split; cbn; congruence.
    - split; [eapply lsnear_same; [exact SWs|exact N3]|eapply lnear_same; [exact SWo|exact N4]]. }
  split; [eapply lsnear_sameR; eassumption|]. split; [eapply lnear_sameR; eassumption|].
  split. { apply Forall_forall. intros l Hl. apply in_map_iff in Hl as (l0 & <- & Hl0). cbn. rewrite Forall_forall in R2. now apply R2. }
  split; [exact Ro|]. split; [|exact DEC].
  destruct (AL eta) as [Key _]. apply (Key m' K' (map (fun l : rlayer => stepped l) k2)); [exact DK| |apply SWo| |apply SWo|apply SWo|].
  - clear -SWs. induction SWs as [|u v us vs (E & _) SW IH]; cbn; [reflexivity|]. now rewrite E, IH.
  - clear -SWs. induction SWs as [|u v us vs (_ & E) SW IH]; constructor; auto.
  - cbn. exact Wc.
Qed.

(** ** A whole pass over batches *)
(** Specification: Trainer::feeddata on each batch in turn. *)
Definition run (junk : nat -> R) (ds : list (rmat * rmat)) (t : trainer Rdt) (n : rnet) (H : rheap) : res (trainer Rdt * rnet * rheap) :=
  foldM (fun '(t, n, H) d => feeddata (D := Rdt) junk t n H (fst d) (snd d)) ds (t, n, H).
Lemma objective_built junk n H ts p c M m K ks x y : fits_net n H ts p c -> 1 <= p -> samples p c (x, y) -> built_in n y -> built n ts M m K ks -> exists J, objective junk m K x y = Ok J.
Proof.
  intros Hf Hp Hs Hb Hm. apply (objective_ok junk m K ks p c x y (built_fits n H ts p c M m K ks Hf Hm) Hp Hs).
  destruct Hm as (_ & [K1 K2] & _ & ((E & _) & _)). unfold built_in in *. rewrite K1, K2, E. exact Hb.
Qed.
Lemma inc_list junk n H ts p c x y M G Lg : fits_net n H ts p c -> 1 <= p -> samples p c (x, y) -> built_in n y -> Forall (fun l : rlayer => In (l_act l) seven) ts ->
  (0 <= G)%R -> (0 <= Lg)%R -> near_pass junk n ts (M + 1) x y G Lg ->
  forall m0 K0 ks0 nf Hf0 kf, built n ts M m0 K0 ks0 -> passed junk m0 K0 x y nf Hf0 kf -> forall eta, (0 < eta)%R ->
  forall ds, Forall (samples p c) ds -> Forall (fun d => near_pass junk n ts (M + 1) (fst d) (snd d) G Lg) ds ->
  forall qs, Forall2 (fun d q => exists nd Hd kd, passed junk m0 K0 (fst d) (snd d) nd Hd kd /\ q = (dots2 kf kd + inner (l_grad (o_l (n_output nf))) (l_grad (o_l (n_output nd))))%R) ds qs ->
  forall m K ks (t : trainer Rdt) e, built n ts (M + 1) m K ks -> lsnear (M + 1) e ts ks0 ks -> lnear (M + 1) e (o_l (n_output n)) (o_l (n_output m0)) (o_l (n_output m)) ->
    Forall (fun l : rlayer => l_lrate l = eta) ks -> l_lrate (o_l (n_output m)) = eta -> no_decay t -> (0 <= e)%R ->
  forall E, (e + INR (length ds) * (eta * G) <= E)%R -> (E <= 1)%R ->
    exists J t' m' K' ks' J', objective junk m K x y = Ok J /\ run junk ds t m K = Ok (t', m', K') /\ no_decay t' /\ built n ts (M + 1) m' K' ks' /\
      Forall (fun l : rlayer => l_lrate l = eta) ks' /\ l_lrate (o_l (n_output m')) = eta /\ objective junk m' K' x y = Ok J' /\
      (J' <= J - eta * sumL qs + INR (length ds) * (eta * ((Nw ts + INR (nr (l_W (o_l (n_output n)))) * INR (nc (l_W (o_l (n_output n))))) * (2 * (Lg * E * G)))))%R.
Proof.
  intros Hf Hp Hs Hb HA HG HL Pf m0 K0 ks0 nf Hf0 kf Hm0 Qf eta He. set (NT := (Nw ts + INR (nr (l_W (o_l (n_output n)))) * INR (nc (l_W (o_l (n_output n)))))%R).
  assert (HNT : (0 <= NT)%R). { unfold NT. pose proof (Nw_nonneg ts). pose proof (pos_INR (nr (l_W (o_l (n_output n))))). pose proof (pos_INR (nc (l_W (o_l (n_output n))))). nra. }
  assert (HeG : (0 <= eta * G)%R) by (apply Rmult_le_pos; lra).
  induction ds as [|[xd yd] ds IH]; intros HS HN qs HQ; inversion HQ as [|? q ? qs' Q1 Q2]; subst.
  - intros m K ks t e Hm Na Nb Hr Hro Ht He0 E HE HE1. destruct (objective_built junk n H ts p c _ m K ks x y Hf Hp Hs Hb Hm) as (J & EJ). exists J, t, m, K, ks, J. split; [assumption|]. split; [reflexivity|]. repeat (split; [assumption|]). change (sumL []) with 0%R. change (INR (length (@nil (rmat * rmat)))) with 0%R. rewrite Rmult_0_l. lra.
  - inversion HS as [|? ? S1 S2]; subst. inversion HN as [|? ? N1 N2]; subst. intros m K ks t e Hm Na Nb Hr Hro Ht He0 E HE HE1. cbn [fst snd] in *. cbn [length] in HE. rewrite S_INR in HE. destruct Q1 as (nd & Hd & kd & Qd & ->). pose proof (pos_INR (length ds)) as PL. assert (0 <= INR (length ds) * (eta * G))%R by (apply Rmult_le_pos; assumption).
    assert (HE2 : (e + eta * G <= E)%R) by lra.
    destruct (inc_step junk n H ts p c x y xd yd M G Lg Hf Hp Hs S1 Hb HA HG HL Pf N1 m0 K0 ks0 nf Hf0 kf nd Hd kd Hm0 Qf Qd m K ks t eta e Hm Na Nb Hr Hro Ht He He0 ltac:(lra))
      as (J & t' & m' & K' & ks' & J' & A1 & A2 & A3 & A4 & A5 & A6 & A7 & A8 & A9 & A10). fold NT in A10.
    destruct (IH S2 N2 qs' Q2 m' K' ks' t' (e + eta * G)%R A4 A5 A6 A7 A8 A3 ltac:(lra) E ltac:(lra) HE1) as (J1 & t2 & m2 & K2 & ks2 & J2 & B1 & B2 & B3 & B4 & B5 & B6 & B7 & B8).
    pose proof (eq_trans (eq_sym A9) B1) as Z. injection Z as ->. exists J, t2, m2, K2, ks2, J2. split; [assumption|]. split; [unfold run in *; cbn [foldM fst snd]; rewrite A2; cbn [bind]; exact B2|]. repeat (split; [assumption|]).
    cbn [length]. rewrite S_INR. unfold sumL in *. cbn [fold_right].
    assert (T : (eta * (NT * (2 * (Lg * (e + eta * G) * G))) <= eta * (NT * (2 * (Lg * E * G))))%R).
    { apply Rmult_le_compat_l; [lra|]. apply Rmult_le_compat_l; [assumption|]. apply Rmult_le_compat_l; [lra|]. apply Rmult_le_compat_r; [assumption|]. now apply Rmult_le_compat_l. }
    set (W1 := (eta * (NT * (2 * (Lg * E * G))))%R) in *. lra.
Qed.

(** ** Equal batches that use every row once *)
(** Specification: the row numbers 0..N-1 cut into batches of b rows, in any order; the batches of (x, y) with these row numbers. *)
Definition split_of (N : nat) (b : nat) (idxs : list (list nat)) : Prop := 1 <= b /\ Forall (fun idx => length idx = b) idxs /\ Permutation (concat idxs) (seq 0 N).
Definition batches (x y : rmat) (idxs : list (list nat)) : list (rmat * rmat) := map (fun idx => (pick x idx, pick y idx)) idxs.
Definition ipL (As Bs : list rmat) : R := sumL (map (fun ab => inner (fst ab) (snd ab)) (combine As Bs)).
Lemma ipL_nth As : forall Bs, length As = length Bs -> ipL As Bs = sumN (length As) (fun k => inner (nth k As mempty) (nth k Bs mempty)).
Proof.
  induction As as [|a As IH]; intros [|b Bs] E; try discriminate; [reflexivity|]. cbn [length]. rewrite sumN_S. unfold ipL, sumL in *. cbn [combine map fold_right fst snd nth]. now rewrite <- IH by (simpl in E; lia).
Qed.
Lemma sumL_sumN {A} (l : list A) n (f : A -> nat -> R) : sumL (map (fun a => sumN n (f a)) l) = sumN n (fun k => sumL (map (fun a => f a k) l)).
Proof. unfold sumN. apply sumL_swap. Qed.
Lemma sumL_concat (f : nat -> R) : forall ls, sumL (map (fun l => sumL (map f l)) ls) = sumL (map f (concat ls)).
Proof. induction ls as [|l ls IH]; [reflexivity|]. cbn [map concat]. rewrite map_app, sumL_app, <- IH. reflexivity. Qed.
Lemma split_length N b idxs : split_of N b idxs -> N = length idxs * b.
Proof.
  intros (Hb & HF & HP). apply Permutation_length in HP. rewrite seq_length in HP. rewrite <- HP. clear -HF. induction HF as [|i l E HF IH]; [reflexivity|]. cbn [concat length]. rewrite app_length, IH, E. lia.
Qed.
Lemma grads_dots junk (m : rnet) K ks x y nf Hf0 kf xd yd nd Hd kd Gf Gd : dense_net m K ks -> passed junk m K x y nf Hf0 kf -> passed junk m K xd yd nd Hd kd ->
  pass_grads (D := Rdt) junk m K x y = Ok Gf -> pass_grads (D := Rdt) junk m K xd yd = Ok Gd -> (dots2 kf kd + inner (l_grad (o_l (n_output nf))) (l_grad (o_l (n_output nd))))%R = ipL Gf Gd.
Proof.
  intros Hdn P1 P2 E1 E2. destruct (passed_shape _ _ _ _ _ _ _ _ _ Hdn P1) as (F1 & _). destruct (passed_shape _ _ _ _ _ _ _ _ _ Hdn P2) as (F2 & _).
  assert (HL : length kf = length kd) by (rewrite <- (Forall2_len _ _ _ F1), <- (Forall2_len _ _ _ F2); reflexivity).
  destruct P1 as (a & n1 & H1 & A1 & A2 & A3). destruct P2 as (a' & n1' & H1' & B1 & B2 & B3).
  unfold pass_grads in E1, E2. rewrite A1 in E1. rewrite B1 in E2. cbn [bind] in E1, E2. rewrite A2 in E1. rewrite B2 in E2. cbn [bind] in E1, E2.
  rewrite (hidden_layers_dense _ _ _ (proj2 A3)) in E1. rewrite (hidden_layers_dense _ _ _ (proj2 B3)) in E2. cbn [bind net_getoutput output_copy o_l] in E1, E2. rewrite layer_copy_id in E1, E2. injection E1 as <-. injection E2 as <-.
  clear -HL. revert kd HL. induction kf as [|l kf IH]; intros [|d kd] HL; try discriminate.
  - unfold dots2, ipL, sumL. cbn. ring.
  - simpl in HL. specialize (IH kd ltac:(lia)). unfold dots2, ipL, sumL in *. cbn [map app combine fold_right fst snd]. rewrite <- IH. ring.
Qed.
Lemma slope2_grads junk (m : rnet) K ks x y nf Hf0 kf Gf : dense_net m K ks -> passed junk m K x y nf Hf0 kf -> pass_grads (D := Rdt) junk m K x y = Ok Gf -> slope2 junk m K x y = Ok (ipL Gf Gf).
Proof.
  intros Hdn P1 E1. rewrite <- (grads_dots junk m K ks x y nf Hf0 kf x y nf Hf0 kf Gf Gf Hdn P1 P1 E1 E1). destruct P1 as (a & n1 & H1 & A1 & A2 & A3). unfold slope2. rewrite A1. cbn [bind]. rewrite A2. cbn [bind]. rewrite (hidden_layers_dense _ _ _ (proj2 A3)). cbn [bind].
  f_equal. f_equal. unfold dots2, sqnorm. clear. induction kf as [|l kf IH]; [reflexivity|]. unfold sumL in *. cbn [map combine fold_right fst snd]. now rewrite IH.
Qed.
Lemma batch_sum junk (m : rnet) K p c x y b idxs Gf : 1 <= p -> well_sized (D := Rdt) m K p c -> samples (D := Rdt) p c (x, y) -> split_of (nr x) b idxs ->
  pass_grads (D := Rdt) junk m K x y = Ok Gf ->
  exists Gd, (forall idx, In idx idxs -> pass_grads (D := Rdt) junk m K (pick x idx) (pick y idx) = Ok (Gd idx)) /\ sumL (map (fun idx => ipL Gf (Gd idx)) idxs) = (INR (length idxs) * ipL Gf Gf)%R.
Proof.
  intros Hp Hw Hs Hsp EGf. exists (fun idx => match pass_grads (D := Rdt) junk m K (pick x idx) (pick y idx) with Ok g => g | _ => [] end).
  set (Gd := fun idx => match pass_grads (D := Rdt) junk m K (pick x idx) (pick y idx) with Ok g => g | _ => [] end). pose proof Hsp as (Hb & HF & HP). pose proof (split_length _ _ _ Hsp) as HNb.
  destruct (C62_mean junk m K p c x y Hp Hw Hs) as [(G & ls & B1 & B2 & B3 & B4) _]. pose proof (eq_trans (eq_sym EGf) B1) as Q. injection Q as <-.
  set (e := (fun k i j r => entry (D := Rdt) (pass_grads (D := Rdt) junk m K (row_of x r) (row_of y r)) k i j) : nat -> nat -> nat -> nat -> R).
  assert (HM : forall idx, In idx idxs -> pass_grads (D := Rdt) junk m K (pick x idx) (pick y idx) = Ok (Gd idx) /\ length (Gd idx) = length Gf /\
     forall k l i j, nth_error (ls ++ [o_l (n_output m)]) k = Some l -> i < nr (l_W l) -> j < nc (l_W l) -> at_ (nth k (Gd idx) mempty) i j = (sumL (map (e k i j) idx) / INR b)%R).
  { intros idx Hi. rewrite Forall_forall in HF. specialize (HF idx Hi). destruct (C62_minibatch junk m K p c x y idx Hp Hw Hs) as (G & ls' & C1 & C2 & C3 & C4); [intros ->; simpl in HF; lia|]. pose proof (eq_trans (eq_sym B2) C2) as Q. injection Q as <-. unfold Gd. rewrite C1.
    split; [reflexivity|]. split; [now rewrite <- (Forall2_len _ _ _ C3), <- (Forall2_len _ _ _ B3)|]. intros k l i j Hk Hi' Hj. rewrite (C4 k l i j Hk Hi' Hj), HF. reflexivity. }
  split; [intros idx Hi; apply HM; assumption|].
  rewrite (ipL_nth Gf Gf eq_refl). rewrite (sumL_map_ext _ (fun idx => sumN (length Gf) (fun k => inner (nth k Gf mempty) (nth k (Gd idx) mempty)))).
  2:{ intros idx Hi. apply ipL_nth. symmetry. now apply HM. }
  rewrite sumL_sumN, <- sumN_scal. apply sumN_ext. intros k Hk.
  destruct (nth_error (ls ++ [o_l (n_output m)]) k) as [l|] eqn:El; [|apply nth_error_None in El; rewrite (Forall2_len _ _ _ B3) in El; lia].
  assert (X : nth_error Gf k = Some (nth k Gf mempty)) by (apply nth_error_nth'; assumption). destruct (Forall2_nth _ _ _ B3 k _ _ El X) as (N1 & N2 & _).
  unfold inner. rewrite N1, N2. rewrite sumL_sumN, <- sumN_scal. apply sumN_ext. intros i Hi. rewrite sumL_sumN, <- sumN_scal. apply sumN_ext. intros j Hj.
  rewrite (sumL_map_ext _ (fun idx => at_ (nth k Gf mempty) i j / INR b * sumL (map (e k i j) idx))%R).
  2:{ intros idx Hidx. destruct (HM idx Hidx) as (_ & _ & Q). rewrite (Q k l i j El Hi Hj). field. apply not_0_INR. lia. }
  rewrite sumL_map_scal, sumL_concat. rewrite (sumL_perm (map (e k i j) (concat idxs)) (map (e k i j) (seq 0 (nr x))) (Permutation_map (e k i j) HP)). change (sumL (map (e k i j) (seq 0 (nr x)))) with (sumN (nr x) (e k i j)).
  assert (S1 : 1 <= nr x) by apply Hs. rewrite (B4 k l i j El Hi Hj). fold (e k i j). change (fun r => entry (pass_grads (D := Rdt) junk m K (row_of x r) (row_of y r)) k i j) with (e k i j).
  set (SS := sumN (nr x) (e k i j)). rewrite HNb, mult_INR. field. split; apply not_0_INR; [lia|]. intros Z. rewrite HNb, Z in S1. lia.
Qed.

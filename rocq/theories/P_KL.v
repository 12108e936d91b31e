(** P_KL.v - C30: the Kullback-Leibler output back-propagates the negated gradient; C31: a custom activation in a
    built-in output is ignored by its delta. *)
From Coq Require Import Reals Lra.
From Coquelicot Require Import Coquelicot.
From Verif Require Import Base Mat Act Layer Conv Misc Net Trainer NetP RInst RMat P_Act Grad P_Grad TrainP ExNet P_Decay TrainP2 P_Train FunEq P_Mom P_Descent.
From Coq Require Import Arith.
Local Open Scope nat_scope.

(** ** Specification *)

(** The network ends in a KullbackLeiblerOutput with its own (identity) activation. *)
Definition kl_net (n : rnet) : Prop :=
  n_cost n = kl_cost /\ o_costd (n_output n) = kl_costd /\ l_act (o_l (n_output n)) = identity.
(** Every entry of m is positive. *)
Definition positive (m : rmat) : Prop := forall i j, i < nr m -> j < nc m -> (0 < at_ m i j)%R.

(** ** The delta *)
Lemma d_kl (u : R -> R) u' (yv c : R) : c <> 0%R -> (0 < yv)%R -> (0 < u 0)%R -> is_derive u 0%R u' ->
  is_derive (fun s => yv * ln (yv / u s) / c)%R 0%R (- (yv / u 0 / c * u'))%R.
Proof.
  intros Hc Hy Hu H. assert (E : Derive u 0 = u') by (apply is_derive_unique; exact H).
  assert (0 < yv / u 0)%R by now apply Rdiv_lt_0_compat.
  auto_derive.
  - repeat split; try lra; try exact I. exists u'; exact H.
  - change (Derive (fun x : R => u x) 0) with (Derive u 0). rewrite E. field. repeat split; lra.
Qed.

Lemma kl_sized_label n y : kl_net n -> sized_label n y.
Proof.
  intros (B1 & B2 & B3) aa zz d P3. rewrite B2 in P3. unfold kl_costd in P3. apply bind_ok in P3 as (m & M & _). apply mzip_dims in M as (M1 & M2 & _). auto.
Qed.
Lemma kl_rule n (y a : rmat) : kl_net n -> positive y -> nr a = nr y -> nc a = nc y -> positive a -> out_rule (-1) n y a.
Proof.
  intros (B1 & B2 & B3) Hy Ea1 Ea2 Ha r c z z' zz delta Er Ec Hr Hz0 Hz Hd. assert (Hm : INR r <> 0%R) by (apply not_0_INR; lia).
  unfold net_computecost. rewrite B1, B3 in *. rewrite B2 in Hd. rewrite kl_costd_mk in Hd by assumption. injection Hd as <-.
  exists (fun t => sumN r (fun i => sumN c (fun j => (at_ y i j * ln (at_ y i j / z t i j) / INR r)%R))). split.
  - intros t. rewrite kl_cost_mk by assumption. cbn [bind]. unfold sumall. rewrite accu_mk, sumN_swap. reflexivity.
  - evar_last.
    + apply (d_sumN r (fun t i => sumN c (fun j => (at_ y i j * ln (at_ y i j / z t i j) / INR r)%R))). intros i Hi.
      apply (d_sumN c (fun t j => (at_ y i j * ln (at_ y i j / z t i j) / INR r)%R)). intros j Hj.
      apply (d_kl (fun t => z t i j)); auto; [apply Hy; lia|]. specialize (Hz0 i j Hi Hj). cbn in Hz0. unfold f_identity in Hz0. rewrite <- Hz0. apply Ha; lia.
    + cbn beta. toR. rewrite <- sumN_scal. apply sumN_ext. intros i Hi. rewrite <- sumN_scal. apply sumN_ext. intros j Hj. rewrite at_mk by assumption. cbn. unfold f_identity. ring.
Qed.

(** Every stored gradient, minus lambda*W, is exactly minus the gradient of the cost, in every direction. *)
Theorem C30_gradient : forall junk (n : rnet) (H : rheap) (x y a : rmat) n1 H1 n2 H2 ls ls1 ls2 (Ds : list rmat) (Do : rmat),
  dense_hidden n H -> kl_net n -> positive y -> positive a ->
  net_forward (D := Rdt) junk n H x = Ok (a, n1, H1) -> net_backprop (D := Rdt) junk n1 H1 y = Ok (n2, H2) ->
  hidden_layers n H = Ok ls -> hidden_layers n1 H1 = Ok ls1 -> hidden_layers n2 H2 = Ok ls2 ->
  Forall smooth_at ls1 ->
  length Ds = length ls ->
  exists C : R -> R,
    (forall t, cost_at junk n H x y (map (fun lD => line t (l_W (fst lD)) (snd lD)) (combine ls Ds))
                 (line t (l_W (o_l (n_output n))) Do) = Ok (C t)) /\
    net_computecost n a y = Ok (C 0%R) /\
    is_derive C 0%R (- (gdirs ls2 Ds + gdir (o_l (n_output n2)) Do))%R.
Proof.
  intros junk n H x y a n1 H1 n2 H2 ls ls1 ls2 Ds Do Hdh Hk Hy Ha HF HB L0 L1 L2 HS HD.
  destruct (dense_of_hidden n H Hdh) as (ls' & L0' & Hdn).
  destruct (pass_dense junk n H ls' x y a n1 H1 n2 H2 Hdn HF HB) as (b & k1 & delta & k2 & dx & P1 & P2 & P3 & P4 & _).
  pose proof (kl_sized_label n y Hk _ _ _ P4) as [S1 S2].
  destruct (gradient_core (-1) junk n H x y a n1 H1 n2 H2 ls ls1 ls2 Ds Do) as (C & C1 & C2 & C3); auto using kl_sized_label.
  { apply kl_rule; auto. }
  exists C. split; [assumption|]. split; [assumption|]. evar_last; [exact C3|]. ring.
Qed.

(** ** One training step moves along the line W - eta * grad, whatever the cost *)
Lemma step_cost junk (t : trainer Rdt) (n : rnet) (H : rheap) (x y a : rmat) n1 H1 n2 H2 ls k2 :
  dense_net n H ls -> net_forward (D := Rdt) junk n H x = Ok (a, n1, H1) -> net_backprop (D := Rdt) junk n1 H1 y = Ok (n2, H2) ->
  hidden_layers n2 H2 = Ok k2 -> t_usedecay t = false \/ (t_iters t + 1)%Z <> t_step t ->
  let Ds := map (fun l : rlayer => oppm (l_grad l)) k2 in let Do := oppm (l_grad (o_l (n_output n2))) in
  length Ds = length ls /\
  forall eta c, cost_at junk n H x y (map (fun lD => line eta (l_W (fst lD)) (snd lD)) (combine ls Ds)) (line eta (l_W (o_l (n_output n))) Do) = Ok c ->
    cost_after junk t n H x y eta = Ok c.
Proof.
  intros Hdn HF HB L2 Ht Ds Do.
  destruct (pass_dense junk n H ls x y a n1 H1 n2 H2 Hdn HF HB) as (b & k1 & delta & k2' & dx & P1 & P2 & P3 & P4 & P5 & P6 & P7 & P8 & P9 & P10 & P11 & P12 & P13).
  pose proof (eq_trans (eq_sym L2) (hidden_layers_dense n2 H2 k2' (proj2 P9))) as Q. injection Q as <-.
  pose proof (passes_form _ _ _ _ P1 _ _ _ P7) as PF.
  assert (Eln : length k2 = length ls) by (symmetry; apply (Forall2_len _ _ _ PF)).
  assert (HD : length Ds = length ls) by (unfold Ds; rewrite map_length; exact Eln). split; [exact HD|]. intros eta c CA.
  set (Wt := fun t => map (fun lD => line t (l_W (fst lD)) (snd lD)) (combine ls Ds)) in *.
  assert (Go : nr (l_grad (o_l (n_output n2))) = nr (l_W (o_l (n_output n2))) /\ nc (l_grad (o_l (n_output n2))) = nc (l_W (o_l (n_output n2)))).
  { rewrite P10. destruct P2 as (F1 & F2 & F3). cbn. lia. }
  assert (Gh : Forall (fun l : rlayer => nr (l_grad l) = nr (l_W l) /\ nc (l_grad l) = nc (l_W l)) k2).
  { clear -PF. induction PF as [|l l2 us vs (R & A & _) PF IH]; constructor; auto. destruct R as (R1 & R2 & _). split; congruence. }
  assert (Wline : forall r, map (fun l : rlayer => l_W l) (map (fun l => stepped (relr r l)) k2) = Wt r).
  { intros r. unfold Wt, Ds. clear -PF Gh. revert Gh. induction PF as [|l l2 us vs (_ & A & _) PF IH]; intros Gh; [reflexivity|]. inversion Gh as [|u1 u2 [G1 G2] G3]; subst.
    cbn [map combine fst snd]. rewrite stepped_line by assumption. rewrite A. f_equal. now apply IH. }
  unfold cost_after. destruct (net_setlrate_dense n H ls eta Hdn) as [ES Hr]. pose proof (bind_eq _ (fun '(n1, H1) => '(_, n2, H2) <- feeddata (D := Rdt) junk t n1 H1 x y ;; cost_of junk n2 H2 x y) _ _ ES eq_refl) as EB.
  cbn beta iota in EB. rewrite EB. clear EB.
  destruct (step_rate junk n H ls x y a n1 H1 n2 H2 k2 (eta : Rdt) Hdn HF HB P9) as (n3 & H3 & E3 & D3 & O3 & [K3 _]).
  assert (ED : decay (tick t) (setrate_net n (eta : Rdt)) (put_layers (n_hidden n) (map (relr (eta : Rdt)) ls) H) = Ok (setrate_net n (eta : Rdt), put_layers (n_hidden n) (map (relr (eta : Rdt)) ls) H)).
  { unfold decay. cbn [tick t_usedecay t_iters t_step]. replace (t_usedecay t && (t_iters t + 1 =? t_step t)%Z) with false; [reflexivity|].
    symmetry. destruct Ht as [->|Ht]; [reflexivity|]. apply andb_false_iff. right. now apply Z.eqb_neq. }
  unfold feeddata. rewrite ED. cbn [bind]. rewrite E3. cbn [bind].
  set (ks := map (fun l => stepped (relr (eta : Rdt) l)) k2) in *. specialize (Wline eta).
  assert (EWo : l_W (o_l (n_output n3)) = line eta (l_W (o_l (n_output n))) Do). { rewrite O3, stepped_line by apply Go. unfold Do. rewrite P10. reflexivity. }
  assert (EA : Forall2 (fun l l' : rlayer => l_act l' = l_act l) ls ks). { unfold ks. clear -PF. induction PF as [|l l2 us vs (_ & A & B & C & E) PF IH]; cbn; constructor; auto. }
  assert (EAo : l_act (o_l (n_output n3)) = l_act (o_l (n_output n))) by (rewrite O3, P10; reflexivity).
  unfold cost_at in CA.
  assert (HWl : length (Wt eta) = length ls) by (unfold Wt; rewrite map_length, combine_length; lia).
  change (map (fun lD => line eta (l_W (fst lD)) (snd lD)) (combine ls Ds)) with (Wt eta) in CA. fold ks in Wline.
  rewrite (set_hidden_dense n H ls) in CA by assumption. cbn [bind] in CA.
  set (kk := map (fun lw => set_W (fst lw) (snd lw)) (combine ls (Wt eta))) in CA.
  assert (Hk : dense_net (net_setoutputw n (line eta (l_W (o_l (n_output n))) Do)) (put_layers (n_hidden n) kk H) kk).
  { split; [apply Hdn|]. cbn. eapply dense_put; [exact Hdn|]. unfold kk. rewrite map_length, combine_length. lia. }
  apply bind_ok in CA as ([[a' m1] K1] & FA & CA).
  assert (SW : same_weights (net_setoutputw n (line eta (l_W (o_l (n_output n))) Do)) (put_layers (n_hidden n) kk H) n3 H3).
  { exists kk, ks. split; [apply hidden_layers_dense, Hk|]. split; [apply hidden_layers_dense, D3|]. split.
    - unfold kk. clear -EA Wline HWl. revert HWl Wline. generalize (Wt eta). induction EA as [|l l' us vs E1 EA IH]; intros [|w ws] HWl EW; try discriminate; [constructor|].
      cbn in EW. injection EW as EW1 EW2. cbn [combine map fst snd]. constructor; [split; cbn; auto|]. apply IH; auto.
    - split; cbn; auto. }
  destruct (same_forward junk _ _ n3 H3 x a' m1 K1 (dense_net_hidden _ _ _ Hk) (dense_net_hidden _ _ _ D3) SW FA) as (m1' & K1' & FB & _ & _ & _ & _ & R1 & R2 & [KC1 _] & [KC2 _] & _).
  unfold cost_of. rewrite FB. cbn [bind]. unfold net_computecost in CA |- *. rewrite KC1 in CA. rewrite KC2, K3. exact CA.
Qed.

Lemma derive_pos_inc (f : R -> R) d : is_derive f 0%R d -> (0 < d)%R -> exists e, (0 < e)%R /\ forall t, (0 < t < e)%R -> (f 0 < f t)%R.
Proof.
  intros Hf Hd. destruct (derive_neg_dec (fun t => - f t)%R (- d)%R) as (e & He & Hall); [|lra|].
  - apply (is_derive_opp (K := R_AbsRing) (V := R_NormedModule)). exact Hf.
  - exists e. split; [assumption|]. intros t Ht. specialize (Hall t Ht). cbn beta in Hall. lra.
Qed.

Definition frob (l : rlayer) : R := sumN (nr (l_W l)) (fun i => sumN (nc (l_W l)) (fun j => at_ (l_grad l) i j * at_ (l_grad l) i j)%R).
Lemma gdir_opp (l : rlayer) : nr (l_grad l) = nr (l_W l) -> nc (l_grad l) = nc (l_W l) -> l_lambda l = 0%R -> gdir l (oppm (l_grad l)) = (- frob l)%R.
Proof.
  intros E1 E2 E3. unfold gdir, frob. rewrite <- sumN_opp. apply sumN_ext. intros i Hi. rewrite <- sumN_opp. apply sumN_ext. intros j Hj.
  unfold oppm. rewrite at_mk by congruence. rewrite E3. cbn. ring.
Qed.

(** A training step with the Kullback-Leibler output INCREASES the cost: whatever the learning rate, as long as it
    is small enough, and some stored gradient entry is not zero (no regularisation). *)
Theorem C30_ascent : forall junk (t : trainer Rdt) (n : rnet) (H : rheap) (x y a : rmat) n1 H1 n2 H2 ls1 ls2,
  dense_hidden n H -> kl_net n -> unregularised n H -> positive y -> positive a ->
  net_forward (D := Rdt) junk n H x = Ok (a, n1, H1) -> net_backprop (D := Rdt) junk n1 H1 y = Ok (n2, H2) ->
  hidden_layers n1 H1 = Ok ls1 -> hidden_layers n2 H2 = Ok ls2 ->
  Forall smooth_at ls1 ->
  t_usedecay t = false \/ (t_iters t + 1)%Z <> t_step t ->
  (Exists steep ls2 \/ steep (o_l (n_output n2))) ->
  exists J0 eta0, cost_of junk n H x y = Ok J0 /\ (0 < eta0)%R /\
    forall eta, (0 < eta < eta0)%R -> exists J, cost_after junk t n H x y eta = Ok J /\ (J0 < J)%R.
Proof.
  intros junk t n H x y a n1 H1 n2 H2 ls1 k2 Hdh Hk Hu Hy Ha HF HB L1 L2 HS Ht Hst.
  destruct (dense_of_hidden n H Hdh) as (ls & L0 & Hdn).
  destruct (step_cost junk t n H x y a n1 H1 n2 H2 ls k2 Hdn HF HB L2 Ht) as [HD Hstep].
  set (Ds := map (fun l : rlayer => oppm (l_grad l)) k2) in *. set (Do := oppm (l_grad (o_l (n_output n2)))) in *.
  destruct (C30_gradient junk n H x y a n1 H1 n2 H2 ls ls1 k2 Ds Do Hdh Hk Hy Ha HF HB L0 L1 L2 HS HD) as (C & C1 & C2 & C3).
  destruct (pass_dense junk n H ls x y a n1 H1 n2 H2 Hdn HF HB) as (b & k1 & delta & k2' & dx & P1 & P2 & P3 & P4 & P5 & P6 & P7 & P8 & P9 & P10 & P11 & P12 & P13).
  pose proof (eq_trans (eq_sym L2) (hidden_layers_dense n2 H2 k2' (proj2 P9))) as Q. injection Q as <-.
  pose proof (passes_form _ _ _ _ P1 _ _ _ P7) as PF. destruct Hu as [U1 U2]. specialize (U2 _ L0).
  assert (Go : gdir (o_l (n_output n2)) Do = (- frob (o_l (n_output n2)))%R).
  { unfold Do. rewrite P10. apply gdir_opp; destruct P2 as (F1 & F2 & F3); cbn; try lia. exact U1. }
  assert (Gh : gdirs k2 Ds = (- sumL (map frob k2))%R).
  { unfold gdirs, Ds. clear -PF U2. revert U2. induction PF as [|l l2 us vs (R & A & E & _) PF IH]; intros U2; [cbn; lra|]. inversion U2; subst. destruct R as (R1 & R2 & _).
    cbn [map combine fst snd]. unfold sumL in *. cbn [fold_right]. rewrite IH by assumption. rewrite gdir_opp; [lra|congruence|congruence|congruence]. }
  rewrite Go, Gh in C3.
  assert (N0 : forall k, (0 <= sumL (map frob k))%R). { clear. induction k as [|l k IH]; [cbn; lra|]. cbn [map]. unfold sumL in *. cbn [fold_right]. pose proof (sq_nonneg l) as N. fold (frob l) in N. lra. }
  pose proof (sq_nonneg (o_l (n_output n2))) as No. fold (frob (o_l (n_output n2))) in No. pose proof (N0 k2) as Nk.
  destruct (derive_pos_inc C _ C3) as (e & He & Hinc).
  { destruct Hst as [Hst|Hst].
    - assert (0 < sumL (map frob k2))%R; [|lra]. clear -Hst N0. induction Hst as [l k Hl|l k Hk IH]; cbn [map]; unfold sumL in *; cbn [fold_right].
      + pose proof (sq_pos l Hl) as N. fold (frob l) in N. specialize (N0 k). lra.
      + pose proof (sq_nonneg l) as N. fold (frob l) in N. lra.
    - pose proof (sq_pos _ Hst) as N. fold (frob (o_l (n_output n2))) in N. lra. }
  exists (C 0%R), e. split; [|split; [assumption|]].
  - unfold cost_of. rewrite HF. cbn [bind]. unfold net_computecost in *. rewrite P13. exact C2.
  - intros eta Heta. exists (C eta). split; [apply Hstep, C1|now apply Hinc].
Qed.

(** The hypotheses can be met: 1 input, 2 sigmoid units, output weights (1,0,0), so the output is 1; label 2. *)
Definition exk : rnet := N (D := Rdt) mempty kl_cost kl_costd (dl identity mempty) [0] (O (dl identity (rm 3 1 [1; 0; 0]%R)) kl_cost kl_costd mempty).
Definition exky : rmat := rm 1 1 [2]%R.
Lemma exk_ok junk : exists a n1 H1 n2 H2 ls1 ls2, dense_hidden exk exdH /\ kl_net exk /\ unregularised exk exdH /\ positive exky /\ positive a /\
  net_forward (D := Rdt) junk exk exdH exdx = Ok (a, n1, H1) /\ net_backprop (D := Rdt) junk n1 H1 exky = Ok (n2, H2) /\
  hidden_layers n1 H1 = Ok ls1 /\ hidden_layers n2 H2 = Ok ls2 /\ Forall smooth_at ls1 /\ steep (o_l (n_output n2)).
Proof.
  set (hl := dl sigmoid (rm 2 2 [1; 2; 1; -1]%R)).
  assert (Hdn : dense_net exk exdH [hl]). { split; [repeat constructor; intros []|]. constructor; [reflexivity|constructor]. }
  assert (Hf : fits_net exk exdH [hl] 1 1). { split; [exact Hdn|]. exists 2. cbn. repeat split; try lia. apply kl_sized. }
  destruct (forward_backward_ok junk exk exdH [hl] 1 1 exdx exky Hf) as (a & n1 & H1 & n2 & H2 & ls2 & A1 & A2 & A3 & A4 & A5 & A6 & A7); try (cbn; lia); try reflexivity.
  destruct (pass_dense junk exk exdH [hl] exdx exky a n1 H1 n2 H2 Hdn A1 A4) as (b & ls1 & delta & ls2' & dx & P1 & P2 & P3 & P4 & P5 & P6 & P7 & P8 & P9 & P10 & P11).
  assert (R0 : nr delta = 1). { rewrite P5. cbn [lforward] in P1. apply bind_ok in P1 as ([b1 l1] & P1a & P1). injection P1 as -> <-. apply forward_inv in P1a as (_ & -> & _). reflexivity. }
  assert (Rb : nr b = 1) by congruence. assert (Cb : nc b = 2) by (destruct P2 as (_ & _ & F3); cbn in F3; lia).
  assert (Ea : at_ a 0 0 = 1%R).
  { rewrite P3. unfold fwd_out. rewrite at_mk by (cbn; lia). rewrite pre_R by (rewrite Rb; lia). cbn [exk n_output o_l dl l_W l_act act identity initactfunc].
    rewrite (sumN_zero (nc _)); [|intros k Hk; rewrite Cb in Hk; destruct k as [|[|k]]; [cbn|cbn|lia]; ring]. cbn. unfold f_identity. cbn. lra. }
  exists a, n1, H1, n2, H2, ls1, ls2. split; [eapply dense_net_hidden, Hdn|]. split; [repeat split|].
  split. { split; [reflexivity|]. intros ls L. pose proof (eq_trans (eq_sym L) (hidden_layers_dense exk exdH [hl] (proj2 Hdn))) as Q. injection Q as ->. repeat constructor. }
  split. { intros i j Hi Hj. cbn in Hi, Hj. replace i with 0 by lia. replace j with 0 by lia. cbn. lra. }
  split. { intros i j Hi Hj. rewrite P3 in Hi, Hj. cbn in Hi, Hj. rewrite Rb in Hi. replace i with 0 by lia. replace j with 0 by lia. rewrite Ea. lra. }
  split; [assumption|]. split; [assumption|]. split; [apply hidden_layers_dense, P8|]. split; [apply hidden_layers_dense, A5|].
  split. { eapply smooth_layers; [|exact P1]. constructor; [|constructor]. apply seven_smooth. cbn. auto. }
  rewrite P10. exists 0, 0. cbn [back_layer l_W fwd_layer l_grad exk n_output o_l dl rm nr nc]. split; [lia|]. split; [lia|].
  assert (Ed : at_ delta 0 0 = 2%R).
  { cbn [exk n_output o_costd] in P4. unfold kl_costd, mdiv in P4. rewrite mzip_ok in P4 by (rewrite P3; cbn; lia). cbn [bind] in P4. injection P4 as <-.
    unfold divs. rewrite at_mmap by (cbn; lia). rewrite at_mk by (cbn; lia). rewrite Ea. cbn. field. }
  unfold grad_of. rewrite at_mk by (try rewrite P6; cbn; lia). unfold raw_grad. rewrite at_mk by (try rewrite P6; cbn; lia). rewrite mdot_R. cbn [mt nc mk l_pa fwd_layer nr rm]. rewrite Rb.
  rewrite sumN_S, sumN_0, Ed. unfold mt. rewrite at_mk by (cbn; lia). cbn [l_pa fwd_layer]. rewrite at_mk by (cbn; lia).
  cbn. lra.
Qed.

(** ** C31 *)

(** The cost of the output layer alone, with weights W: forwardprop, then the cost function, summed. *)
Definition out_cost (o : output Rdt) (W x y : rmat) : res R :=
  '(a, _) <- forwardprop (D := Rdt) (set_W (o_l o) W) x ;; J <- o_cost o y a ;; Ok (sumall J).
(** [act] has derivative [actd] at every cached pre-activation. *)
Definition act_smooth (o : output Rdt) : Prop := smooth_at (o_l o).

(** A LayerParam's activation, rates and sizes are kept, and the cost functions are the built-in ones of the class. *)
Theorem C31_param : forall (draw : R -> nat -> R) junk p o,
  let built cost costd := l_act (o_l o) = lp_act p /\ o_cost o = cost /\ o_costd o = costd /\ l_lrate (o_l o) = lp_lrate p /\ l_lambda (o_l o) = lp_lambda p /\
    Z.of_nat (nr (l_W (o_l o))) = (lp_prev p + 1)%Z /\ Z.of_nat (nc (l_W (o_l o))) = lp_nodes p in
  (quadratic_output_param (D := Rdt) draw junk p = Ok o -> built quad_cost quad_costd) /\
  (crossentropy_output_param (D := Rdt) draw junk p = Ok o -> built ce_cost ce_costd) /\
  (kl_output_param (D := Rdt) draw junk p = Ok o -> built kl_cost kl_costd) /\
  (softmax_output_param (D := Rdt) draw junk p = Ok o -> built sm_cost sm_costd).
Proof.
  intros draw junk p o built. unfold built. (split; [|split; [|split]]); unfold quadratic_output_param, crossentropy_output_param, kl_output_param, softmax_output_param, output_of, layer_of_param, layer_new; (destruct (_ && _) eqn:G; cbn; intros E; [|discriminate]); apply andb_prop in G as [G1 G2]; apply Z.leb_le in G1, G2; injection E as <-; cbn; (repeat (split; [reflexivity|])); split; lia.
Qed.

(** The other constructors of the classes: cross entropy answers through the sigmoid, the other three through the identity; rates, sizes and cost functions are
    those of the arguments and of the class, and the weights are what randominit of the given deviation makes of a matrix of that size. *)
Theorem C31_classes : forall (draw : R -> nat -> R) junk (pn n : Z) (lrate stddev lambda : R) (o : output Rdt),
  let built f cost costd := l_act (o_l o) = f /\ o_cost o = cost /\ o_costd o = costd /\ l_lrate (o_l o) = lrate /\ l_lambda (o_l o) = lambda /\
    Z.of_nat (nr (l_W (o_l o))) = (pn + 1)%Z /\ Z.of_nat (nc (l_W (o_l o))) = n /\
    (forall V : mat Rdt, Z.of_nat (nr V) = (pn + 1)%Z -> Z.of_nat (nc V) = n -> l_W (o_l o) = randominit_w (D := Rdt) draw stddev V) in
  (quadratic_output (D := Rdt) draw junk pn n lrate stddev lambda = Ok o -> built identity quad_cost quad_costd) /\
  (crossentropy_output (D := Rdt) draw junk pn n lrate stddev lambda = Ok o -> built sigmoid ce_cost ce_costd) /\
  (kl_output (D := Rdt) draw junk pn n lrate stddev lambda = Ok o -> built identity kl_cost kl_costd) /\
  (softmax_output (D := Rdt) draw junk pn n lrate stddev lambda = Ok o -> built identity sm_cost sm_costd).
Proof.
  intros draw junk pn n lrate stddev lambda o built. unfold built. (split; [|split; [|split]]); unfold quadratic_output, crossentropy_output, kl_output, softmax_output, output_of, layer_new; (destruct (_ && _) eqn:G; cbn [bind]; intros E; [|discriminate]); apply andb_prop in G as [G1 G2]; apply Z.leb_le in G1, G2; injection E as <-; cbn [o_l o_cost o_costd randominit set_W l_act l_lrate l_lambda l_W]; (repeat (split; [reflexivity|]));
  (split; [cbn; lia|]); (split; [cbn; lia|]); intros V E1 E2; unfold randominit_w; cbn [mat_uninit nr nc mk]; replace (nr V) with (Z.to_nat (pn + 1)) by lia; replace (nc V) with (Z.to_nat n) by lia; reflexivity.
Qed.

Lemma pre_bump (W x : rmat) p q t i j : nc x + 1 = nr W -> i < nr x -> j < nc W -> p < nr W ->
  pre (bump W p q t) x i j = (pre W x i j + if j =? q then t * with_bias x i p else 0)%R.
Proof.
  intros HW Hi Hj Hp. unfold pre. rewrite !mdot_R. cbn [nc mk]. destruct (Nat.eqb_spec j q) as [->|Hq].
  - transitivity (sumN (nc x + 1) (fun k => at_ (mk (D := Rdt) (nr x) (nc x + 1) (with_bias x)) i k * at_ W k q + (if k =? p then t * with_bias x i p else 0))%R).
    + apply sumN_ext. intros k Hk. unfold bump. rewrite !at_mk by lia. rewrite Nat.eqb_refl, andb_true_r.
      destruct (Nat.eqb_spec k p) as [->|]; toR; lra.
    + rewrite sumN_plus. f_equal. rewrite (sumN_single _ _ p) by first [lia | intros k Hk Hkp; destruct (Nat.eqb_spec k p); [lia|reflexivity]]. now rewrite Nat.eqb_refl.
  - toR. rewrite Rplus_0_r. apply sumN_ext. intros k Hk. unfold bump. rewrite !at_mk by lia. destruct (Nat.eqb_spec j q); [lia|]. now rewrite andb_false_r.
Qed.

Lemma d_q1 (m yv h : R) : m <> 0%R -> is_derive (fun h => (yv - h) * (yv - h) / 2 / m)%R h ((h - yv) / m)%R.
Proof. intros Hm. auto_derive; [exact I|]. field. exact Hm. Qed.
Lemma d_c1 (m yv h : R) : m <> 0%R -> (0 < h < 1)%R -> is_derive (fun h => - (yv * ln h + (1 - yv) * ln (1 - h)) / m)%R h ((h - yv) / m / (h * (1 - h)))%R.
Proof. intros Hm Hh. auto_derive; [repeat split; lra|]. field. repeat split; lra. Qed.
Lemma bump_cost (o : output Rdt) (x y : rmat) (G : R -> R -> R -> R) (dG : nat -> R) p q :
  let l := o_l o in
  (forall r c (h : nat -> nat -> R), nr y = r -> nc y = c -> o_cost o y (mk (D := Rdt) r c h) = Ok (mk (D := Rdt) r c (fun i j => G (INR r) (at_ y i j) (h i j)))) ->
  fwd_ok (l_W l) x -> nr y = nr x -> nc y = nc (l_W l) -> p < nr (l_W l) -> q < nc (l_W l) ->
  (forall i, i < nr x -> is_derive (G (INR (nr x)) (at_ y i q)) (act (l_act l) (pre (l_W l) x i q)) (dG i)) ->
  (forall i, i < nr x -> is_derive (act (l_act l) : R -> R) (pre (l_W l) x i q) (actd (l_act l) (pre (l_W l) x i q))) ->
  exists C : R -> R, (forall t, out_cost o (bump (l_W l) p q t) x y = Ok (C t)) /\
    is_derive C 0%R (sumN (nr x) (fun i => with_bias x i p * dG i * actd (l_act l) (pre (l_W l) x i q))%R).
Proof.
  intros l HG (F1 & F2 & F3) Y1 Y2 Hp Hq HdG HS.
  set (g := fun (t : R) i j => G (INR (nr x)) (at_ y i j) (act (l_act l) (pre (bump (l_W l) p q t) x i j))).
  exists (fun t => sumN (nr x) (fun i => sumN (nc (l_W l)) (g t i)))%R. split.
  - intros t. unfold out_cost. fold l. rewrite forward_ok by (repeat split; cbn; lia). cbn [bind]. unfold fwd_out. cbn [set_W l_W l_act bump nr nc mk].
    rewrite HG by auto. cbn [bind]. unfold sumall. rewrite accu_mk, sumN_swap. reflexivity.
  - evar_last.
    + apply (d_sumN (nr x) (fun t i => sumN (nc (l_W l)) (g t i)) 0%R (fun i => sumN (nc (l_W l)) (fun j => if j =? q then with_bias x i p * dG i * actd (l_act l) (pre (l_W l) x i q) else 0)%R)).
      intros i Hi. apply (d_sumN (nc (l_W l)) (fun t j => g t i j)). intros j Hj. unfold g.
      destruct (Nat.eqb_spec j q) as [->|Hjq].
      * assert (E0 : (pre (l_W l) x i q + 0 * with_bias x i p)%R = pre (l_W l) x i q) by (toR; lra).
        apply (is_derive_ext (fun t => G (INR (nr x)) (at_ y i q) (act (l_act l) (pre (l_W l) x i q + t * with_bias x i p)%R))).
        { intros t. rewrite pre_bump by lia. rewrite Nat.eqb_refl. reflexivity. }
        evar_last.
        { apply (is_derive_comp (G (INR (nr x)) (at_ y i q)) (fun t => act (l_act l) (pre (l_W l) x i q + t * with_bias x i p)%R : R)).
          - rewrite E0. apply HdG, Hi.
          - apply (is_derive_comp (act (l_act l) : R -> R) (fun t => pre (l_W l) x i q + t * with_bias x i p)%R).
            + rewrite E0. apply HS, Hi.
            + instantiate (1 := with_bias x i p). auto_derive; [exact I|toR; ring]. }
        unfold scal; cbn. unfold mult; cbn. toR. ring.
      * apply (is_derive_ext (fun _ => G (INR (nr x)) (at_ y i j) (act (l_act l) (pre (l_W l) x i j)))).
        { intros t. rewrite pre_bump by lia. destruct (Nat.eqb_spec j q); [lia|]. toR. now rewrite Rplus_0_r. }
        apply (is_derive_const (K := R_AbsRing) (V := R_NormedModule)).
    + apply sumN_ext. intros i Hi. rewrite (sumN_single _ _ q Hq) by (intros j Hj Hn; destruct (Nat.eqb_spec j q); [lia|reflexivity]). rewrite Nat.eqb_refl. reflexivity.
Qed.

(** The stored gradient, minus lambda*W, whatever the activation. *)
Lemma stored (o : output Rdt) (x y a r : rmat) o1 o2 p q :
  o_costd o = quad_costd \/ o_costd o = ce_costd ->
  output_forward o x = Ok (a, o1) -> output_backprop o1 y = Ok (r, o2) ->
  p < nr (l_W (o_l o)) -> q < nc (l_W (o_l o)) ->
  nr y = nr x /\ nc y = nc (l_W (o_l o)) /\
  (at_ (l_grad (o_l o2)) p q - l_lambda (o_l o) * at_ (l_W (o_l o)) p q =
     sumN (nr x) (fun i => with_bias x i p * ((at_ a i q - at_ y i q) / INR (nr y))))%R.
Proof.
  intros Ed HF HB Hp Hq. apply out_forward_inv in HF as ((F1 & F2 & F3) & -> & ->).
  apply out_backprop_inv in HB as (delta & B1 & B2 & B3 & B4 & B5 & _ & ->). cbn [o_l o_costd o_cost fwd_layer l_pa l_z l_a l_W nr nc mk] in *. set (l := o_l o) in *.
  assert (Eq : quad_costd y (fwd_out l x) (mk (nr x) (nc (l_W l)) (pre (l_W l) x)) = Ok delta) by (destruct Ed as [E|E]; rewrite E in B1; exact B1). clear B1.
  pose proof Eq as B1'. unfold quad_costd in B1'. apply bind_ok in B1' as (m & M & _). apply mzip_dims in M as (M1 & M2 & _). cbn in M1, M2.
  split; [auto|]. split; [auto|]. unfold fwd_out in Eq. rewrite quad_costd_mk in Eq by auto. injection Eq as <-.
  cbn [l_grad back_layer]. unfold grad_of. cbn [fwd_layer l_pa nc mk l_lambda l_W]. rewrite at_mk by lia. rewrite (at_raw _ _ x) by (cbn; auto; lia).
  cbn [dadd dmul Rdt]. toR. match goal with |- (?u + ?v - ?w = _)%R => replace (u + v - w)%R with u by lra end. apply sumN_ext. intros i Hi. unfold fwd_out. rewrite !at_mk by (cbn; lia). rewrite M1. reflexivity.
Qed.

(** What the derivative of the cost with respect to output weight (p,q) is: delta has to be multiplied by [actd] at
    the pre-activation; what is stored: the same sum without that factor. *)
Theorem C31_quadratic : forall (o : output Rdt) (x y a r : rmat) o1 o2 p q,
  o_cost o = quad_cost -> o_costd o = quad_costd ->
  output_forward o x = Ok (a, o1) -> output_backprop o1 y = Ok (r, o2) -> act_smooth o1 ->
  p < nr (l_W (o_l o)) -> q < nc (l_W (o_l o)) ->
  (exists C : R -> R, (forall t, out_cost o (bump (l_W (o_l o)) p q t) x y = Ok (C t)) /\
    is_derive C 0%R (sumN (nr x) (fun i => with_bias x i p * ((at_ a i q - at_ y i q) / INR (nr y)) * actd (l_act (o_l o)) (at_ (l_z (o_l o1)) i q))%R)) /\
  (at_ (l_grad (o_l o2)) p q - l_lambda (o_l o) * at_ (l_W (o_l o)) p q =
     sumN (nr x) (fun i => with_bias x i p * ((at_ a i q - at_ y i q) / INR (nr y))))%R.
Proof.
  intros o x y a r o1 o2 p q Ec Ed HF HB HS Hp Hq. destruct (stored o x y a r o1 o2 p q (or_introl Ed) HF HB Hp Hq) as (Y1 & Y2 & St). split; [|exact St].
  apply out_forward_inv in HF as (Fk & -> & ->). pose proof Fk as (F1 & F2 & F3). unfold act_smooth, smooth_at in HS. cbn [o_l fwd_layer l_z nr nc mk l_act] in *. set (l := o_l o) in *.
  destruct (bump_cost o x y (fun m yv h => (yv - h) * (yv - h) / 2 / m)%R (fun i => (at_ (fwd_out l x) i q - at_ y i q) / INR (nr y))%R p q) as (C & C1 & C2); auto.
  - intros rr c h E1 E2. rewrite Ec. now apply quad_cost_mk.
  - intros i Hi. unfold fwd_out. rewrite at_mk by assumption. rewrite Y1. apply d_q1. apply not_0_INR; lia.
  - intros i Hi. specialize (HS i q Hi Hq). rewrite at_mk in HS by assumption. exact HS.
  - exists C. split; [exact C1|]. evar_last; [exact C2|]. apply sumN_ext. intros i Hi. rewrite (at_mk _ _ (pre (l_W l) x)) by assumption. reflexivity.
Qed.
Theorem C31_crossentropy : forall (o : output Rdt) (x y a r : rmat) o1 o2 p q,
  o_cost o = ce_cost -> o_costd o = ce_costd ->
  output_forward o x = Ok (a, o1) -> output_backprop o1 y = Ok (r, o2) -> act_smooth o1 ->
  (forall i, i < nr a -> (0 < at_ a i q < 1)%R) ->
  p < nr (l_W (o_l o)) -> q < nc (l_W (o_l o)) ->
  (exists C : R -> R, (forall t, out_cost o (bump (l_W (o_l o)) p q t) x y = Ok (C t)) /\
    is_derive C 0%R (sumN (nr x) (fun i => with_bias x i p * ((at_ a i q - at_ y i q) / INR (nr y) / (at_ a i q * (1 - at_ a i q))) * actd (l_act (o_l o)) (at_ (l_z (o_l o1)) i q))%R)) /\
  (at_ (l_grad (o_l o2)) p q - l_lambda (o_l o) * at_ (l_W (o_l o)) p q =
     sumN (nr x) (fun i => with_bias x i p * ((at_ a i q - at_ y i q) / INR (nr y))))%R.
Proof.
  intros o x y a r o1 o2 p q Ec Ed HF HB HS Ha Hp Hq. destruct (stored o x y a r o1 o2 p q (or_intror Ed) HF HB Hp Hq) as (Y1 & Y2 & St). split; [|exact St].
  apply out_forward_inv in HF as (Fk & -> & ->). pose proof Fk as (F1 & F2 & F3). unfold act_smooth, smooth_at in HS. cbn [o_l fwd_layer l_z nr nc mk l_act] in *. set (l := o_l o) in *.
  destruct (bump_cost o x y (fun m yv h => - (yv * ln h + (1 - yv) * ln (1 - h)) / m)%R (fun i => (at_ (fwd_out l x) i q - at_ y i q) / INR (nr y) / (at_ (fwd_out l x) i q * (1 - at_ (fwd_out l x) i q)))%R p q) as (C & C1 & C2); auto.
  - intros rr c h E1 E2. rewrite Ec. now apply ce_cost_mk.
  - intros i Hi. specialize (Ha i Hi). unfold fwd_out in Ha |- *. rewrite at_mk in Ha by assumption. rewrite at_mk by assumption. rewrite Y1. apply d_c1; [apply not_0_INR; lia|exact Ha].
  - intros i Hi. specialize (HS i q Hi Hq). rewrite at_mk in HS by assumption. exact HS.
  - exists C. split; [exact C1|]. evar_last; [exact C2|]. apply sumN_ext. intros i Hi. rewrite (at_mk _ _ (pre (l_W l) x)) by assumption. reflexivity.
Qed.

Lemma w1 (g s : R) : g <> 0%R -> (g * (s * (1 - s)))%R <> g.
Proof.
  intros Hg E. assert (Q : (g * (s * (1 - s) - 1) = 0)%R) by lra. apply Rmult_integral in Q as [Q|Q]; [contradiction|].
  pose proof (Rle_0_sqr (s - /2)) as P. unfold Rsqr in P. lra.
Qed.
Lemma w2 (g b : R) : g <> 0%R -> (0 < b < 1)%R -> (g / (b * (1 - b)))%R <> g.
Proof.
  intros Hg Hb E. assert (0 < b * (1 - b))%R by (apply Rmult_lt_0_compat; lra). apply (w1 g b Hg). rewrite <- E at 1. field. lra.
Qed.
(** One sample: a QuadraticOutput with the sigmoid stores at least four times the true derivative, a
    CrossEntropyOutput with the identity at most a quarter of it - never the derivative itself, unless both are 0. *)
Theorem C31_wrong : forall (o : output Rdt) (x y a r : rmat) o1 o2 p q,
  output_forward o x = Ok (a, o1) -> output_backprop o1 y = Ok (r, o2) -> nr x = 1 ->
  p < nr (l_W (o_l o)) -> q < nc (l_W (o_l o)) ->
  (at_ (l_grad (o_l o2)) p q - l_lambda (o_l o) * at_ (l_W (o_l o)) p q <> 0)%R ->
  (o_cost o = quad_cost /\ o_costd o = quad_costd /\ l_act (o_l o) = sigmoid) \/
  (o_cost o = ce_cost /\ o_costd o = ce_costd /\ l_act (o_l o) = identity /\ (0 < at_ a 0 q < 1)%R) ->
  exists (C : R -> R) d, (forall t, out_cost o (bump (l_W (o_l o)) p q t) x y = Ok (C t)) /\ is_derive C 0%R d /\
    (d <> at_ (l_grad (o_l o2)) p q - l_lambda (o_l o) * at_ (l_W (o_l o)) p q)%R.
Proof.
  intros o x y a r o1 o2 p q HF HB Hx Hp Hq Hnz Hcase.
  assert (Ea : nr a = 1 /\ l_act (o_l o1) = l_act (o_l o) /\ nr (l_z (o_l o1)) = 1 /\ nc (l_z (o_l o1)) = nc (l_W (o_l o)) /\ at_ a 0 q = act (l_act (o_l o)) (at_ (l_z (o_l o1)) 0 q)).
  { apply out_forward_inv in HF as (_ & -> & ->). cbn [o_l fwd_layer l_act l_z fwd_out nr nc]. split; [exact Hx|]. split; [reflexivity|]. split; [exact Hx|]. split; [reflexivity|]. unfold fwd_out. rewrite !at_mk by (lia || assumption). reflexivity. }
  destruct Ea as (A1 & A2 & A3 & A4 & A5). set (z := at_ (l_z (o_l o1)) 0 q) in *.
  destruct Hcase as [(Ec & Ed & Ef)|(Ec & Ed & Ef & Ha)].
  - destruct (C31_quadratic o x y a r o1 o2 p q Ec Ed HF HB) as ((C & C1 & C2) & S); auto.
    { intros i j _ _. rewrite A2, Ef. apply C22_smooth. }
    rewrite Hx in C2, S. rewrite sumN_S, sumN_0, Rplus_0_r in C2, S. fold z in C2. exists C. eexists. split; [exact C1|]. split; [exact C2|].
    rewrite S in Hnz |- *. rewrite Ef. pose proof (sig_grad z) as SG. unfold F', F in SG. rewrite SG. apply w1. exact Hnz.
  - destruct (C31_crossentropy o x y a r o1 o2 p q Ec Ed HF HB) as ((C & C1 & C2) & S); auto.
    { intros i j _ _. rewrite A2, Ef. apply C22_smooth. }
    { intros i Hi. replace i with 0 by lia. exact Ha. }
    rewrite Hx in C2, S. rewrite sumN_S, sumN_0, Rplus_0_r in C2, S. exists C. eexists. split; [exact C1|]. split; [exact C2|].
    rewrite S in Hnz |- *. rewrite Ef. intros E. apply (w2 _ _ Hnz Ha). rewrite <- E at 2. cbn. unfold f_identitygrad. cbn. unfold Rdiv. ring.
Qed.

(** The hypotheses can be met. *)
Definition exo : output Rdt := O (dl sigmoid (rm 2 1 [0; 0]%R)) quad_cost quad_costd mempty.
Lemma exo_ok : exists a o1 r o2, output_forward exo exdx = Ok (a, o1) /\ output_backprop o1 exdy = Ok (r, o2) /\
  (at_ (l_grad (o_l o2)) 0 0 - l_lambda (o_l exo) * at_ (l_W (o_l exo)) 0 0 <> 0)%R.
Proof.
  assert (HF : output_forward exo exdx = Ok (fwd_out (o_l exo) exdx, O (fwd_layer (o_l exo) exdx) quad_cost quad_costd mempty)) by (apply (out_forward_ok exo exdx); repeat split; cbn; lia).
  assert (HB : exists r o2, output_backprop (O (fwd_layer (o_l exo) exdx) quad_cost quad_costd mempty) exdy = Ok (r, o2)).
  { eexists _, _. apply out_backprop_ok; cbn [o_l o_costd fwd_layer l_a l_z l_pa l_W]; [unfold fwd_out; apply quad_costd_mk; reflexivity|reflexivity|reflexivity|reflexivity|cbn; lia]. }
  destruct HB as (r & o2 & HB). eexists _, _, r, o2. split; [exact HF|]. split; [exact HB|].
  destruct (stored exo exdx exdy _ r _ o2 0 0 (or_introl eq_refl) HF HB) as (_ & _ & S); [cbn; lia|cbn; lia|]. rewrite S. cbn [nr exdx rm].
  rewrite sumN_S, sumN_0, Rplus_0_r. unfold fwd_out. rewrite at_mk by (cbn; lia). rewrite pre_R by (cbn; lia). cbn [nc exdx rm sumN seq map sumL fold_right].
  cbn [exo o_l dl l_act act sigmoid initactfunc]. unfold f_sigmoid, lit. cbn. replace (- (0 + (1 * 0 + 0)))%R with 0%R by lra. rewrite exp_0. lra.
Qed.
Print Assumptions C30_ascent. Print Assumptions C31_wrong.

(** P_Descent.v - C32: a small gradient step decreases the objective; instances of C29. *)
From Coq Require Import Reals Lra.
From Coquelicot Require Import Coquelicot.
From Verif Require Import Base Mat Act Layer Conv Misc Net NetP RInst RMat P_Act Grad P_Grad Trainer TrainP TrainP2 P_Train FunEq P_Mom.
From Coq Require Import Arith.
Local Open Scope nat_scope.

(** ** Specification *)
(** computecost(forwardprop(x), y) plus lambda/2 times the squared weights of each hidden and output layer. *)
Definition objective (junk : nat -> R) (n : rnet) (H : rheap) (x y : rmat) : res R :=
  '(a, n', _) <- net_forward (D := Rdt) junk n H x ;;
  c <- net_computecost n' a y ;;
  ls <- hidden_layers n H ;;
  Ok (c + sumL (map (fun l : rlayer => l_lambda l / 2 * sqnorm (l_W l)) ls) + l_lambda (o_l (n_output n)) / 2 * sqnorm (l_W (o_l (n_output n))))%R.
(** setlrate(eta), then one feeddata(x, y) of the trainer [t], then the objective on (x, y). *)
Definition after_step (junk : nat -> R) (t : trainer Rdt) (n : rnet) (H : rheap) (x y : rmat) (eta : R) : res R :=
  '(n1, H1) <- net_setlrate (D := Rdt) n H eta ;;
  '(_, n2, H2) <- feeddata (D := Rdt) junk t n1 H1 x y ;;
  objective junk n2 H2 x y.
(** Some stored gradient entry is non-zero. *)
Definition steep (l : rlayer) : Prop := exists i j, i < nr (l_W l) /\ j < nc (l_W l) /\ at_ (l_grad l) i j <> 0%R.

(** ** Proof *)
Lemma derive_neg_dec (f : R -> R) d : is_derive f 0%R d -> (d < 0)%R -> exists e, (0 < e)%R /\ forall t, (0 < t < e)%R -> (f t < f 0)%R.
Proof.
  intros Hf Hd. apply is_derive_Reals in Hf. destruct (Hf (- d / 2)%R ltac:(lra)) as [e He]. exists e. split; [apply cond_pos|].
  intros t Ht. specialize (He t ltac:(lra)). rewrite Rabs_right in He by lra. specialize (He (proj2 Ht)). rewrite Rplus_0_l in He.
  apply Rabs_def2 in He as [He _]. assert ((f t - f 0) / t < 0)%R by lra.
  assert ((f t - f 0) = (f t - f 0) / t * t)%R by (field; lra). assert (f t - f 0 < 0)%R; [rewrite H0; nra|lra].
Qed.

Section Rates.
Context {D : dtype}.
Context (junk : nat -> D).
Notation layer := (layer D).
Lemma forward_relr r (l : layer) x : forwardprop (relr r l) x = ('(a, l') <- forwardprop l x ;; Ok (a, relr r l')).
Proof. unfold forwardprop. cbn. destruct (addcol x); cbn; try reflexivity. destruct (mmul a (l_W l)); reflexivity. Qed.
Lemma backprop_relr r (l : layer) d : backprop (relr r l) d = ('(a, l') <- backprop l d ;; Ok (a, relr r l')).
Proof.
  unfold backprop. cbn. destruct (mschur d _); cbn; try reflexivity. unfold reg_grad. cbn. destruct (mmul (mt (l_pa l)) a); cbn; try reflexivity.
  destruct (madd a0 _); cbn; try reflexivity. destruct (mmul a (mt (l_W l))); cbn; try reflexivity. destruct (submat _ _ _ _ _); reflexivity.
Qed.
Lemma lforward_relr r (ls : list layer) : forall x, lforward (map (relr r) ls) x = ('(a, ls') <- lforward ls x ;; Ok (a, map (relr r) ls')).
Proof.
  induction ls as [|l ls IH]; intros x; [reflexivity|]. cbn [map lforward]. rewrite forward_relr. destruct (forwardprop l x) as [[a l']| | |]; cbn [bind]; try reflexivity.
  rewrite IH. destruct (lforward ls a) as [[b ls']| | |]; reflexivity.
Qed.
Lemma lbackprop_relr r (ls : list layer) : forall d, lbackprop (map (relr r) ls) d = ('(a, ls') <- lbackprop ls d ;; Ok (a, map (relr r) ls')).
Proof.
  induction ls as [|l ls IH]; intros d; [reflexivity|]. cbn [map lbackprop]. rewrite IH. destruct (lbackprop ls d) as [[a ls']| | |]; cbn [bind]; try reflexivity.
  rewrite backprop_relr. destruct (backprop l a) as [[b l']| | |]; reflexivity.
Qed.

(** One step with all rates set to r. *)
Lemma step_rate n H ls x y a n1 H1 n2 H2 ls2 (r : D) : dense_net n H ls ->
  net_forward junk n H x = Ok (a, n1, H1) -> net_backprop junk n1 H1 y = Ok (n2, H2) -> dense_net n2 H2 ls2 ->
  exists n3 H3, train_step junk (setrate_net n r) (put_layers (n_hidden n) (map (relr r) ls) H) x y = Ok (n3, H3) /\
    dense_net n3 H3 (map (fun l => stepped (relr r l)) ls2) /\ o_l (n_output n3) = stepped (relr r (o_l (n_output n2))) /\ kc n n3.
Proof.
  intros Hdn HF HB Hdn2. destruct (pass_dense junk n H ls x y a n1 H1 n2 H2 Hdn HF HB) as (b & ls1 & delta & ls2' & dx & P1 & P2 & P3 & P4 & P5 & P6 & P7 & P8 & P9 & P10 & P11 & P12 & P13).
  assert (Els : ls2' = ls2).
  { pose proof (hidden_layers_dense n2 H2 ls2 (proj2 Hdn2)) as A. pose proof (hidden_layers_dense n2 H2 ls2' (proj2 P9)) as B. congruence. }
  subst ls2'. destruct (net_setlrate_dense n H ls r Hdn) as [_ Hr]. set (nr0 := setrate_net n r) in *. set (Hr0 := put_layers _ _ H) in *.
  assert (Q1 : exists m1 K1, net_forward junk nr0 Hr0 x = Ok (a, m1, K1) /\ dense_net m1 K1 (map (relr r) ls1) /\ n_output m1 = O (fwd_layer (relr r (o_l (n_output n))) b) (o_cost (n_output n)) (o_costd (n_output n)) (o_y (n_output n)) /\ kc n m1).
  { rewrite (net_forward_dense junk nr0 Hr0 (map (relr r) ls)) by exact Hr. rewrite lforward_relr, P1. cbn [bind]. rewrite out_forward_ok by exact P2. cbn [bind].
    do 2 eexists. split; [rewrite P3; reflexivity|]. split; [split; [apply Hdn|]|split; [reflexivity|split; reflexivity]].
    cbn. eapply (dense_put nr0); [exact Hr|]. rewrite !map_length. eapply lforward_len; eauto. }
  destruct Q1 as (m1 & K1 & Q1 & Q2 & Q3 & Q4).
  assert (Q5 : exists m2 K2, net_backprop junk m1 K1 y = Ok (m2, K2) /\ dense_net m2 K2 (map (relr r) ls2) /\ o_l (n_output m2) = relr r (o_l (n_output n2)) /\ kc m1 m2).
  { rewrite (net_backprop_dense junk m1 K1 (map (relr r) ls1)) by exact Q2. destruct P2 as (F1 & F2 & F3).
    rewrite out_backprop_ok with (delta := delta); [|rewrite Q3; cbn; rewrite P3 in P4; exact P4|rewrite Q3; cbn; lia|rewrite Q3; cbn; lia|rewrite Q3; cbn; lia|rewrite Q3; cbn; lia].
    cbn [bind]. rewrite Q3. cbn [o_l]. change (down (fwd_layer (relr r (o_l (n_output n))) b) delta) with (down (fwd_layer (o_l (n_output n)) b) delta).
    rewrite lbackprop_relr, P7. cbn [bind]. do 2 eexists. split; [reflexivity|]. split; [|split].
    - split; [apply Q2|]. cbn. eapply dense_put; [exact Q2|]. rewrite !map_length. eapply lbackprop_len; eauto.
    - cbn. rewrite P10. reflexivity.
    - split; [reflexivity|]. cbn. rewrite Q3. reflexivity. }
  destruct Q5 as (m2 & K2 & Q5 & Q6 & Q7 & Q8).
  unfold train_step. rewrite Q1. cbn [bind]. rewrite Q5. cbn [bind].
  pose proof (passes_form _ _ _ _ P1 _ _ _ P7) as PF.
  assert (G : Forall gsized (map (relr r) ls2)).
  { clear -PF. induction PF as [|l l2 us vs (R & A & _) PF IH]; cbn; constructor; auto. destruct R as (R1 & R2 & _). split; cbn; congruence. }
  assert (Go : gsized (o_l (n_output m2))).
  { rewrite Q7, P10. destruct P2 as (F1 & F2 & F3). split; cbn; lia. }
  rewrite (net_update_ok m2 K2 (map (relr r) ls2)) by assumption. do 2 eexists. split; [reflexivity|]. split; [|split].
  - split; [apply Q6|]. cbn [set_output n_hidden]. rewrite <- (map_map (relr r) (fun l : layer => stepped l)). eapply dense_put; [exact Q6|]. apply map_length.
  - cbn. now rewrite Q7.
  - eapply kc_trans; [exact Q4|]. eapply kc_trans; [exact Q8|]. split; reflexivity.
Qed.
End Rates.

Definition oppm (g : rmat) : rmat := mk (D := Rdt) (nr g) (nc g) (fun i j => - at_ g i j)%R.
Lemma stepped_line (l : rlayer) r : nr (l_grad l) = nr (l_W l) -> nc (l_grad l) = nc (l_W l) -> l_W (stepped (relr r l)) = line r (l_W l) (oppm (l_grad l)).
Proof.
  intros E1 E2. unfold stepped, line. cbn [l_W set_W relr set_lrate l_lrate l_grad]. apply (mk_ext (nr (l_W l)) (nc (l_W l))). intros i j Hi Hj.
  unfold oppm. rewrite at_mk by congruence. cbn [dsub dmul Rdt]. toR. ring.
Qed.
Lemma fulldir_opp (l : rlayer) : nr (l_grad l) = nr (l_W l) -> nc (l_grad l) = nc (l_W l) ->
  fulldir l (oppm (l_grad l)) = (- sumN (nr (l_W l)) (fun i => sumN (nc (l_W l)) (fun j => at_ (l_grad l) i j * at_ (l_grad l) i j)))%R.
Proof.
  intros E1 E2. unfold fulldir. rewrite <- sumN_opp. apply sumN_ext. intros i Hi. rewrite <- sumN_opp. apply sumN_ext. intros j Hj. unfold oppm. rewrite at_mk by congruence. cbn. ring.
Qed.
Lemma sq_nonneg (l : rlayer) : (0 <= sumN (nr (l_W l)) (fun i => sumN (nc (l_W l)) (fun j => at_ (l_grad l) i j * at_ (l_grad l) i j)))%R.
Proof. apply sumN_nonneg. intros i Hi. apply sumN_nonneg. intros j Hj. apply Rle_0_sqr. Qed.
Lemma sq_pos (l : rlayer) : steep l -> (0 < sumN (nr (l_W l)) (fun i => sumN (nc (l_W l)) (fun j => at_ (l_grad l) i j * at_ (l_grad l) i j)))%R.
Proof.
  intros (i & j & Hi & Hj & Hg). destruct (Rle_lt_or_eq_dec _ _ (sq_nonneg l)) as [P|E]; [exact P|]. exfalso.
  symmetry in E. assert (E1 := sumN_nonneg_0 _ _ (fun i _ => sumN_nonneg _ _ (fun j _ => Rle_0_sqr (at_ (l_grad l) i j))) E i Hi).
  assert (E2 := sumN_nonneg_0 _ _ (fun j _ => Rle_0_sqr (at_ (l_grad l) i j)) E1 j Hj). apply Rmult_integral in E2. tauto.
Qed.

Theorem C32_objective : forall junk (t : trainer Rdt) (n : rnet) (H : rheap) (x y a : rmat) n1 H1 n2 H2 ls1 ls2,
  dense_hidden n H -> built_in n y ->
  net_forward (D := Rdt) junk n H x = Ok (a, n1, H1) -> net_backprop (D := Rdt) junk n1 H1 y = Ok (n2, H2) ->
  hidden_layers n1 H1 = Ok ls1 -> hidden_layers n2 H2 = Ok ls2 ->
  Forall smooth_at ls1 ->
  t_usedecay t = false \/ (t_iters t + 1)%Z <> t_step t ->
  (Exists steep ls2 \/ steep (o_l (n_output n2))) ->
  exists J0 eta0, objective junk n H x y = Ok J0 /\ (0 < eta0)%R /\
    forall eta, (0 < eta < eta0)%R -> exists J, after_step junk t n H x y eta = Ok J /\ (J < J0)%R.
Proof.
  intros junk t n H x y a n1 H1 n2 H2 ls1 ls2 Hdh Hb HF HB L1 L2 HS Ht Hst.
  destruct (dense_of_hidden n H Hdh) as (ls & L0 & Hdn).
  destruct (pass_dense junk n H ls x y a n1 H1 n2 H2 Hdn HF HB) as (b & k1 & delta & k2 & dx & P1 & P2 & P3 & P4 & P5 & P6 & P7 & P8 & P9 & P10 & P11 & P12 & P13).
  pose proof (eq_trans (eq_sym L2) (hidden_layers_dense n2 H2 k2 (proj2 P9))) as Q. injection Q as ->.
  pose proof (passes_form _ _ _ _ P1 _ _ _ P7) as PF.
  set (Ds := map (fun l : rlayer => oppm (l_grad l)) k2). set (Do := oppm (l_grad (o_l (n_output n2)))).
  assert (Eln : length k2 = length ls) by (symmetry; apply (Forall2_len _ _ _ PF)).
  assert (HD : length Ds = length ls) by (unfold Ds; rewrite map_length; exact Eln).
  assert (Go : nr (l_grad (o_l (n_output n2))) = nr (l_W (o_l (n_output n2))) /\ nc (l_grad (o_l (n_output n2))) = nc (l_W (o_l (n_output n2)))).
  { rewrite P10. destruct P2 as (F1 & F2 & F3). cbn. lia. }
  assert (Gh : Forall (fun l : rlayer => nr (l_grad l) = nr (l_W l) /\ nc (l_grad l) = nc (l_W l)) k2).
  { clear -PF. induction PF as [|l l2 us vs (R & A & _) PF IH]; constructor; auto. destruct R as (R1 & R2 & _). split; congruence. }
  destruct (C29_regularised junk n H x y a n1 H1 n2 H2 ls ls1 k2 Ds Do Hdh Hb HF HB L0 L1 L2 HS HD) as (C & C1 & C2).
  set (Wt := fun t => map (fun lD => line t (l_W (fst lD)) (snd lD)) (combine ls Ds)) in *. cbn beta zeta in C1, C2.
  set (J := fun t : R => (C t + penalty ls (Wt t) + l_lambda (o_l (n_output n)) / 2 * sqnorm (line t (l_W (o_l (n_output n))) Do))%R) in *.
  assert (Neg : (sumL (map (fun lD => fulldir (fst lD) (snd lD)) (combine k2 Ds)) + fulldir (o_l (n_output n2)) Do < 0)%R).
  { unfold Do. rewrite fulldir_opp by apply Go. assert (Es : sumL (map (fun lD => fulldir (fst lD) (snd lD)) (combine k2 Ds)) =
      (- sumL (map (fun l : rlayer => sumN (nr (l_W l)) (fun i => sumN (nc (l_W l)) (fun j => at_ (l_grad l) i j * at_ (l_grad l) i j)%R)) k2))%R).
    { unfold Ds. clear -Gh. induction Gh as [|l k2 [G1 G2] Gh IH]; [cbn; lra|]. cbn [map combine fst snd]. unfold sumL in *. cbn [fold_right]. rewrite IH, fulldir_opp by assumption. lra. }
    rewrite Es. set (Q := fun l : rlayer => sumN (nr (l_W l)) (fun i => sumN (nc (l_W l)) (fun j => at_ (l_grad l) i j * at_ (l_grad l) i j)%R)).
    assert (N0 : (0 <= sumL (map Q k2))%R). { clear. induction k2 as [|l k IH]; [cbn; lra|]. cbn [map]. unfold sumL in *. cbn [fold_right]. pose proof (sq_nonneg l) as N. fold (Q l) in N. lra. }
    pose proof (sq_nonneg (o_l (n_output n2))) as No. fold (Q (o_l (n_output n2))) in *. destruct Hst as [Hst|Hst].
    - assert (0 < sumL (map Q k2))%R; [|lra]. clear -Hst. induction Hst as [l k Hl|l k Hk IH]; cbn [map]; unfold sumL in *; cbn [fold_right].
      + pose proof (sq_pos l Hl) as N. fold (Q l) in N. assert (N0 : (0 <= fold_right Rplus 0 (map Q k))%R); [|lra].
        clear. induction k as [|u k IH]; [cbn; lra|]. cbn [map fold_right]. pose proof (sq_nonneg u) as N. fold (Q u) in N. lra.
      + pose proof (sq_nonneg l) as N. fold (Q l) in N. lra.
    - pose proof (sq_pos _ Hst) as N. fold (Q (o_l (n_output n2))) in N. lra. }
  destruct (derive_neg_dec J _ C2 Neg) as (e & He & Hdec).
  (* the objective along the line *)
  assert (Wline : forall r, map (fun l : rlayer => l_W l) (map (fun l => stepped (relr r l)) k2) = Wt r).
  { intros r. unfold Wt, Ds. clear -PF Gh. revert Gh. induction PF as [|l l2 us vs (_ & A & _) PF IH]; intros Gh; [reflexivity|]. inversion Gh as [|u1 u2 [G1 G2] G3]; subst.
    cbn [map combine fst snd]. rewrite stepped_line by assumption. rewrite A. f_equal. now apply IH. }
  assert (Key : forall r m K ks, dense_net m K ks -> map (fun l : rlayer => l_W l) ks = Wt r -> l_W (o_l (n_output m)) = line r (l_W (o_l (n_output n))) Do ->
      Forall2 (fun l l' : rlayer => l_act l' = l_act l /\ l_lambda l' = l_lambda l) ls ks ->
      l_act (o_l (n_output m)) = l_act (o_l (n_output n)) -> l_lambda (o_l (n_output m)) = l_lambda (o_l (n_output n)) -> n_cost m = n_cost n ->
      objective junk m K x y = Ok (J r)).
  { intros r m K ks Hm EW EWo EA EAo EL EC. pose proof (C1 r) as CA. unfold cost_at in CA.
    assert (HWl : length (Wt r) = length ls) by (unfold Wt; rewrite map_length, combine_length; lia).
    rewrite (set_hidden_dense n H ls) in CA by assumption. cbn [bind] in CA.
    set (kk := map (fun lw => set_W (fst lw) (snd lw)) (combine ls (Wt r))) in CA.
    assert (Hk : dense_net (net_setoutputw n (line r (l_W (o_l (n_output n))) Do)) (put_layers (n_hidden n) kk H) kk).
    { split; [apply Hdn|]. cbn. eapply dense_put; [exact Hdn|]. unfold kk. rewrite map_length, combine_length. lia. }
    apply bind_ok in CA as ([[a' m1] K1] & FA & CA).
    assert (SW : same_weights (net_setoutputw n (line r (l_W (o_l (n_output n))) Do)) (put_layers (n_hidden n) kk H) m K).
    { exists kk, ks. split; [apply hidden_layers_dense, Hk|]. split; [apply hidden_layers_dense, Hm|]. split.
      - unfold kk. clear -EA EW HWl. revert HWl EW. generalize (Wt r). induction EA as [|l l' us vs [E1 E2] EA IH]; intros [|w ws] HWl EW; try discriminate; [constructor|].
        cbn in EW. injection EW as EW1 EW2. cbn [combine map fst snd]. constructor; [split; cbn; auto|]. apply IH; auto.
      - split; cbn; auto. }
    destruct (same_forward junk _ _ m K x a' m1 K1 (dense_net_hidden _ _ _ Hk) (dense_net_hidden _ _ _ Hm) SW FA) as (m1' & K1' & FB & _ & _ & _ & _ & R1 & R2 & [KC1 _] & [KC2 _] & _).
    unfold objective. rewrite FB. cbn [bind]. unfold net_computecost in CA |- *. rewrite KC1 in CA. rewrite KC2, EC. cbn in CA. idtac. match type of CA with ?x = _ => match goal with |- (c <- ?y ;; _) = _ => change y with x end end. rewrite CA. cbn [bind].
    rewrite (hidden_layers_dense m K ks (proj2 Hm)). cbn [bind]. unfold J. rewrite EWo, EL. do 2 f_equal. f_equal. unfold penalty.
    clear -EA EW HWl. revert HWl EW. generalize (Wt r). induction EA as [|l l' us vs [E1 E2] EA IH]; intros [|w ws] HWl EW; try discriminate; [reflexivity|].
    cbn in EW. injection EW as EW1 EW2. cbn [combine map fst snd]. unfold sumL in *. cbn [fold_right]. rewrite (IH ws) by (auto; simpl in HWl; lia). now rewrite E2, EW1. }
  assert (Line0 : forall W Dm : rmat, sqnorm (line 0 W Dm) = sqnorm W).
  { intros W Dm. unfold sqnorm, inner. cbn [line nr nc mk]. apply sumN_ext. intros i Hi. apply sumN_ext. intros j Hj. unfold line. rewrite at_mk by assumption. cbn. ring. }
  exists (J 0%R), e. split; [|split; [exact He|]].
  - (* at 0 *)
    destruct (C29_gradient junk n H x y a n1 H1 n2 H2 ls ls1 k2 Ds Do Hdh Hb HF HB L0 L1 L2 HS HD) as (C' & C1' & C0' & _).
    unfold objective. rewrite HF. cbn [bind]. unfold net_computecost in C0' |- *. rewrite P13, C0'. cbn [bind]. rewrite L0. cbn [bind].
    assert (E0 : C 0%R = C' 0%R). { specialize (C1 0%R). specialize (C1' 0%R). pose proof (eq_trans (eq_sym C1) C1') as Q. now injection Q. }
    unfold J. rewrite E0, Line0. do 2 f_equal. f_equal. unfold penalty, Wt. clear -HD Line0. clearbody Ds. revert Ds HD. induction ls as [|l ls IH]; intros [|d Ds] HD; try discriminate; [reflexivity|].
    cbn [combine map fst snd]. unfold sumL in *. cbn [fold_right]. rewrite Line0. f_equal. apply IH. simpl in HD. lia.
  - intros eta Heta. exists (J eta). split; [|now apply Hdec].
    unfold after_step. destruct (net_setlrate_dense n H ls eta Hdn) as [ES Hr]. pose proof (bind_eq _ (fun '(n1, H1) => '(_, n2, H2) <- feeddata (D := Rdt) junk t n1 H1 x y ;; objective junk n2 H2 x y) _ _ ES eq_refl) as EB.
    cbn beta iota in EB. rewrite EB. clear EB.
    destruct (step_rate junk n H ls x y a n1 H1 n2 H2 k2 (eta : Rdt) Hdn HF HB P9) as (n3 & H3 & E3 & D3 & O3 & [K3 _]).
    assert (ED : decay (tick t) (setrate_net n (eta : Rdt)) (put_layers (n_hidden n) (map (relr (eta : Rdt)) ls) H) = Ok (setrate_net n (eta : Rdt), put_layers (n_hidden n) (map (relr (eta : Rdt)) ls) H)).
    { unfold decay. cbn [tick t_usedecay t_iters t_step]. replace (t_usedecay t && (t_iters t + 1 =? t_step t)%Z) with false; [reflexivity|].
      symmetry. destruct Ht as [->|Ht]; [reflexivity|]. apply andb_false_iff. right. now apply Z.eqb_neq. }
    unfold feeddata. rewrite ED. cbn [bind]. rewrite E3. cbn [bind].
    apply (Key eta n3 H3 (map (fun l => stepped (relr (eta : Rdt) l)) k2)); auto.
    + rewrite O3, stepped_line by apply Go. unfold Do. rewrite P10. reflexivity.
    + clear -PF. induction PF as [|l l2 us vs (_ & A & B & C & E) PF IH]; cbn; constructor; auto.
    + rewrite O3, P10. reflexivity.
    + rewrite O3, P10. reflexivity.
Qed.

(** Without regularisation: the cost itself. *)
Definition cost_of (junk : nat -> R) (n : rnet) (H : rheap) (x y : rmat) : res R :=
  '(a, n', _) <- net_forward (D := Rdt) junk n H x ;; net_computecost n' a y.
Definition cost_after (junk : nat -> R) (t : trainer Rdt) (n : rnet) (H : rheap) (x y : rmat) (eta : R) : res R :=
  '(n1, H1) <- net_setlrate (D := Rdt) n H eta ;;
  '(_, n2, H2) <- feeddata (D := Rdt) junk t n1 H1 x y ;;
  cost_of junk n2 H2 x y.
Definition unregularised (n : rnet) (H : rheap) : Prop :=
  l_lambda (o_l (n_output n)) = 0%R /\ forall ls, hidden_layers n H = Ok ls -> Forall (fun l : rlayer => l_lambda l = 0%R) ls.

Lemma objective_plain junk n H x y J : unregularised n H -> objective junk n H x y = Ok J -> cost_of junk n H x y = Ok J.
Proof.
  intros [U1 U2] E. unfold objective in E. apply bind_ok in E as ([[a n'] H'] & E1 & E). apply bind_ok in E as (c & E2 & E). apply bind_ok in E as (ls & E3 & E). injection E as <-.
  unfold cost_of. rewrite E1. cbn [bind]. rewrite E2. f_equal. rewrite U1. specialize (U2 _ E3). 
  replace (sumL (map (fun l : rlayer => (l_lambda l / 2 * sqnorm (l_W l))%R) ls)) with 0%R; [toR; lra|].
  clear -U2. induction U2 as [|l ls E U IH]; [reflexivity|]. cbn [map]. unfold sumL in *. cbn [fold_right]. rewrite E, <- IH. lra.
Qed.

Theorem C32_cost : forall junk (t : trainer Rdt) (n : rnet) (H : rheap) (x y a : rmat) n1 H1 n2 H2 ls1 ls2,
  dense_hidden n H -> built_in n y -> unregularised n H ->
  net_forward (D := Rdt) junk n H x = Ok (a, n1, H1) -> net_backprop (D := Rdt) junk n1 H1 y = Ok (n2, H2) ->
  hidden_layers n1 H1 = Ok ls1 -> hidden_layers n2 H2 = Ok ls2 ->
  Forall smooth_at ls1 ->
  t_usedecay t = false \/ (t_iters t + 1)%Z <> t_step t ->
  (Exists steep ls2 \/ steep (o_l (n_output n2))) ->
  exists J0 eta0, cost_of junk n H x y = Ok J0 /\ (0 < eta0)%R /\
    forall eta, (0 < eta < eta0)%R -> exists J, cost_after junk t n H x y eta = Ok J /\ (J < J0)%R.
Proof.
  intros junk t n H x y a n1 H1 n2 H2 ls1 ls2 Hdh Hb Hu HF HB L1 L2 HS Ht Hst.
  destruct (C32_objective junk t n H x y a n1 H1 n2 H2 ls1 ls2 Hdh Hb HF HB L1 L2 HS Ht Hst) as (J0 & e & E0 & He & Hall).
  exists J0, e. split; [now apply objective_plain|]. split; [assumption|]. intros eta Heta. destruct (Hall eta Heta) as (J & EJ & Hlt). exists J. split; [|assumption].
  unfold after_step in EJ. apply bind_ok in EJ as ([m K] & E1 & EJ). apply bind_ok in EJ as ([[t2 m2] K2] & E2 & EJ).
  unfold cost_after. rewrite E1. cbn [bind]. rewrite E2. cbn [bind]. apply objective_plain; [|assumption].
  destruct (dense_of_hidden n H Hdh) as (ls & L0 & Hdn). destruct (net_setlrate_dense n H ls (eta : Rdt) Hdn) as [ES Hr].
  pose proof (eq_trans (eq_sym E1) ES) as Q. injection Q as -> ->.
  destruct (C33_trainer junk t _ _ x y t2 m2 K2 (dense_net_hidden _ _ _ Hr) E2) as (m0 & K0 & a0 & n1' & H1' & n2' & H2' & k & k0 & k2 & k' & Y1 & _ & Y2 & Y3 & Y4 & Y5 & Y6 & Y7 & Y8 & Y9 & Y10 & Y11 & Y12 & Y13 & Y14 & _).
  destruct Hu as [U1 U2]. specialize (U2 _ L0). split.
  - destruct Y13 as [(_ & R & _) _]. rewrite R, Y5. exact U1.
  - intros ks Lk. pose proof (eq_trans (eq_sym Y9) Lk) as Q. injection Q as ->.
    pose proof (eq_trans (eq_sym Y2) (hidden_layers_dense _ _ _ (proj2 Hr))) as Q. injection Q as ->.
    apply Forall_forall. intros l' Hin. apply In_nth_error in Hin as [i Hi].
    assert (exists l0, nth_error k0 i = Some l0) as [l0 J1].
    { destruct (nth_error k0 i) eqn:J1; [eauto|]. apply nth_error_None in J1. apply Forall2_len in Y4. assert (i < length ks) by (apply nth_error_Some; congruence). lia. }
    assert (exists l2, nth_error k2 i = Some l2) as [l2 J2].
    { destruct (nth_error k2 i) eqn:J2; [eauto|]. apply nth_error_None in J2. assert (i < length ks) by (apply nth_error_Some; congruence). lia. }
    assert (exists l, nth_error (map (relr (eta : Rdt)) ls) i = Some l) as [l J3].
    { destruct (nth_error (map (relr (eta : Rdt)) ls) i) eqn:J3; [eauto|]. apply nth_error_None in J3. assert (i < length ks) by (apply nth_error_Some; congruence). lia. }
    destruct (Y12 i l0 l2 l' J1 J2 Hi) as [[(_ & R & _) _] _]. rewrite R. pose proof (Forall2_nth _ _ _ Y4 i l l0 J3 J1) as O. rewrite O. cbn.
    rewrite nth_error_map in J3. destruct (nth_error ls i) as [l9|] eqn:J4; [|discriminate]. injection J3 as <-. cbn.
    rewrite Forall_forall in U2. apply U2. eapply nth_error_In; eauto.
Qed.

(** ** Everything at once for the differentiable activations: only shapes have to be right. *)
Definition smooth_act (f : actfunc Rdt) : Prop := forall z : R, is_derive (act f : R -> R) z (actd f z).
Lemma smooth_layers (ls : list rlayer) : Forall (fun l => smooth_act (l_act l)) ls -> forall x a ls1, lforward ls x = Ok (a, ls1) -> Forall smooth_at ls1.
Proof.
  induction 1 as [|l ls Hl Hls IH]; intros x a ls1 HF; cbn [lforward] in HF; [injection HF as <- <-; constructor|].
  apply bind_ok in HF as ([b l1] & F1 & HF). apply bind_ok in HF as ([c r1] & F2 & HF). injection HF as <- <-. apply forward_inv in F1 as (_ & _ & ->).
  constructor; [|eauto]. intros i j _ _. apply Hl.
Qed.
Definition seven : list (actfunc Rdt) := [identity; sigmoid; arctan; tanhyperbolic; bipolarsigmoid; comploglog; smoothrelu].
Lemma seven_smooth f : In f seven -> smooth_act f.
Proof. intros Hf z. destruct (C22_smooth z) as (A1&A2&A3&A4&A5&A6&A7). cbn in Hf. destruct Hf as [<-|[<-|[<-|[<-|[<-|[<-|[<-|[]]]]]]]]; assumption. Qed.

Theorem C29_well_sized : forall junk (n : rnet) (H : rheap) p c (x y : rmat) ls (Ds : list rmat) (Do : rmat),
  1 <= p -> well_sized n H p c -> samples p c (x, y) -> built_in n y -> hidden_layers n H = Ok ls -> Forall (fun l => In (l_act l) seven) ls ->
  length Ds = length ls ->
  exists (C : R -> R) a n1 H1 n2 H2 ls2,
    net_forward (D := Rdt) junk n H x = Ok (a, n1, H1) /\ net_backprop (D := Rdt) junk n1 H1 y = Ok (n2, H2) /\ hidden_layers n2 H2 = Ok ls2 /\
    net_computecost n a y = Ok (C 0%R) /\
    (forall t, cost_at junk n H x y (map (fun lD => line t (l_W (fst lD)) (snd lD)) (combine ls Ds)) (line t (l_W (o_l (n_output n))) Do) = Ok (C t)) /\
    is_derive C 0%R (gdirs ls2 Ds + gdir (o_l (n_output n2)) Do)%R.
Proof.
  intros junk n H p c x y ls Ds Do Hp Hw Hs Hb L0 HA HD. pose proof (proj1 (well_fits _ _ _ _) Hw) as ((ls' & Hf) & _). destruct Hs as (S1 & S2 & S3 & S4). cbn in S1, S2, S3, S4.
  destruct (forward_backward_ok junk n H ls' p c x y Hf Hp S1 S2 S3 S4) as (a & n1 & H1 & n2 & H2 & ls2 & A1 & A2 & A3 & A4 & A5 & A6 & A7).
  pose proof (eq_trans (eq_sym L0) (hidden_layers_dense n H ls' (proj2 (proj1 Hf)))) as Q. injection Q as <-.
  destruct (pass_dense junk n H ls x y a n1 H1 n2 H2 (proj1 Hf) A1 A4) as (b & ls1 & delta & ls2' & dx & P1 & P2 & P3 & P4 & P5 & P6 & P7 & P8 & _).
  destruct (C29_gradient junk n H x y a n1 H1 n2 H2 ls ls1 ls2 Ds Do) as (C & C1 & C2 & C3); auto; [apply Hw|apply hidden_layers_dense, P8|apply hidden_layers_dense, A5| |].
  { eapply smooth_layers; [|exact P1]. eapply Forall_impl; [|exact HA]. intros l Hl. now apply seven_smooth. }
  exists C, a, n1, H1, n2, H2, ls2. split; [assumption|]. split; [assumption|]. split; [apply hidden_layers_dense, A5|]. auto.
Qed.

(** ** The hypotheses can be met *)
(** 1 input, 2 sigmoid units, 1 output with zero weights: the output is 0, the label 1. *)
Definition dl (f : actfunc Rdt) (W : rmat) : rlayer := L (D := Rdt) 1%R 0%R f mempty mempty mempty mempty W mempty.
Definition exd : rnet := N (D := Rdt) mempty quad_cost quad_costd (dl identity mempty) [0] (O (dl identity (rm 3 1 [0; 0; 0]%R)) quad_cost quad_costd mempty).
Definition exdH : rheap := [HDense (dl sigmoid (rm 2 2 [1; 2; 1; -1]%R))].
Definition exdx : rmat := rm 1 1 [1]%R.
Definition exdy : rmat := rm 1 1 [1]%R.
Lemma exd_ok junk : exists a n1 H1 n2 H2 ls1 ls2, dense_hidden exd exdH /\ built_in exd exdy /\ unregularised exd exdH /\
  net_forward (D := Rdt) junk exd exdH exdx = Ok (a, n1, H1) /\ net_backprop (D := Rdt) junk n1 H1 exdy = Ok (n2, H2) /\
  hidden_layers n1 H1 = Ok ls1 /\ hidden_layers n2 H2 = Ok ls2 /\ Forall smooth_at ls1 /\ steep (o_l (n_output n2)).
Proof.
  set (hl := dl sigmoid (rm 2 2 [1; 2; 1; -1]%R)).
  assert (Hdn : dense_net exd exdH [hl]). { split; [repeat constructor; intros []|]. constructor; [reflexivity|constructor]. }
  assert (Hf : fits_net exd exdH [hl] 1 1). { split; [exact Hdn|]. exists 2. cbn. repeat split; try lia. apply quad_sized. }
  destruct (forward_backward_ok junk exd exdH [hl] 1 1 exdx exdy Hf) as (a & n1 & H1 & n2 & H2 & ls2 & A1 & A2 & A3 & A4 & A5 & A6 & A7); try (cbn; lia); try reflexivity.
  destruct (pass_dense junk exd exdH [hl] exdx exdy a n1 H1 n2 H2 Hdn A1 A4) as (b & ls1 & delta & ls2' & dx & P1 & P2 & P3 & P4 & P5 & P6 & P7 & P8 & P9 & P10 & P11).
  exists a, n1, H1, n2, H2, ls1, ls2. split; [eapply dense_net_hidden, Hdn|]. split; [left; repeat split|].
  split. { split; [reflexivity|]. intros ls L. pose proof (eq_trans (eq_sym L) (hidden_layers_dense exd exdH [hl] (proj2 Hdn))) as Q. injection Q as ->. repeat constructor. }
  split; [assumption|]. split; [assumption|]. split; [apply hidden_layers_dense, P8|]. split; [apply hidden_layers_dense, A5|].
  split. { eapply smooth_layers; [|exact P1]. constructor; [|constructor]. apply seven_smooth. cbn. auto. }
  rewrite P10. exists 0, 0. cbn [back_layer l_W fwd_layer l_grad exd n_output o_l dl rm nr nc]. split; [lia|]. split; [lia|].
  destruct P2 as (F1 & F2 & F3). cbn [exd n_output o_l dl l_W rm nr] in F3.
  cbn [lforward] in P1. apply bind_ok in P1 as ([b1 l1] & P1a & P1). injection P1 as -> <-. apply forward_inv in P1a as (_ & -> & _).
  assert (Ed : at_ delta 0 0 = (-1)%R).
  { cbn [exd n_output o_costd] in P4. unfold quad_costd, msub in P4. rewrite mzip_ok in P4 by (rewrite P3; reflexivity). cbn [bind] in P4. injection P4 as <-.
    unfold divs. rewrite at_mmap by (rewrite P3; cbn; lia). rewrite at_mk by (rewrite P3; cbn; lia). rewrite P3. unfold fwd_out at 1. rewrite at_mk by (cbn; lia).
    rewrite pre_R by (cbn; lia). cbn [exd n_output o_l dl l_W l_act act identity initactfunc].
    rewrite (sumN_zero (nc _)); [|intros k Hk; cbn in Hk; destruct k as [|[|k]]; [cbn|cbn|lia]; ring].
    cbn. unfold f_identity. cbn. field. }
  assert (R0 : nr delta = 1) by (rewrite P5; cbn; lia).
  unfold grad_of. rewrite at_mk by (try rewrite P6; cbn; lia). unfold raw_grad. rewrite at_mk by (try rewrite P6; cbn; lia). rewrite mdot_R. cbn [mt nc mk l_pa fwd_layer fwd_out nr exdx rm].
  rewrite sumN_S, sumN_0, Ed. unfold mt. rewrite at_mk by (try rewrite P6; cbn; lia). cbn [l_pa fwd_layer]. rewrite at_mk by (try rewrite P6; cbn; lia).
  cbn. lra.
Qed.

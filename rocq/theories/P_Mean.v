(** P_Mean.v - C62: the gradient of a batch is the mean of the gradients of its rows; training does not depend on the
    order of the rows. Exact (real) arithmetic. *)
From Coq Require Import Reals Lra Permutation.
From Verif Require Import Base Mat Act Layer Conv Misc Net NetP RInst RMat Trainer TrainP TrainP2 ExNet P_Train FunEq P_Sgd P_Batch Grad ConfEq.
From Coq Require Import Arith.
Local Open Scope nat_scope.
Notation rnet := (net Rdt).
Notation rheap := (lheap Rdt).

(** ** What is measured *)
(** The gradients that a forward and a backward pass leave in the layers, hidden layers first, output layer last. *)
Definition pass_grads {D : dtype} (junk : nat -> D) (n : net D) (H : lheap D) (x y : mat D) : res (list (mat D)) :=
  '(_, n1, H1) <- net_forward junk n H x ;;
  '(n2, H2) <- net_backprop junk n1 H1 y ;;
  hs <- hidden_layers n2 H2 ;;
  Ok (map l_grad hs ++ [l_grad (o_l (net_getoutput n2))]).
(** Entry (i, j) of the gradient of layer k. *)
Definition entry {D : dtype} (r : res (list (mat D))) (k i j : nat) : D := match r with Ok gs => at_ (nth k gs mempty) i j | _ => d0 end.

(** ** Proof *)
(** B is row r of A, scaled by c. *)
Definition srow (c : R) (r : nat) (A B : rmat) : Prop := nr B = 1 /\ nc B = nc A /\ forall j, j < nc A -> at_ B 0 j = (c * at_ A r j)%R.
Definition cached (r : nat) (l m : rlayer) : Prop :=
  l_W m = l_W l /\ l_act m = l_act l /\ l_lambda m = l_lambda l /\ srow 1 r (l_pa l) (l_pa m) /\ srow 1 r (l_z l) (l_z m).

Lemma bias_srow r (x xr : rmat) : r < nr x -> srow 1 r x xr -> srow 1 r (mk (D := Rdt) (nr x) (nc x + 1) (with_bias x)) (mk (D := Rdt) (nr xr) (nc xr + 1) (with_bias xr)).
Proof.
  intros Hr (A & B & C). split; [exact A|]. cbn [nr nc mk]. split; [now rewrite B|]. intros j Hj. rewrite (at_mk (D := Rdt)) by lia. rewrite (at_mk (D := Rdt)) by lia.
  destruct j as [|j]; cbn [with_bias]; [cbn; lra|]. apply C. lia.
Qed.
Lemma pre_srow r (W x xr : rmat) j : r < nr x -> srow 1 r x xr -> pre W xr 0 j = pre W x r j.
Proof.
  intros Hr (A & B & C). rewrite !pre_R by lia. rewrite B. f_equal. apply sumN_ext. intros k Hk. rewrite C by assumption. lra.
Qed.
Lemma fwd_srow r (l m : rlayer) (x xr : rmat) : l_W m = l_W l -> l_act m = l_act l -> l_lambda m = l_lambda l -> r < nr x -> srow 1 r x xr ->
  srow 1 r (fwd_out l x) (fwd_out m xr) /\ cached r (fwd_layer l x) (fwd_layer m xr).
Proof.
  intros E1 E2 E3 Hr Hs. pose proof Hs as (A & B & C). split.
  - split; [exact A|]. cbn [fwd_out nr nc mk]. split; [now rewrite E1|]. intros j Hj. unfold fwd_out. rewrite !(at_mk (D := Rdt)) by (rewrite ?E1; lia). rewrite E1, E2, (pre_srow r _ x) by assumption. lra.
  - split; [exact E1|]. split; [exact E2|]. split; [exact E3|]. cbn [fwd_layer l_pa l_z]. split; [now apply bias_srow|].
    split; [exact A|]. cbn [nr nc mk]. split; [now rewrite E1|]. intros j Hj. rewrite !(at_mk (D := Rdt)) by (rewrite ?E1; lia). rewrite E1, (pre_srow r _ x) by assumption. lra.
Qed.
Lemma lf_row r : forall ls (x xr a ar : rmat) l1 lr, r < nr x -> srow 1 r x xr -> lforward ls x = Ok (a, l1) -> lforward ls xr = Ok (ar, lr) ->
  srow 1 r a ar /\ nr a = nr x /\ Forall2 (cached r) l1 lr.
Proof.
  induction ls as [|l ls IH]; intros x xr a ar l1 lr Hr Hs E1 E2; cbn [lforward] in *.
  - injection E1 as <- <-. injection E2 as <- <-. auto.
  - apply bind_ok in E1 as ([b k] & K1 & E1). apply bind_ok in E1 as ([c q] & K2 & E1). injection E1 as <- <-.
    apply bind_ok in E2 as ([b' k'] & K1' & E2). apply bind_ok in E2 as ([c' q'] & K2' & E2). injection E2 as <- <-.
    apply forward_inv in K1 as (_ & -> & ->). apply forward_inv in K1' as (_ & -> & ->).
    destruct (fwd_srow r l l x xr eq_refl eq_refl eq_refl Hr Hs) as [S1 S2].
    destruct (IH _ _ _ _ _ _ (Hr : r < nr (fwd_out l x)) S1 K2 K2') as (I1 & I2 & I3). auto.
Qed.

(** After the backward pass: the deltas are related with factor c and the gradients are computed from them. *)
Definition graded (c : R) (r : nat) (l m : rlayer) : Prop :=
  l_W m = l_W l /\ l_lambda m = l_lambda l /\ srow 1 r (l_pa l) (l_pa m) /\ srow c r (l_delta l) (l_delta m) /\
  l_grad l = grad_of l (l_delta l) /\ l_grad m = grad_of m (l_delta m) /\ nr (l_pa l) = nr (l_delta l).
Lemma delta_srow c r (l m : rlayer) (d e : rmat) : r < nr d -> l_act m = l_act l -> nc d = nc (l_z l) -> srow 1 r (l_z l) (l_z m) -> srow c r d e ->
  srow c r (back_delta l d) (back_delta m e).
Proof.
  intros Hr Ea Ed (A & B & C) (P & Q & S). split; [exact P|]. cbn [back_delta nr nc mk]. split; [exact Q|]. intros j Hj. unfold back_delta.
  rewrite (at_mk (D := Rdt)) by lia. rewrite (at_mk (D := Rdt)) by lia. rewrite Ea, S, C by lia. rewrite Rmult_1_l. cbn. lra.
Qed.
Lemma down_srow c r (l m : rlayer) (d e : rmat) : r < nr d -> l_W m = l_W l -> nc d = nc (l_W l) -> srow c r d e -> srow c r (down l d) (down m e).
Proof.
  intros Hr Ew Ed (P & Q & S). split; [exact P|]. cbn [down nr nc mk]. split; [now rewrite Ew|]. intros k Hk.
  rewrite at_down by (rewrite ?Ew; lia). rewrite at_down by lia. rewrite Ew, <- sumN_scal. apply sumN_ext. intros j Hj. rewrite S by lia. lra.
Qed.
Lemma graded_back c r (l m : rlayer) (d e : rmat) : cached r l m -> srow c r d e -> nr (l_pa l) = nr d -> graded c r (back_layer l d) (back_layer m e).
Proof. intros (A & B & C & E & F) Hs Hn. repeat split; cbn; auto; first [apply E|apply Hs]. Qed.
Lemma lb_row c r : forall l1 lr, Forall2 (cached r) l1 lr -> forall d e d0 e0 l2 l2r, r < nr d -> srow c r d e ->
  lbackprop l1 d = Ok (d0, l2) -> lbackprop lr e = Ok (e0, l2r) -> srow c r d0 e0 /\ nr d0 = nr d /\ Forall2 (graded c r) l2 l2r.
Proof.
  induction 1 as [|l m l1 lr Hc HF IH]; intros d e d0 e0 l2 l2r Hr Hs E1 E2; cbn [lbackprop] in *.
  - injection E1 as <- <-. injection E2 as <- <-. auto.
  - apply bind_ok in E1 as ([b k] & K1 & E1). apply bind_ok in E1 as ([b0 q] & K2 & E1). injection E1 as <- <-.
    apply bind_ok in E2 as ([b' k'] & K1' & E2). apply bind_ok in E2 as ([b0' q'] & K2' & E2). injection E2 as <- <-.
    destruct (IH _ _ _ _ _ _ Hr Hs K1 K1') as (I1 & I2 & I3). apply backprop_inv in K2 as ((B1 & B2 & B3 & B4 & B5 & B6 & B7) & -> & ->). apply backprop_inv in K2' as (_ & -> & ->).
    assert (Hd : srow c r (back_delta l b) (back_delta m b')) by (apply delta_srow; auto; [lia|apply Hc|apply Hc]).
    split; [apply down_srow; auto; [cbn; lia|apply Hc]|]. split; [exact I2|]. constructor; [|assumption]. now apply graded_back.
Qed.

Lemma at_grad_of (l : rlayer) (d : rmat) i j : nr (l_pa l) = nr d -> i < nc (l_pa l) -> j < nc d ->
  at_ (grad_of l d) i j = (sumN (nr d) (fun r => at_ (l_pa l) r i * at_ d r j) + l_lambda l * at_ (l_W l) i j)%R.
Proof.
  intros E Hi Hj. unfold grad_of. rewrite (at_mk (D := Rdt)) by assumption. apply (f_equal2 Rplus); [|reflexivity].
  unfold raw_grad. rewrite (at_mk (D := Rdt)) by assumption. rewrite mdot_R. cbn [mt nc mk]. rewrite E. apply sumN_ext. intros r Hr.
  unfold mt. rewrite (at_mk (D := Rdt)) by lia. reflexivity.
Qed.
(** The rows' gradients, averaged. *)
Lemma mean_grad (l : rlayer) (m : nat -> rlayer) i j : let N := nr (l_delta l) in 1 <= N -> (forall r, r < N -> graded (INR N) r l (m r)) -> i < nc (l_pa l) -> j < nc (l_delta l) ->
  at_ (l_grad l) i j = (sumN N (fun r => at_ (l_grad (m r)) i j) / INR N)%R.
Proof.
  intros N HN HG Hi Hj. destruct (HG 0) as (_ & _ & _ & _ & E1 & _ & E3); [lia|]. rewrite E1, at_grad_of by assumption. fold N.
  assert (Np : (0 < INR N)%R) by (apply lt_0_INR; lia).
  assert (X : sumN N (fun r => at_ (l_grad (m r)) i j) = (INR N * sumN N (fun r => (at_ (l_pa l) r i * at_ (l_delta l) r j)%R) + INR N * (l_lambda l * at_ (l_W l) i j))%R).
  { rewrite <- sumN_scal, <- sumN_const, <- sumN_plus. apply sumN_ext. intros r Hr. destruct (HG r Hr) as (A & B & (C1 & C2 & C3) & (D1 & D2 & D3) & _ & F & _).
    rewrite F, at_grad_of by (rewrite ?C1, ?C2, ?D1, ?D2; auto). rewrite D1. unfold sumN at 1. cbn [seq map sumL fold_right]. rewrite C3, D3, A, B by assumption. lra. }
  rewrite X. match goal with |- @eq _ ?a ?b => change (@eq R a b) end. field. lra.
Qed.

Lemma sm_aux (e S1 S2 y N : R) : S1 = S2 -> (0 < N)%R -> ((e * (1 / S1) - y) / 1)%R = (N * ((e * (1 / S2) - y) / N))%R.
Proof. intros -> HN. set (q := (e * (1 / S2))%R). field. lra. Qed.
Lemma kl_aux (q N : R) : (0 < N)%R -> (q / 1)%R = (N * (q / N))%R.
Proof. intros HN. field. lra. Qed.
Lemma costd_srow (cd : costdfun (D := Rdt)) (l m : rlayer) (x xr y : rmat) r d e : cd = quad_costd \/ cd = ce_costd \/ cd = kl_costd \/ cd = sm_costd ->
  l_W m = l_W l -> l_act m = l_act l -> r < nr x -> srow 1 r x xr -> nr y = nr x -> nc y = nc (l_W l) ->
  cd y (fwd_out l x) (l_z (fwd_layer l x)) = Ok d -> cd (row_of y r) (fwd_out m xr) (l_z (fwd_layer m xr)) = Ok e -> srow (INR (nr x)) r d e.
Proof.
  intros Hcd Ew Ea Hr Hs Hy1 Hy2. pose proof Hs as (A & B & C). unfold fwd_out. rewrite A, Ew, Ea.
  assert (Np : (0 < INR (nr x))%R) by (apply lt_0_INR; lia). assert (E1 : INR 1 = 1%R) by reflexivity.
  assert (Hyr : forall j, j < nc (l_W l) -> at_ (row_of y r) 0 j = at_ y r j) by (intros j Hj; unfold row_of; rewrite (at_mk (D := Rdt)) by lia; reflexivity).
  assert (P : forall j, pre (l_W l) xr 0 j = pre (l_W l) x r j) by (intros; now apply pre_srow).
  destruct Hcd as [-> | [-> | [-> | ->]]]; intros H1 H2;
    (first [rewrite quad_costd_mk in H1 by auto; rewrite quad_costd_mk in H2 by auto
           |rewrite ce_costd_mk in H1 by auto; rewrite ce_costd_mk in H2 by auto
           |rewrite kl_costd_mk in H1 by auto; rewrite kl_costd_mk in H2 by auto
           |rewrite sm_costd_mk in H1 by auto; rewrite sm_costd_mk in H2 by auto]);
    injection H1 as <-; injection H2 as <-; (split; [reflexivity|]); cbn [nr nc mk]; (split; [reflexivity|]); intros j Hj;
    rewrite !(at_mk (D := Rdt)) by lia; rewrite Hyr by assumption; rewrite ?E1, ?P.
  1, 2: match goal with |- @eq _ ?a ?b => change (@eq R a b) end; field; lra.
  - exact (kl_aux _ _ Np).
  - refine (sm_aux _ _ _ _ _ _ Np). apply sumN_ext. intros k Hk. apply (f_equal exp). now rewrite P.
Qed.

Definition pass_layers (junk : nat -> R) (n : rnet) (H : rheap) (x y : rmat) : res (list rlayer) :=
  '(_, n1, H1) <- net_forward (D := Rdt) junk n H x ;;
  '(n2, H2) <- net_backprop (D := Rdt) junk n1 H1 y ;;
  hs <- hidden_layers n2 H2 ;;
  Ok (hs ++ [o_l (net_getoutput n2)]).
Lemma pass_grads_layers junk (n : rnet) (H : rheap) x y : pass_grads (D := Rdt) junk n H x y = (ls <- pass_layers junk n H x y ;; Ok (map l_grad ls)).
Proof.
  unfold pass_grads, pass_layers. destruct (net_forward (D := Rdt) junk n H x) as [[[a n1] H1]| | |]; cbn [bind]; try reflexivity.
  destruct (net_backprop (D := Rdt) junk n1 H1 y) as [[n2 H2]| | |]; cbn [bind]; try reflexivity.
  destruct (hidden_layers n2 H2) as [hs| | |]; cbn [bind]; try reflexivity. now rewrite map_app.
Qed.
Definition built_costd (cd : costdfun (D := Rdt)) : Prop := cd = quad_costd \/ cd = ce_costd \/ cd = kl_costd \/ cd = sm_costd.
Lemma row_of_samples p c (x y : rmat) r : samples (D := Rdt) p c (x, y) -> samples (D := Rdt) p c (row_of x r, row_of y r).
Proof. intros (A & B & C & E). repeat split; cbn in *; auto. Qed.
Lemma row_of_srow (x : rmat) r : srow 1 r x (row_of x r).
Proof. split; [reflexivity|]. split; [reflexivity|]. intros j Hj. unfold row_of. rewrite (at_mk (D := Rdt)) by lia. lra. Qed.
(** The shapes left in a layer by the two passes on m rows. *)
Definition shaped (m : nat) (l : rlayer) : Prop := nr (l_delta l) = m /\ nc (l_pa l) = nr (l_W l) /\ nc (l_delta l) = nc (l_W l) /\ wf (l_grad l) /\ nr (l_grad l) = nr (l_W l) /\ nc (l_grad l) = nc (l_W l).
Lemma lb_shaped : forall (l1 : list rlayer) d d0 l2, lbackprop l1 d = Ok (d0, l2) -> Forall (shaped (nr d)) l2 /\ nr d0 = nr d.
Proof.
  induction l1 as [|l l1 IH]; intros d d0 l2 E; cbn [lbackprop] in E; [injection E as <- <-; split; [constructor|reflexivity]|].
  apply bind_ok in E as ([b k] & K1 & E). apply bind_ok in E as ([b0 q] & K2 & E). injection E as <- <-. destruct (IH _ _ _ K1) as [I1 I2].
  apply backprop_inv in K2 as ((B1 & B2 & B3 & B4 & B5 & B6 & B7) & -> & ->). split; [|exact I2]. constructor; [|assumption]. unfold shaped. cbn. repeat split; auto. apply wf_mk.
Qed.
Lemma pass_full junk (n : rnet) (H : rheap) ls p c (x y : rmat) : fits_net (D := Rdt) n H ls p c -> 1 <= p -> samples (D := Rdt) p c (x, y) ->
  exists L, pass_layers junk n H x y = Ok L /\ Forall (shaped (nr x)) L /\ Forall2 conf (ls ++ [o_l (n_output n)]) L.
Proof.
  intros Hf Hp (S1 & S2 & S3 & S4). cbn [fst snd] in *.
  destruct (forward_backward_ok (D := Rdt) junk n H ls p c x y Hf Hp S1 S2 S3 S4) as (a & n1 & H1 & n2 & H2 & k2 & A1 & A2 & A3 & A4 & A5 & A7 & A8).
  destruct (pass_dense (D := Rdt) junk n H ls x y a n1 H1 n2 H2 (proj1 Hf) A1 A4) as (b & l1 & d & l2 & dx & E1 & E2 & E3 & E4 & E5 & E6 & E7 & E8 & E9 & E10 & _).
  unfold pass_layers. rewrite A1. cbn [bind]. rewrite A4. cbn [bind]. rewrite (hidden_layers_dense n2 H2 l2) by apply E9. cbn [bind net_getoutput output_copy o_l]. rewrite layer_copy_id, E10.
  assert (Hb : nr b = nr x). { pose proof E3 as Q. rewrite Q in A2. exact A2. }
  eexists. split; [reflexivity|]. split.
  - apply Forall_app. split.
    + destruct (lb_shaped _ _ _ _ E7) as [X _]. cbn [down nr mk] in X. rewrite E5, Hb in X. exact X.
    + constructor; [|constructor]. destruct E2 as (B1 & B2 & B3). unfold shaped. cbn. rewrite E5, Hb. repeat split; auto. apply wf_mk.
  - apply Forall2_app.
    + eapply F2conf_trans; [eapply lforward_W; eauto|eapply lbackprop_W; eauto].
    + constructor; [|constructor]. repeat split.
Qed.
Lemma pass_row junk (n : rnet) (H : rheap) ls p c (x y : rmat) r L : fits_net (D := Rdt) n H ls p c -> 1 <= p -> samples (D := Rdt) p c (x, y) ->
  built_costd (o_costd (n_output n)) -> r < nr x -> pass_layers junk n H x y = Ok L ->
  exists Lr, pass_layers junk n H (row_of x r) (row_of y r) = Ok Lr /\ Forall2 (graded (INR (nr x)) r) L Lr.
Proof.
  intros Hf Hp HS Hcd Hr HL. pose proof (row_of_samples p c x y r HS) as HS'. destruct HS as (S1 & S2 & S3 & S4), HS' as (T1 & T2 & T3 & T4). cbn [fst snd] in *.
  destruct (forward_backward_ok (D := Rdt) junk n H ls p c x y Hf Hp S1 S2 S3 S4) as (a & n1 & H1 & n2 & H2 & k2 & A1 & A2 & A3 & A4 & A5 & A7 & A8).
  destruct (forward_backward_ok (D := Rdt) junk n H ls p c _ _ Hf Hp T1 T2 T3 T4) as (a' & n1' & H1' & n2' & H2' & k2' & A1' & A2' & A3' & A4' & A5' & A7' & A8').
  destruct (pass_dense (D := Rdt) junk n H ls x y a n1 H1 n2 H2 (proj1 Hf) A1 A4) as (b & l1 & d & l2 & dx & E1 & E2 & E3 & E4 & E5 & E6 & E7 & E8 & E9 & E10 & _).
  destruct (pass_dense (D := Rdt) junk n H ls _ _ a' n1' H1' n2' H2' (proj1 Hf) A1' A4') as (b' & l1' & d' & l2' & dx' & E1' & E2' & E3' & E4' & E5' & E6' & E7' & E8' & E9' & E10' & _).
  unfold pass_layers in *. rewrite A1 in HL. cbn [bind] in HL. rewrite A4 in HL. cbn [bind] in HL. rewrite (hidden_layers_dense n2 H2 l2) in HL by apply E9. cbn [bind net_getoutput output_copy o_l] in HL. rewrite layer_copy_id, E10 in HL. injection HL as <-.
  rewrite A1'. cbn [bind]. rewrite A4'. cbn [bind]. rewrite (hidden_layers_dense n2' H2' l2') by apply E9'. cbn [bind net_getoutput output_copy o_l]. rewrite layer_copy_id, E10'.
  eexists. split; [reflexivity|].
  destruct (lf_row r ls x (row_of x r) b b' l1 l1' Hr (row_of_srow x r) E1 E1') as (F1 & F2 & F3).
  set (ol := o_l (n_output n)) in *.
  destruct (fwd_srow r ol ol b b' eq_refl eq_refl eq_refl) as [G1 G2]; [lia|exact F1|].
  assert (Hd : srow (INR (nr x)) r d d').
  { rewrite <- F2. rewrite E3 in E4. rewrite E3' in E4'. destruct Hf as [_ (q & _ & _ & _ & Fc & _)]. eapply (costd_srow _ ol ol b b' y r d d' Hcd eq_refl eq_refl); eauto; [lia|lia|]. fold ol in Fc. lia. }
  apply Forall2_app.
  - destruct (lb_row (INR (nr x)) r l1 l1' F3 (down (fwd_layer ol b) d) (down (fwd_layer ol b') d') dx dx' l2 l2') as (_ & _ & I3); auto; [cbn; lia|]. apply down_srow; auto; cbn; lia.
  - constructor; [|constructor]. apply graded_back; [assumption|assumption|cbn; lia].
Qed.

(** ** C62 *)
(** The gradient of a batch is, entry by entry and in every layer, the mean of the gradients of its rows. *)
Theorem C62_mean : forall (junk : nat -> R) (n : rnet) (H : rheap) p c (x y : rmat), 1 <= p -> well_sized (D := Rdt) n H p c -> samples (D := Rdt) p c (x, y) ->
  (exists Gs ls, pass_grads (D := Rdt) junk n H x y = Ok Gs /\ hidden_layers n H = Ok ls /\
     Forall2 (fun l G => nr G = nr (l_W l) /\ nc G = nc (l_W l) /\ wf G) (ls ++ [o_l (n_output n)]) Gs /\
     forall k l i j, nth_error (ls ++ [o_l (n_output n)]) k = Some l -> i < nr (l_W l) -> j < nc (l_W l) ->
       at_ (nth k Gs mempty) i j = (sumN (nr x) (fun r => entry (D := Rdt) (pass_grads (D := Rdt) junk n H (row_of x r) (row_of y r)) k i j) / INR (nr x))%R) /\
  (forall r, r < nr x -> exists gs, pass_grads (D := Rdt) junk n H (row_of x r) (row_of y r) = Ok gs).
Proof.
  intros junk n H p c x y Hp Hw HS. apply well_fits in Hw as ((ls & Hf) & Hcd & _).
  destruct (pass_full junk n H ls p c x y Hf Hp HS) as (L & HL & HSh & HC).
  assert (Hrow : forall r, r < nr x -> exists Lr, pass_layers junk n H (row_of x r) (row_of y r) = Ok Lr /\ Forall2 (graded (INR (nr x)) r) L Lr).
  { intros r Hr. eapply pass_row; eauto. }
  split.
  2:{ intros r Hr. destruct (Hrow r Hr) as (Lr & E & _). rewrite pass_grads_layers, E. cbn [bind]. eauto. }
  exists (map l_grad L), ls. rewrite pass_grads_layers, HL. split; [reflexivity|]. split; [apply hidden_layers_dense, Hf|]. split.
  { clear -HSh HC. revert HSh. induction HC as [|l m la lb E HC IH]; intros HSh; inversion HSh as [|u us S1 S2]; subst; constructor; auto.
    destruct S1 as (_ & _ & _ & W & A & B). destruct E as (E & _). rewrite <- E. auto. }
  intros k l0 i j Hk Hi Hj. assert (Hlt : k < length L). { rewrite <- (Forall2_len _ _ _ HC). apply nth_error_Some. congruence. }
  destruct (nth_error L k) as [l|] eqn:EL; [|apply nth_error_None in EL; lia].
  pose proof (Forall2_nth _ _ _ HC k _ _ Hk EL) as (EW & _). rewrite <- EW in Hi, Hj.
  assert (Hsh : shaped (nr x) l) by (eapply Forall_forall; [exact HSh|eapply nth_error_In; eauto]). destruct Hsh as (A1 & A2 & A3 & _).
  set (m := fun r => match pass_layers junk n H (row_of x r) (row_of y r) with Ok Lr => nth k Lr l | _ => l end).
  pose proof (mean_grad l m i j) as X. cbv zeta in X. rewrite A1 in X. rewrite A2, A3 in X.
  transitivity (at_ (l_grad l) i j). { f_equal. rewrite (nth_indep _ mempty (l_grad l)) by now rewrite map_length. rewrite map_nth. f_equal. now apply nth_error_nth. }
  rewrite X; auto.
  - f_equal. apply sumN_ext. intros r Hr. unfold m. rewrite pass_grads_layers. destruct (Hrow r Hr) as (Lr & -> & HG). cbn [bind entry].
    rewrite (nth_indep _ mempty (l_grad l)) by (rewrite map_length, <- (Forall2_len _ _ _ HG); assumption). now rewrite map_nth.
  - apply HS.
  - intros r Hr. unfold m. destruct (Hrow r Hr) as (Lr & -> & HG). destruct (nth_error Lr k) as [lr|] eqn:Er.
    + rewrite (nth_error_nth _ _ _ Er). eapply Forall2_nth; eauto.
    + apply nth_error_None in Er. rewrite <- (Forall2_len _ _ _ HG) in Er. lia.
Qed.

(** A mini-batch: rows idx of (x, y), in any order and possibly repeated. *)
Theorem C62_minibatch : forall (junk : nat -> R) (n : rnet) (H : rheap) p c (x y : rmat) (idx : list nat), 1 <= p -> well_sized (D := Rdt) n H p c ->
  samples (D := Rdt) p c (x, y) -> idx <> [] ->
  exists Gs ls, pass_grads (D := Rdt) junk n H (pick x idx) (pick y idx) = Ok Gs /\ hidden_layers (D := Rdt) n H = Ok ls /\
    Forall2 (fun l G => nr G = nr (l_W l) /\ nc G = nc (l_W l) /\ wf G) (ls ++ [o_l (n_output n)]) Gs /\
    forall k l i j, nth_error (ls ++ [o_l (n_output n)]) k = Some l -> i < nr (l_W l) -> j < nc (l_W l) ->
      at_ (nth k Gs mempty) i j =
        (sumL (map (fun r => entry (D := Rdt) (pass_grads (D := Rdt) junk n H (row_of x r) (row_of y r)) k i j) idx) / INR (length idx))%R.
Proof.
  intros junk n H p c x y idx Hp Hw (S1 & S2 & S3 & S4) Hne. cbn [fst snd] in *.
  assert (HS : samples (D := Rdt) p c (pick x idx, pick y idx)). { repeat split; cbn; auto. destruct idx; [congruence|cbn; lia]. }
  destruct (C62_mean junk n H p c _ _ Hp Hw HS) as [(Gs & ls & A & B & C & E) _]. exists Gs, ls. split; [exact A|]. split; [exact B|]. split; [exact C|].
  intros k l i j Hk Hi Hj. rewrite (E k l i j Hk Hi Hj). cbn [pick nr mk]. f_equal.
  assert (Er : forall (m : rmat) r, r < length idx -> row_of (pick m idx) r = row_of m (nth r idx 0)).
  { intros m r Hr. unfold row_of. cbn [pick nc mk]. apply (mk_ext (D := Rdt)). intros i' j' Hi' Hj'. unfold pick. rewrite (at_mk (D := Rdt)) by assumption. reflexivity. }
  transitivity (sumN (length idx) (fun r => entry (D := Rdt) (pass_grads (D := Rdt) junk n H (row_of x (nth r idx 0)) (row_of y (nth r idx 0))) k i j)).
  { apply sumN_ext. intros r Hr. now rewrite !Er. }
  unfold sumN. f_equal. clear. induction idx as [|a idx IH]; [reflexivity|]. cbn [length seq map nth]. rewrite <- seq_shift, map_map. apply f_equal. exact IH.
Qed.

(** The order of the rows does not matter: the same gradients, hence the same training. *)
Lemma sumL_perm l l' : Permutation l l' -> sumL l = sumL l'.
Proof. unfold sumL. induction 1; cbn; lra. Qed.
Lemma grads_perm junk (n : rnet) (H : rheap) p c (x y : rmat) idx idx' : 1 <= p -> well_sized (D := Rdt) n H p c -> samples (D := Rdt) p c (x, y) -> idx <> [] -> Permutation idx idx' ->
  pass_grads (D := Rdt) junk n H (pick x idx) (pick y idx) = pass_grads (D := Rdt) junk n H (pick x idx') (pick y idx').
Proof.
  intros Hp Hw HS Hne HP. destruct (C62_minibatch junk n H p c x y idx Hp Hw HS Hne) as (G & ls & A & B & C & E).
  assert (Hne' : idx' <> []) by (intros ->; apply Permutation_sym, Permutation_nil in HP; contradiction).
  destruct (C62_minibatch junk n H p c x y idx' Hp Hw HS Hne') as (G' & ls' & A' & B' & C' & E').
  pose proof (eq_trans (eq_sym B) B') as Q. injection Q as <-. rewrite A, A'. f_equal.
  apply nth_error_ext. intros k. destruct (nth_error (ls ++ [o_l (n_output n)]) k) as [l|] eqn:El.
  2:{ apply nth_error_None in El. rewrite !(proj2 (nth_error_None _ _)); [reflexivity| |]; [rewrite <- (Forall2_len _ _ _ C')|rewrite <- (Forall2_len _ _ _ C)]; assumption. }
  assert (Hlt : k < length (ls ++ [o_l (n_output n)])) by (apply nth_error_Some; congruence).
  rewrite (nth_error_nth' G mempty) by (rewrite <- (Forall2_len _ _ _ C); assumption). rewrite (nth_error_nth' G' mempty) by (rewrite <- (Forall2_len _ _ _ C'); assumption). f_equal.
  assert (X : nth_error G k = Some (nth k G mempty)) by (apply nth_error_nth'; rewrite <- (Forall2_len _ _ _ C); assumption).
  assert (X' : nth_error G' k = Some (nth k G' mempty)) by (apply nth_error_nth'; rewrite <- (Forall2_len _ _ _ C'); assumption).
  destruct (Forall2_nth _ _ _ C k _ _ El X) as (N1 & N2 & N3). destruct (Forall2_nth _ _ _ C' k _ _ El X') as (N1' & N2' & N3').
  apply (mat_ext (D := Rdt)); try assumption; try congruence. intros i j Hi Hj. rewrite N1 in Hi. rewrite N2 in Hj. rewrite (E k l i j El Hi Hj), (E' k l i j El Hi Hj).
  rewrite (Permutation_length HP). f_equal. apply sumL_perm. now apply Permutation_map.
Qed.

(** One training step seen through the gradients. *)
Lemma step_by_grads junk (n : rnet) (H : rheap) ls p c x y n1 H1 : fits_net (D := Rdt) n H ls p c -> 1 <= p -> samples (D := Rdt) p c (x, y) ->
  train_step (D := Rdt) junk n H x y = Ok (n1, H1) ->
  exists Gs L1, pass_grads (D := Rdt) junk n H x y = Ok Gs /\ dense_net n1 H1 L1 /\ kc n n1 /\
    Forall2 (fun lG l' => conf (stepped_with (fst lG) (snd lG)) l') (combine (ls ++ [o_l (n_output n)]) Gs) (L1 ++ [o_l (n_output n1)]) /\ length Gs = length (ls ++ [o_l (n_output n)]).
Proof.
  intros Hf Hp HS HT. destruct (pass_full junk n H ls p c x y Hf Hp HS) as (L & HL & HSh & HC).
  unfold train_step in HT. apply bind_ok in HT as ([[a m1] K1] & HF & HT). apply bind_ok in HT as ([m2 K2] & HB & HU).
  destruct (pass_dense (D := Rdt) junk n H ls x y a m1 K1 m2 K2 (proj1 Hf) HF HB) as (b & l1 & d & l2 & dx & E1 & E2 & E3 & E4 & E5 & E6 & E7 & E8 & E9 & E10 & _).
  pose proof HL as HL0. unfold pass_layers in HL. rewrite HF in HL. cbn [bind] in HL. rewrite HB in HL. cbn [bind] in HL. rewrite (hidden_layers_dense m2 K2 l2) in HL by apply E9.
  cbn [bind net_getoutput output_copy o_l] in HL. rewrite layer_copy_id in HL. injection HL as <-.
  destruct (net_update_dense m2 K2 l2 n1 H1 E9 HU) as (G1 & G2 & -> & ->).
  exists (map l_grad (l2 ++ [o_l (n_output m2)])), (map stepped l2). rewrite pass_grads_layers, HL0. split; [reflexivity|].
  split. { split; [apply E9|]. cbn. eapply dense_put; [exact E9|]. apply map_length. }
  split. { pose proof (forward_kc _ _ _ _ _ _ _ HF) as [A _]. pose proof (backprop_kc _ _ _ _ _ _ HB) as [B _]. exact (kc_trans _ _ _ A B). }
  split. 2:{ rewrite map_length. symmetry. apply (Forall2_len _ _ _ HC). }
  cbn [set_output with_layer n_output o_l]. replace (map stepped l2 ++ [stepped (o_l (n_output m2))]) with (map stepped (l2 ++ [o_l (n_output m2)])) by now rewrite map_app.
  clear -HC. induction HC as [|l m la lb (A & B & C & E) HC IH]; cbn [map combine]; constructor; auto. cbn [fst snd].
  unfold conf, stepped, stepped_with, set_W. cbn. rewrite A, B, C, E. auto.
Qed.
Lemma step_perm junk (n : rnet) (H : rheap) (n' : rnet) (H' : rheap) p c (x y : rmat) idx idx' n1 H1 : 1 <= p -> well_sized (D := Rdt) n H p c -> samples (D := Rdt) p c (x, y) -> idx <> [] -> Permutation idx idx' ->
  same_config n H n' H' -> train_step (D := Rdt) junk n H (pick x idx) (pick y idx) = Ok (n1, H1) ->
  exists n1' H1', train_step (D := Rdt) junk n' H' (pick x idx') (pick y idx') = Ok (n1', H1') /\ same_config n1 H1 n1' H1'.
Proof.
  intros Hp Hw HS Hne HP HC HT. pose proof (grads_perm junk n H p c x y idx idx' Hp Hw HS Hne HP) as EG. destruct (proj1 (well_fits n H p c) Hw) as ((ls & Hf) & _).
  assert (HS1 : forall l, l <> [] -> samples (D := Rdt) p c (pick x l, pick y l)). { intros l Hl. destruct HS as (S1 & S2 & S3 & S4). repeat split; cbn; auto. destruct l; [congruence|cbn; lia]. }
  assert (Hne' : idx' <> []) by (intros ->; apply Permutation_sym, Permutation_nil in HP; contradiction).
  destruct (train_step_ok (D := Rdt) junk n H ls p c (pick x idx') (pick y idx') Hf Hp) as (m1 & K1 & k1 & HT' & _); try apply (HS1 idx' Hne').
  destruct (step_by_grads junk n H ls p c _ _ n1 H1 Hf Hp (HS1 idx Hne) HT) as (Gs & L1 & A1 & A2 & A3 & A4 & A5).
  destruct (step_by_grads junk n H ls p c _ _ m1 K1 Hf Hp (HS1 idx' Hne') HT') as (Gs' & L1' & A1' & A2' & A3' & A4' & A5').
  pose proof (eq_trans (eq_sym A1) (eq_trans EG A1')) as Q. injection Q as <-.
  assert (S1 : same_config n1 H1 m1 K1).
  { assert (X : Forall2 conf (L1 ++ [o_l (n_output n1)]) (L1' ++ [o_l (n_output m1)])).
    { revert A4 A4'. generalize (combine (ls ++ [o_l (n_output n)]) Gs) (L1 ++ [o_l (n_output n1)]) (L1' ++ [o_l (n_output m1)]). clear.
      intros l a b H. revert b. induction H as [|u v l a Hu H IH]; intros b Hb; inversion Hb as [|u' v' l' b' Hu' Hb']; subst; constructor; auto. eapply conf_trans; [eapply conf_sym; exact Hu|exact Hu']. }
    pose proof (Forall2_app_inv_l _ _ X) as (u & v & X1 & X2 & X3). inversion X2 as [|? w ? ? X4 X5]; subst. inversion X5; subst. apply app_inj_tail in X3 as [<- <-].
    eapply dense_same_config; [exact A2|exact A2'|exact X1|exact X4| |]; destruct A3, A3'; congruence. }
  destruct (train_step_conf (D := Rdt) junk n H n' H' _ _ m1 K1 HC HT') as (n1' & H1' & T1 & T2 & _). exists n1', H1'. split; [exact T1|]. eapply same_config_trans; eauto.
Qed.

(** Whole training runs of the plain trainer: presenting the rows of each call in another order (and starting from a
    network with the same parameters) gives a network with the same weights, rates and activations, hence the same function. *)
Theorem C62_order : forall (junk : nat -> R) p c (calls : list (rmat * rmat * (list nat * list nat))) (t : trainer Rdt) (n : rnet) (H : rheap) (n' : rnet) (H' : rheap) t1 n1 H1,
  1 <= p -> well_sized (D := Rdt) n H p c -> same_config n H n' H' ->
  Forall (fun d => samples (D := Rdt) p c (fst d) /\ fst (snd d) <> [] /\ Permutation (fst (snd d)) (snd (snd d))) calls ->
  foldM (fun '(t, n, H) d => feeddata (D := Rdt) junk t n H (pick (fst (fst d)) (fst (snd d))) (pick (snd (fst d)) (fst (snd d)))) calls (t, n, H) = Ok (t1, n1, H1) ->
  exists n1' H1',
    foldM (fun '(t, n, H) d => feeddata (D := Rdt) junk t n H (pick (fst (fst d)) (snd (snd d))) (pick (snd (fst d)) (snd (snd d)))) calls (t, n', H') = Ok (t1, n1', H1') /\
    same_config n1 H1 n1' H1'.
Proof.
  intros junk p c calls. induction calls as [|[[x y] [i i']] calls IH]; intros t n H n' H' t1 n1 H1 Hp Hw HC HD E; cbn [foldM] in *.
  - injection E as <- <- <-. eauto.
  - inversion HD as [|u us (D1 & D2 & D3) D4]; subst. cbn [fst snd] in *. apply bind_ok in E as ([[t2 n2] H2] & E1 & E2).
    unfold feeddata in E1 |- *. apply bind_ok in E1 as ([n0 H0] & F0 & E1). apply bind_ok in E1 as ([n3 H3] & F1 & E1). injection E1 as <- <- <-.
    destruct (decay_conf (D := Rdt) (tick t) n H n' H' n0 H0 HC F0) as (n0' & H0' & F0' & C0 & _). rewrite F0'. cbn [bind].
    assert (Hw0 : well_sized (D := Rdt) n0 H0 p c).
    { apply well_fits in Hw as ((ls & Hf) & W1 & W2). destruct (decay_ok (D := Rdt) (tick t) n H ls p c Hf) as (m & K & l & Em & Fm & [Km1 Km2] & _). pose proof (eq_trans (eq_sym F0) Em) as Q. injection Q as -> ->.
      apply well_fits. split; [eauto|]. rewrite Km1, Km2. auto. }
    destruct (step_perm junk n0 H0 n0' H0' p c x y i i' n3 H3 Hp Hw0 D1 D2 D3 C0 F1) as (n3' & H3' & F1' & C3). rewrite F1'. cbn [bind].
    apply (IH (tick t) n3 H3 n3' H3' t1 n1 H1 Hp); [|exact C3|exact D4|exact E2]. apply well_fits in Hw0 as ((ls & Hf) & W1 & W2).
    assert (HS1 : samples (D := Rdt) p c (pick x i, pick y i)). { destruct D1 as (S1 & S2 & S3 & S4). repeat split; cbn; auto. destruct i; [congruence|cbn; lia]. }
    destruct (step_ok (D := Rdt) junk n0 H0 ls p c _ _ Hf Hp HS1) as (m & K & l & Em & Fm & [Km1 Km2] & _). pose proof (eq_trans (eq_sym F1) Em) as Q. injection Q as -> ->.
    apply well_fits. split; [eauto|]. rewrite Km1, Km2. auto.
Qed.

(** ** The hypotheses can be met: a network with a hidden layer; two samples given in both orders. *)
Definition exmo : output Rdt := O (L (D := Rdt) 1%R 2%R identity mempty mempty mempty mempty (Mat (D := Rdt) 3 1 [1; 2; -3]%R) mempty) quad_cost quad_costd mempty.
Definition exmn : rnet := N (D := Rdt) mempty quad_cost quad_costd (layer_default (D := Rdt)) [0] exmo.
Definition exmH : rheap := [HDense (L (D := Rdt) 1%R 0%R identity mempty mempty mempty mempty (Mat (D := Rdt) 2 2 [1; 2; 1; -1]%R) mempty)].
Definition exmx : rmat := Mat (D := Rdt) 2 1 [1; 2]%R.
Definition exmy : rmat := Mat (D := Rdt) 2 1 [5; -3]%R.
Example C62_example : well_sized (D := Rdt) exmn exmH 1 1 /\ samples (D := Rdt) 1 1 (exmx, exmy) /\ same_config exmn exmH exmn exmH /\ Permutation [0; 1] [1; 0] /\
  (* the two rows have different gradients (regularisation included), here at W(0,0) of the output layer *)
  entry (D := Rdt) (pass_grads (D := Rdt) (fun _ => 0%R) exmn exmH (row_of exmx 0) (row_of exmy 0)) 1 0 0 = 4%R /\
  entry (D := Rdt) (pass_grads (D := Rdt) (fun _ => 0%R) exmn exmH (row_of exmx 1) (row_of exmy 1)) 1 0 0 = 19%R /\
  entry (D := Rdt) (pass_grads (D := Rdt) (fun _ => 0%R) exmn exmH exmx exmy) 1 0 0 = (23 / 2)%R.
Proof.
  assert (Hd : dense_hidden exmn exmH). { split; [repeat constructor; auto|]. intros q [<-|[]]. eexists. reflexivity. }
  split.
  { split; [exact Hd|]. split; [|split; [left; reflexivity|left; reflexivity]]. eexists. split; [reflexivity|]. exists 2. cbn. repeat split; lia. }
  split; [repeat split; cbn; lia|]. split; [now apply same_config_refl|]. split; [apply perm_swap|]. repeat split; cbv -[Rplus Rmult Rminus Rdiv Rinv Ropp IZR]; lra.
Qed.
(** Picking all rows in order gives the data set back, so [idx] and [idx'] above include the data set itself. *)
Theorem C62_pick_self : forall x : rmat, wf x -> pick x (seq 0 (nr x)) = x.
Proof.
  intros x W. unfold pick. rewrite seq_length. transitivity (mk (D := Rdt) (nr x) (nc x) (at_ x)); [|now apply mk_at]. apply (mk_ext (D := Rdt)). intros i j Hi Hj. now rewrite seq_nth.
Qed.
Print Assumptions C62_order.

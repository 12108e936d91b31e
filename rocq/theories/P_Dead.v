(** P_Dead.v - C77: a unit of the first hidden layer whose activation is flat on all the training samples never learns. *)
From Verif Require Import Base Mat Act Layer Conv Misc Net NetP RInst RMat Trainer TrainP TrainP2 ExNet P_Train P_Decay P_Mom FunEq ConfEq World Session SessP InvP P_Sym.
From Coq Require Import Arith List ZArith Lia Reals Lra.
Import ListNotations.
Local Open Scope nat_scope.

(** Bias and incoming weights of unit p applied to row r of x. *)
Definition net_input (w : mat Rdt) (p : nat) (x : mat Rdt) (r : nat) : R :=
  (at_ w 0 p + sumN (nc x) (fun j => at_ w (S j) p * at_ x r j))%R.
(** The gradient of unit p's activation vanishes on every sample. *)
Definition flat_on (l : layer Rdt) (p : nat) (x : mat Rdt) : Prop :=
  forall r, r < nr x -> actd (l_act l) (net_input (l_W l) p x r) = 0%R.

Section Dead.
Context (junk : nat -> Rdt) (p : nat) (l0 : layer Rdt).
Notation mat := (mat Rdt).
Notation layer := (layer Rdt).
(** Layer 0 has kept its activation and column p; there is a next layer. *)
Definition Pd (c : list layer) : Prop :=
  exists l l', nth_error c 0 = Some l /\ nth_error c 1 = Some l' /\ l_act l = l_act l0 /\ l_lambda l = 0%R /\ nr (l_W l) = nr (l_W l0) /\ nc (l_W l) = nc (l_W l0) /\
    p < nc (l_W l) /\ forall i, i < nr (l_W l) -> at_ (l_W l) i p = at_ (l_W l0) i p.
Definition Gd (i : nat) (g : mat) : Prop := i = 0 -> p < nc g -> forall a, a < nr g -> at_ g a p = 0%R.
Definition Qd (row : list Rdt) : Prop :=
  actd (l_act l0) (at_ (l_W l0) 0 p + sumN (length row) (fun j => at_ (l_W l0) (S j) p * nth j row 0%R))%R = 0%R.

Lemma sumN_zero n f : (forall k, k < n -> f k = 0%R) -> sumN n f = 0%R.
Proof. induction n as [|n IH]; intros E; [reflexivity|]. rewrite sumN_last, IH by (intros; apply E; lia). rewrite E by lia. apply Rplus_0_r. Qed.
Lemma flat_rows x : (forall l, l_act l = l_act l0 -> l_W l = l_W l0 -> flat_on l p x) <-> rows_in (D := Rdt) Qd x.
Proof.
  assert (X : forall r, sumN (length (row_list (D := Rdt) x r)) (fun j => at_ (l_W l0) (S j) p * nth j (row_list (D := Rdt) x r) 0%R)%R = sumN (nc x) (fun j => at_ (l_W l0) (S j) p * at_ x r j)%R).
  { intros r. unfold row_list. rewrite map_length, seq_length. apply sumN_ext. intros j Hj. rewrite (nth_indep _ 0%R (at_ x r 0)) by (rewrite map_length, seq_length; assumption).
    rewrite (map_nth (at_ x r)). rewrite seq_nth by assumption. reflexivity. }
  split.
  - intros F r Hr. unfold Qd. rewrite X. exact (F l0 eq_refl eq_refl r Hr).
  - intros F l A B r Hr. unfold net_input. rewrite A, B. specialize (F r Hr). unfold Qd in F. rewrite X in F. exact F.
Qed.
Lemma dead_pass (cd : costdfun (D := Rdt)) ls (o : layer) x y b ls1 delta dx ls2 : Pd (ls ++ [o]) -> rows_in (D := Rdt) Qd x ->
  lforward ls x = Ok (b, ls1) -> cd y (fwd_out o b) (l_z (fwd_layer o b)) = Ok delta -> fwd_ok (l_W o) b -> nr delta = nr b -> nc delta = nc (l_W o) ->
  lbackprop ls1 (down (fwd_layer o b) delta) = Ok (dx, ls2) ->
  forall i l, nth_error (ls2 ++ [back_layer (fwd_layer o b) delta]) i = Some l -> Gd i (l_grad l).
Proof.
  intros (l & l' & Kl & Kl' & A & La & N1 & N2 & Hp & C) HQ HF _ HO E1 E2 HB. destruct (chain_pass _ _ _ _ _ _ _ _ HF HO E1 E2 HB) as (xs & dl & X0 & _ & X).
  destruct (X 0 l Kl) as ((F1 & F2 & F3) & A1 & A2 & A3 & A4 & A5). destruct (A5 l' Kl') as [A6 A7]. destruct (X 1 l' Kl') as (_ & _ & B2 & B3 & B4 & _). clear X A5. rewrite X0 in *.
  assert (NR : nr (xs 1) = nr x) by (rewrite A1; reflexivity).
  assert (Dl : forall i, i < nr (dl 0) -> at_ (dl 0) i p = 0%R).
  { intros i Hi. assert (Hx : i < nr x) by lia. rewrite A7. unfold back_delta. rewrite at_mk by (cbn [down nr nc mk fwd_layer l_W]; lia). cbn [fwd_layer l_act l_z]. rewrite at_mk by lia.
    rewrite pre_R by lia. assert (Z : net_input (l_W l0) p x i = (at_ (l_W l) 0 p + sumN (nc x) (fun k => at_ x i k * at_ (l_W l) (S k) p))%R).
    { unfold net_input. rewrite (C 0) by lia. f_equal. apply sumN_ext. intros k Hk. rewrite (C (S k)) by lia. apply Rmult_comm. }
    rewrite <- Z, A. pose proof (proj2 (flat_rows x) HQ l0 eq_refl eq_refl i Hx) as F. rewrite F. cbn. apply Rmult_0_r. }
  intros i m Km ->. rewrite A4 in Km. injection Km as <-. cbn [back_layer l_grad]. unfold grad_of. cbn [nr nc mk]. intros Hq a Ha. rewrite at_mk by assumption. cbn [fwd_layer l_pa l_lambda l_W nc mk] in *.
  rewrite La. unfold raw_grad. cbn [l_pa]. rewrite at_mk by assumption. rewrite mdot_R. rewrite sumN_zero. { cbn. lra. }
  cbn [mt nc mk nr]. intros r Hr. cbn [fwd_layer l_pa nr mk] in Hr. rewrite Dl by lia. apply Rmult_0_r.
Qed.
Lemma dead_kept c c' : Pd c -> Forall2 kept c c' -> Pd c'.
Proof.
  intros (l & l' & K1 & K2 & A) F. pose proof (Forall2_len _ _ _ F) as L.
  destruct (nth_error c' 0) as [m|] eqn:M; [|apply nth_error_None in M; assert (0 < length c) by (apply nth_error_Some; congruence); lia].
  destruct (nth_error c' 1) as [m'|] eqn:M'; [|apply nth_error_None in M'; assert (1 < length c) by (apply nth_error_Some; congruence); lia].
  destruct (Forall2_nth _ _ _ F _ _ _ K1 M) as (W1 & W2 & W3). exists m, m'. rewrite W1, W2, W3. auto.
Qed.
Lemma dead_step c gs : Pd c -> Forall2 gfit c gs -> (forall i g, nth_error gs i = Some g -> Gd i g) -> Pd (steps_with c gs).
Proof.
  intros (l & l' & K1 & K2 & A & B & N1 & N2 & Hp & C) F HG.
  destruct (steps_nth c gs 0 l F K1) as (g & Eg & [S1 S2] & Es). destruct (steps_nth c gs 1 l' F K2) as (g' & Eg' & _ & Es').
  exists (stepped_with l g), (stepped_with l' g'). unfold stepped_with in *. cbn [set_W l_W l_act l_lambda nr nc mk]. repeat (split; [assumption|]).
  intros i Hi. rewrite at_mk by assumption. rewrite (HG 0 g Eg eq_refl) by lia. rewrite C by assumption. cbn. lra.
Qed.
Lemma dead_mix i u v a g : Gd i a -> Gd i g -> nr a = nr g -> nc a = nc g -> Gd i (mixed u v a g).
Proof. intros A B E1 E2 Ei Hp b Hb. unfold mixed in *. cbn [nr nc mk] in *. rewrite at_mk by assumption. rewrite (A Ei), (B Ei) by lia. cbn. lra. Qed.
Lemma dead_zero i m : Gd i (zero_like m).
Proof. unfold zero_like, zeros. intros _ Hp a Ha. cbn [nr nc mk] in *. rewrite at_mk by assumption. reflexivity. Qed.
End Dead.

(** ** C77 *)
Theorem C77_dead : forall (junk : nat -> Rdt) cs (data : list (mat Rdt * mat Rdt * bool)) (n : net Rdt) (H : lheap Rdt) l p kd kd' n' H',
  dense_hidden n H -> net_gethidden n H 0 = Ok l -> l_lambda l = 0%R -> p < nc (l_W l) ->
  Forall (fun d => flat_on l p (fst (fst d))) data ->
  new_bound cs n H = Ok kd -> feeds junk data (kd, n, H) = Ok (kd', n', H') ->
  exists l', net_gethidden n' H' 0 = Ok l' /\ l_act l' = l_act l /\ (forall i, i < nr (l_W l) -> at_ (l_W l') i p = at_ (l_W l) i p) /\
    forall (x : mat Rdt) r, nc x + 1 = nr (l_W l) -> net_input (l_W l') p x r = net_input (l_W l) p x r.
Proof.
  intros junk cs data n H l p kd kd' n' H' Hd HL Hla Hp HA HN HF. destruct (dense_ls n H Hd) as [ls Hn].
  assert (K0 : nth_error ls 0 = Some l). { rewrite (gethidden_at n H ls) in HL by apply Hn. destruct (nth_error ls 0); congruence. }
  assert (HI : inv (Pd p l) (o_costd (n_output n)) n H).
  { split; [reflexivity|]. exists ls. split; [assumption|]. destruct ls as [|l0 ls]; [discriminate|]. cbn in K0. injection K0 as ->.
    assert (X : exists l', nth_error ((l :: ls) ++ [o_l (n_output n)]) 1 = Some l') by (destruct ls; cbn; eauto). destruct X as [l' X]. exists l, l'. split; [reflexivity|]. split; [exact X|]. repeat (split; [first [reflexivity|assumption]|]). reflexivity. }
  assert (HQ : Forall (fun d => rows_in (D := Rdt) (Qd p l) (fst (fst d))) data).
  { clear -HA. induction HA as [|d data A HA IH]; constructor; auto. apply flat_rows. intros m Em Wm r Hr. rewrite Em. unfold net_input. rewrite Wm. apply A. exact Hr. }
  assert (X : inv (Pd p l) (o_costd (n_output n)) n' H' /\ tok (Gd p) n' H' kd').
  { eapply (feeds_inv junk (Pd p l) (Gd p) (fun x _ => rows_in (D := Rdt) (Qd p l) x) (o_costd (n_output n))); try exact HF; try exact HI; try exact HQ.
    - intros x y i xi yi A B _. eapply mrow_in; eauto.
    - intros x y b tx ty i j xb yb A B _ C _. eapply mrows_in; [eapply wrap_in; eauto|exact C].
    - apply dead_kept.
    - apply dead_pass.
    - apply dead_step.
    - apply dead_mix.
    - eapply new_tok; [exact Hd|apply dead_zero|exact HN]. }
  destruct X as [(_ & ls' & Hn' & m & m' & K & K' & A & B & N1 & N2 & Hp' & C) _].
  assert (len : length ls' >= 1). { assert (X : 1 < length (ls' ++ [o_l (n_output n')])) by (apply nth_error_Some; congruence). rewrite app_length in X. cbn in X. lia. }
  rewrite nth_error_app1 in K by lia. exists m. split; [rewrite (gethidden_at n' H' ls') by apply Hn'; now rewrite K|]. split; [assumption|]. split; [intros i Hi; apply C; lia|].
  intros x r Ex. unfold net_input. rewrite C by lia. f_equal. apply sumN_ext. intros j Hj. rewrite C by lia. reflexivity.
Qed.

(** The rectifier: a unit that is off on every sample of the data stays off on them, and its weights never change. *)
Definition off_on (w : mat Rdt) (p : nat) (x : mat Rdt) : Prop := nc x + 1 = nr w /\ forall r, r < nr x -> (net_input w p x r < 0)%R.
Theorem C77_relu : forall (junk : nat -> Rdt) cs (data : list (mat Rdt * mat Rdt * bool)) (n : net Rdt) (H : lheap Rdt) l p kd kd' n' H',
  dense_hidden n H -> net_gethidden n H 0 = Ok l -> l_act l = relu -> l_lambda l = 0%R -> p < nc (l_W l) ->
  Forall (fun d => off_on (l_W l) p (fst (fst d))) data ->
  new_bound cs n H = Ok kd -> feeds junk data (kd, n, H) = Ok (kd', n', H') ->
  exists l', net_gethidden n' H' 0 = Ok l' /\ l_act l' = relu /\ (forall i, i < nr (l_W l) -> at_ (l_W l') i p = at_ (l_W l) i p) /\
    Forall (fun d => forall r, r < nr (fst (fst d)) -> act (l_act l') (net_input (l_W l') p (fst (fst d)) r) = 0%R) data.
Proof.
  intros junk cs data n H l p kd kd' n' H' Hd HL HR Hla Hp HA HN HF.
  destruct (C77_dead junk cs data n H l p kd kd' n' H') as (l' & A & B & C & E); auto.
  - eapply Forall_impl; [|exact HA]. intros d [_ O] r Hr. specialize (O r Hr). rewrite HR. unfold relu, initactfunc. cbn [actd]. unfold f_relugrad, lit. cbn [dleb Rdt dofZ]. unfold Rleb'. destruct (Rle_dec 0 _); [lra|reflexivity].
  - exists l'. split; [assumption|]. split; [congruence|]. split; [assumption|]. eapply Forall_impl; [|exact HA]. intros d [O1 O] r Hr. rewrite E by assumption. specialize (O r Hr). rewrite B, HR. unfold relu, initactfunc. cbn [act]. unfold f_relu, lit. cbn [dleb Rdt dofZ]. unfold Rleb'.
    destruct (Rle_dec 0 _); [lra|reflexivity].
Qed.

(** ** The hypotheses can be met *)
(** One input, two rectifier units, the second with bias -9 and weight 1; samples 1 and 2. *)
Definition dd_layer : layer Rdt := L (D := Rdt) 1%R 0%R relu mempty mempty mempty mempty (rm 2 2 [1; 1; -9; 1]%R) mempty.
Definition dd_H : lheap Rdt := [HDense dd_layer].
Example C77_example (junk : nat -> Rdt) : off_on (l_W dd_layer) 1 exrx /\
  exists kd' n' H', feeds junk [(exrx, exry, true); (exrx, exry, false)] (KPlain trainer_new, exrn, dd_H) = Ok (kd', n', H') /\
  exists l', net_gethidden n' H' 0 = Ok l' /\ at_ (l_W l') 0 1 = (-9)%R /\ at_ (l_W l') 1 1 = 1%R.
Proof.
  assert (O : off_on (l_W dd_layer) 1 exrx). { split; [reflexivity|]. intros [|[|r]] Hr; cbn in Hr; try lia; unfold net_input, sumN, sumL; cbn [exrx rm nc seq map fold_right]; unfold at_; cbn [exrx dd_layer l_W rm nc nr el nth Nat.mul Nat.add]; lra. }
  split; [exact O|].
  assert (DH : dense_hidden exrn dd_H). { split; [repeat constructor; intros []|]. intros q [<-|[]]. eexists. reflexivity. }
  destruct (C56_trainer junk 1 1 [(exrx, exry, true); (exrx, exry, false)] trainer_new exrn dd_H) as (t' & n' & H' & E & _); [lia| |repeat constructor; cbn; lia|].
  { split; [assumption|]. split; [exists [dd_layer]; split; [reflexivity|]; exists 2; cbn; repeat split; lia|]. split; left; reflexivity. }
  assert (E2 : feeds junk [(exrx, exry, true); (exrx, exry, false)] (KPlain trainer_new, exrn, dd_H) = Ok (KPlain t', n', H')).
  { apply feeds_plain. exact E. }
  exists (KPlain t'), n', H'. split; [exact E2|].
  destruct (C77_relu junk (NPlain None) [(exrx, exry, true); (exrx, exry, false)] exrn dd_H dd_layer 1 (KPlain trainer_new) (KPlain t') n' H') as (l' & A & _ & C & _); try reflexivity; try assumption.
  { cbn. lia. }
  { repeat constructor; apply O. }
  exists l'. split; [exact A|]. split; [rewrite C by (cbn; lia); reflexivity|rewrite C by (cbn; lia); reflexivity].
Qed.
(** At the kink the rectifier's gradient is 1, so [<] cannot be weakened to [<=]. *)
Example C77_kink : actd (relu (D := Rdt)) 0%R = 1%R.
Proof. unfold relu, initactfunc. cbn [actd]. unfold f_relugrad, lit. cbn [dleb Rdt dofZ]. unfold Rleb'. destruct (Rle_dec 0 0); [reflexivity|lra]. Qed.

(** P_Bound.v - C96: regularised training cannot diverge.  Real arithmetic. *)
From Verif Require Import Base Mat RInst RMat Act Layer Conv Misc Net NetP Trainer TrainP TrainP2 ExNet P_Train P_Decay P_Accept P_Mom FunEq ConfEq World Session SessP InvP InvR P_Sym Grad P_Act P_Round Bound.
From Coq Require Import Arith List ZArith Lia Reals Lra.
Import ListNotations.
Local Open Scope nat_scope.

(** ** Specification *)
Notation rnet := (net Rdt).
Notation rheap := (lheap Rdt).
(** An activation that is bounded together with the derivative backprop uses. *)
Definition bounded_act (f : actfunc Rdt) : Prop := exists A : R, forall z : R, (Rabs (act f z) <= A /\ Rabs (actd f z) <= A)%R.
(** Softmax output, or quadratic or cross-entropy output whose activation answers in [0,1]. *)
Definition probability_output (o : output Rdt) : Prop :=
  o_costd o = sm_costd \/ ((o_costd o = ce_costd \/ o_costd o = quad_costd) /\ forall z : R, (0 <= act (l_act (o_l o)) z <= 1)%R).
(** The rate a trainer's decay sets when it fires. *)
Definition decayed_rate (d : option (R * R * Z)) (e : R) : Prop := match d with None => False | Some (r0, k, step) => e = (r0 * exp (- k * IZR step))%R end.
Definition decay_of (cs : nspec Rdt) : option (R * R * Z) := match cs with NPlain d | NSgd d | NBatch _ d | NMom _ d => d end.
Definition no_momentum (cs : nspec Rdt) : Prop := match cs with NMom _ _ => False | _ => True end.
(** Every layer is regularised, with a rate at most 1 / lambda; so would be the decayed rate. *)
Definition damped (d : option (R * R * Z)) (l : layer Rdt) : Prop :=
  (0 < l_lambda l)%R /\ (0 <= l_lrate l)%R /\ (l_lrate l * l_lambda l <= 1)%R /\ forall e, decayed_rate d e -> (0 <= e)%R /\ (e * l_lambda l <= 1)%R.
(** Features of size at most B, labels in [0,1]. *)
Definition features (B : R) (x : mat Rdt) : Prop := forall r k, r < nr x -> k < nc x -> (Rabs (at_ x r k) <= B)%R.
Definition probabilities (y : mat Rdt) : Prop := forall r j, r < nr y -> j < nc y -> (0 <= at_ y r j <= 1)%R.
Definition within (M : R) (W : mat Rdt) : Prop := forall i j, i < nr W -> j < nc W -> (Rabs (at_ W i j) <= M)%R.

(** ** Proof *)
Lemma list_bound (l : list R) : exists w : R, (0 <= w)%R /\ forall k, (Rabs (nth k l 0%R) <= w)%R.
Proof.
  induction l as [|a l (w & Hw & IH)]; [exists 0%R; split; [lra|]; intros [|k]; cbn; rewrite Rabs_R0; lra|]. exists (Rmax (Rabs a) w). split; [eapply Rle_trans; [exact Hw|apply Rmax_r]|]. intros [|k]; cbn [nth]; [apply Rmax_l|]. eapply Rle_trans; [apply IH|apply Rmax_r].
Qed.
Lemma mat_bound (W : mat Rdt) : exists w : R, (0 <= w)%R /\ forall i j, (Rabs (at_ W i j) <= w)%R.
Proof. destruct (list_bound (el W)) as (w & A & B). exists w. split; [exact A|]. intros i j. apply B. Qed.
Lemma chain_bound (c : list (layer Rdt)) : exists w : R, (0 <= w)%R /\ Forall (fun l => wbound l w) c.
Proof.
  induction c as [|l c (w & A & B)]; [exists 0%R; split; [lra|constructor]|]. destruct (mat_bound (l_W l)) as (v & Hv & V). exists (Rmax v w). split; [eapply Rle_trans; [exact A|apply Rmax_r]|]. constructor.
  - intros i j _ _. eapply Rle_trans; [apply V|apply Rmax_l].
  - eapply Forall_impl; [|exact B]. intros m Hm i j Hi Hj. eapply Rle_trans; [apply Hm; assumption|apply Rmax_r].
Qed.
Lemma acts_bound (c : list (layer Rdt)) : Forall (fun l => bounded_act (l_act l)) c -> exists A : R, (0 <= A)%R /\ Forall (hidden_bounded A A) c.
Proof.
  induction 1 as [|l c (a & Ha) _ (A & HA & B)]; [exists 0%R; split; [lra|constructor]|]. exists (Rmax a A). split; [eapply Rle_trans; [exact HA|apply Rmax_r]|]. constructor.
  - split; intros z; (eapply Rle_trans; [apply (Ha z)|apply Rmax_l]).
  - eapply Forall_impl; [|exact B]. intros m [M1 M2]. split; intros z; (eapply Rle_trans; [apply M1 || apply M2|apply Rmax_r]).
Qed.
Lemma fin_bound (f : nat -> R) n : exists M : R, forall i, i < n -> (f i <= M)%R.
Proof.
  induction n as [|n (M & IH)]; [exists 0%R; lia|]. exists (Rmax (f n) M). intros i Hi. destruct (Nat.eq_dec i n) as [->|]; [apply Rmax_l|]. eapply Rle_trans; [apply IH; lia|apply Rmax_r].
Qed.

(** The delta of such an output layer sums to at most 1 over the samples. *)
Lemma mean_bound m (f : nat -> R) : 1 <= m -> (forall r, r < m -> (Rabs (f r) <= 1)%R) -> (sumN m (fun r => Rabs (f r / INR m)) <= 1)%R.
Proof.
  intros Hm Hf. assert (0 < INR m)%R by (apply lt_0_INR; lia). eapply Rle_trans; [apply (sumN_le _ _ (fun _ => / INR m)%R)|].
  - intros r Hr. unfold Rdiv. rewrite Rabs_mult, (Rabs_right (/ INR m)) by (left; now apply Rinv_0_lt_compat). rewrite <- (Rmult_1_l (/ INR m)) at 2. apply Rmult_le_compat_r; [left; now apply Rinv_0_lt_compat|auto].
  - rewrite sumN_const. rewrite Rinv_r by lra. lra.
Qed.
Lemma diff1 a b : (0 <= a <= 1)%R -> (0 <= b <= 1)%R -> (Rabs (a - b) <= 1)%R. Proof. intros A B. apply Rabs_le. lra. Qed.
Lemma term_le n (f : nat -> R) j : j < n -> (forall k, k < n -> (0 <= f k)%R) -> (f j <= sumN n f)%R.
Proof.
  intros Hj Hf. assert (X : (0 <= sumN n (fun k => f k - (if Nat.eqb k j then f j else 0)))%R). { apply sumN_nonneg. intros k Hk. destruct (Nat.eqb_spec k j) as [->|]; [lra|]. specialize (Hf k Hk). lra. }
  rewrite sumN_minus in X. rewrite (sumN_single n (fun k => if Nat.eqb k j then f j else 0%R) j Hj) in X; [rewrite Nat.eqb_refl in X; lra|]. intros i _ Ni. destruct (Nat.eqb_spec i j); [lia|reflexivity].
Qed.
Lemma softmax01 c (h : nat -> R) j : j < c -> (0 <= exp (h j) * (1 / sumN c (fun k => exp (h k))) <= 1)%R.
Proof.
  intros Hj. pose proof (term_le c (fun k => exp (h k)) j Hj ltac:(intros; left; apply exp_pos)) as S. cbn beta in S. pose proof (exp_pos (h j)). set (t := sumN c _) in *. assert (0 < / t)%R by (apply Rinv_0_lt_compat; lra). unfold Rdiv. rewrite Rmult_1_l. split; [nra|].
  replace 1%R with (t * / t)%R by (field; lra). apply Rmult_le_compat_r; lra.
Qed.
Lemma delta_bound (out : output Rdt) (o : layer Rdt) (b y z delta : mat Rdt) : probability_output out -> l_act o = l_act (o_l out) -> o_costd out y (fwd_out o b) z = Ok delta -> 1 <= nr b -> probabilities y ->
  forall j, j < nc delta -> (sumN (nr delta) (fun r => Rabs (at_ delta r j)) <= 1)%R.
Proof.
  intros HO EA E Hb Hy. assert (BC : builtin_costd (o_costd out)) by (unfold builtin_costd; destruct HO as [-> | [[-> | ->] _]]; auto).
  assert (S : nr y = nr b /\ nc y = nc (l_W o)). { destruct (Nat.eq_dec (nr y) (nr b)) as [E1|N1]; [destruct (Nat.eq_dec (nc y) (nc (l_W o))) as [E2|N2]; [auto|]|]; exfalso; rewrite (builtin_strict _ BC) in E; try discriminate E; cbn; intros [? ?]; congruence. }
  destruct S as [S1 S2]. intros j Hj. destruct HO as [HC|[HC HA]].
  - rewrite HC in E. unfold fwd_out in E. rewrite (sm_costd_mk y (nr b) (nc (l_W o)) _ z S1 S2) in E. injection E as <-. cbn [nr nc mk] in *. rewrite (sumN_ext _ _ (fun r => Rabs ((exp (act (l_act o) (NetP.pre (l_W o) b r j)) * (1 / sumN (nc (l_W o)) (fun k => exp (act (l_act o) (NetP.pre (l_W o) b r k)))) - at_ y r j) / INR (nr b)))%R) by (intros r Hr; now rewrite at_mk by assumption).
    apply (mean_bound (nr b) (fun r => exp (act (l_act o) (NetP.pre (l_W o) b r j)) * (1 / sumN (nc (l_W o)) (fun k => exp (act (l_act o) (NetP.pre (l_W o) b r k)))) - at_ y r j)%R Hb). intros r Hr. apply diff1; [|apply Hy; lia].
    apply (softmax01 (nc (l_W o)) (fun k => act (l_act o) (NetP.pre (l_W o) b r k)) j Hj).
  - assert (E' : quad_costd y (fwd_out o b) z = Ok delta) by (destruct HC as [HC|HC]; rewrite HC in E; exact E). unfold fwd_out in E'. rewrite (quad_costd_mk y (nr b) (nc (l_W o)) _ z S1 S2) in E'. injection E' as <-. cbn [nr nc mk] in *.
    rewrite (sumN_ext _ _ (fun r => Rabs ((act (l_act o) (NetP.pre (l_W o) b r j) - at_ y r j) / INR (nr b)))%R) by (intros r Hr; now rewrite at_mk by assumption).
    apply (mean_bound (nr b) (fun r => act (l_act o) (NetP.pre (l_W o) b r j) - at_ y r j)%R Hb). intros r Hr. apply diff1; [rewrite EA; apply HA|apply Hy; lia].
Qed.

(** The bounds of layer L - m. *)
Section Budget.
Context (c0 : list (layer Rdt)) (X C w0 : R) (HX : (1 <= X)%R) (HC : (0 <= C)%R) (Hw : (0 <= w0)%R).
Definition lam_at i : R := match nth_error c0 i with Some l => l_lambda l | None => 1%R end.
Definition cols_at i : R := match nth_error c0 i with Some l => INR (nc (l_W l)) | None => 0%R end.
Fixpoint budget (T : nat) (m : nat) : R * R :=
  match m with
  | 0 => (Rmax w0 (X / lam_at T), 1%R)
  | S m' => let d := (C * cols_at (S (T - m)) * fst (budget T m') * snd (budget T m'))%R in (Rmax w0 (X * d / lam_at (T - m)), d)
  end.
Lemma budget_pos T m : (0 <= fst (budget T m))%R /\ (0 <= snd (budget T m))%R.
Proof.
  assert (CA : forall i, (0 <= cols_at i)%R) by (intros i; unfold cols_at; destruct (nth_error c0 i); [apply pos_INR|lra]).
  induction m as [|m [A B]]; cbn [budget fst snd]; (split; [eapply Rle_trans; [exact Hw|apply Rmax_l]|]); [lra|]. repeat apply Rmult_le_pos; auto.
Qed.
Definition Mb T i := fst (budget T (T - i)).
Definition db T i := snd (budget T (T - i)).
Lemma budget_down T i : i < T -> (C * cols_at (S i) * Mb T (S i) * db T (S i) <= db T i)%R.
Proof. intros Hi. unfold db, Mb. replace (T - i) with (S (T - S i)) by lia. cbn [budget snd]. replace (S (T - S (T - S i))) with (S i) by lia. lra. Qed.
Lemma budget_lam T i : i <= T -> (0 < lam_at i)%R -> (X * db T i <= lam_at i * Mb T i)%R.
Proof.
  intros Hi Hl. unfold db, Mb. destruct (T - i) as [|m] eqn:E.
  - assert (i = T) by lia. subst i. cbn [budget fst snd]. apply Rle_trans with (lam_at T * (X / lam_at T))%R; [right; field; lra|]. apply Rmult_le_compat_l; [lra|apply Rmax_r].
  - cbn [budget fst snd]. replace (T - S m) with i by lia. set (d := (C * cols_at (S i) * fst (budget T m) * snd (budget T m))%R). apply Rle_trans with (lam_at i * (X * d / lam_at i))%R; [right; field; lra|]. apply Rmult_le_compat_l; [lra|apply Rmax_r].
Qed.
Lemma budget_w0 T i : (w0 <= Mb T i)%R. Proof. unfold Mb. destruct (T - i); cbn [budget fst]; apply Rmax_l. Qed.
End Budget.

Section Main.
Context (cs : nspec Rdt) (n : rnet) (H : rheap) (B : R).
Notation d := (decay_of cs).
Definition okrate (c0 : list (layer Rdt)) (e : R) : Prop := (0 <= e)%R /\ Forall (fun l : layer Rdt => (e * l_lambda l <= 1)%R) c0.
Definition same_as (l0 l : layer Rdt) : Prop := nr (l_W l) = nr (l_W l0) /\ nc (l_W l) = nc (l_W l0) /\ l_act l = l_act l0 /\ l_lambda l = l_lambda l0 /\ (0 <= l_lrate l)%R /\ (l_lrate l * l_lambda l <= 1)%R.
Definition Pb (c0 : list (layer Rdt)) (M : nat -> R) (c : list (layer Rdt)) : Prop := Forall2 same_as c0 c /\ forall i l, nth_error c i = Some l -> wbound l (M i).
Definition Qf (X : R) (v : list R) : Prop := forall k, k < length v -> (Rabs (nth k v 0%R) <= X)%R.
Definition Qp (v : list R) : Prop := forall k, k < length v -> (0 <= nth k v 0 <= 1)%R.
Lemma row_nth (x : mat Rdt) r k : k < nc x -> nth k (row_list x r) 0%R = (at_ x r k : R).
Proof. intros Hk. unfold row_list. rewrite (nth_indep _ 0%R (at_ x r 0)) by (rewrite map_length, seq_length; exact Hk). rewrite map_nth, seq_nth by assumption. reflexivity. Qed.
Lemma row_len (x : mat Rdt) r : length (row_list x r) = nc x. Proof. unfold row_list. now rewrite map_length, seq_length. Qed.
Lemma features_rows X (x : mat Rdt) : features X x <-> rows_in (D := Rdt) (Qf X) x.
Proof.
  split.
  - intros F r Hr k Hk. rewrite row_len in Hk. rewrite row_nth by assumption. now apply F.
  - intros F r k Hr Hk. rewrite <- row_nth by assumption. apply F; [assumption|now rewrite row_len].
Qed.
Lemma probs_rows (x : mat Rdt) : probabilities x <-> rows_in (D := Rdt) Qp x.
Proof.
  split.
  - intros F r Hr k Hk. rewrite row_len in Hk. rewrite row_nth by assumption. now apply F.
  - intros F r k Hr Hk. rewrite <- row_nth by assumption. apply F; [assumption|now rewrite row_len].
Qed.
Definition Dk (X : R) (x y : mat Rdt) : Prop := features X x /\ probabilities y.
Lemma Dk_row X x y i xi yi : Dk X x y -> mrow x i = Ok xi -> mrow y i = Ok yi -> Dk X xi yi.
Proof. intros [A1 A2] E1 E2. apply features_rows in A1. apply probs_rows in A2. split; [apply features_rows|apply probs_rows]; eapply mrow_in; eauto. Qed.
Lemma Dk_batch X x y b tx ty i j xb yb : Dk X x y -> wrap_rows x b = Ok tx -> wrap_rows y b = Ok ty -> mrows tx i j = Ok xb -> mrows ty i j = Ok yb -> Dk X xb yb.
Proof. intros [A1 A2] E1 E2 E3 E4. apply features_rows in A1. apply probs_rows in A2. split; [apply features_rows|apply probs_rows]; (eapply mrows_in; [eapply wrap_in|]; eauto). Qed.

(** Bounds M, d that fit together keep every layer within its bound. *)
Section Run.
Context (ls0 : list (layer Rdt)) (X C : R) (HX : (1 <= X)%R) (HC : (0 <= C)%R) (M dd : nat -> R) (HM : forall i, (0 <= M i)%R) (Hdd : forall i, (0 <= dd i)%R).
Let o0 := o_l (n_output n).
Let c0 := ls0 ++ [o0].
Context (HP : probability_output (n_output n)) (HH : Forall (hidden_bounded X C) ls0) (HL : forall i l, nth_error c0 i = Some l -> (X * dd i <= l_lambda l * M i)%R) (H1 : (1 <= dd (length ls0))%R)
  (HR : forall i l, nth_error c0 (S i) = Some l -> (C * INR (nc (l_W l)) * M (S i) * dd (S i) <= dd i)%R).
Definition Gb (i : nat) (l : layer Rdt) : Prop := gbound l (X * dd i).
Lemma Pb_kept c c' : Pb c0 M c -> Forall2 (keptr (D := Rdt) (okrate c0)) c c' -> Pb c0 M c'.
Proof.
  intros [S W] K. split.
  - assert (GG : forall l1 l2 : list (layer Rdt), Forall2 same_as l1 l2 -> incl l1 c0 -> forall l3, Forall2 (keptr (D := Rdt) (okrate c0)) l2 l3 -> Forall2 same_as l1 l3).
    { intros l1 l2 F0. induction F0 as [|l0 l l1 l2 (A1 & A2 & A3 & A4 & A5 & A6) F IH]; intros I l3 K3; inversion K3 as [|? l' ? c2 ((E1 & E2 & E3) & E4) K2]; subst; [constructor|]. constructor; [|apply IH; [intros z Hz; apply I; now right|assumption]].
      unfold same_as. rewrite E1, E2, E3. repeat split; try assumption.
      + destruct E4 as [-> | [E4 _]]; assumption.
      + destruct E4 as [-> | [_ E4]]; [assumption|]. rewrite Forall_forall in E4. rewrite A4. apply E4, I. now left. }
    apply (GG c0 c S (incl_refl _) c' K).
  - intros i l' Kl. assert (E : exists l, nth_error c i = Some l /\ keptr (D := Rdt) (okrate c0) l l'). { clear -K Kl. revert i Kl. induction K as [|a b c c' E K IH]; intros [|i] Kl; cbn in *; try discriminate; [injection Kl as <-; eauto|eauto]. }
    destruct E as (l & K1 & (E1 & _) & _). intros p q. rewrite E1. now apply W.
Qed.
Lemma Pb_pass ls (o : layer Rdt) x y b ls1 delta dx ls2 : Pb c0 M (ls ++ [o]) -> Dk X x y ->
  lforward ls x = Ok (b, ls1) -> o_costd (n_output n) y (fwd_out o b) (l_z (fwd_layer o b)) = Ok delta -> fwd_ok (l_W o) b -> nr delta = nr b -> nc delta = nc (l_W o) ->
  lbackprop ls1 (down (fwd_layer o b) delta) = Ok (dx, ls2) -> forall i l, nth_error (ls2 ++ [back_layer (fwd_layer o b) delta]) i = Some l -> Gb i l.
Proof.
  intros [SA W] [D1 D2] HF HD HO N1 N2 HB. assert (S' := SA). unfold c0 in S'. assert (LL : length ls0 = length ls) by (apply Forall2_len in S'; rewrite !app_length in S'; cbn in S'; lia).
  apply Forall2_app_inv_l in S' as (a1 & a2 & T1 & T2 & TE). inversion T2 as [|? o' ? a3 To T3]; subst. inversion T3; subst. apply app_inj_tail in TE as [<- <-].
  apply (pass_bound X C HX HC M dd HM ls o x b ls1 delta dx ls2 HF HO N1 N2 HB).
  - clear -HH T1. induction T1 as [|l0 l l1 l2 (_ & _ & E & _) T IH]; constructor; inversion HH as [|? ? [A1 A2] A3]; subst; auto. split; intros z; rewrite E; auto.
  - exact W.
  - exact D1.
  - intros j Hj. rewrite <- LL. eapply Rle_trans; [|exact H1]. destruct To as (_ & _ & Ta & _). eapply (delta_bound (n_output n) o b y); [exact HP|exact Ta|exact HD|apply HO|exact D2|exact Hj].
  - intros i l K. assert (E : exists l0, nth_error c0 (S i) = Some l0 /\ same_as l0 l). { clear -SA K. revert K. generalize (S i). intros k. revert k. induction SA as [|a b' c c' E F IH]; intros [|k] K; cbn in *; try discriminate; [injection K as <-; eauto|eauto]. }
    destruct E as (l0 & K0 & _ & E & _). rewrite E. now apply HR.
Qed.
Lemma Pb_step c : Pb c0 M c -> Forall gsized c -> (forall i l, nth_error c i = Some l -> Gb i l) -> Pb c0 M (map stepped c).
Proof.
  intros [SA W] GS GG. split.
  - clear -SA. induction SA as [|l0 l c0 c E S IH]; cbn; constructor; auto. 
  - intros i l' K. rewrite nth_error_map in K. destruct (nth_error c i) as [l|] eqn:E; [|discriminate]. injection K as <-. assert (E0 : exists l0, nth_error c0 i = Some l0 /\ same_as l0 l). { clear -SA E. revert i E. induction SA as [|a b' c c' E' F IH]; intros [|k] K; cbn in *; try discriminate; [injection K as <-; eauto|eauto]. }
    destruct E0 as (l0 & K0 & _ & _ & _ & A4 & A5 & A6). apply (step_bound l (X * dd i)); [now apply W|rewrite Forall_forall in GS; apply GS; eapply nth_error_In; eauto|now apply GG|exact A5|exact A6|]. rewrite A4. now apply HL.
Qed.
Lemma bounded_run junk data kd kd' n' H' : no_momentum cs -> dense_net n H ls0 -> Forall (damped d) c0 -> (forall i l, nth_error c0 i = Some l -> wbound l (M i)) ->
  new_bound cs n H = Ok kd -> Forall (fun dt => Dk X (fst (fst dt)) (snd (fst dt))) data -> feeds junk data (kd, n, H) = Ok (kd', n', H') ->
  exists Ws, weights n' H' = Ok Ws /\ length Ws = length c0 /\ forall i W, nth_error Ws i = Some W -> within (M i) W.
Proof.
  intros NM Hd HD HW HN HQ HF.
  assert (P0 : Pb c0 M c0). { split; [|exact HW]. clear -HD. induction HD as [|l c (A1 & A2 & A3 & _) HD IH]; constructor; auto. repeat split; assumption. }
  assert (TK : tokr (D := Rdt) (okrate c0) kd).
  { assert (TT : forall dd0, d = dd0 -> trok (D := Rdt) (okrate c0) (base_of (D := Rdt) dd0)).
    { intros dd0 E. destruct dd0 as [[[r0 k] st]|]; cbn [base_of]; [|intros Z; discriminate Z]. intros _. cbn [trainer_new_decay t_r0 t_k t_step]. change (okrate c0 (r0 * exp (- k * IZR st))%R). rewrite E in HD. split.
      - rewrite Forall_forall in HD. destruct (HD o0) as (_ & _ & _ & A); [unfold c0; apply in_or_app; right; now left|]. apply (A _ eq_refl).
      - eapply Forall_impl; [|exact HD]. intros l (_ & _ & _ & A). apply (A _ eq_refl). }
    destruct cs as [q|q|b q|mu q]; cbn [new_bound] in HN; try injection HN as <-; cbn [tokr]; try (apply TT; reflexivity). destruct NM. }
  destruct (feeds_invr (D := Rdt) junk (Pb c0 M) Gb (Dk X) (o_costd (n_output n)) (okrate c0) (Dk_row X) (Dk_batch X) Pb_kept Pb_pass Pb_step data kd n H kd' n' H' TK) as [(_ & ls' & Hd' & S' & W') _].
  - split; [reflexivity|]. exists ls0. auto.
  - exact HQ.
  - exact HF.
  - exists (map (fun l => l_W l) (ls' ++ [o_l (n_output n')])). split; [now apply weights_dense|]. split; [rewrite map_length; symmetry; eapply Forall2_len; eauto|]. intros i W K. rewrite nth_error_map in K. destruct (nth_error (ls' ++ _) i) as [l|] eqn:E; [|discriminate]. injection K as <-. intros p q Hp Hq. apply (W' i l E p q Hp Hq).
Qed.
End Run.
End Main.

(** ** C96 *)
Lemma probe_bounds (ls : list (layer Rdt)) (o : layer Rdt) B : Forall (fun l => bounded_act (l_act l)) ls -> exists X C w : R, (1 <= X)%R /\ (B <= X)%R /\ (0 <= C)%R /\ (0 <= w)%R /\ Forall (hidden_bounded X C) ls /\ Forall (fun l => wbound l w) (ls ++ [o]).
Proof.
  intros HA. destruct (acts_bound ls HA) as (A & A0 & A1). destruct (chain_bound (ls ++ [o])) as (w & W0 & W1). exists (Rmax (Rmax 1 B) A), A, w. split; [eapply Rle_trans; [apply (Rmax_l 1 B)|apply Rmax_l]|]. split; [eapply Rle_trans; [apply (Rmax_r 1 B)|apply Rmax_l]|].
  split; [exact A0|]. split; [exact W0|]. split; [|exact W1]. eapply Forall_impl; [|exact A1]. intros l [M1 M2]. split; intros z; [eapply Rle_trans; [apply M1|apply Rmax_r]|apply M2].
Qed.
(** There is a bound, depending on the network, the trainer's decay and the size B of the features only, that no weight ever
    exceeds: for all data within these limits, all of the plain, SGD and batch trainers, and any number of calls. *)
Theorem C96_bounded : forall cs (n : rnet) (H : rheap) ls B, no_momentum cs -> dense_hidden n H -> hidden_layers n H = Ok ls ->
  Forall (fun l => bounded_act (l_act l)) ls -> probability_output (n_output n) -> Forall (damped (decay_of cs)) (ls ++ [o_l (n_output n)]) ->
  exists M : R, forall junk data kd kd' n' H', new_bound cs n H = Ok kd -> Forall (fun dt => features B (fst (fst dt)) /\ probabilities (snd (fst dt))) data ->
    feeds junk data (kd, n, H) = Ok (kd', n', H') -> exists Ws, weights n' H' = Ok Ws /\ Forall (within M) Ws.
Proof.
  intros cs n H ls B NM Hdh HLs HA HO HD. destruct (dense_ls n H Hdh) as [ls0 Hd]. assert (ls = ls0) by (eapply hl_inj; eauto). subst ls0.
  destruct (probe_bounds ls (o_l (n_output n)) B HA) as (X & C & w & HX & HB & HC & Hw & HH & HW). set (c0 := ls ++ [o_l (n_output n)]) in *. set (T := length ls).
  assert (LC : length c0 = S T) by (unfold c0, T; rewrite app_length; cbn; lia).
  destruct (fin_bound (Mb c0 X C w T) (S T)) as (Mx & HMx). exists Mx. intros junk data kd kd' n' H' HN HQ HF.
  assert (LA : forall i l, nth_error c0 i = Some l -> lam_at c0 i = l_lambda l /\ cols_at c0 i = INR (nc (l_W l)) /\ (0 < l_lambda l)%R /\ i <= T).
  { intros i l K. unfold lam_at, cols_at. rewrite K. split; [reflexivity|]. split; [reflexivity|]. split; [|assert (i < length c0) by (apply nth_error_Some; congruence); lia]. rewrite Forall_forall in HD. apply (HD l). eapply nth_error_In; eauto. }
  destruct (bounded_run cs n H ls X C HX HC (Mb c0 X C w T) (db c0 X C w T) ltac:(intros i; apply budget_pos; assumption) HO HH) with (junk := junk) (data := data) (kd := kd) (kd' := kd') (n' := n') (H' := H') as (Ws & K1 & K2 & K3); try assumption.
  - intros i l K. fold c0 in K. destruct (LA i l K) as (E1 & E2 & E3 & E4). rewrite <- E1. apply budget_lam; [exact E4|rewrite E1; exact E3].
  - fold T. unfold db. rewrite Nat.sub_diag. cbn. lra.
  - intros i l K. fold c0 in K. destruct (LA (S i) l K) as (E1 & E2 & E3 & E4). rewrite <- E2. apply budget_down. lia.
  - intros i l K. fold c0 in K. intros p q Hp Hq. rewrite Forall_forall in HW. eapply Rle_trans; [apply (HW l (nth_error_In _ _ K) p q Hp Hq)|apply budget_w0].
  - eapply Forall_impl; [|exact HQ]. intros [[x y] b] [F1 F2]. split; [|exact F2]. intros r k Hr Hk. eapply Rle_trans; [apply F1; assumption|exact HB].
  - exists Ws. split; [exact K1|]. apply Forall_forall. intros W Hin. apply In_nth_error in Hin as (i & Hi). intros p q Hp Hq. eapply Rle_trans; [apply (K3 i W Hi p q Hp Hq)|]. apply HMx. assert (i < length Ws) by (apply nth_error_Some; congruence). fold c0 in K2. lia.
Qed.
(** Without hidden layers the bound is explicit: the initial size or max(1,B) / lambda, whichever is larger. *)
Theorem C96_single : forall cs (n : rnet) (H : rheap) B w, no_momentum cs -> n_hidden n = [] -> let o := o_l (n_output n) in
  probability_output (n_output n) -> damped (decay_of cs) o -> within w (l_W o) -> (0 <= w)%R ->
  forall junk data kd kd' n' H', new_bound cs n H = Ok kd -> Forall (fun dt => features B (fst (fst dt)) /\ probabilities (snd (fst dt))) data ->
    feeds junk data (kd, n, H) = Ok (kd', n', H') -> exists W, weights n' H' = Ok [W] /\ within (Rmax w (Rmax 1 B / l_lambda o)) W.
Proof.
  intros cs n H B w NM Hn o HO HD HW W0 junk data kd kd' n' H' HN HQ HF. assert (Hd : dense_net n H []). { split; rewrite Hn; constructor. }
  assert (HX : (1 <= Rmax 1 B)%R) by apply Rmax_l. assert (La : (0 < l_lambda o)%R) by apply HD.
  destruct (bounded_run cs n H [] (Rmax 1 B) 0 HX (Rle_refl 0) (fun _ => Rmax w (Rmax 1 B / l_lambda o)) (fun _ => 1%R) ltac:(intros i; eapply Rle_trans; [exact W0|apply Rmax_l]) HO) with (junk := junk) (data := data) (kd := kd) (kd' := kd') (n' := n') (H' := H') as (Ws & K1 & K2 & K3); try assumption.
  - constructor.
  - intros [|[|i]] l K; try discriminate K. cbn in K. injection K as <-. fold o. rewrite Rmult_1_r. apply Rle_trans with (l_lambda o * (Rmax 1 B / l_lambda o))%R; [right; field; apply Rgt_not_eq; exact La|]. apply Rmult_le_compat_l; [left; exact La|apply Rmax_r].
  - lra.
  - intros i l K. destruct i; discriminate K.
  - cbn [app]. constructor; [exact HD|constructor].
  - intros [|[|i]] l K; try discriminate K. cbn in K. injection K as <-. intros p q Hp Hq. eapply Rle_trans; [apply HW; assumption|apply Rmax_l].
  - eapply Forall_impl; [|exact HQ]. intros [[x y] b] [F1 F2]. split; [|exact F2]. intros r k Hr Hk. eapply Rle_trans; [apply F1; assumption|apply Rmax_r].
  - destruct Ws as [|W [|? ?]]; try discriminate K2. exists W. split; [exact K1|]. apply (K3 0 W eq_refl).
Qed.

(** *** The momentum trainer *)
(** The rate must be small against the momentum: 2 mu eta lambda < 1 - mu. *)
Definition damped_mom (mu : R) (l : layer Rdt) : Prop := (0 < l_lambda l)%R /\ (0 <= l_lrate l)%R /\ (l_lrate l * l_lambda l <= 1)%R /\ (2 * mu * (l_lrate l * l_lambda l) < 1 - mu)%R.
(** One weight: z = w - c v with c = eta mu / (1 - mu) moves by the plain step, v is an average of gradients. *)
Lemma mom_elem (mu e la A b U z v u : R) : (0 < mu < 1)%R -> (0 <= e)%R -> (0 < la)%R -> (e * la <= 1)%R -> let c := (e * mu / (1 - mu))%R in
  (la * c * b + U <= la * A)%R -> (mu * (1 + e * la) * b + (1 - mu) * (U + la * A) <= b)%R -> (Rabs z <= A)%R -> (Rabs v <= b)%R -> (Rabs u <= U)%R ->
  let g := (u + la * (z + c * v))%R in let v' := (mu * v + (1 - mu) * g)%R in let w' := (z + c * v - e * v')%R in (Rabs (w' - c * v') <= A)%R /\ (Rabs v' <= b)%R.
Proof.
  intros Hmu He Hla Hel c HA HB Hz Hv Hu g v' w'. assert (C1 : ((1 - mu) * c = e * mu)%R) by (unfold c; field; lra). assert (C0 : (0 <= c)%R). { unfold c. apply Rmult_le_pos; [nra|left; apply Rinv_0_lt_compat; lra]. }
  assert (Z1 : (- A <= z <= A)%R) by (unfold Rabs in Hz; destruct (Rcase_abs z); lra). assert (V1 : (- b <= v <= b)%R) by (unfold Rabs in Hv; destruct (Rcase_abs v); lra). assert (U1 : (- U <= u <= U)%R) by (unfold Rabs in Hu; destruct (Rcase_abs u); lra).
  assert (E1 : (w' - c * v' = (1 - e * la) * z - e * (la * c * v + u))%R). { unfold w', v', g. replace (z + c * v - e * (mu * v + (1 - mu) * (u + la * (z + c * v))) - c * (mu * v + (1 - mu) * (u + la * (z + c * v))))%R with (z + c * v - e * mu * v - mu * c * v - (e * (1 - mu) + (1 - mu) * c) * (u + la * (z + c * v)))%R by ring. rewrite C1. replace (e * mu * v)%R with ((1 - mu) * c * v)%R by (rewrite C1; ring). ring. }
  assert (E2 : (v' = (mu + e * la * mu) * v + (1 - mu) * (u + la * z))%R). { unfold v', g. replace (mu * v + (1 - mu) * (u + la * (z + c * v)))%R with (mu * v + (1 - mu) * c * la * v + (1 - mu) * (u + la * z))%R by ring. rewrite C1. ring. }
  split.
  - rewrite E1. assert (P1 : ((1 - e * la) * - A <= (1 - e * la) * z <= (1 - e * la) * A)%R) by (split; apply Rmult_le_compat_l; lra).
    assert (P2 : (la * c * - b <= la * c * v <= la * c * b)%R) by (split; apply Rmult_le_compat_l; try lra; apply Rmult_le_pos; lra).
    assert (P3 : (e * - (la * A) <= e * (la * c * v + u) <= e * (la * A))%R) by (split; apply Rmult_le_compat_l; lra). apply Rabs_le. lra.
  - rewrite E2. assert (K0 : (0 <= mu + e * la * mu)%R) by (assert (0 <= e * la)%R by nra; nra).
    assert (P1 : ((mu + e * la * mu) * - b <= (mu + e * la * mu) * v <= (mu + e * la * mu) * b)%R) by (split; apply Rmult_le_compat_l; lra).
    assert (P2 : (la * - A <= la * z <= la * A)%R) by (split; apply Rmult_le_compat_l; lra).
    assert (P3 : ((1 - mu) * - (U + la * A) <= (1 - mu) * (u + la * z) <= (1 - mu) * (U + la * A))%R) by (split; apply Rmult_le_compat_l; lra). apply Rabs_le. lra.
Qed.
(** Such A and b exist, A as large as wished. *)
Lemma mom_budget (mu e la U w : R) : (0 < mu < 1)%R -> (0 <= e)%R -> (0 < la)%R -> (2 * mu * (e * la) < 1 - mu)%R -> (0 <= U)%R -> let c := (e * mu / (1 - mu))%R in
  exists A b : R, (w <= A)%R /\ (0 <= A)%R /\ (0 <= b)%R /\ (la * c * b + U <= la * A)%R /\ (mu * (1 + e * la) * b + (1 - mu) * (U + la * A) <= b)%R.
Proof.
  intros Hmu He Hla Hs HU c. set (q := (1 - mu - mu * (e * la))%R). assert (Eq : (0 <= mu * (e * la))%R) by (apply Rmult_le_pos; [lra|apply Rmult_le_pos; lra]). assert (Q0 : (0 < q)%R) by (unfold q; lra). set (s := (mu * (e * la) / q)%R).
  assert (S1 : (0 <= s < 1)%R). { unfold s. split; [apply Rmult_le_pos; [lra|left; apply Rinv_0_lt_compat; lra]|]. apply (Rmult_lt_reg_r q); [exact Q0|]. unfold Rdiv. rewrite Rmult_assoc, Rinv_l by lra. unfold q. lra. }
  set (A := Rmax (Rmax w 0) (U * (1 + s) / (la * (1 - s)))). exists A, ((1 - mu) * (U + la * A) / q)%R.
  assert (A0 : (0 <= A)%R) by (unfold A; eapply Rle_trans; [apply (Rmax_r w 0)|apply Rmax_l]). split; [unfold A; eapply Rle_trans; [apply (Rmax_l w 0)|apply Rmax_l]|]. split; [exact A0|].
  assert (LA : (0 <= la * A)%R) by (apply Rmult_le_pos; lra). split; [apply Rmult_le_pos; [apply Rmult_le_pos; lra|left; apply Rinv_0_lt_compat; lra]|]. split.
  - assert (E : (la * c * ((1 - mu) * (U + la * A) / q) = s * (U + la * A))%R) by (unfold c, s; field; split; lra). rewrite E.
    assert (K : (U * (1 + s) <= la * (1 - s) * A)%R). { apply Rle_trans with (la * (1 - s) * (U * (1 + s) / (la * (1 - s))))%R; [right; field; split; lra|]. apply Rmult_le_compat_l; [apply Rmult_le_pos; lra|apply Rmax_r]. } lra.
  - right. unfold q. field. fold q. lra.
Qed.

Section Mom.
Context (n0 : rnet) (H0 : rheap) (ls0 : list (layer Rdt)) (mu : R) (Hmu : (0 < mu < 1)%R) (X C : R) (HX : (1 <= X)%R) (HC : (0 <= C)%R) (A b dd : nat -> R) (HA0 : forall i, (0 <= A i)%R) (Hb0 : forall i, (0 <= b i)%R).
Let o0 := o_l (n_output n0).
Let c0 := ls0 ++ [o0].
Definition cc (l : layer Rdt) : R := (l_lrate l * mu / (1 - mu))%R.
Definition cc_at (c : list (layer Rdt)) i : R := match nth_error c i with Some l => cc l | None => 0%R end.
Definition MM i : R := (A i + cc_at c0 i * b i)%R.
Definition sameM (l0 l : layer Rdt) : Prop := nr (l_W l) = nr (l_W l0) /\ nc (l_W l) = nc (l_W l0) /\ l_act l = l_act l0 /\ l_lambda l = l_lambda l0 /\ l_lrate l = l_lrate l0.
Definition near i (l : layer Rdt) (a : mat Rdt) : Prop := forall p q, p < nr (l_W l) -> q < nc (l_W l) -> (Rabs (at_ (l_W l) p q - cc l * at_ a p q) <= A i)%R /\ (Rabs (at_ a p q) <= b i)%R.
Context (HP : probability_output (n_output n0)) (HH : Forall (hidden_bounded X C) ls0) (HD : Forall (damped_mom mu) c0)
  (HA : forall i l, nth_error c0 i = Some l -> (l_lambda l * cc l * b i + X * dd i <= l_lambda l * A i)%R)
  (HB : forall i l, nth_error c0 i = Some l -> (mu * (1 + l_lrate l * l_lambda l) * b i + (1 - mu) * (X * dd i + l_lambda l * A i) <= b i)%R)
  (H1 : (1 <= dd (length ls0))%R)
  (HR : forall i l, nth_error c0 (S i) = Some l -> (C * INR (nc (l_W l)) * MM (S i) * dd (S i) <= dd i)%R).
Definition PM (t : mtrainer Rdt) (n : rnet) (H : rheap) : Prop :=
  t_usedecay (mt_t t) = false /\ mt_mom t = mu /\ o_costd (n_output n) = o_costd (n_output n0) /\
  exists ls, dense_net n H ls /\ Forall2 sameM c0 (ls ++ [o_l (n_output n)]) /\ Forall2 like ls (mt_hgrads t) /\ like (o_l (n_output n)) (mt_ograd t) /\
    forall i l a, nth_error (ls ++ [o_l (n_output n)]) i = Some l -> nth_error (mt_hgrads t ++ [mt_ograd t]) i = Some a -> near i l a.
Lemma cc_pos l : In l c0 -> (0 <= cc l)%R.
Proof. intros Hin. rewrite Forall_forall in HD. destruct (HD l Hin) as (_ & E & _). unfold cc. apply Rmult_le_pos; [apply Rmult_le_pos; [exact E|lra]|left; apply Rinv_0_lt_compat; lra]. Qed.
Lemma MM_pos i : (0 <= MM i)%R.
Proof. unfold MM, cc_at. specialize (HA0 i). specialize (Hb0 i). destruct (nth_error c0 i) as [l|] eqn:E; [|nra]. pose proof (cc_pos l (nth_error_In _ _ E)). assert (0 <= cc l * b i)%R by (apply Rmult_le_pos; assumption). lra. Qed.
Lemma F2nth {T U} (R : T -> U -> Prop) l l' i y : Forall2 R l l' -> nth_error l' i = Some y -> exists x, nth_error l i = Some x /\ R x y.
Proof. intros F. revert i. induction F as [|a c l l' E F IH]; intros [|i] K; cbn in *; try discriminate; [injection K as <-; eauto|eauto]. Qed.
Lemma near_W i l0 l a : nth_error c0 i = Some l0 -> sameM l0 l -> near i l a -> wbound l (MM i).
Proof.
  intros K (_ & _ & _ & _ & E) N p q Hp Hq. destruct (N p q Hp Hq) as [N1 N2]. unfold MM, cc_at. rewrite K. replace (cc l0) with (cc l) by (unfold cc; now rewrite E).
  assert (P : (0 <= cc l)%R). { unfold cc. rewrite E. apply (cc_pos l0). eapply nth_error_In; eauto. }
  change (car Rdt) with R in *. set (w := at_ (l_W l) p q : R) in *. set (v := at_ a p q : R) in *. replace w with ((w - cc l * v) + cc l * v)%R by ring. eapply Rle_trans; [apply Rabs_triang|]. apply Rplus_le_compat; [exact N1|]. rewrite Rabs_mult, (Rabs_right (cc l)) by lra. apply Rmult_le_compat_l; assumption.
Qed.
(** The step of one layer. *)
Lemma near_step i l0 l l2 l' a a' : nth_error c0 i = Some l0 -> sameM l0 l -> near i l a -> like l a -> l_W l2 = l_W l -> l_lambda l2 = l_lambda l -> gbound l2 (X * dd i) ->
  a' = mixed (D := Rdt) mu (1 - mu)%R a (l_grad l2) -> moved_by l a' l' -> near i l' a'.
Proof.
  intros K (_ & _ & _ & S4 & S5) N [La1 La2] E1 E2 G Ea [(M1 & _ & _ & M4 & M5) MV] p q Hp Hq. rewrite M4 in Hp. rewrite M5 in Hq. rewrite (MV p q Hp Hq). destruct (N p q Hp Hq) as [N1 N2]. unfold gbound in G. rewrite E1 in G. destruct (G p q Hp Hq) as (u & EG & Hu).
  assert (EA : (at_ a' p q : R) = (mu * at_ a p q + (1 - mu) * at_ (l_grad l2) p q)%R). { rewrite Ea. unfold mixed. rewrite at_mk by lia. reflexivity. }
  assert (DD : damped_mom mu l0) by (rewrite Forall_forall in HD; apply HD; eapply nth_error_In; eauto). destruct DD as (D1 & D2 & D3 & D4). specialize (HA i l0 K). specialize (HB i l0 K).
  assert (Ec : cc l' = cc l0) by (unfold cc; now rewrite M1, S5). assert (Ecl : cc l = cc l0) by (unfold cc; now rewrite S5). rewrite Ec. rewrite Ecl in N1. rewrite E2, S4 in EG. rewrite S5. change (dsub (d := Rdt)) with Rminus. change (dmul (d := Rdt)) with Rmult. change (car Rdt) with R in *.
  set (w := at_ (l_W l) p q : R) in *. set (v := at_ a p q : R) in *. set (e := l_lrate l0 : R) in *. set (la := l_lambda l0 : R) in *.
  destruct (mom_elem mu e la (A i) (b i) (X * dd i) (w - cc l0 * v) v u Hmu D2 D1 D3) as [Q1 Q2]; [exact HA|exact HB|exact N1|exact N2|exact Hu|]. cbv zeta in Q1, Q2. fold e (cc l0) in Q1, Q2. change (e * mu / (1 - mu))%R with (cc l0) in Q1, Q2.
  replace (w - cc l0 * v + cc l0 * v)%R with w in Q1, Q2 by ring. rewrite <- EG in Q1, Q2. rewrite <- EA in Q1, Q2. auto.
Qed.
Lemma PM_step junk t n H x y t' n' H' : PM t n H -> Dk X x y -> momentum_feeddata junk t n H x y = Ok (t', n', H') -> PM t' n' H'.
Proof.
  intros (T1 & T2 & T3 & ls & Hd & SA & L1 & L2 & NN) [F1 F2] E. assert (Hdh : dense_hidden n H) by (split; [apply Hd|eapply dense_in; apply Hd]). pose proof (hidden_layers_dense n H ls (proj2 Hd)) as HL.
  pose proof (mom_keep junk t n H x y false (dofZ 0) t' n' H') as MK. unfold momentum_feeddata_cost in MK. rewrite E in MK. specialize (MK eq_refl). destruct MK as (_ & _ & (_ & KC) & _).
  destruct (mom_step junk t n H x y t' n' H' ls Hdh HL L1 L2 E) as (n1 & H1' & hg & og & ls1 & ls' & (GD & a & m1 & K1 & m2 & K2 & ls2 & GF & GB & GL & Ghg & Gog) & HL0 & HL' & R1 & R2 & Q1 & Q2 & Q3 & Q4 & K3 & K4 & N1 & N2 & M1 & M2 & DH & F3 & F4).
  unfold decay in GD. cbn [tick t_usedecay] in GD. rewrite T1 in GD. cbn [andb] in GD. injection GD as <- <-. assert (ls1 = ls) by congruence. subst ls1.
  destruct (pass_dense junk n H ls x y a m1 K1 m2 K2 Hd GF GB) as (bb & lsa & delta & ls2' & dx & P1 & P2 & P3 & P4 & P5 & P6 & P7 & P8 & P9 & P10 & P11 & P12 & P13). assert (ls2' = ls2) by (symmetry; eapply hl_inj; eauto). subst ls2'.
  destruct (dense_ls n' H' DH) as [lsx Hd']. assert (lsx = ls') by (symmetry; eapply hl_inj; eauto). subst lsx.
  assert (LH : length (mt_hgrads t) = length ls) by (apply Forall2_len in L1; lia).
  assert (LL : length ls0 = length ls) by (apply Forall2_len in SA; unfold c0 in SA; rewrite !app_length in SA; cbn in SA; lia).
  assert (L22 : length ls2 = length ls) by (rewrite <- N2, Ghg, map_length; reflexivity).
  assert (AT : forall i l, nth_error (ls ++ [o_l (n_output n)]) i = Some l -> exists l0 ac, nth_error c0 i = Some l0 /\ sameM l0 l /\ nth_error (mt_hgrads t ++ [mt_ograd t]) i = Some ac /\ near i l ac /\ like l ac).
  { intros i l K. destruct (F2nth _ _ _ _ _ SA K) as (l0 & K0 & S0). assert (Li : i < length (ls ++ [o_l (n_output n)])) by (apply nth_error_Some; congruence). rewrite app_length in Li. cbn in Li.
    destruct (nth_error (mt_hgrads t ++ [mt_ograd t]) i) as [ac|] eqn:Ka; [|apply nth_error_None in Ka; rewrite app_length in Ka; cbn in Ka; lia]. exists l0, ac. split; [exact K0|]. split; [exact S0|]. split; [reflexivity|]. split; [now apply NN|].
    assert (FF : Forall2 like (ls ++ [o_l (n_output n)]) (mt_hgrads t ++ [mt_ograd t])) by (apply Forall2_app; [exact L1|constructor; [exact L2|constructor]]). exact (Forall2_nth _ _ _ FF i l ac K Ka). }
  assert (WB : forall i l, nth_error (ls ++ [o_l (n_output n)]) i = Some l -> wbound l (MM i)). { intros i l K. destruct (AT i l K) as (l0 & ac & A1 & A2 & A3 & A4 & _). eapply near_W; eauto. }
  assert (GG : forall i l2, nth_error (ls2 ++ [back_layer (fwd_layer (o_l (n_output n)) bb) delta]) i = Some l2 -> gbound l2 (X * dd i)).
  { assert (SP := SA). unfold c0 in SP. apply Forall2_app_inv_l in SP as (a1 & a2 & S1 & S2 & SE). inversion S2 as [|? o' ? a3 So S3]; subst. inversion S3; subst. apply app_inj_tail in SE as [<- <-].
    apply (pass_bound X C HX HC MM dd MM_pos ls (o_l (n_output n)) x bb lsa delta dx ls2 P1 P2 P5 P6 P7).
    - clear -HH S1. induction S1 as [|l0 l l1 l2 (_ & _ & E & _) T IH]; constructor; inversion HH as [|? ? [A1 A2] A3]; subst; auto. split; intros z; rewrite E; auto.
    - exact WB.
    - exact F1.
    - intros j Hj. rewrite <- LL. eapply Rle_trans; [|exact H1]. destruct So as (_ & _ & Ta & _). rewrite T3 in P4. eapply (delta_bound (n_output n0) (o_l (n_output n)) bb y); [exact HP|exact Ta|exact P4|apply P2|exact F2|exact Hj].
    - intros i l K. destruct (AT (S i) l K) as (l0 & ac & A1 & (_ & A2 & _) & _). rewrite A2. now apply HR. }
  assert (mu <> 0)%R by lra. assert (MU : mom_u (D := Rdt) mu (t_iters (mt_t t) + 1) = mu /\ mom_v (D := Rdt) mu (t_iters (mt_t t) + 1) = (1 - mu)%R).
  { unfold mom_u, mom_v. assert (Eb : deqb (d := Rdt) mu (dofZ 0) = false). { cbn. unfold Reqb'. destruct (Req_EM_T mu 0); [lra|reflexivity]. } rewrite Eb. split; reflexivity. }
  split; [rewrite Q1; exact T1|]. split; [now rewrite Q2|]. split; [now rewrite KC|]. exists ls'. split; [exact Hd'|]. 
  assert (MB : forall i l l', nth_error (ls ++ [o_l (n_output n)]) i = Some l -> nth_error (ls' ++ [o_l (n_output n')]) i = Some l' -> exists ac g, nth_error (mt_hgrads t' ++ [mt_ograd t']) i = Some ac /\ moved_by l ac l' /\ nth_error (mt_hgrads t ++ [mt_ograd t]) i = Some g /\
     exists l2, nth_error (ls2 ++ [back_layer (fwd_layer (o_l (n_output n)) bb) delta]) i = Some l2 /\ ac = mixed (D := Rdt) mu (1 - mu)%R g (l_grad l2) /\ l_W l2 = l_W l /\ l_lambda l2 = l_lambda l).
  { intros i l l' Kl Kl'. destruct (Nat.lt_ge_cases i (length ls)) as [Li|Li].
    - rewrite nth_error_app1 in Kl by assumption. rewrite nth_error_app1 in Kl' by lia. destruct (nth_error ls2 i) as [l2|] eqn:K2'; [|apply nth_error_None in K2'; lia]. destruct (nth_error (mt_hgrads t) i) as [g|] eqn:Kg; [|apply nth_error_None in Kg; lia].
      assert (Kc : nth_error (combine (mt_hgrads t) hg) i = Some (g, l_grad l2)). { rewrite Ghg. clear -Kg K2'. revert ls2 i Kg K2'. induction (mt_hgrads t) as [|z zs IH]; intros [|u us] [|i] A B; cbn in *; try discriminate; [injection A as <-; injection B as <-; reflexivity|eauto]. }
      assert (Kt : nth_error (mt_hgrads t') i = Some (mixed (D := Rdt) mu (1 - mu)%R g (l_grad l2))). { rewrite Q4, nth_error_map, Kc. cbn. unfold acc_next. rewrite T2. destruct MU as [-> ->]. reflexivity. }
      eexists _, g. split; [rewrite nth_error_app1 by (apply nth_error_Some; congruence); exact Kt|]. split; [exact (M1 i l _ l' Kl Kt Kl')|]. split; [rewrite nth_error_app1 by lia; exact Kg|]. exists l2. split; [rewrite nth_error_app1 by lia; exact K2'|]. split; [reflexivity|].
      pose proof (passes_form _ _ _ _ P1 _ _ _ P7) as Z. destruct (Forall2_nth _ _ _ Z i l l2 Kl K2') as (_ & Z1 & Z2 & _). auto.
    - assert (i = length ls). { assert (LQ : i < length (ls ++ [o_l (n_output n)])) by (apply nth_error_Some; congruence). rewrite app_length in LQ. cbn in LQ. lia. } subst i.
      rewrite nth_error_app2, Nat.sub_diag in Kl by lia. rewrite nth_error_app2 in Kl' by lia. replace (length ls - length ls') with 0 in Kl' by lia. injection Kl as <-. injection Kl' as <-.
      assert (LT : length (mt_hgrads t') = length ls) by (rewrite Q4, map_length, combine_length; lia). exists (mt_ograd t'), (mt_ograd t). split; [rewrite nth_error_app2 by lia; replace (length ls - length (mt_hgrads t')) with 0 by lia; reflexivity|]. split; [exact M2|]. split; [rewrite nth_error_app2 by lia; replace (length ls - length (mt_hgrads t)) with 0 by lia; reflexivity|].
      exists (back_layer (fwd_layer (o_l (n_output n)) bb) delta). split; [rewrite nth_error_app2 by lia; replace (length ls - length ls2) with 0 by lia; reflexivity|]. split; [rewrite Q3, T2, Gog, P10; reflexivity|]. split; reflexivity. }
  assert (LN : length (ls' ++ [o_l (n_output n')]) = length (ls ++ [o_l (n_output n)])) by (rewrite !app_length; cbn; lia).
  split; [|split; [exact F3|split; [exact F4|]]].
  - apply Forall2_intro_nth; [rewrite LN; symmetry; apply Forall2_len in SA; lia|]. intros i l0 l' K0 K'. assert (Ki : exists l, nth_error (ls ++ [o_l (n_output n)]) i = Some l). { destruct (nth_error (ls ++ [o_l (n_output n)]) i) eqn:Z; [eauto|]. apply nth_error_None in Z. assert (i < length (ls' ++ [o_l (n_output n')])) by (apply nth_error_Some; congruence). lia. }
    destruct Ki as (l & K). destruct (MB i l l' K K') as (ac & g & _ & [(C1 & C2 & C3 & C4 & C5) _] & _). destruct (Forall2_nth _ _ _ SA i l0 l K0 K) as (S1 & S2 & S3 & S4 & S5). unfold sameM. rewrite C1, C2, C3, C4, C5. auto.
  - intros i l' ac K' Kac. assert (Ki : exists l, nth_error (ls ++ [o_l (n_output n)]) i = Some l). { destruct (nth_error (ls ++ [o_l (n_output n)]) i) eqn:Z; [eauto|]. apply nth_error_None in Z. assert (i < length (ls' ++ [o_l (n_output n')])) by (apply nth_error_Some; congruence). lia. }
    destruct Ki as (l & K). destruct (MB i l l' K K') as (ac2 & g & Ka & MV & Kg & l2 & Kl2 & Eac & Ew & El). rewrite Kac in Ka. injection Ka as <-. destruct (AT i l K) as (l0 & g2 & B1 & B2 & B3 & B4 & B5). rewrite Kg in B3. injection B3 as <-.
    eapply (near_step i l0 l l2 l' g ac); eauto.
Qed.
End Mom.
Definition goodM (c0 : list (layer Rdt)) (mu X C w : R) (T : nat) (A b dd : nat -> R) (lo : nat) : Prop :=
  (forall i, (0 <= A i)%R /\ (0 <= b i)%R /\ (0 <= dd i)%R) /\
  (forall i l, lo <= i -> nth_error c0 i = Some l -> (w <= A i)%R /\ (l_lambda l * cc mu l * b i + X * dd i <= l_lambda l * A i)%R /\ (mu * (1 + l_lrate l * l_lambda l) * b i + (1 - mu) * (X * dd i + l_lambda l * A i) <= b i)%R) /\
  (forall i l, lo <= i -> nth_error c0 (S i) = Some l -> (C * INR (nc (l_W l)) * (A (S i) + cc_at mu c0 (S i) * b (S i)) * dd (S i) <= dd i)%R) /\ (1 <= dd T)%R.
Lemma mom_seq c0 mu X C w T : (0 < mu < 1)%R -> (0 <= X)%R -> (0 <= C)%R -> length c0 = S T -> Forall (damped_mom mu) c0 -> forall m, m <= T -> exists A b dd, goodM c0 mu X C w T A b dd (T - m).
Proof.
  intros Hmu HX HC LC HD. assert (BG : forall i l U, nth_error c0 i = Some l -> (0 <= U)%R -> exists A b : R, (w <= A)%R /\ (0 <= A)%R /\ (0 <= b)%R /\ (l_lambda l * cc mu l * b + U <= l_lambda l * A)%R /\ (mu * (1 + l_lrate l * l_lambda l) * b + (1 - mu) * (U + l_lambda l * A) <= b)%R).
  { intros i l U K HU. rewrite Forall_forall in HD. destruct (HD l (nth_error_In _ _ K)) as (D1 & D2 & D3 & D4). apply (mom_budget mu (l_lrate l) (l_lambda l) U w); assumption. }
  induction m as [|m IH]; intros Hm.
  - destruct (nth_error c0 T) as [l|] eqn:K; [|apply nth_error_None in K; lia]. destruct (BG T l X K HX) as (A & b & B1 & B2 & B3 & B4 & B5). exists (fun _ => A), (fun _ => b), (fun _ => 1%R). split; [intros; repeat split; lra|]. split; [|split; [|lra]].
    + intros i l' Hi K'. assert (i < length c0) by (apply nth_error_Some; congruence). assert (i = T) by lia. subst i. rewrite K in K'. injection K' as <-. rewrite Rmult_1_r. auto.
    + intros i l' Hi K'. assert (S i < length c0) by (apply nth_error_Some; congruence). lia.
  - destruct (IH ltac:(lia)) as (A & b & dd & G1 & G2 & G3 & G4). set (k := T - S m) in *. assert (Ek : T - m = S k) by (unfold k; lia). rewrite Ek in *.
    destruct (nth_error c0 k) as [l|] eqn:K; [|apply nth_error_None in K; lia]. destruct (nth_error c0 (S k)) as [l1|] eqn:K1; [|apply nth_error_None in K1; lia].
    set (d := (C * INR (nc (l_W l1)) * (A (S k) + cc_at mu c0 (S k) * b (S k)) * dd (S k))%R).
    assert (D0 : (0 <= d)%R). { unfold d. destruct (G1 (S k)) as (g1 & g2 & g3). apply Rmult_le_pos; [|exact g3]. apply Rmult_le_pos; [apply Rmult_le_pos; [exact HC|apply pos_INR]|]. unfold cc_at. rewrite K1. assert (0 <= cc mu l1)%R. { rewrite Forall_forall in HD. destruct (HD l1 (nth_error_In _ _ K1)) as (_ & E & _). unfold cc. apply Rmult_le_pos; [apply Rmult_le_pos; [exact E|lra]|left; apply Rinv_0_lt_compat; lra]. } assert (0 <= cc mu l1 * b (S k))%R by (apply Rmult_le_pos; assumption). lra. }
    destruct (BG k l (X * d)%R K ltac:(apply Rmult_le_pos; assumption)) as (A' & b' & B1 & B2 & B3 & B4 & B5).
    exists (fun i => if i =? k then A' else A i), (fun i => if i =? k then b' else b i), (fun i => if i =? k then d else dd i). split; [|split; [|split]].
    + intros i. destruct (i =? k); [repeat split; assumption|apply G1].
    + intros i l' Hi K'. destruct (Nat.eqb_spec i k) as [->|N]; [rewrite K in K'; injection K' as <-; auto|]. apply G2; [lia|exact K'].
    + intros i l' Hi K'. destruct (Nat.eqb_spec (S i) k); [lia|]. destruct (Nat.eqb_spec i k) as [->|N]; [rewrite K1 in K'; injection K' as <-; unfold d; lra|]. apply G3; [lia|exact K'].
    + destruct (Nat.eqb_spec T k); [lia|exact G4].
Qed.
(** The same for the momentum trainer without decay, for 0 < mu < 1 and rates with 2 mu eta lambda < 1 - mu. *)
Theorem C96_momentum : forall (mu : R) (n : rnet) (H : rheap) ls B, (0 < mu < 1)%R -> dense_hidden n H -> hidden_layers n H = Ok ls ->
  Forall (fun l => bounded_act (l_act l)) ls -> probability_output (n_output n) -> Forall (damped_mom mu) (ls ++ [o_l (n_output n)]) ->
  exists M : R, forall junk data kd kd' n' H', new_bound (D := Rdt) (NMom (D := Rdt) mu None) n H = Ok kd -> Forall (fun dt => features B (fst (fst dt)) /\ probabilities (snd (fst dt))) data ->
    feeds junk data (kd, n, H) = Ok (kd', n', H') -> exists Ws, weights n' H' = Ok Ws /\ Forall (within M) Ws.
Proof.
  intros mu n H ls B Hmu Hdh HLs HA HO HD. destruct (dense_ls n H Hdh) as [ls0 Hd]. assert (ls = ls0) by (eapply hl_inj; eauto). subst ls0.
  destruct (probe_bounds ls (o_l (n_output n)) B HA) as (X & C & w & HX & HB & HC & Hw & HH & HW). set (c0 := ls ++ [o_l (n_output n)]) in *. set (T := length ls).
  assert (LC : length c0 = S T) by (unfold c0, T; rewrite app_length; cbn; lia).
  destruct (mom_seq c0 mu X C w T Hmu ltac:(lra) HC LC HD T (le_n T)) as (A & b & dd & G1 & G2 & G3 & G4). rewrite Nat.sub_diag in *.
  destruct (fin_bound (MM n ls mu A b) (S T)) as (Mx & HMx). exists Mx. intros junk data kd kd' n' H' HN HQ HF.
  cbn [new_bound] in HN. apply bind_ok in HN as (m & E1 & E). injection E as <-. destruct (momentum_new_shape _ _ _ _ _ Hdh E1) as (M1 & M2 & lsx & L1 & L2 & L3). assert (lsx = ls) by congruence. subst lsx.
  set (PMx := PM n ls mu A b). assert (P0 : PMx m n H).
  { split; [rewrite M1; reflexivity|]. split; [exact M2|]. split; [reflexivity|]. exists ls. split; [exact Hd|]. split; [apply Forall2_intro_nth; [reflexivity|intros i a c K1 K2; fold c0 in K1, K2; rewrite K1 in K2; injection K2 as <-; repeat split; reflexivity]|].
    split; [rewrite L2; clear; induction ls; cbn; constructor; auto; split; reflexivity|]. split; [rewrite L3; split; reflexivity|]. fold c0. intros i l a K Ka p q Hp Hq.
    replace (mt_hgrads m ++ [mt_ograd m]) with (map (fun l : layer Rdt => zero_like (l_W l)) c0) in Ka by (unfold c0; rewrite map_app, L2, L3; reflexivity). rewrite nth_error_map, K in Ka. injection Ka as <-.
    assert (Z : (at_ (zero_like (l_W l)) p q : R) = 0%R) by (unfold zero_like, zeros; rewrite at_mk by assumption; reflexivity). rewrite Z, Rmult_0_r, Rminus_0_r, Rabs_R0. split; [|apply G1].
    rewrite Forall_forall in HW. eapply Rle_trans; [apply (HW l (nth_error_In _ _ K) p q Hp Hq)|]. apply (G2 i l); [lia|exact K]. }
  assert (ST : forall t n1 H1 x y t' n2 H2, PMx t n1 H1 -> Dk X x y -> momentum_feeddata junk t n1 H1 x y = Ok (t', n2, H2) -> PMx t' n2 H2).
  { intros t n1 H1 x y t' n2 H2 P1 D1 E. eapply (PM_step n ls mu Hmu X C HX HC A b dd) with (junk := junk) (t := t); try eassumption.
    - intros i. apply (G1 i).
    - intros i. apply (G1 i).
    - intros i l K. apply (G2 i l); [lia|exact K].
    - intros i l K. apply (G2 i l); [lia|exact K].
    - intros i l K. apply (G3 i l); [lia|exact K]. }
  assert (FIN : forall t n1 H1, PMx t n1 H1 -> feeds junk data (KMom t, n1, H1) = Ok (kd', n', H') -> exists m', kd' = KMom m' /\ PMx m' n' H').
  { clear HF. clearbody PMx. induction data as [|[[x y] cst] data IH]; intros t n1 H1 P1 E.
    - injection E as <- <- <-. eauto.
    - inversion HQ as [|? ? Q1 Q2]; subst. unfold feeds in E. cbn [foldM fst snd] in E. apply bind_ok in E as ([[k1 n2] H2] & E2 & E). apply bind_ok in E2 as ([[[v k2] n3] H3] & E2 & E3). injection E3 as <- <- <-.
      cbn [feed_on] in E2. apply bind_ok in E2 as ([[[v' t'] n4] H4] & E2 & E3). injection E3 as <- <- <- <-. unfold momentum_feeddata_cost in E2. apply bind_ok in E2 as ([[t2 n5] H5] & E2 & E3).
      assert (PMx t2 n5 H5). { eapply ST; [exact P1| |exact E2]. destruct Q1 as [F1 F2]. split; [|exact F2]. intros r k Hr Hk. eapply Rle_trans; [apply F1; assumption|exact HB]. }
      assert (t' = t2 /\ n4 = n5 /\ H4 = H5) as (-> & -> & ->). { destruct cst; [apply bind_ok in E3 as (? & _ & E3)|]; injection E3; auto. }
      apply (IH Q2 t2 n5 H5); assumption. }
  destruct (FIN m n H P0 HF) as (m' & -> & (_ & _ & _ & ls' & Hd' & SA & L1' & L2' & NN)).
  exists (map (fun l => l_W l) (ls' ++ [o_l (n_output n')])). split; [now apply weights_dense|]. apply Forall_forall. intros W Hin. apply In_nth_error in Hin as (i & Hi). rewrite nth_error_map in Hi.
  destruct (nth_error (ls' ++ [o_l (n_output n')]) i) as [l|] eqn:K; [|discriminate]. injection Hi as <-. destruct (F2nth _ _ _ _ _ SA K) as (l0 & K0 & S0).
  assert (FF : Forall2 like (ls' ++ [o_l (n_output n')]) (mt_hgrads m' ++ [mt_ograd m'])) by (apply Forall2_app; [exact L1'|constructor; [exact L2'|constructor]]).
  destruct (nth_error (mt_hgrads m' ++ [mt_ograd m']) i) as [ac|] eqn:Ka; [|apply nth_error_None in Ka; apply Forall2_len in FF; assert (i < length (ls' ++ [o_l (n_output n')])) by (apply nth_error_Some; congruence); lia].
  assert (WB : wbound l (MM n ls mu A b i)). { eapply near_W with (l0 := l0) (a := ac); eauto; intros; apply G1. }
  intros p q Hp Hq. eapply Rle_trans; [apply (WB p q Hp Hq)|]. apply HMx. assert (i < length c0) by (apply nth_error_Some; unfold c0; congruence). lia.
Qed.

(** ** Which activations are bounded *)
(** Seven of the thirteen built-in activations qualify; the other six do not. *)
Theorem C96_activations : (forall f, In f [sigmoid; arctan; tanhyperbolic; bipolarsigmoid; comploglog; lecuntanh; hardtanh] -> bounded_act f) /\
  forall f, In f [identity; absolute; relu; relucos; relusin; smoothrelu] -> ~ bounded_act f.
Proof.
  split.
  - intros f Hf. cbn [In] in Hf. destruct Hf as [<-|[<-|[<-|[<-|[<-|[<-|[<-|[]]]]]]]]; exists 2%R; intros z; match goal with |- context [Rabs (act ?f z)] => change (act f z) with (F f z); change (actd f z) with (F' f z) end; destruct (C25_ranges z) as (R1 & R2 & R3 & R4 & R5 & R6 & R7 & _ & _ & _ & _ & _ & R8); (split; [apply Rabs_le; pose proof PI_4; lra|]); apply Rabs_le.
    + lra.
    + ua. pose proof (Rle_0_sqr z) as Q. unfold Rsqr in Q. set (t := (1 + z * z)%R). assert (0 < / t)%R by (apply Rinv_0_lt_compat; unfold t; lra). assert (/ t <= 1)%R by (rewrite <- Rinv_1; apply Rinv_le_contravar; unfold t; lra). unfold Rdiv. lra.
    + ua. change (F tanhyperbolic z) with (tanh z) in R3. nra.
    + change (F' bipolarsigmoid z) with ((1 - F bipolarsigmoid z * F bipolarsigmoid z) / 2)%R. nra.
    + ua. pose proof (exp_pos z). pose proof (exp_ineq1_le (exp z)) as Q. assert (0 < exp (- exp z))%R by apply exp_pos. assert (EE : (exp (exp z) * exp (- exp z) = 1)%R) by (rewrite <- exp_plus, Rplus_opp_r; apply exp_0). assert (exp z * exp (- exp z) <= (exp (exp z) - 1) * exp (- exp z))%R by (apply Rmult_le_compat_r; lra). assert (0 < exp z * exp (- exp z))%R by (apply Rmult_lt_0_compat; assumption). lra.
    + ua. change (10 ^ 8)%Z with 100000000%Z. set (x := (2 / 3 * z)%R). assert (S2 : (2 <= exp x + exp (- x))%R). { assert (exp x * exp (- x) = 1)%R by (rewrite <- exp_plus, Rplus_opp_r; apply exp_0). pose proof (exp_pos x). pose proof (exp_pos (- x)). pose proof (Rle_0_sqr (exp x - exp (- x))) as Q. unfold Rsqr in Q. destruct (Rle_lt_dec 2 (exp x + exp (- x))) as [|Lt]; [assumption|exfalso]. assert ((exp x + exp (- x)) * (exp x + exp (- x)) < 2 * 2)%R by (apply Rmult_le_0_lt_compat; lra). lra. }
      set (s := (exp x + exp (- x))%R) in *. assert (0 < / s)%R by (apply Rinv_0_lt_compat; lra). assert (/ s <= / 2)%R by (apply Rinv_le_contravar; lra). unfold Rdiv. nra.
    + ua. destruct (Rleb' _ _ && Rleb' _ _)%bool; lra.
  - intros f Hf (A & HA). assert (BIG : exists z : R, (A < Rabs (act f z))%R); [|destruct BIG as (z & Hz); destruct (HA z); lra].
    assert (A0 : (0 <= A)%R) by (destruct (HA 0%R) as [Q _]; eapply Rle_trans; [apply Rabs_pos|exact Q]). exists (A + 2)%R.
    assert (M : Rmax 0 (A + 2) = (A + 2)%R) by (apply Rmax_right; lra). cbn [In] in Hf. destruct Hf as [<-|[<-|[<-|[<-|[<-|[<-|[]]]]]]]; ua.
    + rewrite Rabs_right; lra.
    + rewrite !Rabs_right; try lra. apply Rle_ge, Rabs_pos.
    + destruct (C25_ranges (A + 2)) as (_ & _ & _ & _ & _ & _ & _ & Q & _). change (F relu (A + 2)) with (if Rleb' 0 (A + 2) then (A + 2)%R else 0%R) in Q. rewrite Q, M. rewrite Rabs_right; lra.
    + rewrite M. pose proof (COS_bound (A + 2)). rewrite Rabs_right; lra.
    + rewrite M. pose proof (SIN_bound (A + 2)). rewrite Rabs_right; lra.
    + destruct (C25_ranges (A + 2)) as (_ & _ & _ & _ & _ & _ & _ & _ & _ & Q & _). change (F smoothrelu (A + 2)) with (ln (1 + exp (A + 2))) in Q. rewrite Rabs_right; lra.
Qed.

(** ** The hypotheses can be met *)
(** One input, two sigmoid units, one sigmoid output with cross entropy, lambda 1/2, rate 1; samples 1 and 2. *)
Definition bdl (W : mat Rdt) : layer Rdt := Layer.L (D := Rdt) 1%R (1 / 2)%R sigmoid mempty mempty mempty mempty W mempty.
Definition bdn   : rnet := Net.N (D := Rdt) mempty ce_cost ce_costd (bdl mempty) [0] (Layer.O (bdl (rm 3 1 [1; 2; -3]%R)) ce_cost ce_costd mempty).
Definition bdh : layer Rdt := bdl (rm 2 2 [1; 2; 1; -1]%R).
Definition bdH : rheap := [HDense bdh].
Definition bdy : mat Rdt := rm 2 1 [1; 0]%R.
Example C96_example (junk : nat -> Rdt) : let cs : nspec Rdt := NPlain (D := Rdt) (Some (1%R : Rdt, 0%R : Rdt, 1%Z)) in let data := [(exrx, bdy, true); (exrx, bdy, false)] in
  no_momentum cs /\ dense_hidden bdn bdH /\ hidden_layers bdn bdH = Ok [bdh] /\ bounded_act (l_act bdh) /\ probability_output (n_output bdn) /\
  Forall (damped (decay_of cs)) ([bdh] ++ [o_l (n_output bdn)]) /\ Forall (damped_mom (1 / 4)) ([bdh] ++ [o_l (n_output bdn)]) /\
  Forall (fun dt => features 2 (fst (fst dt)) /\ probabilities (snd (fst dt))) data /\
  (exists kd kd' n' H', new_bound cs bdn bdH = Ok kd /\ feeds junk data (kd, bdn, bdH) = Ok (kd', n', H')) /\
  (exists kd kd' n' H', new_bound (D := Rdt) (NMom (D := Rdt) (1 / 4)%R None) bdn bdH = Ok kd /\ feeds junk data (kd, bdn, bdH) = Ok (kd', n', H')).
Proof.
  intros cs data. assert (DH : dense_hidden bdn bdH). { split; [repeat constructor; intros []|]. intros q [<-|[]]. eexists. reflexivity. }
  assert (WS : well_sized bdn bdH 1 1). { split; [assumption|]. split; [exists [bdh]; split; [reflexivity|]; exists 2; cbn; repeat split; lia|]. split; right; left; reflexivity. }
  split; [exact I|]. split; [exact DH|]. split; [reflexivity|]. split; [apply C96_activations; left; reflexivity|]. split; [right; split; [left; reflexivity|]; intros z; pose proof (C25_ranges z) as (Q & _); unfold F in Q; cbn [n_output bdn o_l l_act bdl]; lra|].
  split. { assert (HW : forall W, damped (decay_of cs) (bdl W)); [|constructor; [apply HW|constructor; [apply HW|constructor]]]. intros W. split; [cbn; lra|]. split; [cbn; lra|]. split; [cbn; lra|]. intros e He. cbn in He. rewrite He. replace (- (0) * 1)%R with 0%R by ring. rewrite exp_0. cbn. lra. }
  split. { assert (HW : forall W, damped_mom (1 / 4) (bdl W)); [|constructor; [apply HW|constructor; [apply HW|constructor]]]. intros W. repeat split; cbn; lra. }
  split. { assert (HW : features 2 exrx /\ probabilities bdy); [|constructor; [exact HW|constructor; [exact HW|constructor]]]. split; intros [|[|r]] [|k] Hr Hk; cbn in Hr, Hk; try lia; cbn; try (rewrite Rabs_right; lra); lra. }
  assert (SS : Forall (fun d => samples 1 1 (fst d)) data) by (repeat constructor; cbn; lia). split.
  - destruct (C56_trainer junk 1 1 data (trainer_new_decay (D := Rdt) 1%R 0%R 1%Z) bdn bdH ltac:(lia) WS SS) as (t' & n' & H' & E & _). exists (KPlain (trainer_new_decay (D := Rdt) 1%R 0%R 1%Z)), (KPlain t'), n', H'. split; [reflexivity|]. apply feeds_plain. exact E.
  - destruct (C56_momentum junk 1 1 data trainer_new (1 / 4)%R bdn bdH ltac:(lia) WS SS) as (t & t' & n' & H' & E1 & E & _). exists (KMom t), (KMom t'), n', H'. split; [cbn [new_bound base_of]; rewrite E1; reflexivity|].
    revert E. generalize bdn, bdH, t. clear. induction data as [|d data IH]; intros n H t E; [injection E as <- <- <-; reflexivity|]. unfold feeds. cbn [foldM] in E |- *. apply bind_ok in E as ([[t1 n1] H1] & E1 & E). apply bind_ok in E1 as ([[[v t2] n2] H2] & E1 & E2). injection E2 as <- <- <-.
    cbn [feed_on]. rewrite E1. cbn [bind]. apply IH. exact E.
Qed.

(** Bound.v - how large a gradient can be: real arithmetic, one pass through a chain of dense layers whose weights, hidden
    activations and activation derivatives are bounded. *)
From Verif Require Import Base Mat RInst RMat Act Layer Conv Misc Net NetP Trainer TrainP TrainP2 InvP Grad P_Round.
From Coq Require Import Arith List ZArith Lia Reals Lra.
Import ListNotations.
Local Open Scope nat_scope.
Notation rmat := (mat Rdt).
Notation rlayer := (layer Rdt).

Lemma sum_abs_mul n (f : nat -> R) (g : nat -> R) c : (0 <= c)%R -> (forall k, k < n -> (Rabs (g k) <= c)%R) -> (Rabs (sumN n (fun k => f k * g k)) <= c * sumN n (fun k => Rabs (f k)))%R.
Proof.
  intros Hc Hg. eapply Rle_trans; [apply sumN_abs_le|]. rewrite <- sumN_scal. apply sumN_le. intros k Hk. rewrite Rabs_mult, Rmult_comm. apply Rmult_le_compat_r; [apply Rabs_pos|auto].
Qed.

Definition wbound (l : rlayer) (M : R) : Prop := forall i j, i < nr (l_W l) -> j < nc (l_W l) -> (Rabs (at_ (l_W l) i j) <= M)%R.
(** The gradient of a layer apart from the regularisation term is at most g. *)
Definition gbound (l : rlayer) (g : R) : Prop := forall i j, i < nr (l_W l) -> j < nc (l_W l) -> exists u : R, (at_ (l_grad l) i j : R) = (u + l_lambda l * at_ (l_W l) i j)%R /\ (Rabs u <= g)%R.

Section Pass.
Context (X C : R) (HX : (1 <= X)%R) (HC : (0 <= C)%R) (M d : nat -> R) (HM : forall i, (0 <= M i)%R) (Hd : forall i, (0 <= d i)%R).
Definition hidden_bounded (l : rlayer) : Prop := (forall z : R, (Rabs (act (l_act l) z) <= X)%R) /\ (forall z : R, (Rabs (actd (l_act l) z) <= C)%R).

Lemma pass_bound (ls : list rlayer) (o : rlayer) x b ls1 delta dx ls2 :
  lforward ls x = Ok (b, ls1) -> fwd_ok (l_W o) b -> nr delta = nr b -> nc delta = nc (l_W o) -> lbackprop ls1 (down (fwd_layer o b) delta) = Ok (dx, ls2) ->
  Forall hidden_bounded ls -> (forall i l, nth_error (ls ++ [o]) i = Some l -> wbound l (M i)) ->
  (forall r k, r < nr x -> k < nc x -> (Rabs (at_ x r k) <= X)%R) ->
  (forall j, j < nc delta -> (sumN (nr delta) (fun r => Rabs (at_ delta r j)) <= d (length ls))%R) ->
  (forall i l, nth_error (ls ++ [o]) (S i) = Some l -> (C * INR (nc (l_W l)) * M (S i) * d (S i) <= d i)%R) ->
  forall i l, nth_error (ls2 ++ [back_layer (fwd_layer o b) delta]) i = Some l -> gbound l (X * d i).
Proof.
  intros HF HO N1 N2 HB HH HW Hx HD HR. destruct (chain_pass ls o x b ls1 delta dx ls2 HF HO N1 N2 HB) as (xs & dl & X0 & X1 & X2).
  assert (LL : length ls2 = length ls) by (pose proof (lbackprop_len _ _ _ _ HB); pose proof (lforward_len _ _ _ _ HF); lia).
  assert (BX : forall i, i <= length ls -> forall r k, r < nr (xs i) -> k < nc (xs i) -> (Rabs (at_ (xs i) r k) <= X)%R).
  { induction i as [|i IH]; intros Hi; [rewrite X0; exact Hx|]. destruct (nth_error ls i) as [l|] eqn:K; [|apply nth_error_None in K; lia].
    assert (K' : nth_error (ls ++ [o]) i = Some l) by (rewrite nth_error_app1 by lia; exact K). destruct (X2 i l K') as (_ & -> & _). cbn [fwd_out nr nc mk]. intros r k Hr Hk. unfold fwd_out. rewrite at_mk by assumption.
    rewrite Forall_forall in HH. apply (HH l). eapply nth_error_In; eauto. }
  assert (BB : forall i, i <= length ls -> forall r k, r < nr (xs i) -> k < nc (xs i) + 1 -> (Rabs (with_bias (xs i) r k) <= X)%R).
  { intros i Hi r [|k] Hr Hk; cbn [with_bias]; [cbn; rewrite Rabs_R1; exact HX|]. apply BX; [assumption|assumption|lia]. }
  assert (ND : forall m i, i + m = length ls -> forall l, nth_error (ls ++ [o]) i = Some l -> forall q, q < nc (l_W l) -> (sumN (nr (xs i)) (fun r => Rabs (at_ (dl i) r q)) <= d i)%R).
  { induction m as [|m IH]; intros i Ei l K q Hq.
    - assert (i = length ls) by lia. subst i. destruct (X2 _ _ K) as (_ & _ & Y3 & Y4 & _). rewrite X1 in *. rewrite <- Y3. apply HD. lia.
    - destruct (X2 i l K) as (Y1 & Y2 & Y3 & Y4 & Y5 & Y6). assert (K' : exists l', nth_error (ls ++ [o]) (S i) = Some l'). { destruct (nth_error (ls ++ [o]) (S i)) eqn:E; [eauto|]. apply nth_error_None in E. rewrite app_length in E. cbn in E. lia. }
      destruct K' as (l' & K'). destruct (Y6 l' K') as (Z1 & Z2). destruct (X2 (S i) l' K') as (Z3 & _ & Z4 & Z5 & _). specialize (IH (S i) ltac:(lia) l' K').
      assert (Nx : nr (xs (S i)) = nr (xs i)) by (rewrite Y2; reflexivity).
      assert (HL : hidden_bounded l). { rewrite nth_error_app1 in K by lia. rewrite Forall_forall in HH. apply HH. eapply nth_error_In; eauto. }
      eapply Rle_trans; [|apply (HR i l' K')].
      eapply Rle_trans; [apply (sumN_le _ _ (fun r => C * (M (S i) * sumN (nc (l_W l')) (fun j => Rabs (at_ (dl (S i)) r j))))%R)|].
      + intros r Hr. rewrite Z2. unfold back_delta. rewrite at_mk by (cbn [down nr nc mk fwd_layer l_W]; lia). unfold down. cbn [fwd_layer l_W l_act l_z]. rewrite at_mk by (cbn; lia). rewrite at_mk by (cbn; lia).
        rewrite mdot_R. change (dmul (d := Rdt)) with Rmult. rewrite Rabs_mult, Rmult_comm. apply Rmult_le_compat; [apply Rabs_pos|apply Rabs_pos|apply HL|]. rewrite Z5.
        apply (sum_abs_mul (nc (l_W l')) (fun j => at_ (dl (S i)) r j : R)); [apply HM|]. intros j Hj. unfold mt. rewrite at_mk by lia. apply (HW (S i) l' K'); lia.
      + rewrite sumN_scal, sumN_scal, sumN_swap. rewrite !Rmult_assoc. apply Rmult_le_compat_l; [exact HC|]. rewrite <- (Rmult_assoc (INR _)), (Rmult_comm (INR _)), Rmult_assoc. apply Rmult_le_compat_l; [apply HM|].
        rewrite <- sumN_const. apply sumN_le. intros j Hj. rewrite <- Nx. now apply IH. }
  intros i l Hi. assert (Li : i < length (ls ++ [o])). { rewrite app_length. cbn. assert (i < length (ls2 ++ [back_layer (fwd_layer o b) delta])) by (apply nth_error_Some; congruence). rewrite app_length in H. cbn in H. lia. }
  destruct (nth_error (ls ++ [o]) i) as [l0|] eqn:K; [|apply nth_error_None in K; lia]. destruct (X2 i l0 K) as (Y1 & Y2 & Y3 & Y4 & Y5 & _). rewrite Y5 in Hi. injection Hi as <-. rewrite app_length in Li. cbn in Li.
  intros p q Hp Hq. cbn [back_layer l_W fwd_layer l_grad l_lambda] in *. destruct Y1 as (F1 & F2 & F3). exists (at_ (raw_grad (fwd_layer l0 (xs i)) (dl i)) p q). split.
  - unfold grad_of. cbn [fwd_layer l_pa l_lambda l_W nc mk]. rewrite at_mk by lia. reflexivity.
  - rewrite (at_raw (fwd_layer l0 (xs i)) (dl i) (xs i)) by (try reflexivity; lia). eapply Rle_trans; [|apply Rmult_le_compat_l; [lra|apply (ND (length ls - i) i ltac:(lia) l0 K q Hq)]].
    rewrite (sumN_ext _ _ (fun r => at_ (dl i) r q * with_bias (xs i) r p)%R) by (intros; apply Rmult_comm). apply sum_abs_mul; [lra|]. intros r Hr. apply BB; [lia|assumption|lia].
Qed.
End Pass.

(** Regularised steps with rate eta, 0 <= eta lambda <= 1, never leave the ball |W| <= M once g <= lambda M. *)
Lemma step_bound (l : rlayer) (g M : R) : wbound l M -> gsized l -> gbound l g -> (0 <= l_lrate l)%R -> (l_lrate l * l_lambda l <= 1)%R -> (g <= l_lambda l * M)%R -> wbound (stepped l) M.
Proof.
  intros HW _ HG E1 E2 HM i j Hi Hj. unfold stepped in *. cbn [set_W l_W nr nc mk] in *. rewrite at_mk by assumption. destruct (HG i j Hi Hj) as (u & -> & Hu). specialize (HW i j Hi Hj).
  change (dsub (d := Rdt)) with Rminus. change (dmul (d := Rdt)) with Rmult. set (w := at_ (l_W l) i j : R) in *. set (e := l_lrate l : R) in *. set (la := l_lambda l : R) in *. change (car Rdt) with R in *.
  replace (w - e * (u + la * w))%R with ((1 - e * la) * w + - (e * u))%R by ring. eapply Rle_trans; [apply Rabs_triang|]. rewrite Rabs_Ropp, !Rabs_mult. rewrite (Rabs_right (1 - e * la)) by lra. rewrite (Rabs_right e) by lra.
  assert ((1 - e * la) * Rabs w <= (1 - e * la) * M)%R by (apply Rmult_le_compat_l; lra). assert (e * Rabs u <= e * (la * M))%R by (apply Rmult_le_compat_l; lra). lra.
Qed.

(** Func.v - the function a network of Layers computes on one sample, over the reals, and how forwardprop is related to it. *)
From Coq Require Import Reals Lra Lia.
From Verif Require Import Base Mat Act Layer Conv Misc Net NetP RInst RMat P_Round.
Local Open Scope nat_scope.

(** A sample (or the outputs of a layer) is a function from feature numbers to reals; a unit takes the bias plus the weighted
    sum of the features and applies the activation function. *)
Definition unit_of (l : layer Rdt) (v : nat -> R) (j : nat) : R :=
  act (l_act l) (at_ (l_W l) 0 j + sumN (nr (l_W l) - 1) (fun k => v k * at_ (l_W l) (S k) j))%R.
Definition value (ls : list (layer Rdt)) (v : nat -> R) : nat -> R := fold_left (fun v l => unit_of l v) ls v.
(** Layers whose sizes chain, from p features. *)
Fixpoint chained (p : nat) (ls : list (layer Rdt)) : Prop :=
  match ls with [] => True | l :: r => nr (l_W l) = p + 1 /\ chained (nc (l_W l)) r end.
(** The number of outputs. *)
Fixpoint width (p : nat) (ls : list (layer Rdt)) : nat := match ls with [] => p | l :: r => width (nc (l_W l)) r end.
(** forwardprop(x) returns a. *)
Definition answers (junk : nat -> Rdt) (n : net Rdt) (H : lheap Rdt) (x a : mat Rdt) : Prop :=
  exists n' H', net_forward (D := Rdt) junk n H x = Ok (a, n', H').
(** The layers of the network, input side first. *)
Definition all_layers (n : net Rdt) (H : lheap Rdt) (ls : list (layer Rdt)) : Prop :=
  dense_hidden n H /\ exists hs, hidden_layers n H = Ok hs /\ ls = hs ++ [o_l (n_output n)].
Definition feature (x : mat Rdt) (i : nat) : nat -> R := fun k => at_ x i k.

Lemma unit_ext l v w j : (forall k, k < nr (l_W l) - 1 -> v k = w k) -> unit_of l v j = unit_of l w j.
Proof. intros E. unfold unit_of. do 2 f_equal. apply sumN_ext. intros k Hk. now rewrite E. Qed.
Lemma value_ext ls : forall p v w, chained p ls -> ls <> [] -> (forall k, k < p -> v k = w k) -> forall j, value ls v j = value ls w j.
Proof.
  induction ls as [|l ls IH]; intros p v w HC HN E j; [congruence|]. cbn [chained] in HC. destruct HC as [C1 C2]. cbn [value fold_left].
  destruct ls as [|l2 ls]; [apply unit_ext; intros; apply E; lia|]. apply (IH (nc (l_W l))); [assumption|discriminate|]. intros k _. apply unit_ext. intros; apply E; lia.
Qed.
Lemma width_app ls l p : width p (ls ++ [l]) = nc (l_W l).
Proof. revert p. induction ls as [|k ls IH]; intros p; cbn; auto. Qed.
Lemma lforward_chained ls : forall (x a : mat Rdt) ls', lforward ls x = Ok (a, ls') -> chained (nc x) ls /\ nc a = width (nc x) ls /\ nr a = nr x.
Proof.
  induction ls as [|l ls IH]; intros x a ls' H; cbn [lforward] in H; [injection H as <- <-; cbn; auto|].
  apply bind_ok in H as ([b l'] & H1 & H). apply bind_ok in H as ([c r'] & H2 & H). injection H as <- <-.
  apply forward_inv in H1 as ((Q1 & Q2 & Q3) & -> & _). cbn [chained width]. destruct (IH _ _ _ H2) as (A & B & C). cbn [fwd_out nc nr mk] in A, B, C. auto.
Qed.
Lemma exact_value ls : forall (x a : mat Rdt), exact_pass ls x a -> chained (nc x) ls -> ls <> [] -> nr a = nr x /\ forall i j, i < nr a -> j < nc a -> (at_ a i j : R) = value ls (feature x i) j.
Proof.
  induction ls as [|l ls IH]; intros x a HP HC HN; [congruence|]. cbn [exact_pass chained] in *. destruct HP as (b & (B1 & B2 & B3) & HP), HC as [C1 C2]. rewrite <- B2 in C2.
  assert (U : forall i j, i < nr b -> j < nc b -> (at_ b i j : R) = unit_of l (feature x i) j).
  { intros i j Hi Hj. rewrite B3 by assumption. unfold unit_of. replace (nr (l_W l) - 1) with (nc x) by lia. reflexivity. }
  destruct ls as [|l2 ls].
  - cbn [exact_pass] in HP. subst b. split; [assumption|]. intros. now apply U.
  - destruct (IH b a HP C2 ltac:(discriminate)) as [I1 I2]. split; [congruence|]. intros i j Hi Hj. rewrite I2 by assumption. cbn [value fold_left].
    apply (value_ext (l2 :: ls) (nc b) _ _ C2); [discriminate|]. intros k Hk. unfold feature at 1. apply U; [congruence|assumption].
Qed.
(** What forwardprop returns, if it returns. *)
Lemma answers_value junk n H ls x a : all_layers n H ls -> answers junk n H x a ->
  chained (nc x) ls /\ nr a = nr x /\ nc a = nc (l_W (o_l (n_output n))) /\ 1 <= nr x /\ 1 <= nc x /\ forall i j, i < nr x -> j < nc a -> (at_ a i j : R) = value ls (feature x i) j.
Proof.
  intros (Dn & hs & Hl & ->) (n' & H' & E). destruct (dense_ls n H Dn) as (ls0 & Hdn). pose proof (hidden_layers_dense n H ls0 (proj2 Hdn)) as E0. rewrite Hl in E0. injection E0 as ->.
  rewrite (net_forward_dense junk n H ls0 x Hdn) in E. apply bind_ok in E as ([b ls'] & E1 & E). apply bind_ok in E as ([r o'] & E2 & E). injection E as -> _ _.
  apply out_forward_inv in E2 as (F1 & -> & _). destruct (lforward_chained _ _ _ _ E1) as (A & B & C). destruct F1 as (F1 & F2 & F3).
  assert (P : exact_pass (ls0 ++ [o_l (n_output n)]) x (fwd_out (o_l (n_output n)) b)).
  { apply exact_pass_app. exists b. split; [eapply lforward_exact; exact E1|]. cbn [exact_pass]. eexists. split; [apply fwd_exact; repeat split; assumption|reflexivity]. }
  assert (K : chained (nc x) (ls0 ++ [o_l (n_output n)])).
  { clear P E1 C Hl Hdn. revert A B. generalize (nc x). induction ls0 as [|l ls0 IH]; intros p A B; cbn [app chained width] in *; [split; [lia|exact I]|]. destruct A. split; [assumption|]. now apply IH. }
  destruct (exact_value _ _ _ P K) as [V1 V2]; [destruct ls0; discriminate|]. split; [assumption|]. split; [assumption|]. split; [reflexivity|]. split; [lia|]. split.
  - destruct ls0 as [|l ls0]; cbn [lforward] in E1; [injection E1 as <- <-; assumption|]. apply bind_ok in E1 as ([c l'] & G & _). apply forward_inv in G as ((_ & G & _) & _). assumption.
  - intros i j Hi Hj. apply V2; [congruence|assumption].
Qed.
(** It does return when the sizes fit. *)
Lemma answers_ex junk n H ls x : all_layers n H ls -> chained (nc x) ls -> 1 <= nr x -> 1 <= nc x -> Forall (fun l => 1 <= nc (l_W l)) ls -> exists a, answers junk n H x a.
Proof.
  intros (Dn & hs & Hl & ->) HC Hx Hc HF. apply Forall_app in HF as [HF _].
  assert (Q : exists q, TrainP.fits (D := Rdt) (nc x) hs q /\ 1 <= q /\ nr (l_W (o_l (n_output n))) = q + 1).
  { clear Hl. revert HC HF Hc. generalize (nc x). induction hs as [|l hs IH]; intros p HC HF Hc; cbn [app chained TrainP.fits] in *.
    - exists p. destruct HC. auto.
    - destruct HC as [C1 C2]. inversion HF; subst. destruct (IH _ C2) as (q & Q1 & Q2 & Q3); [assumption|assumption|]. exists q. auto. }
  destruct Q as (q & Q1 & Q2 & Q3). destruct (dense_fwd (D := Rdt) junk n H hs x q Dn Hl Hx Q1 Q2 Q3) as (b & k & a & n1 & H1 & _ & _ & _ & _ & E). exists a, n1, H1. exact E.
Qed.

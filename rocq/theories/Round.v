(** Round.v - the scalar interface in rounded arithmetic, and the rounding error of sums of products. *)
From Coq Require Import Reals Lra Lia Permutation.
From Verif Require Import Base Mat RInst RMat.
Local Open Scope R_scope.

(** The library functions of <cmath>, as arbitrary real functions. *)
Record libm := LM { m_exp : R -> R; m_log : R -> R; m_sqrt : R -> R; m_pow : R -> R -> R;
  m_tanh : R -> R; m_atan : R -> R; m_sin : R -> R; m_cos : R -> R }.
(** Arithmetic that rounds the result of every operation with [rnd] (IEEE 754, section 4.3).  Values are reals: there are no
    infinities and no NaN, so this describes runs without overflow.  Literals and integer conversions are rounded too;
    the literals 0 and 1, negation, fabs, fmax, fmin and comparisons are exact. *)
Definition fdt (rnd : R -> R) (m : libm) : dtype := {|
  car := R; d0 := 0; d1 := 1; dadd := fun x y => rnd (x + y); dsub := fun x y => rnd (x - y); dmul := fun x y => rnd (x * y);
  ddiv := fun x y => rnd (x / y); dneg := Ropp; dabs := Rabs; dexp := m_exp m; dlog := m_log m; dsqrt := m_sqrt m; dpow := m_pow m;
  dltb := Rltb'; dleb := Rleb'; deqb := Reqb'; dofZ := fun z => rnd (IZR z); dlit := fun a e => rnd (IZR a / IZR (10 ^ e));
  dtanh := m_tanh m; datan := m_atan m; dsin := m_sin m; dcos := m_cos m; dfmax := Rmax; dfmin := Rmin |}.

(** The standard model: relative error u, and absolute error eta for results in the underflow range. *)
Definition std_model (rnd : R -> R) (u eta : R) : Prop := 0 <= u /\ 0 <= eta /\ forall x, Rabs (rnd x - x) <= u * Rabs x + eta.

(** A way of evaluating a sum of products x_k w_k: any order and association, with or without fused multiply-add. *)
Inductive plan := PZero | PMul (k : nat) | PAdd (a b : plan) | PFma (a : plan) (k : nat).
Fixpoint eval (rnd : R -> R) (x w : nat -> R) (t : plan) : R :=
  match t with
  | PZero => 0
  | PMul k => rnd (x k * w k)
  | PAdd a b => rnd (eval rnd x w a + eval rnd x w b)
  | PFma a k => rnd (eval rnd x w a + x k * w k)
  end.
Fixpoint leaves (t : plan) : list nat :=
  match t with PZero => [] | PMul k => [k] | PAdd a b => leaves a ++ leaves b | PFma a k => leaves a ++ [k] end.
(** Roundings on the longest path, and altogether. *)
Fixpoint depth (t : plan) : nat :=
  match t with PZero => 0 | PMul _ => 1 | PAdd a b => S (Nat.max (depth a) (depth b)) | PFma a _ => S (depth a) end%nat.
Fixpoint count (t : plan) : nat :=
  match t with PZero => 0 | PMul _ => 1 | PAdd a b => S (count a + count b) | PFma a _ => S (count a) end%nat.
(** It evaluates the n products, each once, with at most the roundings of the straightforward loop. *)
Definition plan_for (n : nat) (t : plan) : Prop := Permutation (leaves t) (seq 0 n) /\ (depth t <= n + 1)%nat /\ (count t <= 2 * n)%nat.

Section Std.
Context (rnd : R -> R) (u eta : R) (Hstd : std_model rnd u eta).

Lemma u0 : 0 <= u. Proof. apply Hstd. Qed.
Lemma eta0 : 0 <= eta. Proof. apply Hstd. Qed.
Lemma rnd_err x : Rabs (rnd x - x) <= u * Rabs x + eta. Proof. apply Hstd. Qed.
Lemma pow_ge1 n : 1 <= (1 + u) ^ n.
Proof. apply pow_R1_Rle. pose proof u0. lra. Qed.
Lemma pow_mono n m : (n <= m)%nat -> (1 + u) ^ n <= (1 + u) ^ m.
Proof. intros H. apply Rle_pow; [pose proof u0; lra|assumption]. Qed.
Lemma sumL_abs_nonneg (f : nat -> R) l : 0 <= sumL (map (fun k => Rabs (f k)) l).
Proof. unfold sumL. induction l as [|a l IH]; cbn; [lra|]. pose proof (Rabs_pos (f a)). lra. Qed.
Lemma sumL_abs_le (f : nat -> R) l : Rabs (sumL (map f l)) <= sumL (map (fun k => Rabs (f k)) l).
Proof. unfold sumL. induction l as [|a l IH]; cbn; [rewrite Rabs_R0; lra|]. pose proof (Rabs_triang (f a) (fold_right Rplus 0 (map f l))). lra. Qed.

(** One rounded step: the sum s, an approximation of T, is rounded. *)
Lemma rnd_step s T A E d c : Rabs (s - T) <= E -> Rabs T <= A -> E <= ((1 + u) ^ d - 1) * A + INR c * eta * (1 + u) ^ d -> 
  Rabs (rnd s - T) <= ((1 + u) ^ S d - 1) * A + INR (S c) * eta * (1 + u) ^ S d.
Proof.
  intros H1 H2 H3. pose proof u0 as U. pose proof eta0 as ET. pose proof (rnd_err s) as R1. pose proof (pow_ge1 (S d)) as P1. pose proof (pow_ge1 d) as P2.
  assert (B1 : Rabs (rnd s - T) <= Rabs (rnd s - s) + Rabs (s - T)) by (replace (rnd s - T) with ((rnd s - s) + (s - T)) by lra; apply Rabs_triang).
  assert (B2 : Rabs s <= Rabs (s - T) + Rabs T) by (replace s with ((s - T) + T) at 1 by lra; apply Rabs_triang).
  assert (B3 : u * Rabs s <= u * (E + A)) by (apply Rmult_le_compat_l; lra).
  assert (B4 : (1 + u) * E <= (1 + u) * (((1 + u) ^ d - 1) * A + INR c * eta * (1 + u) ^ d)) by (apply Rmult_le_compat_l; lra).
  assert (B5 : eta <= eta * (1 + u) ^ S d) by (rewrite <- (Rmult_1_r eta) at 1; apply Rmult_le_compat_l; lra).
  rewrite S_INR. cbn [pow] in *. nra.
Qed.
Lemma E_mono d d' c c' A : (d <= d')%nat -> (c <= c')%nat -> 0 <= A ->
  ((1 + u) ^ d - 1) * A + INR c * eta * (1 + u) ^ d <= ((1 + u) ^ d' - 1) * A + INR c' * eta * (1 + u) ^ d'.
Proof.
  intros Hd Hc HA. pose proof (pow_mono _ _ Hd) as P. pose proof (pow_ge1 d). apply le_INR in Hc. pose proof (pos_INR c). pose proof eta0.
  apply Rplus_le_compat; [apply Rmult_le_compat_r; lra|]. apply Rmult_le_compat; [|lra| |assumption]; [apply Rmult_le_pos; assumption|apply Rmult_le_compat_r; assumption].
Qed.
(** The error of any evaluation. *)
Lemma eval_err x w t : Rabs (eval rnd x w t - sumL (map (fun k => x k * w k) (leaves t))) <=
  ((1 + u) ^ depth t - 1) * sumL (map (fun k => Rabs (x k * w k)) (leaves t)) + INR (count t) * eta * (1 + u) ^ depth t.
Proof.
  pose proof eta0 as ET. induction t as [|k|a IHa b IHb|a IHa k]; cbn [eval leaves depth count].
  - cbn. rewrite Rminus_0_r, Rabs_R0. lra.
  - cbn [map sumL fold_right]. rewrite !Rplus_0_r. change 1%nat with (S 0) at 2. apply (rnd_step _ _ _ 0 0 0); cbn; try lra. rewrite Rminus_diag_eq, Rabs_R0 by reflexivity. lra.
  - rewrite !map_app, !sumL_app. set (Ta := sumL (map (fun k => x k * w k) (leaves a))) in *. set (Tb := sumL (map (fun k => x k * w k) (leaves b))) in *.
    set (Aa := sumL (map (fun k => Rabs (x k * w k)) (leaves a))) in *. set (Ab := sumL (map (fun k => Rabs (x k * w k)) (leaves b))) in *.
    assert (Pa : 0 <= Aa) by apply (sumL_abs_nonneg (fun k => x k * w k)). assert (Pb : 0 <= Ab) by apply (sumL_abs_nonneg (fun k => x k * w k)).
    apply (rnd_step _ _ _ (Rabs (eval rnd x w a - Ta) + Rabs (eval rnd x w b - Tb)) (Nat.max (depth a) (depth b)) (count a + count b)).
    + replace (eval rnd x w a + eval rnd x w b - (Ta + Tb)) with ((eval rnd x w a - Ta) + (eval rnd x w b - Tb)) by lra. apply Rabs_triang.
    + pose proof (sumL_abs_le (fun k => x k * w k) (leaves a)) as Q1. pose proof (sumL_abs_le (fun k => x k * w k) (leaves b)) as Q2. cbn beta in Q1, Q2. fold Ta Aa in Q1. fold Tb Ab in Q2. pose proof (Rabs_triang Ta Tb). lra.
    + pose proof (E_mono (depth a) (Nat.max (depth a) (depth b)) (count a) (count a) Aa (Nat.le_max_l _ _) (le_n _) Pa).
      pose proof (E_mono (depth b) (Nat.max (depth a) (depth b)) (count b) (count b) Ab (Nat.le_max_r _ _) (le_n _) Pb). rewrite plus_INR. lra.
  - rewrite !map_app, !sumL_app. cbn [map sumL fold_right]. rewrite !Rplus_0_r. set (Ta := sumL (map (fun k => x k * w k) (leaves a))) in *. set (Aa := sumL (map (fun k => Rabs (x k * w k)) (leaves a))) in *.
    assert (Pa : 0 <= Aa) by apply (sumL_abs_nonneg (fun k => x k * w k)).
    apply (rnd_step _ _ _ (Rabs (eval rnd x w a - Ta)) (depth a) (count a)).
    + replace (eval rnd x w a + x k * w k - (Ta + x k * w k)) with (eval rnd x w a - Ta) by lra. lra.
    + pose proof (sumL_abs_le (fun k => x k * w k) (leaves a)) as Q1. cbn beta in Q1. fold Ta Aa in Q1. pose proof (Rabs_triang Ta (x k * w k)). lra.
    + pose proof (pow_ge1 (depth a)). pose proof (Rabs_pos (x k * w k)). nra.
Qed.
Lemma sumL_perm l l' : Permutation l l' -> sumL l = sumL l'.
Proof. unfold sumL. induction 1; cbn; lra. Qed.
(** ... of any evaluation of n products: at most what the straightforward loop may lose. *)
Lemma plan_err n x w t : plan_for n t ->
  Rabs (eval rnd x w t - sumN n (fun k => x k * w k)) <= ((1 + u) ^ (n + 1) - 1) * sumN n (fun k => Rabs (x k * w k)) + INR (2 * n) * eta * (1 + u) ^ (n + 1).
Proof.
  intros (P & Hd & Hc). pose proof (eval_err x w t) as E. unfold sumN.
  rewrite <- (sumL_perm _ _ (Permutation_map (fun k => x k * w k) P)), <- (sumL_perm _ _ (Permutation_map (fun k => Rabs (x k * w k)) P)).
  eapply Rle_trans; [exact E|]. apply E_mono; try assumption. apply (sumL_abs_nonneg (fun k => x k * w k)).
Qed.
(** The loop of the model is one of the plans. *)
Fixpoint loop_plan (n : nat) : plan := match n with O => PZero | S n => PAdd (loop_plan n) (PMul n) end.
Lemma loop_plan_for n : plan_for n (loop_plan n).
Proof.
  split; [|split].
  - induction n as [|n IH]; [constructor|]. cbn [loop_plan leaves]. rewrite seq_S. apply Permutation_app; [exact IH|reflexivity].
  - destruct n as [|n]; [cbn; lia|]. enough (G : forall n, (depth (loop_plan (S n)) <= S n + 1)%nat) by apply G. induction n0 as [|k IH]; [cbn; lia|]. change (depth (loop_plan (S (S k)))) with (S (Nat.max (depth (loop_plan (S k))) 1)). lia.
  - induction n as [|n IH]; cbn; lia.
Qed.
Lemma loop_eval x w n : eval rnd x w (loop_plan n) = fold_left (fun acc k => rnd (acc + rnd (x k * w k))) (seq 0 n) 0.
Proof. induction n as [|n IH]; [reflexivity|]. rewrite seq_S, fold_left_app, <- IH. reflexivity. Qed.
End Std.

(** RMat.v - finite sums over indices, real matrices, derivatives of sums. *)
From Coq Require Import Reals Lra.
From Coquelicot Require Import Coquelicot.
From Verif Require Import Base Mat Act Layer Conv Misc Net NetP RInst.
From Coq Require Import Arith.
Local Open Scope nat_scope.

(** f 0 + ... + f (n-1) *)
Definition sumN (n : nat) (f : nat -> R) : R := sumL (map f (seq 0 n)).

Lemma mdot_R (a b : mat Rdt) i j : mdot a b i j = sumN (nc a) (fun k => at_ a i k * at_ b k j)%R.
Proof. unfold mdot, sumN. rewrite (fold_left_sum (fun k => at_ a i k * at_ b k j)%R). simpl. lra. Qed.
Lemma sumN_S n f : sumN (S n) f = (f 0%nat + sumN n (fun i => f (S i)))%R.
Proof. unfold sumN. cbn [seq map sumL fold_right]. f_equal. rewrite <- seq_shift, map_map. reflexivity. Qed.
Lemma sumN_ext n f g : (forall i, i < n -> f i = g i) -> sumN n f = sumN n g.
Proof. intros H. apply sumL_map_ext. intros i Hi%in_seq. apply H. lia. Qed.
Lemma pre_R (W x : mat Rdt) i j : i < nr x ->
  pre W x i j = (at_ W 0%nat j + sumN (nc x) (fun k => at_ x i k * at_ W (S k) j))%R.
Proof.
  intros Hi. unfold pre. rewrite mdot_R. cbn [nc mk]. rewrite Nat.add_1_r, sumN_S. f_equal.
  - rewrite at_mk by lia. simpl. lra.
  - apply sumN_ext. intros k Hk. rewrite at_mk by lia. reflexivity.
Qed.


Lemma sumN_0 f : sumN 0 f = 0%R. Proof. reflexivity. Qed.
Lemma sumN_last n f : sumN (S n) f = (sumN n f + f n)%R.
Proof. unfold sumN. rewrite seq_S, map_app, sumL_app. cbn. lra. Qed.
Lemma sumN_plus n f g : sumN n (fun i => f i + g i)%R = (sumN n f + sumN n g)%R.
Proof. apply sumL_map_plus. Qed.
Lemma sumN_scal n c f : sumN n (fun i => c * f i)%R = (c * sumN n f)%R.
Proof. apply sumL_map_scal. Qed.
Lemma sumN_scal_r n c f : sumN n (fun i => f i * c)%R = (sumN n f * c)%R.
Proof. rewrite Rmult_comm, <- sumN_scal. apply sumN_ext. intros. lra. Qed.
Lemma sumN_opp n f : sumN n (fun i => - f i)%R = (- sumN n f)%R.
Proof. rewrite <- (Rmult_1_l (sumN n f)), <- Ropp_mult_distr_l_reverse, <- sumN_scal. apply sumN_ext. intros. lra. Qed.
Lemma sumN_minus n f g : sumN n (fun i => f i - g i)%R = (sumN n f - sumN n g)%R.
Proof. unfold Rminus. now rewrite <- sumN_opp, <- sumN_plus. Qed.
Lemma sumN_const0 n : sumN n (fun _ => 0%R) = 0%R.
Proof. apply sumL_map_0. Qed.
Lemma sumN_zero n f : (forall i, i < n -> f i = 0%R) -> sumN n f = 0%R.
Proof. intros H. rewrite (sumN_ext n f (fun _ => 0%R)) by assumption. apply sumN_const0. Qed.
Lemma sumN_const n c : sumN n (fun _ => c) = (INR n * c)%R.
Proof. induction n; [cbn; lra|]. rewrite sumN_last, IHn, S_INR. lra. Qed.
Lemma sumN_swap n m (f : nat -> nat -> R) : sumN n (fun i => sumN m (f i)) = sumN m (fun j => sumN n (fun i => f i j)).
Proof. apply (sumL_swap f). Qed.
Lemma sumN_single n f k : k < n -> (forall i, i < n -> i <> k -> f i = 0%R) -> sumN n f = f k.
Proof.
  revert f k. induction n as [|n IH]; intros f k Hk H; [lia|]. rewrite sumN_last. destruct (Nat.eq_dec k n) as [->|].
  - rewrite sumN_zero; [lra|]. intros i Hi. apply H; lia.
  - rewrite (IH f k) by (intros; try apply H; lia). rewrite (H n) by lia. lra.
Qed.
Lemma sumN_nonneg n f : (forall i, i < n -> (0 <= f i)%R) -> (0 <= sumN n f)%R.
Proof. induction n as [|n IH]; intros H; [cbn; lra|]. rewrite sumN_last. specialize (IH (fun i Hi => H i (Nat.lt_lt_succ_r _ _ Hi))). specialize (H n (Nat.lt_succ_diag_r n)). lra. Qed.
Lemma sumN_nonneg_0 n f : (forall i, i < n -> (0 <= f i)%R) -> sumN n f = 0%R -> forall i, i < n -> f i = 0%R.
Proof.
  induction n as [|n IH]; intros H E i Hi; [lia|]. rewrite sumN_last in E.
  assert (0 <= sumN n f)%R by (apply sumN_nonneg; intros; apply H; lia). assert (0 <= f n)%R by (apply H; lia).
  destruct (Nat.eq_dec i n) as [->|]; [lra|]. apply IH; [intros; apply H; lia|lra|lia].
Qed.
Lemma sumN_le n f g : (forall i, i < n -> (f i <= g i)%R) -> (sumN n f <= sumN n g)%R.
Proof. intros H. assert (0 <= sumN n (fun i => g i - f i))%R by (apply sumN_nonneg; intros i Hi; specialize (H i Hi); lra). rewrite sumN_minus in H0. lra. Qed.
Lemma sumN_pos n f : 1 <= n -> (forall i, i < n -> (0 < f i)%R) -> (0 < sumN n f)%R.
Proof.
  intros Hn H. destruct n as [|n]; [lia|]. rewrite sumN_last. assert (0 < f n)%R by (apply H; lia).
  assert (0 <= sumN n f)%R by (apply sumN_nonneg; intros; left; apply H; lia). lra.
Qed.

Lemma d_sumN n (f : R -> nat -> R) t f' : (forall i, i < n -> is_derive (fun s => f s i) t (f' i)) ->
  is_derive (fun s : R => sumN n (f s)) t (sumN n f').
Proof.
  induction n as [|n IH]; intros H.
  - apply (is_derive_ext (fun _ => 0%R)); [reflexivity|]. apply (is_derive_const (K := R_AbsRing) (V := R_NormedModule)).
  - apply (is_derive_ext (fun s => (sumN n (f s) + f s n)%R)); [intros s; now rewrite sumN_last|]. rewrite sumN_last.
    apply (is_derive_plus (K := R_AbsRing) (V := R_NormedModule)); [apply IH; intros; apply H; lia|apply H; lia].
Qed.

(** Frobenius inner product, on entries of the first matrix's shape. *)
Definition inner (A B : mat Rdt) : R := sumN (nr A) (fun i => sumN (nc A) (fun j => at_ A i j * at_ B i j)%R).

Lemma accu_mk r c (f : nat -> nat -> R) : accu (D := Rdt) (mk (D := Rdt) r c f) = sumN c (fun j => sumN r (fun i => f i j)).
Proof.
  unfold accu, mk. cbn [el]. transitivity (0 + sumL (flat_map (fun j => map (fun i => f i j) (seq 0 r)) (seq 0 c)))%R; [apply fold_left_plus|].
  rewrite Rplus_0_l. unfold sumN at 1. induction (seq 0 c) as [|j l IH]; [reflexivity|]. cbn [flat_map map]. rewrite sumL_app, IH. reflexivity.
Qed.

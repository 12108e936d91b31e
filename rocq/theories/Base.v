(** Base.v - outcomes, C++ int arithmetic, scalar interface.

    Everything here is language-level (C++11), not specific to one file of /repo. *)
From Coq Require Export List ZArith Lia Bool Arith.
Export ListNotations.

(** ** Outcomes of running C++ code *)

(** Kinds of undefined behaviour that the model distinguishes. *)
Inductive ub : Type :=
| NullDeref        (** access through a null pointer *)
| OutOfBounds      (** access outside the allocated block *)
| UseAfterFree     (** access to / free of a block that is not live *)
| UninitRead       (** reading a cell that was never written *)
| MismatchedDelete (** [delete[]] of a block that came from scalar [new] *)
| IntOverflow      (** signed int overflow *)
| DivZero          (** integer division by zero *)
| DataRace.        (** two iterations of a parallel loop touch a cell one of them writes *)

(** [Abort] is a failing [assert] (active: /repo/CMakeLists.txt:3 sets the Debug build type and nothing
    defines NDEBUG); [Throw] is a C++ exception leaving the function (Armadillo's std::logic_error). *)
Inductive res (A : Type) : Type :=
| Ok (a : A)
| Undef (u : ub)
| Abort
| Throw.
Arguments Ok {A} a.
Arguments Undef {A} u.
Arguments Abort {A}.
Arguments Throw {A}.

Definition bind {A B} (r : res A) (k : A -> res B) : res B :=
  match r with
  | Ok a => k a
  | Undef u => Undef u
  | Abort => Abort
  | Throw => Throw
  end.

Declare Scope res_scope.
Delimit Scope res_scope with res.
Notation "x <- e ;; k" := (bind e (fun x => k))
  (at level 61, e at next level, right associativity) : res_scope.
Notation "' p <- e ;; k" := (bind e (fun p => k))
  (at level 61, p pattern, e at next level, right associativity) : res_scope.
Open Scope res_scope.

(** [assert(b)] *)
Definition cassert (b : bool) : res unit := if b then Ok tt else Abort.

Definition is_undef {A} (r : res A) : Prop := exists u, r = Undef u.

Lemma bind_ok {A B} (r : res A) (k : A -> res B) b :
  bind r k = Ok b -> exists a, r = Ok a /\ k a = Ok b.
Proof. destruct r; simpl; intros H; try discriminate; eauto. Qed.

Lemma bind_eq {A B} (r : res A) (k : A -> res B) a b : r = Ok a -> k a = b -> bind r k = b.
Proof. intros -> H. exact H. Qed.

(** Left-to-right map with effects: a loop collecting results. *)
Fixpoint mapM {A B} (f : A -> res B) (l : list A) : res (list B) :=
  match l with
  | [] => Ok []
  | x :: r => y <- f x ;; ys <- mapM f r ;; Ok (y :: ys)
  end.

(** A loop threading a state. *)
Fixpoint foldM {A S} (f : S -> A -> res S) (l : list A) (s : S) : res S :=
  match l with
  | [] => Ok s
  | x :: r => s' <- f s x ;; foldM f r s'
  end.

(** ** 32-bit signed int *)
Definition INT_MAX : Z := 2147483647.
Definition INT_MIN : Z := -2147483648.
Definition int_ok (z : Z) : bool := (INT_MIN <=? z)%Z && (z <=? INT_MAX)%Z.
Definition imul (a b : Z) : res Z :=
  if int_ok (a * b) then Ok (a * b)%Z else Undef IntOverflow.

(** [for (int i = 0; i < n; ++i)] *)
Definition zrange (n : Z) : list Z := map Z.of_nat (seq 0 (Z.to_nat n)).

(** ** Scalars

    The element type ([float]/[double]) with the operations the code uses on it.  No laws are assumed:
    a theorem proved for every [dtype] holds for IEEE arithmetic with any rounding mode and any libm. *)
Record dtype := DT {
  car :> Type;
  d0 : car;                       (** literal 0 *)
  d1 : car;                       (** literal 1 *)
  dadd : car -> car -> car;
  dsub : car -> car -> car;
  dmul : car -> car -> car;
  ddiv : car -> car -> car;
  dneg : car -> car;
  dabs : car -> car;              (** std::abs, fabs *)
  dexp : car -> car;
  dlog : car -> car;
  dsqrt : car -> car;
  dpow : car -> car -> car;
  dltb : car -> car -> bool;      (** [<] *)
  dleb : car -> car -> bool;      (** [<=] *)
  deqb : car -> car -> bool;      (** [==] *)
  dofZ : Z -> car;                (** integer to floating conversion *)
  dlit : Z -> Z -> car;           (** [dlit m e] = decimal literal m * 10^(-e) *)
  dtanh : car -> car;
  datan : car -> car;
  dsin : car -> car;
  dcos : car -> car;
  dfmax : car -> car -> car;
  dfmin : car -> car -> car
}.
Arguments d0 {_}. Arguments d1 {_}.
Arguments dadd {_}. Arguments dsub {_}. Arguments dmul {_}. Arguments ddiv {_}.
Arguments dneg {_}. Arguments dabs {_}. Arguments dexp {_}. Arguments dlog {_}.
Arguments dsqrt {_}. Arguments dpow {_}. Arguments dltb {_}. Arguments dleb {_}.
Arguments deqb {_}. Arguments dofZ {_}. Arguments dlit {_}.
Arguments dtanh {_}. Arguments datan {_}. Arguments dsin {_}. Arguments dcos {_}.
Arguments dfmax {_}. Arguments dfmin {_}.

(** A computable instance used only in examples: integers, with truncating division and dummy
    transcendental functions. *)
Definition Zdt : dtype := {|
  car := Z; d0 := 0%Z; d1 := 1%Z; dadd := Z.add; dsub := Z.sub; dmul := Z.mul; ddiv := Z.quot;
  dneg := Z.opp; dabs := Z.abs; dexp := fun x => x; dlog := fun x => x; dsqrt := Z.sqrt; dpow := Z.pow;
  dltb := Z.ltb; dleb := Z.leb; deqb := Z.eqb; dofZ := fun z => z;
  dlit := fun m e => (m / 10 ^ e)%Z;
  dtanh := fun x => x; datan := fun x => x; dsin := fun x => x; dcos := fun x => x;
  dfmax := Z.max; dfmin := Z.min |}.

(** ** Generic list facts used everywhere *)

Lemma zrange_length n : length (zrange n) = Z.to_nat n.
Proof. unfold zrange. now rewrite map_length, seq_length. Qed.

Lemma in_zrange n z : In z (zrange n) <-> (0 <= z < n)%Z.
Proof.
  unfold zrange. rewrite in_map_iff. split.
  - intros (k & Hk & Hin). apply in_seq in Hin. lia.
  - intros H. exists (Z.to_nat z). split; [lia|]. apply in_seq. lia.
Qed.

Lemma zrange_nth n k : (k < Z.to_nat n)%nat -> nth_error (zrange n) k = Some (Z.of_nat k).
Proof.
  intros H. unfold zrange. rewrite nth_error_map.
  rewrite (nth_error_nth' (seq 0 (Z.to_nat n)) 0%nat) by (rewrite seq_length; lia).
  rewrite seq_nth by lia. reflexivity.
Qed.

Lemma mapM_ok {A B} (f : A -> res B) l ys :
  mapM f l = Ok ys <-> Forall2 (fun x y => f x = Ok y) l ys.
Proof.
  revert ys; induction l as [|x l IH]; intros ys; simpl.
  - split; intros H; [injection H as <-; constructor | inversion H; reflexivity].
  - split.
    + intros H. apply bind_ok in H as (y & Hy & H). apply bind_ok in H as (ys' & Hys & H).
      injection H as <-. constructor; [assumption|]. now apply IH.
    + intros H. inversion H as [|? y ? ys' Hy Hr]; subst. rewrite Hy. simpl.
      apply IH in Hr. rewrite Hr. reflexivity.
Qed.

(** Replace the [k]-th element. *)
Fixpoint upd {A} (k : nat) (x : A) (l : list A) : list A :=
  match l with
  | [] => []
  | y :: r => match k with O => x :: r | S k' => y :: upd k' x r end
  end.

Lemma upd_length {A} k (x : A) l : length (upd k x l) = length l.
Proof. revert k; induction l as [|y l IH]; intros [|k]; simpl; auto. Qed.

Lemma nth_error_upd {A} k (x : A) l j :
  nth_error (upd k x l) j =
  if Nat.eqb j k then (match nth_error l k with Some _ => Some x | None => None end) else nth_error l j.
Proof.
  revert k j; induction l as [|y l IH]; intros k j; simpl.
  - destruct (Nat.eqb j k); destruct j, k; reflexivity.
  - destruct k as [|k], j as [|j]; simpl; try reflexivity. apply IH.
Qed.

Lemma upd_out {A} k (x : A) l : (length l <= k)%nat -> upd k x l = l.
Proof.
  revert k; induction l as [|y l IH]; intros [|k] H; simpl in *; try reflexivity; try lia.
  f_equal. apply IH. lia.
Qed.

Lemma nth_error_ext {A} (l1 l2 : list A) :
  (forall i, nth_error l1 i = nth_error l2 i) -> l1 = l2.
Proof.
  revert l2; induction l1 as [|x l1 IH]; intros [|y l2] H.
  - reflexivity.
  - specialize (H 0%nat); discriminate.
  - specialize (H 0%nat); discriminate.
  - f_equal.
    + specialize (H 0%nat). now injection H.
    + apply IH. intros i. exact (H (S i)).
Qed.

Lemma nth_error_app {A} (l1 l2 : list A) i :
  nth_error (l1 ++ l2) i = if Nat.ltb i (length l1) then nth_error l1 i else nth_error l2 (i - length l1).
Proof.
  destruct (Nat.ltb_spec i (length l1)) as [H|H].
  - now apply nth_error_app1.
  - now apply nth_error_app2.
Qed.

Lemma Forall2_len {A B} (R : A -> B -> Prop) l l' : Forall2 R l l' -> length l = length l'.
Proof. induction 1; simpl; congruence. Qed.

Lemma Forall2_nth {A B} (R : A -> B -> Prop) l l' :
  Forall2 R l l' -> forall i x y, nth_error l i = Some x -> nth_error l' i = Some y -> R x y.
Proof.
  induction 1 as [|a b l l' Hab Hl IH]; intros [|i] x y Hx Hy; simpl in *; try discriminate.
  - congruence.
  - eauto.
Qed.

Lemma Forall2_intro_nth {A B} (R : A -> B -> Prop) l l' :
  length l = length l' ->
  (forall i x y, nth_error l i = Some x -> nth_error l' i = Some y -> R x y) -> Forall2 R l l'.
Proof.
  revert l'; induction l as [|a l IH]; intros [|b l'] Hl H; simpl in *; try discriminate; constructor.
  - apply (H 0%nat); reflexivity.
  - apply IH; [congruence|]. intros i x y Hx Hy. apply (H (S i)); assumption.
Qed.

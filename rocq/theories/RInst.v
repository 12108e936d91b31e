(** RInst.v - the scalar interface in exact real arithmetic (Coq's classical reals), and finite sums. *)
From Coq Require Import Reals Lra.
From Verif Require Import Base.
Local Open Scope R_scope.

Definition Rltb' (x y : R) : bool := if Rlt_dec x y then true else false.
Definition Rleb' (x y : R) : bool := if Rle_dec x y then true else false.
Definition Reqb' (x y : R) : bool := if Req_EM_T x y then true else false.

(** Real instance.  [dpow] is x^y = exp(y ln x), meaningful for x > 0; nothing proved below uses it on
    other arguments. *)
Definition Rdt : dtype := {|
  car := R; d0 := 0; d1 := 1; dadd := Rplus; dsub := Rminus; dmul := Rmult; ddiv := Rdiv;
  dneg := Ropp; dabs := Rabs; dexp := exp; dlog := ln; dsqrt := sqrt; dpow := Rpower;
  dltb := Rltb'; dleb := Rleb'; deqb := Reqb'; dofZ := IZR;
  dlit := fun m e => IZR m / IZR (10 ^ e);
  dtanh := tanh; datan := atan; dsin := sin; dcos := cos;
  dfmax := Rmax; dfmin := Rmin |}.

(** Finite sums: of a list, and of f 0 .. f (n-1). *)
Definition sumL (l : list R) : R := fold_right Rplus 0 l.
Definition sumZ (n : Z) (f : Z -> R) : R := sumL (map f (zrange n)).

Lemma sumL_app a b : sumL (a ++ b) = sumL a + sumL b.
Proof. induction a as [|x a IH]; simpl; lra. Qed.

Lemma fold_left_plus l a : fold_left Rplus l a = a + sumL l.
Proof. revert a. induction l as [|x l IH]; intros a; simpl; [lra|]. rewrite IH. lra. Qed.

Lemma fold_left_sum {A} (f : A -> R) l a : fold_left (fun acc x => acc + f x) l a = a + sumL (map f l).
Proof. revert a. induction l as [|x l IH]; intros a; simpl; [lra|]. rewrite IH. lra. Qed.

Lemma sumL_map_plus {A} (f g : A -> R) l : sumL (map (fun x => f x + g x) l) = sumL (map f l) + sumL (map g l).
Proof. induction l as [|x l IH]; simpl; lra. Qed.
Lemma sumL_map_scal {A} (c : R) (f : A -> R) l : sumL (map (fun x => c * f x) l) = c * sumL (map f l).
Proof. induction l as [|x l IH]; simpl; [lra|]. rewrite IH. lra. Qed.
Lemma sumL_map_0 {A} (l : list A) : sumL (map (fun _ => 0) l) = 0.
Proof. induction l as [|x l IH]; simpl; lra. Qed.
Lemma sumL_map_ext {A} (f g : A -> R) l : (forall x, In x l -> f x = g x) -> sumL (map f l) = sumL (map g l).
Proof.
  induction l as [|x l IH]; intros H; [reflexivity|]. simpl. rewrite (H x) by now left. rewrite IH; [reflexivity|].
  intros y Hy. apply H. now right.
Qed.
Lemma sumL_swap {A B} (f : A -> B -> R) la lb :
  sumL (map (fun a => sumL (map (f a) lb)) la) = sumL (map (fun b => sumL (map (fun a => f a b) la)) lb).
Proof.
  induction la as [|a la IH]; simpl.
  - now rewrite sumL_map_0.
  - rewrite IH, <- sumL_map_plus. reflexivity.
Qed.

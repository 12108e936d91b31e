(** ExNet.v - a concrete network over the computable scalars, used to show that hypotheses can be met. *)
From Verif Require Import Base Mat Act Layer Conv Misc Net NetP Trainer.
Local Open Scope Z_scope.

Definition zm (r c : nat) (l : list Z) : mat Zdt := Mat (D := Zdt) r c l.
Definition zl (W : mat Zdt) : layer Zdt := L (D := Zdt) 1 0 identity mempty mempty mempty mempty W mempty.
Definition exj : nat -> Zdt := fun _ => 0.
(** one input, a hidden layer of two units, one output *)
Definition exo : output Zdt := O (zl (zm 3 1 [1; 2; -3])) quad_cost quad_costd mempty.
Definition exn : net Zdt := N (D := Zdt) mempty quad_cost quad_costd (zl mempty) [0%nat] exo.
Definition exH : lheap Zdt := [HDense (zl (zm 2 2 [1; 2; 1; -1]))].
Definition exx : mat Zdt := zm 2 1 [1; 2].
Definition exy : mat Zdt := zm 2 1 [5; -3].

Definition is_ok {A} (r : res A) : bool := match r with Ok _ => true | _ => false end.
Lemma is_ok_ex {A} (r : res A) : is_ok r = true -> exists a, r = Ok a.
Proof. destruct r; intros H; try discriminate. eauto. Qed.

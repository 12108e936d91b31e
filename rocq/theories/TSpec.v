(** TSpec.v - specification vocabulary for tensors, independent of the model's loops.

    Only plain mathematics on lists (products, row-major position) plus what can be observed of a tensor
    through shape(i), chunk(i), size() and the live buffer. *)
From Verif Require Import Base Mem Tensor.
Local Open Scope Z_scope.

(** Product of a list of extents. *)
Definition prodZ (l : list Z) : Z := fold_right Z.mul 1 l.

(** A list of C++ ints. *)
Definition ints (l : list Z) : Prop := Forall (fun x => INT_MIN <= x <= INT_MAX) l.

(** Signs: non-empty, first extent >= 0, the others > 0. *)
Definition signs_ok (l : list Z) : Prop :=
  match l with [] => False | x :: r => 0 <= x /\ Forall (fun y => 0 < y) r end.

(** Every suffix product fits an int. *)
Definition fits (l : list Z) : Prop := forall i, (i < length l)%nat -> prodZ (skipn i l) <= INT_MAX.

Definition valid_dims (l : list Z) : Prop := signs_ok l /\ fits l.

(** Number of elements of a tensor with these extents: the product, but 1 if the first extent is 0. *)
Definition numel (l : list Z) : Z := match l with 0 :: _ => 1 | _ => prodZ l end.

(** What chunk(i) must be. *)
Definition chunk_spec (l : list Z) (i : nat) : Z :=
  match i with O => numel l | S _ => prodZ (skipn i l) end.

(** [s] is the shape with extents [dims]. *)
Definition is_shape (s : tshape) (dims : list Z) : Prop :=
  valid_dims dims /\ sh s = dims /\ ck s = map (chunk_spec dims) (seq 0 (length dims)).

(** Multi-indices and their row-major position. *)
Definition in_dims (dims idx : list Z) : Prop := Forall2 (fun i d => 0 <= i < d) idx dims.
Fixpoint flat (dims idx : list Z) : Z :=
  match dims, idx with
  | d :: ds, i :: is => i * prodZ ds + flat ds is
  | _, _ => 0
  end.

Section Holds.
Context {D : Type}.
Notation heap := (heap D).

(** Tensor [t] has extents [dims] and owns a live, fully initialised buffer with elements [xs]
    (row-major), allocated in manner [k]. *)
Definition holds_k (k : akind) (h : heap) (t : tensor) (dims : list Z) (xs : list D) : Prop :=
  is_shape (t_sh t) dims /\
  Z.of_nat (length xs) = numel dims /\
  exists b, t_data t = Some b /\ blk h b = Some (Blk k (map Some xs)).

Definition holds (h : heap) (t : tensor) (dims : list Z) (xs : list D) : Prop :=
  exists k, holds_k k h t dims xs.

(** [t] has no buffer (default constructed, or moved from). *)
Definition empty_tensor (t : tensor) (dims : list Z) : Prop := is_shape (t_sh t) dims /\ t_data t = None.

(** Every live block of [h] is live with the same contents in [h']. *)
Definition preserved (h h' : heap) : Prop := forall b k, blk h b = Some k -> blk h' b = Some k.

(** [t]'s buffer is not a block of [h] (never allocated there). *)
Definition fresh_in (h : heap) (t : tensor) : Prop := exists b, t_data t = Some b /\ (length h <= b)%nat.

(** Element at a flat position. *)
Definition at_ (xs : list D) (i : Z) : option D := nth_error xs (Z.to_nat i).

(** Number of live blocks. *)
Definition live (h : heap) : nat := length (filter (fun o => match o with Some _ => true | None => false end) h).

(** [out] is a new tensor with extents [dims] and elements [ys] in a new array buffer, and the step from
    [h] to [h'] did nothing else: all old blocks are kept and exactly one live block was added. *)
Definition made (h : heap) (out : tensor) (h' : heap) (dims : list Z) (ys : list D) : Prop :=
  holds_k AArray h' out dims ys /\ fresh_in h out /\ preserved h h' /\ live h' = S (live h).

End Holds.

(** Element of [t] at a multi-index, as read through data(i). *)
Definition elem {D : dtype} (h : heap D) (t : tensor) (idx : list Z) (v : D) : Prop :=
  in_dims (sh (t_sh t)) idx /\ t_get t (flat (sh (t_sh t)) idx) h = Ok v.

(** Two tensors own different buffers. *)
Definition distinct_buf (t1 t2 : tensor) : Prop := t_data t1 <> t_data t2.

(** Elementwise combination of two lists. *)
Fixpoint zipw {A B C} (f : A -> B -> C) (l1 : list A) (l2 : list B) : list C :=
  match l1, l2 with a :: r1, b :: r2 => f a b :: zipw f r1 r2 | _, _ => [] end.

(** Tensor.v - model of src/tensor/tensor_shape.{h,cpp} and src/tensor/tensor.{h,cpp}. *)
From Verif Require Import Base Mem Par.
Local Open Scope Z_scope.

(** * TensorShape *)

(** tensor_shape.h:20 - members shape_, chunk_. *)
Record tshape := TSh { sh : list Z; ck : list Z }.

(** tensor_shape.h:11 - default constructor: both vectors empty. *)
Definition shape_default : tshape := TSh [] [].

(** tensor_shape.cpp:12-18 - the sign asserts. [i] is the loop index. *)
Fixpoint shape_asserts (i : nat) (l : list Z) : res unit :=
  match l with
  | [] => Ok tt
  | x :: r =>
      _ <- (match i with O => cassert (0 <=? x) | S _ => cassert (0 <? x) end) ;;
      shape_asserts (S i) r
  end.

(** tensor_shape.cpp:19-25 - chunk_[last] = shape[last]; then right to left
    chunk_[i] = shape[i] * chunk_[i+1] (int multiplication) with assert(chunk_[i] >= 0).
    The right-to-left loop is structural recursion. *)
Fixpoint chunk_loop (l : list Z) : res (list Z) :=
  match l with
  | [] => Ok []
  | x :: r =>
      match r with
      | [] => Ok [x]
      | _ :: _ =>
          cs <- chunk_loop r ;;
          c <- imul x (hd 0 cs) ;;
          _ <- cassert (0 <=? c) ;;
          Ok (c :: cs)
      end
  end.

(** tensor_shape.cpp:9-27.  Simplification: the conversion of shape.size() to int (line 10) is exact,
    i.e. vectors with more than INT_MAX entries are not modelled. *)
Definition mk_shape (l : list Z) : res tshape :=
  _ <- cassert (0 <? Z.of_nat (length l)) ;;      (* :11 *)
  _ <- shape_asserts 0 l ;;                       (* :12-18 *)
  cs <- chunk_loop l ;;                           (* :19-25 *)
  Ok (TSh l (match cs with c :: r => (if c =? 0 then 1 else c) :: r | [] => [] end)).  (* :26 *)

(** tensor_shape.cpp:29-30 - the copy constructor re-runs the constructor on shape_. *)
Definition copy_shape (s : tshape) : res tshape := mk_shape (sh s).

(** tensor_shape.cpp:32-37 - assignment: copy, then overwrite both vectors of the destination. *)
Definition assign_shape (dst src : tshape) : res tshape :=
  t <- copy_shape src ;; Ok (TSh (sh t) (ck t)).

(** tensor_shape.h:15-17; vector::operator[] out of range is undefined behaviour. *)
Definition vec_at (l : list Z) (i : Z) : res Z :=
  if 0 <=? i then match nth_error l (Z.to_nat i) with Some x => Ok x | None => Undef OutOfBounds end
  else Undef OutOfBounds.
Definition shape_at (s : tshape) (i : Z) : res Z := vec_at (sh s) i.
Definition chunk_at (s : tshape) (i : Z) : res Z := vec_at (ck s) i.
Definition rank (s : tshape) : Z := Z.of_nat (length (sh s)).

(** * Tensor *)

(** tensor.h:47-49 - members shape_, data_. *)
Record tensor := Tn { t_sh : tshape; t_data : ptr }.

Section Tensor.
Context {D : dtype}.
Notation heap := (heap D).

(** tensor.h:37 shape() returns TensorShape by value.  Simplification used in the operators: the copy is
    not re-validated; [copy_shape_id] below shows it is the identity on every constructible shape. *)

(** tensor.cpp:14-15 *)
Definition t_default : res tensor :=
  s <- mk_shape [0] ;; Ok (Tn s None).

(** tensor.cpp:17-19 - note the scalar new-expression. *)
Definition t_scalar (v : D) (h : heap) : res (tensor * heap) :=
  s <- mk_shape [0] ;;
  let '(b, h') := alloc AScalar [Some v] h in Ok (Tn s (Some b), h').

(** [new DType[n]{0}]: all cells zero. *)
Definition zero_cells (n : Z) : list (option D) := repeat (Some d0) (Z.to_nat n).

(** tensor.cpp:29-33 *)
Definition t_new (s : tshape) (h : heap) : res (tensor * heap) :=
  s' <- copy_shape s ;;
  n <- chunk_at s' 0 ;;
  let '(b, h') := alloc AArray (zero_cells n) h in Ok (Tn s' (Some b), h').

(** tensor.cpp:26-27 *)
Definition t_new_dims (l : list Z) (h : heap) : res (tensor * heap) :=
  s <- mk_shape l ;; t_new s h.

(** The element copy loop of tensor.cpp:39 and :57. *)
Definition copy_loop (dst src : ptr) (n : Z) (h : heap) : res heap :=
  foldM (fun h i => v <- load h (src, i) ;; store h (dst, i) v) (zrange n) h.

(** tensor.cpp:35-40 *)
Definition t_copy (src : tensor) (h : heap) : res (tensor * heap) :=
  s <- copy_shape (t_sh src) ;;
  n <- chunk_at s 0 ;;
  let '(b, h1) := alloc AArray (zero_cells n) h in
  h2 <- copy_loop (Some b) (t_data src) n h1 ;;
  Ok (Tn s (Some b), h2).

(** tensor.cpp:47-60 - copy assignment of [src] to an object currently holding [dst]; returns the new
    value of the destination object. *)
Definition t_copy_assign (dst src : tensor) (h : heap) : res (tensor * heap) :=
  nd <- chunk_at (t_sh dst) 0 ;;
  '(p, h1) <-
    (match t_data dst with
     | Some b =>
         ns <- chunk_at (t_sh src) 0 ;;
         if nd <? ns then                                            (* :50 *)
           h1 <- free_array h b ;;                                   (* :51 *)
           let '(b', h2) := alloc AArray (repeat None (Z.to_nat ns)) h1 in Ok (Some b', h2)   (* :52 *)
         else Ok (Some b, h)
     | None =>
         let '(b', h1) := alloc AArray (zero_cells nd) h in Ok (Some b', h1)                  (* :55 *)
     end) ;;
  h2 <- copy_loop p (t_data src) nd h1 ;;                            (* :57, bound by the OLD shape *)
  s <- assign_shape (t_sh dst) (t_sh src) ;;                         (* :58 *)
  Ok (Tn s p, h2).

(** tensor.cpp:42-45 - the move constructor calls operator= on an lvalue, i.e. the copy assignment. *)
Definition t_move_ctor (src : tensor) (h : heap) : res (tensor * heap) :=
  s <- copy_shape (t_sh src) ;;
  t_copy_assign (Tn s None) src h.

(** tensor.cpp:21-24 *)
Definition t_destroy (t : tensor) (h : heap) : res heap :=
  match t_data t with None => Ok h | Some b => free_array h b end.

(** tensor.cpp:70-78 *)
Definition t_zeros (l : list Z) (h : heap) : res (tensor * heap) :=
  s <- mk_shape l ;; t_new s h.

(** [for i < n: output.data_[i] = g i] *)
Definition fill_loop (p : ptr) (g : Z -> D) (idx : Z -> Z) (n : Z) (h : heap) : res heap :=
  foldM (fun h i => store h (p, idx i) (g i)) (zrange n) h.

(** tensor.cpp:80-92 *)
Definition t_ones (l : list Z) (h : heap) : res (tensor * heap) :=
  s <- mk_shape l ;;
  '(t, h1) <- t_new s h ;;
  n <- chunk_at s 0 ;;
  h2 <- fill_loop (t_data t) (fun _ => d1) (fun i => i) n h1 ;;
  Ok (t, h2).

(** tensor.cpp:94-102.  [i * size + i] cannot overflow once {size,size} is a valid shape. *)
Definition t_eyes (n : Z) (h : heap) : res (tensor * heap) :=
  s <- mk_shape [n; n] ;;
  '(t, h1) <- t_new s h ;;
  h2 <- fill_loop (t_data t) (fun _ => d1) (fun i => i * n + i) n h1 ;;
  Ok (t, h2).

(** tensor.cpp:104-120 - the generator is an oracle [draw]: the i-th value drawn. *)
Definition t_gaussian (draw : Z -> D) (l : list Z) (h : heap) : res (tensor * heap) :=
  s <- mk_shape l ;;
  '(t, h1) <- t_new s h ;;
  n <- chunk_at (t_sh t) 0 ;;
  h2 <- fill_loop (t_data t) draw (fun i => i) n h1 ;;
  Ok (t, h2).

(** tensor.cpp:122-131 *)
Definition t_reshape (t : tensor) (l : list Z) : res tensor :=
  s <- mk_shape l ;;
  a <- chunk_at s 0 ;;
  b <- chunk_at (t_sh t) 0 ;;
  _ <- cassert (a =? b) ;;
  s' <- assign_shape (t_sh t) s ;;
  Ok (Tn s' (t_data t)).

(** tensor.h:40 data(i); tensor.h:41 operator[] as lvalue. *)
Definition t_get (t : tensor) (i : Z) (h : heap) : res D := load h (t_data t, i).
Definition t_set (t : tensor) (i : Z) (v : D) (h : heap) : res heap := store h (t_data t, i) v.

End Tensor.

(** TensorOps.v - model of src/tensor/ops/*.cpp.

    [s] is the OpenMP schedule of the parallel loop (Par.v).  "return output" is modelled as elided
    (C++11 NRVO); without elision the move constructor makes a deep copy and frees the original, with
    the same value.  Index expressions such as [j * cols + i] stay below chunk(0) <= INT_MAX for every
    executed access, so they are computed in Z. *)
From Verif Require Import Base Mem Par Tensor.
Local Open Scope Z_scope.

Section Ops.
Context {D : dtype}.
Notation heap := (heap D).

(** Loop bodies: [output[i] = f(a)] and [output[i] = f(a, b)]. *)
Definition f1 (f : D -> D) (vs : list D) : option D :=
  match vs with [a] => Some (f a) | _ => None end.
Definition f2 (f : D -> D -> D) (vs : list D) : option D :=
  match vs with [a; b] => Some (f a b) | _ => None end.

(** add.cpp:12-14 (same text in sub.cpp, mul.cpp; div.cpp:14-16). *)
Definition check_suffix (t1 t2 : tensor) (offset : Z) : res unit :=
  foldM (fun _ i => x <- shape_at (t_sh t2) i ;; y <- shape_at (t_sh t1) (i + offset) ;; cassert (x =? y))
        (zrange (rank (t_sh t2))) tt.

(** add.cpp:8-34, sub.cpp:8-34, mul.cpp:8-34, div.cpp:10-44 - one text, four operators.
    div.cpp's try/catch is inert: floating division does not throw. *)
Definition binop (f : D -> D -> D) (s : list nat) (t1 t2 : tensor) (h : heap) : res (tensor * heap) :=
  let offset := rank (t_sh t1) - rank (t_sh t2) in                      (* :10 *)
  _ <- cassert (0 <=? offset) ;;                                        (* :11 *)
  _ <- check_suffix t1 t2 offset ;;                                     (* :12-14 *)
  '(out, h1) <- t_new (t_sh t1) h ;;                                    (* :16 *)
  if offset =? 0 then
    chunk <- chunk_at (t_sh t1) 0 ;;                                    (* :18 *)
    h2 <- par_for s (map (fun i => Iter [(t_data t1, i); (t_data t2, i)] (f2 f) (t_data out, i))
                         (zrange chunk)) h1 ;;                          (* :20-23 *)
    Ok (out, h2)
  else
    chunk <- chunk_at (t_sh t1) (offset - 1) ;;                         (* :25 *)
    md <- chunk_at (t_sh t1) offset ;;                                  (* :26 *)
    h2 <- par_for s (map (fun i => Iter [(t_data t1, i); (t_data t2, Z.rem i md)] (f2 f) (t_data out, i))
                         (zrange chunk)) h1 ;;                          (* :28-31 *)
    Ok (out, h2).

(** add.cpp:9,49-51 etc. *)
Definition op_add := binop dadd.
Definition op_sub := binop dsub.
Definition op_mul := binop dmul.
Definition op_div := binop ddiv.

(** The element-wise loop over one tensor: add.cpp:36-46, sub.cpp:36-46, mul.cpp:36-46, div.cpp:46-56,
    power.cpp:27-37 (with the scalar captured in [f]); negate.cpp:7-17, exp.cpp:8-18, log.cpp:8-18,
    sqrt.cpp:8-18. *)
Definition unop (f : D -> D) (s : list nat) (t : tensor) (h : heap) : res (tensor * heap) :=
  '(out, h1) <- t_new (t_sh t) h ;;
  chunk <- chunk_at (t_sh t) 0 ;;
  h2 <- par_for s (map (fun i => Iter [(t_data t, i)] (f1 f) (t_data out, i)) (zrange chunk)) h1 ;;
  Ok (out, h2).

Definition op_addv (v : D) := unop (fun x => dadd x v).   (** add.cpp:43 *)
Definition op_subv (v : D) := unop (fun x => dsub x v).   (** sub.cpp:43 *)
Definition op_mulv (v : D) := unop (fun x => dmul x v).   (** mul.cpp:43 *)
Definition op_divv (v : D) := unop (fun x => ddiv x v).   (** div.cpp:53 *)
Definition op_powv (v : D) := unop (fun x => dpow x v).   (** power.cpp:34 *)
Definition op_neg := unop dneg.                           (** negate.cpp:14 *)
Definition op_exp := unop dexp.                           (** exp.cpp:15 *)
Definition op_log := unop dlog.                           (** log.cpp:15 *)
Definition op_sqrt := unop dsqrt.                         (** sqrt.cpp:15 *)

(** power.cpp:9-25 *)
Definition op_pow (s : list nat) (t1 t2 : tensor) (h : heap) : res (tensor * heap) :=
  _ <- cassert (rank (t_sh t1) =? rank (t_sh t2)) ;;                                       (* :11 *)
  _ <- foldM (fun _ i => x <- shape_at (t_sh t1) i ;; y <- shape_at (t_sh t2) i ;; cassert (x =? y))
             (zrange (rank (t_sh t1))) tt ;;                                               (* :12-15 *)
  '(out, h1) <- t_new (t_sh t1) h ;;
  chunk <- chunk_at (t_sh t1) 0 ;;
  h2 <- par_for s (map (fun i => Iter [(t_data t1, i); (t_data t2, i)] (f2 dpow) (t_data out, i))
                       (zrange chunk)) h1 ;;
  Ok (out, h2).

(** [if (cond) output[i] = 1;] *)
Definition mask1 (p : D -> bool) (vs : list D) : option D :=
  match vs with [a] => if p a then Some d1 else None | _ => None end.
Definition mask2 (p : D -> D -> bool) (vs : list D) : option D :=
  match vs with [a; b] => if p a b then Some d1 else None | _ => None end.

(** equal.cpp:9-27 and :43-63 after the eps assert.  Line 14 (and 50) compares t1 with itself. *)
Definition eqop (p : D -> D -> bool) (s : list nat) (t1 t2 : tensor) (h : heap) : res (tensor * heap) :=
  _ <- cassert (rank (t_sh t1) =? rank (t_sh t2)) ;;                                       (* :11 *)
  _ <- foldM (fun _ i => x <- shape_at (t_sh t1) i ;; y <- shape_at (t_sh t1) i ;; cassert (x =? y))
             (zrange (rank (t_sh t1))) tt ;;                                               (* :13-15 *)
  '(out, h1) <- t_new (t_sh t1) h ;;
  chunk <- chunk_at (t_sh t1) 0 ;;
  h2 <- par_for s (map (fun i => Iter [(t_data t1, i); (t_data t2, i)] (mask2 p) (t_data out, i))
                       (zrange chunk)) h1 ;;
  Ok (out, h2).

Definition op_eq := eqop deqb.                                                  (** equal.cpp:22 *)
Definition op_equal (eps : D) (s : list nat) (t1 t2 : tensor) (h : heap) :=     (** equal.cpp:46,58 *)
  _ <- cassert (dleb d0 eps) ;; eqop (fun x y => dltb (dabs (dsub x y)) eps) s t1 t2 h.

(** equal.cpp:29-41 and :65-78. *)
Definition eqopv (p : D -> bool) (s : list nat) (t : tensor) (h : heap) : res (tensor * heap) :=
  '(out, h1) <- t_new (t_sh t) h ;;
  chunk <- chunk_at (t_sh t) 0 ;;
  h2 <- par_for s (map (fun i => Iter [(t_data t, i)] (mask1 p) (t_data out, i)) (zrange chunk)) h1 ;;
  Ok (out, h2).
Definition op_eqv (v : D) := eqopv (fun x => deqb x v).
Definition op_equalv (v eps : D) (s : list nat) (t : tensor) (h : heap) :=
  _ <- cassert (dleb d0 eps) ;; eqopv (fun x => dltb (dabs (dsub x v)) eps) s t h.

(** The running extreme of argmax.cpp:19-25,34-40 / argmin.cpp:19-25,34-40. *)
Definition scan (better : D -> D -> bool) (vs : list D) : option D :=
  match vs with
  | [] => None
  | a :: r => Some (fold_left (fun m v => if better v m then v else m) r a)
  end.

(** argmax.cpp:8-45, argmin.cpp:8-45 with [better v m] = [v > m] resp. [v < m]. *)
Definition argop (better : D -> D -> bool) (s : list nat) (t : tensor) (axis : Z) (h : heap)
  : res (tensor * heap) :=
  _ <- cassert (rank (t_sh t) =? 2) ;;
  rows <- shape_at (t_sh t) 0 ;;
  cols <- shape_at (t_sh t) 1 ;;
  if axis =? 0 then
    so <- mk_shape [cols] ;;
    '(out, h1) <- t_new so h ;;
    h2 <- par_for s (map (fun i =>
            Iter ((t_data t, i) :: map (fun j => (t_data t, (j + 1) * cols + i)) (zrange (rows - 1)))
                 (scan better) (t_data out, i)) (zrange cols)) h1 ;;
    Ok (out, h2)
  else
    so <- mk_shape [rows] ;;
    '(out, h1) <- t_new so h ;;
    h2 <- par_for s (map (fun i =>
            Iter ((t_data t, i * cols) :: map (fun j => (t_data t, i * cols + (j + 1))) (zrange (cols - 1)))
                 (scan better) (t_data out, i)) (zrange rows)) h1 ;;
    Ok (out, h2).
Definition op_argmax := argop (fun v m => dltb m v).     (** argmax.cpp:22,37: val > maxval *)
Definition op_argmin := argop (fun v m => dltb v m).     (** argmin.cpp:22,37: val < minval *)

(** Accumulation [sum = 0; sum += x ...]. *)
Definition accum (vs : list D) : D := fold_left dadd vs d0.

(** reduce_sum.cpp:8-16 (sequential). *)
Definition reduce_sum_all (t : tensor) (h : heap) : res D :=
  chunk <- chunk_at (t_sh t) 0 ;;
  foldM (fun sum i => v <- load h (t_data t, i) ;; Ok (dadd sum v)) (zrange chunk) d0.

(** reduce_mean.cpp:8-16 *)
Definition reduce_mean_all (t : tensor) (h : heap) : res D :=
  chunk <- chunk_at (t_sh t) 0 ;;
  sum <- foldM (fun sum i => v <- load h (t_data t, i) ;; Ok (dadd sum v)) (zrange chunk) d0 ;;
  Ok (ddiv sum (dofZ chunk)).

(** reduce_sum.cpp:18-49, reduce_mean.cpp:18-49; [fin sum n] is [sum] resp. [sum / n]. *)
Definition redop (fin : D -> Z -> D) (s : list nat) (t : tensor) (axis : Z) (h : heap)
  : res (tensor * heap) :=
  _ <- cassert (rank (t_sh t) =? 2) ;;
  rows <- shape_at (t_sh t) 0 ;;
  cols <- shape_at (t_sh t) 1 ;;
  if axis =? 0 then
    so <- mk_shape [cols] ;;
    '(out, h1) <- t_new so h ;;
    h2 <- par_for s (map (fun i =>
            Iter (map (fun j => (t_data t, j * cols + i)) (zrange rows))
                 (fun vs => Some (fin (accum vs) rows)) (t_data out, i)) (zrange cols)) h1 ;;
    Ok (out, h2)
  else
    so <- mk_shape [rows] ;;
    '(out, h1) <- t_new so h ;;
    h2 <- par_for s (map (fun i =>
            Iter (map (fun j => (t_data t, i * cols + j)) (zrange cols))
                 (fun vs => Some (fin (accum vs) cols)) (t_data out, i)) (zrange rows)) h1 ;;
    Ok (out, h2).
Definition op_reduce_sum := redop (fun sum _ => sum).
Definition op_reduce_mean := redop (fun sum n => ddiv sum (dofZ n)).

(** * matmul

    matmul.cpp:16-45 takes its output by reference, and the output may be the same object as an operand.
    Objects live in an environment; [None] = no object with that name.  The parallel region over j is
    entered once per row i (:34-35), so there is one schedule per row. *)
Definition env := list (option tensor).
Definition obj (e : env) (x : nat) : res tensor :=
  match nth_error e x with Some (Some t) => Ok t | _ => Undef UseAfterFree end.

(** tensor.cpp:62-68 on objects: data_ = src.data_; src.data_ = nullptr; shape_ = src.shape_. *)
Definition move_assign (e : env) (d s : nat) : res env :=
  ts <- obj e s ;; td <- obj e d ;;
  let e1 := upd d (Some (Tn (t_sh td) (t_data ts))) e in
  ts1 <- obj e1 s ;;
  let e2 := upd s (Some (Tn (t_sh ts1) None)) e1 in
  ts2 <- obj e2 s ;; td2 <- obj e2 d ;;
  sh' <- assign_shape (t_sh td2) (t_sh ts2) ;;
  Ok (upd d (Some (Tn sh' (t_data td2))) e2).

(** Move-assignment from a temporary; the temporary's destructor then sees a null pointer. *)
Definition move_assign_tmp (e : env) (d : nat) (tmp : tensor) : res env :=
  td <- obj e d ;;
  sh' <- assign_shape (t_sh td) (t_sh tmp) ;;
  Ok (upd d (Some (Tn sh' (t_data tmp))) e).

(** body of matmul.cpp:36-42: [sum = 0; for l: sum += a*b]. *)
Fixpoint dot (acc : D) (vs : list D) : D :=
  match vs with
  | a :: b :: r => dot (dadd acc (dmul a b)) r
  | _ => acc
  end.
Definition mm_iter (p1 p2 po : ptr) (k n i j : Z) : iter D :=
  Iter (flat_map (fun l => [(p1, i * k + l); (p2, l * n + j)]) (zrange k))
       (fun vs => Some (dot d0 vs)) (po, i * n + j).
Definition mm_rows (sch : Z -> list nat) (p1 p2 po : ptr) (m k n : Z) (h : heap) : res heap :=
  foldM (fun h i => par_for (sch i) (map (mm_iter p1 p2 po k n i) (zrange n)) h) (zrange m) h.

(** matmul.cpp:16-45; returns the environment after the call and the returned copy (:44, copy constructor
    because output is a reference). *)
Definition matmul (sch : Z -> list nat) (x1 x2 xo : nat) (e : env) (h : heap)
  : res (tensor * env * heap) :=
  t1 <- obj e x1 ;; t2 <- obj e x2 ;; to <- obj e xo ;;
  _ <- cassert ((rank (t_sh t1) =? 2) && (rank (t_sh t2) =? 2)) ;;             (* :19 *)
  a1 <- shape_at (t_sh t1) 1 ;; b0 <- shape_at (t_sh t2) 0 ;;
  _ <- cassert (a1 =? b0) ;;                                                    (* :20 *)
  a0 <- shape_at (t_sh t1) 0 ;; b1 <- shape_at (t_sh t2) 1 ;;
  _ <- cassert ((0 <? a0) && (0 <? b0) && (0 <? a1) && (0 <? b1)) ;;            (* :21-24 *)
  let m := a0 in let k := a1 in let n := b1 in                                  (* :26-28 *)
  need <- (match t_data to with
           | None => Ok true
           | Some _ => co <- chunk_at (t_sh to) 0 ;; mn <- imul m n ;; Ok (co <? mn)
           end) ;;                                                              (* :30 *)
  '(e1, h1) <- (if need : bool then
                  so <- mk_shape [m; n] ;;
                  '(tmp, h1) <- t_new so h ;;
                  e1 <- move_assign_tmp e xo tmp ;; Ok (e1, h1)                 (* :31 *)
                else Ok (e, h)) ;;
  t1' <- obj e1 x1 ;; t2' <- obj e1 x2 ;; to' <- obj e1 xo ;;
  h2 <- mm_rows sch (t_data t1') (t_data t2') (t_data to') m k n h1 ;;          (* :34-43 *)
  '(r, h3) <- t_copy to' h2 ;;                                                  (* :44 *)
  Ok (r, e1, h3).

(** matmul.cpp:9-14: a local default tensor is the output; matmul's returned temporary is destroyed. *)
Definition op_matmul (sch : Z -> list nat) (t1 t2 : tensor) (h : heap) : res (tensor * heap) :=
  out <- t_default ;;
  '(r, e, h1) <- matmul sch 0 1 2 [Some t1; Some t2; Some out] h ;;
  h2 <- t_destroy r h1 ;;
  o <- obj e 2 ;;
  Ok (o, h2).

End Ops.

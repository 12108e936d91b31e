(** Hist.v - programs over tensor variables: the client language in which C18 and C21 quantify over
    histories.  A state is the variables (environment) and the heap; a variable that was destroyed is
    [None].  Declarations append a variable. *)
From Verif Require Import Base Mem Par Tensor TensorOps TSpec.
Local Open Scope Z_scope.

Section Hist.
Context {D : dtype}.
Notation heap := (heap D).

(** tensor.h:61-119 / ops/*.h: the operators a client can write. *)
Inductive bop := BAdd | BSub | BMul | BDiv | BPow | BEq | BEqual (eps : D).
Inductive uop := UNeg | UExp | ULog | USqrt | UAddv (v : D) | USubv (v : D) | UMulv (v : D) | UDivv (v : D)
               | UPowv (v : D) | UEqv (v : D) | UEqualv (v eps : D).
Inductive rop := RSum | RMean | RMax | RMin.

Definition do_bop (b : bop) : list nat -> tensor -> tensor -> heap -> res (tensor * heap) :=
  match b with
  | BAdd => op_add | BSub => op_sub | BMul => op_mul | BDiv => op_div | BPow => op_pow
  | BEq => op_eq | BEqual eps => op_equal eps
  end.
Definition do_uop (u : uop) : list nat -> tensor -> heap -> res (tensor * heap) :=
  match u with
  | UNeg => op_neg | UExp => op_exp | ULog => op_log | USqrt => op_sqrt
  | UAddv v => op_addv v | USubv v => op_subv v | UMulv v => op_mulv v | UDivv v => op_divv v
  | UPowv v => op_powv v | UEqv v => op_eqv v | UEqualv v eps => op_equalv v eps
  end.
Definition do_rop (r : rop) : list nat -> tensor -> Z -> heap -> res (tensor * heap) :=
  match r with RSum => op_reduce_sum | RMean => op_reduce_mean | RMax => op_argmax | RMin => op_argmin end.

(** Expressions yielding a new tensor; [s]/[sch] are OpenMP schedules. *)
Inductive expr :=
| ENew (dims : list Z) | EOnes (dims : list Z) | EEyes (n : Z) | EGauss (draw : Z -> D) (dims : list Z)
| ECopy (x : nat)
| EBin (b : bop) (s : list nat) (x y : nat)
| EUn (u : uop) (s : list nat) (x : nat)
| ERed (r : rop) (s : list nat) (x : nat) (axis : Z)
| EMat (sch : Z -> list nat) (x y : nat).

Definition eval (ex : expr) (e : env) (h : heap) : res (tensor * heap) :=
  match ex with
  | ENew dims => t_new_dims dims h
  | EOnes dims => t_ones dims h
  | EEyes n => t_eyes n h
  | EGauss draw dims => t_gaussian draw dims h
  | ECopy x => t <- obj e x ;; t_copy t h
  | EBin b s x y => t1 <- obj e x ;; t2 <- obj e y ;; do_bop b s t1 t2 h
  | EUn u s x => t <- obj e x ;; do_uop u s t h
  | ERed r s x axis => t <- obj e x ;; do_rop r s t axis h
  | EMat sch x y => t1 <- obj e x ;; t2 <- obj e y ;; op_matmul sch t1 t2 h
  end.

Inductive stmt :=
| SDecl (ex : expr)                       (** Tensor z = ex; *)
| SDefault                                (** Tensor z; *)
| SGet (x : nat) (i : Z)                  (** x.data(i) *)
| SSet (x : nat) (i : Z) (v : D)          (** x.data(i) = v *)
| SReshape (x : nat) (dims : list Z)
| SAssign (x y : nat)                     (** x = y; *)
| SAssignE (x : nat) (ex : expr)          (** x = ex; the temporary is moved from *)
| SMove (x y : nat)                       (** x = std::move(y); *)
| SMatInto (sch : Z -> list nat) (x y z : nat)   (** matmul(x, y, z); the returned copy is discarded *)
| SDestroy (x : nat).                     (** end of x's lifetime *)

Definition state := (env * heap)%type.

Definition exec (st : stmt) (s : state) : res state :=
  let '(e, h) := s in
  match st with
  | SDecl ex => '(t, h') <- eval ex e h ;; Ok (e ++ [Some t], h')
  | SDefault => t <- t_default ;; Ok (e ++ [Some t], h)
  | SGet x i => t <- obj e x ;; _ <- t_get t i h ;; Ok (e, h)
  | SSet x i v => t <- obj e x ;; h' <- t_set t i v h ;; Ok (e, h')
  | SReshape x dims => t <- obj e x ;; t' <- t_reshape t dims ;; Ok (upd x (Some t') e, h)
  | SAssign x y => tx <- obj e x ;; ty <- obj e y ;; '(t', h') <- t_copy_assign tx ty h ;; Ok (upd x (Some t') e, h')
  | SAssignE x ex => '(t, h') <- eval ex e h ;; e' <- move_assign_tmp e x t ;; Ok (e', h')
  | SMove x y => e' <- move_assign e x y ;; Ok (e', h)
  | SMatInto sch x y z => '(r, e', h') <- matmul sch x y z e h ;; h'' <- t_destroy r h' ;; Ok (e', h'')
  | SDestroy x => t <- obj e x ;; h' <- t_destroy t h ;; Ok (upd x None e, h')
  end.

Definition run (p : list stmt) (s : state) : res state := foldM (fun s st => exec st s) p s.

(** ** Specification side *)

(** [x] is a live variable with extents [dims] owning a buffer. *)
Definition var (e : env) (x : nat) (dims : list Z) : Prop :=
  exists t b, nth_error e x = Some (Some t) /\ sh (t_sh t) = dims /\ t_data t = Some b.
Definition alive (e : env) (x : nat) : Prop := exists t, nth_error e x = Some (Some t).

(** Calls whose documented requirements are met.  The conditions on BAdd..BDiv, BEq, RMax/RMin exclude
    exactly the undefined cases found in C08, C11 and C15. *)
Definition wt_expr (ex : expr) (e : env) : Prop :=
  match ex with
  | ENew dims | EOnes dims | EGauss _ dims => ints dims
  | EEyes n => INT_MIN <= n <= INT_MAX
  | ECopy x => exists d, var e x d
  | EBin b s x y => exists d1 d2, var e x d1 /\ var e y d2 /\
      match b with
      | BAdd | BSub | BMul | BDiv => hd 0 d1 <> 0 \/ (length d1 <= length d2 + 1)%nat
      | BPow => True
      | BEq | BEqual _ => numel d1 <= numel d2
      end
  | EUn u s x => exists d, var e x d
  | ERed r s x axis => exists d, var e x d /\
      match r with RSum | RMean => True | RMax | RMin => axis = 0 -> hd 0 d <> 0 end
  | EMat sch x y => exists d1 d2, var e x d1 /\ var e y d2
  end.

Definition wt (st : stmt) (e : env) : Prop :=
  match st with
  | SDecl ex => wt_expr ex e
  | SDefault => True
  | SGet x i | SSet x i _ => exists d, var e x d /\ 0 <= i < numel d
  | SReshape x dims => alive e x /\ ints dims
  | SAssign x y => exists d1 d2, var e x d1 /\ var e y d2 /\ numel d1 = numel d2
  | SAssignE x ex => alive e x /\ wt_expr ex e
  | SMove x y => alive e x /\ alive e y /\ x <> y
  | SMatInto sch x y z => (exists d1 d2, var e x d1 /\ var e y d2) /\ alive e z /\ z <> x /\ z <> y
  | SDestroy x => alive e x
  end.

(** Every statement of the program meets its requirements when it is reached. *)
Fixpoint wt_run (p : list stmt) (s : state) : Prop :=
  match p with
  | [] => True
  | st :: r => wt st (fst s) /\ forall s', exec st s = Ok s' -> wt_run r s'
  end.

(** Statements that may leak (C21, C06, C13). *)
Definition leaky (st : stmt) : bool :=
  match st with SAssignE _ _ | SMove _ _ | SMatInto _ _ _ _ => true | _ => false end.

(** Variables that own a buffer. *)
Definition owners (e : env) : nat :=
  length (filter (fun o => match o with Some t => match t_data t with Some _ => true | None => false end | None => false end) e).

(** The memory discipline with leaked blocks [L]: live variables have good shapes and initialised array
    buffers (or none), no two share a buffer, and the live blocks are exactly the owned ones and [L]. *)
Record inv (L : list nat) (e : env) (h : heap) : Prop := {
  inv_var : forall x t, nth_error e x = Some (Some t) ->
     (exists dims xs, holds_k AArray h t dims xs) \/ (exists dims, empty_tensor t dims);
  inv_sep : forall x y t u b, nth_error e x = Some (Some t) -> nth_error e y = Some (Some u) ->
     t_data t = Some b -> t_data u = Some b -> x = y;
  inv_live : forall b k, blk h b = Some k ->
     In b L \/ exists x t, nth_error e x = Some (Some t) /\ t_data t = Some b;
  inv_leak : forall b, In b L -> blk h b <> None /\
     forall x t, nth_error e x = Some (Some t) -> t_data t <> Some b;
  inv_nodup : NoDup L
}.

End Hist.

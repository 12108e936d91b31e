(** Session.v - a program with several NeuralNet objects and several trainers of all four classes alive at once.
    A trainer holds a raw pointer to its network (trainer.h:24): null when default-constructed, dangling when the
    network has been destroyed.  An exception ends the program (a caller that catches it is not modelled). *)
From Verif Require Import Base Mat Act Layer Conv Misc Net Trainer World.
From Coq Require Import Arith.
Local Open Scope Z_scope.

Section Session.
Context {D : dtype}.
Notation mat := (mat D).
Notation net := (net D).
Notation lheap := (lheap D).
Context (draw : D -> nat -> D) (junk : nat -> D).

(** The four classes; a default-constructed BatchTrainer has no batch size (batchtrainer.cpp:5 leaves the member
    batchsize uninitialised): [None]. *)
Inductive tkind :=
| KPlain (t : trainer D) | KSgd (t : trainer D)
| KBatch (t : trainer D) (x y : mat) (b : option Z)
| KMom (m : mtrainer D).
(** [to_net] is the member nnet (trainer.h:24). *)
Record tobj := TO { to_net : option nat; to_kind : tkind }.
Definition to_base (o : tobj) : trainer D :=
  match to_kind o with KPlain t | KSgd t | KBatch t _ _ _ => t | KMom m => mt_t m end.
(** [None] in one of the lists: that object has been destroyed. *)
Record session := SS { s_nets : list (option net); s_heap : lheap; s_trainers : list (option tobj) }.

(** Default constructors: trainer.cpp:5, sgdtrainer.cpp:5, batchtrainer.cpp:5, momentumtrainer.cpp:5 (momentum 0.6) *)
Inductive dspec := DPlain | DSgd | DBatch | DMom.
Definition new_default (d : dspec) : tobj :=
  TO None match d with
          | DPlain => KPlain trainer_new | DSgd => KSgd trainer_new
          | DBatch => KBatch trainer_new mempty mempty None
          | DMom => KMom (MT trainer_new (ddiv (dofZ 6) (dofZ 10)) mempty [])
          end.
(** Constructors with a network: trainer.cpp:7-11, sgdtrainer.cpp:7-10, batchtrainer.cpp:7-12,
    momentumtrainer.cpp:7-27 (the ones without a momentum argument pass 0).  [None]: without decay. *)
Inductive nspec :=
| NPlain (d : option (D * D * Z)) | NSgd (d : option (D * D * Z)) | NBatch (b : Z) (d : option (D * D * Z))
| NMom (mu : D) (d : option (D * D * Z)).
Definition base_of (d : option (D * D * Z)) : trainer D :=
  match d with None => trainer_new | Some (r0, k, step) => trainer_new_decay r0 k step end.
Definition new_bound (c : nspec) (n : net) (H : lheap) : res tkind :=
  match c with
  | NPlain d => Ok (KPlain (base_of d))
  | NSgd d => Ok (KSgd (base_of d))
  | NBatch b d => Ok (KBatch (base_of d) mempty mempty (Some b))
  | NMom mu d => m <- initmomentum (base_of d) mu n H ;; Ok (KMom m)
  end.

(** Dereferencing nnet. *)
Definition live_net (s : session) (k : nat) : res net :=
  match nth_error (s_nets s) k with Some (Some n) => Ok n | _ => Undef UseAfterFree end.
Definition deref (s : session) (p : option nat) : res (nat * net) :=
  match p with
  | None => Undef NullDeref
  | Some k => n <- live_net s k ;; Ok (k, n)
  end.
Definition live_trainer (s : session) (j : nat) : res tobj :=
  match nth_error (s_trainers s) j with Some (Some o) => Ok o | _ => Undef UseAfterFree end.

(** Reading an int that was never initialised. *)
Definition read_int (b : option Z) : res Z := match b with Some z => Ok z | None => Undef UninitRead end.

(** [if (usedecay && iters == step) nnet->...] dereferences *)
Definition fires (t : trainer D) : bool := t_usedecay t && (t_iters t =? t_step t).

(** feeddata(x, y, c) with nnet pointing to a live network, dispatched on the class: trainer.cpp:42-50,
    sgdtrainer.cpp:37-48, batchtrainer.cpp:52-62, momentumtrainer.cpp:80-88 *)
Definition feed_on (kd : tkind) (n : net) (H : lheap) (x y : mat) (c : bool) : res (D * tkind * net * lheap) :=
  match kd with
  | KPlain t => '(v, t', n', H') <- feeddata_cost junk t n H x y c ;; Ok (v, KPlain t', n', H')
  | KSgd t => '(v, t', n', H') <- sgd_feeddata_cost junk t n H x y c ;; Ok (v, KSgd t', n', H')
  | KBatch t bx by_ ob =>
      b <- read_int ob ;;
      '(v, t', n', H') <- batch_feeddata_cost junk (BT t bx by_ b) n H x y c ;;
      Ok (v, KBatch (bt_t t') (bt_x t') (bt_y t') (Some (bt_size t')), n', H')
  | KMom m => '(v, m', n', H') <- momentum_feeddata_cost junk m n H x y c ;; Ok (v, KMom m', n', H')
  end.
(** The same when dereferencing nnet is undefined.  SGDTrainer on data without rows and without a due decay never
    does (sgdtrainer.cpp:24-47); BatchTrainer first builds the padded data from batchsize (batchtrainer.cpp:32-35).
    For the others the first statement after the counter does. *)
Definition feed_blind (kd : tkind) (u : ub) (x y : mat) : res (D * tkind) :=
  match kd with
  | KPlain _ | KMom _ => Undef u
  | KSgd t => if fires (tick t) || (0 <? Z.of_nat (nr x)) then Undef u else Ok (dofZ 0, KSgd (tick t))
  | KBatch t _ _ ob =>
      b <- read_int ob ;; _ <- wrap_rows x b ;; _ <- wrap_rows y b ;;
      if fires t || (0 <? Z.of_nat (nr x)) then Undef u else Ok (dofZ 0, KBatch t x y (Some b))
  end.
Definition feed (s : session) (o : tobj) (x y : mat) (c : bool) : res (D * tkind * option (nat * net * lheap)) :=
  match deref s (to_net o) with
  | Ok (k, n) => '(v, kd, n', H') <- feed_on (to_kind o) n (s_heap s) x y c ;; Ok (v, kd, Some (k, n', H'))
  | Undef u => '(v, kd) <- feed_blind (to_kind o) u x y ;; Ok (v, kd, None)
  | Abort => Abort | Throw => Throw
  end.

(** Copy construction.  Trainer's copies the pointer (trainer.cpp:13-15); the derived ones dereference it first
    (sgdtrainer.cpp:12-13, batchtrainer.cpp:14-16, momentumtrainer.cpp:30-32).  [slice]: a Trainer constructed from
    an object of a derived class. *)
Definition copy_trainer (s : session) (slice : bool) (o : tobj) : res tobj :=
  if slice then Ok (TO (to_net o) (KPlain (trainer_copy (to_base o)))) else
  match to_kind o with
  | KPlain t => Ok (TO (to_net o) (KPlain (trainer_copy t)))
  | KSgd t => '(k, _) <- deref s (to_net o) ;; Ok (TO (Some k) (KSgd (sgd_copy t)))
  | KBatch t bx by_ ob =>
      '(k, _) <- deref s (to_net o) ;; b <- read_int ob ;;
      let c := batch_copy (BT t bx by_ b) in Ok (TO (Some k) (KBatch (bt_t c) (bt_x c) (bt_y c) (Some (bt_size c))))
  | KMom m => '(k, _) <- deref s (to_net o) ;; Ok (TO (Some k) (KMom (momentum_copy m)))
  end.
(** Assignment (trainer.cpp:17-25, sgdtrainer.cpp:15-18, batchtrainer.cpp:18-22, momentumtrainer.cpp:34-40); between
    objects of different classes only Trainer::operator= applies (through a Trainer&). *)
Definition assign_trainer (d o : tobj) : res tobj :=
  match to_kind d, to_kind o with
  | KBatch dt dx dy _, KBatch t bx by_ ob =>
      b <- read_int ob ;; let c := batch_assign (BT dt dx dy 0) (BT t bx by_ b) in
      Ok (TO (to_net o) (KBatch (bt_t c) (bt_x c) (bt_y c) (Some (bt_size c))))
  | KMom dm, KMom m => Ok (TO (to_net o) (KMom (momentum_assign dm m)))
  | KPlain dt, _ => Ok (TO (to_net o) (KPlain (trainer_assign dt (to_base o))))
  | KSgd dt, _ => Ok (TO (to_net o) (KSgd (trainer_assign dt (to_base o))))
  | KBatch dt dx dy db, _ => Ok (TO (to_net o) (KBatch (trainer_assign dt (to_base o)) dx dy db))
  | KMom dm, _ => Ok (TO (to_net o) (KMom (MT (trainer_assign (mt_t dm) (to_base o)) (mt_mom dm) (mt_ograd dm) (mt_hgrads dm))))
  end.

Inductive sop :=
| SDefault (d : dspec)                          (* a default-constructed trainer *)
| SNew (c : nspec) (k : nat)                    (* a trainer for network k *)
| SCopy (slice : bool) (j : nat)                (* a trainer copy-constructed from trainer j *)
| SAssign (d j : nat)                           (* trainer d = trainer j *)
| SFeed (j : nat) (x y : mat) (c : bool)        (* trainer j . feeddata(x, y, c) *)
| SDropTrainer (j : nat)                        (* end of trainer j's life: trainer.cpp:27-29 *)
| SBuild (i : layer D) (o : output D) (hs : list (hlayer D))  (* a network of new layers *)
| SCall (k : nat) (o : nop D)                   (* a method of network k *)
| SCopyNet (k : nat) | SAssignNet (d k : nat)   (* neuralnet.cpp:13-16, :23-31 *)
| SDropNet (k : nat).                           (* end of network k's life *)

Definition set_net (k : nat) (n : net) (H : lheap) (s : session) : session := SS (upd k (Some n) (s_nets s)) H (s_trainers s).
Definition add_trainer (o : tobj) (s : session) : session := SS (s_nets s) (s_heap s) (s_trainers s ++ [Some o]).
Definition set_trainer (j : nat) (o : option tobj) (s : session) : session := SS (s_nets s) (s_heap s) (upd j o (s_trainers s)).

Definition sstep (s : session) (op : sop) : res session :=
  match op with
  | SDefault d => Ok (add_trainer (new_default d) s)
  | SNew c k => n <- live_net s k ;; kd <- new_bound c n (s_heap s) ;; Ok (add_trainer (TO (Some k) kd) s)
  | SCopy sl j => o <- live_trainer s j ;; o' <- copy_trainer s sl o ;; Ok (add_trainer o' s)
  | SAssign d j => od <- live_trainer s d ;; o <- live_trainer s j ;; o' <- assign_trainer od o ;; Ok (set_trainer d (Some o') s)
  | SFeed j x y c =>
      o <- live_trainer s j ;;
      '(_, kd, w) <- feed s o x y c ;;
      let s1 := match w with Some (k, n', H') => set_net k n' H' s | None => s end in
      Ok (set_trainer j (Some (TO (to_net o) kd)) s1)
  | SDropTrainer j => _ <- live_trainer s j ;; Ok (set_trainer j None s)
  | SBuild i o hs =>
      n <- net_new draw junk i o (seq (length (s_heap s)) (length hs)) ;;
      Ok (SS (s_nets s ++ [Some n]) (s_heap s ++ hs) (s_trainers s))
  | SCall k o => n <- live_net s k ;; '(n', H') <- net_do draw junk o n (s_heap s) ;; Ok (set_net k n' H' s)
  | SCopyNet k => n <- live_net s k ;; n' <- net_copy draw junk n ;; Ok (SS (s_nets s ++ [Some n']) (s_heap s) (s_trainers s))
  | SAssignNet d k => nd <- live_net s d ;; n <- live_net s k ;; Ok (set_net d (net_assign nd n) (s_heap s) s)
  | SDropNet k => _ <- live_net s k ;; Ok (SS (upd k None (s_nets s)) (s_heap s) (s_trainers s))
  end.
Definition srun (ops : list sop) (s : session) : res session := foldM sstep ops s.
(** The value returned by a call of feeddata. *)
Definition feed_value (s : session) (j : nat) (x y : mat) (c : bool) : res D :=
  o <- live_trainer s j ;; '(v, _, _) <- feed s o x y c ;; Ok v.

End Session.
Arguments tkind : clear implicits.
Arguments tobj : clear implicits.
Arguments session : clear implicits.
Arguments sop : clear implicits.
Arguments nspec : clear implicits.

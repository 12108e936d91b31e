(** World.v - a program holding several NeuralNet objects.  The hidden layers live in a common store of layer
    objects (the targets of the shared_ptrs); each network owns its input and output layer.  Trainers hold a
    pointer to a network, so calling a trainer changes that network. *)
From Verif Require Import Base Mat Act Layer Conv Misc Net Trainer.
From Coq Require Import Arith.
Local Open Scope nat_scope.

Section World.
Context {D : dtype}.
Notation mat := (mat D).
Notation net := (net D).
Notation lheap := (lheap D).
Context (draw : D -> nat -> D) (junk : nat -> D).

(** Calls on one network: the methods of neuralnet.h:28-44 that change state, and feeddata of a trainer (in any
    state) that points to it. *)
Inductive nop :=
| OForward (x : mat) | OBackprop (y : mat) | OUpdate | OUpdateWith (og : mat) (hg : list mat) | OPredict (x : mat)
| OSetLrate (r : D) | ORandomize (i : nat) (s : D) | OSetHiddenW (i : nat) (w : mat) | OSetOutputW (w : mat)
| OTrain (t : trainer D) (x y : mat) (c : bool) | OSgd (t : trainer D) (x y : mat) (c : bool)
| OBatch (t : btrainer D) (x y : mat) (c : bool) | OMomentum (t : mtrainer D) (x y : mat) (c : bool).

Definition net_do (o : nop) (n : net) (H : lheap) : res (net * lheap) :=
  match o with
  | OForward x => '(_, n', H') <- net_forward junk n H x ;; Ok (n', H')
  | OBackprop y => net_backprop junk n H y
  | OUpdate => net_update n H
  | OUpdateWith og hg => net_update_with n H og hg
  | OPredict x => '(_, n', H') <- net_predict junk n H x ;; Ok (n', H')
  | OSetLrate r => net_setlrate n H r
  | ORandomize i s => net_randomize draw n H i s
  | OSetHiddenW i w => H' <- net_sethiddenw n H i w ;; Ok (n, H')
  | OSetOutputW w => Ok (net_setoutputw n w, H)
  | OTrain t x y c => '(_, _, n', H') <- feeddata_cost junk t n H x y c ;; Ok (n', H')
  | OSgd t x y c => '(_, _, n', H') <- sgd_feeddata_cost junk t n H x y c ;; Ok (n', H')
  | OBatch t x y c => '(_, _, n', H') <- batch_feeddata_cost junk t n H x y c ;; Ok (n', H')
  | OMomentum t x y c => '(_, _, n', H') <- momentum_feeddata_cost junk t n H x y c ;; Ok (n', H')
  end.

(** The program's networks and layer objects. *)
Record world := W { w_nets : list net; w_heap : lheap }.
(** A call on network k; copy construction of a new network from k (neuralnet.cpp:13-16); assignment (:23-31). *)
Inductive wop := WDo (k : nat) (o : nop) | WCopy (k : nat) | WAssign (dst src : nat).

Definition the_net (w : world) (k : nat) : res net := match nth_error (w_nets w) k with Some n => Ok n | None => Undef NullDeref end.
Definition wstep (w : world) (o : wop) : res world :=
  match o with
  | WDo k o => n <- the_net w k ;; '(n', H') <- net_do o n (w_heap w) ;; Ok (W (upd k n' (w_nets w)) H')
  | WCopy k => n <- the_net w k ;; n' <- net_copy draw junk n ;; Ok (W (w_nets w ++ [n']) (w_heap w))
  | WAssign d s => nd <- the_net w d ;; ns <- the_net w s ;; Ok (W (upd d (net_assign nd ns) (w_nets w)) (w_heap w))
  end.
Definition wrun (ops : list wop) (w : world) : res world := foldM wstep ops w.

End World.
Arguments nop : clear implicits.
Arguments wop : clear implicits.
Arguments world : clear implicits.

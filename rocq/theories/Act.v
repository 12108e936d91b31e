(** Act.v - model of /repo/src/act.h and /repo/src/act.cpp, over any scalar type. *)
From Verif Require Import Base.
Local Open Scope Z_scope.

(** act.h:8-11 *)
Record actfunc (D : dtype) := AF { act : D -> D; actd : D -> D }.
Arguments AF {D}. Arguments act {D}. Arguments actd {D}.

Section Act.
Context {D : dtype}.
Implicit Types z : D.

(** Integer literals in floating expressions ([1 + exp(-z)], [fmax(-1, ...)]) convert to double. *)
Definition lit (n : Z) : D := dofZ n.

(** act.cpp:5-10 *)
Definition f_identity z : D := z.
Definition f_identitygrad (_ : D) : D := lit 1.

(** act.cpp:12-18 *)
Definition f_sigmoid z : D := ddiv (lit 1) (dadd (lit 1) (dexp (dneg z))).
Definition f_sigmoidgrad z : D :=
  let expo := dexp (dneg z) in
  ddiv (ddiv expo (dadd (lit 1) expo)) (dadd (lit 1) expo).

(** act.cpp:20-25 *)
Definition f_arctan z : D := datan z.
Definition f_arctangrad z : D := ddiv (lit 1) (dadd (lit 1) (dmul z z)).

(** act.cpp:27-33 *)
Definition f_tanh z : D := dtanh z.
Definition f_tanhgrad z : D := let t := dtanh z in dsub (lit 1) (dmul t t).

(** act.cpp:35-41 *)
Definition f_bipolar z : D := dsub (ddiv (lit 2) (dadd (lit 1) (dexp (dneg z)))) (lit 1).
Definition f_bipolargrad z : D := let f := f_bipolar z in ddiv (dsub (lit 1) (dmul f f)) (lit 2).

(** act.cpp:43-49 *)
Definition f_comploglog z : D := dsub (lit 1) (dexp (dneg (dexp z))).
Definition f_complogloggrad z : D := let expo := dexp z in dmul expo (dexp (dneg expo)).

(** act.cpp:51-57 *)
Definition f_lecun z : D := dmul (dlit 17159 4) (dtanh (dmul (ddiv (lit 2) (lit 3)) z)).
Definition f_lecungrad z : D :=
  let x := dmul (ddiv (lit 2) (lit 3)) z in
  let s := dadd (dexp x) (dexp (dneg x)) in
  ddiv (ddiv (dmul (dlit 114393333 8) (lit 4)) s) s.

(** act.cpp:59-65 *)
Definition f_hardtanh z : D := dfmax (lit (-1)) (dfmin (lit 1) z).
Definition f_hardtanhgrad z : D := if dleb (lit (-1)) z && dleb z (lit 1) then lit 1 else lit 0.

(** act.cpp:67-73 *)
Definition f_absolute z : D := dabs z.
Definition f_absolutegrad z : D := if dltb z (lit 0) then lit (-1) else lit 1.

(** act.cpp:75-80; [z >= 0] is [0 <= z] *)
Definition f_relu z : D := if dleb (lit 0) z then z else lit 0.
Definition f_relugrad z : D := if dleb (lit 0) z then lit 1 else lit 0.

(** act.cpp:82-87 *)
Definition f_relucos z : D := dadd (dfmax (lit 0) z) (dcos z).
Definition f_relucosgrad z : D := if dleb (lit 0) z then dsub (lit 1) (dsin z) else dneg (dsin z).

(** act.cpp:89-94 *)
Definition f_relusin z : D := dadd (dfmax (lit 0) z) (dsin z).
Definition f_relusingrad z : D := if dleb (lit 0) z then dadd (lit 1) (dcos z) else dcos z.

(** act.cpp:96-102 *)
Definition f_smoothrelu z : D := dlog (dadd (lit 1) (dexp z)).
Definition f_smoothrelugrad z : D := let expo := dexp z in ddiv expo (dadd (lit 1) expo).

(** act.cpp:104-109 *)
Definition initactfunc (f g : D -> D) : actfunc D := AF f g.

(** act.cpp:111-123, the global objects *)
Definition identity : actfunc D := initactfunc f_identity f_identitygrad.
Definition sigmoid : actfunc D := initactfunc f_sigmoid f_sigmoidgrad.
Definition arctan : actfunc D := initactfunc f_arctan f_arctangrad.
Definition comploglog : actfunc D := initactfunc f_comploglog f_complogloggrad.
Definition tanhyperbolic : actfunc D := initactfunc f_tanh f_tanhgrad.
Definition bipolarsigmoid : actfunc D := initactfunc f_bipolar f_bipolargrad.
Definition lecuntanh : actfunc D := initactfunc f_lecun f_lecungrad.
Definition hardtanh : actfunc D := initactfunc f_hardtanh f_hardtanhgrad.
Definition absolute : actfunc D := initactfunc f_absolute f_absolutegrad.
Definition relu : actfunc D := initactfunc f_relu f_relugrad.
Definition relucos : actfunc D := initactfunc f_relucos f_relucosgrad.
Definition relusin : actfunc D := initactfunc f_relusin f_relusingrad.
Definition smoothrelu : actfunc D := initactfunc f_smoothrelu f_smoothrelugrad.

End Act.

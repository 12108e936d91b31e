(** Misc.v - model of /repo/src/layer/normlayer.cpp and softmaxlayer.cpp. *)
From Verif Require Import Base Mat Act Layer.
From Coq Require Import Arith.

Section Misc.
Context {D : dtype}.
Notation mat := (mat D).
Context (draw : D -> nat -> D) (junk : nat -> D).

(** normlayer.h:21-22; [None] = never initialised *)
Record norml := NL { nl_l : layer D; nl_val : option D }.
(** normlayer.cpp:8.  In the base constructor the virtual call randominit reaches Layer::randominit. *)
Definition norm_new : res norml :=
  l <- layer_new draw junk 0 0 (dofZ 0) d1 (dofZ 0) identity ;; Ok (NL l None).
(** normlayer.cpp:10: normval is not copied; :12-16 *)
Definition norm_copy (n : norml) : norml := NL (layer_copy (nl_l n)) None.
Definition norm_assign (dst src : norml) : norml := NL (layer_assign (nl_l dst) (nl_l src)) (nl_val src).
Definition set_za (l : layer D) (z a : mat) : layer D :=
  L (l_lrate l) (l_lambda l) (l_act l) (l_pa l) z a (l_delta l) (l_W l) (l_grad l).

(** normlayer.cpp:18-26 *)
Definition norm_forward (n : norml) (pa : mat) : res (mat * norml) :=
  mx <- mmax pa ;;
  mn <- mmin pa ;;
  v <- (match nl_val n with Some v => Ok v | None => Undef UninitRead end) ;;
  let v' := if deqb v (dofZ 0) then dsub mx mn else v in
  let z := mmap (fun x => ddiv x v') pa in
  Ok (z, NL (set_za (nl_l n) z z) (Some v')).

(** normlayer.cpp:28-32 *)
Definition norm_backprop (n : norml) (d : mat) : res (mat * norml) :=
  v <- (match nl_val n with Some v => Ok v | None => Undef UninitRead end) ;;
  Ok (mmap (fun x => ddiv x v) d, NL (nl_l n) (Some (dofZ 0))).

(** softmaxlayer.h:21-22 *)
Record softl := SL { sl_l : layer D; sl_p : mat }.
(** softmaxlayer.cpp:5; :7 (p is not copied); :9-13 *)
Definition soft_new : res softl :=
  l <- layer_new draw junk 0 0 (dofZ 0) d1 (dofZ 0) identity ;; Ok (SL l mempty).
Definition soft_copy (s : softl) : softl := SL (layer_copy (sl_l s)) mempty.
Definition soft_assign (dst src : softl) : softl := SL (layer_assign (sl_l dst) (sl_l src)) (sl_p src).

(** softmaxlayer.cpp:16-18 and :23-25 *)
Definition softmax_rows (m : mat) : res mat :=
  let expo := exponential m in
  mdiv expo (repeatm (rowsum expo) 1 (nc expo)).
(** softmaxlayer.cpp:15-20 *)
Definition soft_forward (s : softl) (pa : mat) : res (mat * softl) :=
  p <- softmax_rows pa ;; Ok (p, SL (sl_l s) p).
(** softmaxlayer.cpp:22-26 *)
Definition soft_backprop (s : softl) (delta : mat) : res (mat * softl) :=
  p <- softmax_rows delta ;; Ok (p, s).

End Misc.
Arguments norml : clear implicits.
Arguments softl : clear implicits.

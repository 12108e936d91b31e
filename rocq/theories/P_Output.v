(** P_Output.v - C65: the cost an OutputLayer reports. *)
From Verif Require Import Base Mat Act Layer Conv Misc Net NetP Trainer TrainP TrainP2 ExNet P_Train P_Decay P_Batch.
From Coq Require Import Arith.
Local Open Scope nat_scope.

Section Output.
Context {D : dtype} (draw : D -> nat -> D) (junk : nat -> D).
Notation mat := (mat D).
Notation output := (output D).
Notation net := (net D).
Notation lheap := (lheap D).

(** Sum of the entries of the cost of prediction [a] for labels [y]. *)
Definition cost_sum (C : costfun (D := D)) (y a : mat) : res D := J <- C y a ;; Ok (sumall J).
Definition built_in_cost (C : costfun (D := D)) : Prop := C = quad_cost \/ C = ce_cost \/ C = kl_cost \/ C = sm_cost.

(** forwardprop(x), backprop(y): getcostval() is the cost of the last prediction for the labels given to backprop, and
    stays so when the weights are updated (with the layer's own gradient or with a given one); a later forwardprop
    changes the prediction but not the labels. *)
Theorem C65_value : forall (o o1 o2 : output) (x y a d : mat),
  output_forward o x = Ok (a, o1) -> output_backprop o1 y = Ok (d, o2) ->
  getcostval o2 = cost_sum (o_cost o) y a /\
  (forall o3, output_update o2 = Ok o3 -> getcostval o3 = cost_sum (o_cost o) y a) /\
  (forall g o3, output_update_with o2 g = Ok o3 -> getcostval o3 = cost_sum (o_cost o) y a) /\
  (forall x' a' o3, output_forward o2 x' = Ok (a', o3) -> getcostval o3 = cost_sum (o_cost o) y a').
Proof.
  intros o o1 o2 x y a d HF HB. unfold output_forward in HF. apply bind_ok in HF as ([a0 l] & HF & E). injection E as -> <-.
  apply forward_inv in HF as (F & -> & ->). unfold output_backprop in HB. cbn [o_l o_cost o_costd] in HB.
  apply bind_ok in HB as (delta & H1 & HB). apply bind_ok in HB as (g & H2 & HB). apply bind_ok in HB as (nd & H3 & HB). apply bind_ok in HB as (r & H4 & HB). injection HB as -> <-.
  split; [reflexivity|]. split; [|split].
  - intros o3 E. unfold output_update in E. apply bind_ok in E as (l & E1 & E). injection E as <-. unfold update, update_with in E1. apply bind_ok in E1 as (w & E2 & E1). injection E1 as <-. reflexivity.
  - intros g0 o3 E. unfold output_update_with in E. apply bind_ok in E as (l & E1 & E). injection E as <-. unfold update_with in E1. apply bind_ok in E1 as (w & E2 & E1). injection E1 as <-. reflexivity.
  - intros x' a' o3 E. unfold output_forward in E. apply bind_ok in E as ([a0 l] & E1 & E). injection E as -> <-. apply forward_inv in E1 as (_ & -> & ->). reflexivity.
Qed.
(** Inside a network (hidden layers of any kind): after forwardprop(x), backprop(y) [and update] it is the value
    computecost(forwardprop(x), y) - provided the network uses the cost function of its output layer, which the
    constructor guarantees. *)
Theorem C65_network : forall (n : net) (H : lheap) (x y a : mat) n1 H1 n2 H2,
  n_cost n = o_cost (n_output n) ->
  net_forward junk n H x = Ok (a, n1, H1) -> net_backprop junk n1 H1 y = Ok (n2, H2) ->
  getcostval (n_output n2) = net_computecost n a y /\
  (forall n3 H3, net_update n2 H2 = Ok (n3, H3) -> getcostval (n_output n3) = net_computecost n a y).
Proof.
  intros n H x y a n1 H1 n2 H2 HC HF HB. unfold net_forward in HF. cbn [input_forward] in HF. apply bind_ok in HF as ([b H'] & _ & HF). apply bind_ok in HF as ([r o'] & HO & HF). injection HF as -> <- <-.
  unfold net_backprop in HB. cbn [set_result set_output n_output n_hidden] in HB. apply bind_ok in HB as ([d o2] & HB1 & HB). apply bind_ok in HB as (H'' & _ & HB). injection HB as <- <-.
  destruct (C65_value _ _ _ _ _ _ _ HO HB1) as (A & B & _ & _). unfold net_computecost. rewrite HC. split; [exact A|].
  intros n3 H3 HU. unfold net_update in HU. cbn [set_output n_output] in HU. apply bind_ok in HU as (o3 & HU1 & HU). apply bind_ok in HU as (H4 & _ & HU). injection HU as <- <-. exact (B _ HU1).
Qed.
Theorem C65_constructed : forall (i : layer D) (o : output) hs (n : net), net_new draw junk i o hs = Ok n -> n_cost n = o_cost (n_output n) /\ n_cost n = o_cost o.
Proof.
  intros i o hs n E. unfold net_new in E. destruct (input_copy draw junk i); cbn [bind] in E; try discriminate. destruct (input_copy draw junk a); cbn [bind] in E; try discriminate. injection E as <-. split; reflexivity.
Qed.
(** But NeuralNet::getoutput() returns a copy, and copies lose the labels: on a network whose last prediction has rows,
    getoutput().getcostval() throws for every built-in cost - even directly after backprop. *)
Theorem C65_getoutput_throws : forall (n : net), built_in_cost (o_cost (n_output n)) -> 1 <= nr (l_a (o_l (n_output n))) -> getcostval (net_getoutput n) = Throw.
Proof.
  intros n HC Hr. unfold getcostval, net_getoutput, output_copy. cbn [o_cost o_y o_l layer_copy l_a]. rewrite builtin_cost_throw; [reflexivity|exact HC|cbn; lia].
Qed.
Theorem C65_getoutput_after_backprop : forall (n : net) (H : lheap) (x y a : mat) n1 H1 n2 H2, built_in_cost (o_cost (n_output n)) ->
  net_forward junk n H x = Ok (a, n1, H1) -> net_backprop junk n1 H1 y = Ok (n2, H2) -> getcostval (net_getoutput n2) = Throw.
Proof.
  intros n H x y a n1 H1 n2 H2 HC HF HB. unfold net_forward in HF. cbn [input_forward] in HF. apply bind_ok in HF as ([b H'] & _ & HF). apply bind_ok in HF as ([r o'] & HO & HF). injection HF as -> <- <-.
  unfold net_backprop in HB. cbn [set_result set_output n_output n_hidden] in HB. apply bind_ok in HB as ([d o2] & HB1 & HB). apply bind_ok in HB as (H'' & _ & HB). injection HB as <- <-.
  unfold output_forward in HO. apply bind_ok in HO as ([a0 l] & HO & E). injection E as -> <-. apply forward_inv in HO as ((F1 & F2 & F3) & -> & ->).
  unfold output_backprop in HB1. cbn [o_l o_cost o_costd] in HB1. apply bind_ok in HB1 as (delta & _ & HB1). apply bind_ok in HB1 as (g & _ & HB1). apply bind_ok in HB1 as (nd & _ & HB1). apply bind_ok in HB1 as (r & _ & HB1). injection HB1 as -> <-.
  apply C65_getoutput_throws; cbn; [exact HC|assumption].
Qed.
End Output.

(** A network with a hidden layer, two samples: the cost is computed inside and lost by getoutput(). *)
Example C65_example : n_cost exn = o_cost (n_output exn) /\ o_cost (n_output exn) = quad_cost /\
  match net_forward (D := Zdt) exj exn exH exx with
  | Ok (_, n1, H1) => match net_backprop (D := Zdt) exj n1 H1 exy with Ok (n2, _) => is_ok (getcostval (n_output n2)) && negb (is_ok (getcostval (net_getoutput n2))) | _ => false end
  | _ => false end = true.
Proof. split; [reflexivity|]. split; [reflexivity|]. vm_compute. reflexivity. Qed.

(** P_Pred.v - C34: predict. *)
From Coq Require Import Reals Lra.
From Verif Require Import Base Mat Act Layer Conv Misc Net NetP RInst Trainer TrainP ExNet P_Decay TrainP2 P_Train.
From Coq Require Import Arith.
Local Open Scope nat_scope.

Section Pred.
Context {D : dtype}.
Notation mat := (mat D).
Notation layer := (layer D).
Context (junk : nat -> D).

(** ** Specification *)

(** On the entries of row i, [<] behaves like an order in which incomparable means equivalent (true of floats
    without NaN, and of the reals). *)
Definition ordered_row (a : mat) (i : nat) : Prop :=
  (forall j, j < nc a -> dltb (at_ a i j) (at_ a i j) = false) /\
  (forall j k l, j < nc a -> k < nc a -> l < nc a ->
     dltb (at_ a i j) (at_ a i l) = true -> dltb (at_ a i j) (at_ a i k) = true \/ dltb (at_ a i k) (at_ a i l) = true) /\
  (forall j k l, j < nc a -> k < nc a -> l < nc a ->
     dltb (at_ a i j) (at_ a i k) = true -> dltb (at_ a i k) (at_ a i l) = true -> dltb (at_ a i j) (at_ a i l) = true).
(** k is the first position of a maximal entry of row i. *)
Definition first_max (a : mat) (i k : nat) : Prop :=
  k < nc a /\ (forall j, j < nc a -> dltb (at_ a i k) (at_ a i j) = false) /\ (forall j, j < k -> dltb (at_ a i j) (at_ a i k) = true).
(** Every layer object keeps its weights, rates, activation. *)
Definition kept (l l' : layer) : Prop := l_W l' = l_W l /\ l_lrate l' = l_lrate l /\ l_lambda l' = l_lambda l /\ l_act l' = l_act l.
Definition kept_all (H H' : lheap D) : Prop := Forall2 (fun h h' => kept (h_base h) (h_base h')) H H'.

(** ** Proof *)
Lemma kept_refl l : kept l l. Proof. repeat split. Qed.
Lemma kept_trans l1 l2 l3 : kept l1 l2 -> kept l2 l3 -> kept l1 l3.
Proof. intros (A & B & C & E) (A' & B' & C' & E'). repeat split; congruence. Qed.
Lemma kept_all_refl H : kept_all H H.
Proof. unfold kept_all. induction H; constructor; auto using kept_refl. Qed.
Lemma kept_all_trans H1 H2 H3 : kept_all H1 H2 -> kept_all H2 H3 -> kept_all H1 H3.
Proof.
  unfold kept_all. intros A. revert H3. induction A as [|h h' t t' P A IH]; intros H3 B; inversion B; subst; constructor; eauto using kept_trans.
Qed.
Lemma kept_all_upd H p h h' : nth_error H p = Some h -> kept (h_base h) (h_base h') -> kept_all H (upd p h' H).
Proof.
  unfold kept_all. revert p. induction H as [|k H IH]; intros [|p] E K; cbn in *; try discriminate.
  - injection E as <-. constructor; [assumption|]. apply kept_all_refl.
  - constructor; [apply kept_refl|]. now apply IH.
Qed.

Lemma h_forward_kept h x a h' : h_forward junk h x = Ok (a, h') -> kept (h_base h) (h_base h').
Proof.
  destruct h as [l|c|p|n|s]; cbn [h_forward]; intros E.
  - apply bind_ok in E as ([b l'] & E & Q). injection Q as _ <-. apply forward_inv in E as (_ & _ & ->). repeat split.
  - apply bind_ok in E as ([b c'] & E & Q). injection Q as _ <-. unfold conv_forward in E.
    apply bind_ok in E as (o & _ & E). apply bind_ok in E as (a0 & _ & E). apply bind_ok in E as (i0 & _ & E). apply bind_ok in E as ([a1 im] & _ & E). injection E as _ <-. repeat split.
  - apply bind_ok in E as ([b c'] & E & Q). injection Q as _ <-. unfold maxpool_forward in E.
    apply bind_ok in E as (o & _ & E). apply bind_ok in E as (a0 & _ & E). apply bind_ok in E as (i0 & _ & E). apply bind_ok in E as (id & _ & E). apply bind_ok in E as ([[a1 im] ix] & _ & E). injection E as _ <-. repeat split.
  - apply bind_ok in E as ([b c'] & E & Q). injection Q as _ <-. unfold norm_forward in E.
    apply bind_ok in E as (o & _ & E). apply bind_ok in E as (a0 & _ & E). apply bind_ok in E as (i0 & _ & E). injection E as _ <-. repeat split.
  - apply bind_ok in E as ([b c'] & E & Q). injection Q as _ <-. unfold soft_forward in E. apply bind_ok in E as (o & _ & E). injection E as _ <-. repeat split.
Qed.
Lemma hidden_forward_kept ids : forall x H a H', hidden_forward junk ids x H = Ok (a, H') -> kept_all H H'.
Proof.
  induction ids as [|p ids IH]; intros x H a H' E; cbn [hidden_forward] in E; [injection E as _ <-; apply kept_all_refl|].
  apply bind_ok in E as (h & E1 & E). apply bind_ok in E as ([b h'] & E2 & E). unfold lget in E1. destruct (nth_error H p) as [h0|] eqn:E0; [|discriminate]. injection E1 as ->.
  eapply kept_all_trans; [|eapply IH; exact E]. eapply kept_all_upd; [exact E0|]. eapply h_forward_kept; exact E2.
Qed.

Lemma fold_argmax (a : mat) i : ordered_row a i -> forall m, m < nc a ->
  let b := fold_left (fun best j => if dltb (snd best) (at_ a i j) then (j, at_ a i j) else best) (seq 1 m) (0, at_ a i 0) in
  fst b <= m /\ snd b = at_ a i (fst b) /\ (forall j, j <= m -> dltb (at_ a i (fst b)) (at_ a i j) = false) /\ (forall j, j < fst b -> dltb (at_ a i j) (at_ a i (fst b)) = true).
Proof.
  intros (O1 & O2 & O3). induction m as [|m IH]; intros Hm.
  - cbn. repeat split; auto; [|lia]. intros j Hj. replace j with 0 by lia. apply O1. lia.
  - rewrite seq_S, fold_left_app. cbn zeta in *. destruct (IH ltac:(lia)) as (A & B & C & E).
    destruct (fold_left _ (seq 1 m) _) as [k v]. cbn [fst snd] in *. cbn [fold_left fst snd]. subst v. change (1 + m) with (S m).
    destruct (dltb (at_ a i k) (at_ a i (S m))) eqn:Q; cbn [fst snd].
    + repeat split; auto.
      * intros j Hj. destruct (Nat.eq_dec j (S m)) as [->|]; [apply O1; lia|]. destruct (dltb (at_ a i (S m)) (at_ a i j)) eqn:Q2; [|reflexivity].
        rewrite <- (C j) by lia. symmetry. apply (O3 k (S m) j); auto; lia.
      * intros j Hj. specialize (C j ltac:(lia)). destruct (O2 k j (S m)) as [X|X]; auto; try lia. congruence.
    + repeat split; auto. intros j Hj. destruct (Nat.eq_dec j (S m)) as [->|]; [assumption|]. apply C. lia.
Qed.

(** ** C34 *)

(** predict(x): column 0 is the first index of a maximal output, column 1 that output; getresult() is forwardprop(x);
    no layer changes its parameters. *)
Theorem C34_predict : forall (n : net D) (H : lheap D) (x m : mat) n' H',
  net_predict junk n H x = Ok (m, n', H') ->
  exists a n1 H1, net_forward junk n H x = Ok (a, n1, H1) /\ n_result n' = a /\ nr m = nr a /\ nc m = 2 /\
    kept_all H H' /\ kept (o_l (n_output n)) (o_l (n_output n')) /\ n_hidden n' = n_hidden n /\
    forall i, i < nr a -> ordered_row a i ->
      exists k, first_max a i k /\ at_ m i 0 = dofZ (Z.of_nat k) /\ at_ m i 1 = at_ a i k.
Proof.
  intros n H x m n' H' E. unfold net_predict in E. apply bind_ok in E as ([[a n1] H1] & EF & E). apply bind_ok in E as (m' & EA & E). injection E as <- <- <-.
  exists a, n1, H1. split; [exact EF|]. cbn [set_result n_result]. split; [reflexivity|].
  pose proof EF as EF'. unfold net_forward in EF. destruct (input_forward (n_input n) x) as [cur i'] eqn:EI. apply bind_ok in EF as ([cur' H2] & F1 & EF).
  apply bind_ok in EF as ([r o'] & F2 & EF). injection EF as -> <- ->. apply out_forward_inv in F2 as (F3 & -> & ->).
  unfold argmax in EA. cbn [set_result set_output set_input n_output o_l fwd_layer l_a] in EA. set (a := fwd_out (o_l (n_output n)) cur') in *.
  destruct ((nc a =? 0) && negb (nr a =? 0)) eqn:Z0; [discriminate|]. injection EA as <-.
  split; [reflexivity|]. split; [reflexivity|]. split; [eapply hidden_forward_kept; exact F1|]. split; [repeat split|]. split; [reflexivity|].
  intros i Hi Ho. assert (Hc : 1 <= nc a). { destruct (Nat.eqb_spec (nc a) 0) as [Q|Q]; [|lia]. destruct (Nat.eqb_spec (nr a) 0); [lia|discriminate]. }
  destruct (fold_argmax a i Ho (nc a - 1) ltac:(lia)) as (A & B & C & E). fold (row_argmax a i) in A, B, C, E.
  exists (fst (row_argmax a i)). split; [split; [lia|split; [intros j Hj; apply C; lia|exact E]]|].
  split; rewrite at_mk by (assumption || lia); [reflexivity|exact B].
Qed.

(** predict never fails on well-sized dense networks with p inputs and at least one output, and returns one row per
    sample. *)
Theorem C34_total : forall (n : net D) (H : lheap D) p c (x : mat), well_sized n H p c -> 1 <= p -> 1 <= c -> 1 <= nr x -> nc x = p ->
  exists m n' H', net_predict junk n H x = Ok (m, n', H') /\ nr m = nr x /\ nc (n_result n') = c.
Proof.
  intros n H p c x Hw Hp Hc Hx Hxp. pose proof (proj1 (well_fits _ _ _ _) Hw) as ((ls & Hf) & _). pose proof Hf as [Hdn (q & A1 & A2 & A3 & A4 & A5)].
  unfold net_predict. rewrite (net_forward_dense junk n H ls x Hdn). subst p. destruct (lforward_fits ls x q Hx A1) as (a & ls' & L1 & L2 & L3 & _).
  rewrite L1. cbn [bind]. rewrite out_forward_ok by (repeat split; cbn; lia). cbn [bind set_result set_output set_input n_output].
  unfold argmax. cbn [set_result set_output set_input n_output o_l fwd_layer l_a fwd_out nr nc mk]. replace (nc (l_W (o_l (n_output n))) =? 0) with false by (symmetry; apply Nat.eqb_neq; lia).
  cbn [andb bind]. eexists _, _, _. split; [reflexivity|]. cbn. split; lia.
Qed.
End Pred.
Print Assumptions C34_predict.

(** In real arithmetic every row is ordered. *)
Lemma ordered_R (a : mat Rdt) i : ordered_row a i.
Proof.
  repeat split; cbn; unfold Rltb'; intros.
  - destruct (Rlt_dec _ _) as [C|]; [exfalso; exact (Rlt_irrefl _ C)|reflexivity].
  - destruct (Rlt_dec (at_ a i j) (at_ a i l)) as [C|]; [|discriminate]. destruct (Rlt_dec (at_ a i j) (at_ a i k)) as [C1|C1]; [now left|]. right.
    destruct (Rlt_dec _ _) as [|C2]; [reflexivity|]. exfalso. apply Rnot_lt_le in C1, C2. apply (Rlt_irrefl (at_ a i j)). eapply Rlt_le_trans; [exact C|]. eapply Rle_trans; eassumption.
  - destruct (Rlt_dec (at_ a i j) (at_ a i k)) as [C|]; [|discriminate]. destruct (Rlt_dec (at_ a i k) (at_ a i l)) as [C1|]; [|discriminate].
    destruct (Rlt_dec _ _) as [|N]; [reflexivity|]. exfalso. apply N. eapply Rlt_trans; eassumption.
Qed.
(** A computed case: outputs 1, 3, 3 for one sample - class 1, score 3. *)
Definition exp_o : output Zdt := O (L (D := Zdt) 1%Z 0%Z identity mempty mempty mempty mempty (Mat (D := Zdt) 2 3 [1;0; 1;2; 3;0]%Z) mempty) quad_cost quad_costd mempty.
Definition exp_n : net Zdt := N (D := Zdt) mempty quad_cost quad_costd (layer_default (D := Zdt)) [] exp_o.
Lemma C34_example : exists m n' H', net_predict (D := Zdt) (fun _ => 0%Z) exp_n [] (Mat (D := Zdt) 1 1 [1%Z]) = Ok (m, n', H') /\ el m = [1%Z; 3%Z] /\ n_result n' = Mat (D := Zdt) 1 3 [1;3;3]%Z /\ ordered_row (n_result n') 0.
Proof.
  assert (Q : match net_predict (D := Zdt) (fun _ => 0%Z) exp_n [] (Mat (D := Zdt) 1 1 [1%Z]) with Ok (m, n', _) => Some (el m, n_result n') | _ => None end
              = Some ([1%Z; 3%Z], Mat (D := Zdt) 1 3 [1;3;3]%Z)) by (vm_compute; reflexivity).
  destruct (net_predict (D := Zdt) _ exp_n [] _) as [[[m n'] H']| | |]; try discriminate. injection Q as Q1 Q2. exists m, n', H'. split; [reflexivity|]. split; [exact Q1|]. split; [exact Q2|]. rewrite Q2.
  repeat split; cbn; unfold at_; cbn; intros; destruct j as [|[|[|]]]; try lia; try reflexivity; destruct k as [|[|[|]]]; try lia; destruct l as [|[|[|]]]; cbn in *; auto; try lia; discriminate.
Qed.

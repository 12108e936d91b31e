(** FunEq.v - networks with the same weights and activations compute the same function; prediction changes neither. *)
From Verif Require Import Base Mat Act Layer Conv Misc Net NetP Trainer TrainP TrainP2 P_Train.
From Coq Require Import Arith.
Local Open Scope nat_scope.

Section FunEq.
Context {D : dtype}.
Notation mat := (mat D).
Notation layer := (layer D).
Context (junk : nat -> D).

Definition sameWA (l m : layer) : Prop := l_W m = l_W l /\ l_act m = l_act l.
(** Same weights and activations in every layer, hidden and output. *)
Definition same_weights (n : net D) (H : lheap D) (n' : net D) (H' : lheap D) : Prop :=
  exists ls ls', hidden_layers n H = Ok ls /\ hidden_layers n' H' = Ok ls' /\ Forall2 sameWA ls ls' /\ sameWA (o_l (n_output n)) (o_l (n_output n')).

Lemma lforward_same : forall ls ls', Forall2 sameWA ls ls' -> forall x a k, lforward ls x = Ok (a, k) ->
  exists k', lforward ls' x = Ok (a, k') /\ Forall2 sameWA ls k /\ Forall2 sameWA ls k'.
Proof.
  induction 1 as [|l m ls ls' [E1 E2] HF IH]; intros x a k Hk; cbn [lforward] in *.
  - injection Hk as <- <-. eexists. split; [reflexivity|]. split; constructor.
  - apply bind_ok in Hk as ([b l1] & K1 & Hk). apply bind_ok in Hk as ([c r1] & K2 & Hk). injection Hk as <- <-.
    apply forward_inv in K1 as (F & -> & ->). rewrite forward_ok by (rewrite E1; exact F). cbn [bind].
    assert (Eo : fwd_out m x = fwd_out l x) by (unfold fwd_out; now rewrite E1, E2). rewrite Eo.
    destruct (IH _ _ _ K2) as (k' & -> & I1 & I2). cbn [bind]. eexists. split; [reflexivity|]. split; constructor; auto; split; cbn; auto.
Qed.
Lemma dense_of_hidden (n : net D) (H : lheap D) : dense_hidden n H -> exists ls, hidden_layers n H = Ok ls /\ dense_net n H ls.
Proof. intros Hd. destruct (dense_ls n H Hd) as [ls Hdn]. exists ls. split; [apply hidden_layers_dense, Hdn|assumption]. Qed.
Lemma dense_net_hidden (n : net D) (H : lheap D) ls : dense_net n H ls -> dense_hidden n H.
Proof. intros Hd. split; [apply Hd|eapply dense_in; apply Hd]. Qed.

(** Equal functions: the forward pass of one succeeds iff the other's does, with the same result; it leaves weights alone. *)
Lemma same_forward n H n' H' x a n1 H1 : dense_hidden n H -> dense_hidden n' H' -> same_weights n H n' H' ->
  net_forward junk n H x = Ok (a, n1, H1) ->
  exists n1' H1', net_forward junk n' H' x = Ok (a, n1', H1') /\ dense_hidden n1 H1 /\ dense_hidden n1' H1' /\
    same_weights n H n1 H1 /\ same_weights n H n1' H1' /\ n_result n1 = a /\ n_result n1' = a /\ kc n n1 /\ kc n' n1' /\ l_a (o_l (n_output n1)) = a /\ l_a (o_l (n_output n1')) = a.
Proof.
  intros Hd Hd' (ls & ls' & L1 & L2 & HF & HO) HN. destruct (dense_of_hidden n H Hd) as (k & K1 & K2). destruct (dense_of_hidden n' H' Hd') as (k' & K1' & K2').
  pose proof (eq_trans (eq_sym L1) K1) as Q. injection Q as <-. pose proof (eq_trans (eq_sym L2) K1') as Q. injection Q as <-.
  rewrite (net_forward_dense junk n H ls) in HN by assumption. apply bind_ok in HN as ([b l1] & F1 & HN). apply bind_ok in HN as ([r o'] & F2 & HN). injection HN as -> <- <-.
  destruct (lforward_same _ _ HF _ _ _ F1) as (l1' & F1' & S1 & S2). apply out_forward_inv in F2 as (F3 & -> & ->). destruct HO as [O1 O2].
  rewrite (net_forward_dense junk n' H' ls') by assumption. rewrite F1'. cbn [bind]. rewrite out_forward_ok by (rewrite O1; exact F3). cbn [bind].
  assert (Eo : fwd_out (o_l (n_output n')) b = fwd_out (o_l (n_output n)) b) by (unfold fwd_out; now rewrite O1, O2). rewrite Eo.
  do 2 eexists. split; [reflexivity|].
  assert (A1 : dense_at (put_layers (n_hidden n) l1 H) (n_hidden n) l1) by (eapply dense_put; [exact K2|eapply lforward_len; eauto]).
  assert (A2 : dense_at (put_layers (n_hidden n') l1' H') (n_hidden n') l1') by (eapply dense_put; [exact K2'|eapply lforward_len; eauto]).
  split; [split; [apply K2|eapply dense_in; exact A1]|]. split; [split; [apply K2'|eapply dense_in; exact A2]|].
  split. { exists ls, l1. split; [assumption|]. split; [apply hidden_layers_dense; exact A1|]. split; [assumption|]. split; reflexivity. }
  split. { exists ls, l1'. split; [assumption|]. split; [apply hidden_layers_dense; exact A2|]. split; [assumption|]. split; cbn; auto. }
  repeat split. cbn. exact Eo.
Qed.
Lemma F2_refl (ls : list layer) : Forall2 sameWA ls ls.
Proof. induction ls; constructor; auto. split; reflexivity. Qed.
Lemma same_weights_refl n H : dense_hidden n H -> same_weights n H n H.
Proof. intros Hd. destruct (dense_of_hidden n H Hd) as (ls & L & _). exists ls, ls. split; [assumption|]. split; [assumption|]. split; [apply F2_refl|split; reflexivity]. Qed.
Lemma F2_trans (a b c : list layer) : Forall2 sameWA a b -> Forall2 sameWA b c -> Forall2 sameWA a c.
Proof.
  intros H. revert c. induction H as [|x y xs ys [A B] H IH]; intros c Hc; inversion Hc as [|u v us vs [C E] G]; subst; constructor; auto. split; congruence.
Qed.
Lemma F2_sym (a b : list layer) : Forall2 sameWA a b -> Forall2 sameWA b a.
Proof. induction 1 as [|x y xs ys [A B] H IH]; constructor; auto. split; auto. Qed.
Lemma same_weights_trans n H n1 H1 n2 H2 : same_weights n H n1 H1 -> same_weights n1 H1 n2 H2 -> same_weights n H n2 H2.
Proof.
  intros (a & b & A1 & A2 & A3 & [A4 A5]) (b' & c & B1 & B2 & B3 & [B4 B5]). pose proof (eq_trans (eq_sym B1) A2) as Q. injection Q as ->.
  exists a, c. split; [assumption|]. split; [assumption|]. split; [eapply F2_trans; eauto|split; congruence].
Qed.
Lemma same_weights_sym n H n1 H1 : same_weights n H n1 H1 -> same_weights n1 H1 n H.
Proof. intros (a & b & A1 & A2 & A3 & [A4 A5]). exists b, a. split; [assumption|]. split; [assumption|]. split; [now apply F2_sym|split; auto]. Qed.

Lemma predict_inv n H x m n' H' : net_predict junk n H x = Ok (m, n', H') ->
  exists a n1, net_forward junk n H x = Ok (a, n1, H') /\ n' = set_result n1 a /\ argmax (n_output n') = Ok m.
Proof.
  unfold net_predict. intros E. apply bind_ok in E as ([[a n1] H1] & E1 & E). apply bind_ok in E as (mm & E2 & E). injection E as <- <- <-. eauto.
Qed.

Lemma decay_same (t : trainer D) n H n0 H0 : dense_hidden n H -> decay t n H = Ok (n0, H0) -> dense_hidden n0 H0 /\ same_weights n H n0 H0 /\ kc n n0.
Proof.
  intros Hd E. destruct (dense_of_hidden n H Hd) as (ls & L & Hdn).
  destruct (decay_only_rates t n H ls Hdn) as (n1 & H1 & ls0 & D1 & D2 & D3 & D4 & D5 & D6). pose proof (eq_trans (eq_sym E) D1) as Q. injection Q as -> ->.
  split; [eapply dense_net_hidden; eauto|]. split.
  - exists ls, ls0. split; [assumption|]. split; [apply hidden_layers_dense, D2|]. split.
    + clear -D3. induction D3 as [|l m ls ls' E]; constructor; auto. rewrite E. split; reflexivity.
    + rewrite D5. split; reflexivity.
  - unfold decay in D1. destruct (_ && _); [|injection D1 as <- <-; split; reflexivity]. unfold net_setlrate in D1. apply bind_ok in D1 as (? & _ & D1). injection D1 as <- _. split; reflexivity.
Qed.
End FunEq.

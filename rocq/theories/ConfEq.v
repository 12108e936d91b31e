(** ConfEq.v - lemmas: what training does depends only on the layers' parameters, not on the values cached in them. *)
From Verif Require Import Base Mat Act Layer Conv Misc Net NetP Trainer TrainP TrainP2 P_Train FunEq.
From Coq Require Import Arith.
Local Open Scope nat_scope.

Section ConfEq.
Context {D : dtype}.
Notation mat := (mat D).
Notation layer := (layer D).
Context (junk : nat -> D).

(** Equal weights, regularisation, rate and activation. *)
Definition conf (l l' : layer) : Prop := l_W l' = l_W l /\ l_lambda l' = l_lambda l /\ l_lrate l' = l_lrate l /\ l_act l' = l_act l.
Lemma conf_refl l : conf l l. Proof. repeat split. Qed.
Lemma conf_sym a b : conf a b -> conf b a.
Proof. unfold conf. intuition congruence. Qed.
Lemma conf_trans a b c : conf a b -> conf b c -> conf a c.
Proof. unfold conf. intuition congruence. Qed.
Lemma F2conf_refl : forall a, Forall2 conf a a.
Proof. induction a; constructor; auto using conf_refl. Qed.
Lemma F2conf_sym : forall a b, Forall2 conf a b -> Forall2 conf b a.
Proof. induction 1; constructor; auto using conf_sym. Qed.
Lemma F2conf_trans : forall a b c, Forall2 conf a b -> Forall2 conf b c -> Forall2 conf a c.
Proof. intros a b c H. revert c. induction H; intros c' H'; inversion H'; subst; constructor; eauto using conf_trans. Qed.

Definition eqc (l m : layer) : Prop := conf l m /\ l_pa m = l_pa l /\ l_z m = l_z l /\ l_a m = l_a l.
Definition eqg (l m : layer) : Prop := conf l m /\ l_grad m = l_grad l.

Lemma fwd_conf l m x : conf l m -> fwd_out m x = fwd_out l x /\ eqc (fwd_layer l x) (fwd_layer m x).
Proof. intros (A & B & C & E). unfold fwd_out. rewrite A, E. split; [reflexivity|]. unfold eqc, conf, fwd_layer, fwd_out. cbn. rewrite A, E. auto. Qed.
Lemma lf_conf : forall ls ls', Forall2 conf ls ls' -> forall x a l1, lforward ls x = Ok (a, l1) -> exists l1', lforward ls' x = Ok (a, l1') /\ Forall2 eqc l1 l1'.
Proof.
  induction 1 as [|l m ls ls' Hc HF IH]; intros x a l1 E; cbn [lforward] in *; [injection E as <- <-; eexists; split; [reflexivity|constructor]|].
  apply bind_ok in E as ([b k] & K1 & E). apply bind_ok in E as ([c q] & K2 & E). injection E as <- <-. apply forward_inv in K1 as (F & -> & ->).
  destruct (fwd_conf l m x Hc) as [E1 E2]. rewrite forward_ok by (rewrite (proj1 Hc); exact F). cbn [bind]. rewrite E1.
  destruct (IH _ _ _ K2) as (l1' & -> & I). cbn [bind]. eexists. split; [reflexivity|]. constructor; assumption.
Qed.
Lemma back_conf l m delta : eqc l m -> down m delta = down l delta /\ eqg (back_layer l delta) (back_layer m delta).
Proof.
  intros ((A & B & C & E) & F & G & K). unfold down, eqg, conf, back_layer, grad_of, raw_grad. cbn. rewrite A, B, C, E, F. auto 10.
Qed.
Lemma lb_conf : forall l1 l1', Forall2 eqc l1 l1' -> forall d d0 l2, lbackprop l1 d = Ok (d0, l2) -> exists l2', lbackprop l1' d = Ok (d0, l2') /\ Forall2 eqg l2 l2'.
Proof.
  induction 1 as [|l m ls ls' Hc HF IH]; intros d e l2 E; cbn [lbackprop] in *; [injection E as <- <-; eexists; split; [reflexivity|constructor]|].
  apply bind_ok in E as ([b k] & K1 & E). apply bind_ok in E as ([c q] & K2 & E). injection E as <- <-. destruct (IH _ _ _ K1) as (l2' & -> & I). cbn [bind].
  apply backprop_inv in K2 as (Hb & -> & ->). pose proof Hc as ((A & B & C & E) & F & G & K).
  assert (Ed : back_delta m b = back_delta l b) by (unfold back_delta; now rewrite E, G).
  rewrite backprop_ok by (unfold back_ok in *; rewrite F, G, A; exact Hb). cbn [bind]. rewrite Ed.
  destruct (back_conf l m (back_delta l b) Hc) as [X Y]. rewrite X. eexists. split; [reflexivity|]. constructor; assumption.
Qed.

(** Two networks whose hidden layers are distinct dense layers, layer by layer with equal parameters, and with the same
    cost functions. *)
Definition same_config (n : net D) (H : lheap D) (n' : net D) (H' : lheap D) : Prop :=
  dense_hidden n H /\ dense_hidden n' H' /\
  exists ls ls', hidden_layers n H = Ok ls /\ hidden_layers n' H' = Ok ls' /\ Forall2 conf ls ls' /\ conf (o_l (n_output n)) (o_l (n_output n')) /\
    n_cost n' = n_cost n /\ o_costd (n_output n') = o_costd (n_output n).
Lemma hl_inj (n : net D) (H : lheap D) ls ls' : hidden_layers n H = Ok ls -> dense_net n H ls' -> ls = ls'.
Proof. intros E Hd. pose proof (eq_trans (eq_sym E) (hidden_layers_dense n H ls' (proj2 Hd))) as Q. now injection Q. Qed.
Lemma same_config_dense n H n' H' : same_config n H n' H' -> exists ls ls', dense_net n H ls /\ dense_net n' H' ls' /\ Forall2 conf ls ls' /\ conf (o_l (n_output n)) (o_l (n_output n')) /\
    n_cost n' = n_cost n /\ o_costd (n_output n') = o_costd (n_output n).
Proof.
  intros (Hd & Hd' & ls & ls' & L & L' & A). destruct (dense_ls n H Hd) as [k K]. destruct (dense_ls n' H' Hd') as [k' K']. pose proof (hl_inj _ _ _ _ L K). pose proof (hl_inj _ _ _ _ L' K'). subst.
  exists k, k'. auto.
Qed.
Lemma dense_same_config n H n' H' ls ls' : dense_net n H ls -> dense_net n' H' ls' -> Forall2 conf ls ls' -> conf (o_l (n_output n)) (o_l (n_output n')) ->
    n_cost n' = n_cost n -> o_costd (n_output n') = o_costd (n_output n) -> same_config n H n' H'.
Proof.
  intros Hd Hd' A B C E. split; [eapply dense_net_hidden; eauto|]. split; [eapply dense_net_hidden; eauto|]. exists ls, ls'.
  split; [apply hidden_layers_dense, Hd|]. split; [apply hidden_layers_dense, Hd'|]. auto.
Qed.
Lemma same_config_refl n H : dense_hidden n H -> same_config n H n H.
Proof. intros Hd. destruct (dense_ls n H Hd) as [ls K]. eapply dense_same_config; eauto using F2conf_refl, conf_refl. Qed.
Lemma same_config_sym n H n' H' : same_config n H n' H' -> same_config n' H' n H.
Proof. intros (A & B & ls & ls' & L & L' & C & E & F & G). split; [assumption|]. split; [assumption|]. exists ls', ls. repeat (split; [now auto using F2conf_sym, conf_sym|]). auto. Qed.
Lemma same_config_trans n H n1 H1 n2 H2 : same_config n H n1 H1 -> same_config n1 H1 n2 H2 -> same_config n H n2 H2.
Proof.
  intros (A & B & ls & ls' & L & L' & C & E & F & G) (A' & B' & k & k' & K & K' & C' & E' & F' & G'). pose proof (eq_trans (eq_sym L') K) as Q. injection Q as <-.
  split; [assumption|]. split; [assumption|]. exists ls, k'. split; [assumption|]. split; [assumption|]. split; [eapply F2conf_trans; eauto|]. split; [eapply conf_trans; eauto|]. split; congruence.
Qed.
Lemma same_config_weights n H n' H' : same_config n H n' H' -> same_weights n H n' H'.
Proof.
  intros (A & B & ls & ls' & L & L' & C & E & F & G). exists ls, ls'. split; [assumption|]. split; [assumption|]. split.
  - clear -C. induction C as [|l m ls ls' (A & B & C0 & E) HC IH]; constructor; auto. split; auto.
  - destruct E as (E1 & _ & _ & E2). split; auto.
Qed.

(** forward: same results, still the same parameters on both sides *)
Lemma forward_conf n H n' H' x a n1 H1 : same_config n H n' H' -> net_forward junk n H x = Ok (a, n1, H1) ->
  exists n1' H1', net_forward junk n' H' x = Ok (a, n1', H1') /\ same_config n1 H1 n1' H1' /\ same_config n H n1 H1 /\ n_result n1 = a /\ n_result n1' = a /\
    n_hidden n1 = n_hidden n /\ n_hidden n1' = n_hidden n' /\ l_a (o_l (n_output n1)) = a /\ l_a (o_l (n_output n1')) = a /\
    (forall y n2 H2, net_backprop junk n1 H1 y = Ok (n2, H2) ->
      exists n2' H2', net_backprop junk n1' H1' y = Ok (n2', H2') /\ same_config n2 H2 n2' H2' /\ same_config n H n2 H2 /\
        n_result n2 = a /\ n_result n2' = a /\ n_hidden n2 = n_hidden n /\ n_hidden n2' = n_hidden n' /\
        exists l2 l2', dense_net n2 H2 l2 /\ dense_net n2' H2' l2' /\ Forall2 eqg l2 l2' /\ eqg (o_l (n_output n2)) (o_l (n_output n2'))).
Proof.
  intros HS HF. destruct (same_config_dense _ _ _ _ HS) as (ls & ls' & Hdn & Hdn' & HC & HO & Hc & Hcd).
  rewrite (net_forward_dense junk n H ls) in HF by assumption. apply bind_ok in HF as ([b l1] & F1 & HF). apply bind_ok in HF as ([r o'] & F2 & HF). injection HF as -> <- <-.
  destruct (lf_conf _ _ HC _ _ _ F1) as (l1' & F1' & C1). apply out_forward_inv in F2 as (F3 & -> & ->).
  rewrite (net_forward_dense junk n' H' ls') by assumption. rewrite F1'. cbn [bind]. rewrite out_forward_ok by (rewrite (proj1 HO); exact F3). cbn [bind].
  destruct (fwd_conf _ _ b HO) as [O1 O2]. rewrite O1.
  assert (A1 : dense_at (put_layers (n_hidden n) l1 H) (n_hidden n) l1) by (eapply dense_put; [exact Hdn|eapply lforward_len; eauto]).
  assert (A2 : dense_at (put_layers (n_hidden n') l1' H') (n_hidden n') l1') by (eapply dense_put; [exact Hdn'|eapply lforward_len; eauto]).
  do 2 eexists. split; [reflexivity|].
  assert (C1' : Forall2 conf l1 l1') by (clear -C1; induction C1 as [|l m k k' [A _] C IH]; constructor; auto).
  assert (B1 : forall m1 m1', n_hidden m1 = n_hidden n -> dense_net m1 (put_layers (n_hidden n) l1 H) l1 /\ (n_hidden m1' = n_hidden n' -> dense_net m1' (put_layers (n_hidden n') l1' H') l1')).
  { intros m1 m1' E1. split; [|intros E2]; split; rewrite ?E1, ?E2; first [apply Hdn|apply Hdn'|exact A1|exact A2]. }
  split. { eapply dense_same_config; [split; [apply Hdn|exact A1]|split; [apply Hdn'|exact A2]|exact C1'|apply O2|exact Hc|exact Hcd]. }
  assert (Hself : Forall2 conf ls l1) by (eapply lforward_W; exact F1).
  split. { eapply dense_same_config; [exact Hdn|split; [apply Hdn|exact A1]|exact Hself|repeat split|reflexivity|reflexivity]. }
  repeat (split; [first [reflexivity|exact O1]|]).
  intros y n2 H2 HB. rewrite (net_backprop_dense junk _ _ l1) in HB by (split; [apply Hdn|exact A1]). apply bind_ok in HB as ([d o2] & D1 & HB). apply bind_ok in HB as ([dx l2] & D2 & HB). injection HB as <- <-.
  apply out_backprop_inv in D1 as (delta & E1 & E2 & E3 & E4 & E5 & -> & ->). cbn [set_result set_output set_input n_output o_l o_costd o_cost] in *.
  rewrite (net_backprop_dense junk _ _ l1') by (split; [apply Hdn'|exact A2]).
  pose proof O2 as ((P1 & P2 & P3 & P4) & P5 & P6 & P7). destruct (back_conf _ _ delta O2) as [Q1 Q2].
  rewrite out_backprop_ok with (delta := delta).
  2:{ cbn [set_result set_output set_input n_output o_l o_costd]. rewrite Hcd. rewrite P7, P6. exact E1. }
  2:{ cbn [set_result set_output set_input n_output o_l]. now rewrite P5. }
  2:{ cbn [set_result set_output set_input n_output o_l]. now rewrite P5, P1. }
  2:{ cbn [set_result set_output set_input n_output o_l]. now rewrite P1. }
  2:{ cbn [set_result set_output set_input n_output o_l]. now rewrite P1. }
  cbn [bind set_result set_output set_input n_output o_l o_costd o_cost]. rewrite Q1.
  destruct (lb_conf _ _ C1 _ _ _ D2) as (l2' & -> & C2). cbn [bind]. do 2 eexists. split; [reflexivity|].
  assert (Z1 : dense_at (put_layers (n_hidden n) l2 (put_layers (n_hidden n) l1 H)) (n_hidden n) l2).
  { apply put_layers_at; [apply Hdn|intros q Hq; rewrite put_layers_length; eapply dense_lt; [apply Hdn|assumption]|]. rewrite (lbackprop_len _ _ _ _ D2). eapply dense_len; exact A1. }
  assert (Z2 : dense_at (put_layers (n_hidden n') l2' (put_layers (n_hidden n') l1' H')) (n_hidden n') l2').
  { apply put_layers_at; [apply Hdn'|intros q Hq; rewrite put_layers_length; eapply dense_lt; [apply Hdn'|assumption]|]. rewrite <- (Forall2_len _ _ _ C2), (lbackprop_len _ _ _ _ D2), (Forall2_len _ _ _ C1). eapply dense_len; exact A2. }
  assert (C2' : Forall2 conf l2 l2') by (clear -C2; induction C2 as [|l m k k' [A _] C IH]; constructor; auto).
  split. { eapply dense_same_config; [split; [apply Hdn|exact Z1]|split; [apply Hdn'|exact Z2]|exact C2'|apply Q2|exact Hc|exact Hcd]. }
  split. { eapply dense_same_config; [exact Hdn|split; [apply Hdn|exact Z1]| |repeat split|reflexivity|reflexivity]. eapply F2conf_trans; [exact Hself|]. eapply lbackprop_W; exact D2. }
  repeat (split; [reflexivity|]).
  exists l2, l2'. split; [split; [apply Hdn|exact Z1]|]. split; [split; [apply Hdn'|exact Z2]|]. split; [exact C2|exact Q2].
Qed.

Lemma stepped_conf l m : eqg l m -> conf (stepped l) (stepped m).
Proof. intros ((A & B & C & E) & F). unfold conf, stepped, set_W. cbn. rewrite A, B, C, E, F. auto. Qed.
Lemma train_step_conf n H n' H' x y n1 H1 : same_config n H n' H' -> train_step junk n H x y = Ok (n1, H1) ->
  exists n1' H1', train_step junk n' H' x y = Ok (n1', H1') /\ same_config n1 H1 n1' H1' /\ n_result n1' = n_result n1.
Proof.
  intros HS HT. unfold train_step in *. apply bind_ok in HT as ([[a m1] K1] & HF & HT). apply bind_ok in HT as ([m2 K2] & HB & HU).
  destruct (forward_conf _ _ _ _ _ _ _ _ HS HF) as (m1' & K1' & HF' & _ & _ & _ & _ & _ & _ & _ & _ & G).
  destruct (G _ _ _ HB) as (m2' & K2' & HB' & S2 & _ & R2 & R2' & _ & _ & l2 & l2' & Hd & Hd' & C2 & Q2). rewrite HF'. cbn [bind]. rewrite HB'. cbn [bind].
  destruct (net_update_dense m2 K2 l2 n1 H1 Hd HU) as (G1 & G2 & -> & ->).
  assert (G1' : gsized (o_l (n_output m2'))). { destruct Q2 as ((A & _) & F). unfold gsized. rewrite A, F. exact G1. }
  assert (G2' : Forall gsized l2'). { clear -C2 G2. revert G2. induction C2 as [|l m k k' ((A & _) & F) C IH]; intros G2; inversion G2; subst; constructor; auto. unfold gsized. now rewrite A, F. }
  rewrite (net_update_ok m2' K2' l2') by assumption. do 2 eexists. split; [reflexivity|]. split; [|cbn; congruence].
  destruct S2 as (_ & _ & u & u' & _ & _ & _ & _ & Hc & Hcd).
  eapply dense_same_config.
  - split; [apply Hd|]. cbn. eapply dense_put; [exact Hd|]. apply map_length.
  - split; [apply Hd'|]. cbn. eapply dense_put; [exact Hd'|]. apply map_length.
  - clear -C2. induction C2; cbn; constructor; auto using stepped_conf.
  - cbn. now apply stepped_conf.
  - exact Hc.
  - exact Hcd.
Qed.
Lemma decay_conf (t : trainer D) n H n' H' n1 H1 : same_config n H n' H' -> decay t n H = Ok (n1, H1) ->
  exists n1' H1', decay t n' H' = Ok (n1', H1') /\ same_config n1 H1 n1' H1' /\ n_result n1 = n_result n /\ n_result n1' = n_result n'.
Proof.
  intros HS. unfold decay. destruct (_ && _); intros E; [|injection E as <- <-; eauto 8].
  destruct (same_config_dense _ _ _ _ HS) as (ls & ls' & Hdn & Hdn' & HC & HO & Hc & Hcd). match type of E with net_setlrate _ _ ?v = _ => set (r := v) in * end.
  destruct (net_setlrate_dense n H ls r Hdn) as [E1 D1]. destruct (net_setlrate_dense n' H' ls' r Hdn') as [E2 D2]. pose proof (eq_trans (eq_sym E) E1) as Q. injection Q as -> ->.
  do 2 eexists. split; [exact E2|]. split; [|auto]. eapply dense_same_config; [exact D1|exact D2| | |exact Hc|exact Hcd].
  - clear -HC. induction HC as [|l m k k' (A & B & C & E) HC IH]; cbn; constructor; auto. repeat split; assumption.
  - destruct HO as (A & B & C & E'). repeat split; assumption.
Qed.
Lemma predict_conf n H n' H' x m n1 H1 : same_config n H n' H' -> net_predict junk n H x = Ok (m, n1, H1) ->
  exists n1' H1', net_predict junk n' H' x = Ok (m, n1', H1') /\ same_config n1 H1 n1' H1' /\ same_config n H n1 H1 /\ n_result n1' = n_result n1.
Proof.
  intros HS HP. unfold net_predict in *. apply bind_ok in HP as ([[a k1] K1] & HF & HP). apply bind_ok in HP as (mm & HA & HP). injection HP as <- <- <-.
  destruct (forward_conf _ _ _ _ _ _ _ _ HS HF) as (k1' & K1' & HF' & S1 & S2 & R1 & R2 & _ & _ & A1 & A2 & _). rewrite HF'. cbn [bind].
  assert (EA : argmax (n_output (set_result k1' a)) = argmax (n_output (set_result k1 a))) by (unfold argmax; cbn [set_result n_output]; now rewrite A1, A2).
  rewrite EA, HA. cbn [bind]. do 2 eexists. split; [reflexivity|]. split; [|split; [|reflexivity]].
  - destruct S1 as (X1 & X2 & X3). exact (conj X1 (conj X2 X3)).
  - destruct S2 as (X1 & X2 & X3). exact (conj X1 (conj X2 X3)).
Qed.
End ConfEq.

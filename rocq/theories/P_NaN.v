(** P_NaN.v - C95: what a NaN weight does.  The scalars are arbitrary except for an element that absorbs + - * / (IEEE 754's
    NaN); C95_ieee shows that the binary64 model of P_Act.v has one. *)
From Coq Require Import SpecFloat.
From Verif Require Import Base Mat Act Layer Conv Misc Net NetP Trainer TrainP TrainP2 ExNet P_Train P_Decay P_Mom FunEq ConfEq World Session SessP InvP P_Sym P_Act.
From Coq Require Import Arith List ZArith Lia.
Import ListNotations.
Local Open Scope nat_scope.

(** ** Specification *)
Section Spec.
Context {D : dtype}.
Definition absorbing (nan : D) : Prop := forall a : D,
  dadd nan a = nan /\ dadd a nan = nan /\ dsub nan a = nan /\ dsub a nan = nan /\ dmul nan a = nan /\ dmul a nan = nan /\ ddiv nan a = nan /\ ddiv a nan = nan.
(** A NaN output makes the delta of that output NaN. *)
Definition passes_on (nan : D) (cd : costdfun (D := D)) : Prop :=
  forall y a z d r j, cd y a z = Ok d -> r < nr a -> j < nc a -> at_ a r j = nan -> at_ d r j = nan.
Definition all_nan (nan : D) (W : mat D) : Prop := forall i j, i < nr W -> j < nc W -> at_ W i j = nan.
End Spec.

Section NaN.
Context {D : dtype} (junk : nat -> D) (nan : D) (HA : absorbing nan).
Notation mat := (mat D).
Notation net := (net D).
Notation lheap := (lheap D).
Notation layer := (layer D).

Lemma mdot_nan (a b : mat) i j k : k < nc a -> (at_ a i k = nan \/ at_ b k j = nan) -> mdot a b i j = nan.
Proof.
  intros Hk Hn. unfold mdot. assert (G : forall l acc, In k l -> fold_left (fun acc k => dadd acc (dmul (at_ a i k) (at_ b k j))) l acc = nan).
  { assert (N : forall l, fold_left (fun acc k => dadd acc (dmul (at_ a i k) (at_ b k j))) l nan = nan). { induction l as [|m l IH]; [reflexivity|]. cbn [fold_left]. destruct (HA (dmul (at_ a i m) (at_ b m j))) as (-> & _). exact IH. }
    induction l as [|m l IH]; intros acc Hin; [destruct Hin|]. cbn [fold_left]. destruct Hin as [<-|Hin]; [|now apply IH].
    assert (E : dmul (at_ a i m) (at_ b m j) = nan) by (destruct Hn as [-> | ->]; apply HA). rewrite E. destruct (HA acc) as (_ & -> & _). apply N. }
  apply G. apply in_seq. lia.
Qed.

(** *** A NaN weight stays NaN *)
Definition Pn (k p q : nat) (c : list layer) : Prop := exists l, nth_error c k = Some l /\ p < nr (l_W l) /\ q < nc (l_W l) /\ at_ (l_W l) p q = nan.
Lemma Pn_kept k p q c c' : Pn k p q c -> Forall2 kept c c' -> Pn k p q c'.
Proof.
  intros (l & K & A & B & C) F. revert k c' K F. induction c as [|m c IH]; intros [|k] c' K F; cbn in K; try discriminate; inversion F as [|? m' ? c2 (E & _) F2]; subst.
  - injection K as ->. exists m'. rewrite E. auto.
  - destruct (IH k c2 K F2) as (l' & L1 & L2). exists l'. auto.
Qed.
Lemma Pn_step k p q c gs : Pn k p q c -> Forall2 gfit c gs -> Pn k p q (steps_with c gs).
Proof.
  intros (l & K & A & B & C) F. revert k gs K F. induction c as [|m c IH]; intros [|k] gs K F; cbn in K; try discriminate; inversion F as [|? g ? gs2 E F2]; subst.
  - injection K as ->. exists (stepped_with l g). split; [reflexivity|]. cbn [stepped_with set_W l_W nr nc mk]. split; [assumption|]. split; [assumption|]. rewrite at_mk by assumption. rewrite C. apply HA.
  - destruct (IH k gs2 K F2) as (l' & L1 & L2). exists l'. auto.
Qed.

(** Whatever the trainer, the data and the number of calls: a weight that is NaN stays NaN. *)
Theorem C95_sticky : forall cs (data : list (mat * mat * bool)) (n : net) (H : lheap) kd kd' n' H' Ws k W i j, dense_hidden n H ->
  weights n H = Ok Ws -> nth_error Ws k = Some W -> i < nr W -> j < nc W -> at_ W i j = nan ->
  new_bound cs n H = Ok kd -> feeds junk data (kd, n, H) = Ok (kd', n', H') ->
  exists Ws' W', weights n' H' = Ok Ws' /\ nth_error Ws' k = Some W' /\ at_ W' i j = nan.
Proof.
  intros cs data n H kd kd' n' H' Ws k W i j Hd EW KW Hi Hj HW HN HF. destruct (dense_ls n H Hd) as [ls Hn]. rewrite (weights_dense n H ls Hn) in EW. injection EW as <-. rewrite nth_error_map in KW.
  destruct (nth_error (ls ++ _) k) as [l|] eqn:L1; [|discriminate]. injection KW as <-.
  assert (X : inv (Pn k i j) (o_costd (n_output n)) n' H' /\ tok (fun _ _ => True) n' H' kd').
  { eapply (feeds_inv junk (Pn k i j) (fun _ _ => True) (fun _ _ => True) (o_costd (n_output n)) (fun _ _ _ _ _ _ _ _ => I) (fun _ _ _ _ _ _ _ _ _ _ _ _ _ _ => I) (Pn_kept k i j)); [intros; exact I|intros c gs P1 P2 _; now apply Pn_step|intros; exact I| | |eapply new_tok; [exact Hd|intros; exact I|exact HN]|exact HF].
    - split; [reflexivity|]. exists ls. split; [exact Hn|]. exists l. auto.
    - clear. induction data; constructor; auto. }
  destruct X as [(_ & ls' & Hn' & l' & K' & A & B & C) _]. exists (map (fun l => l_W l) (ls' ++ [o_l (n_output n')])), (l_W l'). split; [now apply weights_dense|]. rewrite nth_error_map, K'. auto.
Qed.

(** *** One call spreads it *)
Lemma back_nan (ls : list layer) (o : layer) x b ls1 delta dx ls2 j :
  lforward ls x = Ok (b, ls1) -> fwd_ok (l_W o) b -> nr delta = nr b -> nc delta = nc (l_W o) -> lbackprop ls1 (down (fwd_layer o b) delta) = Ok (dx, ls2) ->
  j < nc (l_W o) -> (forall r, r < nr b -> at_ delta r j = nan) ->
  (forall k, k < nr (l_W o) -> at_ (l_grad (back_layer (fwd_layer o b) delta)) k j = nan) /\ Forall (fun l => all_nan nan (l_grad l)) ls2.
Proof.
  intros HF HO N1 N2 HB Hj Hd. destruct (chain_pass ls o x b ls1 delta dx ls2 HF HO N1 N2 HB) as (xs & dl & X0 & X1 & X2).
  assert (GR : forall l (xi d : mat) q, fwd_ok (l_W l) xi -> nr d = nr xi -> nc d = nc (l_W l) -> q < nc (l_W l) -> (forall r, r < nr xi -> at_ d r q = nan) -> forall k, k < nr (l_W l) -> at_ (grad_of (fwd_layer l xi) d) k q = nan).
  { intros l xi d q (F1 & F2 & F3) M1 M2 Hq Hn k Hk. unfold grad_of. cbn [fwd_layer l_pa l_lambda l_W nc mk]. rewrite at_mk by lia. unfold raw_grad. cbn [fwd_layer l_pa nc mk]. rewrite at_mk by lia.
    rewrite (mdot_nan _ _ k q 0); [apply HA|cbn; lia|]. right. apply Hn. lia. }
  assert (ND : forall m i, i + m = length ls -> forall l, nth_error (ls ++ [o]) i = Some l ->
    (exists q, q < nc (l_W l) /\ forall r, r < nr (xs i) -> at_ (dl i) r q = nan) /\ (i < length ls -> forall r q, r < nr (xs i) -> q < nc (l_W l) -> at_ (dl i) r q = nan)).
  { induction m as [|m IH]; intros i Ei l K.
    - assert (i = length ls) by lia. subst i. destruct (X2 _ _ K) as (_ & _ & Y3 & _). rewrite nth_error_app2, Nat.sub_diag in K by lia. cbn in K. injection K as <-. split; [|lia]. exists j. split; [assumption|]. intros r Hr. rewrite X1. apply Hd. rewrite X1 in Y3. lia.
    - destruct (X2 i l K) as (Y1 & Y2 & Y3 & Y4 & Y5 & Y6). assert (K' : exists l', nth_error (ls ++ [o]) (S i) = Some l'). { destruct (nth_error (ls ++ [o]) (S i)) eqn:E; [eauto|]. apply nth_error_None in E. rewrite app_length in E. cbn in E. lia. }
      destruct K' as (l' & K'). destruct (Y6 l' K') as (Z1 & Z2). destruct (X2 (S i) l' K') as (Z3 & _ & Z4 & Z5 & _). destruct (IH (S i) ltac:(lia) l' K') as ((q' & Q1 & Q2) & _).
      assert (Nx : nr (xs (S i)) = nr (xs i)) by (rewrite Y2; reflexivity).
      assert (AL : forall r q, r < nr (xs i) -> q < nc (l_W l) -> at_ (dl i) r q = nan).
      { intros r q Hr Hq. rewrite Z2. unfold back_delta. rewrite at_mk by (cbn [down nr nc mk fwd_layer l_W]; lia). unfold down. cbn [fwd_layer l_W]. rewrite at_mk by (cbn; lia). rewrite at_mk by (cbn; lia).
        rewrite (mdot_nan _ _ r (S q) q'); [apply HA|lia|]. left. apply Q2. lia. }
      split; [|intros _; exact AL]. destruct Y1 as (_ & _ & Y1). destruct Z3 as (_ & Z3 & Z3'). exists 0. assert (nc (l_W l) >= 1) by lia. split; [lia|]. intros r Hr. apply AL; lia. }
  split.
  - intros k Hk. cbn [back_layer l_grad]. apply GR; assumption.
  - apply Forall_forall. intros l Hin. apply In_nth_error in Hin as (i & Hi). assert (Li : i < length ls2) by (apply nth_error_Some; congruence).
    assert (E2 : nth_error (ls2 ++ [back_layer (fwd_layer o b) delta]) i = Some l) by (rewrite nth_error_app1 by exact Li; exact Hi).
    assert (LL : length ls2 = length ls) by (pose proof (lbackprop_len _ _ _ _ HB); pose proof (lforward_len _ _ _ _ HF); lia).
    destruct (nth_error (ls ++ [o]) i) as [l0|] eqn:K; [|apply nth_error_None in K; rewrite app_length in K; cbn in K; lia].
    destruct (X2 i l0 K) as (Y1 & _ & Y3 & Y4 & Y5 & _). rewrite Y5 in E2. injection E2 as <-. destruct (ND (length ls - i) i ltac:(lia) l0 K) as (_ & AL).
    intros p q Hp Hq. cbn [back_layer l_grad] in *. unfold grad_of in Hp, Hq. cbn [nr nc mk fwd_layer l_pa] in Hp, Hq. destruct Y1 as (F1 & F2 & F3). apply GR; [repeat split; assumption|assumption|assumption|lia| |lia]. intros r Hr. apply AL; lia.
Qed.
(** The step after the decay: output j NaN for every sample. *)
Lemma train_nan (n0 : net) (H0 : lheap) ls0 x y n3 H3 j : dense_net n0 H0 ls0 -> train_step junk n0 H0 x y = Ok (n3, H3) -> passes_on nan (o_costd (n_output n0)) ->
  let o := o_l (n_output n0) in j < nc (l_W o) -> (forall b ls1, lforward ls0 x = Ok (b, ls1) -> fwd_ok (l_W o) b -> forall r, r < nr b -> at_ (fwd_out o b) r j = nan) ->
  (nr (l_W (o_l (n_output n3))) = nr (l_W o) /\ nc (l_W (o_l (n_output n3))) = nc (l_W o) /\ forall k, k < nr (l_W o) -> at_ (l_W (o_l (n_output n3))) k j = nan) /\
  exists ls', hidden_layers n3 H3 = Ok ls' /\ length ls' = length (n_hidden n0) /\ Forall (fun l => all_nan nan (l_W l)) ls'.
Proof.
  intros D2 HT HP o Hj HO. unfold train_step in HT. apply bind_ok in HT as ([[a n1] H1] & HF & HT). apply bind_ok in HT as ([n2 H2] & HB & HU).
  destruct (pass_dense junk n0 H0 ls0 x y a n1 H1 n2 H2 D2 HF HB) as (b & ls1 & delta & ls2 & dx & P1 & P2 & P3 & P4 & P5 & P6 & P7 & P8 & P9 & P10 & P11 & _).
  destruct (net_update_dense n2 H2 ls2 n3 H3 P9 HU) as (G1 & G2 & -> & ->).
  assert (DN : forall r, r < nr b -> at_ delta r j = nan).
  { intros r Hr. eapply HP; [exact P4|rewrite P3; exact Hr|rewrite P3; exact Hj|]. rewrite P3. now apply (HO b ls1). }
  destruct (back_nan ls0 (o_l (n_output n0)) x b ls1 delta dx ls2 j P1 P2 P5 P6 P7 Hj DN) as [B1 B2]. split.
  - cbn [set_output n_output with_layer o_l]. rewrite P10. split; [reflexivity|]. split; [reflexivity|]. intros k Hk. unfold stepped, stepped_with. cbn [set_W l_W l_lrate back_layer fwd_layer]. rewrite at_mk by assumption. rewrite P10 in G1. specialize (B1 k Hk). cbn [back_layer l_grad] in *. rewrite B1. destruct (HA (l_lrate (o_l (n_output n0)))) as (_ & _ & _ & _ & _ & -> & _). apply HA.
  - exists (map (fun l => stepped l) ls2). split; [|split].
    + apply hidden_layers_dense. cbn [set_output n_hidden]. eapply (dense_put n2 H2 ls2); [exact P9|now rewrite map_length].
    + rewrite map_length. pose proof (dense_len _ _ _ (proj2 P9)) as E9. rewrite P11 in E9. lia.
    + rewrite Forall_map. rewrite Forall_forall in *. intros l Hl p q Hp Hq. unfold stepped, stepped_with in *. cbn [set_W l_W nr nc mk] in *. rewrite at_mk by assumption. destruct (G2 l Hl) as [g1 g2]. rewrite (B2 l Hl) by lia. destruct (HA (l_lrate l)) as (_ & _ & _ & _ & _ & -> & _). apply HA.
Qed.
(** One NaN weight of output j: after a single call of the plain trainer every weight of output j and every weight of every
    hidden layer is NaN, whatever the data. *)
Theorem C95_spread : forall (t : trainer D) (n : net) (H : lheap) x y t' n' H' i j, dense_hidden n H ->
  let o := o_l (n_output n) in i < nr (l_W o) -> j < nc (l_W o) -> at_ (l_W o) i j = nan ->
  act (l_act o) nan = nan -> passes_on nan (o_costd (n_output n)) -> feeddata junk t n H x y = Ok (t', n', H') ->
  (forall k, k < nr (l_W o) -> at_ (l_W (o_l (n_output n'))) k j = nan) /\
  exists ls', hidden_layers n' H' = Ok ls' /\ length ls' = length (n_hidden n) /\ Forall (fun l => all_nan nan (l_W l)) ls'.
Proof.
  intros t n H x y t' n' H' i j Hdh o Hi Hj HW Hact HP HT. destruct (dense_ls n H Hdh) as [ls Hdn]. unfold feeddata in HT. destruct (decay_only_rates (tick t) n H ls Hdn) as (n0 & H0 & ls0 & D1 & D2 & D3 & D4 & D5 & D6). rewrite D1 in HT. cbn [bind] in HT.
  apply bind_ok in HT as ([n3 H3] & HT & E). injection E as <- <- <-.
  assert (Eo : l_W (o_l (n_output n0)) = l_W o /\ l_act (o_l (n_output n0)) = l_act o). { unfold only_rates in D5. rewrite D5. split; reflexivity. } destruct Eo as [Eo1 Eo2].
  assert (Ec : o_costd (n_output n0) = o_costd (n_output n)) by apply (decay_keep _ _ _ _ _ D1).
  destruct (train_nan n0 H0 ls0 x y n3 H3 j D2 HT ltac:(rewrite Ec; exact HP) ltac:(rewrite Eo1; exact Hj)) as [A B].
  - intros b ls1 E F r Hr. unfold fwd_out. rewrite at_mk by (rewrite ?Eo1; assumption). rewrite Eo2. transitivity (act (l_act o) nan); [|exact Hact]. f_equal. unfold Mat.at_. unfold pre. rewrite Eo1. destruct F as (_ & _ & F). rewrite Eo1 in F.
    apply (mdot_nan _ _ r j i); [cbn; lia|]. right. exact HW.
  - destruct A as (_ & _ & A). rewrite Eo1 in A. rewrite D4 in B. auto.
Qed.
(** Once the first hidden layer is NaN, and if every activation passes NaN on, one more call makes every weight NaN. *)
Lemma fwd_nan (l : layer) (z : mat) s j : all_nan nan z -> fwd_ok (l_W l) z -> act (l_act l) nan = nan -> s < nr z -> j < nc (l_W l) -> at_ (fwd_out l z) s j = nan.
Proof.
  intros Hz (O2 & O3 & O4) Ha Hs Hj. unfold fwd_out. rewrite at_mk by assumption. transitivity (act (l_act l) nan); [|exact Ha]. f_equal. unfold pre. apply (mdot_nan _ _ s j 1); [cbn; lia|]. left. rewrite at_mk by lia. cbn [with_bias]. apply Hz; lia.
Qed.
Lemma lforward_nan (ls : list layer) : forall z b ls1, lforward ls z = Ok (b, ls1) -> all_nan nan z -> Forall (fun l => act (l_act l) nan = nan) ls -> all_nan nan b.
Proof.
  induction ls as [|l ls IH]; intros z b ls1 E Hz Ha; cbn [lforward] in E; [injection E as <- _; exact Hz|].
  apply bind_ok in E as ([c l1] & F & E). apply bind_ok in E as ([d r1] & G & E). injection E as <- _. apply forward_inv in F as (F & -> & _). inversion Ha as [|? ? A1 A2]; subst.
  apply (IH _ _ _ G); [|assumption]. intros i j Hi Hj. apply fwd_nan; assumption.
Qed.
Theorem C95_all : forall (t : trainer D) (n : net) (H : lheap) l ls x y t' n' H', dense_hidden n H -> hidden_layers n H = Ok (l :: ls) -> all_nan nan (l_W l) ->
  Forall (fun m => act (l_act m) nan = nan) (l :: ls ++ [o_l (n_output n)]) -> passes_on nan (o_costd (n_output n)) -> 1 <= nc (l_W (o_l (n_output n))) -> feeddata junk t n H x y = Ok (t', n', H') ->
  exists Ws, weights n' H' = Ok Ws /\ length Ws = length ls + 2 /\ Forall (all_nan nan) Ws.
Proof.
  intros t n H l ls x y t' n' H' Hdh HL HN Hact HP HC HT. destruct (dense_ls n H Hdh) as [ls' Hdn]. pose proof (hidden_layers_dense n H ls' (proj2 Hdn)) as Q. rewrite HL in Q. injection Q as Q. subst ls'.
  unfold feeddata in HT. destruct (decay_only_rates (tick t) n H (l :: ls) Hdn) as (n0 & H0 & ls0 & D1 & D2 & D3 & D4 & D5 & D6). rewrite D1 in HT. cbn [bind] in HT. apply bind_ok in HT as ([n3 H3] & HT & E). injection E as <- <- <-.
  assert (Ec : o_costd (n_output n0) = o_costd (n_output n)) by apply (decay_keep _ _ _ _ _ D1).
  assert (EL : forall m m0 : layer, only_rates m m0 -> l_W m0 = l_W m /\ l_act m0 = l_act m) by (intros m m0 E; rewrite E; split; reflexivity).
  inversion Hact as [|? ? A1 A2]; subst. apply Forall_app in A2 as [A2 A3]. apply Forall_inv in A3. inversion D3 as [|? l0 ? lr R1 R2 E1 E2]; subst. destruct (EL _ _ R1) as [L1 L2]. destruct (EL _ _ D5) as [O1 O2].
  assert (A4 : Forall (fun m : layer => act (l_act m) nan = nan) lr). { clear -A2 R2 EL. induction R2 as [|m m0 ls lr E R IH]; constructor; inversion A2; subst; [destruct (EL _ _ E) as [_ ->]; assumption|auto]. }
  assert (X : forall j, j < nc (l_W (o_l (n_output n0))) -> forall b ls1, lforward (l0 :: lr) x = Ok (b, ls1) -> fwd_ok (l_W (o_l (n_output n0))) b -> forall r, r < nr b -> at_ (fwd_out (o_l (n_output n0)) b) r j = nan).
  { intros j Hj b ls1 E F r Hr. apply fwd_nan; [|assumption|rewrite O2; exact A3|assumption|assumption]. cbn [lforward] in E. apply bind_ok in E as ([c l1] & F1 & E). apply bind_ok in E as ([d r1] & G & E). injection E as <- _. apply forward_inv in F1 as ((F1 & F2 & F3) & -> & _).
    apply (lforward_nan _ _ _ _ G); [|exact A4]. intros p q Hp Hq. cbn [fwd_out nr nc mk] in Hp, Hq. unfold fwd_out. rewrite at_mk by assumption. rewrite L2. transitivity (act (l_act l) nan); [|exact A1]. f_equal. unfold pre. apply (mdot_nan _ _ p q 0); [cbn; lia|]. right. rewrite L1 in *. apply HN; lia. }
  assert (HP0 : passes_on nan (o_costd (n_output n0))) by (rewrite Ec; exact HP). pose proof (fun j Hj => train_nan n0 H0 (l0 :: lr) x y n3 H3 j D2 HT HP0 Hj (X j Hj)) as TN. cbv zeta in TN.
  destruct (TN 0 ltac:(rewrite O1; exact HC)) as [(S1 & S2 & _) (ls3 & K1 & K2 & K3)]. exists (map (fun l => l_W l) ls3 ++ [l_W (o_l (n_output n3))]). split; [unfold weights; rewrite K1; cbn [bind]; now rewrite getoutput_l|].
  split; [rewrite app_length, map_length, K2, D4; pose proof (dense_len _ _ _ (proj2 Hdn)) as E9; cbn [length] in *; lia|].
  apply Forall_app. split; [rewrite Forall_map; exact K3|]. constructor; [|constructor]. intros p q Hp Hq. rewrite S1 in Hp. rewrite S2 in Hq. destruct (TN q Hq) as [(_ & _ & T) _]. now apply T.
Qed.

(** *** A network whose first hidden layer is NaN no longer looks at its input *)
Lemma fwd_rows (l : layer) (x x' : mat) r r' : r < nr x -> r' < nr x' -> nc x = nc x' -> (forall k, k < nc x -> at_ x r k = at_ x' r' k) -> forall j, j < nc (l_W l) -> at_ (fwd_out l x) r j = at_ (fwd_out l x') r' j.
Proof.
  intros Hr Hr' Ec E j Hj. unfold fwd_out. rewrite !at_mk by assumption. f_equal. unfold pre, mdot. cbn [nc mk]. rewrite <- Ec. assert (G : forall l0 acc, (forall k, In k l0 -> k < nc x + 1) -> fold_left (fun acc k => dadd acc (dmul (at_ (mk (nr x) (nc x + 1) (with_bias x)) r k) (at_ (l_W l) k j))) l0 acc = fold_left (fun acc k => dadd acc (dmul (at_ (mk (nr x') (nc x + 1) (with_bias x')) r' k) (at_ (l_W l) k j))) l0 acc).
  { induction l0 as [|k l0 IH]; intros acc Hin; [reflexivity|]. cbn [fold_left]. assert (Hk : k < nc x + 1) by (apply Hin; now left). rewrite !at_mk by assumption. replace (with_bias x' r' k) with (with_bias x r k); [apply IH; intros; apply Hin; now right|]. destruct k as [|k]; [reflexivity|]. cbn [with_bias]. apply E. lia. }
  apply G. intros k Hk. apply in_seq in Hk. lia.
Qed.
Lemma lforward_rows (ls : list layer) : forall x x' b b' ls1 ls1' r r', lforward ls x = Ok (b, ls1) -> lforward ls x' = Ok (b', ls1') -> r < nr x -> r' < nr x' -> nc x = nc x' ->
  (forall k, k < nc x -> at_ x r k = at_ x' r' k) -> nr b = nr x /\ nr b' = nr x' /\ nc b = nc b' /\ forall k, k < nc b -> at_ b r k = at_ b' r' k.
Proof.
  induction ls as [|l ls IH]; intros x x' b b' ls1 ls1' r r' E E' Hr Hr' Ec Ex; cbn [lforward] in E, E'.
  - injection E as <- _. injection E' as <- _. auto.
  - apply bind_ok in E as ([c l1] & F & E). apply bind_ok in E as ([d r1] & G & E). injection E as <- _. apply bind_ok in E' as ([c' l1'] & F' & E'). apply bind_ok in E' as ([d' r1'] & G' & E'). injection E' as <- _.
    apply forward_inv in F as (_ & -> & _). apply forward_inv in F' as (_ & -> & _). destruct (IH _ _ _ _ _ _ r r' G G') as (A & B & C); [exact Hr|exact Hr'|reflexivity|intros k Hk; now apply fwd_rows|]. auto.
Qed.
Theorem C95_blind : forall junk' (n : net) (H : lheap) l ls x x' a a' n1 H1 n2 H2 r r', dense_hidden n H -> hidden_layers n H = Ok (l :: ls) -> all_nan nan (l_W l) ->
  net_forward junk n H x = Ok (a, n1, H1) -> net_forward junk' n H x' = Ok (a', n2, H2) -> r < nr x -> r' < nr x' ->
  nc a = nc a' /\ forall j, j < nc a -> at_ a r j = at_ a' r' j.
Proof.
  intros junk' n H l ls x x' a a' n1 H1 n2 H2 r r' Hd HL HN E E' Hr Hr'. destruct (dense_ls n H Hd) as [ls0 Hn]. pose proof (hidden_layers_dense n H ls0 (proj2 Hn)) as Q. rewrite HL in Q. injection Q as <-.
  rewrite (net_forward_dense junk n H (l :: ls) x Hn) in E. rewrite (net_forward_dense junk' n H (l :: ls) x' Hn) in E'.
  apply bind_ok in E as ([b ls1] & E1 & E). apply bind_ok in E as ([rr o'] & E2 & E). injection E as -> _ _. apply out_forward_inv in E2 as (F1 & -> & _).
  apply bind_ok in E' as ([b' ls1'] & E1' & E'). apply bind_ok in E' as ([rr' o''] & E2' & E'). injection E' as -> _ _. apply out_forward_inv in E2' as (F1' & -> & _).
  split; [reflexivity|]. cbn [lforward] in E1, E1'. apply bind_ok in E1 as ([c l1] & C1 & E1). apply bind_ok in E1 as ([d r1] & G1 & E1). injection E1 as <- _. apply bind_ok in E1' as ([c' l1'] & C1' & E1'). apply bind_ok in E1' as ([d' r1'] & G1' & E1'). injection E1' as <- _.
  apply forward_inv in C1 as (O1 & -> & _). apply forward_inv in C1' as (O1' & -> & _).
  assert (V : forall (z : mat) s j, fwd_ok (l_W l) z -> s < nr z -> j < nc (l_W l) -> at_ (fwd_out l z) s j = act (l_act l) nan).
  { intros z s j (O2 & O3 & O4) Hs Hj. unfold fwd_out. rewrite at_mk by assumption. f_equal. unfold pre. apply (mdot_nan _ _ s j 0); [cbn; lia|]. right. apply HN; lia. }
  destruct (lforward_rows ls _ _ _ _ _ _ r r' G1 G1') as (A & B & C & Dd); [exact Hr|exact Hr'|reflexivity|intros k Hk; now rewrite !V by assumption|].
  cbn [fwd_out nr nc mk] in A, B. intros j Hj. cbn [fwd_out nc mk] in Hj. apply fwd_rows; [rewrite A; exact Hr|rewrite B; exact Hr'|exact C|exact Dd|exact Hj].
Qed.

(** The four built-in costs pass a NaN output on (softmax needs [exp NaN = NaN]). *)
Lemma mzip_inv f (a b : mat) c : mzip f a b = Ok c -> nr a = nr b /\ nc a = nc b /\ c = mk (nr a) (nc a) (fun i j => f (at_ a i j) (at_ b i j)).
Proof.
  intros E. unfold mzip in E. destruct ((nr a =? nr b) && (nc a =? nc b)) eqn:B; [|discriminate]. injection E as <-. apply andb_true_iff in B as [B1 B2]. apply Nat.eqb_eq in B1, B2. auto.
Qed.
Theorem C95_costs : passes_on nan quad_costd /\ passes_on nan ce_costd /\ passes_on nan kl_costd /\ (dexp nan = nan -> passes_on nan sm_costd).
Proof.
  assert (Q : passes_on nan quad_costd).
  { intros y a z d r j E Hr Hj Ha. unfold quad_costd in E. apply bind_ok in E as (m & E1 & E). injection E as <-. apply mzip_inv in E1 as (A & B & ->). unfold divs. rewrite at_mmap by assumption. rewrite at_mk by assumption. rewrite Ha.
    destruct (HA (at_ y r j)) as (_ & _ & -> & _). apply HA. }
  split; [exact Q|]. split; [exact Q|]. split.
  - intros y a z d r j E Hr Hj Ha. unfold kl_costd in E. apply bind_ok in E as (m & E1 & E). injection E as <-. apply mzip_inv in E1 as (A & B & ->). unfold divs. rewrite at_mmap by (cbn [nr nc mk]; lia). rewrite at_mk by lia. rewrite Ha.
    destruct (HA (at_ y r j)) as (_ & _ & _ & _ & _ & _ & _ & ->). apply HA.
  - intros He y a z d r j E Hr Hj Ha. unfold sm_costd, softmax_P in E. apply bind_ok in E as (P & E1 & E). apply bind_ok in E as (m & E2 & E). injection E as <-. apply mzip_inv in E1 as (A1 & B1 & ->). apply mzip_inv in E2 as (A & B & ->). cbn [nr nc mk exponential mmap] in *. unfold divs. rewrite at_mmap by (cbn [nr nc mk]; assumption). rewrite !at_mk by assumption. unfold exponential. rewrite at_mmap by assumption. rewrite Ha, He.
    match goal with |- ddiv (dsub (dmul nan ?u) _) _ = _ => destruct (HA u) as (_ & _ & _ & _ & -> & _) end. destruct (HA (at_ y r j)) as (_ & _ & -> & _). apply HA.
Qed.
End NaN.

(** ** IEEE 754 binary64 *)
(** NaN absorbs; the activations that are made of arithmetic and of libm functions that answer NaN on NaN pass it on, while
    relu answers 0 and hardtanh answers 1. *)
Theorem C95_ieee : forall fexp flog ftanh fatan fsin fcos fpow, let D := SFdt fexp flog ftanh fatan fsin fcos fpow in let nan : D := S754_nan in
  absorbing nan /\ act identity nan = nan /\ act absolute nan = nan /\
  (fatan nan = nan -> act arctan nan = nan) /\ (ftanh nan = nan -> act tanhyperbolic nan = nan /\ act lecuntanh nan = nan) /\
  (fexp nan = nan -> act sigmoid nan = nan /\ act bipolarsigmoid nan = nan /\ act comploglog nan = nan /\ (flog nan = nan -> act smoothrelu nan = nan)) /\
  (fcos nan = nan -> act relucos nan = nan) /\ (fsin nan = nan -> act relusin nan = nan) /\
  act relu nan = d0 /\ act hardtanh nan = d1.
Proof.
  intros fexp flog ftanh fatan fsin fcos fpow D nan. assert (A : absorbing nan) by (intros a; destruct a; repeat split; reflexivity). split; [exact A|].
  split; [reflexivity|]. split; [reflexivity|]. split; [intros E; exact E|]. split.
  { intros E. split; [exact E|]. change (dmul (dlit (d := D) 17159 4) (ftanh S754_nan) = nan). fold nan. rewrite E. apply A. }
  split. { intros E. split; [|split; [|split]].
    - change (SFdiv 53 1024 (dofZ (d := D) 1) (SFadd 53 1024 (dofZ (d := D) 1) (fexp nan)) = nan). rewrite E. reflexivity.
    - change (SFsub 53 1024 (SFdiv 53 1024 (dofZ (d := D) 2) (SFadd 53 1024 (dofZ (d := D) 1) (fexp nan))) (dofZ (d := D) 1) = nan). rewrite E. reflexivity.
    - change (SFsub 53 1024 (dofZ (d := D) 1) (fexp (SFopp (fexp nan))) = nan). rewrite E. change (SFopp nan) with nan. rewrite E. reflexivity.
    - intros E2. change (flog (SFadd 53 1024 (dofZ (d := D) 1) (fexp nan)) = nan). rewrite E. exact E2. }
  split. { intros E. change (SFadd 53 1024 (dofZ (d := D) 0) (fcos nan) = nan). rewrite E. reflexivity. }
  split. { intros E. change (SFadd 53 1024 (dofZ (d := D) 0) (fsin nan) = nan). rewrite E. reflexivity. }
  split; vm_compute; reflexivity.
Qed.

(** ** Example: two inputs, two identity units, two outputs; one output weight is NaN.  One call: the first output and the
    hidden layer are NaN, the second output is not; two calls: every weight is NaN. *)
Section Ex.
Let c : b64 -> b64 := fun _ => S754_nan.
Let D := SFdt c c c c c c (fun _ _ => S754_nan).
Let one : D := d1.
Let zero : D := d0.
Definition nn_l (w : list D) : layer D := L (D := D) one zero identity mempty mempty mempty mempty (Mat (D := D) 3 2 w) mempty.
Definition nn_n : net D := Net.N (D := D) mempty quad_cost quad_costd (layer_default (D := D)) [0] (Layer.O (nn_l [zero; one; S754_nan; one; zero; one]) quad_cost quad_costd mempty).
Definition nn_H : lheap D := [HDense (nn_l [zero; one; zero; one; one; zero])].
Definition nn_x : mat D := Mat (D := D) 1 2 [one; one].
Definition nn_t : trainer D := trainer_new.
Let els (W : res (list (mat D))) : res (list (nat * nat * list D)) := w <- W ;; Ok (map (fun m => (nr m, nc m, el m)) w).
Let go1 := '(_, n1, H1) <- feeddata (fun _ => zero) nn_t nn_n nn_H nn_x nn_x ;; els (weights n1 H1).
Let go2 := '(t1, n1, H1) <- feeddata (fun _ => zero) nn_t nn_n nn_H nn_x nn_x ;; '(_, n2, H2) <- feeddata (fun _ => zero) t1 n1 H1 nn_x nn_x ;; els (weights n2 H2).
Lemma go1_is : go1 = Ok [(3, 2, repeat (A := D) S754_nan 6); (3, 2, [S754_nan; S754_nan; S754_nan; dofZ (d := D) (-1); dofZ (d := D) (-2); dofZ (d := D) (-3)])]. Proof. vm_compute. reflexivity. Qed.
Lemma go2_is : go2 = Ok [(3, 2, repeat (A := D) S754_nan 6); (3, 2, repeat (A := D) S754_nan 6)]. Proof. vm_compute. reflexivity. Qed.
Theorem C95_example : dense_hidden nn_n nn_H /\ absorbing (D := D) S754_nan /\ passes_on (D := D) S754_nan (o_costd (n_output nn_n)) /\
  exists t1 n1 H1 t2 n2 H2 Ws1 Ws2, feeddata (fun _ => zero) nn_t nn_n nn_H nn_x nn_x = Ok (t1, n1, H1) /\ feeddata (fun _ => zero) t1 n1 H1 nn_x nn_x = Ok (t2, n2, H2) /\
    weights n1 H1 = Ok Ws1 /\ map el Ws1 = [repeat S754_nan 6; [S754_nan; S754_nan; S754_nan; dofZ (d := D) (-1); dofZ (d := D) (-2); dofZ (d := D) (-3)]] /\
    weights n2 H2 = Ok Ws2 /\ Forall (all_nan (D := D) S754_nan) Ws2 /\ length Ws2 = 2.
Proof.
  destruct (C95_ieee c c c c c c (fun _ _ => S754_nan)) as (A & _). fold D in A. split; [split; [repeat constructor; intros []|intros p [<-|[]]; eexists; reflexivity]|].
  split; [exact A|]. split; [apply (C95_costs (D := D) S754_nan A)|].
  pose proof go1_is as G1. pose proof go2_is as G2. unfold go1 in G1. unfold go2 in G2. apply bind_ok in G2 as ([[t1 n1] H1] & F1 & G2). rewrite F1 in G1. cbn [bind] in G1. apply bind_ok in G2 as ([[t2 n2] H2] & F2 & G2).
  apply bind_ok in G1 as (Ws1 & W1 & G1). apply bind_ok in G2 as (Ws2 & W2 & G2). exists t1, n1, H1, t2, n2, H2, Ws1, Ws2. split; [exact F1|]. split; [exact F2|]. split; [exact W1|].
  destruct Ws1 as [|[r1 c1 e1] [|[r2 c2 e2] [|? ?]]]; try discriminate G1. destruct Ws2 as [|[r3 c3 e3] [|[r4 c4 e4] [|? ?]]]; try discriminate G2.
  cbn [map nr nc el] in *. injection G1 as -> -> -> -> -> ->. injection G2 as -> -> -> -> -> ->. split; [reflexivity|]. split; [exact W2|]. split; [|reflexivity].
  repeat constructor; intros [|[|[|i]]] [|[|j]] Hi Hj; try reflexivity; exfalso; cbn in Hi, Hj; lia.
Qed.
End Ex.

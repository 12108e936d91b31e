(** P_Exc.v - C71: what an exception leaves behind.
    Feeding data of the wrong size throws (Armadillo's size checks).  A program that catches the exception goes on with
    the same objects; these theorems say in which state it finds them. *)
From Verif Require Import Base Mat Act Layer Conv Misc Net NetP Trainer TrainP TrainP2 ExNet P_Train P_Sgd P_Batch P_Mom FunEq ConfEq P_Conf SessP P_Rebind TMem Exc ExcP.
From Coq Require Import Arith.
Local Open Scope nat_scope.

Section Generic.
Context {D : dtype}.
Notation mat := (mat D).
Notation layer := (layer D).
Notation output := (output D).
Notation net := (net D).
Notation lheap := (lheap D).
Context (junk : nat -> D) (wreck : hlayer D -> hlayer D).
Notation xfeeddata_cost := (xfeeddata_cost junk wreck).

(** ** Specification *)
(** Network n' with layer objects H' is network n with H but for values computed on the way: the same layers with the same
    weights, rates, regularisation and activations, the same cost functions, and all other layer objects as they were. *)
Definition untouched (n : net) (H : lheap) (n' : net) (H' : lheap) : Prop :=
  same_config n H n' H' /\ n_hidden n' = n_hidden n /\ o_cost (n_output n') = o_cost (n_output n) /\ length H' = length H /\
  forall p, ~ In p (n_hidden n) -> nth_error H' p = nth_error H p.

(** ** Lemmas *)
Definition leaves {S A} (P : S -> Prop) (m : xr S A) : Prop := match m with XOk s _ | XThrow s => P s | _ => True end.
Lemma leaves_lift {S A B} (P : S -> Prop) (s : S) (r : res A) (k : A -> xr S B) : P s -> (forall a, r = Ok a -> leaves P (k a)) -> leaves P (xlift s r k).
Proof. intros Hs Hk. destruct r; cbn; auto. Qed.
Lemma leaves_in {S1 S A B} (Q : S1 -> Prop) (P : S -> Prop) (put : S1 -> S) (m : xr S1 A) (k : S -> A -> xr S B) :
  leaves Q m -> (forall s, Q s -> P (put s)) -> (forall s a, m = XOk s a -> Q s -> leaves P (k (put s) a)) -> leaves P (xin put m k).
Proof. intros Hm Hp Hk. destruct m; cbn in *; auto. Qed.
Lemma leaves_throw {S A} (P : S -> Prop) (m : xr S A) s : leaves P m -> m = XThrow s -> P s.
Proof. intros Hm ->. exact Hm. Qed.
Lemma leaves_ok {S A} (P : S -> Prop) (m : xr S A) s a : leaves P m -> m = XOk s a -> P s.
Proof. intros Hm ->. exact Hm. Qed.
Lemma throw_in {S1 S A B} (put : S1 -> S) (m : xr S1 A) (k : S -> A -> xr S B) s : xin put m k = XThrow s ->
  (exists s1, m = XThrow s1 /\ s = put s1) \/ exists s1 a, m = XOk s1 a /\ k (put s1) a = XThrow s.
Proof. destruct m as [s1 a|s1| |u]; cbn; intros E; try discriminate; [right; eauto|injection E as <-; left; eauto]. Qed.
Lemma throw_lift {S A B} (s0 : S) (r : res A) (k : A -> xr S B) s : xlift s0 r k = XThrow s -> (r = Throw /\ s = s0) \/ exists a, r = Ok a /\ k a = XThrow s.
Proof. destruct r as [a|u| |]; cbn; intros E; try discriminate; [right; eauto|injection E as <-; left; eauto]. Qed.
Lemma fg_ok {S A B} (f : S -> A -> B) m s a r : forget f m = r -> m = XOk s a -> r = Ok (f s a).
Proof. now intros <- ->. Qed.
Lemma fg_throw {S A B} (f : S -> A -> B) m s r : forget f m = r -> m = XThrow s -> r = Throw.
Proof. now intros <- ->. Qed.
Lemma fg_inv {S A B} (f : S -> A -> B) m b : forget f m = Ok b -> exists s a, m = XOk s a /\ b = f s a.
Proof. destruct m; cbn; intros E; try discriminate. injection E as <-. eauto. Qed.

Lemma xforward_conf (l : layer) x : leaves (conf l) (xforward l x).
Proof. unfold xforward. apply leaves_lift; [apply conf_refl|]. intros pa _. apply leaves_lift; [repeat split|]. intros z _. repeat split. Qed.
Lemma xgrad_conf (l l0 : layer) : conf l l0 -> leaves (conf l) (xgrad l0).
Proof. intros Hc. unfold xgrad. apply leaves_lift; [exact Hc|]. intros g _. apply leaves_lift; [exact Hc|]. intros g' _. exact Hc. Qed.
Lemma xbackprop_conf (l : layer) d : leaves (conf l) (xbackprop l d).
Proof.
  unfold xbackprop. apply leaves_lift; [apply conf_refl|]. intros delta _. eapply leaves_in; [eapply (xgrad_conf l); repeat split|auto|]. intros s _ _ Hs. apply leaves_lift; [exact Hs|].
  intros dw _. apply leaves_lift; [exact Hs|]. intros r _. exact Hs.
Qed.
Definition okept (o o' : output) : Prop := conf (o_l o) (o_l o') /\ o_cost o' = o_cost o /\ o_costd o' = o_costd o.
Lemma xout_forward_conf (o : output) x : leaves (okept o) (xout_forward o x).
Proof. unfold xout_forward. eapply leaves_in; [apply xforward_conf| |]; intros s; [|intros a _]; intros Hs; repeat split; apply Hs. Qed.
Lemma xout_backprop_conf (o : output) y : leaves (okept o) (xout_backprop o y).
Proof.
  unfold xout_backprop. apply leaves_lift; [repeat split|]. intros delta _. cbn [o_l].
  assert (W : forall l, conf (o_l o) l -> okept o (with_l (O (o_l o) (o_cost o) (o_costd o) y) l)) by (intros l Hl; repeat split; apply Hl).
  eapply leaves_in; [apply (xgrad_conf (o_l o)); repeat split|exact W|]. intros s _ _ Hs. apply leaves_lift; [auto|]. intros nd _. apply leaves_lift; [auto|]. intros r _. apply W, Hs.
Qed.

(** Heaps: dense layers of the network keep their configuration, everything else is as before. *)
Definition hkept (ids : list nat) (H H' : lheap) : Prop := length H' = length H /\ (forall p, ~ In p ids -> nth_error H' p = nth_error H p) /\
  forall p l, In p ids -> nth_error H p = Some (HDense l) -> exists l', nth_error H' p = Some (HDense l') /\ conf l l'.
Definition alld (ids : list nat) (H : lheap) : Prop := forall p, In p ids -> exists l, nth_error H p = Some (HDense l).
Lemma hkept_refl ids H : hkept ids H H.
Proof. split; [reflexivity|]. split; [reflexivity|]. intros p l _ E. eauto using conf_refl. Qed.
Lemma hkept_trans ids H1 H2 H3 : hkept ids H1 H2 -> hkept ids H2 H3 -> hkept ids H1 H3.
Proof.
  intros (A & B & C) (A' & B' & C'). split; [congruence|]. split; [intros p Hp; rewrite B', B; auto|]. intros p l Hp E. destruct (C p l Hp E) as (l' & E' & K).
  destruct (C' p l' Hp E') as (l2 & E2 & K2). exists l2. split; [exact E2|]. eapply conf_trans; eauto.
Qed.
Lemma hkept_upd ids H p l l' : In p ids -> nth_error H p = Some (HDense l) -> conf l l' -> hkept ids H (upd p (HDense l') H).
Proof.
  intros Hp E K. split; [apply upd_length|]. split.
  - intros q Hq. rewrite nth_error_upd. destruct (Nat.eqb_spec q p) as [->|]; [contradiction|reflexivity].
  - intros q l2 Hq E2. rewrite nth_error_upd. destruct (Nat.eqb_spec q p) as [->|]; [|eauto using conf_refl]. rewrite E in *. injection E2 as <-. eauto.
Qed.
Lemma hkept_alld ids H H' : hkept ids H H' -> alld ids H -> alld ids H'.
Proof. intros (A & B & C) Hd p Hp. destruct (Hd p Hp) as [l El]. destruct (C p l Hp El) as (l' & E & _). eauto. Qed.
Lemma leaves_weaken {S A} (P Q : S -> Prop) (m : xr S A) : leaves P m -> (forall s, P s -> Q s) -> leaves Q m.
Proof. destruct m; cbn; auto. Qed.

Lemma xhidden_forward_kept ids : forall todo x H, incl todo ids -> alld ids H -> leaves (hkept ids H) (xhidden_forward junk wreck todo x H).
Proof.
  induction todo as [|p todo IH]; intros x H Hi Hd; cbn [xhidden_forward]; [apply hkept_refl|]. assert (Hp : In p ids) by (apply Hi; now left).
  destruct (Hd p Hp) as [l El]. unfold lget. rewrite El. cbn [xlift xh_forward].
  assert (K : forall l', conf l l' -> hkept ids H (upd p (HDense l') H)) by (intros; eapply hkept_upd; eauto).
  eapply leaves_in with (Q := fun h => exists l', h = HDense l' /\ conf l l').
  - eapply leaves_in; [apply xforward_conf| |]; intros s; [|intros a _]; intros Hs; cbn; eauto.
  - intros h (l' & -> & C). auto.
  - intros h a _ (l' & -> & C). eapply leaves_weaken; [apply IH; [intros q Hq; apply Hi; now right|eapply hkept_alld; eauto]|]. intros H2 K2. eapply hkept_trans; eauto.
Qed.
Lemma xhidden_backprop_kept ids : forall todo x H, incl todo ids -> alld ids H -> leaves (hkept ids H) (xhidden_backprop junk wreck todo x H).
Proof.
  induction todo as [|p todo IH]; intros x H Hi Hd; cbn [xhidden_backprop]; [apply hkept_refl|]. assert (Hp : In p ids) by (apply Hi; now left).
  destruct (Hd p Hp) as [l El]. unfold lget. rewrite El. cbn [xlift xh_backprop].
  assert (K : forall l', conf l l' -> hkept ids H (upd p (HDense l') H)) by (intros; eapply hkept_upd; eauto).
  eapply leaves_in with (Q := fun h => exists l', h = HDense l' /\ conf l l').
  - eapply leaves_in; [apply xbackprop_conf| |]; intros s; [|intros a _]; intros Hs; cbn; eauto.
  - intros h (l' & -> & C). auto.
  - intros h a _ (l' & -> & C). eapply leaves_weaken; [apply IH; [intros q Hq; apply Hi; now right|eapply hkept_alld; eauto]|]. intros H2 K2. eapply hkept_trans; eauto.
Qed.

Definition kept (n : net) (H : lheap) (s : net * lheap) : Prop :=
  n_hidden (fst s) = n_hidden n /\ n_cost (fst s) = n_cost n /\ okept (n_output n) (n_output (fst s)) /\ hkept (n_hidden n) H (snd s).
Lemma okept_refl o : okept o o. Proof. repeat split. Qed.
Lemma okept_trans a b c : okept a b -> okept b c -> okept a c.
Proof. intros (A & B & C) (A' & B' & C'). split; [eapply conf_trans; eauto|]. split; congruence. Qed.
Lemma kept_refl n H : kept n H (n, H).
Proof. split; [reflexivity|]. split; [reflexivity|]. split; [apply okept_refl|apply hkept_refl]. Qed.
Lemma kept_trans n H n1 H1 s : kept n H (n1, H1) -> kept n1 H1 s -> kept n H s.
Proof.
  intros (A & B & C & E) (A' & B' & C' & E'). cbn [fst snd] in *. rewrite A in *. split; [assumption|]. split; [congruence|]. split; [eapply okept_trans; eauto|eapply hkept_trans; eauto].
Qed.
Lemma kept_dense n H s : kept n H s -> dense_hidden n H -> dense_hidden (fst s) (snd s).
Proof. intros (A & B & C & E) [Hn Hd]. split; rewrite A; [exact Hn|]. exact (hkept_alld _ _ _ E Hd). Qed.
Lemma kept_untouched n H n' H' : dense_hidden n H -> kept n H (n', H') -> untouched n H n' H'.
Proof.
  intros Hd K. pose proof (kept_dense _ _ _ K Hd) as Hd'. destruct K as (A & B & (C1 & C2 & C3) & (E1 & E2 & E3)). cbn [fst snd] in *. split; [|auto].
  destruct (dense_ls n H Hd) as [ls L]. destruct (dense_ls n' H' Hd') as [ls' L']. eapply dense_same_config; eauto.
  destruct L as [_ L], L' as [_ L']. rewrite A in L'. unfold dense_at in *. clear Hd Hd' C1 C2 C3 B A E1 E2. revert ls' L'. induction L as [|p l ids ls Ep L IH]; intros ls' L'; inversion L' as [|q l' ids' ls2 Eq Lr]; subst; constructor.
  - destruct (E3 p l) as (l2 & E2 & C); [now left|exact Ep|]. rewrite Eq in E2. injection E2 as ->. exact C.
  - apply IH; [|assumption]. intros q l2 Hq. apply E3. now right.
Qed.
Lemma untouched_kept n H n' H' : untouched n H n' H' -> kept n H (n', H').
Proof.
  intros (HS & A & B & C & E). destruct (same_config_dense _ _ _ _ HS) as (ls & ls' & [N1 L] & [N2 L'] & F & O1 & O2 & O3). split; [exact A|]. split; [exact O2|]. split; [split; auto|]. split; [exact C|]. split; [exact E|].
  cbn [fst snd]. rewrite A in L'. clear -L L' F. revert ls' L' F. unfold dense_at in *. induction L as [|p l ids ls Ep L IH]; intros ls' L' F; [intros p l []|]. inversion L' as [|q l' ids' ls2 Eq Lr]; subst. inversion F as [|u v us vs Cu Fr]; subst.
  intros q k [->|Hq] Ek; [rewrite Ep in Ek; injection Ek as <-; eauto|]. eapply IH; eauto.
Qed.
Lemma untouched_refl n H : dense_hidden n H -> untouched n H n H.
Proof. intros Hd. apply kept_untouched; [exact Hd|apply kept_refl]. Qed.
Lemma untouched_trans n H n1 H1 n2 H2 : dense_hidden n H -> untouched n H n1 H1 -> untouched n1 H1 n2 H2 -> untouched n H n2 H2.
Proof. intros Hd A B. apply kept_untouched; [exact Hd|]. eapply kept_trans; apply untouched_kept; eauto. Qed.

Lemma xnet_forward_kept n H x : dense_hidden n H -> leaves (kept n H) (xnet_forward junk wreck n H x).
Proof.
  intros [Hn Hd]. unfold xnet_forward. destruct (input_forward (n_input n) x) as [cur i'].
  eapply leaves_in; [apply (xhidden_forward_kept (n_hidden n)); [intros p; auto|exact Hd]| |].
  - intros H1 K. split; [reflexivity|]. split; [reflexivity|]. split; [apply okept_refl|exact K].
  - intros H1 a _ K. eapply leaves_in; [apply xout_forward_conf| |]; intros o; [|intros r _]; intros Ko; (split; [reflexivity|]); (split; [reflexivity|]); split; assumption.
Qed.
Lemma xnet_backprop_kept n H y : dense_hidden n H -> leaves (kept n H) (xnet_backprop junk wreck n H y).
Proof.
  intros [Hn Hd]. unfold xnet_backprop. eapply leaves_in; [apply xout_backprop_conf| |].
  - intros o Ko. split; [reflexivity|]. split; [reflexivity|]. split; [exact Ko|apply hkept_refl].
  - intros o d _ Ko. eapply leaves_in; [apply (xhidden_backprop_kept (n_hidden n)); [intros p Hp; now apply in_rev|exact Hd]| |]; intros H1; [|intros a _]; intros K; (split; [reflexivity|]); (split; [reflexivity|]); split; assumption.
Qed.
(** The result member is assigned last. *)
Lemma xnet_forward_result n H x s : xnet_forward junk wreck n H x = XThrow s -> n_result (fst s) = n_result n.
Proof.
  unfold xnet_forward. destruct (input_forward (n_input n) x) as [cur i']. intros E. apply throw_in in E as [(H1 & _ & ->)|(H1 & a & _ & E)]; [reflexivity|].
  apply throw_in in E as [(o & _ & ->)|(o & r & _ & E)]; [reflexivity|discriminate].
Qed.
Lemma xnet_backprop_result n H y : leaves (fun s => n_result (fst s) = n_result n /\ n_input (fst s) = n_input n) (xnet_backprop junk wreck n H y).
Proof.
  unfold xnet_backprop. eapply leaves_in with (Q := fun _ => True); [destruct (xout_backprop _ _); cbn; auto|split; reflexivity|]. intros o d _ _.
  eapply leaves_in with (Q := fun _ => True); [destruct (xhidden_backprop _ _ _ _ _); cbn; auto|split; reflexivity|]. intros H1 a _ _. split; reflexivity.
Qed.

(** After a successful backprop, update cannot fail. *)
Lemma lbackprop_gsized (ls : list layer) : forall d d0 ls', lbackprop ls d = Ok (d0, ls') -> Forall gsized ls'.
Proof.
  induction ls as [|l ls IH]; intros d d0 ls' E; cbn [lbackprop] in E; [injection E as <- <-; constructor|].
  apply bind_ok in E as ([b k] & K1 & E). apply bind_ok in E as ([c q] & K2 & E). injection E as <- <-. apply backprop_inv in K2 as (Hb & -> & ->). constructor; [|eauto].
  destruct Hb as (B1 & B2 & B3 & B4 & B5 & _). split; cbn; lia.
Qed.
Lemma backprop_update (n : net) (H : lheap) y n2 H2 : dense_hidden n H -> net_backprop junk n H y = Ok (n2, H2) ->
  exists ls2, dense_net n2 H2 ls2 /\ Forall gsized ls2 /\ gsized (o_l (n_output n2)).
Proof.
  intros Hd E. destruct (dense_ls n H Hd) as [ls L]. rewrite (net_backprop_dense junk n H ls) in E by assumption. apply bind_ok in E as ([d o2] & D1 & E). apply bind_ok in E as ([dx l2] & D2 & E). injection E as <- <-.
  exists l2. split; [split; [exact (proj1 L)|exact (dense_put n H ls l2 L (lbackprop_len _ _ _ _ D2))]|]. split; [eapply lbackprop_gsized; eauto|].
  apply out_backprop_inv in D1 as (delta & E1 & E2 & E3 & E4 & E5 & _ & ->). split; cbn; lia.
Qed.
Lemma xupdate_nothrow (n : net) (H : lheap) y n2 H2 s : dense_hidden n H -> net_backprop junk n H y = Ok (n2, H2) -> xnet_update n2 H2 <> XThrow s.
Proof.
  intros Hd E X. destruct (backprop_update _ _ _ _ _ Hd E) as (ls & L & G & Go). pose proof (fg_throw _ _ _ _ (xnet_update_ref n2 H2) X) as Y.
  rewrite (net_update_ok n2 H2 ls L Go G) in Y. discriminate.
Qed.
(** Forward, (labels), backward: an exception anywhere leaves the configuration. *)
Lemma pass_throw n H x (ry : res mat) s : dense_hidden n H ->
  xin (fun s => s) (xnet_forward junk wreck n H x) (fun '(n1, H1) _ =>
    xlift (n1, H1) ry (fun yi => xin (fun s => s) (xnet_backprop junk wreck n1 H1 yi) (fun '(n2, H2) _ => xnet_update n2 H2))) = XThrow s -> kept n H s.
Proof.
  intros Hd E. apply throw_in in E as [(s1 & E & ->)|([n1 H1] & a & E1 & E)]; [exact (leaves_throw _ _ _ (xnet_forward_kept n H x Hd) E)|].
  pose proof (leaves_ok _ _ _ _ (xnet_forward_kept n H x Hd) E1) as K1. pose proof (kept_dense _ _ _ K1 Hd) as Hd1. cbn [fst snd] in Hd1.
  apply throw_lift in E as [(_ & ->)|(y & _ & E)]; [exact K1|].
  apply throw_in in E as [(s2 & E & ->)|([n2 H2] & b & E2 & E)]; [eapply kept_trans; [exact K1|]; exact (leaves_throw _ _ _ (xnet_backprop_kept n1 H1 y Hd1) E)|].
  exfalso. eapply xupdate_nothrow; [exact Hd1| |exact E]. exact (fg_ok _ _ _ _ _ (xnet_backprop_ref junk wreck n1 H1 y) E2).
Qed.
Lemma xtrain_step_throw n H x y s : dense_hidden n H -> xtrain_step junk wreck n H x y = XThrow s -> kept n H s.
Proof. intros Hd E. apply (pass_throw n H x (Ok y) s Hd). exact E. Qed.
Lemma xsgd_row_throw n H x y i s : dense_hidden n H -> xsgd_row junk wreck n H x y i = XThrow s -> kept n H s.
Proof. intros Hd E. unfold xsgd_row in E. apply throw_lift in E as [(_ & ->)|(xi & _ & E)]; [apply kept_refl|]. eapply pass_throw; eauto. Qed.

Lemma decay_dense (t : trainer D) n H : dense_hidden n H -> exists n0 H0, decay t n H = Ok (n0, H0) /\ dense_hidden n0 H0.
Proof.
  intros Hd. destruct (dense_ls n H Hd) as [ls L]. destruct (decay_only_rates t n H ls L) as (n0 & H0 & ls0 & E & L0 & _). exists n0, H0. split; [exact E|]. eapply dense_net_hidden; eauto.
Qed.

(** ** C71 *)
(** The functions with exceptional states are the functions of the model: same results, same final states, same outcome. *)
Theorem C71_refines : forall (n : net) (H : lheap) x y b,
  (forall t, forget swap3 (xfeeddata_cost t n H x y b) = feeddata_cost junk t n H x y b) /\
  (forall t, forget swap3 (xsgd_feeddata_cost junk wreck t n H x y b) = sgd_feeddata_cost junk t n H x y b) /\
  (forall t, forget swap3 (xbatch_feeddata_cost junk wreck t n H x y b) = batch_feeddata_cost junk t n H x y b) /\
  (forall t, forget swap3 (xmomentum_feeddata_cost junk wreck t n H x y b) = momentum_feeddata_cost junk t n H x y b) /\
  forget swap2 (xnet_forward junk wreck n H x) = net_forward junk n H x /\
  forget swap2 (xnet_predict junk wreck n H x) = net_predict junk n H x /\
  forget st (xnet_backprop junk wreck n H y) = net_backprop junk n H y /\
  forget st (xnet_update n H) = net_update n H.
Proof.
  intros. repeat split; intros; auto using xfeeddata_cost_ref, xsgd_feeddata_cost_ref, xbatch_feeddata_cost_ref, xmomentum_feeddata_cost_ref, xnet_forward_ref, xnet_predict_ref, xnet_backprop_ref, xnet_update_ref.
Qed.

(** NeuralNet::forwardprop, predict and backprop that throw have not changed the network, nor what getresult() returns. *)
Theorem C71_passes : forall n H m n' H', dense_hidden n H ->
  xnet_forward junk wreck n H m = XThrow (n', H') \/ xnet_backprop junk wreck n H m = XThrow (n', H') \/
    (xnet_predict junk wreck n H m = XThrow (n', H') /\ net_forward junk n H m = Throw) ->
  untouched n H n' H' /\ n_result n' = n_result n.
Proof.
  intros n H m n' H' Hd E. assert (X : xnet_forward junk wreck n H m = XThrow (n', H') \/ xnet_backprop junk wreck n H m = XThrow (n', H')).
  { destruct E as [E|[E|[E F]]]; auto. left. unfold xnet_predict in E. apply throw_in in E as [(s1 & E & ->)|([n1 H1] & a & E1 & E)]; [exact E|].
    pose proof (fg_ok _ _ _ _ _ (xnet_forward_ref junk wreck n H m) E1) as Y. rewrite F in Y. discriminate. }
  clear E. destruct X as [E|E].
  - split; [apply kept_untouched; [exact Hd|]; exact (leaves_throw _ _ _ (xnet_forward_kept n H m Hd) E)|]. exact (xnet_forward_result _ _ _ _ E).
  - split; [apply kept_untouched; [exact Hd|]; exact (leaves_throw _ _ _ (xnet_backprop_kept n H m Hd) E)|]. exact (proj1 (leaves_throw _ _ _ (xnet_backprop_result n H m) E)).
Qed.

(** Trainer::feeddata that throws: the call has been counted and a decay due at this call has been applied (n0, H0), but
    nothing has been learned - unless only the computation of the cost failed, and then everything has. *)
Theorem C71_trainer : forall t n H x y b t' n' H', dense_hidden n H -> xfeeddata_cost t n H x y b = XThrow (t', n', H') ->
  t' = tick t /\ exists n0 H0, decay (tick t) n H = Ok (n0, H0) /\
  ((train_step junk n0 H0 x y = Throw /\ untouched n0 H0 n' H') \/
   (b = true /\ train_step junk n0 H0 x y = Ok (n', H') /\ net_computecost n' (n_result n') y = Throw)).
Proof.
  intros t n H x y b t' n' H' Hd E. destruct (decay_dense (tick t) n H Hd) as (n0 & H0 & Ed & Hd0). unfold Exc.xfeeddata_cost, xfeeddata in E. rewrite Ed in E. cbn [xlift] in E.
  apply throw_in in E as [(s & E & X)|([[t1 n1] H1] & [] & E1 & E)].
  - subst s. apply throw_in in E as [(s & E & X)|(s & a & _ & E)]; [|discriminate]. destruct s as [n1 H1]. injection X as -> -> ->. split; [reflexivity|]. exists n0, H0. split; [exact Ed|]. left.
    split; [exact (fg_throw _ _ _ _ (xtrain_step_ref junk wreck n0 H0 x y) E)|]. apply kept_untouched; [exact Hd0|]. eapply xtrain_step_throw; eauto.
  - assert (X : t1 = tick t /\ train_step junk n0 H0 x y = Ok (n1, H1)).
    { destruct (xtrain_step junk wreck n0 H0 x y) as [[n2 H2] a|s| |u] eqn:Q; cbn [xin] in E1; try discriminate. injection E1 as <- <- <-. split; [reflexivity|]. exact (fg_ok _ _ _ _ _ (xtrain_step_ref junk wreck n0 H0 x y) Q). }
    destruct X as [-> T]. unfold xcost in E. destruct b; [|discriminate]. apply throw_lift in E as [(C & X)|(c & _ & E)]; [|discriminate]. injection X as -> -> ->.
    split; [reflexivity|]. exists n0, H0. split; [exact Ed|]. right. auto.
Qed.

(** SGDTrainer::feeddata that throws: the rows before the first one that does not fit have been learned, in order, and
    nothing else; or all rows have been learned and a cost that was asked for could not be computed. *)
Lemma xfold_throw {S A} (F : S -> A -> xr S unit) (F' : S -> A -> res S) (P : S -> Prop) : (forall s a, forget st (F s a) = F' s a) -> (forall s a s', P s -> F' s a = Ok s' -> P s') ->
  forall l s s', P s -> xfold F l s = XThrow s' -> exists k a sk, nth_error l k = Some a /\ foldM F' (firstn k l) s = Ok sk /\ P sk /\ F sk a = XThrow s'.
Proof.
  intros HF HP. induction l as [|a l IH]; intros s s' Hs E; cbn [xfold] in E; [discriminate|]. apply throw_in in E as [(s1 & E & ->)|(s1 & [] & E1 & E)].
  - exists 0, a, s. repeat split; auto.
  - pose proof (fg_ok _ _ _ _ _ (HF s a) E1) as E2. destruct (IH s1 s' (HP _ _ _ Hs E2) E) as (k & a' & sk & E3 & E4 & E5 & G). exists (Datatypes.S k), a', sk. cbn [nth_error firstn foldM]. rewrite E2. cbn [bind]. auto.
Qed.
Lemma sgd_row_dense n H x y i n' H' : dense_hidden n H -> sgd_row junk n H x y i = Ok (n', H') -> dense_hidden n' H'.
Proof. intros Hd E. apply sgd_row_inv in E as (xi & yi & _ & _ & E). destruct (train_step_conf junk _ _ _ _ _ _ _ _ (same_config_refl _ _ Hd) E) as (n1 & H1 & E1 & (A & _) & _). exact A. Qed.
Lemma seq_firstn k m : k <= m -> firstn k (seq 0 m) = seq 0 k.
Proof. intros Hk. replace m with (k + (m - k)) by lia. rewrite seq_app, firstn_app, seq_length, Nat.sub_diag, firstn_O, app_nil_r. apply firstn_all2. rewrite seq_length. lia. Qed.
Lemma xsgd_costs_kept (t : trainer D) x y : forall rows c n H, dense_hidden n H -> leaves (fun s => fst (fst s) = t /\ kept n H (snd (fst s), snd s)) (xsgd_costs junk wreck t x y rows c n H).
Proof.
  induction rows as [|i rows IH]; intros c n H Hd; cbn [xsgd_costs]; [split; [reflexivity|apply kept_refl]|]. apply leaves_lift; [split; [reflexivity|apply kept_refl]|]. intros xi _.
  assert (P : leaves (kept n H) (xnet_predict junk wreck n H xi)).
  { unfold xnet_predict. eapply leaves_in; [apply xnet_forward_kept, Hd|auto|]. intros [n1 H1] r _ K. apply leaves_lift; [exact K|]. intros m _. exact K. }
  eapply leaves_in; [exact P|intros [n1 H1] K; split; [reflexivity|exact K]|]. intros [n1 H1] a _ K.
  apply leaves_lift; [split; [reflexivity|exact K]|]. intros yi _. apply leaves_lift; [split; [reflexivity|exact K]|]. intros ci _. eapply leaves_weaken; [apply IH; exact (kept_dense _ _ _ K Hd)|].
  intros [[t2 n2] H2] [A B]. split; [exact A|]. eapply kept_trans; eauto.
Qed.
Theorem C71_sgd : forall t n H x y b t' n' H', dense_hidden n H -> xsgd_feeddata_cost junk wreck t n H x y b = XThrow (t', n', H') ->
  t' = tick t /\ exists n0 H0, decay (tick t) n H = Ok (n0, H0) /\
  ((exists k nk Hk, k < nr x /\ sgd_rows junk n0 H0 x y (seq 0 k) = Ok (nk, Hk) /\ sgd_row junk nk Hk x y k = Throw /\ untouched nk Hk n' H') \/
   (b = true /\ exists nk Hk, sgd_rows junk n0 H0 x y (seq 0 (nr x)) = Ok (nk, Hk) /\ untouched nk Hk n' H')).
Proof.
  intros t n H x y b t' n' H' Hd E. destruct (decay_dense (tick t) n H Hd) as (n0 & H0 & Ed & Hd0). unfold xsgd_feeddata_cost, xsgd_feeddata in E. rewrite Ed in E. cbn [xlift] in E.
  set (F := fun '((n, H) : net * lheap) i => xsgd_row junk wreck n H x y i) in E. set (F' := fun '((n, H) : net * lheap) i => sgd_row junk n H x y i).
  assert (RF : forall s a, forget st (F s a) = F' s a) by (intros [n1 H1] i; apply xsgd_row_ref).
  assert (PF : forall s a s', dense_hidden (fst s) (snd s) -> F' s a = Ok s' -> dense_hidden (fst s') (snd s')) by (intros [n1 H1] i [n2 H2]; apply sgd_row_dense).
  apply throw_in in E as [(s & E & X)|([[t1 n1] H1] & [] & E1 & E)].
  - subst s. apply throw_in in E as [(s & E & X)|(s & a & _ & E)]; [|discriminate]. destruct s as [n1 H1]. injection X as -> -> ->. split; [reflexivity|]. exists n0, H0. split; [exact Ed|]. left.
    destruct (xfold_throw F F' (fun s => dense_hidden (fst s) (snd s)) RF PF _ (n0, H0) _ Hd0 E) as (k & i & [nk Hk] & A & B & C & G). cbn [fst snd] in C.
    assert (L : k < nr x) by (rewrite <- (seq_length (nr x) 0); apply nth_error_Some; congruence).
    rewrite nth_error_nth' with (d := 0) in A by (rewrite seq_length; lia). rewrite seq_nth in A by assumption. injection A as <-. rewrite seq_firstn in B by lia.
    exists k, nk, Hk. split; [exact L|]. split; [exact B|]. split; [exact (fg_throw _ _ _ _ (xsgd_row_ref junk wreck nk Hk x y k) G)|]. apply kept_untouched; [exact C|]. eapply xsgd_row_throw; eauto.
  - assert (X : t1 = tick t /\ sgd_rows junk n0 H0 x y (seq 0 (nr x)) = Ok (n1, H1) /\ dense_hidden n1 H1).
    { destruct (xfold F (seq 0 (nr x)) (n0, H0)) as [[n2 H2] a|s| |u] eqn:Q; cbn [xin] in E1; try discriminate. injection E1 as <- <- <-. split; [reflexivity|].
      pose proof (fg_ok _ _ _ _ _ (forget_fold F F' _ RF (n0, H0)) Q) as R. split; [exact R|]. clear -R PF Hd0. revert n0 H0 R Hd0. induction (seq 0 (nr x)) as [|i l IH]; intros n0 H0 R Hd0; cbn [foldM] in R; [injection R as <- <-; exact Hd0|].
      apply bind_ok in R as ([n1 H1] & R1 & R). eapply IH; [exact R|]. exact (PF (n0, H0) _ (n1, H1) Hd0 R1). }
    destruct X as (-> & R & Hd1). destruct b; [|discriminate]. pose proof (leaves_throw _ _ _ (xsgd_costs_kept (tick t) x y (seq 0 (nr x)) (dofZ 0) n1 H1 Hd1) E) as [A B]. cbn [fst snd] in A, B.
    split; [exact A|]. exists n0, H0. split; [exact Ed|]. right. split; [reflexivity|]. exists n1, H1. split; [exact R|]. apply kept_untouched; assumption.
Qed.
(** BatchTrainer::feeddata that throws: the data has been stored; if the batches could not be cut nothing else has happened,
    otherwise the batches before the failing one have been learned and counted, and no decay has been applied; or all has been
    done and a cost that was asked for could not be computed. *)
Definition bstep (z : Z) (tx ty : mat) : trainer D * net * lheap -> Z -> res (trainer D * net * lheap) := fun '(t, n, H) i =>
    xb <- mrows tx i (i + z - 1) ;;
    '(_, n1, H1) <- net_forward junk n H xb ;;
    yb <- mrows ty i (i + z - 1) ;;
    '(n2, H2) <- net_backprop junk n1 H1 yb ;;
    '(n3, H3) <- net_update n2 H2 ;;
    Ok (tick t, n3, H3).
Definition xbstep (z : Z) (tx ty : mat) : trainer D * net * lheap -> Z -> xr (trainer D * net * lheap) unit := fun '(t, n, H) i =>
    xlift (t, n, H) (mrows tx i (i + z - 1)) (fun xb =>
    xin (fun '(n, H) => (t, n, H)) (xnet_forward junk wreck n H xb) (fun '(t, n1, H1) _ =>
    xlift (t, n1, H1) (mrows ty i (i + z - 1)) (fun yb =>
    xin (fun '(n, H) => (t, n, H)) (xnet_backprop junk wreck n1 H1 yb) (fun '(t, n2, H2) _ =>
    xin (fun '(n, H) => (t, n, H)) (xnet_update n2 H2) (fun '(t, n3, H3) _ => XOk (tick t, n3, H3) tt))))).
Lemma xbstep_ref z tx ty s i : forget st (xbstep z tx ty s i) = bstep z tx ty s i.
Proof.
  destruct s as [[t1 n1] H1]. unfold xbstep, bstep. rewrite forget_lift. apply bind_ext; intros xb.
  eapply forget_in; [apply xnet_forward_ref|]. intros [n2 H2] r. cbn [swap2 fst snd]. rewrite forget_lift. apply bind_ext; intros yb.
  eapply forget_in; [apply xnet_backprop_ref|]. intros [n3 H3] []. eapply forget_in; [apply xnet_update_ref|]. intros [n4 H4] []. reflexivity.
Qed.
Lemma bstep_dense z tx ty t n H i t' n' H' : dense_hidden n H -> bstep z tx ty (t, n, H) i = Ok (t', n', H') -> dense_hidden n' H' /\ t' = tick t.
Proof.
  intros Hd E. unfold bstep in E. apply bind_ok in E as (xb & _ & E). apply bind_ok in E as ([[a n1] H1] & E1 & E). apply bind_ok in E as (yb & _ & E). apply bind_ok in E as ([n2 H2] & E2 & E).
  apply bind_ok in E as ([n3 H3] & E3 & E). injection E as <- <- <-. split; [|reflexivity].
  assert (T : train_step junk n H xb yb = Ok (n3, H3)) by (unfold train_step; rewrite E1; cbn [bind]; rewrite E2; exact E3).
  destruct (train_step_conf junk _ _ _ _ _ _ _ _ (same_config_refl _ _ Hd) T) as (n4 & H4 & _ & (A & _) & _). exact A.
Qed.
Lemma xbstep_throw z tx ty t n H i t' n' H' : dense_hidden n H -> xbstep z tx ty (t, n, H) i = XThrow (t', n', H') -> t' = t /\ kept n H (n', H').
Proof.
  intros Hd E. unfold xbstep in E. apply throw_lift in E as [(_ & X)|(xb & _ & E)]; [injection X as -> -> ->; split; [reflexivity|apply kept_refl]|].
  apply throw_in in E as [([n1 H1] & E & X)|([n1 H1] & a & E1 & E)]; [injection X as -> -> ->; split; [reflexivity|]; exact (leaves_throw _ _ _ (xnet_forward_kept n H xb Hd) E)|].
  pose proof (leaves_ok _ _ _ _ (xnet_forward_kept n H xb Hd) E1) as K1. pose proof (kept_dense _ _ _ K1 Hd) as Hd1. cbn [fst snd] in Hd1.
  apply throw_lift in E as [(_ & X)|(y & _ & E)]; [injection X as -> -> ->; split; [reflexivity|exact K1]|].
  apply throw_in in E as [([n2 H2] & E & X)|([n2 H2] & b & E2 & E)]; [injection X as -> -> ->; split; [reflexivity|]; eapply kept_trans; [exact K1|]; exact (leaves_throw _ _ _ (xnet_backprop_kept n1 H1 y Hd1) E)|].
  apply throw_in in E as [([n3 H3] & E & X)|([n3 H3] & b' & E3 & E)]; [|discriminate].
  exfalso. eapply xupdate_nothrow; [exact Hd1| |exact E]. exact (fg_ok _ _ _ _ _ (xnet_backprop_ref junk wreck n1 H1 y) E2).
Qed.
Lemma bstep_ticks z tx ty : forall l t n H t' n' H', dense_hidden n H -> foldM (bstep z tx ty) l (t, n, H) = Ok (t', n', H') -> t' = ticks t (length l) /\ dense_hidden n' H'.
Proof.
  induction l as [|i l IH]; intros t n H t' n' H' Hd E; cbn [foldM length] in *; [injection E as <- <- <-; split; [symmetry; apply ticks_0|exact Hd]|].
  apply bind_ok in E as ([[t1 n1] H1] & E1 & E). destruct (bstep_dense _ _ _ _ _ _ _ _ _ _ Hd E1) as [Hd1 ->]. destruct (IH _ _ _ _ _ _ Hd1 E) as [-> Hd2]. split; [apply ticks_S|exact Hd2].
Qed.
Lemma cost_fold_throw (r : res D) (b : bool) : forall (l : list Z) c, foldM (fun c (_ : Z) => if b then ci <- r ;; Ok (dadd c ci) else Ok c) l c = Throw -> b = true /\ r = Throw.
Proof.
  induction l as [|i l IH]; intros c E; cbn [foldM] in E; [discriminate|]. destruct b; [|cbn [bind] in E; eauto]. split; [reflexivity|]. destruct r as [ci|u| |]; cbn [bind] in E; try discriminate; [|reflexivity]. now destruct (IH _ E).
Qed.
Theorem C71_batch : forall t n H x y b t' n' H', dense_hidden n H -> xbatch_feeddata_cost junk wreck t n H x y b = XThrow (t', n', H') ->
  let z := bt_size t in let starts := steps (Z.of_nat (nr x)) z in
  bt_x t' = x /\ bt_y t' = y /\ bt_size t' = z /\
  (((wrap_rows x z = Throw \/ wrap_rows y z = Throw) /\ bt_t t' = bt_t t /\ n' = n /\ H' = H) \/
   (exists tx ty k nk Hk, wrap_rows x z = Ok tx /\ wrap_rows y z = Ok ty /\ k < length starts /\ bt_t t' = ticks (bt_t t) k /\
      batch_loop junk z tx ty (firstn k starts) (bt_t t) n H = Ok (bt_t t', nk, Hk) /\
      batch_loop junk z tx ty (firstn (S k) starts) (bt_t t) n H = Throw /\ untouched nk Hk n' H') \/
   (b = true /\ batch_feeddata junk t n H x y = Ok (t', n', H') /\ net_computecost n' (n_result n') y = Throw)).
Proof.
  intros t n H x y b t' n' H' Hd E z starts. unfold xbatch_feeddata_cost in E. apply throw_in in E as [(s & E & X)|([[t1 n1] H1] & [] & E1 & E)].
  - subst s. unfold xbatch_feeddata in E. apply throw_lift in E as [(W & X)|(tx & Wx & E)]; [injection X as -> -> ->; repeat split; left; auto|].
    apply throw_lift in E as [(W & X)|(ty & Wy & E)]; [injection X as -> -> ->; repeat split; left; auto|].
    apply throw_in in E as [([[t2 n2] H2] & E & X)|([[t2 n2] H2] & [] & E2 & E)].
    + injection X as -> -> ->. repeat split. right. left. cbn [bt_t] in E |- *.
      destruct (xfold_throw (xbstep z tx ty) (bstep z tx ty) (fun s => dense_hidden (snd (fst s)) (snd s)) (xbstep_ref z tx ty)
        (fun s a s' => ltac:(destruct s as [[t3 n3] H3]; destruct s' as [[t4 n4] H4]; intros P Q; exact (proj1 (bstep_dense _ _ _ _ _ _ _ _ _ _ P Q)))) starts (bt_t t, n, H) _ Hd E)
        as (k & i & [[tk nk] Hk] & A & B & C & G). cbn [fst snd] in C.
      destruct (xbstep_throw _ _ _ _ _ _ _ _ _ _ C G) as [-> K].
      assert (L : k < length starts) by (apply nth_error_Some; congruence).
      destruct (bstep_ticks _ _ _ _ _ _ _ _ _ _ Hd B) as [-> _]. rewrite firstn_length_le in * by lia.
      exists tx, ty, k, nk, Hk. split; [exact Wx|]. split; [exact Wy|]. split; [exact L|]. split; [reflexivity|]. split; [exact B|]. split; [|apply kept_untouched; assumption].
      assert (Es : firstn (S k) starts = firstn k starts ++ [i]).
      { clear -A. revert k A. induction starts as [|a l IH]; intros k A; [destruct k; discriminate|]. destruct k as [|k]; cbn in *; [injection A as <-; reflexivity|]. f_equal. auto. }
      rewrite Es. change (foldM (bstep z tx ty) (firstn k starts ++ [i]) (bt_t t, n, H) = Throw). rewrite foldM_app, B. cbn [bind foldM].
      now rewrite (fg_throw _ _ _ _ (xbstep_ref z tx ty (ticks (bt_t t) k, nk, Hk) i) G).
    + exfalso. pose proof (fg_ok _ _ _ _ _ (xbatch_loop_ref junk wreck (bt_size t) tx ty starts (bt_t t) n H) E2) as R. destruct (bstep_ticks _ _ _ _ _ _ _ _ _ _ Hd R) as [_ Hd2].
      cbn [bt_t] in E. destruct (decay_dense t2 n2 H2 Hd2) as (n3 & H3 & Ed & _). rewrite Ed in E. discriminate.
  - pose proof (fg_ok _ _ _ _ _ (xbatch_feeddata_ref junk wreck t n H x y) E1) as R. cbn [st] in R. apply throw_lift in E as [(C & X)|(c & _ & E)]; [|discriminate]. injection X as -> -> ->.
    assert (B : bt_x t1 = x /\ bt_y t1 = y /\ bt_size t1 = z).
    { unfold batch_feeddata in R. apply bind_ok in R as (tx & _ & R). apply bind_ok in R as (ty & _ & R). apply bind_ok in R as ([[t3 n3] H3] & _ & R). apply bind_ok in R as ([n4 H4] & _ & R). injection R as <- <- <-. auto. }
    destruct B as (B1 & B2 & B3). repeat split; auto. right. right. apply cost_fold_throw in C as [-> C]. auto.
Qed.

(** MomentumTrainer::feeddata that throws: as for Trainer, nothing has been learned, unless only the cost failed; the
    accumulated gradients are as before, if they had the sizes of the network's weights. *)
Theorem C71_momentum : forall t n H x y b t' n' H', dense_hidden n H -> xmomentum_feeddata_cost junk wreck t n H x y b = XThrow (t', n', H') ->
  mt_t t' = tick (mt_t t) /\ mt_mom t' = mt_mom t /\
  ((exists n0 H0, decay (tick (mt_t t)) n H = Ok (n0, H0) /\ momentum_feeddata junk t n H x y = Throw /\ untouched n0 H0 n' H' /\
      (mom_fits n H t -> mt_ograd t' = mt_ograd t /\ mt_hgrads t' = mt_hgrads t)) \/
   (b = true /\ momentum_feeddata junk t n H x y = Ok (t', n', H') /\ net_computecost n' (n_result n') y = Throw)).
Proof.
  intros t n H x y b t' n' H' Hd E. destruct (dense_ls n H Hd) as [ls L]. destruct (decay_only_rates (tick (mt_t t)) n H ls L) as (n0 & H0 & ls0 & Ed & L0 & R0 & Eh0 & Ro & _).
  pose proof (dense_net_hidden _ _ _ L0) as Hd0. unfold xmomentum_feeddata_cost in E. apply throw_in in E as [(s & E & X)|([[t1 n1] H1] & [] & E1 & E)].
  - subst s. pose proof (fg_throw _ _ _ _ (xmomentum_feeddata_ref junk wreck t n H x y) E) as MT0. unfold xmomentum_feeddata in E. cbn [mt_t] in E. rewrite Ed in E. cbn [xlift] in E.
    apply throw_in in E as [([n1 H1] & E & X)|([n1 H1] & a & E1 & E)].
    { injection X as -> -> ->. repeat split. left. exists n0, H0. split; [exact Ed|]. split; [exact MT0|]. split; [|auto]. apply kept_untouched; [exact Hd0|]. exact (leaves_throw _ _ _ (xnet_forward_kept n0 H0 x Hd0) E). }
    pose proof (leaves_ok _ _ _ _ (xnet_forward_kept n0 H0 x Hd0) E1) as K1. pose proof (kept_dense _ _ _ K1 Hd0) as Hd1. cbn [fst snd] in Hd1.
    apply throw_in in E as [([n2 H2] & E & X)|([n2 H2] & c & E2 & E)].
    { injection X as -> -> ->. repeat split. left. exists n0, H0. split; [exact Ed|]. split; [exact MT0|]. split; [|auto]. apply kept_untouched; [exact Hd0|]. eapply kept_trans; [exact K1|]. exact (leaves_throw _ _ _ (xnet_backprop_kept n1 H1 y Hd1) E). }
    pose proof (leaves_ok _ _ _ _ (xnet_backprop_kept n1 H1 y Hd1) E2) as K2'. pose proof (kept_trans _ _ _ _ _ K1 K2') as K2.
    pose proof (fg_ok _ _ _ _ _ (xnet_backprop_ref junk wreck n1 H1 y) E2) as B2. destruct (backprop_update _ _ _ _ _ Hd1 B2) as (ls2 & L2 & G2 & Go2).
    pose proof (kept_untouched _ _ _ _ Hd0 K2) as U2.
    apply throw_lift in E as [(_ & X)|(og & Eo & E)].
    { injection X as -> -> ->. repeat split. left. exists n0, H0. auto. }
    unfold net_getoutput, output_copy in Eo. cbn [o_l] in Eo. rewrite layer_copy_id in Eo. cbn [mt_mom mt_ograd] in Eo.
    assert (Sog : gfit (o_l (n_output n2)) og).
    { unfold madd, mzip in Eo. cbn [mscal mmap nr nc mk] in Eo. destruct ((nr (mt_ograd t) =? nr (l_grad (o_l (n_output n2)))) && (nc (mt_ograd t) =? nc (l_grad (o_l (n_output n2))))) eqn:Q; [|discriminate]. injection Eo as <-.
      apply pair_eqb in Q as [Q1 Q2]. destruct Go2 as [G3 G4]. split; cbn; congruence. }
    pose proof (acc_loop n2 H2 (mt_mom t) (t_iters (tick (mt_t t))) (mt_hgrads t) 0 ls2) as AL.
    assert (GH : forall i, net_gethidden n2 H2 (0 + i) = match nth_error ls2 i with Some l => Ok l | None => Undef OutOfBounds end) by (intros i; apply gethidden_at, L2).
    specialize (AL GH). pose proof (xmom_hidden_ref (mt_mom t) (t_iters (tick (mt_t t))) n2 H2 (mt_hgrads t) 0) as XR.
    apply throw_in in E as [(hg & E & X)|(hg & [] & E3 & E)].
    { injection X as -> -> ->. repeat split. left. exists n0, H0. split; [exact Ed|]. split; [exact MT0|]. split; [exact U2|]. intros (lsm & Lm & F1 & F2). exfalso.
      pose proof (fg_throw _ _ _ _ XR E) as Y. rewrite Y in AL.
      rewrite (hidden_layers_dense n H ls (proj2 L)) in Lm. injection Lm as <-.
      assert (EW : Forall2 (fun l l2 : layer => l_W l2 = l_W l) ls ls2).
      { destruct U2 as (SC & _). destruct (same_config_dense _ _ _ _ SC) as (k0 & k2 & D0 & D2 & FC & _). pose proof (hl_inj _ _ _ _ (hidden_layers_dense n0 H0 ls0 (proj2 L0)) D0). subst k0.
        pose proof (hl_inj _ _ _ _ (hidden_layers_dense n2 H2 ls2 (proj2 L2)) D2). subst k2. clear -R0 FC. revert ls2 FC. induction R0 as [|l l0 ls ls0 O1 R0 IH]; intros ls2 FC; inversion FC as [|u v us vs (Q1 & _) FC']; subst; constructor; auto.
        rewrite Q1, O1. reflexivity. }
      assert (CC : compare (map size (mt_hgrads t)) (map (fun l : layer => size (l_grad l)) ls2) = Ok tt).
      { clear -F1 EW G2. revert ls2 EW G2. induction F1 as [|l g ls gs [Q1 Q2] F1 IH]; intros ls2 EW G2; inversion EW as [|u v us vs W EW']; subst; [reflexivity|]. inversion G2 as [|u2 v2 [G3 G4] G2']; subst.
        cbn [map compare size fst snd]. rewrite G3, G4, W, Q1, Q2, !Nat.eqb_refl. cbn [andb]. auto. }
      rewrite CC in AL. destruct AL as (hg' & AL & _). discriminate. }
    exfalso. pose proof (fg_ok _ _ _ _ _ XR E3) as Y. cbn [st] in Y. rewrite Y in AL. cbn [mt_ograd mt_hgrads] in E.
    apply throw_in in E as [(s3 & E & X)|([n3 H3] & a3 & _ & E)]; [|discriminate]. pose proof (fg_throw _ _ _ _ (xnet_update_with_ref n2 H2 og hg) E) as Z.
    destruct (compare (map size (mt_hgrads t)) (map (fun l : layer => size (l_grad l)) ls2)) as [[]|u| |]; [| |contradiction|discriminate].
    + destruct AL as (hg' & F1 & F2). injection F1 as <-. rewrite (net_update_with_ok n2 H2 ls2 og hg L2 Sog (gfit_of_grad _ _ G2 F2)) in Z. discriminate.
    + destruct AL as [_ [AL|(hg' & F1 & F2 & F3)]]; [discriminate|]. injection F1 as <-. unfold net_update_with, output_update_with in Z. rewrite update_with_ok in Z by apply Sog. cbn [bind] in Z.
      assert (X3 : foldM (upd_step hg) (combine (seq 0 (length (n_hidden n2))) (n_hidden n2)) H2 = Undef OutOfBounds).
      { apply (short_update (n_hidden n2) ls2 hg [] H2); [apply L2|apply L2|assumption|]. apply gfit_of_grad; [apply Forall_firstn|]; assumption. }
      unfold upd_step in X3. rewrite X3 in Z. discriminate.
  - pose proof (fg_ok _ _ _ _ _ (xmomentum_feeddata_ref junk wreck t n H x y) E1) as R. cbn [st] in R. unfold xcost in E. destruct b; [|discriminate]. apply throw_lift in E as [(C & X)|(c & _ & E)]; [|discriminate]. injection X as -> -> ->.
    assert (B : mt_t t1 = tick (mt_t t) /\ mt_mom t1 = mt_mom t).
    { unfold momentum_feeddata in R. repeat (let q := fresh "q" in apply bind_ok in R as (q & _ & R); repeat destruct q as [q ?]). injection R as <- <- <-. auto. }
    destruct B. repeat split; auto.
Qed.

(** After the exception: whatever the program does next with a network left untouched - training, predictions, forward passes -
    it gets the same costs and the trainer and network end up as they would have, had it gone on from the network n, H. *)
Definition same_future {T} (feed : T -> net -> lheap -> mat -> mat -> bool -> res (D * T * net * lheap)) (t : T) (n : net) (H : lheap) (n' : net) (H' : lheap) : Prop :=
  forall cs vs vs1 t1,
    (forall n1 H1, run junk feed cs (vs, t, n, H) = Ok (vs1, t1, n1, H1) -> exists n1' H1', run junk feed cs (vs, t, n', H') = Ok (vs1, t1, n1', H1') /\ same_config n1 H1 n1' H1') /\
    (forall n1' H1', run junk feed cs (vs, t, n', H') = Ok (vs1, t1, n1', H1') -> exists n1 H1, run junk feed cs (vs, t, n, H) = Ok (vs1, t1, n1, H1) /\ same_config n1 H1 n1' H1').
Lemma run_config {T} (feed : T -> net -> lheap -> mat -> mat -> bool -> res (D * T * net * lheap)) : config_only feed ->
  forall cs vs t n H n' H' vs1 t1 n1 H1, same_config n H n' H' -> run junk feed cs (vs, t, n, H) = Ok (vs1, t1, n1, H1) ->
  exists n1' H1', run junk feed cs (vs, t, n', H') = Ok (vs1, t1, n1', H1') /\ same_config n1 H1 n1' H1'.
Proof.
  intros HC cs. unfold run. induction cs as [|c cs IH]; intros vs t n H n' H' vs1 t1 n1 H1 HS E; cbn [foldM] in *; [injection E as <- <- <- <-; eauto|].
  apply bind_ok in E as ([[[vs2 t2] n2] H2] & E1 & E2). destruct c as [x y b|x|x]; cbn [do_call] in E1 |- *.
  - apply bind_ok in E1 as ([[[v t3] n3] H3] & E1 & E3). injection E3 as <- <- <- <-. destruct (HC _ _ _ _ _ _ _ _ _ _ _ _ HS E1) as (n3' & H3' & -> & S'). cbn [bind]. eauto.
  - apply bind_ok in E1 as ([[m n3] H3] & E1 & E3). injection E3 as <- <- <- <-. destruct (predict_conf junk _ _ _ _ _ _ _ _ HS E1) as (n3' & H3' & -> & S' & _). cbn [bind]. eauto.
  - apply bind_ok in E1 as ([[m n3] H3] & E1 & E3). injection E3 as <- <- <- <-. destruct (forward_conf junk _ _ _ _ _ _ _ _ HS E1) as (n3' & H3' & -> & S' & _). cbn [bind]. eauto.
Qed.
Lemma config_future {T} (feed : T -> net -> lheap -> mat -> mat -> bool -> res (D * T * net * lheap)) t n H n' H' : config_only feed -> untouched n H n' H' -> same_future feed t n H n' H'.
Proof.
  intros HC (HS & _) cs vs vs1 t1. split; intros u v E; [eapply run_config; eauto|].
  destruct (run_config feed HC _ _ _ _ _ _ _ _ _ _ _ (same_config_sym _ _ _ _ HS) E) as (n1 & H1 & E1 & S1). eauto using same_config_sym.
Qed.
Theorem C71_future : forall n H n' H', untouched n H n' H' ->
  (forall t, same_future (feeddata_cost junk) t n H n' H') /\ (forall t, same_future (sgd_feeddata_cost junk) t n H n' H') /\
  (forall t, same_future (batch_feeddata_cost junk) t n H n' H') /\ (forall t, same_future (momentum_feeddata_cost junk) t n H n' H').
Proof. intros n H n' H' U. split; [|split; [|split]]; intros t; apply config_future; auto using trainer_config, sgd_config, batch_config, mom_config. Qed.

(** The plain case: a Trainer with no decay due, no cost asked for.  A call that throws does nothing but advance the
    trainer's counter. *)
Theorem C71_retry : forall t n H x y t' n' H', dense_hidden n H -> t_usedecay t && (t_iters t + 1 =? t_step t)%Z = false ->
  xfeeddata_cost t n H x y false = XThrow (t', n', H') -> t' = tick t /\ untouched n H n' H' /\ same_future (feeddata_cost junk) (tick t) n H n' H'.
Proof.
  intros t n H x y t' n' H' Hd Hn E. destruct (C71_trainer _ _ _ _ _ _ _ _ _ Hd E) as (-> & n0 & H0 & Ed & [(_ & U)|(X & _)]); [|discriminate].
  unfold decay in Ed. cbn [tick t_iters t_step t_usedecay] in Ed. rewrite Hn in Ed. injection Ed as <- <-. split; [reflexivity|]. split; [exact U|]. apply C71_future, U.
Qed.
End Generic.

(** ** Examples *)
(** The output weights after a call, with the trainer's counter and whether it threw. *)
Definition after {T A} (it : T -> Z) (m : xr (T * net Zdt * lheap Zdt) A) : option (bool * Z * list Z) :=
  match m with XOk (t, n, _) _ => Some (false, it t, el (l_W (o_l (n_output n)))) | XThrow (t, n, _) => Some (true, it t, el (l_W (o_l (n_output n)))) | _ => None end.
Definition exw (h : hlayer Zdt) : hlayer Zdt := h.
(** Two samples with one label: Trainer learns nothing, SGDTrainer learns the first row, and both throw. *)
Example C71_example_trainer : after t_iters (xfeeddata_cost (D := Zdt) exj exw trainer_new exn exH exx (zm 1 1 [5%Z]) false) = Some (true, 1%Z, el (l_W (o_l exo))).
Proof. vm_compute. reflexivity. Qed.
Example C71_example_sgd :
  after t_iters (xsgd_feeddata_cost (D := Zdt) exj exw trainer_new exn exH exx (zm 1 1 [5%Z]) false) =
    match sgd_rows (D := Zdt) exj exn exH exx (zm 1 1 [5%Z]) [0] with Ok (n, _) => Some (true, 1%Z, el (l_W (o_l (n_output n)))) | _ => None end /\
  (match sgd_rows (D := Zdt) exj exn exH exx (zm 1 1 [5%Z]) [0] with Ok (n, _) => Some (true, 1%Z, el (l_W (o_l (n_output n)))) | _ => None end <> Some (true, 1%Z, el (l_W (o_l exo)))).
Proof. split; vm_compute; [reflexivity|discriminate]. Qed.
(** Four samples in batches of two, with labels for the first two: the first batch is learned, then the call throws. *)
Example C71_example_batch :
  match after (fun t => t_iters (bt_t t)) (xbatch_feeddata_cost (D := Zdt) exj exw (batch_new 2) exn exH (zm 4 1 [1; 2; 1; 2]%Z) exy false) with
  | Some (thrown, it, w) => thrown = true /\ it = 1%Z /\ w <> el (l_W (o_l exo)) | None => False end.
Proof. vm_compute. repeat split; discriminate. Qed.
(** A MomentumTrainer given only one label for two samples: nothing happens to the weights or the accumulators. *)
Example C71_example_momentum :
  match momentum_new (D := Zdt) 1%Z exn exH with
  | Ok t => match xmomentum_feeddata_cost (D := Zdt) exj exw t exn exH exx (zm 1 1 [5%Z]) false with
            | XThrow (t', n', _) => mt_ograd t' = mt_ograd t /\ mt_hgrads t' = mt_hgrads t /\ el (l_W (o_l (n_output n'))) = el (l_W (o_l exo)) | _ => False end
  | _ => False end.
Proof. vm_compute. repeat split; reflexivity. Qed.
(** All hypotheses of the C71 theorems. *)
Example C71_example_hyps : dense_hidden (D := Zdt) exn exH /\
  (exists n' H', xnet_forward (D := Zdt) exj exw exn exH (zm 1 2 [1; 2]%Z) = XThrow (n', H')) /\
  (exists n' H', xfeeddata_cost (D := Zdt) exj exw trainer_new exn exH exx (zm 1 1 [5%Z]) false = XThrow (tick trainer_new, n', H')) /\
  (exists t' n' H', xbatch_feeddata_cost (D := Zdt) exj exw (batch_new 2) exn exH (zm 4 1 [1; 2; 1; 2]%Z) (zm 4 1 [1; 2; 1; 2]%Z) true = XThrow (t', n', H')).
Proof.
  split; [split; [repeat constructor; intros []|intros p [<-|[]]; eexists; reflexivity]|].
  split; [|split].
  - destruct (xnet_forward exj exw exn exH (zm 1 2 [1%Z; 2%Z])) as [s a|[n H]| |u] eqn:E; [exfalso|eauto|exfalso|exfalso]; apply (f_equal (fun m => match m with XThrow _ => true | _ => false end)) in E; vm_compute in E; discriminate.
  - destruct (xfeeddata_cost exj exw trainer_new exn exH exx (zm 1 1 [5%Z]) false) as [s a|[[t n] H]| |u] eqn:E; [exfalso| |exfalso|exfalso]; try (apply (f_equal (fun m => match m with XThrow _ => true | _ => false end)) in E; vm_compute in E; discriminate).
    assert (X : dense_hidden (D := Zdt) exn exH) by (split; [repeat constructor; intros []|intros p [<-|[]]; eexists; reflexivity]). destruct (C71_trainer exj exw _ _ _ _ _ _ _ _ _ X E) as [-> _]. eauto.
  - destruct (xbatch_feeddata_cost exj exw (batch_new 2) exn exH (zm 4 1 [1%Z; 2%Z; 1%Z; 2%Z]) (zm 4 1 [1%Z; 2%Z; 1%Z; 2%Z]) true) as [s a|[[t n] H]| |u] eqn:E; [exfalso|eauto|exfalso|exfalso]; apply (f_equal (fun m => match m with XThrow _ => true | _ => false end)) in E; vm_compute in E; discriminate.
Qed.
Print Assumptions C71_refines. Print Assumptions C71_passes. Print Assumptions C71_trainer. Print Assumptions C71_sgd. Print Assumptions C71_batch. Print Assumptions C71_momentum. Print Assumptions C71_future. Print Assumptions C71_retry.

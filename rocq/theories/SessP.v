(** SessP.v - lemmas: every call keeps the sizes of all weight matrices and the cost functions. *)
From Verif Require Import Base Mat Act Layer Conv Misc Net NetP Trainer TrainP TrainP2 P_Train P_Batch P_Mom World P_World Session.
From Coq Require Import Arith.
Local Open Scope nat_scope.

Section SessP.
Context {D : dtype}.
Notation mat := (mat D).
Notation layer := (layer D).
Notation net := (net D).
Notation lheap := (lheap D).
Context (draw : D -> nat -> D) (junk : nat -> D).

Definition dims (l l' : layer) : Prop := nr (l_W l') = nr (l_W l) /\ nc (l_W l') = nc (l_W l).
Definition sim (h h' : hlayer D) : Prop :=
  match h, h' with HDense l, HDense l' => dims l l' | HDense _, _ => False | _, HDense _ => False | _, _ => True end.
Definition simH (H K : lheap) : Prop := Forall2 sim H K.
Lemma dims_refl l : dims l l. Proof. split; reflexivity. Qed.
Lemma dims_trans a b c : dims a b -> dims b c -> dims a c. Proof. unfold dims. intuition congruence. Qed.
Lemma sim_refl h : sim h h. Proof. destruct h; cbn; auto using dims_refl. Qed.
Lemma sim_trans a b c : sim a b -> sim b c -> sim a c.
Proof. destruct a, b, c; cbn; try tauto; eauto using dims_trans. Qed.
Lemma simH_refl H : simH H H. Proof. induction H; constructor; auto using sim_refl. Qed.
Lemma simH_trans : forall A B C, simH A B -> simH B C -> simH A C.
Proof. intros A B C AB. revert C. induction AB; intros C BC; inversion BC; subst; constructor; eauto using sim_trans. apply IHAB; assumption. Qed.
Lemma simH_upd : forall H p h h', nth_error H p = Some h -> sim h h' -> simH H (upd p h' H).
Proof.
  induction H as [|a H IH]; intros [|p] h h' E S; cbn in *; try discriminate; constructor; auto using sim_refl.
  - injection E as ->. assumption.
  - apply simH_refl.
  - eapply IH; eauto.
Qed.
Lemma simH_nth : forall H K, simH H K -> forall p l, nth_error H p = Some (HDense l) -> exists l', nth_error K p = Some (HDense l') /\ dims l l'.
Proof.
  intros H K S. induction S as [|a b H K E S IH]; intros [|p] l Ep; cbn in *; try discriminate; eauto.
  injection Ep as ->. destruct b; cbn in E; try contradiction. eauto.
Qed.
Lemma lget_nth (H : lheap) p h : lget H p = Ok h -> nth_error H p = Some h.
Proof. unfold lget. destruct (nth_error H p); congruence. Qed.

Lemma forward_sim h x a h' : h_forward junk h x = Ok (a, h') -> sim h h'.
Proof.
  destruct h; cbn [h_forward]; intros E; apply bind_ok in E as ([b l'] & E1 & E); injection E as _ <-; cbn; auto.
  apply forward_inv in E1 as (_ & _ & ->). split; reflexivity.
Qed.
Lemma backprop_sim h d a h' : h_backprop junk h d = Ok (a, h') -> sim h h'.
Proof.
  destruct h; cbn [h_backprop]; intros E; apply bind_ok in E as ([b l'] & E1 & E); injection E as _ <-; cbn; auto.
  unfold backprop in E1. repeat (apply bind_ok in E1 as (? & _ & E1)). injection E1 as _ <-. split; reflexivity.
Qed.
Lemma updw_dims (l : layer) g l' : update_with l g = Ok l' -> dims l l'.
Proof. intros E. apply update_with_inv in E as (_ & _ & ->). split; reflexivity. Qed.
Lemma update_sim h g h' : h_update_with h g = Ok h' -> sim h h'.
Proof.
  destruct h; cbn [h_update_with]; intros E; try (injection E as <-; cbn; auto); apply bind_ok in E as (l' & E1 & E); injection E as <-; cbn; auto. eapply updw_dims; eauto.
Qed.

(** What a network keeps. *)
Definition keep (n : net) (H : lheap) (n' : net) (H' : lheap) : Prop :=
  n_hidden n' = n_hidden n /\ dims (o_l (n_output n)) (o_l (n_output n')) /\ kc n n' /\ simH H H'.
Lemma keep_refl n H : keep n H n H.
Proof. repeat split. apply simH_refl. Qed.
Lemma keep_trans n H n1 H1 n2 H2 : keep n H n1 H1 -> keep n1 H1 n2 H2 -> keep n H n2 H2.
Proof.
  intros (A1 & A2 & A3 & A4) (B1 & B2 & B3 & B4). split; [congruence|]. split; [eauto using dims_trans|]. split; [eauto using kc_trans|]. eauto using simH_trans.
Qed.

Lemma hf_sim ids : forall x (H : lheap) a H', hidden_forward junk ids x H = Ok (a, H') -> simH H H'.
Proof.
  induction ids as [|p ids IH]; intros x H a H' E; cbn [hidden_forward] in E.
  - injection E as _ <-. apply simH_refl.
  - apply bind_ok in E as (h & E1 & E). apply bind_ok in E as ([b h'] & E2 & E). apply lget_nth in E1. apply forward_sim in E2. eapply simH_trans; [eapply simH_upd; eauto|]. eauto.
Qed.
Lemma hb_sim ids : forall d (H : lheap) H', hidden_backprop junk ids d H = Ok H' -> simH H H'.
Proof.
  induction ids as [|p ids IH]; intros x H H' E; cbn [hidden_backprop] in E.
  - injection E as <-. apply simH_refl.
  - apply bind_ok in E as (h & E1 & E). apply bind_ok in E as ([b h'] & E2 & E). apply lget_nth in E1. apply backprop_sim in E2. eapply simH_trans; [eapply simH_upd; eauto|]. eauto.
Qed.
Lemma foldM_sim {X} (f : lheap -> X -> res lheap) l : (forall H x H', f H x = Ok H' -> simH H H') -> forall H H', foldM f l H = Ok H' -> simH H H'.
Proof.
  intros F. induction l as [|x l IH]; intros H H' E; cbn [foldM] in E; [injection E as <-; apply simH_refl|]. apply bind_ok in E as (K & E1 & E). eauto using simH_trans.
Qed.

Lemma fwd_keep n H x a n' H' : net_forward junk n H x = Ok (a, n', H') -> keep n H n' H'.
Proof.
  intros E. pose proof (forward_kc _ _ _ _ _ _ _ E) as [K _]. unfold net_forward in E. destruct (input_forward (n_input n) x) as [cur i']. apply bind_ok in E as ([cur' K'] & E1 & E).
  apply bind_ok in E as ([r o'] & E2 & E). injection E as _ <- <-. split; [reflexivity|]. split; [|split; [assumption|eapply hf_sim; eauto]].
  apply bind_ok in E2 as ([b l] & E2 & E3). injection E3 as _ <-. apply forward_inv in E2 as (_ & _ & ->). split; reflexivity.
Qed.
Lemma back_keep n H y n' H' : net_backprop junk n H y = Ok (n', H') -> keep n H n' H'.
Proof.
  intros E. pose proof (backprop_kc _ _ _ _ _ _ E) as [K _]. unfold net_backprop in E. apply bind_ok in E as ([d o'] & E1 & E). apply bind_ok in E as (K' & E2 & E). injection E as <- <-.
  split; [reflexivity|]. split; [|split; [assumption|eapply hb_sim; eauto]]. unfold output_backprop in E1. repeat (apply bind_ok in E1 as (? & _ & E1)). injection E1 as _ <-. split; reflexivity.
Qed.
Lemma upd_keep n H n' H' : net_update n H = Ok (n', H') -> keep n H n' H'.
Proof.
  unfold net_update. intros E. apply bind_ok in E as (o' & E1 & E). apply bind_ok in E as (K' & E2 & E). injection E as <- <-. unfold output_update in E1. apply bind_ok in E1 as (l & E1 & E3). injection E3 as <-.
  split; [reflexivity|]. split; [eapply updw_dims; exact E1|]. split; [split; reflexivity|]. eapply foldM_sim; [|exact E2]. cbn beta. intros K p K2 EK. apply bind_ok in EK as (h & EL & EK). apply bind_ok in EK as (h' & EU & EK).
  injection EK as <-. eapply simH_upd; [apply lget_nth; eauto|eapply update_sim; exact EU].
Qed.
Lemma updw_keep n H og hg n' H' : net_update_with n H og hg = Ok (n', H') -> keep n H n' H'.
Proof.
  unfold net_update_with. intros E. apply bind_ok in E as (o' & E1 & E). apply bind_ok in E as (K' & E2 & E). injection E as <- <-. unfold output_update_with in E1. apply bind_ok in E1 as (l & E1 & E3). injection E3 as <-.
  split; [reflexivity|]. split; [eapply updw_dims; exact E1|]. split; [split; reflexivity|]. eapply foldM_sim; [|exact E2]. cbn beta. intros K p K2 EK. apply bind_ok in EK as (h & EL & EK). destruct (nth_error hg (fst p)); [|discriminate]. apply bind_ok in EK as (h' & EU & EK).
  injection EK as <-. eapply simH_upd; [apply lget_nth; eauto|eapply update_sim; exact EU].
Qed.
Lemma setl_keep n H r n' H' : net_setlrate n H r = Ok (n', H') -> keep n H n' H'.
Proof.
  unfold net_setlrate. intros E. apply bind_ok in E as (K' & E2 & E). injection E as <- <-. split; [reflexivity|]. split; [split; reflexivity|]. split; [split; reflexivity|].
  eapply foldM_sim; [|exact E2]. cbn beta. intros K p K2 EK. apply bind_ok in EK as (h & EL & EK). injection EK as <-. eapply simH_upd; [apply lget_nth; eauto|]. destruct h; cbn; auto. split; reflexivity.
Qed.
Lemma predict_keep n H x a n' H' : net_predict junk n H x = Ok (a, n', H') -> keep n H n' H'.
Proof.
  unfold net_predict. intros E. apply bind_ok in E as ([[r n1] H1] & E1 & E). apply bind_ok in E as (m & _ & E). injection E as _ <- <-. apply fwd_keep in E1. exact E1.
Qed.
Lemma decay_keep (t : trainer D) n H n' H' : decay t n H = Ok (n', H') -> keep n H n' H'.
Proof. unfold decay. destruct (_ && _); intros E; [eapply setl_keep; eauto|]. injection E as <- <-. apply keep_refl. Qed.
Lemma step_keep n H x y n' H' : train_step junk n H x y = Ok (n', H') -> keep n H n' H'.
Proof.
  unfold train_step. intros E. apply bind_ok in E as ([[r n1] H1] & E1 & E). apply bind_ok in E as ([n2 H2] & E2 & E). eapply keep_trans; [eapply fwd_keep; eauto|]. eapply keep_trans; [eapply back_keep; eauto|]. eapply upd_keep; eauto.
Qed.
Lemma foldM_keep {A X} (f : A * net * lheap -> X -> res (A * net * lheap)) l :
  (forall a n H x b m K, f (a, n, H) x = Ok (b, m, K) -> keep n H m K) -> forall a n H b m K, foldM f l (a, n, H) = Ok (b, m, K) -> keep n H m K.
Proof.
  intros F. induction l as [|x l IH]; intros a n H b m K E; cbn [foldM] in E; [injection E as _ <- <-; apply keep_refl|]. apply bind_ok in E as ([[a1 n1] H1] & E1 & E). eauto using keep_trans.
Qed.
Lemma foldM_keep2 {X} (f : net * lheap -> X -> res (net * lheap)) l :
  (forall n H x m K, f (n, H) x = Ok (m, K) -> keep n H m K) -> forall n H m K, foldM f l (n, H) = Ok (m, K) -> keep n H m K.
Proof.
  intros F. induction l as [|x l IH]; intros n H m K E; cbn [foldM] in E; [injection E as <- <-; apply keep_refl|]. apply bind_ok in E as ([n1 H1] & E1 & E). eauto using keep_trans.
Qed.
Lemma plain_keep (t : trainer D) n H x y c v t' n' H' : feeddata_cost junk t n H x y c = Ok (v, t', n', H') -> keep n H n' H'.
Proof.
  unfold feeddata_cost, feeddata. intros E. apply bind_ok in E as ([[t1 n1] H1] & E1 & E). apply bind_ok in E1 as ([n2 H2] & E2 & E1). apply bind_ok in E1 as ([n3 H3] & E3 & E1). injection E1 as _ <- <-.
  assert (n' = n3 /\ H' = H3) as [-> ->] by (destruct c; [apply bind_ok in E as (? & _ & E)|]; injection E as _ _ <- <-; auto). eapply keep_trans; [eapply decay_keep; eauto|eapply step_keep; eauto].
Qed.
Lemma sgd_keep (t : trainer D) n H x y c v t' n' H' : sgd_feeddata_cost junk t n H x y c = Ok (v, t', n', H') -> keep n H n' H'.
Proof.
  unfold sgd_feeddata_cost, sgd_feeddata, sgd_rows. intros E. apply bind_ok in E as ([[t1 n1] H1] & E1 & E). apply bind_ok in E1 as ([n2 H2] & E2 & E1). apply bind_ok in E1 as ([n3 H3] & E3 & E1). injection E1 as _ <- <-.
  apply bind_ok in E as ([[cc n4] H4] & E4 & E). injection E as _ _ <- <-. eapply keep_trans; [eapply decay_keep; eauto|]. eapply keep_trans.
  - eapply foldM_keep2; [|exact E3]. cbn beta iota. intros m K i m' K' EE. apply sgd_row_inv in EE as (xi & yi & _ & _ & EE). eapply step_keep; eauto.
  - eapply foldM_keep; [|exact E4]. cbn beta iota. intros a m K i b m' K' EE. destruct c; [|injection EE as _ <- <-; apply keep_refl]. apply bind_ok in EE as (xi & _ & EE). apply bind_ok in EE as ([[r m1] K1] & EP & EE).
    apply bind_ok in EE as (yi & _ & EE). apply bind_ok in EE as (ci & _ & EE). injection EE as _ <- <-. eapply predict_keep; eauto.
Qed.
Lemma batch_keep (t : btrainer D) n H x y c v t' n' H' : batch_feeddata_cost junk t n H x y c = Ok (v, t', n', H') -> keep n H n' H'.
Proof.
  unfold batch_feeddata_cost, batch_feeddata, batch_loop. intros E. apply bind_ok in E as ([[t1 n1] H1] & E1 & E). apply bind_ok in E as (cc & _ & E). injection E as _ _ <- <-.
  apply bind_ok in E1 as (tx & _ & E1). apply bind_ok in E1 as (ty & _ & E1). apply bind_ok in E1 as ([[t2 n2] H2] & E2 & E1). apply bind_ok in E1 as ([n3 H3] & E3 & E1). injection E1 as _ <- <-.
  eapply keep_trans; [|eapply decay_keep; eauto]. eapply foldM_keep; [|exact E2]. cbn beta iota. intros a m K i b m' K' EE. apply bind_ok in EE as (xb & _ & EE). apply bind_ok in EE as ([[r m1] K1] & EP & EE).
  apply bind_ok in EE as (yb & _ & EE). apply bind_ok in EE as ([m2 K2] & EB & EE). apply bind_ok in EE as ([m3 K3] & EU & EE). injection EE as _ <- <-.
  eapply keep_trans; [eapply fwd_keep; eauto|]. eapply keep_trans; [eapply back_keep; eauto|]. eapply upd_keep; eauto.
Qed.
Lemma mom_keep (t : mtrainer D) n H x y c v t' n' H' : momentum_feeddata_cost junk t n H x y c = Ok (v, t', n', H') -> keep n H n' H'.
Proof.
  unfold momentum_feeddata_cost, momentum_feeddata. intros E. apply bind_ok in E as ([[t1 n1] H1] & E1 & E). apply bind_ok in E1 as ([n2 H2] & E2 & E1). apply bind_ok in E1 as ([[r n3] H3] & E3 & E1).
  apply bind_ok in E1 as ([n4 H4] & E4 & E1). apply bind_ok in E1 as (og & _ & E1). apply bind_ok in E1 as (hg & _ & E1). apply bind_ok in E1 as ([n5 H5] & E5 & E1). injection E1 as _ <- <-.
  assert (n' = n5 /\ H' = H5) as [-> ->] by (destruct c; [apply bind_ok in E as (? & _ & E)|]; injection E as _ _ <- <-; auto).
  eapply keep_trans; [eapply decay_keep; eauto|]. eapply keep_trans; [eapply fwd_keep; eauto|]. eapply keep_trans; [eapply back_keep; eauto|eapply updw_keep; eauto].
Qed.
Lemma feed_on_keep kd n H x y c v kd' n' H' : feed_on junk kd n H x y c = Ok (v, kd', n', H') -> keep n H n' H'.
Proof.
  destruct kd as [t|t|t bx by_ ob|m]; cbn [feed_on]; intros E; [| |apply bind_ok in E as (b & _ & E)|]; apply bind_ok in E as ([[[v1 t1] n1] H1] & E1 & E); injection E as _ _ <- <-;
    eauto using plain_keep, sgd_keep, batch_keep, mom_keep.
Qed.

(** Consequences for networks that look at the same layer objects. *)
Lemma dense_sim (H K : lheap) ids ls : simH H K -> dense_at H ids ls -> exists ls', dense_at K ids ls' /\ Forall2 dims ls ls'.
Proof.
  intros S Hd. unfold dense_at in *. induction Hd as [|p l ids ls E Hd IH]; [exists []; split; constructor|]. destruct IH as (ls' & A & B).
  destruct (simH_nth _ _ S _ _ E) as (l' & E' & D'). exists (l' :: ls'). split; constructor; auto.
Qed.
Lemma fits_dims ls ls' : Forall2 dims ls ls' -> forall p q, fits p ls q -> fits p ls' q.
Proof.
  induction 1 as [|l l' ls ls' [D1 D2] F IH]; intros p q Hf; cbn [fits] in *; [assumption|]. destruct Hf as (A & B & C). rewrite D1, D2. auto.
Qed.
Lemma well_sim n H n' K p c : well_sized n H p c -> n_hidden n' = n_hidden n -> dims (o_l (n_output n)) (o_l (n_output n')) -> kc n n' -> simH H K -> well_sized n' K p c.
Proof.
  intros W Hh [D1 D2] Kc S. apply (well_kc n H n' K p c W Kc). apply well_fits in W as ((ls & [Hnd Hd] & q & A1 & A2 & A3 & A4 & A5) & B & C).
  destruct (dense_sim H K _ ls S Hd) as (ls' & Hd' & DD). exists ls'. split; [split; rewrite Hh; assumption|]. exists q. split; [eauto using fits_dims|]. split; [assumption|]. split; [congruence|]. split; [congruence|].
  destruct Kc as [_ Kc]. rewrite Kc. assumption.
Qed.
(** A momentum trainer's accumulators have the sizes of the network's layers. *)
Definition mom_fits (n : net) (H : lheap) (m : mtrainer D) : Prop :=
  exists ls, hidden_layers n H = Ok ls /\ Forall2 like ls (mt_hgrads m) /\ like (o_l (n_output n)) (mt_ograd m).
Lemma like_dims ls ls' : Forall2 dims ls ls' -> forall gs, Forall2 like ls gs -> Forall2 like ls' gs.
Proof.
  induction 1 as [|l l' ls ls' [D1 D2] F IH]; intros gs Hl; inversion Hl as [|? ? ? ? [L1 L2] ? ]; subst; constructor; auto. split; congruence.
Qed.
Lemma mom_sim n H n' K m : dense_hidden n H -> mom_fits n H m -> n_hidden n' = n_hidden n -> dims (o_l (n_output n)) (o_l (n_output n')) -> simH H K -> mom_fits n' K m.
Proof.
  intros Hdh (ls & E & F & G) Hh [D1 D2] S. destruct (dense_ls n H Hdh) as (ls0 & Hnd & Hd). rewrite (hidden_layers_dense n H ls0 Hd) in E. injection E as ->.
  destruct (dense_sim H K _ ls S Hd) as (ls' & Hd' & DD). exists ls'. split; [apply hidden_layers_dense; rewrite Hh; assumption|]. split; [eauto using like_dims|]. destruct G. split; congruence.
Qed.
End SessP.

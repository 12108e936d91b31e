(** P_Decay.v - C36 and C37: when learning-rate decay fires, over every history of calls. *)
From Verif Require Import Base Mat Act Layer Conv Misc Net NetP Trainer.
From Coq Require Import Arith.
Local Open Scope Z_scope.

Section Decay.
Context {D : dtype} (junk : nat -> D).
Notation mat := (mat D).
Notation layer := (layer D).

(** ** Nothing but setlrate changes a learning rate *)
Definition rate (h : hlayer D) : D := l_lrate (h_base h).
Definition keeps (n : net D) (H : lheap D) (n' : net D) (H' : lheap D) : Prop :=
  n_hidden n' = n_hidden n /\ l_lrate (n_input n') = l_lrate (n_input n) /\
  l_lrate (o_l (n_output n')) = l_lrate (o_l (n_output n)) /\
  (forall p, option_map rate (nth_error H' p) = option_map rate (nth_error H p)).
Lemma keeps_refl n H : keeps n H n H.
Proof. repeat split. Qed.
Lemma keeps_trans n H n1 H1 n2 H2 : keeps n H n1 H1 -> keeps n1 H1 n2 H2 -> keeps n H n2 H2.
Proof. intros (A1 & A2 & A3 & A4) (B1 & B2 & B3 & B4). split; [congruence|]. split; [congruence|]. split; [congruence|]. intros p. now rewrite B4, A4. Qed.

Definition keepsH (H H' : lheap D) : Prop := forall p, option_map rate (nth_error H' p) = option_map rate (nth_error H p).
Lemma keepsH_upd H p h h' : nth_error H p = Some h -> rate h' = rate h -> keepsH H (upd p h' H).
Proof. intros Hp Hr q. rewrite nth_error_upd. destruct (Nat.eqb_spec q p) as [->|]; [|reflexivity]. rewrite Hp. cbn. congruence. Qed.
Lemma keepsH_trans H H1 H2 : keepsH H H1 -> keepsH H1 H2 -> keepsH H H2.
Proof. intros A B p. now rewrite B, A. Qed.
Lemma lget_some H p (h : hlayer D) : lget H p = Ok h -> nth_error H p = Some h.
Proof. unfold lget. destruct (nth_error H p); [|discriminate]. intros E. now injection E as ->. Qed.

Lemma forwardprop_conf (l : layer) x a l' : forwardprop l x = Ok (a, l') -> l_lrate l' = l_lrate l.
Proof. intros H. apply forward_inv in H as (_ & _ & ->). reflexivity. Qed.
Lemma h_forward_rate h x a h' : h_forward junk h x = Ok (a, h') -> rate h' = rate h.
Proof.
  destruct h as [l|c|p|n|s]; cbn [h_forward]; intros H; apply bind_ok in H as ([a1 l1] & H1 & H); injection H as <- <-; unfold rate; cbn [h_base].
  - now apply forwardprop_conf in H1.
  - unfold conv_forward in H1. repeat (apply bind_ok in H1 as (? & _ & H1)). destruct x3. injection H1 as <- <-. reflexivity.
  - unfold maxpool_forward in H1. do 5 (apply bind_ok in H1 as (? & _ & H1)). destruct x4 as [[? ?] ?]. injection H1 as <- <-. reflexivity.
  - unfold norm_forward in H1. do 3 (apply bind_ok in H1 as (? & _ & H1)). injection H1 as <- <-. reflexivity.
  - unfold soft_forward in H1. apply bind_ok in H1 as (? & _ & H1). injection H1 as <- <-. reflexivity.
Qed.
Lemma h_backprop_rate h x a h' : h_backprop junk h x = Ok (a, h') -> rate h' = rate h.
Proof.
  destruct h as [l|c|p|n|s]; cbn [h_backprop]; intros H; apply bind_ok in H as ([a1 l1] & H1 & H); injection H as <- <-; unfold rate; cbn [h_base].
  - apply backprop_inv in H1 as (_ & _ & ->). reflexivity.
  - unfold conv_backprop in H1. do 3 (apply bind_ok in H1 as (? & _ & H1)). destruct x2. injection H1 as <- <-. reflexivity.
  - injection H1 as <- <-. reflexivity.
  - unfold norm_backprop in H1. apply bind_ok in H1 as (? & _ & H1). injection H1 as <- <-. reflexivity.
  - unfold soft_backprop in H1. apply bind_ok in H1 as (? & _ & H1). injection H1 as <- <-. reflexivity.
Qed.
Lemma h_update_with_rate h g h' : h_update_with h g = Ok h' -> rate h' = rate h.
Proof.
  assert (U : forall (l l' : layer), update_with l g = Ok l' -> l_lrate l' = l_lrate l).
  { unfold update_with. intros l l' H. apply bind_ok in H as (w & _ & H). injection H as <-. reflexivity. }
  destruct h as [l|c|p|n|s]; cbn [h_update_with]; intros H; try (injection H as <-; reflexivity);
    apply bind_ok in H as (l1 & H1 & H); injection H as <-; apply U in H1; unfold rate; cbn; assumption.
Qed.

Lemma hidden_forward_rate ids : forall x H a H', hidden_forward junk ids x H = Ok (a, H') -> keepsH H H'.
Proof.
  induction ids as [|p ids IH]; intros x H a H' E; cbn [hidden_forward] in E; [injection E as <- <-; intros p; reflexivity|].
  apply bind_ok in E as (h & Hg & E). apply bind_ok in E as ([b h'] & Hh & E). apply lget_some in Hg.
  eapply keepsH_trans; [eapply keepsH_upd; [exact Hg|eapply h_forward_rate; exact Hh]|eapply IH; exact E].
Qed.
Lemma hidden_backprop_rate ids : forall d H H', hidden_backprop junk ids d H = Ok H' -> keepsH H H'.
Proof.
  induction ids as [|p ids IH]; intros d H H' E; cbn [hidden_backprop] in E; [injection E as <-; intros p; reflexivity|].
  apply bind_ok in E as (h & Hg & E). apply bind_ok in E as ([b h'] & Hh & E). apply lget_some in Hg.
  eapply keepsH_trans; [eapply keepsH_upd; [exact Hg|eapply h_backprop_rate; exact Hh]|eapply IH; exact E].
Qed.
Lemma foldM_rate {A} (f : lheap D -> A -> res (lheap D)) l : (forall H x H', f H x = Ok H' -> keepsH H H') ->
  forall H H', foldM f l H = Ok H' -> keepsH H H'.
Proof.
  intros Hf. induction l as [|x l IH]; intros H H' E; cbn [foldM] in E; [injection E as <-; intros p; reflexivity|].
  apply bind_ok in E as (H1 & E1 & E). eapply keepsH_trans; eauto.
Qed.

Lemma net_forward_keeps n H x a n' H' : net_forward junk n H x = Ok (a, n', H') -> keeps n H n' H'.
Proof.
  unfold net_forward. cbn [input_forward]. intros E. apply bind_ok in E as ([c H1] & E1 & E). apply bind_ok in E as ([r o'] & E2 & E).
  injection E as -> <- <-. apply out_forward_inv in E2 as (_ & _ & ->). repeat split. apply hidden_forward_rate in E1. exact E1.
Qed.
Lemma net_backprop_keeps n H y n' H' : net_backprop junk n H y = Ok (n', H') -> keeps n H n' H'.
Proof.
  unfold net_backprop. intros E. apply bind_ok in E as ([d o'] & E1 & E). apply bind_ok in E as (H1 & E2 & E).
  injection E as <- <-. apply out_backprop_inv in E1 as (? & _ & _ & _ & _ & _ & _ & ->). repeat split. apply hidden_backprop_rate in E2. exact E2.
Qed.
Lemma output_update_with_rate (o : output D) g o' : output_update_with o g = Ok o' -> l_lrate (o_l o') = l_lrate (o_l o).
Proof.
  unfold output_update_with, update_with. intros H. apply bind_ok in H as (l & H & E). injection E as <-. apply bind_ok in H as (w & _ & H).
  injection H as <-. reflexivity.
Qed.
Lemma net_update_keeps n H n' H' : net_update n H = Ok (n', H') -> keeps n H n' H'.
Proof.
  unfold net_update. intros E. apply bind_ok in E as (o' & E1 & E). apply bind_ok in E as (H1 & E2 & E). injection E as <- <-.
  repeat split. { cbn. apply (output_update_with_rate (n_output n) (l_grad (o_l (n_output n)))). exact E1. }
  revert E2. apply foldM_rate. clear. intros H p H' E. apply bind_ok in E as (h & Hg & E). apply bind_ok in E as (h' & Hh & E). injection E as <-.
  eapply keepsH_upd; [apply lget_some; exact Hg|]. eapply h_update_with_rate. exact Hh.
Qed.
Lemma net_update_with_keeps n H og hg n' H' : net_update_with n H og hg = Ok (n', H') -> keeps n H n' H'.
Proof.
  unfold net_update_with. intros E. apply bind_ok in E as (o' & E1 & E). apply bind_ok in E as (H1 & E2 & E). injection E as <- <-.
  repeat split. { cbn. eapply output_update_with_rate. exact E1. }
  revert E2. apply foldM_rate. clear. intros H p H' E. apply bind_ok in E as (h & Hg & E). destruct (nth_error hg (fst p)); [|discriminate].
  apply bind_ok in E as (h' & Hh & E). injection E as <-. eapply keepsH_upd; [apply lget_some; exact Hg|]. eapply h_update_with_rate. exact Hh.
Qed.
Lemma train_step_keeps n H x y n' H' : train_step junk n H x y = Ok (n', H') -> keeps n H n' H'.
Proof.
  unfold train_step. intros E. apply bind_ok in E as ([[a n1] H1] & E1 & E). apply bind_ok in E as ([n2 H2] & E2 & E).
  eapply keeps_trans; [eapply net_forward_keeps; exact E1|]. eapply keeps_trans; [eapply net_backprop_keeps; exact E2|]. eapply net_update_keeps; exact E.
Qed.
Lemma sgd_rows_keeps x y rows : forall n H n' H', sgd_rows junk n H x y rows = Ok (n', H') -> keeps n H n' H'.
Proof.
  unfold sgd_rows. induction rows as [|i rows IH]; intros n H n' H' E; cbn [foldM] in E; [injection E as <- <-; apply keeps_refl|].
  apply bind_ok in E as ([n1 H1] & E1 & E). apply sgd_row_inv in E1 as (xi & yi & _ & _ & E1).
  eapply keeps_trans; [eapply train_step_keeps; exact E1|]. eapply IH; exact E.
Qed.

(** ** setlrate sets them all *)
Definition rates_are (n : net D) (H : lheap D) (r : D) : Prop :=
  l_lrate (n_input n) = r /\ l_lrate (o_l (n_output n)) = r /\
  forall i l, net_gethidden n H i = Ok l -> l_lrate l = r.
(** rates of (n', H') are those of (n, H) *)
Definition rates_same (n : net D) (H : lheap D) (n' : net D) (H' : lheap D) : Prop :=
  l_lrate (n_input n') = l_lrate (n_input n) /\ l_lrate (o_l (n_output n')) = l_lrate (o_l (n_output n)) /\
  forall i l l', net_gethidden n H i = Ok l -> net_gethidden n' H' i = Ok l' -> l_lrate l' = l_lrate l.

Lemma gethidden_rate n H i l : net_gethidden n H i = Ok l ->
  exists p h, nth_error (n_hidden n) i = Some p /\ nth_error H p = Some h /\ l_lrate l = rate h.
Proof.
  unfold net_gethidden. destruct (nth_error (n_hidden n) i) as [p|]; [|discriminate]. intros E. apply bind_ok in E as (h & Hg & E).
  injection E as <-. apply lget_some in Hg. exists p, h. auto.
Qed.
Lemma keeps_same n H n' H' : keeps n H n' H' -> rates_same n H n' H'.
Proof.
  intros (A1 & A2 & A3 & A4). split; [assumption|]. split; [assumption|]. intros i l l' E E'.
  apply gethidden_rate in E as (p & h & P1 & P2 & ->). apply gethidden_rate in E' as (p' & h' & Q1 & Q2 & ->).
  rewrite A1 in Q1. assert (p' = p) as -> by congruence. specialize (A4 p). rewrite P2, Q2 in A4. cbn in A4. congruence.
Qed.
Lemma keeps_are n H n' H' r : keeps n H n' H' -> rates_are n H r -> rates_are n' H' r.
Proof.
  intros (A1 & A2 & A3 & A4) (B1 & B2 & B3). split; [congruence|]. split; [congruence|]. intros i l' E'.
  apply gethidden_rate in E' as (p' & h' & Q1 & Q2 & ->). rewrite A1 in Q1. specialize (A4 p'). rewrite Q2 in A4.
  destruct (nth_error H p') as [h|] eqn:Eh; [|discriminate]. cbn in A4. injection A4 as ->. specialize (B3 i (layer_copy (h_base h))).
  unfold net_gethidden in B3. rewrite Q1 in B3. unfold lget in B3. rewrite Eh in B3. cbn in B3. apply B3. reflexivity.
Qed.
Lemma setlrate_all n H r n' H' : net_setlrate n H r = Ok (n', H') -> n_hidden n' = n_hidden n /\ rates_are n' H' r.
Proof.
  unfold net_setlrate. intros E. apply bind_ok in E as (H1 & E1 & E). injection E as <- <-. split; [reflexivity|]. split; [reflexivity|]. split; [reflexivity|].
  assert (G : forall ids K K', foldM (fun H p => h <- lget H p ;; Ok (upd p (h_with h (set_lrate (h_base h) r)) H)) ids K = Ok K' ->
     forall q h, nth_error K' q = Some h -> In q ids \/ option_map rate (nth_error K q) = Some r -> rate h = r).
  { induction ids as [|p ids IH]; intros K K' E q h Hq Hin; cbn [foldM] in E.
    - injection E as <-. destruct Hin as [[]|Hin]. rewrite Hq in Hin. cbn in Hin. congruence.
    - apply bind_ok in E as (K1 & E2 & E). apply bind_ok in E2 as (h0 & Hg & E2). injection E2 as <-. apply lget_some in Hg.
      assert (R : rate (h_with h0 (set_lrate (h_base h0) r)) = r) by (destruct h0; reflexivity).
      eapply IH; [exact E|exact Hq|]. destruct Hin as [[->|Hin]|Hin].
      + right. rewrite nth_error_upd, Nat.eqb_refl, Hg. cbn. f_equal. exact R.
      + left. assumption.
      + right. rewrite nth_error_upd. destruct (Nat.eqb_spec q p) as [->|]; [rewrite Hg; cbn; f_equal; exact R|exact Hin]. }
  intros i l E. apply gethidden_rate in E as (p & h & P1 & P2 & ->). eapply G; [exact E1|exact P2|]. left. cbn in P1. eapply nth_error_In; exact P1.
Qed.

(** ** A history of calls *)
(** Every feeddata of the first three trainers is: count the call, maybe decay, then a body that keeps rates. *)
Definition decayed (t : trainer D) : D := dmul (t_r0 t) (dexp (dmul (dneg (t_k t)) (dofZ (t_step t)))).
Definition call_shape (call : trainer D -> net D -> lheap D -> res (trainer D * net D * lheap D)) : Prop :=
  forall t n H t' n' H', call t n H = Ok (t', n', H') ->
    t' = tick t /\ exists n1 H1, decay (tick t) n H = Ok (n1, H1) /\ keeps n1 H1 n' H'.

(** The decay test in one call. *)
Lemma call_rates call t n H t' n' H' : call_shape call -> call t n H = Ok (t', n', H') ->
  t' = tick t /\ n_hidden n' = n_hidden n /\
  if t_usedecay t && (t_iters t + 1 =? t_step t) then rates_are n' H' (decayed t) else keeps n H n' H'.
Proof.
  intros Hs E. destruct (Hs _ _ _ _ _ _ E) as (-> & n1 & H1 & Hd & Hk). split; [reflexivity|].
  unfold decay in Hd. cbn [tick t_usedecay t_iters t_step t_r0 t_k] in Hd. destruct (t_usedecay t && (t_iters t + 1 =? t_step t)) eqn:C.
  - apply andb_true_iff in C as [_ C]. apply Z.eqb_eq in C. rewrite C in Hd. apply setlrate_all in Hd as [Hh Hr].
    split; [destruct Hk as (K & _); congruence|]. eapply keeps_are; [exact Hk|exact Hr].
  - injection Hd as <- <-. split; [apply Hk|assumption].
Qed.

Lemma history_gen {A} (call : A -> trainer D -> net D -> lheap D -> res (trainer D * net D * lheap D)) :
  (forall d, call_shape (call d)) ->
  forall (data : list A) t n H t' n' H', foldM (fun '(t, n, H) d => call d t n H) data (t, n, H) = Ok (t', n', H') ->
    t_iters t' = t_iters t + Z.of_nat (length data) /\
    (t_usedecay t = false \/ t_step t <= t_iters t \/ t_iters t + Z.of_nat (length data) < t_step t -> keeps n H n' H') /\
    (t_usedecay t = true -> t_iters t < t_step t <= t_iters t + Z.of_nat (length data) -> rates_are n' H' (decayed t)).
Proof.
  intros Hs. induction data as [|d data IH]; intros t n H t' n' H' E; cbn [foldM] in E.
    - injection E as <- <- <-. cbn [length Z.of_nat]. split; [lia|]. split; [intros _; apply keeps_refl|]. intros; lia.
    - apply bind_ok in E as ([[t1 n1] H1] & E1 & E). pose proof (call_rates (call d) t n H t1 n1 H1 (Hs d) E1) as (-> & Hh & Hc).
      destruct (IH _ _ _ _ _ _ E) as (I1 & I2 & I3). cbn [tick t_iters t_step t_usedecay] in *. rewrite I1.
      assert (L : Z.of_nat (length (d :: data)) = 1 + Z.of_nat (length data)) by (cbn [length]; lia).
      split; [lia|]. split.
      + intros Hcase. destruct (t_usedecay t && (t_iters t + 1 =? t_step t)) eqn:C.
        { apply andb_true_iff in C as [C1 C2]. apply Z.eqb_eq in C2. rewrite C1 in Hcase. lia. }
        eapply keeps_trans; [exact Hc|]. apply I2. apply andb_false_iff in C. destruct Hcase as [|[|]]; [auto|lia|lia].
      + intros Hu Hr. rewrite Hu in Hc. cbn [andb] in Hc. destruct (Z.eqb_spec (t_iters t + 1) (t_step t)) as [C|C].
        * eapply keeps_are; [|exact Hc]. apply I2. right. left. lia.
        * apply I3; [assumption|lia].
Qed.
Lemma history {A} (call : A -> trainer D -> net D -> lheap D -> res (trainer D * net D * lheap D)) :
  (forall d, call_shape (call d)) ->
  forall (data : list A) t n H t' n' H', t_iters t = 0 ->
  foldM (fun '(t, n, H) d => call d t n H) data (t, n, H) = Ok (t', n', H') ->
  t_iters t' = Z.of_nat (length data) /\
  (if t_usedecay t && (1 <=? t_step t) && (t_step t <=? Z.of_nat (length data))
   then rates_are n' H' (decayed t) else rates_same n H n' H').
Proof.
  intros Hs data t n H t' n' H' Ht E. destruct (history_gen call Hs _ _ _ _ _ _ _ E) as (G1 & G2 & G3). rewrite Ht in *. split; [lia|].
  destruct (t_usedecay t) eqn:U; cbn [andb].
  - destruct (Z.leb_spec 1 (t_step t)), (Z.leb_spec (t_step t) (Z.of_nat (length data))); cbn [andb]; try (apply keeps_same; apply G2; lia).
    apply G3; [reflexivity|lia].
  - apply keeps_same. apply G2. auto.
Qed.

(** ** C36 *)

(** [t] is any freshly constructed trainer (count 0): with decay (r0, k, step) or without.  After any number of
    successful calls every learning rate is r0 * exp(-k * step) if decay is on and 1 <= step <= number of calls,
    otherwise what it was; the rate used by call m is the rate after call m. *)
Lemma shape_trainer (xy : mat * mat) : call_shape (fun t n H => feeddata junk t n H (fst xy) (snd xy)).
Proof.
  intros t1 n1 H1 t2 n2 H2 E1. unfold feeddata in E1. apply bind_ok in E1 as ([n3 H3] & D1 & E1). apply bind_ok in E1 as ([n4 H4] & D2 & E1).
  injection E1 as <- <- <-. split; [reflexivity|]. exists n3, H3. split; [assumption|]. eapply train_step_keeps; exact D2.
Qed.
Lemma shape_sgd (xy : mat * mat) : call_shape (fun t n H => sgd_feeddata junk t n H (fst xy) (snd xy)).
Proof.
  intros t1 n1 H1 t2 n2 H2 E1. unfold sgd_feeddata in E1. apply bind_ok in E1 as ([n3 H3] & D1 & E1). apply bind_ok in E1 as ([n4 H4] & D2 & E1).
  injection E1 as <- <- <-. split; [reflexivity|]. exists n3, H3. split; [assumption|]. eapply sgd_rows_keeps; exact D2.
Qed.
Theorem C36_trainer : forall (data : list (mat * mat)) t n H t' n' H', t_iters t = 0 ->
  foldM (fun '(t, n, H) xy => feeddata junk t n H (fst xy) (snd xy)) data (t, n, H) = Ok (t', n', H') ->
  t_iters t' = Z.of_nat (length data) /\
  (if t_usedecay t && (1 <=? t_step t) && (t_step t <=? Z.of_nat (length data))
   then rates_are n' H' (dmul (t_r0 t) (dexp (dmul (dneg (t_k t)) (dofZ (t_step t))))) else rates_same n H n' H').
Proof.
  intros data t n H t' n' H' Ht E. apply (history (fun xy t n H => feeddata junk t n H (fst xy) (snd xy))) with (t := t); auto.
  intros [x y] t1 n1 H1 t2 n2 H2 E1. unfold feeddata in E1. apply bind_ok in E1 as ([n3 H3] & D1 & E1). apply bind_ok in E1 as ([n4 H4] & D2 & E1).
  injection E1 as <- <- <-. split; [reflexivity|]. exists n3, H3. split; [assumption|]. eapply train_step_keeps; exact D2.
Qed.
Theorem C36_sgd : forall (data : list (mat * mat)) t n H t' n' H', t_iters t = 0 ->
  foldM (fun '(t, n, H) xy => sgd_feeddata junk t n H (fst xy) (snd xy)) data (t, n, H) = Ok (t', n', H') ->
  t_iters t' = Z.of_nat (length data) /\
  (if t_usedecay t && (1 <=? t_step t) && (t_step t <=? Z.of_nat (length data))
   then rates_are n' H' (dmul (t_r0 t) (dexp (dmul (dneg (t_k t)) (dofZ (t_step t))))) else rates_same n H n' H').
Proof.
  intros data t n H t' n' H' Ht E. apply (history (fun xy t n H => sgd_feeddata junk t n H (fst xy) (snd xy))) with (t := t); auto.
  intros [x y] t1 n1 H1 t2 n2 H2 E1. unfold sgd_feeddata in E1. apply bind_ok in E1 as ([n3 H3] & D1 & E1). apply bind_ok in E1 as ([n4 H4] & D2 & E1).
  injection E1 as <- <- <-. split; [reflexivity|]. exists n3, H3. split; [assumption|]. eapply sgd_rows_keeps; exact D2.
Qed.

Lemma momentum_body t n H x y t' n' H' : momentum_feeddata junk t n H x y = Ok (t', n', H') ->
  mt_t t' = tick (mt_t t) /\ mt_mom t' = mt_mom t /\ exists n1 H1, decay (tick (mt_t t)) n H = Ok (n1, H1) /\ keeps n1 H1 n' H'.
Proof.
  unfold momentum_feeddata. intros E. apply bind_ok in E as ([n0 H0] & D1 & E). apply bind_ok in E as ([[a n1] H1] & D2 & E).
  apply bind_ok in E as ([n2 H2] & D3 & E). apply bind_ok in E as (og & _ & E). apply bind_ok in E as (hg & _ & E). apply bind_ok in E as ([n3 H3] & D4 & E).
  injection E as <- <- <-. split; [reflexivity|]. split; [reflexivity|]. exists n0, H0. split; [assumption|].
  eapply keeps_trans; [eapply net_forward_keeps; exact D2|]. eapply keeps_trans; [eapply net_backprop_keeps; exact D3|]. eapply net_update_with_keeps; exact D4.
Qed.
Theorem C36_momentum : forall (data : list (mat * mat)) t n H t' n' H', t_iters (mt_t t) = 0 ->
  foldM (fun '(t, n, H) xy => momentum_feeddata junk t n H (fst xy) (snd xy)) data (t, n, H) = Ok (t', n', H') ->
  t_iters (mt_t t') = Z.of_nat (length data) /\
  (if t_usedecay (mt_t t) && (1 <=? t_step (mt_t t)) && (t_step (mt_t t) <=? Z.of_nat (length data))
   then rates_are n' H' (dmul (t_r0 (mt_t t)) (dexp (dmul (dneg (t_k (mt_t t))) (dofZ (t_step (mt_t t)))))) else rates_same n H n' H').
Proof.
  intros data t n H t' n' H' Ht E.
  (* each call is a call on the inner trainer, for some accumulated gradients *)
  assert (G : exists ms : list (mat * mat * (D * mat * list mat)), length ms = length data /\
     foldM (fun '(t, n, H) m => let '(x, y, (mu, og, hg)) := m in '(t', n', H') <- momentum_feeddata junk (MT t mu og hg) n H x y ;; Ok (mt_t t', n', H')) ms (mt_t t, n, H)
     = Ok (mt_t t', n', H')).
  { clear Ht. revert t n H E. induction data as [|[x y] data IH]; intros t n H E; cbn [foldM] in E.
    - injection E as <- <- <-. exists []. split; reflexivity.
    - apply bind_ok in E as ([[t1 n1] H1] & E1 & E). destruct (IH _ _ _ E) as (ms & M1 & M2).
      exists ((x, y, (mt_mom t, mt_ograd t, mt_hgrads t)) :: ms). split; [cbn; lia|]. cbn [foldM fst snd] in *.
      destruct t as [tt mu og hg]. cbn [mt_t mt_mom mt_ograd mt_hgrads]. rewrite E1. cbn [bind]. exact M2. }
  destruct G as (ms & M1 & M2). rewrite <- M1.
  apply (history (fun m t n H => let '(x, y, (mu, og, hg)) := m in '(t', n', H') <- momentum_feeddata junk (MT t mu og hg) n H x y ;; Ok (mt_t t', n', H'))) with (t := mt_t t); auto.
  intros [[x y] [[mu og] hg]] t1 n1 H1 t2 n2 H2 E1. apply bind_ok in E1 as ([[t3 n3] H3] & E1 & E2). injection E2 as <- <- <-.
  apply momentum_body in E1 as (B1 & _ & B2). split; assumption.
Qed.

(** ** C37: BatchTrainer *)
Lemma batch_loop_keeps b tx ty starts : forall t n H t' n' H', batch_loop junk b tx ty starts t n H = Ok (t', n', H') ->
  keeps n H n' H' /\ t_iters t' = t_iters t + Z.of_nat (length starts) /\ t_step t' = t_step t /\ t_usedecay t' = t_usedecay t /\ t_k t' = t_k t /\ t_r0 t' = t_r0 t.
Proof.
  unfold batch_loop. induction starts as [|i starts IH]; intros t n H t' n' H' E; cbn [foldM] in E.
  - injection E as <- <- <-. split; [apply keeps_refl|]. cbn. repeat split; lia.
  - apply bind_ok in E as ([[t1 n1] H1] & E1 & E). apply bind_ok in E1 as (xb & _ & E1). apply bind_ok in E1 as ([[a n2] H2] & D1 & E1).
    apply bind_ok in E1 as (yb & _ & E1). apply bind_ok in E1 as ([n3 H3] & D2 & E1). apply bind_ok in E1 as ([n4 H4] & D3 & E1). injection E1 as <- <- <-.
    destruct (IH _ _ _ _ _ _ E) as (I1 & I2 & I3 & I4 & I5 & I6). cbn [tick t_iters t_step t_usedecay t_k t_r0] in *.
    split; [|cbn [length]; repeat split; try assumption; lia].
    eapply keeps_trans; [eapply net_forward_keeps; exact D1|]. eapply keeps_trans; [eapply net_backprop_keeps; exact D2|].
    eapply keeps_trans; [eapply net_update_keeps; exact D3|exact I1].
Qed.

(** Running total of mini-batches after each call: ceil(rows / b) per call. *)
Definition batches (b : Z) (x : mat) : Z := (Z.of_nat (nr x) + b - 1) / b.
Fixpoint totals (b acc : Z) (data : list (mat * mat)) : list Z :=
  match data with [] => [] | (x, _) :: r => (acc + batches b x) :: totals b (acc + batches b x) r end.

Lemma steps_length n b : 0 < b -> 0 <= n -> Z.of_nat (length (steps n b)) = (n + b - 1) / b.
Proof.
  intros Hb Hn. unfold steps, zrange.
  enough (G : forall k, Z.of_nat (length (filter (fun i => i mod b =? 0) (map Z.of_nat (seq 0 k)))) = (Z.of_nat k + b - 1) / b) by (rewrite G; f_equal; lia).
  induction k as [|k IH]; [cbn; rewrite Z.div_small; lia|]. rewrite seq_S, map_app, filter_app, app_length, Nat2Z.inj_add, IH. cbn [map filter Nat.add].
  replace (Z.of_nat (S k) + b - 1) with (Z.of_nat k + b) by lia.
  assert (Z.of_nat k = b * (Z.of_nat k / b) + Z.of_nat k mod b) by (apply Z.div_mod; lia).
  assert (0 <= Z.of_nat k mod b < b) by (apply Z.mod_pos_bound; lia). set (q := Z.of_nat k / b) in *. set (r := Z.of_nat k mod b) in *.
  rewrite H. replace (b * q + r + b - 1) with (q * b + (r + b - 1)) by lia. replace (b * q + r + b) with ((q + 1) * b + r) by lia.
  rewrite !Z.div_add_l by lia. rewrite (Z.div_small r) by lia. destruct (Z.eqb_spec r 0) as [->|].
  - rewrite Z.div_small by lia. cbn. lia.
  - replace (r + b - 1) with (1 * b + (r - 1)) by lia. rewrite Z.div_add_l, Z.div_small by lia. cbn. lia.
Qed.

Theorem C37_batch : forall b (data : list (mat * mat)) t n H t' n' H', 0 < b -> bt_size t = b -> t_iters (bt_t t) = 0 ->
  foldM (fun '(t, n, H) xy => batch_feeddata junk t n H (fst xy) (snd xy)) data (t, n, H) = Ok (t', n', H') ->
  t_iters (bt_t t') = last (totals b 0 data) 0 /\
  (t_usedecay (bt_t t) = true /\ In (t_step (bt_t t)) (totals b 0 data) ->
     rates_are n' H' (dmul (t_r0 (bt_t t)) (dexp (dmul (dneg (t_k (bt_t t))) (dofZ (t_step (bt_t t))))))) /\
  (~ (t_usedecay (bt_t t) = true /\ In (t_step (bt_t t)) (totals b 0 data)) -> rates_same n H n' H').
Proof.
  intros b data t n H t' n' H' Hb Hs Ht E.
  assert (G : forall data t n H t' n' H', bt_size t = b ->
    foldM (fun '(t, n, H) xy => batch_feeddata junk t n H (fst xy) (snd xy)) data (t, n, H) = Ok (t', n', H') ->
    t_iters (bt_t t') = last (totals b (t_iters (bt_t t)) data) (t_iters (bt_t t)) /\
    (t_usedecay (bt_t t) = true -> In (t_step (bt_t t)) (totals b (t_iters (bt_t t)) data) -> rates_are n' H' (decayed (bt_t t))) /\
    (~ (t_usedecay (bt_t t) = true /\ In (t_step (bt_t t)) (totals b (t_iters (bt_t t)) data)) -> keeps n H n' H')).
  { clear - Hb. induction data as [|[x y] data IH]; intros t n H t' n' H' Hs E; cbn [foldM] in E.
    - injection E as <- <- <-. split; [reflexivity|]. split; [intros _ []|intros _; apply keeps_refl].
    - apply bind_ok in E as ([[t1 n1] H1] & E1 & E). cbn [fst snd] in E1. unfold batch_feeddata in E1.
      apply bind_ok in E1 as (tx & _ & E1). apply bind_ok in E1 as (ty & _ & E1). apply bind_ok in E1 as ([[t2 n2] H2] & D1 & E1).
      apply bind_ok in E1 as ([n3 H3] & D2 & E1). injection E1 as <- <- <-. apply batch_loop_keeps in D1 as (K1 & K2 & K3 & K4 & K5 & K6).
      rewrite Hs in K2. rewrite steps_length in K2 by lia. fold (batches b x) in K2.
      destruct (IH (BT t2 x y (bt_size t)) n3 H3 t' n' H' Hs E) as (I1 & I2 & I3). cbn [bt_t] in *. rewrite K2, K3, K4 in *.
      assert (Dc : decayed t2 = decayed (bt_t t)) by (unfold decayed; now rewrite K3, K5, K6). rewrite Dc in *.
      cbn [totals]. set (c := t_iters (bt_t t) + batches b x) in *. split.
      { rewrite I1. destruct (totals b c data) eqn:ET; [reflexivity|]. cbn [last]. clear. revert z. induction l as [|u l IH]; intros z; [reflexivity|]. cbn [last]. apply IH. }
      unfold decay in D2. rewrite K2, K3, K4 in D2. fold c in D2. split.
      + intros Hu Hin. rewrite Hu in *. cbn [andb] in D2.
        destruct (in_dec Z.eq_dec (t_step (bt_t t)) (totals b c data)) as [Hin2|Hin2]; [now apply I2|].
        assert (Ec : c = t_step (bt_t t)) by (destruct Hin as [X|X]; [exact X|contradiction]).
        eapply keeps_are; [apply I3; intros [_ X]; contradiction|]. rewrite <- Ec, Z.eqb_refl in D2. apply setlrate_all in D2 as [_ D2].
        unfold decayed in Dc. rewrite K3 in Dc. unfold decayed. rewrite K5, K6, Ec in D2. exact D2.
      + intros Hno. destruct (t_usedecay (bt_t t) && (c =? t_step (bt_t t))) eqn:C.
        { apply andb_true_iff in C as [C1 C2]. apply Z.eqb_eq in C2. exfalso. apply Hno. split; [assumption|]. now left. }
        injection D2 as <- <-. eapply keeps_trans; [exact K1|]. apply I3. intros [X1 X2]. apply Hno. split; [assumption|]. now right. }
  destruct (G _ _ _ _ _ _ _ Hs E) as (G1 & G2 & G3). rewrite Ht in *. split; [assumption|]. split; [intros [A B]; now apply G2|].
  intros X. apply keeps_same, G3, X.
Qed.

(** Same number of rows in every call: decay is skipped for ever unless step is a multiple of ceil(rows/b). *)
Theorem C37_skipped : forall b rows (data : list (mat * mat)) t n H t' n' H', 0 < b -> bt_size t = b -> t_iters (bt_t t) = 0 ->
  (forall x y, In (x, y) data -> nr x = rows) -> 
  (1 <= rows)%nat -> t_step (bt_t t) mod ((Z.of_nat rows + b - 1) / b) <> 0 ->
  foldM (fun '(t, n, H) xy => batch_feeddata junk t n H (fst xy) (snd xy)) data (t, n, H) = Ok (t', n', H') ->
  rates_same n H n' H'.
Proof.
  intros b rows data t n H t' n' H' Hb Hs Ht Hrows H1 Hmod E.
  assert (Hne : (Z.of_nat rows + b - 1) / b <> 0) by (assert (1 <= (Z.of_nat rows + b - 1) / b) by (apply Z.div_le_lower_bound; lia); lia).
  destruct (C37_batch b data t n H t' n' H' Hb Hs Ht E) as (_ & _ & X). apply X. intros [_ Hin].
  apply Hmod. set (m := (Z.of_nat rows + b - 1) / b) in *.
  assert (G : forall acc, acc mod m = 0 -> In (t_step (bt_t t)) (totals b acc data) -> t_step (bt_t t) mod m = 0).
  { clear - Hrows Hne. induction data as [|[x y] data IH]; intros acc Ha Hin; cbn [totals] in Hin; [destruct Hin|].
    assert (Bm : batches b x = m) by (unfold batches, m; rewrite (Hrows x y (or_introl eq_refl)); reflexivity). rewrite Bm in Hin.
    assert (Ha' : (acc + m) mod m = 0) by (rewrite <- (Z.mul_1_l m) at 1; rewrite Z.mod_add; assumption).
    destruct Hin as [<-|Hin]; [assumption|]. eapply IH; eauto. intros; eapply Hrows; right; eauto. }
  eapply G; [|exact Hin]. apply Z.mod_0_l. assumption.
Qed.

End Decay.

(** ** The hypotheses can be met *)
From Verif Require Import ExNet.
Definition rate_after {T} (r : res (T * net Zdt * lheap Zdt)) (v : Z) : bool :=
  match r with Ok (_, n', _) => l_lrate (o_l (n_output n')) =? v | _ => false end.
(** Three calls with step = 2: the rates end up at r0 * exp(-k * 2) (here 7 * (-1 * 2), exp being the identity in Zdt). *)
Example C36_nonvacuous :
  rate_after (foldM (fun '(t, n, H) xy => feeddata exj t n H (fst xy) (snd xy)) [(exx, exy); (exx, exy); (exx, exy)]
    (trainer_new_decay (D := Zdt) 7 1 2, exn, exH)) (-14) = true.
Proof. vm_compute. reflexivity. Qed.
Example C36_nonvacuous_sgd :
  rate_after (foldM (fun '(t, n, H) xy => sgd_feeddata exj t n H (fst xy) (snd xy)) [(exx, exy); (exx, exy)]
    (trainer_new_decay (D := Zdt) 7 1 2, exn, exH)) (-14) = true.
Proof. vm_compute. reflexivity. Qed.
Example C36_nonvacuous_momentum :
  rate_after (m <- momentum_new_decay (D := Zdt) 1 7 1 2 exn exH ;;
    foldM (fun '(t, n, H) xy => momentum_feeddata exj t n H (fst xy) (snd xy)) [(exx, exy); (exx, exy)] (m, exn, exH)) (-14) = true.
Proof. vm_compute. reflexivity. Qed.
(** Four rows in batches of two, two calls: totals 2 and 4; step = 2 fires, step = 3 never does. *)
Definition exx4 : mat Zdt := zm 4 1 [1; 2; 0; -1].
Definition exy4 : mat Zdt := zm 4 1 [1; -2; 0; 1].
Example C37_nonvacuous : totals 2 0 [(exx4, exy4); (exx4, exy4)] = [2; 4] /\
  rate_after (foldM (fun '(t, n, H) xy => batch_feeddata exj t n H (fst xy) (snd xy)) [(exx4, exy4); (exx4, exy4)]
    (batch_new_decay (D := Zdt) 2 7 1 2, exn, exH)) (-14) = true /\
  rate_after (foldM (fun '(t, n, H) xy => batch_feeddata exj t n H (fst xy) (snd xy)) [(exx4, exy4); (exx4, exy4)]
    (batch_new_decay (D := Zdt) 2 7 1 3, exn, exH)) 1 = true.
Proof. split; [reflexivity|]. split; vm_compute; reflexivity. Qed.

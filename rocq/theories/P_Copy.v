(** P_Copy.v - C44: copying and assigning trainers. *)
From Verif Require Import Base Mat Act Layer Conv Misc Net NetP Trainer TrainP TrainP2 P_Decay.
From Coq Require Import Arith.
Local Open Scope Z_scope.

Section Copy.
Context {D : dtype}.
Notation mat := (mat D).
Notation net := (net D).
Notation lheap := (lheap D).
Context (junk : nat -> D).

(** ** Specification *)
Definition sgd_run (data : list (mat * mat)) (t : trainer D) (n : net) (H : lheap) :=
  foldM (fun '(t, n, H) xy => sgd_feeddata junk t n H (fst xy) (snd xy)) data (t, n, H).
Definition batch_run (data : list (mat * mat)) (t : btrainer D) (n : net) (H : lheap) :=
  foldM (fun '(t, n, H) xy => batch_feeddata junk t n H (fst xy) (snd xy)) data (t, n, H).
Definition mom_run (data : list (mat * mat)) (t : mtrainer D) (n : net) (H : lheap) :=
  foldM (fun '(t, n, H) xy => momentum_feeddata junk t n H (fst xy) (snd xy)) data (t, n, H).
(** The same failure, or success with the same network and layers. *)
Definition same_nets {T} (r1 r2 : res (T * net * lheap)) : Prop :=
  match r1, r2 with
  | Ok (_, n1, H1), Ok (_, n2, H2) => n1 = n2 /\ H1 = H2
  | Undef u, Undef v => u = v
  | Abort, Abort | Throw, Throw => True
  | _, _ => False
  end.
Definition rate_of (t : trainer D) : D := dmul (t_r0 t) (dexp (dmul (dneg (t_k t)) (dofZ (t_step t)))).

(** ** Proof *)

(** Decay can no longer fire. *)
Definition quiet (t : trainer D) : Prop := t_usedecay t = false \/ (t_step t = 0 /\ 0 <= t_iters t).
Lemma quiet_decay t n H : quiet t -> 1 <= t_iters t \/ t_usedecay t = false -> decay (D := D) t n H = Ok (n, H).
Proof.
  intros Q P. unfold decay. destruct (t_usedecay t) eqn:U; [|reflexivity]. destruct Q as [Q|[Q1 Q2]]; [congruence|]. destruct P as [P|P]; [|congruence].
  rewrite Q1. destruct (Z.eqb_spec (t_iters t) 0); [lia|reflexivity].
Qed.
Lemma quiet_tick t : quiet t -> quiet (tick t) /\ (1 <= t_iters (tick t) \/ t_usedecay (tick t) = false).
Proof. intros [Q|[Q1 Q2]]; cbn; unfold quiet; cbn; [auto|]. split; [right; lia|left; lia]. Qed.

Lemma run_same {T X} (call : T * net * lheap -> X -> res (T * net * lheap)) (R : T -> T -> Prop) :
  (forall t1 t2 n H x, R t1 t2 ->
     match call (t1, n, H) x, call (t2, n, H) x with
     | Ok (u1, n1, H1), Ok (u2, n2, H2) => n1 = n2 /\ H1 = H2 /\ R u1 u2
     | Undef u, Undef v => u = v | Abort, Abort | Throw, Throw => True | _, _ => False end) ->
  forall data t1 t2 n H, R t1 t2 -> same_nets (foldM call data (t1, n, H)) (foldM call data (t2, n, H)).
Proof.
  intros HC. induction data as [|x data IH]; intros t1 t2 n H HR; cbn [foldM]; [cbn; auto|].
  pose proof (HC t1 t2 n H x HR) as C. destruct (call (t1, n, H) x) as [[[u1 n1] H1]| | |], (call (t2, n, H) x) as [[[u2 n2] H2]| | |]; try contradiction; cbn [bind]; [|exact C|exact I|exact I].
  destruct C as (<- & <- & C). apply IH. exact C.
Qed.

Lemma sgd_same t1 t2 n H (xy : mat * mat) : quiet t1 -> quiet t2 ->
  match sgd_feeddata junk t1 n H (fst xy) (snd xy), sgd_feeddata junk t2 n H (fst xy) (snd xy) with
  | Ok (u1, n1, H1), Ok (u2, n2, H2) => n1 = n2 /\ H1 = H2 /\ (quiet u1 /\ quiet u2)
  | Undef u, Undef v => u = v | Abort, Abort | Throw, Throw => True | _, _ => False end.
Proof.
  intros Q1 Q2. destruct (quiet_tick _ Q1) as [A1 A2], (quiet_tick _ Q2) as [B1 B2]. unfold sgd_feeddata. rewrite (quiet_decay _ _ _ A1 A2), (quiet_decay _ _ _ B1 B2). cbn [bind].
  destruct (sgd_rows junk n H (fst xy) (snd xy) (seq 0 (nr (fst xy)))) as [[n1 H1]| | |]; cbn [bind]; auto.
Qed.
Lemma batch_loop_sim b tx ty starts : forall t1 t2 n H,
  match batch_loop junk b tx ty starts t1 n H, batch_loop junk b tx ty starts t2 n H with
  | Ok (u1, n1, H1), Ok (u2, n2, H2) => n1 = n2 /\ H1 = H2 /\ u1 = T (t_iters t1 + Z.of_nat (length starts)) (t_step t1) (t_usedecay t1) (t_k t1) (t_r0 t1)
                                         /\ u2 = T (t_iters t2 + Z.of_nat (length starts)) (t_step t2) (t_usedecay t2) (t_k t2) (t_r0 t2)
  | Undef u, Undef v => u = v | Abort, Abort | Throw, Throw => True | _, _ => False end.
Proof.
  unfold batch_loop. induction starts as [|i starts IH]; intros t1 t2 n H; cbn [foldM].
  - cbn [length Z.of_nat]. rewrite !Z.add_0_r. destruct t1, t2. cbn. auto.
  - destruct (mrows tx i (i + b - 1)); cbn [bind]; auto. destruct (net_forward junk n H a) as [[[r n1] H1]| | |]; cbn [bind]; auto.
    destruct (mrows ty i (i + b - 1)); cbn [bind]; auto. destruct (net_backprop junk n1 H1 a0) as [[n2 H2]| | |]; cbn [bind]; auto.
    destruct (net_update n2 H2) as [[n3 H3]| | |]; cbn [bind]; auto. specialize (IH (tick t1) (tick t2) n3 H3).
    destruct (foldM _ starts (tick t1, n3, H3)) as [[[u1 m1] K1]| | |], (foldM _ starts (tick t2, n3, H3)) as [[[u2 m2] K2]| | |]; auto.
    destruct IH as (A & B & C & E). split; [assumption|]. split; [assumption|]. cbn [tick t_iters t_step t_usedecay t_k t_r0] in C, E.
    split; [rewrite C|rewrite E]; f_equal; cbn [length]; lia.
Qed.
Lemma batch_same t1 t2 n H (xy : mat * mat) : quiet (bt_t t1) -> quiet (bt_t t2) -> bt_size t1 = bt_size t2 ->
  match batch_feeddata junk t1 n H (fst xy) (snd xy), batch_feeddata junk t2 n H (fst xy) (snd xy) with
  | Ok (u1, n1, H1), Ok (u2, n2, H2) => n1 = n2 /\ H1 = H2 /\ (quiet (bt_t u1) /\ quiet (bt_t u2) /\ bt_size u1 = bt_size u2)
  | Undef u, Undef v => u = v | Abort, Abort | Throw, Throw => True | _, _ => False end.
Proof.
  intros Q1 Q2 E. unfold batch_feeddata. rewrite E. set (b := bt_size t2) in *. cbn zeta.
  destruct (wrap_rows (fst xy) b) as [tx| | |] eqn:EW; cbn [bind]; auto. destruct (wrap_rows (snd xy) b); cbn [bind]; auto.
  (* a successful wrap means at least one row and batch size >= 2 *)
  assert (W : 2 <= b /\ (1 <= nr (fst xy))%nat).
  { unfold wrap_rows in EW. apply bind_ok in EW as (s & ES & _). unfold submat, sub_ok in ES.
    destruct (_ && _) eqn:C in ES; [|discriminate]. rewrite !andb_true_iff, !Z.leb_le, !Z.ltb_lt in C. lia. }
  assert (L : 1 <= Z.of_nat (length (steps (Z.of_nat (nr (fst xy))) b))).
  { rewrite steps_length by lia. apply Z.div_le_lower_bound; lia. }
  pose proof (batch_loop_sim b tx a (steps (Z.of_nat (nr (fst xy))) b) (bt_t t1) (bt_t t2) n H) as S.
  destruct (batch_loop junk b tx a _ (bt_t t1) n H) as [[[u1 m1] K1]| | |], (batch_loop junk b tx a _ (bt_t t2) n H) as [[[u2 m2] K2]| | |]; try contradiction; cbn [bind]; auto.
  destruct S as (<- & <- & -> & ->). set (k := Z.of_nat (length _)) in *.
  assert (R : forall t, quiet t -> let t' := T (D := D) (t_iters t + k) (t_step t) (t_usedecay t) (t_k t) (t_r0 t) in quiet t' /\ (1 <= t_iters t' \/ t_usedecay t' = false)).
  { intros t [Q|[X Y]]; cbn; unfold quiet; cbn; [auto|]. split; [right; lia|left; lia]. }
  destruct (R _ Q1) as [A1 A2], (R _ Q2) as [B1 B2]. rewrite (quiet_decay _ _ _ A1 A2), (quiet_decay _ _ _ B1 B2). cbn [bind bt_t bt_size]. auto.
Qed.
Lemma mom_same t1 t2 n H (xy : mat * mat) : quiet (mt_t t1) -> quiet (mt_t t2) -> mt_mom t1 = mt_mom t2 -> mt_ograd t1 = mt_ograd t2 -> mt_hgrads t1 = mt_hgrads t2 ->
  deqb (mt_mom t1) (dofZ 0) = false ->
  match momentum_feeddata junk t1 n H (fst xy) (snd xy), momentum_feeddata junk t2 n H (fst xy) (snd xy) with
  | Ok (u1, n1, H1), Ok (u2, n2, H2) => n1 = n2 /\ H1 = H2 /\ (quiet (mt_t u1) /\ quiet (mt_t u2) /\ mt_mom u1 = mt_mom u2 /\ mt_ograd u1 = mt_ograd u2 /\ mt_hgrads u1 = mt_hgrads u2 /\ deqb (mt_mom u1) (dofZ 0) = false)
  | Undef u, Undef v => u = v | Abort, Abort | Throw, Throw => True | _, _ => False end.
Proof.
  intros Q1 Q2 E1 E2 E3 E4. destruct (quiet_tick _ Q1) as [A1 A2], (quiet_tick _ Q2) as [B1 B2]. unfold momentum_feeddata. rewrite (quiet_decay _ _ _ A1 A2), (quiet_decay _ _ _ B1 B2). cbn [bind].
  rewrite <- E1, <- E2, <- E3. destruct (net_forward junk n H (fst xy)) as [[[r n1] H1]| | |]; cbn [bind]; auto. destruct (net_backprop junk n1 H1 (snd xy)) as [[n2 H2]| | |]; cbn [bind]; auto.
  destruct (madd _ _); cbn [bind]; auto.
  assert (M : forall i1 i2 acc g, mom_hidden (mt_mom t1) i1 acc g = mom_hidden (mt_mom t1) i2 acc g) by (intros; unfold mom_hidden; rewrite E4; reflexivity).
  assert (X : forall l, mapM (fun ia : nat * mat => l <- net_gethidden n2 H2 (fst ia) ;; mom_hidden (mt_mom t1) (t_iters (tick (mt_t t1))) (snd ia) (l_grad l)) l
            = mapM (fun ia : nat * mat => l <- net_gethidden n2 H2 (fst ia) ;; mom_hidden (mt_mom t1) (t_iters (tick (mt_t t2))) (snd ia) (l_grad l)) l).
  { induction l as [|ia l IH]; cbn [mapM]; [reflexivity|]. destruct (net_gethidden n2 H2 (fst ia)); cbn [bind]; auto. rewrite (M _ (t_iters (tick (mt_t t2)))). now rewrite IH. }
  rewrite X. destruct (mapM _ _); cbn [bind]; auto. destruct (net_update_with n2 H2 a a0) as [[n3 H3]| | |]; cbn [bind]; auto. cbn [mt_t mt_mom mt_ograd mt_hgrads]. auto 10.
Qed.

(** ** C44 *)

(** Base Trainer copies, and all assignments, keep the counter and the decay setting. *)
Theorem C44_kept : forall (t u : trainer D) (bt bu : btrainer D) (mt mu : mtrainer D),
  trainer_copy t = t /\ trainer_assign u t = t /\ bt_t (batch_assign bu bt) = bt_t bt /\ bt_size (batch_assign bu bt) = bt_size bt /\ momentum_assign mu mt = mt.
Proof. intros [] u [[] ? ? ?] bu [[] ? ? ?] mu. repeat split. Qed.

(** The copy constructors of SGDTrainer, BatchTrainer, MomentumTrainer: a source without decay (constructed
    without it: step = 0) trains every network exactly like its copy, in spite of the copy having decay enabled.
    (For MomentumTrainer with momentum other than 0; with momentum 0 the counter also scales the steps.) *)
Theorem C44_sgd_plain : forall (t : trainer D) data n H, t_usedecay t = false -> t_step t = 0 ->
  t_usedecay (sgd_copy t) = true /\ t_iters (sgd_copy t) = 0 /\ same_nets (sgd_run data t n H) (sgd_run data (sgd_copy t) n H).
Proof.
  intros t data n H U S. split; [reflexivity|]. split; [reflexivity|]. unfold sgd_run. apply run_same with (R := fun a b => quiet a /\ quiet b).
  - intros t1 t2 n0 H0 xy [A B]. now apply sgd_same.
  - split; [now left|right]. cbn. split; [assumption|lia].
Qed.
Theorem C44_batch_plain : forall (t : btrainer D) data n H, t_usedecay (bt_t t) = false -> t_step (bt_t t) = 0 ->
  t_usedecay (bt_t (batch_copy t)) = true /\ t_iters (bt_t (batch_copy t)) = 0 /\ same_nets (batch_run data t n H) (batch_run data (batch_copy t) n H).
Proof.
  intros t data n H U S. split; [reflexivity|]. split; [reflexivity|]. unfold batch_run. apply run_same with (R := fun a b => quiet (bt_t a) /\ quiet (bt_t b) /\ bt_size a = bt_size b).
  - intros t1 t2 n0 H0 xy (A & B & C). now apply batch_same.
  - split; [now left|]. split; [right; cbn; split; [assumption|lia]|reflexivity].
Qed.
Theorem C44_momentum_plain : forall (t : mtrainer D) data n H, t_usedecay (mt_t t) = false -> t_step (mt_t t) = 0 -> deqb (mt_mom t) (dofZ 0) = false ->
  t_usedecay (mt_t (momentum_copy t)) = true /\ t_iters (mt_t (momentum_copy t)) = 0 /\ same_nets (mom_run data t n H) (mom_run data (momentum_copy t) n H).
Proof.
  intros t data n H U S M. split; [reflexivity|]. split; [reflexivity|]. unfold mom_run.
  apply run_same with (R := fun a b => quiet (mt_t a) /\ quiet (mt_t b) /\ mt_mom a = mt_mom b /\ mt_ograd a = mt_ograd b /\ mt_hgrads a = mt_hgrads b /\ deqb (mt_mom a) (dofZ 0) = false).
  - intros t1 t2 n0 H0 xy (A & B & C & E & F & G). now apply mom_same.
  - split; [now left|]. split; [right; cbn; split; [assumption|lia]|]. auto.
Qed.

(** With decay (step >= 1), the copy starts the schedule afresh: it fires at the copy's call number step, whatever
    the source has already done; the source itself, once past its step, never changes a rate again. *)
Theorem C44_sgd_restart : forall (t : trainer D) data n H, t_usedecay t = true -> 1 <= t_step t ->
  (forall t' n' H', sgd_run data (sgd_copy t) n H = Ok (t', n', H') ->
     if t_step t <=? Z.of_nat (length data) then rates_are n' H' (rate_of t) else rates_same n H n' H') /\
  (forall t' n' H', t_step t <= t_iters t -> sgd_run data t n H = Ok (t', n', H') -> rates_same n H n' H').
Proof.
  intros t data n H U S. split; intros t' n' H'.
  - intros E. destruct (C36_sgd junk data (sgd_copy t) n H t' n' H' eq_refl E) as [_ X]. cbn [sgd_copy trainer_new_decay t_usedecay t_step andb t_r0 t_k] in X.
    destruct (Z.leb_spec 1 (t_step t)); [|lia]. exact X.
  - intros P E. apply keeps_same. eapply (history_gen (fun xy t n H => sgd_feeddata junk t n H (fst xy) (snd xy)) (shape_sgd junk)); [exact E|]. auto.
Qed.
Theorem C44_momentum_restart : forall (t : mtrainer D) data n H, t_usedecay (mt_t t) = true -> 1 <= t_step (mt_t t) ->
  forall t' n' H', mom_run data (momentum_copy t) n H = Ok (t', n', H') ->
     if t_step (mt_t t) <=? Z.of_nat (length data) then rates_are n' H' (rate_of (mt_t t)) else rates_same n H n' H'.
Proof.
  intros t data n H U S t' n' H' E. destruct (C36_momentum junk data (momentum_copy t) n H t' n' H' eq_refl E) as [_ X]. cbn [momentum_copy mt_t trainer_new_decay t_usedecay t_step andb t_r0 t_k] in X.
  destruct (Z.leb_spec 1 (t_step (mt_t t))); [|lia]. exact X.
Qed.
Theorem C44_batch_restart : forall (t : btrainer D) data n H, t_usedecay (bt_t t) = true -> 0 < bt_size t ->
  forall t' n' H', batch_run data (batch_copy t) n H = Ok (t', n', H') ->
    (In (t_step (bt_t t)) (totals (bt_size t) 0 data) -> rates_are n' H' (rate_of (bt_t t))) /\
    (~ In (t_step (bt_t t)) (totals (bt_size t) 0 data) -> rates_same n H n' H').
Proof.
  intros t data n H U B t' n' H' E. destruct (C37_batch junk (bt_size t) data (batch_copy t) n H t' n' H' B eq_refl eq_refl E) as (_ & X & Y). cbn in X, Y. split; [intros I; now apply X|].
  intros I. apply Y. tauto.
Qed.
End Copy.
Print Assumptions C44_sgd_plain. Print Assumptions C44_batch_plain. Print Assumptions C44_momentum_plain. Print Assumptions C44_sgd_restart.

(** Computed cases. *)
From Verif Require Import ExNet.
(** The source has fired at its 2nd call and is at call 3; two calls of its copy fire again (rate 5 * exp(-1*2) in
    the integer toy arithmetic, i.e. -10), two more calls of the source leave the rate 1 alone. *)
Definition ext : trainer Zdt := T (D := Zdt) 3 2 true 1 5.
Definition exd : list (mat Zdt * mat Zdt) := [(exx, exy); (exx, exy)].
Example C44_example : rate_after (sgd_run exj exd (sgd_copy ext) exn exH) (-10) = true /\ rate_after (sgd_run exj exd ext exn exH) 1 = true /\
  rate_after (sgd_run exj exd (sgd_copy (trainer_new (D := Zdt))) exn exH) 1 = true /\
  is_ok (batch_run exj exd (batch_copy (batch_new (D := Zdt) 2)) exn exH) = true.
Proof. vm_compute. repeat split. Qed.

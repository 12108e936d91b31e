(** P_Ctor.v - C97: what constructing and assigning a trainer does, seen through its later feeddata calls. *)
From Verif Require Import Base Mat Act Layer Conv Misc Net NetP Trainer TrainP TrainP2 ExNet World Session P_World P_Session P_Decay P_Sym.
From Coq Require Import Arith Lia.
Local Open Scope nat_scope.

Section Generic.
Context {D : dtype}.
Notation mat := (mat D).
Notation layer := (layer D).
Notation net := (net D).
Notation lheap := (lheap D).
Notation session := (session D).
Notation tobj := (tobj D).
Notation sop := (sop D).
Context (draw : D -> nat -> D) (junk : nat -> D).
Notation sstep := (sstep draw junk).
Notation srun := (srun draw junk).
Notation feeds := (feeds junk).

(** ** Specification *)
(** Calls feeddata(x, y, false). *)
Definition nocost (data : list (mat * mat)) : list (mat * mat * bool) := map (fun d => (d, false)) data.
(** The decay arguments given to a constructor; the step counts calls, for a BatchTrainer mini-batches ([totals]: the counter after each call). *)
Definition decay_args (c : nspec D) : option (D * D * Z) := match c with NPlain d | NSgd d | NBatch _ d | NMom _ d => d end.
Definition reaches (c : nspec D) (data : list (mat * mat)) (step : Z) : Prop :=
  match c with NBatch b _ => In step (totals b 0 data) | _ => (1 <= step <= Z.of_nat (length data))%Z end.

(** ** Default construction *)
(** A default-constructed trainer that is not assigned to is unusable in every later state of every program: feeding it dereferences a null pointer,
    or, for a BatchTrainer, reads the uninitialised batch size first. *)
Theorem C97_default (d : dspec) : forall ops s s', srun (SDefault d :: ops) s = Ok s' -> Forall (fun op => ~ retargets (length (s_trainers s)) op) ops ->
  forall x y c, 1 <= nr x ->
  sstep s' (SFeed (length (s_trainers s)) x y c) = Undef (match d with DBatch => UninitRead | _ => NullDeref end).
Proof.
  intros ops s s' E Hf x y c Hx. cbn [Session.srun foldM] in E. unfold Session.srun in E. cbn [foldM] in E. cbn [Session.sstep bind] in E.
  destruct (C68_unbound draw junk ops (add_trainer (new_default d) s) s' (length (s_trainers s)) (new_default d) E) as (F & _).
  - cbn. rewrite nth_error_app2, Nat.sub_diag by lia. reflexivity.
  - exact I.
  - exact Hf.
  - specialize (F x y c). destruct d; cbn [to_kind new_default] in F; auto.
Qed.

(** ** Constructors with a network *)
Lemma sgd_nocost (x y : mat) (l : list nat) : forall (a : D) (n : net) (H : lheap),
  foldM (fun '(c, n, H) i => if false then xi <- mrow x i ;; '(_, n1, H1) <- net_predict junk n H xi ;; yi <- mrow y i ;; ci <- net_computecost n1 (n_result n1) yi ;; Ok (dadd c ci, n1, H1) else Ok (c, n, H)) l (a, n, H) = Ok (a, n, H).
Proof. induction l as [|i l IH]; intros; cbn [foldM bind]; auto. Qed.
Lemma batch_nocost (n : net) (y : mat) (l : list Z) : forall (a : D),
  foldM (fun c (_ : Z) => if false then ci <- net_computecost n (n_result n) y ;; Ok (dadd c ci) else Ok c) l a = Ok a.
Proof. induction l as [|i l IH]; intros; cbn [foldM bind]; auto. Qed.

Lemma feeds_plain data : forall t n H kd' n' H', feeds (nocost data) (KPlain t, n, H) = Ok (kd', n', H') ->
  exists t', foldM (fun '(t, n, H) xy => feeddata junk t n H (fst xy) (snd xy)) data (t, n, H) = Ok (t', n', H').
Proof.
  unfold P_Sym.feeds, nocost. induction data as [|xy data IH]; intros t n H kd' n' H' E; cbn [map foldM] in *; [injection E as _ <- <-; eauto|].
  apply bind_ok in E as ([[k1 n1] H1] & E1 & E). apply bind_ok in E1 as ([[[v k2] n2] H2] & E1 & E2). injection E2 as -> -> ->.
  cbn [feed_on] in E1. apply bind_ok in E1 as ([[[v1 t1] n3] H3] & E1 & E2). injection E2 as _ <- -> ->. unfold feeddata_cost in E1. cbn [fst snd] in E1.
  apply bind_ok in E1 as ([[t2 n4] H4] & E1 & E2). injection E2 as _ -> -> ->. rewrite E1. cbn [bind]. eauto.
Qed.
Lemma feeds_sgd data : forall t n H kd' n' H', feeds (nocost data) (KSgd t, n, H) = Ok (kd', n', H') ->
  exists t', foldM (fun '(t, n, H) xy => sgd_feeddata junk t n H (fst xy) (snd xy)) data (t, n, H) = Ok (t', n', H').
Proof.
  unfold P_Sym.feeds, nocost. induction data as [|xy data IH]; intros t n H kd' n' H' E; cbn [map foldM] in *; [injection E as _ <- <-; eauto|].
  apply bind_ok in E as ([[k1 n1] H1] & E1 & E). apply bind_ok in E1 as ([[[v k2] n2] H2] & E1 & E2). injection E2 as -> -> ->.
  cbn [feed_on] in E1. apply bind_ok in E1 as ([[[v1 t1] n3] H3] & E1 & E2). injection E2 as _ <- -> ->. unfold sgd_feeddata_cost in E1. cbn [fst snd] in E1.
  apply bind_ok in E1 as ([[t2 n4] H4] & E1 & E2). rewrite (sgd_nocost (fst xy) (snd xy)) in E2. cbn [bind] in E2. injection E2 as _ -> -> ->. rewrite E1. cbn [bind]. eauto.
Qed.
Lemma feeds_mom data : forall t n H kd' n' H', feeds (nocost data) (KMom t, n, H) = Ok (kd', n', H') ->
  exists t', foldM (fun '(t, n, H) xy => momentum_feeddata junk t n H (fst xy) (snd xy)) data (t, n, H) = Ok (t', n', H').
Proof.
  unfold P_Sym.feeds, nocost. induction data as [|xy data IH]; intros t n H kd' n' H' E; cbn [map foldM] in *; [injection E as _ <- <-; eauto|].
  apply bind_ok in E as ([[k1 n1] H1] & E1 & E). apply bind_ok in E1 as ([[[v k2] n2] H2] & E1 & E2). injection E2 as -> -> ->.
  cbn [feed_on] in E1. apply bind_ok in E1 as ([[[v1 t1] n3] H3] & E1 & E2). injection E2 as _ <- -> ->. unfold momentum_feeddata_cost in E1. cbn [fst snd] in E1.
  apply bind_ok in E1 as ([[t2 n4] H4] & E1 & E2). injection E2 as _ -> -> ->. rewrite E1. cbn [bind]. eauto.
Qed.
Lemma feeds_batch data : forall t n H kd' n' H', feeds (nocost data) (KBatch (bt_t t) (bt_x t) (bt_y t) (Some (bt_size t)), n, H) = Ok (kd', n', H') ->
  exists t', foldM (fun '(t, n, H) xy => batch_feeddata junk t n H (fst xy) (snd xy)) data (t, n, H) = Ok (t', n', H').
Proof.
  unfold P_Sym.feeds, nocost. induction data as [|xy data IH]; intros t n H kd' n' H' E; cbn [map foldM] in *; [injection E as _ <- <-; eauto|].
  apply bind_ok in E as ([[k1 n1] H1] & E1 & E). apply bind_ok in E1 as ([[[v k2] n2] H2] & E1 & E2). injection E2 as -> -> ->.
  cbn [feed_on read_int bind] in E1. apply bind_ok in E1 as ([[[v1 t1] n3] H3] & E1 & E2). injection E2 as _ <- -> ->. unfold batch_feeddata_cost in E1. cbn [fst snd] in E1.
  apply bind_ok in E1 as ([[t2 n4] H4] & E1 & E2). rewrite (batch_nocost n4 (snd xy)) in E2. cbn [bind] in E2. injection E2 as _ -> -> ->. replace (BT (bt_t t) (bt_x t) (bt_y t) (bt_size t)) with t in E1 by (destruct t; reflexivity). rewrite E1. cbn [bind]. eauto.
Qed.

(** A trainer constructed with decay arguments (r0, k, step): after any successful sequence of feeddata calls all learning rates of the network are
    r0 * exp(-k * step) if the counter has been equal to step when a call looked at it, and what they were before otherwise; a trainer constructed without decay never changes them. *)
Theorem C97_decay (c : nspec D) : forall data n H kd kd' n' H', (match c with NBatch b _ => (0 < b)%Z | _ => True end) ->
  new_bound c n H = Ok kd -> feeds (nocost data) (kd, n, H) = Ok (kd', n', H') ->
  match decay_args c with
  | None => rates_same n H n' H'
  | Some (r0, k, step) => (reaches c data step -> rates_are n' H' (dmul r0 (dexp (dmul (dneg k) (dofZ step))))) /\ (~ reaches c data step -> rates_same n H n' H')
  end.
Proof.
  intros data n H kd kd' n' H' Hb E F.
  assert (X : forall (t t' : trainer D) (G : Prop), (G <-> (1 <= t_step t <= Z.of_nat (length data))%Z) ->
     (t_iters t' = Z.of_nat (length data) /\ (if t_usedecay t && (1 <=? t_step t)%Z && (t_step t <=? Z.of_nat (length data))%Z
      then rates_are n' H' (dmul (t_r0 t) (dexp (dmul (dneg (t_k t)) (dofZ (t_step t))))) else rates_same n H n' H')) ->
     (t_usedecay t = false -> rates_same n H n' H') /\
     (t_usedecay t = true -> (G -> rates_are n' H' (dmul (t_r0 t) (dexp (dmul (dneg (t_k t)) (dofZ (t_step t)))))) /\ (~ G -> rates_same n H n' H'))).
  { intros t t' G HG (_ & K). split; intros U; rewrite U in K; [exact K|]. cbn [andb] in K. destruct ((1 <=? t_step t)%Z && (t_step t <=? Z.of_nat (length data))%Z) eqn:B.
    - apply andb_prop in B as [B1 B2]. apply Z.leb_le in B1, B2. split; [auto|]. intros K2. destruct K2. apply HG. lia.
    - split; [|auto]. intros K2. apply HG in K2. apply Bool.andb_false_iff in B as [B|B]; apply Z.leb_gt in B; lia. }
  destruct c as [d|d|b d|mu d]; cbn [new_bound decay_args reaches] in *.
  - injection E as <-. destruct (feeds_plain _ _ _ _ _ _ _ F) as (t' & F'). destruct d as [[[r0 k] step]|].
    + destruct (X (trainer_new_decay r0 k step) t' _ (iff_refl _)) as [_ Y]; [|exact (Y eq_refl)]. exact (C36_trainer junk data (trainer_new_decay r0 k step) n H t' n' H' eq_refl F').
    + destruct (X (@trainer_new D) t' _ (iff_refl _)) as [Y _]; [|exact (Y eq_refl)]. exact (C36_trainer junk data trainer_new n H t' n' H' eq_refl F').
  - injection E as <-. destruct (feeds_sgd _ _ _ _ _ _ _ F) as (t' & F'). destruct d as [[[r0 k] step]|].
    + destruct (X (trainer_new_decay r0 k step) t' _ (iff_refl _)) as [_ Y]; [|exact (Y eq_refl)]. exact (C36_sgd junk data (trainer_new_decay r0 k step) n H t' n' H' eq_refl F').
    + destruct (X (@trainer_new D) t' _ (iff_refl _)) as [Y _]; [|exact (Y eq_refl)]. exact (C36_sgd junk data trainer_new n H t' n' H' eq_refl F').
  - injection E as <-. destruct (feeds_batch data (BT (base_of d) mempty mempty b) _ _ _ _ _ F) as (t' & F').
    assert (I0 : t_iters (base_of d) = 0%Z) by (destruct d as [[[? ?] ?]|]; reflexivity).
    destruct (C37_batch junk b data (BT (base_of d) mempty mempty b) n H t' n' H' Hb eq_refl I0 F') as (_ & A & B).
    destruct d as [[[r0 k] step]|]; cbn in A, B.
    + split; intros; [apply A; auto|apply B; tauto].
    + apply B. intros [Q _]. discriminate.
  - apply bind_ok in E as (m & E & K). injection K as <-. destruct (feeds_mom _ _ _ _ _ _ _ F) as (t' & F').
    assert (I0 : mt_t m = base_of d) by (unfold initmomentum in E; apply bind_ok in E as (hs & _ & E); injection E as <-; reflexivity).
    assert (I1 : t_iters (mt_t m) = 0%Z) by (rewrite I0; destruct d as [[[? ?] ?]|]; reflexivity).
    pose proof (C36_momentum junk data m n H t' n' H' I1 F') as K. rewrite I0 in K.
    destruct (X (base_of d) (mt_t t') _ (iff_refl _) K) as [Y1 Y2]. destruct d as [[[r0 k] step]|]; [exact (Y2 eq_refl)|exact (Y1 eq_refl)].
Qed.

(** ** Assignment *)
Definition same_class (a b : tobj) : Prop :=
  match to_kind a, to_kind b with KPlain _, KPlain _ | KSgd _, KSgd _ | KBatch _ _ _ _, KBatch _ _ _ _ | KMom _, KMom _ => True | _, _ => False end.
(** Feeding trainer i the data in this order: the values returned, and the networks and layers afterwards. *)
Fixpoint fed (i : nat) (data : list (mat * mat * bool)) (s : session) : res (list D * list (option net) * lheap) :=
  match data with
  | [] => Ok ([], s_nets s, s_heap s)
  | (x, y, c) :: r => v <- feed_value junk s i x y c ;; s' <- sstep s (SFeed i x y c) ;; '(vs, ns, H) <- fed i r s' ;; Ok (v :: vs, ns, H)
  end.

Definition sim (a b : tobj) : Prop := to_net a = to_net b /\
  match to_kind a, to_kind b with
  | KBatch t _ _ b, KBatch t' _ _ b' => t = t' /\ b = b'
  | k, k' => k = k' end.
Lemma sim_feed (s : session) a b x y c : sim a b -> 
  match feed junk s a x y c, feed junk s b x y c with
  | Ok (v, k, w), Ok (v', k', w') => v = v' /\ w = w' /\ sim (TO (to_net a) k) (TO (to_net b) k')
  | Ok _, _ => False | _, Ok _ => False
  | Throw, Throw | Abort, Abort => True | Undef u, Undef u' => u = u' | _, _ => False end.
Proof.
  intros [E K]. destruct a as [pa ka], b as [pb kb]. cbn [to_net to_kind] in *. subst pb. 
  assert (R : forall k, sim (TO pa k) (TO pa k)) by (intros [t|t|t ? ? ?|m]; repeat split).
  destruct ka as [t|t|t bx by_ bb|m], kb as [t2|t2|t2 bx2 by2 bb2|m2]; try contradiction; try discriminate; try (injection K as <-; match goal with |- context [feed junk s ?o x y c] => destruct (feed junk s o x y c) as [[[v k] w]| | |]; auto end).
  destruct K as [K1 K2]. subst t2 bb2. unfold feed. cbn [to_net to_kind]. destruct (deref s pa) as [[k n]|u| |]; cbn [bind feed_on feed_blind]; auto.
  - destruct bb as [b|]; cbn [read_int bind]; [|reflexivity]. unfold batch_feeddata_cost, batch_feeddata. cbn [Trainer.bt_size Trainer.bt_t].
    destruct (wrap_rows x b) as [tx| | |]; cbn [bind]; auto. destruct (wrap_rows y b) as [ty| | |]; cbn [bind]; auto.
    destruct (batch_loop junk b tx ty (steps (Z.of_nat (nr x)) b) t n (s_heap s)) as [[[t1 n1] H1]| | |]; cbn [bind]; auto.
    destruct (decay t1 n1 H1) as [[n2 H2]| | |]; cbn [bind]; auto. match goal with |- context [foldM ?f ?l ?a] => destruct (foldM f l a) as [cc| | |] end; cbn [bind]; auto.
    repeat split.
  - destruct bb as [b|]; cbn [read_int bind]; [|reflexivity].
    destruct (wrap_rows x b) as [tx| | |]; cbn [bind]; auto. destruct (wrap_rows y b) as [ty| | |]; cbn [bind]; auto.
    destruct (fires t || (0 <? Z.of_nat (nr x))%Z); cbn [bind]; auto.
Qed.
Lemma fed_sim : forall data d j s s2 a b, s_nets s = s_nets s2 -> s_heap s = s_heap s2 ->
  nth_error (s_trainers s) d = Some (Some a) -> nth_error (s_trainers s2) j = Some (Some b) -> sim a b -> fed d data s = fed j data s2.
Proof.
  induction data as [|[[x y] c] data IH]; intros d j s s2 a b En Eh Ed Ej Hs; cbn [fed]; [now rewrite En, Eh|].
  unfold feed_value. cbn [Session.sstep]. unfold live_trainer. rewrite Ed, Ej. cbn [bind]. pose proof (sim_feed s a b x y c Hs) as F.
  assert (Ef : feed junk s2 b x y c = feed junk s b x y c) by (unfold feed, deref, live_net; rewrite En, Eh; reflexivity). rewrite Ef.
  destruct (feed junk s a x y c) as [[[v k] w]|u| |], (feed junk s b x y c) as [[[v' k'] w']|u'| |]; try contradiction; cbn [bind]; [|now subst|reflexivity|reflexivity].
  destruct F as (<- & <- & F). f_equal. erewrite IH; [reflexivity| | | | |exact F].
  - destruct w as [[[? ?] ?]|]; cbn; congruence.
  - destruct w as [[[? ?] ?]|]; cbn; congruence.
  - assert (Hl := nth_lt _ _ _ Ed). destruct w as [[[? ?] ?]|]; cbn; apply nth_upd; assumption.
  - assert (Hl := nth_lt _ _ _ Ej). destruct w as [[[? ?] ?]|]; cbn; apply nth_upd; assumption.
Qed.

(** After assigning one trainer to another of the same class the two are interchangeable: any sequence of feeddata calls returns the same values through the one as through the
    other, leaves the same networks, and fails at the same call in the same way. *)
Theorem C97_assign : forall s s' d j od oj data, nth_error (s_trainers s) d = Some (Some od) -> nth_error (s_trainers s) j = Some (Some oj) -> same_class od oj ->
  sstep s (SAssign d j) = Ok s' -> s_nets s' = s_nets s /\ s_heap s' = s_heap s /\ fed d data s' = fed j data s'  /\ (d <> j -> fed d data s' = fed j data s).
Proof.
  intros s s' d j od oj data Ed Ej Hc E. cbn [Session.sstep] in E. unfold live_trainer in E. rewrite Ed, Ej in E. cbn [bind] in E. apply bind_ok in E as (o' & E & E'). injection E' as <-.
  assert (K : sim o' oj).
  { unfold same_class in Hc. unfold assign_trainer, trainer_assign, batch_assign, momentum_assign, trainer_assign, trainer_copy in E. destruct (to_kind od), oj as [pj [tj|tj|tj bx by_ bj|mj]]; try contradiction; cbn [to_kind to_net] in *.
    - injection E as <-. split; [reflexivity|]. destruct tj. reflexivity.
    - injection E as <-. split; [reflexivity|]. destruct tj. reflexivity.
    - apply bind_ok in E as (b' & E0 & E). injection E as <-. split; [reflexivity|]. cbn. destruct bj; [|discriminate]. injection E0 as <-. destruct tj. split; reflexivity.
    - injection E as <-. split; [reflexivity|]. destruct mj as [[] ? ? ?]. reflexivity. }
  assert (Hl := nth_lt _ _ _ Ed). split; [reflexivity|]. split; [reflexivity|]. 
  destruct (Nat.eq_dec d j) as [->|Hn]; [split; [reflexivity|congruence]|]. split; [|intros _]; eapply fed_sim with (a := o') (b := oj); try reflexivity; try exact K; cbn; try (apply nth_upd; assumption); try exact Ej.
  rewrite nth_error_upd. destruct (Nat.eqb_spec j d); [congruence|exact Ej].
Qed.
(** Assignment between trainers of different classes (through Trainer&): the destination stays of its class and keeps what only its class has (batch data and
    size, momentum and accumulated gradients), and takes over the source's network, counter and decay settings. The networks and the other trainers are untouched. *)
Theorem C97_assign_other : forall s d j od oj, nth_error (s_trainers s) d = Some (Some od) -> nth_error (s_trainers s) j = Some (Some oj) -> ~ same_class od oj ->
  exists s' o', sstep s (SAssign d j) = Ok s' /\ s_nets s' = s_nets s /\ s_heap s' = s_heap s /\ nth_error (s_trainers s') d = Some (Some o') /\
    (forall i, i <> d -> nth_error (s_trainers s') i = nth_error (s_trainers s) i) /\
    to_net o' = to_net oj /\ to_base o' = to_base oj /\
    match to_kind od, to_kind o' with
    | KPlain _, KPlain _ | KSgd _, KSgd _ => True
    | KBatch _ x y b, KBatch _ x' y' b' => x' = x /\ y' = y /\ b' = b
    | KMom m, KMom m' => mt_mom m' = mt_mom m /\ mt_ograd m' = mt_ograd m /\ mt_hgrads m' = mt_hgrads m
    | _, _ => False
    end.
Proof.
  intros s d j od oj Ed Ej Hc. cbn [Session.sstep]. unfold live_trainer. rewrite Ed, Ej. cbn [bind]. assert (Hl := nth_lt _ _ _ Ed).
  assert (R : forall t : trainer D, trainer_assign (D := D) t (to_base oj) = to_base oj) by (intros t; unfold trainer_assign, trainer_copy; destruct (to_base oj); reflexivity).
  assert (X : exists o', assign_trainer od oj = Ok o' /\ to_net o' = to_net oj /\ to_base o' = to_base oj /\
    match to_kind od, to_kind o' with
    | KPlain _, KPlain _ | KSgd _, KSgd _ => True
    | KBatch _ x y b, KBatch _ x' y' b' => x' = x /\ y' = y /\ b' = b
    | KMom m, KMom m' => mt_mom m' = mt_mom m /\ mt_ograd m' = mt_ograd m /\ mt_hgrads m' = mt_hgrads m
    | _, _ => False
    end).
  { unfold assign_trainer, same_class in *. destruct (to_kind od) as [t|t|t bx by_ bb|m], (to_kind oj) as [t2|t2|t2 bx2 by2 bb2|m2] eqn:Ek; try (exfalso; apply Hc; exact I);
    (eexists; split; [reflexivity|]; cbn [to_net to_kind]; split; [reflexivity|]; split; [|repeat split]); unfold to_base at 1; cbn [to_kind]; try apply R; cbn [mt_t]; apply R. }
  destruct X as (o' & E & A & B & C). rewrite E. cbn [bind]. eexists _, o'. split; [reflexivity|]. split; [reflexivity|]. split; [reflexivity|]. cbn [s_trainers]. split; [apply nth_upd; assumption|].
  split; [|auto]. intros i Hi. cbn. rewrite nth_error_upd. destruct (Nat.eqb_spec i d); [contradiction|reflexivity].
Qed.

(** The constructors give the trainers the other properties feed (C36, C37, C38, C64, ...): a BatchTrainer and a MomentumTrainer with and without decay. *)
Theorem C97_objects : forall (b : Z) (mu r0 k : D) (step : Z) (n : net) (H : lheap),
  new_bound (NBatch b None) n H = (let t := batch_new b in Ok (KBatch (bt_t t) (bt_x t) (bt_y t) (Some (bt_size t)))) /\
  new_bound (NBatch b (Some (r0, k, step))) n H = (let t := batch_new_decay b r0 k step in Ok (KBatch (bt_t t) (bt_x t) (bt_y t) (Some (bt_size t)))) /\
  new_bound (NMom mu None) n H = (t <- momentum_new mu n H ;; Ok (KMom t)) /\
  new_bound (NMom mu (Some (r0, k, step))) n H = (t <- momentum_new_decay mu r0 k step n H ;; Ok (KMom t)).
Proof. intros. repeat split. Qed.

(** The one call that is defined on a trainer whose network is gone or never was: an SGDTrainer given data without rows.  Unless the decay is due in this call it returns 0 and
    changes nothing but the trainer's counter; if it is due the network is dereferenced. *)
Theorem C97_empty : forall s j o t x y c, nth_error (s_trainers s) j = Some (Some o) -> unbound s o -> to_kind o = KSgd t -> nr x = 0 ->
  (t_usedecay t = true /\ (t_iters t + 1)%Z = t_step t -> sstep s (SFeed j x y c) = Undef (blind_ub o) /\ feed_value junk s j x y c = Undef (blind_ub o)) /\
  (~ (t_usedecay t = true /\ (t_iters t + 1)%Z = t_step t) -> feed_value junk s j x y c = Ok (dofZ 0) /\
     exists s' t', sstep s (SFeed j x y c) = Ok s' /\ s_nets s' = s_nets s /\ s_heap s' = s_heap s /\
       (forall i, i <> j -> nth_error (s_trainers s') i = nth_error (s_trainers s) i) /\
       nth_error (s_trainers s') j = Some (Some (TO (to_net o) (KSgd t'))) /\
       t_iters t' = (t_iters t + 1)%Z /\ t_step t' = t_step t /\ t_usedecay t' = t_usedecay t /\ t_k t' = t_k t /\ t_r0 t' = t_r0 t).
Proof.
  intros s j o t x y c Hj Hu Hk Hx. destruct (unbound_deref _ _ Hu) as (u & Ed & Eu). assert (Bu : u = blind_ub o) by (rewrite Eu; unfold blind_ub; destruct (to_net o); reflexivity). rewrite Bu in Ed.
  assert (EL : live_trainer s j = Ok o) by (unfold live_trainer; now rewrite Hj).
  unfold feed_value. cbn [Session.sstep]. rewrite EL. cbn [bind]. unfold feed. rewrite Ed, Hk. cbn [feed_blind]. rewrite Hx. cbn [Z.of_nat Z.ltb Z.compare]. rewrite orb_false_r. unfold fires. cbn [tick t_usedecay t_iters t_step].
  assert (X : (t_usedecay t && (t_iters t + 1 =? t_step t)%Z = true) <-> (t_usedecay t = true /\ (t_iters t + 1)%Z = t_step t)) by (rewrite andb_true_iff, Z.eqb_eq; tauto).
  split; intros K.
  - apply X in K. rewrite K. split; reflexivity.
  - destruct (t_usedecay t && (t_iters t + 1 =? t_step t)%Z); [destruct K; apply X; reflexivity|]. cbn [bind]. split; [reflexivity|]. eexists _, (tick t). split; [reflexivity|]. cbn [set_trainer s_nets s_heap s_trainers].
    split; [reflexivity|]. split; [reflexivity|]. split; [|split; [apply nth_upd; apply nth_error_Some; congruence|repeat split]].
    intros i Hi. rewrite nth_error_upd. destruct (Nat.eqb_spec i j); [contradiction|reflexivity].
Qed.

(** ** Copy construction *)
(** Copying trainer i leaves the networks, the layers and the other trainers alone and adds a trainer for the same network (a derived class needs that network to exist) with the same
    settings: a copy made as a Trainer (of whatever class the source is, [slice]) continues the counter; one of class SGDTrainer, BatchTrainer or MomentumTrainer starts at 0 with decay
    enabled and keeps the batch size, or the momentum and the gradients accumulated so far. *)
Theorem C97_copy : forall s slice i o s', nth_error (s_trainers s) i = Some (Some o) -> sstep s (SCopy slice i) = Ok s' ->
  exists o', s_nets s' = s_nets s /\ s_heap s' = s_heap s /\ s_trainers s' = s_trainers s ++ [Some o'] /\ to_net o' = to_net o /\
    t_step (to_base o') = t_step (to_base o) /\ t_k (to_base o') = t_k (to_base o) /\ t_r0 (to_base o') = t_r0 (to_base o) /\
    match (if slice then KPlain (to_base o) else to_kind o), to_kind o' with
    | KPlain t, KPlain t' => t_iters t' = t_iters t /\ t_usedecay t' = t_usedecay t
    | KSgd _, KSgd t' => t_iters t' = 0%Z /\ t_usedecay t' = true
    | KBatch _ _ _ b, KBatch t' _ _ b' => t_iters t' = 0%Z /\ t_usedecay t' = true /\ b' = b /\ b <> None
    | KMom m, KMom m' => t_iters (mt_t m') = 0%Z /\ t_usedecay (mt_t m') = true /\ mt_mom m' = mt_mom m /\ mt_ograd m' = mt_ograd m /\ mt_hgrads m' = mt_hgrads m
    | _, _ => False
    end.
Proof.
  intros s slice i [p kd] s' Hi E. cbn [Session.sstep] in E. unfold live_trainer in E. rewrite Hi in E. cbn [bind] in E. apply bind_ok in E as (o' & E & X). injection X as <-. exists o'. do 3 (split; [reflexivity|]).
  assert (Z : forall q, deref s p = Ok q -> p = Some (fst q)). { unfold deref. destruct p as [k0|]; [|discriminate]. intros q Q. apply bind_ok in Q as (n0 & _ & Q). now injection Q as <-. }
  unfold copy_trainer in E. destruct slice.
  - injection E as <-. cbn. repeat split.
  - destruct kd as [t|t|t bx by_ b|m]; cbn [to_kind to_net] in E.
    + injection E as <-. cbn. repeat split.
    + apply bind_ok in E as ([k0 n0] & E1 & E). injection E as <-. rewrite (Z _ E1). cbn. repeat split.
    + apply bind_ok in E as ([k0 n0] & E1 & E). apply bind_ok in E as (b0 & E2 & E). injection E as <-. rewrite (Z _ E1). destruct b as [b|]; [|discriminate]. injection E2 as ->. cbn. repeat split. discriminate.
    + apply bind_ok in E as ([k0 n0] & E1 & E). injection E as <-. rewrite (Z _ E1). cbn. repeat split.
Qed.
End Generic.



(** ** A program meeting the hypotheses: one network, trainer 0 with decay (r0 = 7, k = 1, step = 2), trainer 1 default-constructed; trainer 1 is assigned from trainer 0
    after one call, so that the second call through either of them is the one that sets the rates (to 7 * (-1 * 2), exp being the identity in Zdt). *)
Definition exs : session Zdt := SS [Some exn] exH [].
Definition exdr0 : Zdt -> nat -> Zdt := fun _ _ => 0%Z.
Definition rates_of (r : res (list Zdt * list (option (net Zdt)) * lheap Zdt)) : option (nat * Z) :=
  match r with Ok (vs, [Some n], _) => Some (length vs, l_lrate (o_l (n_output n)) : Z) | _ => None end.
Example C97_example :
  let prog := [SNew (NPlain (D := Zdt) (Some (7%Z : Zdt, 1%Z : Zdt, 2%Z))) 0; SDefault DPlain; SDefault DBatch; SFeed 0 exx exy true] in
  (match srun (D := Zdt) exdr0 exj prog exs with
   | Ok s => sstep (D := Zdt) exdr0 exj s (SFeed 1 exx exy false) = Undef NullDeref /\ sstep (D := Zdt) exdr0 exj s (SFeed 2 exx exy false) = Undef UninitRead /\
       match sstep (D := Zdt) exdr0 exj s (SAssign 1 0) with
       | Ok s' => rates_of (fed exdr0 exj 1 [(exx, exy, true)] s') = Some (1, (-14)%Z) /\ rates_of (fed exdr0 exj 1 [] s') = Some (0, 1%Z) /\
                  rates_of (fed exdr0 exj 1 [(exx, exy, true)] s') = rates_of (fed exdr0 exj 0 [(exx, exy, true)] s')
       | _ => False end
   | _ => False end) /\
  (exists kd kd' n' H', new_bound (NPlain (D := Zdt) (Some (7%Z : Zdt, 1%Z : Zdt, 2%Z))) exn exH = Ok kd /\
     feeds exj (nocost [(exx, exy); (exx, exy)]) (kd, exn, exH) = Ok (kd', n', H') /\ reaches (NPlain (D := Zdt) (Some (7%Z : Zdt, 1%Z : Zdt, 2%Z))) [(exx, exy); (exx, exy)] 2).
Proof.
  split; [vm_compute; repeat split; reflexivity|]. do 4 eexists. split; [vm_compute; reflexivity|]. split; [vm_compute; reflexivity|]. cbn. lia.
Qed.
(** Two trainers of different classes that exist side by side. *)
Example C97_other_example :
  match srun (D := Zdt) exdr0 exj [SNew (NPlain (D := Zdt) (Some (7%Z : Zdt, 1%Z : Zdt, 2%Z))) 0; SNew (NMom (D := Zdt) (3%Z : Zdt) None) 0] exs with
  | Ok s => match nth_error (s_trainers s) 1, nth_error (s_trainers s) 0 with Some (Some od), Some (Some oj) => ~ same_class od oj | _, _ => False end
  | _ => False end.
Proof. vm_compute. intros []. Qed.
(** An SGDTrainer whose network has been destroyed, given an empty matrix: the decay is due in the second call. *)
Example C97_empty_example :
  match srun (D := Zdt) exdr0 exj [SNew (NSgd (D := Zdt) (Some (7%Z : Zdt, 1%Z : Zdt, 2%Z))) 0; SDropNet 0] exs with
  | Ok s => feed_value (D := Zdt) exj s 0 mempty mempty true = Ok (0%Z : Zdt) /\
      match sstep (D := Zdt) exdr0 exj s (SFeed 0 mempty mempty true) with Ok s' => sstep (D := Zdt) exdr0 exj s' (SFeed 0 mempty mempty true) = Undef UseAfterFree | _ => False end
  | _ => False end.
Proof. vm_compute. split; reflexivity. Qed.
(** Copies of a trainer with decay, as Trainer and as SGDTrainer, after one call: the next call is the second for one and the first for the other. *)
Example C97_copy_example :
  match srun (D := Zdt) exdr0 exj [SNew (NSgd (D := Zdt) (Some (7%Z : Zdt, 1%Z : Zdt, 2%Z))) 0; SFeed 0 exx exy false; SCopy true 0; SCopy false 0] exs with
  | Ok s => map (option_map (fun o => t_iters (to_base o))) (s_trainers s) = [Some 1%Z; Some 1%Z; Some 0%Z]
  | _ => False end.
Proof. vm_compute. reflexivity. Qed.

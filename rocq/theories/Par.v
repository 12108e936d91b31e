(** Par.v - OpenMP parallel-for (src/tensor/openmp_support.h:3-7) as arbitrary interleavings of the
    single memory accesses of the iterations.

    Every parallel loop body in src/tensor/ops reads a fixed list of cells, computes, and writes at most one
    cell; that is [iter].  OpenMP hands several iterations to one thread in order; letting every
    iteration be its own thread allows more interleavings, so a theorem for all of these covers all
    OpenMP schedules. *)
From Verif Require Import Base Mem.
Local Open Scope Z_scope.

Section Par.
Context {D : Type}.
Notation heap := (heap D).
Implicit Types h : heap.

Record iter := Iter {
  it_reads : list addr;              (** cells read, in program order *)
  it_fun : list D -> option D;       (** value written, [None] = the body does not write *)
  it_write : addr                    (** cell written *)
}.

Record thread := Th { th_it : iter; th_vals : list D; th_done : bool }.
Definition start (it : iter) : thread := Th it [] false.

(** One memory access of one iteration. *)
Definition tstep (h : heap) (t : thread) : res (thread * heap) :=
  if th_done t then Ok (t, h) else
  match nth_error (it_reads (th_it t)) (length (th_vals t)) with
  | Some a => v <- load h a ;; Ok (Th (th_it t) (th_vals t ++ [v]) false, h)
  | None =>
      match it_fun (th_it t) (th_vals t) with
      | Some v => h' <- store h (it_write (th_it t)) v ;; Ok (Th (th_it t) (th_vals t) true, h')
      | None => Ok (Th (th_it t) (th_vals t) true, h)
      end
  end.

(** A schedule names the iteration that moves next. *)
Fixpoint run_sched (s : list nat) (ts : list thread) (h : heap) : res (list thread * heap) :=
  match s with
  | [] => Ok (ts, h)
  | k :: s' =>
      match nth_error ts k with
      | None => run_sched s' ts h
      | Some t => '(t', h') <- tstep h t ;; run_sched s' (upd k t' ts) h'
      end
  end.

(** After the given schedule all iterations are run to completion in order, so that every
    schedule denotes a complete execution and every complete execution is denoted by a schedule. *)
Fixpoint drain (k : nat) (its : list iter) : list nat :=
  match its with
  | [] => []
  | it :: r => repeat k (S (length (it_reads it))) ++ drain (S k) r
  end.

Definition interleave (s : list nat) (its : list iter) (h : heap) : res heap :=
  '(_, h') <- run_sched (s ++ drain 0 its) (map start its) h ;; Ok h'.

(** Sequential execution of the same loop. *)
Definition seq_iter (h : heap) (it : iter) : res heap :=
  vs <- mapM (load h) (it_reads it) ;;
  match it_fun it vs with Some v => store h (it_write it) v | None => Ok h end.
Definition seq_for (its : list iter) (h : heap) : res heap := foldM seq_iter its h.

(** No cell written by one iteration is read or written by another. *)
Definition race_free (its : list iter) : Prop :=
  forall i j x y, nth_error its i = Some x -> nth_error its j = Some y -> i <> j ->
    it_write x <> it_write y /\ ~ In (it_write x) (it_reads y).

(** Iteration [it], started in heap [h0], loads [vs]. *)
Definition loads (h0 : heap) (it : iter) (vs : list D) : Prop :=
  Forall2 (fun a v => load h0 a = Ok v) (it_reads it) vs.

(** What the loop leaves behind, in terms of the heap it started from only. *)
Definition par_result (its : list iter) (h0 h' : heap) : Prop :=
  skel h' = skel h0 /\
  (forall it, In it its -> exists vs, loads h0 it vs /\
      match it_fun it vs with Some v => hget h' (it_write it) = Some (Some v) | None => True end) /\
  (forall a, (forall it vs v, In it its -> loads h0 it vs -> it_fun it vs = Some v -> it_write it <> a) ->
             hget h' a = hget h0 a).

Lemma load_hget h1 h2 a v : hget h1 a = hget h2 a -> load h1 a = Ok v -> load h2 a = Ok v.
Proof. unfold load. intros ->. destruct (hget h2 a) as [[|]|]; congruence. Qed.

Lemma load_ok h a v : load h a = Ok v <-> hget h a = Some (Some v).
Proof.
  unfold load. destruct (hget h a) as [[w|]|]; split; intros H; try congruence.
Qed.

Lemma loads_fun h it v1 v2 : loads h it v1 -> loads h it v2 -> v1 = v2.
Proof.
  unfold loads. intros H. revert v2. induction H as [|a v l vs Ha Hl IH]; intros v2 H2.
  - inversion H2; reflexivity.
  - inversion H2 as [|? w ? ws Hw Hws]; subst. f_equal; [congruence|auto].
Qed.

Lemma hget_dec (h : heap) a : hget h a = None \/ hget h a <> None.
Proof. destruct (hget h a); [right; congruence|left; reflexivity]. Qed.

(** ** Invariant of an execution *)
Record pinv (its : list iter) (h0 : heap) (ts : list thread) (h : heap) : Prop := {
  pi_its : map th_it ts = its;
  pi_vals : forall k t, nth_error ts k = Some t ->
     exists n, Forall2 (fun a v => load h0 a = Ok v) (firstn n (it_reads (th_it t))) (th_vals t)
          /\ (n <= length (it_reads (th_it t)))%nat
          /\ (th_done t = true -> n = length (it_reads (th_it t)));
  pi_skel : skel h = skel h0;
  pi_done : forall k t v, nth_error ts k = Some t -> th_done t = true ->
     it_fun (th_it t) (th_vals t) = Some v -> hget h (it_write (th_it t)) = Some (Some v);
  pi_frame : forall a,
     (forall k t v, nth_error ts k = Some t -> th_done t = true ->
                    it_fun (th_it t) (th_vals t) = Some v -> it_write (th_it t) <> a) ->
     hget h a = hget h0 a
}.

Lemma pinv_start its h : pinv its h (map start its) h.
Proof.
  constructor.
  - rewrite map_map. simpl. apply map_id.
  - intros k t Ht. rewrite nth_error_map in Ht. destruct (nth_error its k) as [it|]; [|discriminate].
    injection Ht as <-. exists 0%nat. simpl. repeat split; [constructor|lia|discriminate].
  - reflexivity.
  - intros k t v Ht Hd. rewrite nth_error_map in Ht. destruct (nth_error its k); [|discriminate].
    injection Ht as <-. discriminate.
  - reflexivity.
Qed.

Lemma firstn_snoc {A} n (l : list A) a : nth_error l n = Some a -> firstn (S n) l = firstn n l ++ [a].
Proof.
  revert l; induction n as [|n IH]; intros [|x l] H; simpl in *; try discriminate.
  - injection H as ->. reflexivity.
  - f_equal. apply IH. assumption.
Qed.

Lemma nth_error_its its ts k t :
  map th_it ts = its -> nth_error ts k = Some t -> nth_error its k = Some (th_it t).
Proof. intros <- H. rewrite nth_error_map, H. reflexivity. Qed.

(** A cell read by an unfinished iteration still has its initial content. *)
Lemma pinv_read its h0 ts h k t a :
  race_free its -> pinv its h0 ts h -> nth_error ts k = Some t -> th_done t = false ->
  In a (it_reads (th_it t)) -> hget h a = hget h0 a.
Proof.
  intros Hrf Hi Hk Hd Ha. apply (pi_frame _ _ _ _ Hi). intros j u v Hj Hdj Hf He.
  destruct (Nat.eq_dec j k) as [->|Hn]; [congruence|].
  destruct (Hrf j k _ _ (nth_error_its _ _ _ _ (pi_its _ _ _ _ Hi) Hj)
                        (nth_error_its _ _ _ _ (pi_its _ _ _ _ Hi) Hk) Hn) as [_ Hr].
  apply Hr. congruence.
Qed.

Lemma pinv_upd_its its ts k t t' :
  map th_it ts = its -> nth_error ts k = Some t -> th_it t' = th_it t -> map th_it (upd k t' ts) = its.
Proof.
  intros <- Hk He. apply nth_error_ext. intros i. rewrite !nth_error_map, nth_error_upd.
  destruct (Nat.eqb_spec i k) as [->|]; [|reflexivity]. rewrite Hk. simpl. congruence.
Qed.

Lemma pinv_step its h0 ts h k t t' h' :
  race_free its -> pinv its h0 ts h -> nth_error ts k = Some t ->
  tstep h t = Ok (t', h') -> pinv its h0 (upd k t' ts) h'.
Proof.
  intros Hrf Hi Hk Hs. assert (Hits := pi_its _ _ _ _ Hi).
  unfold tstep in Hs. destruct (th_done t) eqn:Hd.
  - injection Hs as <- <-. replace (upd k t ts) with ts; [assumption|].
    apply nth_error_ext. intros i. rewrite nth_error_upd. destruct (Nat.eqb_spec i k) as [->|]; [|reflexivity].
    rewrite Hk. reflexivity.
  - destruct (nth_error (it_reads (th_it t)) (length (th_vals t))) as [a|] eqn:Hrd.
    + (* a read *)
      apply bind_ok in Hs as (v & Hv & Hs). injection Hs as <- <-.
      assert (Ha : hget h a = hget h0 a).
      { eapply pinv_read; eauto. eapply nth_error_In; eauto. }
      assert (Hupd : forall j u, nth_error (upd k (Th (th_it t) (th_vals t ++ [v]) false) ts) j = Some u ->
                 (j = k /\ u = Th (th_it t) (th_vals t ++ [v]) false) \/ (j <> k /\ nth_error ts j = Some u)).
      { intros j u Hj. rewrite nth_error_upd in Hj. destruct (Nat.eqb_spec j k) as [->|]; [|auto].
        rewrite Hk in Hj. left. split; congruence. }
      constructor.
      * eapply pinv_upd_its; eauto.
      * intros j u Hj. destruct (Hupd _ _ Hj) as [[-> ->]|[Hn Hj']]; [|eapply (pi_vals _ _ _ _ Hi); eauto].
        destruct (pi_vals _ _ _ _ Hi _ _ Hk) as (n & Hf & Hn & _). simpl.
        assert (En : n = length (th_vals t)).
        { apply Forall2_len in Hf. rewrite firstn_length in Hf. lia. }
        subst n. exists (S (length (th_vals t))). repeat split.
        -- rewrite (firstn_snoc _ _ a) by assumption. apply Forall2_app; [assumption|].
           constructor; [|constructor]. eapply load_hget; eauto.
        -- apply nth_error_Some. congruence.
        -- discriminate.
      * apply (pi_skel _ _ _ _ Hi).
      * intros j u w Hj Hdj Hf. destruct (Hupd _ _ Hj) as [[-> ->]|[Hn Hj']]; [discriminate|].
        eapply (pi_done _ _ _ _ Hi); eauto.
      * intros b Hb. apply (pi_frame _ _ _ _ Hi). intros j u w Hj Hdj Hf.
        apply (Hb j u w); auto. rewrite nth_error_upd. destruct (Nat.eqb_spec j k) as [->|]; [|assumption].
        congruence.
    + (* the write *)
      assert (Hvals : Forall2 (fun a v => load h0 a = Ok v) (it_reads (th_it t)) (th_vals t)).
      { destruct (pi_vals _ _ _ _ Hi _ _ Hk) as (n & Hf & Hn & _).
        assert (En : n = length (th_vals t)).
        { apply Forall2_len in Hf. rewrite firstn_length in Hf. lia. }
        apply nth_error_None in Hrd. subst n. rewrite firstn_all2 in Hf by assumption. assumption. }
      assert (Hv : forall t1, t1 = Th (th_it t) (th_vals t) true -> 
          forall j u, nth_error (upd k t1 ts) j = Some u ->
          exists n, Forall2 (fun a v => load h0 a = Ok v) (firstn n (it_reads (th_it u))) (th_vals u)
          /\ (n <= length (it_reads (th_it u)))%nat
          /\ (th_done u = true -> n = length (it_reads (th_it u)))).
      { intros t1 -> j u Hj. rewrite nth_error_upd in Hj. destruct (Nat.eqb_spec j k) as [->|].
        - rewrite Hk in Hj. injection Hj as <-. simpl. exists (length (it_reads (th_it t))).
          rewrite firstn_all. auto.
        - eapply (pi_vals _ _ _ _ Hi); eauto. }
      destruct (it_fun (th_it t) (th_vals t)) as [v|] eqn:Hfun.
      * apply bind_ok in Hs as (h1 & Hst & Hs). injection Hs as <- <-.
        unfold store in Hst. destruct (hget h (it_write (th_it t))) as [c|] eqn:Hc; [|discriminate].
        injection Hst as <-.
        assert (Hne : hget h (it_write (th_it t)) <> None) by congruence.
        assert (Hoth : forall j u, nth_error ts j = Some u -> j <> k -> it_write (th_it u) <> it_write (th_it t)).
        { intros j u Hj Hn. eapply Hrf; [| |exact Hn];
            eapply nth_error_its; eauto. }
        constructor.
        -- eapply pinv_upd_its; eauto.
        -- apply Hv. reflexivity.
        -- rewrite skel_hset. apply (pi_skel _ _ _ _ Hi).
        -- intros j u w Hj Hdj Hf. rewrite nth_error_upd in Hj. destruct (Nat.eqb_spec j k) as [->|Hn].
           ++ rewrite Hk in Hj. injection Hj as <-. simpl in *.
              rewrite hget_hset_same by assumption. congruence.
           ++ rewrite hget_hset_other by (apply not_eq_sym; eapply Hoth; eauto).
              eapply (pi_done _ _ _ _ Hi); eauto.
        -- intros b Hb. rewrite hget_hset_other.
           ++ apply (pi_frame _ _ _ _ Hi). intros j u w Hj Hdj Hf.
              apply (Hb j u w); auto. rewrite nth_error_upd. destruct (Nat.eqb_spec j k) as [->|]; [|assumption].
              congruence.
           ++ apply (Hb k (Th (th_it t) (th_vals t) true) v); auto.
              rewrite nth_error_upd, Nat.eqb_refl, Hk. reflexivity.
      * injection Hs as <- <-. constructor.
        -- eapply pinv_upd_its; eauto.
        -- apply Hv. reflexivity.
        -- apply (pi_skel _ _ _ _ Hi).
        -- intros j u w Hj Hdj Hf. rewrite nth_error_upd in Hj. destruct (Nat.eqb_spec j k) as [->|Hn].
           ++ rewrite Hk in Hj. injection Hj as <-. simpl in *. congruence.
           ++ eapply (pi_done _ _ _ _ Hi); eauto.
        -- intros b Hb. apply (pi_frame _ _ _ _ Hi). intros j u w Hj Hdj Hf.
           apply (Hb j u w); auto. rewrite nth_error_upd. destruct (Nat.eqb_spec j k) as [->|]; [|assumption].
           congruence.
Qed.

Lemma pinv_run its h0 s : forall ts h ts' h',
  race_free its -> pinv its h0 ts h -> run_sched s ts h = Ok (ts', h') -> pinv its h0 ts' h'.
Proof.
  induction s as [|k s IH]; intros ts h ts' h' Hrf Hi Hr; simpl in Hr.
  - injection Hr as <- <-. assumption.
  - destruct (nth_error ts k) as [t|] eqn:Hk; [|eauto].
    apply bind_ok in Hr as ([t1 h1] & Hst & Hr). eapply IH; [assumption| |exact Hr].
    eapply pinv_step; eauto.
Qed.

(** ** Progress: how far each iteration gets *)
Definition left_ (t : thread) : nat :=
  if th_done t then 0%nat else S (length (it_reads (th_it t)) - length (th_vals t)).

Lemma tstep_left h t t' h' :
  tstep h t = Ok (t', h') -> left_ t' = Nat.pred (left_ t) /\ th_it t' = th_it t.
Proof.
  unfold tstep, left_. destruct (th_done t) eqn:Hd.
  - intros E. injection E as <- <-. rewrite Hd. auto.
  - destruct (nth_error (it_reads (th_it t)) (length (th_vals t))) as [a|] eqn:Hn.
    + intros E. apply bind_ok in E as (v & _ & E). injection E as <- <-. simpl.
      assert (length (th_vals t) < length (it_reads (th_it t)))%nat by (apply nth_error_Some; congruence).
      rewrite app_length. simpl. split; [lia|reflexivity].
    + apply nth_error_None in Hn. destruct (it_fun _ _).
      * intros E. apply bind_ok in E as (h1 & _ & E). injection E as <- <-. simpl. split; [lia|reflexivity].
      * intros E. injection E as <- <-. simpl. split; [lia|reflexivity].
Qed.

Lemma run_left s : forall ts h ts' h',
  run_sched s ts h = Ok (ts', h') ->
  forall k t, nth_error ts k = Some t ->
  exists t', nth_error ts' k = Some t' /\ (left_ t' <= left_ t - count_occ Nat.eq_dec s k)%nat /\ th_it t' = th_it t.
Proof.
  induction s as [|j s IH]; intros ts h ts' h' Hr k t Hk; simpl in Hr.
  - injection Hr as <- <-. exists t. simpl. split; [assumption|]. split; [lia|reflexivity].
  - destruct (nth_error ts j) as [u|] eqn:Hj.
    + apply bind_ok in Hr as ([u1 h1] & Hst & Hr). destruct (tstep_left _ _ _ _ Hst) as [Hl Hti].
      destruct (Nat.eq_dec j k) as [->|Hn].
      * assert (t = u) by congruence. subst u.
        destruct (IH _ _ _ _ Hr k u1) as (t' & Ht' & Hle & He).
        { rewrite nth_error_upd, Nat.eqb_refl, Hk. reflexivity. }
        exists t'. split; [assumption|]. rewrite count_occ_cons_eq by reflexivity. split; [lia|congruence].
      * destruct (IH _ _ _ _ Hr k t) as (t' & Ht' & Hle & He).
        { rewrite nth_error_upd. destruct (Nat.eqb_spec k j); [congruence|assumption]. }
        exists t'. split; [assumption|]. rewrite count_occ_cons_neq by congruence. auto.
    + destruct (IH _ _ _ _ Hr k t Hk) as (t' & Ht' & Hle & He).
      exists t'. split; [assumption|]. rewrite count_occ_cons_neq by congruence. auto.
Qed.

Lemma count_drain its : forall k0 k it,
  nth_error its k = Some it -> (S (length (it_reads it)) <= count_occ Nat.eq_dec (drain k0 its) (k0 + k))%nat.
Proof.
  induction its as [|x its IH]; intros k0 k it Hk; [destruct k; discriminate|].
  cbn [drain]. rewrite count_occ_app. destruct k as [|k]; simpl in Hk.
  - injection Hk as ->. rewrite Nat.add_0_r.
    assert (E : forall n, count_occ Nat.eq_dec (repeat k0 n) k0 = n).
    { induction n; [reflexivity|]. simpl repeat. rewrite count_occ_cons_eq by reflexivity. lia. }
    rewrite E. lia.
  - specialize (IH (S k0) k it Hk). replace (k0 + S k)%nat with (S k0 + k)%nat by lia. lia.
Qed.

Lemma par_done s its h ts' h' :
  run_sched (s ++ drain 0 its) (map start its) h = Ok (ts', h') ->
  forall k it, nth_error its k = Some it ->
  exists t, nth_error ts' k = Some t /\ th_done t = true /\ th_it t = it.
Proof.
  intros Hr k it Hk. destruct (run_left _ _ _ _ _ Hr k (start it)) as (t' & Ht' & Hl & He).
  { rewrite nth_error_map, Hk. reflexivity. }
  exists t'. split; [assumption|]. split; [|assumption].
  rewrite count_occ_app in Hl. assert (Hc := count_drain its 0 k it Hk). simpl plus in Hc.
  assert (Hst : left_ (start it) = S (length (it_reads it))) by (unfold left_; simpl; lia).
  rewrite Hst in Hl. unfold left_ in Hl. destruct (th_done t'); [reflexivity|lia].
Qed.

(** ** Main theorems *)

Theorem interleave_sound s its h h' :
  race_free its -> interleave s its h = Ok h' -> par_result its h h'.
Proof.
  intros Hrf Hr. unfold interleave in Hr. apply bind_ok in Hr as ([ts h1] & Hr & E). injection E as ->.
  assert (Hi := pinv_run its h _ _ _ _ _ Hrf (pinv_start its h) Hr).
  assert (Hd := par_done _ _ _ _ _ Hr).
  assert (Hload : forall k t, nth_error ts k = Some t -> th_done t = true /\ loads h (th_it t) (th_vals t)).
  { intros k t Ht. destruct (Hd k (th_it t)) as (t1 & Ht1 & Hd1 & _).
    { eapply nth_error_its; eauto. apply (pi_its _ _ _ _ Hi). }
    assert (t1 = t) by congruence. subst t1. split; [assumption|].
    destruct (pi_vals _ _ _ _ Hi _ _ Ht) as (n & Hf & Hn & Hdn). rewrite (Hdn Hd1), firstn_all in Hf. exact Hf. }
  split; [apply (pi_skel _ _ _ _ Hi)|]. split.
  - intros it Hin. apply In_nth_error in Hin as (k & Hk). destruct (Hd k it Hk) as (t & Ht & Hdt & <-).
    exists (th_vals t). destruct (Hload _ _ Ht) as [_ Hl]. split; [exact Hl|].
    destruct (it_fun (th_it t) (th_vals t)) eqn:Hf; [|exact I]. eapply (pi_done _ _ _ _ Hi); eauto.
  - intros a Ha. apply (pi_frame _ _ _ _ Hi). intros k t v Ht Hdt Hf.
    destruct (Hload _ _ Ht) as [_ Hl]. eapply Ha; eauto.
    eapply nth_error_In. eapply nth_error_its; eauto. apply (pi_its _ _ _ _ Hi).
Qed.

Theorem par_result_unique its h0 h1 h2 :
  par_result its h0 h1 -> par_result its h0 h2 -> h1 = h2.
Proof.
  intros (S1 & W1 & F1) (S2 & W2 & F2). apply heap_ext; [congruence|]. intros a.
  assert (Hdec : (exists it vs v, In it its /\ loads h0 it vs /\ it_fun it vs = Some v /\ it_write it = a) \/
                 (forall it vs v, In it its -> loads h0 it vs -> it_fun it vs = Some v -> it_write it <> a)).
  { clear F1 F2. assert (H : forall it, In it its -> exists vs, loads h0 it vs).
    { intros it Hin. destruct (W1 it Hin) as (vs & Hl & _). eauto. }
    clear W1 W2. induction its as [|x l IH].
    - right. intros it vs v [].
    - destruct IH as [(it & vs & v & Hin & Hr)|Hn].
      + intros it Hin. apply H. now right.
      + left. exists it, vs, v. split; [now right|assumption].
      + destruct (H x (or_introl eq_refl)) as (vs & Hl).
        destruct (it_fun x vs) as [v|] eqn:Hf.
        * assert (Hda : it_write x = a \/ it_write x <> a).
          { destruct (it_write x) as [p i], a as [q j].
            destruct (Z.eq_dec i j) as [->|]; [|right; congruence].
            destruct p as [p|], q as [q|]; try (right; congruence); auto.
            destruct (Nat.eq_dec p q) as [->|]; [auto|right; congruence]. }
          destruct Hda as [<-|Hne].
          -- left. exists x, vs, v. repeat split; auto. now left.
          -- right. intros it vs' v' [<-|Hin] Hl' Hf'; [assumption|eauto].
        * right. intros it vs' v' [<-|Hin] Hl' Hf'; [|eauto].
          assert (vs' = vs) by (eapply loads_fun; eauto). congruence. }
  destruct Hdec as [(it & vs & v & Hin & Hl & Hf & <-)|Hn].
  - destruct (W1 it Hin) as (v1 & L1 & R1). destruct (W2 it Hin) as (v2 & L2 & R2).
    assert (v1 = vs) by (eapply loads_fun; eauto). assert (v2 = vs) by (eapply loads_fun; eauto). subst.
    rewrite Hf in R1, R2. congruence.
  - rewrite F1, F2 by assumption. reflexivity.
Qed.

(** Iteration [it] can run in [h]: its reads are initialised live cells, its write hits a live cell. *)
Definition it_safe (h : heap) (it : iter) : Prop :=
  exists vs, loads h it vs /\ (forall v, it_fun it vs = Some v -> hget h (it_write it) <> None).

Theorem interleave_complete s its h :
  race_free its -> (forall it, In it its -> it_safe h it) -> exists h', interleave s its h = Ok h'.
Proof.
  intros Hrf Hsafe. unfold interleave.
  assert (H : forall s' ts h1, pinv its h ts h1 -> exists r, run_sched s' ts h1 = Ok r).
  { induction s' as [|k s' IH]; intros ts h1 Hi; [simpl; eauto|]. simpl.
    destruct (nth_error ts k) as [t|] eqn:Hk; [|auto].
    assert (Hst : exists t' h2, tstep h1 t = Ok (t', h2)).
    { unfold tstep. destruct (th_done t) eqn:Hd; [eauto|].
      assert (Hit := nth_error_its _ _ _ _ (pi_its _ _ _ _ Hi) Hk). apply nth_error_In in Hit as Hin.
      destruct (Hsafe _ Hin) as (vs & Hl & Hw).
      destruct (pi_vals _ _ _ _ Hi _ _ Hk) as (n & Hf & Hn & _).
      assert (En : n = length (th_vals t)).
      { apply Forall2_len in Hf. rewrite firstn_length in Hf. lia. } subst n.
      destruct (nth_error (it_reads (th_it t)) (length (th_vals t))) as [a|] eqn:Hrd.
      - assert (exists v, load h a = Ok v) as (v & Hv).
        { clear -Hl Hrd. unfold loads in Hl. revert Hrd. generalize (length (th_vals t)).
          induction Hl as [|x y l l' Hxy Hl IH]; intros [|m] Hm; simpl in Hm; try discriminate.
          - injection Hm as <-. eauto.
          - eauto. }
        assert (Hh : hget h1 a = hget h a).
        { eapply pinv_read; eauto. eapply nth_error_In; eauto. }
        rewrite (load_hget h h1 a v) by congruence. simpl. eauto.
      - assert (Ev : th_vals t = vs).
        { apply nth_error_None in Hrd. rewrite firstn_all2 in Hf by assumption.
          eapply loads_fun; [exact Hf|exact Hl]. }
        rewrite Ev. destruct (it_fun (th_it t) vs) as [v|] eqn:Hfun; [|eauto].
        unfold store. destruct (hget h1 (it_write (th_it t))) eqn:Hg; [simpl; eauto|].
        exfalso. eapply (hget_skel h h1); [symmetry; apply (pi_skel _ _ _ _ Hi)|eapply Hw; eauto|assumption]. }
    destruct Hst as (t' & h2 & Hst). rewrite Hst. simpl. apply IH. eapply pinv_step; eauto. }
  destruct (H (s ++ drain 0 its) _ _ (pinv_start its h)) as ([ts h'] & Hr). rewrite Hr. simpl. eauto.
Qed.

(** The only ways out are success and undefined behaviour. *)
Lemma tstep_out h t : (exists r, tstep h t = Ok r) \/ is_undef (tstep h t).
Proof.
  unfold tstep, load, store, is_undef. destruct (th_done t); [eauto|].
  destruct (nth_error _ _) as [a|].
  - destruct (hget h a) as [[|]|]; simpl; eauto.
  - destruct (it_fun _ _); [|eauto]. destruct (hget h _); simpl; eauto.
Qed.

Lemma interleave_out s its h : (exists h', interleave s its h = Ok h') \/ is_undef (interleave s its h).
Proof.
  unfold interleave. assert (H : forall s' ts h1, (exists r, run_sched s' ts h1 = Ok r) \/ is_undef (run_sched s' ts h1)).
  { induction s' as [|k s' IH]; intros ts h1; simpl; [eauto|].
    destruct (nth_error ts k) as [t|]; [|auto].
    destruct (tstep_out h1 t) as [[[t' h2] E]|[u E]]; rewrite E; simpl; [auto|right; eexists; reflexivity]. }
  destruct (H (s ++ drain 0 its) (map start its) h) as [[[ts h'] E]|[u E]]; rewrite E; simpl; [eauto|right; eexists; reflexivity].
Qed.

Lemma par_result_safe its h h' : par_result its h h' ->
  forall it, In it its -> it_safe h it.
Proof.
  intros (Hs & Hw & _) it Hin. destruct (Hw it Hin) as (vs & Hl & Hr). exists vs. split; [assumption|].
  intros v Hf. rewrite Hf in Hr. eapply (hget_skel h' h); [assumption|congruence].
Qed.

(** Success under one schedule means success, with the same heap, under every schedule. *)
Theorem interleave_schedule_independent s1 s2 its h h' :
  race_free its -> interleave s1 its h = Ok h' -> interleave s2 its h = Ok h'.
Proof.
  intros Hrf H1. assert (R1 := interleave_sound _ _ _ _ Hrf H1).
  destruct (interleave_complete s2 its h Hrf (par_result_safe _ _ _ R1)) as (h2 & H2).
  assert (R2 := interleave_sound _ _ _ _ Hrf H2).
  rewrite H2. f_equal. eapply par_result_unique; eauto.
Qed.

(** Undefined behaviour is schedule independent too. *)
Theorem interleave_undef_independent s1 s2 its h :
  race_free its -> is_undef (interleave s1 its h) -> is_undef (interleave s2 its h).
Proof.
  intros Hrf [u H1]. destruct (interleave_out s2 its h) as [(h' & H2)|H2]; [|assumption].
  rewrite (interleave_schedule_independent s2 s1 _ _ _ Hrf H2) in H1. discriminate.
Qed.

(** ** The parallel loop and the plain sequential loop agree *)
Lemma seq_for_result its : forall h h', race_free its -> seq_for its h = Ok h' -> par_result its h h'.
Proof.
  unfold seq_for.
  induction its as [|x its IH]; intros h h' Hrf Hr; simpl in Hr.
  - injection Hr as ->. split; [reflexivity|]. split; [intros it []|]. reflexivity.
  - apply bind_ok in Hr as (h1 & H1 & Hr).
    assert (Hrf' : race_free its).
    { intros i j a b Hi Hj Hn. apply (Hrf (S i) (S j) a b); auto. }
    destruct (IH _ _ Hrf' Hr) as (Hs & Hw & Hf).
    unfold seq_iter in H1. apply bind_ok in H1 as (vs & Hvs & H1). apply mapM_ok in Hvs.
    assert (Hkeep : forall a, a <> it_write x -> hget h1 a = hget h a).
    { intros a Ha. destruct (it_fun x vs) as [v|]; [|congruence].
      unfold store in H1. destruct (hget h (it_write x)); [|discriminate]. injection H1 as <-.
      apply hget_hset_other. congruence. }
    assert (Hsk1 : skel h1 = skel h).
    { destruct (it_fun x vs) as [v|]; [|congruence].
      unfold store in H1. destruct (hget h (it_write x)); [|discriminate]. injection H1 as <-. apply skel_hset. }
    assert (Hx : forall it, In it its -> it_write it <> it_write x /\ ~ In (it_write x) (it_reads it)).
    { intros it Hin. apply In_nth_error in Hin as (k & Hk).
      destruct (Hrf 0%nat (S k) x it eq_refl Hk ltac:(lia)) as [A B]. split; congruence. }
    assert (Hlds : forall it us, In it its -> loads h1 it us <-> loads h it us).
    { intros it us Hin. destruct (Hx it Hin) as [_ Hnr]. unfold loads.
      assert (E : forall a, In a (it_reads it) -> hget h1 a = hget h a).
      { intros a Ha. apply Hkeep. congruence. }
      clear -E. split; intros H; induction H as [|a v l l' Ha Hl IH]; constructor.
      - rewrite load_ok in *. rewrite <- E by now left. assumption.
      - apply IH. intros b Hb. apply E. now right.
      - rewrite load_ok in *. rewrite E by now left. assumption.
      - apply IH. intros b Hb. apply E. now right. }
    split; [congruence|]. split.
    + intros it [<-|Hin].
      * exists vs. split; [exact Hvs|]. destruct (it_fun x vs) as [v|] eqn:Hfx; [|exact I].
        rewrite Hf.
        -- unfold store in H1. destruct (hget h (it_write x)) eqn:Hg; [|discriminate]. injection H1 as <-.
           apply hget_hset_same. congruence.
        -- intros it us w Hin _ _. apply Hx. assumption.
      * destruct (Hw it Hin) as (us & Hl & Hm). exists us. split; [apply Hlds; assumption|assumption].
    + intros a Ha. rewrite Hf.
      * destruct (it_fun x vs) as [v|] eqn:Hfx.
        -- apply Hkeep. intros ->. apply (Ha x vs v); auto. now left.
        -- congruence.
      * intros it us w Hin Hl Hfw. apply (Ha it us w); auto; [now right|]. apply Hlds; assumption.
Qed.

Lemma seq_for_complete its : forall h, race_free its -> (forall it, In it its -> it_safe h it) ->
  exists h', seq_for its h = Ok h'.
Proof.
  unfold seq_for.
  induction its as [|x its IH]; intros h Hrf Hs; [simpl; eauto|]. simpl.
  destruct (Hs x (or_introl eq_refl)) as (vs & Hl & Hw).
  assert (H1 : exists h1, seq_iter h x = Ok h1 /\ (h1 = h \/ exists v, h1 = hset h (it_write x) v)).
  { unfold seq_iter. rewrite (proj2 (mapM_ok _ _ vs) Hl). simpl.
    destruct (it_fun x vs) as [v|] eqn:Hf; [|eauto].
    unfold store. destruct (hget h (it_write x)) eqn:Hg; [eauto|]. exfalso. eapply Hw; eauto. }
  destruct H1 as (h1 & -> & Hh1). simpl. apply IH.
  { intros i j a b Hi Hj Hn. apply (Hrf (S i) (S j) a b); auto. }
  intros it Hin. destruct Hh1 as [->|(v & ->)]; [apply Hs; now right|].
  destruct (Hs it (or_intror Hin)) as (us & Hlu & Hwu). exists us.
  apply In_nth_error in Hin as (k & Hk). destruct (Hrf 0%nat (S k) x it eq_refl Hk ltac:(lia)) as [_ Hnr].
  split.
  - unfold loads in *. clear -Hlu Hnr. induction Hlu as [|a w l l' Ha Hl IH]; constructor.
    + rewrite load_ok in *. rewrite hget_hset_other; [assumption|]. intros <-. apply Hnr. now left.
    + apply IH. intros H. apply Hnr. now right.
  - intros w Hfw. specialize (Hwu w Hfw). eapply hget_skel; [|exact Hwu]. symmetry. apply skel_hset.
Qed.

Theorem interleave_seq s its h h' :
  race_free its -> (interleave s its h = Ok h' <-> seq_for its h = Ok h').
Proof.
  intros Hrf. split; intros H.
  - assert (R := interleave_sound _ _ _ _ Hrf H).
    destruct (seq_for_complete its h Hrf (par_result_safe _ _ _ R)) as (h2 & H2).
    rewrite H2. f_equal. eapply par_result_unique; [apply seq_for_result; eauto|assumption].
  - assert (R := seq_for_result _ _ _ Hrf H).
    destruct (interleave_complete s its h Hrf (par_result_safe _ _ _ R)) as (h2 & H2).
    rewrite H2. f_equal. eapply par_result_unique; [eapply interleave_sound; eauto|assumption].
Qed.

(** ** Data races

    In C++ a loop with a data race has undefined behaviour, so that is what [par_for] yields for an
    iteration list that is not race free; for the others it is the interleaving execution. *)
Definition addr_dec (a b : addr) : {a = b} + {a <> b}.
Proof.
  destruct a as [p i], b as [q j]. destruct (Z.eq_dec i j) as [->|]; [|right; congruence].
  destruct p as [p|], q as [q|]; try (right; congruence); [|left; reflexivity].
  destruct (Nat.eq_dec p q) as [->|]; [left; reflexivity|right; congruence].
Defined.

(** [x]'s write conflicts neither with [y]'s write nor with [y]'s reads, and vice versa. *)
Definition compat (x y : iter) : bool :=
  (if addr_dec (it_write x) (it_write y) then false else true) &&
  (if in_dec addr_dec (it_write x) (it_reads y) then false else true) &&
  (if in_dec addr_dec (it_write y) (it_reads x) then false else true).
Fixpoint race_freeb (its : list iter) : bool :=
  match its with [] => true | x :: r => forallb (compat x) r && race_freeb r end.

Lemma compat_spec x y : compat x y = true <->
  it_write x <> it_write y /\ ~ In (it_write x) (it_reads y) /\ ~ In (it_write y) (it_reads x).
Proof.
  unfold compat. destruct (addr_dec _ _), (in_dec addr_dec (it_write x) _), (in_dec addr_dec (it_write y) _); simpl; split; intros H; try discriminate; tauto.
Qed.

Lemma race_freeb_spec its : race_freeb its = true <-> race_free its.
Proof.
  induction its as [|x l IH]; simpl.
  - split; [|reflexivity]. intros _ i j a b Hi. destruct i; discriminate.
  - rewrite andb_true_iff, forallb_forall, IH. split.
    + intros [Hx Hl] i j a b Hi Hj Hn. destruct i as [|i], j as [|j]; simpl in Hi, Hj.
      * lia.
      * injection Hi as <-. apply nth_error_In in Hj. apply Hx, compat_spec in Hj. tauto.
      * injection Hj as <-. apply nth_error_In in Hi. apply Hx, compat_spec in Hi. destruct Hi as (A & B & C). split; [congruence|assumption].
      * apply (Hl i j); auto.
    + intros H. split.
      * intros y Hy. apply In_nth_error in Hy as (k & Hk). apply compat_spec.
        destruct (H 0%nat (S k) x y eq_refl Hk ltac:(lia)). destruct (H (S k) 0%nat y x Hk eq_refl ltac:(lia)). tauto.
      * intros i j a b Hi Hj Hn. apply (H (S i) (S j)); auto.
Qed.

Definition par_for (s : list nat) (its : list iter) (h : heap) : res heap :=
  if race_freeb its then interleave s its h else Undef DataRace.

Lemma par_for_rf s its h : race_free its -> par_for s its h = interleave s its h.
Proof. intros H. unfold par_for. now rewrite (proj2 (race_freeb_spec its) H). Qed.

(** Success of a parallel loop implies there was no race. *)
Theorem par_for_ok_rf s its h h' : par_for s its h = Ok h' -> race_free its.
Proof. unfold par_for. destruct (race_freeb its) eqn:E; [intros _; now apply race_freeb_spec|discriminate]. Qed.

Theorem par_for_sound s its h h' : race_free its -> par_for s its h = Ok h' -> par_result its h h'.
Proof. intros Hrf. rewrite par_for_rf by assumption. now apply interleave_sound. Qed.

Theorem par_for_complete s its h :
  race_free its -> (forall it, In it its -> it_safe h it) -> exists h', par_for s its h = Ok h'.
Proof. intros Hrf. rewrite par_for_rf by assumption. now apply interleave_complete. Qed.

Lemma par_for_out s its h : (exists h', par_for s its h = Ok h') \/ is_undef (par_for s its h).
Proof. unfold par_for. destruct (race_freeb its); [apply interleave_out|right; eexists; reflexivity]. Qed.

Theorem par_for_schedule_independent s1 s2 its h h' : par_for s1 its h = Ok h' -> par_for s2 its h = Ok h'.
Proof.
  intros H. assert (Hrf := par_for_ok_rf _ _ _ _ H). rewrite par_for_rf in * by assumption.
  eapply interleave_schedule_independent; eauto.
Qed.

Theorem par_for_undef_independent s1 s2 its h : is_undef (par_for s1 its h) -> is_undef (par_for s2 its h).
Proof.
  unfold par_for. destruct (race_freeb its) eqn:E; [|intros _; eexists; reflexivity].
  apply race_freeb_spec in E. now apply interleave_undef_independent.
Qed.

Theorem par_for_seq s its h h' : par_for s its h = Ok h' <-> race_free its /\ seq_for its h = Ok h'.
Proof.
  split.
  - intros H. assert (Hrf := par_for_ok_rf _ _ _ _ H). split; [assumption|]. rewrite par_for_rf in H by assumption.
    now apply (interleave_seq s its h h' Hrf).
  - intros [Hrf H]. rewrite par_for_rf by assumption. now apply (interleave_seq s its h h' Hrf).
Qed.

End Par.
Arguments iter : clear implicits.

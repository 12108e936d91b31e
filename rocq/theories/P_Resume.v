(** P_Resume.v - C80: going on with training from a saved network file. *)
From Verif Require Import Base Mat Act Layer Conv Misc Net NetP Trainer TrainP TrainP2 ExNet P_Train FunEq ConfEq SaveLoad P_Save P_Conf.
From Coq Require Import Arith Ascii.
Local Open Scope nat_scope.

(** ** Specification *)
Section Spec.
Context {D : dtype}.
Notation mat := (mat D).
Notation layer := (layer D).
Notation net := (net D).
Notation lheap := (lheap D).
Context (junk : nat -> D).

(** Two layers made with the same constructor arguments: same sizes, rate, regularisation and activation; any weights. *)
Definition setup (l m : layer) : Prop :=
  nr (l_W m) = nr (l_W l) /\ nc (l_W m) = nc (l_W l) /\ l_lambda m = l_lambda l /\ l_lrate m = l_lrate l /\ l_act m = l_act l.
(** Two networks set up in the same way, layer by layer. *)
Definition same_setup (n : net) (H : lheap) (n2 : net) (H2 : lheap) : Prop :=
  dense_hidden n H /\ dense_hidden n2 H2 /\
  exists ls ls2, hidden_layers n H = Ok ls /\ hidden_layers n2 H2 = Ok ls2 /\ Forall2 setup ls ls2 /\ setup (o_l (n_output n)) (o_l (n_output n2)) /\
    n_cost n2 = n_cost n /\ o_costd (n_output n2) = o_costd (n_output n).

(** What a program sees: the costs returned by training calls, and the results of predictions and forward passes. *)
Inductive seen := Cost (c : D) | Answer (m : mat).
Section Run.
Context {T : Type} (feed : T -> net -> lheap -> mat -> mat -> bool -> res (D * T * net * lheap)).
Fixpoint session (cs : list (@call D)) (t : T) (n : net) (H : lheap) : res (list seen * T * net * lheap) :=
  match cs with
  | [] => Ok ([], t, n, H)
  | Train x y b :: cs => '(v, t1, n1, H1) <- feed t n H x y b ;; '(o, t2, n2, H2) <- session cs t1 n1 H1 ;; Ok (Cost v :: o, t2, n2, H2)
  | Predict x :: cs => '(m, n1, H1) <- net_predict junk n H x ;; '(o, t2, n2, H2) <- session cs t n1 H1 ;; Ok (Answer m :: o, t2, n2, H2)
  | Forward x :: cs => '(m, n1, H1) <- net_forward junk n H x ;; '(o, t2, n2, H2) <- session cs t n1 H1 ;; Ok (Answer m :: o, t2, n2, H2)
  end.
End Run.

(** The trainer's decay does not fire any more (or was never asked for): its [iters] calls have reached [step].  A mini-batch
    trainer compares after its batches, so there the counter has to be past [step]. *)
Definition calm (t : trainer D) : Prop := t_usedecay t = false \/ (t_step t <= t_iters t)%Z.
Definition calm_b (t : trainer D) : Prop := t_usedecay t = false \/ (t_step t < t_iters t)%Z.
End Spec.

Section PResume.
Context {D : dtype}.
Notation mat := (mat D).
Notation layer := (layer D).
Notation net := (net D).
Notation lheap := (lheap D).
Context (junk : nat -> D).

(** ** Running from two equally configured networks with two equivalent trainers *)
Section Run2.
Context {T : Type} (feed : T -> net -> lheap -> mat -> mat -> bool -> res (D * T * net * lheap)) (R : T -> T -> Prop).
Definition carries : Prop := forall t t' n H n' H' x y b v t1 n1 H1, R t t' -> same_config n H n' H' -> feed t n H x y b = Ok (v, t1, n1, H1) ->
  exists t1' n1' H1', feed t' n' H' x y b = Ok (v, t1', n1', H1') /\ R t1 t1' /\ same_config n1 H1 n1' H1'.
Lemma session_same : carries -> forall cs t t' n H n' H' o t1 n1 H1, R t t' -> same_config n H n' H' -> session junk feed cs t n H = Ok (o, t1, n1, H1) ->
  exists t1' n1' H1', session junk feed cs t' n' H' = Ok (o, t1', n1', H1') /\ R t1 t1' /\ same_config n1 H1 n1' H1'.
Proof.
  intros HC. induction cs as [|c cs IH]; intros t t' n H n' H' o t1 n1 H1 HR HS E; cbn [session] in *; [injection E as <- <- <- <-; eauto 6|].
  destruct c as [x y b|x|x]; apply bind_ok in E as (r & E1 & E).
  - destruct r as [[[v t2] n2] H2]. apply bind_ok in E as ([[[o2 t3] n3] H3] & E2 & E3). injection E3 as <- <- <- <-.
    destruct (HC _ _ _ _ _ _ _ _ _ _ _ _ _ HR HS E1) as (t2' & n2' & H2' & -> & R2 & S2). cbn [bind]. destruct (IH _ _ _ _ _ _ _ _ _ _ R2 S2 E2) as (t3' & n3' & H3' & -> & R3 & S3). cbn [bind]. eauto 8.
  - destruct r as [[m n2] H2]. apply bind_ok in E as ([[[o2 t3] n3] H3] & E2 & E3). injection E3 as <- <- <- <-.
    destruct (predict_conf junk _ _ _ _ _ _ _ _ HS E1) as (n2' & H2' & -> & S2 & _). cbn [bind]. destruct (IH _ _ _ _ _ _ _ _ _ _ HR S2 E2) as (t3' & n3' & H3' & -> & R3 & S3). cbn [bind]. eauto 8.
  - destruct r as [[m n2] H2]. apply bind_ok in E as ([[[o2 t3] n3] H3] & E2 & E3). injection E3 as <- <- <- <-.
    destruct (forward_conf junk _ _ _ _ _ _ _ _ HS E1) as (n2' & H2' & -> & S2 & _). cbn [bind]. destruct (IH _ _ _ _ _ _ _ _ _ _ HR S2 E2) as (t3' & n3' & H3' & -> & R3 & S3). cbn [bind]. eauto 8.
Qed.
End Run2.
Lemma carries_eq {T} (feed : T -> net -> lheap -> mat -> mat -> bool -> res (D * T * net * lheap)) : config_only feed -> carries feed eq.
Proof. intros HC t t' n H n' H' x y b v t1 n1 H1 <- HS E. destruct (HC _ _ _ _ _ _ _ _ _ _ _ _ HS E) as (n1' & H1' & E' & S'). eauto 6. Qed.

Lemma calm_tick (t : trainer D) : calm t -> calm_b (tick t).
Proof. intros [A|A]; [now left|right; cbn; lia]. Qed.
Lemma calm_b_calm (t : trainer D) : calm_b t -> calm t.
Proof. intros [A|A]; [now left|right; lia]. Qed.
Lemma calm_decay (t : trainer D) (n : net) (H : lheap) : calm_b t -> decay t n H = Ok (n, H).
Proof. unfold decay. intros [->|A]; [reflexivity|]. destruct (t_usedecay t); [|reflexivity]. cbn [andb]. destruct (Z.eqb_spec (t_iters t) (t_step t)); [lia|reflexivity]. Qed.
Definition both_calm (t t' : trainer D) : Prop := calm t /\ calm t'.
Definition both_calm_b (t t' : btrainer D) : Prop := calm_b (bt_t t) /\ calm_b (bt_t t') /\ bt_size t' = bt_size t.
Lemma trainer_calm : carries (feeddata_cost junk) both_calm.
Proof.
  intros t t' n H n' H' x y b v t1 n1 H1 [C C'] HS E. destruct (trainer_config junk t _ _ _ _ _ _ _ _ _ _ _ HS E) as (n1' & H1' & E' & S'). exists (tick t'), n1', H1'.
  unfold feeddata_cost, feeddata in *. rewrite (calm_decay (tick t)) in E, E' by now apply calm_tick. rewrite (calm_decay (tick t')) by now apply calm_tick. cbn [bind] in *.
  apply bind_ok in E as ([[t2 n2] H2] & E & F). apply bind_ok in E as ([n3 H3] & E & G). injection G as <- <- <-. apply bind_ok in E' as ([[t2' n2'] H2'] & E' & F'). apply bind_ok in E' as ([n3' H3'] & E' & G'). injection G' as <- <- <-.
  rewrite E'. cbn [bind].
  assert (T1 : t1 = tick t). { destruct b; [apply bind_ok in F as (c & _ & F)|]; injection F as _ <- _ _; reflexivity. }
  subst t1. split; [|split; [split; now apply calm_b_calm, calm_tick|exact S']].
  destruct b; [apply bind_ok in F' as (c & -> & F')|]; injection F' as <- <- <-; reflexivity.
Qed.
Lemma sgd_calm : carries (sgd_feeddata_cost junk) both_calm.
Proof.
  intros t t' n H n' H' x y b v t1 n1 H1 [C C'] HS E. destruct (sgd_config junk t _ _ _ _ _ _ _ _ _ _ _ HS E) as (n1' & H1' & E' & S'). exists (tick t'), n1', H1'.
  unfold sgd_feeddata_cost, sgd_feeddata in *. rewrite (calm_decay (tick t)) in E, E' by now apply calm_tick. rewrite (calm_decay (tick t')) by now apply calm_tick. cbn [bind] in *.
  apply bind_ok in E as ([[t2 n2] H2] & E & F). apply bind_ok in E as ([n3 H3] & E & G). injection G as <- <- <-. apply bind_ok in E' as ([[t2' n2'] H2'] & E' & F'). apply bind_ok in E' as ([n3' H3'] & E' & G'). injection G' as <- <- <-.
  rewrite E'. cbn [bind]. apply bind_ok in F as ([[c n4] H4] & _ & F). injection F as _ <- _ _. apply bind_ok in F' as ([[c' n4'] H4'] & E4 & F'). injection F' as <- <- <-.
  split; [|split; [split; now apply calm_b_calm, calm_tick|exact S']]. eapply bind_eq; [exact E4|reflexivity].
Qed.
Lemma batch_loop_ticks b tx ty starts : forall (t : trainer D) n H t1 n1 H1 t', batch_loop junk b tx ty starts t n H = Ok (t1, n1, H1) ->
  calm_b t -> calm_b t' -> calm_b t1 /\ exists t1', batch_loop junk b tx ty starts t' n H = Ok (t1', n1, H1) /\ calm_b t1'.
Proof.
  unfold batch_loop. induction starts as [|s starts IH]; intros t n H t1 n1 H1 t' E C C'; cbn [foldM] in *; [injection E as <- <- <-; eauto|].
  apply bind_ok in E as ([[t2 n2] H2] & E & E2). apply bind_ok in E as (xb & -> & E). apply bind_ok in E as ([[a m1] K1] & F & E). cbn [bind]. rewrite F. cbn [bind]. apply bind_ok in E as (yb & -> & E).
  apply bind_ok in E as ([m2 K2] & B & E). cbn [bind]. rewrite B. cbn [bind]. apply bind_ok in E as ([m3 K3] & U & E). injection E as <- <- <-. rewrite U. cbn [bind]. apply IH with (t := tick t); auto using calm_tick, calm_b_calm.
Qed.
Lemma batch_calm : carries (batch_feeddata_cost junk) both_calm_b.
Proof.
  intros t t' n H n' H' x y b v t1 n1 H1 (C & C' & Z) HS E. destruct (batch_config junk t _ _ _ _ _ _ _ _ _ _ _ HS E) as (n1' & H1' & E' & S').
  unfold batch_feeddata_cost, batch_feeddata in *. rewrite Z.
  apply bind_ok in E as ([[t2 n2] H2] & E & F). apply bind_ok in E as (tx & X & E). apply bind_ok in E as (ty & Y & E). apply bind_ok in E as ([[t3 n3] H3] & L & E). apply bind_ok in E as ([n4 H4] & G & E). injection E as <- <- <-.
  apply bind_ok in E' as ([[t2' n2'] H2'] & E' & F'). rewrite X, Y in *. cbn [bind] in E' |- *. apply bind_ok in E' as ([[t3' n3'] H3'] & L' & E'). apply bind_ok in E' as ([n4' H4'] & G' & E'). injection E' as <- <- <-.
  destruct (batch_loop_ticks _ _ _ _ _ _ _ _ _ _ _ L C C) as (C3 & _). destruct (batch_loop_ticks _ _ _ _ _ _ _ _ _ _ _ L' C C') as (C3' & t3'' & L'' & C3'').
  rewrite calm_decay in G' by exact C3'. injection G' as <- <-. rewrite L''. cbn [bind]. rewrite calm_decay by exact C3''. cbn [bind]. apply bind_ok in F as (c & _ & F). injection F as _ <- _ _. apply bind_ok in F' as (c' & F1 & F'). injection F' as <- _ <- <-.
  do 3 eexists. split; [eapply bind_eq; [exact F1|reflexivity]|]. split; [|exact S']. repeat split; auto.
Qed.

(** ** Loading *)
Context (print : D -> text) (conv : text -> D * bool).
Fixpoint lload (ls : list layer) (s : stream) : list layer * stream :=
  match ls with [] => ([], s) | l :: ls => let '(w, s1) := load_mat conv (l_W l) s in let '(r, s2) := lload ls s1 in (set_W l w :: r, s2) end.
Lemma load_dense : forall ids ls (H : lheap) s, NoDup ids -> dense_at H ids ls ->
  foldM (load_step conv) ids (H, s) = Ok (put_layers ids (fst (lload ls s)) H, snd (lload ls s)).
Proof.
  induction ids as [|p ids IH]; intros ls H s Hn Hd; inversion Hd as [|q l ids' ls0 Hp Hd' E1 E2]; subst; [reflexivity|]. inversion Hn; subst. cbn [foldM lload put_layers]. unfold load_step at 1, lget. rewrite Hp. cbn [bind h_base h_with].
  destruct (load_mat conv (l_W l) s) as [w s1]. cbn [bind]. rewrite (IH ls0) by (auto; now apply dense_at_upd). destruct (lload ls0 s1). reflexivity.
Qed.
Lemma lload_len : forall ls s, length (fst (lload ls s)) = length ls.
Proof. induction ls as [|l ls IH]; intros s; [reflexivity|]. cbn [lload]. destruct (load_mat conv (l_W l) s) as [w s1]. specialize (IH s1). destruct (lload ls s1). cbn in *. congruence. Qed.
Lemma load_mat_sizes (w w' : mat) s : nr w' = nr w -> nc w' = nc w -> load_mat conv w' s = load_mat conv w s.
Proof. intros A B. unfold load_mat. now rewrite A, B. Qed.
Lemma lload_conf : forall ls ls', Forall2 setup ls ls' -> forall s, Forall2 conf (fst (lload ls s)) (fst (lload ls' s)) /\ snd (lload ls' s) = snd (lload ls s).
Proof.
  induction 1 as [|l m ls ls' (A & B & C & E & F) HF IH]; intros s; [split; [constructor|reflexivity]|]. cbn [lload]. rewrite (load_mat_sizes (l_W l) (l_W m)) by assumption.
  destruct (load_mat conv (l_W l) s) as [w s1]. destruct (IH s1) as [I1 I2]. destruct (lload ls s1), (lload ls' s1). cbn in *. split; [|exact I2]. constructor; [|exact I1]. repeat split; assumption.
Qed.
Lemma load_net (n : net) (H : lheap) ls f : dense_net n H ls ->
  let '(ls', s) := lload ls (ST f true) in
  net_load conv n H (Some f) = Ok (net_setoutputw n (fst (load_mat conv (l_W (o_l (n_output n))) s)), put_layers (n_hidden n) ls' H).
Proof.
  intros [Hn Hd]. unfold net_load. rewrite (load_dense _ ls) by assumption. destruct (lload ls (ST f true)) as [ls' s]. cbn [bind fst snd]. destruct (load_mat conv _ s). reflexivity.
Qed.

(** *** Theorems *)
(** Any file loaded into two networks that were set up in the same way makes them equal: same weights and configuration,
    whatever their weights were before, whatever the file contains. *)
Theorem C80_same_file : forall n H n2 H2 f, same_setup n H n2 H2 ->
  exists n' H' n2' H2', net_load conv n H (Some f) = Ok (n', H') /\ net_load conv n2 H2 (Some f) = Ok (n2', H2') /\ same_config n' H' n2' H2'.
Proof.
  intros n H n2 H2 f (Hd & Hd2 & ls & ls2 & L & L2 & HF & HO & HC & HCd).
  destruct (dense_of_hidden n H Hd) as (k & K & Dn). pose proof (eq_trans (eq_sym L) K) as Q. injection Q as <-. destruct (dense_of_hidden n2 H2 Hd2) as (k & K2 & Dn2). pose proof (eq_trans (eq_sym L2) K2) as Q. injection Q as <-.
  pose proof (load_net n H ls f Dn) as E. pose proof (load_net n2 H2 ls2 f Dn2) as E2. destruct (lload_conf ls ls2 HF (ST f true)) as [C1 C2]. pose proof (lload_len ls (ST f true)) as N1. pose proof (lload_len ls2 (ST f true)) as N2.
  destruct (lload ls (ST f true)) as [k1 s1], (lload ls2 (ST f true)) as [k2 s2]. cbn [fst snd] in *. subst s2. rewrite E, E2. do 4 eexists. split; [reflexivity|]. split; [reflexivity|]. destruct HO as (A & B & C & G & I).
  eapply dense_same_config.
  - split; [apply Dn|]. cbn. eapply dense_put; [exact Dn|exact N1].
  - split; [apply Dn2|]. cbn. eapply dense_put; [exact Dn2|exact N2].
  - exact C1.
  - unfold conf. cbn. rewrite (load_mat_sizes (l_W (o_l (n_output n)))) by assumption. auto.
  - exact HC.
  - exact HCd.
Qed.

Notation printable := (printable print conv).
Notation reread := (reread print conv).
Notation save := (net_save print).
Notation load := (net_load conv).
(** Every weight is read back from the file as it was, and the matrices hold as many elements as they say. *)
Definition saves_exactly (n : net) (H : lheap) : Prop :=
  (forall w, In w (slots n H) -> printable w /\ reread w = w) /\ (forall p, In p (n_hidden n) -> wf (hW H p)) /\ wf (l_W (o_l (n_output n))).
Lemma load_saved (n : net) (H : lheap) (n2 : net) (H2 : lheap) : same_setup n H n2 H2 -> saves_exactly n H ->
  exists txt n' H', save n H = Ok txt /\ load n2 H2 (Some txt) = Ok (n', H') /\ same_config n H n' H'.
Proof.
  intros SS (HW & W1 & W2). pose proof SS as ((ND & HD) & _).
  assert (V : valid n H). { unfold valid. apply Forall_forall. intros p Hp. destruct (HD p Hp) as [l Hl]. apply nth_error_Some. congruence. }
  assert (PR : Forall printable (slots n H)) by (apply Forall_forall; intros w Hw; now apply HW).
  destruct (C47_roundtrip print conv n H n H V V ND eq_refl PR) as (txt & n0 & H0 & S & _). exists txt.
  pose proof (C47_identity print conv n H txt V ND W1 W2 PR (fun w Hw => proj2 (HW w Hw)) S) as L.
  destruct (C80_same_file n H n2 H2 txt SS) as (n1 & H1 & n' & H' & L1 & L2 & C). rewrite L in L1. injection L1 as <- <-. exists n', H'. auto.
Qed.

(** Going on in another process: the file saved from [n] is loaded into [n2], a network set up like [n], and the rest [cs]
    of the program is run there with the trainer [t'].  Everything the program sees, and the weights it ends with, are what
    they would have been without the interruption. *)
Definition resumes {T} (feed : T -> net -> lheap -> mat -> mat -> bool -> res (D * T * net * lheap)) (R : T -> T -> Prop) : Prop :=
  forall n H n2 H2 t t' cs o t1 n1 H1, same_setup n H n2 H2 -> saves_exactly n H -> R t t' ->
  session junk feed cs t n H = Ok (o, t1, n1, H1) ->
  exists txt n' H' t1' n1' H1', save n H = Ok txt /\ load n2 H2 (Some txt) = Ok (n', H') /\
    session junk feed cs t' n' H' = Ok (o, t1', n1', H1') /\ same_config n1 H1 n1' H1'.
Lemma resumes_carries {T} (feed : T -> net -> lheap -> mat -> mat -> bool -> res (D * T * net * lheap)) R : carries feed R -> resumes feed R.
Proof.
  intros HC n H n2 H2 t t' cs o t1 n1 H1 SS HW HR E. destruct (load_saved n H n2 H2 SS HW) as (txt & n' & H' & S & L & C).
  destruct (session_same feed R HC cs t t' n H n' H' o t1 n1 H1 HR C E) as (t1' & n1' & H1' & E' & _ & S'). exists txt, n', H', t1', n1', H1'. auto.
Qed.
(** With trainers whose decay is off or over, a new trainer is as good as the old one; mini-batch trainers need the same
    batch size. *)
Theorem C80_trainer : resumes (feeddata_cost junk) (fun t t' => calm t /\ calm t').
Proof. exact (resumes_carries _ _ trainer_calm). Qed.
Theorem C80_sgd : resumes (sgd_feeddata_cost junk) (fun t t' => calm t /\ calm t').
Proof. exact (resumes_carries _ _ sgd_calm). Qed.
Theorem C80_batch : resumes (batch_feeddata_cost junk) (fun t t' => calm_b (bt_t t) /\ calm_b (bt_t t') /\ bt_size t' = bt_size t).
Proof. exact (resumes_carries _ _ batch_calm). Qed.
(** With the very same trainer state the decay and the momentum carry over too, in all four classes. *)
Theorem C80_same_trainer : resumes (feeddata_cost junk) eq /\ resumes (sgd_feeddata_cost junk) eq /\ resumes (batch_feeddata_cost junk) eq /\ resumes (momentum_feeddata_cost junk) eq.
Proof.
  split; [exact (resumes_carries _ _ (carries_eq _ (trainer_config junk)))|]. split; [exact (resumes_carries _ _ (carries_eq _ (sgd_config junk)))|].
  split; [exact (resumes_carries _ _ (carries_eq _ (batch_config junk)))|exact (resumes_carries _ _ (carries_eq _ (mom_config junk)))].
Qed.
End PResume.

(** ** The hypotheses can be met, and what the file does not hold *)
Local Open Scope Z_scope.
(** another network of the same setup, with other weights *)
Definition oth : net Zdt := N (D := Zdt) exx quad_cost quad_costd (zl mempty) [1%nat] (Layer.O (zl (zm 3 1 [7; 0; 4])) quad_cost quad_costd mempty).
Definition othH : lheap Zdt := [HDense (zl exx); HDense (zl (zm 2 2 [0; 0; 9; 8]))].
Example C80_example : same_setup (D := Zdt) exn exH oth othH /\ saves_exactly (D := Zdt) zprint zconv exn exH /\ slots (D := Zdt) exn exH <> slots (D := Zdt) oth othH /\
  is_ok (session (D := Zdt) exj (feeddata_cost (D := Zdt) exj) ex_prog trainer_new exn exH) = true /\
  calm (D := Zdt) (trainer_new (D := Zdt)) /\ calm (D := Zdt) (T (D := Zdt) 5 5 true 1 1).
Proof.
  split; [|split; [|split; [vm_compute; discriminate|split; [vm_compute; reflexivity|split; [left; reflexivity|right; cbn; lia]]]]].
  - split; [|split]; [split; [repeat constructor; intros []|]; intros p [<-|[]]; eexists; reflexivity..|].
    exists [zl (zm 2 2 [1; 2; 1; -1])], [zl (zm 2 2 [0; 0; 9; 8])]. repeat split. repeat constructor.
  - destruct C47_hypotheses as (_ & _ & P & _ & _ & _ & R & W1 & W2). split; [|split; [|exact W2]]; [|intros p [<-|[]]; exact W1].
    intros w Hw. split; [|now apply R]. rewrite Forall_forall in P. now apply P.
Qed.

(** Two training calls; before the second one the trainer is either kept or replaced by a new one made with the same
    arguments.  Momentum is not in the file: *)
Definition mom_go (fresh : bool) : res (list Z) :=
  t0 <- momentum_new (D := Zdt) 2 exn exH ;; '(t1, n1, H1) <- momentum_feeddata (D := Zdt) exj t0 exn exH exx exy ;;
  t <- (if fresh then momentum_new (D := Zdt) 2 n1 H1 else Ok t1) ;; '(_, n2, H2) <- momentum_feeddata (D := Zdt) exj t n1 H1 exx exy ;; Ok (slots (D := Zdt) n2 H2).
(** nor is the number of calls made so far, on which the decay depends: *)
Definition decay_go (fresh : bool) : res (list Z) :=
  let t0 := trainer_new_decay (D := Zdt) 1 1 2 in '(t1, n1, H1) <- feeddata (D := Zdt) exj t0 exn exH exx exy ;;
  '(_, n2, H2) <- feeddata (D := Zdt) exj (if fresh then t0 else t1) n1 H1 exx exy ;; Ok (slots (D := Zdt) n2 H2).
(** nor is the learning rate: a network saved after a change of rate and loaded into one that has the original rate. *)
Definition rate_go (reloaded : bool) : res (list Z) :=
  '(n1, H1) <- net_setlrate (D := Zdt) exn exH 3 ;; txt <- net_save (D := Zdt) zprint n1 H1 ;; '(n2, H2) <- net_load (D := Zdt) zconv oth othH (Some txt) ;;
  '(_, n3, H3) <- (if reloaded then feeddata (D := Zdt) exj trainer_new n2 H2 exx exy else feeddata (D := Zdt) exj trainer_new n1 H1 exx exy) ;; Ok (slots (D := Zdt) n3 H3).
Theorem C80_not_saved : (forall go, In go [mom_go; decay_go; rate_go] -> is_ok (go true) = true /\ is_ok (go false) = true /\ go true <> go false) /\
  (match net_save (D := Zdt) zprint exn exH with Ok txt => match net_load (D := Zdt) zconv oth othH (Some txt) with Ok (n', H') => Some (slots (D := Zdt) n' H') | _ => None end | _ => None end) = Some (slots (D := Zdt) exn exH).
Proof.
  split; [|vm_compute; reflexivity]. intros go [<-|[<-|[<-|[]]]]; (split; [vm_compute; reflexivity|]; split; [vm_compute; reflexivity|]; vm_compute; discriminate).
Qed.

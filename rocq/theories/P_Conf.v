(** P_Conf.v - C66: predictions made between training calls do not influence training; C61: nor does asking for costs. *)
From Verif Require Import Base Mat Act Layer Conv Misc Net NetP Trainer TrainP TrainP2 ExNet P_Train FunEq ConfEq.
From Coq Require Import Arith.
Local Open Scope nat_scope.

Section PConf.
Context {D : dtype}.
Notation mat := (mat D).
Notation layer := (layer D).
Notation net := (net D).
Notation lheap := (lheap D).
Context (junk : nat -> D).

(** A user's program: training calls (with or without cost), predictions, forward passes. *)
Inductive call := Train (x y : mat) (ccost : bool) | Predict (x : mat) | Forward (x : mat).
(** The program without its predictions and forward passes; the same with no cost asked for. *)
Definition training_only (cs : list call) : list call := filter (fun c => match c with Train _ _ _ => true | _ => false end) cs.
Definition no_costs (cs : list call) : list call := map (fun c => match c with Train x y _ => Train x y false | c => c end) cs.

(** Running a program with a trainer of state T: [feed] is feeddata(x, y, ccost).  The result contains the costs returned
    by the training calls. *)
Section Run.
Context {T : Type} (feed : T -> net -> lheap -> mat -> mat -> bool -> res (D * T * net * lheap)).
Definition do_call (c : call) (s : list D * T * net * lheap) : res (list D * T * net * lheap) :=
  let '(cs, t, n, H) := s in
  match c with
  | Train x y b => '(v, t', n', H') <- feed t n H x y b ;; Ok (cs ++ [v], t', n', H')
  | Predict x => '(_, n', H') <- net_predict junk n H x ;; Ok (cs, t, n', H')
  | Forward x => '(_, n', H') <- net_forward junk n H x ;; Ok (cs, t, n', H')
  end.
Definition run (cs : list call) (s : list D * T * net * lheap) : res (list D * T * net * lheap) := foldM (fun s c => do_call c s) cs s.

(** What has to be known about a trainer. *)
Definition config_only : Prop := forall t n H n' H' x y b v t1 n1 H1, same_config n H n' H' -> feed t n H x y b = Ok (v, t1, n1, H1) ->
  exists n1' H1', feed t n' H' x y b = Ok (v, t1, n1', H1') /\ same_config n1 H1 n1' H1'.
Definition cost_is_observer : Prop := forall t n H x y b v t1 n1 H1, dense_hidden n H -> feed t n H x y b = Ok (v, t1, n1, H1) ->
  exists v' n1' H1', feed t n H x y false = Ok (v', t1, n1', H1') /\ same_config n1 H1 n1' H1'.

Lemma run_training_only : config_only -> forall cs vs t n H n' H' vs1 t1 n1 H1, same_config n H n' H' -> run cs (vs, t, n, H) = Ok (vs1, t1, n1, H1) ->
  exists n1' H1', run (training_only cs) (vs, t, n', H') = Ok (vs1, t1, n1', H1') /\ same_config n1 H1 n1' H1'.
Proof.
  intros HC cs. unfold run. induction cs as [|c cs IH]; intros vs t n H n' H' vs1 t1 n1 H1 HS E; cbn [foldM training_only filter] in *; [injection E as <- <- <- <-; eauto|].
  apply bind_ok in E as ([[[vs2 t2] n2] H2] & E1 & E2). destruct c as [x y b|x|x]; cbn [do_call] in E1.
  - apply bind_ok in E1 as ([[[v t3] n3] H3] & E1 & E3). injection E3 as <- <- <- <-. destruct (HC _ _ _ _ _ _ _ _ _ _ _ _ HS E1) as (n3' & H3' & E1' & S'). cbn [foldM do_call].
    rewrite E1'. cbn [bind]. eapply IH; eauto.
  - apply bind_ok in E1 as ([[m n3] H3] & E1 & E3). injection E3 as <- <- <- <-. destruct (predict_conf junk _ _ _ _ _ _ _ _ HS E1) as (_ & _ & _ & _ & S2 & _).
    eapply IH; [|exact E2]. eapply same_config_trans; [eapply same_config_sym; exact S2|exact HS].
  - apply bind_ok in E1 as ([[m n3] H3] & E1 & E3). injection E3 as <- <- <- <-. destruct (forward_conf junk _ _ _ _ _ _ _ _ HS E1) as (_ & _ & _ & _ & S2 & _).
    eapply IH; [|exact E2]. eapply same_config_trans; [eapply same_config_sym; exact S2|exact HS].
Qed.
Lemma run_no_costs : config_only -> cost_is_observer -> forall cs vs vs' t n H n' H' vs1 t1 n1 H1, same_config n H n' H' -> run cs (vs, t, n, H) = Ok (vs1, t1, n1, H1) ->
  exists vs1' n1' H1', run (no_costs cs) (vs', t, n', H') = Ok (vs1', t1, n1', H1') /\ same_config n1 H1 n1' H1'.
Proof.
  intros HC HO cs. unfold run. induction cs as [|c cs IH]; intros vs vs' t n H n' H' vs1 t1 n1 H1 HS E; cbn [foldM no_costs map] in *; [injection E as <- <- <- <-; eauto 6|].
  apply bind_ok in E as ([[[vs2 t2] n2] H2] & E1 & E2). destruct c as [x y b|x|x]; cbn [do_call] in E1 |- *.
  - apply bind_ok in E1 as ([[[v t3] n3] H3] & E1 & E3). injection E3 as <- <- <- <-. destruct (HO _ _ _ _ _ _ _ _ _ _ (proj1 HS) E1) as (v4 & n4 & H4 & E4 & S4).
    destruct (HC _ _ _ _ _ _ _ _ _ _ _ _ HS E4) as (n3' & H3' & E1' & S'). rewrite E1'. cbn [bind]. eapply IH; [|exact E2]. eapply same_config_trans; eauto.
  - apply bind_ok in E1 as ([[m n3] H3] & E1 & E3). injection E3 as <- <- <- <-. destruct (predict_conf junk _ _ _ _ _ _ _ _ HS E1) as (n3' & H3' & E1' & S' & _).
    rewrite E1'. cbn [bind]. eapply IH; eauto.
  - apply bind_ok in E1 as ([[m n3] H3] & E1 & E3). injection E3 as <- <- <- <-. destruct (forward_conf junk _ _ _ _ _ _ _ _ HS E1) as (n3' & H3' & E1' & S' & _).
    rewrite E1'. cbn [bind]. eapply IH; eauto.
Qed.
End Run.

(** ** The four trainers *)
Lemma computecost_conf (n n' : net) a b y : n_cost n' = n_cost n -> a = b -> net_computecost n' b y = net_computecost n a y.
Proof. intros E ->. unfold net_computecost. now rewrite E. Qed.
Lemma sc_cost (n : net) (H : lheap) (n' : net) (H' : lheap) : same_config n H n' H' -> n_cost n' = n_cost n.
Proof. intros (_ & _ & ls & ls' & _ & _ & _ & _ & A & _). exact A. Qed.

Lemma feed_conf (t : trainer D) n H n' H' x y t1 n1 H1 : same_config n H n' H' -> feeddata junk t n H x y = Ok (t1, n1, H1) ->
  exists n1' H1', feeddata junk t n' H' x y = Ok (t1, n1', H1') /\ same_config n1 H1 n1' H1' /\ n_result n1' = n_result n1.
Proof.
  intros HS E. unfold feeddata in *. apply bind_ok in E as ([n0 H0] & E0 & E). apply bind_ok in E as ([n2 H2] & E2 & E). injection E as <- <- <-.
  destruct (decay_conf _ _ _ _ _ _ _ HS E0) as (n0' & H0' & -> & S0 & _). cbn [bind]. destruct (train_step_conf junk _ _ _ _ _ _ _ _ S0 E2) as (n2' & H2' & -> & S2 & R). cbn [bind]. eauto 6.
Qed.
Lemma trainer_config : config_only (feeddata_cost junk).
Proof.
  intros t n H n' H' x y b v t1 n1 H1 HS E. unfold feeddata_cost in *. apply bind_ok in E as ([[t2 n2] H2] & E & E1).
  destruct (feed_conf _ _ _ _ _ _ _ _ _ _ HS E) as (n2' & H2' & -> & S2 & R2). cbn [bind]. destruct b.
  - apply bind_ok in E1 as (c & C & E1). injection E1 as <- <- <- <-. rewrite (computecost_conf n2 n2' (n_result n2) (n_result n2')) by (auto; eapply sc_cost; eauto). rewrite C. cbn [bind]. eauto.
  - injection E1 as <- <- <- <-. eauto.
Qed.
Lemma trainer_obs : cost_is_observer (feeddata_cost junk).
Proof.
  intros t n H x y b v t1 n1 H1 Hd E. unfold feeddata_cost in *. apply bind_ok in E as ([[t2 n2] H2] & E & E1). rewrite E. cbn [bind].
  destruct (feed_conf _ _ _ _ _ _ _ _ _ _ (same_config_refl _ _ Hd) E) as (nz & Hz & _ & S2 & _).
  assert (Q : t1 = t2 /\ n1 = n2 /\ H1 = H2). { destruct b; [apply bind_ok in E1 as (c & C & E1)|]; injection E1 as <- <- <- <-; auto. }
  destruct Q as (-> & -> & ->). do 3 eexists. split; [reflexivity|]. apply same_config_refl. apply S2.
Qed.

Lemma sgd_rows_conf x y rows : forall n H n' H' n1 H1, same_config n H n' H' -> sgd_rows junk n H x y rows = Ok (n1, H1) ->
  exists n1' H1', sgd_rows junk n' H' x y rows = Ok (n1', H1') /\ same_config n1 H1 n1' H1'.
Proof.
  unfold sgd_rows. induction rows as [|i rows IH]; intros n H n' H' n1 H1 HS E; cbn [foldM] in *; [injection E as <- <-; eauto|].
  apply bind_ok in E as ([n2 H2] & E & E2). apply sgd_row_inv in E as (xi & yi & X & Y & E). rewrite (sgd_row_step junk _ _ _ _ _ _ _ X Y).
  destruct (train_step_conf junk _ _ _ _ _ _ _ _ HS E) as (n2' & H2' & -> & S2 & R). cbn [bind]. eauto.
Qed.
Lemma sgd_conf (t : trainer D) n H n' H' x y t1 n1 H1 : same_config n H n' H' -> sgd_feeddata junk t n H x y = Ok (t1, n1, H1) ->
  exists n1' H1', sgd_feeddata junk t n' H' x y = Ok (t1, n1', H1') /\ same_config n1 H1 n1' H1'.
Proof.
  intros HS E. unfold sgd_feeddata in *. apply bind_ok in E as ([n0 H0] & E0 & E). apply bind_ok in E as ([n2 H2] & E2 & E). injection E as <- <- <-.
  destruct (decay_conf _ _ _ _ _ _ _ HS E0) as (n0' & H0' & -> & S0 & _). cbn [bind]. destruct (sgd_rows_conf _ _ _ _ _ _ _ _ _ S0 E2) as (n2' & H2' & -> & S2). cbn [bind]. eauto 6.
Qed.
Definition sgd_cost_step (x y : mat) (b : bool) : D * net * lheap -> nat -> res (D * net * lheap) := fun '(c, n, H) i =>
  if b then xi <- mrow x i ;; '(_, n1, H1) <- net_predict junk n H xi ;; yi <- mrow y i ;; ci <- net_computecost n1 (n_result n1) yi ;; Ok (dadd c ci, n1, H1) else Ok (c, n, H).
Lemma sgd_cost_conf x y b rows : forall c n H n' H' c1 n1 H1, same_config n H n' H' -> foldM (sgd_cost_step x y b) rows (c, n, H) = Ok (c1, n1, H1) ->
  exists n1' H1', foldM (sgd_cost_step x y b) rows (c, n', H') = Ok (c1, n1', H1') /\ same_config n1 H1 n1' H1' /\ same_config n H n1 H1.
Proof.
  induction rows as [|i rows IH]; intros c n H n' H' c1 n1 H1 HS E; cbn [foldM] in *; [injection E as <- <- <-; do 2 eexists; split; [reflexivity|]; split; [exact HS|]; apply same_config_refl, HS|].
  apply bind_ok in E as ([[c2 n2] H2] & E & E2). unfold sgd_cost_step in E |- * at 1. destruct b.
  - apply bind_ok in E as (xi & X & E). apply bind_ok in E as ([[m n3] H3] & P & E). apply bind_ok in E as (yi & Y & E). apply bind_ok in E as (ci & C & E). injection E as <- <- <-.
    destruct (predict_conf junk _ _ _ _ _ _ _ _ HS P) as (n3' & H3' & P' & S' & S'' & R). rewrite X. cbn [bind]. rewrite P'. cbn [bind]. rewrite Y. cbn [bind].
    rewrite (computecost_conf n3 n3' (n_result n3) (n_result n3')) by (auto; eapply sc_cost; eauto). rewrite C. cbn [bind].
    destruct (IH _ _ _ _ _ _ _ _ S' E2) as (n1' & H1' & A & B & B'). do 2 eexists. split; [exact A|]. split; [exact B|]. eapply same_config_trans; eauto.
  - injection E as <- <- <-. eapply IH; eauto.
Qed.
Lemma sgd_config : config_only (sgd_feeddata_cost junk).
Proof.
  intros t n H n' H' x y b v t1 n1 H1 HS E. unfold sgd_feeddata_cost in *. apply bind_ok in E as ([[t2 n2] H2] & E & E1). apply bind_ok in E1 as ([[c n3] H3] & E2 & E1). injection E1 as <- <- <- <-.
  change (foldM (sgd_cost_step x y b) (seq 0 (nr x)) (dofZ 0, n2, H2) = Ok (c, n3, H3)) in E2.
  destruct (sgd_conf _ _ _ _ _ _ _ _ _ _ HS E) as (n2' & H2' & -> & S2). cbn [bind].
  destruct (sgd_cost_conf x y b _ _ _ _ _ _ _ _ _ S2 E2) as (n3' & H3' & A & B & _). change (exists n1' H1', ('(c0, n4, H4) <- foldM (sgd_cost_step x y b) (seq 0 (nr x)) (dofZ 0, n2', H2') ;; Ok (c0, t2, n4, H4)) = Ok (c, t2, n1', H1') /\ same_config n3 H3 n1' H1'). rewrite A. cbn [bind]. eauto.
Qed.
Lemma sgd_obs : cost_is_observer (sgd_feeddata_cost junk).
Proof.
  intros t n H x y b v t1 n1 H1 Hd E. unfold sgd_feeddata_cost in *. apply bind_ok in E as ([[t2 n2] H2] & E & E1). apply bind_ok in E1 as ([[c n3] H3] & E2 & E1). injection E1 as <- <- <- <-.
  change (foldM (sgd_cost_step x y b) (seq 0 (nr x)) (dofZ 0, n2, H2) = Ok (c, n3, H3)) in E2.
  rewrite E. cbn [bind]. destruct (sgd_conf _ _ _ _ _ _ _ _ _ _ (same_config_refl _ _ Hd) E) as (nz & Hz & _ & S2).
  destruct (sgd_cost_conf x y b _ _ _ _ _ _ _ _ _ (same_config_refl _ _ (proj1 S2)) E2) as (_ & _ & _ & _ & B).
  assert (F : forall rows c0 n0 H0, foldM (sgd_cost_step x y false) rows (c0, n0, H0) = Ok (c0, n0, H0)) by (induction rows; intros; cbn; auto).
  do 3 eexists. split; [eapply bind_eq; [exact (F (seq 0 (nr x)) (dofZ 0) n2 H2)|reflexivity]|]. now apply same_config_sym.
Qed.

(** Mini-batches *)
Lemma batch_loop_conf b tx ty starts : forall t n H n' H' t1 n1 H1, same_config n H n' H' -> batch_loop junk b tx ty starts t n H = Ok (t1, n1, H1) ->
  exists n1' H1', batch_loop junk b tx ty starts t n' H' = Ok (t1, n1', H1') /\ same_config n1 H1 n1' H1' /\ (starts = [] \/ n_result n1' = n_result n1).
Proof.
  unfold batch_loop. induction starts as [|s starts IH]; intros t n H n' H' t1 n1 H1 HS E; cbn [foldM] in *; [injection E as <- <- <-; eauto 6|].
  apply bind_ok in E as ([[t2 n2] H2] & E & E2). apply bind_ok in E as (xb & X & E). apply bind_ok in E as ([[a m1] K1] & F & E). apply bind_ok in E as (yb & Y & E).
  apply bind_ok in E as ([m2 K2] & B & E). apply bind_ok in E as ([m3 K3] & U & E). injection E as <- <- <-.
  assert (ET : train_step junk n H xb yb = Ok (m3, K3)) by (unfold train_step; rewrite F; cbn [bind]; rewrite B; exact U).
  destruct (train_step_conf junk _ _ _ _ _ _ _ _ HS ET) as (n3 & H3 & ET' & S3 & R3). unfold train_step in ET'. apply bind_ok in ET' as ([[a' m1'] K1'] & F' & ET'). apply bind_ok in ET' as ([m2' K2'] & B' & U').
  rewrite X. cbn [bind]. rewrite F'. cbn [bind]. rewrite Y. cbn [bind]. rewrite B'. cbn [bind]. rewrite U'. cbn [bind].
  destruct (IH _ _ _ _ _ _ _ _ S3 E2) as (n1' & H1' & A & C & R). exists n1', H1'. split; [exact A|]. split; [exact C|]. right. destruct R as [->|R]; [|exact R]. cbn [foldM] in A, E2. injection A as _ <- _. injection E2 as _ <- _. exact R3.
Qed.
Lemma batch_conf (t : btrainer D) n H n' H' x y t1 n1 H1 : same_config n H n' H' -> batch_feeddata junk t n H x y = Ok (t1, n1, H1) ->
  exists n1' H1', batch_feeddata junk t n' H' x y = Ok (t1, n1', H1') /\ same_config n1 H1 n1' H1' /\ (steps (Z.of_nat (nr x)) (bt_size t) = [] \/ n_result n1' = n_result n1).
Proof.
  intros HS E. unfold batch_feeddata in *. apply bind_ok in E as (tx & X & E). apply bind_ok in E as (ty & Y & E). apply bind_ok in E as ([[t2 n2] H2] & L & E). apply bind_ok in E as ([n3 H3] & Dc & E). injection E as <- <- <-.
  destruct (batch_loop_conf _ _ _ _ _ _ _ _ _ _ _ _ HS L) as (n2' & H2' & L' & S2 & R2). destruct (decay_conf _ _ _ _ _ _ _ S2 Dc) as (n3' & H3' & Dc' & S3 & R3 & R3').
  rewrite X. cbn [bind]. rewrite Y. cbn [bind]. rewrite L'. cbn [bind]. rewrite Dc'. cbn [bind]. do 2 eexists. split; [reflexivity|]. split; [exact S3|]. destruct R2; [now left|right; congruence].
Qed.
Lemma batch_config : config_only (batch_feeddata_cost junk).
Proof.
  intros t n H n' H' x y b v t1 n1 H1 HS E. unfold batch_feeddata_cost in *. apply bind_ok in E as ([[t2 n2] H2] & E & E1). apply bind_ok in E1 as (c & C & E1). injection E1 as <- <- <- <-.
  destruct (batch_conf _ _ _ _ _ _ _ _ _ _ HS E) as (n2' & H2' & -> & S2 & R2). cbn [bind]. destruct R2 as [R2|R2].
  - rewrite R2 in *. cbn [foldM] in *. injection C as <-. cbn [bind]. eauto.
  - rewrite (computecost_conf n2 n2' (n_result n2) (n_result n2')) by (auto; eapply sc_cost; eauto). rewrite C. cbn [bind]. eauto.
Qed.
Lemma batch_obs : cost_is_observer (batch_feeddata_cost junk).
Proof.
  intros t n H x y b v t1 n1 H1 Hd E. unfold batch_feeddata_cost in *. apply bind_ok in E as ([[t2 n2] H2] & E & E1). apply bind_ok in E1 as (c & C & E1). injection E1 as <- <- <- <-. rewrite E. cbn [bind].
  destruct (batch_conf _ _ _ _ _ _ _ _ _ _ (same_config_refl _ _ Hd) E) as (nz & Hz & _ & S2 & _).
  assert (F : forall l (c0 : D), foldM (fun (c : D) (_ : Z) => Ok c) l c0 = Ok c0) by (induction l; intros; cbn; auto). rewrite F. cbn [bind].
  do 3 eexists. split; [reflexivity|]. apply same_config_refl, S2.
Qed.

(** Momentum *)
Lemma upd_with_inv : forall ids ls gs pre (H H1 : lheap), NoDup ids -> dense_at H ids ls ->
  foldM (upd_step (pre ++ gs)) (combine (seq (length pre) (length ids)) ids) H = Ok H1 ->
  exists g1 g2, gs = g1 ++ g2 /\ Forall2 gfit ls g1.
Proof.
  induction ids as [|p ids IH]; intros ls gs pre H H1 Hn Hd E; inversion Hd as [|q l ids' ls0 Hp Hd' E1 E2]; subst; [exists [], gs; split; [reflexivity|constructor]|].
  cbn [length seq combine foldM] in E. apply bind_ok in E as (H2 & E & E3). unfold upd_step at 1 in E. cbn [fst snd] in E. unfold lget at 1 in E. rewrite Hp in E. cbn [bind] in E.
  rewrite nth_error_app2, Nat.sub_diag in E by lia. destruct gs as [|g gs]; cbn [nth_error] in E; [discriminate|]. cbn [h_update_with] in E. apply bind_ok in E as (h' & E & E4). apply bind_ok in E as (l' & E & E5). injection E5 as <-. injection E4 as <-.
  apply update_with_inv in E as (A & B & _). inversion Hn as [|hx1 hx2 Hni Hnd]; subst.
  replace (S (length pre)) with (length (pre ++ [g])) in E3 by (rewrite app_length; cbn; lia).
  replace (pre ++ g :: gs) with ((pre ++ [g]) ++ gs) in E3 by (now rewrite <- app_assoc).
  destruct (IH ls0 gs (pre ++ [g]) _ H1 Hnd (dense_at_upd _ _ _ _ _ Hni Hd') E3) as (g1 & g2 & -> & F). exists (g :: g1), g2. split; [reflexivity|]. constructor; [split; assumption|assumption].
Qed.
Lemma upd_with_fold' : forall ids ls g1 g2 pre (H : lheap), NoDup ids -> dense_at H ids ls -> Forall2 gfit ls g1 ->
  foldM (upd_step (pre ++ g1 ++ g2)) (combine (seq (length pre) (length ids)) ids) H =
  Ok (put_layers ids (map (fun lg => stepped_with (fst lg) (snd lg)) (combine ls g1)) H).
Proof.
  induction ids as [|p ids IH]; intros ls gs g2 pre H Hn Hd Hg; inversion Hd as [|q l ids' ls0 Hp Hd' E1 E2]; subst; inversion Hg as [|l1 g1 ls1 gs1 G1 G2]; subst; [reflexivity|].
  cbn [length seq combine foldM map put_layers fst snd app]. unfold upd_step at 1. cbn [fst snd]. unfold lget at 1. rewrite Hp. inversion Hn; subst.
  cbn [bind]. rewrite nth_error_app2, Nat.sub_diag by lia. cbn [nth_error h_update_with]. destruct G1 as [G3 G4]. rewrite update_with_ok by assumption. cbn [bind].
  replace (S (length pre)) with (length (pre ++ [g1])) by (rewrite app_length; cbn; lia).
  replace (pre ++ g1 :: gs1 ++ g2) with ((pre ++ [g1]) ++ gs1 ++ g2) by (now rewrite <- app_assoc).
  apply IH; auto. now apply dense_at_upd.
Qed.
Lemma update_with_conf (n : net) (H : lheap) (n' : net) (H' : lheap) og hg n1 H1 : same_config n H n' H' -> net_update_with n H og hg = Ok (n1, H1) ->
  exists n1' H1', net_update_with n' H' og hg = Ok (n1', H1') /\ same_config n1 H1 n1' H1' /\ n_result n1 = n_result n /\ n_result n1' = n_result n'.
Proof.
  intros HS E. destruct (same_config_dense _ _ _ _ HS) as (ls & ls' & Hdn & Hdn' & HC & HO & Hc & Hcd). unfold net_update_with in *. apply bind_ok in E as (o & EO & E). apply bind_ok in E as (H2 & EF & E). injection E as <- <-.
  unfold output_update_with in *. apply bind_ok in EO as (ol & EU & EO). injection EO as <-. apply update_with_inv in EU as (U1 & U2 & ->). pose proof HO as (O1 & O2 & O3 & O4).
  rewrite update_with_ok by (rewrite O1; assumption). cbn [bind].
  destruct (upd_with_inv _ ls hg [] H H2 (proj1 Hdn) (proj2 Hdn) EF) as (g1 & g2 & -> & GF).
  assert (GF' : Forall2 gfit ls' g1). { clear -HC GF. revert g1 GF. induction HC as [|l m k k' (A & _) HC IH]; intros g1 GF; inversion GF as [|? ? ? ? [G1 G2] GF']; subst; constructor; auto. split; rewrite A; assumption. }
  pose proof (upd_with_fold' _ ls g1 g2 [] H (proj1 Hdn) (proj2 Hdn) GF) as X. pose proof (upd_with_fold' _ ls' g1 g2 [] H' (proj1 Hdn') (proj2 Hdn') GF') as X'. cbn [app length] in X, X'. unfold upd_step in X, X'.
  pose proof (eq_trans (eq_sym EF) X) as Q. injection Q as ->. rewrite X'. cbn [bind]. do 2 eexists. split; [reflexivity|].
  split; [|split; reflexivity].
  assert (LL : forall (l : list layer) g, Forall2 gfit l g -> length (map (fun lg => stepped_with (fst lg) (snd lg)) (combine l g)) = length l).
  { intros l g HG. rewrite map_length, combine_length, <- (Forall2_len _ _ _ HG). lia. }
  eapply dense_same_config.
  - split; [apply Hdn|]. cbn. eapply dense_put; [exact Hdn|]. now apply LL.
  - split; [apply Hdn'|]. cbn. eapply dense_put; [exact Hdn'|]. now apply LL.
  - clear -HC GF. revert g1 GF. induction HC as [|l m k k' (A & B & C & E) HC IH]; intros g1 GF; inversion GF; subst; cbn [combine map]; constructor; auto.
    unfold conf, stepped_with, set_W. cbn. rewrite A, B, C, E. auto.
  - unfold conf. cbn. rewrite O1, O2, O3, O4. auto.
  - exact Hc.
  - exact Hcd.
Qed.
Lemma mapM_ext_in {A B} (f g : A -> res B) l : (forall a, In a l -> f a = g a) -> mapM f l = mapM g l.
Proof. induction l as [|a l IH]; intros HE; [reflexivity|]. cbn. rewrite (HE a) by now left. rewrite IH; [reflexivity|]. intros; apply HE; now right. Qed.
Lemma mom_conf (t : mtrainer D) n H n' H' x y t1 n1 H1 : same_config n H n' H' -> momentum_feeddata junk t n H x y = Ok (t1, n1, H1) ->
  exists n1' H1', momentum_feeddata junk t n' H' x y = Ok (t1, n1', H1') /\ same_config n1 H1 n1' H1' /\ n_result n1' = n_result n1.
Proof.
  intros HS E. unfold momentum_feeddata in *. apply bind_ok in E as ([n0 H0] & E0 & E). apply bind_ok in E as ([[a m1] K1] & F & E). apply bind_ok in E as ([m2 K2] & B & E).
  apply bind_ok in E as (og & OG & E). apply bind_ok in E as (hg & HG & E). apply bind_ok in E as ([m3 K3] & U & E). injection E as <- <- <-.
  destruct (decay_conf _ _ _ _ _ _ _ HS E0) as (n0' & H0' & -> & S0 & _). cbn [bind].
  destruct (forward_conf junk _ _ _ _ _ _ _ _ S0 F) as (m1' & K1' & -> & _ & _ & _ & _ & _ & _ & _ & _ & G). cbn [bind].
  destruct (G _ _ _ B) as (m2' & K2' & -> & S2 & _ & R2 & R2' & _ & _ & l2 & l2' & Hd & Hd' & C2 & Q2). cbn [bind].
  assert (EO : l_grad (o_l (net_getoutput m2')) = l_grad (o_l (net_getoutput m2))) by (cbn; apply Q2). rewrite EO, OG. cbn [bind].
  assert (EH : mapM (fun ia => l <- net_gethidden m2' K2' (fst ia) ;; mom_hidden (mt_mom t) (t_iters (tick (mt_t t))) (snd ia) (l_grad l)) (combine (seq 0 (length (mt_hgrads t))) (mt_hgrads t)) = Ok hg).
  { rewrite <- HG. apply mapM_ext_in. intros [i g] _. cbn [fst snd]. rewrite (gethidden_at m2' K2' l2') by apply Hd'. rewrite (gethidden_at m2 K2 l2) by apply Hd.
    destruct (nth_error l2 i) as [l|] eqn:El, (nth_error l2' i) as [l'|] eqn:El'; cbn [bind]; try reflexivity.
    - rewrite (proj2 (Forall2_nth _ _ _ C2 i _ _ El El')). reflexivity.
    - apply nth_error_None in El'. rewrite <- (Forall2_len _ _ _ C2) in El'. apply nth_error_None in El'. congruence.
    - apply nth_error_None in El. rewrite (Forall2_len _ _ _ C2) in El. apply nth_error_None in El. congruence. }
  rewrite EH. cbn [bind]. destruct (update_with_conf _ _ _ _ _ _ _ _ S2 U) as (m3' & K3' & -> & S3 & R3 & R3'). cbn [bind]. do 2 eexists. split; [reflexivity|]. split; [exact S3|]. congruence.
Qed.
Lemma mom_config : config_only (momentum_feeddata_cost junk).
Proof.
  intros t n H n' H' x y b v t1 n1 H1 HS E. unfold momentum_feeddata_cost in *. apply bind_ok in E as ([[t2 n2] H2] & E & E1).
  destruct (mom_conf _ _ _ _ _ _ _ _ _ _ HS E) as (n2' & H2' & -> & S2 & R2). cbn [bind]. destruct b.
  - apply bind_ok in E1 as (c & C & E1). injection E1 as <- <- <- <-. rewrite (computecost_conf n2 n2' (n_result n2) (n_result n2')) by (auto; eapply sc_cost; eauto). rewrite C. cbn [bind]. eauto.
  - injection E1 as <- <- <- <-. eauto.
Qed.
Lemma mom_obs : cost_is_observer (momentum_feeddata_cost junk).
Proof.
  intros t n H x y b v t1 n1 H1 Hd E. unfold momentum_feeddata_cost in *. apply bind_ok in E as ([[t2 n2] H2] & E & E1). rewrite E. cbn [bind].
  destruct (mom_conf _ _ _ _ _ _ _ _ _ _ (same_config_refl _ _ Hd) E) as (nz & Hz & _ & S2 & _).
  assert (Q : t1 = t2 /\ n1 = n2 /\ H1 = H2). { destruct b; [apply bind_ok in E1 as (c & C & E1)|]; injection E1 as <- <- <- <-; auto. }
  destruct Q as (-> & -> & ->). do 3 eexists. split; [reflexivity|]. apply same_config_refl. apply S2.
Qed.

(** ** C66: erasing all predictions and forward passes from a program changes neither the costs reported by the training
    calls, nor the trainer, nor the weights, rates, regularisation, activations and cost functions at the end. *)
Section C66.
Context {T : Type}.
Definition predictions_do_not_matter (feed : T -> net -> lheap -> mat -> mat -> bool -> res (D * T * net * lheap)) : Prop :=
  forall cs t n H vs t1 n1 H1, dense_hidden n H -> run feed cs ([], t, n, H) = Ok (vs, t1, n1, H1) ->
  exists n1' H1', run feed (training_only cs) ([], t, n, H) = Ok (vs, t1, n1', H1') /\ same_config n1 H1 n1' H1'.
(** C61: not asking for costs leaves the trainer and the parameters as they would have been. *)
Definition costs_do_not_matter (feed : T -> net -> lheap -> mat -> mat -> bool -> res (D * T * net * lheap)) : Prop :=
  forall cs t n H vs t1 n1 H1, dense_hidden n H -> run feed cs ([], t, n, H) = Ok (vs, t1, n1, H1) ->
  exists vs' n1' H1', run feed (no_costs cs) ([], t, n, H) = Ok (vs', t1, n1', H1') /\ same_config n1 H1 n1' H1'.
Lemma c66 feed : config_only feed -> predictions_do_not_matter feed.
Proof. intros HC cs t n H vs t1 n1 H1 Hd E. eapply run_training_only; eauto using same_config_refl. Qed.
Lemma c61 feed : config_only feed -> cost_is_observer feed -> costs_do_not_matter feed.
Proof. intros HC HO cs t n H vs t1 n1 H1 Hd E. eapply run_no_costs; eauto using same_config_refl. Qed.
End C66.

Theorem C66_trainer : predictions_do_not_matter (feeddata_cost junk).
Proof. apply c66, trainer_config. Qed.
Theorem C66_sgd : predictions_do_not_matter (sgd_feeddata_cost junk).
Proof. apply c66, sgd_config. Qed.
Theorem C66_batch : predictions_do_not_matter (batch_feeddata_cost junk).
Proof. apply c66, batch_config. Qed.
Theorem C66_momentum : predictions_do_not_matter (momentum_feeddata_cost junk).
Proof. apply c66, mom_config. Qed.
Theorem C61_trainer : costs_do_not_matter (feeddata_cost junk).
Proof. apply c61; [apply trainer_config|apply trainer_obs]. Qed.
Theorem C61_sgd : costs_do_not_matter (sgd_feeddata_cost junk).
Proof. apply c61; [apply sgd_config|apply sgd_obs]. Qed.
Theorem C61_batch : costs_do_not_matter (batch_feeddata_cost junk).
Proof. apply c61; [apply batch_config|apply batch_obs]. Qed.
Theorem C61_momentum : costs_do_not_matter (momentum_feeddata_cost junk).
Proof. apply c61; [apply mom_config|apply mom_obs]. Qed.
(** What "the same configuration" means to a user: the two networks compute the same outputs (or both fail to) on every input,
    and have the same weights. *)
Theorem C66_same_function : forall n H n' H', same_config n H n' H' -> same_weights n H n' H' /\
  (forall x a, (exists n1 H1, net_forward junk n H x = Ok (a, n1, H1)) <-> (exists n1 H1, net_forward junk n' H' x = Ok (a, n1, H1))).
Proof.
  intros n H n' H' HS. split; [now apply same_config_weights|]. intros x a. split; intros (n1 & H1 & E).
  - destruct (forward_conf junk _ _ _ _ _ _ _ _ HS E) as (m1 & G1 & E' & _). eauto.
  - destruct (forward_conf junk _ _ _ _ _ _ _ _ (same_config_sym _ _ _ _ HS) E) as (m1 & G1 & E' & _). eauto.
Qed.
End PConf.
Arguments call : clear implicits.

(** ** Examples: a program with a prediction between two training calls runs; the predictions did change cached values. *)
Definition ex_prog : list (call Zdt) := [Train (D := Zdt) exx exy true; Predict (D := Zdt) exx; Forward (D := Zdt) (zm 1 1 [3%Z]); Train (D := Zdt) exx exy true].
Example C66_example : dense_hidden exn exH /\
  is_ok (run (D := Zdt) exj (feeddata_cost (D := Zdt) exj) ex_prog ([], trainer_new, exn, exH)) = true /\
  is_ok (run (D := Zdt) exj (sgd_feeddata_cost (D := Zdt) exj) ex_prog ([], trainer_new, exn, exH)) = true /\
  is_ok (run (D := Zdt) exj (batch_feeddata_cost (D := Zdt) exj) ex_prog ([], batch_new 2, exn, exH)) = true /\
  (match momentum_new (D := Zdt) 1%Z exn exH with Ok t => is_ok (run (D := Zdt) exj (momentum_feeddata_cost (D := Zdt) exj) ex_prog ([], t, exn, exH)) | _ => false end) = true /\
  length (training_only ex_prog) = 2 /\
  match net_predict (D := Zdt) exj exn exH exx with Ok (_, n, _) => negb (length (el (n_result n)) =? length (el (n_result exn))) | _ => false end = true.
Proof. split; [apply ex_well_sized|]. repeat split; vm_compute; reflexivity. Qed.
Print Assumptions C66_momentum.
Print Assumptions C61_sgd.

(** P_Online.v - C88: training one layer on a stream of changing data. *)
From Coq Require Import Reals Lra Psatz.
From Coquelicot Require Import Coquelicot.
From Verif Require Import Base Mat Act Layer Conv Misc Net NetP RInst RMat P_Act Grad P_Grad Trainer TrainP TrainP2 P_Train P_Sgd FunEq P_Mom P_Descent LinReg P_Linear P_Pred Convex P_Convex P_Separable.
From Coq Require Import Arith List Lia.
Import ListNotations.
Local Open Scope nat_scope.

(** ** Specification *)
(** One feeddata call per element of [data]; the diary has the objective on that element before and after its call. *)
Fixpoint online (junk : nat -> R) (t : trainer Rdt) (n : rnet) (H : rheap) (data : list (rmat * rmat)) : res (list (R * R) * trainer Rdt * rnet * rheap) :=
  match data with
  | [] => Ok ([], t, n, H)
  | (x, y) :: rest =>
      b <- objective junk n H x y ;; '(t1, n1, H1) <- feeddata (D := Rdt) junk t n H x y ;; a <- objective junk n1 H1 x y ;;
      '(l, t2, n2, H2) <- online junk t1 n1 H1 rest ;; Ok ((b, a) :: l, t2, n2, H2)
  end.
(** What a fixed network m would have paid on every element. *)
Definition bill (junk : nat -> R) (m : rnet) (I : rheap) (data : list (rmat * rmat)) : res (list R) := mapM (fun d => objective junk m I (fst d) (snd d)) data.
(** Labels for which no cost is negative. *)
Definition labels_nonneg (k : okind) (y : rmat) : Prop := forall r j, r < nr y -> j < nc y -> match k with OQuad => True | OLogistic => (0 <= at_ y r j <= 1)%R | OSoftmax => (0 <= at_ y r j)%R end.
(** The rows of a data set as data sets of one sample. *)
Definition rows_of (d : rmat * rmat) : list (rmat * rmat) := map (fun r => (row_of (fst d) r, row_of (snd d) r)) (seq 0 (nr (fst d))).
(** Share of the rows whose predicted class (column 0 of predict) is not [lab]. *)
Definition error_rate (lab : nat -> nat) (pr : rmat) : R := (sumN (nr pr) (fun r => if Req_EM_T (at_ pr r 0%nat) (INR (lab r)) then 0 else 1) / INR (nr pr))%R.
(** predict, then train, on every element: the error rates of the predictions. *)
Fixpoint errors (junk : nat -> R) (t : trainer Rdt) (n : rnet) (H : rheap) (data : list (rmat * rmat * (nat -> nat))) : res (list R) :=
  match data with
  | [] => Ok []
  | (x, y, lab) :: rest =>
      '(pr, _, _) <- net_predict (D := Rdt) junk n H x ;; '(t1, n1, H1) <- feeddata (D := Rdt) junk t n H x y ;;
      es <- errors junk t1 n1 H1 rest ;; Ok (error_rate lab pr :: es)
  end.

(** ** Proof *)
Lemma SX_ge1 (x : rmat) : 1 <= nr x -> (1 <= SX (nr x) (nc x + 1) (Xb x))%R.
Proof.
  intros Hx. rewrite SX_x. assert (P : (0 < INR (nr x))%R) by (now apply lt_0_INR). apply (Rmult_le_reg_r (INR (nr x))); [exact P|]. unfold Rdiv. rewrite Rmult_assoc, Rinv_l, Rmult_1_r, Rmult_1_l by lra.
  rewrite <- (Rmult_1_r (INR (nr x))) at 1. rewrite <- sumN_const. apply sumN_le. intros r Hr. assert (0 <= sumN (nc x) (fun i => at_ x r i * at_ x r i))%R by (apply sumN_nonneg; intros; apply sq_pos). lra.
Qed.
Lemma tc_pos k (x : rmat) lam : 1 <= nr x -> (0 <= lam)%R -> (0 < total_curvature k x lam)%R.
Proof. intros Hx Hl. rewrite <- k_LL. unfold LL. pose proof (SX_ge1 x Hx). assert (0 < curvature k)%R by (destruct k; cbn; lra). assert (0 < curvature k * SX (nr x) (nc x + 1) (Xb x))%R by (apply Rmult_lt_0_compat; lra). lra. Qed.
Lemma ln_neg v : (0 < v <= 1)%R -> (0 <= - ln v)%R.
Proof. intros [A B]. assert (ln v <= ln 1)%R by (apply ln_le; lra). rewrite ln_1 in H. lra. Qed.
Lemma smx_range c z j : j < c -> (0 < smx c z j <= 1)%R.
Proof.
  intros Hj. unfold smx. pose proof (sumexp_pos c z ltac:(lia)) as P. pose proof (term_ge c (fun k => exp (z k)) j Hj) as T. cbn beta in T. assert (T' : (exp (z j) <= sumN c (fun k => exp (z k)))%R) by (apply T; intros; left; apply exp_pos). pose proof (exp_pos (z j)).
  unfold Rdiv. rewrite Rmult_1_l. split; [apply Rmult_lt_0_compat; [lra|now apply Rinv_0_lt_compat]|]. apply (Rmult_le_reg_r (sumN c (fun k => exp (z k)))); [exact P|]. rewrite Rmult_assoc, Rinv_l by lra. lra.
Qed.
Lemma kphi_nonneg k y r z : labels_nonneg k y -> r < nr y -> (0 <= kphi k y r z)%R.
Proof.
  intros L Hr. destruct k; cbn [kphi]; apply sumN_nonneg; intros j Hj; specialize (L r j Hr Hj); cbn beta iota in L.
  - unfold Rdiv. apply Rmult_le_pos; [apply sq_pos|lra].
  - destruct (sig_range (z j)). pose proof (ln_neg (sig (z j))). pose proof (ln_neg (1 - sig (z j))). set (v := at_ y r j : R) in *. set (s := sig (z j)) in *.
    assert (A1 : (0 <= v * - ln s)%R) by (apply Rmult_le_pos; lra). assert (A2 : (0 <= (1 - v) * - ln (1 - s))%R) by (apply Rmult_le_pos; lra). lra.
  - pose proof (ln_neg _ (smx_range (nc y) z j Hj)). set (v := at_ y r j : R) in *. assert (A1 : (0 <= v * - ln (smx (nc y) z j))%R) by (apply Rmult_le_pos; lra). lra.
Qed.
Lemma kF_nonneg k (x y : rmat) lam W : 1 <= nr x -> nr y = nr x -> labels_nonneg k y -> (0 <= lam)%R -> (0 <= kF k x y lam W)%R.
Proof.
  intros Hx Hy L Hl. unfold kF, FF. assert (P : (0 < INR (nr x))%R) by (now apply lt_0_INR). assert (A : (0 <= sumN (nr x) (fun r => kphi k y r (ZZ (nc x + 1) (Xb x) W r)))%R) by (apply sumN_nonneg; intros; apply kphi_nonneg; [exact L|lia]).
  pose proof (ip_pos (nc x + 1) (nc y) W). assert (0 <= lam / 2 * ip (nc x + 1) (nc y) W W)%R by (apply Rmult_le_pos; lra). assert (0 <= sumN (nr x) (fun r => kphi k y r (ZZ (nc x + 1) (Xb x) W r)) / INR (nr x))%R by (apply Rdiv_le_0_compat; lra). lra.
Qed.
Section One.
Context (junk : nat -> R) (k : okind) (p c : nat) (eta lam : R) (Hp : 1 <= p) (Hc : 1 <= c) (He : (0 < eta)%R) (Hl : (0 <= lam)%R).
(** One call. *)
Lemma one_call (t : trainer Rdt) (n : rnet) (H : rheap) (x y : rmat) : single_net k n p c eta lam -> no_decay t -> samples p c (x, y) -> labels_fit k y ->
  exists t' n', feeddata (D := Rdt) junk t n H x y = Ok (t', n', H) /\ no_decay t' /\ single_net k n' p c eta lam /\
    let V0 := at_ (weights n) in let V1 := at_ (weights n') in
    objective junk n H x y = Ok (kF k x y lam V0) /\ objective junk n' H x y = Ok (kF k x y lam V1) /\
    forall m eta', single_net k m p c eta' lam ->
      ((eta * total_curvature k x lam <= 1)%R -> (2 * eta * (kF k x y lam V1 - kF k x y lam (at_ (weights m))) + dist2 (weights n') (weights m) <= dist2 (weights n) (weights m))%R /\ (kF k x y lam V1 <= kF k x y lam V0)%R) /\
      (labels_nonneg k y -> (2 * eta * ((1 - eta * total_curvature k x lam) * kF k x y lam V0 - kF k x y lam (at_ (weights m))) + dist2 (weights n') (weights m) <= dist2 (weights n) (weights m))%R).
Proof.
  intros Hn Ht Hs HL. destruct (k_train_step junk k t n H x y p c eta lam Hn Ht Hp Hs) as (t' & n' & E & T' & L' & EW). exists t', n'. split; [exact E|]. split; [exact T'|]. split; [exact L'|].
  split; [now apply (k_objective junk k n H x y p c eta lam)|]. split; [now apply (k_objective junk k n' H x y p c eta lam)|]. intros m eta' Hm. pose proof Hs as (S1 & S2 & S3 & S4). cbn [fst snd] in *.
  pose proof (k_sm k x y p c Hp Hc Hs HL) as SM. pose proof Hn as (_ & _ & _ & _ & N1 & N2 & _). pose proof L' as (_ & _ & _ & _ & M1 & M2 & _).
  rewrite <- (ip_dist2 (weights n) _ (nc x + 1) (nc y)), <- (ip_dist2 (weights n') _ (nc x + 1) (nc y)) by (unfold weights; lia).
  assert (EQ : eqW (nc x + 1) (nc y) (at_ (weights n')) (kstep k x y lam eta (at_ (weights n)))) by (intros i j Hi Hj; apply EW; lia).
  rewrite (ip_ext (nc x + 1) (nc y) (diff (at_ (weights n')) (at_ (weights m))) (diff (kstep k x y lam eta (at_ (weights n))) (at_ (weights m))) (diff (at_ (weights n')) (at_ (weights m))) (diff (kstep k x y lam eta (at_ (weights n))) (at_ (weights m)))) by (intros i j Hi Hj; unfold diff; now rewrite EQ).
  assert (EF : kF k x y lam (at_ (weights n')) = kF k x y lam (kstep k x y lam eta (at_ (weights n)))) by (unfold kF; exact (F_ext (nr x) (nc x + 1) (nc y) (Xb x) (kphi k y) (kgr k y) (curvature k) lam SM _ _ EQ)).
  rewrite EF. split.
  - intros HR. split.
    + pose proof (step_key (nr x) (nc x + 1) (nc y) S1 (Xb x) (kphi k y) (kgr k y) (curvature k) lam (curv_pos k) SM eta (at_ (weights m)) (at_ (weights n)) He) as Q. rewrite k_LL in Q. specialize (Q HR). pose proof (ip_pos (nc x + 1) (nc y) (diff (at_ (weights n)) (at_ (weights m)))) as P.
      assert (0 <= eta * lam * ip (nc x + 1) (nc y) (diff (at_ (weights n)) (at_ (weights m))) (diff (at_ (weights n)) (at_ (weights m))))%R by (apply Rmult_le_pos; [apply Rmult_le_pos; lra|exact P]). unfold kF, kstep in *. lra.
    + apply (step_down (nr x) (nc x + 1) (nc y) S1 (Xb x) (kphi k y) (kgr k y) (curvature k) lam (curv_pos k) SM); [exact He|]. rewrite k_LL. lra.
  - intros LN. pose proof (step_before (nr x) (nc x + 1) (nc y) S1 (Xb x) (kphi k y) (kgr k y) (curvature k) lam (curv_pos k) SM eta (at_ (weights m)) (at_ (weights n)) He) as Q. rewrite k_LL in Q.
    apply Q; [now apply tc_pos|exact Hl|]. intros U. apply (kF_nonneg k x y lam U S1 S3 LN Hl).
Qed.
End One.
Lemma div_step (a b d d' eta : R) : (0 < eta)%R -> (2 * eta * (a - b) + d' <= d)%R -> (a + d' / (2 * eta) <= b + d / (2 * eta))%R.
Proof.
  intros He A. apply (Rmult_le_reg_r (2 * eta)); [lra|]. rewrite !Rmult_plus_distr_r. replace (d' / (2 * eta) * (2 * eta))%R with d' by (field; lra). replace (d / (2 * eta) * (2 * eta))%R with d by (field; lra). lra.
Qed.
(** ** C88 *)
(** Every call goes through; no call makes the objective on its own data worse; and the objectives after the calls add up to at most what any fixed network of this kind would have paid on the same stream, plus |W_m - W_n|^2 / (2 eta). *)
Theorem C88_regret : forall junk k p c eta lam, 1 <= p -> 1 <= c -> (0 < eta)%R -> (0 <= lam)%R ->
  forall data (t : trainer Rdt) (n : rnet) (H : rheap), single_net k n p c eta lam -> no_decay t ->
  Forall (fun d => samples p c d /\ labels_fit k (snd d) /\ (eta * total_curvature k (fst d) lam <= 1)%R) data ->
  exists l t' n', online junk t n H data = Ok (l, t', n', H) /\ no_decay t' /\ single_net k n' p c eta lam /\ Forall (fun e => (snd e <= fst e)%R) l /\
    forall junk' m I eta', single_net k m p c eta' lam -> exists js, bill junk' m I data = Ok js /\
      (sumL (map snd l) + dist2 (weights n') (weights m) / (2 * eta) <= sumL js + dist2 (weights n) (weights m) / (2 * eta))%R.
Proof.
  intros junk k p c eta lam Hp Hc He Hl data. induction data as [|[x y] data IH]; intros t n H Hn Ht HF.
  - exists [], t, n. split; [reflexivity|]. split; [exact Ht|]. split; [exact Hn|]. split; [constructor|]. intros junk' m I eta' Hm. exists []. split; [reflexivity|]. cbn. lra.
  - inversion HF as [|? ? (F1 & F2 & F3) F4]; subst. cbn [fst snd] in *. destruct (one_call junk k p c eta lam Hp Hc He Hl t n H x y Hn Ht F1 F2) as (t1 & n1 & E1 & T1 & L1 & O1 & O2 & C1).
    destruct (IH t1 n1 H L1 T1 F4) as (l & t' & n' & E & T' & L' & A & B). exists ((kF k x y lam (at_ (weights n)), kF k x y lam (at_ (weights n1))) :: l), t', n'.
    split; [cbn [online]; rewrite O1; cbn [bind]; rewrite E1; cbn [bind]; rewrite O2; cbn [bind]; rewrite E; reflexivity|]. split; [exact T'|]. split; [exact L'|]. split.
    + constructor; [cbn [fst snd]; apply (proj1 (C1 n eta Hn) F3)|exact A].
    + intros junk' m I eta' Hm. destruct (B junk' m I eta' Hm) as (js & Ej & Q). exists (kF k x y lam (at_ (weights m)) :: js). split.
      * unfold bill in *. cbn [mapM fst snd]. rewrite (k_objective junk' k m I x y p c eta' lam Hm Hp F1). cbn [bind]. rewrite Ej. reflexivity.
      * destruct (C1 m eta' Hm) as [C2 _]. destruct (C2 F3) as [C3 _]. apply (div_step _ _ _ _ eta He) in C3. cbn [map snd fst sumL fold_right]. unfold sumL in *. lra.
Qed.
(** The objectives before the calls - what one pays for predicting first and training then - obey the same bound up to the factor 1 - B, where B bounds eta times the curvature. *)
Theorem C88_before : forall junk k p c eta lam B, 1 <= p -> 1 <= c -> (0 < eta)%R -> (0 <= lam)%R ->
  forall data (t : trainer Rdt) (n : rnet) (H : rheap), single_net k n p c eta lam -> no_decay t ->
  Forall (fun d => samples p c d /\ labels_fit k (snd d) /\ labels_nonneg k (snd d) /\ (eta * total_curvature k (fst d) lam <= B)%R) data ->
  exists l t' n', online junk t n H data = Ok (l, t', n', H) /\ Forall (fun e => (0 <= fst e)%R) l /\
    forall junk' m I eta', single_net k m p c eta' lam -> exists js, bill junk' m I data = Ok js /\
      ((1 - B) * sumL (map fst l) + dist2 (weights n') (weights m) / (2 * eta) <= sumL js + dist2 (weights n) (weights m) / (2 * eta))%R.
Proof.
  intros junk k p c eta lam B Hp Hc He Hl data. induction data as [|[x y] data IH]; intros t n H Hn Ht HF.
  - exists [], t, n. split; [reflexivity|]. split; [constructor|]. intros junk' m I eta' Hm. exists []. split; [reflexivity|]. cbn. lra.
  - inversion HF as [|? ? (F1 & F2 & F3 & F5) F4]; subst. cbn [fst snd] in *. destruct (one_call junk k p c eta lam Hp Hc He Hl t n H x y Hn Ht F1 F2) as (t1 & n1 & E1 & T1 & L1 & O1 & O2 & C1).
    destruct (IH t1 n1 H L1 T1 F4) as (l & t' & n' & E & A & Q0). exists ((kF k x y lam (at_ (weights n)), kF k x y lam (at_ (weights n1))) :: l), t', n'.
    pose proof F1 as (S1 & _ & S3 & _). cbn [fst snd] in *. pose proof (kF_nonneg k x y lam (at_ (weights n)) S1 S3 F3 Hl) as PN.
    split; [cbn [online]; rewrite O1; cbn [bind]; rewrite E1; cbn [bind]; rewrite O2; cbn [bind]; rewrite E; reflexivity|]. split; [constructor; [exact PN|exact A]|].
    intros junk' m I eta' Hm. destruct (Q0 junk' m I eta' Hm) as (js & Ej & Q). exists (kF k x y lam (at_ (weights m)) :: js). split.
    + unfold bill in *. cbn [mapM fst snd]. rewrite (k_objective junk' k m I x y p c eta' lam Hm Hp F1). cbn [bind]. rewrite Ej. reflexivity.
    + destruct (C1 m eta' Hm) as [_ C2]. specialize (C2 F3). apply (div_step _ _ _ _ eta He) in C2. cbn [map snd fst sumL fold_right]. unfold sumL in *.
      assert ((1 - B) * kF k x y lam (at_ (weights n)) <= (1 - eta * total_curvature k x lam) * kF k x y lam (at_ (weights n)))%R by (apply Rmult_le_compat_r; lra). lra.
Qed.
(** SGDTrainer on any list of data sets is such a stream: one call per row. *)
Lemma feeddata_no_decay junk (t : trainer Rdt) (u : trainer Rdt) (n : rnet) (H : rheap) x y t' n' H' : no_decay t -> no_decay u -> feeddata (D := Rdt) junk t n H x y = Ok (t', n', H') ->
  no_decay t' /\ exists u', no_decay u' /\ feeddata (D := Rdt) junk u n H x y = Ok (u', n', H').
Proof.
  intros Ht Hu. unfold no_decay in *. unfold feeddata, decay. cbn [tick t_usedecay]. rewrite Ht, Hu. cbn [andb bind]. intros E. apply bind_ok in E as ([n1 H1] & E1 & E). injection E as <- <- <-. rewrite E1. cbn [bind]. split; [exact Ht|]. exists (tick u). split; [exact Hu|reflexivity].
Qed.
Lemma online_trainer junk data : forall (t u : trainer Rdt) (n : rnet) (H : rheap) l t' n' H', no_decay t -> no_decay u -> online junk t n H data = Ok (l, t', n', H') -> exists u', online junk u n H data = Ok (l, u', n', H').
Proof.
  induction data as [|[x y] data IH]; intros t u n H l t' n' H' Ht Hu E; cbn [online] in *.
  - injection E as <- <- <- <-. exists u. reflexivity.
  - apply bind_ok in E as (b & Eb & E). apply bind_ok in E as ([[t1 n1] H1] & E1 & E). apply bind_ok in E as (a & Ea & E). apply bind_ok in E as ([[[l2 t2] n2] H2] & E2 & E). injection E as <- <- <- <-.
    destruct (feeddata_no_decay junk t u n H x y t1 n1 H1 Ht Hu E1) as (T1 & u1 & U1 & F1). destruct (IH t1 u1 n1 H1 l2 t2 n2 H2 T1 U1 E2) as (u2 & F2). exists u2. rewrite Eb. cbn [bind]. rewrite F1. cbn [bind]. rewrite Ea. cbn [bind]. rewrite F2. reflexivity.
Qed.
Lemma online_app junk d1 d2 : forall (t : trainer Rdt) (n : rnet) (H : rheap) l1 t1 n1 H1 l2 t2 n2 H2, online junk t n H d1 = Ok (l1, t1, n1, H1) -> online junk t1 n1 H1 d2 = Ok (l2, t2, n2, H2) -> online junk t n H (d1 ++ d2) = Ok (l1 ++ l2, t2, n2, H2).
Proof.
  induction d1 as [|[x y] d1 IH]; intros t n H l1 t1 n1 H1 l2 t2 n2 H2 E F; cbn [online app] in *.
  - injection E as <- <- <- <-. exact F.
  - apply bind_ok in E as (b & Eb & E). apply bind_ok in E as ([[u1 m1] K1] & E1 & E). apply bind_ok in E as (a & Ea & E). apply bind_ok in E as ([[[l3 t3] n3] H3] & E2 & E). injection E as <- <- <- <-.
    rewrite Eb. cbn [bind]. rewrite E1. cbn [bind]. rewrite Ea. cbn [bind]. rewrite (IH _ _ _ _ _ _ _ _ _ _ _ E2 F). reflexivity.
Qed.
Lemma online_fold junk data : forall (t : trainer Rdt) (n : rnet) (H : rheap) l t' n' H', online junk t n H data = Ok (l, t', n', H') ->
  foldM (fun '(t, n, H) d => feeddata (D := Rdt) junk t n H (fst d) (snd d)) data (t, n, H) = Ok (t', n', H').
Proof.
  induction data as [|[x y] data IH]; intros t n H l t' n' H' E; cbn [online foldM fst snd] in *.
  - injection E as <- <- <- <-. reflexivity.
  - apply bind_ok in E as (b & Eb & E). apply bind_ok in E as ([[u1 m1] K1] & E1 & E). apply bind_ok in E as (a & Ea & E). apply bind_ok in E as ([[[l3 t3] n3] H3] & E2 & E). injection E as <- <- <- <-.
    rewrite E1. cbn [bind]. eapply IH. exact E2.
Qed.
Lemma foldM_map' {A B S} (g : A -> B) (f : S -> B -> res S) l : forall s, foldM f (map g l) s = foldM (fun s a => f s (g a)) l s.
Proof. induction l as [|a l IH]; intros s; [reflexivity|]. cbn [map foldM]. destruct (f s (g a)); cbn [bind]; auto. Qed.
Lemma foldM_ext' {A S} (f g : S -> A -> res S) l : (forall s a, f s a = g s a) -> forall s, foldM f l s = foldM g l s.
Proof. intros E. induction l as [|a l IH]; intros s; [reflexivity|]. cbn [foldM]. rewrite E. destruct (g s a); cbn [bind]; auto. Qed.
Theorem C88_sgd : forall junk k p c eta lam, 1 <= p -> 1 <= c -> (0 < eta)%R -> (0 <= lam)%R ->
  forall data (t : trainer Rdt) (n : rnet) (H : rheap), single_net k n p c eta lam -> no_decay t ->
  Forall (samples p c) data -> Forall (fun d => labels_fit k (snd d) /\ (eta * total_curvature k (fst d) lam <= 1)%R) (flat_map rows_of data) ->
  exists t' n' l u, foldM (fun '(t, n, H) d => sgd_feeddata (D := Rdt) junk t n H (fst d) (snd d)) data (t, n, H) = Ok (t', n', H) /\
    online junk (trainer_new (D := Rdt)) n H (flat_map rows_of data) = Ok (l, u, n', H).
Proof.
  intros junk k p c eta lam Hp Hc He Hl data. induction data as [|[x y] data IH]; intros t n H Hn Ht HS HF.
  - exists t, n, [], trainer_new. split; reflexivity.
  - inversion HS as [|? ? S1 S2]; subst. cbn [flat_map] in HF. apply Forall_app in HF as [F1 F2].
    destruct (C88_regret junk k p c eta lam Hp Hc He Hl (rows_of (x, y)) (trainer_new (D := Rdt)) n H Hn eq_refl) as (l1 & u1 & n1 & E1 & U1 & L1 & _).
    { apply Forall_forall. intros d Hd. pose proof (proj1 (Forall_forall _ _) F1 d Hd) as [G1 G2]. split; [|split; assumption]. unfold rows_of in Hd. apply in_map_iff in Hd as (r & <- & _). destruct S1 as (_ & A2 & _ & A4). cbn [fst snd] in *. repeat split; cbn; lia. }
    assert (ES : sgd_feeddata (D := Rdt) junk t n H x y = Ok (tick t, n1, H)).
    { destruct S1 as (A1 & A2 & A3 & A4). cbn [fst snd] in *. rewrite C40_epoch by lia. unfold decay. cbn [tick t_usedecay]. rewrite Ht. cbn [andb bind]. apply online_fold in E1. unfold rows_of in E1. cbn [fst snd] in E1. rewrite foldM_map' in E1.
      rewrite (foldM_ext' _ (fun s r => let '(u, n, H) := s in feeddata (D := Rdt) junk u n H (row_of x r) (row_of y r))) in E1 by (intros [[? ?] ?] ?; reflexivity).
      rewrite (foldM_ext' _ (fun s r => let '(u, n, H) := s in feeddata (D := Rdt) junk u n H (row_of x r) (row_of y r))) by (intros [[? ?] ?] ?; reflexivity). rewrite E1. reflexivity. }
    destruct (IH (tick t) n1 H L1 Ht S2 F2) as (t' & n' & l2 & u2 & E2 & O2). destruct (online_trainer junk _ trainer_new u1 n1 H l2 u2 n' H eq_refl U1 O2) as (u3 & O3).
    exists t', n', (l1 ++ l2), u3. split; [cbn [foldM fst snd]; rewrite ES; cbn [bind]; exact E2|]. cbn [flat_map]. eapply online_app; eassumption.
Qed.
(** *** Wrong predictions cost at least ln 2 *)
Lemma one_hot_nonneg lab y : one_hot lab y -> labels_nonneg OSoftmax y.
Proof. intros O r j Hr Hj. rewrite (proj2 (O r Hr) j Hj). destruct (j =? lab r); lra. Qed.
Lemma pred_right junk (n : rnet) (H : rheap) (x y : rmat) p c eta lam lab pr n' H' r : single_net OSoftmax n p c eta lam -> 1 <= p -> 1 <= c -> samples p c (x, y) -> one_hot lab y ->
  net_predict (D := Rdt) junk n H x = Ok (pr, n', H') -> r < nr x -> (kphi OSoftmax y r (ZZ (nc x + 1) (Xb x) (at_ (weights n)) r) < ln 2)%R -> at_ pr r 0 = INR (lab r).
Proof.
  intros L Hp Hc (S1 & S2 & S3 & S4) HO P1 Hr SH. cbn [fst snd] in *. destruct (C34_predict (D := Rdt) junk n H x pr n' H' P1) as (b & n1 & H1 & Q1 & _ & Q2 & _ & _ & _ & _ & Q3).
  destruct (k_out junk OSoftmax n H x p c eta lam b n1 H1 L S1 Hp S2 Q1) as (B1 & B2 & B3).
  destruct (Q3 r ltac:(lia) (ordered_R b r)) as (k & (F1 & F2 & F3) & Q4 & _).
  rewrite Q4. cbn [dofZ Rdt]. rewrite <- INR_IZR_INZ. destruct (Nat.eq_dec k (lab r)) as [-> |Hne]; [reflexivity|exfalso].
  assert (Hl : lab r < c) by (rewrite <- S4; apply (HO r); lia).
  pose proof (sm_right lab y r _ HO ltac:(lia) ltac:(lia) SH k ltac:(lia) Hne) as W. specialize (F2 (lab r) ltac:(lia)). cbn in F2. unfold Rltb' in F2. rewrite !B3 in F2 by lia. cbn [kact act identity] in F2. destruct (Rlt_dec _ _) in F2; [discriminate|]. contradiction.
Qed.
Lemma rate_le junk (n : rnet) (H : rheap) (x y : rmat) p c eta lam lab pr n' H' : single_net OSoftmax n p c eta lam -> 1 <= p -> 1 <= c -> (0 <= lam)%R -> samples p c (x, y) -> one_hot lab y ->
  net_predict (D := Rdt) junk n H x = Ok (pr, n', H') -> (ln 2 * error_rate lab pr <= kF OSoftmax x y lam (at_ (weights n)))%R.
Proof.
  intros L Hp Hc Hl Hs HO P1. pose proof Hs as (S1 & S2 & S3 & S4). cbn [fst snd] in *.
  assert (Er : nr pr = nr x). { destruct (C34_predict (D := Rdt) junk n H x pr n' H' P1) as (b & n1 & H1 & Q1 & _ & Q2 & _). rewrite Q2. apply (k_out junk OSoftmax n H x p c eta lam b n1 H1 L S1 Hp S2 Q1). }
  unfold error_rate, kF, FF. rewrite Er. assert (P : (0 < / INR (nr x))%R) by (apply Rinv_0_lt_compat; now apply lt_0_INR). pose proof (ip_pos (nc x + 1) (nc y) (at_ (weights n))) as P2. assert (P3 : (0 <= lam / 2 * ip (nc x + 1) (nc y) (at_ (weights n)) (at_ (weights n)))%R) by (apply Rmult_le_pos; lra).
  unfold Rdiv at 1 2. rewrite <- Rmult_assoc, <- sumN_scal.
  assert (A : (sumN (nr x) (fun r => ln 2 * (if Req_EM_T (at_ pr r 0%nat) (INR (lab r)) then 0 else 1)) <= sumN (nr x) (fun r => kphi OSoftmax y r (ZZ (nc x + 1) (Xb x) (at_ (weights n)) r)))%R).
  { apply sumN_le. intros r Hr. destruct (Req_EM_T (at_ pr r 0) (INR (lab r))) as [_|Ne].
    - rewrite Rmult_0_r. apply kphi_nonneg; [now apply (one_hot_nonneg lab)|lia].
    - rewrite Rmult_1_r. apply Rnot_lt_le. intros C. apply Ne. exact (pred_right junk n H x y p c eta lam lab pr n' H' r L Hp Hc Hs HO P1 Hr C). }
  apply (Rmult_le_compat_r (/ INR (nr x))) in A; lra.
Qed.
(** Softmax, one-hot labels: predicting every element of the stream before training on it, the error rates add up to at most (what m would pay + |W_m - W_n|^2 / (2 eta)) / ((1 - B) ln 2). *)
Theorem C88_mistakes : forall junk p c eta lam B, 1 <= p -> 1 <= c -> (0 < eta)%R -> (0 <= lam)%R -> (B <= 1)%R ->
  forall data (t : trainer Rdt) (n : rnet) (H : rheap), single_net OSoftmax n p c eta lam -> no_decay t ->
  Forall (fun d => samples p c (fst d) /\ one_hot (snd d) (snd (fst d)) /\ (eta * total_curvature OSoftmax (fst (fst d)) lam <= B)%R) data ->
  exists es, errors junk t n H data = Ok es /\
    forall junk' m I eta', single_net OSoftmax m p c eta' lam -> exists js, bill junk' m I (map fst data) = Ok js /\
      ((1 - B) * ln 2 * sumL es <= sumL js + dist2 (weights n) (weights m) / (2 * eta))%R.
Proof.
  intros junk p c eta lam B Hp Hc He Hl HB data. induction data as [|[[x y] lab] data IH]; intros t n H Hn Ht HF.
  - exists []. split; [reflexivity|]. intros junk' m I eta' Hm. exists []. split; [reflexivity|]. cbn. rewrite Rmult_0_r, Rplus_0_l. apply Rdiv_le_0_compat; [|lra]. unfold dist2. do 2 (apply sumN_nonneg; intros). apply sq_pos.
  - inversion HF as [|? ? (F1 & F2 & F5) F4]; subst. cbn [fst snd] in *. pose proof F1 as (S1 & S2 & S3 & S4). cbn [fst snd] in S1, S2, S3, S4. destruct (one_call junk OSoftmax p c eta lam Hp Hc He Hl t n H x y Hn Ht F1 (one_hot_fit lab y F2)) as (t1 & n1 & E1 & T1 & L1 & O1 & O2 & C1).
    destruct (C34_total (D := Rdt) junk n H p c x (k_sized OSoftmax n H p c eta lam Hn Hp) Hp Hc S1 S2) as (pr & n'' & H'' & P1 & P2 & P3).
    destruct (IH t1 n1 H L1 T1 F4) as (es & E & Q0). exists (error_rate lab pr :: es). split; [cbn [errors]; rewrite P1; cbn [bind]; rewrite E1; cbn [bind]; rewrite E; reflexivity|].
    intros junk' m I eta' Hm. destruct (Q0 junk' m I eta' Hm) as (js & Ej & Q). exists (kF OSoftmax x y lam (at_ (weights m)) :: js). split.
    + unfold bill in *. cbn [mapM fst snd map]. rewrite (k_objective junk' OSoftmax m I x y p c eta' lam Hm Hp F1). cbn [bind]. rewrite Ej. reflexivity.
    + destruct (C1 m eta' Hm) as [_ C2]. specialize (C2 (one_hot_nonneg lab y F2)). apply (div_step _ _ _ _ eta He) in C2. cbn [map snd fst sumL fold_right]. unfold sumL in *.
      pose proof (rate_le junk n H x y p c eta lam lab pr n'' H'' Hn Hp Hc Hl F1 F2 P1) as RL. pose proof (kF_nonneg OSoftmax x y lam (at_ (weights n)) S1 S3 (one_hot_nonneg lab y F2) Hl) as PN.
      assert ((1 - B) * kF OSoftmax x y lam (at_ (weights n)) <= (1 - eta * total_curvature OSoftmax x lam) * kF OSoftmax x y lam (at_ (weights n)))%R by (apply Rmult_le_compat_r; lra).
      apply (Rmult_le_compat_l (1 - B)) in RL; [|lra]. lra.
Qed.
(** The two samples of C87 over and over, rate 1/4: curvature 2, B = 1/2, bounds hold for every length K of the stream, with a competitor that is right. *)
Lemma c88_tc : total_curvature OSoftmax c63x 0 = 2%R.
Proof. unfold total_curvature. cbn [curvature c63x nr nc mk]. rewrite !sumN_S, !sumN_0. unfold c63x. rewrite !(at_mk (D := Rdt)) by lia. cbn [Nat.eqb INR]. field. Qed.
Lemma c88_rows r : r < 2 -> total_curvature OSoftmax (row_of c63x r) 0 = 2%R.
Proof.
  intros Hr. unfold total_curvature. cbn [curvature row_of c63x nr nc mk]. rewrite !sumN_S, !sumN_0. unfold row_of. cbn [nr nc mk c63x]. rewrite (at_mk (D := Rdt)) by lia. unfold c63x. rewrite (at_mk (D := Rdt)) by lia. cbn [INR]. destruct r as [|[|r]]; [| |lia]; cbn [Nat.eqb]; field.
Qed.
Example C88_example (K : nat) : let data := repeat (c63x, c87y, fun r : nat => r) K in
  single_net OSoftmax (c87n (1/4) 0) 1 2 (1/4) 0 /\ single_net OSoftmax (c87n (1/4) 1) 1 2 (1/4) 0 /\
  Forall (fun d => samples (D := Rdt) 1 2 (fst d) /\ one_hot (snd d) (snd (fst d)) /\ (1/4 * total_curvature OSoftmax (fst (fst d)) 0 <= 1/2)%R) data /\
  Forall (fun d => labels_fit OSoftmax (snd d) /\ (1/4 * total_curvature OSoftmax (fst d) 0 <= 1)%R) (flat_map rows_of (map fst data)) /\
  dist2 (weights (c87n (1/4) 0)) (weights (c87n (1/4) 1)) = 2%R.
Proof.
  intros data. assert (HO : one_hot (fun r => r) c87y). { intros r Hr. split; [exact Hr|]. intros j Hj. cbn in Hr, Hj. unfold c87y. rewrite (at_mk (D := Rdt)) by assumption. now rewrite Nat.eqb_sym. }
  split; [repeat split|]. split; [repeat split|]. split; [|split].
  - apply Forall_forall. intros d Hd%repeat_spec. subst d. cbn [fst snd]. split; [repeat split; cbn; lia|]. split; [exact HO|]. rewrite c88_tc. lra.
  - apply Forall_forall. intros d Hd. apply in_flat_map in Hd as (e & He & Hd). apply in_map_iff in He as (f & <- & Hf%repeat_spec). subst f. cbn [fst] in Hd. unfold rows_of in Hd. apply in_map_iff in Hd as (r & <- & Hr%in_seq). cbn [fst snd c63x nr mk] in *. split.
    + intros q Hq. cbn in Hq. replace q with 0 by lia. cbn [row_of nc mk c87y]. rewrite !sumN_S, sumN_0. unfold row_of. cbn [nc mk c87y]. rewrite !(at_mk (D := Rdt)) by lia. unfold c87y. rewrite !(at_mk (D := Rdt)) by lia. destruct r as [|[|r]]; [| |lia]; cbn [Nat.eqb]; lra.
    + rewrite c88_rows by lia. lra.
  - unfold dist2, weights, c87n, c87W. cbn [n_output o_l l_W nr nc mk]. rewrite !sumN_S, !sumN_0. rewrite !(at_mk (D := Rdt)) by lia. cbn [Nat.eqb]. lra.
Qed.

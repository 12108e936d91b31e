(** P_SgdReach.v - C102: SGDTrainer and BatchTrainer on a deep regularised network with a small enough rate reach any wanted gradient. *)
From Coq Require Import Reals Lra Psatz.
From Coquelicot Require Import Coquelicot.
From Verif Require Import Base Mat Act Layer Conv Misc Net NetP RInst RMat P_Act Grad P_Grad Trainer TrainP TrainP2 P_Train FunEq P_Mom P_Descent P_Linear Smooth Smooth2 P_Cost P_Smooth P_Converge P_MomConv P_Batch P_Sgd P_Mean P_Convex P_Online P_SgdConv.
From Coq Require Import Arith Permutation.
Local Open Scope nat_scope.

(** ** Specification *)
(** K calls of SGDTrainer::feeddata(x, y), of BatchTrainer::feeddata(x, y) on the same data. *)
Definition sgd_train (junk : nat -> R) (t : trainer Rdt) (n : rnet) (H : rheap) (x y : rmat) (K : nat) : res (trainer Rdt * rnet * rheap) :=
  foldM (fun s _ => let '(t, n, H) := s in sgd_feeddata (D := Rdt) junk t n H x y) (repeat tt K) (t, n, H).
Definition batch_train (junk : nat -> R) (t : btrainer Rdt) (n : rnet) (H : rheap) (x y : rmat) (K : nat) : res (btrainer Rdt * rnet * rheap) :=
  foldM (fun s _ => let '(t, n, H) := s in batch_feeddata (D := Rdt) junk t n H x y) (repeat tt K) (t, n, H).

(** ** Proof *)
Lemma samples_pick p c (x y : rmat) idx : samples p c (x, y) -> idx <> [] -> samples p c (pick x idx, pick y idx).
Proof. intros (S1 & S2 & S3 & S4) Hne. cbn in *. repeat split; cbn; auto. destruct idx; [congruence|cbn; lia]. Qed.
Lemma slope2_ok junk n H ts p c M m K ks x y : fits_net n H ts p c -> 1 <= p -> samples p c (x, y) -> built n ts M m K ks -> exists g, slope2 junk m K x y = Ok g /\ (0 <= g)%R.
Proof.
  intros Hf Hp Hs Hm. destruct (passed_ok junk m K ks p c x y (built_fits n H ts p c M m K ks Hf Hm) Hp Hs) as (n2 & H2 & k2 & (a & n1 & H1 & A1 & A2 & A3) & _).
  unfold slope2. rewrite A1. cbn [bind]. rewrite A2. cbn [bind]. rewrite (hidden_layers_dense _ _ _ (proj2 A3)). cbn [bind]. eexists. split; [reflexivity|].
  pose proof (sqs_nonneg k2) as Q. unfold sqs in Q. pose proof (sqnorm_nonneg (l_grad (o_l (n_output n2)))). lra.
Qed.
Lemma inc_pass junk n H ts p c x y M b idxs : fits_net n H ts p c -> 1 <= p -> samples p c (x, y) -> built_in n y -> Forall (fun l : rlayer => In (l_act l) seven) ts -> split_of (nr x) b idxs ->
  exists eta0 C, (0 < eta0)%R /\ (0 <= C)%R /\ forall m K ks (t : trainer Rdt) eta, built n ts M m K ks -> Forall (fun l : rlayer => l_lrate l = eta) ks -> l_lrate (o_l (n_output m)) = eta -> no_decay t -> (0 < eta < eta0)%R ->
    exists J g t' m' K' ks' J', objective junk m K x y = Ok J /\ slope2 junk m K x y = Ok g /\ (0 <= g)%R /\ run junk (batches x y idxs) t m K = Ok (t', m', K') /\ no_decay t' /\
      built n ts (M + 1) m' K' ks' /\ Forall (fun l : rlayer => l_lrate l = eta) ks' /\ l_lrate (o_l (n_output m')) = eta /\
      objective junk m' K' x y = Ok J' /\ (J' <= J - eta * INR (length idxs) * g + eta * eta * C)%R.
Proof.
  intros Hf Hp Hs Hb HA Hsp. pose proof Hsp as (Hb1 & HF & _).
  assert (Hcd : o_costd (n_output n) = quad_costd \/ o_costd (n_output n) = ce_costd \/ o_costd (n_output n) = sm_costd) by (destruct Hb as [(_ & E & _)|[(_ & E & _)|(_ & E & _)]]; auto).
  assert (HAo : In (l_act (o_l (n_output n))) seven) by (destruct Hb as [(_ & _ & ->)|[(_ & _ & ->)|(_ & _ & -> & _)]]; cbn; auto).
  assert (HSd : Forall (samples p c) (batches x y idxs)).
  { apply Forall_forall. intros d Hd. apply in_map_iff in Hd as (idx & <- & Hi). apply samples_pick; [assumption|]. rewrite Forall_forall in HF. specialize (HF idx Hi). intros ->. simpl in HF. lia. }
  destruct (near_pass_all junk n H ts p c (M + 1)%R Hf Hp Hcd) with (ds := (x, y) :: batches x y idxs) as (G & Lg & HG & HL & HN).
  { eapply Forall_impl; [|exact HA]. intros l Hl. now apply seven_lip. }
  { now apply seven_lip. }
  { constructor; assumption. }
  inversion HN as [|? ? HNf HNd]; subst. clear HN. cbn [fst snd] in HNf.
  set (NT := (Nw ts + INR (nr (l_W (o_l (n_output n)))) * INR (nc (l_W (o_l (n_output n)))))%R).
  assert (HNT : (0 <= NT)%R). { unfold NT. pose proof (Nw_nonneg ts). pose proof (pos_INR (nr (l_W (o_l (n_output n))))). pose proof (pos_INR (nc (l_W (o_l (n_output n))))). nra. }
  set (B := INR (length idxs)). assert (HB : (0 <= B)%R) by apply pos_INR. assert (HBG : (0 <= B * G)%R) by (apply Rmult_le_pos; assumption).
  exists (/ (B * G + 1))%R, (B * (NT * (2 * (Lg * (B * G) * G))))%R. split; [apply Rinv_0_lt_compat; lra|]. split; [repeat (apply Rmult_le_pos; try assumption; try lra)|].
  intros m K ks t eta Hm Hr Hro Ht [He0 He1]. assert (HeB : (B * (eta * G) <= 1)%R). { apply (Rmult_lt_compat_r (B * G + 1)) in He1; [|lra]. rewrite Rinv_l in He1 by lra. lra. }
  pose proof (built_fits n H ts p c M m K ks Hf Hm) as Hfm. pose proof Hm as (M1 & M2 & M3 & M4).
  assert (Hw : well_sized (D := Rdt) m K p c).
  { apply well_fits. split; [exists ks; exact Hfm|]. destruct M2 as [K1 K2]. rewrite K1, K2. destruct Hb as [(-> & -> & _)|[(-> & -> & _)|(-> & -> & _)]]; tauto. }
  destruct (passed_ok junk m K ks p c x y Hfm Hp Hs) as (nf & Hf0 & kf & Qf & _). destruct (C62_mean junk m K p c x y Hp Hw Hs) as [(Gf & ls & EGf & _) _].
  destruct (batch_sum junk m K p c x y b idxs Gf Hp Hw Hs Hsp EGf) as (Gd & EGd & HSum). pose proof (slope2_grads junk m K ks x y nf Hf0 kf Gf M1 Qf EGf) as ES.
  set (g := ipL Gf Gf) in *.
  assert (HQ : Forall2 (fun d q => exists nd Hd kd, passed junk m K (fst d) (snd d) nd Hd kd /\ q = (dots2 kf kd + inner (l_grad (o_l (n_output nf))) (l_grad (o_l (n_output nd))))%R) (batches x y idxs) (map (fun idx => ipL Gf (Gd idx)) idxs)).
  { unfold batches. clear HSum HNd HSd Hsp. revert HF EGd. clear B HB HBG HeB He1. clear -Hfm Hp Hs M1 Qf EGf Hb1. induction idxs as [|idx idxs IH]; intros HF EGd; [constructor|]. inversion HF as [|? ? F1 F2]; subst. cbn [map]. constructor; [|apply IH; [assumption|intros i Hi; apply EGd; now right]].
    cbn [fst snd]. destruct (passed_ok junk m K ks p c (pick x idx) (pick y idx) Hfm Hp) as (nd & Hd & kd & Qd & _); [apply samples_pick; [assumption|intros ->; simpl in Hb1; lia]|].
    exists nd, Hd, kd. split; [assumption|]. symmetry. eapply grads_dots; eauto. apply EGd. now left. }
  destruct (inc_list junk n H ts p c x y M G Lg Hf Hp Hs Hb HA HG HL HNf m K ks nf Hf0 kf Hm Qf eta He0 _ HSd HNd _ HQ m K ks t 0%R) with (E := (B * (eta * G))%R)
    as (J & t' & m' & K' & ks' & J' & A1 & A2 & A3 & A4 & A5 & A6 & A7 & A8); auto; try lra.
  { apply (built_mono n ts M (M + 1) m K ks ltac:(lra) Hm). }
  { apply (built_mono n ts M (M + 1) m K ks ltac:(lra) Hm). }
  { apply (built_mono n ts M (M + 1) m K ks ltac:(lra) Hm). }
  { unfold batches. rewrite map_length. fold B. lra. }
  exists J, g, t', m', K', ks', J'. split; [assumption|]. split; [assumption|]. split.
  { destruct (slope2_ok junk n H ts p c M m K ks x y Hf Hp Hs Hm) as (g' & Eg & Pg). pose proof (eq_trans (eq_sym ES) Eg) as Q. injection Q as ->. assumption. }
  repeat (split; [assumption|]). rewrite HSum in A8. unfold batches in A8. rewrite map_length in A8. fold B NT in A8. fold B. lra.
Qed.

(** ** Calls until the gradient is small *)
Definition iter {S} (call : S -> res S) (s : S) (k : nat) : res S := foldM (fun s (_ : unit) => call s) (repeat tt k) s.
Lemma reach {S} (call : S -> res S) (P : S -> R -> R -> Prop) (eps a J0 : R) : (0 < a)%R -> (0 < eps)%R ->
  (forall s J g, P s J g -> (J <= J0)%R -> (0 <= J)%R /\ ((eps < g)%R -> exists s' J' g', call s = Ok s' /\ P s' J' g' /\ (J' <= J - a * g)%R)) ->
  forall s0 g0, P s0 J0 g0 -> exists k (J g : nat -> R), J 0 = J0 /\ (forall j, j <= k -> exists s, iter call s0 j = Ok s /\ P s (J j) (g j) /\ (J j <= J0)%R) /\
    (forall j, j < k -> (J (Datatypes.S j) <= J j - a * g j)%R /\ (eps < g j)%R) /\ (g k <= eps)%R /\ (INR k * (a * eps) <= J0)%R.
Proof.
  intros Ha He HS. assert (Hae : (0 < a * eps)%R) by (apply Rmult_lt_0_compat; assumption).
  assert (X : forall N s J1 g1, P s J1 g1 -> (J1 <= J0)%R -> (J1 < INR N * (a * eps))%R -> exists k (J g : nat -> R), J 0 = J1 /\ (forall j, j <= k -> exists s', iter call s j = Ok s' /\ P s' (J j) (g j) /\ (J j <= J0)%R) /\
    (forall j, j < k -> (J (Datatypes.S j) <= J j - a * g j)%R /\ (eps < g j)%R) /\ (g k <= eps)%R /\ (INR k * (a * eps) <= J1)%R).
  { induction N as [|N IH]; intros s J1 g1 HP HJ HN; destruct (HS s J1 g1 HP HJ) as [PJ St]; [cbn in HN; lra|].
    destruct (Rle_lt_dec g1 eps) as [Hle|Hgt].
    - exists 0, (fun _ => J1), (fun _ => g1). split; [reflexivity|]. split; [intros j Hj; replace j with 0 by lia; exists s; split; [reflexivity|auto]|]. split; [intros j Hj; lia|]. split; [assumption|]. cbn. lra.
    - destruct (St Hgt) as (s' & J' & g' & E & HP' & HD). assert (a * eps < a * g1)%R by (apply Rmult_lt_compat_l; assumption). rewrite S_INR in HN.
      destruct (IH s' J' g' HP' ltac:(lra) ltac:(lra)) as (k & J & g & Z & A & B & C & Dk).
      exists (Datatypes.S k), (fun j => match j with 0 => J1 | Datatypes.S j => J j end), (fun j => match j with 0 => g1 | Datatypes.S j => g j end). split; [reflexivity|]. split; [|split; [|split]].
      + intros [|j] Hj; [exists s; split; [reflexivity|auto]|]. destruct (A j ltac:(lia)) as (s2 & E2 & P2). exists s2. split; [|assumption]. unfold iter in *. cbn [repeat foldM]. rewrite E. exact E2.
      + intros [|j] Hj; [rewrite Z; auto|]. apply B. lia.
      + assumption.
      + rewrite S_INR. lra. }
  intros s0 g0 HP. destruct (HS s0 J0 g0 HP (Rle_refl _)) as [PJ _]. 
  destruct (archimed_cor1 (a * eps / (J0 + 1))) as (N & HN & HN0). { apply Rmult_lt_0_compat; [assumption|apply Rinv_0_lt_compat; lra]. }
  apply lt_0_INR in HN0. apply (X N s0 J0 g0 HP (Rle_refl _)). apply (Rmult_lt_compat_r (J0 + 1)) in HN; [|lra]. unfold Rdiv in HN. rewrite Rmult_assoc, (Rinv_l (J0 + 1)), Rmult_1_r in HN by lra.
  apply (Rmult_lt_compat_l (INR N)) in HN; [|assumption]. rewrite <- Rmult_assoc, Rinv_r, Rmult_1_l in HN by lra. lra.
Qed.

(** ** The general form: a trainer whose call is one pass over equal batches *)
Lemma reach_pass {T} junk n H ts p c x y lam b idxs (call : T * rnet * rheap -> res (T * rnet * rheap)) (ok : T -> Prop) :
  fits_net n H ts p c -> 1 <= p -> samples p c (x, y) -> built_in n y -> (n_cost n = quad_cost \/ all_in 0 1 y) -> Forall (fun l : rlayer => In (l_act l) seven) ts -> Forall (fun l : rlayer => (lam <= l_lambda l)%R) ts ->
  (0 < lam <= l_lambda (o_l (n_output n)))%R -> split_of (nr x) b idxs ->
  (forall t m K t1 m' K', ok t -> run junk (batches x y idxs) (trainer_new (D := Rdt)) m K = Ok (t1, m', K') -> exists t', ok t' /\ call (t, m, K) = Ok (t', m', K')) ->
  forall eps, (0 < eps)%R -> exists eta0, (0 < eta0)%R /\ forall (t : T) eta, ok t -> (0 < eta < eta0)%R ->
    exists n0 H0 k (J g : nat -> R), net_setlrate (D := Rdt) n H eta = Ok (n0, H0) /\ objective junk n H x y = Ok (J 0) /\
      (forall j, j <= k -> exists t' n' H', iter call (t, n0, H0) j = Ok (t', n', H') /\ objective junk n' H' x y = Ok (J j) /\ slope2 junk n' H' x y = Ok (g j) /\ small (sqrt (2 * J 0%nat / lam)) n' H') /\
      (forall j, j < k -> (J (S j) <= J j - eta * INR (length idxs) / 2 * g j)%R /\ (eps < g j)%R) /\
      (g k <= eps)%R /\ (INR k * (eta * INR (length idxs) / 2 * eps) <= J 0%nat)%R.
Proof.
  intros Hf Hp Hs Hb Hy HA Hls [Hlam Hlo] Hsp HC eps Heps.
  destruct (objective_ok junk n H ts p c x y Hf Hp Hs Hb) as (J0 & EJ0). set (M := sqrt (2 * J0 / lam)).
  assert (HB : (0 < INR (length idxs))%R). { apply lt_0_INR. pose proof (split_length _ _ _ Hsp) as Q. destruct Hs as (S1 & _). cbn in S1. destruct idxs; [simpl in Q; lia|simpl; lia]. }
  set (B := INR (length idxs)) in *.
  destruct (inc_pass junk n H ts p c x y M b idxs Hf Hp Hs Hb HA Hsp) as (eta1 & C & He1 & HC0 & St). fold B in St.
  assert (He2 : (0 < B * eps / (2 * (C + 1)))%R). { unfold Rdiv. apply Rmult_lt_0_compat; [now apply Rmult_lt_0_compat|]. apply Rinv_0_lt_compat. lra. }
  exists (Rmin eta1 (B * eps / (2 * (C + 1))))%R. split; [now apply Rmin_glb_lt|].
  intros t eta Ht [Ha Hb']. pose proof (Rlt_le_trans _ _ _ Hb' (Rmin_l _ _)) as Hc'. pose proof (Rlt_le_trans _ _ _ Hb' (Rmin_r _ _)) as Hd'. clear Hb'.
  assert (HeC : (eta * C <= B * eps / 2)%R).
  { apply (Rmult_lt_compat_r (2 * (C + 1))) in Hd'; [|lra]. unfold Rdiv in Hd'. rewrite Rmult_assoc, Rinv_l, Rmult_1_r in Hd' by lra. lra. }
  destruct (net_setlrate_dense n H ts (eta : Rdt) (proj1 Hf)) as [ES Hr].
  set (n0 := setrate_net n (eta : Rdt)) in *. set (H0 := put_layers (n_hidden n) (map (relr (eta : Rdt)) ts) H) in *. set (ts0 := map (relr (eta : Rdt)) ts) in *.
  assert (EJ : objective junk n0 H0 x y = Ok J0) by exact (objective_setrate junk n H ts x y J0 eta (proj1 Hf) EJ0).
  assert (OB : forall M' m K ks J, built n ts M' m K ks -> objective junk m K x y = Ok J -> (J <= J0)%R -> (0 <= J)%R /\ built n ts M m K ks).
  { intros M' m K ks J Bm E HJ. eapply objective_bounds; eauto. }
  assert (B0 : built n ts M n0 H0 ts0).
  { destruct (built_self n H ts (proj1 Hf)) as (M' & (B1 & B2 & B3 & B4)). apply (OB M' n0 H0 _ J0); [|exact EJ|lra].
    split; [exact Hr|]. split; [exact B2|]. split; [|exact B4]. eapply lsnear_same; [|exact B3]. unfold ts0. clear. induction ts; cbn; constructor; auto. repeat split. }
  set (P := fun (s : T * rnet * rheap) (J g : R) => let '(u, n', H') := s in ok u /\ exists ks, built n ts M n' H' ks /\ Forall (fun l : rlayer => l_lrate l = eta) ks /\ l_lrate (o_l (n_output n')) = eta /\ objective junk n' H' x y = Ok J /\ slope2 junk n' H' x y = Ok g).
  destruct (slope2_ok junk n H ts p c M n0 H0 ts0 x y Hf Hp Hs B0) as (g0 & Eg0 & _).
  assert (HaB : (0 < eta * B / 2)%R) by (assert (0 < eta * B)%R by (now apply Rmult_lt_0_compat); lra).
  destruct (reach call P eps (eta * B / 2)%R J0 HaB Heps) with (s0 := (t, n0, H0)) (g0 := g0) as (k & J & g & A1 & A2 & A3 & A4 & A5).
  - intros [[u m] K] J g (I1 & ks & I2 & I3 & I4 & I5 & I6) HJ. destruct (OB _ _ _ _ _ I2 I5 HJ) as [PJ _]. split; [assumption|]. intros Hg.
    destruct (St m K ks (trainer_new (D := Rdt)) eta I2 I3 I4 eq_refl ltac:(lra)) as (J1 & g1 & t1 & m' & K' & ks' & J' & Z1 & Z2 & Z3 & Z4 & Z5 & Z6 & Z7 & Z8 & Z9 & Z10).
    pose proof (eq_trans (eq_sym I5) Z1) as Q. injection Q as <-. pose proof (eq_trans (eq_sym I6) Z2) as Q. injection Q as <-.
    destruct (HC u m K t1 m' K' I1 Z4) as (u' & Z11 & Z12).
    assert (HD : (J' <= J - eta * B / 2 * g)%R).
    { assert (eta * (eta * C) <= eta * (B * eps / 2))%R by (apply Rmult_le_compat_l; lra). assert (eta * B / 2 * eps < eta * B / 2 * g)%R by (now apply Rmult_lt_compat_l). lra. }
    assert (0 < eta * B / 2 * g)%R by (apply Rmult_lt_0_compat; lra).
    destruct (OB _ _ _ _ _ Z6 Z9) as [_ Z13]; [lra|]. destruct (slope2_ok junk n H ts p c M m' K' ks' x y Hf Hp Hs Z13) as (g' & Eg' & _).
    exists (u', m', K'), J', g'. split; [assumption|]. split; [|assumption]. split; [assumption|]. exists ks'. auto.
  - split; [assumption|]. exists ts0. split; [assumption|]. split; [unfold ts0; clear; induction ts; cbn; constructor; auto|]. split; [reflexivity|]. auto.
  - exists n0, H0, k, J, g. split; [exact ES|]. rewrite A1. split; [assumption|]. split; [|auto].
    intros j Hj. destruct (A2 j Hj) as ([[u n'] H'] & Z1 & (Z2 & ks & Z3 & Z4 & Z5 & Z6 & Z7) & _). exists u, n', H'. split; [assumption|]. split; [assumption|]. split; [assumption|]. apply (built_same n H ts n' H' M ks (proj1 Hf) Z3).
Qed.

(** ** SGDTrainer: batches of one row *)
Definition ones (N : nat) : list (list nat) := map (fun r => [r]) (seq 0 N).
Lemma ones_split N : split_of N 1 (ones N).
Proof.
  split; [lia|]. split.
  - apply Forall_forall. intros i Hi. apply in_map_iff in Hi as (r & <- & _). reflexivity.
  - unfold ones. generalize 0. induction N as [|N IH]; intros s; cbn; [constructor|]. apply Permutation_cons; [reflexivity|apply IH].
Qed.
Lemma pick_one (m : rmat) r : pick m [r] = row_of m r.
Proof. unfold pick, row_of. cbn [length]. apply (mk_ext (D := Rdt)). intros i j Hi Hj. now replace i with 0 by lia. Qed.
Lemma sgd_call junk (x y : rmat) (t : trainer Rdt) m K t1 m' K' : nr x <= nr y -> no_decay t -> run junk (batches x y (ones (nr x))) (trainer_new (D := Rdt)) m K = Ok (t1, m', K') ->
  sgd_feeddata (D := Rdt) junk t m K x y = Ok (tick t, m', K').
Proof.
  intros Hr Ht E. rewrite C40_epoch by assumption. unfold decay. cbn [tick t_usedecay]. rewrite Ht. cbn [andb bind]. unfold run, batches, ones in E. rewrite !foldM_map' in E.
  rewrite (foldM_ext' _ (fun s r => let '(u, n, H) := s in feeddata (D := Rdt) junk u n H (row_of x r) (row_of y r))) in E by (intros [[? ?] ?] ?; cbn [fst snd]; now rewrite !pick_one).
  rewrite (foldM_ext' _ (fun s r => let '(u, n, H) := s in feeddata (D := Rdt) junk u n H (row_of x r) (row_of y r))) by (intros [[? ?] ?] ?; reflexivity). rewrite E. reflexivity.
Qed.
(** ** BatchTrainer: batches of b consecutive rows *)
Definition slices (N b : nat) : list (list nat) := map (batch_rows N b) (seq 0 (nbatches N b)).
Lemma concat_slices b : forall q s N, 1 <= b -> (s + q) * b <= N -> concat (map (batch_rows N b) (seq s q)) = seq (s * b) (q * b).
Proof.
  induction q as [|q IH]; intros s N Hb HN; [reflexivity|]. cbn [seq map concat]. rewrite IH by (simpl in *; lia). replace (Datatypes.S q * b) with (b + q * b) by (simpl; lia). rewrite seq_app. replace (Datatypes.S s * b) with (s * b + b) by (simpl; lia). f_equal.
  assert (G : forall k d, d + k <= b -> map (fun i => (s * b + i) mod N) (seq d k) = seq (s * b + d) k).
  { induction k as [|k IHk]; intros d Hd; [reflexivity|]. cbn [seq map]. f_equal; [apply Nat.mod_small; nia|]. rewrite IHk by lia. f_equal. lia. }
  unfold batch_rows. rewrite (G b 0) by lia. now rewrite Nat.add_0_r.
Qed.
Lemma slices_split q b : 1 <= b -> split_of (q * b) b (slices (q * b) b) /\ length (slices (q * b) b) = q.
Proof.
  intros Hb. assert (E : nbatches (q * b) b = q). { unfold nbatches. replace (q * b + b - 1) with (b - 1 + q * b) by lia. rewrite Nat.div_add by lia. rewrite Nat.div_small by lia. reflexivity. }
  unfold slices. rewrite E. split; [|now rewrite map_length, seq_length]. split; [assumption|]. split.
  - apply Forall_forall. intros i Hi. apply in_map_iff in Hi as (r & <- & _). unfold batch_rows. now rewrite map_length, seq_length.
  - rewrite concat_slices by lia. reflexivity.
Qed.
Lemma run_steps junk : forall ds (t : trainer Rdt) m K t1 m' K', no_decay t -> run junk ds t m K = Ok (t1, m', K') -> foldM (fun '(n, H) d => train_step (D := Rdt) junk n H (fst d) (snd d)) ds (m, K) = Ok (m', K').
Proof.
  induction ds as [|[x y] ds IH]; intros t m K t1 m' K' Ht E; unfold run in *; cbn [foldM fst snd] in *; [now injection E as <- <- <-|].
  apply bind_ok in E as ([[t2 m2] K2] & E1 & E2). unfold feeddata, decay in E1. cbn [tick t_usedecay] in E1. rewrite Ht in E1. cbn [andb bind] in E1. apply bind_ok in E1 as ([m3 K3] & E3 & E1). injection E1 as <- <- <-. rewrite E3. cbn [bind]. eapply IH; [|exact E2]. exact Ht.
Qed.
Lemma batch_call junk (x y : rmat) b (t : btrainer Rdt) m K t1 m' K' : bt_size t = Z.of_nat b -> 2 <= b -> b <= nr x -> 1 <= nc x -> 1 <= nc y -> nr y = nr x -> no_decay (bt_t t) ->
  run junk (batches x y (slices (nr x) b)) (trainer_new (D := Rdt)) m K = Ok (t1, m', K') ->
  exists t', batch_feeddata (D := Rdt) junk t m K x y = Ok (t', m', K') /\ no_decay (bt_t t') /\ bt_size t' = bt_size t.
Proof.
  intros Hbt Hb Hb' Hcx Hcy Hr Ht E. rewrite (C38_batches (D := Rdt) junk t m K x y b) by (assumption || lia). apply run_steps in E; [|reflexivity]. unfold batches, slices in E. rewrite !foldM_map' in E.
  rewrite (foldM_ext' _ (fun s j => let '(n, H) := s in train_step (D := Rdt) junk n H (pick x (batch_rows (nr x) b j)) (pick y (batch_rows (nr x) b j)))) in E by (intros [? ?] ?; reflexivity).
  rewrite (foldM_ext' _ (fun s j => let '(n, H) := s in train_step (D := Rdt) junk n H (pick x (batch_rows (nr x) b j)) (pick y (batch_rows (nr x) b j)))) by (intros [? ?] ?; reflexivity).
  rewrite E. cbn [bind]. unfold decay, ticks. cbn [t_usedecay]. rewrite Ht. cbn [andb bind]. eexists. split; [reflexivity|]. split; reflexivity.
Qed.

(** ** C102 *)
(** One pass of Trainer::feeddata over equal batches that together use every row once: up to a multiple of the squared rate, the
    objective of the whole data falls by the rate times the number of batches times its squared gradient. *)
Theorem C102_pass : forall junk (n : rnet) (H : rheap) p c (x y : rmat) M b idxs,
  1 <= p -> well_sized n H p c -> samples p c (x, y) -> built_in n y ->
  (forall ls, hidden_layers n H = Ok ls -> Forall (fun l => In (l_act l) seven) ls) -> split_of (nr x) b idxs ->
  exists eta0 C, (0 < eta0)%R /\ (0 <= C)%R /\
    forall m K ks (t : trainer Rdt) eta, same_build n H m K -> small M m K -> hidden_layers m K = Ok ks ->
      Forall (fun l => l_lrate l = eta) ks -> l_lrate (o_l (n_output m)) = eta -> no_decay t -> (0 < eta < eta0)%R ->
      exists J g t' m' K' J', objective junk m K x y = Ok J /\ slope2 junk m K x y = Ok g /\ (0 <= g)%R /\
        run junk (batches x y idxs) t m K = Ok (t', m', K') /\ same_build n H m' K' /\ small (M + 1) m' K' /\
        objective junk m' K' x y = Ok J' /\ (J' <= J - eta * INR (length idxs) * g + eta * eta * C)%R.
Proof.
  intros junk n H p c x y M b idxs Hp Hw Hs Hb HA Hsp. pose proof (proj1 (well_fits _ _ _ _) Hw) as ((ts & Hf) & _).
  destruct (inc_pass junk n H ts p c x y M b idxs Hf Hp Hs Hb (HA _ (hidden_layers_dense _ _ _ (proj2 (proj1 Hf)))) Hsp) as (eta0 & C & E0 & HC & St). exists eta0, C. split; [assumption|]. split; [assumption|].
  intros m K ks t eta Hm Hsm Hks Hr Hro Ht He. destruct (same_built n H ts m K M (proj1 Hf) Hm Hsm) as (ks' & Q1 & Q2). pose proof (eq_trans (eq_sym Hks) Q1) as Q. injection Q as <-.
  destruct (St m K ks t eta Q2 Hr Hro Ht He) as (J & g & t' & m' & K' & ks' & J' & A1 & A2 & A3 & A4 & A5 & A6 & A7 & A8 & A9 & A10). exists J, g, t', m', K', J'.
  destruct (built_same n H ts m' K' (M + 1) ks' (proj1 Hf) A6) as (Z1 & Z2 & _). auto 10.
Qed.

(** SGDTrainer: for any wanted eps there is a rate below which repeated calls on the same data reach a network whose squared gradient
    is at most eps; until then each call lowers the objective, no call fails and the weights stay bounded. *)
Theorem C102_sgd : forall junk (n : rnet) (H : rheap) p c (x y : rmat) lam,
  1 <= p -> well_sized n H p c -> samples p c (x, y) -> built_in n y -> (n_cost n = quad_cost \/ all_in 0 1 y) ->
  (forall ls, hidden_layers n H = Ok ls -> Forall (fun l => In (l_act l) seven /\ (lam <= l_lambda l)%R) ls) ->
  (0 < lam <= l_lambda (o_l (n_output n)))%R ->
  forall eps, (0 < eps)%R -> exists eta0, (0 < eta0)%R /\
    forall (t : trainer Rdt) eta, no_decay t -> (0 < eta < eta0)%R ->
      exists n0 H0 k (J g : nat -> R), net_setlrate (D := Rdt) n H eta = Ok (n0, H0) /\ objective junk n H x y = Ok (J 0) /\
        (forall j, j <= k -> exists t' n' H', sgd_train junk t n0 H0 x y j = Ok (t', n', H') /\ objective junk n' H' x y = Ok (J j) /\
           slope2 junk n' H' x y = Ok (g j) /\ small (sqrt (2 * J 0%nat / lam)) n' H') /\
        (forall j, j < k -> (J (S j) <= J j - eta * INR (nr x) / 2 * g j)%R /\ (eps < g j)%R) /\
        (g k <= eps)%R /\ (INR k * (eta * INR (nr x) / 2 * eps) <= J 0%nat)%R.
Proof.
  intros junk n H p c x y lam Hp Hw Hs Hb Hy HL Hlam eps Heps. pose proof (proj1 (well_fits _ _ _ _) Hw) as ((ts & Hf) & _).
  pose proof (HL _ (hidden_layers_dense _ _ _ (proj2 (proj1 Hf)))) as HT.
  assert (HA : Forall (fun l : rlayer => In (l_act l) seven) ts) by (eapply Forall_impl; [|exact HT]; cbn; tauto).
  assert (Hls : Forall (fun l : rlayer => (lam <= l_lambda l)%R) ts) by (eapply Forall_impl; [|exact HT]; cbn; tauto).
  pose proof (reach_pass junk n H ts p c x y lam 1 (ones (nr x)) (fun '(t, n, H) => sgd_feeddata (D := Rdt) junk t n H x y) (fun t => no_decay t) Hf Hp Hs Hb Hy HA Hls Hlam (ones_split _)) as R1.
  assert (EL : length (ones (nr x)) = nr x) by (unfold ones; now rewrite map_length, seq_length). rewrite EL in R1. refine (R1 _ eps Heps).
  intros t m K t1 m' K' Ht E. exists (tick t). split; [exact Ht|]. eapply sgd_call; eauto. destruct Hs as (_ & _ & S3 & _). cbn in S3. lia.
Qed.

(** BatchTrainer with a batch size that divides the number of rows. *)
Theorem C102_batch : forall junk (n : rnet) (H : rheap) p c (x y : rmat) lam b q,
  1 <= p -> well_sized n H p c -> samples p c (x, y) -> built_in n y -> (n_cost n = quad_cost \/ all_in 0 1 y) ->
  (forall ls, hidden_layers n H = Ok ls -> Forall (fun l => In (l_act l) seven /\ (lam <= l_lambda l)%R) ls) ->
  (0 < lam <= l_lambda (o_l (n_output n)))%R -> 2 <= b -> nr x = q * b -> 1 <= c ->
  forall eps, (0 < eps)%R -> exists eta0, (0 < eta0)%R /\
    forall (t : btrainer Rdt) eta, bt_size t = Z.of_nat b -> no_decay (bt_t t) -> (0 < eta < eta0)%R ->
      exists n0 H0 k (J g : nat -> R), net_setlrate (D := Rdt) n H eta = Ok (n0, H0) /\ objective junk n H x y = Ok (J 0) /\
        (forall j, j <= k -> exists t' n' H', batch_train junk t n0 H0 x y j = Ok (t', n', H') /\ objective junk n' H' x y = Ok (J j) /\
           slope2 junk n' H' x y = Ok (g j) /\ small (sqrt (2 * J 0%nat / lam)) n' H') /\
        (forall j, j < k -> (J (S j) <= J j - eta * INR q / 2 * g j)%R /\ (eps < g j)%R) /\
        (g k <= eps)%R /\ (INR k * (eta * INR q / 2 * eps) <= J 0%nat)%R.
Proof.
  intros junk n H p c x y lam b q Hp Hw Hs Hb Hy HL Hlam Hb2 Hq Hc eps Heps. pose proof (proj1 (well_fits _ _ _ _) Hw) as ((ts & Hf) & _).
  pose proof (HL _ (hidden_layers_dense _ _ _ (proj2 (proj1 Hf)))) as HT.
  assert (HA : Forall (fun l : rlayer => In (l_act l) seven) ts) by (eapply Forall_impl; [|exact HT]; cbn; tauto).
  assert (Hls : Forall (fun l : rlayer => (lam <= l_lambda l)%R) ts) by (eapply Forall_impl; [|exact HT]; cbn; tauto).
  destruct (slices_split q b ltac:(lia)) as [Sp Sl]. rewrite <- Hq in Sp, Sl.
  destruct (reach_pass junk n H ts p c x y lam b (slices (nr x) b) (fun '(t, n, H) => batch_feeddata (D := Rdt) junk t n H x y) (fun t => no_decay (bt_t t) /\ bt_size t = Z.of_nat b) Hf Hp Hs Hb Hy HA Hls Hlam Sp) with (eps := eps) as (eta0 & E0 & R1); [|assumption|].
  - intros t m K t1 m' K' [Ht Hbt] E. destruct Hs as (S1 & S2 & S3 & S4). cbn in S1, S2, S3, S4. assert (b <= nr x) by (destruct q; simpl in Hq; lia).
    destruct (batch_call junk x y b t m K t1 m' K' Hbt Hb2 ltac:(lia) ltac:(lia) ltac:(lia) S3 Ht E) as (t' & Z1 & Z2 & Z3). exists t'. split; [split; [assumption|congruence]|exact Z1].
  - exists eta0. split; [assumption|]. intros t eta Hbt Ht He. rewrite Sl in R1. exact (R1 t eta (conj Ht Hbt) He).
Qed.

(** The hypotheses are those of C100_converges ([C100_example]); here with two rows, a mini-batch of both, and eps = 1/100. *)
Definition sdx : rmat := rm 2 1 [1; 2]%R.
Definition sdy : rmat := rm 2 1 [0; 1]%R.
Lemma C102_example : samples 1 1 (sdx, sdy) /\ built_in cvn sdy /\ all_in 0 1 sdy /\ split_of (nr sdx) 2 [[1; 0]] /\
  exists eta0, (0 < eta0)%R /\ forall eta, (0 < eta < eta0)%R -> exists n0 H0 k s g, net_setlrate (D := Rdt) cvn cvH eta = Ok (n0, H0) /\
    sgd_train (fun _ => 0%R) (trainer_new (D := Rdt)) n0 H0 sdx sdy k = Ok s /\ slope2 (fun _ => 0%R) (snd (fst s)) (snd s) sdx sdy = Ok g /\ (g <= / 100)%R.
Proof.
  destruct C100_example as (E1 & _ & _ & _ & E5 & E6 & _).
  assert (F1 : samples 1 1 (sdx, sdy)) by (repeat split; cbn; lia). assert (F2 : built_in cvn sdy) by (right; left; repeat split).
  assert (F3 : all_in 0 1 sdy). { intros i j Hi Hj. cbn in Hi, Hj. replace j with 0 by lia. destruct i as [|[|i]]; [| |lia]; cbn; lra. }
  split; [assumption|]. split; [assumption|]. split; [assumption|]. split. { split; [lia|]. split; [repeat constructor|]. cbn. apply perm_swap. }
  destruct (C102_sgd (fun _ => 0%R) cvn cvH 1 1 sdx sdy (/ 2)%R (le_n 1) E1 F1 F2 (or_intror F3) E5 E6 (/ 100)%R ltac:(lra)) as (eta0 & P0 & P). exists eta0. split; [assumption|]. intros eta He.
  destruct (P (trainer_new (D := Rdt)) eta eq_refl He) as (n0 & H0 & k & J & g & A1 & _ & A3 & _ & A5 & _). destruct (A3 k (le_n k)) as (t' & n' & H' & B1 & _ & B3 & _).
  exists n0, H0, k, (t', n', H'), (g k). split; [assumption|]. split; [assumption|]. split; assumption.
Qed.

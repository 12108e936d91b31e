(** P_Separable.v - C87: data that one layer can separate are learned completely. *)
From Coq Require Import Reals Lra Psatz.
From Coquelicot Require Import Coquelicot.
From Verif Require Import Base Mat Act Layer Conv Misc Net NetP RInst RMat P_Act Grad P_Grad Trainer TrainP TrainP2 P_Train FunEq P_Mom P_Descent LinReg P_Linear P_Pred Convex P_Convex.
From Coq Require Import Arith List Lia.
Import ListNotations.
Local Open Scope nat_scope.

(** ** Specification *)
(** Row r of the labels is 1 at class lab r and 0 elsewhere. *)
Definition one_hot (lab : nat -> nat) (y : rmat) : Prop := forall r, r < nr y -> lab r < nc y /\ forall j, j < nc y -> at_ y r j = if j =? lab r then 1%R else 0%R.
(** The scores a single out class lab r in every row. *)
Definition separates (lab : nat -> nat) (a : rmat) : Prop := forall r j, r < nr a -> j < nc a -> j <> lab r -> (at_ a r j < at_ a r (lab r))%R.
(** Labels 0 and 1, any number of them per row. *)
Definition binary (y : rmat) : Prop := forall r j, r < nr y -> j < nc y -> at_ y r j = 0%R \/ at_ y r j = 1%R.
(** The outputs a are on the side of 1/2 that the labels y ask for. *)
Definition right_side (y a : rmat) : Prop := forall r j, r < nr y -> j < nc y -> (at_ y r j = 1 -> 1 / 2 < at_ a r j)%R /\ (at_ y r j = 0 -> at_ a r j < 1 / 2)%R.

(** ** Proof *)
Lemma ex_bound N (Q : nat -> R -> Prop) : (forall i d d', (0 < d' <= d)%R -> Q i d -> Q i d') -> (forall i, i < N -> exists d, (0 < d)%R /\ Q i d) -> exists d, (0 < d)%R /\ forall i, i < N -> Q i d.
Proof.
  intros M. induction N as [|N IH]; intros A; [exists 1%R; split; [lra|lia]|]. destruct IH as (d & Pd & Hd); [intros; apply A; lia|]. destruct (A N ltac:(lia)) as (e & Pe & He).
  assert (P : (0 < Rmin d e)%R) by (apply Rmin_glb_lt; assumption). exists (Rmin d e). split; [exact P|]. intros i Hi. destruct (Nat.eq_dec i N) as [-> |].
  - apply (M N e); [split; [exact P|apply Rmin_r]|exact He].
  - apply (M i d); [split; [exact P|apply Rmin_l]|apply Hd; lia].
Qed.
Lemma exp_small v : (0 < v)%R -> (exp (- v) <= / v)%R.
Proof. intros P. rewrite exp_Ropp. apply Rinv_le_contravar; [exact P|]. pose proof (exp_ineq1_le v). lra. Qed.
Definition scaled (s : R) (V : nat -> nat -> R) i j := (s * V i j)%R.
Lemma Z_scaled m X s V r j : ZZ m X (scaled s V) r j = (s * ZZ m X V r j)%R.
Proof. unfold ZZ, scaled. rewrite <- sumN_scal. apply sumN_ext. intros. ring. Qed.
(** If some direction makes every sample's loss vanish exponentially, the objective can be made as small as one likes. *)
Lemma small_objective k (x y : rmat) V d : 1 <= nr x -> (0 < d)%R ->
  (forall s r, (0 < s)%R -> r < nr x -> (kphi k y r (ZZ (nc x + 1) (Xb x) (scaled s V) r) <= INR (nc y) * exp (- (s * d)))%R) ->
  forall eps, (0 < eps)%R -> exists s, (kF k x y 0 (scaled s V) <= eps)%R.
Proof.
  intros Hx Hd A eps He. assert (PM : (0 < INR (nr x))%R) by (now apply lt_0_INR).
  set (s := ((INR (nc y) + 1) / (d * eps))%R). pose proof (pos_INR (nc y)) as Pc. assert (Ps : (0 < s)%R) by (apply Rdiv_lt_0_compat; [lra|now apply Rmult_lt_0_compat]). exists s.
  assert (Psd : (0 < s * d)%R) by (now apply Rmult_lt_0_compat).
  assert (B : (INR (nc y) * exp (- (s * d)) <= eps)%R).
  { apply Rle_trans with (INR (nc y) * / (s * d))%R; [apply Rmult_le_compat_l; [exact Pc|now apply exp_small]|]. unfold s. replace (INR (nc y) * / ((INR (nc y) + 1) / (d * eps) * d))%R with (eps * (INR (nc y) / (INR (nc y) + 1)))%R by (field; lra).
    rewrite <- (Rmult_1_r eps) at 2. apply Rmult_le_compat_l; [lra|]. apply (Rmult_le_reg_r (INR (nc y) + 1)); [lra|]. unfold Rdiv. rewrite Rmult_assoc, Rinv_l by lra. lra. }
  unfold kF, FF. replace (0 / 2 * ip _ _ _ _)%R with 0%R by (unfold Rdiv; ring). rewrite Rplus_0_r. apply (Rmult_le_reg_r (INR (nr x))); [exact PM|]. unfold Rdiv. rewrite Rmult_assoc, Rinv_l, Rmult_1_r by lra.
  rewrite (Rmult_comm eps), <- sumN_const. apply sumN_le. intros r Hr. eapply Rle_trans; [now apply A|exact B].
Qed.
(** Each sample's share of a small objective is small. *)
Lemma share k (x y : rmat) W e : 1 <= nr x -> (forall r z, r < nr x -> (0 <= kphi k y r z)%R) -> (kF k x y 0 W <= e)%R -> forall r, r < nr x -> (kphi k y r (ZZ (nc x + 1) (Xb x) W r) <= e * INR (nr x))%R.
Proof.
  intros Hx P A r Hr. assert (PM : (0 < INR (nr x))%R) by (now apply lt_0_INR). unfold kF, FF in A. replace (0 / 2 * ip _ _ _ _)%R with 0%R in A by (unfold Rdiv; ring). rewrite Rplus_0_r in A.
  apply (Rmult_le_compat_r (INR (nr x))) in A; [|lra]. unfold Rdiv in A. rewrite Rmult_assoc, Rinv_l, Rmult_1_r in A by lra. eapply Rle_trans; [|exact A].
  replace (kphi k y r (ZZ (nc x + 1) (Xb x) W r)) with (sumN (nr x) (fun q => if q =? r then kphi k y q (ZZ (nc x + 1) (Xb x) W q) else 0%R)).
  - apply sumN_le. intros q Hq. destruct (q =? r); [lra|now apply P].
  - rewrite (sumN_single _ _ r Hr); [now rewrite Nat.eqb_refl|]. intros q _ Hq. destruct (Nat.eqb_spec q r); [contradiction|reflexivity].
Qed.
(** *** Softmax *)
Lemma one_hot_sum lab y r f : one_hot lab y -> r < nr y -> sumN (nc y) (fun j => at_ y r j * f j)%R = f (lab r).
Proof.
  intros O Hr. destruct (O r Hr) as [A B]. rewrite (sumN_single _ _ (lab r) A); [rewrite B, Nat.eqb_refl by assumption; lra|]. intros j Hj Hn. rewrite B by assumption. destruct (Nat.eqb_spec j (lab r)); [contradiction|lra].
Qed.
Lemma one_hot_fit lab y : one_hot lab y -> labels_fit OSoftmax y.
Proof. intros O r Hr. rewrite (sumN_ext _ _ (fun j => at_ y r j * 1)%R) by (intros; symmetry; apply Rmult_1_r). now apply (one_hot_sum lab y r (fun _ => 1%R)). Qed.
Lemma sm_phi lab y r z : one_hot lab y -> r < nr y -> 1 <= nc y -> kphi OSoftmax y r z = ln (sumN (nc y) (fun j => exp (z j - z (lab r)))).
Proof.
  intros O Hr Hc. cbn [kphi]. rewrite (smx_loss (nc y) (fun j => at_ y r j)) by (exact Hc || now apply (one_hot_fit lab y O)). rewrite (one_hot_sum lab y r z O Hr).
  assert (E : sumN (nc y) (fun j => exp (z j - z (lab r))) = (sumN (nc y) (fun j => exp (z j)) * exp (- z (lab r)))%R) by (rewrite <- sumN_scal_r; apply sumN_ext; intros; unfold Rminus; apply exp_plus).
  rewrite E, ln_mult by (apply exp_pos || now apply sumexp_pos). rewrite ln_exp. lra.
Qed.
Lemma ln_le_sub v : (0 < v)%R -> (ln v <= v - 1)%R.
Proof. intros P. pose proof (exp_ineq1_le (ln v)) as A. rewrite exp_ln in A by exact P. lra. Qed.
Lemma sum_at c g l : l < c -> sumN c (fun j => if j =? l then g j else 0%R) = g l.
Proof.
  intros A. rewrite (sumN_single c _ l A); [now rewrite Nat.eqb_refl|]. intros j _ Hj. destruct (Nat.eqb_spec j l); [contradiction|reflexivity].
Qed.
Lemma sum_split c (g : nat -> R) l : l < c -> sumN c g = (g l + sumN c (fun j => if j =? l then 0 else g j))%R.
Proof.
  intros A. rewrite <- (sum_at c g l A), <- sumN_plus. apply sumN_ext. intros j _. destruct (j =? l); lra.
Qed.
Lemma term_ge c f j : j < c -> (forall i, i < c -> (0 <= f i)%R) -> (f j <= sumN c f)%R.
Proof.
  intros Hj P. rewrite <- (sum_at c f j Hj). apply sumN_le. intros i Hi. destruct (i =? j); [lra|now apply P].
Qed.
(** Loss of one sample as a function of the margins. *)
Lemma sm_phi1 lab y r z : one_hot lab y -> r < nr y -> 1 <= nc y -> kphi OSoftmax y r z = ln (1 + sumN (nc y) (fun j => if j =? lab r then 0 else exp (z j - z (lab r))))%R.
Proof.
  intros O Hr Hc. rewrite (sm_phi lab y r z O Hr Hc), (sum_split (nc y) _ (lab r)) by apply (O r Hr). do 2 f_equal. rewrite Rminus_diag_eq by reflexivity. apply exp_0.
Qed.
Lemma off_pos (lab : nat -> nat) c (r : nat) (z : nat -> R) : (0 <= sumN c (fun j => if j =? lab r then 0 else exp (z j - z (lab r))))%R.
Proof. apply sumN_nonneg. intros j _. destruct (j =? lab r); [lra|]. left. apply exp_pos. Qed.
Lemma sm_nonneg lab y r z : one_hot lab y -> r < nr y -> 1 <= nc y -> (0 <= kphi OSoftmax y r z)%R.
Proof. intros O Hr Hc. rewrite (sm_phi1 lab y r z O Hr Hc). pose proof (off_pos lab (nc y) r z). apply Rle_trans with (ln 1); [rewrite ln_1; lra|]. apply ln_le; lra. Qed.
Lemma sm_small lab y r z e : one_hot lab y -> r < nr y -> 1 <= nc y -> (forall j, j < nc y -> j <> lab r -> (z j - z (lab r) <= - e)%R) -> (kphi OSoftmax y r z <= INR (nc y) * exp (- e))%R.
Proof.
  intros O Hr Hc A. rewrite (sm_phi1 lab y r z O Hr Hc). pose proof (off_pos lab (nc y) r z) as P. eapply Rle_trans; [apply ln_le_sub; lra|].
  rewrite <- sumN_const. unfold Rminus at 1. rewrite (Rplus_comm 1), Rplus_assoc, Rplus_opp_r, Rplus_0_r. apply sumN_le. intros j Hj. destruct (Nat.eqb_spec j (lab r)).
  - left. apply exp_pos.
  - destruct (A j Hj n) as [B|B]; [left; now apply exp_increasing|right; now rewrite B].
Qed.
Lemma sm_right lab y r z : one_hot lab y -> r < nr y -> 1 <= nc y -> (kphi OSoftmax y r z < ln 2)%R -> forall j, j < nc y -> j <> lab r -> (z j < z (lab r))%R.
Proof.
  intros O Hr Hc A j Hj Hn. rewrite (sm_phi1 lab y r z O Hr Hc) in A. pose proof (off_pos lab (nc y) r z) as P. apply ln_lt_inv in A; [|lra|lra].
  assert (B : (exp (z j - z (lab r)) < exp 0)%R).
  { rewrite exp_0. pose proof (term_ge (nc y) (fun j => if j =? lab r then 0 else exp (z j - z (lab r)))%R j Hj) as T. cbn beta in T. destruct (Nat.eqb_spec j (lab r)); [contradiction|].
    eapply Rle_lt_trans; [apply T; intros i _; destruct (i =? lab r); [lra|left; apply exp_pos]|]. lra. }
  apply exp_lt_inv in B. lra.
Qed.
(** *** Logistic *)
Definition side (y : rmat) r j (z : R) : R := if Req_EM_T (at_ y r j) 1 then z else (- z)%R.
Lemma lg_phi y r z : binary y -> r < nr y -> kphi OLogistic y r z = sumN (nc y) (fun j => ln (1 + exp (- side y r j (z j))))%R.
Proof.
  intros B Hr. cbn [kphi]. apply sumN_ext. intros j Hj. unfold side. destruct (Req_EM_T (at_ y r j) 1) as [-> |E].
  - replace (- (1 * ln (sig (z j)) + (1 - 1) * ln (1 - sig (z j))))%R with (- ln (sig (z j)))%R by ring. rewrite ln_sig.
    replace (1 + exp (z j))%R with (exp (z j) * (1 + exp (- z j)))%R by (rewrite Rmult_plus_distr_l, <- exp_plus, Rplus_opp_r, exp_0; ring).
    pose proof (exp_pos (- z j)). rewrite ln_mult by (apply exp_pos || lra). rewrite ln_exp. ring.
  - destruct (B r j Hr Hj) as [-> | ]; [|contradiction]. replace (- (0 * ln (sig (z j)) + (1 - 0) * ln (1 - sig (z j))))%R with (- ln (1 - sig (z j)))%R by ring. rewrite ln_one_sig, Ropp_involutive. reflexivity.
Qed.
Lemma sp_pos v : (0 <= ln (1 + exp v))%R.
Proof. rewrite <- ln_1. pose proof (exp_pos v). apply ln_le; lra. Qed.
Lemma lg_nonneg y r z : binary y -> r < nr y -> (0 <= kphi OLogistic y r z)%R.
Proof. intros B Hr. rewrite lg_phi by assumption. apply sumN_nonneg. intros. apply sp_pos. Qed.
Lemma lg_small y r z e : binary y -> r < nr y -> (forall j, j < nc y -> (e <= side y r j (z j))%R) -> (kphi OLogistic y r z <= INR (nc y) * exp (- e))%R.
Proof.
  intros B Hr A. rewrite lg_phi by assumption. rewrite <- sumN_const. apply sumN_le. intros j Hj. pose proof (exp_pos (- side y r j (z j))). eapply Rle_trans; [apply ln_le_sub; lra|].
  replace (1 + exp (- side y r j (z j)) - 1)%R with (exp (- side y r j (z j))) by ring. specialize (A j Hj). destruct A as [A|A]; [left; apply exp_increasing; lra|right; now rewrite A].
Qed.
Lemma lg_right y r z : binary y -> r < nr y -> (kphi OLogistic y r z < ln 2)%R -> forall j, j < nc y -> (0 < side y r j (z j))%R.
Proof.
  intros B Hr A j Hj. rewrite lg_phi in A by assumption. pose proof (term_ge (nc y) (fun j => ln (1 + exp (- side y r j (z j))))%R j Hj (fun i _ => sp_pos _)) as T. cbn beta in T.
  pose proof (exp_pos (- side y r j (z j))). assert (C : (ln (1 + exp (- side y r j (z j))) < ln 2)%R) by lra. apply ln_lt_inv in C; [|lra|lra]. assert (D : (exp (- side y r j (z j)) < exp 0)%R) by (rewrite exp_0; lra). apply exp_lt_inv in D. lra.
Qed.
(** *** Training *)
Definition with_weights (k : okind) (W : rmat) : rnet :=
  N (D := Rdt) mempty (kcost k) (kcostd k) (L (D := Rdt) 0%R 0%R identity mempty mempty mempty mempty mempty mempty) [] (O (D := Rdt) (L (D := Rdt) 0%R 0%R (kact k) mempty mempty mempty mempty W mempty) (kcost k) (kcostd k) mempty).
Lemma reach junk k (t : trainer Rdt) (n : rnet) (H : rheap) (x y : rmat) p c eta V d :
  single_net k n p c eta 0 -> no_decay t -> 1 <= p -> 1 <= c -> samples p c (x, y) -> labels_fit k y -> (0 < eta)%R -> (eta * total_curvature k x 0 <= 1)%R ->
  (0 < d)%R -> (forall s r, (0 < s)%R -> r < nr x -> (kphi k y r (ZZ (nc x + 1) (Xb x) (scaled s V) r) <= INR (nc y) * exp (- (s * d)))%R) ->
  forall eps, (0 < eps)%R -> exists K0, forall K, K0 <= K -> exists t' n', train junk t n H x y K = Ok (t', n', H) /\ single_net k n' p c eta 0 /\ (kF k x y 0 (at_ (weights n')) <= eps)%R.
Proof.
  intros Hn Ht Hp Hc Hs HL He Hr Hd A eps Hep. pose proof Hs as (S1 & S2 & S3 & S4). cbn [fst snd] in *.
  destruct (small_objective k x y V d S1 Hd A (eps / 2)) as (s & Bs); [lra|].
  set (m := with_weights k (mk (D := Rdt) (p + 1) c (fun i j => scaled s V i j))).
  assert (Hm : single_net k m p c 0 0) by (repeat split).
  pose proof (k_objective junk k m [] x y p c 0%R 0%R Hm Hp Hs) as Om.
  destruct (C86_limit junk k t n H x y p c eta 0%R Hn Ht Hp Hc Hs HL He (Rle_refl 0) Hr junk m [] 0%R _ (eps / 2)%R Hm Om) as (K0 & HK0); [lra|].
  exists K0. intros K HK. destruct (k_train junk k t n H x y p c eta 0%R Hn Ht Hp Hs K) as (t' & n' & E & _ & L & _). exists t', n'. split; [exact E|]. split; [exact L|].
  pose proof (HK0 K t' n' H _ HK E (k_objective junk k n' H x y p c eta 0%R L Hp Hs)) as B. eapply Rle_trans; [exact B|].
  assert (Q : kF k x y 0 (at_ (weights m)) = kF k x y 0 (scaled s V)).
  { unfold kF. apply (F_ext (nr x) (nc x + 1) (nc y) (Xb x) (kphi k y) (kgr k y) (curvature k) 0%R); [intros; now apply (k_sm k x y p c Hp Hc Hs HL)|]. intros i j Hi Hj. unfold m, weights, with_weights. cbn [n_output o_l l_W]. now rewrite (at_mk (D := Rdt)) by lia. }
  rewrite Q. lra.
Qed.
(** *** Outputs *)
Lemma k_out junk k (n : rnet) (H : rheap) (x : rmat) p c eta lam a n1 H1 : single_net k n p c eta lam -> 1 <= nr x -> 1 <= p -> nc x = p ->
  net_forward (D := Rdt) junk n H x = Ok (a, n1, H1) -> nr a = nr x /\ nc a = c /\ forall r j, r < nr x -> j < c -> at_ a r j = act (kact k) (ZZ (nc x + 1) (Xb x) (at_ (weights n)) r j).
Proof.
  intros Hn Hx Hp Hpc E. rewrite (k_forward junk k n H x p c eta lam Hn Hx Hp Hpc) in E. injection E as <- _ _. pose proof Hn as (_ & _ & _ & E1 & E2 & E3 & _). unfold fwd_out. rewrite E1, E3. split; [reflexivity|]. split; [reflexivity|].
  intros r j Hr Hj. rewrite (at_mk (D := Rdt)) by lia. now rewrite pre_Z by lia.
Qed.
Lemma k_sized k (n : rnet) (H : rheap) p c eta lam : single_net k n p c eta lam -> 1 <= p -> well_sized (D := Rdt) n H p c.
Proof.
  intros (E & E1 & E2 & E3 & E4 & E5 & _) Hp. split.
  - split; rewrite E; [constructor|intros q []].
  - split.
    + exists []. unfold hidden_layers. rewrite E. split; [reflexivity|]. exists p. split; [reflexivity|]. repeat split; assumption.
    + rewrite E1, E2. destruct k; cbn; auto 10.
Qed.
Lemma ln2_pos : (0 < ln 2)%R. Proof. rewrite <- ln_1. apply ln_increasing; lra. Qed.
Lemma margin_s (lab : nat -> nat) (Z : nat -> nat -> R) M c : (forall r j, r < M -> j < c -> j <> lab r -> (Z r j < Z r (lab r))%R) ->
  exists d, (0 < d)%R /\ forall r, r < M -> forall j, j < c -> j <> lab r -> (Z r j - Z r (lab r) <= - d)%R.
Proof.
  intros A. apply (ex_bound M (fun r d => forall j, j < c -> j <> lab r -> (Z r j - Z r (lab r) <= - d)%R)).
  - intros r d d' Hd B j Hj Hn. specialize (B j Hj Hn). lra.
  - intros r Hr. apply (ex_bound c (fun j d => j <> lab r -> (Z r j - Z r (lab r) <= - d)%R)).
    + intros j d d' Hd B Hn. specialize (B Hn). lra.
    + intros j Hj. destruct (Nat.eq_dec j (lab r)) as [E|N]; [exists 1%R; split; [lra|intros; contradiction]|]. specialize (A r j Hr Hj N). exists (Z r (lab r) - Z r j)%R. split; [lra|]. intros; lra.
Qed.
(** ** C87 *)
Theorem C87_softmax : forall junk (t : trainer Rdt) (n : rnet) (H : rheap) (x y : rmat) p c eta lab,
  single_net OSoftmax n p c eta 0 -> no_decay t -> 1 <= p -> 1 <= c -> samples p c (x, y) -> one_hot lab y -> (0 < eta)%R -> (eta * total_curvature OSoftmax x 0 <= 1)%R ->
  forall junk' m I eta' lam' a m' I', single_net OSoftmax m p c eta' lam' -> net_forward (D := Rdt) junk' m I x = Ok (a, m', I') -> separates lab a ->
  forall eps, (0 < eps)%R -> exists K0, forall K, K0 <= K -> exists t' n' J pr n'' H'', train junk t n H x y K = Ok (t', n', H) /\
    objective junk n' H x y = Ok J /\ (J <= eps)%R /\
    net_predict (D := Rdt) junk n' H x = Ok (pr, n'', H'') /\ nr pr = nr x /\ forall r, r < nr x -> at_ pr r 0 = INR (lab r).
Proof.
  intros junk t n H x y p c eta lab Hn Ht Hp Hc Hs HO He Hr junk' m I eta' lam' a m' I' Hm Ea HS eps Hep. pose proof Hs as (S1 & S2 & S3 & S4). cbn [fst snd] in *.
  destruct (k_out junk' OSoftmax m I x p c eta' lam' a m' I' Hm S1 Hp S2 Ea) as (A1 & A2 & A3). set (V := at_ (weights m)) in *.
  assert (MV : forall r j, r < nr x -> j < c -> j <> lab r -> (ZZ (nc x + 1) (Xb x) V r j < ZZ (nc x + 1) (Xb x) V r (lab r))%R).
  { intros r j Hr' Hj Hne. assert (Hl : lab r < c) by (rewrite <- S4; apply (HO r); lia). pose proof (HS r j ltac:(lia) ltac:(lia) Hne) as Q. rewrite !A3 in Q by assumption. exact Q. }
  destruct (margin_s lab (ZZ (nc x + 1) (Xb x) V) (nr x) c MV) as (d & Hd & D).
  assert (Pe : (0 < Rmin eps (ln 2 / (2 * INR (nr x))))%R).
  { apply Rmin_glb_lt; [exact Hep|]. apply Rdiv_lt_0_compat; [exact ln2_pos|]. apply Rmult_lt_0_compat; [lra|now apply lt_0_INR]. }
  destruct (reach junk OSoftmax t n H x y p c eta V d Hn Ht Hp Hc Hs (one_hot_fit lab y HO) He Hr Hd) with (eps := Rmin eps (ln 2 / (2 * INR (nr x)))%R) as (K0 & HK); [|exact Pe|].
  { intros s r Ps Hr'. apply (sm_small lab); [exact HO|lia|lia|]. intros j Hj Hne. rewrite !Z_scaled, <- Rmult_minus_distr_l, Ropp_mult_distr_r. apply Rmult_le_compat_l; [lra|]. apply D; [exact Hr'|lia|exact Hne]. }
  exists K0. intros K HKK. destruct (HK K HKK) as (t' & n' & E & L & B). destruct (C34_total (D := Rdt) junk n' H p c x (k_sized OSoftmax n' H p c eta 0%R L Hp) Hp Hc S1 S2) as (pr & n'' & H'' & P1 & P2 & P3).
  exists t', n'. eexists. exists pr, n'', H''. split; [exact E|]. split; [exact (k_objective junk OSoftmax n' H x y p c eta 0%R L Hp Hs)|]. split; [eapply Rle_trans; [exact B|apply Rmin_l]|]. split; [exact P1|]. split; [exact P2|].
  intros r Hr'. destruct (C34_predict (D := Rdt) junk n' H x pr n'' H'' P1) as (b & n1 & H1 & Q1 & _ & Q2 & _ & _ & _ & _ & Q3).
  destruct (k_out junk OSoftmax n' H x p c eta 0%R b n1 H1 L S1 Hp S2 Q1) as (B1 & B2 & B3).
  destruct (Q3 r ltac:(lia) (ordered_R b r)) as (k & (F1 & F2 & F3) & Q4 & _).
  rewrite Q4. cbn [dofZ Rdt]. rewrite <- INR_IZR_INZ. destruct (Nat.eq_dec k (lab r)) as [-> |Hne]; [reflexivity|exfalso].
  assert (Hl : lab r < c) by (rewrite <- S4; apply (HO r); lia).
  assert (SH : (kphi OSoftmax y r (ZZ (nc x + 1) (Xb x) (at_ (weights n')) r) < ln 2)%R).
  { eapply Rle_lt_trans; [apply (share OSoftmax x y (at_ (weights n')) (ln 2 / (2 * INR (nr x))) S1)|]; [intros q z Hq; apply (sm_nonneg lab); [exact HO|lia|lia]|eapply Rle_trans; [exact B|apply Rmin_r]|exact Hr'|].
    assert (0 < INR (nr x))%R by (now apply lt_0_INR). replace (ln 2 / (2 * INR (nr x)) * INR (nr x))%R with (ln 2 / 2)%R by (field; lra). pose proof ln2_pos. lra. }
  pose proof (sm_right lab y r _ HO ltac:(lia) ltac:(lia) SH k ltac:(lia) Hne) as W. specialize (F2 (lab r) ltac:(lia)). cbn in F2. unfold Rltb' in F2. rewrite !B3 in F2 by lia. cbn [kact act identity] in F2. destruct (Rlt_dec _ _) in F2; [discriminate|]. contradiction.
Qed.

Lemma sig_half z : (1 / 2 < sig z <-> 0 < z)%R.
Proof.
  assert (Sh : sig 0 = (1 / 2)%R) by (unfold sig; rewrite Ropp_0, exp_0; field).
  assert (Mo : forall u v, (u < v)%R -> (sig u < sig v)%R).
  { intros u v Huv. unfold sig. pose proof (exp_pos (- u)). pose proof (exp_pos (- v)). assert (exp (- v) < exp (- u))%R by (apply exp_increasing; lra). unfold Rdiv. rewrite !Rmult_1_l. apply Rinv_lt_contravar; [apply Rmult_lt_0_compat; lra|lra]. }
  split; intros A.
  - destruct (Rtotal_order z 0) as [B|[B|B]]; [apply Mo in B; lra|subst; lra|exact B].
  - apply Mo in A. lra.
Qed.
Lemma sig_opp z : sig (- z) = (1 - sig z)%R.
Proof.
  unfold sig. rewrite Ropp_involutive. pose proof (exp_pos z). pose proof (exp_pos (- z)). assert (E : (exp z * exp (- z) = 1)%R) by (rewrite <- exp_plus, Rplus_opp_r; apply exp_0).
  apply (Rmult_eq_reg_r ((1 + exp z) * (1 + exp (- z)))); [|apply Rgt_not_eq; apply Rmult_lt_0_compat; lra]. replace (1 / (1 + exp z) * ((1 + exp z) * (1 + exp (- z))))%R with (1 + exp (- z))%R by (field; lra).
  replace ((1 - 1 / (1 + exp (- z))) * ((1 + exp z) * (1 + exp (- z))))%R with (exp (- z) + exp z * exp (- z))%R by (field; lra). rewrite E. ring.
Qed.
Lemma side_half y r j z : binary y -> r < nr y -> j < nc y -> (((at_ y r j = 1 -> 1 / 2 < sig z) /\ (at_ y r j = 0 -> sig z < 1 / 2)) <-> 0 < side y r j z)%R.
Proof.
  intros B Hr Hj. unfold side. destruct (Req_EM_T (at_ y r j) 1) as [-> |E].
  - rewrite <- sig_half. split; [intros [A _]; now apply A|intros A; split; [intros _; exact A|intros; exfalso; lra]].
  - destruct (B r j Hr Hj) as [E0| ]; [|contradiction]. rewrite <- sig_half, sig_opp. rewrite E0. split; [intros [_ A]; specialize (A eq_refl); lra|intros A; split; [intros; exfalso; lra|intros _; lra]].
Qed.
Theorem C87_logistic : forall junk (t : trainer Rdt) (n : rnet) (H : rheap) (x y : rmat) p c eta,
  single_net OLogistic n p c eta 0 -> no_decay t -> 1 <= p -> 1 <= c -> samples p c (x, y) -> binary y -> (0 < eta)%R -> (eta * total_curvature OLogistic x 0 <= 1)%R ->
  forall junk' m I eta' lam' a m' I', single_net OLogistic m p c eta' lam' -> net_forward (D := Rdt) junk' m I x = Ok (a, m', I') -> right_side y a ->
  forall eps, (0 < eps)%R -> exists K0, forall K, K0 <= K -> exists t' n' J b n'' H'', train junk t n H x y K = Ok (t', n', H) /\
    objective junk n' H x y = Ok J /\ (J <= eps)%R /\
    net_forward (D := Rdt) junk n' H x = Ok (b, n'', H'') /\ nr b = nr x /\ nc b = c /\ right_side y b.
Proof.
  intros junk t n H x y p c eta Hn Ht Hp Hc Hs HO He Hr junk' m I eta' lam' a m' I' Hm Ea HS eps Hep. pose proof Hs as (S1 & S2 & S3 & S4). cbn [fst snd] in *.
  destruct (k_out junk' OLogistic m I x p c eta' lam' a m' I' Hm S1 Hp S2 Ea) as (A1 & A2 & A3). set (V := at_ (weights m)) in *.
  assert (MV : exists d, (0 < d)%R /\ forall r, r < nr x -> forall j, j < c -> (d <= side y r j (ZZ (nc x + 1) (Xb x) V r j))%R).
  { apply (ex_bound (nr x) (fun r d => forall j, j < c -> (d <= side y r j (ZZ (nc x + 1) (Xb x) V r j))%R)); [intros r d d' Hd B j Hj; specialize (B j Hj); lra|].
    intros r Hr'. apply (ex_bound c (fun j d => (d <= side y r j (ZZ (nc x + 1) (Xb x) V r j))%R)); [intros j d d' Hd B; lra|].
    intros j Hj. exists (side y r j (ZZ (nc x + 1) (Xb x) V r j)). split; [|apply Rle_refl]. apply side_half; [exact HO|lia|lia|]. pose proof (HS r j ltac:(lia) ltac:(lia)) as Q. rewrite A3 in Q by lia. exact Q. }
  destruct MV as (d & Hd & D).
  assert (Pe : (0 < Rmin eps (ln 2 / (2 * INR (nr x))))%R).
  { apply Rmin_glb_lt; [exact Hep|]. apply Rdiv_lt_0_compat; [exact ln2_pos|]. apply Rmult_lt_0_compat; [lra|now apply lt_0_INR]. }
  destruct (reach junk OLogistic t n H x y p c eta V d Hn Ht Hp Hc Hs Logic.I He Hr Hd) with (eps := Rmin eps (ln 2 / (2 * INR (nr x)))%R) as (K0 & HK); [|exact Pe|].
  { intros s r Ps Hr'. apply lg_small; [exact HO|lia|]. intros j Hj. rewrite Z_scaled. replace (side y r j (s * ZZ (nc x + 1) (Xb x) V r j))%R with (s * side y r j (ZZ (nc x + 1) (Xb x) V r j))%R by (unfold side; destruct (Req_EM_T _ _); ring). apply Rmult_le_compat_l; [lra|]. apply D; [exact Hr'|lia]. }
  exists K0. intros K HKK. destruct (HK K HKK) as (t' & n' & E & L & B). pose proof (k_forward junk OLogistic n' H x p c eta 0%R L S1 Hp S2) as Q1. destruct (k_out junk OLogistic n' H x p c eta 0%R _ _ _ L S1 Hp S2 Q1) as (B1 & B2 & B3).
  exists t', n'. do 4 eexists. split; [exact E|]. split; [exact (k_objective junk OLogistic n' H x y p c eta 0%R L Hp Hs)|]. split; [eapply Rle_trans; [exact B|apply Rmin_l]|]. split; [exact Q1|]. split; [exact B1|]. split; [exact B2|].
  intros r j Hr' Hj. rewrite B3 by lia. apply side_half; [exact HO|exact Hr'|exact Hj|]. apply lg_right; [exact HO|exact Hr'| |exact Hj].
  eapply Rle_lt_trans; [apply (share OLogistic x y (at_ (weights n')) (ln 2 / (2 * INR (nr x))) S1)|]; [intros q z Hq; apply lg_nonneg; [exact HO|lia]|eapply Rle_trans; [exact B|apply Rmin_r]|lia|].
  assert (0 < INR (nr x))%R by (now apply lt_0_INR). replace (ln 2 / (2 * INR (nr x)) * INR (nr x))%R with (ln 2 / 2)%R by (field; lra). pose proof ln2_pos. lra.
Qed.
(** Two samples 1 and -1 of classes 0 and 1; the weights (1, -1) separate them; training starts from zero weights with rate 1/2. *)
Definition c87y : rmat := mk (D := Rdt) 2 2 (fun i j => if i =? j then 1 else 0)%R.
Definition c87W (v : R) : rmat := mk (D := Rdt) 2 2 (fun i j => if i =? 0 then 0 else if j =? 0 then v else - v)%R.
Definition c87n (eta v : R) : rnet := N (D := Rdt) mempty sm_cost sm_costd (L (D := Rdt) 0%R 0%R identity mempty mempty mempty mempty mempty mempty) [] (O (D := Rdt) (L (D := Rdt) eta 0%R identity mempty mempty mempty mempty (c87W v) mempty) sm_cost sm_costd mempty).
Lemma c87_fwd (junk : nat -> R) (H : rheap) eta : exists a n1 H1, net_forward (D := Rdt) junk (c87n eta 1) H c63x = Ok (a, n1, H1) /\ separates (fun r => r) a /\ at_ a 0 0 = 1%R.
Proof.
  assert (Hm : single_net OSoftmax (c87n eta 1) 1 2 eta 0) by (repeat split).
  pose proof (k_forward junk OSoftmax (c87n eta 1) H c63x 1 2 eta 0%R Hm ltac:(cbn; lia) ltac:(lia) eq_refl) as E.
  destruct (k_out junk OSoftmax (c87n eta 1) H c63x 1 2 eta 0%R _ _ _ Hm ltac:(cbn; lia) ltac:(lia) eq_refl E) as (A1 & A2 & A3).
  assert (Q : forall r j, r < 2 -> j < 2 -> at_ (fwd_out (o_l (n_output (c87n eta 1))) c63x) r j = (if r =? j then 1 else -1)%R).
  { intros r j Hr Hj. rewrite A3 by (cbn; lia). cbn [kact act identity]. unfold initactfunc, f_identity. unfold ZZ, weights, c87n. cbn [nc c63x mk n_output o_l l_W Nat.add]. rewrite !sumN_S, !sumN_0. unfold Xb, with_bias, c63x, c87W. rewrite !(at_mk (D := Rdt)) by lia.
    destruct r as [|[|r]]; [| |lia]; (destruct j as [|[|j]]; [| |lia]); cbn; unfold f_identity; lra. }
  do 3 eexists. split; [exact E|]. split; [|rewrite Q by lia; reflexivity]. intros r j Hr Hj Hne. rewrite A1 in Hr. rewrite A2 in Hj. cbn in Hr. rewrite !Q by lia. rewrite Nat.eqb_refl. destruct (Nat.eqb_spec r j); [congruence|]. lra.
Qed.
Example C87_example (junk : nat -> R) : single_net OSoftmax (c87n (1/2) 0) 1 2 (1/2) 0 /\ samples (D := Rdt) 1 2 (c63x, c87y) /\ one_hot (fun r => r) c87y /\ (1 / 2 * total_curvature OSoftmax c63x 0 <= 1)%R /\
  exists K0, forall K, K0 <= K -> exists t' n' pr n'' H'', train junk (trainer_new (D := Rdt)) (c87n (1/2) 0) [] c63x c87y K = Ok (t', n', []) /\
    net_predict (D := Rdt) junk n' [] c63x = Ok (pr, n'', H'') /\ at_ pr 0 0 = 0%R /\ at_ pr 1 0 = 1%R.
Proof.
  assert (Hn : single_net OSoftmax (c87n (1/2) 0) 1 2 (1/2) 0) by (repeat split).
  assert (Hs : samples (D := Rdt) 1 2 (c63x, c87y)) by (repeat split; cbn; lia).
  assert (HO : one_hot (fun r => r) c87y). { intros r Hr. split; [exact Hr|]. intros j Hj. cbn in Hr, Hj. unfold c87y. rewrite (at_mk (D := Rdt)) by assumption. now rewrite Nat.eqb_sym. }
  assert (HT : (1 / 2 * total_curvature OSoftmax c63x 0 <= 1)%R). { unfold total_curvature. cbn [curvature c63x nr nc mk]. rewrite !sumN_S, !sumN_0. unfold c63x. rewrite !(at_mk (D := Rdt)) by lia. cbn [Nat.eqb INR]. lra. }
  split; [exact Hn|]. split; [exact Hs|]. split; [exact HO|]. split; [exact HT|].
  destruct (c87_fwd junk [] 1%R) as (a & m' & I' & EA & SA & _).
  destruct (C87_softmax junk (trainer_new (D := Rdt)) (c87n (1/2) 0) [] c63x c87y 1 2 (1/2)%R (fun r => r) Hn eq_refl ltac:(lia) ltac:(lia) Hs HO ltac:(lra) HT junk (c87n 1 1) [] 1%R 0%R a m' I' ltac:(repeat split) EA SA 1%R ltac:(lra)) as (K0 & HK).
  exists K0. intros K HKK. destruct (HK K HKK) as (t' & n' & J & pr & n'' & H'' & E & _ & _ & P & _ & Q). exists t', n', pr, n'', H''. split; [exact E|]. split; [exact P|]. split; [apply (Q 0)|apply (Q 1)]; cbn; lia.
Qed.

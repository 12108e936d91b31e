(** P_Heavy.v - C94: MomentumTrainer on one layer with a convex cost. *)
From Coq Require Import Reals Lra Psatz.
From Coquelicot Require Import Coquelicot.
From Verif Require Import Base Mat Act Layer Conv Misc Net NetP RInst RMat P_Act Grad P_Grad Trainer TrainP TrainP2 P_Train FunEq P_Mom P_Descent LinReg P_Linear P_Pred Convex P_Convex P_Online Heavy.
From Coq Require Import Arith List Lia.
Import ListNotations.
Local Open Scope nat_scope.

(** ** Specification *)
(** K calls of MomentumTrainer::feeddata(x, y) on the same data. *)
Definition mtrain (junk : nat -> R) (t : mtrainer Rdt) (n : rnet) (H : rheap) (x y : rmat) (K : nat) : res (mtrainer Rdt * rnet * rheap) :=
  foldM (fun '(t, n, H) _ => momentum_feeddata (D := Rdt) junk t n H x y) (repeat tt K) (t, n, H).
(** No network of this kind has an objective below J0. *)
Definition floor_of (k : okind) (x y : rmat) (p c : nat) (lam J0 : R) : Prop :=
  forall junk n H eta J, single_net k n p c eta lam -> objective junk n H x y = Ok J -> (J0 <= J)%R.

(** ** Proof *)
Lemma mtrain_S junk t n H x y K : mtrain junk t n H x y (S K) = ('(t', n', H') <- mtrain junk t n H x y K ;; momentum_feeddata (D := Rdt) junk t' n' H' x y).
Proof.
  unfold mtrain. replace (repeat tt (S K)) with (repeat tt K ++ [tt]). 2:{ clear. induction K as [|K IH]; [reflexivity|]. cbn in *. now rewrite IH. }
  rewrite foldM_app. destruct (foldM _ (repeat tt K) _) as [[[t1 n1] H1]| | |]; cbn [bind foldM]; try reflexivity. destruct (momentum_feeddata _ _ _ _ _ _); reflexivity.
Qed.
(** A trainer for a network without hidden layers. *)
Definition mfits (u : mtrainer Rdt) (mu : R) (p c : nat) : Prop := no_decay (mt_t u) /\ mt_mom u = mu /\ nr (mt_ograd u) = p + 1 /\ nc (mt_ograd u) = c /\ mt_hgrads u = [].
Notation kG k x y lam := (GG (nr x) (nc x + 1) (Xb x) (kgr k y) lam).
Lemma m_train_step junk k (u : mtrainer Rdt) (n : rnet) (H : rheap) (x y : rmat) p c eta lam mu :
  single_net k n p c eta lam -> mfits u mu p c -> 1 <= p -> samples p c (x, y) ->
  exists u' n', momentum_feeddata (D := Rdt) junk u n H x y = Ok (u', n', H) /\ mfits u' mu p c /\ single_net k n' p c eta lam /\
    (forall i j, i < p + 1 -> j < c -> at_ (mt_ograd u') i j = vel (kG k x y lam) mu (at_ (weights n)) (at_ (mt_ograd u)) i j) /\
    forall i j, i < p + 1 -> j < c -> at_ (weights n') i j = hstep (kG k x y lam) eta mu (at_ (weights n)) (at_ (mt_ograd u)) i j.
Proof.
  intros Hl (Ht & M1 & M2 & M3 & M4) Hp Hs. pose proof (k_costd k n x y p c eta lam (l_z (fwd_layer (o_l (n_output n)) x)) Hl Hs) as Ed. destruct Hs as (S1 & S2 & S3 & S4). cbn [fst snd] in *. pose proof Hl as (E1 & E2 & E3 & E4 & E5 & E6 & E7 & E8).
  unfold momentum_feeddata, decay. cbn [tick t_usedecay]. rewrite Ht. cbn [andb bind]. rewrite (k_forward junk k n H x p c eta lam) by (assumption || lia). cbn [bind].
  match goal with |- context [net_backprop _ ?m _ _] => set (n1 := m) end.
  assert (Hd1 : dense_net n1 H []) by (split; cbn; rewrite E1; constructor).
  rewrite (net_backprop_dense (D := Rdt) junk n1 H [] y Hd1).
  set (delta := mk (D := Rdt) (nr x) c (fun i j => kgr k y i (ZZ (nc x + 1) (Xb x) (at_ (weights n)) i) j / INR (nr x))%R) in *.
  assert (Ed' : o_costd (n_output n1) y (l_a (o_l (n_output n1))) (l_z (o_l (n_output n1))) = Ok delta) by (cbn [n1 set_result set_output set_input n_output o_costd o_l fwd_layer l_a l_z] in *; rewrite E2; exact Ed).
  rewrite (out_backprop_ok (n_output n1) y delta); [|exact Ed'|reflexivity|cbn; lia|cbn; unfold delta; cbn; lia|cbn; lia]. cbn [bind lbackprop].
  change (n_hidden n1) with (n_hidden n). rewrite E1. cbn [put_layers]. rewrite M4. cbn [length seq combine mapM bind net_getoutput].
  match goal with |- context [net_update_with ?m _ _ _] => set (n2 := m) end.
  assert (G1 : nr (l_grad (o_l (n_output n2))) = p + 1) by (cbn; lia). assert (G2 : nc (l_grad (o_l (n_output n2))) = c) by (cbn; unfold delta; cbn; lia).
  assert (GE : forall i j, i < p + 1 -> j < c -> (at_ (l_grad (o_l (n_output n2))) i j : R) = kG k x y lam (at_ (weights n)) i j).
  { intros i j Hi Hj. cbn [n2 n_output set_output with_layer o_l l_grad back_layer fwd_layer n1 set_result set_input]. unfold grad_of. cbn [l_pa fwd_layer l_lambda l_W nc mk]. rewrite (at_mk (D := Rdt)) by (unfold delta; cbn; lia).
    rewrite (at_raw _ delta x) by (first [reflexivity|unfold delta; cbn; lia]). rewrite E8. unfold GG.
    assert (Es : sumN (nr x) (fun r => with_bias x r i * at_ delta r j)%R = (sumN (nr x) (fun r => Xb x r i * kgr k y r (ZZ (nc x + 1) (Xb x) (at_ (weights n)) r) j) / INR (nr x))%R).
    { unfold Rdiv. rewrite <- sumN_scal_r. apply sumN_ext. intros r Hr. unfold delta. rewrite (at_mk (D := Rdt)) by (cbn; lia). unfold Xb, Rdiv. toR. ring. }
    toR. match goal with |- @eq _ ?a ?b => change (@eq R a b) end. cbn [dsub dmul dadd Rdt]. toR. rewrite Es. unfold weights. reflexivity. }
  change (net_getoutput n2) with (output_copy (n_output n2)). cbn [output_copy o_l].
  rewrite (madd_ok (D := Rdt)) by (cbn [mscal mmap nr nc]; cbn; lia). cbn [bind].
  match goal with |- context [net_update_with n2 H ?g []] => set (og := g) end.
  assert (O1 : nr og = p + 1) by (cbn; lia). assert (O2 : nc og = c) by (cbn; lia).
  assert (OE : forall i j, i < p + 1 -> j < c -> (at_ og i j : R) = vel (kG k x y lam) mu (at_ (weights n)) (at_ (mt_ograd u)) i j).
  { intros i j Hi Hj. unfold og. rewrite (at_mk (D := Rdt)) by (cbn; lia). unfold mscal. rewrite !at_mmap by (try assumption; cbn; lia). unfold vel. rewrite <- (GE i j Hi Hj). rewrite M1. reflexivity. }
  rewrite (net_update_with_ok n2 H []); [|split; cbn; rewrite E1; constructor| |constructor].
  2:{ split; [rewrite O1|rewrite O2]; cbn; lia. }
  do 2 eexists. split; [cbn; rewrite E1; cbn; reflexivity|]. split; [|split; [|split]].
  - repeat split; cbn [mt_t mt_mom mt_ograd mt_hgrads]; assumption.
  - repeat split; cbn; auto.
  - exact OE.
  - intros i j Hi Hj. unfold weights. cbn [n_output set_output with_layer o_l stepped_with set_W l_W n2 back_layer fwd_layer n1 set_result set_input l_lrate].
    rewrite (at_mk (D := Rdt)) by lia. pose proof (OE i j Hi Hj) as Q. unfold weights in Q. unfold hstep. rewrite <- Q. rewrite E7. reflexivity.
Qed.

Section C94.
Context (junk : nat -> R) (k : okind) (x y : rmat) (p c : nat) (eta lam mu : R).
Context (Hp : 1 <= p) (Hs : samples p c (x, y)).
Notation kH W K := (hiter (kG k x y lam) eta mu W (fun _ _ => 0%R) K).
Lemma kG_ext W V : eqW (nc x + 1) (nc y) W V -> eqW (nc x + 1) (nc y) (kG k x y lam W) (kG k x y lam V).
Proof.
  intros E i j Hi Hj. pose proof (step_ext (nr x) (nc x + 1) (nc y) (Xb x) (kgr k y) lam (fun r => kgr_ext k y r) 1 W V E i j Hi Hj) as Q. unfold step in Q. rewrite (E i j Hi Hj) in Q. lra.
Qed.
Lemma m_train (t : trainer Rdt) (u : mtrainer Rdt) (n : rnet) (H : rheap) : single_net k n p c eta lam -> no_decay t -> initmomentum (D := Rdt) t mu n H = Ok u ->
  forall K, exists u' n', mtrain junk u n H x y K = Ok (u', n', H) /\ mfits u' mu p c /\ single_net k n' p c eta lam /\
    eqW (nc x + 1) (nc y) (at_ (weights n')) (fst (kH (at_ (weights n)) K)) /\ eqW (nc x + 1) (nc y) (at_ (mt_ograd u')) (snd (kH (at_ (weights n)) K)).
Proof.
  intros Hl Ht HI. pose proof Hs as (_ & S2 & _ & S4). cbn [fst snd] in S2, S4. pose proof Hl as (E1 & _ & _ & _ & E5 & E6 & _).
  unfold initmomentum in HI. rewrite E1 in HI. cbn [length seq mapM bind] in HI. injection HI as <-.
  induction K as [|K IH].
  - do 2 eexists. split; [reflexivity|]. split; [repeat split; cbn; assumption|]. split; [exact Hl|]. split; [intros i j _ _; reflexivity|].
    intros i j Hi Hj. cbn [hiter snd mt_ograd]. unfold zero_like, zeros. rewrite (at_mk (D := Rdt)) by (cbn; lia). reflexivity.
  - destruct IH as (u1 & n1 & R1 & T1 & L1 & W1 & V1). destruct (m_train_step junk k u1 n1 H x y p c eta lam mu L1 T1 Hp Hs) as (u2 & n2 & R2 & T2 & L2 & V2 & W2).
    exists u2, n2. rewrite mtrain_S, R1. cbn [bind]. split; [exact R2|]. split; [exact T2|]. split; [exact L2|]. pose proof (kG_ext _ _ W1) as G1.
    assert (VE : forall i j, i < nc x + 1 -> j < nc y -> at_ (mt_ograd u2) i j = vel (kG k x y lam) mu (fst (kH (at_ (weights n)) K)) (snd (kH (at_ (weights n)) K)) i j).
    { intros i j Hi Hj. rewrite V2 by lia. unfold vel. now rewrite V1, G1 by assumption. }
    cbn [hiter]. split; intros i j Hi Hj; destruct (hiter (kG k x y lam) eta mu (at_ (weights n)) (fun _ _ => 0%R) K) as [W' V'] eqn:EH; cbn [fst snd] in *.
    + rewrite W2 by lia. unfold hstep. rewrite <- (VE i j Hi Hj). rewrite <- (V2 i j) by lia. now rewrite W1 by assumption.
    + now apply VE.
Qed.
Context (Hc : 1 <= c) (HL : labels_fit k y) (Hl : (0 <= lam)%R) (He : (0 < eta)%R) (Hm : (0 <= mu < 1)%R).
Lemma h_up V W : (kF k x y lam V <= kF k x y lam W + ip (nc x + 1) (nc y) (kG k x y lam W) (diff V W) + total_curvature k x lam / 2 * ip (nc x + 1) (nc y) (diff V W) (diff V W))%R.
Proof. rewrite <- k_LL. apply (F_up (nr x) (nc x + 1) (nc y) (proj1 Hs) (Xb x) (kphi k y) (kgr k y) (curvature k) lam (curv_pos k)). intros r Hr. now apply (k_sm k x y p c Hp Hc Hs HL). Qed.
Lemma h_conv V W : (kF k x y lam W + ip (nc x + 1) (nc y) (kG k x y lam W) (diff V W) <= kF k x y lam V)%R.
Proof.
  pose proof (F_low (nr x) (nc x + 1) (nc y) (proj1 Hs) (Xb x) (kphi k y) (kgr k y) (curvature k) lam) as A. specialize (A (fun r Hr => k_sm k x y p c Hp Hc Hs HL r Hr) V W).
  pose proof (ip_pos (nc x + 1) (nc y) (diff V W)) as P. assert (0 <= lam / 2 * ip (nc x + 1) (nc y) (diff V W) (diff V W))%R by (apply Rmult_le_pos; lra). unfold kF. lra.
Qed.
Lemma m_run (t : trainer Rdt) u n H K u' n' H' J : single_net k n p c eta lam -> no_decay t -> initmomentum (D := Rdt) t mu n H = Ok u -> mtrain junk u n H x y K = Ok (u', n', H') -> objective junk n' H' x y = Ok J ->
  J = kF k x y lam (fst (kH (at_ (weights n)) K)).
Proof.
  intros Hn Ht HI E EJ. destruct (m_train t u n H Hn Ht HI K) as (u1 & n1 & E1 & _ & L1 & W1 & _). pose proof (eq_trans (eq_sym E) E1) as Q. injection Q as -> -> ->.
  rewrite (k_objective junk k n1 H x y p c eta lam L1 Hp Hs) in EJ. injection EJ as <-. unfold kF. refine (F_ext (nr x) (nc x + 1) (nc y) (Xb x) (kphi k y) (kgr k y) (curvature k) lam _ _ _ W1). intros r Hr. now apply (k_sm k x y p c Hp Hc Hs HL).
Qed.
Lemma floor_F (n : rnet) J0 : single_net k n p c eta lam -> floor_of k x y p c lam J0 -> forall V, (J0 <= kF k x y lam V)%R.
Proof.
  intros Hn HF V. pose proof Hs as (_ & S2 & _ & S4). cbn [fst snd] in S2, S4.
  set (l := o_l (n_output n)). set (n0 := set_output n (O (D := Rdt) (set_W l (mk (D := Rdt) (p + 1) c (fun i j => V i j : car Rdt))) (o_cost (n_output n)) (o_costd (n_output n)) (o_y (n_output n)))).
  assert (Hn0 : single_net k n0 p c eta lam) by (destruct Hn as (A1 & A2 & A3 & A4 & A5 & A6 & A7 & A8); repeat split; cbn; assumption).
  pose proof (HF junk n0 [] eta _ Hn0 (k_objective junk k n0 [] x y p c eta lam Hn0 Hp Hs)) as Q. eapply Rle_trans; [exact Q|]. right. unfold kF. refine (F_ext (nr x) (nc x + 1) (nc y) (Xb x) (kphi k y) (kgr k y) (curvature k) lam _ _ _ _).
  - intros r Hr. now apply (k_sm k x y p c Hp Hc Hs HL).
  - intros i j Hi Hj. change (at_ (mk (D := Rdt) (p + 1) c (fun i j => V i j : car Rdt)) i j = V i j). apply (at_mk (D := Rdt)); lia.
Qed.
End C94.

(** ** C94 *)
(** Every number of calls goes through. *)
Theorem C94_runs : forall junk k (t : trainer Rdt) (n : rnet) (H : rheap) (x y : rmat) p c eta lam mu,
  single_net k n p c eta lam -> no_decay t -> 1 <= p -> samples p c (x, y) -> forall K, exists u u' n' J,
  initmomentum (D := Rdt) t mu n H = Ok u /\ mtrain junk u n H x y K = Ok (u', n', H) /\ single_net k n' p c eta lam /\ objective junk n' H x y = Ok J.
Proof.
  intros junk k t n H x y p c eta lam mu Hn Ht Hp Hs K. pose proof Hn as (E1 & _). assert (HI : exists u, initmomentum (D := Rdt) t mu n H = Ok u) by (unfold initmomentum; rewrite E1; cbn; eauto).
  destruct HI as (u & HI). destruct (m_train junk k x y p c eta lam mu Hp Hs t u n H Hn Ht HI K) as (u' & n' & E & _ & L & _). exists u, u', n'. eexists. split; [exact HI|]. split; [exact E|]. split; [exact L|]. now apply (k_objective junk k n' H x y p c eta lam).
Qed.
(** With a rate up to 2 / curvature, the objective after any number of calls is at most the first one (it need not be monotone). *)
Theorem C94_below : forall junk k (t : trainer Rdt) (n : rnet) (H : rheap) (x y : rmat) p c eta lam mu u,
  single_net k n p c eta lam -> no_decay t -> 1 <= p -> 1 <= c -> samples p c (x, y) -> labels_fit k y -> (0 < eta)%R -> (0 <= mu < 1)%R -> (eta * total_curvature k x lam <= 2)%R ->
  initmomentum (D := Rdt) t mu n H = Ok u -> forall K u' n' H' J J1, objective junk n H x y = Ok J1 -> mtrain junk u n H x y K = Ok (u', n', H') -> objective junk n' H' x y = Ok J -> (J <= J1)%R.
Proof.
  intros junk k t n H x y p c eta lam mu u Hn Ht Hp Hc Hs HL He Hm Hr HI K u' n' H' J J1 O1 E O2.
  rewrite (m_run junk k x y p c eta lam mu Hp Hs Hc HL t u n H K u' n' H' J Hn Ht HI E O2). rewrite (k_objective junk k n H x y p c eta lam Hn Hp Hs) in O1. injection O1 as <-.
  apply (heavy_below (nc x + 1) (nc y) (kF k x y lam) (kG k x y lam) (total_curvature k x lam)); [intros; apply (h_up k x y p c lam Hp Hs Hc HL)|exact He|exact Hm|exact Hr].
Qed.
(** With a rate below 1 / curvature: how close the objective is after K calls. *)
Theorem C94_rate : forall junk k (t : trainer Rdt) (n : rnet) (H : rheap) (x y : rmat) p c eta lam mu u J0,
  single_net k n p c eta lam -> no_decay t -> 1 <= p -> 1 <= c -> samples p c (x, y) -> labels_fit k y -> (0 < eta)%R -> (0 <= lam)%R -> (0 <= mu < 1)%R -> (eta * total_curvature k x lam < 1)%R ->
  floor_of k x y p c lam J0 -> initmomentum (D := Rdt) t mu n H = Ok u ->
  forall K u' n' H' J J1 junk' m I eta' J', 1 <= K -> objective junk n H x y = Ok J1 -> mtrain junk u n H x y K = Ok (u', n', H') -> objective junk n' H' x y = Ok J ->
    single_net k m p c eta' lam -> objective junk' m I x y = Ok J' ->
    ((1 - eta * total_curvature k x lam) * (J - J0) <= (J' - J0) + (dist2 (weights n) (weights m) / (2 * eta) + 3 / 2 * (mu / (1 - mu)) * (J1 - J0)) / INR K)%R.
Proof.
  intros junk k t n H x y p c eta lam mu u J0 Hn Ht Hp Hc Hs HL He Hl Hm Hr HF HI K u' n' H' J J1 junk' m I eta' J' HK O1 E O2 Hmn O3.
  rewrite (m_run junk k x y p c eta lam mu Hp Hs Hc HL t u n H K u' n' H' J Hn Ht HI E O2). rewrite (k_objective junk k n H x y p c eta lam Hn Hp Hs) in O1. injection O1 as <-. rewrite (k_objective junk' k m I x y p c eta' lam Hmn Hp Hs) in O3. injection O3 as <-.
  pose proof Hn as (_ & _ & _ & _ & N1 & N2 & _). pose proof Hs as (S1 & S2 & S3 & S4). cbn [fst snd] in *. rewrite <- (ip_dist2 _ _ (nc x + 1) (nc y)) by (unfold weights; lia).
  apply (heavy_rate (nc x + 1) (nc y) (kF k x y lam) (kG k x y lam) (total_curvature k x lam) eta mu); [intros; apply (h_up k x y p c lam Hp Hs Hc HL)|intros; apply (h_conv k x y p c lam Hp Hs Hc HL Hl)|exact He|exact Hm|intros V; apply (floor_F junk k x y p c eta lam Hp Hs Hc HL n J0 Hn HF)|now apply tc_pos|exact Hr|exact HK].
Qed.
(** So it gets as close as one likes to the best possible value. *)
Theorem C94_limit : forall junk k (t : trainer Rdt) (n : rnet) (H : rheap) (x y : rmat) p c eta lam mu u,
  single_net k n p c eta lam -> no_decay t -> 1 <= p -> 1 <= c -> samples p c (x, y) -> labels_fit k y -> labels_nonneg k y -> (0 < eta)%R -> (0 <= lam)%R -> (0 <= mu < 1)%R -> (eta * total_curvature k x lam < 1)%R ->
  initmomentum (D := Rdt) t mu n H = Ok u ->
  forall junk' m I eta' J' eps, single_net k m p c eta' lam -> objective junk' m I x y = Ok J' -> (0 < eps)%R ->
  exists K0, forall K u' n' H' J, K0 <= K -> mtrain junk u n H x y K = Ok (u', n', H') -> objective junk n' H' x y = Ok J -> (J <= J' + eps)%R.
Proof.
  intros junk k t n H x y p c eta lam mu u Hn Ht Hp Hc Hs HL LN He Hl Hm Hr HI junk' m I eta' J' eps Hmn O3 Hep. pose proof Hs as (S1 & S2 & S3 & S4). cbn [fst snd] in *.
  (* the greatest lower bound of the objective *)
  set (E := fun v : R => exists W, v = (- kF k x y lam W)%R).
  destruct (completeness E) as (s & SU & SL).
  { exists 0%R. intros v (W & ->). pose proof (kF_nonneg k x y lam W S1 S3 LN Hl). lra. } { exists (- kF k x y lam (at_ (weights m)))%R. now exists (at_ (weights m)). }
  set (J0 := (- s)%R). assert (LB : forall W, (J0 <= kF k x y lam W)%R). { intros W. specialize (SU (- kF k x y lam W)%R (ex_intro _ W eq_refl)). unfold J0. lra. }
  set (q := (1 - eta * total_curvature k x lam)%R) in *. assert (Hq : (0 < q)%R) by (unfold q; lra).
  assert (NB : exists W, (kF k x y lam W < J0 + q * (eps / 2))%R).
  { apply Classical_Prop.NNPP. intros Nx. assert (s <= s - q * (eps / 2))%R; [|assert (0 < q * (eps / 2))%R by (apply Rmult_lt_0_compat; lra); lra]. apply SL. intros v (W & ->). apply Rnot_lt_le. intros G. apply Nx. exists W. unfold J0. lra. }
  destruct NB as (W & HW). set (d := ip (nc x + 1) (nc y) (diff (at_ (weights n)) W) (diff (at_ (weights n)) W)).
  set (B := (d / (2 * eta) + 3 / 2 * (mu / (1 - mu)) * (kF k x y lam (at_ (weights n)) - J0))%R).
  destruct (archimed_cor1 (q * (eps / 2) / (Rabs B + 1))) as (K0 & HK0 & PK0). { pose proof (Rabs_pos B). apply Rdiv_lt_0_compat; [apply Rmult_lt_0_compat|]; lra. }
  exists K0. intros K u' n' H' J HK E1 O1. rewrite (m_run junk k x y p c eta lam mu Hp Hs Hc HL t u n H K u' n' H' J Hn Ht HI E1 O1).
  rewrite (k_objective junk' k m I x y p c eta' lam Hmn Hp Hs) in O3. injection O3 as <-.
  assert (R : (q * (kF k x y lam (fst (hiter (kG k x y lam) eta mu (at_ (weights n)) (fun _ _ => 0%R) K)) - J0) <= (kF k x y lam W - J0) + B / INR K)%R).
  { apply (heavy_rate (nc x + 1) (nc y) (kF k x y lam) (kG k x y lam) (total_curvature k x lam) eta mu); [intros; apply (h_up k x y p c lam Hp Hs Hc HL)|intros; apply (h_conv k x y p c lam Hp Hs Hc HL Hl)|exact He|exact Hm|exact LB|now apply tc_pos|exact Hr|lia]. }
  set (v := kF k x y lam (fst (hiter (kG k x y lam) eta mu (at_ (weights n)) (fun _ _ => 0%R) K))) in *. pose proof (LB (at_ (weights m))) as LM.
  assert (BK : (B / INR K < q * (eps / 2))%R).
  { pose proof (Rabs_pos B). assert (P0 : (0 < INR K0)%R) by (now apply lt_0_INR). assert (P1 : (INR K0 <= INR K)%R) by (now apply le_INR). assert (P2 : (/ INR K <= / INR K0)%R) by (apply Rinv_le_contravar; lra).
    assert (A : (/ INR K < q * (eps / 2) / (Rabs B + 1))%R) by lra. apply (Rmult_lt_compat_r (Rabs B + 1)) in A; [|lra]. replace (q * (eps / 2) / (Rabs B + 1) * (Rabs B + 1))%R with (q * (eps / 2))%R in A by (field; lra).
    assert (0 < / INR K)%R by (apply Rinv_0_lt_compat; lra). pose proof (Rle_abs B). unfold Rdiv at 1. assert (B * / INR K <= Rabs B * / INR K)%R by (apply Rmult_le_compat_r; lra). lra. }
  assert (Z : (q * (v - J0) < q * eps)%R) by lra. apply Rmult_lt_reg_l in Z; [|exact Hq]. lra.
Qed.
(** Logistic regression on the samples 1 and -1 with labels 1 and 0, weights 0, rate 1, momentum 1/2: curvature 1/2. *)
Theorem C94_example : exists (n : rnet) u, single_net OLogistic n 1 1 1 0 /\ samples (D := Rdt) 1 1 (c63x, c86y) /\ labels_fit OLogistic c86y /\ labels_nonneg OLogistic c86y /\
  (1 * total_curvature OLogistic c63x 0 < 1)%R /\ floor_of OLogistic c63x c86y 1 1 0 0 /\ initmomentum (D := Rdt) (trainer_new (D := Rdt)) (1 / 2)%R n [] = Ok u /\
  exists u' n', mtrain (fun _ => 0%R) u n [] c63x c86y 2 = Ok (u', n', []) /\ forall u1 n1, mtrain (fun _ => 0%R) u n [] c63x c86y 1 = Ok (u1, n1, []) -> (at_ (weights n1) 1 0 : R) = (1 / 4)%R.
Proof.
  set (W := mk (D := Rdt) 2 1 (fun i _ => 0)%R).
  set (n := N (D := Rdt) mempty ce_cost ce_costd (L (D := Rdt) 0%R 0%R identity mempty mempty mempty mempty mempty mempty) [] (O (D := Rdt) (L (D := Rdt) 1%R 0%R sigmoid mempty mempty mempty mempty W mempty) ce_cost ce_costd mempty)).
  assert (Hl : single_net OLogistic n 1 1 1 0) by (repeat split).
  assert (Hs : samples (D := Rdt) 1 1 (c63x, c86y)) by (repeat split; cbn; lia).
  assert (LN : labels_nonneg OLogistic c86y). { intros r j Hr Hj. cbn in Hr, Hj. unfold c86y. rewrite (at_mk (D := Rdt)) by lia. destruct (r =? 0); lra. }
  assert (Sm : total_curvature OLogistic c63x 0 = (1 / 2)%R).
  { unfold total_curvature. cbn [curvature c63x nr nc mk]. rewrite !sumN_S, !sumN_0. unfold c63x. rewrite !(at_mk (D := Rdt)) by lia. cbn [Nat.eqb INR]. field. }
  destruct (initmomentum (D := Rdt) (trainer_new (D := Rdt)) (1 / 2)%R n []) as [u| | |] eqn:HI; try (unfold initmomentum in HI; cbn in HI; discriminate).
  exists n, u. split; [exact Hl|]. split; [exact Hs|]. split; [exact I|]. split; [exact LN|]. split; [rewrite Sm; lra|]. split.
  { intros jk m K eta J Hm O1. rewrite (k_objective jk OLogistic m K c63x c86y 1 1 eta 0 Hm ltac:(lia) Hs) in O1. injection O1 as <-. apply kF_nonneg; [cbn; lia|reflexivity|exact LN|lra]. }
  split; [exact HI|].
  destruct (m_train (fun _ => 0%R) OLogistic c63x c86y 1 1 1 0 (1 / 2) ltac:(lia) Hs (trainer_new (D := Rdt)) u n [] Hl eq_refl HI 2) as (u' & n' & E & _). exists u', n'. split; [exact E|].
  intros u1 n1 E1. destruct (m_train (fun _ => 0%R) OLogistic c63x c86y 1 1 1 0 (1 / 2) ltac:(lia) Hs (trainer_new (D := Rdt)) u n [] Hl eq_refl HI 1) as (u2 & n2 & E2 & _ & _ & EW & _). pose proof (eq_trans (eq_sym E1) E2) as Q. injection Q as -> ->.
  rewrite EW by (cbn; lia). cbn [hiter fst]. unfold hstep, vel. change (weights n) with W. unfold GG, ZZ. cbn [kgr c63x nr nc mk]. rewrite !sumN_S, !sumN_0. unfold Xb, with_bias, c63x, c86y, W. rewrite !(at_mk (D := Rdt)) by lia. cbn [Nat.eqb Nat.ltb Nat.leb].
  match goal with |- @eq _ ?a ?b => change (@eq R a b) end. toR. cbn [INR].
  assert (S0 : forall v, v = 0%R -> sig v = (1 / 2)%R) by (intros v ->; unfold sig; rewrite Ropp_0, exp_0; field).
  rewrite !S0 by (cbn; lra). cbn. field.
Qed.

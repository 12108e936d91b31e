(** P_FrontBest.v - C105 with C86: one layer behind a fixed preprocessing learns the best fit to the features. *)
From Coq Require Import Reals Lra Lia List.
From Verif Require Import Base Mat Act Layer Conv Misc Net NetP RInst RMat P_Act Grad P_Grad Trainer TrainP TrainP2 P_Train FunEq P_Mom P_Descent LinReg P_Linear P_Pred Convex P_Convex P_Misc P_Mixed P_Front.
From Coq Require Import Arith.
Import ListNotations.
Local Open Scope nat_scope.

(** ** Specification *)
(** n without its hidden layers. *)
Definition bare (n : rnet) : rnet := Net.N (D := Rdt) (n_result n) (n_cost n) (n_costd n) (n_input n) [] (n_output n).
(** What the output layer's training minimises: the cost of the network's answers on (x, y), plus lambda / 2 times the squared output weights. *)
Definition output_objective (junk : nat -> R) (n : rnet) (H : rheap) (x y : rmat) : res R :=
  '(a, n', _) <- net_forward (D := Rdt) junk n H x ;;
  c <- net_computecost n' a y ;;
  Ok (c + l_lambda (o_l (n_output n)) / 2 * sqnorm (l_W (o_l (n_output n))))%R.

(** ** Proof *)
Lemma fwd_both junk F (H0 : rheap) (n : rnet) (H : rheap) (m : rnet) (K : rheap) x f : NoDup (n_hidden n) -> fronted (D := Rdt) F H0 n H m K -> features (D := Rdt) junk H0 F x = Ok f ->
  both (fun a b => fst (fst a) = fst (fst b) /\ n_cost (snd (fst a)) = n_cost (snd (fst b))) (net_forward (D := Rdt) junk n H x) (net_forward (D := Rdt) junk m K f).
Proof.
  intros ND (E1 & E2 & E3 & HA & HF) Hf. assert (ND' := ND). rewrite E1 in ND'. apply nodup_split in ND' as [N1 N2].
  unfold net_forward, input_forward. rewrite !forward_chain, E1, E2, chain_app.
  pose proof (front_forward (D := Rdt) junk F x H0 H N1 HF) as FF. rewrite Hf in FF. destruct (chainrun (h_forward junk) F x H) as [[f' H1]|u| |]; cbn in FF; try contradiction. destruct FF as (-> & R1 & O1). cbn [bind].
  assert (A1 : agree F H1 K) by (intros q Hq; rewrite O1 by assumption; apply HA; exact Hq). pose proof (run_both (D := Rdt) (h_forward junk) F (n_hidden m) f H1 K A1 N2) as RB.
  destruct (chainrun (h_forward junk) (n_hidden m) f H1) as [[a H2]|u| |], (chainrun (h_forward junk) (n_hidden m) f K) as [[b K2]|u'| |]; cbn in RB; try contradiction; cbn [bind]; cbn; auto. destruct RB as (-> & A2 & O2).
  destruct (output_forward (n_output m) b) as [[r o']|u| |]; cbn [bind]; cbn; auto.
Qed.
Lemma feed_both junk F (H0 : rheap) (t : trainer Rdt) (n : rnet) (H : rheap) (m : rnet) (K : rheap) x f y : NoDup (n_hidden n) -> fronted (D := Rdt) F H0 n H m K -> features (D := Rdt) junk H0 F x = Ok f ->
  both (fun a b => let '(t', n', H') := a in let '(t2, m', K') := b in t' = t2 /\ fronted (D := Rdt) F H0 n' H' m' K' /\ NoDup (n_hidden n')) (feeddata (D := Rdt) junk t n H x y) (feeddata (D := Rdt) junk t m K f y).
Proof.
  intros ND R Hf. unfold feeddata. pose proof (decay_both (D := Rdt) F H0 (tick t) n H m K ND R) as X.
  destruct (decay (tick t) n H) as [[n1 H1]|u| |], (decay (tick t) m K) as [[m1 K1]|u'| |]; cbn in X; try contradiction; cbn [bind]; cbn; auto. destruct X as [R1 Eh]. rewrite <- Eh in ND.
  pose proof (step_both (D := Rdt) junk F H0 n1 H1 m1 K1 x f y ND R1 Hf) as X. destruct (train_step junk n1 H1 x y) as [[n2 H2]|u| |], (train_step junk m1 K1 f y) as [[m2 K2]|u'| |]; cbn in X; try contradiction; cbn [bind]; cbn; auto. destruct X as (R2 & Eh2 & Er). rewrite <- Eh2 in ND. auto.
Qed.
Lemma train_both junk F (H0 : rheap) x f y : features (D := Rdt) junk H0 F x = Ok f -> forall N (t : trainer Rdt) (n : rnet) (H : rheap) (m : rnet) (K : rheap), NoDup (n_hidden n) -> fronted (D := Rdt) F H0 n H m K ->
  both (fun a b => let '(t', n', H') := a in let '(t2, m', K') := b in t' = t2 /\ fronted (D := Rdt) F H0 n' H' m' K' /\ NoDup (n_hidden n')) (train junk t n H x y N) (train junk t m K f y N).
Proof.
  intros Hf. unfold train. induction N as [|N IH]; intros t n H m K ND R; cbn [repeat foldM]; [cbn; auto|].
  pose proof (feed_both junk F H0 t n H m K x f y ND R Hf) as X. destruct (feeddata (D := Rdt) junk t n H x y) as [[[t1 n1] H1]|u| |], (feeddata (D := Rdt) junk t m K f y) as [[[t2 m1] K1]|u'| |]; cbn in X; try contradiction; cbn [bind]; cbn; auto.
  destruct X as (-> & R1 & ND1). apply IH; auto.
Qed.

(** A network of normalising, pooling and softmax layers followed by a linear, logistic or softmax output, trained on fixed data with a rate up to 1 / curvature (of the features): no call
    fails, and from some number of calls on its objective is within eps of that of every single-layer network on the features. *)
Theorem C105_best : forall junk k F (t : trainer Rdt) (n : rnet) (H : rheap) (x f y : rmat) p c eta lam,
  NoDup F -> n_hidden n = F -> (forall q, In q F -> exists h, nth_error H q = Some h /\ preprocessing (D := Rdt) h) -> features (D := Rdt) junk H F x = Ok f ->
  single_net k (bare n) p c eta lam -> no_decay t -> 1 <= p -> 1 <= c -> samples p c (f, y) -> labels_fit k y -> (0 < eta)%R -> (0 <= lam)%R -> (eta * total_curvature k f lam <= 1)%R ->
  forall junk' m I eta' J' eps, single_net k m p c eta' lam -> objective junk' m I f y = Ok J' -> (0 < eps)%R ->
  exists K0, forall K, K0 <= K -> exists t' n' H' J, train junk t n H x y K = Ok (t', n', H') /\ output_objective junk n' H' x y = Ok J /\ (J <= J' + eps)%R.
Proof.
  intros junk k F t n H x f y p c eta lam ND EF HF Hf HS HT Hp Hc SS HL He Hl HC junk' m I eta' J' eps HM HJ Heps.
  destruct (C86_limit junk k t (bare n) H f y p c eta lam HS HT Hp Hc SS HL He Hl HC junk' m I eta' J' eps HM HJ Heps) as (K0 & HK). exists K0. intros K LK.
  destruct (C86_runs junk k t (bare n) H f y p c eta lam HS HT Hp SS K) as (t' & m' & J & E1 & S1 & E2). specialize (HK K t' m' H J LK E1 E2).
  assert (R : fronted (D := Rdt) F H n H (bare n) H).
  { split; [cbn; rewrite app_nil_r; exact EF|]. split; [reflexivity|]. split; [reflexivity|]. split; [intros q _; reflexivity|]. intros q Hq. destruct (HF q Hq) as (h & A & B). exists h, h. repeat (split; [assumption|]). split; [apply alike_refl|]; assumption. }
  assert (ND' : NoDup (n_hidden n)) by (rewrite EF; exact ND).
  pose proof (train_both junk F H x f y Hf K t n H (bare n) H ND' R) as X. rewrite E1 in X. destruct (train junk t n H x y K) as [[[t2 n2] H2]|u| |]; cbn in X; try contradiction. destruct X as (-> & R2 & ND2).
  exists t', n2, H2, J. split; [reflexivity|]. split; [|exact HK].
  pose proof (fwd_both junk F H n2 H2 m' H x f ND2 R2 Hf) as X. unfold objective in E2. unfold output_objective. assert (Eo : n_output n2 = n_output m') by apply R2.
  destruct (net_forward (D := Rdt) junk n2 H2 x) as [[[a n3] H3]|u| |], (net_forward (D := Rdt) junk m' H f) as [[[b m3] K3]|u'| |]; cbn in X; try contradiction; try discriminate E2. destruct X as [-> Ec].
  cbn [bind] in *. unfold net_computecost in *. rewrite Ec. destruct (n_cost m3 y b); cbn [bind] in *; try discriminate E2. apply bind_ok in E2 as (ls & E3 & E2). assert (Z : n_hidden m' = []) by apply S1. unfold hidden_layers in E3. rewrite Z in E3. cbn in E3. injection E3 as <-. cbn [map sumL] in E2. rewrite Eo. rewrite <- E2. f_equal. cbn. ring.
Qed.

(** ** The hypotheses can be met *)
(** A softmax layer turns the input (0, ln 2) into (1/3, 2/3); a linear output with weights 0 behind it learns the label 1 at rate 1/2: the curvature is 1 + 1/9 + 4/9. *)
Definition fbx : rmat := mk (D := Rdt) 1 2 (fun _ j => if j =? 0 then 0 else ln 2)%R.
Definition fbf : rmat := mk (D := Rdt) 1 2 (fun _ j => if j =? 0 then 1 / 3 else 2 / 3)%R.
Definition fby : rmat := mk (D := Rdt) 1 1 (fun _ _ => 1%R).
Definition fbl : layer Rdt := L (D := Rdt) 0%R 0%R identity mempty mempty mempty mempty mempty mempty.
Definition fbW : rmat := mk (D := Rdt) 3 1 (fun _ _ => 0%R).
Definition fbn : rnet := Net.N (D := Rdt) mempty quad_cost quad_costd fbl [0] (Layer.O (D := Rdt) (L (D := Rdt) (1 / 2)%R 0%R identity mempty mempty mempty mempty fbW mempty) quad_cost quad_costd mempty).
Definition fbH : rheap := [HSoftmax (SL (D := Rdt) fbl mempty)].
Example C105_best_example :
  (forall q, In q [0] -> exists h, nth_error fbH q = Some h /\ preprocessing (D := Rdt) h) /\ features (D := Rdt) (fun _ => 0%R) fbH [0] fbx = Ok fbf /\
  single_net OQuad (bare fbn) 2 1 (1 / 2) 0 /\ samples (D := Rdt) 2 1 (fbf, fby) /\ (1 / 2 * total_curvature OQuad fbf 0 <= 1)%R /\
  (forall eps, (0 < eps)%R -> exists K0, forall K, K0 <= K -> exists t' n' H' J, train (fun _ => 0%R) (trainer_new (D := Rdt)) fbn fbH fbx fby K = Ok (t', n', H') /\ output_objective (fun _ => 0%R) n' H' fbx fby = Ok J /\ (J <= eps)%R).
Proof.
  assert (A1 : forall q, In q [0] -> exists h, nth_error fbH q = Some h /\ preprocessing (D := Rdt) h) by (intros q [<-|[]]; eexists; split; [reflexivity|exact I]).
  assert (A2 : features (D := Rdt) (fun _ => 0%R) fbH [0] fbx = Ok fbf).
  { cbn [features fbH nth_error own_forward]. unfold soft_forward. rewrite softmax_rows_R. cbn [bind]. f_equal. unfold fbf. change (nr fbx) with 1. change (nc fbx) with 2. apply mk_ext. intros i j Hi Hj. assert (E : srow fbx i = 3%R).
    { unfold srow. change (nc fbx) with 2. rewrite !sumN_S, sumN_0. unfold fbx. rewrite !(at_mk (D := Rdt)) by lia. cbn [Nat.eqb]. rewrite exp_0, exp_ln by lra. lra. }
    rewrite E. unfold fbx. rewrite (at_mk (D := Rdt)) by lia. destruct j as [|j]; cbn [Nat.eqb]; [rewrite exp_0; reflexivity|rewrite exp_ln by lra; reflexivity]. }
  assert (A3 : single_net OQuad (bare fbn) 2 1 (1 / 2) 0) by (repeat split).
  assert (A4 : samples (D := Rdt) 2 1 (fbf, fby)) by (repeat split; cbn; lia).
  assert (A5 : (1 / 2 * total_curvature OQuad fbf 0 <= 1)%R).
  { unfold total_curvature. cbn [curvature fbf nr nc mk]. rewrite !sumN_S, !sumN_0. unfold fbf. rewrite !(at_mk (D := Rdt)) by lia. cbn [Nat.eqb INR]. lra. }
  split; [exact A1|]. split; [exact A2|]. split; [exact A3|]. split; [exact A4|]. split; [exact A5|].
  intros eps He. set (V := mk (D := Rdt) 3 1 (fun i _ => if i =? 0 then 1 else 0)%R).
  set (m := Net.N (D := Rdt) mempty quad_cost quad_costd fbl [] (Layer.O (D := Rdt) (L (D := Rdt) (1 / 2)%R 0%R identity mempty mempty mempty mempty V mempty) quad_cost quad_costd mempty)).
  assert (Sm : single_net OQuad m 2 1 (1 / 2) 0) by (repeat split).
  destruct (C86_runs (fun _ => 0%R) OQuad (trainer_new (D := Rdt)) m [] fbf fby 2 1 (1 / 2) 0 Sm eq_refl ltac:(lia) A4 0) as (t0 & n0 & J0 & E0 & _ & O0). injection E0 as <- <-.
  assert (Z : J0 = 0%R).
  { unfold objective in O0. rewrite (k_forward (fun _ => 0%R) OQuad m [] fbf 2 1 (1 / 2) 0 Sm) in O0 by (cbn; lia). cbn [bind] in O0. unfold net_computecost in O0. cbn in O0. revert O0. unfold fwd_out. cbn. intros O0. injection O0 as <-. ring_simplify. lra. }
  subst J0. assert (P1 : 1 <= 2) by lia. assert (P2 : 1 <= 1) by lia.
  destruct (C105_best (fun _ => 0%R) OQuad [0] (trainer_new (D := Rdt)) fbn fbH fbx fbf fby 2 1 (1 / 2) 0 ltac:(repeat constructor; intros []) eq_refl A1 A2 A3 eq_refl P1 P2 A4 I ltac:(lra) ltac:(lra) A5 (fun _ => 0%R) m [] (1 / 2)%R 0%R eps Sm O0 He) as (K0 & HK).
  exists K0. intros K LK. destruct (HK K LK) as (t' & n' & H' & J & X1 & X2 & X3). exists t', n', H', J. split; [exact X1|]. split; [exact X2|]. lra.
Qed.

(** P_Convex.v - C86: training one layer with a convex cost (linear, logistic and softmax regression). *)
From Coq Require Import Reals Lra Psatz.
From Coquelicot Require Import Coquelicot.
From Verif Require Import Base Mat Act Layer Conv Misc Net NetP RInst RMat P_Act Grad P_Grad Trainer TrainP TrainP2 P_Train FunEq P_Mom P_Descent LinReg P_Linear P_Pred Convex.
From Coq Require Import Arith List Lia.
Import ListNotations.
Local Open Scope nat_scope.

(** ** Specification *)
(** The built-in outputs: QuadraticOutput, CrossEntropyOutput, SoftmaxOutput. *)
Inductive okind := OQuad | OLogistic | OSoftmax.
Definition kact (k : okind) : actfunc Rdt := match k with OLogistic => sigmoid | _ => identity end.
Definition kcost (k : okind) : costfun (D := Rdt) := match k with OQuad => quad_cost | OLogistic => ce_cost | OSoftmax => sm_cost end.
Definition kcostd (k : okind) : costdfun (D := Rdt) := match k with OQuad => quad_costd | OLogistic => ce_costd | OSoftmax => sm_costd end.
(** A network without hidden layers with output k, p inputs, c outputs, learning rate eta, regularisation lam. *)
Definition single_net (k : okind) (n : rnet) (p c : nat) (eta lam : R) : Prop :=
  n_hidden n = [] /\ o_costd (n_output n) = kcostd k /\ n_cost n = kcost k /\
  let l := o_l (n_output n) in l_act l = kact k /\ nr (l_W l) = p + 1 /\ nc (l_W l) = c /\ l_lrate l = eta /\ l_lambda l = lam.
(** Largest curvature of the cost of one sample. *)
Definition curvature (k : okind) : R := match k with OLogistic => (1 / 4)%R | _ => 1%R end.
(** Softmax needs labels that sum to 1. *)
Definition labels_fit (k : okind) (y : rmat) : Prop := match k with OSoftmax => forall r, r < nr y -> sumN (nc y) (fun j => at_ y r j) = 1%R | _ => True end.
(** Upper bound for the curvature of the objective: curvature times the mean of 1 + |x_r|^2, plus lam. *)
Definition total_curvature (k : okind) (x : rmat) (lam : R) : R :=
  (curvature k * (sumN (nr x) (fun r => 1 + sumN (nc x) (fun i => at_ x r i * at_ x r i)) / INR (nr x)) + lam)%R.

(** ** Proof *)
Definition kphi (k : okind) (y : rmat) (r : nat) (z : nat -> R) : R :=
  match k with
  | OQuad => sumN (nc y) (fun j => (at_ y r j - z j) * (at_ y r j - z j) / 2)%R
  | OLogistic => sumN (nc y) (fun j => - (at_ y r j * ln (sig (z j)) + (1 - at_ y r j) * ln (1 - sig (z j))))%R
  | OSoftmax => sumN (nc y) (fun j => - (at_ y r j * ln (smx (nc y) z j)))%R
  end.
Definition kgr (k : okind) (y : rmat) (r : nat) (z : nat -> R) (j : nat) : R :=
  match k with OQuad => z j - at_ y r j | OLogistic => sig (z j) - at_ y r j | OSoftmax => smx (nc y) z j - at_ y r j end%R.
Lemma k_smooth k y r : 1 <= nc y -> labels_fit k y -> r < nr y -> smooth_convex (nc y) (curvature k) (kphi k y r) (kgr k y r).
Proof.
  intros Hc HL Hr. destruct k; cbn [curvature kphi kgr].
  - apply (quad_smooth (nc y) (fun j => at_ y r j)).
  - apply (logistic_smooth (nc y) (fun j => at_ y r j)).
  - apply (smx_smooth (nc y) (fun j => at_ y r j)); [exact Hc|now apply HL].
Qed.
Lemma kgr_ext k y r z z' : (forall j, j < nc y -> z j = z' j) -> forall j, j < nc y -> kgr k y r z j = kgr k y r z' j.
Proof.
  intros E j Hj. destruct k; cbn [kgr]; try (now rewrite E). unfold smx. rewrite E by assumption. rewrite (sumN_ext (nc y) (fun k => exp (z k)) (fun k => exp (z' k))) by (intros i Hi; now rewrite E). reflexivity.
Qed.
Lemma pre_Z (W x : rmat) r j : r < nr x -> nr W = nc x + 1 -> pre W x r j = ZZ (nc x + 1) (Xb x) (at_ W) r j.
Proof. intros Hr HW. rewrite pre_ap by assumption. unfold ap, ZZ, dot, col. now rewrite HW. Qed.
Definition kF (k : okind) (x y : rmat) (lam : R) (W : nat -> nat -> R) : R := FF (nr x) (nc x + 1) (nc y) (Xb x) (kphi k y) lam W.
Definition kstep (k : okind) (x y : rmat) (lam eta : R) : (nat -> nat -> R) -> nat -> nat -> R := step (nr x) (nc x + 1) (Xb x) (kgr k y) lam eta.
Definition kiter (k : okind) (x y : rmat) (lam eta : R) : (nat -> nat -> R) -> nat -> nat -> nat -> R := iter (nr x) (nc x + 1) (Xb x) (kgr k y) lam eta.

Lemma k_forward junk k (n : rnet) (H : rheap) (x : rmat) p c eta lam : single_net k n p c eta lam -> 1 <= nr x -> 1 <= p -> nc x = p ->
  net_forward (D := Rdt) junk n H x =
  Ok (fwd_out (o_l (n_output n)) x,
      set_result (set_output (set_input n (snd (input_forward (n_input n) x))) (O (fwd_layer (o_l (n_output n)) x) (o_cost (n_output n)) (o_costd (n_output n)) (o_y (n_output n)))) (fwd_out (o_l (n_output n)) x), H).
Proof.
  intros (E & _ & _ & _ & E4 & _) Hn Hp Hc. rewrite (net_forward_dense (D := Rdt) junk n H []) by (split; rewrite E; constructor). cbn [lforward bind].
  rewrite out_forward_ok by (unfold fwd_ok; lia). cbn [bind]. rewrite E. reflexivity.
Qed.
Lemma sig_act v : act (sigmoid (D := Rdt)) v = sig v. Proof. reflexivity. Qed.
Lemma k_costd k (n : rnet) (x y : rmat) p c eta lam z : single_net k n p c eta lam -> samples p c (x, y) ->
  kcostd k y (fwd_out (o_l (n_output n)) x) z = Ok (mk (D := Rdt) (nr x) c (fun i j => kgr k y i (ZZ (nc x + 1) (Xb x) (at_ (weights n)) i) j / INR (nr x))%R).
Proof.
  intros (E1 & E2 & E3 & E4 & E5 & E6 & _) (S1 & S2 & S3 & S4). cbn [fst snd] in *. unfold fwd_out. rewrite E4, E6.
  destruct k; cbn [kcostd kact kgr]; [rewrite quad_costd_mk by lia|rewrite ce_costd_mk by lia|rewrite sm_costd_mk by lia]; f_equal; apply (mk_ext (D := Rdt)); intros i j Hi Hj.
  - cbn [act identity]. rewrite pre_Z by lia. reflexivity.
  - rewrite sig_act, pre_Z by lia. reflexivity.
  - change ((exp (pre (l_W (o_l (n_output n))) x i j) * (1 / sumN c (fun l => exp (pre (l_W (o_l (n_output n))) x i l))) - at_ y i j) / INR (nr x) = (smx (nc y) (ZZ (nc x + 1) (Xb x) (at_ (weights n)) i) j - at_ y i j) / INR (nr x))%R.
    rewrite (sumN_ext c (fun l => exp (pre (l_W (o_l (n_output n))) x i l)) (fun l => exp (ZZ (nc x + 1) (Xb x) (at_ (weights n)) i l))) by (intros l _; now rewrite pre_Z by lia). rewrite pre_Z by lia. unfold smx. now rewrite S4.
Qed.
Lemma sumN_div n f (v : R) : (sumN n f / v = sumN n (fun i => f i / v))%R.
Proof. unfold Rdiv. now rewrite sumN_scal_r. Qed.
Lemma k_cost k (n : rnet) (x y : rmat) p c eta lam : single_net k n p c eta lam -> samples p c (x, y) ->
  exists J, kcost k y (fwd_out (o_l (n_output n)) x) = Ok J /\ sumall J = (sumN (nr x) (fun r => kphi k y r (ZZ (nc x + 1) (Xb x) (at_ (weights n)) r)) / INR (nr x))%R.
Proof.
  intros (E1 & E2 & E3 & E4 & E5 & E6 & _) (S1 & S2 & S3 & S4). cbn [fst snd] in *. unfold fwd_out. rewrite E4, E6.
  destruct k; cbn [kcost kact kphi]; [rewrite quad_cost_mk by lia|rewrite ce_cost_mk by lia|rewrite sm_cost_mk by lia]; (eexists; split; [reflexivity|]); unfold sumall; rewrite accu_mk, sumN_swap; rewrite sumN_div; apply sumN_ext; intros r Hr; rewrite S4, sumN_div; apply sumN_ext; intros j Hj.
  - cbn [act identity]. rewrite !pre_Z by lia. reflexivity.
  - rewrite sig_act, pre_Z by lia. reflexivity.
  - change (- (at_ y r j * ln (exp (pre (l_W (o_l (n_output n))) x r j) * (1 / sumN c (fun l => exp (pre (l_W (o_l (n_output n))) x r l))))) / INR (nr x) = - (at_ y r j * ln (smx c (ZZ (nc x + 1) (Xb x) (at_ (weights n)) r) j)) / INR (nr x))%R.
    rewrite (sumN_ext c (fun l => exp (pre (l_W (o_l (n_output n))) x r l)) (fun l => exp (ZZ (nc x + 1) (Xb x) (at_ (weights n)) r l))) by (intros l _; now rewrite pre_Z by lia). rewrite pre_Z by lia. reflexivity.
Qed.
Lemma k_objective junk k (n : rnet) (H : rheap) (x y : rmat) p c eta lam : single_net k n p c eta lam -> 1 <= p -> samples p c (x, y) ->
  objective junk n H x y = Ok (kF k x y lam (at_ (weights n))).
Proof.
  intros Hl Hp Hs. destruct (k_cost k n x y p c eta lam Hl Hs) as (J & EJ & SJ). destruct Hs as (S1 & S2 & S3 & S4). cbn [fst snd] in *. pose proof Hl as (E1 & E2 & E3 & E4 & E5 & E6 & E7 & E8).
  unfold objective. rewrite (k_forward junk k n H x p c eta lam) by (assumption || lia). cbn [bind]. unfold net_computecost. cbn [n_cost set_result set_output set_input]. rewrite E3, EJ. cbn [bind].
  unfold hidden_layers. rewrite E1. cbn [length seq mapM bind map sumL fold_right]. rewrite SJ, E8, Rplus_0_r. unfold kF, FF. do 3 f_equal. unfold sqnorm, inner, ip, weights. rewrite E5, E6, S2, S4. reflexivity.
Qed.
Lemma k_train_step junk k (t : trainer Rdt) (n : rnet) (H : rheap) (x y : rmat) p c eta lam :
  single_net k n p c eta lam -> no_decay t -> 1 <= p -> samples p c (x, y) ->
  exists t' n', feeddata (D := Rdt) junk t n H x y = Ok (t', n', H) /\ no_decay t' /\ single_net k n' p c eta lam /\
    forall i j, i < p + 1 -> j < c -> at_ (weights n') i j = kstep k x y lam eta (at_ (weights n)) i j.
Proof.
  intros Hl Ht Hp Hs. pose proof (k_costd k n x y p c eta lam (l_z (fwd_layer (o_l (n_output n)) x)) Hl Hs) as Ed. destruct Hs as (S1 & S2 & S3 & S4). cbn [fst snd] in *. pose proof Hl as (E1 & E2 & E3 & E4 & E5 & E6 & E7 & E8).
  unfold feeddata, decay. cbn [tick t_usedecay]. rewrite Ht. cbn [andb bind]. unfold train_step. rewrite (k_forward junk k n H x p c eta lam) by (assumption || lia). cbn [bind].
  match goal with |- context [net_backprop _ ?m _ _] => set (n1 := m) end.
  assert (Hd1 : dense_net n1 H []) by (split; cbn; rewrite E1; constructor).
  rewrite (net_backprop_dense (D := Rdt) junk n1 H [] y Hd1).
  set (delta := mk (D := Rdt) (nr x) c (fun i j => kgr k y i (ZZ (nc x + 1) (Xb x) (at_ (weights n)) i) j / INR (nr x))%R) in *.
  assert (Ed' : o_costd (n_output n1) y (l_a (o_l (n_output n1))) (l_z (o_l (n_output n1))) = Ok delta) by (cbn [n1 set_result set_output set_input n_output o_costd o_l fwd_layer l_a l_z] in *; rewrite E2; exact Ed).
  rewrite (out_backprop_ok (n_output n1) y delta); [|exact Ed'|reflexivity|cbn; lia|cbn; unfold delta; cbn; lia|cbn; lia]. cbn [bind lbackprop].
  change (n_hidden n1) with (n_hidden n). rewrite E1. cbn [put_layers].
  rewrite (net_update_ok _ H []); [|split; cbn; rewrite E1; constructor| |constructor].
  2:{ split; cbn; [lia|reflexivity || lia]. }
  do 2 eexists. split; [cbn; rewrite E1; cbn; reflexivity|]. split; [exact Ht|]. split.
  - repeat split; cbn; auto.
  - intros i j Hi Hj. unfold weights. cbn [n_output set_output with_layer o_l stepped set_W l_W back_layer fwd_layer n1 set_result set_input l_lrate l_grad].
    rewrite (at_mk (D := Rdt)) by lia. rewrite E7. unfold grad_of. cbn [l_pa fwd_layer l_lambda l_W nc mk]. rewrite (at_mk (D := Rdt)) by (unfold delta; cbn; lia).
    rewrite (at_raw _ delta x) by (first [reflexivity|unfold delta; cbn; lia]). rewrite E8. unfold kstep, step, GG.
    assert (Es : sumN (nr x) (fun r => with_bias x r i * at_ delta r j)%R = (sumN (nr x) (fun r => Xb x r i * kgr k y r (ZZ (nc x + 1) (Xb x) (at_ (weights n)) r) j) / INR (nr x))%R).
    { unfold Rdiv. rewrite <- sumN_scal_r. apply sumN_ext. intros r Hr. unfold delta. rewrite (at_mk (D := Rdt)) by (cbn; lia). unfold Xb, Rdiv. toR. ring. }
    toR. match goal with |- @eq _ ?a ?b => change (@eq R a b) end. cbn [dsub dmul dadd Rdt]. toR. rewrite Es. unfold weights. reflexivity.
Qed.

(** ** C86 *)
Lemma curv_pos k : (0 <= curvature k)%R. Proof. destruct k; cbn; lra. Qed.
Lemma SX_x (x : rmat) : SX (nr x) (nc x + 1) (Xb x) = (sumN (nr x) (fun r => 1 + sumN (nc x) (fun i => at_ x r i * at_ x r i)) / INR (nr x))%R.
Proof.
  unfold SX. f_equal. apply sumN_ext. intros r Hr. unfold dot. rewrite Nat.add_1_r, sumN_S. unfold Xb. cbn [with_bias]. f_equal. cbn. lra.
Qed.
Lemma k_LL k (x : rmat) lam : LL (nr x) (nc x + 1) (Xb x) (curvature k) lam = total_curvature k x lam.
Proof. unfold LL, total_curvature. now rewrite SX_x. Qed.
Lemma ip_dist2 (W V : rmat) m c : nr W = m -> nc W = c -> ip m c (diff (at_ W) (at_ V)) (diff (at_ W) (at_ V)) = dist2 W V.
Proof. intros <- <-. reflexivity. Qed.
Lemma k_train junk k (t : trainer Rdt) (n : rnet) (H : rheap) (x y : rmat) p c eta lam :
  single_net k n p c eta lam -> no_decay t -> 1 <= p -> samples p c (x, y) ->
  forall K, exists t' n', train junk t n H x y K = Ok (t', n', H) /\ no_decay t' /\ single_net k n' p c eta lam /\
    eqW (nc x + 1) (nc y) (at_ (weights n')) (kiter k x y lam eta (at_ (weights n)) K).
Proof.
  intros Hl Ht Hp Hs. induction K as [|K IH].
  - exists t, n. split; [reflexivity|]. split; [exact Ht|]. split; [exact Hl|]. intros i j _ _. reflexivity.
  - destruct IH as (t1 & n1 & E1 & T1 & L1 & W1). destruct (k_train_step junk k t1 n1 H x y p c eta lam L1 T1 Hp Hs) as (t2 & n2 & E2 & T2 & L2 & W2).
    exists t2, n2. rewrite train_S, E1. cbn [bind]. split; [exact E2|]. split; [exact T2|]. split; [exact L2|]. pose proof Hs as (_ & S2 & _ & S4). cbn [fst snd] in S2, S4.
    intros i j Hi Hj. rewrite W2 by lia. unfold kstep, kiter. cbn [iter]. refine (step_ext (nr x) (nc x + 1) (nc y) (Xb x) (kgr k y) lam (fun r => kgr_ext k y r) eta _ _ W1 i j Hi Hj).
Qed.
Section C86.
Context (junk : nat -> R) (k : okind) (t : trainer Rdt) (n : rnet) (H : rheap) (x y : rmat) (p c : nat) (eta lam : R).
Context (Hn : single_net k n p c eta lam) (Ht : no_decay t) (Hp : 1 <= p) (Hc : 1 <= c) (Hs : samples p c (x, y)) (HL : labels_fit k y) (He : (0 < eta)%R).
Lemma k_sm r : r < nr x -> smooth_convex (nc y) (curvature k) (kphi k y r) (kgr k y r).
Proof. destruct Hs as (_ & _ & S3 & S4). cbn [fst snd] in *. intros. apply k_smooth; [lia|exact HL|lia]. Qed.
Lemma k_run K t' n' H' J : train junk t n H x y K = Ok (t', n', H') -> objective junk n' H' x y = Ok J ->
  H' = H /\ single_net k n' p c eta lam /\ eqW (nc x + 1) (nc y) (at_ (weights n')) (kiter k x y lam eta (at_ (weights n)) K) /\ J = kF k x y lam (kiter k x y lam eta (at_ (weights n)) K).
Proof.
  intros E EJ. destruct (k_train junk k t n H x y p c eta lam Hn Ht Hp Hs K) as (t1 & n1 & E1 & _ & L1 & W1). pose proof (eq_trans (eq_sym E) E1) as Q. injection Q as -> -> ->. split; [reflexivity|]. split; [exact L1|]. split; [exact W1|].
  rewrite (k_objective junk k n1 H x y p c eta lam L1 Hp Hs) in EJ. injection EJ as <-. unfold kF. exact (F_ext (nr x) (nc x + 1) (nc y) (Xb x) (kphi k y) (kgr k y) (curvature k) lam k_sm _ _ W1).
Qed.
End C86.
(** Every number of calls goes through and the objective is defined. *)
Theorem C86_runs : forall junk k (t : trainer Rdt) (n : rnet) (H : rheap) (x y : rmat) p c eta lam,
  single_net k n p c eta lam -> no_decay t -> 1 <= p -> samples p c (x, y) ->
  forall K, exists t' n' J, train junk t n H x y K = Ok (t', n', H) /\ single_net k n' p c eta lam /\ objective junk n' H x y = Ok J.
Proof.
  intros junk k t n H x y p c eta lam Hn Ht Hp Hs K. destruct (k_train junk k t n H x y p c eta lam Hn Ht Hp Hs K) as (t' & n' & E & _ & L & _). exists t', n'. eexists. split; [exact E|]. split; [exact L|]. now apply (k_objective junk k n' H x y p c eta lam).
Qed.
(** With a rate up to 2 / curvature the objective never increases. *)
Theorem C86_monotone : forall junk k (t : trainer Rdt) (n : rnet) (H : rheap) (x y : rmat) p c eta lam,
  single_net k n p c eta lam -> no_decay t -> 1 <= p -> 1 <= c -> samples p c (x, y) -> labels_fit k y -> (0 < eta)%R -> (eta * total_curvature k x lam <= 2)%R ->
  forall K K' t1 n1 H1 J1 t2 n2 H2 J2, K <= K' -> train junk t n H x y K = Ok (t1, n1, H1) -> objective junk n1 H1 x y = Ok J1 ->
    train junk t n H x y K' = Ok (t2, n2, H2) -> objective junk n2 H2 x y = Ok J2 -> (J2 <= J1)%R.
Proof.
  intros junk k t n H x y p c eta lam Hn Ht Hp Hc Hs HL He Hr K K' t1 n1 H1 J1 t2 n2 H2 J2 HK E1 O1 E2 O2.
  destruct (k_run junk k t n H x y p c eta lam Hn Ht Hp Hc Hs HL _ _ _ _ _ E1 O1) as (_ & _ & _ & ->). destruct (k_run junk k t n H x y p c eta lam Hn Ht Hp Hc Hs HL _ _ _ _ _ E2 O2) as (_ & _ & _ & ->).
  replace K' with (K + (K' - K)) by lia. unfold kF, kiter. apply (iter_mono (nr x) (nc x + 1) (nc y) (proj1 Hs) (Xb x) (kphi k y) (kgr k y) (curvature k) lam (curv_pos k)); [|exact He|now rewrite k_LL]. intros r Hr'. now apply (k_sm k x y p c Hp Hc Hs HL).
Qed.
(** With a rate up to 1 / curvature: after K calls the objective exceeds that of any other network m of this kind by at most |W_m - W_n|^2 / (2 eta K). *)
Theorem C86_rate : forall junk k (t : trainer Rdt) (n : rnet) (H : rheap) (x y : rmat) p c eta lam,
  single_net k n p c eta lam -> no_decay t -> 1 <= p -> 1 <= c -> samples p c (x, y) -> labels_fit k y -> (0 < eta)%R -> (0 <= lam)%R -> (eta * total_curvature k x lam <= 1)%R ->
  forall K t' n' H' J junk' m I eta' J', 1 <= K -> train junk t n H x y K = Ok (t', n', H') -> objective junk n' H' x y = Ok J ->
    single_net k m p c eta' lam -> objective junk' m I x y = Ok J' ->
    (J <= J' + dist2 (weights n) (weights m) / (2 * eta * INR K))%R.
Proof.
  intros junk k t n H x y p c eta lam Hn Ht Hp Hc Hs HL He Hl Hr K t' n' H' J junk' m I eta' J' HK E O Hm O'.
  destruct (k_run junk k t n H x y p c eta lam Hn Ht Hp Hc Hs HL _ _ _ _ _ E O) as (_ & _ & _ & ->). rewrite (k_objective junk' k m I x y p c eta' lam Hm Hp Hs) in O'. injection O' as <-.
  pose proof Hn as (_ & _ & _ & _ & N1 & N2 & _). pose proof Hs as (S1 & S2 & S3 & S4). cbn [fst snd] in *. rewrite <- (ip_dist2 _ _ (nc x + 1) (nc y)) by (unfold weights; lia).
  unfold kF, kiter. apply (gd_rate (nr x) (nc x + 1) (nc y) S1 (Xb x) (kphi k y) (kgr k y) (curvature k) lam (curv_pos k)); [|exact He|now rewrite k_LL|exact Hl|exact HK]. intros r Hr'. now apply (k_sm k x y p c Hp Hc Hs HL).
Qed.
Lemma sq_pos (v : R) : (0 <= v * v)%R. Proof. nra. Qed.
(** So it gets as close as one likes to the best possible value. *)
Theorem C86_limit : forall junk k (t : trainer Rdt) (n : rnet) (H : rheap) (x y : rmat) p c eta lam,
  single_net k n p c eta lam -> no_decay t -> 1 <= p -> 1 <= c -> samples p c (x, y) -> labels_fit k y -> (0 < eta)%R -> (0 <= lam)%R -> (eta * total_curvature k x lam <= 1)%R ->
  forall junk' m I eta' J' eps, single_net k m p c eta' lam -> objective junk' m I x y = Ok J' -> (0 < eps)%R ->
  exists K0, forall K t' n' H' J, K0 <= K -> train junk t n H x y K = Ok (t', n', H') -> objective junk n' H' x y = Ok J -> (J <= J' + eps)%R.
Proof.
  intros junk k t n H x y p c eta lam Hn Ht Hp Hc Hs HL He Hl Hr junk' m I eta' J' eps Hm O' Hep.
  set (D := dist2 (weights n) (weights m)). destruct (archimed_cor1 (eps * (2 * eta) / (D + 1))) as (K0 & HK0 & PK0).
  { assert (0 <= D)%R by (unfold D, dist2; do 2 (apply sumN_nonneg; intros); apply sq_pos). apply Rdiv_lt_0_compat; [apply Rmult_lt_0_compat; lra|lra]. }
  exists K0. intros K t' n' H' J HK E O. assert (PD : (0 <= D)%R) by (unfold D, dist2; do 2 (apply sumN_nonneg; intros); apply sq_pos).
  eapply Rle_trans; [apply (C86_rate junk k t n H x y p c eta lam Hn Ht Hp Hc Hs HL He Hl Hr K t' n' H' J junk' m I eta' J'); (assumption || lia)|]. fold D. apply Rplus_le_compat_l.
  assert (P0 : (0 < INR K0)%R) by (now apply lt_0_INR). assert (P1 : (INR K0 <= INR K)%R) by (now apply le_INR).
  assert (A : (1 < eps * (2 * eta) / (D + 1) * INR K0)%R). { apply (Rmult_lt_compat_r (INR K0)) in HK0; [|exact P0]. rewrite Rinv_l in HK0 by lra. exact HK0. }
  assert (B : (D + 1 < eps * (2 * eta) * INR K0)%R). { apply (Rmult_lt_compat_r (D + 1)) in A; [|lra]. replace (eps * (2 * eta) / (D + 1) * INR K0 * (D + 1))%R with (eps * (2 * eta) * INR K0)%R in A by (field; lra). lra. }
  assert (P2 : (0 < 2 * eta * INR K)%R) by nra. apply (Rmult_le_reg_r (2 * eta * INR K)); [exact P2|]. replace (D / (2 * eta * INR K) * (2 * eta * INR K))%R with D by (field; split; lra). assert (eps * (2 * eta) * INR K0 <= eps * (2 * eta) * INR K)%R by (apply Rmult_le_compat_l; nra). lra.
Qed.
(** With regularisation, the weights approach those of an optimal network m geometrically. *)
Theorem C86_optimum : forall junk k (t : trainer Rdt) (n : rnet) (H : rheap) (x y : rmat) p c eta lam,
  single_net k n p c eta lam -> no_decay t -> 1 <= p -> 1 <= c -> samples p c (x, y) -> labels_fit k y -> (0 < eta)%R -> (0 <= lam)%R -> (eta * total_curvature k x lam <= 1)%R ->
  forall junk' m I eta' J', single_net k m p c eta' lam -> objective junk' m I x y = Ok J' ->
  (forall n0 H0 J0, single_net k n0 p c eta lam -> objective junk n0 H0 x y = Ok J0 -> (J' <= J0)%R) ->
  (0 <= 1 - eta * lam <= 1)%R /\ forall K t' n' H', train junk t n H x y K = Ok (t', n', H') -> (dist2 (weights n') (weights m) <= (1 - eta * lam) ^ K * dist2 (weights n) (weights m))%R.
Proof.
  intros junk k t n H x y p c eta lam Hn Ht Hp Hc Hs HL He Hl Hr junk' m I eta' J' Hm O' HO. pose proof Hs as (S1 & S2 & S3 & S4). cbn [fst snd] in *.
  assert (SM : forall r, r < nr x -> smooth_convex (nc y) (curvature k) (kphi k y r) (kgr k y r)) by (intros; now apply (k_sm k x y p c Hp Hc Hs HL)).
  split.
  { pose proof (SX_pos (nr x) (nc x + 1) S1 (Xb x)) as P. rewrite <- k_LL in Hr. unfold LL in Hr. pose proof (curv_pos k). assert (0 <= eta * (curvature k * SX (nr x) (nc x + 1) (Xb x)))%R by (apply Rmult_le_pos; [lra|now apply Rmult_le_pos]). assert (0 <= eta * lam)%R by (apply Rmult_le_pos; lra). lra. }
  intros K t' n' H' E. rewrite (k_objective junk' k m I x y p c eta' lam Hm Hp Hs) in O'. injection O' as <-.
  destruct (k_train junk k t n H x y p c eta lam Hn Ht Hp Hs K) as (t1 & n1 & E1 & _ & L1 & W1). pose proof (eq_trans (eq_sym E) E1) as Q. injection Q as -> -> ->.
  pose proof Hn as (_ & _ & _ & _ & N1 & N2 & _). pose proof L1 as (_ & _ & _ & _ & N3 & N4 & _).
  rewrite <- (ip_dist2 (weights n1) _ (nc x + 1) (nc y)), <- (ip_dist2 (weights n) _ (nc x + 1) (nc y)) by (unfold weights; lia).
  rewrite (ip_ext (nc x + 1) (nc y) _ (diff (kiter k x y lam eta (at_ (weights n)) K) (at_ (weights m))) _ (diff (kiter k x y lam eta (at_ (weights n)) K) (at_ (weights m)))) by (intros i j Hi Hj; unfold diff; now rewrite W1).
  apply (gd_contract (nr x) (nc x + 1) (nc y) S1 (Xb x) (kphi k y) (kgr k y) (curvature k) lam (curv_pos k) SM); [exact He|now rewrite k_LL|exact Hl|].
  intros k0. destruct (k_train junk k t n H x y p c eta lam Hn Ht Hp Hs k0) as (t2 & n2 & E2 & _ & L2 & W2).
  pose proof (HO n2 H _ L2 (k_objective junk k n2 H x y p c eta lam L2 Hp Hs)) as A. unfold kF in A. rewrite (F_ext (nr x) (nc x + 1) (nc y) (Xb x) (kphi k y) (kgr k y) (curvature k) lam SM _ _ W2) in A. exact A.
Qed.
(** The hypotheses are what the constructors give: an InputLayer, one of the three outputs (p, c, eta, s, lam) and no hidden layer, for every standard deviation and every stream of draws. *)
Definition koutput (k : okind) := match k with OQuad => quadratic_output (D := Rdt) | OLogistic => crossentropy_output (D := Rdt) | OSoftmax => softmax_output (D := Rdt) end.
Theorem C86_constructed : forall k draw junk (i : layer Rdt) o (n : rnet) p c eta s lam,
  koutput k draw junk (Z.of_nat p) (Z.of_nat c) eta s lam = Ok o ->
  net_new (D := Rdt) draw junk i o [] = Ok n -> single_net k n p c eta lam /\ no_decay (trainer_new (D := Rdt)).
Proof.
  intros k draw junk i o n p c eta s lam E1 E2. unfold net_new in E2.
  destruct (input_copy draw junk i); cbn [bind] in E2; try discriminate. destruct (input_copy draw junk a); cbn [bind] in E2; try discriminate. injection E2 as <-.
  destruct k; cbn [koutput] in E1; unfold quadratic_output, crossentropy_output, softmax_output, output_of, layer_new in E1; (destruct (_ && _); cbn [bind] in E1; [|discriminate]); injection E1 as <-; (split; [|reflexivity]); repeat split; cbn; lia.
Qed.
(** Logistic regression on the samples 1 and -1 with labels 1 and 0, weights 0, rate 1: curvature 1/2, and one call moves the weight to 1/2. *)
Definition c86y : rmat := mk (D := Rdt) 2 1 (fun i _ => if i =? 0 then 1 else 0)%R.
Example C86_example : exists (n : rnet), single_net OLogistic n 1 1 1 0 /\ samples (D := Rdt) 1 1 (c63x, c86y) /\ labels_fit OLogistic c86y /\
  total_curvature OLogistic c63x 0 = (1 / 2)%R /\ (1 * total_curvature OLogistic c63x 0 <= 1)%R /\
  exists t' n' H', feeddata (D := Rdt) (fun _ => 0%R) (trainer_new (D := Rdt)) n [] c63x c86y = Ok (t', n', H') /\ at_ (weights n') 1 0 = (1 / 2)%R.
Proof.
  set (W := mk (D := Rdt) 2 1 (fun i _ => 0)%R).
  set (n := N (D := Rdt) mempty ce_cost ce_costd (L (D := Rdt) 0%R 0%R identity mempty mempty mempty mempty mempty mempty) [] (O (D := Rdt) (L (D := Rdt) 1%R 0%R sigmoid mempty mempty mempty mempty W mempty) ce_cost ce_costd mempty)).
  assert (Hl : single_net OLogistic n 1 1 1 0) by (repeat split).
  assert (Hs : samples (D := Rdt) 1 1 (c63x, c86y)) by (repeat split; cbn; lia).
  assert (Sm : total_curvature OLogistic c63x 0 = (1 / 2)%R).
  { unfold total_curvature. cbn [curvature c63x nr nc mk]. rewrite !sumN_S, !sumN_0. unfold c63x. rewrite !(at_mk (D := Rdt)) by lia. cbn [Nat.eqb INR]. field. }
  exists n. split; [exact Hl|]. split; [exact Hs|]. split; [exact I|]. split; [exact Sm|]. split; [rewrite Sm; lra|].
  destruct (k_train_step (fun _ => 0%R) OLogistic (trainer_new (D := Rdt)) n [] c63x c86y 1 1 1 0 Hl eq_refl ltac:(lia) Hs) as (t' & n' & E & _ & _ & EW).
  exists t', n', []. split; [exact E|]. rewrite EW by lia. change (weights n) with W. unfold kstep, step, GG, ZZ. cbn [kgr c63x nr nc mk]. rewrite !sumN_S, !sumN_0. unfold Xb, with_bias, c63x, c86y, W. rewrite !(at_mk (D := Rdt)) by lia. cbn [Nat.eqb Nat.ltb Nat.leb].
  match goal with |- @eq _ ?a ?b => change (@eq R a b) end. toR. cbn [INR].
  assert (S0 : forall v, v = 0%R -> sig v = (1 / 2)%R) by (intros v ->; unfold sig; rewrite Ropp_0, exp_0; field).
  rewrite !S0 by (cbn; lra). cbn. field.
Qed.

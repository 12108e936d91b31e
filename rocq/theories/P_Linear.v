(** P_Linear.v - C63: training a network without hidden layers and with a quadratic output is gradient descent on
    (regularised) least squares: monotone objective, summable steps, contraction, convergence to the optimum. *)
From Coq Require Import Reals Lra Psatz.
From Coquelicot Require Import Coquelicot.
From Verif Require Import Base Mat Act Layer Conv Misc Net NetP RInst RMat P_Act Grad P_Grad Trainer TrainP TrainP2 P_Train FunEq P_Mom P_Descent LinReg.
From Coq Require Import Arith.
Local Open Scope nat_scope.

(** ** Specification *)
(** A network without hidden layers whose output layer is a QuadraticOutput with p inputs and c outputs (identity
    activation, quadratic cost), learning rate eta and regularisation lam. *)
Definition linear_net (n : rnet) (p c : nat) (eta lam : R) : Prop :=
  n_hidden n = [] /\ o_costd (n_output n) = quad_costd /\ n_cost n = quad_cost /\
  let l := o_l (n_output n) in
  l_act l = identity /\ nr (l_W l) = p + 1 /\ nc (l_W l) = c /\ l_lrate l = eta /\ l_lambda l = lam.
(** K calls of feeddata(x, y) on the same data. *)
Definition train (junk : nat -> R) (t : trainer Rdt) (n : rnet) (H : rheap) (x y : rmat) (K : nat) : res (trainer Rdt * rnet * rheap) :=
  foldM (fun '(t, n, H) _ => feeddata (D := Rdt) junk t n H x y) (repeat tt K) (t, n, H).
(** The weights of the output layer, squared distance of two weight matrices. *)
Definition weights (n : rnet) : rmat := l_W (o_l (n_output n)).
Definition dist2 (W V : rmat) : R := sumN (nr W) (fun i => sumN (nc W) (fun j => (at_ W i j - at_ V i j) * (at_ W i j - at_ V i j))%R).
(** Mean over the samples of 1 + |x_r|^2, plus lambda. *)
Definition smoothness (x : rmat) (lam : R) : R :=
  (sumN (nr x) (fun r => 1 + sumN (nc x) (fun i => at_ x r i * at_ x r i)) / INR (nr x) + lam)%R.
(** The trainer never decays the rate. *)
Definition no_decay (t : trainer Rdt) : Prop := t_usedecay t = false.

(** ** Proof *)
Definition Xb (x : rmat) (r i : nat) : R := with_bias (D := Rdt) x r i.
Definition col (W : rmat) (j i : nat) : R := at_ W i j.
Definition stepW (eta lam : R) (x y W : rmat) : rmat :=
  mk (D := Rdt) (nr W) (nc W) (fun i j => col W j i - eta * gradF (nr x) (nr W) (Xb x) lam (fun r => at_ y r j) (col W j) i)%R.
Lemma pre_ap (W x : rmat) r j : r < nr x -> nr W = nc x + 1 -> pre W x r j = ap (nr W) (Xb x) (col W j) r.
Proof.
  intros Hr HW. rewrite pre_R by assumption. unfold ap, dot, Xb, col. rewrite HW, Nat.add_1_r, sumN_S. cbn [with_bias].
  match goal with |- @eq _ ?a ?b => change (@eq R a b) end. cbn. toR. lra.
Qed.
Lemma lin_forward junk (n : rnet) (H : rheap) (x : rmat) p c eta lam : linear_net n p c eta lam -> 1 <= nr x -> 1 <= p -> nc x = p ->
  net_forward (D := Rdt) junk n H x =
  Ok (fwd_out (o_l (n_output n)) x,
      set_result (set_output (set_input n (snd (input_forward (n_input n) x))) (O (fwd_layer (o_l (n_output n)) x) (o_cost (n_output n)) (o_costd (n_output n)) (o_y (n_output n)))) (fwd_out (o_l (n_output n)) x), H).
Proof.
  intros (E & _ & _ & _ & E4 & _) Hn Hp Hc. rewrite (net_forward_dense (D := Rdt) junk n H []) by (split; rewrite E; constructor). cbn [lforward bind].
  rewrite out_forward_ok by (unfold fwd_ok; lia). cbn [bind]. rewrite E. reflexivity.
Qed.
Lemma lin_step junk (t : trainer Rdt) (n : rnet) (H : rheap) (x y : rmat) p c eta lam :
  linear_net n p c eta lam -> no_decay t -> 1 <= p -> samples p c (x, y) ->
  exists t' n', feeddata (D := Rdt) junk t n H x y = Ok (t', n', H) /\ no_decay t' /\ linear_net n' p c eta lam /\ weights n' = stepW eta lam x y (weights n).
Proof.
  intros Hl Ht Hp (S1 & S2 & S3 & S4). cbn [fst snd] in *. pose proof Hl as (E1 & E2 & E3 & E4 & E5 & E6 & E7 & E8).
  unfold feeddata, decay. cbn [tick t_usedecay]. rewrite Ht. cbn [andb bind]. unfold train_step. rewrite (lin_forward junk n H x p c eta lam) by (assumption || lia). cbn [bind].
  match goal with |- context [net_backprop _ ?m _ _] => set (n1 := m) end.
  assert (Hd1 : dense_net n1 H []) by (split; cbn; rewrite E1; constructor).
  rewrite (net_backprop_dense (D := Rdt) junk n1 H [] y Hd1).
  set (delta := mk (D := Rdt) (nr x) c (fun i j => (pre (weights n) x i j - at_ y i j) / INR (nr x))%R).
  assert (Ed : o_costd (n_output n1) y (l_a (o_l (n_output n1))) (l_z (o_l (n_output n1))) = Ok delta).
  { cbn. rewrite E2. unfold fwd_out. rewrite E4. cbn [act identity]. rewrite quad_costd_mk by lia. f_equal. unfold delta, weights. rewrite E6. reflexivity. }
  rewrite (out_backprop_ok (n_output n1) y delta); [|exact Ed|reflexivity|cbn; lia|cbn; unfold delta; cbn; lia|cbn; lia]. cbn [bind lbackprop].
  change (n_hidden n1) with (n_hidden n). rewrite E1. cbn [put_layers].
  rewrite (net_update_ok _ H []); [|split; cbn; rewrite E1; constructor| |constructor].
  2:{ split; cbn; [lia|reflexivity || lia]. }
  do 2 eexists. split; [cbn; rewrite E1; cbn; reflexivity|]. split; [exact Ht|]. split.
  - repeat split; cbn; auto.
  - unfold weights, stepW. cbn [n_output set_output with_layer o_l stepped set_W l_W back_layer fwd_layer n1 set_result set_input l_lrate l_grad].
    apply (mk_ext (D := Rdt)). intros i j Hi Hj. unfold col at 1. rewrite E7. unfold grad_of. cbn [l_pa fwd_layer l_lambda l_W nc mk]. rewrite (at_mk (D := Rdt)) by (unfold delta; cbn; lia).
    rewrite (at_raw _ delta x) by (first [reflexivity|unfold delta; cbn; lia]). rewrite E8. unfold gradF, adj.
    assert (Es : sumN (nr x) (fun r => with_bias x r i * at_ delta r j)%R = (sumN (nr x) (fun r => Xb x r i * (ap (nr (l_W (o_l (n_output n)))) (Xb x) (col (l_W (o_l (n_output n))) j) r - at_ y r j)) / INR (nr x))%R).
    { unfold Rdiv. rewrite <- sumN_scal_r. apply sumN_ext. intros r Hr. unfold delta. rewrite (at_mk (D := Rdt)) by (cbn; lia). unfold weights. rewrite pre_ap by lia. unfold Xb, Rdiv. toR. ring. }
    toR. match goal with |- @eq _ ?a ?b => change (@eq R a b) end. cbn [dsub dmul dadd Rdt]. toR. rewrite Es. unfold col. reflexivity.
Qed.
Definition Jof (x y : rmat) (lam : R) (W : rmat) : R := sumN (nc W) (fun j => F (nr x) (nr W) (Xb x) lam (fun r => at_ y r j) (col W j)).
Lemma sqnorm_cols (W : rmat) : sqnorm W = sumN (nc W) (fun j => dot (nr W) (col W j) (col W j)).
Proof. unfold sqnorm, inner. rewrite sumN_swap. reflexivity. Qed.
Lemma lin_objective junk (n : rnet) (H : rheap) (x y : rmat) p c eta lam : linear_net n p c eta lam -> 1 <= p -> samples p c (x, y) ->
  objective junk n H x y = Ok (Jof x y lam (weights n)).
Proof.
  intros Hl Hp (S1 & S2 & S3 & S4). cbn [fst snd] in *. pose proof Hl as (E1 & E2 & E3 & E4 & E5 & E6 & E7 & E8).
  unfold objective. rewrite (lin_forward junk n H x p c eta lam) by (assumption || lia). cbn [bind]. unfold net_computecost. cbn [n_cost set_result set_output set_input]. rewrite E3.
  unfold fwd_out. rewrite E4. cbn [act identity]. rewrite quad_cost_mk by lia. cbn [bind]. unfold hidden_layers. rewrite E1. cbn [length seq mapM bind map sumL fold_right].
  unfold sumall. rewrite accu_mk. f_equal. unfold Jof. rewrite E8. unfold weights. rewrite sqnorm_cols.
  assert (0 < INR (nr x))%R by (now apply lt_0_INR). rewrite Rplus_0_r, <- sumN_scal, E6, <- sumN_plus. apply sumN_ext. intros j Hj.
  unfold F. f_equal. unfold Rdiv. rewrite !Rmult_assoc. unfold dot. rewrite <- sumN_scal_r. apply sumN_ext. intros r Hr. rewrite pre_ap by lia. unfold weights. change (act identity) with (fun z : R => z). cbn beta. field. lra.
Qed.

Lemma smooth_Lip (x : rmat) lam : smoothness x lam = Lip (nr x) (nc x + 1) (Xb x) lam.
Proof.
  unfold smoothness, Lip, S2. f_equal. f_equal. apply sumN_ext. intros r Hr. unfold dot. rewrite Nat.add_1_r, sumN_S. cbn [Xb with_bias].
  unfold Xb. cbn [with_bias]. f_equal. cbn. lra.
Qed.
Lemma dist2_cols (W V : rmat) : dist2 W V = sumN (nc W) (fun j => dot (nr W) (fun i => col W j i - col V j i)%R (fun i => col W j i - col V j i)%R).
Proof. unfold dist2. rewrite sumN_swap. reflexivity. Qed.

Lemma step_descent (x y W : rmat) eta lam : (0 < eta)%R -> 1 <= nr x -> nr W = nc x + 1 ->
  (Jof x y lam (stepW eta lam x y W) <= Jof x y lam W - (1 / eta - smoothness x lam / 2) * dist2 (stepW eta lam x y W) W)%R.
Proof.
  intros He Hn HW. rewrite dist2_cols, smooth_Lip. unfold Jof. cbn [stepW nr nc mk]. rewrite <- sumN_scal, <- sumN_minus. apply sumN_le. intros j Hj.
  pose proof (descent (nr x) (nr W) (Xb x) Hn lam (fun r => at_ y r j) eta (col W j) ltac:(lra)) as Dc.
  set (g := gradF (nr x) (nr W) (Xb x) lam (fun r => at_ y r j) (col W j)) in *.
  assert (Ec : forall i, i < nr W -> col (stepW eta lam x y W) j i = (col W j i - eta * g i)%R). { intros i Hi. unfold col at 1, stepW. rewrite (at_mk (D := Rdt)) by assumption. reflexivity. }
  rewrite (F_ext (nr x) (nr W) (Xb x) lam _ (col (stepW eta lam x y W) j) (fun i => col W j i - eta * g i)%R Ec).
  rewrite (dot_ext (nr W) _ (fun i => 0 + (- eta) * g i)%R _ (fun i => 0 + (- eta) * g i)%R) by (intros i Hi; rewrite Ec by assumption; ring).
  rewrite dot_sq. replace (dot (nr W) (fun _ => 0%R) g) with 0%R by (symmetry; apply sumN_zero; intros; ring). replace (dot (nr W) (fun _ => 0%R) (fun _ => 0%R)) with 0%R by (symmetry; apply sumN_zero; intros; ring).
  rewrite <- HW. set (G := dot (nr W) g g) in *. set (L := Lip (nr x) (nr W) (Xb x) lam) in *.
  replace ((1 / eta - L / 2) * (0 + 2 * - eta * 0 + - eta * - eta * G))%R with (eta * (1 - eta * L / 2) * G)%R by (field; lra). exact Dc.
Qed.

(** ** C63: one call *)
Theorem C63_descent : forall junk (t : trainer Rdt) (n : rnet) (H : rheap) (x y : rmat) p c eta lam,
  linear_net n p c eta lam -> no_decay t -> 1 <= p -> samples p c (x, y) -> (0 < eta)%R ->
  exists t' n' H' J J', feeddata (D := Rdt) junk t n H x y = Ok (t', n', H') /\
    objective junk n H x y = Ok J /\ objective junk n' H' x y = Ok J' /\
    (J' <= J - (1 / eta - smoothness x lam / 2) * dist2 (weights n') (weights n))%R.
Proof.
  intros junk t n H x y p c eta lam Hl Ht Hp Hs He. destruct (lin_step junk t n H x y p c eta lam Hl Ht Hp Hs) as (t' & n' & E & Ht' & Hl' & EW).
  exists t', n', H. do 2 eexists. split; [exact E|]. split; [eapply lin_objective; eauto|]. split; [eapply lin_objective; eauto|]. rewrite EW.
  destruct Hs as (S1 & S2 & S3 & S4). cbn [fst snd] in *. destruct Hl as (_ & _ & _ & _ & E5 & _). apply step_descent; auto. unfold weights. lia.
Qed.

(** *** Any number of calls *)
Lemma foldM_app {A B : Type} (f : A -> B -> res A) l1 l2 a : foldM f (l1 ++ l2) a = (b <- foldM f l1 a ;; foldM f l2 b).
Proof. revert a. induction l1 as [|b l1 IH]; intros a; [reflexivity|]. cbn [app foldM]. destruct (f a b); cbn [bind]; auto. Qed.
Lemma train_S junk t n H x y K : train junk t n H x y (S K) = ('(t', n', H') <- train junk t n H x y K ;; feeddata (D := Rdt) junk t' n' H' x y).
Proof.
  unfold train. replace (repeat tt (S K)) with (repeat tt K ++ [tt]). 2:{ clear. induction K as [|K IH]; [reflexivity|]. cbn in *. now rewrite IH. }
  rewrite foldM_app. destruct (foldM _ (repeat tt K) (t, n, H)) as [[[t' n'] H']| | |]; cbn [bind foldM]; try reflexivity.
  destruct (feeddata (D := Rdt) junk t' n' H' x y) as [[[t2 n2] H2]| | |]; reflexivity.
Qed.
Definition gdW (eta lam : R) (x y W : rmat) (K : nat) (i j : nat) : R := gd (nr x) (nr W) (Xb x) lam (fun r => at_ y r j) eta (col W j) K i.
Lemma lin_train junk (t : trainer Rdt) (n : rnet) (H : rheap) (x y : rmat) p c eta lam : linear_net n p c eta lam -> no_decay t -> 1 <= p -> samples p c (x, y) ->
  forall K, exists t' n', train junk t n H x y K = Ok (t', n', H) /\ no_decay t' /\ linear_net n' p c eta lam /\
    forall i j, i < p + 1 -> j < c -> at_ (weights n') i j = gdW eta lam x y (weights n) K i j.
Proof.
  intros Hl Ht Hp Hs K. induction K as [|K (t1 & n1 & E & Ht1 & Hl1 & EW)].
  - exists t, n. split; [reflexivity|]. split; [exact Ht|]. split; [exact Hl|]. reflexivity.
  - destruct (lin_step junk t1 n1 H x y p c eta lam Hl1 Ht1 Hp Hs) as (t2 & n2 & E2 & Ht2 & Hl2 & EW2). exists t2, n2.
    split; [rewrite train_S, E; exact E2|]. split; [exact Ht2|]. split; [exact Hl2|]. intros i j Hi Hj.
    pose proof Hl1 as (_ & _ & _ & _ & B1 & B2 & _). pose proof Hl as (_ & _ & _ & _ & A1 & A2 & _).
    rewrite EW2. unfold stepW. rewrite (at_mk (D := Rdt)) by (unfold weights; lia). unfold gdW. cbn [gd]. unfold col at 1. rewrite EW by assumption. unfold gdW.
    assert (Em : nr (weights n1) = nr (weights n)) by (unfold weights; congruence). rewrite Em. f_equal. f_equal. apply gradF_ext; [|unfold weights; lia].
    intros k Hk. unfold col at 1. apply EW; [unfold weights in *; lia|assumption].
Qed.

Theorem C63_history : forall junk (t : trainer Rdt) (n : rnet) (H : rheap) (x y : rmat) p c eta lam,
  linear_net n p c eta lam -> no_decay t -> 1 <= p -> samples p c (x, y) -> (0 < eta)%R ->
  exists (ns : nat -> rnet) (J : nat -> R),
    (forall k, exists t', train junk t n H x y k = Ok (t', ns k, H)) /\
    (forall k, objective junk (ns k) H x y = Ok (J k)) /\
    (forall k, J (S k) <= J k - (1 / eta - smoothness x lam / 2) * dist2 (weights (ns (S k))) (weights (ns k)))%R /\
    (forall K, J K <= J 0%nat - (1 / eta - smoothness x lam / 2) * sumN K (fun k => dist2 (weights (ns (S k))) (weights (ns k))))%R /\
    (* with a rate below 2/L: the objective never increases and the squared steps sum to at most J_0 / (1/eta - L/2) *)
    ((0 <= lam)%R -> (eta * smoothness x lam < 2)%R ->
       (forall k, J (S k) <= J k)%R /\
       (forall K, sumN K (fun k => dist2 (weights (ns (S k))) (weights (ns k))) <= J 0%nat / (1 / eta - smoothness x lam / 2))%R).
Proof.
  intros junk t n H x y p c eta lam Hl Ht Hp Hs He.
  set (st := fun k => match train junk t n H x y k with Ok (a, b, _) => (a, b) | _ => (t, n) end).
  assert (A : forall k, train junk t n H x y k = Ok (fst (st k), snd (st k), H) /\ no_decay (fst (st k)) /\ linear_net (snd (st k)) p c eta lam).
  { intros k. destruct (lin_train junk t n H x y p c eta lam Hl Ht Hp Hs k) as (t' & n' & E & Ht' & Hl' & _). unfold st. rewrite E. cbn. auto. }
  set (Jk := fun k => Jof x y lam (weights (snd (st k)))).
  assert (Step : forall k, (Jk (S k) <= Jk k - (1 / eta - smoothness x lam / 2) * dist2 (weights (snd (st (S k)))) (weights (snd (st k))))%R).
  { intros k. destruct (A k) as (E & Htk & Hlk). destruct (A (S k)) as (E' & _ & _). rewrite train_S, E in E'. cbn [bind] in E'.
    destruct (lin_step junk _ _ H x y p c eta lam Hlk Htk Hp Hs) as (t' & n' & E2 & _ & _ & EW). rewrite E2 in E'. injection E' as E3 E4. unfold Jk. rewrite <- E4, EW.
    destruct Hs as (S1 & S2 & S3 & S4). cbn [fst snd] in *. destruct Hlk as (_ & _ & _ & _ & B1 & _). apply step_descent; auto. unfold weights. lia. }
  assert (Sum : forall K, (Jk K <= Jk 0%nat - (1 / eta - smoothness x lam / 2) * sumN K (fun k => dist2 (weights (snd (st (S k)))) (weights (snd (st k)))))%R).
  { induction K as [|K IH]; [rewrite sumN_0; lra|]. rewrite sumN_last. pose proof (Step K). lra. }
  exists (fun k => snd (st k)), Jk. split; [intros k; exists (fst (st k)); apply A|]. split; [intros k; eapply lin_objective; eauto; apply A|]. split; [exact Step|]. split; [exact Sum|].
  intros Hlam HL. assert (HL' : (0 < 1 / eta - smoothness x lam / 2)%R).
  { replace (1 / eta - smoothness x lam / 2)%R with ((2 - eta * smoothness x lam) * (/ (2 * eta)))%R by (field; lra). apply Rmult_lt_0_compat; [lra|]. apply Rinv_0_lt_compat. lra. }
  assert (Dn : forall W V : rmat, (0 <= dist2 W V)%R). { intros. unfold dist2. apply sumN_nonneg. intros. apply sumN_nonneg. intros. apply Rle_0_sqr. }
  split.
  - intros k. pose proof (Step k). pose proof (Dn (weights (snd (st (S k)))) (weights (snd (st k)))). assert (0 <= (1 / eta - smoothness x lam / 2) * dist2 (weights (snd (st (S k)))) (weights (snd (st k))))%R by (apply Rmult_le_pos; lra). lra.
  - intros K. pose proof (Sum K) as SK. assert (0 <= Jk K)%R. { unfold Jk, Jof. apply sumN_nonneg. intros j Hj. apply F_nonneg; auto. destruct Hs as (S1 & _). exact S1. }
    set (s := sumN K _) in *. apply (Rmult_le_reg_r (1 / eta - smoothness x lam / 2)%R); [exact HL'|]. unfold Rdiv at 3. rewrite Rmult_assoc, Rinv_l by lra. lra.
Qed.

(** *** Two different starting points *)
Lemma dist2_le (W V W' V' : rmat) q : nr W' = nr W -> nc W' = nc W ->
  (forall j : nat, (j < nc W)%nat -> dot (nr W) (fun i => col W' j i - col V' j i)%R (fun i => col W' j i - col V' j i)%R <= q * dot (nr W) (fun i => col W j i - col V j i)%R (fun i => col W j i - col V j i)%R)%R ->
  (dist2 W' V' <= q * dist2 W V)%R.
Proof. intros E1 E2 Hj. rewrite !dist2_cols, E1, E2, <- sumN_scal. now apply sumN_le. Qed.

Theorem C63_contraction : forall junk junk' (t u : trainer Rdt) (n m : rnet) (H I : rheap) (x y : rmat) p c eta lam,
  linear_net n p c eta lam -> linear_net m p c eta lam -> no_decay t -> no_decay u -> 1 <= p -> samples p c (x, y) ->
  (0 < eta)%R -> (0 < lam)%R -> (eta * smoothness x lam < 2)%R ->
  (0 <= 1 - eta * lam * (2 - eta * smoothness x lam) < 1)%R /\
  forall K, exists t' u' n' m', train junk t n H x y K = Ok (t', n', H) /\ train junk' u m I x y K = Ok (u', m', I) /\
    (dist2 (weights n') (weights m') <= (1 - eta * lam * (2 - eta * smoothness x lam)) ^ K * dist2 (weights n) (weights m))%R.
Proof.
  intros junk junk' t u n m H I x y p c eta lam Hl Hm Ht Hu Hp Hs He Hlam HL.
  pose proof Hs as (S1 & S2 & S3 & S4). cbn [fst snd] in *. rewrite smooth_Lip, S2 in *. split; [apply (q_range (nr x) (p + 1) (Xb x)); auto; lra|].
  intros K. destruct (lin_train junk t n H x y p c eta lam Hl Ht Hp Hs K) as (t' & n' & E1 & _ & L1 & W1).
  destruct (lin_train junk' u m I x y p c eta lam Hm Hu Hp Hs K) as (u' & m' & E2 & _ & L2 & W2).
  exists t', u', n', m'. split; [exact E1|]. split; [exact E2|].
  destruct Hl as (_ & _ & _ & _ & A1 & A2 & _). destruct Hm as (_ & _ & _ & _ & B1 & B2 & _). destruct L1 as (_ & _ & _ & _ & C1 & C2 & _).
  apply dist2_le; [unfold weights; congruence|unfold weights; congruence|]. unfold weights at 1. rewrite A2. intros j Hj. change (nr (weights n)) with (nr (l_W (o_l (n_output n)))). rewrite A1.
  pose proof (gd_contraction (nr x) (p + 1) (Xb x) S1 lam ltac:(lra) (fun r => at_ y r j) eta He HL Hlam (col (weights n) j) (col (weights m) j) K) as G.
  unfold q in G. eapply Rle_trans; [|exact G]. right. apply dot_ext; intros i Hi; unfold col at 1 2; rewrite W1, W2 by assumption; unfold gdW; change (nr (weights n)) with (nr (l_W (o_l (n_output n)))); change (nr (weights m)) with (nr (l_W (o_l (n_output m)))); now rewrite A1, B1.
Qed.

(** *** Convergence to the regularised least-squares optimum *)
Lemma choose_cols c (P : nat -> (nat -> R) -> Prop) : (forall j, j < c -> exists v, P j v) -> exists V, forall j, j < c -> P j (V j).
Proof.
  induction c as [|c IH]; intros Hc; [exists (fun _ _ => 0%R); intros; lia|]. destruct IH as [V HV]; [intros; apply Hc; lia|]. destruct (Hc c ltac:(lia)) as [v Hv].
  exists (fun j => if j =? c then v else V j). intros j Hj. destruct (Nat.eqb_spec j c); [now subst|apply HV; lia].
Qed.
Theorem C63_converges : forall (x y : rmat) p c lam, 1 <= p -> samples p c (x, y) -> (0 < lam)%R ->
  exists Ws : rmat, nr Ws = p + 1 /\ nc Ws = c /\
    (* no network of this shape has a smaller objective, and only Ws attains it *)
    (forall junk n m H I eta eta' J J', linear_net n p c eta lam -> linear_net m p c eta' lam -> weights n = Ws ->
       objective junk n H x y = Ok J -> objective junk m I x y = Ok J' ->
       (J <= J')%R /\ (J' = J -> forall i j, i < p + 1 -> j < c -> at_ (weights m) i j = at_ Ws i j)) /\
    (* training converges to it geometrically from every starting point *)
    (forall junk t n H eta, linear_net n p c eta lam -> no_decay t -> (0 < eta)%R -> (eta * smoothness x lam < 2)%R ->
       let q := (1 - eta * lam * (2 - eta * smoothness x lam))%R in
       (0 <= q < 1)%R /\
       (forall K, exists t' n', train junk t n H x y K = Ok (t', n', H) /\ (dist2 (weights n') Ws <= q ^ K * dist2 (weights n) Ws)%R) /\
       (forall eps, (0 < eps)%R -> exists K0, forall K, K0 <= K -> exists t' n', train junk t n H x y K = Ok (t', n', H) /\ (dist2 (weights n') Ws < eps)%R)).
Proof.
  intros x y p c lam Hp Hs Hlam. pose proof Hs as (S1 & S2 & S3 & S4). cbn [fst snd] in *.
  set (L := Lip (nr x) (p + 1) (Xb x) lam).
  assert (HLp : (0 < L)%R). { unfold L, Lip. pose proof (S2_nonneg (nr x) (p + 1) (Xb x) S1). lra. }
  destruct (choose_cols c (fun j v => forall i, i < p + 1 -> gradF (nr x) (p + 1) (Xb x) lam (fun r => at_ y r j) v i = 0%R)) as [V HV].
  { intros j Hj. apply (stationary_exists (nr x) (p + 1) (Xb x) S1 lam ltac:(lra) _ (/ L)%R); [now apply Rinv_0_lt_compat| |exact Hlam]. fold L. rewrite Rinv_l; lra. }
  set (Ws := mk (D := Rdt) (p + 1) c (fun i j => V j i)). assert (EWs : forall i j, i < p + 1 -> j < c -> at_ Ws i j = V j i). { intros. unfold Ws. now rewrite (at_mk (D := Rdt)) by assumption. }
  assert (Grad0 : forall j i, j < c -> i < p + 1 -> gradF (nr x) (p + 1) (Xb x) lam (fun r => at_ y r j) (col Ws j) i = 0%R).
  { intros j i Hj Hi. rewrite (gradF_ext (nr x) (p + 1) (Xb x) lam _ (col Ws j) (V j)); [now apply HV| |exact Hi]. intros k Hk. now apply EWs. }
  exists Ws. split; [reflexivity|]. split; [reflexivity|]. split.
  - intros junk n m H I eta eta' J J' Hn Hm EW EJ EJ'. rewrite (lin_objective junk n H x y p c eta lam) in EJ by assumption. rewrite (lin_objective junk m I x y p c eta' lam) in EJ' by assumption.
    injection EJ as <-. injection EJ' as <-. pose proof Hm as (_ & _ & _ & _ & B1 & B2 & _). unfold Jof. rewrite EW. change (nr Ws) with (p + 1). change (nc Ws) with c.
    change (nr (weights m)) with (nr (l_W (o_l (n_output m)))). change (nc (weights m)) with (nc (l_W (o_l (n_output m)))). rewrite B1, B2.
    assert (Le : forall j, j < c -> (F (nr x) (p + 1) (Xb x) lam (fun r => at_ y r j) (col Ws j) <= F (nr x) (p + 1) (Xb x) lam (fun r => at_ y r j) (col (weights m) j))%R).
    { intros j Hj. apply stationary_min; auto; lra. }
    split; [now apply sumN_le|]. intros E i j Hi Hj.
    apply (min_unique (nr x) (p + 1) (Xb x) S1 lam (fun r => at_ y r j) (col Ws j) (col (weights m) j)); auto.
    assert (Z : sumN c (fun j => F (nr x) (p + 1) (Xb x) lam (fun r => at_ y r j) (col (weights m) j) - F (nr x) (p + 1) (Xb x) lam (fun r => at_ y r j) (col Ws j))%R = 0%R) by (rewrite sumN_minus; lra).
    assert (Q := sumN_nonneg_0 c _ (fun j Hj => proj1 (Rminus_le_0 _ _) (Le j Hj)) Z j Hj). cbn beta in Q. lra.
  - intros junk t n H eta Hn Ht He HL. set (q0 := (1 - eta * lam * (2 - eta * smoothness x lam))%R).
    assert (Hq : (0 <= q0 < 1)%R). { unfold q0. rewrite smooth_Lip, S2 in *. apply (q_range (nr x) (p + 1) (Xb x)); auto; lra. }
    assert (Geo : forall K, exists t' n', train junk t n H x y K = Ok (t', n', H) /\ (dist2 (weights n') Ws <= q0 ^ K * dist2 (weights n) Ws)%R).
    { intros K. destruct (lin_train junk t n H x y p c eta lam Hn Ht Hp Hs K) as (t' & n' & E1 & _ & L1 & W1). exists t', n'. split; [exact E1|].
      destruct Hn as (_ & _ & _ & _ & A1 & A2 & _). destruct L1 as (_ & _ & _ & _ & C1 & C2 & _).
      apply dist2_le; [unfold weights; congruence|unfold weights; congruence|]. unfold weights at 1. rewrite A2. intros j Hj. change (nr (weights n)) with (nr (l_W (o_l (n_output n)))). rewrite A1.
      unfold q0. rewrite smooth_Lip, S2 in *.
      pose proof (gd_contraction (nr x) (p + 1) (Xb x) S1 lam ltac:(lra) (fun r => at_ y r j) eta He HL Hlam (col (weights n) j) (col Ws j) K) as G.
      unfold q in G. eapply Rle_trans; [|exact G]. right.
      assert (Fix : forall k i, i < p + 1 -> gd (nr x) (p + 1) (Xb x) lam (fun r => at_ y r j) eta (col Ws j) k i = col Ws j i).
      { induction k as [|k IH]; intros i Hi; [reflexivity|]. cbn [gd]. rewrite IH by assumption. rewrite (gradF_ext (nr x) (p + 1) (Xb x) lam _ _ (col Ws j)) by assumption. rewrite Grad0 by assumption. lra. }
      apply dot_ext; intros i Hi; rewrite Fix by assumption; unfold col at 1; rewrite W1 by assumption; unfold gdW; change (nr (weights n)) with (nr (l_W (o_l (n_output n)))); now rewrite A1. }
    split; [exact Hq|]. split; [exact Geo|]. intros eps Heps. set (d := dist2 (weights n) Ws).
    assert (Hd : (0 <= d)%R). { unfold d, dist2. apply sumN_nonneg. intros. apply sumN_nonneg. intros. apply Rle_0_sqr. }
    destruct (pow_lt_1_zero q0 ltac:(rewrite Rabs_right; lra) (eps / (d + 1))%R) as [K0 HK0]; [apply Rdiv_lt_0_compat; lra|].
    exists K0. intros K HK. destruct (Geo K) as (t' & n' & E & B). exists t', n'. split; [exact E|]. specialize (HK0 K HK). rewrite Rabs_right in HK0 by (apply Rle_ge, pow_le; lra).
    fold d in B. eapply Rle_lt_trans; [exact B|]. assert (0 <= q0 ^ K)%R by (apply pow_le; lra).
    assert (q0 ^ K * (d + 1) < eps)%R. { apply (Rmult_lt_compat_r (d + 1)) in HK0; [|lra]. unfold Rdiv in HK0. rewrite Rmult_assoc, Rinv_l in HK0 by lra. lra. } lra.
Qed.

(** *** One sample, no regularisation: the residual is multiplied by the same factor in every call *)
Theorem C63_single : forall junk (t : trainer Rdt) (n : rnet) (H : rheap) (x y : rmat) p c eta,
  linear_net n p c eta 0%R -> no_decay t -> 1 <= p -> samples p c (x, y) -> nr x = 1 ->
  forall K, exists t' n' a n1 H1 b n2 H2, train junk t n H x y K = Ok (t', n', H) /\
    net_forward (D := Rdt) junk n H x = Ok (a, n1, H1) /\ net_forward (D := Rdt) junk n' H x = Ok (b, n2, H2) /\
    forall j, j < c -> (at_ b 0%nat j - at_ y 0%nat j = (1 - eta * (1 + sumN p (fun i => at_ x 0%nat i * at_ x 0%nat i))) ^ K * (at_ a 0%nat j - at_ y 0%nat j))%R.
Proof.
  intros junk t n H x y p c eta Hl Ht Hp Hs Hx K. pose proof Hs as (S1 & S2 & S3 & S4). cbn [fst snd] in *.
  destruct (lin_train junk t n H x y p c eta 0%R Hl Ht Hp Hs K) as (t' & n' & E & _ & Hl' & W).
  exists t', n'. do 6 eexists. split; [exact E|]. split; [apply (lin_forward junk n H x p c eta 0%R); auto|]. split; [apply (lin_forward junk n' H x p c eta 0%R); auto|].
  intros j Hj. pose proof Hl as (_ & _ & _ & A0 & A1 & A2 & _). pose proof Hl' as (_ & _ & _ & B0 & B1 & B2 & _).
  unfold fwd_out. rewrite !(at_mk (D := Rdt)) by lia. rewrite A0, B0. change (act identity) with (fun z : R => z). cbn beta. rewrite !pre_ap by lia. rewrite A1, B1.
  replace (ap (p + 1) (Xb x) (col (l_W (o_l (n_output n'))) j) 0) with (ap (p + 1) (Xb x) (fun i => gdW eta 0%R x y (weights n) K i j) 0).
  2:{ apply dot_ext; auto. intros i Hi. unfold col. symmetry. now apply W. }
  unfold gdW. change (nr (weights n)) with (nr (l_W (o_l (n_output n)))). rewrite A1, Hx. change (fun i => gd 1 (p + 1) (Xb x) 0 (fun r => at_ y r j) eta (col (weights n) j) K i) with (gd 1 (p + 1) (Xb x) 0 (fun r => at_ y r j) eta (col (weights n) j) K).
  change (l_W (o_l (n_output n))) with (weights n). set (w := col (weights n) j). set (yj := fun r => at_ y r j).
  assert (En : dot (p + 1) (Xb x 0) (Xb x 0) = (1 + sumN p (fun i => at_ x 0%nat i * at_ x 0%nat i))%R). { unfold dot. rewrite Nat.add_1_r, sumN_S. unfold Xb. cbn [with_bias]. f_equal. cbn. lra. }
  change (at_ y 0 j) with (yj 0). rewrite <- En. clear -yj. induction K as [|K IH]; [cbn; lra|]. cbn [gd pow].
  set (v := gd 1 (p + 1) (Xb x) 0 yj eta w K) in *.
  assert (Es : ap (p + 1) (Xb x) (fun i => v i - eta * gradF 1 (p + 1) (Xb x) 0 yj v i)%R 0 = (ap (p + 1) (Xb x) v 0 - eta * (dot (p + 1) (Xb x 0%nat) (Xb x 0%nat) * (ap (p + 1) (Xb x) v 0%nat - yj 0%nat)))%R).
  { unfold ap at 1. rewrite (dot_ext _ _ (Xb x 0) _ (fun i => 1 * v i + (- eta * (ap (p + 1) (Xb x) v 0%nat - yj 0%nat)) * Xb x 0%nat i)%R); [|auto|].
    - rewrite dot_lin. unfold ap. ring.
    - intros i Hi. unfold gradF, adj. rewrite sumN_S, sumN_0. cbn [INR]. field. }
  rewrite Es. rewrite Rmult_assoc, <- IH. ring.
Qed.

(** The hypotheses are what the constructors give: an InputLayer, a QuadraticOutput(p, c, eta, s, lam) and no hidden
    layer, for every standard deviation and every stream of draws. *)
Theorem C63_constructed : forall draw junk (i : layer Rdt) o (n : rnet) p c eta s lam,
  quadratic_output (D := Rdt) draw junk (Z.of_nat p) (Z.of_nat c) eta s lam = Ok o ->
  net_new (D := Rdt) draw junk i o [] = Ok n -> linear_net n p c eta lam /\ no_decay (trainer_new (D := Rdt)).
Proof.
  intros draw junk i o n p c eta s lam E1 E2. unfold quadratic_output, output_of, layer_new in E1. unfold net_new in E2.
  destruct (input_copy draw junk i); cbn [bind] in E2; try discriminate. destruct (input_copy draw junk a); cbn [bind] in E2; try discriminate. injection E2 as <-.
  destruct (_ && _); cbn [bind] in E1; [|discriminate]. injection E1 as <-. split; [|reflexivity].
  repeat split; cbn; lia.
Qed.
(** Two samples 1 and -1, one input, one output, rate 1/4, lambda 1/2: L = 5/2, eta * L < 2, q = 53/64 *)
Definition c63x : rmat := mk (D := Rdt) 2 1 (fun i _ => if i =? 0 then 1 else -1)%R.
Definition c63y : rmat := mk (D := Rdt) 2 1 (fun i _ => if i =? 0 then 3 else 1)%R.
Example C63_example : exists (n : rnet), linear_net n 1 1 (1/4)%R (1/2)%R /\ at_ (weights n) 0 0 = 7%R /\ samples (D := Rdt) 1 1 (c63x, c63y) /\
  smoothness c63x (1/2) = (5/2)%R /\ ((1/4) * smoothness c63x (1/2) < 2)%R /\
  exists t' n' H', feeddata (D := Rdt) (fun _ => 0%R) (trainer_new (D := Rdt)) n [] c63x c63y = Ok (t', n', H') /\ at_ (weights n') 0 0 = (7 - 1/4 * (5 + 7/2))%R.
Proof.
  set (W := mk (D := Rdt) 2 1 (fun i _ => if i =? 0 then 7 else 0)%R).
  set (n := N (D := Rdt) mempty quad_cost quad_costd (L (D := Rdt) 0%R 0%R identity mempty mempty mempty mempty mempty mempty) [] (O (D := Rdt) (L (D := Rdt) (1/4)%R (1/2)%R identity mempty mempty mempty mempty W mempty) quad_cost quad_costd mempty)).
  assert (Hl : linear_net n 1 1 (1/4)%R (1/2)%R) by (repeat split).
  assert (Hs : samples (D := Rdt) 1 1 (c63x, c63y)) by (repeat split; cbn; lia).
  assert (Sm : smoothness c63x (1/2) = (5/2)%R).
  { unfold smoothness. cbn [c63x nr nc mk]. rewrite !sumN_S, !sumN_0. unfold c63x. rewrite !(at_mk (D := Rdt)) by lia. cbn [Nat.eqb INR]. field. }
  exists n. split; [exact Hl|]. split; [reflexivity|]. split; [exact Hs|]. split; [exact Sm|]. split; [rewrite Sm; lra|].
  destruct (lin_step (fun _ => 0%R) (trainer_new (D := Rdt)) n [] c63x c63y 1 1 (1/4)%R (1/2)%R Hl eq_refl ltac:(lia) Hs) as (t' & n' & E & _ & _ & EW).
  exists t', n', []. split; [exact E|]. rewrite EW. unfold stepW, gradF, adj, ap, dot, col. change (weights n) with W. cbn [c63x nr nc mk W]. rewrite (at_mk (D := Rdt)) by (cbn; lia).
  rewrite !sumN_S, !sumN_0. unfold Xb, with_bias, c63x, c63y, W. rewrite !(at_mk (D := Rdt)) by lia. cbn. field.
Qed.

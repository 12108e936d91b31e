(** P_Grad.v - C29: back-propagated gradients are the exact gradients of the cost. *)
From Coq Require Import Reals Lra.
From Coquelicot Require Import Coquelicot.
From Verif Require Import Base Mat Act Layer Conv Misc Net NetP RInst RMat P_Act Grad.
From Coq Require Import Arith.
Local Open Scope nat_scope.
Notation rnet := (net Rdt).
Notation rheap := (lheap Rdt).

(** ** Specification *)

(** The output layer is one of the three built-in ones with its own activation (softmax: label rows sum to 1). *)
Definition built_in (n : rnet) (y : rmat) : Prop :=
  let o := n_output n in
  (n_cost n = quad_cost /\ o_costd o = quad_costd /\ l_act (o_l o) = identity) \/
  (n_cost n = ce_cost /\ o_costd o = ce_costd /\ l_act (o_l o) = sigmoid) \/
  (n_cost n = sm_cost /\ o_costd o = sm_costd /\ l_act (o_l o) = identity /\
   forall i, i < nr y -> sumN (nc y) (fun j => at_ y i j) = 1%R).

(** The cost of (x, y) after setting the hidden weight matrices to Ws and the output weights to Wo:
    sethiddenw for every i, setoutputw, forwardprop(x), computecost. *)
Definition set_hidden (n : rnet) (H : rheap) (Ws : list rmat) : res rheap :=
  foldM (fun H iw => net_sethiddenw n H (fst iw) (snd iw)) (combine (seq 0 (length Ws)) Ws) H.
Definition cost_at (junk : nat -> R) (n : rnet) (H : rheap) (x y : rmat) (Ws : list rmat) (Wo : rmat) : res R :=
  H' <- set_hidden n H Ws ;;
  '(a, n', _) <- net_forward (D := Rdt) junk (net_setoutputw n Wo) H' x ;;
  net_computecost n' a y.

(** ** Cost of the output pre-activations *)
Lemma d_scale (u : R -> R) t u' (c : R) : is_derive u t u' -> is_derive (fun s => u s * c)%R t (u' * c)%R.
Proof.
  intros H. assert (E : Derive u t = u') by (apply is_derive_unique; exact H). auto_derive; [exists u'; exact H|].
  change (Derive (fun x : R => u x) t) with (Derive u t). rewrite E. lra.
Qed.
Lemma d_quad (u : R -> R) u' (yv c : R) : c <> 0%R -> is_derive u 0%R u' ->
  is_derive (fun s => (yv - u s) * (yv - u s) / 2 / c)%R 0%R ((u 0 - yv) / c * u')%R.
Proof.
  intros Hc H. assert (E : Derive u 0 = u') by (apply is_derive_unique; exact H). auto_derive; [repeat split; try exact I; exists u'; exact H|].
  change (Derive (fun x : R => u x) 0%R) with (Derive u 0). rewrite E. field. assumption.
Qed.
Lemma sig_grad z : F' sigmoid z = (F sigmoid z * (1 - F sigmoid z))%R.
Proof.
  unfold F', F, sigmoid, initactfunc, actd, act, f_sigmoid, f_sigmoidgrad, lit. cbn. pose proof (exp_pos (- z)). field. lra.
Qed.
Lemma d_ce (u : R -> R) u' (yv c : R) : c <> 0%R -> is_derive u 0%R u' ->
  is_derive (fun s => - (yv * ln (F sigmoid (u s)) + (1 - yv) * ln (1 - F sigmoid (u s))) / c)%R 0%R ((F sigmoid (u 0) - yv) / c * u')%R.
Proof.
  intros Hc H. assert (Hs : is_derive (fun s => F sigmoid (u s)) 0%R (u' * F' sigmoid (u 0%R))%R).
  { apply (is_derive_comp (V := R_NormedModule) (F sigmoid)); [apply d_sigmoid|exact H]. }
  set (v := fun s => F sigmoid (u s)) in *. assert (E : Derive v 0 = (u' * F' sigmoid (u 0))%R) by (apply is_derive_unique; exact Hs).
  assert (Hv : (0 < v 0 < 1)%R) by apply sig_range. change (F sigmoid (u 0%R)) with (v 0%R).
  apply (is_derive_ext (fun s => - (yv * ln (v s) + (1 - yv) * ln (1 - v s)) / c)%R); [reflexivity|].
  assert (X : ex_derive v 0%R) by (eexists; exact Hs).
  auto_derive; [repeat split; auto; lra|].
  change (Derive (fun x : R => v x) 0%R) with (Derive v 0). rewrite E, sig_grad. fold (v 0%R). change (F sigmoid (u 0%R)) with (v 0%R). field. lra.
Qed.
Lemma d_sm (c : nat) (h : R -> nat -> R) h' (yv : nat -> R) (m : R) : m <> 0%R -> 1 <= c -> sumN c yv = 1%R ->
  (forall j, j < c -> is_derive (fun t => h t j) 0%R (h' j)) ->
  is_derive (fun t => sumN c (fun j => - (yv j * ln (exp (h t j) * (1 / sumN c (fun k => exp (h t k))))) / m)%R) 0%R
    (sumN c (fun j => (exp (h 0%R j) * (1 / sumN c (fun k => exp (h 0%R k))) - yv j) / m * h' j)%R).
Proof.
  intros Hm Hc Hy Hh.
  set (S := fun t => sumN c (fun k => exp (h t k))).
  assert (HS : forall t, (0 < S t)%R) by (intros t; apply sumN_pos; [assumption|intros; apply exp_pos]).
  apply (is_derive_ext (fun t => sumN c (fun j => (h t j - ln (S t)) * (- yv j / m))%R)).
  { intros t. apply sumN_ext. intros j Hj. fold (S t). rewrite ln_mult; [|apply exp_pos|unfold Rdiv; rewrite Rmult_1_l; apply Rinv_0_lt_compat, HS].
    rewrite ln_exp. unfold Rdiv at 3. rewrite Rmult_1_l, ln_Rinv by apply HS. field. assumption. }
  assert (dS : is_derive S 0%R (sumN c (fun k => exp (h 0%R k) * h' k)%R)).
  { apply (d_sumN c (fun t k => exp (h t k))). intros k Hk. specialize (Hh k Hk).
    rewrite Rmult_comm. apply (is_derive_comp (V := R_NormedModule) exp (fun t => h t k)); [apply is_derive_exp|exact Hh]. }
  set (S' := sumN c (fun k => exp (h 0%R k) * h' k)%R) in *.
  assert (dL : is_derive (fun t => ln (S t)) 0%R (S' / S 0)%R).
  { assert (E : Derive S 0 = S') by (apply is_derive_unique; exact dS). specialize (HS 0%R).
    auto_derive; [split; [exists S'; exact dS|split; [assumption|exact I]]|]. change (Derive (fun x : R => S x) 0%R) with (Derive S 0). rewrite E. field. lra. }
  evar_last.
  { apply (d_sumN c (fun t j => (h t j - ln (S t)) * (- yv j / m))%R). intros j Hj. apply d_scale.
    apply (is_derive_minus (K := R_AbsRing) (V := R_NormedModule)); [apply Hh; assumption|exact dL]. }
  cbn. specialize (HS 0%R). set (s := S 0%R) in *.
  transitivity (sumN c (fun j => (- yv j / m * h' j)) + (S' / s / m) * sumN c yv)%R.
  - rewrite <- sumN_scal, <- sumN_plus. apply sumN_ext. intros j Hj. unfold minus, plus, opp. cbn. field. lra.
  - rewrite Hy. unfold S', Rdiv. rewrite Rmult_1_r, Rmult_assoc, <- sumN_scal_r, <- sumN_plus. apply sumN_ext. intros j Hj.
    fold (S 0%R). fold s. field. lra.
Qed.

Lemma out_part n (y : rmat) r c (z : R -> nat -> nat -> R) z' zz delta : built_in n y -> nr y = r -> nc y = c -> 1 <= r ->
  (forall i j, i < r -> j < c -> is_derive (fun t => z t i j) 0%R (z' i j)) ->
  o_costd (n_output n) y (mk (D := Rdt) r c (fun i j => act (l_act (o_l (n_output n))) (z 0%R i j))) zz = Ok delta ->
  exists C : R -> R, (forall t, net_computecost n (mk (D := Rdt) r c (fun i j => act (l_act (o_l (n_output n))) (z t i j))) y = Ok (C t)) /\
    is_derive C 0%R (sumN r (fun i => sumN c (fun j => at_ delta i j * z' i j)%R)).
Proof.
  intros Hb Er Ec Hr Hz Hd. assert (Hm : INR r <> 0%R) by (apply not_0_INR; lia).
  destruct Hb as [(B1 & B2 & B3)|[(B1 & B2 & B3)|(B1 & B2 & B3 & B4)]]; rewrite B2, B3 in Hd; rewrite B3; unfold net_computecost; rewrite B1.
  - rewrite quad_costd_mk in Hd by assumption. injection Hd as <-.
    exists (fun t => sumN r (fun i => sumN c (fun j => ((at_ y i j - z t i j) * (at_ y i j - z t i j) / 2 / INR r)%R))). split.
    + intros t. rewrite quad_cost_mk by assumption. cbn [bind]. unfold sumall. rewrite accu_mk, sumN_swap. reflexivity.
    + apply (d_sumN r (fun t i => sumN c (fun j => ((at_ y i j - z t i j) * (at_ y i j - z t i j) / 2 / INR r)%R))). intros i Hi.
      apply (d_sumN c (fun t j => ((at_ y i j - z t i j) * (at_ y i j - z t i j) / 2 / INR r)%R)). intros j Hj. rewrite at_mk by assumption.
      apply (d_quad (fun t => z t i j)); auto.
  - rewrite ce_costd_mk in Hd by assumption. injection Hd as <-.
    exists (fun t => sumN r (fun i => sumN c (fun j => (- (at_ y i j * ln (F sigmoid (z t i j)) + (1 - at_ y i j) * ln (1 - F sigmoid (z t i j))) / INR r)%R))). split.
    + intros t. rewrite ce_cost_mk by assumption. cbn [bind]. unfold sumall. rewrite accu_mk, sumN_swap. reflexivity.
    + apply (d_sumN r (fun t i => sumN c (fun j => (- (at_ y i j * ln (F sigmoid (z t i j)) + (1 - at_ y i j) * ln (1 - F sigmoid (z t i j))) / INR r)%R))). intros i Hi.
      apply (d_sumN c (fun t j => (- (at_ y i j * ln (F sigmoid (z t i j)) + (1 - at_ y i j) * ln (1 - F sigmoid (z t i j))) / INR r)%R)). intros j Hj. rewrite at_mk by assumption.
      apply (d_ce (fun t => z t i j)); auto.
  - rewrite sm_costd_mk in Hd by assumption. injection Hd as <-.
    exists (fun t => sumN r (fun i => sumN c (fun j => - (at_ y i j * ln (exp (z t i j) * (1 / sumN c (fun k => exp (z t i k))))) / INR r)%R)). split.
    + intros t. rewrite sm_cost_mk by assumption. cbn [bind]. unfold sumall. rewrite accu_mk, sumN_swap. reflexivity.
    + apply (d_sumN r (fun t i => sumN c (fun j => - (at_ y i j * ln (exp (z t i j) * (1 / sumN c (fun k => exp (z t i k))))) / INR r)%R)). intros i Hi.
      evar_last; [apply (d_sm c (fun t j => z t i j) (z' i) (fun j => at_ y i j) (INR r)); auto|].
      { destruct c; [|lia]. specialize (B4 0). rewrite Ec in B4. cbn in B4. exfalso. assert (0 = 1)%R by (apply B4; lia). lra. }
      { rewrite <- Ec. apply B4. lia. }
      apply sumN_ext. intros j Hj. rewrite at_mk by assumption. reflexivity.
Qed.

(** ** From the heap to the list of layers *)
Lemma set_hidden_dense (n : rnet) (H : rheap) ls Ws : dense_net n H ls -> length Ws = length ls ->
  set_hidden n H Ws = Ok (put_layers (n_hidden n) (map (fun lw => set_W (fst lw) (snd lw)) (combine ls Ws)) H).
Proof.
  intros [Hn Hd] HL. unfold set_hidden.
  enough (G : forall ids ls Ws H k, dense_at H ids ls -> NoDup ids -> length Ws = length ls ->
     (forall i, nth_error (n_hidden n) (k + i) = nth_error ids i) ->
     foldM (fun H iw => net_sethiddenw n H (fst iw) (snd iw)) (combine (seq k (length Ws)) Ws) H =
     Ok (put_layers ids (map (fun lw => set_W (fst lw) (snd lw)) (combine ls Ws)) H)) by (apply (G _ ls Ws H 0); auto).
  clear. induction ids as [|p ids IH]; intros ls Ws H k Hd Hn HL Hi; inversion Hd as [|q l ids' ls0 Hp Hd' E1 E2]; subst;
    destruct Ws as [|w Ws]; try discriminate; [reflexivity|]. cbn [length seq combine foldM fst snd map put_layers].
  unfold net_sethiddenw at 1. rewrite <- (Nat.add_0_r k) at 1. rewrite Hi. cbn [nth_error]. unfold lget. rewrite Hp. cbn [bind h_with h_base].
  inversion Hn; subst. apply IH; auto.
  - now apply dense_at_upd.
  - intros i. specialize (Hi (S i)). cbn in Hi. now rewrite Nat.add_succ_comm.
Qed.

(** ** C29 *)

(** Whenever the output pre-activations move differentiably from those that give the activations [a], the cost
    has derivative s * <delta, z'>. *)
Definition out_rule (s : R) (n : rnet) (y a : rmat) : Prop :=
  forall r c (z : R -> nat -> nat -> R) z' zz delta, nr y = r -> nc y = c -> 1 <= r ->
  (forall i j, i < r -> j < c -> at_ a i j = act (l_act (o_l (n_output n))) (z 0%R i j)) ->
  (forall i j, i < r -> j < c -> is_derive (fun t => z t i j) 0%R (z' i j)) ->
  o_costd (n_output n) y (mk (D := Rdt) r c (fun i j => act (l_act (o_l (n_output n))) (z 0%R i j))) zz = Ok delta ->
  exists C : R -> R, (forall t, net_computecost n (mk (D := Rdt) r c (fun i j => act (l_act (o_l (n_output n))) (z t i j))) y = Ok (C t)) /\
    is_derive C 0%R (s * sumN r (fun i => sumN c (fun j => at_ delta i j * z' i j)))%R.
Definition sized_label (n : rnet) (y : rmat) : Prop :=
  forall aa zz d, o_costd (n_output n) y aa zz = Ok d -> nr y = nr aa /\ nc y = nc aa.

Lemma gradient_core : forall (s : R) junk (n : rnet) (H : rheap) (x y a : rmat) n1 H1 n2 H2 ls ls1 ls2 (Ds : list rmat) (Do : rmat),
  dense_hidden n H -> sized_label n y -> out_rule s n y a ->
  net_forward (D := Rdt) junk n H x = Ok (a, n1, H1) -> net_backprop (D := Rdt) junk n1 H1 y = Ok (n2, H2) ->
  hidden_layers n H = Ok ls -> hidden_layers n1 H1 = Ok ls1 -> hidden_layers n2 H2 = Ok ls2 ->
  Forall smooth_at ls1 ->
  length Ds = length ls ->
  exists C : R -> R,
    (forall t, cost_at junk n H x y (map (fun lD => line t (l_W (fst lD)) (snd lD)) (combine ls Ds))
                 (line t (l_W (o_l (n_output n))) Do) = Ok (C t)) /\
    net_computecost n a y = Ok (C 0%R) /\
    is_derive C 0%R (s * (gdirs ls2 Ds + gdir (o_l (n_output n2)) Do))%R.
Proof.
  intros s junk n H x y a n1 H1 n2 H2 ls ls1 ls2 Ds Do Hdh Hsz Hb HF HB L0 L1 L2 HS HD.
  destruct (dense_ls n H Hdh) as [ls0 Hdn].
  pose proof (hidden_layers_dense n H ls0 (proj2 Hdn)) as Q0. pose proof (eq_trans (eq_sym L0) Q0) as E0. injection E0 as ->. clear Q0 L0.
  destruct (pass_dense junk n H ls0 x y a n1 H1 n2 H2 Hdn HF HB) as (b & l1 & delta & l2 & dx & P1 & P2 & -> & P3 & P4 & P5 & P6 & P7 & P8 & P9 & P10 & P11 & P12).
  pose proof (eq_trans (eq_sym L1) (hidden_layers_dense n1 H1 l1 (proj2 P7))) as E1. injection E1 as ->. clear L1.
  pose proof (eq_trans (eq_sym L2) (hidden_layers_dense n2 H2 l2 (proj2 P8))) as E2. injection E2 as ->. clear L2.
  set (ol := o_l (n_output n)) in *.
  destruct (chain ls0 Ds x (fun _ => x) (fun _ _ => 0%R) b l1 HD P1) as (B & B' & C1 & C2 & C3 & C4).
  { split; [auto|]. intros i j Hi Hj. apply (is_derive_const (K := R_AbsRing) (V := R_NormedModule)). }
  { intros i j Hi Hj. reflexivity. }
  { assumption. }
  destruct P2 as (F1 & F2 & F3). destruct C2 as [C21 C22].
  set (z := fun t i j => pre (line t (l_W ol) Do) (B t) i j : R).
  assert (Eout : forall t, fwd_out (set_W ol (line t (l_W ol) Do)) (B t) = mk (D := Rdt) (nr b) (nc (l_W ol)) (fun i j => act (l_act ol) (z t i j))).
  { intros t. unfold fwd_out. destruct (C21 t) as [-> _]. reflexivity. }
  assert (E0 : fwd_out ol b = mk (D := Rdt) (nr b) (nc (l_W ol)) (fun i j => act (l_act ol) (z 0%R i j))).
  { unfold fwd_out, z. apply mk_ext. intros i j Hi Hj. f_equal. symmetry. apply (pre_agree (l_W ol) Do B b); auto; apply C21. }
  assert (Ey : nr y = nr b /\ nc y = nc (l_W ol)).
  { pose proof (Hsz _ _ _ P3) as [Z1 Z2]. auto. }
  destruct Ey as [Y1 Y2]. rewrite E0 in P3.
  destruct (Hb (nr b) (nc (l_W ol)) z (preD b (l_W ol) Do B') (l_z (fwd_layer ol b)) delta Y1 Y2 F1) as (C & K1 & K2).
  { intros i j Hi Hj. rewrite E0, at_mk by assumption. reflexivity. }
  { intros i j Hi Hj. apply (pre_path B B' b (l_W ol) Do); auto. split; assumption. }
  { exact P3. }
  exists C. split; [|split].
  - intros t. unfold cost_at. rewrite (set_hidden_dense n H ls0) by (try assumption; rewrite map_length, combine_length; lia). cbn [bind].
    assert (Elist : map (fun lw => set_W (fst lw) (snd lw)) (combine ls0 (map (fun lD => line t (l_W (fst lD)) (snd lD)) (combine ls0 Ds))) = lines t ls0 Ds).
    { clear -HD. unfold lines. revert Ds HD. induction ls0 as [|l ls IH]; intros [|d Ds] HD; try discriminate; [reflexivity|]. cbn. f_equal. apply IH. simpl in HD. lia. }
    rewrite Elist.
    assert (Ht : dense_net (net_setoutputw n (line t (l_W ol) Do)) (put_layers (n_hidden n) (lines t ls0 Ds) H) (lines t ls0 Ds)).
    { split; [apply Hdn|]. cbn. eapply dense_put; [eassumption|]. unfold lines. rewrite map_length, combine_length. lia. }
    rewrite (net_forward_dense junk _ _ _ x Ht). destruct (C1 t) as [q Hq]. rewrite Hq. cbn [bind].
    rewrite out_forward_ok by (cbn; unfold fwd_ok; cbn; destruct (C21 t); lia). cbn [bind net_setoutputw set_output n_output o_l].
    fold ol. rewrite Eout. apply K1.
  - rewrite E0. apply K1.
  - evar_last; [exact K2|]. rewrite P9.
    pose proof (layer_adjoint (fwd_layer ol b) b delta Do B' eq_refl P4 P5 F3) as LA. cbn [fwd_layer l_W] in LA. rewrite LA.
    destruct (C4 (down (fwd_layer ol b) delta) dx l2) as (D1 & D2 & D3); [cbn; assumption|cbn; lia|assumption|].
    fold (fwd_layer ol b). rewrite D3. replace (innerf dx (fun _ _ => 0%R)) with 0%R; [fold ol; ring|].
    unfold innerf. symmetry. apply sumN_zero. intros i Hi. apply sumN_zero. intros j Hj. lra.
Qed.

Lemma built_in_sized n y : built_in n y -> sized_label n y.
Proof.
  intros Hb aa zz d P3. destruct Hb as [(B1 & B2 & B3)|[(B1 & B2 & B3)|(B1 & B2 & B3 & B4)]]; rewrite B2 in P3.
  - unfold quad_costd in P3. apply bind_ok in P3 as (m & M & _). apply mzip_dims in M as (M1 & M2 & _). auto.
  - unfold ce_costd in P3. apply bind_ok in P3 as (m & M & _). apply mzip_dims in M as (M1 & M2 & _). auto.
  - unfold sm_costd in P3. apply bind_ok in P3 as (m & M & P3). apply bind_ok in P3 as (m' & M' & _).
    unfold softmax_P in M. apply mzip_dims in M as (_ & _ & M3 & M4 & _). apply mzip_dims in M' as (M1 & M2 & _). rewrite M3 in M1. rewrite M4 in M2. auto.
Qed.
Theorem C29_gradient : forall junk (n : rnet) (H : rheap) (x y a : rmat) n1 H1 n2 H2 ls ls1 ls2 (Ds : list rmat) (Do : rmat),
  dense_hidden n H -> built_in n y ->
  net_forward (D := Rdt) junk n H x = Ok (a, n1, H1) -> net_backprop (D := Rdt) junk n1 H1 y = Ok (n2, H2) ->
  hidden_layers n H = Ok ls -> hidden_layers n1 H1 = Ok ls1 -> hidden_layers n2 H2 = Ok ls2 ->
  Forall smooth_at ls1 ->
  length Ds = length ls ->
  exists C : R -> R,
    (forall t, cost_at junk n H x y (map (fun lD => line t (l_W (fst lD)) (snd lD)) (combine ls Ds))
                 (line t (l_W (o_l (n_output n))) Do) = Ok (C t)) /\
    net_computecost n a y = Ok (C 0%R) /\
    is_derive C 0%R (gdirs ls2 Ds + gdir (o_l (n_output n2)) Do)%R.
Proof.
  intros junk n H x y a n1 H1 n2 H2 ls ls1 ls2 Ds Do Hdh Hb HF HB L0 L1 L2 HS HD.
  destruct (gradient_core 1 junk n H x y a n1 H1 n2 H2 ls ls1 ls2 Ds Do) as (C & C1 & C2 & C3); auto using built_in_sized.
  { intros r c z z' zz delta Er Ec Hr _ Hz Hd. rewrite Rmult_1_l. eapply out_part; eauto. }
  exists C. rewrite Rmult_1_l in C3. auto.
Qed.

(** ** Entry by entry *)

(** W with t added to entry (p, q). *)
Definition bump (W : rmat) (p q : nat) (t : R) : rmat :=
  mk (D := Rdt) (nr W) (nc W) (fun i j => if (i =? p) && (j =? q) then (at_ W i j + t)%R else at_ W i j).
Definition unitm (W : rmat) (p q : nat) : rmat := mk (D := Rdt) (nr W) (nc W) (fun i j => if (i =? p) && (j =? q) then 1%R else 0%R).
Definition nullm (W : rmat) : rmat := mk (D := Rdt) (nr W) (nc W) (fun _ _ => 0%R).
Lemma line_unit t W p q : line t W (unitm W p q) = bump W p q t.
Proof.
  unfold line, bump. apply mk_ext. intros i j Hi Hj. unfold unitm. rewrite at_mk by assumption. destruct ((i =? p) && (j =? q)); cbn; lra.
Qed.
Lemma line_null t W : wf W -> line t W (nullm W) = W.
Proof.
  intros HW. rewrite <- (mk_at W) at 3 by assumption. unfold line. apply mk_ext. intros i j Hi Hj. unfold nullm. rewrite at_mk by assumption. cbn. lra.
Qed.
Lemma gdir_null l : gdir l (nullm (l_W l)) = 0%R.
Proof. unfold gdir. apply sumN_zero. intros i Hi. apply sumN_zero. intros j Hj. unfold nullm. rewrite at_mk by assumption. lra. Qed.
Lemma gdir_unit l p q : p < nr (l_W l) -> q < nc (l_W l) ->
  gdir l (unitm (l_W l) p q) = (at_ (l_grad l) p q - l_lambda l * at_ (l_W l) p q)%R.
Proof.
  intros Hp Hq. unfold gdir, unitm. rewrite (sumN_single _ _ p Hp).
  - rewrite (sumN_single _ _ q Hq).
    + rewrite at_mk by assumption. rewrite !Nat.eqb_refl. cbn. lra.
    + intros j Hj Hne. rewrite at_mk by assumption. rewrite Nat.eqb_refl. destruct (Nat.eqb_spec j q); [contradiction|]. cbn. lra.
  - intros i Hi Hne. apply sumN_zero. intros j Hj. rewrite at_mk by assumption. destruct (Nat.eqb_spec i p); [contradiction|]. cbn. lra.
Qed.

Lemma after_weights junk (n : rnet) (H : rheap) (x y a : rmat) n1 H1 n2 H2 ls ls2 : dense_hidden n H ->
  net_forward (D := Rdt) junk n H x = Ok (a, n1, H1) -> net_backprop (D := Rdt) junk n1 H1 y = Ok (n2, H2) ->
  hidden_layers n H = Ok ls -> hidden_layers n2 H2 = Ok ls2 ->
  Forall2 (fun l l2 : rlayer => l_W l2 = l_W l /\ l_lambda l2 = l_lambda l) ls ls2 /\
  l_W (o_l (n_output n2)) = l_W (o_l (n_output n)) /\ l_lambda (o_l (n_output n2)) = l_lambda (o_l (n_output n)).
Proof.
  intros Hdh HF HB L0 L2.
  destruct (dense_ls n H Hdh) as [ls0 Hdn].
  pose proof (eq_trans (eq_sym L0) (hidden_layers_dense n H ls0 (proj2 Hdn))) as E0. injection E0 as ->.
  destruct (pass_dense junk n H ls0 x y a n1 H1 n2 H2 Hdn HF HB) as (b & l1 & delta & l2 & dx & P1 & P2 & -> & P3 & P4 & P5 & P6 & P7 & P8 & P9 & P10 & P11 & P12).
  pose proof (eq_trans (eq_sym L2) (hidden_layers_dense n2 H2 l2 (proj2 P8))) as E2. injection E2 as ->.
  rewrite P9. split; [|auto]. pose proof (lforward_W _ _ _ _ P1) as W1. pose proof (lbackprop_W _ _ _ _ P6) as W2.
  clear -W1 W2. revert l2 W2. induction W1 as [|u v us vs (A1 & A2 & _) W IH]; intros l2 W2; inversion W2 as [|p q ps qs (B1 & B2 & _)]; subst; constructor; auto.
  split; congruence.
Qed.

Section Entries.
Context (junk : nat -> R) (n : rnet) (H : rheap) (x y a : rmat) (n1 : rnet) (H1 : rheap) (n2 : rnet) (H2 : rheap) (ls ls1 ls2 : list rlayer).
Context (Hdh : dense_hidden n H) (Hb : built_in n y)
  (HF : net_forward (D := Rdt) junk n H x = Ok (a, n1, H1)) (HB : net_backprop (D := Rdt) junk n1 H1 y = Ok (n2, H2))
  (L0 : hidden_layers n H = Ok ls) (L1 : hidden_layers n1 H1 = Ok ls1) (L2 : hidden_layers n2 H2 = Ok ls2)
  (HS : Forall smooth_at ls1)
  (HW : Forall (fun l => wf (l_W l)) ls) (HWo : wf (l_W (o_l (n_output n)))).

Lemma gdirs_null : gdirs ls2 (map (fun l => nullm (l_W l)) ls) = 0%R.
Proof using All.
  destruct (after_weights junk n H x y a n1 H1 n2 H2 ls ls2 Hdh HF HB L0 L2) as [W _]. unfold gdirs. clear -W. induction W as [|l l2 ls ls2 [E _] W IH]; [reflexivity|].
  cbn [map combine fst snd]. unfold sumL in *. cbn [fold_right]. rewrite IH, <- E, gdir_null. lra.
Qed.
Lemma lines_null t : map (fun lD => line t (l_W (fst lD)) (snd lD)) (combine ls (map (fun l => nullm (l_W l)) ls)) = map (fun l => l_W l) ls.
Proof using All.
  clear -HW. induction HW as [|l ls Hl Hls IH]; [reflexivity|]. cbn [map combine fst snd]. rewrite IH by assumption. now rewrite line_null.
Qed.

(** Entry (p, q) of the output weights. *)
Theorem C29_entries_output : forall p q, p < nr (l_W (o_l (n_output n))) -> q < nc (l_W (o_l (n_output n))) ->
  exists C : R -> R,
    (forall t, cost_at junk n H x y (map (fun l => l_W l) ls) (bump (l_W (o_l (n_output n))) p q t) = Ok (C t)) /\
    is_derive C 0%R (at_ (l_grad (o_l (n_output n2))) p q - l_lambda (o_l (n_output n)) * at_ (l_W (o_l (n_output n))) p q)%R.
Proof using All.
  intros p q Hp Hq. destruct (C29_gradient junk n H x y a n1 H1 n2 H2 ls ls1 ls2 (map (fun l => nullm (l_W l)) ls) (unitm (l_W (o_l (n_output n))) p q)
    Hdh Hb HF HB L0 L1 L2 HS (map_length _ _)) as (C & C1 & _ & C2).
  exists C. split; [intros t; rewrite <- C1, lines_null, line_unit; reflexivity|]. evar_last; [exact C2|].
  rewrite gdirs_null, Rplus_0_l. destruct (after_weights junk n H x y a n1 H1 n2 H2 ls ls2 Hdh HF HB L0 L2) as (_ & E1 & E2). rewrite <- E1, <- E2. rewrite gdir_unit; [reflexivity|congruence|congruence].
Qed.

(** Entry (p, q) of the weights of hidden layer k. *)
Theorem C29_entries_hidden : forall k l l2 p q, nth_error ls k = Some l -> nth_error ls2 k = Some l2 -> p < nr (l_W l) -> q < nc (l_W l) ->
  exists C : R -> R,
    (forall t, cost_at junk n H x y (upd k (bump (l_W l) p q t) (map (fun l => l_W l) ls)) (l_W (o_l (n_output n))) = Ok (C t)) /\
    is_derive C 0%R (at_ (l_grad l2) p q - l_lambda l * at_ (l_W l) p q)%R.
Proof using All.
  intros k l l2 p q Hk Hk2 Hp Hq.
  destruct (C29_gradient junk n H x y a n1 H1 n2 H2 ls ls1 ls2 (upd k (unitm (l_W l) p q) (map (fun l => nullm (l_W l)) ls)) (nullm (l_W (o_l (n_output n))))
    Hdh Hb HF HB L0 L1 L2 HS) as (C & C1 & _ & C2); [now rewrite upd_length, map_length|].
  exists C. split.
  - intros t. rewrite <- C1, line_null by assumption. f_equal.
    clear -Hk HW. revert k Hk. induction HW as [|u us Hu Hus IH]; intros [|k] Hk; cbn in Hk; try discriminate.
    + injection Hk as ->. cbn [map upd combine fst snd]. rewrite line_unit. f_equal. symmetry. clear -Hus. induction Hus as [|v vs Hv Hvs IH]; [reflexivity|].
      cbn [map combine fst snd]. rewrite line_null by assumption. now rewrite IH.
    + cbn [map upd combine fst snd]. rewrite line_null by assumption. f_equal. apply IH; auto.
  - evar_last; [exact C2|]. destruct (after_weights junk n H x y a n1 H1 n2 H2 ls ls2 Hdh HF HB L0 L2) as (W & E1 & E2). rewrite <- E1, gdir_null, Rplus_0_r.
    clear -W Hk Hk2 Hp Hq. unfold gdirs, sumL. revert k Hk Hk2. induction W as [|u v us vs [A1 A2] W IH]; intros [|k] Hk Hk2; cbn in Hk, Hk2; try discriminate.
    + injection Hk as ->. injection Hk2 as ->. cbn [map upd combine fst snd fold_right]. rewrite <- A1, gdir_unit by congruence. rewrite A2.
      replace (fold_right Rplus 0%R _) with 0%R; [lra|]. clear -W. induction W as [|u v us vs [A1 A2] W IH]; [reflexivity|].
      cbn [map combine fst snd fold_right]. rewrite <- IH, <- A1, gdir_null. lra.
    + cbn [map upd combine fst snd fold_right]. rewrite (IH k Hk Hk2). rewrite <- A1, gdir_null. lra.
Qed.
End Entries.

(** ** With the regularisation term: the stored gradient itself is the gradient of
       cost + sum over layers of lambda/2 * (sum of the squares of ALL weights, bias row included). *)
Definition sqnorm (W : rmat) : R := inner W W.
Definition penalty (ls : list rlayer) (Ws : list rmat) : R :=
  sumL (map (fun lw : rlayer * rmat => l_lambda (fst lw) / 2 * sqnorm (snd lw))%R (combine ls Ws)).

Lemma d_sqnorm W Dm : is_derive (fun t => sqnorm (line t W Dm)) 0%R (2 * inner W Dm)%R.
Proof.
  apply (is_derive_ext (fun t => sumN (nr W) (fun i => sumN (nc W) (fun j => (at_ W i j + t * at_ Dm i j) * (at_ W i j + t * at_ Dm i j))%R))).
  { intros t. unfold sqnorm, inner, line. cbn [nr nc mk]. apply sumN_ext. intros i Hi. apply sumN_ext. intros j Hj. now rewrite at_mk. }
  unfold inner. rewrite <- sumN_scal. apply (d_sumN (nr W) (fun t i => sumN (nc W) (fun j => (at_ W i j + t * at_ Dm i j) * (at_ W i j + t * at_ Dm i j))%R)).
  intros i Hi. rewrite <- sumN_scal. apply (d_sumN (nc W) (fun t j => (at_ W i j + t * at_ Dm i j) * (at_ W i j + t * at_ Dm i j))%R).
  intros j Hj. auto_derive; [exact I|]. ring.
Qed.
Definition fulldir (l : rlayer) (Dm : rmat) : R := sumN (nr (l_W l)) (fun i => sumN (nc (l_W l)) (fun j => at_ (l_grad l) i j * at_ Dm i j)%R).
Lemma fulldir_gdir l Dm : fulldir l Dm = (gdir l Dm + l_lambda l * inner (l_W l) Dm)%R.
Proof.
  unfold fulldir, gdir, inner. rewrite <- sumN_scal, <- sumN_plus. apply sumN_ext. intros i Hi. rewrite <- sumN_scal, <- sumN_plus.
  apply sumN_ext. intros j Hj. cbn. ring.
Qed.

Lemma d_penalty (ls : list rlayer) : forall Ds : list rmat, length Ds = length ls ->
  is_derive (fun t => penalty ls (map (fun lD => line t (l_W (fst lD)) (snd lD)) (combine ls Ds))) 0%R
    (sumL (map (fun lD : rlayer * rmat => l_lambda (fst lD) * inner (l_W (fst lD)) (snd lD))%R (combine ls Ds))).
Proof.
  induction ls as [|l ls IH]; intros [|d Ds] HD; try discriminate.
  - apply (is_derive_ext (fun _ => 0%R)); [reflexivity|]. apply (is_derive_const (K := R_AbsRing) (V := R_NormedModule)).
  - apply (is_derive_ext (fun t => (l_lambda l / 2 * sqnorm (line t (l_W l) d) +
       penalty ls (map (fun lD => line t (l_W (fst lD)) (snd lD)) (combine ls Ds)))%R)); [reflexivity|].
    cbn [combine map fst snd]. unfold sumL. cbn [fold_right].
    apply (is_derive_plus (K := R_AbsRing) (V := R_NormedModule)); [|apply IH; simpl in HD; lia].
    evar_last; [apply (is_derive_scal (fun t => sqnorm (line t (l_W l) d))); apply d_sqnorm|]. cbn. field.
Qed.

Theorem C29_regularised : forall junk (n : rnet) (H : rheap) (x y a : rmat) n1 H1 n2 H2 ls ls1 ls2 (Ds : list rmat) (Do : rmat),
  dense_hidden n H -> built_in n y ->
  net_forward (D := Rdt) junk n H x = Ok (a, n1, H1) -> net_backprop (D := Rdt) junk n1 H1 y = Ok (n2, H2) ->
  hidden_layers n H = Ok ls -> hidden_layers n1 H1 = Ok ls1 -> hidden_layers n2 H2 = Ok ls2 ->
  Forall smooth_at ls1 -> length Ds = length ls ->
  let Wt t := map (fun lD => line t (l_W (fst lD)) (snd lD)) (combine ls Ds) in
  let ol := o_l (n_output n) in
  exists C : R -> R,
    (forall t, cost_at junk n H x y (Wt t) (line t (l_W ol) Do) = Ok (C t)) /\
    is_derive (fun t => C t + penalty ls (Wt t) + l_lambda ol / 2 * sqnorm (line t (l_W ol) Do))%R 0%R
      (sumL (map (fun lD => fulldir (fst lD) (snd lD)) (combine ls2 Ds)) + fulldir (o_l (n_output n2)) Do)%R.
Proof.
  intros junk n H x y a n1 H1 n2 H2 ls ls1 ls2 Ds Do Hdh Hb HF HB L0 L1 L2 HS HD Wt ol.
  destruct (C29_gradient junk n H x y a n1 H1 n2 H2 ls ls1 ls2 Ds Do Hdh Hb HF HB L0 L1 L2 HS HD) as (C & C1 & _ & C2).
  exists C. split; [exact C1|].
  destruct (after_weights junk n H x y a n1 H1 n2 H2 ls ls2 Hdh HF HB L0 L2) as (W & E1 & E2).
  evar_last.
  { apply (is_derive_plus (K := R_AbsRing) (V := R_NormedModule) (fun t => C t + penalty ls (Wt t))%R).
    - apply (is_derive_plus (K := R_AbsRing) (V := R_NormedModule) C); [exact C2|]. apply d_penalty. assumption.
    - apply (is_derive_scal (fun t => sqnorm (line t (l_W ol) Do))). apply d_sqnorm. }
  unfold plus. cbn -[sumL gdirs gdir inner fulldir]. rewrite fulldir_gdir, E1, E2. fold ol.
  assert (X : sumL (map (fun lD => fulldir (fst lD) (snd lD)) (combine ls2 Ds)) =
    (gdirs ls2 Ds + sumL (map (fun lD : rlayer * rmat => l_lambda (fst lD) * inner (l_W (fst lD)) (snd lD))%R (combine ls Ds)))%R).
  { clear -W HD. revert Ds HD. unfold gdirs, sumL. induction W as [|l l2 us vs [A1 A2] W IH]; intros [|d Ds] HD; try discriminate; [cbn; lra|].
    cbn [combine map fold_right fst snd]. rewrite (IH Ds) by (simpl in HD; lia). rewrite fulldir_gdir, A1, A2. lra. }
  rewrite X. lra.
Qed.

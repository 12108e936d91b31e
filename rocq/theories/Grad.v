(** Grad.v - lemmas for C29: differentiating a dense network along a line in weight space. *)
From Coq Require Import Reals Lra.
From Coquelicot Require Import Coquelicot.
From Verif Require Import Base Mat Act Layer Conv Misc Net NetP RInst RMat P_Act.
From Coq Require Import Arith.
Local Open Scope nat_scope.
Notation rmat := (mat Rdt).
Notation rlayer := (layer Rdt).

(** The matrix W + t * Dm. *)
Definition line (t : R) (W Dm : rmat) : rmat := mk (D := Rdt) (nr W) (nc W) (fun i j => at_ W i j + t * at_ Dm i j)%R.

(** Entries of a matrix-valued function of constant shape are differentiable at 0. *)
Definition dpath (A : R -> rmat) (r c : nat) (A' : nat -> nat -> R) : Prop :=
  (forall t, nr (A t) = r /\ nc (A t) = c) /\
  (forall i j, i < r -> j < c -> is_derive (fun t => at_ (A t) i j : R) 0%R (A' i j)).
Definition agree (A x : rmat) : Prop := forall i j, i < nr x -> j < nc x -> at_ A i j = at_ x i j.
Definition innerf (d : rmat) (A' : nat -> nat -> R) : R := sumN (nr d) (fun i => sumN (nc d) (fun j => at_ d i j * A' i j)%R).

Definition shiftA (A' : nat -> nat -> R) (i k : nat) : R := match k with 0 => 0%R | S k' => A' i k' end.
Definition preD (x W Dm : rmat) (A' : nat -> nat -> R) (i j : nat) : R :=
  sumN (nc x + 1) (fun k => shiftA A' i k * at_ W k j + with_bias x i k * at_ Dm k j)%R.

Lemma d_prod_line (u : R -> R) u' w d : is_derive u 0%R u' -> is_derive (fun t => u t * (w + t * d))%R 0%R (u' * w + u 0 * d)%R.
Proof.
  intros H. assert (E : Derive u 0 = u') by (apply is_derive_unique; exact H). auto_derive.
  - exists u'; exact H.
  - change (Derive (fun x : R => u x) 0%R) with (Derive u 0). rewrite E. lra.
Qed.

Lemma pre_path A A' x W Dm i j : dpath A (nr x) (nc x) A' -> agree (A 0%R) x -> nc x + 1 = nr W -> i < nr x -> j < nc W ->
  is_derive (fun t => pre (line t W Dm) (A t) i j : R) 0%R (preD x W Dm A' i j).
Proof.
  intros [HA1 HA2] H0 HW Hi Hj.
  apply (is_derive_ext (fun t => sumN (nc x + 1) (fun k => with_bias (A t) i k * (at_ W k j + t * at_ Dm k j))%R)).
  { intros t. destruct (HA1 t) as [E1 E2]. unfold pre. rewrite mdot_R. cbn [nc mk]. rewrite E2. apply sumN_ext. intros k Hk.
    rewrite at_mk by lia. unfold line. rewrite at_mk by lia. reflexivity. }
  unfold preD. apply d_sumN. intros k Hk. destruct k as [|k]; cbn [shiftA with_bias].
  - apply (is_derive_ext (fun t => (1 * (at_ W 0%nat j + t * at_ Dm 0%nat j))%R)); [reflexivity|]. auto_derive; [exact I|]. cbn. lra.
  - rewrite <- (H0 i k) by lia. apply (d_prod_line (fun t => at_ (A t) i k)). apply HA2; lia.
Qed.

(** Moving the derivative of the affine part onto the delta. *)
Lemma adjoint (x W Dm delta : rmat) A' :
  sumN (nr x) (fun i => sumN (nc W) (fun j => at_ delta i j * preD x W Dm A' i j)%R) =
  (sumN (nr x) (fun i => sumN (nc x) (fun k => sumN (nc W) (fun j => at_ delta i j * at_ W (S k) j) * A' i k)) +
   sumN (nc x + 1) (fun k => sumN (nc W) (fun j => sumN (nr x) (fun i => with_bias x i k * at_ delta i j) * at_ Dm k j)))%R.
Proof.
  transitivity (sumN (nr x) (fun i => (sumN (nc x) (fun k => sumN (nc W) (fun j => at_ delta i j * at_ W (S k) j) * A' i k) +
      sumN (nc x + 1) (fun k => sumN (nc W) (fun j => with_bias x i k * at_ delta i j * at_ Dm k j)))%R)).
  - apply sumN_ext. intros i Hi. transitivity (sumN (nc W) (fun j =>
       (sumN (nc x + 1) (fun k => at_ delta i j * (shiftA A' i k * at_ W k j)) + sumN (nc x + 1) (fun k => with_bias x i k * at_ delta i j * at_ Dm k j))%R)).
    + apply sumN_ext. intros j Hj. unfold preD. rewrite <- sumN_scal, <- sumN_plus. apply sumN_ext. intros k Hk. lra.
    + rewrite sumN_plus. f_equal; [|apply sumN_swap]. rewrite sumN_swap, Nat.add_1_r, sumN_S. cbn [shiftA].
      rewrite sumN_zero by (intros; lra). rewrite Rplus_0_l. apply sumN_ext. intros k Hk. rewrite <- sumN_scal_r. apply sumN_ext. intros; lra.
  - rewrite sumN_plus. f_equal. rewrite sumN_swap. apply sumN_ext. intros k Hk. rewrite sumN_swap. apply sumN_ext. intros j Hj.
    rewrite <- sumN_scal_r. reflexivity.
Qed.

Lemma at_down (l : rlayer) (delta : rmat) i k : i < nr delta -> nc delta = nc (l_W l) -> k < nr (l_W l) - 1 ->
  at_ (down l delta) i k = sumN (nc (l_W l)) (fun j => at_ delta i j * at_ (l_W l) (S k) j)%R.
Proof.
  intros Hi Hc Hk. unfold down. rewrite !at_mk by lia. rewrite mdot_R, Hc. apply sumN_ext. intros j Hj. unfold mt. rewrite at_mk by lia. reflexivity.
Qed.
Lemma at_raw (l : rlayer) (delta x : rmat) k j : l_pa l = mk (nr x) (nc x + 1) (with_bias x) -> k < nc x + 1 -> j < nc delta ->
  at_ (raw_grad l delta) k j = sumN (nr x) (fun i => with_bias x i k * at_ delta i j)%R.
Proof.
  intros E Hk Hj. unfold raw_grad. rewrite E. cbn [nc mk]. rewrite at_mk by lia. rewrite mdot_R. cbn [mt nr nc mk]. apply sumN_ext.
  intros i Hi. unfold mt. cbn [nr nc mk]. rewrite at_mk by lia. rewrite at_mk by lia. reflexivity.
Qed.

(** Contribution of one layer to the directional derivative: its stored gradient minus lambda * W, against Dm. *)
Definition gdir (l : rlayer) (Dm : rmat) : R :=
  sumN (nr (l_W l)) (fun i => sumN (nc (l_W l)) (fun j => (at_ (l_grad l) i j - l_lambda l * at_ (l_W l) i j) * at_ Dm i j)%R).

(** The affine part of a layer whose cached input is x: directional derivative of <delta, pre-activation>. *)
Lemma layer_adjoint (l : rlayer) (x delta Dm : rmat) A' :
  l_pa l = mk (nr x) (nc x + 1) (with_bias x) -> nr delta = nr x -> nc delta = nc (l_W l) -> nc x + 1 = nr (l_W l) ->
  sumN (nr x) (fun i => sumN (nc (l_W l)) (fun j => at_ delta i j * preD x (l_W l) Dm A' i j)%R) =
  (innerf (down l delta) A' + gdir (back_layer l delta) Dm)%R.
Proof.
  intros Hp Hr Hc HW. rewrite adjoint. f_equal.
  - unfold innerf, down. cbn [nr nc mk]. rewrite Hr. apply sumN_ext. intros i Hi. replace (nr (l_W l) - 1) with (nc x) by lia.
    apply sumN_ext. intros k Hk. f_equal. pose proof (at_down l delta i k) as E. unfold down in E. rewrite Hr in E.
    replace (nr (l_W l) - 1) with (nc x) in E by lia. rewrite E by lia. reflexivity.
  - unfold gdir, back_layer. cbn [l_grad l_lambda l_W]. rewrite <- HW. apply sumN_ext. intros k Hk. apply sumN_ext. intros j Hj. f_equal.
    unfold grad_of. rewrite Hp. cbn [nc mk]. rewrite at_mk by lia. rewrite (at_raw l delta x k j) by (auto; lia). cbn. lra.
Qed.

(** Hidden layers with weights moved along a line. *)
Definition lines (t : R) (ls : list rlayer) (Ds : list rmat) : list rlayer :=
  map (fun lD => set_W (fst lD) (line t (l_W (fst lD)) (snd lD))) (combine ls Ds).
Definition gdirs (ls : list rlayer) (Ds : list rmat) : R := sumL (map (fun lD => gdir (fst lD) (snd lD)) (combine ls Ds)).

(** actd is the derivative of act at every pre-activation cached in the layer. *)
Definition smooth_at (l : rlayer) : Prop :=
  forall i j, i < nr (l_z l) -> j < nc (l_z l) -> is_derive (act (l_act l) : R -> R) (at_ (l_z l) i j) (actd (l_act l) (at_ (l_z l) i j)).

Lemma pre_agree (W Dm : rmat) A x i j : agree (A 0%R) x -> nr (A 0%R) = nr x -> nc (A 0%R) = nc x -> nc x + 1 = nr W -> i < nr x -> j < nc W ->
  pre (line 0 W Dm) (A 0%R) i j = pre W x i j.
Proof.
  intros H E1 E2 HW Hi Hj. unfold pre. rewrite !mdot_R. cbn [nc mk]. rewrite E2. apply sumN_ext. intros k Hk.
  rewrite !at_mk by lia. unfold line. rewrite at_mk by lia. rewrite Rmult_0_l, Rplus_0_r. f_equal. destruct k; [reflexivity|]. cbn [with_bias]. apply H; lia.
Qed.

Lemma chain : forall (ls : list rlayer) (Ds : list rmat) (x : rmat) A A' a ls', length Ds = length ls ->
  lforward ls x = Ok (a, ls') -> dpath A (nr x) (nc x) A' -> agree (A 0%R) x -> Forall smooth_at ls' ->
  exists B B', (forall t, exists q, lforward (lines t ls Ds) (A t) = Ok (B t, q)) /\ dpath B (nr a) (nc a) B' /\ agree (B 0%R) a /\
    forall d d0 ls'', nr d = nr a -> nc d = nc a -> lbackprop ls' d = Ok (d0, ls'') ->
      nr d0 = nr x /\ nc d0 = nc x /\ innerf d B' = (innerf d0 A' + gdirs ls'' Ds)%R.
Proof.
  induction ls as [|l ls IH]; intros [|Dm Ds] x A A' a ls' HL HF HA H0 HS; try discriminate.
  - cbn in HF. injection HF as <- <-. exists A, A'. split; [intros t; exists []; reflexivity|]. split; [assumption|]. split; [assumption|].
    intros d d0 ls'' E1 E2 HB. cbn in HB. injection HB as <- <-. repeat split; auto. unfold gdirs. cbn. lra.
  - cbn [lforward] in HF. apply bind_ok in HF as ([a1 l1] & HF1 & HF). apply bind_ok in HF as ([b r'] & HF2 & HF). injection HF as <- <-.
    apply forward_inv in HF1 as (Hok & -> & ->). inversion HS as [|z zs HS1 HS2]; subst.
    pose (B1 := fun t => fwd_out (set_W l (line t (l_W l) Dm)) (A t)).
    pose (B1' := fun i j => (preD x (l_W l) Dm A' i j * actd (l_act l) (pre (l_W l) x i j))%R : R).
    assert (HB1 : dpath B1 (nr (fwd_out l x)) (nc (fwd_out l x)) B1').
    { destruct HA as [HA1 HA2]. split.
      - intros t. destruct (HA1 t) as [E1 E2]. unfold B1, fwd_out. cbn. auto.
      - cbn [fwd_out nr nc mk]. intros i j Hi Hj. destruct Hok as (K1 & K2 & K3).
        apply (is_derive_ext (fun t => act (l_act l) (pre (line t (l_W l) Dm) (A t) i j) : R)).
        { intros t. destruct (HA1 t) as [E1 E2]. unfold B1, fwd_out. cbn [set_W l_W l_act]. rewrite at_mk; [reflexivity|lia|cbn; assumption]. }
        unfold B1'. apply (is_derive_comp (V := R_NormedModule) (act (l_act l) : R -> R)).
        + assert (Q := HS1 i j). cbn [fwd_layer l_z l_act nr nc mk] in Q. specialize (Q Hi Hj). rewrite at_mk in Q by assumption.
          rewrite (pre_agree (l_W l) Dm A x i j) by (auto; apply HA1). exact Q.
        + apply pre_path; auto. split; assumption. }
    assert (HA0 : agree (B1 0%R) (fwd_out l x)).
    { intros i j Hi Hj. cbn [fwd_out nr nc mk] in Hi, Hj. destruct HA as [HA1 HA2]. destruct (HA1 0%R) as [E1 E2]. destruct Hok as (K1 & K2 & K3).
      unfold B1, fwd_out. cbn [set_W l_W l_act]. rewrite !at_mk by (cbn; lia). f_equal. apply pre_agree; auto. }
    destruct (IH Ds (fwd_out l x) B1 B1' b r') as (B & B' & P1 & P2 & P3 & P4); [simpl in HL; lia|assumption|assumption|assumption|assumption|].
    exists B, B'. split; [|split; [assumption|split; [assumption|]]].
    + intros t. destruct (P1 t) as [q Hq]. unfold lines. cbn [combine map fst snd lforward]. rewrite forward_ok.
      2:{ destruct HA as [HA1 _]. destruct (HA1 t) as [E1 E2]. destruct Hok as (K1 & K2 & K3). unfold fwd_ok. cbn. lia. }
      cbn [bind]. fold (lines t ls Ds). unfold B1 in Hq. rewrite Hq. cbn [bind]. eexists. reflexivity.
    + intros d d0 ls'' E1 E2 HB. cbn [lbackprop] in HB. apply bind_ok in HB as ([d1 r''] & HB1' & HB). apply bind_ok in HB as ([d2 l''] & HB2 & HB).
      injection HB as <- <-. destruct (P4 d d1 r'' E1 E2 HB1') as (Q1 & Q2 & Q3). apply backprop_inv in HB2 as (Hb & -> & ->).
      cbn [fwd_out nr nc mk] in Q1, Q2. destruct Hok as (K1 & K2 & K3).
      split; [cbn; assumption|]. split; [cbn; lia|]. rewrite Q3. unfold gdirs at 2. cbn [combine map fst snd]. cbn [sumL fold_right].
      pose proof (layer_adjoint (fwd_layer l x) x (back_delta (fwd_layer l x) d1) Dm A') as LA. cbn [fwd_layer l_pa l_W back_delta nr nc mk] in LA.
      specialize (LA eq_refl Q1 Q2 K3).
      assert (X : innerf d1 B1' = (innerf (down (fwd_layer l x) (back_delta (fwd_layer l x) d1)) A' + gdir (back_layer (fwd_layer l x) (back_delta (fwd_layer l x) d1)) Dm)%R).
      { etransitivity; [|exact LA]. unfold innerf. rewrite Q1, Q2. apply sumN_ext. intros i Hi. apply sumN_ext. intros j Hj.
        unfold back_delta. rewrite at_mk by congruence. cbn [fwd_layer l_act l_z]. rewrite at_mk by assumption. unfold B1'. cbn. ring. }
      rewrite X. fold (gdirs r'' Ds). unfold gdirs, sumL. ring.
Qed.

(** ** Costs as functions of the output pre-activations *)
Lemma rowsR (y : rmat) : rowsD y = INR (nr y).
Proof. unfold rowsD. cbn. symmetry. apply INR_IZR_INZ. Qed.
Lemma mzip_mk (f : R -> R -> R) (a : rmat) r c (g : nat -> nat -> R) : nr a = r -> nc a = c ->
  mzip (D := Rdt) f a (mk (D := Rdt) r c g) = Ok (mk (D := Rdt) r c (fun i j => f (at_ a i j) (g i j))).
Proof. intros E1 E2. rewrite mzip_ok by (cbn; assumption). rewrite E1, E2. f_equal. apply mk_ext. intros i j Hi Hj. now rewrite at_mk. Qed.
Lemma mmap_mk (f : R -> R) r c (g : nat -> nat -> R) : mmap (D := Rdt) f (mk (D := Rdt) r c g) = mk (D := Rdt) r c (fun i j => f (g i j)).
Proof. unfold mmap. cbn [nr nc mk]. apply mk_ext. intros i j Hi Hj. now rewrite at_mk. Qed.
Lemma divs_mk r c (g : nat -> nat -> R) s : divs (D := Rdt) (mk (D := Rdt) r c g) s = mk (D := Rdt) r c (fun i j => g i j / s)%R.
Proof. apply (mmap_mk (fun x => x / s)%R). Qed.

Lemma quad_cost_mk (y : rmat) r c (h : nat -> nat -> R) : nr y = r -> nc y = c ->
  quad_cost y (mk (D := Rdt) r c h) = Ok (mk (D := Rdt) r c (fun i j => (at_ y i j - h i j) * (at_ y i j - h i j) / 2 / INR r)%R).
Proof.
  intros E1 E2. unfold quad_cost, msub, mschur. rewrite mzip_mk by assumption. cbn [bind]. rewrite mzip_mk by reflexivity. cbn [bind].
  rewrite rowsR, !divs_mk, E1. f_equal. apply mk_ext. intros i j Hi Hj. now rewrite at_mk.
Qed.
Lemma quad_costd_mk (y : rmat) r c (h : nat -> nat -> R) z : nr y = r -> nc y = c ->
  quad_costd y (mk (D := Rdt) r c h) z = Ok (mk (D := Rdt) r c (fun i j => (h i j - at_ y i j) / INR r)%R).
Proof.
  intros E1 E2. unfold quad_costd, msub. rewrite mzip_ok by (cbn; auto). cbn [bind nr nc mk]. rewrite rowsR, divs_mk, E1. f_equal.
  apply mk_ext. intros i j Hi Hj. rewrite at_mk by assumption. reflexivity.
Qed.
Lemma ce_cost_mk (y : rmat) r c (h : nat -> nat -> R) : nr y = r -> nc y = c ->
  ce_cost y (mk (D := Rdt) r c h) =
  Ok (mk (D := Rdt) r c (fun i j => - (at_ y i j * ln (h i j) + (1 - at_ y i j) * ln (1 - h i j)) / INR r)%R).
Proof.
  intros E1 E2. unfold ce_cost, msub, mschur, madd. rewrite !mmap_mk. rewrite mzip_mk by assumption. cbn [bind].
  rewrite mzip_mk by (cbn; assumption). cbn [bind]. rewrite mzip_mk by reflexivity. cbn [bind].
  rewrite rowsR, mmap_mk, divs_mk, E1. f_equal. apply mk_ext. intros i j Hi Hj. rewrite at_mk by assumption. rewrite at_mmap by lia. reflexivity.
Qed.
Lemma ce_costd_mk (y : rmat) r c (h : nat -> nat -> R) z : nr y = r -> nc y = c ->
  ce_costd y (mk (D := Rdt) r c h) z = Ok (mk (D := Rdt) r c (fun i j => (h i j - at_ y i j) / INR r)%R).
Proof. apply quad_costd_mk. Qed.
Lemma kl_cost_mk (y : rmat) r c (h : nat -> nat -> R) : nr y = r -> nc y = c ->
  kl_cost y (mk (D := Rdt) r c h) = Ok (mk (D := Rdt) r c (fun i j => at_ y i j * ln (at_ y i j / h i j) / INR r)%R).
Proof.
  intros E1 E2. unfold kl_cost, mdiv, mschur, logorithm. rewrite mzip_mk by assumption. cbn [bind]. rewrite mmap_mk, mzip_mk by assumption. cbn [bind].
  rewrite rowsR, divs_mk, E1. reflexivity.
Qed.
Lemma kl_costd_mk (y : rmat) r c (h : nat -> nat -> R) z : nr y = r -> nc y = c ->
  kl_costd y (mk (D := Rdt) r c h) z = Ok (mk (D := Rdt) r c (fun i j => at_ y i j / h i j / INR r)%R).
Proof. intros E1 E2. unfold kl_costd, mdiv. rewrite mzip_mk by assumption. cbn [bind]. rewrite rowsR, divs_mk, E1. reflexivity. Qed.
Lemma softmax_P_mk (y : rmat) r c (h : nat -> nat -> R) : nc y = c ->
  softmax_P y (mk (D := Rdt) r c h) = Ok (mk (D := Rdt) r c (fun i j => exp (h i j) * (1 / sumN c (fun k => exp (h i k))))%R).
Proof.
  intros E2. unfold softmax_P, exponential, repeatm, mschur. rewrite mmap_mk. unfold rowsum, sum1, repmat. cbn [nr nc mk]. rewrite mmap_mk, E2, Nat.mul_1_r, Nat.mul_1_l.
  rewrite mzip_mk by reflexivity. f_equal. apply mk_ext. intros i j Hi Hj. rewrite at_mk by assumption.
  rewrite Nat.mod_small by assumption. rewrite (Nat.mod_1_r j). rewrite at_mk by lia. apply (f_equal (fun v => exp (h i j) * (1 / v))%R).
  rewrite (fold_left_sum (fun k => at_ (mk (D := Rdt) r c (fun i0 j0 => exp (h i0 j0))) i k)). rewrite Rplus_0_l. apply sumN_ext. intros k Hk. now rewrite at_mk.
Qed.
Lemma sm_cost_mk (y : rmat) r c (h : nat -> nat -> R) : nr y = r -> nc y = c ->
  sm_cost y (mk (D := Rdt) r c h) =
  Ok (mk (D := Rdt) r c (fun i j => - (at_ y i j * ln (exp (h i j) * (1 / sumN c (fun k => exp (h i k))))) / INR r)%R).
Proof.
  intros E1 E2. unfold sm_cost, mschur. rewrite softmax_P_mk by assumption. cbn [bind]. rewrite mmap_mk, mzip_mk by assumption. cbn [bind].
  rewrite rowsR, mmap_mk, divs_mk, E1. reflexivity.
Qed.
Lemma sm_costd_mk (y : rmat) r c (h : nat -> nat -> R) z : nr y = r -> nc y = c ->
  sm_costd y (mk (D := Rdt) r c h) z =
  Ok (mk (D := Rdt) r c (fun i j => (exp (h i j) * (1 / sumN c (fun k => exp (h i k))) - at_ y i j) / INR r)%R).
Proof.
  intros E1 E2. unfold sm_costd, msub. rewrite softmax_P_mk by assumption. cbn [bind]. rewrite mzip_ok by (cbn; auto). cbn [bind nr nc mk].
  rewrite rowsR, divs_mk, E1. f_equal. apply mk_ext. intros i j Hi Hj. rewrite at_mk by assumption. reflexivity.
Qed.

(** P_Drift.v - C81: how much the answers of a network can change when its weights change a little, in particular by being
    saved and loaded. *)
From Coq Require Import Reals Lra Lia.
From Flocq Require Import Core.
From Verif Require Import Base Mat Act Layer Conv Misc Net NetP TrainP ExNet P_Train FunEq P_Pred RInst RMat P_Act Round P_Round SaveLoad P_Save ConfEq Dec P_Dec P_Resume.
Local Open Scope nat_scope.

(** ** Specification *)
(** A layer: number of inputs, largest absolute column sum of the weights (bias included), and for the activation a
    Lipschitz constant and a bound at 0. *)
Record dinfo := DI { d_in : nat; d_w : R; d_lip : R; d_zero : R }.
Definition lipschitz (f : R -> R) (c : R) : Prop := forall z z', (Rabs (f z - f z') <= c * Rabs (z - z'))%R.
Definition sized (b : dinfo) (l : layer Rdt) : Prop :=
  nr (l_W l) = d_in b + 1 /\ (forall j, j < nc (l_W l) -> (sumN (d_in b + 1) (fun k => Rabs (at_ (l_W l) k j)) <= d_w b)%R) /\
  lipschitz (act (l_act l)) (d_lip b) /\ (Rabs (act (l_act l) 0%R) <= d_zero b)%R /\ (0 <= d_w b)%R /\ (0 <= d_lip b)%R.
(** The same layer with every weight changed by at most rho times its size. *)
Definition nudged (rho : R) (l l' : layer Rdt) : Prop :=
  nr (l_W l') = nr (l_W l) /\ nc (l_W l') = nc (l_W l) /\ l_act l' = l_act l /\
  forall k j, k < nr (l_W l) -> j < nc (l_W l) -> (Rabs (at_ (l_W l') k j - at_ (l_W l) k j) <= rho * Rabs (at_ (l_W l) k j))%R.
(** Inputs bounded by M that differ by e lead to results bounded by [fst] that differ by [snd]. *)
Definition drift (rho : R) (Me : R * R) (b : dinfo) : R * R :=
  let '(M, e) := Me in (d_zero b + d_lip b * (d_w b * Rmax 1 M), d_lip b * (d_w b * (e + rho * Rmax 1 (M + e))))%R.
Definition near (e : R) (a b : mat Rdt) : Prop :=
  nr a = nr b /\ nc a = nc b /\ forall i j, i < nr b -> j < nc b -> (Rabs (at_ a i j - at_ b i j) <= e)%R.
(** Layers whose sizes chain. *)
Fixpoint chain (rho : R) (p : nat) (bs : list dinfo) (ls ls' : list (layer Rdt)) : Prop :=
  match bs, ls, ls' with
  | [], [], [] => True
  | b :: bs, l :: ls, l' :: ls' => d_in b = p /\ sized b l /\ nudged rho l l' /\ chain rho (nc (l_W l)) bs ls ls'
  | _, _, _ => False
  end.

Section Drift.
Context (rho : R) (Hrho : (0 <= rho)%R).
Lemma layer_drift b (l l' : layer Rdt) (x a x' a' : mat Rdt) M e : sized b l -> nudged rho l l' -> nc x = d_in b -> (0 <= M)%R -> (0 <= e)%R ->
  near e x' x -> bounded M x -> exact_layer l x a -> exact_layer l' x' a' ->
  near (snd (drift rho (M, e) b)) a' a /\ bounded (fst (drift rho (M, e) b)) a /\ (0 <= fst (drift rho (M, e) b))%R /\ (0 <= snd (drift rho (M, e) b))%R.
Proof.
  intros (S1 & S2 & S3 & S4 & W0 & L0) (N1 & N2 & N3 & N4) Hc HM He (X1 & X2 & X3) HB (A1 & A2 & A3) (B1 & B2 & B3). set (n := d_in b + 1) in *.
  assert (Main : forall i j, i < nr a -> j < nc a -> (Rabs (at_ a' i j - at_ a i j) <= snd (drift rho (M, e) b) /\ Rabs (at_ a i j) <= fst (drift rho (M, e) b))%R).
  { intros i j Hi Hj. assert (Hj' : j < nc (l_W l)) by lia. assert (Hi' : i < nr x) by lia. rewrite (A3 i j Hi Hj), (B3 i j ltac:(lia) ltac:(lia)). rewrite N3.
    set (xe := fun k => match k with 0 => 1%R | S k' => at_ x i k' end : R). set (xf := fun k => match k with 0 => 1%R | S k' => at_ x' i k' end : R).
    set (w := fun k => at_ (l_W l) k j : R). set (w' := fun k => at_ (l_W l') k j : R).
    assert (E1 : (at_ (l_W l) 0 j + sumN (nc x) (fun k => at_ x i k * at_ (l_W l) (S k) j))%R = sumN n (fun k => xe k * w k)%R).
    { unfold n. rewrite Nat.add_1_r, sumN_S, <- Hc. unfold xe, w. change (car Rdt) with R. lra. }
    assert (E2 : (at_ (l_W l') 0 j + sumN (nc x') (fun k => at_ x' i k * at_ (l_W l') (S k) j))%R = sumN n (fun k => xf k * w' k)%R).
    { unfold n. rewrite Nat.add_1_r, sumN_S, X2, <- Hc. unfold xf, w'. change (car Rdt) with R. lra. }
    change (car Rdt) with R in *. rewrite E1, E2. set (Z := sumN n (fun k => xe k * w k)%R). set (Z' := sumN n (fun k => xf k * w' k)%R).
    assert (Xf : forall k, k < n -> (Rabs (xf k - xe k) <= e /\ Rabs (xe k) <= Rmax 1 M /\ Rabs (xf k) <= Rmax 1 (M + e))%R).
    { intros [|k] Hk; unfold xf, xe.
      - rewrite Rminus_diag_eq by reflexivity. rewrite Rabs_R0, Rabs_R1. split; [assumption|]. split; apply Rmax_l.
      - assert (K : k < nc x) by (unfold n in Hk; lia). pose proof (X3 i k Hi' K) as C1. pose proof (HB i k Hi' K) as C2. split; [exact C1|]. split; [eapply Rle_trans; [exact C2|apply Rmax_r]|].
        eapply Rle_trans; [|apply Rmax_r]. pose proof (Rabs_triang (at_ x' i k - at_ x i k)%R (at_ x i k)) as TT. replace (at_ x' i k - at_ x i k + at_ x i k)%R with (at_ x' i k : R) in TT by (change (car Rdt) with R; lra). change (car Rdt) with R in *. lra. }
    assert (W1 : (sumN n (fun k => Rabs (w k)) <= d_w b)%R) by (apply S2; assumption).
    assert (Zb : (Rabs Z <= d_w b * Rmax 1 M)%R).
    { eapply Rle_trans; [apply sumN_abs_le|]. eapply Rle_trans; [apply (sumN_le' n _ (fun k => Rmax 1 M * Rabs (w k))%R)|].
      - intros k Hk. rewrite Rabs_mult. apply Rmult_le_compat_r; [apply Rabs_pos|]. apply Xf; assumption.
      - rewrite sumN_scal, Rmult_comm. apply Rmult_le_compat_r; [pose proof (Rmax1_pos M); lra|assumption]. }
    assert (Ze : (Rabs (Z' - Z) <= d_w b * (e + rho * Rmax 1 (M + e)))%R).
    { unfold Z, Z'. rewrite <- sumN_minus. eapply Rle_trans; [apply sumN_abs_le|]. eapply Rle_trans; [apply (sumN_le' n _ (fun k => (e + rho * Rmax 1 (M + e)) * Rabs (w k))%R)|].
      - intros k Hk. destruct (Xf k Hk) as (Q1 & _ & Q2). assert (Q3 : (Rabs (w' k - w k) <= rho * Rabs (w k))%R) by (apply N4; [lia|assumption]).
        replace (xf k * w' k - xe k * w k)%R with ((xf k - xe k) * w k + xf k * (w' k - w k))%R by lra. eapply Rle_trans; [apply Rabs_triang|]. rewrite !Rabs_mult.
        assert (Rabs (xf k - xe k) * Rabs (w k) <= e * Rabs (w k))%R by (apply Rmult_le_compat_r; [apply Rabs_pos|assumption]).
        assert (Rabs (xf k) * Rabs (w' k - w k) <= Rmax 1 (M + e) * (rho * Rabs (w k)))%R by (apply Rmult_le_compat; auto using Rabs_pos). lra.
      - rewrite sumN_scal, (Rmult_comm (d_w b)). apply Rmult_le_compat_l; [|assumption]. apply Rplus_le_le_0_compat; [assumption|]. apply Rmult_le_pos; [assumption|]. pose proof (Rmax1_pos (M + e)); lra. }
    cbn [drift fst snd]. split.
    - eapply Rle_trans; [apply S3|]. apply Rmult_le_compat_l; assumption.
    - pose proof (S3 Z 0%R) as Q1. rewrite Rminus_0_r in Q1. pose proof (Rabs_triang (act (l_act l) Z - act (l_act l) 0%R)%R (act (l_act l) 0%R)) as TT.
      match type of TT with (Rabs ?q <= _)%R => replace q with (act (l_act l) Z) in TT by (change (car Rdt) with R; lra) end.
      assert (d_lip b * Rabs Z <= d_lip b * (d_w b * Rmax 1 M))%R by (apply Rmult_le_compat_l; assumption). change (car Rdt) with R in *. lra. }
  assert (Z0 : (0 <= d_zero b)%R) by (eapply Rle_trans; [apply Rabs_pos|exact S4]). pose proof (Rmax1_pos M) as R1. pose proof (Rmax1_pos (M + e)) as R2.
  split; [split; [congruence|split; [congruence|intros i j Hi Hj; now apply Main]]|]. split; [intros i j Hi Hj; now apply Main|]. cbn [drift fst snd]. split.
  - apply Rplus_le_le_0_compat; [assumption|]. apply Rmult_le_pos; [assumption|]. apply Rmult_le_pos; lra.
  - apply Rmult_le_pos; [assumption|]. apply Rmult_le_pos; [assumption|]. apply Rplus_le_le_0_compat; [assumption|]. apply Rmult_le_pos; [assumption|lra].
Qed.
Lemma pass_drift : forall bs ls ls' (x a x' a' : mat Rdt) M e, chain rho (nc x) bs ls ls' -> (0 <= M)%R -> (0 <= e)%R -> near e x' x -> bounded M x ->
  exact_pass ls x a -> exact_pass ls' x' a' -> near (snd (fold_left (drift rho) bs (M, e))) a' a.
Proof.
  induction bs as [|b bs IH]; intros [|l ls] [|l' ls'] x a x' a' M e HC HM He HN HB HF HE; cbn [chain] in HC; try contradiction; cbn [exact_pass fold_left] in *.
  - subst. assumption.
  - destruct HC as (C1 & C2 & C3 & C4). destruct HF as (y & F1 & F2). destruct HE as (y' & E1 & E2).
    destruct (layer_drift b l l' x y x' y' M e C2 C3 (eq_sym C1) HM He HN HB F1 E1) as (D1 & D2 & D3 & D4).
    rewrite (surjective_pairing (drift rho (M, e) b)). destruct F1 as (_ & Q & _). apply (IH ls ls' y a y' a'); try assumption. rewrite Q. assumption.
Qed.
Lemma chain_fits ls : forall bs p ls' f f', chain rho p bs (ls ++ [f]) (ls' ++ [f']) -> 1 <= p -> Forall (fun l : layer Rdt => 1 <= nc (l_W l)) ls ->
  exists q, fits p ls q /\ fits p ls' q /\ 1 <= q /\ nr (l_W f) = q + 1 /\ nr (l_W f') = q + 1 /\ nc (l_W f') = nc (l_W f).
Proof.
  induction ls as [|l ls IH]; intros [|b bs] p [|l' ls'] f f' HC Hp HF; cbn [app chain] in HC; try contradiction.
  - destruct HC as (<- & (S1 & _) & (N1 & N2 & _) & _). exists (d_in b). repeat split; try assumption; congruence.
  - destruct HC as (_ & _ & _ & HC). destruct bs, ls'; exact (False_ind _ HC).
  - destruct HC as (_ & _ & _ & HC). destruct bs, ls; exact (False_ind _ HC).
  - destruct HC as (<- & (S1 & _) & (N1 & N2 & _) & HC). inversion HF as [|? ? F1 F2]; subst.
    destruct (IH _ _ _ _ _ HC F1 F2) as (q & Q1 & Q2 & Q3). exists q. cbn [fits]. rewrite N2, N1, S1. repeat split; try assumption; try lia; apply Q3.
Qed.

(** Two networks with the same layers up to a relative change rho of the weights: forward passes on the same input. *)
Theorem C81_forward : forall junk junk' (n : net Rdt) (H : lheap Rdt) (n' : net Rdt) (H' : lheap Rdt) ls ls' bs (x : mat Rdt) M,
  dense_hidden n H -> dense_hidden n' H' -> hidden_layers n H = Ok ls -> hidden_layers n' H' = Ok ls' ->
  chain rho (nc x) bs (ls ++ [o_l (n_output n)]) (ls' ++ [o_l (n_output n')]) -> Forall (fun l => 1 <= nc (l_W l)) ls ->
  1 <= nr x -> 1 <= nc x -> (0 <= M)%R -> bounded M x ->
  exists a n1 H1 a' n1' H1', net_forward (D := Rdt) junk n H x = Ok (a, n1, H1) /\ net_forward (D := Rdt) junk' n' H' x = Ok (a', n1', H1') /\
    nr a = nr x /\ nc a = nc (l_W (o_l (n_output n))) /\ near (snd (fold_left (drift rho) bs (M, 0%R))) a' a.
Proof.
  intros j j' n H n' H' ls ls' bs x M Dn Dn' Ln Ln' HC HF Hx Hc HM HB. destruct (chain_fits _ _ _ _ _ _ HC Hc HF) as (q & Q1 & Q2 & Q3 & Q4 & Q5 & Q6).
  destruct (dense_fwd (D := Rdt) j n H ls x q Dn Ln Hx Q1 Q3 Q4) as (b & k & a & n1 & H1 & A1 & A2 & A3 & A3' & A4).
  destruct (dense_fwd (D := Rdt) j' n' H' ls' x q Dn' Ln' Hx Q2 Q3 Q5) as (b' & k' & a' & n1' & H1' & B1 & B2 & B3 & B3' & B4).
  exists a, n1, H1, a', n1', H1'. split; [exact A4|]. split; [exact B4|]. split; [rewrite A2; cbn; lia|]. split; [rewrite A2; reflexivity|].
  eapply pass_drift; [exact HC|exact HM|lra| |exact HB| |].
  - split; [reflexivity|]. split; [reflexivity|]. intros. rewrite Rminus_diag_eq, Rabs_R0 by reflexivity. lra.
  - apply exact_pass_app. exists b. split; [eapply lforward_exact; exact A1|]. cbn [exact_pass]. exists a. split; [|reflexivity]. rewrite A2. now apply fwd_exact.
  - apply exact_pass_app. exists b'. split; [eapply lforward_exact; exact B1|]. cbn [exact_pass]. exists a'. split; [|reflexivity]. rewrite B2. now apply fwd_exact.
Qed.
Lemma predict_when (n : net Rdt) (H : lheap Rdt) junk x a n1 H1 : net_forward (D := Rdt) junk n H x = Ok (a, n1, H1) -> 1 <= nc a -> exists p n2 H2, net_predict (D := Rdt) junk n H x = Ok (p, n2, H2).
Proof.
  intros A Hc. unfold net_predict. rewrite A. cbn [bind]. pose proof A as G. unfold net_forward in G. destruct (input_forward (n_input n) x) as [cur i'].
  apply bind_ok in G as ([cur' H2] & _ & G). apply bind_ok in G as ([r o'] & G2 & G). injection G as -> <- ->. apply out_forward_inv in G2 as (_ & -> & ->).
  unfold argmax. cbn [set_result set_output set_input n_output o_l fwd_layer l_a] in *. destruct (Nat.eqb_spec (nc (fwd_out (o_l (n_output n)) cur')) 0) as [Z0|Z0]; [exfalso; lia|]. cbn [andb bind]. eauto.
Qed.
(** predict names the same class on every row on which the class wins by more than twice the drift. *)
Theorem C81_predict : forall junk junk' (n : net Rdt) (H : lheap Rdt) (n' : net Rdt) (H' : lheap Rdt) ls ls' bs (x : mat Rdt) M,
  dense_hidden n H -> dense_hidden n' H' -> hidden_layers n H = Ok ls -> hidden_layers n' H' = Ok ls' ->
  chain rho (nc x) bs (ls ++ [o_l (n_output n)]) (ls' ++ [o_l (n_output n')]) -> Forall (fun l => 1 <= nc (l_W l)) ls ->
  1 <= nr x -> 1 <= nc x -> 1 <= nc (l_W (o_l (n_output n))) -> (0 <= M)%R -> bounded M x ->
  exists a n1 H1 p n2 H2 p' n2' H2', net_forward (D := Rdt) junk n H x = Ok (a, n1, H1) /\ net_predict (D := Rdt) junk n H x = Ok (p, n2, H2) /\ net_predict (D := Rdt) junk' n' H' x = Ok (p', n2', H2') /\
    nr a = nr x /\ nr p = nr x /\ nr p' = nr x /\ nc a = nc (l_W (o_l (n_output n))) /\
    forall i c, i < nr a -> c < nc a -> (forall j, j < nc a -> j <> c -> (at_ a i j + 2 * snd (fold_left (drift rho) bs (M, 0)) < at_ a i c)%R) ->
      (at_ p i 0 : R) = INR c /\ (at_ p' i 0 : R) = INR c /\ (Rabs (at_ p' i 1 - at_ p i 1) <= snd (fold_left (drift rho) bs (M, 0)))%R.
Proof.
  intros jk jk' n H n' H' ls ls' bs x M Dn Dn' Ln Ln' HC HF Hx Hc Ho HM HB.
  destruct (C81_forward jk jk' n H n' H' ls ls' bs x M Dn Dn' Ln Ln' HC HF Hx Hc HM HB) as (a & n1 & H1 & a' & n1' & H1' & A1 & A2 & A3 & A4 & A5). pose proof A5 as (C1 & C2 & C3). set (E := snd (fold_left (drift rho) bs (M, 0%R))) in *.
  destruct (predict_when _ _ _ _ _ _ _ A1 ltac:(lia)) as (p & n2 & H2 & P1). destruct (predict_when _ _ _ _ _ _ _ A2 ltac:(lia)) as (p' & n2' & H2' & P2).
  destruct (C34_predict (D := Rdt) jk n H x p n2 H2 P1) as (z & n3 & K3 & R1 & _ & R2 & _ & _ & _ & _ & R3). rewrite A1 in R1. injection R1 as <- _ _.
  destruct (C34_predict (D := Rdt) jk' n' H' x p' n2' H2' P2) as (z & n3' & K3' & S1 & _ & S2 & _ & _ & _ & _ & S3). rewrite A2 in S1. injection S1 as <- _ _.
  exists a, n1, H1, p, n2, H2, p', n2', H2'. split; [exact A1|]. split; [exact P1|]. split; [exact P2|]. split; [exact A3|]. split; [congruence|]. split; [congruence|]. split; [exact A4|].
  intros i c Hi Hcc HW. assert (E0 : (0 <= E)%R) by (eapply Rle_trans; [apply Rabs_pos|exact (C3 i c Hi Hcc)]).
  destruct (R3 i Hi (ordered_R a i)) as (k & (K1 & K2 & _) & K4 & K5). destruct (S3 i ltac:(lia) (ordered_R a' i)) as (k' & (J1 & J2 & _) & J4 & J5).
  assert (Ek : k = c).
  { destruct (Nat.eq_dec k c) as [|N]; [assumption|]. exfalso. pose proof (HW k K1 N) as G. specialize (K2 c Hcc). cbn in K2. unfold Rltb' in K2. destruct (Rlt_dec _ _) as [|X]; [discriminate|]. apply X. change (car Rdt) with R in *; lra. }
  assert (Ek' : k' = c).
  { destruct (Nat.eq_dec k' c) as [|N]; [assumption|]. exfalso. rewrite C2 in J1. pose proof (HW k' J1 N) as G. pose proof (C3 i k' Hi J1) as G1. pose proof (C3 i c Hi Hcc) as G2.
    apply Rabs_le_inv in G1, G2. specialize (J2 c ltac:(lia)). cbn in J2. unfold Rltb' in J2. destruct (Rlt_dec _ _) as [|X]; [discriminate|]. apply X. change (car Rdt) with R in *; lra. }
  subst k k'. rewrite K4, J4, K5, J5. cbn [dofZ Rdt]. rewrite INR_IZR_INZ. split; [reflexivity|]. split; [reflexivity|]. apply C3; assumption.
Qed.
End Drift.

(** A closed form when the activations are 1-Lipschitz and vanish at 0 (identity, rectifier, tanh, arctan, ...), the inputs
    are at most 1 in size and the column sums at most w: n layers drift by at most w^n ((1+rho)^n - 1). *)
Theorem C81_closed : forall (rho w M : R) bs, (0 <= rho)%R -> (1 <= w)%R -> (0 <= M <= 1)%R ->
  Forall (fun b => (0 <= d_lip b <= 1 /\ 0 <= d_zero b <= 0 /\ 0 <= d_w b <= w)%R) bs ->
  (snd (fold_left (drift rho) bs (M, 0)) <= w ^ length bs * ((1 + rho) ^ length bs - 1))%R.
Proof.
  intros rho w M bs Hr Hw HM HF.
  enough (G : forall k m e, (0 <= m <= w ^ k)%R -> (0 <= e <= w ^ k * ((1 + rho) ^ k - 1))%R -> (snd (fold_left (drift rho) bs (m, e)) <= w ^ (k + length bs) * ((1 + rho) ^ (k + length bs) - 1))%R).
  { apply (G 0 M 0%R); cbn; lra. }
  induction HF as [|b bs (L & Z & W) HF IH]; intros k m e Hm He; [cbn [length fold_left]; rewrite Nat.add_0_r; apply He|].
  cbn [length fold_left]. replace (k + S (length bs)) with (S k + length bs) by lia. cbn [drift]. pose proof (pow_R1_Rle w k Hw) as Pk. pose proof (pow_R1_Rle (1 + rho) k ltac:(lra)) as Pr.
  assert (M1 : (1 <= Rmax 1 m <= w ^ k)%R) by (split; [apply Rmax_l|apply Rmax_lub; lra]). assert (M2 : (1 <= Rmax 1 (m + e) <= w ^ k * (1 + rho) ^ k)%R) by (split; [apply Rmax_l|apply Rmax_lub; nra]).
  set (a := Rmax 1 m) in *. set (c := Rmax 1 (m + e)) in *. set (p := (w ^ k)%R) in *. set (r := ((1 + rho) ^ k)%R) in *. apply IH.
  - cbn [pow]. fold p. assert (0 <= d_w b * a <= w * p)%R by (split; [apply Rmult_le_pos; lra|apply Rmult_le_compat; lra]). nra.
  - cbn [pow]. fold p r. assert (Q : (0 <= e + rho * c <= p * ((1 + rho) * r - 1))%R). { split; [nra|]. assert (rho * c <= rho * (p * r))%R by (apply Rmult_le_compat_l; lra). nra. }
    set (q := (e + rho * c)%R) in *. assert (0 <= d_w b * q <= w * (p * ((1 + rho) * r - 1)))%R by (split; [apply Rmult_le_pos; lra|apply Rmult_le_compat; lra]). nra.
Qed.

(** ** After save and load *)
(** The layers have the given sizes and bounds, one after the other. *)
Fixpoint sized_chain (p : nat) (bs : list dinfo) (ls : list (layer Rdt)) : Prop :=
  match bs, ls with
  | [], [] => True
  | b :: bs, l :: ls => d_in b = p /\ sized b l /\ sized_chain (nc (l_W l)) bs ls
  | _, _ => False
  end.
Lemma chain_of rho : forall bs p ls ls', sized_chain p bs ls -> Forall2 (nudged rho) ls ls' -> chain rho p bs ls ls'.
Proof.
  induction bs as [|b bs IH]; intros p [|l ls] ls' HS HF; cbn [sized_chain] in HS; try contradiction; inversion HF; subst; cbn [chain]; auto. destruct HS as (A & B & C). auto.
Qed.
Lemma mmap_at_ {f : R -> R} (m : mat Rdt) i j : i < nr m -> j < nc m -> at_ (mmap (D := Rdt) f m) i j = f (at_ m i j).
Proof. intros. unfold mmap. now rewrite at_mk. Qed.
Lemma nudged_print (l l2 : layer Rdt) w : setup l l2 -> w = mmap (D := Rdt) reread6 (l_W l) -> Forall ordinary (rowlist (l_W l)) -> nudged (1 / 199999) l (set_W l2 w).
Proof.
  intros (A & B & C & E & F) -> O. split; [reflexivity|]. split; [reflexivity|]. split; [exact F|]. intros k j Hk Hj. cbn [l_W set_W]. rewrite mmap_at_ by assumption.
  rewrite Forall_forall in O. assert (I : In (at_ (l_W l) k j : R) (rowlist (l_W l))).
  { rewrite <- (rowlist_nth (l_W l) k j d0 Hk Hj). apply nth_In. rewrite rowlist_length. nia. }
  destruct (C79_weight _ (O _ I)) as (_ & _ & Q & _). lra.
Qed.
Lemma nudged_all (H H2 H' : lheap Rdt) : forall ids ids2 ls ls2, dense_at H ids ls -> dense_at H2 ids2 ls2 -> Forall2 setup ls ls2 ->
  Forall2 (fun p q => hW H' q = mmap (D := Rdt) reread6 (hW H p)) ids ids2 -> (forall p, In p ids -> Forall ordinary (rowlist (hW H p))) ->
  (forall q l, In q ids2 -> nth_error H2 q = Some (HDense l) -> exists w, nth_error H' q = Some (HDense (set_W l w))) ->
  exists ls', dense_at H' ids2 ls' /\ Forall2 (nudged (1 / 199999)) ls ls'.
Proof.
  intros ids ids2 ls ls2 D1. revert ids2 ls2. induction D1 as [|p l ids ls Hp D1 IH]; intros ids2 ls2 D2 HS HF HO HR; inversion HF as [|? q ? ids2' HF1 HF2]; subst; inversion HS as [|? l2 ? ls2' HS1 HS2]; subst.
  - exists []. split; constructor.
  - inversion D2 as [|? ? ? ? Hq D2']; subst. destruct (HR q l2 (or_introl eq_refl) Hq) as (w & Ew). destruct (IH _ _ D2' HS2 HF2) as (ls' & A & B); [intros; apply HO; now right|intros; apply HR; [now right|assumption]|].
    exists (set_W l2 w :: ls'). split; [constructor; assumption|]. constructor; [|exact B]. unfold hW in HF1. rewrite Hp, Ew in HF1. cbn [h_base l_W set_W] in HF1. apply nudged_print; [exact HS1|exact HF1|].
    specialize (HO p (or_introl eq_refl)). unfold hW in HO. rewrite Hp in HO. exact HO.
Qed.
(** A network saved and loaded into one set up in the same way: on every input of size at most M the outputs differ by at
    most the drift with rho = 1/199999, and predict names the same class where it wins by more than twice that. *)
Theorem C81_checkpoint : forall (n : net Rdt) (H : lheap Rdt) (n2 : net Rdt) (H2 : lheap Rdt) ls,
  same_setup n H n2 H2 -> hidden_layers n H = Ok ls -> Forall ordinary (slots n H) -> Forall (fun l => 1 <= nc (l_W l)) ls ->
  exists txt n' H', net_save (D := Rdt) print6 n H = Ok txt /\ net_load (D := Rdt) strtod n2 H2 (Some txt) = Ok (n', H') /\
  forall junk junk' bs (x : mat Rdt) M, sized_chain (nc x) bs (ls ++ [o_l (n_output n)]) -> 1 <= nr x -> 1 <= nc x -> 1 <= nc (l_W (o_l (n_output n))) -> (0 <= M)%R -> bounded M x ->
    let E := snd (fold_left (drift (1 / 199999)) bs (M, 0%R)) in
    exists a n1 H1 a' n1' H1' p n2' H2' p' n3' H3', net_forward (D := Rdt) junk n H x = Ok (a, n1, H1) /\ net_forward (D := Rdt) junk' n' H' x = Ok (a', n1', H1') /\ near E a' a /\
      net_predict (D := Rdt) junk n H x = Ok (p, n2', H2') /\ net_predict (D := Rdt) junk' n' H' x = Ok (p', n3', H3') /\
      forall i c, i < nr a -> c < nc a -> (forall j, j < nc a -> j <> c -> (at_ a i j + 2 * E < at_ a i c)%R) -> (at_ p i 0 : R) = INR c /\ (at_ p' i 0 : R) = INR c.
Proof.
  intros n H n2 H2 ls SS HL O HF. pose proof SS as (Dn & Dn2 & k & k2 & K & K2 & S1 & SO & SC & SD). pose proof (eq_trans (eq_sym HL) K) as Q. injection Q as <-.
  destruct (dense_of_hidden n H Dn) as (z & Z & Dl). pose proof (eq_trans (eq_sym HL) Z) as Q. injection Q as <-. destruct (dense_of_hidden n2 H2 Dn2) as (z & Z2 & Dl2). pose proof (eq_trans (eq_sym K2) Z2) as Q. injection Q as <-.
  assert (V : forall (n : net Rdt) (H : lheap Rdt), dense_hidden n H -> valid n H). { intros m0 h0 [_ HD]. unfold valid. apply Forall_forall. intros p Hp. destruct (HD p Hp) as [l Hl]. apply nth_error_Some. congruence. }
  assert (SZ : same_sizes n H n2 H2).
  { split; [|split; symmetry; apply SO]. destruct Dl as [_ Dl], Dl2 as [_ Dl2]. clear -Dl Dl2 S1. revert k2 Dl2 S1. generalize (n_hidden n2) as ids2. induction Dl as [|p l ids ls Hp Dl IH]; intros ids2 k2 Dl2 S1; inversion S1 as [|? ? ? ? (A & B & _) S2]; subst; inversion Dl2 as [|? ? ? ? Hq Dl2']; subst; constructor; eauto.
    unfold hW. rewrite Hp, Hq. cbn. auto. }
  assert (PR : Forall printable6 (slots n H)) by (eapply Forall_impl; [|exact O]; intros w Hw; now apply printable_double, Hw).
  destruct (C47_layers (D := Rdt) print6 strtod n H n2 H2 (V _ _ Dn) (V _ _ Dn2) (proj1 Dn2) SZ PR) as (txt & n' & H' & SV & LD & RW1 & HW & OW). exists txt, n', H'. split; [exact SV|]. split; [exact LD|].
  assert (EH : n_hidden n' = n_hidden n2) by (rewrite (rw_net _ _ _ _ RW1); reflexivity). destruct (slots_split n H _ O) as [O1 O2].
  destruct (nudged_all H H2 H' _ _ _ _ (proj2 Dl) (proj2 Dl2) S1 HW O1) as (ls' & DL' & NG).
  { intros q l Hq Hl. destruct (rw_hid _ _ _ _ RW1 q _ Hl Hq) as (w & Ew & _). exists w. exact Ew. }
  assert (Dn' : dense_net n' H' ls') by (split; rewrite EH; [apply Dn2|exact DL']).
  assert (NO : nudged (1 / 199999) (o_l (n_output n)) (o_l (n_output n'))).
  { rewrite (rw_net _ _ _ _ RW1). cbn [n_output net_setoutputw set_output o_l]. apply nudged_print; [exact SO|exact OW|exact O2]. }
  intros jk jk' bs x M SC' Hx Hc Ho HM HB E. assert (CH : chain (1 / 199999) (nc x) bs (ls ++ [o_l (n_output n)]) (ls' ++ [o_l (n_output n')])) by (apply chain_of; [exact SC'|]; apply Forall2_app; auto).
  assert (R0 : (0 <= 1 / 199999)%R) by lra.
  destruct (C81_forward _ R0 jk jk' n H n' H' ls ls' bs x M Dn (dense_net_hidden _ _ _ Dn') HL (hidden_layers_dense _ _ _ (proj2 Dn')) CH HF Hx Hc HM HB) as (a & n1 & H1 & a' & n1' & H1' & A1 & A2 & A3 & A4 & A5).
  destruct (C81_predict _ R0 jk jk' n H n' H' ls ls' bs x M Dn (dense_net_hidden _ _ _ Dn') HL (hidden_layers_dense _ _ _ (proj2 Dn')) CH HF Hx Hc Ho HM HB) as (b & m1 & J1 & p & m2 & J2 & p' & m2' & J2' & B1 & B2 & B3 & _ & _ & _ & _ & B4).
  rewrite A1 in B1. injection B1 as <- <- <-. exists a, n1, H1, a', n1', H1', p, m2, J2, p', m2', J2'. repeat (split; [assumption|]). intros i c Hi Hcc HWn. destruct (B4 i c Hi Hcc HWn) as (G1 & G2 & _). auto.
Qed.

(** ** The hypotheses can be met: two inputs, two rectifier units, two outputs, weights up to 2 *)
Lemma ordinary_half : ordinary (1 / 2).
Proof.
  assert (E : (1 / 2 = bpow radix2 (-1))%R) by (cbn; lra). rewrite E. assert (A : Rabs (bpow radix2 (-1)) = bpow radix2 (-1)) by (apply Rabs_right; left; apply bpow_gt_0).
  split; [split; [apply generic_format_bpow; cbv; discriminate|rewrite A; apply bpow_lt; lia]|right; rewrite A; apply bpow_le; lia].
Qed.
Definition drn : net Rdt := exr_n Rdt exr_w2.
Definition drH : lheap Rdt := [HDense (exr_l Rdt relu exr_w1)].
Definition drb : list dinfo := [DI 2 3 1 0; DI 2 2 1 0].
Example C81_example : same_setup drn drH drn drH /\ hidden_layers drn drH = Ok [exr_l Rdt relu exr_w1] /\ Forall ordinary (slots drn drH) /\
  sized_chain 2 drb ([exr_l Rdt relu exr_w1] ++ [o_l (n_output drn)]) /\ bounded 1 (Mat (D := Rdt) 1 2 exr_x) /\
  (1 / 2 + 2 * snd (fold_left (drift (1 / 199999)) drb (1, 0)) < 2)%R.
Proof.
  split; [|split; [reflexivity|split; [|split; [|split]]]].
  - assert (DH : dense_hidden drn drH). { split; [repeat constructor; intros []|]. intros p [<-|[]]. eexists. reflexivity. }
    split; [exact DH|]. split; [exact DH|]. exists [exr_l Rdt relu exr_w1], [exr_l Rdt relu exr_w1]. repeat split. repeat constructor.
  - change (slots drn drH) with [0; 1; 1; -1; 1; 1; 0; 1/2; 2; 0; 0; 1]%R. repeat (apply Forall_cons; [first [exact ordinary_half|apply (ordinary_int 0); reflexivity|apply (ordinary_int 1); reflexivity|apply (ordinary_int (-1)); reflexivity|apply (ordinary_int 2); reflexivity]|]). apply Forall_nil.
  - split; [reflexivity|]. split; [|split; [reflexivity|split; [|exact I]]].
    + split; [reflexivity|]. split; [intros [|[|j]] Hj; cbn in Hj; try lia; unfold sumN, sumL, at_; cbn; unfold Rabs; repeat destruct (Rcase_abs _); lra|]. split.
      * intros z z'. cbn. unfold f_relu. cbn. unfold Rleb'. destruct (Rle_dec 0 z), (Rle_dec 0 z'); unfold Rabs; repeat destruct (Rcase_abs _); lra.
      * cbn. unfold f_relu. cbn. unfold Rleb'. destruct (Rle_dec 0 0); rewrite Rabs_R0; lra.
    + split; [reflexivity|]. split; [intros [|[|j]] Hj; cbn in Hj; try lia; unfold sumN, sumL, at_; cbn; unfold Rabs; repeat destruct (Rcase_abs _); lra|]. split.
      * intros z z'. cbn. unfold f_identity. lra.
      * cbn. unfold f_identity. rewrite Rabs_R0. lra.
  - intros [|i] [|[|j]] Hi Hj; cbn in Hi, Hj; try lia; unfold at_; cbn; rewrite ?Rabs_R1, ?Rabs_R0; lra.
  - pose proof (C81_closed (1 / 199999) 3 1 drb ltac:(lra) ltac:(lra) ltac:(lra)) as Q. cbn [length drb] in Q. assert (F : Forall (fun b => (0 <= d_lip b <= 1 /\ 0 <= d_zero b <= 0 /\ 0 <= d_w b <= 3)%R) drb) by (repeat constructor; cbn; lra). specialize (Q F). cbn [pow] in Q. lra.
Qed.

(** Heavy.v - gradient steps with momentum on a smooth convex function of a matrix of weights. *)
From Coq Require Import Reals Lra Psatz.
From Coq Require Import Arith List Lia.
From Verif Require Import RMat Convex.
Local Open Scope R_scope.

Section Heavy.
Context (m c : nat) (f : (nat -> nat -> R) -> R) (g : (nat -> nat -> R) -> nat -> nat -> R) (L eta mu : R).
Notation IP := (ip m c).
Notation D := diff.
Context (HU : forall V W, f V <= f W + IP (g W) (D V W) + L / 2 * IP (D V W) (D V W)).
Context (HC : forall V W, f W + IP (g W) (D V W) <= f V).
Context (He : 0 < eta) (Hm : 0 <= mu < 1).

(** Weights, velocity. *)
Definition vel (W V : nat -> nat -> R) i j : R := mu * V i j + (1 - mu) * g W i j.
Definition hstep (W V : nat -> nat -> R) i j : R := W i j - eta * vel W V i j.
Fixpoint hiter (W V : nat -> nat -> R) (k : nat) : (nat -> nat -> R) * (nat -> nat -> R) :=
  match k with O => (W, V) | S k => let (W', V') := hiter W V k in (hstep W' V', vel W' V') end.
Lemma ipl A B (a b : R) C : IP A (fun i j => a * B i j + b * C i j) = a * IP A B + b * IP A C.
Proof. apply ip_lin. Qed.
Lemma ipe A A' B B' : (forall i j, A i j = A' i j) -> (forall i j, B i j = B' i j) -> IP A B = IP A' B'.
Proof. intros E1 E2. apply ip_ext; auto. Qed.
Lemma ipp A : 0 <= IP A A. Proof. apply ip_pos. Qed.
Lemma ips A B : IP A B = IP B A. Proof. apply ip_sym. Qed.
Lemma ip_scal A B (a : R) : IP A (fun i j => a * B i j) = a * IP A B.
Proof. rewrite (ipe A A (fun i j => a * B i j) (fun i j => a * B i j + 0 * B i j)) by (intros; ring). rewrite ipl. ring. Qed.

Definition cst := eta * mu / (2 * (1 - mu)).
(** The objective plus a multiple of the squared velocity never grows; no convexity needed. *)
Lemma heavy_down W V : let W' := hstep W V in let V' := vel W V in
  f W' + (cst + eta * (1 - eta * L / 2)) * IP V' V' <= f W + cst * IP V V.
Proof.
  cbn zeta. set (V' := vel W V). pose proof (HU (hstep W V) W) as U.
  assert (E1 : IP (g W) (D (hstep W V) W) = - eta * IP (g W) V'). { rewrite (ipe _ (g W) _ (fun i j => - eta * V' i j)) by (intros; unfold diff, hstep; fold V'; ring). apply ip_scal. }
  assert (E2 : IP (D (hstep W V) W) (D (hstep W V) W) = eta * eta * IP V' V').
  { rewrite (ipe _ (fun i j => - eta * V' i j) _ (fun i j => - eta * V' i j)) by (intros; unfold diff, hstep; fold V'; ring). rewrite ip_scal, ips, ip_scal. ring. }
  assert (E3 : (1 - mu) * IP (g W) V' = IP V' V' - mu * IP V' V).
  { rewrite ips, <- ip_scal. rewrite (ipe V' V' (fun i j => (1 - mu) * g W i j) (fun i j => 1 * V' i j + - mu * V i j)) by (intros; unfold V', vel; ring). rewrite ipl. ring. }
  assert (E4 : 2 * IP V' V <= IP V V + IP V' V').
  { pose proof (ipp (fun i j => 1 * V' i j + -1 * V i j)) as P. rewrite ipl in P. rewrite !(ips (fun i j => 1 * V' i j + -1 * V i j)) in P. rewrite !ipl in P. rewrite (ips V V') in P. lra. }
  rewrite E1, E2 in U. set (a := IP V' V') in *. set (b := IP V V) in *. set (q := IP V' V) in *. set (h := IP (g W) V') in *.
  assert (Eh : h = (a - mu * q) / (1 - mu)) by (apply (Rmult_eq_reg_l (1 - mu)); [|lra]; rewrite E3; field; lra).
  assert (K : (a - mu * ((a + b) / 2)) / (1 - mu) <= h). { rewrite Eh. apply Rmult_le_compat_r; [left; apply Rinv_0_lt_compat; lra|]. nra. }
  apply (Rmult_le_compat_l eta) in K; [|lra]. replace (eta * ((a - mu * ((a + b) / 2)) / (1 - mu))) with (eta * a + cst * a - cst * b) in K by (unfold cst; field; lra). nra.
Qed.
Context (J0 : R) (HJ : forall V, J0 <= f V) (HL : 0 < L).
Lemma grad_bound W : IP (g W) (g W) <= 2 * L * (f W - J0).
Proof.
  pose proof (HU (fun i j => W i j - / L * g W i j) W) as U. set (W' := fun i j => W i j - / L * g W i j) in *. pose proof (HJ W').
  assert (E1 : IP (g W) (D W' W) = - / L * IP (g W) (g W)). { rewrite (ipe _ (g W) _ (fun i j => - / L * g W i j)) by (intros; unfold diff, W'; ring). apply ip_scal. }
  assert (E2 : IP (D W' W) (D W' W) = / L * / L * IP (g W) (g W)).
  { rewrite (ipe _ (fun i j => - / L * g W i j) _ (fun i j => - / L * g W i j)) by (intros; unfold diff, W'; ring). rewrite ip_scal, ips, ip_scal. ring. }
  rewrite E1, E2 in U. set (a := IP (g W) (g W)) in *. replace (L / 2 * (/ L * / L * a)) with (/ L * a / 2) in U by (field; lra). assert (A : / L * a <= 2 * (f W - J0)) by lra. apply (Rmult_le_compat_l L) in A; [|lra]. replace (L * (/ L * a)) with a in A by (field; lra). lra.
Qed.
(** The point the weights are heading for. *)
Definition aim (W V : nat -> nat -> R) i j : R := W i j - eta * mu / (1 - mu) * V i j.
Lemma heavy_key Wp W V U : (forall i j, W i j = Wp i j - eta * V i j) ->
  2 * eta * (1 - eta * L) * (f W - J0) + IP (D (aim (hstep W V) (vel W V)) U) (D (aim (hstep W V) (vel W V)) U) + 2 * eta * (mu / (1 - mu)) * f W <=
  IP (D (aim W V) U) (D (aim W V) U) + 2 * eta * (f U - J0) + 2 * eta * (mu / (1 - mu)) * f Wp.
Proof.
  intros EW. set (Z := aim W V). set (Z' := aim (hstep W V) (vel W V)). set (r := mu / (1 - mu)).
  assert (Hr : 0 <= r) by (unfold r; apply Rmult_le_pos; [lra|left; apply Rinv_0_lt_compat; lra]).
  assert (EZ : forall i j, Z' i j = Z i j - eta * g W i j). { intros. unfold Z', Z, aim, hstep, vel. field. lra. }
  assert (E1 : IP (D Z' U) (D Z' U) = IP (D Z U) (D Z U) - 2 * eta * IP (g W) (D Z U) + eta * eta * IP (g W) (g W)).
  { rewrite (ipe _ (fun i j => 1 * D Z U i j + - eta * g W i j) _ (fun i j => 1 * D Z U i j + - eta * g W i j)) by (intros; unfold diff; rewrite EZ; ring). rewrite ipl, !(ips (fun i j => 1 * D Z U i j + - eta * g W i j)), !ipl, (ips (D Z U) (g W)). ring. }
  assert (E2 : IP (g W) (D Z U) = - IP (g W) (D U W) - r * IP (g W) (D Wp W)).
  { rewrite (ipe _ (g W) _ (fun i j => -1 * D U W i j + - r * D Wp W i j)) by (intros; unfold Z, aim, diff; rewrite ?EW; unfold r; field; lra). rewrite ipl. ring. }
  pose proof (HC U W) as C1. pose proof (HC Wp W) as C2. pose proof (grad_bound W) as GB. set (gg := IP (g W) (g W)) in *.
  assert (A : (f W - f U) + r * (f W - f Wp) <= IP (g W) (D Z U)). { rewrite E2. apply (Rmult_le_compat_l r) in C2; [|exact Hr]. lra. }
  rewrite E1. apply (Rmult_le_compat_l (2 * eta)) in A; [|lra]. apply (Rmult_le_compat_l (eta * eta)) in GB; [|nra]. nra.
Qed.
Context (W0 : nat -> nat -> R).
Notation w k := (fst (hiter W0 (fun _ _ => 0) k)).
Notation v k := (snd (hiter W0 (fun _ _ => 0) k)).
Lemma hiter_S k : w (S k) = hstep (w k) (v k) /\ v (S k) = vel (w k) (v k).
Proof. cbn [hiter]. destruct (hiter W0 (fun _ _ => 0) k). split; reflexivity. Qed.
Definition energy k := f (w k) + cst * IP (v k) (v k).
Lemma v0 : IP (v 0%nat) (v 0%nat) = 0. Proof. cbn [hiter snd]. rewrite (ipe _ (fun _ _ => 0 * 0) _ (fun _ _ => 0 * 0)) by (intros; ring). rewrite ip_scal. ring. Qed.
Lemma cst_pos : 0 <= cst. Proof. unfold cst. apply Rmult_le_pos; [nra|left; apply Rinv_0_lt_compat; lra]. Qed.
Lemma energy_down k : energy (S k) + eta * (1 - eta * L / 2) * IP (v (S k)) (v (S k)) <= energy k.
Proof. unfold energy. destruct (hiter_S k) as [-> ->]. pose proof (heavy_down (w k) (v k)) as A. cbn zeta in A. lra. Qed.
Lemma energy_mono k j : eta * L <= 2 -> energy (k + j)%nat <= energy k.
Proof.
  intros Hl. induction j as [|j IH]; [rewrite Nat.add_0_r; lra|]. rewrite Nat.add_succ_r. pose proof (energy_down (k + j)) as A. pose proof (ipp (v (S (k + j)))) as P.
  assert (0 <= eta * (1 - eta * L / 2) * IP (v (S (k + j))) (v (S (k + j)))) by (apply Rmult_le_pos; [nra|exact P]). lra.
Qed.
Lemma energy_sum k : eta * (1 - eta * L / 2) * sumN (S k) (fun s => IP (v s) (v s)) + energy k <= f W0.
Proof.
  induction k as [|k IH].
  - rewrite sumN_last, sumN_0. unfold energy. rewrite v0. cbn. lra.
  - rewrite sumN_last. pose proof (energy_down k). lra.
Qed.
Lemma regret U k : 2 * eta * (1 - eta * L) * sumN k (fun s => f (w s) - J0) + IP (D (aim (w k) (v k)) U) (D (aim (w k) (v k)) U) + 2 * eta * (mu / (1 - mu)) * f (w (pred k)) <=
  IP (D W0 U) (D W0 U) + 2 * eta * (INR k * (f U - J0)) + 2 * eta * (mu / (1 - mu)) * f W0.
Proof.
  induction k as [|k IH].
  - cbn [pred hiter fst snd]. rewrite sumN_0. rewrite (ipe _ (D W0 U) _ (D W0 U)) by (intros; unfold diff, aim; ring). cbn [INR]. lra.
  - rewrite sumN_last, S_INR. cbn [pred]. destruct (hiter_S k) as [-> ->]. pose proof (heavy_key (w (pred k)) (w k) (v k) U) as A.
    assert (EW : forall i j, w k i j = w (pred k) i j - eta * v k i j). { destruct k as [|k]; [intros; cbn; ring|]. cbn [pred]. intros i j. destruct (hiter_S k) as [-> ->]. reflexivity. }
    specialize (A EW). lra.
Qed.
(** The value after K steps. *)
Theorem heavy_rate U K : eta * L < 1 -> (1 <= K)%nat ->
  (1 - eta * L) * (f (w K) - J0) <= (f U - J0) + (IP (D W0 U) (D W0 U) / (2 * eta) + 3 / 2 * (mu / (1 - mu)) * (f W0 - J0)) / INR K.
Proof.
  intros Hl HK. pose proof (regret U K) as A. pose proof (energy_sum K) as B. pose proof (ipp (D (aim (w K) (v K)) U)) as P. set (r := mu / (1 - mu)) in *.
  assert (Hr : 0 <= r) by (unfold r; apply Rmult_le_pos; [lra|left; apply Rinv_0_lt_compat; lra]).
  assert (Kp : 0 < INR K) by (apply lt_0_INR; lia).
  assert (EK : INR K * (f (w K) - J0) <= sumN K (fun s => f (w s) - J0) + cst * sumN K (fun s => IP (v s) (v s))).
  { rewrite <- sumN_scal, <- sumN_plus, <- sumN_const. apply sumN_le. intros s Hs. pose proof (energy_mono s (K - s) ltac:(lra)) as M. replace (s + (K - s))%nat with K in M by lia. unfold energy in M. pose proof (ipp (v K)). pose proof cst_pos. nra. }
  assert (VS : eta * (1 - eta * L / 2) * sumN K (fun s => IP (v s) (v s)) <= f W0 - J0).
  { rewrite sumN_last in B. unfold energy in B. pose proof (HJ (w K)). pose proof (ipp (v K)). pose proof cst_pos. assert (0 <= eta * (1 - eta * L / 2) * IP (v K) (v K)) by (apply Rmult_le_pos; [nra|assumption]). assert (0 <= cst * IP (v K) (v K)) by (apply Rmult_le_pos; assumption). lra. }
  set (SF := sumN K (fun s => f (w s) - J0)) in *. set (SV := sumN K (fun s => IP (v s) (v s))) in *. set (d := IP (D W0 U) (D W0 U)) in *.
  assert (SVp : 0 <= SV) by (apply sumN_nonneg; intros; apply ipp). pose proof (HJ W0) as HJ0. pose proof (HJ (w (pred K))) as HJp.
  assert (C : (1 - eta * L) * (cst * SV) <= r / 2 * (f W0 - J0)).
  { replace (cst * SV) with (r / 2 * (eta * SV)) by (unfold cst, r; field; lra). assert (X : eta * SV * (1 - eta * L) <= f W0 - J0). { eapply Rle_trans; [|exact VS]. replace (eta * (1 - eta * L / 2) * SV) with (eta * SV * (1 - eta * L / 2)) by ring. apply Rmult_le_compat_l; [apply Rmult_le_pos; lra|]. assert (0 <= eta * L) by (apply Rmult_le_pos; lra). lra. } apply (Rmult_le_compat_l (r / 2)) in X; [|lra]. lra. }
  assert (A' : (1 - eta * L) * SF <= d / (2 * eta) + INR K * (f U - J0) + r * (f W0 - J0)).
  { apply (Rmult_le_reg_l (2 * eta)); [lra|]. replace (2 * eta * (d / (2 * eta) + INR K * (f U - J0) + r * (f W0 - J0))) with (d + 2 * eta * (INR K * (f U - J0)) + 2 * eta * r * f W0 - 2 * eta * r * J0) by (field; lra).
    assert (0 <= 2 * eta * r * (f (w (pred K)) - J0)) by (apply Rmult_le_pos; [nra|lra]). lra. }
  apply (Rmult_le_reg_l (INR K)); [exact Kp|]. replace (INR K * (f U - J0 + (d / (2 * eta) + 3 / 2 * r * (f W0 - J0)) / INR K)) with (INR K * (f U - J0) + d / (2 * eta) + 3 / 2 * r * (f W0 - J0)) by (field; split; lra).
  apply (Rmult_le_compat_l (1 - eta * L)) in EK; [|lra]. lra.
Qed.
(** Never above the first value. *)
Theorem heavy_below K : eta * L <= 2 -> f (w K) <= f W0.
Proof. intros Hl. pose proof (energy_mono 0 K Hl) as A. unfold energy in A. cbn [Nat.add] in A. rewrite v0 in A. cbn [hiter fst] in A. pose proof (ipp (v K)). pose proof cst_pos. nra. Qed.
End Heavy.

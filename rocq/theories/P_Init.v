(** P_Init.v - C46: weight initialisation. *)
From Coq Require Import Reals Lra Floats.SpecFloat.
From Verif Require Import Base Mat Act Layer Conv Misc Net NetP RInst RMat P_Act.
From Coq Require Import Arith.
Local Open Scope nat_scope.

(** ** Specification *)

(** sum of all entries; number of entries; root mean square distance of the entries from v. *)
Definition total (W : mat Rdt) : R := sumN (nr W) (fun i => sumN (nc W) (fun j => at_ W i j)).
Definition entries (W : mat Rdt) : R := INR (nr W * nc W).
Definition spread (W : mat Rdt) (v : R) : R := sqrt (sumN (nr W) (fun i => sumN (nc W) (fun j => (v - at_ W i j) ^ 2)) / entries W)%R.
(** The standard deviation is the spread around the mean. *)
Definition stddev (W : mat Rdt) : R := spread W (total W / entries W)%R.

(** ** Proof *)
Lemma sum_rowmajor (g : nat -> nat -> R) r c : sumL (map (fun ij => g (fst ij) (snd ij)) (rowmajor r c)) = sumN r (fun i => sumN c (g i)).
Proof.
  unfold rowmajor, sumN. induction (seq 0 r) as [|i l IH]; [reflexivity|]. cbn [flat_map map]. rewrite map_app, sumL_app, IH, map_map. reflexivity.
Qed.
Lemma rowmajor_length r c : length (rowmajor r c) = r * c.
Proof. unfold rowmajor. rewrite fm_length with (r := c); [rewrite seq_length; lia|]. intros. now rewrite map_length, seq_length. Qed.
Lemma in_rowmajor r c i j : i < r -> j < c -> In (i, j) (rowmajor r c).
Proof. intros Hi Hj. unfold rowmajor. apply in_flat_map. exists i. split; [apply in_seq; lia|]. apply in_map_iff. exists j. split; [reflexivity|apply in_seq; lia]. Qed.
Lemma in_rowmajor_inv r c ij : In ij (rowmajor r c) -> fst ij < r /\ snd ij < c.
Proof. unfold rowmajor. intros H. apply in_flat_map in H as (i & Hi & H). apply in_map_iff in H as (j & <- & H). apply in_seq in Hi, H. cbn. lia. Qed.

Section Sums.
Context {A : Type} (L : list A).
Notation S f := (sumL (map f L)).
Lemma S_const (c : R) : S (fun _ => c) = (INR (length L) * c)%R.
Proof. clear. induction L as [|x l IH]; cbn [map sumL fold_right length]; [cbn; lra|]. unfold sumL in IH. rewrite IH, S_INR. lra. Qed.
(** sum of (v - f)^2 *)
Lemma S_sq (f : A -> R) v : S (fun x => (v - f x) ^ 2)%R = (INR (length L) * v ^ 2 - 2 * v * S f + S (fun x => f x ^ 2))%R.
Proof.
  rewrite (sumL_map_ext _ (fun x => (v ^ 2 + (-2 * v) * f x) + f x ^ 2)%R) by (intros; cbn; ring).
  rewrite sumL_map_plus, sumL_map_plus, S_const, sumL_map_scal. lra.
Qed.
Lemma S_nonneg (f : A -> R) : (forall x, 0 <= f x)%R -> (0 <= S f)%R.
Proof. intros H. clear -H. induction L as [|x l IH]; cbn; [lra|]. specialize (H x). unfold sumL in IH. lra. Qed.
Lemma S_zero (f : A -> R) : (forall x, 0 <= f x)%R -> S f = 0%R -> forall x, In x L -> f x = 0%R.
Proof.
  intros H E. clear - H E. induction L as [|y l IH]; intros x Hx; [destruct Hx|]. cbn in E. assert (0 <= sumL (map f l))%R.
  { clear -H. induction l as [|z l IH]; cbn; [lra|]. specialize (H z). unfold sumL in IH. lra. }
  unfold sumL in *. specialize (H y) as Hy. destruct Hx as [<-|Hx]; [lra|]. apply IH; [lra|assumption].
Qed.
End Sums.

Section Init.
Context (draw : R -> nat -> R) (s : R) (w : mat Rdt).
Let r := nr w. Let c := nc w. Let N := INR (r * c).
Let f (i j : nat) : R := draw s (i * c + j).
Let L := rowmajor r c.
Let S0 := sumL (map (fun ij => f (fst ij) (snd ij)) L).
Let dev := sumL (map (fun ij => (S0 - f (fst ij) (snd ij)) ^ 2)%R L).

Lemma init_entry i j : i < r -> j < c -> at_ (randominit_w (D := Rdt) draw s w) i j = (f i j * (s / sqrt (dev / N)))%R.
Proof.
  intros Hi Hj. unfold randominit_w. cbv zeta. rewrite at_mmap by assumption. rewrite at_mk by assumption. cbn [dmul ddiv dsqrt dofZ Rdt]. f_equal. f_equal. f_equal.
  assert (M : fold_left (fun acc ij => dadd (d := Rdt) acc (at_ (mk (D := Rdt) (nr w) (nc w) (fun i j => draw s (i * nc w + j))) (fst ij) (snd ij))) (rowmajor (nr w) (nc w)) d0 = S0).
  { cbn [dadd d0 Rdt]. rewrite (fold_left_sum (fun ij => at_ (mk (D := Rdt) (nr w) (nc w) (fun i j => draw s (i * nc w + j))) (fst ij) (snd ij))). rewrite Rplus_0_l.
    unfold S0. apply sumL_map_ext. intros ij Hij. apply in_rowmajor_inv in Hij as [A B]. now rewrite at_mk. }
  rewrite M. f_equal.
  - cbn [dadd dmul dsub d0 Rdt]. rewrite (fold_left_sum (fun ij => (S0 - at_ (mk (D := Rdt) (nr w) (nc w) (fun i j => draw s (i * nc w + j))) (fst ij) (snd ij)) * (S0 - at_ (mk (D := Rdt) (nr w) (nc w) (fun i j => draw s (i * nc w + j))) (fst ij) (snd ij)))%R).
    rewrite Rplus_0_l. unfold dev. apply sumL_map_ext. intros ij Hij. apply in_rowmajor_inv in Hij as [A B]. rewrite at_mk by assumption. unfold f, c. cbn. ring.
  - unfold N, r, c. now rewrite INR_IZR_INZ.
Qed.

Lemma dev_pos : 2 <= r * c -> (exists i j, i < r /\ j < c /\ f i j <> 0%R) -> (0 < dev)%R.
Proof.
  intros HN (i0 & j0 & Hi & Hj & Hne).
  assert (P : (0 <= dev)%R) by (apply S_nonneg; intros; apply pow2_ge_0).
  destruct P as [P|P]; [assumption|]. exfalso. symmetry in P. 
  assert (Z : forall ij, In ij L -> f (fst ij) (snd ij) = S0).
  { intros ij Hij. pose proof (S_zero L (fun ij => (S0 - f (fst ij) (snd ij)) ^ 2)%R (fun _ => pow2_ge_0 _) P ij Hij) as Q. cbn in Q. nra. }
  assert (E : S0 = (INR (r * c) * S0)%R).
  { unfold S0 at 1. rewrite (sumL_map_ext _ (fun _ => S0)) by exact Z. rewrite S_const. unfold L. now rewrite rowmajor_length. }
  assert (HN' : (2 <= INR (r * c))%R) by (apply (le_INR 2); lia). assert (S0 = 0%R) by nra.
  apply Hne. specialize (Z (i0, j0) (in_rowmajor r c i0 j0 Hi Hj)). cbn in Z. congruence.
Qed.

Let q := (s / sqrt (dev / N))%R.
Let W := randominit_w (D := Rdt) draw s w.
Lemma total_W : total W = (S0 * q)%R.
Proof.
  unfold total. change (nr W) with r. change (nc W) with c. rewrite <- (sum_rowmajor (fun i j => at_ W i j)). fold L. unfold S0. rewrite Rmult_comm, <- sumL_map_scal. apply sumL_map_ext.
  intros ij Hij. apply in_rowmajor_inv in Hij as [A B]. unfold W. rewrite init_entry by assumption. fold q. ring.
Qed.
Lemma spread_W v : spread W v = sqrt (sumL (map (fun ij => (v - f (fst ij) (snd ij) * q) ^ 2)%R L) / N).
Proof.
  unfold spread, entries. change (nr W) with r. change (nc W) with c. fold N. f_equal. f_equal. rewrite <- (sum_rowmajor (fun i j => ((v - at_ W i j) ^ 2)%R)). fold L. apply sumL_map_ext.
  intros ij Hij. apply in_rowmajor_inv in Hij as [A B]. unfold W. now rewrite init_entry by assumption.
Qed.
Lemma spread_total : 2 <= r * c -> (0 < dev)%R -> spread W (total W) = Rabs s.
Proof.
  intros HN HD. rewrite spread_W, total_W. rewrite (sumL_map_ext _ (fun ij => q ^ 2 * (S0 - f (fst ij) (snd ij)) ^ 2)%R) by (intros; ring). rewrite sumL_map_scal. fold dev.
  assert (HN' : (2 <= N)%R) by (apply (le_INR 2); lia). assert (DN : (0 < dev / N)%R) by (apply Rdiv_lt_0_compat; lra).
  assert (Q : (q ^ 2 * (dev / N) = s ^ 2)%R).
  { unfold q. replace ((s / sqrt (dev / N)) ^ 2)%R with (s ^ 2 / (sqrt (dev / N) * sqrt (dev / N)))%R.
    - rewrite sqrt_sqrt by lra. field. lra.
    - field. apply Rgt_not_eq, sqrt_lt_R0, DN. }
  replace (q ^ 2 * dev / N)%R with (s ^ 2)%R by (rewrite <- Q; field; lra). rewrite <- Rsqr_pow2. apply sqrt_Rsqr_abs.
Qed.
Lemma std_total : 2 <= r * c -> spread W (total W) = Rabs s -> (stddev W <= Rabs s)%R /\ (stddev W = Rabs s <-> total W = 0%R).
Proof.
  intros HN E. assert (HN' : (2 <= N)%R) by (apply (le_INR 2); lia).
  assert (I : forall v, sumL (map (fun ij => (v - f (fst ij) (snd ij) * q) ^ 2)%R L) = (N * v ^ 2 - 2 * v * total W + q ^ 2 * sumL (map (fun ij => f (fst ij) (snd ij) ^ 2)%R L))%R).
  { intros v. rewrite total_W. rewrite (S_sq L (fun ij => f (fst ij) (snd ij) * q)%R). unfold L. rewrite rowmajor_length. fold L. fold N.
    rewrite (sumL_map_ext (fun ij => f (fst ij) (snd ij) * q)%R (fun ij => q * f (fst ij) (snd ij))%R) by (intros; ring). rewrite sumL_map_scal. fold S0.
    rewrite (sumL_map_ext (fun ij => (f (fst ij) (snd ij) * q) ^ 2)%R (fun ij => q ^ 2 * f (fst ij) (snd ij) ^ 2)%R) by (intros; ring). rewrite sumL_map_scal. ring. }
  assert (A : forall v, (spread W v = sqrt ((N * v ^ 2 - 2 * v * total W + q ^ 2 * sumL (map (fun ij => f (fst ij) (snd ij) ^ 2)%R L)) / N))%R).
  { intros v. rewrite spread_W. now rewrite I. }
  assert (P : forall v, (0 <= (N * v ^ 2 - 2 * v * total W + q ^ 2 * sumL (map (fun ij => f (fst ij) (snd ij) ^ 2)%R L)))%R).
  { intros v. rewrite <- I. apply S_nonneg. intros. apply pow2_ge_0. }
  set (sq := (q ^ 2 * sumL (map (fun ij => f (fst ij) (snd ij) ^ 2)%R L))%R) in *. set (T := total W) in *.
  unfold stddev. change (entries W) with N. fold T. rewrite <- E. rewrite !A.
  set (X1 := ((N * (T / N) ^ 2 - 2 * (T / N) * T + sq) / N)%R). set (X2 := ((N * T ^ 2 - 2 * T * T + sq) / N)%R).
  assert (D : (X2 - X1 = T ^ 2 * (N - 1) ^ 2 / N ^ 2)%R) by (unfold X1, X2; field; lra).
  assert (Dn : (0 <= T ^ 2 * (N - 1) ^ 2 / N ^ 2)%R).
  { apply Rmult_le_pos; [apply Rmult_le_pos; apply pow2_ge_0|]. left. apply Rinv_0_lt_compat. apply pow_lt. lra. }
  assert (X1p : (0 <= X1)%R) by (unfold X1; apply Rmult_le_pos; [apply P|left; apply Rinv_0_lt_compat; lra]).
  split; [apply sqrt_le_1_alt; lra|]. split.
  - intros Q. apply (f_equal (fun z => z * z)%R) in Q. rewrite !sqrt_sqrt in Q by lra.
    assert (Z : (T ^ 2 * (N - 1) ^ 2 / N ^ 2 = 0)%R) by lra.
    assert (Z2 : (T ^ 2 * (N - 1) ^ 2 = 0)%R). { apply (Rmult_eq_compat_r (N ^ 2)) in Z. unfold Rdiv in Z. rewrite Rmult_assoc, Rinv_l, Rmult_1_r, Rmult_0_l in Z; [exact Z|]. apply pow_nonzero. lra. }
    apply Rmult_integral in Z2 as [Z2|Z2]; [|assert (0 < (N - 1) ^ 2)%R by (apply pow_lt; lra); lra].
    replace (T ^ 2)%R with (T * T)%R in Z2 by ring. apply Rmult_integral in Z2 as [Z2|Z2]; exact Z2.
  - intros Z. f_equal. apply Rminus_diag_uniq_sym. rewrite D, Z. field. lra.
Qed.
End Init.

(** ** C46 *)

(** In exact arithmetic, for every sequence of draws that is not all 0 and every size with at least 2 entries:
    after randominit(s) the root mean square distance of the weights from their SUM is |s|; hence their standard
    deviation never exceeds |s| and equals it only if the weights add up to 0. *)
Theorem C46_normalisation : forall (draw : R -> nat -> R) (s : R) (w : mat Rdt), 2 <= nr w * nc w ->
  (exists k, k < nr w * nc w /\ draw s k <> 0%R) ->
  let W := randominit_w (D := Rdt) draw s w in
  nr W = nr w /\ nc W = nc w /\ spread W (total W) = Rabs s /\ (stddev W <= Rabs s)%R /\ (stddev W = Rabs s <-> total W = 0%R).
Proof.
  intros draw s w HN (k & Hk & Hne) W. split; [reflexivity|]. split; [reflexivity|].
  assert (Hc : nc w <> 0) by (intros Z; rewrite Z in Hk; lia).
  assert (S : spread W (total W) = Rabs s).
  { apply spread_total; [exact HN|]. apply dev_pos; [exact HN|]. exists (k / nc w), (k mod nc w). split; [apply Nat.div_lt_upper_bound; [assumption|lia]|]. split; [now apply Nat.mod_upper_bound|].
    rewrite (Nat.mul_comm (k / nc w)), <- Nat.div_mod by assumption. exact Hne. }
  split; [exact S|]. apply std_total; [exact HN|exact S].
Qed.

(** Every layer is initialised from the same default-seeded engine: two layers of equal size built with the same
    standard deviation start with identical weights, whatever their other parameters. *)
Theorem C46_same_seed : forall (D : dtype) (draw : D -> nat -> D) (junk : nat -> D) pn n r1 r2 s la1 la2 f1 f2 l1 l2,
  layer_new draw junk pn n r1 s la1 f1 = Ok l1 -> layer_new draw junk pn n r2 s la2 f2 = Ok l2 -> l_W l1 = l_W l2.
Proof.
  intros D draw junk pn n r1 r2 s la1 la2 f1 f2 l1 l2. unfold layer_new. destruct (_ && _); [|discriminate]. intros E1 E2. injection E1 as <-. injection E2 as <-. reflexivity.
Qed.

(** binary64: a 1 x 1 weight matrix is divided by a standard deviation of 0, so for every finite draw and every
    finite s the weight becomes an infinity or NaN. *)
Definition sf_finite (x : b64) : Prop := match x with S754_zero _ | S754_finite _ _ _ => True | _ => False end.
Theorem C46_single_weight : forall fexp flog ftanh fatan fsin fcos fpow (draw : b64 -> nat -> b64) (s : b64) (w : mat (SFdt fexp flog ftanh fatan fsin fcos fpow)),
  nr w = 1 -> nc w = 1 -> sf_finite s -> sf_finite (draw s 0) ->
  ~ sf_finite (at_ (randominit_w (D := SFdt fexp flog ftanh fatan fsin fcos fpow) draw s w) 0 0).
Proof.
  intros fexp flog ftanh fatan fsin fcos fpow draw s w Hr Hc Hs Hx. unfold randominit_w. rewrite Hr, Hc. cbn [rowmajor seq flat_map map app fold_left fst snd mk at_ nth el Nat.mul Nat.add mmap nr nc].
  unfold at_. cbn [mk el seq flat_map map app nth Nat.mul Nat.add nr nc dadd dsub dmul ddiv dsqrt d0 SFdt].
  assert (SS : forall sx m e, SFsub 53 1024 (S754_finite sx m e) (S754_finite sx m e) = S754_zero false).
  { intros sx m e. unfold SFsub. rewrite Z.sub_diag. reflexivity. }
  destruct (draw s 0) as [sx| | |sx m e]; try contradiction; destruct s as [ss| | |ss ms es]; try contradiction; cbn [SFadd].
  - destruct sx, ss; vm_compute; auto.
  - destruct sx, ss; vm_compute; auto.
  - rewrite SS. destruct sx, ss; vm_compute; auto.
  - rewrite SS. destruct sx, ss; vm_compute; auto.
Qed.
Print Assumptions C46_normalisation. Print Assumptions C46_same_seed. Print Assumptions C46_single_weight.

(** Cases: draws 1, 0, 0, ... (sum 1, so the deviation is strictly below s); and a finite draw for the 1 x 1 case. *)
Definition ex_draw : R -> nat -> R := fun _ k => if Nat.eqb k 0 then 1%R else 0%R.
Example C46_example : let W := randominit_w (D := Rdt) ex_draw 1%R (zeros (D := Rdt) 2 1) in
  spread W (total W) = 1%R /\ (stddev W < 1)%R.
Proof.
  intros W. destruct (C46_normalisation ex_draw 1%R (zeros (D := Rdt) 2 1)) as (_ & _ & A & B & C); [cbn; lia|exists 0; cbn; split; [lia|lra]|].
  fold W in A, B, C. rewrite Rabs_R1 in *. split; [exact A|]. destruct B as [B|B]; [exact B|]. apply C in B. exfalso.
  assert (E : forall i, i < 2 -> at_ W i 0 = (ex_draw 1 i * at_ W 0 0)%R).
  { intros i Hi. unfold W. rewrite !(init_entry ex_draw 1%R (zeros (D := Rdt) 2 1)) by (cbn; lia). cbn [nc zeros mk]. rewrite Nat.mul_1_r, Nat.add_0_r. cbn [Nat.mul Nat.add]. 
    change (ex_draw 1 0) with 1%R. rewrite Rmult_1_l. reflexivity. }
  assert (N1 : nr W = 2) by reflexivity. assert (N2 : nc W = 1) by reflexivity. clearbody W. clear C.
  assert (E0 : at_ W 1 0 = 0%R) by (rewrite (E 1) by lia; change (ex_draw 1 1) with 0%R; lra). clear E.
  unfold spread, total in *. rewrite N1, N2 in *. unfold sumN in *. cbn [seq map sumL fold_right] in *. rewrite E0 in *.
  assert (Z : at_ W 0 0 = 0%R) by lra. rewrite Z in A.
  replace (_ / entries W)%R with 0%R in A by (unfold Rdiv; ring). rewrite sqrt_0 in A. lra.
Qed.

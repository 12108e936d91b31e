(** P_Round.v - C70: the forward pass and predict in rounded arithmetic, against exact arithmetic. *)
From Coq Require Import Reals Lra Lia Permutation.
From Flocq Require Import Core Relative.
From Coquelicot Require Import Coquelicot.
From Verif Require Import Base Mat Act Layer Conv Misc Net NetP TrainP ExNet P_Train P_Pred RInst RMat P_Act Round.
Local Open Scope nat_scope.

(** ** Specification *)
(** What a layer contributes: number of inputs, the largest absolute column sum of its weights (bias included), and for the
    activation a Lipschitz constant, a bound at 0 and the error of its computed value. *)
Record linfo := LI { i_in : nat; i_w : R; i_lip : R; i_zero : R; i_err : R }.
(** The exact activation [ar] is Lipschitz and the computed one [af] differs from it by at most err. *)
Definition act_close (af ar : R -> R) (lip err : R) : Prop :=
  (forall z z', Rabs (ar z - ar z') <= lip * Rabs (z - z'))%R /\ (forall z, Rabs (af z - ar z) <= err)%R.

Section Spec.
Context (rnd : R -> R) (m : libm) (u eta : R).
Notation F := (fdt rnd m).
(** Same weights in both arithmetics. *)
Definition describes (b : linfo) (lf : layer F) (lr : layer Rdt) : Prop :=
  nr (l_W lf) = i_in b + 1 /\ nr (l_W lr) = i_in b + 1 /\ nc (l_W lf) = nc (l_W lr) /\
  (forall k j, k < i_in b + 1 -> j < nc (l_W lr) -> (at_ (l_W lf) k j : R) = at_ (l_W lr) k j) /\
  (forall j, j < nc (l_W lr) -> (sumN (i_in b + 1) (fun k => Rabs (at_ (l_W lr) k j)) <= i_w b)%R) /\
  act_close (act (l_act lf)) (act (l_act lr)) (i_lip b) (i_err b) /\ (Rabs (act (l_act lr) 0%R) <= i_zero b)%R /\
  (0 <= i_w b)%R /\ (0 <= i_lip b)%R /\ (0 <= i_err b)%R.
(** From activations bounded by M with error e to those of the next layer. *)
Definition budget (Me : R * R) (b : linfo) : R * R :=
  let '(M, e) := Me in
  let n := i_in b + 1 in
  (i_zero b + i_lip b * (i_w b * Rmax 1 M),
   i_lip b * (e * i_w b + ((1 + u) ^ (n + 1) - 1) * (i_w b * Rmax 1 (M + e)) + INR (2 * n) * eta * (1 + u) ^ (n + 1)) + i_err b)%R.
(** The matrices agree up to e. *)
Definition close (e : R) (a : mat F) (b : mat Rdt) : Prop :=
  nr a = nr b /\ nc a = nc b /\ forall i j, i < nr b -> j < nc b -> (Rabs (at_ a i j - at_ b i j) <= e)%R.
Definition bounded (M : R) (b : mat Rdt) : Prop := forall i j, i < nr b -> j < nc b -> (Rabs (at_ b i j) <= M)%R.
(** A layer whose sums of products are evaluated in any order (input 0 is the bias, 1). *)
Definition fl_layer (l : layer F) (x a : mat F) : Prop :=
  nr a = nr x /\ nc a = nc (l_W l) /\
  forall i j, i < nr a -> j < nc a -> exists t, plan_for (nc x + 1) t /\
    at_ a i j = act (l_act l) (eval rnd (fun k => match k with 0 => 1%R | S k' => at_ x i k' end) (fun k => at_ (l_W l) k j) t).
Fixpoint fl_pass (ls : list (layer F)) (x a : mat F) : Prop :=
  match ls with [] => a = x | l :: r => exists b, fl_layer l x b /\ fl_pass r b a end.
(** The same in exact arithmetic. *)
Definition exact_layer (l : layer Rdt) (x a : mat Rdt) : Prop :=
  nr a = nr x /\ nc a = nc (l_W l) /\
  forall i j, i < nr a -> j < nc a -> at_ a i j = act (l_act l) (at_ (l_W l) 0 j + sumN (nc x) (fun k => at_ x i k * at_ (l_W l) (S k) j))%R.
Fixpoint exact_pass (ls : list (layer Rdt)) (x a : mat Rdt) : Prop :=
  match ls with [] => a = x | l :: r => exists b, exact_layer l x b /\ exact_pass r b a end.
(** Layers whose sizes chain, described by [bs]. *)
Fixpoint stacked (p : nat) (bs : list linfo) (lf : list (layer F)) (lr : list (layer Rdt)) : Prop :=
  match bs, lf, lr with
  | [], [], [] => True
  | b :: bs, f :: lf, r :: lr => i_in b = p /\ describes b f r /\ stacked (nc (l_W r)) bs lf lr
  | _, _, _ => False
  end.

(** ** Proof *)
Context (Hstd : std_model rnd u eta).
Lemma Rmax1_pos M : (1 <= Rmax 1 M)%R. Proof. apply Rmax_l. Qed.
Lemma sumN_abs_le n f : (Rabs (sumN n f) <= sumN n (fun k => Rabs (f k)))%R.
Proof. apply sumL_abs_le. Qed.
Lemma sumN_le' n f g : (forall k, k < n -> (f k <= g k)%R) -> (sumN n f <= sumN n g)%R.
Proof. induction n as [|n IH]; intros H; [cbn; lra|]. rewrite !sumN_last. pose proof (H n). pose proof (IH (fun k Hk => H k (Nat.lt_lt_succ_r _ _ Hk))). specialize (H0 ltac:(lia)). lra. Qed.

Lemma layer_err b lf lr (x a : mat F) (xr ar : mat Rdt) M e : describes b lf lr -> nc xr = i_in b -> (0 <= M)%R -> (0 <= e)%R ->
  close e x xr -> bounded M xr -> fl_layer lf x a -> exact_layer lr xr ar ->
  close (snd (budget (M, e) b)) a ar /\ bounded (fst (budget (M, e) b)) ar /\ (0 <= fst (budget (M, e) b))%R /\ (0 <= snd (budget (M, e) b))%R.
Proof.
  intros (D1 & D2 & D3 & D4 & D5 & D6 & D7 & W0 & D8 & D9) Hc HM He (X1 & X2 & X3) HB (A1 & A2 & A3) (E1 & E2 & E3).
  set (n := i_in b + 1). pose proof (pow_ge1 rnd u eta Hstd (n + 1)) as PG. pose proof (u0 rnd u eta Hstd) as U0. pose proof (eta0 rnd u eta Hstd) as ET.
  assert (Main : forall i j, i < nr ar -> j < nc ar -> (Rabs (at_ a i j - at_ ar i j) <= snd (budget (M, e) b) /\ Rabs (at_ ar i j) <= fst (budget (M, e) b))%R).
  { intros i j Hi Hj. assert (Hj' : j < nc (l_W lr)) by lia. assert (Hi' : i < nr xr) by lia.
    destruct (A3 i j ltac:(lia) ltac:(lia)) as (t & T1 & T2). rewrite X2, Hc in T1. fold n in T1. rewrite T2, (E3 i j Hi Hj).
    set (xf := fun k => match k with 0 => 1%R | S k' => at_ x i k' end) in *. set (xe := fun k => match k with 0 => 1%R | S k' => at_ xr i k' end : R). set (w := fun k => at_ (l_W lr) k j : R).
    assert (Ew : forall k, k < n -> (at_ (l_W lf) k j : R) = w k) by (intros k Hk; apply D4; [exact Hk|assumption]).
    assert (Xf : forall k, k < n -> (Rabs (xf k - xe k) <= e /\ Rabs (xe k) <= Rmax 1 M /\ Rabs (xf k) <= Rmax 1 (M + e))%R).
    { intros [|k] Hk; unfold xf, xe.
      - rewrite Rminus_diag_eq by reflexivity. rewrite Rabs_R0, Rabs_R1. split; [assumption|]. split; apply Rmax_l.
      - assert (k < nc xr) by (unfold n in Hk; lia). pose proof (X3 i k Hi' H) as C1. pose proof (HB i k Hi' H) as C2. split; [exact C1|]. split; [eapply Rle_trans; [exact C2|apply Rmax_r]|].
        eapply Rle_trans; [|apply Rmax_r]. pose proof (Rabs_triang (at_ x i k - at_ xr i k)%R (at_ xr i k)) as TT. replace (at_ x i k - at_ xr i k + at_ xr i k)%R with (at_ x i k : R) in TT by (change (car F) with R; change (car Rdt) with R; lra). lra. }
    assert (EX : (at_ (l_W lr) 0 j + sumN (nc xr) (fun k => at_ xr i k * at_ (l_W lr) (S k) j))%R = sumN n (fun k => xe k * w k)%R).
    { unfold n. rewrite Nat.add_1_r, sumN_S, <- Hc. unfold xe, w. change (car Rdt) with R. lra. }
    change (car Rdt) with R in *. rewrite EX. set (Z := sumN n (fun k => xe k * w k)%R) in *.
    set (zf := eval rnd xf (fun k => at_ (l_W lf) k j) t) in *.
    assert (W1 : (sumN n (fun k => Rabs (w k)) <= i_w b)%R) by (apply D5; assumption).
    assert (Zb : (Rabs Z <= i_w b * Rmax 1 M)%R).
    { eapply Rle_trans; [apply sumN_abs_le|]. eapply Rle_trans; [apply (sumN_le' n _ (fun k => Rmax 1 M * Rabs (w k))%R)|].
      - intros k Hk. rewrite Rabs_mult. apply Rmult_le_compat_r; [apply Rabs_pos|]. apply Xf; assumption.
      - rewrite sumN_scal, Rmult_comm. apply Rmult_le_compat_r; [pose proof (Rmax1_pos M); lra|assumption]. }
    assert (Ze : (Rabs (zf - Z) <= e * i_w b + ((1 + u) ^ (n + 1) - 1) * (i_w b * Rmax 1 (M + e)) + INR (2 * n) * eta * (1 + u) ^ (n + 1))%R).
    { pose proof (plan_err rnd u eta Hstd n xf (fun k => at_ (l_W lf) k j) t T1) as PE. fold zf in PE. cbn beta in PE.
      assert (S1 : sumN n (fun k => xf k * at_ (l_W lf) k j)%R = sumN n (fun k => xf k * w k)%R) by (apply sumN_ext; intros k Hk; rewrite <- (Ew k Hk); reflexivity).
      assert (S2 : sumN n (fun k => Rabs (xf k * at_ (l_W lf) k j))%R = sumN n (fun k => Rabs (xf k * w k))%R) by (apply sumN_ext; intros k Hk; rewrite <- (Ew k Hk); reflexivity).
      change (car F) with R in *. rewrite S1, S2 in PE.
      assert (S3 : (sumN n (fun k => Rabs (xf k * w k)) <= i_w b * Rmax 1 (M + e))%R).
      { eapply Rle_trans; [apply (sumN_le' n _ (fun k => Rmax 1 (M + e) * Rabs (w k))%R)|].
        - intros k Hk. rewrite Rabs_mult. apply Rmult_le_compat_r; [apply Rabs_pos|]. apply Xf; assumption.
        - rewrite sumN_scal, Rmult_comm. apply Rmult_le_compat_r; [pose proof (Rmax1_pos (M + e)); lra|assumption]. }
      assert (S4 : (Rabs (sumN n (fun k => xf k * w k) - Z) <= e * i_w b)%R).
      { unfold Z. rewrite <- sumN_minus. eapply Rle_trans; [apply sumN_abs_le|]. eapply Rle_trans; [apply (sumN_le' n _ (fun k => e * Rabs (w k))%R)|].
        - intros k Hk. replace (xf k * w k - xe k * w k)%R with ((xf k - xe k) * w k)%R by lra. rewrite Rabs_mult. apply Rmult_le_compat_r; [apply Rabs_pos|]. apply Xf; assumption.
        - rewrite sumN_scal. apply Rmult_le_compat_l; assumption. }
      assert (S5 : (((1 + u) ^ (n + 1) - 1) * sumN n (fun k => Rabs (xf k * w k)) <= ((1 + u) ^ (n + 1) - 1) * (i_w b * Rmax 1 (M + e)))%R) by (apply Rmult_le_compat_l; [lra|assumption]).
      pose proof (Rabs_triang (zf - sumN n (fun k => xf k * w k)%R)%R (sumN n (fun k => xf k * w k)%R - Z)%R) as TT. replace (zf - sumN n (fun k => xf k * w k) + (sumN n (fun k => xf k * w k) - Z))%R with (zf - Z)%R in TT by lra. lra. }
    cbn [budget fst snd]. fold n. split.
    - destruct D6 as [L1 L2]. pose proof (L1 zf Z) as Q1. pose proof (L2 zf) as Q2.
      pose proof (Rabs_triang (act (l_act lf) zf - act (l_act lr) zf)%R (act (l_act lr) zf - act (l_act lr) Z)%R) as TT.
      change (car F) with R in *. change (car Rdt) with R in *.
      match type of TT with (Rabs ?q <= _)%R => replace q with (act (l_act lf) zf - act (l_act lr) Z)%R in TT by lra end.
      match type of Ze with (_ <= ?q)%R => assert (i_lip b * Rabs (zf - Z) <= i_lip b * q)%R by (apply Rmult_le_compat_l; assumption) end. lra.
    - destruct D6 as [L1 _]. pose proof (L1 Z 0%R) as Q1. rewrite Rminus_0_r in Q1. change (car Rdt) with R in *.
      pose proof (Rabs_triang (act (l_act lr) Z - act (l_act lr) 0%R)%R (act (l_act lr) 0%R)) as TT.
      match type of TT with (Rabs ?q <= _)%R => replace q with (act (l_act lr) Z) in TT by (change (car Rdt) with R; lra) end.
      assert (i_lip b * Rabs Z <= i_lip b * (i_w b * Rmax 1 M))%R by (apply Rmult_le_compat_l; assumption). lra. }
  assert (Z0 : (0 <= i_zero b)%R) by (eapply Rle_trans; [apply Rabs_pos|exact D7]).
  split; [split; [congruence|split; [congruence|intros i j Hi Hj; now apply Main]]|]. split; [intros i j Hi Hj; now apply Main|].
  pose proof (Rmax1_pos M) as R1. pose proof (Rmax1_pos (M + e)) as R2. cbn [budget fst snd]. fold n. split.
  - apply Rplus_le_le_0_compat; [assumption|]. apply Rmult_le_pos; [assumption|]. apply Rmult_le_pos; lra.
  - apply Rplus_le_le_0_compat; [|assumption]. apply Rmult_le_pos; [assumption|]. repeat apply Rplus_le_le_0_compat.
    + now apply Rmult_le_pos.
    + apply Rmult_le_pos; [lra|]. apply Rmult_le_pos; lra.
    + apply Rmult_le_pos; [|lra]. apply Rmult_le_pos; [apply pos_INR|assumption].
Qed.

Theorem C70_any_order : forall bs lsf lsr (x a : mat F) (xr ar : mat Rdt) M e, stacked (nc xr) bs lsf lsr -> (0 <= M)%R -> (0 <= e)%R ->
  close e x xr -> bounded M xr -> fl_pass lsf x a -> exact_pass lsr xr ar ->
  close (snd (fold_left budget bs (M, e))) a ar.
Proof.
  induction bs as [|b bs IH]; intros [|lf lsf] [|lr lsr] x a xr ar M e HS HM He HC HB HF HE; cbn [stacked] in HS; try contradiction; cbn [fl_pass exact_pass fold_left] in *.
  - subst. assumption.
  - destruct HS as (S1 & S2 & S3). destruct HF as (y & F1 & F2). destruct HE as (yr & E1 & E2).
    destruct (layer_err b lf lr x y xr yr M e S2 (eq_sym S1) HM He HC HB F1 E1) as (C1 & C2 & C3 & C4).
    rewrite (surjective_pairing (budget (M, e) b)). destruct E1 as (_ & Q & _). apply (IH lsf lsr y a yr ar); try assumption. rewrite Q. assumption.
Qed.

(** The model's forward pass sums in the order of the loop. *)
Lemma fwd_fl (l : layer F) (x : mat F) : fwd_ok (l_W l) x -> fl_layer l x (fwd_out l x).
Proof.
  intros (H1 & H2 & H3). split; [reflexivity|]. split; [reflexivity|]. intros i j Hi Hj. cbn [fwd_out nr nc mk] in Hi, Hj.
  exists (loop_plan (nc x + 1)). split; [apply loop_plan_for|]. unfold fwd_out. rewrite at_mk by assumption. f_equal.
  unfold pre, mdot. cbn [nc mk]. rewrite loop_eval. cbn [d0 fdt dadd dmul].
  enough (G : forall L acc, (forall k, In k L -> k < nc x + 1) -> fold_left (fun (acc : R) (k : nat) => rnd (acc + rnd (at_ (mk (nr x) (nc x + 1) (with_bias x)) i k * at_ (l_W l) k j))%R) L acc =
    fold_left (fun (acc : R) (k : nat) => rnd (acc + rnd (match k with 0 => 1 | S k' => at_ x i k' end * at_ (l_W l) k j))%R) L acc).
  { apply G. intros k Hk. apply in_seq in Hk. lia. }
  induction L as [|k L IH]; intros acc HL; [reflexivity|]. cbn [fold_left]. rewrite at_mk by (try assumption; apply HL; now left). cbn [with_bias d1 fdt]. apply IH. intros k' Hk'. apply HL. now right.
Qed.
Lemma fwd_exact (l : layer Rdt) (x : mat Rdt) : fwd_ok (l_W l) x -> exact_layer l x (fwd_out l x).
Proof.
  intros (H1 & H2 & H3). split; [reflexivity|]. split; [reflexivity|]. intros i j Hi Hj. cbn [fwd_out nr nc mk] in Hi, Hj.
  unfold fwd_out. rewrite at_mk by assumption. f_equal. now apply pre_R.
Qed.
Lemma fl_pass_app a b x y : fl_pass (a ++ b) x y <-> exists z, fl_pass a x z /\ fl_pass b z y.
Proof.
  revert x. induction a as [|l a IH]; intros x; cbn [app fl_pass].
  - split; [intros H; exists x; auto|intros (z & -> & H); exact H].
  - split.
    + intros (c & H1 & H2). apply IH in H2 as (z & H2 & H3). exists z. split; [exists c; auto|assumption].
    + intros (z & (c & H1 & H2) & H3). exists c. split; [assumption|]. apply IH. eauto.
Qed.
Lemma exact_pass_app a b x y : exact_pass (a ++ b) x y <-> exists z, exact_pass a x z /\ exact_pass b z y.
Proof.
  revert x. induction a as [|l a IH]; intros x; cbn [app exact_pass].
  - split; [intros H; exists x; auto|intros (z & -> & H); exact H].
  - split.
    + intros (c & H1 & H2). apply IH in H2 as (z & H2 & H3). exists z. split; [exists c; auto|assumption].
    + intros (z & (c & H1 & H2) & H3). exists c. split; [assumption|]. apply IH. eauto.
Qed.
Lemma lforward_fl ls : forall x a ls', lforward ls x = Ok (a, ls') -> fl_pass ls x a.
Proof.
  induction ls as [|l ls IH]; intros x a ls' H; cbn [lforward] in H; [injection H as <- <-; reflexivity|].
  apply bind_ok in H as ([b l'] & H1 & H). apply bind_ok in H as ([c r'] & H2 & H). injection H as <- <-.
  apply forward_inv in H1 as (Q & -> & _). cbn [fl_pass]. exists (fwd_out l x). split; [now apply fwd_fl|]. eapply IH; exact H2.
Qed.
Lemma lforward_exact ls : forall x a ls', lforward ls x = Ok (a, ls') -> exact_pass ls x a.
Proof.
  induction ls as [|l ls IH]; intros x a ls' H; cbn [lforward] in H; [injection H as <- <-; reflexivity|].
  apply bind_ok in H as ([b l'] & H1 & H). apply bind_ok in H as ([c r'] & H2 & H). injection H as <- <-.
  apply forward_inv in H1 as (Q & -> & _). cbn [exact_pass]. exists (fwd_out l x). split; [now apply fwd_exact|]. eapply IH; exact H2.
Qed.
(** The sizes of [stacked] layers chain, in both networks. *)
Lemma stacked_fits lsf : forall bs p lsr f r, stacked p bs (lsf ++ [f]) (lsr ++ [r]) -> 1 <= p -> Forall (fun l => 1 <= nc (l_W l)) lsr ->
  exists q, fits p lsf q /\ fits p lsr q /\ 1 <= q /\ nr (l_W f) = q + 1 /\ nr (l_W r) = q + 1 /\ nc (l_W f) = nc (l_W r).
Proof.
  induction lsf as [|lf lsf IH]; intros [|b bs] p [|lr lsr] f r HS Hp HF; cbn [app stacked] in HS; try contradiction.
  - destruct HS as (<- & (D1 & D2 & D3 & _) & _). exists (i_in b). repeat split; assumption.
  - destruct HS as (_ & _ & HS). destruct bs, lsr; exact (False_ind _ HS).
  - destruct HS as (_ & _ & HS). destruct bs, lsf; exact (False_ind _ HS).
  - destruct HS as (<- & (D1 & D2 & D3 & _) & HS). inversion HF as [|? ? F1 F2]; subst.
    destruct (IH _ _ _ _ _ HS F1 F2) as (q & Q1 & Q2 & Q3). exists q. cbn [fits]. rewrite D3. repeat split; try assumption; try lia; apply Q3.
Qed.
Lemma dense_fwd {D : dtype} (junk : nat -> D) (n : net D) (H : lheap D) ls x q : dense_hidden n H -> hidden_layers n H = Ok ls -> 1 <= nr x -> fits (nc x) ls q -> 1 <= q -> nr (l_W (o_l (n_output n))) = q + 1 ->
  exists b ls' a n' H', lforward ls x = Ok (b, ls') /\ a = fwd_out (o_l (n_output n)) b /\ fwd_ok (l_W (o_l (n_output n))) b /\ nr b = nr x /\ net_forward junk n H x = Ok (a, n', H').
Proof.
  intros Hd Hl Hx Hf Hq Ho. destruct (dense_ls n H Hd) as (ls0 & Hdn). pose proof (hidden_layers_dense n H ls0 (proj2 Hdn)) as E. rewrite Hl in E. injection E as ->.
  destruct (lforward_fits ls0 x q Hx Hf) as (b & ls' & L1 & L2 & L3 & _). assert (FK : fwd_ok (l_W (o_l (n_output n))) b) by (repeat split; lia).
  rewrite (net_forward_dense junk n H ls0 x Hdn), L1. cbn [bind]. rewrite out_forward_ok by assumption. cbn [bind]. do 5 eexists. repeat split; try assumption; try lia; reflexivity.
Qed.

(** ** C70 *)
(** The networks [nf] (rounded arithmetic) and [ne] (exact) have the same weights.  Both forward passes succeed and their
    results differ by at most the computed budget. *)
Theorem C70_network : forall (jf jr : nat -> R) (nf : net F) (Hf : lheap F) (ne : net Rdt) (He : lheap Rdt) lsf lsr bs (x : mat F) (xr : mat Rdt) M e,
  dense_hidden nf Hf -> dense_hidden ne He -> hidden_layers nf Hf = Ok lsf -> hidden_layers ne He = Ok lsr ->
  stacked (nc xr) bs (lsf ++ [o_l (n_output nf)]) (lsr ++ [o_l (n_output ne)]) -> Forall (fun l => 1 <= nc (l_W l)) lsr ->
  1 <= nr xr -> 1 <= nc xr -> (0 <= M)%R -> (0 <= e)%R -> close e x xr -> bounded M xr ->
  exists a nf' Hf' ar ne' He', net_forward (D := F) jf nf Hf x = Ok (a, nf', Hf') /\ net_forward (D := Rdt) jr ne He xr = Ok (ar, ne', He') /\
    nr ar = nr xr /\ close (snd (fold_left budget bs (M, e))) a ar.
Proof.
  intros jf jr nf Hf ne He lsf lsr bs x xr M e Df De Lf Le HS HF Hx Hc HM Hep HC HB.
  destruct (stacked_fits _ _ _ _ _ _ HS Hc HF) as (q & Q1 & Q2 & Q3 & Q4 & Q5 & Q6). pose proof HC as (C1 & C2 & _).
  rewrite <- C2 in Q1. destruct (dense_fwd (D := F) jf nf Hf lsf x q Df Lf ltac:(lia) Q1 Q3 Q4) as (b & lsf' & a & nf' & Hf' & A1 & A2 & A3 & A3' & A4).
  destruct (dense_fwd (D := Rdt) jr ne He lsr xr q De Le Hx Q2 Q3 Q5) as (br & lsr' & ar & ne' & He' & B1 & B2 & B3 & B3' & B4).
  exists a, nf', Hf', ar, ne', He'. split; [exact A4|]. split; [exact B4|]. split; [rewrite B2; cbn; lia|].
  eapply C70_any_order; try eassumption.
  - apply fl_pass_app. exists b. split; [eapply lforward_fl; exact A1|]. cbn [fl_pass]. exists a. split; [|reflexivity]. rewrite A2. now apply fwd_fl.
  - apply exact_pass_app. exists br. split; [eapply lforward_exact; exact B1|]. cbn [exact_pass]. exists ar. split; [|reflexivity]. rewrite B2. now apply fwd_exact.
Qed.

Lemma ordered_F (a : mat F) i : ordered_row a i.
Proof.
  repeat split; cbn; unfold Rltb'; intros.
  - destruct (Rlt_dec _ _) as [C|]; [exfalso; exact (Rlt_irrefl _ C)|reflexivity].
  - destruct (Rlt_dec (at_ a i j) (at_ a i l)) as [C|]; [|discriminate]. destruct (Rlt_dec (at_ a i j) (at_ a i k)) as [C1|C1]; [now left|]. right.
    destruct (Rlt_dec _ _) as [|C2]; [reflexivity|]. exfalso. apply Rnot_lt_le in C1, C2. apply (Rlt_irrefl (at_ a i j)). eapply Rlt_le_trans; [exact C|]. eapply Rle_trans; eassumption.
  - destruct (Rlt_dec (at_ a i j) (at_ a i k)) as [C|]; [|discriminate]. destruct (Rlt_dec (at_ a i k) (at_ a i l)) as [C1|]; [|discriminate].
    destruct (Rlt_dec _ _) as [|N]; [reflexivity|]. exfalso. apply N. eapply Rlt_trans; eassumption.
Qed.
(** predict agrees in both arithmetics whenever the exact best class wins by more than twice the budget, and the scores
    differ by at most the budget. *)
Theorem C70_predict : forall (jf jr : nat -> R) (nf : net F) (Hf : lheap F) (ne : net Rdt) (He : lheap Rdt) lsf lsr bs (x : mat F) (xr : mat Rdt) M e,
  dense_hidden nf Hf -> dense_hidden ne He -> hidden_layers nf Hf = Ok lsf -> hidden_layers ne He = Ok lsr ->
  stacked (nc xr) bs (lsf ++ [o_l (n_output nf)]) (lsr ++ [o_l (n_output ne)]) -> Forall (fun l => 1 <= nc (l_W l)) lsr ->
  1 <= nr xr -> 1 <= nc xr -> 1 <= nc (l_W (o_l (n_output ne))) -> (0 <= M)%R -> (0 <= e)%R -> close e x xr -> bounded M xr ->
  exists p nf' Hf' pr ne' He' ar ne1 He1, net_predict (D := F) jf nf Hf x = Ok (p, nf', Hf') /\ net_predict (D := Rdt) jr ne He xr = Ok (pr, ne', He') /\
    net_forward (D := Rdt) jr ne He xr = Ok (ar, ne1, He1) /\ nr p = nr xr /\ nr pr = nr xr /\ nr ar = nr xr /\ nc ar = nc (l_W (o_l (n_output ne))) /\
    forall i c, i < nr ar -> c < nc ar -> (forall j, j < nc ar -> j <> c -> (at_ ar i j + 2 * snd (fold_left budget bs (M, e)) < at_ ar i c)%R) ->
      (at_ pr i 0 : R) = INR c /\ (at_ p i 0 : R) = rnd (INR c) /\ (Rabs (at_ p i 1 - at_ pr i 1) <= snd (fold_left budget bs (M, e)))%R.
Proof.
  intros jf jr nf Hf ne He lsf lsr bs x xr M e Df De Lf Le HS HF Hx Hc Ho HM Hep HC HB.
  destruct (C70_network jf jr nf Hf ne He lsf lsr bs x xr M e Df De Lf Le HS HF Hx Hc HM Hep HC HB) as (a & nf1 & Hf1 & ar & ne1 & He1 & A1 & A2 & A3 & A4).
  pose proof A4 as (C1 & C2 & C3). set (E := snd (fold_left budget bs (M, e))) in *.
  destruct (stacked_fits _ _ _ _ _ _ HS Hc HF) as (q & Q1 & Q2 & Q3 & Q4 & Q5 & Q6).
  destruct (dense_fwd (D := Rdt) jr ne He lsr xr q De Le Hx Q2 Q3 Q5) as (br & lsr' & ar2 & ne2 & He2 & B1 & B2 & B3 & B3' & B4).
  rewrite A2 in B4. injection B4 as <- _ _. assert (Car : nc ar = nc (l_W (o_l (n_output ne)))) by (rewrite B2; reflexivity).
  assert (P1 : exists p nf' Hf', net_predict (D := F) jf nf Hf x = Ok (p, nf', Hf')).
  { unfold net_predict. rewrite A1. cbn [bind]. pose proof A1 as G. unfold net_forward in G. destruct (input_forward (n_input nf) x) as [cur i'].
    apply bind_ok in G as ([cur' H2] & _ & G). apply bind_ok in G as ([r o'] & G2 & G). injection G as -> <- ->. apply out_forward_inv in G2 as (_ & -> & ->).
    unfold argmax. cbn [set_result set_output set_input n_output o_l fwd_layer l_a] in *. destruct (Nat.eqb_spec (nc (fwd_out (o_l (n_output nf)) cur')) 0) as [Z0|Z0]; [exfalso; lia|]. cbn [andb bind]. eauto. }
  assert (P2 : exists p nf' Hf', net_predict (D := Rdt) jr ne He xr = Ok (p, nf', Hf')).
  { unfold net_predict. rewrite A2. cbn [bind]. pose proof A2 as G. unfold net_forward in G. destruct (input_forward (n_input ne) xr) as [cur i'].
    apply bind_ok in G as ([cur' H2] & _ & G). apply bind_ok in G as ([r o'] & G2 & G). injection G as -> <- ->. apply out_forward_inv in G2 as (_ & -> & ->).
    unfold argmax. cbn [set_result set_output set_input n_output o_l fwd_layer l_a] in *. destruct (Nat.eqb_spec (nc (fwd_out (o_l (n_output ne)) cur')) 0) as [Z0|Z0]; [exfalso; lia|]. cbn [andb bind]. eauto. }
  destruct P1 as (p & nf' & Hf' & P1), P2 as (pr & ne' & He' & P2).
  destruct (C34_predict (D := F) jf nf Hf x p nf' Hf' P1) as (a' & n1 & K1 & R1 & _ & R2 & _ & _ & _ & _ & R3). rewrite A1 in R1. injection R1 as <- _ _.
  destruct (C34_predict (D := Rdt) jr ne He xr pr ne' He' P2) as (a' & n1' & K1' & S1 & _ & S2 & _ & _ & _ & _ & S3). rewrite A2 in S1. injection S1 as <- _ _.
  exists p, nf', Hf', pr, ne', He', ar, ne1, He1. split; [exact P1|]. split; [exact P2|]. split; [exact A2|]. split; [congruence|]. split; [congruence|]. split; [exact A3|]. split; [exact Car|].
  intros i c Hi Hcc HW. assert (E0 : (0 <= E)%R) by (eapply Rle_trans; [apply Rabs_pos|exact (C3 i c Hi Hcc)]).
  destruct (R3 i ltac:(lia) (ordered_F a i)) as (k & (K1a & K2 & _) & K4 & K5). destruct (S3 i Hi (ordered_R ar i)) as (k' & (J1 & J2 & _) & J4 & J5).
  assert (Ek' : k' = c).
  { destruct (Nat.eq_dec k' c) as [|N]; [assumption|]. exfalso. pose proof (HW k' J1 N) as G. specialize (J2 c Hcc). cbn in J2. unfold Rltb' in J2. destruct (Rlt_dec _ _) as [|X]; [discriminate|]. apply X. change (car Rdt) with R in *; lra. }
  assert (Ek : k = c).
  { destruct (Nat.eq_dec k c) as [|N]; [assumption|]. exfalso. rewrite C2 in K1a. pose proof (HW k K1a N) as G. pose proof (C3 i k Hi K1a) as G1. pose proof (C3 i c Hi Hcc) as G2.
    specialize (K2 c ltac:(lia)). cbn in K2. unfold Rltb' in K2. destruct (Rlt_dec _ _) as [|X]; [discriminate|]. apply X.
    apply Rabs_le_between in G1, G2. change (car F) with R in *. change (car Rdt) with R in *. lra. }
  subst k k'. rewrite J4, K4, J5, K5. cbn [dofZ Rdt fdt]. rewrite <- INR_IZR_INZ. split; [reflexivity|]. split; [reflexivity|]. now apply C3.
Qed.
End Spec.

(** ** Activations *)
Section Acts.
Local Open Scope R_scope.
Context (rnd : R -> R) (m : libm) (u eta : R).
Notation F := (fdt rnd m).
Notation AR f := (act (D := Rdt) f).
Notation AF f := (act (D := F) f).

Lemma lip_of_derive (f f' : R -> R) L : (forall z, is_derive f z (f' z)) -> (forall z, Rabs (f' z) <= L) -> forall z z', Rabs (f z - f z') <= L * Rabs (z - z').
Proof.
  intros HD HL z z'. destruct (MVT_gen f z' z f') as (c & _ & E).
  - intros x _. apply HD.
  - intros x _. apply continuity_pt_filterlim. apply (ex_derive_continuous f). exists (f' x). apply HD.
  - rewrite E, Rabs_mult. apply Rmult_le_compat_r; [apply Rabs_pos|apply HL].
Qed.
Lemma lip_sigmoid z z' : Rabs (AR sigmoid z - AR sigmoid z') <= 1 / 4 * Rabs (z - z').
Proof.
  apply (lip_of_derive (AR sigmoid) (actd (D := Rdt) sigmoid)); intros y; [apply C22_smooth|]. pose proof (C25_ranges y) as (_ & _ & _ & _ & _ & _ & _ & _ & _ & _ & _ & _ & Q). unfold P_Act.F' in Q. rewrite Rabs_pos_eq; lra.
Qed.
Lemma lip_tanh z z' : Rabs (AR tanhyperbolic z - AR tanhyperbolic z') <= 1 * Rabs (z - z').
Proof.
  apply (lip_of_derive (AR tanhyperbolic) (actd (D := Rdt) tanhyperbolic)); intros y; [apply C22_smooth|]. pose proof (C25_ranges y) as (_ & _ & Q & _).
  unfold P_Act.F in Q. cbn in *. unfold f_tanh in Q. cbn in Q. unfold f_tanhgrad. cbn. apply Rabs_le. nra.
Qed.
Lemma lip_arctan z z' : Rabs (AR arctan z - AR arctan z') <= 1 * Rabs (z - z').
Proof.
  apply (lip_of_derive (AR arctan) (actd (D := Rdt) arctan)); intros y; [apply C22_smooth|]. cbn. unfold f_arctangrad. cbn. 
  assert (1 <= 1 + y * y) by nra. rewrite Rabs_pos_eq.
  - apply (Rmult_le_reg_r (1 + y * y)); [lra|]. unfold Rdiv. rewrite Rmult_assoc, Rinv_l by lra. lra.
  - apply Rmult_le_pos; [lra|]. left. apply Rinv_0_lt_compat. lra.
Qed.
Lemma act_close_mono af ar lip err lip' err' : act_close af ar lip err -> lip <= lip' -> err <= err' -> act_close af ar lip' err'.
Proof.
  intros [A B] L E. split; [|intros z; specialize (B z); lra]. intros z z'. eapply Rle_trans; [apply A|]. apply Rmult_le_compat_r; [apply Rabs_pos|assumption].
Qed.
Context (Hstd : std_model rnd u eta) (Hex : rnd 0 = 0 /\ rnd 1 = 1 /\ rnd (-1) = -1).

(** The error of the computed sigmoid, given that of exp. *)
Definition sig_rho (tau : R) : R := tau + u * (1 + tau) + eta.
Lemma sig_err tau z : 0 <= tau -> sig_rho tau < 1 -> Rabs (m_exp m (- z) - exp (- z)) <= tau * (1 + exp (- z)) ->
  Rabs (AF sigmoid z - AR sigmoid z) <= (sig_rho tau + u) / (1 - sig_rho tau) + eta.
Proof.
  intros T0 R1 HE. pose proof (u0 rnd u eta Hstd) as U0. pose proof (eta0 rnd u eta Hstd) as ET. cbn. unfold f_sigmoid, lit. cbn. destruct Hex as (_ & X1 & _). rewrite X1.
  set (Ef := m_exp m (- z)) in *. set (E := exp (- z)) in *. assert (E0 : 0 < E) by apply exp_pos. set (rho := sig_rho tau) in *.
  assert (Q1 : Rabs (rnd (1 + Ef) - (1 + E)) <= rho * (1 + E)).
  { pose proof (rnd_err rnd u eta Hstd (1 + Ef)) as S1. assert (S2 : Rabs (1 + Ef) <= (1 + tau) * (1 + E)).
    { replace (1 + Ef) with ((Ef - E) + (1 + E)) by lra. eapply Rle_trans; [apply Rabs_triang|]. rewrite (Rabs_pos_eq (1 + E)) by lra. lra. }
    assert (S3 : u * Rabs (1 + Ef) <= u * ((1 + tau) * (1 + E))) by (apply Rmult_le_compat_l; assumption).
    replace (rnd (1 + Ef) - (1 + E)) with ((rnd (1 + Ef) - (1 + Ef)) + (Ef - E)) by lra. eapply Rle_trans; [apply Rabs_triang|]. unfold rho, sig_rho. nra. }
  set (df := rnd (1 + Ef)) in *. set (d := 1 + E) in *. assert (D1 : 1 < d) by (unfold d; lra).
  apply Rabs_le_between in Q1. assert (Q2 : (1 - rho) * d <= df) by lra. assert (P1 : 0 < 1 - rho) by lra. assert (P2 : 1 - rho <= df) by nra. assert (P3 : 0 < df) by lra.
  assert (I1 : 1 / df <= 1 / (1 - rho)) by (unfold Rdiv; apply Rmult_le_compat_l; [lra|]; apply Rinv_le_contravar; lra).
  assert (I0 : 0 < 1 / df) by (apply Rdiv_lt_0_compat; lra).
  assert (I2 : Rabs (1 / df - 1 / d) <= rho / (1 - rho)).
  { replace (1 / df - 1 / d) with ((d - df) / (df * d)) by (field; lra). unfold Rdiv at 1. rewrite Rabs_mult, (Rabs_pos_eq (/ (df * d))) by (left; apply Rinv_0_lt_compat; nra).
    apply (Rle_trans _ (rho * d * / (df * d))).
    - apply Rmult_le_compat_r; [left; apply Rinv_0_lt_compat; nra|]. apply Rabs_le. lra.
    - replace (rho * d * / (df * d)) with (rho * (1 / df)) by (field; lra). unfold Rdiv at 2. rewrite <- (Rmult_1_l (/ (1 - rho))). fold (1 / (1 - rho)). apply Rmult_le_compat_l; [|assumption]. unfold rho, sig_rho. nra. }
  pose proof (rnd_err rnd u eta Hstd (1 / df)) as S1. rewrite (Rabs_pos_eq (1 / df)) in S1 by lra. assert (S2 : u * (1 / df) <= u * (1 / (1 - rho))) by (apply Rmult_le_compat_l; assumption).
  replace (rnd (1 / df) - 1 / d) with ((rnd (1 / df) - 1 / df) + (1 / df - 1 / d)) by lra. eapply Rle_trans; [apply Rabs_triang|].
  replace ((rho + u) / (1 - rho)) with (rho / (1 - rho) + u * (1 / (1 - rho))) by (field; lra). lra.
Qed.

Theorem C70_activations :
  act_close (AF identity) (AR identity) 1 0 /\ act_close (AF relu) (AR relu) 1 0 /\ act_close (AF absolute) (AR absolute) 1 0 /\ act_close (AF hardtanh) (AR hardtanh) 1 0 /\
  (forall tau, (forall z, Rabs (m_tanh m z - tanh z) <= tau) -> act_close (AF tanhyperbolic) (AR tanhyperbolic) 1 tau) /\
  (forall tau, (forall z, Rabs (m_atan m z - atan z) <= tau) -> act_close (AF arctan) (AR arctan) 1 tau) /\
  (forall tau, 0 <= tau -> tau + u * (1 + tau) + eta < 1 -> (forall z, Rabs (m_exp m z - exp z) <= tau * (1 + exp z)) ->
     act_close (AF sigmoid) (AR sigmoid) (1 / 4) ((tau + u * (1 + tau) + eta + u) / (1 - (tau + u * (1 + tau) + eta)) + eta)).
Proof.
  destruct Hex as (X0 & X1 & X2). 
  assert (Rm : forall a b c, Rabs (Rmax c a - Rmax c b) <= Rabs (a - b)).
  { intros a b c. unfold Rmax. destruct (Rle_dec c a), (Rle_dec c b); unfold Rabs; repeat destruct (Rcase_abs _); lra. }
  assert (Rn : forall a b c, Rabs (Rmin c a - Rmin c b) <= Rabs (a - b)).
  { intros a b c. unfold Rmin. destruct (Rle_dec c a), (Rle_dec c b); unfold Rabs; repeat destruct (Rcase_abs _); lra. }
  assert (Z : forall x, Rabs (x - x) <= 0) by (intros x; rewrite Rminus_diag_eq, Rabs_R0 by reflexivity; lra).
  repeat split; try (intros z z'; apply lip_tanh); try (intros z z'; apply lip_arctan); try (intros z z'; apply lip_sigmoid).
  - intros z z'. cbn. unfold f_identity. lra.
  - intros z. apply Z.
  - intros z z'. cbn. unfold f_relu. cbn. unfold Rleb'. destruct (Rle_dec 0 z), (Rle_dec 0 z'); unfold Rabs; repeat destruct (Rcase_abs _); lra.
  - intros z. cbn. unfold f_relu, lit. cbn. rewrite X0. apply Z.
  - intros z z'. cbn. unfold f_absolute. cbn. rewrite Rmult_1_l. apply Rabs_triang_inv2.
  - intros z. apply Z.
  - intros z z'. cbn. unfold f_hardtanh. cbn. rewrite Rmult_1_l. eapply Rle_trans; [apply Rm|apply Rn].
  - intros z. cbn. unfold f_hardtanh, lit. cbn. rewrite X1, X2. apply Z.
  - intros z. apply H.
  - intros z. apply H.
  - intros z. apply (sig_err tau z H H0). apply H1.
Qed.
End Acts.

(** ** IEEE 754 binary64 (double), round to nearest even *)
Section B64.
Local Open Scope R_scope.
Definition rnd64 : R -> R := round radix2 (FLT_exp (-1074) 53) ZnearestE.
Lemma bpow_neg n : bpow radix2 (- Z.of_nat n) = / 2 ^ n.
Proof. rewrite bpow_opp. f_equal. rewrite bpow_powerRZ. symmetry. apply pow_powerRZ. Qed.
Theorem C70_binary64 : std_model rnd64 (/ 2 ^ 53) (/ 2 ^ 1075) /\ forall z, (Z.abs z < 2 ^ 53)%Z -> rnd64 (IZR z) = IZR z.
Proof.
  assert (P53 : 0 < / 2 ^ 53) by (apply Rinv_0_lt_compat, pow_lt; lra). assert (P75 : 0 < / 2 ^ 1075) by (apply Rinv_0_lt_compat, pow_lt; lra).
  assert (Pg : Prec_gt_0 53) by reflexivity.
  assert (B53 : / 2 * bpow radix2 (-53 + 1) = / 2 ^ 53).
  { change (/ 2) with (bpow radix2 (- Z.of_nat 1)). rewrite <- bpow_plus. change (- Z.of_nat 1 + (-53 + 1))%Z with (- Z.of_nat 53)%Z. apply bpow_neg. }
  assert (B75 : / 2 * bpow radix2 (-1074) = / 2 ^ 1075).
  { change (/ 2) with (bpow radix2 (- Z.of_nat 1)). rewrite <- bpow_plus. change (- Z.of_nat 1 + (-1074))%Z with (- Z.of_nat 1075)%Z. apply bpow_neg. }
  split.
  - split; [lra|]. split; [lra|]. intros x. destruct (Rle_or_lt (bpow radix2 (-1074 + 53 - 1)) (Rabs x)) as [H|H].
    + pose proof (relative_error_N_FLT radix2 (-1074) 53 ltac:(lia) (fun n => negb (Z.even n)) x H) as Q. change (Znearest (fun n => negb (Z.even n))) with ZnearestE in Q. fold rnd64 in Q.
      fold (rnd64 x) in Q. change (- (53) + 1)%Z with (-53 + 1)%Z in Q. rewrite B53 in Q. lra.
    + pose proof (error_le_half_ulp radix2 (FLT_exp (-1074) 53) (fun n => negb (Z.even n)) x) as Q. fold (rnd64 x) in Q. rewrite (ulp_FLT_small radix2 (-1074) 53) in Q.
      * rewrite B75 in Q. pose proof (Rabs_pos x). nra.
      * eapply Rlt_trans; [exact H|]. apply bpow_lt. lia.
  - intros z Hz. apply round_generic; [apply valid_rnd_N|]. apply generic_format_FLT. exists (Float radix2 z 0); [|exact Hz|cbn; lia]. unfold F2R. cbn. lra.
Qed.
End B64.

(** ** Example: a network with two inputs, two relu units and two outputs, in binary64 *)
Section Ex.
Context (m : libm).
Notation F := (fdt rnd64 m).
Definition exr_l (D : dtype) (a : actfunc D) (w : list D) : layer D := L (D := D) d0 d0 a mempty mempty mempty mempty (Mat (D := D) 3 2 w) mempty.
Definition exr_o (D : dtype) (w : list D) : output D := O (exr_l D identity w) quad_cost quad_costd mempty.
Definition exr_n (D : dtype) (w : list D) : net D := N (D := D) mempty quad_cost quad_costd (layer_default (D := D)) [0%nat] (exr_o D w).
Definition exr_w1 : list R := [0; 1; 1; 1; -1; 1]%R.
Definition exr_w2 : list R := [0; 2; 0; 1/2; 0; 1]%R.
Definition exr_x : list R := [1; 0]%R.
Definition exr_b1 : linfo := LI 2 3 1 0 0.
Definition exr_b2 : linfo := LI 2 2 1 0 0.
Lemma pow2_ge n : n >= 10 -> (/ 2 ^ n <= / 1024)%R.
Proof. intros H. apply Rinv_le_contravar; [lra|]. replace 1024%R with (2 ^ 10)%R by (cbn; lra). apply Rle_pow; [lra|lia]. Qed.
Lemma exr_hd (D : dtype) h w : dense_hidden (exr_n D w) [HDense h] /\ hidden_layers (exr_n D w) [HDense h] = Ok [layer_copy h].
Proof.
  split; [|reflexivity]. split; [repeat constructor; intros []|]. intros p [<-|[]]. eexists; reflexivity.
Qed.
Lemma exr_stacked : stacked rnd64 m 2 [exr_b1; exr_b2] ([exr_l F relu exr_w1] ++ [exr_l F identity exr_w2]) ([exr_l Rdt relu exr_w1] ++ [exr_l Rdt identity exr_w2]).
Proof.
  destruct C70_binary64 as [HS HE]. assert (X : (rnd64 0 = 0 /\ rnd64 1 = 1 /\ rnd64 (-1) = -1)%R) by (repeat split; apply HE; reflexivity).
  pose proof (C70_activations rnd64 m _ _ HS X) as (AI & AR & _).
  cbn [app stacked]. split; [reflexivity|]. split; [|split; [reflexivity|split; [|exact I]]].
  - split; [reflexivity|]. split; [reflexivity|]. split; [reflexivity|]. split; [intros [|[|[|k]]] [|[|j]] Hk Hj; try reflexivity; cbn in Hk, Hj; lia|]. split.
    + intros [|[|j]] Hj; [| |cbn in Hj; lia]; unfold sumN, sumL, at_; cbn; unfold Rabs; repeat destruct (Rcase_abs _); lra.
    + split; [exact AR|]. cbn. unfold f_relu. cbn. split; [destruct (Rleb' 0 0); rewrite Rabs_R0; lra|]. lra.
  - split; [reflexivity|]. split; [reflexivity|]. split; [reflexivity|]. split; [intros [|[|[|k]]] [|[|j]] Hk Hj; try reflexivity; cbn in Hk, Hj; lia|]. split.
    + intros [|[|j]] Hj; [| |cbn in Hj; lia]; unfold sumN, sumL, at_; cbn; unfold Rabs; repeat destruct (Rcase_abs _); lra.
    + split; [exact AI|]. cbn. unfold f_identity. rewrite Rabs_R0. lra.
Qed.
Lemma exr_budget : (0 <= snd (fold_left (budget (/ 2 ^ 53) (/ 2 ^ 1075)) [exr_b1; exr_b2] (1, 0)) < / 2)%R.
Proof.
  pose proof (pow2_ge 53 ltac:(lia)) as A. pose proof (pow2_ge 1075 ltac:(lia)) as B. assert (A0 : (0 < / 2 ^ 53)%R) by (apply Rinv_0_lt_compat, pow_lt; lra). assert (B0 : (0 < / 2 ^ 1075)%R) by (apply Rinv_0_lt_compat, pow_lt; lra).
  set (u := (/ 2 ^ 53)%R) in *. set (eta := (/ 2 ^ 1075)%R) in *. cbn [fold_left budget exr_b1 exr_b2 i_in i_w i_lip i_zero i_err snd]. change (2 + 1 + 1)%nat with 4%nat. replace (INR (2 * (2 + 1))) with 6%R by (cbn; lra).
  assert (P : (1 <= (1 + u) ^ 4 <= 1 + 5 * u)%R).
  { split; [apply pow_R1_Rle; lra|]. cbn [pow]. assert (0 <= u * u <= u / 1024)%R by nra. assert (0 <= u * u * u <= u / 1024)%R by nra. assert (0 <= u * u * u * u <= u / 1024)%R by nra. nra. }
  set (P4 := ((1 + u) ^ 4)%R) in *. assert (EQ : (0 <= eta * P4 <= / 512)%R) by nra.
  replace (6 * eta * P4)%R with (6 * (eta * P4))%R by lra. set (q := (eta * P4)%R) in *. rewrite (Rmax_left 1 1) by lra. rewrite ?Rplus_0_r, ?(Rmax_left 1 1) by lra.
  set (e1 := (1 * (0 * 3 + (P4 - 1) * (3 * 1) + 6 * q) + 0)%R). assert (E1 : (0 <= e1 <= 3 * 5 / 1024 + 6 / 512)%R) by (unfold e1; lra).
  rewrite (Rmax_right 1) by lra. nra.
Qed.
Lemma C70_example : forall jf jr, exists p nf' Hf' pr ne' He',
  net_predict (D := F) jf (exr_n F exr_w2) [HDense (exr_l F relu exr_w1)] (Mat (D := F) 1 2 exr_x) = Ok (p, nf', Hf') /\
  net_predict (D := Rdt) jr (exr_n Rdt exr_w2) [HDense (exr_l Rdt relu exr_w1)] (Mat (D := Rdt) 1 2 exr_x) = Ok (pr, ne', He') /\
  (at_ p 0 0 : R) = 0%R /\ (at_ pr 0 0 : R) = 0%R /\ (Rabs (at_ p 0 1 - at_ pr 0 1) < / 2)%R.
Proof.
  intros jf jr. destruct C70_binary64 as [HS HE]. destruct (exr_hd F (exr_l F relu exr_w1) exr_w2) as [D1 D2]. destruct (exr_hd Rdt (exr_l Rdt relu exr_w1) exr_w2) as [D3 D4].
  destruct (C70_predict rnd64 m _ _ HS jf jr (exr_n F exr_w2) [HDense (exr_l F relu exr_w1)] (exr_n Rdt exr_w2) [HDense (exr_l Rdt relu exr_w1)] _ _ [exr_b1; exr_b2]
    (Mat (D := F) 1 2 exr_x) (Mat (D := Rdt) 1 2 exr_x) 1 0 D1 D3 D2 D4 exr_stacked) as (p & nf' & Hf' & pr & ne' & He' & ar & ne1 & He1 & P1 & P2 & P3 & P4 & P5 & P6 & P7 & P8);
    [repeat constructor|cbn; lia|cbn; lia|cbn; lia|lra|lra| | |].
  - split; [reflexivity|]. split; [reflexivity|]. intros [|i] [|[|j]] Hi Hj; cbn in Hi, Hj; try lia; unfold at_; cbn; rewrite Rminus_diag_eq, Rabs_R0 by reflexivity; lra.
  - intros [|i] [|[|j]] Hi Hj; cbn in Hi, Hj; try lia; unfold at_; cbn; rewrite ?Rabs_R1, ?Rabs_R0; lra.
  - pose proof exr_budget as [B0 B1]. exists p, nf', Hf', pr, ne', He'. split; [exact P1|]. split; [exact P2|].
    assert (V : (at_ ar 0 0 : R) = 2%R /\ (at_ ar 0 1 : R) = (1 / 2)%R).
    { destruct (dense_fwd (D := Rdt) jr (exr_n Rdt exr_w2) [HDense (exr_l Rdt relu exr_w1)] _ (Mat (D := Rdt) 1 2 exr_x) 2 D3 D4) as (b & ls' & a & n' & H' & L1 & L2 & L3 & _ & L4); [cbn; lia|cbn; repeat split; lia|lia|reflexivity|].
      rewrite P3 in L4. injection L4 as -> _ _. cbn [lforward layer_copy exr_l] in L1. apply bind_ok in L1 as ([c l'] & L1 & L5). apply forward_inv in L1 as (_ & -> & _). injection L5 as <- _. subst a.
      unfold fwd_out at 1 3. cbn [n_output exr_n exr_o o_l exr_l l_W l_act nr nc mk]. rewrite !at_mk by (cbn; lia).
      rewrite !pre_R by (cbn; lia). rewrite layer_copy_id. set (h := fwd_out (exr_l Rdt relu exr_w1) (Mat (D := Rdt) 1 2 exr_x)).
      assert (V : (at_ h 0 0 : R) = 1%R /\ (at_ h 0 1 : R) = 0%R).
      { unfold h, fwd_out. rewrite !at_mk by (cbn; lia). cbn [exr_l l_W l_act]. rewrite !pre_R by (cbn; lia). unfold sumN, sumL, at_. cbn. unfold f_relu. cbn. unfold Rleb'. repeat destruct (Rle_dec _ _); split; lra. }
      destruct V as [V0 V1]. change (nc h) with 2%nat. unfold sumN, sumL. cbn [seq map fold_right]. change (car Rdt) with R in *. rewrite V0, V1. unfold at_. cbn. unfold f_identity. split; lra. }
    destruct V as [V0 V1]. destruct (P8 0%nat 0%nat) as (R1 & R2 & R3).
    + rewrite P6. cbn. lia.
    + rewrite P7. cbn. lia.
    + rewrite P7. intros [|[|j]] Hj N; cbn in Hj; try lia. change (car Rdt) with R in *. lra.
    + split; [rewrite R2; cbn; apply (HE 0%Z); reflexivity|]. split; [exact R1|]. lra.
Qed.
End Ex.
Print Assumptions C70_any_order.
Print Assumptions C70_predict.
Print Assumptions C70_activations.
Print Assumptions C70_binary64.
Print Assumptions C70_example.

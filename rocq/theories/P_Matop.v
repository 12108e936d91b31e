(** P_Matop.v - C67: the matrix helper functions of matop.h. *)
From Coq Require Import Reals Lra.
From Verif Require Import Base Mat Act Layer Conv Misc Net NetP RInst RMat.
From Coq Require Import Arith.
Local Open Scope nat_scope.

Section Gen.
Context {D : dtype}.
Notation mat := (mat D).
Ltac beq := repeat match goal with
  | |- context [?a <=? ?b] => destruct (Nat.leb_spec a b); try lia
  | |- context [?a <? ?b] => destruct (Nat.ltb_spec a b); try lia
  | |- context [?a =? ?b] => destruct (Nat.eqb_spec a b); try lia end.

(** addcol: a column of ones in front; it throws exactly on matrices without rows or without columns. *)
Theorem C67_addcol : forall m : mat,
  (1 <= nr m -> 1 <= nc m -> exists r, addcol m = Ok r /\ nr r = nr m /\ nc r = nc m + 1 /\
     (forall i, i < nr m -> at_ r i 0 = d1) /\ (forall i j, i < nr m -> j < nc m -> at_ r i (j + 1) = at_ m i j)) /\
  (nr m = 0 \/ nc m = 0 -> addcol m = Throw).
Proof.
  intros m. split.
  - intros Hr Hc. unfold addcol, set_submat, sub_ok, ones. cbn [nr nc mk].
    rewrite (proj2 (Z.leb_le 0 (Z.of_nat (nr m) - 1))), (proj2 (Z.ltb_lt (Z.of_nat (nr m) - 1) _)), (proj2 (Z.leb_le 1 (Z.of_nat (nc m + 1) - 1))), (proj2 (Z.ltb_lt (Z.of_nat (nc m + 1) - 1) _)) by lia.
    cbn [Z.leb Z.compare andb]. rewrite (proj2 (Nat.eqb_eq _ (nr m))), (proj2 (Nat.eqb_eq _ (nc m))) by lia. cbn [andb].
    eexists. split; [reflexivity|]. cbn [nr nc mk]. split; [reflexivity|]. split; [reflexivity|]. split.
    + intros i Hi. rewrite !at_mk by lia. change (Z.to_nat 1) with 1. change (1 <=? 0) with false. now rewrite !andb_false_r.
    + intros i j Hi Hj. rewrite at_mk by lia. change (Z.to_nat 1) with 1. change (Z.to_nat 0) with 0. beq. cbn [andb]. unfold put. f_equal; lia.
  - intros H. unfold addcol, set_submat, sub_ok, ones. cbn [nr nc mk]. destruct H as [-> | ->]; cbn [Z.of_nat]; [reflexivity|]. change (1 <=? Z.of_nat (0 + 1) - 1)%Z with false. now rewrite !andb_false_r.
Qed.
(** addrow: a row of ones on top. *)
Theorem C67_addrow : forall m : mat, exists r, addrow m = Ok r /\ nr r = nr m + 1 /\ nc r = nc m /\
  (forall j, j < nc m -> at_ r 0 j = d1) /\ (forall i j, i < nr m -> j < nc m -> at_ r (i + 1) j = at_ m i j).
Proof.
  intros m. unfold addrow, insert_rows, ones. cbn [nr nc mk]. rewrite Nat.eqb_refl. cbn [Nat.leb andb]. eexists. split; [reflexivity|]. cbn [nr nc mk]. split; [lia|]. split; [reflexivity|]. split.
  - intros j Hj. rewrite at_mk by lia. cbn [Nat.ltb Nat.leb Nat.add Nat.sub]. rewrite at_mk by lia. reflexivity.
  - intros i j Hi Hj. rewrite at_mk by lia. beq. f_equal. lia.
Qed.
(** repeat: tiles. *)
Theorem C67_repeat : forall (m : mat) r c, nr (repeatm m r c) = nr m * r /\ nc (repeatm m r c) = nc m * c /\
  forall a b i j, a < r -> b < c -> i < nr m -> j < nc m -> at_ (repeatm m r c) (a * nr m + i) (b * nc m + j) = at_ m i j.
Proof.
  intros m r c. split; [reflexivity|]. split; [reflexivity|]. intros a b i j Ha Hb Hi Hj. unfold repeatm, repmat.
  rewrite at_mk by nia. rewrite (Nat.add_comm (a * nr m)), (Nat.add_comm (b * nc m)), !Nat.mod_add, !Nat.mod_small by lia. reflexivity.
Qed.

(** Element access, rows, columns and sub-matrices: the elements asked for if all of them exist, an exception otherwise. *)
Theorem C67_access : forall m : mat,
  (forall i j, (0 <= i < Z.of_nat (nr m))%Z /\ (0 <= j < Z.of_nat (nc m))%Z -> mget m i j = Ok (at_ m (Z.to_nat i) (Z.to_nat j))) /\
  (forall i j, ~ ((0 <= i < Z.of_nat (nr m))%Z /\ (0 <= j < Z.of_nat (nc m))%Z) -> mget m i j = Throw /\ forall v, mset m i j v = Throw) /\
  (forall i j v, i < nr m -> j < nc m -> exists r, mset m (Z.of_nat i) (Z.of_nat j) v = Ok r /\ nr r = nr m /\ nc r = nc m /\ at_ r i j = v /\
     forall i' j', i' < nr m -> j' < nc m -> (i', j') <> (i, j) -> at_ r i' j' = at_ m i' j').
Proof.
  intros m. unfold mget, mset, inb. split; [|split].
  - intros i j H. rewrite (proj2 (Z.leb_le 0 i)), (proj2 (Z.ltb_lt i _)), (proj2 (Z.leb_le 0 j)), (proj2 (Z.ltb_lt j _)) by lia. reflexivity.
  - intros i j H. assert (E : (0 <=? i)%Z && (i <? Z.of_nat (nr m))%Z && (0 <=? j)%Z && (j <? Z.of_nat (nc m))%Z = false).
    { destruct (Z.leb_spec 0 i), (Z.ltb_spec i (Z.of_nat (nr m))), (Z.leb_spec 0 j), (Z.ltb_spec j (Z.of_nat (nc m))); cbn; try reflexivity. exfalso. apply H. lia. }
    rewrite E. auto.
  - intros i j v Hi Hj. rewrite (proj2 (Z.leb_le 0 (Z.of_nat i))), (proj2 (Z.ltb_lt (Z.of_nat i) _)), (proj2 (Z.leb_le 0 (Z.of_nat j))), (proj2 (Z.ltb_lt (Z.of_nat j) _)) by lia. cbn [andb]. rewrite !Nat2Z.id.
    eexists. split; [reflexivity|]. split; [reflexivity|]. split; [reflexivity|]. split.
    + rewrite at_mk by assumption. now rewrite !Nat.eqb_refl.
    + intros i' j' Hi' Hj' N. rewrite at_mk by assumption. destruct (Nat.eqb_spec i' i), (Nat.eqb_spec j' j); cbn; try reflexivity. subst. now destruct N.
Qed.
(** r is the block of m whose first element is (i0, j0) and which has h rows and w columns. *)
Definition block (m : mat) (i0 j0 h w : nat) (r : mat) : Prop := nr r = h /\ nc r = w /\ forall i j, i < h -> j < w -> at_ r i j = at_ m (i0 + i) (j0 + j).
Theorem C67_blocks : forall m : mat,
  (forall i, i < nr m -> exists r, mrow m i = Ok r /\ block m i 0 1 (nc m) r) /\ (forall i, nr m <= i -> mrow m i = Throw) /\
  (forall a b, a <= b < nr m -> exists r, mrows m (Z.of_nat a) (Z.of_nat b) = Ok r /\ block m a 0 (b - a + 1) (nc m) r) /\ (forall a b, ~ (0 <= a <= b /\ b < Z.of_nat (nr m))%Z -> mrows m a b = Throw) /\
  (forall a b, a <= b < nc m -> exists r, mcols m (Z.of_nat a) (Z.of_nat b) = Ok r /\ block m 0 a (nr m) (b - a + 1) r) /\ (forall a b, ~ (0 <= a <= b /\ b < Z.of_nat (nc m))%Z -> mcols m a b = Throw) /\
  (forall r1 c1 r2 c2, r1 <= r2 < nr m -> c1 <= c2 < nc m -> exists r, submat m (Z.of_nat r1) (Z.of_nat c1) (Z.of_nat r2) (Z.of_nat c2) = Ok r /\ block m r1 c1 (r2 - r1 + 1) (c2 - c1 + 1) r) /\
  (forall r1 c1 r2 c2, ~ (0 <= r1 <= r2 /\ r2 < Z.of_nat (nr m) /\ 0 <= c1 <= c2 /\ c2 < Z.of_nat (nc m))%Z -> submat m r1 c1 r2 c2 = Throw).
Proof.
  intros m. assert (B : forall a b c : Z, ((0 <=? a) && (a <=? b) && (b <? c) = true)%Z <-> (0 <= a <= b /\ b < c)%Z).
  { intros a b c. rewrite !andb_true_iff, !Z.leb_le, Z.ltb_lt. lia. }
  assert (K : forall h w f i0 j0, (forall i j, i < h -> j < w -> f i j = at_ m (i0 + i) (j0 + j)) -> block m i0 j0 h w (mk h w f)) by (intros h w f i0 j0 F; split; [reflexivity|]; split; [reflexivity|]; intros i j Hi Hj; rewrite at_mk by assumption; auto).
  repeat match goal with |- _ /\ _ => split end.
  - intros i Hi. unfold mrow. rewrite (proj2 (Nat.ltb_lt _ _) Hi). eexists. split; [reflexivity|]. apply K. intros i' j Hi' _. f_equal; lia.
  - intros i Hi. unfold mrow. now rewrite (proj2 (Nat.ltb_ge _ _) Hi).
  - intros a b H. unfold mrows. rewrite (proj2 (B _ _ _)) by lia. eexists. split; [reflexivity|]. replace (Z.to_nat (Z.of_nat b - Z.of_nat a + 1)) with (b - a + 1) by lia. apply K. intros i j _ _. f_equal; lia.
  - intros a b H. unfold mrows. destruct ((0 <=? a) && (a <=? b) && (b <? Z.of_nat (nr m)))%Z eqn:E; [|reflexivity]. apply B in E. contradiction.
  - intros a b H. unfold mcols. rewrite (proj2 (B _ _ _)) by lia. eexists. split; [reflexivity|]. replace (Z.to_nat (Z.of_nat b - Z.of_nat a + 1)) with (b - a + 1) by lia. apply K. intros i j _ _. f_equal; lia.
  - intros a b H. unfold mcols. destruct ((0 <=? a) && (a <=? b) && (b <? Z.of_nat (nc m)))%Z eqn:E; [|reflexivity]. apply B in E. contradiction.
  - intros r1 c1 r2 c2 H1 H2. unfold submat, sub_ok. rewrite (proj2 (B (Z.of_nat r1) (Z.of_nat r2) _)) by lia. cbn [andb]. rewrite (proj2 (B (Z.of_nat c1) (Z.of_nat c2) _)) by lia. eexists. split; [reflexivity|].
    replace (Z.to_nat (Z.of_nat r2 - Z.of_nat r1 + 1)) with (r2 - r1 + 1) by lia. replace (Z.to_nat (Z.of_nat c2 - Z.of_nat c1 + 1)) with (c2 - c1 + 1) by lia. apply K. intros i j _ _. f_equal; lia.
  - intros r1 c1 r2 c2 H. unfold submat, sub_ok. destruct ((0 <=? r1) && (r1 <=? r2) && (r2 <? Z.of_nat (nr m)))%Z eqn:E; [|reflexivity]. apply B in E. cbn [andb].
    destruct ((0 <=? c1) && (c1 <=? c2) && (c2 <? Z.of_nat (nc m)))%Z eqn:E2; [|reflexivity]. apply B in E2. exfalso. apply H. lia.
Qed.
(** shed_col removes one column; flipud and fliplr reverse the order of the rows and of the columns. *)
Theorem C67_flips : forall m : mat,
  (forall k, k < nc m -> exists r, shed_col m k = Ok r /\ nr r = nr m /\ nc r = nc m - 1 /\ (forall i j, i < nr m -> j < k -> at_ r i j = at_ m i j) /\ (forall i j, i < nr m -> k <= j < nc m - 1 -> at_ r i j = at_ m i (j + 1))) /\
  (forall k, nc m <= k -> shed_col m k = Throw) /\
  nr (flipud m) = nr m /\ nc (flipud m) = nc m /\ nr (fliplr m) = nr m /\ nc (fliplr m) = nc m /\
  (forall i j, i < nr m -> j < nc m -> at_ (flipud m) i j = at_ m (nr m - 1 - i) j /\ at_ (fliplr m) i j = at_ m i (nc m - 1 - j)) /\
  (wf m -> flipud (flipud m) = m /\ fliplr (fliplr m) = m).
Proof.
  intros m. split; [|split; [|split; [reflexivity|split; [reflexivity|split; [reflexivity|split; [reflexivity|split]]]]]].
  - intros k Hk. unfold shed_col. rewrite (proj2 (Nat.ltb_lt _ _) Hk). eexists. split; [reflexivity|]. split; [reflexivity|]. split; [reflexivity|]. split; intros i j Hi Hj; rewrite at_mk by lia; beq; f_equal; lia.
  - intros k Hk. unfold shed_col. now rewrite (proj2 (Nat.ltb_ge _ _) Hk).
  - intros i j Hi Hj. unfold flipud, fliplr. now rewrite !at_mk by assumption.
  - intros W. split.
    + transitivity (mk (nr m) (nc m) (at_ m)); [|now apply mk_at]. unfold flipud at 1. cbn [nr nc flipud mk]. apply mk_ext. intros i j Hi Hj. unfold flipud. rewrite at_mk by lia. f_equal. lia.
    + transitivity (mk (nr m) (nc m) (at_ m)); [|now apply mk_at]. unfold fliplr at 1. cbn [nr nc fliplr mk]. apply mk_ext. intros i j Hi Hj. unfold fliplr. rewrite at_mk by lia. f_equal. lia.
Qed.
End Gen.

Section Reals.
Notation mat := (mat Rdt).
Ltac beq := repeat match goal with
  | |- context [?a <=? ?b] => destruct (Nat.leb_spec a b); try lia
  | |- context [?a <? ?b] => destruct (Nat.ltb_spec a b); try lia
  | |- context [?a =? ?b] => destruct (Nat.eqb_spec a b); try lia end.
Lemma fillv (v : R) r c i j : i < r -> j < c ->
  at_ (D := Rdt) (if deqb (d := Rdt) v d0 then zeros (D := Rdt) r c else if deqb (d := Rdt) v d1 then ones (D := Rdt) r c else mmap (D := Rdt) (fun x => dmul (d := Rdt) x v) (ones (D := Rdt) r c)) i j = v.
Proof.
  intros Hi Hj. cbn [deqb Rdt]. unfold Reqb'. destruct (Req_EM_T v (d0 (d := Rdt))) as [->|]; [now apply (at_mk (D := Rdt))|]. destruct (Req_EM_T v (d1 (d := Rdt))) as [->|]; [now apply (at_mk (D := Rdt))|].
  unfold mmap, ones. cbn [nr nc mk]. rewrite !(at_mk (D := Rdt)) by assumption. cbn. match goal with |- @eq _ ?a ?b => change (@eq R a b) end. ring.
Qed.
Lemma fill_dims (v : R) r c : let m := (if deqb (d := Rdt) v d0 then zeros (D := Rdt) r c else if deqb (d := Rdt) v d1 then ones (D := Rdt) r c else mmap (D := Rdt) (fun x => dmul (d := Rdt) x v) (ones (D := Rdt) r c)) in nr m = r /\ nc m = c.
Proof. cbv zeta. destruct (deqb (d := Rdt) v d0); [split; reflexivity|]. destruct (deqb (d := Rdt) v d1); split; reflexivity. Qed.
(** addcols m k v: one column of [v]s before column k; a position beyond the end throws. *)
Theorem C67_addcols : forall (m : mat) k (v : R),
  (k <= nc m -> exists r, addcols (D := Rdt) m k v = Ok r /\ nr r = nr m /\ nc r = nc m + 1 /\
    forall i j, i < nr m -> j < nc m + 1 -> at_ r i j = if j <? k then at_ m i j else if j =? k then v else at_ m i (j - 1)) /\
  (nc m < k -> addcols (D := Rdt) m k v = Throw).
Proof.
  intros m k v. unfold addcols, insert_cols. destruct (fill_dims v (nr m) 1) as [E1 E2]. pose proof (fun i => fillv v (nr m) 1 i 0) as F. set (s := if deqb (d := Rdt) v d0 then _ else _) in *. rewrite E1, E2, Nat.eqb_refl, andb_true_r. split.
  - intros Hk. rewrite (proj2 (Nat.leb_le k _)) by assumption. eexists. split; [reflexivity|]. cbn [nr nc mk]. split; [reflexivity|]. split; [reflexivity|]. intros i j Hi Hj. rewrite (at_mk (D := Rdt)) by assumption. beq; try reflexivity.
    replace (j - k) with 0 by lia. apply F; lia.
  - intros Hk. now rewrite (proj2 (Nat.leb_gt k _)).
Qed.
Theorem C67_addrows : forall (m : mat) k (v : R),
  (k <= nr m -> exists r, addrows (D := Rdt) m k v = Ok r /\ nr r = nr m + 1 /\ nc r = nc m /\
    forall i j, i < nr m + 1 -> j < nc m -> at_ r i j = if i <? k then at_ m i j else if i =? k then v else at_ m (i - 1) j) /\
  (nr m < k -> addrows (D := Rdt) m k v = Throw).
Proof.
  intros m k v. unfold addrows, insert_rows. destruct (fill_dims v 1 (nc m)) as [E1 E2]. pose proof (fun j => fillv v 1 (nc m) 0 j) as F. set (s := if deqb (d := Rdt) v d0 then _ else _) in *. rewrite E1, E2, Nat.eqb_refl, andb_true_r. split.
  - intros Hk. rewrite (proj2 (Nat.leb_le k _)) by assumption. eexists. split; [reflexivity|]. cbn [nr nc mk]. split; [reflexivity|]. split; [reflexivity|]. intros i j Hi Hj. rewrite (at_mk (D := Rdt)) by assumption. beq; try reflexivity.
    replace (i - k) with 0 by lia. apply F; lia.
  - intros Hk. now rewrite (proj2 (Nat.leb_gt k _)).
Qed.
(** rowsum: a column with the sum of each row; sumall: the sum of all elements; both include every element exactly once. *)
Theorem C67_sums : forall m : mat, wf m -> (nr (rowsum (D := Rdt) m) = nr m /\ nc (rowsum (D := Rdt) m) = 1 /\ forall i, i < nr m -> at_ (rowsum (D := Rdt) m) i 0 = sumN (nc m) (fun j => at_ m i j)) /\
  sumall (D := Rdt) m = sumN (nr m) (fun i => sumN (nc m) (fun j => at_ m i j)).
Proof.
  intros m W. split; [split; [reflexivity|split; [reflexivity|]]|].
  - intros i Hi. unfold rowsum, sum1. rewrite (at_mk (D := Rdt)) by lia. refine (eq_trans (fold_left_sum (fun k => at_ m i k) (seq 0 (nc m)) 0%R) (Rplus_0_l _)).
  - rewrite <- (mk_at (D := Rdt) m W) at 1. unfold sumall. rewrite accu_mk. apply sumN_swap.
Qed.
(** the element-wise functions *)
Theorem C67_elementwise : forall (m : mat) (f : R -> R) i j, i < nr m -> j < nc m ->
  at_ (funcop (D := Rdt) m f) i j = f (at_ m i j) /\ at_ (exponential (D := Rdt) m) i j = exp (at_ m i j) /\ ((0 < at_ m i j)%R -> at_ (logorithm (D := Rdt) m) i j = ln (at_ m i j)).
Proof. intros m f i j Hi Hj. unfold funcop, exponential, logorithm, mmap. rewrite !(at_mk (D := Rdt)) by assumption. repeat split. Qed.

(** max and min: attained bounds; an exception for a matrix without elements. *)
Lemma fold_max (l : list R) : forall a, let r := fold_left (fun a v => if dltb (d := Rdt) a v then v else a) l a in In r (a :: l) /\ forall v, In v (a :: l) -> (v <= r)%R.
Proof.
  induction l as [|x l IH]; intros a; cbn [fold_left]; [split; [now left|]; intros v [<- | []]; lra|]. cbn [dltb Rdt]. unfold Rltb'. destruct (Rlt_dec a x) as [L|L].
  - pose proof (IH x) as IHx; cbv zeta in IHx; destruct IHx as [I B]. split; [right; exact I|]. intros v [<- | Hv]; [|now apply B]. apply Rle_trans with x; [lra|]. apply B. now left.
  - pose proof (IH a) as IHx; cbv zeta in IHx; destruct IHx as [I B]. split; [destruct I as [E | I]; [left; exact E|right; now right]|]. intros v [<- | [<- | Hv]]; [apply B; now left| |apply B; now right]. apply Rle_trans with a; [lra|]. apply B. now left.
Qed.
Lemma fold_min (l : list R) : forall a, let r := fold_left (fun a v => if dltb (d := Rdt) v a then v else a) l a in In r (a :: l) /\ forall v, In v (a :: l) -> (r <= v)%R.
Proof.
  induction l as [|x l IH]; intros a; cbn [fold_left]; [split; [now left|]; intros v [<- | []]; lra|]. cbn [dltb Rdt]. unfold Rltb'. destruct (Rlt_dec x a) as [L|L].
  - pose proof (IH x) as IHx; cbv zeta in IHx; destruct IHx as [I B]. split; [right; exact I|]. intros v [<- | Hv]; [|now apply B]. apply Rle_trans with x; [|lra]. apply B. now left.
  - pose proof (IH a) as IHx; cbv zeta in IHx; destruct IHx as [I B]. split; [destruct I as [E | I]; [left; exact E|right; now right]|]. intros v [<- | [<- | Hv]]; [apply B; now left| |apply B; now right]. apply Rle_trans with a; [|lra]. apply B. now left.
Qed.
Lemma in_at (m : mat) v : wf m -> In v (el m) -> exists i j, i < nr m /\ j < nc m /\ at_ m i j = v.
Proof.
  intros W Hv. destruct (In_nth _ _ (d0 (d := Rdt)) Hv) as (k & Hk & E). rewrite W in Hk. assert (nr m <> 0) by (intros Z; rewrite Z in Hk; lia).
  exists (k mod nr m), (k / nr m). split; [now apply Nat.mod_upper_bound|]. split; [apply Nat.div_lt_upper_bound; lia|]. unfold at_. rewrite <- E. f_equal. rewrite (Nat.div_mod k (nr m)) at 3 by assumption. lia.
Qed.
Lemma at_in (m : mat) i j : wf m -> i < nr m -> j < nc m -> In (at_ m i j) (el m).
Proof. intros W Hi Hj. apply nth_In. rewrite W. nia. Qed.
Theorem C67_extrema : forall m : mat, wf m ->
  (1 <= nr m -> 1 <= nc m -> exists lo hi, mmin (D := Rdt) m = Ok lo /\ mmax (D := Rdt) m = Ok hi /\
     (forall i j, i < nr m -> j < nc m -> (lo <= at_ m i j <= hi)%R) /\ (exists i j, i < nr m /\ j < nc m /\ at_ m i j = lo) /\ (exists i j, i < nr m /\ j < nc m /\ at_ m i j = hi)) /\
  (nr m = 0 \/ nc m = 0 -> mmin (D := Rdt) m = Throw /\ mmax (D := Rdt) m = Throw).
Proof.
  intros m W. unfold mmin, mmax. split.
  - intros Hr Hc. pose proof (in_at m) as I. pose proof (fun i j => at_in m i j W) as J. assert (W' := W). unfold wf in W'. destruct (el m) as [|x l] eqn:E; [cbn in W'; nia|].
    pose proof (fold_min l x) as [A1 A2]. pose proof (fold_max l x) as [B1 B2]. do 2 eexists. split; [reflexivity|]. split; [reflexivity|]. split; [|split; apply I; auto].
    intros i j Hi Hj. split; [apply A2|apply B2]; apply J; assumption.
  - intros H. unfold wf in W. destruct (el m) as [|x l]; [auto|]. exfalso. cbn in W. destruct H as [H | H]; rewrite H in W; lia.
Qed.
End Reals.
Example C67_example : addcols (D := Zdt) (Mat (D := Zdt) 2 2 [1; 2; 3; 4]%Z) 1 7%Z = Ok (Mat (D := Zdt) 2 3 [1; 2; 7; 7; 3; 4]%Z) /\ addcols (D := Zdt) (Mat (D := Zdt) 2 2 [1; 2; 3; 4]%Z) 3 7%Z = Throw /\
  addrows (D := Zdt) (Mat (D := Zdt) 2 2 [1; 2; 3; 4]%Z) 2 1%Z = Ok (Mat (D := Zdt) 3 2 [1; 2; 1; 3; 4; 1]%Z) /\ rowsum (D := Zdt) (Mat (D := Zdt) 2 2 [1; 2; 3; 4]%Z) = Mat (D := Zdt) 2 1 [4; 6]%Z.
Proof. repeat split; match goal with |- _ = ?r => vm_cast_no_check (eq_refl r) end. Qed.

(** Out-of-range accesses of a 2 x 3 matrix, its flips and its extrema. *)
Example C67_example_access : let m := Mat (D := Zdt) 2 3 [1; 2; 3; 4; 5; 6]%Z in
  mget m 1 2 = Ok 6%Z /\ mget m 2 0 = Throw /\ mget m (-1) 0 = Throw /\ mrows m 1 2 = Throw /\ mcols m 1 2 = Ok (Mat (D := Zdt) 2 2 [3; 4; 5; 6]%Z) /\ submat m 0 1 0 2 = Ok (Mat (D := Zdt) 1 2 [3; 5]%Z) /\
  shed_col m 1 = Ok (Mat (D := Zdt) 2 2 [1; 2; 5; 6]%Z) /\ flipud m = Mat (D := Zdt) 2 3 [2; 1; 4; 3; 6; 5]%Z /\ fliplr m = Mat (D := Zdt) 2 3 [5; 6; 3; 4; 1; 2]%Z /\ mmax m = Ok 6%Z /\ mmin m = Ok 1%Z.
Proof. repeat split; match goal with |- _ = ?r => vm_cast_no_check (eq_refl r) end. Qed.

(** Mat.v - the part of arma::mat that /repo uses (type.h:8-11), and /repo/src/matop.cpp.

    A matrix is Armadillo's: a row count, a column count and a column-major array of elements.  Armadillo's
    size and bounds checks are on (nothing defines ARMA_NO_DEBUG): a failing check is [Throw].
    Simplifications, used everywhere below:
    - a matrix product, arma::sum and arma::accu add up in index order starting from 0 (BLAS may associate
      differently; in exact arithmetic there is no difference);
    - dimensions are natural numbers (Armadillo's 64-bit uword), memory is never exhausted. *)
From Verif Require Import Base.
From Coq Require Import Arith.
Local Open Scope nat_scope.

Section Mat.
Context {D : dtype}.

Record mat := Mat { nr : nat; nc : nat; el : list D }.

(** A representation invariant of arma::mat. *)
Definition wf (m : mat) : Prop := length (el m) = nr m * nc m.

(** Element at row i, column j, unchecked (column-major). *)
Definition at_ (m : mat) (i j : nat) : D := nth (j * nr m + i) (el m) d0.

(** The r x c matrix with entries f i j. *)
Definition mk (r c : nat) (f : nat -> nat -> D) : mat :=
  Mat r c (flat_map (fun j => map (fun i => f i j) (seq 0 r)) (seq 0 c)).

(** [mat()] *)
Definition mempty : mat := Mat 0 0 [].
(** [mat(r, c, fill::zeros)], [m.zeros()] *)
Definition zeros (r c : nat) : mat := mk r c (fun _ _ => d0).
Definition ones (r c : nat) : mat := mk r c (fun _ _ => d1).

(** [m(i, j)], bounds-checked; indices of type int or unsigned *)
Definition inb (m : mat) (i j : Z) : bool :=
  (0 <=? i)%Z && (i <? Z.of_nat (nr m))%Z && (0 <=? j)%Z && (j <? Z.of_nat (nc m))%Z.
Definition mget (m : mat) (i j : Z) : res D :=
  if inb m i j then Ok (at_ m (Z.to_nat i) (Z.to_nat j)) else Throw.
(** [m(i, j) = v] *)
Definition mset (m : mat) (i j : Z) (v : D) : res mat :=
  if inb m i j
  then Ok (mk (nr m) (nc m) (fun i' j' => if (i' =? Z.to_nat i) && (j' =? Z.to_nat j) then v else at_ m i' j'))
  else Throw.

(** [m.transform(f)] and the element-wise unary functions (arma::exp, arma::log, scalar * m, m / scalar). *)
Definition mmap (f : D -> D) (m : mat) : mat := mk (nr m) (nc m) (fun i j => f (at_ m i j)).
(** element-wise binary [a + b], [a - b], [a % b], [a / b] *)
Definition mzip (f : D -> D -> D) (a b : mat) : res mat :=
  if (nr a =? nr b) && (nc a =? nc b) then Ok (mk (nr a) (nc a) (fun i j => f (at_ a i j) (at_ b i j))) else Throw.
(** [a * b] *)
Definition mdot (a b : mat) (i j : nat) : D :=
  fold_left (fun acc k => dadd acc (dmul (at_ a i k) (at_ b k j))) (seq 0 (nc a)) d0.
Definition mmul (a b : mat) : res mat :=
  if nc a =? nr b then Ok (mk (nr a) (nc b) (mdot a b)) else Throw.
(** [m.t()] *)
Definition mt (m : mat) : mat := mk (nc m) (nr m) (fun i j => at_ m j i).

(** Bounds check of [submat(r1, c1, r2, c2)]; the arguments are converted to uword, so a negative one is huge. *)
Definition sub_ok (m : mat) (r1 c1 r2 c2 : Z) : bool :=
  ((0 <=? r1) && (r1 <=? r2) && (r2 <? Z.of_nat (nr m)) &&
   (0 <=? c1) && (c1 <=? c2) && (c2 <? Z.of_nat (nc m)))%Z.
Definition submat (m : mat) (r1 c1 r2 c2 : Z) : res mat :=
  if sub_ok m r1 c1 r2 c2
  then Ok (mk (Z.to_nat (r2 - r1 + 1)) (Z.to_nat (c2 - c1 + 1)) (fun i j => at_ m (Z.to_nat r1 + i) (Z.to_nat c1 + j)))
  else Throw.
(** [m.submat(r1, c1, r2, c2) op= s] *)
Definition set_submat (f : D -> D -> D) (m : mat) (r1 c1 r2 c2 : Z) (s : mat) : res mat :=
  if sub_ok m r1 c1 r2 c2 && (Z.to_nat (r2 - r1 + 1) =? nr s) && (Z.to_nat (c2 - c1 + 1) =? nc s)
  then Ok (mk (nr m) (nc m) (fun i j =>
         if (Z.to_nat r1 <=? i) && (i <=? Z.to_nat r2) && (Z.to_nat c1 <=? j) && (j <=? Z.to_nat c2)
         then f (at_ m i j) (at_ s (i - Z.to_nat r1) (j - Z.to_nat c1)) else at_ m i j))
  else Throw.
Definition put (_ v : D) : D := v.

(** [m.row(i)], [m.rows(a, b)], [m.cols(a, b)] *)
Definition mrow (m : mat) (i : nat) : res mat :=
  if i <? nr m then Ok (mk 1 (nc m) (fun _ j => at_ m i j)) else Throw.
Definition mrows (m : mat) (a b : Z) : res mat :=
  if ((0 <=? a) && (a <=? b) && (b <? Z.of_nat (nr m)))%Z
  then Ok (mk (Z.to_nat (b - a + 1)) (nc m) (fun i j => at_ m (Z.to_nat a + i) j)) else Throw.
Definition mcols (m : mat) (a b : Z) : res mat :=
  if ((0 <=? a) && (a <=? b) && (b <? Z.of_nat (nc m)))%Z
  then Ok (mk (nr m) (Z.to_nat (b - a + 1)) (fun i j => at_ m i (Z.to_nat a + j))) else Throw.
(** [m.insert_rows(k, s)], [m.insert_cols(k, s)] (Armadillo also accepts some empty operands; not modelled) *)
Definition insert_rows (m : mat) (k : nat) (s : mat) : res mat :=
  if (k <=? nr m) && (nc s =? nc m)
  then Ok (mk (nr m + nr s) (nc m) (fun i j =>
         if i <? k then at_ m i j else if i <? k + nr s then at_ s (i - k) j else at_ m (i - nr s) j))
  else Throw.
Definition insert_cols (m : mat) (k : nat) (s : mat) : res mat :=
  if (k <=? nc m) && (nr s =? nr m)
  then Ok (mk (nr m) (nc m + nc s) (fun i j =>
         if j <? k then at_ m i j else if j <? k + nc s then at_ s i (j - k) else at_ m i (j - nc s)))
  else Throw.
(** [m.shed_col(k)] *)
Definition shed_col (m : mat) (k : nat) : res mat :=
  if k <? nc m then Ok (mk (nr m) (nc m - 1) (fun i j => at_ m i (if j <? k then j else S j))) else Throw.
(** [m.reshape(r, c)]: the same elements in column-major order, cut or padded with zeros *)
Definition reshape (m : mat) (r c : nat) : mat := mk r c (fun i j => nth (j * r + i) (el m) d0).
(** [arma::accu] *)
Definition accu (m : mat) : D := fold_left dadd (el m) d0.
(** [arma::sum(m, 1)] *)
Definition sum1 (m : mat) : mat := mk (nr m) 1 (fun i _ => fold_left (fun acc k => dadd acc (at_ m i k)) (seq 0 (nc m)) d0).
(** [arma::repmat(m, r, c)] *)
Definition repmat (m : mat) (r c : nat) : mat :=
  mk (nr m * r) (nc m * c) (fun i j => at_ m (i mod nr m) (j mod nc m)).
(** [arma::flipud], [arma::fliplr] *)
Definition flipud (m : mat) : mat := mk (nr m) (nc m) (fun i j => at_ m (nr m - 1 - i) j).
Definition fliplr (m : mat) : mat := mk (nr m) (nc m) (fun i j => at_ m i (nc m - 1 - j)).
(** [m.max()], [m.min()]; empty: Armadillo throws *)
Definition mmax (m : mat) : res D :=
  match el m with [] => Throw | x :: l => Ok (fold_left (fun a v => if dltb a v then v else a) l x) end.
Definition mmin (m : mat) : res D :=
  match el m with [] => Throw | x :: l => Ok (fold_left (fun a v => if dltb v a then v else a) l x) end.

Definition madd := mzip dadd.
Definition msub := mzip dsub.
Definition mschur := mzip dmul.
Definition mdiv := mzip ddiv.
Definition mscal (c : D) := mmap (dmul c).

(** ** matop.cpp *)

(** matop.cpp:5-9 *)
Definition funcop (m : mat) (f : D -> D) : mat := mmap f m.

(** matop.cpp:11-15 *)
Definition addcol (m : mat) : res mat :=
  let newmat := ones (nr m) (nc m + 1) in
  set_submat put newmat 0 1 (Z.of_nat (nr newmat) - 1) (Z.of_nat (nc newmat) - 1) m.

(** matop.cpp:17-33; the three branches build the same column of [value]s *)
Definition addcols (m : mat) (index : nat) (value : D) : res mat :=
  insert_cols m index
    (if deqb value d0 then zeros (nr m) 1 else if deqb value d1 then ones (nr m) 1
     else mmap (fun x => dmul x value) (ones (nr m) 1)).

(** matop.cpp:35-40 *)
Definition addrow (m : mat) : res mat := insert_rows m 0 (ones 1 (nc m)).

(** matop.cpp:42-58 *)
Definition addrows (m : mat) (index : nat) (value : D) : res mat :=
  insert_rows m index
    (if deqb value d0 then zeros 1 (nc m) else if deqb value d1 then ones 1 (nc m)
     else mmap (fun x => dmul x value) (ones 1 (nc m))).

(** matop.cpp:60-63 *)
Definition sumall (m : mat) : D := accu m.
(** matop.cpp:65-67 *)
Definition rowsum (m : mat) : mat := sum1 m.
(** matop.cpp:69-71 *)
Definition exponential (m : mat) : mat := mmap dexp m.
(** matop.cpp:73-75 *)
Definition repeatm (m : mat) (row col : nat) : mat := repmat m row col.
(** matop.cpp:77-79 *)
Definition logorithm (m : mat) : mat := mmap dlog m.

(** ** Lemmas *)

Lemma fm_length {A} (g : nat -> list A) r l : (forall j, length (g j) = r) -> length (flat_map g l) = r * length l.
Proof. intros H. induction l as [|x l IH]; simpl; [lia|]. rewrite app_length, H, IH. lia. Qed.
Lemma fm_nth {A} (g : nat -> list A) r c d j i : (forall j, length (g j) = r) -> i < r -> j < c ->
  nth (j * r + i) (flat_map g (seq 0 c)) d = nth i (g j) d.
Proof.
  intros H Hi. enough (G : forall k, j < c -> nth (j * r + i) (flat_map g (seq k c)) d = nth i (g (k + j)) d) by (intros; rewrite G; auto).
  revert j. induction c as [|c IH]; intros j k Hj; [lia|]. cbn [seq flat_map]. destruct j as [|j].
  - rewrite app_nth1 by (rewrite H; lia). rewrite Nat.add_0_r. reflexivity.
  - rewrite app_nth2 by (rewrite H; lia). rewrite H. replace (S j * r + i - r) with (j * r + i) by lia.
    rewrite IH by lia. f_equal. f_equal. lia.
Qed.
Lemma nth_map_seq {A} (f : nat -> A) n i d : i < n -> nth i (map f (seq 0 n)) d = f i.
Proof. intros H. rewrite nth_indep with (d' := f 0) by (rewrite map_length, seq_length; lia). rewrite map_nth, seq_nth by lia. reflexivity. Qed.

Lemma wf_mk r c f : wf (mk r c f).
Proof. unfold wf, mk. simpl. rewrite fm_length with (r := r); [rewrite seq_length; lia|]. intros j. now rewrite map_length, seq_length. Qed.
Lemma at_mk r c f i j : i < r -> j < c -> at_ (mk r c f) i j = f i j.
Proof.
  intros Hi Hj. unfold at_, mk. simpl. rewrite fm_nth; [|intros; now rewrite map_length, seq_length|assumption|assumption].
  now rewrite nth_map_seq.
Qed.
Lemma mk_ext r c f g : (forall i j, i < r -> j < c -> f i j = g i j) -> mk r c f = mk r c g.
Proof.
  intros H. unfold mk. f_equal. rewrite !flat_map_concat_map. f_equal. apply map_ext_in. intros j Hj%in_seq.
  apply map_ext_in. intros i Hi%in_seq. apply H; lia.
Qed.
Lemma list_eq_nth {A} (d : A) l1 l2 : length l1 = length l2 -> (forall k, k < length l1 -> nth k l1 d = nth k l2 d) -> l1 = l2.
Proof. intros. eapply nth_ext; eauto. Qed.
Lemma mat_ext a b : wf a -> wf b -> nr a = nr b -> nc a = nc b ->
  (forall i j, i < nr a -> j < nc a -> at_ a i j = at_ b i j) -> a = b.
Proof.
  destruct a as [r c l], b as [r' c' l']. unfold wf. simpl. intros Wa Wb <- <- H. f_equal. apply (list_eq_nth d0); [congruence|].
  intros k Hk. rewrite Wa in Hk. assert (r <> 0) by (intros ->; simpl in Hk; lia). specialize (H (k mod r) (k / r)). unfold at_ in H. simpl in H.
  assert (E : k = k / r * r + k mod r) by (rewrite Nat.mul_comm; apply Nat.div_mod; assumption). rewrite <- E in H. apply H.
  - now apply Nat.mod_upper_bound.
  - apply Nat.div_lt_upper_bound; assumption.
Qed.
Lemma mk_at m : wf m -> mk (nr m) (nc m) (at_ m) = m.
Proof.
  intros W. apply mat_ext; simpl; [apply wf_mk|assumption|reflexivity|reflexivity|]. intros i j Hi Hj. now apply at_mk.
Qed.
Lemma nr_mk r c f : nr (mk r c f) = r. Proof. reflexivity. Qed.
Lemma nc_mk r c f : nc (mk r c f) = c. Proof. reflexivity. Qed.

Lemma at_mmap f m i j : i < nr m -> j < nc m -> at_ (mmap f m) i j = f (at_ m i j).
Proof. apply at_mk. Qed.
Lemma mzip_ok f a b : nr a = nr b -> nc a = nc b -> mzip f a b = Ok (mk (nr a) (nc a) (fun i j => f (at_ a i j) (at_ b i j))).
Proof. intros E1 E2. unfold mzip. rewrite E1, E2, !Nat.eqb_refl. reflexivity. Qed.
Lemma mzip_throw f a b : ~ (nr a = nr b /\ nc a = nc b) -> mzip f a b = Throw.
Proof. intros H. unfold mzip. destruct (Nat.eqb_spec (nr a) (nr b)), (Nat.eqb_spec (nc a) (nc b)); simpl; try reflexivity. exfalso. auto. Qed.
Lemma mzip_dims f a b m : mzip f a b = Ok m -> nr a = nr b /\ nc a = nc b /\ nr m = nr a /\ nc m = nc a /\ wf m.
Proof.
  unfold mzip. destruct (Nat.eqb_spec (nr a) (nr b)); [|discriminate]. destruct (Nat.eqb_spec (nc a) (nc b)); [|discriminate].
  simpl. intros H. injection H as <-. repeat split; auto. apply wf_mk.
Qed.
Lemma mzip_cases f a b : (exists m, mzip f a b = Ok m /\ nr m = nr a /\ nc m = nc a /\ wf m /\ nr a = nr b /\ nc a = nc b) \/ mzip f a b = Throw.
Proof.
  unfold mzip. destruct (Nat.eqb_spec (nr a) (nr b)), (Nat.eqb_spec (nc a) (nc b)); simpl; auto.
  left. eexists. split; [reflexivity|]. repeat split; auto. apply wf_mk.
Qed.
Lemma mmul_ok a b : nc a = nr b -> mmul a b = Ok (mk (nr a) (nc b) (mdot a b)).
Proof. intros E. unfold mmul. rewrite E, Nat.eqb_refl. reflexivity. Qed.
Lemma mmul_throw a b : nc a <> nr b -> mmul a b = Throw.
Proof. intros E. unfold mmul. destruct (Nat.eqb_spec (nc a) (nr b)); [contradiction|reflexivity]. Qed.
Lemma mmul_inv a b m : mmul a b = Ok m -> nc a = nr b /\ m = mk (nr a) (nc b) (mdot a b).
Proof. unfold mmul. destruct (Nat.eqb_spec (nc a) (nr b)); [|discriminate]. intros H. injection H as <-. auto. Qed.

(** addcol puts a column of ones in front; it throws on a matrix without rows or without columns. *)
Definition with_bias (m : mat) : nat -> nat -> D := fun i j => match j with O => d1 | S j' => at_ m i j' end.
Lemma addcol_ok m : 1 <= nr m -> 1 <= nc m -> addcol m = Ok (mk (nr m) (nc m + 1) (with_bias m)).
Proof.
  intros Hr Hc. unfold addcol, set_submat, sub_ok. cbn [nr nc ones mk].
  replace ((0 <=? 0)%Z) with true by reflexivity.
  rewrite (proj2 (Z.leb_le 0 (Z.of_nat (nr m) - 1))) by lia. rewrite (proj2 (Z.ltb_lt (Z.of_nat (nr m) - 1) (Z.of_nat (nr m)))) by lia.
  rewrite (proj2 (Z.leb_le 1 (Z.of_nat (nc m + 1) - 1))) by lia. rewrite (proj2 (Z.ltb_lt (Z.of_nat (nc m + 1) - 1) (Z.of_nat (nc m + 1)))) by lia.
  replace ((0 <=? 1)%Z) with true by reflexivity. cbn [andb].
  rewrite (proj2 (Nat.eqb_eq (Z.to_nat (Z.of_nat (nr m) - 1 - 0 + 1)) (nr m))) by lia.
  rewrite (proj2 (Nat.eqb_eq (Z.to_nat (Z.of_nat (nc m + 1) - 1 - 1 + 1)) (nc m))) by lia. cbn [andb]. f_equal. apply mk_ext.
  intros i j Hi Hj. change (Z.to_nat 0) with 0. change (Z.to_nat 1) with 1. unfold ones. rewrite at_mk by lia. unfold with_bias, put.
  destruct j as [|j]; [rewrite andb_false_r; reflexivity|].
  rewrite (proj2 (Nat.leb_le i _)) by lia. rewrite (proj2 (Nat.leb_le (S j) (Z.to_nat (Z.of_nat (nc m + 1) - 1)))) by lia. simpl. now rewrite !Nat.sub_0_r.
Qed.
Lemma addcol_throw m : nr m = 0 \/ nc m = 0 -> addcol m = Throw.
Proof.
  intros H. unfold addcol, set_submat, sub_ok. cbn [nr nc ones mk]. destruct H as [-> | ->]; simpl.
  - reflexivity.
  - rewrite !andb_false_r. reflexivity.
Qed.
Lemma addcol_cases m : (1 <= nr m /\ 1 <= nc m /\ addcol m = Ok (mk (nr m) (nc m + 1) (with_bias m))) \/ ((nr m = 0 \/ nc m = 0) /\ addcol m = Throw).
Proof.
  destruct (Nat.eq_dec (nr m) 0); [right; split; [auto|apply addcol_throw; auto]|].
  destruct (Nat.eq_dec (nc m) 0); [right; split; [auto|apply addcol_throw; auto]|].
  left. split; [lia|]. split; [lia|]. apply addcol_ok; lia.
Qed.

End Mat.
Arguments mat : clear implicits.

(** ConvP.v - lemmas about the convolution and pooling layers: images, padding, windows, the forward loops. *)
From Verif Require Import Base Mat Act Layer Conv.
From Coq Require Import Arith.
Local Open Scope nat_scope.

Lemma foldM_inv {A S} (g : nat -> A) (P : nat -> S -> Prop) (f : S -> A -> res S) n s0 : P 0 s0 ->
  (forall k s, k < n -> P k s -> exists s', f s (g k) = Ok s' /\ P (Datatypes.S k) s') -> exists s', foldM f (map g (seq 0 n)) s0 = Ok s' /\ P n s'.
Proof.
  intros H0 Hs. enough (G : forall m a s, a + m = n -> P a s -> exists s', foldM f (map g (seq a m)) s = Ok s' /\ P n s') by (apply (G n 0); auto).
  induction m as [|m IH]; intros a s E Pa; cbn [seq map foldM].
  - exists s. split; [reflexivity|]. replace n with a by lia. assumption.
  - destruct (Hs a s) as (s1 & -> & P1); [lia|assumption|]. cbn [bind]. apply IH; [lia|assumption].
Qed.
Lemma foldM_zrange {S} (P : nat -> S -> Prop) (f : S -> Z -> res S) n s0 : P 0 s0 ->
  (forall k s, k < n -> P k s -> exists s', f s (Z.of_nat k) = Ok s' /\ P (Datatypes.S k) s') -> exists s', foldM f (zrange (Z.of_nat n)) s0 = Ok s' /\ P n s'.
Proof. intros. unfold zrange. rewrite Nat2Z.id. now apply foldM_inv. Qed.
Lemma foldM_seq {S} (P : nat -> S -> Prop) (f : S -> nat -> res S) n s0 : P 0 s0 ->
  (forall k s, k < n -> P k s -> exists s', f s k = Ok s' /\ P (Datatypes.S k) s') -> exists s', foldM f (seq 0 n) s0 = Ok s' /\ P n s'.
Proof. intros. rewrite <- (map_id (seq 0 n)). now apply foldM_inv. Qed.

Section ConvP.
Context {D : dtype}.
Notation mat := (mat D).
Context (draw : D -> nat -> D) (junk : nat -> D).

(** ** Matrices *)
Lemma mcols_mk (m : mat) a n : 1 <= n -> a + n <= nc m ->
  mcols m (Z.of_nat a) (Z.of_nat (a + n) - 1) = Ok (mk (nr m) n (fun i j => at_ m i (a + j))).
Proof.
  intros H1 H2. unfold mcols. rewrite (proj2 (Z.leb_le 0 (Z.of_nat a))), (proj2 (Z.leb_le (Z.of_nat a) _)), (proj2 (Z.ltb_lt _ _)) by lia. cbn [andb].
  replace (Z.to_nat (Z.of_nat (a + n) - 1 - Z.of_nat a + 1)) with n by lia. rewrite Nat2Z.id. reflexivity.
Qed.
Lemma sub_ok_nat (m : mat) a b p q : 1 <= p -> 1 <= q -> a + p <= nr m -> b + q <= nc m ->
  sub_ok m (Z.of_nat a) (Z.of_nat b) (Z.of_nat (a + p) - 1) (Z.of_nat (b + q) - 1) = true.
Proof. intros. unfold sub_ok. rewrite !andb_true_iff, !Z.leb_le, !Z.ltb_lt. lia. Qed.
Lemma submat_mk (m : mat) a b p q : 1 <= p -> 1 <= q -> a + p <= nr m -> b + q <= nc m ->
  submat m (Z.of_nat a) (Z.of_nat b) (Z.of_nat (a + p) - 1) (Z.of_nat (b + q) - 1) = Ok (mk p q (fun i j => at_ m (a + i) (b + j))).
Proof.
  intros. unfold submat. rewrite sub_ok_nat by assumption.
  replace (Z.to_nat (Z.of_nat (a + p) - 1 - Z.of_nat a + 1)) with p by lia. replace (Z.to_nat (Z.of_nat (b + q) - 1 - Z.of_nat b + 1)) with q by lia.
  rewrite !Nat2Z.id. reflexivity.
Qed.
(** m.submat(row i, columns b .. b+q-1) op= s *)
Lemma set_row_mk f (m s : mat) i b q : 1 <= q -> i < nr m -> b + q <= nc m -> nr s = 1 -> nc s = q ->
  set_submat f m (Z.of_nat i) (Z.of_nat b) (Z.of_nat i) (Z.of_nat (b + q) - 1) s =
  Ok (mk (nr m) (nc m) (fun i' j => if (i' =? i) && (b <=? j) && (j <? b + q) then f (at_ m i' j) (at_ s 0 (j - b)) else at_ m i' j)).
Proof.
  intros Hq Hi Hb E1 E2. unfold set_submat. replace (Z.of_nat i) with (Z.of_nat (i + 1) - 1)%Z at 2 by lia. rewrite sub_ok_nat by lia.
  rewrite (proj2 (Nat.eqb_eq _ (nr s))) by lia. rewrite (proj2 (Nat.eqb_eq _ (nc s))) by lia. cbn [andb]. f_equal. apply mk_ext. intros i' j Hi' Hj. rewrite !Nat2Z.id.
  destruct (Nat.eqb_spec i' i) as [->|Ne].
  - rewrite Nat.leb_refl. cbn [andb]. rewrite Nat.sub_diag. replace (j <=? Z.to_nat (Z.of_nat (b + q) - 1)) with (j <? b + q); [reflexivity|].
    destruct (Nat.ltb_spec j (b + q)), (Nat.leb_spec j (Z.to_nat (Z.of_nat (b + q) - 1))); lia || reflexivity.
  - cbn [andb]. destruct (Nat.leb_spec i i'), (Nat.leb_spec i' i); try reflexivity. lia.
Qed.
Lemma mset_row (m : mat) p v : nr m = 1 -> p < nc m ->
  mset m 0 (Z.of_nat p) v = Ok (mk 1 (nc m) (fun _ j => if j =? p then v else at_ m 0 j)).
Proof.
  intros E Hp. unfold mset, inb. rewrite E. rewrite (proj2 (Z.leb_le 0 (Z.of_nat p))), (proj2 (Z.ltb_lt (Z.of_nat p) _)) by lia. cbn [andb Z.leb Z.ltb Z.compare Z.of_nat Pos.of_succ_nat].
  f_equal. apply mk_ext. intros i j Hi Hj. replace i with 0 by lia. rewrite Nat2Z.id. reflexivity.
Qed.
Lemma el_mk r c (f : nat -> nat -> D) p : p < r * c -> nth p (el (mk r c f)) d0 = f (p mod r) (p / r).
Proof.
  intros Hp. assert (r <> 0) by lia. assert (E : p = p / r * r + p mod r) by (rewrite Nat.mul_comm; now apply Nat.div_mod). rewrite E at 1.
  assert (p mod r < r) by now apply Nat.mod_upper_bound. assert (p / r < c) by (apply Nat.div_lt_upper_bound; lia).
  exact (at_mk r c f (p mod r) (p / r) ltac:(assumption) ltac:(assumption)).
Qed.

(** ** Images and padding *)

(** Pixel (u, v) (row, column) of channel [j]: the channel's w*h columns of ALL rows of [pa], strung together
    column by column.  With a single row it is element v*h+u of the channel. *)
Definition pixel (pa : mat) (w h j u v : nat) : D := at_ pa ((v * h + u) mod nr pa) (j * (w * h) + (v * h + u) / nr pa).
Lemma pixel_single (pa : mat) w h j u v : nr pa = 1 -> pixel pa w h j u v = at_ pa 0 (j * (w * h) + (v * h + u)).
Proof. intros E. unfold pixel. rewrite E, Nat.mod_1_r, Nat.div_1_r. reflexivity. Qed.
Lemma toimage_mk (pa : mat) w h j : 1 <= w -> 1 <= h -> 1 <= nr pa -> (j + 1) * (w * h) <= nc pa ->
  toimage pa (Z.of_nat j) (Z.of_nat w) (Z.of_nat h) = Ok (mk h w (pixel pa w h j)).
Proof.
  intros Hw Hh HR HC. unfold toimage. replace (Z.of_nat j * (Z.of_nat w * Z.of_nat h))%Z with (Z.of_nat (j * (w * h))) by lia.
  replace ((Z.of_nat j + 1) * (Z.of_nat w * Z.of_nat h) - 1)%Z with (Z.of_nat (j * (w * h) + w * h) - 1)%Z by lia. rewrite mcols_mk by nia. cbn [bind]. f_equal.
  unfold reshape. rewrite !Nat2Z.id. apply mk_ext. intros u v Hu Hv. rewrite el_mk; [reflexivity|]. nia.
Qed.

Definition padded (pad r c : nat) (f : nat -> nat -> D) (u v : nat) : D :=
  if (pad <=? u) && (u <? pad + r) && (pad <=? v) && (v <? pad + c) then f (u - pad) (v - pad) else d0.
Hypothesis d0_eq : deqb (d := D) d0 d0 = true.
Ltac btrue := rewrite ?andb_true_iff, ?Nat.leb_le, ?Nat.ltb_lt; lia.
Ltac beq := repeat match goal with
  | |- context [?a <=? ?b] => destruct (Nat.leb_spec a b); try lia
  | |- context [?a <? ?b] => destruct (Nat.ltb_spec a b); try lia
  | |- context [?a =? ?b] => destruct (Nat.eqb_spec a b); try lia end.
Lemma addrows0 r c (f : nat -> nat -> D) k : k <= r -> addrows (mk r c f) k d0 = Ok (mk (r + 1) c (fun u v => if u <? k then f u v else if u =? k then d0 else f (u - 1) v)).
Proof.
  intros Hk. unfold addrows. rewrite d0_eq. unfold insert_rows. cbn [nr nc zeros mk]. rewrite (proj2 (Nat.leb_le k r)), Nat.eqb_refl by assumption. cbn [andb]. f_equal. apply mk_ext.
  intros u v Hu Hv. unfold zeros. beq; try (rewrite at_mk by lia; reflexivity).
Qed.
Lemma addcols0 r c (f : nat -> nat -> D) k : k <= c -> addcols (mk r c f) k d0 = Ok (mk r (c + 1) (fun u v => if v <? k then f u v else if v =? k then d0 else f u (v - 1))).
Proof.
  intros Hk. unfold addcols. rewrite d0_eq. unfold insert_cols. cbn [nr nc zeros mk]. rewrite (proj2 (Nat.leb_le k c)), Nat.eqb_refl by assumption. cbn [andb]. f_equal. apply mk_ext.
  intros u v Hu Hv. unfold zeros. beq; try (rewrite at_mk by lia; reflexivity).
Qed.
Lemma padding_mk pad r c (f : nat -> nat -> D) : addzeropadding (Z.of_nat pad) (mk r c f) = Ok (mk (r + 2 * pad) (c + 2 * pad) (padded pad r c f)).
Proof.
  unfold addzeropadding.
  destruct (foldM_zrange (fun k m => m = mk (r + 2 * k) c (fun u v => if (k <=? u) && (u <? k + r) then f (u - k) v else d0))
    (fun m _ => m1 <- addrows m 0 d0 ;; addrows m1 (nr m1) d0) pad (mk r c f)) as (m1 & -> & ->).
  - replace (r + 2 * 0) with r by lia. apply mk_ext. intros u v Hu Hv. beq. cbn [andb]. now rewrite Nat.sub_0_r.
  - intros k m Hk ->. rewrite addrows0 by lia. cbn [bind nr mk]. rewrite addrows0 by lia. eexists. split; [reflexivity|].
    replace (r + 2 * k + 1 + 1) with (r + 2 * S k) by lia. apply mk_ext. intros u v Hu Hv. beq; cbn [andb]; try reflexivity. all: beq; cbn [andb]; try reflexivity. all: f_equal; lia.
  - cbn [bind].
    destruct (foldM_zrange (fun k m => m = mk (r + 2 * pad) (c + 2 * k) (fun u v => if (k <=? v) && (v <? k + c) then (if (pad <=? u) && (u <? pad + r) then f (u - pad) (v - k) else d0) else d0))
      (fun m _ => m1 <- addcols m 0 d0 ;; addcols m1 (nc m1) d0) pad (mk (r + 2 * pad) c (fun u v => if (pad <=? u) && (u <? pad + r) then f (u - pad) v else d0))) as (m1 & -> & ->).
    + replace (c + 2 * 0) with c by lia. apply mk_ext. intros u v Hu Hv. rewrite Nat.sub_0_r. beq; reflexivity.
    + intros k m Hk ->. rewrite addcols0 by lia. cbn [bind nc mk]. rewrite addcols0 by lia. eexists. split; [reflexivity|].
      replace (c + 2 * k + 1 + 1) with (c + 2 * S k) by lia. apply mk_ext. intros u v Hu Hv. beq; cbn [andb]; try reflexivity. all: beq; cbn [andb]; try reflexivity. all: f_equal; lia.
    + f_equal. apply mk_ext. intros u v Hu Hv. unfold padded. beq; reflexivity.
Qed.

(** ** Output sizes *)
Lemma out_dim_ok xn yn st : 1 <= st -> yn <= xn -> (Z.of_nat xn < 2147483647)%Z -> (Z.of_nat st <= 2147483647)%Z ->
  out_dim xn yn (Z.of_nat st) = Ok (Z.of_nat ((xn - yn) / st + 1)).
Proof.
  intros Hs Hy Hx Ht. unfold out_dim. rewrite (proj2 (Z.eqb_neq (Z.of_nat st) 0)) by lia. f_equal.
  rewrite (Z.mod_small (Z.of_nat xn - Z.of_nat yn)) by lia. rewrite (Z.mod_small (Z.of_nat st)) by lia.
  replace (Z.of_nat xn - Z.of_nat yn)%Z with (Z.of_nat (xn - yn)) by lia. rewrite <- Nat2Z.inj_div.
  assert ((xn - yn) / st <= xn - yn) by (apply Nat.div_le_upper_bound; nia). unfold to_int. rewrite Z.mod_small by lia. lia.
Qed.

(** ** Windows: one value per position *)

(** the positions p = i*ow+j visited by the loops *)
Lemma rows_loop (xs ys : list nat) ow oh (F : nat -> nat -> D) (step : mat -> Z -> Z -> res mat) f0 :
  1 <= ow -> (forall i, In i xs -> i < oh) -> (forall j, In j ys -> j < ow) ->
  (forall m i j, i < oh -> j < ow -> nr m = 1 -> nc m = ow * oh -> step m (Z.of_nat i) (Z.of_nat j) = mset m 0 (Z.of_nat i * Z.of_nat ow + Z.of_nat j) (F i j)) ->
  foldM (fun m i => foldM (fun m j => step m i j) (map Z.of_nat ys) m) (map Z.of_nat xs) (mk 1 (ow * oh) f0) =
  Ok (mk 1 (ow * oh) (fun _ p => if existsb (Nat.eqb (p / ow)) xs && existsb (Nat.eqb (p mod ow)) ys then F (p / ow) (p mod ow) else f0 0 p)).
Proof.
  intros Hw Hx Hy Hst.
  assert (Inner : forall i f, i < oh -> (forall j, In j ys -> j < ow) ->
    foldM (fun m j => step m (Z.of_nat i) j) (map Z.of_nat ys) (mk 1 (ow * oh) f) =
    Ok (mk 1 (ow * oh) (fun _ p => if (p / ow =? i) && existsb (Nat.eqb (p mod ow)) ys then F (p / ow) (p mod ow) else f 0 p))).
  { intros i f Hi. clear Hy. revert f. induction ys as [|j l IH]; intros f Hy; cbn [map foldM existsb].
    - f_equal. apply mk_ext. intros a p Ha Hp. rewrite andb_false_r. f_equal. lia.
    - assert (Hj : j < ow) by (apply Hy; now left). rewrite Hst; auto. replace (Z.of_nat i * Z.of_nat ow + Z.of_nat j)%Z with (Z.of_nat (i * ow + j)) by lia.
      rewrite mset_row; [|reflexivity|cbn; nia]. cbn [bind nc mk]. rewrite IH by (intros; apply Hy; now right). f_equal. apply mk_ext. intros a p Ha Hp.
      assert (E : (p =? i * ow + j) = (p / ow =? i) && (p mod ow =? j)).
      { destruct (Nat.eqb_spec p (i * ow + j)) as [->|Ne].
        - rewrite Nat.div_add_l, Nat.div_small, Nat.add_0_r, Nat.eqb_refl by lia. rewrite Nat.add_comm, Nat.mod_add, Nat.mod_small, Nat.eqb_refl by lia. reflexivity.
        - destruct (Nat.eqb_spec (p / ow) i) as [E1|]; [|reflexivity]. destruct (Nat.eqb_spec (p mod ow) j) as [E2|]; [|reflexivity]. exfalso. apply Ne. rewrite (Nat.div_mod p ow) by lia. rewrite E1, E2. lia. }
      rewrite E. destruct (Nat.eqb_spec (p / ow) i) as [E1|]; cbn [andb]; [|now rewrite at_mk by lia].
      destruct (Nat.eqb_spec (p mod ow) j) as [E2|]; cbn [orb]; [rewrite E1, E2; destruct (existsb _ _); reflexivity|now rewrite at_mk by lia]. }
  revert f0. induction xs as [|i l IH]; intros f0; cbn [map foldM existsb].
  - reflexivity.
  - rewrite Inner; [|apply Hx; now left|assumption]. cbn [bind]. rewrite IH by (intros; apply Hx; now right). f_equal. apply mk_ext. intros a p Ha Hp.
    destruct (Nat.eqb_spec (p / ow) i) as [E1|]; cbn [orb andb]; [|reflexivity].
    destruct (existsb (Nat.eqb (p / ow)) l), (existsb (Nat.eqb (p mod ow)) ys); reflexivity.
Qed.
Lemma existsb_seq p n : existsb (Nat.eqb p) (seq 0 n) = (p <? n).
Proof.
  destruct (Nat.ltb_spec p n) as [L|L].
  - apply existsb_exists. exists p. split; [apply in_seq; lia|apply Nat.eqb_refl].
  - apply not_true_is_false. intros E. apply existsb_exists in E as (x & Hx & Ex). apply in_seq in Hx. apply Nat.eqb_eq in Ex. lia.
Qed.
Definition nsteps (n st : nat) : list nat := filter (fun i => i mod st =? 0) (seq 0 n).
Lemma steps_nat n st : 1 <= st -> steps (Z.of_nat n) (Z.of_nat st) = map Z.of_nat (nsteps n st).
Proof.
  intros Hs. unfold steps, nsteps, zrange. rewrite Nat2Z.id. induction (seq 0 n) as [|x l IH]; [reflexivity|]. cbn [map filter]. rewrite IH.
  replace (Z.of_nat x mod Z.of_nat st =? 0)%Z with (x mod st =? 0); [destruct (x mod st =? 0); reflexivity|].
  rewrite <- Nat2Z.inj_mod. destruct (Nat.eqb_spec (x mod st) 0), (Z.eqb_spec (Z.of_nat (x mod st)) 0); lia || reflexivity.
Qed.
Lemma existsb_nsteps p n st : p < n -> existsb (Nat.eqb p) (nsteps n st) = (p mod st =? 0).
Proof.
  intros Hp. destruct (p mod st =? 0) eqn:E.
  - apply existsb_exists. exists p. split; [apply filter_In; split; [apply in_seq; lia|assumption]|apply Nat.eqb_refl].
  - apply not_true_is_false. intros X. apply existsb_exists in X as (x & Hx & Ex). apply Nat.eqb_eq in Ex. subst x. apply filter_In in Hx as [_ Hx]. congruence.
Qed.

(** sum of the products over an r x c window whose top-left corner is (i, j) *)
Definition window (r c : nat) (x y : nat -> nat -> D) (i j : nat) : D :=
  accu (mk r c (fun u v => dmul (x (i + u) (j + v)) (y u v))).
Lemma convolve_mk R C r c (x y : nat -> nat -> D) st : 1 <= st -> 1 <= r -> 1 <= c -> r <= R -> c <= C ->
  (Z.of_nat R < 2147483647)%Z -> (Z.of_nat C < 2147483647)%Z -> (Z.of_nat st <= 2147483647)%Z ->
  let ow := (C - c) / st + 1 in let oh := (R - r) / st + 1 in
  convolve junk (Z.of_nat st) (mk R C x) (mk r c y) =
  Ok (mk 1 (ow * oh) (fun _ p => if ((p / ow) mod st =? 0) && ((p mod ow) mod st =? 0) then window r c x y (p / ow) (p mod ow) else junk p)).
Proof.
  intros Hs Hr Hc HR HC B1 B2 B3 ow oh. unfold convolve. cbn [nr nc mk]. rewrite !out_dim_ok by assumption. fold ow. fold oh. cbn [bind].
  unfold row_uninit. rewrite (proj2 (Z.ltb_ge _ 0)) by lia. cbn [bind]. rewrite (proj2 (Z.ltb_ge (Z.of_nat st) 0)) by lia.
  replace (Z.to_nat (Z.of_nat ow * Z.of_nat oh)) with (ow * oh) by lia. unfold mat_uninit. rewrite !steps_nat by assumption.
  assert (Bw : ow - 1 <= C - c) by (unfold ow; rewrite Nat.add_sub; apply Nat.div_le_upper_bound; nia).
  assert (Bh : oh - 1 <= R - r) by (unfold oh; rewrite Nat.add_sub; apply Nat.div_le_upper_bound; nia).
  rewrite (rows_loop (nsteps oh st) (nsteps ow st) ow oh (fun i j => window r c x y i j)).
  - f_equal. apply mk_ext. intros a p Ha Hp. assert (ow <> 0) by (unfold ow; lia).
    rewrite !existsb_nsteps; [|now apply Nat.mod_upper_bound|apply Nat.div_lt_upper_bound; lia]. replace (p * 1 + 0) with p by lia. reflexivity.
  - unfold ow. lia.
  - intros i Hi. apply filter_In in Hi as [Hi _]. apply in_seq in Hi. lia.
  - intros i Hi. apply filter_In in Hi as [Hi _]. apply in_seq in Hi. lia.
  - intros m i j Hi Hj E1 E2. cbn [nr nc mk].
    replace (Z.of_nat i + Z.of_nat r - 1)%Z with (Z.of_nat (i + r) - 1)%Z by lia. replace (Z.of_nat j + Z.of_nat c - 1)%Z with (Z.of_nat (j + c) - 1)%Z by lia.
    rewrite submat_mk by (cbn [nr nc mk]; lia). cbn [bind]. unfold mschur. rewrite mzip_ok by reflexivity. cbn [bind nr nc mk]. f_equal. unfold sumall, window. f_equal.
    apply mk_ext. intros u v Hu Hv. rewrite !at_mk by lia. reflexivity.
Qed.

(** ** The forward loop *)
Section Loop.
Variables (w h pnf nf pad osize : nat) (c : conv D) (pa : mat).
Hypotheses (Ew : cv_iw c = Z.of_nat w) (Eh : cv_ih c = Z.of_nat h) (Epn : cv_pnf c = Z.of_nat pnf) (En : cv_nf c = Z.of_nat nf) (Epad : cv_pad c = Z.of_nat pad).
Hypotheses (Hw : 1 <= w) (Hh : 1 <= h) (Ho : 1 <= osize) (Hpa : nc pa = pnf * (w * h)).
Definition image (j : nat) : mat := mk (h + 2 * pad) (w + 2 * pad) (padded pad h w (pixel pa w h j)).
Variable B : nat -> nat -> nat -> D.
Variable body : mat -> Z -> Z -> res mat.
Hypothesis Hbody : forall j k, j < pnf -> k < nf -> body (image j) (Z.of_nat j) (Z.of_nat k) = Ok (mk 1 osize (fun _ p => B j k p)).

Lemma image_ok j : j < pnf -> 1 <= nr pa -> toimage pa (Z.of_nat j) (cv_iw c) (cv_ih c) = Ok (mk h w (pixel pa w h j)) /\
  addzeropadding (cv_pad c) (mk h w (pixel pa w h j)) = Ok (image j).
Proof. intros Hj HR. rewrite Ew, Eh, Epad. split; [apply toimage_mk; try assumption; nia|apply padding_mk]. Qed.

(** the innermost loop: output channel k gets B j k added *)
Lemma chan_loop R i f (bd : Z -> res mat) (Bk : nat -> nat -> D) : i < R -> (forall k, k < nf -> bd (Z.of_nat k) = Ok (mk 1 osize (fun _ p => Bk k p))) ->
  foldM (fun a k => p <- bd k ;; set_submat dadd a (Z.of_nat i) (k * Z.of_nat osize) (Z.of_nat i) ((k + 1) * Z.of_nat osize - 1) p) (zrange (Z.of_nat nf)) (mk R (osize * nf) f) =
  Ok (mk R (osize * nf) (fun i' q => if i' =? i then dadd (f i' q) (Bk (q / osize) (q mod osize)) else f i' q)).
Proof.
  intros Hi Hb.
  destruct (foldM_zrange (fun k a => a = mk R (osize * nf) (fun i' q => if (i' =? i) && (q <? k * osize) then dadd (f i' q) (Bk (q / osize) (q mod osize)) else f i' q))
    (fun a k => p <- bd k ;; set_submat dadd a (Z.of_nat i) (k * Z.of_nat osize) (Z.of_nat i) ((k + 1) * Z.of_nat osize - 1) p) nf (mk R (osize * nf) f)) as (a & -> & ->).
  - apply mk_ext. intros. cbn [Nat.mul]. rewrite (proj2 (Nat.ltb_ge _ 0)) by lia. now rewrite andb_false_r.
  - intros k a Hk ->. rewrite Hb by assumption. cbn [bind].
    replace (Z.of_nat k * Z.of_nat osize)%Z with (Z.of_nat (k * osize)) by lia. replace ((Z.of_nat k + 1) * Z.of_nat osize - 1)%Z with (Z.of_nat (k * osize + osize) - 1)%Z by lia.
    rewrite set_row_mk; try reflexivity; cbn [nr nc mk]; [|lia|lia|nia]. eexists. split; [reflexivity|]. apply mk_ext. intros i' q Hi' Hq. rewrite at_mk by assumption.
    destruct (Nat.eqb_spec i' i) as [->|]; cbn [andb]; [|reflexivity].
    destruct (Nat.leb_spec (k * osize) q); cbn [andb].
    + rewrite (proj2 (Nat.ltb_ge q (k * osize))) by lia. replace (S k * osize) with (k * osize + osize) by lia. destruct (Nat.ltb_spec q (k * osize + osize)); [|reflexivity].
      rewrite at_mk by lia. f_equal. replace q with (k * osize + (q - k * osize)) at 2 3 by lia. rewrite Nat.div_add_l, Nat.div_small, Nat.add_0_r by lia.
      f_equal. rewrite Nat.add_comm, Nat.mod_add, Nat.mod_small by lia. lia.
    + rewrite (proj2 (Nat.ltb_lt q (k * osize))) by lia. rewrite (proj2 (Nat.ltb_lt q (S k * osize))) by lia. reflexivity.
  - f_equal. apply mk_ext. intros i' q Hi' Hq. rewrite (proj2 (Nat.ltb_lt q (nf * osize))) by lia. now rewrite andb_true_r.
Qed.

(** all channels j added to row i *)
Definition acc_ch (v : D) (k p : nat) (m : nat) : D := fold_left (fun acc j => dadd acc (B j k p)) (seq 0 m) v.
Definition slices_ok (imgs : list mat) : Prop := length imgs = nr pa /\ Forall (fun m => nr m = h + 2 * pad /\ nc m = w + 2 * pad) imgs.
Lemma set_slice_ok imgs i j : slices_ok imgs -> i < nr pa -> set_slice imgs i (image j) = Ok (upd i (image j) imgs) /\ slices_ok (upd i (image j) imgs) /\ nth_error (upd i (image j) imgs) i = Some (image j).
Proof.
  intros [L F] Hi. unfold set_slice. destruct (nth_error imgs i) as [m|] eqn:E; [|apply nth_error_None in E; lia].
  pose proof (proj1 (Forall_forall _ _) F m (nth_error_In _ _ E)) as [E1 E2]. rewrite E1, E2. cbn [nr nc image mk]. unfold image. cbn [nr nc mk]. rewrite !Nat.eqb_refl. cbn [andb].
  split; [reflexivity|]. split; [|rewrite nth_error_upd, Nat.eqb_refl, E; reflexivity]. split; [now rewrite upd_length|].
  apply Forall_forall. intros x Hx. apply In_nth_error in Hx as (q & Hq). rewrite nth_error_upd in Hq. destruct (Nat.eqb q i); [rewrite E in Hq; injection Hq as <-; split; reflexivity|].
  exact (proj1 (Forall_forall _ _) F x (nth_error_In _ _ Hq)).
Qed.
Lemma forward_loop_mk f0 imgs0 : slices_ok imgs0 ->
  exists imgs, forward_loop c (Z.of_nat osize) body pa (mk (nr pa) (osize * nf) f0) imgs0 =
    Ok (mk (nr pa) (osize * nf) (fun i q => acc_ch (f0 i q) (q / osize) (q mod osize) pnf), imgs) /\ slices_ok imgs /\
    (1 <= pnf -> forall i, i < nr pa -> nth_error imgs i = Some (image (pnf - 1))).
Proof.
  intros S0. unfold forward_loop.
  match goal with |- context [foldM ?g (seq 0 (nr pa)) ?s] =>
  destruct (foldM_seq (fun n '(a, imgs) => a = mk (nr pa) (osize * nf) (fun i q => if i <? n then acc_ch (f0 i q) (q / osize) (q mod osize) pnf else f0 i q) /\
      slices_ok imgs /\ (1 <= pnf -> forall i, i < n -> nth_error imgs i = Some (image (pnf - 1)))) g (nr pa) s) as ((a & imgs) & -> & E & SI & SJ) end.
  - split; [reflexivity|]. split; [assumption|]. intros _ i Hi. lia.
  - intros i (a & imgs) Hi (-> & SI & SJ).
    match goal with |- context [foldM ?g (zrange (cv_pnf c)) ?s] => rewrite Epn;
    destruct (foldM_zrange (fun n '(a, im) => a = mk (nr pa) (osize * nf) (fun i' q => if i' <? i then acc_ch (f0 i' q) (q / osize) (q mod osize) pnf else
         if i' =? i then acc_ch (f0 i' q) (q / osize) (q mod osize) n else f0 i' q) /\ slices_ok im /\
         (forall i', i' < i -> nth_error im i' = nth_error imgs i') /\ (1 <= n -> nth_error im i = Some (image (n - 1)))) g pnf s) as ((a & im) & -> & E & S1 & S2 & S3) end.
    + split; [|split; [assumption|split; [reflexivity|intros; lia]]]. apply mk_ext. intros i' q Hi' Hq. unfold acc_ch at 3. cbn [seq fold_left]. destruct (i' <? i), (i' =? i); reflexivity.
    + intros j (a & im) Hj (-> & S1 & S2 & S3). destruct (image_ok j Hj ltac:(lia)) as [T1 T2]. rewrite T1. cbn [bind]. rewrite T2. cbn [bind].
      destruct (set_slice_ok im i j S1 Hi) as (U1 & U2 & U3). rewrite U1. cbn [bind]. unfold slice. rewrite U3. cbn [bind]. rewrite En.
      rewrite (chan_loop (nr pa) i _ (fun k => body (image j) (Z.of_nat j) k) (B j)) by (auto; intros; apply Hbody; assumption). cbn [bind].
      eexists. split; [reflexivity|]. cbn beta iota. split; [|split; [assumption|split]].
      * apply mk_ext. intros i' q Hi' Hq. destruct (Nat.eqb_spec i' i) as [->|Ne]; [|reflexivity]. rewrite Nat.ltb_irrefl. unfold acc_ch. rewrite seq_S, fold_left_app. reflexivity.
      * intros i' Hi'. rewrite nth_error_upd, (proj2 (Nat.eqb_neq i' i)) by lia. now apply S2.
      * intros _. rewrite U3. f_equal. f_equal. lia.
    + eexists. split; [reflexivity|]. cbn beta iota. split; [|split; [assumption|]].
      * rewrite E. apply mk_ext. intros i' q Hi' Hq. destruct (Nat.ltb_spec i' (S i)), (Nat.ltb_spec i' i), (Nat.eqb_spec i' i); try lia; reflexivity.
      * intros Hp i' Hi'. destruct (Nat.eq_dec i' i) as [->|]; [now apply S3|]. rewrite S2 by lia. apply SJ; [assumption|lia].
  - exists imgs. split; [|split; assumption]. f_equal. f_equal. rewrite E. apply mk_ext. intros i q Hi Hq. now rewrite (proj2 (Nat.ltb_lt i (nr pa))).
Qed.
End Loop.
End ConvP.

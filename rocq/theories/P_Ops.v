(** P_Ops.v - properties C07-C11: element-wise operators, broadcasting, equality. *)
From Verif Require Import Base Mem Par Tensor TensorOps TSpec TLemmas TOps TOps2 TMem TMatmul TFlat P_Tensor.
Local Open Scope Z_scope.

Section Ops.
Context {D : dtype}.
Notation heap := (heap D).
Notation binary := (list nat -> tensor -> tensor -> heap -> res (tensor * heap)) (only parsing).
Notation unary := (list nat -> tensor -> heap -> res (tensor * heap)) (only parsing).

(** The four broadcasting operators with the scalar operation they apply. *)
Definition arith : list (binary * (D -> D -> D)) :=
  [(op_add, dadd); (op_sub, dsub); (op_mul, dmul); (op_div, ddiv)].
(** The tensor-scalar operators and unary functions. *)
Definition maps (v : D) : list (unary * (D -> D)) :=
  [(op_addv v, fun x => dadd x v); (op_subv v, fun x => dsub x v); (op_mulv v, fun x => dmul x v);
   (op_divv v, fun x => ddiv x v); (op_powv v, fun x => dpow x v);
   (op_neg, dneg); (op_exp, dexp); (op_log, dlog); (op_sqrt, dsqrt)].

Lemma arith_binop op f : In (op, f) arith -> op = binop f.
Proof. intros [E|[E|[E|[E|[]]]]]; injection E as <- <-; reflexivity. Qed.
Lemma maps_unop v op f : In (op, f) (maps v) -> op = unop f.
Proof. intros H. repeat (destruct H as [E|H]; [injection E as <- <-; reflexivity|]). destruct H. Qed.

(** * C07 *)
Theorem C07_elementwise : forall op f, In (op, f) (arith ++ [(op_pow, dpow)]) ->
  forall t1 t2 (h : heap) dims xs ys, holds h t1 dims xs -> holds h t2 dims ys ->
  exists out h', (forall s, op s t1 t2 h = Ok (out, h')) /\ made h out h' dims (zipw f xs ys) /\
    holds h' t1 dims xs /\ holds h' t2 dims ys /\
    forall idx, in_dims dims idx ->
      exists x y, elem h t1 idx x /\ elem h t2 idx y /\ elem h' out idx (f x y).
Proof.
  intros op f Hop t1 t2 h dims xs ys H1 H2.
  exists (Tn (t_sh t1) (Some (length h))), (h ++ [Some (Blk AArray (map Some (zipw f xs ys)))]).
  assert (M : made h (Tn (t_sh t1) (Some (length h))) (h ++ [Some (Blk AArray (map Some (zipw f xs ys)))]) dims (zipw f xs ys)).
  { assert (L1 := holds_len _ _ _ _ H1). assert (L2 := holds_len _ _ _ _ H2).
    apply made_app; [apply (holds_shape _ _ _ _ H1)|]. rewrite zipw_length. lia. }
  split; [|split; [exact M|split; [exact (made_keeps _ _ _ _ _ _ _ _ M H1)|split; [exact (made_keeps _ _ _ _ _ _ _ _ M H2)|]]]].
  - intros s. apply in_app_iff in Hop as [Hop|[E|[]]].
    + rewrite (arith_binop _ _ Hop). now apply (binop_same f s t1 t2 h dims).
    + injection E as <- <-. now apply (pow_ok s t1 t2 h dims).
  - apply (elems2 h t1 t2 _ _ dims xs ys f H1 H2). apply (made_holds _ _ _ _ _ M).
Qed.

(** * C08 *)

(** Exact result of broadcasting over [pre] missing axes, where no access is out of range: the element at
    [ip ++ ir] is combined with [t2]'s element at [ir] if all but the last index of [ip] are 0, and is
    left 0 otherwise. *)
Definition leading_zero (ip : list Z) : Prop := Forall (fun i => i = 0) (removelast ip).

Lemma flat_zeros_iff dims idx : in_dims dims idx -> dims <> [] ->
  (flat dims idx < last dims 1 <-> Forall (fun i => i = 0) (removelast idx)).
Proof.
  induction 1 as [|i d is ds Hi H IH]; intros Hn; [congruence|].
  destruct is as [|i' is]; inversion H; subst.
  - simpl. split; [constructor|]. intros _. lia.
  - rename l' into ds. rename y into d'.
    change (removelast (i :: i' :: is)) with (i :: removelast (i' :: is)).
    change (last (d :: d' :: ds) 1) with (last (d' :: ds) 1).
    change (flat (d :: d' :: ds) (i :: i' :: is)) with (i * prodZ (d' :: ds) + flat (d' :: ds) (i' :: is)).
    specialize (IH ltac:(discriminate)). assert (Hr := flat_range _ _ H).
    assert (Hlast : last (d' :: ds) 1 <= prodZ (d' :: ds)).
    { assert (P := in_dims_pos _ _ H). clear -P. revert d' P. induction ds as [|x ds IH]; intros d' P.
      - simpl. lia.
      - inversion P; subst. specialize (IH x H2). change (last (d' :: x :: ds) 1) with (last (x :: ds) 1).
        change (prodZ (d' :: x :: ds)) with (d' * prodZ (x :: ds)). assert (0 < prodZ (x :: ds)) by now apply prodZ_pos. nia. }
    split.
    + intros Hlt. assert (i = 0) by nia. subst i. constructor; [reflexivity|]. apply IH. lia.
    + intros Hz. inversion Hz as [|? ? Ez Hz']; subst. apply IH in Hz'. lia.
Qed.

Lemma last_skipn (l : list Z) : l <> [] -> skipn (length l - 1) l = [last l 1].
Proof.
  induction l as [|x l IH]; [congruence|]. intros _. destruct l as [|y l]; [reflexivity|].
  replace (length (x :: y :: l) - 1)%nat with (S (length (y :: l) - 1))%nat by (simpl; lia). cbn [skipn].
  rewrite IH by discriminate. reflexivity.
Qed.

Lemma bcast_upto_val pre d2 : pre <> [] -> Forall (fun d => 0 < d) (pre ++ d2) -> bcast_upto pre d2 = last pre 1 * prodZ d2.
Proof.
  intros Hn Hp. unfold bcast_upto.
  assert (E : prodZ (skipn (length pre - 1) (pre ++ d2)) = last pre 1 * prodZ d2).
  { rewrite skipn_app. replace (length pre - 1 - length pre)%nat with 0%nat by lia. simpl skipn.
    rewrite prodZ_app, last_skipn by assumption. change (prodZ [last pre 1]) with (last pre 1 * 1). lia. }
  destruct (length pre - 1)%nat eqn:El; simpl chunk_spec; [|exact E].
  simpl in E. rewrite <- E. destruct (pre ++ d2) as [|x l]; [reflexivity|]. inversion Hp; subst. destruct x; try lia; reflexivity.
Qed.

Theorem C08_broadcast : forall op f, In (op, f) arith ->
  forall t1 t2 (h : heap) pre d2 xs ys, pre <> [] -> hd 0 pre <> 0 ->
  holds h t1 (pre ++ d2) xs -> holds h t2 d2 ys ->
  exists out h' zs, (forall s, op s t1 t2 h = Ok (out, h')) /\ made h out h' (pre ++ d2) zs /\
    holds h' t1 (pre ++ d2) xs /\ holds h' t2 d2 ys /\
    forall ip ir, in_dims pre ip -> in_dims d2 ir ->
      exists x y, elem h t1 (ip ++ ir) x /\ elem h t2 ir y /\
        (leading_zero ip -> elem h' out (ip ++ ir) (f x y)) /\
        (~ leading_zero ip -> elem h' out (ip ++ ir) d0).
Proof.
  intros op f Hop t1 t2 h pre d2 xs ys Hpre Hz H1 H2. rewrite (arith_binop _ _ Hop).
  assert (S1 := holds_shape _ _ _ _ H1). assert (S2 := holds_shape _ _ _ _ H2).
  assert (L1 := holds_len _ _ _ _ H1). assert (L2 := holds_len _ _ _ _ H2).
  assert (Hr : bcast_upto pre d2 <= numel (pre ++ d2)) by (apply bcast_in_range; [apply S1|assumption|auto]).
  eexists (Tn (t_sh t1) (Some (length h))), _, _. split; [intros s; exact (binop_bcast f s t1 t2 h pre d2 xs ys Hpre H1 H2 Hr)|].
  match goal with |- made _ _ (h ++ [Some (Blk AArray (map Some ?Z))]) _ _ /\ _ => set (zs := Z) end.
  assert (M : made h (Tn (t_sh t1) (Some (length h))) (h ++ [Some (Blk AArray (map Some zs))]) (pre ++ d2) zs).
  { apply made_app; [assumption|]. unfold zs. rewrite mapi_length. assumption. }
  split; [exact M|]. split; [exact (made_keeps _ _ _ _ _ _ _ _ M H1)|]. split; [exact (made_keeps _ _ _ _ _ _ _ _ M H2)|].
  intros ip ir Hip Hir. assert (Hi := in_dims_app _ _ _ _ Hip Hir).
  destruct (elem_ex h t1 _ xs _ H1 Hi) as (x & Hx). destruct (elem_ex h t2 _ ys _ H2 Hir) as (y & Hy).
  exists x, y. split; [assumption|]. split; [assumption|].
  apply (elem_at h t1 _ xs _ _ H1 Hi) in Hx. apply (elem_at h t2 _ ys _ _ H2 Hir) in Hy.
  assert (Hpos : Forall (fun d => 0 < d) (pre ++ d2)) by (eapply in_dims_pos; eauto).
  assert (Hf := flat_range _ _ Hi). assert (Hf2 := flat_range _ _ Hir).
  assert (Eflat := flat_app pre d2 ip ir (Forall2_len _ _ _ Hip)).
  assert (Hz' : at_ zs (flat (pre ++ d2) (ip ++ ir)) =
     Some (if flat (pre ++ d2) (ip ++ ir) <? bcast_upto pre d2 then f x y else d0)).
  { unfold zs, at_. rewrite nth_error_mapi. unfold at_ in Hx. rewrite Hx. simpl. f_equal.
    rewrite Z2Nat.id by lia. destruct (_ <? _); [|reflexivity]. f_equal.
    replace (flat (pre ++ d2) (ip ++ ir) mod prodZ d2) with (flat d2 ir).
    - unfold at_ in Hy. apply nth_error_nth with (d := d0) in Hy. exact Hy.
    - rewrite Eflat, Z.add_comm, Z_mod_plus_full. symmetry. apply Z.mod_small. lia. }
  assert (Hiff : flat (pre ++ d2) (ip ++ ir) < bcast_upto pre d2 <-> leading_zero ip).
  { unfold leading_zero. rewrite <- (flat_zeros_iff pre ip Hip Hpre). rewrite bcast_upto_val, Eflat by assumption. split; nia. }
  split; intros Hlz; apply (elem_at _ _ (pre ++ d2) zs); try assumption; try apply (made_holds _ _ _ _ _ M); rewrite Hz'; f_equal.
  - destruct (Z.ltb_spec (flat (pre ++ d2) (ip ++ ir)) (bcast_upto pre d2)) as [A|A]; [reflexivity|]. apply Hiff in Hlz. lia.
  - destruct (Z.ltb_spec (flat (pre ++ d2) (ip ++ ir)) (bcast_upto pre d2)) as [A|A]; [|reflexivity]. apply Hiff in A. contradiction.
Qed.

(** One missing axis: every element is right. *)
Theorem C08_one_axis : forall op f, In (op, f) arith ->
  forall t1 t2 (h : heap) d d2 xs ys, d <> 0 -> holds h t1 (d :: d2) xs -> holds h t2 d2 ys ->
  exists out h' zs, (forall s, op s t1 t2 h = Ok (out, h')) /\ made h out h' (d :: d2) zs /\
    forall i ir, 0 <= i < d -> in_dims d2 ir ->
      exists x y, elem h t1 (i :: ir) x /\ elem h t2 ir y /\ elem h' out (i :: ir) (f x y).
Proof.
  intros op f Hop t1 t2 h d d2 xs ys Hd H1 H2.
  destruct (C08_broadcast op f Hop t1 t2 h [d] d2 xs ys) as (out & h' & zs & A & B & _ & _ & C); try assumption; [discriminate|].
  exists out, h', zs. split; [exact A|]. split; [exact B|]. intros i ir Hi Hir.
  destruct (C [i] ir) as (x & y & E1 & E2 & E3 & _); [repeat constructor; lia|assumption|].
  exists x, y. split; [exact E1|]. split; [exact E2|]. apply E3. constructor.
Qed.

(** Leading extent 0 (one stored element per missing-axis rule): with one missing axis the single element
    is f x y; with two or more, the loop runs past the buffers as soon as it has more than one step. *)
Theorem C08_leading_zero_undef : forall op f, In (op, f) arith ->
  forall t1 t2 (h : heap) pre d2 xs ys s, pre <> [] ->
  holds h t1 (0 :: pre ++ d2) xs -> holds h t2 d2 ys ->
  1 < last pre 1 * prodZ d2 -> is_undef (op s t1 t2 h).
Proof.
  intros op f Hop t1 t2 h pre d2 xs ys s Hpre H1 H2 Hlt. rewrite (arith_binop _ _ Hop).
  apply (binop_bcast_undef f s t1 t2 h (0 :: pre) d2 xs ys); auto; [discriminate|].
  assert (S1 := holds_shape _ _ _ _ H1). destruct S1 as (((_ & Hp) & _) & _).
  change (numel ((0 :: pre) ++ d2)) with 1. unfold bcast_upto.
  replace (length (0%Z :: pre) - 1)%nat with (S (length pre - 1)) by (destruct pre; [congruence|simpl; lia]).
  cbn [chunk_spec]. change (skipn (S (length pre - 1)) ((0 :: pre) ++ d2)) with (skipn (length pre - 1) (pre ++ d2)).
  rewrite skipn_app. replace (length pre - 1 - length pre)%nat with 0%nat by lia. simpl skipn.
  rewrite prodZ_app, last_skipn by assumption. change (prodZ [last pre 1]) with (last pre 1 * 1). lia.
Qed.

(** * C09 *)
Theorem C09_accepts : forall op f, In (op, f) arith ->
  forall t1 t2 (h : heap) a1 a2 xs ys, holds h t1 a1 xs -> holds h t2 a2 ys ->
  (is_suffix a2 a1 -> hd 0 a1 <> 0 \/ (length a1 <= length a2 + 1)%nat ->
     exists out h', forall s, op s t1 t2 h = Ok (out, h')) /\
  (~ is_suffix a2 a1 -> forall s, op s t1 t2 h = Abort) /\
  (forall s, op s t1 t2 h = Abort -> ~ is_suffix a2 a1).
Proof.
  intros op f Hop t1 t2 h a1 a2 xs ys H1 H2. rewrite (arith_binop _ _ Hop).
  assert (S1 := holds_shape _ _ _ _ H1). assert (S2 := holds_shape _ _ _ _ H2).
  assert (Hn : ~ is_suffix a2 a1 -> forall s, binop f s t1 t2 h = Abort) by (intros Hs s; now apply (binop_abort f s t1 t2 h a1 a2)).
  split; [|split; [exact Hn|]].
  - intros (pre & E) Hc. subst a1. destruct pre as [|p pre].
    + simpl in H1. eexists _, _. intros s. apply (binop_same f s t1 t2 h a2 xs ys); assumption.
    + eexists _, _. intros s. apply (binop_bcast f s t1 t2 h (p :: pre) a2 xs ys); auto; [discriminate|].
      apply bcast_in_range; [apply S1|discriminate|]. destruct Hc as [Hc|Hc]; [left; exact Hc|]. right.
      simpl in Hc. rewrite app_length in Hc. simpl. lia.
  - intros s Hab (pre & E). subst a1. destruct pre as [|p pre].
    + rewrite (binop_same f s t1 t2 h a2 xs ys) in Hab by assumption. discriminate.
    + destruct (Z_le_dec (bcast_upto (p :: pre) a2) (numel ((p :: pre) ++ a2))) as [Hle|Hgt].
      * rewrite (binop_bcast f s t1 t2 h (p :: pre) a2 xs ys) in Hab by (auto; discriminate). discriminate.
      * destruct (binop_bcast_undef f s t1 t2 h (p :: pre) a2 xs ys) as (u & E); try assumption; [discriminate|lia|].
        rewrite E in Hab. discriminate.
Qed.
Theorem C09_pow : forall t1 t2 (h : heap) a1 a2 xs ys, holds h t1 a1 xs -> holds h t2 a2 ys ->
  (a1 = a2 -> exists out h', forall s, op_pow s t1 t2 h = Ok (out, h')) /\
  (a1 <> a2 -> forall s, op_pow s t1 t2 h = Abort).
Proof.
  intros t1 t2 h a1 a2 xs ys H1 H2. split.
  - intros ->. eexists _, _. intros s. apply (pow_ok s t1 t2 h a2 xs ys); assumption.
  - intros Hn s. apply (pow_abort s t1 t2 h a1 a2); [apply (holds_shape _ _ _ _ H1)|apply (holds_shape _ _ _ _ H2)|assumption].
Qed.

(** * C10 *)
Theorem C10_maps : forall v op f, In (op, f) (maps v) ->
  forall t (h : heap) dims xs, holds h t dims xs ->
  exists out h', (forall s, op s t h = Ok (out, h')) /\ made h out h' dims (map f xs) /\ holds h' t dims xs /\
    forall idx, in_dims dims idx -> exists x, elem h t idx x /\ elem h' out idx (f x).
Proof.
  intros v op f Hop t h dims xs H. rewrite (maps_unop _ _ _ Hop).
  eexists (Tn (t_sh t) (Some (length h))), _. split; [intros s; exact (unop_ok f s t h dims xs H)|].
  assert (M : made h (Tn (t_sh t) (Some (length h))) (h ++ [Some (Blk AArray (map Some (map f xs)))]) dims (map f xs)).
  { apply made_app; [apply (holds_shape _ _ _ _ H)|]. rewrite map_length. apply (holds_len _ _ _ _ H). }
  split; [exact M|]. split; [exact (made_keeps _ _ _ _ _ _ _ _ M H)|].
  apply (elems1 h t _ _ dims xs f H). apply (made_holds _ _ _ _ _ M).
Qed.

(** * C11 *)
Definition mask (b : bool) : D := if b then d1 else d0.
Definition close (eps x y : D) : bool := dltb (dabs (dsub x y)) eps.

Theorem C11_equal_shapes : forall t1 t2 (h : heap) dims xs ys eps,
  holds h t1 dims xs -> holds h t2 dims ys ->
  (exists out h', (forall s, op_eq s t1 t2 h = Ok (out, h')) /\
     made h out h' dims (zipw (fun x y => mask (deqb x y)) xs ys) /\
     forall idx, in_dims dims idx -> exists x y, elem h t1 idx x /\ elem h t2 idx y /\ elem h' out idx (mask (deqb x y))) /\
  (dleb d0 eps = true -> exists out h', (forall s, op_equal eps s t1 t2 h = Ok (out, h')) /\
     made h out h' dims (zipw (fun x y => mask (close eps x y)) xs ys) /\
     forall idx, in_dims dims idx -> exists x y, elem h t1 idx x /\ elem h t2 idx y /\ elem h' out idx (mask (close eps x y))) /\
  (dleb d0 eps = false -> forall s, op_equal eps s t1 t2 h = Abort).
Proof.
  intros t1 t2 h dims xs ys eps H1 H2.
  assert (G : forall p : D -> D -> bool, exists out h', (forall s, eqop p s t1 t2 h = Ok (out, h')) /\
     made h out h' dims (zipw (fun x y => mask (p x y)) xs ys) /\
     forall idx, in_dims dims idx -> exists x y, elem h t1 idx x /\ elem h t2 idx y /\ elem h' out idx (mask (p x y))).
  { intros p. eexists (Tn (t_sh t1) (Some (length h))), _. split; [intros s; exact (eqop_ok p s t1 t2 h dims dims xs ys H1 H2 eq_refl (Z.le_refl _))|].
    assert (L1 := holds_len _ _ _ _ H1). assert (L2 := holds_len _ _ _ _ H2).
    assert (M := made_app h (t_sh t1) dims (zipw (fun x y => mask (p x y)) xs ys) (holds_shape _ _ _ _ H1)).
    rewrite zipw_length in M. specialize (M ltac:(lia)). split; [exact M|].
    apply (elems2 h t1 t2 _ _ dims xs ys (fun x y => mask (p x y)) H1 H2). apply (made_holds _ _ _ _ _ M). }
  split; [apply G|]. split; intros E.
  - destruct (G (close eps)) as (out & h' & A & B). exists out, h'. split; [|exact B]. intros s. unfold op_equal. rewrite E. apply A.
  - intros s. unfold op_equal. rewrite E. reflexivity.
Qed.
Theorem C11_scalar : forall t (h : heap) dims xs v eps, holds h t dims xs ->
  (exists out h', (forall s, op_eqv v s t h = Ok (out, h')) /\ made h out h' dims (map (fun x => mask (deqb x v)) xs)) /\
  (dleb d0 eps = true -> exists out h', (forall s, op_equalv v eps s t h = Ok (out, h')) /\
     made h out h' dims (map (fun x => mask (close eps x v)) xs)) /\
  (dleb d0 eps = false -> forall s, op_equalv v eps s t h = Abort).
Proof.
  intros t h dims xs v eps H.
  assert (G : forall p : D -> bool, exists out h', (forall s, eqopv p s t h = Ok (out, h')) /\
     made h out h' dims (map (fun x => mask (p x)) xs)).
  { intros p. eexists (Tn (t_sh t) (Some (length h))), _. split; [intros s; exact (eqopv_ok p s t h dims xs H)|].
    apply made_app; [apply (holds_shape _ _ _ _ H)|]. rewrite map_length. apply (holds_len _ _ _ _ H). }
  split; [apply G|]. split; intros E.
  - destruct (G (fun x => close eps x v)) as (out & h' & A & B). exists out, h'. split; [|exact B]. intros s. unfold op_equalv. rewrite E. apply A.
  - intros s. unfold op_equalv. rewrite E. reflexivity.
Qed.
(** Extents are not compared: only the rank is. *)
Theorem C11_shapes_not_checked : forall t1 t2 (h : heap) a1 a2 xs ys, holds h t1 a1 xs -> holds h t2 a2 ys ->
  (length a1 <> length a2 -> forall s, op_eq s t1 t2 h = Abort) /\
  (length a1 = length a2 -> numel a2 < numel a1 -> forall s, is_undef (op_eq s t1 t2 h)) /\
  (length a1 = length a2 -> numel a1 <= numel a2 -> exists out h', (forall s, op_eq s t1 t2 h = Ok (out, h')) /\
     made h out h' a1 (zipw (fun x y => mask (deqb x y)) xs (firstn (length xs) ys))).
Proof.
  intros t1 t2 h a1 a2 xs ys H1 H2. split; [|split].
  - intros Hn s. apply (eqop_abort deqb s t1 t2 h a1 a2); [apply (holds_shape _ _ _ _ H1)|apply (holds_shape _ _ _ _ H2)|assumption].
  - intros E Hlt s. apply (eqop_undef deqb s t1 t2 h a1 a2 xs ys); assumption.
  - intros E Hle. eexists (Tn (t_sh t1) (Some (length h))), _. split; [intros s; exact (eqop_ok deqb s t1 t2 h a1 a2 xs ys H1 H2 E Hle)|].
    assert (Ez : forall (g : D -> D -> D) l1 l2, zipw g l1 l2 = zipw g l1 (firstn (length l1) l2)).
    { intros g l1. induction l1 as [|a l1 IH]; intros [|b l2]; simpl; try reflexivity. now rewrite IH. }
    rewrite Ez. assert (L1 := holds_len _ _ _ _ H1). assert (L2 := holds_len _ _ _ _ H2).
    apply made_app; [apply (holds_shape _ _ _ _ H1)|]. rewrite zipw_length, firstn_length. lia.
Qed.
(** The same for equal(., ., eps), eps >= 0. *)
Theorem C11_shapes_not_checked_eps : forall t1 t2 (h : heap) a1 a2 xs ys eps, dleb (d0 : D) eps = true -> holds h t1 a1 xs -> holds h t2 a2 ys ->
  (length a1 <> length a2 -> forall s, op_equal eps s t1 t2 h = Abort) /\
  (length a1 = length a2 -> numel a2 < numel a1 -> forall s, is_undef (op_equal eps s t1 t2 h)) /\
  (length a1 = length a2 -> numel a1 <= numel a2 -> exists out h', (forall s, op_equal eps s t1 t2 h = Ok (out, h')) /\
     made h out h' a1 (zipw (fun x y => mask (close eps x y)) xs (firstn (length xs) ys))).
Proof.
  intros t1 t2 h a1 a2 xs ys eps E0 H1 H2. unfold op_equal. rewrite E0. cbn [cassert bind]. fold (close eps). split; [|split].
  - intros Hn s. apply (eqop_abort (close eps) s t1 t2 h a1 a2); [apply (holds_shape _ _ _ _ H1)|apply (holds_shape _ _ _ _ H2)|assumption].
  - intros E Hlt s. apply (eqop_undef (close eps) s t1 t2 h a1 a2 xs ys); assumption.
  - intros E Hle. eexists (Tn (t_sh t1) (Some (length h))), _. split; [intros s; exact (eqop_ok (close eps) s t1 t2 h a1 a2 xs ys H1 H2 E Hle)|].
    assert (Ez : forall (g : D -> D -> D) l1 l2, zipw g l1 l2 = zipw g l1 (firstn (length l1) l2)).
    { intros g l1. induction l1 as [|a l1 IH]; intros [|b l2]; simpl; try reflexivity. now rewrite IH. }
    rewrite Ez. assert (L1 := holds_len _ _ _ _ H1). assert (L2 := holds_len _ _ _ _ H2).
    apply made_app; [apply (holds_shape _ _ _ _ H1)|]. rewrite zipw_length, firstn_length. lia.
Qed.
(** eps = 0: with an irreflexive-at-zero comparison the mask is 0 everywhere. *)
Theorem C11_eps_zero : forall t1 t2 (h : heap) dims xs ys,
  dleb (d0 : D) d0 = true -> (forall x : D, dltb (dabs x) d0 = false) ->
  holds h t1 dims xs -> holds h t2 dims ys ->
  exists out h', (forall s, op_equal d0 s t1 t2 h = Ok (out, h')) /\ made h out h' dims (repeat d0 (length xs)).
Proof.
  intros t1 t2 h dims xs ys E0 Hirr H1 H2. destruct (C11_equal_shapes t1 t2 h dims xs ys d0 H1 H2) as (_ & A & _).
  destruct (A E0) as (out & h' & B & C & _). exists out, h'. split; [exact B|].
  replace (repeat d0 (length xs)) with (zipw (fun x y : D => mask (close d0 x y)) xs ys); [exact C|].
  assert (L1 := holds_len _ _ _ _ H1). assert (L2 := holds_len _ _ _ _ H2).
  assert (Hl : length xs = length ys) by lia. clear -Hl Hirr. revert ys Hl.
  induction xs as [|x xs IH]; intros [|y ys] Hl; try discriminate; [reflexivity|]. simpl. rewrite IH by (simpl in Hl; lia).
  unfold close. rewrite Hirr. reflexivity.
Qed.

End Ops.

(** Witnesses: the hypotheses are met and the results are what the English says. *)
Definition ex_v3 : tensor := Tn (TSh [3] [3]) (Some 0%nat).
Definition ex_h3 : heap Zdt := [Some (Blk AArray (map Some [10;20;30])); Some (Blk AArray (map Some [1;2;3;4;5;6]))].
Definition ex_m : tensor := Tn (TSh [2;3] [6;3]) (Some 1%nat).
Example ex_v3_holds : holds ex_h3 ex_v3 [3] [10;20;30].
Proof.
  exists AArray. split; [split; [|split; reflexivity]|split; [reflexivity|exists 0%nat; split; reflexivity]].
  apply valid1. unfold INT_MAX. lia.
Qed.
Example ex_m_holds : holds ex_h3 ex_m [2;3] [1;2;3;4;5;6].
Proof.
  exists AArray. split; [split; [apply ex_valid; unfold INT_MAX; lia|split; reflexivity]|].
  split; [reflexivity|exists 1%nat; split; reflexivity].
Qed.
Example ex_bcast : op_add (D:=Zdt) [1;0;0;2]%nat ex_m ex_v3 ex_h3 =
  Ok (Tn (TSh [2;3] [6;3]) (Some 2%nat), ex_h3 ++ [Some (Blk AArray (map Some [11;22;33;14;25;36]))]).
Proof. reflexivity. Qed.
(** Two missing axes: {2,2,2} + {2} leaves the upper half 0. *)
Example ex_bcast2 : op_add (D:=Zdt) [] (Tn (TSh [2;2;2] [8;4;2]) (Some 0%nat)) (Tn (TSh [2] [2]) (Some 1%nat))
   [Some (Blk AArray (map Some [1;1;1;1;1;1;1;1])); Some (Blk AArray (map Some [10;20]))] =
  Ok (Tn (TSh [2;2;2] [8;4;2]) (Some 2%nat),
   [Some (Blk AArray (map Some [1;1;1;1;1;1;1;1])); Some (Blk AArray (map Some [10;20]));
    Some (Blk AArray (map Some [11;21;11;21;0;0;0;0]))]).
Proof. reflexivity. Qed.
(** == does not compare extents: {2,3} == {3,2}. *)
Example ex_eq : op_eq (D:=Zdt) [] ex_a ex_b ex_heap = Ok (Tn (TSh [2;3] [6;3]) (Some 2%nat), ex_heap ++ [Some (Blk AArray (map Some [0;0;0;0;0;0]))]).
Proof. reflexivity. Qed.
Example ex_eps0 : dleb (d0 : Zdt) d0 = true /\ forall x : Zdt, dltb (dabs x) d0 = false.
Proof. split; [reflexivity|]. intros x. simpl. lia. Qed.

Print Assumptions C07_elementwise.
Print Assumptions C08_broadcast.
Print Assumptions C09_accepts.
Print Assumptions C11_equal_shapes.

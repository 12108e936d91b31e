(** TFlat.v - multi-indices, [elem] and [made]: facts used by the property files. *)
From Verif Require Import Base Mem Par Tensor TensorOps TSpec TLemmas TOps TOps2 TMem TMatmul.
Local Open Scope Z_scope.

Lemma in_dims_pos dims idx : in_dims dims idx -> Forall (fun d => 0 < d) dims.
Proof. induction 1; constructor; [lia|assumption]. Qed.

Lemma flat_range dims idx : in_dims dims idx -> 0 <= flat dims idx < prodZ dims.
Proof.
  induction 1 as [|i d is ds Hi H IH]; [simpl; lia|].
  change (prodZ (d :: ds)) with (d * prodZ ds). cbn [flat]. nia.
Qed.

Lemma in_dims_numel dims idx : in_dims dims idx -> numel dims = prodZ dims.
Proof. intros H. apply in_dims_pos in H. destruct dims as [|d ds]; [reflexivity|]. inversion H; subst. destruct d; try lia; reflexivity. Qed.

Lemma flat_inj dims : forall a b, in_dims dims a -> in_dims dims b -> flat dims a = flat dims b -> a = b.
Proof.
  induction dims as [|d ds IH]; intros a b Ha Hb E; inversion Ha; inversion Hb; subst; [reflexivity|].
  cbn [flat] in E. rename x into i, x0 into j, l into is, l0 into js.
  assert (A := flat_range ds is). assert (B := flat_range ds js).
  match goal with H : Forall2 _ is ds |- _ => specialize (A H) end.
  match goal with H : Forall2 _ js ds |- _ => specialize (B H) end.
  assert (i = j) by nia. subst j. f_equal. apply IH; auto. nia.
Qed.

Lemma flat_surj dims : Forall (fun d => 0 < d) dims -> forall q, 0 <= q < prodZ dims ->
  exists idx, in_dims dims idx /\ flat dims idx = q.
Proof.
  induction 1 as [|d ds Hd H IH]; intros q Hq.
  - exists []. split; [constructor|]. change (prodZ []) with 1 in Hq. simpl. lia.
  - change (prodZ (d :: ds)) with (d * prodZ ds) in Hq. assert (Hp := prodZ_pos ds H).
    destruct (IH (q mod prodZ ds)) as (is & His & Ef); [apply Z.mod_pos_bound; lia|].
    exists (q / prodZ ds :: is). split.
    + constructor; [|assumption]. split; [apply Z.div_pos; lia|apply Z.div_lt_upper_bound; nia].
    + cbn [flat]. rewrite Ef. assert (E := Z.div_mod q (prodZ ds) ltac:(lia)). lia.
Qed.

Lemma flat_app d1 : forall d2 i1 i2, length i1 = length d1 -> flat (d1 ++ d2) (i1 ++ i2) = flat d1 i1 * prodZ d2 + flat d2 i2.
Proof.
  induction d1 as [|d ds IH]; intros d2 [|i is] i2 H; try discriminate; [simpl; lia|].
  cbn [flat app]. rewrite IH by (simpl in H; lia). rewrite prodZ_app. lia.
Qed.

Lemma in_dims_app d1 d2 i1 i2 : in_dims d1 i1 -> in_dims d2 i2 -> in_dims (d1 ++ d2) (i1 ++ i2).
Proof. apply Forall2_app. Qed.

Section Elem.
Context {D : dtype}.
Notation heap := (heap D).
Implicit Types h : heap.

Lemma elem_at h t dims xs idx v : holds h t dims xs -> in_dims dims idx ->
  (elem h t idx v <-> at_ xs (flat dims idx) = Some v).
Proof.
  intros H Hi. assert (Hs := holds_shape _ _ _ _ H). assert (Hl := holds_len _ _ _ _ H).
  unfold elem, at_. replace (sh (t_sh t)) with dims by (symmetry; apply Hs).
  assert (Hr := flat_range dims idx Hi). assert (Hn := in_dims_numel dims idx Hi).
  unfold t_get. assert (E := holds_load h t dims xs (flat dims idx) H ltac:(lia)).
  assert (N : nth_error xs (Z.to_nat (flat dims idx)) = Some (nth (Z.to_nat (flat dims idx)) xs d0)) by (apply nth_error_nth'; lia).
  rewrite N. split; [intros [_ A]|intros A; split; [assumption|]].
  - assert (B : Ok (nth (Z.to_nat (flat dims idx)) xs d0) = Ok v) by (rewrite <- E; exact A). congruence.
  - injection A as <-. exact E.
Qed.

Lemma elem_ex h t dims xs idx : holds h t dims xs -> in_dims dims idx -> exists v, elem h t idx v.
Proof.
  intros H Hi. exists (nth (Z.to_nat (flat dims idx)) xs d0). apply (elem_at h t dims xs); auto.
  unfold at_. apply nth_error_nth'. assert (Hr := flat_range dims idx Hi). assert (Hn := in_dims_numel dims idx Hi).
  assert (Hl := holds_len _ _ _ _ H). lia.
Qed.

Lemma live_app h o : live (h ++ [o]) = (live h + match o with Some _ => 1 | None => 0 end)%nat.
Proof. unfold live. rewrite filter_app, app_length. destruct o; simpl; lia. Qed.

Lemma made_app h s dims ys : is_shape s dims -> Z.of_nat (length ys) = numel dims ->
  made h (Tn s (Some (length h))) (h ++ [Some (Blk AArray (map Some ys))]) dims ys.
Proof.
  intros Hs Hl. split; [apply holds_new; auto|]. split; [exists (length h); auto|]. split; [apply preserved_app|].
  rewrite live_app. lia.
Qed.

Lemma made_app2 h s dims ys : is_shape s dims -> Z.of_nat (length ys) = numel dims ->
  made h (Tn s (Some (length h))) ((h ++ [Some (Blk AArray (map Some ys))]) ++ [None]) dims ys.
Proof.
  intros Hs Hl. destruct (made_app h s dims ys Hs Hl) as (A & B & C & E). split; [|split; [assumption|split]].
  - destruct A as (A1 & A2 & b & A3 & A4). split; [assumption|]. split; [assumption|]. exists b. split; [assumption|].
    apply preserved_app. assumption.
  - intros b k Hb. apply preserved_app. auto.
  - rewrite live_app. lia.
Qed.

Lemma made_holds h out h' dims ys : made h out h' dims ys -> holds h' out dims ys.
Proof. intros (H & _). exists AArray. exact H. Qed.

Lemma made_keeps h out h' dims ys t d xs : made h out h' dims ys -> holds h t d xs -> holds h' t d xs.
Proof. intros (_ & _ & H & _). now apply holds_preserved. Qed.

Lemma at_zipw (f : D -> D -> D) xs ys i x y : at_ xs i = Some x -> at_ ys i = Some y -> at_ (zipw f xs ys) i = Some (f x y).
Proof. unfold at_. intros A B. now rewrite nth_error_zipw, A, B. Qed.
Lemma at_map {A B} (f : A -> B) xs i x : at_ xs i = Some x -> at_ (map f xs) i = Some (f x).
Proof. unfold at_. intros H. now rewrite nth_error_map, H. Qed.

(** Elementwise statements from list statements. *)
Lemma elems2 h t1 t2 h' out dims xs ys (f : D -> D -> D) :
  holds h t1 dims xs -> holds h t2 dims ys -> holds h' out dims (zipw f xs ys) ->
  forall idx, in_dims dims idx -> exists x y, elem h t1 idx x /\ elem h t2 idx y /\ elem h' out idx (f x y).
Proof.
  intros H1 H2 H idx Hi. destruct (elem_ex h t1 dims xs idx H1 Hi) as (x & Hx). destruct (elem_ex h t2 dims ys idx H2 Hi) as (y & Hy).
  exists x, y. split; [assumption|]. split; [assumption|]. apply (elem_at h' out dims (zipw f xs ys)); auto.
  apply at_zipw; [apply (elem_at h t1 dims xs)|apply (elem_at h t2 dims ys)]; auto.
Qed.
Lemma elems1 h t h' out dims xs (f : D -> D) :
  holds h t dims xs -> holds h' out dims (map f xs) ->
  forall idx, in_dims dims idx -> exists x, elem h t idx x /\ elem h' out idx (f x).
Proof.
  intros H1 H idx Hi. destruct (elem_ex h t dims xs idx H1 Hi) as (x & Hx).
  exists x. split; [assumption|]. apply (elem_at h' out dims (map f xs)); auto.
  apply at_map. apply (elem_at h t dims xs); auto.
Qed.

(** A write through one tensor does not affect a tensor with another buffer. *)
Lemma set_other h t u i v h' dims xs : holds h u dims xs -> t_data t <> t_data u -> t_set t i v h = Ok h' ->
  holds h' u dims xs.
Proof.
  intros (k & Hs & Hl & b & Hb & Hk) Hne Hset. exists k. split; [assumption|]. split; [assumption|]. exists b. split; [assumption|].
  unfold t_set, store in Hset. destruct (hget h (t_data t, i)); [|discriminate]. injection Hset as <-.
  unfold hset. simpl. destruct (t_data t) as [c|]; [|assumption]. destruct (blk h c); [|assumption].
  destruct (0 <=? i); [|assumption]. rewrite blk_upd. destruct (Nat.eqb_spec b c) as [->|]; [|assumption].
  exfalso. apply Hne. congruence.
Qed.

End Elem.

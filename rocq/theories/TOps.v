(** TOps.v - exact results of the element-wise operators, equality, reductions (proofs). *)
From Verif Require Import Base Mem Par Tensor TensorOps TSpec TLemmas.
Local Open Scope Z_scope.

Section TOps.
Context {D : dtype}.
Notation heap := (heap D).
Implicit Types h : heap.

Lemma zero_cells_length n : length (zero_cells (D:=D) n) = Z.to_nat n.
Proof. apply repeat_length. Qed.

Lemma zero_cells_map n : zero_cells (D:=D) n = map Some (repeat d0 (Z.to_nat n)).
Proof. unfold zero_cells. induction (Z.to_nat n); simpl; congruence. Qed.

Lemma t_new_ok s dims h : is_shape s dims ->
  t_new s h = Ok (Tn s (Some (length h)), h ++ [Some (Blk AArray (zero_cells (numel dims)))]).
Proof.
  intros Hs. unfold t_new. rewrite (copy_shape_id s dims Hs). cbn [bind].
  rewrite (chunk0 s dims Hs). reflexivity.
Qed.

Lemma holds_shape h t dims xs : holds h t dims xs -> is_shape (t_sh t) dims.
Proof. intros (k & H & _). exact H. Qed.

Lemma holds_len h t dims xs : holds h t dims xs -> Z.of_nat (length xs) = numel dims.
Proof. intros (k & _ & H & _). exact H. Qed.

Lemma holds_load h t dims xs i : holds h t dims xs -> 0 <= i < numel dims ->
  load h (t_data t, i) = Ok (nth (Z.to_nat i) xs d0).
Proof.
  intros (k & Hs & Hl & b & -> & Hb) Hi. eapply load_blk; [exact Hb|lia|]. simpl.
  rewrite nth_error_map. rewrite (nth_error_nth' xs d0) by lia. reflexivity.
Qed.

(** Reading at an index outside the element range is undefined. *)
Lemma holds_load_oob h t dims xs i : holds h t dims xs -> ~ 0 <= i < numel dims ->
  load h (t_data t, i) = Undef OutOfBounds.
Proof.
  intros (k & Hs & Hl & b & -> & Hb) Hi. unfold load, hget, bad_addr. simpl. rewrite Hb.
  destruct (Z.leb_spec 0 i); [|reflexivity]. simpl.
  rewrite (proj2 (nth_error_None _ _)); [reflexivity|]. rewrite map_length. lia.
Qed.

Lemma numel_pos' s dims : is_shape s dims -> 0 < numel dims.
Proof. intros ((H & _) & _). now apply numel_pos. Qed.

Lemma holds_app h x t dims xs : holds h t dims xs -> holds (h ++ [x]) t dims xs.
Proof.
  intros (k & Hs & Hl & b & Hd & Hb). exists k. split; [assumption|]. split; [assumption|].
  exists b. split; [assumption|]. rewrite blk_app. assert (H := blk_lt _ _ _ Hb).
  destruct (Nat.eqb_spec b (length h)); [lia|assumption].
Qed.

Lemma preserved_app h x : preserved h (h ++ [x]).
Proof.
  intros b k Hb. rewrite blk_app. assert (H := blk_lt _ _ _ Hb).
  destruct (Nat.eqb_spec b (length h)); [lia|assumption].
Qed.

Lemma holds_new h s dims (ys : list D) k : is_shape s dims -> Z.of_nat (length ys) = numel dims ->
  holds_k k (h ++ [Some (Blk k (map Some ys))]) (Tn s (Some (length h))) dims ys.
Proof.
  intros Hs Hl. split; [assumption|]. split; [assumption|]. exists (length h). split; [reflexivity|].
  rewrite blk_app, Nat.eqb_refl. reflexivity.
Qed.

(** A loop over all [numel dims] elements of a fresh output, filling it with [ys]. *)
Lemma out_loop s h rd fn vs dims (ys : list D) :
  0 < numel dims -> Z.of_nat (length ys) = numel dims ->
  (forall i, 0 <= i < numel dims -> Forall2 (fun a v => load h a = Ok v) (rd i) (vs i)) ->
  (forall i, (i < length ys)%nat ->
     nth i ys d0 = match fn (Z.of_nat i) (vs (Z.of_nat i)) with Some v => v | None => d0 end) ->
  par_for s (map (fun i => Iter (rd i) (fn i) (Some (length h), i)) (zrange (numel dims)))
            (h ++ [Some (Blk AArray (zero_cells (numel dims)))]) =
  Ok (h ++ [Some (Blk AArray (map Some ys))]).
Proof.
  intros Hp Hl Hrd Hfn. rewrite (par_fill s h AArray _ (numel dims) rd fn vs).
  - do 3 f_equal. do 2 f_equal. apply nth_error_ext. intros i. unfold fill.
    rewrite nth_error_mapi, nth_error_map. unfold zero_cells. rewrite nth_error_repeat.
    destruct (Nat.ltb_spec i (Z.to_nat (numel dims))) as [Hi|Hi].
    + rewrite (nth_error_nth' ys d0) by lia. simpl. rewrite Z.sub_0_r.
      replace ((0 <=? Z.of_nat i) && (Z.of_nat i <? numel dims)) with true by lia.
      rewrite (Hfn i) by lia. destruct (fn _ _); reflexivity.
    + rewrite (proj2 (nth_error_None ys i)) by lia. reflexivity.
  - rewrite zero_cells_length. lia.
  - assumption.
Qed.

(** ** Unary *)
Theorem unop_ok f s t h dims xs : holds h t dims xs ->
  unop f s t h = Ok (Tn (t_sh t) (Some (length h)), h ++ [Some (Blk AArray (map Some (map f xs)))]).
Proof.
  intros Ht. assert (Hs := holds_shape _ _ _ _ Ht). unfold unop.
  rewrite (t_new_ok _ dims h Hs). cbn [bind]. rewrite (chunk0 _ dims Hs). cbn [bind t_data].
  eapply bind_eq; [|reflexivity].
  apply (out_loop s h (fun i => [(t_data t, i)]) (fun _ => f1 f) (fun i => [nth (Z.to_nat i) xs d0]) dims (map f xs)).
  - eapply numel_pos'; eauto.
  - rewrite map_length. eapply holds_len; eauto.
  - intros i Hi. constructor; [|constructor]. eapply holds_load; eauto.
  - intros i Hi. rewrite map_length in Hi. simpl. rewrite Nat2Z.id.
    rewrite (nth_indep _ d0 (f d0)) by (rewrite map_length; lia). apply map_nth.
Qed.

Theorem eqopv_ok p s t h dims xs : holds h t dims xs ->
  eqopv p s t h = Ok (Tn (t_sh t) (Some (length h)),
     h ++ [Some (Blk AArray (map Some (map (fun x => if p x then d1 else d0) xs)))]).
Proof.
  intros Ht. assert (Hs := holds_shape _ _ _ _ Ht). unfold eqopv.
  rewrite (t_new_ok _ dims h Hs). cbn [bind]. rewrite (chunk0 _ dims Hs). cbn [bind t_data].
  eapply bind_eq; [|reflexivity].
  apply (out_loop s h (fun i => [(t_data t, i)]) (fun _ => mask1 p) (fun i => [nth (Z.to_nat i) xs d0]) dims
             (map (fun x => if p x then d1 else d0) xs)).
  - eapply numel_pos'; eauto.
  - rewrite map_length. eapply holds_len; eauto.
  - intros i Hi. constructor; [|constructor]. eapply holds_load; eauto.
  - intros i Hi. rewrite map_length in Hi. simpl. rewrite Nat2Z.id.
    rewrite (nth_indep _ d0 (if p d0 then d1 else d0)) by (rewrite map_length; lia).
    rewrite (map_nth (fun x => if p x then d1 else d0)).
    destruct (p (nth i xs d0)); reflexivity.
Qed.

(** ** Shape checks *)
Lemma check_loop (f g : Z -> res Z) l (a b : Z -> Z) :
  (forall i, In i l -> f i = Ok (a i) /\ g i = Ok (b i)) ->
  foldM (fun (_ : unit) i => x <- f i ;; y <- g i ;; cassert (x =? y)) l tt =
  if forallb (fun i => a i =? b i) l then Ok tt else Abort.
Proof.
  induction l as [|i l IH]; intros H; simpl; [reflexivity|].
  destruct (H i (or_introl eq_refl)) as [-> ->]. simpl.
  destruct (a i =? b i); simpl; [|reflexivity]. apply IH. intros j Hj. apply H. now right.
Qed.

Lemma nth_eq_list (l1 l2 : list Z) : length l1 = length l2 ->
  (forall i, (i < length l1)%nat -> nth i l1 0 = nth i l2 0) -> l1 = l2.
Proof.
  revert l2; induction l1 as [|x l1 IH]; intros [|y l2] Hl H; simpl in *; try discriminate; [reflexivity|].
  f_equal; [apply (H 0%nat); lia|]. apply IH; [lia|]. intros i Hi. apply (H (S i)). lia.
Qed.

Lemma nth_skipn {A} n (l : list A) i d : nth i (skipn n l) d = nth (n + i) l d.
Proof. revert l; induction n as [|n IH]; intros l; [reflexivity|]. destruct l; simpl; [destruct i; reflexivity|apply IH]. Qed.

Lemma forallb_range n (p : Z -> bool) :
  forallb p (zrange (Z.of_nat n)) = true <-> forall i, (i < n)%nat -> p (Z.of_nat i) = true.
Proof.
  rewrite forallb_forall. split.
  - intros H i Hi. apply H. apply in_zrange. lia.
  - intros H z Hz. apply in_zrange in Hz. replace z with (Z.of_nat (Z.to_nat z)) by lia. apply H. lia.
Qed.

Lemma shape_at_nth s l i : is_shape s l -> 0 <= i < Z.of_nat (length l) ->
  shape_at s i = Ok (nth (Z.to_nat i) l 0).
Proof.
  intros Hs Hi. replace i with (Z.of_nat (Z.to_nat i)) at 1 by lia. rewrite (shape_at_spec s l _ Hs).
  rewrite (nth_error_nth' l 0) by lia. reflexivity.
Qed.

(** add.cpp:11-14 as a whole: passes iff [d2] is a suffix of [d1]. *)
Lemma suffix_check t1 t2 d1 d2 : is_shape (t_sh t1) d1 -> is_shape (t_sh t2) d2 ->
  (bind (cassert (0 <=? rank (t_sh t1) - rank (t_sh t2)))
        (fun _ => check_suffix t1 t2 (rank (t_sh t1) - rank (t_sh t2)))) =
  if (Z.of_nat (length d2) <=? Z.of_nat (length d1)) &&
     (if list_eq_dec Z.eq_dec (skipn (length d1 - length d2) d1) d2 then true else false)
  then Ok tt else Abort.
Proof.
  intros H1 H2. unfold check_suffix. rewrite (rank_spec _ _ H1), (rank_spec _ _ H2). unfold cassert at 1.
  destruct (Z.leb_spec 0 (Z.of_nat (length d1) - Z.of_nat (length d2))) as [Hle|Hlt].
  - cbn [bind]. destruct (Z.leb_spec (Z.of_nat (length d2)) (Z.of_nat (length d1))); [|lia].
    rewrite (check_loop _ _ _ (fun i => nth (Z.to_nat i) d2 0)
       (fun i => nth (Z.to_nat (i + (Z.of_nat (length d1) - Z.of_nat (length d2)))) d1 0)).
    + cbn [andb]. set (p := fun i : Z => _).
      destruct (list_eq_dec Z.eq_dec (skipn (length d1 - length d2) d1) d2) as [He|He].
      * assert (E : forallb p (zrange (Z.of_nat (length d2))) = true).
        { apply forallb_range. intros i Hi. unfold p. rewrite Nat2Z.id.
          rewrite <- He at 1. rewrite nth_skipn. apply Z.eqb_eq. f_equal. lia. }
        rewrite E. reflexivity.
      * assert (E : forallb p (zrange (Z.of_nat (length d2))) = false).
        { destruct (forallb p _) eqn:E; [|reflexivity]. exfalso. apply He. 
          assert (Hp := proj1 (forallb_range _ _) E). apply nth_eq_list.
          - rewrite skipn_length. lia.
          - rewrite skipn_length. intros i Hi. rewrite nth_skipn. specialize (Hp i ltac:(lia)). unfold p in Hp.
            rewrite Nat2Z.id in Hp. apply Z.eqb_eq in Hp. rewrite Hp. f_equal. lia. }
        rewrite E. reflexivity.
    + intros i Hi. apply in_zrange in Hi. split; apply shape_at_nth; auto; lia.
  - destruct (Z.leb_spec (Z.of_nat (length d2)) (Z.of_nat (length d1))); [lia|]. reflexivity.
Qed.

Definition is_suffix (l2 l1 : list Z) : Prop := exists pre, l1 = pre ++ l2.

Lemma suffix_iff (d1 d2 : list Z) :
  is_suffix d2 d1 <-> (length d2 <= length d1)%nat /\ skipn (length d1 - length d2) d1 = d2.
Proof.
  split.
  - intros (pre & ->). rewrite app_length. split; [lia|].
    replace (length pre + length d2 - length d2)%nat with (length pre) by lia.
    rewrite skipn_app, skipn_all, Nat.sub_diag. reflexivity.
  - intros [Hl He]. exists (firstn (length d1 - length d2) d1).
    transitivity (firstn (length d1 - length d2) d1 ++ skipn (length d1 - length d2) d1); [|now rewrite He].
    now rewrite firstn_skipn.
Qed.

Lemma suffix_check_ok t1 t2 d1 d2 : is_shape (t_sh t1) d1 -> is_shape (t_sh t2) d2 -> is_suffix d2 d1 ->
  cassert (0 <=? rank (t_sh t1) - rank (t_sh t2)) = Ok tt /\
  check_suffix t1 t2 (rank (t_sh t1) - rank (t_sh t2)) = Ok tt.
Proof.
  intros H1 H2 Hs. apply suffix_iff in Hs as [Hl He]. assert (H := suffix_check t1 t2 d1 d2 H1 H2).
  destruct (list_eq_dec Z.eq_dec (skipn (length d1 - length d2) d1) d2); [|contradiction].
  destruct (Z.leb_spec (Z.of_nat (length d2)) (Z.of_nat (length d1))); [|lia]. simpl in H.
  apply bind_ok in H as ([] & A & B). auto.
Qed.

Theorem binop_abort f s t1 t2 h d1 d2 : is_shape (t_sh t1) d1 -> is_shape (t_sh t2) d2 ->
  ~ is_suffix d2 d1 -> binop f s t1 t2 h = Abort.
Proof.
  intros H1 H2 Hn. assert (H := suffix_check t1 t2 d1 d2 H1 H2).
  assert (E : (Z.of_nat (length d2) <=? Z.of_nat (length d1)) &&
     (if list_eq_dec Z.eq_dec (skipn (length d1 - length d2) d1) d2 then true else false) = false).
  { destruct (Z.leb_spec (Z.of_nat (length d2)) (Z.of_nat (length d1))) as [Hle|]; [|reflexivity]. simpl.
    destruct (list_eq_dec _ _ _); [|reflexivity]. exfalso. apply Hn. apply suffix_iff. split; [lia|assumption]. }
  rewrite E in H. unfold binop.
  destruct (cassert (0 <=? rank (t_sh t1) - rank (t_sh t2))); cbn [bind] in *; try discriminate; [|reflexivity].
  rewrite H. reflexivity.
Qed.

(** ** Binary, equal shapes *)
Lemma nth_zipw {A B} (f : D -> A -> B) (g : B) x y l1 l2 i : 
  (i < length l1)%nat -> (i < length l2)%nat -> nth i (zipw f l1 l2) g = f (nth i l1 x) (nth i l2 y).
Proof.
  intros H1 H2. apply nth_error_nth. rewrite nth_error_zipw.
  rewrite (nth_error_nth' l1 x), (nth_error_nth' l2 y) by assumption. reflexivity.
Qed.

Lemma loop2 s h fn (g : D -> D -> D) t1 t2 dims xs ys :
  holds h t1 dims xs -> holds h t2 dims ys ->
  (forall a b, match fn [a; b] with Some v => v | None => d0 end = g a b) ->
  par_for s (map (fun i => Iter [(t_data t1, i); (t_data t2, i)] fn (Some (length h), i)) (zrange (numel dims)))
            (h ++ [Some (Blk AArray (zero_cells (numel dims)))]) =
  Ok (h ++ [Some (Blk AArray (map Some (zipw g xs ys)))]).
Proof.
  intros H1 H2 Hg. assert (L1 := holds_len _ _ _ _ H1). assert (L2 := holds_len _ _ _ _ H2).
  apply (out_loop s h (fun i => [(t_data t1, i); (t_data t2, i)]) (fun _ => fn)
             (fun i => [nth (Z.to_nat i) xs d0; nth (Z.to_nat i) ys d0]) dims (zipw g xs ys)).
  - eapply numel_pos'. eapply holds_shape; eauto.
  - rewrite zipw_length. lia.
  - intros i Hi. repeat (constructor; [eapply holds_load; eauto|]). constructor.
  - intros i Hi. rewrite zipw_length in Hi. rewrite Nat2Z.id, Hg. apply nth_zipw; lia.
Qed.

Theorem binop_same f s t1 t2 h dims xs ys : holds h t1 dims xs -> holds h t2 dims ys ->
  binop f s t1 t2 h =
  Ok (Tn (t_sh t1) (Some (length h)), h ++ [Some (Blk AArray (map Some (zipw f xs ys)))]).
Proof.
  intros H1 H2. assert (S1 := holds_shape _ _ _ _ H1). assert (S2 := holds_shape _ _ _ _ H2).
  unfold binop. destruct (suffix_check_ok t1 t2 dims dims S1 S2) as [-> ->]; [exists []; reflexivity|].
  cbn [bind]. rewrite (t_new_ok _ dims h S1). cbn [bind].
  rewrite (rank_spec _ _ S1), (rank_spec _ _ S2), Z.sub_diag, Z.eqb_refl.
  rewrite (chunk0 _ dims S1). cbn [bind t_data].
  eapply bind_eq; [apply (loop2 s h (f2 f) f t1 t2 dims xs ys); auto|reflexivity].
Qed.

(** ** Binary, broadcasting over k >= 1 missing leading axes *)
Definition bcast_upto (pre d2 : list Z) : Z :=
  chunk_spec (pre ++ d2) (length pre - 1).

Lemma chunk_spec_pos d i : signs_ok d -> (i < length d)%nat -> 0 < chunk_spec d i.
Proof.
  intros Hs Hi. destruct i as [|i]; [now apply numel_pos|]. unfold chunk_spec.
  destruct d as [|x d]; [destruct Hs|]. simpl skipn. destruct Hs as [_ Hp].
  apply prodZ_pos. clear -Hp. revert i; induction Hp as [|y l Hy Hl IH]; intros [|i]; simpl; auto.
Qed.

Lemma prodZ_app a b : prodZ (a ++ b) = prodZ a * prodZ b.
Proof.
  induction a as [|x a IH]; [change (prodZ b = 1 * prodZ b); lia|].
  change (x * prodZ (a ++ b) = x * prodZ a * prodZ b). rewrite IH. lia.
Qed.


Theorem binop_bcast f s t1 t2 h pre d2 xs ys : pre <> [] ->
  holds h t1 (pre ++ d2) xs -> holds h t2 d2 ys -> bcast_upto pre d2 <= numel (pre ++ d2) ->
  binop f s t1 t2 h =
  Ok (Tn (t_sh t1) (Some (length h)),
      h ++ [Some (Blk AArray (map Some (mapi (fun i x =>
        if Z.of_nat i <? bcast_upto pre d2 then f x (nth (Z.to_nat (Z.of_nat i mod prodZ d2)) ys d0) else d0) xs)))]).
Proof.
  intros Hpre H1 H2 Hle. assert (S1 := holds_shape _ _ _ _ H1). assert (S2 := holds_shape _ _ _ _ H2).
  assert (L1 := holds_len _ _ _ _ H1). assert (L2 := holds_len _ _ _ _ H2).
  assert (Hk : (0 < length pre)%nat) by (destruct pre; [congruence|simpl; lia]).
  assert (Hk2 : (0 < length d2)%nat) by (eapply is_shape_len; eauto).
  assert (Hpos : Forall (fun y => 0 < y) d2).
  { destruct S1 as ((Hs & _) & _). destruct pre as [|p pre]; [congruence|]. simpl in Hs.
    destruct Hs as [_ Hs]. apply Forall_app in Hs. tauto. }
  assert (Hprod : 0 < prodZ d2) by now apply prodZ_pos.
  assert (Hnum : numel d2 = prodZ d2).
  { destruct d2 as [|x d2]; [reflexivity|]. inversion Hpos; subst. unfold numel. destruct x; [lia|reflexivity|reflexivity]. }
  unfold binop. destruct (suffix_check_ok t1 t2 (pre ++ d2) d2 S1 S2) as [-> ->]; [exists pre; reflexivity|].
  cbn [bind]. rewrite (t_new_ok _ (pre ++ d2) h S1). cbn [bind].
  rewrite (rank_spec _ _ S1), (rank_spec _ _ S2), app_length.
  replace (Z.of_nat (length pre + length d2) - Z.of_nat (length d2)) with (Z.of_nat (length pre)) by lia.
  destruct (Z.eqb_spec (Z.of_nat (length pre)) 0); [lia|].
  replace (Z.of_nat (length pre) - 1) with (Z.of_nat (length pre - 1)) by lia.
  rewrite (chunk_at_spec _ (pre ++ d2) (length pre - 1) S1) by (rewrite app_length; lia). cbn [bind].
  rewrite (chunk_at_spec _ (pre ++ d2) (length pre) S1) by (rewrite app_length; lia). cbn [bind t_data].
  fold (bcast_upto pre d2).
  assert (Hmd : chunk_spec (pre ++ d2) (length pre) = prodZ d2).
  { unfold chunk_spec. destruct (length pre) eqn:E; [lia|]. rewrite <- E, skipn_app, skipn_all, Nat.sub_diag.
    reflexivity. }
  rewrite Hmd.
  assert (Hup : 0 < bcast_upto pre d2).
  { apply chunk_spec_pos; [apply S1|rewrite app_length; lia]. }
  eapply bind_eq.
  { apply (par_fill s h AArray (zero_cells (numel (pre ++ d2))) (bcast_upto pre d2)
     (fun i => [(t_data t1, i); (t_data t2, Z.rem i (prodZ d2))]) (fun _ => f2 f)
     (fun i => [nth (Z.to_nat i) xs d0; nth (Z.to_nat (i mod prodZ d2)) ys d0])).
    - rewrite zero_cells_length. lia.
    - intros i Hi. constructor; [|constructor; [|constructor]].
      + eapply holds_load; eauto. lia.
      + rewrite Z.rem_mod_nonneg by lia. eapply holds_load; eauto. rewrite Hnum. apply Z.mod_pos_bound. lia. }
  - cbn [bind]. do 3 f_equal. do 3 f_equal. apply nth_error_ext. intros i. unfold fill.
    rewrite nth_error_mapi, nth_error_map, nth_error_mapi. unfold zero_cells. rewrite nth_error_repeat.
    destruct (Nat.ltb_spec i (Z.to_nat (numel (pre ++ d2)))) as [Hi|Hi].
    + rewrite (nth_error_nth' xs d0) by lia. simpl. rewrite Z.sub_0_r, Nat2Z.id.
      replace (0 <=? Z.of_nat i) with true by lia. simpl.
      destruct (Z.of_nat i <? bcast_upto pre d2); reflexivity.
    + rewrite (proj2 (nth_error_None xs i)) by lia. reflexivity.
Qed.

End TOps.

(** P_Val.v - C75: tensor variables behave like independent immutable values. *)
From Verif Require Import Base Mem Par Tensor TensorOps TSpec TLemmas TOps TOps2 TMem TMatmul Hist HistP TVal.
Local Open Scope Z_scope.

Section Val.
Context {D : dtype}.
Notation heap := (heap D).
Notation venv := (venv D).
Implicit Types (h : heap) (a : venv).

(** The variable's C++ object shows the value: same extents; every element reads as in the value; a value without
    elements is an object without a buffer. *)
Definition shows_val h (v : val D) (t : tensor) : Prop :=
  sh (t_sh t) = v_dims v /\
  match v_els v with
  | Some xs => Z.of_nat (length xs) = numel (v_dims v) /\ forall i, 0 <= i < numel (v_dims v) -> t_get t i h = Ok (entry xs i)
  | None => t_data t = None
  end.
Definition shows (e : env) h a : Prop :=
  length e = length a /\
  forall x, match nth_error a x with
            | Some (Some v) => exists t, nth_error e x = Some (Some t) /\ shows_val h v t
            | Some None => nth_error e x = Some None
            | None => True
            end.

(** ** Lemmas *)
Definition hv h (v : val D) (t : tensor) : Prop :=
  match v_els v with Some xs => holds_k AArray h t (v_dims v) xs | None => empty_tensor t (v_dims v) end.
Definition rel (e : env) h a : Prop :=
  length e = length a /\
  forall x, match nth_error a x with
            | Some (Some v) => exists t, nth_error e x = Some (Some t) /\ hv h v t
            | Some None => nth_error e x = Some None
            | None => True
            end.
Lemma hv_shows h v t : hv h v t -> shows_val h v t.
Proof.
  unfold hv, shows_val. destruct v as [d [xs|]]; cbn [v_els v_dims].
  - intros H. split; [apply H|]. split; [apply H|]. intros i Hi. unfold t_get. rewrite (holds_load h t d xs) by (try assumption; exists AArray; assumption). reflexivity.
  - intros [A B]. split; [apply A|exact B].
Qed.
Lemma rel_shows e h a : rel e h a -> shows e h a.
Proof.
  intros [L R]. split; [exact L|]. intros x. specialize (R x). destruct (nth_error a x) as [[v|]|]; auto.
  destruct R as (t & A & B). exists t. split; [exact A|now apply hv_shows].
Qed.
Lemma rel_some e h a x v : rel e h a -> nth_error a x = Some (Some v) -> exists t, nth_error e x = Some (Some t) /\ hv h v t.
Proof. intros [_ R] H. specialize (R x). now rewrite H in R. Qed.
Lemma rel_full e h a x d : rel e h a -> full a x d -> exists t xs, nth_error a x = Some (Some (V d (Some xs))) /\ nth_error e x = Some (Some t) /\ holds_k AArray h t d xs.
Proof. intros R (xs & H). destruct (rel_some _ _ _ _ _ R H) as (t & A & B). eauto. Qed.
Lemma hv_shape h v t : hv h v t -> is_shape (t_sh t) (v_dims v).
Proof. unfold hv. destruct (v_els v); intros H; apply H. Qed.
Lemma hv_fresh h B j v t : hv h v t -> hv (h ++ Some B :: repeat None j) v t.
Proof. unfold hv. destruct (v_els v); [apply holds_fresh|auto]. Qed.

Lemma rel_var e h a x d : rel e h a -> full a x d -> var e x d.
Proof.
  intros R F. destruct (rel_full _ _ _ _ _ R F) as (t & xs & _ & E & (S & _ & b & B & _)). exists t, b. split; [exact E|]. split; [apply S|exact B].
Qed.
Lemma rel_alive e h a x : rel e h a -> exists_ a x -> alive e x.
Proof. intros R (v & H). destruct (rel_some _ _ _ _ _ R H) as (t & A & _). now exists t. Qed.
Lemma rel_wte e h a ex : rel e h a -> vwt_expr ex a -> wt_expr ex e.
Proof.
  intros R. destruct ex; cbn [vwt_expr wt_expr]; auto.
  - intros (d & F). exists d. eapply rel_var; eauto.
  - intros (d1 & d2 & F1 & F2 & C). exists d1, d2. repeat split; auto; eapply rel_var; eauto.
  - intros (d & F). exists d. eapply rel_var; eauto.
  - intros (d & F & C). exists d. split; auto. eapply rel_var; eauto.
  - intros (d1 & d2 & F1 & F2). exists d1, d2. split; eapply rel_var; eauto.
Qed.
Lemma rel_wt e h a st : rel e h a -> vwt st a -> wt st e.
Proof.
  intros R. destruct st; cbn [vwt wt]; auto.
  - intros F. eapply rel_wte; eauto.
  - intros (d & F & I). exists d. split; auto. eapply rel_var; eauto.
  - intros (d & F & I). exists d. split; auto. eapply rel_var; eauto.
  - intros (A & I). split; auto. eapply rel_alive; eauto.
  - intros (d1 & d2 & F1 & F2 & E). exists d1, d2. repeat split; auto; eapply rel_var; eauto.
  - intros (A & F). split; [eapply rel_alive; eauto|eapply rel_wte; eauto].
  - intros (A & B & N). repeat split; auto; eapply rel_alive; eauto.
  - intros ((d1 & d2 & F1 & F2) & A & N1 & N2). repeat split; auto; [|eapply rel_alive; eauto]. exists d1, d2. split; eapply rel_var; eauto.
  - intros A. eapply rel_alive; eauto.
Qed.

Lemma signsb_iff d : signsb d = true <-> signs_ok d.
Proof.
  destruct d as [|x r]; cbn; [split; [discriminate|tauto]|]. rewrite andb_true_iff, Z.leb_le, forallb_pos. reflexivity.
Qed.
Lemma fitsb_iff d : fitsb d = true <-> fits d.
Proof.
  induction d as [|x r IH]; [split; [intros _; apply fits_nil|reflexivity]|]. cbn [fitsb]. rewrite fits_cons, andb_true_iff, Z.leb_le, IH. reflexivity.
Qed.

(** What an expression gives, next to what its value semantics gives. *)
Definition agrees_e h (r : res (tensor * heap)) (v : res (val D)) : Prop :=
  match v with
  | Ok v => exists s ys j, v_els v = Some ys /\ is_shape s (v_dims v) /\ Z.of_nat (length ys) = numel (v_dims v) /\
      r = Ok (Tn s (Some (length h)), h ++ Some (Blk AArray (map Some ys)) :: repeat None j)
  | Abort => r = Abort | Undef u => r = Undef u | Throw => r = Throw
  end.
Lemma agrees_one h s d ys : is_shape s d -> Z.of_nat (length ys) = numel d ->
  agrees_e h (Ok (Tn s (Some (length h)), h ++ [Some (Blk AArray (map Some ys))])) (Ok (V d (Some ys))).
Proof. intros A B. exists s, ys, 0%nat. auto. Qed.
Lemma fill_cases d xs (r : res (tensor * heap)) h : ints d ->
  (valid_dims d -> agrees_e h r (Ok (V d (Some xs)))) -> (mk_shape d = Abort -> r = Abort) -> (mk_shape d = Undef IntOverflow -> r = Undef IntOverflow) ->
  agrees_e h r (fill d xs).
Proof.
  intros I A B C. unfold fill. destruct (signsb d) eqn:S.
  - apply signsb_iff in S. destruct (fitsb d) eqn:F.
    + apply fitsb_iff in F. apply A. split; assumption.
    + apply C. apply mk_shape_undef; auto. intros F'. apply fitsb_iff in F'. congruence.
  - apply B. apply mk_shape_abort; auto. intros S'. apply signsb_iff in S'. congruence.
Qed.
Lemma tab_mapi (f : D -> D -> D) (xs ys : list D) n m up : Z.of_nat (length xs) = n ->
  mapi (fun i x => if Z.of_nat i <? up then f x (nth (Z.to_nat (Z.of_nat i mod m)) ys d0) else d0) xs =
  tab n (fun i => if i <? up then f (entry xs i) (entry ys (i mod m)) else d0).
Proof.
  intros L. apply nth_error_ext. intros i. rewrite nth_error_mapi. unfold tab. rewrite nth_error_map.
  destruct (lt_dec i (length xs)) as [Hi|Hi].
  - rewrite zrange_nth by lia. rewrite (nth_error_nth' xs d0 Hi). cbn [option_map]. unfold entry. rewrite Nat2Z.id. reflexivity.
  - rewrite (proj2 (nth_error_None xs i)) by lia. rewrite (proj2 (nth_error_None (zrange n) i)) by (rewrite zrange_length; lia). reflexivity.
Qed.
Lemma same_iff d1 d2 : same d1 d2 = true <-> d1 = d2.
Proof. unfold same. destruct (list_eq_dec Z.eq_dec d1 d2); split; congruence. Qed.
Lemma holds_hk h t d xs : holds_k AArray h t d xs -> holds h t d xs. Proof. intros H. now exists AArray. Qed.
Lemma tab_len n f : 0 <= n -> Z.of_nat (length (tab (D := D) n f)) = n.
Proof. intros H. unfold tab. rewrite map_length, zrange_length. lia. Qed.

Lemma arith_agrees f s h t1 t2 d1 d2 xs ys : holds_k AArray h t1 d1 xs -> holds_k AArray h t2 d2 ys ->
  hd 0 d1 <> 0 \/ (length d1 <= length d2 + 1)%nat -> agrees_e h (binop f s t1 t2 h) (v_arith f d1 xs d2 ys).
Proof.
  intros H1 H2 C. apply holds_hk in H1, H2. assert (S1 := holds_shape _ _ _ _ H1). assert (S2 := holds_shape _ _ _ _ H2).
  assert (L1 := holds_len _ _ _ _ H1). assert (L2 := holds_len _ _ _ _ H2).
  unfold v_arith. destruct (same d1 d2) eqn:E.
  - apply same_iff in E. subst d2. rewrite (binop_same f s t1 t2 h d1 xs ys) by assumption. apply agrees_one; [assumption|]. rewrite zipw_length. lia.
  - assert (N : d1 <> d2) by (intros ->; rewrite (proj2 (same_iff d2 d2) eq_refl) in E; discriminate).
    destruct (Nat.ltb_spec (length d2) (length d1)) as [Hl|Hl].
    + cbn [andb]. destruct (same (skipn (length d1 - length d2) d1) d2) eqn:E2.
      * apply same_iff in E2. set (k := (length d1 - length d2)%nat) in *.
        assert (Ed : firstn k d1 ++ d2 = d1) by (rewrite <- E2; apply firstn_skipn).
        assert (Lk : length (firstn k d1) = k) by (rewrite firstn_length; unfold k; lia).
        assert (Kp : (0 < k)%nat) by (unfold k; lia).
        assert (Pn : firstn k d1 <> []) by (intros Z0; rewrite Z0 in Lk; cbn in Lk; lia).
        assert (Up : bcast_upto (firstn k d1) d2 = match k with 1%nat => numel d1 | _ => prodZ (skipn (k - 1) d1) end).
        { unfold bcast_upto. rewrite Ed, Lk. destruct k as [|[|k']]; [lia|reflexivity|]. cbn [Nat.sub chunk_spec]. rewrite ?Nat.sub_0_r. reflexivity. }
        assert (R : bcast_upto (firstn k d1) d2 <= numel (firstn k d1 ++ d2)).
        { apply bcast_in_range; [rewrite Ed; apply S1|assumption|]. destruct C as [C|C].
          - left. destruct d1 as [|z d1]; [cbn in Hl; lia|]. destruct k; [lia|]. exact C.
          - right. rewrite Lk. unfold k in *. lia. }
        rewrite (binop_bcast f s t1 t2 h (firstn k d1) d2 xs ys); try assumption; [|rewrite Ed; assumption].
        rewrite (tab_mapi f xs ys (numel d1)) by lia. rewrite Up. apply agrees_one; [assumption|]. apply tab_len. lia.
      * cbn. rewrite (binop_abort f s t1 t2 h d1 d2); auto. rewrite suffix_iff. intros [_ E3]. rewrite (proj2 (same_iff _ _) E3) in E2. discriminate.
    + cbn [andb]. rewrite (binop_abort f s t1 t2 h d1 d2); auto; [reflexivity|]. rewrite suffix_iff. intros [E3 E4].
      assert (L : (length d1 - length d2 = 0)%nat) by lia. rewrite L in E4. cbn in E4. congruence.
Qed.
Lemma mask_agrees p s h t1 t2 d1 d2 xs ys : holds_k AArray h t1 d1 xs -> holds_k AArray h t2 d2 ys -> numel d1 <= numel d2 ->
  agrees_e h (eqop p s t1 t2 h) (v_mask p d1 xs d2 ys).
Proof.
  intros H1 H2 C. apply holds_hk in H1, H2. assert (S1 := holds_shape _ _ _ _ H1). assert (S2 := holds_shape _ _ _ _ H2).
  assert (L1 := holds_len _ _ _ _ H1). assert (L2 := holds_len _ _ _ _ H2).
  unfold v_mask. destruct (Nat.eqb_spec (length d1) (length d2)) as [E|E].
  - rewrite (eqop_ok p s t1 t2 h d1 d2 xs ys) by assumption. apply agrees_one; [assumption|]. rewrite zipw_length. lia.
  - rewrite (eqop_abort p s t1 t2 h d1 d2) by assumption. reflexivity.
Qed.
Lemma red_agrees r s h t axis d xs : holds_k AArray h t d xs -> match r with RSum | RMean => True | RMax | RMin => axis = 0 -> hd 0 d <> 0 end ->
  agrees_e h (do_rop r s t axis h) (v_red r axis d xs).
Proof.
  intros H C. apply holds_hk in H. assert (S := holds_shape _ _ _ _ H).
  destruct (Nat.eq_dec (length d) 2) as [H2|H2].
  2:{ assert (E : v_red r axis d xs = Abort) by (destruct d as [|? [|? [|? ?]]]; cbn in H2; try lia; reflexivity).
      rewrite E. destruct r; cbn [do_rop agrees_e]; unfold op_reduce_sum, op_reduce_mean, op_argmax, op_argmin; try (rewrite (redop_abort _ s t axis h d) by assumption); try (rewrite (argop_abort _ s t axis h d) by assumption); reflexivity. }
  destruct d as [|rows [|cols [|? ?]]]; cbn in H2; try lia.
  destruct (valid2 rows cols (proj1 S)) as (Hr & Hcl & Hm & Hcm & Hrm).
  destruct (mk1' rows ltac:(lia)) as [_ SR]. destruct (mk1' cols ltac:(lia)) as [_ SC].
  assert (G : forall (r0 : res (tensor * heap)), r0 = (if axis =? 0
     then Ok (Tn (shape1 cols) (Some (length h)), h ++ [Some (Blk AArray (map Some (red_result cols (fun i => v_red1 r (colvals xs rows cols i)))))])
     else Ok (Tn (shape1 rows) (Some (length h)), h ++ [Some (Blk AArray (map Some (red_result rows (fun i => v_red1 r (rowvals xs cols i)))))])) ->
     agrees_e h r0 (v_red r axis [rows; cols] xs)).
  { intros r0 ->. unfold v_red, red_result. destruct (axis =? 0).
    - destruct (Z.eqb_spec cols 0); [lia|]. apply agrees_one; [assumption|]. rewrite numel1 by lia. destruct (Z.eqb_spec cols 0); [lia|]. apply tab_len. lia.
    - apply agrees_one; [assumption|]. rewrite numel1 by lia. destruct (Z.eqb_spec rows 0); [reflexivity|]. apply tab_len. lia. }
  apply G. assert (LC : forall i, Z.of_nat (length (colvals xs rows cols i)) = rows) by (intros; unfold colvals; rewrite map_length, zrange_length; lia).
  assert (LR : forall i, Z.of_nat (length (rowvals xs cols i)) = cols) by (intros; unfold rowvals; rewrite map_length, zrange_length; lia).
  assert (RX : forall n (f g : Z -> D), (forall i, f i = g i) -> red_result n f = red_result n g) by (intros n f g E; unfold red_result; destruct (n =? 0); [reflexivity|]; apply map_ext; exact E).
  destruct r; cbn [do_rop v_red1 hd] in *; unfold op_reduce_sum, op_reduce_mean, op_argmax, op_argmin.
  - rewrite (redop_ok _ s t axis h rows cols xs H). reflexivity.
  - rewrite (redop_ok _ s t axis h rows cols xs H). destruct (axis =? 0).
    + rewrite (RX cols _ (fun i => ddiv (fold_left dadd (colvals xs rows cols i) d0) (dofZ (Z.of_nat (length (colvals xs rows cols i)))))); [reflexivity|]. intros i. now rewrite LC.
    + rewrite (RX rows _ (fun i => ddiv (fold_left dadd (rowvals xs cols i) d0) (dofZ (Z.of_nat (length (rowvals xs cols i)))))); [reflexivity|]. intros i. now rewrite LR.
  - rewrite (argop_ok _ s t axis h rows cols xs H) by (intros E; specialize (C E); lia). reflexivity.
  - rewrite (argop_ok _ s t axis h rows cols xs H) by (intros E; specialize (C E); lia). reflexivity.
Qed.
Lemma compat_dec d1 d2 : mm_compatible d1 d2 \/ ~ mm_compatible d1 d2.
Proof.
  unfold mm_compatible. destruct d1 as [|m [|k [|? ?]]]; try (right; intros (? & ? & ? & E & _); discriminate).
  destruct d2 as [|k' [|n [|? ?]]]; try (right; intros (? & ? & ? & _ & E & _); discriminate).
  destruct (Z.eq_dec k k') as [->|]; [|right; intros (? & ? & ? & E1 & E2 & _); injection E1; injection E2; lia].
  destruct (Z_lt_dec 0 m); [|right; intros (? & ? & ? & E1 & E2 & ?); injection E1; injection E2; lia].
  destruct (Z_lt_dec 0 k'); [|right; intros (? & ? & ? & E1 & E2 & ?); injection E1; injection E2; lia].
  destruct (Z_lt_dec 0 n); [|right; intros (? & ? & ? & E1 & E2 & ?); injection E1; injection E2; lia].
  left. exists m, k', n. auto.
Qed.
Lemma v_mat_ok m k n (xs ys : list D) : 0 < m -> 0 < k -> 0 < n -> v_mat [m; k] xs [k; n] ys = if m * n <=? INT_MAX then Ok (V [m; n] (Some (mm_list xs ys m k n))) else Undef IntOverflow.
Proof.
  intros A B C. unfold v_mat. rewrite Z.eqb_refl. rewrite (proj2 (Z.ltb_lt 0 m) A), (proj2 (Z.ltb_lt 0 k) B), (proj2 (Z.ltb_lt 0 n) C). reflexivity.
Qed.
Lemma v_mat_abort d1 d2 (xs ys : list D) : ~ mm_compatible d1 d2 -> v_mat d1 xs d2 ys = Abort.
Proof.
  intros N. destruct d1 as [|m [|k [|? ?]]]; try reflexivity. destruct d2 as [|k' [|n [|? ?]]]; try reflexivity. unfold v_mat.
  destruct (Z.eqb_spec k k') as [->|]; [|reflexivity]. destruct (Z.ltb_spec 0 m); [|reflexivity]. destruct (Z.ltb_spec 0 k'); [|reflexivity]. destruct (Z.ltb_spec 0 n); [|reflexivity].
  exfalso. apply N. exists m, k', n. auto.
Qed.
Lemma vget_full a x d xs : nth_error a x = Some (Some (V d (Some xs))) -> vget a x = Ok (d, xs).
Proof. intros H. unfold vget. now rewrite H. Qed.

Lemma eval_agrees ex e h a : rel e h a -> vwt_expr ex a -> agrees_e h (eval ex e h) (veval ex a).
Proof.
  intros R W. destruct ex as [dims|dims|n|draw dims|x|b s x y|u s x|r s x axis|sch x y]; cbn [vwt_expr] in W; cbn [eval veval].
  - apply fill_cases; [assumption|intros Hv|intros E|intros E].
    + destruct (t_new_dims_ok (D:=D) dims h W Hv) as (s' & Hs' & _ & ->). apply agrees_one; [assumption|]. rewrite repeat_length. assert (Hp := numel_pos' _ _ Hs'). lia.
    + unfold t_new_dims. now rewrite E.
    + unfold t_new_dims. now rewrite E.
  - apply fill_cases; [assumption|intros Hv|intros E|intros E].
    + destruct (t_ones_ok (D:=D) dims h W Hv) as (s' & Hs' & ->). apply agrees_one; [assumption|]. rewrite repeat_length. assert (Hp := numel_pos' _ _ Hs'). lia.
    + unfold t_ones. now rewrite E.
    + unfold t_ones. now rewrite E.
  - assert (W' : ints [n; n]) by (repeat constructor; lia). destruct (Z.ltb_spec 0 n) as [Hn|Hn].
    + apply fill_cases; [assumption|intros Hv|intros E|intros E].
      * destruct (valid2 n n Hv) as (H0 & H1 & H2 & _). destruct (t_eyes_ok (D:=D) n h H1 H2) as (s' & Hs' & ->). apply agrees_one; [assumption|].
        rewrite numel2 by lia. apply tab_len. nia.
      * unfold t_eyes. now rewrite E.
      * unfold t_eyes. now rewrite E.
    + cbn. unfold t_eyes. rewrite (proj2 (mk_shape_abort [n; n] W')); [reflexivity|]. intros (_ & F). inversion F; subst; lia.
  - apply fill_cases; [assumption|intros Hv|intros E|intros E].
    + destruct (t_gaussian_ok draw dims h W Hv) as (s' & Hs' & ->). apply agrees_one; [assumption|]. apply tab_len. assert (Hp := numel_pos' _ _ Hs'). lia.
    + unfold t_gaussian. now rewrite E.
    + unfold t_gaussian. now rewrite E.
  - destruct W as (d & F). destruct (rel_full _ _ _ _ _ R F) as (t & xs & V1 & O & H). rewrite (proj2 (obj_ok _ _ _) O), (vget_full _ _ _ _ V1). cbn [bind].
    rewrite (t_copy_ok t h d xs) by now apply holds_hk. apply agrees_one; apply H.
  - destruct W as (d1 & d2 & F1 & F2 & C). destruct (rel_full _ _ _ _ _ R F1) as (t1 & xs & V1 & O1 & H1). destruct (rel_full _ _ _ _ _ R F2) as (t2 & ys & V2 & O2 & H2).
    rewrite (proj2 (obj_ok _ _ _) O1), (vget_full _ _ _ _ V1), (proj2 (obj_ok _ _ _) O2), (vget_full _ _ _ _ V2). cbn [bind].
    destruct b; cbn [do_bop v_bin]; try (apply arith_agrees; assumption); try (apply mask_agrees; assumption).
    + apply holds_hk in H1, H2. destruct (same d1 d2) eqn:E.
      * apply same_iff in E. subst d2. rewrite (pow_ok s t1 t2 h d1 xs ys) by assumption. apply agrees_one; [apply (holds_shape _ _ _ _ H1)|].
        assert (L1 := holds_len _ _ _ _ H1). assert (L2 := holds_len _ _ _ _ H2). rewrite zipw_length. lia.
      * cbn. apply (pow_abort s t1 t2 h d1 d2); [apply (holds_shape _ _ _ _ H1)|apply (holds_shape _ _ _ _ H2)|]. intros ->. rewrite (proj2 (same_iff d2 d2) eq_refl) in E. discriminate.
    + unfold op_equal, cassert. destruct (dleb d0 eps); cbn [bind]; [apply mask_agrees; assumption|reflexivity].
  - destruct W as (d & F). destruct (rel_full _ _ _ _ _ R F) as (t & xs & V1 & O & H). rewrite (proj2 (obj_ok _ _ _) O), (vget_full _ _ _ _ V1). cbn [bind].
    assert (G := holds_hk _ _ _ _ H).
    assert (Hun : forall f, agrees_e h (unop f s t h) (Ok (V d (Some (map f xs))))).
    { intros f. rewrite (unop_ok f s t h d xs G). apply agrees_one; [apply H|]. rewrite map_length. apply H. }
    assert (Heq : forall p, agrees_e h (eqopv p s t h) (Ok (V d (Some (map (fun x => mask01 (p x)) xs))))).
    { intros p. rewrite (eqopv_ok p s t h d xs G). apply agrees_one; [apply H|]. rewrite map_length. apply H. }
    destruct u; cbn [do_uop v_un]; try apply Hun; try apply Heq.
    unfold op_equalv, cassert. destruct (dleb d0 eps); cbn [bind]; [apply Heq|reflexivity].
  - destruct W as (d & F & C). destruct (rel_full _ _ _ _ _ R F) as (t & xs & V1 & O & H). rewrite (proj2 (obj_ok _ _ _) O), (vget_full _ _ _ _ V1). cbn [bind].
    apply red_agrees; assumption.
  - destruct W as (d1 & d2 & F1 & F2). destruct (rel_full _ _ _ _ _ R F1) as (t1 & xs & V1 & O1 & H1). destruct (rel_full _ _ _ _ _ R F2) as (t2 & ys & V2 & O2 & H2).
    rewrite (proj2 (obj_ok _ _ _) O1), (vget_full _ _ _ _ V1), (proj2 (obj_ok _ _ _) O2), (vget_full _ _ _ _ V2). cbn [bind].
    apply holds_hk in H1, H2. destruct (compat_dec d1 d2) as [(m & k & n & -> & -> & Hm & Hk & Hn)|N].
    + rewrite v_mat_ok by assumption. destruct (Z.leb_spec (m * n) INT_MAX).
      * rewrite (op_matmul_ok sch t1 t2 h m k n xs ys) by assumption. destruct (mk2 m n Hm Hn H) as [_ Ss].
        exists (shape2 m n), (mm_list xs ys m k n), 1%nat. split; [reflexivity|]. split; [assumption|]. split.
        -- cbn [v_dims]. rewrite mm_list_length, numel2 by assumption. nia.
        -- simpl. rewrite <- app_assoc. reflexivity.
      * cbn. apply (op_matmul_overflow sch t1 t2 h m k n xs ys); assumption.
    + rewrite v_mat_abort by assumption. cbn. apply (op_matmul_abort sch t1 t2 h d1 d2); [apply (holds_shape _ _ _ _ H1)|apply (holds_shape _ _ _ _ H2)|assumption].
Qed.

Lemma rel_put e h a h' x (o : option tensor) (ov : option (val D)) : rel e h a ->
  (forall y v t, y <> x -> nth_error e y = Some (Some t) -> hv h v t -> hv h' v t) ->
  match o, ov with Some t, Some v => hv h' v t | None, None => True | _, _ => False end -> rel (upd x o e) h' (upd x ov a).
Proof.
  intros [L R] K P. split; [rewrite !upd_length; exact L|]. intros y. specialize (R y). rewrite !nth_error_upd. destruct (Nat.eqb_spec y x) as [->|N].
  - destruct (nth_error a x) as [o1|] eqn:E1; [|exact I]. assert (Hx : (x < length e)%nat) by (rewrite L; apply nth_error_Some; congruence).
    destruct (nth_error e x) as [o2|] eqn:E2; [|apply nth_error_None in E2; lia]. destruct o, ov; try contradiction; eauto.
  - destruct (nth_error a y) as [[v|]|]; auto. destruct R as (t & A & B). exists t. split; [exact A|]. eapply K; eauto.
Qed.
Lemma rel_snoc e h a h' t v : rel e h a -> (forall v t, hv h v t -> hv h' v t) -> hv h' v t -> rel (e ++ [Some t]) h' (a ++ [Some v]).
Proof.
  intros [L R] K P. split; [rewrite !app_length; cbn; lia|]. intros y. specialize (R y). destruct (lt_dec y (length a)) as [Hy|Hy].
  - rewrite !nth_error_app1 by lia. destruct (nth_error a y) as [[w|]|]; auto. destruct R as (u & A & B). eauto.
  - rewrite !nth_error_app2 by lia. rewrite L. destruct (y - length a)%nat as [|q]; cbn [nth_error]; [eauto|]. destruct q; exact I.
Qed.
Lemma hv_other L e h x y t u b B v : inv L e h -> nth_error e x = Some (Some t) -> t_data t = Some b -> y <> x -> nth_error e y = Some (Some u) -> hv h v u -> hv (upd b B h) v u.
Proof.
  intros I X Hb N Y. unfold hv. destruct (v_els v) as [xs|]; [|auto]. intros (S & Ln & c & C & K). split; [exact S|]. split; [exact Ln|]. exists c. split; [exact C|].
  rewrite blk_upd. destruct (Nat.eqb_spec c b) as [->|]; [|exact K]. exfalso. apply N. eapply (inv_sep _ _ _ I); eauto.
Qed.
Lemma hv_none h j v t : hv h v t -> hv (h ++ repeat None j) v t.
Proof.
  unfold hv. destruct (v_els v) as [xs|]; [|auto]. intros (S & L & b & B & K). split; [exact S|]. split; [exact L|]. exists b. split; [exact B|].
  unfold blk in *. rewrite nth_error_app1; [exact K|]. apply nth_error_Some. destruct (nth_error h b); [discriminate|discriminate].
Qed.
Lemma hv_inplace h (t t' : tensor) b xs d : (exists k, blk h b = Some k) -> t_data t' = Some b -> is_shape (t_sh t') d -> Z.of_nat (length xs) = numel d -> hv (upd b (Some (Blk AArray (map Some xs))) h) (V d (Some xs)) t'.
Proof.
  intros (k & K) B S L. cbn. split; [exact S|]. split; [exact L|]. exists b. split; [exact B|]. rewrite blk_upd, Nat.eqb_refl.
  unfold blk in K. destruct (nth_error h b); [reflexivity|discriminate].
Qed.

Definition agrees_s (r : res (state (D := D))) (v : res venv) : Prop :=
  match v with
  | Ok a => exists e h, r = Ok (e, h) /\ rel e h a
  | Abort => r = Abort | Undef u => r = Undef u | Throw => r = Throw
  end.
Lemma fresh_hv h s ys j d : is_shape s d -> Z.of_nat (length ys) = numel d -> hv (h ++ Some (Blk AArray (map Some ys)) :: repeat None j) (V d (Some ys)) (Tn s (Some (length h))).
Proof.
  intros S L. cbn. split; [exact S|]. split; [exact L|]. exists (length h). split; [reflexivity|]. rewrite blk_fresh, Nat.eqb_refl. reflexivity.
Qed.
Lemma exec_agrees L st e h a : inv L e h -> rel e h a -> vwt st a -> agrees_s (exec st (e, h)) (vexec st a).
Proof.
  intros Hi R W. destruct st as [ex| |x i|x i v|x dims|x y|x ex|x y|sch x y z|x]; cbn [vwt] in W; cbn [exec vexec].
  - assert (A := eval_agrees ex e h a R W). destruct (veval ex a) as [[d els]|u| |]; cbn [bind agrees_e agrees_s] in *; try (rewrite A; reflexivity).
    destruct A as (s & ys & j & E1 & Sh & Ln & E). cbn in E1. subst els. rewrite E. cbn [bind]. do 2 eexists. split; [reflexivity|].
    eapply rel_snoc; [exact R|intros; now apply hv_fresh|]. apply fresh_hv; assumption.
  - unfold t_default. destruct (mk1' 0) as [-> S0]; [unfold INT_MAX; lia|]. cbn [bind]. do 2 eexists. split; [reflexivity|].
    eapply rel_snoc; [exact R|auto|]. split; [exact S0|reflexivity].
  - destruct W as (d & F & I). destruct (rel_full _ _ _ _ _ R F) as (t & xs & V1 & O & H). rewrite (proj2 (obj_ok _ _ _) O). cbn [bind]. unfold t_get.
    rewrite (holds_load h t d xs) by (try assumption; now apply holds_hk). cbn [bind]. do 2 eexists. split; [reflexivity|exact R].
  - destruct W as (d & F & I). destruct (rel_full _ _ _ _ _ R F) as (t & xs & V1 & O & H). rewrite (proj2 (obj_ok _ _ _) O), (vget_full _ _ _ _ V1). cbn [bind].
    destruct H as (Hs & Hl & b & Hb & Hk).
    assert (X : t_set t i v h = Ok (upd b (Some (Blk AArray (upd (Z.to_nat i) (Some v) (map Some xs)))) h)).
    { unfold t_set. rewrite Hb. apply hset_blk; [assumption|rewrite map_length; lia]. }
    rewrite X. clear X. cbn [bind].
    do 2 eexists. split; [reflexivity|].
    assert (E : upd (Z.to_nat i) (Some v) (map Some xs) = map Some (upd (Z.to_nat i) v xs)).
    { generalize (Z.to_nat i). clear. induction xs as [|a xs IH]; intros [|n]; simpl; try reflexivity. f_equal. apply IH. }
    rewrite E. rewrite <- (upd_id e x (Some t) O) at 1. eapply rel_put; [exact R| |].
    + intros y w u N Y K. exact (hv_other L e h x y t u b _ w Hi O Hb N Y K).
    + apply (hv_inplace h t); try assumption; [eauto|]. rewrite upd_length. exact Hl.
  - destruct W as ((v & Hv) & Hints). destruct (rel_some _ _ _ _ _ R Hv) as (t & O & H). rewrite (proj2 (obj_ok _ _ _) O), Hv. cbn [bind].
    destruct v as [d els]. unfold t_reshape, fill. destruct (signsb dims) eqn:S.
    2:{ rewrite (proj2 (mk_shape_abort dims Hints)); [reflexivity|]. intros S'. apply signsb_iff in S'. congruence. }
    apply signsb_iff in S. destruct (fitsb dims) eqn:F.
    2:{ rewrite mk_shape_undef; auto; [reflexivity|]. intros F'. apply fitsb_iff in F'. congruence. }
    apply fitsb_iff in F. rewrite mk_shape_ok by (try assumption; split; assumption). cbn [bind].
    assert (Hs : is_shape (TSh dims (map (chunk_spec dims) (seq 0 (length dims)))) dims) by (repeat split; assumption).
    assert (St := hv_shape _ _ _ H). cbn [v_dims] in St.
    rewrite (chunk0 _ _ Hs). cbn [bind]. rewrite (chunk0 _ _ St). cbn [bind]. unfold cassert.
    destruct (Z.eqb_spec (numel dims) (numel d)) as [En|]; cbn [bind]; [|reflexivity].
    rewrite (assign_shape_id _ _ dims Hs). cbn [bind]. do 2 eexists. split; [reflexivity|].
    eapply rel_put; [exact R|auto|]. unfold hv in *. cbn [v_els v_dims] in *. destruct els as [xs|].
    + destruct H as (A & B & b & C & K). split; [exact Hs|]. split; [lia|]. exists b. auto.
    + destruct H as (A & B). split; assumption.
  - destruct W as (d1 & d2 & F1 & F2 & En). destruct (rel_full _ _ _ _ _ R F1) as (tx & xs & V1 & O1 & H1). destruct (rel_full _ _ _ _ _ R F2) as (ty & ys & V2 & O2 & H2).
    rewrite (proj2 (obj_ok _ _ _) O1), (proj2 (obj_ok _ _ _) O2), (vget_full _ _ _ _ V2). cbn [bind].
    rewrite (assign_same tx ty h AArray d1 xs d2 ys) by (try assumption; now apply holds_hk). cbn [bind]. do 2 eexists. split; [reflexivity|].
    destruct H1 as (_ & _ & b & Hb & Hk). rewrite Hb. eapply rel_put; [exact R| |].
    + intros z w u N Y K. exact (hv_other L e h x z tx u b _ w Hi O1 Hb N Y K).
    + apply (hv_inplace h tx); [eauto|reflexivity|apply H2|apply H2].
  - destruct W as ((w & Hw) & W). destruct (rel_some _ _ _ _ _ R Hw) as (tx & O & H).
    assert (A := eval_agrees ex e h a R W). destruct (veval ex a) as [[d els]|u| |]; cbn [bind agrees_e agrees_s] in *; try (rewrite A; reflexivity).
    destruct A as (s & ys & j & E1 & Sh & Ln & E). cbn in E1, Sh, Ln. subst els. rewrite E. cbn [bind]. unfold move_assign_tmp. rewrite (proj2 (obj_ok _ _ _) O). cbn [bind t_sh t_data].
    rewrite (assign_shape_id _ _ d Sh). cbn [bind]. do 2 eexists. split; [reflexivity|].
    eapply rel_put; [exact R|intros; now apply hv_fresh|]. apply fresh_hv; assumption.
  - destruct W as ((vx & Vx) & (vy & Vy) & N). destruct (rel_some _ _ _ _ _ R Vx) as (tx & Ox & Hx). destruct (rel_some _ _ _ _ _ R Vy) as (ty & Oy & Hy).
    destruct vy as [d els]. rewrite Vy. assert (St := hv_shape _ _ _ Hy). cbn in St. unfold move_assign.
    rewrite (proj2 (obj_ok _ _ _) Oy), (proj2 (obj_ok _ _ _) Ox). cbn [bind].
    assert (E1 : obj (upd x (Some (Tn (t_sh tx) (t_data ty))) e) y = Ok ty).
    { apply obj_ok. rewrite nth_error_upd. destruct (Nat.eqb_spec y x); [congruence|assumption]. }
    rewrite E1. cbn [bind].
    assert (E2 : obj (upd y (Some (Tn (t_sh ty) None)) (upd x (Some (Tn (t_sh tx) (t_data ty))) e)) y = Ok (Tn (t_sh ty) None)).
    { apply obj_ok. rewrite nth_error_upd, Nat.eqb_refl. rewrite nth_error_upd. destruct (Nat.eqb_spec y x); [congruence|]. now rewrite Oy. }
    assert (E3 : obj (upd y (Some (Tn (t_sh ty) None)) (upd x (Some (Tn (t_sh tx) (t_data ty))) e)) x = Ok (Tn (t_sh tx) (t_data ty))).
    { apply obj_ok. rewrite nth_error_upd. destruct (Nat.eqb_spec x y); [congruence|]. rewrite nth_error_upd, Nat.eqb_refl, Ox. reflexivity. }
    rewrite E2, E3. cbn [bind t_sh t_data]. rewrite (assign_shape_id _ _ d St). cbn [bind]. do 2 eexists. split; [reflexivity|].
    replace (upd x (Some (Tn (t_sh ty) (t_data ty))) (upd y (Some (Tn (t_sh ty) None)) (upd x (Some (Tn (t_sh tx) (t_data ty))) e)))
      with (upd x (Some ty) (upd y (Some (Tn (t_sh ty) None)) e)).
    2:{ apply nth_error_ext. intros k. rewrite !nth_error_upd. destruct (Nat.eqb_spec k x) as [->|].
        + destruct (Nat.eqb_spec x y); [congruence|]. rewrite Nat.eqb_refl, Ox. destruct ty; reflexivity.
        + destruct (Nat.eqb_spec k y) as [->|]; [|reflexivity]. destruct (Nat.eqb_spec y x); [congruence|reflexivity]. }
    apply (rel_put _ h _ h); [apply (rel_put e h a h); [exact R|auto|split; [exact St|reflexivity]]|auto|exact Hy].
  - destruct W as ((d1 & d2 & F1 & F2) & (vz & Vz) & Nx & Ny).
    destruct (rel_full _ _ _ _ _ R F1) as (t1 & xs & V1 & O1 & H1). destruct (rel_full _ _ _ _ _ R F2) as (t2 & ys & V2 & O2 & H2). destruct (rel_some _ _ _ _ _ R Vz) as (to & Oz & Hz).
    rewrite (vget_full _ _ _ _ V1), (vget_full _ _ _ _ V2), Vz. cbn [bind].
    assert (G1 := holds_hk _ _ _ _ H1). assert (G2 := holds_hk _ _ _ _ H2).
    destruct (compat_dec d1 d2) as [(m & k & n & -> & -> & Hm & Hk & Hn)|Hnc].
    2:{ rewrite v_mat_abort by assumption. rewrite (matmul_abort sch x y z e h t1 t2 to d1 d2) by (auto; try apply H1; apply H2). reflexivity. }
    rewrite v_mat_ok by assumption. destruct (Z.leb_spec (m * n) INT_MAX) as [Hle|Hgt].
    2:{ rewrite (matmul_overflow sch x y z e h t1 t2 to m k n xs ys); try assumption; try lia; [reflexivity|].
        destruct vz as [d [zs|]]; [right; exists d, zs; now apply holds_hk|left; exact (proj2 Hz)]. }
    cbn [bind v_els]. destruct (mk2 m n Hm Hn Hle) as [_ Ss].
    assert (Lm : Z.of_nat (length (mm_list xs ys m k n)) = m * n) by (rewrite mm_list_length; nia).
    assert (Hrep : (t_data to = None \/ exists dims zs, holds h to dims zs /\ numel dims < m * n) ->
       agrees_s ('(r, e', h') <- matmul sch x y z e h;; h'' <- t_destroy r h';; Ok (e', h'')) (Ok (upd z (Some (V [m; n] (Some (mm_list xs ys m k n)))) a))).
    { intros Hrep. rewrite (matmul_replace sch x y z e h t1 t2 to m k n xs ys) by assumption. cbn [bind].
      unfold t_destroy, free_array. cbn [t_data]. rewrite blk_app, app_length. simpl length.
      replace (Nat.eqb (S (length h)) (length h + 1)) with true by (symmetry; apply Nat.eqb_eq; lia). cbn [b_kind bind].
      replace (S (length h)) with (length (h ++ [Some (Blk AArray (map Some (mm_list xs ys m k n)))])) by (rewrite app_length; simpl; lia).
      rewrite upd_last. do 2 eexists. split; [reflexivity|]. rewrite <- app_assoc. change ([Some ?B] ++ [None]) with (Some B :: repeat None 1).
      eapply rel_put; [exact R|intros; now apply hv_fresh|]. apply fresh_hv; [assumption|]. rewrite numel2 by assumption. exact Lm. }
    destruct vz as [d [zs|]]; [|apply Hrep; left; exact (proj2 Hz)].
    assert (Lz : Z.of_nat (length zs) = numel d) by apply Hz.
    destruct (Nat.leb_spec (length (mm_list xs ys m k n)) (length zs)) as [Hge|Hlt].
    2:{ apply Hrep. right. exists d, zs. split; [now apply holds_hk|lia]. }
    assert (Hz' := Hz). destruct Hz' as (Sz & _ & b & Hb & Kz).
    assert (D1 : t_data t1 <> Some b) by (intros E; apply Nx; eapply (inv_sep _ _ _ Hi); eauto).
    assert (D2 : t_data t2 <> Some b) by (intros E; apply Ny; eapply (inv_sep _ _ _ Hi); eauto).
    rewrite (matmul_reuse sch x y z e h t1 t2 to m k n xs ys O1 O2 Oz G1 G2 Hm AArray d zs b) by (try assumption; lia). cbn [bind].
    unfold t_destroy, free_array. cbn [t_data]. rewrite blk_app, upd_length, Nat.eqb_refl. cbn [b_kind bind].
    replace (length h) with (length (upd b (Some (Blk AArray (map Some (mm_list xs ys m k n ++ skipn (Z.to_nat (m * n)) zs)))) h)) by apply upd_length.
    rewrite upd_last. do 2 eexists. split; [reflexivity|].
    replace (Z.to_nat (m * n)) with (length (mm_list xs ys m k n)) by lia.
    rewrite <- (upd_id e z (Some to) Oz) at 1. eapply rel_put; [exact R| |].
    + intros q w u N Y K. apply (hv_none _ 1). exact (hv_other L e h z q to u b _ w Hi Oz Hb N Y K).
    + apply (hv_none _ 1). apply (hv_inplace h to); try assumption; [eauto|]. rewrite app_length, skipn_length. lia.
  - destruct W as (v & Hv). destruct (rel_some _ _ _ _ _ R Hv) as (t & O & H). rewrite (proj2 (obj_ok _ _ _) O). cbn [bind].
    unfold t_destroy. destruct (t_data t) as [b|] eqn:Eb.
    + destruct v as [d [xs|]]; [|destruct H as [_ H]; congruence]. destruct H as (S & _ & b' & Hb' & Hk). assert (b' = b) by congruence. subst b'.
      unfold free_array. rewrite Hk. cbn [b_kind bind]. do 2 eexists. split; [reflexivity|]. eapply rel_put; [exact R| |exact I].
      intros y w u N Y K. exact (hv_other L e h x y t u b _ w Hi O Eb N Y K).
    + cbn [bind]. do 2 eexists. split; [reflexivity|]. eapply rel_put; [exact R|auto|exact I].
Qed.
Lemma run_agrees p : forall L e h a, inv L e h -> rel e h a -> vwt_run p a -> agrees_s (run p (e, h)) (vrun p a).
Proof.
  unfold run, vrun. induction p as [|st p IH]; intros L e h a Hi R W; cbn [foldM]; [do 2 eexists; split; [reflexivity|exact R]|].
  destruct W as [W1 W2]. assert (A := exec_agrees L st e h a Hi R W1). destruct (vexec st a) as [a1|u| |] eqn:E; cbn [agrees_s bind] in *; try (rewrite A; reflexivity).
  destruct A as (e1 & h1 & E1 & R1). rewrite E1. cbn [bind].
  destruct (exec_good L st e h Hi (rel_wt _ _ _ _ R W1)) as [([e2 h2] & E2 & I2)|[E2|E2]]; try congruence.
  rewrite E1 in E2. injection E2 as <- <-. eapply IH; eauto.
Qed.

(** ** C75 *)
(** Every program whose statements are allowed behaves as in the value semantics: same outcome (success, abort,
    overflow), and after success every variable shows its value.  The value semantics has neither buffers nor
    schedules: so no statement changes a variable it does not name as its target, whatever was copied, moved,
    reshaped or destroyed before, and the result does not depend on the threads. *)
Theorem C75_values : forall p : list (stmt (D := D)), vwt_run p [] ->
  match vrun p [] with
  | Ok a => exists e h, run p ([], []) = Ok (e, h) /\ shows e h a
  | Abort => run p ([], []) = Abort
  | Undef u => run p ([], []) = Undef u
  | Throw => run p ([], []) = Throw
  end.
Proof.
  intros p W. assert (R0 : rel [] ([] : heap) []) by (split; [reflexivity|intros [|x]; exact I]).
  assert (A := run_agrees p [] [] [] [] inv_init R0 W). destruct (vrun p []) as [a|u| |]; cbn [agrees_s] in A; auto.
  destruct A as (e & h & E & R). exists e, h. split; [exact E|now apply rel_shows].
Qed.
(** In the value semantics a statement changes only its targets. *)
Definition targets (st : stmt (D := D)) : list nat :=
  match st with
  | SSet x _ _ | SReshape x _ | SAssign x _ | SAssignE x _ | SDestroy x => [x]
  | SMove x y => [x; y] | SMatInto _ _ _ z => [z] | _ => [] end.
Theorem C75_frame : forall (st : stmt (D := D)) a a' x, vexec st a = Ok a' -> ~ In x (targets st) -> (x < length a)%nat -> nth_error a' x = nth_error a x.
Proof.
  assert (U : forall (y : nat) (o : option (val D)) l x, x <> y -> nth_error (upd y o l) x = nth_error l x).
  { intros y o l x N. rewrite nth_error_upd. destruct (Nat.eqb_spec x y); [contradiction|reflexivity]. }
  intros st a a' x E N Hx. destruct st as [ex| |y i|y i v|y d|y z|y ex|y z|sch y z w|y]; cbn [vexec targets In] in *.
  - apply bind_ok in E as (v & _ & E). injection E as <-. now rewrite nth_error_app1.
  - injection E as <-. now rewrite nth_error_app1.
  - now injection E as <-.
  - apply bind_ok in E as ([d xs] & _ & E). injection E as <-. apply U. intuition.
  - destruct (nth_error a y) as [[[d0 els]|]|]; try discriminate. apply bind_ok in E as (? & _ & E). destruct (numel d =? numel d0); [|discriminate]. injection E as <-. apply U. intuition.
  - apply bind_ok in E as ([d xs] & _ & E). injection E as <-. apply U. intuition.
  - apply bind_ok in E as (v & _ & E). injection E as <-. apply U. intuition.
  - destruct (nth_error a z) as [[[d els]|]|]; try discriminate. injection E as <-. rewrite !U; intuition.
  - apply bind_ok in E as ([d1 xs] & _ & E). apply bind_ok in E as ([d2 ys] & _ & E). apply bind_ok in E as (v & _ & E).
    assert (K : exists o, a' = upd w o a). { destruct (nth_error a w) as [[[d [zs|]]|]|]; destruct (v_els v); repeat match goal with H : context[if ?b then _ else _] |- _ => destruct b end; injection E as <-; eauto. }
    destruct K as (o & ->). apply U. intuition.
  - injection E as <-. apply U. intuition.
Qed.
End Val.

(** A program with a copy, an in-place product, a move, a broadcast and a destruction. *)
Definition ex_vprog : list (stmt (D := Zdt)) :=
  [SDecl (EOnes [2; 2]); SSet (D := Zdt) 0 1 5; SDecl (ECopy 0); SSet (D := Zdt) 1 0 7; SDecl (EBin BAdd [] 0 1);
   SMatInto (fun _ => []) 0 1 2; SDecl (ENew [2]); SSet (D := Zdt) 3 1 10; SDecl (EBin BMul [] 2 3); SMove 0 4; SReshape 0 [4]; SDestroy 1].
Definition ex_vals : list (option (val Zdt)) :=
  [Some (V (D := Zdt) [4] (Some [0; 100; 0; 60])); None; Some (V (D := Zdt) [2; 2] (Some [12; 10; 8; 6])); Some (V (D := Zdt) [2] (Some [0; 10])); Some (V (D := Zdt) [2; 2] None)].
Definition V22 (p q r s : Z) : option (val Zdt) := Some (V (D := Zdt) [2; 2] (Some [p; q; r; s])).
Definition V2 (p q : Z) : option (val Zdt) := Some (V (D := Zdt) [2] (Some [p; q])).
(** [vstep next]: the variables after the statement are [next]. *)
Ltac vstep r := cbn [vwt_run]; split; [cbn [vwt vwt_expr]; unfold full, exists_, ints, V22, V2; cbn [nth_error]
  | let a := fresh "a" in let E := fresh "E" in let Q := fresh "Q" in intros a E;
    assert (Q : Ok a = Ok (r : list (option (val Zdt)))) by (rewrite <- E; vm_cast_no_check (eq_refl (Ok (r : list (option (val Zdt))))));
    injection Q as ->; clear E].
Example C75_example : vwt_run ex_vprog [] /\ vrun ex_vprog [] = Ok ex_vals.
Proof.
  split; [|vm_cast_no_check (eq_refl (Ok ex_vals))]. unfold ex_vprog.
  vstep ([V22 1 1 1 1]). { repeat constructor; unfold INT_MAX, INT_MIN; lia. }
  vstep ([V22 1 5 1 1]). { exists [2; 2]. split; [eexists; reflexivity|cbn; lia]. }
  vstep ([V22 1 5 1 1; V22 1 5 1 1]). { exists [2; 2]. eexists; reflexivity. }
  vstep ([V22 1 5 1 1; V22 7 5 1 1]). { exists [2; 2]. split; [eexists; reflexivity|cbn; lia]. }
  vstep ([V22 1 5 1 1; V22 7 5 1 1; V22 8 10 2 2]). { exists [2; 2], [2; 2]. split; [eexists; reflexivity|]. split; [eexists; reflexivity|]. cbn. lia. }
  vstep ([V22 1 5 1 1; V22 7 5 1 1; V22 12 10 8 6]). { split; [|split; [eexists; reflexivity|lia]]. exists [2; 2], [2; 2]. split; eexists; reflexivity. }
  vstep ([V22 1 5 1 1; V22 7 5 1 1; V22 12 10 8 6; V2 0 0]). { repeat constructor; unfold INT_MAX, INT_MIN; lia. }
  vstep ([V22 1 5 1 1; V22 7 5 1 1; V22 12 10 8 6; V2 0 10]). { exists [2]. split; [eexists; reflexivity|cbn; lia]. }
  vstep ([V22 1 5 1 1; V22 7 5 1 1; V22 12 10 8 6; V2 0 10; V22 0 100 0 60]). { exists [2; 2], [2]. split; [eexists; reflexivity|]. split; [eexists; reflexivity|]. cbn. lia. }
  vstep ([V22 0 100 0 60; V22 7 5 1 1; V22 12 10 8 6; V2 0 10; Some (V (D := Zdt) [2; 2] None)]). { split; [eexists; reflexivity|]. split; [eexists; reflexivity|lia]. }
  vstep ([Some (V (D := Zdt) [4] (Some [0; 100; 0; 60])); V22 7 5 1 1; V22 12 10 8 6; V2 0 10; Some (V (D := Zdt) [2; 2] None)]). { split; [eexists; reflexivity|]. repeat constructor; unfold INT_MAX, INT_MIN; lia. }
  vstep ex_vals. { eexists; reflexivity. }
  exact I.
Qed.

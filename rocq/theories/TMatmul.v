(** TMatmul.v - matmul: exact results (proofs). *)
From Verif Require Import Base Mem Par Tensor TensorOps TSpec TLemmas TOps TOps2 TMem.
Local Open Scope Z_scope.

Section TMatmul.
Context {D : dtype}.
Notation heap := (heap D).
Implicit Types h : heap.

Definition shape2 (m n : Z) : tshape := TSh [m; n] [m * n; n].

Lemma mk2 m n : 0 < m -> 0 < n -> m * n <= INT_MAX -> mk_shape [m; n] = Ok (shape2 m n) /\ is_shape (shape2 m n) [m; n].
Proof.
  intros Hm Hn Hmn. assert (Hv : valid_dims [m; n]).
  { split.
    - simpl. split; [lia|]. constructor; [assumption|constructor].
    - apply fits_cons. split; [unfold prodZ; simpl; lia|]. apply fits_cons. split; [unfold prodZ; simpl; nia|apply fits_nil]. }
  assert (E : map (chunk_spec [m; n]) (seq 0 2) = [m * n; n]).
  { simpl. unfold prodZ. simpl. destruct m; try lia. rewrite !Z.mul_1_r. reflexivity. }
  split.
  - rewrite mk_shape_ok by (try apply valid_ints; assumption). simpl length. rewrite E. reflexivity.
  - split; [assumption|]. split; [reflexivity|]. simpl length. rewrite E. reflexivity.
Qed.

Lemma mk2_overflow m n : 0 < m <= INT_MAX -> 0 < n <= INT_MAX -> INT_MAX < m * n -> mk_shape [m; n] = Undef IntOverflow.
Proof.
  intros Hm Hn Hmn. apply mk_shape_undef.
  - unfold INT_MAX, INT_MIN in *. repeat constructor; unfold INT_MIN, INT_MAX; lia.
  - simpl. split; [lia|]. repeat constructor. lia.
  - intros Hf. apply fits_cons in Hf as [Hf _]. unfold prodZ in Hf. simpl in Hf. lia.
Qed.

Lemma obj_ok e x t : obj e x = Ok t <-> nth_error e x = Some (Some t).
Proof. unfold obj. destruct (nth_error e x) as [[?|]|]; split; intros H; congruence. Qed.

Section Call.
Variables (sch : Z -> list nat) (x1 x2 xo : nat) (e : env) (h : heap).
Variables (t1 t2 to : tensor) (m k n : Z) (xs ys : list D).
Hypothesis (O1 : nth_error e x1 = Some (Some t1)) (O2 : nth_error e x2 = Some (Some t2))
           (Oo : nth_error e xo = Some (Some to)).
Hypothesis (H1 : holds h t1 [m; k] xs) (H2 : holds h t2 [k; n] ys).
Hypothesis (Hm : 0 < m).

Let S1 := holds_shape _ _ _ _ H1.
Let S2 := holds_shape _ _ _ _ H2.

Lemma mm_pos : 0 < k /\ 0 < n /\ m <= INT_MAX /\ n <= INT_MAX.
Proof.
  destruct (valid2 m k (proj1 S1)) as (_ & A & _ & _ & B). destruct (valid2 k n (proj1 S2)) as (_ & C & _ & E & _). auto.
Qed.

(** The checks of matmul.cpp:19-24 pass. *)
Lemma matmul_pre : matmul sch x1 x2 xo e h =
  (need <- (match t_data to with
           | None => Ok true
           | Some _ => co <- chunk_at (t_sh to) 0 ;; mn <- imul m n ;; Ok (co <? mn)
           end) ;;
  '(e1, h1) <- (if need : bool then
                  so <- mk_shape [m; n] ;;
                  '(tmp, h1) <- t_new so h ;;
                  e1 <- move_assign_tmp e xo tmp ;; Ok (e1, h1)
                else Ok (e, h)) ;;
  t1' <- obj e1 x1 ;; t2' <- obj e1 x2 ;; to' <- obj e1 xo ;;
  h2 <- mm_rows sch (t_data t1') (t_data t2') (t_data to') m k n h1 ;;
  '(r, h3) <- t_copy to' h2 ;;
  Ok (r, e1, h3)).
Proof.
  destruct mm_pos as (Hk & Hn & Hm' & Hn').
  unfold matmul. rewrite (proj2 (obj_ok _ _ _) O1), (proj2 (obj_ok _ _ _) O2), (proj2 (obj_ok _ _ _) Oo). cbn [bind].
  rewrite (rank_spec _ _ S1), (rank_spec _ _ S2). cbn [length Z.of_nat Pos.of_succ_nat Pos.succ Z.eqb Pos.eqb andb cassert bind].
  rewrite (shape_at_nth _ _ 1 S1) by (simpl; lia). rewrite (shape_at_nth _ _ 0 S2) by (simpl; lia).
  rewrite (shape_at_nth _ _ 0 S1) by (simpl; lia). rewrite (shape_at_nth _ _ 1 S2) by (simpl; lia).
  change (Z.to_nat 1) with 1%nat. change (Z.to_nat 0) with 0%nat. cbn [nth bind].
  rewrite Z.eqb_refl. cbn [cassert bind].
  replace ((0 <? m) && (0 <? k) && (0 <? k) && (0 <? n)) with true by lia. cbn [cassert bind]. reflexivity.
Qed.

(** Reuse of a large enough output. *)
Theorem matmul_reuse kd dims zs b :
  holds_k kd h to dims zs -> m * n <= numel dims -> t_data to = Some b ->
  t_data t1 <> Some b -> t_data t2 <> Some b ->
  let ws := mm_list xs ys m k n ++ skipn (Z.to_nat (m * n)) zs in
  matmul sch x1 x2 xo e h =
  Ok (Tn (t_sh to) (Some (length h)), e,
      upd b (Some (Blk kd (map Some ws))) h ++ [Some (Blk AArray (map Some ws))]).
Proof.
  intros Ho Hle Eb N1 N2 ws. destruct mm_pos as (Hk & Hn & Hm' & Hn'). rewrite matmul_pre.
  destruct Ho as (So & Lo & b' & Eb' & Hb). assert (b' = b) by congruence. subst b'. rewrite Eb.
  rewrite (chunk0 _ dims So). cbn [bind]. unfold imul. assert (Hni := numel_le _ (proj1 So)).
  assert (Hok : int_ok (m * n) = true).
  { unfold int_ok, INT_MIN. assert (0 < m * n) by nia. lia. }
  rewrite Hok. cbn [bind]. destruct (Z.ltb_spec (numel dims) (m * n)); [lia|]. cbn [bind].
  rewrite (proj2 (obj_ok _ _ _) O1), (proj2 (obj_ok _ _ _) O2), (proj2 (obj_ok _ _ _) Oo). cbn [bind].
  assert (Hlen : 0 <= m * n <= Z.of_nat (length (map Some zs))) by (rewrite map_length; nia).
  eapply bind_eq.
  { rewrite Eb. apply (mm_rows_ok sch h b kd (map Some zs) (t_data t1) (t_data t2) m k n xs ys); auto; try lia.
    - intros q Hq. eapply holds_load; eauto. rewrite numel2 by lia. assumption.
    - intros q Hq. eapply holds_load; eauto. rewrite numel2 by lia. assumption. }
  rewrite fill_mm by assumption. rewrite skipn_map, <- map_app. fold ws.
  assert (Hc : holds (upd b (Some (Blk kd (map Some ws))) h) to dims ws).
  { exists kd. split; [assumption|]. split.
    - unfold ws. rewrite app_length, mm_list_length, skipn_length. rewrite map_length in Hlen. lia.
    - exists b. split; [assumption|]. rewrite blk_upd, Nat.eqb_refl. assert (Hl := blk_lt _ _ _ Hb).
      destruct (nth_error h b) eqn:E; [reflexivity|]. apply nth_error_None in E. lia. }
  rewrite (t_copy_ok _ _ dims ws Hc). cbn [bind]. rewrite upd_length. reflexivity.
Qed.

(** Replacement of a missing or too small output; the old buffer (if any) stays allocated. *)
Theorem matmul_replace :
  (t_data to = None \/ exists dims zs, holds h to dims zs /\ numel dims < m * n) ->
  m * n <= INT_MAX -> xo <> x1 -> xo <> x2 ->
  let ws := mm_list xs ys m k n in
  matmul sch x1 x2 xo e h =
  Ok (Tn (shape2 m n) (Some (S (length h))),
      upd xo (Some (Tn (shape2 m n) (Some (length h)))) e,
      (h ++ [Some (Blk AArray (map Some ws))]) ++ [Some (Blk AArray (map Some ws))]).
Proof.
  intros Ho Hmn N1 N2 ws. destruct mm_pos as (Hk & Hn & Hm' & Hn'). rewrite matmul_pre.
  assert (Hpos : 0 < m * n) by nia.
  assert (Hneed : (match t_data to with
           | None => Ok true
           | Some _ => co <- chunk_at (t_sh to) 0 ;; mn <- imul m n ;; Ok (co <? mn)
           end) = Ok true).
  { destruct Ho as [->|(dims & zs & Hz & Hlt)]; [reflexivity|].
    assert (So := holds_shape _ _ _ _ Hz). destruct (holds_data _ _ _ _ Hz) as (b & -> & _).
    rewrite (chunk0 _ dims So). cbn [bind]. unfold imul, int_ok.
    replace ((INT_MIN <=? m * n) && (m * n <=? INT_MAX)) with true by (unfold INT_MIN in *; lia).
    cbn [bind]. f_equal. lia. }
  rewrite Hneed. cbn [bind]. destruct (mk2 m n) as [-> Ss]; try assumption. cbn [bind].
  rewrite (t_new_ok _ [m; n] h Ss). cbn [bind]. unfold move_assign_tmp.
  rewrite (proj2 (obj_ok _ _ _) Oo). cbn [bind t_sh t_data]. rewrite (assign_shape_id _ _ [m; n] Ss). cbn [bind].
  set (to' := Tn (shape2 m n) (Some (length h))).
  assert (Q1 : obj (upd xo (Some to') e) x1 = Ok t1).
  { apply obj_ok. rewrite nth_error_upd. destruct (Nat.eqb_spec x1 xo); [congruence|assumption]. }
  assert (Q2 : obj (upd xo (Some to') e) x2 = Ok t2).
  { apply obj_ok. rewrite nth_error_upd. destruct (Nat.eqb_spec x2 xo); [congruence|assumption]. }
  assert (Qo : obj (upd xo (Some to') e) xo = Ok to').
  { apply obj_ok. rewrite nth_error_upd, Nat.eqb_refl, Oo. reflexivity. }
  rewrite Q1, Q2, Qo. cbn [bind]. unfold to' at 1. cbn [t_data].
  rewrite numel2 by assumption.
  set (h1 := h ++ [Some (Blk AArray (zero_cells (m * n)))]).
  assert (Hlen : 0 <= m * n <= Z.of_nat (length (zero_cells (D:=D) (m * n)))) by (rewrite zero_cells_length; lia).
  eapply bind_eq.
  { apply (mm_rows_ok sch h1 (length h) AArray (zero_cells (m * n)) (t_data t1) (t_data t2) m k n xs ys); auto; try lia.
    - unfold h1. rewrite blk_app, Nat.eqb_refl. reflexivity.
    - destruct (holds_data _ _ _ _ H1) as (b & -> & Hl). intros E. injection E. lia.
    - destruct (holds_data _ _ _ _ H2) as (b & -> & Hl). intros E. injection E. lia.
    - intros q Hq. eapply holds_load; [apply holds_app; exact H1|]. rewrite numel2 by lia. assumption.
    - intros q Hq. eapply holds_load; [apply holds_app; exact H2|]. rewrite numel2 by lia. assumption. }
  rewrite fill_mm by assumption. unfold h1. rewrite upd_last.
  rewrite skipn_all2 by (rewrite zero_cells_length; lia). rewrite app_nil_r. fold ws.
  assert (Hc : holds (h ++ [Some (Blk AArray (map Some ws))]) to' [m; n] ws).
  { exists AArray. apply holds_new; [assumption|]. unfold ws. rewrite mm_list_length, numel2 by assumption. lia. }
  rewrite (t_copy_ok _ _ [m; n] ws Hc). cbn [bind]. rewrite app_length. simpl length.
  rewrite Nat.add_comm. reflexivity.
Qed.

Theorem matmul_overflow :
  (t_data to = None \/ exists dims zs, holds h to dims zs) -> INT_MAX < m * n ->
  matmul sch x1 x2 xo e h = Undef IntOverflow.
Proof.
  intros Ho Hmn. destruct mm_pos as (Hk & Hn & Hm' & Hn'). rewrite matmul_pre.
  destruct Ho as [->|(dims & zs & Hz)].
  - cbn [bind]. rewrite mk2_overflow by lia. reflexivity.
  - assert (So := holds_shape _ _ _ _ Hz). destruct (holds_data _ _ _ _ Hz) as (b & -> & _).
    rewrite (chunk0 _ dims So). cbn [bind]. unfold imul, int_ok.
    replace ((INT_MIN <=? m * n) && (m * n <=? INT_MAX)) with false by lia. reflexivity.
Qed.

End Call.

(** Any other shapes abort. *)
Definition mm_compatible (d1 d2 : list Z) : Prop :=
  exists m k n, d1 = [m; k] /\ d2 = [k; n] /\ 0 < m /\ 0 < k /\ 0 < n.

Theorem matmul_abort sch x1 x2 xo e h t1 t2 to d1 d2 :
  nth_error e x1 = Some (Some t1) -> nth_error e x2 = Some (Some t2) -> nth_error e xo = Some (Some to) ->
  is_shape (t_sh t1) d1 -> is_shape (t_sh t2) d2 -> ~ mm_compatible d1 d2 ->
  matmul (D:=D) sch x1 x2 xo e h = Abort.
Proof.
  intros O1 O2 Oo S1 S2 Hn. unfold matmul.
  rewrite (proj2 (obj_ok _ _ _) O1), (proj2 (obj_ok _ _ _) O2), (proj2 (obj_ok _ _ _) Oo). cbn [bind].
  rewrite (rank_spec _ _ S1), (rank_spec _ _ S2).
  destruct d1 as [|m [|k [|a1 l1]]].
  - reflexivity.
  - reflexivity.
  - destruct d2 as [|k' [|n [|a2 l2]]].
    + reflexivity.
    + reflexivity.
    + cbn [length Z.of_nat Pos.of_succ_nat Pos.succ Z.eqb Pos.eqb andb cassert bind].
      rewrite (shape_at_nth _ _ 1 S1) by (simpl; lia). rewrite (shape_at_nth _ _ 0 S2) by (simpl; lia).
      rewrite (shape_at_nth _ _ 0 S1) by (simpl; lia). rewrite (shape_at_nth _ _ 1 S2) by (simpl; lia).
      change (Z.to_nat 1) with 1%nat. change (Z.to_nat 0) with 0%nat. cbn [nth bind].
      destruct (Z.eqb_spec k k') as [->|]; [|reflexivity]. cbn [cassert bind].
      destruct ((0 <? m) && (0 <? k') && (0 <? k') && (0 <? n)) eqn:E; [|reflexivity].
      exfalso. apply Hn. exists m, k', n. repeat split; lia.
    + cbn [length]. destruct (Z.eqb_spec (Z.of_nat (S (S (S (length l2))))) 2); [lia|]. rewrite andb_false_r. reflexivity.
  - cbn [length]. destruct (Z.eqb_spec (Z.of_nat (S (S (S (length l1))))) 2); [lia|]. reflexivity.
Qed.

Theorem op_matmul_ok sch t1 t2 h m k n xs ys : holds h t1 [m; k] xs -> holds h t2 [k; n] ys -> 0 < m ->
  m * n <= INT_MAX ->
  op_matmul sch t1 t2 h =
  Ok (Tn (shape2 m n) (Some (length h)), (h ++ [Some (Blk AArray (map Some (mm_list xs ys m k n)))]) ++ [None]).
Proof.
  intros H1 H2 Hm Hmn. unfold op_matmul. destruct (mk1' 0) as [E0 S0]; [unfold INT_MAX; lia|].
  unfold t_default. rewrite E0. cbn [bind].
  rewrite (matmul_replace sch 0 1 2 [Some t1; Some t2; Some (Tn (shape1 0) None)] h t1 t2 (Tn (shape1 0) None)
             m k n xs ys eq_refl eq_refl eq_refl H1 H2 Hm); try (left; reflexivity); try assumption; try lia.
  cbn [bind]. unfold t_destroy, free_array. cbn [t_data]. rewrite blk_app, app_length. simpl length.
  replace (Nat.eqb (S (length h)) (length h + 1)) with true by (symmetry; apply Nat.eqb_eq; lia). cbn [b_kind bind].
  replace (S (length h)) with (length (h ++ [Some (Blk AArray (map Some (mm_list xs ys m k n)))])) by (rewrite app_length; simpl; lia).
  rewrite upd_last. reflexivity.
Qed.

Theorem op_matmul_overflow sch t1 t2 h m k n xs ys : holds h t1 [m; k] xs -> holds h t2 [k; n] ys -> 0 < m ->
  INT_MAX < m * n -> op_matmul sch t1 t2 h = Undef IntOverflow.
Proof.
  intros H1 H2 Hm Hmn. unfold op_matmul. destruct (mk1' 0) as [E0 S0]; [unfold INT_MAX; lia|].
  unfold t_default. rewrite E0. cbn [bind].
  rewrite (matmul_overflow sch 0 1 2 [Some t1; Some t2; Some (Tn (shape1 0) None)] h t1 t2 (Tn (shape1 0) None)
             m k n xs ys eq_refl eq_refl eq_refl H1 H2 Hm); try (left; reflexivity); try assumption. reflexivity.
Qed.

Theorem op_matmul_abort sch t1 t2 (h : heap) d1 d2 :
  is_shape (t_sh t1) d1 -> is_shape (t_sh t2) d2 -> ~ mm_compatible d1 d2 -> op_matmul sch t1 t2 h = Abort.
Proof.
  intros S1 S2 Hn. unfold op_matmul. destruct (mk1' 0) as [E0 S0]; [unfold INT_MAX; lia|].
  unfold t_default. rewrite E0. cbn [bind].
  rewrite (matmul_abort sch 0 1 2 [Some t1; Some t2; Some (Tn (shape1 0) None)] h t1 t2 (Tn (shape1 0) None) d1 d2); auto.
Qed.

End TMatmul.

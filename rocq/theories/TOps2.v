(** TOps2.v - equality, pow, undefined cases, reductions, argmax/argmin, copies and fills (proofs). *)
From Verif Require Import Base Mem Par Tensor TensorOps TSpec TLemmas TOps.
Local Open Scope Z_scope.

(** * Undefined behaviour of parallel loops *)
Section Undef.
Context {D : Type}.
Notation heap := (heap D).
Implicit Types h : heap.

Lemma par_undef s its h : race_free its -> (exists it, In it its /\ ~ it_safe h it) -> is_undef (par_for s its h).
Proof.
  intros Hrf (it & Hin & Hn). destruct (par_for_out s its h) as [(h' & H)|H]; [|assumption].
  exfalso. apply Hn. eapply par_result_safe; [eapply par_for_sound; eauto|assumption].
Qed.

Lemma rf_family n b (rd : Z -> list addr) (fn : Z -> list D -> option D) base :
  (forall i a, 0 <= i < n -> In a (rd i) -> fst a <> Some b) ->
  race_free (map (fun i => Iter (rd i) (fn i) (Some b, base + i)) (zrange n)).
Proof.
  intros Hrd i j x y Hx Hy Hne. rewrite nth_error_map in Hx, Hy.
  assert (E : forall i z, nth_error (zrange n) i = Some z -> z = Z.of_nat i /\ 0 <= z < n).
  { intros a z Ha. assert (Hl := nth_error_lt' _ _ _ Ha). rewrite zrange_length in Hl.
    rewrite zrange_nth in Ha by assumption. injection Ha as <-. lia. }
  destruct (nth_error (zrange n) i) as [u|] eqn:Hu; [|discriminate].
  destruct (nth_error (zrange n) j) as [v|] eqn:Hv; [|discriminate].
  apply E in Hu. apply E in Hv. injection Hx as <-. injection Hy as <-. simpl. split.
  - intros Eq. injection Eq as Eq. lia.
  - intros HI. apply (Hrd v) in HI; [|lia]. apply HI. reflexivity.
Qed.

Lemma it_unsafe h (it : iter D) a : In a (it_reads it) -> (forall v, load h a <> Ok v) -> ~ it_safe h it.
Proof.
  intros Hin Ha (vs & Hl & _). unfold loads in Hl. induction Hl as [|x v l l' Hx Hl IH]; [destruct Hin|].
  destruct Hin as [->|Hin]; [eapply Ha; eauto|auto].
Qed.

Lemma family_undef {B} s h b n (rd : Z -> list addr) (fn : Z -> list D -> option D) (k : heap -> res B) i a :
  (forall i a, 0 <= i < n -> In a (rd i) -> fst a <> Some b) ->
  0 <= i < n -> In a (rd i) -> (forall v, load h a <> Ok v) ->
  is_undef (bind (par_for s (map (fun i => Iter (rd i) (fn i) (Some b, i)) (zrange n)) h) k).
Proof.
  intros Hrd Hi Ha Hl.
  assert (Hu : is_undef (par_for s (map (fun i => Iter (rd i) (fn i) (Some b, i)) (zrange n)) h)).
  { apply par_undef.
    - apply (rf_family n b rd fn 0). assumption.
    - exists (Iter (rd i) (fn i) (Some b, i)). split.
      + apply (in_map (fun i => Iter (rd i) (fn i) (Some b, i))). apply in_zrange. assumption.
      + eapply it_unsafe; [exact Ha|exact Hl]. }
  destruct Hu as [u Hu]. exists u. rewrite Hu. reflexivity.
Qed.

Lemma map_eq_shift {A} (f g : Z -> A) n : (forall i, f i = g i) -> map f (zrange n) = map g (zrange n).
Proof. intros H. apply map_ext. assumption. Qed.

End Undef.

Section TOps2.
Context {D : dtype}.
Notation heap := (heap D).
Implicit Types h : heap.

Lemma holds_data h t dims xs : holds h t dims xs -> exists b, t_data t = Some b /\ (b < length h)%nat.
Proof. intros (k & _ & _ & b & Hb & Hk). exists b. split; [assumption|]. eapply blk_lt; eauto. Qed.

Lemma holds_preserved h h' t dims xs : preserved h h' -> holds h t dims xs -> holds h' t dims xs.
Proof.
  intros Hp (k & Hs & Hl & b & Hd & Hb). exists k. split; [assumption|]. split; [assumption|]. exists b. auto.
Qed.

(** Broadcasting over two or more axes when the first extent is 0: the loop runs past the one-element
    buffer. *)
Theorem binop_bcast_undef f s t1 t2 h pre d2 xs ys : pre <> [] ->
  holds h t1 (pre ++ d2) xs -> holds h t2 d2 ys -> numel (pre ++ d2) < bcast_upto pre d2 ->
  is_undef (binop f s t1 t2 h).
Proof.
  intros Hpre H1 H2 Hlt. assert (S1 := holds_shape _ _ _ _ H1). assert (S2 := holds_shape _ _ _ _ H2).
  assert (Hk : (0 < length pre)%nat) by (destruct pre; [congruence|simpl; lia]).
  assert (Hk2 : (0 < length d2)%nat) by (eapply is_shape_len; eauto).
  unfold binop. destruct (suffix_check_ok t1 t2 (pre ++ d2) d2 S1 S2) as [-> ->]; [exists pre; reflexivity|].
  cbn [bind]. rewrite (t_new_ok _ (pre ++ d2) h S1). cbn [bind].
  rewrite (rank_spec _ _ S1), (rank_spec _ _ S2), app_length.
  replace (Z.of_nat (length pre + length d2) - Z.of_nat (length d2)) with (Z.of_nat (length pre)) by lia.
  destruct (Z.eqb_spec (Z.of_nat (length pre)) 0); [lia|].
  replace (Z.of_nat (length pre) - 1) with (Z.of_nat (length pre - 1)) by lia.
  rewrite (chunk_at_spec _ (pre ++ d2) (length pre - 1) S1) by (rewrite app_length; lia). cbn [bind].
  rewrite (chunk_at_spec _ (pre ++ d2) (length pre) S1) by (rewrite app_length; lia). cbn [bind t_data].
  fold (bcast_upto pre d2). set (md := chunk_spec (pre ++ d2) (length pre)).
  destruct (holds_data _ _ _ _ H1) as (b1 & E1 & L1). destruct (holds_data _ _ _ _ H2) as (b2 & E2 & L2).
  assert (Hp := numel_pos' _ _ S1).
  eapply (family_undef s _ (length h) _ (fun i => [(t_data t1, i); (t_data t2, Z.rem i md)]) (fun _ => f2 f) _
     (numel (pre ++ d2)) (t_data t1, numel (pre ++ d2))).
  - intros i a Hi [<-|[<-|[]]]; simpl; rewrite ?E1, ?E2; intros E; injection E; lia.
  - lia.
  - now left.
  - intros v. rewrite (holds_load_oob _ t1 (pre ++ d2) xs); [discriminate| |lia]. apply holds_app. assumption.
Qed.

(** When is it in range? *)
Lemma bcast_in_range pre d2 : signs_ok (pre ++ d2) -> pre <> [] -> hd 0 pre <> 0 \/ length pre = 1%nat ->
  bcast_upto pre d2 <= numel (pre ++ d2).
Proof.
  intros Hs Hpre H. unfold bcast_upto. destruct pre as [|p pre]; [congruence|]. simpl in Hs.
  destruct Hs as [Hp0 Hp]. destruct pre as [|q pre].
  - simpl. lia.
  - destruct H as [H|H]; [|simpl in H; lia]. simpl in H.
    assert (E : numel ((p :: q :: pre) ++ d2) = prodZ ((p :: q :: pre) ++ d2)) by (destruct p; [lia|reflexivity|reflexivity]).
    rewrite E. replace (length (p :: q :: pre) - 1)%nat with (S (length pre)) by (simpl; lia). unfold chunk_spec.
    assert (D2 := firstn_skipn (S (length pre)) ((p :: q :: pre) ++ d2)).
    rewrite <- D2 at 2. rewrite prodZ_app.
    assert (Hall : Forall (fun y => 0 < y) ((p :: q :: pre) ++ d2)) by (constructor; [lia|assumption]).
    rewrite <- D2 in Hall. apply Forall_app in Hall as [Ha Hb]. apply prodZ_pos in Ha. apply prodZ_pos in Hb. nia.
Qed.

(** ** Equality *)
Lemma self_check t d : is_shape (t_sh t) d ->
  foldM (fun (_ : unit) i => x <- shape_at (t_sh t) i ;; y <- shape_at (t_sh t) i ;; cassert (x =? y))
        (zrange (rank (t_sh t))) tt = Ok tt.
Proof.
  intros Hs. rewrite (rank_spec _ _ Hs).
  rewrite (check_loop _ _ _ (fun i => nth (Z.to_nat i) d 0) (fun i => nth (Z.to_nat i) d 0)).
  - rewrite (proj2 (forallb_range _ _)); [reflexivity|]. intros i _. apply Z.eqb_refl.
  - intros i Hi. apply in_zrange in Hi. split; apply shape_at_nth; auto.
Qed.

Lemma loop2' s h fn (g : D -> D -> D) t1 t2 d1 d2 xs ys :
  holds h t1 d1 xs -> holds h t2 d2 ys -> numel d1 <= numel d2 ->
  (forall a b, match fn [a; b] with Some v => v | None => d0 end = g a b) ->
  par_for s (map (fun i => Iter [(t_data t1, i); (t_data t2, i)] fn (Some (length h), i)) (zrange (numel d1)))
            (h ++ [Some (Blk AArray (zero_cells (numel d1)))]) =
  Ok (h ++ [Some (Blk AArray (map Some (zipw g xs ys)))]).
Proof.
  intros H1 H2 Hle Hg. assert (L1 := holds_len _ _ _ _ H1). assert (L2 := holds_len _ _ _ _ H2).
  apply (out_loop s h (fun i => [(t_data t1, i); (t_data t2, i)]) (fun _ => fn)
             (fun i => [nth (Z.to_nat i) xs d0; nth (Z.to_nat i) ys d0]) d1 (zipw g xs ys)).
  - eapply numel_pos'. eapply holds_shape; eauto.
  - rewrite zipw_length. lia.
  - intros i Hi. repeat (constructor; [eapply holds_load; eauto; lia|]). constructor.
  - intros i Hi. rewrite zipw_length in Hi. rewrite Nat2Z.id, Hg. apply nth_zipw; lia.
Qed.

Theorem eqop_ok p s t1 t2 h d1 d2 xs ys : holds h t1 d1 xs -> holds h t2 d2 ys ->
  length d1 = length d2 -> numel d1 <= numel d2 ->
  eqop p s t1 t2 h = Ok (Tn (t_sh t1) (Some (length h)),
     h ++ [Some (Blk AArray (map Some (zipw (fun x y => if p x y then Base.d1 else d0) xs ys)))]).
Proof.
  intros H1 H2 Hl Hn. assert (S1 := holds_shape _ _ _ _ H1). assert (S2 := holds_shape _ _ _ _ H2).
  unfold eqop. rewrite (self_check t1 d1 S1). rewrite (rank_spec _ _ S1), (rank_spec _ _ S2), Hl, Z.eqb_refl.
  cbn [cassert bind]. rewrite (t_new_ok _ d1 h S1). cbn [bind]. rewrite (chunk0 _ d1 S1). cbn [bind t_data].
  eapply bind_eq; [|reflexivity].
  eapply (loop2' s h (mask2 p) (fun x y => if p x y then Base.d1 else d0) t1 t2 d1 d2 xs ys); auto.
  intros a b. simpl. destruct (p a b); reflexivity.
Qed.

Theorem eqop_undef p s t1 t2 h d1 d2 xs ys : holds h t1 d1 xs -> holds h t2 d2 ys ->
  length d1 = length d2 -> numel d2 < numel d1 -> is_undef (eqop p s t1 t2 h).
Proof.
  intros H1 H2 Hl Hn. assert (S1 := holds_shape _ _ _ _ H1). assert (S2 := holds_shape _ _ _ _ H2).
  unfold eqop. rewrite (self_check t1 d1 S1). rewrite (rank_spec _ _ S1), (rank_spec _ _ S2), Hl, Z.eqb_refl.
  cbn [cassert bind]. rewrite (t_new_ok _ d1 h S1). cbn [bind]. rewrite (chunk0 _ d1 S1). cbn [bind t_data].
  destruct (holds_data _ _ _ _ H1) as (b1 & E1 & L1). destruct (holds_data _ _ _ _ H2) as (b2 & E2 & L2).
  assert (Hp := numel_pos' _ _ S2).
  eapply (family_undef s _ (length h) _ (fun i => [(t_data t1, i); (t_data t2, i)]) (fun _ => mask2 p) _
     (numel d2) (t_data t2, numel d2)).
  - intros i a Hi [<-|[<-|[]]]; simpl; rewrite ?E1, ?E2; intros E; injection E; lia.
  - lia.
  - right; now left.
  - intros v. rewrite (holds_load_oob _ t2 d2 ys); [discriminate| |lia]. apply holds_app. assumption.
Qed.

Theorem eqop_abort p s t1 t2 h d1 d2 : is_shape (t_sh t1) d1 -> is_shape (t_sh t2) d2 ->
  length d1 <> length d2 -> eqop p s t1 t2 h = Abort.
Proof.
  intros S1 S2 Hl. unfold eqop. rewrite (rank_spec _ _ S1), (rank_spec _ _ S2).
  destruct (Z.eqb_spec (Z.of_nat (length d1)) (Z.of_nat (length d2))); [lia|reflexivity].
Qed.

(** ** pow *)
Lemma pow_check t1 t2 d1 d2 : is_shape (t_sh t1) d1 -> is_shape (t_sh t2) d2 ->
  bind (cassert (rank (t_sh t1) =? rank (t_sh t2))) (fun _ =>
  foldM (fun (_ : unit) i => x <- shape_at (t_sh t1) i ;; y <- shape_at (t_sh t2) i ;; cassert (x =? y))
        (zrange (rank (t_sh t1))) tt) = if list_eq_dec Z.eq_dec d1 d2 then Ok tt else Abort.
Proof.
  intros S1 S2. rewrite (rank_spec _ _ S1), (rank_spec _ _ S2). unfold cassert at 1.
  destruct (Z.eqb_spec (Z.of_nat (length d1)) (Z.of_nat (length d2))) as [Hl|Hl]; cbn [bind].
  - rewrite (check_loop _ _ _ (fun i => nth (Z.to_nat i) d1 0) (fun i => nth (Z.to_nat i) d2 0)).
    + destruct (list_eq_dec Z.eq_dec d1 d2) as [->|Hn].
      * rewrite (proj2 (forallb_range _ _)); [reflexivity|]. intros i _. apply Z.eqb_refl.
      * destruct (forallb _ _) eqn:E; [|reflexivity]. exfalso. apply Hn. 
        assert (Hp := proj1 (forallb_range _ _) E). apply nth_eq_list; [lia|]. intros i Hi. specialize (Hp i Hi).
        simpl in Hp. rewrite Nat2Z.id in Hp. lia.
    + intros i Hi. apply in_zrange in Hi. split; apply shape_at_nth; auto; lia.
  - destruct (list_eq_dec Z.eq_dec d1 d2) as [->|]; [congruence|reflexivity].
Qed.

Theorem pow_ok s t1 t2 h dims xs ys : holds h t1 dims xs -> holds h t2 dims ys ->
  op_pow s t1 t2 h =
  Ok (Tn (t_sh t1) (Some (length h)), h ++ [Some (Blk AArray (map Some (zipw dpow xs ys)))]).
Proof.
  intros H1 H2. assert (S1 := holds_shape _ _ _ _ H1). assert (S2 := holds_shape _ _ _ _ H2).
  assert (Hc := pow_check t1 t2 dims dims S1 S2). destruct (list_eq_dec Z.eq_dec dims dims); [|congruence].
  apply bind_ok in Hc as ([] & C1 & C2). unfold op_pow. rewrite C1. cbn [bind].
  eapply bind_eq; [exact C2|]. rewrite (t_new_ok _ dims h S1). cbn [bind]. rewrite (chunk0 _ dims S1). cbn [bind t_data].
  eapply bind_eq; [apply (loop2 s h (f2 dpow) dpow t1 t2 dims xs ys); auto|reflexivity].
Qed.

Theorem pow_abort s t1 t2 h d1 d2 : is_shape (t_sh t1) d1 -> is_shape (t_sh t2) d2 -> d1 <> d2 ->
  op_pow s t1 t2 h = Abort.
Proof.
  intros S1 S2 Hn. assert (Hc := pow_check t1 t2 d1 d2 S1 S2).
  destruct (list_eq_dec Z.eq_dec d1 d2); [congruence|]. unfold op_pow.
  destruct (cassert (rank (t_sh t1) =? rank (t_sh t2))); cbn [bind] in *; try discriminate; [|reflexivity].
  match goal with H : ?x = Abort |- bind ?y _ = _ => change y with x; rewrite H end. reflexivity.
Qed.

(** ** Rank-2 reductions *)
Lemma valid2 rows cols : valid_dims [rows; cols] ->
  0 <= rows /\ 0 < cols /\ rows * cols <= INT_MAX /\ cols <= INT_MAX /\ rows <= INT_MAX.
Proof.
  intros [(Hr & Hc) Hf]. inversion Hc as [|? ? Hc0 _]; subst. split; [assumption|]. split; [assumption|].
  apply fits_cons in Hf as [H1 Hf]. apply fits_cons in Hf as [H2 _].
  unfold prodZ in *. simpl in *. nia.
Qed.

Lemma valid1 n : 0 <= n <= INT_MAX -> valid_dims [n].
Proof.
  intros H. split; [simpl; split; [lia|constructor]|]. apply fits_cons. split; [|apply fits_nil].
  unfold prodZ. simpl. lia.
Qed.

Lemma mk1 n : 0 <= n <= INT_MAX -> exists s, mk_shape [n] = Ok s /\ is_shape s [n].
Proof.
  intros H. assert (Hv := valid1 n H). assert (Hi := valid_ints _ Hv). eexists.
  split; [apply mk_shape_ok; assumption|]. split; [assumption|]. split; reflexivity.
Qed.

Definition shape1 (n : Z) : tshape := TSh [n] [if n =? 0 then 1 else n].
Lemma mk1' n : 0 <= n <= INT_MAX -> mk_shape [n] = Ok (shape1 n) /\ is_shape (shape1 n) [n].
Proof.
  intros H. destruct (mk1 n H) as (s & E & Hs). rewrite E. unfold mk_shape in E. simpl in E.
  destruct (0 <=? n); simpl in E; [|discriminate]. injection E as <-. auto.
Qed.
Lemma numel1 n : 0 <= n -> numel [n] = if n =? 0 then 1 else n.
Proof. intros H. unfold numel, prodZ. simpl. destruct n; simpl; lia. Qed.

Definition colvals (xs : list D) (rows cols i : Z) : list D :=
  map (fun j => nth (Z.to_nat (j * cols + i)) xs d0) (zrange rows).
Definition rowvals (xs : list D) (cols i : Z) : list D :=
  map (fun j => nth (Z.to_nat (i * cols + j)) xs d0) (zrange cols).

Lemma numel2 rows cols : 0 < rows -> numel [rows; cols] = rows * cols.
Proof. intros H. unfold numel, prodZ. simpl. destruct rows; lia. Qed.

Lemma Forall2_map2 {A B C} (R : B -> C -> Prop) (f : A -> B) (g : A -> C) l :
  (forall x, In x l -> R (f x) (g x)) -> Forall2 R (map f l) (map g l).
Proof. induction l; intros H; simpl; constructor; [apply H; now left|apply IHl; intros; apply H; now right]. Qed.

Lemma nth_map_zrange {A} (f : Z -> A) n i d : (i < Z.to_nat n)%nat -> nth i (map f (zrange n)) d = f (Z.of_nat i).
Proof.
  intros H. apply nth_error_nth. rewrite nth_error_map, zrange_nth by assumption. reflexivity.
Qed.

(** A loop with [n] iterations over a rank-1 output of extent [n]. *)
Lemma loop1 s h n rd fn vs :
  0 <= n -> (forall i, 0 <= i < n -> Forall2 (fun a v => load h a = Ok v) (rd i) (vs i)) ->
  par_for s (map (fun i => Iter (rd i) (fn i) (Some (length h), i)) (zrange n))
            (h ++ [Some (Blk AArray (zero_cells (numel [n])))]) =
  Ok (h ++ [Some (Blk AArray (map Some (if n =? 0 then [d0] else
       map (fun i => match fn i (vs i) with Some v => v | None => d0 end) (zrange n))))]).
Proof.
  intros Hn Hrd. destruct (Z.eqb_spec n 0) as [->|Hn0].
  - rewrite (par_fill s h AArray (zero_cells (numel [0])) 0 rd fn vs); [reflexivity|simpl; lia|assumption].
  - assert (E : numel [n] = n) by (rewrite numel1 by lia; destruct (Z.eqb_spec n 0); lia).
    rewrite <- E at 1. apply (out_loop s h rd fn vs [n]); rewrite ?E.
    + lia.
    + rewrite map_length, zrange_length. lia.
    + assumption.
    + intros i Hi. rewrite map_length, zrange_length in Hi. rewrite nth_map_zrange by assumption. reflexivity.
Qed.

Lemma rank2 t dims : is_shape (t_sh t) dims -> length dims <> 2%nat -> (rank (t_sh t) =? 2) = false.
Proof. intros Hs Hl. rewrite (rank_spec _ _ Hs). lia. Qed.

Definition red_result (n : Z) (g : Z -> D) : list D := if n =? 0 then [d0] else map g (zrange n).

Theorem redop_ok fin s t axis h rows cols xs : holds h t [rows; cols] xs ->
  redop fin s t axis h =
  if axis =? 0
  then Ok (Tn (shape1 cols) (Some (length h)),
           h ++ [Some (Blk AArray (map Some (red_result cols (fun i => fin (accum (colvals xs rows cols i)) rows))))])
  else Ok (Tn (shape1 rows) (Some (length h)),
           h ++ [Some (Blk AArray (map Some (red_result rows (fun i => fin (accum (rowvals xs cols i)) cols))))]).
Proof.
  intros Ht. assert (Hs := holds_shape _ _ _ _ Ht). assert (Hl := holds_len _ _ _ _ Ht).
  destruct (valid2 rows cols (proj1 Hs)) as (Hr & Hc & Hm & Hcm & Hrm).
  unfold redop. rewrite (rank_spec _ _ Hs). cbn [length Z.of_nat Pos.of_succ_nat Pos.succ Z.eqb Pos.eqb cassert bind].
  rewrite (shape_at_nth _ _ 0 Hs) by (simpl; lia). rewrite (shape_at_nth _ _ 1 Hs) by (simpl; lia).
  cbn [bind Z.to_nat Pos.to_nat Pos.iter_op nth]. change (Pos.to_nat 1) with 1%nat. cbn [nth].
  destruct (axis =? 0).
  - destruct (mk1' cols ltac:(lia)) as [-> Hs1]. cbn [bind]. rewrite (t_new_ok _ [cols] h Hs1). cbn [bind t_data].
    eapply bind_eq; [|reflexivity].
    unfold red_result.
    apply (loop1 s h cols (fun i => map (fun j => (t_data t, j * cols + i)) (zrange rows))
                 (fun _ vs => Some (fin (accum vs) rows)) (colvals xs rows cols)); [lia|].
    intros i Hi. unfold colvals. apply Forall2_map2. intros j Hj. apply in_zrange in Hj.
    eapply holds_load; eauto. rewrite numel2 by lia. nia.
  - destruct (mk1' rows ltac:(lia)) as [-> Hs1]. cbn [bind]. rewrite (t_new_ok _ [rows] h Hs1). cbn [bind t_data].
    eapply bind_eq; [|reflexivity].
    unfold red_result.
    apply (loop1 s h rows (fun i => map (fun j => (t_data t, i * cols + j)) (zrange cols))
                 (fun _ vs => Some (fin (accum vs) cols)) (rowvals xs cols)); [lia|].
    intros i Hi. unfold rowvals. apply Forall2_map2. intros j Hj. apply in_zrange in Hj.
    eapply holds_load; eauto. rewrite numel2 by lia. nia.
Qed.

Theorem redop_abort fin s t axis h dims : is_shape (t_sh t) dims -> length dims <> 2%nat ->
  redop fin s t axis h = Abort.
Proof. intros Hs Hl. unfold redop. rewrite (rank2 t dims Hs Hl). reflexivity. Qed.

Definition ext (better : D -> D -> bool) (l : list D) : D :=
  match l with [] => d0 | a :: r => fold_left (fun m v => if better v m then v else m) r a end.

Lemma zrange_S n : 0 < n -> zrange n = 0 :: map (fun j => j + 1) (zrange (n - 1)).
Proof.
  intros H. unfold zrange. replace (Z.to_nat n) with (S (Z.to_nat (n - 1))) by lia. simpl. f_equal.
  rewrite <- seq_shift, !map_map. apply map_ext. intros a. lia.
Qed.

Theorem argop_ok better s t axis h rows cols xs : holds h t [rows; cols] xs ->
  (axis = 0 -> 0 < rows) ->
  argop better s t axis h =
  if axis =? 0
  then Ok (Tn (shape1 cols) (Some (length h)),
           h ++ [Some (Blk AArray (map Some (red_result cols (fun i => ext better (colvals xs rows cols i)))))])
  else Ok (Tn (shape1 rows) (Some (length h)),
           h ++ [Some (Blk AArray (map Some (red_result rows (fun i => ext better (rowvals xs cols i)))))]).
Proof.
  intros Ht Hax. assert (Hs := holds_shape _ _ _ _ Ht). assert (Hl := holds_len _ _ _ _ Ht).
  destruct (valid2 rows cols (proj1 Hs)) as (Hr & Hc & Hm & Hcm & Hrm).
  unfold argop. rewrite (rank_spec _ _ Hs). cbn [length Z.of_nat Pos.of_succ_nat Pos.succ Z.eqb Pos.eqb cassert bind].
  rewrite (shape_at_nth _ _ 0 Hs) by (simpl; lia). rewrite (shape_at_nth _ _ 1 Hs) by (simpl; lia).
  cbn [bind Z.to_nat Pos.to_nat Pos.iter_op nth]. change (Pos.to_nat 1) with 1%nat. cbn [nth].
  destruct (Z.eqb_spec axis 0) as [->|Hax0].
  - specialize (Hax eq_refl).
    destruct (mk1' cols ltac:(lia)) as [-> Hs1]. cbn [bind]. rewrite (t_new_ok _ [cols] h Hs1). cbn [bind t_data].
    eapply bind_eq; [|reflexivity].
    etransitivity; [apply (loop1 s h cols (fun i => (t_data t, i) :: map (fun j => (t_data t, (j + 1) * cols + i)) (zrange (rows - 1)))
                 (fun _ => scan better) (colvals xs rows cols)); [lia|]|].
    2:{ unfold red_result. do 5 f_equal. f_equal. destruct (cols =? 0); [reflexivity|]. apply map_ext_in. intros i Hi.
      unfold colvals. rewrite (zrange_S rows) by lia. reflexivity. }
    + intros i Hi. unfold colvals. rewrite (zrange_S rows) by lia. cbn [map]. constructor.
      * rewrite Z.mul_0_l, Z.add_0_l. eapply holds_load; eauto. rewrite numel2 by lia. nia.
      * rewrite map_map. apply Forall2_map2. intros j Hj. apply in_zrange in Hj.
        eapply holds_load; eauto. rewrite numel2 by lia. nia.
  - destruct (mk1' rows ltac:(lia)) as [-> Hs1]. cbn [bind]. rewrite (t_new_ok _ [rows] h Hs1). cbn [bind t_data].
    eapply bind_eq; [|reflexivity].
    etransitivity; [apply (loop1 s h rows (fun i => (t_data t, i * cols) :: map (fun j => (t_data t, i * cols + (j + 1))) (zrange (cols - 1)))
                 (fun _ => scan better) (rowvals xs cols)); [lia|]|].
    2:{ unfold red_result. do 5 f_equal. f_equal. destruct (rows =? 0); [reflexivity|]. apply map_ext_in. intros i Hi.
      unfold rowvals. rewrite (zrange_S cols) by lia. reflexivity. }
    + intros i Hi. unfold rowvals. rewrite (zrange_S cols) by lia. cbn [map]. constructor.
      * rewrite Z.add_0_r. eapply holds_load; eauto. rewrite numel2 by lia. nia.
      * rewrite map_map. apply Forall2_map2. intros j Hj. apply in_zrange in Hj.
        eapply holds_load; eauto. rewrite numel2 by lia. nia.
Qed.

Theorem argop_abort better s t axis h dims : is_shape (t_sh t) dims -> length dims <> 2%nat ->
  argop better s t axis h = Abort.
Proof. intros Hs Hl. unfold argop. rewrite (rank2 t dims Hs Hl). reflexivity. Qed.

(** Zero rows, two or more columns. *)
Theorem argop_undef better s t h cols xs : holds h t [0; cols] xs -> 2 <= cols ->
  is_undef (argop better s t 0 h).
Proof.
  intros Ht Hc2. assert (Hs := holds_shape _ _ _ _ Ht). assert (Hl := holds_len _ _ _ _ Ht).
  destruct (valid2 0 cols (proj1 Hs)) as (Hr & Hc & Hm & Hcm & Hrm).
  unfold argop. rewrite (rank_spec _ _ Hs). cbn [length Z.of_nat Pos.of_succ_nat Pos.succ Z.eqb Pos.eqb cassert bind].
  rewrite (shape_at_nth _ _ 0 Hs) by (simpl; lia). rewrite (shape_at_nth _ _ 1 Hs) by (simpl; lia).
  cbn [bind Z.to_nat Pos.to_nat Pos.iter_op nth]. change (Pos.to_nat 1) with 1%nat. cbn [nth].
  destruct (mk1' cols ltac:(lia)) as [-> Hs1]. cbn [bind]. rewrite (t_new_ok _ [cols] h Hs1). cbn [bind t_data].
  set (rd := fun i => (t_data t, i) :: map (fun j => (t_data t, (j + 1) * cols + i)) (zrange (0 - 1))).
  destruct (holds_data _ _ _ _ Ht) as (b1 & E1 & L1).
  eapply (family_undef s _ (length h) _ rd (fun _ => scan better) _ 1 (t_data t, 1)).
  - intros i a Hi [<-|Ha]; simpl; [|destruct Ha]; rewrite E1; intros E; injection E; lia.
  - lia.
  - now left.
  - intros v. rewrite (holds_load_oob _ t [0; cols] xs); [discriminate|apply holds_app; assumption|simpl; lia].
Qed.

(** ** Whole-tensor reductions *)
Lemma foldM_sum h p xs : forall m acc,
  (forall i, 0 <= i < Z.of_nat m -> load h (p, i) = Ok (nth (Z.to_nat i) xs d0)) -> (m <= length xs)%nat ->
  foldM (fun sum i => v <- load h (p, i) ;; Ok (dadd sum v)) (zrange (Z.of_nat m)) acc =
  Ok (fold_left dadd (firstn m xs) acc).
Proof.
  intros m acc Hld Hm. unfold zrange. rewrite Nat2Z.id.
  assert (G : forall n k acc, (k + n <= m)%nat ->
     foldM (fun sum i => v <- load h (p, i) ;; Ok (dadd sum v)) (map Z.of_nat (seq k n)) acc =
     Ok (fold_left dadd (firstn n (skipn k xs)) acc)).
  { induction n as [|n IH]; intros k a Hk; [reflexivity|]. simpl. rewrite (Hld (Z.of_nat k)) by lia.
    rewrite Nat2Z.id. simpl. rewrite IH by lia.
    assert (E : skipn k xs = nth k xs d0 :: skipn (S k) xs).
    { clear -Hk Hm. revert xs Hk Hm. revert m; induction k as [|k IHk]; intros m [|x xs] Hk Hm; simpl in *; try lia; [reflexivity|].
      rewrite (IHk (m - 1)%nat) by (simpl in *; lia). reflexivity. }
    rewrite E. reflexivity. }
  rewrite G by lia. reflexivity.
Qed.

Theorem reduce_sum_all_ok t h dims xs : holds h t dims xs -> reduce_sum_all t h = Ok (accum xs).
Proof.
  intros Ht. assert (Hs := holds_shape _ _ _ _ Ht). assert (Hl := holds_len _ _ _ _ Ht).
  unfold reduce_sum_all. rewrite (chunk0 _ _ Hs). cbn [bind]. rewrite <- Hl.
  rewrite (foldM_sum h (t_data t) xs); [now rewrite firstn_all| |lia].
  intros i Hi. eapply holds_load; eauto. lia.
Qed.

Theorem reduce_mean_all_ok t h dims xs : holds h t dims xs ->
  reduce_mean_all t h = Ok (ddiv (accum xs) (dofZ (numel dims))).
Proof.
  intros Ht. assert (Hs := holds_shape _ _ _ _ Ht). assert (Hl := holds_len _ _ _ _ Ht).
  unfold reduce_mean_all. rewrite (chunk0 _ _ Hs). cbn [bind]. rewrite <- Hl.
  rewrite (foldM_sum h (t_data t) xs); [now rewrite firstn_all| |lia].
  intros i Hi. eapply holds_load; eauto. lia.
Qed.

End TOps2.

(** TMem.v - construction, copy, assignment, fill loops, matmul (proofs). *)
From Verif Require Import Base Mem Par Tensor TensorOps TSpec TLemmas TOps TOps2.
Local Open Scope Z_scope.

Lemma foldM_map {A B S} (f : S -> B -> res S) (g : A -> B) l s :
  foldM f (map g l) s = foldM (fun s a => f s (g a)) l s.
Proof. revert s; induction l as [|a l IH]; intros s; simpl; [reflexivity|]. destruct (f s (g a)); simpl; auto. Qed.

Lemma foldM_ext {A S} (f g : S -> A -> res S) l s : (forall s a, f s a = g s a) -> foldM f l s = foldM g l s.
Proof. intros H. revert s; induction l as [|a l IH]; intros s; simpl; [reflexivity|]. rewrite H. destruct (g s a); simpl; auto. Qed.

Lemma foldM_app {A S} (f : S -> A -> res S) l1 l2 s : foldM f (l1 ++ l2) s = bind (foldM f l1 s) (foldM f l2).
Proof. revert s; induction l1 as [|a l IH]; intros s; simpl; [reflexivity|]. destruct (f s a); simpl; auto. Qed.

Section Seq.
Context {D : Type}.
Notation heap := (heap D).
Implicit Types h : heap.

Lemma seq_for_out (its : list (iter D)) h : (exists h', seq_for its h = Ok h') \/ is_undef (seq_for its h).
Proof.
  unfold seq_for. revert h; induction its as [|it its IH]; intros h; simpl; [eauto|].
  assert (H : (exists h', seq_iter h it = Ok h') \/ is_undef (seq_iter h it)).
  { unfold seq_iter. assert (Hm : (exists vs, mapM (load h) (it_reads it) = Ok vs) \/ is_undef (mapM (load h) (it_reads it))).
    { induction (it_reads it) as [|a l IHl]; simpl; [eauto|]. unfold load at 1 3, is_undef.
      destruct (hget h a) as [[v|]|]; simpl; eauto. destruct IHl as [(vs & ->)|[u ->]]; simpl; eauto. }
    destruct Hm as [(vs & ->)|[u ->]]; simpl; [|right; eexists; reflexivity].
    destruct (it_fun it vs); [|eauto]. unfold store, is_undef. destruct (hget h (it_write it)); eauto. }
  destruct H as [(h' & ->)|[u ->]]; simpl; [apply IH|right; eexists; reflexivity].
Qed.

Lemma seq_undef (its : list (iter D)) h : race_free its -> (exists it, In it its /\ ~ it_safe h it) ->
  is_undef (seq_for its h).
Proof.
  intros Hrf (it & Hin & Hn). destruct (seq_for_out its h) as [(h' & H)|H]; [|assumption].
  exfalso. apply Hn. eapply par_result_safe; [eapply seq_for_result; eauto|assumption].
Qed.

End Seq.

Section TMem.
Context {D : dtype}.
Notation heap := (heap D).
Implicit Types h : heap.

(** ** Copy loops *)
Lemma copy_loop_seq dst src n h :
  copy_loop dst src n h = seq_for (map (fun i => Iter [(src, i)] (f1 (fun x : D => x)) (dst, i)) (zrange n)) h.
Proof.
  unfold copy_loop, seq_for. rewrite foldM_map. apply foldM_ext. intros h' i. unfold seq_iter. simpl.
  destruct (load h' (src, i)); reflexivity.
Qed.

Lemma copy_loop_ok h b k cells src n xs :
  blk h b = Some (Blk k cells) -> 0 <= n <= Z.of_nat (length cells) ->
  (forall i, 0 <= i < n -> load h (src, i) = Ok (nth (Z.to_nat i) xs d0)) -> src <> Some b ->
  copy_loop (Some b) src n h =
  Ok (upd b (Some (Blk k (fill 0 n (fun i => Some (nth (Z.to_nat i) xs d0)) cells))) h).
Proof.
  intros Hb Hn Hld Hne. rewrite copy_loop_seq.
  apply (par_for_seq [] (map (fun i => Iter [(src, i)] (f1 (fun x : D => x)) (Some b, i)) (zrange n))).
  apply (par_fill_gen [] h b k cells 0 n (fun i => [(src, i)]) (fun _ => f1 (fun x => x))
             (fun i => [nth (Z.to_nat i) xs d0])); try lia; [assumption|].
    intros i Hi. constructor; [|constructor]. split; [auto|assumption].
Qed.

Lemma copy_loop_undef h b src n i :
  0 <= i < n -> (forall v, load h (src, i) <> Ok v) -> src <> Some b -> is_undef (copy_loop (Some b) src n h).
Proof.
  intros Hi Hl Hne. rewrite copy_loop_seq. apply seq_undef.
  - apply (rf_family n b (fun i => [(src, i)]) (fun _ => f1 (fun x => x)) 0).
    intros j a Hj [<-|[]]. assumption.
  - exists (Iter [(src, i)] (f1 (fun x => x)) (Some b, i)). split.
    + apply (in_map (fun i => Iter [(src, i)] (f1 (fun x => x)) (Some b, i))). apply in_zrange. assumption.
    + eapply it_unsafe; [now left|]. assumption.
Qed.

Lemma fill_prefix n xs (cells : list (option D)) : (n <= length cells)%nat -> (n <= length xs)%nat ->
  fill 0 (Z.of_nat n) (fun i => Some (nth (Z.to_nat i) xs d0)) cells = map Some (firstn n xs) ++ skipn n cells.
Proof.
  intros Hc Hx. apply nth_error_ext. intros i. unfold fill. rewrite nth_error_mapi, Base.nth_error_app, map_length, firstn_length.
  rewrite Nat.min_l by assumption. destruct (Nat.ltb_spec i n) as [Hi|Hi].
  - destruct (nth_error_lt cells i ltac:(lia)) as (c & ->). simpl. rewrite Z.sub_0_r.
    replace ((0 <=? Z.of_nat i) && (Z.of_nat i <? Z.of_nat n)) with true by lia.
    rewrite nth_error_map, Nat2Z.id. rewrite (nth_error_nth' (firstn n xs) d0) by (rewrite firstn_length; lia).
    simpl. do 2 f_equal. rewrite <- (firstn_skipn n xs) at 1. rewrite app_nth1 by (rewrite firstn_length; lia). reflexivity.
  - assert (E : nth_error (skipn n cells) (i - n) = nth_error cells i).
    { rewrite <- (firstn_skipn n cells) at 2. rewrite nth_error_app2 by (rewrite firstn_length; lia).
      rewrite firstn_length. do 2 f_equal. lia. }
    rewrite E. destruct (nth_error cells i) as [c|]; [|reflexivity]. simpl.
    replace ((0 <=? Z.of_nat i - 0) && (Z.of_nat i - 0 <? Z.of_nat n)) with false by lia. reflexivity.
Qed.

Theorem t_copy_ok t h dims xs : holds h t dims xs ->
  t_copy t h = Ok (Tn (t_sh t) (Some (length h)), h ++ [Some (Blk AArray (map Some xs))]).
Proof.
  intros Ht. assert (Hs := holds_shape _ _ _ _ Ht). assert (Hl := holds_len _ _ _ _ Ht).
  unfold t_copy. rewrite (copy_shape_id _ dims Hs). cbn [bind]. rewrite (chunk0 _ dims Hs). cbn [bind alloc].
  destruct (holds_data _ _ _ _ Ht) as (b & Hb & Hlt).
  eapply bind_eq.
  { apply (copy_loop_ok _ (length h) AArray (zero_cells (numel dims)) (t_data t) (numel dims) xs).
    - rewrite blk_app, Nat.eqb_refl. reflexivity.
    - rewrite zero_cells_length. lia.
    - intros i Hi. eapply holds_load; [apply holds_app; exact Ht|assumption].
    - rewrite Hb. intros E. injection E. lia. }
  cbn [bind]. rewrite upd_last. rewrite <- Hl, fill_prefix.
  - rewrite firstn_all, skipn_all2 by (rewrite zero_cells_length; lia). rewrite app_nil_r. reflexivity.
  - rewrite zero_cells_length. lia.
  - lia.
Qed.

Theorem t_copy_empty t h dims : empty_tensor t dims -> t_copy t h = Undef NullDeref.
Proof.
  intros [Hs Hd]. unfold t_copy. rewrite (copy_shape_id _ dims Hs). cbn [bind]. rewrite (chunk0 _ dims Hs).
  cbn [bind alloc]. assert (Hp := numel_pos' _ _ Hs). unfold copy_loop. rewrite (zrange_S (numel dims)) by assumption.
  rewrite Hd. reflexivity.
Qed.

(** ** Copy assignment *)
Theorem assign_same dst src h k dd xs ds ys :
  holds_k k h dst dd xs -> holds h src ds ys -> numel dd = numel ds ->
  t_copy_assign dst src h =
  Ok (Tn (t_sh src) (t_data dst),
      match t_data dst with Some b => upd b (Some (Blk k (map Some ys))) h | None => h end).
Proof.
  intros Hdk Hs He. assert (Hd : holds h dst dd xs) by (exists k; assumption).
  assert (Sd := holds_shape _ _ _ _ Hd). assert (Ss := holds_shape _ _ _ _ Hs).
  assert (Ld := holds_len _ _ _ _ Hd). assert (Ls := holds_len _ _ _ _ Hs).
  destruct Hdk as (_ & _ & b & Eb & Hb). unfold t_copy_assign.
  rewrite (chunk0 _ dd Sd). cbn [bind]. rewrite Eb. rewrite (chunk0 _ ds Ss). cbn [bind].
  destruct (Z.ltb_spec (numel dd) (numel ds)); [lia|]. cbn [bind].
  destruct Hs as (k2 & _ & _ & b2 & Eb2 & Hb2). rewrite Eb2.
  destruct (Nat.eq_dec b2 b) as [->|Hne].
  - (* the same buffer *)
    assert (E : Blk k2 (map Some ys) = Blk k (map Some xs)) by congruence. injection E as -> E.
    assert (Hself : copy_loop (Some b) (Some b) (numel dd) h = Ok h).
    { unfold copy_loop. assert (G : forall l, (forall i, In i l -> 0 <= i < numel dd) ->
         foldM (fun (h0 : heap) i => v <- load h0 (Some b, i) ;; store h0 (Some b, i) v) l h = Ok h).
      { induction l as [|i l IH]; intros HI; [reflexivity|]. simpl. specialize (HI i (or_introl eq_refl)) as Hi.
        assert (Hl : load h (Some b, i) = Ok (nth (Z.to_nat i) xs d0)).
        { rewrite <- Eb. eapply holds_load; eauto. }
        rewrite Hl. cbn [bind]. unfold store. apply load_ok in Hl as Hg. rewrite Hg. cbn [bind].
        assert (Eh : hset h (Some b, i) (nth (Z.to_nat i) xs d0) = h).
        { apply heap_ext; [apply skel_hset|]. intros a. rewrite hget_hset by congruence.
          destruct a as [[c|] j]; simpl; [|reflexivity]. destruct (Nat.eqb_spec b c) as [<-|]; [|reflexivity].
          simpl. destruct (Z.eqb_spec i j) as [<-|]; [symmetry; exact Hg|reflexivity]. }
        rewrite Eh. apply IH. intros j Hj. apply HI. now right. }
      apply G. intros i Hi. now apply in_zrange. }
    eapply bind_eq; [exact Hself|]. rewrite (assign_shape_id _ _ ds Ss). cbn [bind]. do 2 f_equal.
    symmetry. rewrite E. apply nth_error_ext. intros i. rewrite nth_error_upd.
    destruct (Nat.eqb_spec i b) as [->|]; [|reflexivity]. clear -Hb. unfold blk in Hb.
    destruct (nth_error h b) as [[kk|]|]; congruence.
  - eapply bind_eq.
    { apply (copy_loop_ok h b k (map Some xs) (Some b2) (numel dd) ys).
      - assumption.
      - rewrite map_length. lia.
      - intros i Hi. rewrite <- Eb2. eapply holds_load; [|rewrite <- He; exact Hi].
        exists k2. split; [exact Ss|]. split; [exact Ls|]. exists b2. auto.
      - congruence. }
    cbn [bind]. rewrite (assign_shape_id _ _ ds Ss). cbn [bind]. rewrite <- Ld.
    rewrite fill_prefix by (rewrite ?map_length; lia).
    rewrite skipn_all2 by (rewrite map_length; lia). rewrite app_nil_r.
    replace (length xs) with (length ys) by lia. rewrite firstn_all. reflexivity.
Qed.

(** Destination larger than the source: reads past the source. *)
Theorem assign_larger dst src h dd xs ds ys :
  holds h dst dd xs -> holds h src ds ys -> numel ds < numel dd -> is_undef (t_copy_assign dst src h).
Proof.
  intros Hd Hs Hlt. assert (Sd := holds_shape _ _ _ _ Hd). assert (Ss := holds_shape _ _ _ _ Hs).
  destruct Hd as (k & _ & Ld & b & Eb & Hb). unfold t_copy_assign.
  rewrite (chunk0 _ dd Sd). cbn [bind]. rewrite Eb. rewrite (chunk0 _ ds Ss). cbn [bind].
  destruct (Z.ltb_spec (numel dd) (numel ds)); [lia|]. cbn [bind].
  assert (Hne : t_data src <> Some b).
  { destruct Hs as (k2 & _ & Ls & b2 & Eb2 & Hb2). rewrite Eb2. intros E. injection E as ->.
    assert (E : Blk k2 (map Some ys) = Blk k (map Some xs)) by congruence. injection E as -> E.
    apply (f_equal (@length _)) in E. rewrite !map_length in E. lia. }
  assert (Hp := numel_pos' _ _ Ss).
  destruct (copy_loop_undef h b (t_data src) (numel dd) (numel ds)) as [u Hu]; [lia| |assumption|].
  - intros v. rewrite (holds_load_oob h src ds ys); [discriminate|assumption|lia].
  - exists u. rewrite Hu. reflexivity.
Qed.

(** Destination smaller: the buffer is replaced, only the old count is copied. *)
Theorem assign_smaller dst src h dd xs ds ys b :
  holds_k AArray h dst dd xs -> holds h src ds ys -> numel dd < numel ds -> t_data dst = Some b ->
  t_copy_assign dst src h =
  Ok (Tn (t_sh src) (Some (length h)),
      upd b None h ++ [Some (Blk AArray (map Some (firstn (length xs) ys) ++
                                         repeat None (length ys - length xs)))]).
Proof.
  intros Hdk Hs Hlt Eb. assert (Hd : holds h dst dd xs) by (exists AArray; assumption).
  assert (Sd := holds_shape _ _ _ _ Hd). assert (Ss := holds_shape _ _ _ _ Hs).
  assert (Ls := holds_len _ _ _ _ Hs).
  destruct Hdk as (_ & Ld & b' & Eb' & Hb). assert (b' = b) by congruence. subst b'. unfold t_copy_assign.
  rewrite (chunk0 _ dd Sd). cbn [bind]. rewrite Eb. rewrite (chunk0 _ ds Ss). cbn [bind].
  destruct (Z.ltb_spec (numel dd) (numel ds)); [|lia]. unfold free_array. rewrite Hb. cbn [b_kind bind alloc].
  rewrite upd_length.
  assert (Hne : t_data src <> Some b).
  { destruct Hs as (k2 & _ & _ & b2 & Eb2 & Hb2). rewrite Eb2. intros E. injection E as ->.
    assert (E : Blk k2 (map Some ys) = Blk AArray (map Some xs)) by congruence. injection E as -> E.
    apply (f_equal (@length _)) in E. rewrite !map_length in E. lia. }
  set (h1 := upd b None h ++ [Some (Blk AArray (repeat None (Z.to_nat (numel ds))))]).
  assert (Hh1 : holds h1 src ds ys).
  { apply holds_app. destruct Hs as (k2 & A & B & b2 & Eb2 & Hb2). exists k2. split; [assumption|].
    split; [assumption|]. exists b2. split; [assumption|]. rewrite blk_upd.
    destruct (Nat.eqb_spec b2 b) as [->|]; [congruence|assumption]. }
  eapply bind_eq.
  { apply (copy_loop_ok h1 (length h) AArray (repeat None (Z.to_nat (numel ds))) (t_data src) (numel dd) ys).
    - unfold h1. rewrite blk_app, upd_length, Nat.eqb_refl. reflexivity.
    - rewrite repeat_length. assert (Hp := numel_pos' _ _ Sd). lia.
    - intros i Hi. eapply holds_load; eauto. lia.
    - destruct (holds_data _ _ _ _ Hs) as (b2 & -> & Hl2). intros E. injection E. lia. }
  rewrite (assign_shape_id _ _ ds Ss). cbn [bind]. do 2 f_equal. unfold h1.
  replace (length h) with (length (upd b None h)) by apply upd_length. rewrite upd_last.
  do 4 f_equal. rewrite <- Ld. rewrite fill_prefix by (rewrite ?repeat_length; lia). f_equal.
  replace (Z.to_nat (numel ds)) with (length xs + (length ys - length xs))%nat by lia.
  rewrite repeat_app. rewrite skipn_app, repeat_length, Nat.sub_diag, skipn_all2 by (rewrite repeat_length; lia).
  reflexivity.
Qed.

(** Destination without a buffer. *)
Theorem assign_into_empty dst src h dd ds ys :
  empty_tensor dst dd -> holds h src ds ys ->
  (numel dd <= numel ds ->
   t_copy_assign dst src h =
   Ok (Tn (t_sh src) (Some (length h)), h ++ [Some (Blk AArray (map Some (firstn (Z.to_nat (numel dd)) ys)))])) /\
  (numel ds < numel dd -> is_undef (t_copy_assign dst src h)).
Proof.
  intros [Sd Ed] Hs. assert (Ss := holds_shape _ _ _ _ Hs). assert (Ls := holds_len _ _ _ _ Hs).
  assert (Hp := numel_pos' _ _ Sd). assert (Hp2 := numel_pos' _ _ Ss).
  destruct (holds_data _ _ _ _ Hs) as (b2 & Eb2 & Hl2).
  unfold t_copy_assign. rewrite (chunk0 _ dd Sd). cbn [bind]. rewrite Ed. cbn [alloc bind].
  split; intros Hle.
  - eapply bind_eq.
    { apply (copy_loop_ok _ (length h) AArray (zero_cells (numel dd)) (t_data src) (numel dd) ys).
      - rewrite blk_app, Nat.eqb_refl. reflexivity.
      - rewrite zero_cells_length. lia.
      - intros i Hi. eapply holds_load; [apply holds_app; exact Hs|lia].
      - rewrite Eb2. intros E. injection E. lia. }
    cbn [bind]. rewrite (assign_shape_id _ _ ds Ss). cbn [bind]. rewrite upd_last.
    replace (numel dd) with (Z.of_nat (Z.to_nat (numel dd))) at 1 by lia.
    rewrite fill_prefix by (rewrite ?zero_cells_length; lia).
    rewrite skipn_all2 by (rewrite zero_cells_length; lia). rewrite app_nil_r. reflexivity.
  - destruct (copy_loop_undef (h ++ [Some (Blk AArray (zero_cells (numel dd)))]) (length h) (t_data src) (numel dd) (numel ds))
      as [u Hu]; [lia| | |exists u; rewrite Hu; reflexivity].
    + intros v. rewrite (holds_load_oob _ src ds ys); [discriminate|apply holds_app; assumption|lia].
    + rewrite Eb2. intros E. injection E. lia.
Qed.

(** Source without a buffer. *)
Theorem assign_from_empty dst src h dd xs ds :
  holds_k AArray h dst dd xs \/ empty_tensor dst dd -> empty_tensor src ds -> is_undef (t_copy_assign dst src h).
Proof.
  intros Hd [Ss Es].
  assert (Sd : is_shape (t_sh dst) dd) by (destruct Hd as [H|H]; apply H).
  assert (Hp := numel_pos' _ _ Sd). unfold t_copy_assign. rewrite (chunk0 _ dd Sd). cbn [bind].
  assert (Hu : forall p h1, p <> None -> is_undef (copy_loop p (t_data src) (numel dd) h1)).
  { intros p h1 Hn. unfold copy_loop. rewrite (zrange_S (numel dd)) by assumption. rewrite Es. eexists. reflexivity. }
  assert (Hk : forall p h1 (k : heap -> res (tensor * heap)), p <> None ->
             is_undef (bind (copy_loop p (t_data src) (numel dd) h1) k)).
  { intros p h1 k Hn. destruct (Hu p h1 Hn) as [u ->]. eexists; reflexivity. }
  destruct (t_data dst) as [b|] eqn:Eb.
  - rewrite (chunk0 _ ds Ss). cbn [bind]. destruct (numel dd <? numel ds).
    + destruct Hd as [(_ & _ & b' & Eb' & Hb)|[_ H]]; [|congruence].
      assert (b' = b) by congruence. subst. unfold free_array. rewrite Hb. cbn [b_kind bind alloc]. apply Hk. congruence.
    + cbn [bind]. apply Hk. congruence.
  - cbn [alloc bind]. apply Hk. congruence.
Qed.

Theorem t_move_ctor_ok t h dims xs : holds h t dims xs ->
  t_move_ctor t h = Ok (Tn (t_sh t) (Some (length h)), h ++ [Some (Blk AArray (map Some xs))]).
Proof.
  intros Ht. assert (Hs := holds_shape _ _ _ _ Ht). assert (Hl := holds_len _ _ _ _ Ht).
  unfold t_move_ctor. rewrite (copy_shape_id _ dims Hs). cbn [bind].
  rewrite (proj1 (assign_into_empty (Tn (t_sh t) None) t h dims dims xs (conj Hs eq_refl) Ht) ltac:(lia)).
  rewrite firstn_all2 by lia. reflexivity.
Qed.

Theorem t_move_ctor_empty t h dims : empty_tensor t dims -> is_undef (t_move_ctor t h).
Proof.
  intros [Hs Hd]. unfold t_move_ctor. rewrite (copy_shape_id _ dims Hs). cbn [bind].
  apply (assign_from_empty (Tn (t_sh t) None) t h dims [] dims); [right; split; auto|split; auto].
Qed.

(** ** Fill loops *)
Lemma hset_blk h b k cells i v : blk h b = Some (Blk k cells) -> 0 <= i < Z.of_nat (length cells) ->
  store h (Some b, i) v = Ok (upd b (Some (Blk k (upd (Z.to_nat i) (Some v) cells))) h).
Proof.
  intros Hb Hi. unfold store, hget, hset. simpl. rewrite Hb. replace (0 <=? i) with true by lia. simpl.
  destruct (nth_error_lt cells (Z.to_nat i) ltac:(lia)) as (c & ->). reflexivity.
Qed.

Lemma upd_upd {A} b (x y : A) l : upd b x (upd b y l) = upd b x l.
Proof. revert b; induction l as [|a l IH]; intros [|b]; simpl; congruence. Qed.

Lemma fill_loop_ok b k (g : Z -> D) idx n : forall h cells,
  blk h b = Some (Blk k cells) -> (forall i, 0 <= i < n -> 0 <= idx i < Z.of_nat (length cells)) ->
  fill_loop (Some b) g idx n h =
  Ok (upd b (Some (Blk k (fold_left (fun c i => upd (Z.to_nat (idx i)) (Some (g i)) c) (zrange n) cells))) h).
Proof.
  unfold fill_loop. assert (G : forall l h cells, blk h b = Some (Blk k cells) ->
     (forall i, In i l -> 0 <= idx i < Z.of_nat (length cells)) ->
     foldM (fun (h : heap) i => store h (Some b, idx i) (g i)) l h =
     Ok (upd b (Some (Blk k (fold_left (fun c i => upd (Z.to_nat (idx i)) (Some (g i)) c) l cells))) h)).
  { induction l as [|i l IH]; intros h cells Hb HI; simpl.
    - f_equal. apply nth_error_ext. intros i. rewrite nth_error_upd. destruct (Nat.eqb_spec i b) as [->|]; [|reflexivity].
      unfold blk in Hb. destruct (nth_error h b) as [[?|]|]; congruence.
    - rewrite (hset_blk h b k cells) by (auto; apply HI; now left). cbn [bind].
      rewrite (IH _ (upd (Z.to_nat (idx i)) (Some (g i)) cells)).
      + now rewrite upd_upd.
      + rewrite blk_upd, Nat.eqb_refl. assert (H := blk_lt _ _ _ Hb).
        destruct (nth_error h b) eqn:E; [reflexivity|]. apply nth_error_None in E. lia.
      + intros j Hj. rewrite upd_length. apply HI. now right. }
  intros h cells Hb HI. apply G; [assumption|]. intros i Hi. apply HI. now apply in_zrange.
Qed.

Lemma fold_upd_nth (g : Z -> D) (idx : Z -> Z) l : forall cells j,
  (forall i i', In i l -> In i' l -> idx i = idx i' -> i = i') ->
  (forall i, In i l -> 0 <= idx i < Z.of_nat (length cells)) ->
  nth_error (fold_left (fun c i => upd (Z.to_nat (idx i)) (Some (g i)) c) l cells) j =
  match find (fun i => idx i =? Z.of_nat j) l with Some i => Some (Some (g i)) | None => nth_error cells j end.
Proof.
  induction l as [|i l IH]; intros cells j Hinj HI; [reflexivity|]. cbn [fold_left find].
  rewrite IH.
  - destruct (find (fun i0 => idx i0 =? Z.of_nat j) l) as [i'|] eqn:Ef.
    + apply find_some in Ef as [Hin He]. destruct (Z.eqb_spec (idx i) (Z.of_nat j)) as [E|]; [|reflexivity].
      assert (i = i') by (apply Hinj; [now left|now right|lia]). congruence.
    + rewrite nth_error_upd. specialize (HI i (or_introl eq_refl)).
      destruct (Nat.eqb_spec j (Z.to_nat (idx i))) as [->|Hn].
      * rewrite Z2Nat.id, Z.eqb_refl by lia. destruct (nth_error_lt cells (Z.to_nat (idx i)) ltac:(lia)) as (c & ->). reflexivity.
      * destruct (Z.eqb_spec (idx i) (Z.of_nat j)); [lia|reflexivity].
  - intros a a' Ha Ha'. apply Hinj; now right.
  - intros a Ha. rewrite upd_length. apply HI. now right.
Qed.

Theorem t_new_dims_ok dims h : ints dims -> valid_dims dims ->
  exists s, is_shape s dims /\ mk_shape dims = Ok s /\
  t_new_dims dims h = Ok (Tn s (Some (length h)), h ++ [Some (Blk AArray (map Some (repeat d0 (Z.to_nat (numel dims)))))]).
Proof.
  intros Hi Hv. eexists. split; [|split; [apply mk_shape_ok; assumption|]]; [repeat split; apply Hv|].
  unfold t_new_dims. rewrite mk_shape_ok by assumption. cbn [bind].
  erewrite (t_new_ok _ dims h); [|repeat split; apply Hv]. rewrite zero_cells_map. reflexivity.
Qed.

(** A fresh tensor all of whose elements are then written with [draw]. *)
Theorem t_gaussian_ok draw dims h : ints dims -> valid_dims dims ->
  exists s, is_shape s dims /\
  t_gaussian draw dims h = Ok (Tn s (Some (length h)), h ++ [Some (Blk AArray (map Some (map draw (zrange (numel dims)))))]).
Proof.
  intros Hi Hv. exists (TSh dims (map (chunk_spec dims) (seq 0 (length dims)))).
  assert (Hs : is_shape (TSh dims (map (chunk_spec dims) (seq 0 (length dims)))) dims) by (repeat split; apply Hv).
  split; [assumption|]. unfold t_gaussian. rewrite mk_shape_ok by assumption. cbn [bind].
  rewrite (t_new_ok _ dims h Hs). cbn [bind t_sh t_data]. rewrite (chunk0 _ dims Hs). cbn [bind].
  eapply bind_eq.
  { apply (fill_loop_ok (length h) AArray draw (fun i => i) (numel dims) _ (zero_cells (numel dims))).
    - rewrite blk_app, Nat.eqb_refl. reflexivity.
    - intros i Hi'. rewrite zero_cells_length. lia. }
  cbn [bind]. rewrite upd_last. do 6 f_equal. apply nth_error_ext. intros j.
  rewrite fold_upd_nth; [|auto|intros i Hi'; apply in_zrange in Hi'; rewrite zero_cells_length; lia].
  rewrite !nth_error_map. destruct (find (fun i => i =? Z.of_nat j) (zrange (numel dims))) as [i|] eqn:Ef.
  - apply find_some in Ef as [Hin He]. apply in_zrange in Hin. rewrite zrange_nth by lia. simpl. do 3 f_equal. lia.
  - destruct (Nat.lt_ge_cases j (Z.to_nat (numel dims))) as [Hj|Hj].
    + exfalso. assert (Hin : In (Z.of_nat j) (zrange (numel dims))) by (apply in_zrange; lia).
      apply (find_none _ _ Ef) in Hin. lia.
    + rewrite (proj2 (nth_error_None (zrange (numel dims)) j)) by (rewrite zrange_length; lia).
      apply nth_error_None. rewrite zero_cells_length. lia.
Qed.

Theorem t_ones_ok dims h : ints dims -> valid_dims dims ->
  exists s, is_shape s dims /\
  t_ones dims h = Ok (Tn s (Some (length h)), h ++ [Some (Blk AArray (map Some (repeat d1 (Z.to_nat (numel dims)))))]).
Proof.
  intros Hi Hv. destruct (t_gaussian_ok (fun _ => d1) dims h Hi Hv) as (s & Hs & E). exists s. split; [assumption|].
  replace (repeat d1 (Z.to_nat (numel dims))) with (map (fun _ : Z => @d1 D) (zrange (numel dims))).
  - rewrite <- E. unfold t_ones, t_gaussian. destruct (mk_shape dims) as [s0| | |] eqn:Em; cbn [bind]; try reflexivity.
    unfold t_new. assert (Hs0 := mk_shape_inv _ _ Hi Em). rewrite (copy_shape_id _ _ Hs0). cbn [bind].
    rewrite (chunk0 _ _ Hs0). cbn [bind alloc t_sh]. rewrite (chunk0 _ _ Hs0). reflexivity.
  - unfold zrange. rewrite map_map. generalize 0%nat. induction (Z.to_nat (numel dims)); intros m; simpl; [reflexivity|].
    f_equal. apply IHn.
Qed.

(** Diagonal position. *)
Definition eye_list (n : Z) : list D :=
  map (fun q => if q / n =? q mod n then d1 else d0) (zrange (n * n)).

Lemma valid_sq n : 0 < n -> n * n <= INT_MAX -> valid_dims [n; n].
Proof.
  intros Hn Hm. split.
  - simpl. split; [lia|]. constructor; [assumption|constructor].
  - apply fits_cons. split; [unfold prodZ; simpl; lia|]. apply fits_cons. split; [unfold prodZ; simpl; nia|apply fits_nil].
Qed.

Theorem t_eyes_ok n h : 0 < n -> n * n <= INT_MAX ->
  exists s, is_shape s [n; n] /\
  t_eyes n h = Ok (Tn s (Some (length h)), h ++ [Some (Blk AArray (map Some (eye_list n)))]).
Proof.
  intros Hn Hm. assert (Hv := valid_sq n Hn Hm). assert (Hi := valid_ints _ Hv).
  exists (TSh [n; n] (map (chunk_spec [n; n]) (seq 0 2))).
  assert (Hs : is_shape (TSh [n; n] (map (chunk_spec [n; n]) (seq 0 2))) [n; n]) by (repeat split; apply Hv).
  split; [assumption|]. unfold t_eyes. rewrite mk_shape_ok by assumption. cbn [bind length].
  rewrite (t_new_ok _ [n; n] h Hs). cbn [bind t_sh t_data].
  assert (En : numel [n; n] = n * n) by (apply numel2; lia). rewrite En.
  eapply bind_eq.
  { apply (fill_loop_ok (length h) AArray (fun _ => d1) (fun i => i * n + i) n _ (zero_cells (n * n))).
    - rewrite blk_app, Nat.eqb_refl. reflexivity.
    - intros i Hi'. rewrite zero_cells_length. nia. }
  cbn [bind]. rewrite upd_last. do 6 f_equal. apply nth_error_ext. intros j.
  rewrite fold_upd_nth; [|intros a a' _ _ E; nia|intros i Hi'; apply in_zrange in Hi'; rewrite zero_cells_length; nia].
  unfold eye_list. rewrite !nth_error_map. unfold zero_cells. rewrite nth_error_repeat.
  destruct (Nat.ltb_spec j (Z.to_nat (n * n))) as [Hj|Hj].
  - rewrite zrange_nth by assumption. simpl. set (q := Z.of_nat j).
    assert (Hq : 0 <= q < n * n) by (unfold q; lia).
    assert (Hdm := Z.div_mod q n ltac:(lia)). assert (Hmb := Z.mod_pos_bound q n Hn).
    assert (Hdb : 0 <= q / n < n) by (split; [apply Z.div_pos; lia|apply Z.div_lt_upper_bound; lia]).
    destruct (find (fun i => i * n + i =? q) (zrange n)) as [i|] eqn:Ef.
    + apply find_some in Ef as [Hin He]. apply in_zrange in Hin. apply Z.eqb_eq in He.
      assert (q / n = i) by (symmetry; apply (Z.div_unique q n i i); lia).
      assert (q mod n = i) by nia. destruct (Z.eqb_spec (q / n) (q mod n)); [reflexivity|lia].
    + destruct (Z.eqb_spec (q / n) (q mod n)) as [E|]; [|reflexivity]. exfalso.
      assert (Hin : In (q / n) (zrange n)) by (apply in_zrange; lia).
      apply (find_none _ _ Ef) in Hin. apply Z.eqb_neq in Hin. nia.
  - rewrite (proj2 (nth_error_None (zrange (n * n)) j)) by (rewrite zrange_length; lia). simpl.
    destruct (find _ _) as [i|] eqn:Ef; [|reflexivity].
    apply find_some in Ef as [Hin He]. apply in_zrange in Hin. apply Z.eqb_eq in He. nia.
Qed.

(** ** matmul *)
Definition mmval (xs ys : list D) (k n i j : Z) : D :=
  fold_left (fun acc l => dadd acc (dmul (nth (Z.to_nat (i * k + l)) xs d0) (nth (Z.to_nat (l * n + j)) ys d0)))
            (zrange k) d0.
Definition mm_list (xs ys : list D) (m k n : Z) : list D :=
  map (fun q => mmval xs ys k n (q / n) (q mod n)) (zrange (m * n)).

Lemma dot_flat {A} (f g : A -> D) l acc :
  dot acc (flat_map (fun x => [f x; g x]) l) = fold_left (fun acc x => dadd acc (dmul (f x) (g x))) l acc.
Proof. revert acc; induction l as [|x l IH]; intros acc; simpl; auto. Qed.

Lemma mm_row_ok sch h b kd cells p1 p2 m k n i xs ys :
  blk h b = Some (Blk kd cells) -> p1 <> Some b -> p2 <> Some b ->
  (forall q, 0 <= q < m * k -> load h (p1, q) = Ok (nth (Z.to_nat q) xs d0)) ->
  (forall q, 0 <= q < k * n -> load h (p2, q) = Ok (nth (Z.to_nat q) ys d0)) ->
  0 < k -> 0 < n -> 0 <= i < m -> m * n <= Z.of_nat (length cells) ->
  par_for sch (map (mm_iter p1 p2 (Some b) k n i) (zrange n)) h =
  Ok (upd b (Some (Blk kd (fill (i * n) n (fun j => Some (mmval xs ys k n i j)) cells))) h).
Proof.
  intros Hb N1 N2 L1 L2 Hk Hn Hi Hlen.
  assert (E := par_fill_gen sch h b kd cells (i * n) n
     (fun j => flat_map (fun l => [(p1, i * k + l); (p2, l * n + j)]) (zrange k))
     (fun _ vs => Some (dot d0 vs))
     (fun j => flat_map (fun l => [nth (Z.to_nat (i * k + l)) xs d0; nth (Z.to_nat (l * n + j)) ys d0]) (zrange k))).
  etransitivity; [apply E|].
  - assumption.
  - nia.
  - lia.
  - nia.
  - intros j Hj. assert (G : forall l, (forall z, In z l -> 0 <= z < k) ->
       Forall2 (fun (a : addr) v => load h a = Ok v /\ fst a <> Some b)
        (flat_map (fun l => [(p1, i * k + l); (p2, l * n + j)]) l)
        (flat_map (fun l => [nth (Z.to_nat (i * k + l)) xs d0; nth (Z.to_nat (l * n + j)) ys d0]) l)).
    { induction l as [|z l IH]; intros Hl; simpl; [constructor|]. assert (Hz := Hl z (or_introl eq_refl)).
      constructor; [split; [apply L1; nia|assumption]|]. constructor; [split; [apply L2; nia|assumption]|].
      apply IH. intros w Hw. apply Hl. now right. }
    apply G. intros z Hz. now apply in_zrange.
  - do 4 f_equal. unfold fill. unfold mapi. 
    assert (G : forall f g : nat -> option D -> option D, (forall a c, f a c = g a c) -> forall l s, mapi_from s f l = mapi_from s g l).
    { intros f g Hfg l. induction l; intros s; simpl; [reflexivity|]. f_equal; auto. }
    apply G. intros a c. cbv beta zeta. destruct ((0 <=? Z.of_nat a - i * n) && (Z.of_nat a - i * n <? n)); [|reflexivity].
    f_equal. apply (dot_flat (fun l => nth (Z.to_nat (i * k + l)) xs d0) (fun l => nth (Z.to_nat (l * n + (Z.of_nat a - i * n))) ys d0)).
Qed.

Lemma zrange_snoc n : 0 <= n -> zrange (n + 1) = zrange n ++ [n].
Proof.
  intros Hn. unfold zrange. replace (Z.to_nat (n + 1)) with (S (Z.to_nat n)) by lia.
  rewrite seq_S, map_app. simpl. do 2 f_equal. lia.
Qed.

Lemma mm_rows_ok sch h b kd cells p1 p2 m k n xs ys :
  blk h b = Some (Blk kd cells) -> p1 <> Some b -> p2 <> Some b ->
  (forall q, 0 <= q < m * k -> load h (p1, q) = Ok (nth (Z.to_nat q) xs d0)) ->
  (forall q, 0 <= q < k * n -> load h (p2, q) = Ok (nth (Z.to_nat q) ys d0)) ->
  0 < k -> 0 < n -> 0 <= m -> m * n <= Z.of_nat (length cells) ->
  mm_rows sch p1 p2 (Some b) m k n h =
  Ok (upd b (Some (Blk kd (fill 0 (m * n) (fun q => Some (mmval xs ys k n (q / n) (q mod n))) cells))) h).
Proof.
  intros Hb N1 N2 L1 L2 Hk Hn Hm Hlen. unfold mm_rows.
  assert (G : forall r, 0 <= r -> r <= m ->
     foldM (fun h i => par_for (sch i) (map (mm_iter p1 p2 (Some b) k n i) (zrange n)) h) (zrange r) h =
     Ok (upd b (Some (Blk kd (fill 0 (r * n) (fun q => Some (mmval xs ys k n (q / n) (q mod n))) cells))) h)).
  { assert (Hnth : nth_error h b = Some (Some (Blk kd cells))).
    { unfold blk in Hb. destruct (nth_error h b) as [[?|]|]; congruence. }
    apply (natlike_ind (fun r => r <= m -> foldM _ (zrange r) h = Ok _)).
    - intros _. simpl. f_equal. apply nth_error_ext. intros i. rewrite nth_error_upd, Hnth.
      destruct (Nat.eqb_spec i b) as [->|]; [|reflexivity]. rewrite Hnth. do 3 f_equal.
      apply nth_error_ext. intros j. unfold fill. rewrite nth_error_mapi. destruct (nth_error cells j); [|reflexivity].
      simpl. replace ((0 <=? Z.of_nat j - 0) && (Z.of_nat j - 0 <? 0)) with false by lia. reflexivity.
    - intros r Hr IH Hle. unfold Z.succ. rewrite zrange_snoc, foldM_app, IH by lia. cbn [bind foldM].
      eapply bind_eq; [|].
      { apply (mm_row_ok (sch r) _ b kd (fill 0 (r * n) (fun q => Some (mmval xs ys k n (q / n) (q mod n))) cells)
               p1 p2 m k n r xs ys); auto; try lia.
        - rewrite blk_upd, Nat.eqb_refl, Hnth. reflexivity.
        - intros q Hq. rewrite <- (L1 q Hq). unfold load, hget, bad_addr. simpl. destruct p1 as [c|]; [|reflexivity].
          rewrite blk_upd. destruct (Nat.eqb_spec c b) as [->|]; [congruence|reflexivity].
        - intros q Hq. rewrite <- (L2 q Hq). unfold load, hget, bad_addr. simpl. destruct p2 as [c|]; [|reflexivity].
          rewrite blk_upd. destruct (Nat.eqb_spec c b) as [->|]; [congruence|reflexivity].
        - unfold fill. rewrite mapi_length. assumption. }
      rewrite upd_upd. do 4 f_equal. apply nth_error_ext. intros j. unfold fill. rewrite !nth_error_mapi.
      destruct (nth_error cells j) as [c|]; [|reflexivity]. simpl. rewrite Z.sub_0_r. f_equal.
      set (q := Z.of_nat j). assert (0 <= q) by (unfold q; lia).
      replace (0 <=? q) with true by lia. cbn [andb].
      destruct ((0 <=? q - r * n) && (q - r * n <? n)) eqn:E1.
      + assert (Hq : r * n <= q < r * n + n) by lia.
        destruct (Z.ltb_spec q ((r + 1) * n)); [|nia].
        assert (q / n = r) by (symmetry; apply (Z.div_unique q n r (q - r * n)); nia).
        assert (q mod n = q - r * n) by (rewrite Z.mod_eq by lia; nia). congruence.
      + destruct (Z.ltb_spec q (r * n)); destruct (Z.ltb_spec q ((r + 1) * n)); try reflexivity; nia. }
  apply G; lia.
Qed.

Lemma mm_list_length xs ys m k n : length (mm_list xs ys m k n) = Z.to_nat (m * n).
Proof. unfold mm_list. now rewrite map_length, zrange_length. Qed.

Lemma fill_mm xs ys m k n cells : 0 <= m * n <= Z.of_nat (length cells) ->
  fill 0 (m * n) (fun q => Some (mmval xs ys k n (q / n) (q mod n))) cells =
  map Some (mm_list xs ys m k n) ++ skipn (Z.to_nat (m * n)) cells.
Proof.
  intros H. apply nth_error_ext. intros i. unfold fill. rewrite nth_error_mapi, Base.nth_error_app, map_length, mm_list_length.
  destruct (Nat.ltb_spec i (Z.to_nat (m * n))) as [Hi|Hi].
  - destruct (nth_error_lt cells i ltac:(lia)) as (c & ->). simpl. rewrite Z.sub_0_r.
    replace ((0 <=? Z.of_nat i) && (Z.of_nat i <? m * n)) with true by lia.
    unfold mm_list. rewrite !nth_error_map, zrange_nth by lia. reflexivity.
  - assert (E : nth_error (skipn (Z.to_nat (m * n)) cells) (i - Z.to_nat (m * n)) = nth_error cells i).
    { rewrite <- (firstn_skipn (Z.to_nat (m * n)) cells) at 2. rewrite nth_error_app2 by (rewrite firstn_length; lia).
      rewrite firstn_length. do 2 f_equal. lia. }
    rewrite E. destruct (nth_error cells i) as [c|]; [|reflexivity]. simpl.
    replace ((0 <=? Z.of_nat i - 0) && (Z.of_nat i - 0 <? m * n)) with false by lia. reflexivity.
Qed.

End TMem.

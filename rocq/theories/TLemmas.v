(** TLemmas.v - shapes, allocation, and the workhorse lemma [par_fill]. *)
From Verif Require Import Base Mem Par Tensor TensorOps TSpec.
Local Open Scope Z_scope.

(** * Shapes *)

Lemma prodZ_pos l : Forall (fun y => 0 < y) l -> 0 < prodZ l.
Proof. induction 1; simpl; [lia|]. nia. Qed.

Lemma shape_asserts_S i l : shape_asserts (S i) l = if forallb (fun y => 0 <? y) l then Ok tt else Abort.
Proof.
  revert i; induction l as [|x l IH]; intros i; simpl; [reflexivity|].
  rewrite IH. destruct (0 <? x); reflexivity.
Qed.

Lemma forallb_pos l : forallb (fun y => 0 <? y) l = true <-> Forall (fun y => 0 < y) l.
Proof.
  rewrite forallb_forall, Forall_forall. split; intros H x Hx; specialize (H x Hx); lia.
Qed.

Lemma asserts_ok l : l <> [] -> (shape_asserts 0 l = Ok tt <-> signs_ok l) /\
                                (shape_asserts 0 l = Abort <-> ~ signs_ok l).
Proof.
  destruct l as [|x l]; [congruence|]. intros _. cbn [shape_asserts signs_ok]. rewrite shape_asserts_S.
  unfold cassert. destruct (Z.leb_spec 0 x) as [Hx|Hx]; simpl.
  - destruct (forallb (fun y => 0 <? y) l) eqn:E.
    + apply forallb_pos in E. split; split; auto; try discriminate; tauto.
    + assert (~ Forall (fun y => 0 < y) l) by (rewrite <- forallb_pos; congruence).
      split; split; auto; try discriminate; tauto.
  - split; split; auto; try discriminate; intros; lia.
Qed.

(** The chunk vector before the fix-up of line 26. *)
Definition raw_chunks (l : list Z) : list Z := map (fun i => prodZ (skipn i l)) (seq 0 (length l)).

Lemma raw_chunks_cons x l : raw_chunks (x :: l) = prodZ (x :: l) :: raw_chunks l.
Proof.
  unfold raw_chunks. simpl length. simpl seq. cbn [map]. f_equal.
  rewrite <- seq_shift, map_map. reflexivity.
Qed.

Lemma fits_cons x l : fits (x :: l) <-> prodZ (x :: l) <= INT_MAX /\ fits l.
Proof.
  unfold fits. split.
  - intros H. split; [apply (H 0%nat); simpl; lia|]. intros i Hi. apply (H (S i)). simpl; lia.
  - intros [H0 H] [|i] Hi; [exact H0|]. simpl. apply H. simpl in Hi. lia.
Qed.

Lemma fits_nil : fits [].
Proof. intros i Hi. simpl in Hi. lia. Qed.

Lemma chunk_loop_cons2 x y l : chunk_loop (x :: y :: l) =
  (cs <- chunk_loop (y :: l) ;; c <- imul x (hd 0 cs) ;; _ <- cassert (0 <=? c) ;; Ok (c :: cs)).
Proof. reflexivity. Qed.

Lemma chunk_loop_spec l :
  l <> [] -> ints l -> signs_ok l ->
  (fits l -> chunk_loop l = Ok (raw_chunks l)) /\ (~ fits l -> chunk_loop l = Undef IntOverflow).
Proof.
  induction l as [|x l IH]; [congruence|]. intros _ Hi Hs.
  destruct l as [|y l].
  - simpl. split.
    + intros _. unfold raw_chunks. simpl. do 2 f_equal. lia.
    + intros Hf. exfalso. apply Hf. apply fits_cons. split; [|apply fits_nil].
      simpl. inversion Hi; subst. lia.
  - inversion Hi as [|? ? Hx Hi']; subst. simpl in Hs. destruct Hs as [Hx0 Hpos].
    assert (Hs' : signs_ok (y :: l)).
    { simpl. inversion Hpos; subst. split; [lia|assumption]. }
    destruct (IH ltac:(congruence) Hi' Hs') as [IH1 IH2].
    assert (Hp : 0 < prodZ (y :: l)) by (apply prodZ_pos; assumption).
    rewrite chunk_loop_cons2. split.
    + intros Hf. apply fits_cons in Hf as [Hf0 Hf]. rewrite (IH1 Hf). cbn [bind].
      rewrite (raw_chunks_cons x), (raw_chunks_cons y). cbn [hd]. unfold imul, int_ok.
      change (prodZ (x :: y :: l)) with (x * prodZ (y :: l)) in *.
      assert (0 <= x * prodZ (y :: l)) by nia. unfold INT_MIN, INT_MAX in *.
      replace ((-2147483648 <=? x * prodZ (y :: l)) && (x * prodZ (y :: l) <=? 2147483647)) with true by lia.
      cbn [bind]. unfold cassert. replace (0 <=? x * prodZ (y :: l)) with true by lia. reflexivity.
    + intros Hf. assert (Hdec : fits (y :: l) \/ ~ fits (y :: l)).
      { clear. induction (y :: l) as [|z m IHm]; [left; apply fits_nil|].
        destruct IHm as [H|H]; [|right; rewrite fits_cons; tauto].
        destruct (Z_le_dec (prodZ (z :: m)) INT_MAX); rewrite fits_cons; tauto. }
      destruct Hdec as [Hd|Hd].
      * rewrite (IH1 Hd). cbn [bind]. rewrite (raw_chunks_cons y). cbn [hd].
        assert (Hb : ~ x * prodZ (y :: l) <= INT_MAX).
        { intros Hb. apply Hf. apply fits_cons. split; [exact Hb|exact Hd]. }
        unfold imul, int_ok.
        replace ((INT_MIN <=? x * prodZ (y :: l)) && (x * prodZ (y :: l) <=? INT_MAX)) with false by lia.
        reflexivity.
      * rewrite (IH2 Hd). reflexivity.
Qed.

Lemma numel_pos l : signs_ok l -> 0 < numel l.
Proof.
  destruct l as [|x l]; simpl; [tauto|]. intros [Hx Hp]. assert (H := prodZ_pos _ Hp).
  destruct x; try lia; simpl; nia.
Qed.

Lemma fix_chunks l : signs_ok l ->
  match raw_chunks l with c :: r => (if c =? 0 then 1 else c) :: r | [] => [] end
  = map (chunk_spec l) (seq 0 (length l)).
Proof.
  destruct l as [|x l]; [intros []|]. intros [Hx Hp]. rewrite raw_chunks_cons.
  assert (H := prodZ_pos _ Hp). cbn [length seq map]. f_equal.
  - unfold chunk_spec, numel. simpl. destruct x; [reflexivity| |lia].
    destruct (Z.eqb_spec (Z.pos p * prodZ l) 0); [nia|reflexivity].
  - unfold raw_chunks. rewrite <- seq_shift, map_map. apply map_ext. intros a. reflexivity.
Qed.

Lemma nonempty_assert (x : Z) l : cassert (0 <? Z.of_nat (length (x :: l))) = Ok tt.
Proof. unfold cassert. destruct (Z.ltb_spec 0 (Z.of_nat (length (x :: l)))) as [|H]; [reflexivity|simpl in H; lia]. Qed.

Theorem mk_shape_ok l : ints l -> valid_dims l ->
  mk_shape l = Ok (TSh l (map (chunk_spec l) (seq 0 (length l)))).
Proof.
  intros Hi [Hs Hf]. destruct l as [|x l]; [destruct Hs|]. unfold mk_shape.
  rewrite nonempty_assert.
  cbn [bind]. rewrite (proj2 (proj1 (asserts_ok (x :: l) ltac:(congruence))) Hs). cbn [bind].
  rewrite (proj1 (chunk_loop_spec (x :: l) ltac:(congruence) Hi Hs) Hf). cbn [bind].
  rewrite fix_chunks by assumption. reflexivity.
Qed.

Theorem mk_shape_abort l : ints l -> (mk_shape l = Abort <-> ~ signs_ok l).
Proof.
  intros Hi. destruct l as [|x l].
  - split; [intros _ []|reflexivity].
  - unfold mk_shape.
    rewrite nonempty_assert.
    cbn [bind]. destruct (asserts_ok (x :: l) ltac:(congruence)) as [H1 H2].
    split.
    + intros H Hs. rewrite (proj2 H1 Hs) in H. cbn [bind] in H.
      destruct (chunk_loop_spec (x :: l) ltac:(congruence) Hi Hs) as [C1 C2].
      assert (E : chunk_loop (x :: l) <> Abort).
      { intros E. assert (Hn : ~ fits (x :: l)) by (intros Hf; rewrite (C1 Hf) in E; discriminate).
        rewrite (C2 Hn) in E. discriminate. }
      destruct (chunk_loop (x :: l)); cbn [bind] in H; congruence.
    + intros Hn. rewrite (proj2 H2 Hn). reflexivity.
Qed.

Theorem mk_shape_undef l : ints l -> signs_ok l -> ~ fits l -> mk_shape l = Undef IntOverflow.
Proof.
  intros Hi Hs Hf. destruct l as [|x l]; [destruct Hs|]. unfold mk_shape.
  rewrite nonempty_assert.
  cbn [bind]. rewrite (proj2 (proj1 (asserts_ok (x :: l) ltac:(congruence))) Hs). cbn [bind].
  rewrite (proj2 (chunk_loop_spec (x :: l) ltac:(congruence) Hi Hs) Hf). reflexivity.
Qed.

Lemma fits_dec l : fits l \/ ~ fits l.
Proof.
  induction l as [|z m IHm]; [left; apply fits_nil|].
  destruct IHm as [H|H]; [|right; rewrite fits_cons; tauto].
  destruct (Z_le_dec (prodZ (z :: m)) INT_MAX); rewrite fits_cons; tauto.
Qed.

Lemma signs_dec l : signs_ok l \/ ~ signs_ok l.
Proof.
  destruct l as [|x l]; [right; intros []|]. simpl.
  destruct (Z_le_dec 0 x); [|right; tauto].
  destruct (forallb (fun y => 0 <? y) l) eqn:E.
  - apply forallb_pos in E. tauto.
  - right. rewrite <- forallb_pos. intros [_ H]; congruence.
Qed.

(** A successful construction always means valid extents. *)
Lemma mk_shape_inv l s : ints l -> mk_shape l = Ok s -> is_shape s l.
Proof.
  intros Hi H. destruct (signs_dec l) as [Hs|Hs].
  - destruct (fits_dec l) as [Hf|Hf].
    + rewrite mk_shape_ok in H by (auto; split; auto). injection H as <-. repeat split; auto.
    + rewrite mk_shape_undef in H by assumption. discriminate.
  - rewrite (proj2 (mk_shape_abort l Hi) Hs) in H. discriminate.
Qed.

(** Valid extents are ints by themselves. *)
Lemma suffix_le x l : Forall (fun y => 0 < y) l -> 0 <= x -> x <= prodZ (x :: l).
Proof. intros Hp Hx. simpl. assert (H := prodZ_pos _ Hp). unfold prodZ in *. nia. Qed.

Lemma valid_ints l : valid_dims l -> ints l.
Proof.
  intros [Hs Hf]. unfold ints. destruct l as [|x l]; [constructor|].
  simpl in Hs. destruct Hs as [Hx Hp]. apply fits_cons in Hf as [Hf0 Hf].
  constructor.
  - assert (H := suffix_le x l Hp Hx). unfold INT_MIN. lia.
  - clear Hf0 Hx x. induction Hp as [|y l Hy Hp IH]; [constructor|].
    apply fits_cons in Hf as [Hf0 Hf]. constructor; [|auto].
    assert (H := suffix_le y l Hp ltac:(lia)). unfold INT_MIN. lia.
Qed.

Lemma is_shape_eq s l : is_shape s l -> s = TSh l (map (chunk_spec l) (seq 0 (length l))).
Proof. intros (_ & <- & H). destruct s as [a b]; simpl in *. congruence. Qed.

Lemma is_shape_mk s l : is_shape s l -> mk_shape l = Ok s.
Proof.
  intros H. rewrite (is_shape_eq s l H). apply mk_shape_ok; [apply valid_ints|]; apply H.
Qed.

(** The copy constructor is the identity on every constructible shape. *)
Lemma copy_shape_id s l : is_shape s l -> copy_shape s = Ok s.
Proof.
  intros H. unfold copy_shape. rewrite (proj1 (proj2 H)). now apply is_shape_mk.
Qed.

Lemma assign_shape_id d s l : is_shape s l -> assign_shape d s = Ok s.
Proof.
  intros H. unfold assign_shape. rewrite (copy_shape_id s l H). simpl. destruct s; reflexivity.
Qed.

Lemma chunk_at_spec s l i : is_shape s l -> (i < length l)%nat ->
  chunk_at s (Z.of_nat i) = Ok (chunk_spec l i).
Proof.
  intros (_ & _ & H) Hi. unfold chunk_at, vec_at. destruct (Z.leb_spec 0 (Z.of_nat i)); [|lia].
  rewrite Nat2Z.id, H, nth_error_map.
  rewrite (nth_error_nth' (seq 0 (length l)) 0%nat) by (rewrite seq_length; lia).
  rewrite seq_nth by lia. reflexivity.
Qed.

Lemma is_shape_len s l : is_shape s l -> (0 < length l)%nat.
Proof. intros ((Hs & _) & _). destruct l; [destruct Hs|simpl; lia]. Qed.

Lemma chunk0 s l : is_shape s l -> chunk_at s 0 = Ok (numel l).
Proof. intros H. apply (chunk_at_spec s l 0 H (is_shape_len _ _ H)). Qed.

Lemma shape_at_spec s l i : is_shape s l -> shape_at s (Z.of_nat i) =
  match nth_error l i with Some x => Ok x | None => Undef OutOfBounds end.
Proof.
  intros (_ & H & _). unfold shape_at, vec_at. destruct (Z.leb_spec 0 (Z.of_nat i)); [|lia].
  rewrite Nat2Z.id, H. reflexivity.
Qed.

Lemma rank_spec s l : is_shape s l -> rank s = Z.of_nat (length l).
Proof. intros (_ & H & _). unfold rank. now rewrite H. Qed.

Lemma numel_le l : valid_dims l -> numel l <= INT_MAX.
Proof.
  intros [Hs Hf]. destruct l as [|x l]; [destruct Hs|]. unfold numel.
  apply fits_cons in Hf as [Hf _]. destruct x; [unfold INT_MAX; lia|exact Hf|exact Hf].
Qed.

(** * Lists *)

Fixpoint mapi_from {A B} (k : nat) (f : nat -> A -> B) (l : list A) : list B :=
  match l with [] => [] | x :: r => f k x :: mapi_from (S k) f r end.
Definition mapi {A B} (f : nat -> A -> B) l := mapi_from 0 f l.

Lemma nth_error_mapi_from {A B} (f : nat -> A -> B) l : forall k i,
  nth_error (mapi_from k f l) i = option_map (f (k + i)%nat) (nth_error l i).
Proof.
  induction l as [|x l IH]; intros k [|i]; simpl; try reflexivity.
  - now rewrite Nat.add_0_r.
  - rewrite IH. now rewrite Nat.add_succ_r.
Qed.
Lemma nth_error_mapi {A B} (f : nat -> A -> B) l i :
  nth_error (mapi f l) i = option_map (f i) (nth_error l i).
Proof. apply nth_error_mapi_from. Qed.
Lemma mapi_from_length {A B} (f : nat -> A -> B) l : forall k, length (mapi_from k f l) = length l.
Proof. induction l; intros; simpl; auto. Qed.
Lemma mapi_length {A B} (f : nat -> A -> B) l : length (mapi f l) = length l.
Proof. apply mapi_from_length. Qed.

Lemma nth_error_zipw {A B C} (f : A -> B -> C) l1 : forall l2 i,
  nth_error (zipw f l1 l2) i =
  match nth_error l1 i, nth_error l2 i with Some a, Some b => Some (f a b) | _, _ => None end.
Proof.
  induction l1 as [|a l1 IH]; intros [|b l2] [|i]; simpl; try reflexivity.
  - destruct (nth_error l1 i); reflexivity.
  - apply IH.
Qed.
Lemma zipw_length {A B C} (f : A -> B -> C) l1 : forall l2,
  length (zipw f l1 l2) = Nat.min (length l1) (length l2).
Proof. induction l1 as [|a l1 IH]; intros [|b l2]; simpl; auto. Qed.

Lemma nth_error_repeat {A} (x : A) n i :
  nth_error (repeat x n) i = if Nat.ltb i n then Some x else None.
Proof.
  revert i; induction n as [|n IH]; intros [|i]; simpl; try reflexivity. rewrite IH.
  change (Nat.ltb (S i) (S n)) with (Nat.ltb i n). reflexivity.
Qed.

Lemma upd_last {A} (l : list A) x y : upd (length l) x (l ++ [y]) = l ++ [x].
Proof. induction l; simpl; congruence. Qed.

Lemma nth_error_lt {A} (l : list A) i : (i < length l)%nat -> exists x, nth_error l i = Some x.
Proof. intros H. destruct (nth_error l i) eqn:E; eauto. apply nth_error_None in E. lia. Qed.

Lemma nth_error_lt' {A} (l : list A) i x : nth_error l i = Some x -> (i < length l)%nat.
Proof. intros H. apply nth_error_Some. congruence. Qed.

Section Fill.
Context {D : Type}.
Notation heap := (heap D).
Implicit Types h : heap.

(** * par_fill *)

(** The cells after a loop writing [g j] at [base + j] for j < n. *)
Definition fill (base n : Z) (g : Z -> option D) (cells : list (option D)) : list (option D) :=
  mapi (fun i old => let j := Z.of_nat i - base in
          if (0 <=? j) && (j <? n) then match g j with Some v => Some v | None => old end else old) cells.

Lemma load_blk h b i k v : blk h b = Some k -> 0 <= i -> nth_error (b_cells k) (Z.to_nat i) = Some (Some v) ->
  load h (Some b, i) = Ok v.
Proof.
  intros Hb Hi Hn. unfold load, hget. simpl. rewrite Hb. destruct (Z.leb_spec 0 i); [|lia]. now rewrite Hn.
Qed.

Lemma load_inv h a v : load h a = Ok v -> exists b k, fst a = Some b /\ blk h b = Some k /\ 0 <= snd a /\
  nth_error (b_cells k) (Z.to_nat (snd a)) = Some (Some v).
Proof.
  unfold load, hget. destruct a as [[b|] i]; simpl; [|discriminate].
  destruct (blk h b) as [k|] eqn:Hb; [|discriminate]. destruct (Z.leb_spec 0 i); [|discriminate].
  destruct (nth_error (b_cells k) (Z.to_nat i)) as [[w|]|] eqn:E; intros H'; try discriminate.
  injection H' as <-. exists b, k. repeat split; assumption.
Qed.

Lemma skel_upd h b k k' : blk h b = Some k -> b_kind k' = b_kind k -> length (b_cells k') = length (b_cells k) ->
  skel (upd b (Some k') h) = skel h.
Proof.
  intros Hb Hk Hl. unfold skel. apply nth_error_ext. intros i. rewrite !nth_error_map, nth_error_upd.
  destruct (Nat.eqb_spec i b) as [->|]; [|reflexivity]. unfold blk in Hb.
  destruct (nth_error h b) as [[k0|]|]; try discriminate. injection Hb as ->. simpl. congruence.
Qed.

Lemma par_fill_gen s h b k cells base n rd fn vs :
  blk h b = Some (Blk k cells) ->
  0 <= base -> 0 <= n -> base + n <= Z.of_nat (length cells) ->
  (forall i, 0 <= i < n -> Forall2 (fun a v => load h a = Ok v /\ fst a <> Some b) (rd i) (vs i)) ->
  par_for s (map (fun i => Iter (rd i) (fn i) (Some b, base + i)) (zrange n)) h =
  Ok (upd b (Some (Blk k (fill base n (fun i => fn i (vs i)) cells))) h).
Proof.
  intros Hb Hbase Hn Hlen Hrd.
  set (its := map _ _).
  assert (Hits : forall i it, nth_error its i = Some it ->
     exists j, j = Z.of_nat i /\ 0 <= j < n /\ it = Iter (rd j) (fn j) (Some b, base + j)).
  { intros i it Hi. unfold its in Hi. rewrite nth_error_map in Hi.
    destruct (Nat.lt_ge_cases i (Z.to_nat n)) as [Hlt|Hge].
    - rewrite zrange_nth in Hi by assumption. injection Hi as <-. exists (Z.of_nat i). split; [reflexivity|].
      split; [lia|reflexivity].
    - rewrite (proj2 (nth_error_None (zrange n) i)) in Hi by (rewrite zrange_length; lia). discriminate. }
  assert (Hin : forall it, In it its -> exists j, 0 <= j < n /\ it = Iter (rd j) (fn j) (Some b, base + j)).
  { intros it H. apply In_nth_error in H as (i & Hi). destruct (Hits i it Hi) as (j & _ & Hj). eauto. }
  assert (Hin' : forall j, 0 <= j < n -> In (Iter (rd j) (fn j) (Some b, base + j)) its).
  { intros j Hj. unfold its. apply (in_map (fun i => Iter (rd i) (fn i) (Some b, base + i))).
    apply in_zrange. assumption. }
  assert (Hrf : race_free its).
  { intros i j x y Hx Hy Hne. destruct (Hits i x Hx) as (a & Ha & Ha' & ->).
    destruct (Hits j y Hy) as (c & Hc & Hc' & ->). simpl. split.
    - intros E. injection E as E. lia.
    - intros HI. specialize (Hrd c Hc'). clear -Hrd HI. induction Hrd as [|u v l l' [_ Hu] Hl IH]; [destruct HI|].
      destruct HI as [->|HI]; [apply Hu; reflexivity|auto]. }
  assert (Hlds : forall j, 0 <= j < n -> loads h (Iter (rd j) (fn j) (Some b, base + j)) (vs j)).
  { intros j Hj. unfold loads. simpl. specialize (Hrd j Hj). clear -Hrd.
    induction Hrd as [|u v l l' [Hu _] Hl IH]; constructor; auto. }
  assert (Hcell : forall j, 0 <= j < n -> hget h (Some b, base + j) <> None).
  { intros j Hj. unfold hget. simpl. rewrite Hb. destruct (Z.leb_spec 0 (base + j)); [|lia].
    simpl. apply nth_error_Some. lia. }
  destruct (par_for_complete s its h Hrf) as (h' & Hh').
  { intros it Hi. destruct (Hin it Hi) as (j & Hj & ->). exists (vs j). split; [auto|].
    intros v _. simpl. auto. }
  rewrite Hh'. f_equal.
  eapply par_result_unique; [eapply par_for_sound; eauto|].
  assert (Hfl : length (fill base n (fun i => fn i (vs i)) cells) = length cells) by apply mapi_length.
  assert (Hnth : nth_error h b = Some (Some (Blk k cells))).
  { unfold blk in Hb. destruct (nth_error h b) as [[?|]|]; congruence. }
  assert (Hget : forall a, hget (upd b (Some (Blk k (fill base n (fun i => fn i (vs i)) cells))) h) a =
     match fst a with
     | Some c => if Nat.eqb c b then
          if 0 <=? snd a then nth_error (fill base n (fun i => fn i (vs i)) cells) (Z.to_nat (snd a)) else None
          else hget h a
     | None => None end).
  { intros [[c|] i]; unfold hget; simpl; [|reflexivity]. rewrite blk_upd. rewrite Hnth.
    destruct (Nat.eqb c b); reflexivity. }
  split; [|split].
  - apply (skel_upd h b (Blk k cells)); auto.
  - intros it Hi. destruct (Hin it Hi) as (j & Hj & ->). exists (vs j). split; [auto|]. simpl.
    destruct (fn j (vs j)) as [v|] eqn:Hv; [|exact I].
    rewrite Hget. simpl. rewrite Nat.eqb_refl. destruct (Z.leb_spec 0 (base + j)); [|lia].
    unfold fill. rewrite nth_error_mapi.
    destruct (nth_error_lt cells (Z.to_nat (base + j)) ltac:(lia)) as (old & ->). simpl.
    replace (Z.of_nat (Z.to_nat (base + j)) - base) with j by lia.
    replace ((0 <=? j) && (j <? n)) with true by lia. rewrite Hv. reflexivity.
  - intros a Ha. rewrite Hget. destruct a as [[c|] i]; simpl; [|reflexivity].
    destruct (Nat.eqb_spec c b) as [->|]; [|reflexivity].
    unfold hget. simpl. rewrite Hb. destruct (Z.leb_spec 0 i) as [Hi|]; [|reflexivity].
    unfold fill. rewrite nth_error_mapi. simpl.
    destruct (nth_error cells (Z.to_nat i)) as [old|]; [|reflexivity]. simpl.
    destruct ((0 <=? Z.of_nat (Z.to_nat i) - base) && (Z.of_nat (Z.to_nat i) - base <? n)) eqn:E; [|reflexivity].
    replace (Z.of_nat (Z.to_nat i) - base) with (i - base) in * by lia.
    destruct (fn (i - base) (vs (i - base))) as [v|] eqn:Hv; [|reflexivity].
    exfalso. eapply (Ha _ (vs (i - base)) v (Hin' (i - base) ltac:(lia))); [apply Hlds; lia|assumption|].
    simpl. f_equal. lia.
Qed.

(** Fresh output block at the end of the heap. *)
Lemma load_app h x a v : load h a = Ok v -> load (h ++ [x]) a = Ok v /\ fst a <> Some (length h).
Proof.
  intros H. apply load_inv in H as (b & k & Ha & Hb & Hi & Hv). destruct a as [p i]. simpl in *. subst p.
  assert (Hlt := blk_lt _ _ _ Hb). split.
  - eapply load_blk; eauto. rewrite blk_app. destruct (Nat.eqb_spec b (length h)); [lia|assumption].
  - intros E. injection E as E. lia.
Qed.

Lemma par_fill s h k cells n rd fn vs :
  0 <= n <= Z.of_nat (length cells) ->
  (forall i, 0 <= i < n -> Forall2 (fun a v => load h a = Ok v) (rd i) (vs i)) ->
  par_for s (map (fun i => Iter (rd i) (fn i) (Some (length h), i)) (zrange n)) (h ++ [Some (Blk k cells)]) =
  Ok (h ++ [Some (Blk k (fill 0 n (fun i => fn i (vs i)) cells))]).
Proof.
  intros Hn Hrd.
  assert (E := par_fill_gen s (h ++ [Some (Blk k cells)]) (length h) k cells 0 n rd fn vs).
  rewrite upd_last in E. rewrite <- E; try lia.
  - do 2 f_equal.
  - rewrite blk_app, Nat.eqb_refl. reflexivity.
  - intros i Hi. specialize (Hrd i Hi). clear -Hrd.
    induction Hrd as [|a v l l' Ha Hl IH]; constructor; auto. apply load_app. assumption.
Qed.

Lemma fill_full n g cells ys :
  length cells = n -> length ys = n ->
  (forall i, (i < n)%nat -> exists v, g (Z.of_nat i) = Some v /\ nth_error ys i = Some v) ->
  fill 0 (Z.of_nat n) g cells = map Some ys.
Proof.
  intros Hc Hy H. apply nth_error_ext. intros i. unfold fill. rewrite nth_error_mapi, nth_error_map.
  destruct (Nat.lt_ge_cases i n) as [Hi|Hi].
  - destruct (nth_error_lt cells i ltac:(lia)) as (old & ->). destruct (H i Hi) as (v & Hg & ->). simpl.
    rewrite Z.sub_0_r. replace ((0 <=? Z.of_nat i) && (Z.of_nat i <? Z.of_nat n)) with true by lia. now rewrite Hg.
  - rewrite (proj2 (nth_error_None cells i)), (proj2 (nth_error_None ys i)) by lia. reflexivity.
Qed.

End Fill.

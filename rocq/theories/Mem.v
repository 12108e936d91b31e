(** Mem.v - the C++ heap as seen by src/tensor/tensor.cpp: blocks made by [new T] or [new T[n]],
    cells that may be uninitialised, and [delete[]]. *)
From Verif Require Import Base.
Local Open Scope Z_scope.

(** Which kind of new-expression made the block (tensor.cpp:19 uses scalar new, :32/:38/:52/:55 array new). *)
Inductive akind := AScalar | AArray.

Section Mem.
Context {D : Type}.

(** [None] = indeterminate value. *)
Record block := Blk { b_kind : akind; b_cells : list (option D) }.

(** Block [b] is the [b]-th allocation; [None] = freed. *)
Definition heap := list (option block).

(** [None] = null pointer. *)
Definition ptr := option nat.
Definition addr := (ptr * Z)%type.

Definition blk (h : heap) (b : nat) : option block :=
  match nth_error h b with Some (Some k) => Some k | _ => None end.

(** Content of a cell: [None] = not a live cell; [Some None] = uninitialised. *)
Definition hget (h : heap) (a : addr) : option (option D) :=
  match fst a with
  | None => None
  | Some b =>
      match blk h b with
      | None => None
      | Some k => if (0 <=? snd a) then nth_error (b_cells k) (Z.to_nat (snd a)) else None
      end
  end.

(** Raw update; only used after [store] has checked the address. *)
Definition hset (h : heap) (a : addr) (v : D) : heap :=
  match fst a with
  | None => h
  | Some b =>
      match blk h b with
      | None => h
      | Some k => if (0 <=? snd a)
                  then upd b (Some (Blk (b_kind k) (upd (Z.to_nat (snd a)) (Some v) (b_cells k)))) h
                  else h
      end
  end.

Definition bad_addr (h : heap) (a : addr) : ub :=
  match fst a with
  | None => NullDeref
  | Some b => match blk h b with None => UseAfterFree | Some _ => OutOfBounds end
  end.

(** [*p] as an rvalue. *)
Definition load (h : heap) (a : addr) : res D :=
  match hget h a with
  | None => Undef (bad_addr h a)
  | Some None => Undef UninitRead
  | Some (Some v) => Ok v
  end.

(** [*p = v]. *)
Definition store (h : heap) (a : addr) (v : D) : res heap :=
  match hget h a with
  | None => Undef (bad_addr h a)
  | Some _ => Ok (hset h a v)
  end.

(** new-expression with the given initial cells. *)
Definition alloc (k : akind) (cells : list (option D)) (h : heap) : nat * heap :=
  (length h, h ++ [Some (Blk k cells)]).

(** [delete[] p] for non-null [p]. *)
Definition free_array (h : heap) (b : nat) : res heap :=
  match blk h b with
  | None => Undef UseAfterFree
  | Some k => match b_kind k with
              | AArray => Ok (upd b None h)
              | AScalar => Undef MismatchedDelete
              end
  end.

(** ** Facts *)

Lemma blk_lt h b k : blk h b = Some k -> (b < length h)%nat.
Proof.
  unfold blk. intros H. apply nth_error_Some. destruct (nth_error h b); congruence.
Qed.

Lemma blk_upd h b x c :
  blk (upd b x h) c = if Nat.eqb c b then (match nth_error h b with Some _ => x | None => None end) else blk h c.
Proof.
  unfold blk. rewrite nth_error_upd. destruct (Nat.eqb_spec c b) as [->|Hn]; [|reflexivity].
  destruct (nth_error h b); [destruct x|]; reflexivity.
Qed.

Lemma blk_app h x c :
  blk (h ++ [x]) c = if Nat.eqb c (length h) then x else blk h c.
Proof.
  unfold blk. rewrite nth_error_app. destruct (Nat.eqb_spec c (length h)) as [->|Hn].
  - rewrite Nat.ltb_irrefl, Nat.sub_diag. simpl. destruct x; reflexivity.
  - destruct (Nat.ltb_spec c (length h)) as [Hl|Hl]; [reflexivity|].
    rewrite (proj2 (nth_error_None h c)) by lia.
    rewrite (proj2 (nth_error_None [x] (c - length h))) by (simpl; lia). reflexivity.
Qed.

Lemma hget_hset h a v b :
  hget h a <> None ->
  hget (hset h a v) b =
  if (match fst a, fst b with Some x, Some y => Nat.eqb x y | _, _ => false end) && (snd a =? snd b)
  then Some (Some v) else hget h b.
Proof.
  destruct a as [[x|] i]; unfold hget, hset; simpl; [|congruence].
  destruct (blk h x) as [k|] eqn:Hk; [|congruence].
  destruct (Z.leb_spec 0 i) as [Hi|Hi]; [|congruence].
  intros Hv. destruct b as [[y|] j]; simpl; [|reflexivity].
  rewrite blk_upd. assert (Hx := blk_lt _ _ _ Hk).
  destruct (nth_error h x) as [o|] eqn:Ho; [|apply nth_error_None in Ho; lia].
  destruct (Nat.eqb_spec y x) as [->|Hn].
  - rewrite Nat.eqb_refl. simpl. rewrite Hk.
    destruct (Z.leb_spec 0 j) as [Hj|Hj].
    + rewrite nth_error_upd.
      destruct (Nat.eqb_spec (Z.to_nat j) (Z.to_nat i)) as [He|He].
      * replace j with i by lia. rewrite Z.eqb_refl.
        destruct (nth_error (b_cells k) (Z.to_nat i)); [reflexivity|congruence].
      * destruct (Z.eqb_spec i j) as [->|]; [congruence|reflexivity].
    + destruct (Z.eqb_spec i j); [lia|reflexivity].
  - destruct (Nat.eqb_spec x y); [congruence|]. reflexivity.
Qed.

Lemma hget_hset_same h a v : hget h a <> None -> hget (hset h a v) a = Some (Some v).
Proof.
  intros H. rewrite hget_hset by assumption. rewrite Z.eqb_refl.
  destruct a as [[x|] i]; simpl; [|unfold hget in H; simpl in H; congruence].
  rewrite Nat.eqb_refl. reflexivity.
Qed.

Lemma hget_hset_other h a v b : a <> b -> hget (hset h a v) b = hget h b.
Proof.
  intros Hn. destruct (hget h a) eqn:Ha.
  - rewrite hget_hset by congruence.
    destruct a as [[x|] i], b as [[y|] j]; simpl; try reflexivity.
    destruct (Nat.eqb_spec x y) as [->|]; [|reflexivity]. simpl.
    destruct (Z.eqb_spec i j) as [->|]; [congruence|reflexivity].
  - assert (E : hset h a v = h \/ exists x i k, a = (Some x, i) /\ blk h x = Some k /\ 0 <= i /\
        nth_error (b_cells k) (Z.to_nat i) = None).
    { destruct a as [[x|] i]; unfold hset, hget in *; simpl in *; auto.
      destruct (blk h x) as [k|] eqn:Hk; auto. destruct (Z.leb_spec 0 i); auto. right. eauto 8. }
    destruct E as [->|(x & i & k & -> & Hk & Hi & Hnone)]; [reflexivity|].
    unfold hset, hget; simpl. rewrite Hk. destruct (Z.leb_spec 0 i); [|lia].
    rewrite (upd_out (Z.to_nat i)) by (apply (proj1 (nth_error_None _ _)); assumption).
    destruct b as [[y|] j]; simpl; [|reflexivity]. rewrite blk_upd.
    destruct (Nat.eqb_spec y x) as [->|]; [|reflexivity].
    unfold blk in *. destruct (nth_error h x) as [[k'|]|]; try discriminate.
    injection Hk as <-. destruct k'; reflexivity.
Qed.

(** The shape of the heap: liveness, kinds and sizes. *)
Definition skel (h : heap) : list (option (akind * nat)) :=
  map (option_map (fun k => (b_kind k, length (b_cells k)))) h.

Lemma skel_hset h a v : skel (hset h a v) = skel h.
Proof.
  destruct a as [[x|] i]; unfold hset; simpl; [|reflexivity].
  destruct (blk h x) as [k|] eqn:Hk; [|reflexivity].
  destruct (0 <=? i); [|reflexivity].
  unfold skel, blk in *. revert x Hk. induction h as [|o h IH]; intros [|x] Hk; simpl in *; try discriminate.
  - destruct o; [|discriminate]. injection Hk as ->. simpl. now rewrite upd_length.
  - f_equal. apply IH. assumption.
Qed.

Lemma heap_ext h1 h2 :
  skel h1 = skel h2 -> (forall a, hget h1 a = hget h2 a) -> h1 = h2.
Proof.
  intros Hs Hg. apply nth_error_ext. intros b.
  assert (Hb : nth_error (skel h1) b = nth_error (skel h2) b) by now rewrite Hs.
  unfold skel in Hb. rewrite !nth_error_map in Hb.
  assert (Hgb : forall i, hget h1 (Some b, i) = hget h2 (Some b, i)) by (intros; apply Hg).
  unfold hget, blk in Hgb. simpl in Hgb.
  destruct (nth_error h1 b) as [[k1|]|], (nth_error h2 b) as [[k2|]|]; simpl in Hb; try discriminate; auto.
  injection Hb as Hkind Hlen. do 2 f_equal. destruct k1 as [kd1 c1], k2 as [kd2 c2]. simpl in *. subst. f_equal.
  apply nth_error_ext. intros i. specialize (Hgb (Z.of_nat i)).
  destruct (Z.leb_spec 0 (Z.of_nat i)); [|lia]. rewrite Nat2Z.id in Hgb. exact Hgb.
Qed.

Lemma hget_skel h1 h2 a : skel h1 = skel h2 -> hget h1 a <> None -> hget h2 a <> None.
Proof.
  intros Hs. destruct a as [[b|] i]; unfold hget; simpl; [|congruence].
  assert (Hb : nth_error (skel h1) b = nth_error (skel h2) b) by now rewrite Hs.
  unfold skel in Hb. rewrite !nth_error_map in Hb. unfold blk.
  destruct (nth_error h1 b) as [[k1|]|], (nth_error h2 b) as [[k2|]|]; simpl in Hb; try discriminate; auto.
  injection Hb as Hkind Hlen. destruct (0 <=? i); [|congruence].
  intros H1 H2. apply H1. apply nth_error_None. apply nth_error_None in H2. lia.
Qed.

End Mem.
Arguments block : clear implicits.
Arguments heap : clear implicits.

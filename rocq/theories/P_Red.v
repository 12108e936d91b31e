(** P_Red.v - properties C12-C16: matmul, argmax/argmin, reductions. *)
From Coq Require Import Reals Lra.
From Verif Require Import Base Mem Par Tensor TensorOps TSpec TLemmas TOps TOps2 TMem TMatmul TFlat RInst P_Tensor P_Ops.
Local Open Scope Z_scope.

Section Red.
Context {D : dtype}.
Notation heap := (heap D).

(** Element of a row-major list. *)
Lemma elem2 (h : heap) t m n xs i j : holds h t [m; n] xs -> 0 <= i < m -> 0 <= j < n ->
  elem h t [i; j] (nth (Z.to_nat (i * n + j)) xs d0).
Proof.
  intros H Hi Hj. apply (elem_at h t [m; n] xs); [assumption|repeat constructor; lia|].
  unfold at_. cbn [flat]. change (prodZ [n]) with (n * 1). change (prodZ []) with 1.
  replace (i * (n * 1) + (j * 1 + 0)) with (i * n + j) by lia. apply nth_error_nth'.
  assert (L := holds_len _ _ _ _ H). rewrite numel2 in L by lia. nia.
Qed.
Lemma elem1 (h : heap) t n xs j : holds h t [n] xs -> 0 <= j < n -> elem h t [j] (nth (Z.to_nat j) xs d0).
Proof.
  intros H Hj. apply (elem_at h t [n] xs); [assumption|repeat constructor; lia|].
  unfold at_. cbn [flat]. change (prodZ []) with 1.
  replace (j * 1 + 0) with j by lia. apply nth_error_nth'.
  assert (L := holds_len _ _ _ _ H). rewrite numel1 in L by lia. destruct (Z.eqb_spec n 0); lia.
Qed.

(** [a] lists row [i] of [t], resp. column [j] of [t]. *)
Definition row_is (h : heap) (t : tensor) (i n : Z) (a : Z -> D) : Prop := forall l, 0 <= l < n -> elem h t [i; l] (a l).
Definition col_is (h : heap) (t : tensor) (j m : Z) (b : Z -> D) : Prop := forall l, 0 <= l < m -> elem h t [l; j] (b l).

(** Left-to-right accumulation from 0 of f 0, f 1, ..., f (n-1). *)
Definition acc (n : Z) (f : Z -> D) : D := fold_left (fun s l => dadd s (f l)) (zrange n) d0.

(** * C12 *)
Lemma mm_made (h : heap) m k n xs ys : 0 < m -> 0 < n -> m * n <= INT_MAX ->
  made h (Tn (shape2 m n) (Some (length h))) ((h ++ [Some (Blk AArray (map Some (mm_list xs ys m k n)))]) ++ [None])
       [m; n] (mm_list xs ys m k n).
Proof.
  intros Hm Hn Hle. apply made_app2; [now apply mk2|]. rewrite mm_list_length, numel2 by assumption. nia.
Qed.

Lemma mm_list_nth (xs ys : list D) m k n i j : 0 <= i < m -> 0 <= j < n ->
  nth (Z.to_nat (i * n + j)) (mm_list xs ys m k n) d0 = mmval xs ys k n i j.
Proof.
  intros Hi Hj. unfold mm_list. rewrite nth_map_zrange by nia. rewrite Z2Nat.id by nia.
  rewrite Z.div_add_l, (Z.div_small j n), Z.add_0_r by lia.
  replace ((i * n + j) mod n) with j; [reflexivity|]. rewrite Z.add_comm, Z_mod_plus_full. symmetry. apply Z.mod_small. lia.
Qed.

Theorem C12_matmul : forall t1 t2 (h : heap) m k n xs ys,
  holds h t1 [m; k] xs -> holds h t2 [k; n] ys -> 0 < m -> m * n <= INT_MAX ->
  exists out h' zs, (forall sch, op_matmul sch t1 t2 h = Ok (out, h')) /\ made h out h' [m; n] zs /\
    holds h' t1 [m; k] xs /\ holds h' t2 [k; n] ys /\
    forall i j, 0 <= i < m -> 0 <= j < n -> exists a b,
      row_is h t1 i k a /\ col_is h t2 j k b /\
      elem h' out [i; j] (acc k (fun l => dmul (a l) (b l))).
Proof.
  intros t1 t2 h m k n xs ys H1 H2 Hm Hle.
  destruct (valid2 m k) as (_ & Hk & _); [apply (holds_shape _ _ _ _ H1)|].
  destruct (valid2 k n) as (_ & Hn & _); [apply (holds_shape _ _ _ _ H2)|].
  eexists _, _, _. split; [intros sch; exact (op_matmul_ok sch t1 t2 h m k n xs ys H1 H2 Hm Hle)|].
  assert (M := mm_made h m k n xs ys Hm Hn Hle). split; [exact M|].
  split; [exact (made_keeps _ _ _ _ _ _ _ _ M H1)|]. split; [exact (made_keeps _ _ _ _ _ _ _ _ M H2)|].
  intros i j Hi Hj. exists (fun l => nth (Z.to_nat (i * k + l)) xs d0), (fun l => nth (Z.to_nat (l * n + j)) ys d0).
  split; [|split].
  - intros l Hl. apply elem2 with m; auto.
  - intros l Hl. apply elem2 with k; auto.
  - assert (E := elem2 _ _ m n _ i j (made_holds _ _ _ _ _ M) Hi Hj). rewrite mm_list_nth in E by assumption. exact E.
Qed.
Theorem C12_rejects : forall t1 t2 (h : heap) a1 a2 xs ys sch, holds h t1 a1 xs -> holds h t2 a2 ys ->
  (~ (exists m k n, a1 = [m; k] /\ a2 = [k; n] /\ 0 < m /\ 0 < k /\ 0 < n) -> op_matmul sch t1 t2 h = Abort) /\
  (forall m k n, a1 = [m; k] -> a2 = [k; n] -> 0 < m -> INT_MAX < m * n -> op_matmul sch t1 t2 h = Undef IntOverflow).
Proof.
  intros t1 t2 h a1 a2 xs ys sch H1 H2. split.
  - intros Hn. apply (op_matmul_abort sch t1 t2 h a1 a2); [apply (holds_shape _ _ _ _ H1)|apply (holds_shape _ _ _ _ H2)|exact Hn].
  - intros m k n -> -> Hm Hgt. apply (op_matmul_overflow sch t1 t2 h m k n xs ys); assumption.
Qed.

(** * C13 *)

(** Output large enough: written in place, shape unchanged, tail kept, and a deep copy is returned. *)
Theorem C13_reuse : forall sch x1 x2 xo (e : env) (h : heap) t1 t2 to m k n xs ys dims zs,
  nth_error e x1 = Some (Some t1) -> nth_error e x2 = Some (Some t2) -> nth_error e xo = Some (Some to) ->
  holds h t1 [m; k] xs -> holds h t2 [k; n] ys -> 0 < m ->
  holds h to dims zs -> m * n <= numel dims -> t_data to <> t_data t1 -> t_data to <> t_data t2 ->
  exists r h' ws, matmul sch x1 x2 xo e h = Ok (r, e, h') /\
    holds h' to dims ws /\ holds_k AArray h' r dims ws /\ fresh_in h r /\
    (forall i j, 0 <= i < m -> 0 <= j < n -> exists a b, row_is h t1 i k a /\ col_is h t2 j k b /\
        at_ ws (i * n + j) = Some (acc k (fun l => dmul (a l) (b l)))) /\
    (forall q, m * n <= q < numel dims -> at_ ws q = at_ zs q) /\
    holds h' t1 [m; k] xs /\ holds h' t2 [k; n] ys /\ live h' = S (live h).
Proof.
  intros sch x1 x2 xo e h t1 t2 to m k n xs ys dims zs O1 O2 Oo H1 H2 Hm (kd & Ho) Hge D1 D2.
  destruct (valid2 m k) as (_ & Hk & _); [apply (holds_shape _ _ _ _ H1)|].
  destruct (valid2 k n) as (_ & Hn & _); [apply (holds_shape _ _ _ _ H2)|].
  assert (Ho' := Ho). destruct Ho' as (So & Lo & b & Hb & Hblk).
  assert (N1 : t_data t1 <> Some b) by congruence. assert (N2 : t_data t2 <> Some b) by congruence.
  assert (E := matmul_reuse sch x1 x2 xo e h t1 t2 to m k n xs ys O1 O2 Oo H1 H2 Hm kd dims zs b Ho Hge Hb N1 N2).
  cbv zeta in E. set (ws := mm_list xs ys m k n ++ skipn (Z.to_nat (m * n)) zs) in *.
  eexists _, _, ws. split; [exact E|].
  assert (Lw : Z.of_nat (length ws) = numel dims).
  { unfold ws. rewrite app_length, mm_list_length, skipn_length. nia. }
  assert (Hlt := blk_lt _ _ _ Hblk).
  assert (Hup : forall c, blk (upd b (Some (Blk kd (map Some ws))) h) c = if Nat.eqb c b then Some (Blk kd (map Some ws)) else blk h c).
  { intros c. rewrite blk_upd. destruct (nth_error h b) eqn:En; [reflexivity|]. apply nth_error_None in En. lia. }
  assert (Keep : forall t d us, holds h t d us -> t_data t <> Some b -> holds (upd b (Some (Blk kd (map Some ws))) h ++ [Some (Blk AArray (map Some ws))]) t d us).
  { intros t d us (kt & A & B & c & Hc & Hck) Hne. apply holds_app. exists kt. split; [assumption|]. split; [assumption|].
    exists c. split; [assumption|]. rewrite Hup. destruct (Nat.eqb_spec c b) as [->|]; [congruence|assumption]. }
  split; [|split; [|split; [|split; [|split; [|split; [|split]]]]]].
  - apply holds_app. exists kd. split; [assumption|]. split; [assumption|]. exists b. split; [assumption|]. rewrite Hup, Nat.eqb_refl. reflexivity.
  - replace (length h) with (length (upd b (Some (Blk kd (map Some ws))) h)) by apply upd_length. apply holds_new; assumption.
  - exists (length h). split; [reflexivity|lia].
  - intros i j Hi Hj. exists (fun l => nth (Z.to_nat (i * k + l)) xs d0), (fun l => nth (Z.to_nat (l * n + j)) ys d0).
    split; [intros l Hl; apply elem2 with m; auto|]. split; [intros l Hl; apply elem2 with k; auto|].
    unfold at_, ws. rewrite Base.nth_error_app, mm_list_length.
    destruct (Nat.ltb_spec (Z.to_nat (i * n + j)) (Z.to_nat (m * n))) as [Hl|Hl]; [|nia].
    rewrite (nth_error_nth' _ d0) by (rewrite mm_list_length; assumption). f_equal. now apply mm_list_nth.
  - intros q Hq. unfold at_, ws. rewrite Base.nth_error_app, mm_list_length.
    destruct (Nat.ltb_spec (Z.to_nat q) (Z.to_nat (m * n))) as [Hl|Hl]; [lia|].
    rewrite <- (firstn_skipn (Z.to_nat (m * n)) zs) at 2. rewrite Base.nth_error_app, firstn_length.
    destruct (Nat.ltb_spec (Z.to_nat q) (Nat.min (Z.to_nat (m * n)) (length zs))); [lia|].
    f_equal. lia.
  - apply Keep; assumption.
  - apply Keep; assumption.
  - rewrite live_app. cut (live (upd b (Some (Blk kd (map Some ws))) h) = live h); [lia|].
    clear -Hblk. unfold live. revert b Hblk. induction h as [|o h IH]; intros b Hk; [destruct b; reflexivity|].
    destruct b as [|b]; [unfold blk in Hk; simpl in Hk; destruct o; [reflexivity|discriminate]|].
    simpl. unfold blk in Hk. simpl in Hk. destruct o; simpl; rewrite (IH b) by exact Hk; reflexivity.
Qed.

(** Output too small or without buffer: it becomes a fresh {m,n} tensor; its old buffer stays allocated. *)
Theorem C13_replace : forall sch x1 x2 xo (e : env) (h : heap) t1 t2 to m k n xs ys,
  nth_error e x1 = Some (Some t1) -> nth_error e x2 = Some (Some t2) -> nth_error e xo = Some (Some to) ->
  holds h t1 [m; k] xs -> holds h t2 [k; n] ys -> 0 < m -> m * n <= INT_MAX -> xo <> x1 -> xo <> x2 ->
  t_data to = None \/ (exists dims zs, holds h to dims zs /\ numel dims < m * n) ->
  exists r o' h' ws, matmul sch x1 x2 xo e h = Ok (r, upd xo (Some o') e, h') /\
    holds_k AArray h' o' [m; n] ws /\ fresh_in h o' /\ holds_k AArray h' r [m; n] ws /\ fresh_in h r /\ t_data r <> t_data o' /\
    (forall i j, 0 <= i < m -> 0 <= j < n -> exists a b, row_is h t1 i k a /\ col_is h t2 j k b /\
        elem h' o' [i; j] (acc k (fun l => dmul (a l) (b l)))) /\
    preserved h h' /\ live h' = S (S (live h)).
Proof.
  intros sch x1 x2 xo e h t1 t2 to m k n xs ys O1 O2 Oo H1 H2 Hm Hle N1 N2 Hto.
  destruct (valid2 m k) as (_ & Hk & _); [apply (holds_shape _ _ _ _ H1)|].
  destruct (valid2 k n) as (_ & Hn & _); [apply (holds_shape _ _ _ _ H2)|].
  assert (E := matmul_replace sch x1 x2 xo e h t1 t2 to m k n xs ys O1 O2 Oo H1 H2 Hm Hto Hle N1 N2). cbv zeta in E.
  set (ws := mm_list xs ys m k n) in *. eexists _, _, _, ws. split; [exact E|].
  assert (Ss : is_shape (shape2 m n) [m; n]) by now apply mk2.
  assert (Lw : Z.of_nat (length ws) = numel [m; n]) by (unfold ws; rewrite mm_list_length, numel2 by assumption; nia).
  assert (A : holds_k AArray ((h ++ [Some (Blk AArray (map Some ws))]) ++ [Some (Blk AArray (map Some ws))]) (Tn (shape2 m n) (Some (length h))) [m; n] ws).
  { split; [assumption|]. split; [assumption|]. exists (length h). split; [reflexivity|]. apply preserved_app. rewrite blk_app, Nat.eqb_refl. reflexivity. }
  split; [exact A|]. split; [exists (length h); split; [reflexivity|lia]|].
  split; [|split; [exists (S (length h)); split; [reflexivity|lia]|split; [simpl; intros Eq; injection Eq; lia|split; [|split]]]].
  - replace (S (length h)) with (length (h ++ [Some (Blk AArray (map Some ws))])) by (rewrite app_length; simpl; lia). apply holds_new; assumption.
  - intros i j Hi Hj. exists (fun l => nth (Z.to_nat (i * k + l)) xs d0), (fun l => nth (Z.to_nat (l * n + j)) ys d0).
    split; [intros l Hl; apply elem2 with m; auto|]. split; [intros l Hl; apply elem2 with k; auto|].
    assert (Q := elem2 _ _ m n ws i j (ex_intro _ AArray A) Hi Hj). assert (W := mm_list_nth xs ys m k n i j Hi Hj). fold ws in W. rewrite W in Q. exact Q.
  - intros b kk Hb. apply preserved_app. now apply preserved_app.
  - rewrite !live_app. lia.
Qed.

(** * C14 *)

(** Output aliases the left operand: every schedule has a data race. *)
Theorem C14_left_alias_races : forall sch x1 x2 (e : env) (h : heap) t1 t2 n xs ys,
  nth_error e x1 = Some (Some t1) -> nth_error e x2 = Some (Some t2) ->
  holds h t1 [n; n] xs -> holds h t2 [n; n] ys -> 2 <= n ->
  matmul sch x1 x2 x1 e h = Undef DataRace.
Proof.
  intros sch x1 x2 e h t1 t2 n xs ys O1 O2 H1 H2 Hn.
  destruct (valid2 n n) as (_ & _ & Hle & _); [apply (holds_shape _ _ _ _ H1)|].
  rewrite (matmul_pre sch x1 x2 x1 e h t1 t2 t1 n n n xs ys O1 O2 O1 H1 H2 ltac:(lia)).
  destruct (holds_data _ _ _ _ H1) as (b & Hb & _). rewrite Hb.
  rewrite (chunk0 _ _ (holds_shape _ _ _ _ H1)). cbn [bind]. rewrite numel2 by lia.
  unfold imul, int_ok. replace (INT_MIN <=? n * n) with true by (unfold INT_MIN; nia). replace (n * n <=? INT_MAX) with true by lia.
  cbn [andb bind]. rewrite Z.ltb_irrefl. cbn [bind].
  rewrite (proj2 (obj_ok _ _ _) O1), (proj2 (obj_ok _ _ _) O2). cbn [bind]. rewrite Hb.
  assert (E : mm_rows sch (Some b) (t_data t2) (Some b) n n n h = Undef DataRace).
  { unfold mm_rows.
    match goal with |- foldM ?F _ _ = _ => set (f := F) end. rewrite (zrange_S n) by lia. cbn [foldM]. unfold f at 1.
    assert (R : par_for (sch 0) (map (mm_iter (Some b) (t_data t2) (Some b) n n 0) (zrange n)) h = Undef DataRace); [|rewrite R; reflexivity].
    unfold par_for. destruct (race_freeb _) eqn:Er; [|reflexivity]. exfalso. apply race_freeb_spec in Er.
    destruct (Er 0%nat 1%nat (mm_iter (Some b) (t_data t2) (Some b) n n 0 0) (mm_iter (Some b) (t_data t2) (Some b) n n 0 1)) as [_ Hr].
    - rewrite nth_error_map, zrange_nth by lia. reflexivity.
    - rewrite nth_error_map, zrange_nth by lia. reflexivity.
    - lia.
    - apply Hr. simpl. apply in_flat_map. exists 0. split; [apply in_zrange; lia|]. left. reflexivity. }
  rewrite E. reflexivity.
Qed.

(** * C15 *)

(** [v] is an entry and no entry is better. *)
Lemma fold_extreme (better : D -> D -> bool) :
  (forall x, better x x = false) -> (forall x y z, better x y = true -> better y z = true -> better x z = true) ->
  forall l seen m, In m seen -> (forall x, In x seen -> better x m = false) ->
  let r := fold_left (fun m v => if better v m then v else m) l m in
  In r (seen ++ l) /\ forall x, In x (seen ++ l) -> better x r = false.
Proof.
  intros Hirr Htr l. induction l as [|v l IH]; intros seen m Hin Hm; simpl.
  - rewrite app_nil_r. auto.
  - destruct (better v m) eqn:E.
    + destruct (IH (seen ++ [v]) v) as [A B].
      * apply in_app_iff. right. now left.
      * intros x Hx. apply in_app_iff in Hx as [Hx|[<-|[]]]; [|apply Hirr].
        destruct (better x v) eqn:Ex; [|reflexivity]. rewrite <- (Hm x Hx). symmetry. eauto.
      * rewrite <- app_assoc in A, B. auto.
    + destruct (IH (seen ++ [v]) m) as [A B].
      * apply in_app_iff. now left.
      * intros x Hx. apply in_app_iff in Hx as [Hx|[<-|[]]]; auto.
      * rewrite <- app_assoc in A, B. auto.
Qed.
Lemma ext_spec better l : (forall x, better x x = false) ->
  (forall x y z, better x y = true -> better y z = true -> better x z = true) -> l <> [] ->
  In (ext better l) l /\ forall x : D, In x l -> better x (ext better l) = false.
Proof.
  intros Hirr Htr Hn. destruct l as [|a l]; [congruence|]. simpl ext.
  apply (fold_extreme better Hirr Htr l [a] a); [now left|]. intros x [<-|[]]. apply Hirr.
Qed.

(** argmax with [better x y] = x > y, argmin with [better x y] = x < y. *)
Definition extremes : list ((list nat -> tensor -> Z -> heap -> res (tensor * heap)) * (D -> D -> bool)) :=
  [(op_argmax, fun x y => dltb y x); (op_argmin, fun x y => dltb x y)].
Lemma extremes_argop op better : In (op, better) extremes -> op = argop better.
Proof. intros [E|[E|[]]]; injection E as <- <-; reflexivity. Qed.

Lemma elem_in_col (h : heap) t rows cols xs i x : holds h t [rows; cols] xs -> 0 <= i < cols ->
  (In x (colvals xs rows cols i) <-> exists r, elem h t [r; i] x).
Proof.
  intros H Hi. assert (Hs := holds_shape _ _ _ _ H). unfold colvals. rewrite in_map_iff. split.
  - intros (r & <- & Hr). apply in_zrange in Hr. exists r. now apply elem2 with rows.
  - intros (r & Hr). assert (Hin := proj1 Hr). rewrite (proj1 (proj2 Hs)) in Hin. inversion Hin; subst.
    exists r. split; [|now apply in_zrange]. assert (E := elem2 h t rows cols xs r i H ltac:(assumption) Hi).
    destruct Hr as [_ Hr]. destruct E as [_ E]. congruence.
Qed.
Lemma elem_in_row (h : heap) t rows cols xs i x : holds h t [rows; cols] xs -> 0 <= i < rows ->
  (In x (rowvals xs cols i) <-> exists c, elem h t [i; c] x).
Proof.
  intros H Hi. assert (Hs := holds_shape _ _ _ _ H). unfold rowvals. rewrite in_map_iff. split.
  - intros (r & <- & Hr). apply in_zrange in Hr. exists r. now apply elem2 with rows.
  - intros (r & Hr). assert (Hin := proj1 Hr). rewrite (proj1 (proj2 Hs)) in Hin. inversion Hin as [|? ? ? ? ? Hin2]; subst.
    inversion Hin2; subst.
    exists r. split; [|now apply in_zrange]. assert (E := elem2 h t rows cols xs i r H Hi ltac:(assumption)).
    destruct Hr as [_ Hr]. destruct E as [_ E]. congruence.
Qed.

Lemma red_made (h : heap) n g : 0 <= n <= INT_MAX ->
  made h (Tn (shape1 n) (Some (length h))) (h ++ [Some (Blk AArray (map Some (red_result n g)))]) [n] (red_result n g).
Proof.
  intros Hn. apply made_app; [now apply mk1'|]. unfold red_result. rewrite numel1 by lia.
  destruct (Z.eqb_spec n 0); [reflexivity|]. rewrite map_length, zrange_length. lia.
Qed.
Lemma red_nth n (g : Z -> D) i : 0 <= i < n -> nth (Z.to_nat i) (red_result n g) d0 = g i.
Proof.
  intros Hi. unfold red_result. destruct (Z.eqb_spec n 0); [lia|]. rewrite nth_map_zrange by lia. now rewrite Z2Nat.id by lia.
Qed.

Theorem C15_extreme : forall op better, In (op, better) extremes ->
  (forall x : D, dltb x x = false) -> (forall x y z : D, dltb x y = true -> dltb y z = true -> dltb x z = true) ->
  forall t (h : heap) rows cols xs, holds h t [rows; cols] xs -> 0 < rows ->
  (exists out h' zs, (forall s, op s t 0 h = Ok (out, h')) /\ made h out h' [cols] zs /\
     forall c, 0 <= c < cols -> exists v, elem h' out [c] v /\ (exists r, elem h t [r; c] v) /\
       forall r x, elem h t [r; c] x -> better x v = false) /\
  (forall axis, axis <> 0 ->
   exists out h' zs, (forall s, op s t axis h = Ok (out, h')) /\ made h out h' [rows] zs /\
     forall r, 0 <= r < rows -> exists v, elem h' out [r] v /\ (exists c, elem h t [r; c] v) /\
       forall c x, elem h t [r; c] x -> better x v = false).
Proof.
  intros op better Hop Hirr0 Htr0 t h rows cols xs H Hr. rewrite (extremes_argop _ _ Hop).
  assert (Hirr : forall x, better x x = false) by (intros x; destruct Hop as [E|[E|[]]]; injection E as _ <-; apply Hirr0).
  assert (Htr : forall x y z, better x y = true -> better y z = true -> better x z = true).
  { intros x y z A B. destruct Hop as [E|[E|[]]]; injection E as _ <-; eauto. }
  destruct (valid2 rows cols) as (_ & Hc & _ & Hcm & Hrm); [apply (holds_shape _ _ _ _ H)|].
  split.
  - eexists _, _, _. split; [intros s; rewrite (argop_ok better s t 0 h rows cols xs H (fun _ => Hr)); reflexivity|].
    assert (M := red_made h cols (fun i => ext better (colvals xs rows cols i)) ltac:(lia)). split; [exact M|].
    intros c Hcc. exists (ext better (colvals xs rows cols c)).
    destruct (ext_spec better (colvals xs rows cols c) Hirr Htr) as [A B].
    { unfold colvals. rewrite zrange_S by lia. discriminate. }
    split; [|split].
    + assert (E := elem1 _ _ cols _ c (made_holds _ _ _ _ _ M) Hcc). rewrite red_nth in E by assumption. exact E.
    + now apply (elem_in_col h t rows cols xs c).
    + intros r x Hx. apply B. apply (elem_in_col h t rows cols xs c); eauto.
  - intros axis Hax. eexists _, _, _. split; [intros s; rewrite (argop_ok better s t axis h rows cols xs H (fun _ => Hr)); rewrite (proj2 (Z.eqb_neq _ _) Hax); reflexivity|].
    assert (M := red_made h rows (fun i => ext better (rowvals xs cols i)) ltac:(lia)). split; [exact M|].
    intros r Hrr. exists (ext better (rowvals xs cols r)).
    destruct (ext_spec better (rowvals xs cols r) Hirr Htr) as [A B].
    { unfold rowvals. rewrite zrange_S by lia. discriminate. }
    split; [|split].
    + assert (E := elem1 _ _ rows _ r (made_holds _ _ _ _ _ M) Hrr). rewrite red_nth in E by assumption. exact E.
    + now apply (elem_in_row h t rows cols xs r).
    + intros c x Hx. apply B. apply (elem_in_row h t rows cols xs r); eauto.
Qed.
Theorem C15_rejects : forall op better, In (op, better) extremes ->
  (forall t (h : heap) dims xs s axis, holds h t dims xs -> length dims <> 2%nat -> op s t axis h = Abort) /\
  (forall t (h : heap) cols xs s, holds h t [0; cols] xs -> 2 <= cols -> is_undef (op s t 0 h)).
Proof.
  intros op better Hop. rewrite (extremes_argop _ _ Hop). split.
  - intros t h dims xs s axis H Hl. apply (argop_abort better s t axis h dims); [apply (holds_shape _ _ _ _ H)|assumption].
  - intros t h cols xs s H Hc. now apply (argop_undef better s t h cols xs).
Qed.

(** * C16 *)
Lemma accum_acc n (f : Z -> D) : accum (map f (zrange n)) = acc n f.
Proof.
  unfold accum, acc. generalize (zrange n) (d0 : D). intros l. induction l as [|x l IH]; intros a; simpl; [reflexivity|]. apply IH.
Qed.

Theorem C16_total : forall t (h : heap) dims xs, holds h t dims xs ->
  reduce_sum_all t h = Ok (fold_left dadd xs d0) /\
  reduce_mean_all t h = Ok (ddiv (fold_left dadd xs d0) (dofZ (Z.of_nat (length xs)))).
Proof.
  intros t h dims xs H. split; [now apply (reduce_sum_all_ok t h dims)|].
  rewrite (reduce_mean_all_ok t h dims xs H). rewrite (holds_len _ _ _ _ H). reflexivity.
Qed.

(** reduce_sum and reduce_mean along an axis; [fin] is what is done with the accumulated sum. *)
Definition reductions : list ((list nat -> tensor -> Z -> heap -> res (tensor * heap)) * (D -> Z -> D)) :=
  [(op_reduce_sum, fun sum _ => sum); (op_reduce_mean, fun sum n => ddiv sum (dofZ n))].
Lemma reductions_redop op fin : In (op, fin) reductions -> op = redop fin.
Proof. intros [E|[E|[]]]; injection E as <- <-; reflexivity. Qed.

Theorem C16_axis : forall op fin, In (op, fin) reductions ->
  forall t (h : heap) rows cols xs, holds h t [rows; cols] xs -> 0 < rows ->
  (exists out h' zs, (forall s, op s t 0 h = Ok (out, h')) /\ made h out h' [cols] zs /\ holds h' t [rows; cols] xs /\
     forall c, 0 <= c < cols -> exists a, col_is h t c rows a /\ elem h' out [c] (fin (acc rows a) rows)) /\
  (forall axis, axis <> 0 ->
   exists out h' zs, (forall s, op s t axis h = Ok (out, h')) /\ made h out h' [rows] zs /\ holds h' t [rows; cols] xs /\
     forall r, 0 <= r < rows -> exists a, row_is h t r cols a /\ elem h' out [r] (fin (acc cols a) cols)).
Proof.
  intros op fin Hop t h rows cols xs H Hr. rewrite (reductions_redop _ _ Hop).
  destruct (valid2 rows cols) as (_ & Hc & _ & Hcm & Hrm); [apply (holds_shape _ _ _ _ H)|].
  split.
  - eexists _, _, _. split; [intros s; rewrite (redop_ok fin s t 0 h rows cols xs H); reflexivity|].
    assert (M := red_made h cols (fun i => fin (accum (colvals xs rows cols i)) rows) ltac:(lia)). split; [exact M|].
    split; [exact (made_keeps _ _ _ _ _ _ _ _ M H)|].
    intros c Hcc. exists (fun l => nth (Z.to_nat (l * cols + c)) xs d0). split; [intros l Hl; now apply elem2 with rows|].
    assert (E := elem1 _ _ cols _ c (made_holds _ _ _ _ _ M) Hcc). rewrite red_nth in E by assumption.
    unfold colvals in E. rewrite accum_acc in E. exact E.
  - intros axis Hax. eexists _, _, _. split; [intros s; rewrite (redop_ok fin s t axis h rows cols xs H); rewrite (proj2 (Z.eqb_neq _ _) Hax); reflexivity|].
    assert (M := red_made h rows (fun i => fin (accum (rowvals xs cols i)) cols) ltac:(lia)). split; [exact M|].
    split; [exact (made_keeps _ _ _ _ _ _ _ _ M H)|].
    intros r Hrr. exists (fun l => nth (Z.to_nat (r * cols + l)) xs d0). split; [intros l Hl; now apply elem2 with rows|].
    assert (E := elem1 _ _ rows _ r (made_holds _ _ _ _ _ M) Hrr). rewrite red_nth in E by assumption.
    unfold rowvals in E. rewrite accum_acc in E. exact E.
Qed.
Theorem C16_rank : forall op fin, In (op, fin) reductions ->
  forall t (h : heap) dims xs s axis, holds h t dims xs -> length dims <> 2%nat -> op s t axis h = Abort.
Proof.
  intros op fin Hop t h dims xs s axis H Hl. rewrite (reductions_redop _ _ Hop).
  apply (redop_abort fin s t axis h dims); [apply (holds_shape _ _ _ _ H)|assumption].
Qed.

End Red.

(** * Exact real arithmetic *)
Local Open Scope R_scope.

Theorem C12_real_acc : forall n (f : Z -> R), acc (D:=Rdt) n f = sumZ n f.
Proof. intros n f. unfold acc, sumZ. change (@dadd Rdt) with Rplus. change (@d0 Rdt) with 0. rewrite fold_left_sum. apply Rplus_0_l. Qed.

(** Matrix product over the reals. *)
Theorem C12_real : forall t1 t2 (h : heap Rdt) m k n xs ys,
  holds h t1 [m; k] xs -> holds h t2 [k; n] ys -> (0 < m)%Z -> (m * n <= INT_MAX)%Z ->
  exists out h', (forall sch, op_matmul (D:=Rdt) sch t1 t2 h = Ok (out, h')) /\
    forall i j, (0 <= i < m)%Z -> (0 <= j < n)%Z -> exists a b : Z -> R,
      row_is (D:=Rdt) h t1 i k a /\ col_is (D:=Rdt) h t2 j k b /\
      elem (D:=Rdt) h' out [i; j] (sumZ k (fun l => a l * b l)).
Proof.
  intros t1 t2 h m k n xs ys H1 H2 Hm Hle.
  destruct (C12_matmul (D:=Rdt) t1 t2 h m k n xs ys H1 H2 Hm Hle) as (out & h' & zs & A & _ & _ & _ & B).
  exists out, h'. split; [exact A|]. intros i j Hi Hj. destruct (B i j Hi Hj) as (a & b & Ra & Cb & E).
  exists a, b. split; [exact Ra|]. split; [exact Cb|]. rewrite <- C12_real_acc. exact E.
Qed.

Lemma sum_rows_list (xs : list R) rows cols : (0 <= cols)%Z -> Z.of_nat (length xs) = (rows * cols)%Z -> (0 <= rows)%Z ->
  sumL xs = sumZ rows (fun i => sumZ cols (fun j => nth (Z.to_nat (i * cols + j)) xs 0)).
Proof.
  intros Hc Hl Hr. revert rows Hr xs Hl. apply (natlike_ind (fun rows => forall xs : list R, Z.of_nat (length xs) = (rows * cols)%Z ->
    sumL xs = sumZ rows (fun i => sumZ cols (fun j => nth (Z.to_nat (i * cols + j)) xs 0)))).
  - intros xs Hl. destruct xs; [reflexivity|]. simpl in Hl. lia.
  - intros rows Hr IH xs Hl.
    assert (Esplit : xs = firstn (Z.to_nat (rows * cols)) xs ++ skipn (Z.to_nat (rows * cols)) xs) by (symmetry; apply firstn_skipn).
    set (p := firstn (Z.to_nat (rows * cols)) xs) in *. set (q := skipn (Z.to_nat (rows * cols)) xs) in *.
    assert (Lp : length p = Z.to_nat (rows * cols)) by (unfold p; rewrite firstn_length; nia).
    assert (Lq : length q = Z.to_nat cols) by (unfold q; rewrite skipn_length; nia).
    unfold Z.succ, sumZ at 1. rewrite zrange_snoc, map_app, sumL_app by assumption. simpl sumL at 3.
    rewrite Esplit at 1. rewrite sumL_app. rewrite Rplus_0_r. f_equal.
    + rewrite (IH p) by nia. unfold sumZ at 1. apply sumL_map_ext. intros i Hi. apply in_zrange in Hi.
      unfold sumZ. apply sumL_map_ext. intros j Hj. apply in_zrange in Hj. rewrite Esplit, app_nth1; [reflexivity|]. nia.
    + unfold sumZ. f_equal. apply nth_ext with (d := 0) (d' := 0); [rewrite map_length, zrange_length; assumption|].
      intros j Hj. rewrite nth_map_zrange by lia. rewrite Esplit, app_nth2 by nia. f_equal. nia.
Qed.

(** The grand total is the sum of the column sums and the sum of the row sums; mean * count = sum. *)
Theorem C16_real : forall t (h : heap Rdt) rows cols xs, holds h t [rows; cols] xs -> (0 < rows)%Z ->
  exists total, reduce_sum_all (D:=Rdt) t h = Ok total /\
    (exists out h' v, (forall s, op_reduce_sum (D:=Rdt) s t 0 h = Ok (out, h')) /\
       (forall c, (0 <= c < cols)%Z -> elem (D:=Rdt) h' out [c] (v c)) /\ total = sumZ cols v) /\
    (exists out h' v, (forall s, op_reduce_sum (D:=Rdt) s t 1 h = Ok (out, h')) /\
       (forall r, (0 <= r < rows)%Z -> elem (D:=Rdt) h' out [r] (v r)) /\ total = sumZ rows v) /\
    exists mean, reduce_mean_all (D:=Rdt) t h = Ok mean /\ mean * IZR (rows * cols) = total.
Proof.
  intros t h rows cols xs H Hr. assert (L := holds_len _ _ _ _ H). rewrite numel2 in L by assumption.
  destruct (valid2 rows cols) as (_ & Hc & _ & Hcm & Hrm); [apply (holds_shape _ _ _ _ H)|].
  exists (sumL xs). assert (Eacc : accum (D:=Rdt) xs = sumL xs).
  { unfold accum. change (@dadd Rdt) with Rplus. rewrite fold_left_plus. apply Rplus_0_l. }
  split; [rewrite (reduce_sum_all_ok (D:=Rdt) t h [rows; cols] xs H); now rewrite Eacc|].
  assert (Ea : forall l, accum (D:=Rdt) l = sumL l) by (intros l; unfold accum; change (@dadd Rdt) with Rplus; rewrite fold_left_plus; apply Rplus_0_l).
  split; [|split].
  - eexists _, _, (fun c => accum (D:=Rdt) (colvals (D:=Rdt) xs rows cols c)).
    split; [intros s; unfold op_reduce_sum; rewrite (redop_ok (D:=Rdt) _ s t 0 h rows cols xs H); reflexivity|].
    assert (M := red_made (D:=Rdt) h cols (fun i => accum (D:=Rdt) (colvals (D:=Rdt) xs rows cols i)) ltac:(lia)). split.
    + intros c Hcc. assert (E := elem1 (D:=Rdt) _ _ cols _ c (made_holds _ _ _ _ _ M) Hcc). rewrite red_nth in E by assumption. exact E.
    + rewrite (sum_rows_list xs rows cols (Z.lt_le_incl _ _ Hc) L (Z.lt_le_incl _ _ Hr)). unfold sumZ. rewrite sumL_swap. apply sumL_map_ext. intros c _. rewrite Ea. reflexivity.
  - eexists _, _, (fun r => accum (D:=Rdt) (rowvals (D:=Rdt) xs cols r)).
    split; [intros s; unfold op_reduce_sum; rewrite (redop_ok (D:=Rdt) _ s t 1 h rows cols xs H); reflexivity|].
    assert (M := red_made (D:=Rdt) h rows (fun i => accum (D:=Rdt) (rowvals (D:=Rdt) xs cols i)) ltac:(lia)). split.
    + intros r Hcc. assert (E := elem1 (D:=Rdt) _ _ rows _ r (made_holds _ _ _ _ _ M) Hcc). rewrite red_nth in E by assumption. exact E.
    + rewrite (sum_rows_list xs rows cols (Z.lt_le_incl _ _ Hc) L (Z.lt_le_incl _ _ Hr)). unfold sumZ. apply sumL_map_ext. intros r _. rewrite Ea. reflexivity.
  - eexists. split; [rewrite (reduce_mean_all_ok (D:=Rdt) t h [rows; cols] xs H); reflexivity|].
    rewrite Eacc, numel2 by assumption. change (@ddiv Rdt) with Rdiv. change (@dofZ Rdt) with IZR.
    assert (IZR (rows * cols) <> 0) by (apply not_0_IZR; nia). simpl. field. assumption.
Qed.
Local Close Scope R_scope.

(** * Witnesses *)
Definition ex_sq : heap Zdt := [Some (Blk AArray (map Some [1;2;3;4])); Some (Blk AArray (map Some [5;6;7;8]))].
Definition ex_s1 : tensor := Tn (TSh [2;2] [4;2]) (Some 0%nat).
Definition ex_s2 : tensor := Tn (TSh [2;2] [4;2]) (Some 1%nat).
Example ex_s1_holds : holds ex_sq ex_s1 [2;2] [1;2;3;4].
Proof.
  exists AArray. split; [split; [apply ex_valid; unfold INT_MAX; lia|split; reflexivity]|].
  split; [reflexivity|exists 0%nat; split; reflexivity].
Qed.
Example ex_s2_holds : holds ex_sq ex_s2 [2;2] [5;6;7;8].
Proof.
  exists AArray. split; [split; [apply ex_valid; unfold INT_MAX; lia|split; reflexivity]|].
  split; [reflexivity|exists 1%nat; split; reflexivity].
Qed.
Example ex_matmul : op_matmul (D:=Zdt) (fun _ => [1;1;0;1]%nat) ex_s1 ex_s2 ex_sq =
  Ok (Tn (TSh [2;2] [4;2]) (Some 2%nat), ex_sq ++ [Some (Blk AArray (map Some [19;22;43;50])); None]).
Proof. reflexivity. Qed.

(** C14, the loop as the hardware would run it (races executed, not flagged): two schedules of
    matmul(a,b,a) give two results, and the sequential one is not the product [19;22;43;50] either. *)
Definition mm_rows_racy (sch : Z -> list nat) (p1 p2 po : ptr) (m k n : Z) (h : heap Zdt) : res (heap Zdt) :=
  foldM (fun h i => interleave (sch i) (map (mm_iter (D:=Zdt) p1 p2 po k n i) (zrange n)) h) (zrange m) h.
Theorem C14_schedules_differ :
  mm_rows_racy (fun _ => []) (Some 0%nat) (Some 1%nat) (Some 0%nat) 2 2 2 ex_sq =
    Ok [Some (Blk AArray (map Some [19;130;43;290])); Some (Blk AArray (map Some [5;6;7;8]))] /\
  mm_rows_racy (fun _ => [0;0;0;0;1;1;1;1;0;1]%nat) (Some 0%nat) (Some 1%nat) (Some 0%nat) 2 2 2 ex_sq =
    Ok [Some (Blk AArray (map Some [19;22;43;50])); Some (Blk AArray (map Some [5;6;7;8]))].
Proof. split; reflexivity. Qed.
(** Output aliases the right operand: no race, but later rows read overwritten entries. *)
Theorem C14_right_alias_wrong : exists r e h',
  matmul (D:=Zdt) (fun _ => []) 0 1 1 [Some ex_s1; Some ex_s2] ex_sq = Ok (r, e, h') /\
  (forall sch, matmul (D:=Zdt) sch 0 1 1 [Some ex_s1; Some ex_s2] ex_sq = Ok (r, e, h')) /\
  blk h' 1 = Some (Blk AArray (map Some [19;22;85;98])).
Proof.
  eexists _, _, _. split; [reflexivity|]. split; [|reflexivity]. intros sch.
  set (h1 := [Some (Blk AArray (map Some [1;2;3;4])); Some (Blk AArray (map Some [19;22;7;8]))] : heap Zdt).
  set (h2 := [Some (Blk AArray (map Some [1;2;3;4])); Some (Blk AArray (map Some [19;22;85;98]))] : heap Zdt).
  assert (E1 : par_for (sch 0) (map (mm_iter (D:=Zdt) (Some 0%nat) (Some 1%nat) (Some 1%nat) 2 2 0) (zrange 2)) ex_sq = Ok h1).
  { apply (par_for_schedule_independent []). reflexivity. }
  assert (E2 : par_for (sch 1) (map (mm_iter (D:=Zdt) (Some 0%nat) (Some 1%nat) (Some 1%nat) 2 2 1) (zrange 2)) h1 = Ok h2).
  { apply (par_for_schedule_independent []). reflexivity. }
  assert (E : mm_rows (D:=Zdt) sch (Some 0%nat) (Some 1%nat) (Some 1%nat) 2 2 2 ex_sq = Ok h2).
  { unfold mm_rows. change (zrange 2) with [0; 1] at 2. cbn [foldM]. eapply bind_eq; [exact E1|]. eapply bind_eq; [exact E2|]. reflexivity. }
  transitivity (h2 <- mm_rows (D:=Zdt) sch (Some 0%nat) (Some 1%nat) (Some 1%nat) 2 2 2 ex_sq ;;
                '(r, h3) <- t_copy (D:=Zdt) ex_s2 h2 ;; Ok (r, [Some ex_s1; Some ex_s2], h3)); [reflexivity|].
  eapply bind_eq; [exact E|]. reflexivity.
Qed.
Example ex_argmax : op_argmax (D:=Zdt) [] ex_m 0 ex_h3 = Ok (Tn (TSh [3] [3]) (Some 2%nat), ex_h3 ++ [Some (Blk AArray (map Some [4;5;6]))]) /\
  op_argmin (D:=Zdt) [2;1;1;0]%nat ex_m 1 ex_h3 = Ok (Tn (TSh [2] [2]) (Some 2%nat), ex_h3 ++ [Some (Blk AArray (map Some [1;4]))]) /\
  op_reduce_sum (D:=Zdt) [2;1;1;0]%nat ex_m 1 ex_h3 = Ok (Tn (TSh [2] [2]) (Some 2%nat), ex_h3 ++ [Some (Blk AArray (map Some [6;15]))]).
Proof. repeat split; reflexivity. Qed.
Example ex_order : (forall x : Zdt, dltb x x = false) /\ (forall x y z : Zdt, dltb x y = true -> dltb y z = true -> dltb x z = true).
Proof. split; simpl; intros; lia. Qed.

Print Assumptions C12_real.
Print Assumptions C13_reuse.
Print Assumptions C15_extreme.
Print Assumptions C16_real.

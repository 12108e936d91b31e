(** P_Hist.v - properties C17, C18, C20, C21: schedules, histories, leaks. *)
From Verif Require Import Base Mem Par Tensor TensorOps TSpec TLemmas TOps TOps2 TMem TMatmul TFlat Hist HistP.
Local Open Scope Z_scope.

(** * C17 *)

(** Two outcomes agree: same value, or both undefined, or both abort. *)
Definition agree {A} (r1 r2 : res A) : Prop :=
  match r1, r2 with
  | Ok a, Ok b => a = b
  | Undef _, Undef _ => True
  | Abort, Abort => True
  | Throw, Throw => True
  | _, _ => False
  end.
Lemma agree_refl {A} (r : res A) : agree r r.
Proof. destruct r; simpl; auto. Qed.
Lemma agree_bind {A B} (r1 r2 : res A) (k1 k2 : A -> res B) :
  agree r1 r2 -> (forall a, agree (k1 a) (k2 a)) -> agree (bind r1 k1) (bind r2 k2).
Proof. destruct r1, r2; simpl; intros H Hk; try contradiction; auto. subst. apply Hk. Qed.

(** One parallel loop: any two schedules agree, and success means no race and the sequential result. *)
Theorem C17_loop : forall (D : Type) (its : list (iter D)) (h : heap D) s1 s2,
  agree (par_for s1 its h) (par_for s2 its h) /\
  (forall h', par_for s1 its h = Ok h' <-> race_free its /\ seq_for its h = Ok h').
Proof.
  intros D its h s1 s2. split; [|intros h'; apply par_for_seq].
  destruct (par_for_out s1 its h) as [(h' & E)|E].
  - rewrite E, (par_for_schedule_independent s1 s2 _ _ _ E). reflexivity.
  - assert (E2 := par_for_undef_independent s1 s2 _ _ E). destruct E as (u & E), E2 as (u2 & E2). rewrite E, E2. exact I.
Qed.

Section C17.
Context {D : dtype}.
Notation heap := (heap D).
Implicit Types h : heap.

Ltac ag := repeat first
  [ apply agree_refl | apply C17_loop; exact []
  | apply agree_bind; [|intros ?]
  | match goal with |- agree (let '(_, _) := ?x in _) _ => destruct x end
  | match goal with |- agree (if ?b then _ else _) _ => destruct b end ].

Lemma agree_binop f s1 s2 t1 t2 h : agree (binop f s1 t1 t2 h) (binop f s2 t1 t2 h).
Proof. unfold binop. ag. Qed.
Lemma agree_pow s1 s2 t1 t2 h : agree (op_pow s1 t1 t2 h) (op_pow s2 t1 t2 h).
Proof. unfold op_pow. ag. Qed.
Lemma agree_eqop p s1 s2 t1 t2 h : agree (eqop p s1 t1 t2 h) (eqop p s2 t1 t2 h).
Proof. unfold eqop. ag. Qed.
Lemma agree_unop f s1 s2 t h : agree (unop f s1 t h) (unop f s2 t h).
Proof. unfold unop. ag. Qed.
Lemma agree_eqopv f s1 s2 t h : agree (eqopv f s1 t h) (eqopv f s2 t h).
Proof. unfold eqopv. ag. Qed.
Lemma agree_argop b s1 s2 t a h : agree (argop b s1 t a h) (argop b s2 t a h).
Proof. unfold argop. ag. Qed.
Lemma agree_redop b s1 s2 t a h : agree (redop b s1 t a h) (redop b s2 t a h).
Proof. unfold redop. ag. Qed.
Lemma agree_rows sch1 sch2 p1 p2 po m k n h : agree (mm_rows sch1 p1 p2 po m k n h) (mm_rows sch2 p1 p2 po m k n h).
Proof.
  unfold mm_rows. generalize (zrange m). intros l. revert h. induction l as [|i l IH]; intros h; simpl; [reflexivity|].
  apply agree_bind; [apply C17_loop; exact []|]. intros h'. apply IH.
Qed.
Lemma agree_matmul sch1 sch2 x y z e h : agree (matmul sch1 x y z e h) (matmul sch2 x y z e h).
Proof.
  unfold matmul. repeat (apply agree_bind; [apply agree_refl|intros ?]). destruct a10 as [e1 h1].
  repeat (apply agree_bind; [apply agree_refl|intros ?]). apply agree_bind; [apply agree_rows|intros ?]. apply agree_refl.
Qed.

(** Every tensor operator: the outcome does not depend on the schedule - for all arguments, even invalid ones. *)
Theorem C17_operators : forall h,
  (forall b s1 s2 t1 t2, agree (do_bop b s1 t1 t2 h) (do_bop b s2 t1 t2 h)) /\
  (forall u s1 s2 t, agree (do_uop u s1 t h) (do_uop u s2 t h)) /\
  (forall r s1 s2 t axis, agree (do_rop r s1 t axis h) (do_rop r s2 t axis h)) /\
  (forall sch1 sch2 x y z e, agree (matmul sch1 x y z e h) (matmul sch2 x y z e h)) /\
  (forall sch1 sch2 t1 t2, agree (op_matmul sch1 t1 t2 h) (op_matmul sch2 t1 t2 h)).
Proof.
  intros h. split; [|split; [|split; [|split]]].
  - intros [| | | | | |eps] s1 s2 t1 t2; cbn [do_bop]; try apply agree_binop; try apply agree_pow; try apply agree_eqop.
    unfold op_equal. apply agree_bind; [apply agree_refl|intros _]. apply agree_eqop.
  - intros u s1 s2 t. destruct u; cbn [do_uop]; try apply agree_unop; try apply agree_eqopv.
    unfold op_equalv. apply agree_bind; [apply agree_refl|intros _]. apply agree_eqopv.
  - intros [| | |] s1 s2 t axis; cbn [do_rop]; try apply agree_redop; apply agree_argop.
  - intros. apply agree_matmul.
  - intros sch1 sch2 t1 t2. unfold op_matmul. apply agree_bind; [apply agree_refl|intros o].
    apply agree_bind; [apply agree_matmul|intros r]. apply agree_refl.
Qed.

(** No data race, for operands whose pointers were obtained before the call (any contents, any shapes). *)
Definition valid_ptr h (t : tensor) : Prop := match t_data t with Some b => (b < length h)%nat | None => True end.

Lemma vp_ne h t b : valid_ptr h t -> (length h <= b)%nat -> t_data t <> Some b.
Proof. unfold valid_ptr. intros H Hb E. rewrite E in H. lia. Qed.

Lemma nr_bind {A B} (r : res A) (k : A -> res B) : r <> Undef DataRace -> (forall a, r = Ok a -> k a <> Undef DataRace) ->
  bind r k <> Undef DataRace.
Proof. destruct r; simpl; intros H Hk; try congruence; auto. Qed.
Lemma nr_interleave s its h : interleave s its h <> Undef DataRace.
Proof.
  unfold interleave. apply nr_bind; [|intros [? ?] _; discriminate].
  generalize (s ++ drain 0 its) (map start its). intros l. revert h. induction l as [|k l IH]; intros h ts; simpl; [discriminate|].
  destruct (nth_error ts k) as [t|]; [|apply IH]. apply nr_bind; [|intros [t' h'] _; apply IH].
  unfold tstep. destruct (th_done t); [discriminate|]. destruct (nth_error _ _) as [a|].
  - apply nr_bind; [|discriminate]. unfold load. destruct (hget h a) as [[|]|]; try discriminate.
    unfold bad_addr. destruct (fst a); [destruct (blk h _)|]; discriminate.
  - destruct (it_fun _ _); [|discriminate]. apply nr_bind; [|discriminate]. unfold store. destruct (hget h _); try discriminate.
    unfold bad_addr. destruct (fst _); [destruct (blk h _)|]; discriminate.
Qed.
Lemma nr_par s its h : race_free its -> par_for s its h <> Undef DataRace.
Proof. intros H. rewrite par_for_rf by assumption. apply nr_interleave. Qed.
Lemma nr_fresh s n (rd : Z -> list addr) fn b h h1 ts : (b = length h)%nat -> Forall (valid_ptr h) ts ->
  (forall i a, 0 <= i < n -> In a (rd i) -> exists t, In t ts /\ fst a = t_data t) ->
  par_for s (map (fun i => Iter (rd i) (fn i) (Some b, i)) (zrange n)) h1 <> Undef DataRace.
Proof.
  intros -> Hts Hrd. apply nr_par. assert (Hrf := rf_family n (length h) rd fn 0). simpl in Hrf. apply Hrf.
  intros i a Hi Ha. destruct (Hrd i a Hi Ha) as (t & Ht & ->). apply (vp_ne h); [|lia].
  rewrite Forall_forall in Hts. auto.
Qed.
Lemma mk_shape_nr l : mk_shape l <> Undef DataRace.
Proof.
  unfold mk_shape. apply nr_bind; [unfold cassert; destruct (_ <? _); discriminate|intros _ _]. apply nr_bind.
  - generalize 0%nat. induction l as [|x l IH]; intros i; simpl; [discriminate|]. apply nr_bind; [|intros _ _; apply IH].
    unfold cassert. destruct i; [destruct (_ <=? _)|destruct (_ <? _)]; discriminate.
  - intros _ _. apply nr_bind; [|discriminate]. induction l as [|x l IH]; [discriminate|]. simpl. destruct l; [discriminate|].
    apply nr_bind; [exact IH|]. intros cs _. apply nr_bind; [unfold imul; destruct (int_ok _); discriminate|]. intros c _.
    apply nr_bind; [unfold cassert; destruct (_ <=? _); discriminate|discriminate].
Qed.
Lemma vec_at_nr l i : vec_at l i <> Undef DataRace.
Proof. unfold vec_at. destruct (0 <=? i); [destruct (nth_error _ _)|]; discriminate. Qed.
Lemma cassert_nr b : cassert b <> Undef DataRace.
Proof. destruct b; discriminate. Qed.
Lemma check_nr (f g : Z -> res Z) l : (forall i, f i <> Undef DataRace) -> (forall i, g i <> Undef DataRace) ->
  foldM (fun (_ : unit) i => x <- f i ;; y <- g i ;; cassert (x =? y)) l tt <> Undef DataRace.
Proof.
  intros Hf Hg. induction l as [|i l IH]; simpl; [discriminate|]. apply nr_bind; [|intros [] _; apply IH].
  apply nr_bind; [apply Hf|intros x _]. apply nr_bind; [apply Hg|intros y _]. apply cassert_nr.
Qed.
Lemma t_new_nr s h : t_new s h <> Undef DataRace.
Proof. unfold t_new. apply nr_bind; [apply mk_shape_nr|intros s' _]. apply nr_bind; [apply vec_at_nr|intros n _]. discriminate. Qed.
Lemma t_new_data s h t h1 : t_new s h = Ok (t, h1) -> t_data t = Some (length h).
Proof.
  unfold t_new. intros H. apply bind_ok in H as (s' & _ & H). apply bind_ok in H as (n & _ & H). injection H as <- <-. reflexivity.
Qed.

Ltac nr h := repeat first
  [ discriminate | apply vec_at_nr | apply cassert_nr | apply mk_shape_nr | apply t_new_nr
  | apply check_nr; intros; apply vec_at_nr
  | apply nr_bind; [|intros ? ?]
  | match goal with |- (let '(_, _) := ?x in _) <> _ => destruct x end
  | match goal with |- (if ?b then _ else _) <> _ => destruct b end ].

Lemma nr_loop s n rd fn t h1 (h : heap) ts (so : tshape) hh : t_new so h = Ok (t, hh) -> Forall (valid_ptr h) ts ->
  (forall i a, 0 <= i < n -> In a (rd i) -> exists t, In t ts /\ fst a = t_data t) ->
  par_for s (map (fun i => Iter (rd i) (fn i) (t_data t, i)) (zrange n)) h1 <> Undef DataRace.
Proof. intros Hn Hts Hrd. rewrite (t_new_data _ _ _ _ Hn). eapply nr_fresh; eauto. Qed.

Lemma binop_nr f s t1 t2 h : valid_ptr h t1 -> valid_ptr h t2 -> binop f s t1 t2 h <> Undef DataRace.
Proof.
  intros V1 V2. unfold binop. nr h.
  - eapply (nr_loop s _ (fun i => [(t_data t1, i); (t_data t2, i)]) (fun _ => f2 f) t _ h [t1; t2]); eauto.
    intros i aa [_ _] [<-|[<-|[]]]; simpl; eauto.
  - eapply (nr_loop s _ (fun i => [(t_data t1, i); (t_data t2, Z.rem i a2)]) (fun _ => f2 f) t _ h [t1; t2]); eauto.
    intros i aa [_ _] [<-|[<-|[]]]; simpl; eauto.
Qed.
Lemma pow_nr s t1 t2 h : valid_ptr h t1 -> valid_ptr h t2 -> op_pow s t1 t2 h <> Undef DataRace.
Proof.
  intros V1 V2. unfold op_pow. nr h.
  eapply (nr_loop s _ (fun i => [(t_data t1, i); (t_data t2, i)]) (fun _ => f2 dpow) t _ h [t1; t2]); eauto.
  intros i aa [_ _] [<-|[<-|[]]]; simpl; eauto.
Qed.
Lemma eqop_nr p s t1 t2 h : valid_ptr h t1 -> valid_ptr h t2 -> eqop p s t1 t2 h <> Undef DataRace.
Proof.
  intros V1 V2. unfold eqop. nr h.
  eapply (nr_loop s _ (fun i => [(t_data t1, i); (t_data t2, i)]) (fun _ => mask2 p) t _ h [t1; t2]); eauto.
  intros i aa [_ _] [<-|[<-|[]]]; simpl; eauto.
Qed.
Lemma unop_nr f s t h : valid_ptr h t -> unop f s t h <> Undef DataRace.
Proof.
  intros V1. unfold unop. nr h.
  eapply (nr_loop s _ (fun i => [(t_data t, i)]) (fun _ => f1 f) t0 _ h [t]); eauto.
  intros i aa [_ _] [<-|[]]; simpl; eauto.
Qed.
Lemma eqopv_nr f s t h : valid_ptr h t -> eqopv f s t h <> Undef DataRace.
Proof.
  intros V1. unfold eqopv. nr h.
  eapply (nr_loop s _ (fun i => [(t_data t, i)]) (fun _ => mask1 f) t0 _ h [t]); eauto.
  intros i aa [_ _] [<-|[]]; simpl; eauto.
Qed.
Lemma redop_nr fin s t ax h : valid_ptr h t -> redop fin s t ax h <> Undef DataRace.
Proof.
  intros V1. unfold redop. nr h.
  - eapply (nr_loop s _ (fun i => map (fun j => (t_data t, j * a1 + i)) (zrange a0)) (fun _ vs => Some (fin (accum vs) a0)) t0 _ h [t]); eauto.
    intros i a2' [_ _] Hin. apply in_map_iff in Hin as (j & <- & _). simpl; eauto.
  - eapply (nr_loop s _ (fun i => map (fun j => (t_data t, i * a1 + j)) (zrange a1)) (fun _ vs => Some (fin (accum vs) a1)) t0 _ h [t]); eauto.
    intros i a2' [_ _] Hin. apply in_map_iff in Hin as (j & <- & _). simpl; eauto.
Qed.
Lemma argop_nr b s t ax h : valid_ptr h t -> argop b s t ax h <> Undef DataRace.
Proof.
  intros V1. unfold argop. nr h.
  - eapply (nr_loop s _ (fun i => (t_data t, i) :: map (fun j => (t_data t, (j + 1) * a1 + i)) (zrange (a0 - 1))) (fun _ => scan b) t0 _ h [t]); eauto.
    intros i a2' [_ _] [<-|Hin]; [simpl; eauto|]. apply in_map_iff in Hin as (j & <- & _). simpl; eauto.
  - eapply (nr_loop s _ (fun i => (t_data t, i * a1) :: map (fun j => (t_data t, i * a1 + (j + 1))) (zrange (a1 - 1))) (fun _ => scan b) t0 _ h [t]); eauto.
    intros i a2' [_ _] [<-|Hin]; [simpl; eauto|]. apply in_map_iff in Hin as (j & <- & _). simpl; eauto.
Qed.

Lemma load_nr h a : load h a <> Undef DataRace.
Proof. unfold load. destruct (hget h a) as [[|]|]; try discriminate. unfold bad_addr. destruct (fst a); [destruct (blk h _)|]; discriminate. Qed.
Lemma store_nr h a v : store h a v <> Undef DataRace.
Proof. unfold store. destruct (hget h a); try discriminate. unfold bad_addr. destruct (fst a); [destruct (blk h _)|]; discriminate. Qed.
Lemma t_copy_nr t h : t_copy t h <> Undef DataRace.
Proof.
  unfold t_copy. apply nr_bind; [apply mk_shape_nr|intros s _]. apply nr_bind; [apply vec_at_nr|intros n _]. simpl.
  apply nr_bind; [|discriminate]. unfold copy_loop. generalize (zrange n) (h ++ [Some (Blk AArray (zero_cells n))]).
  intros l. induction l as [|i l IH]; intros h1; simpl; [discriminate|]. apply nr_bind; [|intros h2 _; apply IH].
  apply nr_bind; [apply load_nr|intros v _; apply store_nr].
Qed.
Lemma free_nr h b : free_array h b <> Undef DataRace.
Proof. unfold free_array. destruct (blk h b) as [k|]; [destruct (b_kind k)|]; discriminate. Qed.
Lemma obj_nr e x : obj e x <> Undef DataRace.
Proof. unfold obj. destruct (nth_error e x) as [[|]|]; discriminate. Qed.

(** Output buffer different from the operands' buffers (whatever they are): no race. *)
Lemma mm_rows_nr sch p1 p2 po m k n h : (forall b, po = Some b -> p1 <> Some b /\ p2 <> Some b) ->
  mm_rows sch p1 p2 po m k n h <> Undef DataRace \/ po = None.
Proof.
  intros Hne. destruct po as [b|]; [|auto]. left. destruct (Hne b eq_refl) as [N1 N2]. unfold mm_rows. generalize (zrange m). intros l. revert h.
  induction l as [|i l IH]; intros h; simpl; [discriminate|]. apply nr_bind; [|intros h2 _; apply IH].
  apply nr_par. apply (rf_family n b (fun j => flat_map (fun l0 => [(p1, i * k + l0); (p2, l0 * n + j)]) (zrange k)) (fun _ vs => Some (dot d0 vs)) (i * n)).
  intros j a Hj Ha. apply in_flat_map in Ha as (q & _ & [<-|[<-|[]]]); assumption.
Qed.
Theorem matmul_nr sch x y z e h t1 t2 to :
  nth_error e x = Some (Some t1) -> nth_error e y = Some (Some t2) -> nth_error e z = Some (Some to) ->
  z <> x -> z <> y -> valid_ptr h t1 -> valid_ptr h t2 ->
  (t_data to <> None -> t_data to <> t_data t1 /\ t_data to <> t_data t2) ->
  matmul sch x y z e h <> Undef DataRace.
Proof.
  intros O1 O2 Oo Nx Ny V1 V2 Hd. unfold matmul.
  rewrite (proj2 (obj_ok _ _ _) O1), (proj2 (obj_ok _ _ _) O2), (proj2 (obj_ok _ _ _) Oo). cbn [bind].
  repeat (apply nr_bind; [first [apply cassert_nr|apply vec_at_nr]|intros ? _]).
  rename a0 into k, a3 into m, a4 into n. apply nr_bind.
  { destruct (t_data to); [|discriminate]. apply nr_bind; [apply vec_at_nr|intros co _].
    apply nr_bind; [unfold imul; destruct (int_ok _); discriminate|discriminate]. }
  intros need Hneed. apply nr_bind.
  { destruct need; [|discriminate]. apply nr_bind; [apply mk_shape_nr|intros so _]. apply nr_bind; [apply t_new_nr|intros [tmp h1] _].
    apply nr_bind; [|discriminate]. unfold move_assign_tmp. rewrite (proj2 (obj_ok _ _ _) Oo). cbn [bind].
    apply nr_bind; [|discriminate]. unfold assign_shape. apply nr_bind; [apply mk_shape_nr|discriminate]. }
  intros [e1 h1] He1.
  assert (G : nth_error e1 x = Some (Some t1) /\ nth_error e1 y = Some (Some t2) /\
     exists to', nth_error e1 z = Some (Some to') /\ forall b, t_data to' = Some b -> t_data t1 <> Some b /\ t_data t2 <> Some b).
  { destruct need.
    - apply bind_ok in He1 as (so & _ & He1). apply bind_ok in He1 as ([tmp h2] & Ht & He1). apply bind_ok in He1 as (e2 & Hm & He1).
      injection He1 as <- <-. unfold move_assign_tmp in Hm. rewrite (proj2 (obj_ok _ _ _) Oo) in Hm. cbn [bind] in Hm.
      apply bind_ok in Hm as (sh' & _ & Hm). injection Hm as <-. rewrite !nth_error_upd, Oo, Nat.eqb_refl.
      destruct (Nat.eqb_spec x z); [congruence|]. destruct (Nat.eqb_spec y z); [congruence|]. split; [assumption|]. split; [assumption|].
      eexists. split; [reflexivity|]. cbn [t_data]. rewrite (t_new_data _ _ _ _ Ht). intros b Hb. injection Hb as <-.
      split; apply (vp_ne h); auto.
    - injection He1 as <- <-. split; [assumption|]. split; [assumption|]. exists to. split; [assumption|].
      intros b Hb. destruct (Hd ltac:(congruence)) as [A B]. split; congruence. }
  destruct G as (G1 & G2 & to' & G3 & G4).
  rewrite (proj2 (obj_ok _ _ _) G1), (proj2 (obj_ok _ _ _) G2), (proj2 (obj_ok _ _ _) G3). cbn [bind].
  destruct (mm_rows_nr sch (t_data t1) (t_data t2) (t_data to') m k n h1 G4) as [Hnr|Hnone].
  - apply nr_bind; [exact Hnr|intros h2 _]. apply nr_bind; [apply t_copy_nr|intros [r h3] _; discriminate].
  - exfalso. destruct need.
    + apply bind_ok in He1 as (so & _ & He1). apply bind_ok in He1 as ([tmp h2] & Ht & He1). apply bind_ok in He1 as (e2 & Hm & He1).
      injection He1 as <- <-. unfold move_assign_tmp in Hm. rewrite (proj2 (obj_ok _ _ _) Oo) in Hm. cbn [bind] in Hm.
      apply bind_ok in Hm as (sh' & _ & Hm). injection Hm as <-. rewrite nth_error_upd, Oo, Nat.eqb_refl in G3. injection G3 as <-.
      cbn [t_data] in Hnone. rewrite (t_new_data _ _ _ _ Ht) in Hnone. discriminate.
    + injection He1 as <- <-. assert (to' = to) by congruence. subst to'. rewrite Hnone in Hneed. discriminate.
Qed.

Theorem C17_race_free : forall h,
  (forall b s t1 t2, valid_ptr h t1 -> valid_ptr h t2 -> do_bop b s t1 t2 h <> Undef DataRace) /\
  (forall u s t, valid_ptr h t -> do_uop u s t h <> Undef DataRace) /\
  (forall r s t axis, valid_ptr h t -> do_rop r s t axis h <> Undef DataRace) /\
  (forall sch x y z e t1 t2 to,
     nth_error e x = Some (Some t1) -> nth_error e y = Some (Some t2) -> nth_error e z = Some (Some to) ->
     z <> x -> z <> y -> valid_ptr h t1 -> valid_ptr h t2 ->
     (t_data to <> None -> t_data to <> t_data t1 /\ t_data to <> t_data t2) ->
     matmul sch x y z e h <> Undef DataRace).
Proof.
  intros h. split; [|split; [|split]].
  - intros [| | | | | |eps] s t1 t2 V1 V2; cbn [do_bop]; try (now apply binop_nr); try (now apply pow_nr); try (now apply eqop_nr).
    unfold op_equal. apply nr_bind; [apply cassert_nr|intros _ _]. now apply eqop_nr.
  - intros u s t V. destruct u; cbn [do_uop]; try (now apply unop_nr); try (now apply eqopv_nr).
    unfold op_equalv. apply nr_bind; [apply cassert_nr|intros _ _]. now apply eqopv_nr.
  - intros [| | |] s t axis V; cbn [do_rop]; try (now apply redop_nr); now apply argop_nr.
  - intros; eapply matmul_nr; eassumption.
Qed.

End C17.

(** * C18 *)
Section C18.
Context {D : dtype}.
Notation heap := (heap D).

Definition no_leaky (p : list (stmt (D:=D))) : Prop := Forall (fun st => leaky st = false) p.

Lemma no_leaky_b p : no_leaky p -> forallb (fun st => negb (leaky st)) p = true.
Proof. intros H. apply forallb_forall. intros st Hst. pose proof (proj1 (Forall_forall _ _) H st Hst) as E. simpl in E. now rewrite E. Qed.

Lemma owners_none e : (forall x t, nth_error e x <> Some (Some t)) -> owners e = 0%nat.
Proof.
  unfold owners. induction e as [|[t|] e IH]; intros H; [reflexivity| |].
  - exfalso. apply (H 0%nat t). reflexivity.
  - simpl. apply IH. intros x t. apply (H (S x) t).
Qed.

(** Running a program all of whose statements meet their requirements when reached. *)
Theorem C18_memory_safe : forall p : list (stmt (D:=D)), wt_run p ([], []) -> no_leaky p ->
  (exists e h, run p ([], []) = Ok (e, h) /\
     live h = owners e /\
     ((forall x t, nth_error e x <> Some (Some t)) -> live h = 0%nat) /\
     (forall x d i, var e x d -> 0 <= i < numel d -> exists t v, nth_error e x = Some (Some t) /\ t_get t i h = Ok v) /\
     (forall x t, nth_error e x = Some (Some t) -> exists h', t_destroy t h = Ok h') /\
     (forall x y t u b, nth_error e x = Some (Some t) -> nth_error e y = Some (Some u) ->
        t_data t = Some b -> t_data u = Some b -> x = y)) \/
  run p ([], []) = Abort \/ run p ([], []) = Undef IntOverflow.
Proof.
  intros p Hw Hn. destruct (run_good p [] [] [] inv_init Hw) as [([e h] & E & Hi)|H]; [left|right; exact H].
  rewrite (leaks_none p _ (no_leaky_b p Hn)) in Hi. simpl in Hi. exists e, h. split; [exact E|].
  assert (Hc := inv_count [] e h Hi). simpl in Hc. rewrite Nat.add_0_r in Hc.
  split; [exact Hc|]. split; [intros H; rewrite Hc; now apply owners_none|].
  split; [|split].
  - intros x d i V Hr. destruct (var_holds _ _ _ _ _ Hi V) as (t & xs & Hx & Hh). exists t. eexists. split; [exact Hx|].
    apply (holds_load h t d xs); [exists AArray; exact Hh|assumption].
  - intros x t Hx. destruct (inv_destroy [] e h x t Hi Hx) as (h' & E' & _). eauto.
  - apply (inv_sep _ _ _ Hi).
Qed.

(** With the leaking statements allowed: still no undefined behaviour, and the live blocks are the owned
    ones plus at most one leaked block per leaking statement. *)
Lemma leaks_le p : forall s, (length (leaks (D:=D) p s) <= length (filter leaky p))%nat.
Proof.
  induction p as [|st p IH]; intros s; [simpl; lia|]. cbn [leaks]. destruct (exec st s) as [s'| | |]; try (simpl; lia).
  rewrite app_length. specialize (IH s'). simpl. destruct (leaky st) eqn:E.
  - simpl. assert (length (leak_of st s s') <= 1)%nat; [|lia].
    destruct st; simpl; try lia; try discriminate; repeat (destruct (nth_error _ _) as [[?|]|]; simpl; try lia);
      repeat (destruct (t_data _); simpl; try lia); repeat (destruct (Nat.eqb _ _); simpl; try lia).
  - rewrite (leak_of_none st s s' E). simpl. lia.
Qed.
Theorem C18_with_leaks : forall p : list (stmt (D:=D)), wt_run p ([], []) ->
  (exists e h n, run p ([], []) = Ok (e, h) /\ live h = (owners e + n)%nat /\ (n <= length (filter leaky p))%nat) \/
  run p ([], []) = Abort \/ run p ([], []) = Undef IntOverflow.
Proof.
  intros p Hw. destruct (run_good p [] [] [] inv_init Hw) as [([e h] & E & Hi)|H]; [left|right; exact H].
  exists e, h, (length (leaks p ([], []))). split; [exact E|]. rewrite app_nil_r in Hi.
  split; [apply (inv_count _ e h Hi)|apply leaks_le].
Qed.

(** * C21 *)

(** One assignment of a computed tensor. *)
Theorem C21_assign_value : forall (p : list (stmt (D:=D))) e h x tx ex t h1,
  wt_run p ([], []) -> run p ([], []) = Ok (e, h) -> nth_error e x = Some (Some tx) -> wt_expr ex e ->
  eval ex e h = Ok (t, h1) -> exec (SAssignE x ex) (e, h) = Ok (upd x (Some t) e, h1).
Proof.
  intros p e h x tx ex t h1 Hw Hr Hx He Ev. destruct (run_good p [] [] [] inv_init Hw) as [(s & E & Hi)|[E|E]]; try (pose proof (eq_trans (eq_sym E) Hr); discriminate).
  pose proof (eq_trans (eq_sym E) Hr) as Q; injection Q as ->. simpl in Hi.
  destruct (eval_good _ ex e h Hi He) as [([t' h'] & E1 & Hf)|[E1|E1]]; try (rewrite Ev in E1; discriminate).
  rewrite Ev in E1; injection E1 as <- <-. cbn [exec]. rewrite Ev. cbn [bind].
  unfold move_assign_tmp. rewrite (proj2 (obj_ok _ _ _) Hx). cbn [bind]. destruct Hf as (s & dims & ys & j & Et & Hs & _). simpl in Et. subst t.
  cbn [t_sh t_data]. rewrite (assign_shape_id _ _ dims Hs). reflexivity.
Qed.

Lemma exec_assign_owner (ex : expr (D:=D)) e h x e' h' : exec (SAssignE x ex) (e, h) = Ok (e', h') ->
  forall L, inv L e h -> wt_expr ex e -> exists t b, nth_error e' x = Some (Some t) /\ t_data t = Some b /\ length e' = length e.
Proof.
  intros He L Hi Hw. cbn [exec] in He. destruct (eval_good L ex e h Hi Hw) as [([t' h1] & E1 & Hf)|[E1|E1]]; rewrite E1 in He; try discriminate.
  cbn [bind] in He. apply bind_ok in He as (e1 & Hm & He). injection He as <- <-. unfold move_assign_tmp in Hm.
  apply bind_ok in Hm as (td & Hd & Hm). apply obj_ok in Hd. apply bind_ok in Hm as (sh' & _ & Hm). injection Hm as <-.
  destruct Hf as (s & dims & ys & j & Et & _). simpl in Et. subst t'. cbn [t_data].
  eexists _, _. rewrite nth_error_upd, Nat.eqb_refl, Hd. split; [reflexivity|]. split; [reflexivity|apply upd_length].
Qed.

Lemma owners_upd e x t t' : nth_error e x = Some (Some t) -> (t_data t = None <-> t_data t' = None) -> owners (upd x (Some t') e) = owners e.
Proof.
  unfold owners. revert x. induction e as [|o e IH]; intros [|x] Hx Hd; try discriminate.
  - simpl in Hx. injection Hx as ->. simpl. destruct (t_data t), (t_data t'); simpl; try reflexivity; exfalso; [destruct Hd as [_ Hd]|destruct Hd as [Hd _]]; specialize (Hd eq_refl); discriminate.
  - simpl in *. destruct o as [u|]; [destruct (t_data u)|]; simpl; rewrite (IH x Hx Hd); reflexivity.
Qed.

(** After n assignments of computed tensors to an owning variable, exactly n more blocks are live although
    the same variables own a buffer. *)
Theorem C21_leak_count : forall (p : list (stmt (D:=D))) e h x tx b exs e' h',
  wt_run p ([], []) -> no_leaky p -> run p ([], []) = Ok (e, h) ->
  nth_error e x = Some (Some tx) -> t_data tx = Some b ->
  wt_run (map (SAssignE x) exs) (e, h) -> run (map (SAssignE x) exs) (e, h) = Ok (e', h') ->
  live h' = (live h + length exs)%nat /\ owners e' = owners e /\ live h = owners e.
Proof.
  intros p e h x tx b exs e' h' Hw Hn Hr Hx Hb Hw2 Hr2.
  destruct (run_good p [] [] [] inv_init Hw) as [(s & E & Hi)|[E|E]]; try (pose proof (eq_trans (eq_sym E) Hr); discriminate).
  pose proof (eq_trans (eq_sym E) Hr) as Q; injection Q as ->. simpl in Hi. rewrite (leaks_none p _ (no_leaky_b p Hn)) in Hi. simpl in Hi.
  assert (Hc := inv_count [] e h Hi). simpl in Hc. rewrite Nat.add_0_r in Hc.
  assert (G : forall exs L e h tx b, inv L e h -> nth_error e x = Some (Some tx) -> t_data tx = Some b ->
     wt_run (map (SAssignE x) exs) (e, h) -> run (map (SAssignE x) exs) (e, h) = Ok (e', h') ->
     exists L', inv L' e' h' /\ length L' = (length exs + length L)%nat /\ owners e' = owners e).
  { clear. induction exs as [|ex exs IH]; intros L e h tx b Hi Hx Hb Hw Hr.
    - unfold run in Hr. simpl in Hr. injection Hr as <- <-. exists L. auto.
    - destruct Hw as [[Ha Hw1] Hw2]. unfold run in Hr. cbn [map foldM] in Hr. apply bind_ok in Hr as ([e1 h1] & E1 & Hr).
      destruct (exec_good L (SAssignE x ex) e h Hi (conj Ha Hw1)) as [(s1 & E2 & Hi1)|[E2|E2]]; rewrite E2 in E1; try discriminate.
      assert (s1 = (e1, h1)) by congruence. subst s1. simpl fst in Hi1. simpl snd in Hi1.
      destruct (exec_assign_owner ex e h x e1 h1 E2 L Hi Hw1) as (t1 & b1 & Hx1 & Hb1 & _).
      cbn [leak_of fst] in Hi1. rewrite Hx, Hb in Hi1.
      destruct (IH _ e1 h1 t1 b1 Hi1 Hx1 Hb1 (Hw2 _ E2) Hr) as (L' & A & B & C). exists L'. split; [exact A|]. split; [simpl in *; lia|].
      rewrite C. cbn [exec] in E2. apply bind_ok in E2 as ([t' h2] & _ & E2). apply bind_ok in E2 as (e2 & Hm & E2). injection E2 as -> ->.
      unfold move_assign_tmp in Hm. apply bind_ok in Hm as (td & Hd & Hm). apply obj_ok in Hd. apply bind_ok in Hm as (sh' & _ & Hm). injection Hm as <-.
      apply owners_upd with tx; [assumption|]. rewrite nth_error_upd, Nat.eqb_refl, Hd in Hx1. injection Hx1 as <-. simpl in *. split; congruence. }
  destruct (G exs [] e h tx b Hi Hx Hb Hw2 Hr2) as (L' & A & B & C).
  assert (Hc' := inv_count L' e' h' A). simpl in B. lia.
Qed.

End C18.

(** * C20 *)
Section C20.
Context {D : dtype}.
Notation heap := (heap D).
Implicit Types h : heap.

(** [b] is a live block from scalar new. *)
Definition scal (b : nat) (h : heap) : Prop := exists c, blk h b = Some (Blk AScalar c).

Lemma scal_app b h x : scal b h -> scal b (h ++ [x]).
Proof. intros (c & H). exists c. now apply preserved_app. Qed.
Lemma scal_store b h a v h' : scal b h -> store h a v = Ok h' -> scal b h'.
Proof.
  intros (c & H) Hs. unfold store in Hs. destruct (hget h a); [|discriminate]. injection Hs as <-.
  unfold hset. destruct (fst a) as [q|]; [|now exists c]. destruct (blk h q) as [k|] eqn:E; [|now exists c].
  destruct (0 <=? snd a); [|now exists c]. unfold scal. rewrite blk_upd. destruct (Nat.eqb_spec b q) as [->|]; [|now exists c].
  assert (k = Blk AScalar c) by congruence. subst k. destruct (nth_error h q) eqn:En; [|apply nth_error_None in En; apply blk_lt in E; lia].
  eexists. reflexivity.
Qed.
Lemma scal_free b h q h' : scal b h -> free_array h q = Ok h' -> scal b h'.
Proof.
  intros (c & H) Hf. unfold free_array in Hf. destruct (blk h q) as [k|] eqn:E; [|discriminate]. destruct (b_kind k) eqn:Ek; [discriminate|].
  injection Hf as <-. exists c. rewrite blk_upd. destruct (Nat.eqb_spec b q) as [->|]; [|assumption].
  assert (k = Blk AScalar c) by congruence. subst k. discriminate.
Qed.
Lemma scal_foldM {A} b (f : heap -> A -> res heap) l : (forall h a h', scal b h -> f h a = Ok h' -> scal b h') ->
  forall h h', scal b h -> foldM f l h = Ok h' -> scal b h'.
Proof.
  intros Hf. induction l as [|a l IH]; intros h h' Hs H; simpl in H; [congruence|].
  apply bind_ok in H as (h1 & H1 & H). eauto.
Qed.
Lemma scal_par b s its h h' : scal b h -> par_for s its h = Ok h' -> scal b h'.
Proof.
  unfold par_for. destruct (race_freeb its); [|discriminate]. unfold interleave. intros Hs H. apply bind_ok in H as ([ts h1] & H & E). injection E as ->.
  revert H. generalize (s ++ drain 0 its) (map start its). intros l. revert h Hs. induction l as [|k l IH]; intros h Hs ts0 H; simpl in H; [congruence|].
  destruct (nth_error ts0 k) as [t|]; [|eauto]. apply bind_ok in H as ([t' h2] & Ht & H). eapply IH; [|exact H].
  unfold tstep in Ht. destruct (th_done t); [congruence|]. destruct (nth_error _ _).
  - apply bind_ok in Ht as (v & _ & Ht). congruence.
  - destruct (it_fun _ _); [|congruence]. apply bind_ok in Ht as (h3 & Hst & Ht). injection Ht as <- <-. eapply scal_store; eauto.
Qed.
Lemma scal_copyloop b p q n h h' : scal b h -> copy_loop p q n h = Ok h' -> scal b h'.
Proof.
  apply scal_foldM. intros h0 i h1 Hs H. apply bind_ok in H as (v & _ & H). eapply scal_store; eauto.
Qed.
Lemma scal_fill b p g idx n h h' : scal b h -> fill_loop p g idx n h = Ok h' -> scal b h'.
Proof. apply scal_foldM. intros h0 i h1 Hs H. eapply scal_store; eauto. Qed.
Lemma scal_rows b sch p1 p2 po m k n h h' : scal b h -> mm_rows sch p1 p2 po m k n h = Ok h' -> scal b h'.
Proof. apply scal_foldM. intros h0 i h1 Hs H. eapply scal_par; eauto. Qed.
Lemma scal_new b s h t h' : scal b h -> t_new s h = Ok (t, h') -> scal b h'.
Proof.
  intros Hs H. unfold t_new in H. apply bind_ok in H as (s' & _ & H). apply bind_ok in H as (n & _ & H). injection H as <- <-. now apply scal_app.
Qed.
Lemma scal_copy b t h t' h' : scal b h -> t_copy t h = Ok (t', h') -> scal b h'.
Proof.
  intros Hs H. unfold t_copy in H. apply bind_ok in H as (s' & _ & H). apply bind_ok in H as (n & _ & H). simpl in H.
  apply bind_ok in H as (h2 & H2 & H). injection H as <- <-. eapply scal_copyloop; [|exact H2]. now apply scal_app.
Qed.

Ltac sb := repeat match goal with
  | H : bind _ _ = Ok _ |- _ => let a := fresh "a" in let E := fresh "E" in apply bind_ok in H as (a & E & H)
  | H : (let '(_, _) := ?x in _) = Ok _ |- _ => destruct x
  | H : Ok _ = Ok _ |- _ => injection H; clear H; intros; subst
  | H : (if ?b then _ else _) = Ok _ |- _ => destruct b
  end.
Ltac sdone := match goal with
  | H : par_for _ _ ?h = Ok ?h' |- scal _ ?h' => eapply scal_par; [|exact H]
  | H : t_new _ ?h = Ok (_, ?h') |- scal _ ?h' => eapply scal_new; [|exact H]
  | H : t_copy _ ?h = Ok (_, ?h') |- scal _ ?h' => eapply scal_copy; [|exact H]
  | H : fill_loop _ _ _ _ ?h = Ok ?h' |- scal _ ?h' => eapply scal_fill; [|exact H]
  | H : copy_loop _ _ _ ?h = Ok ?h' |- scal _ ?h' => eapply scal_copyloop; [|exact H]
  | H : free_array ?h _ = Ok ?h' |- scal _ ?h' => eapply scal_free; [|exact H]
  | H : mm_rows _ _ _ _ _ _ _ ?h = Ok ?h' |- scal _ ?h' => eapply scal_rows; [|exact H]
  | H : store ?h _ _ = Ok ?h' |- scal _ ?h' => eapply scal_store; [|exact H]
  | |- scal _ (_ ++ [_]) => apply scal_app
  end.
Ltac sall := sb; repeat sdone; try assumption.

Lemma scal_binop b f s t1 t2 h t h' : scal b h -> binop f s t1 t2 h = Ok (t, h') -> scal b h'.
Proof. intros Hs H. unfold binop in H. sall. Qed.
Lemma scal_matmul b sch x y z e h r e' h' : scal b h -> matmul sch x y z e h = Ok (r, e', h') -> scal b h'.
Proof. intros Hs H. unfold matmul in H. sall. Qed.
Lemma scal_eval b ex e h t h' : scal b h -> eval ex e h = Ok (t, h') -> scal b h'.
Proof.
  intros Hs H. destruct ex; cbn [eval] in H.
  - unfold t_new_dims in H. sall.
  - unfold t_ones in H. sall.
  - unfold t_eyes in H. sall.
  - unfold t_gaussian in H. sall.
  - sall.
  - apply bind_ok in H as (t1 & _ & H). apply bind_ok in H as (t2 & _ & H).
    destruct b0; cbn [do_bop] in H; try (eapply scal_binop; eassumption); unfold op_pow, op_eq, op_equal, eqop in H; sall.
  - apply bind_ok in H as (t1 & _ & H). destruct u; cbn [do_uop] in H;
      unfold op_neg, op_exp, op_log, op_sqrt, op_addv, op_subv, op_mulv, op_divv, op_powv, op_eqv, op_equalv, unop, eqopv in H; sall.
  - apply bind_ok in H as (t1 & _ & H). destruct r; cbn [do_rop] in H; unfold op_reduce_sum, op_reduce_mean, op_argmax, op_argmin, redop, argop in H; sall.
  - apply bind_ok in H as (t1 & _ & H). apply bind_ok in H as (t2 & _ & H). unfold op_matmul in H.
    apply bind_ok in H as (o & _ & H). apply bind_ok in H as ([[r e1] h1] & H1 & H). apply scal_matmul with (b := b) in H1; [|assumption].
    unfold t_destroy in H. apply bind_ok in H as (h2 & H2 & H). apply bind_ok in H as (o' & _ & H). injection H as <- <-.
    destruct (t_data r); [eapply scal_free; eauto|congruence].
Qed.
Lemma scal_exec b st e h e' h' : scal b h -> exec st (e, h) = Ok (e', h') -> scal b h'.
Proof.
  intros Hs H. destruct st; cbn [exec] in H.
  - apply bind_ok in H as ([t h1] & H1 & H). injection H as <- <-. eapply scal_eval; eauto.
  - sall.
  - sall.
  - unfold t_set in H. sall.
  - sall.
  - unfold t_copy_assign in H. apply bind_ok in H as (td & _ & H). apply bind_ok in H as (ts & _ & H). apply bind_ok in H as ([t' hh] & H & R).
    injection R as <- <-. apply bind_ok in H as (nd & _ & H). apply bind_ok in H as ([p h1] & Hp & H).
    apply bind_ok in H as (h2 & Hc & H). apply bind_ok in H as (s' & _ & H). injection H as <- <-. eapply scal_copyloop; [|exact Hc].
    destruct (t_data td) as [q|]; [|injection Hp as <- <-; now apply scal_app].
    apply bind_ok in Hp as (ns & _ & Hp). destruct (nd <? ns); [|congruence]. apply bind_ok in Hp as (h3 & Hf & Hp). injection Hp as <- <-.
    apply scal_app. eapply scal_free; eauto.
  - apply bind_ok in H as ([t h1] & H1 & H). apply scal_eval with (b := b) in H1; [|assumption]. sall.
  - sall.
  - apply bind_ok in H as ([[r e1] h1] & H1 & H). apply scal_matmul with (b := b) in H1; [|assumption].
    unfold t_destroy in H. destruct (t_data r); sall.
  - unfold t_destroy in H. sb. destruct (t_data a); sall.
Qed.
Lemma scal_run b p : forall e h e' h', scal b h -> run p (e, h) = Ok (e', h') -> scal b h'.
Proof.
  unfold run. induction p as [|st p IH]; intros e h e' h' Hs H; simpl in H; [congruence|].
  apply bind_ok in H as ([e1 h1] & H1 & H). eapply IH; [|exact H]. eapply scal_exec; [exact Hs|exact H1].
Qed.

(** Tensor(val): one element; and after ANY program, destroying whatever variable then owns its buffer, or
    growing it by copy assignment, is undefined behaviour. *)
Theorem C20_scalar_tensor : forall v h, exists t h1, t_scalar v h = Ok (t, h1) /\
  holds_k AScalar h1 t [0] [v] /\ fresh_in h t /\
  forall p e e' h', run p (e, h1) = Ok (e', h') ->
    forall t', t_data t' = t_data t ->
      t_destroy t' h' = Undef MismatchedDelete /\
      (forall x, nth_error e' x = Some (Some t') -> exec (SDestroy x) (e', h') = Undef MismatchedDelete) /\
      (forall src nd ns, chunk_at (t_sh t') 0 = Ok nd -> chunk_at (t_sh src) 0 = Ok ns -> nd < ns ->
         t_copy_assign t' src h' = Undef MismatchedDelete).
Proof.
  intros v h. unfold t_scalar. destruct (mk1' 0) as [E S1]; [unfold INT_MAX; lia|]. rewrite E. cbn [bind alloc].
  eexists _, _. split; [reflexivity|]. split; [|split].
  - split; [exact S1|]. split; [reflexivity|]. exists (length h). split; [reflexivity|]. rewrite blk_app, Nat.eqb_refl. reflexivity.
  - exists (length h). split; [reflexivity|lia].
  - intros p e e' h' Hr t' Ht'. cbn [t_data] in Ht'.
    assert (Hs : scal (length h) h').
    { eapply scal_run; [|exact Hr]. exists [Some v]. rewrite blk_app, Nat.eqb_refl. reflexivity. }
    destruct Hs as (c & Hc).
    assert (Hd : t_destroy t' h' = Undef MismatchedDelete) by (unfold t_destroy, free_array; rewrite Ht', Hc; reflexivity).
    split; [exact Hd|]. split.
    + intros x Hx. cbn [exec]. rewrite (proj2 (obj_ok _ _ _) Hx). cbn [bind]. rewrite Hd. reflexivity.
    + intros src nd ns Hnd Hns Hlt. unfold t_copy_assign. rewrite Hnd. cbn [bind]. rewrite Ht', Hns. cbn [bind].
      replace (nd <? ns) with true by lia. unfold free_array. rewrite Hc. reflexivity.
Qed.

End C20.

(** * Witnesses *)

(** A well-typed, leak-free history using copies, arithmetic, broadcasting, reshape, assignment, matmul. *)
Definition ex_prog : list (stmt (D:=Zdt)) :=
  [SDecl (EOnes [2;3]); SDecl (ECopy 0); SSet (D:=Zdt) 1 4 (7 : Zdt); SDecl (EBin BAdd [1;0;1]%nat 0 1); SReshape 2 [3;2];
   SDecl (EMat (fun _ => []) 0 2); SAssign 0 1; SDestroy 3; SDestroy 2; SDestroy 1; SDestroy 0].
Example ex_prog_runs : exists e h, run ex_prog ([], []) = Ok (e, h) /\ live h = 0%nat /\ owners e = 0%nat.
Proof. eexists _, _. split; [vm_compute; reflexivity|]. split; reflexivity. Qed.
Ltac exv := eexists _, _; repeat split; reflexivity.
Example ex_prog_wt : wt_run ex_prog ([], []) /\ no_leaky ex_prog.
Proof.
  assert (Hint : forall a b, 0 <= a <= 10 -> 0 <= b <= 10 -> ints [a; b]) by (intros; repeat constructor; unfold INT_MIN, INT_MAX; lia).
  split; [|repeat constructor].
  unfold ex_prog. cbn [wt_run wt wt_expr fst].
  split; [apply Hint; lia|]. intros s H; vm_compute in H; injection H as <-.
  split; [exists [2;3]; exv|]. intros s H; vm_compute in H; injection H as <-.
  split; [exists [2;3]; split; [exv|vm_compute; split; congruence]|]. intros s H; vm_compute in H; injection H as <-.
  split; [exists [2;3], [2;3]; split; [exv|split; [exv|left; simpl; lia]]|]. intros s H; vm_compute in H; injection H as <-.
  split; [split; [eexists; reflexivity|apply Hint; lia]|]. intros s H; vm_compute in H; injection H as <-.
  split; [exists [2;3], [3;2]; split; exv|]. intros s H; vm_compute in H; injection H as <-.
  split; [exists [2;3], [2;3]; split; [exv|split; [exv|reflexivity]]|]. intros s H; vm_compute in H; injection H as <-.
  split; [eexists; reflexivity|]. intros s H; vm_compute in H; injection H as <-.
  split; [eexists; reflexivity|]. intros s H; vm_compute in H; injection H as <-.
  split; [eexists; reflexivity|]. intros s H; vm_compute in H; injection H as <-.
  split; [eexists; reflexivity|]. intros s H; exact I.
Qed.
(** x = x + x three times leaks three blocks. *)
Example ex_leak : exists e h, run (D:=Zdt) (SDecl (EOnes [2;3]) :: map (SAssignE 0) (repeat (EBin BAdd [] 0 0) 3)) ([], []) = Ok (e, h) /\
  live h = 4%nat /\ owners e = 1%nat.
Proof. eexists _, _. split; [vm_compute; reflexivity|]. split; reflexivity. Qed.

Print Assumptions C17_operators.
Print Assumptions C17_race_free.
Print Assumptions C18_memory_safe.
Print Assumptions C18_with_leaks.
Print Assumptions C20_scalar_tensor.
Print Assumptions C21_leak_count.

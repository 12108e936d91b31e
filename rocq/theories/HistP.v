(** HistP.v - the memory discipline is preserved by every well-typed statement (proofs for C18, C21). *)
From Verif Require Import Base Mem Par Tensor TensorOps TSpec TLemmas TOps TOps2 TMem TMatmul Hist.
Local Open Scope Z_scope.

Section HistP.
Context {D : dtype}.
Notation heap := (heap D).
Implicit Types h : heap.

(** A fresh tensor: one new array block at the end, then possibly already-freed blocks. *)
Definition fresh_res (h : heap) (t : tensor) (h' : heap) : Prop :=
  exists s dims ys j, t = Tn s (Some (length h)) /\ is_shape s dims /\ Z.of_nat (length ys) = numel dims /\
    h' = h ++ Some (Blk AArray (map Some ys)) :: repeat None j.

(** Allowed outcomes of an expression. *)
Definition good_out {A} (r : res A) (P : A -> Prop) : Prop :=
  (exists a, r = Ok a /\ P a) \/ r = Abort \/ r = Undef IntOverflow.

Lemma good_ok {A} (a : A) (P : A -> Prop) : P a -> good_out (Ok a) P.
Proof. intros H. left. eauto. Qed.
Lemma good_abort {A} (P : A -> Prop) : good_out Abort P.
Proof. right; left; reflexivity. Qed.
Lemma good_ovf {A} (P : A -> Prop) : good_out (Undef IntOverflow) P.
Proof. right; right; reflexivity. Qed.
Lemma good_bind {A B} (r : res A) (k : A -> res B) (P : A -> Prop) (Q : B -> Prop) :
  good_out r P -> (forall a, r = Ok a -> P a -> good_out (k a) Q) -> good_out (bind r k) Q.
Proof.
  intros [(a & -> & Ha)|[->| ->]] Hk; [apply Hk; auto|apply good_abort|apply good_ovf].
Qed.

Lemma fresh_one h s dims ys : is_shape s dims -> Z.of_nat (length ys) = numel dims ->
  fresh_res h (Tn s (Some (length h))) (h ++ [Some (Blk AArray (map Some ys))]).
Proof. intros Hs Hl. exists s, dims, ys, 0%nat. repeat split; auto; apply Hs. Qed.

Lemma mk_good dims : ints dims -> good_out (mk_shape dims) (fun s => is_shape s dims).
Proof.
  intros Hi. destruct (signs_dec dims) as [Hs|Hs].
  - destruct (fits_dec dims) as [Hf|Hf].
    + rewrite mk_shape_ok by (auto; split; auto). apply good_ok. repeat split; auto.
    + rewrite mk_shape_undef by assumption. apply good_ovf.
  - rewrite (proj2 (mk_shape_abort dims Hi) Hs). apply good_abort.
Qed.

Lemma var_holds L e h x d : inv L e h -> var e x d -> exists t xs, nth_error e x = Some (Some t) /\
  holds_k AArray h t d xs.
Proof.
  intros Hi (t & b & Hx & Hd & Hb). destruct (inv_var _ _ _ Hi x t Hx) as [(dims & xs & Hh)|(dims & He)].
  - exists t, xs. split; [assumption|]. assert (dims = d); [|congruence]. rewrite <- Hd. symmetry. apply Hh.
  - destruct He as [_ He]. congruence.
Qed.

Lemma eval_good L ex e h : inv L e h -> wt_expr ex e ->
  good_out (eval ex e h) (fun r => fresh_res h (fst r) (snd r)).
Proof.
  intros Hi Hw. destruct ex as [dims|dims|n|draw dims|x|b s x y|u s x|r s x axis|sch x y]; simpl in Hw; cbn [eval].
  - destruct (mk_good dims Hw) as [(s & E & Hs)|[E|E]].
    + destruct (t_new_dims_ok (D:=D) dims h Hw (proj1 Hs)) as (s' & Hs' & _ & ->). apply good_ok. apply fresh_one with dims; auto.
      rewrite repeat_length. assert (Hp := numel_pos' _ _ Hs). lia.
    + unfold t_new_dims. rewrite E. apply good_abort.
    + unfold t_new_dims. rewrite E. apply good_ovf.
  - destruct (mk_good dims Hw) as [(s & E & Hs)|[E|E]].
    + destruct (t_ones_ok (D:=D) dims h Hw (proj1 Hs)) as (s' & Hs' & ->). apply good_ok. apply fresh_one with dims; auto.
      rewrite repeat_length. assert (Hp := numel_pos' _ _ Hs). lia.
    + unfold t_ones. rewrite E. apply good_abort.
    + unfold t_ones. rewrite E. apply good_ovf.
  - assert (Hw' : ints [n; n]) by (repeat constructor; lia).
    destruct (mk_good [n; n] Hw') as [(s & E & Hs)|[E|E]].
    + destruct (valid2 n n (proj1 Hs)) as (H0 & H1 & H2 & _).
      destruct (t_eyes_ok (D:=D) n h H1 H2) as (s' & Hs' & ->). apply good_ok. apply fresh_one with [n; n]; auto.
      unfold eye_list. rewrite map_length, zrange_length, numel2 by lia. nia.
    + unfold t_eyes. rewrite E. apply good_abort.
    + unfold t_eyes. rewrite E. apply good_ovf.
  - destruct (mk_good dims Hw) as [(s & E & Hs)|[E|E]].
    + destruct (t_gaussian_ok draw dims h Hw (proj1 Hs)) as (s' & Hs' & ->). apply good_ok. apply fresh_one with dims; auto.
      rewrite map_length, zrange_length. assert (Hp := numel_pos' _ _ Hs). lia.
    + unfold t_gaussian. rewrite E. apply good_abort.
    + unfold t_gaussian. rewrite E. apply good_ovf.
  - destruct Hw as (d & Hv). destruct (var_holds _ _ _ _ _ Hi Hv) as (t & xs & Hx & Hh).
    rewrite (proj2 (obj_ok _ _ _) Hx). cbn [bind].
    rewrite (t_copy_ok t h d xs) by (exists AArray; exact Hh). apply good_ok. apply fresh_one with d; apply Hh.
  - destruct Hw as (a1 & a2 & V1 & V2 & Hc).
    destruct (var_holds _ _ _ _ _ Hi V1) as (t1 & xs & O1 & H1). destruct (var_holds _ _ _ _ _ Hi V2) as (t2 & ys & O2 & H2).
    rewrite (proj2 (obj_ok _ _ _) O1), (proj2 (obj_ok _ _ _) O2). cbn [bind].
    assert (G1 : holds h t1 a1 xs) by (exists AArray; exact H1). assert (G2 : holds h t2 a2 ys) by (exists AArray; exact H2).
    assert (S1 := holds_shape _ _ _ _ G1). assert (S2 := holds_shape _ _ _ _ G2).
    assert (L1 := holds_len _ _ _ _ G1). assert (L2 := holds_len _ _ _ _ G2).
    assert (Hbin : forall f, hd 0 a1 <> 0 \/ (length a1 <= length a2 + 1)%nat ->
        good_out (binop f s t1 t2 h) (fun r => fresh_res h (fst r) (snd r))).
    { intros f Hc'. assert (Hdec : is_suffix a2 a1 \/ ~ is_suffix a2 a1).
      { destruct (le_dec (length a2) (length a1)) as [Hle|Hle].
        - destruct (list_eq_dec Z.eq_dec (skipn (length a1 - length a2) a1) a2) as [He|He].
          + left. apply suffix_iff. auto.
          + right. rewrite suffix_iff. tauto.
        - right. rewrite suffix_iff. tauto. }
      destruct Hdec as [(pre & Hpre)|Hns].
      - destruct pre as [|p pre].
        + simpl in Hpre. subst a1. rewrite (binop_same f s t1 t2 h a2 xs ys) by assumption. apply good_ok.
          apply fresh_one with a2; [assumption|]. rewrite zipw_length. lia.
        + subst a1. rewrite (binop_bcast f s t1 t2 h (p :: pre) a2 xs ys); try congruence; auto.
          * apply good_ok. apply fresh_one with ((p :: pre) ++ a2); [assumption|]. rewrite mapi_length. assumption.
          * apply bcast_in_range; [apply S1|congruence|]. simpl in Hc'. rewrite app_length in Hc'. simpl.
            destruct Hc' as [Hc'|Hc']; [left; assumption|right; lia].
      - rewrite (binop_abort f s t1 t2 h a1 a2) by assumption. apply good_abort. }
    assert (Heq : forall p, numel a1 <= numel a2 -> good_out (eqop p s t1 t2 h) (fun r => fresh_res h (fst r) (snd r))).
    { intros p Hn. destruct (Nat.eq_dec (length a1) (length a2)) as [He|He].
      - rewrite (eqop_ok p s t1 t2 h a1 a2 xs ys) by assumption. apply good_ok. apply fresh_one with a1; [assumption|].
        rewrite zipw_length. lia.
      - rewrite (eqop_abort p s t1 t2 h a1 a2) by assumption. apply good_abort. }
    destruct b; cbn [do_bop] in *; try (apply Hbin; assumption); try (apply Heq; assumption).
    + destruct (list_eq_dec Z.eq_dec a1 a2) as [->|Hn].
      * rewrite (pow_ok s t1 t2 h a2 xs ys) by assumption. apply good_ok. apply fresh_one with a2; [assumption|].
        rewrite zipw_length. lia.
      * rewrite (pow_abort s t1 t2 h a1 a2) by assumption. apply good_abort.
    + unfold op_equal. unfold cassert. destruct (dleb d0 eps); [apply Heq; assumption|apply good_abort].
  - destruct Hw as (d & V). destruct (var_holds _ _ _ _ _ Hi V) as (t & xs & O & H).
    rewrite (proj2 (obj_ok _ _ _) O). cbn [bind].
    assert (G : holds h t d xs) by (exists AArray; exact H).
    assert (Hun : forall f, good_out (unop f s t h) (fun r => fresh_res h (fst r) (snd r))).
    { intros f. rewrite (unop_ok f s t h d xs G). apply good_ok. apply fresh_one with d; [apply H|].
      rewrite map_length. apply H. }
    assert (Heq : forall p, good_out (eqopv p s t h) (fun r => fresh_res h (fst r) (snd r))).
    { intros p. rewrite (eqopv_ok p s t h d xs G). apply good_ok. apply fresh_one with d; [apply H|].
      rewrite map_length. apply H. }
    destruct u; cbn [do_uop]; try apply Hun; try apply Heq.
    unfold op_equalv, cassert. destruct (dleb d0 eps); [apply Heq|apply good_abort].
  - destruct Hw as (d & V & Hc). destruct (var_holds _ _ _ _ _ Hi V) as (t & xs & O & H).
    rewrite (proj2 (obj_ok _ _ _) O). cbn [bind].
    assert (G : holds h t d xs) by (exists AArray; exact H).
    destruct (Nat.eq_dec (length d) 2) as [H2|H2].
    + destruct d as [|rows [|cols [|? ?]]]; simpl in H2; try lia.
      destruct (valid2 rows cols (proj1 (proj1 H))) as (Hr & Hcl & Hm & Hcm & Hrm).
      assert (Hlen : forall n g, 0 <= n -> Z.of_nat (length (red_result (D:=D) n g)) = numel [n]).
      { intros n g Hn. rewrite numel1 by assumption. unfold red_result. destruct (Z.eqb_spec n 0); [reflexivity|].
        rewrite map_length, zrange_length. lia. }
      destruct (mk1' rows ltac:(lia)) as [_ SR]. destruct (mk1' cols ltac:(lia)) as [_ SC].
      assert (Hred : forall fin, good_out (redop fin s t axis h) (fun r => fresh_res h (fst r) (snd r))).
      { intros fin. rewrite (redop_ok fin s t axis h rows cols xs G). destruct (axis =? 0); apply good_ok.
        - apply fresh_one with [cols]; [assumption|]. apply Hlen. lia.
        - apply fresh_one with [rows]; [assumption|]. apply Hlen. lia. }
      assert (Harg : forall better, (axis = 0 -> rows <> 0) -> good_out (argop better s t axis h) (fun r => fresh_res h (fst r) (snd r))).
      { intros better Hax. rewrite (argop_ok better s t axis h rows cols xs G) by (intros E; specialize (Hax E); lia).
        destruct (axis =? 0); apply good_ok.
        - apply fresh_one with [cols]; [assumption|]. apply Hlen. lia.
        - apply fresh_one with [rows]; [assumption|]. apply Hlen. lia. }
      destruct r; cbn [do_rop] in *; try apply Hred; apply Harg; assumption.
    + assert (S := holds_shape _ _ _ _ G).
      destruct r; cbn [do_rop]; unfold op_reduce_sum, op_reduce_mean, op_argmax, op_argmin;
        try (rewrite (redop_abort _ s t axis h d) by assumption); try (rewrite (argop_abort _ s t axis h d) by assumption);
        apply good_abort.
  - destruct Hw as (a1 & a2 & V1 & V2).
    destruct (var_holds _ _ _ _ _ Hi V1) as (t1 & xs & O1 & H1). destruct (var_holds _ _ _ _ _ Hi V2) as (t2 & ys & O2 & H2).
    rewrite (proj2 (obj_ok _ _ _) O1), (proj2 (obj_ok _ _ _) O2). cbn [bind].
    assert (G1 : holds h t1 a1 xs) by (exists AArray; exact H1). assert (G2 : holds h t2 a2 ys) by (exists AArray; exact H2).
    assert (Hdec : mm_compatible a1 a2 \/ ~ mm_compatible a1 a2).
    { unfold mm_compatible. destruct a1 as [|m [|k [|? ?]]]; try (right; intros (? & ? & ? & E & _); discriminate).
      destruct a2 as [|k' [|n [|? ?]]]; try (right; intros (? & ? & ? & _ & E & _); discriminate).
      destruct (Z.eq_dec k k') as [->|]; [|right; intros (? & ? & ? & E1 & E2 & _); injection E1; injection E2; lia].
      destruct (Z_lt_dec 0 m); [|right; intros (? & ? & ? & E1 & E2 & ?); injection E1; injection E2; lia].
      destruct (Z_lt_dec 0 k'); [|right; intros (? & ? & ? & E1 & E2 & ?); injection E1; injection E2; lia].
      destruct (Z_lt_dec 0 n); [|right; intros (? & ? & ? & E1 & E2 & ?); injection E1; injection E2; lia].
      left. exists m, k', n. auto. }
    destruct Hdec as [(m & k & n & -> & -> & Hm & Hk & Hn)|Hnc].
    + destruct (Z_le_dec (m * n) INT_MAX) as [Hle|Hgt].
      * rewrite (op_matmul_ok sch t1 t2 h m k n xs ys) by assumption. apply good_ok.
        exists (shape2 m n), [m; n], (mm_list xs ys m k n), 1%nat. split; [reflexivity|].
        destruct (mk2 m n Hm Hn Hle) as [_ Ss]. split; [assumption|]. split.
        -- rewrite mm_list_length, numel2 by assumption. nia.
        -- simpl. rewrite <- app_assoc. reflexivity.
      * rewrite (op_matmul_overflow sch t1 t2 h m k n xs ys) by (try assumption; lia). apply good_ovf.
    + rewrite (op_matmul_abort sch t1 t2 h a1 a2); [apply good_abort|apply H1|apply H2|assumption].
Qed.

(** ** Preservation *)
Lemma blk_fresh h B j c : blk (h ++ Some B :: repeat None j) c = if Nat.eqb c (length h) then Some B else blk h c.
Proof.
  unfold blk. rewrite Base.nth_error_app. destruct (Nat.ltb_spec c (length h)) as [Hc|Hc].
  - destruct (Nat.eqb_spec c (length h)); [lia|reflexivity].
  - destruct (Nat.eqb_spec c (length h)) as [->|Hn].
    + rewrite Nat.sub_diag. reflexivity.
    + rewrite (proj2 (nth_error_None h c)) by lia. destruct (c - length h)%nat as [|q] eqn:E; [lia|]. simpl.
      rewrite nth_error_repeat. destruct (Nat.ltb q j); reflexivity.
Qed.

Lemma holds_fresh h B j t dims xs k : holds_k k h t dims xs -> holds_k k (h ++ Some B :: repeat None j) t dims xs.
Proof.
  intros (Hs & Hl & b & Hb & Hk). split; [assumption|]. split; [assumption|]. exists b. split; [assumption|].
  rewrite blk_fresh. assert (Hlt := blk_lt _ _ _ Hk). destruct (Nat.eqb_spec b (length h)); [lia|assumption].
Qed.

Lemma inv_lt L e h x t b : inv L e h -> nth_error e x = Some (Some t) -> t_data t = Some b -> (b < length h)%nat.
Proof.
  intros Hi Hx Hb. destruct (inv_var _ _ _ Hi x t Hx) as [(dims & xs & _ & _ & b' & Hb' & Hk)|(dims & _ & He)]; [|congruence].
  assert (b' = b) by congruence. subst. eapply blk_lt; eauto.
Qed.

(** Any environment that keeps the old variables except possibly [x] (set to the fresh tensor). *)
Lemma inv_set L e h x t h' told : inv L e h -> fresh_res h t h' -> nth_error e x = Some (Some told) ->
  inv (match t_data told with Some b => b :: L | None => L end) (upd x (Some t) e) h'.
Proof.
  intros Hi (s & dims & ys & j & -> & Hs & Hl & ->) Hx.
  assert (Hnth : forall y u, nth_error (upd x (Some (Tn s (Some (length h)))) e) y = Some (Some u) ->
     (y = x /\ u = Tn s (Some (length h))) \/ (y <> x /\ nth_error e y = Some (Some u))).
  { intros y u Hy. rewrite nth_error_upd in Hy. destruct (Nat.eqb_spec y x) as [->|]; [|auto].
    rewrite Hx in Hy. injection Hy as <-. auto. }
  assert (Hother : forall y u b, y <> x -> nth_error e y = Some (Some u) -> t_data u = Some b -> t_data told <> Some b).
  { intros y u b Hn Hy Hu Ht. apply Hn. eapply (inv_sep _ _ _ Hi); eauto. }
  constructor.
  - intros y u Hy. destruct (Hnth y u Hy) as [[-> ->]|[Hn Hy']].
    + left. exists dims, ys. split; [assumption|]. split; [assumption|]. exists (length h). split; [reflexivity|].
      rewrite blk_fresh, Nat.eqb_refl. reflexivity.
    + destruct (inv_var _ _ _ Hi y u Hy') as [(d & xs & Hh)|He]; [|auto]. left. exists d, xs. now apply holds_fresh.
  - intros y z u v b Hy Hz Hu Hv. destruct (Hnth y u Hy) as [[-> ->]|[Hn Hy']]; destruct (Hnth z v Hz) as [[-> ->]|[Hn' Hz']]; auto.
    + simpl in Hu. injection Hu as <-. assert (H := inv_lt _ _ _ _ _ _ Hi Hz' Hv). lia.
    + simpl in Hv. injection Hv as <-. assert (H := inv_lt _ _ _ _ _ _ Hi Hy' Hu). lia.
    + eapply (inv_sep _ _ _ Hi); eauto.
  - intros b k Hb. rewrite blk_fresh in Hb. destruct (Nat.eqb_spec b (length h)) as [->|Hn].
    + right. exists x, (Tn s (Some (length h))). rewrite nth_error_upd, Nat.eqb_refl, Hx. auto.
    + destruct (inv_live _ _ _ Hi b k Hb) as [HL|(y & u & Hy & Hu)].
      * left. destruct (t_data told); [right|]; assumption.
      * destruct (Nat.eq_dec y x) as [->|Hyx].
        -- left. assert (u = told) by congruence. subst. rewrite Hu. now left.
        -- right. exists y, u. rewrite nth_error_upd. destruct (Nat.eqb_spec y x); [congruence|auto].
  - intros b HL. assert (Hcase : (In b L \/ t_data told = Some b)).
    { destruct (t_data told) as [b0|]; [destruct HL as [->|HL]; auto|auto]. }
    assert (Hlive : blk h b <> None).
    { destruct Hcase as [H|H]; [apply (inv_leak _ _ _ Hi b H)|].
      destruct (inv_var _ _ _ Hi x told Hx) as [(d & xs & _ & _ & b' & Hb' & Hk)|(d & _ & He)]; [|congruence].
      assert (b' = b) by congruence. congruence. }
    assert (Hlt : (b < length h)%nat) by (destruct (blk h b) as [k|] eqn:E; [eapply blk_lt; eauto|congruence]).
    split.
    + rewrite blk_fresh. destruct (Nat.eqb_spec b (length h)); [lia|assumption].
    + intros y u Hy Hu. destruct (Hnth y u Hy) as [[-> ->]|[Hn Hy']].
      * simpl in Hu. injection Hu as E. lia.
      * destruct Hcase as [H|H].
        -- apply (proj2 (inv_leak _ _ _ Hi b H) y u Hy' Hu).
        -- apply (Hother y u b Hn Hy' Hu H).
  - destruct (t_data told) as [b|] eqn:Et; [|apply Hi]. constructor; [|apply Hi].
    intros H. apply (proj2 (inv_leak _ _ _ Hi b H) x told Hx). assumption.
Qed.

Lemma nth_error_snoc {A} (l : list A) a y x : nth_error (l ++ [a]) y = Some x ->
  (y = length l /\ x = a) \/ nth_error l y = Some x.
Proof.
  rewrite Base.nth_error_app. destruct (Nat.ltb_spec y (length l)); [auto|].
  destruct (y - length l)%nat as [|q] eqn:E; simpl; [|destruct q; discriminate].
  intros H1. injection H1 as <-. left. split; [lia|reflexivity].
Qed.

Lemma inv_decl L e h t h' : inv L e h -> fresh_res h t h' -> inv L (e ++ [Some t]) h'.
Proof.
  intros Hi (s & dims & ys & j & -> & Hs & Hl & ->).
  constructor.
  - intros y u Hy. apply nth_error_snoc in Hy as [[-> E]|Hy].
    + injection E as ->. left. exists dims, ys. split; [assumption|]. split; [assumption|]. exists (length h). split; [reflexivity|].
      rewrite blk_fresh, Nat.eqb_refl. reflexivity.
    + destruct (inv_var _ _ _ Hi y u Hy) as [(d & xs & Hh)|He]; [|auto]. left. exists d, xs. now apply holds_fresh.
  - intros y z u v b Hy Hz Hu Hv. apply nth_error_snoc in Hy as [[-> E]|Hy]; apply nth_error_snoc in Hz as [[-> E']|Hz]; auto.
    + injection E as ->. simpl in Hu. injection Hu as <-. assert (H := inv_lt _ _ _ _ _ _ Hi Hz Hv). lia.
    + injection E' as ->. simpl in Hv. injection Hv as <-. assert (H := inv_lt _ _ _ _ _ _ Hi Hy Hu). lia.
    + eapply (inv_sep _ _ _ Hi); eauto.
  - intros b k Hb. rewrite blk_fresh in Hb. destruct (Nat.eqb_spec b (length h)) as [->|Hn].
    + right. exists (length e), (Tn s (Some (length h))). rewrite nth_error_app2, Nat.sub_diag by lia. auto.
    + destruct (inv_live _ _ _ Hi b k Hb) as [HL|(y & u & Hy & Hu)]; [auto|]. right. exists y, u.
      rewrite nth_error_app1; [auto|]. apply nth_error_Some. congruence.
  - intros b HL. destruct (inv_leak _ _ _ Hi b HL) as [Hlive Hno].
    assert (Hlt : (b < length h)%nat) by (destruct (blk h b) as [k|] eqn:E; [eapply blk_lt; eauto|congruence]).
    split.
    + rewrite blk_fresh. destruct (Nat.eqb_spec b (length h)); [lia|assumption].
    + intros y u Hy Hu. apply nth_error_snoc in Hy as [[-> E]|Hy]; [injection E as ->; simpl in Hu; injection Hu; lia|].
      eapply Hno; eauto.
  - apply Hi.
Qed.

(** Changing contents or shape of one variable in place, same buffer. *)
Lemma inv_inplace L e h x t t' b xs' dims' : inv L e h -> nth_error e x = Some (Some t) -> t_data t = Some b ->
  t_data t' = Some b -> is_shape (t_sh t') dims' -> Z.of_nat (length xs') = numel dims' ->
  inv L (upd x (Some t') e) (upd b (Some (Blk AArray (map Some xs'))) h).
Proof.
  intros Hi Hx Hb Hb' Hs Hl.
  assert (Hbh : (b < length h)%nat) by (eapply inv_lt; eauto).
  assert (Hblk : forall c, blk (upd b (Some (Blk AArray (map Some xs'))) h) c =
             if Nat.eqb c b then Some (Blk AArray (map Some xs')) else blk h c).
  { intros c. rewrite blk_upd. destruct (nth_error h b) eqn:E; [reflexivity|apply nth_error_None in E; lia]. }
  assert (Hnth : forall y u, nth_error (upd x (Some t') e) y = Some (Some u) ->
     (y = x /\ u = t') \/ (y <> x /\ nth_error e y = Some (Some u))).
  { intros y u Hy. rewrite nth_error_upd in Hy. destruct (Nat.eqb_spec y x) as [->|]; [|auto].
    rewrite Hx in Hy. injection Hy as <-. auto. }
  assert (Hlive : blk h b <> None).
  { destruct (inv_var _ _ _ Hi x t Hx) as [(d & xs & _ & _ & b' & E & Hk)|(d & _ & He)]; [|congruence].
    assert (b' = b) by congruence. congruence. }
  constructor.
  - intros y u Hy. destruct (Hnth y u Hy) as [[-> ->]|[Hn Hy']].
    + left. exists dims', xs'. split; [assumption|]. split; [assumption|]. exists b. split; [assumption|].
      rewrite Hblk, Nat.eqb_refl. reflexivity.
    + destruct (inv_var _ _ _ Hi y u Hy') as [(d & xs & A & B & c & Hc & Hk)|He]; [|auto]. left. exists d, xs.
      split; [assumption|]. split; [assumption|]. exists c. split; [assumption|]. rewrite Hblk.
      destruct (Nat.eqb_spec c b) as [->|]; [|assumption]. exfalso. apply Hn. eapply (inv_sep _ _ _ Hi); eauto.
  - assert (Hsame : forall y u c, nth_error (upd x (Some t') e) y = Some (Some u) -> t_data u = Some c ->
       exists u0, nth_error e y = Some (Some u0) /\ t_data u0 = Some c).
    { intros y u c Hy Hu. destruct (Hnth y u Hy) as [[-> ->]|[Hn Hy']]; [exists t; split; [assumption|congruence]|eauto]. }
    intros y z u v c Hy Hz Hu Hv. destruct (Hsame y u c Hy Hu) as (u0 & A & A'). destruct (Hsame z v c Hz Hv) as (v0 & B & B').
    eapply (inv_sep _ _ _ Hi); eauto.
  - intros c k Hc. rewrite Hblk in Hc. destruct (Nat.eqb_spec c b) as [->|Hn].
    + right. exists x, t'. rewrite nth_error_upd, Nat.eqb_refl, Hx. auto.
    + destruct (inv_live _ _ _ Hi c k Hc) as [HL|(y & u & Hy & Hu)]; [auto|]. right. exists y, u.
      rewrite nth_error_upd. destruct (Nat.eqb_spec y x) as [->|]; [|auto]. congruence.
  - intros c HL. destruct (inv_leak _ _ _ Hi c HL) as [Hlv Hno]. split.
    + rewrite Hblk. destruct (Nat.eqb c b); congruence.
    + intros y u Hy Hu. destruct (Hnth y u Hy) as [[-> ->]|[Hn Hy']]; [|eapply Hno; eauto].
      apply (Hno x t Hx). congruence.
  - apply Hi.
Qed.

(** Replacing a variable by one with the same pointer and a valid shape, heap unchanged. *)
Lemma inv_reshape L e h x t t' : inv L e h -> nth_error e x = Some (Some t) -> t_data t' = t_data t ->
  (forall dims xs, holds_k AArray h t dims xs -> exists dims', holds_k AArray h t' dims' xs) ->
  (forall dims, empty_tensor t dims -> exists dims', empty_tensor t' dims') ->
  inv L (upd x (Some t') e) h.
Proof.
  intros Hi Hx Hd Hh He.
  assert (Hnth : forall y u, nth_error (upd x (Some t') e) y = Some (Some u) ->
     (y = x /\ u = t') \/ (y <> x /\ nth_error e y = Some (Some u))).
  { intros y u Hy. rewrite nth_error_upd in Hy. destruct (Nat.eqb_spec y x) as [->|]; [|auto].
    rewrite Hx in Hy. injection Hy as <-. auto. }
  constructor.
  - intros y u Hy. destruct (Hnth y u Hy) as [[-> ->]|[Hn Hy']]; [|exact (inv_var _ _ _ Hi y u Hy')].
    destruct (inv_var _ _ _ Hi x t Hx) as [(d & xs & A)|(d & A)].
    + left. destruct (Hh d xs A) as (d' & B). eauto.
    + right. eauto.
  - assert (Hsame : forall y u c, nth_error (upd x (Some t') e) y = Some (Some u) -> t_data u = Some c ->
       exists u0, nth_error e y = Some (Some u0) /\ t_data u0 = Some c).
    { intros y u c Hy Hu. destruct (Hnth y u Hy) as [[-> ->]|[Hn Hy']]; [exists t; split; [assumption|congruence]|eauto]. }
    intros y z u v c Hy Hz Hu Hv. destruct (Hsame y u c Hy Hu) as (u0 & A & A'). destruct (Hsame z v c Hz Hv) as (v0 & B & B').
    eapply (inv_sep _ _ _ Hi); eauto.
  - intros c k Hc. destruct (inv_live _ _ _ Hi c k Hc) as [HL|(y & u & Hy & Hu)]; [auto|]. right.
    destruct (Nat.eq_dec y x) as [->|Hn].
    + exists x, t'. rewrite nth_error_upd, Nat.eqb_refl, Hx. split; [reflexivity|]. congruence.
    + exists y, u. rewrite nth_error_upd. destruct (Nat.eqb_spec y x); [congruence|auto].
  - intros c HL. destruct (inv_leak _ _ _ Hi c HL) as [Hlv Hno]. split; [assumption|].
    intros y u Hy Hu. destruct (Hnth y u Hy) as [[-> ->]|[Hn Hy']]; [|eapply Hno; eauto].
    apply (Hno x t Hx). congruence.
  - apply Hi.
Qed.

Lemma upd_id {A} (l : list A) k x : nth_error l k = Some x -> upd k x l = l.
Proof.
  intros H. apply nth_error_ext. intros i. rewrite nth_error_upd. destruct (Nat.eqb_spec i k) as [->|]; [|reflexivity].
  rewrite H. reflexivity.
Qed.

(** x = std::move(y) *)
Lemma inv_move L e h x y tx ty : inv L e h -> nth_error e x = Some (Some tx) -> nth_error e y = Some (Some ty) -> x <> y ->
  inv (match t_data tx with Some b => b :: L | None => L end)
      (upd x (Some ty) (upd y (Some (Tn (t_sh ty) None)) e)) h.
Proof.
  intros Hi Hx Hy Hxy.
  assert (Hnth : forall z u, nth_error (upd x (Some ty) (upd y (Some (Tn (t_sh ty) None)) e)) z = Some (Some u) ->
     (z = x /\ u = ty) \/ (z = y /\ u = Tn (t_sh ty) None) \/ (z <> x /\ z <> y /\ nth_error e z = Some (Some u))).
  { intros z u Hz. rewrite nth_error_upd in Hz. destruct (Nat.eqb_spec z x) as [->|Hzx].
    - rewrite nth_error_upd in Hz. destruct (Nat.eqb_spec x y); [congruence|]. rewrite Hx in Hz. injection Hz as <-. auto.
    - rewrite nth_error_upd in Hz. destruct (Nat.eqb_spec z y) as [->|]; [|auto].
      rewrite Hy in Hz. injection Hz as <-. auto. }
  assert (Hex : nth_error (upd x (Some ty) (upd y (Some (Tn (t_sh ty) None)) e)) x = Some (Some ty)).
  { rewrite nth_error_upd, Nat.eqb_refl, nth_error_upd. destruct (Nat.eqb_spec x y); [congruence|]. now rewrite Hx. }
  assert (Hor : forall z u c, nth_error (upd x (Some ty) (upd y (Some (Tn (t_sh ty) None)) e)) z = Some (Some u) ->
     t_data u = Some c -> exists z0 u0, nth_error e z0 = Some (Some u0) /\ t_data u0 = Some c /\ z0 <> x /\
        (z0 = y -> z = x) /\ (z0 <> y -> z = z0)).
  { intros z u c Hz Hu. destruct (Hnth z u Hz) as [[-> ->]|[[-> ->]|(A & B & C)]].
    - exists y, ty. repeat split; auto. congruence.
    - discriminate.
    - exists z, u. repeat split; auto. congruence. }
  constructor.
  - intros z u Hz. destruct (Hnth z u Hz) as [[-> ->]|[[-> ->]|(A & B & C)]].
    + apply (inv_var _ _ _ Hi y ty Hy).
    + right. destruct (inv_var _ _ _ Hi y ty Hy) as [(d & xs & G & _)|(d & G & _)]; exists d; split; auto.
    + apply (inv_var _ _ _ Hi z u C).
  - intros z w u v c Hz Hw Hu Hv. destruct (Hor z u c Hz Hu) as (z0 & u0 & A1 & A2 & A3 & A4 & A5).
    destruct (Hor w v c Hw Hv) as (w0 & v0 & B1 & B2 & B3 & B4 & B5).
    assert (z0 = w0) by (eapply (inv_sep _ _ _ Hi); eauto). subst w0.
    destruct (Nat.eq_dec z0 y) as [->|Hn]; [rewrite A4, B4 by reflexivity; reflexivity|].
    rewrite A5, B5 by assumption. reflexivity.
  - intros c k Hc. destruct (inv_live _ _ _ Hi c k Hc) as [HL|(z & u & Hz & Hu)].
    + left. destruct (t_data tx); [now right|assumption].
    + destruct (Nat.eq_dec z x) as [->|Hzx].
      * left. assert (u = tx) by congruence. subst. rewrite Hu. now left.
      * right. destruct (Nat.eq_dec z y) as [->|Hzy].
        -- exists x, ty. split; [assumption|]. congruence.
        -- exists z, u. rewrite nth_error_upd. destruct (Nat.eqb_spec z x); [congruence|].
           rewrite nth_error_upd. destruct (Nat.eqb_spec z y); [congruence|auto].
  - intros c HL. assert (Hcase : In c L \/ t_data tx = Some c).
    { destruct (t_data tx); [destruct HL as [->|HL]; auto|auto]. }
    split.
    + destruct Hcase as [H|H]; [apply (inv_leak _ _ _ Hi c H)|].
      destruct (inv_var _ _ _ Hi x tx Hx) as [(d & xs & _ & _ & b' & E & Hk)|(d & _ & He)]; [|congruence].
      assert (b' = c) by congruence. congruence.
    + intros z u Hz Hu. destruct (Hor z u c Hz Hu) as (z0 & u0 & A1 & A2 & A3 & _).
      destruct Hcase as [H|H]; [apply (proj2 (inv_leak _ _ _ Hi c H) z0 u0 A1 A2)|].
      apply A3. eapply (inv_sep _ _ _ Hi); eauto.
  - destruct (t_data tx) as [b|] eqn:Et; [|apply Hi]. constructor; [|apply Hi].
    intros H. apply (proj2 (inv_leak _ _ _ Hi b H) x tx Hx). assumption.
Qed.

Lemma inv_destroy L e h x t : inv L e h -> nth_error e x = Some (Some t) ->
  exists h', t_destroy t h = Ok h' /\ inv L (upd x None e) h'.
Proof.
  intros Hi Hx.
  assert (Hnth : forall y u, nth_error (upd x None e) y = Some (Some u) -> y <> x /\ nth_error e y = Some (Some u)).
  { intros y u Hy. rewrite nth_error_upd in Hy. destruct (Nat.eqb_spec y x) as [->|]; [|auto].
    destruct (nth_error e x); discriminate. }
  unfold t_destroy. destruct (t_data t) as [b|] eqn:Et.
  - destruct (inv_var _ _ _ Hi x t Hx) as [(d & xs & _ & _ & b' & Hb' & Hk)|(d & _ & He)]; [|congruence].
    assert (b' = b) by congruence. subst b'. unfold free_array. rewrite Hk. cbn [b_kind]. eexists. split; [reflexivity|].
    assert (Hblk : forall c, blk (upd b None h) c = if Nat.eqb c b then None else blk h c).
    { intros c. rewrite blk_upd. destruct (nth_error h b); reflexivity. }
    constructor.
    + intros y u Hy. destruct (Hnth y u Hy) as [Hn Hy'].
      destruct (inv_var _ _ _ Hi y u Hy') as [(d' & xs' & A & B & c & Hc & Hkc)|He]; [|auto]. left. exists d', xs'.
      split; [assumption|]. split; [assumption|]. exists c. split; [assumption|]. rewrite Hblk.
      destruct (Nat.eqb_spec c b) as [->|]; [|assumption]. exfalso. apply Hn. eapply (inv_sep _ _ _ Hi); eauto.
    + intros y z u v c Hy Hz Hu Hv. destruct (Hnth y u Hy), (Hnth z v Hz). eapply (inv_sep _ _ _ Hi); eauto.
    + intros c k Hc. rewrite Hblk in Hc. destruct (Nat.eqb_spec c b); [discriminate|].
      destruct (inv_live _ _ _ Hi c k Hc) as [HL|(y & u & Hy & Hu)]; [auto|]. right. exists y, u.
      rewrite nth_error_upd. destruct (Nat.eqb_spec y x) as [->|]; [congruence|auto].
    + intros c HL. destruct (inv_leak _ _ _ Hi c HL) as [Hlv Hno]. split.
      * rewrite Hblk. destruct (Nat.eqb_spec c b) as [->|]; [|assumption]. exfalso. eapply Hno; eauto.
      * intros y u Hy Hu. destruct (Hnth y u Hy). eapply Hno; eauto.
    + apply Hi.
  - exists h. split; [reflexivity|]. constructor.
    + intros y u Hy. destruct (Hnth y u Hy). apply (inv_var _ _ _ Hi y u); assumption.
    + intros y z u v c Hy Hz Hu Hv. destruct (Hnth y u Hy), (Hnth z v Hz). eapply (inv_sep _ _ _ Hi); eauto.
    + intros c k Hc. destruct (inv_live _ _ _ Hi c k Hc) as [HL|(y & u & Hy & Hu)]; [auto|]. right. exists y, u.
      rewrite nth_error_upd. destruct (Nat.eqb_spec y x) as [->|]; [congruence|auto].
    + intros c HL. destruct (inv_leak _ _ _ Hi c HL) as [Hlv Hno]. split; [assumption|].
      intros y u Hy Hu. destruct (Hnth y u Hy). eapply Hno; eauto.
    + apply Hi.
Qed.

(** Buffer that a statement abandons, if any. *)
Definition leak_of (st : stmt (D:=D)) (s s' : state (D:=D)) : list nat :=
  match st with
  | SAssignE x _ | SMove x _ =>
      match nth_error (fst s) x with Some (Some t) => match t_data t with Some b => [b] | None => [] end | _ => [] end
  | SMatInto _ _ _ z =>
      match nth_error (fst s) z, nth_error (fst s') z with
      | Some (Some t), Some (Some t') =>
          match t_data t, t_data t' with
          | Some b, Some b' => if Nat.eqb b b' then [] else [b]
          | _, _ => []
          end
      | _, _ => []
      end
  | _ => []
  end.

Lemma inv_perm L e h : inv L e h -> forall L', (forall b, In b L' <-> In b L) -> NoDup L' -> inv L' e h.
Proof.
  intros Hi L' HL Hnd. constructor; try apply Hi.
  - intros b k Hb. destruct (inv_live _ _ _ Hi b k Hb) as [H|H]; [left; now apply HL|auto].
  - intros b H. apply (inv_leak _ _ _ Hi). now apply HL.
  - assumption.
Qed.

(** Dropping freed cells at the end of the heap does not matter. *)
Lemma inv_none L e h j : inv L e h -> inv L e (h ++ repeat None j).
Proof.
  intros Hi. assert (Hb : forall b, blk (h ++ repeat None j) b = blk h b).
  { intros b. unfold blk. rewrite Base.nth_error_app. destruct (Nat.ltb_spec b (length h)); [reflexivity|].
    rewrite (proj2 (nth_error_None h b)) by lia. rewrite nth_error_repeat. destruct (Nat.ltb _ j); reflexivity. }
  constructor; try apply Hi.
  - intros x t Hx. destruct (inv_var _ _ _ Hi x t Hx) as [(d & xs & A & B & b & C & E)|H]; [|auto].
    left. exists d, xs. split; [assumption|]. split; [assumption|]. exists b. rewrite Hb. auto.
  - intros b k. rewrite Hb. apply (inv_live _ _ _ Hi).
  - intros b H. rewrite Hb. apply (inv_leak _ _ _ Hi b H).
Qed.

Lemma exec_good L st e h : inv L e h -> wt st e ->
  good_out (exec st (e, h)) (fun s' => inv (leak_of st (e, h) s' ++ L) (fst s') (snd s')).
Proof.
  intros Hi Hw. destruct st as [ex| |x i|x i v|x dims|x y|x ex|x y|sch x y z|x]; simpl in Hw; cbn [exec].
  - eapply good_bind; [apply (eval_good L ex e h); assumption|]. intros [t h'] _ Hf. simpl in Hf. apply good_ok. simpl.
    eapply inv_decl; eauto.
  - unfold t_default. destruct (mk1' 0) as [-> S0]; [unfold INT_MAX; lia|]. cbn [bind]. apply good_ok. simpl.
    constructor.
    + intros y u Hy. apply nth_error_snoc in Hy as [[-> E]|Hy]; [|apply (inv_var _ _ _ Hi y u Hy)].
      injection E as ->. right. exists [0]. split; [assumption|reflexivity].
    + intros y z u v b Hy Hz Hu Hv.
      apply nth_error_snoc in Hy as [[-> E]|Hy]; [injection E as ->; discriminate|].
      apply nth_error_snoc in Hz as [[-> E]|Hz]; [injection E as ->; discriminate|].
      eapply (inv_sep _ _ _ Hi); eauto.
    + intros b k Hb. destruct (inv_live _ _ _ Hi b k Hb) as [HL|(y & u & Hy & Hu)]; [auto|]. right. exists y, u.
      rewrite nth_error_app1; [auto|]. apply nth_error_Some. congruence.
    + intros b HL. destruct (inv_leak _ _ _ Hi b HL) as [A B]. split; [assumption|]. intros y u Hy Hu.
      apply nth_error_snoc in Hy as [[-> E]|Hy]; [injection E as ->; discriminate|]. eapply B; eauto.
    + apply Hi.
  - destruct Hw as (d & V & Hr). destruct (var_holds _ _ _ _ _ Hi V) as (t & xs & O & H).
    rewrite (proj2 (obj_ok _ _ _) O). cbn [bind]. unfold t_get.
    rewrite (holds_load h t d xs) by (try assumption; exists AArray; assumption). apply good_ok. assumption.
  - destruct Hw as (d & V & Hr). destruct (var_holds _ _ _ _ _ Hi V) as (t & xs & O & H).
    rewrite (proj2 (obj_ok _ _ _) O). cbn [bind]. unfold t_set.
    destruct H as (Hs & Hl & b & Hb & Hk). rewrite Hb.
    eapply good_bind with (P := fun h' => h' = upd b (Some (Blk AArray (upd (Z.to_nat i) (Some v) (map Some xs)))) h).
    { left. eexists. split; [|reflexivity]. apply hset_blk; [assumption|rewrite map_length; lia]. }
    intros h1 _ ->. apply good_ok. simpl.
    assert (E : upd (Z.to_nat i) (Some v) (map Some xs) = map Some (upd (Z.to_nat i) v xs)).
    { generalize (Z.to_nat i). clear. induction xs as [|a xs IH]; intros [|n]; simpl; try reflexivity. f_equal. apply IH. }
    rewrite E. assert (Q := inv_inplace L e h x t t b (upd (Z.to_nat i) v xs) d Hi O Hb Hb Hs).
    rewrite upd_length in Q. specialize (Q Hl). rewrite (upd_id e x (Some t) O) in Q. exact Q.
  - destruct Hw as ((t & Hx) & Hints). rewrite (proj2 (obj_ok _ _ _) Hx). cbn [bind].
    unfold t_reshape. destruct (mk_good dims Hints) as [(s & -> & Hs)|[->| ->]]; cbn [bind]; [|apply good_abort|apply good_ovf].
    rewrite (chunk0 _ _ Hs). cbn [bind].
    assert (St : exists d, is_shape (t_sh t) d).
    { destruct (inv_var _ _ _ Hi x t Hx) as [(d & xs & A)|(d & A)]; exists d; apply A. }
    destruct St as (d & St). rewrite (chunk0 _ _ St). cbn [bind]. unfold cassert.
    destruct (Z.eqb_spec (numel dims) (numel d)) as [En|]; cbn [bind]; [|apply good_abort].
    rewrite (assign_shape_id _ _ dims Hs). cbn [bind]. apply good_ok. simpl.
    apply (inv_reshape L e h x t); auto.
    + intros d' xs (A & B & b & C & E). exists dims. split; [assumption|]. split; [|exists b; auto].
      assert (d' = d) by (rewrite <- (proj1 (proj2 A)); apply (proj1 (proj2 St))). subst. lia.
    + intros d' (A & B). exists dims. split; auto.
  - destruct Hw as (a1 & a2 & V1 & V2 & En).
    destruct (var_holds _ _ _ _ _ Hi V1) as (tx & xs & O1 & H1). destruct (var_holds _ _ _ _ _ Hi V2) as (ty & ys & O2 & H2).
    rewrite (proj2 (obj_ok _ _ _) O1), (proj2 (obj_ok _ _ _) O2). cbn [bind].
    rewrite (assign_same tx ty h AArray a1 xs a2 ys) by (try assumption; exists AArray; assumption). cbn [bind].
    apply good_ok. simpl. destruct H1 as (_ & _ & b & Hb & _). rewrite Hb.
    refine (inv_inplace L e h x tx (Tn (t_sh ty) (Some b)) b ys a2 Hi O1 Hb eq_refl _ _); apply H2.
  - destruct Hw as ((tx & Hx) & Hw). eapply good_bind; [apply (eval_good L ex e h); assumption|].
    intros [t h'] _ Hf. simpl in Hf. unfold move_assign_tmp. rewrite (proj2 (obj_ok _ _ _) Hx). cbn [bind].
    assert (Hf' := Hf). destruct Hf' as (s & dims & ys & j & -> & Hs & _). cbn [t_sh t_data].
    rewrite (assign_shape_id _ _ dims Hs). cbn [bind]. apply good_ok. simpl. rewrite Hx.
    assert (Q := inv_set L e h x _ h' tx Hi Hf Hx). destruct (t_data tx); exact Q.
  - destruct Hw as ((tx & Hx) & (ty & Hy) & Hxy). unfold move_assign.
    rewrite (proj2 (obj_ok _ _ _) Hy), (proj2 (obj_ok _ _ _) Hx). cbn [bind].
    assert (E1 : obj (upd x (Some (Tn (t_sh tx) (t_data ty))) e) y = Ok ty).
    { apply obj_ok. rewrite nth_error_upd. destruct (Nat.eqb_spec y x); [congruence|assumption]. }
    rewrite E1. cbn [bind].
    assert (E2 : obj (upd y (Some (Tn (t_sh ty) None)) (upd x (Some (Tn (t_sh tx) (t_data ty))) e)) y = Ok (Tn (t_sh ty) None)).
    { apply obj_ok. rewrite nth_error_upd, Nat.eqb_refl. rewrite nth_error_upd.
      destruct (Nat.eqb_spec y x); [congruence|]. now rewrite Hy. }
    assert (E3 : obj (upd y (Some (Tn (t_sh ty) None)) (upd x (Some (Tn (t_sh tx) (t_data ty))) e)) x = Ok (Tn (t_sh tx) (t_data ty))).
    { apply obj_ok. rewrite nth_error_upd. destruct (Nat.eqb_spec x y); [congruence|].
      rewrite nth_error_upd, Nat.eqb_refl, Hx. reflexivity. }
    rewrite E2, E3. cbn [bind t_sh t_data].
    assert (St : exists d, is_shape (t_sh ty) d).
    { destruct (inv_var _ _ _ Hi y ty Hy) as [(d & xs & A)|(d & A)]; exists d; apply A. }
    destruct St as (d & St). rewrite (assign_shape_id _ _ d St). cbn [bind]. apply good_ok. simpl. rewrite Hx.
    assert (Q := inv_move L e h x y tx ty Hi Hx Hy Hxy).
    replace (upd x (Some (Tn (t_sh ty) (t_data ty))) (upd y (Some (Tn (t_sh ty) None)) (upd x (Some (Tn (t_sh tx) (t_data ty))) e)))
      with (upd x (Some ty) (upd y (Some (Tn (t_sh ty) None)) e)); [destruct (t_data tx); exact Q|].
    apply nth_error_ext. intros k. rewrite !nth_error_upd. destruct (Nat.eqb_spec k x) as [->|].
    + destruct (Nat.eqb_spec x y); [congruence|]. rewrite Nat.eqb_refl, Hx. destruct ty; reflexivity.
    + destruct (Nat.eqb_spec k y) as [->|]; [|reflexivity]. destruct (Nat.eqb_spec y x); [congruence|reflexivity].
  - destruct Hw as ((a1 & a2 & V1 & V2) & (to & Hz) & Nx & Ny).
    destruct (var_holds _ _ _ _ _ Hi V1) as (t1 & xs & O1 & H1). destruct (var_holds _ _ _ _ _ Hi V2) as (t2 & ys & O2 & H2).
    assert (G1 : holds h t1 a1 xs) by (exists AArray; exact H1). assert (G2 : holds h t2 a2 ys) by (exists AArray; exact H2).
    assert (Hdec : mm_compatible a1 a2 \/ ~ mm_compatible a1 a2).
    { unfold mm_compatible. destruct a1 as [|m [|k [|? ?]]]; try (right; intros (? & ? & ? & E & _); discriminate).
      destruct a2 as [|k' [|n [|? ?]]]; try (right; intros (? & ? & ? & _ & E & _); discriminate).
      destruct (Z.eq_dec k k') as [->|]; [|right; intros (? & ? & ? & E1 & E2 & _); injection E1; injection E2; lia].
      destruct (Z_lt_dec 0 m); [|right; intros (? & ? & ? & E1 & E2 & ?); injection E1; injection E2; lia].
      destruct (Z_lt_dec 0 k'); [|right; intros (? & ? & ? & E1 & E2 & ?); injection E1; injection E2; lia].
      destruct (Z_lt_dec 0 n); [|right; intros (? & ? & ? & E1 & E2 & ?); injection E1; injection E2; lia].
      left. exists m, k', n. auto. }
    destruct Hdec as [(m & k & n & -> & -> & Hm & Hk & Hn)|Hnc].
    2:{ rewrite (matmul_abort sch x y z e h t1 t2 to a1 a2) by (auto; try apply H1; apply H2). apply good_abort. }
    destruct (Z_le_dec (m * n) INT_MAX) as [Hle|Hgt].
    2:{ rewrite (matmul_overflow sch x y z e h t1 t2 to m k n xs ys); try assumption; try lia; [apply good_ovf|].
        destruct (inv_var _ _ _ Hi z to Hz) as [(d & zs & A)|(d & _ & A)]; [right; exists d, zs; exists AArray; exact A|left; exact A]. }
    destruct (mk2 m n Hm Hn Hle) as [_ Ss].
    assert (Hrep : (t_data to = None \/ exists dims zs, holds h to dims zs /\ numel dims < m * n) \/
                   exists dims zs b, holds_k AArray h to dims zs /\ m * n <= numel dims /\ t_data to = Some b).
    { destruct (inv_var _ _ _ Hi z to Hz) as [(d & zs & A)|(d & _ & A)]; [|auto].
      destruct (Z_lt_dec (numel d) (m * n)).
      - left. right. exists d, zs. split; [exists AArray; exact A|assumption].
      - right. assert (A' := A). destruct A' as (_ & _ & b & Hb & _). exists d, zs, b. repeat split; auto; try apply A. lia. }
    destruct Hrep as [Hrep|(dims & zs & b & Ho & Hge & Hb)].
    + rewrite (matmul_replace sch x y z e h t1 t2 to m k n xs ys) by assumption. cbn [bind].
      unfold t_destroy, free_array. cbn [t_data]. rewrite blk_app, app_length. simpl length.
      replace (Nat.eqb (S (length h)) (length h + 1)) with true by (symmetry; apply Nat.eqb_eq; lia). cbn [b_kind bind].
      replace (S (length h)) with (length (h ++ [Some (Blk AArray (map Some (mm_list xs ys m k n)))])) by (rewrite app_length; simpl; lia).
      rewrite upd_last. apply good_ok. cbn [fst snd leak_of]. rewrite Hz, nth_error_upd, Nat.eqb_refl, Hz. cbn [t_data].
      assert (Hf : fresh_res h (Tn (shape2 m n) (Some (length h))) ((h ++ [Some (Blk AArray (map Some (mm_list xs ys m k n)))]) ++ [None])).
      { exists (shape2 m n), [m; n], (mm_list xs ys m k n), 1%nat. split; [reflexivity|]. split; [assumption|]. split.
        - rewrite mm_list_length, numel2 by assumption. nia.
        - simpl. rewrite <- app_assoc. reflexivity. }
      assert (Q := inv_set L e h z _ _ to Hi Hf Hz).
      destruct (t_data to) as [b|] eqn:Eb; [|exact Q].
      destruct (Nat.eqb_spec b (length h)) as [->|]; [|exact Q].
      assert (Hlt := inv_lt _ _ _ _ _ _ Hi Hz Eb). lia.
    + assert (D1 : t_data t1 <> Some b).
      { intros E. apply Nx. eapply (inv_sep _ _ _ Hi); eauto. }
      assert (D2 : t_data t2 <> Some b).
      { intros E. apply Ny. eapply (inv_sep _ _ _ Hi); eauto. }
      rewrite (matmul_reuse sch x y z e h t1 t2 to m k n xs ys O1 O2 Hz G1 G2 Hm AArray dims zs b) by assumption. cbn [bind].
      set (ws := mm_list xs ys m k n ++ skipn (Z.to_nat (m * n)) zs).
      unfold t_destroy, free_array. cbn [t_data]. rewrite blk_app, upd_length, Nat.eqb_refl. cbn [b_kind bind].
      replace (length h) with (length (upd b (Some (Blk AArray (map Some ws))) h)) by apply upd_length.
      rewrite upd_last. apply good_ok. cbn [fst snd leak_of]. rewrite Hz, Hb, Nat.eqb_refl. simpl app.
      apply (inv_none L e _ 1).
      assert (Lz := proj1 (proj2 Ho)).
      assert (Q := inv_inplace L e h z to to b ws dims Hi Hz Hb Hb (proj1 Ho)).
      rewrite (upd_id e z (Some to) Hz) in Q. apply Q. unfold ws. rewrite app_length, mm_list_length, skipn_length. nia.
  - destruct Hw as (t & Hx). rewrite (proj2 (obj_ok _ _ _) Hx). cbn [bind].
    destruct (inv_destroy L e h x t Hi Hx) as (h' & -> & Hi'). cbn [bind]. apply good_ok. exact Hi'.
Qed.

(** ** Whole programs *)
Fixpoint leaks (p : list (stmt (D:=D))) (s : state) : list nat :=
  match p with
  | [] => []
  | st :: r => match exec st s with Ok s' => leaks r s' ++ leak_of st s s' | _ => [] end
  end.

Theorem run_good p : forall L e h, inv L e h -> wt_run p (e, h) ->
  good_out (run p (e, h)) (fun s' => inv (leaks p (e, h) ++ L) (fst s') (snd s')).
Proof.
  unfold run. induction p as [|st p IH]; intros L e h Hi Hw.
  - apply good_ok. exact Hi.
  - destruct Hw as [Hw1 Hw2]. cbn [foldM leaks]. destruct (exec_good L st e h Hi Hw1) as [([e1 h1] & E & Hi1)|[E|E]].
    + rewrite E. cbn [bind]. destruct (IH _ e1 h1 Hi1 (Hw2 _ E)) as [(s' & Es & Hs)|[Es|Es]].
      * rewrite Es. apply good_ok. rewrite <- app_assoc. exact Hs.
      * rewrite Es. apply good_abort.
      * rewrite Es. apply good_ovf.
    + rewrite E. apply good_abort.
    + rewrite E. apply good_ovf.
Qed.

Lemma inv_init : inv [] ([] : env) ([] : heap).
Proof.
  constructor; try (intros; destruct x; discriminate).
  - intros b k H. unfold blk in H. destruct b; discriminate.
  - intros b [].
  - constructor.
Qed.

(** Live blocks = owned blocks + leaked blocks. *)
Definition live_ids (h : heap) : list nat := filter (fun b => match blk h b with Some _ => true | None => false end) (seq 0 (length h)).
Definition owned_ids (e : env) : list nat :=
  flat_map (fun o => match o with Some t => match t_data t with Some b => [b] | None => [] end | None => [] end) e.

Lemma live_ids_length h : length (live_ids h) = live h.
Proof.
  unfold live_ids, live. induction h as [|o h IH] using rev_ind; [reflexivity|].
  rewrite app_length, filter_app, app_length. simpl length. rewrite Nat.add_1_r, seq_S, filter_app, app_length.
  f_equal.
  - rewrite <- IH. f_equal. apply filter_ext_in. intros b Hb. apply in_seq in Hb. rewrite blk_app.
    destruct (Nat.eqb_spec b (length h)); [lia|reflexivity].
  - simpl. rewrite blk_app, Nat.eqb_refl. destruct o; reflexivity.
Qed.

Lemma in_live h b : In b (live_ids h) <-> blk h b <> None.
Proof.
  unfold live_ids. rewrite filter_In, in_seq. split.
  - intros [_ H]. destruct (blk h b); congruence.
  - intros H. destruct (blk h b) as [k|] eqn:E; [|congruence]. split; [|reflexivity]. apply blk_lt in E. lia.
Qed.

Lemma owners_length e : length (owned_ids e) = owners e.
Proof.
  unfold owned_ids, owners. induction e as [|[t|] e IH]; simpl; [reflexivity| |exact IH].
  destruct (t_data t); simpl; congruence.
Qed.

Lemma in_owned e b : In b (owned_ids e) <-> exists x t, nth_error e x = Some (Some t) /\ t_data t = Some b.
Proof.
  unfold owned_ids. rewrite in_flat_map. split.
  - intros ([t|] & Hin & Hb); [|destruct Hb]. destruct (t_data t) eqn:E; [|destruct Hb]. destruct Hb as [->|[]].
    apply In_nth_error in Hin as (x & Hx). eauto.
  - intros (x & t & Hx & Hb). exists (Some t). split; [eapply nth_error_In; eauto|]. rewrite Hb. now left.
Qed.

Lemma nodup_owned e : (forall x y t u b, nth_error e x = Some (Some t) -> nth_error e y = Some (Some u) ->
     t_data t = Some b -> t_data u = Some b -> x = y) -> NoDup (owned_ids e).
Proof.
  induction e as [|o e IH]; intros H; simpl; [constructor|].
  assert (IH' : NoDup (owned_ids e)).
  { apply IH. intros x y t u b Hx Hy A B. assert (S x = S y) by (eapply (H (S x) (S y)); eauto). lia. }
  destruct o as [t|]; [|exact IH']. destruct (t_data t) as [b|] eqn:Eb; [|exact IH']. simpl. constructor; [|exact IH'].
  intros Hin. apply in_owned in Hin as (x & u & Hx & Hu). assert (0%nat = S x) by exact (H 0%nat (S x) t u b eq_refl Hx Eb Hu). lia.
Qed.

Lemma NoDup_app' {A} (l1 l2 : list A) : NoDup l1 -> NoDup l2 -> (forall x, In x l1 -> ~ In x l2) -> NoDup (l1 ++ l2).
Proof.
  induction l1 as [|a l1 IH]; intros H1 H2 H; simpl; [assumption|]. inversion H1; subst. constructor.
  - rewrite in_app_iff. intros [Hin|Hin]; [contradiction|]. apply (H a); [now left|assumption].
  - apply IH; auto. intros x Hx. apply H. now right.
Qed.

Theorem inv_count L e h : inv L e h -> live h = (owners e + length L)%nat.
Proof.
  intros Hi. rewrite <- live_ids_length, <- owners_length, <- app_length.
  assert (Hnd : NoDup (owned_ids e ++ L)).
  { apply NoDup_app'; [apply nodup_owned, (inv_sep _ _ _ Hi)|apply Hi|].
    intros b Hb HL. apply in_owned in Hb as (x & t & Hx & Ht). eapply (inv_leak _ _ _ Hi b HL); eauto. }
  assert (Hnd2 : NoDup (live_ids h)) by (apply NoDup_filter, seq_NoDup).
  apply Nat.le_antisymm.
  - apply NoDup_incl_length; [assumption|]. intros b Hb. apply in_live in Hb. destruct (blk h b) as [k|] eqn:E; [|congruence].
    apply in_app_iff. destruct (inv_live _ _ _ Hi b k E) as [H|(x & t & Hx & Ht)]; [auto|]. left. apply in_owned. eauto.
  - apply NoDup_incl_length; [assumption|]. intros b Hb. apply in_live. apply in_app_iff in Hb as [Hb|Hb].
    + apply in_owned in Hb as (x & t & Hx & Ht).
      destruct (inv_var _ _ _ Hi x t Hx) as [(d & xs & _ & _ & b' & A & B)|(d & _ & A)]; congruence.
    + apply (inv_leak _ _ _ Hi b Hb).
Qed.

Lemma leak_of_none st s s' : leaky st = false -> leak_of st s s' = [].
Proof. destruct st; simpl; intros; try reflexivity; discriminate. Qed.

Lemma leaks_none p : forall s, forallb (fun st => negb (leaky st)) p = true -> leaks p s = [].
Proof.
  induction p as [|st p IH]; intros s H; [reflexivity|]. simpl in *. apply andb_true_iff in H as [A B].
  destruct (exec st s) as [s'| | |]; try reflexivity. rewrite IH by assumption.
  rewrite leak_of_none; [reflexivity|]. destruct (leaky st); [discriminate|reflexivity].
Qed.

End HistP.

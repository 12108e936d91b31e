(** P_ConvSize.v - C99: convolution and pooling layers given rows, or filters, of the wrong size. *)
From Coq Require Import Reals Lra.
From Verif Require Import Base Mat Act Layer Conv Misc Net NetP RInst RMat ConvP P_Conv P_Pool P_HLayer.
From Coq Require Import Arith.
Local Open Scope nat_scope.

Section Gen.
Context {D : dtype}.
Notation mat := (mat D).
Notation conv := (conv D).
Context (draw : D -> nat -> D) (junk : nat -> D).

(** * Specification *)
(** The two batches have the same rows as far as the first [n] columns. *)
Definition same_first (n : nat) (x x' : mat) : Prop :=
  nr x = nr x' /\ n <= nc x /\ n <= nc x' /\ forall i j, i < nr x -> j < n -> at_ x i j = at_ x' i j.
(** The three layers as constructed for [pnf] channels of [w] x [h] pixels, filters (windows) of [sp] x [sp]. *)
Definition is_conv (c : conv) (w h pnf nf sp st pad : nat) : Prop :=
  exists lr f, conv_new draw junk (Z.of_nat w) (Z.of_nat h) (Z.of_nat pnf) (Z.of_nat nf) (Z.of_nat sp) (Z.of_nat st) (Z.of_nat pad) lr f = Ok c.

(** * Surplus columns *)
Lemma toimage_same n (x x' : mat) w h f : same_first n x x' -> 1 <= w -> 1 <= h -> (f + 1) * (w * h) <= n ->
  toimage x (Z.of_nat f) (Z.of_nat w) (Z.of_nat h) = toimage x' (Z.of_nat f) (Z.of_nat w) (Z.of_nat h).
Proof.
  intros (E & A & B & G) Hw Hh H. unfold toimage.
  replace (Z.of_nat f * (Z.of_nat w * Z.of_nat h))%Z with (Z.of_nat (f * (w * h))) by lia.
  replace ((Z.of_nat f + 1) * (Z.of_nat w * Z.of_nat h) - 1)%Z with (Z.of_nat (f * (w * h) + w * h) - 1)%Z by lia.
  rewrite !mcols_mk by nia. cbn [bind]. f_equal. f_equal. rewrite E. apply mk_ext. intros i j Hi Hj. apply G; [lia|nia].
Qed.
Lemma foldM_ext {A S} (f g : S -> A -> res S) l : (forall s a, In a l -> f s a = g s a) -> forall s, foldM f l s = foldM g l s.
Proof. induction l as [|a l IH]; intros H s; cbn [foldM]; [reflexivity|]. rewrite H by now left. destruct (g s a); cbn; try reflexivity. apply IH. intros. apply H. now right. Qed.
Lemma in_zrange k n : In k (zrange (Z.of_nat n)) -> exists j, k = Z.of_nat j /\ j < n.
Proof. unfold zrange. rewrite Nat2Z.id, in_map_iff. intros (j & <- & H). apply in_seq in H. exists j. split; [reflexivity|lia]. Qed.
Lemma forward_loop_same n (x x' : mat) (c : conv) w h pnf os body a im : same_first n x x' -> 1 <= w -> 1 <= h -> pnf * (w * h) <= n ->
  cv_iw c = Z.of_nat w -> cv_ih c = Z.of_nat h -> cv_pnf c = Z.of_nat pnf -> forward_loop c os body x a im = forward_loop c os body x' a im.
Proof.
  intros Sm Hw Hh Hn E1 E2 E3. unfold forward_loop. rewrite <- (proj1 Sm), E1, E2, E3. apply foldM_ext. intros [a1 i1] i _. apply foldM_ext. intros [a2 i2] k Hk.
  apply in_zrange in Hk as (j & -> & Hj). rewrite (toimage_same n x x' w h j Sm Hw Hh) by nia. reflexivity.
Qed.

(** Columns after the first [pnf] * w * h are not looked at, by any of the three layers: the answer, the layer afterwards and
    any failure are the same whatever they hold and however many there are. *)
Theorem C99_surplus : forall (c : conv) idx w h pnf (x x' : mat), 1 <= w -> 1 <= h ->
  cv_iw c = Z.of_nat w -> cv_ih c = Z.of_nat h -> cv_pnf c = Z.of_nat pnf -> same_first (pnf * (w * h)) x x' ->
  conv_forward junk c x = conv_forward junk c x' /\ maxpool_forward junk (MP c idx) x = maxpool_forward junk (MP c idx) x' /\
  meanpool_forward junk c x = meanpool_forward junk c x'.
Proof.
  intros c idx w h pnf x x' Hw Hh E1 E2 E3 Sm. assert (Hn : pnf * (w * h) <= pnf * (w * h)) by lia. pose proof (proj1 Sm) as En.
  split; [|split].
  - unfold conv_forward. rewrite En. destruct (rd (cv_osize c)); cbn [bind]; try reflexivity. destruct (zerosZ (nr x') _); cbn [bind]; try reflexivity. destruct (cube_new junk _ _ (nr x')); cbn [bind]; try reflexivity.
    now rewrite (forward_loop_same _ x x' c w h pnf _ _ _ _ Sm Hw Hh Hn E1 E2 E3).
  - unfold maxpool_forward. cbn [mp_c]. rewrite En. destruct (rd (cv_osize c)); cbn [bind]; try reflexivity. destruct (zerosZ (nr x') _); cbn [bind]; try reflexivity. destruct (cube_new junk _ _ (nr x')); cbn [bind]; try reflexivity.
    match goal with |- bind ?r _ = _ => destruct r; cbn [bind]; try reflexivity end. rewrite E1, E2, E3.
    match goal with |- bind (foldM ?f ?l ?s) _ = bind (foldM ?g ?l ?s) _ => replace (foldM f l s) with (foldM g l s); [reflexivity|] end.
    apply foldM_ext. intros [[aa1 i1] xx1] i _. apply foldM_ext. intros [[aa2 i2] xx2] k Hk.
    apply in_zrange in Hk as (j & -> & Hj). rewrite (toimage_same _ x x' w h j Sm Hw Hh) by nia. reflexivity.
  - unfold meanpool_forward. rewrite En. destruct (rd (cv_osize c)); cbn [bind]; try reflexivity. destruct (zerosZ (nr x') _); cbn [bind]; try reflexivity. destruct (cube_new junk _ _ (nr x')); cbn [bind]; try reflexivity.
    now rewrite (forward_loop_same _ x x' c w h pnf _ _ _ _ Sm Hw Hh Hn E1 E2 E3).
Qed.

(** * Missing columns *)
Lemma tame_throw {A S} (f : S -> A -> res S) l a0 : (forall s a, tame (f s a)) -> In a0 l -> (forall s, f s a0 = Throw) -> forall s, foldM f l s = Throw.
Proof.
  intros Ht Hi H0. induction l as [|a l IH]; intros s; [destruct Hi|]. cbn [foldM]. destruct Hi as [-> |Hi]; [now rewrite H0|]. destruct (Ht s a) as [[s' ->]| ->]; cbn; [now apply IH|reflexivity].
Qed.
Lemma tame_ok {A} (a : A) : tame (Ok a). Proof. left. eauto. Qed.
Lemma tame_th {A} : tame (Throw : res A). Proof. now right. Qed.
Lemma tame_if {A} (b : bool) (x y : res A) : tame x -> tame y -> tame (if b then x else y). Proof. destruct b; auto. Qed.
Lemma tame_submat (m : mat) a b c d : tame (submat m a b c d). Proof. unfold submat. apply tame_if; [apply tame_ok|apply tame_th]. Qed.
Lemma tame_set_submat f (m s : mat) a b c d : tame (set_submat f m a b c d s). Proof. unfold set_submat. apply tame_if; [apply tame_ok|apply tame_th]. Qed.
Lemma tame_mset (m : mat) a b v : tame (mset m a b v). Proof. unfold mset. apply tame_if; [apply tame_ok|apply tame_th]. Qed.
Lemma tame_zerosZ r c : tame (zerosZ (D := D) r c). Proof. unfold zerosZ. apply tame_if; [apply tame_th|apply tame_ok]. Qed.
Lemma tame_toimage (m : mat) f w h : tame (toimage m f w h).
Proof. unfold toimage, mcols. apply tame_bind'; [apply tame_if; [apply tame_ok|apply tame_th]|]. intros. apply tame_ok. Qed.
Lemma tame_padding p (m : mat) : tame (addzeropadding p m).
Proof. unfold addzeropadding. apply tame_bind'; [apply tame_fold; intros s i; apply tame_bind'; intros; apply tame_rows|intros m'; apply tame_fold; intros s i; apply tame_bind'; intros; apply tame_cols]. Qed.
Lemma tame_slice (l : list mat) i : tame (slice l i). Proof. unfold slice. destruct (nth_error l i); [apply tame_ok|apply tame_th]. Qed.
Lemma tame_set_slice (l : list mat) i m : tame (set_slice l i m). Proof. unfold set_slice. destruct (nth_error l i); [apply tame_if; [apply tame_ok|apply tame_th]|apply tame_th]. Qed.
Lemma tame_out_dim a b st : (st <> 0)%Z -> tame (out_dim a b st). Proof. intros H. unfold out_dim. rewrite (proj2 (Z.eqb_neq st 0) H). apply tame_ok. Qed.
Lemma tame_schur (a b : mat) : tame (mschur a b).
Proof. unfold mschur, mzip. apply tame_if; [apply tame_ok|apply tame_th]. Qed.
Lemma tame_convolve st (x y : mat) : (st <> 0)%Z -> tame (convolve junk st x y).
Proof.
  intros H. unfold convolve. apply tame_bind'; [now apply tame_out_dim|]. intros ow. apply tame_bind'; [now apply tame_out_dim|]. intros oh.
  apply tame_bind'; [unfold row_uninit; apply tame_if; [apply tame_th|apply tame_ok]|]. intros o. apply tame_if; [apply tame_th|].
  apply tame_fold. intros s i. apply tame_fold. intros s' j. apply tame_bind'; [apply tame_submat|]. intros u. apply tame_bind'; [apply tame_schur|]. intros v. apply tame_mset.
Qed.
Lemma tame_meanpool sp st (x : mat) : (st <> 0)%Z -> tame (do_meanpool sp st x).
Proof.
  intros H. unfold do_meanpool. apply tame_bind'; [now apply tame_out_dim|]. intros ow. apply tame_bind'; [now apply tame_out_dim|]. intros oh. apply tame_bind'; [apply tame_zerosZ|]. intros o.
  apply tame_fold. intros s i. apply tame_fold. intros s' j. apply tame_bind'; [apply tame_submat|]. intros u. apply tame_mset.
Qed.
Lemma tame_maxpool sp st (x : mat) : (st <> 0)%Z -> tame (do_maxpool sp st x).
Proof.
  intros H. unfold do_maxpool. apply tame_bind'; [now apply tame_out_dim|]. intros ow. apply tame_bind'; [now apply tame_out_dim|]. intros oh. apply tame_bind'; [apply tame_zerosZ|]. intros o. apply tame_bind'; [apply tame_zerosZ|]. intros o'.
  apply tame_fold. intros [s1 s2] i. apply tame_fold. intros [s3 s4] j. apply tame_bind'; [apply tame_submat|]. intros u. destruct (maxval u) as [[v r] cc].
  apply tame_bind'; [apply tame_mset|]. intros. apply tame_bind'; [apply tame_mset|]. intros. apply tame_bind'; [apply tame_mset|]. intros. apply tame_ok.
Qed.
Definition loop_step (c : conv) (os : Z) (body : mat -> Z -> Z -> res mat) (pa : mat) i : mat * list mat -> Z -> res (mat * list mat) :=
  fun '(a, imgs) j =>
      img <- toimage pa j (cv_iw c) (cv_ih c) ;;
      padded <- addzeropadding (cv_pad c) img ;;
      imgs' <- set_slice imgs i padded ;;
      a' <- foldM (fun a k => sl <- slice imgs' i ;; p <- body sl j k ;; set_submat dadd a (Z.of_nat i) (k * os) (Z.of_nat i) ((k + 1) * os - 1) p) (zrange (cv_nf c)) a ;;
      Ok (a', imgs').
Lemma forward_loop_step c os body pa a im : forward_loop c os body pa a im = foldM (fun s i => foldM (loop_step c os body pa i) (zrange (cv_pnf c)) s) (seq 0 (nr pa)) (a, im).
Proof. unfold forward_loop. apply foldM_ext. intros [a1 i1] i _. reflexivity. Qed.
Lemma tame_step c os body pa i s j : (forall sl j k, tame (body sl j k)) -> tame (loop_step c os body pa i s j).
Proof.
  intros Hb. destruct s as [a im]. unfold loop_step. apply tame_bind'; [apply tame_toimage|]. intros. apply tame_bind'; [apply tame_padding|]. intros. apply tame_bind'; [apply tame_set_slice|]. intros.
  apply tame_bind'; [apply tame_fold; intros; apply tame_bind'; [apply tame_slice|]; intros; apply tame_bind'; [apply Hb|]; intros; apply tame_set_submat|]. intros. apply tame_ok.
Qed.
(** if, whatever happened before, channel [j0] fails, the whole pass does *)
Lemma forward_loop_throw c os body (pa : mat) a im j0 : (forall sl j k, tame (body sl j k)) -> 1 <= nr pa -> In j0 (zrange (cv_pnf c)) -> (forall i s, loop_step c os body pa i s j0 = Throw) -> forward_loop c os body pa a im = Throw.
Proof.
  intros Hb Hn Hj Ht. rewrite forward_loop_step. apply (tame_throw _ _ 0); [|apply in_seq; lia|].
  - intros s i. apply tame_fold. intros. now apply tame_step.
  - intros s. apply (tame_throw _ _ j0); [|assumption|now intros]. intros. now apply tame_step.
Qed.
Lemma tame_cube h w n : tame (cube_new (D := D) junk h w n). Proof. unfold cube_new. apply tame_if; [apply tame_th|apply tame_ok]. Qed.
Lemma short_throw (x : mat) w h pnf : nc x < pnf * (w * h) -> 1 <= w -> 1 <= h -> exists j, In j (zrange (Z.of_nat pnf)) /\ toimage x j (Z.of_nat w) (Z.of_nat h) = Throw.
Proof.
  intros H Hw Hh. assert (1 <= pnf) by nia. exists (Z.of_nat (pnf - 1)). split.
  - unfold zrange. rewrite Nat2Z.id. apply in_map. apply in_seq. lia.
  - unfold toimage, mcols. replace ((Z.of_nat (pnf - 1) + 1) * (Z.of_nat w * Z.of_nat h) - 1 <? Z.of_nat (nc x))%Z with false; [now rewrite andb_false_r|]. symmetry. apply Z.ltb_ge. nia.
Qed.

(** Rows with fewer than [pnf] * w * h columns make forwardprop throw, in all three layers (any stride but 0, any filter count). *)
Theorem C99_short : forall (c : conv) idx os w h pnf (x : mat), 1 <= w -> 1 <= h -> cv_osize c = Some os -> (cv_st c <> 0)%Z ->
  cv_iw c = Z.of_nat w -> cv_ih c = Z.of_nat h -> cv_pnf c = Z.of_nat pnf -> 1 <= nr x -> nc x < pnf * (w * h) ->
  conv_forward junk c x = Throw /\ maxpool_forward junk (MP c idx) x = Throw /\ meanpool_forward junk c x = Throw.
Proof.
  intros c idx os w h pnf x Hw Hh Ho Hst E1 E2 E3 Hx Hn. destruct (short_throw x w h pnf Hn Hw Hh) as (j0 & J1 & J2). rewrite <- E3 in J1. rewrite <- E1, <- E2 in J2.
  split; [|split].
  - unfold conv_forward. rewrite Ho. cbn [rd bind]. apply tame_bind; [apply tame_zerosZ|]. intros a0 _. apply tame_bind; [apply tame_cube|]. intros im _.
    rewrite (forward_loop_throw c os _ x a0 im j0); try assumption; try reflexivity.
    + intros. apply tame_bind'; [apply tame_submat|]. intros. now apply tame_convolve.
    + intros i [a i']. unfold loop_step. now rewrite J2.
  - unfold maxpool_forward. cbn [mp_c]. rewrite Ho. cbn [rd bind]. apply tame_bind; [apply tame_zerosZ|]. intros a0 _. apply tame_bind; [apply tame_cube|]. intros im _.
    apply tame_bind; [apply tame_if; [apply tame_th|apply tame_ok]|]. intros ix _.
    match goal with |- bind ?r _ = _ => enough (G : r = Throw) by (rewrite G; reflexivity) end.
    assert (T : forall i s j, tame ((fun '(a, imgs, idx) j => img <- toimage x j (cv_iw c) (cv_ih c) ;; padded <- addzeropadding (cv_pad c) img ;; imgs' <- set_slice imgs i padded ;;
        '(a', idx') <- foldM (fun '(a, idx) k => sl <- slice imgs' i ;; '(o, index) <- do_maxpool (cv_sp c) (cv_st c) sl ;;
                a' <- set_submat dadd a (Z.of_nat i) (k * os) (Z.of_nat i) ((k + 1) * os - 1) o ;; idx' <- set_submat put idx (Z.of_nat i) 0 (Z.of_nat i) (os * 2 - 1) index ;;
                Ok (a', idx')) (zrange (cv_nf c)) (a, idx) ;; Ok (a', imgs', idx')) s j)).
    { intros i [[a im'] ix'] j. apply tame_bind'; [apply tame_toimage|]. intros. apply tame_bind'; [apply tame_padding|]. intros. apply tame_bind'; [apply tame_set_slice|]. intros.
      apply tame_bind'; [|intros [? ?]; apply tame_ok]. apply tame_fold. intros [s1 s2] k. apply tame_bind'; [apply tame_slice|]. intros. apply tame_bind'; [now apply tame_maxpool|]. intros [? ?].
      apply tame_bind'; [apply tame_set_submat|]. intros. apply tame_bind'; [apply tame_set_submat|]. intros. apply tame_ok. }
    apply (tame_throw _ _ 0); [|apply in_seq; lia|].
    + intros [[a im'] ix'] i. apply tame_fold. intros s j. apply (T i s j).
    + intros [[a im'] ix']. apply (tame_throw _ _ j0); [|assumption|]; [intros s j; apply (T 0 s j)|]. intros [[a1 i1] x1]. now rewrite J2.
  - unfold meanpool_forward. rewrite Ho. cbn [rd bind]. apply tame_bind; [apply tame_zerosZ|]. intros a0 _. apply tame_bind; [apply tame_cube|]. intros im _.
    rewrite (forward_loop_throw c os _ x a0 im j0); try assumption; try reflexivity.
    + intros. now apply tame_meanpool.
    + intros i [a i']. unfold loop_step. now rewrite J2.
Qed.

(** * A filter that does not fit *)
(** Layers with stride 1 as the constructors make them, whatever the filter size. *)
Lemma new_fields (c : conv) w h pnf nf sp pad : 1 <= sp -> is_conv c w h pnf nf sp 1 pad ->
  cv_iw c = Z.of_nat w /\ cv_ih c = Z.of_nat h /\ cv_pnf c = Z.of_nat pnf /\ cv_nf c = Z.of_nat nf /\ cv_sp c = Z.of_nat sp /\ cv_st c = 1%Z /\ cv_pad c = Z.of_nat pad /\
  cv_osize c = Some ((Z.of_nat (w + 2 * pad) - Z.of_nat sp + 1) * (Z.of_nat (h + 2 * pad) - Z.of_nat sp + 1))%Z /\ nr (l_W (cv_l c)) = sp * pnf /\ nc (l_W (cv_l c)) = sp * nf.
Proof.
  intros Hsp (lr & f & E). unfold conv_new, layer_new in E. rewrite (proj2 (Z.leb_le 0 (Z.of_nat sp * Z.of_nat pnf - 1 + 1))), (proj2 (Z.leb_le 0 (Z.of_nat sp * Z.of_nat nf))) in E by nia.
  cbn [andb bind] in E. unfold idiv in E. change (Z.of_nat 1) with 1%Z in E. change (1 =? 0)%Z with false in E. cbn [bind] in E. rewrite !Z.quot_1_r in E. injection E as <-.
  cbn [cv_iw cv_ih cv_pnf cv_nf cv_sp cv_st cv_pad cv_osize cv_l l_W randominit set_W randominit_w mmap mk nr nc mat_uninit]. repeat (split; [reflexivity|]). split; [destruct (Z.of_nat pad) eqn:Ep; f_equal; f_equal; lia|]. rewrite Z.sub_add, <- !Nat2Z.inj_mul, !Nat2Z.id. split; lia.
Qed.
Lemma out_dim_big xn yn : xn < yn -> (Z.of_nat yn < INT_MAX)%Z -> out_dim xn yn 1 = Ok (Z.of_nat xn - Z.of_nat yn + 1)%Z.
Proof.
  intros H B. unfold INT_MAX in B. unfold out_dim. change (1 =? 0)%Z with false. cbn iota. f_equal. rewrite (Z.mod_small 1) by (split; [lia|reflexivity]). rewrite Z.div_1_r.
  replace ((Z.of_nat xn - Z.of_nat yn) mod 2 ^ 64)%Z with (Z.of_nat xn - Z.of_nat yn + 2 ^ 64)%Z.
  - unfold to_int. replace (Z.of_nat xn - Z.of_nat yn + 2 ^ 64 + 1 + 2147483648)%Z with ((Z.of_nat xn - Z.of_nat yn + 1 + 2147483648) + 4294967296 * 4294967296)%Z by (change (2 ^ 64)%Z with (4294967296 * 4294967296)%Z; lia).
    rewrite Z_mod_plus_full. rewrite Z.mod_small by lia. lia.
  - symmetry. rewrite <- (Z_mod_plus_full _ 1). rewrite Z.mod_small; [lia|]. change (2 ^ 64)%Z with 18446744073709551616%Z. lia.
Qed.
Lemma steps_neg n st : (n <= 0)%Z -> steps n st = []. Proof. intros H. unfold steps, zrange. now replace (Z.to_nat n) with 0 by lia. Qed.
Lemma zrange_neg n : (n <= 0)%Z -> zrange n = []. Proof. intros H. unfold zrange. now replace (Z.to_nat n) with 0 by lia. Qed.

(** the max pooling pass, given what pooling one image gives *)
Lemma maxpool_loop (c : conv) idx w h pnf nf pad os (pa : mat) (B : nat -> nat -> D) : deqb (d := D) d0 d0 = true ->
  cv_iw c = Z.of_nat w -> cv_ih c = Z.of_nat h -> cv_pnf c = Z.of_nat pnf -> cv_nf c = Z.of_nat nf -> cv_pad c = Z.of_nat pad -> cv_osize c = Some (Z.of_nat os) ->
  1 <= w -> 1 <= h -> 1 <= os -> nc pa = pnf * (w * h) ->
  (forall j, j < pnf -> exists index, do_maxpool (cv_sp c) (cv_st c) (image w h pad pa j) = Ok (mk 1 os (fun _ p => B j p), index) /\ nr index = 1 /\ nc index = os * 2) ->
  exists p', maxpool_forward junk (MP c idx) pa = Ok (mk (nr pa) (os * nf) (fun _ q => act (l_act (cv_l c)) (fold_left (fun acc j => dadd acc (B j (q mod os))) (seq 0 pnf) d0)), p').
Proof.
  intros dz E1 E2 E3 E4 E5 E6 Hw Hh HO Hpa HB.
  unfold maxpool_forward. cbn [mp_c]. rewrite E6. cbn [rd bind].
  assert (Z0 : zerosZ (D := D) (nr pa) (Z.of_nat os * cv_nf c) = Ok (mk (nr pa) (os * nf) (fun _ _ => d0))).
  { unfold zerosZ. rewrite E4. rewrite (proj2 (Z.ltb_ge _ 0)) by lia. replace (Z.to_nat (Z.of_nat os * Z.of_nat nf)) with (os * nf) by lia. reflexivity. }
  assert (C0 : exists im, cube_new junk (cv_ih c + 2 * cv_pad c) (cv_iw c + 2 * cv_pad c) (nr pa) = Ok im /\ slices_ok w h pad pa im).
  { unfold cube_new. rewrite E1, E2, E5. rewrite !(proj2 (Z.ltb_ge _ 0)) by lia. cbn [orb]. eexists. split; [reflexivity|]. split; [apply repeat_length|]. apply Forall_forall. intros m Hm. apply repeat_spec in Hm as ->. cbn [nr nc mat_uninit mk]. lia. }
  destruct C0 as (im0 & P1 & P2). rewrite Z0, P1. cbn [bind].
  rewrite (proj2 (Z.ltb_ge (Z.of_nat os * 2) 0)) by lia. cbn [bind]. replace (Z.to_nat (Z.of_nat os * 2)) with (os * 2) by lia.
  pose (A := fun (q n : nat) => fold_left (fun acc j => dadd acc (B j (q mod os))) (seq 0 n) d0).
  match goal with |- context [foldM ?g (seq 0 (nr pa)) ?s] =>
  destruct (foldM_seq (fun n '(a, imgs, idx) => a = mk (nr pa) (os * nf) (fun i q => if i <? n then A q pnf else d0) /\
      slices_ok w h pad pa imgs /\ nr idx = nr pa /\ nc idx = os * 2) g (nr pa) s) as (((a & imgs) & ix) & -> & E & _) end.
  - split; [reflexivity|]. split; [assumption|split; reflexivity].
  - intros i ((a & imgs) & ix) Hi (-> & SI & N1 & N2).
    match goal with |- context [foldM ?g (zrange (cv_pnf c)) ?s] => rewrite E3;
    destruct (foldM_zrange (fun n '(a, im, idx) => a = mk (nr pa) (os * nf) (fun i' q => if i' <? i then A q pnf else
         if i' =? i then A q n else d0) /\ slices_ok w h pad pa im /\ nr idx = nr pa /\ nc idx = os * 2) g pnf s) as (((a & im) & ix1) & -> & E & S1 & S2 & S3) end.
    + split; [|split; [assumption|split; assumption]]. apply mk_ext. intros i' q Hi' Hq. unfold A at 3. cbn [seq fold_left]. destruct (i' <? i), (i' =? i); reflexivity.
    + intros j ((a & im) & ix1) Hj (-> & S1 & S2 & S3).
      destruct (image_ok dz w h pnf nf pad os c pa E1 E2 E5 Hw Hh HO Hpa j Hj ltac:(lia)) as [T1 T2]. rewrite T1. cbn [bind]. rewrite T2. cbn [bind].
      destruct (set_slice_ok w h pnf nf pad os pa Hw Hh HO Hpa im i j S1 Hi) as (U1 & U2 & U3). rewrite U1. cbn [bind]. unfold slice. rewrite U3. cbn [bind]. rewrite E4.
      destruct (HB j Hj) as (index & X1 & X2 & X3). rewrite X1. cbn [bind].
      match goal with |- context [foldM ?g (zrange (Z.of_nat nf)) ?s] =>
        destruct (foldM_zrange (fun n '(a, idx) => a = mk (nr pa) (os * nf) (fun i' q => if i' <? i then A q pnf else
           if i' =? i then (if q <? n * os then A q (S j) else A q j) else d0) /\ nr idx = nr pa /\ nc idx = os * 2) g nf s) as ((a' & ix') & -> & E' & V1 & V2) end.
      * split; [|split; assumption]. apply mk_ext. intros i' q Hi' Hq. rewrite (proj2 (Nat.ltb_ge q _)) by lia. reflexivity.
      * intros k (a' & ix') Hk (-> & V1 & V2). cbn beta iota.
        replace (Z.of_nat k * Z.of_nat os)%Z with (Z.of_nat (k * os)) by lia. replace ((Z.of_nat k + 1) * Z.of_nat os - 1)%Z with (Z.of_nat (k * os + os) - 1)%Z by lia.
        assert (LL : k * os + os <= os * nf) by (replace (k * os + os) with (os * (k + 1)) by lia; apply Nat.mul_le_mono_l; lia).
        rewrite set_row_mk; try reflexivity; cbn [nr nc mk]; try assumption. cbn [bind].
        change 0%Z with (Z.of_nat 0). replace (Z.of_nat os * 2 - 1)%Z with (Z.of_nat (0 + os * 2) - 1)%Z by lia.
        rewrite set_row_mk; [|lia|lia|lia|assumption|assumption]. cbn [bind]. eexists. split; [reflexivity|]. cbn beta iota. split; [|split; assumption].
        apply mk_ext. intros i' q Hi' Hq. rewrite at_mk by assumption. destruct (Nat.eqb_spec i' i) as [->|Ne]; cbn [andb]; [|reflexivity]. rewrite Nat.ltb_irrefl.
        replace (S k * os) with (k * os + os) by lia. destruct (Nat.leb_spec (k * os) q) as [L1|L1]; cbn [andb].
        -- rewrite (proj2 (Nat.ltb_ge q (k * os))) by lia. destruct (Nat.ltb_spec q (k * os + os)) as [L2|L2]; [|reflexivity]. rewrite at_mk by lia.
           assert (Em : q mod os = q - k * os) by (replace q with ((q - k * os) + k * os) at 1 by lia; rewrite Nat.mod_add, Nat.mod_small by lia; reflexivity).
           unfold A. rewrite seq_S, fold_left_app. cbn [fold_left]. rewrite <- Em. reflexivity.
        -- rewrite (proj2 (Nat.ltb_lt q (k * os))) by lia. rewrite (proj2 (Nat.ltb_lt q (k * os + os))) by lia. reflexivity.
      * cbn [bind]. eexists. split; [reflexivity|]. cbn beta iota. split; [|split; [assumption|split; assumption]]. rewrite E'. apply mk_ext. intros i' q Hi' Hq.
        destruct (i' <? i); [reflexivity|]. destruct (i' =? i); [|reflexivity]. rewrite (proj2 (Nat.ltb_lt q (nf * os))) by lia. reflexivity.
    + eexists. split; [reflexivity|]. cbn beta iota. split; [|split; [assumption|split; assumption]].
      rewrite E. apply mk_ext. intros i' q Hi' Hq. destruct (Nat.ltb_spec i' (S i)), (Nat.ltb_spec i' i), (Nat.eqb_spec i' i); try lia; reflexivity.
  - cbn [bind]. eexists. f_equal. f_equal. rewrite E. unfold funcop, mmap. cbn [nr nc mk]. apply mk_ext. intros i q Hi Hq. rewrite at_mk by assumption. rewrite (proj2 (Nat.ltb_lt i (nr pa))) by assumption. reflexivity.
Qed.

Definition over (sp n pad : nat) : nat := sp - (n + 2 * pad).
(** With stride 1 and a filter exceeding the padded image by at least 2 in both directions, forwardprop does not fail: the convolution
    layer answers sums of indeterminate memory, the pooling layers constant sums of zeros, in a number of columns computed from the excess; neither the
    input nor the weights matter. *)
Theorem C99_oversized_filter : forall (c : conv) idx w h pnf nf sp pad (x : mat), deqb (d := D) d0 d0 = true -> 1 <= w -> 1 <= h -> (Z.of_nat sp < INT_MAX)%Z ->
  is_conv c w h pnf nf sp 1 pad -> w + 2 * pad + 2 <= sp -> h + 2 * pad + 2 <= sp -> nc x = pnf * (w * h) ->
  let os := (over sp w pad - 1) * (over sp h pad - 1) in
  (exists out c', conv_forward junk c x = Ok (out, c') /\ nr out = nr x /\ nc out = os * nf /\
     forall r q, r < nr x -> q < os * nf -> at_ out r q = act (l_act (cv_l c)) (fold_left (fun acc _ => dadd acc (junk (q mod os))) (seq 0 pnf) d0)) /\
  (exists out c', meanpool_forward junk c x = Ok (out, c') /\ nr out = nr x /\ nc out = os * nf /\
     forall r q, r < nr x -> q < os * nf -> at_ out r q = act (l_act (cv_l c)) (fold_left (fun acc _ => dadd acc d0) (seq 0 pnf) d0)) /\
  (exists out p', maxpool_forward junk (MP c idx) x = Ok (out, p') /\ nr out = nr x /\ nc out = os * nf /\
     forall r q, r < nr x -> q < os * nf -> at_ out r q = act (l_act (cv_l c)) (fold_left (fun acc _ => dadd acc d0) (seq 0 pnf) d0)).
Proof.
  intros c idx w h pnf nf sp pad x dz Hw Hh B Hc H1 H2 Hx os. destruct (new_fields c w h pnf nf sp pad ltac:(lia) Hc) as (E1 & E2 & E3 & E4 & E5 & E6 & E7 & E8 & E9 & E10).
  assert (Ho : 1 <= os) by (unfold os, over; nia).
  assert (Eo : ((Z.of_nat (w + 2 * pad) - Z.of_nat sp + 1) * (Z.of_nat (h + 2 * pad) - Z.of_nat sp + 1))%Z = Z.of_nat os) by (unfold os, over; rewrite Nat2Z.inj_mul, !Nat2Z.inj_sub by lia; lia).
  assert (Z0 : zerosZ (D := D) (nr x) (Z.of_nat os * cv_nf c) = Ok (mk (nr x) (os * nf) (fun _ _ => d0))).
  { unfold zerosZ. rewrite E4. rewrite (proj2 (Z.ltb_ge _ 0)) by lia. replace (Z.to_nat (Z.of_nat os * Z.of_nat nf)) with (os * nf) by lia. reflexivity. }
  assert (C0 : exists im, cube_new junk (cv_ih c + 2 * cv_pad c) (cv_iw c + 2 * cv_pad c) (nr x) = Ok im /\ slices_ok w h pad x im).
  { unfold cube_new. rewrite E1, E2, E7. rewrite !(proj2 (Z.ltb_ge _ 0)) by lia. cbn [orb]. eexists. split; [reflexivity|]. split; [apply repeat_length|]. apply Forall_forall. intros m Hm. apply repeat_spec in Hm as ->. cbn [nr nc mat_uninit mk]. lia. }
  destruct C0 as (im & C0 & C1).
  split; [|split].
  - unfold conv_forward. rewrite E8, Eo. cbn [rd bind]. rewrite Z0, C0. cbn [bind].
    destruct (forward_loop_mk dz w h pnf nf pad os c x E1 E2 E3 E4 E7 Hw Hh Ho Hx (fun _ _ p => junk p)
      (fun sl j k => w0 <- spatial_of (l_W (cv_l c)) (cv_sp c) j k ;; convolve junk (cv_st c) sl w0)) with (f0 := fun _ _ : nat => d0 (d := D)) (imgs0 := im) as (imgs & E & _); [|assumption|].
    + intros ch k Hch Hk. unfold spatial_of. rewrite E5, E6.
      replace (Z.of_nat ch * Z.of_nat sp)%Z with (Z.of_nat (ch * sp)) by lia. replace (Z.of_nat k * Z.of_nat sp)%Z with (Z.of_nat (k * sp)) by lia.
      replace ((Z.of_nat ch + 1) * Z.of_nat sp - 1)%Z with (Z.of_nat (ch * sp + sp) - 1)%Z by lia. replace ((Z.of_nat k + 1) * Z.of_nat sp - 1)%Z with (Z.of_nat (k * sp + sp) - 1)%Z by lia.
      rewrite submat_mk; [|lia|lia|rewrite E9; nia|rewrite E10; nia]. cbn [bind]. unfold convolve, image. cbn [nr nc mk]. rewrite !out_dim_big by (try assumption; lia). cbn [bind].
      unfold row_uninit. rewrite Eo. rewrite (proj2 (Z.ltb_ge (Z.of_nat os) 0)) by lia. cbn [bind]. change (1 <? 0)%Z with false. cbn iota.
      rewrite !steps_neg by lia. cbn [foldM]. rewrite Nat2Z.id. unfold mat_uninit. f_equal. apply mk_ext. intros a p Ha Hp. f_equal. lia.
    + rewrite E. cbn [bind]. eexists _, _. split; [reflexivity|]. unfold funcop, mmap. cbn [nr nc mk]. split; [reflexivity|]. split; [reflexivity|]. intros r q Hr Hq. rewrite !at_mk by assumption. reflexivity.
  - unfold meanpool_forward. rewrite E8, Eo. cbn [rd bind]. rewrite Z0, C0. cbn [bind].
    destruct (forward_loop_mk dz w h pnf nf pad os c x E1 E2 E3 E4 E7 Hw Hh Ho Hx (fun _ _ p => d0)
      (fun sl _ _ => do_meanpool (cv_sp c) (cv_st c) sl)) with (f0 := fun _ _ : nat => d0 (d := D)) (imgs0 := im) as (imgs & E & _); [|assumption|].
    + intros ch k Hch Hk. rewrite E5, E6. unfold do_meanpool, image. cbn [nr nc mk]. rewrite Nat2Z.id. rewrite !out_dim_big by (try assumption; lia). cbn [bind].
      unfold zerosZ. rewrite Eo. rewrite (proj2 (Z.ltb_ge (Z.of_nat os) 0)) by lia. cbn [bind]. rewrite !zrange_neg by lia. cbn [foldM]. rewrite Nat2Z.id. reflexivity.
    + rewrite E. cbn [bind]. eexists _, _. split; [reflexivity|]. unfold funcop, mmap. cbn [nr nc mk]. split; [reflexivity|]. split; [reflexivity|]. intros r q Hr Hq. rewrite !at_mk by assumption. reflexivity.
  - rewrite Eo in E8. destruct (maxpool_loop c idx w h pnf nf pad os x (fun _ _ => d0) dz E1 E2 E3 E4 E7 E8 Hw Hh Ho Hx) as (p' & E).
    + intros j Hj. rewrite E5, E6. unfold do_maxpool, image. cbn [nr nc mk]. rewrite Nat2Z.id. rewrite !out_dim_big by (try assumption; lia). cbn [bind].
      unfold zerosZ. rewrite Eo. rewrite (proj2 (Z.ltb_ge (Z.of_nat os) 0)), (proj2 (Z.ltb_ge (Z.of_nat os * 2) 0)) by lia. cbn [bind]. rewrite !zrange_neg by lia. cbn [foldM]. rewrite Nat2Z.id.
      replace (Z.to_nat (Z.of_nat os * 2)) with (os * 2) by lia. eexists. split; [reflexivity|]. split; reflexivity.
    + rewrite E. eexists _, _. split; [reflexivity|]. cbn [nr nc mk]. split; [reflexivity|]. split; [reflexivity|]. intros r q Hr Hq. rewrite at_mk by assumption. reflexivity.
Qed.

(** the step of the max pooling pass *)
Definition mp_step (c : conv) (os : Z) (pa : mat) i : mat * list mat * mat -> Z -> res (mat * list mat * mat) :=
  fun '(a, imgs, idx) j => img <- toimage pa j (cv_iw c) (cv_ih c) ;; padded <- addzeropadding (cv_pad c) img ;; imgs' <- set_slice imgs i padded ;;
        '(a', idx') <- foldM (fun '(a, idx) k => sl <- slice imgs' i ;; '(o, index) <- do_maxpool (cv_sp c) (cv_st c) sl ;;
                a' <- set_submat dadd a (Z.of_nat i) (k * os) (Z.of_nat i) ((k + 1) * os - 1) o ;; idx' <- set_submat put idx (Z.of_nat i) 0 (Z.of_nat i) (os * 2 - 1) index ;;
                Ok (a', idx')) (zrange (cv_nf c)) (a, idx) ;; Ok (a', imgs', idx').
Lemma tame_mp c os pa i s j : (cv_st c <> 0)%Z -> tame (mp_step c os pa i s j).
Proof.
  intros Hst. destruct s as [[a im'] ix']. unfold mp_step. apply tame_bind'; [apply tame_toimage|]. intros. apply tame_bind'; [apply tame_padding|]. intros. apply tame_bind'; [apply tame_set_slice|]. intros.
  apply tame_bind'; [|intros [? ?]; apply tame_ok]. apply tame_fold. intros [s1 s2] k. apply tame_bind'; [apply tame_slice|]. intros. apply tame_bind'; [now apply tame_maxpool|]. intros [? ?].
  apply tame_bind'; [apply tame_set_submat|]. intros. apply tame_bind'; [apply tame_set_submat|]. intros. apply tame_ok.
Qed.
Lemma mp_throw (c : conv) idx os (x : mat) j0 : cv_osize c = Some os -> (cv_st c <> 0)%Z -> 1 <= nr x -> In j0 (zrange (cv_pnf c)) -> (forall i s, mp_step c os x i s j0 = Throw) -> maxpool_forward junk (MP c idx) x = Throw.
Proof.
  intros Ho Hst Hx Hj Ht. unfold maxpool_forward. cbn [mp_c]. rewrite Ho. cbn [rd bind]. apply tame_bind; [apply tame_zerosZ|]. intros a0 _. apply tame_bind; [apply tame_cube|]. intros im _.
  apply tame_bind; [apply tame_if; [apply tame_th|apply tame_ok]|]. intros ix _.
  match goal with |- bind ?r _ = _ => enough (G : r = Throw) by (rewrite G; reflexivity) end.
  apply (tame_throw _ _ 0); [|apply in_seq; lia|].
  + intros [[a im'] ix'] i. apply tame_fold. intros s j. apply (tame_mp c os x i s j Hst).
  + intros [[a im'] ix']. apply (tame_throw _ _ j0); [|assumption|]; [intros s j; apply (tame_mp c os x 0 s j Hst)|]. intros s. apply (Ht 0 s).
Qed.
Lemma empty_target f (m s : mat) i k : set_submat f m i (k * 0) i ((k + 1) * 0 - 1) s = Throw.
Proof. unfold set_submat, sub_ok. replace (k * 0 <=? (k + 1) * 0 - 1)%Z with false by (symmetry; apply Z.leb_gt; lia). now rewrite ?andb_false_r, ?andb_false_l. Qed.

(** In every other case of a filter that does not fit (stride 1, at least one row, channel and filter) forwardprop throws, in all three layers. *)
Theorem C99_unfitting_filter : forall (c : conv) idx w h pnf nf sp pad (x : mat), 1 <= w -> 1 <= h -> 1 <= sp -> is_conv c w h pnf nf sp 1 pad -> 1 <= nr x -> 1 <= pnf -> 1 <= nf ->
  w + 2 * pad < sp \/ h + 2 * pad < sp -> ~ (w + 2 * pad + 2 <= sp /\ h + 2 * pad + 2 <= sp) ->
  conv_forward junk c x = Throw /\ maxpool_forward junk (MP c idx) x = Throw /\ meanpool_forward junk c x = Throw.
Proof.
  intros c idx w h pnf nf sp pad x Hw Hh Hsp Hc Hx Hp Hnf Hb Hnb. destruct (new_fields c w h pnf nf sp pad Hsp Hc) as (E1 & E2 & E3 & E4 & E5 & E6 & E7 & E8 & E9 & E10).
  assert (Hst : (cv_st c <> 0)%Z) by lia.
  set (os := ((Z.of_nat (w + 2 * pad) - Z.of_nat sp + 1) * (Z.of_nat (h + 2 * pad) - Z.of_nat sp + 1))%Z) in *.
  assert (C : (os < 0)%Z \/ os = 0%Z).
  { destruct (Nat.eq_dec sp (w + 2 * pad + 1)); [right; unfold os; nia|]. destruct (Nat.eq_dec sp (h + 2 * pad + 1)); [right; unfold os; nia|]. left. unfold os.
    destruct Hb as [Hb|Hb]; [apply Z.mul_neg_pos|apply Z.mul_pos_neg]; lia. }
  destruct C as [C|C].
  - assert (Z0 : zerosZ (D := D) (nr x) (os * cv_nf c) = Throw) by (unfold zerosZ; rewrite E4; rewrite (proj2 (Z.ltb_lt _ 0)) by nia; reflexivity).
    split; [|split]; [unfold conv_forward|unfold maxpool_forward; cbn [mp_c]|unfold meanpool_forward]; rewrite E8; cbn [rd bind]; rewrite Z0; reflexivity.
  - assert (J0 : In 0%Z (zrange (cv_pnf c))) by (rewrite E3; unfold zrange; rewrite Nat2Z.id; apply (in_map Z.of_nat _ 0); apply in_seq; lia).
    assert (K0 : In 0%Z (zrange (cv_nf c))) by (rewrite E4; unfold zrange; rewrite Nat2Z.id; apply (in_map Z.of_nat _ 0); apply in_seq; lia).
    assert (G : forall body, (forall sl j k, tame (body sl j k)) -> forall a im, forward_loop c os body x a im = Throw).
    { intros body Tb a im. apply (forward_loop_throw c os body x a im 0%Z Tb Hx J0). intros i [a1 i1]. unfold loop_step.
      apply tame_bind; [apply tame_toimage|]. intros u _. apply tame_bind; [apply tame_padding|]. intros v _. apply tame_bind; [apply tame_set_slice|]. intros im' _.
      match goal with |- bind ?r _ = _ => enough (G : r = Throw) by (rewrite G; reflexivity) end.
      apply (tame_throw _ _ 0%Z); [|exact K0|].
      - intros s k. apply tame_bind'; [apply tame_slice|]. intros. apply tame_bind'; [apply Tb|]. intros. apply tame_set_submat.
      - intros s. apply tame_bind; [apply tame_slice|]. intros. apply tame_bind; [apply Tb|]. intros. rewrite C. apply empty_target. }
    split; [|split].
    + unfold conv_forward. rewrite E8. cbn [rd bind]. apply tame_bind; [apply tame_zerosZ|]. intros a0 _. apply tame_bind; [apply tame_cube|]. intros im _. rewrite G; [reflexivity|].
      intros. apply tame_bind'; [apply tame_submat|]. intros. now apply tame_convolve.
    + apply (mp_throw c idx os x 0%Z E8 Hst Hx J0). intros i [[a1 i1] x1]. unfold mp_step.
      apply tame_bind; [apply tame_toimage|]. intros u _. apply tame_bind; [apply tame_padding|]. intros v _. apply tame_bind; [apply tame_set_slice|]. intros im' _.
      match goal with |- bind ?r _ = _ => enough (GG : r = Throw) by (rewrite GG; reflexivity) end.
      apply (tame_throw _ _ 0%Z); [|exact K0|].
      * intros [s1 s2] k. apply tame_bind'; [apply tame_slice|]. intros. apply tame_bind'; [now apply tame_maxpool|]. intros [? ?]. apply tame_bind'; [apply tame_set_submat|]. intros. apply tame_bind'; [apply tame_set_submat|]. intros. apply tame_ok.
      * intros [s1 s2]. apply tame_bind; [apply tame_slice|]. intros. apply tame_bind; [now apply tame_maxpool|]. intros [? ?] _. rewrite C, empty_target. reflexivity.
    + unfold meanpool_forward. rewrite E8. cbn [rd bind]. apply tame_bind; [apply tame_zerosZ|]. intros a0 _. apply tame_bind; [apply tame_cube|]. intros im _. rewrite G; [reflexivity|]. intros. now apply tame_meanpool.
Qed.
End Gen.

(** A 2 x 2 image and, in turn, a 4 x 4 filter (the answer is the memory's 1000), a 3 x 3 filter (throws), a 2 x 2 filter with a surplus and with a missing column. *)
Definition c99 (sp : Z) (x : mat Zdt) : res (list Z) :=
  c <- conv_new (D := Zdt) (fun _ k => Z.of_nat k + 1)%Z (fun k => 1000 + Z.of_nat k)%Z 2 2 1 1 sp 1 0 1%Z identity ;;
  '(o, _) <- conv_forward (D := Zdt) (fun k => 1000 + Z.of_nat k)%Z (cv_set c (set_W (cv_l c) (Mat (D := Zdt) (Z.to_nat sp) (Z.to_nat sp) (repeat 1%Z (Z.to_nat (sp * sp))))) []) x ;; Ok (el o).
Example C99_example : c99 4 (Mat (D := Zdt) 1 4 [1; 2; 3; 4]%Z) = Ok [1000]%Z /\ c99 3 (Mat (D := Zdt) 1 4 [1; 2; 3; 4]%Z) = Throw /\
  c99 2 (Mat (D := Zdt) 1 3 [1; 2; 3]%Z) = Throw /\ (exists v, c99 2 (Mat (D := Zdt) 1 4 [1; 2; 3; 4]%Z) = Ok [v] /\ v <> 0%Z /\ c99 2 (Mat (D := Zdt) 1 5 [1; 2; 3; 4; 9]%Z) = Ok [v]).
Proof. vm_compute. repeat split. eexists. split; [reflexivity|]. split; [discriminate|reflexivity]. Qed.
Print Assumptions C99_surplus. Print Assumptions C99_short. Print Assumptions C99_oversized_filter. Print Assumptions C99_unfitting_filter.

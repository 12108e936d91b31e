(** P_Tensor.v - properties C01-C06, C19: shapes, construction, copying, assignment, moves, reshape. *)
From Verif Require Import Base Mem Par Tensor TensorOps TSpec TLemmas TOps TOps2 TMem TMatmul TFlat Hist.
Local Open Scope Z_scope.

(** * C01 *)

(** The constructor succeeds exactly on the valid extents. *)
Theorem C01_accepts_exactly : forall dims, ints dims ->
  ((exists s, mk_shape dims = Ok s) <-> valid_dims dims) /\
  (mk_shape dims = Abort <-> ~ signs_ok dims) /\
  (mk_shape dims = Undef IntOverflow <-> signs_ok dims /\ ~ fits dims).
Proof.
  intros dims Hi. destruct (signs_dec dims) as [Hs|Hs]; [destruct (fits_dec dims) as [Hf|Hf]|].
  - rewrite mk_shape_ok by (auto; split; auto). split; [split; [intros _; split; auto|eauto]|].
    split; split; intros H; try discriminate; tauto.
  - rewrite mk_shape_undef by assumption. split; [split; [intros (s & E); discriminate|intros [_ ?]; contradiction]|].
    split; split; intros H; try discriminate; tauto.
  - rewrite (proj2 (mk_shape_abort dims Hi) Hs). split; [split; [intros (s & E); discriminate|intros [? _]; contradiction]|].
    split; split; intros H; try discriminate; tauto.
Qed.

(** What the accessors of a constructed shape return. *)
Theorem C01_accessors : forall dims s, ints dims -> mk_shape dims = Ok s ->
  rank s = Z.of_nat (length dims) /\
  (forall i x, nth_error dims i = Some x ->
     shape_at s (Z.of_nat i) = Ok x /\
     exists c, chunk_at s (Z.of_nat i) = Ok c /\ 1 <= c <= INT_MAX /\
       c = if (i =? 0)%nat && (x =? 0) then 1 else prodZ (skipn i dims)).
Proof.
  intros dims s Hi Hs. apply mk_shape_inv in Hs; [|assumption]. split; [now apply rank_spec|].
  intros i x Hx. assert (Hlt : (i < length dims)%nat) by (apply nth_error_Some; congruence).
  split; [rewrite (shape_at_spec s dims i Hs), Hx; reflexivity|].
  exists (chunk_spec dims i). split; [now apply chunk_at_spec|].
  assert (E : chunk_spec dims i = if (i =? 0)%nat && (x =? 0) then 1 else prodZ (skipn i dims)).
  { destruct i as [|i]; [|reflexivity]. destruct dims as [|y l]; [discriminate|]. injection Hx as ->.
    simpl. destruct x; reflexivity. }
  split; [|exact E]. destruct Hs as ((Hsg & Hf) & _). split.
  - assert (H := chunk_spec_pos dims i Hsg Hlt). lia.
  - destruct i as [|i]; [apply numel_le; split; assumption|]. apply (Hf (S i)); assumption.
Qed.

Example C01_witness : ints [2; 3; 4] /\ valid_dims [2; 3; 4] /\
  ~ signs_ok [2; 0] /\ ints [65536; 65536] /\ signs_ok [65536; 65536] /\ ~ fits [65536; 65536].
Proof.
  split; [repeat constructor; unfold INT_MIN, INT_MAX; lia|].
  split; [split; [repeat constructor; lia|]|].
  { intros i Hi. simpl in Hi. unfold INT_MAX. destruct i as [|[|[|i]]]; try lia; vm_compute; discriminate. }
  split; [intros [_ H]; inversion H; lia|].
  split; [repeat constructor; unfold INT_MIN, INT_MAX; lia|].
  split; [repeat constructor; lia|].
  intros H. specialize (H 0%nat). simpl in H. unfold INT_MAX in H. lia.
Qed.

(** * C02 *)
Theorem C02_copy_shape : forall dims s dst, ints dims -> mk_shape dims = Ok s ->
  copy_shape s = Ok s /\ assign_shape dst s = Ok s.
Proof.
  intros dims s dst Hi Hs. apply mk_shape_inv in Hs; [|assumption]. split.
  - eapply copy_shape_id; eauto.
  - eapply assign_shape_id; eauto.
Qed.
Theorem C02_copy_default : forall dst, copy_shape shape_default = Abort /\ assign_shape dst shape_default = Abort.
Proof. intros. split; reflexivity. Qed.

Section T.
Context {D : dtype}.
Notation heap := (heap D).

(** * C03 *)
Theorem C03_zeros : forall dims (h : heap), valid_dims dims ->
  exists out h', t_new_dims dims h = Ok (out, h') /\ t_zeros dims h = Ok (out, h') /\
    made h out h' dims (repeat d0 (Z.to_nat (numel dims))).
Proof.
  intros dims h Hv. assert (Hi := valid_ints _ Hv). destruct (t_new_dims_ok (D:=D) dims h Hi Hv) as (s & Hs & E & E2).
  exists (Tn s (Some (length h))). eexists. split; [exact E2|]. split; [exact E2|]. apply made_app; [assumption|].
  rewrite repeat_length. assert (Hp := numel_pos' _ _ Hs). lia.
Qed.
Theorem C03_ones : forall dims (h : heap), valid_dims dims ->
  exists out h', t_ones dims h = Ok (out, h') /\ made h out h' dims (repeat d1 (Z.to_nat (numel dims))).
Proof.
  intros dims h Hv. assert (Hi := valid_ints _ Hv). destruct (t_ones_ok (D:=D) dims h Hi Hv) as (s & Hs & E).
  exists (Tn s (Some (length h))). eexists. split; [exact E|]. apply made_app; [assumption|].
  rewrite repeat_length. assert (Hp := numel_pos' _ _ Hs). lia.
Qed.
Theorem C03_eyes : forall n (h : heap), 0 < n -> n * n <= INT_MAX ->
  exists out h' ys, t_eyes n h = Ok (out, h') /\ made h out h' [n; n] ys /\
    forall i j, 0 <= i < n -> 0 <= j < n -> elem h' out [i; j] (if i =? j then d1 else d0).
Proof.
  intros n h H1 H2. destruct (t_eyes_ok (D:=D) n h H1 H2) as (s & Hs & E).
  assert (M : made h (Tn s (Some (length h))) (h ++ [Some (Blk AArray (map Some (eye_list n)))]) [n; n] (eye_list n)).
  { apply made_app; [assumption|]. unfold eye_list. rewrite map_length, zrange_length, numel2 by lia. nia. }
  eexists _, _, (eye_list n). split; [exact E|]. split; [exact M|]. intros i j Hi Hj.
  assert (Hin : in_dims [n; n] [i; j]) by (repeat constructor; lia).
  apply (elem_at _ _ [n; n] (eye_list n)); [apply (made_holds _ _ _ _ _ M)|assumption|].
  unfold at_, eye_list. cbn [flat]. change (prodZ [n]) with (n * 1). change (prodZ []) with 1.
  rewrite nth_error_map, zrange_nth by nia. cbn [option_map].
  replace (Z.of_nat (Z.to_nat (i * (n * 1) + (j * 1 + 0)))) with (i * n + j) by nia.
  rewrite Z.div_add_l, (Z.div_small j n), Z.add_0_r by lia.
  replace ((i * n + j) mod n) with j; [reflexivity|]. rewrite Z.add_comm, Z_mod_plus_full. symmetry. apply Z.mod_small. lia.
Qed.
Theorem C03_eyes_bad : forall n (h : heap), INT_MIN <= n <= INT_MAX ->
  (n <= 0 -> t_eyes n h = Abort) /\ (0 < n -> INT_MAX < n * n -> t_eyes n h = Undef IntOverflow).
Proof.
  intros n h Hn. assert (Hi : ints [n; n]) by (repeat constructor; lia). unfold t_eyes. split.
  - intros H. rewrite (proj2 (mk_shape_abort [n; n] Hi)); [reflexivity|]. intros [_ H2]. inversion H2; lia.
  - intros H1 H2. rewrite (mk2_overflow n n) by lia. reflexivity.
Qed.
Theorem C03_invalid_shape : forall dims (h : heap), ints dims ->
  (~ signs_ok dims -> t_new_dims dims h = Abort /\ t_zeros dims h = Abort /\ t_ones dims h = Abort) /\
  (signs_ok dims -> ~ fits dims -> t_new_dims dims h = Undef IntOverflow /\ t_zeros dims h = Undef IntOverflow /\
     t_ones dims h = Undef IntOverflow).
Proof.
  intros dims h Hi. unfold t_new_dims, t_zeros, t_ones. split.
  - intros H. rewrite (proj2 (mk_shape_abort dims Hi) H). auto.
  - intros H1 H2. rewrite (mk_shape_undef dims Hi H1 H2). auto.
Qed.
Theorem C03_gaussian : forall draw dims (h : heap), valid_dims dims ->
  exists out h', t_gaussian draw dims h = Ok (out, h') /\ made h out h' dims (map draw (zrange (numel dims))).
Proof.
  intros draw dims h Hv. assert (Hi := valid_ints _ Hv). destruct (t_gaussian_ok draw dims h Hi Hv) as (s & Hs & E).
  exists (Tn s (Some (length h))). eexists. split; [exact E|]. apply made_app; [assumption|].
  rewrite map_length, zrange_length. assert (Hp := numel_pos' _ _ Hs). lia.
Qed.

(** * C04 *)
Theorem C04_copy : forall t (h : heap) dims xs, holds h t dims xs ->
  exists out h', t_copy t h = Ok (out, h') /\ t_move_ctor t h = Ok (out, h') /\
    made h out h' dims xs /\ holds h' t dims xs /\
    (forall i v h'', t_set out i v h' = Ok h'' -> holds h'' t dims xs) /\
    (forall i v h'', t_set t i v h' = Ok h'' -> holds h'' out dims xs).
Proof.
  intros t h dims xs H. exists (Tn (t_sh t) (Some (length h))). eexists.
  split; [exact (t_copy_ok t h dims xs H)|]. split; [exact (t_move_ctor_ok t h dims xs H)|].
  assert (M := made_app h (t_sh t) dims xs (holds_shape _ _ _ _ H) (holds_len _ _ _ _ H)). split; [exact M|].
  assert (K := made_keeps _ _ _ _ _ _ _ _ M H). split; [exact K|].
  destruct (holds_data _ _ _ _ H) as (b & Hb & Hlt).
  split; intros i v h'' Hset.
  - eapply set_other; [exact K| |exact Hset]. rewrite Hb. simpl. intros E. injection E. lia.
  - eapply set_other; [apply (made_holds _ _ _ _ _ M)| |exact Hset]. rewrite Hb. simpl. intros E. injection E. lia.
Qed.
Theorem C04_copy_empty : forall t (h : heap) dims, empty_tensor t dims ->
  t_copy t h = Undef NullDeref /\ is_undef (t_move_ctor t h).
Proof. intros. split; [eapply t_copy_empty; eauto|eapply t_move_ctor_empty; eauto]. Qed.
(** Default-constructed tensors are such tensors. *)
Theorem C04_default_empty : exists t, t_default = Ok t /\ empty_tensor t [0].
Proof.
  eexists. split; [reflexivity|]. split; [|reflexivity]. apply (mk1' 0). unfold INT_MAX. lia.
Qed.

(** * C05 *)
Theorem C05_equal_count : forall dst src (h : heap) dd xs ds ys,
  holds h dst dd xs -> holds h src ds ys -> numel dd = numel ds ->
  exists h', t_copy_assign dst src h = Ok (Tn (t_sh src) (t_data dst), h') /\
    holds h' (Tn (t_sh src) (t_data dst)) ds ys /\
    (forall t dt zs, holds h t dt zs -> t_data t <> t_data dst -> holds h' t dt zs) /\ live h' = live h.
Proof.
  intros dst src h dd xs ds ys (k & Hd) Hs E. assert (A := assign_same dst src h k dd xs ds ys Hd Hs E).
  destruct Hd as (_ & _ & b & Hb & Hk). rewrite Hb in *. eexists. split; [exact A|].
  assert (Hlt := blk_lt _ _ _ Hk).
  assert (Hblk : forall c, blk (upd b (Some (Blk k (map Some ys))) h) c = if Nat.eqb c b then Some (Blk k (map Some ys)) else blk h c).
  { intros c. rewrite blk_upd. destruct (nth_error h b) eqn:En; [reflexivity|]. apply nth_error_None in En. lia. }
  split; [|split].
  - exists k. split; [apply (holds_shape _ _ _ _ Hs)|]. split; [apply (holds_len _ _ _ _ Hs)|]. exists b. split; [reflexivity|].
    rewrite Hblk, Nat.eqb_refl. reflexivity.
  - intros t dt zs (kt & S1 & S2 & c & Hc & Hck) Hne. exists kt. split; [assumption|]. split; [assumption|]. exists c. split; [assumption|].
    rewrite Hblk. destruct (Nat.eqb_spec c b) as [->|]; [congruence|assumption].
  - unfold live. clear -Hk. revert b Hk. induction h as [|o h IH]; intros b Hk; [destruct b; reflexivity|].
    destruct b as [|b]; [unfold blk in Hk; simpl in Hk; destruct o; [reflexivity|discriminate]|].
    simpl. unfold blk in Hk. simpl in Hk. destruct o; simpl; rewrite (IH b) by exact Hk; reflexivity.
Qed.
Theorem C05_larger_dest : forall dst src (h : heap) dd xs ds ys,
  holds h dst dd xs -> holds h src ds ys -> numel ds < numel dd -> is_undef (t_copy_assign dst src h).
Proof. exact assign_larger. Qed.
Theorem C05_smaller_dest : forall dst src (h : heap) dd xs ds ys,
  holds_k AArray h dst dd xs -> holds h src ds ys -> numel dd < numel ds -> t_data src <> t_data dst ->
  exists a h', t_copy_assign dst src h = Ok (a, h') /\ is_shape (t_sh a) ds /\ holds h' src ds ys /\
    (forall i, 0 <= i < numel dd -> exists v, at_ ys i = Some v /\ t_get a i h' = Ok v) /\
    (forall i, numel dd <= i < numel ds -> t_get a i h' = Undef UninitRead).
Proof.
  intros dst src h dd xs ds ys Hd Hs Hlt Hne. assert (Hd' := Hd). destruct Hd' as (Sd & Ld & b & Hb & Hk).
  assert (A := assign_smaller dst src h dd xs ds ys b Hd Hs Hlt Hb).
  assert (Ls := holds_len _ _ _ _ Hs). eexists _, _. split; [exact A|]. split; [apply (holds_shape _ _ _ _ Hs)|].
  assert (Hbl := blk_lt _ _ _ Hk).
  split; [|split].
  - destruct Hs as (ks & S1 & S2 & c & Hc & Hck). exists ks. split; [assumption|]. split; [assumption|]. exists c. split; [assumption|].
    rewrite blk_app, upd_length. assert (Hcl := blk_lt _ _ _ Hck). destruct (Nat.eqb_spec c (length h)); [lia|].
    rewrite blk_upd. destruct (Nat.eqb_spec c b) as [->|]; [congruence|assumption].
  - intros i Hi. exists (nth (Z.to_nat i) ys d0). split; [apply nth_error_nth'; lia|].
    unfold t_get. eapply load_blk; [cbn [t_data]; rewrite blk_app, upd_length, Nat.eqb_refl; reflexivity|lia|].
    cbn [b_cells]. rewrite Base.nth_error_app, map_length, firstn_length.
    destruct (Nat.ltb_spec (Z.to_nat i) (Nat.min (length xs) (length ys))) as [H|H]; [|lia].
    rewrite nth_error_map, (nth_error_nth' _ d0) by (rewrite firstn_length; lia). simpl. do 2 f_equal.
    rewrite <- (firstn_skipn (length xs) ys) at 2. rewrite app_nth1; [reflexivity|]. rewrite firstn_length. lia.
  - intros i Hi. unfold t_get, load, hget. cbn [fst snd t_data]. rewrite blk_app, upd_length, Nat.eqb_refl. cbn [b_cells].
    replace (0 <=? i) with true by lia. rewrite Base.nth_error_app, map_length, firstn_length.
    destruct (Nat.ltb_spec (Z.to_nat i) (Nat.min (length xs) (length ys))) as [H|H]; [lia|].
    rewrite nth_error_repeat. destruct (Nat.ltb_spec (Z.to_nat i - Nat.min (length xs) (length ys)) (length ys - length xs)); [reflexivity|lia].
Qed.
Theorem C05_dest_without_buffer : forall dst src (h : heap) dd ds ys,
  empty_tensor dst dd -> holds h src ds ys ->
  (numel dd <= numel ds -> exists a h', t_copy_assign dst src h = Ok (a, h') /\ is_shape (t_sh a) ds /\
     (forall i, 0 <= i < numel dd -> exists v, at_ ys i = Some v /\ t_get a i h' = Ok v) /\
     (forall i, numel dd <= i < numel ds -> t_get a i h' = Undef OutOfBounds)) /\
  (numel ds < numel dd -> is_undef (t_copy_assign dst src h)).
Proof.
  intros dst src h dd ds ys He Hs. destruct (assign_into_empty dst src h dd ds ys He Hs) as [A B]. split; [|exact B].
  intros Hle. eexists _, _. split; [exact (A Hle)|]. split; [apply (holds_shape _ _ _ _ Hs)|].
  assert (Ls := holds_len _ _ _ _ Hs). split; intros i Hi.
  - exists (nth (Z.to_nat i) ys d0). split; [apply nth_error_nth'; lia|].
    unfold t_get. eapply load_blk; [cbn [t_data]; rewrite blk_app, Nat.eqb_refl; reflexivity|lia|].
    cbn [b_cells]. rewrite nth_error_map, (nth_error_nth' _ d0) by (rewrite firstn_length; lia). simpl. do 2 f_equal.
    rewrite <- (firstn_skipn (Z.to_nat (numel dd)) ys) at 2. rewrite app_nth1; [reflexivity|]. rewrite firstn_length. lia.
  - assert (Hp := numel_pos' _ _ (proj1 He)). unfold t_get, load, hget, bad_addr. cbn [fst snd t_data]. rewrite blk_app, Nat.eqb_refl. cbn [b_cells].
    replace (0 <=? i) with true by lia. rewrite (proj2 (nth_error_None _ _)); [reflexivity|].
    rewrite map_length, firstn_length. lia.
Qed.
Theorem C05_from_empty : forall dst src (h : heap) dd xs ds,
  holds_k AArray h dst dd xs \/ empty_tensor dst dd -> empty_tensor src ds -> is_undef (t_copy_assign dst src h).
Proof. exact assign_from_empty. Qed.

(** * C06 *)
Theorem C06_move_assign : forall (e : env) (h : heap) x y tx ty dy,
  nth_error e x = Some (Some tx) -> nth_error e y = Some (Some ty) -> x <> y -> is_shape (t_sh ty) dy ->
  exists e', exec (SMove x y) (e, h) = Ok (e', h) /\
    nth_error e' x = Some (Some ty) /\
    nth_error e' y = Some (Some (Tn (t_sh ty) None)) /\
    (forall z, z <> x -> z <> y -> nth_error e' z = nth_error e z) /\
    (forall b, t_data tx = Some b ->
       (forall z t, nth_error e z = Some (Some t) -> t_data t = Some b -> z = x) ->
       (forall z t, nth_error e' z = Some (Some t) -> t_data t <> Some b)).
Proof.
  intros e h x y tx ty dy Hx Hy Hxy St. cbn [exec]. unfold move_assign.
  rewrite (proj2 (obj_ok _ _ _) Hy), (proj2 (obj_ok _ _ _) Hx). cbn [bind].
  set (e1 := upd x (Some (Tn (t_sh tx) (t_data ty))) e).
  assert (E1 : nth_error e1 y = Some (Some ty)).
  { unfold e1. rewrite nth_error_upd. destruct (Nat.eqb_spec y x); [congruence|assumption]. }
  rewrite (proj2 (obj_ok _ _ _) E1). cbn [bind]. set (e2 := upd y (Some (Tn (t_sh ty) None)) e1).
  assert (E2 : nth_error e2 y = Some (Some (Tn (t_sh ty) None))) by (unfold e2; now rewrite nth_error_upd, Nat.eqb_refl, E1).
  assert (E3 : nth_error e2 x = Some (Some (Tn (t_sh tx) (t_data ty)))).
  { unfold e2. rewrite nth_error_upd. destruct (Nat.eqb_spec x y); [congruence|].
    unfold e1. now rewrite nth_error_upd, Nat.eqb_refl, Hx. }
  rewrite (proj2 (obj_ok _ _ _) E2), (proj2 (obj_ok _ _ _) E3). cbn [bind t_sh t_data].
  rewrite (assign_shape_id _ _ dy St). cbn [bind].
  assert (F : forall z, nth_error (upd x (Some (Tn (t_sh ty) (t_data ty))) e2) z =
     if Nat.eqb z x then Some (Some ty) else if Nat.eqb z y then Some (Some (Tn (t_sh ty) None)) else nth_error e z).
  { intros z. rewrite nth_error_upd, E3. destruct (Nat.eqb_spec z x); [destruct ty; reflexivity|].
    unfold e2. rewrite nth_error_upd, E1. destruct (Nat.eqb_spec z y); [reflexivity|].
    unfold e1. rewrite nth_error_upd. destruct (Nat.eqb_spec z x); [congruence|reflexivity]. }
  eexists. split; [reflexivity|]. rewrite !F, !Nat.eqb_refl. split; [reflexivity|].
  split; [destruct (Nat.eqb_spec y x); [congruence|reflexivity]|]. split.
  - intros z Hzx Hzy. rewrite F. destruct (Nat.eqb_spec z x); [congruence|]. destruct (Nat.eqb_spec z y); [congruence|reflexivity].
  - intros b Hb Hu z t Hz Ht. rewrite F in Hz. destruct (Nat.eqb_spec z x) as [->|Hzx].
    + injection Hz as <-. apply Hxy. symmetry. apply (Hu y ty); assumption.
    + destruct (Nat.eqb_spec z y) as [->|Hzy]; [injection Hz as <-; discriminate|].
      apply Hzx. apply (Hu z t); assumption.
Qed.
Theorem C06_self_move : forall (e : env) (h : heap) x t d, nth_error e x = Some (Some t) -> is_shape (t_sh t) d ->
  exec (SMove x x) (e, h) = Ok (upd x (Some (Tn (t_sh t) None)) e, h).
Proof.
  intros e h x t d Hx St. cbn [exec]. unfold move_assign. rewrite (proj2 (obj_ok _ _ _) Hx). cbn [bind].
  assert (E1 : obj (upd x (Some (Tn (t_sh t) (t_data t))) e) x = Ok (Tn (t_sh t) (t_data t))).
  { apply obj_ok. now rewrite nth_error_upd, Nat.eqb_refl, Hx. }
  rewrite E1. cbn [bind t_sh]. rewrite upd_upd.
  assert (E2 : obj (upd x (Some (Tn (t_sh t) None)) e) x = Ok (Tn (t_sh t) None)).
  { apply obj_ok. now rewrite nth_error_upd, Nat.eqb_refl, Hx. }
  rewrite E2. cbn [bind t_sh t_data]. rewrite (assign_shape_id _ _ d St). cbn [bind]. rewrite upd_upd. reflexivity.
Qed.

(** * C19 *)
Theorem C19_reshape : forall t (h : heap) dims xs new, holds h t dims xs -> ints new ->
  (valid_dims new -> numel new = numel dims ->
     exists t', t_reshape t new = Ok t' /\ t_data t' = t_data t /\ holds h t' new xs /\
       t_reshape t' dims = Ok t) /\
  (t_reshape t new = Abort <-> ~ signs_ok new \/ (valid_dims new /\ numel new <> numel dims)) /\
  (t_reshape t new = Undef IntOverflow <-> signs_ok new /\ ~ fits new).
Proof.
  intros t h dims xs new H Hi. assert (Hs := holds_shape _ _ _ _ H). unfold t_reshape.
  assert (Hcase : valid_dims new \/ ~ signs_ok new \/ (signs_ok new /\ ~ fits new)).
  { destruct (signs_dec new), (fits_dec new); try tauto. left. split; assumption. }
  destruct Hcase as [Hv|[Hn|[Hn Hf]]].
  - assert (Sn : is_shape (TSh new (map (chunk_spec new) (seq 0 (length new)))) new) by (split; [assumption|split; reflexivity]).
    set (s := TSh new (map (chunk_spec new) (seq 0 (length new)))) in *.
    rewrite (mk_shape_ok new Hi Hv). fold s. cbn [bind]. rewrite (chunk0 _ _ Sn), (chunk0 _ _ Hs). cbn [bind].
    rewrite (assign_shape_id _ _ new Sn). unfold cassert. destruct (Z.eqb_spec (numel new) (numel dims)) as [E|E]; cbn [bind].
    + split; [|split; split; intros A; try discriminate; destruct Hv; tauto].
      intros _ _. exists (Tn s (t_data t)). split; [reflexivity|]. split; [reflexivity|]. split.
      * destruct H as (k & A & B & b & C & F). exists k. split; [exact Sn|]. split; [lia|]. exists b. auto.
      * rewrite (is_shape_mk _ _ Hs). cbn [bind t_sh t_data]. rewrite (chunk0 _ _ Hs), (chunk0 _ _ Sn). cbn [bind].
        rewrite E, Z.eqb_refl. cbn [bind]. rewrite (assign_shape_id _ _ dims Hs). cbn [bind]. destruct t; reflexivity.
    + split; [intros; contradiction|]. split; split; intros A; try discriminate; try tauto. destruct Hv; tauto.
  - rewrite (proj2 (mk_shape_abort new Hi) Hn). split; [intros [? _]; contradiction|]. split; split; intros A; try discriminate; tauto.
  - rewrite (mk_shape_undef new Hi Hn Hf). split; [intros [_ ?]; contradiction|]. split; split; intros A; try discriminate; try tauto.
    destruct A as [A|[[_ A] _]]; contradiction.
Qed.

End T.

(** * The hypotheses are met: two tensors with different extents and equal counts in one heap, and the
    effect of the operations on them. *)
Definition ex_heap : heap Zdt := [Some (Blk AArray (map Some [1;2;3;4;5;6])); Some (Blk AArray (map Some [7;8;9;10;11;12]))].
Definition ex_a : tensor := Tn (TSh [2;3] [6;3]) (Some 0%nat).
Definition ex_b : tensor := Tn (TSh [3;2] [6;2]) (Some 1%nat).
Lemma ex_valid a b : 0 < a -> 0 < b -> a * b <= INT_MAX -> valid_dims [a; b].
Proof.
  intros. split; [repeat constructor; lia|]. intros [|[|i]] Hi; simpl in *; nia.
Qed.
Example ex_a_holds : holds ex_heap ex_a [2;3] [1;2;3;4;5;6].
Proof.
  exists AArray. split; [split; [apply ex_valid; unfold INT_MAX; lia|split; reflexivity]|]. split; [reflexivity|].
  exists 0%nat. split; reflexivity.
Qed.
Example ex_b_holds : holds ex_heap ex_b [3;2] [7;8;9;10;11;12].
Proof.
  exists AArray. split; [split; [apply ex_valid; unfold INT_MAX; lia|split; reflexivity]|]. split; [reflexivity|].
  exists 1%nat. split; reflexivity.
Qed.
Example ex_copy_assign : t_copy_assign (D:=Zdt) ex_a ex_b ex_heap =
  Ok (Tn (TSh [3;2] [6;2]) (Some 0%nat), [Some (Blk AArray (map Some [7;8;9;10;11;12])); Some (Blk AArray (map Some [7;8;9;10;11;12]))]).
Proof. reflexivity. Qed.
Example ex_reshape : t_reshape ex_a [6] = Ok (Tn (TSh [6] [6]) (Some 0%nat)).
Proof. reflexivity. Qed.
Example ex_move : exec (D:=Zdt) (SMove 0 1) ([Some ex_a; Some ex_b], ex_heap) =
  Ok ([Some ex_b; Some (Tn (t_sh ex_b) None)], ex_heap).
Proof. reflexivity. Qed.

Print Assumptions C01_accepts_exactly.
Print Assumptions C03_eyes.
Print Assumptions C05_smaller_dest.
Print Assumptions C06_move_assign.
Print Assumptions C19_reshape.

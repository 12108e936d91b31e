(** P_Pool.v - C52: the pooling layers. *)
From Coq Require Import Reals Lra.
From Verif Require Import Base Mat Act Layer Conv Misc Net NetP RInst RMat ConvP P_Conv.
From Coq Require Import Arith.
Local Open Scope nat_scope.

Section Gen.
Context {D : dtype}.
Notation mat := (mat D).
Notation conv := (conv D).
Context (draw : D -> nat -> D) (junk : nat -> D).

(** the sp x sp window of [f] with top-left corner (i, j) *)
Definition win (sp : nat) (f : nat -> nat -> D) (i j : nat) : mat := mk sp sp (fun u v => f (i + u) (j + v)).
Definition max0 (m : mat) : D := fst (fst (maxval m)).

Lemma pool_dims R C sp st : 1 <= st -> sp <= R -> sp <= C -> ((R - sp) / st + 1) - 1 <= R - sp /\ ((C - sp) / st + 1) - 1 <= C - sp.
Proof. intros. rewrite !Nat.add_sub. split; apply Nat.div_le_upper_bound; nia. Qed.

Lemma meanpool_mk R C (f : nat -> nat -> D) sp st : 1 <= st -> 1 <= sp -> sp <= R -> sp <= C ->
  (Z.of_nat R < 2147483647)%Z -> (Z.of_nat C < 2147483647)%Z -> (Z.of_nat st <= 2147483647)%Z ->
  let ow := (C - sp) / st + 1 in let oh := (R - sp) / st + 1 in
  do_meanpool (Z.of_nat sp) (Z.of_nat st) (mk R C f) = Ok (mk 1 (ow * oh) (fun _ p => meanval (win sp f (p / ow) (p mod ow)))).
Proof.
  intros Hs Hp HR HC B1 B2 B3 ow oh. unfold do_meanpool. cbn [nr nc mk]. rewrite !Nat2Z.id, !out_dim_ok by assumption. fold ow oh. cbn [bind].
  unfold zerosZ. rewrite (proj2 (Z.ltb_ge _ 0)) by lia. cbn [bind]. replace (Z.to_nat (Z.of_nat ow * Z.of_nat oh)) with (ow * oh) by lia. unfold zeros.
  destruct (pool_dims R C sp st Hs HR HC) as [Q1 Q2]. fold ow oh in Q1, Q2.
  unfold zrange. rewrite !Nat2Z.id. rewrite (rows_loop (seq 0 oh) (seq 0 ow) ow oh (fun i j => meanval (win sp f i j))).
  - f_equal. apply mk_ext. intros a p Ha Hq. assert (ow <> 0) by (unfold ow; lia). rewrite !existsb_seq.
    rewrite (proj2 (Nat.ltb_lt (p / ow) oh)) by (apply Nat.div_lt_upper_bound; lia). rewrite (proj2 (Nat.ltb_lt (p mod ow) ow)) by now apply Nat.mod_upper_bound. reflexivity.
  - unfold ow. lia.
  - intros i Hi. apply in_seq in Hi. lia.
  - intros i Hi. apply in_seq in Hi. lia.
  - intros m i j Hi Hj E1 E2. replace (Z.of_nat i + Z.of_nat sp - 1)%Z with (Z.of_nat (i + sp) - 1)%Z by lia. replace (Z.of_nat j + Z.of_nat sp - 1)%Z with (Z.of_nat (j + sp) - 1)%Z by lia.
    rewrite submat_mk by (cbn [nr nc mk]; lia). cbn [bind]. f_equal. f_equal. apply mk_ext. intros u v Hu Hv. now rewrite at_mk by lia.
Qed.

Lemma maxpool_mk R C (f : nat -> nat -> D) sp st : 1 <= st -> 1 <= sp -> sp <= R -> sp <= C ->
  (Z.of_nat R < 2147483647)%Z -> (Z.of_nat C < 2147483647)%Z -> (Z.of_nat st <= 2147483647)%Z ->
  let ow := (C - sp) / st + 1 in let oh := (R - sp) / st + 1 in
  exists idx, do_maxpool (Z.of_nat sp) (Z.of_nat st) (mk R C f) = Ok (mk 1 (ow * oh) (fun _ p => max0 (win sp f (p / ow) (p mod ow))), idx) /\ nr idx = 1 /\ nc idx = ow * oh * 2.
Proof.
  intros Hs Hp HR HC B1 B2 B3 ow oh. unfold do_maxpool. cbn [nr nc mk]. rewrite !Nat2Z.id, !out_dim_ok by assumption. fold ow oh. cbn [bind].
  unfold zerosZ. rewrite !(proj2 (Z.ltb_ge _ 0)) by lia. cbn [bind]. replace (Z.to_nat (Z.of_nat ow * Z.of_nat oh)) with (ow * oh) by lia. replace (Z.to_nat (Z.of_nat ow * Z.of_nat oh * 2)) with (ow * oh * 2) by lia. unfold zeros.
  destruct (pool_dims R C sp st Hs HR HC) as [Q1 Q2]. fold ow oh in Q1, Q2. assert (Hw : 1 <= ow) by (unfold ow; lia).
  match goal with |- context [foldM ?g (zrange (Z.of_nat oh)) ?s] =>
    destruct (foldM_zrange (fun n '(out, idx) => out = mk 1 (ow * oh) (fun _ p => if p <? n * ow then max0 (win sp f (p / ow) (p mod ow)) else d0) /\ nr idx = 1 /\ nc idx = ow * oh * 2) g oh s) as ((out & idx) & -> & -> & N1 & N2) end.
  - split; [|split; reflexivity]. apply mk_ext. intros a p Ha Hq. rewrite (proj2 (Nat.ltb_ge p _)) by lia. reflexivity.
  - intros i (out & idx) Hi (-> & N1 & N2).
    match goal with |- context [foldM ?g (zrange (Z.of_nat ow)) ?s] =>
      destruct (foldM_zrange (fun n '(out, idx) => out = mk 1 (ow * oh) (fun _ p => if p <? i * ow + n then max0 (win sp f (p / ow) (p mod ow)) else d0) /\ nr idx = 1 /\ nc idx = ow * oh * 2) g ow s) as ((out & idx') & -> & -> & M1 & M2) end.
    + split; [|split; assumption]. now rewrite Nat.add_0_r.
    + intros j (out & ix) Hj (-> & M1 & M2). replace (Z.of_nat i + Z.of_nat sp - 1)%Z with (Z.of_nat (i + sp) - 1)%Z by lia. replace (Z.of_nat j + Z.of_nat sp - 1)%Z with (Z.of_nat (j + sp) - 1)%Z by lia.
      rewrite submat_mk by (cbn [nr nc mk]; lia). cbn [bind]. rewrite (mk_ext _ _ _ (fun u v => f (i + u) (j + v))) by (intros; now rewrite at_mk by lia). fold (win sp f i j).
      destruct (maxval (win sp f i j)) as [[v r] cc] eqn:EM. assert (IR : i * ow + j < ow * oh) by nia.
      replace (Z.of_nat i * Z.of_nat ow + Z.of_nat j)%Z with (Z.of_nat (i * ow + j)) by lia. rewrite mset_row by (cbn [nr nc mk]; try reflexivity; lia). cbn [bind nc mk].
      replace (Z.of_nat i * Z.of_nat ow * 2 + Z.of_nat j)%Z with (Z.of_nat (i * ow * 2 + j)) by lia. rewrite mset_row; [|assumption|rewrite M2; nia]. cbn [bind].
      replace (Z.of_nat (i * ow * 2 + j) + 1)%Z with (Z.of_nat (i * ow * 2 + j + 1)) by lia. rewrite mset_row; [|reflexivity|cbn [nc mk]; rewrite M2; nia]. cbn [bind].
      eexists. split; [reflexivity|]. cbn beta iota. split; [|split; [reflexivity|exact M2]]. apply mk_ext. intros a p Ha Hq. rewrite at_mk by (try assumption; lia).
      destruct (Nat.eqb_spec p (i * ow + j)) as [->|Ne].
      * rewrite (proj2 (Nat.ltb_lt _ _)) by lia. rewrite Nat.div_add_l, Nat.div_small, Nat.add_0_r by lia. rewrite Nat.add_comm, Nat.mod_add, Nat.mod_small by lia. unfold max0. now rewrite EM.
      * destruct (Nat.ltb_spec p (i * ow + j)), (Nat.ltb_spec p (i * ow + S j)); try lia; reflexivity.
    + eexists. split; [reflexivity|]. cbn beta iota. split; [|split; assumption]. replace (S i * ow) with (i * ow + ow) by lia. reflexivity.
  - exists idx. split; [|split; assumption]. f_equal. f_equal. apply mk_ext. intros a p Ha Hq. now rewrite (proj2 (Nat.ltb_lt p (oh * ow))) by lia.
Qed.

(** ** Forward passes *)
(** sum over the input channels, starting from 0 *)
Definition chan_sum (nf : nat) (g : nat -> D) : D := fold_left (fun acc ch => dadd acc (g ch)) (seq 0 nf) d0.

Section Layer.
Variables (c : conv) (w h nf sp st : nat) (pa : mat).
Hypothesis dz : deqb (d := D) d0 d0 = true.
Hypothesis SZ : sizes_ok w h sp st 0.
Hypothesis K : conv_ok c w h nf nf sp st 0.
Hypothesis Hpa : nc pa = nf * (w * h).
Let ow := outdim w sp st 0.
Let oh := outdim h sp st 0.

Lemma pool_start : exists imgs0, cube_new junk (cv_ih c + 2 * cv_pad c) (cv_iw c + 2 * cv_pad c) (nr pa) = Ok imgs0 /\ slices_ok w h 0 pa imgs0 /\
  zerosZ (D := D) (nr pa) (Z.of_nat (ow * oh) * cv_nf c) = Ok (mk (nr pa) (ow * oh * nf) (fun _ _ => d0)).
Proof.
  destruct SZ as (Hw & Hh & _). unfold cube_new, zerosZ. rewrite (ok_nf _ _ _ _ _ _ _ _ K), (ok_h _ _ _ _ _ _ _ _ K), (ok_w _ _ _ _ _ _ _ _ K), (ok_pad _ _ _ _ _ _ _ _ K).
  rewrite !(proj2 (Z.ltb_ge _ 0)) by lia. cbn [orb]. eexists. split; [reflexivity|]. split.
  - split; [apply repeat_length|]. apply Forall_forall. intros m Hm. apply repeat_spec in Hm as ->. cbn [nr nc mat_uninit mk]. lia.
  - replace (Z.to_nat (Z.of_nat (ow * oh) * Z.of_nat nf)) with (ow * oh * nf) by lia. reflexivity.
Qed.
Lemma osize_pos : 1 <= ow * oh.
Proof. unfold ow, oh, outdim. nia. Qed.
Definition pimg (ch : nat) : nat -> nat -> D := ppixel pa w h 0 ch.

Lemma meanpool_forward_gen : exists c',
  meanpool_forward junk c pa = Ok (mk (nr pa) (ow * oh * nf) (fun _ q => act (l_act (cv_l c)) (chan_sum nf (fun ch => meanval (win sp (pimg ch) (q mod (ow * oh) / ow) (q mod (ow * oh) mod ow))))), c').
Proof.
  destruct SZ as (Hw & Hh & Hsp & Hst & Hb1 & Hb2 & B1 & B2 & B3). unfold INT_MAX in *. destruct pool_start as (imgs0 & P1 & P2 & P3).
  unfold meanpool_forward. rewrite (ok_os _ _ _ _ _ _ _ _ K). fold ow oh. cbn [rd bind]. rewrite P3, P1. cbn [bind].
  destruct (forward_loop_mk dz w h nf nf 0 (ow * oh) c pa (ok_w _ _ _ _ _ _ _ _ K) (ok_h _ _ _ _ _ _ _ _ K) (ok_pnf _ _ _ _ _ _ _ _ K) (ok_nf _ _ _ _ _ _ _ _ K) (ok_pad _ _ _ _ _ _ _ _ K) Hw Hh osize_pos Hpa
    (fun ch _ p => meanval (win sp (pimg ch) (p / ow) (p mod ow))) (fun sl _ _ => do_meanpool (cv_sp c) (cv_st c) sl)) with (f0 := fun _ _ : nat => d0 (d := D)) (imgs0 := imgs0) as (imgs & E & _).
  - intros ch k Hc Hk. rewrite (ok_sp _ _ _ _ _ _ _ _ K), (ok_st _ _ _ _ _ _ _ _ K). unfold image. rewrite meanpool_mk by (auto; lia). reflexivity.
  - assumption.
  - rewrite E. cbn [bind]. eexists. f_equal. f_equal. unfold funcop, mmap. cbn [nr nc mk]. apply mk_ext. intros i q Hi Hq. rewrite at_mk by assumption. reflexivity.
Qed.

Lemma maxpool_forward_gen idx0 : exists p',
  maxpool_forward junk (MP c idx0) pa = Ok (mk (nr pa) (ow * oh * nf) (fun _ q => act (l_act (cv_l c)) (chan_sum nf (fun ch => max0 (win sp (pimg ch) (q mod (ow * oh) / ow) (q mod (ow * oh) mod ow))))), p').
Proof.
  destruct SZ as (Hw & Hh & Hsp & Hst & Hb1 & Hb2 & B1 & B2 & B3). unfold INT_MAX in *. destruct pool_start as (imgs0 & P1 & P2 & P3). pose proof osize_pos as HO.
  unfold maxpool_forward. cbn [mp_c]. rewrite (ok_os _ _ _ _ _ _ _ _ K). fold ow oh. cbn [rd bind]. rewrite P3, P1. cbn [bind].
  rewrite (proj2 (Z.ltb_ge (Z.of_nat (ow * oh) * 2) 0)) by lia. cbn [bind]. replace (Z.to_nat (Z.of_nat (ow * oh) * 2)) with (ow * oh * 2) by lia.
  pose (B := fun (ch k p : nat) => max0 (win sp (pimg ch) (p / ow) (p mod ow))).
  match goal with |- context [foldM ?g (seq 0 (nr pa)) ?s] =>
  destruct (foldM_seq (fun n '(a, imgs, idx) => a = mk (nr pa) (ow * oh * nf) (fun i q => if i <? n then acc_ch B d0 (q / (ow * oh)) (q mod (ow * oh)) nf else d0) /\
      slices_ok w h 0 pa imgs /\ nr idx = nr pa /\ nc idx = ow * oh * 2) g (nr pa) s) as (((a & imgs) & idx) & -> & E & _) end.
  - split; [reflexivity|]. split; [assumption|split; reflexivity].
  - intros i ((a & imgs) & idx) Hi (-> & SI & N1 & N2).
    match goal with |- context [foldM ?g (zrange (cv_pnf c)) ?s] => rewrite (ok_pnf _ _ _ _ _ _ _ _ K);
    destruct (foldM_zrange (fun n '(a, im, idx) => a = mk (nr pa) (ow * oh * nf) (fun i' q => if i' <? i then acc_ch B d0 (q / (ow * oh)) (q mod (ow * oh)) nf else
         if i' =? i then acc_ch B d0 (q / (ow * oh)) (q mod (ow * oh)) n else d0) /\ slices_ok w h 0 pa im /\ nr idx = nr pa /\ nc idx = ow * oh * 2) g nf s) as (((a & im) & ix) & -> & E & S1 & S2 & S3) end.
    + split; [|split; [assumption|split; assumption]]. apply mk_ext. intros i' q Hi' Hq. unfold acc_ch at 3. cbn [seq fold_left]. destruct (i' <? i), (i' =? i); reflexivity.
    + intros j ((a & im) & ix) Hj (-> & S1 & S2 & S3).
      destruct (image_ok dz w h nf nf 0 (ow * oh) c pa (ok_w _ _ _ _ _ _ _ _ K) (ok_h _ _ _ _ _ _ _ _ K) (ok_pad _ _ _ _ _ _ _ _ K) Hw Hh HO Hpa j Hj ltac:(lia)) as [T1 T2]. rewrite T1. cbn [bind]. rewrite T2. cbn [bind].
      destruct (set_slice_ok w h nf nf 0 (ow * oh) pa Hw Hh HO Hpa im i j S1 Hi) as (U1 & U2 & U3). rewrite U1. cbn [bind]. unfold slice. rewrite U3. cbn [bind]. rewrite (ok_nf _ _ _ _ _ _ _ _ K), (ok_sp _ _ _ _ _ _ _ _ K), (ok_st _ _ _ _ _ _ _ _ K).
      destruct (maxpool_mk (h + 2 * 0) (w + 2 * 0) (padded 0 h w (pixel pa w h j)) sp st) as (index & X1 & X2 & X3); [assumption|assumption|assumption|assumption|assumption|assumption|assumption|].
      fold (image w h 0 pa j) in X1. rewrite X1. cbn [bind]. change ((w + 2 * 0 - sp) / st + 1) with ow in *. change ((h + 2 * 0 - sp) / st + 1) with oh in *.
      match goal with |- context [foldM ?g (zrange (Z.of_nat nf)) ?s] =>
        destruct (foldM_zrange (fun n '(a, idx) => a = mk (nr pa) (ow * oh * nf) (fun i' q => if i' <? i then acc_ch B d0 (q / (ow * oh)) (q mod (ow * oh)) nf else
           if i' =? i then (if q <? n * (ow * oh) then acc_ch B d0 (q / (ow * oh)) (q mod (ow * oh)) (S j) else acc_ch B d0 (q / (ow * oh)) (q mod (ow * oh)) j) else d0) /\ nr idx = nr pa /\ nc idx = ow * oh * 2) g nf s) as ((a' & ix') & -> & E' & V1 & V2) end.
      * split; [|split; assumption]. apply mk_ext. intros i' q Hi' Hq. rewrite (proj2 (Nat.ltb_ge q _)) by lia. reflexivity.
      * intros k (a' & ix') Hk (-> & V1 & V2). cbn beta iota.
        replace (Z.of_nat k * Z.of_nat (ow * oh))%Z with (Z.of_nat (k * (ow * oh))) by lia. replace ((Z.of_nat k + 1) * Z.of_nat (ow * oh) - 1)%Z with (Z.of_nat (k * (ow * oh) + ow * oh) - 1)%Z by lia.
        assert (LL : k * (ow * oh) + ow * oh <= ow * oh * nf) by (set (m := ow * oh) in *; replace (k * m + m) with (m * (k + 1)) by lia; apply Nat.mul_le_mono_l; lia).
        rewrite set_row_mk; try reflexivity; cbn [nr nc mk]; try assumption. cbn [bind].
        change 0%Z with (Z.of_nat 0). replace (Z.of_nat (ow * oh) * 2 - 1)%Z with (Z.of_nat (0 + ow * oh * 2) - 1)%Z by lia.
        rewrite set_row_mk; [|lia|lia|lia|assumption|assumption]. cbn [bind]. eexists. split; [reflexivity|]. cbn beta iota. split; [|split; assumption].
        apply mk_ext. intros i' q Hi' Hq. rewrite at_mk by assumption. destruct (Nat.eqb_spec i' i) as [->|Ne]; cbn [andb]; [|reflexivity]. rewrite Nat.ltb_irrefl.
        replace (S k * (ow * oh)) with (k * (ow * oh) + ow * oh) by lia. set (m := ow * oh) in *. destruct (Nat.leb_spec (k * m) q) as [L1|L1]; cbn [andb].
        -- rewrite (proj2 (Nat.ltb_ge q (k * m))) by lia. destruct (Nat.ltb_spec q (k * m + m)) as [L2|L2]; [|reflexivity]. rewrite at_mk by lia.
           assert (Em : q mod m = q - k * m) by (replace q with ((q - k * m) + k * m) at 1 by lia; rewrite Nat.mod_add, Nat.mod_small by lia; reflexivity).
           unfold acc_ch. rewrite seq_S, fold_left_app. cbn [fold_left]. rewrite <- Em. reflexivity.
        -- rewrite (proj2 (Nat.ltb_lt q (k * m))) by lia. rewrite (proj2 (Nat.ltb_lt q (k * m + m))) by lia. reflexivity.
      * cbn [bind]. eexists. split; [reflexivity|]. cbn beta iota. split; [|split; [assumption|split; assumption]]. rewrite E'. apply mk_ext. intros i' q Hi' Hq.
        destruct (i' <? i); [reflexivity|]. destruct (i' =? i); [|reflexivity]. rewrite (proj2 (Nat.ltb_lt q (nf * (ow * oh)))) by lia. reflexivity.
    + eexists. split; [reflexivity|]. cbn beta iota. split; [|split; [assumption|split; assumption]].
      rewrite E. apply mk_ext. intros i' q Hi' Hq. destruct (Nat.ltb_spec i' (S i)), (Nat.ltb_spec i' i), (Nat.eqb_spec i' i); try lia; reflexivity.
  - cbn [bind]. eexists. f_equal. f_equal. rewrite E. unfold funcop, mmap. cbn [nr nc mk]. apply mk_ext. intros i q Hi Hq. rewrite at_mk by assumption. rewrite (proj2 (Nat.ltb_lt i (nr pa))) by assumption. reflexivity.
Qed.
End Layer.
End Gen.

(** * C52, over the reals *)
Lemma ppixel0 (x : mat Rdt) w h ch a b : a < h -> b < w -> ppixel x w h 0 ch a b = pixel x w h ch a b.
Proof. intros Ha Hb. unfold ppixel, padded. rewrite (proj2 (Nat.leb_le 0 a)), (proj2 (Nat.leb_le 0 b)), (proj2 (Nat.ltb_lt a _)), (proj2 (Nat.ltb_lt b _)) by lia. cbn [andb]. now rewrite !Nat.sub_0_r. Qed.

(** [v] is the maximum of 0 and the values f u v, u, v < n *)
Definition is_max0 (n : nat) (f : nat -> nat -> R) (v : R) : Prop :=
  (0 <= v)%R /\ (forall a b, a < n -> b < n -> (f a b <= v)%R) /\ (v = 0%R \/ exists a b, a < n /\ b < n /\ v = f a b).
Lemma max0_spec n f : is_max0 n f (max0 (D := Rdt) (mk (D := Rdt) n n f)).
Proof.
  unfold max0, maxval. cbn [nr nc mk].
  assert (G : forall (L : list (nat * nat)) (b : R) (r c : Z), (forall ij, In ij L -> fst ij < n /\ snd ij < n) -> (0 <= b)%R -> (b = 0%R \/ exists a a', a < n /\ a' < n /\ b = f a a') ->
    let v := fst (fst (fold_left (fun '(best, r, c) '(i, j) => if dltb (d := Rdt) best (at_ (mk (D := Rdt) n n f) i j) then (at_ (mk (D := Rdt) n n f) i j, Z.of_nat i, Z.of_nat j) else (best, r, c)) L (b, r, c))) in
    (0 <= v)%R /\ (b <= v)%R /\ (forall ij, In ij L -> (f (fst ij) (snd ij) <= v)%R) /\ (v = 0%R \/ exists a a', a < n /\ a' < n /\ v = f a a')).
  { induction L as [|[i j] L IH]; intros b r c HL H0 Hb; cbn [fold_left].
    - cbn. split; [assumption|]. split; [lra|]. split; [intros ij []|assumption].
    - destruct (HL (i, j) (or_introl eq_refl)) as [Hi Hj]. cbn in Hi, Hj. rewrite at_mk by assumption. cbn [dltb Rdt]. unfold Rltb'. destruct (Rlt_dec b (f i j)) as [Lt|Ge].
      + destruct (IH (f i j) (Z.of_nat i) (Z.of_nat j) (fun q Hq => HL q (or_intror Hq))) as (A1 & A2 & A3 & A4); [lra|right; exists i, j; auto|].
        split; [assumption|]. split; [refine (Rle_trans _ (f i j) _ _ A2); lra|]. split; [|assumption]. intros ij [<- | Hij]; [exact A2|now apply A3].
      + destruct (IH b r c (fun q Hq => HL q (or_intror Hq)) H0 Hb) as (A1 & A2 & A3 & A4). split; [assumption|]. split; [assumption|]. split; [|assumption].
        intros ij [<- | Hij]; [cbn [fst snd]; refine (Rle_trans _ b _ _ A2); lra|now apply A3]. }
  destruct (G (rowmajor n n) 0%R 0%Z 0%Z) as (A1 & _ & A3 & A4); [|lra|now left|].
  - intros ij Hij. unfold rowmajor in Hij. apply in_flat_map in Hij as (i & Hi & Hj). apply in_map_iff in Hj as (j & <- & Hj). apply in_seq in Hi, Hj. cbn. lia.
  - split; [exact A1|]. split; [|exact A4]. intros a b Ha Hb. apply (A3 (a, b)). unfold rowmajor. apply in_flat_map. exists a. split; [apply in_seq; lia|]. apply in_map_iff. exists b. split; [reflexivity|apply in_seq; lia].
Qed.
Lemma meanval_R n f : meanval (D := Rdt) (mk (D := Rdt) n n f) = (sumN n (fun u => sumN n (fun v => f u v)) / INR n / INR n)%R.
Proof.
  unfold meanval. cbn [nr nc mk ddiv Rdt dofZ]. rewrite <- !INR_IZR_INZ. f_equal. f_equal.
  rewrite (fold_left_sum (fun ij => at_ (mk (D := Rdt) n n f) (fst ij) (snd ij))). rewrite Rplus_0_l. unfold rowmajor, sumN.
  assert (G : forall L, (forall i, In i L -> i < n) -> sumL (map (fun ij => at_ (mk (D := Rdt) n n f) (fst ij) (snd ij)) (flat_map (fun i => map (fun j => (i, j)) (seq 0 n)) L)) = sumL (map (fun u => sumL (map (fun v => f u v) (seq 0 n))) L)).
  { induction L as [|i L IH]; intros HL; [reflexivity|]. cbn [flat_map map]. rewrite map_app, sumL_app, IH by (intros; apply HL; now right). cbn [sumL fold_right]. fold (sumL (map (fun u => sumL (map (fun v => f u v) (seq 0 n))) L)). f_equal.
    rewrite map_map. apply sumL_map_ext. intros j Hj. apply in_seq in Hj. cbn [fst snd]. apply (at_mk (D := Rdt)); [apply HL; now left|lia]. }
  apply G. intros i Hi. apply in_seq in Hi. lia.
Qed.
Lemma dzR : deqb (d := Rdt) d0 d0 = true.
Proof. cbn. unfold Reqb'. destruct (Req_EM_T 0 0); [reflexivity|contradiction]. Qed.

Section Pools.
Variables (draw : R -> nat -> R) (junk : nat -> R).
(** A pooling layer for [nf] channels of w x h pixels with sp x sp windows and stride [st], on any batch [x]: output
    channel k (whatever k) at (i, j) is the SUM over all input channels of the pooled window whose corner is (i, j) - not
    (i*st, j*st).  The pixels are those of the whole batch (see [pixel]): every row of the output is the same. *)
Theorem C52_max : forall w h nf sp st p idx (x : mat Rdt), sizes_ok w h sp st 0 ->
  maxpool_new (D := Rdt) draw junk (Z.of_nat w) (Z.of_nat h) (Z.of_nat nf) (Z.of_nat sp) (Z.of_nat st) = Ok p -> nc x = nf * (w * h) ->
  let ow := (w - sp) / st + 1 in let oh := (h - sp) / st + 1 in
  exists out p', maxpool_forward (D := Rdt) junk (MP (mp_c p) idx) x = Ok (out, p') /\ nr out = nr x /\ nc out = nf * (ow * oh) /\
  exists M : nat -> nat -> nat -> R, (forall ch i j, ch < nf -> i < oh -> j < ow -> is_max0 sp (fun u v => pixel x w h ch (i + u) (j + v)) (M ch i j)) /\
    forall r k i j, r < nr x -> k < nf -> i < oh -> j < ow -> at_ out r (k * (ow * oh) + (i * ow + j)) = sumN nf (fun ch => M ch i j).
Proof.
  intros w h nf sp st p idx x SZ E Hx ow oh. unfold maxpool_new in E. destruct (conv_new_ok (D := Rdt) draw junk w h nf nf sp st 0 (dofZ (d := Rdt) 0) identity SZ) as (c & Ec & K & KA & _).
  change (Z.of_nat 0) with 0%Z in Ec. rewrite Ec in E. cbn [bind] in E. injection E as <-. cbn [mp_c].
  destruct (maxpool_forward_gen (D := Rdt) junk c w h nf sp st x dzR SZ K Hx idx) as (p' & Ef). exists (mk (D := Rdt) (nr x) (ow * oh * nf) (fun _ q => sumN nf (fun ch => max0 (D := Rdt) (win sp (pimg w h x ch) (q mod (ow * oh) / ow) (q mod (ow * oh) mod ow))))), p'.
  assert (Eow : outdim w sp st 0 = ow) by (unfold outdim; now rewrite Nat.mul_0_r, Nat.add_0_r). assert (Eoh : outdim h sp st 0 = oh) by (unfold outdim; now rewrite Nat.mul_0_r, Nat.add_0_r).
  rewrite Eow, Eoh in Ef. split.
  { rewrite Ef. f_equal. f_equal. apply mk_ext. intros i q Hi Hq. rewrite KA.
    exact (eq_trans (fold_left_sum (fun ch => max0 (D := Rdt) (win sp (pimg w h x ch) (q mod (ow * oh) / ow) (q mod (ow * oh) mod ow))) (seq 0 nf) 0%R) (Rplus_0_l _)). }
  split; [reflexivity|]. split; [cbn; lia|].
  exists (fun ch i j => max0 (D := Rdt) (win sp (pimg w h x ch) i j)). split.
  - intros ch i j Hch Hi Hj. unfold win, pimg. erewrite mk_ext; [apply max0_spec|]. intros u v Hu Hv. apply ppixel0.
    + destruct SZ as (_ & _ & _ & Hst & _ & Hb2 & _). destruct (pool_dims h h sp st) as [Q _]; [assumption|lia|lia|]. fold oh in Q. lia.
    + destruct SZ as (_ & _ & _ & Hst & Hb1 & _). destruct (pool_dims w w sp st) as [Q _]; [assumption|lia|lia|]. fold ow in Q. lia.
  - intros r k i j Hr Hk Hi Hj. destruct (position ow oh k i j Hi Hj) as (P1 & P2 & P3). rewrite at_mk; [|assumption|now apply in_range]. now rewrite P2, P3.
Qed.
Theorem C52_mean : forall w h nf sp st c (x : mat Rdt), sizes_ok w h sp st 0 ->
  meanpool_new (D := Rdt) draw junk (Z.of_nat w) (Z.of_nat h) (Z.of_nat nf) (Z.of_nat sp) (Z.of_nat st) = Ok c -> nc x = nf * (w * h) ->
  let ow := (w - sp) / st + 1 in let oh := (h - sp) / st + 1 in
  exists out c', meanpool_forward (D := Rdt) junk c x = Ok (out, c') /\ nr out = nr x /\ nc out = nf * (ow * oh) /\
    forall r k i j, r < nr x -> k < nf -> i < oh -> j < ow -> at_ out r (k * (ow * oh) + (i * ow + j)) =
      sumN nf (fun ch => sumN sp (fun u => sumN sp (fun v => pixel x w h ch (i + u) (j + v))) / INR sp / INR sp)%R.
Proof.
  intros w h nf sp st c x SZ E Hx ow oh. unfold meanpool_new in E. destruct (conv_new_ok (D := Rdt) draw junk w h nf nf sp st 0 (dofZ (d := Rdt) 0) identity SZ) as (c0 & Ec & K & KA & _).
  change (Z.of_nat 0) with 0%Z in Ec. rewrite Ec in E. injection E as <-.
  destruct (meanpool_forward_gen (D := Rdt) junk c0 w h nf sp st x dzR SZ K Hx) as (c' & Ef). eexists. exists c'.
  assert (Eow : outdim w sp st 0 = ow) by (unfold outdim; now rewrite Nat.mul_0_r, Nat.add_0_r). assert (Eoh : outdim h sp st 0 = oh) by (unfold outdim; now rewrite Nat.mul_0_r, Nat.add_0_r).
  rewrite Eow, Eoh in Ef. split; [exact Ef|]. split; [reflexivity|]. split; [cbn; lia|].
  intros r k i j Hr Hk Hi Hj. destruct (position ow oh k i j Hi Hj) as (P1 & P2 & P3). rewrite at_mk; [|assumption|now apply in_range]. rewrite P2, P3, KA.
  refine (eq_trans (eq_trans (fold_left_sum (fun ch => meanval (D := Rdt) (win sp (pimg w h x ch) i j)) (seq 0 nf) 0%R) (Rplus_0_l _)) _). unfold sumN at 1. apply sumL_map_ext. intros ch Hch. apply in_seq in Hch.
  unfold win, pimg. rewrite (mk_ext (D := Rdt) sp sp _ (fun u v => pixel x w h ch (i + u) (j + v))); [apply meanval_R|]. intros u v Hu Hv. apply ppixel0.
  + destruct SZ as (_ & _ & _ & Hst & _ & Hb2 & _). destruct (pool_dims h h sp st) as [Q _]; [assumption|lia|lia|]. fold oh in Q. lia.
  + destruct SZ as (_ & _ & _ & Hst & Hb1 & _). destruct (pool_dims w w sp st) as [Q _]; [assumption|lia|lia|]. fold ow in Q. lia.
Qed.
(** One sample, one channel: max(0, window) and the window's mean. *)
Theorem C52_single : forall w h sp st p c idx (x : mat Rdt), sizes_ok w h sp st 0 -> nr x = 1 -> nc x = w * h ->
  maxpool_new (D := Rdt) draw junk (Z.of_nat w) (Z.of_nat h) 1 (Z.of_nat sp) (Z.of_nat st) = Ok p ->
  meanpool_new (D := Rdt) draw junk (Z.of_nat w) (Z.of_nat h) 1 (Z.of_nat sp) (Z.of_nat st) = Ok c ->
  let ow := (w - sp) / st + 1 in let oh := (h - sp) / st + 1 in
  exists mx p' mn c', maxpool_forward (D := Rdt) junk (MP (mp_c p) idx) x = Ok (mx, p') /\ meanpool_forward (D := Rdt) junk c x = Ok (mn, c') /\
    forall i j, i < oh -> j < ow -> is_max0 sp (fun u v => at_ x 0 ((j + v) * h + (i + u))) (at_ mx 0 (i * ow + j)) /\
      at_ mn 0 (i * ow + j) = (sumN sp (fun u => sumN sp (fun v => at_ x 0 ((j + v) * h + (i + u)))) / INR sp / INR sp)%R.
Proof.
  intros w h sp st p c idx x SZ E1 E2 Ep Ec ow oh. destruct (C52_max w h 1 sp st p idx x SZ Ep ltac:(lia)) as (mx & p' & F1 & _ & _ & M & HM & G1). destruct (C52_mean w h 1 sp st c x SZ Ec ltac:(lia)) as (mn & c' & F2 & _ & _ & G2).
  exists mx, p', mn, c'. split; [exact F1|]. split; [exact F2|]. intros i j Hi Hj. specialize (G1 0 0 i j ltac:(lia) ltac:(lia) Hi Hj). specialize (G2 0 0 i j ltac:(lia) ltac:(lia) Hi Hj). cbn [Nat.mul Nat.add] in G1, G2.
  fold ow oh in G1, G2. rewrite G1, G2. clear G1 G2. unfold sumN at 1 2. cbn [seq map sumL fold_right]. rewrite !Rplus_0_r. split.
  - destruct (HM 0 i j ltac:(lia) Hi Hj) as (A & B & C). split; [exact A|]. split.
    + intros a b Ha Hb. specialize (B a b Ha Hb). now rewrite pixel_single in B by assumption.
    + destruct C as [C|(a & b & Ha & Hb & C)]; [now left|]. right. exists a, b. split; [assumption|]. split; [assumption|]. now rewrite pixel_single in C by assumption.
  - f_equal. f_equal. apply sumN_ext. intros u Hu. apply sumN_ext. intros v Hv. now rewrite pixel_single by assumption.
Qed.
End Pools.

(** A 3 x 3 image, 2 x 2 windows, two channels; all-negative windows give 0, channels are summed. *)
Definition pool2 (x : mat Zdt) : option (list Z) := match maxpool_new (D := Zdt) (fun _ k => Z.of_nat k) zj 3 3 2 2 1 with Ok p => match maxpool_forward (D := Zdt) zj p x with Ok (o, _) => Some (el o) | _ => None end | _ => None end.
Example C52_example : pool2 (Mat (D := Zdt) 1 18 ([1; 2; 3; 4; 5; 6; 7; 8; 9] ++ [-1; -1; -1; -1; -1; -1; -1; -1; 10])%Z) = Some [5; 8; 6; 19; 5; 8; 6; 19]%Z.
Proof. vm_compute. reflexivity. Qed.
Example C52_hypotheses : sizes_ok 3 3 2 1 0 /\ forall (draw : R -> nat -> R) (junk : nat -> R), exists p, maxpool_new (D := Rdt) draw junk (Z.of_nat 3) (Z.of_nat 3) (Z.of_nat 2) (Z.of_nat 2) (Z.of_nat 1) = Ok p.
Proof.
  assert (SZ : sizes_ok 3 3 2 1 0) by (unfold sizes_ok, INT_MAX; lia). split; [exact SZ|]. intros draw junk. unfold maxpool_new.
  destruct (conv_new_ok (D := Rdt) draw junk 3 3 2 2 2 1 0 (dofZ (d := Rdt) 0) identity SZ) as (c & E & _). change (Z.of_nat 0) with 0%Z in E. rewrite E. eexists. reflexivity.
Qed.
(** Stride 2 on a 4 x 4 image: the four windows start at (0,0), (0,1), (1,0), (1,1) instead of (0,0), (0,2), (2,0), (2,2). *)
Definition pool3 (x : mat Zdt) : option (list Z) := match maxpool_new (D := Zdt) (fun _ k => Z.of_nat k) zj 4 4 1 2 2 with Ok p => match maxpool_forward (D := Zdt) zj p x with Ok (o, _) => Some (el o) | _ => None end | _ => None end.
Example C52_stride_example : pool3 (Mat (D := Zdt) 1 16 (map Z.of_nat (seq 1 16))) = Some [6; 10; 7; 11]%Z.
Proof. vm_compute. reflexivity. Qed.

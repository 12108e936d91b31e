(** P_ConvB.v - C59: the convolution layer's backward pass; C60: the pooling layers' backward passes. *)
From Coq Require Import Reals Lra.
From Verif Require Import Base Mat Act Layer Conv Misc Net NetP RInst RMat ConvP P_Conv P_Pool.
From Coq Require Import Arith.
Local Open Scope nat_scope.

Section Gen.
Context {D : dtype}.
Notation mat := (mat D).
Notation conv := (conv D).
Context (draw : D -> nat -> D) (junk : nat -> D).

(** m.submat(block of p x q at (a, b)) += s *)
Lemma set_block_mk (r c : nat) (f s : nat -> nat -> D) op a b p q : 1 <= p -> 1 <= q -> a + p <= r -> b + q <= c ->
  set_submat op (mk r c f) (Z.of_nat a) (Z.of_nat b) (Z.of_nat (a + p) - 1) (Z.of_nat (b + q) - 1) (mk p q s) =
  Ok (mk r c (fun i j => if (a <=? i) && (i <? a + p) && (b <=? j) && (j <? b + q) then op (f i j) (s (i - a) (j - b)) else f i j)).
Proof.
  intros Hp Hq Ha Hb. unfold set_submat. rewrite sub_ok_nat by (cbn [nr nc mk]; lia). cbn [nr nc mk].
  rewrite (proj2 (Nat.eqb_eq _ p)) by lia. rewrite (proj2 (Nat.eqb_eq _ q)) by lia. cbn [andb]. f_equal. apply mk_ext. intros i j Hi Hj. rewrite !Nat2Z.id.
  replace (i <=? Z.to_nat (Z.of_nat (a + p) - 1)) with (i <? a + p) by (destruct (Nat.ltb_spec i (a + p)), (Nat.leb_spec i (Z.to_nat (Z.of_nat (a + p) - 1))); lia || reflexivity).
  replace (j <=? Z.to_nat (Z.of_nat (b + q) - 1)) with (j <? b + q) by (destruct (Nat.ltb_spec j (b + q)), (Nat.leb_spec j (Z.to_nat (Z.of_nat (b + q) - 1))); lia || reflexivity).
  rewrite at_mk by assumption.
  destruct (Nat.leb_spec a i), (Nat.ltb_spec i (a + p)), (Nat.leb_spec b j), (Nat.ltb_spec j (b + q)); cbn [andb]; try reflexivity. rewrite at_mk by lia. reflexivity.
Qed.

(** ** The three nested loops of backprop, for any contribution to the gradient block (G) and to delta (E) *)
Section BLoop.
Variables (R nf pnf sp isize : nat) (G : nat -> nat -> nat -> nat -> nat -> D) (E : nat -> nat -> nat -> nat -> D).
Variables (pgf pdf : nat -> Z -> Z -> res mat).
Hypotheses (Hsp : 1 <= sp) (His : 1 <= isize).
Hypothesis Hg : forall i k j, i < R -> k < nf -> j < pnf -> pgf i (Z.of_nat k) (Z.of_nat j) = Ok (mk sp sp (G i k j)).
Hypothesis Hd : forall i k j, i < R -> k < nf -> j < pnf -> pdf i (Z.of_nat k) (Z.of_nat j) = Ok (mk 1 isize (fun _ p => E i k j p)).
Notation SP := (Z.of_nat sp).
Notation IS := (Z.of_nat isize).

Definition bstep (i : nat) (k : Z) : mat * mat -> Z -> res (mat * mat) := fun '(delta, grad) j =>
  pg <- pgf i k j ;;
  grad' <- set_submat dadd grad (j * SP) (k * SP) ((j + 1) * SP - 1) ((k + 1) * SP - 1) pg ;;
  pd <- pdf i k j ;;
  delta' <- set_submat dadd delta (Z.of_nat i) (j * IS) (Z.of_nat i) ((j + 1) * IS - 1) pd ;;
  Ok (delta', grad').

Definition st (fd fg : nat -> nat -> D) : mat * mat := (mk R (isize * pnf) fd, mk (sp * pnf) (sp * nf) fg).
Lemma st_ext fd fg fd' fg' : (forall i q, i < R -> q < isize * pnf -> fd i q = fd' i q) -> (forall a b, a < sp * pnf -> b < sp * nf -> fg a b = fg' a b) -> st fd fg = st fd' fg'.
Proof. intros H1 H2. unfold st. f_equal; apply mk_ext; assumption. Qed.

Lemma divmod_block b k m : 1 <= m -> b / m = k <-> k * m <= b < k * m + m.
Proof.
  intros Hm. split.
  - intros <-. pose proof (Nat.div_mod b m ltac:(lia)) as X. pose proof (Nat.mod_upper_bound b m ltac:(lia)). lia.
  - intros H. symmetry. apply (Nat.div_unique b m k (b - k * m)); lia.
Qed.
Lemma mod_block b k m : 1 <= m -> k * m <= b < k * m + m -> b mod m = b - k * m.
Proof. intros Hm H. symmetry. apply (Nat.mod_unique b m k); lia. Qed.
Lemma div_ltb b k m : 1 <= m -> (b / m <? k) = (b <? k * m).
Proof.
  intros Hm. pose proof (Nat.div_mod b m ltac:(lia)) as X. pose proof (Nat.mod_upper_bound b m ltac:(lia)).
  destruct (Nat.ltb_spec (b / m) k), (Nat.ltb_spec b (k * m)); try reflexivity; exfalso; nia.
Qed.

Lemma step_mk i k j fd fg : i < R -> k < nf -> j < pnf -> bstep i (Z.of_nat k) (st fd fg) (Z.of_nat j) =
  Ok (st (fun i' q => if (i' =? i) && (q / isize =? j) then dadd (fd i' q) (E i k j (q mod isize)) else fd i' q)
         (fun a b => if (a / sp =? j) && (b / sp =? k) then dadd (fg a b) (G i k j (a mod sp) (b mod sp)) else fg a b)).
Proof.
  intros Hi Hk Hj. unfold bstep, st. rewrite Hg by assumption. cbn [bind].
  replace (Z.of_nat j * SP)%Z with (Z.of_nat (j * sp)) by lia. replace (Z.of_nat k * SP)%Z with (Z.of_nat (k * sp)) by lia.
  replace ((Z.of_nat j + 1) * SP - 1)%Z with (Z.of_nat (j * sp + sp) - 1)%Z by lia. replace ((Z.of_nat k + 1) * SP - 1)%Z with (Z.of_nat (k * sp + sp) - 1)%Z by lia.
  rewrite set_block_mk by nia. cbn [bind]. rewrite Hd by assumption. cbn [bind].
  replace (Z.of_nat j * IS)%Z with (Z.of_nat (j * isize)) by lia. replace ((Z.of_nat j + 1) * IS - 1)%Z with (Z.of_nat (j * isize + isize) - 1)%Z by lia.
  rewrite set_row_mk; cbn [nr nc mk]; [|lia|lia|nia|reflexivity|reflexivity]. cbn [bind]. f_equal. f_equal.
  - apply mk_ext. intros i' q Hi' Hq. rewrite at_mk by assumption. destruct (Nat.eqb_spec i' i) as [->|]; cbn [andb]; [|reflexivity].
    destruct (Nat.eqb_spec (q / isize) j) as [e|n].
    + pose proof (proj1 (divmod_block q j isize His) e) as B. rewrite (proj2 (Nat.leb_le _ _)), (proj2 (Nat.ltb_lt _ _)) by lia. cbn [andb]. rewrite at_mk by lia. rewrite (mod_block q j isize) by lia. reflexivity.
    + destruct (Nat.leb_spec (j * isize) q), (Nat.ltb_spec q (j * isize + isize)); cbn [andb]; try reflexivity. exfalso. apply n. apply divmod_block; lia.
  - apply mk_ext. intros a b Ha Hb.
    destruct (Nat.eqb_spec (a / sp) j) as [e|n]; [destruct (Nat.eqb_spec (b / sp) k) as [e'|n']|]; cbn [andb].
    + pose proof (proj1 (divmod_block a j sp Hsp) e) as B. pose proof (proj1 (divmod_block b k sp Hsp) e') as B'.
      rewrite !(proj2 (Nat.leb_le _ _)), !(proj2 (Nat.ltb_lt _ _)) by lia. cbn [andb]. rewrite (mod_block a j sp), (mod_block b k sp) by lia. reflexivity.
    + destruct (Nat.leb_spec (k * sp) b), (Nat.ltb_spec b (k * sp + sp)); rewrite ?andb_false_r; cbn [andb]; try reflexivity. exfalso. apply n'. apply divmod_block; lia.
    + destruct (Nat.leb_spec (j * sp) a), (Nat.ltb_spec a (j * sp + sp)); cbn [andb]; try reflexivity. exfalso. apply n. apply divmod_block; lia.
Qed.
Lemma jloop_mk i k fd fg : i < R -> k < nf -> foldM (bstep i (Z.of_nat k)) (zrange (Z.of_nat pnf)) (st fd fg) =
  Ok (st (fun i' q => if i' =? i then dadd (fd i' q) (E i k (q / isize) (q mod isize)) else fd i' q)
         (fun a b => if b / sp =? k then dadd (fg a b) (G i k (a / sp) (a mod sp) (b mod sp)) else fg a b)).
Proof.
  intros Hi Hk.
  destruct (foldM_zrange (fun n s => s = st (fun i' q => if (i' =? i) && (q / isize <? n) then dadd (fd i' q) (E i k (q / isize) (q mod isize)) else fd i' q)
     (fun a b => if (a / sp <? n) && (b / sp =? k) then dadd (fg a b) (G i k (a / sp) (a mod sp) (b mod sp)) else fg a b)) (bstep i (Z.of_nat k)) pnf (st fd fg)) as (s & -> & ->).
  - apply st_ext; intros; [now rewrite andb_false_r|reflexivity].
  - intros j s Hj ->. rewrite step_mk by assumption. eexists. split; [reflexivity|]. apply st_ext.
    + intros i' q Hi' Hq. destruct (Nat.eqb_spec i' i); cbn [andb]; [|reflexivity]. destruct (Nat.eqb_spec (q / isize) j) as [->|].
      * rewrite Nat.ltb_irrefl, (proj2 (Nat.ltb_lt j (S j))) by lia. reflexivity.
      * destruct (Nat.ltb_spec (q / isize) j), (Nat.ltb_spec (q / isize) (S j)); try lia; reflexivity.
    + intros a b Ha Hb. destruct (Nat.eqb_spec (a / sp) j) as [->|].
      * rewrite Nat.ltb_irrefl, (proj2 (Nat.ltb_lt j (S j))) by lia. cbn [andb]. reflexivity.
      * cbn [andb]. destruct (Nat.ltb_spec (a / sp) j), (Nat.ltb_spec (a / sp) (S j)); try lia; reflexivity.
  - f_equal. apply st_ext.
    + intros i' q Hi' Hq. rewrite div_ltb by lia. rewrite (proj2 (Nat.ltb_lt q _)) by lia. now rewrite andb_true_r.
    + intros a b Ha Hb. rewrite div_ltb by lia. rewrite (proj2 (Nat.ltb_lt a _)) by lia. reflexivity.
Qed.
Definition foldk (v : D) (g : nat -> D) (n : nat) : D := fold_left (fun acc k => dadd acc (g k)) (seq 0 n) v.
Lemma foldk_S v g n : foldk v g (S n) = dadd (foldk v g n) (g n).
Proof. unfold foldk. rewrite seq_S, fold_left_app. reflexivity. Qed.
Lemma kloop_mk i fd fg : i < R -> foldM (fun s k => foldM (bstep i k) (zrange (Z.of_nat pnf)) s) (zrange (Z.of_nat nf)) (st fd fg) =
  Ok (st (fun i' q => if i' =? i then foldk (fd i' q) (fun k => E i k (q / isize) (q mod isize)) nf else fd i' q)
         (fun a b => dadd (fg a b) (G i (b / sp) (a / sp) (a mod sp) (b mod sp)))).
Proof.
  intros Hi.
  destruct (foldM_zrange (fun n s => s = st (fun i' q => if i' =? i then foldk (fd i' q) (fun k => E i k (q / isize) (q mod isize)) n else fd i' q)
     (fun a b => if b / sp <? n then dadd (fg a b) (G i (b / sp) (a / sp) (a mod sp) (b mod sp)) else fg a b)) (fun s k => foldM (bstep i k) (zrange (Z.of_nat pnf)) s) nf (st fd fg)) as (s & -> & ->).
  - apply st_ext; intros; [destruct (_ =? _); reflexivity|reflexivity].
  - intros k s Hk ->. rewrite jloop_mk by assumption. eexists. split; [reflexivity|]. apply st_ext.
    + intros i' q Hi' Hq. destruct (Nat.eqb_spec i' i) as [->|]; [|reflexivity]. now rewrite foldk_S.
    + intros a b Ha Hb. destruct (Nat.eqb_spec (b / sp) k) as [->|].
      * rewrite Nat.ltb_irrefl, (proj2 (Nat.ltb_lt k (S k))) by lia. reflexivity.
      * destruct (Nat.ltb_spec (b / sp) k), (Nat.ltb_spec (b / sp) (S k)); try lia; reflexivity.
  - f_equal. apply st_ext; [reflexivity|]. intros a b Ha Hb. rewrite div_ltb by lia. rewrite (proj2 (Nat.ltb_lt b _)) by lia. reflexivity.
Qed.
Lemma iloop_mk fd fg : foldM (fun s i => foldM (fun s k => foldM (bstep i k) (zrange (Z.of_nat pnf)) s) (zrange (Z.of_nat nf)) s) (seq 0 R) (st fd fg) =
  Ok (st (fun i q => foldk (fd i q) (fun k => E i k (q / isize) (q mod isize)) nf)
         (fun a b => foldk (fg a b) (fun i => G i (b / sp) (a / sp) (a mod sp) (b mod sp)) R)).
Proof.
  destruct (foldM_seq (fun n s => s = st (fun i q => if i <? n then foldk (fd i q) (fun k => E i k (q / isize) (q mod isize)) nf else fd i q)
     (fun a b => foldk (fg a b) (fun i => G i (b / sp) (a / sp) (a mod sp) (b mod sp)) n))
     (fun s i => foldM (fun s k => foldM (bstep i k) (zrange (Z.of_nat pnf)) s) (zrange (Z.of_nat nf)) s) R (st fd fg)) as (s & -> & ->).
  - apply st_ext; reflexivity.
  - intros i s Hi ->. rewrite kloop_mk by assumption. eexists. split; [reflexivity|]. apply st_ext.
    + intros i' q Hi' Hq. destruct (Nat.eqb_spec i' i) as [->|].
      * rewrite Nat.ltb_irrefl, (proj2 (Nat.ltb_lt i (S i))) by lia. reflexivity.
      * destruct (Nat.ltb_spec i' i), (Nat.ltb_spec i' (S i)); try lia; reflexivity.
    + intros a b Ha Hb. now rewrite foldk_S.
  - f_equal. apply st_ext; [|reflexivity]. intros i q Hi Hq. now rewrite (proj2 (Nat.ltb_lt i R)).
Qed.
End BLoop.

Lemma foldM_ext_in {A S} (f g : S -> A -> res S) l s : (forall s x, In x l -> f s x = g s x) -> foldM f l s = foldM g l s.
Proof. revert s. induction l as [|x l IH]; intros s H; cbn [foldM]; [reflexivity|]. rewrite H by now left. destruct (g s x); cbn [bind]; [apply IH; intros; apply H; now right|reflexivity..]. Qed.
Lemma in_zrange n x : In x (zrange (Z.of_nat n)) -> exists k, x = Z.of_nat k /\ k < n.
Proof. unfold zrange. rewrite Nat2Z.id. intros H. apply in_map_iff in H as (k & <- & Hk). apply in_seq in Hk. exists k. split; [reflexivity|lia]. Qed.

(** ** One iteration: specification *)
(** The error image of filter [k] for sample [i]: derivative of the activation applied to the incoming delta; the
    forward pass numbers the outputs row by row, this reads them column by column. *)
Definition derr (c : conv) (del : mat) (ow oh i k a b : nat) : D := actd (l_act (cv_l c)) (at_ del i (k * (ow * oh) + (b * oh + a))).
(** gradient contribution to entry (u, v) of the block of filter k: note the exchanged arguments *)
Definition gcon (c : conv) (del : mat) (ow oh i k : nat) (img : nat -> nat -> D) (u v : nat) : D := window oh ow img (derr c del ow oh i k) v u.
(** contribution of filter k to the delta of channel j, position (p, q) *)
Definition dcon (c : conv) (del : mat) (ow oh sp pad i k j p q : nat) : D :=
  window sp sp (padded pad oh ow (derr c del ow oh i k)) (fun u v => at_ (l_W (cv_l c)) (j * sp + (sp - 1 - u)) (k * sp + (sp - 1 - v))) p q.

Section Back.
Variables (c : conv) (w h pnf nf sp pad : nat) (del : mat) (f : nat -> nat -> nat -> D).
Hypothesis dz : deqb (d := D) d0 d0 = true.
Hypothesis SZ : sizes_ok w h sp 1 pad.
Hypothesis K : conv_ok c w h pnf nf sp 1 pad.
Notation ow := (w + 2 * pad - sp + 1).
Notation oh := (h + 2 * pad - sp + 1).
Hypothesis Hdel : nc del = nf * (ow * oh).
Hypothesis Himg : forall i, i < nr del -> nth_error (cv_images c) i = Some (mk (h + 2 * pad) (w + 2 * pad) (f i)).

Lemma od n : outdim n sp 1 pad = n + 2 * pad - sp + 1.
Proof. unfold outdim. now rewrite Nat.div_1_r. Qed.
Lemma deltay_ok i k : i < nr del -> k < nf -> exists dy, mrow (funcop del (actd (l_act (cv_l c)))) i = Ok dy /\
  toimage dy (Z.of_nat k) (Z.of_nat ow) (Z.of_nat oh) = Ok (mk oh ow (derr c del ow oh i k)).
Proof.
  intros Hi Hk. unfold mrow, funcop, mmap. cbn [nr nc mk]. rewrite (proj2 (Nat.ltb_lt i _)) by assumption. eexists. split; [reflexivity|].
  rewrite toimage_mk; cbn [nr nc mk]; [|lia|lia|lia|rewrite Hdel; nia]. f_equal. apply mk_ext. intros a b Ha Hb. rewrite pixel_single by reflexivity.
  assert (k * (ow * oh) + (b * oh + a) < nc del). { rewrite Hdel. assert (b * oh + a < ow * oh) by nia. assert ((k + 1) * (ow * oh) <= nf * (ow * oh)) by (apply Nat.mul_le_mono_r; lia). lia. }
  rewrite at_mk by (assumption || lia). rewrite at_mk by assumption. reflexivity.
Qed.
Lemma pg_ok i k : i < nr del -> k < nf -> exists pg, convolve junk (cv_st c) (mk (h + 2 * pad) (w + 2 * pad) (f i)) (mk oh ow (derr c del ow oh i k)) = Ok pg /\
  reshape pg (Z.to_nat (cv_sp c)) (Z.to_nat (cv_sp c)) = mk sp sp (gcon c del ow oh i k (f i)).
Proof.
  intros Hi Hk. destruct SZ as (Hw & Hh & Hsp & _ & B1 & B2 & B3 & B4 & _). unfold INT_MAX in *. rewrite (ok_st _ _ _ _ _ _ _ _ K), (ok_sp _ _ _ _ _ _ _ _ K), Nat2Z.id.
  change (1%Z) with (Z.of_nat 1). rewrite convolve_mk by lia. eexists. split; [reflexivity|]. rewrite !Nat.div_1_r.
  replace (w + 2 * pad - ow + 1) with sp by lia. replace (h + 2 * pad - oh + 1) with sp by lia.
  unfold reshape. apply mk_ext. intros u v Hu Hv. rewrite el_mk by nia. rewrite !Nat.mod_1_r, Nat.div_1_r. cbn [Nat.eqb andb]. unfold gcon.
  replace ((v * sp + u) / sp) with v by (rewrite Nat.div_add_l, Nat.div_small by lia; lia). replace ((v * sp + u) mod sp) with u by (rewrite Nat.add_comm, Nat.mod_add, Nat.mod_small by lia; reflexivity). reflexivity.
Qed.
Lemma flip_ok j k : j < pnf -> k < nf -> flip (l_W (cv_l c)) (cv_sp c) (Z.of_nat j) (Z.of_nat k) =
  Ok (mk sp sp (fun u v => at_ (l_W (cv_l c)) (j * sp + (sp - 1 - u)) (k * sp + (sp - 1 - v)))).
Proof.
  clear Hdel Himg. intros Hj Hk. destruct SZ as (Hw & Hh & Hsp & _). unfold flip, spatial_of. rewrite (ok_sp _ _ _ _ _ _ _ _ K).
  replace (Z.of_nat j * Z.of_nat sp)%Z with (Z.of_nat (j * sp)) by lia. replace (Z.of_nat k * Z.of_nat sp)%Z with (Z.of_nat (k * sp)) by lia.
  replace ((Z.of_nat j + 1) * Z.of_nat sp - 1)%Z with (Z.of_nat (j * sp + sp) - 1)%Z by lia. replace ((Z.of_nat k + 1) * Z.of_nat sp - 1)%Z with (Z.of_nat (k * sp + sp) - 1)%Z by lia.
  rewrite submat_mk; [|lia|lia|rewrite (ok_Wr _ _ _ _ _ _ _ _ K); nia|rewrite (ok_Wc _ _ _ _ _ _ _ _ K); nia]. cbn [bind]. f_equal. unfold fliplr, flipud. cbn [nr nc mk].
  apply mk_ext. intros u v Hu Hv. rewrite !at_mk by lia. reflexivity.
Qed.
Lemma back_mk : sp = 2 * pad + 1 -> conv_backprop junk c del =
  let delta := mk (nr del) (w * h * pnf) (fun i q => foldk d0 (fun k => dcon c del w h sp pad i k (q / (w * h)) (q mod (w * h) / w) (q mod (w * h) mod w)) nf) in
  let grad := mk (sp * pnf) (sp * nf) (fun a b => foldk d0 (fun i => gcon c del w h i (b / sp) (f i) (a mod sp) (b mod sp)) (nr del)) in
  Ok (delta, cv_set c (set_dg (cv_l c) delta grad) (cv_images c)).
Proof.
  intros Esp. pose proof SZ as (Hw & Hh & Hsp & _ & B1 & B2 & B3 & B4 & _). unfold INT_MAX in *.
  assert (Ew : ow = w) by lia. assert (Eh : oh = h) by lia.
  unfold conv_backprop. rewrite (ok_is _ _ _ _ _ _ _ _ K), (ok_ow _ _ _ _ _ _ _ _ K), (ok_oh _ _ _ _ _ _ _ _ K), (ok_gr _ _ _ _ _ _ _ _ K), (ok_gc _ _ _ _ _ _ _ _ K), (ok_pnf _ _ _ _ _ _ _ _ K), (ok_nf _ _ _ _ _ _ _ _ K).
  cbn [rd bind]. unfold zerosZ. rewrite (proj2 (Z.ltb_ge _ 0)) by lia. cbn [bind]. replace (Z.to_nat (Z.of_nat (w * h) * Z.of_nat pnf)) with (w * h * pnf) by lia.
  assert (His : 1 <= w * h) by nia.
  pose (pgf := fun (i : nat) (k j : Z) => @Ok mat (mk sp sp (gcon c del w h i (Z.to_nat k) (f i)))).
  pose (pdf := fun (i : nat) (k j : Z) => @Ok mat (mk 1 (w * h) (fun _ p => dcon c del w h sp pad i (Z.to_nat k) (Z.to_nat j) (p / w) (p mod w)))).
  erewrite (foldM_ext_in _ (fun s i => foldM (fun s k => foldM (bstep sp (w * h) pgf pdf i k) (zrange (Z.of_nat pnf)) s) (zrange (Z.of_nat nf)) s)).
  - change (nr (funcop del (actd (l_act (cv_l c))))) with (nr del).
    unfold zeros. change (mk (nr del) (w * h * pnf) (fun _ _ : nat => d0 (d := D)), mk (sp * pnf) (sp * nf) (fun _ _ : nat => d0 (d := D))) with (st (nr del) nf pnf sp (w * h) (fun _ _ => d0) (fun _ _ => d0)).
    rewrite (iloop_mk (nr del) nf pnf sp (w * h) (fun i k j u v => gcon c del w h i k (f i) u v) (fun i k j p => dcon c del w h sp pad i k j (p / w) (p mod w))); [reflexivity|assumption|assumption| |].
    + intros i k j Hi Hk Hj. unfold pgf. now rewrite Nat2Z.id.
    + intros i k j Hi Hk Hj. unfold pdf. now rewrite !Nat2Z.id.
  - intros (delta & grad) i Hi%in_seq. change (nr (funcop del (actd (l_act (cv_l c))))) with (nr del) in Hi.
    assert (Hi' : i < nr del) by lia. unfold mrow at 1. cbn [nr funcop mmap mk]. rewrite (proj2 (Nat.ltb_lt i _)) by assumption. cbn [bind].
    apply foldM_ext_in. intros (delta1 & grad1) zk Hk. apply in_zrange in Hk as (k & -> & Hk).
    destruct (deltay_ok i k Hi' Hk) as (dy & Edy & Et). unfold mrow in Edy. cbn [nr funcop mmap mk] in Edy. rewrite (proj2 (Nat.ltb_lt i _)) in Edy by assumption. injection Edy as <-.
    rewrite !od. cbn [rd bind nc funcop mmap mk] in Et |- *. rewrite Et. cbn [bind].
    apply foldM_ext_in. intros (delta2 & grad2) zj Hj. apply in_zrange in Hj as (j & -> & Hj).
    unfold slice. rewrite (Himg i Hi'). cbn [bind]. destruct (pg_ok i k Hi' Hk) as (pg & E1 & E2). rewrite E1. cbn [bind]. cbv zeta. rewrite E2. unfold bstep, pgf. cbn [bind]. rewrite !Nat2Z.id.
    rewrite (ok_sp _ _ _ _ _ _ _ _ K). rewrite Ew, Eh.
    destruct (set_submat dadd grad2 _ _ _ _ _); cbn [bind]; try reflexivity. rewrite (ok_pad _ _ _ _ _ _ _ _ K), (padding_mk dz). cbn [bind].
    pose proof (flip_ok j k Hj Hk) as EF. rewrite (ok_sp _ _ _ _ _ _ _ _ K) in EF. rewrite EF. cbn [bind]. rewrite (ok_st _ _ _ _ _ _ _ _ K). change (1%Z) with (Z.of_nat 1).
    rewrite convolve_mk by lia. unfold pdf. rewrite !Nat2Z.id. cbn [bind]. rewrite !Nat.div_1_r. replace (w + 2 * pad - sp + 1) with w by lia. replace (h + 2 * pad - sp + 1) with h by lia.
    match goal with |- bind (set_submat _ _ _ _ _ _ ?a) _ = bind (set_submat _ _ _ _ _ _ ?b) _ => replace a with b; [reflexivity|] end.
    apply mk_ext. intros r p Hr Hp. rewrite !Nat.mod_1_r. reflexivity.
Qed.
End Back.

Lemma foldM_first {A S} (f : S -> A -> res S) l s x : f s x = Throw -> foldM f (x :: l) s = Throw.
Proof. intros H. cbn [foldM]. now rewrite H. Qed.
Lemma zrange_S n : zrange (Z.of_nat (S n)) = Z.of_nat 0 :: map Z.of_nat (seq 1 n).
Proof. unfold zrange. now rewrite Nat2Z.id. Qed.

(** [(x.n_cols - y.n_cols) / 1 + 1] in unsigned arithmetic, converted to int, is the signed result also when it wraps *)
Lemma out_dim_1 xn yn : (Z.of_nat xn < 2147483647)%Z -> (Z.of_nat yn <= 2147483647)%Z -> out_dim xn yn 1 = Ok (Z.of_nat xn - Z.of_nat yn + 1)%Z.
Proof.
  intros Hx Hy. unfold out_dim. cbn [Z.eqb]. f_equal. change (1 mod 2 ^ 64)%Z with 1%Z. rewrite Z.div_1_r.
  destruct (Z.le_gt_cases (Z.of_nat yn) (Z.of_nat xn)).
  - rewrite Z.mod_small by lia. unfold to_int. rewrite Z.mod_small by lia. lia.
  - replace ((Z.of_nat xn - Z.of_nat yn) mod 2 ^ 64)%Z with (Z.of_nat xn - Z.of_nat yn + 2 ^ 64)%Z by (apply Z.mod_unique with (-1)%Z; lia). unfold to_int.
    replace (Z.of_nat xn - Z.of_nat yn + 2 ^ 64 + 1 + 2147483648)%Z with ((Z.of_nat xn - Z.of_nat yn + 1 + 2147483648) + 4294967296 * 4294967296)%Z by lia.
    rewrite Z.mod_add by lia. rewrite Z.mod_small by lia. lia.
Qed.
(** stride 1: what convolve does, including images smaller than the filter *)
Lemma convolve_size R C r c (x y : nat -> nat -> D) : 1 <= r -> 1 <= c -> (Z.of_nat R < 2147483647)%Z -> (Z.of_nat C < 2147483647)%Z -> (Z.of_nat r < 2147483647)%Z -> (Z.of_nat c < 2147483647)%Z ->
  convolve junk 1 (mk R C x) (mk r c y) = Throw \/
  exists o, convolve junk 1 (mk R C x) (mk r c y) = Ok o /\ nr o = 1 /\ Z.of_nat (nc o) = ((Z.of_nat C - Z.of_nat c + 1) * (Z.of_nat R - Z.of_nat r + 1))%Z.
Proof.
  intros Hr Hc B1 B2 B3 B4. destruct (Nat.le_gt_cases r R) as [L1|L1]; [destruct (Nat.le_gt_cases c C) as [L2|L2]|].
  - right. change (1%Z) with (Z.of_nat 1) at 1. rewrite convolve_mk by lia. eexists. split; [reflexivity|]. cbn [nr nc mk]. rewrite !Nat.div_1_r. split; [reflexivity|]. nia.
  - unfold convolve. cbn [nr nc mk]. rewrite !out_dim_1 by lia. cbn [bind]. unfold row_uninit. destruct (Z.ltb_spec ((Z.of_nat C - Z.of_nat c + 1) * (Z.of_nat R - Z.of_nat r + 1)) 0) as [|L]; [left; reflexivity|right].
    cbn [bind]. change (1 <? 0)%Z with false. cbv iota. assert (E : steps (Z.of_nat C - Z.of_nat c + 1) 1 = []) by (unfold steps, zrange; replace (Z.to_nat _) with 0 by lia; reflexivity). rewrite E. cbn [foldM].
    exists (mat_uninit junk 1 (Z.to_nat ((Z.of_nat C - Z.of_nat c + 1) * (Z.of_nat R - Z.of_nat r + 1)))). split; [|split; [reflexivity|cbn [nc mat_uninit mk]; lia]]. clear E. induction (steps (Z.of_nat R - Z.of_nat r + 1) 1) as [|a l IH]; [reflexivity|]. cbn [foldM bind]. exact IH.
  - unfold convolve. cbn [nr nc mk]. rewrite !out_dim_1 by lia. cbn [bind]. unfold row_uninit. destruct (Z.ltb_spec ((Z.of_nat C - Z.of_nat c + 1) * (Z.of_nat R - Z.of_nat r + 1)) 0) as [|L]; [left; reflexivity|right].
    cbn [bind]. change (1 <? 0)%Z with false. cbv iota. assert (E : steps (Z.of_nat R - Z.of_nat r + 1) 1 = []) by (unfold steps, zrange; replace (Z.to_nat _) with 0 by lia; reflexivity). rewrite E. cbn [foldM].
    eexists. split; [reflexivity|]. split; [reflexivity|]. cbn [nc mat_uninit mk]. lia.
Qed.

Lemma back_throw (c : conv) w h pnf nf sp pad del f : deqb (d := D) d0 d0 = true -> sizes_ok w h sp 1 pad -> conv_ok c w h pnf nf sp 1 pad ->
  nc del = nf * ((w + 2 * pad - sp + 1) * (h + 2 * pad - sp + 1)) -> (forall i, i < nr del -> nth_error (cv_images c) i = Some (mk (h + 2 * pad) (w + 2 * pad) (f i))) ->
  1 <= nr del -> 1 <= nf -> 1 <= pnf -> (Z.of_nat (w + 2 * pad + 2 * pad) < INT_MAX)%Z -> (Z.of_nat (h + 2 * pad + 2 * pad) < INT_MAX)%Z ->
  sp <> 2 * pad + 1 -> conv_backprop junk c del = Throw.
Proof.
  intros dz SZ K Hdel Himg HR Hnf Hpnf I1 I2 Ne. pose proof SZ as (Hw & Hh & Hsp & _ & B1 & B2 & B3 & B4 & _). unfold INT_MAX in *.
  unfold conv_backprop. rewrite (ok_is _ _ _ _ _ _ _ _ K), (ok_ow _ _ _ _ _ _ _ _ K), (ok_oh _ _ _ _ _ _ _ _ K), (ok_gr _ _ _ _ _ _ _ _ K), (ok_gc _ _ _ _ _ _ _ _ K), (ok_pnf _ _ _ _ _ _ _ _ K), (ok_nf _ _ _ _ _ _ _ _ K).
  cbn [rd bind]. unfold zerosZ. rewrite (proj2 (Z.ltb_ge _ 0)) by lia. cbn [bind].
  destruct (nr del) as [|R'] eqn:ER; [lia|]. change (nr (funcop del (actd (l_act (cv_l c))))) with (nr del). rewrite ER. cbn [seq].
  destruct nf as [|nf']; [lia|]. destruct pnf as [|pnf']; [lia|]. rewrite !zrange_S.
  erewrite foldM_first; [reflexivity|]. cbv iota beta.
  unfold mrow at 1. change (nr (funcop del (actd (l_act (cv_l c))))) with (nr del). rewrite (proj2 (Nat.ltb_lt 0 _)) by lia. cbn [bind].
  apply foldM_first. cbv iota beta.
  rewrite !od. destruct (deltay_ok c w h (S nf') sp pad del Hdel 0 0) as (dy & Edy & Et); [lia|lia|]. unfold mrow in Edy. cbn [nr funcop mmap mk] in Edy. rewrite (proj2 (Nat.ltb_lt 0 _)) in Edy by lia. injection Edy as <-.
  cbn [nc funcop mmap mk] in Et |- *. rewrite Et. cbn [bind]. apply foldM_first. cbv iota beta.
  unfold slice. rewrite (Himg 0) by lia. cbn [bind]. destruct (pg_ok c w h (S pnf') (S nf') sp pad del f SZ K Hdel 0 0) as (pg & E1 & E2); [lia|lia|]. rewrite E1. cbn [bind]. cbv zeta. rewrite E2.
  rewrite (ok_sp _ _ _ _ _ _ _ _ K). replace (Z.of_nat 0 * Z.of_nat sp)%Z with (Z.of_nat (0 * sp)) by lia. replace ((Z.of_nat 0 + 1) * Z.of_nat sp - 1)%Z with (Z.of_nat (0 * sp + sp) - 1)%Z by lia.
  unfold zeros at 1. rewrite set_block_mk by nia. cbn [bind]. rewrite (ok_pad _ _ _ _ _ _ _ _ K), (padding_mk dz). cbn [bind].
  pose proof (flip_ok c w h (S pnf') (S nf') sp pad SZ K 0 0 ltac:(lia) ltac:(lia)) as EF. rewrite (ok_sp _ _ _ _ _ _ _ _ K) in EF. rewrite EF. cbn [bind]. rewrite (ok_st _ _ _ _ _ _ _ _ K). change (Z.of_nat 1) with 1%Z.
  match goal with |- context [convolve junk 1 (mk ?R ?C ?x) (mk ?r ?c ?y)] => destruct (convolve_size R C r c x y) as [->|(o & -> & O1 & O2)]; try lia end; [reflexivity|]. cbn [bind].
  unfold set_submat. match goal with |- context [(Z.to_nat ?a =? nc o)] => destruct (Nat.eqb_spec (Z.to_nat a) (nc o)) as [Eq|]; [exfalso|rewrite andb_false_r; reflexivity] end.
  apply (f_equal Z.of_nat) in Eq. rewrite O2 in Eq. rewrite Z2Nat.id in Eq by lia.
  assert (X : (Z.of_nat w * Z.of_nat h = (Z.of_nat w + (4 * Z.of_nat pad + 2 - 2 * Z.of_nat sp)) * (Z.of_nat h + (4 * Z.of_nat pad + 2 - 2 * Z.of_nat sp)))%Z).
  { rewrite !Nat2Z.inj_add, !Nat2Z.inj_sub, !Nat2Z.inj_add, !Nat2Z.inj_mul in Eq by lia. change (Z.of_nat 2) with 2%Z in Eq. change (Z.of_nat 1) with 1%Z in Eq. change (Z.of_nat 0) with 0%Z in Eq. nia. }
  set (dd := (4 * Z.of_nat pad + 2 - 2 * Z.of_nat sp)%Z) in *. assert (Y : (dd * (Z.of_nat w + Z.of_nat h + dd) = 0)%Z) by nia. apply Z.mul_eq_0 in Y as [Y|Y]; unfold dd in Y; lia.
Qed.

(** * C59 *)
Lemma after_forward (c c1 : conv) w h pnf nf sp pad x out : deqb (d := D) d0 d0 = true -> sizes_ok w h sp 1 pad -> conv_ok c w h pnf nf sp 1 pad -> nc x = pnf * (w * h) -> 1 <= pnf ->
  conv_forward junk c x = Ok (out, c1) -> conv_ok c1 w h pnf nf sp 1 pad /\ l_act (cv_l c1) = l_act (cv_l c) /\ l_W (cv_l c1) = l_W (cv_l c) /\
  cv_images c1 = repeat (mk (h + 2 * pad) (w + 2 * pad) (ppixel x w h pad (pnf - 1))) (nr x).
Proof.
  intros dz SZ K Hx Hp E. destruct (conv_forward_gen junk c w h pnf nf sp 1 pad x dz SZ K Hx) as (imgs & E' & I). rewrite E in E'. injection E' as -> ->.
  split; [|split; [reflexivity|split; [reflexivity|exact (I Hp)]]]. destruct K. constructor; assumption.
Qed.
Lemma nth_repeat_err {A} (a : A) n i : i < n -> nth_error (repeat a n) i = Some a.
Proof. revert i. induction n as [|n IH]; intros [|i] Hi; cbn; try lia; [reflexivity|apply IH; lia]. Qed.

(** Stride 1, at least one sample, filter and channel: after a forward pass, backprop throws unless the filter side is
    2 * padding + 1 - whatever the incoming delta. *)
Theorem C59_throws : forall (c c1 : conv) w h pnf nf sp pad x out del, deqb (d := D) d0 d0 = true -> sizes_ok w h sp 1 pad -> conv_ok c w h pnf nf sp 1 pad -> nc x = pnf * (w * h) ->
  1 <= pnf -> 1 <= nf -> 1 <= nr x -> conv_forward junk c x = Ok (out, c1) -> nr del = nr out -> nc del = nc out ->
  (Z.of_nat (w + 2 * pad + 2 * pad) < INT_MAX)%Z -> (Z.of_nat (h + 2 * pad + 2 * pad) < INT_MAX)%Z ->
  sp <> 2 * pad + 1 -> conv_backprop junk c1 del = Throw.
Proof.
  intros c c1 w h pnf nf sp pad x out del dz SZ K Hx Hp Hn Hr E D1 D2 I1 I2 Ne. destruct (after_forward c c1 w h pnf nf sp pad x out dz SZ K Hx Hp E) as (K1 & _ & _ & I).
  destruct (C50_rows junk c w h pnf nf sp 1 pad x dz SZ K Hx) as (o & c2 & E2 & R1 & R2 & _). rewrite E in E2. injection E2 as <- <-. rewrite !od in R2.
  apply (back_throw c1 w h pnf nf sp pad del (fun _ => ppixel x w h pad (pnf - 1))); try assumption; [lia| |lia]. intros i Hi. rewrite I. apply nth_repeat_err. lia.
Qed.
(** Without a forward pass before it (no stored images), backprop of at least one sample throws. *)
Theorem C59_needs_forward : forall (c : conv) w h pnf nf sp st pad del, conv_ok c w h pnf nf sp st pad -> 1 <= w -> 1 <= h -> 1 <= nr del -> 1 <= nf -> 1 <= pnf -> cv_images c = [] ->
  conv_backprop junk c del = Throw.
Proof.
  intros c w h pnf nf sp st pad del K Hw Hh HR Hnf Hpnf I.
  unfold conv_backprop. rewrite (ok_is _ _ _ _ _ _ _ _ K), (ok_ow _ _ _ _ _ _ _ _ K), (ok_oh _ _ _ _ _ _ _ _ K), (ok_pnf _ _ _ _ _ _ _ _ K), (ok_nf _ _ _ _ _ _ _ _ K), I.
  cbn [rd bind]. unfold zerosZ. rewrite (proj2 (Z.ltb_ge _ 0)) by lia. cbn [bind].
  destruct (nr del) as [|R'] eqn:ER; [lia|]. change (nr (funcop del (actd (l_act (cv_l c))))) with (nr del). rewrite ER. cbn [seq].
  destruct nf as [|nf']; [lia|]. destruct pnf as [|pnf']; [lia|]. rewrite !zrange_S.
  erewrite foldM_first; [reflexivity|]. cbv iota beta.
  unfold mrow at 1. change (nr (funcop del (actd (l_act (cv_l c))))) with (nr del). rewrite (proj2 (Nat.ltb_lt 0 _)) by lia. cbn [bind].
  apply foldM_first. cbv iota beta. unfold toimage. destruct (mcols _ _ _) eqn:Em; cbn [bind]; [|first [reflexivity|exfalso; unfold mcols in Em; destruct (_ && _)%bool in Em; discriminate]..].
  apply foldM_first. cbv iota beta. reflexivity.
Qed.
(** The result depends on the incoming delta only through the DERIVATIVE OF THE ACTIVATION AT THE DELTA'S VALUES. *)
Theorem C59_delta_use : forall (c : conv) del del', nr del = nr del' -> nc del = nc del' ->
  (forall i q, i < nr del -> q < nc del -> actd (l_act (cv_l c)) (at_ del i q) = actd (l_act (cv_l c)) (at_ del' i q)) ->
  conv_backprop junk c del = conv_backprop junk c del'.
Proof.
  intros c del del' E1 E2 H. unfold conv_backprop. replace (funcop del (actd (l_act (cv_l c)))) with (funcop del' (actd (l_act (cv_l c)))); [now rewrite E1|].
  unfold funcop, mmap. rewrite <- E1, <- E2. symmetry. apply mk_ext. assumption.
Qed.
(** so with the identity activation it does not depend on the delta at all: a zero error and a large error give the same
    gradient and the same backpropagated delta *)
Theorem C59_identity : forall (c : conv) del del', l_act (cv_l c) = identity -> nr del = nr del' -> nc del = nc del' -> conv_backprop junk c del = conv_backprop junk c del'.
Proof. intros c del del' E E1 E2. apply C59_delta_use; [assumption..|]. intros. rewrite E. reflexivity. Qed.
End Gen.

Lemma foldk_R n f : foldk (D := Rdt) 0%R f n = sumN n f.
Proof. unfold foldk. rewrite (fold_left_sum f). unfold sumN. cbn. lra. Qed.
Lemma window_R r c x y i j : window (D := Rdt) r c x y i j = sumN r (fun u => sumN c (fun v => x (i + u)%nat (j + v)%nat * y u v)%R).
Proof. unfold window. now rewrite accu_mk, sumN_swap. Qed.
(** Stride 1 and filter side 2*padding+1 (so outputs are as large as inputs), over the reals: what backprop computes after
    a forward pass.  [err i k a b] is the activation's derivative at the incoming delta of filter k, sample i, stored
    column by column (although the forward pass numbers outputs row by row); [img] is the padded image of the LAST channel. *)
Theorem C59_backprop : forall (junk : nat -> R) (c c1 : conv Rdt) w h pnf nf sp pad x out del, sizes_ok w h sp 1 pad -> conv_ok c w h pnf nf sp 1 pad -> nc x = pnf * (w * h) ->
  1 <= pnf -> conv_forward (D := Rdt) junk c x = Ok (out, c1) -> nr del = nr out -> nc del = nc out -> sp = 2 * pad + 1 ->
  let err (i k a b : nat) : R := actd (l_act (cv_l c)) (at_ del i (k * (w * h) + b * h + a)) in
  let perr (i k a b : nat) : R := if (pad <=? a) && (a <? pad + h) && (pad <=? b) && (b <? pad + w) then err i k (a - pad) (b - pad) else 0%R in
  let img (a b : nat) : R := ppixel x w h pad (pnf - 1) a b in
  exists delta c2, conv_backprop (D := Rdt) junk c1 del = Ok (delta, c2) /\ nr delta = nr x /\ nc delta = pnf * (w * h) /\
  (** gradient of filter entry (u, v), for input channel ch and filter k: the same for every channel, and transposed *)
  (forall ch k u v, ch < pnf -> k < nf -> u < sp -> v < sp ->
     at_ (l_grad (cv_l c2)) (ch * sp + u) (k * sp + v) = sumN (nr x) (fun i => sumN h (fun a => sumN w (fun b => img (v + a)%nat (u + b)%nat * err i k a b)%R))) /\
  (** delta passed to the previous layer: pixel (p, q) of channel ch of sample i, stored row by row (inputs are read column by column) *)
  (forall i ch p q, i < nr x -> ch < pnf -> p < h -> q < w ->
     at_ delta i (ch * (w * h) + (p * w + q)) =
     sumN nf (fun k => sumN sp (fun u => sumN sp (fun v => perr i k (p + u)%nat (q + v)%nat * at_ (l_W (cv_l c)) (ch * sp + (sp - 1 - u)) (k * sp + (sp - 1 - v)))%R))).
Proof.
  intros junk c c1 w h pnf nf sp pad x out del SZ K Hx Hp E D1 D2 Esp err perr img. pose proof dzR as dz. destruct (after_forward (D := Rdt) junk c c1 w h pnf nf sp pad x out dz SZ K Hx Hp E) as (K1 & A1 & W1 & I).
  destruct (C50_rows (D := Rdt) junk c w h pnf nf sp 1 pad x dz SZ K Hx) as (o & c2 & E2 & R1 & R2 & _). rewrite E in E2. injection E2 as <- <-. rewrite !od in R2.
  pose proof SZ as (Hw & Hh & Hsp & _ & B1 & B2 & _).
  rewrite (back_mk (D := Rdt) junk c1 w h pnf nf sp pad del (fun _ => ppixel x w h pad (pnf - 1)) dz SZ K1); [|lia|intros i Hi; rewrite I; apply nth_repeat_err; lia|assumption].
  cbv zeta. eexists. eexists. split; [reflexivity|]. cbn [nr nc mk cv_set cv_l set_dg l_grad]. split; [congruence|]. split; [lia|].
  assert (N : nr del = nr x) by congruence. rewrite N. split.
  - intros ch k u v Hc Hk Hu Hv. rewrite (at_mk (D := Rdt)) by nia. cbn [d0 Rdt]. rewrite foldk_R. apply sumN_ext. intros i Hi. unfold gcon. rewrite window_R.
    replace ((ch * sp + u) mod sp) with u by (rewrite Nat.add_comm, Nat.mod_add, Nat.mod_small by lia; reflexivity). replace ((k * sp + v) mod sp) with v by (rewrite Nat.add_comm, Nat.mod_add, Nat.mod_small by lia; reflexivity).
    replace ((k * sp + v) / sp) with k by (rewrite Nat.div_add_l, Nat.div_small by lia; lia).
    apply sumN_ext. intros a Ha. apply sumN_ext. intros b Hb. unfold img, err, derr. rewrite A1, Nat.add_assoc. reflexivity.
  - intros i ch p q Hi Hc Hp' Hq. destruct (position w h ch p q Hp' Hq) as (P1 & P2 & P3). rewrite (at_mk (D := Rdt)); [|assumption|now apply in_range]. rewrite P1, P2, P3. cbn [d0 Rdt]. rewrite foldk_R.
    apply sumN_ext. intros k Hk. unfold dcon. rewrite window_R. apply sumN_ext. intros u Hu. apply sumN_ext. intros v Hv. rewrite W1. unfold perr, padded, err, derr. rewrite A1.
    destruct (_ && _)%bool; [rewrite Nat.add_assoc|]; reflexivity.
Qed.

(** A 3 x 3 image 1..9 (column by column), one filter 3 x 3, padding 1, identity activation: whatever the delta, the gradient is
    the transposed matrix of window sums and the backpropagated delta sums flipped filter entries. *)
Definition exB (del : list Z) : option (list Z * list Z) :=
  match mkconv 3 3 1 1 3 1 1 (Mat (D := Zdt) 3 3 [1; 2; 3; 4; 5; 6; 7; 8; 9]%Z) with Ok c =>
    match conv_forward (D := Zdt) zj c (Mat (D := Zdt) 1 9 [1; 2; 3; 4; 5; 6; 7; 8; 9]%Z) with Ok (_, c1) =>
      match conv_backprop (D := Zdt) zj c1 (Mat (D := Zdt) 1 9 del) with Ok (d, c2) => Some (el d, el (l_grad (cv_l c2))) | _ => None end | _ => None end | _ => None end.
Example C59_example : exB [0; 0; 0; 0; 0; 0; 0; 0; 0]%Z = exB [9; -8; 7; -6; 5; -4; 3; -2; 1]%Z /\
  exB [0; 0; 0; 0; 0; 0; 0; 0; 0]%Z = Some ([12; 27; 24; 21; 45; 39; 16; 33; 28]%Z, [12; 27; 24; 21; 45; 39; 16; 33; 28]%Z).
Proof. vm_compute. split; reflexivity. Qed.
(** filter side 2, no padding: backprop throws *)
Example C59_throws_example : match mkconv 3 3 1 1 2 1 0 (Mat (D := Zdt) 2 2 [1; 2; 3; 4]%Z) with Ok c =>
    match conv_forward (D := Zdt) zj c (Mat (D := Zdt) 1 9 [1; 2; 3; 4; 5; 6; 7; 8; 9]%Z) with Ok (o, c1) => Some (nc o, conv_backprop (D := Zdt) zj c1 (Mat (D := Zdt) 1 4 [1; 1; 1; 1]%Z)) | _ => None end | _ => None end = Some (4, Throw).
Proof. vm_compute. reflexivity. Qed.

(** * C60 *)
Section Pool.
Context {D : dtype}.
Context (junk : nat -> D).

Lemma pooled_le n sp st : 1 <= st -> 1 <= sp -> sp <= n -> (n - sp) / st + 1 <= n.
Proof. intros H1 H2 H3. assert ((n - sp) / st <= n - sp) by (apply Nat.div_le_upper_bound; nia). lia. Qed.
Lemma pooled_eq n sp st : 1 <= st -> 1 <= sp -> sp <= n -> (n - sp) / st + 1 = n <-> sp = 1 /\ (st = 1 \/ n = 1).
Proof.
  intros H1 H2 H3. split.
  - intros E. assert (X : (n - sp) / st <= n - sp) by (apply Nat.div_le_upper_bound; nia). assert (sp = 1) by lia. split; [assumption|]. subst sp.
    destruct (Nat.eq_dec st 1) as [|Hst]; [now left|right]. destruct (Nat.eq_dec n 1) as [|Hn]; [assumption|exfalso].
    assert ((n - 1) / st < n - 1) by (apply Nat.div_lt; lia). lia.
  - intros [-> [->| ->]]; [rewrite Nat.div_1_r; lia|]. cbn [Nat.sub]. rewrite Nat.div_0_l by lia. reflexivity.
Qed.
(** The matrix a max-pooling layer hands back to the layer before it has the size of its OUTPUT; that is the size of its
    input only for 1 x 1 windows that skip nothing. *)
Theorem C60_max_size : forall (p p1 p2 : maxpool D) w h nf sp st x out del d, deqb (d := D) d0 d0 = true -> sizes_ok w h sp st 0 -> conv_ok (mp_c p) w h nf nf sp st 0 -> 1 <= nf ->
  nc x = nf * (w * h) -> maxpool_forward junk p x = Ok (out, p1) -> nr del = nr out -> nc del = nc out -> maxpool_backprop p1 del = Ok (d, p2) ->
  nr d = nr x /\ nc d = nf * (((w - sp) / st + 1) * ((h - sp) / st + 1)) /\ (nc d = nc x <-> sp = 1 /\ (st = 1 \/ (w = 1 /\ h = 1))).
Proof.
  intros p p1 p2 w h nf sp st x out del d dz SZ K Hnf Hx E D1 D2 B. injection B as <- <-. destruct p as [c idx]. cbn [mp_c] in K.
  destruct (maxpool_forward_gen junk c w h nf sp st x dz SZ K Hx idx) as (p' & E'). rewrite E in E'. injection E' as -> ->. cbn [nr nc mk] in D1, D2.
  unfold outdim in D2. rewrite Nat.mul_0_r, !Nat.add_0_r in D2. split; [exact D1|]. split; [rewrite D2; lia|]. rewrite D2, Hx.
  destruct SZ as (Hw & Hh & Hsp & Hst & B1 & B2 & _). rewrite Nat.mul_0_r, Nat.add_0_r in B1, B2.
  pose proof (pooled_le w sp st Hst Hsp B1) as L1. pose proof (pooled_le h sp st Hst Hsp B2) as L2. pose proof (pooled_eq w sp st Hst Hsp B1) as Q1. pose proof (pooled_eq h sp st Hst Hsp B2) as Q2.
  set (a := (w - sp) / st + 1) in *. set (b := (h - sp) / st + 1) in *. assert (1 <= a /\ 1 <= b) as [A1 A2] by (unfold a, b; lia). split.
  - intros E1. assert (a * b = w * h) by nia. assert (a = w) by nia. assert (b = h) by nia. tauto.
  - intros H. assert (a = w) by tauto. assert (b = h) by tauto. nia.
Qed.
(** So a dense layer in front of it cannot be trained: its backprop throws. *)
Theorem C60_max_dense : forall (l l1 : layer D) (p p1 : maxpool D) w h nf sp st x a out del, deqb (d := D) d0 d0 = true -> sizes_ok w h sp st 0 -> conv_ok (mp_c p) w h nf nf sp st 0 -> 1 <= nf ->
  forwardprop l x = Ok (a, l1) -> nc a = nf * (w * h) -> maxpool_forward junk p a = Ok (out, p1) -> nr del = nr out -> nc del = nc out -> ~ (sp = 1 /\ (st = 1 \/ (w = 1 /\ h = 1))) ->
  exists d p2, maxpool_backprop p1 del = Ok (d, p2) /\ backprop l1 d = Throw.
Proof.
  intros l l1 p p1 w h nf sp st x a out del dz SZ K Hnf F Ha E D1 D2 Hne. exists del, p1. split; [reflexivity|].
  destruct (C60_max_size p p1 p1 w h nf sp st a out del del dz SZ K Hnf Ha E D1 D2 eq_refl) as (_ & _ & Q).
  unfold backprop, mschur. rewrite mzip_throw; [reflexivity|]. cbn [nr nc funcop mmap mk]. intros [_ X]. apply Hne, Q. rewrite X. clear - F.
  unfold forwardprop in F. destruct (addcol x) as [m| | |]; cbn [bind] in F; try discriminate. destruct (mmul m (l_W l)); cbn [bind] in F; try discriminate. injection F as <- <-. reflexivity.
Qed.
(** Mean pooling hands back an empty matrix: the dense layer before it throws on every non-empty batch. *)
Theorem C60_mean_dense : forall (l l1 : layer D) (c c1 : conv D) x a out del, forwardprop l x = Ok (a, l1) -> 1 <= nr x -> meanpool_forward junk c a = Ok (out, c1) ->
  exists d c2, meanpool_backprop c1 del = Ok (d, c2) /\ backprop l1 d = Throw.
Proof.
  intros l l1 c c1 x a out del F Hx _. exists mempty, c1. split; [reflexivity|]. unfold backprop, mschur. rewrite mzip_throw; [reflexivity|]. cbn [nr nc funcop mmap mk mempty]. intros [X _].
  unfold forwardprop, addcol, set_submat in F. destruct (_ && _)%bool in F; cbn [bind] in F; try discriminate. unfold mmul in F. destruct (_ =? _) in F; cbn [bind] in F; try discriminate. injection F as <- <-. cbn in X. lia.
Qed.
End Pool.
(** A dense layer with 9 outputs before 2 x 2 max pooling of a 3 x 3 image. *)
Example C60_example : match layer_new (D := Zdt) (fun _ k => Z.of_nat k) zj 1 9 1%Z 1%Z 0%Z identity with Ok l =>
   match forwardprop (D := Zdt) l (Mat (D := Zdt) 1 1 [1%Z]) with Ok (a, l1) =>
   match maxpool_new (D := Zdt) (fun _ k => Z.of_nat k) zj 3 3 1 2 1 with Ok p =>
   match maxpool_forward (D := Zdt) zj p a with Ok (o, p1) => match maxpool_backprop (D := Zdt) p1 o with Ok (d, _) => Some (nc a, nc o, nc d, match backprop (D := Zdt) l1 d with Throw => true | _ => false end) | _ => None end
   | _ => None end | _ => None end | _ => None end | _ => None end = Some (9, 4, 4, true).
Proof. vm_compute. reflexivity. Qed.

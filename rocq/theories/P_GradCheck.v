(** P_GradCheck.v - C57: what GradientChecker really tests, and what it leaves behind. *)
From Coq Require Import Reals Lra.
From Coquelicot Require Import Coquelicot.
From Verif Require Import Base Mat Act Layer Conv Misc Net NetP Trainer TrainP TrainP2 P_Train FunEq ConfEq GradCheck ExNet RInst RMat Grad P_Act P_Grad.
From Coq Require Import Arith.
Local Open Scope nat_scope.

Section GC.
Context {D : dtype}.
Notation mat := (mat D).
Notation layer := (layer D).
Notation net := (net D).
Notation lheap := (lheap D).
Context (junk : nat -> D).

(** ** issame *)
Lemma seq_flat : forall r c s, flat_map (fun i => map (fun j => i * c + j) (seq 0 c)) (seq s r) = seq (s * c) (r * c).
Proof.
  induction r as [|r IH]; intros c s; cbn [seq flat_map]; [reflexivity|]. rewrite IH. cbn [Nat.mul]. rewrite seq_app. f_equal.
  - clear. generalize (s * c). intros k. assert (G : forall d a, map (fun j => k + j) (seq a d) = seq (k + a) d) by (induction d as [|d IH]; intros a; cbn [seq map]; [reflexivity|]; f_equal; rewrite IH; f_equal; lia). rewrite G. f_equal. lia.
  - f_equal. lia.
Qed.
Lemma rowmajor_flat r c : map (fun ij => fst ij * c + snd ij) (rowmajor r c) = seq 0 (r * c).
Proof.
  pose proof (seq_flat r c 0) as E. rewrite Nat.mul_0_l in E. rewrite <- E. unfold rowmajor. generalize (seq 0 r). induction l as [|a l IH]; cbn [flat_map]; [reflexivity|]. rewrite map_app, IH, map_map. reflexivity.
Qed.
Lemma foldM_map {A B S} (f : S -> B -> res S) (g : A -> B) : forall l s, foldM f (map g l) s = foldM (fun s a => f s (g a)) l s.
Proof. induction l as [|a l IH]; intros s; cbn; [reflexivity|]. destruct (f s (g a)); cbn; auto. Qed.
Lemma foldM_ext {A S} (f g : S -> A -> res S) : (forall s a, f s a = g s a) -> forall l s, foldM f l s = foldM g l s.
Proof. intros E. induction l as [|a l IH]; intros s; cbn; [reflexivity|]. rewrite E. destruct (g s a); cbn; auto. Qed.

(** two values count as close if they differ by less than 1e-6 *)
Definition close (a b : D) : bool := dltb (dabs (dsub a b)) (dlit 1 6).
Lemma issame_eq (m1 m2 : mat) : wf m1 -> wf m2 -> nr m1 = nr m2 -> nc m1 = nc m2 ->
  issame m1 m2 = Ok (forallb (fun k => negb (close (nth k (el m1) d0) (nth k (el m2) d0))) (seq 0 (length (el m1)))).
Proof.
  intros W1 W2 E1 E2. unfold issame. rewrite E1, E2, !Nat.eqb_refl. cbn [negb orb]. rewrite <- E1, <- E2.
  rewrite <- (foldM_map (fun same k => v1 <- flat m1 k ;; v2 <- flat m2 k ;; Ok (if dltb (dabs (dsub v1 v2)) (dlit 1 6) then false else same)) (fun ij => fst ij * nc m1 + snd ij)).
  rewrite rowmajor_flat, W1.
  assert (G : forall l b, (forall k, In k l -> k < nr m1 * nc m1) ->
    foldM (fun same k => v1 <- flat m1 k ;; v2 <- flat m2 k ;; Ok (if dltb (dabs (dsub v1 v2)) (dlit 1 6) then false else same)) l b =
    Ok (forallb (fun k => negb (close (nth k (el m1) d0) (nth k (el m2) d0))) l && b)).
  { induction l as [|k l IH]; intros b Hl; cbn [foldM forallb]; [reflexivity|]. unfold flat at 1 2. assert (Hk : k < nr m1 * nc m1) by (apply Hl; now left).
    rewrite (nth_error_nth' (el m1) d0) by (unfold wf in *; lia). cbn [bind]. rewrite (nth_error_nth' (el m2) d0) by (unfold wf in *; nia). cbn [bind].
    rewrite IH by (intros; apply Hl; now right). fold (close (nth k (el m1) d0) (nth k (el m2) d0)). destruct (close _ _), b, (forallb _ l); reflexivity. }
  rewrite G by (intros k Hk%in_seq; lia). now rewrite andb_true_r.
Qed.
Lemma flat_ix (m : mat) (P : D -> Prop) : wf m -> (forall k, k < length (el m) -> P (nth k (el m) d0)) <-> (forall i j, i < nr m -> j < nc m -> P (at_ m i j)).
Proof.
  intros W. unfold wf in W. split.
  - intros Hk i j Hi Hj. unfold at_. apply Hk. rewrite W. nia.
  - intros Hij k Hk. rewrite W in Hk. assert (nr m <> 0) by (intros E; rewrite E in Hk; cbn in Hk; lia). specialize (Hij (k mod nr m) (k / nr m)). unfold at_ in Hij.
    assert (E : k / nr m * nr m + k mod nr m = k) by (rewrite Nat.mul_comm; symmetry; now apply Nat.div_mod). rewrite E in Hij. apply Hij; [now apply Nat.mod_upper_bound|]. apply Nat.div_lt_upper_bound; assumption.
Qed.

(** issame(m1, m2) answers true exactly when the sizes agree and NO two corresponding entries are within 1e-6. *)
Theorem C57_issame : forall m1 m2 : mat, wf m1 -> wf m2 ->
  exists b, issame m1 m2 = Ok b /\
  (b = true <-> nr m1 = nr m2 /\ nc m1 = nc m2 /\ forall i j, i < nr m1 -> j < nc m1 -> dltb (dabs (dsub (at_ m1 i j) (at_ m2 i j))) (dlit 1 6) = false).
Proof.
  intros m1 m2 W1 W2. destruct (Nat.eq_dec (nr m1) (nr m2)) as [E1|N1]; [destruct (Nat.eq_dec (nc m1) (nc m2)) as [E2|N2]|].
  - rewrite issame_eq by assumption. eexists. split; [reflexivity|]. rewrite forallb_forall.
    transitivity (forall k, k < length (el m1) -> close (nth k (el m1) d0) (nth k (el m2) d0) = false).
    + split; intros Hk k Hin; [apply negb_true_iff, Hk, in_seq; lia|apply negb_true_iff, Hk; apply in_seq in Hin; lia].
    + split.
      * intros Hk. split; [assumption|]. split; [assumption|]. intros i j Hi Hj. unfold at_. rewrite <- E1. apply Hk. rewrite W1. nia.
      * intros (_ & _ & Hij) k Hk. rewrite W1 in Hk. assert (nr m1 <> 0) by (intros E; rewrite E in Hk; cbn in Hk; lia). specialize (Hij (k mod nr m1) (k / nr m1)). unfold at_ in Hij. rewrite <- E1 in Hij.
        assert (E : k / nr m1 * nr m1 + k mod nr m1 = k) by (rewrite Nat.mul_comm; symmetry; now apply Nat.div_mod). rewrite E in Hij. apply Hij; [now apply Nat.mod_upper_bound|]. apply Nat.div_lt_upper_bound; assumption.
  - unfold issame. apply Nat.eqb_neq in N2. rewrite N2, orb_true_r. exists false. split; [reflexivity|]. apply Nat.eqb_neq in N2. split; [discriminate|intros (_ & A & _); contradiction].
  - unfold issame. apply Nat.eqb_neq in N1. rewrite N1. exists false. split; [reflexivity|]. apply Nat.eqb_neq in N1. split; [discriminate|intros (A & _); contradiction].
Qed.

(** ** Setting weights *)
Lemma dense_at_set : forall ids ls (H : lheap) i p l l', NoDup ids -> dense_at H ids ls -> nth_error ids i = Some p -> nth_error ls i = Some l ->
  dense_at (upd p (HDense l') H) ids (upd i l' ls).
Proof.
  induction ids as [|q ids IH]; intros ls H i p l l' Hn Hd Hp Hl; [destruct i; discriminate|]. inversion Hd as [|q' m ids' ls' Hq Hd' E1 E2]; subst. inversion Hn as [|q' ids' Hni Hnd]; subst.
  destruct i as [|i]; cbn in *.
  - injection Hp as <-. injection Hl as <-. constructor; [rewrite nth_error_upd, Nat.eqb_refl, Hq; reflexivity|]. now apply dense_at_upd.
  - constructor; [|eapply IH; eauto]. rewrite nth_error_upd. destruct (Nat.eqb_spec q p) as [->|Ne]; [exfalso; apply Hni; eapply nth_error_In; eauto|assumption].
Qed.
Lemma sethiddenw_dense (n : net) (H : lheap) ls i w : dense_net n H ls ->
  match nth_error ls i with
  | Some l => exists H', net_sethiddenw n H i w = Ok H' /\ dense_net n H' (upd i (set_W l w) ls)
  | None => net_sethiddenw n H i w = Undef OutOfBounds
  end.
Proof.
  intros [Hn Hd]. pose proof (dense_len _ _ _ Hd) as Hl. unfold net_sethiddenw. destruct (nth_error ls i) as [l|] eqn:El.
  - destruct (nth_error (n_hidden n) i) as [p|] eqn:Ep.
    + assert (Hp : nth_error H p = Some (HDense l)).
      { clear -Hd El Ep. revert i El Ep. induction Hd as [|q m ids ls' Hq Hd IH]; intros [|i] El Ep; cbn in *; try discriminate; [congruence|eauto]. }
      unfold lget. rewrite Hp. cbn [bind h_base h_with]. eexists. split; [reflexivity|]. split; [assumption|]. eapply dense_at_set; eauto.
    + apply nth_error_None in Ep. assert (i < length ls) by (apply nth_error_Some; congruence). lia.
  - destruct (nth_error (n_hidden n) i) as [p|] eqn:Ep; [|reflexivity]. apply nth_error_None in El. assert (i < length (n_hidden n)) by (apply nth_error_Some; congruence). lia.
Qed.
Lemma F2_upd {A} (R : A -> A -> Prop) : forall a b i x y, Forall2 R a b -> R x y -> Forall2 R (upd i x a) (upd i y b).
Proof. intros a b i x y F Rx. revert i. induction F as [|u v a b U F IH]; intros [|i]; cbn; try constructor; auto. Qed.
Lemma F2_nth {A} (R : A -> A -> Prop) a b i x : Forall2 R a b -> nth_error a i = Some x -> exists y, nth_error b i = Some y /\ R x y.
Proof. intros F. revert i. induction F as [|u v a b U F IH]; intros [|i] E; cbn in *; try discriminate; [injection E as <-; eauto|eauto]. Qed.
Lemma sethiddenw_conf (n : net) (H : lheap) (n' : net) (H' : lheap) i w H1 : same_config n H n' H' -> net_sethiddenw n H i w = Ok H1 ->
  exists H1', net_sethiddenw n' H' i w = Ok H1' /\ same_config n H1 n' H1'.
Proof.
  intros HS E. destruct (same_config_dense _ _ _ _ HS) as (ls & ls' & Hd & Hd' & HC & HO & A & B).
  pose proof (sethiddenw_dense n H ls i w Hd) as S1. pose proof (sethiddenw_dense n' H' ls' i w Hd') as S2.
  destruct (nth_error ls i) as [l|] eqn:El; [|congruence]. destruct (F2_nth _ _ _ _ _ HC El) as (l' & El' & C). rewrite El' in S2.
  destruct S1 as (K1 & Q1 & D1), S2 as (K2 & Q2 & D2). rewrite E in Q1. injection Q1 as <-. exists K2. split; [assumption|].
  eapply dense_same_config; eauto. apply F2_upd; [assumption|]. destruct C as (C1 & C2 & C3 & C4). repeat split; assumption.
Qed.
Lemma upd_upd_id {A} i (a b : A) l : nth_error l i = Some b -> upd i b (upd i a l) = l.
Proof. revert i. induction l as [|c l IH]; intros [|i] E; cbn in *; try discriminate; [congruence|f_equal; auto]. Qed.
Lemma upd_same {A} i (a b : A) l : upd i b (upd i a l) = upd i b l.
Proof. revert i. induction l as [|c l IH]; intros [|i]; cbn; try reflexivity. f_equal; auto. Qed.
(** Setting another matrix first does not matter. *)
Lemma sethiddenw_twice (n : net) (H : lheap) i w w' H1 H2 : dense_hidden n H -> net_sethiddenw n H i w = Ok H1 -> net_sethiddenw n H1 i w' = Ok H2 ->
  exists H3, net_sethiddenw n H i w' = Ok H3 /\ same_config n H2 n H3.
Proof.
  intros Hd E1 E2. destruct (dense_ls n H Hd) as [ls Hdn]. pose proof (sethiddenw_dense n H ls i w Hdn) as S1. pose proof (sethiddenw_dense n H ls i w' Hdn) as S3.
  destruct (nth_error ls i) as [l|] eqn:El; [|congruence]. destruct S1 as (K1 & Q1 & D1), S3 as (K3 & Q3 & D3). rewrite E1 in Q1. injection Q1 as <-.
  pose proof (sethiddenw_dense n H1 _ i w' D1) as S2. assert (Ei : nth_error (upd i (set_W l w) ls) i = Some (set_W l w)) by (rewrite nth_error_upd, Nat.eqb_refl, El; reflexivity).
  rewrite Ei in S2. destruct S2 as (K2 & Q2 & D2). rewrite E2 in Q2. injection Q2 as <-. exists K3. split; [assumption|]. rewrite upd_same in D2.
  eapply dense_same_config; eauto using conf_refl. apply F2_upd; [apply F2conf_refl|]. repeat split.
Qed.
Lemma sethiddenw_own (n : net) (H : lheap) i l H1 : dense_hidden n H -> net_gethidden n H i = Ok l -> net_sethiddenw n H i (l_W l) = Ok H1 -> same_config n H n H1.
Proof.
  intros Hd E E1. destruct (dense_ls n H Hd) as [ls Hdn]. pose proof (sethiddenw_dense n H ls i (l_W l) Hdn) as S1. rewrite (gethidden_at n H ls i) in E by apply Hdn.
  destruct (nth_error ls i) as [m|] eqn:El; [|discriminate]. injection E as ->. destruct S1 as (K1 & Q1 & D1). rewrite E1 in Q1. injection Q1 as <-.
  assert (X : set_W l (l_W l) = l) by (destruct l; reflexivity). rewrite X in D1. eapply dense_same_config; eauto using conf_refl.
  replace ls with (upd i l ls) at 1; [apply F2conf_refl|]. clear -El. revert i El. induction ls as [|c ls IH]; intros [|i] El; cbn in *; try discriminate; [congruence|f_equal; auto].
Qed.

(** ** Specification: cost with the weights of hidden layer i replaced; gradient of layer i by backpropagation. *)
Definition loss_with (n : net) (H : lheap) (x y : mat) (i : nat) (w : mat) : res D :=
  H1 <- net_sethiddenw n H i w ;; '(p, n1, _) <- net_forward junk n H1 x ;; net_computecost n1 p y.
Definition backprop_grad (n : net) (H : lheap) (x y : mat) (i : nat) : res mat :=
  '(_, n1, H1) <- net_forward junk n H x ;; '(n2, H2) <- net_backprop junk n1 H1 y ;; l <- net_gethidden n2 H2 i ;; Ok (l_grad l).
(** The weights at which the k-th entry (in storage order) is probed: entries before k have already been lowered by eps and
    are not put back. *)
Definition lowered (w : D) : D := dsub (dadd w eps) (dmul (dofZ 2) eps).
Definition probed (W : mat) (k : nat) (v : D) : mat :=
  Mat (nr W) (nc W) (map (fun f => if f <? k then lowered (nth f (el W) d0) else if f =? k then v else nth f (el W) d0) (seq 0 (length (el W)))).
Definition estimate (n : net) (H : lheap) (x y : mat) (i : nat) (W : mat) (k : nat) : res D :=
  l1 <- loss_with n H x y i (probed W k (dadd (nth k (el W) d0) eps)) ;;
  l2 <- loss_with n H x y i (probed W k (lowered (nth k (el W) d0))) ;;
  Ok (ddiv (dsub l1 l2) (dmul (dofZ 2) eps)).

Lemma loss_conf (n : net) (H : lheap) (n' : net) (H' : lheap) x y i w v : same_config n H n' H' -> loss_with n H x y i w = Ok v -> loss_with n' H' x y i w = Ok v.
Proof.
  intros HS E. unfold loss_with in *. apply bind_ok in E as (H1 & E1 & E). apply bind_ok in E as ([[p n1] H2] & E2 & E).
  destruct (sethiddenw_conf _ _ _ _ _ _ _ HS E1) as (H1' & -> & S1). cbn [bind]. destruct (forward_conf junk _ _ _ _ _ _ _ _ S1 E2) as (n1' & H2' & -> & S2 & _). cbn [bind].
  destruct S2 as (_ & _ & ls & ls' & _ & _ & _ & _ & C & _). unfold net_computecost in *. now rewrite C.
Qed.
Lemma upd_map_seq {A} (g : nat -> A) len k v : upd k v (map g (seq 0 len)) = map (fun f => if f =? k then v else g f) (seq 0 len).
Proof.
  enough (G : forall a, upd k v (map g (seq a len)) = map (fun f => if f =? k + a then v else g f) (seq a len)) by (rewrite G; apply map_ext; intros; now rewrite Nat.add_0_r).
  revert k. induction len as [|len IH]; intros k a; [destruct k; reflexivity|]. cbn [seq map]. destruct k as [|k]; cbn [upd].
  - cbn [Nat.add]. rewrite Nat.eqb_refl. f_equal. apply map_ext_in. intros f Hf%in_seq. destruct (Nat.eqb_spec f a); [lia|reflexivity].
  - replace (a =? S k + a) with false by (symmetry; apply Nat.eqb_neq; lia). f_equal. rewrite IH. apply map_ext. intros f. now replace (k + S a) with (S k + a) by lia.
Qed.
Lemma nth_err_map_seq {A} (g : nat -> A) len k : k < len -> nth_error (map g (seq 0 len)) k = Some (g k).
Proof. intros. rewrite (nth_error_nth' _ (g 0)) by (rewrite map_length, seq_length; lia). f_equal. rewrite nth_map_seq; auto. Qed.
Lemma map_seq_el (l : list D) : map (fun f => nth f l d0) (seq 0 (length l)) = l.
Proof. apply (list_eq_nth d0); rewrite map_length, seq_length; [reflexivity|]. intros k Hk. now rewrite nth_map_seq. Qed.

Definition low_upto (W : mat) (k : nat) : mat := Mat (nr W) (nc W) (map (fun f => if f <? k then lowered (nth f (el W) d0) else nth f (el W) d0) (seq 0 (length (el W)))).
Lemma low_0 W : low_upto W 0 = W.
Proof. unfold low_upto. destruct W as [r c l]. cbn. f_equal. rewrite <- (map_seq_el l) at 2. apply map_ext. reflexivity. Qed.

Lemma probe_step (x y W : mat) i (n0 : net) (H0 : lheap) l k jk (g : mat) (n : net) (H : lheap) s' : k = fst jk * nc W + snd jk -> k < length (el W) -> nc g = nc W ->
  dense_hidden n0 H0 -> net_gethidden n0 H0 i = Ok l -> l_W l = W ->
  same_config n0 H0 n H -> probe junk x y W i (low_upto W k, g, n, H) jk = Ok s' ->
  exists e n' H', estimate n0 H0 x y i W k = Ok e /\ k < length (el g) /\ s' = (low_upto W (S k), Mat (nr g) (nc g) (upd k e (el g)), n', H') /\ same_config n0 H0 n' H'.
Proof.
  intros Ek Hk Eg Hd0 Hl HW HS E. unfold probe in E. cbn [nc low_upto] in E. rewrite Eg, <- Ek in E.
  unfold flat at 1 in E. cbn [el low_upto] in E. rewrite nth_err_map_seq in E by assumption. cbv beta in E. rewrite Nat.ltb_irrefl in E. cbn [bind] in E.
  unfold set_flat at 1 in E. cbn [el low_upto] in E. rewrite map_length, seq_length in E. apply Nat.ltb_lt in Hk as Hk'. rewrite Hk' in E. cbn [bind] in E.
  rewrite upd_map_seq in E. cbn [nr nc low_upto] in E.
  replace (map (fun f => if f =? k then dadd (nth k (el W) d0) eps else if f <? k then lowered (nth f (el W) d0) else nth f (el W) d0) (seq 0 (length (el W))))
     with (el (probed W k (dadd (nth k (el W) d0) eps))) in E.
  2:{ cbn [el probed]. apply map_ext. intros f. destruct (Nat.eqb_spec f k) as [->|]; [now rewrite Nat.ltb_irrefl|reflexivity]. }
  change (Mat (nr W) (nc W) (el (probed W k (dadd (nth k (el W) d0) eps)))) with (probed W k (dadd (nth k (el W) d0) eps)) in E.
  apply bind_ok in E as (H1 & E1 & E). apply bind_ok in E as ([[p1 n1] H2] & E2 & E). apply bind_ok in E as (v1 & E3 & E).
  unfold flat at 1 in E. cbn [el probed] in E. rewrite nth_err_map_seq in E by assumption. cbv beta in E. rewrite Nat.ltb_irrefl, Nat.eqb_refl in E. cbn [bind] in E.
  unfold set_flat at 1 in E. cbn [el probed] in E. rewrite map_length, seq_length, Hk' in E. cbn [bind] in E. rewrite upd_map_seq in E. cbn [nr nc probed] in E.
  fold (lowered (nth k (el W) d0)) in E.
  replace (map (fun f => if f =? k then lowered (nth k (el W) d0) else if f <? k then lowered (nth f (el W) d0) else if f =? k then dadd (nth k (el W) d0) eps else nth f (el W) d0) (seq 0 (length (el W))))
     with (el (probed W k (lowered (nth k (el W) d0)))) in E.
  2:{ cbn [el probed]. apply map_ext. intros f. destruct (Nat.eqb_spec f k) as [->|]; [now rewrite Nat.ltb_irrefl|reflexivity]. }
  change (Mat (nr W) (nc W) (el (probed W k (lowered (nth k (el W) d0))))) with (probed W k (lowered (nth k (el W) d0))) in E.
  apply bind_ok in E as (H3 & E4 & E). apply bind_ok in E as ([[p2 n2] H4] & E5 & E). apply bind_ok in E as (v2 & E6 & E). apply bind_ok in E as (H5 & E7 & E). apply bind_ok in E as (g' & E8 & E). injection E as <-.
  unfold set_flat in E8. destruct (Nat.ltb_spec k (length (el g))) as [Hkg|]; [|discriminate]. injection E8 as <-.
  (* back to the original network *)
  destruct (sethiddenw_conf _ _ _ _ _ _ _ (same_config_sym _ _ _ _ HS) E1) as (H1' & F1 & S1). apply same_config_sym in S1.
  assert (L1 : loss_with n0 H0 x y i (probed W k (dadd (nth k (el W) d0) eps)) = Ok v1).
  { apply (loss_conf n H n0 H0); [now apply same_config_sym|]. unfold loss_with. rewrite E1. cbn [bind]. rewrite E2. exact E3. }
  (* n1, H2 is the original network with the probed weights *)
  destruct (forward_conf junk _ _ _ _ _ _ _ _ (same_config_sym _ _ _ _ S1) E2) as (m1 & G1 & _ & _ & S2 & _).
  pose proof (same_config_trans _ _ _ _ _ _ S1 S2) as S12.
  destruct (sethiddenw_conf _ _ _ _ _ _ _ (same_config_sym _ _ _ _ S12) E4) as (H3' & F3 & S3). apply same_config_sym in S3.
  destruct (sethiddenw_twice n0 H0 i _ _ _ _ Hd0 F1 F3) as (H3'' & F3'' & S3').
  assert (S3c : same_config n0 H3'' n1 H3) by (eapply same_config_trans; [apply same_config_sym; exact S3'|exact S3]).
  assert (L2 : loss_with n0 H0 x y i (probed W k (lowered (nth k (el W) d0))) = Ok v2).
  { unfold loss_with. rewrite F3''. cbn [bind]. destruct (forward_conf junk _ _ _ _ _ _ _ _ (same_config_sym _ _ _ _ S3c) E5) as (m2 & G2 & -> & S5 & _). cbn [bind].
    destruct S5 as (_ & _ & ls & ls' & _ & _ & _ & _ & C & _). unfold net_computecost in *. now rewrite C. }
  destruct (forward_conf junk _ _ _ _ _ _ _ _ (same_config_sym _ _ _ _ S3c) E5) as (m2 & G2 & _ & _ & S5 & _).
  pose proof (same_config_trans _ _ _ _ _ _ S3c S5) as S35.
  destruct (sethiddenw_conf _ _ _ _ _ _ _ (same_config_sym _ _ _ _ S35) E7) as (H5' & F5 & S6). apply same_config_sym in S6.
  destruct (sethiddenw_twice n0 H0 i _ _ _ _ Hd0 F3'' F5) as (H6 & F6 & S7). rewrite <- HW in F6. pose proof (sethiddenw_own n0 H0 i l H6 Hd0 Hl F6) as S8.
  exists (ddiv (dsub v1 v2) (dmul (dofZ 2) eps)), n2, H5. split; [unfold estimate; rewrite L1; cbn [bind]; rewrite L2; reflexivity|]. split; [assumption|]. split.
  - f_equal. f_equal. f_equal. unfold low_upto, probed. f_equal. apply map_ext. intros f. destruct (Nat.eqb_spec f k) as [->|Ne].
    + rewrite Nat.ltb_irrefl. replace (k <? S k) with true by (symmetry; apply Nat.ltb_lt; lia). reflexivity.
    + destruct (Nat.ltb_spec f k); [replace (f <? S k) with true by (symmetry; apply Nat.ltb_lt; lia); reflexivity|replace (f <? S k) with false by (symmetry; apply Nat.ltb_ge; lia); reflexivity].
  - eapply same_config_trans; [exact S8|]. eapply same_config_trans; [apply same_config_sym; exact S7|]. exact S6.
Qed.

Lemma upd_nth_other {A} k (v : A) l f d : f <> k -> nth f (upd k v l) d = nth f l d.
Proof. revert k f. induction l as [|a l IH]; intros [|k] [|f] N; cbn; try reflexivity; try lia. apply IH. lia. Qed.
Lemma upd_nth_same {A} k (v : A) l d : k < length l -> nth k (upd k v l) d = v.
Proof. revert k. induction l as [|a l IH]; intros [|k] N; cbn in *; try lia; [reflexivity|]. apply IH. lia. Qed.
Lemma probe_loop (x y W : mat) i (n0 : net) (H0 : lheap) l : dense_hidden n0 H0 -> net_gethidden n0 H0 i = Ok l -> l_W l = W ->
  forall jks k m (g : mat) (n : net) (H : lheap) p' g' n' H', map (fun jk => fst jk * nc W + snd jk) jks = seq k m -> k + m = length (el W) -> nc g = nc W ->
  same_config n0 H0 n H -> foldM (probe junk x y W i) jks (low_upto W k, g, n, H) = Ok (p', g', n', H') ->
  same_config n0 H0 n' H' /\ nr g' = nr g /\ nc g' = nc g /\ length (el g') = length (el g) /\
  (forall f, f < k -> nth f (el g') d0 = nth f (el g) d0) /\ (forall f, k <= f < k + m -> estimate n0 H0 x y i W f = Ok (nth f (el g') d0)).
Proof.
  intros Hd Hl HW. induction jks as [|jk jks IH]; intros k m g n H p' g' n' H' Em Ekm Eg HS E.
  - destruct m; [|discriminate]. cbn in E. injection E as <- <- <- <-. split; [assumption|]. repeat split; auto. intros; lia.
  - destruct m as [|m]; [discriminate|]. cbn [map seq] in Em. injection Em as Ek Em. cbn [foldM] in E. apply bind_ok in E as (s1 & E1 & E).
    destruct (probe_step x y W i n0 H0 l k jk g n H s1 (eq_sym Ek) ltac:(lia) Eg Hd Hl HW HS E1) as (e & n1 & H1 & Q1 & Q2 & -> & Q4).
    destruct (IH (S k) m (Mat (nr g) (nc g) (upd k e (el g))) _ _ _ _ _ _ Em ltac:(lia) Eg Q4 E) as (R1 & R2 & R3 & R4 & R5 & R6). cbn [nr nc el] in *. rewrite upd_length in R4.
    split; [assumption|]. split; [assumption|]. split; [assumption|]. split; [assumption|]. split.
    + intros f Hf. rewrite R5 by lia. now rewrite upd_nth_other by lia.
    + intros f Hf. destruct (Nat.eq_dec f k) as [->|Ne]; [rewrite R5 by lia; now rewrite upd_nth_same by assumption|apply R6; lia].
Qed.

(** Gradient members as large as the weights (constructors and backpropagation establish this). *)
Definition grad_shaped (l : layer) : Prop := wf (l_W l) /\ wf (l_grad l) /\ nr (l_grad l) = nr (l_W l) /\ nc (l_grad l) = nc (l_W l).
Definition grads_shaped (n : net) (H : lheap) : Prop := forall i l, net_gethidden n H i = Ok l -> grad_shaped l.

Lemma lback_shaped : forall ls d a ls', lbackprop ls d = Ok (a, ls') -> Forall (fun l : layer => wf (l_grad l) /\ nr (l_grad l) = nr (l_W l) /\ nc (l_grad l) = nc (l_W l)) ls'.
Proof.
  induction ls as [|l ls IH]; intros d a ls' E; cbn [lbackprop] in E; [injection E as <- <-; constructor|].
  apply bind_ok in E as ([b k] & K1 & E). apply bind_ok in E as ([c q] & K2 & E). injection E as <- <-. constructor; [|eapply IH; eauto].
  apply backprop_inv in K2 as (Hb & _ & ->). unfold back_ok in Hb. cbn [back_layer l_grad l_W]. unfold grad_of. split; [apply wf_mk|]. cbn [nr nc mk back_delta]. tauto.
Qed.
Lemma gethidden_conf (n : net) (H : lheap) (n' : net) (H' : lheap) i l' : same_config n H n' H' -> net_gethidden n' H' i = Ok l' -> exists l, net_gethidden n H i = Ok l /\ conf l l'.
Proof.
  intros HS E. apply same_config_sym in HS. destruct (same_config_dense _ _ _ _ HS) as (ls & ls' & Hd & Hd' & HC & _). rewrite (gethidden_at n' H' ls) in E by apply Hd. rewrite (gethidden_at n H ls') by apply Hd'.
  destruct (nth_error ls i) as [l|] eqn:El; [|discriminate]. injection E as ->. destruct (F2_nth _ _ _ _ _ HC El) as (m & -> & C). exists m. split; [reflexivity|]. now apply conf_sym.
Qed.

Lemma check_layer_inv (x y : mat) (n0 : net) (H0 : lheap) (b : bool) (n : net) (H : lheap) i b' n' H' : same_config n0 H0 n H -> grads_shaped n0 H0 -> grads_shaped n H ->
  check_layer junk x y (b, n, H) i = Ok (b', n', H') ->
  same_config n0 H0 n' H' /\ grads_shaped n' H' /\
  exists l g es, net_gethidden n0 H0 i = Ok l /\ backprop_grad n0 H0 x y i = Ok g /\ nr g = nr (l_W l) /\ nc g = nc (l_W l) /\ wf g /\
    length es = length (el (l_W l)) /\ (forall k, k < length (el (l_W l)) -> estimate n0 H0 x y i (l_W l) k = Ok (nth k es d0)) /\
    b' = (if forallb (fun k => negb (close (nth k es d0) (nth k (el g) d0))) (seq 0 (length (el (l_W l)))) then b else false).
Proof.
  intros HS G0 HG E. unfold check_layer in E. apply bind_ok in E as (l & E1 & E). apply bind_ok in E as ([[[p1 g1] n1] H1] & E2 & E). apply bind_ok in E as ([[a n2] H2] & E3 & E).
  apply bind_ok in E as ([n3 H3] & E4 & E). apply bind_ok in E as (t & E5 & E). apply bind_ok in E as (bb & E6 & E). injection E as <- <- <-.
  destruct (gethidden_conf _ _ _ _ _ _ HS E1) as (l0 & L0 & C0). pose proof C0 as (CW & _). destruct (HG _ _ E1) as (W1 & W2 & W3 & W4).
  assert (Hd0 : dense_hidden n0 H0) by apply HS.
  rewrite <- (low_0 (l_W l)) in E2 at 4. rewrite CW in *.
  destruct (probe_loop x y (l_W l0) i n0 H0 l0 Hd0 L0 eq_refl _ 0 (nr (l_W l0) * nc (l_W l0)) _ _ _ _ _ _ _ (rowmajor_flat _ _) ltac:(symmetry; exact W1) W4 HS E2) as (S1 & P1 & P2 & P3 & _ & P5).
  (* forward and backward from the restored network *)
  destruct (forward_conf junk _ _ _ _ _ _ _ _ (same_config_sym _ _ _ _ S1) E3) as (m2 & G2 & F2 & S2 & _ & _ & _ & _ & _ & _ & _ & BP).
  destruct (BP _ _ _ E4) as (m3 & G3 & F3 & S3 & S3' & _ & _ & _ & _ & k2 & k2' & D2 & D2' & EG & _).
  pose proof (same_config_trans _ _ _ _ _ _ S1 S3') as S4. split; [assumption|].
  destruct S1 as (T1 & T2 & lsx). destruct (dense_ls _ _ T2) as [ls1 Hdn1].
  destruct (pass_dense junk n1 H1 ls1 x y a n2 H2 n3 H3 Hdn1 E3 E4) as (bb0 & ls1' & delta & ls2 & dx & _ & Hp). cbn zeta in Hp. destruct Hp as (_ & _ & _ & _ & _ & LB & _ & Hdn3 & _).
  pose proof (lback_shaped _ _ _ _ LB) as LS.
  assert (GS : grads_shaped n3 H3).
  { intros j m Hm. destruct (gethidden_conf _ _ _ _ _ _ S4 Hm) as (m0 & M0 & (Cw & _)). destruct (G0 _ _ M0) as (WW & _). rewrite (gethidden_at n3 H3 ls2) in Hm by apply Hdn3.
    destruct (nth_error ls2 j) as [mm|] eqn:Ej; [|discriminate]. injection Hm as ->. pose proof (proj1 (Forall_forall _ _) LS m (nth_error_In _ _ Ej)) as (A1 & A2 & A3).
    unfold grad_shaped. rewrite Cw in *. auto. }
  split; [assumption|]. destruct (GS _ _ E5) as (U1 & U2 & U3 & U4). destruct (gethidden_conf _ _ _ _ _ _ S4 E5) as (t0 & T0 & (Ct & _)). rewrite L0 in T0. injection T0 as <-. rewrite Ct in *.
  exists l0, (l_grad t), (el g1). split; [assumption|]. split.
  { unfold backprop_grad. rewrite F2. cbn [bind]. rewrite F3. cbn [bind]. rewrite (gethidden_at n3 H3 k2) in E5 by apply D2. rewrite (gethidden_at m3 G3 k2') by apply D2'.
    destruct (nth_error k2 i) as [tt|] eqn:Et; [|discriminate]. injection E5 as ->. destruct (F2_nth _ _ _ _ _ EG Et) as (t' & -> & [_ Eg]). cbn [bind]. now rewrite Eg. }
  split; [assumption|]. split; [assumption|]. split; [assumption|]. unfold wf in *. rewrite W3, W4 in W2. split; [congruence|]. split; [intros k Hk; apply P5; lia|].
  rewrite issame_eq in E6 by (unfold wf; congruence). injection E6 as <-. rewrite P3, W2, <- W1. reflexivity.
Qed.

(** What gc_check answers from any state that agrees with (n, H) in all but the intermediate results. *)
Lemma check_from (x y : mat) (n : net) (H : lheap) (ns : net) (Hs : lheap) b n' H' : same_config n H ns Hs -> grads_shaped n H -> grads_shaped ns Hs -> n_hidden ns = n_hidden n ->
  gc_check junk x y ns Hs = Ok (b, n', H') ->
  same_config n H n' H' /\ grads_shaped n' H' /\
  (forall i l, net_gethidden n H i = Ok l -> exists g es, backprop_grad n H x y i = Ok g /\ nr g = nr (l_W l) /\ nc g = nc (l_W l) /\ wf g /\
     length es = length (el (l_W l)) /\ (forall k, k < length (el (l_W l)) -> estimate n H x y i (l_W l) k = Ok (nth k es d0))) /\
  (b = true <-> forall i l g k e, net_gethidden n H i = Ok l -> backprop_grad n H x y i = Ok g -> k < length (el (l_W l)) -> estimate n H x y i (l_W l) k = Ok e ->
     close e (nth k (el g) d0) = false).
Proof.
  intros S0 G0 Gs EH E. unfold gc_check in E. rewrite EH in E.
  assert (Loop : forall len a b0 (n1 : net) (H1 : lheap) b1 n2 H2, same_config n H n1 H1 -> grads_shaped n1 H1 -> foldM (check_layer junk x y) (seq a len) (b0, n1, H1) = Ok (b1, n2, H2) ->
    same_config n H n2 H2 /\ grads_shaped n2 H2 /\
    (forall i, a <= i < a + len -> exists l g es, net_gethidden n H i = Ok l /\ backprop_grad n H x y i = Ok g /\ nr g = nr (l_W l) /\ nc g = nc (l_W l) /\ wf g /\
      length es = length (el (l_W l)) /\ (forall k, k < length (el (l_W l)) -> estimate n H x y i (l_W l) k = Ok (nth k es d0))) /\
    (b1 = true <-> b0 = true /\ forall i l g k e, a <= i < a + len -> net_gethidden n H i = Ok l -> backprop_grad n H x y i = Ok g -> k < length (el (l_W l)) -> estimate n H x y i (l_W l) k = Ok e ->
      close e (nth k (el g) d0) = false)).
  { induction len as [|len IH]; intros a b0 n1 H1 b1 n2 H2 S1 G1 F.
    - cbn in F. injection F as <- <- <-. split; [assumption|]. split; [assumption|]. split; [intros; lia|]. split; [intros ->; split; [reflexivity|intros; lia]|tauto].
    - cbn [seq foldM] in F. apply bind_ok in F as ([[bm nm] Hm] & F1 & F).
      destruct (check_layer_inv x y n H b0 n1 H1 a bm nm Hm S1 G0 G1 F1) as (S2 & G2 & l & g & es & Q1 & Q2 & Q3 & Q4 & Q5 & Q6 & Q7 & Q8).
      destruct (IH (S a) bm nm Hm b1 n2 H2 S2 G2 F) as (R1 & RG & R2 & R3). split; [assumption|]. split; [assumption|]. split.
      + intros i Hi. destruct (Nat.eq_dec i a) as [->|]; [exists l, g, es; auto 10|apply R2; lia].
      + rewrite R3, Q8. clear R3 F F1 IH. split.
        * intros [Hb Hr]. destruct (forallb _ _) eqn:FB; [|discriminate]. split; [assumption|]. intros i l' g' k e Hi L' B' Hk Es. destruct (Nat.eq_dec i a) as [->|]; [|eapply Hr; eauto; lia].
          pose proof (eq_trans (eq_sym L') Q1) as X. injection X as ->. pose proof (eq_trans (eq_sym B') Q2) as X. injection X as ->. rewrite Q7 in Es by assumption. injection Es as <-.
          rewrite forallb_forall in FB. apply negb_true_iff. apply FB. apply in_seq. lia.
        * intros [Hb Hr]. split; [|intros; eapply Hr; eauto; lia].
          assert (FB : forallb (fun k => negb (close (nth k es d0) (nth k (el g) d0))) (seq 0 (length (el (l_W l)))) = true).
          { apply forallb_forall. intros k Hk%in_seq. apply negb_true_iff. eapply (Hr a); eauto; try lia. apply Q7. lia. }
          now rewrite FB. }
  destruct (Loop _ _ _ _ _ _ _ _ S0 Gs E) as (R1 & RG & R2 & R3). cbn [Nat.add] in *.
  assert (Bd : forall i l, net_gethidden n H i = Ok l -> i < length (n_hidden n)).
  { intros i l Hl. unfold net_gethidden in Hl. destruct (nth_error (n_hidden n) i) eqn:En; [|discriminate]. apply nth_error_Some. congruence. }
  split; [assumption|]. split; [assumption|]. split.
  - intros i l Hl. destruct (R2 i) as (l' & g & es & Q & X); [specialize (Bd _ _ Hl); lia|]. pose proof (eq_trans (eq_sym Hl) Q) as Y. injection Y as <-. exists g, es. exact X.
  - rewrite R3. split.
    + intros [_ Hr] i l g k e Hl. apply Hr; [specialize (Bd _ _ Hl); lia|assumption].
    + intros Hr. split; [reflexivity|]. intros i l g k e _. apply Hr.
Qed.
(** GradientChecker::check() on a network of distinct dense hidden layers, whatever the data, whenever it returns:
    - the weights, rates, regularisation and activations of the network are as before;
    - its answer is true iff for every hidden layer, every entry of the numerical estimate (a central difference in which
      the previously probed weights stay lowered by eps) is NOT within 1e-6 of the gradient computed by backpropagation.
    The output layer is never looked at. *)
Theorem C57_check : forall (x y : mat) (n : net) (H : lheap) b n' H', dense_hidden n H -> grads_shaped n H -> gc_check junk x y n H = Ok (b, n', H') ->
  same_config n H n' H' /\
  (forall i l, net_gethidden n H i = Ok l -> exists g es, backprop_grad n H x y i = Ok g /\ nr g = nr (l_W l) /\ nc g = nc (l_W l) /\ wf g /\
     length es = length (el (l_W l)) /\ (forall k, k < length (el (l_W l)) -> estimate n H x y i (l_W l) k = Ok (nth k es d0))) /\
  (b = true <-> forall i l g k e, net_gethidden n H i = Ok l -> backprop_grad n H x y i = Ok g -> k < length (el (l_W l)) -> estimate n H x y i (l_W l) k = Ok e ->
     dltb (dabs (dsub e (nth k (el g) d0))) (dlit 1 6) = false).
Proof.
  intros x y n H b n' H' Hd G0 E. destruct (check_from x y n H n H b n' H' (same_config_refl n H Hd) G0 G0 eq_refl E) as (A & _ & B & C). auto.
Qed.
(** Without hidden layers it always answers true. *)
Theorem C57_no_hidden : forall (x y : mat) (n : net) (H : lheap), n_hidden n = [] -> gc_check junk x y n H = Ok (true, n, H).
Proof. intros x y n H E. unfold gc_check. rewrite E. reflexivity. Qed.

(** ** It does return, on networks whose sizes chain and data of the right shape. *)
Lemma fits_conf : forall ls ls' : list layer, Forall2 conf ls ls' -> forall p q, fits p ls q -> fits p ls' q.
Proof. induction 1 as [|l m ls ls' (A & _) F IH]; intros p q Hf; cbn [fits] in *; [assumption|]. rewrite A. destruct Hf as (X & Y & Z). auto. Qed.
Lemma well_conf (n : net) (H : lheap) (n' : net) (H' : lheap) p c : same_config n H n' H' -> well_sized n H p c -> well_sized n' H' p c.
Proof.
  intros HS (Hd & (ls & E & q & A1 & A2 & A3 & A4) & B & C). destruct HS as (_ & Hd' & k & k' & K & K' & F & (O1 & _) & Q1 & Q2). pose proof (eq_trans (eq_sym E) K) as X. injection X as <-.
  split; [assumption|]. split; [|now rewrite Q1, Q2]. exists k'. split; [assumption|]. exists q. rewrite O1. split; [eapply fits_conf; eauto|]. auto.
Qed.
Definition dims (l : layer) (r c : nat) : Prop := nr (l_W l) = r /\ nc (l_W l) = c.
Lemma fits_upd : forall (ls : list layer) i l w p q, nth_error ls i = Some l -> nr w = nr (l_W l) -> nc w = nc (l_W l) -> fits p ls q -> fits p (upd i (set_W l w) ls) q.
Proof.
  induction ls as [|m ls IH]; intros [|i] l w p q E A B Hf; cbn [nth_error upd fits] in *; try discriminate.
  - injection E as ->. cbn. rewrite A, B. assumption.
  - destruct Hf as (X & Y & Z). split; [assumption|]. split; [assumption|]. eapply IH; eauto.
Qed.
Lemma well_set (n : net) (H : lheap) p c i l r c0 w : well_sized n H p c -> net_gethidden n H i = Ok l -> dims l r c0 -> nr w = r -> nc w = c0 ->
  exists H1 l1, net_sethiddenw n H i w = Ok H1 /\ well_sized n H1 p c /\ net_gethidden n H1 i = Ok l1 /\ dims l1 r c0.
Proof.
  intros Hw Hl [Dl1 Dl2] W1 W2. apply well_fits in Hw as ((ls & Hdn & q & A1 & A2 & A3 & A4 & A5) & B & C). rewrite (gethidden_at n H ls) in Hl by apply Hdn.
  pose proof (sethiddenw_dense n H ls i w Hdn) as S1. destruct (nth_error ls i) as [m|] eqn:El; [|discriminate]. injection Hl as ->. destruct S1 as (H1 & E1 & D1).
  exists H1, (set_W l w). split; [assumption|]. split.
  - apply well_fits. split; [|auto]. exists (upd i (set_W l w) ls). split; [assumption|]. exists q. split; [|auto]. apply fits_upd; auto; congruence.
  - rewrite (gethidden_at n H1 (upd i (set_W l w) ls)) by apply D1. rewrite nth_error_upd, Nat.eqb_refl, El. split; [reflexivity|]. split; cbn; congruence.
Qed.
Lemma well_forward (n : net) (H : lheap) p c x y : 1 <= p -> well_sized n H p c -> samples p c (x, y) ->
  exists a n1 H1 v, net_forward junk n H x = Ok (a, n1, H1) /\ net_computecost n1 a y = Ok v /\ well_sized n1 H1 p c /\ same_config n H n1 H1 /\
    exists n2 H2, net_backprop junk n1 H1 y = Ok (n2, H2).
Proof.
  intros Hp Hw (S1 & S2 & S3 & S4). cbn [fst snd] in *. pose proof (proj1 (well_fits _ _ _ _) Hw) as ((ls & Hf) & B & C).
  destruct (forward_backward_ok junk n H ls p c x y Hf Hp S1 S2 S3 S4) as (a & n1 & H1 & n2 & H2 & ls2 & A1 & A2 & A3 & A4 & _).
  assert (Hd : dense_hidden n H) by apply Hw.
  destruct (forward_conf junk _ _ _ _ _ _ _ _ (same_config_refl n H Hd) A1) as (_ & _ & _ & _ & SC & _).
  pose proof (well_conf _ _ _ _ _ _ SC Hw) as Hw1.
  destruct (builtin_sized_cost (n_cost n1)) with (y := y) (h := a) as [J EJ]; [apply well_fits in Hw1; apply Hw1|lia|lia|].
  exists a, n1, H1, (sumall J). split; [assumption|]. split; [unfold net_computecost; now rewrite EJ|]. split; [assumption|]. split; [assumption|]. eauto.
Qed.
Lemma flat_ok (m : mat) k : k < length (el m) -> exists v, flat m k = Ok v.
Proof. intros Hk. unfold flat. destruct (nth_error (el m) k) eqn:E; [eauto|]. apply nth_error_None in E. lia. Qed.
Lemma set_flat_ok (m : mat) k v : k < length (el m) -> exists m', set_flat m k v = Ok m' /\ nr m' = nr m /\ nc m' = nc m /\ length (el m') = length (el m).
Proof. intros Hk. unfold set_flat. apply Nat.ltb_lt in Hk. rewrite Hk. eexists. split; [reflexivity|]. cbn. now rewrite upd_length. Qed.
Definition loop_inv (p c r c0 i : nat) (s : mat * mat * net * lheap) : Prop :=
  let '(pt, g, n, H) := s in well_sized n H p c /\ (exists l, net_gethidden n H i = Ok l /\ dims l r c0) /\
    nr pt = r /\ nc pt = c0 /\ wf pt /\ nr g = r /\ nc g = c0 /\ wf g.
Lemma probe_ok (x y W : mat) i p c r c0 s jk : 1 <= p -> samples p c (x, y) -> nr W = r -> nc W = c0 -> fst jk < r -> snd jk < c0 -> loop_inv p c r c0 i s ->
  exists s', probe junk x y W i s jk = Ok s' /\ loop_inv p c r c0 i s'.
Proof.
  intros Hp Hs W1 W2 Hj Hk. destruct s as [[[pt g] n] H]. intros (Hw & (l & Hl & Dl) & P1 & P2 & P3 & G1 & G2 & G3). unfold probe. unfold wf in *.
  assert (Ep : fst jk * nc pt + snd jk < length (el pt)) by (rewrite P3; nia).
  destruct (flat_ok pt _ Ep) as [v ->]. cbn [bind]. destruct (set_flat_ok pt _ (dadd v eps) Ep) as (p1 & -> & Q1 & Q2 & Q3). cbn [bind].
  destruct (well_set n H p c i l r c0 p1 Hw Hl Dl ltac:(congruence) ltac:(congruence)) as (H1 & l1 & -> & Hw1 & Hl1 & Dl1). cbn [bind].
  destruct (well_forward n H1 p c x y Hp Hw1 Hs) as (a1 & n1 & H1' & v1 & -> & V1 & Hw1' & SC1 & _). cbn [bind]. rewrite V1. cbn [bind].
  rewrite <- Q3 in Ep. destruct (flat_ok p1 _ Ep) as [v' ->]. cbn [bind]. destruct (set_flat_ok p1 _ (dsub v' (dmul (dofZ 2) eps)) Ep) as (p2 & -> & Q4 & Q5 & Q6). cbn [bind].
  destruct (gethidden_conf _ _ _ _ i l1 (same_config_sym _ _ _ _ SC1) Hl1) as (l2 & Hl2 & (C2 & _)). assert (Dl2 : dims l2 r c0) by (destruct Dl1; split; congruence).
  destruct (well_set n1 H1' p c i l2 r c0 p2 Hw1' Hl2 Dl2 ltac:(congruence) ltac:(congruence)) as (H2 & l3 & -> & Hw2 & Hl3 & Dl3). cbn [bind].
  destruct (well_forward n1 H2 p c x y Hp Hw2 Hs) as (a2 & n2 & H2' & v2 & -> & V2 & Hw2' & SC2 & _). cbn [bind]. rewrite V2. cbn [bind].
  destruct (gethidden_conf _ _ _ _ i l3 (same_config_sym _ _ _ _ SC2) Hl3) as (l4 & Hl4 & (C4 & _)). assert (Dl4 : dims l4 r c0) by (destruct Dl3; split; congruence).
  destruct (well_set n2 H2' p c i l4 r c0 W Hw2' Hl4 Dl4 ltac:(congruence) ltac:(congruence)) as (H3 & l5 & -> & Hw3 & Hl5 & Dl5). cbn [bind].
  assert (Eg : fst jk * nc g + snd jk < length (el g)) by (rewrite G3; nia).
  destruct (set_flat_ok g _ (ddiv (dsub v1 v2) (dmul (dofZ 2) eps)) Eg) as (g' & -> & R1 & R2 & R3). cbn [bind]. eexists. split; [reflexivity|].
  split; [assumption|]. split; [exists l5; auto|]. unfold wf. repeat split; congruence.
Qed.

Theorem C57_returns : forall (x y : mat) (n : net) (H : lheap) p c, 1 <= p -> well_sized n H p c -> samples p c (x, y) -> grads_shaped n H ->
  exists b n' H', gc_check junk x y n H = Ok (b, n', H').
Proof.
  intros x y n H p c Hp Hw Hs G0. unfold gc_check.
  assert (Bd : forall i, i < length (n_hidden n) -> exists l, net_gethidden n H i = Ok l).
  { intros i Hi. destruct (dense_ls n H (proj1 Hw)) as [ls Hdn]. rewrite (gethidden_at n H ls) by apply Hdn. rewrite (dense_len _ _ _ (proj2 Hdn)) in Hi. destruct (nth_error ls i) eqn:En; [eauto|]. apply nth_error_None in En. lia. }
  assert (HS0 : same_config n H n H) by apply same_config_refl, Hw.
  assert (Loop : forall len a b0 (n1 : net) (H1 : lheap), a + len <= length (n_hidden n) -> same_config n H n1 H1 -> grads_shaped n1 H1 ->
     exists b n' H', foldM (check_layer junk x y) (seq a len) (b0, n1, H1) = Ok (b, n', H')).
  { induction len as [|len IH]; intros a b0 n1 H1 Ha S1 G1; cbn [seq foldM]; [eauto|].
    destruct (Bd a ltac:(lia)) as [l Hl]. destruct (gethidden_conf _ _ _ _ a l (same_config_sym _ _ _ _ S1) Hl) as (l1 & Hl1 & (Cw & _)). destruct (G1 _ _ Hl1) as (W1 & W2 & W3 & W4).
    pose proof (well_conf _ _ _ _ _ _ S1 Hw) as Hw1.
    assert (Step : exists s', check_layer junk x y (b0, n1, H1) a = Ok s').
    { unfold check_layer. rewrite Hl1. cbn [bind].
      destruct (foldM_inv (loop_inv p c (nr (l_W l1)) (nc (l_W l1)) a) (probe junk x y (l_W l1) a) (rowmajor (nr (l_W l1)) (nc (l_W l1)))) with (s := (l_W l1, l_grad l1, n1, H1)) as ([[[pt g] n2] H2] & -> & I1).
      - intros jk Hjk s HI. apply probe_ok; auto; unfold rowmajor in Hjk; apply in_flat_map in Hjk as (u & U1%in_seq & U2); apply in_map_iff in U2 as (v & <- & V%in_seq); cbn; lia.
      - split; [assumption|]. split; [exists l1; split; [assumption|split; reflexivity]|]. auto 10.
      - cbn [bind]. destruct I1 as (Hw2 & (l2 & Hl2 & Dl2) & _ & _ & _ & J1 & J2 & J3).
        destruct (well_forward n2 H2 p c x y Hp Hw2 Hs) as (a2 & n3 & H3 & v & F & _ & Hw3 & SC & n4 & H4 & B). rewrite F. cbn [bind]. rewrite B. cbn [bind].
        destruct (forward_conf junk _ _ _ _ _ _ _ _ (same_config_refl n2 H2 (proj1 Hw2)) F) as (m & M & _ & _ & _ & _ & _ & _ & _ & _ & _ & BP). destruct (BP _ _ _ B) as (_ & _ & _ & _ & SC4 & _).
        destruct (gethidden_conf _ _ _ _ a l2 (same_config_sym _ _ _ _ SC4) Hl2) as (l4 & Hl4 & (C4 & _)). rewrite Hl4. cbn [bind].
        assert (Gs : wf (l_grad l4)).
        { destruct (dense_ls _ _ (proj1 Hw2)) as [k2 Hk2]. destruct (pass_dense junk n2 H2 k2 x y a2 n3 H3 n4 H4 Hk2 F B) as (? & ? & ? & k4 & ? & _ & Hpd). cbn zeta in Hpd. destruct Hpd as (_ & _ & _ & _ & _ & LB & _ & Hdn4 & _).
          rewrite (gethidden_at n4 H4 k4) in Hl4 by apply Hdn4. destruct (nth_error k4 a) as [q|] eqn:Eq; [|discriminate]. injection Hl4 as ->.
          apply lback_shaped in LB. rewrite Forall_forall in LB. apply (LB l4). eapply nth_error_In; eauto. }
        destruct (C57_issame g (l_grad l4) J3 Gs) as (bb & -> & _). cbn [bind]. eauto. }
    destruct Step as ([[b1 n2] H2] & Es). rewrite Es. cbn [bind]. destruct (check_layer_inv x y n H b0 n1 H1 a b1 n2 H2 S1 G0 G1 Es) as (S2 & G2 & _). apply IH; auto; lia. }
  apply (Loop _ 0 true n H); auto.
Qed.
(** ** The checker works on the caller's own layers *)
Lemma forward_hidden (n : net) (H : lheap) x a n' H' : net_forward junk n H x = Ok (a, n', H') -> n_hidden n' = n_hidden n.
Proof.
  unfold net_forward. destruct (input_forward (n_input n) x) as [cur i']. intros HF. apply bind_ok in HF as ([cur' H3] & _ & HF).
  apply bind_ok in HF as ([r o'] & _ & HF). now injection HF as _ <- _.
Qed.
Lemma backprop_hidden (n : net) (H : lheap) y n' H' : net_backprop junk n H y = Ok (n', H') -> n_hidden n' = n_hidden n.
Proof. unfold net_backprop. intros HB. apply bind_ok in HB as ([d o2] & _ & HB). apply bind_ok in HB as (H4 & _ & HB). now injection HB as <- _. Qed.
Lemma probe_hidden (x y W : mat) i : forall jks (p g : mat) (n : net) (H : lheap) p' g' n' H', foldM (probe junk x y W i) jks (p, g, n, H) = Ok (p', g', n', H') -> n_hidden n' = n_hidden n.
Proof.
  induction jks as [|jk jks IH]; intros p g n H p' g' n' H' E; cbn [foldM] in E; [now injection E as _ _ <- _|]. apply bind_ok in E as ([[[p1 g1] n1] H1] & E1 & E). rewrite (IH _ _ _ _ _ _ _ _ E).
  unfold probe in E1. apply bind_ok in E1 as (? & _ & E1). apply bind_ok in E1 as (? & _ & E1). apply bind_ok in E1 as (? & _ & E1). apply bind_ok in E1 as ([[? na] ?] & F1 & E1).
  apply bind_ok in E1 as (? & _ & E1). apply bind_ok in E1 as (? & _ & E1). apply bind_ok in E1 as (? & _ & E1). apply bind_ok in E1 as (? & _ & E1). apply bind_ok in E1 as ([[? nb] ?] & F2 & E1).
  apply bind_ok in E1 as (? & _ & E1). apply bind_ok in E1 as (? & _ & E1). apply bind_ok in E1 as (? & _ & E1). injection E1 as _ _ <- _. apply forward_hidden in F1, F2. congruence.
Qed.
Lemma check_hidden (x y : mat) : forall is_ b (n : net) (H : lheap) b' n' H', foldM (check_layer junk x y) is_ (b, n, H) = Ok (b', n', H') -> n_hidden n' = n_hidden n.
Proof.
  induction is_ as [|i is_ IH]; intros b n H b' n' H' E; cbn [foldM] in E; [now injection E as _ <- _|]. apply bind_ok in E as ([[b1 n1] H1] & E1 & E). rewrite (IH _ _ _ _ _ _ E).
  unfold check_layer in E1. apply bind_ok in E1 as (? & _ & E1). apply bind_ok in E1 as ([[[? ?] na] ?] & F0 & E1). apply bind_ok in E1 as ([[? nb] ?] & F1 & E1). apply bind_ok in E1 as ([nc_ ?] & F2 & E1).
  apply bind_ok in E1 as (? & _ & E1). apply bind_ok in E1 as (? & _ & E1). injection E1 as _ <- _. apply probe_hidden in F0. apply forward_hidden in F1. apply backprop_hidden in F2. congruence.
Qed.
(** Constructing a checker for a network and running it, for all random data: the CALLER's network (whose hidden layers the
    checker shares) still has the same weights, rates, regularisation and activations afterwards, and computes the same
    function; the checker's data have one row, as many columns as the input layer has nodes, and are the first random numbers drawn; the label
    the next ones. *)
Theorem C57_caller : forall draw rnd (dflt n : net) (H : lheap) ck b ck' H', dense_hidden n H -> grads_shaped n H ->
  gc_new junk draw rnd dflt n = Ok ck -> gc_run junk ck H = Ok (b, ck', H') ->
  same_config n H n H' /\
  nr (gc_data ck) = 1 /\ nc (gc_data ck) = nc (l_W (n_input n)) /\ nr (gc_label ck) = 1 /\ nc (gc_label ck) = nc (l_W (o_l (n_output n))) /\
  (forall j, j < nc (gc_data ck) -> at_ (gc_data ck) 0 j = rnd j) /\ (forall j, j < nc (gc_label ck) -> at_ (gc_label ck) 0 j = rnd (nc (gc_data ck) + j)).
Proof.
  intros draw rnd dflt n H ck b ck' H' Hd HG E1 E2. unfold gc_new in E1. apply bind_ok in E1 as (inp & I1 & E1). injection E1 as <-. unfold gc_run in E2. cbn [gc_net gc_data gc_label] in E2.
  apply bind_ok in E2 as ([[b1 n1] H1] & E2 & E3). injection E3 as -> <- ->. split.
  - assert (S0 : same_config n H (net_assign dflt n) H).
    { destruct (dense_ls n H Hd) as [ls Hdn]. eapply dense_same_config; [exact Hdn|exact Hdn|apply F2conf_refl| |reflexivity|reflexivity]. repeat split. }
    assert (G1 : grads_shaped (net_assign dflt n) H) by exact HG.
    destruct (C57_check _ _ _ _ _ _ _ (proj1 (proj2 S0)) G1 E2) as (S1 & _). pose proof (same_config_trans _ _ _ _ _ _ S0 S1) as S2.
    unfold gc_check in E2. apply check_hidden in E2. cbn [net_assign n_hidden] in E2. destruct (same_config_dense _ _ _ _ S2) as (ls & ls' & D1 & D2 & C & _).
    eapply dense_same_config; [exact D1| |exact C|apply conf_refl|reflexivity|reflexivity]. unfold dense_net in *. now rewrite <- E2.
  - cbn [gc_data gc_label]. split; [reflexivity|]. split; [|split; [reflexivity|split; [reflexivity|split; intros j Hj; rewrite at_mk by (cbn in Hj; lia); reflexivity]]]. unfold net_getinput, input_copy, layer_new in I1. destruct (_ && _) in I1; [|discriminate]. injection I1 as <-. cbn. lia.
Qed.
(** check() called k times on one checker. *)
Fixpoint checks (k : nat) (ck : checker D) (H : lheap) : res (list bool * checker D * lheap) :=
  match k with 0 => Ok ([], ck, H) | S k' => '(b, ck1, H1) <- gc_run junk ck H ;; '(bs, ck2, H2) <- checks k' ck1 H1 ;; Ok (b :: bs, ck2, H2) end.
(** All of them give the same answer. *)
Theorem C57_repeat : forall k ck (H : lheap) bs ck' H', dense_hidden (gc_net ck) H -> grads_shaped (gc_net ck) H -> checks k ck H = Ok (bs, ck', H') -> exists b, bs = repeat b k.
Proof.
  assert (X : forall k ck0 (H0 : lheap) b0, grads_shaped (gc_net ck0) H0 ->
    (b0 = true <-> forall i l g j e, net_gethidden (gc_net ck0) H0 i = Ok l -> backprop_grad (gc_net ck0) H0 (gc_data ck0) (gc_label ck0) i = Ok g -> j < length (el (l_W l)) -> estimate (gc_net ck0) H0 (gc_data ck0) (gc_label ck0) i (l_W l) j = Ok e -> close e (nth j (el g) d0) = false) ->
    forall ck (H : lheap) bs ck' H', same_config (gc_net ck0) H0 (gc_net ck) H -> grads_shaped (gc_net ck) H -> n_hidden (gc_net ck) = n_hidden (gc_net ck0) -> gc_data ck = gc_data ck0 -> gc_label ck = gc_label ck0 ->
    checks k ck H = Ok (bs, ck', H') -> bs = repeat b0 k).
  { intros k ck0 H0 b0 G0 B0. induction k as [|k IH]; intros ck H bs ck' H' S G EH ED EL E; cbn [checks] in E; [injection E as <- _ _; reflexivity|].
    apply bind_ok in E as ([[b ck1] H1] & E1 & E). apply bind_ok in E as ([[bs2 ck2] H2] & E2 & E). injection E as <- _ _. unfold gc_run in E1. apply bind_ok in E1 as ([[b1 n1] H1'] & E1 & E3). injection E3 as -> <- ->. rewrite ED, EL in E1.
    destruct (check_from _ _ (gc_net ck0) H0 _ _ _ _ _ S G0 G EH E1) as (S1 & G1 & _ & B1). cbn [repeat]. f_equal.
    - destruct b, b0; try reflexivity; [symmetry; apply B0; apply B1; reflexivity|apply B1; apply B0; reflexivity].
    - eapply (IH _ H1 bs2 ck2 H2); try exact E2; cbn [gc_net gc_data gc_label]; auto. unfold gc_check in E1. apply check_hidden in E1. congruence. }
  intros [|k] ck H bs ck' H' Hd G E; [injection E as <- _ _; exists true; reflexivity|]. pose proof E as E'. cbn [checks] in E'. apply bind_ok in E' as ([[b ck1] H1] & E1 & E'). unfold gc_run in E1. apply bind_ok in E1 as ([[b1 n1] H1'] & E1 & E3). injection E3 as -> <- ->.
  destruct (check_from _ _ (gc_net ck) H _ _ _ _ _ (same_config_refl _ _ Hd) G G eq_refl E1) as (_ & _ & _ & B1). exists b. eapply (X (S k) ck H b G B1 ck H); try exact E; auto. now apply same_config_refl.
Qed.
End GC.

(** ** Over the reals *)
Ltac rr := match goal with |- @eq _ ?a ?b => change (@eq R a b) end.
Lemma rlit6 : (dlit (d := Rdt) 1 6 : R) = (/ 1000000)%R.
Proof. cbn. lra. Qed.
Lemma rclose (a b : R) : close (D := Rdt) a b = true <-> (Rabs (a - b) < / 1000000)%R.
Proof. unfold close. rewrite rlit6. change (Rltb' (Rabs (a - b)) (/ 1000000) = true <-> (Rabs (a - b) < / 1000000)%R). unfold Rltb'. destruct (Rlt_dec _ _); split; intros; auto; discriminate. Qed.
(** A matrix is never the "same" as itself, unless it is empty. *)
Theorem C57_self : forall m : rmat, wf m -> 1 <= nr m -> 1 <= nc m -> issame m m = Ok false.
Proof.
  intros m W A B. destruct (C57_issame m m W W) as (b & -> & [Hb _]). destruct b; [|reflexivity]. exfalso. destruct (Hb eq_refl) as (_ & _ & X). specialize (X 0 0 A B).
  assert (Y : close (D := Rdt) (at_ m 0 0) (at_ m 0 0) = true); [|unfold close in Y; congruence]. apply rclose. rewrite Rminus_diag_eq, Rabs_R0 by reflexivity. lra.
Qed.
(** If backpropagation's gradient agrees with the estimate to 1e-6 in a single weight of a hidden layer, the check fails. *)
Theorem C57_one_good_entry : forall junk (x y : rmat) (n : rnet) (H : rheap) b n' H' i l g k (e : R), dense_hidden n H -> grads_shaped n H -> gc_check (D := Rdt) junk x y n H = Ok (b, n', H') ->
  net_gethidden n H i = Ok l -> backprop_grad (D := Rdt) junk n H x y i = Ok g -> k < length (el (l_W l)) -> estimate (D := Rdt) junk n H x y i (l_W l) k = Ok e ->
  (Rabs (e - nth k (el g) 0) < / 1000000)%R -> b = false.
Proof.
  intros junk x y n H b n' H' i l g k e Hd G E Hl Hg Hk He Hc. destruct (C57_check (D := Rdt) junk x y n H b n' H' Hd G E) as (_ & _ & [X _]). destruct b; [|reflexivity]. exfalso.
  specialize (X eq_refl i l g k e Hl Hg Hk He). apply (proj2 (rclose _ _)) in Hc. unfold close in Hc. cbn [d0 Rdt] in X. congruence.
Qed.

(** *** Networks of linear layers: the central difference is exact, so the check always fails. *)
Definition affm (r c : nat) (U V : nat -> nat -> R) (t : R) : rmat := mk (D := Rdt) r c (fun i j => U i j + t * V i j)%R.
Lemma id_act (l : rlayer) z : l_act l = identity -> act (l_act l) z = z.
Proof. intros ->. reflexivity. Qed.
Lemma fwd_aff (l : rlayer) r c U V : l_act l = identity -> exists U' V', forall t, fwd_out l (affm r c U V t) = affm r (nc (l_W l)) U' V' t.
Proof.
  intros Hi. exists (fun i j => at_ (l_W l) 0 j + sumN c (fun k => U i k * at_ (l_W l) (S k) j))%R, (fun i j => sumN c (fun k => V i k * at_ (l_W l) (S k) j))%R.
  intros t. unfold fwd_out, affm. cbn [nr mk]. apply mk_ext. intros i j Hi' Hj. rewrite id_act by assumption. rewrite pre_R by (cbn; assumption). cbn [nc mk].
  rewrite <- sumN_scal. rewrite Rplus_assoc, <- sumN_plus. f_equal. apply sumN_ext. intros k Hk. rewrite (at_mk (D := Rdt)) by assumption. rr. ring.
Qed.
Lemma fwd_aff_W (l : rlayer) (x Dm : rmat) : l_act l = identity -> exists U V, forall t, fwd_out (set_W l (line t (l_W l) Dm)) x = affm (nr x) (nc (l_W l)) U V t \/ nc x + 1 <> nr (l_W l).
Proof.
  intros Hi. exists (fun i j => at_ (l_W l) 0 j + sumN (nc x) (fun k => at_ x i k * at_ (l_W l) (S k) j))%R, (fun i j => at_ Dm 0 j + sumN (nc x) (fun k => at_ x i k * at_ Dm (S k) j))%R.
  intros t. destruct (Nat.eq_dec (nc x + 1) (nr (l_W l))) as [E|N]; [left|now right]. unfold fwd_out, affm. cbn [nr nc mk set_W l_W l_act line]. apply mk_ext. intros i j Hx Hj.
  rewrite id_act by assumption. rewrite pre_R by assumption. unfold line. rewrite (at_mk (D := Rdt)) by lia. rewrite Rmult_plus_distr_l, <- sumN_scal.
  match goal with |- (?a + ?b + ?c = ?d + ?e + (?f + ?g))%R => transitivity ((d + f) + (e + g))%R; [|rr; ring] end. rewrite <- sumN_plus. f_equal. apply sumN_ext. intros k Hk. rewrite (at_mk (D := Rdt)) by lia. rr. ring.
Qed.
Lemma lforward_aff : forall (ls : list rlayer) r c U V, Forall (fun l : rlayer => l_act l = identity) ls ->
  exists c' U' V', forall t a k, lforward ls (affm r c U V t) = Ok (a, k) -> a = affm r c' U' V' t.
Proof.
  induction ls as [|l ls IH]; intros r c U V F.
  - exists c, U, V. intros t a k E. cbn in E. now injection E as <- _.
  - inversion F as [|? ? F1 F2]; subst. destruct (fwd_aff l r c U V F1) as (U1 & V1 & E1). destruct (IH r (nc (l_W l)) U1 V1 F2) as (c' & U' & V' & E2). exists c', U', V'.
    intros t a k E. cbn [lforward] in E. apply bind_ok in E as ([b l1] & K1 & E). apply bind_ok in E as ([d q] & K2 & E). injection E as <- _. apply forward_inv in K1 as (_ & -> & _). rewrite E1 in K2. eapply E2; eauto.
Qed.
Lemma sum_quad r c (A B C : nat -> nat -> R) : exists a0 a1 a2, forall t, sumN c (fun j => sumN r (fun i => A i j + t * B i j + t * t * C i j))%R = (a0 + a1 * t + a2 * (t * t))%R.
Proof.
  exists (sumN c (fun j => sumN r (fun i => A i j))), (sumN c (fun j => sumN r (fun i => B i j))), (sumN c (fun j => sumN r (fun i => C i j))). intros t.
  rewrite (Rmult_comm (sumN c (fun j => sumN r (fun i => B i j)))), (Rmult_comm (sumN c (fun j => sumN r (fun i => C i j)))). rewrite <- !sumN_scal, <- !sumN_plus. apply sumN_ext. intros j Hj.
  rewrite <- !sumN_scal, <- !sumN_plus. reflexivity.
Qed.

(** Hidden layers and output with the identity activation, quadratic cost, no regularisation in the first hidden layer. *)
Definition linear_net (n : rnet) (H : rheap) (ls : list rlayer) : Prop :=
  hidden_layers (D := Rdt) n H = Ok ls /\ Forall (fun l : rlayer => l_act l = identity) ls /\ l_act (o_l (n_output n)) = identity /\
  n_cost n = quad_cost /\ o_costd (n_output n) = quad_costd /\ match ls with l :: _ => l_lambda l = 0%R | [] => False end.

Lemma loss_quadratic junk (n : rnet) (H : rheap) ls (l : rlayer) (x y Dm : rmat) : dense_hidden n H -> linear_net n H (l :: ls) ->
  exists a0 a1 a2, forall t v, loss_with (D := Rdt) junk n H x y 0 (line t (l_W l) Dm) = Ok v -> v = (a0 + a1 * t + a2 * (t * t))%R.
Proof.
  intros Hd (HL & HA & HO & HC & HCd & _). inversion HA as [|? ? A1 A2]; subst. destruct (dense_ls n H Hd) as [k Hdn]. pose proof (hl_inj n H _ _ HL Hdn) as <-.
  destruct (fwd_aff_W l x Dm A1) as (U & V & E1). destruct (lforward_aff ls (nr x) (nc (l_W l)) U V A2) as (c' & U' & V' & E2).
  destruct (fwd_aff (o_l (n_output n)) (nr x) c' U' V' HO) as (U2 & V2 & E3).
  set (m := INR (nr x)).
  destruct (sum_quad (nr x) (nc (l_W (o_l (n_output n)))) (fun i j => (at_ y i j - U2 i j) * (at_ y i j - U2 i j) / 2 / m)%R (fun i j => - 2 * (at_ y i j - U2 i j) * V2 i j / 2 / m)%R (fun i j => V2 i j * V2 i j / 2 / m)%R) as (a0 & a1 & a2 & Q).
  exists a0, a1, a2. intros t v E. rewrite <- Q. unfold loss_with in E. apply bind_ok in E as (H1 & E4 & E). apply bind_ok in E as ([[p n1] H2] & E5 & E).
  pose proof (sethiddenw_dense n H (l :: ls) 0 (line t (l_W l) Dm) Hdn) as S1. cbn [nth_error upd] in S1. destruct S1 as (H1' & S1 & D1). rewrite E4 in S1. injection S1 as <-.
  rewrite (net_forward_dense junk n H1 _ x D1) in E5. apply bind_ok in E5 as ([b l1] & F1 & E5). apply bind_ok in E5 as ([r o'] & F2 & E5). injection E5 as -> <- <-.
  cbn [lforward] in F1. apply bind_ok in F1 as ([b1 l2] & F3 & F1). apply bind_ok in F1 as ([b2 l3] & F4 & F1). injection F1 as -> <-. apply forward_inv in F3 as (G1 & -> & ->).
  assert (G2 : nc x + 1 = nr (l_W l)) by (destruct G1 as (_ & _ & G1); exact G1). destruct (E1 t) as [E1t|N]; [|contradiction]. rewrite E1t in F4. apply E2 in F4. subst b.
  apply out_forward_inv in F2 as (G3 & -> & _). rewrite E3 in E. unfold net_computecost in E. cbn [set_result set_output set_input n_cost] in E. rewrite HC in E.
  apply bind_ok in E as (J & EJ & E). injection E as <-. unfold affm in EJ.
  assert (Ey : nr y = nr x /\ nc y = nc (l_W (o_l (n_output n)))).
  { unfold quad_cost in EJ. apply bind_ok in EJ as (df & EJ & _). apply mzip_dims in EJ as (B1 & B2 & _). cbn in B1, B2. auto. }
  destruct Ey as [Ey1 Ey2]. rewrite quad_cost_mk in EJ by assumption. injection EJ as <-. unfold sumall.
  match goal with |- @eq _ ?a ?b => change (@eq R a b) end.
  transitivity (sumN (nc (l_W (o_l (n_output n)))) (fun j => sumN (nr x) (fun i => (at_ y i j - (U2 i j + t * V2 i j)) * (at_ y i j - (U2 i j + t * V2 i j)) / 2 / m)%R)); [apply (accu_mk (nr x) (nc (l_W (o_l (n_output n)))))|].
  apply sumN_ext. intros j Hj. apply sumN_ext. intros i Hi. unfold Rdiv. ring.
Qed.

Lemma probed_bump (W : rmat) (v : R) (t : R) : wf W -> 1 <= nr W -> 1 <= nc W -> v = (at_ W 0 0 + t)%R -> probed (D := Rdt) W 0 v = bump W 0 0 t.
Proof.
  intros HW R1 C1 ->. unfold wf in HW. apply mat_ext; [unfold wf, probed; cbn [el nr nc]; now rewrite map_length, seq_length|apply wf_mk|reflexivity|reflexivity|].
  intros i j Hi Hj. cbn [nr nc probed] in Hi, Hj. unfold bump. rewrite (at_mk (D := Rdt)) by assumption. unfold at_ at 1. cbn [el nr probed].
  rewrite nth_map_seq by (rewrite HW; nia). replace (j * nr W + i <? 0) with false by (symmetry; apply Nat.ltb_ge; lia).
  destruct (Nat.eqb_spec (j * nr W + i) 0) as [E|N].
  - assert (i = 0) by lia. assert (j = 0) by nia. subst. reflexivity.
  - destruct (Nat.eqb_spec i 0); destruct (Nat.eqb_spec j 0); cbn [andb]; try reflexivity. subst. cbn in N. lia.
Qed.

Theorem C57_linear : forall junk (x y : rmat) (n : rnet) (H : rheap) ls p c b n' H', 1 <= p -> 1 <= c -> well_sized n H p c -> samples p c (x, y) -> grads_shaped n H -> wf (l_W (o_l (n_output n))) ->
  linear_net n H ls -> gc_check (D := Rdt) junk x y n H = Ok (b, n', H') -> b = false.
Proof.
  intros junk x y n H ls p c b n' H' Hp Hc Hw Hs HG HWo HL E. destruct ls as [|l ls]; [exfalso; apply HL|].
  assert (Hd : dense_hidden n H) by apply Hw. pose proof HL as (L0 & HA & HO & HC & HCd & Hlam). destruct (dense_ls n H Hd) as [k Hdn]. pose proof (hl_inj n H _ _ L0 Hdn) as Hk. subst k.
  assert (Hl : net_gethidden n H 0 = Ok l) by (rewrite (gethidden_at n H (l :: ls)) by apply Hdn; reflexivity).
  destruct (HG 0 l Hl) as (HW & _).
  assert (Dm : 1 <= nr (l_W l) /\ 1 <= nc (l_W l)).
  { destruct Hw as (_ & (k & Ek & q & F1 & F2 & _) & _). pose proof (eq_trans (eq_sym Ek) L0) as X. injection X as ->. cbn [fits] in F1. destruct F1 as (_ & F3 & F4). split; [lia|]. destruct ls; cbn [fits] in F4; lia. }
  destruct Dm as [Dm1 Dm2].
  destruct (C57_check (D := Rdt) junk x y n H b n' H' Hd HG E) as (_ & X & _). destruct (X 0 l Hl) as (g & es & Hg & Gr & Gc & Gw & Hes & Hest). clear X.
  assert (Hlen : 0 < length (el (l_W l))) by (unfold wf in HW; nia).
  specialize (Hest 0 Hlen). cbn [d0 Rdt] in Hest.
  eapply (C57_one_good_entry junk x y n H b n' H' 0 l g 0 _ Hd HG E Hl Hg Hlen Hest).
  replace (nth 0 es 0%R - nth 0 (el g) 0)%R with 0%R; [rewrite Rabs_R0; lra|]. symmetry. apply Rminus_diag_eq.
  (* the gradient as a derivative *)
  pose proof Hg as Hg'. unfold backprop_grad in Hg'. apply bind_ok in Hg' as ([[a n1] H1] & F1 & Hg'). apply bind_ok in Hg' as ([n2 H2] & F2 & Hg'). apply bind_ok in Hg' as (l2 & F3 & Hg'). injection Hg' as <-.
  destruct (pass_dense junk n H (l :: ls) x y a n1 H1 n2 H2 Hdn F1 F2) as (b0 & ls1 & delta & ls2 & dx & P1 & Pr). cbn zeta in Pr. destruct Pr as (P2 & P3 & P4 & P5 & P6 & P7 & P8 & P9 & _).
  assert (Sm : Forall smooth_at ls1).
  { pose proof (lforward_W _ _ _ _ P1) as W1. clear -W1 HA. revert HA. induction W1 as [|u v us vs (_ & _ & _ & W) W1 IH]; intros HA; inversion HA as [|? ? A1 A2]; subst; constructor; auto.
    intros i j _ _. rewrite W, A1. cbn. apply (is_derive_id (at_ (l_z v) i j)). }
  assert (E2 : nth_error ls2 0 = Some l2). { rewrite (gethidden_at n2 H2 ls2) in F3 by apply P9. destruct (nth_error ls2 0); [now injection F3 as ->|discriminate]. }
  assert (HWs : Forall (fun l : rlayer => wf (l_W l)) (l :: ls)).
  { apply Forall_forall. intros u Hu. apply In_nth_error in Hu as [i Hi]. apply (HG i). rewrite (gethidden_at n H (l :: ls)) by apply Hdn. now rewrite Hi. }
  destruct (C29_entries_hidden junk n H x y a n1 H1 n2 H2 (l :: ls) ls1 ls2 Hd ltac:(left; auto) F1 F2 L0 (hidden_layers_dense n1 H1 ls1 (proj2 P8)) (hidden_layers_dense n2 H2 ls2 (proj2 P9)) Sm HWs HWo 0 l l2 0 0 eq_refl E2 ltac:(lia) ltac:(lia)) as (C & C1 & C2).
  rewrite Hlam, Rmult_0_l, Rminus_0_r in C2. cbn [upd map] in C1.
  assert (Lc : forall t, loss_with (D := Rdt) junk n H x y 0 (bump (l_W l) 0 0 t) = Ok (C t)).
  { intros t. specialize (C1 t). unfold cost_at in C1. rewrite (set_hidden_dense n H (l :: ls)) in C1 by (try assumption; cbn; now rewrite map_length). cbn [bind combine map fst snd] in C1.
    set (K := map (fun lw => set_W (fst lw) (snd lw)) (combine ls (map (fun l => l_W l) ls))) in *. assert (EK : K = ls).
    { unfold K. clear. induction ls as [|u us IH]; [reflexivity|]. cbn [map combine fst snd]. rewrite IH. destruct u; reflexivity. }
    rewrite EK in C1.
    unfold loss_with. pose proof (sethiddenw_dense n H (l :: ls) 0 (bump (l_W l) 0 0 t) Hdn) as S1. cbn [nth_error upd] in S1. destruct S1 as (H3 & -> & D1). cbn [bind].
    apply bind_ok in C1 as ([[p2 m2] G2] & C1 & C3).
    assert (SC : same_config (net_setoutputw n (l_W (o_l (n_output n)))) (put_layers (n_hidden n) (set_W l (bump (l_W l) 0 0 t) :: ls) H) n H3).
    { eapply dense_same_config; [split; [apply Hdn|]; cbn [net_setoutputw set_output n_hidden]; eapply dense_put; [exact Hdn|reflexivity]|exact D1|apply F2conf_refl|repeat split|reflexivity|reflexivity]. }
    destruct (forward_conf junk _ _ _ _ _ _ _ _ SC C1) as (m3 & G3 & -> & S3 & _). cbn [bind]. destruct S3 as (_ & _ & ? & ? & _ & _ & _ & _ & Cc & _). unfold net_computecost in *. now rewrite Cc. }
  destruct (loss_quadratic junk n H ls l x y (unitm (l_W l) 0 0) Hd HL) as (a0 & a1 & a2 & LQ).
  assert (CQ : forall t, C t = (a0 + a1 * t + a2 * (t * t))%R). { intros t. apply LQ. rewrite line_unit. apply Lc. }
  assert (Ga : at_ (l_grad l2) 0 0 = a1).
  { assert (Y1 : Derive C 0%R = at_ (l_grad l2) 0 0) by (apply is_derive_unique; exact C2). assert (Y2 : is_derive C 0%R a1).
    { apply (is_derive_ext (fun t => a0 + a1 * t + a2 * (t * t))%R); [intros t; symmetry; apply CQ|]. auto_derive; [exact I|]. ring. }
    apply is_derive_unique in Y2. congruence. }
  unfold estimate in Hest. change (eps (D := Rdt) : R) with (dlit (d := Rdt) 1 6 : R) in Hest. unfold lowered, eps in Hest.
  rewrite (probed_bump (l_W l) _ (/ 1000000)%R HW Dm1 Dm2) in Hest by (unfold at_; cbn [Nat.mul Nat.add]; cbn; lra).
  rewrite Lc in Hest. cbn [bind] in Hest.
  rewrite (probed_bump (l_W l) _ (- / 1000000)%R HW Dm1 Dm2) in Hest by (unfold at_; cbn [Nat.mul Nat.add]; cbn; lra).
  rewrite Lc in Hest. cbn [bind] in Hest. injection Hest as Hest. etransitivity; [symmetry; exact Hest|]. etransitivity; [|symmetry; exact Ga]. rewrite !CQ.
  match goal with |- @eq _ ?a ?b => change (@eq R a b) end. cbn [dsub ddiv dmul dofZ dlit Rdt]. change (IZR (10 ^ 6)) with 1000000%R. field.
Qed.

(** *** Examples: a linear network (one input, one hidden unit, one output) meets the hypotheses, and the check on it returns. *)
Definition glm (a b : R) : rmat := Mat (D := Rdt) 2 1 [a; b].
Definition gcl (a b : R) : rlayer := L (D := Rdt) 1%R 0%R identity mempty mempty mempty mempty (glm a b) (glm 0 0).
Definition gcn : rnet := N (D := Rdt) mempty quad_cost quad_costd (gcl 0 0) [0] (O (gcl 1 1) quad_cost quad_costd mempty).
Definition gcH : rheap := [HDense (gcl 1 2)].
Definition gcx : rmat := Mat (D := Rdt) 1 1 [3%R].
Example C57_example : well_sized gcn gcH 1 1 /\ samples 1 1 (gcx, gcx) /\ grads_shaped gcn gcH /\ wf (l_W (o_l (n_output gcn))) /\ linear_net gcn gcH [gcl 1 2] /\
  (forall junk, exists b n' H', gc_check (D := Rdt) junk gcx gcx gcn gcH = Ok (b, n', H')) /\
  issame (D := Rdt) (glm 1 2) (glm 1 2) = Ok false /\ issame (D := Rdt) (glm 1 2) (glm 2 1) = Ok true.
Proof.
  assert (Hw : well_sized gcn gcH 1 1).
  { split; [split; [repeat constructor; cbn; tauto|intros p [<-|[]]; cbn; eauto]|]. split; [|split; cbn; auto]. exists [gcl 1 2]. split; [reflexivity|]. exists 1. cbn. lia. }
  assert (Hs : samples 1 1 (gcx, gcx)) by (cbv; auto with arith).
  assert (Hg : grads_shaped gcn gcH).
  { intros [|[|i]] l E; try discriminate. injection E as <-. repeat split. }
  split; [assumption|]. split; [assumption|]. split; [assumption|]. split; [reflexivity|]. split; [repeat split; repeat constructor|]. split; [intros junk; now apply (C57_returns (D := Rdt) junk gcx gcx gcn gcH 1 1)|].
  split; [apply C57_self; cbn; auto; reflexivity|].
  destruct (C57_issame (D := Rdt) (glm 1 2) (glm 2 1)) as (b & -> & [_ Hb]); try reflexivity. f_equal. apply Hb. split; [reflexivity|]. split; [reflexivity|].
  intros i j Hi Hj. cbn in Hi, Hj. assert (j = 0) by lia. subst j. change (close (D := Rdt) (at_ (glm 1 2) i 0) (at_ (glm 2 1) i 0) = false). apply not_true_is_false. rewrite rclose.
  destruct i as [|[|i]]; [| |lia]; unfold at_; cbn; unfold Rabs; destruct (Rcase_abs _); lra.
Qed.

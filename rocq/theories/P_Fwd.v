(** P_Fwd.v - C27 (dense forward pass) and C28 (batch rows are independent). *)
From Coq Require Import Reals Lra.
From Verif Require Import Base Mat Act Layer Conv Misc Net NetP RInst RMat.
From Coq Require Import Arith.
Local Open Scope nat_scope.

(** ** C27 *)
Theorem C27_forward : forall (l : layer Rdt) (x : mat Rdt),
  (1 <= nr x /\ 1 <= nc x /\ nr (l_W l) = nc x + 1 ->
    exists a l', forwardprop l x = Ok (a, l') /\
      wf a /\ nr a = nr x /\ nc a = nc (l_W l) /\
      (forall r j, r < nr x -> j < nc (l_W l) ->
         at_ a r j = act (l_act l) (at_ (l_W l) 0%nat j + sumN (nc x) (fun i => at_ x r i * at_ (l_W l) (i + 1)%nat j))%R) /\
      l_W l' = l_W l /\ l_act l' = l_act l /\ l_lrate l' = l_lrate l /\ l_lambda l' = l_lambda l) /\
  (~ (1 <= nr x /\ 1 <= nc x /\ nr (l_W l) = nc x + 1) -> forwardprop l x = Throw).
Proof.
  intros l x. split.
  - intros (A & B & C). rewrite forward_ok by (unfold fwd_ok; lia). do 2 eexists. split; [reflexivity|].
    split; [apply wf_mk|]. split; [reflexivity|]. split; [reflexivity|]. split; [|repeat split].
    intros r j Hr Hj. unfold fwd_out. rewrite at_mk by assumption. rewrite pre_R by assumption.
    f_equal. f_equal. apply sumN_ext. intros i Hi. now rewrite Nat.add_1_r.
  - intros H. apply forward_throw. unfold fwd_ok. intros X. apply H. lia.
Qed.

(** In any arithmetic (IEEE included): the same expression with the additions done in index order, from 0. *)
Theorem C27_any_arithmetic : forall (D : dtype) (l : layer D) (x : mat D),
  1 <= nr x -> 1 <= nc x -> nr (l_W l) = nc x + 1 ->
  exists a l', forwardprop l x = Ok (a, l') /\ nr a = nr x /\ nc a = nc (l_W l) /\ l_W l' = l_W l /\
    (forall r j, r < nr x -> j < nc (l_W l) ->
       at_ a r j = act (l_act l) (fold_left (fun s i => dadd s (dmul (at_ x r i) (at_ (l_W l) (i + 1) j))) (seq 0 (nc x))
                                    (dadd d0 (dmul d1 (at_ (l_W l) 0 j))))).
Proof.
  intros D l x A B C. rewrite forward_ok by (unfold fwd_ok; lia). do 2 eexists. split; [reflexivity|].
  split; [reflexivity|]. split; [reflexivity|]. split; [reflexivity|]. intros r j Hr Hj. unfold fwd_out. rewrite at_mk by assumption.
  f_equal. unfold pre, mdot. cbn [nc mk]. rewrite Nat.add_1_r. cbn [seq fold_left]. rewrite at_mk by lia. cbn [with_bias].
  rewrite <- seq_shift. set (a0 := dadd _ _). clearbody a0.
  assert (G : forall ks acc, (forall k, In k ks -> k < nc x) ->
     fold_left (fun acc k => dadd acc (dmul (at_ (mk (nr x) (S (nc x)) (with_bias x)) r k) (at_ (l_W l) k j))) (map S ks) acc =
     fold_left (fun s i => dadd s (dmul (at_ x r i) (at_ (l_W l) (i + 1) j))) ks acc).
  { induction ks as [|k ks IH]; intros acc Hk; [reflexivity|]. cbn [map fold_left]. rewrite IH by (intros; apply Hk; now right).
    rewrite at_mk by (try assumption; specialize (Hk k (or_introl eq_refl)); lia). cbn [with_bias]. now rewrite Nat.add_1_r. }
  apply G. intros k Hk%in_seq. lia.
Qed.

Example C27_nonvacuous : exists (l : layer Zdt) (x a : mat Zdt) l',
  nr x = 2 /\ nc x = 2 /\ nr (l_W l) = 3 /\ forwardprop l x = Ok (a, l') /\ a = Mat (D := Zdt) 2 1 [10 + 3 * 1 + 5 * 4; 10 + 3 * 2 + 5 * 7]%Z.
Proof.
  exists (L (D := Zdt) 0 0 identity mempty mempty mempty mempty (Mat (D := Zdt) 3 1 [10; 3; 5]) mempty)%Z, (Mat (D := Zdt) 2 2 [1; 2; 4; 7]%Z).
  do 2 eexists. repeat split.
Qed.

(** ** C28 *)

(** Same kind of outcome, and related results if both return. *)
Inductive same_outcome {A B} (R : A -> B -> Prop) : res A -> res B -> Prop :=
| so_ok a b : R a b -> same_outcome R (Ok a) (Ok b)
| so_undef u : same_outcome R (Undef u) (Undef u)
| so_abort : same_outcome R Abort Abort
| so_throw : same_outcome R Throw Throw.
Lemma so_bind {A B A' B'} (R : A -> B -> Prop) (Q : A' -> B' -> Prop) r1 r2 k1 k2 :
  same_outcome R r1 r2 -> (forall a b, R a b -> same_outcome Q (k1 a) (k2 b)) -> same_outcome Q (bind r1 k1) (bind r2 k2).
Proof. intros H K. destruct H; cbn [bind]; try constructor. now apply K. Qed.
Lemma so_impl {A B} (R Q : A -> B -> Prop) r1 r2 : same_outcome R r1 r2 -> (forall a b, R a b -> Q a b) -> same_outcome Q r1 r2.
Proof. intros H K. destruct H; constructor. now apply K. Qed.
Lemma so_refl {A} (R : A -> A -> Prop) r : (forall a, R a a) -> same_outcome R r r.
Proof. intros H. destruct r; constructor. apply H. Qed.

Section C28.
Context {D : dtype} (draw : D -> nat -> D) (junk : nat -> D).
Notation mat := (mat D).

(** [x] is the single row [r] of [X]. *)
Definition is_row (r : nat) (X x : mat) : Prop :=
  r < nr X /\ nr x = 1 /\ nc x = nc X /\ forall j, j < nc X -> at_ x 0 j = at_ X r j.

(** Layer kinds whose forward pass treats every row by itself. *)
Definition rowwise (h : hlayer D) : Prop := match h with HDense _ | HSoftmax _ => True | _ => False end.

(** Layers that agree on what the forward pass reads. *)
Definition heq (h k : hlayer D) : Prop :=
  match h, k with
  | HDense l, HDense m => l_W l = l_W m /\ l_act l = l_act m
  | HSoftmax _, HSoftmax _ => True
  | _, _ => False
  end.

Lemma fwd_row (l m : layer D) r X x : l_W l = l_W m -> l_act l = l_act m -> is_row r X x ->
  same_outcome (fun p q => is_row r (fst p) (fst q) /\ l_W (snd p) = l_W l /\ l_act (snd p) = l_act l /\ l_W (snd q) = l_W l /\ l_act (snd q) = l_act l)
    (forwardprop l X) (forwardprop m x).
Proof.
  intros EW EA (Hr & H1 & H2 & H3). destruct (fwd_dec (l_W l) X) as [F|F].
  - assert (F' : fwd_ok (l_W m) x) by (rewrite <- EW; unfold fwd_ok in *; lia). rewrite !forward_ok by assumption. constructor. cbn [fst snd].
    split; [|cbn; auto]. unfold is_row, fwd_out. cbn [nr nc mk]. rewrite <- EW. repeat split; auto.
    intros j Hj. rewrite !at_mk by lia. rewrite EA. f_equal. unfold pre, mdot. cbn [nc mk]. rewrite H2.
    assert (G : forall ks acc, (forall k, In k ks -> k < nc X + 1) ->
      fold_left (fun acc k => dadd acc (dmul (at_ (mk (nr x) (nc X + 1) (with_bias x)) 0 k) (at_ (l_W l) k j))) ks acc =
      fold_left (fun acc k => dadd acc (dmul (at_ (mk (nr X) (nc X + 1) (with_bias X)) r k) (at_ (l_W l) k j))) ks acc).
    { induction ks as [|k ks IH]; intros acc Hk; [reflexivity|]. cbn [fold_left]. assert (Hk1 := Hk k (or_introl eq_refl)).
      rewrite !at_mk by lia. rewrite IH by (intros; apply Hk; now right). do 3 f_equal.
      destruct k; simpl; [reflexivity|]. apply H3. lia. }
    apply G. intros k Hk%in_seq. lia.
  - assert (F' : ~ fwd_ok (l_W m) x) by (rewrite <- EW; unfold fwd_ok in *; lia). rewrite !forward_throw by assumption. constructor.
Qed.

Lemma softmax_rows_eq (m : mat) : softmax_rows m = Ok (mk (nr m) (nc m) (fun i j =>
  ddiv (dexp (at_ m i j)) (fold_left (fun acc k => dadd acc (dexp (at_ m i k))) (seq 0 (nc m)) d0))).
Proof.
  unfold softmax_rows, mdiv. rewrite mzip_ok by (cbn; lia). f_equal. cbn [exponential mmap nr nc mk]. apply mk_ext. intros i j Hi Hj.
  unfold exponential. rewrite at_mmap by assumption. f_equal. unfold repeatm, repmat, rowsum, sum1. cbn [mmap nr nc mk].
  rewrite at_mk by lia. rewrite at_mk by (first [apply Nat.mod_upper_bound; lia|lia]). rewrite Nat.mod_small by lia.
  assert (G : forall ks acc, (forall k, In k ks -> k < nc m) ->
    fold_left (fun acc k => dadd acc (at_ (mk (nr m) (nc m) (fun i0 j0 => dexp (at_ m i0 j0))) i k)) ks acc =
    fold_left (fun acc k => dadd acc (dexp (at_ m i k))) ks acc).
  { induction ks as [|k ks IH]; intros acc Hk; [reflexivity|]. cbn [fold_left]. rewrite at_mk by (auto; apply Hk; now left).
    apply IH. intros; apply Hk; now right. }
  apply G. intros k Hk%in_seq. lia.
Qed.
Lemma soft_row r X x : is_row r X x -> same_outcome (fun p q => is_row r p q) (softmax_rows X) (softmax_rows x).
Proof.
  intros (Hr & H1 & H2 & H3). rewrite !softmax_rows_eq. constructor. unfold is_row. cbn [nr nc mk]. repeat split; auto.
  intros j Hj. rewrite !at_mk by lia. rewrite H2, H3 by assumption. f_equal.
  assert (G : forall ks acc, (forall k, In k ks -> k < nc X) ->
    fold_left (fun acc k => dadd acc (dexp (at_ x 0 k))) ks acc = fold_left (fun acc k => dadd acc (dexp (at_ X r k))) ks acc).
  { induction ks as [|k ks IH]; intros acc Hk; [reflexivity|]. cbn [fold_left]. rewrite H3 by (apply Hk; now left).
    apply IH. intros; apply Hk; now right. }
  apply G. intros k Hk%in_seq. lia.
Qed.

Lemma h_forward_row h k r X x : heq h k -> is_row r X x ->
  same_outcome (fun p q => is_row r (fst p) (fst q) /\ heq (snd p) (snd q)) (h_forward junk h X) (h_forward junk k x).
Proof.
  intros E Hx. destruct h as [l| | | |s], k as [m| | | |t]; simpl in E; try contradiction; cbn [h_forward].
  - destruct E as [E1 E2]. eapply so_bind; [apply fwd_row; eassumption|]. intros [a l'] [b m'] (P & Q1 & Q2 & Q3 & Q4). cbn [fst snd] in *. constructor.
    cbn. split; [assumption|]. split; congruence.
  - unfold soft_forward. eapply so_bind with (R := fun p q => is_row r (fst p) (fst q)).
    + eapply so_bind; [apply soft_row; eassumption|]. intros a b P. constructor. exact P.
    + intros [a l'] [b m'] P. constructor. cbn. auto.
Qed.

Definition Heq := Forall2 heq.
Lemma Heq_upd H K p h k : Heq H K -> heq h k -> Heq (upd p h H) (upd p k K).
Proof. intros E. revert p. induction E; intros [|p] Hk; simpl; constructor; auto. apply IHE; assumption. Qed.
Lemma Heq_get H K p : Heq H K -> same_outcome heq (lget H p) (lget K p).
Proof. unfold lget. intros E. revert p. induction E; intros [|p]; cbn [nth_error]; try constructor; auto. Qed.
Lemma hidden_row ids : forall H K r X x, Heq H K -> is_row r X x ->
  same_outcome (fun p q => is_row r (fst p) (fst q) /\ Heq (snd p) (snd q)) (hidden_forward junk ids X H) (hidden_forward junk ids x K).
Proof.
  induction ids as [|p ids IH]; intros H K r X x E Hx; cbn [hidden_forward]; [constructor; cbn; auto|].
  eapply so_bind; [apply Heq_get; eassumption|]. intros h k Ehk. eapply so_bind; [apply h_forward_row; eassumption|].
  intros [a h'] [b k'] [P Q]. cbn [fst snd] in *. apply IH; [|assumption]. now apply Heq_upd.
Qed.
Lemma heq_refl h : rowwise h -> heq h h.
Proof. destruct h; simpl; auto. Qed.
Lemma Heq_refl H : Forall rowwise H -> Heq H H.
Proof. induction 1; constructor; auto. now apply heq_refl. Qed.

(** One call of forwardprop with the whole batch against one call with row [r] alone: same outcome, row r of the
    batch result is the single result.  Any arithmetic, any depth, hidden layers may even be shared. *)
Theorem C28_rows_independent : forall (n : net D) (H : lheap D) (X x : mat) r,
  Forall rowwise H -> is_row r X x ->
  same_outcome (fun p q => let '(A, _, _) := p in let '(a, _, _) := q in is_row r A a)
    (net_forward junk n H X) (net_forward junk n H x).
Proof.
  intros n H X x r HH Hx. unfold net_forward. cbn [input_forward].
  eapply so_bind; [apply hidden_row; [apply Heq_refl; eassumption|eassumption]|]. intros [A H1] [a K1] [P _]. cbn [fst snd] in P.
  eapply so_bind with (R := fun p q => is_row r (fst p) (fst q)); [|intros [B o1] [b o2] Q; constructor; exact Q]. unfold output_forward.
  eapply so_bind; [apply fwd_row; [reflexivity|reflexivity|eassumption]|]. intros [B l1] [b l2] (Q & _). constructor. exact Q.
Qed.

Lemma row_argmax_row (A a : mat) r : 1 <= nc A -> is_row r A a -> row_argmax a 0 = row_argmax A r.
Proof.
  intros Hc (Hr & H1 & H2 & H3). unfold row_argmax. rewrite H2. rewrite H3 by lia.
  assert (G : forall ks b, (forall k, In k ks -> k < nc A) ->
    fold_left (fun best j => if dltb (snd best) (at_ a 0 j) then (j, at_ a 0 j) else best) ks b =
    fold_left (fun best j => if dltb (snd best) (at_ A r j) then (j, at_ A r j) else best) ks b).
  { induction ks as [|k ks IH]; intros b Hk; [reflexivity|]. cbn [fold_left]. rewrite H3 by (apply Hk; now left).
    apply IH. intros; apply Hk; now right. }
  apply G. intros k Hk%in_seq. lia.
Qed.

(** The same for predict: the predicted class and score of a sample do not depend on the rest of the batch. *)
Theorem C28_predict : forall (n : net D) (H : lheap D) (X x : mat) r,
  Forall rowwise H -> is_row r X x ->
  same_outcome (fun p q => let '(A, _, _) := p in let '(a, _, _) := q in is_row r A a)
    (net_predict junk n H X) (net_predict junk n H x).
Proof.
  intros n H X x r HH Hx. unfold net_predict, net_forward. cbn [input_forward].
  assert (S : same_outcome (fun p q => is_row r (l_a (o_l (snd p))) (l_a (o_l (snd q))))
     ('(cur', H') <- hidden_forward junk (n_hidden n) X H;; output_forward (n_output n) cur')
     ('(cur', H') <- hidden_forward junk (n_hidden n) x H;; output_forward (n_output n) cur')).
  { eapply so_bind; [apply hidden_row; [apply Heq_refl; eassumption|eassumption]|]. intros [A H1] [a K1] [P _]. cbn [fst snd] in P.
    unfold output_forward. pose proof (fwd_row (o_l (n_output n)) (o_l (n_output n)) r A a eq_refl eq_refl P) as F.
    destruct (forwardprop (o_l (n_output n)) A) as [[B l1]| | |] eqn:E1, (forwardprop (o_l (n_output n)) a) as [[b l2]| | |] eqn:E2;
      inversion F; subst; cbn [bind]; try constructor.
    cbn [snd o_l]. apply forward_inv in E1 as (_ & -> & ->). apply forward_inv in E2 as (_ & -> & ->).
    match goal with Z : is_row _ (fst _) (fst _) /\ _ |- _ => destruct Z as [Q _] end. exact Q. }
  destruct (hidden_forward junk (n_hidden n) X H) as [[A H1]|u1| |], (hidden_forward junk (n_hidden n) x H) as [[a K1]|u2| |];
    cbn [bind] in *.
  all: try (destruct (output_forward (n_output n) A) as [[B o1]|v1| |]); try (destruct (output_forward (n_output n) a) as [[b o2]|v2| |]);
    cbn [bind] in *; inversion S as [p q Q|u3| | ]; subst; try constructor.
  cbn [snd] in Q. unfold argmax. cbn [set_result set_output set_input n_output]. destruct Q as (Q1 & Q2 & Q3 & Q4).
  rewrite Q2, Q3. destruct (Nat.eqb_spec (nc (l_a (o_l o1))) 0) as [Z|Z].
  - destruct (Nat.eqb_spec (nr (l_a (o_l o1))) 0); [lia|]. cbn [andb negb Nat.eqb bind]. constructor.
  - cbn [andb bind]. constructor. unfold is_row. cbn [nr nc mk]. repeat split; auto. intros j Hj. rewrite !at_mk by lia.
    rewrite (row_argmax_row (l_a (o_l o1)) (l_a (o_l o2)) r); [reflexivity|lia|]. unfold is_row. auto.
Qed.

(** ... and the order of evaluation does not matter either: having run any other input first changes nothing. *)
Theorem C28_no_memory : forall (n : net D) (H : lheap D) (X x0 a0 : mat) n0 H0,
  Forall rowwise H -> net_forward junk n H x0 = Ok (a0, n0, H0) ->
  same_outcome (fun p q => fst (fst p) = fst (fst q)) (net_forward junk n H X) (net_forward junk n0 H0 X).
Proof.
  intros n H X x0 a0 n0 H0 HH Hf.
  assert (L : forall ids (H K H' : lheap D) y a, Heq H K -> hidden_forward junk ids y K = Ok (a, H') -> Heq H H').
  { induction ids as [|p ids IH]; intros A K H' y a E R; cbn [hidden_forward] in R; [injection R as <- <-; assumption|].
    apply bind_ok in R as (h & Hg & R). apply bind_ok in R as ([b h'] & Hh & R). eapply IH; [|exact R].
    unfold lget in Hg. destruct (nth_error K p) as [h0|] eqn:Ep; [|discriminate]. injection Hg as ->.
    assert (Q : exists g, nth_error A p = Some g /\ heq g h).
    { clear -E Ep. revert p Ep. induction E; intros [|p] Ep; simpl in *; try discriminate; [injection Ep as <-; eauto|eauto]. }
    destruct Q as (g & Hg & Egh). assert (Egh' : heq g h').
    { destruct g, h; simpl in Egh; try contradiction; cbn [h_forward] in Hh; apply bind_ok in Hh as ([? ?] & Hh & Z); injection Z as <- <-; simpl; auto.
      apply forward_inv in Hh as (_ & _ & ->). exact Egh. }
    clear -E Hg Egh'. revert p Hg. induction E; intros [|p] Hg; simpl in *; try discriminate; constructor; auto; [congruence|now apply IHE]. }
  assert (S : forall ids (H K : lheap D) y, Heq H K -> same_outcome (fun p q => fst p = fst q) (hidden_forward junk ids y H) (hidden_forward junk ids y K)).
  { induction ids as [|p ids IH]; intros A K y E; cbn [hidden_forward]; [constructor; reflexivity|].
    eapply so_bind; [apply Heq_get; eassumption|]. intros h k Ehk.
    assert (Q : same_outcome (fun p q => fst p = fst q /\ heq (snd p) (snd q)) (h_forward junk h y) (h_forward junk k y)).
    { destruct h as [l| | | |s], k as [m| | | |t]; simpl in Ehk; try contradiction; cbn [h_forward].
      - destruct Ehk as [E1 E2]. destruct (fwd_dec (l_W l) y) as [F|F].
        + rewrite !forward_ok by congruence. cbn [bind]. constructor. cbn. unfold fwd_out. rewrite E1, E2. auto.
        + rewrite !forward_throw by congruence. constructor.
      - unfold soft_forward. rewrite softmax_rows_eq. cbn [bind]. constructor. cbn. auto. }
    eapply so_bind; [exact Q|]. intros [a h'] [b k'] [P1 P2]. cbn [fst snd] in *. subst b. apply IH. now apply Heq_upd. }
  unfold net_forward in *. cbn [input_forward] in *. apply bind_ok in Hf as ([c Hc] & Hh & Hf). apply bind_ok in Hf as ([r o'] & Ho & Hf).
  injection Hf as -> <- <-. cbn [set_result set_output set_input n_hidden n_output n_input].
  eapply so_bind; [apply (S (n_hidden n) H Hc); eapply L; [apply Heq_refl; eassumption|exact Hh]|].
  intros [a1 H1] [a2 H2] E. cbn [fst] in E. subst a2. apply out_forward_inv in Ho as (_ & _ & ->).
  unfold output_forward. cbn [o_l fwd_layer]. destruct (fwd_dec (l_W (o_l (n_output n))) a1) as [F|F].
  - rewrite !forward_ok by exact F. cbn [bind]. constructor. reflexivity.
  - rewrite !forward_throw by exact F. constructor.
Qed.

End C28.

(** Two hidden layers (a dense one and a softmax layer), batch of 2, row 1. *)
Example C28_nonvacuous : exists (n : net Zdt) (H : lheap Zdt) (X x A : mat Zdt) n' H',
  Forall rowwise H /\ is_row 1 X x /\ length (n_hidden n) = 2 /\ net_forward (D := Zdt) (fun _ => 0%Z) n H X = Ok (A, n', H') /\ nr A = 2 /\ el A = [-7; 23]%Z.
Proof.
  set (l := L (D := Zdt) 0%Z 0%Z identity mempty mempty mempty mempty).
  exists (N (D := Zdt) mempty quad_cost quad_costd (l mempty mempty) [0; 1] (O (l (Mat (D := Zdt) 3 1 [1; 2; -3]%Z) mempty) quad_cost quad_costd mempty)),
    [HDense (l (Mat (D := Zdt) 2 2 [1; 2; 1; -1]%Z) mempty); HSoftmax (SL (l mempty mempty) mempty)],
    (Mat (D := Zdt) 2 1 [-1; -3]%Z), (Mat (D := Zdt) 1 1 [-3]%Z).
  do 3 eexists. repeat split; try (repeat constructor; fail).
  - unfold is_row. cbn. repeat split; auto. intros j Hj. assert (j = 0) as -> by lia. reflexivity.
Qed.

(** P_Misc.v - C53: NormLayer; C54: SoftmaxLayer. *)
From Coq Require Import Reals Lra.
From Verif Require Import Base Mat Act Layer Conv Misc Net NetP RInst RMat.
From Coq Require Import Arith.
Local Open Scope nat_scope.

(** * C53 *)
Section Norm.
Context {D : dtype}.
Notation mat := (mat D).
Context (draw : D -> nat -> D) (junk : nat -> D).

(** calls on one NormLayer object, and what they return *)
Inductive nop_ := NFwd (x : mat) | NBwd (d : mat).
Definition nstep (n : norml D) (o : nop_) : res (mat * norml D) := match o with NFwd x => norm_forward n x | NBwd d => norm_backprop n d end.
Fixpoint nrun (n : norml D) (os : list nop_) : res (list mat * norml D) :=
  match os with [] => Ok ([], n) | o :: r => '(a, n1) <- nstep n o ;; '(l, n2) <- nrun n1 r ;; Ok (a :: l, n2) end.
Lemma nrun_app n a b : nrun n (a ++ b) = ('(l, n1) <- nrun n a ;; '(l', n2) <- nrun n1 b ;; Ok (l ++ l', n2)).
Proof.
  revert n. induction a as [|o a IH]; intros n; cbn [app nrun bind].
  - destruct (nrun n b) as [[l' n2]| | |]; reflexivity.
  - destruct (nstep n o) as [[x n1]| | |]; cbn [bind]; try reflexivity. rewrite IH. destruct (nrun n1 a) as [[l n2]| | |]; cbn [bind]; try reflexivity. destruct (nrun n2 b) as [[l' n3]| | |]; reflexivity.
Qed.
(** largest minus smallest entry *)
Definition range (x : mat) : res D := mx <- mmax x ;; mn <- mmin x ;; Ok (dsub mx mn).
Definition scaled (x : mat) (v : D) : mat := mmap (fun a => ddiv a v) x.

(** Whatever happened before (any history that ended normally, from any state), after a backprop the first forward
    divides by the range of its input, all further forwards by that same range, however many there are; the next backprop
    divides by it too, and resets it. *)
Theorem C53_sticky : forall (n0 : norml D) h l0 n1 d x0 xs v d', nrun n0 (h ++ [NBwd d]) = Ok (l0, n1) -> deqb (d := D) (dofZ 0) (dofZ 0) = true ->
  range x0 = Ok v -> deqb v (dofZ 0) = false -> Forall (fun x => el x <> []) xs ->
  exists n2, nrun n1 (map NFwd (x0 :: xs) ++ [NBwd d']) = Ok (map (fun x => scaled x v) (x0 :: xs) ++ [scaled d' v], n2) /\ nl_val n1 = Some (dofZ 0) /\ nl_val n2 = Some (dofZ 0).
Proof.
  intros n0 h l0 n1 d x0 xs v d' E dz R Nz F.
  assert (V1 : nl_val n1 = Some (dofZ 0)).
  { rewrite nrun_app in E. destruct (nrun n0 h) as [[l n]| | |]; cbn [bind] in E; try discriminate. cbn [nrun nstep] in E. unfold norm_backprop in E. destruct (nl_val n); cbn [bind] in E; [|discriminate]. now injection E as _ <-. }
  assert (Keep : forall n xs, nl_val n = Some v -> Forall (fun x => el x <> []) xs -> exists n', nrun n (map NFwd xs) = Ok (map (fun x => scaled x v) xs, n') /\ nl_val n' = Some v).
  { intros n xs0 Hn F0. revert n Hn. induction F0 as [|x l Hx F0 IH]; intros n Hn; cbn [map nrun]; [exists n; auto|]. cbn [nstep]. unfold norm_forward, mmax, mmin. destruct (el x) as [|e t] eqn:Ee; [contradiction|]. cbn [bind]. rewrite Hn. cbn [bind]. rewrite Nz.
    destruct (IH (NL (set_za (nl_l n) (mmap (fun x => ddiv x v) x) (mmap (fun x => ddiv x v) x)) (Some v)) eq_refl) as (n' & E' & V'). rewrite E'. cbn [bind]. exists n'. split; [reflexivity|assumption]. }
  unfold range in R. destruct (mmax x0) as [mx| | |] eqn:Emx; cbn [bind] in R; try discriminate. destruct (mmin x0) as [mn| | |] eqn:Emn; cbn [bind] in R; try discriminate. injection R as <-.
  set (v := dsub mx mn) in *.
  assert (First : exists n2, norm_forward n1 x0 = Ok (scaled x0 v, n2) /\ nl_val n2 = Some v).
  { unfold norm_forward. rewrite Emx, Emn. cbn [bind]. rewrite V1. cbn [bind]. rewrite dz. eexists. split; reflexivity. }
  destruct First as (n2 & E2 & V2). destruct (Keep n2 xs V2 F) as (n3 & E3 & V3).
  cbn [map app nrun nstep]. rewrite E2. cbn [bind]. rewrite nrun_app, E3. cbn [bind nrun nstep]. unfold norm_backprop. rewrite V3. cbn [bind app]. eexists. split; [reflexivity|]. auto.
Qed.
(** Before that nothing is defined: the range member is not initialised by the constructor (nor copied by the copy
    constructor), so the first forward or backward pass of every new or copied layer reads an indeterminate value. *)
Theorem C53_uninitialised : forall n : norml D, norm_new draw junk = Ok n \/ (exists m, n = norm_copy m) ->
  (forall x, el x <> [] -> norm_forward n x = Undef UninitRead) /\ (forall d, norm_backprop n d = Undef UninitRead).
Proof.
  intros n Hn. assert (V : nl_val n = None).
  { destruct Hn as [E|(m & ->)]; [|reflexivity]. unfold norm_new, layer_new in E. cbn in E. now injection E as <-. }
  split; intros x; [intros Hx|]; unfold norm_forward, norm_backprop, mmax, mmin; rewrite V; [|reflexivity]. destruct (el x); [contradiction|reflexivity].
Qed.
(** What the members inherited from Layer hold: a new layer has 1 x 0 weights and zero rates and nothing computed; a copy has all
    of the source's; so has an assigned layer, and from then on it answers every sequence of calls as the source does. *)
Theorem C53_objects : (exists n, norm_new draw junk = Ok n /\ nr (l_W (nl_l n)) = 1 /\ nc (l_W (nl_l n)) = 0 /\ nr (l_grad (nl_l n)) = 1 /\ nc (l_grad (nl_l n)) = 0 /\
    l_lrate (nl_l n) = dofZ 0 /\ l_lambda (nl_l n) = dofZ 0 /\ l_act (nl_l n) = identity /\ l_z (nl_l n) = mempty /\ l_a (nl_l n) = mempty /\ l_delta (nl_l n) = mempty) /\
  (forall n : norml D, nl_l (norm_copy n) = nl_l n) /\
  (forall dst src : norml D, nl_l (norm_assign dst src) = nl_l src /\ forall os, nrun (norm_assign dst src) os = nrun src os).
Proof.
  split; [|split].
  - eexists. split; [reflexivity|]. cbn. repeat split.
  - intros [[] v]. reflexivity.
  - intros dst [[] v]. split; reflexivity.
Qed.
End Norm.

(** Over the reals: the first forward after a backprop gives values whose range is exactly 1. *)
Lemma fold_max (l : list R) x : let v := fold_left (fun a w => if dltb (d := Rdt) a w then w else a) l x in (In v (x :: l)) /\ Forall (fun w => (w <= v)%R) (x :: l).
Proof.
  revert x. induction l as [|y l IH]; intros x; cbn [fold_left].
  - cbn. split; [auto|]. constructor; [lra|constructor].
  - cbn [dltb Rdt]. unfold Rltb'. destruct (Rlt_dec x y) as [H|H].
    + destruct (IH y) as [A B]. split; [destruct A as [A|A]; [right; now left|right; now right]|]. inversion B as [|? ? B1 B2]; subst. constructor; [|constructor; assumption]. refine (Rle_trans _ y _ _ B1). lra.
    + destruct (IH x) as [A B]. split; [destruct A as [A|A]; [now left|right; now right]|]. inversion B as [|? ? B1 B2]; subst. constructor; [assumption|constructor; [|assumption]]. refine (Rle_trans _ x _ _ B1). lra.
Qed.
Lemma fold_min (l : list R) x : let v := fold_left (fun a w => if dltb (d := Rdt) w a then w else a) l x in (In v (x :: l)) /\ Forall (fun w => (v <= w)%R) (x :: l).
Proof.
  revert x. induction l as [|y l IH]; intros x; cbn [fold_left].
  - cbn. split; [auto|]. constructor; [lra|constructor].
  - cbn [dltb Rdt]. unfold Rltb'. destruct (Rlt_dec y x) as [H|H].
    + destruct (IH y) as [A B]. split; [destruct A as [A|A]; [right; now left|right; now right]|]. inversion B as [|? ? B1 B2]; subst. constructor; [|constructor; assumption]. refine (Rle_trans _ y _ B1 _). lra.
    + destruct (IH x) as [A B]. split; [destruct A as [A|A]; [now left|right; now right]|]. inversion B as [|? ? B1 B2]; subst. constructor; [assumption|constructor; [|assumption]]. refine (Rle_trans _ x _ B1 _). lra.
Qed.
(** [v] is the largest minus the smallest entry of [x] *)
Definition is_range (x : mat Rdt) (v : R) : Prop := exists mx mn : R, In mx (el x) /\ In mn (el x) /\ Forall (fun w : R => (mn <= w <= mx)%R) (el x) /\ v = (mx - mn)%R.
Theorem C53_range : forall (x : mat Rdt), wf x -> el x <> [] -> exists v : R, range x = Ok v /\ is_range x v /\ (0 <= v)%R /\ (0 < v -> is_range (scaled x v) 1)%R.
Proof.
  intros [r c e] W Hx. unfold wf in W. cbn [nr nc el] in *. destruct e as [|a l]; [contradiction|]. unfold range, mmax, mmin. cbn [el bind].
  destruct (fold_max l a) as [A1 A2]. destruct (fold_min l a) as [B1 B2]. set (mx := fold_left _ l a) in A1, A2. set (mn := fold_left _ l a) in B1, B2. exists (mx - mn)%R. split; [reflexivity|].
  assert (All : Forall (fun w : R => (mn <= w <= mx)%R) (a :: l)).
  { apply Forall_forall. intros w Hw. split; [exact (proj1 (Forall_forall _ _) B2 w Hw)|exact (proj1 (Forall_forall _ _) A2 w Hw)]. }
  split; [exists mx, mn; repeat split; assumption|]. split; [pose proof (proj1 (Forall_forall _ _) All mx A1) as [Q _]; lra|]. intros Hv.
  assert (Es : el (scaled (Mat r c (a :: l) : mat Rdt) (mx - mn)%R) = map (fun w : R => (w / (mx - mn))%R) (a :: l)).
  { assert (G : scaled (Mat r c (a :: l) : mat Rdt) (mx - mn)%R = Mat (D := Rdt) r c (map (fun w : R => (w / (mx - mn))%R) (a :: l))).
    { apply (mat_ext (D := Rdt)); [apply wf_mk|exact (eq_trans (map_length _ _) W)|reflexivity|reflexivity|]. cbn [nr nc]. intros i j Hi Hj. cbn [scaled mmap nr nc mk] in Hi, Hj. unfold scaled. rewrite at_mmap by assumption. unfold at_. cbn [nr el].
      rewrite (nth_indep (map (fun w : R => (w / (mx - mn))%R) (a :: l)) (d0 (d := Rdt)) (0 / (mx - mn))%R) by (assert (Lm : length (map (fun w : R => (w / (mx - mn))%R) (a :: l)) = r * c) by exact (eq_trans (map_length _ _) W); rewrite Lm; nia). now rewrite (map_nth (fun w : R => (w / (mx - mn))%R)). }
    now rewrite G. }
  exists (mx / (mx - mn))%R, (mn / (mx - mn))%R. rewrite Es. split; [now apply (in_map (fun w : R => (w / (mx - mn))%R))|]. split; [now apply (in_map (fun w : R => (w / (mx - mn))%R))|]. split.
  - apply Forall_map. eapply Forall_impl; [|exact All]. intros w [Q1 Q2]. split; apply Rmult_le_compat_r; try lra; left; now apply Rinv_0_lt_compat.
  - field. lra.
Qed.
Example C53_example : exists (n2 n1 : norml Rdt) (l0 : list (mat Rdt)), let x0 : mat Rdt := Mat (D := Rdt) 1 2 [1; 5]%R in let x1 : mat Rdt := Mat (D := Rdt) 1 2 [3; 15]%R in
  nrun (D := Rdt) (NL (D := Rdt) layer_default (Some 7%R)) ([] ++ [NBwd x0]) = Ok (l0, n1) /\ nrun n1 (map NFwd [x0; x1] ++ [NBwd x0]) = Ok (map (fun x => scaled (D := Rdt) x 4%R) [x0; x1] ++ [scaled (D := Rdt) x0 4%R], n2).
Proof.
  set (x0 := Mat (D := Rdt) 1 2 [1; 5]%R : mat Rdt). set (x1 := Mat (D := Rdt) 1 2 [3; 15]%R : mat Rdt). set (ni := NL (D := Rdt) layer_default (Some 7%R)).
  assert (E : nrun (D := Rdt) ni ([] ++ [NBwd x0]) = Ok ([scaled (D := Rdt) x0 7%R], NL (D := Rdt) layer_default (Some (dofZ (d := Rdt) 0)))) by reflexivity.
  destruct (C53_sticky (D := Rdt) ni [] _ _ x0 x0 [x1] 4%R x0 E) as (n2 & E2 & _).
  - cbn. unfold Reqb'. destruct (Req_EM_T 0 0); [reflexivity|contradiction].
  - unfold range, mmax, mmin. cbn. unfold Rltb'. destruct (Rlt_dec 1 5) as [_|H]; [|lra]. destruct (Rlt_dec 5 1) as [H|_]; [lra|]. cbn. f_equal. lra.
  - cbn. unfold Reqb'. destruct (Req_EM_T 4 0); [lra|reflexivity].
  - constructor; [discriminate|constructor].
  - exists n2, (NL (D := Rdt) layer_default (Some (dofZ (d := Rdt) 0))), [scaled (D := Rdt) x0 7%R]. split; [exact E|exact E2].
Qed.

(** * C54 *)
Definition srow (x : mat Rdt) (i : nat) : R := sumN (nc x) (fun k => exp (at_ x i k)).
Lemma softmax_rows_R (x : mat Rdt) : softmax_rows (D := Rdt) x = Ok (mk (D := Rdt) (nr x) (nc x) (fun i j => (exp (at_ x i j) / srow x i)%R)).
Proof.
  unfold softmax_rows, exponential, mmap. cbn [nc mk]. unfold mdiv. rewrite mzip_ok by (cbn; lia). cbn [nr nc mk]. f_equal. apply mk_ext. intros i j Hi Hj. rewrite at_mk by assumption.
  unfold repeatm, repmat. cbn [nr nc mk rowsum sum1]. rewrite at_mk by (cbn [nr nc rowsum sum1 mk]; lia). cbn [nr nc rowsum sum1 mk]. rewrite Nat.mod_small by assumption. rewrite Nat.mod_1_r. unfold rowsum, sum1. cbn [nr nc mk]. rewrite at_mk by lia.
  cbn [ddiv Rdt dexp]. f_equal. refine (eq_trans (fold_left_sum (fun k => at_ (mk (D := Rdt) (nr x) (nc x) (fun i j => exp (at_ x i j))) i k) (seq 0 (nc x)) 0%R) _). rewrite Rplus_0_l. unfold srow, sumN. apply sumL_map_ext. intros k Hk. apply in_seq in Hk. now rewrite (at_mk (D := Rdt)) by lia.
Qed.
Lemma srow_pos (x : mat Rdt) i : 1 <= nc x -> (0 < srow x i)%R.
Proof. intros H. unfold srow. destruct (nc x) as [|n]; [lia|]. rewrite sumN_S. assert (0 <= sumN n (fun k => exp (at_ x i (S k))))%R by (apply sumN_nonneg; intros; left; apply exp_pos). pose proof (exp_pos (at_ x i 0)). lra. Qed.
(** Every row of the forward pass is a probability distribution ... *)
Theorem C54_distribution : forall (s : softl Rdt) (x : mat Rdt), 1 <= nc x -> exists p s', soft_forward s x = Ok (p, s') /\ nr p = nr x /\ nc p = nc x /\
  forall i, i < nr x -> (forall j, j < nc x -> (0 < at_ p i j)%R) /\ sumN (nc x) (fun j => at_ p i j) = 1%R.
Proof.
  intros s x H. unfold soft_forward. rewrite softmax_rows_R. cbn [bind]. eexists. eexists. split; [reflexivity|]. split; [reflexivity|]. split; [reflexivity|]. intros i Hi. pose proof (srow_pos x i H). split.
  - intros j Hj. rewrite at_mk by assumption. apply Rdiv_lt_0_compat; [apply exp_pos|assumption].
  - rewrite (sumN_ext _ _ (fun j => (exp (at_ x i j) * / srow x i)%R)) by (intros j Hj; rewrite at_mk by assumption; reflexivity). rewrite sumN_scal_r. fold (srow x i). field. lra.
Qed.
(** ... proportional to exp, so larger inputs get larger probabilities, and adding a constant to a row changes nothing. *)
Theorem C54_order : forall (s : softl Rdt) (x : mat Rdt) p s' i j k, soft_forward s x = Ok (p, s') -> i < nr x -> j < nc x -> k < nc x ->
  ((at_ x i j < at_ x i k)%R <-> (at_ p i j < at_ p i k)%R).
Proof.
  intros s x p s' i j k E Hi Hj Hk. unfold soft_forward in E. rewrite softmax_rows_R in E. injection E as <- _. rewrite !at_mk by assumption. assert (P := srow_pos x i ltac:(lia)). apply Rinv_0_lt_compat in P.
  set (a := at_ x i j : R). set (b := at_ x i k : R). change (a < b <-> exp a * / srow x i < exp b * / srow x i)%R. split; intros H.
  - apply Rmult_lt_compat_r; [assumption|]. now apply exp_increasing.
  - apply Rmult_lt_reg_r in H; [|assumption]. now apply exp_lt_inv.
Qed.
Theorem C54_shift : forall (s1 s2 : softl Rdt) (x y : mat Rdt) (t : nat -> R), nr x = nr y -> nc x = nc y -> (forall i j, i < nr x -> j < nc x -> at_ y i j = (at_ x i j + t i)%R) ->
  exists p s1' s2', soft_forward s1 x = Ok (p, s1') /\ soft_forward s2 y = Ok (p, s2').
Proof.
  intros s1 s2 x y t Er Ec H. unfold soft_forward. rewrite !softmax_rows_R. cbn [bind]. eexists. eexists. eexists. split; [reflexivity|].
  assert (G : mk (D := Rdt) (nr y) (nc y) (fun i j => (exp (at_ y i j) / srow y i)%R) = mk (D := Rdt) (nr x) (nc x) (fun i j => (exp (at_ x i j) / srow x i)%R)).
  { rewrite <- Er, <- Ec. apply mk_ext; intros i j Hi Hj. assert (Es : srow y i = (srow x i * exp (t i))%R) by (unfold srow; rewrite <- Ec, <- sumN_scal_r; apply sumN_ext; intros k Hk; rewrite H by assumption; apply exp_plus).
    rewrite Es, H by assumption; rewrite exp_plus; pose proof (srow_pos x i ltac:(lia)); pose proof (exp_pos (t i)); set (a := at_ x i j : R).
    apply (Rmult_eq_reg_r (srow x i * exp (t i))); [|nra]. field. split; lra. }
  rewrite G. reflexivity.
Qed.
(** The backward pass applies the same function to the incoming gradient, whatever the forward pass was: with a zero
    gradient (nothing to learn) it sends back 1/n to every input instead of 0. *)
Theorem C54_backprop : forall (s : softl Rdt) (d : mat Rdt), 1 <= nc d -> exists r, soft_backprop s d = Ok (r, s) /\ soft_forward s d = Ok (r, SL (sl_l s) r) /\
  (forall i, i < nr d -> (forall j, j < nc d -> at_ d i j = 0%R) -> forall j, j < nc d -> at_ r i j = (1 / INR (nc d))%R /\ at_ r i j <> 0%R).
Proof.
  intros s d H. unfold soft_backprop, soft_forward. rewrite softmax_rows_R. cbn [bind]. eexists. split; [reflexivity|]. split; [reflexivity|]. intros i Hi Z j Hj. rewrite at_mk by assumption.
  assert (Es : srow d i = INR (nc d)) by (unfold srow; rewrite (sumN_ext _ _ (fun _ => 1%R)) by (intros k Hk; rewrite Z by assumption; apply exp_0); rewrite sumN_const; lra).
  assert (0 < INR (nc d))%R by (apply lt_0_INR; lia). rewrite Es, Z, exp_0 by assumption. split; [reflexivity|]. apply Rgt_not_eq. apply Rdiv_lt_0_compat; lra.
Qed.
(** The correct product with the transposed Jacobian of softmax at x, for comparison: p_j (d_j - sum_k d_k p_k). *)
Theorem C54_not_jacobian : forall (s : softl Rdt) (x d : mat Rdt) p s1, nr d = nr x -> nc d = nc x -> 1 <= nr x -> 1 <= nc x -> (forall i j, i < nr x -> j < nc x -> at_ d i j = 0%R) -> soft_forward s x = Ok (p, s1) ->
  exists r s2, soft_backprop s1 d = Ok (r, s2) /\ forall i j, i < nr x -> j < nc x ->
    at_ r i j <> (at_ p i j * (at_ d i j - sumN (nc x) (fun k => at_ d i k * at_ p i k)))%R.
Proof.
  intros s x d p s1 Er Ec H1 H2 Z E. destruct (C54_backprop s1 d ltac:(lia)) as (r & Eb & _ & V). exists r, s1. split; [exact Eb|]. intros i j Hi Hj. destruct (V i ltac:(lia)) with (j := j) as [_ V2]; [intros k Hk; apply Z; lia|lia|].
  intros Q. apply V2. rewrite Q, Z by assumption. rewrite (sumN_ext _ _ (fun _ => 0%R)); [rewrite sumN_const0; lra|]. intros k Hk. rewrite Z by assumption. apply Rmult_0_l.
Qed.
(** the returned matrix, without the new state *)
Definition answer {A B} (r : res (A * B)) : res A := '(a, _) <- r ;; Ok a.
(** The same for SoftmaxLayer; the answers of a softmax layer depend only on the argument, so copies and assigned layers answer alike. *)
Theorem C54_objects {D : dtype} (draw : D -> nat -> D) (junk : nat -> D) : (exists s, soft_new draw junk = Ok s /\ nr (l_W (sl_l s)) = 1 /\ nc (l_W (sl_l s)) = 0 /\ nr (l_grad (sl_l s)) = 1 /\ nc (l_grad (sl_l s)) = 0 /\
    l_lrate (sl_l s) = dofZ 0 /\ l_lambda (sl_l s) = dofZ 0 /\ l_act (sl_l s) = identity /\ l_z (sl_l s) = mempty /\ l_a (sl_l s) = mempty /\ l_delta (sl_l s) = mempty) /\
  (forall s : softl D, sl_l (soft_copy s) = sl_l s) /\ (forall dst src : softl D, sl_l (soft_assign dst src) = sl_l src) /\
  forall (s1 s2 : softl D) x, answer (soft_forward s1 x) = answer (soft_forward s2 x) /\ answer (soft_backprop s1 x) = answer (soft_backprop s2 x) /\
    forall p s1', soft_forward s1 x = Ok (p, s1') -> sl_l s1' = sl_l s1.
Proof.
  split; [|split; [|split]].
  - eexists. split; [reflexivity|]. cbn. repeat split.
  - intros [[] v]. reflexivity.
  - intros dst [[] v]. reflexivity.
  - intros s1 s2 x. unfold soft_forward, soft_backprop. destruct (softmax_rows x); cbn; repeat split; intros p s1' E; try discriminate. now injection E as <- <-.
Qed.

(** One sample with two equal scores: probabilities 1/2, and a zero gradient comes back as 1/2. *)
Example C54_example : exists (s : softl Rdt) (x p : mat Rdt) s1 r s2, nr x = 1 /\ nc x = 2 /\ at_ x 0 0 = 3%R /\ at_ x 0 1 = 3%R /\
  soft_forward s x = Ok (p, s1) /\ soft_backprop s1 (zeros 1 2) = Ok (r, s2) /\ at_ r 0 1 = (1 / 2)%R.
Proof.
  set (s := SL (D := Rdt) layer_default mempty). set (x := mk (D := Rdt) 1 2 (fun _ _ => 3%R)).
  destruct (C54_distribution s x ltac:(cbn; lia)) as (p & s1 & E & _).
  destruct (C54_backprop s1 (zeros (D := Rdt) 1 2) ltac:(cbn; lia)) as (r & E2 & _ & Z).
  exists s, x, p, s1, r, s1. repeat split; auto. destruct (Z 0 ltac:(cbn; lia) ltac:(intros j Hj; cbn in Hj; unfold zeros; rewrite (at_mk (D := Rdt)) by lia; reflexivity) 1 ltac:(cbn; lia)) as [A _]. exact A.
Qed.

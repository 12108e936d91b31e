(** P_Access.v - C45: copying input layers; C55: setlrate, randomize and the accessors. *)
From Verif Require Import Base Mat Act Layer Conv Misc Net NetP Trainer TrainP ExNet.
From Coq Require Import Arith.
Local Open Scope nat_scope.

Section Access.
Context {D : dtype}.
Notation mat := (mat D).
Notation layer := (layer D).
Notation net := (net D).
Notation lheap := (lheap D).
Notation hlayer := (hlayer D).
Context (draw : D -> nat -> D) (junk : nat -> D).

(** * C45 *)

(** k successive copies *)
Fixpoint copies (k : nat) (l : layer) : res layer :=
  match k with 0 => Ok l | S k' => l' <- copies k' l ;; input_copy draw junk l' end.

(** Every copy construction of an InputLayer succeeds and adds one row; the new weights are freshly initialised -
    a function of the new size only, not of the copied weights. *)
Theorem C45_copy : forall l : layer, exists l', input_copy draw junk l = Ok l' /\
  nr (l_W l') = nr (l_W l) + 1 /\ nc (l_W l') = nc (l_W l) /\ l_lrate l' = l_lrate l /\ l_lambda l' = l_lambda l /\ l_act l' = l_act l /\
  l_W l' = randominit_w draw d1 (mat_uninit junk (nr (l_W l) + 1) (nc (l_W l))).
Proof.
  intros l. unfold input_copy, layer_new. rewrite !(proj2 (Z.leb_le _ _)) by lia. cbn [andb]. eexists. split; [reflexivity|].
  cbn. replace (Z.to_nat (Z.of_nat (nr (l_W l)) + 1)) with (nr (l_W l) + 1) by lia. rewrite Nat2Z.id. repeat split.
Qed.
Theorem C45_k_copies : forall k (l : layer), exists l', copies k l = Ok l' /\ nr (l_W l') = nr (l_W l) + k /\ nc (l_W l') = nc (l_W l) /\
  l_lrate l' = l_lrate l /\ l_lambda l' = l_lambda l /\ l_act l' = l_act l.
Proof.
  induction k as [|k IH]; intros l; cbn [copies].
  - exists l. repeat split; lia.
  - destruct (IH l) as (l1 & -> & A1 & A2 & A3 & A4 & A5). cbn [bind]. destruct (C45_copy l1) as (l2 & E & B1 & B2 & B3 & B4 & B5 & _). exists l2.
    split; [exact E|]. repeat split; try congruence. lia.
Qed.
(** Building a network copies the given input layer twice, copying the network or calling getinput() once. *)
Theorem C45_network : forall (i : layer) (o : output D) hs,
  exists n, net_new draw junk i o hs = Ok n /\ nr (l_W (n_input n)) = nr (l_W i) + 2 /\ nc (l_W (n_input n)) = nc (l_W i) /\
  exists n', net_copy draw junk n = Ok n' /\ nr (l_W (n_input n')) = nr (l_W i) + 3 /\
  exists g, net_getinput draw junk n = Ok g /\ nr (l_W g) = nr (l_W i) + 3.
Proof.
  intros i o hs. unfold net_new. destruct (C45_copy i) as (i1 & -> & A1 & A2 & _). cbn [bind]. destruct (C45_copy i1) as (i2 & -> & B1 & B2 & _). cbn [bind].
  eexists. split; [reflexivity|]. cbn [n_input]. split; [lia|]. split; [lia|]. unfold net_copy, net_getinput. cbn [n_input]. destruct (C45_copy i2) as (i3 & E & C1 & C2 & _). rewrite E. cbn [bind].
  eexists. split; [reflexivity|]. cbn [n_input]. split; [lia|]. exists i3. split; [reflexivity|]. lia.
Qed.
(** The forward pass of an input layer returns its argument, before and after copying; the weights play no role. *)
Theorem C45_forward : forall (l : layer) k l' x, copies k l = Ok l' -> fst (input_forward l x) = x /\ fst (input_forward l' x) = x.
Proof. intros. split; reflexivity. Qed.

(** * C55 *)

(** ** setlrate *)
Definition rated (r : D) (h : hlayer) : hlayer := h_with h (set_lrate (h_base h) r).
Lemma h_base_with h (l : layer) : h_base (h_with h l) = l.
Proof. destruct h as [a|c|[c i]|n|s]; cbn; reflexivity. Qed.
Lemma h_with_with h (l l' : layer) : h_with (h_with h l) l' = h_with h l'.
Proof. destruct h as [a|c|[c i]|n|s]; cbn; try reflexivity. Qed.
Lemma rated_rated r h : rated r (rated r h) = rated r h.
Proof. unfold rated. rewrite h_base_with, h_with_with. reflexivity. Qed.

Lemma setlrate_heap r : forall ids (H : lheap), (forall p, In p ids -> p < length H) ->
  exists H', foldM (fun H p => h <- lget H p ;; Ok (upd p (h_with h (set_lrate (h_base h) r)) H)) ids H = Ok H' /\ length H' = length H /\
    forall p, nth_error H' p = match nth_error H p with Some h => if in_dec Nat.eq_dec p ids then Some (rated r h) else Some h | None => None end.
Proof.
  induction ids as [|q ids IH]; intros H Hl; cbn [foldM].
  - exists H. split; [reflexivity|]. split; [reflexivity|]. intros p. destruct (nth_error H p); [destruct (in_dec _ p []) as [[]|]|]; reflexivity.
  - unfold lget at 1. destruct (nth_error H q) as [h|] eqn:Q; [|apply nth_error_None in Q; specialize (Hl q (or_introl eq_refl)); lia]. cbn [bind].
    destruct (IH (upd q (h_with h (set_lrate (h_base h) r)) H)) as (H' & E & L1 & L2); [intros p Hp; rewrite upd_length; apply Hl; now right|].
    exists H'. split; [exact E|]. split; [now rewrite L1, upd_length|]. intros p. rewrite L2, nth_error_upd, Q.
    destruct (Nat.eqb_spec p q) as [->|Hne].
    + rewrite Q. fold (rated r h). destruct (in_dec Nat.eq_dec q ids), (in_dec Nat.eq_dec q (q :: ids)) as [|N]; try (exfalso; apply N; now left); [now rewrite rated_rated|reflexivity].
    + destruct (nth_error H p); [|reflexivity]. destruct (in_dec Nat.eq_dec p ids) as [I|I], (in_dec Nat.eq_dec p (q :: ids)) as [J|J]; try reflexivity; exfalso.
      * apply J. now right.
      * destruct J as [J|J]; [congruence|contradiction].
Qed.

(** Layer objects of all kinds, possibly repeated in the network: setlrate(r) gives the input layer, the output
    layer and every hidden layer the rate r and changes nothing else - in particular no weight - in them, in the
    network or in any other layer object. *)
Theorem C55_setlrate : forall (n : net) (H : lheap) r, (forall p, In p (n_hidden n) -> p < length H) ->
  exists n' H', net_setlrate n H r = Ok (n', H') /\
    n_input n' = set_lrate (n_input n) r /\ o_l (n_output n') = set_lrate (o_l (n_output n)) r /\
    n_hidden n' = n_hidden n /\ n_result n' = n_result n /\ n_cost n' = n_cost n /\ n_costd n' = n_costd n /\
    o_y (n_output n') = o_y (n_output n) /\ o_cost (n_output n') = o_cost (n_output n) /\ o_costd (n_output n') = o_costd (n_output n) /\
    (forall i l, net_gethidden n H i = Ok l -> net_gethidden n' H' i = Ok (set_lrate l r)) /\
    (forall p, ~ In p (n_hidden n) -> nth_error H' p = nth_error H p) /\
    (forall p h, In p (n_hidden n) -> nth_error H p = Some h -> nth_error H' p = Some (h_with h (set_lrate (h_base h) r))).
Proof.
  intros n H r Hl. unfold net_setlrate. destruct (setlrate_heap r (n_hidden n) H Hl) as (H' & E & L1 & L2).
  rewrite E. cbn [bind]. eexists _, H'. split; [reflexivity|]. cbn [set_output set_input n_input n_output n_hidden n_result n_cost n_costd o_l o_y o_cost o_costd]. repeat (split; [reflexivity|]).
  split; [|split].
  - intros i l. unfold net_gethidden. cbn [n_hidden set_output set_input]. destruct (nth_error (n_hidden n) i) as [p|] eqn:Q; [|discriminate]. unfold lget. rewrite L2.
    destruct (nth_error H p) as [h|]; [|discriminate]. cbn [bind]. intros El. injection El as <-. destruct (in_dec Nat.eq_dec p (n_hidden n)) as [|N]; [|exfalso; apply N; eapply nth_error_In; eauto].
    cbn [bind]. unfold rated. rewrite h_base_with, !layer_copy_id. reflexivity.
  - intros p Hp. rewrite L2. destruct (nth_error H p); [|reflexivity]. destruct (in_dec Nat.eq_dec p (n_hidden n)); [contradiction|reflexivity].
  - intros p h Hp Q. rewrite L2, Q. destruct (in_dec Nat.eq_dec p (n_hidden n)); [reflexivity|contradiction].
Qed.

(** Rates are not used by the forward pass: forwardprop gives the same output (or fails the same way) after
    setlrate, for layers of every kind. *)
Definition unrate (h : hlayer) : hlayer := rated d0 h.
Lemma unrate_rated r h : unrate (rated r h) = unrate h.
Proof. unfold unrate, rated. rewrite h_base_with, h_with_with. reflexivity. Qed.
Definition fwd_eq (r1 r2 : res (mat * hlayer)) : Prop :=
  match r1, r2 with Ok (a, h), Ok (b, k) => a = b /\ unrate h = unrate k | Undef u, Undef v => u = v | Abort, Abort | Throw, Throw => True | _, _ => False end.
Lemma fwd_eq_bind {A} (r : res A) k1 k2 : (forall a, fwd_eq (k1 a) (k2 a)) -> fwd_eq (bind r k1) (bind r k2).
Proof. intros K. destruct r; cbn; auto. Qed.
Lemma forward_rated r h x : fwd_eq (h_forward junk (rated r h) x) (h_forward junk h x).
Proof.
  destruct h as [l|c|[c ix]|n|s]; cbn [rated h_with h_base h_forward mp_c mp_indexes].
  - unfold forwardprop. cbn [l_W set_lrate]. destruct (addcol x); cbn; auto. destruct (mmul a (l_W l)); cbn; auto.
  - unfold conv_forward. cbn [cv_set cv_osize cv_nf cv_ih cv_iw cv_pad cv_sp cv_st cv_l cv_pnf cv_images set_lrate l_W l_act].
    unfold forward_loop. cbn [cv_set cv_osize cv_nf cv_ih cv_iw cv_pad cv_sp cv_st cv_l cv_pnf cv_images set_lrate l_W l_act].
    destruct (rd (cv_osize c)); cbn [bind fwd_eq]; auto. destruct (zerosZ (nr x) (a * cv_nf c)); cbn [bind fwd_eq]; auto. destruct (cube_new _ _ _ _); cbn [bind fwd_eq]; auto.
    destruct (foldM _ _ _) as [[aa im]| | |]; cbn [bind fwd_eq]; auto.
  - unfold maxpool_forward. cbn [mp_c mp_indexes cv_set cv_osize cv_nf cv_ih cv_iw cv_pad cv_sp cv_st cv_l cv_pnf cv_images set_lrate l_W l_act].
    destruct (rd (cv_osize c)); cbn [bind fwd_eq]; auto. destruct (zerosZ (nr x) (a * cv_nf c)); cbn [bind fwd_eq]; auto. destruct (cube_new _ _ _ _); cbn [bind fwd_eq]; auto.
    destruct (if (_ <? _)%Z then _ else _); cbn [bind fwd_eq]; auto.
    destruct (foldM _ _ _) as [[[aa im] ii]| | |]; cbn [bind fwd_eq]; auto.
  - unfold norm_forward. cbn [nl_val nl_l]. destruct (mmax x); cbn [bind fwd_eq]; auto. destruct (mmin x); cbn [bind fwd_eq]; auto. destruct (nl_val n); cbn [bind fwd_eq]; auto.
  - unfold soft_forward. destruct (softmax_rows x); cbn [bind fwd_eq]; auto.
Qed.
Lemma fwd_eq_sym a b : fwd_eq a b -> fwd_eq b a.
Proof. destruct a as [[? ?]| | |], b as [[? ?]| | |]; cbn; auto. intros [-> ->]. auto. Qed.
Lemma fwd_eq_trans a b c : fwd_eq a b -> fwd_eq b c -> fwd_eq a c.
Proof. destruct a as [[? ?]| | |], b as [[? ?]| | |], c as [[? ?]| | |]; cbn; intuition congruence. Qed.
Lemma forward_unrate h k x : unrate h = unrate k -> fwd_eq (h_forward junk h x) (h_forward junk k x).
Proof.
  intros E. eapply fwd_eq_trans; [apply fwd_eq_sym, (forward_rated d0)|]. fold (unrate h). rewrite E. apply forward_rated.
Qed.
Lemma hidden_forward_unrate : forall ids x (H1 H2 : lheap), Forall2 (fun h k => unrate h = unrate k) H1 H2 ->
  match hidden_forward junk ids x H1, hidden_forward junk ids x H2 with
  | Ok (a, K1), Ok (b, K2) => a = b /\ Forall2 (fun h k => unrate h = unrate k) K1 K2
  | Undef u, Undef v => u = v | Abort, Abort | Throw, Throw => True | _, _ => False end.
Proof.
  induction ids as [|p ids IH]; intros x H1 H2 HF; cbn [hidden_forward]; [auto|].
  assert (G : match nth_error H1 p, nth_error H2 p with Some h, Some k => unrate h = unrate k | None, None => True | _, _ => False end).
  { clear -HF. revert p. induction HF; intros [|p]; cbn; auto. apply IHHF. }
  unfold lget. destruct (nth_error H1 p) as [h|], (nth_error H2 p) as [k|]; try contradiction; cbn [bind]; [|reflexivity].
  pose proof (forward_unrate h k x G) as FE. destruct (h_forward junk h x) as [[a h']| | |], (h_forward junk k x) as [[b k']| | |]; cbn [fwd_eq] in FE; try contradiction; cbn [bind]; auto.
  destruct FE as [<- E']. apply IH. clear -HF E'. revert p. induction HF; intros [|p]; cbn [upd]; constructor; auto.
Qed.
Theorem C55_setlrate_forward : forall (n : net) (H : lheap) r n' H' x, (forall p, In p (n_hidden n) -> p < length H) -> net_setlrate n H r = Ok (n', H') ->
  match net_forward junk n H x, net_forward junk n' H' x with
  | Ok (a, _, _), Ok (b, _, _) => a = b
  | Undef u, Undef v => u = v | Abort, Abort | Throw, Throw => True | _, _ => False end.
Proof.
  intros n H r n' H' x Hl E. unfold net_setlrate in E. destruct (setlrate_heap r (n_hidden n) H Hl) as (K & EK & L1 & L2). rewrite EK in E. cbn [bind] in E. injection E as <- <-.
  unfold net_forward, input_forward, set_output, set_input. cbn [n_input n_hidden n_output].
  assert (F : Forall2 (fun h k => unrate h = unrate k) H K).
  { apply Forall2_intro_nth; [congruence|]. intros p h k Hh Hk. rewrite L2, Hh in Hk. destruct (in_dec _ _ _); injection Hk as <-; [now rewrite unrate_rated|reflexivity]. }
  pose proof (hidden_forward_unrate (n_hidden n) x H K F) as R.
  destruct (hidden_forward junk (n_hidden n) x H) as [[a K1]| | |], (hidden_forward junk (n_hidden n) x K) as [[b K2]| | |]; try contradiction; cbn [bind]; auto.
  destruct R as [<- _]. unfold output_forward, forwardprop. cbn [o_l set_lrate l_W l_act]. destruct (addcol a); cbn [bind]; auto. destruct (mmul _ _); cbn [bind]; auto.
Qed.

(** ** randomize *)

(** randomize(i, s) re-initialises hidden layer i - or the output layer when there is no hidden layer i - and
    nothing else; sizes, rates, activations are kept.  Normalisation and softmax layers have nothing to
    re-initialise. *)
Theorem C55_randomize_hidden : forall (n : net) (H : lheap) i s p h, nth_error (n_hidden n) i = Some p -> nth_error H p = Some h ->
  exists h', net_randomize draw n H i s = Ok (n, upd p h' H) /\
    (forall l, h = HDense l -> h' = HDense (set_W l (randominit_w draw s (l_W l)))) /\
    (h' = h \/ h_base h' = set_W (h_base h) (randominit_w draw s (l_W (h_base h)))) /\
    nr (l_W (h_base h')) = nr (l_W (h_base h)) /\ nc (l_W (h_base h')) = nc (l_W (h_base h)) /\
    (forall j l, net_gethidden n H j = Ok l -> nth_error (n_hidden n) j <> Some p -> net_gethidden n (upd p h' H) j = Ok l).
Proof.
  intros n H i s p h Hi Hp. unfold net_randomize, lget. rewrite Hi, Hp. cbn [bind]. eexists. split; [reflexivity|].
  split; [intros l ->; reflexivity|]. split; [|split; [|split]].
  - destruct h as [l|c|[c ix]|m|sl]; cbn; auto.
  - destruct h as [l|c|[c ix]|m|sl]; cbn; auto.
  - destruct h as [l|c|[c ix]|m|sl]; cbn; auto.
  - intros j l. unfold net_gethidden. destruct (nth_error (n_hidden n) j) as [q|]; [|discriminate]. unfold lget. rewrite nth_error_upd.
    destruct (Nat.eqb_spec q p) as [->|]; [congruence|auto].
Qed.
Theorem C55_randomize_output : forall (n : net) (H : lheap) i s, length (n_hidden n) <= i ->
  net_randomize draw n H i s = Ok (net_setoutputw n (randominit_w draw s (l_W (o_l (n_output n)))), H) /\
  nr (randominit_w draw s (l_W (o_l (n_output n)))) = nr (l_W (o_l (n_output n))) /\ nc (randominit_w draw s (l_W (o_l (n_output n)))) = nc (l_W (o_l (n_output n))).
Proof.
  intros n H i s Hi. unfold net_randomize. rewrite (proj2 (nth_error_None _ _)) by assumption. split; [reflexivity|]. split; reflexivity.
Qed.

(** ** accessors *)

(** setoutputw / getoutput: getoutput() after setoutputw(w) has weights w and everything else as before; the
    hidden layers, the input layer and the result are untouched. *)
Theorem C55_output_accessors : forall (n : net) w, 
  o_l (net_getoutput n) = o_l (n_output n) /\
  o_l (net_getoutput (net_setoutputw n w)) = set_W (o_l (n_output n)) w /\
  o_cost (net_getoutput (net_setoutputw n w)) = o_cost (n_output n) /\ o_costd (net_getoutput (net_setoutputw n w)) = o_costd (n_output n) /\
  n_input (net_setoutputw n w) = n_input n /\ n_hidden (net_setoutputw n w) = n_hidden n /\ n_result (net_setoutputw n w) = n_result n /\
  net_setoutputw n (l_W (o_l (net_getoutput n))) = n.
Proof.
  intros n w. unfold net_getoutput, net_setoutputw, output_copy. cbn. rewrite !layer_copy_id. repeat (split; [reflexivity|]).
  destruct n as [a b c d e [l f g y]]. cbn. unfold set_output, set_W. cbn. destruct l. reflexivity.
Qed.
(** sethiddenw / gethidden: setting layer i is seen by reading layer i; layers held by another object, and the
    objects not named, are unchanged; writing back what was read changes nothing; an index that is out of range
    is undefined behaviour. *)
Theorem C55_hidden_accessors : forall (n : net) (H : lheap) i w,
  (length (n_hidden n) <= i -> net_gethidden n H i = Undef OutOfBounds /\ net_sethiddenw n H i w = Undef OutOfBounds) /\
  (forall l, net_gethidden n H i = Ok l -> exists H', net_sethiddenw n H i w = Ok H' /\ length H' = length H /\
     net_gethidden n H' i = Ok (set_W l w) /\
     (forall q, nth_error (n_hidden n) i <> Some q -> nth_error H' q = nth_error H q) /\
     (forall j lj, net_gethidden n H j = Ok lj -> nth_error (n_hidden n) j <> nth_error (n_hidden n) i -> net_gethidden n H' j = Ok lj)) /\
  (forall l, net_gethidden n H i = Ok l -> net_sethiddenw n H i (l_W l) = Ok H).
Proof.
  intros n H i w. unfold net_gethidden, net_sethiddenw. split; [|split].
  - intros Hi. rewrite (proj2 (nth_error_None _ _)) by assumption. auto.
  - intros l. destruct (nth_error (n_hidden n) i) as [p|] eqn:Q; [|discriminate]. unfold lget. destruct (nth_error H p) as [h|] eqn:E; [|discriminate]. cbn [bind]. rewrite layer_copy_id. intros El. injection El as <-.
    eexists. split; [reflexivity|]. split; [apply upd_length|]. split; [|split].
    + rewrite nth_error_upd, Nat.eqb_refl, E. cbn [bind]. now rewrite h_base_with, layer_copy_id.
    + intros q Hq. rewrite nth_error_upd. destruct (Nat.eqb_spec q p) as [->|]; [congruence|reflexivity].
    + intros j lj. destruct (nth_error (n_hidden n) j) as [q|]; [|discriminate]. rewrite nth_error_upd. destruct (Nat.eqb_spec q p) as [->|]; [congruence|auto].
  - intros l. destruct (nth_error (n_hidden n) i) as [p|] eqn:Q; [|discriminate]. unfold lget. destruct (nth_error H p) as [h|] eqn:E; [|discriminate]. cbn [bind]. rewrite layer_copy_id. intros El. injection El as <-.
    f_equal. assert (X : h_with h (set_W (h_base h) (l_W (h_base h))) = h).
    { assert (SW : set_W (h_base h) (l_W (h_base h)) = h_base h) by (destruct (h_base h); reflexivity). rewrite SW.
      destruct h as [l|[]|[[] ?]|[]|[]]; reflexivity. }
    rewrite X. clear -E. revert p E. induction H as [|k H IH]; intros [|p] E; cbn in *; try discriminate; [congruence|]. f_equal. auto.
Qed.
End Access.
Print Assumptions C45_network. Print Assumptions C55_setlrate. Print Assumptions C55_setlrate_forward. Print Assumptions C55_hidden_accessors.

(** A computed case: a network built on a 2-input layer reports 4 input nodes, its copy 5; the rates change and the
    weights do not. *)
Example C45_example :
  match net_new (fun _ _ => 1%Z : Zdt) exj (zl (zm 2 2 [1;2;3;4]%Z)) exo [0] with
  | Ok n => match net_copy (fun _ _ => 1%Z : Zdt) exj n with Ok n' => (nr (l_W (n_input n)), nr (l_W (n_input n'))) | _ => (0, 0) end
  | _ => (0, 0) end = (4, 5).
Proof. vm_compute. reflexivity. Qed.
Example C55_example : (forall p, In p (n_hidden exn) -> p < length exH) /\
  match net_setlrate exn exH (7%Z : Zdt) with
  | Ok (n', H') => match net_gethidden n' H' 0 with Ok l => (l_lrate l, el (l_W l)) | _ => (0%Z : Zdt, []) end
  | _ => (0%Z : Zdt, []) end = (7%Z : Zdt, [1; 2; 1; -1]%Z).
Proof. split; [intros p [<-|[]]; cbn; lia|]. vm_compute. reflexivity. Qed.

(** P_Train.v - C33: what one feeddata of the plain trainer does to the weights; C56: training never fails on
    data of the right shape. *)
From Verif Require Import Base Mat Act Layer Conv Misc Net NetP Trainer TrainP TrainP2 ExNet.
From Coq Require Import Arith.
Local Open Scope nat_scope.

Section Generic.
Context {D : dtype}.
Notation mat := (mat D).
Notation layer := (layer D).
Context (junk : nat -> D).

(** ** Specification *)

(** [l] is a layer before the step, [l2] the same layer after forwardprop and backprop (holding the gradient),
    [l'] after the step. *)
Definition moved (l l2 l' : layer) : Prop :=
  same_conf l l' /\
  forall i j, i < nr (l_W l) -> j < nc (l_W l) ->
    at_ (l_W l') i j = dsub (at_ (l_W l) i j) (dmul (l_lrate l) (at_ (l_grad l2) i j)).

(** The stored gradient: with [pa] the layer's input preceded by a column of ones and [delta] its error signal,
    entry (i, j) is  sum_r pa(r,i) * delta(r,j)  +  lambda * W(i,j), for every row i including the bias row 0. *)
Definition regularised (l l2 : layer) : Prop :=
  let pa := l_pa l2 in let delta := l_delta l2 in
  nr (l_grad l2) = nr (l_W l) /\ nc (l_grad l2) = nc (l_W l) /\
  nr pa = nr delta /\ (forall r, r < nr pa -> at_ pa r 0 = d1) /\
  forall i j, i < nr (l_W l) -> j < nc (l_W l) ->
    at_ (l_grad l2) i j =
      dadd (fold_left (fun acc r => dadd acc (dmul (at_ pa r i) (at_ delta r j))) (seq 0 (nr pa)) d0)
           (dmul (l_lambda l) (at_ (l_W l) i j)).

(** ** Proof *)
Lemma fwd_pa (l : layer) (x : mat) : fwd_ok (l_W l) x -> forall r, r < nr (l_pa (fwd_layer l x)) -> at_ (l_pa (fwd_layer l x)) r 0 = d1.
Proof. intros (A & B & C) r Hr. cbn [fwd_layer l_pa nr mk] in *. rewrite at_mk by lia. reflexivity. Qed.

Lemma regularised_back (l l1 : layer) (delta : mat) : l_lambda l1 = l_lambda l -> l_W l1 = l_W l ->
  nr (l_pa l1) = nr delta -> nc (l_pa l1) = nr (l_W l) -> nc delta = nc (l_W l) -> (forall r, r < nr (l_pa l1) -> at_ (l_pa l1) r 0 = d1) ->
  regularised l (back_layer l1 delta).
Proof.
  intros E1 E2 E3 E4 E5 E6. unfold regularised. cbn [back_layer l_pa l_delta l_grad grad_of nr nc mk]. split; [assumption|]. split; [assumption|].
  split; [assumption|]. split; [assumption|]. intros i j Hi Hj. unfold back_layer, grad_of. cbn [l_grad]. rewrite at_mk by lia. rewrite E1, E2.
  f_equal. unfold raw_grad. rewrite at_mk by lia. unfold mdot. cbn [nc mt mk].
  assert (X : forall l a, (forall r, In r l -> r < nr (l_pa l1)) ->
     fold_left (fun acc k => dadd acc (dmul (at_ (mt (l_pa l1)) i k) (at_ delta k j))) l a =
     fold_left (fun acc r => dadd acc (dmul (at_ (l_pa l1) r i) (at_ delta r j))) l a).
  { induction l0 as [|k l0 IH]; intros a Hl; [reflexivity|]. cbn [fold_left]. rewrite IH by (intros; apply Hl; now right). f_equal. f_equal. f_equal.
    unfold mt. rewrite at_mk; [reflexivity|lia|]. apply Hl. now left. }
  apply X. intros r Hr%in_seq. lia.
Qed.

(** Layers after the two passes. *)
Lemma passes_form : forall (ls : list layer) x a ls1, lforward ls x = Ok (a, ls1) -> forall d dx ls2, lbackprop ls1 d = Ok (dx, ls2) ->
  Forall2 (fun l l2 => regularised l l2 /\ l_W l2 = l_W l /\ l_lambda l2 = l_lambda l /\ l_lrate l2 = l_lrate l /\ l_act l2 = l_act l) ls ls2.
Proof.
  induction ls as [|l ls IH]; intros x a ls1 HF d dx ls2 HB; cbn [lforward] in HF.
  - injection HF as <- <-. cbn in HB. injection HB as <- <-. constructor.
  - apply bind_ok in HF as ([b l1] & HF1 & HF). apply bind_ok in HF as ([c r1] & HF2 & HF). injection HF as <- <-.
    apply forward_inv in HF1 as (F & -> & ->). cbn [lbackprop] in HB. apply bind_ok in HB as ([e r2] & HB1 & HB). apply bind_ok in HB as ([f l2] & HB2 & HB).
    injection HB as <- <-. constructor; [|eapply IH; eauto].
    apply backprop_inv in HB2 as (B & -> & ->). split; [|repeat split]. destruct B as (B1 & B2 & B3 & B4 & B5).
    cbn [fwd_layer l_z l_pa l_W nr nc mk] in *. pose proof (fwd_pa l x F) as G. cbn [fwd_layer l_pa nr mk] in G.
    apply regularised_back; cbn; try reflexivity; try lia. exact G.
Qed.

Lemma stepped_moved (l l2 : layer) : l_W l2 = l_W l -> l_lambda l2 = l_lambda l -> l_lrate l2 = l_lrate l -> l_act l2 = l_act l -> moved l l2 (stepped l2).
Proof.
  intros E1 E2 E3 E4. split; [unfold same_conf; cbn; rewrite E1; repeat split; auto|]. intros i j Hi Hj. unfold stepped. cbn [l_W set_W].
  rewrite at_mk by (rewrite E1; assumption). now rewrite E1, E3.
Qed.

Lemma train_step_moves n H x y n' H' : dense_hidden n H -> train_step junk n H x y = Ok (n', H') ->
  exists a n1 H1 n2 H2 ls ls2 ls',
    net_forward junk n H x = Ok (a, n1, H1) /\ net_backprop junk n1 H1 y = Ok (n2, H2) /\
    hidden_layers n H = Ok ls /\ hidden_layers n2 H2 = Ok ls2 /\ hidden_layers n' H' = Ok ls' /\
    length ls2 = length ls /\ length ls' = length ls /\
    (forall k l l2 l', nth_error ls k = Some l -> nth_error ls2 k = Some l2 -> nth_error ls' k = Some l' -> moved l l2 l' /\ regularised l l2) /\
    moved (o_l (n_output n)) (o_l (n_output n2)) (o_l (n_output n')) /\ regularised (o_l (n_output n)) (o_l (n_output n2)) /\
    n_hidden n' = n_hidden n /\ dense_hidden n' H' /\ n_result n' = a.
Proof.
  intros Hdh HT. destruct (dense_ls n H Hdh) as [ls Hdn]. unfold train_step in HT. apply bind_ok in HT as ([[a n1] H1] & HF & HT).
  apply bind_ok in HT as ([n2 H2] & HB & HU).
  destruct (pass_dense junk n H ls x y a n1 H1 n2 H2 Hdn HF HB) as (b & ls1 & delta & ls2 & dx & P1 & P2 & P3 & P4 & P5 & P6 & P7 & P8 & P9 & P10 & P11 & P12 & P13).
  destruct (net_update_dense n2 H2 ls2 n' H' P9 HU) as (G1 & G2 & -> & ->).
  assert (Hd' : dense_at (put_layers (n_hidden n2) (map stepped ls2) H2) (n_hidden n2) (map stepped ls2)).
  { eapply dense_put; [eassumption|]. apply map_length. }
  exists a, n1, H1, n2, H2, ls, ls2, (map stepped ls2).
  split; [assumption|]. split; [assumption|]. split; [apply hidden_layers_dense, Hdn|]. split; [apply hidden_layers_dense, P9|].
  split. { apply hidden_layers_dense. exact Hd'. }
  pose proof (passes_form _ _ _ _ P1 _ _ _ P7) as Q. pose proof (Forall2_len _ _ _ Q) as QL.
  split; [auto|]. split; [rewrite map_length; auto|]. split.
  { intros k l l2 l' K1 K2 K3. rewrite nth_error_map, K2 in K3. injection K3 as <-.
    assert (Q1 : regularised l l2 /\ l_W l2 = l_W l /\ l_lambda l2 = l_lambda l /\ l_lrate l2 = l_lrate l /\ l_act l2 = l_act l).
    { clear -Q K1 K2. revert k K1 K2. induction Q; intros [|k] K1 K2; cbn in *; try discriminate; [congruence|eauto]. }
    destruct Q1 as (R1 & R2 & R3 & R4 & R5). split; [now apply stepped_moved|assumption]. }
  cbn [set_output n_output with_layer o_l]. rewrite P10. split; [apply stepped_moved; reflexivity|]. split.
  { apply regularised_back; cbn; try reflexivity; try lia; [destruct P2; lia|]. apply (fwd_pa (o_l (n_output n)) b P2). }
  split; [assumption|]. split.
  { split; [apply P9|]. eapply dense_in. exact Hd'. }
  unfold net_forward in HF. destruct (input_forward (n_input n) x) as [cur i']. apply bind_ok in HF as ([cur' H3] & _ & HF). apply bind_ok in HF as ([r o'] & _ & HF).
  injection HF as <- <- _. unfold net_backprop in HB. apply bind_ok in HB as ([d o2] & _ & HB). apply bind_ok in HB as (H4 & _ & HB). injection HB as <- _. reflexivity.
Qed.

(** The network the step starts from: the network itself, or (in the call where the decay fires) the network with
    new rates and nothing else changed. *)
Definition only_rates (l l0 : layer) : Prop := l0 = set_lrate l (l_lrate l0).
Lemma decay_only_rates (t : trainer D) n H ls : dense_net n H ls ->
  exists n0 H0 ls0, decay t n H = Ok (n0, H0) /\ dense_net n0 H0 ls0 /\ Forall2 only_rates ls ls0 /\ n_hidden n0 = n_hidden n /\
    only_rates (o_l (n_output n)) (o_l (n_output n0)) /\ (t_usedecay t && (t_iters t =? t_step t)%Z = false -> n0 = n /\ H0 = H).
Proof.
  intros Hdn. unfold decay. destruct (t_usedecay t && (t_iters t =? t_step t)%Z).
  - destruct (net_setlrate_dense n H ls (dmul (t_r0 t) (dexp (dmul (dneg (t_k t)) (dofZ (t_iters t))))) Hdn) as [E Hdn']. do 3 eexists. split; [exact E|].
    split; [exact Hdn'|]. split; [|split; [reflexivity|split; [reflexivity|discriminate]]].
    clear. induction ls; constructor; [reflexivity|assumption].
  - exists n, H, ls. split; [reflexivity|]. split; [assumption|]. split; [|split; [reflexivity|split; [now destruct (o_l (n_output n))|auto]]].
    clear. induction ls as [|l ls IH]; constructor; [now destruct l|assumption].
Qed.

(** ** C33 *)
Theorem C33_trainer : forall (t : trainer D) n H x y t' n' H', dense_hidden n H -> feeddata junk t n H x y = Ok (t', n', H') ->
  exists n0 H0 a n1 H1 n2 H2 ls ls0 ls2 ls',
    (* the rates may be decayed first ... *)
    decay (tick t) n H = Ok (n0, H0) /\
    (t_usedecay t = false \/ (t_iters t + 1)%Z <> t_step t -> n0 = n /\ H0 = H) /\
    hidden_layers n H = Ok ls /\ hidden_layers n0 H0 = Ok ls0 /\ Forall2 only_rates ls ls0 /\ only_rates (o_l (n_output n)) (o_l (n_output n0)) /\
    (* ... then all gradients are computed with the weights before the call ... *)
    net_forward junk n0 H0 x = Ok (a, n1, H1) /\ net_backprop junk n1 H1 y = Ok (n2, H2) /\
    hidden_layers n2 H2 = Ok ls2 /\ hidden_layers n' H' = Ok ls' /\ length ls2 = length ls /\ length ls' = length ls /\
    (* ... and only then every layer moves *)
    (forall k l l2 l', nth_error ls0 k = Some l -> nth_error ls2 k = Some l2 -> nth_error ls' k = Some l' -> moved l l2 l' /\ regularised l l2) /\
    moved (o_l (n_output n0)) (o_l (n_output n2)) (o_l (n_output n')) /\ regularised (o_l (n_output n0)) (o_l (n_output n2)) /\
    n_hidden n' = n_hidden n /\ dense_hidden n' H' /\ t' = tick t.
Proof.
  intros t n H x y t' n' H' Hdh HT. destruct (dense_ls n H Hdh) as [ls Hdn]. unfold feeddata in HT.
  destruct (decay_only_rates (tick t) n H ls Hdn) as (n0 & H0 & ls0 & D1 & D2 & D3 & D4 & D5 & D6). rewrite D1 in HT. cbn [bind] in HT.
  apply bind_ok in HT as ([n3 H3] & HT & E). injection E as <- <- <-.
  assert (Hdh0 : dense_hidden n0 H0).
  { split; [apply D2|]. eapply dense_in. apply D2. }
  destruct (train_step_moves n0 H0 x y n3 H3 Hdh0 HT) as (a & n1 & H1 & n2 & H2 & k0 & k2 & k' & M1 & M2 & M3 & M4 & M5 & M6 & M7 & M8 & M9 & M10 & M11 & M12 & M13).
  pose proof (eq_trans (eq_sym M3) (hidden_layers_dense n0 H0 ls0 (proj2 D2))) as Q. injection Q as ->.
  exists n0, H0, a, n1, H1, n2, H2, ls, ls0, k2, k'. split; [assumption|]. split.
  { intros Hno. apply D6. cbn. destruct Hno as [->|Hno]; [reflexivity|]. apply andb_false_iff. right. now apply Z.eqb_neq. }
  split; [apply hidden_layers_dense, Hdn|]. split; [assumption|]. split; [assumption|]. split; [assumption|]. pose proof (Forall2_len _ _ _ D3) as DL.
  repeat (split; [first [assumption|congruence]|]). reflexivity.
Qed.

(** ** C56 *)
(** A network of distinct dense hidden layers whose sizes chain from p inputs to c outputs. *)
Definition chained (p : nat) (ls : list layer) (o : layer) (c : nat) : Prop :=
  exists q, fits p ls q /\ 1 <= q /\ nr (l_W o) = q + 1 /\ nc (l_W o) = c.
Definition well_sized (n : net D) (H : lheap D) (p c : nat) : Prop :=
  dense_hidden n H /\ (exists ls, hidden_layers n H = Ok ls /\ chained p ls (o_l (n_output n)) c) /\
  (o_costd (n_output n) = quad_costd \/ o_costd (n_output n) = ce_costd \/ o_costd (n_output n) = kl_costd \/ o_costd (n_output n) = sm_costd) /\
  (n_cost n = quad_cost \/ n_cost n = ce_cost \/ n_cost n = kl_cost \/ n_cost n = sm_cost).
Definition samples (p c : nat) (xy : mat * mat) : Prop :=
  1 <= nr (fst xy) /\ nc (fst xy) = p /\ nr (snd xy) = nr (fst xy) /\ nc (snd xy) = c.

(** *** Proof *)
Definition sized_cost (C : costfun (D := D)) : Prop := forall y h, nr y = nr h -> nc y = nc h -> exists J, C y h = Ok J.
Lemma builtin_sized_cost C : C = quad_cost \/ C = ce_cost \/ C = kl_cost \/ C = sm_cost -> sized_cost C.
Proof.
  intros [-> | [-> | [-> | ->]]] y h E1 E2.
  - unfold quad_cost, msub, mschur. rewrite mzip_ok by auto. cbn [bind]. rewrite mzip_ok by auto. cbn [bind]. eauto.
  - unfold ce_cost, mschur, madd. rewrite mzip_ok by auto. cbn [bind]. rewrite mzip_ok by auto. cbn [bind]. rewrite mzip_ok by auto. cbn [bind]. eauto.
  - unfold kl_cost, mdiv, mschur. rewrite mzip_ok by auto. cbn [bind]. rewrite mzip_ok by auto. cbn [bind]. eauto.
  - unfold sm_cost, softmax_P, mschur. rewrite mzip_ok by (cbn; lia). cbn [bind]. rewrite mzip_ok by (cbn; lia). cbn [bind]. eauto.
Qed.
Lemma builtin_sized_costd cd : cd = quad_costd \/ cd = ce_costd \/ cd = kl_costd \/ cd = sm_costd -> sized_costd (D := D) cd.
Proof. intros [-> | [-> | [-> | ->]]]; auto using quad_sized, ce_sized, kl_sized, sm_sized. Qed.

(** Same cost functions. *)
Definition kc (n n' : net D) : Prop := n_cost n' = n_cost n /\ o_costd (n_output n') = o_costd (n_output n).
Lemma forward_kc n H x a n' H' : net_forward junk n H x = Ok (a, n', H') -> kc n n' /\ n_result n' = a.
Proof.
  unfold net_forward. destruct (input_forward (n_input n) x) as [cur i']. intros HF. apply bind_ok in HF as ([cur' H3] & _ & HF).
  apply bind_ok in HF as ([r o'] & HO & HF). injection HF as <- <- _. apply bind_ok in HO as ([b l] & _ & HO). injection HO as _ <-. repeat split.
Qed.
Lemma backprop_kc n H y n' H' : net_backprop junk n H y = Ok (n', H') -> kc n n' /\ n_result n' = n_result n.
Proof.
  unfold net_backprop. intros HB. apply bind_ok in HB as ([d o2] & HO & HB). apply bind_ok in HB as (H4 & _ & HB). injection HB as <- _.
  unfold output_backprop in HO. repeat (apply bind_ok in HO as (? & _ & HO)). injection HO as _ <-. repeat split.
Qed.

Lemma step_ok n H ls p c x y : fits_net n H ls p c -> 1 <= p -> samples p c (x, y) ->
  exists n' H' ls', train_step junk n H x y = Ok (n', H') /\ fits_net n' H' ls' p c /\ kc n n' /\ nr (n_result n') = nr x /\ nc (n_result n') = c.
Proof.
  intros Hf Hp (S1 & S2 & S3 & S4). cbn [fst snd] in *.
  destruct (forward_backward_ok junk n H ls p c x y Hf Hp S1 S2 S3 S4) as (a & n1 & H1 & n2 & H2 & ls2 & A1 & A2 & A3 & A4 & A5 & A7 & A8).
  pose proof (forward_kc _ _ _ _ _ _ A1) as [K1 K2]. pose proof (backprop_kc _ _ _ _ _ A4) as [K3 K4].
  unfold train_step. rewrite A1. cbn [bind]. rewrite A4. cbn [bind]. destruct A5 as [A5 (q & A6)]. rewrite (net_update_ok n2 H2 ls2) by assumption.
  do 3 eexists. split; [reflexivity|]. instantiate (1 := map stepped ls2). split; [|split; [|split]].
  - split.
    + split; [apply A5|]. cbn. eapply dense_put; [eassumption|]. apply map_length.
    + exists q. destruct A6 as (B1 & B2 & B3 & B4 & B5). cbn. repeat split; auto. now apply fits_stepped.
  - destruct K1, K3. split; cbn; congruence.
  - cbn [set_output n_result]. rewrite K4, K2. assumption.
  - cbn [set_output n_result]. rewrite K4, K2. assumption.
Qed.
Lemma decay_ok (t : trainer D) n H ls p c : fits_net n H ls p c -> exists n' H' ls', decay t n H = Ok (n', H') /\ fits_net n' H' ls' p c /\ kc n n' /\ n_result n' = n_result n.
Proof.
  intros Hf. unfold decay. destruct (t_usedecay t && (t_iters t =? t_step t)%Z); [|exists n, H, ls; repeat split; apply Hf].
  destruct Hf as [Hd Hf]. destruct (net_setlrate_dense n H ls (dmul (t_r0 t) (dexp (dmul (dneg (t_k t)) (dofZ (t_iters t))))) Hd) as [E Hd'].
  do 3 eexists. split; [exact E|]. split; [|repeat split]. split; [exact Hd'|]. destruct Hf as (q & A1 & A2 & A3 & A4 & A5). exists q. cbn. repeat split; auto. now apply fits_relr.
Qed.
Lemma kc_trans a b c : kc a b -> kc b c -> kc a c.
Proof. intros [A B] [C E]. split; congruence. Qed.

Lemma well_fits n H p c : well_sized n H p c <->
  (exists ls, fits_net n H ls p c) /\
  (o_costd (n_output n) = quad_costd \/ o_costd (n_output n) = ce_costd \/ o_costd (n_output n) = kl_costd \/ o_costd (n_output n) = sm_costd) /\
  (n_cost n = quad_cost \/ n_cost n = ce_cost \/ n_cost n = kl_cost \/ n_cost n = sm_cost).
Proof.
  unfold well_sized. split.
  - intros (Hd & (ls & E & q & A1 & A2 & A3 & A4) & B & C). split; [|auto]. destruct (dense_ls n H Hd) as [ls0 Hdn]. exists ls0.
    pose proof (eq_trans (eq_sym E) (hidden_layers_dense n H ls0 (proj2 Hdn))) as Q. injection Q as ->.
    split; [assumption|]. exists q. repeat split; auto. now apply builtin_sized_costd.
  - intros ((ls & Hdn & q & A1 & A2 & A3 & A4 & A5) & B & C). split; [split; [apply Hdn|eapply dense_in; apply Hdn]|]. split; [|auto].
    exists ls. split; [apply hidden_layers_dense, Hdn|]. exists q. auto.
Qed.
Lemma well_kc n H n' H' p c : well_sized n H p c -> kc n n' -> (exists ls, fits_net n' H' ls p c) -> well_sized n' H' p c.
Proof. intros W [K1 K2] F. apply well_fits in W as (_ & A & B). apply well_fits. rewrite K1, K2. auto. Qed.

Lemma foldM_inv {A S} (P : S -> Prop) (f : S -> A -> res S) l : (forall x, In x l -> forall s, P s -> exists s', f s x = Ok s' /\ P s') -> forall s, P s -> exists s', foldM f l s = Ok s' /\ P s'.
Proof.
  induction l as [|x l IH]; intros Hf s Hs; [exists s; split; [reflexivity|assumption]|]. cbn [foldM]. destruct (Hf x (or_introl eq_refl) s Hs) as (s' & E & Hs').
  rewrite E. cbn [bind]. apply IH; [|assumption]. intros y Hy. apply Hf. now right.
Qed.

(** *** The plain trainer *)
Theorem C56_trainer : forall p c (data : list (mat * mat * bool)) (t : trainer D) n H, 1 <= p -> well_sized n H p c ->
  Forall (fun d => samples p c (fst d)) data ->
  exists t' n' H', foldM (fun '(t, n, H) d => '(_, t', n', H') <- feeddata_cost junk t n H (fst (fst d)) (snd (fst d)) (snd d) ;; Ok (t', n', H')) data (t, n, H) = Ok (t', n', H') /\
    well_sized n' H' p c.
Proof.
  intros p c data t n H Hp Hw Hs.
  destruct (foldM_inv (fun s : trainer D * net D * lheap D => well_sized (snd (fst s)) (snd s) p c)
    (fun '(t, n, H) (d : mat * mat * bool) => '(_, t', n', H') <- feeddata_cost junk t n H (fst (fst d)) (snd (fst d)) (snd d) ;; Ok (t', n', H')) data) with (s := (t, n, H)) as ([[t' n'] H'] & E & W); [|exact Hw|eauto].
  clear t n H Hw. intros [[x y] cc] Hin [[t n] H] Hw. cbn [fst snd] in *. rewrite Forall_forall in Hs. specialize (Hs _ Hin). cbn [fst] in Hs.
  pose proof (proj1 (well_fits _ _ _ _) Hw) as ((ls & Hf) & Bd & Bc).
  unfold feeddata_cost, feeddata. destruct (decay_ok (tick t) n H ls p c Hf) as (n0 & H0 & ls0 & E0 & F0 & K0 & _). rewrite E0. cbn [bind].
  destruct (step_ok n0 H0 ls0 p c x y F0 Hp Hs) as (n1 & H1 & ls1 & E1 & F1 & K1 & R1 & R2). rewrite E1. cbn [bind].
  assert (W1 : well_sized n1 H1 p c) by (eapply well_kc; [exact Hw|eapply kc_trans; eauto|eauto]).
  destruct cc; [|eexists; split; [reflexivity|exact W1]].
  destruct Hs as (S1 & S2 & S3 & S4). cbn in S1, S2, S3, S4.
  destruct (builtin_sized_cost (n_cost n1)) with (y := y) (h := n_result n1) as [J EJ]; [apply well_fits in W1; apply W1|lia|lia|].
  unfold net_computecost. rewrite EJ. cbn [bind]. eexists. split; [reflexivity|exact W1].
Qed.

(** *** SGDTrainer *)
Lemma mrow_samples p c x y i : samples p c (x, y) -> i < nr x -> exists xi yi, mrow x i = Ok xi /\ mrow y i = Ok yi /\ samples p c (xi, yi) /\ nr xi = 1.
Proof.
  intros (S1 & S2 & S3 & S4) Hi. cbn in *. unfold mrow. rewrite (proj2 (Nat.ltb_lt i (nr x))), (proj2 (Nat.ltb_lt i (nr y))) by lia.
  do 2 eexists. split; [reflexivity|]. split; [reflexivity|]. repeat split; cbn; auto.
Qed.
Lemma predict_ok n H ls p c x : fits_net n H ls p c -> 1 <= p -> 1 <= nr x -> nc x = p -> 1 <= c ->
  exists m n' H' ls', net_predict junk n H x = Ok (m, n', H') /\ fits_net n' H' ls' p c /\ kc n n' /\ nr (n_result n') = nr x /\ nc (n_result n') = c.
Proof.
  intros Hf Hp Hx Hxc Hc. pose proof Hf as [Hdn (q & F1 & F2 & F3 & F4 & F5)]. unfold net_predict.
  destruct (net_forward junk n H x) as [[[a n1] H1]| | |] eqn:E;
    rewrite (net_forward_dense junk n H ls) in E by assumption; rewrite <- Hxc in F1;
    destruct (lforward_fits ls x q Hx F1) as (b & ls1 & A1 & A2 & A3 & A4 & A5); rewrite A1 in E; cbn [bind] in E;
    rewrite out_forward_ok in E by (unfold fwd_ok; lia); cbn [bind] in E; try discriminate.
  injection E as <- <- <-. cbn [bind]. unfold argmax. cbn [set_result set_output n_output o_l fwd_layer l_a fwd_out nc nr mk].
  destruct (Nat.eqb_spec (nc (l_W (o_l (n_output n)))) 0); [lia|]. cbn [andb bind]. do 4 eexists. split; [reflexivity|].
  instantiate (1 := ls1). split; [|repeat split; cbn; auto].
  split; [split; [apply Hdn|]; cbn; eapply dense_put; [eassumption|eapply lforward_len; eauto]|]. exists q. cbn. rewrite <- Hxc. auto.
Qed.

Theorem C56_sgd : forall p c (data : list (mat * mat * bool)) (t : trainer D) n H, 1 <= p -> 1 <= c -> well_sized n H p c ->
  Forall (fun d => samples p c (fst d)) data ->
  exists t' n' H', foldM (fun '(t, n, H) d => '(_, t', n', H') <- sgd_feeddata_cost junk t n H (fst (fst d)) (snd (fst d)) (snd d) ;; Ok (t', n', H')) data (t, n, H) = Ok (t', n', H') /\
    well_sized n' H' p c.
Proof.
  intros p c data t n H Hp Hc Hw Hs.
  destruct (foldM_inv (fun s : trainer D * net D * lheap D => well_sized (snd (fst s)) (snd s) p c)
    (fun '(t, n, H) (d : mat * mat * bool) => '(_, t', n', H') <- sgd_feeddata_cost junk t n H (fst (fst d)) (snd (fst d)) (snd d) ;; Ok (t', n', H')) data) with (s := (t, n, H)) as ([[t' n'] H'] & E & W); [|exact Hw|eauto].
  clear t n H Hw. intros [[x y] cc] Hin [[t n] H] Hw. cbn [fst snd] in *. rewrite Forall_forall in Hs. specialize (Hs _ Hin). cbn [fst] in Hs.
  pose proof (proj1 (well_fits _ _ _ _) Hw) as ((ls & Hf) & Bd & Bc).
  unfold sgd_feeddata_cost, sgd_feeddata. destruct (decay_ok (tick t) n H ls p c Hf) as (n0 & H0 & ls0 & E0 & F0 & K0 & _). rewrite E0. cbn [bind].
  assert (W0 : well_sized n0 H0 p c) by (eapply well_kc; eauto).
  unfold sgd_rows.
  destruct (foldM_inv (fun s : net D * lheap D => well_sized (fst s) (snd s) p c)
    (fun '(n, H) i => sgd_row junk n H x y i) (seq 0 (nr x))) with (s := (n0, H0)) as ([n1 H1] & E1 & W1); [|exact W0|].
  { intros i Hi%in_seq [m K] Wm. cbn [fst snd] in *. destruct (mrow_samples p c x y i Hs) as (xi & yi & X1 & X2 & X3 & X4); [lia|]. rewrite (sgd_row_step junk _ _ _ _ _ _ _ X1 X2).
    pose proof (proj1 (well_fits _ _ _ _) Wm) as ((l & Fm) & _). destruct (step_ok m K l p c xi yi Fm Hp X3) as (m' & K' & l' & Em & Fm' & Km & _).
    rewrite Em. eexists. split; [reflexivity|]. cbn. eapply well_kc; eauto. }
  rewrite E1. cbn [bind fst snd] in *.
  destruct (foldM_inv (fun s : D * net D * lheap D => well_sized (snd (fst s)) (snd s) p c)
    (fun '(cost, n, H) i => if cc : bool then xi <- mrow x i ;; '(_, n1, H1) <- net_predict junk n H xi ;; yi <- mrow y i ;; ci <- net_computecost n1 (n_result n1) yi ;; Ok (dadd cost ci, n1, H1)
       else Ok (cost, n, H)) (seq 0 (nr x))) with (s := (dofZ (d := D) 0%Z, n1, H1)) as ([[cst n2] H2] & E2 & W2); [|exact W1|].
  { intros i Hi%in_seq [[cst m] K] Wm. cbn [fst snd] in *. destruct cc; [|eexists; split; [reflexivity|exact Wm]].
    destruct (mrow_samples p c x y i Hs) as (xi & yi & X1 & X2 & (X3 & X4 & X5 & X6) & X7); [lia|]. cbn in X3, X4, X5, X6. rewrite X1. cbn [bind].
    pose proof (proj1 (well_fits _ _ _ _) Wm) as ((l & Fm) & _). destruct (predict_ok m K l p c xi Fm Hp X3 X4 Hc) as (pm & m' & K' & l' & Em & Fm' & Km & R1 & R2).
    rewrite Em. cbn [bind]. rewrite X2. cbn [bind]. assert (Wm' : well_sized m' K' p c) by (eapply well_kc; eauto).
    destruct (builtin_sized_cost (n_cost m')) with (y := yi) (h := n_result m') as [J EJ]; [apply well_fits in Wm'; apply Wm'|lia|lia|].
    unfold net_computecost. rewrite EJ. cbn [bind]. eexists. split; [reflexivity|exact Wm']. }
  pose proof (bind_eq _ (fun '(c0, n3, H3) => Ok (c0, tick t, n3, H3)) _ _ E2 eq_refl) as E3. cbn beta iota in E3.
  rewrite E3. cbn [bind]. eexists. split; [reflexivity|exact W2].
Qed.
End Generic.

(** ** The hypotheses can be met: a network with one hidden layer of two units, two samples. *)
Example ex_well_sized : well_sized exn exH 1 1.
Proof.
  split; [|split; [|split]].
  - split; [repeat constructor; intros []|]. intros p [<-|[]]. eexists. reflexivity.
  - exists [zl (zm 2 2 [1; 2; 1; -1]%Z)]. split; [reflexivity|]. exists 2. cbn. repeat split; lia.
  - left. reflexivity.
  - left. reflexivity.
Qed.
Example ex_samples : samples (D := Zdt) 1 1 (exx, exy).
Proof. repeat split; cbn; lia. Qed.
(** One call really moves weights of both layers: W(0,0) of the hidden layer goes from 1 to a different value. *)
Example ex_moves : match feeddata (D := Zdt) exj trainer_new exn exH exx exy with
  | Ok (_, n', H') => match hidden_layers n' H' with
                      | Ok [l] => negb (at_ (l_W l) 0 0 =? 1)%Z && negb (at_ (l_W (o_l (n_output n'))) 0 0 =? 1)%Z
                      | _ => false end
  | _ => false end = true.
Proof. vm_compute. reflexivity. Qed.

(** P_Perm.v - C83: the numbering of the units of a layer, and the sign of a unit with an odd activation, do not matter (exact arithmetic). *)
From Verif Require Import Base Mat Act Layer Conv Misc Net NetP RInst RMat Trainer TrainP TrainP2 ExNet P_Train P_Decay P_Mom FunEq ConfEq World Session SessP Grad P_Descent P_Batch InvP P_Sym P_Fix P_Cost P_Sum RelP P_Safe.
From Coq Require Import Arith List ZArith Lia Reals Lra Permutation.
Import ListNotations.
Local Open Scope nat_scope.

(** ** Specification *)
(** A relabelling of the units of a layer: unit i of the relabelled layer is unit [to r i] of the original, with its sign
    changed if [flip r i]. *)
Record relab := RL { to : nat -> nat; flip : nat -> bool }.
Definition sg (r : relab) (i : nat) : R := if flip r i then (-1)%R else 1%R.
(** r permutes m units. *)
Definition permutes (r : relab) (m : nat) : Prop := (forall i, i < m -> to r i < m) /\ (forall i j, i < m -> j < m -> to r i = to r j -> i = j).
Definition same : relab := RL (fun i => i) (fun _ => false).
(** The bias stays in front. *)
Definition biased (r : relab) : relab := RL (fun i => match i with 0 => 0 | S i => S (to r i) end) (fun i => match i with 0 => false | S i => flip r i end).
(** m' is m with its rows relabelled by r and its columns by s. *)
Definition relabelled (r s : relab) (m m' : mat Rdt) : Prop :=
  nr m' = nr m /\ nc m' = nc m /\ forall i j, i < nr m -> j < nc m -> at_ m' i j = (sg r i * sg s j * at_ m (to r i) (to s j))%R.
(** An activation whose units may change sign. *)
Definition odd_act (f : actfunc Rdt) : Prop := (forall z : R, act f (- z)%R = (- act f z)%R) /\ (forall z : R, actd f (- z)%R = actd f z).
Definition relab_layer (r s : relab) (l l' : layer Rdt) : Prop :=
  relabelled (biased r) s (l_W l) (l_W l') /\ permutes r (nr (l_W l) - 1) /\ permutes s (nc (l_W l)) /\
  l_act l' = l_act l /\ l_lambda l' = l_lambda l /\ l_lrate l' = l_lrate l /\ (forall j, flip s j = true -> odd_act (l_act l)).
(** The units of layer k (0: the inputs, last: the outputs) are relabelled by r k. *)
Fixpoint relab_chain (r : nat -> relab) (c c' : list (layer Rdt)) : Prop :=
  match c, c' with
  | [], [] => True
  | l :: c, l' :: c' => relab_layer (r 0) (r 1) l l' /\ relab_chain (fun k => r (S k)) c c'
  | _, _ => False
  end.
Definition relab_net (r : nat -> relab) (n : net Rdt) (H : lheap Rdt) (n' : net Rdt) (H' : lheap Rdt) : Prop :=
  dense_hidden n H /\ dense_hidden n' H' /\ n_cost n' = n_cost n /\ o_costd (n_output n') = o_costd (n_output n) /\
  exists ls ls', hidden_layers n H = Ok ls /\ hidden_layers n' H' = Ok ls' /\ relab_chain r (ls ++ [o_l (net_getoutput n)]) (ls' ++ [o_l (net_getoutput n')]).
(** The cost and the delta of the output layer are built-in; sign changes of the outputs are allowed for the squared error. *)
Definition relab_cost (s : relab) (C : costfun (D := Rdt)) (cd : costdfun (D := Rdt)) : Prop :=
  (C = quad_cost \/ (forall j, flip s j = false) /\ (C = ce_cost \/ C = kl_cost \/ C = sm_cost)) /\
  (cd = quad_costd \/ cd = ce_costd \/ (forall j, flip s j = false) /\ (cd = kl_costd \/ cd = sm_costd)).
(** A history of training calls, with the costs the calls return. *)
Fixpoint training (junk : nat -> Rdt) (data : list (mat Rdt * mat Rdt * bool)) (kd : tkind Rdt) (n : net Rdt) (H : lheap Rdt) : res (list R * tkind Rdt * net Rdt * lheap Rdt) :=
  match data with
  | [] => Ok ([], kd, n, H)
  | d :: data => '(v, kd1, n1, H1) <- feed_on junk kd n H (fst (fst d)) (snd (fst d)) (snd d) ;; '(vs, kd2, n2, H2) <- training junk data kd1 n1 H1 ;; Ok (v :: vs, kd2, n2, H2)
  end.
Lemma training_plain (junk : nat -> Rdt) (data : list (mat Rdt * mat Rdt * bool)) : forall (t : trainer Rdt) n H t' n' H',
  foldM (fun '(t, n, H) d => '(_, t', n', H') <- feeddata_cost junk t n H (fst (fst d)) (snd (fst d)) (snd d) ;; Ok (t', n', H')) data (t, n, H) = Ok (t', n', H') ->
  exists vs, training junk data (KPlain t) n H = Ok (vs, KPlain t', n', H').
Proof.
  induction data as [|d data IH]; intros t n H t' n' H' E; cbn [foldM] in E.
  - injection E as <- <- <-. now exists [].
  - apply bind_ok in E as ([[t1 n1] H1] & E1 & E). apply bind_ok in E1 as ([[[v t2] n2] H2] & E1 & X). injection X as <- <- <-.
    destruct (IH _ _ _ _ _ _ E) as [vs EV]. exists (v :: vs). cbn [training feed_on]. rewrite E1. cbn [bind]. rewrite EV. reflexivity.
Qed.
Lemma eqR (a b : R) : a = b -> @eq (car Rdt) a b. Proof. trivial. Qed.
Ltac gen1 t := let v := fresh "v" in generalize t; change (car Rdt) with R; intros v.
Ltac rr := repeat match goal with
  | |- context [@actd Rdt ?f ?z] => gen1 (@actd Rdt f z) | |- context [@act Rdt ?f ?z] => gen1 (@act Rdt f z)
  | |- context [@NetP.pre Rdt ?f ?x ?i ?j] => gen1 (@NetP.pre Rdt f x i j) | |- context [@mdot Rdt ?f ?x ?i ?j] => gen1 (@mdot Rdt f x i j)
  | |- context [@at_ Rdt ?m ?i ?j] => gen1 (@at_ Rdt m i j) | |- context [@l_lambda Rdt ?l] => gen1 (@l_lambda Rdt l) end;
  cbn; match goal with |- @eq _ ?a ?b => change (@eq R a b) end; ring.
(** ** Relabelled matrices *)
Lemma sg_sq r i : (sg r i * sg r i = 1)%R.
Proof. unfold sg. destruct (flip r i); lra. Qed.
Lemma permutes_S r m : permutes r m -> permutes (biased r) (S m).
Proof.
  intros [A B]. split; cbn [biased to].
  - intros [|i] Hi; [lia|]. specialize (A i). lia.
  - intros [|i] [|j] Hi Hj E; try reflexivity; try discriminate. f_equal. apply B; lia.
Qed.
Lemma permutes_biased r m : permutes r (m - 1) -> permutes (biased r) m.
Proof. intros A. destruct (Nat.eq_dec m 0) as [->|]; [split; intros; lia|]. replace m with (S (m - 1)) by lia. now apply permutes_S. Qed.
Lemma sumL_perm l l' : Permutation l l' -> sumL l = sumL l'.
Proof. induction 1 as [|x l l' P IH|x y l|l l' l'' P1 IH1 P2 IH2]; [reflexivity|unfold sumL in *; cbn [fold_right]; now rewrite IH|unfold sumL; cbn [fold_right]; lra|congruence]. Qed.
Lemma sumN_perm r m f : permutes r m -> sumN m (fun i => f (to r i)) = sumN m f.
Proof.
  intros [A B]. unfold sumN. rewrite <- (map_map (to r) f). apply sumL_perm, Permutation_map.
  apply NoDup_Permutation_bis.
  - assert (X : forall l, (forall i, In i l -> i < m) -> NoDup l -> NoDup (map (to r) l)).
    { induction l as [|i l IH]; intros Hl ND; cbn; [constructor|]. inversion ND; subst. constructor.
      - intros I. apply in_map_iff in I as (j & E & I). apply B in E; [subst; contradiction|apply Hl; now right|apply Hl; now left].
      - apply IH; [|assumption]. intros; apply Hl; now right. }
    apply X; [|apply seq_NoDup]. intros i Hi. apply in_seq in Hi. lia.
  - rewrite map_length. lia.
  - intros i I. apply in_map_iff in I as (j & <- & I). apply in_seq in I. apply in_seq. specialize (A j). lia.
Qed.
Lemma rel_bias r (x x' : mat Rdt) : permutes r (nc x) -> relabelled same r x x' -> relabelled same (biased r) (mk (D := Rdt) (nr x) (nc x + 1) (with_bias x)) (mk (D := Rdt) (nr x') (nc x' + 1) (with_bias x')).
Proof.
  intros [P _] (A & B & E). split; [exact A|]. split; [cbn; lia|]. cbn [nr nc mk]. intros i j Hi Hj. rewrite at_mk by lia.
  destruct j as [|j]; cbn [with_bias biased to flip]; unfold sg; cbn [same flip to biased].
  - rewrite at_mk by lia. cbn. lra.
  - rewrite E by lia. unfold sg. cbn [same flip to]. specialize (P j ltac:(lia)). rewrite at_mk by lia. reflexivity.
Qed.
(** Products. *)
Lemma rel_dot r s t (a a' b b' : mat Rdt) i j : permutes s (nc a) -> nc a = nr b -> relabelled r s a a' -> relabelled s t b b' -> i < nr a -> j < nc b ->
  mdot a' b' i j = (sg r i * sg t j * mdot a b (to r i) (to t j))%R.
Proof.
  intros P E (A1 & A2 & A3) (B1 & B2 & B3) Hi Hj. rewrite !mdot_R, A2, <- (sumN_perm s (nc a) (fun k => at_ a (to r i) k * at_ b k (to t j))%R) by assumption. rewrite <- sumN_scal. apply sumN_ext. intros k Hk.
  rewrite A3, B3 by lia. transitivity ((sg s k * sg s k) * (sg r i * sg t j * (at_ a (to r i) (to s k) * at_ b (to s k) (to t j))))%R; [ring|]. rewrite sg_sq. ring.
Qed.
Lemma rel_t r s (a a' : mat Rdt) : permutes r (nr a) -> permutes s (nc a) -> relabelled r s a a' -> relabelled s r (mt a) (mt a').
Proof.
  intros [P _] [Q _] (A & B & E). split; [exact B|]. split; [exact A|]. unfold mt. cbn [nr nc mk]. intros i j Hi Hj. specialize (P j Hj). specialize (Q i Hi). rewrite !at_mk by lia. rewrite E by lia. rr.
Qed.
Lemma same_perm m : permutes same m.
Proof. split; cbn; auto. Qed.
Lemma sg_same i : sg same i = 1%R. Proof. reflexivity. Qed.
Lemma rel_mk r s m n f f' : (forall i j, i < m -> j < n -> f' i j = (sg r i * sg s j * f (to r i) (to s j))%R) -> permutes r m -> permutes s n ->
  relabelled r s (mk (D := Rdt) m n f) (mk (D := Rdt) m n f').
Proof.
  intros E [P _] [Q _]. split; [reflexivity|]. split; [reflexivity|]. cbn [nr nc mk]. intros i j Hi Hj. specialize (P i Hi). specialize (Q j Hj). rewrite !at_mk by assumption. now apply E.
Qed.

(** ** One layer *)
Section Layer.
Context (r s : relab) (l l' : layer Rdt) (RL : relab_layer r s l l').
Lemma rel_fwd_ok x x' : relabelled same r x x' -> fwd_ok (l_W l) x -> fwd_ok (l_W l') x'.
Proof. intros (A & B & _) (F1 & F2 & F3). destruct RL as ((W1 & W2 & _) & _). unfold fwd_ok. lia. Qed.
Lemma rel_pre x x' : relabelled same r x x' -> fwd_ok (l_W l) x -> forall i j, i < nr x -> j < nc (l_W l) -> NetP.pre (l_W l') x' i j = (sg s j * NetP.pre (l_W l) x i (to s j))%R.
Proof.
  intros HX (F1 & F2 & F3) i j Hi Hj. destruct RL as (W & P & Q & _). unfold NetP.pre. assert (P' : permutes r (nc x)) by (replace (nc x) with (nr (l_W l) - 1) by lia; assumption).
  rewrite (rel_dot same (biased r) s (mk (D := Rdt) (nr x) (nc x + 1) (with_bias x)) _ (l_W l) _ i j); [rewrite sg_same; cbn [same to]; rr| | |now apply rel_bias|assumption|assumption|assumption].
  - cbn [nc mk]. rewrite Nat.add_1_r. now apply permutes_S.
  - cbn [nc mk]. lia.
Qed.
Lemma rel_out x x' : relabelled same r x x' -> fwd_ok (l_W l) x -> relabelled same s (fwd_out l x) (fwd_out l' x').
Proof.
  intros HX HF. pose proof (rel_pre x x' HX HF) as HP. destruct HX as (A & B & _). destruct RL as ((_ & W2 & _) & P & Q & EA & _ & _ & OD). unfold fwd_out. rewrite A, W2, EA.
  apply rel_mk; [|apply same_perm|assumption]. intros i j Hi Hj. rewrite HP by assumption. cbn [same to]. rewrite sg_same. unfold sg. destruct (flip s j) eqn:E.
  - destruct (OD j E) as [O _]. replace (-1 * NetP.pre (D := Rdt) (l_W l) x i (to s j))%R with (- NetP.pre (D := Rdt) (l_W l) x i (to s j))%R by (rr). rewrite O. rr.
  - rewrite Rmult_1_l. rr.
Qed.
Lemma rel_z x x' : relabelled same r x x' -> fwd_ok (l_W l) x -> relabelled same s (l_z (fwd_layer l x)) (l_z (fwd_layer l' x')).
Proof.
  intros HX HF. pose proof (rel_pre x x' HX HF) as HP. destruct HX as (A & B & _). destruct RL as ((_ & W2 & _) & P & Q & _). cbn [fwd_layer l_z]. rewrite A, W2.
  apply rel_mk; [|apply same_perm|assumption]. intros i j Hi Hj. rewrite HP by assumption. cbn [same to]. rewrite sg_same. rr.
Qed.
Lemma rel_back_delta x x' d d' : relabelled same r x x' -> fwd_ok (l_W l) x -> relabelled same s d d' -> nr d = nr x -> nc d = nc (l_W l) ->
  relabelled same s (back_delta (fwd_layer l x) d) (back_delta (fwd_layer l' x') d').
Proof.
  intros HX HF (D1 & D2 & D3) N1 N2. pose proof (rel_pre x x' HX HF) as HP. destruct HX as (A & B & _). destruct RL as ((_ & W2 & _) & P & Q & EA & _ & _ & OD). unfold back_delta. cbn [fwd_layer l_z l_act]. rewrite D1, D2, N1, N2, EA.
  pose proof (proj1 Q) as Q1. apply rel_mk; [|apply same_perm|assumption]. intros i j Hi Hj. specialize (Q1 j Hj). cbn [same to]. rewrite D3 by lia. rewrite !at_mk by lia. rewrite HP by assumption. cbn [same to]. rewrite sg_same. unfold sg. change (@dmul Rdt) with Rmult. destruct (flip s j) eqn:E.
  - destruct (OD j E) as [_ O]. replace (-1 * NetP.pre (D := Rdt) (l_W l) x i (to s j))%R with (- NetP.pre (D := Rdt) (l_W l) x i (to s j))%R by (rr). rewrite O. rr.
  - rewrite !Rmult_1_l. rr.
Qed.
Lemma rel_grad x x' d d' : relabelled same r x x' -> fwd_ok (l_W l) x -> relabelled same s d d' -> nr d = nr x -> nc d = nc (l_W l) ->
  relabelled (biased r) s (l_grad (back_layer (fwd_layer l x) d)) (l_grad (back_layer (fwd_layer l' x') d')).
Proof.
  intros HX HF (D1 & D2 & D3) N1 N2. pose proof HX as (A & B & _). destruct RL as ((W1 & W2 & W3) & P & Q & EA & EL & _ & OD). destruct HF as (F1 & F2 & F3).
  assert (P' : permutes r (nc x)) by (replace (nc x) with (nr (l_W l) - 1) by lia; assumption). pose proof (rel_bias r x x' P' HX) as HB.
  assert (PB : permutes (biased r) (nc x + 1)) by (rewrite Nat.add_1_r; now apply permutes_S).
  cbn [back_layer l_grad]. unfold grad_of, raw_grad. cbn [fwd_layer l_pa l_lambda l_W nc nr mk]. rewrite D2, N2, EL, B.
  apply rel_mk; [|assumption|assumption]. intros i j Hi Hj. pose proof (proj1 PB i Hi). pose proof (proj1 Q j Hj). rewrite !at_mk by assumption. rewrite W3 by lia.
  rewrite (rel_dot (biased r) same s (mt (mk (D := Rdt) (nr x) (nc x + 1) (with_bias x))) _ (d) _ i j).
  - cbn. rr.
  - apply same_perm.
  - cbn [mt nc mk nr]. lia.
  - apply rel_t; [apply same_perm|cbn [nc mk]; assumption|]. rewrite B in HB. assumption.
  - split; [assumption|]. split; [assumption|exact D3].
  - assumption.
  - lia.
Qed.
Lemma rel_down x x' d d' : relabelled same r x x' -> fwd_ok (l_W l) x -> relabelled same s d d' -> nr d = nr x -> nc d = nc (l_W l) ->
  relabelled same r (down (fwd_layer l x) d) (down (fwd_layer l' x') d').
Proof.
  intros HX (F1 & F2 & F3) HD N1 N2. pose proof HD as (D1 & D2 & D3). destruct RL as ((W1 & W2 & W3) & P & Q & _). unfold down. cbn [fwd_layer l_W]. rewrite D1, W1.
  pose proof (proj1 P) as P1. apply rel_mk; [|apply same_perm|assumption]. intros i j Hi Hj. specialize (P1 j Hj). rewrite !at_mk by (cbn [same to]; lia).
  assert (PB : permutes (biased r) (nr (l_W l))) by (now apply permutes_biased).
  rewrite (rel_dot same s (biased r) (d) _ (mt (l_W l)) _ i (S j)); [reflexivity|rewrite N2; assumption|exact N2|assumption| |assumption|cbn [mt nc mk]; lia].
  apply rel_t; [assumption|assumption|]. repeat split; assumption.
Qed.
End Layer.

(** ** A chain of layers *)
Local Notation layer := (layer Rdt).
Local Notation mat := (mat Rdt).
Local Notation shift r := (fun k => r (S k)).
Lemma chain_len : forall c c' r, relab_chain r c c' -> length c' = length c.
Proof. induction c as [|l c IH]; intros [|l' c'] r; cbn; try tauto. intros [_ A]. f_equal. eauto. Qed.
Lemma chain_split : forall (ls ls' : list layer) r o o', relab_chain r (ls ++ [o]) (ls' ++ [o']) -> relab_chain r ls ls' /\ relab_layer (r (length ls)) (r (S (length ls))) o o'.
Proof.
  induction ls as [|l ls IH]; intros [|l' ls'] r o o' A; cbn [app relab_chain] in A.
  - split; [exact I|apply A].
  - destruct A as [_ A]. destruct ls'; contradiction.
  - destruct A as [_ A]. destruct ls; contradiction.
  - destruct A as [A B]. destruct (IH _ _ _ _ B) as [C D]. split; [split; assumption|exact D].
Qed.
Lemma layer_kept r s (l l' m m' : layer) : relab_layer r s l l' -> conf l m -> conf l' m' -> relab_layer r s m m'.
Proof. intros (A & B & C & D & E & F & G) (M1 & M2 & M3 & M4) (M1' & M2' & M3' & M4'). unfold relab_layer. rewrite M1, M2, M3, M4, M1', M2', M3', M4'. auto 10. Qed.
Lemma chain_kept : forall c c' d d' r, relab_chain r c c' -> Forall2 conf c d -> Forall2 conf c' d' -> relab_chain r d d'.
Proof.
  induction c as [|l c IH]; intros [|l' c'] d d' r A F F'; cbn in A; try tauto; inversion F; inversion F'; subst; cbn; [exact I|]. destruct A as [A B]. split; [eapply layer_kept; eauto|eapply IH; eauto].
Qed.
Lemma chain_rate v : forall c c' r, relab_chain r c c' -> relab_chain r (map (relr v) c) (map (relr v) c').
Proof. induction c as [|l c IH]; intros [|l' c'] r A; cbn in A |- *; try tauto. destruct A as [(A & B & C & D & E & F & G) H]. split; [|now apply IH]. repeat (split; [assumption|]). split; [reflexivity|assumption]. Qed.

Definition gchain (r : nat -> relab) (i : nat) (g g' : mat) : Prop := relabelled (biased (r i)) (r (S i)) g g' /\ permutes (biased (r i)) (nr g) /\ permutes (r (S i)) (nc g).
Lemma grs_cons r g g' gs gs' : gchain r 0 g g' -> grs (gchain (shift r)) gs gs' -> grs (gchain r) (g :: gs) (g' :: gs').
Proof.
  intros A [B C]. split; [cbn; lia|]. intros [|i] a a' E E'; cbn in E, E'; [injection E as <-; injection E' as <-; exact A|]. exact (C i a a' E E').
Qed.
Lemma grs_tl r g g' gs gs' : grs (gchain r) (g :: gs) (g' :: gs') -> gchain r 0 g g' /\ grs (gchain (shift r)) gs gs'.
Proof. intros [A B]. cbn in A. split; [exact (B 0 g g' eq_refl eq_refl)|]. split; [lia|]. intros i a a' E E'. exact (B (S i) a a' E E'). Qed.
Lemma chain_step : forall c c' gs gs' r, relab_chain r c c' -> Forall2 gfit c gs -> Forall2 gfit c' gs' -> grs (gchain r) gs gs' -> relab_chain r (steps_with c gs) (steps_with c' gs').
Proof.
  induction c as [|l c IH]; intros [|l' c'] gs gs' r A F F' G; cbn in A; try tauto; inversion F as [|? g ? gs0 F1 F2]; inversion F' as [|? g' ? gs0' F1' F2']; subst; cbn; try exact I. apply grs_tl in G as [((G1 & G2 & G3) & _) G].
  destruct A as [(A1 & A2 & A3 & A4 & A5 & A6 & A7) A]. split; [|eapply IH; eauto]. pose proof A1 as (W1 & W2 & W3). destruct F1 as [F1 F1b]. destruct F1' as [F1' F1b'].
  unfold relab_layer, stepped_with. cbn [set_W l_W l_act l_lambda l_lrate fst snd nr nc mk]. rewrite W1, W2, A6. split; [|repeat (split; [assumption|]); auto].
  apply rel_mk; [|now apply permutes_biased|assumption]. intros i j Hi Hj. rewrite W3, G3 by lia. change (@dsub Rdt) with Rminus. change (@dmul Rdt) with Rmult. generalize (l_lrate l). change (car Rdt) with R. intros. rr.
Qed.
(** Forward and backward through the chain. *)
Lemma chain_pass : forall ls ls' r x x' b ls1, relab_chain r ls ls' -> relabelled same (r 0) x x' -> lforward ls x = Ok (b, ls1) ->
  exists b' ls1', lforward ls' x' = Ok (b', ls1') /\ relabelled same (r (length ls)) b b' /\
  forall d d' dx ls2, relabelled same (r (length ls)) d d' -> lbackprop ls1 d = Ok (dx, ls2) ->
    exists dx' ls2', lbackprop ls1' d' = Ok (dx', ls2') /\ relabelled same (r 0) dx dx' /\ grs (gchain r) (map (fun l => l_grad l) ls2) (map (fun l => l_grad l) ls2').
Proof.
  induction ls as [|l ls IH]; intros [|l' ls'] r x x' b ls1 A HX E; cbn in A; try tauto; cbn [lforward] in E.
  - injection E as <- <-. exists x', []. split; [reflexivity|]. split; [exact HX|]. intros d d' dx ls2 HD E. cbn [lbackprop] in E. injection E as <- <-. exists d', []. split; [reflexivity|]. split; [exact HD|]. split; [reflexivity|]. intros [|i] ? ? E; discriminate.
  - destruct A as [A B]. apply bind_ok in E as ([a l1] & E1 & E). apply bind_ok in E as ([c r1] & E2 & E). injection E as <- <-. apply forward_inv in E1 as (F & -> & ->).
    pose proof (rel_fwd_ok _ _ _ _ A _ _ HX F) as F'. pose proof (rel_out _ _ _ _ A _ _ HX F) as HO.
    destruct (IH ls' (shift r) _ _ _ _ B HO E2) as (b' & r1' & E' & HB & HBK). exists b', (fwd_layer l' x' :: r1'). cbn [lforward length]. rewrite forward_ok by assumption. cbn [bind]. rewrite E'. cbn [bind]. split; [reflexivity|]. split; [exact HB|].
    intros d d' dx ls2 HD EB. cbn [lbackprop] in EB. apply bind_ok in EB as ([d1 r2] & EB1 & EB). apply bind_ok in EB as ([d0 l2] & EB2 & EB). injection EB as <- <-.
    destruct (HBK _ _ _ _ HD EB1) as (d1' & r2' & EB1' & HD1 & HG). cbn [lbackprop]. rewrite EB1'. cbn [bind].
    apply backprop_inv in EB2 as ((K1 & K2 & K3 & K4 & K5 & K6 & K7) & -> & ->). cbn [fwd_layer l_z l_pa l_W nr nc mk] in K1, K2, K3, K4, K5, K7.
    pose proof A as ((W1 & W2 & _) & _). pose proof HX as (X1 & X2 & _). pose proof HD1 as (D1 & D2 & _).
    rewrite backprop_ok. 2: { unfold back_ok. cbn [fwd_layer l_z l_pa l_W nr nc mk]. repeat split; lia. }
    cbn [bind]. pose proof (rel_back_delta _ _ _ _ A _ _ _ _ HX F HD1 ltac:(lia) K5) as HBD.
    do 2 eexists. split; [reflexivity|]. split.
    + eapply (rel_down _ _ _ _ A); try eassumption; cbn [back_delta nr nc mk]; lia.
    + cbn [map]. apply grs_cons; [|exact HG]. split; [eapply (rel_grad _ _ _ _ A); try eassumption; cbn [back_delta nr nc mk]; lia|].
      cbn [back_layer l_grad grad_of nr nc mk fwd_layer l_pa back_delta]. destruct A as (_ & A2 & A3 & _). split; [apply permutes_biased|]; [replace (nc x + 1) with (nr (l_W l)) by lia; assumption|replace (nc d1) with (nc (l_W l)) by lia; assumption].
Qed.

(** ** Costs *)
Section Cost.
Context (s : relab).
Definition ra (a a' : mat) : Prop := relabelled same s a a' /\ permutes s (nc a) /\ (exists h, a = mk (D := Rdt) (nr a) (nc a) h) /\ (exists h, a' = mk (D := Rdt) (nr a') (nc a') h).
Lemma ra_mk a a' : ra a a' -> permutes s (nc a) /\ a = mk (D := Rdt) (nr a) (nc a) (at_ a) /\ a' = mk (D := Rdt) (nr a) (nc a) (fun i j => (sg s j * at_ a i (to s j))%R).
Proof.
  intros ((A & B & C) & P & [h E] & [h' E']). split; [assumption|]. split.
  - rewrite E at 1. apply mk_ext. intros i j Hi Hj. rewrite E at 1. now rewrite at_mk.
  - rewrite A, B in E'. rewrite E' at 1. apply mk_ext. intros i j Hi Hj. rewrite <- (at_mk (D := Rdt) (nr a) (nc a) h' i j), <- E', C by assumption. rewrite sg_same. cbn [same to]. rr.
Qed.
Lemma nosign : (forall j, flip s j = false) -> forall j, sg s j = 1%R.
Proof. intros E j. unfold sg. now rewrite E. Qed.
Lemma accu_perm (r c : nat) f f' : permutes s c -> (forall i j, i < r -> j < c -> f' i j = f i (to s j)) -> sumall (mk (D := Rdt) r c f') = sumall (mk (D := Rdt) r c f).
Proof.
  intros P E. unfold sumall. rewrite !accu_mk. rewrite <- (sumN_perm s c (fun j => sumN r (fun i => f i j))) by assumption. apply sumN_ext. intros j Hj. apply sumN_ext. intros i Hi. now apply E.
Qed.
Lemma rel_cost C cd a a' y y' J : relab_cost s C cd -> ra a a' -> relabelled same s y y' -> C y a = Ok J -> exists J', C y' a' = Ok J' /\ sumall J' = sumall J.
Proof.
  intros [HC _] HA (Y1 & Y2 & Y3) E. destruct (ra_mk _ _ HA) as (P & Ea & Ea'). pose proof (proj1 P) as P1.
  assert (N : nr y = nr a /\ nc y = nc a).
  { destruct HC as [->|[_ [->|[->| ->]]]]; revert E; unfold quad_cost, ce_cost, kl_cost, sm_cost, softmax_P, msub, mschur, mdiv; intros E; apply bind_ok in E as (u & E1 & E); [apply mzip_dims in E1 as (A & B & _)|apply mzip_dims in E1 as (A & B & _)|apply mzip_dims in E1 as (A & B & _)|]; try (cbn [mmap nr nc mk] in A, B; split; congruence).
    apply mzip_dims in E1 as (A & B & A' & B' & _). apply bind_ok in E as (w & E2 & E). apply mzip_dims in E2 as (A2 & B2 & _). cbn [mmap exponential nr nc mk] in *. split; congruence. }
  destruct N as [N1 N2]. rewrite Ea in E. rewrite Ea'. destruct HC as [->|[NF [->|[->| ->]]]].
  - rewrite quad_cost_mk in E |- * by congruence. injection E as <-. eexists. split; [reflexivity|]. apply accu_perm; [assumption|]. intros i j Hi Hj. rewrite Y3, sg_same by lia. cbn [same to]. apply eqR.
    transitivity ((sg s j * sg s j) * ((at_ y i (to s j) - at_ a i (to s j)) * (at_ y i (to s j) - at_ a i (to s j)) / 2 / INR (nr a)))%R; [unfold Rdiv; rr|]. rewrite sg_sq. rr.
  - rewrite ce_cost_mk in E |- * by congruence. injection E as <-. eexists. split; [reflexivity|]. apply accu_perm; [assumption|]. intros i j Hi Hj. rewrite Y3, sg_same by lia. rewrite (nosign NF). cbn [same to]. rewrite !Rmult_1_l. reflexivity.
  - rewrite kl_cost_mk in E |- * by congruence. injection E as <-. eexists. split; [reflexivity|]. apply accu_perm; [assumption|]. intros i j Hi Hj. rewrite Y3, sg_same by lia. rewrite (nosign NF). cbn [same to]. rewrite !Rmult_1_l. reflexivity.
  - rewrite sm_cost_mk in E |- * by congruence. injection E as <-. eexists. split; [reflexivity|]. apply accu_perm; [assumption|]. intros i j Hi Hj. rewrite Y3, sg_same by lia. rewrite (nosign NF). cbn [same to]. rewrite !Rmult_1_l.
    rewrite (sumN_ext _ (fun k => exp (sg s k * at_ a i (to s k))) (fun k => exp (at_ a i (to s k)))) by (intros; rewrite (nosign NF), Rmult_1_l; reflexivity). rewrite (sumN_perm s (nc a) (fun k => exp (at_ a i k))) by assumption. reflexivity.
Qed.
Lemma rel_costd C cd a a' y y' z z' d : relab_cost s C cd -> ra a a' -> relabelled same s y y' -> cd y a z = Ok d -> exists d', cd y' a' z' = Ok d' /\ relabelled same s d d'.
Proof.
  intros [_ HC] HA (Y1 & Y2 & Y3) E. destruct (ra_mk _ _ HA) as (P & Ea & Ea'). pose proof (proj1 P) as P1.
  assert (N : nr y = nr a /\ nc y = nc a).
  { destruct HC as [->|[->|[_ [->| ->]]]]; revert E; unfold quad_costd, ce_costd, kl_costd, sm_costd, softmax_P, msub, mschur, mdiv; intros E; apply bind_ok in E as (u & E1 & E); try (apply mzip_dims in E1 as (A & B & _); split; congruence).
    apply mzip_dims in E1 as (A & B & A' & B' & _). apply bind_ok in E as (w & E2 & E). apply mzip_dims in E2 as (A2 & B2 & _). cbn [mmap exponential nr nc mk] in *. split; congruence. }
  destruct N as [N1 N2]. rewrite Ea in E. rewrite Ea'. destruct HC as [->|[->|[NF [->| ->]]]].
  - rewrite quad_costd_mk in E |- * by congruence. injection E as <-. eexists. split; [reflexivity|]. apply rel_mk; [|apply same_perm|assumption]. intros i j Hi Hj. rewrite Y3, sg_same by lia. cbn [same to]. unfold Rdiv. rr.
  - rewrite ce_costd_mk in E |- * by congruence. injection E as <-. eexists. split; [reflexivity|]. apply rel_mk; [|apply same_perm|assumption]. intros i j Hi Hj. rewrite Y3, sg_same by lia. cbn [same to]. unfold Rdiv. rr.
  - rewrite kl_costd_mk in E |- * by congruence. injection E as <-. eexists. split; [reflexivity|]. apply rel_mk; [|apply same_perm|assumption]. intros i j Hi Hj. rewrite Y3, sg_same by lia. rewrite (nosign NF). cbn [same to]. rewrite !Rmult_1_l. reflexivity.
  - rewrite sm_costd_mk in E |- * by congruence. injection E as <-. eexists. split; [reflexivity|]. apply rel_mk; [|apply same_perm|assumption]. intros i j Hi Hj. rewrite Y3, sg_same by lia. rewrite (nosign NF). cbn [same to]. rewrite !Rmult_1_l.
    rewrite (sumN_ext _ (fun k => exp (sg s k * at_ a i (to s k))) (fun k => exp (at_ a i (to s k)))) by (intros; rewrite (nosign NF), Rmult_1_l; reflexivity). rewrite (sumN_perm s (nc a) (fun k => exp (at_ a i k))) by assumption. reflexivity.
Qed.
End Cost.

(** ** Data *)
Definition relab_data (s : relab) (m m' : mat) : Prop := permutes s (nc m) /\ relabelled same s m m'.
Lemma data_mk s r c f f' : permutes s c -> (forall i j, i < r -> j < c -> f' i j = (sg s j * f i (to s j))%R) -> relab_data s (mk (D := Rdt) r c f) (mk (D := Rdt) r c f').
Proof. intros P E. split; [exact P|]. apply rel_mk; [|apply same_perm|exact P]. intros i j Hi Hj. rewrite sg_same. cbn [same to]. rewrite E by assumption. rr. Qed.
Lemma data_row s x x' i xi : relab_data s x x' -> mrow x i = Ok xi -> exists xi', mrow x' i = Ok xi' /\ relab_data s xi xi'.
Proof.
  intros (P & A & B & E). unfold mrow. rewrite A, B. destruct (i <? nr x) eqn:Q; [|discriminate]. apply Nat.ltb_lt in Q. intros X. injection X as <-. eexists. split; [reflexivity|]. apply data_mk; [assumption|]. intros a j Ha Hj. rewrite E, sg_same by assumption. cbn [same to]. rr.
Qed.
Lemma data_rows s x x' a b xi : relab_data s x x' -> mrows x a b = Ok xi -> exists xi', mrows x' a b = Ok xi' /\ relab_data s xi xi'.
Proof.
  intros (P & A & B & E). unfold mrows. rewrite A, B. destruct (_ && _)%bool eqn:Q; [|discriminate]. intros X. injection X as <-. eexists. split; [reflexivity|].
  apply andb_prop in Q as [Q Q3]. apply andb_prop in Q as [Q1 Q2]. apply Z.leb_le in Q1, Q2. apply Z.ltb_lt in Q3. apply data_mk; [assumption|]. intros i j Hi Hj. rewrite E, sg_same by lia. cbn [same to]. rr.
Qed.
Lemma data_wrap s x x' b xi : relab_data s x x' -> wrap_rows x b = Ok xi -> exists xi', wrap_rows x' b = Ok xi' /\ relab_data s xi xi'.
Proof.
  intros (P & A & B & E) X. pose proof X as X0. destruct (Z.ltb_spec b 2); [rewrite wrap_throw in X0 by lia; discriminate|]. destruct (Z.ltb_spec (Z.of_nat (nr x) + 1) b); [rewrite wrap_throw in X0 by lia; discriminate|]. clear X0.
  destruct (Nat.eq_dec (nc x) 0) as [C|C].
  { exfalso. revert X. unfold wrap_rows, submat, sub_ok. rewrite C. destruct ((0 <=? 0)%Z && (0 <=? b - 2)%Z && (b - 2 <? Z.of_nat (nr x))%Z && (0 <=? 0)%Z); discriminate. }
  replace b with (Z.of_nat (Z.to_nat b)) in * by lia. set (k := Z.to_nat b) in *. rewrite wrap_ok in X |- * by lia. injection X as <-. eexists. split; [reflexivity|]. rewrite A, B. apply data_mk; [assumption|]. intros i j Hi Hj.
  assert (i mod nr x < nr x) by (apply Nat.mod_upper_bound; lia). rewrite E, sg_same by assumption. cbn [same to]. rr.
Qed.

(** ** Training *)
Section Train.
Context (junk : nat -> Rdt) (r : nat -> relab) (N : nat) (C : costfun (D := Rdt)) (cd : costdfun (D := Rdt)) (HC : relab_cost (r (S N)) C cd).
Definition rc (c c' : list layer) : Prop := length c = S N /\ relab_chain r c c'.
Notation rx := (relab_data (r 0)).
Notation ry := (relab_data (r (S N))).
Notation raa := (ra (r (S N))).
Lemma rc_split (ls ls' : list layer) o o' : rc (ls ++ [o]) (ls' ++ [o']) -> length ls = N /\ relab_chain r ls ls' /\ relab_layer (r N) (r (S N)) o o'.
Proof. intros [A B]. rewrite app_length in A. cbn in A. assert (length ls = N) by lia. apply chain_split in B. subst N. auto. Qed.
Lemma out_ra (o o' : layer) b b' : relab_layer (r N) (r (S N)) o o' -> relabelled same (r N) b b' -> fwd_ok (l_W o) b -> raa (fwd_out o b) (fwd_out o' b').
Proof. intros A HB F. split; [eapply rel_out; eauto|]. split; [apply A|]. split; eexists; reflexivity. Qed.

Lemma p_kept : forall c c' d d' : list layer, rc c c' -> Forall2 conf c d -> Forall2 conf c' d' -> rc d d'.
Proof. intros c c' d d' [A B] F F'. split; [rewrite <- (Forall2_len _ _ _ F); exact A|eapply chain_kept; eauto]. Qed.
Lemma p_rate : forall v (c c' : list layer), rc c c' -> rc (map (relr v) c) (map (relr v) c').
Proof. intros v c c' [A B]. split; [now rewrite map_length|now apply chain_rate]. Qed.
Lemma p_fwd : forall (ls : list layer) o ls' o' x x' b ls1, rc (ls ++ [o]) (ls' ++ [o']) -> rx x x' -> lforward ls x = Ok (b, ls1) -> fwd_ok (l_W o) b ->
  exists b' ls1', lforward ls' x' = Ok (b', ls1') /\ fwd_ok (l_W o') b' /\ raa (fwd_out o b) (fwd_out o' b').
Proof.
  intros ls o ls' o' x x' b ls1 HR [_ HX] E F. destruct (rc_split _ _ _ _ HR) as (L & A & B). destruct (chain_pass _ _ _ _ _ _ _ A HX E) as (b' & ls1' & E' & HB & _). rewrite L in HB.
  exists b', ls1'. split; [exact E'|]. split; [eapply rel_fwd_ok; eauto|now apply out_ra].
Qed.
Lemma p_back : forall (ls : list layer) o ls' o' x x' y y' b ls1 delta dx ls2 b' ls1', rc (ls ++ [o]) (ls' ++ [o']) -> rx x x' -> ry y y' ->
  lforward ls x = Ok (b, ls1) -> fwd_ok (l_W o) b -> cd y (fwd_out o b) (l_z (fwd_layer o b)) = Ok delta -> nr delta = nr b -> nc delta = nc (l_W o) ->
  lbackprop ls1 (down (fwd_layer o b) delta) = Ok (dx, ls2) ->
  lforward ls' x' = Ok (b', ls1') -> fwd_ok (l_W o') b' ->
  exists delta' dx' ls2', cd y' (fwd_out o' b') (l_z (fwd_layer o' b')) = Ok delta' /\ nr delta' = nr b' /\ nc delta' = nc (l_W o') /\
    lbackprop ls1' (down (fwd_layer o' b') delta') = Ok (dx', ls2') /\
    grs (gchain r) (map (fun l => l_grad l) (ls2 ++ [back_layer (fwd_layer o b) delta])) (map (fun l => l_grad l) (ls2' ++ [back_layer (fwd_layer o' b') delta'])).
Proof.
  intros ls o ls' o' x x' y y' b ls1 delta dx ls2 b' ls1' HR [_ HX] [_ HY] E F ED N1 N2 EB E' F'. destruct (rc_split _ _ _ _ HR) as (L & A & B). destruct (chain_pass _ _ _ _ _ _ _ A HX E) as (b0 & ls10 & E0 & HB & HBK). pose proof (eq_trans (eq_sym E0) E') as Q. injection Q as -> ->. clear E0. rewrite L in HB, HBK.
  destruct (rel_costd _ C cd _ _ _ _ _ (l_z (fwd_layer o' b')) _ HC (out_ra _ _ _ _ B HB F) HY ED) as (delta' & ED' & HD). exists delta'.
  destruct (HBK _ _ _ _ (rel_down _ _ _ _ B _ _ _ _ HB F HD N1 N2) EB) as (dx' & ls2' & EB' & _ & HG). exists dx', ls2'. split; [exact ED'|].
  pose proof HD as (D1 & D2 & _). pose proof HB as (B1 & B2 & _). pose proof B as ((W1 & W2 & _) & _). split; [lia|]. split; [lia|]. split; [exact EB'|].
  rewrite !map_app. cbn [map]. pose proof (rel_grad _ _ _ _ B _ _ _ _ HB F HD N1 N2) as HG1. destruct HG as [G1 G2]. rewrite !map_length in G1.
  assert (L2 : length ls2 = N) by (rewrite (lbackprop_len _ _ _ _ EB), (lforward_len _ _ _ _ E); exact L).
  split; [rewrite !app_length, !map_length; cbn; lia|]. intros i g g' Eg Eg'. destruct (Nat.lt_ge_cases i N) as [Li|Li].
  - rewrite nth_error_app1 in Eg, Eg' by (rewrite map_length; lia). exact (G2 i g g' Eg Eg').
  - assert (i = N) as ->. { assert (X : i < length (map (fun l : layer => l_grad l) ls2 ++ [l_grad (back_layer (fwd_layer o b) delta)])) by (apply nth_error_Some; congruence). rewrite app_length, map_length in X. cbn in X. lia. }
    rewrite nth_error_app2 in Eg, Eg' by (rewrite map_length; lia). rewrite map_length in Eg, Eg'. replace (N - _) with 0 in Eg by lia. replace (N - _) with 0 in Eg' by lia. injection Eg as <-. injection Eg' as <-. split; [exact HG1|].
    cbn [back_layer l_grad grad_of nr nc mk fwd_layer l_pa]. destruct F as (F1 & F2 & F3). destruct B as (_ & A2 & A3 & _). split; [apply permutes_biased|]; [replace (nc b + 1) with (nr (l_W o)) by lia; assumption|replace (nc delta) with (nc (l_W o)) by lia; assumption].
Qed.
Lemma p_step : forall (c c' : list layer) gs gs', rc c c' -> Forall2 gfit c gs -> Forall2 gfit c' gs' -> grs (gchain r) gs gs' -> rc (steps_with c gs) (steps_with c' gs').
Proof. intros c c' gs gs' [A B] F F' G. split; [unfold steps_with; rewrite map_length, combine_length, <- (Forall2_len _ _ _ F); lia|now apply chain_step]. Qed.
Lemma p_mix : forall i u v (a g a' g' : mat), gchain r i a a' -> gchain r i g g' -> nr a = nr g -> nc a = nc g -> nr a' = nr g' -> nc a' = nc g' -> gchain r i (mixed u v a g) (mixed u v a' g').
Proof.
  intros i u v a g a' g' ((A1 & A2 & A3) & P & Q) ((B1 & B2 & B3) & _) E1 E2 E3 E4. split; [|split; assumption]. unfold mixed. rewrite A1, A2. apply rel_mk; [|assumption|assumption].
  intros k j Hk Hj. rewrite A3, B3 by lia. cbn. rr.
Qed.
Lemma p_len : forall c c' : list layer, rc c c' -> length c' = length c.
Proof. intros c c' [_ A]. eapply chain_len; eauto. Qed.
Lemma p_cost : forall (a a' y y' : mat) J, raa a a' -> ry y y' -> C y a = Ok J -> exists J', C y' a' = Ok J' /\ sumall J' = sumall J.
Proof. intros a a' y y' J A [_ B]. exact (rel_cost _ C cd _ _ _ _ _ HC A B). Qed.
Lemma p_nr : forall x x' : mat, rx x x' -> nr x' = nr x.
Proof. intros x x' (_ & A & _). exact A. Qed.
Lemma p_anr : forall a a' : mat, raa a a' -> nr a' = nr a /\ nc a' = nc a.
Proof. intros a a' ((A & B & _) & _). auto. Qed.
Notation psim := (sim rc C cd).
Notation pksim := (ksim (gchain r)).
Definition p_feed := feed_sim junk rc (gchain r) rx ry raa C cd p_kept p_rate p_fwd p_back p_step p_mix p_cost (data_row _) (data_row _) (data_rows _) (data_rows _) (data_wrap _) (data_wrap _) p_nr p_anr.
Definition p_forward := forward_sim junk rc (gchain r) rx ry raa C cd p_kept p_fwd p_back.
Definition p_new := new_sim rc (gchain r) C cd.
Lemma p_training data data' : Forall2 (fun d d' : mat * mat * bool => rx (fst (fst d)) (fst (fst d')) /\ ry (snd (fst d)) (snd (fst d')) /\ snd d' = snd d) data data' ->
  forall kd n H kd' n' H' vs kd1 n1 H1, psim n H n' H' -> pksim n H kd n' H' kd' -> training junk data kd n H = Ok (vs, kd1, n1, H1) ->
  exists kd1' n1' H1', training junk data' kd' n' H' = Ok (vs, kd1', n1', H1') /\ psim n1 H1 n1' H1' /\ pksim n1 H1 kd1 n1' H1' kd1'.
Proof.
  induction 1 as [|[[x y] c] [[x' y'] c'] data data' (X & Y & Z) F IH]; intros kd n H kd' n' H' vs kd1 n1 H1 HS HK E; cbn [training fst snd] in *.
  - injection E as <- <- <- <-. eauto 8.
  - subst c'. apply bind_ok in E as ([[[v kd2] n2] H2] & E1 & E). apply bind_ok in E as ([[[ws kd3] n3] H3] & E2 & E). injection E as <- <- <- <-.
    destruct (p_feed _ _ _ _ _ _ _ _ _ _ _ _ _ _ _ HS HK X Y E1) as (kd2' & n2' & H2' & E1' & S1 & K1). rewrite E1'. cbn [bind].
    destruct (IH _ _ _ _ _ _ _ _ _ _ S1 K1 E2) as (kd3' & n3' & H3' & -> & S3 & K3). cbn [bind]. do 3 eexists. split; [reflexivity|]. split; assumption.
Qed.
End Train.

Lemma relab_sim r n H n' H' : relab_net r n H n' H' <-> sim (rc r (length (n_hidden n))) (n_cost n) (o_costd (n_output n)) n H n' H'.
Proof.
  split.
  - intros (Hd & Hd' & K1 & K2 & ls & ls' & L & L' & A). destruct (dense_ls n H Hd) as [k K]. destruct (dense_ls n' H' Hd') as [k' K']. pose proof (hl_inj _ _ _ _ L K). pose proof (hl_inj _ _ _ _ L' K'). subst k k'.
    exists ls, ls'. split; [exact K|]. split; [exact K'|]. split; [|split; [reflexivity|split; [exact K1|split; [reflexivity|exact K2]]]]. rewrite !getoutput_l in A. split; [|exact A]. rewrite app_length, (Forall2_len _ _ _ (proj2 K)). cbn. lia.
  - intros (ls & ls' & K & K' & (_ & A) & _ & K1 & _ & K2). split; [eapply dense_net_hidden; eauto|]. split; [eapply dense_net_hidden; eauto|]. split; [exact K1|]. split; [exact K2|].
    exists ls, ls'. split; [apply hidden_layers_dense, K|]. split; [apply hidden_layers_dense, K'|]. rewrite !getoutput_l. exact A.
Qed.
Lemma sim_relab r N C cd n H n' H' : sim (rc r N) C cd n H n' H' -> relab_net r n H n' H'.
Proof.
  intros (ls & ls' & K & K' & (_ & A) & K0 & K1 & K2 & K3). split; [eapply dense_net_hidden; eauto|]. split; [eapply dense_net_hidden; eauto|]. split; [congruence|]. split; [congruence|].
  exists ls, ls'. split; [apply hidden_layers_dense, K|]. split; [apply hidden_layers_dense, K'|]. rewrite !getoutput_l. exact A.
Qed.
Lemma zero_chain : forall c c' r, relab_chain r c c' -> grs (gchain r) (map (fun l => zero_like (l_W l)) c) (map (fun l => zero_like (l_W l)) c').
Proof.
  induction c as [|l c IH]; intros [|l' c'] r A; cbn in A; try tauto; cbn [map].
  - split; [reflexivity|]. intros [|i] ? ? E; discriminate.
  - destruct A as [((W1 & W2 & _) & A2 & A3 & _) A]. apply grs_cons; [|now apply IH]. unfold zero_like, zeros. rewrite W1, W2. assert (PB : permutes (biased (r 0)) (nr (l_W l))) by now apply permutes_biased.
    split; [|split; assumption]. apply rel_mk; [|assumption|assumption]. intros. cbn. lra.
Qed.

(** ** C83 *)
(** Same costs, and the relabelling is kept, whatever the data, the trainer and the number of calls. *)
Theorem C83_training : forall (junk : nat -> Rdt) (r : nat -> relab) cs (data data' : list (mat * mat * bool)) (n : net Rdt) (H : lheap Rdt) (n' : net Rdt) (H' : lheap Rdt) kd vs kd1 n1 H1,
  let last := S (length (n_hidden n)) in
  relab_net r n H n' H' -> relab_cost (r last) (n_cost n) (o_costd (n_output n)) ->
  Forall2 (fun d d' => relab_data (r 0) (fst (fst d)) (fst (fst d')) /\ relab_data (r last) (snd (fst d)) (snd (fst d')) /\ snd d' = snd d) data data' ->
  new_bound cs n H = Ok kd -> training junk data kd n H = Ok (vs, kd1, n1, H1) ->
  exists kd' kd1' n1' H1', new_bound cs n' H' = Ok kd' /\ training junk data' kd' n' H' = Ok (vs, kd1', n1', H1') /\ relab_net r n1 H1 n1' H1'.
Proof.
  intros junk r cs data data' n H n' H' kd vs kd1 n1 H1 last HR HC HD HN HT. pose proof (proj1 (relab_sim _ _ _ _ _) HR) as HS.
  assert (EN : exists kd', new_bound cs n' H' = Ok kd').
  { destruct cs as [d|d|b d|mu d]; cbn; eauto. destruct HR as (_ & Hd' & _). destruct (P_Safe.init_ok (base_of d) mu n' H' Hd') as (m & -> & _). cbn. eauto. }
  destruct EN as [kd' EN]. exists kd'.
  assert (HK : ksim (gchain r) n H kd n' H' kd').
  { eapply (p_new r (length (n_hidden n))); [exact HS| |exact HN|exact EN]. intros ls ls' o o' [_ A]. now apply zero_chain. }
  destruct (p_training junk r _ _ _ HC _ _ HD _ _ _ _ _ _ _ _ _ _ HS HK HT) as (kd1' & n1' & H1' & E & S1 & _). exists kd1', n1', H1'. split; [exact EN|]. split; [exact E|eapply sim_relab; eauto].
Qed.
(** The answers are the relabelled answers. *)
Theorem C83_answers : forall (junk : nat -> Rdt) (r : nat -> relab) (n : net Rdt) (H : lheap Rdt) (n' : net Rdt) (H' : lheap Rdt) x x' a n1 H1,
  let last := S (length (n_hidden n)) in
  relab_net r n H n' H' -> relab_cost (r last) (n_cost n) (o_costd (n_output n)) -> relab_data (r 0) x x' -> net_forward junk n H x = Ok (a, n1, H1) ->
  exists a' n1' H1', net_forward junk n' H' x' = Ok (a', n1', H1') /\ relab_data (r last) a a' /\ relab_net r n1 H1 n1' H1'.
Proof.
  intros junk r n H n' H' x x' a n1 H1 last HR HC HX HF. pose proof (proj1 (relab_sim _ _ _ _ _) HR) as HS.
  destruct (p_forward junk r _ _ _ HC _ _ _ _ _ _ _ _ _ HS HX HF) as (a' & n1' & H1' & E & (A1 & A2 & _) & S1 & _). exists a', n1', H1'. split; [exact E|]. split; [split; assumption|eapply sim_relab; eauto].
Qed.
(** If inputs and outputs keep their numbering and signs, renumbering the hidden units is invisible: the answers are equal. *)
Theorem C83_hidden_units : forall (junk : nat -> Rdt) (r : nat -> relab) (n : net Rdt) (H : lheap Rdt) (n' : net Rdt) (H' : lheap Rdt) x a n1 H1,
  r 0 = same -> r (S (length (n_hidden n))) = same ->
  relab_net r n H n' H' -> relab_cost same (n_cost n) (o_costd (n_output n)) -> net_forward junk n H x = Ok (a, n1, H1) ->
  exists n1' H1', net_forward junk n' H' x = Ok (a, n1', H1') /\ relab_net r n1 H1 n1' H1'.
Proof.
  intros junk r n H n' H' x a n1 H1 R0 RN HR HC HF. pose proof (proj1 (relab_sim _ _ _ _ _) HR) as HS. rewrite <- RN in HC.
  assert (HX : relab_data (r 0) x x). { rewrite R0. split; [apply same_perm|]. split; [reflexivity|]. split; [reflexivity|]. intros i j Hi Hj. rewrite !sg_same. cbn [same to]. rr. }
  destruct (p_forward junk r _ _ _ HC _ _ _ _ _ _ _ _ _ HS HX HF) as (a' & n1' & H1' & E & A & S1 & _). exists n1', H1'. replace a with a'; [split; [exact E|eapply sim_relab; eauto]|].
  rewrite RN in A. destruct (ra_mk _ _ _ A) as (_ & Ea & Ea'). rewrite Ea, Ea'. apply mk_ext. intros i j Hi Hj. rewrite sg_same. cbn [same to]. rr.
Qed.
(** The activations whose units may change sign. *)
Theorem C83_odd : odd_act identity /\ odd_act arctan /\ odd_act tanhyperbolic /\ odd_act bipolarsigmoid /\ odd_act lecuntanh /\ odd_act hardtanh.
Proof.
  assert (TH : forall z, tanh (- z) = (- tanh z)%R).
  { intros z. unfold tanh, sinh, cosh. rewrite Ropp_involutive. pose proof (exp_pos z). pose proof (exp_pos (- z)). field. lra. }
  assert (BP : forall z, (2 / (1 + exp (- - z)) - 1 = - (2 / (1 + exp (- z)) - 1))%R).
  { intros z. rewrite Ropp_involutive. pose proof (exp_pos z) as P. pose proof (exp_pos (- z)) as Q. assert (E : (exp z * exp (- z) = 1)%R) by (rewrite <- exp_plus; replace (z + - z)%R with 0%R by ring; apply exp_0).
    assert (E2 : exp z = (/ exp (- z))%R) by (apply (Rmult_eq_reg_r (exp (- z))); [rewrite E; symmetry; apply Rinv_l; lra|lra]). rewrite E2. field. split; lra. }
  split; [|split; [|split; [|split; [|split]]]]; split; intros z; cbn [act actd identity arctan tanhyperbolic bipolarsigmoid lecuntanh hardtanh initactfunc].
  - reflexivity.
  - reflexivity.
  - apply atan_opp.
  - unfold f_arctangrad. cbn. replace (- z * - z)%R with (z * z)%R by ring. reflexivity.
  - apply TH.
  - unfold f_tanhgrad. cbn. rewrite TH. ring.
  - unfold f_bipolar. cbn. apply BP.
  - unfold f_bipolargrad, f_bipolar. cbn. rewrite BP. field_simplify_eq; [ring|]. pose proof (exp_pos (- z)). lra.
  - unfold f_lecun. cbn. replace (2 / 3 * - z)%R with (- (2 / 3 * z))%R by ring. rewrite TH. ring.
  - unfold f_lecungrad. cbn. replace (2 / 3 * - z)%R with (- (2 / 3 * z))%R by ring. rewrite Ropp_involutive. rewrite (Rplus_comm (exp (- _))). reflexivity.
  - unfold f_hardtanh. cbn. unfold Rmax, Rmin. repeat destruct (Rle_dec _ _); lra.
  - unfold f_hardtanhgrad. cbn. unfold Rleb'. repeat destruct (Rle_dec _ _); cbn; try reflexivity; lra.
Qed.

(** ** The hypotheses can be met *)
(** One input, two hidden units; the other network has them exchanged, the first one with its sign changed. *)
Definition pmn (w : list R) : net Rdt := Net.N (D := Rdt) mempty quad_cost quad_costd (rl mempty) [0] (Layer.O (rl (rm 3 1 w)) quad_cost quad_costd mempty).
Definition pmH (w : list R) : lheap Rdt := [HDense (rl (rm 2 2 w))].
Definition pmr (k : nat) : relab := match k with 1 => RL (fun i => 1 - i) (fun i => i =? 0) | _ => same end.
Definition pmy : mat := rm 2 1 [3; 0]%R.
Lemma two j : j < 2 -> j = 0 \/ j = 1. Proof. lia. Qed.
Example C83_example (junk : nat -> Rdt) :
  relab_net pmr (pmn [1; 2; -3]%R) (pmH [1; 2; 1; -1]%R) (pmn [1; 3; 2]%R) (pmH [-1; 1; 1; 2]%R) /\ relab_cost (pmr 2) quad_cost quad_costd /\ relab_data (pmr 0) exrx exrx /\ relab_data (pmr 2) pmy pmy /\
  exists vs kd1 n1 H1 kd1' n1' H1', training junk [(exrx, pmy, true); (exrx, pmy, true)] (KPlain trainer_new) (pmn [1; 2; -3]%R) (pmH [1; 2; 1; -1]%R) = Ok (vs, kd1, n1, H1) /\
    training junk [(exrx, pmy, true); (exrx, pmy, true)] (KPlain trainer_new) (pmn [1; 3; 2]%R) (pmH [-1; 1; 1; 2]%R) = Ok (vs, kd1', n1', H1') /\ relab_net pmr n1 H1 n1' H1'.
Proof.
  assert (P1 : permutes (pmr 1) 2) by (split; cbn [pmr to]; lia).
  assert (HR : relab_net pmr (pmn [1; 2; -3]%R) (pmH [1; 2; 1; -1]%R) (pmn [1; 3; 2]%R) (pmH [-1; 1; 1; 2]%R)).
  { assert (DH : forall w v, dense_hidden (pmn w) (pmH v)) by (intros; split; [repeat constructor; intros []|]; intros p [<-|[]]; eexists; reflexivity).
    split; [apply DH|]. split; [apply DH|]. split; [reflexivity|]. split; [reflexivity|]. exists [rl (rm 2 2 [1; 2; 1; -1]%R)], [rl (rm 2 2 [-1; 1; 1; 2]%R)]. split; [reflexivity|]. split; [reflexivity|].
    cbn [app relab_chain]. split; [|split; [|exact I]].
    - split; [|split; [split; cbn; lia|]; split; [exact P1|do 3 (split; [reflexivity|]); intros j _; apply C83_odd]].
      split; [reflexivity|]. split; [reflexivity|]. cbn [rl l_W rm nr nc]. intros i j Hi Hj. destruct (two i Hi) as [-> | ->], (two j Hj) as [-> | ->]; unfold at_, sg; cbn; lra.
    - split; [|split; [exact P1|]; split; [apply same_perm|do 3 (split; [reflexivity|]); intros j _; apply C83_odd]].
      split; [reflexivity|]. split; [reflexivity|]. cbn [net_getoutput output_copy o_l pmn n_output layer_copy rl l_W rm nr nc]. intros i j Hi Hj. assert (j = 0) as -> by lia. destruct i as [|[|[|i]]]; [| | |lia]; unfold at_, sg; cbn; lra. }
  assert (HC : relab_cost (pmr 2) quad_cost quad_costd) by (split; left; reflexivity).
  assert (HS : forall m : mat, relab_data same m m). { intros m. split; [apply same_perm|]. split; [reflexivity|]. split; [reflexivity|]. intros i j Hi Hj. rewrite !sg_same. cbn [same to]. rr. }
  split; [exact HR|]. split; [exact HC|]. split; [apply HS|]. split; [apply HS|].
  assert (WS : well_sized (pmn [1; 2; -3]%R) (pmH [1; 2; 1; -1]%R) 1 1).
  { split; [|split; [|split]].
    - apply HR.
    - exists [rl (rm 2 2 [1; 2; 1; -1]%R)]. split; [reflexivity|]. exists 2. cbn. repeat split; lia.
    - now left.
    - now left. }
  destruct (C56_trainer junk 1 1 [(exrx, pmy, true); (exrx, pmy, true)] trainer_new (pmn [1; 2; -3]%R) (pmH [1; 2; 1; -1]%R)) as (t' & n1 & H1 & E & _); [lia|exact WS|repeat constructor|].
  assert (E2 : exists vs, training junk [(exrx, pmy, true); (exrx, pmy, true)] (KPlain trainer_new) (pmn [1; 2; -3]%R) (pmH [1; 2; 1; -1]%R) = Ok (vs, KPlain t', n1, H1)).
  { apply training_plain. exact E. }
  destruct E2 as [vs E2].
  destruct (C83_training junk pmr (NPlain None) [(exrx, pmy, true); (exrx, pmy, true)] [(exrx, pmy, true); (exrx, pmy, true)] _ _ _ _ (KPlain trainer_new) vs (KPlain t') n1 H1 HR HC) as (kd' & kd1' & n1' & H1' & EN & E' & R'); [|reflexivity|exact E2|].
  - repeat (constructor; [split; [apply HS|]; split; [apply HS|reflexivity]|]). constructor.
  - injection EN as <-. exists vs, (KPlain t'), n1, H1, kd1', n1', H1'. auto.
Qed.
(** The sigmoid is not odd. *)
Example C83_odd_needed : ~ odd_act (sigmoid (D := Rdt)).
Proof. intros [A _]. specialize (A 0%R). cbn in A. unfold f_sigmoid, Act.lit in A. cbn in A. rewrite !Ropp_0, exp_0 in A. lra. Qed.

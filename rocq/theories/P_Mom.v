(** P_Mom.v - C41, C42: what MomentumTrainer does; C56 for MomentumTrainer. *)
From Coq Require Import Reals Lra.
From Verif Require Import Base Mat Act Layer Conv Misc Net NetP Trainer TrainP TrainP2 ExNet P_Train FunEq RInst RMat.
From Coq Require Import Arith.
Local Open Scope nat_scope.

Section Generic.
Context {D : dtype}.
Notation mat := (mat D).
Notation layer := (layer D).
Context (junk : nat -> D).

(** ** Specification *)
(** The layer [l] becomes [l'] by a step along the matrix [g]: W' = W - lrate * g. *)
Definition moved_by (l : layer) (g : mat) (l' : layer) : Prop :=
  same_conf l l' /\ forall i j, i < nr (l_W l) -> j < nc (l_W l) -> at_ (l_W l') i j = dsub (at_ (l_W l) i j) (dmul (l_lrate l) (at_ g i j)).
(** Same size as the weights of l. *)
Definition like (l : layer) (g : mat) : Prop := nr g = nr (l_W l) /\ nc g = nc (l_W l).

(** The gradients [hg] (hidden layers) and [og] (output layer) that a call computes: with rates possibly decayed first
    (n0, H0), by forwardprop and backprop at the weights before the call. *)
Definition gradients (t : trainer D) n H x y n0 H0 (hg : list mat) (og : mat) : Prop :=
  decay (tick t) n H = Ok (n0, H0) /\
  exists a n1 H1 n2 H2 ls2, net_forward junk n0 H0 x = Ok (a, n1, H1) /\ net_backprop junk n1 H1 y = Ok (n2, H2) /\
    hidden_layers n2 H2 = Ok ls2 /\ hg = map (fun l => l_grad l) ls2 /\ og = l_grad (o_l (n_output n2)).

Lemma nth_combine {A B} (l1 : list A) (l2 : list B) k a b : nth_error (combine l1 l2) k = Some (a, b) -> nth_error l1 k = Some a /\ nth_error l2 k = Some b.
Proof. revert l2 k. induction l1 as [|u us IH]; intros [|v vs] [|k] E; cbn in E; try discriminate; [injection E as <- <-; split; reflexivity|]. apply (IH vs k E). Qed.

(** ** One call *)
Lemma stepped_with_moved (l l2 : layer) g : l_W l2 = l_W l -> l_lambda l2 = l_lambda l -> l_lrate l2 = l_lrate l -> l_act l2 = l_act l -> moved_by l g (stepped_with l2 g).
Proof.
  intros E1 E2 E3 E4. split; [unfold same_conf; cbn; rewrite E1; repeat split; auto|]. intros i j Hi Hj. unfold stepped_with. cbn [l_W set_W].
  rewrite at_mk by (rewrite E1; assumption). now rewrite E1, E3.
Qed.
Definition acc_next (mu : D) (it : Z) (acc g : mat) : mat := mixed (mom_u mu it) (mom_v mu it) acc g.

Lemma mom_step t n H x y t' n' H' ls : dense_hidden n H -> hidden_layers n H = Ok ls -> Forall2 like ls (mt_hgrads t) -> like (o_l (n_output n)) (mt_ograd t) ->
  momentum_feeddata junk t n H x y = Ok (t', n', H') ->
  exists n0 H0 hg og ls0 ls', gradients (mt_t t) n H x y n0 H0 hg og /\ hidden_layers n0 H0 = Ok ls0 /\ hidden_layers n' H' = Ok ls' /\
    Forall2 only_rates ls ls0 /\ only_rates (o_l (n_output n)) (o_l (n_output n0)) /\
    mt_t t' = tick (mt_t t) /\ mt_mom t' = mt_mom t /\
    mt_ograd t' = mixed (mt_mom t) (dsub (dofZ 1) (mt_mom t)) (mt_ograd t) og /\
    mt_hgrads t' = map (fun ag => acc_next (mt_mom t) (t_iters (mt_t t) + 1) (fst ag) (snd ag)) (combine (mt_hgrads t) hg) /\
    Forall2 like ls hg /\ like (o_l (n_output n)) og /\
    length ls' = length ls /\ length hg = length ls /\
    (forall k l0 g l', nth_error ls0 k = Some l0 -> nth_error (mt_hgrads t') k = Some g -> nth_error ls' k = Some l' -> moved_by l0 g l') /\
    moved_by (o_l (n_output n0)) (mt_ograd t') (o_l (n_output n')) /\
    dense_hidden n' H' /\ Forall2 like ls' (mt_hgrads t') /\ like (o_l (n_output n')) (mt_ograd t').
Proof.
  intros Hdh HL HA HO HT. destruct (dense_of_hidden n H Hdh) as (lsx & Lx & Hdn). pose proof (eq_trans (eq_sym HL) Lx) as Q. injection Q as <-.
  unfold momentum_feeddata in HT. destruct (decay_only_rates (tick (mt_t t)) n H ls Hdn) as (n0 & H0 & ls0 & D1 & D2 & D3 & D4 & D5 & D6).
  rewrite D1 in HT. cbn [bind] in HT. apply bind_ok in HT as ([[a n1] H1] & HF & HT). apply bind_ok in HT as ([n2 H2] & HB & HT).
  destruct (pass_dense junk n0 H0 ls0 x y a n1 H1 n2 H2 D2 HF HB) as (b & ls1 & delta & ls2 & dx & P1 & P2 & P3 & P4 & P5 & P6 & P7 & P8 & P9 & P10 & P11 & P12 & P13).
  pose proof (passes_form _ _ _ _ P1 _ _ _ P7) as PF.
  assert (E0 : Forall2 (fun l l2 : layer => l_W l2 = l_W l /\ gsized l2) ls ls2).
  { clear -D3 PF. revert ls2 PF. induction D3 as [|l l0 ls ls0 Eo D3 IH]; intros ls2 PF; inversion PF as [|u v us vs (R & A & _) PF']; subst; constructor; auto.
    rewrite Eo in A. cbn in A. split; [assumption|]. destruct R as (R1 & R2 & _). unfold gsized. rewrite R1, R2, Eo, A. split; reflexivity. }
  assert (Eo : l_W (o_l (n_output n2)) = l_W (o_l (n_output n))). { rewrite P10. cbn. rewrite D5. reflexivity. }
  assert (Go : gsized (o_l (n_output n2))).
  { rewrite P10. unfold gsized. cbn. destruct P2 as (P2a & P2b & P2c). split; [lia|]. assumption. }
  (* the accumulated gradients *)
  assert (Lh : Forall2 (fun (acc : mat) (l : layer) => nr acc = nr (l_grad l) /\ nc acc = nc (l_grad l)) (mt_hgrads t) ls2).
  { clear -HA E0. revert ls2 E0. induction HA as [|l g ls gs [A B] HA IH]; intros ls2 E0; inversion E0 as [|u v us vs (C & E & F)]; subst; constructor; auto. rewrite C in *. split; congruence. }
  apply bind_ok in HT as (og & OG & HT). unfold net_getoutput, output_copy in OG. cbn [o_l] in OG. rewrite layer_copy_id in OG.
  destruct HO as [HO1 HO2]. destruct Go as [Go1 Go2]. rewrite madd_scal_ok in OG by congruence. injection OG as <-.
  fold (mixed (mt_mom t) (dsub (dofZ 1) (mt_mom t)) (mt_ograd t) (l_grad (o_l (n_output n2)))) in HT.
  rewrite (mom_list n2 H2 ls2 (proj2 P9) _ _ (mt_hgrads t) (Forall2_len _ _ _ Lh) Lh) in HT. cbn [bind] in HT.
  set (accs := map _ (combine (mt_hgrads t) ls2)) in HT.
  assert (La : Forall2 gfit ls2 accs).
  { subst accs. clear -HA E0. revert ls2 E0. induction HA as [|l g ls gs [A B] HA IH]; intros ls2 E0; inversion E0 as [|u v us vs (C & E & F)]; subst; cbn; constructor; auto. unfold gfit. cbn. rewrite C. split; assumption. }
  rewrite (net_update_with_ok n2 H2 ls2) in HT; [|exact P9|unfold gfit; cbn; rewrite Eo; split; assumption|exact La]. cbn [bind] in HT. injection HT as <- <- <-.
  assert (Hd' : dense_at (put_layers (n_hidden n2) (map (fun lg => stepped_with (fst lg) (snd lg)) (combine ls2 accs)) H2) (n_hidden n2) (map (fun lg => stepped_with (fst lg) (snd lg)) (combine ls2 accs))).
  { eapply dense_put; [eassumption|]. rewrite map_length, combine_length. rewrite (Forall2_len _ _ _ La). lia. }
  exists n0, H0, (map (fun l => l_grad l) ls2), (l_grad (o_l (n_output n2))), ls0, (map (fun lg => stepped_with (fst lg) (snd lg)) (combine ls2 accs)).
  split. { split; [assumption|]. exists a, n1, H1, n2, H2, ls2. repeat (split; [assumption|]). split; [apply hidden_layers_dense, P9|split; reflexivity]. }
  split; [apply hidden_layers_dense, D2|]. split; [apply hidden_layers_dense, Hd'|]. split; [assumption|]. split; [assumption|].
  cbn [mt_t mt_mom mt_ograd mt_hgrads]. split; [reflexivity|]. split; [reflexivity|]. split; [reflexivity|].
  pose proof (Forall2_len _ _ _ La) as La'. pose proof (Forall2_len _ _ _ E0) as E0'. pose proof (Forall2_len _ _ _ HA) as HA'. pose proof (Forall2_len _ _ _ D3) as D3'.
  split. { subst accs. clear. cbn [tick t_iters]. revert ls2. induction (mt_hgrads t) as [|g gs IH]; intros [|l ls2]; cbn; try reflexivity. f_equal. apply IH. }
  split. { clear -E0. induction E0 as [|l l2 ls ls2 (A & B & C) E0 IH]; cbn; constructor; auto. unfold like. rewrite <- A. split; assumption. }
  split. { unfold like. rewrite <- Eo. split; assumption. }
  split; [rewrite map_length, combine_length; lia|]. split; [rewrite map_length; lia|].
  split.
  { intros k l0 g l' K1 K2 K3. rewrite nth_error_map in K3. destruct (nth_error (combine ls2 accs) k) as [[l2 g']|] eqn:Ek; [|discriminate]. cbn in K3. injection K3 as <-.
    assert (Ek2 : nth_error ls2 k = Some l2 /\ nth_error accs k = Some g').
    { now apply nth_combine. }
    destruct Ek2 as [Ek2 Ek3]. rewrite K2 in Ek3. injection Ek3 as ->. destruct (Forall2_nth _ _ _ PF k l0 l2 K1 Ek2) as (R1 & R2 & R3 & R4 & R5). now apply stepped_with_moved. }
  cbn [set_output n_output with_layer o_l]. split; [rewrite P10; apply stepped_with_moved; reflexivity|].
  split. { split; [apply P9|]. eapply dense_in. exact Hd'. }
  split. { subst accs. clear -La. induction La as [|l g ls gs [A B] La IH]; cbn; constructor; auto. split; cbn; auto. }
  split; cbn; congruence.
Qed.

(** ** Histories of calls, with the gradients each call computed *)
Inductive mom_run (s0 : mtrainer D * net D * lheap D) : list (mat * mat) -> list (list mat * mat) -> mtrainer D * net D * lheap D -> Prop :=
| run_start : mom_run s0 [] [] s0
| run_call : forall data gs t n H x y n0 H0 hg og t' n' H', mom_run s0 data gs (t, n, H) ->
    gradients (mt_t t) n H x y n0 H0 hg og -> momentum_feeddata junk t n H x y = Ok (t', n', H') ->
    mom_run s0 (data ++ [(x, y)]) (gs ++ [(hg, og)]) (t', n', H').

(** The gradient of hidden layer k (of the output layer) in call number s (counted from 0). *)
Definition hgrad_of (gs : list (list mat * mat)) (k s : nat) : mat := nth k (fst (nth s gs ([], mempty))) mempty.
Definition ograd_of (gs : list (list mat * mat)) (s : nat) : mat := snd (nth s gs ([], mempty)).

(** The accumulated gradient after the calls [gs], as the code computes it (any arithmetic). *)
Fixpoint ema (mu : D) (g : nat -> D) (k : nat) : D :=
  match k with 0 => d0 | S k' => dadd (dmul mu (ema mu g k')) (dmul (dsub (dofZ 1) mu) (g k')) end.

Definition run_inv (mu : D) (it0 : Z) (gs : list (list mat * mat)) (s : mtrainer D * net D * lheap D) : Prop :=
  let '(t, n, H) := s in
  dense_hidden n H /\ mt_mom t = mu /\ t_iters (mt_t t) = (it0 + Z.of_nat (length gs))%Z /\
  exists ls, hidden_layers n H = Ok ls /\ Forall2 like ls (mt_hgrads t) /\ like (o_l (n_output n)) (mt_ograd t) /\
    (forall i j, i < nr (mt_ograd t) -> j < nc (mt_ograd t) -> at_ (mt_ograd t) i j = ema mu (fun s => at_ (ograd_of gs s) i j) (length gs)) /\
    (negb (deqb mu (dofZ 0)) = true -> forall k acc i j, nth_error (mt_hgrads t) k = Some acc -> i < nr acc -> j < nc acc ->
       at_ acc i j = ema mu (fun s => at_ (hgrad_of gs k s) i j) (length gs)).

Lemma ema_ext mu g g' k : (forall s, s < k -> g s = g' s) -> ema mu g k = ema mu g' k.
Proof. induction k as [|k IH]; intros E; [reflexivity|]. cbn [ema]. rewrite IH by (intros; apply E; lia). now rewrite E by lia. Qed.

Lemma momentum_new_shape t0 mu n H t : dense_hidden n H -> initmomentum t0 mu n H = Ok t ->
  mt_t t = t0 /\ mt_mom t = mu /\ exists ls, hidden_layers n H = Ok ls /\ mt_hgrads t = map (fun l : layer => zero_like (l_W l)) ls /\ mt_ograd t = zero_like (l_W (o_l (n_output n))).
Proof.
  intros Hd. unfold initmomentum. destruct (dense_of_hidden n H Hd) as (ls & L & Hdn). intros E. apply bind_ok in E as (hs & E1 & E). injection E as <-.
  split; [reflexivity|]. split; [reflexivity|]. exists ls. split; [assumption|]. cbn [mt_hgrads mt_ograd]. split.
  - assert (X : forall l ls, mapM (net_gethidden n H) l = Ok ls -> mapM (fun i => l <- net_gethidden n H i ;; Ok (zero_like (l_W l))) l = Ok (map (fun l : layer => zero_like (l_W l)) ls)).
    { clear. induction l as [|i l IH]; intros ls E; cbn [mapM] in *; [injection E as <-; reflexivity|]. apply bind_ok in E as (u & E1 & E). apply bind_ok in E as (us & E2 & E). injection E as <-.
      rewrite E1. cbn [bind]. rewrite (IH _ E2). reflexivity. }
    unfold hidden_layers in L. apply X in L. pose proof (eq_trans (eq_sym E1) L) as Q. now injection Q.
  - reflexivity.
Qed.

Lemma run_keeps mu n H t0 t : initmomentum t0 mu n H = Ok t -> dense_hidden n H ->
  forall data gs s, mom_run (t, n, H) data gs s -> run_inv mu (t_iters t0) gs s.
Proof.
  intros Hi Hd data gs s R. induction R as [|data gs u m K x y m0 K0 hg og u' m' K' R IH HG HT].
  - destruct (momentum_new_shape _ _ _ _ _ Hd Hi) as (A & B & ls & L & C & E). unfold run_inv. split; [assumption|]. split; [assumption|]. split; [rewrite A; cbn; lia|].
    exists ls. split; [assumption|]. rewrite C, E. split. { clear. induction ls; cbn; constructor; auto. split; reflexivity. } split; [split; reflexivity|]. split.
    + intros i j Hi' Hj. cbn in Hi', Hj. unfold zero_like, zeros. rewrite at_mk by assumption. reflexivity.
    + intros _ k acc i j Hk Hi' Hj. rewrite nth_error_map in Hk. destruct (nth_error ls k); [|discriminate]. injection Hk as <-. cbn in Hi', Hj. unfold zero_like, zeros. rewrite at_mk by assumption. reflexivity.
  - cbn in IH. destruct IH as (I1 & I2 & I3 & ls & I4 & I5 & I6 & I7 & I8).
    destruct (mom_step u m K x y u' m' K' ls I1 I4 I5 I6 HT) as (n0 & H0 & hg' & og' & ls0 & ls' & S1 & S2 & S3 & S3a & S3b & S4 & S5 & S6 & S7 & S8 & S8b & S9 & S10 & S11 & S12 & S13 & S14 & S15).
    assert (Eg : hg' = hg /\ og' = og).
    { destruct S1 as (Q1 & a1 & n1 & H1 & n2 & H2 & k2 & Q2 & Q3 & Q4 & -> & ->). destruct HG as (T1 & a1' & n1' & H1' & n2' & H2' & k2' & T2 & T3 & T4 & -> & ->).
      pose proof (eq_trans (eq_sym Q1) T1) as X. injection X as -> ->. pose proof (eq_trans (eq_sym Q2) T2) as X. injection X as -> -> ->.
      pose proof (eq_trans (eq_sym Q3) T3) as X. injection X as -> ->. pose proof (eq_trans (eq_sym Q4) T4) as X. injection X as ->. auto. }
    destruct Eg as [-> ->]. unfold run_inv. split; [assumption|]. split; [congruence|]. split; [rewrite S4, app_length; cbn [tick t_iters length]; lia|].
    exists ls'. split; [assumption|]. split; [assumption|]. split; [assumption|]. rewrite app_length. cbn [length]. rewrite Nat.add_1_r. cbn [ema].
    assert (Old : forall s, s < length gs -> nth s (gs ++ [(hg, og)]) ([], mempty) = nth s gs ([], mempty)) by (intros; now rewrite app_nth1).
    assert (New : nth (length gs) (gs ++ [(hg, og)]) ([], mempty) = (hg, og)) by (rewrite app_nth2, Nat.sub_diag by lia; reflexivity).
    split.
    + intros i j Hi' Hj. rewrite S6 in *. cbn [mixed nr nc mk] in Hi', Hj. unfold mixed. rewrite at_mk by assumption. rewrite I7 by assumption. rewrite I2.
      f_equal; [|unfold ograd_of; rewrite New; reflexivity]. f_equal. apply ema_ext. intros s Hs. unfold ograd_of. now rewrite Old.
    + intros Hmu k acc i j Hk Hi' Hj. rewrite S7 in Hk. rewrite nth_error_map in Hk. destruct (nth_error (combine (mt_hgrads u) hg) k) as [[a0 g]|] eqn:Ek; [|discriminate].
      cbn in Hk. injection Hk as <-. assert (Ek2 : nth_error (mt_hgrads u) k = Some a0 /\ nth_error hg k = Some g).
      { now apply nth_combine. }
      destruct Ek2 as [Ek2 Ek3]. unfold acc_next, mixed in *. cbn [nr nc mk] in Hi', Hj. rewrite at_mk by assumption. unfold mom_u, mom_v. rewrite I2, Hmu.
      rewrite (I8 Hmu k a0 i j Ek2 Hi' Hj). f_equal; [|unfold hgrad_of; rewrite New; cbn [fst]; now rewrite (nth_error_nth hg k mempty Ek3)].
      f_equal. apply ema_ext. intros s Hs. unfold hgrad_of. now rewrite Old.
Qed.

(** Every layer is moved by the accumulated gradient of all calls so far, this one included. *)
Lemma mom_moves mu n H t0 t : initmomentum t0 mu n H = Ok t -> dense_hidden n H ->
  forall data gs u m K x y hg og n0 H0 u' m' K', mom_run (t, n, H) data gs (u, m, K) ->
  gradients (mt_t u) m K x y n0 H0 hg og -> momentum_feeddata junk u m K x y = Ok (u', m', K') ->
  exists ls0 ls', hidden_layers n0 H0 = Ok ls0 /\ hidden_layers m' K' = Ok ls' /\ length ls' = length ls0 /\ length hg = length ls0 /\
    t_iters (mt_t u) = (t_iters t0 + Z.of_nat (length gs))%Z /\ mt_mom u = mu /\
    Forall2 like ls0 hg /\ like (o_l (n_output n0)) og /\
    (forall k l0 g l', nth_error ls0 k = Some l0 -> nth_error (mt_hgrads u') k = Some g -> nth_error ls' k = Some l' -> moved_by l0 g l') /\
    moved_by (o_l (n_output n0)) (mt_ograd u') (o_l (n_output m')) /\ length (mt_hgrads u') = length ls0 /\
    Forall2 like ls0 (mt_hgrads u') /\ like (o_l (n_output n0)) (mt_ograd u') /\
    Forall2 like ls0 (mt_hgrads u) /\ mt_hgrads u' = map (fun ag => acc_next mu (t_iters (mt_t u) + 1) (fst ag) (snd ag)) (combine (mt_hgrads u) hg) /\
    mt_ograd u' = mixed mu (dsub (dofZ 1) mu) (mt_ograd u) og /\ like (o_l (n_output n0)) (mt_ograd u).
Proof.
  intros Hi Hd data gs u m K x y hg og n0 H0 u' m' K' R HG HT.
  pose proof (run_keeps mu n H t0 t Hi Hd _ _ _ R) as (I1 & I2 & I3 & ls & I4 & I5 & I6 & _ & _).
  destruct (mom_step u m K x y u' m' K' ls I1 I4 I5 I6 HT) as (n1 & H1 & hg' & og' & ls0 & ls' & S1 & S2 & S3 & S3a & S3b & S4 & S5 & S6 & S7 & S8 & S8b & S9 & S10 & S11 & S12 & S13 & S14 & S15).
  assert (Eg : hg' = hg /\ og' = og /\ n1 = n0 /\ H1 = H0).
  { destruct S1 as (Q1 & a1 & n2 & H2 & n3 & H3 & k2 & Q2 & Q3 & Q4 & -> & ->). destruct HG as (T1 & a1' & n1' & H1' & n2' & H2' & k2' & T2 & T3 & T4 & -> & ->).
    pose proof (eq_trans (eq_sym Q1) T1) as X. injection X as -> ->. pose proof (eq_trans (eq_sym Q2) T2) as X. injection X as -> -> ->.
    pose proof (eq_trans (eq_sym Q3) T3) as X. injection X as -> ->. pose proof (eq_trans (eq_sym Q4) T4) as X. injection X as ->. auto. }
  destruct Eg as (-> & -> & -> & ->). pose proof (Forall2_len _ _ _ S3a) as L0.
  assert (Tr : forall gs, Forall2 like ls gs -> Forall2 like ls0 gs).
  { clear -S3a. induction S3a as [|l l0 ls ls0 E S IH]; intros gs F; inversion F as [|a b c d [A B] F']; subst; constructor; auto. rewrite E. split; assumption. }
  assert (To : forall g, like (o_l (n_output m)) g -> like (o_l (n_output n0)) g) by (intros g [A B]; rewrite S3b; split; assumption).
  assert (F2' : Forall2 like ls0 (mt_hgrads u')).
  { apply Tr. rewrite S7. clear -I5 S8. revert hg S8. induction I5 as [|l g ls gs [A B] I5 IH]; intros hg S8; inversion S8; subst; cbn; constructor; auto. split; assumption. }
  exists ls0, ls'. rewrite <- I2. repeat (split; [first [assumption|congruence|now apply Tr|now apply To]|]).
  split; [symmetry; now apply Forall2_len in F2'|]. split; [assumption|].
  split; [apply To; rewrite S6; destruct I6; split; assumption|]. split; [now apply Tr|]. split; [assumption|]. split; [assumption|]. now apply To.
Qed.

(** ** C56 for the momentum trainer *)
Lemma fits_sizes : forall (ls ls' : list layer) p q, Forall2 (fun l l' : layer => nr (l_W l') = nr (l_W l) /\ nc (l_W l') = nc (l_W l)) ls ls' -> fits p ls q -> fits p ls' q.
Proof.
  intros ls ls' p q F. revert p. induction F as [|l l' ls ls' [A B] F IH]; intros p Hf; cbn [fits] in *; [assumption|]. destruct Hf as (F1 & F2 & F3).
  rewrite A, B. auto.
Qed.

Lemma mom_ok p c (t : mtrainer D) n H x y ls : 1 <= p -> fits_net n H ls p c -> samples p c (x, y) ->
  Forall2 like ls (mt_hgrads t) -> like (o_l (n_output n)) (mt_ograd t) ->
  exists t' n' H' ls', momentum_feeddata junk t n H x y = Ok (t', n', H') /\ fits_net n' H' ls' p c /\ kc n n' /\
    Forall2 like ls' (mt_hgrads t') /\ like (o_l (n_output n')) (mt_ograd t') /\ nr (n_result n') = nr x /\ nc (n_result n') = c.
Proof.
  intros Hp Hf Hs HA HO. pose proof Hs as (S1 & S2 & S3 & S4). cbn [fst snd] in *.
  pose proof (decay_ok (tick (mt_t t)) n H ls p c Hf) as (n0 & H0 & ls0' & D1 & D2 & D3 & D4).
  destruct (decay_only_rates (tick (mt_t t)) n H ls (proj1 Hf)) as (n0' & H0' & ls0 & E1 & E2 & E3 & E4 & E5 & _).
  pose proof (eq_trans (eq_sym E1) D1) as Q. injection Q as -> ->. clear E1.
  assert (Els : ls0' = ls0).
  { pose proof (hidden_layers_dense n0 H0 ls0 (proj2 E2)) as A. pose proof (hidden_layers_dense n0 H0 ls0' (proj2 (proj1 D2))) as B. congruence. }
  subst ls0'.
  destruct (forward_backward_ok junk n0 H0 ls0 p c x y D2 Hp S1 S2 S3 S4) as (a & n1 & H1 & n2 & H2 & ls2 & A1 & A2 & A3 & A4 & A5 & A7 & A8).
  destruct (pass_dense junk n0 H0 ls0 x y a n1 H1 n2 H2 E2 A1 A4) as (b & ls1 & delta & ls2' & dx & P1 & P2 & P3 & P4 & P5 & P6 & P7 & P8 & P9 & P10 & P11 & P12 & P13).
  assert (Els : ls2' = ls2).
  { pose proof (hidden_layers_dense n2 H2 ls2 (proj2 (proj1 A5))) as A. pose proof (hidden_layers_dense n2 H2 ls2' (proj2 P9)) as B. congruence. }
  subst ls2'. pose proof (passes_form _ _ _ _ P1 _ _ _ P7) as PF.
  assert (EW : Forall2 (fun l l2 : layer => l_W l2 = l_W l) ls ls2).
  { clear -E3 PF. revert ls2 PF. induction E3 as [|l l0 ls ls0 Eo D3 IH]; intros ls2 PF; inversion PF as [|u v us vs (R & A & _) PF']; subst; constructor; auto.
    rewrite Eo in A. exact A. }
  assert (Eo : l_W (o_l (n_output n2)) = l_W (o_l (n_output n))). { rewrite P10. cbn. rewrite E5. reflexivity. }
  assert (Lh : Forall2 (fun (acc : mat) (l : layer) => nr acc = nr (l_grad l) /\ nc acc = nc (l_grad l)) (mt_hgrads t) ls2).
  { clear -HA EW A7. revert ls2 EW A7. induction HA as [|l g ls gs [A B] HA IH]; intros ls2 EW A7; inversion EW as [|u v us vs C]; subst; constructor.
    - inversion A7 as [|u1 u2 [G1 G2]]; subst. rewrite C in *. split; congruence.
    - apply IH; auto. now inversion A7. }
  assert (EX : exists t' n' H', momentum_feeddata junk t n H x y = Ok (t', n', H') /\ kc n2 n' /\ n_result n' = n_result n2).
  { unfold momentum_feeddata. rewrite D1. cbn [bind]. rewrite A1. cbn [bind]. rewrite A4. cbn [bind]. unfold net_getoutput, output_copy. cbn [o_l]. rewrite layer_copy_id.
    destruct HO as [O1 O2]. destruct A8 as [G1 G2]. rewrite madd_scal_ok by congruence. cbn [bind].
    rewrite (mom_list n2 H2 ls2 (proj2 P9) _ _ (mt_hgrads t) (Forall2_len _ _ _ Lh) Lh). cbn [bind].
    rewrite (net_update_with_ok n2 H2 ls2); [| exact P9 | unfold gfit; cbn; rewrite Eo; split; assumption |].
    - cbn [bind]. do 3 eexists. split; [reflexivity|]. repeat split.
    - clear -HA EW. revert ls2 EW. induction HA as [|l g ls gs [A B] HA IH]; intros ls2 EW; inversion EW as [|u v us vs C]; subst; cbn; constructor; auto. unfold gfit. cbn. rewrite C. split; assumption. }
  destruct EX as (t' & n' & H' & EX & K1 & K2). exists t', n', H'.
  assert (Hdh : dense_hidden n H) by (eapply dense_net_hidden, Hf). pose proof (hidden_layers_dense n H ls (proj2 (proj1 Hf))) as HL.
  destruct (mom_step t n H x y t' n' H' ls Hdh HL HA HO EX) as (m0 & K0 & hg & og & lsa & ls' & Z1 & Z2 & Z3 & Z4 & Z5 & Z6 & Z7 & Z8 & Z9 & Z10 & Z11 & Z12 & Z13 & Z14 & Z15 & Z16 & Z17 & Z18).
  destruct Z1 as [Z1 _]. pose proof (eq_trans (eq_sym Z1) D1) as Q. injection Q as -> ->.
  pose proof (eq_trans (eq_sym Z2) (hidden_layers_dense n0 H0 ls0 (proj2 E2))) as Q. injection Q as ->.
  exists ls'. split; [exact EX|]. destruct (forward_kc _ _ _ _ _ _ _ A1) as [KF RF]. destruct (backprop_kc _ _ _ _ _ _ A4) as [KB RB].
  split; [|split; [|split; [assumption|split; [assumption|]]]].
  - split.
    + destruct (dense_of_hidden n' H' Z16) as (lsz & X1 & X2). pose proof (eq_trans (eq_sym Z3) X1) as Q. injection Q as ->. exact X2.
    + destruct D2 as [_ (q & F1 & F2 & F3 & F4 & F5)]. exists q. destruct Z15 as [(_ & _ & _ & Y1 & Y2) _]. rewrite Y1, Y2.
      split; [|repeat split; auto].
      * eapply fits_sizes; [|exact F1]. apply Forall2_intro_nth; [apply Forall2_len in E3; lia|]. intros k l l' J1 J2.
        assert (J3 : exists g, nth_error (mt_hgrads t') k = Some g).
        { apply Forall2_len in Z17. destruct (nth_error (mt_hgrads t') k) eqn:J3; [eauto|]. apply nth_error_None in J3. assert (k < length ls') by (apply nth_error_Some; congruence). lia. }
        destruct J3 as [g J3]. destruct (Z14 k l g l' J1 J3 J2) as [(_ & _ & _ & Y3 & Y4) _]. split; assumption.
      * destruct K1 as [_ K1]. rewrite K1. destruct KB as [_ KB]. rewrite KB. destruct KF as [_ KF]. rewrite KF. exact F5.
  - eapply kc_trans; [exact D3|]. eapply kc_trans; [exact KF|]. eapply kc_trans; [exact KB|exact K1].
  - rewrite K2, RB, RF. split; assumption.
Qed.

Theorem C56_momentum : forall p c (data : list (mat * mat * bool)) (t0 : trainer D) (mu : D) n H, 1 <= p -> well_sized n H p c ->
  Forall (fun d => samples p c (fst d)) data ->
  exists t t' n' H', initmomentum t0 mu n H = Ok t /\
    foldM (fun '(t, n, H) d => '(_, t', n', H') <- momentum_feeddata_cost junk t n H (fst (fst d)) (snd (fst d)) (snd d) ;; Ok (t', n', H')) data (t, n, H) = Ok (t', n', H') /\
    well_sized n' H' p c.
Proof.
  intros p c data t0 mu n H Hp Hw Hs. pose proof (proj1 (well_fits _ _ _ _) Hw) as ((ls & Hf) & _).
  assert (Ei : exists t, initmomentum t0 mu n H = Ok t).
  { unfold initmomentum. pose proof (hidden_layers_dense n H ls (proj2 (proj1 Hf))) as L. unfold hidden_layers in L.
    assert (X : forall l ks, mapM (net_gethidden n H) l = Ok ks -> exists r, mapM (fun i => l <- net_gethidden n H i ;; Ok (zero_like (l_W l))) l = Ok r).
    { clear. induction l as [|i l IH]; intros ks E; cbn [mapM] in *; [eauto|]. apply bind_ok in E as (u & E1 & E). apply bind_ok in E as (us & E2 & E).
      rewrite E1. cbn [bind]. destruct (IH _ E2) as [r ->]. cbn [bind]. eauto. }
    destruct (X _ _ L) as [r ->]. cbn [bind]. eauto. }
  destruct Ei as [t Et]. exists t.
  assert (Inv0 : exists ls, fits_net n H ls p c /\ Forall2 like ls (mt_hgrads t) /\ like (o_l (n_output n)) (mt_ograd t)).
  { exists ls. split; [assumption|]. destruct (momentum_new_shape t0 mu n H t) as (A & B & ks & L & C & E); [apply Hw|assumption|].
    pose proof (eq_trans (eq_sym L) (hidden_layers_dense n H ls (proj2 (proj1 Hf)))) as Q. injection Q as ->. rewrite C, E. split; [|split; reflexivity].
    clear. induction ls; cbn; constructor; auto. split; reflexivity. }
  destruct (foldM_inv (fun s : mtrainer D * net D * lheap D => well_sized (snd (fst s)) (snd s) p c /\ exists ls, fits_net (snd (fst s)) (snd s) ls p c /\ Forall2 like ls (mt_hgrads (fst (fst s))) /\ like (o_l (n_output (snd (fst s)))) (mt_ograd (fst (fst s))))
    (fun '(t, n, H) (d : mat * mat * bool) => '(_, t', n', H') <- momentum_feeddata_cost junk t n H (fst (fst d)) (snd (fst d)) (snd d) ;; Ok (t', n', H')) data) with (s := (t, n, H)) as ([[t' n'] H'] & E & W); [|split; [exact Hw|exact Inv0]|].
  2:{ exists t', n', H'. split; [assumption|]. split; [assumption|]. apply W. }
  clear t n H Hw Et Inv0 ls Hf. intros [[x y] cc] Hin [[t n] H] [Hw (ls & Hf & HA & HO)]. cbn [fst snd] in *. rewrite Forall_forall in Hs. specialize (Hs _ Hin). cbn [fst] in Hs.
  destruct (mom_ok p c t n H x y ls Hp Hf Hs HA HO) as (t1 & n1 & H1 & ls1 & E1 & F1 & K1 & A1 & O1 & R1 & R2).
  unfold momentum_feeddata_cost. rewrite E1. cbn [bind].
  assert (W1 : well_sized n1 H1 p c) by (eapply well_kc; eauto).
  destruct cc; [|eexists; split; [reflexivity|split; [exact W1|eauto]]].
  destruct Hs as (S1 & S2 & S3 & S4). cbn in S1, S2, S3, S4.
  destruct (builtin_sized_cost (n_cost n1)) with (y := y) (h := n_result n1) as [J EJ]; [apply well_fits in W1; apply W1|lia|lia|].
  unfold net_computecost. rewrite EJ. cbn [bind]. eexists. split; [reflexivity|split; [exact W1|eauto]].
Qed.
(** Histories of every length exist: on data of the right shape every call succeeds. *)
Lemma mom_runs p c (t0 : trainer D) mu n H t : 1 <= p -> well_sized n H p c -> initmomentum t0 mu n H = Ok t ->
  forall data, Forall (samples p c) data ->
  exists gs u m K ls, mom_run (t, n, H) data gs (u, m, K) /\ length gs = length data /\ fits_net m K ls p c /\ Forall2 like ls (mt_hgrads u) /\ like (o_l (n_output m)) (mt_ograd u).
Proof.
  intros Hp Hw Et data. pose proof (proj1 (well_fits _ _ _ _) Hw) as ((ls & Hf) & _). induction data as [|[x y] data IH] using rev_ind; intros Hs.
  - exists [], t, n, H, ls. split; [constructor|]. split; [reflexivity|]. split; [assumption|]. destruct (momentum_new_shape t0 mu n H t) as (A & B & ks & L & C & E); [apply Hw|assumption|].
    pose proof (eq_trans (eq_sym L) (hidden_layers_dense n H ls (proj2 (proj1 Hf)))) as Q. injection Q as ->. rewrite C, E. split; [|split; reflexivity].
    clear. induction ls; cbn; constructor; auto. split; reflexivity.
  - apply Forall_app in Hs as [Hs1 Hs2]. assert (Hs3 : samples p c (x, y)) by (inversion Hs2; assumption). clear Hs2. destruct (IH Hs1) as (gs & u & m & K & ks & R & L & F & A1 & A2).
    destruct (mom_ok p c u m K x y ks Hp F Hs3 A1 A2) as (u' & m' & K' & ks' & E1 & F1 & _ & A1' & A2' & _).
    destruct (mom_step u m K x y u' m' K' ks) as (n0 & H00 & hg & og & l0 & l' & Z1 & _); [eapply dense_net_hidden, F|apply hidden_layers_dense, F|assumption|assumption|assumption|].
    exists (gs ++ [(hg, og)]), u', m', K', ks'. split; [econstructor; eauto|]. split; [rewrite !app_length; cbn; lia|]. auto.
Qed.
End Generic.

(** ** C41 over the reals *)
Ltac toR := match goal with |- @eq _ ?a ?b => change (@eq R a b) end.
Lemma ema_closed (mu : R) (g : nat -> R) k : ema (D := Rdt) mu g k = ((1 - mu) * sumN k (fun s => mu ^ (k - 1 - s) * g s))%R.
Proof.
  induction k as [|k IH]; [cbn; lra|]. cbn [ema]. rewrite IH, sumN_last. change (mu * ((1 - mu) * sumN k (fun s => mu ^ (k - 1 - s) * g s)) + (1 - mu) * g k = (1 - mu) * (sumN k (fun s => mu ^ (S k - 1 - s) * g s) + mu ^ (S k - 1 - k) * g k))%R.
  replace (S k - 1 - k) with 0 by lia. rewrite pow_O.
  rewrite (sumN_ext k (fun s => mu ^ (S k - 1 - s) * g s)%R (fun s => mu * (mu ^ (k - 1 - s) * g s))%R).
  - rewrite sumN_scal. ring.
  - intros s Hs. replace (S k - 1 - s) with (S (k - 1 - s)) by lia. cbn [pow]. ring.
Qed.

(** Over the reals: (1-mu) * (g_T + mu g_{T-1} + ... + mu^T g_0). *)
Definition weighted (mu : R) (g : nat -> R) (T : nat) : R := ((1 - mu) * sumN (S T) (fun s => mu ^ (T - s) * g s))%R.

Theorem C41_average : forall (junk : nat -> Rdt) (mu : Rdt) (t0 : trainer Rdt) n H t data gs u m K x y n0 H0 hg og u' m' K',
  mu <> 0%R -> dense_hidden n H -> initmomentum t0 mu n H = Ok t ->
  (* any number of calls before this one, with gradients gs *)
  mom_run junk (t, n, H) data gs (u, m, K) ->
  (* this call computes the gradients hg, og *)
  gradients junk (mt_t u) m K x y n0 H0 hg og -> momentum_feeddata junk u m K x y = Ok (u', m', K') ->
  let T := length gs in let all := gs ++ [(hg, og)] in
  exists ls0 ls', hidden_layers n0 H0 = Ok ls0 /\ hidden_layers m' K' = Ok ls' /\ length ls' = length ls0 /\ length hg = length ls0 /\
    (forall k l l', nth_error ls0 k = Some l -> nth_error ls' k = Some l' -> same_conf l l' /\
       forall i j, i < nr (l_W l) -> j < nc (l_W l) ->
         at_ (l_W l') i j = (at_ (l_W l) i j - l_lrate l * weighted mu (fun s => at_ (hgrad_of all k s) i j) T)%R) /\
    (let l := o_l (n_output n0) in let l' := o_l (n_output m') in same_conf l l' /\
       forall i j, i < nr (l_W l) -> j < nc (l_W l) ->
         at_ (l_W l') i j = (at_ (l_W l) i j - l_lrate l * weighted mu (fun s => at_ (ograd_of all s) i j) T)%R).
Proof.
  intros junk mu t0 n H t data gs u m K x y n0 H0 hg og u' m' K' Hmu Hd Hi HR HG HT T all.
  destruct (mom_moves junk mu n H t0 t Hi Hd data gs u m K x y hg og n0 H0 u' m' K' HR HG HT) as (ls0 & ls' & M1 & M2 & M3 & M4 & M5 & M6 & M7 & M8 & M9 & M10 & M11 & M12 & M13 & M14 & M15 & M16 & M17).
  pose proof (run_keeps junk mu n H t0 t Hi Hd _ _ _ (run_call junk _ _ _ _ _ _ _ _ _ _ _ _ _ _ _ HR HG HT)) as RK. cbn [run_inv] in RK.
  destruct RK as (I1 & I2 & I3 & lsx & I4 & I5 & I6 & I7 & I8). assert (La : length (gs ++ [(hg, og)]) = S T) by (rewrite app_length; cbn [length]; unfold T; lia). rewrite La in I7, I8. fold all in I7, I8.
  assert (Hmu' : negb (deqb (d := Rdt) mu (dofZ (d := Rdt) 0)) = true). { cbn [deqb dofZ Rdt]. unfold Reqb'. destruct (Req_EM_T mu 0); [contradiction|reflexivity]. }
  exists ls0, ls'. split; [assumption|]. split; [assumption|]. split; [assumption|]. split; [assumption|]. split.
  - intros k l l' K1 K2. assert (exists g, nth_error (mt_hgrads u') k = Some g) as [g K3].
    { destruct (nth_error (mt_hgrads u') k) eqn:K3; [eauto|]. apply nth_error_None in K3. assert (k < length ls0) by (apply nth_error_Some; congruence). lia. }
    destruct (M9 k l g l' K1 K3 K2) as [C1 C2]. split; [exact C1|]. intros i j Hi' Hj. rewrite (C2 i j Hi' Hj).
    destruct (Forall2_nth _ _ _ M12 k l g K1 K3) as [L1 L2]. rewrite (I8 Hmu' k g i j K3); [|rewrite L1; assumption|rewrite L2; assumption].
    rewrite ema_closed. unfold weighted. cbn [dsub dmul Rdt]. replace (S T - 1) with T by lia. reflexivity.
  - destruct M10 as [C1 C2]. split; [exact C1|]. intros i j Hi' Hj. rewrite (C2 i j Hi' Hj). destruct M13 as [L1 L2]. rewrite I7; [|rewrite L1; assumption|rewrite L2; assumption].
    rewrite ema_closed. unfold weighted. cbn [dsub dmul Rdt]. replace (S T - 1) with T by lia. reflexivity.
Qed.

(** ** C42 *)
Theorem C42_zero : forall (junk : nat -> Rdt) (t0 : trainer Rdt) n H t data gs u m K x y n0 H0 hg og u' m' K',
  t_iters t0 = 0%Z -> dense_hidden n H -> initmomentum t0 (0%R : Rdt) n H = Ok t ->
  mom_run junk (t, n, H) data gs (u, m, K) ->
  gradients junk (mt_t u) m K x y n0 H0 hg og -> momentum_feeddata junk u m K x y = Ok (u', m', K') ->
  let T := length gs in
  exists ls0 ls', hidden_layers n0 H0 = Ok ls0 /\ hidden_layers m' K' = Ok ls' /\ length ls' = length ls0 /\ length hg = length ls0 /\
    (* hidden layers: the gradient of this call alone, divided by the number of calls *)
    (forall k l g l', nth_error ls0 k = Some l -> nth_error hg k = Some g -> nth_error ls' k = Some l' -> same_conf l l' /\
       forall i j, i < nr (l_W l) -> j < nc (l_W l) ->
         at_ (l_W l') i j = (at_ (l_W l) i j - l_lrate l * (at_ g i j / INR (S T)))%R) /\
    (* output layer: the gradient of this call, undivided *)
    (let l := o_l (n_output n0) in let l' := o_l (n_output m') in same_conf l l' /\
       forall i j, i < nr (l_W l) -> j < nc (l_W l) -> at_ (l_W l') i j = (at_ (l_W l) i j - l_lrate l * at_ og i j)%R).
Proof.
  intros junk t0 n H t data gs u m K x y n0 H0 hg og u' m' K' Hit Hd Hi HR HG HT T.
  destruct (mom_moves junk _ n H t0 t Hi Hd data gs u m K x y hg og n0 H0 u' m' K' HR HG HT) as (ls0 & ls' & M1 & M2 & M3 & M4 & M5 & M6 & M7 & M8 & M9 & M10 & M11 & M12 & M13 & M14 & M15 & M16 & M17).
  assert (Hmu' : negb (deqb (d := Rdt) 0%R (dofZ (d := Rdt) 0)) = false). { cbn [deqb dofZ Rdt]. unfold Reqb'. destruct (Req_EM_T 0 0); [reflexivity|contradiction]. }
  exists ls0, ls'. split; [assumption|]. split; [assumption|]. split; [assumption|]. split; [assumption|]. split.
  - intros k l g l' K1 K3 K2. assert (exists a, nth_error (mt_hgrads u) k = Some a) as [a K4].
    { destruct (nth_error (mt_hgrads u) k) eqn:K4; [eauto|]. apply nth_error_None in K4. apply Forall2_len in M14. assert (k < length ls0) by (apply nth_error_Some; congruence). lia. }
    assert (K5 : nth_error (mt_hgrads u') k = Some (acc_next (D := Rdt) 0%R (t_iters (mt_t u) + 1) a g)).
    { rewrite M15, nth_error_map. assert (X : nth_error (combine (mt_hgrads u) hg) k = Some (a, g)); [|now rewrite X].
      clear -K3 K4. revert hg k K3 K4. induction (mt_hgrads u) as [|p ps IH]; intros [|v vs] [|k] K3 K4; cbn in *; try discriminate; [congruence|]. now apply IH. }
    destruct (M9 k l _ l' K1 K5 K2) as [C1 C2]. split; [exact C1|]. intros i j Hi' Hj. rewrite (C2 i j Hi' Hj).
    destruct (Forall2_nth _ _ _ M14 k l a K1 K4) as [L1 L2]. unfold acc_next, mixed. rewrite at_mk by (rewrite ?L1, ?L2; assumption).
    unfold mom_u, mom_v. rewrite Hmu', M5, Hit. rewrite Z.add_0_l.
    replace (Z.of_nat (length gs) + 1 - 1)%Z with (Z.of_nat (length gs)) by lia. rewrite Z.div_small by lia.
    cbn [dsub dmul dadd ddiv dofZ Rdt]. unfold T. rewrite INR_IZR_INZ. replace (Z.of_nat (S (length gs))) with (Z.of_nat (length gs) + 1)%Z by lia.
    assert (IZR (Z.of_nat (length gs) + 1) <> 0)%R by (apply not_0_IZR; lia). toR. field. assumption.
  - destruct M10 as [C1 C2]. split; [exact C1|]. intros i j Hi' Hj. rewrite (C2 i j Hi' Hj), M16. destruct M17 as [L1 L2].
    unfold mixed. rewrite at_mk by (rewrite ?L1, ?L2; assumption). cbn [dsub dmul dadd dofZ Rdt]. toR. ring.
Qed.

(** Compared with the plain trainer run on the same network, data and rates. *)
Theorem C42_not_plain : forall (junk : nat -> Rdt) (t0 : trainer Rdt) n H t data gs u m K x y n0 H0 hg og u' m' K' tp mp Kp,
  t_iters t0 = 0%Z -> dense_hidden n H -> initmomentum t0 (0%R : Rdt) n H = Ok t ->
  mom_run junk (t, n, H) data gs (u, m, K) ->
  gradients junk (mt_t u) m K x y n0 H0 hg og -> momentum_feeddata junk u m K x y = Ok (u', m', K') ->
  feeddata junk (mt_t u) m K x y = Ok (tp, mp, Kp) ->
  exists ls0 ls' lsp, hidden_layers n0 H0 = Ok ls0 /\ hidden_layers m' K' = Ok ls' /\ hidden_layers mp Kp = Ok lsp /\ length ls' = length ls0 /\ length lsp = length ls0 /\ length hg = length ls0 /\
    (forall i j, i < nr (l_W (o_l (n_output n0))) -> j < nc (l_W (o_l (n_output n0))) -> at_ (l_W (o_l (n_output m'))) i j = at_ (l_W (o_l (n_output mp))) i j) /\
    forall k l g l' lp, nth_error ls0 k = Some l -> nth_error hg k = Some g -> nth_error ls' k = Some l' -> nth_error lsp k = Some lp ->
      forall i j, i < nr (l_W l) -> j < nc (l_W l) ->
        (gs = [] -> at_ (l_W l') i j = at_ (l_W lp) i j) /\
        (gs <> [] -> l_lrate l <> 0%R -> at_ g i j <> 0%R -> at_ (l_W l') i j <> at_ (l_W lp) i j).
Proof.
  intros junk t0 n H t data gs u m K x y n0 H0 hg og u' m' K' tp mp Kp Hit Hd Hi HR HG HT HP.
  destruct (C42_zero junk t0 n H t data gs u m K x y n0 H0 hg og u' m' K' Hit Hd Hi HR HG HT) as (ls0 & ls' & Z1 & Z2 & Z3 & Z4 & Z5 & Z6).
  pose proof (run_keeps junk _ n H t0 t Hi Hd _ _ _ HR) as (Hdm & _).
  destruct (C33_trainer junk (mt_t u) m K x y tp mp Kp Hdm HP) as (m0 & K0 & a & n1 & H1 & n2 & H2 & ls & lsa & ls2 & lsp & Y1 & _ & Y2 & Y3 & Y4 & Y5 & Y6 & Y7 & Y8 & Y9 & Y10 & Y11 & Y12 & Y13 & _).
  destruct HG as (G1 & a' & n1' & H1' & n2' & H2' & ls2' & G2 & G3 & G4 & G5 & G6).
  pose proof (eq_trans (eq_sym Y1) G1) as X. injection X as -> ->. pose proof (eq_trans (eq_sym Y6) G2) as X. injection X as -> -> ->.
  pose proof (eq_trans (eq_sym Y7) G3) as X. injection X as -> ->. pose proof (eq_trans (eq_sym Y8) G4) as X. injection X as ->.
  pose proof (eq_trans (eq_sym Y3) Z1) as X. injection X as ->. apply Forall2_len in Y4.
  exists ls0, ls', lsp. split; [assumption|]. split; [assumption|]. split; [assumption|]. split; [assumption|]. split; [lia|]. split; [assumption|]. split.
  - intros i j Hi' Hj. destruct Z6 as [_ Z6]. rewrite (Z6 i j Hi' Hj). destruct Y13 as [_ Y13]. rewrite (Y13 i j Hi' Hj), G6. reflexivity.
  - intros k l g l' lp K1 K2 K3 K4 i j Hi' Hj. destruct (Z5 k l g l' K1 K2 K3) as [_ Z7]. rewrite (Z7 i j Hi' Hj).
    rewrite G5, nth_error_map in K2. destruct (nth_error ls2' k) as [l2|] eqn:K5; [|discriminate]. injection K2 as <-.
    destruct (Y12 k l l2 lp K1 K5 K4) as [[_ V] _]. rewrite (V i j Hi' Hj). cbn [dsub dmul Rdt]. split.
    + intros ->. cbn [length INR]. toR. field.
    + intros Hgs Hl Hg. intros E. destruct gs as [|g0 gs]; [contradiction|]. cbn [length] in E. rewrite 2!S_INR in E. pose proof (pos_INR (length gs)) as Pos.
      assert (E2 : (l_lrate l * at_ (l_grad l2) i j * (1 - / (INR (length gs) + 1 + 1)) = 0)%R) by (unfold Rdiv in E; lra).
      apply Rmult_integral in E2 as [E2|E2]; [apply Rmult_integral in E2 as [E2|E2]; contradiction|].
      assert (/ (INR (length gs) + 1 + 1) < 1)%R by (rewrite <- Rinv_1; apply Rinv_lt_contravar; lra). lra.
Qed.

(** ** The hypotheses can be met *)
(** A real-valued network: one input, two hidden units, one output; two calls have been made, a third one follows. *)
Definition rm (r c : nat) (l : list R) : mat Rdt := Mat (D := Rdt) r c l.
Definition rl (W : mat Rdt) : layer Rdt := L (D := Rdt) 1%R 0%R identity mempty mempty mempty mempty W mempty.
Definition exrn : net Rdt := N (D := Rdt) mempty quad_cost quad_costd (rl mempty) [0] (O (rl (rm 3 1 [1; 2; -3]%R)) quad_cost quad_costd mempty).
Definition exrH : lheap Rdt := [HDense (rl (rm 2 2 [1; 2; 1; -1]%R))].
Definition exrx : mat Rdt := rm 2 1 [1; 2]%R.
Definition exry : mat Rdt := rm 2 1 [5; -3]%R.
Example exr_well_sized : well_sized exrn exrH 1 1.
Proof.
  split; [|split; [|split]].
  - split; [repeat constructor; intros []|]. intros p [<-|[]]. eexists. reflexivity.
  - exists [rl (rm 2 2 [1; 2; 1; -1]%R)]. split; [reflexivity|]. exists 2. cbn. repeat split; lia.
  - left. reflexivity.
  - left. reflexivity.
Qed.
Example exr_run (junk : nat -> Rdt) (mu : R) : exists t gs u m K n0 H0 hg og u' m' K' tp mp Kp,
  initmomentum trainer_new (mu : Rdt) exrn exrH = Ok t /\ mom_run junk (t, exrn, exrH) [(exrx, exry); (exrx, exry)] gs (u, m, K) /\ length gs = 2 /\
  gradients junk (mt_t u) m K exrx exry n0 H0 hg og /\ momentum_feeddata junk u m K exrx exry = Ok (u', m', K') /\ feeddata junk (mt_t u) m K exrx exry = Ok (tp, mp, Kp).
Proof.
  destruct (C56_momentum junk 1 1 [] trainer_new (mu : Rdt) exrn exrH) as (t & _ & _ & _ & Et & _); [lia|apply exr_well_sized|constructor|].
  assert (S : samples (D := Rdt) 1 1 (exrx, exry)) by (repeat split; cbn; lia).
  destruct (mom_runs junk 1 1 trainer_new (mu : Rdt) exrn exrH t) with (data := [(exrx, exry); (exrx, exry)]) as (gs & u & m & K & ls & R1 & R2 & R3 & R4 & R5); [lia|apply exr_well_sized|assumption|auto|].
  destruct (mom_ok junk 1 1 u m K exrx exry ls) as (u' & m' & K' & ls' & E1 & _); auto.
  destruct (mom_step junk u m K exrx exry u' m' K' ls) as (n0 & H0 & hg & og & l0 & l' & Z1 & _); [eapply dense_net_hidden, R3|apply hidden_layers_dense, R3|assumption|assumption|assumption|].
  destruct (decay_ok (tick (mt_t u)) m K ls 1 1 R3) as (n1 & H1 & ls1 & D1 & D2 & _).
  destruct (step_ok junk n1 H1 ls1 1 1 exrx exry D2) as (n2 & H2 & ls2 & D3 & _); [lia|assumption|].
  exists t, gs, u, m, K, n0, H0, hg, og, u', m', K', (tick (mt_t u)), n2, H2. repeat (split; [assumption|]). unfold feeddata. rewrite D1. cbn [bind]. rewrite D3. reflexivity.
Qed.
(** With computable scalars: momentum 0 agrees with the plain trainer in the first call and not in the second. *)
Definition hid00 (n : net Zdt) (H : lheap Zdt) : Z := match hidden_layers n H with Ok [l] => at_ (l_W l) 0 0 | _ => 0%Z end.
Example ex_zero : match initmomentum (D := Zdt) trainer_new 0%Z exn exH with
  | Ok t => match momentum_feeddata (D := Zdt) exj t exn exH exx exy, feeddata (D := Zdt) exj trainer_new exn exH exx exy with
     | Ok (t1, n1, H1), Ok (_, p1, K1) => (hid00 n1 H1 =? hid00 p1 K1)%Z &&
        match momentum_feeddata (D := Zdt) exj t1 n1 H1 exx exy, feeddata (D := Zdt) exj (mt_t t1) n1 H1 exx exy with
        | Ok (_, n2, H2), Ok (_, p2, K2) => negb (hid00 n2 H2 =? hid00 p2 K2)%Z
        | _, _ => false end
     | _, _ => false end
  | _ => false end = true.
Proof. vm_compute. reflexivity. Qed.

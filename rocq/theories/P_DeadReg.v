(** P_DeadReg.v - C77 with regularisation: a rectifier unit of the first hidden layer that is off on all the training samples. *)
From Verif Require Import Base Mat Act Layer Conv Misc Net NetP RInst RMat Trainer TrainP TrainP2 ExNet P_Train P_Decay P_Mom FunEq ConfEq World Session SessP InvP P_Sym P_Dead InvR P_Bound.
From Coq Require Import Arith List ZArith Lia Reals Lra.
Import ListNotations.
Local Open Scope nat_scope.

(** The rates are non-negative and below 1 / lambda, and so is the rate a decay would set. *)
Definition gently (d : option (R * R * Z)) (l : layer Rdt) : Prop :=
  (0 <= l_lambda l)%R /\ (0 <= l_lrate l)%R /\ (l_lrate l * l_lambda l < 1)%R /\ forall e, decayed_rate d e -> (0 <= e)%R /\ (e * l_lambda l < 1)%R.

Lemma input_scaled (w w0 : mat Rdt) p (x : mat Rdt) r (s : R) : nr w = nr w0 -> nc x + 1 = nr w0 -> (forall i, i < nr w0 -> at_ w i p = (s * at_ w0 i p)%R) ->
  net_input w p x r = (s * net_input w0 p x r)%R.
Proof.
  intros _ Ex C. unfold net_input. rewrite (C 0) by lia. rewrite Rmult_plus_distr_l. f_equal. rewrite <- sumN_scal. apply sumN_ext. intros j Hj. rewrite (C (S j)) by lia. cbn. ring.
Qed.
Lemma relu_off (z : R) : (z < 0)%R -> actd (relu (D := Rdt)) z = 0%R /\ act (relu (D := Rdt)) z = 0%R.
Proof. intros Hz. unfold relu, initactfunc. cbn [act actd]. unfold f_relugrad, f_relu, lit. cbn [dleb Rdt dofZ]. unfold Rleb'. destruct (Rle_dec 0 z); [lra|split; reflexivity]. Qed.

Section DeadReg.
Context (p : nat) (l0 : layer Rdt) (okr : R -> Prop).
Notation mat := (mat Rdt).
Notation layer := (layer Rdt).
(** Layer 0 has kept its activation; column p is a positive multiple s of what it was; there is a next layer. *)
Definition Pr (T : R -> Prop) (c : list layer) : Prop :=
  exists l l' s, nth_error c 0 = Some l /\ nth_error c 1 = Some l' /\ l_act l = relu /\ l_lambda l = l_lambda l0 /\ okr (l_lrate l) /\ nr (l_W l) = nr (l_W l0) /\ nc (l_W l) = nc (l_W l0) /\
    p < nc (l_W l) /\ T s /\ forall i, i < nr (l_W l) -> at_ (l_W l) i p = (s * at_ (l_W l0) i p)%R.
Definition Gr (i : nat) (l : layer) : Prop := i = 0 -> p < nc (l_W l) -> forall a, a < nr (l_W l) -> at_ (l_grad l) a p = (l_lambda l * at_ (l_W l) a p)%R.
Definition Dr (x y : mat) : Prop := off_on (l_W l0) p x.

Lemma dr_row x y i xi yi : Dr x y -> mrow x i = Ok xi -> mrow y i = Ok yi -> Dr xi yi.
Proof.
  intros [A B] E _. unfold mrow in E. destruct (i <? nr x) eqn:L; [|discriminate]. apply Nat.ltb_lt in L. injection E as <-. split; [exact A|]. intros r Hr. cbn [nr mk] in Hr. unfold net_input. cbn [nc mk].
  erewrite sumN_ext; [apply (B i L)|]. intros j Hj. cbn beta. now rewrite at_mk by lia.
Qed.
Lemma dr_rows (x : mat) : off_on (l_W l0) p x -> rows_in (D := Rdt) (fun row => (at_ (l_W l0) 0 p + sumN (length row) (fun j => at_ (l_W l0) (S j) p * nth j row 0%R) < 0)%R) x.
Proof.
  intros [_ B] r Hr. specialize (B r Hr). unfold net_input in B. unfold row_list. rewrite map_length, seq_length. erewrite sumN_ext; [exact B|]. intros j Hj. cbn beta. f_equal.
  rewrite (nth_indep _ 0%R (at_ x r 0)) by (rewrite map_length, seq_length; assumption). rewrite (map_nth (at_ x r)). rewrite seq_nth by assumption. reflexivity.
Qed.
Lemma rows_dr (x : mat) : nc x + 1 = nr (l_W l0) -> rows_in (D := Rdt) (fun row => (at_ (l_W l0) 0 p + sumN (length row) (fun j => at_ (l_W l0) (S j) p * nth j row 0%R) < 0)%R) x -> off_on (l_W l0) p x.
Proof.
  intros E B. split; [exact E|]. intros r Hr. specialize (B r Hr). unfold net_input. unfold row_list in B. rewrite map_length, seq_length in B. erewrite sumN_ext; [exact B|]. intros j Hj. cbn beta. f_equal.
  rewrite (nth_indep _ 0%R (at_ x r 0)) by (rewrite map_length, seq_length; assumption). rewrite (map_nth (at_ x r)). rewrite seq_nth by assumption. reflexivity.
Qed.
Lemma wrap_nc (x : mat) b tx : wrap_rows x b = Ok tx -> nc tx = nc x.
Proof.
  unfold wrap_rows. repeat match goal with |- context [if ?c then _ else _] => destruct c end; intros E; try discriminate; try (injection E as <-; reflexivity);
  repeat (apply bind_ok in E as (? & ? & E)); unfold insert_rows in E; destruct (_ && _) in E; try discriminate; injection E as <-; reflexivity.
Qed.
Lemma mrows_nc (x : mat) a b xb : mrows x a b = Ok xb -> nc xb = nc x.
Proof. unfold mrows. destruct (_ && _); [|discriminate]. intros E. injection E as <-. reflexivity. Qed.
Lemma dr_batch x y b tx ty i j xb yb : Dr x y -> wrap_rows x b = Ok tx -> wrap_rows y b = Ok ty -> mrows tx i j = Ok xb -> mrows ty i j = Ok yb -> Dr xb yb.
Proof.
  intros A W _ M _. apply rows_dr; [rewrite (mrows_nc _ _ _ _ M), (wrap_nc _ _ _ W); apply A|]. eapply mrows_in; [eapply wrap_in; [apply dr_rows; exact A|exact W]|exact M].
Qed.
Lemma dr_kept T c c' : Pr T c -> Forall2 (keptr (D := Rdt) okr) c c' -> Pr T c'.
Proof.
  intros (l & l' & s & K1 & K2 & A) F. pose proof (Forall2_len _ _ _ F) as L.
  destruct (nth_error c' 0) as [m|] eqn:M; [|apply nth_error_None in M; assert (0 < length c) by (apply nth_error_Some; congruence); lia].
  destruct (nth_error c' 1) as [m'|] eqn:M'; [|apply nth_error_None in M'; assert (1 < length c) by (apply nth_error_Some; congruence); lia].
  destruct (Forall2_nth _ _ _ F _ _ _ K1 M) as [(W1 & W2 & W3) W4]. exists m, m', s. rewrite W1, W2, W3. destruct A as (A1 & A2 & A3 & A4). split; [exact M|]. split; [exact M'|]. split; [exact A1|]. split; [exact A2|]. split; [destruct W4 as [-> | W4]; assumption|]. exact A4.
Qed.
Lemma dr_pass (T : R -> Prop) (cd : costdfun (D := Rdt)) ls (o : layer) x y b ls1 delta dx ls2 : (forall s, T s -> (0 < s)%R) -> Pr T (ls ++ [o]) -> Dr x y ->
  lforward ls x = Ok (b, ls1) -> cd y (fwd_out o b) (l_z (fwd_layer o b)) = Ok delta -> fwd_ok (l_W o) b -> nr delta = nr b -> nc delta = nc (l_W o) ->
  lbackprop ls1 (down (fwd_layer o b) delta) = Ok (dx, ls2) ->
  forall i l, nth_error (ls2 ++ [back_layer (fwd_layer o b) delta]) i = Some l -> Gr i l.
Proof.
  intros HT (l & l' & s & Kl & Kl' & A & La & Ro & N1 & N2 & Hp & Hs & C) HQ HF _ HO E1 E2 HB. destruct (chain_pass _ _ _ _ _ _ _ _ HF HO E1 E2 HB) as (xs & dl & X0 & _ & X).
  destruct (X 0 l Kl) as ((F1 & F2 & F3) & A1 & A2 & A3 & A4 & A5). destruct (A5 l' Kl') as [A6 A7]. destruct (X 1 l' Kl') as (_ & _ & B2 & B3 & B4 & _). clear X A5. rewrite X0 in *.
  assert (NR : nr (xs 1) = nr x) by (rewrite A1; reflexivity).
  assert (Dl : forall i, i < nr (dl 0) -> at_ (dl 0) i p = 0%R).
  { intros i Hi. assert (Hx : i < nr x) by lia. rewrite A7. unfold back_delta. rewrite at_mk by (cbn [down nr nc mk fwd_layer l_W]; lia). cbn [fwd_layer l_act l_z]. rewrite at_mk by lia.
    rewrite pre_R by lia. assert (Z : (s * net_input (l_W l0) p x i)%R = (at_ (l_W l) 0 p + sumN (nc x) (fun k => at_ x i k * at_ (l_W l) (S k) p))%R).
    { rewrite <- (input_scaled (l_W l) (l_W l0) p x i s); [|assumption|lia|intros q Hq; apply C; lia]. unfold net_input. f_equal. apply sumN_ext. intros k Hk. apply Rmult_comm. }
    rewrite <- Z, A. destruct HQ as [_ HQ]. specialize (HQ i Hx). destruct (relu_off (s * net_input (l_W l0) p x i)%R) as [F _]. { pose proof (HT s Hs) as Hs0. revert HQ Hs0. generalize (net_input (l_W l0) p x i). clear. intros z Hz Hs0. pose proof (Rmult_lt_compat_l s z 0 Hs0 Hz). lra. }
    rewrite F. cbn. apply Rmult_0_r. }
  intros i m Km ->. rewrite A4 in Km. injection Km as <-. cbn [back_layer l_grad l_W l_lambda fwd_layer]. intros Hq a Ha. unfold grad_of. cbn [fwd_layer l_pa l_lambda l_W nc mk nr] in *. rewrite at_mk by (cbn; lia). cbn [fwd_layer l_pa l_lambda l_W nc mk nr] in *.
  unfold raw_grad. cbn [l_pa]. rewrite at_mk by (cbn; lia). rewrite mdot_R. rewrite sumN_zero. { cbn. lra. }
  cbn [mt nc mk nr]. intros r Hr. cbn [fwd_layer l_pa nr mk] in Hr. rewrite Dl by lia. apply Rmult_0_r.
Qed.
Lemma dr_step (T T' : R -> Prop) c : (forall s e, T s -> okr e -> T' (s * (1 - e * l_lambda l0))%R) -> Pr T c -> Forall (gsized (D := Rdt)) c -> (forall i l, nth_error c i = Some l -> Gr i l) -> Pr T' (map (stepped (D := Rdt)) c).
Proof.
  intros HT (l & l' & s & K1 & K2 & A & B & Ro & N1 & N2 & Hp & Hs & C) F HG.
  exists (stepped l), (stepped l'), (s * (1 - l_lrate l * l_lambda l0))%R. rewrite !nth_error_map, K1, K2. split; [reflexivity|]. split; [reflexivity|]. unfold stepped. cbn [set_W l_W l_act l_lambda l_lrate nr nc mk]. repeat (split; [first [assumption|apply HT; assumption]|]).
  intros i Hi. rewrite at_mk by assumption. rewrite (HG 0 l K1 eq_refl) by assumption. rewrite B, C by assumption. cbn. ring.
Qed.
End DeadReg.

Section Run.
Context (junk : nat -> Rdt) (p : nat) (l0 : layer Rdt) (okr : R -> Prop).
Lemma start_pr (n : net Rdt) (H : lheap Rdt) ls (T : R -> Prop) : dense_net n H ls -> nth_error ls 0 = Some l0 -> l_act l0 = relu -> okr (l_lrate l0) -> p < nc (l_W l0) -> T 1%R -> Pr p l0 okr T (ls ++ [o_l (n_output n)]).
Proof.
  intros Hn K0 Ha Ho Hp HT. destruct ls as [|l ls]; [discriminate|]. cbn in K0. injection K0 as ->.
  assert (X : exists l', nth_error ((l0 :: ls) ++ [o_l (n_output n)]) 1 = Some l') by (destruct ls; cbn; eauto). destruct X as [l' X]. exists l0, l', 1%R. split; [reflexivity|]. split; [exact X|].
  repeat (split; [first [reflexivity|assumption]|]). intros i Hi. symmetry. apply Rmult_1_l.
Qed.
(** One training step, with the factor it multiplies the column by. *)
Lemma step_pr (T T' : R -> Prop) (n : net Rdt) (H : lheap Rdt) x y n' H' : (forall s, T s -> (0 < s)%R) -> (forall s e, T s -> okr e -> T' (s * (1 - e * l_lambda l0))%R) ->
  (exists ls, dense_net n H ls /\ Pr p l0 okr T (ls ++ [o_l (n_output n)])) -> off_on (l_W l0) p x -> train_step junk n H x y = Ok (n', H') ->
  exists ls, dense_net n' H' ls /\ Pr p l0 okr T' (ls ++ [o_l (n_output n')]).
Proof.
  intros HT HT' (ls & Hd & HP) HQ E. unfold train_step in E. apply bind_ok in E as ([[a n1] H1] & HF & E). apply bind_ok in E as ([n2 H2] & HB & HU).
  destruct (pass_dense (D := Rdt) junk n H ls x y a n1 H1 n2 H2 Hd HF HB) as (b & ls1 & delta & ls2 & dx & P1 & P2 & P3 & P4 & P5 & P6 & P7 & P8 & P9 & P10 & P11 & P12 & P13).
  destruct (net_update_dense n2 H2 ls2 n' H' P9 HU) as (G1 & G2 & -> & ->).
  assert (Hd' : dense_at (put_layers (n_hidden n2) (map stepped ls2) H2) (n_hidden n2) (map stepped ls2)). { eapply dense_put; [exact P9|]. apply map_length. }
  exists (map stepped ls2). split; [split; [apply P9|exact Hd']|]. cbn [set_output n_output with_layer o_l].
  set (c2 := ls2 ++ [o_l (n_output n2)]). assert (HP2 : Pr p l0 okr T c2).
  { eapply dr_kept; [exact HP|]. subst c2. apply Forall2_app; [|constructor; [rewrite P10; split; [repeat split; reflexivity|now left]|constructor]].
    pose proof (passes_form _ _ _ _ P1 _ _ _ P7) as Z. clear -Z. induction Z as [|l l' ? ? (_ & A & B & C & E) Z IH]; constructor; auto. split; [repeat split; assumption|now left]. }
  change [stepped (o_l (n_output n2))] with (map (stepped (D := Rdt)) [o_l (n_output n2)]). rewrite <- map_app. fold c2. eapply dr_step; [exact HT'|exact HP2| |].
  - subst c2. apply Forall_app. split; [assumption|constructor; [assumption|constructor]].
  - intros i l El. subst c2. rewrite P10 in El. rewrite P3 in P4. exact (dr_pass p l0 okr T (o_costd (n_output n)) ls _ x y b ls1 delta dx ls2 HT HP HQ P1 P4 P2 P5 P6 P7 i l El).
Qed.
Lemma end_pr (T : R -> Prop) (n : net Rdt) (H : lheap Rdt) : (exists ls, dense_net n H ls /\ Pr p l0 okr T (ls ++ [o_l (n_output n)])) ->
  exists l' s, net_gethidden n H 0 = Ok l' /\ l_act l' = relu /\ l_lambda l' = l_lambda l0 /\ okr (l_lrate l') /\ nr (l_W l') = nr (l_W l0) /\ nc (l_W l') = nc (l_W l0) /\ T s /\ forall i, i < nr (l_W l0) -> at_ (l_W l') i p = (s * at_ (l_W l0) i p)%R.
Proof.
  intros (ls & Hn & m & m' & s & K & K' & A & B & Ro & N1 & N2 & Hp & Hs & C).
  assert (len : length ls >= 1). { assert (X : 1 < length (ls ++ [o_l (n_output n)])) by (apply nth_error_Some; congruence). rewrite app_length in X. cbn in X. lia. }
  rewrite nth_error_app1 in K by lia. exists m, s. split; [rewrite (gethidden_at n H ls) by apply Hn; now rewrite K|]. repeat (split; [assumption|]). intros i Hi. apply C. lia.
Qed.
End Run.

(** ** C77, regularised *)
(** While the rates stay below 1/lambda, the plain, SGD and batch trainers only shrink the bias and the incoming weights of the unit,
    all by one positive factor (a power of 1 - lrate*lambda when there is no decay): the unit stays off on all the samples. *)
Theorem C77_regularised : forall (junk : nat -> Rdt) cs (data : list (mat Rdt * mat Rdt * bool)) (n : net Rdt) (H : lheap Rdt) l p kd kd' n' H',
  no_momentum cs -> dense_hidden n H -> net_gethidden n H 0 = Ok l -> l_act l = relu -> gently (decay_of cs) l -> p < nc (l_W l) ->
  Forall (fun d => off_on (l_W l) p (fst (fst d))) data ->
  new_bound cs n H = Ok kd -> feeds junk data (kd, n, H) = Ok (kd', n', H') ->
  exists l' s, net_gethidden n' H' 0 = Ok l' /\ l_act l' = relu /\ (0 < s <= 1)%R /\
    (decay_of cs = None -> exists m : nat, s = ((1 - l_lrate l * l_lambda l) ^ m)%R) /\
    (forall i, i < nr (l_W l) -> at_ (l_W l') i p = (s * at_ (l_W l) i p)%R) /\
    Forall (fun d => off_on (l_W l') p (fst (fst d)) /\ forall r, r < nr (fst (fst d)) -> act (l_act l') (net_input (l_W l') p (fst (fst d)) r) = 0%R) data.
Proof.
  intros junk cs data n H l p kd kd' n' H' NM Hd HL HR (Hla & Hr0 & Hr1 & Hde) Hp HA HN HF. destruct (dense_ls n H Hd) as [ls Hn].
  assert (K0 : nth_error ls 0 = Some l). { rewrite (gethidden_at n H ls) in HL by apply Hn. destruct (nth_error ls 0); congruence. }
  set (okr := fun e : R => (0 <= e)%R /\ (e * l_lambda l < 1)%R /\ (decay_of cs = None -> e = l_lrate l)).
  set (T := fun s : R => (0 < s <= 1)%R /\ (decay_of cs = None -> exists m : nat, s = ((1 - l_lrate l * l_lambda l) ^ m)%R)).
  assert (TP : forall s, T s -> (0 < s)%R) by (intros s [? _]; lra).
  assert (TS : forall s e, T s -> okr e -> T (s * (1 - e * l_lambda l))%R).
  { intros s e [A B] (C & E & F). split.
    - assert (0 <= e * l_lambda l)%R by (apply Rmult_le_pos; assumption). split; [apply Rmult_lt_0_compat; lra|]. rewrite <- (Rmult_1_r 1). apply Rmult_le_compat; lra.
    - intros Z. destruct (B Z) as [m Em]. exists (S m). rewrite (F Z), Em. cbn. ring. }
  assert (TK : tokr (D := Rdt) okr kd).
  { assert (TT : forall d0, decay_of cs = d0 -> trok (D := Rdt) okr (base_of (D := Rdt) d0)).
    { intros d0 E. destruct d0 as [[[r0 k] st]|]; cbn [base_of]; [|intros Z; discriminate Z]. intros _. cbn [trainer_new_decay t_r0 t_k t_step]. change (okr (r0 * exp (- k * IZR st))%R). rewrite E in Hde. destruct (Hde _ eq_refl) as [A B]. split; [exact A|]. split; [exact B|]. intros Z. congruence. }
    destruct cs as [q|q|b q|mu q]; cbn [new_bound] in HN; try injection HN as <-; cbn [tokr]; try (apply TT; reflexivity). destruct NM. }
  destruct (feeds_invr (D := Rdt) junk (Pr p l okr T) (Gr p) (Dr p l) (o_costd (n_output n)) okr (dr_row p l) (dr_batch p l) (dr_kept p l okr T)
    (fun ls o x y b ls1 delta dx ls2 => dr_pass p l okr T (o_costd (n_output n)) ls o x y b ls1 delta dx ls2 TP) (fun c => dr_step p l okr T T c TS) data kd n H kd' n' H' TK) as [(_ & X) _].
  - split; [reflexivity|]. exists ls. split; [assumption|]. apply (start_pr p l okr n H ls T); try assumption; [split; [exact Hr0|split; [exact Hr1|auto]]|split; [lra|intros _; exists 0; reflexivity]].
  - exact HA.
  - exact HF.
  - apply end_pr in X as (l' & s & A & B & _ & _ & N1 & _ & [S1 S2] & C). exists l', s. repeat (split; [assumption|]). eapply Forall_impl; [|exact HA]. intros d [O1 O2].
    assert (Z : forall r, r < nr (fst (fst d)) -> (net_input (l_W l') p (fst (fst d)) r < 0)%R).
    { intros r Hr. rewrite (input_scaled (l_W l') (l_W l) p _ r s) by assumption. specialize (O2 r Hr). revert O2. generalize (net_input (l_W l) p (fst (fst d)) r). clear -S1. intros z Hz. pose proof (Rmult_lt_compat_l s z 0 (proj1 S1) Hz). lra. }
    split; [split; [congruence|exact Z]|]. intros r Hr. rewrite B. apply relu_off. apply Z. exact Hr.
Qed.

(** The exact count for Trainer without decay: k calls multiply the column by (1 - lrate*lambda)^k. *)
Theorem C77_shrinks : forall (junk : nat -> Rdt) (data : list (mat Rdt * mat Rdt)) (n : net Rdt) (H : lheap Rdt) l p t' n' H',
  dense_hidden n H -> net_gethidden n H 0 = Ok l -> l_act l = relu -> (0 <= l_lrate l * l_lambda l < 1)%R -> p < nc (l_W l) ->
  Forall (fun d => off_on (l_W l) p (fst d)) data ->
  foldM (fun '(t, n, H) d => feeddata junk t n H (fst d) (snd d)) data (trainer_new (D := Rdt), n, H) = Ok (t', n', H') ->
  exists l', net_gethidden n' H' 0 = Ok l' /\ forall i, i < nr (l_W l) -> at_ (l_W l') i p = ((1 - l_lrate l * l_lambda l) ^ length data * at_ (l_W l) i p)%R.
Proof.
  intros junk data n H l p t' n' H' Hd HL HR Hg Hp HA HF. destruct (dense_ls n H Hd) as [ls Hn].
  assert (K0 : nth_error ls 0 = Some l). { rewrite (gethidden_at n H ls) in HL by apply Hn. destruct (nth_error ls 0); congruence. }
  set (q := (1 - l_lrate l * l_lambda l)%R) in *. assert (Q0 : (0 < q)%R) by (unfold q; lra).
  assert (X : forall data k t n H, t_usedecay t = false -> Forall (fun d => off_on (l_W l) p (fst d)) data -> (exists ls, dense_net n H ls /\ Pr p l (fun e => e = l_lrate l) (fun s => s = (q ^ k)%R) (ls ++ [o_l (n_output n)])) ->
     foldM (fun '(t, n, H) d => feeddata junk t n H (fst d) (snd d)) data (t, n, H) = Ok (t', n', H') -> exists ls, dense_net n' H' ls /\ Pr p l (fun e => e = l_lrate l) (fun s => s = (q ^ (length data + k))%R) (ls ++ [o_l (n_output n')])).
  { clear -Q0. induction data as [|[x y] data IH]; intros k t n H Ht HA HP E; cbn [foldM] in E; [injection E as <- <- <-; exact HP|]. apply bind_ok in E as ([[t1 n1] H1] & E1 & E). inversion HA as [|? ? A1 A2]; subst. cbn [fst snd] in *.
    unfold feeddata in E1. apply bind_ok in E1 as ([n2 H2] & D1 & E1). apply bind_ok in E1 as ([n3 H3] & E3 & E1). injection E1 as <- <- <-.
    unfold decay in D1. cbn [tick t_usedecay] in D1. rewrite Ht in D1. cbn [andb] in D1. injection D1 as <- <-.
    cbn [length]. replace (S (length data) + k) with (length data + S k) by lia. eapply (IH (S k)); [| |eapply (step_pr junk p l (fun e => e = l_lrate l) (fun s => s = (q ^ k)%R) (fun s => s = (q ^ S k)%R)); [| |exact HP|exact A1|exact E3]|exact E]; auto.
    - intros s ->. now apply pow_lt.
    - intros s e -> ->. fold q. cbn. ring. }
  specialize (X data 0 (trainer_new (D := Rdt)) n H eq_refl HA). rewrite Nat.add_0_r in X. apply end_pr in X as (l' & s & A & _ & _ & _ & _ & _ & -> & C); [|exists ls; split; [assumption|]; apply (start_pr p l (fun e => e = l_lrate l) n H ls); auto|exact HF].
  exists l'. split; [exact A|exact C].
Qed.

(** One call, whatever the rate: with lrate*lambda = 1 the unit is wiped to 0, where the rectifier's gradient is 1 again; beyond 1 the
    unit changes sign and is on for all the samples. *)
Theorem C77_revived : forall (junk : nat -> Rdt) (x y : mat Rdt) (n : net Rdt) (H : lheap Rdt) l p t' n' H',
  dense_hidden n H -> net_gethidden n H 0 = Ok l -> l_act l = relu -> p < nc (l_W l) -> off_on (l_W l) p x ->
  feeddata junk (trainer_new (D := Rdt)) n H x y = Ok (t', n', H') ->
  exists l', net_gethidden n' H' 0 = Ok l' /\ l_act l' = relu /\ (forall i, i < nr (l_W l) -> at_ (l_W l') i p = ((1 - l_lrate l * l_lambda l) * at_ (l_W l) i p)%R) /\
    ((l_lrate l * l_lambda l = 1)%R -> forall r, r < nr x -> actd (l_act l') (net_input (l_W l') p x r) = 1%R) /\
    ((1 < l_lrate l * l_lambda l)%R -> forall r, r < nr x -> (0 < act (l_act l') (net_input (l_W l') p x r))%R /\ actd (l_act l') (net_input (l_W l') p x r) = 1%R).
Proof.
  intros junk x y n H l p t' n' H' Hd HL HR Hp HA E1. destruct (dense_ls n H Hd) as [ls Hn].
  assert (K0 : nth_error ls 0 = Some l). { rewrite (gethidden_at n H ls) in HL by apply Hn. destruct (nth_error ls 0); congruence. }
  unfold feeddata in E1. apply bind_ok in E1 as ([n2 H2] & D1 & E1). apply bind_ok in E1 as ([n3 H3] & E3 & E1). injection E1 as <- <- <-. injection D1 as <- <-.
  pose proof (step_pr junk p l (fun e => e = l_lrate l) (fun s => s = 1%R) (fun s => s = (1 - l_lrate l * l_lambda l)%R) n H x y n3 H3) as X.
  apply end_pr in X as (l' & s & A & B & _ & _ & N1 & _ & -> & C); [|intros s ->; lra|intros s e -> ->; ring|exists ls; split; [assumption|]; apply (start_pr p l (fun e => e = l_lrate l) n H ls); auto|exact HA|exact E3].
  exists l'. split; [exact A|]. split; [exact B|]. split; [exact C|].
  assert (Z : forall r, r < nr x -> net_input (l_W l') p x r = ((1 - l_lrate l * l_lambda l) * net_input (l_W l) p x r)%R) by (intros r Hr; apply input_scaled; [assumption|apply HA|exact C]).
  assert (RP : forall z : R, (0 <= z)%R -> act (relu (D := Rdt)) z = z /\ actd (relu (D := Rdt)) z = 1%R). { intros z Hz. unfold relu, initactfunc. cbn [act actd]. unfold f_relugrad, f_relu, lit. cbn [dleb Rdt dofZ]. unfold Rleb'. destruct (Rle_dec 0 z); [split; reflexivity|lra]. }
  rewrite B. split; intros Hq r Hr; rewrite (Z r Hr).
  - rewrite Hq. replace ((1 - 1) * net_input (l_W l) p x r)%R with 0%R by ring. apply (RP 0%R). lra.
  - pose proof (proj2 HA r Hr) as O. revert Hq O. generalize (net_input (l_W l) p x r), (l_lrate l * l_lambda l)%R. clear -RP. intros z k Hq Hz. assert (W : (0 < (1 - k) * z)%R). { replace ((1 - k) * z)%R with ((k - 1) * - z)%R by ring. apply Rmult_lt_0_compat; lra. }
    destruct (RP ((1 - k) * z)%R) as [E1 E2]; [lra|]. rewrite E1, E2. auto.
Qed.

(** ** The hypotheses can be met *)
(** As in C77_example, with rate 1 and lambda 1/2: two calls leave a quarter of the unit. *)
Definition dr_layer : layer Rdt := L (D := Rdt) 1%R (1 / 2)%R relu mempty mempty mempty mempty (rm 2 2 [1; 1; -9; 1]%R) mempty.
Definition dr_H : lheap Rdt := [HDense dr_layer].
Example C77_reg_example (junk : nat -> Rdt) : off_on (l_W dr_layer) 1 exrx /\ gently None dr_layer /\
  exists t' n' H', foldM (fun '(t, n, H) d => feeddata junk t n H (fst d) (snd d)) [(exrx, exry); (exrx, exry)] (trainer_new (D := Rdt), exrn, dr_H) = Ok (t', n', H') /\
  exists l', net_gethidden n' H' 0 = Ok l' /\ at_ (l_W l') 0 1 = (-9 / 4)%R /\ at_ (l_W l') 1 1 = (1 / 4)%R.
Proof.
  assert (O : off_on (l_W dr_layer) 1 exrx). { split; [reflexivity|]. intros [|[|r]] Hr; cbn in Hr; try lia; unfold net_input, sumN, sumL; cbn [exrx rm nc seq map fold_right]; unfold at_; cbn [exrx dr_layer l_W rm nc nr el nth Nat.mul Nat.add]; lra. }
  split; [exact O|]. split; [unfold gently; cbn; repeat split; try lra; destruct H|].
  assert (DH : dense_hidden exrn dr_H). { split; [repeat constructor; intros []|]. intros q [<-|[]]. eexists. reflexivity. }
  destruct (C56_trainer junk 1 1 [(exrx, exry, false); (exrx, exry, false)] trainer_new exrn dr_H) as (t' & n' & H' & E & _); [lia| |repeat constructor; cbn; lia|].
  { split; [assumption|]. split; [exists [dr_layer]; split; [reflexivity|]; exists 2; cbn; repeat split; lia|]. split; left; reflexivity. }
  assert (F : foldM (fun '(t, n, H) d => feeddata junk t n H (fst d) (snd d)) [(exrx, exry); (exrx, exry)] (trainer_new (D := Rdt), exrn, dr_H) = Ok (t', n', H')).
  { cbn [foldM fst snd] in *. apply bind_ok in E as ([[t1 n1] H1] & E1 & E). apply bind_ok in E1 as ([[[v t2] n2] H2] & E1 & X). injection X as <- <- <-. unfold feeddata_cost in E1. apply bind_ok in E1 as ([[t3 n3] H3] & E1 & X). injection X as _ <- <- <-. cbn [fst snd] in E1. rewrite E1. cbn [bind].
    apply bind_ok in E as ([[t4 n4] H4] & E2 & E). injection E as <- <- <-. apply bind_ok in E2 as ([[[w t5] n5] H5] & E2 & X). injection X as <- <- <-. unfold feeddata_cost in E2. apply bind_ok in E2 as ([[t6 n6] H6] & E2 & X). injection X as _ <- <- <-. cbn [fst snd] in E2 |- *. rewrite E2. reflexivity. }
  exists t', n', H'. split; [exact F|].
  destruct (C77_shrinks junk [(exrx, exry); (exrx, exry)] exrn dr_H dr_layer 1 t' n' H') as (l' & A & C); try reflexivity; try assumption.
  { cbn. lra. } { cbn. lia. } { repeat constructor; apply O. }
  exists l'. split; [exact A|]. split; rewrite C by (cbn; lia); cbn [length dr_layer l_lrate l_lambda l_W pow]; unfold at_; cbn [rm nr el nth Nat.mul Nat.add]; lra.
Qed.

(** P_Sum.v - C82: what training a softmax output conserves (exact arithmetic). *)
From Verif Require Import Base Mat Act Layer Conv Misc Net NetP RInst RMat Trainer TrainP TrainP2 ExNet P_Train P_Decay P_Mom FunEq ConfEq World Session SessP Grad P_Descent P_Batch InvP P_Sym P_Fix P_Cost.
From Coq Require Import Arith List ZArith Lia Reals Lra.
Import ListNotations.
Local Open Scope nat_scope.

(** ** Specification *)
(** Every row of the labels sums to s (s = 1: one-hot labels, or any distribution). *)
Definition label_rows_sum (s : R) (y : mat Rdt) : Prop := forall r, r < nr y -> row_sum y r = s.

Section Sum.
Context (junk : nat -> Rdt).
Notation mat := (mat Rdt).
Notation layer := (layer Rdt).
Notation rowl := (row_list (D := Rdt)).

Lemma row_sum_list (m : mat) r : row_sum m r = sumL (rowl m r).
Proof. reflexivity. Qed.
Lemma sums_in s y : label_rows_sum s y <-> rows_in (D := Rdt) (fun row => sumL row = s) y.
Proof. split; intros A r Hr; apply (A r Hr). Qed.

(** The softmax delta of a batch: each row sums to (1 - sum of the label row) / batch size. *)
Lemma sm_delta_sum r c h (y : mat) z delta : sm_costd y (mk (D := Rdt) r c h) z = Ok delta -> nr y = r -> nc y = c -> 1 <= c ->
  forall i, i < r -> sumN c (at_ delta i) = ((1 - row_sum y i) / INR r)%R.
Proof.
  intros E E1 E2 Hc i Hi. rewrite sm_costd_mk in E by assumption. injection E as <-.
  rewrite (sumN_ext c _ (fun j => (exp (h i j) * (1 / sumN c (fun k => exp (h i k))) - at_ y i j) / INR r)%R) by (intros j Hj; now rewrite at_mk).
  unfold Rdiv at 1. rewrite sumN_scal_r. rewrite sumN_minus, sumN_scal_r. unfold row_sum. rewrite E2.
  assert (P : (0 < sumN c (fun k => exp (h i k)))%R) by (apply sumN_pos; [assumption|intros; apply exp_pos]). unfold Rdiv. f_equal. unfold Rminus. rewrite Rmult_1_l, Rinv_r by lra. reflexivity.
Qed.

Lemma sm_costd_size y (a : mat) z d : sm_costd y a z = Ok d -> nr a = nr y /\ nc a = nc y /\ nr d = nr y /\ nc d = nc y.
Proof.
  unfold sm_costd, softmax_P, mschur, msub. intros E. apply bind_ok in E as (P & E1 & E). apply bind_ok in E as (d' & E2 & E). injection E as <-.
  apply mzip_dims in E1 as (_ & _ & A & B & _). apply mzip_dims in E2 as (C & E & A' & B' & _). cbn [exponential mmap nr nc mk divs] in *. repeat split; congruence.
Qed.

(** *** Labels that sum to 1: the invariant *)
Context (K : nat) (W0 : mat).
Definition Ps (c : list layer) : Prop := length c = S K /\ exists o, nth_error c K = Some o /\ l_lambda o = 0%R /\ nr (l_W o) = nr W0 /\ nc (l_W o) = nc W0 /\ forall i, i < nr W0 -> row_sum (l_W o) i = row_sum W0 i.
Definition Gs (i : nat) (g : mat) : Prop := i = K -> forall a, a < nr g -> row_sum g a = 0%R.

(** Row sums of an output layer's gradient under the softmax delta. *)
Lemma grad_row_sum (o : layer) b y delta s : sm_costd y (fwd_out o b) (l_z (fwd_layer o b)) = Ok delta -> fwd_ok (l_W o) b -> label_rows_sum s y -> 1 <= nc (l_W o) ->
  forall a, a < nr (l_W o) -> row_sum (l_grad (back_layer (fwd_layer o b) delta)) a =
    ((1 - s) * (sumN (nr b) (fun k => with_bias b k a) / INR (nr b)) + l_lambda o * row_sum (l_W o) a)%R.
Proof.
  intros HC (F1 & F2 & F3) HS HN a Ha. destruct (sm_costd_size _ _ _ _ HC) as (Y1 & Y2 & Y3 & Y4). cbn [fwd_out nr nc mk] in Y1, Y2.
  cbn [back_layer l_grad]. unfold grad_of, row_sum at 1. cbn [fwd_layer l_pa l_lambda l_W nc nr mk]. rewrite Y4, <- Y2.
  rewrite (sumN_ext _ _ (fun j => sumN (nr b) (fun k => with_bias b k a * at_ delta k j) + l_lambda o * at_ (l_W o) a j)%R).
  - rewrite sumN_plus, sumN_scal. f_equal. rewrite sumN_swap. unfold Rdiv. rewrite <- Rmult_assoc, <- sumN_scal, <- sumN_scal_r. apply sumN_ext. intros k Hk.
    rewrite sumN_scal.
    unfold fwd_out in HC. rewrite (sm_delta_sum _ _ _ _ _ _ HC) by lia. rewrite HS by lia. unfold Rdiv. ring.
  - intros j Hj. rewrite at_mk by lia. unfold raw_grad. cbn [fwd_layer l_pa nc mk]. rewrite at_mk by lia. rewrite mdot_R. cbn [mt nc mk nr].
    match goal with |- context [sumN (nr b) ?f] => rewrite (sumN_ext (nr b) f (fun k => with_bias b k a * at_ delta k j)%R) end; [reflexivity|].
    intros k Hk. unfold mt. cbn [nr nc mk]. rewrite !at_mk by lia. reflexivity.
Qed.

Lemma sum_pass ls (o : layer) x y b ls1 delta dx ls2 : Ps (ls ++ [o]) -> label_rows_sum 1 y ->
  lforward ls x = Ok (b, ls1) -> sm_costd y (fwd_out o b) (l_z (fwd_layer o b)) = Ok delta -> fwd_ok (l_W o) b -> nr delta = nr b -> nc delta = nc (l_W o) ->
  lbackprop ls1 (down (fwd_layer o b) delta) = Ok (dx, ls2) ->
  forall i l, nth_error (ls2 ++ [back_layer (fwd_layer o b) delta]) i = Some l -> Gs i (l_grad l).
Proof.
  intros (LK & o' & Ko & Lo & N1 & N2 & _) HS HF HC HO E1 E2 HB i l Kl ->. rewrite app_length in LK. cbn in LK. assert (length ls = K) by lia.
  rewrite nth_error_app2 in Ko by lia. replace (K - length ls) with 0 in Ko by lia. injection Ko as <-.
  assert (L2 : length ls2 = K) by (rewrite (lbackprop_len _ _ _ _ HB), (lforward_len _ _ _ _ HF); assumption).
  rewrite nth_error_app2 in Kl by lia. replace (K - length ls2) with 0 in Kl by lia. injection Kl as <-.
  destruct (sm_costd_size _ _ _ _ HC) as (Y1 & Y2 & _). cbn [fwd_out nr nc mk] in Y1, Y2.
  intros a Ha. cbn [back_layer l_grad grad_of nr mk fwd_layer l_pa nc] in Ha.
  assert (Hn : 1 <= nc (l_W o)).
  { destruct (nc (l_W o)) eqn:Z; [|lia]. destruct HO as (O1 & _). specialize (HS 0 ltac:(lia)). unfold row_sum in HS. rewrite <- Y2, sumN_0 in HS. lra. }
  rewrite (grad_row_sum o b y delta 1) by (try assumption; destruct HO as (_ & _ & O3); lia). rewrite Lo. lra.
Qed.
Lemma sum_kept c c' : Ps c -> Forall2 kept c c' -> Ps c'.
Proof.
  intros (LK & o & Ko & A) F. pose proof (Forall2_len _ _ _ F) as L.
  destruct (nth_error c' K) as [m|] eqn:M; [|apply nth_error_None in M; lia].
  destruct (Forall2_nth _ _ _ F _ _ _ Ko M) as (W1 & W2 & W3). split; [lia|]. exists m. rewrite W1, W3. auto.
Qed.
Lemma sum_step c gs : Ps c -> Forall2 gfit c gs -> (forall i g, nth_error gs i = Some g -> Gs i g) -> Ps (steps_with c gs).
Proof.
  intros (LK & o & Ko & La & N1 & N2 & B) F HG. destruct (steps_nth c gs K o F Ko) as (g & Eg & [S1 S2] & Es).
  split. { unfold steps_with. rewrite map_length, combine_length, <- (Forall2_len _ _ _ F). lia. }
  exists (stepped_with o g). unfold stepped_with in *. cbn [set_W l_W l_lambda nr nc mk]. repeat (split; [assumption|]).
  intros i Hi. rewrite <- B by assumption. unfold row_sum at 1. cbn [nc mk]. rewrite (sumN_ext _ _ (fun j => at_ (l_W o) i j - l_lrate o * at_ g i j)%R) by (intros j Hj; rewrite at_mk by lia; cbn; ring).
  rewrite sumN_minus, sumN_scal. pose proof (HG K g Eg eq_refl i ltac:(lia)) as Z. unfold row_sum in Z. replace (nc g) with (nc (l_W o)) in Z by lia. change (sumN (nc (l_W o)) (fun j => at_ g i j)) with (sumN (nc (l_W o)) (at_ g i)) in Z. unfold row_sum. change (sumN (nc (l_W o)) (fun j => at_ g i j)) with (sumN (nc (l_W o)) (at_ g i)). rewrite Z. rewrite Rmult_0_r. unfold Rminus. rewrite Ropp_0. apply Rplus_0_r.
Qed.
Lemma sum_mix i u v a g : Gs i a -> Gs i g -> nr a = nr g -> nc a = nc g -> Gs i (mixed u v a g).
Proof.
  intros A B E1 E2 Ei b Hb. unfold mixed in *. cbn [nr nc mk] in *. unfold row_sum. cbn [nc mk]. specialize (A Ei b ltac:(lia)). specialize (B Ei b ltac:(lia)). unfold row_sum in A, B. rewrite E2 in *.
  rewrite (sumN_ext _ _ (fun j => u * at_ a b j + v * at_ g b j)%R) by (intros j Hj; rewrite at_mk by lia; cbn; ring). rewrite sumN_plus, !sumN_scal. transitivity (u * 0 + v * 0)%R; [|lra]. f_equal; f_equal; assumption.
Qed.
Lemma sum_zero i m : Gs i (zero_like m).
Proof. unfold zero_like, zeros. intros _ a Ha. cbn [nr nc mk] in *. unfold row_sum. cbn [nc mk]. apply sumN_zero. intros j Hj. rewrite at_mk by assumption. reflexivity. Qed.
End Sum.

(** ** C82 *)
Theorem C82_conserved : forall (junk : nat -> Rdt) cs (data : list (mat Rdt * mat Rdt * bool)) (n : net Rdt) (H : lheap Rdt) kd kd' n' H' i,
  dense_hidden n H -> o_costd (n_output n) = sm_costd -> l_lambda (o_l (net_getoutput n)) = 0%R ->
  Forall (fun d => label_rows_sum 1 (snd (fst d))) data ->
  new_bound cs n H = Ok kd -> feeds junk data (kd, n, H) = Ok (kd', n', H') ->
  i < nr (l_W (o_l (net_getoutput n))) -> row_sum (l_W (o_l (net_getoutput n'))) i = row_sum (l_W (o_l (net_getoutput n))) i.
Proof.
  intros junk cs data n H kd kd' n' H' i Hd HC Hl HA HN HF Hi. unfold net_getoutput in *. destruct (dense_ls n H Hd) as [ls Hn].
  set (W0 := l_W (o_l (n_output n))) in *. set (K := length ls).
  assert (HI : inv (Ps K W0) sm_costd n H).
  { split; [assumption|]. exists ls. split; [assumption|]. split; [rewrite app_length; cbn; lia|]. exists (o_l (n_output n)). split; [rewrite nth_error_app2 by lia; subst K; now rewrite Nat.sub_diag|]. repeat (split; [first [assumption|reflexivity]|]). reflexivity. }
  assert (X : inv (Ps K W0) sm_costd n' H' /\ tok (Gs K) n' H' kd').
  { eapply (feeds_inv junk (Ps K W0) (Gs K) (fun _ y => label_rows_sum 1 y) sm_costd); try exact HF; try exact HI; try exact HA.
    - intros x y k xi yi A _ B. rewrite sums_in in *. eapply mrow_in; eauto.
    - intros x y b tx ty k j xb yb A _ B _ C. rewrite sums_in in *. eapply mrows_in; [eapply wrap_in; eauto|exact C].
    - apply sum_kept.
    - intros *. apply sum_pass.
    - intros *. apply sum_step.
    - intros *. apply sum_mix.
    - eapply new_tok; [exact Hd|apply sum_zero|exact HN]. }
  destruct X as [(_ & ls' & Hn' & LK & o & Ko & _ & _ & _ & B) _]. rewrite app_length in LK. cbn in LK. rewrite nth_error_app2 in Ko by lia. replace (K - length ls') with 0 in Ko by lia. injection Ko as <-. now apply B.
Qed.

Lemma one_call (junk : nat -> Rdt) (t : trainer Rdt) (n : net Rdt) (H : lheap Rdt) x y s t' n' H' :
  dense_hidden n H -> o_costd (n_output n) = sm_costd -> t_usedecay t = false ->
  1 <= nc (l_W (o_l (n_output n))) -> label_rows_sum s y -> feeddata junk t n H x y = Ok (t', n', H') ->
  let o := o_l (n_output n) in let o' := o_l (n_output n') in
  row_sum (l_W o') 0 = (row_sum (l_W o) 0 * (1 - l_lrate o * l_lambda o) + l_lrate o * (s - 1))%R /\
  (s = 1%R -> forall i, i < nr (l_W o) -> row_sum (l_W o') i = (row_sum (l_W o) i * (1 - l_lrate o * l_lambda o))%R) /\
  dense_hidden n' H' /\ o_costd (n_output n') = sm_costd /\ t_usedecay t' = false /\ nc (l_W o') = nc (l_W o) /\ l_lambda o' = l_lambda o /\ l_lrate o' = l_lrate o.
Proof.
  intros Hd HC HT Hn HS E. cbv zeta. destruct (dense_ls n H Hd) as [ls Hdn]. unfold feeddata in E. unfold decay in E. cbn [tick t_usedecay] in E. rewrite HT in E. cbn [andb bind] in E.
  apply bind_ok in E as ([n2 H2] & E & X). injection X as <- <- <-. pose proof (step_keep _ _ _ _ _ _ _ E) as (_ & _ & (_ & KC) & _). unfold train_step in E. apply bind_ok in E as ([[a n1] H1] & HF & E). apply bind_ok in E as ([n3 H3] & HB & HU).
  destruct (pass_dense junk n H ls x y a n1 H1 n3 H3 Hdn HF HB) as (b & ls1 & delta & ls2 & dx & P1 & P2 & P3 & P4 & P5 & P6 & P7 & P8 & P9 & P10 & P11).
  destruct (net_update_dense n3 H3 ls2 n2 H2 P9 HU) as (G1 & G2 & -> & ->).
  assert (Hd' : dense_at (put_layers (n_hidden n3) (map stepped ls2) H3) (n_hidden n3) (map stepped ls2)). { eapply dense_put; [exact P9|]. apply map_length. }
  cbn [set_output n_output with_layer o_l] in *. rewrite P10. rewrite HC, P3 in P4.
  set (o := o_l (n_output n)) in *. set (g := l_grad (back_layer (fwd_layer o b) delta)) in *.
  assert (Z : forall i, i < nr (l_W o) -> row_sum (l_W (stepped (back_layer (fwd_layer o b) delta))) i = (row_sum (l_W o) i - l_lrate o * ((1 - s) * (sumN (nr b) (fun k => with_bias b k i) / INR (nr b)) + l_lambda o * row_sum (l_W o) i))%R).
  { intros i Hi. rewrite <- (grad_row_sum o b y delta s P4 P2 HS Hn i Hi). fold g. unfold stepped, stepped_with. cbn [set_W l_W back_layer fwd_layer l_lrate]. unfold row_sum at 1. cbn [nc mk].
    rewrite (sumN_ext _ _ (fun j => at_ (l_W o) i j - l_lrate o * at_ g i j)%R) by (intros j Hj; rewrite at_mk by lia; cbn; ring). rewrite sumN_minus, sumN_scal. unfold row_sum.
    assert (Eg : nc g = nc (l_W o)) by (subst g; cbn [back_layer l_grad grad_of nc mk fwd_layer l_W]; lia). rewrite Eg. reflexivity. }
  destruct P2 as (F1 & F2 & F3). split; [|split; [|split; [|split; [|split; [|split; [|split]]]]]]; try reflexivity.
  - rewrite Z by lia. rewrite (sumN_ext _ _ (fun _ => 1%R)) by (intros; reflexivity). rewrite sumN_const. field. apply not_0_INR. lia.
  - intros -> i Hi. rewrite Z by assumption. ring.
  - eapply (dense_net_hidden _ _ (map stepped ls2)). split; [apply P9|exact Hd'].
  - exact (eq_trans KC HC).
  - exact HT.
Qed.

(** With regularisation the sums are not conserved but decay, and with label rows that do not sum to 1 the sum of the
    output biases moves by lrate (s - 1) in every call: one call of the plain trainer. *)
Theorem C82_one_call : forall (junk : nat -> Rdt) (t : trainer Rdt) (n : net Rdt) (H : lheap Rdt) x y s t' n' H',
  dense_hidden n H -> o_costd (n_output n) = sm_costd -> t_usedecay t = false ->
  1 <= nc (l_W (o_l (net_getoutput n))) -> label_rows_sum s y -> feeddata junk t n H x y = Ok (t', n', H') ->
  let o := o_l (net_getoutput n) in let o' := o_l (net_getoutput n') in
  row_sum (l_W o') 0 = (row_sum (l_W o) 0 * (1 - l_lrate o * l_lambda o) + l_lrate o * (s - 1))%R /\
  (s = 1%R -> forall i, i < nr (l_W o) -> row_sum (l_W o') i = (row_sum (l_W o) i * (1 - l_lrate o * l_lambda o))%R).
Proof. intros junk t n H x y s t' n' H' Hd HC HT Hn HS E. destruct (one_call junk t n H x y s t' n' H' Hd HC HT Hn HS E) as (A & B & _). split; assumption. Qed.

(** Without decay and regularisation the bias sum therefore runs away linearly in the number of calls, whatever the
    samples, when the label rows sum to s <> 1. *)
Theorem C82_drift : forall (junk : nat -> Rdt) (s : R) (data : list (mat Rdt * mat Rdt * bool)) (t : trainer Rdt) (n : net Rdt) (H : lheap Rdt) kd' n' H',
  dense_hidden n H -> o_costd (n_output n) = sm_costd -> t_usedecay t = false -> l_lambda (o_l (net_getoutput n)) = 0%R ->
  1 <= nc (l_W (o_l (net_getoutput n))) -> Forall (fun d => label_rows_sum s (snd (fst d))) data ->
  feeds junk data (KPlain t, n, H) = Ok (kd', n', H') ->
  row_sum (l_W (o_l (net_getoutput n'))) 0 = (row_sum (l_W (o_l (net_getoutput n))) 0 + INR (length data) * l_lrate (o_l (net_getoutput n)) * (s - 1))%R.
Proof.
  unfold net_getoutput. intros junk s data. induction data as [|d data IH]; intros t n H kd' n' H' Hd HC HT HL Hn HA E.
  - unfold feeds in E. cbn in E. injection E as _ <- _. cbn [length INR]. ring.
  - unfold feeds in E. cbn [foldM] in E. apply bind_ok in E as ([[kd1 n1] H1] & E1 & E). cbn [feed_on] in E1. apply bind_ok in E1 as ([[[v kd2] n2] H2] & E1 & X). injection X as -> -> ->.
    apply bind_ok in E1 as ([[[v1 t1] n2] H2] & E1 & X). injection X as _ <- -> ->. unfold feeddata_cost in E1. apply bind_ok in E1 as ([[t2 n2] H2] & E1 & X).
    assert (t2 = t1 /\ n2 = n1 /\ H2 = H1) as (-> & -> & ->) by (destruct (snd d); [apply bind_ok in X as (? & _ & X)|]; injection X as _ <- <- <-; auto).
    inversion HA as [|? ? A1 A2]; subst. destruct (one_call junk t n H _ _ s t1 n1 H1 Hd HC HT Hn A1 E1) as (B1 & _ & B2 & B3 & B4 & B5 & B6 & B7).
    pose proof (eq_trans B6 HL) as B6'. assert (Hn1 : 1 <= nc (l_W (o_l (n_output n1)))) by (rewrite B5; exact Hn). rewrite (IH t1 n1 H1 kd' n' H' B2 B3 B4 B6' Hn1 A2 E).
    cbn [output_copy o_l layer_copy l_W l_lrate l_lambda] in *. rewrite B1, B7, HL. cbn [length]. rewrite S_INR. ring.
Qed.

(** ** The hypotheses can be met *)
(** One input, two identity units, a softmax output with two classes; two samples of different classes. *)
Definition smn : net Rdt := Net.N (D := Rdt) mempty sm_cost sm_costd (rl mempty) [0] (Layer.O (rl (rm 3 2 [1; 2; -3; 0; 5; 4]%R)) sm_cost sm_costd mempty).
Definition smy (s : R) : mat Rdt := rm 2 2 [s; 0; 0; s]%R.
Example C82_example (junk : nat -> Rdt) (s : R) : label_rows_sum s (smy s) /\ dense_hidden smn exrH /\
  exists kd' n' H', feeds junk [(exrx, smy s, true); (exrx, smy s, false)] (KPlain trainer_new, smn, exrH) = Ok (kd', n', H') /\
  row_sum (l_W (o_l (net_getoutput n'))) 0 = (1 + 2 * (s - 1))%R /\ (s = 1%R -> row_sum (l_W (o_l (net_getoutput n'))) 2 = 1%R).
Proof.
  assert (LS : label_rows_sum s (smy s)). { intros [|[|r]] Hr; [| |cbn in Hr; lia]; unfold row_sum, smy, rm, at_, sumN, sumL; cbn [nc nr el seq map nth fold_right Nat.mul Nat.add]; lra. }
  assert (WS : well_sized smn exrH 1 2).
  { split; [|split; [|split]].
    - split; [repeat constructor; intros []|]. intros p [<-|[]]. eexists. reflexivity.
    - exists [rl (rm 2 2 [1; 2; 1; -1]%R)]. split; [reflexivity|]. exists 2. cbn. repeat split; lia.
    - right. right. right. reflexivity.
    - right. right. right. reflexivity. }
  assert (LF : Forall (fun d : mat Rdt * mat Rdt * bool => label_rows_sum s (snd (fst d))) [(exrx, smy s, true); (exrx, smy s, false)]) by (repeat (apply Forall_cons; [exact LS|]); constructor).
  split; [exact LS|]. split; [apply WS|].
  destruct (C56_trainer junk 1 2 [(exrx, smy s, true); (exrx, smy s, false)] trainer_new smn exrH) as (t' & n' & H' & E & _); [lia|exact WS|repeat constructor|].
  assert (E2 : feeds junk [(exrx, smy s, true); (exrx, smy s, false)] (KPlain trainer_new, smn, exrH) = Ok (KPlain t', n', H')).
  { apply feeds_plain. exact E. }
  exists (KPlain t'), n', H'. split; [exact E2|]. split.
  - rewrite (C82_drift junk s [(exrx, smy s, true); (exrx, smy s, false)] trainer_new smn exrH (KPlain t') n' H' (proj1 WS) eq_refl eq_refl eq_refl ltac:(cbn; lia) LF E2).
    unfold row_sum, at_, sumN, sumL. cbn [net_getoutput output_copy o_l n_output smn layer_copy rl rm l_W l_lrate nc nr el seq map nth fold_right Nat.mul Nat.add length INR]. lra.
  - intros ->. rewrite (C82_conserved junk (NPlain None) [(exrx, smy 1, true); (exrx, smy 1, false)] smn exrH (KPlain trainer_new) (KPlain t') n' H' 2 (proj1 WS) eq_refl eq_refl LF eq_refl E2 ltac:(cbn; lia)).
    unfold row_sum, at_, sumN, sumL. cbn [net_getoutput output_copy o_l n_output smn layer_copy rl rm l_W l_lrate nc nr el seq map nth fold_right Nat.mul Nat.add]. lra.
Qed.

(** P_Ortho.v - C89: training never changes what the first layer does in directions the samples do not have (exact arithmetic). *)
From Verif Require Import Base Mat Act Layer Conv Misc Net NetP RInst RMat Trainer TrainP TrainP2 ExNet P_Train P_Decay P_Mom FunEq ConfEq World Session SessP Grad P_Descent P_Batch InvP P_Sym.
From Coq Require Import Arith List ZArith Lia Reals Lra.
Import ListNotations.
Local Open Scope nat_scope.

(** ** Specification *)
(** The layer that receives the samples: the first hidden layer, or the output layer of a network without hidden layers. *)
Definition first_layer (n : net Rdt) (H : lheap Rdt) : res (layer Rdt) :=
  match net_gethidden n H 0 with Ok l => Ok l | r => match n_hidden n with [] => Ok (o_l (net_getoutput n)) | _ => r end end.
(** A linear relation u_0 + u_1 x_1 + ... + u_p x_p = 0 that every row of x satisfies. *)
Definition relation (u : nat -> R) (x : mat Rdt) : Prop :=
  forall r, r < nr x -> (u 0%nat + sumN (nc x) (fun j => u (S j) * at_ x r j) = 0)%R.
(** The same combination of bias and weights of unit c. *)
Definition combination (u : nat -> R) (w : mat Rdt) (c : nat) : R := sumN (nr w) (fun i => u i * at_ w i c)%R.

Section Ortho.
Context (junk : nat -> Rdt) (u : nat -> R).
Notation mat := (mat Rdt).
Notation layer := (layer Rdt).
Notation rowl := (row_list (D := Rdt)).

Definition Qo (row : list Rdt) : Prop := (u 0%nat + sumN (length row) (fun j => u (S j) * nth j row 0%R) = 0)%R.
Lemma relation_rows (x : mat) : relation u x <-> rows_in (D := Rdt) Qo x.
Proof.
  assert (X : forall r, sumN (length (rowl x r)) (fun j => u (S j) * nth j (rowl x r) 0%R)%R = sumN (nc x) (fun j => u (S j) * at_ x r j)%R).
  { intros r. unfold row_list. rewrite map_length, seq_length. apply sumN_ext. intros j Hj. rewrite (nth_indep _ 0%R (at_ x r 0)) by (rewrite map_length, seq_length; assumption).
    rewrite (map_nth (at_ x r)). rewrite seq_nth by assumption. reflexivity. }
  split; intros F r Hr; specialize (F r Hr); unfold Qo in *; rewrite X in *; exact F.
Qed.
(** The gradient of the layer that receives x. *)
Lemma grad_combination (l : layer) (x delta : mat) c : fwd_ok (l_W l) x -> nr delta = nr x -> nc delta = nc (l_W l) -> relation u x -> c < nc (l_W l) ->
  combination u (l_grad (back_layer (fwd_layer l x) delta)) c = (l_lambda l * combination u (l_W l) c)%R.
Proof.
  intros (F1 & F2 & F3) E1 E2 HR Hc. cbn [back_layer l_grad]. unfold grad_of, combination. cbn [fwd_layer l_pa l_lambda l_W nc nr mk].
  rewrite (sumN_ext _ _ (fun a => sumN (nr x) (fun k => u a * with_bias x k a * at_ delta k c) + l_lambda l * (u a * at_ (l_W l) a c))%R).
  - rewrite sumN_plus, sumN_swap, sumN_scal. rewrite F3. rewrite sumN_zero; [apply Rplus_0_l|]. intros k Hk. rewrite sumN_scal_r, <- F3, Nat.add_1_r, sumN_S. cbn [with_bias].
    specialize (HR k Hk). transitivity (0 * at_ delta k c)%R; [|apply Rmult_0_l]. f_equal. rewrite <- HR. f_equal. apply Rmult_1_r.
  - intros a Ha. rewrite at_mk by lia. unfold raw_grad. cbn [fwd_layer l_pa nc mk]. rewrite at_mk by lia. rewrite mdot_R. cbn [mt nc mk nr].
    rewrite (sumN_ext (nr x) (fun k => u a * with_bias x k a * at_ delta k c)%R (fun k => u a * (with_bias x k a * at_ delta k c))%R) by (intros; apply Rmult_assoc). rewrite sumN_scal.
    match goal with |- context [sumN (nr x) ?f] => match f with context [mt] => rewrite (sumN_ext (nr x) f (fun k => with_bias x k a * at_ delta k c)%R) end end.
    + match goal with |- (_ * ?p = _ * ?q + _ * (_ * ?r))%R => change (u a * (q + l_lambda l * r) = u a * q + l_lambda l * (u a * r))%R end. ring.
    + intros k Hk. unfold mt. cbn [nr nc mk]. rewrite !at_mk by lia. reflexivity.
Qed.

Context (W0 : mat).
Definition Po (c : list layer) : Prop := exists l, nth_error c 0 = Some l /\ l_lambda l = 0%R /\ nr (l_W l) = nr W0 /\ nc (l_W l) = nc W0 /\ forall j, j < nc W0 -> combination u (l_W l) j = combination u W0 j.
Definition Go (i : nat) (g : mat) : Prop := i = 0 -> forall j, j < nc g -> combination u g j = 0%R.

Lemma ortho_pass (cd : costdfun (D := Rdt)) ls (o : layer) x y b ls1 delta dx ls2 : Po (ls ++ [o]) -> relation u x ->
  lforward ls x = Ok (b, ls1) -> cd y (fwd_out o b) (l_z (fwd_layer o b)) = Ok delta -> fwd_ok (l_W o) b -> nr delta = nr b -> nc delta = nc (l_W o) ->
  lbackprop ls1 (down (fwd_layer o b) delta) = Ok (dx, ls2) ->
  forall i l, nth_error (ls2 ++ [back_layer (fwd_layer o b) delta]) i = Some l -> Go i (l_grad l).
Proof.
  intros (l & Kl & La & N1 & N2 & C) HQ HF _ HO E1 E2 HB. destruct (chain_pass _ _ _ _ _ _ _ _ HF HO E1 E2 HB) as (xs & dl & X0 & _ & X).
  destruct (X 0 l Kl) as (F & _ & A2 & A3 & A4 & _). rewrite X0 in *. intros i m Km -> j Hj. rewrite A4 in Km. injection Km as <-. 
  cbn [back_layer l_grad grad_of nc mk] in Hj. rewrite grad_combination by (try assumption; lia). rewrite La. apply Rmult_0_l.
Qed.
Lemma ortho_kept c c' : Po c -> Forall2 kept c c' -> Po c'.
Proof.
  intros (l & K1 & A) F. pose proof (Forall2_len _ _ _ F) as L.
  destruct (nth_error c' 0) as [m|] eqn:M; [|apply nth_error_None in M; assert (0 < length c) by (apply nth_error_Some; congruence); lia].
  destruct (Forall2_nth _ _ _ F _ _ _ K1 M) as (W1 & W2 & W3). exists m. rewrite W1, W3. auto.
Qed.
Lemma stepped_combination (l : layer) g j : gfit l g -> j < nc (l_W l) -> combination u (l_W (stepped_with l g)) j = (combination u (l_W l) j - l_lrate l * combination u g j)%R.
Proof.
  intros [S1 S2] Hj. unfold stepped_with, combination. cbn [set_W l_W nr mk]. rewrite S1, <- sumN_scal, <- sumN_minus. apply sumN_ext. intros i Hi. rewrite at_mk by lia. generalize (at_ (l_W l) i j) (at_ g i j) (l_lrate l). cbn. intros a b e. ring.
Qed.
Lemma ortho_step c gs : Po c -> Forall2 gfit c gs -> (forall i g, nth_error gs i = Some g -> Go i g) -> Po (steps_with c gs).
Proof.
  intros (l & K1 & La & N1 & N2 & C) F HG. destruct (steps_nth c gs 0 l F K1) as (g & Eg & Fg & Es).
  exists (stepped_with l g). split; [exact Es|]. split; [exact La|]. split; [exact N1|]. split; [exact N2|].
  intros j Hj. rewrite stepped_combination by (try assumption; lia). destruct Fg as [S1 S2]. rewrite (HG 0 g Eg eq_refl) by lia. rewrite C by assumption. rewrite Rmult_0_r. apply Rminus_0_r.
Qed.
Lemma ortho_mix i a b m g : Go i m -> Go i g -> nr m = nr g -> nc m = nc g -> Go i (mixed a b m g).
Proof.
  intros A B E1 E2 Ei j Hj. unfold mixed in *. cbn [nr nc mk] in *. specialize (A Ei j ltac:(lia)). specialize (B Ei j ltac:(lia)). unfold combination in *. cbn [nr mk]. rewrite E1 in *.
  rewrite (sumN_ext _ _ (fun i => a * (u i * at_ m i j) + b * (u i * at_ g i j))%R).
  - rewrite sumN_plus, !sumN_scal. transitivity (a * 0 + b * 0)%R; [|lra]. f_equal; f_equal; assumption.
  - intros k Hk. rewrite at_mk by lia. generalize (at_ m k j) (at_ g k j). cbn. intros p q. ring.
Qed.
Lemma ortho_zero i m : Go i (zero_like m).
Proof. unfold zero_like, zeros. intros _ j Hj. cbn [nr nc mk] in *. unfold combination. cbn [nr mk]. apply sumN_zero. intros k Hk. rewrite at_mk by assumption. apply Rmult_0_r. Qed.
End Ortho.

Lemma first_at (n : net Rdt) (H : lheap Rdt) ls l : dense_net n H ls -> (first_layer n H = Ok l <-> nth_error (ls ++ [o_l (n_output n)]) 0 = Some l).
Proof.
  intros [Hn Hd]. unfold first_layer. rewrite (gethidden_at n H ls) by exact Hd. destruct Hd as [|p m ids ls Hp Hd]; cbn [nth_error app].
  - unfold net_getoutput. cbn [output_copy o_l]. rewrite layer_copy_id. split; intros E; injection E as <-; reflexivity.
  - split; intros E; injection E as <-; reflexivity.
Qed.

(** ** C89 *)
(** A linear relation that all the training samples satisfy is one the first layer's weights keep: whatever the trainer,
    the batches, the costs, the decay and the labels. *)
Theorem C89_conserved : forall (junk : nat -> Rdt) (u : nat -> R) cs (data : list (mat Rdt * mat Rdt * bool)) (n : net Rdt) (H : lheap Rdt) l kd kd' n' H',
  dense_hidden n H -> first_layer n H = Ok l -> l_lambda l = 0%R ->
  Forall (fun d => relation u (fst (fst d))) data ->
  new_bound cs n H = Ok kd -> feeds junk data (kd, n, H) = Ok (kd', n', H') ->
  exists l', first_layer n' H' = Ok l' /\ nr (l_W l') = nr (l_W l) /\ nc (l_W l') = nc (l_W l) /\
    forall c, c < nc (l_W l) -> combination u (l_W l') c = combination u (l_W l) c.
Proof.
  intros junk u cs data n H l kd kd' n' H' Hd HL Hla HA HN HF. destruct (dense_ls n H Hd) as [ls Hn]. apply (first_at n H ls l Hn) in HL.
  assert (HI : inv (Po u (l_W l)) (o_costd (n_output n)) n H).
  { split; [reflexivity|]. exists ls. split; [assumption|]. exists l. split; [exact HL|]. split; [exact Hla|]. repeat split; reflexivity. }
  assert (X : inv (Po u (l_W l)) (o_costd (n_output n)) n' H' /\ tok (Go u) n' H' kd').
  { eapply (feeds_inv junk (Po u (l_W l)) (Go u) (fun x _ => relation u x) (o_costd (n_output n))); try exact HF; try exact HI; try exact HA.
    - intros x y i xi yi A B _. rewrite relation_rows in *. eapply mrow_in; eauto.
    - intros x y b tx ty i j xb yb A B _ C _. rewrite relation_rows in *. eapply mrows_in; [eapply wrap_in; eauto|exact C].
    - apply ortho_kept.
    - apply ortho_pass.
    - apply ortho_step.
    - apply ortho_mix.
    - eapply new_tok; [exact Hd|apply ortho_zero|exact HN]. }
  destruct X as [(_ & ls' & Hn' & m & K & _ & N1 & N2 & C) _]. exists m. split; [now apply (first_at n' H' ls' m Hn')|auto].
Qed.

Lemma combination_one (w : mat Rdt) i c (b : R) : i < nr w -> combination (fun k => if k =? i then b else 0%R) w c = (b * at_ w i c)%R.
Proof.
  intros Hi. unfold combination. rewrite (sumN_single (nr w) _ i Hi); [now rewrite Nat.eqb_refl|]. intros k Hk Hne. rewrite (proj2 (Nat.eqb_neq k i) Hne). apply Rmult_0_l.
Qed.
(** A feature that is 0 in every sample keeps its initial weights. *)
Theorem C89_unused : forall (junk : nat -> Rdt) cs (data : list (mat Rdt * mat Rdt * bool)) (n : net Rdt) (H : lheap Rdt) l kd kd' n' H' f,
  dense_hidden n H -> first_layer n H = Ok l -> l_lambda l = 0%R -> S f < nr (l_W l) ->
  Forall (fun d : mat Rdt * mat Rdt * bool => forall r, r < nr (fst (fst d)) -> at_ (fst (fst d)) r f = 0%R) data ->
  new_bound cs n H = Ok kd -> feeds junk data (kd, n, H) = Ok (kd', n', H') ->
  exists l', first_layer n' H' = Ok l' /\ forall c, c < nc (l_W l) -> at_ (l_W l') (S f) c = at_ (l_W l) (S f) c.
Proof.
  intros junk cs data n H l kd kd' n' H' f Hd HL Hla Hf HA HN HF.
  destruct (C89_conserved junk (fun k => if k =? S f then 1%R else 0%R) cs data n H l kd kd' n' H') as (l' & A & B & C & E); auto.
  - eapply Forall_impl; [|exact HA]. intros d Z r Hr. cbn [Nat.eqb]. rewrite Rplus_0_l. apply sumN_zero. intros j Hj. destruct (Nat.eqb_spec j f) as [->|]; [|apply Rmult_0_l]. rewrite Z by exact Hr. apply Rmult_0_r.
  - exists l'. split; [exact A|]. intros c Hc. specialize (E c Hc). rewrite !combination_one in E by lia. cbn [car Rdt] in E. lra.
Qed.
Lemma combination_two (w : mat Rdt) i j c : i < nr w -> j < nr w -> i <> j -> combination (fun k => if k =? i then 1%R else if k =? j then (-1)%R else 0%R) w c = (at_ w i c - at_ w j c)%R.
Proof.
  intros Hi Hj Hne. unfold combination. rewrite (sumN_ext _ _ (fun k => (if k =? i then 1 else 0) * at_ w k c + (if k =? j then (-1) else 0) * at_ w k c)%R).
  - rewrite sumN_plus. fold (combination (fun k => if k =? i then 1%R else 0%R) w c) (combination (fun k => if k =? j then (-1)%R else 0%R) w c). rewrite !combination_one by assumption. generalize (at_ w i c) (at_ w j c). cbn. intros a b. ring.
  - intros k Hk. generalize (at_ w k c). cbn. intros a. destruct (Nat.eqb_spec k i) as [->|]; [rewrite (proj2 (Nat.eqb_neq i j) Hne)|]; ring.
Qed.
(** Two features that are equal in every sample keep the difference of their weights: training cannot merge duplicates. *)
Theorem C89_duplicate : forall (junk : nat -> Rdt) cs (data : list (mat Rdt * mat Rdt * bool)) (n : net Rdt) (H : lheap Rdt) l kd kd' n' H' f g,
  dense_hidden n H -> first_layer n H = Ok l -> l_lambda l = 0%R -> S f < nr (l_W l) -> S g < nr (l_W l) ->
  Forall (fun d : mat Rdt * mat Rdt * bool => f < nc (fst (fst d)) /\ g < nc (fst (fst d)) /\ forall r, r < nr (fst (fst d)) -> at_ (fst (fst d)) r f = at_ (fst (fst d)) r g) data ->
  new_bound cs n H = Ok kd -> feeds junk data (kd, n, H) = Ok (kd', n', H') ->
  exists l', first_layer n' H' = Ok l' /\
    forall c, c < nc (l_W l) -> (at_ (l_W l') (S f) c - at_ (l_W l') (S g) c = at_ (l_W l) (S f) c - at_ (l_W l) (S g) c)%R.
Proof.
  intros junk cs data n H l kd kd' n' H' f g Hd HL Hla Hf Hg HA HN HF. destruct (Nat.eq_dec f g) as [<-|Hne].
  - destruct (C89_conserved junk (fun k => 0%R) cs data n H l kd kd' n' H') as (l' & A & B & C & E); auto.
    + eapply Forall_impl; [|exact HA]. intros d _ r Hr. rewrite Rplus_0_l. apply sumN_zero. intros j Hj. apply Rmult_0_l.
    + exists l'. split; [exact A|]. intros c Hc. rewrite !Rminus_eq_0. reflexivity.
  - destruct (C89_conserved junk (fun k => if k =? S f then 1%R else if k =? S g then (-1)%R else 0%R) cs data n H l kd kd' n' H') as (l' & A & B & C & E); auto.
    + eapply Forall_impl; [|exact HA]. intros d (D1 & D2 & Z) r Hr. cbn [Nat.eqb]. rewrite Rplus_0_l.
      transitivity (combination (fun k => if k =? f then 1%R else if k =? g then (-1)%R else 0%R) (mk (D := Rdt) (nc (fst (fst d))) 1 (fun j _ => at_ (fst (fst d)) r j)) 0).
      * unfold combination. cbn [nr mk]. apply sumN_ext. intros j Hj. rewrite at_mk by lia. reflexivity.
      * rewrite combination_two by (cbn [nr mk]; assumption). rewrite !at_mk by lia. rewrite (Z r Hr). apply Rminus_eq_0.
    + exists l'. split; [exact A|]. intros c Hc. specialize (E c Hc). rewrite !combination_two in E by lia. exact E.
Qed.
Definition grp (a k j : nat) : R := if (a <=? j) && (j <? a + k) then (-1)%R else 0%R.
(** A group of features of which exactly one is set in every sample (one-hot): bias minus the sum of the group's weights is kept. *)
Theorem C89_onehot : forall (junk : nat -> Rdt) cs (data : list (mat Rdt * mat Rdt * bool)) (n : net Rdt) (H : lheap Rdt) l kd kd' n' H' a k,
  dense_hidden n H -> first_layer n H = Ok l -> l_lambda l = 0%R -> a + k < nr (l_W l) ->
  Forall (fun d : mat Rdt * mat Rdt * bool => a + k <= nc (fst (fst d)) /\ forall r, r < nr (fst (fst d)) -> sumN k (fun j => at_ (fst (fst d)) r (a + j)) = 1%R) data ->
  new_bound cs n H = Ok kd -> feeds junk data (kd, n, H) = Ok (kd', n', H') ->
  exists l', first_layer n' H' = Ok l' /\
    forall c, c < nc (l_W l) -> (at_ (l_W l') 0%nat c - sumN k (fun j => at_ (l_W l') (S (a + j)) c) = at_ (l_W l) 0%nat c - sumN k (fun j => at_ (l_W l) (S (a + j)) c))%R.
Proof.
  intros junk cs data n H l kd kd' n' H' a k Hd HL Hla Hf HA HN HF.
  assert (SW : forall m (f : nat -> R), a + k <= m -> sumN m (fun j => grp a k j * f j)%R = (- sumN k (fun j => f (a + j)%nat))%R).
  { intros m f Hm. assert (X : forall q, a + k + q <= m -> sumN (a + k + q) (fun j => grp a k j * f j)%R = (- sumN k (fun j => f (a + j)%nat))%R).
    { induction q as [|q IH]; intros Hq.
      - rewrite Nat.add_0_r. assert (Y : forall e, e <= k -> sumN (a + e) (fun j => grp a k j * f j)%R = (- sumN e (fun j => f (a + j)%nat))%R).
        { induction e as [|e IHe]; intros He.
          - rewrite Nat.add_0_r, sumN_0, Ropp_0. apply sumN_zero. intros j Hj. unfold grp. rewrite (proj2 (Nat.leb_gt a j) Hj). apply Rmult_0_l.
          - rewrite Nat.add_succ_r, !sumN_last, IHe by lia. unfold grp at 1. rewrite (proj2 (Nat.leb_le a (a + e))), (proj2 (Nat.ltb_lt (a + e) (a + k))) by lia. cbn [andb]. ring. }
        apply Y. lia.
      - rewrite Nat.add_succ_r, sumN_last, IH by lia. unfold grp at 1. rewrite (proj2 (Nat.ltb_ge (a + k + q) (a + k))) by lia. rewrite Bool.andb_false_r. ring. }
    replace m with (a + k + (m - a - k)) by lia. apply X. lia. }
  destruct (C89_conserved junk (fun i => match i with 0 => 1%R | S j => grp a k j end) cs data n H l kd kd' n' H') as (l' & A & B & C & E); auto.
  - eapply Forall_impl; [|exact HA]. intros d (D1 & Z) r Hr. rewrite SW by exact D1. rewrite Z by exact Hr. lra.
  - exists l'. split; [exact A|]. intros c Hc. specialize (E c Hc). unfold combination in E. rewrite B in E. destruct (nr (l_W l)) as [|m] eqn:Em; [lia|]. rewrite !sumN_S in E. rewrite !SW in E by lia. rewrite !Rmult_1_l in E. exact E.
Qed.

Lemma ortho_call (junk : nat -> Rdt) u (t : trainer Rdt) (n : net Rdt) (H : lheap Rdt) l x y t' n' H' :
  dense_hidden n H -> first_layer n H = Ok l -> t_usedecay t = false -> relation u x -> feeddata junk t n H x y = Ok (t', n', H') ->
  dense_hidden n' H' /\ t_usedecay t' = false /\ exists l', first_layer n' H' = Ok l' /\ l_lambda l' = l_lambda l /\ l_lrate l' = l_lrate l /\ nc (l_W l') = nc (l_W l) /\
    forall c, c < nc (l_W l) -> combination u (l_W l') c = ((1 - l_lrate l * l_lambda l) * combination u (l_W l) c)%R.
Proof.
  intros Hd HL HT HR E. destruct (dense_ls n H Hd) as [ls Hdn]. apply (first_at n H ls l Hdn) in HL. unfold feeddata in E. unfold decay in E. cbn [tick t_usedecay] in E. rewrite HT in E. cbn [andb bind] in E.
  apply bind_ok in E as ([n2 H2] & E & X). injection X as <- <- <-. unfold train_step in E. apply bind_ok in E as ([[a n1] H1] & HF & E). apply bind_ok in E as ([n3 H3] & HB & HU).
  destruct (pass_dense junk n H ls x y a n1 H1 n3 H3 Hdn HF HB) as (b & ls1 & delta & ls2 & dx & P1 & P2 & P3 & P4 & P5 & P6 & P7 & P8 & P9 & P10 & P11).
  destruct (net_update_dense n3 H3 ls2 n2 H2 P9 HU) as (G1 & G2 & -> & ->).
  assert (Hd' : dense_at (put_layers (n_hidden n3) (map stepped ls2) H3) (n_hidden n3) (map stepped ls2)). { eapply dense_put; [exact P9|]. apply map_length. }
  assert (Hn' : dense_net (set_output n3 (with_layer (n_output n3) (stepped (o_l (n_output n3))))) (put_layers (n_hidden n3) (map stepped ls2) H3) (map stepped ls2)) by (split; [apply P9|exact Hd']).
  split; [exact (dense_net_hidden _ _ _ Hn')|]. split; [exact HT|].
  destruct (chain_pass _ _ _ _ _ _ _ _ P1 P2 P5 P6 P7) as (xs & dl & X0 & _ & X). destruct (X 0 l HL) as (F & _ & A2 & A3 & A4 & _). rewrite X0 in *. clear X.
  set (l1 := back_layer (fwd_layer l x) (dl 0)) in *. exists (stepped l1). split.
  { apply (first_at _ _ _ _ Hn'). cbn [set_output n_output with_layer o_l]. rewrite P10. apply (f_equal (option_map stepped)) in A4. destruct ls2 as [|m ls2]; exact A4. }
  split; [reflexivity|]. split; [reflexivity|]. split; [reflexivity|]. intros c Hc. unfold stepped.
  assert (Fg : gfit l1 (l_grad l1)). { destruct F as (F1 & F2 & F3). split; cbn [l1 back_layer l_grad l_W grad_of nr nc mk fwd_layer l_pa]; lia. }
  change (combination u (l_W (stepped_with l1 (l_grad l1))) c = ((1 - l_lrate l * l_lambda l) * combination u (l_W l) c)%R). rewrite (stepped_combination u l1 (l_grad l1) c Fg Hc). unfold l1 at 3. rewrite (grad_combination u l x (dl 0) c F A2 A3 HR Hc). cbn [l1 back_layer fwd_layer l_W l_lrate].
  generalize (combination u (l_W l) c) (l_lrate l) (l_lambda l). cbn. intros p q e. ring.
Qed.
(** With regularisation the plain trainer makes every such combination decay geometrically, at a rate that does not depend
    on the data: an unused feature is forgotten at exactly (1 - lrate lambda) per call. *)
Theorem C89_shrink : forall (junk : nat -> Rdt) (u : nat -> R) (data : list (mat Rdt * mat Rdt * bool)) (t : trainer Rdt) (n : net Rdt) (H : lheap Rdt) l kd' n' H',
  dense_hidden n H -> first_layer n H = Ok l -> t_usedecay t = false ->
  Forall (fun d => relation u (fst (fst d))) data ->
  feeds junk data (KPlain t, n, H) = Ok (kd', n', H') ->
  exists l', first_layer n' H' = Ok l' /\
    forall c, c < nc (l_W l) -> combination u (l_W l') c = ((1 - l_lrate l * l_lambda l) ^ length data * combination u (l_W l) c)%R.
Proof.
  intros junk u data. induction data as [|d data IH]; intros t n H l kd' n' H' Hd HL HT HA E.
  - unfold feeds in E. cbn in E. injection E as _ <- <-. exists l. split; [exact HL|]. intros c Hc. cbn [length pow]. symmetry. apply Rmult_1_l.
  - unfold feeds in E. cbn [foldM] in E. apply bind_ok in E as ([[kd1 n1] H1] & E1 & E). cbn [feed_on] in E1. apply bind_ok in E1 as ([[[v kd2] n2] H2] & E1 & X). injection X as -> -> ->.
    apply bind_ok in E1 as ([[[v1 t1] n2] H2] & E1 & X). injection X as _ <- -> ->. unfold feeddata_cost in E1. apply bind_ok in E1 as ([[t2 n2] H2] & E1 & X).
    assert (t2 = t1 /\ n2 = n1 /\ H2 = H1) as (-> & -> & ->) by (destruct (snd d); [apply bind_ok in X as (? & _ & X)|]; injection X as _ <- <- <-; auto).
    inversion HA as [|? ? A1 A2]; subst. destruct (ortho_call junk u t n H l _ _ t1 n1 H1 Hd HL HT A1 E1) as (B1 & B2 & l1 & B3 & B4 & B5 & B6 & B7).
    destruct (IH t1 n1 H1 l1 kd' n' H' B1 B3 B2 A2 E) as (l' & C1 & C2). exists l'. split; [exact C1|]. intros c Hc. rewrite C2 by lia. rewrite B7 by exact Hc. rewrite B4, B5. cbn [length pow].
    generalize (combination u (l_W l) c) ((1 - l_lrate l * l_lambda l) ^ length data)%R (1 - l_lrate l * l_lambda l)%R. intros p q e. ring.
Qed.

(** ** The hypotheses can be met *)
(** Three features: the first is used, the second always 0, the third repeats the first; two tanh units. *)
Definition or_l : layer Rdt := L (D := Rdt) (1/2)%R 0%R tanhyperbolic mempty mempty mempty mempty (rm 4 2 [1; 2; 7; 5; -3; 0; 9; 4]%R) mempty.
Definition or_H : lheap Rdt := [HDense or_l].
Definition or_x : mat Rdt := rm 2 3 [1; 2; 0; 0; 1; 2]%R.
Example C89_example (junk : nat -> Rdt) : exists kd' n' H' l',
  feeds junk [(or_x, exry, true); (or_x, exry, false)] (KPlain trainer_new, exrn, or_H) = Ok (kd', n', H') /\ first_layer n' H' = Ok l' /\
  at_ (l_W l') 2 0 = 7%R /\ (at_ (l_W l') 1%nat 0%nat - at_ (l_W l') 3%nat 0%nat = -3)%R.
Proof.
  assert (DH : dense_hidden exrn or_H). { split; [repeat constructor; intros []|]. intros q [<-|[]]. eexists. reflexivity. }
  destruct (C56_trainer junk 3 1 [(or_x, exry, true); (or_x, exry, false)] trainer_new exrn or_H) as (t' & n' & H' & E & _); [lia| |repeat constructor; cbn; lia|].
  { split; [assumption|]. split; [exists [or_l]; split; [reflexivity|]; exists 2; cbn; repeat split; lia|]. split; left; reflexivity. }
  assert (E2 : feeds junk [(or_x, exry, true); (or_x, exry, false)] (KPlain trainer_new, exrn, or_H) = Ok (KPlain t', n', H')) by (apply feeds_plain; exact E).
  assert (R1 : forall r, r < nr or_x -> at_ or_x r 1 = 0%R) by (intros [|[|r]] Hr; cbn in Hr; try lia; reflexivity).
  assert (R2 : forall r, r < nr or_x -> at_ or_x r 0 = at_ or_x r 2) by (intros [|[|r]] Hr; cbn in Hr; try lia; reflexivity).
  destruct (C89_unused junk (NPlain None) [(or_x, exry, true); (or_x, exry, false)] exrn or_H or_l (KPlain trainer_new) (KPlain t') n' H' 1) as (l' & A & B); try reflexivity; try assumption.
  { cbn. lia. }
  { repeat (apply Forall_cons; [exact R1|]); constructor. }
  destruct (C89_duplicate junk (NPlain None) [(or_x, exry, true); (or_x, exry, false)] exrn or_H or_l (KPlain trainer_new) (KPlain t') n' H' 0 2) as (l2 & A2 & B2); try reflexivity; try assumption.
  { cbn. lia. } { cbn. lia. }
  { repeat (apply Forall_cons; [split; [cbn; lia|split; [cbn; lia|exact R2]]|]); constructor. }
  assert (l2 = l') as -> by congruence. exists (KPlain t'), n', H', l'. split; [exact E2|]. split; [exact A|]. split.
  - rewrite B by (cbn; lia). reflexivity.
  - rewrite B2 by (cbn; lia). unfold at_. cbn [or_l l_W rm nr nc el nth Nat.mul Nat.add]. lra.
Qed.

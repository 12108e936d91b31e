(** TrainP.v - dense networks whose layer sizes fit together never fail; one training step in closed form. *)
From Verif Require Import Base Mat Act Layer Conv Misc Net NetP Trainer.
From Coq Require Import Arith.
Local Open Scope nat_scope.

Section TrainP.
Context {D : dtype}.
Notation mat := (mat D).
Notation layer := (layer D).
Notation output := (output D).
Context (junk : nat -> D).

(** Layer sizes chain from p inputs to q outputs. *)
Fixpoint fits (p : nat) (ls : list layer) (q : nat) : Prop :=
  match ls with
  | [] => p = q
  | l :: r => 1 <= p /\ nr (l_W l) = p + 1 /\ fits (nc (l_W l)) r q
  end.
(** A delta function that accepts labels of the outputs' shape. *)
Definition sized_costd (cd : costdfun (D := D)) : Prop :=
  forall y a z, nr y = nr a -> nc y = nc a -> exists d, cd y a z = Ok d /\ nr d = nr a /\ nc d = nc a.

Lemma quad_sized : sized_costd quad_costd.
Proof. intros y a z E1 E2. unfold quad_costd, msub. rewrite mzip_ok by auto. cbn. eauto. Qed.
Lemma ce_sized : sized_costd ce_costd.
Proof. exact quad_sized. Qed.
Lemma kl_sized : sized_costd kl_costd.
Proof. intros y a z E1 E2. unfold kl_costd, mdiv. rewrite mzip_ok by auto. cbn. eauto. Qed.
Lemma sm_sized : sized_costd sm_costd.
Proof.
  intros y a z E1 E2. unfold sm_costd, softmax_P, mschur, msub. rewrite mzip_ok by (cbn; lia). cbn [bind]. rewrite mzip_ok by (cbn; lia). cbn. eauto.
Qed.

(** ** The passes succeed *)
(** Caches of a layer after a forward pass on m rows. *)
Definition ready (m : nat) (l : layer) : Prop :=
  nr (l_z l) = m /\ nc (l_z l) = nc (l_W l) /\ nr (l_pa l) = m /\ nc (l_pa l) = nr (l_W l) /\ 2 <= nr (l_W l).
Lemma lforward_fits ls : forall x q, 1 <= nr x -> fits (nc x) ls q ->
  exists a ls', lforward ls x = Ok (a, ls') /\ nr a = nr x /\ nc a = q /\ fits (nc x) ls' q /\ Forall (ready (nr x)) ls'.
Proof.
  induction ls as [|l ls IH]; intros x q Hx Hf; cbn [fits lforward] in *.
  - exists x, []. repeat split; auto.
  - destruct Hf as (F1 & F2 & F3). rewrite forward_ok by (unfold fwd_ok; lia). cbn [bind].
    destruct (IH (fwd_out l x) q) as (a & ls' & A1 & A2 & A3 & A4 & A5); [cbn; assumption|cbn; assumption|].
    rewrite A1. cbn [bind]. do 2 eexists. split; [reflexivity|]. cbn in A2, A4, A5. split; [assumption|]. split; [assumption|]. split; [cbn; auto|].
    constructor; [|assumption]. unfold ready, fwd_layer. cbn. lia.
Qed.
Lemma lbackprop_fits ls : forall p q d, 1 <= nr d -> fits p ls q -> nc d = q -> Forall (ready (nr d)) ls ->
  exists d0 ls', lbackprop ls d = Ok (d0, ls') /\ nr d0 = nr d /\ nc d0 = p /\ fits p ls' q /\
    Forall (fun l => nr (l_grad l) = nr (l_W l) /\ nc (l_grad l) = nc (l_W l)) ls'.
Proof.
  induction ls as [|l ls IH]; intros p q d Hd Hf Hq Hr; cbn [fits lbackprop] in *.
  - exists d, []. subst. repeat split; auto.
  - destruct Hf as (F1 & F2 & F3). inversion Hr as [|u us R1 R2]; subst. destruct (IH _ _ d Hd F3 eq_refl R2) as (d1 & ls' & A1 & A2 & A3 & A4 & A5).
    rewrite A1. cbn [bind]. destruct R1 as (R3 & R4 & R5 & R6 & R7). rewrite backprop_ok by (unfold back_ok; lia). cbn [bind].
    do 2 eexists. split; [reflexivity|]. cbn. repeat split; auto; try lia.
Qed.

(** ** update on dense layers *)
Definition stepped (l : layer) : layer :=
  set_W l (mk (nr (l_W l)) (nc (l_W l)) (fun i j => dsub (at_ (l_W l) i j) (dmul (l_lrate l) (at_ (l_grad l) i j)))).
Definition gsized (l : layer) : Prop := nr (l_grad l) = nr (l_W l) /\ nc (l_grad l) = nc (l_W l).
Lemma update_with_inv (l : layer) g l' : update_with l g = Ok l' -> nr g = nr (l_W l) /\ nc g = nc (l_W l) /\
  l' = set_W l (mk (nr (l_W l)) (nc (l_W l)) (fun i j => dsub (at_ (l_W l) i j) (dmul (l_lrate l) (at_ g i j)))).
Proof.
  unfold update_with, msub. intros H. apply bind_ok in H as (w & Hw & H). injection H as <-. pose proof (mzip_dims _ _ _ _ Hw) as (A & B & _).
  cbn in A, B. rewrite mzip_ok in Hw by (cbn; auto). injection Hw as <-. split; [auto|]. split; [auto|]. f_equal. apply mk_ext.
  intros i j Hi Hj. unfold mscal. rewrite at_mmap by lia. reflexivity.
Qed.
Lemma update_with_ok (l : layer) g : nr g = nr (l_W l) -> nc g = nc (l_W l) ->
  update_with l g = Ok (set_W l (mk (nr (l_W l)) (nc (l_W l)) (fun i j => dsub (at_ (l_W l) i j) (dmul (l_lrate l) (at_ g i j))))).
Proof.
  intros A B. unfold update_with, msub. rewrite mzip_ok by (cbn; auto). cbn [bind]. do 2 f_equal. apply mk_ext.
  intros i j Hi Hj. unfold mscal. rewrite at_mmap by lia. reflexivity.
Qed.
Lemma update_ok (l : layer) : gsized l -> update l = Ok (stepped l).
Proof. intros [A B]. unfold update. rewrite update_with_ok by assumption. reflexivity. Qed.
Lemma update_inv (l l' : layer) : update l = Ok l' -> gsized l /\ l' = stepped l.
Proof. intros H. apply update_with_inv in H as (A & B & ->). split; [split; assumption|reflexivity]. Qed.

Lemma foldM_update : forall ids ls (H : lheap D), NoDup ids -> dense_at H ids ls -> Forall gsized ls ->
  foldM (fun H p => h <- lget H p ;; h' <- h_update h ;; Ok (upd p h' H)) ids H = Ok (put_layers ids (map stepped ls) H).
Proof.
  induction ids as [|p ids IH]; intros ls H Hn Hd Hg; inversion Hd as [|q l ids' ls0 Hp Hd' E1 E2]; subst; [reflexivity|].
  cbn [foldM map put_layers]. unfold lget at 1. rewrite Hp. inversion Hg; subst. inversion Hn; subst. unfold h_update, h_base, h_update_with.
  cbn [bind]. pose proof (update_ok l) as U. unfold update in U. rewrite U by assumption. cbn [bind]. apply IH; auto. now apply dense_at_upd.
Qed.
Lemma foldM_update_inv : forall ids ls (H H' : lheap D), NoDup ids -> dense_at H ids ls ->
  foldM (fun H p => h <- lget H p ;; h' <- h_update h ;; Ok (upd p h' H)) ids H = Ok H' ->
  Forall gsized ls /\ H' = put_layers ids (map stepped ls) H.
Proof.
  intros ids ls H H' Hn Hd HF. assert (Hg : Forall gsized ls).
  { revert ls H H' Hn Hd HF. induction ids as [|p ids IH]; intros ls H H' Hn Hd HF; inversion Hd as [|q l ids' ls0 Hp Hd' E1 E2]; subst; [constructor|].
    cbn [foldM] in HF. unfold lget at 1 in HF. rewrite Hp in HF. inversion Hn; subst. unfold h_update at 1, h_base at 1, h_update_with at 1 in HF.
    cbn [bind] in HF. apply bind_ok in HF as (H1 & HF1 & HF). apply bind_ok in HF1 as (h1 & HF1 & HF2). apply bind_ok in HF1 as (l1 & HU & HF1).
    injection HF1 as <-. injection HF2 as <-. apply (update_inv l) in HU as [G _]. constructor; [assumption|].
    eapply IH; [eassumption| |exact HF]. now apply dense_at_upd. }
  split; [assumption|]. rewrite (foldM_update ids ls) in HF by assumption. now injection HF.
Qed.

Definition with_layer (o : output) (l : layer) : output := O l (o_cost o) (o_costd o) (o_y o).
Lemma net_update_dense (n : net D) (H : lheap D) ls n' H' : dense_net n H ls -> net_update n H = Ok (n', H') ->
  gsized (o_l (n_output n)) /\ Forall gsized ls /\
  n' = set_output n (with_layer (n_output n) (stepped (o_l (n_output n)))) /\ H' = put_layers (n_hidden n) (map stepped ls) H.
Proof.
  intros [Hn Hd] HU. unfold net_update in HU. apply bind_ok in HU as (o' & HO & HU). apply bind_ok in HU as (H1 & HF & HU). injection HU as <- <-.
  unfold output_update in HO. apply bind_ok in HO as (l' & HO & E). injection E as <-. apply update_inv in HO as [G ->].
  apply (foldM_update_inv _ ls) in HF as [G2 ->]; auto.
Qed.
Lemma net_update_ok (n : net D) (H : lheap D) ls : dense_net n H ls -> gsized (o_l (n_output n)) -> Forall gsized ls ->
  net_update n H = Ok (set_output n (with_layer (n_output n) (stepped (o_l (n_output n)))), put_layers (n_hidden n) (map stepped ls) H).
Proof.
  intros [Hn Hd] G1 G2. unfold net_update, output_update. rewrite update_ok by assumption. cbn [bind]. rewrite (foldM_update _ ls) by assumption. reflexivity.
Qed.

(** ** A whole step: always succeeds on data of the right shape *)
Definition fits_net (n : net D) (H : lheap D) (ls : list layer) (p c : nat) : Prop :=
  dense_net n H ls /\ exists q, fits p ls q /\ 1 <= q /\ nr (l_W (o_l (n_output n))) = q + 1 /\ nc (l_W (o_l (n_output n))) = c /\ sized_costd (o_costd (n_output n)).

Lemma fits_stepped ls : forall p q, fits p ls q -> fits p (map stepped ls) q.
Proof. induction ls as [|l ls IH]; intros p q Hf; cbn [map fits] in *; [assumption|]. destruct Hf as (A & B & C). cbn. auto. Qed.

Lemma forward_backward_ok n H ls p c x y : fits_net n H ls p c -> 1 <= p -> 1 <= nr x -> nc x = p -> nr y = nr x -> nc y = c ->
  exists a n1 H1 n2 H2 ls2, net_forward junk n H x = Ok (a, n1, H1) /\ nr a = nr x /\ nc a = c /\ net_backprop junk n1 H1 y = Ok (n2, H2) /\
    fits_net n2 H2 ls2 p c /\ Forall gsized ls2 /\ gsized (o_l (n_output n2)).
Proof.
  intros [Hdn (q & F1 & F2 & F3 & F4 & F5)] Hp Hx Hxc Hy Hyc.
  rewrite (net_forward_dense junk n H ls) by assumption. rewrite <- Hxc in F1.
  destruct (lforward_fits ls x q Hx F1) as (b & ls1 & A1 & A2 & A3 & A4 & A5). rewrite A1. cbn [bind].
  rewrite out_forward_ok by (unfold fwd_ok; lia). cbn [bind]. do 3 eexists.
  destruct (F5 y (fwd_out (o_l (n_output n)) b) (l_z (fwd_layer (o_l (n_output n)) b))) as (delta & D1 & D2 & D3); [cbn; lia|cbn; lia|]. cbn in D2, D3.
  assert (Hdn1 : dense_at (put_layers (n_hidden n) ls1 H) (n_hidden n) ls1).
  { eapply dense_put; [eassumption|]. eapply lforward_len; eauto. }
  destruct (lbackprop_fits ls1 (nc x) q (down (fwd_layer (o_l (n_output n)) b) delta)) as (dx & ls2 & B1 & B2 & B3 & B4 & B5);
    [cbn; lia|assumption|cbn; lia|cbn; rewrite D2, A2; assumption|].
  eexists (set_output _ _), (put_layers (n_hidden n) ls2 _), ls2.
  split; [reflexivity|]. split; [cbn; assumption|]. split; [cbn; assumption|]. split.
  { rewrite (net_backprop_dense junk _ _ ls1) by (split; [apply Hdn|exact Hdn1]).
    rewrite out_backprop_ok with (delta := delta) by (cbn; first [assumption|lia]). cbn [bind set_result set_output set_input n_output o_l]. rewrite B1. cbn [bind]. reflexivity. }
  split; [|split; [exact B5|cbn; split; cbn; lia]].
  split; [split; [apply Hdn|]; cbn; apply put_layers_at; [apply Hdn|intros r Hr; rewrite put_layers_length; eapply dense_lt; [apply Hdn|assumption]|]|].
  - rewrite (lbackprop_len _ _ _ _ B1), (lforward_len _ _ _ _ A1). eapply dense_len; apply Hdn.
  - exists q. cbn. rewrite <- Hxc. auto.
Qed.

(** Frame: one step keeps activation, rates, lambdas, sizes; only the weights (and caches) move. *)
Definition same_conf (l l' : layer) : Prop :=
  l_lrate l' = l_lrate l /\ l_lambda l' = l_lambda l /\ l_act l' = l_act l /\ nr (l_W l') = nr (l_W l) /\ nc (l_W l') = nc (l_W l).

Lemma train_step_ok n H ls p c x y : fits_net n H ls p c -> 1 <= p -> 1 <= nr x -> nc x = p -> nr y = nr x -> nc y = c ->
  exists n' H' ls', train_step junk n H x y = Ok (n', H') /\ fits_net n' H' ls' p c.
Proof.
  intros Hf Hp Hx Hxc Hy Hyc.
  destruct (forward_backward_ok n H ls p c x y Hf Hp Hx Hxc Hy Hyc) as (a & n1 & H1 & n2 & H2 & ls2 & A1 & A2 & A3 & A4 & [A5 (q & A6)] & A7 & A8).
  unfold train_step. rewrite A1. cbn [bind]. rewrite A4. cbn [bind]. rewrite (net_update_ok n2 H2 ls2) by assumption.
  do 3 eexists. split; [reflexivity|]. instantiate (1 := map stepped ls2). split.
  - split; [apply A5|]. cbn. eapply dense_put; [eassumption|]. apply map_length.
  - exists q. destruct A6 as (B1 & B2 & B3 & B4 & B5). cbn. repeat split; auto. now apply fits_stepped.
Qed.
End TrainP.

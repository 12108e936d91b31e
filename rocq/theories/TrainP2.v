(** TrainP2.v - setlrate, momentum updates and gradient lists on dense networks, in list form. *)
From Verif Require Import Base Mat Act Layer Conv Misc Net NetP Trainer TrainP.
From Coq Require Import Arith.
Local Open Scope nat_scope.

Section TrainP2.
Context {D : dtype}.
Notation mat := (mat D).
Notation layer := (layer D).
Notation output := (output D).
Context (junk : nat -> D).

Lemma dense_in (H : lheap D) ids ls : dense_at H ids ls -> forall p, In p ids -> exists l, nth_error H p = Some (HDense l).
Proof. induction 1 as [|p' l ids ls K1 K2 IH]; intros p Hp; [destruct Hp|]. destruct Hp as [->|Hp]; eauto. Qed.

Definition relr (r : D) (l : layer) : layer := set_lrate l r.
Lemma setlrate_fold r : forall ids ls (H : lheap D), NoDup ids -> dense_at H ids ls ->
  foldM (fun H p => h <- lget H p ;; Ok (upd p (h_with h (set_lrate (h_base h) r)) H)) ids H = Ok (put_layers ids (map (relr r) ls) H).
Proof.
  induction ids as [|p ids IH]; intros ls H Hn Hd; inversion Hd as [|q l ids' ls0 Hp Hd' E1 E2]; subst; [reflexivity|].
  cbn [foldM map put_layers]. unfold lget at 1. rewrite Hp. inversion Hn; subst. cbn [bind h_with h_base].
  apply IH; auto. now apply dense_at_upd.
Qed.
Definition setrate_net (n : net D) (r : D) : net D :=
  set_output (set_input n (set_lrate (n_input n) r)) (with_layer (n_output n) (set_lrate (o_l (n_output n)) r)).
Lemma net_setlrate_dense (n : net D) (H : lheap D) ls r : dense_net n H ls ->
  net_setlrate n H r = Ok (setrate_net n r, put_layers (n_hidden n) (map (relr r) ls) H) /\
  dense_net (setrate_net n r) (put_layers (n_hidden n) (map (relr r) ls) H) (map (relr r) ls).
Proof.
  intros Hdn. pose proof Hdn as [Hn Hd]. unfold net_setlrate. rewrite (setlrate_fold r _ ls) by assumption. cbn [bind]. split; [reflexivity|].
  split; [assumption|]. cbn. eapply dense_put; [eassumption|]. apply map_length.
Qed.

Lemma fits_relr r ls : forall p q, fits p ls q -> fits p (map (relr r) ls) q.
Proof. induction ls as [|l ls IH]; intros p q Hf; cbn [map fits] in *; [assumption|]. destruct Hf as (A & B & C). cbn. auto. Qed.
Lemma fits_net_setrate n H ls p c r : fits_net n H ls p c ->
  exists n' H', net_setlrate n H r = Ok (n', H') /\ fits_net n' H' (map (relr r) ls) p c.
Proof.
  intros [Hd (q & A1 & A2 & A3 & A4 & A5)]. destruct (net_setlrate_dense n H ls r Hd) as [E Hd']. do 2 eexists. split; [exact E|].
  split; [exact Hd'|]. exists q. cbn. repeat split; auto. now apply fits_relr.
Qed.

(** ** update(ograd, hgrad) *)
Definition stepped_with (l : layer) (g : mat) : layer :=
  set_W l (mk (nr (l_W l)) (nc (l_W l)) (fun i j => dsub (at_ (l_W l) i j) (dmul (l_lrate l) (at_ g i j)))).
Definition gfit (l : layer) (g : mat) : Prop := nr g = nr (l_W l) /\ nc g = nc (l_W l).
Definition upd_step (hgrad : list mat) (H : lheap D) (ip : nat * nat) : res (lheap D) :=
  h <- lget H (snd ip) ;;
  match nth_error hgrad (fst ip) with
  | None => Undef OutOfBounds
  | Some g => h' <- h_update_with h g ;; Ok (upd (snd ip) h' H)
  end.
Lemma upd_with_fold : forall ids ls gs pre (H : lheap D), NoDup ids -> dense_at H ids ls -> Forall2 gfit ls gs ->
  foldM (upd_step (pre ++ gs)) (combine (seq (length pre) (length ids)) ids) H =
  Ok (put_layers ids (map (fun lg => stepped_with (fst lg) (snd lg)) (combine ls gs)) H).
Proof.
  induction ids as [|p ids IH]; intros ls gs pre H Hn Hd Hg; inversion Hd as [|q l ids' ls0 Hp Hd' E1 E2]; subst; inversion Hg as [|l1 g1 ls1 gs1 G1 G2]; subst; [reflexivity|].
  cbn [length seq combine foldM map put_layers fst snd]. unfold upd_step at 1. cbn [fst snd]. unfold lget at 1. rewrite Hp. inversion Hn; subst.
  cbn [bind]. rewrite nth_error_app2, Nat.sub_diag by lia. cbn [nth_error h_update_with]. destruct G1 as [G3 G4]. rewrite update_with_ok by assumption. cbn [bind].
  replace (S (length pre)) with (length (pre ++ [g1])) by (rewrite app_length; cbn; lia).
  replace (pre ++ g1 :: gs1) with ((pre ++ [g1]) ++ gs1) by (now rewrite <- app_assoc).
  apply IH; auto. now apply dense_at_upd.
Qed.
Lemma net_update_with_ok (n : net D) (H : lheap D) ls og hg : dense_net n H ls -> gfit (o_l (n_output n)) og -> Forall2 gfit ls hg ->
  net_update_with n H og hg = Ok (set_output n (with_layer (n_output n) (stepped_with (o_l (n_output n)) og)),
     put_layers (n_hidden n) (map (fun lg => stepped_with (fst lg) (snd lg)) (combine ls hg)) H).
Proof.
  intros [Hn Hd] [G1 G2] G3. unfold net_update_with, output_update_with. rewrite update_with_ok by assumption. cbn [bind].
  pose proof (upd_with_fold _ ls hg [] H Hn Hd G3) as X. cbn [app length] in X. unfold upd_step in X. rewrite X. reflexivity.
Qed.

(** Shapes after a forward and a backward pass, in list form. *)
Lemma madd_ok (a b : mat) : nr a = nr b -> nc a = nc b -> madd a b = Ok (mk (nr a) (nc a) (fun i j => dadd (at_ a i j) (at_ b i j))).
Proof. apply mzip_ok. Qed.
Lemma madd_scal_ok (u v : D) (a b : mat) : nr a = nr b -> nc a = nc b ->
  madd (mscal u a) (mscal v b) = Ok (mk (nr a) (nc a) (fun i j => dadd (dmul u (at_ a i j)) (dmul v (at_ b i j)))).
Proof.
  intros E1 E2. unfold madd. rewrite mzip_ok by (cbn; auto). f_equal. apply (mk_ext (nr a) (nc a)). intros i j Hi Hj. unfold mscal. rewrite !at_mmap by lia. reflexivity.
Qed.

(** One accumulated gradient. *)
Definition mixed (u v : D) (acc g : mat) : mat := mk (nr acc) (nc acc) (fun i j => dadd (dmul u (at_ acc i j)) (dmul v (at_ g i j))).
Definition mom_u (mu : D) (it : Z) : D := if negb (deqb mu (dofZ 0)) then mu else dofZ ((it - 1) / it).
Definition mom_v (mu : D) (it : Z) : D := if negb (deqb mu (dofZ 0)) then dsub (dofZ 1) mu else ddiv (dofZ 1) (dofZ it).
Lemma mom_hidden_ok mu it acc g : nr acc = nr g -> nc acc = nc g -> mom_hidden mu it acc g = Ok (mixed (mom_u mu it) (mom_v mu it) acc g).
Proof. intros E1 E2. unfold mom_hidden, mom_u, mom_v. destruct (negb (deqb mu (dofZ 0))); now apply madd_scal_ok. Qed.

Lemma mom_list (n : net D) (H : lheap D) ls : dense_at H (n_hidden n) ls -> forall mu it accs, length accs = length ls ->
  Forall2 (fun (acc : mat) (l : layer) => nr acc = nr (l_grad l) /\ nc acc = nc (l_grad l)) accs ls ->
  mapM (fun ia => l <- net_gethidden n H (fst ia) ;; mom_hidden mu it (snd ia) (l_grad l)) (combine (seq 0 (length accs)) accs) =
  Ok (map (fun al => mixed (mom_u mu it) (mom_v mu it) (fst al) (l_grad (snd al))) (combine accs ls)).
Proof.
  intros Hd mu it accs HL HF.
  enough (G : forall k rest, (forall i, net_gethidden n H (k + i) = match nth_error rest i with Some l => Ok l | None => Undef OutOfBounds end) ->
    Forall2 (fun (acc : mat) (l : layer) => nr acc = nr (l_grad l) /\ nc acc = nc (l_grad l)) accs rest ->
    mapM (fun ia => l <- net_gethidden n H (fst ia) ;; mom_hidden mu it (snd ia) (l_grad l)) (combine (seq k (length accs)) accs) =
    Ok (map (fun al => mixed (mom_u mu it) (mom_v mu it) (fst al) (l_grad (snd al))) (combine accs rest))).
  { apply (G 0 ls); [|assumption]. intros i. now rewrite (gethidden_at n H ls). }
  clear HF HL. induction accs as [|acc accs IH]; intros k rest Hk HF; inversion HF as [|u l us ls1 [A B] HF']; subst; [reflexivity|].
  cbn [length seq combine mapM fst snd]. specialize (Hk 0) as Hk0. rewrite Nat.add_0_r in Hk0. rewrite Hk0. cbn [nth_error bind].
  rewrite mom_hidden_ok by assumption. cbn [bind]. rewrite (IH (S k) ls1).
  - reflexivity.
  - intros i. specialize (Hk (S i)). rewrite Nat.add_succ_comm. exact Hk.
  - assumption.
Qed.
End TrainP2.

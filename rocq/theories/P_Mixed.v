(** P_Mixed.v - C104: a network of layers of any classes runs each layer's own passes, in order. *)
From Verif Require Import Base Mat Act Layer Conv Misc Net NetP.
From Coq Require Import Arith List ZArith Lia.
Import ListNotations.
Local Open Scope nat_scope.

Section Mixed.
Context {D : dtype} (junk : nat -> D).
Notation mat := (mat D).
Notation net := (net D).
Notation lheap := (lheap D).
Notation hlayer := (hlayer D).

(** ** Specification: what the classes' own functions do to a layer object *)
(** forwardprop(x) on the object h returns a and makes it h'. *)
Definition ran_forward (h : hlayer) (x a : mat) (h' : hlayer) : Prop :=
  match h, h' with
  | HDense l, HDense l' => forwardprop l x = Ok (a, l')
  | HConv c, HConv c' => conv_forward junk c x = Ok (a, c')
  | HMaxPool p, HMaxPool p' => maxpool_forward junk p x = Ok (a, p')
  | HNorm n, HNorm n' => norm_forward n x = Ok (a, n')
  | HSoftmax s, HSoftmax s' => soft_forward s x = Ok (a, s')
  | _, _ => False
  end.
(** backprop(d) on the object h returns a and makes it h'. *)
Definition ran_backprop (h : hlayer) (d a : mat) (h' : hlayer) : Prop :=
  match h, h' with
  | HDense l, HDense l' => backprop l d = Ok (a, l')
  | HConv c, HConv c' => conv_backprop junk c d = Ok (a, c')
  | HMaxPool p, HMaxPool p' => maxpool_backprop p d = Ok (a, p')
  | HNorm n, HNorm n' => norm_backprop n d = Ok (a, n')
  | HSoftmax s, HSoftmax s' => soft_backprop s d = Ok (a, s')
  | _, _ => False
  end.
(** update(g) on the object h makes it h': only Layer and Conv2DLayer have weights that learn. *)
Definition ran_update (h : hlayer) (g : mat) (h' : hlayer) : Prop :=
  match h, h' with
  | HDense l, HDense l' => update_with l g = Ok l'
  | HConv c, HConv c' => update_with (cv_l c) g = Ok (cv_l c') /\ c' = cv_set c (cv_l c') (cv_images c)
  | HMaxPool _, _ | HNorm _, _ | HSoftmax _, _ => h' = h
  | _, _ => False
  end.
(** Two calls that end in the same failure. *)
Definition same_end {A B} (a : res A) (b : res B) : Prop :=
  match a, b with Throw, Throw | Abort, Abort => True | Undef u, Undef v => u = v | _, _ => False end.
(** The values forwardprop and backprop of the class return. *)
Definition own_forward (h : hlayer) (x : mat) : res mat :=
  match h with
  | HDense l => '(a, _) <- forwardprop l x ;; Ok a
  | HConv c => '(a, _) <- conv_forward junk c x ;; Ok a
  | HMaxPool p => '(a, _) <- maxpool_forward junk p x ;; Ok a
  | HNorm n => '(a, _) <- norm_forward n x ;; Ok a
  | HSoftmax s => '(a, _) <- soft_forward s x ;; Ok a
  end.
Definition own_backprop (h : hlayer) (d : mat) : res mat :=
  match h with
  | HDense l => '(a, _) <- backprop l d ;; Ok a
  | HConv c => '(a, _) <- conv_backprop junk c d ;; Ok a
  | HMaxPool p => '(a, _) <- maxpool_backprop p d ;; Ok a
  | HNorm n => '(a, _) <- norm_backprop n d ;; Ok a
  | HSoftmax s => '(a, _) <- soft_backprop s d ;; Ok a
  end.

(** ** Proofs *)
Lemma fwd_iff h x a h' : h_forward junk h x = Ok (a, h') <-> ran_forward h x a h'.
Proof.
  unfold h_forward, ran_forward. destruct h; (split; [intros E; apply bind_ok in E as ([b k] & E & X); injection X as <- <-; exact E|]); destruct h'; try contradiction; intros E; rewrite E; reflexivity.
Qed.
Lemma back_iff h x a h' : h_backprop junk h x = Ok (a, h') <-> ran_backprop h x a h'.
Proof.
  unfold h_backprop, ran_backprop. destruct h; (split; [intros E; apply bind_ok in E as ([b k] & E & X); injection X as <- <-; exact E|]); destruct h'; try contradiction; intros E; rewrite E; reflexivity.
Qed.
Lemma upd_iff h g h' : h_update_with h g = Ok h' <-> ran_update h g h'.
Proof.
  unfold h_update_with, ran_update. destruct h as [l|c|p|n|s].
  - split; [intros E; apply bind_ok in E as (k & E & X); injection X as <-; exact E|]. destruct h'; try contradiction. intros E. rewrite E. reflexivity.
  - split.
    + intros E. apply bind_ok in E as (k & E & X). injection X as <-. cbn [h_with]. split; [exact E|]. reflexivity.
    + destruct h' as [|c'| | |]; try contradiction. intros [E F]. rewrite E. cbn [bind h_with]. now rewrite <- F.
  - split; [intros E; now injection E as <-|intros ->; reflexivity].
  - split; [intros E; now injection E as <-|intros ->; reflexivity].
  - split; [intros E; now injection E as <-|intros ->; reflexivity].
Qed.
Lemma fwd_end h x : match h_forward junk h x with Ok _ => True | e => same_end e (own_forward h x) end.
Proof. unfold h_forward, own_forward. destruct h; match goal with |- context [bind ?e _] => destruct e as [[? ?]| | |] end; cbn; auto. Qed.
Lemma back_end h x : match h_backprop junk h x with Ok _ => True | e => same_end e (own_backprop h x) end.
Proof. unfold h_backprop, own_backprop. destruct h; match goal with |- context [bind ?e _] => destruct e as [[? ?]| | |] end; cbn; auto. Qed.

Lemma nth_lt {A} (l : list A) k x : nth_error l k = Some x -> k < length l. Proof. intros E. apply nth_error_Some. congruence. Qed.
Lemma nth_upd {A} k (x : A) l : k < length l -> nth_error (upd k x l) k = Some x.
Proof. intros Hk. rewrite nth_error_upd, Nat.eqb_refl. destruct (nth_error l k) eqn:E; [reflexivity|]. apply nth_error_None in E. lia. Qed.
(** Running layers one after the other, over the objects they point to. *)
Section Chain.
Context (call : hlayer -> mat -> res (mat * hlayer)).
Fixpoint chainrun (ids : list nat) (x : mat) (H : lheap) : res (mat * lheap) :=
  match ids with
  | [] => Ok (x, H)
  | p :: r => h <- lget H p ;; '(a, h') <- call h x ;; chainrun r a (upd p h' H)
  end.
Lemma chain_ok ids : forall x H a H', NoDup ids -> chainrun ids x H = Ok (a, H') ->
  exists xs : nat -> mat, xs 0 = x /\ xs (length ids) = a /\ length H' = length H /\
    (forall k p, nth_error ids k = Some p -> exists h h', nth_error H p = Some h /\ nth_error H' p = Some h' /\ call h (xs k) = Ok (xs (S k), h')) /\
    forall p, ~ In p ids -> nth_error H' p = nth_error H p.
Proof.
  induction ids as [|p ids IH]; intros x H a H' ND E; cbn [chainrun] in E.
  - injection E as <- <-. exists (fun _ => x). repeat split; auto. intros [|k] p E; discriminate E.
  - inversion ND as [|? ? N1 N2]; subst. apply bind_ok in E as (h & E1 & E). apply bind_ok in E as ([b h'] & E2 & E). unfold lget in E1. destruct (nth_error H p) as [g|] eqn:Hp; [|discriminate]. injection E1 as ->.
    destruct (IH _ _ _ _ N2 E) as (xs & X0 & X1 & XL & X2 & X3). rewrite upd_length in XL. exists (fun k => match k with 0 => x | S k => xs k end). split; [reflexivity|]. split; [exact X1|]. split; [exact XL|]. split.
    + intros [|k] q Eq; cbn in Eq.
      * injection Eq as <-. exists h, h'. split; [exact Hp|]. split; [rewrite X3 by assumption; apply nth_upd; eapply nth_lt; eauto|]. rewrite X0. exact E2.
      * destruct (X2 k q Eq) as (g & g' & A & B & C). exists g, g'. split; [|auto]. rewrite nth_error_upd in A. destruct (Nat.eqb_spec q p) as [->|]; [exfalso; apply N1; eapply nth_error_In; eauto|exact A].
    + intros q Hq. rewrite X3 by (intros Z; apply Hq; now right). rewrite nth_error_upd. destruct (Nat.eqb_spec q p) as [->|]; [exfalso; apply Hq; now left|reflexivity].
Qed.
Lemma chain_fail ids : forall x H, NoDup ids -> (exists r, chainrun ids x H = Ok r) \/
  exists k p (xs : nat -> mat), nth_error ids k = Some p /\ xs 0 = x /\
    (forall j q, j < k -> nth_error ids j = Some q -> exists h h', nth_error H q = Some h /\ call h (xs j) = Ok (xs (S j), h')) /\
    match nth_error H p with None => chainrun ids x H = Undef NullDeref | Some h => same_end (chainrun ids x H) (call h (xs k)) end.
Proof.
  induction ids as [|p ids IH]; intros x H ND; cbn [chainrun]; [left; eauto|]. inversion ND as [|? ? N1 N2]; subst. unfold lget. destruct (nth_error H p) as [h|] eqn:Hp; cbn [bind].
  - destruct (call h x) as [[a h']|u| |] eqn:E; cbn [bind]; try (right; exists 0, p, (fun _ => x); split; [reflexivity|]; split; [reflexivity|]; split; [intros j q Hj; lia|]; rewrite Hp, E; reflexivity).
    destruct (IH a (upd p h' H) N2) as [R|(k & q & xs & A & B & C & F)]; [now left|]. right. exists (S k), q, (fun k => match k with 0 => x | S k => xs k end).
    assert (Z : forall q, In q ids -> nth_error (upd p h' H) q = nth_error H q). { intros q' Hq. rewrite nth_error_upd. destruct (Nat.eqb_spec q' p) as [->|]; [contradiction|reflexivity]. }
    split; [exact A|]. split; [reflexivity|]. split.
    + intros [|j] q' Hj Eq; cbn in Eq; [injection Eq as <-; exists h, h'; rewrite B; auto|]. destruct (C j q' ltac:(lia) Eq) as (g & g' & G1 & G2). rewrite Z in G1 by (eapply nth_error_In; eauto). eauto.
    + rewrite Z in F by (eapply nth_error_In; eauto). exact F.
  - right. exists 0, p, (fun _ => x). split; [reflexivity|]. split; [reflexivity|]. split; [intros j q Hj; lia|]. now rewrite Hp.
Qed.
End Chain.
Lemma forward_chain ids : forall x H, hidden_forward junk ids x H = chainrun (h_forward junk) ids x H.
Proof. induction ids as [|p ids IH]; intros x H; [reflexivity|]. cbn [hidden_forward chainrun]. destruct (lget H p) as [h|u| |]; reflexivity. Qed.
Lemma backprop_chain ids : forall x H, hidden_backprop junk ids x H = ('(_, K) <- chainrun (h_backprop junk) ids x H ;; Ok K).
Proof. induction ids as [|p ids IH]; intros x H; [reflexivity|]. cbn [hidden_backprop chainrun]. destruct (lget H p) as [h|u| |]; cbn [bind]; try reflexivity. destruct (h_backprop junk h x) as [[b h']|u| |]; cbn [bind]; try reflexivity. apply IH. Qed.

Lemma nth_rev {A} (l : list A) k : k < length l -> nth_error (rev l) k = nth_error l (length l - 1 - k).
Proof.
  revert k. induction l as [|x l IH]; intros k Hk; [cbn in Hk; lia|]. cbn [rev length] in *. destruct (Nat.eq_dec k (length l)) as [->|Hn].
  - rewrite nth_error_app2 by (rewrite rev_length; lia). rewrite rev_length, Nat.sub_diag. replace (S (length l) - 1 - length l) with 0 by lia. reflexivity.
  - rewrite nth_error_app1 by (rewrite rev_length; lia). rewrite IH by lia. replace (S (length l) - 1 - k) with (S (length l - 1 - k)) by lia. reflexivity.
Qed.

(** ** C104 *)
(** forwardprop of the network: hidden layer k runs its own forwardprop on what layer k-1 returned; the output layer gets what the last one returned;
    its answer is returned and stored; no other layer object changes. *)
Theorem C104_forward : forall (n : net) (H : lheap) x r n' H', NoDup (n_hidden n) -> net_forward junk n H x = Ok (r, n', H') ->
  exists xs : nat -> mat, xs 0 = x /\
    (forall k p, nth_error (n_hidden n) k = Some p -> exists h h', nth_error H p = Some h /\ nth_error H' p = Some h' /\ ran_forward h (xs k) (xs (S k)) h') /\
    forwardprop (o_l (n_output n)) (xs (length (n_hidden n))) = Ok (r, o_l (n_output n')) /\
    n_hidden n' = n_hidden n /\ o_cost (n_output n') = o_cost (n_output n) /\ o_costd (n_output n') = o_costd (n_output n) /\ o_y (n_output n') = o_y (n_output n) /\ n_result n' = r /\
    forall p, ~ In p (n_hidden n) -> nth_error H' p = nth_error H p.
Proof.
  intros n H x r n' H' ND E. unfold net_forward, input_forward in E. rewrite forward_chain in E. apply bind_ok in E as ([a K] & E1 & E). apply bind_ok in E as ([r' o'] & E2 & E). injection E as <- <- <-.
  destruct (chain_ok _ _ _ _ _ _ ND E1) as (xs & A & B & _ & C & F). exists xs. split; [exact A|]. split.
  - intros k p Hk. destruct (C k p Hk) as (h & h' & G1 & G2 & G3). exists h, h'. split; [exact G1|]. split; [exact G2|]. now apply fwd_iff.
  - unfold output_forward in E2. apply bind_ok in E2 as ([r1 l1] & E2 & X). injection X as <- <-. rewrite B. cbn. repeat split; auto.
Qed.
(** When it does not return, it ends the way the first failing layer does on the input it got. *)
Theorem C104_forward_fails : forall (n : net) (H : lheap) x, NoDup (n_hidden n) -> (forall p, In p (n_hidden n) -> nth_error H p <> None) -> (forall r, net_forward junk n H x <> Ok r) ->
  exists k (xs : nat -> mat), xs 0 = x /\ k <= length (n_hidden n) /\
    (forall j q, j < k -> nth_error (n_hidden n) j = Some q -> exists h h', nth_error H q = Some h /\ ran_forward h (xs j) (xs (S j)) h') /\
    match nth_error (n_hidden n) k with
    | Some p => exists h, nth_error H p = Some h /\ same_end (net_forward junk n H x) (own_forward h (xs k))
    | None => same_end (net_forward junk n H x) (forwardprop (o_l (n_output n)) (xs k))
    end.
Proof.
  intros n H x ND HP HN. unfold net_forward, input_forward in *. rewrite forward_chain in *. destruct (chain_fail (h_forward junk) (n_hidden n) x H ND) as [[[a K] R]|(k & p & xs & A & B & C & F)].
  - destruct (chain_ok _ _ _ _ _ _ ND R) as (xs & X0 & X1 & _ & X2 & _). exists (length (n_hidden n)), xs. split; [exact X0|]. split; [lia|]. split.
    + intros j q _ Hj. destruct (X2 j q Hj) as (h & h' & G1 & _ & G3). exists h, h'. split; [exact G1|now apply fwd_iff].
    + rewrite (proj2 (nth_error_None _ _)) by lia. rewrite R in *. cbn [bind] in *. rewrite X1. unfold output_forward in *. destruct (forwardprop (o_l (n_output n)) a) as [[v l]|u| |]; cbn; auto. exfalso. eapply HN. reflexivity.
  - exists k, xs. split; [exact B|]. split; [apply Nat.lt_le_incl, nth_error_Some; congruence|]. split.
    + intros j q Hj Eq. destruct (C j q Hj Eq) as (h & h' & G1 & G2). exists h, h'. split; [exact G1|now apply fwd_iff].
    + rewrite A. destruct (nth_error H p) as [h|] eqn:Hp; [|exfalso; eapply HP; [eapply nth_error_In; exact A|exact Hp]]. exists h. split; [reflexivity|].
      pose proof (fwd_end h (xs k)) as Z. unfold same_end in *. destruct (chainrun (h_forward junk) (n_hidden n) x H) as [[? ?]|u| |], (h_forward junk h (xs k)) as [[? ?]|v| |]; cbn [bind] in *; try contradiction; destruct (own_forward h (xs k)); try contradiction; congruence.
Qed.

(** backprop of the network: the output layer's delta goes to the last hidden layer, what a layer's own backprop returns goes to the layer before it. *)
Theorem C104_backprop : forall (n : net) (H : lheap) y n' H', NoDup (n_hidden n) -> net_backprop junk n H y = Ok (n', H') ->
  exists ds : nat -> mat, output_backprop (n_output n) y = Ok (ds (length (n_hidden n)), n_output n') /\
    (forall k p, nth_error (n_hidden n) k = Some p -> exists h h', nth_error H p = Some h /\ nth_error H' p = Some h' /\ ran_backprop h (ds (S k)) (ds k) h') /\
    n_hidden n' = n_hidden n /\ n_result n' = n_result n /\ forall p, ~ In p (n_hidden n) -> nth_error H' p = nth_error H p.
Proof.
  intros n H y n' H' ND E. unfold net_backprop in E. apply bind_ok in E as ([d o'] & E1 & E). rewrite backprop_chain in E. apply bind_ok in E as (K & E2 & E). injection E as <- <-. apply bind_ok in E2 as ([z K'] & E2 & X). injection X as ->.
  destruct (chain_ok _ _ _ _ _ _ (NoDup_rev ND) E2) as (xs & A & B & _ & C & F). set (m := length (n_hidden n)) in *. exists (fun k => xs (m - k)). rewrite Nat.sub_diag, A. split; [exact E1|]. split.
  - intros k p Hk. assert (Lk : k < m) by (apply nth_error_Some; congruence). destruct (C (m - 1 - k) p) as (h & h' & G1 & G2 & G3).
    { rewrite nth_rev by (fold m; lia). fold m. replace (m - 1 - (m - 1 - k)) with k by lia. exact Hk. }
    exists h, h'. split; [exact G1|]. split; [exact G2|]. apply back_iff. replace (m - S k) with (m - 1 - k) by lia. replace (m - k) with (S (m - 1 - k)) by lia. exact G3.
  - split; [reflexivity|]. split; [reflexivity|]. intros p Hp. apply F. intros Z. apply Hp. now apply in_rev.
Qed.
Theorem C104_backprop_fails : forall (n : net) (H : lheap) y, NoDup (n_hidden n) -> (forall p, In p (n_hidden n) -> nth_error H p <> None) -> (forall r, net_backprop junk n H y <> Ok r) ->
  same_end (net_backprop junk n H y) (output_backprop (n_output n) y) \/
  exists o' k p h (ds : nat -> mat), output_backprop (n_output n) y = Ok (ds (length (n_hidden n)), o') /\ nth_error (n_hidden n) k = Some p /\ nth_error H p = Some h /\
    (forall j q, k < j -> nth_error (n_hidden n) j = Some q -> exists g g', nth_error H q = Some g /\ ran_backprop g (ds (S j)) (ds j) g') /\
    same_end (net_backprop junk n H y) (own_backprop h (ds (S k))).
Proof.
  intros n H y ND HP HN. unfold net_backprop in *. destruct (output_backprop (n_output n) y) as [[d o']|u| |] eqn:EO; cbn [bind] in *; try (left; reflexivity). right. rewrite backprop_chain in *.
  destruct (chain_fail (h_backprop junk) (rev (n_hidden n)) d H (NoDup_rev ND)) as [[[a K] R]|(k & p & xs & A & B & C & F)].
  - rewrite R in HN. exfalso. eapply HN. reflexivity.
  - set (m := length (n_hidden n)) in *. assert (Lk : k < m) by (unfold m; rewrite <- rev_length; apply nth_error_Some; congruence). rewrite nth_rev in A by (fold m; lia). fold m in A.
    destruct (nth_error H p) as [h|] eqn:Hp; [|exfalso; eapply HP; [eapply nth_error_In; exact A|exact Hp]].
    exists o', (m - 1 - k), p, h, (fun k => xs (m - k)). rewrite Nat.sub_diag, B. split; [reflexivity|]. split; [exact A|]. split; [exact Hp|]. split.
    + intros j q Hj Eq. assert (Lj : j < m) by (apply nth_error_Some; congruence). destruct (C (m - 1 - j) q) as (g & g' & G1 & G2); [lia|rewrite nth_rev by (fold m; lia); fold m; replace (m - 1 - (m - 1 - j)) with j by lia; exact Eq|].
      exists g, g'. split; [exact G1|]. apply back_iff. replace (m - S j) with (m - 1 - j) by lia. replace (m - j) with (S (m - 1 - j)) by lia. exact G2.
    + replace (m - S (m - 1 - k)) with k by lia. pose proof (back_end h (xs k)) as Z. unfold same_end in *. destruct (chainrun (h_backprop junk) (rev (n_hidden n)) d H) as [[? ?]|u| |], (h_backprop junk h (xs k)) as [[? ?]|v| |]; cbn [bind] in *; try contradiction; destruct (own_backprop h (xs k)); try contradiction; congruence.
Qed.

(** update and update(ograd, hgrads) of the network. *)
Lemma fold_upd (f : nat -> hlayer -> res hlayer) ids : forall k0 H H', NoDup ids ->
  foldM (fun H ip => h <- lget H (snd ip) ;; h' <- f (fst ip) h ;; Ok (upd (snd ip) h' H)) (combine (seq k0 (length ids)) ids) H = Ok H' ->
  (forall k p, nth_error ids k = Some p -> exists h h', nth_error H p = Some h /\ nth_error H' p = Some h' /\ f (k0 + k) h = Ok h') /\
  forall p, ~ In p ids -> nth_error H' p = nth_error H p.
Proof.
  induction ids as [|p ids IH]; intros k0 H H' ND E; cbn [length seq combine foldM] in E.
  - injection E as <-. split; [intros [|k] p E; discriminate E|auto].
  - inversion ND as [|? ? N1 N2]; subst. apply bind_ok in E as (H1 & E1 & E). cbn [fst snd] in E1. apply bind_ok in E1 as (h & L & E1). apply bind_ok in E1 as (h' & E1 & X). injection X as <-. unfold lget in L. destruct (nth_error H p) as [g|] eqn:Hp; [|discriminate]. injection L as ->.
    destruct (IH _ _ _ N2 E) as [A B]. split.
    + intros [|k] q Eq; cbn in Eq.
      * injection Eq as <-. exists h, h'. split; [exact Hp|]. split; [rewrite B by assumption; apply nth_upd; eapply nth_lt; eauto|]. now rewrite Nat.add_0_r.
      * destruct (A k q Eq) as (g & g' & G1 & G2 & G3). exists g, g'. rewrite nth_error_upd in G1. destruct (Nat.eqb_spec q p) as [->|]; [exfalso; apply N1; eapply nth_error_In; eauto|]. split; [exact G1|]. split; [exact G2|]. now replace (k0 + S k) with (S k0 + k) by lia.
    + intros q Hq. rewrite B by (intros Z; apply Hq; now right). rewrite nth_error_upd. destruct (Nat.eqb_spec q p) as [->|]; [exfalso; apply Hq; now left|reflexivity].
Qed.
Lemma foldM_ext {S A} (f g : S -> A -> res S) l : (forall s a, f s a = g s a) -> forall s, foldM f l s = foldM g l s.
Proof. intros E. induction l as [|a l IH]; intros s; cbn; [reflexivity|]. rewrite E. destruct (g s a); cbn; auto. Qed.
Lemma foldM_combine {S} (f : S -> nat -> res S) ids : forall k0 s, foldM f ids s = foldM (fun s ip => f s (snd ip)) (combine (seq k0 (length ids)) ids) s.
Proof. induction ids as [|p ids IH]; intros k0 s; cbn; [reflexivity|]. destruct (f s p); cbn; auto. Qed.
Theorem C104_update : forall (n : net) (H : lheap) n' H', NoDup (n_hidden n) -> net_update n H = Ok (n', H') ->
  update_with (o_l (n_output n)) (l_grad (o_l (n_output n))) = Ok (o_l (n_output n')) /\
  (forall k p, nth_error (n_hidden n) k = Some p -> exists h h', nth_error H p = Some h /\ nth_error H' p = Some h' /\ ran_update h (l_grad (h_base h)) h') /\
  n_hidden n' = n_hidden n /\ forall p, ~ In p (n_hidden n) -> nth_error H' p = nth_error H p.
Proof.
  intros n H n' H' ND E. unfold net_update in E. apply bind_ok in E as (o' & E1 & E). apply bind_ok in E as (K & E2 & E). injection E as <- <-. rewrite (foldM_combine _ _ 0) in E2.
  destruct (fold_upd (fun _ h => h_update h) _ 0 H K ND E2) as [A B]. unfold output_update, update in E1. apply bind_ok in E1 as (l & E1 & X). injection X as <-. split; [exact E1|]. split; [|auto].
  intros k p Hk. destruct (A k p Hk) as (h & h' & G1 & G2 & G3). exists h, h'. split; [exact G1|]. split; [exact G2|]. now apply upd_iff.
Qed.
Theorem C104_update_with : forall (n : net) (H : lheap) og hg n' H', NoDup (n_hidden n) -> net_update_with n H og hg = Ok (n', H') ->
  update_with (o_l (n_output n)) og = Ok (o_l (n_output n')) /\
  (forall k p, nth_error (n_hidden n) k = Some p -> exists h h' g, nth_error hg k = Some g /\ nth_error H p = Some h /\ nth_error H' p = Some h' /\ ran_update h g h') /\
  n_hidden n' = n_hidden n /\ forall p, ~ In p (n_hidden n) -> nth_error H' p = nth_error H p.
Proof.
  intros n H og hg n' H' ND E. unfold net_update_with in E. apply bind_ok in E as (o' & E1 & E). apply bind_ok in E as (K & E2 & E). injection E as <- <-.
  rewrite (foldM_ext _ (fun H ip => h <- lget H (snd ip) ;; h' <- (match nth_error hg (fst ip) with None => Undef OutOfBounds | Some g => h_update_with h g end) ;; Ok (upd (snd ip) h' H))) in E2.
  2:{ intros s [i q]. cbn [fst snd]. destruct (lget s q); cbn; auto. destruct (nth_error hg i); cbn; auto. }
  destruct (fold_upd (fun k h => match nth_error hg k with None => Undef OutOfBounds | Some g => h_update_with h g end) _ 0 H K ND E2) as [A B]. unfold output_update_with in E1. apply bind_ok in E1 as (l & E1 & X). injection X as <-. split; [exact E1|]. split; [|auto].
  intros k p Hk. destruct (A k p Hk) as (h & h' & G1 & G2 & G3). cbn [Nat.add] in G3. destruct (nth_error hg k) as [g|] eqn:Eg; [|discriminate]. exists h, h', g. split; [reflexivity|]. split; [exact G1|]. split; [exact G2|]. now apply upd_iff.
Qed.
End Mixed.

(** ** The hypotheses can be met *)
(** An image of one column of 4 pixels through a convolution with a 1x1 filter, max pooling, normalisation, a dense layer of 2 units and a linear output:
    one training step moves the filter; with an output layer of the wrong size the forward pass fails there. *)
Definition mxj (k : nat) : Zdt := 0%Z.
Definition mxm (r c : nat) (l : list Z) : mat Zdt := Mat (D := Zdt) r c l.
Definition mxl (W : mat Zdt) (f : actfunc Zdt) : layer Zdt := L (D := Zdt) (1%Z : Zdt) (0%Z : Zdt) f mempty mempty mempty mempty W mempty.
Definition mxd : hlayer Zdt := HDense (mxl (mxm 5 2 [1; 0; 1; 0; 1; 0; 1; 0; 1; 0]%Z) identity).
Definition mxn (hid : list nat) (W : mat Zdt) : net Zdt := Net.N (D := Zdt) mempty quad_cost quad_costd (mxl mempty identity) hid (Layer.O (mxl W identity) quad_cost quad_costd mempty).
Definition mxH : res (lheap Zdt) :=
  c <- conv_new (D := Zdt) (fun _ _ => 0%Z) mxj 1 4 1 1 1 1 0 1%Z identity ;;
  p <- maxpool_new (D := Zdt) (fun _ _ => 0%Z) mxj 1 4 1 1 1 ;;
  n <- norm_new (D := Zdt) (fun _ _ => 0%Z) mxj ;;
  Ok [HConv (cv_set c (set_W (cv_l c) (mxm 1 1 [3]%Z)) (cv_images c)); mxd; HMaxPool p; HNorm (NL (nl_l n) (Some 1%Z))].
Definition mxx : mat Zdt := mxm 1 4 [1; -1; 2; 5]%Z.
Definition mxy : mat Zdt := mxm 1 1 [7]%Z.
Example C104_example : match mxH with
  | Ok H => NoDup (n_hidden (mxn [0; 2; 3; 1] (mxm 3 1 [1; 2; 3]%Z))) /\
      match net_forward (D := Zdt) mxj (mxn [0; 2; 3; 1] (mxm 3 1 [1; 2; 3]%Z)) H mxx with
      | Ok (r, n1, H1) => match net_backprop (D := Zdt) mxj n1 H1 mxy with
          | Ok (n2, H2) => match net_update n2 H2 with Ok (n3, H3) => map (fun h => el (l_W (h_base h))) (firstn 1 H) = [[3%Z]] /\ map (fun h => el (l_W (h_base h))) (firstn 1 H3) = [[(-4)%Z]] | _ => False end
          | _ => False end
      | _ => False end /\
      net_forward (D := Zdt) mxj (mxn [0; 2; 3; 1] (mxm 2 1 [1; 2]%Z)) H mxx = Throw
  | _ => False end.
Proof. vm_compute. split; [repeat constructor; cbn; intuition lia|]. repeat split. Qed.

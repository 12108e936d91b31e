(** P_Front.v - C105: layers without weights in front of a network are a fixed preprocessing of the inputs. *)
From Verif Require Import Base Mat Act Layer Conv Misc Net NetP Trainer P_Fwd P_Mixed.
From Coq Require Import Arith List ZArith Lia.
Import ListNotations.
Local Open Scope nat_scope.

Section Front.
Context {D : dtype} (junk : nat -> D).
Notation mat := (mat D).
Notation net := (net D).
Notation lheap := (lheap D).
Notation hlayer := (hlayer D).
Notation trainer := (trainer D).

(** ** Specification *)
(** A max-pooling or softmax layer, or a normalising layer that will measure the range of its next input. *)
Definition preprocessing (h : hlayer) : Prop :=
  match h with HMaxPool _ | HSoftmax _ => True | HNorm n => nl_val n = Some (dofZ 0) | _ => False end.
(** What the layers F make of x, one after the other. *)
Fixpoint features (H : lheap) (F : list nat) (x : mat) : res mat :=
  match F with
  | [] => Ok x
  | p :: r => match nth_error H p with Some h => a <- own_forward junk h x ;; features H r a | None => Undef NullDeref end
  end.
(** Two outcomes that are the same failure, or two successes related by P. *)
Definition both {A B} (P : A -> B -> Prop) (a : res A) (b : res B) : Prop :=
  match a, b with Ok x, Ok y => P x y | Throw, Throw | Abort, Abort => True | Undef u, Undef v => u = v | _, _ => False end.
(** Trainer::feeddata(x, y, c) for every item of the data: the values returned, and trainer, network and layers afterwards. *)
Fixpoint train_on (data : list (mat * mat * bool)) (t : trainer) (n : net) (H : lheap) : res (list D * trainer * net * lheap) :=
  match data with
  | [] => Ok ([], t, n, H)
  | (x, y, c) :: r => '(v, t', n', H') <- feeddata_cost junk t n H x y c ;; '(vs, t2, n2, H2) <- train_on r t' n' H' ;; Ok (v :: vs, t2, n2, H2)
  end.

(** ** Proofs *)
Lemma both_bind {A B A' B'} (P : A -> B -> Prop) (Q : A' -> B' -> Prop) a b f g :
  both P a b -> (forall x y, P x y -> both Q (f x) (g y)) -> both Q (bind a f) (bind b g).
Proof. destruct a, b; cbn; intros Hp Hf; try contradiction; auto. Qed.
Lemma both_end {A B} (P : A -> B -> Prop) a b : both P a b -> (forall r, a <> Ok r) -> same_end a b.
Proof. destruct a, b; cbn; intros; try contradiction; auto. exfalso. eapply H0. reflexivity. Qed.

(** Same class, same settings. *)
Definition geometry (c : conv D) := (cv_iw c, cv_ih c, cv_isize c, (cv_ow c, cv_oh c, cv_osize c), (cv_pnf c, cv_nf c, cv_sp c, cv_st c, cv_pad c)).
Definition alike (h g : hlayer) : Prop :=
  match h, g with
  | HMaxPool p, HMaxPool q => geometry (mp_c p) = geometry (mp_c q) /\ l_act (cv_l (mp_c p)) = l_act (cv_l (mp_c q))
  | HNorm _, HNorm _ | HSoftmax _, HSoftmax _ => True
  | _, _ => False
  end.
Lemma alike_refl h : preprocessing h -> alike h h. Proof. destruct h; cbn; auto. Qed.
Lemma alike_trans a b c : alike a b -> alike b c -> alike a c.
Proof. destruct a, b; cbn; try contradiction; destruct c; cbn; try contradiction; auto. intros [A B] [C E]. split; congruence. Qed.
Lemma alike_forward a b x : alike a b -> preprocessing a -> preprocessing b -> own_forward junk a x = own_forward junk b x.
Proof.
  destruct a as [l|c|p|n|s], b as [l'|c'|p'|n'|s']; cbn [alike]; try contradiction; intros E Pa Pb; cbn [preprocessing] in *; cbn [own_forward].
  - destruct E as [E1 E2]. destruct p as [[l1 a1 a2 a3 a4 a5 a6 a7 a8 a9 a10 a11 a12] i1], p' as [[l2 b1 b2 b3 b4 b5 b6 b7 b8 b9 b10 b11 b12] i2]. cbn in E1, E2. injection E1 as -> -> -> -> -> -> -> -> -> -> ->.
    unfold maxpool_forward. cbn [mp_c cv_l cv_iw cv_ih cv_isize cv_ow cv_oh cv_osize cv_pnf cv_nf cv_sp cv_st cv_pad]. rewrite E2.
    repeat match goal with |- bind (bind ?e _) _ = _ => destruct e; cbn [bind]; try reflexivity end.
    match goal with |- bind (let '(_, _) := ?q in _) _ = _ => destruct q as [[? ?] ?] end. reflexivity.
  - unfold norm_forward. rewrite Pa, Pb. destruct (mmax x); cbn [bind]; try reflexivity. destruct (mmin x); reflexivity.
  - unfold soft_forward. destruct (softmax_rows x); reflexivity.
Qed.
(** One forward pass of such a layer, and one backward pass after it. *)
Definition ready (h : hlayer) : Prop := match h with HMaxPool _ | HSoftmax _ => True | HNorm n => nl_val n <> None | _ => False end.
Lemma pre_ready h : preprocessing h -> ready h. Proof. destruct h; cbn; auto. intros ->. discriminate. Qed.
Lemma pre_forward h x : preprocessing h -> both (fun a r => fst r = a /\ alike h (snd r) /\ ready (snd r)) (own_forward junk h x) (h_forward junk h x).
Proof.
  destruct h as [l|c|p|n|s]; cbn [preprocessing]; try contradiction; intros P; cbn [own_forward h_forward].
  - destruct (maxpool_forward junk p x) as [[a p']|u| |] eqn:E; cbn; auto. split; [reflexivity|]. split; [|exact I]. unfold maxpool_forward in E.
    do 4 (apply bind_ok in E as (? & _ & E)). apply bind_ok in E as ([[? ?] ?] & _ & E). injection E as _ <-. split; reflexivity.
  - destruct (norm_forward n x) as [[a n']|u| |] eqn:E; cbn; auto. unfold norm_forward in E. do 3 (apply bind_ok in E as (? & _ & E)). injection E as _ <-. cbn. repeat split. discriminate.
  - destruct (soft_forward s x) as [[a s']|u| |] eqn:E; cbn; auto.
Qed.
Lemma pre_backprop h d : ready h -> exists a h', h_backprop junk h d = Ok (a, h') /\ alike h h' /\ preprocessing h'.
Proof.
  destruct h as [l|c|p|n|s]; cbn [ready]; try contradiction; intros P; cbn [h_backprop].
  - do 2 eexists. split; [reflexivity|]. cbn. auto.
  - unfold norm_backprop. destruct (nl_val n) as [v|]; [|contradiction]. do 2 eexists. split; [reflexivity|]. cbn. auto.
  - unfold soft_backprop. rewrite softmax_rows_eq. do 2 eexists. split; [reflexivity|]. cbn. auto.
Qed.

Lemma chain_app call (F B : list nat) : forall x (H : lheap), chainrun call (F ++ B) x H = ('(a, H1) <- chainrun call F x H ;; chainrun call B a H1).
Proof. induction F as [|p F IH]; intros x H; [reflexivity|]. cbn [app chainrun]. destruct (lget H p); cbn [bind]; try reflexivity. destruct (call a x) as [[b h']| | |]; cbn [bind]; auto. Qed.

(** Every layer of ids satisfies Q and is like the one it was in H0. *)
Definition front (Q : hlayer -> Prop) (H0 : lheap) (ids : list nat) (H : lheap) : Prop :=
  forall p, In p ids -> exists h0 h, nth_error H0 p = Some h0 /\ preprocessing h0 /\ nth_error H p = Some h /\ alike h0 h /\ Q h.
Lemma front_forward ids : forall x (H0 H : lheap), NoDup ids -> front preprocessing H0 ids H ->
  both (fun a r => fst r = a /\ front ready H0 ids (snd r) /\ forall p, ~ In p ids -> nth_error (snd r) p = nth_error H p) (features H0 ids x) (chainrun (h_forward junk) ids x H).
Proof.
  induction ids as [|p ids IH]; intros x H0 H ND HF; cbn [features chainrun]; [cbn; repeat split; auto; intros ? []|]. inversion ND as [|? ? N1 N2]; subst.
  destruct (HF p (or_introl eq_refl)) as (h0 & h & A0 & P0 & A & K & P). rewrite A0. unfold lget. rewrite A. cbn [bind]. rewrite (alike_forward _ _ x K P0 P).
  eapply both_bind; [apply pre_forward; exact P|]. intros a [a' h'] K9. cbn [fst snd] in K9. destruct K9 as (-> & K' & R').
  assert (Lp : p < length H) by (eapply nth_lt; eauto).
  assert (HF' : front preprocessing H0 ids (upd p h' H)).
  { intros q Hq. destruct (HF q (or_intror Hq)) as (g0 & g & B0 & B1 & B2 & B3 & B4). exists g0, g. repeat split; auto. rewrite nth_error_upd. destruct (Nat.eqb_spec q p) as [->|]; [contradiction|exact B2]. }
  specialize (IH a H0 _ N2 HF'). destruct (features H0 ids a) as [f|u| |], (chainrun (h_forward junk) ids a (upd p h' H)) as [[f' H1]|u'| |]; cbn in *; try contradiction; auto. destruct IH as (E & X & Y). split; [exact E|]. split.
  - intros q [<-|Hq]; [|apply X; exact Hq]. exists h0, h'. split; [exact A0|]. split; [exact P0|]. split; [rewrite Y by assumption; apply nth_upd; exact Lp|]. split; [eapply alike_trans; eauto|exact R'].
  - intros q Hq. rewrite Y by (intros Z; apply Hq; now right). rewrite nth_error_upd. destruct (Nat.eqb_spec q p) as [->|]; [exfalso; apply Hq; now left|reflexivity].
Qed.
Lemma front_backprop ids : forall d (H0 H : lheap), NoDup ids -> front ready H0 ids H ->
  exists a H', chainrun (h_backprop junk) ids d H = Ok (a, H') /\ front preprocessing H0 ids H' /\ forall p, ~ In p ids -> nth_error H' p = nth_error H p.
Proof.
  induction ids as [|p ids IH]; intros d H0 H ND HF; cbn [chainrun]; [do 2 eexists; split; [reflexivity|]; split; [intros ? []|auto]|]. inversion ND as [|? ? N1 N2]; subst.
  destruct (HF p (or_introl eq_refl)) as (h0 & h & A0 & P0 & A & K & P). unfold lget. rewrite A. cbn [bind]. destruct (pre_backprop h d P) as (a & h' & -> & K' & P'). cbn [bind].
  assert (Lp : p < length H) by (eapply nth_lt; eauto).
  assert (HF' : front ready H0 ids (upd p h' H)).
  { intros q Hq. destruct (HF q (or_intror Hq)) as (g0 & g & B0 & B1 & B2 & B3 & B4). exists g0, g. repeat split; auto. rewrite nth_error_upd. destruct (Nat.eqb_spec q p) as [->|]; [contradiction|exact B2]. }
  destruct (IH a H0 _ N2 HF') as (a2 & H' & E & X & Y). exists a2, H'. split; [exact E|]. split.
  - intros q [<-|Hq]; [|apply X; exact Hq]. exists h0, h'. split; [exact A0|]. split; [exact P0|]. split; [rewrite Y by assumption; apply nth_upd; exact Lp|]. split; [eapply alike_trans; eauto|exact P'].
  - intros q Hq. rewrite Y by (intros Z; apply Hq; now right). rewrite nth_error_upd. destruct (Nat.eqb_spec q p) as [->|]; [exfalso; apply Hq; now left|reflexivity].
Qed.
Lemma front_rev Q H0 ids H : front Q H0 (rev ids) H <-> front Q H0 ids H.
Proof. unfold front. split; intros X p Hp; apply X; now apply in_rev; rewrite ?rev_involutive. Qed.
Lemma front_upd Q H0 ids H K : front Q H0 ids H -> (forall p, In p ids -> nth_error K p = nth_error H p) -> front Q H0 ids K.
Proof. intros X Y p Hp. destruct (X p Hp) as (h0 & h & A & B & C & E). exists h0, h. rewrite Y by assumption. auto. Qed.

(** Two heaps with the same objects outside F. *)
Definition agree (F : list nat) (H K : lheap) : Prop := forall p, ~ In p F -> nth_error H p = nth_error K p.
Lemma agree_upd F H K p h : agree F H K -> ~ In p F -> agree F (upd p h H) (upd p h K).
Proof. intros A N1 q Hq. rewrite !nth_error_upd, (A q Hq), (A p N1). reflexivity. Qed.
Lemma run_both call F ids : forall x H K, agree F H K -> (forall p, In p ids -> ~ In p F) ->
  both (fun a b => fst a = fst b /\ agree F (snd a) (snd b) /\ forall p, In p F -> nth_error (snd a) p = nth_error H p) (chainrun call ids x H) (chainrun call ids x K).
Proof.
  induction ids as [|p ids IH]; intros x H K A HD; cbn [chainrun]; [cbn; auto|]. assert (Hp : ~ In p F) by (apply HD; now left). unfold lget. rewrite (A p Hp). destruct (nth_error K p) as [h|]; cbn [bind]; [|reflexivity].
  destruct (call h x) as [[b h']| | |]; cbn [bind]; cbn; auto. pose proof (IH b _ _ (agree_upd F H K p h' A Hp) (fun q Hq => HD q (or_intror Hq))) as Z.
  destruct (chainrun call ids b (upd p h' H)) as [[a1 H1]| | |], (chainrun call ids b (upd p h' K)) as [[a2 H2]| | |]; cbn in *; try contradiction; auto. destruct Z as (Z1 & Z2 & Z3). repeat split; auto.
  intros q Hq. rewrite Z3 by assumption. rewrite nth_error_upd. destruct (Nat.eqb_spec q p) as [->|]; [contradiction|reflexivity].
Qed.
Lemma fold_both (f : hlayer -> res hlayer) F ids : forall H K, agree F H K -> (forall p, In p ids -> ~ In p F) ->
  both (fun a b => agree F a b /\ forall p, In p F -> nth_error a p = nth_error H p)
    (foldM (fun H p => h <- lget H p ;; h' <- f h ;; Ok (upd p h' H)) ids H) (foldM (fun H p => h <- lget H p ;; h' <- f h ;; Ok (upd p h' H)) ids K).
Proof.
  induction ids as [|p ids IH]; intros H K A HD; cbn [foldM]; [cbn; auto|]. assert (Hp : ~ In p F) by (apply HD; now left). unfold lget at 1 3. rewrite (A p Hp). destruct (nth_error K p) as [h|]; cbn [bind]; [|reflexivity].
  destruct (f h) as [h'| | |]; cbn [bind]; cbn; auto. pose proof (IH _ _ (agree_upd F H K p h' A Hp) (fun q Hq => HD q (or_intror Hq))) as Z.
  match goal with |- both _ ?a ?b => destruct a as [H1| | |], b as [H2| | |] end; cbn in *; try contradiction; auto. destruct Z as (Z2 & Z3). split; auto.
  intros q Hq. rewrite Z3 by assumption. rewrite nth_error_upd. destruct (Nat.eqb_spec q p) as [->|]; [contradiction|reflexivity].
Qed.
(** Over the front layers: decay sets their (unused) rates, update does nothing. *)
Lemma front_fold (f : hlayer -> res hlayer) ids : forall (H0 H : lheap), NoDup ids -> front preprocessing H0 ids H ->
  (forall h, preprocessing h -> exists h', f h = Ok h' /\ alike h h' /\ preprocessing h') ->
  exists H', foldM (fun H p => h <- lget H p ;; h' <- f h ;; Ok (upd p h' H)) ids H = Ok H' /\ front preprocessing H0 ids H' /\ forall p, ~ In p ids -> nth_error H' p = nth_error H p.
Proof.
  induction ids as [|p ids IH]; intros H0 H ND HF Hf; cbn [foldM]; [eexists; split; [reflexivity|]; split; [intros ? []|auto]|]. inversion ND as [|? ? N1 N2]; subst.
  destruct (HF p (or_introl eq_refl)) as (h0 & h & A0 & P0 & A & K & P). unfold lget at 1. rewrite A. cbn [bind]. destruct (Hf h P) as (h' & -> & K' & P'). cbn [bind].
  assert (Lp : p < length H) by (eapply nth_lt; eauto).
  assert (HF' : front preprocessing H0 ids (upd p h' H)).
  { intros q Hq. destruct (HF q (or_intror Hq)) as (g0 & g & B0 & B1 & B2 & B3 & B4). exists g0, g. repeat split; auto. rewrite nth_error_upd. destruct (Nat.eqb_spec q p) as [->|]; [contradiction|exact B2]. }
  destruct (IH H0 _ N2 HF' Hf) as (H' & E & X & Y). exists H'. split; [exact E|]. split.
  - intros q [<-|Hq]; [|apply X; exact Hq]. exists h0, h'. split; [exact A0|]. split; [exact P0|]. split; [rewrite Y by assumption; apply nth_upd; exact Lp|]. split; [eapply alike_trans; eauto|exact P'].
  - intros q Hq. rewrite Y by (intros Z; apply Hq; now right). rewrite nth_error_upd. destruct (Nat.eqb_spec q p) as [->|]; [exfalso; apply Hq; now left|reflexivity].
Qed.

(** The network n is the network m with the layers F put in front, as they were in H0. *)
Definition fronted (F : list nat) (H0 : lheap) (n : net) (H : lheap) (m : net) (K : lheap) : Prop :=
  n_hidden n = F ++ n_hidden m /\ n_output n = n_output m /\ n_cost n = n_cost m /\ agree F H K /\ front preprocessing H0 F H.
Lemma foldM_app' {A S} (f : S -> A -> res S) l1 l2 s : foldM f (l1 ++ l2) s = (s1 <- foldM f l1 s ;; foldM f l2 s1).
Proof. revert s. induction l1 as [|a l IH]; intros s; cbn; [reflexivity|]. destruct (f s a); cbn; auto. Qed.
Lemma nodup_split (F B : list nat) : NoDup (F ++ B) -> NoDup F /\ (forall p, In p B -> ~ In p F).
Proof. induction F as [|p F IH]; cbn; intros ND; [split; [constructor|auto]|]. inversion ND as [|? ? N1 N2]; subst. destruct (IH N2) as [A C]. split; [constructor; auto; intros Z; apply N1, in_or_app; auto|]. intros q Hq [<-|Z]; [apply N1, in_or_app; auto|eapply C; eauto]. Qed.
Lemma fold_front (f : hlayer -> res hlayer) F (B : list nat) (H0 H K : lheap) : NoDup (F ++ B) -> agree F H K -> front preprocessing H0 F H ->
  (forall h, preprocessing h -> exists h', f h = Ok h' /\ alike h h' /\ preprocessing h') ->
  both (fun a b => agree F a b /\ front preprocessing H0 F a)
    (foldM (fun H p => h <- lget H p ;; h' <- f h ;; Ok (upd p h' H)) (F ++ B) H) (foldM (fun H p => h <- lget H p ;; h' <- f h ;; Ok (upd p h' H)) B K).
Proof.
  intros ND HA HF Hf. apply nodup_split in ND as [N1 N2]. rewrite foldM_app'. destruct (front_fold f F H0 H N1 HF Hf) as (H1 & -> & HF1 & Y). cbn [bind].
  assert (A1 : agree F H1 K) by (intros q Hq; rewrite Y by assumption; apply HA; exact Hq). pose proof (fold_both f F B H1 K A1 N2) as Z.
  match goal with |- both _ ?a ?b => destruct a as [H2| | |], b as [H3| | |] end; cbn in *; try contradiction; auto. destruct Z as [Z1 Z2]. split; [exact Z1|]. eapply front_upd; eauto.
Qed.
Lemma decay_both F H0 (t : trainer) n H m K : NoDup (n_hidden n) -> fronted F H0 n H m K ->
  both (fun a b => fronted F H0 (fst a) (snd a) (fst b) (snd b) /\ n_hidden (fst a) = n_hidden n) (decay t n H) (decay t m K).
Proof.
  intros ND (E1 & E2 & E3 & HA & HF). unfold decay. destruct (t_usedecay t && (t_iters t =? t_step t)%Z); [|cbn; unfold fronted; auto 10].
  unfold net_setlrate. set (r := dmul _ _). rewrite E1 in *.
  assert (X : forall l (G : lheap), foldM (fun H p => h <- lget H p ;; Ok (upd p (h_with h (set_lrate (h_base h) r)) H)) l G = foldM (fun H p => h <- lget H p ;; h' <- Ok (h_with h (set_lrate (h_base h) r)) ;; Ok (upd p h' H)) l G) by reflexivity. rewrite !X.
  eapply both_bind; [apply (fold_front (fun h => Ok (h_with h (set_lrate (h_base h) r))) F (n_hidden m) H0 H K); auto|].
  - intros h P. eexists. split; [reflexivity|]. destruct h as [l|c|p|q|s]; cbn in *; try contradiction; auto.
  - intros a b [A B]. cbn. rewrite E2. unfold fronted. cbn. auto 10.
Qed.
Lemma step_both F H0 n H m K x f y : NoDup (n_hidden n) -> fronted F H0 n H m K -> features H0 F x = Ok f ->
  both (fun a b => fronted F H0 (fst a) (snd a) (fst b) (snd b) /\ n_hidden (fst a) = n_hidden n /\ n_result (fst a) = n_result (fst b)) (train_step junk n H x y) (train_step junk m K f y).
Proof.
  intros ND (E1 & E2 & E3 & HA & HF) Hf. assert (ND' := ND). rewrite E1 in ND'. assert (NDb := ND'). apply nodup_split in ND' as [N1 N2].
  unfold train_step, net_forward, input_forward. rewrite !forward_chain, E1, E2, chain_app.
  pose proof (front_forward F x H0 H N1 HF) as FF. rewrite Hf in FF. destruct (chainrun (h_forward junk) F x H) as [[f' H1]|u| |]; cbn in FF; try contradiction. destruct FF as (-> & R1 & O1). cbn [bind].
  assert (A1 : agree F H1 K) by (intros q Hq; rewrite O1 by assumption; apply HA; exact Hq). pose proof (run_both (h_forward junk) F (n_hidden m) f H1 K A1 N2) as RB.
  destruct (chainrun (h_forward junk) (n_hidden m) f H1) as [[a H2]|u| |], (chainrun (h_forward junk) (n_hidden m) f K) as [[b K2]|u'| |]; cbn in RB; try contradiction; cbn [bind]; cbn; auto. destruct RB as (-> & A2 & O2).
  destruct (output_forward (n_output m) b) as [[r o']|u| |]; cbn [bind]; cbn; auto. unfold net_backprop. cbn [n_output set_result set_output set_input n_hidden]. rewrite E1.
  destruct (output_backprop o' y) as [[d o2]|u| |]; cbn [bind]; cbn; auto. rewrite !backprop_chain, rev_app_distr, chain_app.
  pose proof (run_both (h_backprop junk) F (rev (n_hidden m)) d H2 K2 A2 (fun p Hp => N2 p (proj2 (in_rev _ _) Hp))) as RB.
  destruct (chainrun (h_backprop junk) (rev (n_hidden m)) d H2) as [[e H3]|u| |], (chainrun (h_backprop junk) (rev (n_hidden m)) d K2) as [[e' K3]|u'| |]; cbn in RB; try contradiction; cbn [bind]; cbn; auto. destruct RB as (-> & A3 & O3).
  assert (R3 : front ready H0 (rev F) H3) by (apply front_rev; eapply front_upd; [exact R1|]; intros p Hp; rewrite O3 by assumption; auto).
  destruct (front_backprop (rev F) e' H0 H3 (NoDup_rev N1) R3) as (z & H4 & E4 & R4 & O4). rewrite E4. cbn [bind]. unfold net_update. cbn [n_output set_output n_hidden]. cbn [set_result set_output n_hidden]. cbn. rewrite E1.
  destruct (output_update o2) as [o3|u| |]; cbn [bind]; cbn; auto.
  assert (A4 : agree F H4 K3) by (intros q Hq; rewrite O4 by (intros Z; apply Hq; now apply in_rev); apply A3; exact Hq).
  eapply both_bind; [apply (fold_front h_update F (n_hidden m) H0 H4 K3); auto; [now apply front_rev|]|].
  - intros h P. exists h. destruct h as [l|c|p|q|s]; cbn in *; try contradiction; auto.
  - intros a' b' [A B]. cbn. unfold fronted. cbn. auto 10.
Qed.
Lemma call_both F H0 (t : trainer) n H m K x f y c : NoDup (n_hidden n) -> fronted F H0 n H m K -> features H0 F x = Ok f ->
  both (fun a b => let '(v, t', n', H') := a in let '(v2, t2, m', K') := b in v = v2 /\ t' = t2 /\ fronted F H0 n' H' m' K' /\ NoDup (n_hidden n')) (feeddata_cost junk t n H x y c) (feeddata_cost junk t m K f y c).
Proof.
  intros ND R Hf. unfold feeddata_cost, feeddata. pose proof (decay_both F H0 (tick t) n H m K ND R) as X.
  destruct (decay (tick t) n H) as [[n1 H1]|u| |], (decay (tick t) m K) as [[m1 K1]|u'| |]; cbn in X; try contradiction; cbn [bind]; cbn; auto. destruct X as [R1 Eh]. rewrite <- Eh in ND.
  pose proof (step_both F H0 n1 H1 m1 K1 x f y ND R1 Hf) as X. destruct (train_step junk n1 H1 x y) as [[n2 H2]|u| |], (train_step junk m1 K1 f y) as [[m2 K2]|u'| |]; cbn in X; try contradiction; cbn [bind]; cbn; auto. destruct X as (R2 & Eh2 & Er). rewrite <- Eh2 in ND.
  destruct c; cbn; auto. unfold net_computecost. assert (Ec : n_cost n2 = n_cost m2) by apply R2. rewrite Ec, Er. destruct (n_cost m2 y (n_result m2)); cbn; auto.
Qed.
Lemma front_features F : forall x (H0 H : lheap), front preprocessing H0 F H -> features H F x = features H0 F x.
Proof.
  induction F as [|p F IH]; intros x H0 H HF; [reflexivity|]. cbn [features]. destruct (HF p (or_introl eq_refl)) as (h0 & h & A & P & B & C & E). rewrite A, B, (alike_forward _ _ x C P E). destruct (own_forward junk h x); cbn; auto. apply IH. intros q Hq. apply HF. now right.
Qed.

(** ** C105 *)
(** Training the network with the layers F in front on x is training the network without them on the features of x: over every sequence of calls the same values are returned,
    the same call fails in the same way, and trainer, output layer and the other hidden layers end up the same; the features a later input would get never change. *)
Theorem C105_training : forall F (n m : net) (H K : lheap) (t : trainer) data data',
  NoDup (n_hidden n) -> n_hidden n = F ++ n_hidden m -> n_output n = n_output m -> n_cost n = n_cost m ->
  (forall p, In p F -> exists h, nth_error H p = Some h /\ preprocessing h) -> (forall p, ~ In p F -> nth_error H p = nth_error K p) ->
  Forall2 (fun d d' => features H F (fst (fst d)) = Ok (fst (fst d')) /\ snd (fst d) = snd (fst d') /\ snd d = snd d') data data' ->
  both (fun a b => let '(vs, t', n', H') := a in let '(ws, t2, m', K') := b in vs = ws /\ t' = t2 /\ n_output n' = n_output m' /\
      n_hidden n' = F ++ n_hidden m' /\ (forall p, ~ In p F -> nth_error H' p = nth_error K' p) /\ forall x, features H' F x = features H F x)
    (train_on data t n H) (train_on data' t m K).
Proof.
  intros F n m H K t data data' ND E1 E2 E3 HF HA X.
  assert (G : forall data data' t n H0 K0 m, Forall2 (fun d d' => features H F (fst (fst d)) = Ok (fst (fst d')) /\ snd (fst d) = snd (fst d') /\ snd d = snd d') data data' -> NoDup (n_hidden n) -> fronted F H n H0 m K0 ->
     both (fun a b => let '(vs, t', n', H') := a in let '(ws, t2, m', K') := b in vs = ws /\ t' = t2 /\ fronted F H n' H' m' K') (train_on data t n H0) (train_on data' t m K0)).
  { clear. induction data as [|[[x y] c] data IH]; intros data' t n H0 K0 m X ND R; inversion X as [|? [[f y'] c'] ? dat2 (Z1 & Z2 & Z3) X2]; subst; cbn [fst snd] in *; cbn [train_on]; [cbn; auto|]. subst y' c'.
    pose proof (call_both F H t n H0 m K0 x f y c ND R Z1) as Q. destruct (feeddata_cost junk t n H0 x y c) as [[[[v t1] n1] H1]|u| |], (feeddata_cost junk t m K0 f y c) as [[[[v' t1'] m1] K1]|u'| |]; cbn in Q; try contradiction; cbn [bind]; cbn; auto.
    destruct Q as (-> & -> & R1 & ND1). specialize (IH dat2 t1' n1 H1 K1 m1 X2 ND1 R1). destruct (train_on data t1' n1 H1) as [[[[vs t2] n2] H2]|u| |], (train_on dat2 t1' m1 K1) as [[[[ws t3] m2] K2]|u'| |]; cbn in IH; try contradiction; cbn; auto.
    destruct IH as (-> & -> & R2). auto. }
  assert (R : fronted F H n H m K). { split; [exact E1|]. split; [exact E2|]. split; [exact E3|]. split; [exact HA|]. intros p Hp. destruct (HF p Hp) as (h & A & B). exists h, h. repeat (split; [assumption|]). split; [apply alike_refl|]; assumption. }
  specialize (G data data' t n H K m X ND R). destruct (train_on data t n H) as [[[[vs t2] n2] H2]|u| |], (train_on data' t m K) as [[[[ws t3] m2] K2]|u'| |]; cbn in *; try contradiction; auto. destruct G as (-> & -> & Q1 & Q2 & Q3 & Q4 & Q5). repeat split; auto. intros x. apply front_features. exact Q5.
Qed.
(** Predictions too; and an input the layers in front reject is rejected by the network, in the same way. *)
Theorem C105_predict : forall F (n m : net) (H K : lheap) x,
  NoDup (n_hidden n) -> n_hidden n = F ++ n_hidden m -> n_output n = n_output m ->
  (forall p, In p F -> exists h, nth_error H p = Some h /\ preprocessing h) -> (forall p, ~ In p F -> nth_error H p = nth_error K p) ->
  both (fun a b => fst (fst a) = fst (fst b) /\ n_result (snd (fst a)) = n_result (snd (fst b))) (net_predict junk n H x) (f <- features H F x ;; net_predict junk m K f).
Proof.
  intros F n m H K x ND E1 E2 HF HA. assert (ND' := ND). rewrite E1 in ND'. apply nodup_split in ND' as [N1 N2].
  assert (R : front preprocessing H F H) by (intros p Hp; destruct (HF p Hp) as (h & A & B); exists h, h; repeat (split; [assumption|]); split; [apply alike_refl|]; assumption).
  unfold net_predict, net_forward, input_forward. rewrite !forward_chain, E1, E2, chain_app.
  pose proof (front_forward F x H H N1 R) as FF. destruct (features H F x) as [f|u| |], (chainrun (h_forward junk) F x H) as [[f' H1]|u'| |]; cbn in FF; try contradiction; cbn [bind]; try (cbn; congruence); auto. destruct FF as (-> & R1 & O1). rewrite forward_chain.
  assert (A1 : agree F H1 K) by (intros q Hq; rewrite O1 by assumption; apply HA; exact Hq). pose proof (run_both (h_forward junk) F (n_hidden m) f H1 K A1 N2) as RB.
  destruct (chainrun (h_forward junk) (n_hidden m) f H1) as [[a H2]|u| |], (chainrun (h_forward junk) (n_hidden m) f K) as [[b K2]|u'| |]; cbn in RB; try contradiction; cbn [bind]; cbn; auto. destruct RB as (-> & A2 & O2).
  destruct (output_forward (n_output m) b) as [[r o']|u| |]; cbn [bind]; cbn; auto. match goal with |- context [bind (argmax ?q)] => destruct (argmax q) end; cbn; auto.
Qed.
End Front.

(** ** The hypotheses can be met *)
(** Four pixels, normalised by their range and pooled, in front of a dense layer and a linear output; two calls with decay due in the second.  The network with the layers in front
    and the one without them, fed the features, return the same costs and learn the same weights. *)
Definition frn (hid : list nat) : net Zdt := mxn hid (mxm 3 1 [1; 2; 3]%Z).
Definition frt : trainer Zdt := trainer_new_decay (D := Zdt) 1%Z 1%Z 2%Z.
Definition frH : res (lheap Zdt) :=
  p <- maxpool_new (D := Zdt) (fun _ _ => 0%Z) mxj 1 4 1 1 1 ;;
  n <- norm_new (D := Zdt) (fun _ _ => 0%Z) mxj ;;
  Ok [mxd; HMaxPool p; HNorm (NL (nl_l n) (Some 0%Z))].
Definition frx : mat Zdt := mxm 1 4 [12; 0; 3; 6]%Z.
Definition learned (r : res (list Zdt * trainer Zdt * net Zdt * lheap Zdt)) : option (list Z * list Z * list Z) :=
  match r with Ok (vs, _, n', H') => Some (vs, el (l_W (o_l (n_output n'))), match nth_error H' 0 with Some h => el (l_W (h_base h)) | None => [] end) | _ => None end.
Definition fr_learns (data : list (mat Zdt * mat Zdt * bool)) (hid : list nat) : option (list Z * list Z * list Z) :=
  match frH with Ok H => learned (train_on (D := Zdt) mxj data frt (frn hid) H) | _ => None end.
Definition fr_feat : mat Zdt := mxm 1 4 [1; 0; 0; 0]%Z.
Example C105_example :
  (exists H, frH = Ok H /\ NoDup (n_hidden (frn [2; 1; 0])) /\ (forall p, In p [2; 1] -> exists h, nth_error H p = Some h /\ preprocessing h)) /\
  match frH with Ok H => features (D := Zdt) mxj H [2; 1] frx | _ => Throw end = Ok fr_feat /\
  exists w1 w2, fr_learns [(frx, mxy, true)] [2; 1; 0] = Some w1 /\ fr_learns [(fr_feat, mxy, true)] [0] = Some w1 /\
    fr_learns [(frx, mxy, true); (frx, mxy, true)] [2; 1; 0] = Some w2 /\ fr_learns [(fr_feat, mxy, true); (fr_feat, mxy, true)] [0] = Some w2 /\ w1 <> w2.
Proof.
  split.
  - unfold frH. destruct (maxpool_new (D := Zdt) (fun _ _ => 0%Z) mxj 1 4 1 1 1) as [p| | |] eqn:E1; [|exfalso; revert E1; vm_compute; discriminate..].
    destruct (norm_new (D := Zdt) (fun _ _ => 0%Z) mxj) as [n| | |] eqn:E2; [|exfalso; revert E2; vm_compute; discriminate..]. cbn [bind]. eexists. split; [reflexivity|]. split; [repeat constructor; cbn; intuition lia|].
    intros q [<-|[<-|[]]]; eexists; (split; [reflexivity|]); [reflexivity|exact I].
  - split; [vm_compute; reflexivity|]. do 2 eexists. do 4 (split; [vm_compute; reflexivity|]). discriminate.
Qed.

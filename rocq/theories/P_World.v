(** P_World.v - C43: networks, copies and the layer objects they share. *)
From Verif Require Import Base Mat Act Layer Conv Misc Net NetP Trainer TrainP TrainP2 ExNet P_Train World.
From Coq Require Import Arith.
Local Open Scope nat_scope.

Section World.
Context {D : dtype}.
Notation mat := (mat D).
Notation layer := (layer D).
Notation net := (net D).
Notation lheap := (lheap D).
Context (draw : D -> nat -> D) (junk : nat -> D).

(** ** Specification *)

(** The network an operation may change (for a copy: none of the existing ones). *)
Definition target (o : wop D) : option nat := match o with WDo k _ => Some k | WCopy _ => None | WAssign d _ => Some d end.
Definition assigns (k : nat) (o : wop D) : Prop := match o with WAssign d _ => d = k | _ => False end.
(** Two networks share no layer object. *)
Definition disjoint (n m : net) : Prop := forall p, In p (n_hidden n) -> ~ In p (n_hidden m).

(** ** Locality: a call on a network reads and writes only its own layer objects *)
Definition agree (ids : list nat) (H1 H2 : lheap) : Prop := forall p, In p ids -> nth_error H1 p = nth_error H2 p.
Definition outside (ids : list nat) (B K : lheap) : Prop := length K = length B /\ forall p, ~ In p ids -> nth_error K p = nth_error B p.
Definition Rel {A} (ids : list nat) (P : A -> Prop) (B1 B2 : lheap) (r1 r2 : res (A * lheap)) : Prop :=
  match r1, r2 with
  | Ok (a, K1), Ok (b, K2) => a = b /\ P a /\ agree ids K1 K2 /\ outside ids B1 K1 /\ outside ids B2 K2
  | Undef u, Undef v => u = v
  | Abort, Abort | Throw, Throw => True
  | _, _ => False
  end.
Definition RelH (ids : list nat) (B1 B2 : lheap) (r1 r2 : res lheap) : Prop :=
  match r1, r2 with
  | Ok K1, Ok K2 => agree ids K1 K2 /\ outside ids B1 K1 /\ outside ids B2 K2
  | Undef u, Undef v => u = v
  | Abort, Abort | Throw, Throw => True
  | _, _ => False
  end.

Lemma outside_refl ids B : outside ids B B. Proof. split; auto. Qed.
Lemma outside_upd ids B K p h : In p ids -> outside ids B K -> outside ids B (upd p h K).
Proof.
  intros Hp [E1 E2]. split; [now rewrite upd_length|]. intros q Hq. rewrite nth_error_upd. destruct (Nat.eqb_spec q p) as [->|]; [contradiction|auto].
Qed.
Lemma agree_upd ids K1 K2 p h : agree ids K1 K2 -> agree ids (upd p h K1) (upd p h K2).
Proof.
  intros HA q Hq. rewrite !nth_error_upd. destruct (Nat.eqb_spec q p) as [->|]; [|auto]. rewrite (HA p Hq). reflexivity.
Qed.

Lemma rel_bind {A B} ids (P : A -> Prop) (Q : B -> Prop) B1 B2 r1 r2 k1 k2 : Rel ids P B1 B2 r1 r2 ->
  (forall a K1 K2, P a -> agree ids K1 K2 -> outside ids B1 K1 -> outside ids B2 K2 -> Rel ids Q B1 B2 (k1 (a, K1)) (k2 (a, K2))) ->
  Rel ids Q B1 B2 (bind r1 k1) (bind r2 k2).
Proof.
  intros R K. destruct r1 as [[a K1]| | |], r2 as [[b K2]| | |]; cbn [Rel] in R; try contradiction; cbn [bind]; auto.
  destruct R as (<- & HP & HA & HO1 & HO2). apply K; auto.
Qed.
Lemma rel_bindH {B} ids (Q : B -> Prop) B1 B2 r1 r2 k1 k2 : RelH ids B1 B2 r1 r2 ->
  (forall K1 K2, agree ids K1 K2 -> outside ids B1 K1 -> outside ids B2 K2 -> Rel ids Q B1 B2 (k1 K1) (k2 K2)) ->
  Rel ids Q B1 B2 (bind r1 k1) (bind r2 k2).
Proof.
  intros R K. destruct r1, r2; cbn [RelH] in R; try contradiction; cbn [bind]; auto. destruct R as (HA & HO1 & HO2). apply K; auto.
Qed.
(** A pure step. *)
Lemma rel_pure {A B} ids (Q : B -> Prop) B1 B2 (r : res A) k1 k2 :
  (forall a, r = Ok a -> Rel ids Q B1 B2 (k1 a) (k2 a)) -> Rel ids Q B1 B2 (bind r k1) (bind r k2).
Proof. intros K. destruct r; cbn; auto. Qed.
Lemma rel_pureH {A} ids B1 B2 (r : res A) k1 k2 :
  (forall a, r = Ok a -> RelH ids B1 B2 (k1 a) (k2 a)) -> RelH ids B1 B2 (bind r k1) (bind r k2).
Proof. intros K. destruct r; cbn; auto. Qed.
Lemma rel_ok {A} ids (P : A -> Prop) B1 B2 a K1 K2 : P a -> agree ids K1 K2 -> outside ids B1 K1 -> outside ids B2 K2 -> Rel ids P B1 B2 (Ok (a, K1)) (Ok (a, K2)).
Proof. cbn. auto. Qed.
Lemma rel_lget {B} ids (Q : B -> Prop) B1 B2 p K1 K2 k1 k2 : In p ids -> agree ids K1 K2 ->
  (forall h, Rel ids Q B1 B2 (k1 h) (k2 h)) -> Rel ids Q B1 B2 (bind (lget K1 p) k1) (bind (lget K2 p) k2).
Proof. intros Hp HA K. unfold lget. rewrite (HA p Hp). destruct (nth_error K2 p); cbn; auto. Qed.
Lemma rel_lgetH ids B1 B2 p K1 K2 k1 k2 : In p ids -> agree ids K1 K2 ->
  (forall h, RelH ids B1 B2 (k1 h) (k2 h)) -> RelH ids B1 B2 (bind (lget K1 p) k1) (bind (lget K2 p) k2).
Proof. intros Hp HA K. unfold lget. rewrite (HA p Hp). destruct (nth_error K2 p); cbn; auto. Qed.
Lemma rel_foldM {A X} ids (P : A -> Prop) B1 B2 (f : A * lheap -> X -> res (A * lheap)) (l : list X) :
  (forall a x K1 K2, In x l -> P a -> agree ids K1 K2 -> outside ids B1 K1 -> outside ids B2 K2 -> Rel ids P B1 B2 (f (a, K1) x) (f (a, K2) x)) ->
  forall a K1 K2, P a -> agree ids K1 K2 -> outside ids B1 K1 -> outside ids B2 K2 -> Rel ids P B1 B2 (foldM f l (a, K1)) (foldM f l (a, K2)).
Proof.
  induction l as [|x l IH]; intros F a K1 K2 HP HA O1 O2; cbn [foldM]; [now apply rel_ok|].
  eapply rel_bind; [apply F; auto; now left|]. intros b M1 M2 HP' HA' O1' O2'. apply IH; auto. intros; apply F; auto. now right.
Qed.
Lemma rel_foldMH {X} ids B1 B2 (f : lheap -> X -> res lheap) (l : list X) :
  (forall x K1 K2, In x l -> agree ids K1 K2 -> outside ids B1 K1 -> outside ids B2 K2 -> RelH ids B1 B2 (f K1 x) (f K2 x)) ->
  forall K1 K2, agree ids K1 K2 -> outside ids B1 K1 -> outside ids B2 K2 -> RelH ids B1 B2 (foldM f l K1) (foldM f l K2).
Proof.
  induction l as [|x l IH]; intros F K1 K2 HA O1 O2; cbn [foldM]; [cbn; auto|].
  assert (R : RelH ids B1 B2 (f K1 x) (f K2 x)) by (apply F; auto; now left).
  destruct (f K1 x), (f K2 x); cbn [RelH] in R; try contradiction; cbn [bind]; auto. destruct R as (HA' & O1' & O2'). apply IH; auto. intros; apply F; auto. now right.
Qed.

Lemma rel_hf ids B1 B2 : forall sub x K1 K2, incl sub ids -> agree ids K1 K2 -> outside ids B1 K1 -> outside ids B2 K2 ->
  Rel ids (fun _ : mat => True) B1 B2 (hidden_forward junk sub x K1) (hidden_forward junk sub x K2).
Proof.
  induction sub as [|p sub IH]; intros x K1 K2 HI HA O1 O2; cbn [hidden_forward]; [now apply rel_ok|].
  assert (In p ids) by (apply HI; now left). apply rel_lget; auto. intros h. apply rel_pure. intros [a h'] _.
  apply IH; auto using agree_upd, outside_upd. intros q Hq. apply HI. now right.
Qed.
Lemma rel_hb ids B1 B2 : forall sub d K1 K2, incl sub ids -> agree ids K1 K2 -> outside ids B1 K1 -> outside ids B2 K2 ->
  RelH ids B1 B2 (hidden_backprop junk sub d K1) (hidden_backprop junk sub d K2).
Proof.
  induction sub as [|p sub IH]; intros x K1 K2 HI HA O1 O2; cbn [hidden_backprop]; [cbn; auto|].
  assert (In p ids) by (apply HI; now left). apply rel_lgetH; auto. intros h. apply rel_pureH. intros [a h'] _.
  apply IH; auto using agree_upd, outside_upd. intros q Hq. apply HI. now right.
Qed.

Definition has_ids (ids : list nat) (n : net) : Prop := n_hidden n = ids.
Definition has_ids2 {A} (ids : list nat) (p : A * net) : Prop := n_hidden (snd p) = ids.
Ltac fin := unfold has_ids, has_ids2 in *; cbn in *; auto using outside_refl.

Section Ops.
Context (ids : list nat) (B1 B2 : lheap).
Lemma rel_forward n K1 K2 x : has_ids ids n -> agree ids K1 K2 -> outside ids B1 K1 -> outside ids B2 K2 ->
  Rel ids (has_ids2 ids) B1 B2 (net_forward junk n K1 x) (net_forward junk n K2 x).
Proof.
  intros E HA O1 O2. unfold net_forward. destruct (input_forward (n_input n) x) as [cur i']. rewrite E.
  eapply rel_bind; [apply rel_hf; auto using incl_refl|]. intros a M1 M2 _ HA' O1' O2'. apply rel_pure. intros [r o'] _. apply rel_ok; fin.
Qed.
Lemma rel_backprop n K1 K2 y : has_ids ids n -> agree ids K1 K2 -> outside ids B1 K1 -> outside ids B2 K2 ->
  Rel ids (has_ids ids) B1 B2 (net_backprop junk n K1 y) (net_backprop junk n K2 y).
Proof.
  intros E HA O1 O2. unfold net_backprop. rewrite E. apply rel_pure. intros [d o'] _.
  eapply rel_bindH; [apply rel_hb; auto; intros q Hq; now apply in_rev|]. intros M1 M2 HA' O1' O2'. apply rel_ok; fin.
Qed.
Lemma rel_update n K1 K2 : has_ids ids n -> agree ids K1 K2 -> outside ids B1 K1 -> outside ids B2 K2 ->
  Rel ids (has_ids ids) B1 B2 (net_update n K1) (net_update n K2).
Proof.
  intros E HA O1 O2. unfold net_update. rewrite E. apply rel_pure. intros o' _. eapply rel_bindH.
  - apply rel_foldMH; auto. intros p M1 M2 Hp HA' O1' O2'. apply rel_lgetH; auto. intros h. apply rel_pureH. intros h' _. cbn. auto using agree_upd, outside_upd.
  - intros M1 M2 HA' O1' O2'. apply rel_ok; fin.
Qed.
Lemma rel_update_with n K1 K2 og hg : has_ids ids n -> agree ids K1 K2 -> outside ids B1 K1 -> outside ids B2 K2 ->
  Rel ids (has_ids ids) B1 B2 (net_update_with n K1 og hg) (net_update_with n K2 og hg).
Proof.
  intros E HA O1 O2. unfold net_update_with. rewrite E. apply rel_pure. intros o' _. eapply rel_bindH.
  - apply rel_foldMH; auto. intros [i p] M1 M2 Hp HA' O1' O2'. apply in_combine_r in Hp. apply rel_lgetH; auto. intros h. cbn [fst snd].
    destruct (nth_error hg i); [|cbn; auto]. apply rel_pureH. intros h' _. cbn. auto using agree_upd, outside_upd.
  - intros M1 M2 HA' O1' O2'. apply rel_ok; fin.
Qed.
Lemma rel_predict n K1 K2 x : has_ids ids n -> agree ids K1 K2 -> outside ids B1 K1 -> outside ids B2 K2 ->
  Rel ids (has_ids2 ids) B1 B2 (net_predict junk n K1 x) (net_predict junk n K2 x).
Proof.
  intros E HA O1 O2. unfold net_predict. eapply rel_bind; [apply rel_forward; auto|]. intros [r n'] M1 M2 E' HA' O1' O2'. cbn zeta.
  apply rel_pure. intros m _. apply rel_ok; fin.
Qed.
Lemma rel_setlrate n K1 K2 r : has_ids ids n -> agree ids K1 K2 -> outside ids B1 K1 -> outside ids B2 K2 ->
  Rel ids (has_ids ids) B1 B2 (net_setlrate n K1 r) (net_setlrate n K2 r).
Proof.
  intros E HA O1 O2. unfold net_setlrate. rewrite E. eapply rel_bindH.
  - apply rel_foldMH; auto. intros p M1 M2 Hp HA' O1' O2'. apply rel_lgetH; auto. intros h. cbn. auto using agree_upd, outside_upd.
  - intros M1 M2 HA' O1' O2'. apply rel_ok; fin.
Qed.
Lemma rel_decay (t : trainer D) n K1 K2 : has_ids ids n -> agree ids K1 K2 -> outside ids B1 K1 -> outside ids B2 K2 ->
  Rel ids (has_ids ids) B1 B2 (decay t n K1) (decay t n K2).
Proof. intros E HA O1 O2. unfold decay. destruct (_ && _); [now apply rel_setlrate|]. apply rel_ok; fin. Qed.
Lemma rel_step n K1 K2 x y : has_ids ids n -> agree ids K1 K2 -> outside ids B1 K1 -> outside ids B2 K2 ->
  Rel ids (has_ids ids) B1 B2 (train_step junk n K1 x y) (train_step junk n K2 x y).
Proof.
  intros E HA O1 O2. unfold train_step. eapply rel_bind; [apply rel_forward; auto|]. intros [r n'] M1 M2 E' HA' O1' O2'.
  eapply rel_bind; [apply rel_backprop; auto|]. intros n2 N1 N2 E2 HA2 O12 O22. apply rel_update; auto.
Qed.
Lemma rel_gethidden n K1 K2 i : has_ids ids n -> agree ids K1 K2 -> net_gethidden n K1 i = net_gethidden n K2 i.
Proof.
  intros E HA. unfold net_gethidden. destruct (nth_error (n_hidden n) i) as [p|] eqn:Q; [|reflexivity]. unfold lget. rewrite (HA p); [reflexivity|].
  rewrite <- E. eapply nth_error_In; eauto.
Qed.
Lemma mapM_ext {A B} (f g : A -> res B) l : (forall x, In x l -> f x = g x) -> mapM f l = mapM g l.
Proof. induction l as [|x l IH]; intros H; cbn; [reflexivity|]. rewrite H by now left. rewrite IH; auto. intros; apply H; now right. Qed.

Lemma rel_do o n K1 K2 : has_ids ids n -> agree ids K1 K2 -> outside ids B1 K1 -> outside ids B2 K2 ->
  Rel ids (has_ids ids) B1 B2 (net_do draw junk o n K1) (net_do draw junk o n K2).
Proof.
  intros E HA O1 O2. destruct o as [x|y| |og hg|x|r|i s|i w|w|t x y c|t x y c|t x y c|t x y c]; cbn [net_do].
  - eapply rel_bind; [apply rel_forward; auto|]. intros [r n'] M1 M2 E' HA' O1' O2'. apply rel_ok; fin.
  - now apply rel_backprop.
  - now apply rel_update.
  - now apply rel_update_with.
  - eapply rel_bind; [apply rel_predict; auto|]. intros [r n'] M1 M2 E' HA' O1' O2'. apply rel_ok; fin.
  - now apply rel_setlrate.
  - unfold net_randomize. rewrite E. destruct (nth_error ids i) as [p|] eqn:Q; [|apply rel_ok; fin].
    assert (In p ids) by (eapply nth_error_In; eauto). apply rel_lget; auto. intros h. apply rel_ok; fin; auto using agree_upd, outside_upd.
  - unfold net_sethiddenw. rewrite E. destruct (nth_error ids i) as [p|] eqn:Q; [|cbn; auto].
    assert (In p ids) by (eapply nth_error_In; eauto). eapply rel_bindH; [apply rel_lgetH; auto; intros h; cbn; auto using agree_upd, outside_upd|].
    intros M1 M2 HA' O1' O2'. apply rel_ok; fin.
  - apply rel_ok; fin.
  - unfold feeddata_cost, feeddata. eapply rel_bind with (P := has_ids2 ids).
    + eapply rel_bind with (P := has_ids2 ids).
      * eapply rel_bind; [apply rel_decay; auto|]. intros n0 M1 M2 E' HA' O1' O2'. eapply rel_bind; [apply rel_step; auto|]. intros n2 N1 N2 E2 HA2 O12 O22. apply rel_ok; fin.
      * intros [t' n'] M1 M2 E' HA' O1' O2'. destruct c; [apply rel_pure; intros cc _|]; apply rel_ok; fin.
    + intros [[cc t'] n'] M1 M2 E' HA' O1' O2'. apply rel_ok; fin.
  - unfold sgd_feeddata_cost, sgd_feeddata, sgd_rows. eapply rel_bind with (P := has_ids2 ids).
    + eapply rel_bind with (P := has_ids2 ids).
      * eapply rel_bind; [apply rel_decay; auto|]. intros n0 M1 M2 E' HA' O1' O2'. eapply rel_bind with (P := has_ids ids).
        -- apply rel_foldM; auto. intros n1 i N1 N2 _ E2 HA2 O12 O22. unfold sgd_row. apply rel_pure. intros xi _. eapply rel_bind; [apply rel_forward; auto|]. intros [r n3] L1 L2 E3 HA3 O13 O23. apply rel_pure. intros yi _. eapply rel_bind; [apply rel_backprop; auto|]. intros n4 M1' M2' E4 HA4 O14 O24. apply rel_update; auto.
        -- intros n2 N1 N2 E2 HA2 O12 O22. apply rel_ok; fin.
      * intros [t' n'] M1 M2 E' HA' O1' O2'. eapply rel_bind with (P := has_ids2 ids).
        -- apply rel_foldM; auto. intros [cc n1] i N1 N2 _ E2 HA2 O12 O22. destruct c; [|apply rel_ok; fin]. apply rel_pure. intros xi _.
           eapply rel_bind; [apply rel_predict; auto|]. intros [r n3] L1 L2 E3 HA3 O13 O23. apply rel_pure. intros yi _. apply rel_pure. intros ci _. apply rel_ok; fin.
        -- intros [cc n2] N1 N2 E2 HA2 O12 O22. apply rel_ok; fin.
    + intros [[cc t'] n'] M1 M2 E' HA' O1' O2'. apply rel_ok; fin.
  - unfold batch_feeddata_cost, batch_feeddata, batch_loop. eapply rel_bind with (P := has_ids2 ids).
    + eapply rel_bind with (P := has_ids2 ids).
      * cbn zeta. apply rel_pure. intros tx _. apply rel_pure. intros ty _. eapply rel_bind with (P := has_ids2 ids).
        -- apply rel_foldM; auto. intros [t1 n1] i N1 N2 _ E2 HA2 O12 O22. apply rel_pure. intros xb _. eapply rel_bind; [apply rel_forward; auto|].
           intros [r n3] L1 L2 E3 HA3 O13 O23. apply rel_pure. intros yb _. eapply rel_bind; [apply rel_backprop; auto|]. intros n4 L3 L4 E4 HA4 O14 O24.
           eapply rel_bind; [apply rel_update; auto|]. intros n5 L5 L6 E5 HA5 O15 O25. apply rel_ok; fin.
        -- intros [t1 n1] N1 N2 E2 HA2 O12 O22. eapply rel_bind; [apply rel_decay; auto|]. intros n5 L5 L6 E5 HA5 O15 O25. apply rel_ok; fin.
      * intros [t' n'] M1 M2 E' HA' O1' O2'. apply rel_pure. intros cc _. apply rel_ok; fin.
    + intros [[cc t'] n'] M1 M2 E' HA' O1' O2'. apply rel_ok; fin.
  - unfold momentum_feeddata_cost, momentum_feeddata. eapply rel_bind with (P := has_ids2 ids).
    + eapply rel_bind with (P := has_ids2 ids).
      * cbn zeta. eapply rel_bind; [apply rel_decay; auto|]. intros n0 M1 M2 E' HA' O1' O2'. eapply rel_bind; [apply rel_forward; auto|]. intros [r n1] L1 L2 E3 HA3 O13 O23.
        eapply rel_bind; [apply rel_backprop; auto|]. intros n4 L3 L4 E4 HA4 O14 O24. apply rel_pure. intros og' _.
        rewrite (mapM_ext (fun ia => l <- net_gethidden n4 L3 (fst ia) ;; mom_hidden (mt_mom t) (t_iters (tick (mt_t t))) (snd ia) (l_grad l))
                          (fun ia => l <- net_gethidden n4 L4 (fst ia) ;; mom_hidden (mt_mom t) (t_iters (tick (mt_t t))) (snd ia) (l_grad l)))
          by (intros [i g] _; cbn [fst snd]; now rewrite (rel_gethidden n4 L3 L4 i E4 HA4)).
        apply rel_pure. intros hg' _. eapply rel_bind; [apply rel_update_with; auto|]. intros n5 L5 L6 E5 HA5 O15 O25. apply rel_ok; fin.
      * intros [t' n'] M1 M2 E' HA' O1' O2'. destruct c; [apply rel_pure; intros cc _|]; apply rel_ok; fin.
    + intros [[cc t'] n'] M1 M2 E' HA' O1' O2'. apply rel_ok; fin.
Qed.
End Ops.

(** What one call does to the rest of the store, and on what it depends. *)
Lemma do_frame o n H n' H' : net_do draw junk o n H = Ok (n', H') -> n_hidden n' = n_hidden n /\ outside (n_hidden n) H H'.
Proof.
  intros E. pose proof (rel_do (n_hidden n) H H o n H H eq_refl (fun _ _ => eq_refl) (outside_refl _ _) (outside_refl _ _)) as R.
  rewrite E in R. cbn in R. destruct R as (_ & R1 & _ & R2 & _). auto.
Qed.
Lemma do_local o n H1 H2 : agree (n_hidden n) H1 H2 ->
  match net_do draw junk o n H1, net_do draw junk o n H2 with
  | Ok (n1, K1), Ok (n2, K2) => n1 = n2 /\ agree (n_hidden n) K1 K2
  | Undef u, Undef v => u = v
  | Abort, Abort | Throw, Throw => True
  | _, _ => False
  end.
Proof.
  intros HA. pose proof (rel_do (n_hidden n) H1 H2 o n H1 H2 eq_refl HA (outside_refl _ _) (outside_refl _ _)) as R. unfold Rel in R.
  destruct (net_do draw junk o n H1) as [[a K1]| | |], (net_do draw junk o n H2) as [[b K2]| | |]; auto. destruct R as (R1 & _ & R2 & _). auto.
Qed.

(** ** Histories *)
Lemma wstep_len w o w' : wstep draw junk w o = Ok w' -> length (w_nets w) <= length (w_nets w') /\ length (w_heap w') = length (w_heap w).
Proof.
  destruct o as [k o|k|d s]; cbn [wstep]; intros E.
  - apply bind_ok in E as (n & _ & E). apply bind_ok in E as ([n' H'] & E1 & E). injection E as <-. cbn. rewrite upd_length. apply do_frame in E1 as [_ [E1 _]]. lia.
  - apply bind_ok in E as (n & _ & E). apply bind_ok in E as (n' & E1 & E). injection E as <-. cbn. rewrite app_length. cbn. lia.
  - apply bind_ok in E as (n & _ & E). apply bind_ok in E as (n' & E1 & E). injection E as <-. cbn. rewrite upd_length. lia.
Qed.
(** A network not targeted keeps its own state; one not assigned to keeps its list of layer objects. *)
Lemma wstep_net w o w' k n : wstep draw junk w o = Ok w' -> nth_error (w_nets w) k = Some n ->
  (target o <> Some k -> nth_error (w_nets w') k = Some n) /\
  (~ assigns k o -> exists n', nth_error (w_nets w') k = Some n' /\ n_hidden n' = n_hidden n).
Proof.
  destruct o as [j o|j|d s]; cbn [wstep target assigns]; intros E Hk.
  - apply bind_ok in E as (m & Em & E). apply bind_ok in E as ([n' H'] & E1 & E). injection E as <-. cbn [w_nets]. rewrite nth_error_upd.
    unfold the_net in Em. destruct (Nat.eqb_spec k j) as [->|Hne].
    + split; [congruence|]. intros _. rewrite Hk in *. injection Em as <-. exists n'. split; [reflexivity|]. eapply do_frame; exact E1.
    + split; [auto|]. intros _. eauto.
  - apply bind_ok in E as (m & Em & E). apply bind_ok in E as (n' & E1 & E). injection E as <-. cbn [w_nets].
    rewrite nth_error_app1 by (apply nth_error_Some; congruence). split; eauto.
  - apply bind_ok in E as (m & Em & E). apply bind_ok in E as (n' & E1 & E). injection E as <-. cbn [w_nets]. rewrite nth_error_upd.
    destruct (Nat.eqb_spec k d) as [->|]; split; intros; eauto; congruence.
Qed.
Lemma wrun_net : forall ops w w' k n, wrun draw junk ops w = Ok w' -> nth_error (w_nets w) k = Some n ->
  (Forall (fun o => target o <> Some k) ops -> nth_error (w_nets w') k = Some n) /\
  (Forall (fun o => ~ assigns k o) ops -> exists n', nth_error (w_nets w') k = Some n' /\ n_hidden n' = n_hidden n).
Proof.
  unfold wrun. induction ops as [|o ops IH]; intros w w' k n E Hk; cbn [foldM] in E.
  - injection E as <-. eauto.
  - apply bind_ok in E as (w1 & E1 & E). destruct (wstep_net _ _ _ _ _ E1 Hk) as [S1 S2]. split; intros F; inversion F; subst.
    + eapply IH; eauto.
    + destruct (S2 ltac:(assumption)) as (n1 & N1 & N2). destruct (IH _ _ _ _ E N1) as [_ I]. destruct I as (n2 & M1 & M2); [assumption|]. exists n2. split; [assumption|congruence].
Qed.

(** Copies: net_copy succeeds and shares the layer objects. *)
Lemma copy_ok (n : net) : exists n', net_copy draw junk n = Ok n' /\ n_hidden n' = n_hidden n /\ o_l (n_output n') = o_l (n_output n).
Proof.
  unfold net_copy, input_copy, layer_new. rewrite !(proj2 (Z.leb_le _ _)) by lia. cbn [andb bind]. eexists. split; [reflexivity|]. cbn.
  split; [reflexivity|]. apply layer_copy_id.
Qed.

(** ** C43 *)

(** A copy (made by the copy constructor, or by assignment to an existing network) shares its hidden layers with
    the original: whatever is done afterwards to any network of the program - training included - as long as
    neither of the two is assigned to, both see the same hidden layers, and each keeps its own output layer,
    input layer and result unless it is itself the target of a call. *)
Theorem C43_shared : forall w k m w1 ops w2,
  (wstep draw junk w (WCopy k) = Ok w1 /\ m = length (w_nets w) \/ wstep draw junk w (WAssign m k) = Ok w1 /\ m <> k) ->
  wrun draw junk ops w1 = Ok w2 -> Forall (fun o => ~ assigns k o /\ ~ assigns m o) ops ->
  exists n n1 n2 m2, nth_error (w_nets w) k = Some n /\ nth_error (w_nets w1) k = Some n /\ nth_error (w_nets w1) m = Some n1 /\
    nth_error (w_nets w2) k = Some n2 /\ nth_error (w_nets w2) m = Some m2 /\
    l_W (o_l (n_output n1)) = l_W (o_l (n_output n)) /\
    (forall i, net_gethidden n2 (w_heap w2) i = net_gethidden m2 (w_heap w2) i) /\
    n_hidden n2 = n_hidden n /\ n_hidden m2 = n_hidden n /\
    (Forall (fun o => target o <> Some k) ops -> n2 = n) /\ (Forall (fun o => target o <> Some m) ops -> m2 = n1).
Proof.
  intros w k m w1 ops w2 Hc Hr Hf.
  assert (C : exists n n1, nth_error (w_nets w) k = Some n /\ nth_error (w_nets w1) k = Some n /\ nth_error (w_nets w1) m = Some n1 /\ n_hidden n1 = n_hidden n /\ l_W (o_l (n_output n1)) = l_W (o_l (n_output n))).
  { destruct Hc as [[E ->]|[E Hne]]; cbn [wstep] in E; unfold the_net in E.
    - apply bind_ok in E as (n & En & E). apply bind_ok in E as (n' & E1 & E). injection E as <-. destruct (nth_error (w_nets w) k) as [n0|] eqn:Q; [|discriminate]. injection En as ->.
      destruct (copy_ok n) as (c & C1 & C2 & C3). rewrite C1 in E1. injection E1 as ->. exists n, n'. cbn [w_nets]. split; [reflexivity|].
      split; [rewrite nth_error_app1; [assumption|apply nth_error_Some; congruence]|]. split; [rewrite nth_error_app2, Nat.sub_diag by lia; reflexivity|]. split; [assumption|now rewrite C3].
    - apply bind_ok in E as (nd & End & E). apply bind_ok in E as (n & En & E). injection E as <-. destruct (nth_error (w_nets w) k) as [n0|] eqn:Q; [|discriminate]. injection En as ->.
      exists n, (net_assign nd n). cbn [w_nets]. rewrite !nth_error_upd, Nat.eqb_refl. destruct (Nat.eqb_spec k m) as [->|]; [congruence|].
      destruct (nth_error (w_nets w) m); [|discriminate]. repeat split; auto. }
  destruct C as (n & n1 & C1 & C2 & C3 & C4 & C5).
  assert (Fk : Forall (fun o => ~ assigns k o) ops) by (eapply Forall_impl; [|exact Hf]; cbn; tauto).
  assert (Fm : Forall (fun o => ~ assigns m o) ops) by (eapply Forall_impl; [|exact Hf]; cbn; tauto).
  destruct (wrun_net _ _ _ _ _ Hr C2) as [A1 A2]. destruct (wrun_net _ _ _ _ _ Hr C3) as [A3 A4].
  destruct (A2 Fk) as (n2 & N1 & N2). destruct (A4 Fm) as (m2 & M1 & M2). exists n, n1, n2, m2.
  repeat (split; [assumption|]). split; [|split; [assumption|split; [congruence|split]]].
  - intros i. unfold net_gethidden. now rewrite M2, C4, N2.
  - intros F. specialize (A1 F). congruence.
  - intros F. specialize (A3 F). congruence.
Qed.

(** Conversely, a network that shares no layer object with the networks being worked on - in particular one
    without hidden layers - is not affected at all: after any history of calls on other, disjoint networks,
    every further call on it has the same outcome as before. *)
Theorem C43_disjoint_unaffected : forall w k n ops w', nth_error (w_nets w) k = Some n ->
  Forall (fun o => exists j m, target o = Some j /\ j <> k /\ nth_error (w_nets w) j = Some m /\ ~ assigns j o /\ disjoint n m) ops ->
  wrun draw junk ops w = Ok w' ->
  nth_error (w_nets w') k = Some n /\
  (forall i, net_gethidden n (w_heap w') i = net_gethidden n (w_heap w) i) /\
  forall o, match net_do draw junk o n (w_heap w), net_do draw junk o n (w_heap w') with
            | Ok (n1, K1), Ok (n2, K2) => n1 = n2 /\ forall i, net_gethidden n1 K1 i = net_gethidden n2 K2 i
            | Undef u, Undef v => u = v
            | Abort, Abort | Throw, Throw => True
            | _, _ => False
            end.
Proof.
  intros w k n ops w' Hk Hf Hr.
  assert (G : forall ops w0, wrun draw junk ops w0 = Ok w' -> (forall j m, nth_error (w_nets w) j = Some m -> exists m', nth_error (w_nets w0) j = Some m' /\ n_hidden m' = n_hidden m) ->
     agree (n_hidden n) (w_heap w) (w_heap w0) ->
     Forall (fun o => exists j m, target o = Some j /\ j <> k /\ nth_error (w_nets w) j = Some m /\ ~ assigns j o /\ disjoint n m) ops -> agree (n_hidden n) (w_heap w) (w_heap w')).
  { clear ops Hf Hr. unfold wrun. induction ops as [|o ops IH]; intros w0 E Hids HA Hf; cbn [foldM] in E; [injection E as <-; assumption|].
    apply bind_ok in E as (w1 & E1 & E). inversion Hf as [|? ? Ho Hf']; subst. destruct Ho as (j & m & T1 & T2 & T3 & T4 & T5).
    destruct o as [j0 o|j0|dd s]; cbn [target assigns] in *; [|discriminate|congruence]. injection T1 as ->.
    apply (IH w1 E); [| |assumption].
    - intros i mi Hi. destruct (Hids i mi Hi) as (mi' & P1 & P2). destruct (wstep_net _ _ _ _ _ E1 P1) as [_ S2]. destruct S2 as (mi2 & Q1 & Q2); [cbn; auto|]. exists mi2. split; [assumption|congruence].
    - destruct (Hids j m T3) as (m' & P1 & P2). cbn [wstep] in E1. unfold the_net in E1. rewrite P1 in E1. cbn [bind] in E1. apply bind_ok in E1 as ([m'' H''] & E2 & E1). injection E1 as <-.
      apply do_frame in E2 as (_ & _ & E2). intros p Hp. rewrite (HA p Hp). symmetry. cbn [w_heap]. apply E2. rewrite P2. now apply T5. }
  assert (HA : agree (n_hidden n) (w_heap w) (w_heap w')) by (eapply G; eauto; intros p Hp; reflexivity).
  split.
  { eapply wrun_net; eauto. eapply Forall_impl; [|exact Hf]. intros o (j & m & T1 & T2 & _). rewrite T1. congruence. }
  split.
  { intros i. symmetry. apply (rel_gethidden (n_hidden n)); [reflexivity|assumption]. }
  intros o. pose proof (rel_do (n_hidden n) (w_heap w) (w_heap w') o n (w_heap w) (w_heap w') eq_refl HA (outside_refl _ _) (outside_refl _ _)) as R. unfold Rel in R.
  destruct (net_do draw junk o n (w_heap w)) as [[a K1]| | |], (net_do draw junk o n (w_heap w')) as [[b K2]| | |]; auto. destruct R as (<- & R1 & R2 & _). split; [reflexivity|].
  intros i. now apply (rel_gethidden (n_hidden n)).
Qed.

Lemma gh_nth (n : net) (H : lheap) ls i : hidden_layers n H = Ok ls -> net_gethidden n H i = match nth_error ls i with Some l => Ok l | None => Undef OutOfBounds end.
Proof.
  intros E. unfold hidden_layers in E. apply mapM_ok in E. pose proof (Forall2_len _ _ _ E) as EL. rewrite seq_length in EL.
  destruct (nth_error ls i) as [l|] eqn:Q.
  - assert (Hi : i < length ls) by (apply nth_error_Some; congruence). rewrite <- EL in Hi.
    eapply (Forall2_nth _ _ _ E i i l); [|assumption]. rewrite (nth_error_nth' _ 0) by (now rewrite seq_length). now rewrite seq_nth.
  - apply nth_error_None in Q. unfold net_gethidden. rewrite (proj2 (nth_error_None _ _)) by lia. reflexivity.
Qed.

(** Training the copy moves the original's hidden weights: after one feeddata on the copy [c] the weights of every
    hidden layer, read through the original, are the old ones minus the rate times the gradient; the original's
    own state (output layer included) is untouched. *)
Theorem C43_training_moves_original : forall w k w1 w2 (t : trainer D) x y n,
  wstep draw junk w (WCopy k) = Ok w1 -> nth_error (w_nets w) k = Some n -> dense_hidden n (w_heap w) -> t_usedecay t = false ->
  wstep draw junk w1 (WDo (length (w_nets w)) (OTrain t x y false)) = Ok w2 ->
  exists c a c1 H1 c2 H2, nth_error (w_nets w1) (length (w_nets w)) = Some c /\
    net_forward junk c (w_heap w) x = Ok (a, c1, H1) /\ net_backprop junk c1 H1 y = Ok (c2, H2) /\
    nth_error (w_nets w2) k = Some n /\
    forall i l, net_gethidden n (w_heap w) i = Ok l ->
      exists l2 l', net_gethidden c2 H2 i = Ok l2 /\ net_gethidden n (w_heap w2) i = Ok l' /\ moved l l2 l' /\ regularised l l2.
Proof.
  intros w k w1 w2 t x y n Hc Hk Hd Ht Hs.
  pose proof Hc as Hc0. cbn [wstep] in Hc. unfold the_net in Hc. rewrite Hk in Hc. cbn [bind] in Hc. destruct (copy_ok n) as (c & C1 & C2 & C3). rewrite C1 in Hc. cbn [bind] in Hc. injection Hc as Q1. subst w1.
  assert (Hm : nth_error (w_nets w ++ [c]) (length (w_nets w)) = Some c) by (rewrite nth_error_app2, Nat.sub_diag by lia; reflexivity).
  assert (Hdc : dense_hidden c (w_heap w)) by (unfold dense_hidden; rewrite C2; exact Hd).
  pose proof Hs as Hs0. cbn [wstep net_do] in Hs. unfold the_net in Hs. cbn [w_nets w_heap] in Hs. rewrite Hm in Hs. cbn [bind] in Hs. apply bind_ok in Hs as ([c' H'] & E1 & Hs). injection Hs as <-.
  apply bind_ok in E1 as ([[[cc t'] c''] H''] & E1 & Q). injection Q as -> ->. unfold feeddata_cost in E1. apply bind_ok in E1 as ([[t1 c3] H3] & E1 & Q). injection Q as <- -> -> ->.
  unfold feeddata, decay in E1. cbn [t_usedecay tick] in E1. rewrite Ht in E1. cbn [andb bind] in E1. apply bind_ok in E1 as ([c4 H4] & E1 & Q). injection Q as _ -> ->.
  destruct (train_step_moves junk c (w_heap w) x y c' H' Hdc E1) as (a & c1 & H1 & c2 & H2 & ls & ls2 & ls' & T1 & T2 & T3 & T4 & T5 & T6 & T7 & T8 & _ & _ & T9 & T10 & T11).
  exists c, a, c1, H1, c2, H2. split; [exact Hm|]. split; [exact T1|]. split; [exact T2|]. cbn [w_nets w_heap]. split.
  { rewrite nth_error_upd. assert (k < length (w_nets w)) by (apply nth_error_Some; congruence). destruct (Nat.eqb_spec k (length (w_nets w))); [lia|]. rewrite nth_error_app1 by assumption. exact Hk. }
  intros i l Hl.
  assert (Hl' : net_gethidden c (w_heap w) i = Ok l) by (unfold net_gethidden in *; now rewrite C2).
  rewrite (gh_nth _ _ _ i T3) in Hl'. destruct (nth_error ls i) as [l0|] eqn:Q; [|discriminate]. injection Hl' as ->.
  assert (Hi : i < length ls) by (apply nth_error_Some; congruence).
  destruct (nth_error ls2 i) as [l2|] eqn:Q2; [|apply nth_error_None in Q2; lia]. destruct (nth_error ls' i) as [l'|] eqn:Q3; [|apply nth_error_None in Q3; lia].
  exists l2, l'. split; [rewrite (gh_nth _ _ _ i T4), Q2; reflexivity|]. split.
  - pose proof (gh_nth _ _ _ i T5) as G. rewrite Q3 in G. unfold net_gethidden in *. rewrite T9, C2 in G. exact G.
  - now apply (T8 i).
Qed.
End World.
Print Assumptions C43_shared. Print Assumptions C43_disjoint_unaffected. Print Assumptions C43_training_moves_original.

(** A computed case: one hidden layer; training the copy changes what the original predicts, while an original
    without hidden layers keeps its prediction. *)
Definition exw : world Zdt := W [exn] exH.
Definition ext0 : trainer Zdt := trainer_new.
Definition outs (k : nat) (x : mat Zdt) (r : res (world Zdt)) : option (list Z) :=
  match r with
  | Ok w => match nth_error (w_nets w) k with
            | Some n => match net_forward exj n (w_heap w) x with Ok (a, _, _) => Some (el a) | _ => None end
            | None => None
            end
  | _ => None
  end.
Definition exdr : Zdt -> nat -> Zdt := fun _ _ => 1%Z.
Definition ex_ops : list (wop Zdt) := [WCopy 0; WDo 1 (OTrain ext0 exx exy false)].
Definition exn0 : net Zdt := N (D := Zdt) mempty quad_cost quad_costd (zl mempty) [] (O (zl (zm 2 1 [1; 2]%Z)) quad_cost quad_costd mempty).
Example C43_example :
  outs 0 exx (Ok exw) <> outs 0 exx (wrun exdr exj ex_ops exw) /\ outs 0 exx (Ok exw) <> None /\ outs 0 exx (wrun exdr exj ex_ops exw) <> None /\
  outs 0 exx (Ok (W [exn0] [])) = outs 0 exx (wrun exdr exj ex_ops (W [exn0] [])) /\
  outs 1 exx (wrun exdr exj ex_ops (W [exn0] [])) <> outs 0 exx (wrun exdr exj ex_ops (W [exn0] [])).
Proof. vm_compute. repeat split; discriminate. Qed.
(** The hypotheses of C43_training_moves_original and C43_shared are met by this program. *)
Example C43_example_hyps : dense_hidden exn (w_heap exw) /\ t_usedecay ext0 = false /\ is_ok (wstep exdr exj exw (WCopy 0)) = true /\
  is_ok (wrun exdr exj ex_ops exw) = true /\ Forall (fun o => ~ assigns 0 o /\ ~ assigns 1 o) ex_ops.
Proof.
  split. { split; [repeat constructor; intros []|]. intros p [<-|[]]. eexists. reflexivity. }
  split; [reflexivity|]. split; [vm_compute; reflexivity|]. split; [vm_compute; reflexivity|]. unfold ex_ops. repeat constructor; cbn; tauto.
Qed.

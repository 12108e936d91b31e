(** P_FrontMini.v - C105 for BatchTrainer and SGDTrainer. *)
From Verif Require Import Base Mat Act Layer Conv Misc Net NetP Trainer TrainP TrainP2 ExNet P_Train P_Decay P_Fwd P_Batch P_Sgd P_Mixed P_Front.
From Coq Require Import Arith List ZArith Lia.
Import ListNotations.
Local Open Scope nat_scope.

Section FrontMini.
Context {D : dtype} (junk : nat -> D).
Notation mat := (mat D).
Notation net := (net D).
Notation lheap := (lheap D).
Notation hlayer := (hlayer D).
Notation trainer := (trainer D).
Notation btrainer := (btrainer D).

(** ** Specification *)
(** BatchTrainer::feeddata(x, y, c) for every item of the data, and SGDTrainer::feeddata(x, y). *)
Fixpoint batch_on (data : list (mat * mat * bool)) (t : btrainer) (n : net) (H : lheap) : res (list D * btrainer * net * lheap) :=
  match data with
  | [] => Ok ([], t, n, H)
  | (x, y, c) :: r => '(v, t', n', H') <- batch_feeddata_cost junk t n H x y c ;; '(vs, t2, n2, H2) <- batch_on r t' n' H' ;; Ok (v :: vs, t2, n2, H2)
  end.
Definition sgd_on (data : list (mat * mat)) (t : trainer) (n : net) (H : lheap) : res (trainer * net * lheap) :=
  foldM (fun '(t, n, H) xy => sgd_feeddata junk t n H (fst xy) (snd xy)) data (t, n, H).
(** f has, mini-batch by mini-batch, the features of x. *)
Definition batch_features (H : lheap) (F : list nat) (b : nat) (x f : mat) : Prop :=
  nr f = nr x /\ 1 <= nr x /\ 1 <= nc x /\ 1 <= nc f /\
  forall j, j < nbatches (nr x) b -> features junk H F (pick x (batch_rows (nr x) b j)) = Ok (pick f (batch_rows (nr x) b j)).
(** f has, row by row, the features of x. *)
Definition row_features (H : lheap) (F : list nat) (x f : mat) : Prop :=
  nr f = nr x /\ forall r, r < nr x -> features junk H F (row_of x r) = Ok (row_of f r).

(** ** Proofs *)
Lemma steps_both F (H0 : lheap) (X Fx Y : nat -> mat) : forall l n H m K, NoDup (n_hidden n) -> fronted F H0 n H m K ->
  (forall j, In j l -> features junk H0 F (X j) = Ok (Fx j)) ->
  both (fun a b => fronted F H0 (fst a) (snd a) (fst b) (snd b) /\ n_hidden (fst a) = n_hidden n /\ (l <> [] -> n_result (fst a) = n_result (fst b)))
    (foldM (fun '(n, H) j => train_step junk n H (X j) (Y j)) l (n, H)) (foldM (fun '(n, H) j => train_step junk n H (Fx j) (Y j)) l (m, K)).
Proof.
  induction l as [|j l IH]; intros n H m K ND R Hl; cbn [foldM]; [cbn; repeat split; auto; try apply R; congruence|].
  pose proof (step_both junk F H0 n H m K (X j) (Fx j) (Y j) ND R (Hl j (or_introl eq_refl))) as Q.
  destruct (train_step junk n H (X j) (Y j)) as [[n1 H1]|u| |], (train_step junk m K (Fx j) (Y j)) as [[m1 K1]|u'| |]; cbn in Q; try contradiction; cbn [bind]; auto.
  destruct Q as (R1 & Eh & Er). rewrite <- Eh in ND. specialize (IH n1 H1 m1 K1 ND R1 (fun i Hi => Hl i (or_intror Hi))).
  destruct l as [|i l]; [cbn; cbn in IH; intuition congruence|].
  destruct (foldM _ (i :: l) (n1, H1)) as [[n2 H2]|u| |], (foldM _ (i :: l) (m1, K1)) as [[m2 K2]|u'| |]; cbn [both] in *; try contradiction; auto. cbn [fst snd] in *.
  destruct IH as (A & B & C). repeat split; try apply A; try congruence. intros _. apply C. discriminate.
Qed.
Lemma decay_result (t : trainer) (n : net) (H : lheap) n' H' : decay t n H = Ok (n', H') -> n_result n' = n_result n.
Proof. unfold decay, net_setlrate. destruct (_ && _); intros E; [|now injection E as <- <-]. apply bind_ok in E as (G & _ & E). injection E as <- <-. reflexivity. Qed.
Lemma batch_call_both F H0 b (t t0 : btrainer) n H m K x f y c : bt_size t = Z.of_nat b -> bt_t t0 = bt_t t -> bt_size t0 = bt_size t ->
  NoDup (n_hidden n) -> fronted F H0 n H m K -> batch_features H0 F b x f -> 1 <= nc y -> nr y = nr x ->
  both (fun a b => let '(v, t', n', H') := a in let '(v2, t2, m', K') := b in
      v = v2 /\ bt_t t2 = bt_t t' /\ bt_size t2 = bt_size t' /\ bt_size t' = bt_size t /\ fronted F H0 n' H' m' K' /\ NoDup (n_hidden n'))
    (batch_feeddata_cost junk t n H x y c) (batch_feeddata_cost junk t0 m K f y c).
Proof.
  intros Eb Et Es ND R (Ef & Hx1 & Hx2 & Hf2 & HF) Hy Hyr. unfold batch_feeddata_cost.
  destruct (Nat.le_gt_cases 2 b) as [B2|B2]; [destruct (Nat.le_gt_cases b (nr x + 1)) as [B3|B3]|].
  2,3: unfold batch_feeddata; rewrite !wrap_throw by lia; cbn; exact I.
  rewrite (C38_batches junk t n H x y b) by (auto; lia). rewrite (C38_batches junk t0 m K f y b) by (auto; try lia; congruence). rewrite Ef, Et.
  set (X := fun j => pick x (batch_rows (nr x) b j)). set (Y := fun j => pick y (batch_rows (nr x) b j)). set (Fx := fun j => pick f (batch_rows (nr x) b j)).
  pose proof (steps_both F H0 X Fx Y (seq 0 (nbatches (nr x) b)) n H m K ND R) as Q. specialize (Q ltac:(intros j Hj%in_seq; apply HF; lia)).
  change (fun '(n, H) j => train_step junk n H (pick x (batch_rows (nr x) b j)) (pick y (batch_rows (nr x) b j))) with (fun '(n, H) j => train_step junk n H (X j) (Y j)).
  change (fun '(n, H) j => train_step junk n H (pick f (batch_rows (nr x) b j)) (pick y (batch_rows (nr x) b j))) with (fun '(n, H) j => train_step junk n H (Fx j) (Y j)).
  destruct (foldM _ _ (n, H)) as [[n1 H1]|u| |], (foldM _ _ (m, K)) as [[m1 K1]|u'| |]; cbn [both] in Q; try contradiction; cbn [bind]; try exact Q. cbn [fst snd] in Q. destruct Q as (R1 & Eh & Er).
  assert (Nb : seq 0 (nbatches (nr x) b) <> []).
  { pose proof (nbatches_cover (nr x) b ltac:(lia)) as [Z _]. destruct (nbatches (nr x) b); [lia|discriminate]. }
  specialize (Er Nb). rewrite <- Eh in ND. set (u := ticks (bt_t t) (nbatches (nr x) b)).
  pose proof (decay_both F H0 u n1 H1 m1 K1 ND R1) as Q. destruct (decay u n1 H1) as [[n2 H2]|w| |] eqn:D1, (decay u m1 K1) as [[m2 K2]|w'| |] eqn:D2; cbn [both] in Q; try contradiction; cbn [bind]; try exact Q. cbn [fst snd] in Q. destruct Q as [R2 Eh2].
  apply decay_result in D1, D2. rewrite Es. assert (Ec : n_cost n2 = n_cost m2) by apply R2.
  assert (E : forall l (a : D), foldM (fun c0 _ => if c then ci <- net_computecost n2 (n_result n2) y ;; Ok (dadd c0 ci) else Ok c0) l a = foldM (fun c0 (_ : Z) => if c then ci <- net_computecost m2 (n_result m2) y ;; Ok (dadd c0 ci) else Ok c0) l a).
  { unfold net_computecost. replace (n_result m2) with (n_result n2) by congruence. rewrite Ec. reflexivity. }
  rewrite E. destruct (foldM _ _ (dofZ 0)) as [v|w| |]; cbn; auto. rewrite Eh2. auto 10.
Qed.
Lemma sgd_call_both F H0 (t : trainer) n H m K x f y : NoDup (n_hidden n) -> fronted F H0 n H m K -> row_features H0 F x f -> nr x <= nr y ->
  both (fun a b => let '(t', n', H') := a in let '(t2, m', K') := b in t' = t2 /\ fronted F H0 n' H' m' K' /\ NoDup (n_hidden n')) (sgd_feeddata junk t n H x y) (sgd_feeddata junk t m K f y).
Proof.
  intros ND R (Ef & HF) Hy. unfold sgd_feeddata.
  pose proof (decay_both F H0 (tick t) n H m K ND R) as Q. destruct (decay (tick t) n H) as [[n1 H1]|w| |], (decay (tick t) m K) as [[m1 K1]|w'| |]; cbn [both] in Q; try contradiction; cbn [bind]; try exact Q. cbn [fst snd] in Q. destruct Q as [R1 Eh]. rewrite <- Eh in ND.
  assert (G : forall z n H, nr z = nr x -> sgd_rows junk n H z y (seq 0 (nr x)) = foldM (fun '(n, H) j => train_step junk n H (row_of z j) (row_of y j)) (seq 0 (nr x)) (n, H)).
  { clear -Hy. intros z n H Ez. unfold sgd_rows. assert (L : forall r, In r (seq 0 (nr x)) -> r < nr x) by (intros r Hr%in_seq; lia). revert n H L. induction (seq 0 (nr x)) as [|r l IH]; intros n H L; [reflexivity|]. cbn [foldM].
    pose proof (L r (or_introl eq_refl)) as Lr. rewrite (sgd_row_step junk n H z y r (row_of z r) (row_of y r)) by (unfold mrow; rewrite (proj2 (Nat.ltb_lt r _)) by lia; reflexivity).
    destruct (train_step junk n H (row_of z r) (row_of y r)) as [[n2 H2]| | |]; cbn [bind]; auto. apply IH. intros; apply L; now right. }
  rewrite Ef, !G by auto. pose proof (steps_both F H0 (row_of x) (row_of f) (row_of y) (seq 0 (nr x)) n1 H1 m1 K1 ND R1) as Q. specialize (Q ltac:(intros j Hj%in_seq; apply HF; lia)).
  destruct (foldM _ _ (n1, H1)) as [[n2 H2]|w| |], (foldM _ _ (m1, K1)) as [[m2 K2]|w'| |]; cbn [both] in Q; try contradiction; cbn [bind]; try exact Q. cbn [fst snd] in Q. destruct Q as (R2 & Eh2 & _). cbn. rewrite Eh2. auto.
Qed.

Lemma fronted_start F (n m : net) (H K : lheap) : n_hidden n = F ++ n_hidden m -> n_output n = n_output m -> n_cost n = n_cost m ->
  (forall p, In p F -> exists h, nth_error H p = Some h /\ preprocessing h) -> (forall p, ~ In p F -> nth_error H p = nth_error K p) -> fronted F H n H m K.
Proof. intros E1 E2 E3 HF HA. split; [exact E1|]. split; [exact E2|]. split; [exact E3|]. split; [exact HA|]. intros p Hp. destruct (HF p Hp) as (h & A & B). exists h, h. repeat (split; [assumption|]). split; [apply alike_refl|]; assumption. Qed.

(** ** C105 *)
(** BatchTrainer: the same as C105_training, when f consists of the features of the mini-batches that are cut from x. *)
Theorem C105_minibatch : forall F b (n m : net) (H K : lheap) (t : btrainer) data data',
  NoDup (n_hidden n) -> n_hidden n = F ++ n_hidden m -> n_output n = n_output m -> n_cost n = n_cost m -> bt_size t = Z.of_nat b ->
  (forall p, In p F -> exists h, nth_error H p = Some h /\ preprocessing h) -> (forall p, ~ In p F -> nth_error H p = nth_error K p) ->
  Forall2 (fun d d' => batch_features H F b (fst (fst d)) (fst (fst d')) /\ snd (fst d) = snd (fst d') /\ snd d = snd d' /\
     1 <= nc (snd (fst d)) /\ nr (snd (fst d)) = nr (fst (fst d))) data data' ->
  both (fun a b => let '(vs, t', n', H') := a in let '(ws, t2, m', K') := b in vs = ws /\ bt_t t' = bt_t t2 /\ bt_size t' = bt_size t2 /\ n_output n' = n_output m' /\
      n_hidden n' = F ++ n_hidden m' /\ (forall p, ~ In p F -> nth_error H' p = nth_error K' p) /\ forall x, features junk H' F x = features junk H F x)
    (batch_on data t n H) (batch_on data' t m K).
Proof.
  intros F b n m H K t data data' ND E1 E2 E3 Eb HF HA X.
  assert (G : forall data data' t t0 n H0 K0 m, bt_size t = Z.of_nat b -> bt_t t0 = bt_t t -> bt_size t0 = bt_size t ->
     Forall2 (fun d d' => batch_features H F b (fst (fst d)) (fst (fst d')) /\ snd (fst d) = snd (fst d') /\ snd d = snd d' /\ 1 <= nc (snd (fst d)) /\ nr (snd (fst d)) = nr (fst (fst d))) data data' ->
     NoDup (n_hidden n) -> fronted F H n H0 m K0 ->
     both (fun a b => let '(vs, t', n', H') := a in let '(ws, t2, m', K') := b in vs = ws /\ bt_t t' = bt_t t2 /\ bt_size t' = bt_size t2 /\ fronted F H n' H' m' K') (batch_on data t n H0) (batch_on data' t0 m K0)).
  { clear. induction data as [|[[x y] c] data IH]; intros data' t t0 n H0 K0 m Eb Et Es X ND R; inversion X as [|? [[f y'] c'] ? dat2 (Z1 & Z2 & Z3 & Z4 & Z5) X2]; subst; cbn [fst snd] in *; cbn [batch_on]; [cbn; auto 10|]. subst y' c'.
    pose proof (batch_call_both F H b t t0 n H0 m K0 x f y c Eb Et Es ND R Z1 Z4 Z5) as Q. destruct (batch_feeddata_cost junk t n H0 x y c) as [[[[v t1] n1] H1]|u| |], (batch_feeddata_cost junk t0 m K0 f y c) as [[[[v' t1'] m1] K1]|u'| |]; cbn in Q; try contradiction; cbn [bind]; auto.
    destruct Q as (-> & Q1 & Q2 & Q3 & R1 & ND1). rewrite <- Q3 in Eb. specialize (IH dat2 t1 t1' n1 H1 K1 m1 Eb Q1 Q2 X2 ND1 R1). destruct (batch_on data t1 n1 H1) as [[[[vs t2] n2] H2]|u| |], (batch_on dat2 t1' m1 K1) as [[[[ws t3] m2] K2]|u'| |]; cbn in IH; try contradiction; cbn; auto.
    destruct IH as (-> & A & B & C). auto 10. }
  specialize (G data data' t t n H K m Eb eq_refl eq_refl X ND (fronted_start F n m H K E1 E2 E3 HF HA)). destruct (batch_on data t n H) as [[[[vs t2] n2] H2]|u| |], (batch_on data' t m K) as [[[[ws t3] m2] K2]|u'| |]; cbn in *; try contradiction; auto.
  destruct G as (-> & A & B & Q1 & Q2 & Q3 & Q4 & Q5). repeat split; auto. intros x. apply (front_features junk). exact Q5.
Qed.
(** SGDTrainer: the same for calls of feeddata(x, y), when f consists of the features of the rows of x. *)
Theorem C105_online : forall F (n m : net) (H K : lheap) (t : trainer) data data',
  NoDup (n_hidden n) -> n_hidden n = F ++ n_hidden m -> n_output n = n_output m -> n_cost n = n_cost m ->
  (forall p, In p F -> exists h, nth_error H p = Some h /\ preprocessing h) -> (forall p, ~ In p F -> nth_error H p = nth_error K p) ->
  Forall2 (fun d d' => row_features H F (fst d) (fst d') /\ snd d = snd d' /\ nr (fst d) <= nr (snd d)) data data' ->
  both (fun a b => let '(t', n', H') := a in let '(t2, m', K') := b in t' = t2 /\ n_output n' = n_output m' /\
      n_hidden n' = F ++ n_hidden m' /\ (forall p, ~ In p F -> nth_error H' p = nth_error K' p) /\ forall x, features junk H' F x = features junk H F x)
    (sgd_on data t n H) (sgd_on data' t m K).
Proof.
  intros F n m H K t data data' ND E1 E2 E3 HF HA X.
  assert (G : forall data data' t n H0 K0 m, Forall2 (fun d d' => row_features H F (fst d) (fst d') /\ snd d = snd d' /\ nr (fst d) <= nr (snd d)) data data' -> NoDup (n_hidden n) -> fronted F H n H0 m K0 ->
     both (fun a b => let '(t', n', H') := a in let '(t2, m', K') := b in t' = t2 /\ fronted F H n' H' m' K') (sgd_on data t n H0) (sgd_on data' t m K0)).
  { clear. unfold sgd_on. induction data as [|[x y] data IH]; intros data' t n H0 K0 m X ND R; inversion X as [|? [f y'] ? dat2 (Z1 & Z2 & Z3) X2]; subst; cbn [fst snd] in *; cbn [foldM]; [cbn; auto|]. subst y'.
    pose proof (sgd_call_both F H t n H0 m K0 x f y ND R Z1 Z3) as Q. cbn [fst snd]. destruct (sgd_feeddata junk t n H0 x y) as [[[t1 n1] H1]|u| |], (sgd_feeddata junk t m K0 f y) as [[[t1' m1] K1]|u'| |]; cbn in Q; try contradiction; cbn [bind]; auto.
    destruct Q as (-> & R1 & ND1). apply IH; auto. }
  specialize (G data data' t n H K m X ND (fronted_start F n m H K E1 E2 E3 HF HA)). destruct (sgd_on data t n H) as [[[t2 n2] H2]|u| |], (sgd_on data' t m K) as [[[t3 m2] K2]|u'| |]; cbn in *; try contradiction; auto.
  destruct G as (-> & Q1 & Q2 & Q3 & Q4 & Q5). repeat split; auto. intros x. apply (front_features junk). exact Q5.
Qed.
End FrontMini.

(** ** The hypotheses can be met *)
(** The networks of C105_example on three samples: BatchTrainer with mini-batches of two (the last one wraps around), decay due after the first call, behind the normalising layer alone
    (a pooling layer gives every row of a mini-batch the same features), and SGDTrainer, decay due at once, behind both layers.  The network with the layers in front and the one without them learn the same weights. *)
Definition fmx : mat Zdt := mxm 3 4 [4; 6; 5; 6; 4; 4; 5; 4; 6; 4; 6; 6]%Z.
Definition fmf : mat Zdt := mxm 3 4 [2; 3; 2; 3; 2; 2; 2; 2; 3; 2; 3; 3]%Z.
Definition fmy : mat Zdt := mxm 3 1 [7; 2; 5]%Z.
Definition fm_net (n : net Zdt) (H : lheap Zdt) : list Z * list Z := (el (l_W (o_l (n_output n))), match nth_error H 0 with Some h => el (l_W (h_base h)) | None => [] end).
Definition fm_batch (x : mat Zdt) (c : bool) (hid : list nat) : option (list Z * (list Z * list Z)) :=
  match frH with Ok H => match batch_on (D := Zdt) mxj [(x, fmy, c)] (BT frt mempty mempty 2) (frn hid) H with Ok (vs, _, n', H') => Some (vs, fm_net n' H') | _ => None end | _ => None end.
Definition fm_sgd (x : mat Zdt) (hid : list nat) : option (list Z * list Z) :=
  match frH with Ok H => match sgd_on (D := Zdt) mxj [(x, fmy)] (trainer_new_decay (D := Zdt) 1%Z 1%Z 1%Z) (frn hid) H with Ok (_, n', H') => Some (fm_net n' H') | _ => None end | _ => None end.
Example C105_mini_example :
  (exists H, frH = Ok H /\ NoDup (n_hidden (frn [2; 1; 0])) /\ (forall p, In p [2; 1] -> exists h, nth_error H p = Some h /\ preprocessing h) /\
     batch_features (D := Zdt) mxj H [2] 2 fmx fmf /\ row_features (D := Zdt) mxj H [2; 1] fmx fmf) /\
  (exists w1 w2, fm_batch fmx false [2; 0] = Some w1 /\ fm_batch fmf false [0] = Some w1 /\
     fm_sgd fmx [2; 1; 0] = Some w2 /\ fm_sgd fmf [0] = Some w2) /\
  (* the cost of the whole data set is compared with the answers for the last mini-batch: both calls throw *)
  fm_batch fmx true [2; 0] = None /\ fm_batch fmf true [0] = None.
Proof.
  split; [|split; [do 2 eexists; do 3 (split; [vm_compute; reflexivity|]); vm_compute; reflexivity|split; vm_compute; reflexivity]].
  destruct C105_example as [(H & EH & ND & HP) _].
  assert (B : forall j, j < 2 -> match frH with Ok H => features (D := Zdt) mxj H [2] (pick fmx (batch_rows 3 2 j)) | _ => Throw end = Ok (pick fmf (batch_rows 3 2 j)))
    by (intros [|[|j]] Hj; [vm_compute; reflexivity..|exfalso; lia]).
  assert (C : forall r, r < 3 -> match frH with Ok H => features (D := Zdt) mxj H [2; 1] (row_of fmx r) | _ => Throw end = Ok (row_of fmf r))
    by (intros [|[|[|r]]] Hr; [vm_compute; reflexivity..|exfalso; lia]).
  rewrite EH in B, C. exists H. repeat (split; [assumption|]). split; (split; [reflexivity|]); [|exact C].
  do 3 (split; [cbn; lia|]). exact B.
Qed.

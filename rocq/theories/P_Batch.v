(** P_Batch.v - C38, C39: how BatchTrainer cuts the data; C56 for BatchTrainer. *)
From Verif Require Import Base Mat Act Layer Conv Misc Net NetP Trainer TrainP TrainP2 ExNet P_Train P_Decay.
From Coq Require Import Arith.
Local Open Scope nat_scope.

(** ** Specification *)
(** ceil(rows / b) *)
Definition nbatches (rows b : nat) : nat := (rows + b - 1) / b.
(** The samples of the j-th mini-batch: b consecutive rows from row j*b on, wrapping around. *)
Definition batch_rows (rows b j : nat) : list nat := map (fun i => (j * b + i) mod rows) (seq 0 b).

Section Generic.
Context {D : dtype}.
Notation mat := (mat D).
Context (junk : nat -> D).
(** The matrix made of the given rows of m. *)
Definition pick (m : mat) (rows : list nat) : mat := mk (length rows) (nc m) (fun i j => at_ m (nth i rows 0) j).

(** ** Proof *)
Lemma wrap_ok (m : mat) (b : nat) : 1 <= nc m -> 2 <= b -> b <= nr m + 1 ->
  wrap_rows m (Z.of_nat b) = Ok (mk (nr m + (b - 1)) (nc m) (fun i j => at_ m (i mod nr m) j)).
Proof.
  intros Hc Hb Hb'. unfold wrap_rows, submat, sub_ok.
  rewrite (proj2 (Z.leb_le 0 0)), (proj2 (Z.leb_le 0 (Z.of_nat b - 2))), (proj2 (Z.ltb_lt (Z.of_nat b - 2) (Z.of_nat (nr m)))),
    (proj2 (Z.leb_le 0 (Z.of_nat (nc m) - 1))), (proj2 (Z.ltb_lt (Z.of_nat (nc m) - 1) (Z.of_nat (nc m)))) by lia.
  cbn [andb bind]. unfold insert_rows. cbn [nr nc mk]. rewrite Nat.leb_refl, (proj2 (Nat.eqb_eq _ (nc m))) by lia. cbn [andb]. f_equal.
  replace (Z.to_nat (Z.of_nat b - 2 - 0 + 1)) with (b - 1) by lia. apply mk_ext. intros i j Hi Hj.
  destruct (Nat.ltb_spec i (nr m)) as [L|L]; [now rewrite Nat.mod_small|].
  rewrite (proj2 (Nat.ltb_lt i (nr m + (b - 1)))) by assumption. rewrite at_mk by lia. f_equal.
  replace i with (i - nr m + 1 * nr m) at 2 by lia. rewrite Nat.mod_add by lia. rewrite Nat.mod_small by lia. lia.
Qed.
Lemma wrap_throw (m : mat) (b : Z) : (b < 2 \/ b > Z.of_nat (nr m) + 1)%Z -> wrap_rows m b = Throw.
Proof.
  intros H. unfold wrap_rows, submat, sub_ok.
  destruct (Z.leb_spec 0 (b - 2)); [|reflexivity]. destruct (Z.ltb_spec (b - 2) (Z.of_nat (nr m))); [lia|]. reflexivity.
Qed.
Lemma mrows_pick (m : mat) rows b s : nr m = rows -> 1 <= rows -> 1 <= b -> s + b <= rows + (b - 1) ->
  mrows (mk (rows + (b - 1)) (nc m) (fun i j => at_ m (i mod rows) j)) (Z.of_nat s) (Z.of_nat s + Z.of_nat b - 1) =
  Ok (pick m (map (fun i => (s + i) mod rows) (seq 0 b))).
Proof.
  intros E Hr Hb Hs. unfold mrows. cbn [nr nc mk].
  rewrite (proj2 (Z.leb_le 0 (Z.of_nat s))), (proj2 (Z.leb_le (Z.of_nat s) _)), (proj2 (Z.ltb_lt _ (Z.of_nat (rows + (b - 1))))) by lia. cbn [andb].
  f_equal. unfold pick. rewrite map_length, seq_length. replace (Z.to_nat (Z.of_nat s + Z.of_nat b - 1 - Z.of_nat s + 1)) with b by lia.
  apply mk_ext. intros i j Hi Hj. rewrite Nat2Z.id. rewrite at_mk by lia. f_equal.
  rewrite nth_map_seq by lia. reflexivity.
Qed.

(** The loop starts: 0, b, 2b, ... *)
Lemma nbatches_S k b : 1 <= b -> nbatches (S k) b = nbatches k b + (if k mod b =? 0 then 1 else 0) /\ (k mod b = 0 -> k = nbatches k b * b).
Proof.
  intros Hb. unfold nbatches. pose proof (Nat.div_mod k b ltac:(lia)) as E. pose proof (Nat.mod_upper_bound k b ltac:(lia)) as L. set (q := k / b) in *. set (r := k mod b) in *.
  replace (S k + b - 1) with (r + (q + 1) * b) by lia. rewrite Nat.div_add by lia. rewrite (Nat.div_small r b) by lia.
  destruct (Nat.eqb_spec r 0) as [R|R].
  - replace (k + b - 1) with (b - 1 + q * b) by lia. rewrite Nat.div_add, Nat.div_small by lia. split; [lia|]. intros _. lia.
  - replace (k + b - 1) with (r - 1 + (q + 1) * b) by lia. rewrite Nat.div_add, Nat.div_small by lia. split; [lia|]. intros X. lia.
Qed.
Lemma steps_list rows b : 1 <= b -> steps (Z.of_nat rows) (Z.of_nat b) = map (fun j => Z.of_nat (j * b)) (seq 0 (nbatches rows b)).
Proof.
  intros Hb. unfold steps, zrange. rewrite Nat2Z.id. induction rows as [|k IH].
  - cbn. unfold nbatches. rewrite Nat.div_small by lia. reflexivity.
  - rewrite seq_S, map_app, filter_app, IH. destruct (nbatches_S k b Hb) as [-> E]. cbn [map filter Nat.add]. rewrite <- Nat2Z.inj_mod.
    replace (Z.of_nat (k mod b) =? 0)%Z with (k mod b =? 0) by (destruct (Nat.eqb_spec (k mod b) 0), (Z.eqb_spec (Z.of_nat (k mod b)) 0); try reflexivity; lia).
    destruct (Nat.eqb_spec (k mod b) 0) as [Z|Z].
    + rewrite seq_app, map_app. cbn [map Nat.add seq]. rewrite <- (E Z). reflexivity.
    + rewrite Nat.add_0_r, app_nil_r. reflexivity.
Qed.
Lemma nbatches_lt rows b j : 1 <= b -> j < nbatches rows b -> j * b < rows.
Proof.
  intros Hb Hj. unfold nbatches in Hj. pose proof (Nat.div_mod (rows + b - 1) b ltac:(lia)) as E. pose proof (Nat.mod_upper_bound (rows + b - 1) b ltac:(lia)).
  set (q := (rows + b - 1) / b) in *. set (r := (rows + b - 1) mod b) in *. assert (j <= q - 1) by lia. nia.
Qed.
Lemma nbatches_cover rows b : 1 <= b -> rows <= nbatches rows b * b /\ nbatches rows b * b <= rows + (b - 1).
Proof.
  intros Hb. unfold nbatches. pose proof (Nat.div_mod (rows + b - 1) b ltac:(lia)) as E. pose proof (Nat.mod_upper_bound (rows + b - 1) b ltac:(lia)). nia.
Qed.

(** The trainer's counter after k mini-batches. *)
Definition ticks (t : trainer D) (k : nat) : trainer D := T (t_iters t + Z.of_nat k) (t_step t) (t_usedecay t) (t_k t) (t_r0 t).
Lemma ticks_0 t : ticks t 0 = t. Proof. destruct t. unfold ticks. cbn. f_equal. lia. Qed.
Lemma ticks_S t k : ticks (tick t) k = ticks t (S k). Proof. unfold ticks, tick. cbn [t_iters t_step t_usedecay t_k t_r0]. f_equal. lia. Qed.

(** ** C38 *)
(** feeddata = ceil(rows/b) ordinary training steps, the j-th on the rows [batch_rows rows b j], then the decay test. *)
Theorem C38_batches : forall (t : btrainer D) n H x y b, bt_size t = Z.of_nat b -> 2 <= b -> b <= nr x + 1 ->
  1 <= nc x -> 1 <= nc y -> nr y = nr x -> 1 <= nr x ->
  batch_feeddata junk t n H x y =
    ('(n1, H1) <- foldM (fun '(n, H) j => train_step junk n H (pick x (batch_rows (nr x) b j)) (pick y (batch_rows (nr x) b j)))
                    (seq 0 (nbatches (nr x) b)) (n, H) ;;
     '(n2, H2) <- decay (ticks (bt_t t) (nbatches (nr x) b)) n1 H1 ;;
     Ok (BT (ticks (bt_t t) (nbatches (nr x) b)) x y (bt_size t), n2, H2)).
Proof.
  intros t n H x y b Hbt Hb Hb' Hcx Hcy Hr Hr1. unfold batch_feeddata. rewrite Hbt. rewrite !wrap_ok by lia. cbn [bind]. rewrite steps_list by lia.
  rewrite Hr. set (rows := nr x) in *.
  assert (G : forall k s t n H, s + k = nbatches rows b ->
    batch_loop junk (Z.of_nat b) (mk (rows + (b - 1)) (nc x) (fun i j => at_ x (i mod rows) j)) (mk (rows + (b - 1)) (nc y) (fun i j => at_ y (i mod rows) j))
      (map (fun j => Z.of_nat (j * b)) (seq s k)) t n H =
    ('(n1, H1) <- foldM (fun '(n, H) j => train_step junk n H (pick x (batch_rows rows b j)) (pick y (batch_rows rows b j))) (seq s k) (n, H) ;;
     Ok (ticks t k, n1, H1))).
  { clear n H. induction k as [|k IH]; intros s u n H Hs; [cbn; now rewrite ticks_0|]. unfold batch_loop. cbn [seq map foldM].
    pose proof (nbatches_lt rows b s ltac:(lia) ltac:(lia)) as L.
    rewrite (mrows_pick x rows b (s * b)) by (try reflexivity; lia). cbn [bind]. fold (batch_rows rows b s).
    rewrite (mrows_pick y rows b (s * b)) by (auto; lia). fold (batch_rows rows b s). 
    replace (train_step junk n H (pick x (batch_rows rows b s)) (pick y (batch_rows rows b s))) with
      ('(_, n1, H1) <- net_forward junk n H (pick x (batch_rows rows b s)) ;; '(n2, H2) <- net_backprop junk n1 H1 (pick y (batch_rows rows b s)) ;; net_update n2 H2) by reflexivity.
    destruct (net_forward junk n H (pick x (batch_rows rows b s))) as [[[a n1] H1]| | |]; cbn [bind]; try reflexivity.
    destruct (net_backprop junk n1 H1 (pick y (batch_rows rows b s))) as [[n2 H2]| | |]; cbn [bind]; try reflexivity.
    destruct (net_update n2 H2) as [[n3 H3]| | |]; cbn [bind]; try reflexivity.
    specialize (IH (S s) (tick u) n3 H3 ltac:(lia)). unfold batch_loop in IH. rewrite IH. rewrite ticks_S. reflexivity. }
  rewrite G by lia. destruct (foldM _ _ _) as [[n1 H1]| | |]; cbn [bind]; try reflexivity.
Qed.

(** Every sample is used once, or twice if it is among the first b*ceil(rows/b) - rows ones; every batch has b rows. *)
Lemma flat_batches rows b k : flat_map (batch_rows rows b) (seq 0 k) = map (fun i => i mod rows) (seq 0 (k * b)).
Proof.
  induction k as [|k IH]; [reflexivity|]. rewrite seq_S, flat_map_app, IH. cbn [flat_map Nat.add]. rewrite app_nil_r.
  replace (S k * b) with (k * b + b) by lia. rewrite seq_app, map_app. f_equal. cbn [Nat.add].
  unfold batch_rows. clear. enough (G : forall s, map (fun i => (s + i) mod rows) (seq 0 b) = map (fun i => i mod rows) (seq s b)) by apply G.
  intros s. rewrite <- (map_map (fun i => s + i) (fun i => i mod rows)). f_equal. clear. revert s. induction b as [|b IH]; intros s; [reflexivity|].
  cbn [seq map]. rewrite Nat.add_0_r. f_equal. rewrite <- seq_shift, map_map, <- (IH (S s)). apply map_ext. intros a. lia.
Qed.
Theorem C38_coverage : forall rows b r, 1 <= b -> b <= rows + 1 -> r < rows ->
  count_occ Nat.eq_dec (flat_map (batch_rows rows b) (seq 0 (nbatches rows b))) r =
    (if r <? nbatches rows b * b - rows then 2 else 1).
Proof.
  intros rows b r Hb Hb' Hr. rewrite flat_batches. destruct (nbatches_cover rows b Hb) as [C1 C2].
  set (e := nbatches rows b * b - rows). replace (nbatches rows b * b) with (rows + e) by lia. assert (He : e <= rows) by lia.
  rewrite seq_app, map_app, count_occ_app. cbn [Nat.add].
  assert (A : forall k s, k <= rows -> count_occ Nat.eq_dec (map (fun i => i mod rows) (seq (s * rows) k)) r = if r <? k then 1 else 0).
  { clear -Hr. induction k as [|k IH]; intros s Hk; [reflexivity|]. rewrite seq_S, map_app, count_occ_app, IH by lia. cbn [map].
    rewrite (Nat.add_comm (s * rows) k), Nat.mod_add, Nat.mod_small by lia. cbn [count_occ].
    destruct (Nat.eq_dec k r) as [->|N]; [rewrite Nat.ltb_irrefl, (proj2 (Nat.ltb_lt r (S r))) by lia; reflexivity|].
    destruct (Nat.ltb_spec r k), (Nat.ltb_spec r (S k)); lia. }
  pose proof (A rows 0 (le_n _)) as A1. pose proof (A e 1 He) as A2. rewrite Nat.mul_0_l in A1. rewrite Nat.mul_1_l in A2. rewrite A1, A2.
  rewrite (proj2 (Nat.ltb_lt r rows)) by assumption. destruct (r <? e); reflexivity.
Qed.
Theorem C38_equal_size : forall rows b j, length (batch_rows rows b j) = b /\ (1 <= rows -> Forall (fun r => r < rows) (batch_rows rows b j)).
Proof.
  intros rows b j. unfold batch_rows. rewrite map_length, seq_length. split; [reflexivity|]. intros Hr. apply Forall_map, Forall_forall. intros i _.
  apply Nat.mod_upper_bound. lia.
Qed.

(** Any other batch size (in particular 1) makes every call throw, whatever the network. *)
Theorem C38_throws : forall (t : btrainer D) n H x y, (bt_size t < 2 \/ bt_size t > Z.of_nat (nr x) + 1)%Z ->
  batch_feeddata junk t n H x y = Throw.
Proof. intros t n H x y Hb. unfold batch_feeddata. rewrite wrap_throw by assumption. reflexivity. Qed.

(** ** C39 *)
Lemma lforward_rows : forall (ls : list (layer D)) x a ls', lforward ls x = Ok (a, ls') -> nr a = nr x.
Proof.
  induction ls as [|l ls IH]; intros x a ls' H; cbn [lforward] in H; [injection H as <- _; reflexivity|].
  apply bind_ok in H as ([b l'] & H1 & H). apply bind_ok in H as ([c r'] & H2 & H). injection H as <- _.
  apply forward_inv in H1 as (_ & -> & _). apply IH in H2. rewrite H2. reflexivity.
Qed.
Lemma train_step_result n H x y n' H' : dense_hidden n H -> train_step junk n H x y = Ok (n', H') ->
  dense_hidden n' H' /\ nr (n_result n') = nr x /\ kc n n' /\ exists n1 H1, net_forward junk n H x = Ok (n_result n', n1, H1).
Proof.
  intros Hdh HT. destruct (train_step_moves junk n H x y n' H' Hdh HT) as (a & n1 & H1 & n2 & H2 & k0 & k2 & k' & M1 & M2 & M3 & M4 & M5 & M6 & M7 & M8 & M9 & M10 & M11 & M12 & M13).
  split; [assumption|]. rewrite M13. split.
  { destruct (dense_ls n H Hdh) as [ls Hdn]. rewrite (net_forward_dense junk n H ls) in M1 by assumption. apply bind_ok in M1 as ([b ls1] & F1 & M1).
    apply bind_ok in M1 as ([r o'] & F2 & M1). injection M1 as <- _ _. apply out_forward_inv in F2 as (_ & -> & _). cbn. eapply lforward_rows; eauto. }
  split; [|eauto]. pose proof (forward_kc _ _ _ _ _ _ _ M1) as [K1 _]. pose proof (backprop_kc _ _ _ _ _ _ M2) as [K2 _].
  unfold train_step in HT. rewrite M1 in HT. cbn [bind] in HT. rewrite M2 in HT. cbn [bind] in HT. unfold net_update in HT.
  apply bind_ok in HT as (o' & HO & HT). apply bind_ok in HT as (H4 & _ & HT). injection HT as <- _. unfold output_update in HO. apply bind_ok in HO as (l & _ & HO). injection HO as <-.
  eapply kc_trans; [exact K1|]. exact K2.
Qed.
Lemma builtin_cost_throw C (y h : mat) : C = quad_cost \/ C = ce_cost \/ C = kl_cost \/ C = sm_cost -> nr y <> nr h -> C y h = Throw.
Proof.
  intros [-> | [-> | [-> | ->]]] N.
  - unfold quad_cost, msub. rewrite mzip_throw by tauto. reflexivity.
  - unfold ce_cost, mschur. rewrite mzip_throw by (cbn; tauto). reflexivity.
  - unfold kl_cost, mdiv. rewrite mzip_throw by tauto. reflexivity.
  - unfold sm_cost, softmax_P, mschur. destruct (mzip_cases dmul (exponential h) (mmap (fun s => ddiv (dofZ 1) s) (repeatm (rowsum (exponential h)) 1 (nc y)))) as [(m & E & E1 & _)|E];
      rewrite E; cbn [bind]; [|reflexivity]. rewrite mzip_throw; [reflexivity|]. cbn [mmap nr mk]. rewrite E1. cbn. tauto.
Qed.

Lemma decay_frame (t : trainer D) n H n' H' : dense_hidden n H -> decay t n H = Ok (n', H') -> n_result n' = n_result n /\ n_cost n' = n_cost n.
Proof.
  intros Hd. unfold decay. destruct (_ && _); [|intros E; injection E as <- <-; auto]. unfold net_setlrate. intros E. apply bind_ok in E as (H1 & _ & E). injection E as <- _. auto.
Qed.

(** With the cost requested: the training of the call succeeds, then the cost of the last mini-batch's output (b rows)
    against all labels throws - unless the batch is the whole data set, and then the value is the cost that the network
    had before the call. *)
Theorem C39_throws : forall (t : btrainer D) n H x y t' n' H' b, bt_size t = Z.of_nat b -> b <> nr x -> nr y = nr x -> 1 <= nc x -> 1 <= nc y -> 1 <= nr x ->
  dense_hidden n H -> (n_cost n = quad_cost \/ n_cost n = ce_cost \/ n_cost n = kl_cost \/ n_cost n = sm_cost) ->
  batch_feeddata junk t n H x y = Ok (t', n', H') ->
  batch_feeddata_cost junk t n H x y true = Throw.
Proof.
  intros t n H x y t' n' H' b Hbt Hne Hr Hcx Hcy Hr1 Hdh Hbc HB. unfold batch_feeddata_cost. rewrite HB. cbn [bind].
  assert (Hbb : 2 <= b <= nr x + 1).
  { destruct (Z_lt_dec (Z.of_nat b) 2) as [L|L]; [rewrite C38_throws in HB by lia; discriminate|].
    destruct (Z_gt_dec (Z.of_nat b) (Z.of_nat (nr x) + 1)) as [L'|L']; [rewrite C38_throws in HB by lia; discriminate|]. lia. }
  rewrite (C38_batches t n H x y b) in HB by (auto; lia). apply bind_ok in HB as ([n1 H1] & HF & HB). apply bind_ok in HB as ([n2 H2] & HD & HB).
  injection HB as _ <- <-. rewrite Hbt, steps_list by lia.
  assert (Hk : exists k, nbatches (nr x) b = S k). { destruct (nbatches (nr x) b) eqn:E; [|eauto]. destruct (nbatches_cover (nr x) b); [lia|]. rewrite E in *. lia. }
  destruct Hk as [k Hk]. rewrite Hk in *. cbn [seq map foldM].
  assert (R : forall k s n H n1 H1, dense_hidden n H -> foldM (fun '(n, H) j => train_step junk n H (pick x (batch_rows (nr x) b j)) (pick y (batch_rows (nr x) b j))) (seq s (S k)) (n, H) = Ok (n1, H1) ->
    nr (n_result n1) = b /\ n_cost n1 = n_cost n /\ dense_hidden n1 H1).
  { clear. induction k as [|k IH]; intros s n H n1 H1 Hdh HF; cbn [seq foldM] in HF; apply bind_ok in HF as ([m K] & HF1 & HF2);
      destruct (train_step_result _ _ _ _ _ _ Hdh HF1) as (A1 & A2 & [A3 _] & _).
    - cbn [foldM] in HF2. injection HF2 as <- <-. rewrite A2. cbn [pick nr mk]. split; [apply C38_equal_size|]. auto.
    - apply IH in HF2 as (B1 & B2 & B3); [|assumption]. split; [assumption|]. split; [congruence|assumption]. }
  destruct (R k 0 n H n1 H1 Hdh HF) as (R1 & R2 & R3). destruct (decay_frame _ _ _ _ _ R3 HD) as [Q1 Q2].
  unfold net_computecost at 1. rewrite builtin_cost_throw; [reflexivity| |].
  - rewrite Q2, R2. assumption.
  - rewrite Q1, R1, Hr. auto.
Qed.

Lemma pick_all (m : mat) : wf m -> 1 <= nr m -> pick m (batch_rows (nr m) (nr m) 0) = m.
Proof.
  intros W Hm. unfold pick, batch_rows. rewrite map_length, seq_length. transitivity (mk (nr m) (nc m) (at_ m)); [|now apply mk_at]. apply mk_ext. intros i j Hi Hj. f_equal.
  rewrite nth_map_seq by assumption. cbn. now apply Nat.mod_small.
Qed.
Theorem C39_whole_set : forall (t : btrainer D) n H x y c t' n' H', bt_size t = Z.of_nat (nr x) -> nr y = nr x -> 1 <= nc x -> 1 <= nc y -> wf x -> wf y ->
  dense_hidden n H -> batch_feeddata_cost junk t n H x y true = Ok (c, t', n', H') ->
  exists a n1 H1 c0, net_forward junk n H x = Ok (a, n1, H1) /\ net_computecost n a y = Ok c0 /\ c = dadd (dofZ 0) c0.
Proof.
  intros t n H x y c t' n' H' Hbt Hr Hcx Hcy Wx Wy Hdh HB. unfold batch_feeddata_cost in HB. apply bind_ok in HB as ([[t1 n1] H1] & HT & HB).
  apply bind_ok in HB as (c1 & HC & HB). injection HB as -> _ <- <-.
  assert (Hbb : 2 <= nr x).
  { destruct (Z_lt_dec (Z.of_nat (nr x)) 2) as [L|L]; [rewrite C38_throws in HT by lia; discriminate|]. lia. }
  rewrite (C38_batches t n H x y (nr x)) in HT by (auto; lia). rewrite Hbt, steps_list in HC by lia.
  assert (E1 : nbatches (nr x) (nr x) = 1).
  { unfold nbatches. replace (nr x + nr x - 1) with (nr x - 1 + 1 * nr x) by lia. rewrite Nat.div_add, Nat.div_small by lia. reflexivity. }
  rewrite E1 in *. cbn [seq foldM map] in *. apply bind_ok in HT as ([n2 H2] & HF & HT). apply bind_ok in HF as ([n3 H3] & HF & HF'). cbn in HF'. injection HF' as <- <-.
  apply bind_ok in HT as ([n4 H4] & HD & HT). injection HT as _ <- <-.
  destruct (train_step_result _ _ _ _ _ _ Hdh HF) as (A1 & A2 & [A3 _] & (m & K & A4)). destruct (decay_frame _ _ _ _ _ A1 HD) as [Q1 Q2].
  rewrite pick_all in A4 by (auto; lia). apply bind_ok in HC as (c2 & HC & HC'). cbn [foldM] in HC'. apply bind_ok in HC as (c0 & HC & HC''). injection HC'' as <-. injection HC' as <-.
  exists (n_result n3), m, K, c0. split; [assumption|]. split; [|reflexivity]. unfold net_computecost in *. rewrite <- Q1. rewrite <- A3, <- Q2. exact HC.
Qed.

(** ** C56 for BatchTrainer *)
Theorem C56_batch : forall p c b (data : list (mat * mat)) (t : btrainer D) n H, 1 <= p -> 1 <= c -> 2 <= b -> bt_size t = Z.of_nat b -> well_sized n H p c ->
  Forall (fun d => samples p c d /\ b <= nr (fst d) + 1) data ->
  exists t' n' H', foldM (fun '(t, n, H) d => batch_feeddata junk t n H (fst d) (snd d)) data (t, n, H) = Ok (t', n', H') /\ well_sized n' H' p c.
Proof.
  intros p c b data t n H Hp Hc Hb Hbt Hw Hs.
  destruct (foldM_inv (fun s : btrainer D * net D * lheap D => well_sized (snd (fst s)) (snd s) p c /\ bt_size (fst (fst s)) = Z.of_nat b)
    (fun '(t, n, H) (d : mat * mat) => batch_feeddata junk t n H (fst d) (snd d)) data) with (s := (t, n, H)) as ([[t' n'] H'] & E & W & _); [|split; [exact Hw|exact Hbt]|eauto].
  clear t n H Hw Hbt. intros [x y] Hin [[t n] H] [Hw Hbt]. cbn [fst snd] in *. rewrite Forall_forall in Hs. specialize (Hs _ Hin). destruct Hs as [(S1 & S2 & S3 & S4) S5]. cbn [fst snd] in *.
  rewrite (C38_batches t n H x y b) by (auto; lia).
  destruct (foldM_inv (fun s : net D * lheap D => well_sized (fst s) (snd s) p c)
    (fun '(n, H) j => train_step junk n H (pick x (batch_rows (nr x) b j)) (pick y (batch_rows (nr x) b j))) (seq 0 (nbatches (nr x) b))) with (s := (n, H)) as ([n1 H1] & E1 & W1); [|exact Hw|].
  { intros j _ [m K] Wm. cbn [fst snd] in *. pose proof (proj1 (well_fits _ _ _ _) Wm) as ((l & Fm) & _).
    destruct (step_ok junk m K l p c (pick x (batch_rows (nr x) b j)) (pick y (batch_rows (nr x) b j)) Fm Hp) as (m' & K' & l' & Em & Fm' & Km & _).
    - unfold samples. cbn [fst snd pick nr nc mk]. rewrite (proj1 (C38_equal_size (nr x) b j)). repeat split; auto; lia.
    - rewrite Em. eexists. split; [reflexivity|]. cbn. eapply well_kc; eauto. }
  pose proof (bind_eq _ (fun '(n1, H1) => '(n2, H2) <- decay (ticks (bt_t t) (nbatches (nr x) b)) n1 H1 ;; Ok (BT (ticks (bt_t t) (nbatches (nr x) b)) x y (bt_size t), n2, H2)) _ _ E1 eq_refl) as E3. cbn beta iota in E3.
  rewrite E3. cbn [fst snd] in W1. pose proof (proj1 (well_fits _ _ _ _) W1) as ((ls & Hf) & _).
  destruct (decay_ok (ticks (bt_t t) (nbatches (nr x) b)) n1 H1 ls p c Hf) as (n0 & H0 & ls0 & E0 & F0 & K0 & _). rewrite E0. cbn [bind].
  eexists. split; [reflexivity|]. cbn [fst snd bt_size]. split; [eapply well_kc; eauto|assumption].
Qed.
End Generic.

(** ** Examples *)
Example ex_batches : map (batch_rows 5 3) (seq 0 (nbatches 5 3)) = [[0; 1; 2]; [3; 4; 0]].
Proof. reflexivity. Qed.
Example ex_batch_runs : is_ok (batch_feeddata (D := Zdt) exj (batch_new 3) exn exH exx4 exy4) = true.
Proof. vm_compute. reflexivity. Qed.
Example ex_batch_cost_throws : batch_feeddata_cost (D := Zdt) exj (batch_new 3) exn exH exx4 exy4 true = Throw.
Proof. vm_compute. reflexivity. Qed.
Example ex_batch_whole : is_ok (batch_feeddata_cost (D := Zdt) exj (batch_new 4) exn exH exx4 exy4 true) = true.
Proof. vm_compute. reflexivity. Qed.

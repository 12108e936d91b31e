(** P_Shape.v - C92: which functions a network can compute at all. *)
From Coq Require Import Reals Lra Lia.
From Verif Require Import Base Mat Act Layer Conv Misc Net NetP TrainP ExNet RInst RMat P_Act P_Round P_Pred P_Drift Func P_Lip.
Local Open Scope nat_scope.

(** ** Specification *)
(** No weight except biases is negative, and the activation never decreases. *)
Definition rising (l : layer Rdt) : Prop :=
  nondecreasing (act (l_act l)) /\ forall k j, S k < nr (l_W l) -> j < nc (l_W l) -> (0 <= at_ (l_W l) (S k) j)%R.
Definition linear (l : layer Rdt) : Prop := forall z, act (l_act l) z = z.
(** The same chain of layers, except that the units of each hidden layer have been rescaled: unit j has its incoming weights
    multiplied by s j and its outgoing weights divided by it.  s describes the features of the first layer. *)
Fixpoint rescaled (s : nat -> R) (ls ls' : list (layer Rdt)) : Prop :=
  match ls, ls' with
  | [], [] => forall j, s j = 1%R
  | l :: r, l' :: r' => nr (l_W l') = nr (l_W l) /\ nc (l_W l') = nc (l_W l) /\
      exists s', (forall j, (0 < s' j)%R) /\ (forall j z, j < nc (l_W l) -> act (l_act l') (s' j * z)%R = (s' j * act (l_act l) z)%R) /\
        (forall j, j < nc (l_W l) -> (at_ (l_W l') 0 j : R) = (s' j * at_ (l_W l) 0 j)%R) /\
        (forall k j, S k < nr (l_W l) -> j < nc (l_W l) -> (at_ (l_W l') (S k) j : R) = (s' j / s k * at_ (l_W l) (S k) j)%R) /\
        rescaled s' r r'
  | _, _ => False
  end.
(** Row i of x is the point t of the way from row i1 of x1 to row i2 of x2. *)
Definition between (t : R) (x1 : mat Rdt) i1 (x2 : mat Rdt) i2 (x : mat Rdt) i : Prop :=
  forall k, k < nc x -> (at_ x i k : R) = ((1 - t) * at_ x1 i1 k + t * at_ x2 i2 k)%R.
(** predict puts row i of x in class c. *)
Definition classed junk (n : net Rdt) (H : lheap Rdt) (x : mat Rdt) (i c : nat) : Prop :=
  exists p n' H', net_predict (D := Rdt) junk n H x = Ok (p, n', H') /\ i < nr x /\ (at_ p i 0 : R) = INR c.

(** ** Proof *)
Lemma value_mono ls : forall p v w, Forall rising ls -> chained p ls -> ls <> [] -> (forall k, k < p -> (v k <= w k)%R) -> forall j, j < width p ls -> (value ls v j <= value ls w j)%R.
Proof.
  induction ls as [|l ls IH]; intros p v w HR HC HN HV j Hj; [congruence|]. inversion HR as [|? ? (R1 & R2) R3]; subst. destruct HC as [C1 C2]. cbn [width] in Hj.
  assert (U : forall k, k < nc (l_W l) -> (unit_of l v k <= unit_of l w k)%R).
  { intros k Hk. unfold unit_of. apply R1. apply Rplus_le_compat_l. apply sumN_le. intros m Hm. apply Rmult_le_compat_r; [apply R2; lia|apply HV; lia]. }
  cbn [value fold_left]. destruct ls as [|l2 ls]; [now apply U|]. apply (IH (nc (l_W l))); try assumption. discriminate.
Qed.
Lemma value_affine ls : forall p t u v w, Forall linear ls -> chained p ls -> ls <> [] -> (forall k, k < p -> w k = ((1 - t) * u k + t * v k)%R) ->
  forall j, value ls w j = ((1 - t) * value ls u j + t * value ls v j)%R.
Proof.
  induction ls as [|l ls IH]; intros p t u v w HR HC HN HV j; [congruence|]. inversion HR as [|? ? R1 R3]; subst. destruct HC as [C1 C2].
  assert (U : forall k, unit_of l w k = ((1 - t) * unit_of l u k + t * unit_of l v k)%R).
  { intros k. unfold unit_of. rewrite !R1. rewrite (sumN_ext _ (fun m => w m * at_ (l_W l) (S m) k)%R (fun m => (1 - t) * (u m * at_ (l_W l) (S m) k) + t * (v m * at_ (l_W l) (S m) k))%R).
    - rewrite sumN_plus, !sumN_scal. change (car Rdt) with R. ring.
    - intros m Hm. rewrite HV by lia. change (car Rdt) with R. ring. }
  cbn [value fold_left]. destruct ls as [|l2 ls]; [now apply U|]. apply (IH (nc (l_W l))); try assumption; [discriminate|]. intros; apply U.
Qed.
(** a linear chain is one linear layer *)
Lemma value_collapse ls : forall p, Forall linear ls -> chained p ls -> ls <> [] -> exists (b : nat -> R) (w : nat -> nat -> R), forall v j, j < width p ls -> value ls v j = (b j + sumN p (fun k => v k * w k j))%R.
Proof.
  induction ls as [|l ls IH]; intros p HR HC HN; [congruence|]. inversion HR as [|? ? R1 R3]; subst. destruct HC as [C1 C2].
  assert (U : forall v j, unit_of l v j = (at_ (l_W l) 0 j + sumN p (fun k => v k * at_ (l_W l) (S k) j))%R). { intros v j. unfold unit_of. rewrite R1. now replace (nr (l_W l) - 1) with p by lia. }
  destruct ls as [|l2 ls].
  - exists (fun j => at_ (l_W l) 0 j : R), (fun k j => at_ (l_W l) (S k) j : R). intros v j _. apply U.
  - destruct (IH (nc (l_W l)) R3 C2 ltac:(discriminate)) as (b & w & E). set (q := nc (l_W l)) in *.
    exists (fun j => b j + sumN q (fun m => at_ (l_W l) 0 m * w m j))%R, (fun k j => sumN q (fun m => at_ (l_W l) (S k) m * w m j))%R. intros v j Hj. cbn [width] in Hj. cbn [value fold_left].
    change (value (l2 :: ls) (unit_of l v) j = (b j + sumN q (fun m => at_ (l_W l) 0 m * w m j) + sumN p (fun k => v k * sumN q (fun m => at_ (l_W l) (S k) m * w m j)))%R).
    rewrite E by assumption. rewrite Rplus_assoc. f_equal.
    rewrite (sumN_ext q _ (fun m => at_ (l_W l) 0 m * w m j + sumN p (fun k => v k * at_ (l_W l) (S k) m * w m j))%R).
    + rewrite sumN_plus. f_equal. rewrite sumN_swap. apply sumN_ext. intros k Hk. rewrite <- sumN_scal. apply sumN_ext. intros m Hm. change (car Rdt) with R. ring.
    + intros m Hm. rewrite U. rewrite Rmult_plus_distr_r, sumN_scal_r. reflexivity.
Qed.
Lemma value_rescaled : forall ls ls' p s v v', rescaled s ls ls' -> (forall k, (0 < s k)%R) -> chained p ls -> ls <> [] -> (forall k, k < p -> v' k = (s k * v k)%R) ->
  forall j, j < width p ls -> value ls' v' j = value ls v j.
Proof.
  induction ls as [|l ls IH]; intros [|l' ls'] p s v v' HR HS HC HN HV j Hj; cbn [rescaled] in HR; try contradiction.
  destruct HR as (E1 & E2 & s' & P1 & P2 & P3 & P4 & HR). destruct HC as [C1 C2]. cbn [width] in Hj.
  assert (U : forall k, k < nc (l_W l) -> unit_of l' v' k = (s' k * unit_of l v k)%R).
  { intros k Hk. unfold unit_of. rewrite E1. rewrite <- P2 by assumption. f_equal. rewrite P3 by assumption. rewrite Rmult_plus_distr_l. f_equal. rewrite <- sumN_scal. apply sumN_ext. intros m Hm.
    rewrite P4 by (try assumption; lia). rewrite HV by lia. pose proof (HS m). change (car Rdt) with R. field. lra. }
  cbn [value fold_left]. destruct ls as [|l2 ls].
  - destruct ls' as [|l2' ls']; [|contradiction]. cbn [rescaled fold_left width] in *. rewrite U by assumption. rewrite HR. ring.
  - destruct ls' as [|l2' ls']; [contradiction|]. apply (IH (l2' :: ls') (nc (l_W l)) s'); try assumption. discriminate.
Qed.
Lemma all_width n H ls p : all_layers n H ls -> width p ls = nc (l_W (o_l (n_output n))) /\ ls <> [].
Proof. intros (_ & hs & _ & ->). split; [apply width_app|destruct hs; discriminate]. Qed.
Lemma same_in n H ls p q : all_layers n H ls -> chained p ls -> chained q ls -> p = q.
Proof. intros HL. destruct (all_width n H ls 0 HL) as [_ N]. destruct ls as [|l ls]; [congruence|]. cbn. lia. Qed.

(** Non-negative weights and activations that do not decrease: no output decreases when no feature decreases. *)
Theorem C92_monotone : forall junk junk' (n : net Rdt) (H : lheap Rdt) ls (x a x' a' : mat Rdt) i i',
  all_layers n H ls -> Forall rising ls -> answers junk n H x a -> answers junk' n H x' a' -> i < nr x -> i' < nr x' ->
  (forall k, k < nc x -> (at_ x i k <= at_ x' i' k)%R) -> forall j, j < nc a -> (at_ a i j <= at_ a' i' j)%R.
Proof.
  intros jk jk' n H ls x a x' a' i i' HL HR HA HA' Hi Hi' Hx j Hj. destruct (answers_value _ _ _ _ _ _ HL HA) as (A1 & A2 & A3 & _ & _ & A5). destruct (answers_value _ _ _ _ _ _ HL HA') as (B1 & B2 & B3 & _ & _ & B5).
  rewrite A5, B5 by (try assumption; congruence). destruct (all_width n H ls (nc x) HL) as [W1 W2]. apply (value_mono ls (nc x)); try assumption. congruence.
Qed.
(** Linear activations: the outputs are affine in the sample ... *)
Theorem C92_affine : forall j1 j2 j3 (n : net Rdt) (H : lheap Rdt) ls (x1 a1 x2 a2 x a : mat Rdt) i1 i2 i t,
  all_layers n H ls -> Forall linear ls -> answers j1 n H x1 a1 -> answers j2 n H x2 a2 -> answers j3 n H x a -> i1 < nr x1 -> i2 < nr x2 -> i < nr x ->
  between t x1 i1 x2 i2 x i -> between t a1 i1 a2 i2 a i.
Proof.
  intros j1 j2 j3 n H ls x1 a1 x2 a2 x a i1 i2 i t HL HR HA1 HA2 HA Hi1 Hi2 Hi HB j Hj.
  destruct (answers_value _ _ _ _ _ _ HL HA) as (A1 & A2 & A3 & _ & _ & A5). destruct (answers_value _ _ _ _ _ _ HL HA1) as (B1 & B2 & B3 & _ & _ & B5). destruct (answers_value _ _ _ _ _ _ HL HA2) as (C1 & C2 & C3 & _ & _ & C5).
  rewrite A5, B5, C5 by (try assumption; congruence). destruct (all_width n H ls (nc x) HL) as [W1 W2]. apply (value_affine ls (nc x)); try assumption.
Qed.
(** ... and there are weights with which a network without hidden layers gives exactly the same answers. *)
Theorem C92_collapse : forall (n : net Rdt) (H : lheap Rdt) ls p, all_layers n H ls -> Forall linear ls -> chained p ls ->
  exists W : mat Rdt, nr W = p + 1 /\ nc W = nc (l_W (o_l (n_output n))) /\
    forall (m : net Rdt) (K : lheap Rdt), n_hidden m = [] -> l_W (o_l (n_output m)) = W -> linear (o_l (n_output m)) ->
    forall junk junk' x a b, answers junk n H x a -> answers junk' m K x b -> forall i j, i < nr x -> j < nc W -> (at_ b i j : R) = at_ a i j.
Proof.
  intros n H ls p HL HR HC. destruct (all_width n H ls p HL) as [W1 W2]. destruct (value_collapse ls p HR HC W2) as (b & w & E).
  exists (mk (D := Rdt) (p + 1) (nc (l_W (o_l (n_output n)))) (fun i j => match i with 0 => b j | S k => w k j end)). split; [reflexivity|]. split; [reflexivity|].
  intros m K M1 M2 M3 jk jk' x a a' HA HA' i j Hi Hj. cbn [nc mk] in Hj.
  assert (ML : all_layers m K [o_l (n_output m)]). { split; [split; rewrite M1; [constructor|intros ? []]|]. exists []. split; [|reflexivity]. unfold hidden_layers. now rewrite M1. }
  destruct (answers_value _ _ _ _ _ _ HL HA) as (A1 & A2 & A3 & A4 & _ & A5). destruct (answers_value _ _ _ _ _ _ ML HA') as (B1 & B2 & B3 & _ & _ & B5). pose proof (same_in _ _ _ _ _ HL HC A1) as Ep.
  rewrite M2 in B3. cbn [nc mk] in B3. rewrite A5, B5 by (try assumption; lia). rewrite E by (rewrite W1; assumption). cbn [value fold_left]. unfold unit_of. rewrite M3, M2. cbn [nr mk].
  rewrite at_mk by lia. f_equal. replace (p + 1 - 1) with p by lia. apply sumN_ext. intros k Hk. rewrite at_mk by lia. reflexivity.
Qed.
(** Rescaling the units of hidden layers leaves every answer as it was. *)
Theorem C92_rescale : forall (n : net Rdt) (H : lheap Rdt) ls (m : net Rdt) (K : lheap Rdt) ms,
  all_layers n H ls -> all_layers m K ms -> rescaled (fun _ => 1%R) ls ms ->
  forall junk junk' x a b, answers junk n H x a -> answers junk' m K x b -> forall i j, i < nr x -> j < nc a -> (at_ b i j : R) = at_ a i j.
Proof.
  intros n H ls m K ms HL ML HR jk jk' x a b HA HB i j Hi Hj. destruct (answers_value _ _ _ _ _ _ HL HA) as (A1 & A2 & A3 & _ & _ & A5). destruct (answers_value _ _ _ _ _ _ ML HB) as (B1 & B2 & B3 & _ & _ & B5).
  destruct (all_width n H ls (nc x) HL) as [W1 W2]. destruct (all_width m K ms (nc x) ML) as [V1 V2].
  assert (Ew : forall ls ms s p, rescaled s ls ms -> width p ms = width p ls). { clear. induction ls as [|l ls IH]; intros [|l' ms] s p HR; cbn [rescaled] in HR; try contradiction; [reflexivity|]. destruct HR as (_ & E & s' & _ & _ & _ & _ & HR). cbn [width]. rewrite E. eapply IH. exact HR. }
  rewrite A5, B5 by (try assumption; rewrite B3, <- V1, (Ew ls ms _ _ HR), W1; congruence). apply (value_rescaled ls ms (nc x) (fun _ => 1%R)); try assumption; [intros; lra|intros; ring|rewrite W1; congruence].
Qed.
(** The activations for which every positive scale will do. *)
Theorem C92_scalable : forall s z : R, (0 < s)%R -> F relu (s * z) = (s * F relu z)%R /\ F identity (s * z) = (s * F identity z)%R /\ F absolute (s * z) = (s * F absolute z)%R.
Proof.
  intros s z Hs. split; [|split].
  - destruct (C25_ranges (s * z)%R) as (_ & _ & _ & _ & _ & _ & _ & -> & _). destruct (C25_ranges z) as (_ & _ & _ & _ & _ & _ & _ & -> & _). unfold Rmax. destruct (Rle_dec 0 z), (Rle_dec 0 (s * z)); nra.
  - ua. reflexivity.
  - ua. rewrite Rabs_mult, (Rabs_pos_eq s) by lra. reflexivity.
Qed.

(** ** Without hidden layers *)
Lemma classed_max junk (n : net Rdt) (H : lheap Rdt) x i c : n_hidden n = [] -> increasing (act (l_act (o_l (n_output n)))) -> classed junk n H x i c ->
  let W := l_W (o_l (n_output n)) in let z j := (at_ W 0 j + sumN (nr W - 1) (fun k => at_ x i k * at_ W (S k) j))%R in
  nr W = nc x + 1 /\ c < nc W /\ (forall j, j < nc W -> (z j <= z c)%R) /\ forall j, j < c -> (z j < z c)%R.
Proof.
  intros Hn HI (p & n' & H' & HP & Hi & Hc) W z.
  assert (ML : all_layers n H [o_l (n_output n)]). { split; [split; rewrite Hn; [constructor|intros ? []]|]. exists []. split; [|reflexivity]. unfold hidden_layers. now rewrite Hn. }
  destruct (C34_predict (D := Rdt) junk n H x p n' H' HP) as (a & m1 & K1 & R1 & _ & R2 & _ & _ & _ & _ & R3). assert (HA : answers junk n H x a) by (do 2 eexists; exact R1).
  destruct (answers_value _ _ _ _ _ _ ML HA) as ((A1 & _) & A2 & A3 & _ & _ & A5). destruct (R3 i ltac:(lia) (ordered_R a i)) as (k & (K0 & K2 & K3) & K4 & _).
  assert (k = c). { rewrite K4 in Hc. cbn [dofZ Rdt] in Hc. rewrite <- INR_IZR_INZ in Hc. now apply INR_eq. } subst k.
  assert (V : forall j, j < nc W -> (at_ a i j : R) = act (l_act (o_l (n_output n))) (z j)) by (intros j Hj; rewrite A5 by (try assumption; rewrite A3; exact Hj); reflexivity).
  assert (MM : forall u v, (act (l_act (o_l (n_output n))) u < act (l_act (o_l (n_output n))) v)%R -> (u < v)%R).
  { intros u v L. destruct (Rtotal_order u v) as [|[->|G]]; [assumption|lra|]. apply HI in G. lra. }
  split; [assumption|]. split; [unfold W; congruence|]. rewrite A3 in K0. fold W in K0. split.
  - intros j Hj. apply Rnot_lt_le. intros G. apply HI in G. specialize (K2 j ltac:(fold W in A3; congruence)). cbn in K2. unfold Rltb' in K2. destruct (Rlt_dec _ _) as [|X]; [discriminate|]. apply X. change (car Rdt) with R. rewrite (V j Hj), (V c K0). exact G.
  - intros j Hj. apply MM. specialize (K3 j Hj). cbn in K3. unfold Rltb' in K3. destruct (Rlt_dec _ _) as [X|]; [|discriminate]. rewrite <- (V j), <- (V c) by lia. exact X.
Qed.
(** The samples a network without hidden layers puts in one class form a convex set. *)
Theorem C92_convex : forall j1 j2 j3 (n : net Rdt) (H : lheap Rdt) (x1 x2 x : mat Rdt) i1 i2 i c c' t,
  n_hidden n = [] -> increasing (act (l_act (o_l (n_output n)))) -> (0 <= t <= 1)%R -> between t x1 i1 x2 i2 x i ->
  classed j1 n H x1 i1 c -> classed j2 n H x2 i2 c -> classed j3 n H x i c' -> c' = c.
Proof.
  intros j1 j2 j3 n H x1 x2 x i1 i2 i c c' t Hn HI Ht HB C1 C2 C3. apply classed_max in C1 as (A1 & A2 & A3 & A4); [|assumption|assumption]. apply classed_max in C2 as (B1 & B2 & B3 & B4); [|assumption|assumption]. apply classed_max in C3 as (D1 & D2 & D3 & D4); [|assumption|assumption].
  set (W := l_W (o_l (n_output n))) in *.
  assert (Z : forall j, (at_ W 0 j + sumN (nr W - 1) (fun k => at_ x i k * at_ W (S k) j))%R = ((1 - t) * (at_ W 0 j + sumN (nr W - 1) (fun k => at_ x1 i1 k * at_ W (S k) j)) + t * (at_ W 0 j + sumN (nr W - 1) (fun k => at_ x2 i2 k * at_ W (S k) j)))%R).
  { intros j. rewrite (sumN_ext _ (fun k => at_ x i k * at_ W (S k) j)%R (fun k => (1 - t) * (at_ x1 i1 k * at_ W (S k) j) + t * (at_ x2 i2 k * at_ W (S k) j))%R); [rewrite sumN_plus, !sumN_scal; change (car Rdt) with R; ring|].
    intros k Hk. rewrite HB by lia. change (car Rdt) with R. ring. }
  destruct (Nat.lt_total c' c) as [L|[E|L]]; [exfalso|assumption|exfalso].
  - specialize (D3 c A2). rewrite !Z in D3. specialize (A4 c' L). specialize (B4 c' L). destruct (Req_dec t 0) as [->|]; nra.
  - specialize (D4 c L). rewrite !Z in D4. specialize (A3 c' D2). specialize (B3 c' D2). nra.
Qed.
(** The four points of the exclusive-or problem. *)
Definition xorx : mat Rdt := Mat (D := Rdt) 4 2 [0; 0; 1; 1;  0; 1; 0; 1]%R.
(** No network without hidden layers classifies them correctly, so no training can make it; and no threshold on a single
    output separates them either. *)
Theorem C92_xor : forall junk (n : net Rdt) (H : lheap Rdt), n_hidden n = [] -> increasing (act (l_act (o_l (n_output n)))) ->
  (forall c0 c1, c0 <> c1 -> ~ (classed junk n H xorx 0 c0 /\ classed junk n H xorx 1 c1 /\ classed junk n H xorx 2 c1 /\ classed junk n H xorx 3 c0)) /\
  forall a theta j, answers junk n H xorx a -> j < nc a ->
    ~ ((at_ a 0 j < theta)%R /\ (theta <= at_ a 1 j)%R /\ (theta <= at_ a 2 j)%R /\ (at_ a 3 j < theta)%R) /\
    ~ ((theta <= at_ a 0 j)%R /\ (at_ a 1 j < theta)%R /\ (at_ a 2 j < theta)%R /\ (theta <= at_ a 3 j)%R).
Proof.
  intros jk n H Hn HI. set (W := l_W (o_l (n_output n))).
  split.
  - intros c0 c1 Hc (C1 & C2 & C3 & C4). apply classed_max in C1 as (A1 & A2 & A3 & A4); [|assumption|assumption]. apply classed_max in C2 as (_ & B2 & B3 & B4); [|assumption|assumption]. apply classed_max in C3 as (_ & _ & D3 & D4); [|assumption|assumption]. apply classed_max in C4 as (_ & _ & E3 & E4); [|assumption|assumption].
    cbn [xorx nc] in A1. fold W in A1, A2, A3, A4, B2, B3, B4, D3, D4, E3, E4. rewrite A1 in *. change (2 + 1 - 1) with 2 in *. unfold sumN in *. cbn in A3, A4, B3, B4, D3, D4, E3, E4.
    destruct (Nat.lt_total c0 c1) as [L|[E|L]]; [|congruence|].
    + specialize (A3 c1 B2). specialize (E3 c1 B2). specialize (B4 c0 L). specialize (D4 c0 L). change (car Rdt) with R in *. lra.
    + specialize (A4 c1 L). specialize (E4 c1 L). specialize (B3 c0 A2). specialize (D3 c0 A2). change (car Rdt) with R in *. lra.
  - intros a th j HA Hj.
    assert (ML : all_layers n H [o_l (n_output n)]). { split; [split; rewrite Hn; [constructor|intros ? []]|]. exists []. split; [|reflexivity]. unfold hidden_layers. now rewrite Hn. }
    destruct (answers_value _ _ _ _ _ _ ML HA) as ((A1 & _) & A2 & A3 & _ & _ & A5). cbn [xorx nc nr] in A1, A5. fold W in A1, A3.
    set (f := act (l_act (o_l (n_output n)))) in *.
    assert (V : forall i, i < 4 -> (at_ a i j : R) = f (at_ W 0 j + (at_ xorx i 0 * at_ W 1 j + (at_ xorx i 1 * at_ W 2 j + 0)))%R). { intros i Hi. rewrite A5 by assumption. cbn [value fold_left]. unfold unit_of. fold W. rewrite A1. reflexivity. }
    change (car Rdt) with R. rewrite (V 0), (V 1), (V 2), (V 3) by lia. cbn [xorx at_ nth nr el Nat.mul Nat.add]. set (b := at_ W 0 j) in *. set (u := at_ W 1 j) in *. set (v := at_ W 2 j) in *. clearbody b u v. cbn in b, u, v.
    assert (MM : forall p q, (f p < f q)%R -> (p < q)%R). { intros p q L. destruct (Rtotal_order p q) as [|[->|G]]; [assumption|lra|]. apply HI in G. fold f in G. lra. }
    split; intros (G1 & G2 & G3 & G4).
    + pose proof (MM _ _ (Rlt_le_trans _ _ _ G1 G2)). pose proof (MM _ _ (Rlt_le_trans _ _ _ G4 G3)). pose proof (MM _ _ (Rlt_le_trans _ _ _ G1 G3)). pose proof (MM _ _ (Rlt_le_trans _ _ _ G4 G2)). lra.
    + pose proof (MM _ _ (Rlt_le_trans _ _ _ G2 G1)). pose proof (MM _ _ (Rlt_le_trans _ _ _ G3 G4)). pose proof (MM _ _ (Rlt_le_trans _ _ _ G2 G4)). pose proof (MM _ _ (Rlt_le_trans _ _ _ G3 G1)). lra.
Qed.
(** ** Concrete cases *)
Definition duoH (h : layer Rdt) : lheap Rdt := [HDense h].
Definition duo (o : layer Rdt) : net Rdt := N (D := Rdt) mempty quad_cost quad_costd (lipl identity mempty) [0] (O o quad_cost quad_costd mempty).
Definition solo (o : layer Rdt) : net Rdt := N (D := Rdt) mempty quad_cost quad_costd (lipl identity mempty) [] (O o quad_cost quad_costd mempty).
Lemma duo_layers h o : all_layers (duo o) (duoH h) [h; o].
Proof. split; [split; [repeat constructor; cbn; intuition|intros p [<-|[]]; exists h; reflexivity]|]. exists [h]. split; [destruct h|]; reflexivity. Qed.
Lemma solo_layers o : all_layers (solo o) [] [o].
Proof. split; [split; [constructor|intros p []]|]. exists []. split; reflexivity. Qed.
Lemma relu_max z : act (relu (D := Rdt)) z = Rmax 0 z.
Proof. destruct (C25_ranges z) as (_ & _ & _ & _ & _ & _ & _ & Q & _). exact Q. Qed.
Lemma identity_id z : act (identity (D := Rdt)) z = z.
Proof. reflexivity. Qed.
(** With one hidden layer of two relu units the exclusive-or problem is solved exactly. *)
Definition xorh := lipl relu (Mat (D := Rdt) 3 2 [0; 1; 1;  -1; 1; 1]%R).
Definition xoro := lipl identity (Mat (D := Rdt) 3 2 [1; -1; 2;  0; 1; -2]%R).
Definition rise1 := lipl relu (Mat (D := Rdt) 3 1 [-1; 1; 1]%R).
Definition rise2 := lipl identity (Mat (D := Rdt) 2 1 [3; 2]%R).
Definition rise1' := lipl relu (Mat (D := Rdt) 3 1 [-2; 2; 2]%R).
Definition rise2' := lipl identity (Mat (D := Rdt) 2 1 [3; 1]%R).
Definition lin1 := lipl identity (Mat (D := Rdt) 3 1 [-1; 1; 1]%R).
Definition andx := lipl sigmoid (Mat (D := Rdt) 3 2 [3; -2; -2;  0; 0; 0]%R).
Theorem C92_example :
  (all_layers (duo rise2) (duoH rise1) [rise1; rise2] /\ Forall rising [rise1; rise2] /\ exists a, answers (fun _ => 0%R) (duo rise2) (duoH rise1) xorx a) /\
  (all_layers (duo rise2) (duoH lin1) [lin1; rise2] /\ Forall linear [lin1; rise2] /\ chained 2 [lin1; rise2] /\ exists a, answers (fun _ => 0%R) (duo rise2) (duoH lin1) xorx a) /\
  (all_layers (duo rise2') (duoH rise1') [rise1'; rise2'] /\ rescaled (fun _ => 1%R) [rise1; rise2] [rise1'; rise2'] /\ exists a, answers (fun _ => 0%R) (duo rise2') (duoH rise1') xorx a) /\
  (increasing (act (l_act andx)) /\ classed (fun _ => 0%R) (solo andx) [] xorx 0 0 /\ classed (fun _ => 0%R) (solo andx) [] xorx 1 0 /\ classed (fun _ => 0%R) (solo andx) [] xorx 3 1 /\ between (1 / 2) xorx 0 xorx 3 (Mat (D := Rdt) 1 2 [1 / 2; 1 / 2]%R) 0) /\
  (classed (fun _ => 0%R) (duo xoro) (duoH xorh) xorx 0 0 /\ classed (fun _ => 0%R) (duo xoro) (duoH xorh) xorx 1 1 /\ classed (fun _ => 0%R) (duo xoro) (duoH xorh) xorx 2 1 /\ classed (fun _ => 0%R) (duo xoro) (duoH xorh) xorx 3 0).
Proof.
  assert (EX : forall o h, nr (l_W o) = nc (l_W h) + 1 -> nr (l_W h) = 3 -> 1 <= nc (l_W h) -> 1 <= nc (l_W o) -> exists a, answers (fun _ => 0%R) (duo o) (duoH h) xorx a).
  { intros o h E1 E2 E3 E4. apply (answers_ex _ _ _ [h; o]); [apply duo_layers| |cbn; lia|cbn; lia|repeat constructor; assumption]. cbn. lia. }
  assert (CL : forall n H ls i c d, all_layers n H ls -> (exists a, answers (fun _ => 0%R) n H xorx a) -> width 2 ls = 2 -> i < 4 -> c < 2 -> d < 2 -> c <> d -> (value ls (feature xorx i) d < value ls (feature xorx i) c)%R -> classed (fun _ => 0%R) n H xorx i c).
  { intros n H ls i c d HL (a & HA) Hw Hi Hc Hd Hcd Hv. destruct (answers_value _ _ _ _ _ _ HL HA) as (_ & A2 & A3 & _ & _ & A5). destruct (all_width n H ls 2 HL) as [W1 _]. assert (Na : nc a = 2) by congruence. cbn [xorx nr] in A2, A5.
    destruct HA as (n1 & H1 & HA). destruct (predict_when _ _ _ _ _ _ _ HA ltac:(lia)) as (p & n2 & H2 & HP). exists p, n2, H2. split; [exact HP|]. split; [exact Hi|].
    destruct (C34_predict (D := Rdt) _ _ _ _ _ _ _ HP) as (a' & m1 & K1 & R1 & _ & R2 & _ & _ & _ & _ & R3). rewrite HA in R1. injection R1 as <- <- <-. destruct (R3 i ltac:(lia) (ordered_R a i)) as (k & (K0 & K2 & K3) & K4 & _).
    rewrite K4. cbn [dofZ Rdt]. rewrite <- INR_IZR_INZ. destruct (Nat.eq_dec k c) as [->|Kc]; [reflexivity|exfalso]. assert (k = d) by lia. subst k.
    specialize (K2 c ltac:(lia)). cbn in K2. unfold Rltb' in K2. destruct (Rlt_dec _ _) as [|X]; [discriminate|]. apply X. change (car Rdt) with R. rewrite !A5 by lia. exact Hv. }
  assert (RI : nondecreasing (act (relu (D := Rdt))) /\ nondecreasing (act (identity (D := Rdt)))).
  { destruct C25_monotone as (_ & _ & _ & _ & _ & _ & _ & _ & M1 & _). split; [exact M1|]. intros u v L. exact L. }
  split; [|split; [|split; [|split]]].
  - split; [apply duo_layers|]. split; [|apply EX; cbn; lia]. constructor; [|constructor; [|constructor]].
    + split; [apply RI|]. intros k j Hk Hj. cbn in Hk, Hj. destruct j as [|j]; [|lia]. destruct k as [|[|k]]; [| |lia]; cbn; lra.
    + split; [apply RI|]. intros k j Hk Hj. cbn in Hk, Hj. destruct j as [|j]; [|lia]. destruct k as [|k]; [|lia]; cbn; lra.
  - split; [apply duo_layers|]. split; [|split; [cbn; lia|apply EX; cbn; lia]]. constructor; [|constructor; [|constructor]]; intros z; reflexivity.
  - split; [apply duo_layers|]. split; [|apply EX; cbn; lia]. cbn [rescaled]. split; [reflexivity|]. split; [reflexivity|]. exists (fun _ => 2%R).
    split; [intros; lra|]. split; [intros j z _; apply (proj1 (C92_scalable 2 z ltac:(lra)))|]. split; [intros j Hj; cbn in Hj; destruct j as [|j]; [cbn; lra|lia]|].
    split; [intros k j Hk Hj; cbn in Hk, Hj; destruct j as [|j]; [|lia]; destruct k as [|[|k]]; [| |lia]; cbn; lra|].
    split; [reflexivity|]. split; [reflexivity|]. exists (fun _ => 1%R).
    split; [intros; lra|]. split; [intros j z _; rewrite !Rmult_1_l; reflexivity|]. split; [intros j Hj; cbn in Hj; destruct j as [|j]; [cbn; lra|lia]|].
    split; [intros k j Hk Hj; cbn in Hk, Hj; destruct j as [|j]; [|lia]; destruct k as [|k]; [|lia]; cbn; lra|]. intros; reflexivity.
  - assert (SI : increasing (act (l_act andx))) by exact (proj1 C25_monotone).
    assert (EA : exists a, answers (fun _ => 0%R) (solo andx) [] xorx a). { apply (answers_ex _ _ _ [andx]); [apply solo_layers|cbn; lia|cbn; lia|cbn; lia|repeat constructor]. }
    split; [exact SI|]. split; [apply (CL _ _ _ 0 0 1 (solo_layers andx) EA); try lia; [reflexivity|]; cbn [value fold_left]; unfold unit_of; apply SI; unfold sumN, feature; cbn; lra|].
    split; [apply (CL _ _ _ 1 0 1 (solo_layers andx) EA); try lia; [reflexivity|]; cbn [value fold_left]; unfold unit_of; apply SI; unfold sumN, feature; cbn; lra|].
    split; [apply (CL _ _ _ 3 1 0 (solo_layers andx) EA); try lia; [reflexivity|]; cbn [value fold_left]; unfold unit_of; apply SI; unfold sumN, feature; cbn; lra|].
    intros k Hk. cbn in Hk. destruct k as [|[|k]]; [| |lia]; cbn; lra.
  - assert (EA := EX xoro xorh eq_refl eq_refl ltac:(cbn; lia) ltac:(cbn; lia)).
    assert (V : forall i c, value [xorh; xoro] (feature xorx i) c = (at_ (l_W xoro) 0 c + (Rmax 0 (at_ xorx i 0 + at_ xorx i 1) * at_ (l_W xoro) 1 c + Rmax 0 (at_ xorx i 0 + at_ xorx i 1 - 1) * at_ (l_W xoro) 2 c))%R).
    { intros i c. cbn [value fold_left]. unfold unit_of at 1. change (l_act xoro) with (identity (D := Rdt)). rewrite identity_id. change (nr (l_W xoro) - 1) with 2. unfold sumN.
      assert (U0 : unit_of xorh (feature xorx i) 0 = Rmax 0 (at_ xorx i 0 + at_ xorx i 1)). { unfold unit_of. change (l_act xorh) with (relu (D := Rdt)). rewrite relu_max. f_equal. unfold sumN, feature. cbn. change (car Rdt) with R. ring. }
      assert (U1 : unit_of xorh (feature xorx i) 1 = Rmax 0 (at_ xorx i 0 + at_ xorx i 1 - 1)). { unfold unit_of. change (l_act xorh) with (relu (D := Rdt)). rewrite relu_max. f_equal. unfold sumN, feature. cbn. change (car Rdt) with R. ring. }
      generalize U0 U1. generalize (unit_of xorh (feature xorx i)). intros u E0 E1. cbn [sumL map seq fold_right]. rewrite E0, E1. change (car Rdt) with R. ring. }
    split; [apply (CL _ _ _ 0 0 1 (duo_layers xorh xoro) EA); try lia; [reflexivity|]; rewrite !V; cbn; unfold Rmax; repeat destruct (Rle_dec _ _); lra|].
    split; [apply (CL _ _ _ 1 1 0 (duo_layers xorh xoro) EA); try lia; [reflexivity|]; rewrite !V; cbn; unfold Rmax; repeat destruct (Rle_dec _ _); lra|].
    split; [apply (CL _ _ _ 2 1 0 (duo_layers xorh xoro) EA); try lia; [reflexivity|]; rewrite !V; cbn; unfold Rmax; repeat destruct (Rle_dec _ _); lra|].
    apply (CL _ _ _ 3 0 1 (duo_layers xorh xoro) EA); try lia; [reflexivity|]; rewrite !V; cbn; unfold Rmax; repeat destruct (Rle_dec _ _); lra.
Qed.

(** P_Fit.v - C93: what one hidden layer of rectified units can fit. *)
From Coq Require Import Reals Lra Lia.
From Verif Require Import Base Mat Act Layer Conv Misc Net NetP TrainP ExNet RInst RMat P_Act P_Round P_Pred P_Drift Func P_Lip P_Shape.
Local Open Scope nat_scope.

(** ** Specification *)
(** Samples that are equal have equal labels. *)
Definition consistent (x y : mat Rdt) : Prop :=
  forall i i', i < nr x -> i' < nr x -> (forall k, k < nc x -> (at_ x i k : R) = at_ x i' k) -> forall j, j < nc y -> (at_ y i j : R) = at_ y i' j.
(** The network's answers on x are exactly y. *)
Definition fits_exactly junk (n : net Rdt) (H : lheap Rdt) (x y : mat Rdt) : Prop :=
  exists a, answers junk n H x a /\ nr a = nr y /\ nc a = nc y /\ forall i j, i < nr y -> j < nc y -> (at_ a i j : R) = at_ y i j.

(** ** A direction along which given vectors do not vanish *)
Definition dot (p : nat) (u v : nat -> R) : R := sumN p (fun k => u k * v k)%R.
Lemma dot_lin p u v w e : dot p (fun k => u k + e * v k)%R w = (dot p u w + e * dot p v w)%R.
Proof. unfold dot. rewrite <- sumN_scal, <- sumN_plus. apply sumN_ext. intros; ring. Qed.
Lemma dot_self p v : (exists k, k < p /\ v k <> 0%R) -> (0 < dot p v v)%R.
Proof.
  intros (k & Hk & Hv). unfold dot. revert v k Hk Hv. induction p as [|p IH]; intros v k Hk Hv; [lia|]. rewrite sumN_S.
  assert (P : forall q w, (0 <= sumN q (fun i => w i * w i))%R). { clear. induction q as [|q IH]; intros w; [unfold sumN; cbn; lra|]. rewrite sumN_S. specialize (IH (fun i => w (S i))). cbn beta in IH. nra. }
  destruct k as [|k]; [specialize (P p (fun i => v (S i))); cbn beta in P; nra|]. specialize (IH (fun i => v (S i)) k ltac:(lia) Hv). cbn beta in IH. nra.
Qed.
Lemma small_step (ab : list (R * R)) : Forall (fun q => fst q <> 0%R) ab -> exists e, (0 < e)%R /\ forall d, (0 < d <= e)%R -> Forall (fun q => (fst q + d * snd q)%R <> 0%R) ab.
Proof.
  induction ab as [|[a b] ab IH]; intros HF; [exists 1%R; split; [lra|constructor]|]. inversion HF as [|? ? F1 F2]; subst. cbn [fst] in F1. destruct (IH F2) as (e & E1 & E2).
  set (c := (Rabs a / (2 * (Rabs b + 1)))%R). assert (Pa : (0 < Rabs a)%R) by now apply Rabs_pos_lt. pose proof (Rabs_pos b) as Pb. assert (Pc : (0 < c)%R) by (apply Rdiv_lt_0_compat; lra).
  exists (Rmin e c). split; [now apply Rmin_glb_lt|]. intros d [D1 D2]. pose proof (Rmin_l e c). pose proof (Rmin_r e c). constructor; [cbn [fst snd]|apply E2; lra].
  intros Z. assert (Ea : a = (- (d * b))%R) by lra. assert (Ra : Rabs a = (d * Rabs b)%R) by (rewrite Ea, Rabs_Ropp, Rabs_mult, (Rabs_pos_eq d) by lra; reflexivity).
  assert (M : (c * (2 * (Rabs b + 1)))%R = Rabs a) by (unfold c; field; lra). assert ((d * (2 * (Rabs b + 1)) <= c * (2 * (Rabs b + 1)))%R) by (apply Rmult_le_compat_r; lra). lra.
Qed.
Lemma direction p (vs : list (nat -> R)) : Forall (fun v => exists k, k < p /\ v k <> 0%R) vs -> exists u, Forall (fun v => dot p u v <> 0%R) vs.
Proof.
  induction vs as [|v vs IH]; intros HF; [exists (fun _ => 0%R); constructor|]. inversion HF as [|? ? F1 F2]; subst. destruct (IH F2) as (u & U).
  destruct (Req_dec (dot p u v) 0) as [Z|N]; [|exists u; now constructor].
  destruct (small_step (map (fun w => (dot p u w, dot p v w)) vs)) as (e & E1 & E2); [rewrite Forall_map; exact U|]. specialize (E2 e ltac:(lra)). rewrite Forall_map in E2.
  exists (fun k => u k + e * v k)%R. constructor; [rewrite dot_lin, Z; pose proof (dot_self p v F1); nra|]. eapply Forall_impl; [|exact E2]. intros w Hw. cbn [fst snd] in Hw. now rewrite dot_lin.
Qed.
(** A direction that keeps different samples different. *)
Lemma separating (x : mat Rdt) : exists u, forall i i', i < nr x -> i' < nr x -> dot (nc x) u (feature x i) = dot (nc x) u (feature x i') -> forall k, k < nc x -> (at_ x i k : R) = at_ x i' k.
Proof.
  set (diff := fun q : nat * nat => fun k => (feature x (fst q) k - feature x (snd q) k)%R).
  assert (DD : forall v : nat -> R, {exists k, k < nc x /\ v k <> 0%R} + {~ exists k, k < nc x /\ v k <> 0%R}).
  { intros v. destruct (existsb (fun k => if Req_EM_T (v k) 0 then false else true) (seq 0 (nc x))) eqn:E; [left|right].
    - apply existsb_exists in E as (k & K1 & K2). apply in_seq in K1. exists k. split; [lia|]. destruct (Req_EM_T (v k) 0); [discriminate|assumption].
    - intros (k & K1 & K2). assert (true = false); [|discriminate]. rewrite <- E. symmetry. apply existsb_exists. exists k. split; [apply in_seq; lia|]. destruct (Req_EM_T (v k) 0); [contradiction|reflexivity]. }
  set (vs := filter (fun v => if DD v then true else false) (map diff (list_prod (seq 0 (nr x)) (seq 0 (nr x))))).
  destruct (direction (nc x) vs) as (u & U). { apply Forall_forall. intros v Hv. apply filter_In in Hv as [_ Hv]. destruct (DD v); [assumption|discriminate]. }
  exists u. intros i i' Hi Hi' E k Hk. destruct (DD (diff (i, i'))) as [Y|Nn].
  - exfalso. rewrite Forall_forall in U. apply (U (diff (i, i'))).
    + apply filter_In. split; [apply in_map, in_prod; apply in_seq; lia|]. destruct (DD (diff (i, i'))); [reflexivity|contradiction].
    + transitivity (dot (nc x) u (feature x i) - dot (nc x) u (feature x i'))%R; [|lra]. unfold dot. rewrite <- sumN_minus. apply sumN_ext. intros m _. unfold diff. cbn [fst snd]. ring.
  - destruct (Req_dec (diff (i, i') k) 0) as [Z|Z]; [unfold diff, feature in Z; cbn [fst snd] in Z; lra|]. exfalso. apply Nn. eauto.
Qed.

(** ** Interpolation with rectified units *)
Lemma top (t : nat -> R) l : l <> [] -> exists i, In i l /\ forall j, In j l -> (t j <= t i)%R.
Proof.
  induction l as [|a l IH]; intros HN; [congruence|]. destruct l as [|b l]; [exists a; split; [now left|]; intros j [<-|[]]; lra|]. destruct (IH ltac:(discriminate)) as (i & I1 & I2).
  destruct (Rle_dec (t i) (t a)) as [L|L].
  - exists a. split; [now left|]. intros j [<-|Hj]; [lra|]. specialize (I2 j Hj). lra.
  - exists i. split; [now right|]. intros j [<-|Hj]; [lra|auto].
Qed.
Lemma filter_len {A} (f : A -> bool) l : length (filter f l) <= length l.
Proof. induction l as [|a l IH]; cbn; [lia|]. destruct (f a); cbn; lia. Qed.
Lemma filter_less {A} (f : A -> bool) l x : In x l -> f x = false -> length (filter f l) < length l.
Proof.
  induction l as [|a l IH]; intros Hx Hf; [destruct Hx|]. cbn [filter length]. destruct Hx as [<-|Hx]; [rewrite Hf; pose proof (filter_len f l); lia|]. specialize (IH Hx Hf). destruct (f a); cbn [length]; lia.
Qed.
Lemma interpolate (t : nat -> R) : forall q l, l <> [] -> length l <= q + 1 ->
  exists s : nat -> R, forall y : nat -> R, (forall i i', In i l -> In i' l -> t i = t i' -> y i = y i') ->
    exists (c : R) (a : nat -> R), forall i, In i l -> (c + sumN q (fun r => Rmax 0 (t i - s r) * a r))%R = y i.
Proof.
  induction q as [|q IH]; intros l HN HL.
  - destruct l as [|i [|j l]]; [congruence| |cbn in HL; lia]. exists (fun _ => 0%R). intros y _. exists (y i), (fun _ => 0%R). intros i' [<-|[]]. unfold sumN. cbn. ring.
  - destruct (top t l HN) as (i0 & I1 & I2). set (f := fun i => if Rlt_dec (t i) (t i0) then true else false).
    assert (F0 : f i0 = false). { unfold f. destruct (Rlt_dec _ _); [lra|reflexivity]. }
    assert (FT : forall i, In i l -> f i = false -> t i = t i0). { intros i Hi Hf. unfold f in Hf. destruct (Rlt_dec _ _); [discriminate|]. specialize (I2 i Hi). lra. }
    destruct (list_eq_dec Nat.eq_dec (filter f l) []) as [Z|Nz].
    + exists (fun _ => 0%R). intros y Hy. exists (y i0), (fun _ => 0%R). intros i Hi. rewrite (sumN_ext _ _ (fun _ => 0 * 0)%R) by (intros; ring). rewrite sumN_scal. rewrite Rmult_0_l, Rplus_0_r. apply Hy; try assumption. symmetry. apply FT; [assumption|].
      destruct (f i) eqn:E; [|reflexivity]. exfalso. assert (K : In i (filter f l)) by now apply filter_In. rewrite Z in K. destruct K.
    + pose proof (filter_less f l i0 I1 F0). destruct (IH (filter f l) Nz ltac:(lia)) as (s & S1). destruct (top t (filter f l) Nz) as (i1 & J1 & J2). apply filter_In in J1 as [J0 J1]. unfold f in J1. destruct (Rlt_dec (t i1) (t i0)) as [Lt|]; [|discriminate].
      exists (fun r => if r <? q then s r else t i1). intros y Hy. destruct (S1 y) as (c & a & CA). { intros i i' Hi Hi'. apply filter_In in Hi, Hi'. now apply Hy. }
      set (z := (c + sumN q (fun r => Rmax 0 (t i0 - s r) * a r))%R). exists c, (fun r => if r <? q then a r else (y i0 - z) / (t i0 - t i1))%R. intros i Hi.
      rewrite sumN_last, Nat.ltb_irrefl, (sumN_ext q _ (fun r => Rmax 0 (t i - s r) * a r)%R) by (intros r Hr; assert (E : r <? q = true) by (apply Nat.ltb_lt; lia); rewrite E; reflexivity).
      destruct (f i) eqn:Fi.
      * assert (Ii : In i (filter f l)) by now apply filter_In. rewrite <- (CA i Ii). rewrite Rmax_left by (specialize (J2 i Ii); lra). ring.
      * rewrite (FT i Hi Fi). rewrite (Hy i i0 Hi I1 (FT i Hi Fi)). rewrite Rmax_right by lra. rewrite <- Rplus_assoc. fold z. field. lra.
Qed.

(** ** Theorems *)
(** One hidden layer of q relu units and identity outputs: whatever the q + 1 (or fewer) samples and their labels, as long as
    equal samples have equal labels, there are weights with which every such network answers exactly the labels. *)
Theorem C93_fit : forall (x y : mat Rdt) q, 1 <= nr x -> 1 <= nc x -> nr y = nr x -> 1 <= q -> nr x <= q + 1 -> consistent x y ->
  exists W1 W2 : mat Rdt, nr W1 = nc x + 1 /\ nc W1 = q /\ nr W2 = q + 1 /\ nc W2 = nc y /\
    forall junk (n : net Rdt) (H : lheap Rdt) h o, all_layers n H [h; o] -> l_W h = W1 -> l_act h = relu -> l_W o = W2 -> l_act o = identity -> 1 <= nc y -> fits_exactly junk n H x y.
Proof.
  intros x y q Hx Hc Hy Hq Hm HC. destruct (separating x) as (u & U). set (t := fun i => dot (nc x) u (feature x i)).
  destruct (interpolate t q (seq 0 (nr x))) as (s & IS). { destruct (nr x); [lia|discriminate]. } { rewrite seq_length. lia. }
  assert (CA : forall j, exists ca : R * (nat -> R), j < nc y -> forall i, i < nr x -> (fst ca + sumN q (fun r => Rmax 0 (t i - s r) * snd ca r))%R = at_ y i j).
  { intros j. destruct (lt_dec j (nc y)) as [Hj|Hj]; [|exists (0%R, fun _ => 0%R); contradiction]. destruct (IS (fun i => at_ y i j : R)) as (c & a & E).
    - intros i i' Hi Hi' Et. apply in_seq in Hi, Hi'. apply HC; try lia. apply U; [lia|lia|exact Et].
    - exists (c, a). intros _ i Hi. apply E, in_seq. lia. }
  assert (CC : exists ca : nat -> R * (nat -> R), forall j, j < nc y -> forall i, i < nr x -> (fst (ca j) + sumN q (fun r => Rmax 0 (t i - s r) * snd (ca j) r))%R = at_ y i j).
  { clear - CA. induction (nc y) as [|k IH]; [exists (fun _ => (0%R, fun _ => 0%R)); intros; lia|]. destruct IH as (ca & E); [intros j; destruct (CA j) as (z & Z); exists z; intros; apply Z; lia|]. destruct (CA k) as (z & Z).
    exists (fun j => if j =? k then z else ca j). intros j Hj i Hi. destruct (Nat.eqb_spec j k) as [->|]; [apply Z; lia|apply E; lia]. }
  destruct CC as (ca & CC).
  exists (mk (D := Rdt) (nc x + 1) q (fun i r => match i with 0 => (- s r)%R | S k => u k end)), (mk (D := Rdt) (q + 1) (nc y) (fun i j => match i with 0 => fst (ca j) | S r => snd (ca j) r end)).
  do 4 (split; [reflexivity|]). intros jk n H h o HL E1 E2 E3 E4 Hk.
  destruct (answers_ex jk n H [h; o] x HL) as (a & HA); [cbn [chained]; rewrite E1, E3; cbn [nr nc mk]; auto|assumption|assumption|constructor; [rewrite E1; exact Hq|constructor; [rewrite E3; exact Hk|constructor]]|].
  exists a. split; [exact HA|]. destruct (answers_value _ _ _ _ _ _ HL HA) as (_ & A2 & A3 & _ & _ & A5). assert (Eo : o_l (n_output n) = o). { destruct HL as (_ & hs & _ & Q). destruct hs as [|h1 [|h2 hs]]; cbn in Q; [discriminate|injection Q; auto|injection Q as _ _ Q; destruct hs; discriminate]. }
  rewrite Eo, E3 in A3. cbn [nc mk] in A3. split; [congruence|]. split; [assumption|]. intros i j Hi Hj. rewrite A5 by lia. rewrite <- (CC j Hj i ltac:(lia)).
  cbn [value fold_left]. unfold unit_of at 1. rewrite E3, E4, identity_id. cbn [nr mk]. rewrite at_mk by lia. f_equal. replace (q + 1 - 1) with q by lia. apply sumN_ext. intros r Hr. rewrite at_mk by lia. f_equal.
  unfold unit_of. rewrite E1, E2, relu_max. cbn [nr mk]. rewrite at_mk by lia. f_equal. replace (nc x + 1 - 1) with (nc x) by lia. rewrite Rplus_comm. unfold Rminus. f_equal. unfold t, dot. apply sumN_ext. intros k Hk'. rewrite at_mk by lia. ring.
Qed.
(** The condition is needed by every network of Layers, whatever its size. *)
Theorem C93_only : forall junk (n : net Rdt) (H : lheap Rdt) ls (x y : mat Rdt), all_layers n H ls -> fits_exactly junk n H x y -> consistent x y.
Proof.
  intros jk n H ls x y HL (a & HA & E1 & E2 & E) i i' Hi Hi' Ex j Hj. destruct (answers_value _ _ _ _ _ _ HL HA) as (C1 & A2 & A3 & _ & _ & A5). rewrite <- !E by lia. rewrite !A5 by lia. destruct (all_width n H ls 0 HL) as [_ W2]. eapply value_ext; eauto.
Qed.
(** So every consistent classification of q + 1 samples is achieved by some weights: predict gives every sample its class. *)
Theorem C93_classes : forall (x : mat Rdt) (c : nat -> nat) K q, 1 <= nr x -> 1 <= nc x -> 1 <= q -> nr x <= q + 1 -> (forall i, i < nr x -> c i < K) ->
  (forall i i', i < nr x -> i' < nr x -> (forall k, k < nc x -> (at_ x i k : R) = at_ x i' k) -> c i = c i') ->
  exists W1 W2 : mat Rdt, nr W1 = nc x + 1 /\ nc W1 = q /\ nr W2 = q + 1 /\ nc W2 = K /\
    forall junk (n : net Rdt) (H : lheap Rdt) h o, all_layers n H [h; o] -> l_W h = W1 -> l_act h = relu -> l_W o = W2 -> l_act o = identity -> forall i, i < nr x -> classed junk n H x i (c i).
Proof.
  intros x c K q Hx Hc Hq Hm HK HC. set (y := mk (D := Rdt) (nr x) K (fun i j => if j =? c i then 1%R else 0%R)).
  destruct (C93_fit x y q Hx Hc eq_refl Hq Hm) as (W1 & W2 & D1 & D2 & D3 & D4 & E).
  { intros i i' Hi Hi' Ex j Hj. cbn [nc y mk] in Hj. unfold y. rewrite !at_mk by lia. now rewrite (HC i i' Hi Hi' Ex). }
  exists W1, W2. do 4 (split; [assumption|]). intros jk n H h o HL E1 E2 E3 E4 i Hi. destruct (E jk n H h o HL E1 E2 E3 E4) as (a & HA & A1 & A2 & A3). { cbn. specialize (HK i Hi). lia. }
  cbn [nr nc y mk] in A1, A2, A3. destruct HA as (n1 & H1 & HA). specialize (HK i Hi). destruct (predict_when _ _ _ _ _ _ _ HA ltac:(lia)) as (p & n2 & H2 & HP). exists p, n2, H2. split; [exact HP|]. split; [exact Hi|].
  destruct (C34_predict (D := Rdt) _ _ _ _ _ _ _ HP) as (a' & m1 & K1 & R1 & _ & R2 & _ & _ & _ & _ & R3). rewrite HA in R1. injection R1 as <- <- <-. destruct (R3 i ltac:(lia) (ordered_R a i)) as (k & (K0 & K2 & K3) & K4 & _).
  rewrite K4. cbn [dofZ Rdt]. rewrite <- INR_IZR_INZ. f_equal. destruct (Nat.eq_dec k (c i)) as [|Kc]; [assumption|exfalso].
  specialize (K2 (c i) ltac:(lia)). cbn in K2. unfold Rltb' in K2. destruct (Rlt_dec _ _) as [|X]; [discriminate|]. apply X. change (car Rdt) with R. rewrite !A3 by lia. unfold y. rewrite !at_mk by lia. rewrite Nat.eqb_refl. apply Nat.eqb_neq in Kc. rewrite Kc. lra.
Qed.
(** The exclusive-or points with any labels at all meet the conditions, with three hidden units; and there is such a network. *)
Theorem C93_example : forall y : mat Rdt, nr y = 4 -> 1 <= nc y -> consistent xorx y /\
  exists h o, nc (l_W h) = 3 /\ all_layers (duo o) (duoH h) [h; o] /\ fits_exactly (fun _ => 0%R) (duo o) (duoH h) xorx y.
Proof.
  intros y Hy Hk. assert (C : consistent xorx y).
  { intros i i' Hi Hi' E j Hj. cbn [xorx nr nc] in *. assert (i = i') as ->; [|reflexivity]. pose proof (E 0 ltac:(lia)) as E0. pose proof (E 1 ltac:(lia)) as E1. revert E0 E1. clear E.
    destruct i as [|[|[|[|i]]]], i' as [|[|[|[|i']]]]; try lia; try reflexivity; cbn; intros; exfalso; lra. }
  split; [exact C|]. destruct (C93_fit xorx y 3) as (W1 & W2 & _ & D2 & _ & _ & E); try assumption; cbn; try lia.
  exists (lipl relu W1), (lipl identity W2). split; [exact D2|]. split; [apply duo_layers|]. apply (E _ _ _ (lipl relu W1) (lipl identity W2)); try reflexivity; [apply duo_layers|assumption].
Qed.

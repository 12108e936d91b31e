(** P_Dist.v - C84: a Trainer or MomentumTrainer only sees how often each sample occurs (exact arithmetic). *)
From Verif Require Import Base Mat Act Layer Conv Misc Net NetP RInst RMat Trainer TrainP TrainP2 ExNet P_Train P_Decay P_Mom FunEq ConfEq World Session SessP Grad P_Descent P_Batch InvP P_Sym P_Fix P_Cost P_Sum P_Safe RelP P_Perm.
From Coq Require Import Arith List ZArith Lia Reals Lra.
Import ListNotations.
Local Open Scope nat_scope.

(** ** Specification *)
(** How often f takes the value r on 0 .. k-1. *)
Definition times (f : nat -> nat) (k r : nat) : nat := length (filter (fun i => f i =? r) (seq 0 k)).
(** Row i of (x', y') is row f i of (x, y), and every row of (x, y) is taken m times: the same samples with the same
    relative frequencies, in another order. *)
Definition rearranged (m : nat) (f : nat -> nat) (x y x' y' : mat Rdt) : Prop :=
  1 <= m /\ 1 <= nr x /\ nr y = nr x /\ nr y' = nr x' /\ nc x' = nc x /\ nc y' = nc y /\ (forall r, r < nr x -> times f (nr x') r = m) /\
  forall i, i < nr x' -> f i < nr x /\ (forall j, j < nc x -> at_ x' i j = at_ x (f i) j) /\ (forall j, j < nc y -> at_ y' i j = at_ y (f i) j).

(** ** Sums *)
Lemma sum_times (f : nat -> nat) k g : forall l, (forall i, In i l -> f i < k) -> sumL (map (fun i => g (f i)) l) = sumN k (fun r => INR (length (filter (fun i => f i =? r) l)) * g r)%R.
Proof.
  induction l as [|i l IH]; intros Hl.
  - cbn. symmetry. apply sumN_zero. intros. cbn. lra.
  - unfold sumL in *. cbn [map fold_right]. fold (sumL (map (fun i => g (f i)) l)) in *. rewrite IH by (intros; apply Hl; now right).
    rewrite (sumN_ext k (fun r => INR (length (filter (fun i0 => f i0 =? r) (i :: l))) * g r)%R (fun r => (if f i =? r then g r else 0) + INR (length (filter (fun i0 => f i0 =? r) l)) * g r)%R).
    + rewrite sumN_plus. f_equal. rewrite (sumN_single k _ (f i)); [now rewrite Nat.eqb_refl|apply Hl; now left|]. intros r _ Hr. destruct (Nat.eqb_spec (f i) r); [congruence|reflexivity].
    + intros r Hr. cbn [filter]. destruct (f i =? r); cbn [length]; [rewrite S_INR|]; lra.
Qed.
Lemma sum_rearranged f m k k' g : (forall i, i < k' -> f i < k) -> (forall r, r < k -> times f k' r = m) -> sumN k' (fun i => g (f i)) = (INR m * sumN k g)%R.
Proof.
  intros A B. unfold sumN at 1. rewrite (sum_times f k) by (intros i Hi; apply in_seq in Hi; apply A; lia). rewrite <- sumN_scal. apply sumN_ext. intros r Hr. specialize (B r Hr). unfold times in B. now rewrite B.
Qed.
Lemma size_rearranged f m k k' : (forall i, i < k' -> f i < k) -> (forall r, r < k -> times f k' r = m) -> k' = m * k.
Proof.
  intros A B. apply INR_eq. rewrite mult_INR. pose proof (sum_rearranged f m k k' (fun _ => 1%R) A B) as E. cbn beta in E. rewrite !sumN_const in E. lra.
Qed.

Lemma grs_eq (gs gs' : list (mat Rdt)) : grs (fun (_ : nat) (g g' : mat Rdt) => g' = g) gs gs' <-> gs' = gs.
Proof.
  split; [|intros ->; split; [reflexivity|intros i g g' E E'; congruence]]. intros [L A]. apply (nth_error_ext gs' gs). intros i. destruct (nth_error gs i) as [g|] eqn:E.
  - destruct (nth_error gs' i) as [g'|] eqn:E'; [|apply nth_error_None in E'; assert (i < length gs) by (apply nth_error_Some; congruence); lia]. f_equal. exact (A i g g' E E').
  - apply nth_error_None in E. apply nth_error_None. lia.
Qed.
Lemma rc_split2 (ls ls' : list (layer Rdt)) o o' : Forall2 (conf (D := Rdt)) (ls ++ [o]) (ls' ++ [o']) -> Forall2 (conf (D := Rdt)) ls ls' /\ conf o o'.
Proof. intros F. apply Forall2_app_inv_l in F as (a & b & A & B & E). inversion B as [|? ? ? ? X Y]; subst. inversion Y; subst. apply app_inj_tail in E as [<- <-]. auto. Qed.

Section Dist.
Context (junk : nat -> Rdt) (f : nat -> nat) (m K K' : nat) (Hm : 1 <= m) (HF : forall i, i < K' -> f i < K) (HT : forall r, r < K -> times f K' r = m).
Notation mat := (mat Rdt).
Notation layer := (layer Rdt).
Lemma KK : K' = m * K. Proof. apply (size_rearranged f); assumption. Qed.
(** Row i of a' is c times row (f i) of a. *)
Definition cop (c : R) (a a' : mat) : Prop := nr a = K /\ nr a' = K' /\ nc a' = nc a /\ forall i j, i < K' -> j < nc a -> at_ a' i j = (c * at_ a (f i) j)%R.
Lemma cop_mk c n g g' : (forall i j, i < K' -> j < n -> g' i j = (c * g (f i) j)%R) -> cop c (mk (D := Rdt) K n g) (mk (D := Rdt) K' n g').
Proof. intros E. repeat split. cbn [nr nc mk]. intros i j Hi Hj. pose proof (HF i Hi). rewrite !at_mk by assumption. now apply E. Qed.

Section Layer.
Context (l l' : layer) (RL : conf l l').
Lemma c_pre x x' : cop 1 x x' -> forall i j, i < K' -> NetP.pre (l_W l') x' i j = NetP.pre (l_W l) x (f i) j.
Proof.
  intros (A & A' & B & E) i j Hi. pose proof (HF i Hi). destruct RL as (-> & _). rewrite !pre_R by lia. rewrite B. f_equal. apply sumN_ext. intros k Hk. rewrite E by lia. rr.
Qed.
Lemma c_out x x' : cop 1 x x' -> cop 1 (fwd_out l x) (fwd_out l' x').
Proof.
  intros HX. pose proof (c_pre x x' HX) as HP. destruct HX as (A & A' & B & E). pose proof RL as (W & _ & _ & EA). unfold fwd_out. rewrite A, A', W, EA. apply cop_mk. intros i j Hi Hj. rewrite <- HP by assumption. rewrite W. rr.
Qed.
Lemma c_fwd_ok x x' : cop 1 x x' -> fwd_ok (l_W l) x -> fwd_ok (l_W l') x'.
Proof. intros (A & A' & B & E) (F1 & F2 & F3). destruct RL as (-> & _). pose proof KK. unfold fwd_ok. repeat split; nia. Qed.
Lemma c_back_delta c x x' d d' : cop 1 x x' -> cop c d d' -> nc d = nc (l_W l) -> cop c (back_delta (fwd_layer l x) d) (back_delta (fwd_layer l' x') d').
Proof.
  intros HX (D1 & D2 & D3 & D4) N. pose proof (c_pre x x' HX) as HP. destruct HX as (A & A' & B & E). pose proof RL as (W & _ & _ & EA). unfold back_delta. cbn [fwd_layer l_z l_act]. rewrite A, A', W, EA, D1, D2, D3. apply cop_mk. intros i j Hi Hj. pose proof (HF i Hi).
  rewrite D4 by lia. rewrite !at_mk by lia. rewrite <- HP by assumption. rewrite W. change (@dmul Rdt) with Rmult. rr.
Qed.
Lemma c_down c x x' d d' : cop c d d' -> cop c (down (fwd_layer l x) d) (down (fwd_layer l' x') d').
Proof.
  intros (D1 & D2 & D3 & D4). pose proof RL as (W & _). unfold down. cbn [fwd_layer l_W]. rewrite W, D1, D2. apply cop_mk. intros i j Hi Hj. pose proof (HF i Hi). rewrite !at_mk by lia. rewrite !mdot_R, D3, <- sumN_scal. apply sumN_ext. intros k Hk. rewrite D4 by lia. rr.
Qed.
Lemma c_grad x x' d d' : cop 1 x x' -> cop (/ INR m) d d' -> nc d = nc (l_W l) -> l_grad (back_layer (fwd_layer l' x') d') = l_grad (back_layer (fwd_layer l x) d).
Proof.
  intros (A & A' & B & E) (D1 & D2 & D3 & D4) N. pose proof RL as (W & EL & _). cbn [back_layer l_grad]. unfold grad_of, raw_grad. cbn [fwd_layer l_pa l_lambda l_W nc nr mk]. rewrite W, EL, B, D3, A, A'. apply mk_ext. intros i j Hi Hj. rewrite !at_mk by assumption. f_equal.
  rewrite !mdot_R. cbn [mt nc mk nr].
  rewrite (sumN_ext K' _ (fun k => (/ INR m * (with_bias x (f k) i * at_ d (f k) j)))%R).
  - rewrite (sum_rearranged f m K K' (fun k => (/ INR m * (with_bias x k i * at_ d k j))%R)) by assumption. rewrite sumN_scal, <- Rmult_assoc, Rinv_r, Rmult_1_l by (apply not_0_INR; lia).
    apply sumN_ext. intros k Hk. unfold mt. cbn [nr nc mk]. rewrite !at_mk by lia. reflexivity.
  - intros k Hk. pose proof (HF k Hk). unfold mt. cbn [nr nc mk]. rewrite !at_mk by lia. rewrite D4 by lia. generalize (/ INR m)%R; intros q; destruct i as [|i]; cbn [with_bias]; [change (@Base.d1 Rdt) with 1%R; rr|]. rewrite E by lia. rr.
Qed.
End Layer.

Lemma c_pass : forall ls ls' x x' b ls1, Forall2 conf ls ls' -> cop 1 x x' -> lforward ls x = Ok (b, ls1) ->
  exists b' ls1', lforward ls' x' = Ok (b', ls1') /\ cop 1 b b' /\
  forall d d' dx ls2, cop (/ INR m) d d' -> lbackprop ls1 d = Ok (dx, ls2) ->
    exists dx' ls2', lbackprop ls1' d' = Ok (dx', ls2') /\ cop (/ INR m) dx dx' /\ map (fun l => l_grad l) ls2' = map (fun l => l_grad l) ls2.
Proof.
  intros ls ls' x x' b ls1 F. revert x x' b ls1. induction F as [|l l' ls ls' A B IH]; intros x x' b ls1 HX E; cbn [lforward] in E.
  - injection E as <- <-. exists x', []. split; [reflexivity|]. split; [exact HX|]. intros d d' dx ls2 HD E. cbn [lbackprop] in E. injection E as <- <-. exists d', []. auto.
  - apply bind_ok in E as ([a l1] & E1 & E). apply bind_ok in E as ([c r1] & E2 & E). injection E as <- <-. apply forward_inv in E1 as (F & -> & ->).
    pose proof (c_fwd_ok _ _ A _ _ HX F) as F'. pose proof (c_out _ _ A _ _ HX) as HO.
    destruct (IH _ _ _ _ HO E2) as (b' & r1' & E' & HB & HBK). exists b', (fwd_layer l' x' :: r1'). cbn [lforward]. rewrite forward_ok by assumption. cbn [bind]. rewrite E'. cbn [bind]. split; [reflexivity|]. split; [exact HB|].
    intros d d' dx ls2 HD EB. cbn [lbackprop] in EB. apply bind_ok in EB as ([d1 r2] & EB1 & EB). apply bind_ok in EB as ([d0 l2] & EB2 & EB). injection EB as <- <-.
    destruct (HBK _ _ _ _ HD EB1) as (d1' & r2' & EB1' & HD1 & HG). cbn [lbackprop]. rewrite EB1'. cbn [bind].
    apply backprop_inv in EB2 as ((K1 & K2 & K3 & K4 & K5 & K6 & K7) & -> & ->). cbn [fwd_layer l_z l_pa l_W nr nc mk] in K1, K2, K3, K4, K5, K7.
    pose proof A as (W & _). pose proof HX as (X1 & X2 & X3 & _). pose proof HD1 as (D1 & D2 & D3 & _). pose proof F' as (G1 & G2 & G3).
    rewrite backprop_ok. 2: { unfold back_ok. cbn [fwd_layer l_z l_pa l_W nr nc mk]. rewrite W in *. repeat split; lia. }
    cbn [bind]. pose proof (c_back_delta _ _ A _ _ _ _ _ HX HD1 K5) as HBD.
    do 2 eexists. split; [reflexivity|]. split.
    + apply (c_down _ _ A). exact HBD.
    + cbn [map]. f_equal; [|exact HG]. apply (c_grad _ _ A); assumption.
Qed.

(** ** Costs *)
Definition cra (a a' : mat) : Prop := cop 1 a a' /\ (exists h, a = mk (D := Rdt) (nr a) (nc a) h) /\ (exists h, a' = mk (D := Rdt) (nr a') (nc a') h).
Lemma cra_mk a a' : cra a a' -> a = mk (D := Rdt) K (nc a) (at_ a) /\ a' = mk (D := Rdt) K' (nc a) (fun i j => at_ a (f i) j).
Proof.
  intros ((A & A' & B & E) & [h Q] & [h' Q']). split.
  - rewrite A in Q. rewrite Q at 1. apply mk_ext. intros i j Hi Hj. rewrite Q at 1. now rewrite at_mk.
  - rewrite A', B in Q'. rewrite Q' at 1. apply mk_ext. intros i j Hi Hj. rewrite <- (at_mk (D := Rdt) K' (nc a) h' i j), <- Q', E by assumption. rr.
Qed.
Lemma accu_rearranged c g g' : (forall i j, i < K' -> j < c -> g' i j = (/ INR m * g (f i) j)%R) -> sumall (mk (D := Rdt) K' c g') = sumall (mk (D := Rdt) K c g).
Proof.
  intros E. unfold sumall. rewrite !accu_mk. apply sumN_ext. intros j Hj. rewrite (sumN_ext K' _ (fun i => / INR m * g (f i) j)%R) by (intros; now apply E).
  rewrite (sum_rearranged f m K K' (fun i => (/ INR m * g i j)%R)) by assumption. rewrite sumN_scal, <- Rmult_assoc, Rinv_r, Rmult_1_l by (apply not_0_INR; lia). reflexivity.
Qed.
Lemma divK v : 1 <= K -> (v / INR K' = / INR m * (v / INR K))%R.
Proof. intros. rewrite KK, mult_INR. field. split; apply not_0_INR; lia. Qed.
Definition builtin_cost (C : costfun (D := Rdt)) : Prop := C = quad_cost \/ C = ce_cost \/ C = kl_cost \/ C = sm_cost.
Definition builtin_costd (cd : costdfun (D := Rdt)) : Prop := cd = quad_costd \/ cd = ce_costd \/ cd = kl_costd \/ cd = sm_costd.
Lemma c_cost C a a' y y' J : 1 <= K -> builtin_cost C -> cra a a' -> cop 1 y y' -> C y a = Ok J -> exists J', C y' a' = Ok J' /\ sumall J' = sumall J.
Proof.
  intros HK HC HA (Y1 & Y1' & Y2 & Y3) E. destruct (cra_mk _ _ HA) as (Ea & Ea'). destruct HA as ((A & A' & B & _) & _).
  assert (N : nr y = nr a /\ nc y = nc a).
  { destruct HC as [->|[->|[->| ->]]]; revert E; unfold quad_cost, ce_cost, kl_cost, sm_cost, softmax_P, msub, mschur, mdiv; intros E; apply bind_ok in E as (u & E1 & E); [apply mzip_dims in E1 as (P & Q & _)|apply mzip_dims in E1 as (P & Q & _)|apply mzip_dims in E1 as (P & Q & _)|]; try (cbn [mmap nr nc mk] in P, Q; split; congruence).
    apply mzip_dims in E1 as (P & Q & P' & Q' & _). apply bind_ok in E as (w & E2 & E). apply mzip_dims in E2 as (A2 & B2 & _). cbn [mmap exponential nr nc mk] in *. split; congruence. }
  destruct N as [N1 N2]. rewrite Ea in E. rewrite Ea'.
  assert (YY : forall i j, i < K' -> j < nc a -> at_ y' i j = at_ y (f i) j) by (intros i j Hi Hj; rewrite Y3 by lia; rr).
  destruct HC as [->|[->|[->| ->]]].
  - rewrite quad_cost_mk in E |- * by congruence. injection E as <-. eexists. split; [reflexivity|]. apply accu_rearranged. intros i j Hi Hj. rewrite YY by assumption. now apply divK.
  - rewrite ce_cost_mk in E |- * by congruence. injection E as <-. eexists. split; [reflexivity|]. apply accu_rearranged. intros i j Hi Hj. rewrite YY by assumption. now apply divK.
  - rewrite kl_cost_mk in E |- * by congruence. injection E as <-. eexists. split; [reflexivity|]. apply accu_rearranged. intros i j Hi Hj. rewrite YY by assumption. now apply divK.
  - rewrite sm_cost_mk in E |- * by congruence. injection E as <-. eexists. split; [reflexivity|]. apply accu_rearranged. intros i j Hi Hj. rewrite YY by assumption. now apply divK.
Qed.
Lemma c_costd cd a a' y y' z z' d : 1 <= K -> builtin_costd cd -> cra a a' -> cop 1 y y' -> cd y a z = Ok d -> exists d', cd y' a' z' = Ok d' /\ cop (/ INR m) d d'.
Proof.
  intros HK HC HA (Y1 & Y1' & Y2 & Y3) E. destruct (cra_mk _ _ HA) as (Ea & Ea'). destruct HA as ((A & A' & B & _) & _).
  assert (N : nr y = nr a /\ nc y = nc a).
  { destruct HC as [->|[->|[->| ->]]]; revert E; unfold quad_costd, ce_costd, kl_costd, sm_costd, softmax_P, msub, mschur, mdiv; intros E; apply bind_ok in E as (u & E1 & E); try (apply mzip_dims in E1 as (P & Q & _); split; congruence).
    apply mzip_dims in E1 as (P & Q & P' & Q' & _). apply bind_ok in E as (w & E2 & E). apply mzip_dims in E2 as (A2 & B2 & _). cbn [mmap exponential nr nc mk] in *. split; congruence. }
  destruct N as [N1 N2]. rewrite Ea in E. rewrite Ea'.
  assert (YY : forall i j, i < K' -> j < nc a -> at_ y' i j = at_ y (f i) j) by (intros i j Hi Hj; rewrite Y3 by lia; rr).
  destruct HC as [->|[->|[->| ->]]].
  - rewrite quad_costd_mk in E |- * by congruence. injection E as <-. eexists. split; [reflexivity|]. apply cop_mk. intros i j Hi Hj. rewrite YY by assumption. now apply divK.
  - rewrite ce_costd_mk in E |- * by congruence. injection E as <-. eexists. split; [reflexivity|]. apply cop_mk. intros i j Hi Hj. rewrite YY by assumption. now apply divK.
  - rewrite kl_costd_mk in E |- * by congruence. injection E as <-. eexists. split; [reflexivity|]. apply cop_mk. intros i j Hi Hj. rewrite YY by assumption. now apply divK.
  - rewrite sm_costd_mk in E |- * by congruence. injection E as <-. eexists. split; [reflexivity|]. apply cop_mk. intros i j Hi Hj. rewrite YY by assumption. now apply divK.
Qed.

(** ** One call *)
Section Call.
Context (HK : 1 <= K) (C : costfun (D := Rdt)) (cd : costdfun (D := Rdt)) (HC : builtin_cost C) (HCd : builtin_costd cd).
Notation rc := (Forall2 (conf (D := Rdt))).
Notation geq := (fun (_ : nat) (g g' : mat) => g' = g).
Lemma d_kept : forall c c' d d' : list layer, rc c c' -> Forall2 conf c d -> Forall2 conf c' d' -> rc d d'.
Proof. intros c c' d d' A B E. exact (F2conf_trans _ _ _ (F2conf_trans _ _ _ (F2conf_sym _ _ B) A) E). Qed.
Lemma d_rate : forall v (c c' : list layer), rc c c' -> rc (map (relr v) c) (map (relr v) c').
Proof. induction 1 as [|l l' c c' (A & B & E & F) G IH]; cbn; constructor; auto. repeat split; assumption. Qed.
Lemma d_fwd : forall (ls : list layer) o ls' o' x x' b ls1, rc (ls ++ [o]) (ls' ++ [o']) -> cop 1 x x' -> lforward ls x = Ok (b, ls1) -> fwd_ok (l_W o) b ->
  exists b' ls1', lforward ls' x' = Ok (b', ls1') /\ fwd_ok (l_W o') b' /\ cra (fwd_out o b) (fwd_out o' b').
Proof.
  intros ls o ls' o' x x' b ls1 HR HX E F. destruct (rc_split2 _ _ _ _ HR) as (A & B). destruct (c_pass _ _ _ _ _ _ A HX E) as (b' & ls1' & E' & HB & _).
  exists b', ls1'. split; [exact E'|]. split; [eapply c_fwd_ok; eauto|]. split; [now apply c_out|]. split; eexists; reflexivity.
Qed.
Lemma d_back : forall (ls : list layer) o ls' o' x x' y y' b ls1 delta dx ls2 b' ls1', rc (ls ++ [o]) (ls' ++ [o']) -> cop 1 x x' -> cop 1 y y' ->
  lforward ls x = Ok (b, ls1) -> fwd_ok (l_W o) b -> cd y (fwd_out o b) (l_z (fwd_layer o b)) = Ok delta -> nr delta = nr b -> nc delta = nc (l_W o) ->
  lbackprop ls1 (down (fwd_layer o b) delta) = Ok (dx, ls2) ->
  lforward ls' x' = Ok (b', ls1') -> fwd_ok (l_W o') b' ->
  exists delta' dx' ls2', cd y' (fwd_out o' b') (l_z (fwd_layer o' b')) = Ok delta' /\ nr delta' = nr b' /\ nc delta' = nc (l_W o') /\
    lbackprop ls1' (down (fwd_layer o' b') delta') = Ok (dx', ls2') /\
    grs geq (map (fun l => l_grad l) (ls2 ++ [back_layer (fwd_layer o b) delta])) (map (fun l => l_grad l) (ls2' ++ [back_layer (fwd_layer o' b') delta'])).
Proof.
  intros ls o ls' o' x x' y y' b ls1 delta dx ls2 b' ls1' HR HX HY E F ED N1 N2 EB E' F'. destruct (rc_split2 _ _ _ _ HR) as (A & B). destruct (c_pass _ _ _ _ _ _ A HX E) as (b0 & ls10 & E0 & HB & HBK). pose proof (eq_trans (eq_sym E0) E') as Q. injection Q as -> ->. clear E0.
  assert (HA : cra (fwd_out o b) (fwd_out o' b')) by (split; [now apply c_out|]; split; eexists; reflexivity).
  destruct (c_costd cd _ _ _ _ _ (l_z (fwd_layer o' b')) _ HK HCd HA HY ED) as (delta' & ED' & HD). exists delta'.
  destruct (HBK _ _ _ _ (c_down _ _ B _ b b' _ _ HD) EB) as (dx' & ls2' & EB' & _ & HG). exists dx', ls2'. split; [exact ED'|].
  pose proof HD as (D1 & D2 & D3 & _). pose proof HB as (B1 & B2 & B3 & _). pose proof B as (W & _). split; [lia|]. split; [rewrite W; lia|]. split; [exact EB'|].
  apply grs_eq. rewrite !map_app. cbn [map]. f_equal; [exact HG|]. f_equal. apply c_grad; assumption.
Qed.
Lemma d_step : forall (c c' : list layer) gs gs', rc c c' -> Forall2 gfit c gs -> Forall2 gfit c' gs' -> grs geq gs gs' -> rc (steps_with c gs) (steps_with c' gs').
Proof.
  intros c c' gs gs' A F _ G. apply grs_eq in G. subst gs'. revert c' A. induction F as [|l g c gs B F IH]; intros c' A; inversion A as [|? l' ? c0 (W & L & R & AC) A']; subst; cbn; constructor; [|now apply IH].
  unfold stepped_with. cbn [fst snd]. repeat split; try assumption. cbn [set_W l_W]. rewrite W, R. reflexivity.
Qed.
Lemma d_mix : forall (i : nat) u v (a g a' g' : mat), a' = a -> g' = g -> nr a = nr g -> nc a = nc g -> nr a' = nr g' -> nc a' = nc g' -> mixed u v a' g' = mixed u v a g.
Proof. congruence. Qed.
Lemma d_cost : forall (a a' y y' : mat) J, cra a a' -> cop 1 y y' -> C y a = Ok J -> exists J', C y' a' = Ok J' /\ sumall J' = sumall J.
Proof. intros a a' y y' J A B. exact (c_cost C _ _ _ _ _ HK HC A B). Qed.
Lemma d_anr : forall a a' : mat, cra a a' -> nr a = K. Proof. intros a a' ((A & _) & _). exact A. Qed.
Definition d_plain := plain_sim junk rc geq (cop 1) (cop 1) cra C cd d_kept d_rate d_fwd d_back d_step d_cost.
Definition d_mom := mom_sim junk rc geq (cop 1) (cop 1) cra C cd d_kept d_rate d_fwd d_back d_step d_mix d_cost.
End Call.
End Dist.
Arguments d_plain {junk}.

(** ** C84 *)
(** The trainers that use all samples of a call at once. *)
Definition whole_batch (cs : nspec Rdt) : Prop := match cs with NPlain _ | NMom _ _ => True | _ => False end.
Lemma sim_conf C cd (n : net Rdt) (H : lheap Rdt) n' H' : sim (Forall2 (conf (D := Rdt))) C cd n H n' H' -> same_config n H n' H'.
Proof. intros (ls & ls' & K & K' & A & K0 & K1 & K2 & K3). apply rc_split2 in A as [A B]. eapply dense_same_config; eauto; congruence. Qed.
Lemma conf_sim (n : net Rdt) (H : lheap Rdt) n' H' : same_config n H n' H' -> sim (Forall2 (conf (D := Rdt))) (n_cost n) (o_costd (n_output n)) n H n' H'.
Proof.
  intros A. destruct (same_config_dense _ _ _ _ A) as (ls & ls' & K & K' & F & B & E1 & E2). exists ls, ls'. split; [exact K|]. split; [exact K'|]. split; [|auto]. apply Forall2_app; [exact F|]. constructor; [exact B|constructor].
Qed.
Definition dkind (n : net Rdt) (H : lheap Rdt) (kd : tkind Rdt) (n' : net Rdt) (H' : lheap Rdt) : Prop :=
  match kd with KPlain _ => True | KMom m => msim (fun _ (g g' : mat Rdt) => g' = g) n H m n' H' m | _ => False end.
Lemma msim_eq (n : net Rdt) (H : lheap Rdt) m n' H' m' : msim (fun _ (g g' : mat Rdt) => g' = g) n H m n' H' m' -> m' = m.
Proof.
  intros (A & B & _ & _ & G). apply grs_eq in G. unfold accs in G. apply app_inj_tail in G as [G1 G2]. destruct m, m'. cbn in *. congruence.
Qed.
Theorem C84_training : forall (junk : nat -> Rdt) cs (data data' : list (mat Rdt * mat Rdt * bool)) (n : net Rdt) (H : lheap Rdt) (n' : net Rdt) (H' : lheap Rdt) kd vs kd1 n1 H1,
  whole_batch cs -> builtin_cost (n_cost n) -> builtin_costd (o_costd (n_output n)) -> same_config n H n' H' ->
  Forall2 (fun d d' => (exists m f, rearranged m f (fst (fst d)) (snd (fst d)) (fst (fst d')) (snd (fst d'))) /\ snd d' = snd d) data data' ->
  new_bound cs n H = Ok kd -> training junk data kd n H = Ok (vs, kd1, n1, H1) ->
  exists n1' H1', new_bound cs n' H' = Ok kd /\ training junk data' kd n' H' = Ok (vs, kd1, n1', H1') /\ same_config n1 H1 n1' H1'.
Proof.
  intros junk cs data data' n H n' H' kd vs kd1 n1 H1 HW HC HCd HS HD HN HT. pose proof (conf_sim _ _ _ _ HS) as S0. revert HC HCd S0. generalize (n_cost n) (o_costd (n_output n)). intros C cd HC HCd S0.
  assert (EN : exists kd', new_bound cs n' H' = Ok kd').
  { destruct cs as [d|d|b d|mu d]; cbn; eauto. destruct HS as (_ & Hd' & _). destruct (init_ok (base_of d) mu n' H' Hd') as (m & -> & _). cbn. eauto. }
  destruct EN as [kd' EN].
  assert (HK : ksim (fun _ (g g' : mat Rdt) => g' = g) n H kd n' H' kd').
  { eapply new_sim; [exact S0| |exact HN|exact EN]. intros ls ls' o o' A. apply grs_eq. clear -A. induction A as [|l l' c c' (W & _) A IH]; cbn; [reflexivity|]. now rewrite W, IH. }
  assert (kd' = kd /\ dkind n H kd n' H') as [-> DK].
  { destruct cs as [d|d|b d|mu d]; try contradiction.
    - cbn in HN, EN. injection HN as <-. injection EN as <-. split; [reflexivity|exact I].
    - cbn in HN, EN. apply bind_ok in HN as (m & M & HN). apply bind_ok in EN as (m' & M' & EN). injection HN as <-. injection EN as <-. cbn in HK. pose proof (msim_eq _ _ _ _ _ _ HK). subst m'. split; [reflexivity|exact HK]. }
  clear HN HK HW. rewrite EN. clear EN HS.
  assert (X : exists n1' H1', training junk data' kd n' H' = Ok (vs, kd1, n1', H1') /\ sim (Forall2 (conf (D := Rdt))) C cd n1 H1 n1' H1'); [|destruct X as (n1' & H1' & E & S1); exists n1', H1'; split; [reflexivity|]; split; [exact E|eapply sim_conf; eauto]].
  revert kd n H n' H' vs kd1 n1 H1 S0 DK HT. induction HD as [|[[x y] c] [[x' y'] c'] data data' [(m & f & R) Ec] HD IH]; intros kd n H n' H' vs kd1 n1 H1 S0 DK HT; cbn [training fst snd] in *.
  - injection HT as <- <- <- <-. eauto.
  - subst c'. apply bind_ok in HT as ([[[v kd2] n2] H2] & E1 & E). apply bind_ok in E as ([[[ws kd3] n3] H3] & E2 & E). injection E as <- <- <- <-.
    destruct R as (Hm & HK & N1 & N2 & N3 & N4 & HTm & HR). assert (HF : forall i, i < nr x' -> f i < nr x) by (intros i Hi; apply (HR i Hi)).
    assert (CX : cop f (nr x) (nr x') 1 x x'). { split; [reflexivity|]. split; [reflexivity|]. split; [exact N3|]. intros i j Hi Hj. rewrite (proj1 (proj2 (HR i Hi))) by assumption. rr. }
    assert (CY : cop f (nr x) (nr x') 1 y y'). { split; [exact N1|]. split; [exact N2|]. split; [exact N4|]. intros i j Hi Hj. rewrite (proj2 (proj2 (HR i Hi))) by assumption. rr. }
    assert (X : exists n2' H2', feed_on junk kd n' H' x' y' c = Ok (v, kd2, n2', H2') /\ sim (Forall2 (conf (D := Rdt))) C cd n2 H2 n2' H2' /\ dkind n2 H2 kd2 n2' H2').
    { destruct kd as [t|t|t bx by_ ob|mt0]; try contradiction; cbn [feed_on] in *.
      - apply bind_ok in E1 as ([[[v1 t1] n4] H4] & E1 & E). injection E as <- <- <- <-. destruct (d_plain f m _ _ Hm HF HTm HK C cd HC HCd _ _ _ _ _ _ _ _ _ _ _ _ _ _ S0 CX CY E1) as (n4' & H4' & -> & S4). cbn [bind]. do 2 eexists. split; [reflexivity|]. split; [exact S4|exact I].
      - apply bind_ok in E1 as ([[[v1 t1] n4] H4] & E1 & E). injection E as <- <- <- <-. destruct (d_mom _ f m _ _ Hm HF HTm HK C cd HC HCd _ _ _ _ _ _ _ _ _ _ _ _ _ _ _ S0 DK CX CY E1) as (t1' & n4' & H4' & E4 & S4 & M4). pose proof (msim_eq _ _ _ _ _ _ M4). subst t1'. rewrite E4. cbn [bind]. do 2 eexists. split; [reflexivity|]. split; [exact S4|exact M4]. }
    destruct X as (n2' & H2' & -> & S2 & D2). cbn [bind]. destruct (IH _ _ _ _ _ _ _ _ _ S2 D2 E2) as (n3' & H3' & -> & S3). cbn [bind]. eauto.
Qed.

(** So the two networks answer every input alike. *)
Theorem C84_answers : forall (junk : nat -> Rdt) cs (data data' : list (mat Rdt * mat Rdt * bool)) (n : net Rdt) (H : lheap Rdt) kd vs kd1 n1 H1 z a n2 H2,
  whole_batch cs -> builtin_cost (n_cost n) -> builtin_costd (o_costd (n_output n)) -> dense_hidden n H ->
  Forall2 (fun d d' => (exists m f, rearranged m f (fst (fst d)) (snd (fst d)) (fst (fst d')) (snd (fst d'))) /\ snd d' = snd d) data data' ->
  new_bound cs n H = Ok kd -> training junk data kd n H = Ok (vs, kd1, n1, H1) -> net_forward junk n1 H1 z = Ok (a, n2, H2) ->
  exists n1' H1' n2' H2', training junk data' kd n H = Ok (vs, kd1, n1', H1') /\ net_forward junk n1' H1' z = Ok (a, n2', H2').
Proof.
  intros junk cs data data' n H kd vs kd1 n1 H1 z a n2 H2 HW HC HCd HS HD HN HT HF.
  destruct (C84_training junk cs data data' n H n H kd vs kd1 n1 H1 HW HC HCd (same_config_refl n H HS) HD HN HT) as (n1' & H1' & _ & E & S1).
  destruct (forward_conf junk _ _ _ _ _ _ _ _ S1 HF) as (n2' & H2' & E2 & _). eauto 8.
Qed.

(** ** The hypotheses can be met *)
(** Two samples; then the second, the first, the first and the second. *)
Definition dsx : mat Rdt := rm 4 1 [2; 1; 1; 2]%R.
Definition dsy : mat Rdt := rm 4 1 [0; 3; 3; 0]%R.
Definition dsf (i : nat) : nat := match i with 0 | 3 => 1 | _ => 0 end.
Lemma ds_rearranged : rearranged 2 dsf exrx pmy dsx dsy.
Proof.
  split; [lia|]. split; [cbn; lia|]. do 4 (split; [reflexivity|]). split.
  - cbn [exrx rm nr]. intros r Hr. destruct (two r Hr) as [-> | ->]; reflexivity.
  - cbn [dsx exrx dsy pmy rm nr nc]. intros i Hi. assert (i = 0 \/ i = 1 \/ i = 2 \/ i = 3) as [-> |[-> |[-> | ->]]] by lia; (split; [cbn; lia|]; split; intros j Hj; assert (j = 0) as -> by lia; reflexivity).
Qed.
Example C84_example (junk : nat -> Rdt) : exists vs kd1 n1 H1 n1' H1',
  training junk [(exrx, pmy, true); (exrx, pmy, true)] (KPlain trainer_new) (pmn [1; 2; -3]%R) (pmH [1; 2; 1; -1]%R) = Ok (vs, kd1, n1, H1) /\
  training junk [(dsx, dsy, true); (exrx, pmy, true)] (KPlain trainer_new) (pmn [1; 2; -3]%R) (pmH [1; 2; 1; -1]%R) = Ok (vs, kd1, n1', H1') /\ same_config n1 H1 n1' H1'.
Proof.
  destruct (C83_example junk) as (HR & _ & _ & _ & vs & kd1 & n1 & H1 & _ & _ & _ & E & _). exists vs, kd1, n1, H1.
  destruct (C84_training junk (NPlain None) [(exrx, pmy, true); (exrx, pmy, true)] [(dsx, dsy, true); (exrx, pmy, true)] (pmn [1; 2; -3]%R) (pmH [1; 2; 1; -1]%R) (pmn [1; 2; -3]%R) (pmH [1; 2; 1; -1]%R) (KPlain trainer_new) vs kd1 n1 H1 I) as (n1' & H1' & _ & E' & S1); [now left|now left|apply same_config_refl, HR| |reflexivity|exact E|].
  - constructor; [split; [exists 2, dsf; exact ds_rearranged|reflexivity]|]. constructor; [split; [|reflexivity]|constructor]. exists 1, (fun i => i). split; [lia|]. split; [cbn; lia|]. do 4 (split; [reflexivity|]). split; [cbn [exrx rm nr]; intros r Hr; destruct (two r Hr) as [-> | ->]; reflexivity|auto].
  - exists n1', H1'. auto.
Qed.
(** The order does matter to an SGDTrainer (computed over Z). *)
Definition zswap (m : mat Zdt) : mat Zdt := match el m with [a; b] => zm 2 1 [b; a] | _ => m end.
Example C84_sgd_order : match sgd_feeddata (D := Zdt) exj trainer_new exn exH exx exy, sgd_feeddata (D := Zdt) exj trainer_new exn exH (zswap exx) (zswap exy) with
  | Ok (_, n1, _), Ok (_, n2, _) => negb (Z.eqb (nth 0 (el (l_W (o_l (n_output n1)))) 0%Z) (nth 0 (el (l_W (o_l (n_output n2)))) 0%Z)) | _, _ => false end = true.
Proof. vm_compute. reflexivity. Qed.

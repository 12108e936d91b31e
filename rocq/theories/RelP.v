(** RelP.v - lemmas: lifting a relation between the layers of two networks through training calls of every trainer.
    InvP lifts invariants of one run; this file lifts relations between two runs. *)
From Verif Require Import Base Mat Act Layer Conv Misc Net NetP Trainer TrainP TrainP2 P_Train P_Decay P_Mom FunEq ConfEq World Session SessP InvP P_Sym.
From Coq Require Import Arith List ZArith Lia.
Import ListNotations.
Local Open Scope nat_scope.

Section RelP.
Context {D : dtype} (junk : nat -> D).
Notation mat := (mat D).
Notation net := (net D).
Notation lheap := (lheap D).
Notation layer := (layer D).

(** [RC]: the relation between the layers (hidden ones, then the output layer); [GR i]: between the gradients of layer i;
    [RX], [RY]: between samples and between labels; [RA]: between answers; [C], [cd]: the cost function of the network and the delta function of the
    output layer, the same on both sides. *)
Context (RC : list layer -> list layer -> Prop) (GR : nat -> mat -> mat -> Prop) (RX RY RA : mat -> mat -> Prop) (C : costfun (D := D)) (cd : costdfun (D := D)).
Context (Rkept : forall c c' d d', RC c c' -> Forall2 conf c d -> Forall2 conf c' d' -> RC d d').
Context (Rrate : forall r c c', RC c c' -> RC (map (relr r) c) (map (relr r) c')).
Context (Rfwd : forall ls o ls' o' x x' b ls1, RC (ls ++ [o]) (ls' ++ [o']) -> RX x x' -> lforward ls x = Ok (b, ls1) -> fwd_ok (l_W o) b ->
  exists b' ls1', lforward ls' x' = Ok (b', ls1') /\ fwd_ok (l_W o') b' /\ RA (fwd_out o b) (fwd_out o' b')).
Definition grs (gs gs' : list mat) : Prop := length gs' = length gs /\ forall i g g', nth_error gs i = Some g -> nth_error gs' i = Some g' -> GR i g g'.
Context (Rback : forall ls o ls' o' x x' y y' b ls1 delta dx ls2 b' ls1', RC (ls ++ [o]) (ls' ++ [o']) -> RX x x' -> RY y y' ->
  lforward ls x = Ok (b, ls1) -> fwd_ok (l_W o) b -> cd y (fwd_out o b) (l_z (fwd_layer o b)) = Ok delta -> nr delta = nr b -> nc delta = nc (l_W o) ->
  lbackprop ls1 (down (fwd_layer o b) delta) = Ok (dx, ls2) ->
  lforward ls' x' = Ok (b', ls1') -> fwd_ok (l_W o') b' ->
  exists delta' dx' ls2', cd y' (fwd_out o' b') (l_z (fwd_layer o' b')) = Ok delta' /\ nr delta' = nr b' /\ nc delta' = nc (l_W o') /\
    lbackprop ls1' (down (fwd_layer o' b') delta') = Ok (dx', ls2') /\
    grs (map (fun l => l_grad l) (ls2 ++ [back_layer (fwd_layer o b) delta])) (map (fun l => l_grad l) (ls2' ++ [back_layer (fwd_layer o' b') delta']))).
Context (Rstep : forall c c' gs gs', RC c c' -> Forall2 gfit c gs -> Forall2 gfit c' gs' -> grs gs gs' -> RC (steps_with c gs) (steps_with c' gs')).
Context (Rlen : forall c c', RC c c' -> length c' = length c).
Context (Gmix : forall i u v a g a' g', GR i a a' -> GR i g g' -> nr a = nr g -> nc a = nc g -> nr a' = nr g' -> nc a' = nc g' -> GR i (mixed u v a g) (mixed u v a' g')).
Context (Rcost : forall a a' y y' J, RA a a' -> RY y y' -> C y a = Ok J -> exists J', C y' a' = Ok J' /\ sumall J' = sumall J).
Context (Xrow : forall x x' i xi, RX x x' -> mrow x i = Ok xi -> exists xi', mrow x' i = Ok xi' /\ RX xi xi').
Context (Yrow : forall x x' i xi, RY x x' -> mrow x i = Ok xi -> exists xi', mrow x' i = Ok xi' /\ RY xi xi').
Context (Xrows : forall x x' a b xi, RX x x' -> mrows x a b = Ok xi -> exists xi', mrows x' a b = Ok xi' /\ RX xi xi').
Context (Yrows : forall x x' a b xi, RY x x' -> mrows x a b = Ok xi -> exists xi', mrows x' a b = Ok xi' /\ RY xi xi').
Context (Xwrap : forall x x' b xi, RX x x' -> wrap_rows x b = Ok xi -> exists xi', wrap_rows x' b = Ok xi' /\ RX xi xi').
Context (Ywrap : forall x x' b xi, RY x x' -> wrap_rows x b = Ok xi -> exists xi', wrap_rows x' b = Ok xi' /\ RY xi xi').
Context (Xnr : forall x x', RX x x' -> nr x' = nr x).
Context (Anr : forall a a', RA a a' -> nr a' = nr a /\ nc a' = nc a).

Definition sim (n : net) (H : lheap) (n' : net) (H' : lheap) : Prop :=
  exists ls ls', dense_net n H ls /\ dense_net n' H' ls' /\ RC (ls ++ [o_l (n_output n)]) (ls' ++ [o_l (n_output n')]) /\
    n_cost n = C /\ n_cost n' = C /\ o_costd (n_output n) = cd /\ o_costd (n_output n') = cd.

Lemma F2app1 (ls ls' : list layer) o o' : Forall2 conf ls ls' -> conf o o' -> Forall2 conf (ls ++ [o]) (ls' ++ [o']).
Proof. intros A B. apply Forall2_app; [assumption|constructor; [assumption|constructor]]. Qed.

Lemma forward_sim n H n' H' x x' a n1 H1 : sim n H n' H' -> RX x x' -> net_forward junk n H x = Ok (a, n1, H1) ->
  exists a' n1' H1', net_forward junk n' H' x' = Ok (a', n1', H1') /\ RA a a' /\ sim n1 H1 n1' H1' /\ n_result n1 = a /\ n_result n1' = a' /\
    l_a (o_l (n_output n1)) = a /\ l_a (o_l (n_output n1')) = a' /\
    (forall y y' n2 H2, RY y y' -> net_backprop junk n1 H1 y = Ok (n2, H2) ->
      exists n2' H2', net_backprop junk n1' H1' y' = Ok (n2', H2') /\ n_result n2 = a /\ n_result n2' = a' /\
        n_cost n2 = C /\ n_cost n2' = C /\ o_costd (n_output n2) = cd /\ o_costd (n_output n2') = cd /\
        exists l2 l2', dense_net n2 H2 l2 /\ dense_net n2' H2' l2' /\ RC (l2 ++ [o_l (n_output n2)]) (l2' ++ [o_l (n_output n2')]) /\
          Forall gsized (l2 ++ [o_l (n_output n2)]) /\ Forall gsized (l2' ++ [o_l (n_output n2')]) /\
          grs (map (fun l => l_grad l) (l2 ++ [o_l (n_output n2)])) (map (fun l => l_grad l) (l2' ++ [o_l (n_output n2')]))).
Proof.
  intros (ls & ls' & Hd & Hd' & HR & K1 & K2 & K3 & K4) HX HF.
  pose proof HF as HF0. rewrite (net_forward_dense junk n H ls) in HF by assumption. apply bind_ok in HF as ([b l1] & F1 & HF). apply bind_ok in HF as ([r o'] & F2 & HF). injection HF as -> <- <-.
  apply out_forward_inv in F2 as (F3 & -> & ->).
  destruct (Rfwd _ _ _ _ _ _ _ _ HR HX F1 F3) as (b' & l1' & F1' & F3' & HA).
  assert (HF' : exists n1' H1', net_forward junk n' H' x' = Ok (fwd_out (o_l (n_output n')) b', n1', H1') /\ n_result n1' = fwd_out (o_l (n_output n')) b' /\ l_a (o_l (n_output n1')) = fwd_out (o_l (n_output n')) b' /\ dense_net n1' H1' l1' /\
     o_l (n_output n1') = fwd_layer (o_l (n_output n')) b' /\ n_cost n1' = n_cost n' /\ o_costd (n_output n1') = o_costd (n_output n') /\ n_hidden n1' = n_hidden n').
  { rewrite (net_forward_dense junk n' H' ls') by assumption. rewrite F1'. cbn [bind]. rewrite out_forward_ok by assumption. cbn [bind]. do 2 eexists. split; [reflexivity|].
    split; [reflexivity|]. split; [reflexivity|]. split; [|repeat split; reflexivity]. split; [apply Hd'|]. cbn. eapply dense_put; [exact Hd'|eapply lforward_len; eauto]. }
  destruct HF' as (n1' & H1' & HF' & R' & A' & Hd1' & O1' & C1' & CD1' & N1'). exists (fwd_out (o_l (n_output n')) b'), n1', H1'.
  split; [exact HF'|]. split; [exact HA|].
  assert (A1 : dense_at (put_layers (n_hidden n) l1 H) (n_hidden n) l1) by (eapply dense_put; [exact Hd|eapply lforward_len; eauto]).
  split. { exists l1, l1'. split; [split; [apply Hd|exact A1]|]. split; [exact Hd1'|]. split; [|split; [exact K1|split; [congruence|split; [exact K3|congruence]]]].
    eapply Rkept; [exact HR| |]; apply F2app1; [eapply lforward_W; exact F1|repeat split|eapply lforward_W; exact F1'|rewrite O1'; repeat split]. }
  split; [reflexivity|]. split; [exact R'|]. split; [reflexivity|]. split; [exact A'|].
  intros y y' n2 H2 HY HB. destruct (pass_dense junk n H ls x y _ _ _ n2 H2 Hd HF0 HB) as (b0 & l10 & delta & l2 & dx & P1 & P2 & P3 & P4 & P5 & P6 & P7 & P8 & P9 & P10 & P11 & P12 & P13).
  pose proof (eq_trans (eq_sym P1) F1) as Q. injection Q as -> ->. rewrite K3 in P4.
  destruct (Rback _ _ _ _ _ _ _ _ _ _ _ _ _ _ _ HR HX HY F1 F3 P4 P5 P6 P7 F1' F3') as (delta' & dx' & l2' & Q1 & Q2 & Q3 & Q4 & Q5).
  assert (HB' : exists n2' H2', net_backprop junk n1' H1' y' = Ok (n2', H2') /\ n_result n2' = n_result n1').
  { rewrite (net_backprop_dense junk _ _ l1') by exact Hd1'. rewrite out_backprop_ok with (delta := delta').
    - cbn [bind]. rewrite O1', Q4. cbn [bind]. do 2 eexists. split; reflexivity.
    - rewrite O1', CD1', K4. exact Q1.
    - rewrite O1'. cbn. lia.
    - rewrite O1'. cbn. apply F3'.
    - rewrite O1'. exact Q3.
    - rewrite O1'. cbn. destruct F3' as (_ & Z1 & Z2). lia. }
  destruct HB' as (n2' & H2' & HB' & R2').
  destruct (pass_dense junk n' H' ls' x' y' _ _ _ n2' H2' Hd' HF' HB') as (b0' & l10' & delta0' & l20' & dx0' & P1' & P2' & P3' & P4' & P5' & P6' & P7' & P8' & P9' & P10' & P11' & P12' & P13').
  pose proof (eq_trans (eq_sym P1') F1') as Q. injection Q as -> ->. rewrite K4 in P4'. pose proof (eq_trans (eq_sym P4') Q1) as Q. injection Q as ->. pose proof (eq_trans (eq_sym P7') Q4) as Q. injection Q as -> ->.
  destruct (back_keep _ _ _ _ _ _ HB) as (_ & _ & (BK1 & BK2) & _). destruct (back_keep _ _ _ _ _ _ HB') as (_ & _ & (BK1' & BK2') & _).
  exists n2', H2'. split; [exact HB'|]. split; [exact (proj2 (backprop_kc _ _ _ _ _ _ HB))|]. split; [congruence|].
  split; [congruence|]. split; [congruence|]. split; [exact (eq_trans BK2 K3)|]. split; [congruence|].
  exists l2, l2'. split; [exact P9|]. split; [exact P9'|]. rewrite P10, P10'.
  pose proof (passes_form _ _ _ _ F1 _ _ _ P7) as Z. pose proof (passes_form _ _ _ _ F1' _ _ _ P7') as Z'.
  split. { eapply Rkept; [exact HR| |]; apply F2app1; try (repeat split); [clear -Z; induction Z as [|l l' ? ? (_ & A & B & E & F) Z IH]; constructor; auto; repeat split; assumption|clear -Z'; induction Z' as [|l l' ? ? (_ & A & B & E & F) Z IH]; constructor; auto; repeat split; assumption]. }
  split; [|split; [|exact Q5]]; apply Forall_app; (split; [|constructor; [|constructor]]).
  - clear -Z. induction Z as [|l l' ? ? ((R1 & R2 & _) & A & _) Z IH]; constructor; auto. unfold gsized. rewrite R1, R2, A. split; reflexivity.
  - unfold gsized. cbn. destruct F3 as (Z1 & Z2 & Z3). split; [lia|assumption].
  - clear -Z'. induction Z' as [|l l' ? ? ((R1 & R2 & _) & A & _) Z IH]; constructor; auto. unfold gsized. rewrite R1, R2, A. split; reflexivity.
  - unfold gsized. cbn. destruct F3' as (Z1 & Z2 & Z3). split; [lia|assumption].
Qed.

Lemma steps_map (c : list layer) : map stepped c = steps_with c (map (fun l => l_grad l) c).
Proof. unfold steps_with. now rewrite (map_combine_self stepped_with (fun l => l_grad l)). Qed.
Lemma gs_fit (c : list layer) : Forall gsized c -> Forall2 gfit c (map (fun l => l_grad l) c).
Proof. induction 1; cbn; constructor; auto. Qed.

Lemma train_step_sim n H n' H' x x' y y' n1 H1 : sim n H n' H' -> RX x x' -> RY y y' -> train_step junk n H x y = Ok (n1, H1) ->
  exists n1' H1', train_step junk n' H' x' y' = Ok (n1', H1') /\ sim n1 H1 n1' H1' /\ RA (n_result n1) (n_result n1').
Proof.
  intros HS HX HY HT. unfold train_step in *. apply bind_ok in HT as ([[a m1] K1] & HF & HT). apply bind_ok in HT as ([m2 K2] & HB & HU).
  destruct (forward_sim _ _ _ _ _ _ _ _ _ HS HX HF) as (a' & m1' & K1' & HF' & HA & _ & _ & _ & _ & _ & G).
  destruct (G _ _ _ _ HY HB) as (m2' & K2' & HB' & R2 & R2' & C2 & C2' & CD & CD' & l2 & l2' & Hd & Hd' & HR & GS & GS' & HG). rewrite HF'. cbn [bind]. rewrite HB'. cbn [bind].
  destruct (net_update_dense m2 K2 l2 n1 H1 Hd HU) as (G1 & G2 & -> & ->).
  pose proof GS' as GS0. apply Forall_app in GS0 as [GSa GSb]. inversion GSb as [|? ? GSc _]; subst.
  rewrite (net_update_ok m2' K2' l2') by assumption. do 2 eexists. split; [reflexivity|]. split; [|exact HA].
  exists (map stepped l2), (map stepped l2'). cbn [set_output n_output with_layer o_l].
  split. { split; [apply Hd|]. cbn. eapply dense_put; [exact Hd|]. apply map_length. }
  split. { split; [apply Hd'|]. cbn. eapply dense_put; [exact Hd'|]. apply map_length. }
  split; [|repeat split; assumption].
  change [stepped (o_l (n_output m2))] with (map stepped [o_l (n_output m2)]). change [stepped (o_l (n_output m2'))] with (map stepped [o_l (n_output m2')]). rewrite <- !map_app, !steps_map.
  apply Rstep; [assumption|now apply gs_fit|now apply gs_fit|assumption].
Qed.
Lemma decay_sim (t : trainer D) n H n' H' n1 H1 : sim n H n' H' -> decay t n H = Ok (n1, H1) ->
  exists n1' H1', decay t n' H' = Ok (n1', H1') /\ sim n1 H1 n1' H1' /\ n_result n1 = n_result n /\ n_result n1' = n_result n'.
Proof.
  intros HS. unfold decay. destruct (_ && _); intros E; [|injection E as <- <-; eauto 8].
  destruct HS as (ls & ls' & Hdn & Hdn' & HR & Q1 & Q2 & Q3 & Q4). match type of E with net_setlrate _ _ ?v = _ => set (r := v) in * end.
  destruct (net_setlrate_dense n H ls r Hdn) as [E1 D1]. destruct (net_setlrate_dense n' H' ls' r Hdn') as [E2 D2]. pose proof (eq_trans (eq_sym E) E1) as Q. injection Q as -> ->.
  do 2 eexists. split; [exact E2|]. split; [|auto]. exists (map (relr r) ls), (map (relr r) ls'). split; [exact D1|]. split; [exact D2|]. split; [|repeat split; assumption].
  pose proof (Rrate r _ _ HR) as X. rewrite !map_app in X. exact X.
Qed.
Lemma cost_sim n H n' H' a a' y y' v : sim n H n' H' -> RA a a' -> RY y y' -> net_computecost n a y = Ok v -> net_computecost n' a' y' = Ok v.
Proof.
  intros (ls & ls' & _ & _ & _ & Q1 & Q2 & _) HA HY. unfold net_computecost. rewrite Q1, Q2. intros E. apply bind_ok in E as (J & E1 & E). injection E as <-.
  destruct (Rcost _ _ _ _ _ HA HY E1) as (J' & -> & EJ). cbn [bind]. now rewrite EJ.
Qed.
Lemma predict_sim n H n' H' x x' m n1 H1 : sim n H n' H' -> RX x x' -> net_predict junk n H x = Ok (m, n1, H1) ->
  exists m' n1' H1', net_predict junk n' H' x' = Ok (m', n1', H1') /\ sim n1 H1 n1' H1' /\ RA (n_result n1) (n_result n1').
Proof.
  intros HS HX HP. unfold net_predict in *. apply bind_ok in HP as ([[a k1] K1] & HF & HP). apply bind_ok in HP as (mm & HA & HP). injection HP as <- <- <-.
  destruct (forward_sim _ _ _ _ _ _ _ _ _ HS HX HF) as (a' & k1' & K1' & HF' & S1 & S2 & R1 & R2 & A1 & A2 & _). rewrite HF'. cbn [bind].
  assert (EA : exists m', argmax (n_output (set_result k1' a')) = Ok m').
  { unfold argmax in *. cbn [set_result n_output] in *. rewrite A1 in HA. rewrite A2. destruct (Anr _ _ S1) as [E1 E2]. rewrite E1, E2. destruct (_ && _)%bool in *; [discriminate|]. eauto. }
  destruct EA as [m' ->]. cbn [bind]. do 3 eexists. split; [reflexivity|]. split; [|exact S1].
  destruct S2 as (ls & ls' & X1 & X2 & X3). exists ls, ls'. exact (conj X1 (conj X2 X3)).
Qed.

(** *** The trainers *)
Lemma plain_sim (t : trainer D) n H n' H' x x' y y' c v t1 n1 H1 : sim n H n' H' -> RX x x' -> RY y y' -> feeddata_cost junk t n H x y c = Ok (v, t1, n1, H1) ->
  exists n1' H1', feeddata_cost junk t n' H' x' y' c = Ok (v, t1, n1', H1') /\ sim n1 H1 n1' H1'.
Proof.
  unfold feeddata_cost, feeddata. intros HS HX HY E. apply bind_ok in E as ([[t0 m3] K3] & E1 & E). apply bind_ok in E1 as ([m2 K2] & E2 & E1). apply bind_ok in E1 as ([m4 K4] & E3 & E1). injection E1 as <- -> ->.
  destruct (decay_sim _ _ _ _ _ _ _ HS E2) as (m2' & K2' & E2' & S2 & _). rewrite E2'. cbn [bind].
  destruct (train_step_sim _ _ _ _ _ _ _ _ _ _ S2 HX HY E3) as (m3' & K3' & E3' & S3 & A3). rewrite E3'. cbn [bind].
  destruct c; [apply bind_ok in E as (w & E4 & E)|]; injection E as <- <- <- <-; [rewrite (cost_sim _ _ _ _ _ _ _ _ _ S3 A3 HY E4)|]; cbn [bind]; eauto.
Qed.
Lemma foldM_sim {A X} (f f' : A * net * lheap -> X -> res (A * net * lheap)) l :
  (forall a n H n' H' x b m K, sim n H n' H' -> f (a, n, H) x = Ok (b, m, K) -> exists m' K', f' (a, n', H') x = Ok (b, m', K') /\ sim m K m' K') ->
  forall a n H n' H' b m K, sim n H n' H' -> foldM f l (a, n, H) = Ok (b, m, K) -> exists m' K', foldM f' l (a, n', H') = Ok (b, m', K') /\ sim m K m' K'.
Proof.
  intros F. induction l as [|x l IH]; intros a n H n' H' b m K HS E; cbn [foldM] in *; [injection E as <- <- <-; eauto|]. apply bind_ok in E as ([[a1 n1] H1] & E1 & E).
  destruct (F _ _ _ _ _ _ _ _ _ HS E1) as (m1' & K1' & -> & S1). cbn [bind]. eauto.
Qed.
Lemma foldM_sim2 {X} (f f' : net * lheap -> X -> res (net * lheap)) l :
  (forall n H n' H' x m K, sim n H n' H' -> f (n, H) x = Ok (m, K) -> exists m' K', f' (n', H') x = Ok (m', K') /\ sim m K m' K') ->
  forall n H n' H' m K, sim n H n' H' -> foldM f l (n, H) = Ok (m, K) -> exists m' K', foldM f' l (n', H') = Ok (m', K') /\ sim m K m' K'.
Proof.
  intros F. induction l as [|x l IH]; intros n H n' H' m K HS E; cbn [foldM] in *; [injection E as <- <-; eauto|]. apply bind_ok in E as ([n1 H1] & E1 & E).
  destruct (F _ _ _ _ _ _ _ HS E1) as (m1' & K1' & -> & S1). cbn [bind]. eauto.
Qed.
Lemma sgd_rows_sim x x' y y' rows n H n' H' m K : RX x x' -> RY y y' -> sim n H n' H' -> sgd_rows junk n H x y rows = Ok (m, K) ->
  exists m' K', sgd_rows junk n' H' x' y' rows = Ok (m', K') /\ sim m K m' K'.
Proof.
  intros HX HY HS E. unfold sgd_rows in *. eapply foldM_sim2; [|exact HS|exact E]. cbn beta iota. clear -HX HY Rkept Rfwd Rback Rstep Xrow Yrow.
  intros m K m' K' i mm KK HS' EE. apply sgd_row_inv in EE as (xi & yi & X & Y & EE). destruct (Xrow _ _ _ _ HX X) as (xi' & X' & RXi). destruct (Yrow _ _ _ _ HY Y) as (yi' & Y' & RYi).
  destruct (train_step_sim _ _ _ _ _ _ _ _ _ _ HS' RXi RYi EE) as (q & Q & ES & SS & _). rewrite (sgd_row_step _ _ _ _ _ _ xi' yi') by assumption. eauto.
Qed.
Lemma sgd_sim (t : trainer D) n H n' H' x x' y y' c v t1 n1 H1 : sim n H n' H' -> RX x x' -> RY y y' -> sgd_feeddata_cost junk t n H x y c = Ok (v, t1, n1, H1) ->
  exists n1' H1', sgd_feeddata_cost junk t n' H' x' y' c = Ok (v, t1, n1', H1') /\ sim n1 H1 n1' H1'.
Proof.
  unfold sgd_feeddata_cost, sgd_feeddata. intros HS HX HY E. apply bind_ok in E as ([[t0 m3] K3] & E1 & E). apply bind_ok in E1 as ([m2 K2] & E2 & E1). apply bind_ok in E1 as ([m4 K4] & E3 & E1). injection E1 as <- -> ->.
  apply bind_ok in E as ([[cc n4] H4] & E4 & E). injection E as <- <- <- <-. rewrite (Xnr _ _ HX).
  destruct (decay_sim _ _ _ _ _ _ _ HS E2) as (m2' & K2' & E2' & S2 & _). rewrite E2'. cbn [bind].
  destruct (sgd_rows_sim _ _ _ _ _ _ _ _ _ _ _ HX HY S2 E3) as (m3' & K3' & E3' & S3). rewrite E3'. cbn [bind].
  assert (X : exists m4' K4', foldM (fun '(c0, n, H) i => if c : bool then xi <- mrow x' i ;; '(_, n1, H1) <- net_predict junk n H xi ;; yi <- mrow y' i ;; ci <- net_computecost n1 (n_result n1) yi ;; Ok (dadd c0 ci, n1, H1) else Ok (c0, n, H)) (seq 0 (nr x)) (dofZ 0, m3', K3') = Ok (cc, m4', K4') /\ sim n4 H4 m4' K4').
  { eapply foldM_sim; [|exact S3|exact E4]. cbn beta iota. clear - HX HY Rkept Rfwd Rback Rcost Xrow Yrow Anr. intros a m K m' K' i b mm KK HS' EE. destruct c; [|injection EE as <- <- <-; eauto]. apply bind_ok in EE as (xi & X & EE). apply bind_ok in EE as ([[r q] Q] & EP & EE).
    apply bind_ok in EE as (yi & Y & EE). apply bind_ok in EE as (ci & EC & EE). injection EE as <- <- <-. destruct (Xrow _ _ _ _ HX X) as (xi' & -> & RXi). destruct (Yrow _ _ _ _ HY Y) as (yi' & Y' & RYi). cbn [bind].
    destruct (predict_sim _ _ _ _ _ _ _ _ _ HS' RXi EP) as (r' & q' & Q' & -> & SS & AA). cbn [bind]. rewrite Y'. cbn [bind]. rewrite (cost_sim _ _ _ _ _ _ _ _ _ SS AA RYi EC). cbn [bind]. eauto. }
  destruct X as (m4' & K4' & -> & S4). cbn [bind]. eauto.
Qed.

(** BatchTrainer: as long as there is a batch, the last answers of the two networks are related as well. *)
Lemma batch_loop_sim b tx tx' ty ty' : RX tx tx' -> RY ty ty' -> forall starts (t : trainer D) n H n' H' t1 m K, sim n H n' H' -> batch_loop junk b tx ty starts t n H = Ok (t1, m, K) ->
  exists m' K', batch_loop junk b tx' ty' starts t n' H' = Ok (t1, m', K') /\ sim m K m' K' /\ (starts = [] \/ RA (n_result m) (n_result m')) /\ (starts = [] -> m = n /\ m' = n').
Proof.
  intros HX HY. unfold batch_loop. induction starts as [|i starts IH]; intros t n H n' H' t1 m K HS E; cbn [foldM] in *.
  - injection E as <- <- <-. exists n', H'. repeat split; auto.
  - apply bind_ok in E as ([[ta na] Ha] & EE & E). apply bind_ok in EE as (xb & XB & EE). apply bind_ok in EE as ([[r m1] K1] & EP & EE).
    apply bind_ok in EE as (yb & YB & EE). apply bind_ok in EE as ([m2 K2] & EB & EE). apply bind_ok in EE as ([m3 K3] & EU & EE). injection EE as <- -> ->.
    destruct (Xrows _ _ _ _ _ HX XB) as (xb' & XB' & RXb). destruct (Yrows _ _ _ _ _ HY YB) as (yb' & YB' & RYb).
    assert (ES : train_step junk n H xb yb = Ok (na, Ha)) by (unfold train_step; rewrite EP; cbn [bind]; rewrite EB; exact EU).
    destruct (train_step_sim _ _ _ _ _ _ _ _ _ _ HS RXb RYb ES) as (q & Q & ES' & SS & AA). unfold train_step in ES'. apply bind_ok in ES' as ([[r' m1'] K1'] & EP' & ES'). apply bind_ok in ES' as ([m2' K2'] & EB' & EU').
    rewrite XB'. cbn [bind]. rewrite EP'. cbn [bind]. rewrite YB'. cbn [bind]. rewrite EB'. cbn [bind]. rewrite EU'. cbn [bind].
    destruct (IH _ _ _ _ _ _ _ _ SS E) as (m' & K' & E' & S' & A' & Z). exists m', K'. split; [exact E'|]. split; [exact S'|]. split; [|discriminate]. right. destruct A' as [->|A']; [|exact A'].
    destruct (Z eq_refl) as [-> ->]. exact AA.
Qed.
Lemma batch_sim t bx by_ bx' by_' b n H n' H' x x' y y' c v t1 n1 H1 : sim n H n' H' -> RX x x' -> RY y y' -> batch_feeddata_cost junk (BT t bx by_ b) n H x y c = Ok (v, t1, n1, H1) ->
  bt_size t1 = b /\ exists n1' H1', batch_feeddata_cost junk (BT t bx' by_' b) n' H' x' y' c = Ok (v, BT (bt_t t1) x' y' (bt_size t1), n1', H1') /\ sim n1 H1 n1' H1'.
Proof.
  unfold batch_feeddata_cost, batch_feeddata. cbn [bt_size bt_t]. intros HS HX HY E. apply bind_ok in E as ([[ta na] Ha] & E1 & E). apply bind_ok in E as (cc & EC & E). injection E as <- <- <- <-.
  apply bind_ok in E1 as (tx & TX & E1). apply bind_ok in E1 as (ty & TY & E1). apply bind_ok in E1 as ([[t2 n2] H2] & E2 & E1). apply bind_ok in E1 as ([n3 H3] & E3 & E1). injection E1 as <- <- <-. cbn [bt_t bt_size]. split; [reflexivity|].
  destruct (Xwrap _ _ _ _ HX TX) as (tx' & -> & RTX). destruct (Ywrap _ _ _ _ HY TY) as (ty' & TY' & RTY). cbn [bind]. rewrite TY'. cbn [bind]. rewrite (Xnr _ _ HX).
  destruct (batch_loop_sim b _ _ _ _ RTX RTY _ _ _ _ _ _ _ _ _ HS E2) as (m2' & K2' & -> & S2 & A2 & _). cbn [bind]. destruct (decay_sim _ _ _ _ _ _ _ S2 E3) as (m3' & K3' & E3' & S3 & R1 & R2). rewrite E3'. cbn [bind].
  assert (X : foldM (fun c0 _ => if c : bool then ci <- net_computecost m3' (n_result m3') y' ;; Ok (dadd c0 ci) else Ok c0) (steps (Z.of_nat (nr x)) b) (dofZ 0) = Ok cc).
  { destruct (steps (Z.of_nat (nr x)) b) as [|s0 st] eqn:ST; [exact EC|]. destruct A2 as [A2|A2]; [discriminate|]. rewrite <- R1, <- R2 in A2. clear ST. revert EC. generalize (s0 :: st) (dofZ 0 : D).
    intros l. induction l as [|z l IH]; intros acc EC; cbn [foldM] in *; [exact EC|]. destruct c; [|cbn [bind] in *; now apply IH]. apply bind_ok in EC as (acc1 & E4 & EC). apply bind_ok in E4 as (ci & E4 & E5). injection E5 as <-.
    pose proof (IH _ EC) as X. pose proof (cost_sim _ _ _ _ _ _ _ _ _ S3 A2 HY E4) as E6. rewrite E6 in X |- *. cbn [bind] in X |- *. exact X. }
  rewrite X. cbn [bind]. eauto.
Qed.

(** MomentumTrainer: what a call computes once its passes are known. *)
Definition accs (m : mtrainer D) : list mat := mt_hgrads m ++ [mt_ograd m].
Lemma mom_eq (t : mtrainer D) n H x y n0 H0 a n1 H1 n2 H2 l2 : decay (tick (mt_t t)) n H = Ok (n0, H0) -> net_forward junk n0 H0 x = Ok (a, n1, H1) -> net_backprop junk n1 H1 y = Ok (n2, H2) ->
  dense_net n2 H2 l2 -> Forall gsized (l2 ++ [o_l (n_output n2)]) -> Forall2 gfit l2 (mt_hgrads t) -> gfit (o_l (n_output n2)) (mt_ograd t) ->
  let og := mixed (mt_mom t) (dsub (dofZ 1) (mt_mom t)) (mt_ograd t) (l_grad (o_l (n_output n2))) in
  let hg := map (fun al => mixed (mom_u (mt_mom t) (t_iters (mt_t t) + 1)) (mom_v (mt_mom t) (t_iters (mt_t t) + 1)) (fst al) (l_grad (snd al))) (combine (mt_hgrads t) l2) in
  gfit (o_l (n_output n2)) og /\ Forall2 gfit l2 hg /\
  momentum_feeddata junk t n H x y = Ok (MT (tick (mt_t t)) (mt_mom t) og hg, set_output n2 (with_layer (n_output n2) (stepped_with (o_l (n_output n2)) og)),
     put_layers (n_hidden n2) (map (fun lg => stepped_with (fst lg) (snd lg)) (combine l2 hg)) H2).
Proof.
  intros ED EF EB Hd GS HA [O1 O2]. cbv zeta. apply Forall_app in GS as [GS G0]. inversion G0 as [|? ? [G1 G2] _]; subst.
  assert (Lh : Forall2 (fun (acc : mat) (l : layer) => nr acc = nr (l_grad l) /\ nc acc = nc (l_grad l)) (mt_hgrads t) l2).
  { clear -HA GS. induction HA as [|l g ls gs [A B] HA IH]; inversion GS as [|? ? [X Y] GS']; subst; constructor; auto. split; congruence. }
  assert (Go : gfit (o_l (n_output n2)) (mixed (mt_mom t) (dsub (dofZ 1) (mt_mom t)) (mt_ograd t) (l_grad (o_l (n_output n2))))) by (split; cbn; assumption).
  set (it := (t_iters (mt_t t) + 1)%Z). set (hg := map _ (combine (mt_hgrads t) l2)).
  assert (Gh : Forall2 gfit l2 hg).
  { subst hg. clear -HA. induction HA as [|l g ls gs [A B] HA IH]; cbn; constructor; auto. split; cbn; assumption. }
  split; [exact Go|]. split; [exact Gh|].
  unfold momentum_feeddata. rewrite ED. cbn [bind]. rewrite EF. cbn [bind]. rewrite EB. cbn [bind]. unfold net_getoutput, output_copy. cbn [o_l]. rewrite layer_copy_id.
  rewrite madd_scal_ok by congruence. cbn [bind]. rewrite (mom_list n2 H2 l2 (proj2 Hd) _ _ (mt_hgrads t) (Forall2_len _ _ _ Lh) Lh). cbn [bind tick t_iters].
  fold it. fold hg. fold (mixed (mt_mom t) (dsub (dofZ 1) (mt_mom t)) (mt_ograd t) (l_grad (o_l (n_output n2)))).
  rewrite (net_update_with_ok n2 H2 l2) by assumption. reflexivity.
Qed.
Definition msim (n : net) (H : lheap) (t : mtrainer D) (n' : net) (H' : lheap) (t' : mtrainer D) : Prop :=
  mt_t t' = mt_t t /\ mt_mom t' = mt_mom t /\ mom_fits n H t /\ mom_fits n' H' t' /\ grs (accs t) (accs t').
Lemma fit_conf (ls ls' : list layer) : Forall2 (fun l l' => l_W l' = l_W l) ls ls' -> forall gs, Forall2 gfit ls gs -> Forall2 gfit ls' gs.
Proof. induction 1 as [|l l' ls ls' E F IH]; intros gs G; inversion G as [|? ? ? ? [A B] G']; subst; constructor; auto. unfold gfit. rewrite E. split; assumption. Qed.
Lemma decay_ws (t : trainer D) n H n0 H0 ls ls0 : dense_net n H ls -> dense_net n0 H0 ls0 -> decay t n H = Ok (n0, H0) -> Forall2 (fun l l' => l_W l' = l_W l) ls ls0 /\ l_W (o_l (n_output n0)) = l_W (o_l (n_output n)).
Proof.
  intros Hd Hd0 E. destruct (decay_only_rates t n H ls Hd) as (n0' & H0' & ls0' & D1 & D2 & D3 & _ & D5 & _). pose proof (eq_trans (eq_sym E) D1) as Q. injection Q as -> ->.
  assert (ls0' = ls0) by (symmetry; eapply hl_inj; [apply hidden_layers_dense, Hd0|exact D2]). subst ls0'. split.
  - clear -D3. induction D3 as [|l l' ? ? Eo D3 IH]; constructor; auto. unfold only_rates in Eo. rewrite Eo. reflexivity.
  - unfold only_rates in D5. rewrite D5. reflexivity.
Qed.
Lemma pass_ws n H ls x y a n1 H1 n2 H2 l2 : dense_net n H ls -> net_forward junk n H x = Ok (a, n1, H1) -> net_backprop junk n1 H1 y = Ok (n2, H2) -> dense_net n2 H2 l2 ->
  Forall2 (fun l l' => l_W l' = l_W l) ls l2 /\ l_W (o_l (n_output n2)) = l_W (o_l (n_output n)).
Proof.
  intros Hd HF HB Hd2. destruct (pass_dense junk n H ls x y _ _ _ n2 H2 Hd HF HB) as (b & l1 & delta & l20 & dx & P1 & P2 & P3 & P4 & P5 & P6 & P7 & P8 & P9 & P10 & _).
  assert (l20 = l2) by (symmetry; eapply hl_inj; [apply hidden_layers_dense, Hd2|exact P9]). subst l20. split; [|rewrite P10; reflexivity].
  pose proof (passes_form _ _ _ _ P1 _ _ _ P7) as Z. clear -Z. induction Z as [|l l' ? ? (_ & A & _) Z IH]; constructor; auto.
Qed.
Lemma F2trans_ws : forall a b c : list layer, Forall2 (fun l l' => l_W l' = l_W l) a b -> Forall2 (fun l l' => l_W l' = l_W l) b c -> Forall2 (fun l l' => l_W l' = l_W l) a c.
Proof. intros a b c F. revert c. induction F; intros c' F'; inversion F'; subst; constructor; auto; congruence. Qed.
Lemma grs_mix u v uo vo hs hs' os os' (l2 l2' : list layer) o o' :
  Forall2 gfit l2 hs -> Forall2 gfit l2' hs' -> gfit o os -> gfit o' os' -> Forall gsized (l2 ++ [o]) -> Forall gsized (l2' ++ [o']) ->
  grs (hs ++ [os]) (hs' ++ [os']) -> grs (map (fun l => l_grad l) (l2 ++ [o])) (map (fun l => l_grad l) (l2' ++ [o'])) ->
  grs (map (fun al => mixed u v (fst al) (l_grad (snd al))) (combine hs l2) ++ [mixed uo vo os (l_grad o)])
      (map (fun al => mixed u v (fst al) (l_grad (snd al))) (combine hs' l2') ++ [mixed uo vo os' (l_grad o')]).
Proof.
  intros F F' [Fo1 Fo2] [Fo1' Fo2'] S S' [L1 A] [L2 B]. rewrite !app_length in L1. cbn in L1. pose proof (Forall2_len _ _ _ F) as LF. pose proof (Forall2_len _ _ _ F') as LF'.
  apply Forall_app in S as [S So]. apply Forall_app in S' as [S' So']. inversion So as [|? ? [So1 So2] _]; subst. inversion So' as [|? ? [So1' So2'] _]; subst.
  split. { rewrite !app_length, !map_length, !combine_length. cbn. lia. }
  intros i g g' E E'. destruct (Nat.lt_ge_cases i (length hs)) as [Li|Li].
  - rewrite nth_error_app1 in E by (rewrite map_length, combine_length; lia). rewrite nth_error_app1 in E' by (rewrite map_length, combine_length; lia).
    rewrite nth_error_map in E, E'. destruct (nth_error (combine hs l2) i) as [[ac l]|] eqn:Ec; [|discriminate]. destruct (nth_error (combine hs' l2') i) as [[ac' l']|] eqn:Ec'; [|discriminate]. cbn in E, E'. injection E as <-. injection E' as <-.
    apply nth_combine in Ec as [Ec1 Ec2]. apply nth_combine in Ec' as [Ec1' Ec2'].
    destruct (Forall2_nth _ _ _ F _ _ _ Ec2 Ec1) as [X1 X2]. destruct (Forall2_nth _ _ _ F' _ _ _ Ec2' Ec1') as [X1' X2'].
    rewrite Forall_forall in S, S'. destruct (S _ (nth_error_In _ _ Ec2)) as [Y1 Y2]. destruct (S' _ (nth_error_In _ _ Ec2')) as [Y1' Y2'].
    apply Gmix; try congruence.
    + apply A; rewrite nth_error_app1; try assumption; lia.
    + apply B; rewrite nth_error_map, nth_error_app1 by lia; [now rewrite Ec2|now rewrite Ec2'].
  - assert (i = length hs). { assert (X : i < length (map (fun al => mixed u v (fst al) (l_grad (snd al))) (combine hs l2) ++ [mixed uo vo os (l_grad o)])) by (apply nth_error_Some; congruence). rewrite app_length, map_length, combine_length in X. cbn in X. lia. }
    subst i. rewrite nth_error_app2 in E by (rewrite map_length, combine_length; lia). rewrite nth_error_app2 in E' by (rewrite map_length, combine_length; lia). rewrite map_length, combine_length in E, E'.
    replace (length hs - _) with 0 in E by lia. replace (length hs - _) with 0 in E' by lia. cbn in E, E'. injection E as <-. injection E' as <-.
    apply Gmix; try congruence.
    + apply (A (length hs)); rewrite nth_error_app2 by lia; [now rewrite Nat.sub_diag|now replace (length hs - length hs') with 0 by lia].
    + apply (B (length hs)); rewrite nth_error_map, nth_error_app2 by lia; [now replace (length hs - length l2) with 0 by lia|now replace (length hs - length l2') with 0 by lia].
Qed.
Lemma mom_sim (t t' : mtrainer D) n H n' H' x x' y y' c v t1 n1 H1 : sim n H n' H' -> msim n H t n' H' t' -> RX x x' -> RY y y' -> momentum_feeddata_cost junk t n H x y c = Ok (v, t1, n1, H1) ->
  exists t1' n1' H1', momentum_feeddata_cost junk t' n' H' x' y' c = Ok (v, t1', n1', H1') /\ sim n1 H1 n1' H1' /\ msim n1 H1 t1 n1' H1' t1'.
Proof.
  intros HS (T1 & T2 & MF & MF' & HG) HX HY E. unfold momentum_feeddata_cost in *. apply bind_ok in E as ([[t2 n2] H2] & E1 & E).
  pose proof E1 as E0. unfold momentum_feeddata in E0. apply bind_ok in E0 as ([n0 H0] & ED & E0). apply bind_ok in E0 as ([[a m1] K1] & EF & E0). apply bind_ok in E0 as ([m2 K2] & EB & _).
  destruct (decay_sim _ _ _ _ _ _ _ HS ED) as (n0' & H0' & ED' & S0 & _ & _). rewrite <- T1 in ED'.
  destruct (forward_sim _ _ _ _ _ _ _ _ _ S0 HX EF) as (a' & m1' & K1' & EF' & HA & _ & _ & _ & _ & _ & G).
  destruct (G _ _ _ _ HY EB) as (m2' & K2' & EB' & R2 & R2' & C2 & C2' & CD & CD' & l2 & l2' & Hd & Hd' & HR & GS & GS' & HG2).
  destruct MF as (ls & L1 & L2 & L3). destruct MF' as (ls' & L1' & L2' & L3'). destruct HS as (lx & lx' & Hn & Hn' & _). pose proof (hl_inj _ _ _ _ L1 Hn). pose proof (hl_inj _ _ _ _ L1' Hn'). subst lx lx'.
  destruct S0 as (l0 & l0' & Hn0 & Hn0' & _).
  destruct (decay_ws _ _ _ _ _ _ _ Hn Hn0 ED) as [W1 W2]. destruct (decay_ws _ _ _ _ _ _ _ Hn' Hn0' ED') as [W1' W2'].
  destruct (pass_ws _ _ _ _ _ _ _ _ _ _ _ Hn0 EF EB Hd) as [W3 W4]. destruct (pass_ws _ _ _ _ _ _ _ _ _ _ _ Hn0' EF' EB' Hd') as [W3' W4'].
  assert (F1 : Forall2 gfit l2 (mt_hgrads t)) by (exact (fit_conf _ _ (F2trans_ws _ _ _ W1 W3) _ L2)). assert (F1' : Forall2 gfit l2' (mt_hgrads t')) by (exact (fit_conf _ _ (F2trans_ws _ _ _ W1' W3') _ L2')).
  assert (F2 : gfit (o_l (n_output m2)) (mt_ograd t)) by (unfold gfit; rewrite W4, W2; exact L3). assert (F2' : gfit (o_l (n_output m2')) (mt_ograd t')) by (unfold gfit; rewrite W4', W2'; exact L3').
  destruct (mom_eq t n H x y n0 H0 a m1 K1 m2 K2 l2 ED EF EB Hd GS F1 F2) as (Q1 & Q2 & Q3). destruct (mom_eq t' n' H' x' y' n0' H0' a' m1' K1' m2' K2' l2' ED' EF' EB' Hd' GS' F1' F2') as (Q1' & Q2' & Q3').
  rewrite Q3 in E1. injection E1 as <- <- <-. rewrite Q3'. cbn [bind].
  set (og := mixed (mt_mom t) _ (mt_ograd t) _) in *. set (og' := mixed (mt_mom t') _ (mt_ograd t') _) in *. set (hg := map _ (combine (mt_hgrads t) l2)) in *. set (hg' := map _ (combine (mt_hgrads t') l2')) in *.
  assert (HG' : grs (hg ++ [og]) (hg' ++ [og'])). { subst hg hg' og og'. rewrite T1, T2. apply grs_mix; assumption. }
  set (k2 := map (fun lg => stepped_with (fst lg) (snd lg)) (combine l2 hg)) in *. set (k2' := map (fun lg => stepped_with (fst lg) (snd lg)) (combine l2' hg')) in *.
  assert (Lk : length k2 = length l2) by (subst k2; rewrite map_length, combine_length, <- (Forall2_len _ _ _ Q2); lia). assert (Lk' : length k2' = length l2') by (subst k2'; rewrite map_length, combine_length, <- (Forall2_len _ _ _ Q2'); lia).
  set (n3 := set_output m2 _) in *. set (n3' := set_output m2' _) in *.
  assert (D3 : dense_net n3 (put_layers (n_hidden m2) k2 K2) k2) by (split; [apply Hd|eapply (dense_put m2 K2 l2); [exact Hd|exact Lk]]).
  assert (D3' : dense_net n3' (put_layers (n_hidden m2') k2' K2') k2') by (split; [apply Hd'|eapply (dense_put m2' K2' l2'); [exact Hd'|exact Lk']]).
  assert (app_steps : forall (ls : list layer) gs o g, Forall2 gfit ls gs -> steps_with (ls ++ [o]) (gs ++ [g]) = map (fun lg => stepped_with (fst lg) (snd lg)) (combine ls gs) ++ [stepped_with o g]).
  { clear. intros ls gs o g F. unfold steps_with. induction F; cbn; [reflexivity|]. f_equal. assumption. }
  assert (S3 : sim n3 (put_layers (n_hidden m2) k2 K2) n3' (put_layers (n_hidden m2') k2' K2')).
  { exists k2, k2'. split; [exact D3|]. split; [exact D3'|]. split; [|repeat split; assumption]. subst n3 n3' k2 k2'. cbn [set_output n_output with_layer o_l].
    rewrite <- !app_steps by assumption. apply Rstep; try assumption; apply Forall2_app; try assumption; constructor; auto. }
  assert (fit_after : forall ls gs gs', Forall2 gfit ls gs -> Forall2 gfit ls gs' -> Forall2 like (map (fun lg : layer * mat => stepped_with (fst lg) (snd lg)) (combine ls gs)) gs').
  { clear. intros ls gs gs' F. revert gs'. induction F as [|l g ls gs [A B] F IH]; intros gs' F'; inversion F' as [|? g' ? ? [A' B'] F'']; subst; cbn; constructor; auto. split; assumption. }
  assert (MS : msim n3 (put_layers (n_hidden m2) k2 K2) (MT (tick (mt_t t)) (mt_mom t) og hg) n3' (put_layers (n_hidden m2') k2' K2') (MT (tick (mt_t t')) (mt_mom t') og' hg')).
  { split; [cbn; now rewrite T1|]. split; [exact T2|]. split; [|split; [|exact HG']].
    - exists k2. split; [apply hidden_layers_dense, D3|]. split; [now apply fit_after|]. exact Q1.
    - exists k2'. split; [apply hidden_layers_dense, D3'|]. split; [now apply fit_after|]. exact Q1'. }
  assert (RR : RA (n_result n3) (n_result n3')) by (subst n3 n3'; cbn; rewrite R2, R2'; exact HA).
  destruct c; [apply bind_ok in E as (w & E4 & E)|]; injection E as <- <- <- <-; [rewrite (cost_sim _ _ _ _ _ _ _ _ _ S3 RR HY E4)|]; cbn [bind]; do 3 eexists; (split; [reflexivity|]); split; assumption.
Qed.

(** Any training call of any trainer. *)
Definition ksim (n : net) (H : lheap) (kd : tkind D) (n' : net) (H' : lheap) (kd' : tkind D) : Prop :=
  match kd, kd' with
  | KPlain t, KPlain t' => t' = t
  | KSgd t, KSgd t' => t' = t
  | KBatch t _ _ ob, KBatch t' _ _ ob' => t' = t /\ ob' = ob
  | KMom m, KMom m' => msim n H m n' H' m'
  | _, _ => False
  end.
Lemma feed_sim kd n H kd' n' H' x x' y y' c v kd1 n1 H1 : sim n H n' H' -> ksim n H kd n' H' kd' -> RX x x' -> RY y y' -> feed_on junk kd n H x y c = Ok (v, kd1, n1, H1) ->
  exists kd1' n1' H1', feed_on junk kd' n' H' x' y' c = Ok (v, kd1', n1', H1') /\ sim n1 H1 n1' H1' /\ ksim n1 H1 kd1 n1' H1' kd1'.
Proof.
  intros HS HK HX HY E. destruct kd as [t|t|t bx by_ ob|m], kd' as [t'|t'|t' bx' by_' ob'|m']; cbn [ksim] in HK; try contradiction; cbn [feed_on] in *.
  - subst t'. apply bind_ok in E as ([[[v1 t1] n2] H2] & E1 & E). injection E as <- <- <- <-. destruct (plain_sim _ _ _ _ _ _ _ _ _ _ _ _ _ _ HS HX HY E1) as (n1' & H1' & -> & S). cbn [bind]. do 3 eexists. split; [reflexivity|]. split; [assumption|reflexivity].
  - subst t'. apply bind_ok in E as ([[[v1 t1] n2] H2] & E1 & E). injection E as <- <- <- <-. destruct (sgd_sim _ _ _ _ _ _ _ _ _ _ _ _ _ _ HS HX HY E1) as (n1' & H1' & -> & S). cbn [bind]. do 3 eexists. split; [reflexivity|]. split; [assumption|reflexivity].
  - destruct HK as [-> ->]. apply bind_ok in E as (b & EB & E). apply bind_ok in E as ([[[v1 t1] n2] H2] & E1 & E). injection E as <- <- <- <-. rewrite EB. cbn [bind].
    destruct (batch_sim _ _ _ bx' by_' _ _ _ _ _ _ _ _ _ _ _ _ _ _ HS HX HY E1) as (Z & n1' & H1' & -> & S). cbn [bind bt_t bt_x bt_y bt_size]. do 3 eexists. split; [reflexivity|]. split; [assumption|]. cbn. auto.
  - apply bind_ok in E as ([[[v1 t1] n2] H2] & E1 & E). injection E as <- <- <- <-. destruct (mom_sim _ _ _ _ _ _ _ _ _ _ _ _ _ _ _ HS HK HX HY E1) as (t1' & n1' & H1' & -> & S & M). cbn [bind]. do 3 eexists. split; [reflexivity|]. split; [assumption|exact M].
Qed.
(** Trainers just made in the same way for the two networks. *)
Lemma new_sim cs n H n' H' kd kd' : sim n H n' H' -> (forall ls ls' o o', RC (ls ++ [o]) (ls' ++ [o']) -> grs (map (fun l => zero_like (l_W l)) (ls ++ [o])) (map (fun l => zero_like (l_W l)) (ls' ++ [o']))) ->
  new_bound cs n H = Ok kd -> new_bound cs n' H' = Ok kd' -> ksim n H kd n' H' kd'.
Proof.
  intros (ls & ls' & Hd & Hd' & HR & _) HZ E E'. destruct cs as [d|d|b d|mu d]; cbn [new_bound] in *; [| | |apply bind_ok in E as (m & E1 & E); apply bind_ok in E' as (m' & E1' & E')]; injection E as <-; injection E' as <-; cbn [ksim]; auto.
  pose proof (dense_net_hidden _ _ _ Hd) as DH. pose proof (dense_net_hidden _ _ _ Hd') as DH'. destruct (momentum_new_shape _ _ _ _ _ DH E1) as (A & B & k & K1 & F & O). destruct (momentum_new_shape _ _ _ _ _ DH' E1') as (A' & B' & k' & K1' & F' & O').
  pose proof (hl_inj _ _ _ _ K1 Hd). pose proof (hl_inj _ _ _ _ K1' Hd'). subst k k'. split; [congruence|]. split; [congruence|].
  assert (Z : forall l : list layer, Forall2 like l (map (fun l => zero_like (l_W l)) l)) by (induction l; cbn; constructor; auto; split; reflexivity).
  split; [|split].
  - exists ls. split; [assumption|]. rewrite F, O. split; [apply Z|split; reflexivity].
  - exists ls'. split; [assumption|]. rewrite F', O'. split; [apply Z|split; reflexivity].
  - unfold accs. rewrite F, O, F', O'. specialize (HZ _ _ _ _ HR). rewrite !map_app in HZ. exact HZ.
Qed.
End RelP.

(** InvR.v - the invariant lifting of InvP.v for invariants that also speak of the learning rates and of the gradients
    together with their layers; for the trainers without momentum. *)
From Verif Require Import Base Mat Act Layer Conv Misc Net NetP Trainer TrainP TrainP2 P_Train P_Decay P_Batch P_Sgd P_Mom FunEq ConfEq World Session SessP InvP.
From Coq Require Import Arith List ZArith Lia.
Import ListNotations.
Local Open Scope nat_scope.

Section InvR.
Context {D : dtype} (junk : nat -> D).
Notation mat := (mat D).
Notation net := (net D).
Notation lheap := (lheap D).
Notation layer := (layer D).

Context (P : list layer -> Prop) (G : nat -> layer -> Prop) (Dok : mat -> mat -> Prop) (cd : costdfun (D := D)) (okr : D -> Prop).
Definition keptr (l l' : layer) : Prop := kept l l' /\ (l_lrate l' = l_lrate l \/ okr (l_lrate l')).
Context (Drow : forall x y i xi yi, Dok x y -> mrow x i = Ok xi -> mrow y i = Ok yi -> Dok xi yi).
Context (Dbatch : forall x y b tx ty i j xb yb, Dok x y -> wrap_rows x b = Ok tx -> wrap_rows y b = Ok ty -> mrows tx i j = Ok xb -> mrows ty i j = Ok yb -> Dok xb yb).
Context (Pkept : forall c c', P c -> Forall2 keptr c c' -> P c').
Context (Ppass : forall ls (o : layer) x y b ls1 delta dx ls2, P (ls ++ [o]) -> Dok x y ->
  lforward ls x = Ok (b, ls1) -> cd y (fwd_out o b) (l_z (fwd_layer o b)) = Ok delta -> fwd_ok (l_W o) b -> nr delta = nr b -> nc delta = nc (l_W o) ->
  lbackprop ls1 (down (fwd_layer o b) delta) = Ok (dx, ls2) ->
  forall i l, nth_error (ls2 ++ [back_layer (fwd_layer o b) delta]) i = Some l -> G i l).
Context (Pstep : forall c, P c -> Forall gsized c -> (forall i l, nth_error c i = Some l -> G i l) -> P (map stepped c)).

Definition invr (n : net) (H : lheap) : Prop := o_costd (n_output n) = cd /\ exists ls, dense_net n H ls /\ P (ls ++ [o_l (n_output n)]).
(** The rate a decay of this trainer would set is admissible. *)
Definition trok (t : trainer D) : Prop := t_usedecay t = true -> okr (dmul (t_r0 t) (dexp (dmul (dneg (t_k t)) (dofZ (t_step t))))).

Lemma keptr_same l l' : kept l l' -> l_lrate l' = l_lrate l -> keptr l l'. Proof. intros A B. split; auto. Qed.
Lemma decay_invr (t : trainer D) n H n' H' : trok t -> invr n H -> decay t n H = Ok (n', H') -> invr n' H'.
Proof.
  intros HT (HC & ls & Hd & HP) E. unfold decay in E. destruct (t_usedecay t && (t_iters t =? t_step t)%Z) eqn:C; [|injection E as <- <-; split; eauto].
  apply andb_prop in C as [C1 C2]. apply Z.eqb_eq in C2. specialize (HT C1). rewrite C2 in E. destruct (net_setlrate_dense n H ls (dmul (t_r0 t) (dexp (dmul (dneg (t_k t)) (dofZ (t_step t))))) Hd) as [E1 E2]. rewrite E1 in E. injection E as <- <-.
  split; [exact HC|]. eexists. split; [exact E2|]. eapply Pkept; [exact HP|]. apply Forall2_app.
  - clear -HT. induction ls; cbn; constructor; auto. split; [repeat split; reflexivity|]. right. exact HT.
  - constructor; [|constructor]. split; [repeat split; reflexivity|]. right. exact HT.
Qed.
Lemma forward_invr n H x a n' H' : invr n H -> net_forward junk n H x = Ok (a, n', H') -> invr n' H'.
Proof.
  intros (HC & ls & Hd & HP) E. rewrite (net_forward_dense junk n H ls x Hd) in E. apply bind_ok in E as ([b ls1] & E1 & E). apply bind_ok in E as ([r o'] & E2 & E). injection E as _ <- <-.
  apply out_forward_inv in E2 as (_ & _ & ->). split; [exact HC|]. exists ls1. split; [split; [exact (proj1 Hd)|eapply (dense_put n H ls); [exact Hd|eapply lforward_len; eauto]]|]. cbn [set_result set_output set_input n_output o_l].
  eapply Pkept; [exact HP|]. apply Forall2_app; [|constructor; [split; [repeat split; reflexivity|now left]|constructor]]. pose proof (lforward_W _ _ _ _ E1) as W. clear -W. induction W as [|l l' ls ls1 (A & B & C & E) W IH]; constructor; auto. split; [repeat split; assumption|now left].
Qed.
Lemma predict_invr n H x a n' H' : invr n H -> net_predict junk n H x = Ok (a, n', H') -> invr n' H'.
Proof.
  intros HI E. unfold net_predict in E. apply bind_ok in E as ([[r n1] H1] & E1 & E). apply bind_ok in E as (m & _ & E). injection E as _ <- <-.
  destruct (forward_invr _ _ _ _ _ _ HI E1) as (C & ls & A & B). split; [exact C|]. exists ls. split; [exact A|exact B].
Qed.
Lemma step_invr n H x y n' H' : invr n H -> Dok x y -> train_step junk n H x y = Ok (n', H') -> invr n' H'.
Proof.
  intros (HC & ls & Hd & HP) HQ E. pose proof (step_keep _ _ _ _ _ _ _ E) as (_ & _ & (_ & KC) & _). unfold train_step in E. apply bind_ok in E as ([[a n1] H1] & HF & E). apply bind_ok in E as ([n2 H2] & HB & HU).
  destruct (pass_dense junk n H ls x y a n1 H1 n2 H2 Hd HF HB) as (b & ls1 & delta & ls2 & dx & P1 & P2 & P3 & P4 & P5 & P6 & P7 & P8 & P9 & P10 & P11 & P12 & P13).
  destruct (net_update_dense n2 H2 ls2 n' H' P9 HU) as (G1 & G2 & -> & ->).
  assert (Hd' : dense_at (put_layers (n_hidden n2) (map stepped ls2) H2) (n_hidden n2) (map stepped ls2)). { eapply dense_put; [exact P9|]. apply map_length. }
  split; [now rewrite KC|]. exists (map stepped ls2). split; [split; [apply P9|exact Hd']|]. cbn [set_output n_output with_layer o_l].
  set (c2 := ls2 ++ [o_l (n_output n2)]). assert (HP2 : P c2).
  { eapply Pkept; [exact HP|]. subst c2. apply Forall2_app; [|constructor; [rewrite P10; split; [repeat split; reflexivity|now left]|constructor]].
    pose proof (passes_form _ _ _ _ P1 _ _ _ P7) as Z. clear -Z. induction Z as [|l l' ? ? (_ & A & B & C & E) Z IH]; constructor; auto. split; [repeat split; assumption|now left]. }
  change [stepped (o_l (n_output n2))] with (map stepped [o_l (n_output n2)]). rewrite <- map_app. fold c2. apply Pstep; [exact HP2| |].
  - subst c2. apply Forall_app. split; [assumption|constructor; [assumption|constructor]].
  - intros i l El. subst c2. rewrite P10 in El. rewrite P3, HC in P4. exact (Ppass ls _ x y b ls1 delta dx ls2 HP HQ P1 P4 P2 P5 P6 P7 i l El).
Qed.

Lemma foldM_R {A X} (f : A * net * lheap -> X -> res (A * net * lheap)) l :
  (forall a n H x b m K, invr n H -> f (a, n, H) x = Ok (b, m, K) -> invr m K) -> forall a n H b m K, invr n H -> foldM f l (a, n, H) = Ok (b, m, K) -> invr m K.
Proof.
  intros F. induction l as [|x l IH]; intros a n H b m K HI E; cbn [foldM] in E; [injection E as _ <- <-; assumption|]. apply bind_ok in E as ([[a1 n1] H1] & E1 & E). eauto.
Qed.
Lemma foldM_R2 {X} (f : net * lheap -> X -> res (net * lheap)) l :
  (forall n H x m K, invr n H -> f (n, H) x = Ok (m, K) -> invr m K) -> forall n H m K, invr n H -> foldM f l (n, H) = Ok (m, K) -> invr m K.
Proof.
  intros F. induction l as [|x l IH]; intros n H m K HI E; cbn [foldM] in E; [injection E as <- <-; assumption|]. apply bind_ok in E as ([n1 H1] & E1 & E). eauto.
Qed.
Lemma trok_tick t : trok t -> trok (tick t). Proof. intros H. exact H. Qed.

Lemma plain_invr (t : trainer D) n H x y c v t' n' H' : trok t -> invr n H -> Dok x y -> feeddata_cost junk t n H x y c = Ok (v, t', n', H') -> invr n' H' /\ trok t'.
Proof.
  unfold feeddata_cost, feeddata. intros HT HI HQ E. apply bind_ok in E as ([[t1 n1] H1] & E1 & E). apply bind_ok in E1 as ([n2 H2] & E2 & E1). apply bind_ok in E1 as ([n3 H3] & E3 & E1). injection E1 as <- <- <-.
  assert (t' = tick t /\ n' = n3 /\ H' = H3) as (-> & -> & ->) by (destruct c; [apply bind_ok in E as (? & _ & E)|]; injection E as _ <- <- <-; auto). split; [|exact HT]. eapply step_invr; [|exact HQ|exact E3]. apply (decay_invr (tick t) n H n2 H2 HT HI E2).
Qed.
Lemma sgd_invr (t : trainer D) n H x y c v t' n' H' : trok t -> invr n H -> Dok x y -> sgd_feeddata_cost junk t n H x y c = Ok (v, t', n', H') -> invr n' H' /\ trok t'.
Proof.
  unfold sgd_feeddata_cost, sgd_feeddata, sgd_rows. intros HT HI HQ E. apply bind_ok in E as ([[t1 n1] H1] & E1 & E). apply bind_ok in E1 as ([n2 H2] & E2 & E1). apply bind_ok in E1 as ([n3 H3] & E3 & E1). injection E1 as <- <- <-.
  apply bind_ok in E as ([[cc n4] H4] & E4 & E). injection E as _ <- <- <-. split; [|exact HT]. apply (decay_invr (tick t) n H n2 H2 HT HI) in E2.
  apply foldM_R2 in E3; [|intros m K i m' K' HI' EE; apply sgd_row_inv in EE as (xi & yi & X & Y & EE); eapply step_invr; [exact HI'|eapply Drow; eauto|exact EE]|exact E2].
  eapply foldM_R; [|exact E3|exact E4]. cbn beta iota. intros a m K i b m' K' HI' EE. destruct c; [|injection EE as _ <- <-; assumption]. apply bind_ok in EE as (xi & _ & EE). apply bind_ok in EE as ([[r m1] K1] & EP & EE).
  apply bind_ok in EE as (yi & _ & EE). apply bind_ok in EE as (ci & _ & EE). injection EE as _ <- <-. eapply predict_invr; eauto.
Qed.
Lemma batch_invr (t : btrainer D) n H x y c v t' n' H' : trok (bt_t t) -> invr n H -> Dok x y -> batch_feeddata_cost junk t n H x y c = Ok (v, t', n', H') -> invr n' H' /\ trok (bt_t t').
Proof.
  unfold batch_feeddata_cost, batch_feeddata, batch_loop. intros HT HI HQ E. apply bind_ok in E as ([[t1 n1] H1] & E1 & E). apply bind_ok in E as (cc & _ & E). injection E as _ <- <- <-.
  apply bind_ok in E1 as (tx & TX & E1). apply bind_ok in E1 as (ty & TY & E1). apply bind_ok in E1 as ([[t2 n2] H2] & E2 & E1). apply bind_ok in E1 as ([n3 H3] & E3 & E1). injection E1 as <- <- <-.
  assert (X : invr n2 H2 /\ trok t2).
  { cut (invr n2 H2 /\ (trok t2)); [auto|]. revert E2. match goal with |- foldM ?f ?l _ = _ -> _ => generalize l end. intros l E2. 
    match type of E2 with foldM ?f _ (?s, _, _) = _ => assert (HS : trok s) by exact HT; revert E2 HS HI; generalize s, n, H end. induction l as [|i l IH]; intros s m K E2 HS HI0; cbn [foldM] in E2; [injection E2 as <- <- <-; auto|].
    apply bind_ok in E2 as ([[s1 m0] K0] & EE & E2). apply (IH _ _ _ E2); clear E2 IH.
    - apply bind_ok in EE as (xb & XB & EE). apply bind_ok in EE as ([[r m1] K1] & EP & EE).
      apply bind_ok in EE as (yb & YB & EE). apply bind_ok in EE as ([m2 K2] & EB & EE). apply bind_ok in EE as ([m3 K3] & EU & EE). injection EE as <- <- <-. exact HS.
    - apply bind_ok in EE as (xb & XB & EE). apply bind_ok in EE as ([[r m1] K1] & EP & EE).
      apply bind_ok in EE as (yb & YB & EE). apply bind_ok in EE as ([m2 K2] & EB & EE). apply bind_ok in EE as ([m3 K3] & EU & EE). injection EE as <- <- <-.
      eapply (step_invr m K xb yb); [exact HI0|eapply (Dbatch x y); [exact HQ|exact TX|exact TY|exact XB|exact YB]|]. unfold train_step. rewrite EP. cbn [bind]. rewrite EB. cbn [bind]. exact EU. }
  destruct X as [X1 X2]. split; [|exact X2]. eapply decay_invr; [|exact X1|exact E3]. exact X2.
Qed.
Definition tokr (kd : tkind D) : Prop := match kd with KPlain t | KSgd t | KBatch t _ _ _ => trok t | KMom _ => False end.
Lemma feed_invr kd n H x y c v kd' n' H' : tokr kd -> invr n H -> Dok x y -> feed_on junk kd n H x y c = Ok (v, kd', n', H') -> invr n' H' /\ tokr kd'.
Proof.
  intros HT HI HQ. destruct kd as [t|t|t bx by_ ob|m]; cbn [feed_on tokr] in *; intros E; [| |apply bind_ok in E as (b & _ & E)|destruct HT]; apply bind_ok in E as ([[[v1 t1] n1] H1] & E1 & E); injection E as _ <- <- <-; cbn [tokr].
  - eapply plain_invr; eauto.
  - eapply sgd_invr; eauto.
  - eapply batch_invr in E1; eauto.
Qed.
Lemma feeds_invr (data : list (mat * mat * bool)) : forall kd n H kd' n' H', tokr kd -> invr n H -> Forall (fun d => Dok (fst (fst d)) (snd (fst d))) data ->
  foldM (fun '(kd, n, H) d => '(_, kd', n', H') <- feed_on junk kd n H (fst (fst d)) (snd (fst d)) (snd d) ;; Ok (kd', n', H')) data (kd, n, H) = Ok (kd', n', H') -> invr n' H' /\ tokr kd'.
Proof.
  induction data as [|[[x y] c] data IH]; intros kd n H kd' n' H' HT HI HQ E; cbn [foldM fst snd] in E; [injection E as <- <- <-; auto|].
  inversion HQ as [|? ? Q1 Q2]; subst. apply bind_ok in E as ([[k1 n1] H1] & E1 & E). apply bind_ok in E1 as ([[[v k2] n2] H2] & E1 & E2). injection E2 as <- <- <-.
  destruct (feed_invr _ _ _ _ _ _ _ _ _ _ HT HI Q1 E1) as [A B]. eauto.
Qed.
End InvR.

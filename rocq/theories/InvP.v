(** InvP.v - lifting an invariant of the weights of a dense network from single steps to every training call of every
    trainer class. *)
From Verif Require Import Base Mat Act Layer Conv Misc Net NetP Trainer TrainP TrainP2 P_Train P_Decay P_Batch P_Sgd P_Mom FunEq ConfEq World Session SessP.
From Coq Require Import Arith List ZArith Lia.
Import ListNotations.
Local Open Scope nat_scope.

Section InvP.
Context {D : dtype} (draw : D -> nat -> D) (junk : nat -> D).
Notation mat := (mat D).
Notation net := (net D).
Notation lheap := (lheap D).
Notation layer := (layer D).

(** Same weights, activation and regularisation (rates and recorded values may differ). *)
Definition kept (l l' : layer) : Prop := l_W l' = l_W l /\ l_act l' = l_act l /\ l_lambda l' = l_lambda l.
(** Row r of a matrix as a list. *)
Definition row_list (x : mat) (r : nat) : list D := map (at_ x r) (seq 0 (nc x)).
Definition rows_in (Q : list D -> Prop) (x : mat) : Prop := forall r, r < nr x -> Q (row_list x r).
Definition chain (n : net) (H : lheap) (c : list layer) : Prop :=
  exists ls, dense_net n H ls /\ c = ls ++ [o_l (n_output n)].
Definition steps_with (c : list layer) (gs : list mat) : list layer := map (fun lg => stepped_with (fst lg) (snd lg)) (combine c gs).

(** One forward and backward pass through a chain of layers, layer by layer: [xs i] is what layer i receives, [dl i] its delta. *)
Lemma pass_nth : forall (ls : list layer) x b ls1 d dx ls2, lforward ls x = Ok (b, ls1) -> lbackprop ls1 d = Ok (dx, ls2) ->
  exists xs ds : nat -> mat, xs 0 = x /\ xs (length ls) = b /\ ds (length ls) = d /\
  forall k l, nth_error ls k = Some l -> let l1 := fwd_layer l (xs k) in
    fwd_ok (l_W l) (xs k) /\ xs (S k) = fwd_out l (xs k) /\ back_ok l1 (ds (S k)) /\
    nth_error ls2 k = Some (back_layer l1 (back_delta l1 (ds (S k)))) /\ ds k = down l1 (back_delta l1 (ds (S k))).
Proof.
  induction ls as [|l ls IH]; intros x b ls1 d dx ls2 HF HB; cbn [lforward] in HF.
  - injection HF as <- <-. exists (fun _ => x), (fun _ => d). repeat (split; [reflexivity|]). intros [|k] l; discriminate.
  - apply bind_ok in HF as ([a l1] & HF1 & HF). apply bind_ok in HF as ([c r1] & HF2 & HF). injection HF as <- <-.
    apply forward_inv in HF1 as (F & -> & ->). cbn [lbackprop] in HB. apply bind_ok in HB as ([e r2] & HB1 & HB). apply bind_ok in HB as ([f l2] & HB2 & HB). injection HB as <- <-.
    apply backprop_inv in HB2 as (B & -> & ->).
    destruct (IH _ _ _ _ _ _ HF2 HB1) as (xs & ds & X0 & X1 & X2 & X3).
    assert (E0 : ds 0 = e). { destruct ls as [|m ls]; [cbn in HF2, HB1, X2; injection HF2 as _ <-; cbn in HB1; injection HB1 as <- _; exact X2|]. destruct (X3 0 m eq_refl) as (Y1 & Y2 & Y3 & Y4 & Y5). rewrite Y5.
      cbn [lforward] in HF2. apply bind_ok in HF2 as ([a2 l2] & G1 & HF2). apply bind_ok in HF2 as ([c2 r3] & G2 & HF2). injection HF2 as _ <-. cbn [lbackprop] in HB1. apply bind_ok in HB1 as ([e2 r4] & G3 & HB1). apply bind_ok in HB1 as ([f2 l3] & G4 & HB1).
      injection HB1 as <- <-. apply forward_inv in G1 as (_ & _ & ->). apply backprop_inv in G4 as (_ & -> & ->). cbn [nth_error] in Y4. apply (f_equal (fun o => match o with Some l => l_delta l | None => d end)) in Y4. cbn [back_layer l_delta] in Y4. rewrite <- Y4, X0. reflexivity. }
    exists (fun k => match k with 0 => x | S k => xs k end), (fun k => match k with 0 => down (fwd_layer l x) (back_delta (fwd_layer l x) e) | S k => ds k end). cbn [length].
    split; [reflexivity|]. split; [exact X1|]. split; [exact X2|]. intros [|k] m K; cbn [nth_error] in K.
    + injection K as <-. cbn beta iota zeta. rewrite E0, X0. repeat (split; [first [assumption|reflexivity]|]). reflexivity.
    + exact (X3 k m K).
Qed.
Lemma chain_pass (ls : list layer) (o : layer) x b ls1 delta dx ls2 :
  lforward ls x = Ok (b, ls1) -> fwd_ok (l_W o) b -> nr delta = nr b -> nc delta = nc (l_W o) ->
  lbackprop ls1 (down (fwd_layer o b) delta) = Ok (dx, ls2) ->
  exists xs dl : nat -> mat, xs 0 = x /\ dl (length ls) = delta /\
  forall i l, nth_error (ls ++ [o]) i = Some l -> let l1 := fwd_layer l (xs i) in
    fwd_ok (l_W l) (xs i) /\ xs (S i) = fwd_out l (xs i) /\ nr (dl i) = nr (xs i) /\ nc (dl i) = nc (l_W l) /\
    nth_error (ls2 ++ [back_layer (fwd_layer o b) delta]) i = Some (back_layer l1 (dl i)) /\
    forall l', nth_error (ls ++ [o]) (S i) = Some l' -> nc (l_W l) + 1 = nr (l_W l') /\ dl i = back_delta l1 (down (fwd_layer l' (xs (S i))) (dl (S i))).
Proof.
  intros HF HO D1 D2 HB. destruct (pass_nth _ _ _ _ _ _ _ HF HB) as (xs & ds & X0 & X1 & X2 & X3).
  assert (L1 : length ls2 = length ls). { rewrite (lbackprop_len _ _ _ _ HB). eapply lforward_len; eauto. }
  set (N := length ls) in *.
  exists (fun i => if i <=? N then xs i else fwd_out o (xs N)), (fun i => if i <? N then match nth_error ls i with Some l => back_delta (fwd_layer l (xs i)) (ds (S i)) | None => delta end else delta).
  split; [exact X0|]. split; [rewrite Nat.ltb_irrefl; reflexivity|]. intros i l K. cbn zeta.
  destruct (Nat.lt_ge_cases i N) as [Hi|Hi].
  - rewrite nth_error_app1 in K by assumption. destruct (X3 i l K) as (Y1 & Y2 & Y3 & Y4 & Y5). destruct (Nat.leb_spec i N); [|lia]. destruct (Nat.leb_spec (S i) N); [|lia]. destruct (Nat.ltb_spec i N); [|lia]. rewrite K.
    destruct Y3 as (B1 & B2 & B3 & B4 & B5 & B6). cbn [fwd_layer l_z l_pa l_W nr nc mk] in B1, B2, B3, B4, B5, B6.
    split; [exact Y1|]. split; [exact Y2|]. split; [cbn; lia|]. split; [cbn; lia|]. split; [rewrite nth_error_app1 by lia; exact Y4|].
    intros l' K'. destruct (Nat.ltb_spec (S i) N) as [Hs|Hs].
    + rewrite nth_error_app1 in K' by assumption. destruct (X3 (S i) l' K') as (Z1 & Z2 & Z3 & Z4 & Z5). rewrite K'. split; [destruct Z1 as (_ & _ & Z1); rewrite Y2 in Z1; cbn in Z1; exact Z1|]. now rewrite Z5.
    + assert (S i = N) by lia. rewrite nth_error_app2 in K' by lia. replace (S i - length ls) with 0 in K' by lia. injection K' as <-.
      split; [destruct HO as (_ & _ & HO); rewrite <- X1, <- H2, Y2 in HO; cbn in HO; exact HO|]. rewrite H2, X2, <- X1. reflexivity.
  - rewrite nth_error_app2 in K by assumption. destruct (i - length ls) as [|j] eqn:Ej; [|destruct j; discriminate]. injection K as <-. assert (i = N) by lia. subst i.
    rewrite Nat.leb_refl, Nat.ltb_irrefl. destruct (Nat.leb_spec (S N) N); [lia|]. rewrite X1. split; [assumption|]. split; [reflexivity|]. split; [assumption|]. split; [assumption|].
    split; [rewrite nth_error_app2 by lia; replace (N - length ls2) with 0 by lia; reflexivity|].
    intros l' K'. rewrite nth_error_app2 in K' by lia. replace (S N - length ls) with 1 in K' by lia. discriminate.
Qed.

(** Rows of parts of a data set. *)
Lemma mrow_in Q x i xi : rows_in Q x -> mrow x i = Ok xi -> rows_in Q xi.
Proof.
  unfold mrow. intros HQ E. destruct (Nat.ltb_spec i (nr x)) as [Hi|]; [|discriminate]. injection E as <-. intros r Hr. cbn [nr mk] in Hr. replace (row_list _ r) with (row_list x i); [now apply HQ|].
  unfold row_list. cbn [nc mk]. apply map_ext_in. intros j Hj. apply in_seq in Hj. symmetry. rewrite at_mk by lia. reflexivity.
Qed.
Lemma mrows_in Q x a b xi : rows_in Q x -> mrows x a b = Ok xi -> rows_in Q xi.
Proof.
  unfold mrows. intros HQ E. destruct ((0 <=? a)%Z && (a <=? b)%Z && (b <? Z.of_nat (nr x))%Z) eqn:C; [|discriminate]. injection E as <-.
  apply andb_prop in C as [C C3]. apply andb_prop in C as [C1 C2]. apply Z.leb_le in C1, C2. apply Z.ltb_lt in C3. intros r Hr. cbn [nr mk] in Hr.
  replace (row_list _ r) with (row_list x (Z.to_nat a + r)); [apply HQ; lia|]. unfold row_list. cbn [nc mk]. apply map_ext_in. intros j Hj. apply in_seq in Hj. symmetry. rewrite at_mk by lia. reflexivity.
Qed.
Lemma wrap_in Q x b tx : rows_in Q x -> wrap_rows x b = Ok tx -> rows_in Q tx.
Proof.
  intros HQ E. pose proof E as E0. destruct (Z.ltb_spec b 2); [rewrite wrap_throw in E0 by lia; discriminate|]. destruct (Z.ltb_spec (Z.of_nat (nr x) + 1) b); [rewrite wrap_throw in E0 by lia; discriminate|]. clear E0.
  destruct (Nat.eq_dec (nc x) 0) as [C|C].
  - unfold wrap_rows in E. apply bind_ok in E as (s & E & _). unfold submat in E. rewrite C in E. destruct (sub_ok _ _ _ _ _) eqn:S in E; [|discriminate]. unfold sub_ok in S. rewrite C in S.
    repeat (apply andb_prop in S as [S ?]). repeat match goal with X : (_ <=? _)%Z = true |- _ => apply Z.leb_le in X | X : (_ <? _)%Z = true |- _ => apply Z.ltb_lt in X end. lia.
  - replace b with (Z.of_nat (Z.to_nat b)) in E by lia. rewrite wrap_ok in E by lia. injection E as <-. intros r Hr. cbn [nr mk] in Hr.
    replace (row_list _ r) with (row_list x (r mod nr x)); [apply HQ, Nat.mod_upper_bound; lia|]. unfold row_list. cbn [nc mk]. apply map_ext_in. intros j Hj. apply in_seq in Hj. symmetry. rewrite at_mk by lia. reflexivity.
Qed.

(** [P]: the invariant of the layers (hidden ones, then the output layer); [G i]: what the gradient of layer i satisfies;
    [Dok x y]: data a pass may be given; [cd]: the delta function of the output layer. *)
Context (P : list layer -> Prop) (G : nat -> mat -> Prop) (Dok : mat -> mat -> Prop) (cd : costdfun (D := D)).
Context (Drow : forall x y i xi yi, Dok x y -> mrow x i = Ok xi -> mrow y i = Ok yi -> Dok xi yi).
Context (Dbatch : forall x y b tx ty i j xb yb, Dok x y -> wrap_rows x b = Ok tx -> wrap_rows y b = Ok ty -> mrows tx i j = Ok xb -> mrows ty i j = Ok yb -> Dok xb yb).
Context (Pkept : forall c c', P c -> Forall2 kept c c' -> P c').
Context (Ppass : forall ls (o : layer) x y b ls1 delta dx ls2, P (ls ++ [o]) -> Dok x y ->
  lforward ls x = Ok (b, ls1) -> cd y (fwd_out o b) (l_z (fwd_layer o b)) = Ok delta -> fwd_ok (l_W o) b -> nr delta = nr b -> nc delta = nc (l_W o) ->
  lbackprop ls1 (down (fwd_layer o b) delta) = Ok (dx, ls2) ->
  forall i l, nth_error (ls2 ++ [back_layer (fwd_layer o b) delta]) i = Some l -> G i (l_grad l)).
Context (Pstep : forall c gs, P c -> Forall2 gfit c gs -> (forall i g, nth_error gs i = Some g -> G i g) -> P (steps_with c gs)).
Context (Gmix : forall i u v a g, G i a -> G i g -> nr a = nr g -> nc a = nc g -> G i (mixed u v a g)).

Definition inv (n : net) (H : lheap) : Prop := o_costd (n_output n) = cd /\ exists ls, dense_net n H ls /\ P (ls ++ [o_l (n_output n)]).
Definition accs_ok (m : mtrainer D) : Prop := forall i g, nth_error (mt_hgrads m ++ [mt_ograd m]) i = Some g -> G i g.
Definition tok (n : net) (H : lheap) (kd : tkind D) : Prop := match kd with KMom m => mom_fits n H m /\ accs_ok m | _ => True end.

Lemma kept_rates l l' : only_rates l l' -> kept l l'.
Proof. intros E. unfold only_rates in E. rewrite E. repeat split; reflexivity. Qed.
Lemma decay_inv (t : trainer D) n H n' H' : inv n H -> decay t n H = Ok (n', H') -> inv n' H'.
Proof.
  intros (HC & ls & Hd & HP) E. destruct (decay_only_rates t n H ls Hd) as (n0 & H0 & ls0 & D1 & D2 & D3 & D4 & D5 & _). rewrite D1 in E. injection E as <- <-. split; [rewrite <- HC; apply (decay_keep _ _ _ _ _ D1)|].
  exists ls0. split; [assumption|]. eapply Pkept; [exact HP|]. apply Forall2_app; [|constructor; [now apply kept_rates|constructor]].
  clear -D3. induction D3; constructor; auto using kept_rates.
Qed.
Lemma fwd_kept l x : kept l (fwd_layer l x). Proof. repeat split; reflexivity. Qed.
Lemma forward_inv_P n H x a n' H' : inv n H -> net_forward junk n H x = Ok (a, n', H') -> inv n' H'.
Proof.
  intros (HC & ls & Hd & HP) E. rewrite (net_forward_dense junk n H ls x Hd) in E. apply bind_ok in E as ([b ls1] & E1 & E). apply bind_ok in E as ([r o'] & E2 & E). injection E as _ <- <-.
  apply out_forward_inv in E2 as (_ & _ & ->). split; [exact HC|]. exists ls1. split; [split; [exact (proj1 Hd)|eapply (dense_put n H ls); [exact Hd|eapply lforward_len; eauto]]|]. cbn [set_result set_output set_input n_output o_l].
  eapply Pkept; [exact HP|]. apply Forall2_app; [|constructor; [apply fwd_kept|constructor]]. pose proof (lforward_W _ _ _ _ E1) as W. clear -W. induction W as [|l l' ls ls1 (A & B & _ & C) W IH]; constructor; auto. repeat split; assumption.
Qed.
Lemma predict_inv_P n H x a n' H' : inv n H -> net_predict junk n H x = Ok (a, n', H') -> inv n' H'.
Proof.
  intros HI E. unfold net_predict in E. apply bind_ok in E as ([[r n1] H1] & E1 & E). apply bind_ok in E as (m & _ & E). injection E as _ <- <-.
  destruct (forward_inv_P _ _ _ _ _ _ HI E1) as (C & ls & A & B). split; [exact C|]. exists ls. split; [exact A|exact B].
Qed.
Lemma map_combine_self (f : layer -> mat -> layer) (g : layer -> mat) c : map (fun lg => f (fst lg) (snd lg)) (combine c (map g c)) = map (fun l => f l (g l)) c.
Proof. induction c as [|l c IH]; cbn; [reflexivity|]. now rewrite IH. Qed.
Lemma step_inv n H x y n' H' : inv n H -> Dok x y -> train_step junk n H x y = Ok (n', H') -> inv n' H'.
Proof.
  intros (HC & ls & Hd & HP) HQ E. pose proof (step_keep _ _ _ _ _ _ _ E) as (_ & _ & (_ & KC) & _). unfold train_step in E. apply bind_ok in E as ([[a n1] H1] & HF & E). apply bind_ok in E as ([n2 H2] & HB & HU).
  destruct (pass_dense junk n H ls x y a n1 H1 n2 H2 Hd HF HB) as (b & ls1 & delta & ls2 & dx & P1 & P2 & P3 & P4 & P5 & P6 & P7 & P8 & P9 & P10 & P11 & P12 & P13).
  destruct (net_update_dense n2 H2 ls2 n' H' P9 HU) as (G1 & G2 & -> & ->).
  assert (Hd' : dense_at (put_layers (n_hidden n2) (map stepped ls2) H2) (n_hidden n2) (map stepped ls2)). { eapply dense_put; [exact P9|]. apply map_length. }
  split; [now rewrite KC|]. exists (map stepped ls2). split; [split; [apply P9|exact Hd']|]. cbn [set_output n_output with_layer o_l].
  set (c2 := ls2 ++ [o_l (n_output n2)]). assert (HP2 : P c2).
  { eapply Pkept; [exact HP|]. subst c2. apply Forall2_app; [|constructor; [rewrite P10; repeat split; reflexivity|constructor]].
    pose proof (passes_form _ _ _ _ P1 _ _ _ P7) as Z. clear -Z. induction Z as [|l l' ? ? (_ & A & B & _ & C) Z IH]; constructor; auto. repeat split; assumption. }
  assert (EQ : map stepped ls2 ++ [stepped (o_l (n_output n2))] = steps_with c2 (map (fun l => l_grad l) c2)).
  { unfold steps_with. rewrite (map_combine_self stepped_with (fun l => l_grad l)). subst c2. rewrite map_app. reflexivity. }
  rewrite EQ. apply Pstep; [exact HP2| |].
  - assert (GG : Forall gsized c2) by (subst c2; apply Forall_app; split; [assumption|constructor; [assumption|constructor]]). clear -GG. induction GG; cbn; constructor; auto.
  - intros i g K. rewrite nth_error_map in K. destruct (nth_error c2 i) as [l|] eqn:El; [|discriminate]. injection K as <-. subst c2. rewrite P10 in El. rewrite P3, HC in P4; exact (Ppass ls _ x y b ls1 delta dx ls2 HP HQ P1 P4 P2 P5 P6 P7 i l El).
Qed.

Lemma foldM_P {A X} (f : A * net * lheap -> X -> res (A * net * lheap)) l :
  (forall a n H x b m K, inv n H -> f (a, n, H) x = Ok (b, m, K) -> inv m K) -> forall a n H b m K, inv n H -> foldM f l (a, n, H) = Ok (b, m, K) -> inv m K.
Proof.
  intros F. induction l as [|x l IH]; intros a n H b m K HI E; cbn [foldM] in E; [injection E as _ <- <-; assumption|]. apply bind_ok in E as ([[a1 n1] H1] & E1 & E). eauto.
Qed.
Lemma foldM_P2 {X} (f : net * lheap -> X -> res (net * lheap)) l :
  (forall n H x m K, inv n H -> f (n, H) x = Ok (m, K) -> inv m K) -> forall n H m K, inv n H -> foldM f l (n, H) = Ok (m, K) -> inv m K.
Proof.
  intros F. induction l as [|x l IH]; intros n H m K HI E; cbn [foldM] in E; [injection E as <- <-; assumption|]. apply bind_ok in E as ([n1 H1] & E1 & E). eauto.
Qed.

Lemma plain_inv (t : trainer D) n H x y c v t' n' H' : inv n H -> Dok x y -> feeddata_cost junk t n H x y c = Ok (v, t', n', H') -> inv n' H'.
Proof.
  unfold feeddata_cost, feeddata. intros HI HQ E. apply bind_ok in E as ([[t1 n1] H1] & E1 & E). apply bind_ok in E1 as ([n2 H2] & E2 & E1). apply bind_ok in E1 as ([n3 H3] & E3 & E1). injection E1 as _ <- <-.
  assert (n' = n3 /\ H' = H3) as [-> ->] by (destruct c; [apply bind_ok in E as (? & _ & E)|]; injection E as _ _ <- <-; auto). eapply step_inv; [|exact HQ|exact E3]. eapply decay_inv; eauto.
Qed.
Lemma sgd_inv (t : trainer D) n H x y c v t' n' H' : inv n H -> Dok x y -> sgd_feeddata_cost junk t n H x y c = Ok (v, t', n', H') -> inv n' H'.
Proof.
  unfold sgd_feeddata_cost, sgd_feeddata, sgd_rows. intros HI HQ E. apply bind_ok in E as ([[t1 n1] H1] & E1 & E). apply bind_ok in E1 as ([n2 H2] & E2 & E1). apply bind_ok in E1 as ([n3 H3] & E3 & E1). injection E1 as _ <- <-.
  apply bind_ok in E as ([[cc n4] H4] & E4 & E). injection E as _ _ <- <-. apply (decay_inv _ _ _ _ _ HI) in E2.
  apply foldM_P2 in E3; [|intros m K i m' K' HI' EE; apply sgd_row_inv in EE as (xi & yi & X & Y & EE); eapply step_inv; [exact HI'|eapply Drow; eauto|exact EE]|exact E2].
  eapply foldM_P; [|exact E3|exact E4]. cbn beta iota. intros a m K i b m' K' HI' EE. destruct c; [|injection EE as _ <- <-; assumption]. apply bind_ok in EE as (xi & _ & EE). apply bind_ok in EE as ([[r m1] K1] & EP & EE).
  apply bind_ok in EE as (yi & _ & EE). apply bind_ok in EE as (ci & _ & EE). injection EE as _ <- <-. eapply predict_inv_P; eauto.
Qed.
Lemma batch_inv (t : btrainer D) n H x y c v t' n' H' : inv n H -> Dok x y -> batch_feeddata_cost junk t n H x y c = Ok (v, t', n', H') -> inv n' H'.
Proof.
  unfold batch_feeddata_cost, batch_feeddata, batch_loop. intros HI HQ E. apply bind_ok in E as ([[t1 n1] H1] & E1 & E). apply bind_ok in E as (cc & _ & E). injection E as _ _ <- <-.
  apply bind_ok in E1 as (tx & TX & E1). apply bind_ok in E1 as (ty & TY & E1). apply bind_ok in E1 as ([[t2 n2] H2] & E2 & E1). apply bind_ok in E1 as ([n3 H3] & E3 & E1). injection E1 as _ <- <-.
  eapply decay_inv; [|exact E3]. eapply foldM_P; [|exact HI|exact E2]. cbn beta iota. intros a m K i b m' K' HI' EE. apply bind_ok in EE as (xb & XB & EE). apply bind_ok in EE as ([[r m1] K1] & EP & EE).
  apply bind_ok in EE as (yb & YB & EE). apply bind_ok in EE as ([m2 K2] & EB & EE). apply bind_ok in EE as ([m3 K3] & EU & EE). injection EE as _ <- <-.
  eapply (step_inv m K xb yb); [exact HI'|eapply (Dbatch x y); [exact HQ|exact TX|exact TY|exact XB|exact YB]|]. unfold train_step. rewrite EP. cbn [bind]. rewrite EB. cbn [bind]. exact EU.
Qed.
Lemma mom_inv (t : mtrainer D) n H x y c v t' n' H' : inv n H -> Dok x y -> mom_fits n H t -> accs_ok t ->
  momentum_feeddata_cost junk t n H x y c = Ok (v, t', n', H') -> inv n' H' /\ mom_fits n' H' t' /\ accs_ok t'.
Proof.
  intros (HC & ls & Hd & HP) HQ (lsx & L1 & L2 & L3) HA E.
  assert (lsx = ls) by (eapply hl_inj; eauto). subst lsx.
  unfold momentum_feeddata_cost in E. apply bind_ok in E as ([[t1 n1] H1] & E1 & E).
  assert (t' = t1 /\ n' = n1 /\ H' = H1) as (-> & -> & ->) by (destruct c; [apply bind_ok in E as (? & _ & E)|]; injection E as _ <- <- <-; auto). clear E.
  pose proof (mom_keep junk t n H x y false (dofZ 0) t1 n1 H1) as MK. unfold momentum_feeddata_cost in MK. rewrite E1 in MK. specialize (MK eq_refl). destruct MK as (_ & _ & (_ & KC) & _).
  assert (Hdh : dense_hidden n H) by (split; [apply Hd|eapply dense_in; apply Hd]).
  destruct (mom_step junk t n H x y t1 n1 H1 ls Hdh L1 L2 L3 E1) as (n0 & H0 & hg & og & ls0 & ls' & (GD & a & m1 & K1 & m2 & K2 & ls2 & GF & GB & GL & Ghg & Gog) & HL0 & HL' & R1 & R2 & T1 & T2 & T3 & T4 & K3 & K4 & N1 & N2 & M1 & M2 & DH & F1 & F2).
  destruct (decay_only_rates (tick (mt_t t)) n H ls Hd) as (n0' & H0' & ls0' & D1 & D2 & D3 & D4 & D5 & _).
  assert (GD' := GD). rewrite D1 in GD'. injection GD' as -> ->.
  assert (ls0' = ls0) by (symmetry; eapply hl_inj; eauto). subst ls0'.
  assert (HC0 : o_costd (n_output n0) = cd) by (rewrite <- HC; apply (decay_keep _ _ _ _ _ D1)).
  assert (HP0 : P (ls0 ++ [o_l (n_output n0)])).
  { eapply Pkept; [exact HP|]. apply Forall2_app; [|constructor; [now apply kept_rates|constructor]]. clear -D3. induction D3; constructor; auto using kept_rates. }
  destruct (pass_dense junk n0 H0 ls0 x y a m1 K1 m2 K2 D2 GF GB) as (b & ls1 & delta & ls2' & dx & P1 & P2 & P3 & P4 & P5 & P6 & P7 & P8 & P9 & P10 & P11 & P12 & P13).
  assert (ls2' = ls2) by (symmetry; eapply hl_inj; eauto). subst ls2'.
  assert (GG : forall i g, nth_error (hg ++ [og]) i = Some g -> G i g).
  { intros i g Hg. replace (hg ++ [og]) with (map (fun l : layer => l_grad l) (ls2 ++ [o_l (n_output m2)])) in Hg by (rewrite map_app, Ghg, Gog; reflexivity).
    rewrite nth_error_map in Hg. destruct (nth_error (ls2 ++ [o_l (n_output m2)]) i) as [l|] eqn:El; [|discriminate]. injection Hg as <-. rewrite P10 in El. rewrite P3, HC0 in P4; exact (Ppass ls0 _ x y b ls1 delta dx ls2 HP0 HQ P1 P4 P2 P5 P6 P7 i l El). }
  assert (LL : length hg = length (mt_hgrads t)) by (apply Forall2_len in L2; lia).
  assert (HA' : accs_ok t1).
  { intros i g Hg. destruct (Nat.lt_ge_cases i (length (mt_hgrads t1))) as [Li|Li].
    - rewrite nth_error_app1 in Hg by assumption. rewrite T4, nth_error_map in Hg. destruct (nth_error (combine (mt_hgrads t) hg) i) as [[ac gg]|] eqn:Ec; [|discriminate]. cbn in Hg. injection Hg as <-.
      apply nth_combine in Ec as [Ec1 Ec2]. apply Gmix; [apply HA; rewrite nth_error_app1; [assumption|apply nth_error_Some; congruence]|apply GG; rewrite nth_error_app1; [assumption|apply nth_error_Some; congruence]| |];
        (destruct (nth_error ls i) as [l|] eqn:El; [|apply nth_error_None in El; assert (i < length hg) by (apply nth_error_Some; congruence); lia]);
        destruct (Forall2_nth _ _ _ L2 i l ac El Ec1), (Forall2_nth _ _ _ K3 i l gg El Ec2); congruence.
    - rewrite nth_error_app2 in Hg by assumption. assert (EL : length (mt_hgrads t1) = length (mt_hgrads t)) by (rewrite T4, map_length, combine_length; lia).
      destruct (i - length (mt_hgrads t1)) as [|k] eqn:Ek; [|destruct k; discriminate]. cbn in Hg. injection Hg as <-. rewrite T3. destruct L3, K4.
      apply Gmix; [apply HA; rewrite nth_error_app2 by lia; replace (i - length (mt_hgrads t)) with 0 by lia; reflexivity|apply GG; rewrite nth_error_app2 by lia; replace (i - length hg) with 0 by lia; reflexivity|congruence|congruence]. }
  split; [|split; [exists ls'; auto|exact HA']].
  (* the layers after the pass, and the update with the accumulated gradients *)
  assert (HP2 : P (ls2 ++ [o_l (n_output m2)])).
  { eapply Pkept; [exact HP0|]. apply Forall2_app; [|constructor; [rewrite P10; repeat split; reflexivity|constructor]].
    pose proof (passes_form _ _ _ _ P1 _ _ _ P7) as Z. clear -Z. induction Z as [|l l' ? ? (_ & A & B & _ & C) Z IH]; constructor; auto. repeat split; assumption. }
  unfold momentum_feeddata in E1. rewrite D1 in E1. cbn [bind] in E1. rewrite GF in E1. cbn [bind] in E1. rewrite GB in E1. cbn [bind] in E1.
  apply bind_ok in E1 as (og' & E2 & E1). apply bind_ok in E1 as (hg' & E3 & E1). apply bind_ok in E1 as ([n3 H3] & E4 & E1). injection E1 as <- <- <-. cbn [mt_t mt_mom mt_ograd mt_hgrads] in *.
  assert (W0 : Forall2 (fun l l2 : layer => l_W l2 = l_W l) ls ls2).
  { pose proof (passes_form _ _ _ _ P1 _ _ _ P7) as Z. clear -Z D3. revert ls2 Z. induction D3 as [|l l0 ls ls0 Eo D3 IH]; intros ls2 Z; inversion Z as [|u w us vs (_ & A & _) Z']; subst; constructor; auto.
    rewrite A. unfold only_rates in Eo. rewrite Eo. reflexivity. }
  assert (Wo : l_W (o_l (n_output m2)) = l_W (o_l (n_output n))). { rewrite P10. cbn. unfold only_rates in D5. rewrite D5. reflexivity. }
  assert (gh : Forall2 gfit ls2 hg').
  { assert (X : Forall2 gfit ls hg'). { rewrite T4. clear -L2 K3. revert hg K3. induction L2 as [|l g ls gs [A B] L2 IH]; intros hg K3; inversion K3 as [|? ? ? ? [A' B'] K3']; subst; cbn; constructor; auto. split; assumption. }
    clear -X W0. revert ls2 W0. induction X as [|l g ls gs [A B] X IH]; intros ls2 W0; inversion W0 as [|? l0 ? ? E W0']; subst; constructor; auto. unfold gfit. rewrite E. split; assumption. }
  assert (go : gfit (o_l (n_output m2)) og'). { unfold gfit. rewrite T3, Wo. cbn. exact L3. }
  rewrite (net_update_with_ok m2 K2 ls2 og' hg' P9 go gh) in E4. injection E4 as <- <-.
  set (ls3 := map (fun lg => stepped_with (fst lg) (snd lg)) (combine ls2 hg')) in *.
  assert (len3 : length ls3 = length ls2) by (subst ls3; rewrite map_length, combine_length; apply Forall2_len in gh; lia).
  split; [rewrite KC; exact HC|]. exists ls3. split; [split; [apply P9|apply (dense_put m2 K2 ls2); [exact P9|exact len3]]|]. cbn [set_output n_output with_layer o_l].
  replace (ls3 ++ [stepped_with (o_l (n_output m2)) og']) with (steps_with (ls2 ++ [o_l (n_output m2)]) (hg' ++ [og'])).
  - apply Pstep; [exact HP2|apply Forall2_app; [exact gh|constructor; [exact go|constructor]]|exact HA'].
  - unfold steps_with, ls3. clear -gh. induction gh as [|l g ls gs A gh IH]; cbn; [reflexivity|]. f_equal. exact IH.
Qed.

(** Any training call of any trainer. *)
Lemma feed_inv kd n H x y c v kd' n' H' : inv n H -> Dok x y -> tok n H kd -> feed_on junk kd n H x y c = Ok (v, kd', n', H') -> inv n' H' /\ tok n' H' kd'.
Proof.
  intros HI HQ HT. destruct kd as [t|t|t bx by_ ob|m]; cbn [feed_on tok] in *; intros E; [| |apply bind_ok in E as (b & _ & E)|]; apply bind_ok in E as ([[[v1 t1] n1] H1] & E1 & E); injection E as _ <- <- <-; cbn [tok].
  - split; [eapply plain_inv; eauto|exact I].
  - split; [eapply sgd_inv; eauto|exact I].
  - split; [eapply batch_inv; eauto|exact I].
  - destruct HT as [A B]. destruct (mom_inv _ _ _ _ _ _ _ _ _ _ HI HQ A B E1) as (X1 & X2 & X3). auto.
Qed.
Lemma feeds_inv (data : list (mat * mat * bool)) : forall kd n H kd' n' H', inv n H -> Forall (fun d => Dok (fst (fst d)) (snd (fst d))) data -> tok n H kd ->
  foldM (fun '(kd, n, H) d => '(_, kd', n', H') <- feed_on junk kd n H (fst (fst d)) (snd (fst d)) (snd d) ;; Ok (kd', n', H')) data (kd, n, H) = Ok (kd', n', H') ->
  inv n' H' /\ tok n' H' kd'.
Proof.
  induction data as [|[[x y] c] data IH]; intros kd n H kd' n' H' HI HQ HT E; cbn [foldM fst snd] in E; [injection E as <- <- <-; auto|].
  inversion HQ as [|? ? Q1 Q2]; subst. apply bind_ok in E as ([[k1 n1] H1] & E1 & E). apply bind_ok in E1 as ([[[v k2] n2] H2] & E1 & E2). injection E2 as <- <- <-.
  destruct (feed_inv _ _ _ _ _ _ _ _ _ _ HI Q1 HT E1) as [A B]. eauto.
Qed.
(** A trainer just made for the network. *)
Lemma new_tok cs n H kd : dense_hidden n H -> (forall i m, G i (zero_like m)) -> new_bound cs n H = Ok kd -> tok n H kd.
Proof.
  intros Hd GZ E. destruct cs as [d|d|b d|mu d]; cbn [new_bound] in E; [| | |apply bind_ok in E as (m & E1 & E)]; injection E as <-; cbn [tok]; auto.
  destruct (momentum_new_shape _ _ _ _ _ Hd E1) as (A & B & ls & C & F & O). split.
  - exists ls. split; [assumption|]. rewrite F, O. split; [|split; reflexivity]. clear. induction ls; cbn; constructor; auto. split; reflexivity.
  - intros i g K. rewrite F, O in K. change [zero_like (l_W (o_l (n_output n)))] with (map (fun l : layer => zero_like (l_W l)) [o_l (n_output n)]) in K. rewrite <- map_app, nth_error_map in K.
    destruct (nth_error _ i); [|discriminate]. injection K as <-. apply GZ.
Qed.
End InvP.

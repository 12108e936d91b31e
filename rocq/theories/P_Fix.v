(** P_Fix.v - C78: training on data the network already fits exactly changes nothing (exact arithmetic). *)
From Verif Require Import Base Mat Act Layer Conv Misc Net NetP RInst RMat Trainer TrainP TrainP2 ExNet P_Train P_Decay P_Mom FunEq ConfEq World Session SessP Grad P_Descent P_Batch InvP P_Sym.
From Coq Require Import Arith List ZArith Lia Reals Lra.
Import ListNotations.
Local Open Scope nat_scope.

(** ** Specification *)
(** y is the row-wise softmax of a. *)
Definition softmax_of (a y : mat Rdt) : Prop :=
  nr y = nr a /\ nc y = nc a /\ forall i j, i < nr a -> j < nc a -> at_ y i j = (exp (at_ a i j) / sumN (nc a) (fun k => exp (at_ a i k)))%R.
(** The network's output a on a sample set is exactly what its labels y ask for. *)
Definition perfect (n : net Rdt) (a y : mat Rdt) : Prop :=
  ((o_costd (n_output n) = quad_costd \/ o_costd (n_output n) = ce_costd) /\ a = y) \/ (o_costd (n_output n) = sm_costd /\ softmax_of a y).

Section Fix.
Context (junk : nat -> Rdt).
Notation mat := (mat Rdt).
Notation layer := (layer Rdt).
Notation rowl := (row_list (D := Rdt)).

(** What a layer, and a chain of layers, does to one row. *)
Definition rowmap (l : layer) (row : list Rdt) : list Rdt := rowl (fwd_out l (Mat (D := Rdt) 1 (length row) row)) 0.
Definition netrow (c : list layer) (row : list Rdt) : list Rdt := fold_left (fun r l => rowmap l r) c row.

Lemma nth_row (x : mat) r j : j < nc x -> nth j (rowl x r) 0%R = at_ x r j.
Proof. intros Hj. unfold row_list. rewrite (nth_indep _ 0%R (at_ x r 0)) by (rewrite map_length, seq_length; assumption). rewrite (map_nth (at_ x r)). now rewrite seq_nth. Qed.
Lemma len_row (x : mat) r : length (rowl x r) = nc x. Proof. unfold row_list. now rewrite map_length, seq_length. Qed.
Lemma row_fwd (l : layer) (x : mat) r : r < nr x -> rowl (fwd_out l x) r = rowmap l (rowl x r).
Proof.
  intros Hr. unfold rowmap. unfold row_list at 1 2. cbn [fwd_out nc mk]. apply map_ext_in. intros j Hj. apply in_seq in Hj. unfold fwd_out. cbn [nr]. rewrite !at_mk by lia. f_equal.
  rewrite !pre_R by (cbn [nr]; lia). cbn [nc]. rewrite len_row. f_equal. apply sumN_ext. intros k Hk. f_equal. symmetry. unfold at_ at 1. cbn [nr el]. rewrite Nat.mul_1_r, Nat.add_0_r. apply nth_row. exact Hk.
Qed.
Lemma rows_net (ls : list layer) : forall x b ls1, lforward ls x = Ok (b, ls1) -> nr b = nr x /\ forall r, r < nr x -> rowl b r = netrow ls (rowl x r).
Proof.
  induction ls as [|l ls IH]; intros x b ls1 E; cbn [lforward] in E; [injection E as <- _; split; reflexivity|].
  apply bind_ok in E as ([a l1] & E1 & E). apply bind_ok in E as ([c r1] & E2 & E). injection E as <- _. apply forward_inv in E1 as (_ & -> & _). destruct (IH _ _ _ E2) as [A B]. split; [rewrite A; reflexivity|].
  intros r Hr. rewrite B by exact Hr. cbn [netrow fold_left]. now rewrite row_fwd.
Qed.
Lemma rowmap_kept l l' row : kept l l' -> rowmap l' row = rowmap l row.
Proof. intros (A & B & _). unfold rowmap, fwd_out. rewrite A, B. reflexivity. Qed.
Lemma netrow_kept c c' : Forall2 kept c c' -> forall row, netrow c' row = netrow c row.
Proof. induction 1 as [|l l' c c' A F IH]; intros row; [reflexivity|]. cbn [netrow fold_left]. rewrite (rowmap_kept _ _ _ A). apply IH. Qed.

(** The label row a perfect fit needs for an output row. *)
Definition sm_row (a : list Rdt) : list Rdt := map (fun v => (exp v / sumL (map exp a))%R) a.
Context (c0 : list layer) (T : list Rdt -> list Rdt) (cd : costdfun (D := Rdt)).
Context (HT : ((cd = quad_costd \/ cd = ce_costd) /\ T = fun a => a) \/ (cd = sm_costd /\ T = sm_row)).
Context (Z0 : Forall (fun l : layer => l_lambda l = 0%R /\ wf (l_W l)) c0).

Definition Pf (c : list layer) : Prop := Forall2 kept c0 c.
Definition Gf (_ : nat) (g : mat) : Prop := forall i j, i < nr g -> j < nc g -> at_ g i j = 0%R.
Definition Df (x y : mat) : Prop := nr x = nr y /\ forall r, r < nr x -> rowl y r = T (netrow c0 (rowl x r)).

Lemma Df_row x y i xi yi : Df x y -> mrow x i = Ok xi -> mrow y i = Ok yi -> Df xi yi.
Proof.
  unfold mrow. intros [A B] E1 E2. destruct (Nat.ltb_spec i (nr x)) as [Hi|]; [|discriminate]. destruct (Nat.ltb_spec i (nr y)); [|discriminate]. injection E1 as <-. injection E2 as <-. split; [reflexivity|]. cbn [nr mk]. intros r Hr.
  replace (rowl (mk 1 (nc y) _) r) with (rowl y i); [replace (rowl (mk 1 (nc x) _) r) with (rowl x i); [now apply B|]|]; unfold row_list; cbn [nc mk]; apply map_ext_in; intros j Hj; apply in_seq in Hj; symmetry; rewrite at_mk by lia; reflexivity.
Qed.
Lemma Df_rows x y a b xi yi : Df x y -> mrows x a b = Ok xi -> mrows y a b = Ok yi -> Df xi yi.
Proof.
  unfold mrows. intros [A B] E1 E2. rewrite <- A in E2. destruct ((0 <=? a)%Z && (a <=? b)%Z && (b <? Z.of_nat (nr x))%Z) eqn:C; [|discriminate]. injection E1 as <-. injection E2 as <-.
  apply andb_prop in C as [C C3]. apply andb_prop in C as [C1 C2]. apply Z.leb_le in C1, C2. apply Z.ltb_lt in C3. split; [reflexivity|]. cbn [nr mk]. intros r Hr.
  replace (rowl (mk _ (nc y) _) r) with (rowl y (Z.to_nat a + r)); [replace (rowl (mk _ (nc x) _) r) with (rowl x (Z.to_nat a + r)); [apply B; lia|]|]; unfold row_list; cbn [nc mk]; apply map_ext_in; intros j Hj; apply in_seq in Hj; symmetry; rewrite at_mk by lia; reflexivity.
Qed.
Lemma wrap_shape (x : mat) b tx : wrap_rows x b = Ok tx -> 1 <= nr x /\ nr tx = nr x + (Z.to_nat b - 1) /\ forall r, r < nr tx -> rowl tx r = rowl x (r mod nr x).
Proof.
  intros E. pose proof E as E0. destruct (Z.ltb_spec b 2); [rewrite wrap_throw in E0 by lia; discriminate|]. destruct (Z.ltb_spec (Z.of_nat (nr x) + 1) b); [rewrite wrap_throw in E0 by lia; discriminate|]. clear E0.
  destruct (Nat.eq_dec (nc x) 0) as [C|C].
  - unfold wrap_rows in E. apply bind_ok in E as (s & E & _). unfold submat in E. rewrite C in E. destruct (sub_ok _ _ _ _ _) eqn:S in E; [|discriminate]. unfold sub_ok in S. rewrite C in S.
    repeat (apply andb_prop in S as [S ?]). repeat match goal with X : (_ <=? _)%Z = true |- _ => apply Z.leb_le in X | X : (_ <? _)%Z = true |- _ => apply Z.ltb_lt in X end. lia.
  - replace b with (Z.of_nat (Z.to_nat b)) in E by lia. rewrite wrap_ok in E by lia. injection E as <-. cbn [nr mk]. split; [lia|]. split; [lia|]. intros r Hr.
    unfold row_list. cbn [nc mk]. apply map_ext_in. intros j Hj. apply in_seq in Hj. rewrite at_mk by lia. reflexivity.
Qed.
Lemma Df_batch x y b tx ty i j xb yb : Df x y -> wrap_rows x b = Ok tx -> wrap_rows y b = Ok ty -> mrows tx i j = Ok xb -> mrows ty i j = Ok yb -> Df xb yb.
Proof.
  intros [A B] E1 E2 E3 E4. refine (Df_rows tx ty i j xb yb _ E3 E4). destruct (wrap_shape _ _ _ E1) as (X1 & X2 & X3), (wrap_shape _ _ _ E2) as (Y1 & Y2 & Y3). split; [lia|].
  intros r Hr. rewrite X3 by assumption. rewrite Y3 by lia. rewrite <- A. apply B. apply Nat.mod_upper_bound. lia.
Qed.

Lemma T_len a : length (T a) = length a.
Proof. destruct HT as [[_ ->] | [_ ->]]; [reflexivity|]. apply map_length. Qed.
Lemma delta_zero r c h (y : mat) z delta : cd y (mk (D := Rdt) r c h) z = Ok delta -> nr y = r -> (forall i, i < r -> rowl y i = T (rowl (mk r c h) i)) ->
  forall i j, i < r -> j < c -> at_ delta i j = 0%R.
Proof.
  intros E Hn Hr i j Hi Hj. assert (Hc : nc y = c). { rewrite <- (len_row y i), (Hr i Hi), T_len. apply len_row. }
  specialize (Hr i Hi). destruct HT as [[HC ->] | [HC ->]].
  - assert (X : Ok delta = Ok (mk (D := Rdt) r c (fun i j => (h i j - at_ y i j) / INR r)%R)). { rewrite <- E. destruct HC as [-> | ->]; now apply quad_costd_mk. } injection X as ->. rewrite at_mk by assumption.
    assert (EY : at_ y i j = h i j). { rewrite <- (nth_row y) by lia. rewrite Hr, nth_row by assumption. now apply at_mk. } rewrite EY. unfold Rdiv. rewrite Rminus_eq_0. apply Rmult_0_l.
  - rewrite HC, sm_costd_mk in E by assumption. injection E as <-. rewrite at_mk by assumption.
    assert (EY : at_ y i j = (exp (h i j) * (1 / sumN c (fun k => exp (h i k))))%R).
    { rewrite <- (nth_row y) by lia. rewrite Hr. unfold sm_row. rewrite (nth_indep _ 0%R ((fun v => exp v / sumL (map exp (rowl (mk r c h) i)))%R 0%R)) by (rewrite map_length, len_row; assumption).
      rewrite (map_nth (fun v => (exp v / sumL (map exp (rowl (mk r c h) i)))%R)). rewrite nth_row by assumption. rewrite at_mk by assumption. unfold Rdiv. rewrite Rmult_1_l. do 2 f_equal. unfold row_list. cbn [nc mk]. rewrite map_map. apply (sumN_ext c). intros k Hk. now rewrite at_mk. }
    rewrite EY. unfold Rdiv. rewrite Rminus_eq_0. apply Rmult_0_l.
Qed.
Lemma fix_pass ls (o : layer) x y b ls1 delta dx ls2 : Pf (ls ++ [o]) -> Df x y ->
  lforward ls x = Ok (b, ls1) -> cd y (fwd_out o b) (l_z (fwd_layer o b)) = Ok delta -> fwd_ok (l_W o) b -> nr delta = nr b -> nc delta = nc (l_W o) ->
  lbackprop ls1 (down (fwd_layer o b) delta) = Ok (dx, ls2) ->
  forall i l, nth_error (ls2 ++ [back_layer (fwd_layer o b) delta]) i = Some l -> Gf i (l_grad l).
Proof.
  intros HP [Q1 Q2] HF HC HO E1 E2 HB. destruct (rows_net _ _ _ _ HF) as [R1 R2].
  assert (DZ : Gf 0 delta).
  { intros i j Hi Hj. unfold fwd_out in HC. refine (delta_zero _ _ _ y _ delta HC _ _ i j _ _); try lia. intros r Hr. rewrite Q2 by lia. f_equal.
    rewrite <- (netrow_kept _ _ HP). unfold netrow. rewrite fold_left_app. cbn [fold_left]. fold (netrow ls (rowl x r)). rewrite <- R2 by lia. symmetry. now apply row_fwd. }
  destruct (chain_pass _ _ _ _ _ _ _ _ HF HO E1 E2 HB) as (xs & dl & X0 & XD & X).
  assert (LZ : forall k i, i + k = length ls -> Gf 0 (dl i)).
  { induction k as [|k IH]; intros i Ei; [rewrite Nat.add_0_r in Ei; subst i; now rewrite XD|].
    assert (Li : i < length (ls ++ [o])) by (rewrite app_length; cbn; lia). assert (Ls : S i < length (ls ++ [o])) by (rewrite app_length; cbn; lia).
    destruct (nth_error (ls ++ [o]) i) as [l|] eqn:K1; [|apply nth_error_None in K1; lia]. destruct (nth_error (ls ++ [o]) (S i)) as [l'|] eqn:K2; [|apply nth_error_None in K2; lia].
    destruct (X i l K1) as (_ & _ & A2 & A3 & _ & A5). destruct (A5 l' K2) as [A6 A7]. destruct (X (S i) l' K2) as (B0 & _ & B2 & B3 & _ & _).
    specialize (IH (S i) ltac:(lia)). intros a e Ha He. rewrite A7 in Ha, He |- *. unfold back_delta in *. cbn [nr nc mk] in Ha, He. rewrite at_mk by assumption. unfold down in *. cbn [nr nc mk fwd_layer l_W] in *.
    rewrite !at_mk by (try assumption; lia). rewrite mdot_R. rewrite sumN_zero; [cbn; lra|]. intros r Hr. rewrite IH by (try assumption; lia). cbn. lra. }
  intros i l K. assert (Li : i < length (ls ++ [o])). { pose proof (proj1 (nth_error_Some _ i) ltac:(rewrite K; discriminate)) as X1. rewrite app_length in X1 |- *. rewrite (lbackprop_len _ _ _ _ HB), (lforward_len _ _ _ _ HF) in X1. exact X1. }
  destruct (nth_error (ls ++ [o]) i) as [m|] eqn:K1; [|apply nth_error_None in K1; lia]. destruct (X i m K1) as ((F1 & F2 & F3) & _ & A2 & A3 & A4 & _). rewrite A4 in K. injection K as <-.
  assert (Hm : l_lambda m = 0%R). { destruct (nth_error c0 i) as [m0|] eqn:K0; [|apply nth_error_None in K0; rewrite (Forall2_len _ _ _ HP) in K0; lia]. destruct (Forall2_nth _ _ _ HP i m0 m K0 K1) as (_ & _ & ->). apply nth_error_In in K0. rewrite Forall_forall in Z0. apply Z0, K0. }
  assert (Zi : Gf 0 (dl i)) by (apply (LZ (length ls - i)); rewrite app_length in Li; cbn in Li; lia).
  intros a e Ha He. cbn [back_layer l_grad] in *. unfold grad_of in *. cbn [nr nc mk] in Ha, He. rewrite at_mk by assumption. cbn [fwd_layer l_pa l_lambda l_W nc mk] in *. rewrite Hm. unfold raw_grad. cbn [l_pa nc mk]. rewrite at_mk by assumption. rewrite mdot_R. rewrite sumN_zero; [cbn; lra|].
  cbn [mt nc mk nr]. intros r Hr. cbn [fwd_layer l_pa nr mk] in Hr. rewrite Zi by lia. cbn. lra.
Qed.
Lemma kept_trans (l1 l2 l3 : layer) : kept l1 l2 -> kept l2 l3 -> kept l1 l3.
Proof. intros (A & B & C) (A' & B' & C'). repeat split; congruence. Qed.
Lemma fix_kept c c' : Pf c -> Forall2 kept c c' -> Pf c'.
Proof.
  unfold Pf. generalize c0. clear. intros c1 A. revert c'. induction A as [|l m c1 c A F IH]; intros c' B; inversion B as [|? ? ? ? B1 B2]; subst; constructor; [exact (kept_trans _ _ _ A B1)|exact (IH _ B2)].
Qed.
Lemma fix_step c gs : Pf c -> Forall2 gfit c gs -> (forall i g, nth_error gs i = Some g -> Gf i g) -> Pf (steps_with c gs).
Proof.
  unfold Pf. intros A F HG. assert (HG' : Forall (Gf 0) gs). { apply Forall_forall. intros g Hg. apply In_nth_error in Hg as [i Hi]. exact (HG i g Hi). } clear HG. revert gs F HG'. induction A as [|l m c1 c K A IH]; intros gs F HG; inversion F as [|? g ? gs' [S1 S2] F']; subst; [constructor|].
  inversion HG as [|? ? G1 G2]; subst. inversion Z0 as [|? ? [Y1 Y2] Y3]; subst. unfold steps_with. cbn [combine map fst snd]. constructor; [|apply IH; assumption].
  destruct K as (K1 & K2 & K3). unfold stepped_with. repeat split; cbn [set_W l_W l_act l_lambda]; try assumption. rewrite K1 in *. etransitivity; [|apply mk_at; exact Y2]. apply mk_ext. intros i j Hi Hj. rewrite G1 by lia. cbn. lra.
Qed.
Lemma fix_mix i u v a g : Gf i a -> Gf i g -> nr a = nr g -> nc a = nc g -> Gf i (mixed u v a g).
Proof. intros A B E1 E2 b e Hb He. unfold mixed in *. cbn [nr nc mk] in *. rewrite at_mk by assumption. rewrite A, B by lia. cbn. lra. Qed.
Lemma fix_zero i m : Gf i (zero_like m).
Proof. unfold zero_like, zeros. intros a e Ha He. cbn [nr nc mk] in *. rewrite at_mk by assumption. reflexivity. Qed.
End Fix.

Lemma quad_sm : quad_costd (D := Rdt) = sm_costd -> False.
Proof.
  intros Y. set (m := mk (D := Rdt) 1 1 (fun _ _ => 0%R)). assert (Z : quad_costd m m m = sm_costd m m m) by now rewrite Y. unfold m at 2 5 in Z. rewrite quad_costd_mk, sm_costd_mk in Z by reflexivity.
  apply (f_equal (fun r => match r with Ok v => at_ (D := Rdt) v 0 0 | _ => 0%R end)) in Z. rewrite !at_mk in Z by lia. unfold m in Z. rewrite at_mk in Z by lia. unfold sumN, sumL in Z. cbn [seq map fold_right INR] in Z. rewrite exp_0 in Z. lra.
Qed.

(** ** C78 *)
Theorem C78_fixed : forall (junk : nat -> Rdt) cs (data : list (mat Rdt * mat Rdt * bool)) (n : net Rdt) (H : lheap Rdt) Ws kd kd' n' H',
  dense_hidden n H -> unregularised n H -> weights n H = Ok Ws -> Forall wf Ws ->
  Forall (fun d => exists a n1 H1, net_forward junk n H (fst (fst d)) = Ok (a, n1, H1) /\ perfect n a (snd (fst d))) data ->
  new_bound cs n H = Ok kd -> feeds junk data (kd, n, H) = Ok (kd', n', H') -> weights n' H' = Ok Ws.
Proof.
  intros junk cs data n H Ws kd kd' n' H' Hd [Hu1 Hu2] HW Hwf HA HN HF. destruct (dense_ls n H Hd) as [ls Hn]. pose proof (hidden_layers_dense n H ls (proj2 Hn)) as HL. specialize (Hu2 ls HL).
  unfold weights in HW. rewrite HL in HW. cbn [bind] in HW. injection HW as <-. unfold net_getoutput in *.
  set (c0 := ls ++ [o_l (n_output n)]). set (cd := o_costd (n_output n)).
  destruct data as [|d0 data]; [unfold feeds in HF; cbn in HF; injection HF as _ <- <-; unfold weights; rewrite HL; reflexivity|]. set (data' := d0 :: data) in *.
  assert (HT : exists T, (((cd = quad_costd \/ cd = ce_costd) /\ T = fun a : list Rdt => a) \/ (cd = sm_costd /\ T = sm_row)) /\ (cd = sm_costd -> T = sm_row)).
  { inversion HA as [|? ? (a & n1 & H1 & _ & PF) _]; subst. destruct PF as [[C _] | [C _]]; [|exists sm_row; auto].
    exists (fun a => a). split; [auto|]. intros E. exfalso. fold cd in C. assert (Y : quad_costd (D := Rdt) = sm_costd \/ ce_costd (D := Rdt) = sm_costd) by (destruct C as [C|C]; [left|right]; congruence).
    destruct Y as [Y|Y]; exact (quad_sm Y). }
  destruct HT as (T & HT & HS).
  assert (Z0 : Forall (fun l : layer Rdt => l_lambda l = 0%R /\ wf (l_W l)) c0).
  { subst c0. apply Forall_app in Hwf as [W1 W2]. apply Forall_app. split; [|constructor; [split; [assumption|]; inversion W2; assumption|constructor]].
    rewrite Forall_map in W1. rewrite Forall_forall in *. intros l Hl. split; auto. }
  assert (HI : inv (Pf c0) cd n H). { split; [reflexivity|]. exists ls. split; [assumption|]. unfold Pf. fold c0. clear. induction c0; constructor; auto. repeat split. }
  assert (HQ : Forall (fun d => Df c0 T (fst (fst d)) (snd (fst d))) data').
  { eapply Forall_impl; [|exact HA]. intros d (a & n1 & H1 & EF & PF). rewrite (net_forward_dense junk n H ls _ Hn) in EF. apply bind_ok in EF as ([b ls1] & E1 & EF). apply bind_ok in EF as ([r o'] & E2 & EF). injection EF as -> _ _.
    apply out_forward_inv in E2 as (_ & -> & _). destruct (rows_net _ _ _ _ E1) as [R1 R2].
    assert (RA : forall i, i < nr (fst (fst d)) -> row_list (D := Rdt) (fwd_out (o_l (n_output n)) b) i = netrow c0 (row_list (D := Rdt) (fst (fst d)) i)).
    { intros i Hi. rewrite row_fwd by lia. rewrite R2 by assumption. subst c0. unfold netrow. rewrite fold_left_app. reflexivity. }
    destruct PF as [[C PF] | [C (S1 & S2 & S3)]].
    - assert (ET : T = fun a => a). { destruct HT as [[_ HT] | [HT _]]; [exact HT|]. exfalso. fold cd in C. assert (Y : quad_costd (D := Rdt) = sm_costd \/ ce_costd (D := Rdt) = sm_costd) by (destruct C as [C|C]; [left|right]; congruence).
        destruct Y as [Y|Y]; exact (quad_sm Y). }
      rewrite ET. split; [rewrite <- PF; cbn; lia|]. intros i Hi. rewrite <- PF. now apply RA.
    - rewrite (HS C). split; [rewrite S1; cbn; lia|]. intros i Hi. rewrite <- RA by assumption. unfold sm_row, row_list at 1. rewrite S2. unfold row_list at 2. rewrite map_map. apply map_ext_in. intros j Hj. apply in_seq in Hj.
      rewrite S3 by (cbn in *; lia). do 2 f_equal. unfold row_list. rewrite map_map. reflexivity. }
  assert (X : inv (Pf c0) cd n' H' /\ tok Gf n' H' kd').
  { eapply (feeds_inv junk (Pf c0) Gf (Df c0 T) cd); try exact HF; try exact HI; try exact HQ.
    - intros x y i xi yi. apply Df_row.
    - intros x y b tx ty i j xb yb. apply Df_batch.
    - intros c c'. apply fix_kept.
    - intros *. now apply (fix_pass c0 T cd HT Z0).
    - intros *. now apply (fix_step c0 Z0).
    - intros *. apply fix_mix.
    - eapply new_tok; [exact Hd|apply fix_zero|exact HN]. }
  destruct X as [(_ & ls' & Hn' & HP) _]. unfold weights. rewrite (hidden_layers_dense n' H' ls' (proj2 Hn')). cbn [bind]. unfold net_getoutput. f_equal. unfold Pf in HP. fold c0 in HP.
  change (map (fun l : layer Rdt => l_W l) ls' ++ map (fun l : layer Rdt => l_W l) [o_l (n_output n')] = map (fun l : layer Rdt => l_W l) ls ++ map (fun l : layer Rdt => l_W l) [o_l (n_output n)]).
  rewrite <- !map_app. fold c0.
  clear -HP. induction HP as [|l l' c c' (A & _) F IH]; cbn; [reflexivity|]. now rewrite A, IH.
Qed.

(** With the Kullback-Leibler output a perfect fit is not a fixed point: one call of the plain trainer lowers every
    output bias by the full learning rate. *)
Theorem C78_kl : forall (junk : nat -> Rdt) (t : trainer Rdt) (n : net Rdt) (H : lheap Rdt) x y n1 H1 t' n' H' j,
  dense_hidden n H -> unregularised n H -> o_costd (n_output n) = kl_costd -> t_usedecay t = false ->
  net_forward junk n H x = Ok (y, n1, H1) -> (forall i, i < nr y -> at_ y i j <> 0%R) ->
  j < nc (l_W (o_l (n_output n))) -> feeddata junk t n H x y = Ok (t', n', H') ->
  at_ (l_W (o_l (n_output n'))) 0 j = (at_ (l_W (o_l (n_output n))) 0 j - l_lrate (o_l (n_output n)))%R.
Proof.
  intros junk t n H x y n1 H1 t' n' H' j Hd [Hu _] HC HT HF Hy Hj E. destruct (dense_ls n H Hd) as [ls Hn]. unfold feeddata in E. unfold decay in E. cbn [tick t_usedecay] in E. rewrite HT in E. cbn [andb bind] in E.
  unfold train_step in E. rewrite HF in E. cbn [bind] in E. apply bind_ok in E as ([n2 H2] & HU & E). injection E as _ <- <-. apply bind_ok in HU as ([n3 H3] & HB & HU).
  destruct (pass_dense junk n H ls x y y n1 H1 n3 H3 Hn HF HB) as (b & ls1 & delta & ls2 & dx & P1 & P2 & P3 & P4 & P5 & P6 & P7 & P8 & P9 & P10 & P11).
  destruct (net_update_dense n3 H3 ls2 n2 H2 P9 HU) as (G1 & G2 & -> & ->). cbn [set_output n_output with_layer o_l]. rewrite P10. unfold stepped, stepped_with. cbn [set_W l_W back_layer fwd_layer l_grad l_lrate].
  destruct P2 as (F1 & F2 & F3). rewrite at_mk by lia. unfold grad_of. cbn [fwd_layer l_pa l_lambda l_W nc mk]. rewrite at_mk by lia. rewrite Hu. unfold raw_grad. cbn [fwd_layer l_pa nc mk]. rewrite at_mk by lia. rewrite mdot_R. cbn [mt nr nc mk].
  rewrite HC in P4. rewrite P3 in P4 at 2. unfold fwd_out in P4. rewrite kl_costd_mk in P4 by (rewrite P3; reflexivity). injection P4 as ED.
  assert (S1 : sumN (nr b) (fun k => at_ (mt (mk (D := Rdt) (nr b) (nc b + 1) (with_bias b))) 0 k * at_ delta k j)%R = 1%R).
  { rewrite (sumN_ext _ _ (fun _ => (1 / INR (nr b))%R)).
    - rewrite sumN_const. field. apply not_0_INR. lia.
    - intros k Hk. rewrite <- ED. rewrite at_mk by assumption. unfold mt. cbn [nr nc mk]. rewrite !at_mk by lia. cbn [with_bias]. specialize (Hy k ltac:(rewrite P3; exact Hk)).
      assert (EY : at_ y k j = act (l_act (o_l (n_output n))) (NetP.pre (l_W (o_l (n_output n))) b k j)) by (rewrite P3; unfold fwd_out; now rewrite at_mk). rewrite <- EY. cbn. field. split; [apply not_0_INR; lia|exact Hy]. }
  cbn [fwd_layer l_pa]. cbn [nr mk]. match goal with |- context [sumN ?a ?f] => change (sumN a f) with (sumN (nr b) f) end. rewrite S1. cbn. lra.
Qed.

(** ** The hypotheses can be met *)
(** The network of P_Mom: input -> two identity units -> 1 + 2 h1 - 3 h2, quadratic output. On the samples 1 and 2 it
    gives 1 + 2 (1 + 2 x) - 3 (1 - x), i.e. 7 and 14. *)
Definition fixy : mat Rdt := rm 2 1 [7; 14]%R.
Example C78_example (junk : nat -> Rdt) : exists n1 H1, net_forward junk exrn exrH exrx = Ok (fixy, n1, H1) /\ perfect exrn fixy fixy /\ unregularised exrn exrH /\ dense_hidden exrn exrH /\
  exists kd' n' H', feeds junk [(exrx, fixy, true); (exrx, fixy, false)] (KPlain trainer_new, exrn, exrH) = Ok (kd', n', H') /\ weights n' H' = weights exrn exrH.
Proof.
  set (h := rl (rm 2 2 [1; 2; 1; -1]%R)). set (o := rl (rm 3 1 [1; 2; -3]%R)).
  assert (DN : dense_net exrn exrH [h]). { split; [repeat constructor; intros []|]. repeat constructor. }
  assert (FO : fwd_out o (fwd_out h exrx) = fixy).
  { apply mat_ext; try reflexivity. intros i j Hi Hj. assert (j = 0) by (cbn in Hj; lia). subst j. unfold fwd_out at 1. rewrite at_mk by (cbn in *; lia). rewrite pre_R by (cbn in *; lia).
    change (nc (fwd_out h exrx)) with 2. unfold sumN. cbn [seq map sumL fold_right]. unfold fwd_out. rewrite !at_mk by (cbn in *; lia). rewrite !pre_R by (cbn in *; lia). change (nc exrx) with 1. unfold sumN. cbn [seq map sumL fold_right].
    cbn [o h rl l_act]. unfold identity, initactfunc, f_identity. cbn [act]. destruct i as [|[|i]]; [| |cbn in Hi; lia]; unfold at_; cbn [l_W rl rm nr nc el nth Nat.mul Nat.add exrx fixy o h]; lra. }
  assert (HU : unregularised exrn exrH). { split; [reflexivity|]. intros ls L. pose proof (eq_trans (eq_sym L) (hidden_layers_dense exrn exrH [h] (proj2 DN))) as Q. injection Q as ->. repeat constructor. }
  assert (DH : dense_hidden exrn exrH) by (eapply dense_net_hidden, DN).
  assert (PF : perfect exrn fixy fixy) by (left; split; [left|]; reflexivity).
  assert (EF : exists n1 H1, net_forward junk exrn exrH exrx = Ok (fixy, n1, H1)).
  { rewrite (net_forward_dense junk exrn exrH [h] exrx DN). cbn [lforward]. rewrite forward_ok by (unfold fwd_ok; cbn; repeat split; lia). cbn [bind]. rewrite out_forward_ok by (unfold fwd_ok; cbn; repeat split; lia). cbn [bind]. change (o_l (n_output exrn)) with o. rewrite FO. eauto. }
  destruct EF as (n1 & H1 & EF). exists n1, H1. repeat (split; [assumption|]).
  destruct (C56_trainer junk 1 1 [(exrx, fixy, true); (exrx, fixy, false)] trainer_new exrn exrH) as (t' & n' & H' & E & _); [lia|apply exr_well_sized|repeat constructor|].
  assert (E2 : feeds junk [(exrx, fixy, true); (exrx, fixy, false)] (KPlain trainer_new, exrn, exrH) = Ok (KPlain t', n', H')).
  { apply feeds_plain. exact E. }
  exists (KPlain t'), n', H'. split; [exact E2|]. unfold weights at 2. rewrite (hidden_layers_dense exrn exrH [h] (proj2 DN)). cbn [bind].
  refine (C78_fixed junk (NPlain None) _ exrn exrH _ (KPlain trainer_new) (KPlain t') n' H' DH HU _ _ _ eq_refl E2).
  - unfold weights. rewrite (hidden_layers_dense exrn exrH [h] (proj2 DN)). reflexivity.
  - repeat constructor.
  - repeat constructor; exists fixy, n1, H1; auto.
Qed.

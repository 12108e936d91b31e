(** P_Sym.v - C76: hidden units that start equal stay equal, whatever the data, the trainer and the number of calls. *)
From Verif Require Import Base Mat Act Layer Conv Misc Net NetP Trainer TrainP TrainP2 ExNet P_Train P_Decay P_Mom FunEq ConfEq World Session SessP InvP.
From Coq Require Import Arith List ZArith Lia.
Import ListNotations.
Local Open Scope nat_scope.

(** ** Specification *)
Section Spec.
Context {D : dtype}.
(** Columns p and q of W are equal: two units with the same bias and the same incoming weights. *)
Definition equal_cols (W : mat D) (p q : nat) : Prop := p < nc W /\ q < nc W /\ forall i, i < nr W -> at_ W i p = at_ W i q.
(** Rows p+1 and q+1 are equal (row 0 holds the biases): two inputs with the same outgoing weights. *)
Definition equal_inputs (W : mat D) (p q : nat) : Prop := S p < nr W /\ S q < nr W /\ forall j, j < nc W -> at_ W (S p) j = at_ W (S q) j.
(** The weight matrices of the network in order, hidden layers first, as gethidden(k).getw() and getoutput().getw() show them. *)
Definition weights (n : net D) (H : lheap D) : res (list (mat D)) :=
  ls <- hidden_layers n H ;; Ok (map (fun l => l_W l) ls ++ [l_W (o_l (net_getoutput n))]).
(** Units p and q of hidden layer k are twins. *)
Definition twins (n : net D) (H : lheap D) (k p q : nat) : Prop :=
  exists Ws W W', weights n H = Ok Ws /\ nth_error Ws k = Some W /\ nth_error Ws (S k) = Some W' /\ equal_cols W p q /\ equal_inputs W' p q.
End Spec.

Section Sym.
Context {D : dtype} (junk : nat -> D).
Notation mat := (mat D).
Notation net := (net D).
Notation lheap := (lheap D).
Notation layer := (layer D).

(** A history of training calls of one trainer. *)
Definition feeds (data : list (mat * mat * bool)) (s : tkind D * net * lheap) : res (tkind D * net * lheap) :=
  foldM (fun '(kd, n, H) d => '(_, kd', n', H') <- feed_on junk kd n H (fst (fst d)) (snd (fst d)) (snd d) ;; Ok (kd', n', H')) data s.

Context (k p q : nat).
Definition Pt (c : list layer) : Prop :=
  exists l l', nth_error c k = Some l /\ nth_error c (S k) = Some l' /\ equal_cols (l_W l) p q /\ equal_inputs (l_W l') p q.
Definition Gt (i : nat) (g : mat) : Prop :=
  (i = k -> p < nc g -> q < nc g -> forall a, a < nr g -> at_ g a p = at_ g a q) /\
  (i = S k -> S p < nr g -> S q < nr g -> forall b, b < nc g -> at_ g (S p) b = at_ g (S q) b).

Lemma mdot_col (a b : mat) i j j' : (forall r, r < nc a -> at_ b r j = at_ b r j') -> mdot a b i j = mdot a b i j'.
Proof.
  intros E. unfold mdot. assert (X : forall l acc, (forall r, In r l -> r < nc a) -> fold_left (fun acc r => dadd acc (dmul (at_ a i r) (at_ b r j))) l acc = fold_left (fun acc r => dadd acc (dmul (at_ a i r) (at_ b r j'))) l acc).
  { induction l as [|r l IH]; intros acc Hl; cbn; [reflexivity|]. rewrite E by (apply Hl; now left). apply IH. intros; apply Hl; now right. }
  apply X. intros r Hr. apply in_seq in Hr. lia.
Qed.
Lemma mdot_row (a b : mat) i i' j : (forall r, r < nc a -> at_ a i r = at_ a i' r) -> mdot a b i j = mdot a b i' j.
Proof.
  intros E. unfold mdot. assert (X : forall l acc, (forall r, In r l -> r < nc a) -> fold_left (fun acc r => dadd acc (dmul (at_ a i r) (at_ b r j))) l acc = fold_left (fun acc r => dadd acc (dmul (at_ a i' r) (at_ b r j))) l acc).
  { induction l as [|r l IH]; intros acc Hl; cbn; [reflexivity|]. rewrite E by (apply Hl; now left). apply IH. intros; apply Hl; now right. }
  apply X. intros r Hr. apply in_seq in Hr. lia.
Qed.

Lemma twin_pass (cd : costdfun (D := D)) ls (o : layer) x y b ls1 delta dx ls2 : Pt (ls ++ [o]) -> True ->
  lforward ls x = Ok (b, ls1) -> cd y (fwd_out o b) (l_z (fwd_layer o b)) = Ok delta -> fwd_ok (l_W o) b -> nr delta = nr b -> nc delta = nc (l_W o) ->
  lbackprop ls1 (down (fwd_layer o b) delta) = Ok (dx, ls2) ->
  forall i l, nth_error (ls2 ++ [back_layer (fwd_layer o b) delta]) i = Some l -> Gt i (l_grad l).
Proof.
  intros (l & l' & Kl & Kl' & (Cp & Cq & CE) & (Rp & Rq & RE)) _ HF _ HO E1 E2 HB. destruct (chain_pass _ _ _ _ _ _ _ _ HF HO E1 E2 HB) as (xs & dl & X0 & _ & X).
  destruct (X k l Kl) as ((F1 & F2 & F3) & A1 & A2 & A3 & A4 & A5). destruct (A5 l' Kl') as [A6 A7]. destruct (X (S k) l' Kl') as ((F1' & F2' & F3') & B1 & B2 & B3 & B4 & _). clear X A5.
  (* the values of the two units before the activation *)
  assert (Z : forall i, pre (l_W l) (xs k) i p = pre (l_W l) (xs k) i q). { intros i. unfold pre. apply mdot_col. cbn [nc mk]. intros r Hr. apply CE. lia. }
  assert (Ao : forall i, i < nr (xs k) -> at_ (xs (S k)) i p = at_ (xs (S k)) i q). { intros i Hi. rewrite A1. unfold fwd_out. rewrite !at_mk by assumption. now rewrite Z. }
  assert (NR : nr (xs (S k)) = nr (xs k)) by (rewrite A1; reflexivity).
  assert (NC : nc (xs (S k)) = nc (l_W l)) by (rewrite A1; reflexivity).
  assert (Dn : forall i, i < nr (dl (S k)) -> at_ (down (fwd_layer l' (xs (S k))) (dl (S k))) i p = at_ (down (fwd_layer l' (xs (S k))) (dl (S k))) i q).
  { intros i Hi. unfold down. cbn [fwd_layer l_W]. rewrite !at_mk by lia. apply mdot_col. intros r Hr. unfold mt. rewrite !at_mk by lia. apply RE. lia. }
  assert (Dl : forall i, i < nr (dl k) -> at_ (dl k) i p = at_ (dl k) i q).
  { intros i Hi. rewrite A7 in Hi |- *. cbn [back_delta nr mk] in Hi. cbn [down nr mk] in Hi. unfold back_delta. rewrite !at_mk by (cbn [down nr nc mk fwd_layer l_W]; lia). rewrite Dn by lia. cbn [fwd_layer l_act l_z].
    rewrite !at_mk by lia. now rewrite Z. }
  intros i m Km. split; intros ->.
  - rewrite A4 in Km. injection Km as <-. cbn [back_layer l_grad]. unfold grad_of. cbn [nr nc mk]. intros Hp Hq a Ha. rewrite !at_mk by assumption. cbn [fwd_layer l_pa l_lambda l_W nc mk] in *.
    rewrite (CE a) by lia. f_equal. unfold raw_grad. cbn [l_pa]. rewrite !at_mk by assumption. apply mdot_col. cbn [mt nc mk nr fwd_layer l_pa]. intros r Hr. apply Dl. lia.
  - rewrite B4 in Km. injection Km as <-. cbn [back_layer l_grad]. unfold grad_of. cbn [nr nc mk]. intros Hp Hq j Hj. rewrite !at_mk by assumption. cbn [fwd_layer l_pa l_lambda l_W nc mk] in *.
    rewrite (RE j) by lia. f_equal. unfold raw_grad. cbn [l_pa nc mk]. rewrite !at_mk by assumption. apply mdot_row. cbn [mt nc mk nr fwd_layer l_pa]. intros r Hr. unfold mt. cbn [nc nr mk]. rewrite !at_mk by (cbn [nr nc mk]; lia). cbn [with_bias]. apply Ao. lia.
Qed.
Lemma twin_kept c c' : Pt c -> Forall2 kept c c' -> Pt c'.
Proof.
  intros (l & l' & K1 & K2 & A & B) F. pose proof (Forall2_len _ _ _ F) as L.
  destruct (nth_error c' k) as [m|] eqn:M; [|apply nth_error_None in M; assert (k < length c) by (apply nth_error_Some; congruence); lia].
  destruct (nth_error c' (S k)) as [m'|] eqn:M'; [|apply nth_error_None in M'; assert (S k < length c) by (apply nth_error_Some; congruence); lia].
  destruct (Forall2_nth _ _ _ F _ _ _ K1 M) as (W1 & _). destruct (Forall2_nth _ _ _ F _ _ _ K2 M') as (W2 & _). exists m, m'. rewrite W1, W2. auto.
Qed.
Lemma steps_nth (c : list layer) gs i l : Forall2 gfit c gs -> nth_error c i = Some l -> exists g, nth_error gs i = Some g /\ gfit l g /\ nth_error (steps_with c gs) i = Some (stepped_with l g).
Proof.
  intros F. revert i. induction F as [|a g c gs A F IH]; intros [|i] K; cbn in K; try discriminate.
  - injection K as <-. exists g. repeat split; try reflexivity; apply A.
  - destruct (IH i K) as (g' & X & Y & Z). exists g'. cbn. auto.
Qed.
Lemma twin_step c gs : Pt c -> Forall2 gfit c gs -> (forall i g, nth_error gs i = Some g -> Gt i g) -> Pt (steps_with c gs).
Proof.
  intros (l & l' & K1 & K2 & (A1 & A2 & A3) & (B1 & B2 & B3)) F HG.
  destruct (steps_nth c gs k l F K1) as (g & Eg & [S1 S2] & Es). destruct (steps_nth c gs (S k) l' F K2) as (g' & Eg' & [S1' S2'] & Es').
  exists (stepped_with l g), (stepped_with l' g'). split; [assumption|]. split; [assumption|]. unfold stepped_with. cbn [set_W l_W]. split.
  - split; [exact A1|]. split; [exact A2|]. cbn [nr nc mk]. intros i Hi. rewrite !at_mk by assumption. rewrite A3 by assumption. rewrite (proj1 (HG k g Eg) eq_refl) by lia. reflexivity.
  - split; [exact B1|]. split; [exact B2|]. cbn [nr nc mk]. intros i Hi. rewrite !at_mk by assumption. rewrite B3 by assumption. rewrite (proj2 (HG (S k) g' Eg') eq_refl) by lia. reflexivity.
Qed.
Lemma twin_mix i u v a g : Gt i a -> Gt i g -> nr a = nr g -> nc a = nc g -> Gt i (mixed u v a g).
Proof.
  intros [A1 A2] [B1 B2] E1 E2. unfold mixed. split; cbn [nr nc mk]; intros Ei Hp Hq b Hb; rewrite !at_mk by assumption.
  - rewrite (A1 Ei), (B1 Ei) by lia. reflexivity.
  - rewrite (A2 Ei), (B2 Ei) by lia. reflexivity.
Qed.
Lemma twin_zero i m : Gt i (zero_like m).
Proof. unfold zero_like, zeros. split; cbn [nr nc mk]; intros; rewrite !at_mk by assumption; reflexivity. Qed.

Lemma getoutput_l (n : net) : o_l (net_getoutput n) = o_l (n_output n).
Proof. unfold net_getoutput, output_copy. cbn [o_l]. apply layer_copy_id. Qed.
Lemma weights_dense (n : net) (H : lheap) ls : dense_net n H ls -> weights n H = Ok (map (fun l => l_W l) (ls ++ [o_l (n_output n)])).
Proof. intros Hd. unfold weights. rewrite (hidden_layers_dense n H ls (proj2 Hd)). cbn [bind]. now rewrite map_app, getoutput_l. Qed.
Lemma twins_inv (n : net) (H : lheap) : dense_hidden n H -> (twins n H k p q <-> inv Pt (o_costd (n_output n)) n H).
Proof.
  intros Hd. destruct (dense_ls n H Hd) as [ls Hn]. split.
  - intros (Ws & W & W' & E & K1 & K2 & A & B). rewrite (weights_dense n H ls Hn) in E. injection E as <-. rewrite nth_error_map in K1, K2.
    split; [reflexivity|]. exists ls. split; [assumption|]. destruct (nth_error (ls ++ _) k) as [l|] eqn:L1; [|discriminate]. destruct (nth_error (ls ++ _) (S k)) as [l'|] eqn:L2; [|discriminate]. injection K1 as <-. injection K2 as <-. exists l, l'. auto.
  - intros (_ & ls' & Hn' & l & l' & K1 & K2 & A & B). exists (map (fun l => l_W l) (ls' ++ [o_l (n_output n)])), (l_W l), (l_W l'). split; [now apply weights_dense|].
    rewrite !nth_error_map, K1, K2. auto.
Qed.
Lemma inv_dense P cd (n : net) (H : lheap) : inv P cd n H -> dense_hidden n H.
Proof. intros (_ & ls & Hd & _). split; [apply Hd|eapply dense_in; apply Hd]. Qed.

(** ** C76 *)
Theorem C76_twins : forall cs (data : list (mat * mat * bool)) (n : net) (H : lheap) kd kd' n' H', dense_hidden n H -> twins n H k p q ->
  new_bound cs n H = Ok kd -> feeds data (kd, n, H) = Ok (kd', n', H') -> twins n' H' k p q.
Proof.
  intros cs data n H kd kd' n' H' Hd HT HN HF. apply (twins_inv n H Hd) in HT.
  assert (X : inv Pt (o_costd (n_output n)) n' H' /\ tok Gt n' H' kd').
  { eapply (feeds_inv junk Pt Gt (fun _ _ => True) (o_costd (n_output n)) (fun _ _ _ _ _ _ _ _ => I) (fun _ _ _ _ _ _ _ _ _ _ _ _ _ _ => I) twin_kept (twin_pass (o_costd (n_output n))) twin_step twin_mix); [exact HT| |eapply new_tok; [exact Hd|exact twin_zero|exact HN]|exact HF].
    clear. induction data; constructor; auto. }
  destruct X as [X _]. pose proof (inv_dense _ _ _ _ X) as Y. apply twins_inv; [exact Y|]. destruct X as [X1 X2]. rewrite X1. split; [exact X1|exact X2].
Qed.
(** The two units give the same output on every row of every input. *)
Theorem C76_outputs : forall (n : net) (H : lheap) x a n1 H1 l, dense_hidden n H -> twins n H k p q ->
  net_forward junk n H x = Ok (a, n1, H1) -> net_gethidden n1 H1 k = Ok l ->
  forall r, r < nr x -> at_ (l_a l) r p = at_ (l_a l) r q.
Proof.
  intros n H x a n1 H1 l Hd HT HF HL r Hr. apply (twins_inv n H Hd) in HT as (_ & ls & Hn & m & m' & K1 & K2 & (Cp & Cq & CE) & _).
  rewrite (net_forward_dense junk n H ls x Hn) in HF. apply bind_ok in HF as ([b ls1] & F1 & HF). apply bind_ok in HF as ([rr o'] & F2 & HF). injection HF as _ <- <-.
  assert (Hk : k < length ls). { assert (S k < length (ls ++ [o_l (n_output n)])) by (apply nth_error_Some; congruence). rewrite app_length in H0. cbn in H0. lia. }
  rewrite nth_error_app1 in K1 by assumption.
  rewrite (gethidden_at _ _ ls1) in HL. 2: { cbn. eapply (dense_put n H ls); [exact Hn|eapply lforward_len; eauto]. }
  destruct (nth_error ls1 k) as [l0|] eqn:E0; [|discriminate]. injection HL as <-.
  assert (X : forall (ls : list layer) x b ls1 k l l0, lforward ls x = Ok (b, ls1) -> nth_error ls k = Some l -> nth_error ls1 k = Some l0 -> exists xk, nr xk = nr x /\ fwd_ok (l_W l) xk /\ l0 = fwd_layer l xk).
  { clear. induction ls as [|m ls IH]; intros x b ls1 [|k] l l0 E K1 K2; cbn in K1; try discriminate; cbn [lforward] in E; apply bind_ok in E as ([a l1] & E1 & E); apply bind_ok in E as ([c r1] & E2 & E); injection E as _ <-; apply forward_inv in E1 as (F & -> & ->); cbn in K2.
    - injection K1 as <-. injection K2 as <-. exists x. auto.
    - destruct (IH _ _ _ _ _ _ E2 K1 K2) as (xk & A & B & C). exists xk. split; [rewrite A; reflexivity|auto]. }
  destruct (X _ _ _ _ _ _ _ F1 K1 E0) as (xk & N & F & ->). cbn [fwd_layer l_a]. unfold fwd_out. rewrite !at_mk by lia. f_equal. unfold pre. apply mdot_col. cbn [nc mk]. intros i Hi. apply CE. destruct F as (_ & _ & F). lia.
Qed.
End Sym.

(** The plain trainer's calls, as calls of any trainer. *)
Lemma feeds_plain {D : dtype} (junk : nat -> D) (data : list (mat D * mat D * bool)) : forall (t : trainer D) n H t' n' H',
  foldM (fun '(t, n, H) d => '(_, t', n', H') <- feeddata_cost junk t n H (fst (fst d)) (snd (fst d)) (snd d) ;; Ok (t', n', H')) data (t, n, H) = Ok (t', n', H') ->
  feeds junk data (KPlain t, n, H) = Ok (KPlain t', n', H').
Proof.
  induction data as [|d data IH]; intros t n H t' n' H' E; cbn [foldM] in E.
  - injection E as <- <- <-. reflexivity.
  - apply bind_ok in E as ([[t1 n1] H1] & E1 & E). apply bind_ok in E1 as ([[[v t2] n2] H2] & E1 & X). injection X as <- <- <-.
    unfold feeds. cbn [foldM feed_on]. rewrite E1. cbn [bind]. apply IH. exact E.
Qed.

(** ** Examples: one input, three hidden units of which the first two are twins, one output. *)
Definition tw_out (w : list Z) : output Zdt := O (zl (zm 4 1 w)) quad_cost quad_costd mempty.
Definition tw_net (w : list Z) : net Zdt := Net.N (D := Zdt) mempty quad_cost quad_costd (zl mempty) [0] (tw_out w).
Definition tw_H : lheap Zdt := [HDense (zl (zm 2 3 [1; 2; 1; 2; 3; -1]%Z))].
Definition tw_run (w : list Z) (cs : nspec Zdt) (c : bool) : res (mat Zdt) :=
  kd <- new_bound cs (tw_net w) tw_H ;; '(_, n', H') <- feeds (D := Zdt) exj [(exx, exy, c); (exx, exy, c)] (kd, tw_net w, tw_H) ;; l <- net_gethidden n' H' 0 ;; Ok (l_W l).
Definition tw_start : list Z := [1; 2; 2; -3]%Z.
(** The hypotheses hold, with each kind of trainer the calls succeed and change the twins' weights, and the third unit
    learns something else. *)
Example C76_example :
  twins (D := Zdt) (tw_net tw_start) tw_H 0 0 1 /\
  forallb (fun cs => match tw_run tw_start cs false with
    | Ok w => ((at_ w 1 0 =? at_ w 1 1) && (at_ w 0 0 =? at_ w 0 1) && negb (at_ w 1 0 =? 2) && negb (at_ w 1 0 =? at_ w 1 2))%Z
    | _ => false end) [NPlain None; NSgd None; NBatch 2 None; NMom (D := Zdt) 2%Z None] = true.
Proof.
  split; [|vm_compute; reflexivity].
  exists [zm 2 3 [1; 2; 1; 2; 3; -1]%Z; zm 4 1 tw_start], (zm 2 3 [1; 2; 1; 2; 3; -1]%Z), (zm 4 1 tw_start). repeat (split; [reflexivity|]). split.
  - split; [cbn; lia|]. split; [cbn; lia|]. cbn. intros [|[|i]] Hi; try lia; reflexivity.
  - split; [cbn; lia|]. split; [cbn; lia|]. cbn. intros [|j] Hj; try lia; reflexivity.
Qed.
(** Equal incoming weights alone are not enough: with different outgoing weights one call separates the units. *)
Example C76_outgoing_needed :
  match tw_run [1; 2; 1; -3]%Z (NPlain None) false with Ok w => negb (at_ w 1 0 =? at_ w 1 1)%Z | _ => false end = true.
Proof. vm_compute. reflexivity. Qed.

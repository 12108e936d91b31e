(** Smooth.v - lemmas for C100: on bounded weights the stored gradients of a dense network are bounded and Lipschitz. *)
From Coq Require Import Reals Lra Psatz.
From Coquelicot Require Import Coquelicot.
From Verif Require Import Base Mat Act Layer Conv Misc Net NetP RInst RMat P_Act Grad P_Grad Trainer TrainP TrainP2 P_Train FunEq P_Mom P_Descent P_Linear.
From Coq Require Import Arith.
Local Open Scope R_scope.

(** Two values bounded by B that differ by at most Lc * e. *)
Definition near (B Lc e u v : R) : Prop := Rabs u <= B /\ Rabs v <= B /\ Rabs (u - v) <= Lc * e.

Lemma near_mono B Lc B' Lc' e u v : B <= B' -> Lc <= Lc' -> 0 <= e -> near B Lc e u v -> near B' Lc' e u v.
Proof. intros H1 H2 He (A1 & A2 & A3). repeat split; try lra. nra. Qed.
Lemma near_const B e u : Rabs u <= B -> near B 0 e u u.
Proof. intros H. repeat split; auto. rewrite Rminus_diag_eq, Rabs_R0 by reflexivity. lra. Qed.
Lemma near_add B Lc B' Lc' e u v u' v' : near B Lc e u v -> near B' Lc' e u' v' -> near (B + B') (Lc + Lc') e (u + u') (v + v').
Proof.
  intros (A1 & A2 & A3) (C1 & C2 & C3). repeat split.
  - eapply Rle_trans; [apply Rabs_triang|lra].
  - eapply Rle_trans; [apply Rabs_triang|lra].
  - replace (u + u' - (v + v')) with ((u - v) + (u' - v')) by ring. eapply Rle_trans; [apply Rabs_triang|lra].
Qed.
Lemma near_mul B Lc B' Lc' e u v u' v' : 0 <= e -> near B Lc e u v -> near B' Lc' e u' v' -> near (B * B') (B * Lc' + B' * Lc) e (u * u') (v * v').
Proof.
  intros He (A1 & A2 & A3) (C1 & C2 & C3). pose proof (Rabs_pos u). pose proof (Rabs_pos v). pose proof (Rabs_pos u'). pose proof (Rabs_pos v').
  pose proof (Rabs_pos (u - v)). pose proof (Rabs_pos (u' - v')). repeat split.
  - rewrite Rabs_mult. apply Rmult_le_compat; lra.
  - rewrite Rabs_mult. apply Rmult_le_compat; lra.
  - replace (u * u' - v * v') with (u * (u' - v') + v' * (u - v)) by ring. eapply Rle_trans; [apply Rabs_triang|]. rewrite !Rabs_mult.
    assert (Rabs u * Rabs (u' - v') <= B * (Lc' * e)) by (apply Rmult_le_compat; lra).
    assert (Rabs v' * Rabs (u - v) <= B' * (Lc * e)) by (apply Rmult_le_compat; lra). lra.
Qed.
Lemma near_sum m B Lc e (f g : nat -> R) : (forall k, (k < m)%nat -> near B Lc e (f k) (g k)) -> near (INR m * B) (INR m * Lc) e (sumN m f) (sumN m g).
Proof.
  induction m as [|m IH]; intros H.
  - rewrite !sumN_0. cbn. rewrite !Rmult_0_l. apply near_const. rewrite Rabs_R0. lra.
  - rewrite !sumN_last, S_INR. replace ((INR m + 1) * B) with (INR m * B + B) by ring. replace ((INR m + 1) * Lc) with (INR m * Lc + Lc) by ring.
    apply near_add; [apply IH; intros; apply H; lia|apply H; lia].
Qed.

(** Bounded and Lipschitz on every bounded interval. *)
Definition loclip (f : R -> R) : Prop := forall B, exists K Lf, 0 <= K /\ 0 <= Lf /\
  forall u v, Rabs u <= B -> Rabs v <= B -> Rabs (f u) <= K /\ Rabs (f u - f v) <= Lf * Rabs (u - v).
Lemma near_lip f : loclip f -> forall B, exists K Lf, 0 <= K /\ 0 <= Lf /\ forall Lc e u v, near B Lc e u v -> near K (Lf * Lc) e (f u) (f v).
Proof.
  intros Hf B. destruct (Hf B) as (K & Lf & HK & HL & H). exists K, Lf. repeat split; auto; try apply (H u v); try apply (H v u); try apply H0.
  destruct H0 as (A1 & A2 & A3). destruct (H u v A1 A2) as [_ H1]. eapply Rle_trans; [exact H1|]. rewrite Rmult_assoc. apply Rmult_le_compat_l; assumption.
Qed.
Lemma loclip_C1 (f g : R -> R) : (forall x, is_derive f x (g x)) -> (forall x, continuous g x) -> loclip f.
Proof.
  intros Hd Hc B. destruct (Rle_dec 0 B) as [HB|HB].
  2:{ exists 0, 0. repeat split; try lra; pose proof (Rabs_pos u); lra. }
  destruct (continuity_ab_maj (fun x => Rabs (g x)) (- B) B) as (M & HM & _); [lra| |].
  { intros c _. apply continuity_pt_filterlim. apply (continuous_comp g Rabs); [apply Hc|apply continuous_Rabs]. }
  destruct (continuity_ab_maj (fun x => Rabs (f x)) (- B) B) as (N & HN & _); [lra| |].
  { intros c _. apply continuity_pt_filterlim. apply (continuous_comp f Rabs); [|apply continuous_Rabs]. apply (ex_derive_continuous (V := R_NormedModule)). eexists; apply Hd. }
  exists (Rabs (f N)), (Rabs (g M)). split; [apply Rabs_pos|]. split; [apply Rabs_pos|]. intros u v Hu Hv. apply Rabs_le_between in Hu, Hv. split; [apply HN; lra|].
  destruct (MVT_gen f v u g) as (c & Hcc & E).
  - intros x Hx. apply Hd.
  - intros x Hx. apply continuity_pt_filterlim. apply (ex_derive_continuous (V := R_NormedModule)). eexists; apply Hd.
  - rewrite E, Rabs_mult. apply Rmult_le_compat_r; [apply Rabs_pos|]. apply HM.
    assert (Rmin v u >= -B) by (unfold Rmin; destruct (Rle_dec v u); lra). assert (Rmax v u <= B) by (unfold Rmax; destruct (Rle_dec v u); lra). lra.
Qed.

Definition lip_act (f : actfunc Rdt) : Prop := loclip (act f : R -> R) /\ loclip (actd f : R -> R).
Lemma loclip_ext f g : (forall z, f z = g z) -> loclip g -> loclip f.
Proof. intros E H B. destruct (H B) as (K & Lf & HK & HL & Hb). exists K, Lf. split; [auto|]. split; [auto|]. intros u v Hu Hv. rewrite !E. now apply Hb. Qed.
Lemma loclip_intro f : (forall B, exists K Lf, forall u v, Rabs u <= B -> Rabs v <= B -> near K Lf (Rabs (u - v)) (f u) (f v)) -> loclip f.
Proof.
  intros H B. destruct (H B) as (K & Lf & Hb). exists (Rmax 0 K), (Rmax 0 Lf). pose proof (Rmax_l 0 K). pose proof (Rmax_r 0 K). pose proof (Rmax_l 0 Lf). pose proof (Rmax_r 0 Lf).
  repeat split; auto; destruct (Hb u v) as (A1 & A2 & A3); auto; [lra|]. eapply Rle_trans; [exact A3|]. apply Rmult_le_compat_r; [apply Rabs_pos|assumption].
Qed.
Lemma loclip_near f : loclip f -> forall B, exists K Lf, forall u v, Rabs u <= B -> Rabs v <= B -> near K Lf (Rabs (u - v)) (f u) (f v).
Proof. intros H B. destruct (H B) as (K & Lf & HK & HL & Hb). exists K, Lf. intros u v Hu Hv. repeat split; try (apply (Hb u v); assumption). apply (Hb v u); assumption. Qed.
Lemma loclip_const c : loclip (fun _ => c).
Proof. apply loclip_intro. intros B. exists (Rabs c), 0. intros u v _ _. apply near_const. lra. Qed.
Lemma loclip_id : loclip (fun z => z).
Proof. apply loclip_intro. intros B. exists B, 1. intros u v Hu Hv. repeat split; auto. lra. Qed.
Lemma loclip_add f g : loclip f -> loclip g -> loclip (fun z => f z + g z).
Proof.
  intros Hf Hg. apply loclip_intro. intros B. destruct (loclip_near f Hf B) as (K & Lf & H1). destruct (loclip_near g Hg B) as (K' & Lf' & H2).
  exists (K + K'), (Lf + Lf'). intros u v Hu Hv. apply near_add; auto.
Qed.
Lemma loclip_mul f g : loclip f -> loclip g -> loclip (fun z => f z * g z).
Proof.
  intros Hf Hg. apply loclip_intro. intros B. destruct (loclip_near f Hf B) as (K & Lf & H1). destruct (loclip_near g Hg B) as (K' & Lf' & H2).
  exists (K * K'), (K * Lf' + K' * Lf). intros u v Hu Hv. apply near_mul; auto using Rabs_pos.
Qed.
Lemma loclip_opp f : loclip f -> loclip (fun z => - f z).
Proof. intros H. apply (loclip_ext _ (fun z => (-1) * f z)); [intros; ring|]. apply loclip_mul; auto using loclip_const. Qed.
Lemma loclip_comp f g : loclip f -> loclip g -> loclip (fun z => f (g z)).
Proof.
  intros Hf Hg. apply loclip_intro. intros B. destruct (loclip_near g Hg B) as (K & Lf & H1). destruct (near_lip f Hf K) as (K' & Lf' & _ & _ & H2).
  exists K', (Lf' * Lf). intros u v Hu Hv. apply H2, H1; assumption.
Qed.
Lemma loclip_exp : loclip exp.
Proof. apply (loclip_C1 exp exp); intros x; [apply is_derive_exp|]. apply (ex_derive_continuous (V := R_NormedModule)). exists (exp x). apply is_derive_exp. Qed.
Lemma near_inv m B Lc e u v : 0 < m -> m <= u -> m <= v -> near B Lc e u v -> near (/ m) (/ m * / m * Lc) e (/ u) (/ v).
Proof.
  intros Hm Hu Hv (A1 & A2 & A3). assert (I1 : 0 < / u <= / m) by (split; [apply Rinv_0_lt_compat; lra|apply Rinv_le_contravar; lra]).
  assert (I2 : 0 < / v <= / m) by (split; [apply Rinv_0_lt_compat; lra|apply Rinv_le_contravar; lra]).
  repeat split; try (rewrite Rabs_pos_eq; lra). replace (/ u - / v) with (/ u * / v * - (u - v)) by (field; lra). rewrite Rabs_mult, Rabs_Ropp, Rabs_pos_eq by nra.
  replace (/ m * / m * Lc * e) with ((/ m * / m) * (Lc * e)) by ring. apply Rmult_le_compat; [nra|apply Rabs_pos|nra|assumption].
Qed.
Lemma loclip_inv g : loclip g -> (forall z, 1 <= g z) -> loclip (fun z => / g z).
Proof.
  intros Hg H1. apply loclip_intro. intros B. destruct (loclip_near g Hg B) as (K & Lf & H2). exists (/ 1), (/ 1 * / 1 * Lf). intros u v Hu Hv.
  eapply near_inv; eauto; lra.
Qed.
Lemma one_exp z : 1 <= 1 + exp z.
Proof. pose proof (exp_pos z). lra. Qed.
Ltac ll := repeat first [apply loclip_const | apply loclip_id | apply loclip_opp | apply loclip_add | apply loclip_inv | apply loclip_mul | apply (loclip_comp exp); [apply loclip_exp|]].
Lemma ll_sig : loclip (fun z => / (1 + exp (- z))).
Proof. ll. intros z. apply one_exp. Qed.
Lemma smooth_lip f : smooth_act f -> loclip (actd f : R -> R) -> lip_act f.
Proof.
  intros Hs Hd. split; [|assumption]. apply (loclip_C1 _ (actd f : R -> R)); [apply Hs|]. intros x. intros P [eps HP].
  destruct (Hd (Rabs x + 1)) as (K & Lf & HK & HL & Hb). assert (Hd0 : 0 < Rmin 1 (eps / (Lf + 1))).
  { apply Rmin_glb_lt; [lra|]. apply Rdiv_lt_0_compat; [apply cond_pos|lra]. }
  exists (mkposreal _ Hd0). intros y Hy. apply HP. change (Rabs (actd f y - actd f x) < eps). change (Rabs (y - x) < Rmin 1 (eps / (Lf + 1))) in Hy.
  pose proof (Rmin_l 1 (eps / (Lf + 1))). pose proof (Rmin_r 1 (eps / (Lf + 1))). destruct (Hb y x) as [_ Hb2]; [|lra|].
  { replace y with (x + (y - x)) by ring. eapply Rle_trans; [apply Rabs_triang|lra]. }
  eapply Rle_lt_trans; [exact Hb2|]. assert (Q : Rabs (y - x) < eps / (Lf + 1)) by lra.
  apply (Rmult_lt_compat_l (Lf + 1)) in Q; [|lra]. replace ((Lf + 1) * (eps / (Lf + 1))) with (eps : R) in Q by (field; lra). pose proof (Rabs_pos (y - x)). nra.
Qed.
Lemma seven_lip f : In f seven -> lip_act f.
Proof.
  intros Hf. apply smooth_lip; [now apply seven_smooth|]. cbn in Hf. destruct Hf as [<-|[<-|[<-|[<-|[<-|[<-|[<-|[]]]]]]]]; cbn.
  - apply loclip_const.
  - apply (loclip_ext _ (fun z => exp (- z) * / (1 + exp (- z)) * / (1 + exp (- z)))); [intros; reflexivity|]. ll; intros; apply one_exp.
  - apply (loclip_ext _ (fun z => / (1 + z * z))); [intros; unfold f_arctangrad; cbn; unfold Rdiv; toR; ring|]. ll. intros; nra.
  - assert (T : loclip tanh).
    { apply (loclip_ext _ (fun z => 1 + (-1) * (2 * exp (- z) * / (exp z + exp (- z)))) ).
      2:{ apply loclip_add; [ll|]. apply loclip_mul; [ll|]. apply (loclip_ext _ (fun z => 2 * exp (- z) * exp (- z) * / (1 + exp (- z) * exp (- z)))).
          - intros z. rewrite exp_Ropp. pose proof (exp_pos z). field. split; nra.
          - ll. intros z. pose proof (exp_pos (- z)). nra. }
      intros z. unfold tanh, sinh, cosh. pose proof (exp_pos z). pose proof (exp_pos (- z)). field. lra. }
    apply (loclip_ext _ (fun z => 1 + - (tanh z * tanh z))); [intros; unfold f_tanhgrad; cbn; toR; ring|]. apply loclip_add; [ll|]. apply loclip_opp, loclip_mul; exact T.
  - apply (loclip_ext _ (fun z => (1 + - ((2 * / (1 + exp (- z)) + - 1) * (2 * / (1 + exp (- z)) + - 1))) * / 2)).
    { intros; unfold f_bipolargrad, f_bipolar; cbn; unfold Rdiv; toR; ring. }
    apply loclip_mul; [|ll]. ll; intros; apply one_exp.
  - apply (loclip_ext _ (fun z => exp z * exp (- exp z))); [intros; reflexivity|]. apply loclip_mul; [apply loclip_exp|].
    apply (loclip_comp exp); [apply loclip_exp|]. apply loclip_opp, loclip_exp.
  - apply (loclip_ext _ (fun z => exp z * / (1 + exp z))); [intros; reflexivity|]. apply loclip_mul; [apply loclip_exp|].
    apply loclip_inv; [apply loclip_add; [ll|apply loclip_exp]|intros; apply one_exp].
Qed.

(** ** Matrices and layers *)
Local Open Scope nat_scope.
Definition mnear (r c : nat) (B Lc e : R) (A A' : rmat) : Prop :=
  (nr A = r /\ nc A = c) /\ (nr A' = r /\ nc A' = c) /\ forall i j, i < r -> j < c -> near B Lc e (at_ A i j) (at_ A' i j).
(** Two layers built like t, with weights bounded by M and at most e apart. *)
Definition lnear (M e : R) (t l l' : rlayer) : Prop :=
  (l_act l = l_act t /\ l_lambda l = l_lambda t) /\ (l_act l' = l_act t /\ l_lambda l' = l_lambda t) /\
  mnear (nr (l_W t)) (nc (l_W t)) M 1 e (l_W l) (l_W l').

Lemma bias_near r c B Lx e (x x' : rmat) i k : (0 <= e)%R -> mnear r c B Lx e x x' -> i < r -> k < c + 1 ->
  near (Rmax 1 B) (Rmax 0 Lx) e (with_bias x i k) (with_bias x' i k).
Proof.
  intros He (_ & _ & H) Hi Hk. destruct k as [|k]; cbn [with_bias].
  - apply (near_mono 1 0); auto using Rmax_l. apply near_const. cbn. rewrite Rabs_R1. lra.
  - eapply near_mono; [| | |apply H]; auto using Rmax_r. lia.
Qed.
Lemma pre_near M B Lx : forall r c m, exists Bz Lz, forall e (W W' x x' : rmat) i j, (0 <= e)%R ->
  mnear (c + 1) m M 1 e W W' -> mnear r c B Lx e x x' -> i < r -> j < m -> near Bz Lz e (pre W x i j) (pre W' x' i j).
Proof.
  intros r c m. do 2 eexists. intros e W W' x x' i j He HW Hx Hi Hj. pose proof Hx as ((X1 & X2) & (X3 & X4) & _). pose proof HW as (_ & _ & HW').
  unfold pre. rewrite !mdot_R. cbn [nc mk]. rewrite X2, X4. apply near_sum. intros k Hk. rewrite !at_mk by lia.
  apply near_mul; [assumption|eapply bias_near; eauto|apply HW'; lia].
Qed.

Lemma forward_near M B Lx r (t : rlayer) : lip_act (l_act t) -> exists Bo Lo Bz Lz, forall e (l l' : rlayer) (x x' : rmat), (0 <= e)%R ->
  lnear M e t l l' -> mnear r (nr (l_W t) - 1) B Lx e x x' -> 1 <= nr (l_W t) ->
  mnear r (nc (l_W t)) Bo Lo e (fwd_out l x) (fwd_out l' x') /\ mnear r (nc (l_W t)) Bz Lz e (l_z (fwd_layer l x)) (l_z (fwd_layer l' x')).
Proof.
  intros [Ha _]. destruct (pre_near M B Lx r (nr (l_W t) - 1) (nc (l_W t))) as (Bz & Lz & Hp). destruct (near_lip _ Ha Bz) as (K & Lf & _ & _ & Hf).
  exists K, (Lf * Lz)%R, Bz, Lz. intros e l l' x x' He ((A1 & A2) & (A3 & A4) & HW) Hx H1. replace (nr (l_W t)) with (nr (l_W t) - 1 + 1) in HW by lia.
  pose proof Hx as ((X1 & X2) & (X3 & X4) & _). pose proof HW as ((W1 & W2) & (W3 & W4) & _).
  split; (split; [split; cbn; congruence|]; split; [split; cbn; congruence|]); intros i j Hi Hj.
  - unfold fwd_out. rewrite !at_mk by congruence. rewrite A1, A3. apply Hf. eapply Hp; eauto.
  - cbn [fwd_layer l_z]. rewrite !at_mk by congruence. eapply Hp; eauto.
Qed.

Lemma backdelta_near Bz Lz Bd Ld r c (f : actfunc Rdt) : lip_act f -> exists B' L', forall e (l l' : rlayer) (d d' : rmat), (0 <= e)%R ->
  l_act l = f -> l_act l' = f -> mnear r c Bz Lz e (l_z l) (l_z l') -> mnear r c Bd Ld e d d' -> mnear r c B' L' e (back_delta l d) (back_delta l' d').
Proof.
  intros [_ Ha]. destruct (near_lip _ Ha Bz) as (K & Lf & _ & _ & Hf). do 2 eexists. intros e l l' d d' He E1 E2 Hz ((X1 & X2) & (X3 & X4) & Hd).
  split; [split; cbn; congruence|]. split; [split; cbn; congruence|]. intros i j Hi Hj. unfold back_delta. rewrite !at_mk by congruence. rewrite E1, E2.
  destruct Hz as (_ & _ & Hz). apply near_mul; [assumption|apply Hd; assumption|]. apply Hf, Hz; assumption.
Qed.
Lemma down_near M Bd Ld r (t : rlayer) : exists B' L', forall e (l l' : rlayer) (d d' : rmat), (0 <= e)%R ->
  lnear M e t l l' -> mnear r (nc (l_W t)) Bd Ld e d d' -> mnear r (nr (l_W t) - 1) B' L' e (down l d) (down l' d').
Proof.
  do 2 eexists. intros e l l' d d' He (_ & _ & ((W1 & W2) & (W3 & W4) & HW)) ((X1 & X2) & (X3 & X4) & Hd).
  split; [split; cbn; congruence|]. split; [split; cbn; congruence|]. intros i j Hi Hj. rewrite !at_down by (congruence || lia). rewrite W2, W4.
  apply near_sum. intros k Hk. apply near_mul; [assumption|apply Hd; assumption|apply HW; lia].
Qed.
Lemma grad_near M B Lx Bd Ld r (t : rlayer) : exists B' L', forall e (l l' : rlayer) (x x' d d' : rmat), (0 <= e)%R -> 1 <= nr (l_W t) ->
  lnear M e t l l' -> mnear r (nr (l_W t) - 1) B Lx e x x' -> mnear r (nc (l_W t)) Bd Ld e d d' ->
  mnear (nr (l_W t)) (nc (l_W t)) B' L' e (grad_of (fwd_layer l x) d) (grad_of (fwd_layer l' x') d').
Proof.
  do 2 eexists. intros e l l' x x' d d' He H1 ((A1 & A2) & (A3 & A4) & HW) Hx Hd.
  pose proof Hx as ((X1 & X2) & (X3 & X4) & _). pose proof Hd as ((D1 & D2) & (D3 & D4) & Hd'). pose proof HW as ((W1 & W2) & (W3 & W4) & HW').
  split; [split; cbn; lia|]. split; [split; cbn; lia|]. intros i j Hi Hj. unfold grad_of. rewrite !at_mk by (cbn; lia).
  rewrite (at_raw (fwd_layer l x) d x i j), (at_raw (fwd_layer l' x') d' x' i j) by (try reflexivity; lia). cbn [fwd_layer l_lambda l_W]. rewrite A2, A4, X1, X3.
  apply near_add.
  - apply near_sum. intros k Hk. apply near_mul; [assumption|eapply bias_near; eauto; lia|apply Hd'; assumption].
  - apply near_mul; [assumption| |apply HW'; assumption]. apply near_const. apply Rle_refl.
Qed.

(** ** The whole network *)
Fixpoint lsnear (M e : R) (ts ks ks' : list rlayer) : Prop :=
  match ts, ks, ks' with
  | [], [], [] => True
  | t :: ts, k :: ks, k' :: ks' => lnear M e t k k' /\ lsnear M e ts ks ks'
  | _, _, _ => False
  end.
Definition gsnear (G Lg e : R) (ks ks' : list rlayer) : Prop :=
  Forall2 (fun l l' : rlayer => mnear (nr (l_W l)) (nc (l_W l)) G Lg e (l_grad l) (l_grad l')) ks ks'.
Lemma mnear_mono r c B Lc B' Lc' e A A' : (B <= B')%R -> (Lc <= Lc')%R -> (0 <= e)%R -> mnear r c B Lc e A A' -> mnear r c B' Lc' e A A'.
Proof. intros H1 H2 He (P1 & P2 & P3). split; [assumption|]. split; [assumption|]. intros i j Hi Hj. eapply near_mono; eauto. Qed.
Lemma gsnear_mono G Lg G' Lg' e ks ks' : (G <= G')%R -> (Lg <= Lg')%R -> (0 <= e)%R -> gsnear G Lg e ks ks' -> gsnear G' Lg' e ks ks'.
Proof. intros H1 H2 He H. unfold gsnear in *. induction H; constructor; eauto using mnear_mono. Qed.

Lemma chain_near M : forall ts p q, fits p ts q -> Forall (fun t : rlayer => lip_act (l_act t)) ts -> forall r B Lx, exists Bo Lo,
  (forall e ks ks' x x' b b' k1 k1', (0 <= e)%R -> lsnear M e ts ks ks' -> mnear r p B Lx e x x' ->
     lforward ks x = Ok (b, k1) -> lforward ks' x' = Ok (b', k1') -> mnear r q Bo Lo e b b') /\
  forall Bd Ld, exists G Lg Bx Lx',
    forall e ks ks' x x' b b' k1 k1' d d' dx dx' k2 k2', (0 <= e)%R -> lsnear M e ts ks ks' -> mnear r p B Lx e x x' ->
     lforward ks x = Ok (b, k1) -> lforward ks' x' = Ok (b', k1') -> mnear r q Bd Ld e d d' ->
     lbackprop k1 d = Ok (dx, k2) -> lbackprop k1' d' = Ok (dx', k2') -> gsnear G Lg e k2 k2' /\ mnear r p Bx Lx' e dx dx'.
Proof.
  induction ts as [|t ts IH]; intros p q Hf Ha r B Lx.
  - cbn in Hf. subst q. exists B, Lx. split.
    + intros e [|k ks] [|k' ks'] x x' b b' k1 k1' He Hn Hx F F'; try contradiction. cbn in F, F'. injection F as <- <-. injection F' as <- <-. assumption.
    + intros Bd Ld. exists 0%R, 0%R, Bd, Ld. intros e [|k ks] [|k' ks'] x x' b b' k1 k1' d d' dx dx' k2 k2' He Hn Hx F F' Hd K K'; try contradiction.
      cbn in F, F'. injection F as <- <-. injection F' as <- <-. cbn in K, K'. injection K as <- <-. injection K' as <- <-. split; [constructor|assumption].
  - cbn in Hf. destruct Hf as (F1 & F2 & F3). inversion Ha as [|u us Ht Hts]; subst.
    destruct (forward_near M B Lx r t Ht) as (Bo & Lo & Bz & Lz & P).
    destruct (IH (nc (l_W t)) q F3 Hts r Bo Lo) as (B2 & L2 & Q1 & Q2). exists B2, L2. split.
    + intros e [|k ks] [|k' ks'] x x' b b' k1 k1' He Hn Hx F F'; try contradiction. destruct Hn as [Hn Hns]. cbn [lforward] in F, F'.
      apply bind_ok in F as ([a l1] & A1 & F). apply bind_ok in F as ([b0 r1] & A2 & F). injection F as <- <-. apply forward_inv in A1 as (Hok & -> & ->).
      apply bind_ok in F' as ([a' l1'] & A1' & F'). apply bind_ok in F' as ([b0' r1'] & A2' & F'). injection F' as <- <-. apply forward_inv in A1' as (Hok' & -> & ->).
      assert (Ep : p = nr (l_W t) - 1) by lia. destruct (P e k k' x x' He Hn) as [P1 _]; [now rewrite <- Ep|lia|]. eapply Q1; eauto.
    + intros Bd Ld. destruct (Q2 Bd Ld) as (G & Lg & Bx & Lx' & Q3).
      destruct (backdelta_near Bz Lz Bx Lx' r (nc (l_W t)) (l_act t) Ht) as (Bb & Lb & P2).
      destruct (down_near M Bb Lb r t) as (Bn & Ln & P3). destruct (grad_near M B Lx Bb Lb r t) as (Bg & Lg2 & P4).
      exists (Rmax G Bg), (Rmax Lg Lg2), Bn, Ln.
      intros e [|k ks] [|k' ks'] x x' b b' k1 k1' d d' dx dx' k2 k2' He Hn Hx F F' Hd K K'; try contradiction. destruct Hn as [Hn Hns]. cbn [lforward] in F, F'.
      apply bind_ok in F as ([a l1] & A1 & F). apply bind_ok in F as ([b0 r1] & A2 & F). injection F as <- <-. apply forward_inv in A1 as (Hok & -> & ->).
      apply bind_ok in F' as ([a' l1'] & A1' & F'). apply bind_ok in F' as ([b0' r1'] & A2' & F'). injection F' as <- <-. apply forward_inv in A1' as (Hok' & -> & ->).
      assert (Ep : p = nr (l_W t) - 1) by lia. destruct (P e k k' x x' He Hn) as [P1 P1z]; [now rewrite <- Ep|lia|].
      cbn [lbackprop] in K, K'. apply bind_ok in K as ([d1 r2] & K1 & K). apply bind_ok in K as ([d0 l2] & K2 & K). injection K as <- <-.
      apply bind_ok in K' as ([d1' r2'] & K1' & K'). apply bind_ok in K' as ([d0' l2'] & K2' & K'). injection K' as <- <-.
      destruct (Q3 e ks ks' _ _ b0 b0' r1 r1' d d' d1 d1' r2 r2' He Hns P1 A2 A2' Hd K1 K1') as [Q4 Q5].
      apply backprop_inv in K2 as (_ & -> & ->). apply backprop_inv in K2' as (_ & -> & ->).
      pose proof Hn as ((N1 & N2) & (N3 & N4) & ((W1 & W2) & _)).
      assert (Hb : mnear r (nc (l_W t)) Bb Lb e (back_delta (fwd_layer k x) d1) (back_delta (fwd_layer k' x') d1')) by (apply P2; auto).
      assert (Hx' : mnear r (nr (l_W t) - 1) B Lx e x x') by (now rewrite <- Ep).
      split; [|rewrite Ep; apply P3; [assumption| |assumption]; exact Hn].
      constructor.
      * eapply mnear_mono; [apply Rmax_r|apply Rmax_r|assumption|]. cbn [back_layer l_W fwd_layer l_grad]. rewrite W1, W2. apply P4; auto. lia.
      * eapply gsnear_mono; [apply Rmax_l|apply Rmax_l|assumption|exact Q4].
Qed.

(** ** The delta of the built-in outputs *)
Lemma mat_bound (y : rmat) : exists By, forall i j, i < nr y -> j < nc y -> (Rabs (at_ y i j) <= By)%R.
Proof.
  exists (sumN (nr y) (fun i => sumN (nc y) (fun j => Rabs (at_ y i j)))). intros i j Hi Hj.
  assert (G : forall m (f : nat -> R) k, k < m -> (forall i, i < m -> (0 <= f i)%R) -> (f k <= sumN m f)%R).
  { clear. intros m f k Hk Hf. assert (E : sumN m (fun i => if i =? k then f k else 0%R) = f k).
    { rewrite (sumN_single _ _ k Hk); [now rewrite Nat.eqb_refl|]. intros i Hi Hne. destruct (Nat.eqb_spec i k); [contradiction|reflexivity]. }
    rewrite <- E at 1. apply sumN_le. intros i Hi. destruct (Nat.eqb_spec i k); subst; [lra|auto]. }
  eapply Rle_trans; [|apply (G _ (fun i => sumN (nc y) (fun j => Rabs (at_ y i j))) i Hi)].
  - apply (G _ (fun j => Rabs (at_ y i j)) j Hj). intros; apply Rabs_pos.
  - intros; apply sumN_nonneg. intros; apply Rabs_pos.
Qed.
Lemma soft_near c Bo Lo : (1 <= c)%nat -> exists B' L', forall e (h h' : nat -> R), (0 <= e)%R -> (forall k, k < c -> near Bo Lo e (h k) (h' k)) ->
  forall j, j < c -> near B' L' e (exp (h j) * (1 / sumN c (fun k => exp (h k)))) (exp (h' j) * (1 / sumN c (fun k => exp (h' k)))).
Proof.
  intros Hc. destruct (near_lip _ loclip_exp Bo) as (K & Lf & _ & _ & Hf). do 2 eexists. intros e h h' He H j Hj.
  assert (P : forall g : nat -> R, (forall k, k < c -> (Rabs (g k) <= Bo)%R) -> (exp (- Bo) <= sumN c (fun k => exp (g k)))%R).
  { intros g Hg. destruct c as [|c]; [lia|]. rewrite sumN_S. assert (0 <= sumN c (fun i => exp (g (S i))))%R by (apply sumN_nonneg; intros; left; apply exp_pos).
    assert (exp (- Bo) <= exp (g 0%nat))%R; [|lra]. specialize (Hg 0%nat ltac:(lia)). apply Rabs_le_between in Hg. destruct (Rle_lt_or_eq_dec (- Bo) (g 0%nat)) as [Q|Q]; [lra|left; now apply exp_increasing|rewrite Q; lra]. }
  unfold Rdiv. rewrite !Rmult_1_l. apply near_mul; [assumption|apply Hf, H; assumption|]. eapply near_inv with (m := exp (- Bo)%R); [apply exp_pos| | |].
  - apply P. intros k Hk. apply H; assumption.
  - apply P. intros k Hk. destruct (H k Hk) as (_ & Q & _). exact Q.
  - apply near_sum. intros k Hk. apply Hf, H. assumption.
Qed.
Lemma delta_near (cd : costdfun (D := Rdt)) (y : rmat) Bo Lo : cd = quad_costd \/ cd = ce_costd \/ cd = sm_costd -> exists Bd Ld,
  forall e (a a' z z' d d' : rmat), (0 <= e)%R -> mnear (nr y) (nc y) Bo Lo e a a' -> cd y a z = Ok d -> cd y a' z' = Ok d' -> wf a -> wf a' -> mnear (nr y) (nc y) Bd Ld e d d'.
Proof.
  intros Hcd. destruct (mat_bound y) as (Yb & HYb).
  assert (Q : cd = quad_costd -> exists Bd Ld, forall e (a a' z z' d d' : rmat), (0 <= e)%R -> mnear (nr y) (nc y) Bo Lo e a a' -> cd y a z = Ok d -> cd y a' z' = Ok d' -> wf a -> wf a' -> mnear (nr y) (nc y) Bd Ld e d d').
  { intros ->. do 2 eexists. intros e a a' z z' d d' He ((A1 & A2) & (A3 & A4) & Ha) E E' Wa Wa'.
    rewrite <- (mk_at a Wa), A1, A2 in E. rewrite <- (mk_at a' Wa'), A3, A4 in E'.
    rewrite quad_costd_mk in E, E' by reflexivity. injection E as <-. injection E' as <-. split; [split; reflexivity|]. split; [split; reflexivity|]. intros i j Hi Hj.
    rewrite !at_mk by assumption. unfold Rdiv, Rminus. eapply near_mul; [assumption|apply near_add; [apply Ha; assumption|]|apply near_const, Rle_refl].
    apply near_const. rewrite Rabs_Ropp. now apply HYb. }
  destruct Hcd as [Hcd|[Hcd|Hcd]]; subst cd; [now apply Q|now apply Q|].
  destruct (Nat.eq_dec (nc y) 0) as [E0|E0].
  { exists 0%R, 0%R. intros e a a' z z' d d' He ((A1 & A2) & (A3 & A4) & Ha) E E' Wa Wa'. rewrite <- (mk_at a Wa), A1, A2 in E. rewrite <- (mk_at a' Wa'), A3, A4 in E'.
    rewrite sm_costd_mk in E, E' by reflexivity. injection E as <-. injection E' as <-. split; [split; reflexivity|]. split; [split; reflexivity|]. intros i j Hi Hj. lia. }
  destruct (soft_near (nc y) Bo Lo) as (B' & L' & HS); [lia|]. do 2 eexists. intros e a a' z z' d d' He ((A1 & A2) & (A3 & A4) & Ha) E E' Wa Wa'.
  rewrite <- (mk_at a Wa), A1, A2 in E. rewrite <- (mk_at a' Wa'), A3, A4 in E'.
  rewrite sm_costd_mk in E, E' by reflexivity. injection E as <-. injection E' as <-. split; [split; reflexivity|]. split; [split; reflexivity|]. intros i j Hi Hj.
  rewrite !at_mk by assumption. unfold Rdiv at 1 3. unfold Rminus. eapply near_mul; [assumption|apply near_add|apply near_const, Rle_refl].
  - apply (HS e (fun k => at_ a i k) (fun k => at_ a' i k)); auto.
  - apply near_const. rewrite Rabs_Ropp. now apply HYb.
Qed.

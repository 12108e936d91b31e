(** P_Dec.v - C79: what six-digit checkpoints lose, and that they lose it only once. *)
From Verif Require Import Base Mat Act Layer Conv Misc Net NetP SaveLoad P_Save RInst Dec.
From Coq Require Import Arith Ascii ZArith Reals List Bool Lia Lra.
From Flocq Require Import Core Relative.
Import ListNotations.
Local Open Scope R_scope.

(** ** Rounding facts *)
(** powers of ten and two, compared as integers *)
Lemma bpow_neg r e : (0 <= e)%Z -> bpow r (- e) = / IZR (r ^ e).
Proof. intros He. rewrite bpow_opp. f_equal. symmetry. now apply IZR_Zpower. Qed.
Lemma bpow_pos_ r e : (0 <= e)%Z -> bpow r e = IZR (r ^ e).
Proof. intros He. symmetry. now apply IZR_Zpower. Qed.
Lemma double_bounds x : is_double x -> x <> 0 -> bpow radix2 (-1074) <= Rabs x.
Proof.
  intros [F _] N. apply (generic_format_ge_bpow radix2 (FLT_exp (-1074) 53)); [intros e; unfold FLT_exp; lia|now apply Rabs_pos_lt|now apply generic_format_abs].
Qed.
Lemma double_max x : is_double x -> Rabs x <= bpow radix2 1024 - bpow radix2 971.
Proof.
  intros [F L]. change (bpow radix2 971) with (bpow radix2 (FLT_exp (-1074) 53 1024)). rewrite <- (pred_bpow radix2 (FLT_exp (-1074) 53)). apply pred_ge_gt; [apply _|now apply generic_format_abs| |exact L].
  apply generic_format_bpow. reflexivity || (unfold FLT_exp; lia).
Qed.
Definition top6 : R := IZR 179769 * bpow radix10 303.
Lemma top6_format : generic_format radix10 (FLX_exp 6) top6.
Proof. apply generic_format_FLX. exists (Float radix10 179769 303); [reflexivity|reflexivity]. Qed.
Lemma top6_pos : 0 < top6.
Proof. unfold top6. apply Rmult_lt_0_compat; [apply IZR_lt; reflexivity|apply bpow_gt_0]. Qed.
Lemma top6_mag : mag_val _ _ (mag radix10 top6) = 309%Z.
Proof.
  apply mag_unique. pose proof top6_pos as P. rewrite Rabs_right by lra. unfold top6. change (309 - 1)%Z with (5 + 303)%Z. change 309%Z with (6 + 303)%Z. rewrite !bpow_plus.
  change (bpow radix10 5) with (IZR 100000). change (bpow radix10 6) with (IZR 1000000). split; [apply Rmult_le_compat_r; [apply bpow_ge_0|apply IZR_le; discriminate]|apply Rmult_lt_compat_r; [apply bpow_gt_0|apply IZR_lt; reflexivity]].
Qed.
Lemma sig6_top x : is_double x -> Rabs (sig6 x) <= top6.
Proof.
  intros Dx. pose proof (double_max x Dx) as M. assert (E : Rabs (sig6 x) = sig6 (Rabs x)).
  { unfold sig6. destruct (Rcase_abs x) as [L|L].
    - rewrite (Rabs_left x L). rewrite round_NE_opp. apply Rabs_left1. rewrite <- (round_0 radix10 (FLX_exp 6) ZnearestE). apply round_le; try apply _. lra.
    - rewrite (Rabs_right x L). apply Rabs_right. apply Rle_ge. rewrite <- (round_0 radix10 (FLX_exp 6) ZnearestE). apply round_le; try apply _. lra. }
  rewrite E. apply round_N_le_midp; [apply _|apply top6_format|]. eapply Rle_lt_trans; [exact M|]. pose proof top6_pos as TP. rewrite succ_eq_pos by lra. rewrite ulp_neq_0 by lra.
  unfold cexp. rewrite top6_mag. change (FLX_exp 6 309) with 303%Z. unfold top6.
  enough (2 * (bpow radix2 1024 - bpow radix2 971) < 2 * (IZR 179769 * bpow radix10 303) + bpow radix10 303) by lra. rewrite !bpow_pos_ by lia. rewrite <- minus_IZR. rewrite <- !mult_IZR, <- plus_IZR. apply IZR_lt. vm_compute. reflexivity.
Qed.
Lemma rnd64_fits x : is_double x -> Rabs (rnd64 (sig6 x)) < bpow radix2 1024.
Proof.
  intros Dx. apply Rle_lt_trans with (bpow radix2 1024 - bpow radix2 971); [|pose proof (bpow_gt_0 radix2 971); lra]. unfold rnd64. apply abs_round_le_generic; try apply _.
  - change (bpow radix2 971) with (bpow radix2 (FLT_exp (-1074) 53 1024)). rewrite <- (pred_bpow radix2 (FLT_exp (-1074) 53)). apply generic_format_pred; [apply _|]. apply generic_format_bpow. unfold FLT_exp; lia.
  - eapply Rle_trans; [now apply sig6_top|]. unfold top6. rewrite !bpow_pos_ by lia. rewrite <- minus_IZR, <- mult_IZR. apply IZR_le. vm_compute. discriminate.
Qed.
Lemma expo_small x : is_double x -> sig6 x <> 0 -> (Z.abs (dexpo (sig6 x)) < 1000)%Z.
Proof.
  intros Dx N6. unfold dexpo. assert (N : x <> 0). { intros ->. apply N6. apply round_0. apply _. }
  pose proof (double_bounds x Dx N) as B. assert (L : bpow radix10 (-400) <= Rabs (sig6 x)).
  { apply abs_round_ge_generic; try apply _; [apply generic_format_bpow; unfold FLX_exp; lia|]. eapply Rle_trans; [|exact B]. change (-400)%Z with (- (400))%Z. change (-1074)%Z with (- (1074))%Z. rewrite !bpow_neg by lia. apply Rinv_le; [apply IZR_lt; reflexivity|]. apply IZR_le. vm_compute. discriminate. }
  assert (U : Rabs (sig6 x) < bpow radix10 400). { eapply Rle_lt_trans; [now apply sig6_top|]. unfold top6. rewrite !bpow_pos_ by lia. rewrite <- mult_IZR. apply IZR_lt. vm_compute. reflexivity. }
  pose proof (mag_ge_bpow radix10 (sig6 x) (-399) L). pose proof (mag_le_bpow radix10 (sig6 x) 400 N6 U). lia.
Qed.
(** What a printed double reads back as. *)
Notation reread6 := (reread (D := Rdt) print6 strtod).
Notation printable6 := (printable (D := Rdt) print6 strtod).
Lemma strtod_print x : is_double x -> strtod (print6 x) = (rnd64 (sig6 x), true).
Proof.
  intros Dx. unfold strtod. rewrite svalue_print by now apply expo_small. cbn zeta. destruct (Rlt_dec (Rabs (rnd64 (sig6 x))) (bpow radix2 1024)) as [L|L]; [reflexivity|]. exfalso. apply L. now apply rnd64_fits.
Qed.
Lemma reread_print x : is_double x -> reread6 x = rnd64 (sig6 x).
Proof. intros Dx. unfold reread. rewrite strtod_print by assumption. reflexivity. Qed.
Lemma print_numeral x : numeral (print6 x).
Proof.
  unfold print6. set (d := sig6 x). destruct (Req_EM_T d 0); [split; [discriminate|reflexivity]|]. destruct (gtext_head (dmant d) (dexpo d)) as (c & r & EG & Dc). split; [rewrite EG; destruct (Rlt_dec d 0); discriminate|].
  destruct (Rlt_dec d 0); cbn [app take_num].
  - change (is_sign "-") with true. cbn iota. rewrite take_gtext. reflexivity.
  - pose proof (take_gtext (dmant d) (dexpo d)) as T. unfold take_num. rewrite EG in T |- *. rewrite (proj1 (digit_not c Dc)). exact T.
Qed.
Lemma printable_double x : is_double x -> printable6 x.
Proof. intros Dx. split; [apply print_numeral|]. rewrite strtod_print by assumption. reflexivity. Qed.

(** Six-digit decimals survive rounding to double. *)
Lemma sig6_rnd64 d : generic_format radix10 (FLX_exp 6) d -> bpow radix2 (-1022) <= Rabs d -> sig6 (rnd64 d) = d.
Proof.
  intros F B. set (x := rnd64 d). set (f := sig6 x). assert (N : d <> 0). { intros ->. rewrite Rabs_R0 in B. pose proof (bpow_gt_0 radix2 (-1022)). lra. }
  assert (E1 : Rabs (x - d) <= / 2 * bpow radix2 (-52) * Rabs d) by (apply (relative_error_N_FLT radix2 (-1074) 53 eq_refl); exact B).
  assert (E2 : Rabs (f - x) <= Rabs (d - x)) by (apply (round_N_pt radix10 (FLX_exp 6)); exact F).
  assert (E3 : Rabs (f - d) <= bpow radix2 (-52) * Rabs d).
  { replace (f - d) with ((f - x) + (x - d)) by ring. eapply Rle_trans; [apply Rabs_triang|]. rewrite (Rabs_minus_sym d x) in E2. lra. }
  set (e := mag_val _ _ (mag radix10 d)). pose proof (bpow_mag_le radix10 d N) as M1. pose proof (bpow_mag_gt radix10 d) as M2. fold e in M1, M2.
  assert (S52 : bpow radix2 (-52) = / IZR (2 ^ 52)) by (change (-52)%Z with (- (52))%Z; now rewrite bpow_neg by lia).
  assert (S0 : 0 < bpow radix2 (-52) <= / 10000000000). { split; [apply bpow_gt_0|]. rewrite S52. apply Rinv_le; [lra|]. apply IZR_le. vm_compute. discriminate. }
  assert (Bf : bpow radix10 (e - 2) <= Rabs f).
  { assert (X : Rabs d - Rabs f <= Rabs (f - d)) by (rewrite Rabs_minus_sym; apply Rabs_triang_inv). replace (e - 1)%Z with (1 + (e - 2))%Z in M1 by lia. rewrite bpow_plus in M1. change (bpow radix10 1) with 10 in M1. pose proof (bpow_gt_0 radix10 (e - 2)).
    assert (bpow radix2 (-52) * Rabs d <= / 10000000000 * Rabs d) by (apply Rmult_le_compat_r; [apply Rabs_pos|apply S0]). lra. }
  assert (Mf : (e - 1 <= mag radix10 f)%Z) by (apply mag_ge_bpow; replace (e - 1 - 1)%Z with (e - 2)%Z by lia; exact Bf).
  assert (G : forall g, generic_format radix10 (FLX_exp 6) g -> (e - 1 <= mag radix10 g)%Z -> exists k, g = IZR k * bpow radix10 (e - 7)).
  { intros g Fg Mg. exists (Ztrunc (scaled_mantissa radix10 (FLX_exp 6) g) * 10 ^ (mag radix10 g - 6 - (e - 7)))%Z. rewrite Fg at 1. unfold F2R. cbn [Fnum Fexp]. rewrite mult_IZR, Rmult_assoc. f_equal.
    rewrite (IZR_Zpower radix10) by lia. rewrite <- bpow_plus. f_equal. unfold cexp, FLX_exp. lia. }
  destruct (G f (sig6_format x) Mf) as [kf Ef]. destruct (G d F ltac:(fold e; lia)) as [kd Ed].
  assert (K : kf = kd).
  { assert (Pe : 0 < bpow radix10 (e - 7)) by apply bpow_gt_0. assert (A : Rabs (f - d) = IZR (Z.abs (kf - kd)) * bpow radix10 (e - 7)). { rewrite Ef, Ed at 1. rewrite <- Rmult_minus_distr_r, Rabs_mult, <- minus_IZR, <- abs_IZR. rewrite (Rabs_right (bpow _ _)) by lra. reflexivity. }
    rewrite A in E3. replace e with (7 + (e - 7))%Z in M2 by lia. rewrite bpow_plus in M2. change (bpow radix10 7) with 10000000 in M2.
    assert (C : IZR (Z.abs (kf - kd)) * bpow radix10 (e - 7) < 1 * bpow radix10 (e - 7)). { assert (bpow radix2 (-52) * Rabs d <= / 10000000000 * Rabs d) by (apply Rmult_le_compat_r; [apply Rabs_pos|apply S0]). lra. }
    apply Rmult_lt_reg_r in C; [|exact Pe]. apply lt_IZR in C. lia. }
  rewrite Ef, Ed, K. reflexivity.
Qed.

(** ** Specification *)
(** A weight as training produces it: a double, zero or not vanishingly small. *)
Definition ordinary (w : R) : Prop := is_double w /\ (w = 0 \/ bpow radix2 (-1021) <= Rabs w).
(** w has at most six significant decimal digits: w = m 10^k with |m| < 10^6. *)
Definition six_digits (w : R) : Prop := exists m k : Z, (Z.abs m < 10 ^ 6)%Z /\ w = IZR m * bpow radix10 k.
(** the nearest double *)
Definition nearest_double (d w : R) : Prop := is_double w /\ forall v, is_double v -> Rabs (w - d) <= Rabs (v - d).

Lemma six_format w : six_digits w <-> generic_format radix10 (FLX_exp 6) w.
Proof.
  split.
  - intros (m & k & Hm & ->). apply generic_format_FLX. exists (Float radix10 m k); [reflexivity|exact Hm].
  - intros F. apply FLX_format_generic in F; [|apply _]. destruct F as [[m k] E Hm]. exists m, k. split; [exact Hm|exact E].
Qed.
Lemma sig6_big w : bpow radix2 (-1021) <= Rabs w -> bpow radix2 (-1022) <= Rabs (sig6 w).
Proof.
  intros B. pose proof (relative_error_N_FLX radix10 6 eq_refl (fun n => negb (Z.even n)) w) as E. fold (sig6 w) in E. change (bpow radix10 (- (6) + 1)) with (/ IZR 100000) in E.
  assert (X : Rabs w - Rabs (sig6 w) <= Rabs (sig6 w - w)) by (rewrite Rabs_minus_sym; apply Rabs_triang_inv). change (-1021)%Z with (1 + -1022)%Z in B. rewrite bpow_plus in B. change (bpow radix2 1) with 2 in B. pose proof (bpow_gt_0 radix2 (-1022)). lra.
Qed.
Lemma rnd64_double w : is_double w -> is_double (rnd64 (sig6 w)).
Proof. intros Dw. split; [apply generic_format_round; apply _|now apply rnd64_fits]. Qed.
Lemma sig6_again w : ordinary w -> sig6 (rnd64 (sig6 w)) = sig6 w.
Proof.
  intros [Dw [-> | B]].
  - assert (Z : sig6 0 = 0) by (apply round_0; apply _). rewrite Z. assert (Z' : rnd64 0 = 0) by (apply round_0; apply _). rewrite Z'. exact Z.
  - apply sig6_rnd64; [apply sig6_format|now apply sig6_big].
Qed.
Lemma rel_bound w : ordinary w -> Rabs (rnd64 (sig6 w) - w) <= Rabs w / 199999.
Proof.
  intros [Dw [-> | B]].
  - assert (Z : sig6 0 = 0) by (apply round_0; apply _). rewrite Z. assert (Z' : rnd64 0 = 0) by (apply round_0; apply _). rewrite Z', Rminus_0_r, Rabs_R0. lra.
  - pose proof (relative_error_N_FLX radix10 6 eq_refl (fun n => negb (Z.even n)) w) as E. fold (sig6 w) in E. change (bpow radix10 (- (6) + 1)) with (/ IZR 100000) in E.
    assert (E1 : Rabs (rnd64 (sig6 w) - sig6 w) <= / 2 * bpow radix2 (-52) * Rabs (sig6 w)) by (apply (relative_error_N_FLT radix2 (-1074) 53 eq_refl); exact (sig6_big w B)).
    assert (S52 : bpow radix2 (-52) <= / 1000000000000000). { change (-52)%Z with (- (52))%Z. rewrite bpow_neg by lia. apply Rinv_le; [lra|]. apply IZR_le. vm_compute. discriminate. }
    pose proof (bpow_gt_0 radix2 (-52)) as P0. pose proof (Rabs_pos w) as P1. pose proof (Rabs_pos (sig6 w)) as P2.
    assert (U : Rabs (sig6 w) <= 2 * Rabs w). { assert (Rabs (sig6 w) - Rabs w <= Rabs (sig6 w - w)) by apply Rabs_triang_inv. lra. }
    assert (E2 : / 2 * bpow radix2 (-52) * Rabs (sig6 w) <= / 1000000000000000 * Rabs w).
    { replace (/ 2 * bpow radix2 (-52) * Rabs (sig6 w)) with (bpow radix2 (-52) * (/ 2 * Rabs (sig6 w))) by ring. apply Rmult_le_compat; lra. }
    replace (rnd64 (sig6 w) - w) with ((rnd64 (sig6 w) - sig6 w) + (sig6 w - w)) by ring. eapply Rle_trans; [apply Rabs_triang|]. lra.
Qed.
Lemma print_again w : ordinary w -> print6 (reread6 w) = print6 w.
Proof. intros O. rewrite reread_print by apply O. unfold print6. now rewrite sig6_again. Qed.

(** ** C79 *)
(** One weight: it is read without error, as the double nearest to its value rounded to six digits; the relative change is
    at most 1/199999; and printing the value read gives the same characters again. *)
Theorem C79_weight : forall w, ordinary w -> let w' := reread6 w in
  printable6 w /\ (exists d, six_digits d /\ (forall e, six_digits e -> Rabs (d - w) <= Rabs (e - w)) /\ nearest_double d w') /\
  Rabs (w' - w) <= Rabs w / 199999 /\ print6 w' = print6 w /\ reread6 w' = w'.
Proof.
  intros w O w'. assert (Dw : is_double w) by apply O. split; [now apply printable_double|]. assert (E : w' = rnd64 (sig6 w)) by now apply reread_print. split; [|split; [rewrite E; now apply rel_bound|split; [now apply print_again|]]].
  - exists (sig6 w). split; [apply six_format, sig6_format|]. split; [intros e He; apply (round_N_pt radix10 (FLX_exp 6)); now apply six_format|]. rewrite E. split; [now apply rnd64_double|].
    intros v [Fv _]. apply (round_N_pt radix2 (FLT_exp (-1074) 53)). exact Fv.
  - change (fst (strtod (print6 w')) = w'). unfold w'. rewrite (print_again w O). reflexivity.
Qed.
(** A weight survives exactly iff it is the double that some six-digit decimal rounds to. *)
Theorem C79_survives : forall w, ordinary w -> w <> 0 -> (reread6 w = w <-> exists d, six_digits d /\ bpow radix2 (-1022) <= Rabs d /\ rnd64 d = w).
Proof.
  intros w [Dw O] N. rewrite reread_print by assumption. split.
  - intros E. destruct O as [O|O]; [contradiction|]. exists (sig6 w). split; [apply six_format, sig6_format|]. split; [now apply sig6_big|exact E].
  - intros (d & Fd & Bd & E). rewrite <- E at 1. rewrite sig6_rnd64 by (try assumption; now apply six_format). exact E.
Qed.

Notation save6 := (net_save (D := Rdt) print6).
Notation load6 := (net_load (D := Rdt) strtod).
Lemma text_again (W : mat Rdt) : Forall ordinary (rowlist W) -> mat_text (D := Rdt) print6 (mmap (D := Rdt) reread6 W) = mat_text (D := Rdt) print6 W.
Proof.
  intros F. unfold mat_text. f_equal. rewrite rowlist_mmap. induction F as [|w l O F IH]; [reflexivity|]. cbn [map flat_map]. rewrite IH. f_equal. f_equal. exact (print_again w O).
Qed.
Lemma slots_split (n : net Rdt) (H : lheap Rdt) (Q : R -> Prop) : Forall Q (slots n H) -> (forall p, In p (n_hidden n) -> Forall Q (rowlist (hW H p))) /\ Forall Q (rowlist (l_W (o_l (n_output n)))).
Proof.
  unfold slots. intros F. apply Forall_app in F as [F1 F2]. split; [|exact F2]. intros p Hp. apply Forall_forall. intros w Hw. rewrite Forall_forall in F1. apply F1. apply in_flat_map. eauto.
Qed.
(** Saving a network and loading it into another one (or the same one) of the same sizes changes every weight by at most
    one part in 199999, and nothing but the weights; saving the result writes the same file again, character for
    character, so further saves and loads change nothing more. *)
Theorem C79_checkpoint : forall (n : net Rdt) (H : lheap Rdt) (n2 : net Rdt) (H2 : lheap Rdt),
  valid n H -> valid n2 H2 -> NoDup (n_hidden n2) -> same_sizes n H n2 H2 -> Forall ordinary (slots n H) ->
  exists txt n' H', save6 n H = Ok txt /\ load6 n2 H2 (Some txt) = Ok (n', H') /\ reweighted n2 H2 n' H' /\
    Forall2 (fun w w' => Rabs (w' - w) <= Rabs w / 199999) (slots n H) (slots n' H') /\
    save6 n' H' = Ok txt /\ load6 n' H' (Some txt) = Ok (n', H').
Proof.
  intros n H n2 H2 V V2 ND SS O. assert (PR : Forall printable6 (slots n H)) by (eapply Forall_impl; [|exact O]; intros w Hw; now apply printable_double, Hw).
  destruct (C47_layers (D := Rdt) print6 strtod n H n2 H2 V V2 ND SS PR) as (txt & n' & H' & S1 & L1 & RW1 & HL & OL). exists txt, n', H'. split; [exact S1|]. split; [exact L1|]. split; [exact RW1|].
  destruct (slots_split n H _ O) as [O1 O2]. assert (EH : n_hidden n' = n_hidden n2) by (rewrite (rw_net _ _ _ _ RW1); reflexivity).
  assert (V' : valid n' H'). { unfold valid in *. rewrite EH, (rw_len _ _ _ _ RW1). exact V2. }
  assert (SL : slots n' H' = map reread6 (slots n H)).
  { unfold slots. rewrite EH, OL, map_app, rowlist_mmap. f_equal. clear -HL. induction HL as [|p q l l' E F IH]; [reflexivity|]. cbn [flat_map]. rewrite map_app, IH, E, rowlist_mmap. reflexivity. }
  assert (S2 : save6 n' H' = Ok txt).
  { rewrite <- S1. unfold net_save. rewrite OL, text_again by assumption. rewrite EH.
    enough (X : mapM (fun p => h <- lget H' p ;; Ok (mat_text (D := Rdt) print6 (l_W (h_base h)))) (n_hidden n2) = mapM (fun p => h <- lget H p ;; Ok (mat_text (D := Rdt) print6 (l_W (h_base h)))) (n_hidden n)) by now rewrite X.
    unfold valid in V, V'. rewrite EH in V'. clear -HL O1 V V'. induction HL as [|p q l l' E F IH]; [reflexivity|]. inversion V as [|? ? Vp Vl]; subst. inversion V' as [|? ? Vq Vl']; subst. cbn [mapM].
    rewrite IH by (try assumption; intros; apply O1; now right). pose proof (O1 p (or_introl eq_refl)) as Op. unfold hW in E, Op. unfold lget.
    destruct (nth_error H p) as [h|] eqn:Eh; [|apply nth_error_None in Eh; lia]. destruct (nth_error H' q) as [h'|] eqn:Eh'; [|apply nth_error_None in Eh'; lia]. cbn [bind]. rewrite E, text_again by assumption. reflexivity. }
  split; [|split; [exact S2|]].
  - rewrite SL. clear -O. induction O as [|w l Ow O IH]; cbn [map]; constructor; auto. apply (C79_weight w Ow).
  - eapply (C47_identity (D := Rdt) print6 strtod); [exact V'|rewrite EH; exact ND| |apply (rw_wf _ _ _ _ RW1)| | |exact S2].
    + rewrite EH. intros p Hp. unfold valid in V2. rewrite Forall_forall in V2. specialize (V2 p Hp). destruct (nth_error H2 p) as [h|] eqn:Eh; [|apply nth_error_None in Eh; lia].
      destruct (rw_hid _ _ _ _ RW1 p h Eh Hp) as (w & E & _ & _ & Ww). unfold hW. rewrite E. destruct h as [[]|[[]]|[[[]] i]|[[] k]|[[] s]]; exact Ww.
    + rewrite SL. apply Forall_forall. intros w Hw. apply in_map_iff in Hw as (v & <- & Hv). rewrite Forall_forall in O. pose proof (O v Hv) as Ov. apply printable_double. rewrite reread_print by apply Ov. apply rnd64_double, Ov.
    + rewrite SL. intros w Hw. apply in_map_iff in Hw as (v & <- & Hv). rewrite Forall_forall in O. apply (C79_weight v (O v Hv)).
Qed.

(** ** The hypotheses can be met *)
Lemma sig6_pos x m X : (10 ^ 5 <= m < 10 ^ 6)%Z -> bpow radix10 X <= x -> x < bpow radix10 (X + 1) -> Rabs (x * bpow radix10 (5 - X) - IZR m) < / 2 -> sig6 x = IZR m * bpow radix10 (X - 5).
Proof.
  intros Hm L U N. assert (P : 0 < x) by (pose proof (bpow_gt_0 radix10 X); lra). assert (M : mag_val _ _ (mag radix10 x) = (X + 1)%Z). { apply mag_unique. rewrite Rabs_right by lra. replace (X + 1 - 1)%Z with X by lia. auto. }
  unfold sig6, round, F2R, scaled_mantissa, cexp. cbn [Fnum Fexp]. rewrite M. unfold FLX_exp. replace (- (X + 1 - 6))%Z with (5 - X)%Z by lia. replace (X + 1 - 6)%Z with (X - 5)%Z by lia. rewrite (Znearest_imp _ _ m) by exact N. reflexivity.
Qed.
Lemma print_pos x m X : (10 ^ 5 <= m < 10 ^ 6)%Z -> bpow radix10 X <= x -> x < bpow radix10 (X + 1) -> Rabs (x * bpow radix10 (5 - X) - IZR m) < / 2 -> print6 x = gtext m X.
Proof.
  intros Hm L U N. unfold print6. pose proof (sig6_format x) as F. rewrite (sig6_pos x m X Hm L U N) in *. set (d := IZR m * bpow radix10 (X - 5)) in *. assert (Pb : 0 < bpow radix10 (X - 5)) by apply bpow_gt_0. assert (Pm : 0 < IZR m) by (apply IZR_lt; lia).
  assert (P : 0 < d) by (apply Rmult_lt_0_compat; assumption). destruct (Req_EM_T d 0); [lra|]. destruct (Rlt_dec d 0); [lra|]. cbn [app].
  assert (EX : dexpo d = X). { unfold dexpo. enough (mag_val _ _ (mag radix10 d) = (X + 1)%Z) by lia. apply mag_unique. rewrite Rabs_right by lra. unfold d. replace (X + 1 - 1)%Z with (5 + (X - 5))%Z by lia. replace (X + 1)%Z with (6 + (X - 5))%Z by lia. rewrite !bpow_plus.
    change (bpow radix10 5) with (IZR (10 ^ 5)). change (bpow radix10 6) with (IZR (10 ^ 6)). split; [apply Rmult_le_compat_r; [lra|apply IZR_le; lia]|apply Rmult_lt_compat_r; [lra|apply IZR_lt; lia]]. }
  destruct (mant_exp d F) as [E _]; [lra|]. rewrite EX in *. rewrite Rabs_right in E by lra. unfold d in E at 1. apply Rmult_eq_reg_r in E; [|lra]. apply eq_IZR in E. now rewrite <- E.
Qed.
Definition str (l : list nat) : text := map ascii_of_nat l.
(** 1/2 prints as 0.5, 1234567 as 1.23457e+06 (and so comes back as 1234570), 2^-20 as 9.53674e-07. *)
Example C79_texts : print6 (1 / 2) = str [48; 46; 53]%nat /\ print6 1234567 = str [49; 46; 50; 51; 52; 53; 55; 101; 43; 48; 54]%nat /\ print6 (1 / 1048576) = str [57; 46; 53; 51; 54; 55; 52; 101; 45; 48; 55]%nat /\
  sig6 1234567 = 1234570.
Proof.
  assert (A : print6 1234567 = gtext 123457 6 /\ sig6 1234567 = 1234570).
  { assert (X : Rabs (1234567 * bpow radix10 (5 - 6) - IZR 123457) < / 2). { change (bpow radix10 (5 - 6)) with (/ 10). apply Rabs_def1; lra. }
    assert (Y : bpow radix10 6 <= 1234567) by (change (bpow radix10 6) with 1000000; lra). assert (Z : 1234567 < bpow radix10 (6 + 1)) by (change (bpow radix10 (6 + 1)) with 10000000; lra).
    split; [apply print_pos; auto; lia|]. rewrite (sig6_pos 1234567 123457 6) by (auto; lia). change (bpow radix10 (6 - 5)) with 10. lra. }
  destruct A as [A1 A2]. split; [|split; [rewrite A1; reflexivity|split; [|exact A2]]].
  - rewrite (print_pos (1 / 2) 500000 (-1)); [reflexivity|lia|change (bpow radix10 (-1)) with (/ 10); lra|change (bpow radix10 (-1 + 1)) with 1; lra|]. change (bpow radix10 (5 - -1)) with 1000000. apply Rabs_def1; lra.
  - rewrite (print_pos (1 / 1048576) 953674 (-7)); [reflexivity|lia|change (bpow radix10 (-7)) with (/ 10000000); lra|change (bpow radix10 (-7 + 1)) with (/ 1000000); lra|]. change (bpow radix10 (5 - -7)) with 1000000000000. apply Rabs_def1; lra.
Qed.
Lemma ordinary_int m : (Z.abs m < 2 ^ 53)%Z -> ordinary (IZR m).
Proof.
  intros Hm. split.
  - split; [apply generic_format_FLT; exists (Float radix2 m 0); [unfold F2R; cbn; ring|exact Hm|discriminate]|]. rewrite <- abs_IZR. rewrite bpow_pos_ by lia. apply IZR_lt. eapply Z.lt_trans; [exact Hm|]. vm_compute. reflexivity.
  - destruct (Z.eq_dec m 0) as [->|N]; [now left|right]. rewrite <- abs_IZR. apply Rle_trans with (bpow radix2 0); [apply bpow_le; lia|]. apply (IZR_le 1). lia.
Qed.
Definition ckl (W : mat Rdt) : layer Rdt := Layer.L (D := Rdt) 1%R 0%R identity mempty mempty mempty mempty W mempty.
Definition ckn : net Rdt := Net.N (D := Rdt) mempty quad_cost quad_costd (ckl mempty) [0%nat] (Layer.O (ckl (Mat (D := Rdt) 3 1 [1234567; 2; -3])) quad_cost quad_costd mempty).
Definition ckH : lheap Rdt := [HDense (ckl (Mat (D := Rdt) 2 2 [1; 2; 1; -1]))].
(** A network whose output layer has the weight 1234567: the hypotheses of C79_checkpoint hold, and the weight does not survive. *)
Example C79_example : valid ckn ckH /\ NoDup (n_hidden ckn) /\ same_sizes ckn ckH ckn ckH /\ Forall ordinary (slots ckn ckH) /\ In 1234567 (slots ckn ckH) /\ reread6 1234567 <> 1234567.
Proof.
  assert (O : ordinary 1234567) by (apply (ordinary_int 1234567); reflexivity).
  split; [repeat constructor|]. split; [repeat constructor; intros []|]. split; [repeat constructor|]. split; [|split].
  - change (slots ckn ckH) with [1; 1; 2; -1; 1234567; 2; -3]. repeat (apply Forall_cons; [apply ordinary_int; reflexivity|]). apply Forall_nil.
  - change (slots ckn ckH) with [1; 1; 2; -1; 1234567; 2; -3]. cbn. tauto.
  - rewrite reread_print by apply O. destruct C79_texts as (_ & _ & _ & ->). assert (E : rnd64 1234570 = 1234570) by (apply round_generic; [apply _|]; apply (ordinary_int 1234570); reflexivity). rewrite E. lra.
Qed.

(** ** Numbers out of range *)
Definition largest_double (m : R) : Prop := is_double m /\ forall e, is_double e -> Rabs e <= m.
Lemma dbl_max_largest : largest_double dbl_max.
Proof.
  assert (E : dbl_max = bpow radix2 1024 - bpow radix2 971). { unfold dbl_max. rewrite !bpow_pos_ by lia. rewrite <- minus_IZR, <- mult_IZR. f_equal. }
  split; [|intros e He; rewrite E; now apply double_max]. split.
  - apply generic_format_FLT. exists (Float radix2 (2 ^ 53 - 1) 971); [reflexivity|reflexivity|discriminate].
  - rewrite E. pose proof (bpow_gt_0 radix2 971). pose proof (bpow_lt radix2 971 1024 eq_refl). rewrite Rabs_right; lra.
Qed.
Lemma rnd64_big v : bpow radix2 1024 <= Rabs v -> bpow radix2 1024 <= Rabs (rnd64 v) /\ (rnd64 v < 0 <-> v < 0).
Proof.
  intros B. assert (G : generic_format radix2 (FLT_exp (-1074) 53) (bpow radix2 1024)) by (apply generic_format_bpow; unfold FLT_exp; lia). pose proof (bpow_gt_0 radix2 1024) as P. split; [apply abs_round_ge_generic; try apply _; assumption|].
  unfold rnd64. destruct (Rle_lt_dec 0 v) as [L|L].
  - rewrite Rabs_right in B by lra. assert (bpow radix2 1024 <= round radix2 (FLT_exp (-1074) 53) ZnearestE v) by (apply round_ge_generic; try apply _; assumption). lra.
  - rewrite Rabs_left in B by lra. assert (round radix2 (FLT_exp (-1074) 53) ZnearestE v <= - bpow radix2 1024) by (apply round_le_generic; try apply _; [now apply generic_format_opp|lra]). lra.
Qed.
(** A file (not written by save) with a number that no double can hold after the numbers ts: the first weights are those numbers, the
    next one is the largest double with the sign of the number, and all the rest are 0, even if they were in the file. *)
Theorem C79_overflow : forall (n : net Rdt) (H : lheap Rdt) ts a tok c g v, NoDup (n_hidden n) -> valid n H -> spaced ts a ->
  Forall (fun t => numeral t /\ snd (strtod t) = true) ts -> numeral tok -> is_ws c = true -> svalue tok = Some v -> bpow radix2 1024 <= Rabs v ->
  exists m n' H', largest_double m /\ load6 n H (Some (a ++ tok ++ c :: g)) = Ok (n', H') /\ reweighted n H n' H' /\
    ((v < 0 /\ slots n' H' = firstn (length (slots n H)) (map (fun t => fst (strtod t)) ts ++ (- m) :: repeat 0 (length (slots n H)))) \/
     (0 < v /\ slots n' H' = firstn (length (slots n H)) (map (fun t => fst (strtod t)) ts ++ m :: repeat 0 (length (slots n H))))).
Proof.
  intros n H ts a tok c g v ND V Sp F N W E B. destruct (rnd64_big v B) as [B1 B2]. pose proof (bpow_gt_0 radix2 1024) as P.
  assert (ST : strtod tok = ((if Rlt_dec v 0 then - dbl_max else dbl_max), false)).
  { unfold strtod. rewrite E. cbn zeta. destruct (Rlt_dec (Rabs (rnd64 v)) (bpow radix2 1024)); [lra|]. destruct (Rlt_dec (rnd64 v) 0), (Rlt_dec v 0); tauto || reflexivity. }
  assert (U : unreadable (D := Rdt) strtod (tok ++ c :: g) (fst (strtod tok))).
  { right. exists tok, (c :: g). destruct tok as [|x tok]; [destruct N; contradiction|]. change ((x :: tok) ++ c :: g) with (x :: (tok ++ c :: g)). rewrite skip_start by now apply numeral_start with tok. split; [discriminate|]. split; [|now rewrite ST].
    change (x :: tok ++ c :: g) with ((x :: tok) ++ c :: g). apply take_num_ws; [exact W|]. now rewrite (proj2 N). }
  destruct (C48_short (D := Rdt) strtod n H ts a (tok ++ c :: g) _ ND V Sp F U) as (n' & H' & E1 & R & SL). exists dbl_max, n', H'. split; [apply dbl_max_largest|]. split; [exact E1|]. split; [exact R|]. rewrite ST in SL. cbn [fst] in SL.
  assert (v <> 0) by (intros ->; rewrite Rabs_R0 in B; lra). destruct (Rlt_dec v 0) as [L|L]; [left|right]; (split; [lra|exact SL]).
Qed.
(** "-1e999" is such a number. *)
Example C79_overflow_example : let tok := str [45; 49; 101; 57; 57; 57]%nat in numeral tok /\ exists v, svalue tok = Some v /\ bpow radix2 1024 <= Rabs v /\ v < 0.
Proof.
  intros tok. split; [split; [discriminate|reflexivity]|]. exists (- (IZR 1 * bpow radix10 999)). split; [reflexivity|]. assert (Q : bpow radix2 1024 <= bpow radix10 999). { rewrite !bpow_pos_ by lia. apply IZR_le. vm_compute. discriminate. }
  pose proof (bpow_gt_0 radix10 999). rewrite Rmult_1_l, Rabs_Ropp, Rabs_right by lra. split; [exact Q|lra].
Qed.

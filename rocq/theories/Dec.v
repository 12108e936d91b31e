(** Dec.v - the text of a weight: what [out << w] writes and [in >> val] reads, for doubles seen as real numbers.
    Used by NeuralNet::save and NeuralNet::load (/repo/src/neuralnet.cpp:108, 115, 129-131, 142-144).

    [out << w] with the default precision is printf "%.6g" (C++17 [ostream.inserters.arithmetic], C11 7.21.6.1); glibc rounds
    correctly, ties to even. [conv] of SaveLoad.v is strtod on the characters num_get has accumulated; glibc rounds correctly.
    Not modelled: the sign of -0 (prints "-0", reads back as -0); inf and nan (they print as words, see C47_unreadable). *)
From Verif Require Import Base Mat SaveLoad RInst.
From Coq Require Import Arith Ascii ZArith Reals List Bool Lia Lra.
From Flocq Require Import Core.
Import ListNotations.
Local Open Scope Z_scope.

Definition radix10 : radix := Build_radix 10 eq_refl.
(** Rounding to 6 significant decimal digits, to nearest, ties to even. *)
Definition sig6 (x : R) : R := round radix10 (FLX_exp 6) ZnearestE x.
(** Rounding to binary64 (without the overflow to infinity). *)
Definition rnd64 (x : R) : R := round radix2 (FLT_exp (-1074) 53) ZnearestE x.
(** The finite doubles. *)
Definition is_double (x : R) : Prop := generic_format radix2 (FLT_exp (-1074) 53) x /\ (Rabs x < bpow radix2 1024)%R.
(** DBL_MAX = (2^53 - 1) 2^971 *)
Definition dbl_max : R := (IZR (2 ^ 53 - 1) * bpow radix2 971)%R.

(** ** Digits *)
(** the digit k as a character *)
Definition dchar (k : Z) : ascii := ascii_of_nat (48 + Z.to_nat k).
(** the last k decimal digits of m, most significant first *)
Fixpoint digits (k : nat) (m : Z) : list Z := match k with 0%nat => [] | S k' => digits k' (m / 10) ++ [m mod 10] end.
(** the number a list of digits stands for *)
Definition dval (l : list Z) : Z := fold_left (fun a d => 10 * a + d) l 0.
(** trailing zeros removed *)
Fixpoint strip (l : list Z) : list Z := match l with [] => [] | d :: r => match strip r with [] => if d =? 0 then [] else [d] | r' => d :: r' end end.
Definition dchars (l : list Z) : text := map dchar l.
(** a point followed by the digits, unless there are none *)
Definition point (l : list Z) : text := match l with [] => [] | _ => "."%char :: dchars l end.

(** ** printf "%.6g" of the number m 10^(X-5), 10^5 <= m < 10^6 (C11 7.21.6.1, conversion g without the # flag, P = 6) *)
Definition expo (X : Z) : text := "e"%char :: (if X <? 0 then "-"%char else "+"%char) :: dchars (digits (if Z.abs X <? 100 then 2 else 3) (Z.abs X)).
Definition gtext (m X : Z) : text :=
  let ds := digits 6 m in
  if (-4 <=? X) && (X <? 6)
  then if 0 <=? X
       then dchars (firstn (Z.to_nat (X + 1)) ds) ++ point (strip (skipn (Z.to_nat (X + 1)) ds))
       else "0"%char :: point (repeat 0 (Z.to_nat (- X - 1)) ++ strip ds)
  else dchars (firstn 1 ds) ++ point (strip (skipn 1 ds)) ++ expo X.
(** decimal exponent and 6-digit mantissa of a number that has 6 digits *)
Definition dexpo (d : R) : Z := mag radix10 d - 1.
Definition dmant (d : R) : Z := Ztrunc (scaled_mantissa radix10 (FLX_exp 6) (Rabs d)).
(** operator<<(ostream&, double), default format and precision *)
Definition print6 (x : R) : text :=
  let d := sig6 x in
  if Req_EM_T d 0 then ["0"%char]
  else (if Rlt_dec d 0 then ["-"%char] else []) ++ gtext (dmant d) (dexpo d).

(** ** strtod on the characters accumulated by num_get (a sign, digits, a point, an exponent; libstdc++ __convert_to_v: a
    token that strtod does not consume entirely gives 0 and failbit, an overflow gives +-DBL_MAX and failbit) *)
Fixpoint span (l : text) : list Z * text :=
  match l with
  | c :: r => if is_digit c then let '(a, b) := span r in (Z.of_nat (nat_of_ascii c) - 48 :: a, b) else ([], l)
  | [] => ([], [])
  end.
Definition dec (l : list Z) (k : Z) : R := (IZR (dval l) * bpow radix10 k)%R.
Definition value (u : text) : option R :=
  let '(ip, r) := span u in
  let '(fp, r2) := match r with c :: r' => if is_dot c then span r' else ([], r) | [] => ([], []) end in
  match ip ++ fp with
  | [] => None
  | ds => match r2 with
          | [] => Some (dec ds (- Z.of_nat (length fp)))
          | c :: r3 =>
              if is_exp c then
                let '(sg, r4) := match r3 with s :: r4 => if is_sign s then ((if Ascii.eqb s "-"%char then -1 else 1), r4) else (1, r3) | [] => (1, []) end in
                let '(ed, r5) := span r4 in
                match ed, r5 with
                | _ :: _, [] => Some (dec ds (sg * dval ed - Z.of_nat (length fp)))
                | _, _ => None
                end
              else None
          end
  end.
Definition svalue (t : text) : option R :=
  match t with
  | c :: r => if is_sign c then match value r with Some v => Some (if Ascii.eqb c "-"%char then - v else v)%R | None => None end else value t
  | [] => None
  end.
Definition strtod (t : text) : R * bool :=
  match svalue t with
  | None => (0%R, false)
  | Some v => let r := rnd64 v in
              if Rlt_dec (Rabs r) (bpow radix2 1024) then (r, true) else ((if Rlt_dec r 0 then - dbl_max else dbl_max)%R, false)
  end.

(** ** Digits: facts *)
Definition isdig (d : Z) : Prop := 0 <= d < 10.
Lemma digits_dig k : forall m, Forall isdig (digits k m).
Proof. induction k as [|k IH]; intros m; cbn [digits]; [constructor|]. apply Forall_app. split; [apply IH|]. constructor; [|constructor]. apply Z.mod_pos_bound. lia. Qed.
Lemma digits_len k : forall m, length (digits k m) = k.
Proof. induction k as [|k IH]; intros m; cbn [digits]; [reflexivity|]. rewrite app_length, IH. cbn. lia. Qed.
Lemma dval_app l1 l2 : dval (l1 ++ l2) = dval l1 * 10 ^ Z.of_nat (length l2) + dval l2.
Proof.
  unfold dval. rewrite fold_left_app. generalize (fold_left (fun a d => 10 * a + d) l1 0). intros z.
  revert z. induction l2 as [|d l2 IH] using rev_ind; intros z; cbn [fold_left length]; [rewrite Z.pow_0_r; lia|].
  rewrite !fold_left_app. cbn [fold_left]. rewrite (IH z). rewrite app_length. cbn [length]. rewrite Nat2Z.inj_add. rewrite Z.pow_add_r by lia. change (10 ^ Z.of_nat 1) with 10. lia.
Qed.
Lemma dval_digits k : forall m, dval (digits k m) = m mod 10 ^ Z.of_nat k.
Proof.
  induction k as [|k IH]; intros m; cbn [digits]; [change (10 ^ Z.of_nat 0) with 1; rewrite Z.mod_1_r; reflexivity|].
  rewrite dval_app, IH. cbn [length]. change (dval [m mod 10]) with (10 * 0 + m mod 10). change (10 ^ Z.of_nat 1) with 10.
  rewrite Nat2Z.inj_succ, Z.pow_succ_r by lia. rewrite Z.rem_mul_r by (try lia; apply Z.pow_nonzero; lia). lia.
Qed.
Lemma strip_zeros l : exists k, l = strip l ++ repeat 0 k.
Proof.
  induction l as [|d l [k E]]; [exists 0%nat; reflexivity|]. cbn [strip]. destruct (strip l) as [|c r] eqn:Es.
  - cbn in E. destruct (Z.eqb_spec d 0) as [->|]; [exists (S k); cbn; now rewrite E|exists k; cbn; now rewrite E].
  - exists k. cbn. now rewrite E.
Qed.
Lemma strip_dig l : Forall isdig l -> Forall isdig (strip l).
Proof. intros F. destruct (strip_zeros l) as [k E]. rewrite E in F. now apply Forall_app in F. Qed.
Lemma dval_zeros k : dval (repeat 0 k) = 0.
Proof. induction k as [|k IH]; [reflexivity|]. change (repeat 0 (S k)) with ([0] ++ repeat 0 k). rewrite dval_app, IH. reflexivity. Qed.
(** padding with zeros does not change the value *)
Lemma dec_zeros l k e : dec (l ++ repeat 0 k) (e - Z.of_nat k) = dec l e.
Proof.
  unfold dec. rewrite dval_app, dval_zeros, repeat_length, Z.add_0_r, mult_IZR. rewrite (IZR_Zpower radix10) by lia. rewrite Rmult_assoc, <- bpow_plus. do 2 f_equal. lia.
Qed.
Lemma dec_lead k l e : dec (repeat 0 k ++ l) e = dec l e.
Proof. unfold dec. rewrite dval_app, dval_zeros. reflexivity. Qed.

Lemma dchar_code d : isdig d -> Z.of_nat (nat_of_ascii (dchar d)) = d + 48.
Proof. intros [A B]. unfold dchar. rewrite nat_ascii_embedding by lia. lia. Qed.
Lemma dchar_digit d : isdig d -> is_digit (dchar d) = true.
Proof. intros H. pose proof (dchar_code d H) as E. unfold is_digit. destruct H. apply andb_true_intro. split; apply Nat.leb_le; lia. Qed.
Lemma digit_not c : is_digit c = true -> is_sign c = false /\ is_dot c = false /\ is_exp c = false /\ is_ws c = false.
Proof. destruct c as [[] [] [] [] [] [] [] []]; intros H; try discriminate H; repeat split; reflexivity. Qed.

Definition nodig (r : text) : Prop := match r with c :: _ => is_digit c = false | [] => True end.
Lemma span_dchars l r : Forall isdig l -> nodig r -> span (dchars l ++ r) = (l, r).
Proof.
  intros F N. induction F as [|d l Hd F IH]; cbn [dchars map app].
  - destruct r as [|c r]; [reflexivity|]. cbn [span]. cbn in N. rewrite N. reflexivity.
  - cbn [span]. rewrite dchar_digit by assumption. fold (dchars l). rewrite IH. rewrite dchar_code by assumption. do 2 f_equal. lia.
Qed.
Lemma span_all l : Forall isdig l -> span (dchars l) = (l, []).
Proof. intros F. rewrite <- (app_nil_r (dchars l)). apply span_dchars; [assumption|exact I]. Qed.

(** the three shapes of a printed number *)
Lemma value_point ip fp r : Forall isdig ip -> Forall isdig fp -> nodig r -> (forall c r', r = c :: r' -> is_dot c = false) ->
  (let '(ip', r1) := span (dchars ip ++ point fp ++ r) in let '(fp', r2) := match r1 with c :: r' => if is_dot c then span r' else ([], r1) | [] => ([], []) end in (ip', fp', r2)) = (ip, fp, r).
Proof.
  intros F1 F2 N Nd. destruct fp as [|d fp].
  - cbn [point app]. rewrite span_dchars by assumption. destruct r as [|c r]; [reflexivity|]. rewrite (Nd c r eq_refl). reflexivity.
  - cbn [point]. rewrite span_dchars by (try assumption; reflexivity). cbn [app]. change (is_dot ".") with true. cbn iota. rewrite span_dchars by assumption. reflexivity.
Qed.
Lemma value_fixed ip fp : Forall isdig ip -> Forall isdig fp -> ip <> [] -> value (dchars ip ++ point fp) = Some (dec (ip ++ fp) (- Z.of_nat (length fp))).
Proof.
  intros F1 F2 N. pose proof (value_point ip fp [] F1 F2 I ltac:(discriminate)) as V. rewrite app_nil_r in V. unfold value. destruct (span (dchars ip ++ point fp)) as [a r1].
  destruct (match r1 with c :: r' => if is_dot c then span r' else ([], r1) | [] => ([], []) end) as [b r2]. injection V as -> -> ->. destruct ip; [contradiction|reflexivity].
Qed.
Lemma value_sci ip fp X : Forall isdig ip -> Forall isdig fp -> ip <> [] -> Z.abs X < 1000 -> value (dchars ip ++ point fp ++ expo X) = Some (dec (ip ++ fp) (X - Z.of_nat (length fp))).
Proof.
  intros F1 F2 N HX. assert (ND : nodig (expo X)) by reflexivity. pose proof (value_point ip fp (expo X) F1 F2 ND) as V.
  assert (Nd : forall c r', expo X = c :: r' -> is_dot c = false) by (intros c r' E; injection E as <- _; reflexivity). specialize (V Nd).
  unfold value. destruct (span (dchars ip ++ point fp ++ expo X)) as [a r1]. destruct (match r1 with c :: r' => if is_dot c then span r' else ([], r1) | [] => ([], []) end) as [b r2]. injection V as -> -> ->.
  destruct ip as [|i ip]; [contradiction|]. cbn [app]. unfold expo at 1. cbn iota. change (is_exp "e") with true. cbn iota.
  set (k := if Z.abs X <? 100 then 2%nat else 3%nat). assert (DV : dval (digits k (Z.abs X)) = Z.abs X).
  { rewrite dval_digits. apply Z.mod_small. subst k. destruct (Z.ltb_spec (Z.abs X) 100); cbn; lia. }
  assert (DN : digits k (Z.abs X) <> []). { intros E. pose proof (digits_len k (Z.abs X)) as L. rewrite E in L. subst k. destruct (Z.abs X <? 100); discriminate. }
  destruct (Z.ltb_spec X 0) as [Hn|Hn]; [change (is_sign "-") with true; change (Ascii.eqb "-" "-") with true|change (is_sign "+") with true; change (Ascii.eqb "+" "-") with false]; cbn iota;
    rewrite span_all by apply digits_dig; destruct (digits k (Z.abs X)) as [|e0 e] eqn:ED; try contradiction; rewrite DV; do 2 f_equal; lia.
Qed.

(** What gtext prints reads back as exactly m 10^(X-5). *)
Lemma split_strip ds j : dec (firstn j ds ++ strip (skipn j ds)) (- Z.of_nat (length (strip (skipn j ds)))) = dec ds (- Z.of_nat (length ds - j)).
Proof.
  destruct (strip_zeros (skipn j ds)) as [k E]. rewrite <- (dec_zeros _ k). rewrite <- app_assoc, <- E, firstn_skipn. f_equal.
  assert (L : length (skipn j ds) = (length (strip (skipn j ds)) + k)%nat) by (rewrite E at 1; rewrite app_length, repeat_length; reflexivity). rewrite skipn_length in L. lia.
Qed.
Lemma dec_shift l e s : (dec l e * bpow radix10 s = dec l (e + s))%R.
Proof. unfold dec. now rewrite Rmult_assoc, <- bpow_plus. Qed.
Lemma value_gtext m X : 10 ^ 5 <= m < 10 ^ 6 -> Z.abs X < 1000 -> value (gtext m X) = Some (IZR m * bpow radix10 (X - 5))%R.
Proof.
  intros Hm HX. unfold gtext. set (ds := digits 6 m). assert (Fd : Forall isdig ds) by apply digits_dig. assert (Ld : length ds = 6%nat) by apply digits_len.
  assert (Dv : dval ds = m). { unfold ds. rewrite dval_digits. apply Z.mod_small. change (Z.of_nat 6) with 6. lia. }
  assert (Ff : forall j, Forall isdig (firstn j ds)) by (intros j; rewrite <- (firstn_skipn j ds) in Fd; now apply Forall_app in Fd).
  assert (Fs : forall j, Forall isdig (strip (skipn j ds))) by (intros j; apply strip_dig; rewrite <- (firstn_skipn j ds) in Fd; now apply Forall_app in Fd).
  assert (Fn : forall j, (1 <= j)%nat -> firstn j ds <> []). { intros j Hj E. apply (f_equal (@length Z)) in E. rewrite firstn_length, Ld in E. cbn in E. lia. }
  destruct ((-4 <=? X) && (X <? 6)) eqn:C.
  - apply andb_prop in C as [C1 C2]. apply Z.leb_le in C1. apply Z.ltb_lt in C2. destruct (Z.leb_spec 0 X) as [P|P].
    + rewrite value_fixed by (auto; apply Fn; lia). rewrite split_strip. f_equal. unfold dec. rewrite Dv. do 2 f_equal. lia.
    + change ("0"%char :: point (repeat 0 (Z.to_nat (- X - 1)) ++ strip ds)) with (dchars [0] ++ point (repeat 0 (Z.to_nat (- X - 1)) ++ strip ds)).
      rewrite value_fixed; [|repeat constructor; lia| |discriminate].
      2:{ apply Forall_app. split; [apply Forall_forall; intros z Hz; apply repeat_spec in Hz; rewrite Hz; split; lia|apply strip_dig, Fd]. }
      f_equal. change ([0] ++ repeat 0 (Z.to_nat (- X - 1)) ++ strip ds) with (repeat 0 (S (Z.to_nat (- X - 1))) ++ strip ds). rewrite dec_lead. pose proof (split_strip ds 0) as S. cbn [firstn skipn app] in S. rewrite Ld in S.
      rewrite app_length, repeat_length. replace (- Z.of_nat (Z.to_nat (- X - 1) + length (strip ds))) with (- Z.of_nat (length (strip ds)) + (X + 1)) by lia. rewrite <- dec_shift, S, dec_shift. unfold dec. rewrite Dv. do 2 f_equal. lia.
  - rewrite value_sci by (auto; apply Fn; lia). f_equal. pose proof (split_strip ds 1) as S. rewrite Ld in S. replace (X - Z.of_nat (length (strip (skipn 1 ds)))) with (- Z.of_nat (length (strip (skipn 1 ds))) + X) by lia.
    rewrite <- dec_shift, S, dec_shift. unfold dec. rewrite Dv. do 2 f_equal. lia.
Qed.

(** The number reader takes all of it. *)
Lemma take_digits l : forall mant dec sci pe r, Forall isdig l -> l <> [] ->
  take_body mant dec sci pe (dchars l ++ r) = (let '(a, b) := take_body true dec sci false r in (dchars l ++ a, b)).
Proof.
  induction l as [|d l IH]; intros mant dec sci pe r F N; [contradiction|]. inversion F as [|? ? Hd F']; subst. destruct (digit_not _ (dchar_digit d Hd)) as (S1 & S2 & S3 & _).
  cbn [dchars map app take_body]. rewrite S1, andb_false_r, dchar_digit by assumption. fold (dchars l). destruct l as [|d' l]; [cbn [dchars map app]; destruct (take_body true dec sci false r); reflexivity|].
  rewrite IH by (auto; discriminate). destruct (take_body true dec sci false r). reflexivity.
Qed.
Lemma take_point l : forall r, Forall isdig l -> take_body true false false false (point l ++ r) = (let '(a, b) := take_body true (match l with [] => false | _ => true end) false false r in (point l ++ a, b)).
Proof.
  intros r F. destruct l as [|d l]; [cbn; destruct (take_body true false false false r); reflexivity|]. cbn [point app take_body]. change (is_sign ".") with false. change (is_digit ".") with false. change (is_dot ".") with true. cbn [andb negb].
  rewrite take_digits by (auto; discriminate). destruct (take_body true true false false r). reflexivity.
Qed.
Lemma take_expo dec X : take_body true dec false false (expo X) = (expo X, []).
Proof.
  unfold expo. cbn [take_body]. change (is_sign "e") with false. change (is_digit "e") with false. change (is_dot "e") with false. change (is_exp "e") with true. cbn [andb negb].
  set (k := if Z.abs X <? 100 then 2%nat else 3%nat). assert (DN : digits k (Z.abs X) <> []). { intros E. pose proof (digits_len k (Z.abs X)) as L. rewrite E in L. subst k. destruct (Z.abs X <? 100); discriminate. }
  pose proof (digits_dig k (Z.abs X)) as F. rewrite <- (app_nil_r (dchars (digits k (Z.abs X)))).
  destruct (X <? 0); cbn [take_body]; [change (is_sign "-") with true|change (is_sign "+") with true]; cbn [andb]; rewrite take_digits by assumption; cbn [take_body]; rewrite !app_nil_r; reflexivity.
Qed.
Lemma take_gtext m X : take_body false false false false (gtext m X) = (gtext m X, []).
Proof.
  unfold gtext. set (ds := digits 6 m). assert (Fd : Forall isdig ds) by apply digits_dig. assert (Ld : length ds = 6%nat) by apply digits_len.
  assert (Ff : forall j, Forall isdig (firstn j ds)) by (intros j; rewrite <- (firstn_skipn j ds) in Fd; now apply Forall_app in Fd).
  assert (Fs : forall j, Forall isdig (strip (skipn j ds))) by (intros j; apply strip_dig; rewrite <- (firstn_skipn j ds) in Fd; now apply Forall_app in Fd).
  assert (Fn : forall j, (1 <= j)%nat -> firstn j ds <> []). { intros j Hj E. apply (f_equal (@length Z)) in E. rewrite firstn_length, Ld in E. cbn in E. lia. }
  assert (P : forall ip fp, Forall isdig ip -> ip <> [] -> Forall isdig fp -> take_body false false false false (dchars ip ++ point fp) = (dchars ip ++ point fp, [])).
  { intros ip fp F1 N F2. rewrite take_digits by assumption. rewrite <- (app_nil_r (point fp)). rewrite take_point by assumption. cbn [take_body]. now rewrite !app_nil_r. }
  destruct ((-4 <=? X) && (X <? 6)) eqn:C.
  - destruct (Z.leb_spec 0 X) as [Q|Q]; [apply P; auto; apply Fn; lia|].
    change ("0"%char :: point (repeat 0 (Z.to_nat (- X - 1)) ++ strip ds)) with (dchars [0] ++ point (repeat 0 (Z.to_nat (- X - 1)) ++ strip ds)). apply P; [repeat constructor; lia|discriminate|].
    apply Forall_app. split; [apply Forall_forall; intros z Hz; apply repeat_spec in Hz; rewrite Hz; split; lia|apply strip_dig, Fd].
  - rewrite take_digits by (auto; apply Fn; lia). rewrite take_point by auto. rewrite take_expo. reflexivity.
Qed.
Lemma gtext_head m X : exists c r, gtext m X = c :: r /\ is_digit c = true.
Proof.
  unfold gtext. set (ds := digits 6 m). assert (Fd : Forall isdig ds) by apply digits_dig. assert (Ld : length ds = 6%nat) by apply digits_len. destruct ds as [|d ds]; [discriminate|]. inversion Fd as [|? ? Hd _]; subst.
  destruct ((-4 <=? X) && (X <? 6)); [destruct (Z.leb_spec 0 X)|]; [|exists "0"%char; eexists; split; reflexivity|cbn; eexists; eexists; split; [reflexivity|now apply dchar_digit]].
  destruct (Z.to_nat (X + 1)) eqn:E; [lia|]. cbn. eexists; eexists; split; [reflexivity|now apply dchar_digit].
Qed.

(** ** Six-digit numbers *)
#[export] Instance prec6 : Prec_gt_0 6 := eq_refl.
#[export] Instance prec53 : Prec_gt_0 53 := eq_refl.
Lemma sig6_format x : generic_format radix10 (FLX_exp 6) (sig6 x).
Proof. apply generic_format_round; apply _. Qed.
Lemma mant_exp d : generic_format radix10 (FLX_exp 6) d -> d <> 0%R -> Rabs d = (IZR (dmant d) * bpow radix10 (dexpo d - 5))%R /\ 10 ^ 5 <= dmant d < 10 ^ 6.
Proof.
  intros F N. assert (Fa : generic_format radix10 (FLX_exp 6) (Rabs d)) by now apply generic_format_abs. assert (E : Rabs d = (IZR (dmant d) * bpow radix10 (dexpo d - 5))%R).
  { rewrite Fa at 1. unfold F2R, dmant, dexpo. cbn [Fnum Fexp]. do 2 f_equal. unfold cexp, FLX_exp. rewrite mag_abs. lia. }
  split; [exact E|]. pose proof (bpow_mag_le radix10 d N) as H1. pose proof (bpow_mag_gt radix10 d) as H2. set (e := mag_val radix10 d (mag radix10 d)) in *. assert (EX : dexpo d = e - 1) by reflexivity. rewrite E, EX in H1, H2.
  replace (e - 1) with (5 + (e - 1 - 5)) in H1 at 1 by lia. replace e with (6 + (e - 1 - 5)) in H2 at 2 by lia. rewrite bpow_plus in H1, H2. pose proof (bpow_gt_0 radix10 (e - 1 - 5)) as Pos.
  apply Rmult_le_reg_r in H1; [|exact Pos]. apply Rmult_lt_reg_r in H2; [|exact Pos]. change (bpow radix10 5) with (IZR (10 ^ 5)) in H1. change (bpow radix10 6) with (IZR (10 ^ 6)) in H2. split; [now apply le_IZR|now apply lt_IZR].
Qed.
Lemma svalue_print x : (sig6 x <> 0%R -> Z.abs (dexpo (sig6 x)) < 1000) -> svalue (print6 x) = Some (sig6 x).
Proof.
  intros HX. unfold print6. set (d := sig6 x) in *. destruct (Req_EM_T d 0) as [->|N].
  - unfold svalue. change (is_sign "0") with false. change (value (dchars [0] ++ point []) = Some 0%R). rewrite value_fixed by (try discriminate; repeat constructor; lia). f_equal. unfold dec. change (dval ([0] ++ [])) with 0. ring.
  - destruct (mant_exp d (sig6_format x) N) as [E M]. pose proof (value_gtext (dmant d) (dexpo d) M (HX N)) as V. rewrite <- E in V. destruct (Rlt_dec d 0) as [L|L].
    + cbn [app svalue]. change (is_sign "-") with true. change (Ascii.eqb "-" "-") with true. rewrite V. f_equal. rewrite Rabs_left by assumption. ring.
    + cbn [app]. destruct (gtext_head (dmant d) (dexpo d)) as (c & r & EG & Dc). unfold svalue. rewrite EG in V |- *. destruct (digit_not c Dc) as (S1 & _). rewrite S1, V. f_equal. apply Rabs_right. lra.
Qed.

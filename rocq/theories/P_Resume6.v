(** P_Resume6.v - C80 for doubles: when the six-digit file holds a network exactly. *)
From Coq Require Import Reals Lra Arith Ascii.
From Flocq Require Import Core.
From Verif Require Import Base Mat Act Layer Conv Misc Net NetP Trainer RInst SaveLoad P_Save ConfEq Dec P_Dec P_Resume.
Local Open Scope nat_scope.

(** A network whose weights are all doubles nearest to six-digit decimals (0.1, -2.5, 12.3456, ...) is saved exactly. *)
Theorem C80_sixdigits : forall (n : net Rdt) (H : lheap Rdt), (forall p, In p (n_hidden n) -> wf (hW H p)) -> wf (l_W (o_l (n_output n))) ->
  (forall w, In w (slots n H) -> ordinary w /\ (w = 0%R \/ exists d, six_digits d /\ (bpow radix2 (-1022) <= Rabs d)%R /\ rnd64 d = w)) -> saves_exactly (D := Rdt) print6 strtod n H.
Proof.
  intros n H W1 W2 HW. split; [|auto]. intros w Hw. destruct (HW w Hw) as [O C]. pose proof (C79_weight w O) as (P & _ & B & _). split; [exact P|]. destruct (Req_dec w 0) as [->|N].
  - rewrite Rabs_R0 in B. pose proof (Rabs_pos (reread6 0%R - 0)) as P0. assert (E : (Rabs (reread6 0%R - 0) = 0)%R) by lra. destruct (Req_dec (reread6 0%R - 0) 0) as [Z|Z]; [lra|]. apply Rabs_no_R0 in Z. contradiction.
  - destruct C as [C|C]; [contradiction|]. now apply (C79_survives w O N).
Qed.
(** Any network once saved and loaded is saved exactly from then on: the first reload may change the weights (C79), the
    second and later ones continue the training exactly. *)
Theorem C80_second : forall (n : net Rdt) (H : lheap Rdt) (n2 : net Rdt) (H2 : lheap Rdt), valid n H -> valid n2 H2 -> NoDup (n_hidden n2) -> same_sizes n H n2 H2 -> Forall ordinary (slots n H) ->
  exists txt n' H', net_save (D := Rdt) print6 n H = Ok txt /\ net_load (D := Rdt) strtod n2 H2 (Some txt) = Ok (n', H') /\ saves_exactly (D := Rdt) print6 strtod n' H'.
Proof.
  intros n H n2 H2 V V2 ND SS O. assert (PR : Forall printable6 (slots n H)) by (eapply Forall_impl; [|exact O]; intros w Hw; now apply printable_double, Hw).
  assert (SL : length (slots n2 H2) = length (slots n H)) by now apply same_sizes_len.
  destruct (C47_roundtrip (D := Rdt) print6 strtod n H n2 H2 V V2 ND SL PR) as (txt & n' & H' & S1 & L1 & RW1 & E). exists txt, n', H'. split; [exact S1|]. split; [exact L1|].
  assert (EH : n_hidden n' = n_hidden n2) by (rewrite (rw_net _ _ _ _ RW1); reflexivity). split; [|split].
  - rewrite E. intros w Hw. apply in_map_iff in Hw as (v & <- & Hv). rewrite Forall_forall in O. pose proof (O v Hv) as Ov. split; [|apply (C79_weight v Ov)].
    apply printable_double. rewrite reread_print by apply Ov. apply rnd64_double, Ov.
  - rewrite EH. intros p Hp. unfold valid in V2. rewrite Forall_forall in V2. specialize (V2 p Hp). destruct (nth_error H2 p) as [h|] eqn:Eh; [|apply nth_error_None in Eh; lia].
    destruct (rw_hid _ _ _ _ RW1 p h Eh Hp) as (w & Ew & _ & _ & Ww). unfold hW. rewrite Ew. destruct h as [[]|[[]]|[[[]] i]|[[] k]|[[] s]]; exact Ww.
  - apply (rw_wf _ _ _ _ RW1).
Qed.
(** One tenth is such a weight although it is not exactly a double. *)
Example C80_tenth : six_digits (1 / 10) /\ (bpow radix2 (-1022) <= Rabs (1 / 10))%R /\ ordinary (rnd64 (1 / 10)).
Proof.
  assert (B : (bpow radix2 (-4) <= 1 / 10)%R) by (cbn; lra).
  split; [exists 1%Z, (-1)%Z; split; [reflexivity|cbn; lra]|]. split.
  - rewrite Rabs_right by lra. apply Rle_trans with (bpow radix2 (-4)); [apply bpow_le; lia|exact B].
  - assert (G : (bpow radix2 (-4) <= rnd64 (1 / 10))%R) by (apply round_ge_generic; [apply _|apply _|apply generic_format_bpow; cbv; discriminate|exact B]).
    assert (G1 : (rnd64 (1 / 10) <= bpow radix2 0)%R) by (apply round_le_generic; [apply _|apply _|apply generic_format_bpow; cbv; discriminate|cbn; lra]).
    assert (P : (0 < bpow radix2 (-4))%R) by apply bpow_gt_0. assert (A : Rabs (rnd64 (1 / 10)) = rnd64 (1 / 10)) by (apply Rabs_right; lra). split.
    + split; [apply generic_format_round; apply _|]. rewrite A. eapply Rle_lt_trans; [exact G1|]. apply bpow_lt. lia.
    + right. rewrite A. eapply Rle_trans; [|exact G]. apply bpow_le. lia.
Qed.

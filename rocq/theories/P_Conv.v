(** P_Conv.v - C49, C50: the convolution layer's forward pass; C51: copying convolution layers. *)
From Coq Require Import Reals Lra.
From Verif Require Import Base Mat Act Layer Conv Misc Net NetP RInst RMat ConvP.
From Coq Require Import Arith.
Local Open Scope nat_scope.

Section Gen.
Context {D : dtype}.
Notation mat := (mat D).
Notation conv := (conv D).
Context (draw : D -> nat -> D) (junk : nat -> D).

(** number of window positions along a side of length [n] *)
Definition outdim (n sp st pad : nat) : nat := (n + 2 * pad - sp) / st + 1.
(** A convolution layer for [pnf] channels of [w] x [h] images, [nf] filters of [sp] x [sp], as the constructor makes it. *)
Record conv_ok (c : conv) (w h pnf nf sp st pad : nat) : Prop := COK {
  ok_w : cv_iw c = Z.of_nat w; ok_h : cv_ih c = Z.of_nat h; ok_pnf : cv_pnf c = Z.of_nat pnf; ok_nf : cv_nf c = Z.of_nat nf;
  ok_sp : cv_sp c = Z.of_nat sp; ok_st : cv_st c = Z.of_nat st; ok_pad : cv_pad c = Z.of_nat pad;
  ok_is : cv_isize c = Some (Z.of_nat (w * h));
  ok_ow : cv_ow c = Some (Z.of_nat (outdim w sp st pad)); ok_oh : cv_oh c = Some (Z.of_nat (outdim h sp st pad));
  ok_os : cv_osize c = Some (Z.of_nat (outdim w sp st pad * outdim h sp st pad));
  ok_Wr : nr (l_W (cv_l c)) = sp * pnf; ok_Wc : nc (l_W (cv_l c)) = sp * nf;
  ok_gr : nr (l_grad (cv_l c)) = sp * pnf; ok_gc : nc (l_grad (cv_l c)) = sp * nf }.
(** sizes that make sense and fit in an int *)
Definition sizes_ok (w h sp st pad : nat) : Prop :=
  1 <= w /\ 1 <= h /\ 1 <= sp /\ 1 <= st /\ sp <= w + 2 * pad /\ sp <= h + 2 * pad /\
  (Z.of_nat (w + 2 * pad) < INT_MAX)%Z /\ (Z.of_nat (h + 2 * pad) < INT_MAX)%Z /\ (Z.of_nat st <= INT_MAX)%Z.
Lemma conv_new_ok w h pnf nf sp st pad lr f : sizes_ok w h sp st pad ->
  exists c, conv_new draw junk (Z.of_nat w) (Z.of_nat h) (Z.of_nat pnf) (Z.of_nat nf) (Z.of_nat sp) (Z.of_nat st) (Z.of_nat pad) lr f = Ok c /\
    conv_ok c w h pnf nf sp st pad /\ l_act (cv_l c) = f /\ l_lrate (cv_l c) = lr.
Proof.
  intros (Hw & Hh & Hsp & Hst & Hb1 & Hb2 & _). unfold conv_new, layer_new. rewrite (proj2 (Z.leb_le 0 (Z.of_nat sp * Z.of_nat pnf - 1 + 1))), (proj2 (Z.leb_le 0 (Z.of_nat sp * Z.of_nat nf))) by nia.
  cbn [andb bind]. unfold idiv. rewrite (proj2 (Z.eqb_neq (Z.of_nat st) 0)) by lia. cbn [bind]. eexists. split; [reflexivity|]. cbn [l_act cv_l randominit set_W l_lrate]. split; [|split; reflexivity].
  replace (Z.of_nat w - Z.of_nat sp + 2 * Z.of_nat pad)%Z with (Z.of_nat (w + 2 * pad - sp)) by lia.
  replace (Z.of_nat h - Z.of_nat sp + 2 * Z.of_nat pad)%Z with (Z.of_nat (h + 2 * pad - sp)) by lia.
  rewrite !Z.quot_div_nonneg, <- !Nat2Z.inj_div by lia.
  constructor; cbn [cv_iw cv_ih cv_pnf cv_nf cv_sp cv_st cv_pad cv_isize cv_ow cv_oh cv_osize cv_l l_W l_grad randominit set_W randominit_w mmap mk nr nc mat_uninit]; try reflexivity; unfold outdim; try f_equal; lia.
Qed.

(** ** Specification of one output value *)
(** Padded pixel (u, v) of channel [ch], see [pixel] *)
Definition ppixel (pa : mat) (w h pad ch u v : nat) : D := padded pad h w (pixel pa w h ch) u v.
(** the sum over one window, filter (ch, k) *)
Definition conv_win (c : conv) (pa : mat) (w h sp pad ch k i j : nat) : D :=
  accu (mk sp sp (fun u v => dmul (ppixel pa w h pad ch (i + u) (j + v)) (at_ (l_W (cv_l c)) (ch * sp + u) (k * sp + v)))).
(** value of filter [k] at row [i], column [j], before the activation; positions that are not multiples of the stride
    are never written, so indeterminate memory is added up *)
Definition conv_val (c : conv) (pa : mat) (w h pnf sp st pad k i j : nat) : D :=
  fold_left (fun acc ch => dadd acc (if (i mod st =? 0) && (j mod st =? 0) then conv_win c pa w h sp pad ch k i j else junk (i * outdim w sp st pad + j))) (seq 0 pnf) d0.

Lemma conv_forward_gen (c : conv) w h pnf nf sp st pad pa : deqb (d := D) d0 d0 = true -> sizes_ok w h sp st pad -> conv_ok c w h pnf nf sp st pad -> nc pa = pnf * (w * h) ->
  let ow := outdim w sp st pad in let oh := outdim h sp st pad in
  exists imgs, conv_forward junk c pa = Ok (mk (nr pa) (ow * oh * nf) (fun _ q => act (l_act (cv_l c)) (conv_val c pa w h pnf sp st pad (q / (ow * oh)) (q mod (ow * oh) / ow) (q mod (ow * oh) mod ow))),
     cv_set c (set_a (cv_l c) (mk (nr pa) (ow * oh * nf) (fun _ q => conv_val c pa w h pnf sp st pad (q / (ow * oh)) (q mod (ow * oh) / ow) (q mod (ow * oh) mod ow)))) imgs) /\
     (1 <= pnf -> imgs = repeat (mk (h + 2 * pad) (w + 2 * pad) (ppixel pa w h pad (pnf - 1))) (nr pa)).
Proof.
  intros dz (Hw & Hh & Hsp & Hst & Hb1 & Hb2 & B1 & B2 & B3) K Hpa ow oh. unfold INT_MAX in *.
  assert (Ho : 1 <= ow * oh) by (unfold ow, oh, outdim; nia).
  unfold conv_forward. rewrite (ok_os _ _ _ _ _ _ _ _ K). fold ow. fold oh. cbn [rd bind]. unfold zerosZ. rewrite (ok_nf _ _ _ _ _ _ _ _ K). rewrite (proj2 (Z.ltb_ge _ 0)) by lia. cbn [bind].
  replace (Z.to_nat (Z.of_nat (ow * oh) * Z.of_nat nf)) with (ow * oh * nf) by lia.
  unfold cube_new. rewrite (ok_h _ _ _ _ _ _ _ _ K), (ok_w _ _ _ _ _ _ _ _ K), (ok_pad _ _ _ _ _ _ _ _ K). rewrite !(proj2 (Z.ltb_ge _ 0)) by lia. cbn [orb bind].
  replace (Z.to_nat (Z.of_nat h + 2 * Z.of_nat pad)) with (h + 2 * pad) by lia. replace (Z.to_nat (Z.of_nat w + 2 * Z.of_nat pad)) with (w + 2 * pad) by lia.
  pose (B := fun ch k p => if ((p / ow) mod st =? 0) && ((p mod ow) mod st =? 0) then conv_win c pa w h sp pad ch k (p / ow) (p mod ow) else junk p).
  destruct (forward_loop_mk dz w h pnf nf pad (ow * oh) c pa (ok_w _ _ _ _ _ _ _ _ K) (ok_h _ _ _ _ _ _ _ _ K) (ok_pnf _ _ _ _ _ _ _ _ K) (ok_nf _ _ _ _ _ _ _ _ K) (ok_pad _ _ _ _ _ _ _ _ K) Hw Hh Ho Hpa B
    (fun sl j k => w0 <- spatial_of (l_W (cv_l c)) (cv_sp c) j k ;; convolve junk (cv_st c) sl w0)) with (f0 := fun _ _ : nat => d0 (d := D)) (imgs0 := repeat (mat_uninit junk (h + 2 * pad) (w + 2 * pad)) (nr pa)) as (imgs & E & (L1 & L2) & L3).
  - intros ch k Hc Hk. unfold spatial_of. rewrite (ok_sp _ _ _ _ _ _ _ _ K), (ok_st _ _ _ _ _ _ _ _ K).
    replace (Z.of_nat ch * Z.of_nat sp)%Z with (Z.of_nat (ch * sp)) by lia. replace (Z.of_nat k * Z.of_nat sp)%Z with (Z.of_nat (k * sp)) by lia.
    replace ((Z.of_nat ch + 1) * Z.of_nat sp - 1)%Z with (Z.of_nat (ch * sp + sp) - 1)%Z by lia. replace ((Z.of_nat k + 1) * Z.of_nat sp - 1)%Z with (Z.of_nat (k * sp + sp) - 1)%Z by lia.
    rewrite submat_mk; [|lia|lia|rewrite (ok_Wr _ _ _ _ _ _ _ _ K); nia|rewrite (ok_Wc _ _ _ _ _ _ _ _ K); nia]. cbn [bind]. unfold image.
    rewrite convolve_mk by (auto; lia). fold (outdim w sp st pad) (outdim h sp st pad). fold ow oh. f_equal.
  - split; [apply repeat_length|]. apply Forall_forall. intros m Hm. apply repeat_spec in Hm as ->. split; reflexivity.
  - unfold zeros. rewrite E. cbn [bind]. exists imgs. split.
    + f_equal. f_equal.
      * unfold funcop, mmap. cbn [nr nc mk]. apply mk_ext. intros i q Hi Hq. rewrite at_mk by assumption. f_equal. unfold acc_ch, conv_val, B. fold ow.
        assert (X : q mod (ow * oh) = q mod (ow * oh) / ow * ow + q mod (ow * oh) mod ow) by (rewrite (Nat.mul_comm (q mod (ow * oh) / ow) ow); apply Nat.div_mod; unfold ow, outdim; lia). rewrite <- X. reflexivity.
      * unfold acc_ch, conv_val, B. fold ow. f_equal. f_equal. apply mk_ext. intros i q Hi Hq.
        assert (X : q mod (ow * oh) = q mod (ow * oh) / ow * ow + q mod (ow * oh) mod ow) by (rewrite (Nat.mul_comm (q mod (ow * oh) / ow) ow); apply Nat.div_mod; unfold ow, outdim; lia). rewrite <- X. reflexivity.
    + intros Hp. apply nth_error_ext. intros i. destruct (Nat.lt_ge_cases i (nr pa)) as [Hi|Hi].
      * rewrite L3 by assumption. symmetry. rewrite (nth_error_nth' _ (image w h pad pa (pnf - 1))) by now rewrite repeat_length. f_equal. unfold image, ppixel.
        assert (X : forall (x : mat) n k, k < n -> nth k (repeat x n) x = x) by (induction n as [|n IH]; intros [|k] Hk; cbn; auto; try lia; apply IH; lia). apply X. assumption.
      * rewrite (proj2 (nth_error_None imgs i)) by lia. symmetry. apply nth_error_None. now rewrite repeat_length.
Qed.

(** position (k, i, j) in an output row *)
Lemma position ow oh k i j : i < oh -> j < ow -> let q := k * (ow * oh) + (i * ow + j) in q / (ow * oh) = k /\ q mod (ow * oh) / ow = i /\ q mod (ow * oh) mod ow = j.
Proof.
  intros Hi Hj q. assert (P : i * ow + j < ow * oh) by nia. assert (M : q mod (ow * oh) = i * ow + j) by (unfold q; rewrite Nat.add_comm, Nat.mod_add, Nat.mod_small by lia; reflexivity).
  rewrite M. split; [unfold q; rewrite Nat.div_add_l, Nat.div_small by lia; lia|]. split; [rewrite Nat.div_add_l, Nat.div_small by lia; lia|rewrite Nat.add_comm, Nat.mod_add, Nat.mod_small by lia; reflexivity].
Qed.

Lemma in_range ow oh nf k i j : k < nf -> i < oh -> j < ow -> k * (ow * oh) + (i * ow + j) < ow * oh * nf.
Proof.
  intros Hk Hi Hj. assert (A : i * ow + j < ow * oh) by nia. set (m := ow * oh) in *. assert (k * m + m <= m * nf) by (replace (k * m + m) with (m * (k + 1)) by lia; apply Nat.mul_le_mono_l; lia). lia.
Qed.

(** * C50 *)
(** Any batch, any stride: all rows of the output are equal, and row [r] is computed from the interleaved columns of the
    whole batch (see [pixel]), not from row [r] of the input. *)
Theorem C50_rows : forall (c : conv) w h pnf nf sp st pad pa, deqb (d := D) d0 d0 = true -> sizes_ok w h sp st pad -> conv_ok c w h pnf nf sp st pad -> nc pa = pnf * (w * h) ->
  exists out c', conv_forward junk c pa = Ok (out, c') /\ nr out = nr pa /\ nc out = outdim w sp st pad * outdim h sp st pad * nf /\
  (forall r k i j, r < nr pa -> k < nf -> i < outdim h sp st pad -> j < outdim w sp st pad ->
     at_ out r (k * (outdim w sp st pad * outdim h sp st pad) + (i * outdim w sp st pad + j)) = act (l_act (cv_l c)) (conv_val c pa w h pnf sp st pad k i j)) /\
  (forall r r' q, r < nr pa -> r' < nr pa -> q < nc out -> at_ out r q = at_ out r' q).
Proof.
  intros c w h pnf nf sp st pad pa dz SZ K Hpa. destruct (conv_forward_gen c w h pnf nf sp st pad pa dz SZ K Hpa) as (imgs & E & _). eexists. eexists. split; [exact E|]. cbn [nr nc mk].
  split; [reflexivity|]. split; [reflexivity|]. split.
  - intros r k i j Hr Hk Hi Hj. destruct (position _ _ k i j Hi Hj) as (P1 & P2 & P3). rewrite at_mk; [|assumption|now apply in_range]. now rewrite P1, P2, P3.
  - intros r r' q Hr Hr' Hq. rewrite !at_mk by assumption. reflexivity.
Qed.
(** Stride >= 2: outputs whose row or column is not a multiple of the stride do not depend on the input or the weights
    at all: they are sums of indeterminate memory. *)
Theorem C50_stride : forall (c : conv) w h pnf nf sp st pad pa out c' r k i j, deqb (d := D) d0 d0 = true -> sizes_ok w h sp st pad -> conv_ok c w h pnf nf sp st pad -> nc pa = pnf * (w * h) ->
  conv_forward junk c pa = Ok (out, c') -> r < nr pa -> k < nf -> i < outdim h sp st pad -> j < outdim w sp st pad -> i mod st <> 0 \/ j mod st <> 0 ->
  at_ out r (k * (outdim w sp st pad * outdim h sp st pad) + (i * outdim w sp st pad + j)) =
  act (l_act (cv_l c)) (fold_left (fun acc _ => dadd acc (junk (i * outdim w sp st pad + j))) (seq 0 pnf) d0).
Proof.
  intros c w h pnf nf sp st pad pa out c' r k i j dz SZ K Hpa E Hr Hk Hi Hj Hm. destruct (C50_rows c w h pnf nf sp st pad pa dz SZ K Hpa) as (o & c2 & E2 & _ & _ & V & _). rewrite E in E2. injection E2 as <- <-.
  rewrite V by assumption. f_equal. unfold conv_val. destruct (Nat.eqb_spec (i mod st) 0), (Nat.eqb_spec (j mod st) 0); cbn [andb]; try reflexivity. exfalso. tauto.
Qed.

(** * C49: construction *)
(** Conv2DLayer(w, h, pnf, nf, sp, st, pad, lrate, f): the sizes, (sp*pnf) x (sp*nf) random weights of deviation parameter
    sqrt(sp*pnf), no regularisation, nothing computed yet; stride 0 is a division by zero, a negative filter count throws. *)
Theorem C49_new : forall lr f,
  (forall w h pnf nf sp st pad, sizes_ok w h sp st pad -> exists c, conv_new draw junk (Z.of_nat w) (Z.of_nat h) (Z.of_nat pnf) (Z.of_nat nf) (Z.of_nat sp) (Z.of_nat st) (Z.of_nat pad) lr f = Ok c /\
     conv_ok c w h pnf nf sp st pad /\ l_act (cv_l c) = f /\ l_lrate (cv_l c) = lr /\ l_lambda (cv_l c) = dofZ 0 /\ l_z (cv_l c) = mempty /\ l_a (cv_l c) = mempty /\ l_delta (cv_l c) = mempty /\ cv_images c = [] /\
     l_W (cv_l c) = randominit_w draw (dsqrt (dofZ (Z.of_nat (sp * pnf)))) (zeros (sp * pnf) (sp * nf))) /\
  (forall iw ih pnf nf sp pad, (0 <= sp * pnf)%Z -> (0 <= sp * nf)%Z -> conv_new draw junk iw ih pnf nf sp 0 pad lr f = Undef DivZero) /\
  (forall iw ih pnf nf sp st pad, ~ ((0 <= sp * pnf)%Z /\ (0 <= sp * nf)%Z) -> conv_new draw junk iw ih pnf nf sp st pad lr f = Throw).
Proof.
  intros lr f. split; [|split].
  - intros w h pnf nf sp st pad SZ. destruct (conv_new_ok w h pnf nf sp st pad lr f SZ) as (c & E & K & A & R). exists c. split; [exact E|]. split; [exact K|]. split; [exact A|]. split; [exact R|].
    revert E. unfold conv_new, layer_new. destruct ((0 <=? _) && _)%Z; [|discriminate]. cbn [bind]. unfold idiv. destruct (Z.of_nat st =? 0)%Z; [discriminate|]. cbn [bind]. intros E. injection E as <-.
    cbn [cv_l l_lambda l_z l_a l_delta l_W cv_images randominit set_W]. do 5 (split; [reflexivity|]). unfold randominit_w. cbn [nr nc mmap zeros mat_uninit mk].
    replace (Z.to_nat (Z.of_nat sp * Z.of_nat pnf - 1 + 1)) with (sp * pnf) by lia. replace (Z.to_nat (Z.of_nat sp * Z.of_nat nf)) with (sp * nf) by lia. rewrite <- (Nat2Z.inj_mul sp pnf). reflexivity.
  - intros iw ih pnf nf sp pad H1 H2. unfold conv_new, layer_new. rewrite !(proj2 (Z.leb_le 0 _)) by lia. reflexivity.
  - intros iw ih pnf nf sp st pad H. unfold conv_new, layer_new. destruct (Z.leb_spec 0 (sp * pnf - 1 + 1)), (Z.leb_spec 0 (sp * nf)); cbn [andb]; try reflexivity. exfalso. lia.
Qed.

(** * C51 *)
(** The copy constructor (when it succeeds, as for every constructed layer): stride = filter size, fresh weights
    unrelated to the source's, output sizes never initialised - so using the copy reads indeterminate values. *)
Theorem C51_copy : forall (c : conv) w h pnf nf sp st pad, conv_ok c w h pnf nf sp st pad -> exists c', conv_copy draw junk c = Ok c' /\
  cv_st c' = cv_sp c /\ cv_iw c' = cv_iw c /\ cv_ih c' = cv_ih c /\ cv_pnf c' = cv_pnf c /\ cv_nf c' = cv_nf c /\ cv_sp c' = cv_sp c /\ cv_pad c' = cv_pad c /\
  l_W (cv_l c') = randominit_w draw d1 (mat_uninit junk (sp * pnf) (sp * nf)) /\ l_lambda (cv_l c') = dofZ 0 /\ l_lrate (cv_l c') = l_lrate (cv_l c) /\ l_act (cv_l c') = l_act (cv_l c) /\ cv_images c' = cv_images c /\
  (forall x, conv_forward junk c' x = Undef UninitRead) /\ (forall d, conv_backprop junk c' d = Undef UninitRead).
Proof.
  intros c w h pnf nf sp st pad K. unfold conv_copy, layer_new. rewrite (ok_sp _ _ _ _ _ _ _ _ K), (ok_pnf _ _ _ _ _ _ _ _ K), (ok_nf _ _ _ _ _ _ _ _ K).
  rewrite !(proj2 (Z.leb_le 0 _)) by lia. cbn [andb bind]. eexists. split; [reflexivity|]. cbn [conv_assign cv_st cv_iw cv_ih cv_pnf cv_nf cv_sp cv_pad cv_l].
  rewrite (ok_sp _ _ _ _ _ _ _ _ K), (ok_pnf _ _ _ _ _ _ _ _ K), (ok_nf _ _ _ _ _ _ _ _ K). repeat (split; [reflexivity|]).
  split; [cbn; do 2 f_equal; lia|]. do 4 (split; [reflexivity|]). split; reflexivity.
Qed.
(** Assignment replaces the stride by the filter size and keeps the destination's own weights, rates, activation and sizes. *)
Theorem C51_assign : forall dst src : conv, cv_st (conv_assign dst src) = cv_sp src /\ cv_l (conv_assign dst src) = cv_l dst /\
  cv_osize (conv_assign dst src) = cv_osize dst /\ cv_ow (conv_assign dst src) = cv_ow dst /\ cv_oh (conv_assign dst src) = cv_oh dst /\ cv_isize (conv_assign dst src) = cv_isize dst.
Proof. intros. repeat split. Qed.
(** Even self-assignment changes a layer (unless stride = filter size). *)
Theorem C51_self : forall c : conv, conv_assign c c = c <-> cv_st c = cv_sp c.
Proof. intros [l iw ih is ow oh os pnf nf sp st pad im]. unfold conv_assign. cbn. split; [intros H; now injection H|intros ->; reflexivity]. Qed.

(** A default-constructed layer has no sizes, and assigning a working layer to it does not give it any: both passes are undefined. *)
Theorem C51_default : forall c : conv, c = conv_default \/ (exists src, c = conv_assign conv_default src) ->
  cv_isize c = None /\ cv_ow c = None /\ cv_oh c = None /\ cv_osize c = None /\
  (forall x, conv_forward junk c x = Undef UninitRead) /\ (forall d, conv_backprop junk c d = Undef UninitRead).
Proof. intros c [-> | [src ->]]; repeat split. Qed.
(** The other members come from the source. *)
Theorem C51_assign_rest : forall dst src : conv, cv_iw (conv_assign dst src) = cv_iw src /\ cv_ih (conv_assign dst src) = cv_ih src /\
  cv_pnf (conv_assign dst src) = cv_pnf src /\ cv_nf (conv_assign dst src) = cv_nf src /\ cv_sp (conv_assign dst src) = cv_sp src /\
  cv_pad (conv_assign dst src) = cv_pad src /\ cv_images (conv_assign dst src) = cv_images src.
Proof. intros. repeat split. Qed.
(** Max pooling layers are copied the same way: the indexes come along, the stride becomes the filter size, and the copy cannot
    be used (its output size is uninitialised); an assigned layer keeps its own output size. *)
Theorem C51_maxpool_copy : forall (p : maxpool D) w h nf sp st, conv_ok (mp_c p) w h nf nf sp st 0 -> exists p', maxpool_copy draw junk p = Ok p' /\
  mp_indexes p' = mp_indexes p /\ cv_st (mp_c p') = cv_sp (mp_c p) /\ cv_iw (mp_c p') = cv_iw (mp_c p) /\ cv_ih (mp_c p') = cv_ih (mp_c p) /\
  cv_pnf (mp_c p') = cv_pnf (mp_c p) /\ cv_nf (mp_c p') = cv_nf (mp_c p) /\ cv_sp (mp_c p') = cv_sp (mp_c p) /\ cv_pad (mp_c p') = cv_pad (mp_c p) /\
  (forall x, maxpool_forward junk p' x = Undef UninitRead).
Proof.
  intros p w h nf sp st K. destruct (C51_copy (mp_c p) _ _ _ _ _ _ _ K) as (c' & E & A). unfold maxpool_copy. rewrite E. cbn [bind]. eexists. split; [reflexivity|].
  cbn [mp_c mp_indexes]. decompose [and] A. repeat (split; [congruence|]). intros x. match goal with Z0 : forall x, conv_forward _ c' x = _ |- _ => specialize (Z0 x); unfold conv_forward in Z0 end.
  unfold maxpool_forward. cbn [mp_c]. destruct (cv_osize c') as [os|] eqn:Eo; [|reflexivity]. exfalso.
  unfold conv_copy in E. apply bind_ok in E as (l & _ & E). injection E as <-. discriminate.
Qed.
Theorem C51_maxpool_assign : forall dst src : maxpool D, mp_indexes (maxpool_assign dst src) = mp_indexes src /\
  cv_st (mp_c (maxpool_assign dst src)) = cv_sp (mp_c src) /\ cv_sp (mp_c (maxpool_assign dst src)) = cv_sp (mp_c src) /\ cv_iw (mp_c (maxpool_assign dst src)) = cv_iw (mp_c src) /\
  cv_ih (mp_c (maxpool_assign dst src)) = cv_ih (mp_c src) /\ cv_pnf (mp_c (maxpool_assign dst src)) = cv_pnf (mp_c src) /\ cv_nf (mp_c (maxpool_assign dst src)) = cv_nf (mp_c src) /\
  cv_osize (mp_c (maxpool_assign dst src)) = cv_osize (mp_c dst) /\ cv_l (mp_c (maxpool_assign dst src)) = cv_l (mp_c dst).
Proof. intros. repeat split. Qed.

End Gen.

(** * C49, over the reals *)
(** Pixel (a, b) of channel [ch] of a single sample, zero outside: the channel is stored column by column. *)
Definition pixel1 (x : mat Rdt) (w h pad ch a b : nat) : R :=
  if (pad <=? a) && (a <? pad + h) && (pad <=? b) && (b <? pad + w) then at_ x 0 (ch * (w * h) + (b - pad) * h + (a - pad)) else 0%R.
Theorem C49_forward : forall (junk : nat -> R) (c : conv Rdt) w h pnf nf sp pad x, sizes_ok w h sp 1 pad -> conv_ok c w h pnf nf sp 1 pad -> nr x = 1 -> nc x = pnf * (w * h) ->
  let ow := w + 2 * pad - sp + 1 in let oh := h + 2 * pad - sp + 1 in
  exists out c', conv_forward (D := Rdt) junk c x = Ok (out, c') /\ nr out = 1 /\ nc out = nf * (ow * oh) /\
  forall k i j, k < nf -> i < oh -> j < ow ->
    at_ out 0 (k * (ow * oh) + i * ow + j) =
    act (l_act (cv_l c)) (sumN pnf (fun ch => sumN sp (fun u => sumN sp (fun v => pixel1 x w h pad ch (i + u) (j + v) * at_ (l_W (cv_l c)) (ch * sp + u) (k * sp + v))%R))).
Proof.
  intros junk c w h pnf nf sp pad x SZ K E1 E2 ow oh. assert (dz : deqb (d := Rdt) d0 d0 = true) by (cbn; unfold Reqb'; destruct (Req_EM_T 0 0); [reflexivity|contradiction]).
  destruct (C50_rows (D := Rdt) junk c w h pnf nf sp 1 pad x dz SZ K E2) as (out & c' & E & R1 & R2 & V & _). exists out, c'. split; [exact E|]. split; [congruence|].
  assert (Eow : outdim w sp 1 pad = ow) by (unfold outdim; now rewrite Nat.div_1_r). assert (Eoh : outdim h sp 1 pad = oh) by (unfold outdim; now rewrite Nat.div_1_r).
  rewrite Eow, Eoh in *. split; [lia|]. intros k i j Hk Hi Hj. rewrite <- Nat.add_assoc. rewrite V by (try assumption; lia). f_equal. unfold conv_val. rewrite !Nat.mod_1_r. cbn [Nat.eqb andb].
  rewrite (fold_left_sum (fun ch => conv_win (D := Rdt) c x w h sp pad ch k i j)). cbn [d0 Rdt]. rewrite Rplus_0_l. unfold sumN at 1. apply sumL_map_ext. intros ch _. unfold conv_win. rewrite accu_mk, sumN_swap.
  apply sumN_ext. intros u Hu. apply sumN_ext. intros v Hv. cbn [dmul Rdt]. f_equal. unfold ppixel, padded, pixel1. destruct (_ && _); [|reflexivity]. rewrite pixel_single by assumption. f_equal. lia.
Qed.

(** ** Concrete layers *)
Definition zj : nat -> Zdt := fun k => (1000 + Z.of_nat k)%Z.
Definition setW (c : conv Zdt) (W : mat Zdt) : conv Zdt := cv_set c (set_W (cv_l c) W) [].
Definition mkconv (w h pnf nf sp st pad : Z) (W : mat Zdt) : res (conv Zdt) :=
  c <- conv_new (D := Zdt) (fun _ k => Z.of_nat k) zj w h pnf nf sp st pad 1%Z identity ;; Ok (setW c W).
(** 3 x 2 images, one 2 x 2 filter *)
Definition exW : mat Zdt := Mat (D := Zdt) 2 2 [1; 2; 3; 4]%Z.
Definition run1 (st : Z) (x : mat Zdt) : option (list Z) := match mkconv 3 2 1 1 2 st 0 exW with Ok c => match conv_forward (D := Zdt) zj c x with Ok (o, _) => Some (el o) | _ => None end | _ => None end.
Example C49_hypotheses : exists c, mkconv 3 2 1 1 2 1 0 exW = Ok c /\ conv_ok c 3 2 1 1 2 1 0 /\ sizes_ok 3 2 2 1 0.
Proof.
  assert (S : sizes_ok 3 2 2 1 0) by (unfold sizes_ok, INT_MAX; lia).
  destruct (conv_new_ok (D := Zdt) (fun _ k => Z.of_nat k) zj 3 2 1 1 2 1 0 1%Z identity S) as (c & E & O & _). exists (setW c exW). split; [|split; [|exact S]].
  - unfold mkconv. refine (eq_trans (f_equal (fun r => bind r _) E) _). reflexivity.
  - destruct O. constructor; try assumption; reflexivity.
Qed.
(** one sample, image columns (1,2), (3,4), (5,6): 1*1+2*2+3*3+4*4 = 30 and 3*1+4*2+5*3+6*4 = 50 *)
Example C49_value : run1 1 (Mat (D := Zdt) 1 6 [1; 2; 3; 4; 5; 6]%Z) = Some [30; 50]%Z.
Proof. vm_compute. reflexivity. Qed.
(** two samples: changing the second sample changes the first output row, and both rows are equal *)
Example C50_batch : run1 1 (Mat (D := Zdt) 2 6 [1; 10; 2; 20; 3; 30; 4; 40; 5; 50; 6; 60]%Z) = Some [107; 107; 171; 171]%Z /\
  run1 1 (Mat (D := Zdt) 2 6 [1; 0; 2; 0; 3; 0; 4; 0; 5; 0; 6; 0]%Z) = Some [7; 7; 11; 11]%Z.
Proof. split; vm_compute; reflexivity. Qed.
(** stride 2 on a 5 x 5 image with a 1 x 1 filter: 3 x 3 outputs, of which only the four corners are computed *)
Definition run2 (x : mat Zdt) : option (list Z) := match mkconv 5 5 1 1 1 2 0 (Mat (D := Zdt) 1 1 [1%Z]) with Ok c => match conv_forward (D := Zdt) zj c x with Ok (o, _) => Some (el o) | _ => None end | _ => None end.
Example C50_stride_example : run2 (Mat (D := Zdt) 1 25 (map Z.of_nat (seq 0 25))) = Some [0; 1001; 10; 1003; 1004; 1005; 2; 1007; 12]%Z.
Proof. vm_compute. reflexivity. Qed.
(** the copy of a layer with stride 2 and 1 x 1 filters has stride 1 *)
Example C51_example : match mkconv 5 5 1 1 1 2 0 (Mat (D := Zdt) 1 1 [1%Z]) with Ok c => match conv_copy (D := Zdt) (fun _ k => Z.of_nat k) zj c with Ok c' => Some (cv_st c, cv_st c', cv_osize c, cv_osize c') | _ => None end | _ => None end = Some (2, 1, Some 9, None)%Z.
Proof. vm_compute. reflexivity. Qed.

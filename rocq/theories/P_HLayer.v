(** P_HLayer.v - C74: the other layer objects (convolution, pooling, normalisation, softmax) used on their own. *)
From Verif Require Import Base Mat Act Layer Conv Misc Net NetP.
From Coq Require Import Arith.
Local Open Scope nat_scope.

Section Generic.
Context {D : dtype}.
Notation mat := (mat D).
Notation layer := (layer D).
Notation hlayer := (hlayer D).
Context (draw : D -> nat -> D) (junk : nat -> D).

(** ** Calls on a layer object of any kind (layer.h:33-53, virtual functions dispatched) *)
Inductive hcall := HForward (x : mat) | HBackward (d : mat) | HUpdate | HUpdateWith (g : mat) | HSetW (w : mat) | HSetRate (r : D) | HSetLambda (r : D) | HRandom (s : D).
Definition hdo (h : hlayer) (c : hcall) : res (option mat * hlayer) :=
  match c with
  | HForward x => '(a, h') <- h_forward junk h x ;; Ok (Some a, h')
  | HBackward d => '(a, h') <- h_backprop junk h d ;; Ok (Some a, h')
  | HUpdate => h' <- h_update h ;; Ok (None, h')
  | HUpdateWith g => h' <- h_update_with h g ;; Ok (None, h')
  | HSetW w => Ok (None, h_with h (set_W (h_base h) w))
  | HSetRate r => Ok (None, h_with h (set_lrate (h_base h) r))
  | HSetLambda r => Ok (None, h_with h (set_lambda (h_base h) r))
  | HRandom s => Ok (None, h_randominit draw h s)
  end.
(** A program whose calls all return: the calls with what they returned, and the final object. *)
Fixpoint hrun (cs : list hcall) (h : hlayer) : res (list (hcall * option mat) * hlayer) :=
  match cs with [] => Ok ([], h) | c :: r => '(a, h1) <- hdo h c ;; '(l, h2) <- hrun r h1 ;; Ok ((c, a) :: l, h2) end.

(** ** Specification *)
Inductive kind := KDense | KConv | KMaxPool | KNorm | KSoftmax.
Definition kind_of (h : hlayer) : kind := match h with HDense _ => KDense | HConv _ => KConv | HMaxPool _ => KMaxPool | HNorm _ => KNorm | HSoftmax _ => KSoftmax end.
(** the sizes of a convolution or pooling layer: input and output sizes, filter counts, filter size, stride, padding *)
Definition sizes (h : hlayer) : option (Z * Z * option Z * option Z * option Z * option Z * Z * Z * Z * Z * Z) :=
  match h with
  | HConv c | HMaxPool (MP c _) => Some (cv_iw c, cv_ih c, cv_isize c, cv_ow c, cv_oh c, cv_osize c, cv_pnf c, cv_nf c, cv_sp c, cv_st c, cv_pad c)
  | _ => None end.
Definition hist := list (hcall * option mat).
Definition rate_of (r : D) (h : hist) : D := fold_left (fun r ca => match fst ca with HSetRate r' => r' | _ => r end) h r.
Definition lambda_of (r : D) (h : hist) : D := fold_left (fun r ca => match fst ca with HSetLambda r' => r' | _ => r end) h r.
(** what the last forwardprop returned *)
Definition last_out (m : option mat) (h : hist) : option mat := fold_left (fun m ca => match ca with (HForward _, Some a) => Some a | _ => m end) h m.
(** calls that may change the weights of a layer of kind k; the gradient and delta; z *)
Definition may_W (k : kind) (ca : hcall * option mat) : bool :=
  match fst ca, k with
  | HSetW _, _ => true
  | HRandom _, (KDense | KConv | KMaxPool) => true
  | (HUpdate | HUpdateWith _), (KDense | KConv) => true
  | _, _ => false end.
Definition may_grad (k : kind) (ca : hcall * option mat) : bool := match fst ca, k with HBackward _, (KDense | KConv) => true | _, _ => false end.
Definition may_z (k : kind) (ca : hcall * option mat) : bool := match fst ca, k with HForward _, (KDense | KNorm) => true | _, _ => false end.
Definition may_pa (k : kind) (ca : hcall * option mat) : bool := match fst ca, k with HForward _, KDense => true | _, _ => false end.
(** How geta() relates to the last value m that forwardprop returned. *)
Definition shows (k : kind) (l : layer) (a0 : mat) (m : option mat) : Prop :=
  match k, m with
  | _, None => l_a l = a0
  | (KConv | KMaxPool), Some m => m = funcop (l_a l) (act (l_act l))
  | KNorm, Some m => l_a l = m /\ l_z l = m
  | KDense, Some m => l_a l = m
  | KSoftmax, Some _ => l_a l = a0
  end.

(** ** Lemmas *)
Definition one (h : hlayer) (ca : hcall * option mat) (h' : hlayer) : Prop :=
  kind_of h' = kind_of h /\ sizes h' = sizes h /\ l_act (h_base h') = l_act (h_base h) /\
  l_lrate (h_base h') = rate_of (l_lrate (h_base h)) [ca] /\ l_lambda (h_base h') = lambda_of (l_lambda (h_base h)) [ca] /\
  (may_W (kind_of h) ca = false -> l_W (h_base h') = l_W (h_base h)) /\
  (may_grad (kind_of h) ca = false -> l_grad (h_base h') = l_grad (h_base h) /\ l_delta (h_base h') = l_delta (h_base h)) /\
  (may_z (kind_of h) ca = false -> l_z (h_base h') = l_z (h_base h)) /\ (may_pa (kind_of h) ca = false -> l_pa (h_base h') = l_pa (h_base h)) /\
  (forall a0 m, shows (kind_of h) (h_base h) a0 m -> shows (kind_of h) (h_base h') a0 (last_out m [ca])).
Lemma base_with (h : hlayer) l : h_base (h_with h l) = l. Proof. destruct h; reflexivity. Qed.
Lemma kind_with (h : hlayer) l : kind_of (h_with h l) = kind_of h. Proof. destruct h; reflexivity. Qed.
Lemma sizes_with (h : hlayer) l : sizes (h_with h l) = sizes h. Proof. destruct h as [?|?|[? ?]|?|?]; reflexivity. Qed.
Lemma shows_same k (l l' : layer) a0 m : l_a l' = l_a l -> l_act l' = l_act l -> l_z l' = l_z l -> shows k l a0 m -> shows k l' a0 m.
Proof. intros A B C. unfold shows. rewrite A, B, C. auto. Qed.
Lemma one_with (h : hlayer) c a l : l_act l = l_act (h_base h) -> l_lrate l = rate_of (l_lrate (h_base h)) [(c, a)] -> l_lambda l = lambda_of (l_lambda (h_base h)) [(c, a)] ->
  (may_W (kind_of h) (c, a) = false -> l_W l = l_W (h_base h)) -> l_grad l = l_grad (h_base h) -> l_delta l = l_delta (h_base h) -> l_z l = l_z (h_base h) -> l_pa l = l_pa (h_base h) -> l_a l = l_a (h_base h) ->
  (forall m, last_out m [(c, a)] = m) -> one h (c, a) (h_with h l).
Proof.
  intros A B C W G Dl Z P Aa Lo. unfold one. rewrite base_with, kind_with, sizes_with. repeat (split; [auto|]). intros a0 m. rewrite Lo. apply shows_same; auto.
Qed.
Lemma hdo_one h c a h' : hdo h c = Ok (a, h') -> one h (c, a) h'.
Proof.
  destruct c as [x|d| |g|w|r|r|s]; cbn [hdo]; intros E.
  - apply bind_ok in E as ([b h1] & E & K). injection K as <- <-. destruct h as [l|c|p|n|s]; cbn [h_forward] in E; apply bind_ok in E as ([b1 y] & E & K); injection K as -> <-; unfold one; cbn [kind_of h_base sizes may_W may_grad may_z may_pa fst rate_of lambda_of fold_left last_out].
    + unfold forwardprop in E. apply bind_ok in E as (pa & _ & E). apply bind_ok in E as (z & _ & E). injection E as <- <-. cbn. repeat split; try discriminate.
    + unfold conv_forward in E. apply bind_ok in E as (os & _ & E). apply bind_ok in E as (a0 & _ & E). apply bind_ok in E as (im & _ & E). apply bind_ok in E as ([a1 im1] & _ & E). injection E as <- <-. cbn. repeat split; try discriminate.
    + unfold maxpool_forward in E. apply bind_ok in E as (os & _ & E). apply bind_ok in E as (a0 & _ & E). apply bind_ok in E as (im & _ & E). apply bind_ok in E as (ix & _ & E). apply bind_ok in E as ([[a1 im1] ix1] & _ & E). injection E as <- <-. destruct p as [c ix0]. cbn. repeat split; try discriminate.
    + unfold norm_forward in E. apply bind_ok in E as (mx & _ & E). apply bind_ok in E as (mn & _ & E). apply bind_ok in E as (v & _ & E). injection E as <- <-. cbn. repeat split; try discriminate.
    + unfold soft_forward in E. apply bind_ok in E as (p & _ & E). injection E as <- <-. cbn. repeat split; try discriminate. intros a0 [m|]; cbn; auto.
  - apply bind_ok in E as ([b h1] & E & K). injection K as <- <-. destruct h as [l|c|p|n|s]; cbn [h_backprop] in E; apply bind_ok in E as ([b1 y] & E & K); injection K as -> <-; unfold one; cbn [kind_of h_base sizes may_W may_grad may_z may_pa fst rate_of lambda_of fold_left last_out].
    + unfold backprop in E. apply bind_ok in E as (dl & _ & E). apply bind_ok in E as (g & _ & E). apply bind_ok in E as (dw & _ & E). apply bind_ok in E as (r & _ & E). injection E as <- <-. cbn. repeat split; try discriminate. intros a0 m; auto.
    + unfold conv_backprop in E. apply bind_ok in E as (os & _ & E). apply bind_ok in E as (a0 & _ & E). apply bind_ok in E as ([a1 im1] & _ & E). injection E as <- <-. cbn. repeat split; try discriminate. intros a2 m; auto.
    + unfold maxpool_backprop in E. injection E as <- <-. repeat split; auto.
    + unfold norm_backprop in E. apply bind_ok in E as (v & _ & E). injection E as <- <-. cbn. repeat split; auto.
    + unfold soft_backprop in E. apply bind_ok in E as (p & _ & E). injection E as <- <-. repeat split; auto.
  - apply bind_ok in E as (h1 & E & K). injection K as <- <-. unfold h_update in E. destruct h as [l|c|p|n|s]; cbn [h_update_with] in E.
    + apply bind_ok in E as (l' & E & K). injection K as <-. unfold update_with in E. apply bind_ok in E as (w & _ & E). injection E as <-. apply (one_with (HDense l)); auto; discriminate.
    + apply bind_ok in E as (l' & E & K). injection K as <-. unfold update_with in E. apply bind_ok in E as (w & _ & E). injection E as <-. apply (one_with (HConv c)); auto; discriminate.
    + injection E as <-. unfold one. repeat split; auto.
    + injection E as <-. unfold one. repeat split; auto.
    + injection E as <-. unfold one. repeat split; auto.
  - apply bind_ok in E as (h1 & E & K). injection K as <- <-. destruct h as [l|c|p|n|s]; cbn [h_update_with] in E.
    + apply bind_ok in E as (l' & E & K). injection K as <-. unfold update_with in E. apply bind_ok in E as (w & _ & E). injection E as <-. apply (one_with (HDense l)); auto; discriminate.
    + apply bind_ok in E as (l' & E & K). injection K as <-. unfold update_with in E. apply bind_ok in E as (w & _ & E). injection E as <-. apply (one_with (HConv c)); auto; discriminate.
    + injection E as <-. unfold one. repeat split; auto.
    + injection E as <-. unfold one. repeat split; auto.
    + injection E as <-. unfold one. repeat split; auto.
  - injection E as <- <-. apply one_with; auto. destruct (kind_of h); discriminate.
  - injection E as <- <-. apply one_with; auto.
  - injection E as <- <-. apply one_with; auto.
  - injection E as <- <-. unfold h_randominit. destruct h as [l|c|p|n|s0]; try (apply one_with; auto; discriminate); unfold one; repeat split; auto.
Qed.

(** ** C74 *)
(** Every program of returning calls on a layer of any kind: the kind and the sizes stay; getlrate(), getlambda() are what was
    last set; the activation stays; weights, gradient, delta and z change only in the calls listed in the specification above -
    so the weights of a pooling, normalisation or softmax layer never learn; geta() is the last result of forwardprop before
    (convolution, max pooling) or after (Layer, NormLayer) the activation, and never changes for a SoftmaxLayer. *)
Theorem C74_programs : forall cs h ans h', hrun cs h = Ok (ans, h') ->
  map fst ans = cs /\ kind_of h' = kind_of h /\ sizes h' = sizes h /\ l_act (h_base h') = l_act (h_base h) /\
  l_lrate (h_base h') = rate_of (l_lrate (h_base h)) ans /\ l_lambda (h_base h') = lambda_of (l_lambda (h_base h)) ans /\
  (existsb (may_W (kind_of h)) ans = false -> l_W (h_base h') = l_W (h_base h)) /\
  (existsb (may_grad (kind_of h)) ans = false -> l_grad (h_base h') = l_grad (h_base h) /\ l_delta (h_base h') = l_delta (h_base h)) /\
  (existsb (may_z (kind_of h)) ans = false -> l_z (h_base h') = l_z (h_base h)) /\ (existsb (may_pa (kind_of h)) ans = false -> l_pa (h_base h') = l_pa (h_base h)) /\
  shows (kind_of h) (h_base h') (l_a (h_base h)) (last_out None ans).
Proof.
  intros cs h ans h' E. enough (G : map fst ans = cs /\ kind_of h' = kind_of h /\ sizes h' = sizes h /\ l_act (h_base h') = l_act (h_base h) /\
    l_lrate (h_base h') = rate_of (l_lrate (h_base h)) ans /\ l_lambda (h_base h') = lambda_of (l_lambda (h_base h)) ans /\
    (existsb (may_W (kind_of h)) ans = false -> l_W (h_base h') = l_W (h_base h)) /\
    (existsb (may_grad (kind_of h)) ans = false -> l_grad (h_base h') = l_grad (h_base h) /\ l_delta (h_base h') = l_delta (h_base h)) /\
    (existsb (may_z (kind_of h)) ans = false -> l_z (h_base h') = l_z (h_base h)) /\ (existsb (may_pa (kind_of h)) ans = false -> l_pa (h_base h') = l_pa (h_base h)) /\
    forall a0 m, shows (kind_of h) (h_base h) a0 m -> shows (kind_of h) (h_base h') a0 (last_out m ans)).
  { destruct G as (G1 & G2 & G3 & G4 & G5 & G6 & G7 & G8 & G9 & G10 & G11). repeat (split; [assumption|]). apply G11. destruct (kind_of h); reflexivity. }
  revert h ans h' E. induction cs as [|c cs IH]; intros h ans h' E; cbn [hrun] in E; [injection E as <- <-; cbn; repeat split; auto|].
  apply bind_ok in E as ([a h1] & E1 & E). apply bind_ok in E as ([l h2] & E2 & E). injection E as <- <-. apply hdo_one in E1. specialize (IH _ _ _ E2).
  destruct E1 as (S1 & S2 & S3 & S4 & S5 & S6 & S7 & S8 & S9 & S10). destruct IH as (I0 & I1 & I2 & I3 & I4 & I5 & I6 & I7 & I8 & I9 & I10). rewrite S1 in *.
  split; [cbn; now rewrite I0|]. split; [congruence|]. split; [congruence|]. split; [congruence|]. split; [rewrite I4, S4; reflexivity|]. split; [rewrite I5, S5; reflexivity|].
  split; [intros [A B]%orb_false_iff; rewrite I6, S6 by assumption; reflexivity|].
  split; [intros [A B]%orb_false_iff; destruct (I7 B), (S7 A); split; congruence|].
  split; [intros [A B]%orb_false_iff; rewrite I8, S8 by assumption; reflexivity|]. split; [intros [A B]%orb_false_iff; rewrite I9, S9 by assumption; reflexivity|].
  intros a0 m Hm. apply S10 in Hm. apply I10 in Hm. exact Hm.
Qed.
(** update on a convolution layer: W - lrate * grad if the sizes agree, else an exception; on the others (not Layer) nothing. *)
Theorem C74_update : forall h g, kind_of h <> KDense ->
  match kind_of h with
  | KConv => (nr (l_W (h_base h)) = nr g /\ nc (l_W (h_base h)) = nc g ->
        exists h', h_update_with h g = Ok h' /\ kind_of h' = KConv /\ sizes h' = sizes h /\ nr (l_W (h_base h')) = nr g /\ nc (l_W (h_base h')) = nc g /\
          forall i j, i < nr g -> j < nc g -> at_ (l_W (h_base h')) i j = dsub (at_ (l_W (h_base h)) i j) (dmul (l_lrate (h_base h)) (at_ g i j))) /\
      (~ (nr (l_W (h_base h)) = nr g /\ nc (l_W (h_base h)) = nc g) -> h_update_with h g = Throw)
  | _ => h_update_with h g = Ok h
  end.
Proof.
  intros h g Hk. destruct h as [l|c|p|n|s]; cbn [kind_of h_base]; try reflexivity; [now destruct Hk|]. cbn [h_update_with]. unfold update_with, msub, mscal. split.
  - intros [A B]. rewrite mzip_ok by assumption. cbn [bind]. eexists. split; [reflexivity|]. split; [reflexivity|]. split; [reflexivity|]. cbn [h_base h_with cv_set cv_l set_W l_W nr nc mk]. split; [exact A|]. split; [exact B|].
    intros i j Hi Hj. rewrite at_mk by lia. f_equal. now apply at_mmap.
  - intros N. rewrite mzip_throw; [reflexivity|exact N].
Qed.
(** backprop of a max pooling layer returns its argument and changes nothing; of a mean pooling layer it returns an empty
    matrix, whatever the argument. *)
Theorem C74_pool_backprop : (forall (p : maxpool D) d, maxpool_backprop p d = Ok (d, p)) /\ (forall (c : conv D) d, exists r, meanpool_backprop c d = Ok (r, c) /\ nr r = 0 /\ nc r = 0).
Proof. split; [reflexivity|]. intros c d. eexists. split; [reflexivity|]. split; reflexivity. Qed.
(** forwardprop of a mean pooling layer changes only geta() (the value before the activation) and the stored images. *)
Theorem C74_meanpool : forall (c : conv D) x a c', meanpool_forward junk c x = Ok (a, c') ->
  sizes (HConv c') = sizes (HConv c) /\ l_act (cv_l c') = l_act (cv_l c) /\ l_lrate (cv_l c') = l_lrate (cv_l c) /\ l_lambda (cv_l c') = l_lambda (cv_l c) /\ l_W (cv_l c') = l_W (cv_l c) /\
  l_grad (cv_l c') = l_grad (cv_l c) /\ l_delta (cv_l c') = l_delta (cv_l c) /\ l_z (cv_l c') = l_z (cv_l c) /\ a = funcop (l_a (cv_l c')) (act (l_act (cv_l c))).
Proof.
  intros c x a c' E. unfold meanpool_forward in E. apply bind_ok in E as (os & _ & E). apply bind_ok in E as (a0 & _ & E). apply bind_ok in E as (im & _ & E). apply bind_ok in E as ([a1 im1] & _ & E). injection E as <- <-. cbn. repeat split.
Qed.

(** A convolution layer with a negative stride: forwardprop of anything throws, if there is a row and the filter counts are
    positive. *)
Definition tame {A} (r : res A) : Prop := (exists a, r = Ok a) \/ r = Throw.
Lemma tame_bind {A B} (r : res A) (k : A -> res B) : tame r -> (forall a, r = Ok a -> k a = Throw) -> bind r k = Throw.
Proof. intros [[a ->]| ->] H; cbn; auto. Qed.
Lemma tame_fold {S A} (f : S -> A -> res S) l : (forall s a, tame (f s a)) -> forall s, tame (foldM f l s).
Proof. intros H. induction l as [|a l IH]; intros s; cbn; [left; eauto|]. destruct (H s a) as [[b ->]| ->]; cbn; [apply IH|now right]. Qed.
Lemma tame_bind' {A B} (r : res A) (k : A -> res B) : tame r -> (forall a, tame (k a)) -> tame (bind r k).
Proof. intros [[a ->]| ->] H; cbn; auto. now right. Qed.
Lemma tame_rows (m : mat) k v : tame (addrows m k v). Proof. unfold addrows, insert_rows. match goal with |- context [if ?b && ?c then _ else _] => destruct (b && c) end; [left; eauto|now right]. Qed.
Lemma tame_cols (m : mat) k v : tame (addcols m k v). Proof. unfold addcols, insert_cols. match goal with |- context [if ?b && ?c then _ else _] => destruct (b && c) end; [left; eauto|now right]. Qed.
Lemma out_dim_neg n k st : (-2147483648 <= st < 0)%Z -> out_dim n k st = Ok (to_int (((Z.of_nat n - Z.of_nat k) mod 2 ^ 64) / (st mod 2 ^ 64) + 1)%Z).
Proof. intros H. unfold out_dim. destruct (Z.eqb_spec st 0); [lia|reflexivity]. Qed.
Lemma zrange_S (n : Z) : (1 <= n)%Z -> exists l, zrange n = 0%Z :: l.
Proof. intros H. unfold zrange. replace (Z.to_nat n) with (S (Z.to_nat n - 1)) by lia. cbn [seq map]. eauto. Qed.
Theorem C50_negative_stride : forall (c : conv D) os x, cv_osize c = Some os -> (-2147483648 <= cv_st c < 0)%Z -> 1 <= nr x -> (1 <= cv_pnf c)%Z -> (1 <= cv_nf c)%Z -> conv_forward junk c x = Throw.
Proof.
  intros c os x Ho Hst Hx Hp Hn. unfold conv_forward. rewrite Ho. cbn [rd bind]. apply tame_bind; [unfold zerosZ; destruct (_ <? _)%Z; [now right|left; eauto]|]. intros a0 _.
  apply tame_bind; [unfold cube_new; destruct (_ || _); [now right|left; eauto]|]. intros im _.
  match goal with |- bind ?r _ = _ => enough (G : r = Throw) by (rewrite G; reflexivity) end. unfold forward_loop. replace (nr x) with (S (nr x - 1)) by lia. cbn [seq foldM]; cbv beta iota.
  match goal with |- bind ?r _ = _ => enough (G : r = Throw) by (rewrite G; reflexivity) end. destruct (zrange_S _ Hp) as [lp Ep]. rewrite Ep. cbn [foldM]; cbv beta iota.
  match goal with |- bind ?r _ = _ => enough (G : r = Throw) by (rewrite G; reflexivity) end.
  apply tame_bind; [unfold toimage, mcols; match goal with |- context [if ?b then _ else _] => destruct b end; cbn [bind]; [left; eauto|now right]|]. intros img _.
  apply tame_bind; [unfold addzeropadding; apply tame_bind'; [apply tame_fold; intros s i; apply tame_bind'; intros; apply tame_rows|intros m; apply tame_fold; intros s i; apply tame_bind'; intros; apply tame_cols]|]. intros pd _.
  apply tame_bind; [unfold set_slice; destruct (nth_error im 0); [match goal with |- context [if ?b then _ else _] => destruct b end; [left; eauto|now right]|now right]|]. intros im' _.
  match goal with |- bind ?r _ = _ => enough (G : r = Throw) by (rewrite G; reflexivity) end. destruct (zrange_S _ Hn) as [ln En]. rewrite En. cbn [foldM]; cbv beta iota.
  match goal with |- bind ?r _ = _ => enough (G : r = Throw) by (rewrite G; reflexivity) end.
  apply tame_bind; [unfold slice; destruct (nth_error im' 0); [left; eauto|now right]|]. intros sl _.
  match goal with |- bind ?r _ = _ => enough (G : r = Throw) by (rewrite G; reflexivity) end.
  apply tame_bind; [unfold spatial_of, submat; match goal with |- context [if ?b then _ else _] => destruct b end; [left; eauto|now right]|]. intros w _.
  unfold convolve. rewrite !out_dim_neg by assumption. cbn [bind]. apply tame_bind; [unfold row_uninit; destruct (_ <? _)%Z; [now right|left; eauto]|]. intros o _. rewrite (proj2 (Z.ltb_lt (cv_st c) 0)) by lia. reflexivity.
Qed.
End Generic.

(** ** Examples *)
(** A 3 x 3 one-channel convolution with relu: geta() is the value before relu, forwardprop's result the one after; update moves
    the weights; a NormLayer's weights do not move. *)
Definition zj (k : nat) : Z := 0%Z.
Definition zmm (r c : nat) (l : list Z) : mat Zdt := Mat (D := Zdt) r c l.
Definition exc : res (hlayer Zdt * list Z * list Z) :=
  c <- conv_new (D := Zdt) (fun _ k => Z.of_nat k) zj 2 2 1 1 1 1 0 1%Z relu ;;
  '(ans, h) <- hrun (D := Zdt) (fun _ k => Z.of_nat k) zj [HSetW (zmm 1 1 [3]%Z); HForward (zmm 1 4 [1; -1; 2; -2]%Z); HUpdateWith (zmm 1 1 [1]%Z)] (HConv c) ;;
  Ok (h, match last_out None ans with Some m => el m | None => [] end, el (l_a (h_base h))).
Example C74_example : match exc with Ok (h, out, a) => out = [3; 6; 0; 0]%Z /\ a = [3; 6; -3; -6]%Z /\ el (l_W (h_base h)) = [2]%Z | _ => False end.
Proof. vm_compute. repeat split. Qed.
Example C74_example_norm : match norm_new (D := Zdt) (fun _ k => Z.of_nat k) zj with Ok n => match hrun (D := Zdt) (fun _ k => Z.of_nat k) zj [HForward (zmm 1 2 [2; 4]%Z); HUpdateWith (zmm 5 5 []); HBackward (zmm 1 1 [6]%Z)] (HNorm (NL (nl_l n) (Some 0%Z))) with
   Ok (ans, h) => map snd ans = [Some (zmm 1 2 [1; 2]%Z); None; Some (zmm 1 1 [3]%Z)] /\ l_W (h_base h) = l_W (nl_l n) | _ => False end | _ => False end.
Proof. vm_compute. repeat split. Qed.
Example C50_example_negative : match conv_new (D := Zdt) (fun _ k => Z.of_nat k) zj 2 2 1 1 2 (-1) 0 1%Z relu with Ok c => cv_osize c = Some 1%Z /\ conv_forward (D := Zdt) zj c (zmm 1 4 [1; -1; 2; -2]%Z) = Throw | _ => False end.
Proof. vm_compute. repeat split. Qed.
Print Assumptions C74_programs. Print Assumptions C74_update. Print Assumptions C50_negative_stride.

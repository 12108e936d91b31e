(** P_LayerApi.v - C73: a Layer object used on its own. *)
From Verif Require Import Base Mat Act Layer Conv Misc Net NetP Trainer TrainP ExNet P_Train P_Batch Exc ExcP.
From Coq Require Import Arith.
Local Open Scope nat_scope.

Section Generic.
Context {D : dtype}.
Notation mat := (mat D).
Notation layer := (layer D).
Context (draw : D -> nat -> D) (junk : nat -> D).

(** ** Calls on a Layer object (layer.h:33-53); the caller catches exceptions and goes on. *)
Inductive call := Forward (x : mat) | Backward (d : mat) | Update | UpdateWith (g : mat) | SetW (w : mat) | SetRate (r : D) | SetLambda (r : D) | Randomize (s : D).
Inductive answer := Value (m : mat) | Done | Threw | Died.
Definition caught {A} (l : layer) (m : xr layer A) (k : A -> answer) : layer * answer :=
  match m with XOk l' a => (l', k a) | XThrow l' => (l', Threw) | XAbort | XUndef _ => (l, Died) end.
(** layer.cpp:53-101, layer.h:50-52 *)
Definition docall (l : layer) (c : call) : layer * answer :=
  match c with
  | Forward x => caught l (xforward l x) Value
  | Backward d => caught l (xbackprop l d) Value
  | Update => caught l (xupdate_with l (l_grad l)) (fun _ => Done)
  | UpdateWith g => caught l (xupdate_with l g) (fun _ => Done)
  | SetW w => (set_W l w, Done)
  | SetRate r => (set_lrate l r, Done)
  | SetLambda r => (set_lambda l r, Done)
  | Randomize s => (randominit draw s l, Done)
  end.
(** A program: the calls with their answers, in order, and the final object. *)
Fixpoint docalls (cs : list call) (l : layer) : list (call * answer) * layer :=
  match cs with [] => ([], l) | c :: r => let '(l1, a) := docall l c in let '(h, l2) := docalls r l1 in ((c, a) :: h, l2) end.

(** ** Specification: what each getter must return, from the history alone *)
Definition hist := list (call * answer).
Definition rate_of (r : D) (h : hist) : D := fold_left (fun r ca => match ca with (SetRate r', _) => r' | _ => r end) h r.
Definition lambda_of (r : D) (h : hist) : D := fold_left (fun r ca => match ca with (SetLambda r', _) => r' | _ => r end) h r.
(** what the last forwardprop that returned has returned *)
Definition output_of_hist (a : mat) (h : hist) : mat := fold_left (fun a ca => match ca with (Forward _, Value m) => m | _ => a end) h a.
(** the size of the weights: only setw changes it *)
Definition dims_of (d : nat * nat) (h : hist) : nat * nat := fold_left (fun d ca => match ca with (SetW w, _) => (nr w, nc w) | _ => d end) h d.
(** calls that may change the weights *)
Definition writes_W (ca : call * answer) : bool := match ca with (SetW _, _) | (Randomize _, _) | (Update, Done) | (UpdateWith _, Done) => true | _ => false end.
Definition writes_grad (ca : call * answer) : bool := match ca with (Backward _, _) => true | _ => false end.
Definition writes_za (ca : call * answer) : bool := match ca with (Forward _, Value _) => true | _ => false end.

(** ** Lemmas *)
Lemma fold_left_ext_in {A B} (f g : A -> B -> A) (l : list B) : (forall a b, In b l -> f a b = g a b) -> forall a, fold_left f l a = fold_left g l a.
Proof. induction l as [|b l IH]; intros E a; cbn; [reflexivity|]. rewrite E by now left. apply IH. intros. apply E. now right. Qed.
Lemma xforward_cases (l : layer) x : (exists a (l' : layer), xforward l x = XOk l' a /\ a = funcop (l_z l') (act (l_act l)) /\ l_a l' = a /\ l_lrate l' = l_lrate l /\ l_lambda l' = l_lambda l /\ l_act l' = l_act l /\ l_W l' = l_W l /\ l_grad l' = l_grad l /\ l_delta l' = l_delta l) \/
  (exists l' : layer, xforward l x = XThrow l' /\ l_z l' = l_z l /\ l_a l' = l_a l /\ l_lrate l' = l_lrate l /\ l_lambda l' = l_lambda l /\ l_act l' = l_act l /\ l_W l' = l_W l /\ l_grad l' = l_grad l /\ l_delta l' = l_delta l).
Proof.
  unfold xforward. assert (C : (exists pa, addcol x = Ok pa) \/ addcol x = Throw) by (unfold addcol, set_submat; destruct (_ && _); eauto).
  destruct C as [[pa ->]| ->]; cbn [xlift]; [|right; eexists; split; [reflexivity|]; repeat split].
  cbn [put_pa l_pa l_W]. unfold mmul. destruct (nc pa =? nr (l_W l)); cbn [xlift].
  - left. do 2 eexists. split; [reflexivity|]. cbn. repeat split.
  - right. eexists. split; [reflexivity|]. cbn. repeat split.
Qed.
Lemma mmul_cases (a b : mat) : (exists m, mmul a b = Ok m) \/ mmul a b = Throw.
Proof. unfold mmul. destruct (_ =? _); eauto. Qed.
Lemma xbackprop_cases (l : layer) d : (exists r (l' : layer), (xbackprop l d = XOk l' r \/ xbackprop l d = XThrow l') /\ l_z l' = l_z l /\ l_a l' = l_a l /\ l_lrate l' = l_lrate l /\ l_lambda l' = l_lambda l /\ l_act l' = l_act l /\ l_W l' = l_W l /\ l_pa l' = l_pa l).
Proof.
  unfold xbackprop, xgrad. destruct (mzip_cases dmul d (funcop (l_z l) (actd (l_act l)))) as [(dl & E & _)|E]; unfold mschur; rewrite E; cbn [xlift]; [|exists d; eexists; split; [right; reflexivity|]; repeat split].
  cbn [put_delta l_pa l_delta]. destruct (mmul_cases (mt (l_pa l)) dl) as [[g E1]|E1]; rewrite E1; cbn [xlift xin]; [|exists d; eexists; split; [right; reflexivity|]; repeat split].
  cbn [put_grad put_delta l_grad l_lambda l_W]. unfold madd. match goal with |- context [mzip dadd ?a ?b] => destruct (mzip_cases dadd a b) as [(g' & E' & _)|E'] end; rewrite E'; cbn [xlift xin]; [|exists d; eexists; split; [right; reflexivity|]; repeat split].
  cbn [put_grad put_delta l_delta l_W]. destruct (mmul_cases dl (mt (l_W l))) as [[dw E2]|E2]; rewrite E2; cbn [xlift]; [|exists d; eexists; split; [right; reflexivity|]; repeat split].
  unfold submat. match goal with |- context [if ?b then _ else _] => destruct b end; cbn [xlift]; (eexists; eexists; split; [eauto|]; repeat split). Unshelve. exact d.
Qed.
Lemma xupdate_cases (l : layer) g : (nr (l_W l) = nr g /\ nc (l_W l) = nc g /\ xupdate_with l g = XOk (set_W l (mk (nr (l_W l)) (nc (l_W l)) (fun i j => dsub (at_ (l_W l) i j) (dmul (l_lrate l) (at_ g i j))))) tt) \/
  (~ (nr (l_W l) = nr g /\ nc (l_W l) = nc g) /\ xupdate_with l g = XThrow l).
Proof.
  unfold xupdate_with, msub, mscal. destruct (Nat.eq_dec (nr (l_W l)) (nr g)) as [E|E]; [destruct (Nat.eq_dec (nc (l_W l)) (nc g)) as [F|F]|].
  - left. split; [exact E|]. split; [exact F|]. rewrite mzip_ok by assumption. cbn [xlift]. f_equal. f_equal. apply mk_ext. intros i j Hi Hj. f_equal. apply at_mmap; lia.
  - right. split; [tauto|]. rewrite mzip_throw; [reflexivity|]. cbn. tauto.
  - right. split; [tauto|]. rewrite mzip_throw; [reflexivity|]. cbn. tauto.
Qed.

(** The effect of one call on the getters. *)
Definition step_ok (l : layer) (ca : call * answer) (l' : layer) : Prop :=
  snd ca <> Died /\ l_act l' = l_act l /\ l_lrate l' = rate_of (l_lrate l) [ca] /\ l_lambda l' = lambda_of (l_lambda l) [ca] /\ l_a l' = output_of_hist (l_a l) [ca] /\
  (nr (l_W l'), nc (l_W l')) = dims_of (nr (l_W l), nc (l_W l)) [ca] /\ (writes_W ca = false -> l_W l' = l_W l) /\
  (writes_grad ca = false -> l_grad l' = l_grad l /\ l_delta l' = l_delta l) /\ (writes_za ca = false -> l_z l' = l_z l) /\
  (l_a l = funcop (l_z l) (act (l_act l)) -> l_a l' = funcop (l_z l') (act (l_act l'))).
Lemma docall_ok l c : step_ok l (c, snd (docall l c)) (fst (docall l c)).
Proof.
  unfold step_ok. destruct c; cbn [docall].
  - destruct (xforward_cases l x) as [(a & l' & -> & E1 & E2 & E3 & E4 & E5 & E6 & E7 & E8)|(l' & -> & E1 & E2 & E3 & E4 & E5 & E6 & E7 & E8)]; cbn; (split; [discriminate|]).
    + rewrite E6, E5, E2. repeat split; auto; discriminate.
    + rewrite E6, E5, E1, E2. repeat split; auto.
  - destruct (xbackprop_cases l d) as (r & l' & [->| ->] & E1 & E2 & E3 & E4 & E5 & E6 & E7); cbn; (split; [discriminate|]); rewrite E6, E5, E1, E2; repeat split; auto; discriminate.
  - destruct (xupdate_cases l (l_grad l)) as [(_ & _ & ->)|(_ & ->)]; cbn; (split; [discriminate|]); repeat split; auto; discriminate.
  - destruct (xupdate_cases l g) as [(_ & _ & ->)|(_ & ->)]; cbn; (split; [discriminate|]); repeat split; auto; discriminate.
  - cbn. split; [discriminate|]. repeat split; auto; discriminate.
  - cbn. split; [discriminate|]. repeat split; auto; discriminate.
  - cbn. split; [discriminate|]. repeat split; auto; discriminate.
  - cbn. split; [discriminate|]. repeat split; auto; discriminate.
Qed.

(** ** C73 *)
(** Every program of calls on a Layer, exceptions caught: no call aborts; getlrate() and getlambda() are what was last set,
    getactfunc() never changes, geta() is what the last successful forwardprop returned, the size of the weights is that of
    the last setw; the weights, and grad and delta, change only in the calls that write them. *)
Theorem C73_getters : forall cs l h l', docalls cs l = (h, l') ->
  length h = length cs /\ Forall (fun ca => snd ca <> Died) h /\ l_act l' = l_act l /\ l_lrate l' = rate_of (l_lrate l) h /\ l_lambda l' = lambda_of (l_lambda l) h /\ l_a l' = output_of_hist (l_a l) h /\
  (nr (l_W l'), nc (l_W l')) = dims_of (nr (l_W l), nc (l_W l)) h /\ (existsb writes_W h = false -> l_W l' = l_W l) /\
  (existsb writes_grad h = false -> l_grad l' = l_grad l /\ l_delta l' = l_delta l) /\ (existsb writes_za h = false -> l_z l' = l_z l) /\
  (l_a l = funcop (l_z l) (act (l_act l)) -> l_a l' = funcop (l_z l') (act (l_act l'))).
Proof.
  induction cs as [|c cs IH]; intros l h l' E; cbn [docalls] in E; [injection E as <- <-; cbn; repeat split; auto|].
  pose proof (docall_ok l c) as S. destruct (docall l c) as [l1 a]. cbn [fst snd] in S. destruct (docalls cs l1) as [h2 l2] eqn:E2. injection E as <- <-. specialize (IH _ _ _ E2).
  destruct S as (S1 & S2 & S3 & S4 & S5 & S6 & S7 & S8 & S9 & S10). destruct IH as (I0 & I1 & I2 & I3 & I4 & I5 & I6 & I7 & I8 & I9 & I10). cbn [snd] in *.
  split; [cbn; now rewrite I0|]. split; [constructor; assumption|]. split; [congruence|].
  split; [rewrite I3, S3; reflexivity|]. split; [rewrite I4, S4; reflexivity|]. split; [rewrite I5, S5; reflexivity|]. split; [rewrite I6, S6; reflexivity|].
  split; [intros [A B]%orb_false_iff; rewrite I7, S7 by assumption; reflexivity|].
  split; [intros [A B]%orb_false_iff; destruct (I8 B), (S8 A); split; congruence|].
  split; [intros [A B]%orb_false_iff; rewrite I9, S9 by assumption; reflexivity|]. intros K. rewrite I10; auto.
Qed.
(** update(): with weights and gradient of the same size, W - lrate * grad element by element, with the rate set last and the
    gradient of the last backprop; otherwise an exception and no change. *)
Theorem C73_update : forall cs l h l', docalls cs l = (h, l') -> forall upd g, (upd = Update /\ g = l_grad l') \/ upd = UpdateWith g ->
  let '(l2, a) := docall l' upd in
  (nr (l_W l') = nr g /\ nc (l_W l') = nc g -> a = Done /\ nr (l_W l2) = nr (l_W l') /\ nc (l_W l2) = nc (l_W l') /\
     (forall i j, i < nr (l_W l') -> j < nc (l_W l') -> at_ (l_W l2) i j = dsub (at_ (l_W l') i j) (dmul (rate_of (l_lrate l) h) (at_ g i j))) /\
     l_grad l2 = l_grad l' /\ l_delta l2 = l_delta l' /\ l_z l2 = l_z l' /\ l_a l2 = l_a l' /\ l_lrate l2 = l_lrate l' /\ l_lambda l2 = l_lambda l') /\
  (~ (nr (l_W l') = nr g /\ nc (l_W l') = nc g) -> a = Threw /\ l2 = l').
Proof.
  intros cs l h l' E upd g Hu. destruct (C73_getters _ _ _ _ E) as (_ & _ & _ & R & _). rewrite <- R.
  assert (X : docall l' upd = caught l' (xupdate_with l' g) (fun _ => Done)) by (destruct Hu as [[-> ->]| ->]; reflexivity). rewrite X.
  destruct (xupdate_cases l' g) as [(A & B & ->)|(A & ->)]; cbn [caught]; (split; [intros K|intros K]); try tauto.
  cbn [set_W l_W l_grad l_delta l_z l_a l_lrate l_lambda nr nc mk]. split; [reflexivity|]. split; [reflexivity|]. split; [reflexivity|]. split; [|repeat split]. intros i j Hi Hj. now rewrite at_mk.
Qed.
(** backprop(d) right after a forwardprop that returned: d must have the size of the output; then delta = d * f'(z) element
    by element, grad = [1, x]^T delta + lambda W, and the result is delta W^T without the bias column. *)
Theorem C73_backward : forall (l : layer) x d l1 a l2 b, docall l (Forward x) = (l1, Value a) -> docall l1 (Backward d) = (l2, b) ->
  (nr d = nr x /\ nc d = nc (l_W l) -> exists r, b = Value r /\
     nr (l_delta l2) = nr x /\ nc (l_delta l2) = nc (l_W l) /\ nr (l_grad l2) = nr (l_W l) /\ nc (l_grad l2) = nc (l_W l) /\ nr r = nr x /\ nc r = nc x /\
     (forall i j, i < nr x -> j < nc (l_W l) -> at_ (l_delta l2) i j = dmul (at_ d i j) (actd (l_act l) (at_ (l_z l1) i j))) /\
     (forall i j, i < nr (l_W l) -> j < nc (l_W l) -> at_ (l_grad l2) i j =
        dadd (fold_left (fun acc k => dadd acc (dmul (match i with 0 => d1 | S i' => at_ x k i' end) (at_ (l_delta l2) k j))) (seq 0 (nr x)) d0) (dmul (l_lambda l) (at_ (l_W l) i j))) /\
     (forall i j, i < nr x -> j < nc x -> at_ r i j = fold_left (fun acc k => dadd acc (dmul (at_ (l_delta l2) i k) (at_ (l_W l) (j + 1) k))) (seq 0 (nc (l_W l))) d0)) /\
  (~ (nr d = nr x /\ nc d = nc (l_W l)) -> b = Threw /\ l2 = l1).
Proof.
  intros l x d l1 a l2 b E1 E2. cbn [docall] in E1, E2.
  assert (F : (1 <= nr x /\ 1 <= nc x) /\ nc x + 1 = nr (l_W l) /\ l1 = L (l_lrate l) (l_lambda l) (l_act l) (mk (nr x) (nc x + 1) (with_bias x)) (mk (nr x) (nc (l_W l)) (mdot (mk (nr x) (nc x + 1) (with_bias x)) (l_W l)))
      (funcop (mk (nr x) (nc (l_W l)) (mdot (mk (nr x) (nc x + 1) (with_bias x)) (l_W l))) (act (l_act l))) (l_delta l) (l_W l) (l_grad l)).
  { unfold xforward in E1. destruct (le_dec 1 (nr x)) as [X1|X1]; [destruct (le_dec 1 (nc x)) as [X2|X2]|].
    - rewrite addcol_ok in E1 by assumption. cbn [xlift put_pa l_pa l_W] in E1. unfold mmul in E1. cbn [nr nc mk] in E1. destruct (Nat.eqb_spec (nc x + 1) (nr (l_W l))) as [Q|Q]; cbn [xlift caught] in E1; [|discriminate]. injection E1 as <- _. auto.
    - rewrite addcol_throw in E1 by lia. discriminate.
    - rewrite addcol_throw in E1 by lia. discriminate. }
  destruct F as ([X1 X2] & Q & ->). set (pa := mk (nr x) (nc x + 1) (with_bias x)) in *. set (z := mk (nr x) (nc (l_W l)) (mdot pa (l_W l))) in *. cbn [l_z]. split.
  - intros [H1 H2]. unfold xbackprop, xgrad, mschur in E2. cbn [l_z l_act] in E2. rewrite mzip_ok in E2 by (cbn; assumption). cbn [xlift put_delta l_pa l_delta] in E2.
    set (dl := mk (nr d) (nc d) _) in E2. rewrite mmul_ok in E2 by (cbn; lia). cbn [xlift put_grad l_grad l_lambda l_W l_pa] in E2. unfold madd in E2. rewrite mzip_ok in E2 by (cbn; lia). cbn [xlift xin put_grad l_delta l_W l_grad] in E2.
    rewrite mmul_ok in E2 by (cbn; lia). cbn [xlift l_delta l_W put_delta put_grad] in E2. unfold submat, sub_ok in E2. cbn [nr nc mk mt dl] in E2.
    rewrite (proj2 (Z.leb_le 0 (Z.of_nat (nr d) - 1))), (proj2 (Z.ltb_lt (Z.of_nat (nr d) - 1) _)), (proj2 (Z.leb_le 1 (Z.of_nat (nr (l_W l)) - 1))), (proj2 (Z.ltb_lt (Z.of_nat (nr (l_W l)) - 1) _)) in E2 by lia.
    cbn [Z.leb Z.compare andb xlift caught] in E2. injection E2 as <- <-. eexists. split; [reflexivity|]. cbn [l_delta l_grad put_grad put_delta].
    split; [cbn; lia|]. split; [cbn; lia|]. split; [cbn; lia|]. split; [cbn; lia|]. split; [cbn; lia|]. split; [cbn; lia|].
    assert (DL : forall i j, i < nr x -> j < nc (l_W l) -> at_ dl i j = dmul (at_ d i j) (actd (l_act l) (at_ z i j))).
    { intros i j Hi Hj. unfold dl. rewrite at_mk by lia. f_equal. unfold funcop. rewrite at_mmap by (cbn; lia). reflexivity. }
    split; [exact DL|]. split.
    + intros i j Hi Hj. cbn [nr nc mk mt pa]. rewrite at_mk by (cbn; lia). f_equal.
      * rewrite at_mk by (cbn; lia). unfold mdot. cbn [nc mt mk pa nr]. apply fold_left_ext_in. intros acc k Hk%in_seq. f_equal. f_equal. unfold mt. rewrite at_mk by (cbn; lia). unfold pa. rewrite at_mk by lia. destruct i; reflexivity.
      * unfold mscal. now rewrite at_mmap.
    + intros i j Hi Hj. rewrite at_mk by (cbn; lia). change (Z.to_nat 0) with 0. change (Z.to_nat 1) with 1. rewrite at_mk by (cbn; lia). unfold mdot. cbn [nc dl mk]. rewrite H2. apply fold_left_ext_in. intros acc k Hk%in_seq. f_equal. f_equal.
      unfold mt. rewrite at_mk by (cbn; lia). f_equal. lia.
  - intros N. unfold xbackprop, mschur in E2. cbn [l_z l_act] in E2. rewrite mzip_throw in E2 by (cbn; exact N). cbn [xlift caught] in E2. injection E2 as <- <-. auto.
Qed.

(** Construction.  getpnnodes() of a Layer(pn, n, ...) is pn + 1, the bias included; grad is uninitialised memory; a negative
    size is an exception. *)
Theorem C73_new : forall pn n lrate stddev lambda f,
  ((0 <= pn + 1)%Z -> (0 <= n)%Z -> exists l, layer_new draw junk pn n lrate stddev lambda f = Ok l /\
     Z.of_nat (nr (l_W l)) = (pn + 1)%Z /\ Z.of_nat (nc (l_W l)) = n /\ nr (l_grad l) = nr (l_W l) /\ nc (l_grad l) = nc (l_W l) /\
     l_lrate l = lrate /\ l_lambda l = lambda /\ l_act l = f /\ l_z l = mempty /\ l_a l = mempty /\ l_delta l = mempty /\
     (forall i j, i < nr (l_grad l) -> j < nc (l_grad l) -> at_ (l_grad l) i j = junk (j * nr (l_grad l) + i))) /\
  (~ ((0 <= pn + 1)%Z /\ (0 <= n)%Z) -> layer_new draw junk pn n lrate stddev lambda f = Throw).
Proof.
  intros pn n lrate stddev lambda f. unfold layer_new. split.
  - intros H1 H2. rewrite (proj2 (Z.leb_le _ _) H1), (proj2 (Z.leb_le _ _) H2). cbn [andb]. eexists. split; [reflexivity|]. cbn [randominit set_W l_W l_grad l_lrate l_lambda l_act l_z l_a l_delta randominit_w mmap mat_uninit nr nc mk].
    split; [lia|]. split; [lia|]. do 8 (split; [reflexivity|]). intros i j Hi Hj. exact (at_mk _ _ _ i j Hi Hj).
  - intros H. destruct (Z.leb_spec 0 (pn + 1)), (Z.leb_spec 0 n); cbn [andb]; try reflexivity. exfalso. auto.
Qed.
(** Hence update() before the first backprop mixes uninitialised memory into the weights. *)
Theorem C73_update_first : forall pn n lrate stddev lambda f l cs h l', layer_new draw junk pn n lrate stddev lambda f = Ok l -> docalls cs l = (h, l') -> existsb writes_grad h = false -> existsb writes_W h = false ->
  let '(l2, a) := docall l' Update in a = Done /\ forall i j, i < nr (l_W l) -> j < nc (l_W l) ->
    at_ (l_W l2) i j = dsub (at_ (l_W l) i j) (dmul (rate_of lrate h) (junk (j * nr (l_W l) + i))).
Proof.
  intros pn n lrate stddev lambda f l cs h l' E Ec Hg Hw. destruct (C73_new pn n lrate stddev lambda f) as [N1 N2].
  assert (S : (0 <= pn + 1)%Z /\ (0 <= n)%Z). { destruct (Z_le_dec 0 (pn + 1)) as [A|A], (Z_le_dec 0 n) as [B|B]; auto; rewrite N2 in E by lia; discriminate. }
  destruct (N1 (proj1 S) (proj2 S)) as (l0 & E0 & A1 & A2 & A3 & A4 & A5 & _ & _ & _ & _ & _ & A6). rewrite E in E0. injection E0 as <-.
  destruct (C73_getters _ _ _ _ Ec) as (_ & _ & _ & R & _ & _ & _ & GW & GG & _). specialize (GW Hw). destruct (GG Hg) as [GG' _].
  pose proof (C73_update _ _ _ _ Ec Update (l_grad l') (or_introl (conj eq_refl eq_refl))) as U. destruct (docall l' Update) as [l2 a]. destruct U as [U _].
  destruct U as (-> & _ & _ & U & _); [rewrite GW, GG'; auto|]. split; [reflexivity|]. intros i j Hi Hj. rewrite U by (rewrite GW; assumption). rewrite GW, GG', A6 by congruence. rewrite A3, A5. reflexivity.
Qed.
(** Layer() and Layer(LayerParam()) cannot be used before setw: every forwardprop throws. *)
Theorem C73_unusable : (forall x : mat, snd (docall layer_default (Forward x)) = Threw) /\
  l_lrate layer_default = d0 (d := D) /\ l_lambda layer_default = d0 (d := D) /\
  exists l, layer_of_param draw junk layer_param_default = Ok l /\ nr (l_W l) = 1 /\ nc (l_W l) = 0 /\ l_lrate l = dlit 1 2 /\ l_lambda l = d0 /\ l_act l = identity /\ forall x : mat, snd (docall l (Forward x)) = Threw.
Proof.
  assert (G : forall (l : layer) (x : mat), nr (l_W l) <= 1 -> snd (docall l (Forward x)) = Threw).
  { intros l x Hl. cbn [docall]. unfold xforward. destruct (le_dec 1 (nr x)) as [X1|X1]; [destruct (le_dec 1 (nc x)) as [X2|X2]|].
    - rewrite addcol_ok by assumption. cbn [xlift put_pa l_pa l_W]. rewrite mmul_throw by (cbn; lia). reflexivity.
    - rewrite addcol_throw by lia. reflexivity.
    - rewrite addcol_throw by lia. reflexivity. }
  split; [intros x; apply G; cbn; lia|]. split; [reflexivity|]. split; [reflexivity|]. eexists. split; [reflexivity|]. do 5 (split; [reflexivity|]). intros x. apply G. cbn. lia.
Qed.
(** A LayerParam whose sizes alone were set gives the layer of the constructor with learning rate 1e-2, standard deviation 1,
    lambda 0 and the identity activation; setting every field gives the constructor's layer with the same values. *)
Theorem C73_param : forall pn n : Z,
  (let p := layer_param_default in layer_of_param draw junk (LP pn n (lp_stddev p) (lp_lrate p) (lp_lambda p) (lp_act p))) = layer_new draw junk pn n (dlit 1 2) d1 d0 identity /\
  forall (sd lrate lambda : D) f, layer_of_param draw junk (LP pn n sd lrate lambda f) = layer_new draw junk pn n lrate sd lambda f.
Proof. intros pn n. split; reflexivity. Qed.
(** InputLayer(n): rates 0, identity, n x n uninitialised weights; forwardprop returns its argument and changes only what
    getz() and geta() return; the inherited backprop of any non-empty matrix throws. *)
Theorem C73_input : forall n : Z,
  ((0 <= n)%Z -> exists l, input_new junk n = Ok l /\ Z.of_nat (nr (l_W l)) = n /\ Z.of_nat (nc (l_W l)) = n /\ nr (l_grad l) = nr (l_W l) /\ nc (l_grad l) = nc (l_W l) /\ l_lrate l = d0 /\ l_lambda l = d0 /\ l_act l = identity /\ l_z l = mempty /\ l_a l = mempty /\ l_delta l = mempty /\ l_pa l = mempty) /\
  ((n < 0)%Z -> input_new junk n = Throw) /\
  forall (l : layer) x, let '(a, l') := input_forward l x in a = x /\ l_z l' = x /\ l_a l' = x /\ l_W l' = l_W l /\ l_grad l' = l_grad l /\ l_delta l' = l_delta l /\ l_lrate l' = l_lrate l /\ l_lambda l' = l_lambda l /\ l_act l' = l_act l /\ l_pa l' = l_pa l /\
    (l_pa l = mempty -> forall d, 1 <= nr d -> backprop l' d = Throw).
Proof.
  intros n. split; [|split].
  - intros H. unfold input_new. rewrite (proj2 (Z.leb_le _ _) H). eexists. split; [reflexivity|]. cbn. split; [lia|]. split; [lia|]. repeat split.
  - intros H. unfold input_new. now rewrite (proj2 (Z.leb_gt _ _) H).
  - intros l x. cbn. do 10 (split; [reflexivity|]). intros Hp d Hd. unfold backprop. cbn [l_z l_act]. destruct (mzip_cases dmul d (funcop x (actd (l_act l)))) as [(dl & E & E1 & E2 & _)|E]; unfold mschur; rewrite E; cbn [bind]; [|reflexivity].
    unfold reg_grad. cbn [l_pa]. rewrite Hp. rewrite mmul_throw; [reflexivity|]. cbn. lia.
Qed.
(** OutputLayer: a copy has no labels, an assigned object keeps its own, so getcostval() of a copy that has an output throws
    and that of an assigned object is the source's cost function of its own old labels and the source's output. *)
Theorem C73_output_copies : forall dst src : output D,
  o_l (output_copy src) = o_l src /\ o_cost (output_copy src) = o_cost src /\ o_costd (output_copy src) = o_costd src /\ o_y (output_copy src) = mempty /\
  o_l (output_assign dst src) = o_l src /\ o_cost (output_assign dst src) = o_cost src /\ o_costd (output_assign dst src) = o_costd src /\ o_y (output_assign dst src) = o_y dst /\
  getcostval (output_assign dst src) = (J <- o_cost src (o_y dst) (l_a (o_l src)) ;; Ok (sumall J)) /\
  (o_cost src = quad_cost \/ o_cost src = ce_cost \/ o_cost src = kl_cost \/ o_cost src = sm_cost -> 1 <= nr (l_a (o_l src)) -> getcostval (output_copy src) = Throw).
Proof.
  intros dst src. assert (E : layer_copy (o_l src) = o_l src) by (unfold layer_copy; now destruct (o_l src)).
  split; [exact E|]. split; [reflexivity|]. split; [reflexivity|]. split; [reflexivity|]. split; [exact E|]. split; [reflexivity|]. split; [reflexivity|]. split; [reflexivity|]. split.
  - unfold getcostval, output_assign, layer_assign. cbn [o_l o_cost o_y]. now rewrite E.
  - intros Hc Ha. unfold getcostval, output_copy. cbn [o_l o_cost o_y]. rewrite E. rewrite builtin_cost_throw; [reflexivity|exact Hc|]. cbn. lia.
Qed.
(** argmax() needs a column, unless there are no rows either. *)
Theorem C73_argmax : forall o : output D, (nr (l_a (o_l o)) = 0 \/ 1 <= nc (l_a (o_l o)) -> exists r, argmax o = Ok r /\ nr r = nr (l_a (o_l o)) /\ nc r = 2) /\ (1 <= nr (l_a (o_l o)) /\ nc (l_a (o_l o)) = 0 -> argmax o = Throw).
Proof.
  intros o. unfold argmax. split.
  - intros H. destruct (Nat.eqb_spec (nc (l_a (o_l o))) 0), (Nat.eqb_spec (nr (l_a (o_l o))) 0); cbn [andb negb]; try lia; eexists; (split; [reflexivity|split; reflexivity]).
  - intros [H1 ->]. destruct (Nat.eqb_spec (nr (l_a (o_l o))) 0); [lia|]. reflexivity.
Qed.
End Generic.

(** ** Examples *)
(** A Layer(2, 1): forwardprop of a matrix that is too wide throws, the rate is changed, a good pass, backprop, update. *)
Definition exdraw (s : Z) (k : nat) : Z := Z.of_nat k.
Definition exl : layer Zdt := L (D := Zdt) 3%Z 0%Z identity mempty mempty mempty mempty (zm 3 1 [1; 2; 3]%Z) (zm 3 1 [7; 7; 7]%Z).
Example C73_example : let '(h, l) := docalls (D := Zdt) exdraw [Forward (zm 1 3 [1; 1; 1]%Z); SetRate (D := Zdt) 2%Z; Forward (zm 1 2 [4; 5]%Z); Backward (zm 2 1 [1; 1]%Z); Backward (zm 1 1 [1]%Z); Update; SetLambda (D := Zdt) 9%Z] exl in
  map snd h = [Threw; Done; Value (zm 1 1 [24]%Z); Threw; Value (zm 1 2 [2; 3]%Z); Done; Done] /\ l_lrate l = 2%Z /\ l_lambda l = 9%Z /\ l_a l = zm 1 1 [24]%Z /\ l_W l = zm 3 1 [-1; -6; -7]%Z.
Proof. vm_cast_no_check (conj (eq_refl [Threw; Done; Value (zm 1 1 [24]%Z); Threw; Value (zm 1 2 [2; 3]%Z); Done; Done]) (conj (eq_refl 2%Z) (conj (eq_refl 9%Z) (conj (eq_refl (zm 1 1 [24]%Z)) (eq_refl (zm 3 1 [-1; -6; -7]%Z)))))). Qed.
Example C73_example_first : match layer_new (D := Zdt) exdraw (fun k => Z.of_nat k) 1 1 3%Z 0%Z 0%Z identity with Ok l => nr (l_W l) = 2 /\ el (l_grad l) = [0; 1]%Z /\ snd (docall (D := Zdt) exdraw l Update) = Done | _ => False end.
Proof. vm_compute. repeat split. Qed.
Example C73_example_neg : layer_new (D := Zdt) exdraw (fun k => Z.of_nat k) (-2) 1 3%Z 0%Z 0%Z identity = Throw /\ input_new (D := Zdt) (fun k => Z.of_nat k) (-1) = Throw.
Proof. split; reflexivity. Qed.
Print Assumptions C73_getters. Print Assumptions C73_update. Print Assumptions C73_backward. Print Assumptions C73_new. Print Assumptions C73_update_first. Print Assumptions C73_unusable. Print Assumptions C73_input. Print Assumptions C73_output_copies. Print Assumptions C73_argmax.

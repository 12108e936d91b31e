(** P_Exc2.v - C71 for a single Layer object: exactly what an exception out of forwardprop, backprop or update leaves behind. *)
From Verif Require Import Base Mat Act Layer Conv Misc Net NetP Trainer Exc ExcP ExNet P_LayerApi.
From Coq Require Import Arith Lia.
Local Open Scope nat_scope.

Section Exc2.
Context {D : dtype}.
Notation mat := (mat D).
Notation layer := (layer D).

(** ** Specification *)
(** The samples with a leading column of ones. *)
Definition with_ones (x : mat) : mat := mk (nr x) (S (nc x)) (fun i j => match j with 0 => d1 | S k => at_ x i k end).
(** The sum of a i * b i over i = 0 .. n - 1, added up in this order. *)
Definition sumprod (n : nat) (a b : nat -> D) : D := fold_left (fun acc r => dadd acc (dmul (a r) (b r))) (seq 0 n) d0.
Definition layer_with (l : layer) (pa z a delta grad : mat) : layer := L (l_lrate l) (l_lambda l) (l_act l) pa z a delta (l_W l) grad.

Lemma with_ones_addcol (x : mat) : 1 <= nr x -> 1 <= nc x -> addcol x = Ok (with_ones x).
Proof. intros A B. rewrite addcol_ok by assumption. unfold with_ones. rewrite Nat.add_1_r. reflexivity. Qed.

(** A layer rejects samples of the wrong width, but it has stored them: its input is the rejected samples, its other values, its weights
    and its settings are as they were.  A backprop call with a derivative of the size of the last accepted output then runs over this mixture:
    it throws too, if the rejected samples were as many as the accepted ones, and leaves the layer a gradient computed from the rejected samples
    and the new delta, without regularisation and of a size that does not fit the weights: updating with it throws and changes nothing.
    No other call has to be undone: the weights are those the layer had. *)
Theorem C71_layer (l : layer) (x d : mat) :
  1 <= nr x -> 1 <= nc x -> nc x + 1 <> nr (l_W l) -> nr d = nr (l_z l) -> nc d = nc (l_z l) -> nr (l_z l) = nr x ->
  let delta := mk (nr d) (nc d) (fun i j => dmul (at_ d i j) (actd (l_act l) (at_ (l_z l) i j))) in
  let grad := mk (nc x + 1) (nc d) (fun i j => sumprod (nr x) (fun r => match i with 0 => d1 | S k => at_ x r k end) (fun r => at_ delta r j)) in
  let l1 := layer_with l (with_ones x) (l_z l) (l_a l) (l_delta l) (l_grad l) in
  let l2 := layer_with l (with_ones x) (l_z l) (l_a l) delta grad in
  xforward l x = XThrow l1 /\ xbackprop l1 d = XThrow l2 /\ xupdate_with l2 (l_grad l2) = XThrow l2 /\
  forall x', forget (fun l a => (a, l_W l)) (xforward l2 x') = forget (fun l a => (a, l_W l)) (xforward l x').
Proof.
  intros Hr Hc Hw Hdr Hdc Hz delta grad l1 l2. split; [|split; [|split]].
  - unfold xforward. rewrite with_ones_addcol by assumption. cbn [xlift]. unfold mmul. cbn [l_pa l_W put_pa].
    assert (E : nc (with_ones x) = nc x + 1) by (cbn; lia). rewrite E. destruct (Nat.eqb_spec (nc x + 1) (nr (l_W l))); [contradiction|]. reflexivity.
  - assert (E1 : mschur d (funcop (l_z l) (actd (l_act l))) = Ok delta).
    { unfold mschur, mzip, funcop, mmap. cbn [nr nc mk]. rewrite Hdr, Hdc, !Nat.eqb_refl. cbn [andb]. f_equal. unfold delta. rewrite Hdr, Hdc.
      apply mk_ext. intros i j Hi Hj. rewrite at_mk by assumption. reflexivity. }
    assert (E2 : mmul (mt (with_ones x)) delta = Ok grad).
    { unfold mmul. cbn [mt nr nc mk with_ones delta]. rewrite Hdr, Hz, Nat.eqb_refl. f_equal. unfold grad. replace (S (nc x)) with (nc x + 1) by lia.
      apply mk_ext. intros i j Hi Hj. unfold mdot, sumprod. cbn [mt nr nc mk with_ones]. apply fold_left_ext_in. intros acc r Hr2%in_seq.
      unfold mt. rewrite at_mk by (cbn; lia). unfold with_ones. rewrite at_mk by lia. reflexivity. }
    assert (E3 : madd grad (mscal (l_lambda l) (l_W l)) = Throw).
    { unfold madd, mzip. cbn [nr nc mk mscal mmap grad]. destruct (Nat.eqb_spec (nc x + 1) (nr (l_W l))); [contradiction|]. reflexivity. }
    unfold xbackprop. cbn [l1 layer_with l_z l_act]. rewrite E1. cbn [xlift]. unfold xgrad. cbn [put_delta l_pa l_delta l1 layer_with]. rewrite E2. cbn [xlift put_grad l_grad l_lambda l_W].
    replace (madd _ _) with (@Throw mat) by (symmetry; exact E3). reflexivity.
  - unfold xupdate_with, msub, mzip. cbn [l2 layer_with l_W l_lrate l_grad]. cbn [mscal mmap nr nc mk grad].
    destruct (Nat.eqb_spec (nr (l_W l)) (nc x + 1)); [congruence|]. reflexivity.
  - intros x'. unfold xforward. cbn [l2 layer_with put_pa put_z put_a l_W l_pa l_z l_act]. destruct (addcol x') as [pa| | |]; try reflexivity. cbn [xlift]. 
    destruct (mmul pa (l_W l)) as [z| | |]; reflexivity.
Qed.
End Exc2.

(** A layer of two inputs and two units that has accepted two samples; then it is given two samples of one value each. *)
Example C71_layer_example :
  let l0 := L (D := Zdt) 1%Z 3%Z identity mempty mempty mempty mempty (zm 3 2 [1; 2; 3; 4; 5; 6]%Z) mempty in
  match xforward (D := Zdt) l0 (zm 2 2 [1; 2; 3; 4]%Z) with
  | XOk l _ => let x := zm 2 1 [7; 8]%Z in let d := zm 2 2 [1; -1; 2; 5]%Z in
      nc x + 1 <> nr (l_W l) /\ nr d = nr (l_z l) /\ nc d = nc (l_z l) /\ nr (l_z l) = nr x /\
      match xforward l x with
      | XThrow l1 => el (l_pa l1) = [1; 1; 7; 8]%Z /\ match xbackprop l1 d with XThrow l2 => el (l_grad l2) = [0; -1; 7; 54]%Z | _ => False end
      | _ => False end
  | _ => False end.
Proof. vm_compute. repeat split; try reflexivity; lia. Qed.

(** NetP.v - lemmas about dense layers and networks: shapes, list view of the hidden layers. *)
From Verif Require Import Base Mat Act Layer Conv Misc Net.
From Coq Require Import Arith.
Local Open Scope nat_scope.

Section NetP.
Context {D : dtype}.
Notation mat := (mat D).
Notation layer := (layer D).
Notation output := (output D).
Context (junk : nat -> D).

(** ** One dense layer *)

(** Pre-activation of row i, unit j. *)
Definition pre (W x : mat) (i j : nat) : D := mdot (mk (nr x) (nc x + 1) (with_bias x)) W i j.
Definition fwd_ok (W x : mat) : Prop := 1 <= nr x /\ 1 <= nc x /\ nc x + 1 = nr W.
Definition fwd_out (l : layer) (x : mat) : mat := mk (nr x) (nc (l_W l)) (fun i j => act (l_act l) (pre (l_W l) x i j)).
Definition fwd_layer (l : layer) (x : mat) : layer :=
  L (l_lrate l) (l_lambda l) (l_act l) (mk (nr x) (nc x + 1) (with_bias x)) (mk (nr x) (nc (l_W l)) (pre (l_W l) x)) (fwd_out l x)
    (l_delta l) (l_W l) (l_grad l).

Lemma funcop_mk r c (f : nat -> nat -> D) (g : D -> D) : funcop (mk r c f) g = mk r c (fun i j => g (f i j)).
Proof. unfold funcop, mmap. cbn [nr nc mk]. apply mk_ext. intros i j Hi Hj. now rewrite at_mk. Qed.

Lemma forward_ok l x : fwd_ok (l_W l) x -> forwardprop l x = Ok (fwd_out l x, fwd_layer l x).
Proof.
  intros (H1 & H2 & H3). unfold forwardprop. rewrite addcol_ok by assumption. cbn [bind].
  rewrite mmul_ok by (cbn [nc mk]; assumption). cbn [bind nr mk]. unfold fwd_layer, fwd_out. rewrite funcop_mk. reflexivity.
Qed.
Lemma forward_throw l x : ~ fwd_ok (l_W l) x -> forwardprop l x = Throw.
Proof.
  intros H. unfold forwardprop. destruct (addcol_cases x) as [(A & B & E)|(A & E)]; rewrite E; cbn [bind]; [|reflexivity].
  rewrite mmul_throw; [reflexivity|]. cbn [nc mk]. unfold fwd_ok in H. lia.
Qed.
Lemma fwd_dec W x : {fwd_ok W x} + {~ fwd_ok W x}.
Proof.
  unfold fwd_ok. destruct (le_dec 1 (nr x)); [|right; lia]. destruct (le_dec 1 (nc x)); [|right; lia].
  destruct (Nat.eq_dec (nc x + 1) (nr W)); [left; auto|right; lia].
Qed.
Lemma forward_inv l x a l' : forwardprop l x = Ok (a, l') -> fwd_ok (l_W l) x /\ a = fwd_out l x /\ l' = fwd_layer l x.
Proof.
  intros H. destruct (fwd_dec (l_W l) x) as [Hf|Hf].
  - rewrite forward_ok in H by assumption. injection H as <- <-. auto.
  - rewrite forward_throw in H by assumption. discriminate.
Qed.

(** Backward step: the layer's delta, the gradient and what is handed down. *)
Definition back_delta (l : layer) (d : mat) : mat := mk (nr d) (nc d) (fun i j => dmul (at_ d i j) (actd (l_act l) (at_ (l_z l) i j))).
Definition raw_grad (l : layer) (delta : mat) : mat := mk (nc (l_pa l)) (nc delta) (mdot (mt (l_pa l)) delta).
Definition grad_of (l : layer) (delta : mat) : mat :=
  mk (nc (l_pa l)) (nc delta) (fun i j => dadd (at_ (raw_grad l delta) i j) (dmul (l_lambda l) (at_ (l_W l) i j))).
Definition down (l : layer) (delta : mat) : mat :=
  mk (nr delta) (nr (l_W l) - 1) (fun i j => at_ (mk (nr delta) (nr (l_W l)) (mdot delta (mt (l_W l)))) i (S j)).
Definition back_layer (l : layer) (delta : mat) : layer :=
  L (l_lrate l) (l_lambda l) (l_act l) (l_pa l) (l_z l) (l_a l) delta (l_W l) (grad_of l delta).

Lemma reg_grad_inv l delta g : reg_grad l delta = Ok g ->
  nr (l_pa l) = nr delta /\ nc (l_pa l) = nr (l_W l) /\ nc delta = nc (l_W l) /\ g = grad_of l delta.
Proof.
  unfold reg_grad. intros H. apply bind_ok in H as (g0 & H0 & H). apply mmul_inv in H0 as (E & ->). cbn [mt nc mk nr] in *.
  pose proof (mzip_dims _ _ _ _ H) as (A & B & _). cbn [mscal mmap nr nc mk] in A, B. unfold madd in H.
  rewrite mzip_ok in H by (cbn [mscal mmap nr nc mk]; assumption). injection H as <-. cbn [nr nc mk].
  split; [assumption|]. split; [assumption|]. split; [assumption|]. unfold grad_of, raw_grad. apply mk_ext. intros i j Hi Hj.
  f_equal. unfold mscal. rewrite at_mmap; [reflexivity|lia|lia].
Qed.
Lemma reg_grad_ok l delta : nr (l_pa l) = nr delta -> nc (l_pa l) = nr (l_W l) -> nc delta = nc (l_W l) -> reg_grad l delta = Ok (grad_of l delta).
Proof.
  intros A B C. unfold reg_grad. rewrite mmul_ok by (cbn [mt nc mk]; assumption). cbn [bind]. unfold madd.
  rewrite mzip_ok by (cbn [mt mscal mmap nr nc mk]; assumption). f_equal. apply mk_ext. cbn [mt nr nc mk]. intros i j Hi Hj.
  f_equal. unfold mscal. rewrite at_mmap; [reflexivity|lia|lia].
Qed.

Definition back_ok (l : layer) (d : mat) : Prop :=
  nr d = nr (l_z l) /\ nc d = nc (l_z l) /\ nr (l_pa l) = nr d /\ nc (l_pa l) = nr (l_W l) /\ nc d = nc (l_W l) /\ 1 <= nr d /\ 2 <= nr (l_W l).
Lemma backprop_ok l d : back_ok l d ->
  backprop l d = Ok (down l (back_delta l d), back_layer l (back_delta l d)).
Proof.
  intros (A & B & C & E & F & G & K). unfold backprop, mschur. rewrite mzip_ok by (cbn [funcop mmap nr nc mk]; assumption). cbn [bind].
  replace (mk (nr d) (nc d) (fun i j => dmul (at_ d i j) (at_ (funcop (l_z l) (actd (l_act l))) i j))) with (back_delta l d).
  2:{ apply mk_ext. intros i j Hi Hj. f_equal. unfold funcop. rewrite at_mmap; [reflexivity|lia|lia]. }
  rewrite reg_grad_ok by (cbn [back_delta nr nc mk]; assumption). cbn [bind]. rewrite mmul_ok by (cbn [back_delta mt nr nc mk]; assumption). cbn [bind].
  unfold submat, sub_ok. cbn [back_delta mt nr nc mk].
  assert (X1 : forall z : Z, (0 <=? 0 = true)%Z /\ (0 <=? 1 = true)%Z) by (intros; split; reflexivity).
  rewrite (proj1 (X1 0%Z)), (proj2 (X1 0%Z)).
  rewrite (proj2 (Z.leb_le 0 (Z.of_nat (nr d) - 1))) by lia. rewrite (proj2 (Z.ltb_lt (Z.of_nat (nr d) - 1) (Z.of_nat (nr d)))) by lia.
  rewrite (proj2 (Z.leb_le 1 (Z.of_nat (nr (l_W l)) - 1))) by lia. rewrite (proj2 (Z.ltb_lt (Z.of_nat (nr (l_W l)) - 1) (Z.of_nat (nr (l_W l))))) by lia.
  cbn [andb bind]. unfold down, back_layer. cbn [nr nc mk]. f_equal. f_equal.
  replace (Z.to_nat (Z.of_nat (nr d) - 1 - 0 + 1)) with (nr d) by lia. replace (Z.to_nat (Z.of_nat (nr (l_W l)) - 1 - 1 + 1)) with (nr (l_W l) - 1) by lia.
  reflexivity.
Qed.
Lemma backprop_inv l d r l' : backprop l d = Ok (r, l') ->
  back_ok l d /\ r = down l (back_delta l d) /\ l' = back_layer l (back_delta l d).
Proof.
  intros H. assert (Hok : back_ok l d).
  { unfold backprop, mschur in H. apply bind_ok in H as (dl & H1 & H). pose proof (mzip_dims _ _ _ _ H1) as (A & B & C & E & _).
    cbn [funcop mmap nr nc mk] in A, B. apply bind_ok in H as (g & H2 & H). apply reg_grad_inv in H2 as (P & Q & R & _).
    apply bind_ok in H as (dw & H3 & H). apply mmul_inv in H3 as (S & ->). apply bind_ok in H as (sm & H4 & _).
    unfold submat, sub_ok in H4. cbn [mt nr nc mk] in H4.
    destruct (Z.leb_spec 0 (Z.of_nat (nr dl) - 1)); [|discriminate H4].
    destruct (Z.leb_spec 1 (Z.of_nat (nr (l_W l)) - 1)); [|rewrite !andb_false_r in H4; discriminate H4].
    unfold back_ok. lia. }
  split; [assumption|]. rewrite backprop_ok in H by assumption. injection H as <- <-. auto.
Qed.

(** Output layer. *)
Lemma out_backprop_inv (o : output) y r o' : output_backprop o y = Ok (r, o') -> exists delta,
  o_costd o y (l_a (o_l o)) (l_z (o_l o)) = Ok delta /\
  nr (l_pa (o_l o)) = nr delta /\ nc (l_pa (o_l o)) = nr (l_W (o_l o)) /\ nc delta = nc (l_W (o_l o)) /\ 1 <= nr (l_W (o_l o)) /\
  r = down (o_l o) delta /\ o' = O (back_layer (o_l o) delta) (o_cost o) (o_costd o) y.
Proof.
  unfold output_backprop. intros H. apply bind_ok in H as (delta & H1 & H). exists delta. split; [assumption|].
  apply bind_ok in H as (g & H2 & H). apply reg_grad_inv in H2 as (P & Q & R & ->).
  apply bind_ok in H as (dw & H3 & H). apply mmul_inv in H3 as (S & ->). cbn [mt nr nc mk] in *.
  apply bind_ok in H as (sm & H4 & H). unfold shed_col in H4. cbn [nr nc mk] in H4.
  destruct (Nat.ltb_spec 0 (nr (l_W (o_l o)))) as [Hlt|]; [|discriminate]. injection H4 as <-. injection H as <- <-.
  repeat split; try assumption.
Qed.
Lemma out_backprop_ok (o : output) y delta : o_costd o y (l_a (o_l o)) (l_z (o_l o)) = Ok delta ->
  nr (l_pa (o_l o)) = nr delta -> nc (l_pa (o_l o)) = nr (l_W (o_l o)) -> nc delta = nc (l_W (o_l o)) -> 1 <= nr (l_W (o_l o)) ->
  output_backprop o y = Ok (down (o_l o) delta, O (back_layer (o_l o) delta) (o_cost o) (o_costd o) y).
Proof.
  intros H1 A B C E. unfold output_backprop. rewrite H1. cbn [bind]. rewrite reg_grad_ok by assumption. cbn [bind].
  rewrite mmul_ok by (cbn [mt nc nr mk]; assumption). cbn [bind]. unfold shed_col. cbn [mt nc nr mk].
  rewrite (proj2 (Nat.ltb_lt 0 _)) by lia. reflexivity.
Qed.

Lemma out_forward_inv (o : output) x a o' : output_forward o x = Ok (a, o') ->
  fwd_ok (l_W (o_l o)) x /\ a = fwd_out (o_l o) x /\ o' = O (fwd_layer (o_l o) x) (o_cost o) (o_costd o) (o_y o).
Proof.
  unfold output_forward. intros H. apply bind_ok in H as ([a1 l1] & H1 & H). injection H as <- <-.
  apply forward_inv in H1 as (A & -> & ->). auto.
Qed.
Lemma out_forward_ok (o : output) x : fwd_ok (l_W (o_l o)) x ->
  output_forward o x = Ok (fwd_out (o_l o) x, O (fwd_layer (o_l o) x) (o_cost o) (o_costd o) (o_y o)).
Proof. intros H. unfold output_forward. rewrite forward_ok by assumption. reflexivity. Qed.

(** ** A list of dense layers *)
Fixpoint lforward (ls : list layer) (x : mat) : res (mat * list layer) :=
  match ls with
  | [] => Ok (x, [])
  | l :: r => '(a, l') <- forwardprop l x ;; '(b, r') <- lforward r a ;; Ok (b, l' :: r')
  end.
Fixpoint lbackprop (ls : list layer) (d : mat) : res (mat * list layer) :=
  match ls with
  | [] => Ok (d, [])
  | l :: r => '(d1, r') <- lbackprop r d ;; '(d0, l') <- backprop l d1 ;; Ok (d0, l' :: r')
  end.

(** The hidden layers of a network are the distinct dense layers [ls]. *)
Definition dense_at (H : lheap D) (ids : list nat) (ls : list layer) : Prop :=
  Forall2 (fun p l => nth_error H p = Some (HDense l)) ids ls.
Fixpoint put_layers (ids : list nat) (ls : list layer) (H : lheap D) : lheap D :=
  match ids, ls with p :: r, l :: q => put_layers r q (upd p (HDense l) H) | _, _ => H end.

Lemma dense_at_upd H ids ls p h : ~ In p ids -> dense_at H ids ls -> dense_at (upd p h H) ids ls.
Proof.
  intros Hp Hd. induction Hd as [|q l ids ls Hq Hd IH]; constructor.
  - rewrite nth_error_upd. destruct (Nat.eqb_spec q p) as [->|]; [exfalso; apply Hp; now left|assumption].
  - apply IH. intros Hin. apply Hp. now right.
Qed.
Lemma put_layers_other ids ls : forall H p, ~ In p ids -> nth_error (put_layers ids ls H) p = nth_error H p.
Proof.
  revert ls. induction ids as [|q ids IH]; intros [|l ls] H p Hp; try reflexivity. cbn [put_layers]. rewrite IH by (intros X; apply Hp; now right).
  rewrite nth_error_upd. destruct (Nat.eqb_spec p q) as [->|]; [exfalso; apply Hp; now left|reflexivity].
Qed.
Lemma put_layers_at ids ls : forall H, NoDup ids -> (forall p, In p ids -> p < length H) -> length ids = length ls ->
  dense_at (put_layers ids ls H) ids ls.
Proof.
  revert ls. induction ids as [|q ids IH]; intros [|l ls] H Hn Hl E; try discriminate; [constructor|]. cbn [put_layers].
  inversion Hn as [|a b Ha Hb]; subst. constructor.
  - rewrite put_layers_other by assumption. rewrite nth_error_upd, Nat.eqb_refl.
    destruct (nth_error H q) eqn:Eq; [reflexivity|]. apply nth_error_None in Eq. specialize (Hl q (or_introl eq_refl)). lia.
  - apply IH; [assumption| |simpl in E; lia]. intros p Hp. rewrite upd_length. apply Hl. now right.
Qed.
Lemma put_layers_length ids ls : forall H, length (put_layers ids ls H) = length H.
Proof. revert ls. induction ids as [|q ids IH]; intros [|l ls] H; try reflexivity. cbn [put_layers]. now rewrite IH, upd_length. Qed.
Lemma dense_lt H ids ls : dense_at H ids ls -> forall p, In p ids -> p < length H.
Proof.
  induction 1 as [|q l ids ls Hq Hd IH]; intros p []; [subst; apply nth_error_Some; congruence|auto].
Qed.
Lemma dense_len H ids ls : dense_at H ids ls -> length ids = length ls.
Proof. induction 1; simpl; congruence. Qed.
Lemma put_layers_upd ids ls : forall H p h, ~ In p ids -> upd p h (put_layers ids ls H) = put_layers ids ls (upd p h H).
Proof.
  assert (C : forall (H : lheap D) p q h k, p <> q -> upd p h (upd q k H) = upd q k (upd p h H)).
  { induction H as [|x H IH]; intros [|p] [|q] h k Hne; simpl; try reflexivity; try lia. f_equal. apply IH. lia. }
  revert ls. induction ids as [|q ids IH]; intros [|l ls] H p h Hp; try reflexivity. cbn [put_layers].
  rewrite IH by (intros X; apply Hp; now right). f_equal. apply C. intros ->. apply Hp. now left.
Qed.
Lemma upd_twice {A} p (a b : A) l : upd p a (upd p b l) = upd p a l.
Proof. revert p. induction l as [|x l IH]; intros [|p]; simpl; try reflexivity. now rewrite IH. Qed.
Lemma put_put ids : forall ls ls' H, NoDup ids -> length ids = length ls -> length ls = length ls' ->
  put_layers ids ls' (put_layers ids ls H) = put_layers ids ls' H.
Proof.
  induction ids as [|p ids IH]; intros [|l ls] [|l' ls'] H Hn E1 E2; try discriminate; [reflexivity|]. inversion Hn; subst. cbn [put_layers].
  rewrite put_layers_upd by assumption. rewrite IH by (simpl in *; auto; lia). rewrite upd_twice. reflexivity.
Qed.

Lemma hidden_forward_dense : forall ids ls H x, NoDup ids -> dense_at H ids ls ->
  hidden_forward junk ids x H = ('(a, ls') <- lforward ls x ;; Ok (a, put_layers ids ls' H)).
Proof.
  induction ids as [|p ids IH]; intros ls H x Hn Hd; inversion Hd as [|q l ids' ls0 Hp Hd' E1 E2]; subst; [reflexivity|].
  inversion Hn as [|a b Ha Hb]; subst. cbn [hidden_forward lforward]. unfold lget. rewrite Hp. cbn [bind h_forward].
  destruct (forwardprop l x) as [[a l']| | |]; cbn [bind]; try reflexivity.
  rewrite (IH ls0) by (try assumption; now apply dense_at_upd).
  destruct (lforward ls0 a) as [[b r']| | |]; cbn [bind]; reflexivity.
Qed.
Lemma lforward_len ls : forall x a ls', lforward ls x = Ok (a, ls') -> length ls' = length ls.
Proof.
  induction ls as [|l ls IH]; intros x a ls' H; cbn [lforward] in H; [injection H as <- <-; reflexivity|].
  apply bind_ok in H as ([b l'] & _ & H). apply bind_ok in H as ([c r'] & H2 & H). injection H as <- <-. simpl. f_equal. eauto.
Qed.
Lemma lbackprop_len ls : forall d a ls', lbackprop ls d = Ok (a, ls') -> length ls' = length ls.
Proof.
  induction ls as [|l ls IH]; intros d a ls' H; cbn [lbackprop] in H; [injection H as <- <-; reflexivity|].
  apply bind_ok in H as ([b l'] & H2 & H). apply bind_ok in H as ([c r'] & _ & H). injection H as <- <-. simpl. f_equal. eauto.
Qed.

(** backward pass with the final delta kept *)
Fixpoint hb (rids : list nat) (d : mat) (H : lheap D) : res (mat * lheap D) :=
  match rids with
  | [] => Ok (d, H)
  | p :: r => h <- lget H p ;; '(d', h') <- h_backprop junk h d ;; hb r d' (upd p h' H)
  end.
Lemma hb_app r1 : forall r2 d H, hb (r1 ++ r2) d H = ('(d', H') <- hb r1 d H ;; hb r2 d' H').
Proof.
  induction r1 as [|p r1 IH]; intros r2 d H; [reflexivity|]. simpl. destruct (lget H p) as [h| | |]; cbn [bind]; try reflexivity.
  destruct (h_backprop junk h d) as [[d' h']| | |]; cbn [bind]; try reflexivity. apply IH.
Qed.
Lemma hb_hidden r : forall d H, hidden_backprop junk r d H = ('(_, H') <- hb r d H ;; Ok H').
Proof.
  induction r as [|p r IH]; intros d H; [reflexivity|]. simpl. destruct (lget H p) as [h| | |]; cbn [bind]; try reflexivity.
  destruct (h_backprop junk h d) as [[d' h']| | |]; cbn [bind]; try reflexivity. apply IH.
Qed.
Lemma hb_dense : forall ids ls H d, NoDup ids -> dense_at H ids ls ->
  hb (rev ids) d H = ('(a, ls') <- lbackprop ls d ;; Ok (a, put_layers ids ls' H)).
Proof.
  induction ids as [|p ids IH]; intros ls H d Hn Hd; inversion Hd as [|q l ids' ls0 Hp Hd' E1 E2]; subst; [reflexivity|].
  inversion Hn as [|a b Ha Hb]; subst. simpl rev. rewrite hb_app, (IH ls0) by assumption. cbn [lbackprop].
  destruct (lbackprop ls0 d) as [[b r']| | |] eqn:E; cbn [bind]; try reflexivity. cbn [hb]. unfold lget.
  rewrite put_layers_other by assumption. rewrite Hp. cbn [bind h_backprop].
  destruct (backprop l b) as [[c l']| | |]; cbn [bind]; try reflexivity. cbn [put_layers]. now rewrite put_layers_upd.
Qed.
Lemma hidden_backprop_dense ids ls H d : NoDup ids -> dense_at H ids ls ->
  hidden_backprop junk (rev ids) d H = ('(_, ls') <- lbackprop ls d ;; Ok (put_layers ids ls' H)).
Proof.
  intros Hn Hd. rewrite hb_hidden, (hb_dense _ ls) by assumption. destruct (lbackprop ls d) as [[b r']| | |]; reflexivity.
Qed.

(** ** A network with distinct dense hidden layers *)
Definition dense_net (n : net D) (H : lheap D) (ls : list layer) : Prop := NoDup (n_hidden n) /\ dense_at H (n_hidden n) ls.

Lemma net_forward_dense n H ls x : dense_net n H ls ->
  net_forward junk n H x =
    ('(a, ls') <- lforward ls x ;;
     '(r, o') <- output_forward (n_output n) a ;;
     Ok (r, set_result (set_output (set_input n (snd (input_forward (n_input n) x))) o') r, put_layers (n_hidden n) ls' H)).
Proof.
  intros [Hn Hd]. unfold net_forward. cbn [input_forward]. rewrite (hidden_forward_dense _ ls) by assumption.
  destruct (lforward ls x) as [[a ls']| | |]; cbn [bind]; reflexivity.
Qed.
Lemma net_backprop_dense n H ls y : dense_net n H ls ->
  net_backprop junk n H y =
    ('(d, o') <- output_backprop (n_output n) y ;;
     '(_, ls') <- lbackprop ls d ;;
     Ok (set_output n o', put_layers (n_hidden n) ls' H)).
Proof.
  intros [Hn Hd]. unfold net_backprop. destruct (output_backprop (n_output n) y) as [[d o']| | |]; cbn [bind]; try reflexivity.
  rewrite (hidden_backprop_dense _ ls) by assumption. destruct (lbackprop ls d) as [[b r']| | |]; reflexivity.
Qed.
Lemma dense_put n H ls ls' : dense_net n H ls -> length ls' = length ls -> dense_at (put_layers (n_hidden n) ls' H) (n_hidden n) ls'.
Proof.
  intros [Hn Hd] E. apply put_layers_at; [assumption|eapply dense_lt; eauto|]. rewrite (dense_len _ _ _ Hd). auto.
Qed.

(** ** From the heap to the list of layers *)
(** Hidden layers are distinct dense layers; these are their weight matrices. *)
Definition dense_hidden (n : net D) (H : lheap D) : Prop :=
  NoDup (n_hidden n) /\ forall p, In p (n_hidden n) -> exists l, nth_error H p = Some (HDense l).
Definition hidden_layers (n : net D) (H : lheap D) : res (list layer) :=
  mapM (net_gethidden n H) (seq 0 (length (n_hidden n))).

Lemma layer_copy_id (l : layer) : layer_copy l = l.
Proof. destruct l; reflexivity. Qed.
Lemma dense_ls (n : net D) (H : lheap D) : dense_hidden n H -> exists ls, dense_net n H ls.
Proof.
  intros [Hn Hd]. unfold dense_net. enough (exists ls, dense_at H (n_hidden n) ls) as [ls X] by eauto.
  clear Hn. induction (n_hidden n) as [|p ids IH]; [exists []; constructor|]. destruct (Hd p (or_introl eq_refl)) as [l Hl].
  destruct IH as [ls Hls]; [intros; apply Hd; now right|]. exists (l :: ls). constructor; assumption.
Qed.
Lemma gethidden_at (n : net D) (H : lheap D) ls i : dense_at H (n_hidden n) ls ->
  net_gethidden n H i = match nth_error ls i with Some l => Ok l | None => Undef OutOfBounds end.
Proof.
  unfold net_gethidden. intros Hd. revert i. induction Hd as [|p l ids ls Hp Hd IH]; intros [|i]; cbn [nth_error]; try reflexivity; [|apply IH].
  unfold lget. rewrite Hp. cbn. now rewrite layer_copy_id.
Qed.
Lemma hidden_layers_dense (n : net D) H ls : dense_at H (n_hidden n) ls -> hidden_layers n H = Ok ls.
Proof.
  intros Hd. unfold hidden_layers. apply mapM_ok. rewrite (dense_len _ _ _ Hd). apply Forall2_intro_nth; [apply seq_length|].
  intros i k l Hk Hl. assert (i < length ls) by (apply nth_error_Some; congruence).
  rewrite (nth_error_nth' (seq 0 (length ls)) 0) in Hk by (rewrite seq_length; lia). rewrite seq_nth in Hk by lia. injection Hk as <-.
  rewrite (gethidden_at n H ls) by assumption. cbn [Nat.add]. now rewrite Hl.
Qed.
Lemma lforward_W ls : forall x a ls', lforward ls x = Ok (a, ls') -> Forall2 (fun l l' : layer => l_W l' = l_W l /\ l_lambda l' = l_lambda l /\ l_lrate l' = l_lrate l /\ l_act l' = l_act l) ls ls'.
Proof.
  induction ls as [|l ls IH]; intros x a ls' H; cbn [lforward] in H; [injection H as <- <-; constructor|].
  apply bind_ok in H as ([b l'] & H1 & H). apply bind_ok in H as ([c r'] & H2 & H). injection H as <- <-.
  apply forward_inv in H1 as (_ & _ & ->). constructor; [cbn; auto|eauto].
Qed.
Lemma lbackprop_W ls : forall d a ls', lbackprop ls d = Ok (a, ls') -> Forall2 (fun l l' : layer => l_W l' = l_W l /\ l_lambda l' = l_lambda l /\ l_lrate l' = l_lrate l /\ l_act l' = l_act l) ls ls'.
Proof.
  induction ls as [|l ls IH]; intros d a ls' H; cbn [lbackprop] in H; [injection H as <- <-; constructor|].
  apply bind_ok in H as ([b l'] & H2 & H). apply bind_ok in H as ([c r'] & H1 & H). injection H as <- <-.
  apply backprop_inv in H1 as (_ & _ & ->). constructor; [cbn; auto|eauto].
Qed.

(** What one forward and one backward pass leave behind, in list form. *)
Lemma pass_dense (n : net D) (H : lheap D) ls x y a n1 H1 n2 H2 : dense_net n H ls ->
  net_forward junk n H x = Ok (a, n1, H1) -> net_backprop junk n1 H1 y = Ok (n2, H2) ->
  exists b ls1 delta ls2 dx, lforward ls x = Ok (b, ls1) /\
    let ol := fwd_layer (o_l (n_output n)) b in
    fwd_ok (l_W (o_l (n_output n))) b /\ a = fwd_out (o_l (n_output n)) b /\
    o_costd (n_output n) y a (l_z ol) = Ok delta /\ nr delta = nr b /\ nc delta = nc (l_W (o_l (n_output n))) /\
    lbackprop ls1 (down ol delta) = Ok (dx, ls2) /\
    dense_net n1 H1 ls1 /\ dense_net n2 H2 ls2 /\ o_l (n_output n2) = back_layer ol delta /\
    n_hidden n2 = n_hidden n /\ n_cost n2 = n_cost n /\ n_cost n1 = n_cost n.
Proof.
  intros Hdn HF HB. rewrite (net_forward_dense n H ls) in HF by assumption.
  apply bind_ok in HF as ([b ls1] & HF1 & HF). apply bind_ok in HF as ([r o'] & HF2 & HF). injection HF as -> <- <-.
  apply out_forward_inv in HF2 as (Hok & -> & ->).
  assert (Hdn1 : dense_net (set_result (set_output (set_input n (snd (input_forward (n_input n) x))) (O (fwd_layer (o_l (n_output n)) b) (o_cost (n_output n)) (o_costd (n_output n)) (o_y (n_output n)))) (fwd_out (o_l (n_output n)) b))
              (put_layers (n_hidden n) ls1 H) ls1).
  { split; [apply Hdn|]. cbn. eapply dense_put; [eassumption|]. eapply lforward_len; eauto. }
  rewrite (net_backprop_dense _ _ ls1) in HB by assumption. apply bind_ok in HB as ([d o2] & HB1 & HB). apply bind_ok in HB as ([dx ls2] & HB2 & HB).
  injection HB as <- <-. apply out_backprop_inv in HB1 as (delta & D1 & D2 & D3 & D4 & D5 & -> & ->).
  exists b, ls1, delta, ls2, dx. cbn [set_result set_output set_input n_output o_l o_costd fwd_layer l_pa l_W l_a nr nc mk] in *.
  repeat (split; [solve [auto]|]).
  split. { split; [apply Hdn|]. cbn. eapply dense_put; [exact Hdn1|]. eapply lbackprop_len; eauto. }
  repeat split.
Qed.

End NetP.

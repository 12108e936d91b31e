(** P_Examples.v - C85: networks built by the constructors; the two programs in /repo/example. *)
From Verif Require Import Base Mat Act Layer Conv Misc Net NetP Trainer TrainP TrainP2 ExNet P_Train P_Pred P_Mom.
From Coq Require Import Arith List ZArith Lia.
Import ListNotations.
Local Open Scope nat_scope.

Section Examples.
Context {D : dtype}.
Notation mat := (mat D).
Notation layer := (layer D).
Context (draw : D -> nat -> D) (junk : nat -> D).

(** ** Model *)
(** The arguments of one [std::make_shared<Layer>(pnnodes, nnodes, lrate, standard_dev, lambda, actfunc)];
    the form without standard_dev is the one with 1 (layer.cpp:18-23). *)
Record hspec := HS { h_pn : Z; h_n : Z; h_rate : D; h_dev : D; h_lam : D; h_act : actfunc D }.
(** A braced list of such calls: example/xor_problem.cpp:73-78, example/spiral.cpp:66-69.  Every call makes a new object. *)
Fixpoint make_hidden (ss : list hspec) (H : lheap D) : res (list nat * lheap D) :=
  match ss with
  | [] => Ok ([], H)
  | s :: ss => l <- layer_new draw junk (h_pn s) (h_n s) (h_rate s) (h_dev s) (h_lam s) (h_act s) ;;
      '(ids, H') <- make_hidden ss (H ++ [HDense l]) ;; Ok (length H :: ids, H')
  end.
(** example/xor_problem.cpp:25-28 and :30-33 (free functions that the program hands to OutputLayer) *)
Definition xor_cost : costfun (D := D) := fun y h =>
  p <- mschur y (funcop h dlog) ;; q <- mschur (mmap (fun v => dsub (dofZ 1) v) y) (funcop (mmap (fun v => dsub (dofZ 1) v) h) dlog) ;;
  s <- madd p q ;; Ok (divs (mmap dneg s) (rowsD y)).
Definition xor_costd : costdfun (D := D) := fun y a _ => grad <- msub a y ;; Ok (divs grad (rowsD y)).
(** Reading the samples: example/xor_problem.cpp:35-55, example/spiral.cpp:28-48.  [opened]: both files could be opened;
    [xs i j], [ys i]: what the extractions of row i yield (a failed extraction yields 0).  y(i, yi) = 1 throws unless yi is a
    column of y.  Simplification: the characters of the files are not modelled. *)
Definition load (rows cols classes : nat) (opened : bool) (xs : nat -> nat -> D) (ys : nat -> Z) : res (mat * mat) :=
  if opened then
    (if forallb (fun i => (0 <=? ys i)%Z && (ys i <? Z.of_nat classes)%Z) (seq 0 rows)
     then Ok (mk rows cols xs, mk rows classes (fun i j => if (ys i =? Z.of_nat j)%Z then dofZ 1 else dofZ 0)) else Throw)
  else Ok (mat_uninit junk rows cols, mk rows classes (fun _ _ => dofZ 0)).
(** Both loadsample functions: a grid of w h points with two coordinates (xor_problem.cpp:56-62, spiral.cpp:49-57); the
    coordinates are a parameter. *)
Definition loadsample (w h : nat) (px : nat -> nat -> D) : mat := mk (w * h) 2 px.

(** example/spiral.cpp:59-100: build, load, train [iters] times, predict, colour pixel (i/w, i%w) by result(i, 0).
    Yields the reported costs and, per pixel in the order drawn, its position and the class. *)
Fixpoint spiral_train (k : nat) (t : trainer D) (n : net D) (H : lheap D) (x y : mat) : res (list D * trainer D * net D * lheap D) :=
  match k with
  | 0 => Ok ([], t, n, H)
  | S k => '(c, t1, n1, H1) <- feeddata_cost junk t n H x y true ;; '(cs, t2, n2, H2) <- spiral_train k t1 n1 H1 x y ;; Ok (c :: cs, t2, n2, H2)
  end.
Fixpoint xor_train (k : nat) (t : mtrainer D) (n : net D) (H : lheap D) (x y : mat) : res (list D * mtrainer D * net D * lheap D) :=
  match k with
  | 0 => Ok ([], t, n, H)
  | S k => '(c, t1, n1, H1) <- momentum_feeddata_cost junk t n H x y true ;; '(cs, t2, n2, H2) <- xor_train k t1 n1 H1 x y ;; Ok (c :: cs, t2, n2, H2)
  end.
Definition drawn (w : nat) (result : mat) : list ((nat * nat) * D) := map (fun i => ((i / w, i mod w), at_ result i 0)) (seq 0 (nr result)).
Definition spiral (w h iters : nat) (lrate dev : D) (opened : bool) (xs : nat -> nat -> D) (ys : nat -> Z) (px : nat -> nat -> D) : res (list D * list ((nat * nat) * D)) :=
  input <- input_new junk 2 ;;
  '(hidden, H) <- make_hidden [HS 2 64 lrate dev (dofZ 0) arctan; HS 64 16 lrate dev (dofZ 0) arctan] [] ;;
  output <- softmax_output draw junk 16 3 lrate d1 (dofZ 0) ;;
  n <- net_new draw junk input output hidden ;;
  '(x, y) <- load 300 2 3 opened xs ys ;;
  '(cs, _, n1, H1) <- spiral_train iters trainer_new n H x y ;;
  '(result, _, _) <- net_predict junk n1 H1 (loadsample w h px) ;;
  Ok (cs, drawn w result).
(** example/xor_problem.cpp:64-101 (the momentum is 0.5 there). *)
Definition xor_problem (w h iters : nat) (lrate mu : D) (opened : bool) (xs : nat -> nat -> D) (ys : nat -> Z) (px : nat -> nat -> D) : res (list D * list ((nat * nat) * D)) :=
  input <- input_new junk 2 ;;
  '(hidden, H) <- make_hidden [HS 2 6 lrate d1 (dofZ 0) arctan; HS 6 6 lrate d1 (dofZ 0) relu; HS 6 6 lrate d1 (dofZ 0) sigmoid; HS 6 6 lrate d1 (dofZ 0) arctan] [] ;;
  output <- output_of (layer_new draw junk 6 2 lrate d1 (dofZ 0) sigmoid) xor_cost xor_costd ;;
  n <- net_new draw junk input output hidden ;;
  t <- momentum_new mu n H ;;
  '(x, y) <- load 100 2 2 opened xs ys ;;
  '(cs, _, n1, H1) <- xor_train iters t n H x y ;;
  '(result, _, _) <- net_predict junk n1 H1 (loadsample w h px) ;;
  Ok (cs, drawn w result).

(** ** Specification *)
(** Consecutive layers agree about the number of units between them. *)
Fixpoint sizes_agree (p : Z) (ss : list hspec) (q : Z) : Prop :=
  match ss with [] => p = q | s :: ss => h_pn s = p /\ (1 <= h_n s)%Z /\ sizes_agree (h_n s) ss q end.
(** Every pixel of the w x h picture is drawn exactly once, each with one of the classes 0 .. c-1. *)
Definition full_picture (w h c : nat) (ps : list ((nat * nat) * D)) : Prop :=
  (forall r k, (r < h /\ k < w) <-> In (r, k) (map fst ps)) /\ NoDup (map fst ps) /\ Forall (fun p => exists k, k < c /\ snd p = dofZ (Z.of_nat k)) ps.
Definition labels_ok (rows classes : nat) (opened : bool) (ys : nat -> Z) : Prop := opened = true -> forall i, i < rows -> (0 <= ys i < Z.of_nat classes)%Z.

(** ** Proof *)
Lemma layer_new_ok pn n lr sd la f : (1 <= pn)%Z -> (1 <= n)%Z -> exists l, layer_new draw junk pn n lr sd la f = Ok l /\ nr (l_W l) = Z.to_nat pn + 1 /\ nc (l_W l) = Z.to_nat n /\ l_lrate l = lr /\ l_lambda l = la /\ l_act l = f.
Proof.
  intros A B. unfold layer_new. replace (0 <=? pn + 1)%Z with true by (symmetry; apply Z.leb_le; lia). replace (0 <=? n)%Z with true by (symmetry; apply Z.leb_le; lia). cbn [andb]. eexists. split; [reflexivity|].
  cbn [randominit set_W l_W l_lrate l_lambda l_act randominit_w mmap nr nc mk mat_uninit]. repeat split. lia.
Qed.
Lemma make_hidden_ok : forall ss H p q, (1 <= p)%Z -> sizes_agree p ss q -> exists ids ls, make_hidden ss H = Ok (ids, H ++ map HDense ls) /\ ids = seq (length H) (length ss) /\ length ls = length ss /\ fits (Z.to_nat p) ls (Z.to_nat q) /\ (1 <= q)%Z.
Proof.
  induction ss as [|s ss IH]; intros H p q Hp HS; cbn [make_hidden sizes_agree] in *.
  - subst q. exists [], []. rewrite app_nil_r. cbn. auto.
  - destruct HS as (<- & Hn & HS). destruct (layer_new_ok (h_pn s) (h_n s) (h_rate s) (h_dev s) (h_lam s) (h_act s) Hp Hn) as (l & -> & A & B & _). cbn [bind].
    destruct (IH (H ++ [HDense l]) _ _ Hn HS) as (ids & ls & -> & E & L & F & Q). cbn [bind]. exists (length H :: ids), (l :: ls). rewrite <- app_assoc. split; [reflexivity|].
    rewrite app_length in E. cbn [length] in *. rewrite Nat.add_1_r in E. split; [cbn; now rewrite E|]. split; [lia|]. split; [|exact Q]. cbn [fits]. rewrite B. split; [lia|]. split; [lia|exact F].
Qed.
Lemma input_copy_ok (l : layer) : exists l', input_copy draw junk l = Ok l'.
Proof. unfold input_copy, layer_new. replace (0 <=? Z.of_nat (nr (l_W l)) + 1)%Z with true by (symmetry; apply Z.leb_le; lia). replace (0 <=? Z.of_nat (nc (l_W l)))%Z with true by (symmetry; apply Z.leb_le; lia). cbn. eauto. Qed.
Lemma input_new_ok p : (0 <= p)%Z -> exists l, input_new junk p = Ok l.
Proof. intros. unfold input_new. replace (0 <=? p)%Z with true by (symmetry; apply Z.leb_le; lia). eauto. Qed.

Theorem C85_built : forall p ss q c (lr sd la : D) f C cd input,
  (1 <= p)%Z -> (1 <= c)%Z -> sizes_agree p ss q ->
  (cd = quad_costd \/ cd = ce_costd \/ cd = kl_costd \/ cd = sm_costd) -> (C = quad_cost \/ C = ce_cost \/ C = kl_cost \/ C = sm_cost) ->
  exists ids H output n, make_hidden ss [] = Ok (ids, H) /\ output_of (layer_new draw junk q c lr sd la f) C cd = Ok output /\
    net_new draw junk input output ids = Ok n /\ well_sized n H (Z.to_nat p) (Z.to_nat c).
Proof.
  intros p ss q c lr sd la f C cd input Hp Hc HS HCd HC. destruct (make_hidden_ok ss [] p q Hp HS) as (ids & ls & E & Ei & L & F & Hq). cbn [app length] in E, Ei. exists ids, (map HDense ls).
  destruct (layer_new_ok q c lr sd la f Hq Hc) as (o & Eo & A & B & _). rewrite Eo. unfold output_of. cbn [bind].
  destruct (input_copy_ok input) as (i1 & E1). destruct (input_copy_ok i1) as (i2 & E2). unfold net_new. rewrite E1. cbn [bind]. rewrite E2. cbn [bind].
  do 2 eexists. split; [exact E|]. split; [reflexivity|]. split; [reflexivity|].
  assert (DN : dense_at (map HDense ls) ids ls).
  { subst ids. rewrite <- L. apply Forall2_intro_nth; [apply seq_length|]. intros i a b Ea Eb. pose proof (nth_error_Some ls i) as X. rewrite Eb in X. assert (i < length ls) by (apply X; discriminate).
    rewrite (nth_error_nth' _ 0), seq_nth in Ea by (rewrite ?seq_length; assumption). injection Ea as <-. cbn. now apply map_nth_error. }
  assert (ND : NoDup ids) by (subst ids; apply seq_NoDup).
  split; [|split; [|split]].
  - split; [exact ND|]. cbn [n_hidden]. intros k Hk. clear -DN Hk. revert DN. generalize (map (HDense (D := D)) ls). intros H DN. unfold dense_at in DN. induction DN as [|a l ids0 ls0 A B IH]; [destruct Hk|]. destruct Hk as [<- |Hk]; eauto.
  - exists ls. split; [apply hidden_layers_dense; exact DN|]. exists (Z.to_nat q). cbn [n_output output_copy o_l layer_copy l_W]. repeat split; try assumption; lia.
  - exact HCd.
  - exact HC.
Qed.

(** *** Prediction and picture *)
Lemma row_argmax_lt (a : mat) i : 1 <= nc a -> fst (row_argmax a i) < nc a.
Proof.
  intros Hc. unfold row_argmax. assert (G : forall js b, fst b < nc a -> (forall j, In j js -> j < nc a) -> fst (fold_left (fun best j => if dltb (snd best) (at_ a i j) then (j, at_ a i j) else best) js b) < nc a).
  { induction js as [|j js IH]; intros b Hb Hj; cbn [fold_left]; [exact Hb|]. apply IH; [|intros; apply Hj; now right]. destruct (dltb _ _); [apply Hj; now left|exact Hb]. }
  apply G; [cbn; lia|]. intros j Hj%in_seq. lia.
Qed.
Lemma predict_classes (n : net D) (H : lheap D) p c (x : mat) : well_sized n H p c -> 1 <= p -> 1 <= c -> 1 <= nr x -> nc x = p ->
  exists m n' H', net_predict junk n H x = Ok (m, n', H') /\ nr m = nr x /\ forall i, i < nr x -> exists k, k < c /\ at_ m i 0 = dofZ (Z.of_nat k).
Proof.
  intros Hw Hp Hc Hx Hxp. destruct (C34_total junk n H p c x Hw Hp Hc Hx Hxp) as (m & n' & H' & E & A & B). exists m, n', H'. split; [exact E|]. split; [exact A|]. intros i Hi.
  unfold net_predict in E. apply bind_ok in E as ([[r n1] H1] & E1 & E). apply bind_ok in E as (m1 & E2 & E). injection E as <- <- <-.
  unfold argmax in E2. destruct ((nc _ =? 0) && _); [discriminate|]. injection E2 as <-. cbn [nr mk] in A. rewrite at_mk by lia.
  unfold net_forward in E1. destruct (input_forward _ x) as [cur i']. apply bind_ok in E1 as ([cur' H2] & _ & E1). apply bind_ok in E1 as ([r' o'] & EO & E1). injection E1 as <- <- <-.
  unfold output_forward in EO. apply bind_ok in EO as ([a l] & EO & Q). injection Q as <- <-. apply forward_inv in EO as (_ & -> & ->).
  cbn [set_result set_output set_input n_output n_result o_l fwd_layer l_a] in *.
  exists (fst (row_argmax (fwd_out (o_l (n_output n)) cur') i)). split; [|reflexivity]. rewrite <- B. apply row_argmax_lt. lia.
Qed.
Lemma drawn_full w h c (m : mat) : 1 <= w -> nr m = w * h -> (forall i, i < w * h -> exists k, k < c /\ at_ m i 0 = dofZ (Z.of_nat k)) -> full_picture w h c (drawn w m).
Proof.
  intros Hw E A. unfold full_picture, drawn. rewrite map_map. cbn [fst]. rewrite E. split; [|split].
  - intros r k. rewrite in_map_iff. split.
    + intros [Hr Hk]. exists (w * r + k). split; [|apply in_seq; nia]. f_equal; [symmetry; apply (Nat.div_unique _ w r k); lia|symmetry; apply (Nat.mod_unique _ w r k); lia].
    + intros (i & Q & Hi%in_seq). injection Q as <- <-. split; [apply Nat.div_lt_upper_bound; lia|apply Nat.mod_upper_bound; lia].
  - apply (NoDup_map_inv (fun p => w * fst p + snd p)). rewrite map_map. cbn [fst snd]. rewrite (map_ext _ (fun i => i)) by (intros i; symmetry; apply Nat.div_mod; lia). rewrite map_id. apply seq_NoDup.
  - apply Forall_forall. intros p Hp. apply in_map_iff in Hp as (i & <- & Hi%in_seq). cbn [snd]. apply A. lia.
Qed.
Lemma load_ok rows cols classes opened xs ys : 1 <= rows -> labels_ok rows classes opened ys -> exists x y, load rows cols classes opened xs ys = Ok (x, y) /\ samples cols classes (x, y).
Proof.
  intros Hr HL. unfold load. destruct opened.
  - rewrite (proj2 (forallb_forall _ _)); [|intros i Hi%in_seq; specialize (HL eq_refl i ltac:(lia)); apply andb_true_iff; split; [apply Z.leb_le|apply Z.ltb_lt]; lia]. do 2 eexists. split; [reflexivity|]. repeat split. exact Hr.
  - do 2 eexists. split; [reflexivity|]. repeat split. exact Hr.
Qed.
Lemma spiral_train_ok x y p c : 1 <= p -> samples p c (x, y) -> forall k t n H, well_sized n H p c -> exists cs t' n' H', spiral_train k t n H x y = Ok (cs, t', n', H') /\ length cs = k /\ well_sized n' H' p c.
Proof.
  intros Hp HS. induction k as [|k IH]; intros t n H Hw; cbn [spiral_train].
  - exists [], t, n, H. auto.
  - destruct (C56_trainer junk p c [(x, y, true)] t n H Hp Hw) as (t1 & n1 & H1 & E & W1); [repeat constructor; apply HS|]. cbn [foldM fst snd] in E. apply bind_ok in E as ([[t2 n2] H2] & E & Q). injection Q as <- <- <-. apply bind_ok in E as ([[[v t3] n3] H3] & E & Q). injection Q as <- <- <-. rewrite E. cbn [bind].
    destruct (IH t3 _ _ W1) as (cs & t' & n' & H' & -> & L & W'). cbn [bind]. do 4 eexists. split; [reflexivity|]. split; [cbn; lia|exact W'].
Qed.
Lemma xor_train_ok x y : forall k t n H t' n' H',
  foldM (fun '(t, n, H) (d : mat * mat * bool) => '(_, t', n', H') <- momentum_feeddata_cost junk t n H (fst (fst d)) (snd (fst d)) (snd d) ;; Ok (t', n', H')) (repeat (x, y, true) k) (t, n, H) = Ok (t', n', H') ->
  exists cs, xor_train k t n H x y = Ok (cs, t', n', H') /\ length cs = k.
Proof.
  induction k as [|k IH]; intros t n H t' n' H' E; cbn [repeat foldM xor_train] in *.
  - injection E as <- <- <-. exists []. auto.
  - apply bind_ok in E as ([[t2 n2] H2] & E1 & E). apply bind_ok in E1 as ([[[v t3] n3] H3] & E1 & Q). injection Q as <- <- <-. cbn [fst snd] in E1. rewrite E1. cbn [bind]. destruct (IH _ _ _ _ _ _ E) as (cs & -> & L). cbn [bind]. eexists. split; [reflexivity|]. cbn. lia.
Qed.
Lemma xor_cost_ce : xor_cost = ce_cost /\ xor_costd = ce_costd. Proof. split; reflexivity. Qed.

(** ** C85 *)
Theorem C85_spiral : forall w h iters lrate dev opened xs ys px, 1 <= w -> 1 <= h -> labels_ok 300 3 opened ys ->
  exists cs ps, spiral w h iters lrate dev opened xs ys px = Ok (cs, ps) /\ length cs = iters /\ full_picture w h 3 ps.
Proof.
  intros w h iters lrate dev opened xs ys px Hw Hh HL. unfold spiral. destruct (input_new_ok 2 ltac:(lia)) as (input & ->). cbn [bind].
  destruct (C85_built 2 [HS 2 64 lrate dev (dofZ 0) arctan; HS 64 16 lrate dev (dofZ 0) arctan] 16 3 lrate d1 (dofZ 0) identity sm_cost sm_costd input) as (ids & H & output & n & -> & EO & EN & W); [lia|lia|cbn; lia|auto|auto|].
  cbn [bind]. unfold softmax_output. rewrite EO. cbn [bind]. rewrite EN. cbn [bind].
  destruct (load_ok 300 2 3 opened xs ys) as (x & y & -> & HS); [apply Nat.leb_le; reflexivity|exact HL|]. cbn [bind].
  destruct (spiral_train_ok x y 2 3 ltac:(lia) HS iters trainer_new n H W) as (cs & t' & n' & H' & -> & L & W'). cbn [bind].
  destruct (predict_classes n' H' 2 3 (loadsample w h px) W') as (m & n2 & H2 & -> & A & B); [lia|lia|cbn [loadsample nr mk]; nia|reflexivity|]. cbn [bind].
  do 2 eexists. split; [reflexivity|]. split; [exact L|]. cbn [loadsample nr mk] in A, B. apply drawn_full; assumption.
Qed.
Theorem C85_xor : forall w h iters lrate mu opened xs ys px, 1 <= w -> 1 <= h -> labels_ok 100 2 opened ys ->
  exists cs ps, xor_problem w h iters lrate mu opened xs ys px = Ok (cs, ps) /\ length cs = iters /\ full_picture w h 2 ps.
Proof.
  intros w h iters lrate mu opened xs ys px Hw Hh HL. unfold xor_problem. destruct (input_new_ok 2 ltac:(lia)) as (input & ->). cbn [bind]. destruct xor_cost_ce as [-> ->].
  match goal with |- context [make_hidden ?ss []] => destruct (C85_built 2 ss 6 2 lrate d1 (dofZ 0) sigmoid ce_cost ce_costd input) as (ids & H & output & n & -> & EO & EN & W); [lia|lia|cbn; lia|auto|auto|] end.
  cbn [bind]. rewrite EO. cbn [bind]. rewrite EN. cbn [bind].
  destruct (load_ok 100 2 2 opened xs ys) as (x & y & EL & HS); [apply Nat.leb_le; reflexivity|exact HL|].
  destruct (C56_momentum junk 2 2 (repeat (x, y, true) iters) trainer_new mu n H ltac:(lia) W) as (t & t' & n' & H' & ET & E & W'); [apply Forall_forall; intros d Hd; apply repeat_spec in Hd; subst d; exact HS|].
  unfold momentum_new. rewrite ET. cbn [bind]. rewrite EL. cbn [bind]. destruct (xor_train_ok _ _ _ _ _ _ _ _ _ E) as (cs & -> & L). cbn [bind].
  destruct (predict_classes n' H' 2 2 (loadsample w h px) W') as (m & n2 & H2 & -> & A & B); [lia|lia|cbn [loadsample nr mk]; nia|reflexivity|]. cbn [bind].
  do 2 eexists. split; [reflexivity|]. split; [exact L|]. cbn [loadsample nr mk] in A, B. apply drawn_full; assumption.
Qed.
(** A label that is not a class ends both programs with an exception before the first training call. *)
Theorem C85_bad_label : forall w h iters lrate dev xs ys px,
  (~ labels_ok 300 3 true ys -> spiral w h iters lrate dev true xs ys px = Throw) /\ (~ labels_ok 100 2 true ys -> xor_problem w h iters lrate dev true xs ys px = Throw).
Proof.
  intros w h iters lrate dev xs ys px.
  assert (LT : forall rows cols classes, ~ labels_ok rows classes true ys -> load rows cols classes true xs ys = Throw).
  { intros rows cols classes HN. unfold load. destruct (forallb _ _) eqn:F; [|reflexivity]. exfalso. apply HN. intros _ i Hi. rewrite forallb_forall in F. specialize (F i). rewrite in_seq in F. specialize (F ltac:(lia)). apply andb_true_iff in F as [A B]. apply Z.leb_le in A. apply Z.ltb_lt in B. lia. }
  destruct (input_new_ok 2 ltac:(lia)) as (input & EI). split; intros HN.
  - unfold spiral. rewrite EI. cbn [bind].
    destruct (C85_built 2 [HS 2 64 lrate dev (dofZ 0) arctan; HS 64 16 lrate dev (dofZ 0) arctan] 16 3 lrate d1 (dofZ 0) identity sm_cost sm_costd input) as (ids & H & output & n & -> & EO & EN & W); [lia|lia|cbn; lia|auto|auto|].
    cbn [bind]. unfold softmax_output. rewrite EO. cbn [bind]. rewrite EN. cbn [bind]. now rewrite LT.
  - unfold xor_problem. rewrite EI. cbn [bind]. destruct xor_cost_ce as [-> ->].
    match goal with |- context [make_hidden ?ss []] => destruct (C85_built 2 ss 6 2 lrate d1 (dofZ 0) sigmoid ce_cost ce_costd input) as (ids & H & output & n & -> & EO & EN & W); [lia|lia|cbn; lia|auto|auto|] end.
    cbn [bind]. rewrite EO. cbn [bind]. rewrite EN. cbn [bind].
    destruct (C56_momentum junk 2 2 [] trainer_new dev n H ltac:(lia) W (Forall_nil _)) as (t & _ & _ & _ & ET & _). unfold momentum_new. rewrite ET. cbn [bind]. now rewrite LT.
Qed.
End Examples.
(** The hypotheses can be met: 100 or 300 samples whose labels cycle through the classes; a missing file. *)
Example C85_example : labels_ok 300 3 true (fun i => Z.of_nat (i mod 3)) /\ labels_ok 100 2 true (fun i => Z.of_nat (i mod 2)) /\ labels_ok 300 3 false (fun _ => 7%Z) /\ ~ labels_ok 300 3 true (fun _ => 3%Z).
Proof.
  split; [|split; [|split]].
  - intros _ i _. pose proof (Nat.mod_upper_bound i 3 ltac:(lia)). lia.
  - intros _ i _. pose proof (Nat.mod_upper_bound i 2 ltac:(lia)). lia.
  - discriminate.
  - intros A. specialize (A eq_refl 0 ltac:(apply Nat.ltb_lt; reflexivity)). lia.
Qed.

(** P_Alg.v - C90: matrix algebra is valid for tensor programs (exact arithmetic). *)
From Verif Require Import Base Mem Par Tensor TensorOps TSpec Hist TVal P_Val RInst RMat.
From Coq Require Import Arith List ZArith Lia Reals Lra.
Import ListNotations.
Local Open Scope Z_scope.

(** ** Specification *)
(** Matrix expressions over the variables of a program. *)
Inductive mexp :=
| MVar (x : nat) | MZeros (m n : Z) | MOnes (m n : Z) | MEye (n : Z)
| MAdd (a b : mexp) | MSub (a b : mexp) | MHad (a b : mexp) | MScale (v : R) (a : mexp) | MNeg (a : mexp)
| MMul (a b : mexp).

(** The size of the result, if the sizes fit and stay within int; G gives the sizes of the variables. *)
Fixpoint mty (G : nat -> option (Z * Z)) (t : mexp) : option (Z * Z) :=
  match t with
  | MVar x => match G x with Some (m, n) => if (0 <? m) && (0 <? n) then Some (m, n) else None | None => None end
  | MZeros m n | MOnes m n => if (0 <? m) && (0 <? n) && (m * n <=? INT_MAX) then Some (m, n) else None
  | MEye n => if (0 <? n) && (n * n <=? INT_MAX) then Some (n, n) else None
  | MAdd a b | MSub a b | MHad a b =>
      match mty G a, mty G b with Some (m, n), Some (m', n') => if (m =? m') && (n =? n') then Some (m, n) else None | _, _ => None end
  | MScale _ a | MNeg a => mty G a
  | MMul a b => match mty G a, mty G b with Some (m, k), Some (k', n) => if (k =? k') && (m * n <=? INT_MAX) then Some (m, n) else None | _, _ => None end
  end.
(** What the expression means in mathematics: entry (i, j). *)
Fixpoint mden (G : nat -> option (Z * Z)) (M : nat -> Z -> Z -> R) (t : mexp) (i j : Z) : R :=
  match t with
  | MVar x => M x i j
  | MZeros _ _ => 0%R
  | MOnes _ _ => 1%R
  | MEye _ => if i =? j then 1%R else 0%R
  | MAdd a b => (mden G M a i j + mden G M b i j)%R
  | MSub a b => (mden G M a i j - mden G M b i j)%R
  | MHad a b => (mden G M a i j * mden G M b i j)%R
  | MScale v a => (v * mden G M a i j)%R
  | MNeg a => (- mden G M a i j)%R
  | MMul a b => match mty G a with
                | Some (_, k) => sumN (Z.to_nat k) (fun l => mden G M a i (Z.of_nat l) * mden G M b (Z.of_nat l) j)%R
                | None => 0%R end
  end.
(** The declarations a client writes to compute it, one variable per operation; the next free variable is n.
    Results: the statements, the variable that holds the result, the next free variable.
    [sch], [msch]: the OpenMP schedules. *)
Fixpoint code (sch : nat -> list nat) (msch : nat -> Z -> list nat) (t : mexp) (n : nat) : list (stmt (D := Rdt)) * nat * nat :=
  let two op a b := let '(p1, r1, n1) := code sch msch a n in let '(p2, r2, n2) := code sch msch b n1 in
    (p1 ++ p2 ++ [SDecl (op n2 r1 r2)], n2, S n2) in
  let one op a := let '(p1, r1, n1) := code sch msch a n in (p1 ++ [SDecl (op n1 r1)], n1, S n1) in
  match t with
  | MVar x => ([], x, n)
  | MZeros r c => ([SDecl (ENew [r; c])], n, S n)
  | MOnes r c => ([SDecl (EOnes [r; c])], n, S n)
  | MEye r => ([SDecl (EEyes r)], n, S n)
  | MAdd a b => two (fun k => EBin BAdd (sch k)) a b
  | MSub a b => two (fun k => EBin BSub (sch k)) a b
  | MHad a b => two (fun k => EBin BMul (sch k)) a b
  | MScale v a => one (fun k => Hist.EUn (UMulv (D := Rdt) v) (sch k)) a
  | MNeg a => one (fun k => Hist.EUn UNeg (sch k)) a
  | MMul a b => two (fun k => EMat (msch k)) a b
  end.
(** Sizes and entries of the matrix variables after a program. *)
Definition size_of (a : venv Rdt) (x : nat) : option (Z * Z) :=
  match nth_error a x with Some (Some (V [m; n] (Some _))) => Some (m, n) | _ => None end.
Definition entry_of (a : venv Rdt) (x : nat) (i j : Z) : R :=
  match nth_error a x with Some (Some (V [_; n] (Some xs))) => entry xs (i * n + j) | _ => 0%R end.

(** ** Values *)
Definition mval (m n : Z) (f : Z -> Z -> R) : val Rdt := V (D := Rdt) [m; n] (Some (tab (D := Rdt) (m * n) (fun q => f (q / n) (q mod n)))).

Lemma tab_len {D : dtype} N (f : Z -> D) : 0 <= N -> Z.of_nat (length (tab N f)) = N.
Proof. intros H. unfold tab. rewrite map_length, zrange_length. lia. Qed.
Lemma tab_entry {D : dtype} N (f : Z -> D) i : 0 <= i < N -> entry (tab N f) i = f i.
Proof.
  intros H. unfold entry, tab. rewrite (nth_indep _ d0 (f 0)) by (rewrite map_length, zrange_length; lia). rewrite (map_nth f). f_equal.
  apply nth_error_nth. rewrite zrange_nth by lia. f_equal. lia.
Qed.
Lemma tab_ext {D : dtype} N (f g : Z -> D) : (forall i, 0 <= i < N -> f i = g i) -> tab N f = tab N g.
Proof. intros H. unfold tab. apply map_ext_in. intros i Hi. apply H. now apply in_zrange. Qed.
Lemma entry_tab {D : dtype} (xs : list D) N : Z.of_nat (length xs) = N -> xs = tab N (entry xs).
Proof.
  intros <-. unfold tab, zrange. rewrite Nat2Z.id, map_map. apply nth_ext with (d := d0) (d' := entry xs 0); [now rewrite map_length, seq_length|].
  intros i Hi. rewrite (nth_indep _ (entry xs 0) ((fun x => entry xs (Z.of_nat x)) 0%nat)) by (rewrite map_length, seq_length; lia). rewrite (map_nth (fun x => entry xs (Z.of_nat x))). rewrite seq_nth by assumption.
  unfold entry. now rewrite Nat2Z.id.
Qed.
Lemma tab_map {D : dtype} N (f : Z -> D) (g : D -> D) : map g (tab N f) = tab N (fun i => g (f i)).
Proof. unfold tab. now rewrite map_map. Qed.
Lemma tab_repeat {D : dtype} N (c : D) : repeat c (Z.to_nat N) = tab N (fun _ => c).
Proof. unfold tab, zrange. rewrite map_map. generalize (Z.to_nat N) 0%nat. induction n as [|n IH]; intros k; [reflexivity|]. cbn [repeat seq map]. now rewrite <- IH. Qed.
Lemma tab_zip {D : dtype} N (f g : Z -> D) (h : D -> D -> D) : zipw h (tab N f) (tab N g) = tab N (fun i => h (f i) (g i)).
Proof. unfold tab. generalize (zrange N). induction l as [|x l IH]; [reflexivity|]. unfold zipw in *. cbn in *. f_equal. exact IH. Qed.
Lemma numel2 m n : 0 < m -> numel [m; n] = m * n.
Proof. intros H. unfold numel, prodZ. cbn [fold_right]. destruct m; lia. Qed.
Lemma fold_sum (g : Z -> R) k : forall a s, fold_left (fun s l => s + g l)%R (map Z.of_nat (seq a k)) s = (s + sumN k (fun i => g (Z.of_nat (a + i))))%R.
Proof.
  induction k as [|k IH]; intros a s; [rewrite sumN_0; cbn; lra|]. cbn [seq map fold_left]. rewrite IH, sumN_S, Nat.add_0_r, Rplus_assoc. do 2 f_equal. apply sumN_ext. intros i _. do 2 f_equal. lia.
Qed.

Definition matches (G : nat -> option (Z * Z)) (M : nat -> Z -> Z -> R) (a : venv Rdt) : Prop :=
  forall x m n, G x = Some (m, n) -> 0 < m -> 0 < n -> nth_error a x = Some (Some (mval m n (M x))).
Lemma matches_app G M a b : matches G M a -> matches G M (a ++ b).
Proof. intros H x m n E Hm Hn. rewrite nth_error_app1; [auto|]. apply nth_error_Some. rewrite (H x m n E Hm Hn). discriminate. Qed.
Lemma mty_pos G t m n : mty G t = Some (m, n) -> 0 < m /\ 0 < n.
Proof.
  revert m n. induction t; intros m' n' E; cbn [mty] in E;
    repeat match goal with
    | H : (if ?c then _ else _) = Some _ |- _ => let C := fresh "C" in destruct c eqn:C; [|discriminate]
    | H : match ?c with Some _ => _ | None => _ end = Some _ |- _ => let C := fresh "C" in destruct c as [[? ?]|] eqn:C; [|discriminate]
    | H : Some _ = Some _ |- _ => injection H as <- <-
    | H : andb _ _ = true |- _ => apply andb_prop in H as [? ?]
    | H : (_ <? _) = true |- _ => apply Z.ltb_lt in H
    | H : (_ =? _) = true |- _ => apply Z.eqb_eq in H; subst
    end; auto; try (split; first [apply (IHt1 _ _ eq_refl)|apply (IHt2 _ _ eq_refl)]).
Qed.

Lemma vwt_app (p q : list (stmt (D := Rdt))) : forall a, vwt_run p a -> (forall a', vrun p a = Ok a' -> vwt_run q a') -> vwt_run (p ++ q) a.
Proof.
  induction p as [|s p IH]; intros a W H; cbn [app vwt_run] in *; [now apply H|]. destruct W as [W1 W2]. split; [exact W1|]. intros a' E. apply IH; [auto|]. intros a'' E'. apply H. unfold vrun. cbn [foldM]. rewrite E. exact E'.
Qed.
Lemma vrun_app (p q : list (stmt (D := Rdt))) : forall a, vrun (p ++ q) a = bind (vrun p a) (vrun q).
Proof. induction p as [|s p IH]; intros a; [reflexivity|]. unfold vrun in *. cbn [app foldM]. destruct (vexec s a); cbn [bind]; auto. Qed.
Lemma vrun_decl ex (a : venv Rdt) v : veval ex a = Ok v -> vrun [SDecl ex] a = Ok (a ++ [Some v]).
Proof. intros E. unfold vrun. cbn [foldM vexec]. rewrite E. reflexivity. Qed.
Lemma full_val a x m n f : nth_error a x = Some (Some (mval m n f)) -> full a x [m; n].
Proof. intros E. eexists. exact E. Qed.
Lemma last_var (a : venv Rdt) v : nth_error (a ++ [v]) (length a) = Some v.
Proof. rewrite nth_error_app2, Nat.sub_diag by lia. reflexivity. Qed.

Lemma veval_arith (b : bop (D := Rdt)) (f : Rdt -> Rdt -> Rdt) (a : venv Rdt) s x y m n g h : 0 < m -> 0 < n -> nth_error a x = Some (Some (mval m n g)) -> nth_error a y = Some (Some (mval m n h)) ->
  (b = BAdd /\ f = dadd \/ b = BSub /\ f = dsub \/ b = BMul /\ f = dmul) ->
  vwt_expr (EBin b s x y) a /\ veval (EBin b s x y) a = Ok (mval m n (fun i j => f (g i j) (h i j))).
Proof.
  intros Hm Hn Ex Ey Hb. split.
  - cbn [vwt_expr]. exists [m; n], [m; n]. split; [eapply full_val; eassumption|]. split; [eapply full_val; eassumption|]. destruct Hb as [[-> _]|[[-> _]|[-> _]]]; left; cbn; lia.
  - cbn [veval]. rewrite (vget_full a x _ _ Ex), (vget_full a y _ _ Ey). cbn [bind]. 
    assert (X : v_arith f [m; n] (tab (D := Rdt) (m * n) (fun q => g (q / n) (q mod n))) [m; n] (tab (D := Rdt) (m * n) (fun q => h (q / n) (q mod n))) = Ok (mval m n (fun i j => f (g i j) (h i j)))).
    { unfold v_arith, same. destruct (list_eq_dec Z.eq_dec [m; n] [m; n]); [|congruence]. unfold mval. do 3 f_equal. apply (tab_zip (D := Rdt)). }
    destruct Hb as [[-> ->]|[[-> ->]|[-> ->]]]; exact X.
Qed.
Lemma veval_un (u : uop (D := Rdt)) (f : Rdt -> Rdt) (a : venv Rdt) s x m n g : nth_error a x = Some (Some (mval m n g)) ->
  (forall d xs, v_un u d xs = Ok (V (D := Rdt) d (Some (map f xs)))) ->
  vwt_expr (Hist.EUn u s x) a /\ veval (Hist.EUn u s x) a = Ok (mval m n (fun i j => f (g i j))).
Proof.
  intros Ex Hu. split; [cbn [vwt_expr]; exists [m; n]; eapply full_val; eassumption|].
  cbn [veval]. rewrite (vget_full a x _ _ Ex). cbn [bind]. rewrite Hu. unfold mval. do 3 f_equal. apply (tab_map (D := Rdt)).
Qed.
Lemma veval_fill (a : venv Rdt) m n (c : R) : 0 < m -> 0 < n -> m * n <= INT_MAX ->
  fill [m; n] (repeat (c : Rdt) (Z.to_nat (numel [m; n]))) = Ok (mval m n (fun _ _ => c)) /\ ints [m; n].
Proof.
  intros Hm Hn Hi. rewrite numel2 by assumption. split.
  - unfold fill. cbn [signsb forallb fitsb prodZ fold_right]. rewrite (proj2 (Z.leb_le 0 m)), (proj2 (Z.ltb_lt 0 n)) by lia. cbn [andb]. rewrite !(proj2 (Z.leb_le _ INT_MAX)) by nia. cbn [andb]. unfold mval. do 3 f_equal. apply (tab_repeat (D := Rdt)).
  - repeat constructor; try (unfold INT_MIN; lia); nia.
Qed.
Lemma veval_mat (a : venv Rdt) s x y m k n g h : 0 < m -> 0 < k -> 0 < n -> m * n <= INT_MAX ->
  nth_error a x = Some (Some (mval m k g)) -> nth_error a y = Some (Some (mval k n h)) ->
  vwt_expr (EMat s x y) a /\ veval (EMat s x y) a = Ok (mval m n (fun i j => sumN (Z.to_nat k) (fun l => g i (Z.of_nat l) * h (Z.of_nat l) j)%R)).
Proof.
  intros Hm Hk Hn Hi Ex Ey. split; [cbn [vwt_expr]; exists [m; k], [k; n]; split; eapply full_val; eassumption|].
  cbn [veval]. rewrite (vget_full a x _ _ Ex), (vget_full a y _ _ Ey). cbn [bind v_mat]. rewrite Z.eqb_refl, !(proj2 (Z.ltb_lt 0 _)) by assumption. cbn [andb]. rewrite (proj2 (Z.leb_le _ _) Hi).
  unfold mval. do 3 f_equal. apply tab_ext. intros q Hq. assert (Q1 : 0 <= q / n < m) by (split; [apply Z.div_pos; lia|apply Z.div_lt_upper_bound; lia]). assert (Q2 : 0 <= q mod n < n) by (apply Z.mod_pos_bound; lia).
  set (X := tab (D := Rdt) (m * k) (fun q0 => g (q0 / k) (q0 mod k))). set (Y := tab (D := Rdt) (k * n) (fun q0 => h (q0 / n) (q0 mod n))).
  unfold zrange. etransitivity; [apply (fold_sum (fun l => Rmult (entry X (q / n * k + l)) (entry Y (l * n + q mod n))))|]. unfold X, Y.
  etransitivity; [apply Rplus_0_l|]. apply sumN_ext. intros l Hl. cbn [Nat.add]. rewrite !tab_entry by nia. f_equal; f_equal.
  - rewrite Z.div_add_l by lia. rewrite (Z.div_small (Z.of_nat l) k) by lia. lia.
  - rewrite Z.add_comm, Z.mod_add by lia. apply Z.mod_small. lia.
  - rewrite Z.div_add_l by lia. rewrite (Z.div_small (q mod n) n) by lia. lia.
  - rewrite Z.add_comm, Z.mod_add by lia. apply Z.mod_small. lia.
Qed.

Section Code.
Context (sch : nat -> list nat) (msch : nat -> Z -> list nat) (G : nat -> option (Z * Z)) (M : nat -> Z -> Z -> R).
Definition codes (t : mexp) : Prop := forall a m n q r n', matches G M a -> mty G t = Some (m, n) -> code sch msch t (length a) = (q, r, n') ->
  vwt_run q a /\ exists ext, vrun q a = Ok (a ++ ext) /\ length (a ++ ext) = n' /\ nth_error (a ++ ext) r = Some (Some (mval m n (mden G M t))).

Lemma code_one t t' (op : nat -> nat -> expr (D := Rdt)) (f : R -> R) : codes t ->
  (forall k x a m n g, nth_error a x = Some (Some (mval m n g)) -> vwt_expr (op k x) a /\ veval (op k x) a = Ok (mval m n (fun i j => f (g i j)))) ->
  (forall n, code sch msch t' n = let '(p1, r1, n1) := code sch msch t n in (p1 ++ [SDecl (op n1 r1)], n1, S n1)) ->
  mty G t' = mty G t -> mden G M t' = (fun i j => f (mden G M t i j)) -> codes t'.
Proof.
  intros IH Hop Hc Ht Hd a m n q r n' HM HT HC. rewrite Hc in HC. destruct (code sch msch t (length a)) as [[p1 r1] n1] eqn:C1. injection HC as <- <- <-. rewrite Ht in HT.
  destruct (IH _ _ _ _ _ _ HM HT C1) as (W & ext & R1 & L1 & V1). destruct (Hop n1 _ _ _ _ _ V1) as [W2 V2].
  split. { apply vwt_app; [exact W|]. intros a' E. rewrite R1 in E. injection E as <-. split; [exact W2|intros; exact I]. }
  exists (ext ++ [Some (mval m n (mden G M t'))]). rewrite app_assoc. split; [rewrite vrun_app, R1; cbn [bind]; rewrite Hd; now apply vrun_decl|]. split; [rewrite app_length; cbn; lia|]. rewrite <- L1. apply last_var.
Qed.
Lemma code_two ta tb t' (op : nat -> nat -> nat -> expr (D := Rdt)) m m1 m2 n n1' n2' : codes ta -> codes tb ->
  mty G ta = Some (m1, n1') -> mty G tb = Some (m2, n2') ->
  (forall k x y a, nth_error a x = Some (Some (mval m1 n1' (mden G M ta))) -> nth_error a y = Some (Some (mval m2 n2' (mden G M tb))) -> vwt_expr (op k x y) a /\ veval (op k x y) a = Ok (mval m n (mden G M t'))) ->
  (forall n, code sch msch t' n = let '(p1, r1, n1) := code sch msch ta n in let '(p2, r2, n2) := code sch msch tb n1 in (p1 ++ p2 ++ [SDecl (op n2 r1 r2)], n2, S n2)) ->
  forall a q r n', matches G M a -> code sch msch t' (length a) = (q, r, n') ->
  vwt_run q a /\ exists ext, vrun q a = Ok (a ++ ext) /\ length (a ++ ext) = n' /\ nth_error (a ++ ext) r = Some (Some (mval m n (mden G M t'))).
Proof.
  intros IHa IHb Ta Tb Hop Hc a q r n' HM HC. rewrite Hc in HC. destruct (code sch msch ta (length a)) as [[p1 r1] n1] eqn:C1. destruct (code sch msch tb n1) as [[p2 r2] n2] eqn:C2. injection HC as <- <- <-.
  destruct (IHa _ _ _ _ _ _ HM Ta C1) as (W1 & e1 & R1 & L1 & V1). rewrite <- L1 in C2. destruct (IHb _ _ _ _ _ _ (matches_app _ _ _ e1 HM) Tb C2) as (W2 & e2 & R2 & L2 & V2).
  assert (V1' : nth_error ((a ++ e1) ++ e2) r1 = Some (Some (mval m1 n1' (mden G M ta)))). { rewrite nth_error_app1; [exact V1|]. apply nth_error_Some. rewrite V1. discriminate. }
  destruct (Hop n2 _ _ _ V1' V2) as [W3 V3].
  split.
  { apply vwt_app; [exact W1|]. intros a' E. rewrite R1 in E. injection E as <-. apply vwt_app; [exact W2|]. intros a' E. rewrite R2 in E. injection E as <-. split; [exact W3|intros; exact I]. }
  exists (e1 ++ e2 ++ [Some (mval m n (mden G M t'))]). rewrite !app_assoc. split; [rewrite vrun_app, vrun_app, R1; cbn [bind]; rewrite R2; cbn [bind]; now apply vrun_decl|]. split; [rewrite app_length; cbn; lia|]. rewrite <- L2. apply last_var.
Qed.

Lemma code_ok t : codes t.
Proof.
  induction t as [x|m0 n0|m0 n0|n0|ta IHa tb IHb|ta IHa tb IHb|ta IHa tb IHb|v ta IHa|ta IHa|ta IHa tb IHb].
  - intros a m n q r n' HM HT HC. cbn in HT, HC. injection HC as <- <- <-. destruct (G x) as [[m1 n1]|] eqn:E; [|discriminate]. destruct ((0 <? m1) && (0 <? n1)) eqn:P; [|discriminate]. injection HT as <- <-.
    apply andb_prop in P as [P1 P2]. apply Z.ltb_lt in P1, P2. split; [exact I|]. exists []. rewrite app_nil_r. split; [reflexivity|]. split; [reflexivity|]. now apply HM.
  - intros a m n q r n' HM HT HC. cbn in HC. injection HC as <- <- <-. cbn [mty] in HT. destruct ((0 <? m0) && (0 <? n0) && (m0 * n0 <=? INT_MAX)) eqn:P; [|discriminate]. injection HT as <- <-.
    apply andb_prop in P as [P P3]. apply andb_prop in P as [P1 P2]. apply Z.ltb_lt in P1, P2. apply Z.leb_le in P3. destruct (veval_fill a m0 n0 0%R P1 P2 P3) as [V1 V2].
    split; [split; [exact V2|intros; exact I]|]. exists [Some (mval m0 n0 (fun _ _ => 0%R))]. split; [apply vrun_decl; exact V1|]. split; [rewrite app_length; cbn; lia|]. apply last_var.
  - intros a m n q r n' HM HT HC. cbn in HC. injection HC as <- <- <-. cbn [mty] in HT. destruct ((0 <? m0) && (0 <? n0) && (m0 * n0 <=? INT_MAX)) eqn:P; [|discriminate]. injection HT as <- <-.
    apply andb_prop in P as [P P3]. apply andb_prop in P as [P1 P2]. apply Z.ltb_lt in P1, P2. apply Z.leb_le in P3. destruct (veval_fill a m0 n0 1%R P1 P2 P3) as [V1 V2].
    split; [split; [exact V2|intros; exact I]|]. exists [Some (mval m0 n0 (fun _ _ => 1%R))]. split; [apply vrun_decl; exact V1|]. split; [rewrite app_length; cbn; lia|]. apply last_var.
  - intros a m n q r n' HM HT HC. cbn in HC. injection HC as <- <- <-. cbn [mty] in HT. destruct ((0 <? n0) && (n0 * n0 <=? INT_MAX)) eqn:P; [|discriminate]. injection HT as <- <-.
    apply andb_prop in P as [P1 P3]. pose proof P1 as P1'. apply Z.ltb_lt in P1. apply Z.leb_le in P3. assert (n0 <= INT_MAX) by nia.
    split; [split; [cbn [vwt vwt_expr]; unfold INT_MIN; lia|intros; exact I]|]. exists [Some (mval n0 n0 (mden G M (MEye n0)))]. split; [|split; [rewrite app_length; cbn; lia|apply last_var]].
    apply vrun_decl. cbn [veval]. rewrite P1'. unfold fill. cbn [signsb forallb fitsb prodZ fold_right]. rewrite P1', (proj2 (Z.leb_le 0 n0)) by lia. cbn [andb]. rewrite !(proj2 (Z.leb_le _ INT_MAX)) by nia. reflexivity.
  - intros a m n q r n' HM HT HC. cbn [mty] in HT. destruct (mty G ta) as [[m1 n1]|] eqn:Ta; [|discriminate]. destruct (mty G tb) as [[m2 n2]|] eqn:Tb; [|discriminate]. destruct ((m1 =? m2) && (n1 =? n2)) eqn:P; [|discriminate]. injection HT as <- <-.
    apply andb_prop in P as [P1 P2]. apply Z.eqb_eq in P1, P2. subst m2 n2. destruct (mty_pos _ _ _ _ Ta). refine (code_two ta tb (MAdd ta tb) _ m1 m1 m1 n1 n1 n1 IHa IHb Ta Tb _ (fun n => eq_refl) a q r n' HM HC). intros k x y b Ex Ey. apply (veval_arith BAdd (dadd (d := Rdt))); auto.
  - intros a m n q r n' HM HT HC. cbn [mty] in HT. destruct (mty G ta) as [[m1 n1]|] eqn:Ta; [|discriminate]. destruct (mty G tb) as [[m2 n2]|] eqn:Tb; [|discriminate]. destruct ((m1 =? m2) && (n1 =? n2)) eqn:P; [|discriminate]. injection HT as <- <-.
    apply andb_prop in P as [P1 P2]. apply Z.eqb_eq in P1, P2. subst m2 n2. destruct (mty_pos _ _ _ _ Ta). refine (code_two ta tb (MSub ta tb) _ m1 m1 m1 n1 n1 n1 IHa IHb Ta Tb _ (fun n => eq_refl) a q r n' HM HC). intros k x y b Ex Ey. apply (veval_arith BSub (dsub (d := Rdt))); auto.
  - intros a m n q r n' HM HT HC. cbn [mty] in HT. destruct (mty G ta) as [[m1 n1]|] eqn:Ta; [|discriminate]. destruct (mty G tb) as [[m2 n2]|] eqn:Tb; [|discriminate]. destruct ((m1 =? m2) && (n1 =? n2)) eqn:P; [|discriminate]. injection HT as <- <-.
    apply andb_prop in P as [P1 P2]. apply Z.eqb_eq in P1, P2. subst m2 n2. destruct (mty_pos _ _ _ _ Ta). refine (code_two ta tb (MHad ta tb) _ m1 m1 m1 n1 n1 n1 IHa IHb Ta Tb _ (fun n => eq_refl) a q r n' HM HC). intros k x y b Ex Ey. apply (veval_arith BMul (dmul (d := Rdt))); auto.
  - apply (code_one ta (MScale v ta) (fun k => Hist.EUn (UMulv (D := Rdt) v) (sch k)) (fun z => v * z)%R IHa); try reflexivity.
    intros k x a m n g Ex. destruct (veval_un (UMulv (D := Rdt) v) (fun z => dmul z (v : Rdt)) a (sch k) x m n g Ex (fun _ _ => eq_refl)) as [A B]. split; [exact A|]. rewrite B. f_equal. unfold mval. do 2 f_equal. apply tab_ext. intros i _. apply Rmult_comm.
  - apply (code_one ta (MNeg ta) (fun k => Hist.EUn UNeg (sch k)) Ropp IHa); try reflexivity. intros k x a m n g Ex. apply (veval_un UNeg (dneg (d := Rdt)) a (sch k) x m n g Ex (fun _ _ => eq_refl)).
  - intros a m n q r n' HM HT HC. cbn [mty] in HT. destruct (mty G ta) as [[m1 n1]|] eqn:Ta; [|discriminate]. destruct (mty G tb) as [[m2 n2]|] eqn:Tb; [|discriminate]. destruct ((n1 =? m2) && (m1 * n2 <=? INT_MAX)) eqn:P; [|discriminate]. injection HT as <- <-.
    apply andb_prop in P as [P1 P2]. apply Z.eqb_eq in P1. apply Z.leb_le in P2. subst m2. destruct (mty_pos _ _ _ _ Ta), (mty_pos _ _ _ _ Tb). refine (code_two ta tb (MMul ta tb) _ m1 m1 n1 n2 n1 n2 IHa IHb Ta Tb _ (fun n => eq_refl) a q r n' HM HC).
    intros k x y b Ex Ey. cbn [mden]. rewrite Ta. now apply veval_mat.
Qed.
End Code.

Lemma prog_matches (p : list (stmt (D := Rdt))) a : vwt_run p [] -> vrun p [] = Ok a -> matches (size_of a) (entry_of a) a.
Proof.
  intros W E x m n S Hm Hn. pose proof (C75_values p W) as C. rewrite E in C. destruct C as (e & h & _ & _ & Sh). specialize (Sh x). unfold size_of, entry_of in *.
  destruct (nth_error a x) as [[[[|m1 [|n1 [|? ?]]] [xs|]]|]|] eqn:N; try discriminate. injection S as -> ->. destruct Sh as (t & _ & _ & L & _). cbn [v_dims] in L. rewrite numel2 in L by assumption.
  unfold mval. do 4 f_equal. rewrite (entry_tab (D := Rdt) xs _ L) at 1. apply tab_ext. intros q Hq. f_equal. rewrite Z.mul_comm. apply Z.div_mod. lia.
Qed.
Lemma mval_get e h (a : venv Rdt) r m n f : 0 < m -> 0 < n -> shows e h a -> nth_error a r = Some (Some (mval m n f)) ->
  exists t, nth_error e r = Some (Some t) /\ sh (t_sh t) = [m; n] /\ forall i j, 0 <= i < m -> 0 <= j < n -> t_get t (i * n + j) h = Ok (f i j : Rdt).
Proof.
  intros Hm Hn [_ S] N. specialize (S r). rewrite N in S. destruct S as (t & E & S1 & _ & S2). cbn [mval v_dims] in *. exists t. split; [exact E|]. split; [exact S1|]. intros i j Hi Hj. rewrite numel2 in S2 by assumption.
  rewrite S2 by nia. rewrite tab_entry by nia. do 2 f_equal; [rewrite Z.div_add_l, (Z.div_small j n) by lia; lia|rewrite Z.add_comm, Z.mod_add by lia; apply Z.mod_small; lia].
Qed.

(** ** C90 *)
(** After any allowed program, the statements that compute a matrix expression, under any schedules, go through, and the
    result variable holds the matrix the expression means. *)
Theorem C90_meaning : forall (p : list (stmt (D := Rdt))) a sch msch t m n q r k,
  vwt_run p [] -> vrun p [] = Ok a ->
  mty (size_of a) t = Some (m, n) -> code sch msch t (length a) = (q, r, k) ->
  exists e h o, run (p ++ q) ([], []) = Ok (e, h) /\ nth_error e r = Some (Some o) /\ sh (t_sh o) = [m; n] /\
    forall i j, 0 <= i < m -> 0 <= j < n -> t_get o (i * n + j) h = Ok (mden (size_of a) (entry_of a) t i j : Rdt).
Proof.
  intros p a sch msch t m n q r k W E T C. destruct (mty_pos _ _ _ _ T) as [Hm Hn].
  destruct (code_ok sch msch (size_of a) (entry_of a) t a m n q r k (prog_matches p a W E) T C) as (W2 & ext & R2 & _ & V).
  assert (W3 : vwt_run (p ++ q) []). { apply vwt_app; [exact W|]. intros a' E'. rewrite E in E'. injection E' as <-. exact W2. }
  pose proof (C75_values (p ++ q) W3) as X. rewrite vrun_app, E in X. cbn [bind] in X. rewrite R2 in X. destruct X as (e & h & X1 & X2).
  destruct (mval_get e h _ r m n _ Hm Hn X2 V) as (o & O1 & O2 & O3). exists e, h, o. auto.
Qed.
(** So every equation of matrix algebra holds for tensor programs: two expressions of the same size and meaning, computed
    one after the other, give equal tensors. *)
Theorem C90_equation : forall (p : list (stmt (D := Rdt))) a sch msch sch' msch' t t' m n q r k q' r' k',
  vwt_run p [] -> vrun p [] = Ok a ->
  mty (size_of a) t = Some (m, n) -> mty (size_of a) t' = Some (m, n) ->
  (forall i j, 0 <= i < m -> 0 <= j < n -> mden (size_of a) (entry_of a) t i j = mden (size_of a) (entry_of a) t' i j) ->
  code sch msch t (length a) = (q, r, k) -> code sch' msch' t' k = (q', r', k') ->
  exists e h o o', run (p ++ q ++ q') ([], []) = Ok (e, h) /\ nth_error e r = Some (Some o) /\ nth_error e r' = Some (Some o') /\
    sh (t_sh o) = [m; n] /\ sh (t_sh o') = [m; n] /\ forall i, 0 <= i < m * n -> exists v, t_get o i h = Ok v /\ t_get o' i h = Ok v.
Proof.
  intros p a sch msch sch' msch' t t' m n q r k q' r' k' W E T T' HE C C'. destruct (mty_pos _ _ _ _ T) as [Hm Hn]. pose proof (prog_matches p a W E) as HM.
  destruct (code_ok sch msch (size_of a) (entry_of a) t a m n q r k HM T C) as (W2 & ext & R2 & L2 & V). rewrite <- L2 in C'.
  destruct (code_ok sch' msch' (size_of a) (entry_of a) t' (a ++ ext) m n q' r' k' (matches_app _ _ _ ext HM) T' C') as (W2' & ext' & R2' & _ & V').
  assert (V1 : nth_error ((a ++ ext) ++ ext') r = Some (Some (mval m n (mden (size_of a) (entry_of a) t)))). { rewrite nth_error_app1; [exact V|]. apply nth_error_Some. rewrite V. discriminate. }
  assert (W3 : vwt_run (p ++ q ++ q') []). { apply vwt_app; [exact W|]. intros a' E'. rewrite E in E'. injection E' as <-. apply vwt_app; [exact W2|]. intros a' E'. rewrite R2 in E'. injection E' as <-. exact W2'. }
  pose proof (C75_values (p ++ q ++ q') W3) as X. rewrite !vrun_app, E in X. cbn [bind] in X. rewrite vrun_app, R2 in X. cbn [bind] in X. rewrite R2' in X. destruct X as (e & h & X1 & X2).
  destruct (mval_get e h _ r m n _ Hm Hn X2 V1) as (o & O1 & O2 & O3). destruct (mval_get e h _ r' m n _ Hm Hn X2 V') as (o' & P1 & P2 & P3).
  exists e, h, o, o'. repeat (split; [assumption|]). intros i Hi. assert (Q1 : 0 <= i / n < m) by (split; [apply Z.div_pos; lia|apply Z.div_lt_upper_bound; lia]). assert (Q2 : 0 <= i mod n < n) by (apply Z.mod_pos_bound; lia).
  replace i with (i / n * n + i mod n) by (rewrite Z.mul_comm; symmetry; apply Z.div_mod; lia). exists (mden (size_of a) (entry_of a) t (i / n) (i mod n)). split; [now apply O3|]. rewrite P3 by assumption. f_equal. symmetry. now apply HE.
Qed.

(** The usual laws, for all matrices of all sizes. *)
Definition law (t t' : mexp) : Prop := forall G M m n, mty G t = Some (m, n) -> mty G t' = Some (m, n) ->
  forall i j, 0 <= i < m -> 0 <= j < n -> mden G M t i j = mden G M t' i j.
Ltac tys := repeat match goal with
  | H : match ?c with Some _ => _ | None => _ end = Some _ |- _ => let C := fresh "C" in destruct c as [[? ?]|] eqn:C; [|discriminate]
  | H : (if ?c then _ else _) = Some _ |- _ => let C := fresh "C" in destruct c eqn:C; [|discriminate]
  | H : Some _ = Some _ |- _ => injection H; clear H; intros; subst
  | H : andb _ _ = true |- _ => apply andb_prop in H as [? ?]
  | H : (_ =? _) = true |- _ => apply Z.eqb_eq in H; subst
  end.
Theorem C90_laws : forall A B C v w k,
  law (MMul (MMul A B) C) (MMul A (MMul B C)) /\
  law (MMul A (MAdd B C)) (MAdd (MMul A B) (MMul A C)) /\ law (MMul (MAdd A B) C) (MAdd (MMul A C) (MMul B C)) /\
  law (MMul A (MSub B C)) (MSub (MMul A B) (MMul A C)) /\
  law (MMul (MEye k) A) A /\ law (MMul A (MEye k)) A /\
  law (MMul (MScale v A) B) (MScale v (MMul A B)) /\ law (MMul A (MScale v B)) (MScale v (MMul A B)) /\
  law (MAdd A B) (MAdd B A) /\ law (MAdd (MAdd A B) C) (MAdd A (MAdd B C)) /\
  law (MHad A B) (MHad B A) /\ law (MHad A (MAdd B C)) (MAdd (MHad A B) (MHad A C)) /\
  law (MScale v (MScale w A)) (MScale (v * w) A) /\ law (MSub A B) (MAdd A (MNeg B)) /\ law (MNeg A) (MScale (-1) A) /\
  (forall r c, law (MAdd A (MZeros r c)) A) /\ (forall r c, law (MHad A (MOnes r c)) A) /\ (forall r c, law (MMul A (MZeros k c)) (MZeros r c)).
Proof.
  intros A B C v w k. repeat match goal with |- _ /\ _ => split end; unfold law.
  all: try match goal with |- forall r c : Z, _ => intros r c end.
  all: intros G M m n T T' i j Hi Hj; cbn [mty] in T, T'; tys; cbn [mden mty]; try ring.
  all: repeat match goal with H : mty _ _ = Some _ |- _ => rewrite H end.
  all: rewrite ?Z.eqb_refl; repeat match goal with H : (_ <=? _) = true |- _ => rewrite H | H : (_ <? _) = true |- _ => rewrite H end; cbn [andb].
  - etransitivity; [apply sumN_ext; intros l _; symmetry; apply sumN_scal_r|]. rewrite sumN_swap. apply sumN_ext. intros l _. rewrite <- sumN_scal. apply sumN_ext. intros; ring.
  - rewrite <- sumN_plus. apply sumN_ext. intros; ring.
  - rewrite <- sumN_plus. apply sumN_ext. intros; ring.
  - rewrite <- sumN_minus. apply sumN_ext. intros; ring.
  - rewrite (sumN_single _ _ (Z.to_nat i)) by (lia || (intros l Hl Hne; destruct (Z.eqb_spec i (Z.of_nat l)); [lia|ring])). rewrite Z2Nat.id, Z.eqb_refl by lia. ring.
  - rewrite (sumN_single _ _ (Z.to_nat j)) by (lia || (intros l Hl Hne; destruct (Z.eqb_spec (Z.of_nat l) j); [lia|ring])). rewrite Z2Nat.id, Z.eqb_refl by lia. ring.
  - rewrite <- sumN_scal. apply sumN_ext. intros; ring.
  - rewrite <- sumN_scal. apply sumN_ext. intros; ring.
  - apply sumN_zero. intros; ring.
Qed.

(** ** The hypotheses can be met *)
(** A 2x3 matrix of ones with entry (0, 1) set to 5, times a 3x2 matrix of ones, plus the identity. *)
Definition al_prog : list (stmt (D := Rdt)) := [SDecl (EOnes [2; 3]); SSet (D := Rdt) 0 1 5%R; SDecl (EOnes [3; 2])].
Definition al_t : mexp := MAdd (MMul (MVar 0) (MVar 1)) (MEye 2).
Definition al_vals : venv Rdt := [Some (V (D := Rdt) [2; 3] (Some [1; 5; 1; 1; 1; 1]%R)); Some (V (D := Rdt) [3; 2] (Some [1; 1; 1; 1; 1; 1]%R))].
Example C90_example : vwt_run al_prog [] /\ vrun al_prog [] = Ok al_vals /\ mty (size_of al_vals) al_t = Some (2, 2) /\
  exists e h o, run (al_prog ++ [SDecl (EMat (fun _ => []) 0%nat 1%nat); SDecl (EEyes 2); SDecl (EBin BAdd [] 2%nat 3%nat)]) ([], []) = Ok (e, h) /\
    nth_error e 4%nat = Some (Some o) /\ t_get o 0 h = Ok (8%R : Rdt) /\ t_get o 1 h = Ok (7%R : Rdt).
Proof.
  assert (E : vrun al_prog [] = Ok al_vals) by reflexivity.
  assert (W : vwt_run al_prog []).
  { unfold al_prog. cbn [vwt_run]. split; [cbn; repeat constructor; unfold INT_MIN, INT_MAX; lia|]. intros a E1. injection E1 as <-. split.
    - exists [2; 3]. split; [eexists; reflexivity|]. cbn. lia.
    - intros a E1. injection E1 as <-. split; [cbn; repeat constructor; unfold INT_MIN, INT_MAX; lia|]. intros; exact I. }
  split; [exact W|]. split; [exact E|]. split; [reflexivity|].
  destruct (C90_meaning al_prog al_vals (fun _ => []) (fun _ _ => []) al_t 2 2 _ 4%nat 5%nat W E eq_refl eq_refl) as (e & h & o & A & B & _ & F).
  exists e, h, o. split; [exact A|]. split; [exact B|]. split.
  - pose proof (F 0 0 ltac:(lia) ltac:(lia)) as Q. cbn [Z.mul Z.add] in Q. rewrite Q. clear Q F. f_equal. cbn. unfold sumN, sumL, entry_of, al_vals. cbn. unfold entry. cbv [Pos.to_nat Pos.iter_op Nat.add seq map fold_right Z.of_nat Pos.of_succ_nat Pos.succ Z.mul Pos.mul Z.add Pos.add Z.to_nat]. lra.
  - pose proof (F 0 1 ltac:(lia) ltac:(lia)) as Q. cbn [Z.mul Z.add] in Q. rewrite Q. clear Q F. f_equal. cbn. unfold sumN, sumL, entry_of, al_vals. cbn. unfold entry. cbv [Pos.to_nat Pos.iter_op Nat.add seq map fold_right Z.of_nat Pos.of_succ_nat Pos.succ Z.mul Pos.mul Z.add Pos.add Z.to_nat]. lra.
Qed.

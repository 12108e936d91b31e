(** P_Save.v - C47: save/load round trip; C48: truncated and malformed files. *)
From Verif Require Import Base Mat Act Layer Conv Misc Net NetP SaveLoad P_Access ExNet.
From Coq Require Import Arith Ascii.
Local Open Scope nat_scope.

(** * Characters *)
Definition wss (u : text) : Prop := Forall (fun c => is_ws c = true) u.
(** [t] is entirely consumed by the number reader (an optional sign, digits, a point, an exponent ...) *)
Definition numeral (t : text) : Prop := t <> [] /\ take_num t = (t, []).
Definition prefix {A} (p l : list A) : Prop := exists q, l = p ++ q.
(** The file [txt] consists of the tokens [ts], each followed by at least one blank. *)
Inductive spaced : list text -> text -> Prop :=
| sp_nil u : wss u -> spaced [] u
| sp_cons u t c ts r : wss u -> is_ws c = true -> spaced ts r -> spaced (t :: ts) (u ++ t ++ c :: r).

Lemma ws_stop c : is_ws c = true -> is_sign c = false /\ is_digit c = false /\ is_dot c = false /\ is_exp c = false.
Proof. destruct c as [[] [] [] [] [] [] [] []]; intros H; try discriminate H; repeat split; reflexivity. Qed.
Lemma skip_wss u r : wss u -> skip_ws (u ++ r) = skip_ws r.
Proof. induction 1 as [|c u Hc Hu IH]; [reflexivity|]. cbn [app skip_ws]. rewrite Hc. exact IH. Qed.
Lemma wss_all u : wss u -> skip_ws u = [].
Proof. intros H. rewrite <- (app_nil_r u), skip_wss by assumption. reflexivity. Qed.

(** where the reader stops *)
Lemma take_body_parts m d s e l : l = fst (take_body m d s e l) ++ snd (take_body m d s e l).
Proof.
  revert m d s e. induction l as [|c l IH]; intros m d s e; [reflexivity|]. cbn [take_body].
  destruct (e && is_sign c); [specialize (IH m d s false); destruct (take_body m d s false l); cbn in *; congruence|].
  destruct (is_digit c); [specialize (IH true d s false); destruct (take_body true d s false l); cbn in *; congruence|].
  destruct (is_dot c && negb d && negb s); [specialize (IH m true s false); destruct (take_body m true s false l); cbn in *; congruence|].
  destruct (is_exp c && negb s && m); [specialize (IH m d true true); destruct (take_body m d true true l); cbn in *; congruence|]. reflexivity.
Qed.
Lemma take_num_parts l : l = fst (take_num l) ++ snd (take_num l).
Proof.
  destruct l as [|c l]; [reflexivity|]. unfold take_num. destruct (is_sign c); [|apply take_body_parts].
  pose proof (take_body_parts false false false false l) as H. destruct (take_body false false false false l). cbn in *. congruence.
Qed.
Lemma take_body_ws m d s e t c r : is_ws c = true -> snd (take_body m d s e t) = [] -> take_body m d s e (t ++ c :: r) = (t, c :: r).
Proof.
  intros Hc. apply ws_stop in Hc as (C1 & C2 & C3 & C4). revert m d s e. induction t as [|x t IH]; intros m d s e; cbn [app take_body].
  - intros _. rewrite C1, C2, C3, C4, andb_false_r. reflexivity.
  - destruct (e && is_sign x); [|destruct (is_digit x); [|destruct (is_dot x && negb d && negb s); [|destruct (is_exp x && negb s && m); [|intros H; discriminate H]]]].
    all: match goal with |- snd (let '(_, _) := take_body ?a ?b ?c0 ?d0 ?u in _) = _ -> _ => intros H; rewrite IH; [reflexivity|]; destruct (take_body a b c0 d0 u); exact H end.
Qed.
Lemma take_num_ws t c r : is_ws c = true -> snd (take_num t) = [] -> take_num (t ++ c :: r) = (t, c :: r).
Proof.
  intros Hc H. destruct t as [|x t].
  - cbn [app take_num]. pose proof (ws_stop _ Hc) as (C1 & _). rewrite C1. change (c :: r) with ([] ++ c :: r). now apply take_body_ws.
  - cbn [app take_num] in *. destruct (is_sign x).
    + rewrite take_body_ws; [reflexivity|assumption|]. destruct (take_body false false false false t). exact H.
    + change (x :: t ++ c :: r) with ((x :: t) ++ c :: r). now apply take_body_ws.
Qed.
(** stopping before the end of [t] does not depend on what follows *)
Lemma take_body_stop m d s e t a x b r : take_body m d s e t = (a, x :: b) -> take_body m d s e (t ++ r) = (a, (x :: b) ++ r).
Proof.
  revert m d s e a. induction t as [|y t IH]; intros m d s e a; cbn [app take_body]; [discriminate|].
  destruct (e && is_sign y); [|destruct (is_digit y); [|destruct (is_dot y && negb d && negb s); [|destruct (is_exp y && negb s && m); [|intros H; injection H as <- <- <-; reflexivity]]]].
  all: match goal with |- (let '(_, _) := take_body ?a ?b0 ?c0 ?d0 ?u in _) = _ -> _ => destruct (take_body a b0 c0 d0 u) as [a' b'] eqn:E; intros H; injection H as <- ->; rewrite (IH _ _ _ _ _ E); reflexivity end.
Qed.
Lemma take_num_stop t a x b r : take_num t = (a, x :: b) -> take_num (t ++ r) = (a, (x :: b) ++ r).
Proof.
  destruct t as [|y t]; [discriminate|]. cbn [app take_num]. destruct (is_sign y).
  - destruct (take_body false false false false t) as [a' b'] eqn:E. intros H. injection H as <- ->. now rewrite (take_body_stop _ _ _ _ _ _ _ _ _ E).
  - intros H. change (y :: t ++ r) with ((y :: t) ++ r). now apply take_body_stop.
Qed.
(** a non-empty prefix of a numeral is one *)
Lemma numeral_prefix q t : numeral t -> prefix q t -> q <> [] -> numeral q.
Proof.
  intros [_ T] [u ->] Hq. split; [assumption|]. destruct (take_num q) as [a b] eqn:E. destruct b as [|x b].
  - pose proof (take_num_parts q) as P. rewrite E in P. cbn [fst snd] in P. rewrite app_nil_r in P. rewrite <- P. reflexivity.
  - rewrite (take_num_stop _ _ _ _ _ E) in T. injection T as _ T. discriminate T.
Qed.
Lemma numeral_start c t : numeral (c :: t) -> is_ws c = false.
Proof.
  intros [_ T]. destruct (is_ws c) eqn:E; [|reflexivity]. exfalso. apply ws_stop in E as (C1 & C2 & C3 & C4). unfold take_num in T. rewrite C1 in T.
  cbn [take_body] in T. rewrite C2, C3, C4 in T. discriminate T.
Qed.
Lemma skip_start c r : is_ws c = false -> skip_ws (c :: r) = c :: r.
Proof. intros H. cbn. now rewrite H. Qed.

(** ** Spaced texts *)
Lemma spaced_ws u ts r : wss u -> spaced ts r -> spaced ts (u ++ r).
Proof.
  intros Hu H. destruct H as [v Hv|v t c ts r Hv Hc H].
  - constructor. apply Forall_app. auto.
  - rewrite app_assoc. constructor; [apply Forall_app; auto|assumption|assumption].
Qed.
Lemma spaced_app t1 a t2 b : spaced t1 a -> spaced t2 b -> spaced (t1 ++ t2) (a ++ b).
Proof.
  intros H1 H2. induction H1 as [u Hu|u t c ts r Hu Hc H1 IH]; [now apply spaced_ws|].
  cbn [app]. rewrite <- !app_assoc. cbn [app]. now constructor.
Qed.
Lemma app_prefix {A} (p x y : list A) : prefix p (x ++ y) -> prefix p x \/ exists p', p = x ++ p' /\ prefix p' y.
Proof.
  intros [q E]. symmetry in E. apply app_eq_app in E as (l & [[-> E]|[-> E]]); [right|left].
  - exists l. split; [reflexivity|]. exists q. exact E.
  - exists l. reflexivity.
Qed.
Lemma wss_prefix p u : wss u -> prefix p u -> wss p.
Proof. intros H [q ->]. now apply Forall_app in H as [H _]. Qed.
(** A prefix of a spaced text is a spaced text of a prefix of the tokens, and possibly an incomplete token. *)
Lemma spaced_prefix ts txt p : spaced ts txt -> prefix p txt ->
  exists k a q, k <= length ts /\ p = a ++ q /\ spaced (firstn k ts) a /\ (q = [] \/ exists t, nth_error ts k = Some t /\ prefix q t /\ q <> []).
Proof.
  intros H. revert p. induction H as [u Hu|u t c ts r Hu Hc H IH]; intros p Hp.
  - exists 0, p, []. split; [lia|]. split; [now rewrite app_nil_r|]. split; [constructor; now apply wss_prefix with u|auto].
  - apply app_prefix in Hp as [Hp|(p1 & -> & Hp)].
    + exists 0, p, []. split; [lia|]. split; [now rewrite app_nil_r|]. split; [constructor; now apply wss_prefix with u|auto].
    + apply app_prefix in Hp as [Hp|(p2 & -> & Hp)].
      * exists 0, u, p1. split; [cbn; lia|]. split; [reflexivity|]. split; [now constructor|]. destruct p1 as [|x p1]; [auto|]. right. exists t. split; [reflexivity|]. split; [assumption|discriminate].
      * destruct p2 as [|x p2].
        -- rewrite app_nil_r. exists 0, u, t. split; [cbn; lia|]. split; [reflexivity|]. split; [now constructor|]. destruct t as [|y t]; [auto|]. right.
           exists (y :: t). split; [reflexivity|]. split; [exists []; now rewrite app_nil_r|discriminate].
        -- destruct Hp as [q E]. injection E as <- E. destruct (IH p2) as (k & a & w & K1 & K2 & K3 & K4); [exists q; assumption|].
           exists (S k), (u ++ t ++ c :: a), w. split; [cbn; lia|]. split; [rewrite K2; rewrite <- !app_assoc; cbn [app]; reflexivity|]. split; [cbn [firstn]; now constructor|]. exact K4.
Qed.

Section Save.
Context {D : dtype}.
Notation mat := (mat D).
Notation net := (net D).
Notation lheap := (lheap D).
Notation hlayer := (hlayer D).
Context (print : D -> text) (conv : text -> D * bool).

(** What a weight becomes when printed and read back. *)
Definition reread (w : D) : D := fst (conv (print w)).
(** The weight prints as a numeral that strtod accepts: every finite double does. *)
Definition printable (w : D) : Prop := numeral (print w) /\ snd (conv (print w)) = true.
Definition zero : D := dofZ 0.

(** ** The weights of a network, in file order: hidden layers first, each row by row, then the output layer *)
Definition hW (H : lheap) (p : nat) : mat := match nth_error H p with Some h => l_W (h_base h) | None => mempty end.
Definition slots (n : net) (H : lheap) : list D := flat_map (fun p => rowlist (hW H p)) (n_hidden n) ++ rowlist (l_W (o_l (n_output n))).
Definition valid (n : net) (H : lheap) : Prop := Forall (fun p => p < length H) (n_hidden n).

(** [(n', H')] is [(n, H)] with new weights, of the same sizes, in the network's own layers; nothing else differs. *)
Record reweighted (n : net) (H : lheap) (n' : net) (H' : lheap) : Prop := RW {
  rw_net : n' = net_setoutputw n (l_W (o_l (n_output n')));
  rw_nr : nr (l_W (o_l (n_output n'))) = nr (l_W (o_l (n_output n)));
  rw_nc : nc (l_W (o_l (n_output n'))) = nc (l_W (o_l (n_output n)));
  rw_wf : wf (l_W (o_l (n_output n')));
  rw_len : length H' = length H;
  rw_hid : forall p (h : hlayer), nth_error H p = Some h -> In p (n_hidden n) ->
    exists w : mat, nth_error H' p = Some (h_with h (set_W (h_base h) w)) /\ nr w = nr (l_W (h_base h)) /\ nc w = nc (l_W (h_base h)) /\ wf w;
  rw_oth : forall p, ~ In p (n_hidden n) -> nth_error H' p = nth_error H p }.

Lemma same_W (h : hlayer) : h_with h (set_W (h_base h) (l_W (h_base h))) = h.
Proof. destruct h as [[]|[[]]|[[[]] i]|[[] n]|[[] s]]; reflexivity. Qed.
Lemma app_len_inj {A} (a b c d : list A) : length a = length c -> a ++ b = c ++ d -> a = c /\ b = d.
Proof. revert c. induction a as [|x a IH]; intros [|y c] L E; try discriminate; cbn in *; [auto|]. injection E as <- E. injection L as L. destruct (IH _ L E) as [-> ->]. auto. Qed.
(** *** rowlist *)
Lemma rowlist_flat (w : mat) : rowlist w = flat_map (fun i => map (fun j => at_ w i j) (seq 0 (nc w))) (seq 0 (nr w)).
Proof.
  unfold rowlist, rowmajor. induction (seq 0 (nr w)) as [|i l IH]; [reflexivity|]. cbn [flat_map]. rewrite map_app, map_map, IH. reflexivity.
Qed.
Lemma rowlist_length (w : mat) : length (rowlist w) = nr w * nc w.
Proof. rewrite rowlist_flat, fm_length with (r := nc w); [rewrite seq_length; lia|]. intros. now rewrite map_length, seq_length. Qed.
(** position (i, j) of a weight matrix is at index i * columns + j *)
Lemma rowlist_nth (w : mat) i j d : i < nr w -> j < nc w -> nth (i * nc w + j) (rowlist w) d = at_ w i j.
Proof. intros Hi Hj. rewrite rowlist_flat, fm_nth; [now rewrite nth_map_seq|intros; now rewrite map_length, seq_length|assumption|assumption]. Qed.
Lemma rowlist_mat_of r c (vs : list D) : length vs = r * c -> rowlist (mat_of r c vs) = vs.
Proof.
  intros E. apply (list_eq_nth d0); [rewrite rowlist_length; cbn; congruence|]. rewrite rowlist_length. cbn [nr nc mat_of mk]. intros k Hk.
  assert (c <> 0) by lia. assert (K : k = k / c * c + k mod c) by (rewrite Nat.mul_comm; now apply Nat.div_mod).
  assert (k mod c < c) by now apply Nat.mod_upper_bound. assert (k / c < r) by (apply Nat.div_lt_upper_bound; lia).
  rewrite K. pose proof (rowlist_nth (mat_of r c vs) (k / c) (k mod c) d0) as R. cbn [nr nc mat_of mk] in R. rewrite R by assumption.
  unfold mat_of. now rewrite at_mk by assumption.
Qed.
Lemma rowlist_inj (a b : mat) : wf a -> wf b -> nr a = nr b -> nc a = nc b -> rowlist a = rowlist b -> a = b.
Proof.
  intros Wa Wb R C E. apply mat_ext; try assumption. intros i j Hi Hj. rewrite <- (rowlist_nth a i j d0), <- (rowlist_nth b i j d0) by congruence. rewrite E, C. reflexivity.
Qed.

(** *** reads *)
Notation reads := (reads conv).
Lemma reads_split a b s : reads (a + b) s = (fst (reads a s) ++ fst (reads b (snd (reads a s))), snd (reads b (snd (reads a s)))).
Proof.
  revert s. induction a as [|a IH]; intros s; cbn [Nat.add SaveLoad.reads]; [cbn; destruct (reads b s); reflexivity|].
  destruct (read1 conv s) as [v s1]. rewrite IH. destruct (reads a s1) as [vs s2]. reflexivity.
Qed.
Lemma reads_len k s : length (fst (reads k s)) = k.
Proof.
  revert s. induction k as [|k IH]; intros s; [reflexivity|]. cbn [SaveLoad.reads]. destruct (read1 conv s) as [v s1]. specialize (IH s1).
  destruct (reads k s1). cbn in *. congruence.
Qed.
Lemma reads_bad k r : reads k (ST r false) = (repeat zero k, ST r false).
Proof. induction k as [|k IH]; [reflexivity|]. cbn [SaveLoad.reads read1 s_good]. rewrite IH. reflexivity. Qed.

(** *** load, as a function of the values read *)
Notation load_step := (load_step conv).
Lemma load_hidden_spec ids (H : lheap) s : NoDup ids -> Forall (fun p => p < length H) ids ->
  exists H', foldM load_step ids (H, s) = Ok (H', snd (reads (length (flat_map (fun p => rowlist (hW H p)) ids)) s)) /\
    length H' = length H /\ flat_map (fun p => rowlist (hW H' p)) ids = fst (reads (length (flat_map (fun p => rowlist (hW H p)) ids)) s) /\
    (forall p (h : hlayer), nth_error H p = Some h -> In p ids ->
      exists w : mat, nth_error H' p = Some (h_with h (set_W (h_base h) w)) /\ nr w = nr (l_W (h_base h)) /\ nc w = nc (l_W (h_base h)) /\ wf w) /\
    (forall p, ~ In p ids -> nth_error H' p = nth_error H p).
Proof.
  intros ND. revert H s. induction ND as [|p ids Hp ND IH]; intros H s V.
  - exists H. cbn. repeat split; auto. intros q h _ [].
  - inversion V as [|? ? V1 V2]; subst. destruct (nth_error H p) as [h|] eqn:Eh; [|exfalso; apply nth_error_None in Eh; lia].
    cbn [foldM]. unfold SaveLoad.load_step at 1, lget. rewrite Eh. cbn [bind]. unfold load_mat.
    destruct (reads (nr (l_W (h_base h)) * nc (l_W (h_base h))) s) as [vs s1] eqn:ER. cbn [bind].
    set (w := mat_of (nr (l_W (h_base h))) (nc (l_W (h_base h))) vs). set (H1 := upd p (h_with h (set_W (h_base h) w)) H).
    assert (N1 : forall q, q <> p -> nth_error H1 q = nth_error H q) by (intros q Hq; unfold H1; rewrite nth_error_upd; apply Nat.eqb_neq in Hq; now rewrite Hq).
    assert (N2 : nth_error H1 p = Some (h_with h (set_W (h_base h) w))) by (unfold H1; rewrite nth_error_upd, Nat.eqb_refl, Eh; reflexivity).
    assert (F1 : flat_map (fun q => rowlist (hW H1 q)) ids = flat_map (fun q => rowlist (hW H q)) ids).
    { rewrite !flat_map_concat_map. f_equal. apply map_ext_in. intros q Hq. unfold hW. rewrite N1; [reflexivity|]. intros ->. contradiction. }
    destruct (IH H1 s1) as (H' & E & L1 & L2 & L3 & L4).
    { eapply Forall_impl; [|exact V2]. intros q Hq. unfold H1. now rewrite upd_length. }
    assert (LV : length vs = nr (l_W (h_base h)) * nc (l_W (h_base h))) by (pose proof (reads_len (nr (l_W (h_base h)) * nc (l_W (h_base h))) s) as X; rewrite ER in X; exact X).
    assert (EW : length (rowlist (hW H p)) = nr (l_W (h_base h)) * nc (l_W (h_base h))) by (unfold hW; rewrite Eh; apply rowlist_length).
    exists H'. cbn [flat_map]. rewrite app_length, reads_split, EW, ER. cbn [fst snd]. rewrite <- F1. split; [exact E|].
    split; [rewrite L1; unfold H1; apply upd_length|]. split.
    + f_equal; [|exact L2]. unfold hW. rewrite (L4 p Hp), N2, h_base_with. cbn [l_W set_W]. unfold w. now apply rowlist_mat_of.
    + split.
      * intros q g Hq [<- | Hin].
        -- exists w. rewrite (L4 p Hp), N2. rewrite Eh in Hq. injection Hq as <-. repeat split. apply wf_mk.
        -- apply L3; [|assumption]. rewrite N1; [assumption|]. intros ->. contradiction.
      * intros q Hq. rewrite L4 by (intros A; apply Hq; now right). apply N1. intros ->. apply Hq. now left.
Qed.

(** Loading any readable file into any network succeeds, touches nothing but the network's weights, and fills them
    in order with the values read. *)
Lemma load_any (n : net) (H : lheap) f : NoDup (n_hidden n) -> valid n H ->
  exists n' H', net_load conv n H (Some f) = Ok (n', H') /\ reweighted n H n' H' /\ slots n' H' = fst (reads (length (slots n H)) (ST f true)).
Proof.
  intros ND V. destruct (load_hidden_spec (n_hidden n) H (ST f true) ND V) as (H' & E & L1 & L2 & L3 & L4). unfold net_load. rewrite E. cbn [bind].
  unfold load_mat. set (a := length (flat_map (fun p => rowlist (hW H p)) (n_hidden n))) in *. set (Wo := l_W (o_l (n_output n))) in *.
  destruct (reads (nr Wo * nc Wo) (snd (reads a (ST f true)))) as [vs s2] eqn:ER. cbn [bind].
  exists (net_setoutputw n (mat_of (nr Wo) (nc Wo) vs)), H'. split; [reflexivity|]. split.
  - constructor; cbn; auto. apply wf_mk.
  - unfold slots. cbn [n_hidden net_setoutputw set_output n_output o_l set_W l_W]. rewrite app_length. fold a. fold Wo. rewrite (rowlist_length Wo), reads_split, ER. cbn [fst]. f_equal; [exact L2|].
    apply rowlist_mat_of. pose proof (reads_len (nr Wo * nc Wo) (snd (reads a (ST f true)))) as X. rewrite ER in X. exact X.
Qed.

(** *** reading spaced texts *)
Lemma read1_tok u t c r : wss u -> numeral t -> snd (conv t) = true -> is_ws c = true ->
  read1 conv (ST (u ++ t ++ c :: r) true) = (fst (conv t), ST (c :: r) true).
Proof.
  intros Hu N C Hc. unfold read1. cbn [s_good s_rest]. rewrite skip_wss by assumption. destruct t as [|x t]; [destruct N; contradiction|].
  cbn [app]. rewrite skip_start by now apply numeral_start with t. change (x :: t ++ c :: r) with ((x :: t) ++ c :: r). rewrite take_num_ws; [|assumption|now rewrite (proj2 N)].
  destruct (conv (x :: t)) as [v ok]. cbn in C. subst ok. reflexivity.
Qed.
Lemma wss_one c : is_ws c = true -> wss [c].
Proof. intros. now constructor. Qed.
Lemma reads_spaced ts a g : spaced ts a -> Forall (fun t => numeral t /\ snd (conv t) = true) ts ->
  exists u, wss u /\ reads (length ts) (ST (a ++ g) true) = (map (fun t => fst (conv t)) ts, ST (u ++ g) true).
Proof.
  intros S. assert (G : forall v, wss v -> Forall (fun t => numeral t /\ snd (conv t) = true) ts ->
    exists u, wss u /\ reads (length ts) (ST (v ++ a ++ g) true) = (map (fun t => fst (conv t)) ts, ST (u ++ g) true)).
  { induction S as [u Hu|u t c ts r Hu Hc S IH]; intros v Hv F.
    - exists (v ++ u). split; [apply Forall_app; auto|]. cbn. now rewrite <- app_assoc.
    - inversion F as [|? ? [F1 F2] F3]; subst. destruct (IH [c] (wss_one c Hc) F3) as (w & W1 & W2). exists w. split; [assumption|].
      cbn [length SaveLoad.reads map]. replace (v ++ (u ++ t ++ c :: r) ++ g) with ((v ++ u) ++ t ++ c :: r ++ g) by (rewrite <- !app_assoc; reflexivity).
      rewrite read1_tok; [|apply Forall_app; auto|assumption|assumption|assumption]. cbn [app] in W2. rewrite W2. reflexivity. }
  intros F. apply (G [] (Forall_nil _) F).
Qed.
Lemma read1_ws u g : wss u -> s_good (ST g true) = true -> read1 conv (ST (u ++ g) true) = read1 conv (ST g true).
Proof. intros Hu _. unfold read1. cbn [s_good s_rest]. now rewrite skip_wss. Qed.
Lemma reads_ws k u g : wss u -> fst (reads k (ST (u ++ g) true)) = fst (reads k (ST g true)).
Proof. intros Hu. destruct k as [|k]; [reflexivity|]. cbn [SaveLoad.reads]. rewrite read1_ws by auto. reflexivity. Qed.
Lemma reads_firstn k a s : k <= a -> fst (reads k s) = firstn k (fst (reads a s)).
Proof.
  intros H. replace a with (k + (a - k)) by lia. rewrite reads_split. cbn [fst]. rewrite firstn_app, reads_len, Nat.sub_diag. cbn [firstn].
  rewrite app_nil_r. rewrite <- (reads_len k s) at 2. now rewrite firstn_all.
Qed.

(** [g] has no readable number at its start: only blanks, or characters that are not a number, or one that is out of
    range; the value stored is [v]. *)
Definition unreadable (g : text) (v : D) : Prop :=
  (wss g /\ v = zero) \/ exists tok rest, skip_ws g <> [] /\ take_num (skip_ws g) = (tok, rest) /\ conv tok = (v, false).
Lemma reads_unreadable k g v : unreadable g v -> fst (reads k (ST g true)) = firstn k (v :: repeat zero k).
Proof.
  intros U. destruct k as [|k]; [reflexivity|]. cbn [SaveLoad.reads firstn]. unfold read1. cbn [s_good s_rest].
  assert (F : forall k, firstn k (repeat zero (S k)) = repeat zero k) by (induction k0 as [|k0 IH]; [reflexivity|]; cbn [repeat firstn]; f_equal; exact IH).
  destruct U as [[W ->]|(tok & rest & N & T & C)].
  - rewrite wss_all by assumption. rewrite reads_bad. cbn [fst]. now rewrite F.
  - destruct (skip_ws g) as [|x l] eqn:E; [contradiction|]. rewrite T, C. cbn [andb]. rewrite reads_bad. cbn [fst]. now rewrite F.
Qed.
(** an incomplete last token: the value of its characters, then zeros *)
Lemma reads_last k q : numeral q -> fst (reads k (ST q true)) = firstn k (fst (conv q) :: repeat zero k).
Proof.
  intros N. destruct k as [|k]; [reflexivity|]. cbn [SaveLoad.reads firstn]. unfold read1. cbn [s_good s_rest]. destruct q as [|x q]; [destruct N; contradiction|].
  assert (F : forall k, firstn k (repeat zero (S k)) = repeat zero k) by (induction k0 as [|k0 IH]; [reflexivity|]; cbn [repeat firstn]; f_equal; exact IH).
  rewrite skip_start by now apply numeral_start with q. rewrite (proj2 N). destruct (conv (x :: q)) as [v ok]. rewrite andb_false_r, reads_bad. cbn [fst]. now rewrite F.
Qed.
(** general form: good tokens, then [g] *)
Lemma reads_then ts a g k : spaced ts a -> Forall (fun t => numeral t /\ snd (conv t) = true) ts ->
  fst (reads k (ST (a ++ g) true)) = firstn k (map (fun t => fst (conv t)) ts) ++ fst (reads (k - length ts) (ST g true)).
Proof.
  intros S F. destruct (reads_spaced ts a g S F) as (u & Hu & E). destruct (le_lt_dec k (length ts)) as [L|L].
  - rewrite (reads_firstn k (length ts)) by assumption. rewrite E. cbn [fst]. replace (k - length ts) with 0 by lia. cbn. now rewrite app_nil_r.
  - replace k with (length ts + (k - length ts)) at 1 by lia. rewrite reads_split, E. cbn [fst snd]. rewrite reads_ws by assumption. f_equal.
    symmetry. apply firstn_all2. rewrite map_length. lia.
Qed.

(** *** what save writes *)
Lemma mat_spaced (w : mat) : spaced (map print (rowlist w)) (mat_text print w).
Proof.
  unfold mat_text. induction (rowlist w) as [|x l IH]; cbn [flat_map map app].
  - constructor. constructor; [reflexivity|constructor].
  - rewrite <- !app_assoc. cbn [app]. apply (sp_cons []); [constructor|reflexivity|assumption].
Qed.
Lemma save_spaced (n : net) (H : lheap) : valid n H -> exists txt, net_save print n H = Ok txt /\ spaced (map print (slots n H)) txt.
Proof.
  intros V. unfold net_save, slots. assert (A : exists hs, mapM (fun p => h <- lget H p ;; Ok (mat_text print (l_W (h_base h)))) (n_hidden n) = Ok hs /\
    spaced (map print (flat_map (fun p => rowlist (hW H p)) (n_hidden n))) (concat hs)).
  { induction V as [|p ids V1 V2 IH]; [exists []; split; [reflexivity|constructor; constructor]|]. destruct IH as (hs & E & S).
    destruct (nth_error H p) as [h|] eqn:Eh; [|exfalso; apply nth_error_None in Eh; lia]. exists (mat_text print (l_W (h_base h)) :: hs). cbn [mapM flat_map concat].
    unfold lget at 1. rewrite Eh. cbn [bind]. rewrite E. cbn [bind]. split; [reflexivity|]. rewrite map_app. apply spaced_app; [|assumption]. unfold hW. rewrite Eh. apply mat_spaced. }
  destruct A as (hs & -> & S). cbn [bind]. eexists. split; [reflexivity|]. rewrite map_app. apply spaced_app; [assumption|apply mat_spaced].
Qed.
Lemma printable_tokens ws : Forall printable ws -> Forall (fun t => numeral t /\ snd (conv t) = true) (map print ws).
Proof. intros F. apply Forall_map. eapply Forall_impl; [|exact F]. intros w P. exact P. Qed.

(** * C47 *)

(** Save one network, load into another (or the same) one with as many weights: each weight is replaced, in place
    and in the same position, by what the printed weight reads back as; nothing else changes.  (No hypothesis on the
    shapes of the layers is needed beyond the number of weights; for equal shapes the positions correspond.) *)
Theorem C47_roundtrip : forall (n : net) (H : lheap) (n2 : net) (H2 : lheap),
  valid n H -> valid n2 H2 -> NoDup (n_hidden n2) -> length (slots n2 H2) = length (slots n H) -> Forall printable (slots n H) ->
  exists txt n' H', net_save print n H = Ok txt /\ net_load conv n2 H2 (Some txt) = Ok (n', H') /\
    reweighted n2 H2 n' H' /\ slots n' H' = map reread (slots n H).
Proof.
  intros n H n2 H2 V V2 ND L F. destruct (save_spaced n H V) as (txt & E & S). destruct (load_any n2 H2 txt ND V2) as (n' & H' & E' & R & SL).
  exists txt, n', H'. repeat (split; [assumption|]). rewrite SL, L, <- (app_nil_r txt). rewrite (reads_then _ _ _ _ S (printable_tokens _ F)), !map_length, Nat.sub_diag. cbn [SaveLoad.reads fst].
  rewrite app_nil_r, map_map, firstn_all2 by (rewrite map_length; lia). reflexivity.
Qed.
(** The round trip is exact iff every weight survives printing. *)
Theorem C47_exact : forall (n : net) (H : lheap) (n2 : net) (H2 : lheap) txt n' H',
  valid n H -> valid n2 H2 -> NoDup (n_hidden n2) -> length (slots n2 H2) = length (slots n H) -> Forall printable (slots n H) ->
  net_save print n H = Ok txt -> net_load conv n2 H2 (Some txt) = Ok (n', H') ->
  (slots n' H' = slots n H <-> forall w, In w (slots n H) -> reread w = w).
Proof.
  intros n H n2 H2 txt n' H' V V2 ND L F E E'. destruct (C47_roundtrip n H n2 H2 V V2 ND L F) as (t0 & n0 & H0 & A & B & _ & S). rewrite E in A. injection A as <-. rewrite E' in B. injection B as <- <-.
  rewrite S. clear. induction (slots n H) as [|x l IH]; cbn [map]; [split; [intros _ w []|reflexivity]|]. split.
  - intros X. injection X as X1 X2. intros w [<- | Hw]; [assumption|]. now apply IH.
  - intros X. f_equal; [apply X; now left|]. apply IH. intros w Hw. apply X. now right.
Qed.
(** Saving and loading back into the same network is then the identity on everything. *)
Theorem C47_identity : forall (n : net) (H : lheap) txt, valid n H -> NoDup (n_hidden n) -> (forall p, In p (n_hidden n) -> wf (hW H p)) -> wf (l_W (o_l (n_output n))) ->
  Forall printable (slots n H) -> (forall w, In w (slots n H) -> reread w = w) -> net_save print n H = Ok txt -> net_load conv n H (Some txt) = Ok (n, H).
Proof.
  intros n H txt V ND Wh Wo F X E. destruct (C47_roundtrip n H n H V V ND eq_refl F) as (t0 & n' & H' & A & B & R & S). rewrite E in A. injection A as <-. rewrite B.
  assert (Q : slots n' H' = slots n H) by (rewrite S; transitivity (map (fun w : D => w) (slots n H)); [now apply map_ext_in|apply map_id]).
  destruct R as [R1 R2 R3 R7 R4 R5 R6].
  assert (HN : n_hidden n' = n_hidden n) by (rewrite R1; reflexivity).
  unfold slots in Q. rewrite HN in Q.
  (* hidden parts of equal lengths *)
  assert (LW : forall p, In p (n_hidden n) -> exists h w, nth_error H p = Some h /\ nth_error H' p = Some (h_with h (set_W (h_base h) w)) /\ nr w = nr (l_W (h_base h)) /\ nc w = nc (l_W (h_base h)) /\ wf w).
  { intros p Hp. unfold valid in V. rewrite Forall_forall in V. specialize (V p Hp). destruct (nth_error H p) as [h|] eqn:Eh; [|apply nth_error_None in Eh; lia].
    destruct (R5 p h Eh Hp) as (w & ? & ? & ? & ?). exists h, w. auto. }
  assert (Split : forall (ids : list nat) (o o' : list D), incl ids (n_hidden n) ->
    flat_map (fun p => rowlist (hW H' p)) ids ++ o' = flat_map (fun p => rowlist (hW H p)) ids ++ o -> (forall p, In p ids -> rowlist (hW H' p) = rowlist (hW H p)) /\ o' = o).
  { induction ids as [|p ids IH]; intros o o' I Eq; cbn [flat_map app] in Eq; [split; [intros p []|assumption]|]. rewrite <- !app_assoc in Eq.
    destruct (LW p (I p (or_introl eq_refl))) as (h & w & Eh & Eh' & D1 & D2 & D3).
    apply app_len_inj in Eq as [Q1 Q2].
    - destruct (IH _ _ (fun q Hq => I q (or_intror Hq)) Q2) as [J1 J2]. split; [|assumption]. intros q [<- | Hq]; auto.
    - unfold hW. rewrite Eh, Eh', h_base_with. cbn [l_W set_W]. rewrite !rowlist_length. congruence. }
  destruct (Split _ _ _ (incl_refl _) Q) as [Q1 Q2]. f_equal. f_equal.
  - rewrite R1. rewrite (rowlist_inj _ _ R7 Wo R2 R3 Q2). destruct n as [a b c d e [[] g h i]]. reflexivity.
  - apply nth_error_ext. intros p. destruct (in_dec Nat.eq_dec p (n_hidden n)) as [I|I]; [|now apply R6].
    destruct (LW p I) as (h & w & Eh & Eh' & D1 & D2 & D3). rewrite Eh, Eh'. f_equal. specialize (Q1 p I). specialize (Wh p I). unfold hW in Q1, Wh. rewrite Eh, Eh', h_base_with in Q1. rewrite Eh in Wh. cbn [l_W set_W] in Q1.
    rewrite (rowlist_inj _ _ D3 Wh D1 D2 Q1). apply same_W.
Qed.

Lemma rowlist_mmap f (w : mat) : rowlist (mmap f w) = map f (rowlist w).
Proof.
  unfold rowlist. rewrite map_map. cbn [nr nc mmap mk]. apply map_ext_in. intros [i j] Hij. cbn [fst snd].
  unfold rowmajor in Hij. apply in_flat_map in Hij as (i' & Hi & Hj). apply in_map_iff in Hj as (j' & E & Hj). injection E as <- <-. apply in_seq in Hi, Hj. apply at_mmap; lia.
Qed.
(** The same, layer by layer, for networks of the same layer sizes: matrix [W] becomes [reread] of [W], entry by entry. *)
Definition same_sizes (n : net) (H : lheap) (n2 : net) (H2 : lheap) : Prop :=
  Forall2 (fun p q => nr (hW H p) = nr (hW H2 q) /\ nc (hW H p) = nc (hW H2 q)) (n_hidden n) (n_hidden n2) /\
  nr (l_W (o_l (n_output n))) = nr (l_W (o_l (n_output n2))) /\ nc (l_W (o_l (n_output n))) = nc (l_W (o_l (n_output n2))).
Lemma same_sizes_len n H n2 H2 : same_sizes n H n2 H2 -> length (slots n2 H2) = length (slots n H).
Proof.
  intros (F & E1 & E2). unfold slots. rewrite !app_length, !rowlist_length, E1, E2. f_equal. induction F as [|p q l l' [A B] F IH]; [reflexivity|].
  cbn [flat_map]. rewrite !app_length, !rowlist_length, IH, A, B. reflexivity.
Qed.
Theorem C47_layers : forall (n : net) (H : lheap) (n2 : net) (H2 : lheap),
  valid n H -> valid n2 H2 -> NoDup (n_hidden n2) -> same_sizes n H n2 H2 -> Forall printable (slots n H) ->
  exists txt n' H', net_save print n H = Ok txt /\ net_load conv n2 H2 (Some txt) = Ok (n', H') /\ reweighted n2 H2 n' H' /\
    Forall2 (fun p q => hW H' q = mmap reread (hW H p)) (n_hidden n) (n_hidden n2) /\ l_W (o_l (n_output n')) = mmap reread (l_W (o_l (n_output n))).
Proof.
  intros n H n2 H2 V V2 ND SS F. destruct (C47_roundtrip n H n2 H2 V V2 ND (same_sizes_len _ _ _ _ SS) F) as (txt & n' & H' & A & B & R & S).
  exists txt, n', H'. repeat (split; [assumption|]). destruct R as [R1 R2 R3 R7 R4 R5 R6]. destruct SS as (S1 & S2 & S3).
  assert (HN : n_hidden n' = n_hidden n2) by (rewrite R1; reflexivity). unfold slots in S. rewrite HN, map_app in S.
  assert (LW : forall q, In q (n_hidden n2) -> nr (hW H' q) = nr (hW H2 q) /\ nc (hW H' q) = nc (hW H2 q) /\ wf (hW H' q)).
  { intros q Hq. unfold valid in V2. rewrite Forall_forall in V2. specialize (V2 q Hq). destruct (nth_error H2 q) as [h|] eqn:Eh; [|apply nth_error_None in Eh; lia].
    destruct (R5 q h Eh Hq) as (w & Ew & ? & ? & ?). unfold hW. rewrite Ew, Eh, h_base_with. cbn. auto. }
  clear R1 R4 R5 R6 A B F V V2 ND HN.
  assert (G : forall (o o' : list D), flat_map (fun p => rowlist (hW H' p)) (n_hidden n2) ++ o' = map reread (flat_map (fun p => rowlist (hW H p)) (n_hidden n)) ++ o ->
    Forall2 (fun p q => hW H' q = mmap reread (hW H p)) (n_hidden n) (n_hidden n2) /\ o' = o).
  { clear S. induction S1 as [|p q l l' [D1 D2] S1 IH]; intros o o' Eq; cbn [flat_map map app] in Eq; [split; [constructor|assumption]|]. rewrite map_app, <- !app_assoc in Eq.
    destruct (LW q (or_introl eq_refl)) as (E1 & E2 & E3). apply app_len_inj in Eq as [Q1 Q2]; [|rewrite map_length, !rowlist_length; congruence].
    destruct (IH (fun r Hr => LW r (or_intror Hr)) _ _ Q2) as [J1 J2]. split; [|assumption]. constructor; [|assumption].
    apply rowlist_inj; [assumption|apply wf_mk|cbn; congruence|cbn; congruence|]. now rewrite rowlist_mmap. }
  destruct (G _ _ S) as [G1 G2]. split; [assumption|]. apply rowlist_inj; [assumption|apply wf_mk|cbn; congruence|cbn; congruence|]. now rewrite rowlist_mmap.
Qed.
(** A file that cannot be opened: nothing changes (and nothing is reported). *)
Theorem C47_unopenable : forall (n : net) (H : lheap), net_load conv n H None = Ok (n, H).
Proof. reflexivity. Qed.
(** A weight that prints as something unreadable (inf, -nan, or a number out of range) loses itself and every weight after it. *)
Theorem C47_unreadable : forall (n : net) (H : lheap) (n2 : net) (H2 : lheap) ws w ws' v,
  valid n H -> valid n2 H2 -> NoDup (n_hidden n2) -> length (slots n2 H2) = length (slots n H) ->
  slots n H = ws ++ w :: ws' -> Forall printable ws -> unreadable (print w ++ [cspace]) v ->
  (exists c t, print w = c :: t /\ is_ws c = false) ->
  exists txt n' H', net_save print n H = Ok txt /\ net_load conv n2 H2 (Some txt) = Ok (n', H') /\ reweighted n2 H2 n' H' /\
    slots n' H' = map reread ws ++ v :: repeat zero (length ws').
Proof.
  intros n H n2 H2 ws w ws' v V V2 ND L E F U (c & t & Ep & Hc). destruct (save_spaced n H V) as (txt & Es & Sp). destruct (load_any n2 H2 txt ND V2) as (n' & H' & El & R & SL).
  exists txt, n', H'. repeat (split; [assumption|]). rewrite SL, L. rewrite E in Sp |- *. rewrite map_app in Sp. cbn [map] in Sp.
  assert (X : exists a g c0, txt = a ++ print w ++ c0 :: g /\ is_ws c0 = true /\ spaced (map print ws) a).
  { clear -Sp. revert txt Sp. induction ws as [|x ws IH]; intros txt Sp; cbn [map app] in Sp; inversion Sp as [|u t c0 ts r Hu Hc0 S' E1 E2]; subst.
    - exists u, r, c0. split; [reflexivity|]. split; [assumption|]. cbn. now constructor.
    - destruct (IH _ S') as (a & g & c1 & -> & C1 & S1). exists (u ++ print x ++ c0 :: a), g, c1. split; [rewrite <- !app_assoc; reflexivity|]. split; [assumption|]. cbn [map]. now constructor. }
  destruct X as (a & g & c0 & -> & Hc0 & Sa). rewrite (reads_then _ _ _ _ Sa (printable_tokens _ F)), !map_length, map_map, app_length. cbn [length].
  replace (length ws + S (length ws') - length ws) with (S (length ws')) by lia. rewrite firstn_all2 by (rewrite map_length; lia). f_equal.
  assert (U' : unreadable (print w ++ c0 :: g) v).
  { rewrite Ep in *. cbn [app] in *. right. destruct U as [[W _]|(tok & rest & N & T & C)]; [inversion W; congruence|]. rewrite skip_start in N, T |- * by assumption.
    change (c :: t ++ [cspace]) with ((c :: t) ++ [cspace]) in T. destruct (take_num (c :: t)) as [a0 b0] eqn:Et. destruct b0 as [|x b0].
    - rewrite take_num_ws in T; [|reflexivity|now rewrite Et]. injection T as <- <-. exists (c :: t), (c0 :: g). split; [discriminate|]. split; [|assumption].
      change (c :: t ++ c0 :: g) with ((c :: t) ++ c0 :: g). apply take_num_ws; [assumption|now rewrite Et].
    - rewrite (take_num_stop _ _ _ _ _ Et) in T. injection T as <- <-. exists a0, ((x :: b0) ++ c0 :: g). split; [discriminate|]. split; [|assumption].
      change (c :: t ++ c0 :: g) with ((c :: t) ++ c0 :: g). now apply take_num_stop. }
  rewrite (reads_unreadable _ _ _ U'). cbn [firstn]. f_equal. clear. assert (Q : forall m, firstn m (repeat zero (S m)) = repeat zero m) by (induction m as [|m IH]; [reflexivity|]; cbn [repeat firstn]; f_equal; exact IH).
  apply Q.
Qed.

(** * C48 *)

(** Loading from a file that consists of the readable tokens [ts] and then something unreadable (the end of the file,
    or a word): the first weights are those values, all the others become [v], 0, 0, ... whatever the network was;
    the call returns normally.  Tokens beyond the number of weights are ignored. *)
Theorem C48_short : forall (n : net) (H : lheap) ts a g v,
  NoDup (n_hidden n) -> valid n H -> spaced ts a -> Forall (fun t => numeral t /\ snd (conv t) = true) ts -> unreadable g v ->
  exists n' H', net_load conv n H (Some (a ++ g)) = Ok (n', H') /\ reweighted n H n' H' /\
    slots n' H' = firstn (length (slots n H)) (map (fun t => fst (conv t)) ts ++ v :: repeat zero (length (slots n H))).
Proof.
  intros n H ts a g v ND V Sp F U. destruct (load_any n H (a ++ g) ND V) as (n' & H' & E & R & SL). exists n', H'. repeat (split; [assumption|]).
  rewrite SL, (reads_then _ _ _ _ Sp F), (reads_unreadable _ _ _ U). set (N := length (slots n H)). rewrite firstn_app, map_length. f_equal.
  destruct (N - length ts) as [|k] eqn:Ek; [reflexivity|]. cbn [firstn]. f_equal. assert (k <= N) by lia.
  assert (Q : forall a b, a <= b -> firstn a (repeat zero b) = repeat zero a) by (induction a0 as [|a0 IH]; intros [|b] Hb; cbn [repeat firstn]; try reflexivity; [lia|f_equal; apply IH; lia]).
  rewrite !Q by lia. reflexivity.
Qed.
(** In general: whatever the file contains, the weights are the values read in order, and after a failed read
    (position [k] left the stream in a failed state) every later weight is 0. *)
Theorem C48_sticky : forall (n : net) (H : lheap) f k, NoDup (n_hidden n) -> valid n H -> k <= length (slots n H) -> s_good (snd (reads k (ST f true))) = false ->
  exists n' H', net_load conv n H (Some f) = Ok (n', H') /\ reweighted n H n' H' /\ skipn k (slots n' H') = repeat zero (length (slots n H) - k).
Proof.
  intros n H f k ND V Hk B. destruct (load_any n H f ND V) as (n' & H' & E & R & SL). exists n', H'. repeat (split; [assumption|]).
  rewrite SL. replace (length (slots n H)) with (k + (length (slots n H) - k)) at 1 by lia. rewrite reads_split. cbn [fst]. rewrite skipn_app, reads_len, Nat.sub_diag. cbn [skipn].
  rewrite skipn_all2 by (rewrite reads_len; lia). cbn [app]. destruct (snd (reads k (ST f true))) as [r gd]. cbn in B. subst gd. now rewrite reads_bad.
Qed.
(** A crash during save leaves the old file untouched or a prefix of the new text.  Loading that prefix gives: the first
    [k] saved weights, then possibly one weight read from an incomplete numeral, then zeros (or all the weights). *)
Theorem C48_crash : forall (n : net) (H : lheap) (n2 : net) (H2 : lheap) txt old file,
  valid n H -> valid n2 H2 -> NoDup (n_hidden n2) -> length (slots n2 H2) = length (slots n H) -> Forall printable (slots n H) ->
  net_save print n H = Ok txt -> crash_file old txt file ->
  file = old \/
  exists p n' H', file = Some p /\ net_load conv n2 H2 (Some p) = Ok (n', H') /\ reweighted n2 H2 n' H' /\
  exists k, k <= length (slots n H) /\
    (slots n' H' = map reread (firstn k (slots n H)) ++ repeat zero (length (slots n H) - k) \/
     exists w q, nth_error (slots n H) k = Some w /\ prefix q (print w) /\ q <> [] /\
       slots n' H' = map reread (firstn k (slots n H)) ++ fst (conv q) :: repeat zero (length (slots n H) - k - 1)).
Proof.
  intros n H n2 H2 txt old file V V2 ND L F E C. destruct C as [|p q Ep]; [now left|]. right. destruct (save_spaced n H V) as (t0 & E0 & Sp). rewrite E in E0. injection E0 as <-.
  destruct (load_any n2 H2 p ND V2) as (n' & H' & El & R & SL). exists p, n', H'. split; [reflexivity|]. split; [assumption|]. split; [assumption|].
  destruct (spaced_prefix _ _ p Sp) as (k & a & w & K1 & -> & K3 & K4); [exists q; congruence|]. rewrite map_length in K1. exists k. split; [assumption|].
  rewrite SL, L. rewrite firstn_map in K3.
  assert (Fk : Forall printable (firstn k (slots n H))) by (clear -F; rewrite <- (firstn_skipn k (slots n H)) in F; now apply Forall_app in F as [F _]).
  rewrite (reads_then _ _ _ _ K3 (printable_tokens _ Fk)), !map_length, map_map, firstn_length_le by assumption.
  rewrite (firstn_all2 (map _ _)) by (rewrite map_length, firstn_length; lia).
  destruct K4 as [-> | (t & T1 & T2 & T3)].
  - left. f_equal. rewrite (reads_unreadable _ [] zero) by (left; split; [constructor|reflexivity]).
    change (zero :: repeat zero (length (slots n H) - k)) with (repeat zero (S (length (slots n H) - k))).
    assert (Q : forall m, firstn m (repeat zero (S m)) = repeat zero m) by (induction m as [|m IH]; [reflexivity|]; cbn [repeat firstn]; f_equal; exact IH). apply Q.
  - right. rewrite nth_error_map in T1. destruct (nth_error (slots n H) k) as [x|] eqn:Ex; [|discriminate]. injection T1 as <-. exists x, w. repeat (split; [auto|]). f_equal.
    assert (Px : printable x) by (rewrite Forall_forall in F; apply F; eapply nth_error_In; eassumption).
    rewrite (reads_last _ w) by (apply numeral_prefix with (print x); [apply Px|assumption|assumption]).
    assert (k < length (slots n H)) by (apply nth_error_Some; congruence). destruct (length (slots n H) - k) as [|m] eqn:Em; [lia|]. cbn [firstn]. f_equal.
    replace (S m - 1) with m by lia.
    assert (Q : forall m, firstn m (repeat zero (S m)) = repeat zero m) by (induction m0 as [|m0 IH]; [reflexivity|]; cbn [repeat firstn]; f_equal; exact IH). apply Q.
Qed.

(** Conversely every amount of loss can happen: whatever the file held before, and for every k, there is a crash point after which the
    old file is gone and a load brings back exactly the first k weights and zeros. *)
Theorem C48_crash_all : forall (n : net) (H : lheap) (n2 : net) (H2 : lheap) txt old k,
  valid n H -> valid n2 H2 -> NoDup (n_hidden n2) -> length (slots n2 H2) = length (slots n H) -> Forall printable (slots n H) ->
  net_save print n H = Ok txt -> k <= length (slots n H) ->
  exists p rest n' H', txt = p ++ rest /\ crash_file old txt (Some p) /\ net_load conv n2 H2 (Some p) = Ok (n', H') /\ reweighted n2 H2 n' H' /\
    slots n' H' = map reread (firstn k (slots n H)) ++ repeat zero (length (slots n H) - k).
Proof.
  intros n H n2 H2 txt old k V V2 ND L F E Hk. destruct (save_spaced n H V) as (t0 & E0 & Sp). rewrite E in E0. injection E0 as <-.
  assert (X : exists p rest, txt = p ++ rest /\ spaced (map print (firstn k (slots n H))) p).
  { clear -Sp. revert k txt Sp. induction (slots n H) as [|x ws IH]; intros [|k] txt Sp; try (exists [], txt; split; [reflexivity|]; constructor; constructor). cbn [map firstn] in *. inversion Sp as [|u t c0 ts r Hu Hc0 S' E1 E2]; subst.
    destruct (IH k _ S') as (p & rest & -> & S1). exists (u ++ print x ++ c0 :: p), rest. split; [rewrite <- !app_assoc; reflexivity|]. now constructor. }
  destruct X as (p & rest & -> & Sk). assert (Fk : Forall printable (firstn k (slots n H))) by (clear -F; rewrite <- (firstn_skipn k (slots n H)) in F; now apply Forall_app in F as [F _]).
  destruct (C48_short n2 H2 _ p [] zero ND V2 Sk (printable_tokens _ Fk)) as (n' & H' & E1 & R & SL); [left; split; [constructor|reflexivity]|]. rewrite app_nil_r in E1.
  exists p, rest, n', H'. split; [reflexivity|]. split; [now apply crash_during with rest|]. split; [exact E1|]. split; [exact R|]. rewrite SL, L, map_map, firstn_app, map_length, firstn_length_le by assumption.
  rewrite firstn_all2 by (rewrite map_length, firstn_length; lia). f_equal. change (zero :: repeat zero (length (slots n H))) with (repeat zero (S (length (slots n H)))).
  assert (Q : forall a b, a <= b -> firstn a (repeat zero b) = repeat zero a) by (induction a as [|a IH]; intros [|b] Hb; cbn [repeat firstn]; try reflexivity; [lia|f_equal; apply IH; lia]). apply Q. lia.
Qed.

End Save.

(** * A concrete printer and reader of integers: printf "%g" (six significant digits) and strtod *)
Definition dig (k : Z) : ascii := ascii_of_nat (48 + Z.to_nat k).
Fixpoint digs (fuel : nat) (z : Z) (acc : text) : text :=
  match fuel with 0 => acc | S f => if (z <? 10)%Z then dig z :: acc else digs f (z / 10) (dig (z mod 10) :: acc) end.
Fixpoint strip0 (l : text) : text := match l with [] => [] | c :: r => match strip0 r with [] => if Ascii.eqb c "0"%char then [] else [c] | r' => c :: r' end end.
Fixpoint order (fuel : nat) (z : Z) : Z := match fuel with 0 => 0%Z | S f => if (z <? 10)%Z then 0%Z else (1 + order f (z / 10))%Z end.
Definition zprint (z : Z) : text :=
  let a := Z.abs z in
  (if (z <? 0)%Z then ["-"%char] else []) ++
  (if (a <? 1000000)%Z then digs 20 a []
   else let e := order 40 a in
        let m := ((a + 10 ^ (e - 5) / 2) / 10 ^ (e - 5))%Z in      (* rounding up to 10^6 is not handled: example values only *)
        match digs 20 m [] with
        | c :: r => (c :: match strip0 r with [] => [] | r' => "."%char :: r' end) ++ ["e"%char; "+"%char] ++ (if (e <? 10)%Z then ["0"%char] else []) ++ digs 20 e []
        | [] => []
        end).
Fixpoint zscan (l : text) (m f : Z) (frac : bool) : Z * Z * text :=
  match l with
  | c :: r => if is_digit c then zscan r (10 * m + (Z.of_nat (nat_of_ascii c) - 48)) (if frac then f + 1 else f)%Z frac
              else if is_dot c then zscan r m f true else (m, f, l)
  | [] => (m, f, [])
  end.
Definition zconv (t : text) : Z * bool :=
  let '(sg, u) := match t with "-"%char :: u => ((-1)%Z, u) | "+"%char :: u => (1%Z, u) | _ => (1%Z, t) end in
  match u with
  | [] => (0%Z, false)
  | c :: _ =>
      let '(m, f, r) := zscan u 0 0 false in
      match r with
      | [] => ((sg * m / 10 ^ f)%Z, true)
      | e :: "+"%char :: x => let '(k, _, _) := zscan x 0 0 false in ((sg * m * 10 ^ k / 10 ^ f)%Z, true)
      | e :: x => match x with [] => (0%Z, false) | _ => let '(k, _, _) := zscan x 0 0 false in ((sg * m * 10 ^ k / 10 ^ f)%Z, true) end
      end
  end.
Definition chars (s : list nat) : text := map ascii_of_nat s.
Definition numeralb (t : text) : bool := match t with [] => false | _ => match take_num t with (_, []) => true | _ => false end end.
Lemma numeralb_ok t : numeralb t = true -> numeral t.
Proof.
  unfold numeralb, numeral. destruct t as [|c t]; [discriminate|]. pose proof (take_num_parts (c :: t)) as P. destruct (take_num (c :: t)) as [a [|x b]]; [|discriminate].
  cbn [fst snd] in P. rewrite app_nil_r in P. intros _. split; [discriminate|]. now rewrite <- P.
Qed.
Lemma printables l : forallb (fun w => numeralb (zprint w) && snd (zconv (zprint w))) l = true -> Forall (printable (D := Zdt) zprint zconv) l.
Proof. intros H. apply Forall_forall. intros w Hw. rewrite forallb_forall in H. specialize (H w Hw). apply andb_prop in H as [A B]. split; [now apply numeralb_ok|assumption]. Qed.

(** the example network, with one weight of seven digits *)
Definition bigo : output Zdt := O (zl (zm 3 1 [1234567; 2; -3]%Z)) quad_cost quad_costd mempty.
Definition bign : net Zdt := N (D := Zdt) mempty quad_cost quad_costd (zl mempty) [0] bigo.
Definition vals (r : res (net Zdt * lheap Zdt)) : option (list Z) := match r with Ok (n, H) => Some (slots n H) | _ => None end.
Definition saved (n : net Zdt) : text := match net_save (D := Zdt) zprint n exH with Ok t => t | _ => [] end.

Example C47_hypotheses : valid exn exH /\ NoDup (n_hidden exn) /\ Forall (printable (D := Zdt) zprint zconv) (slots exn exH) /\
  valid bign exH /\ same_sizes exn exH bign exH /\ Forall (printable (D := Zdt) zprint zconv) (slots bign exH) /\
  (forall w, In w (slots exn exH) -> reread (D := Zdt) zprint zconv w = w) /\ wf (hW exH 0) /\ wf (l_W (o_l (n_output exn))).
Proof.
  split; [repeat constructor|]. split; [repeat constructor; intros []|]. split; [apply printables; vm_compute; reflexivity|]. split; [repeat constructor|].
  split; [split; [constructor; [split; reflexivity|constructor]|split; reflexivity]|]. split; [apply printables; vm_compute; reflexivity|].
  split; [|split; reflexivity]. intros w Hw. change (slots exn exH) with [1; 1; 2; -1; 1; 2; -3]%Z in Hw. cbn in Hw. repeat (destruct Hw as [<- | Hw]; [vm_compute; reflexivity|]). destruct Hw.
Qed.
(** seven digits do not survive *)
Example C47_lossy : slots bign exH = [1; 1; 2; -1; 1234567; 2; -3]%Z /\ vals (net_load (D := Zdt) zconv exn exH (Some (saved bign))) = Some [1; 1; 2; -1; 1234570; 2; -3]%Z.
Proof. split; vm_compute; reflexivity. Qed.
(** crashing in the middle of the printed "1.23457e+06": the weight is read as 1.2 (1 here), the last two as 0 *)
Example C48_crash_example : exists p, prefix p (saved bign) /\ vals (net_load (D := Zdt) zconv exn exH (Some p)) = Some [1; 1; 2; -1; 1; 0; 0]%Z.
Proof. exists (firstn 13 (saved bign)). split; [exists (skipn 13 (saved bign)); symmetry; apply firstn_skipn|vm_compute; reflexivity]. Qed.
(** "7 8 x 9": everything from the x on is zero *)
Example C48_word : unreadable (D := Zdt) zconv (chars [120; 32; 57]) 0%Z /\ spaced [chars [55]; chars [56]] (chars [55; 32; 56; 32]) /\
  vals (net_load (D := Zdt) zconv exn exH (Some (chars [55; 32; 56; 32; 120; 32; 57]))) = Some [7; 8; 0; 0; 0; 0; 0]%Z.
Proof.
  split; [right; exists [], (chars [120; 32; 57]); split; [discriminate|split; reflexivity]|]. split; [|vm_compute; reflexivity].
  apply (sp_cons [] (chars [55]) cspace [chars [56]] (chars [56; 32])); [constructor|reflexivity|]. apply (sp_cons [] (chars [56]) cspace [] []); [constructor|reflexivity|]. constructor. constructor.
Qed.
(** a weight printed as "inf" (here: -1 stands for it) loses everything from there on *)
Definition iprint (z : Z) : text := if (z =? -1)%Z then chars [105; 110; 102] else zprint z.
Example C47_inf : unreadable (D := Zdt) zconv (iprint (-1) ++ [cspace]) 0%Z /\
  vals (t <- net_save (D := Zdt) iprint exn exH ;; net_load (D := Zdt) zconv exn exH (Some t)) = Some [1; 1; 2; 0; 0; 0; 0]%Z.
Proof. split; [right; exists [], (chars [105; 110; 102; 32]); split; [discriminate|split; reflexivity]|vm_compute; reflexivity]. Qed.

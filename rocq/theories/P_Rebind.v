(** P_Rebind.v - C69: a MomentumTrainer keeps the accumulators of the network it was constructed for.  What happens
    when that network has meanwhile become another one (assignment) or the accumulators come from elsewhere. *)
From Verif Require Import Base Mat Act Layer Conv Misc Net NetP Trainer TrainP TrainP2 ExNet P_Train P_Batch P_Mom World P_World Session SessP P_Session P_Safe.
From Coq Require Import Arith.
Local Open Scope nat_scope.

Section Generic.
Context {D : dtype}.
Notation mat := (mat D).
Notation layer := (layer D).
Notation net := (net D).
Notation lheap := (lheap D).
Context (draw : D -> nat -> D) (junk : nat -> D).

(** ** Specification *)
(** Rows and columns of a matrix; of the weights of all hidden layers and of the output layer of a network. *)
Definition size (a : mat) : nat * nat := (nr a, nc a).
Definition sizes (n : net) (H : lheap) (hid : list (nat * nat)) (out : nat * nat) : Prop :=
  (exists ls, hidden_layers n H = Ok ls /\ hid = map (fun l : layer => size (l_W l)) ls) /\ out = size (l_W (o_l (n_output n))).
(** Comparing the accumulators' sizes with the network's, in order: the first pair that differs is an exception; if one
    list ends before the other, an element past the end of a vector is accessed. *)
Fixpoint compare (acc hid : list (nat * nat)) : res unit :=
  match acc, hid with
  | [], [] => Ok tt
  | a :: acc, h :: hid => if (fst a =? fst h) && (snd a =? snd h) then compare acc hid else Throw
  | _, _ => Undef OutOfBounds
  end.
Definition verdict (acc : list (nat * nat)) (oacc : nat * nat) (hid : list (nat * nat)) (out : nat * nat) : res unit :=
  if (fst oacc =? fst out) && (snd oacc =? snd out) then compare acc hid else Throw.
(** The call behaves as the verdict says. *)
Definition behaves {A} (v : res unit) (r : res A) : Prop :=
  match v with Ok _ => exists a, r = Ok a | Undef u => r = Undef u | Throw => r = Throw | Abort => r = Abort end.

(** ** Proof *)
Lemma madd_scal_bad (u v : D) (a b : mat) : (nr a =? nr b) && (nc a =? nc b) = false -> madd (mscal u a) (mscal v b) = Throw.
Proof. intros E. unfold madd, mzip. cbn [mscal mmap nr nc mk]. now rewrite E. Qed.
Lemma mom_hidden_bad mu it (acc g : mat) : (nr acc =? nr g) && (nc acc =? nc g) = false -> mom_hidden mu it acc g = Throw.
Proof. intros E. unfold mom_hidden. destruct (negb (deqb mu (dofZ 0))); now apply madd_scal_bad. Qed.
Lemma pair_eqb (a b c d : nat) : (a =? c) && (b =? d) = true -> a = c /\ b = d.
Proof. intros E. apply andb_prop in E as [A B]. apply Nat.eqb_eq in A, B. auto. Qed.

(** The accumulation loop on networks whose gradients have the sizes [gs]. *)
Lemma acc_loop (n : net) (H : lheap) mu it : forall accs k (rest : list layer),
  (forall i, net_gethidden n H (k + i) = match nth_error rest i with Some l => Ok l | None => Undef OutOfBounds end) ->
  match compare (map size accs) (map (fun l : layer => size (l_grad l)) rest) with
  | Throw => mapM (fun ia => l <- net_gethidden n H (fst ia) ;; mom_hidden mu it (snd ia) (l_grad l)) (combine (seq k (length accs)) accs) = Throw
  | Undef u => u = OutOfBounds /\
      (mapM (fun ia => l <- net_gethidden n H (fst ia) ;; mom_hidden mu it (snd ia) (l_grad l)) (combine (seq k (length accs)) accs) = Undef OutOfBounds \/
       exists hg, mapM (fun ia => l <- net_gethidden n H (fst ia) ;; mom_hidden mu it (snd ia) (l_grad l)) (combine (seq k (length accs)) accs) = Ok hg /\
         length hg < length rest /\ Forall2 (fun (l : layer) g => size g = size (l_grad l)) (firstn (length hg) rest) hg)
  | Ok _ => exists hg, mapM (fun ia => l <- net_gethidden n H (fst ia) ;; mom_hidden mu it (snd ia) (l_grad l)) (combine (seq k (length accs)) accs) = Ok hg /\
         Forall2 (fun (l : layer) g => size g = size (l_grad l)) rest hg
  | Abort => False
  end.
Proof.
  induction accs as [|a accs IH]; intros k rest Hk; destruct rest as [|l rest]; cbn [map compare length seq combine mapM].
  - exists []. split; [reflexivity|constructor].
  - split; [reflexivity|]. right. exists []. split; [reflexivity|]. split; [cbn; lia|constructor].
  - split; [reflexivity|]. left. cbn [fst snd]. specialize (Hk 0). rewrite Nat.add_0_r in Hk. rewrite Hk. reflexivity.
  - cbn [fst snd size]. specialize (Hk 0) as Hk0. rewrite Nat.add_0_r in Hk0. rewrite Hk0. cbn [nth_error bind].
    destruct ((nr a =? nr (l_grad l)) && (nc a =? nc (l_grad l))) eqn:E.
    + apply pair_eqb in E as [E1 E2]. rewrite mom_hidden_ok by assumption. cbn [bind].
      specialize (IH (S k) rest). destruct (compare (map size accs) (map (fun l : layer => size (l_grad l)) rest)) as [[]|u| |].
      * destruct IH as (hg & F1 & F2); [intros i; specialize (Hk (S i)); rewrite Nat.add_succ_comm; exact Hk|]. rewrite F1. cbn [bind]. eexists. split; [reflexivity|]. constructor; [|assumption].
        unfold size, mixed. cbn [nr nc mk]. congruence.
      * destruct IH as (F0 & F); [intros i; specialize (Hk (S i)); rewrite Nat.add_succ_comm; exact Hk|]. split; [assumption|]. destruct F as [F|(hg & F1 & F2 & F3)].
        -- left. rewrite F. reflexivity.
        -- right. rewrite F1. cbn [bind]. eexists. split; [reflexivity|]. cbn [length firstn]. split; [lia|]. constructor; [|assumption]. unfold size, mixed. cbn [nr nc mk]. congruence.
      * apply IH. intros i; specialize (Hk (S i)); rewrite Nat.add_succ_comm; exact Hk.
      * rewrite IH; [reflexivity|]. intros i; specialize (Hk (S i)); rewrite Nat.add_succ_comm; exact Hk.
    + rewrite mom_hidden_bad by assumption. reflexivity.
Qed.
(** Updating with too few gradients. *)
Lemma short_update : forall ids ls gs pre (H : lheap), NoDup ids -> dense_at H ids ls -> length gs < length ls -> Forall2 gfit (firstn (length gs) ls) gs ->
  foldM (upd_step (pre ++ gs)) (combine (seq (length pre) (length ids)) ids) H = Undef OutOfBounds.
Proof.
  induction ids as [|p ids IH]; intros ls gs pre H Hn Hd Hl Hg; inversion Hd as [|q l ids' ls0 Hp Hd' E1 E2]; subst; [cbn in Hl; lia|].
  cbn [length seq combine foldM]. unfold upd_step at 1. cbn [fst snd]. unfold lget at 1. rewrite Hp. cbn [bind]. inversion Hn; subst.
  rewrite nth_error_app2, Nat.sub_diag by lia. destruct gs as [|g gs]; cbn [nth_error]; [reflexivity|]. cbn [length firstn] in Hg, Hl. inversion Hg as [|l1 g1 ls1 gs1 [G3 G4] G2]; subst.
  cbn [h_update_with]. rewrite update_with_ok by assumption. cbn [bind].
  replace (S (length pre)) with (length (pre ++ [g])) by (rewrite app_length; cbn; lia). replace (pre ++ g :: gs) with ((pre ++ [g]) ++ gs) by (now rewrite <- app_assoc).
  apply (IH ls0); auto; [now apply dense_at_upd|lia].
Qed.

Lemma gfit_of_grad : forall (ls : list layer) (gs : list mat), Forall gsized ls -> Forall2 (fun (l : layer) g => size g = size (l_grad l)) ls gs -> Forall2 gfit ls gs.
Proof.
  intros ls gs A F. induction F as [|l g ls gs E F IH]; constructor; inversion A as [|u v [X Y] A']; subst; auto. unfold size in E. injection E as E1 E2. split; congruence.
Qed.
Lemma Forall_firstn {A} (P : A -> Prop) : forall l k, Forall P l -> Forall P (firstn k l).
Proof. intros l. induction l as [|a l IH]; intros [|k] F; cbn; auto. inversion F; subst. constructor; auto. Qed.

(** ** C69 *)
(** feeddata of a MomentumTrainer with accumulators of any sizes, on a network of dense layers whose sizes chain and data
    that fits it: it succeeds exactly when all accumulators have the sizes of the network's weights, and otherwise throws
    or is undefined as [verdict] says. *)
Theorem C69_feed : forall p c (m : mtrainer D) n H x y cost hid out, 1 <= p -> well_sized n H p c -> samples p c (x, y) -> sizes n H hid out ->
  behaves (verdict (map size (mt_hgrads m)) (size (mt_ograd m)) hid out) (momentum_feeddata_cost junk m n H x y cost).
Proof.
  intros p c t n H x y cost hid out Hp Hw Hs ((lsx & Hlx & Hhid) & Hout). pose proof (proj1 (well_fits _ _ _ _) Hw) as ((ls & Hf) & _).
  pose proof Hs as (S1 & S2 & S3 & S4). cbn [fst snd] in *.
  rewrite (hidden_layers_dense n H ls (proj2 (proj1 Hf))) in Hlx. injection Hlx as <-.
  pose proof (decay_ok (tick (mt_t t)) n H ls p c Hf) as (n0 & H0 & ls0' & D1 & D2 & D3 & D4).
  destruct (decay_only_rates (tick (mt_t t)) n H ls (proj1 Hf)) as (n0' & H0' & ls0 & E1 & E2 & E3 & E4 & E5 & _).
  pose proof (eq_trans (eq_sym E1) D1) as Q. injection Q as -> ->. clear E1.
  assert (Els : ls0' = ls0).
  { pose proof (hidden_layers_dense n0 H0 ls0 (proj2 E2)) as A. pose proof (hidden_layers_dense n0 H0 ls0' (proj2 (proj1 D2))) as B. congruence. }
  subst ls0'.
  destruct (forward_backward_ok junk n0 H0 ls0 p c x y D2 Hp S1 S2 S3 S4) as (a & n1 & H1 & n2 & H2 & ls2 & A1 & A2 & A3 & A4 & A5 & A7 & A8).
  destruct (pass_dense junk n0 H0 ls0 x y a n1 H1 n2 H2 E2 A1 A4) as (b & ls1 & delta & ls2' & dx & P1 & P2 & P3 & P4 & P5 & P6 & P7 & P8 & P9 & P10 & P11 & P12 & P13).
  assert (Els : ls2' = ls2).
  { pose proof (hidden_layers_dense n2 H2 ls2 (proj2 (proj1 A5))) as A. pose proof (hidden_layers_dense n2 H2 ls2' (proj2 P9)) as B. congruence. }
  subst ls2'. pose proof (passes_form _ _ _ _ P1 _ _ _ P7) as PF.
  assert (EW : Forall2 (fun l l2 : layer => l_W l2 = l_W l) ls ls2).
  { clear -E3 PF. revert ls2 PF. induction E3 as [|l l0 ls ls0 Eo D3 IH]; intros ls2 PF; inversion PF as [|u v us vs (R & A & _) PF']; subst; constructor; auto.
    rewrite Eo in A. exact A. }
  assert (Eo : l_W (o_l (n_output n2)) = l_W (o_l (n_output n))). { rewrite P10. cbn. rewrite E5. reflexivity. }
  assert (Eh : hid = map (fun l : layer => size (l_grad l)) ls2).
  { subst hid. clear -EW A7. induction EW as [|l l2 ls ls2 E EW IH]; cbn; [reflexivity|]. inversion A7 as [|u v [G1 G2] A7']; subst. rewrite IH by assumption. f_equal. unfold size. rewrite G1, G2, E. reflexivity. }
  destruct A8 as [G1 G2]. rewrite Eo in G1, G2.
  unfold verdict, momentum_feeddata_cost, momentum_feeddata. rewrite D1. cbn [bind]. rewrite A1. cbn [bind]. rewrite A4. cbn [bind]. unfold net_getoutput, output_copy. cbn [o_l]. rewrite layer_copy_id.
  rewrite Hout. cbn [size fst snd]. destruct ((nr (mt_ograd t) =? nr (l_W (o_l (n_output n)))) && (nc (mt_ograd t) =? nc (l_W (o_l (n_output n))))) eqn:EO.
  2:{ cbn [behaves]. rewrite madd_scal_bad; [reflexivity|]. rewrite G1, G2. exact EO. }
  apply pair_eqb in EO as [O1 O2]. rewrite madd_scal_ok by congruence. cbn [bind].
  pose proof (acc_loop n2 H2 (mt_mom t) (t_iters (tick (mt_t t))) (mt_hgrads t) 0 ls2) as AL. rewrite Eh.
  assert (GH : forall i, net_gethidden n2 H2 (0 + i) = match nth_error ls2 i with Some l => Ok l | None => Undef OutOfBounds end).
  { intros i. cbn [Nat.add]. now rewrite (gethidden_at n2 H2 ls2) by apply P9. }
  specialize (AL GH). destruct (compare (map size (mt_hgrads t)) (map (fun l : layer => size (l_grad l)) ls2)) as [[]|u| |]; cbn [behaves].
  - destruct AL as (hg & F1 & F2). rewrite F1. cbn [bind].
    rewrite (net_update_with_ok n2 H2 ls2); [| exact P9 | unfold gfit; cbn; rewrite Eo; split; assumption |].
    + cbn [bind]. destruct cost; [|eauto]. destruct (forward_kc _ _ _ _ _ _ _ A1) as [KF RF]. destruct (backprop_kc _ _ _ _ _ _ A4) as [KB RB]. cbn [n_result set_output].
      assert (W2 : n_cost (set_output n2 (with_layer (n_output n2) (stepped_with (o_l (n_output n2)) (mk (nr (mt_ograd t)) (nc (mt_ograd t)) (fun i j => dadd (dmul (mt_mom t) (at_ (mt_ograd t) i j)) (dmul (dsub (dofZ 1) (mt_mom t)) (at_ (l_grad (o_l (n_output n2))) i j))))))) = n_cost n).
      { cbn. destruct KB as [KB _]. destruct KF as [KF _]. destruct D3 as [D3 _]. congruence. }
      unfold net_computecost. rewrite W2. destruct (builtin_sized_cost (n_cost n)) with (y := y) (h := n_result n2) as [J EJ]; [apply well_fits in Hw; apply Hw|rewrite RB, RF; congruence|rewrite RB, RF; congruence|].
      rewrite EJ. cbn [bind]. eauto.
    + now apply gfit_of_grad.
  - destruct AL as [-> [AL|(hg & F1 & F2 & F3)]]; [rewrite AL; reflexivity|]. rewrite F1. cbn [bind]. unfold net_update_with, output_update_with.
    rewrite update_with_ok by (cbn; congruence). cbn [bind].
    assert (X : foldM (upd_step hg) (combine (seq 0 (length (n_hidden n2))) (n_hidden n2)) H2 = Undef OutOfBounds).
    { apply (short_update (n_hidden n2) ls2 hg [] H2); [apply P9|apply P9|assumption|]. apply gfit_of_grad; [apply Forall_firstn|]; assumption. }
    unfold upd_step in X. rewrite X. reflexivity.
  - contradiction.
  - rewrite AL. reflexivity.
Qed.

(** A MomentumTrainer is constructed for network k, and then network i is assigned to network k: a later feeddata compares
    the sizes of the old network k with those of network i. *)
Theorem C69_reassigned : forall p c s k i n0 n1 mu d x y cost h0 o0 h1 o1, 1 <= p ->
  nth_error (s_nets s) k = Some (Some n0) -> nth_error (s_nets s) i = Some (Some n1) -> dense_hidden n0 (s_heap s) ->
  well_sized n1 (s_heap s) p c -> samples p c (x, y) -> sizes n0 (s_heap s) h0 o0 -> sizes n1 (s_heap s) h1 o1 ->
  behaves (verdict h0 o0 h1 o1)
    (srun draw junk [SNew (NMom mu d) k; SAssignNet k i; SFeed (length (s_trainers s)) x y cost] s).
Proof.
  intros p c s k i n0 n1 mu d x y cost h0 o0 h1 o1 Hp Hk Hi Hd Hw Hs Z0 Z1.
  destruct (init_ok (base_of d) mu n0 (s_heap s) Hd) as (m & Em & Mf). destruct (momentum_new_shape (base_of d) mu n0 (s_heap s) m Hd Em) as (Q1 & Q2 & ks & Q3 & Q4 & Q5).
  unfold Session.srun. cbn [foldM Session.sstep]. unfold live_net. rewrite Hk. cbn [bind new_bound]. rewrite Em. cbn [bind]. cbn [add_trainer s_nets s_heap s_trainers]. rewrite Hk, Hi. cbn [bind].
  cbn [set_net s_nets s_heap s_trainers]. unfold live_trainer. cbn [set_net add_trainer s_nets s_heap s_trainers]. rewrite nth_error_app2, Nat.sub_diag by lia. cbn [nth_error bind]. unfold feed. cbn [to_net to_kind deref s_nets s_heap].
  unfold live_net. cbn [set_net add_trainer s_nets s_heap s_trainers]. rewrite nth_upd by (eapply nth_lt; eauto). cbn [bind feed_on].
  assert (V : verdict h0 o0 h1 o1 = verdict (map size (mt_hgrads m)) (size (mt_ograd m)) h1 o1).
  { destruct Z0 as ((lsz & Z01 & ->) & ->). pose proof (eq_trans (eq_sym Z01) Q3) as X. injection X as ->. rewrite Q4, Q5. rewrite map_map. reflexivity. }
  assert (Wn : well_sized (net_assign n0 n1) (s_heap s) p c) by (eapply well_sim; [exact Hw|reflexivity|split; reflexivity|split; reflexivity|apply simH_refl]).
  assert (Zn : sizes (net_assign n0 n1) (s_heap s) h1 o1).
  { destruct Z1 as ((lsz & Z01 & ->) & ->). split; [|reflexivity]. exists lsz. split; [|reflexivity]. exact Z01. }
  pose proof (C69_feed p c m (net_assign n0 n1) (s_heap s) x y cost h1 o1 Hp Wn Hs Zn) as B. rewrite V.
  destruct (verdict (map size (mt_hgrads m)) (size (mt_ograd m)) h1 o1) as [[]|u| |]; cbn [behaves] in *.
  - destruct B as [[[[v m'] n'] H'] B]. rewrite B. cbn [bind]. eauto.
  - rewrite B. reflexivity.
  - rewrite B. reflexivity.
  - rewrite B. reflexivity.
Qed.
(** The verdicts: success needs exactly equal sizes everywhere; more hidden layers before or after the assignment, all
    common ones of equal size, is an access past the end of a vector. *)
Theorem C69_success : forall acc oacc hid out, verdict acc oacc hid out = Ok tt <-> acc = hid /\ oacc = out.
Proof.
  assert (G : forall acc hid, compare acc hid = Ok tt <-> acc = hid).
  { induction acc as [|[a b] acc IH]; intros [|[u v] hid]; cbn [compare fst snd]; try (split; [discriminate|discriminate]); [tauto|].
    destruct ((a =? u) && (b =? v)) eqn:E.
    - apply pair_eqb in E as [-> ->]. rewrite IH. split; [intros ->; reflexivity|intros Q; injection Q; auto].
    - split; [discriminate|]. intros Q. injection Q as -> -> ->. rewrite !Nat.eqb_refl in E. discriminate. }
  intros acc [a b] hid [u v]. unfold verdict. cbn [fst snd]. destruct ((a =? u) && (b =? v)) eqn:E.
  - apply pair_eqb in E as [-> ->]. rewrite G. tauto.
  - split; [discriminate|]. intros [_ Q]. injection Q as -> ->. rewrite !Nat.eqb_refl in E. discriminate.
Qed.
Theorem C69_layers : forall hid out h rest, verdict hid out (hid ++ h :: rest) out = Undef OutOfBounds /\ verdict (hid ++ h :: rest) out hid out = Undef OutOfBounds.
Proof.
  intros hid [a b] h rest. unfold verdict. rewrite !Nat.eqb_refl. cbn [andb]. induction hid as [|[u v] hid IH]; [split; reflexivity|]. cbn [app compare fst snd]. rewrite !Nat.eqb_refl. exact IH.
Qed.
End Generic.

(** ** Example: a network with one hidden layer becomes one with none, and one with three units instead of two. *)
Definition exo1 : output Zdt := O (zl (zm 2 1 [1; 2]%Z)) quad_cost quad_costd mempty.
Definition exo3 : output Zdt := O (zl (zm 4 1 [1; 2; 3; 4]%Z)) quad_cost quad_costd mempty.
Definition mkn (hid : list nat) (o : output Zdt) : net Zdt := N (D := Zdt) mempty quad_cost quad_costd (zl mempty) hid o.
Definition heap3 : lheap Zdt := [HDense (zl (zm 2 2 [1; 2; 1; -1]%Z)); HDense (zl (zm 2 3 [1; 2; 1; -1; 0; 1]%Z)); HDense (zl (zm 2 2 [3; 2; 1; 0]%Z));
  HDense (zl (zm 2 2 [3; 2; 1; 0]%Z)); HDense (zl (zm 3 2 [3; 2; 1; 0; 1; 1]%Z))].
Definition sess3 : session Zdt := SS [Some (mkn [0] exo); Some (mkn [] exo1); Some (mkn [1] exo3); Some (mkn [2] exo); Some (mkn [3; 4] exo)] heap3 [].
Definition tag {A} (r : res A) : nat := match r with Ok _ => 0 | Undef OutOfBounds => 1 | Throw => 2 | _ => 3 end.
Definition reassign (i : nat) := tag (srun exdr exj [SNew (NMom (1 : Zdt)%Z None) 0; SAssignNet 0 i; SFeed 0 exx exy true] sess3).
Example C69_example : map reassign [0; 1; 2; 3; 4] = [0; 2; 2; 0; 1].
Proof. vm_compute. reflexivity. Qed.
(** The hypotheses of C69_reassigned (and with it of C69_feed), for the assignment of network 4. *)
Example C69_example_hyps : exists n0 n1, nth_error (s_nets sess3) 0 = Some (Some n0) /\ nth_error (s_nets sess3) 4 = Some (Some n1) /\ dense_hidden n0 (s_heap sess3) /\
  well_sized n1 (s_heap sess3) 1 1 /\ samples 1 1 (exx, exy) /\ sizes n0 (s_heap sess3) [(2, 2)] (3, 1) /\ sizes n1 (s_heap sess3) [(2, 2); (3, 2)] (3, 1).
Proof.
  exists (mkn [0] exo), (mkn [3; 4] exo). split; [reflexivity|]. split; [reflexivity|].
  split. { split; [repeat constructor; cbn; intuition discriminate|]. cbn. intros p [<-|[]]. eexists. reflexivity. }
  split. { split; [split; [repeat constructor; cbn; intuition discriminate|]; cbn; intros p [<-|[<-|[]]]; eexists; reflexivity|].
    split; [eexists; split; [reflexivity|]; exists 2; cbn; repeat split; lia|]. split; left; reflexivity. }
  split. { repeat split; cbn; lia. }
  split; (split; [eexists; split; reflexivity|reflexivity]).
Qed.

Print Assumptions C69_feed.
Print Assumptions C69_reassigned.
Print Assumptions C69_success.
Print Assumptions C69_layers.

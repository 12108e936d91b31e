(** ExcP.v - lemmas for Exc.v: the functions of Exc.v refine those of Layer.v, Net.v and Trainer.v. *)
From Verif Require Import Base Mat Act Layer Conv Misc Net Trainer Exc.
From Coq Require Import Arith.
Local Open Scope nat_scope.

(** Forget what the objects look like after an exception; [f] arranges the final state and the result. *)
Definition forget {S A B} (f : S -> A -> B) (m : xr S A) : res B :=
  match m with XOk s a => Ok (f s a) | XThrow _ => Throw | XAbort => Abort | XUndef u => Undef u end.

Lemma forget_lift {S A B C} (f : S -> B -> C) (s : S) (r : res A) k : forget f (xlift s r k) = bind r (fun a => forget f (k a)).
Proof. destruct r; reflexivity. Qed.
Lemma forget_in {S1 S A B C X} (g : S1 -> A -> X) (f : S -> B -> C) (put : S1 -> S) m (k : S -> A -> xr S B) r (k' : X -> res C) :
  forget g m = r -> (forall s a, forget f (k (put s) a) = k' (g s a)) -> forget f (xin put m k) = bind r k'.
Proof. intros <- Hk. destruct m; cbn; auto. Qed.
Lemma forget_fold {S A} (F : S -> A -> xr S unit) (F' : S -> A -> res S) l : (forall s a, forget (fun s _ => s) (F s a) = F' s a) ->
  forall s, forget (fun s _ => s) (xfold F l s) = foldM F' l s.
Proof. intros Hf. induction l as [|a l IH]; intros s; [reflexivity|]. cbn [xfold foldM]. apply forget_in with (g := fun s _ => s); [apply Hf|]. intros s' []. apply IH. Qed.

Lemma bind_ext {A B} (r : res A) (k k' : A -> res B) : (forall a, k a = k' a) -> bind r k = bind r k'.
Proof. intros E. destruct r; cbn; auto. Qed.
Lemma bind_assoc {A B C} (r : res A) (k : A -> res B) (k' : B -> res C) : bind (bind r k) k' = bind r (fun a => bind (k a) k').
Proof. destruct r; reflexivity. Qed.
Lemma bind_ret {A} (r : res A) : bind r (fun a => Ok a) = r.
Proof. destruct r; reflexivity. Qed.

Section ExcP.
Context {D : dtype}.
Notation mat := (mat D).
Notation layer := (layer D).
Notation output := (output D).
Notation net := (net D).
Notation lheap := (lheap D).
Context (junk : nat -> D) (wreck : hlayer D -> hlayer D).
Definition swap {S A} (s : S) (a : A) : A * S := (a, s).
Definition swap2 {A} (s : net * lheap) (a : A) : A * net * lheap := (a, fst s, snd s).
Definition swap3 {T A} (s : T * net * lheap) (a : A) : A * T * net * lheap := (a, fst (fst s), snd (fst s), snd s).
Definition st {S} (s : S) (_ : unit) : S := s.

Lemma xforward_ref (l : layer) x : forget swap (xforward l x) = forwardprop l x.
Proof. unfold xforward, forwardprop. rewrite forget_lift. apply bind_ext; intros pa. rewrite forget_lift. reflexivity. Qed.
Lemma xgrad_ref (l : layer) : forget st (xgrad l) = bind (reg_grad l (l_delta l)) (fun g => Ok (put_grad l g)).
Proof. unfold xgrad, reg_grad. rewrite forget_lift, bind_assoc. apply bind_ext; intros g. rewrite forget_lift. reflexivity. Qed.
Lemma xbackprop_ref (l : layer) d : forget swap (xbackprop l d) = backprop l d.
Proof.
  unfold xbackprop, backprop. rewrite forget_lift. apply bind_ext; intros delta.
  erewrite forget_in; [|apply xgrad_ref|intros s a; change s with (st s a); instantiate (1 := fun s => forget swap (xlift s (mmul (l_delta s) (mt (l_W s))) (fun dw : Mat.mat D => xlift s (submat dw 0 1 (Z.of_nat (nr (l_delta s)) - 1) (Z.of_nat (nr (l_W s)) - 1)) (fun r : Mat.mat D => XOk s r)))); reflexivity].
  rewrite bind_assoc. cbn [bind put_delta l_delta]. apply bind_ext. intros g. rewrite forget_lift. apply bind_ext; intros dw. rewrite forget_lift. reflexivity.
Qed.
Lemma xupdate_ref (l : layer) g : forget st (xupdate_with l g) = update_with l g.
Proof. unfold xupdate_with, update_with. rewrite forget_lift. reflexivity. Qed.
Lemma xout_forward_ref (o : output) x : forget swap (xout_forward o x) = output_forward o x.
Proof. unfold xout_forward, output_forward. eapply forget_in; [apply xforward_ref|]. reflexivity. Qed.
Lemma xout_update_ref (o : output) g : forget st (xout_update_with o g) = output_update_with o g.
Proof. unfold xout_update_with, output_update_with. eapply forget_in; [apply xupdate_ref|]. intros s []. reflexivity. Qed.
Lemma xout_backprop_ref (o : output) y : forget swap (xout_backprop o y) = output_backprop o y.
Proof.
  unfold xout_backprop, output_backprop. rewrite forget_lift. cbn [o_costd o_y o_l]. apply bind_ext; intros delta.
  erewrite forget_in; [|apply xgrad_ref|intros s a; change s with (st s a); instantiate (1 := fun s => forget swap (xlift (O s (o_cost o) (o_costd o) y) (mmul (l_delta s) (mt (l_W s))) (fun nd : Mat.mat D => xlift (O s (o_cost o) (o_costd o) y) (shed_col nd 0) (fun r : Mat.mat D => XOk (O s (o_cost o) (o_costd o) y) r)))); reflexivity].
  rewrite bind_assoc. cbn [bind put_delta l_delta]. apply bind_ext. intros g. rewrite forget_lift. apply bind_ext; intros dw. rewrite forget_lift. reflexivity.
Qed.
Lemma xh_forward_ref h x : forget swap (xh_forward junk wreck h x) = h_forward junk h x.
Proof.
  destruct h as [l|c|p|q|s]; [unfold xh_forward, h_forward; eapply forget_in; [apply xforward_ref|]; reflexivity|..];
    unfold xh_forward; rewrite forget_lift; (etransitivity; [|apply bind_ret]); apply bind_ext; now intros [a h'].
Qed.
Lemma xh_backprop_ref h x : forget swap (xh_backprop junk wreck h x) = h_backprop junk h x.
Proof.
  destruct h as [l|c|p|q|s]; [unfold xh_backprop, h_backprop; eapply forget_in; [apply xbackprop_ref|]; reflexivity|..];
    unfold xh_backprop; rewrite forget_lift; (etransitivity; [|apply bind_ret]); apply bind_ext; now intros [a h'].
Qed.
Lemma xh_update_ref (h : hlayer D) g : forget st (xh_update_with h g) = h_update_with h g.
Proof. unfold xh_update_with. rewrite forget_lift. apply bind_ret. Qed.

Lemma xhidden_forward_ref ids : forall x (H : lheap), forget swap (xhidden_forward junk wreck ids x H) = hidden_forward junk ids x H.
Proof.
  induction ids as [|p ids IH]; intros x H; [reflexivity|]. cbn [xhidden_forward hidden_forward]. rewrite forget_lift. apply bind_ext; intros h.
  eapply forget_in; [apply xh_forward_ref|]. intros s a. apply IH.
Qed.
Lemma xnet_forward_ref (n : net) H x : forget swap2 (xnet_forward junk wreck n H x) = net_forward junk n H x.
Proof.
  unfold xnet_forward, net_forward. destruct (input_forward (n_input n) x) as [cur i']. eapply forget_in; [apply xhidden_forward_ref|]. intros s a. cbn [swap].
  eapply forget_in; [apply xout_forward_ref|]. reflexivity.
Qed.
Lemma xhidden_backprop_ref ids : forall d (H : lheap), forget st (xhidden_backprop junk wreck ids d H) = hidden_backprop junk ids d H.
Proof.
  induction ids as [|p ids IH]; intros x H; [reflexivity|]. cbn [xhidden_backprop hidden_backprop]. rewrite forget_lift. apply bind_ext; intros h.
  eapply forget_in; [apply xh_backprop_ref|]. intros s a. apply IH.
Qed.
Lemma xnet_backprop_ref (n : net) H y : forget st (xnet_backprop junk wreck n H y) = net_backprop junk n H y.
Proof.
  unfold xnet_backprop, net_backprop. eapply forget_in; [apply xout_backprop_ref|]. intros o a. cbn [swap].
  eapply forget_in; [apply xhidden_backprop_ref|]. reflexivity.
Qed.
Lemma xnet_update_ref (n : net) (H : lheap) : forget st (xnet_update n H) = net_update n H.
Proof.
  unfold xnet_update, net_update. eapply forget_in; [apply xout_update_ref|]. intros o []. cbn [st].
  eapply forget_in; [apply forget_fold|reflexivity]. intros s p. rewrite forget_lift. apply bind_ext; intros h. eapply forget_in; [apply xh_update_ref|]. reflexivity.
Qed.
Lemma xnet_update_with_ref (n : net) (H : lheap) og hg : forget st (xnet_update_with n H og hg) = net_update_with n H og hg.
Proof.
  unfold xnet_update_with, net_update_with. eapply forget_in; [apply xout_update_ref|]. intros o []. cbn [st].
  eapply forget_in; [apply forget_fold|reflexivity]. intros s [i p]. cbn [fst snd]. rewrite forget_lift. apply bind_ext; intros h. destruct (nth_error hg i) as [g|]; [|reflexivity]. eapply forget_in; [apply xh_update_ref|]. reflexivity.
Qed.
Lemma xnet_predict_ref (n : net) H x : forget swap2 (xnet_predict junk wreck n H x) = net_predict junk n H x.
Proof.
  unfold xnet_predict, net_predict. eapply forget_in; [apply xnet_forward_ref|]. intros [n1 H1] r. cbn [swap2 fst snd]. rewrite forget_lift. reflexivity.
Qed.
Lemma xtrain_step_ref (n : net) H x y : forget st (xtrain_step junk wreck n H x y) = train_step junk n H x y.
Proof.
  unfold xtrain_step, train_step. eapply forget_in; [apply xnet_forward_ref|]. intros [n1 H1] r. cbn [swap2 fst snd].
  eapply forget_in; [apply xnet_backprop_ref|]. intros [n2 H2] []. apply xnet_update_ref.
Qed.
Lemma xfeeddata_ref (t : trainer D) n H x y : forget st (xfeeddata junk wreck t n H x y) = feeddata junk t n H x y.
Proof.
  unfold xfeeddata, feeddata. rewrite forget_lift. apply bind_ext; intros [n1 H1]. eapply forget_in; [apply xtrain_step_ref|]. intros [n2 H2] []. reflexivity.
Qed.
Lemma xcost_ref {T} (s : T * net * lheap) y b : forget swap3 (xcost s y b) =
  (let '(t, n, H) := s in if b then c <- net_computecost n (n_result n) y ;; Ok (c, t, n, H) else Ok (dofZ 0, t, n, H)).
Proof. destruct s as [[t n] H]. unfold xcost. destruct b; [rewrite forget_lift; apply bind_ext; reflexivity|reflexivity]. Qed.
Lemma xfeeddata_cost_ref (t : trainer D) n H x y b : forget swap3 (xfeeddata_cost junk wreck t n H x y b) = feeddata_cost junk t n H x y b.
Proof.
  unfold xfeeddata_cost, feeddata_cost. eapply forget_in; [apply xfeeddata_ref|]. intros [[t' n'] H'] []. apply xcost_ref.
Qed.
Lemma xsgd_row_ref (n : net) H x y i : forget st (xsgd_row junk wreck n H x y i) = sgd_row junk n H x y i.
Proof.
  unfold xsgd_row, sgd_row. rewrite forget_lift. apply bind_ext; intros xi. eapply forget_in; [apply xnet_forward_ref|]. intros [n1 H1] r. cbn [swap2 fst snd].
  rewrite forget_lift. apply bind_ext; intros yi. eapply forget_in; [apply xnet_backprop_ref|]. intros [n2 H2] []. apply xnet_update_ref.
Qed.
Lemma xsgd_feeddata_ref (t : trainer D) n H x y : forget st (xsgd_feeddata junk wreck t n H x y) = sgd_feeddata junk t n H x y.
Proof.
  unfold xsgd_feeddata, sgd_feeddata. rewrite forget_lift. apply bind_ext; intros [n1 H1]. eapply forget_in; [apply forget_fold; intros [n2 H2] i; apply xsgd_row_ref|]. intros [n2 H2] []. reflexivity.
Qed.
Lemma xsgd_costs_ref (t : trainer D) x y : forall rows c n H, forget swap3 (xsgd_costs junk wreck t x y rows c n H) =
  ('(c, n2, H2) <- foldM (fun '(c, n, H) i =>
         xi <- mrow x i ;;
         '(_, n1, H1) <- net_predict junk n H xi ;;
         yi <- mrow y i ;;
         ci <- net_computecost n1 (n_result n1) yi ;;
         Ok (dadd c ci, n1, H1)) rows (c, n, H) ;; Ok (c, t, n2, H2)).
Proof.
  induction rows as [|i rows IH]; intros c n H; [reflexivity|]. cbn [xsgd_costs foldM]. rewrite forget_lift, !bind_assoc. apply bind_ext; intros xi. rewrite !bind_assoc.
  eapply forget_in; [apply xnet_predict_ref|]. intros [n1 H1] r. cbn [swap2 fst snd]. rewrite forget_lift, !bind_assoc. apply bind_ext; intros yi. rewrite forget_lift, !bind_assoc. apply bind_ext; intros ci.
  rewrite IH. reflexivity.
Qed.
Lemma xsgd_feeddata_cost_ref (t : trainer D) n H x y b : forget swap3 (xsgd_feeddata_cost junk wreck t n H x y b) = sgd_feeddata_cost junk t n H x y b.
Proof.
  unfold xsgd_feeddata_cost, sgd_feeddata_cost. eapply forget_in; [apply xsgd_feeddata_ref|]. intros [[t' n'] H'] []. cbn [st]. destruct b; [apply xsgd_costs_ref|].
  generalize (dofZ (d := D) 0). generalize (seq 0 (nr x)). induction l as [|i l IH]; intros c; [reflexivity|]. cbn [foldM bind]. apply IH.
Qed.
Lemma xbatch_loop_ref b tx ty starts (t : trainer D) n H : forget st (xbatch_loop junk wreck b tx ty starts t n H) = batch_loop junk b tx ty starts t n H.
Proof.
  unfold xbatch_loop, batch_loop. apply forget_fold. intros [[t1 n1] H1] i. rewrite forget_lift. apply bind_ext; intros xb.
  eapply forget_in; [apply xnet_forward_ref|]. intros [n2 H2] r. cbn [swap2 fst snd]. rewrite forget_lift. apply bind_ext; intros yb.
  eapply forget_in; [apply xnet_backprop_ref|]. intros [n3 H3] []. eapply forget_in; [apply xnet_update_ref|]. intros [n4 H4] []. reflexivity.
Qed.
Lemma xbatch_feeddata_ref (t : btrainer D) n H x y : forget st (xbatch_feeddata junk wreck t n H x y) = batch_feeddata junk t n H x y.
Proof.
  unfold xbatch_feeddata, batch_feeddata. rewrite forget_lift. apply bind_ext; intros tx. rewrite forget_lift. apply bind_ext; intros ty. 
  eapply forget_in; [apply xbatch_loop_ref|]. intros [[t2 n2] H2] []. rewrite forget_lift. apply bind_ext; intros [n3 H3]. reflexivity.
Qed.
Lemma xbatch_feeddata_cost_ref (t : btrainer D) n H x y b : forget swap3 (xbatch_feeddata_cost junk wreck t n H x y b) = batch_feeddata_cost junk t n H x y b.
Proof.
  unfold xbatch_feeddata_cost, batch_feeddata_cost. eapply forget_in; [apply xbatch_feeddata_ref|]. intros [[t' n'] H'] []. cbn [st]. rewrite forget_lift. reflexivity.
Qed.
Lemma xmom_hidden_ref mu it (n : net) (H : lheap) : forall todo k, forget st (xmom_hidden mu it n H k todo) =
  mapM (fun ia => l <- net_gethidden n H (fst ia) ;; mom_hidden mu it (snd ia) (l_grad l)) (combine (seq k (length todo)) todo).
Proof.
  induction todo as [|a todo IH]; intros k; [reflexivity|]. cbn [xmom_hidden length seq combine mapM fst snd]. rewrite forget_lift, bind_assoc. apply bind_ext; intros l.
  rewrite forget_lift. apply bind_ext; intros g. eapply forget_in; [apply IH|]. intros s []. reflexivity.
Qed.
Lemma xmomentum_feeddata_ref (t : mtrainer D) n H x y : forget st (xmomentum_feeddata junk wreck t n H x y) = momentum_feeddata junk t n H x y.
Proof.
  unfold xmomentum_feeddata, momentum_feeddata. rewrite forget_lift. apply bind_ext; intros [n0 H0]. eapply forget_in; [apply xnet_forward_ref|]. intros [n1 H1] r. cbn [swap2 fst snd].
  eapply forget_in; [apply xnet_backprop_ref|]. intros [n2 H2] []. cbn [st]. rewrite forget_lift. apply bind_ext; intros og.
  eapply forget_in; [apply xmom_hidden_ref|]. intros hg []. cbn [st]. eapply forget_in; [apply xnet_update_with_ref|]. intros [n4 H4] []. reflexivity.
Qed.
Lemma xmomentum_feeddata_cost_ref (t : mtrainer D) n H x y b : forget swap3 (xmomentum_feeddata_cost junk wreck t n H x y b) = momentum_feeddata_cost junk t n H x y b.
Proof.
  unfold xmomentum_feeddata_cost, momentum_feeddata_cost. eapply forget_in; [apply xmomentum_feeddata_ref|]. intros [[t' n'] H'] []. apply xcost_ref.
Qed.
End ExcP.

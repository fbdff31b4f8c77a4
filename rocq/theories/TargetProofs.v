(** Proofs about parse targets (C20). *)
From Coq Require Import Permutation.
From Verif Require Import Bytes Token ParseTarget SpecTarget.

Section Once.
  Context {A : Type}.
  Implicit Types (t u x : target A) (w : world A).

  Lemma waiting_set_nth (f : target A -> list A) k subs u :
    nth_error subs k = Some u ->
    exists rest, Permutation (flat_map f subs) (f u ++ rest) /\
      forall x, Permutation (flat_map f (set_nth k x subs)) (f x ++ rest).
  Proof.
    revert k; induction subs as [|s subs IH]; intros [|k] H; simpl in H; try discriminate.
    - injection H as ->. exists (flat_map f subs). split; [reflexivity|]. intro x. reflexivity.
    - destruct (IH _ H) as (rest & H1 & H2). exists (f s ++ rest). split.
      + simpl. rewrite H1, !app_assoc. apply Permutation_app_tail, Permutation_app_comm.
      + intro x. simpl. rewrite (H2 x), !app_assoc. apply Permutation_app_tail, Permutation_app_comm.
  Qed.

  Lemma waiting_set_at path : forall t u, sub_at t path = Some u ->
    exists rest, Permutation (waiting t) (waiting u ++ rest) /\
      forall x, Permutation (waiting (set_at t path x)) (waiting x ++ rest).
  Proof.
    induction path as [|k path IH]; intros t u H; simpl in H.
    - injection H as ->. exists []. rewrite app_nil_r. split; [reflexivity|].
      intro x. simpl. now rewrite app_nil_r.
    - destruct t as [p ts subs]. simpl. destruct (nth_error subs k) as [v|] eqn:E; [|discriminate].
      destruct (IH v u H) as (r1 & P1 & P2).
      destruct (waiting_set_nth waiting k subs v E) as (r2 & Q1 & Q2).
      exists ((match p with Some a => [a] | None => [] end) ++ r1 ++ r2). split.
      + simpl. rewrite Q1, P1. rewrite <- (app_assoc (waiting u)).
        rewrite (Permutation_app_comm _ (waiting u ++ r1 ++ r2)).
        rewrite <- app_assoc. apply Permutation_app_head. apply Permutation_app_comm.
      + intro x. simpl. rewrite (Q2 _), (P2 x). rewrite <- (app_assoc (waiting x)).
        rewrite (Permutation_app_comm _ (waiting x ++ r1 ++ r2)).
        rewrite <- app_assoc. apply Permutation_app_head. apply Permutation_app_comm.
  Qed.

  Lemma waiting_put vs cs p u : look (World vs cs) p = Some u ->
    exists rest, Permutation (all_waiting vs) (waiting u ++ rest) /\
      forall x, Permutation (all_waiting (put vs p x)) (waiting x ++ rest).
  Proof.
    unfold look, put. simpl. destruct (nth_error vs (fst p)) as [t|] eqn:E; [|discriminate].
    intro H. destruct (waiting_set_at _ _ _ H) as (r1 & P1 & P2).
    destruct (waiting_set_nth waiting _ _ _ E) as (r2 & Q1 & Q2).
    exists (r1 ++ r2). unfold all_waiting. split.
    - now rewrite Q1, P1, app_assoc.
    - intro x. now rewrite Q2, P2, app_assoc.
  Qed.

  (** Actions that are waiting or have run. *)
  Definition holding (w : world A) : list A := all_waiting (w_vars w) ++ map fst (w_calls w).

  Lemma all_waiting_app (vs ws : list (target A)) :
    all_waiting (vs ++ ws) = all_waiting vs ++ all_waiting ws.
  Proof. unfold all_waiting. apply flat_map_app. Qed.

  Lemma waiting_spent (a : A) ts (subs : list (target A)) :
    waiting (Tgt (Some a) ts subs) = a :: waiting (Tgt None ts subs).
  Proof. reflexivity. Qed.

  (** No step makes an action out of nothing. *)
  Lemma step_holding w o : exists lost, Permutation (holding w) (lost ++ holding (step w o)).
  Proof.
    destruct w as [vs cs]. unfold holding. destruct o as [p|p|p v|p v|p ts]; unfold step.
    - destruct (look (World vs cs) p) as [t|] eqn:E; [|now exists []].
      destruct (waiting_put _ _ _ _ E) as (r & P1 & P2).
      destruct t as [[a|] ts subs].
      + cbn [invoke w_vars w_calls]. exists []. rewrite all_waiting_app, map_app.
        simpl. rewrite app_nil_r, P1, (P2 moved_from), waiting_spent. simpl.
        rewrite (Permutation_app_comm _ r), !app_assoc.
        rewrite <- (Permutation_middle _ [] a), app_nil_r.
        simpl. reflexivity.
      + cbn [invoke w_vars w_calls]. exists []. simpl. rewrite P1, (P2 _). reflexivity.
    - destruct (look (World vs cs) p) as [t|] eqn:E; [|now exists []].
      destruct (waiting_put _ _ _ _ E) as (r & P1 & P2). exists [].
      cbn [w_vars w_calls]. rewrite all_waiting_app, (P2 moved_from), P1. simpl.
      rewrite app_nil_r. apply Permutation_app_tail, Permutation_app_comm.
    - destruct (look (World vs cs) p) as [t|] eqn:E; [|now exists []].
      destruct (waiting_put _ _ _ _ E) as (r & P1 & P2).
      cbn [w_vars w_calls].
      destruct (look (World (put vs p moved_from) cs) (v, [])) as [old|] eqn:E2.
      + destruct (waiting_put _ _ _ _ E2) as (r2 & Q1 & Q2). exists (waiting old).
        rewrite (Q2 t), P1. rewrite <- (app_nil_l r).
        change (@nil A) with (waiting (@moved_from A)). rewrite <- (P2 moved_from), Q1.
        rewrite !app_assoc. apply Permutation_app_tail, Permutation_app_tail, Permutation_app_comm.
      + exists (waiting t). unfold look in E2. simpl in E2. unfold put at 1. simpl.
        destruct (nth_error (put vs p moved_from) v) as [z|] eqn:E3; [discriminate|].
        rewrite P1, (P2 moved_from). simpl. now rewrite app_assoc.
    - cbn [w_vars w_calls]. destruct (nth_error vs v) as [t|] eqn:E; [|now exists []].
      assert (E' : look (World vs cs) (v, []) = Some t) by (unfold look; simpl; now rewrite E).
      destruct (waiting_put _ _ _ _ E') as (r & P1 & P2).
      cbv zeta. destruct (look (World (put vs (v, []) moved_from) cs) p) as [[a ts subs]|] eqn:E2;
        [|now exists []].
      destruct (waiting_put _ _ _ _ E2) as (r2 & Q1 & Q2). exists []. cbn [w_vars w_calls].
      rewrite (Q2 _), P1. rewrite <- (app_nil_l r).
      change (@nil A) with (waiting (@moved_from A)). rewrite <- (P2 moved_from), Q1.
      cbn [waiting]. rewrite flat_map_app. cbn [flat_map]. rewrite app_nil_r.
      simpl. rewrite !app_assoc. apply Permutation_app_tail, Permutation_app_tail.
      rewrite <- !app_assoc. eapply Permutation_trans; [apply Permutation_app_comm|].
      rewrite <- !app_assoc. reflexivity.
    - destruct (look (World vs cs) p) as [[a us subs]|] eqn:E; [|now exists []].
      destruct (waiting_put _ _ _ _ E) as (r & P1 & P2). exists [].
      cbn [w_vars w_calls]. simpl. rewrite P1, (P2 _). reflexivity.
  Qed.

  Lemma run_holding os : forall w, exists lost, Permutation (holding w) (lost ++ holding (run w os)).
  Proof.
    induction os as [|o os IH]; intro w; [now exists []|].
    destruct (step_holding w o) as (l1 & H1). destruct (IH (step w o)) as (l2 & H2).
    exists (l1 ++ l2). unfold run in *. simpl. rewrite H1, H2. now rewrite app_assoc.
  Qed.

  Lemma nodup_tail (l1 l2 : list A) : NoDup (l1 ++ l2) -> NoDup l2.
  Proof. induction l1 as [|z l IH]; [auto|]. simpl. intro H. inversion H; auto. Qed.

  Lemma run_nodup w os : NoDup (holding w) -> NoDup (holding (run w os)).
  Proof.
    intro H. destruct (run_holding os w) as (l & P).
    apply (Permutation_NoDup P) in H. exact (nodup_tail _ _ H).
  Qed.

  Lemma calls_nodup (vs : list (target A)) os : NoDup (all_waiting vs) ->
    NoDup (map fst (w_calls (run (World vs []) os))).
  Proof.
    intro H. assert (H' : NoDup (holding (World vs []))).
    { unfold holding. simpl. now rewrite app_nil_r. }
    exact (nodup_tail _ _ (run_nodup _ os H')).
  Qed.

  Lemma step_calls w o : exists cs, w_calls (step w o) = w_calls w ++ cs.
  Proof.
    destruct w as [vs cs]. destruct o as [p|p|p v|p v|p ts]; unfold step.
    - destruct (look (World vs cs) p) as [[[a|] ts subs]|]; simpl; [eexists; reflexivity| |];
        exists []; now rewrite app_nil_r.
    - destruct (look (World vs cs) p); simpl; exists []; now rewrite app_nil_r.
    - destruct (look (World vs cs) p); simpl; exists []; now rewrite app_nil_r.
    - cbn [w_vars w_calls]. destruct (nth_error vs v); [|exists []; now rewrite app_nil_r].
      cbv zeta. destruct (look _ p) as [[a ts subs]|]; exists []; simpl; now rewrite app_nil_r.
    - destruct (look (World vs cs) p) as [[a us subs]|]; simpl; exists []; now rewrite app_nil_r.
  Qed.

  Lemma run_calls os : forall w, exists cs, w_calls (run w os) = w_calls w ++ cs.
  Proof.
    induction os as [|o os IH]; intro w; [exists []; simpl; now rewrite app_nil_r|].
    destruct (step_calls w o) as (c1 & H1). destruct (IH (step w o)) as (c2 & H2).
    exists (c1 ++ c2). unfold run in *. simpl. now rewrite H2, H1, app_assoc.
  Qed.

  Lemma run_exactly_once (vs : list (target A)) os1 p os2 t a :
    NoDup (all_waiting vs) ->
    look (run (World vs []) os1) p = Some t -> action_of t = Some a ->
    exists before after,
      w_calls (run (World vs []) (os1 ++ Invoke p :: os2)) = before ++ (a, disarmed t) :: after /\
      before = w_calls (run (World vs []) os1) /\
      ~ In a (map fst before) /\ ~ In a (map fst after).
  Proof.
    intros H L Ha. pose proof (calls_nodup vs (os1 ++ Invoke p :: os2) H) as ND.
    revert ND. unfold run. rewrite fold_left_app. cbn [fold_left].
    set (w1 := fold_left step os1 (World vs [])).
    assert (E : w_calls (step w1 (Invoke p)) = w_calls w1 ++ [(a, disarmed t)]).
    { unfold step. unfold run in L. fold w1 in L. rewrite L. destruct t as [q ts subs].
      simpl in Ha. subst q. reflexivity. }
    destruct (run_calls os2 (step w1 (Invoke p))) as (cs & E2). unfold run in E2.
    rewrite E2, E, <- app_assoc. simpl. intro ND.
    exists (w_calls w1), cs. repeat split.
    - intro I. rewrite map_app in ND. simpl in ND. apply NoDup_remove_2 in ND. apply ND.
      apply in_or_app. now left.
    - intro I. rewrite map_app in ND. simpl in ND. apply NoDup_remove_2 in ND. apply ND.
      apply in_or_app. now right.
  Qed.

  Lemma invoke_again t : snd (invoke (fst (invoke t))) = None.
  Proof. now destruct t as [[a|] ts subs]. Qed.
End Once.

(** Lemmas on the order in which the policies run. *)
From Verif Require Import Bytes Token Adapter Result CodePoint Utf8 Tree PreParse SpecPolicy Validator.
From Coq Require Import Permutation Sorted.

Lemma insert_policy_perm p l : Permutation (insert_policy p l) (p :: l).
Proof.
  induction l as [|q l IH]; cbn [insert_policy]; [easy|].
  destruct (N.ltb _ _); [easy|]. rewrite IH. apply perm_swap.
Qed.

Lemma priority_order_perm ps : Permutation (priority_order ps) ps.
Proof.
  unfold priority_order.
  assert (H : forall acc, Permutation (fold_left (fun acc p => insert_policy p acc) ps acc) (acc ++ ps)).
  { induction ps as [|p ps IH]; intros acc; cbn [fold_left]; [now rewrite app_nil_r|].
    rewrite IH, insert_policy_perm. now apply Permutation_cons_app. }
  apply (H []).
Qed.

Definition prio_ge (p q : policy) : Prop := (priority q <= priority p)%N.
Definition prio_gt (p q : policy) : Prop := (priority q < priority p)%N.

Lemma insert_policy_sorted p l :
  StronglySorted prio_ge l -> StronglySorted prio_ge (insert_policy p l).
Proof.
  induction 1 as [|q l Hs IH Hq]; cbn [insert_policy]; [repeat constructor|].
  destruct (N.ltb (priority q) (priority p)) eqn:E.
  - apply N.ltb_lt in E. constructor; [now constructor|].
    constructor; [unfold prio_ge; lia|]. eapply Forall_impl; [|exact Hq].
    unfold prio_ge. intros; lia.
  - apply N.ltb_ge in E. constructor; [easy|]. rewrite insert_policy_perm. now constructor.
Qed.

Lemma priority_order_sorted ps : StronglySorted prio_ge (priority_order ps).
Proof.
  unfold priority_order.
  assert (H : forall acc, StronglySorted prio_ge acc ->
            StronglySorted prio_ge (fold_left (fun acc p => insert_policy p acc) ps acc)).
  { induction ps as [|p ps IH]; intros acc Ha; cbn [fold_left]; [easy|].
    apply IH. now apply insert_policy_sorted. }
  apply H. constructor.
Qed.

Lemma filter_sorted {A} (R : A -> A -> Prop) f l :
  StronglySorted R l -> StronglySorted R (filter f l).
Proof.
  induction 1 as [|x l Hs IH Hx]; cbn [filter]; [constructor|].
  destruct (f x); [|easy]. constructor; [easy|].
  rewrite Forall_forall in *. intros y Hy. apply filter_In in Hy. now apply Hx.
Qed.

Lemma filter_perm {A} (f : A -> bool) l l' : Permutation l l' -> Permutation (filter f l) (filter f l').
Proof.
  induction 1; cbn [filter].
  - easy.
  - destruct (f x); auto.
  - destruct (f x), (f y); auto. apply perm_swap.
  - etransitivity; eauto.
Qed.

Lemma sorted_strict l :
  StronglySorted prio_ge l -> NoDup (map priority l) -> StronglySorted prio_gt l.
Proof.
  induction 1 as [|x l Hs IH Hx]; cbn [map]; intros Hd; [constructor|].
  inversion Hd as [|? ? Hn Hd']; subst. constructor; [auto|].
  rewrite Forall_forall in *. intros y Hy. specialize (Hx y Hy). unfold prio_ge, prio_gt in *.
  assert (priority y <> priority x); [|lia].
  intros E. apply Hn. rewrite <- E. now apply in_map.
Qed.

Lemma strict_unique l : forall l',
  StronglySorted prio_gt l -> StronglySorted prio_gt l' -> Permutation l l' -> l = l'.
Proof.
  induction l as [|x l IH]; intros l' H H' P.
  - now apply Permutation_nil in P.
  - destruct l' as [|y l']; [now apply Permutation_sym, Permutation_nil in P|].
    inversion H as [|? ? Hs Hx]; inversion H' as [|? ? Hs' Hy]; subst.
    rewrite Forall_forall in *.
    assert (E : x = y).
    { assert (Hin : In x (y :: l')) by (rewrite <- P; now left).
      assert (Hin' : In y (x :: l)) by (rewrite P; now left).
      destruct Hin as [->|Hin]; [easy|]. destruct Hin' as [->|Hin']; [easy|].
      specialize (Hx y Hin'). specialize (Hy x Hin). unfold prio_gt in *. lia. }
    subst y. f_equal. apply IH; auto. eapply Permutation_cons_inv; eauto.
Qed.

Lemma nodup_map_perm {A B} (f : A -> B) l l' :
  Permutation l l' -> NoDup (map f l) -> NoDup (map f l').
Proof. intros P. apply Permutation_NoDup. now apply Permutation_map. Qed.

Lemma filter_order_strict ps :
  distinct_priorities ps -> StronglySorted prio_gt (filter phased (priority_order ps)).
Proof.
  intros H. apply sorted_strict.
  - apply filter_sorted. apply priority_order_sorted.
  - eapply nodup_map_perm; [|exact H]. apply filter_perm. symmetry. apply priority_order_perm.
Qed.

Lemma nodup_map_inj {A B} (f : A -> B) l x y :
  NoDup (map f l) -> In x l -> In y l -> f x = f y -> x = y.
Proof.
  induction l as [|z l IH]; cbn [map In]; intros Hd Hx Hy E; [easy|].
  inversion Hd as [|? ? Hn Hd']; subst.
  destruct Hx as [->|Hx], Hy as [->|Hy]; auto.
  - exfalso. apply Hn. rewrite E. now apply in_map.
  - exfalso. apply Hn. rewrite <- E. now apply in_map.
Qed.

Lemma pick_in f ps p : In p (pick f ps) -> In p ps /\ f p = true.
Proof.
  unfold pick. destruct (find f ps) eqn:E; [|easy]. intros [<-|[]]. now apply find_some in E.
Qed.

Lemma pick_cases f ps : pick f ps = [] \/ exists p, pick f ps = [p] /\ In p ps /\ f p = true.
Proof.
  unfold pick. destruct (find f ps) eqn:E; [right|now left].
  exists p. split; [easy|]. now apply find_some in E.
Qed.

Lemma phase_order_in ps p : In p (phase_order ps) -> In p ps /\ phased p = true.
Proof.
  unfold phase_order. rewrite !in_app_iff.
  intros H; repeat (destruct H as [H|H]); apply pick_in in H as [H1 H2]; split; auto;
    destruct p; easy.
Qed.

Lemma phase_order_strict ps : StronglySorted prio_gt (phase_order ps).
Proof.
  unfold phase_order.
  destruct (pick_cases is_separator ps) as [->|(p1 & -> & _ & H1)];
  destruct (pick_cases is_expander ps) as [->|(p2 & -> & _ & H2)];
  destruct (pick_cases is_enable ps) as [->|(p3 & -> & _ & H3)];
  destruct (pick_cases is_marker ps) as [->|(p4 & -> & _ & H4)];
  destruct (pick_cases is_count ps) as [->|(p5 & -> & _ & H5)];
  destruct (pick_cases is_alias ps) as [->|(p6 & -> & _ & H6)];
  destruct (pick_cases is_dependent ps) as [->|(p7 & -> & _ & H7)];
  cbn [app];
  repeat match goal with
         | H : is_separator ?p = true |- _ => destruct p; try discriminate H; clear H
         | H : is_expander ?p = true |- _ => destruct p; try discriminate H; clear H
         | H : is_marker ?p = true |- _ => destruct p; try discriminate H; clear H
         | H : is_count ?p = true |- _ => destruct p; try discriminate H; clear H
         | H : is_alias ?p = true |- _ => destruct p; try discriminate H; clear H
         | H : is_dependent ?p = true |- _ => destruct p; try discriminate H; clear H
         | H : is_enable ?p = true |- _ =>
             assert (priority p = 800%N) by (destruct p; try discriminate H; reflexivity); clear H
         end;
  repeat (constructor; [|]); repeat constructor; unfold prio_gt;
    repeat match goal with H : priority _ = _ |- _ => rewrite H; clear H end; cbn [priority]; lia.
Qed.

Lemma strict_nodup l : StronglySorted prio_gt l -> NoDup l.
Proof.
  induction 1 as [|x l Hs IH Hx]; constructor; [|easy].
  intros Hin. rewrite Forall_forall in Hx. specialize (Hx x Hin). unfold prio_gt in Hx. lia.
Qed.

Definition pclass (p : policy) : policy -> bool :=
  match p with
  | PValueSeparator _ => is_separator
  | PShortFormExpander => is_expander
  | PRuntimeEnable _ | PRuntimeEnableRequired _ _ => is_enable
  | PTokenEndMarker _ => is_marker
  | PMinMaxCount _ _ => is_count
  | PAlias _ => is_alias
  | PDependent _ => is_dependent
  | _ => fun _ => false
  end.

Lemma pclass_self p : phased p = true -> pclass p p = true.
Proof. destruct p; easy. Qed.

Lemma pclass_prio p q : pclass p q = true -> priority q = priority p /\ phased q = true.
Proof. destruct p, q; easy. Qed.

Lemma pclass_phase_order ps p q : phased p = true -> In q (pick (pclass p) ps) -> In q (phase_order ps).
Proof. unfold phase_order. rewrite !in_app_iff. destruct p; cbn [pclass]; intros; auto 10; easy. Qed.

Lemma phase_order_complete ps p :
  distinct_priorities ps -> In p ps -> phased p = true -> In p (phase_order ps).
Proof.
  intros Hd Hin Hp. apply pclass_phase_order with (p := p); [easy|].
  unfold pick. destruct (find (pclass p) ps) as [q|] eqn:E.
  - left. apply find_some in E as [Hq Hc]. apply pclass_prio in Hc as [Hc Hqp].
    eapply nodup_map_inj; [exact Hd| | |easy]; apply filter_In; auto.
  - pose proof (find_none _ _ E _ Hin) as H. now rewrite pclass_self in H.
Qed.

(** The order in which the phases really run. *)
Lemma filter_order ps :
  distinct_priorities ps -> filter phased (priority_order ps) = phase_order ps.
Proof.
  intros Hd. apply strict_unique.
  - now apply filter_order_strict.
  - apply phase_order_strict.
  - apply NoDup_Permutation.
    + apply strict_nodup. now apply filter_order_strict.
    + apply strict_nodup. apply phase_order_strict.
    + intros p. rewrite filter_In. split.
      * intros [Hin Hp]. apply phase_order_complete; auto.
        now apply (Permutation_in _ (priority_order_perm ps)).
      * intros Hin. apply phase_order_in in Hin as [Hin Hp]. split; [|easy].
        now apply (Permutation_in _ (Permutation_sym (priority_order_perm ps))).
Qed.

Lemma pre_parse_phase_phased p a pt tg n parents :
  pre_parse_phase p a pt tg n parents = None <-> phased p = false.
Proof. destruct p; cbn [pre_parse_phase phased]; easy. Qed.

Lemma run_policies_filter ps : forall a pt tg n parents m,
  run_policies ps a pt tg n parents m = run_policies (filter phased ps) a pt tg n parents m.
Proof.
  induction ps as [|p ps IH]; intros; [easy|]. cbn [run_policies filter].
  destruct (phased p) eqn:Ep.
  - cbn [run_policies]. destruct (pre_parse_phase p a pt tg n parents) as [r|] eqn:E.
    + destruct m as [m0|]; [|apply IH].
      destruct m0; try apply IH.
      all: destruct r as [[[a' tg'] m']| | | |]; cbn [rbind]; auto.
    + apply IH.
  - apply (pre_parse_phase_phased p a pt tg n parents) in Ep. rewrite Ep. apply IH.
Qed.

Lemma run_policies_order ps a pt tg n parents m :
  distinct_priorities ps ->
  run_policies (priority_order ps) a pt tg n parents m
  = run_policies (phase_order ps) a pt tg n parents m.
Proof. intros Hd. now rewrite run_policies_filter, filter_order. Qed.

(** ** Permuted declarations *)

Lemma distinct_priorities_perm ps ps' :
  Permutation ps ps' -> distinct_priorities ps -> distinct_priorities ps'.
Proof. intros P. apply nodup_map_perm. now apply filter_perm. Qed.

Lemma run_policies_perm ps ps' a pt tg n parents m :
  Permutation ps ps' -> distinct_priorities ps ->
  run_policies (priority_order ps) a pt tg n parents m
  = run_policies (priority_order ps') a pt tg n parents m.
Proof.
  intros P Hd. rewrite run_policies_filter.
  rewrite (run_policies_filter (priority_order ps')). f_equal.
  apply strict_unique.
  - now apply filter_order_strict.
  - apply filter_order_strict. eapply distinct_priorities_perm; eauto.
  - apply filter_perm. now rewrite !priority_order_perm.
Qed.

(** A node is accepted only with distinct priorities. *)
Lemma nodup_filter_len {A} (f : A -> N) l :
  (forall x, In x l -> List.length (filter (fun y => N.eqb (f y) (f x)) l) = 1) -> NoDup (map f l).
Proof.
  induction l as [|x l IH]; intros H; cbn [map]; constructor.
  - intros Hin. apply in_map_iff in Hin as (y & Ey & Hy).
    specialize (H x (or_introl eq_refl)). cbn [filter] in H. rewrite N.eqb_refl in H.
    cbn [List.length] in H. injection H as H. apply length_zero_iff_nil in H.
    assert (In y (filter (fun y => N.eqb (f y) (f x)) l)) as Hf
        by (apply filter_In; split; [easy|]; now rewrite Ey, N.eqb_refl).
    now rewrite H in Hf.
  - apply IH. intros y Hy. specialize (H y (or_intror Hy)). cbn [filter] in H.
    destruct (N.eqb (f x) (f y)) eqn:E; [|easy]. cbn [List.length] in H. injection H as H.
    apply length_zero_iff_nil in H.
    assert (In y (filter (fun z => N.eqb (f z) (f y)) l)) as Hf
        by (apply filter_In; split; [easy|]; now rewrite N.eqb_refl).
    now rewrite H in Hf.
Qed.

Lemma node_ok_policies n parents :
  node_ok (n, parents) = true ->
  node_static n parents = true /\ node_rules n parents = true
  /\ forall p, In p (n_pols n) -> policy_static p n parents = true /\ policy_rules p n parents = true.
Proof.
  unfold node_ok. intros H. apply andb_true_iff in H as [H H3]. apply andb_true_iff in H as [H1 H2].
  split; [easy|]. split; [easy|]. intros p Hp. rewrite forallb_forall in H3.
  specialize (H3 p Hp). now apply andb_true_iff in H3.
Qed.

(** The static assertions but for the comparison of a short name with the prefixes. *)
Definition static_core (p : policy) (n : node) (parents : list node) : bool :=
  match p with PShortName s => gcount_is (Nat.eqb 1) s | _ => policy_static p n parents end.
Lemma core_static p n parents : policy_static p n parents = true -> static_core p n parents = true.
Proof. destruct p; auto. cbn [policy_static static_core]. intros H. now apply andb_true_iff in H. Qed.
Definition core_ok (n : node) (parents : list node) : Prop :=
  forall p, In p (n_pols n) -> static_core p n parents = true /\ policy_rules p n parents = true.
Lemma node_ok_core n parents : node_ok (n, parents) = true -> core_ok n parents.
Proof.
  intros H p Hp. apply node_ok_policies in H as (_ & _ & H). destruct (H p Hp) as [H1 H2]. split; [now apply core_static|exact H2].
Qed.

Lemma core_tags n parents : core_ok n parents -> NoDup (map pol_tag (n_pols n)).
Proof.
  intros H. apply nodup_filter_len.
  intros p Hp. destruct (H p Hp) as [_ Hr]. unfold policy_rules in Hr.
  apply andb_true_iff in Hr as [Hr _]. unfold unique_in_owner in Hr. now apply Nat.eqb_eq in Hr.
Qed.

Lemma has_tag_in t n : has_tag t n = true <-> exists p, In p (n_pols n) /\ pol_tag p = t.
Proof.
  unfold has_tag. rewrite existsb_exists. split; intros (p & H1 & H2); exists p; split; auto;
    now apply N.eqb_eq.
Qed.

Lemma phased_prio_tag p q :
  phased p = true -> phased q = true -> priority p = priority q ->
  pol_tag p = pol_tag q
  \/ (pol_tag p = tag_runtime_enable /\ pol_tag q = tag_runtime_enable_required)
  \/ (pol_tag q = tag_runtime_enable /\ pol_tag p = tag_runtime_enable_required).
Proof. destruct p, q; cbn; intros; try discriminate; auto. Qed.

Lemma node_ok_tags n parents : node_ok (n, parents) = true -> NoDup (map pol_tag (n_pols n)).
Proof. intros H. exact (core_tags _ _ (node_ok_core _ _ H)). Qed.

Lemma core_priorities n parents :
  core_ok n parents -> distinct_priorities (n_pols n).
Proof.
  intros H. pose proof (core_tags _ _ H) as Ht. unfold distinct_priorities.
  assert (E : forall p q, In p (n_pols n) -> In q (n_pols n) -> phased p = true -> phased q = true ->
              priority p = priority q -> p = q).
  { assert (X : forall p q, In p (n_pols n) -> In q (n_pols n) -> pol_tag p = tag_runtime_enable ->
                pol_tag q = tag_runtime_enable_required -> False).
    { intros p q Hp Hq Ep Eq. destruct (H p Hp) as [Hs _].
      destruct p; try discriminate Ep. cbn [static_core policy_static] in Hs.
      apply andb_true_iff in Hs as [_ Hs]. apply negb_true_iff in Hs.
      assert (has_tag tag_runtime_enable_required n = true) by (apply has_tag_in; eauto). congruence. }
    intros p q Hp Hq Pp Pq Epq. destruct (phased_prio_tag p q Pp Pq Epq) as [Et|[[E1 E2]|[E1 E2]]].
    - eapply nodup_map_inj; eauto.
    - exfalso. eauto.
    - exfalso. eauto. }
  clear H. apply NoDup_map_inv in Ht.
  assert (Hf : NoDup (filter phased (n_pols n))) by now apply NoDup_filter.
  assert (E' : forall p q, In p (filter phased (n_pols n)) -> In q (filter phased (n_pols n)) ->
               priority p = priority q -> p = q).
  { intros p q Hp Hq. apply filter_In in Hp as [], Hq as []. auto. }
  clear Ht E. induction (filter phased (n_pols n)) as [|p l IH]; cbn [map]; [constructor|].
  inversion Hf as [|? ? Hn Hf']; subst. constructor.
  - intros Hin. apply in_map_iff in Hin as (q & Eq & Hq). apply Hn.
    rewrite (E' p q (or_introl eq_refl) (or_intror Hq)); auto.
  - apply IH; auto. intros. apply E'; auto; now right.
Qed.
Lemma node_ok_priorities n parents :
  node_ok (n, parents) = true -> distinct_priorities (n_pols n).
Proof. intros H. exact (core_priorities _ _ (node_ok_core _ _ H)). Qed.

Lemma priority_descending ps : Permutation (priority_order ps) ps
  /\ forall before p between q after, priority_order ps = before ++ p :: between ++ q :: after -> (priority q <= priority p)%N.
Proof.
  split; [apply priority_order_perm|]. intros bf p bt q af E. pose proof (priority_order_sorted ps) as H. rewrite E in H. clear E.
  induction bf as [|x bf IH]; cbn [app] in H; inversion H as [|y l Hs Hf]; subst; [|now apply IH].
  rewrite Forall_forall in Hf. apply Hf. apply in_or_app. right. now left.
Qed.

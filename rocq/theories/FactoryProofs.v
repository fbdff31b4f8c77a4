(** What the node factories add: C68. *)
From Verif Require Import Bytes Token Adapter Result CodePoint Utf8 Tree Levenshtein PreParse Parse Root Build Validator Help.
From Verif Require Import SpecTake SpecMode SpecDeliver SpecRoot SpecReading SpecClaims SpecRules SpecNode SpecFactory.
From Verif Require Import TreeProofs ModeProofs MeaningProofs RootProofs ReadProofs ExactProofs ClaimProofs RunProofs RulesProofs VocabProofs.
Local Open Scope list_scope.

Lemma has_short_iff ps : has_short ps = true <-> given_kind ps k_short.
Proof.
  unfold has_short, given_kind. rewrite existsb_exists. split; intros (p & Hp & H); exists p; (split; [exact Hp|]); destruct p; cbn in *; congruence.
Qed.
Lemma has_count_iff ps : has_count ps = true <-> given_kind ps k_count.
Proof.
  unfold has_count, given_kind. rewrite existsb_exists. split; intros (p & Hp & H); exists p; (split; [exact Hp|]); destruct p; cbn in *; congruence.
Qed.

Lemma with_expander_short ps p : given_kind ps k_short -> (In p (with_expander ps) <-> In p ps \/ p = PShortFormExpander).
Proof. intros H. apply has_short_iff in H. unfold with_expander. rewrite H. cbn [In]. intuition congruence. Qed.
Lemma with_expander_not ps p : ~ given_kind ps k_short -> (In p (with_expander ps) <-> In p ps).
Proof.
  intros H. unfold with_expander. destruct (has_short ps) eqn:E; [|reflexivity]. now apply has_short_iff in E.
Qed.

Lemma add_count_not mn ps p : ~ given_kind ps k_count ->
  (In p (add_missing_count mn ps) <-> In p ps \/ p = PMinMaxCount mn (2 ^ 64 - 1)).
Proof.
  intros H. unfold add_missing_count. destruct (has_count ps) eqn:E; [now apply has_count_iff in E|]. cbn [In].
  change (2 ^ 64 - 1)%N with size_max. intuition congruence.
Qed.
Lemma add_count_given mn ps : given_kind ps k_count -> add_missing_count mn ps = ps.
Proof. intros H. apply has_count_iff in H. unfold add_missing_count. now rewrite H. Qed.

Lemma joined_names cs s : Forall (fun c => uniq c /\ named_by c [k_error; k_display; k_long; k_short; k_none]) cs -> cs <> [] ->
  joined cs s <-> join_names cs = s.
Proof.
  intros H. revert s. induction H as [|c cs [Hu Hn] _ IH]; intros s Hne; [congruence|]. destruct cs as [|d cs].
  - cbn [join_names]. split.
    + intros G. inversion G as [c' t Ht|]; subst. apply shown_iff in Ht; auto. now rewrite Ht.
    + intros <-. constructor. now apply shown_iff.
  - change (join_names (c :: d :: cs)) with (token_str (node_token c) ++ b "," ++ join_names (d :: cs)). split.
    + intros G. inversion G as [|c' t d' cs' s' Ht Hj]; subst. apply shown_iff in Ht; auto. rewrite Ht.
      apply IH in Hj; [|discriminate]. now rewrite Hj.
    + intros <-. constructor; [now apply shown_iff|]. apply IH; [discriminate|reflexivity].
Qed.

(** ** The value of a flag *)

Section Run.
  Variables (r : node) (mem : memory) (args : list token) (m : node) (ts : list token) (items : list item).
  Hypothesis Hf : fresh r mem args.
  Hypothesis Ht : typed r args m ts items.

  Lemma flag_true vs i id ps : calls_router r mem args m vs -> nth_error (router_children m) i = Some (flag id ps) ->
    multi_stage (flag id ps) = None -> given m items (flag id ps) -> nth_error vs i = Some (VBool true).
  Proof.
    intros Hc Hi Hs Hg. destruct (run_value r mem args m ts items Hf Ht vs i _ Hc Hi) as (v & Hv & Hd). rewrite Hv. f_equal.
    pose proof (nth_error_In _ _ Hi) as Hin.
    destruct (router_child_not_mode r mem args m ts items Hf Ht _ Hin) as [Hch _].
    assert (Hne : occurrences m (flag id ps) items <> []).
    { apply (occurrences_given r mem args m ts items); auto. exists (flag id ps). split; [apply below_self|exact Hg]. }
    assert (Hl : forall a, In a (occurrences m (flag id ps) items) -> fst a = flag id ps).
    { intros a Ha. now apply (leaf_occurrence r mem args m ts items Hf Ht). }
    destruct Hd as [v G _|v G _ _ _]; [|contradiction]. unfold occurrences in *.
    destruct (for_child (flag id ps) (flat_map (assigned m) items)) as [|[l vals] more]; [congruence|].
    assert (El : l = flag id ps) by (apply (Hl (l, vals)); now left). subst l.
    inversion G as [|o l vals' v0 merge more' rr Hv0 Hm _|l vals' v0 more' rr Hv0 Hm Hr]; subst; [congruence|].
    assert (Emore : more = []).
    { destruct more as [|[l' vals'] more]; [reflexivity|]. exfalso.
      assert (El : l' = flag id ps) by (apply (Hl (l', vals')); right; now left). subst l'.
      inversion Hr; subst. congruence. }
    subst more. inversion Hr; subst. inversion Hv0; subst; try discriminate. reflexivity.
  Qed.

  Lemma child_uniq c : In c (router_children m) -> uniq c.
  Proof.
    intros Hc. apply (router_child_not_mode r mem args m ts items Hf Ht) in Hc as [Hc _].
    destruct (typed_mode _ _ _ _ _ Ht) as [Hm _]. pose proof (fr_tree _ _ _ Hf) as Hw.
    assert (Ha : accepted r = true) by apply Hw. apply accepted_compiles in Ha. destruct Ha as [_ Ha].
    apply in_map_iff in Hm as ([m' up] & E & Hm). cbn [fst] in E. subst m'. apply placed_preorder in Hm.
    apply (Ha c (m :: up)). now constructor.
  Qed.

  Lemma plain_flag_defaults id ps : uniq (flag id ps) -> ~ given_kind ps k_enable_required ->
    default_values (flag id ps) = [VBool false].
  Proof.
    intros Hu Hn.
    assert (Hd : ~ given_kind ps k_default).
    { intros (p & Hp & K). unfold uniq, flag in Hu. cbn [n_pols map kind_of] in Hu. inversion Hu as [|x l Hx _]; subst.
      apply Hx. right. apply in_map_iff. exists p. split; [exact K|]. unfold with_expander. destruct (has_short ps); [now right|exact Hp]. }
    unfold default_values, flag. cbn [n_pols flat_map app]. f_equal. clear Hu.
    assert (G : forall l, (forall p, In p l -> kind_of p <> k_default /\ kind_of p <> k_enable_required) ->
      flat_map (fun p => match p with PDefaultValue v => [v] | PRuntimeEnableRequired false v => [v] | _ => [] end) l = []).
    { induction l as [|p l IH]; intros H; [reflexivity|]. cbn [flat_map]. rewrite IH by (intros q Hq; apply H; now right).
      destruct (H p (or_introl eq_refl)) as [H1 H2]. destruct p; try reflexivity; exfalso; [now apply H2|now apply H1]. }
    apply G. intros p Hp. unfold with_expander in Hp.
    assert (Hp' : p = PShortFormExpander \/ In p ps) by (destruct (has_short ps); [destruct Hp as [<-|Hp]; auto|auto]).
    destruct Hp' as [->|Hp']; [split; discriminate|]. split; intros K; [apply Hd|apply Hn]; exists p; auto.
  Qed.

  Lemma child_rules c : In c (router_children m) -> exists up, node_keeps_rules c up.
  Proof.
    intros Hc. apply (router_child_not_mode r mem args m ts items Hf Ht) in Hc as [Hc _].
    destruct (typed_mode _ _ _ _ _ Ht) as [Hm _]. pose proof (fr_tree _ _ _ Hf) as Hw.
    assert (Ha : accepted r = true) by apply Hw. apply accepted_compiles in Ha. destruct Ha as [_ Ha].
    apply in_map_iff in Hm as ([m' up] & E & Hm). cbn [fst] in E. subst m'. apply placed_preorder in Hm.
    exists (m :: up). apply Ha. now constructor.
  Qed.

  Lemma flag_given vs i id ps : calls_router r mem args m vs -> nth_error (router_children m) i = Some (flag id ps) ->
    given m items (flag id ps) -> nth_error vs i = Some (VBool true).
  Proof.
    intros Hc Hi Hg. apply (flag_true vs i id ps); auto. destruct (child_rules (flag id ps)) as (up & _ & Hk & _).
    { now apply nth_error_In in Hi. }
    cbn [class_ok flag n_kind] in Hk. destruct Hk as (_ & _ & _ & Hl).
    destruct (multi_stage (flag id ps)) as [mg|] eqn:E; [|reflexivity]. exfalso.
    apply (Hl k_multi_stage); [cbn; tauto|]. rewrite <- hb_true, <- stage_hb. unfold has_multi_stage. now rewrite E.
  Qed.

  Lemma flag_not_given vs i id ps : calls_router r mem args m vs -> nth_error (router_children m) i = Some (flag id ps) ->
    ~ given_kind ps k_enable_required -> ~ given m items (flag id ps) -> nth_error vs i = Some (VBool false).
  Proof.
    intros Hc Hi Hn Hg. rewrite (run_default r mem args m ts items Hf Ht vs i _ Hc Hi).
    - rewrite plain_flag_defaults; auto. apply child_uniq. now apply nth_error_In in Hi.
    - intros d [<-|[]]. exact Hg.
  Qed.

  Lemma no_defaults l : (forall p, In p l -> kind_of p <> k_default /\ kind_of p <> k_enable_required) ->
      flat_map (fun p => match p with PDefaultValue v => [v] | PRuntimeEnableRequired false v => [v] | _ => [] end) l = [].
  Proof.
    induction l as [|p l IH]; intros H; [reflexivity|]. cbn [flat_map]. rewrite IH by (intros q Hq; apply H; now right).
    destruct (H p (or_introl eq_refl)) as [H1 H2]. destruct p; try reflexivity; exfalso; [now apply H2|now apply H1].
  Qed.

  Lemma count_not_given vs i cast id ps : calls_router r mem args m vs ->
    nth_error (router_children m) i = Some (counting_flag cast id ps) ->
    ~ given_kind ps k_enable_required -> ~ given_kind ps k_default -> ~ given m items (counting_flag cast id ps) ->
    nth_error vs i = Some (VInt 0).
  Proof.
    intros Hc Hi Hn Hd Hg. rewrite (run_default r mem args m ts items Hf Ht vs i _ Hc Hi).
    - unfold default_values, counting_flag. cbn [n_pols flat_map app]. rewrite no_defaults; [reflexivity|].
      intros p Hp. unfold with_expander in Hp.
      assert (Hp' : p = PShortFormExpander \/ In p ps) by (destruct (has_short ps); [destruct Hp as [<-|Hp]; auto|auto]).
      destruct Hp' as [->|Hp']; [split; discriminate|]. split; intros K; [apply Hd|apply Hn]; exists p; auto.
    - intros d [<-|[]]. exact Hg.
  Qed.
End Run.

(** ** Groups *)

Lemma group_child_named c p above : class_ok c (p :: above) -> (n_kind p = KAliasGroup \/ exists i, n_kind p = KOneOf i) ->
  named_by c [k_error; k_display; k_long; k_short; k_none].
Proof.
  intros H Hp.
  assert (W : forall ks, named_by c ks -> (forall k, In k ks -> In k [k_error; k_display; k_long; k_short; k_none]) ->
    named_by c [k_error; k_display; k_long; k_short; k_none]).
  { intros ks (k & Hk & G) Hs. exists k. auto. }
  assert (NP : forall ks, parent_is_a (p :: above) ks -> ~ In KAliasGroup ks -> (forall i, ~ In (KOneOf i) ks) -> False).
  { intros ks (q & ab & E & Hin) N1 N2. injection E as <- <-. destruct Hp as [E|[i E]]; rewrite E in Hin; [auto|now apply (N2 i)]. }
  unfold class_ok in H. destruct (n_kind c) as [|a| | |i| | |] eqn:K.
  - apply (W [k_long; k_short]); [tauto|]. intros k Hk. cbn in *. tauto.
  - assert (Hv : valued c) by (destruct a; tauto). destruct Hv as (_ & Hn & _). apply (W _ Hn). intros k Hk. cbn in *. tauto.
  - apply (W [k_long; k_short]); [tauto|]. intros k Hk. cbn in *. tauto.
  - exfalso. apply (NP [KMode]); [tauto| |intros i]; cbn; intuition congruence.
  - exfalso. apply (NP [KMode]); [tauto| |intros j]; cbn; intuition congruence.
  - exfalso. apply (NP [KRoot; KMode]); [tauto| |intros i]; cbn; intuition congruence.
  - exfalso. apply (NP [KRoot]); [tauto| |intros i]; cbn; intuition congruence.
  - exfalso. destruct H as (_ & E & _). discriminate E.
Qed.

Lemma group_names r g parents : accepted r = true -> placed r g parents ->
  n_kind g = KAliasGroup \/ (exists i, n_kind g = KOneOf i) ->
  n_children g <> [] /\ Forall (fun c => uniq c /\ named_by c [k_error; k_display; k_long; k_short; k_none]) (n_children g).
Proof.
  intros Ha Hp Hk. apply accepted_compiles in Ha as [_ Ha]. split.
  - destruct (Ha g parents Hp) as (_ & Hc & _). unfold class_ok in Hc.
    destruct Hk as [E|[i E]]; rewrite E in Hc; destruct Hc as (Hg & _); destruct Hg as (Hl & _);
      intros E'; rewrite E' in Hl; cbn in Hl; inversion Hl.
  - apply Forall_forall. intros c Hc. destruct (Ha c (g :: parents)) as (Hu & Hcl & _); [now constructor|].
    split; [exact Hu|]. now apply (group_child_named c g parents).
Qed.

(** ** The frame of a help page *)

Lemma lacks_one h k : ~ has h k -> lacks h [k].
Proof. intros H k' [<-|[]]. exact H. Qed.

Section Frame.
  Variable h : node.
  Hypothesis Hu : uniq h.
  Variables (mk : bytes -> policy) (k : policy_kind) (f : policy -> option bytes).
  Hypothesis Hkind : forall q, is_some (f q) = true <-> kind_of q = k.
  Hypothesis Hmk : forall q x, f q = Some x <-> q = mk x.

  Lemma frame_says : (exists x, first_some f (n_pols h) = Some x /\ In (mk x) (n_pols h))
    \/ (first_some f (n_pols h) = None /\ lacks h [k]).
  Proof.
    destruct (has_dec h k) as [(p & Hp & K)|Hn].
    - left. apply Hkind in K. destruct (f p) as [x|] eqn:E; [|discriminate]. exists x. split.
      + now apply (first_some_sel f k h p x).
      + apply Hmk in E. now rewrite <- E.
    - right. split; [|now apply lacks_one]. pose proof (first_some_kind f k h Hkind) as G.
      destruct (first_some f (n_pols h)) eqn:E; [|reflexivity]. exfalso. apply Hn. apply hb_true. rewrite <- G. reflexivity.
  Qed.
End Frame.

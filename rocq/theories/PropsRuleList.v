(** C80: the validator is a list of rules that users can edit.  C81: classes of one's own in the rules of the
    library's. *)
From Verif Require Import Bytes Token Result CodePoint Utf8 Tree PreParse Parse Root Build Validator RuleList.
From Verif Require Import SpecRules SpecRuleList OrderProofs RulesProofs RuleListProofs Demo.

(** A tree is valid exactly if each node and each policy has a rule, and meets the conditions of the first that
    applies to it. *)
Theorem c80_validate : forall cls pcls rules r, validate cls pcls rules r = true <-> passes cls pcls rules r.
Proof. exact validate_iff. Qed.
Print Assumptions c80_validate.

(** With the default rules this is what, besides the assertions of the classes themselves, decides whether a
    tree compiles. *)
Theorem c80_default : forall r,
  accepted r = true <-> a_root r /\ asserts r /\ passes library_class pol_tag default_rules r.
Proof.
  intros r. rewrite default_iff. unfold accepted, asserts. rewrite andb_true_iff, is_root_iff, forallb_forall. split.
  - intros [Hr H]. split; [exact Hr|].
    assert (G : forall n ps, placed r n ps -> node_ok (n, ps) = true) by (intros n ps Hp; apply H; now apply placed_preorder).
    split; intros n ps Hp; apply G, node_ok_policies in Hp as (H1 & H2 & H3); split; auto; intros p Hin; now apply H3.
  - intros (Hr & Hs & Hp). split; [exact Hr|]. intros [n ps] Hin. apply placed_preorder in Hin. unfold node_ok.
    destruct (Hs n ps Hin) as [S1 S2]. destruct (Hp n ps Hin) as [P1 P2]. rewrite S1, P1. cbn [andb].
    apply forallb_forall. intros p Hi. now rewrite S2, P2.
Qed.
Print Assumptions c80_default.

Lemma ungoverned_dec cls pcls a x : ungoverned cls pcls a x \/ exists cs, governs cls pcls a x cs.
Proof.
  induction a as [|[k ks] a [IH|(cs & IH)]].
  - left. intros ? ? [].
  - destruct (applies_dec cls pcls k x) as [H|H]; [right; exists ks; now constructor|]. left.
    intros k' cs' [[= <- <-]|Hin]; [exact H|now apply (IH k' cs')].
  - right. destruct (applies_dec cls pcls k x) as [H|H]; [exists ks|exists cs]; now constructor.
Qed.

(** Replacing a part of the list does not matter where a rule before it applies. *)
Lemma governs_before cls pcls a b b' x cs : ~ ungoverned cls pcls a x ->
  governs cls pcls (a ++ b) x cs <-> governs cls pcls (a ++ b') x cs.
Proof. intros H. rewrite !governs_app. split; intros [G|[G _]]; auto; contradiction. Qed.

(** A rule that is inserted governs those to which it applies and no rule before it does; it changes nothing for
    others. *)
Theorem c80_insert : forall cls pcls i k cs rules,
  (insert_rule i (k, cs) rules = None <-> List.length rules < i)
  /\ forall rules', insert_rule i (k, cs) rules = Some rules' -> forall x cs',
       (ungoverned cls pcls (firstn i rules) x -> applies cls pcls k x -> governs cls pcls rules' x cs' <-> cs' = cs)
       /\ (~ ungoverned cls pcls (firstn i rules) x \/ ~ applies cls pcls k x ->
           governs cls pcls rules' x cs' <-> governs cls pcls rules x cs').
Proof.
  intros cls pcls i k cs rules. unfold insert_rule. destruct (Nat.leb_spec i (List.length rules)) as [Hi|Hi].
  - split; [split; [discriminate|lia]|]. intros rules' [= <-] x cs'. split.
    + intros Hu Ha. rewrite governs_app, governs_cons. split.
      * intros [G|[_ [[_ ->]|[G _]]]]; [now apply ungoverned_governs in G|reflexivity|contradiction].
      * intros ->. right. auto.
    + intros H. rewrite <- (firstn_skipn i rules) at 3. destruct H as [H|H]; [now apply governs_before|].
      rewrite !governs_app, governs_cons. split.
      * intros [G|[Hu [[G _]|[_ G]]]]; [now left|contradiction|now right].
      * intros [G|[Hu G]]; [now left|right; auto].
  - split; [split; auto|]. discriminate.
Qed.
Print Assumptions c80_insert.

(** Where a rule is removed, the next that applies takes its place; it changes nothing for others. *)
Theorem c80_remove : forall cls pcls i rules,
  (remove_rule i rules = None <-> List.length rules <= i)
  /\ forall rules', remove_rule i rules = Some rules' -> exists k cs, nth_error rules i = Some (k, cs) /\ forall x cs',
       (ungoverned cls pcls (firstn i rules) x ->
        governs cls pcls rules' x cs' <-> governs cls pcls (skipn (S i) rules) x cs')
       /\ (~ ungoverned cls pcls (firstn i rules) x \/ ~ applies cls pcls k x ->
           governs cls pcls rules' x cs' <-> governs cls pcls rules x cs').
Proof.
  intros cls pcls i rules. unfold remove_rule. destruct (Nat.ltb_spec i (List.length rules)) as [Hi|Hi].
  - split; [split; [discriminate|lia]|]. intros rules' [= <-].
    destruct (nth_error rules i) as [[k cs]|] eqn:E; [|apply nth_error_None in E; lia]. exists k, cs. split; [reflexivity|].
    intros x cs'. split.
    + intros Hu. rewrite governs_app. split; [intros [G|[_ G]]; [now apply ungoverned_governs in G|exact G]|auto].
    + intros H. pose proof (split_at i rules _ E) as Es. rewrite Es at 3. destruct H as [H|H]; [now apply governs_before|].
      rewrite !governs_app, governs_cons. split.
      * intros [G|[Hu G]]; [now left|right; auto].
      * intros [G|[Hu [[G _]|[_ G]]]]; [now left|contradiction|now right].
  - split; [split; auto|]. discriminate.
Qed.
Print Assumptions c80_remove.

(** A rule that replaces another governs those to which it applies and no rule before it does; those to which
    only the old one applied fall to the rules behind. *)
Theorem c80_update : forall cls pcls i k cs rules,
  (update_rule i (k, cs) rules = None <-> List.length rules <= i)
  /\ forall rules', update_rule i (k, cs) rules = Some rules' -> exists k' cs', nth_error rules i = Some (k', cs')
       /\ forall x ds,
       (ungoverned cls pcls (firstn i rules) x -> applies cls pcls k x -> governs cls pcls rules' x ds <-> ds = cs)
       /\ (ungoverned cls pcls (firstn i rules) x -> ~ applies cls pcls k x ->
           governs cls pcls rules' x ds <-> governs cls pcls (skipn (S i) rules) x ds)
       /\ (~ ungoverned cls pcls (firstn i rules) x \/ ~ applies cls pcls k x /\ ~ applies cls pcls k' x ->
           governs cls pcls rules' x ds <-> governs cls pcls rules x ds).
Proof.
  intros cls pcls i k cs rules. unfold update_rule. destruct (Nat.ltb_spec i (List.length rules)) as [Hi|Hi].
  - split; [split; [discriminate|lia]|]. intros rules' [= <-].
    destruct (nth_error rules i) as [[k' cs']|] eqn:E; [|apply nth_error_None in E; lia]. exists k', cs'.
    split; [reflexivity|]. intros x ds. split; [|split].
    + intros Hu Ha. rewrite governs_app, governs_cons. split.
      * intros [G|[_ [[_ ->]|[G _]]]]; [now apply ungoverned_governs in G|reflexivity|contradiction].
      * intros ->. right. auto.
    + intros Hu Ha. rewrite governs_app, governs_cons. split.
      * intros [G|[_ [[G _]|[_ G]]]]; [now apply ungoverned_governs in G|contradiction|exact G].
      * intros G. right. auto.
    + intros H. pose proof (split_at i rules _ E) as Es. rewrite Es at 3. destruct H as [H|[H H']]; [now apply governs_before|].
      rewrite !governs_app, !governs_cons. split.
      * intros [G|[Hu [[G _]|[_ G]]]]; [now left|contradiction|right; auto].
      * intros [G|[Hu [[G _]|[_ G]]]]; [now left|contradiction|right; auto].
  - split; [split; auto|]. discriminate.
Qed.
Print Assumptions c80_update.

(** A class that is added to a rule is governed by it, unless a rule before it applies; nothing changes for other
    classes.  The rule for all policies cannot be added to. *)
Theorem c80_add : forall cls pcls i c rules,
  (add_to_rule_types i c rules = None <-> forall cs conds, nth_error rules i <> Some (AnyOf cs, conds))
  /\ forall rules', add_to_rule_types i c rules = Some rules' -> exists cs conds, nth_error rules i = Some (AnyOf cs, conds)
       /\ forall x ds,
       (ungoverned cls pcls (firstn i rules) x -> of_class cls pcls c x -> governs cls pcls rules' x ds <-> ds = conds)
       /\ (~ ungoverned cls pcls (firstn i rules) x \/ ~ of_class cls pcls c x ->
           governs cls pcls rules' x ds <-> governs cls pcls rules x ds).
Proof.
  intros cls pcls i c rules. unfold add_to_rule_types.
  destruct (nth_error rules i) as [[[cs|] conds]|] eqn:E.
  2:{ split; [split; [intros _ ? ? [=]|reflexivity]|discriminate]. }
  2:{ split; [split; [intros _ ? ? [=]|reflexivity]|discriminate]. }
  split; [split; [discriminate|intros H; now destruct (H cs conds)]|]. intros rules' [= <-]. exists cs, conds.
  split; [reflexivity|]. intros x ds.
  assert (A : applies cls pcls (AnyOf (cs ++ [c])) x <-> applies cls pcls (AnyOf cs) x \/ of_class cls pcls c x).
  { unfold applies, of_class. destruct x; rewrite in_app_iff; cbn [In]; split; (intros [H|H]; [now left|right]);
      [destruct H as [H|[]]; congruence|left; congruence|destruct H as [H|[]]; congruence|left; congruence]. }
  split.
  - intros Hu Ho. rewrite governs_app, governs_cons. split.
    + intros [G|[_ [[_ ->]|[G _]]]]; [now apply ungoverned_governs in G|reflexivity|]. destruct G. apply A. now right.
    + intros ->. right. split; [exact Hu|]. left. split; [apply A; now right|reflexivity].
  - intros H. pose proof (split_at i rules _ E) as Es. rewrite Es at 3. destruct H as [H|H]; [now apply governs_before|].
    assert (A' : applies cls pcls (AnyOf (cs ++ [c])) x <-> applies cls pcls (AnyOf cs) x) by (rewrite A; tauto).
    rewrite !governs_app, !governs_cons, A'. reflexivity.
Qed.
Print Assumptions c80_add.

(** Editing by type is editing the first rule of that type; without one, removing does nothing and the others do not
    compile. *)
Theorem c80_by_type : forall k rules,
  (exists i cs, nth_error rules i = Some (k, cs)
     /\ (forall j k' cs', j < i -> nth_error rules j = Some (k', cs') -> k' <> k)
     /\ remove_rule_by_type k rules = remove_rule i rules
     /\ (forall r, update_rule_by_type k r rules = update_rule i r rules)
     /\ (forall c, add_to_rule_types_by_rule k c rules = add_to_rule_types i c rules))
  \/ (forall cs, ~ In (k, cs) rules) /\ remove_rule_by_type k rules = Some rules
     /\ (forall r, update_rule_by_type k r rules = None) /\ (forall c, add_to_rule_types_by_rule k c rules = None).
Proof.
  intros k rules. destruct (find_index_spec k rules) as (H1 & H2 & H3). unfold remove_rule_by_type, update_rule_by_type,
    add_to_rule_types_by_rule. cbv zeta. set (i := find_index k rules) in *.
  destruct (Nat.lt_ge_cases i (List.length rules)) as [Hi|Hi].
  - left. destruct (H2 Hi) as (cs & E). exists i, cs. split; [exact E|].
    split; [intros j k' cs' Hj Hn; exact (H1 j k' cs' Hn Hj)|]. split; [|split; reflexivity].
    apply Nat.ltb_lt in Hi. unfold remove_rule, rule in *. now rewrite Hi.
  - right. split; [|split; [|split]].
    + intros cs Hin. apply In_nth_error in Hin as (j & Hj). apply (H1 j k cs Hj); [|reflexivity].
      assert (j < List.length rules) by (apply nth_error_Some; congruence). lia.
    + apply Nat.ltb_ge in Hi. unfold rule in *. now rewrite Hi.
    + intros r. apply Nat.ltb_ge in Hi. unfold update_rule, rule in *. now rewrite Hi.
    + intros c. unfold add_to_rule_types, rule in *. assert (E : nth_error rules i = None) by (now apply nth_error_None).
      now rewrite E.
Qed.
Print Assumptions c80_by_type.

(** A tree with a node for which there is no rule is not valid. *)
Theorem c80_unknown : forall cls pcls rules r n ps, placed r n ps -> ungoverned cls pcls rules (INode n) ->
  ~ passes cls pcls rules r.
Proof.
  intros cls pcls rules r n ps Hp Hu H. destruct (H (INode n) ps (visited_node _ _ _ Hp)) as (cs & G & _).
  now apply ungoverned_governs in G.
Qed.
Print Assumptions c80_unknown.

(** The program of examples/c++17/custom_policy_and_node: descriptions of a class of their own, which exclude
    those of the library, and positional arguments of a class of their own. *)
Definition c_smiley := 1000%N.
Definition c_single := 1001%N.
Definition own_class (n : node) : N := if N.eqb (n_id n) 7 then c_single else library_class n.
Definition own_pol (p : policy) : N :=
  match p with PDescription s => if starts_with (rev (b ":-)")) (rev s) then c_smiley else pol_tag p | _ => pol_tag p end.
Definition smiley_rule : rule := (AnyOf [c_smiley], [UniqueInOwner; OwnerMustNotHave tag_description]).
Definition own_rules : option (list rule) :=
  match insert_rule 0 smiley_rule default_rules with
  | Some rules => add_to_rule_types_by_rule (AnyOf [c_positional_arg]) c_single rules
  | None => None
  end.

(** [value] is of the program's own class; [more] are further policies of it, [behind] what follows it. *)
Definition own_tree (more : list policy) (behind : list node) : node :=
  root [] [flag 1 [PLongName (b "version"); PDescription (b "Output version information :-)"); PRouter];
           mode 2 [PRouter] (positional_arg num 7 ([PDisplayName (b "value"); PMinMaxCount 1 1; PRequired] ++ more) :: behind)].

Example c80_rules : match own_rules with
  | Some rules => List.length rules = 20
      /\ firstn 1 rules = [smiley_rule]
      /\ option_map fst (nth_error rules 14) = Some (AnyOf [c_positional_arg; c_single])
  | None => False
  end.
Proof. vm_compute. auto. Qed.

(** The program is valid with its own rules and not with the default ones, which know neither class. *)
Example c80_own : match own_rules with
  | Some rules => validate own_class own_pol rules (own_tree [] []) = true
                  /\ validate own_class own_pol rules (own_tree [PDescription (b "even"); PDescription (b ":-)")] []) = false
                  /\ validate own_class own_pol rules (own_tree [PRequired] []) = false
  | None => False
  end
  /\ validate own_class own_pol default_rules (own_tree [] []) = false
  /\ validate library_class pol_tag default_rules (own_tree [] []) = true.
Proof. vm_compute. auto. Qed.

(** Conditions that the default rules do not use: all children of a mode are described, an argument has a long name or a
    description. *)
Example c80_conditions :
  let described := [(AnyOf [c_mode], [ChildMustHave tag_description]); (AnyOf [c_flag], [AtLeastOneOf [tag_long; tag_description]]);
                    (AnyOf [c_root], []); (AnyPolicy, [])] in
  let tree := fun pols => root [] [mode 2 [PRouter] [flag 3 pols]] in
  validate library_class pol_tag described (tree [PShortName (b "f"); PDescription (b "force")]) = true
  /\ validate library_class pol_tag described (tree [PShortName (b "f")]) = false
  /\ validate library_class pol_tag described (tree [PLongName (b "force")]) = false
  /\ validate library_class pol_tag (tl described ++ [(AnyOf [c_mode], [])]) (tree [PShortName (b "f")]) = false
  /\ validate library_class pol_tag (tl described ++ [(AnyOf [c_mode], [])]) (tree [PLongName (b "force")]) = true.
Proof. vm_compute. auto. Qed.

(** The default rules do apply, to a large tree. *)
Example c80_demo : passes library_class pol_tag default_rules demo /\ asserts demo.
Proof.
  assert (H : accepted demo = true) by (vm_compute; reflexivity). apply c80_default in H as (_ & H1 & H2). now split.
Qed.

(** The hypotheses of [c80_unknown]. *)
Example c80_unknown_example :
  ungoverned own_class own_pol default_rules (INode (positional_arg num 7 [PDisplayName (b "value")])).
Proof. intros k cs H. vm_compute in H. repeat (destruct H as [[= <- <-]|H]; [intros A; vm_compute in A; intuition discriminate|]). destruct H. Qed.

(** One of the default rules for one_of_t is never used: without the first, the second one applies. *)
Example c80_second_rule :
  match remove_rule_by_type (AnyOf [c_one_of]) default_rules with
  | Some rules => List.length rules = 18 /\ validate library_class pol_tag rules demo = true
                  /\ governs library_class pol_tag rules (INode d_pack)
                       [MustNotHave [tag_no_result; tag_validator]; ChildMustNotHave tag_required;
                        ChildMustNotHave tag_default; ParentTypes [(0, c_mode)]]
                  /\ match remove_rule 14 rules with
                     | Some rules' => validate library_class pol_tag rules' demo = false
                     | None => False
                     end
  | None => False
  end.
Proof.
  split; [reflexivity|]. split; [vm_compute; reflexivity|]. split; [|vm_compute; reflexivity].
  apply find_governs. eexists. vm_compute. reflexivity.
Qed.

(** Updating: with a rule that lets required positional arguments be empty, a tree is valid that is not with the
    default ones. *)
Definition required_empty :=
  root [] [mode 2 [PRouter] [positional_arg strs 3 [PDisplayName (b "FILES"); PRequired; PMinMaxCount 0 5]]].
Example c80_update_example :
  match update_rule_by_type (AnyOf [c_positional_arg]) (AnyOf [c_positional_arg], [MustNotHave [tag_alias]]) default_rules with
  | Some rules => validate library_class pol_tag rules required_empty = true
  | None => False
  end
  /\ validate library_class pol_tag default_rules required_empty = false
  /\ update_rule_by_type (AnyOf [c_arg; c_flag]) (AnyOf [c_flag], []) default_rules = None
  /\ remove_rule_by_type (AnyOf [c_arg; c_flag]) default_rules = Some default_rules
  /\ add_to_rule_types 7 c_single default_rules = None
  /\ insert_rule 20 smiley_rule default_rules = None.
Proof.
  split; [vm_compute; reflexivity|]. split; [vm_compute; reflexivity|].
  repeat split.
Qed.

(** ** C81: a class that is added to a rule of the library's is treated like the library's class *)

(** It has the conditions of the library's class.  That is all: see below. *)
Theorem c81_conditions_partial : forall cls pcls k c rules rules' n n',
  add_to_rule_types_by_rule (AnyOf [k]) c rules = Some rules' ->
  (forall cs conds, In (AnyOf cs, conds) rules -> ~ In c cs) ->
  (forall cs conds, In (AnyOf cs, conds) (firstn (find_index (AnyOf [k]) rules) rules) -> ~ In k cs) ->
  cls n = k -> cls n' = c -> forall ds,
  governs cls pcls rules' (INode n') ds <-> governs cls pcls rules (INode n) ds.
Proof.
  intros cls pcls k c rules rules' n n' Ha Hnew Hfirst Hk Hc ds.
  unfold add_to_rule_types_by_rule in Ha. set (i := find_index (AnyOf [k]) rules) in *.
  destruct (c80_add cls pcls i c rules) as [_ H]. destruct (H _ Ha) as (cs & conds & En & G).
  destruct (find_index_spec (AnyOf [k]) rules) as (_ & F & _). fold i in F.
  assert (Hi : i < List.length rules) by (apply nth_error_Some; congruence).
  destruct (F Hi) as (conds' & E'). rewrite En in E'. injection E' as -> _.
  assert (U' : ungoverned cls pcls (firstn i rules) (INode n')).
  { intros [cs'|] ds' Hin; cbn [applies]; [|tauto]. rewrite Hc. apply (Hnew cs' ds').
    rewrite <- (firstn_skipn i rules). apply in_or_app. now left. }
  assert (U : ungoverned cls pcls (firstn i rules) (INode n)).
  { intros [cs'|] ds' Hin; cbn [applies]; [|tauto]. rewrite Hk. now apply (Hfirst cs' ds'). }
  destruct (G (INode n') ds) as [G1 _]. rewrite (G1 U' Hc). rewrite (split_at i rules _ En), governs_app, governs_cons.
  split.
  - intros ->. right. split; [exact U|]. left. cbn [applies]. rewrite Hk. split; [now left|reflexivity].
  - intros [A|[_ [[_ ->]|[A _]]]]; [now apply ungoverned_governs in A|reflexivity|]. destruct A. cbn [applies]. rewrite Hk. now left.
Qed.
Print Assumptions c81_conditions_partial.

(** Conditions of other rules that name the library's class do not know the new one: a positional argument of
    the program's own class may be in front of a flag, where one of the library's may not. *)
Theorem c81_position_refuted : exists rules r,
  own_rules = Some rules /\ a_root r /\ asserts r
  /\ passes own_class own_pol rules r /\ ~ passes library_class own_pol rules r.
Proof.
  destruct own_rules as [rules|] eqn:E; [|exfalso; vm_compute in E; discriminate]. exists rules.
  exists (own_tree [] [flag 8 [PLongName (b "loud")]]). injection E as <-. split; [reflexivity|]. split; [|split; [|split]].
  - reflexivity.
  - assert (H : forallb (fun np : node * list node => let '(n, ps) := np in
        node_static n ps && forallb (fun p => policy_static p n ps) (n_pols n))%bool
        (preorder (own_tree [] [flag 8 [PLongName (b "loud")]]) []) = true) by (vm_compute; reflexivity).
    rewrite forallb_forall in H. intros n ps Hp. apply placed_preorder in Hp. apply (H (n, ps)) in Hp.
    apply andb_true_iff in Hp as [H1 H2]. split; [exact H1|]. now rewrite forallb_forall in H2.
  - apply c80_validate. vm_compute. reflexivity.
  - rewrite <- c80_validate. vm_compute. discriminate.
Qed.
Print Assumptions c81_position_refuted.

(** In such a tree the positional argument takes the flag for its value; the flag is only understood behind it. *)
Definition own_order (front behind : list node) : node :=
  root [] [mode 2 [PRouter] (front ++ positional_arg num 7 [PDisplayName (b "value"); PMinMaxCount 1 1; PRequired] :: behind)].
Example c81_shadowed :
  let loud := flag 8 [PLongName (b "loud")] in
  let works r argv := match o_res (root_parse_strings r [] argv) with Ok _ => true | _ => false end in
  (works (own_order [loud] []) [b "--loud"; b "4"], works (own_order [] [loud]) [b "--loud"; b "4"],
   works (own_order [] [loud]) [b "4"; b "--loud"]) = (true, false, true).
Proof. vm_compute. reflexivity. Qed.

(** The documentation of add_to_rule_types adds a class to the rule of arg_t at index 8.  That is the rule of
    flag_t, so a required argument of the new class is not valid; it is with index 9. *)
Theorem c81_documented_index_refuted : exists r rules8 rules9,
  add_to_rule_types 8 c_single default_rules = Some rules8 /\ add_to_rule_types 9 c_single default_rules = Some rules9
  /\ passes library_class pol_tag default_rules r
  /\ ~ passes own_class pol_tag rules8 r /\ passes own_class pol_tag rules9 r.
Proof.
  exists (root [] [mode 2 [PRouter] [arg num 7 [PLongName (b "size"); PRequired]]]).
  eexists. eexists. split; [reflexivity|]. split; [reflexivity|]. rewrite <- !c80_validate.
  split; [|split]; vm_compute; [reflexivity|discriminate|reflexivity].
Qed.
Print Assumptions c81_documented_index_refuted.

(** The hypotheses of [c81_conditions_partial]: the rule of positional_arg_t is the only one that names it. *)
Example c81_hypotheses :
  (exists rules', add_to_rule_types_by_rule (AnyOf [c_positional_arg]) c_single default_rules = Some rules')
  /\ (forall cs conds, In (AnyOf cs, conds) default_rules -> ~ In c_single cs)
  /\ (forall cs conds, In (AnyOf cs, conds) (firstn (find_index (AnyOf [c_positional_arg]) default_rules) default_rules) ->
        ~ In c_positional_arg cs).
Proof.
  split; [eexists; reflexivity|]. split.
  - intros cs conds H. vm_compute in H.
    repeat (destruct H as [H|H]; [try discriminate H; injection H as <- <-; intros A; vm_compute in A; intuition discriminate|]).
    destruct H.
  - intros cs conds H A. vm_compute in H.
    repeat (destruct H as [H|H]; [try discriminate H; injection H as <- <-; vm_compute in A; intuition discriminate|]).
    destruct H.
Qed.

(** C67: a node's names, limits and switches are what its policies say. *)
From Verif Require Import Bytes Token Result CodePoint Utf8 Tree PreParse Build Validator.
From Verif Require Import SpecRules SpecNode RulesProofs VocabProofs Demo.

Lemma accepted_uniq r n parents : accepted r = true -> placed r n parents -> uniq n.
Proof. intros H Hp. apply accepted_compiles in H. apply (proj2 H n parents Hp). Qed.
Lemma accepted_policy r n parents p : accepted r = true -> placed r n parents -> In p (n_pols n) -> policy_ok p n parents.
Proof. intros H Hp. apply accepted_compiles in H. apply (proj2 H n parents Hp). Qed.

(** The accessors give what the policy of the kind says, and nothing if there is none. *)
Theorem c67_policies : forall r n parents, accepted r = true -> placed r n parents ->
  says n PLongName (long_name n) /\ says n PShortName (short_name n) /\ says n PNoneName (none_name n)
  /\ says n PDisplayName (display_name n) /\ says n PErrorName (error_name n) /\ says n PDescription (description n)
  /\ says n (fun c => PMinMaxCount (fst c) (snd c)) (count_bounds n)
  /\ says n PValueSeparator (value_separator n) /\ says n PTokenEndMarker (token_end_marker n)
  /\ says n PMultiStage (multi_stage n) /\ says n PCustomParser (custom_parser n)
  /\ switched n (runtime_enabled n).
Proof.
  intros r n parents H Hp. pose proof (accepted_uniq _ _ _ H Hp) as Hu.
  split; [now apply says_long|]. split; [now apply says_short|]. split; [now apply says_none|].
  split; [now apply says_display|]. split; [now apply says_error|]. split; [now apply says_description|].
  split; [now apply says_count|]. split; [now apply says_separator|]. split; [now apply says_marker|].
  split; [now apply says_stage|]. split; [now apply says_parser|]. apply switched_iff; [exact Hu| |reflexivity].
  intros (p & Hin & K) (q & Hq & Kq). destruct p; try discriminate K.
  apply (accepted_policy _ _ _ _ H Hp) in Hin. apply (Hin k_enable_required); [right; now left|]. exists q. auto.
Qed.
Print Assumptions c67_policies.

(** The questions asked of a node are about the policies that it has. *)
Theorem c67_questions : forall n,
  (has_router n = true <-> has n k_router)
  /\ (no_result_value n = true <-> has n k_no_result \/ has n k_alias)
  /\ (has_multi_stage n = true <-> has n k_multi_stage)
  /\ (is_named n = true <-> has n k_long \/ has n k_short \/ has n k_none)
  /\ (is_mode n = true <-> n_kind n = KMode)
  /\ (forall ns, refers_to ns n = true <-> exists x p, In x ns /\ In p (n_pols n) /\ refers x p).
Proof.
  intros n. rewrite router_hb, hb_true, stage_hb, hb_true, silent_iff. unfold is_named.
  rewrite long_hb, short_hb, none_hb, !orb_true_iff, !hb_true, is_mode_iff. unfold silent, a_mode.
  repeat split; try tauto; apply refers_to_iff.
Qed.
Print Assumptions c67_questions.

(** A word on the command line is taken for the node's name exactly if it is spelled as one: a long name
    after two dashes, a short name after one, a mode's name as it is. *)
Theorem c67_typed : forall r n parents s t, accepted r = true -> placed r n parents ->
  (spelled n s t <-> norm_token n (Tok PNone s) = t /\ match_node n t = true).
Proof.
  intros r n parents s t H Hp. apply spelled_iff; [now apply (accepted_uniq r n parents)|].
  intros (p & Hin & K). destruct p; try discriminate K. apply (accepted_policy _ _ _ _ H Hp) in Hin.
  destruct Hin as (_ & _ & _ & L). intros k Hk. apply L. destruct Hk as [<-|[<-|[]]]; [now left|right; now left].
Qed.
Print Assumptions c67_typed.

(** Error messages name a node by the first of its error, display, long, short and none names. *)
Theorem c67_shown : forall r n parents t, accepted r = true -> placed r n parents ->
  named_by n [k_error; k_display; k_long; k_short; k_none] -> (shown n t <-> node_token n = t).
Proof. intros r n parents t H Hp. apply shown_iff. now apply (accepted_uniq r n parents). Qed.
Print Assumptions c67_shown.

(** The tree is visited from the root, every node before its children. *)
Theorem c67_listing : forall n parents l, listing n parents l <-> l = preorder n parents.
Proof. exact listing_iff. Qed.
Print Assumptions c67_listing.

Example c67_example :
  accepted demo = true /\ placed demo d_owner [d_copy; demo]
  /\ spelled d_owner (b "--owner") (Tok PLong (b "owner")) /\ spelled d_owner (b "-o") (Tok PShort (b "o"))
  /\ (forall t, ~ spelled d_owner (b "owner") t) /\ shown d_owner (Tok PLong (b "owner"))
  /\ shown d_url (Tok PNone (b "URL")) /\ shown d_anon (Tok PNone (b "(Anon mode)"))
  /\ shown d_pack (Tok PNone (b "One of: --zip,--tar")) /\ switched d_old (Some false).
Proof.
  assert (Ha : accepted demo = true) by (vm_compute; reflexivity).
  assert (Hc : placed demo d_copy [demo]).
  { apply placed_child with (1 := placed_root demo). do 2 right. now left. }
  assert (Ho : placed demo d_owner [d_copy; demo]).
  { apply placed_child with (1 := Hc). do 3 right. now left. }
  split; [exact Ha|]. split; [exact Ho|].
  split; [apply (c67_typed demo _ _ _ _ Ha Ho); split; reflexivity|].
  split; [apply (c67_typed demo _ _ _ _ Ha Ho); split; reflexivity|].
  split; [intros t G; apply (c67_typed demo _ _ _ _ Ha Ho) in G as [<- G]; discriminate G|].
  split; [apply shown_iff; [now apply (accepted_uniq demo d_owner [d_copy; demo])| |reflexivity]|].
  { rewrite !named_by_cons. do 2 right. now left. }
  split; [apply shown_display; [now left + (right; now left)|rewrite lacks_cons, lacks_nil; split; [reflexivity|exact I]]|].
  split; [apply shown_error; now left|]. split; [apply shown_error; right; now left|].
  apply switched_plain. cbn. tauto.
Qed.

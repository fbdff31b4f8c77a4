(** Rejected command lines: C62.

    [fails r args x]: the command line is wrong, and [x] says how.  {!SpecFault} and {!SpecOutcome} say
    what is wrong with which command lines: where they go wrong first, with which error code, and what
    the error names. *)
From Verif Require Import Bytes Token Result CodePoint Utf8 Tree PreParse Parse Root Build Validator.
From Verif Require Import SpecTokens SpecSuggest SpecTake SpecMode SpecDeliver SpecRoot SpecReading SpecClaims SpecFault SpecOutcome.
From Verif Require Import ReadProofs ExactProofs BlameProofs Demo.

(** Every command line is correct, asks for help, or is wrong; *)
Theorem c62_cases : forall r mem args, fresh r mem args ->
  (exists n vs, routes r args n vs) \/ (exists h vals, wants_help r args h vals) \/ (exists x, fails r args x).
Proof.
  intros r mem args [Hw Hun Hf Hne].
  destruct (root_outcome r mem args Hw Hun Hf Hne) as [(n & vs & Hr & _)|(_ & [(h & vals & Hh & _)|(x & Hx & _)])]; eauto.
Qed.
Print Assumptions c62_cases.

(** only one of these, and wrong in one way only. *)
Theorem c62_one_error : forall r args x, accepted r = true -> fails r args x ->
  (forall y, fails r args y -> y = x) /\ (forall n vs, ~ routes r args n vs) /\ (forall h vals, ~ wants_help r args h vals).
Proof.
  intros r args x Ha Hx. split; [|split].
  - intros y Hy. exact (fails_det r Ha args y x Hy Hx).
  - intros n vs. exact (fails_not_routes r args x n vs Hx).
  - intros h vals Hh. exact (wants_help_not_fails r args h vals x Hh Hx).
Qed.
Print Assumptions c62_one_error.

(** The parse of a wrong command line reports what is wrong with it and does nothing else. *)
Theorem c62_reported : forall r mem args x, fresh r mem args -> fails r args x ->
  o_res (root_parse r mem args) = x /\ o_events (root_parse r mem args) = [].
Proof.
  intros r mem args x [Hw Hun Hf Hne] Hx.
  destruct (root_outcome r mem args Hw Hun Hf Hne) as [(n & vs & Hr & _)|(_ & [(h & vals & Hh & _)|(y & Hy & He & Ho)])].
  - now apply (fails_not_routes _ _ _ _ _ Hx) in Hr.
  - now apply (wants_help_not_fails _ _ _ _ _ Hh) in Hx.
  - rewrite (fails_det r (wf_accepted _ Hw) args x y Hx Hy). split; [|exact He].
    destruct (o_res (root_parse r mem args)); cbn [same_failure] in Ho; [contradiction|auto..].
Qed.
Print Assumptions c62_reported.

(** ** The cases of a command line for a mode *)

(** The typed arguments cannot be told apart from here on: [stuck]. *)
Theorem c62_bad_line : forall r mem args before c after m ps ts x, fresh r mem args ->
  n_children r = before ++ c :: after -> (forall d, In d before -> passed_over args d) -> is_mode c = true ->
  selects c [r] args m ps ts -> stuck m [] ts x -> o_res (root_parse r mem args) = x.
Proof.
  intros r mem args bf c af m ps ts x Hf Hcs Hb Hm Hs Hx. apply (c62_reported r mem args x Hf).
  apply (fails_child r args bf c af); auto. now apply (wrong_arguments r c args m ps ts).
Qed.
Print Assumptions c62_bad_line.

(** A value cannot be read or is out of range. *)
Theorem c62_bad_value : forall r mem args m ts items before l vals after x, fresh r mem args ->
  typed r args m ts items -> flat_map (assigned m) items = before ++ (l, vals) :: after -> settled m before ->
  unread l vals x -> o_res (root_parse r mem args) = x.
Proof.
  intros r mem args m ts items bf l vals af x Hf (b0 & c & a0 & ps & Hcs & Hb & Hm & Hs & Hr) E Hst Hx.
  apply (c62_reported r mem args x Hf). apply (fails_child r args b0 c a0); auto.
  apply (wrong_values r c args m ps ts items); auto. rewrite E. now apply (undelivered_unread _ _ bf l vals af).
Qed.
Print Assumptions c62_bad_value.

(** A required argument was not typed. *)
Theorem c62_missing : forall r mem args m ts items before c after, fresh r mem args ->
  typed r args m ts items -> let asg := flat_map (assigned m) items in settled m asg ->
  router_children m = before ++ c :: after ->
  (forall d, In d before -> for_child d asg = [] -> exists v, delivered d asg v) ->
  for_child c asg = [] -> mandatory c ->
  o_res (root_parse r mem args) = Throw (EML missing_required_argument [shown c]).
Proof.
  intros r mem args m ts items bf c af Hf (b0 & d & a0 & ps & Hcs & Hb & Hm & Hs & Hr) asg Hst E Hbf Hn Hma.
  apply (c62_reported r mem args _ Hf). apply (fails_child r args b0 d a0); auto.
  apply (wrong_values r d args m ps ts items); auto. now apply (undelivered_missing m asg bf c af).
Qed.
Print Assumptions c62_missing.

(** ** Examples: one for each kind of mistake *)

(** The demo without its help argument. *)
Definition f_root : node := root [] [d_version; d_copy; d_remote; d_anon].
Lemma f_well_formed : well_formed f_root.
Proof. apply well_formed_b_spec. vm_compute. reflexivity. Qed.
Lemma f_fresh args : args <> [] -> fits args -> fresh f_root [] args.
Proof. intros H1 H2. constructor; [exact f_well_formed|intros inst _; reflexivity|exact H2|left; exact H1]. Qed.
Lemma f_no_help args h vals : ~ wants_help f_root args h vals.
Proof.
  intros (bf & af & lb & Hcs & _ & Hk & _). assert (Hin : In h (n_children f_root)) by (rewrite Hcs; apply in_elt).
  repeat destruct Hin as [<-|Hin]; try discriminate. contradiction.
Qed.
Lemma f_fails args e : args <> [] -> fits args -> o_res (root_parse f_root [] args) = Throw e -> fails f_root args (Throw e).
Proof.
  intros H1 H2 E. destruct (f_fresh args H1 H2) as [Hw Hun Hf Hne].
  apply (proj2 (fails_exact f_root [] args (Throw e) Hw Hun Hf Hne)). rewrite E. split; [reflexivity|apply f_no_help].
Qed.
Definition wrong_line (args : list string) (c : ecode) (named : list token) : Prop :=
  fresh f_root [] (toks args) /\ fails f_root (toks args) (Throw (EML c named)).
Lemma a_mistake args c named : toks args <> [] -> fits (toks args) ->
  o_res (root_parse f_root [] (toks args)) = Throw (EML c named) -> wrong_line args c named.
Proof. intros H1 H2 H3. split; [now apply f_fresh|now apply f_fails]. Qed.

Example c62_example_line :
  wrong_line ["copy"; "--width"; "5"; "--tar"; "--zip"; "3"]%string one_of_selected_type_mismatch [Tok PNone (b "One of: --zip,--tar")]
  /\ wrong_line ["copy"; "--width"; "5"; "--width"; "6"]%string argument_has_already_been_set [Tok PNone (b "--width")]
  /\ wrong_line ["copy"; "--owner"; "me"]%string missing_value_separator [Tok PLong (b "owner")]
  /\ wrong_line ["copy"; "--depth"]%string minimum_count_not_reached [Tok PLong (b "depth")]
  /\ wrong_line ["copy"; "--group"; "g"]%string dependent_argument_missing [Tok PLong (b "force")]
  /\ wrong_line ["copy"; "a"; "--"; "b"; "--wodth"]%string unknown_argument_with_suggestion
       [Tok PNone (b "--wodth"); Tok PLong (b "width")]
  /\ wrong_line ["remote"; "add"; "x"; "y"; "z"]%string unhandled_arguments [Tok PNone (b "y"); Tok PNone (b "z")]
  /\ wrong_line ["--version"; "x"]%string unhandled_arguments [Tok PNone (b "x")].
Proof.
  repeat match goal with |- _ /\ _ => split end;
    (apply a_mistake; [discriminate|vm_compute; reflexivity|vm_compute; reflexivity]).
Qed.

Example c62_example_values :
  wrong_line ["copy"; "--width"; "x"]%string failed_to_parse [Tok PNone (b "x")]
  /\ wrong_line ["copy"; "--width"; "5"; "--depth"; "0"]%string minimum_value_not_reached [Tok PLong (b "depth")]
  /\ wrong_line ["copy"; "--width"; "5"; "--depth"; "12"]%string maximum_value_exceeded [Tok PLong (b "depth")]
  /\ wrong_line ["copy"; "--both"; "5"; "--width"; "6"]%string argument_has_already_been_set [Tok PLong (b "width")]
  /\ wrong_line ["copy"; "--force"]%string missing_required_argument [Tok PLong (b "width")]
  /\ wrong_line ["remote"]%string mode_requires_arguments [Tok PNone (b "remote")].
Proof.
  repeat match goal with |- _ /\ _ => split end;
    (apply a_mistake; [discriminate|vm_compute; reflexivity|vm_compute; reflexivity]).
Qed.

(** Trees and state: C17-C19, C41, C47, C51, C52, C54-C56. *)
From Verif Require Import Bytes Token Result CodePoint Utf8 Tree PreParse Parse Root Levenshtein Build Validator.
From Verif Require Import SpecUtf8 SpecTake SpecMode SpecDeliver SpecRoot SpecReading SpecClaims SpecSafe.
From Verif Require SpecSuggest.
From Verif Require Import ExactProofs ClaimProofs RunProofs TotalProofs SafeProofs NodeClaims LabelProofs Demo Oddities.
Local Open Scope list_scope.

(** ** C54-C56: what [sane], [tidy] and [distinct_types] exclude *)

(** An argument with both a value separator and the short-form expander: the value of "-ab=5" is given to -a. *)
Theorem c54_reordered_refuted : exists r, accepted r = true
  /\ calls_of r [] (map b ["run"; "-ab=5"]%string) = calls_of r [] (map b ["run"; "-a=5"; "-b"]%string)
  /\ calls_of r [] (map b ["run"; "-ab=5"]%string) <> [].
Proof. exists mixed_tool. split; [vm_compute; reflexivity|]. split; [vm_compute; reflexivity|vm_compute; discriminate]. Qed.
Print Assumptions c54_reordered_refuted.

(** A positional argument with a value separator loses what is after the separator. *)
Theorem c54_lost_refuted : exists r w w', accepted r = true /\ w <> w'
  /\ calls_of r [] [b "run"; b "a=" ++ w] = [(100%N, [VStr (b "a")])]
  /\ calls_of r [] [b "run"; b "a=" ++ w'] = [(100%N, [VStr (b "a")])].
Proof. exists pos_tool, (b "b"), (b "c"). split; [vm_compute; reflexivity|]. split; [discriminate|]. split; vm_compute; reflexivity. Qed.
Print Assumptions c54_lost_refuted.

(** An argument of a mode after a sub-mode that has an argument of the same C++ type: its value is lost. *)
Theorem c55_lost_refuted : exists r, accepted r = true
  /\ calls_of r [] (map b ["run"; "--xx"; "1"]%string) = [(100%N, [VInt 0])].
Proof. exists sub_tool. split; vm_compute; reflexivity. Qed.
Print Assumptions c55_lost_refuted.

(** An alias for an argument that only a sub-mode has is accepted and has no effect. *)
Theorem c56_no_target_refuted : exists r m a, accepted r = true /\ n_children r = [m] /\ In a (n_children m)
  /\ alias_of a <> None /\ long_name a = Some (b "far") /\ calls_of r [] (map b ["run"; "--far"; "1"]%string) = [(100%N, [])].
Proof.
  exists far_tool, (mode 100 [PNoneName (b "run"); PRouter] [mode 101 [PNoneName (b "sub"); PRouter] [q_y]; q_far]), q_far.
  split; [vm_compute; reflexivity|]. split; [reflexivity|]. split; [right; left; reflexivity|].
  split; [discriminate|]. split; [reflexivity|vm_compute; reflexivity].
Qed.
Print Assumptions c56_no_target_refuted.

(** ** C17 *)

(** Trees without a one_of have no state: the result does not depend on earlier parses. *)
Theorem c17_no_one_of_partial : forall r, no_choices r -> forall mem mem' args,
  o_mem (root_parse r mem args) = mem
  /\ o_events (root_parse r mem args) = o_events (root_parse r mem' args)
  /\ o_res (root_parse r mem args) = o_res (root_parse r mem' args).
Proof. exact root_forgets. Qed.
Print Assumptions c17_no_one_of_partial.

(** With one_ofs, the calls are the same from any state in which none of them has been used. *)
Theorem c17_unused_partial : forall r mem mem' args n vs, fresh r mem args -> fresh r mem' args ->
  calls_router r mem args n vs <-> calls_router r mem' args n vs.
Proof. exact (fun r mem mem' args n vs H H' => iff_trans (fresh_routes r mem args n vs H) (iff_sym (fresh_routes r mem' args n vs H'))). Qed.
Print Assumptions c17_unused_partial.

Example c17_example : no_choices flag_tool /\ accepted flag_tool = true
  /\ calls_of flag_tool [(3, 4)]%N (map b ["run"; "-ab"]%string) = [(100%N, [VBool true; VBool true])]
  /\ fresh demo [] ex1 /\ fresh demo [(8, 4)]%N ex1.
Proof.
  split. { intros c Hc inst. repeat destruct Hc as [<-|Hc]; try contradiction; discriminate. }
  split; [vm_compute; reflexivity|]. split; [vm_compute; reflexivity|]. split; [exact ex1_fresh|].
  constructor; [exact demo_well_formed| |vm_compute; reflexivity|left; discriminate].
  intros inst [<-|[]]. reflexivity.
Qed.

(** In general not: after one parse used a member of a one_of, later ones cannot use another. *)
Theorem c17_one_of_refuted : exists r earlier args, accepted r = true
  /\ ends_in r [] earlier = Ok tt /\ ends_in r [] args = Ok tt
  /\ exists ts, ends_in r (after r [] earlier) args = Throw (EML one_of_selected_type_mismatch ts).
Proof.
  exists pick_tool, (map b ["run"; "--xx"; "1"]%string), (map b ["run"; "--yy"; "1"]%string).
  split; [vm_compute; reflexivity|]. split; [vm_compute; reflexivity|]. split; [vm_compute; reflexivity|].
  exists [node_token q_pick]. vm_compute. reflexivity.
Qed.
Print Assumptions c17_one_of_refuted.

(** ** C18 *)

(** A disabled argument takes no tokens, whatever is typed; *)
Theorem c18_takes_nothing : forall r n parents pt v s s' t,
  accepted r = true -> In n (below r) -> is_argument n = true -> ~ SpecTake.enabled n ->
  node_pre_parse n parents pt v s <> (s', Ok (Some t)).
Proof. exact disabled_takes_nothing. Qed.
Print Assumptions c18_takes_nothing.

(** the router gets its default, unless an alias refers to it; *)
Theorem c18_default : forall r mem args m ts items vs i c, fresh r mem args -> typed r args m ts items ->
  calls_router r mem args m vs -> nth_error (router_children m) i = Some c -> is_argument c = true -> ~ SpecTake.enabled c ->
  (forall l ns, argument_of m l -> alias_of l = Some ns -> refers_to ns c = false) ->
  nth_error vs i = Some (last (default_values c) (vt_init (n_ty c))).
Proof. exact disabled_default. Qed.
Print Assumptions c18_default.

(** and it is not suggested. *)
Theorem c18_not_suggested : forall n t ts, SpecSuggest.decodable (SpecSuggest.typed_name t) ->
  (forall c, In c (SpecSuggest.names_below [] n) -> SpecSuggest.decodable (t_name (snd c))) ->
  @unknown_argument_exception unit n t = Throw (EML unknown_argument_with_suggestion ts) ->
  exists d path nm, ts = t :: path ++ [nm] /\ In d (below n) /\ SpecTake.enabled d /\ In nm (SpecSuggest.names_of d).
Proof. exact suggested_enabled. Qed.
Print Assumptions c18_not_suggested.

Example c18_example :
  In d_old (below demo) /\ is_argument d_old = true /\ ~ SpecTake.enabled d_old
  /\ nth_error (router_children d_copy) 7 = Some d_old
  /\ (forall l ns, argument_of d_copy l -> alias_of l = Some ns -> refers_to ns d_old = false)
  /\ option_map (skipn 7) (values_of ["copy"; "--width"; "1"; "--old"]%string) = Some [VBool false; VList [VStr (b "--old")]; VStr []]
  /\ @unknown_argument_exception unit d_copy (Tok PNone (b "--olc"))
     = Throw (EML unknown_argument_with_suggestion [Tok PNone (b "--olc"); Tok PShort (b "o")]).
Proof.
  split; [do 14 right; left; reflexivity|]. split; [reflexivity|]. split; [intros H; now apply H|]. split; [reflexivity|].
  split.
  - intros l ns (c & Hc & _ & Hl) E.
    repeat destruct Hc as [<-|Hc]; try contradiction; repeat destruct Hl as [<-|Hl]; try contradiction; try discriminate E.
    injection E as <-. reflexivity.
  - split; vm_compute; reflexivity.
Qed.

(** But it is not as if the argument were absent: with a value separator its name alone is an error, *)
Theorem c18_separator_refuted : exists r r' m m' d cs args, accepted r = true /\ accepted r' = true
  /\ n_children r = [m] /\ n_children r' = [m'] /\ n_children m = d :: cs /\ n_children m' = cs /\ n_pols m = n_pols m'
  /\ ~ SpecTake.enabled d
  /\ ends_in r' [] args = Ok tt /\ exists ts, ends_in r [] args = Throw (EML missing_value_separator ts).
Proof.
  exists off_tool, (tool [q_names]), (mode 100 [PNoneName (b "run"); PRouter] [q_off; q_names]), (mode 100 [PNoneName (b "run"); PRouter] [q_names]),
    q_off, [q_names], (map b ["run"; "--off"]%string).
  split; [vm_compute; reflexivity|]. split; [vm_compute; reflexivity|].
  repeat (split; [reflexivity|]). split; [intros H; now apply H|]. split; [vm_compute; reflexivity|].
  exists [Tok PLong (b "off")]. vm_compute. reflexivity.
Qed.
Print Assumptions c18_separator_refuted.

(** and it still gets the value of an alias. *)
Theorem c18_alias_refuted : exists r m d a, accepted r = true /\ n_children r = [m] /\ n_children m = [d; a]
  /\ ~ SpecTake.enabled d /\ router_children m = [d] /\ default_values d = []
  /\ calls_of r [] (map b ["run"; "--also"; "7"]%string) = [(n_id m, [VInt 7])].
Proof.
  exists dead_tool, (mode 100 [PNoneName (b "run"); PRouter] [q_dead; q_alias]), q_dead, q_alias.
  split; [vm_compute; reflexivity|]. repeat (split; [reflexivity|]). split; [intros H; now apply H|].
  repeat (split; [reflexivity|]). vm_compute. reflexivity.
Qed.
Print Assumptions c18_alias_refuted.

(** ** C19 *)

(** For the trees and command lines in SpecSafe nothing but a library error goes wrong.  Missing for the
    full statement: other byte strings, a lone "-", other trees. *)
Theorem c19_orderly_partial : forall r mem argv, accepted r = true -> countless_modes r -> sane_tree r -> harmless r ->
  proper argv -> small (to_tokens argv) -> argv <> [] \/ named_top r ->
  orderly (o_res (root_parse_strings r mem argv)).
Proof. exact root_orderly. Qed.
Print Assumptions c19_orderly_partial.

Definition q_owner := arg num 23 [PLongName (b "owner"); PValueSeparator (b "=")].
Definition safe_tool := tool [q_a; q_b; q_owner; q_x; q_names].

Lemma ascii_readable (s : bytes) : forallb (fun c => N.ltb (N_of_ascii c) 128) s = true -> readable s.
Proof.
  intros H. rewrite forallb_forall in H. exists (map N_of_ascii s). split.
  - apply Forall_map, Forall_forall. intros c Hc. apply H, N.ltb_lt in Hc. clear - Hc.
    unfold decoded, scalar, boundary_lead. lia.
  - unfold encode_all. rewrite map_map. induction s as [|c s IH]; [reflexivity|]. cbn [map List.concat].
    rewrite <- IH by (intros x Hx; apply H; now right). unfold encode. rewrite (H c (or_introl eq_refl)).
    unfold byte. now rewrite ascii_N_embedding.
Qed.

Lemma num_cases s : (exists v, num_parse s = Ok v) \/ exists ts, num_parse s = Throw (EML failed_to_parse ts).
Proof. unfold num_parse. destruct s as [|c s]; [eauto|]. destruct (digits (c :: s) 0); eauto. Qed.

Example c19_example :
  accepted safe_tool = true /\ countless_modes safe_tool /\ sane_tree safe_tool /\ harmless safe_tool
  /\ proper (map b ["run"; "-ba"; "--owner=12"; "--xy"]%string) /\ small (to_tokens (map b ["run"; "-ba"; "--owner=12"; "--xy"]%string))
  /\ (exists ts, ends_in safe_tool [] (map b ["run"; "--xx"; "2"; "-b"; "--owner"]%string) = Throw (EML missing_value_separator ts))
  /\ calls_of safe_tool [] (map b ["run"; "-ba"; "--owner=12"; "--xy"]%string)
     = [(100%N, [VBool true; VBool true; VInt 12; VInt 0; VList [VStr (b "--xy")]])].
Proof.
  split; [vm_compute; reflexivity|].
  split. { intros m Hm Hk. repeat destruct Hm as [<-|Hm]; try contradiction; try discriminate Hk; reflexivity. }
  split. { intros l Hl Hk. repeat destruct Hl as [<-|Hl]; try contradiction; try discriminate Hk; apply sane_b_spec; vm_compute; reflexivity. }
  split. { constructor.
    - intros n s Hn Hs. repeat destruct Hn as [<-|Hn]; try contradiction; destruct Hs as [Hs|[Hs|Hs]]; try discriminate Hs;
        injection Hs as <-; apply ascii_readable; vm_compute; reflexivity.
    - intros n sep Hn Hs. repeat destruct Hn as [<-|Hn]; try contradiction; try discriminate Hs. injection Hs as <-.
      split; [exists "="%char; split; [reflexivity|vm_compute; reflexivity]|].
      intros H. repeat destruct H as [H|H]; try discriminate; contradiction.
    - intros n Hn. repeat destruct Hn as [<-|Hn]; try contradiction; discriminate.
    - intros n cl s Hn Hk. repeat destruct Hn as [<-|Hn]; try contradiction; try discriminate Hk; try exact I;
        change (orderly (num_parse s)); destruct (num_cases s) as [[v ->]|[ts ->]]; exact I. }
  split. { intros a Ha. repeat destruct Ha as [<-|Ha]; try contradiction; (split; [apply ascii_readable; vm_compute; reflexivity|discriminate]). }
  split; [vm_compute; discriminate|]. split; [exists [Tok PLong (b "owner")]; vm_compute; reflexivity|vm_compute; reflexivity].
Qed.

(** A lone "-" at the end of the command line: std::length_error escapes; *)
Theorem c19_dash_refuted : exists r argv, accepted r = true /\ harmless r /\ ends_in r [] argv = Throw ELengthError.
Proof.
  exists flag_tool, (map b ["run"; "-"]%string). split; [vm_compute; reflexivity|]. split; [|vm_compute; reflexivity].
  constructor.
  - intros n s Hn Hs. repeat destruct Hn as [<-|Hn]; try contradiction; destruct Hs as [Hs|[Hs|Hs]]; try discriminate Hs;
      injection Hs as <-; apply ascii_readable; vm_compute; reflexivity.
  - intros n sep Hn Hs. repeat destruct Hn as [<-|Hn]; try contradiction; discriminate Hs.
  - intros n Hn. repeat destruct Hn as [<-|Hn]; try contradiction; discriminate.
  - intros n cl s Hn Hk. repeat destruct Hn as [<-|Hn]; try contradiction; discriminate Hk.
Qed.
Print Assumptions c19_dash_refuted.

(** a cut-off UTF-8 character in a group of short flags is undefined behaviour; *)
Theorem c19_bad_utf8_refuted : exists r argv, accepted r = true /\ ends_in r [] argv = UB.
Proof. exists flag_tool, [b "run"; b "-a" ++ byte_str [195]%N]. split; vm_compute; reflexivity. Qed.
Print Assumptions c19_bad_utf8_refuted.

(** so is asking for the help of a disabled argument. *)
Theorem c19_help_refuted : exists r argv, accepted r = true /\ ends_in r [] argv = UB.
Proof. exists help_tool, (map b ["--help"; "run"; "--dead"]%string). split; vm_compute; reflexivity. Qed.
Print Assumptions c19_help_refuted.

(** ** C41 *)

(** The bounds hold if the group or one of its members accumulates values. *)
Theorem c41_accumulating_partial : forall r mem args m ts items vs i c v, fresh r mem args -> typed r args m ts items ->
  calls_router r mem args m vs -> nth_error (router_children m) i = Some c -> nth_error vs i = Some v ->
  repeatable c -> in_range c v.
Proof. exact repeatable_in_range. Qed.
Print Assumptions c41_accumulating_partial.

Definition q_count := counting_flag (to_unsigned 64) 24 [PLongName (b "count"); PShortName (b "c")].
Definition q_level := alias_group num 25 [PDefaultValue (VInt 1); PMinMaxValue (Some (VInt 0)) (Some (VInt 2)) int_lt] [q_count; q_x].
Definition level_tool := tool [q_level].

Example c41_example :
  well_formed level_tool /\ repeatable q_level
  /\ calls_of level_tool [] (map b ["run"; "-cc"]%string) = [(100%N, [VInt 2])]
  /\ (exists ts, ends_in level_tool [] (map b ["run"; "-ccc"]%string) = Throw (EML maximum_value_exceeded ts))
  /\ (exists ts, ends_in level_tool [] (map b ["run"; "--xx"; "3"]%string) = Throw (EML maximum_value_exceeded ts)).
Proof.
  split; [apply well_formed_b_spec; vm_compute; reflexivity|].
  split; [right; exists q_count; split; [left; reflexivity|reflexivity]|].
  split; [vm_compute; reflexivity|]. split; (eexists; vm_compute; reflexivity).
Qed.

(** Otherwise they are not enforced. *)
Theorem c41_bounds_refuted : exists r m c, accepted r = true /\ n_children r = [m] /\ n_children m = [c] /\ n_kind c = KAliasGroup
  /\ In (PMinMaxValue (Some (VInt 0)) (Some (VInt 9)) int_lt) (n_pols c)
  /\ calls_of r [] (map b ["run"; "--xx"; "100"]%string) = [(n_id m, [VInt 100])].
Proof.
  exists group_tool, (mode 100 [PNoneName (b "run"); PRouter] [q_grp]), q_grp.
  split; [vm_compute; reflexivity|]. repeat (split; [reflexivity|]). split; [|vm_compute; reflexivity].
  repeat (first [left; reflexivity|right]).
Qed.
Print Assumptions c41_bounds_refuted.

(** ** C47 *)

(** If all children of the root need a name, an empty command line is reported. *)
Theorem c47_empty : forall r mem, accepted r = true -> countless_modes r ->
  (forall c, In c (n_children r) -> if is_mode c then none_name c <> None else is_named c = true) ->
  root_parse r mem [] = Out mem [] (Throw (EML no_arguments_passed [])).
Proof. exact root_empty. Qed.
Print Assumptions c47_empty.

(** A command line whose first string is not empty is never reported as empty. *)
Theorem c47_not_empty : forall r mem a argv ts, accepted r = true ->
  (forall n cl s ts', In n (below r) -> n_kind n = KArg cl -> parse_token n s <> Throw (EML no_arguments_passed ts')) ->
  a <> [] -> o_res (root_parse_strings r mem (a :: argv)) <> Throw (EML no_arguments_passed ts).
Proof. exact strings_not_empty. Qed.
Print Assumptions c47_not_empty.

Example c47_example :
  accepted safe_tool = true /\ countless_modes safe_tool
  /\ (forall c, In c (n_children safe_tool) -> if is_mode c then none_name c <> None else is_named c = true)
  /\ (forall n cl s ts', In n (below safe_tool) -> n_kind n = KArg cl -> parse_token n s <> Throw (EML no_arguments_passed ts'))
  /\ ends_in safe_tool [] [] = Throw (EML no_arguments_passed [])
  /\ (exists ts, ends_in safe_tool [] [b "ru"] = Throw (EML unknown_argument_with_suggestion ts)).
Proof.
  split; [vm_compute; reflexivity|].
  split. { intros m Hm Hk. repeat destruct Hm as [<-|Hm]; try contradiction; try discriminate Hk; reflexivity. }
  split. { intros c [<-|[]]. discriminate. }
  split. { intros n cl s ts' Hn Hk. repeat destruct Hn as [<-|Hn]; try contradiction; try discriminate Hk; try discriminate;
             match goal with |- parse_token _ ?s <> ?t => change (num_parse s <> t); destruct (num_cases s) as [[v ->]|[us ->]]; discriminate end. }
  split; [vm_compute; reflexivity|]. eexists; vm_compute; reflexivity.
Qed.

(** One whose first string is empty is. *)
Theorem c47_empty_string_refuted : exists r argv, accepted r = true /\ argv <> []
  /\ ends_in r [] argv = Throw (EML no_arguments_passed []).
Proof. exists safe_tool, [[]; b "run"]. split; [vm_compute; reflexivity|]. split; [discriminate|vm_compute; reflexivity]. Qed.
Print Assumptions c47_empty_string_refuted.

(** ** C51 *)

(** A tree that compiles has no one_of or alias_group all of whose members are required. *)
Theorem c51_not_all_partial : forall r n, accepted r = true -> In n (below r) -> (exists inst, n_kind n = KOneOf inst) \/ n_kind n = KAliasGroup ->
  exists c, In c (n_children n) /\ ~ In PRequired (n_pols c).
Proof. exact not_all_required. Qed.
Print Assumptions c51_not_all_partial.

Example c51_example : accepted demo = true /\ In d_pack (below demo) /\ n_kind d_pack = KOneOf 1
  /\ accepted (tool [one_of 1 num 15 [PDefaultValue (VInt 0)] [q_xr; arg num 26 [PLongName (b "zz"); PRequired]]]) = false.
Proof. split; [vm_compute; reflexivity|]. split; [do 11 right; left; reflexivity|]. split; [reflexivity|vm_compute; reflexivity]. Qed.

(** Some of them may be, and then that is not enforced. *)
Theorem c51_some_refuted : exists r m g c, accepted r = true /\ n_children r = [m] /\ n_children m = [g]
  /\ (exists inst, n_kind g = KOneOf inst) /\ In c (n_children g) /\ In PRequired (n_pols c)
  /\ calls_of r [] [b "run"] = [(n_id m, [VInt 0])].
Proof.
  exists required_tool, (mode 100 [PNoneName (b "run"); PRouter] [q_pick_r]), q_pick_r, q_xr.
  split; [vm_compute; reflexivity|]. repeat (split; [reflexivity|]). split; [exists 1%N; reflexivity|].
  split; [left; reflexivity|]. split; [repeat (first [left; reflexivity|right])|vm_compute; reflexivity].
Qed.
Print Assumptions c51_some_refuted.

(** ** C52 *)

(** An argument that depends on an alias can never be typed, unless another alias refers to that alias. *)
Theorem c52_never_satisfied : forall r args m ts items it ns d ns', typed r args m ts items -> In it items ->
  In (PDependent ns) (n_pols (i_node it)) -> In d (below m) -> refers_to ns d = true -> alias_of d = Some ns' ->
  (forall l ns'', argument_of m l -> alias_of l = Some ns'' -> refers_to ns'' d = false) -> False.
Proof. exact alias_dependency_dead. Qed.
Print Assumptions c52_never_satisfied.

Theorem c52_dependency_refuted : exists r m a n, accepted r = true /\ n_children r = [m]
  /\ In a (n_children m) /\ alias_of a <> None /\ long_name a = Some (b "both")
  /\ In n (n_children m) /\ In (PDependent [NLong (b "both")]) (n_pols n) /\ long_name n = Some (b "dep")
  /\ exists ts, ends_in r [] (map b ["run"; "--both"; "1"; "--dep"]%string) = Throw (EML dependent_argument_missing ts).
Proof.
  exists dep_tool, (mode 100 [PNoneName (b "run"); PRouter] [q_x; q_both; q_dep]), q_both, q_dep.
  split; [vm_compute; reflexivity|]. split; [reflexivity|]. split; [right; left; reflexivity|].
  split; [discriminate|]. split; [reflexivity|]. split; [do 2 right; left; reflexivity|].
  split; [repeat (first [left; reflexivity|right])|]. split; [reflexivity|].
  eexists. vm_compute. reflexivity.
Qed.
Print Assumptions c52_dependency_refuted.

Example c52_example : refers_to [NLong (b "both")] q_both = true /\ alias_of q_both = Some [NLong (b "xx")]
  /\ In (PDependent [NLong (b "both")]) (n_pols q_dep)
  /\ calls_of (tool [q_x; q_both; flag 27 [PLongName (b "dep"); PDependent [NLong (b "xx")]]]) []
       (map b ["run"; "--both"; "1"; "--dep"]%string) = [(100%N, [VInt 1; VBool true])].
Proof. split; [reflexivity|]. split; [reflexivity|]. split; [repeat (first [left; reflexivity|right])|vm_compute; reflexivity]. Qed.

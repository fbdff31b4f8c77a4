(** The compile-time checks: the static_asserts of the node classes and policies, and
    policy/validator.hpp with its default rules.  [accepted root = true] iff such a tree compiles. *)
From Verif Require Import Bytes Token Result CodePoint Utf8 Tree PreParse.

(** Identity of a policy's class template ("despecialised" type). *)
Definition pol_tag (p : policy) : N :=
  match p with
  | PLongName _ => 1 | PShortName _ => 2 | PNoneName _ => 3 | PDisplayName _ => 4
  | PErrorName _ => 5 | PDescription _ => 6 | PMinMaxCount _ _ => 7 | PMinMaxValue _ _ _ => 8
  | PValueSeparator _ => 9 | PShortFormExpander => 10 | PRuntimeEnable _ => 11
  | PRuntimeEnableRequired _ _ => 12 | PTokenEndMarker _ => 13 | PDefaultValue _ => 14
  | PRequired => 15 | PAlias _ => 16 | PDependent _ => 17 | PRouter => 18 | PCustomParser _ => 19
  | PMultiStage _ => 20 | PNoResultValue => 21 | PFlattenHelp => 22 | PProgramName _ => 23
  | PProgramVersion _ => 24 | PProgramIntro _ => 25 | PProgramAddendum _ => 26
  end%N.

(** algorithm.hpp [has_specialisation<Policy, policies_type>]. *)
Definition has_tag (t : N) (n : node) : bool := existsb (fun p => N.eqb (pol_tag p) t) (n_pols n).

Definition tag_long := 1%N.
Definition tag_short := 2%N.
Definition tag_none := 3%N.
Definition tag_display := 4%N.
Definition tag_description := 6%N.
Definition tag_min_max_value := 8%N.
Definition tag_expander := 10%N.
Definition tag_runtime_enable := 11%N.
Definition tag_runtime_enable_required := 12%N.
Definition tag_default := 14%N.
Definition tag_required := 15%N.
Definition tag_alias := 16%N.
Definition tag_dependent := 17%N.
Definition tag_router := 18%N.
Definition tag_custom_parser := 19%N.
Definition tag_multi_stage := 20%N.
Definition tag_no_result := 21%N.

(** policy/validator.hpp:183-195 [despecialised_unique_in_owner] for a policy of the owner. *)
Definition unique_in_owner (p : policy) (owner : node) : bool :=
  Nat.eqb (List.length (filter (fun q => N.eqb (pol_tag q) (pol_tag p)) (n_pols owner))) 1.

(** Type equality of two name policies; other policies are never compared.  The type of a name is taken to be
    its text; see {!CtString.v} for C++20 strings, which can differ in type only. *)
Definition same_name_policy (p q : policy) : bool :=
  match p, q with
  | PLongName s, PLongName s' | PShortName s, PShortName s' | PNoneName s, PNoneName s' => beq s s'
  | _, _ => false
  end.

(** The elements up to and including the first that satisfies [f], all if there is none. *)
Fixpoint take_until {A} (f : A -> bool) (l : list A) : list A :=
  match l with
  | [] => []
  | x :: l' => if f x then [x] else x :: take_until f l'
  end.

(** The ancestry of a node as type identities. *)
Definition ids (path : list node) : list N := map n_id path.
Fixpoint ids_eqb (x y : list N) : bool :=
  match x, y with
  | [], [] => true
  | i :: x', j :: y' => N.eqb i j && ids_eqb x' y'
  | _, _ => false
  end.

(** policy/validator.hpp:206-221,231-241: the nodes under [start] (which is not skipped itself) that
    are reached without entering another mode type, each with its path down from [start]. *)
Fixpoint walk (start : node) (n : node) (above : list node) : list (list node) :=
  if is_mode n && negb (N.eqb (n_id n) (n_id start)) then []
  else (n :: above) :: match n with Node _ _ _ _ cs => flat_map (fun c => walk start c (n :: above)) cs end.

(** policy/validator.hpp:202-263 [policy_unique_from_owner_parent_to_mode_or_root<mode_t>]. *)
Definition unique_to_mode (p : policy) (owner : node) (parents : list node) : bool :=
  match parents with
  | [] => true
  | _ =>
      let path := take_until is_mode (owner :: parents) in
      let start := last path owner in
      forallb (fun path' =>
                 ids_eqb (ids path') (ids path)
                 || match path' with
                    | [] => true
                    | n :: _ => forallb (fun q => negb (same_name_policy p q)) (n_pols n)
                    end)
              (walk start start [])
  end.

(** policy/validator.hpp:327-356 *)
Definition must_not_have (ts : list N) (n : node) : bool := forallb (fun t => negb (has_tag t n)) ts.

(** policy/validator.hpp:387-396 [child_must_not_have_policy], as it is written. *)
Definition child_must_not_have (t : N) (n : node) : bool :=
  match n_children n with
  | [] => true
  | cs => negb (forallb (has_tag t) cs)
  end.

(** policy/validator.hpp:290-320 [parent_types] for index-0 entries. *)
Definition parent_is (f : node -> bool) (parents : list node) : bool :=
  match parents with [] => false | p :: _ => f p end.

Definition is_root (n : node) : bool := match n_kind n with KRoot => true | _ => false end.

(** The rules for policies, policy/validator.hpp:617-655; [parents] are the owner's. *)
Definition policy_rules (p : policy) (owner : node) (parents : list node) : bool :=
  unique_in_owner p owner
  && match p with
     | PLongName _ | PShortName _ => unique_to_mode p owner parents
     | PNoneName _ =>
         unique_to_mode p owner parents && must_not_have [tag_long; tag_short; tag_display] owner
     | PDisplayName _ => must_not_have [tag_long; tag_short; tag_none] owner
     | PRequired => must_not_have [tag_default] owner
     | PDefaultValue _ => must_not_have [tag_required] owner
     | PRouter => is_mode owner || parent_is is_root parents
     | _ => true
     end.

(** policy/validator.hpp:472-503 [node_types_must_be_at_end]. *)
Fixpoint at_end (f : node -> bool) (cs : list node) : bool :=
  match cs with
  | [] => true
  | c :: cs' => if f c then forallb f cs' else at_end f cs'
  end.

(** policy/validator.hpp:547-575 *)
Definition is_list_like (n : node) : bool :=
  match count_bounds n with
  | Some (mn, mx) =>
      negb (N.eqb mn mx) && negb (has_multi_stage n) && negb (is_some (token_end_marker n))
  | None => false
  end.
Fixpoint list_like_last (cs : list node) : bool :=
  match cs with
  | [] => true
  | [_] => true
  | c :: cs' => negb (is_list_like c) && list_like_last cs'
  end.

Definition is_anonymous_mode (n : node) : bool := is_mode n && is_anonymous n.

(** policy/validator.hpp:584-594 *)
Definition min_1_if_required (n : node) : bool :=
  if has_tag tag_required n
  then match count_bounds n with Some (mn, _) => N.leb 1 mn | None => true end
  else true.

(** The rules for nodes, policy/validator.hpp:657-732.  The validator policy itself is not
    modelled. *)
Definition node_rules (n : node) (parents : list node) : bool :=
  match n_kind n with
  | KFlag => must_not_have [tag_multi_stage; tag_no_result; tag_required] n
  | KArg AArg | KArg AMulti | KArg AForwarding =>
      must_not_have [tag_multi_stage; tag_no_result] n
  | KCountingFlag => must_not_have [tag_no_result; tag_required] n
  | KArg APositional =>
      must_not_have [tag_alias; tag_multi_stage; tag_no_result] n && min_1_if_required n
  | KOneOf _ =>
      must_not_have [tag_no_result; tag_multi_stage] n
      && child_must_not_have tag_required n && child_must_not_have tag_default n
      && parent_is is_mode parents
  | KAliasGroup =>
      must_not_have [tag_no_result] n
      && child_must_not_have tag_required n && child_must_not_have tag_default n
      && parent_is is_mode parents
  | KMode =>
      must_not_have [tag_multi_stage; tag_required; tag_runtime_enable_required; tag_alias;
                     tag_dependent] n
      && at_end (fun c => match n_kind c with KArg APositional => true | _ => false end)
                (n_children n)
      && list_like_last (n_children n)
      && parent_is (fun p => is_root p || is_mode p) parents
  | KHelp =>
      must_not_have [tag_multi_stage; tag_required; tag_expander; tag_runtime_enable] n
      && parent_is is_root parents
  | KRoot =>
      must_not_have [tag_multi_stage; tag_no_result; tag_runtime_enable;
                     tag_runtime_enable_required] n
      && child_must_not_have tag_required n && child_must_not_have tag_alias n
      && Nat.leb (List.length (filter is_anonymous_mode (n_children n))) 1
      && (negb (existsb is_anonymous_mode (n_children n)) || at_end is_mode (n_children n))
  end.

(** utility/utf8.hpp counts on compile-time strings; [f] of the number of grapheme clusters. *)
Definition gcount_is (f : nat -> bool) (s : bytes) : bool :=
  match graphemes s with Some g => f (List.length g) | None => false end.
Definition no_whitespace (s : bytes) : bool :=
  match contains_whitespace s with Some w => negb w | None => false end.

(** The owners of the names referenced by an alias or dependent exist, are as many as the names, and
    are different types (policy/alias.hpp:202-209, policy/dependent.hpp:130-137). *)
Fixpoint distinct_ids (ns : list node) : bool :=
  match ns with
  | [] => true
  | n :: ns' => negb (existsb (fun m => N.eqb (n_id m) (n_id n)) ns') && distinct_ids ns'
  end.
Definition refs_ok (ns : list nameref) (mode : node) : bool :=
  let ts := ref_owners ns mode in
  Nat.eqb (List.length ts) (List.length ns) && distinct_ids ts && negb (Nat.eqb (List.length ns) 0).

(** Type equality of two alias_t or two dependent_t: the same names in the same order. *)
Definition nameref_eqb (r q : nameref) : bool :=
  match r, q with
  | NLong s, NLong s' | NShort s, NShort s' => beq s s'
  | _, _ => false
  end.
Fixpoint same_refs (ns ms : list nameref) : bool :=
  match ns, ms with
  | [], [] => true
  | r :: ns', q :: ms' => nameref_eqb r q && same_refs ns' ms'
  | _, _ => false
  end.

Definition alias_refs (n : node) : option (list nameref) :=
  first_some (fun p => match p with PAlias ns => Some ns | _ => None end) (n_pols n).
Definition dependent_refs (n : node) : option (list nameref) :=
  first_some (fun p => match p with PDependent ns => Some ns | _ => None end) (n_pols n).

(** policy/alias.hpp:212-239 and policy/dependent.hpp:141-171 [cyclic_dependency_checker]: none of the
    targets, nor of their targets and so on, has this same policy, and the names of each policy on the
    way are found under this policy's mode, as many as there are.  The C++ keeps one list to which
    the targets of each element are appended; a cycle that does not include this policy makes it grow
    without end, which does not compile either.  Here the targets are followed to a depth beyond
    which there is a cycle. *)
Fixpoint no_cycle (refs : node -> option (list nameref)) (mode : node) (self : list nameref) (depth : nat)
         (ts : list node) : bool :=
  match depth with
  | O => match ts with [] => true | _ :: _ => false end
  | S d =>
      forallb (fun t => match refs t with
                        | None => true
                        | Some ns => negb (same_refs ns self) && refs_ok ns mode
                                     && no_cycle refs mode self d (ref_owners ns mode)
                        end) ts
  end.
Definition acyclic (refs : node -> option (list nameref)) (mode : node) (ns : list nameref) : bool :=
  no_cycle refs mode ns (S (List.length (preorder mode []))) (ref_owners ns mode).

(** The static_asserts of the policy classes.  Not modelled: that the limits of min_max_value_ct (the form of
    min_max_value whose limits are types) are in order, policy/min_max_value.hpp:100-126. *)
Definition policy_static (p : policy) (owner : node) (parents : list node) : bool :=
  match p with
  | PLongName s =>                                               (* policy/long_name.hpp:42-45 *)
      gcount_is (Nat.ltb 1) s && no_whitespace s
  | PShortName s =>                                              (* policy/short_name.hpp:49-51 *)
      gcount_is (Nat.eqb 1) s && negb (beq (short_prefix ++ s) long_prefix)
  | PNoneName s =>                                               (* policy/none_name.hpp:45-48 *)
      gcount_is (Nat.ltb 1) s && no_whitespace s
  | PDisplayName s => negb (beq s [])                            (* policy/display_name.hpp:48 *)
  | PErrorName s => negb (beq s [])                              (* policy/error_name.hpp:46 *)
  | PDescription s => negb (beq s [])                            (* policy/description.hpp:42 *)
  | PMinMaxCount mn mx => N.leb mn mx && N.leb mx size_max       (* policy/min_max_count.hpp:40 *)
  | PValueSeparator s =>                                         (* policy/value_separator.hpp:33-36,85 *)
      gcount_is (Nat.eqb 1) s
      && negb (is_whitespace s)
      && match count_bounds owner with Some (mn, mx) => N.eqb mn 1 && N.eqb mx 1 | None => false end
  | PTokenEndMarker s =>                                         (* policy/token_end_marker.hpp:77-82,97-100 *)
      gcount_is (Nat.ltb 0) s && no_whitespace s
      && match count_bounds owner with Some (mn, mx) => negb (N.eqb mn mx) | None => false end
      && negb (has_multi_stage owner)
  | PShortFormExpander => is_some (short_name owner)             (* policy/short_form_expander.hpp:61-65 *)
  | PRuntimeEnable _ =>                                          (* policy/runtime_enable.hpp:61-62; two
      runtime_enabled() members would be ambiguous *)
      negb (has_tag tag_required owner) && negb (has_tag tag_runtime_enable_required owner)
  | PRuntimeEnableRequired _ _ =>
      negb (has_tag tag_required owner) && negb (has_tag tag_runtime_enable owner)
  | PAlias ns =>                                                 (* policy/alias.hpp:67-85,189-252 *)
      must_not_have [tag_custom_parser; tag_min_max_value; tag_router] owner
      && match count_bounds owner, nearest_mode_like (owner :: parents) with
         | Some (mn, mx), Some mode =>
             N.eqb mn mx && refs_ok ns mode
             && forallb (fun t => match count_bounds t with
                                  | Some (tn, tx) => N.eqb tn tx && N.eqb tn mn
                                  | None => false
                                  end) (ref_owners ns mode)
             && acyclic alias_refs mode ns
         | _, _ => false
         end
  | PDependent ns =>                                             (* policy/dependent.hpp:54-62 *)
      match nearest_mode_like parents with
      | Some mode => refs_ok ns mode && acyclic dependent_refs mode ns
      | None => false
      end
  | PProgramName s =>                                            (* policy/program_name.hpp:45-48 *)
      gcount_is (Nat.ltb 1) s && no_whitespace s
  | PProgramVersion s | PProgramIntro s | PProgramAddendum s =>  (* policy/program_version.hpp:44-45,
      policy/program_intro.hpp:44-45, policy/program_addendum.hpp:44-45 *)
      gcount_is (Nat.ltb 1) s
  | _ => true
  end.

Definition has_missing_phase (n : node) : bool :=
  existsb (fun p => match p with
                    | PDefaultValue _ | PRequired | PRuntimeEnableRequired _ _ => true
                    | _ => false
                    end) (n_pols n).

Definition has_pre_parse_phase (n : node) : bool :=
  existsb (fun p => match p with
                    | PValueSeparator _ | PShortFormExpander | PRuntimeEnable _
                    | PRuntimeEnableRequired _ _ | PTokenEndMarker _ | PMinMaxCount _ _
                    | PAlias _ | PDependent _ => true
                    | _ => false
                    end) (n_pols n).

Definition no_children (n : node) : bool := match n_children n with [] => true | _ => false end.

Definition has_lname (n : node) : bool := is_some (long_name n).
Definition has_sname (n : node) : bool := is_some (short_name n).
Definition has_nname (n : node) : bool := is_some (none_name n).
Definition has_dname (n : node) : bool := is_some (display_name n).

(** multi_arg_base.hpp:40-52, tree_node.hpp:640-664 (at most one parse phase and one missing phase:
    parse phases are at most one by [unique_in_owner]). *)
Definition arg_base_static (n : node) : bool :=
  no_children n
  && match count_bounds n with
     | Some (mn, mx) => negb (N.eqb mn 0 && N.eqb mx 0)
                        && ((N.eqb mn 1 && N.eqb mx 1) || vt_container (n_ty n))
     | None => false
     end
  && (has_lname n || has_sname n || has_nname n || has_dname n)
  && Nat.leb (List.length (filter (fun p => match p with
                                            | PDefaultValue _ | PRequired
                                            | PRuntimeEnableRequired _ _ => true
                                            | _ => false
                                            end) (n_pols n))) 1.

(** dependency/detail.hpp:120-165 *)
Definition one_of_base_static (n : node) : bool :=
  Nat.leb 2 (List.length (n_children n))
  && negb (has_lname n) && negb (has_sname n) && negb (has_nname n)
  && negb (has_tag tag_description n)
  && has_missing_phase n
  && negb (has_pre_parse_phase n) && negb (has_tag tag_custom_parser n) && negb (has_router n)
  && existsb (fun c => negb (no_result_value c)) (n_children n).

(** The static_asserts of the node classes.  Not modelled: that the members of an alias_group have the same
    value_type (dependency/alias_group.hpp:45-48), as value types are functions here. *)
Definition node_static (n : node) (parents : list node) : bool :=
  match n_kind n with
  | KFlag =>                                                     (* flag.hpp:35-45,106-112 *)
      no_children n && (has_lname n || has_sname n) && negb (has_dname n) && negb (has_nname n)
      && must_not_have [tag_custom_parser; tag_min_max_value] n
      && match count_bounds n with Some (0%N, 0%N) => true | _ => false end
  | KCountingFlag =>                                             (* counting_flag.hpp:36-46,104-108 *)
      no_children n && (has_lname n || has_sname n) && negb (has_dname n) && negb (has_nname n)
      && must_not_have [tag_custom_parser; tag_router] n
      && has_tag tag_multi_stage n
      && match count_bounds n with Some (0%N, 0%N) => true | _ => false end
  | KArg AArg =>                                                 (* arg.hpp:29-42 *)
      arg_base_static n && negb (has_nname n) && negb (has_dname n)
      && match count_bounds n with Some (1%N, 1%N) => true | _ => false end
  | KArg AMulti =>                                               (* multi_arg.hpp:27-41,85-88 *)
      arg_base_static n && negb (has_nname n) && negb (has_dname n) && negb (has_router n)
      && match count_bounds n with
         | Some (mn, mx) => negb (N.eqb mn 1 && N.eqb mx 1) && N.leb 1 mn
         | None => false
         end
  | KArg APositional =>                                          (* positional_arg.hpp:32-39,89-92 *)
      arg_base_static n && has_dname n && negb (has_lname n) && negb (has_sname n)
      && negb (has_nname n) && negb (has_router n)
  | KArg AForwarding =>                                          (* forwarding_arg.hpp:28-32,80-83 *)
      arg_base_static n && negb (has_dname n) && negb (has_lname n) && negb (has_sname n)
      && negb (has_router n)
  | KOneOf _ =>                                                  (* dependency/one_of.hpp:23-36 *)
      one_of_base_static n && forallb (fun c => negb (has_multi_stage c)) (n_children n)
      && negb (has_tag tag_min_max_value n)
  | KAliasGroup =>                                               (* dependency/alias_group.hpp:42-66 *)
      one_of_base_static n
      && forallb (fun c => negb (has_multi_stage c && negb (no_result_value c)
                                 && has_tag tag_min_max_value c)) (n_children n)
  | KMode =>                                                     (* mode.hpp:65-72,106-109,212-230,246-248 *)
      negb (no_children n)
      && negb (has_lname n) && negb (has_sname n) && negb (has_dname n)
      && (negb (is_anonymous n) || negb (has_tag tag_description n))
      && (is_anonymous n || negb (is_some (error_name n)))
      && (negb (is_anonymous n) || forallb (fun c => negb (is_mode c)) (n_children n))
      && negb (has_tag tag_custom_parser n) && negb (has_tag tag_min_max_value n)
      && negb (has_missing_phase n)
      && forallb (fun c => is_mode c || negb (has_router c)) (n_children n)
      && (negb (is_anonymous n) || Nat.leb (List.length parents) 1)
      && has_tag tag_no_result n
      && (is_some (none_name n) || is_some (error_name n))
      (* mode.hpp:407-413 *)
      && (has_router n || (negb (is_anonymous n) && forallb is_mode (n_children n)))
  | KHelp =>                                                     (* help.hpp:57-64,228-233 *)
      no_children n && (has_lname n || has_sname n) && negb (has_dname n) && negb (has_nname n)
      && negb (has_tag tag_custom_parser n) && negb (has_tag tag_min_max_value n)
      && negb (has_missing_phase n) && has_tag tag_no_result n
      && match count_bounds n with Some (mn, mx) => N.eqb mn 0 && N.eqb mx size_max | None => false end
  | KRoot =>                                                     (* root.hpp:63-97 *)
      negb (has_pre_parse_phase n) && negb (has_tag tag_custom_parser n)
      && negb (has_tag tag_min_max_value n) && negb (has_router n) && negb (has_missing_phase n)
      && negb (has_lname n) && negb (has_sname n) && negb (has_nname n) && negb (has_dname n)
      && negb (is_some (error_name n)) && negb (has_tag tag_description n)
      && negb (no_children n)
      && forallb (fun c => no_result_value c || has_router c) (n_children n)
      && match parents with [] => true | _ => false end
  end.

(** Everything checked at one node with the given ancestry. *)
Definition node_ok (np : node * list node) : bool :=
  let '(n, parents) := np in
  node_static n parents && node_rules n parents
  && forallb (fun p => policy_static p n parents && policy_rules p n parents) (n_pols n).

(** root.hpp:121-140 and policy/validator.hpp:138-157: the whole tree. *)
Definition accepted (r : node) : bool := is_root r && forallb node_ok (preorder r []).

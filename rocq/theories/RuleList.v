(** Model of policy/validator.hpp as it is written, a list of rules that is searched for each node and policy
    of the tree, with the conditions of the default rules; and of policy/validator_rule_utilities.hpp, which
    edits such lists.  {!Validator.v} has the same checks by case on the node and policy classes. *)
From Verif Require Import Bytes Token Result CodePoint Utf8 Tree PreParse Validator.

(** ** Classes *)

(** What a type that is visited is: a node or a policy. *)
Inductive item := INode (n : node) | IPol (p : policy).

(** The class templates, as numbers: the policies have those of [pol_tag]. *)
Definition tag_validator := 27%N.
Definition tag_translator := 28%N.
Definition c_flag := 101%N.
Definition c_counting_flag := 102%N.
Definition c_arg := 103%N.
Definition c_multi_arg := 104%N.
Definition c_positional_arg := 105%N.
Definition c_forwarding_arg := 106%N.
Definition c_one_of := 107%N.
Definition c_alias_group := 108%N.
Definition c_mode := 109%N.
Definition c_help := 110%N.
Definition c_root := 111%N.

(** The class of a node, if it is one of the library's. *)
Definition library_class (n : node) : N :=
  match n_kind n with
  | KFlag => c_flag
  | KCountingFlag => c_counting_flag
  | KArg AArg => c_arg
  | KArg AMulti => c_multi_arg
  | KArg APositional => c_positional_arg
  | KArg AForwarding => c_forwarding_arg
  | KOneOf _ => c_one_of
  | KAliasGroup => c_alias_group
  | KMode => c_mode
  | KHelp => c_help
  | KRoot => c_root
  end.

(** ** Rules *)

(** A rule's first element: common_rules::despecialised_any_of_rule (policy/validator.hpp:168-178), or
    mp_quote<policy::is_policy> of [rule<policy::is_policy, ..>] (:77,652). *)
Inductive key := AnyOf (cs : list N) | AnyPolicy.

(** The conditions, policy/validator.hpp:183-594.  Simplification: the template parameters that say which
    types are modes, always mode_t in the default rules, are left out. *)
Inductive condition :=
| UniqueInOwner                        (* despecialised_unique_in_owner *)
| UniqueToMode                         (* policy_unique_from_owner_parent_to_mode_or_root<mode_t> *)
| ParentTypes (l : list (nat * N))     (* parent_types<parent_index_pair_type<..>..> *)
| MustHave (ts : list N)               (* must_have_policies *)
| MustNotHave (ts : list N)            (* must_not_have_policies *)
| ChildMustHave (t : N)                (* child_must_have_policy *)
| ChildMustNotHave (t : N)             (* child_must_not_have_policy *)
| AtLeastOneOf (ts : list N)           (* at_least_one_of_policies *)
| OwnerMustNotHave (t : N)             (* policy_parent_must_not_have_policy *)
| SingleAnonymousMode                  (* single_anonymous_mode<mode_t> *)
| TypesAtEnd (cs : list N)             (* node_types_must_be_at_end *)
| AnonymousModeAtEnd                   (* anonymous_mode_must_be_at_end<mode_t> *)
| ListLikeAtEnd                        (* list_like_nodes_must_have_fixed_count_if_not_at_end *)
| MinimumOneIfRequired.                (* must_have_at_least_min_count_of_1_if_required *)

(** policy/validator.hpp:77,97 [rule], [rule_q]. *)
Definition rule : Type := key * list condition.

Section Classes.
  (** The class of each node and of each policy; users may have classes of their own. *)
  Variable cls : node -> N.
  Variable pcls : policy -> N.

  Definition class_of (x : item) : N := match x with INode n => cls n | IPol p => pcls p end.

  (** policy/validator.hpp:174-177, and [policy::is_policy]. *)
  Definition matches (k : key) (x : item) : bool :=
    match k with
    | AnyOf cs => existsb (N.eqb (class_of x)) cs
    | AnyPolicy => match x with IPol _ => true | INode _ => false end
    end.

  (** Does a node have a policy of a class?  The trees of {!Tree.v} leave out the validator, which is a policy
      of the root only, so it is put in here. *)
  Definition carries (n : node) (t : N) : bool :=
    existsb (fun p => N.eqb (pcls p) t) (n_pols n) || (is_root n && N.eqb t tag_validator).

  (** [is_mode] of the conditions (policy/validator.hpp:222-225, 423-426, 514-517): a specialisation of mode_t. *)
  Definition mode_class (n : node) : bool := N.eqb (cls n) c_mode.
  (** [is_anonymous_mode] (:428-436, 519-527). *)
  Definition anonymous_mode (n : node) : bool := mode_class n && is_anonymous n.

  (** policy/validator.hpp:206-241: the nodes under [start] (which is not skipped itself) that are
      reached without entering another mode type, each with its path down from [start]. *)
  Fixpoint paths_from (start : node) (n : node) (above : list node) : list (list node) :=
    if mode_class n && negb (N.eqb (n_id n) (n_id start)) then []
    else (n :: above) :: match n with Node _ _ _ _ cs => flat_map (fun c => paths_from start c (n :: above)) cs end.

  (** policy/validator.hpp:243-262.  Types of policies are compared by {!same_name_policy}, so this is the
      condition for names only. *)
  Definition unique_up_to_mode (p : policy) (owner : node) (above : list node) : bool :=
    match above with
    | [] => true
    | _ =>
        let path := take_until mode_class (owner :: above) in
        let start := last path owner in
        forallb (fun path' =>
                   ids_eqb (ids path') (ids path)
                   || match path' with
                      | [] => true
                      | n :: _ => forallb (fun q => negb (same_name_policy p q)) (n_pols n)
                      end)
                (paths_from start start [])
    end.

  (** [check<T, Parents...>()] of each condition: does it compile?  The nearest parent is first; it is the
      owner if T is a policy.  Those that are for nodes do not compile for policies and the other way round,
      except that [UniqueToMode] is only modelled for policies. *)
  Definition check (c : condition) (x : item) (ps : list node) : bool :=
    match c with
    | UniqueInOwner =>                                                       (* policy/validator.hpp:183-195 *)
        match ps with
        | [] => true
        | owner :: _ => Nat.eqb (List.length (filter (fun q => N.eqb (pcls q) (class_of x)) (n_pols owner))) 1
        end
    | UniqueToMode =>                                                        (* :202-263 *)
        match x, ps with
        | IPol p, owner :: above => unique_up_to_mode p owner above
        | _, _ => true
        end
    | ParentTypes l =>                                                       (* :290-320 *)
        existsb (fun e => match nth_error ps (fst e) with
                          | Some q => N.eqb (cls q) (snd e)
                          | None => false
                          end) l
    | MustHave ts =>                                                         (* :327-338 *)
        match x with INode n => forallb (carries n) ts | IPol _ => false end
    | MustNotHave ts =>                                                      (* :345-356 *)
        match x with INode n => forallb (fun t => negb (carries n t)) ts | IPol _ => false end
    | ChildMustHave t =>                                                     (* :358-380 *)
        match x with INode n => forallb (fun d => carries d t) (n_children n) | IPol _ => false end
    | ChildMustNotHave t =>                                                  (* :387-396 *)
        match x with
        | INode n => match n_children n with
                     | [] => true
                     | cs => negb (forallb (fun d => carries d t) cs)
                     end
        | IPol _ => false
        end
    | OwnerMustNotHave t =>                                                  (* :401-412 *)
        match x, ps with
        | IPol _, owner :: _ => negb (carries owner t)
        | _, _ => false
        end
    | AtLeastOneOf ts =>                                                     (* :452-464 *)
        match x with INode n => Nat.leb 2 (List.length ts) && existsb (carries n) ts | IPol _ => false end
    | SingleAnonymousMode =>                                                 (* :420-446 *)
        match x with
        | INode n => Nat.leb (List.length (filter anonymous_mode (n_children n))) 1
        | IPol _ => false
        end
    | TypesAtEnd cs =>                                                       (* :472-503 *)
        match x with
        | INode n => Nat.leb 1 (List.length cs) && at_end (fun d => existsb (N.eqb (cls d)) cs) (n_children n)
        | IPol _ => false
        end
    | AnonymousModeAtEnd =>                                                  (* :511-536 *)
        match x with
        | INode n => negb (existsb anonymous_mode (n_children n)) || at_end mode_class (n_children n)
        | IPol _ => false
        end
    | ListLikeAtEnd =>                                                       (* :545-575 *)
        match x with INode n => list_like_last (n_children n) | IPol _ => false end
    | MinimumOneIfRequired =>                                                (* :584-594 *)
        match x with INode n => min_1_if_required n | IPol _ => false end
    end.

  (** policy/validator.hpp:118-144 [validate_fn::fn]: the conditions of the first rule whose key matches; it
      does not compile if there is none. *)
  Definition validate_item (rules : list rule) (x : item) (ps : list node) : bool :=
    match find (fun r => matches (fst r) x) rules with
    | Some (_, cs) => forallb (fun c => check c x ps) cs
    | None => false
    end.

  (** utility/tree_recursor.hpp:37-54 [tree_type_recursor]: each node, then its policies, then its children.
      The policies that the trees of {!Tree.v} leave out (the validator, the exception translator, the help
      formatters) are not visited. *)
  Definition visits (r : node) : list (item * list node) :=
    flat_map (fun np => let '(n, ps) := np in (INode n, ps) :: map (fun p => (IPol p, n :: ps)) (n_pols n))
             (preorder r []).

  (** policy/validator.hpp:147-157 [validate]. *)
  Definition validate (rules : list rule) (r : node) : bool :=
    forallb (fun v => validate_item rules (fst v) (snd v)) (visits r).
End Classes.

(** policy/validator.hpp:614-735 [default_validator]. *)
Definition default_rules : list rule :=
  [(AnyOf [tag_long; tag_short], [UniqueInOwner; UniqueToMode]);
   (AnyOf [tag_none], [UniqueInOwner; UniqueToMode; OwnerMustNotHave tag_long; OwnerMustNotHave tag_short;
                       OwnerMustNotHave tag_display]);
   (AnyOf [tag_display], [UniqueInOwner; OwnerMustNotHave tag_long; OwnerMustNotHave tag_short;
                          OwnerMustNotHave tag_none]);
   (AnyOf [tag_required], [UniqueInOwner; OwnerMustNotHave tag_default]);
   (AnyOf [tag_default], [UniqueInOwner; OwnerMustNotHave tag_required]);
   (AnyOf [tag_router], [UniqueInOwner; ParentTypes [(0, c_mode); (1, c_root)]]);
   (AnyOf [tag_translator], [UniqueInOwner; ParentTypes [(0, c_root)]]);
   (AnyPolicy, [UniqueInOwner]);
   (AnyOf [c_flag], [MustNotHave [tag_multi_stage; tag_no_result; tag_required; tag_validator]]);
   (AnyOf [c_arg], [MustNotHave [tag_multi_stage; tag_no_result; tag_validator]]);
   (AnyOf [c_multi_arg], [MustNotHave [tag_multi_stage; tag_no_result; tag_validator]]);
   (AnyOf [c_forwarding_arg], [MustNotHave [tag_multi_stage; tag_no_result; tag_validator]]);
   (AnyOf [c_counting_flag], [MustNotHave [tag_no_result; tag_required; tag_validator]]);
   (AnyOf [c_positional_arg], [MustNotHave [tag_alias; tag_multi_stage; tag_no_result; tag_validator];
                               MinimumOneIfRequired]);
   (AnyOf [c_one_of], [MustNotHave [tag_no_result; tag_multi_stage; tag_validator]; ChildMustNotHave tag_required;
                       ChildMustNotHave tag_default; ParentTypes [(0, c_mode)]]);
   (AnyOf [c_one_of; c_alias_group], [MustNotHave [tag_no_result; tag_validator]; ChildMustNotHave tag_required;
                                      ChildMustNotHave tag_default; ParentTypes [(0, c_mode)]]);
   (AnyOf [c_mode], [MustNotHave [tag_multi_stage; tag_required; tag_runtime_enable_required; tag_alias; tag_dependent];
                     TypesAtEnd [c_positional_arg]; ListLikeAtEnd; ParentTypes [(0, c_root); (0, c_mode)]]);
   (AnyOf [c_help], [MustNotHave [tag_multi_stage; tag_required; tag_expander; tag_validator; tag_runtime_enable];
                     ParentTypes [(0, c_root)]]);
   (AnyOf [c_root], [MustHave [tag_validator];
                     MustNotHave [tag_multi_stage; tag_no_result; tag_runtime_enable; tag_runtime_enable_required];
                     ChildMustNotHave tag_required; ChildMustNotHave tag_alias; SingleAnonymousMode;
                     AnonymousModeAtEnd])].

(** ** policy/validator_rule_utilities.hpp.  [None]: does not compile. *)

Fixpoint tags_eqb (x y : list N) : bool :=
  match x, y with
  | [], [] => true
  | i :: x', j :: y' => N.eqb i j && tags_eqb x' y'
  | _, _ => false
  end.
(** [std::is_same] of two keys. *)
Definition key_eqb (k l : key) : bool :=
  match k, l with
  | AnyOf x, AnyOf y => tags_eqb x y
  | AnyPolicy, AnyPolicy => true
  | _, _ => false
  end.

(** validator_rule_utilities.hpp:46-54 [find_index_of_rule_type]: the length if there is none. *)
Fixpoint find_index (k : key) (rules : list rule) : nat :=
  match rules with
  | [] => O
  | r :: rules' => if key_eqb k (fst r) then O else S (find_index k rules')
  end.

(** validator_rule_utilities.hpp:62-68 *)
Definition insert_rule (i : nat) (r : rule) (rules : list rule) : option (list rule) :=
  if Nat.leb i (List.length rules) then Some (firstn i rules ++ r :: skipn i rules) else None.

(** validator_rule_utilities.hpp:84-90 *)
Definition remove_rule (i : nat) (rules : list rule) : option (list rule) :=
  if Nat.ltb i (List.length rules) then Some (firstn i rules ++ skipn (S i) rules) else None.

(** validator_rule_utilities.hpp:106-121: the list as it is if there is no such rule. *)
Definition remove_rule_by_type (k : key) (rules : list rule) : option (list rule) :=
  let i := find_index k rules in
  if Nat.ltb i (List.length rules) then Some (firstn i rules ++ skipn (S i) rules) else Some rules.

(** validator_rule_utilities.hpp:136-142 *)
Definition update_rule (i : nat) (r : rule) (rules : list rule) : option (list rule) :=
  if Nat.ltb i (List.length rules) then Some (firstn i rules ++ r :: skipn (S i) rules) else None.

(** validator_rule_utilities.hpp:159-168 *)
Definition update_rule_by_type (k : key) (r : rule) (rules : list rule) : option (list rule) :=
  update_rule (find_index k rules) r rules.

(** validator_rule_utilities.hpp:16-34,201-214 [add_to_rule_types].  The appender takes a template of class
    templates, which mp_quote<policy::is_policy> is not. *)
Definition add_to_rule_types (i : nat) (c : N) (rules : list rule) : option (list rule) :=
  match nth_error rules i with
  | Some (AnyOf cs, conds) => Some (firstn i rules ++ (AnyOf (cs ++ [c]), conds) :: skipn (S i) rules)
  | _ => None
  end.

(** validator_rule_utilities.hpp:231-240 *)
Definition add_to_rule_types_by_rule (k : key) (c : N) (rules : list rule) : option (list rule) :=
  add_to_rule_types (find_index k rules) c rules.

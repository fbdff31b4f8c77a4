(** The parse tree: policies, nodes and values (tree_node.hpp and the built-in node types). *)
From Verif Require Import Bytes Token Result CodePoint Utf8.

(** Runtime values delivered to routers.  The C++ code is generic in the value types; the model
    uses one universal type. *)
Inductive value :=
| VBool (x : bool)
| VInt (z : Z)
| VStr (s : bytes)
| VList (l : list value).

(** The name policies that can be parameters of [alias] and [dependent] (alias.hpp:158-168,
    dependent.hpp:94-105): long or short names. *)
Inductive nameref := NLong (s : bytes) | NShort (s : bytes).

(** The built-in policies (policy/*.hpp).  [PMinMaxCount] also stands for fixed_count, min_count and
    max_count (policy/min_max_count.hpp:119-190).  User-written policies are not modelled. *)
Inductive policy :=
| PLongName (s : bytes)                                   (* policy/long_name.hpp *)
| PShortName (s : bytes)                                  (* policy/short_name.hpp *)
| PNoneName (s : bytes)                                   (* policy/none_name.hpp *)
| PDisplayName (s : bytes)                                (* policy/display_name.hpp *)
| PErrorName (s : bytes)                                  (* policy/error_name.hpp *)
| PDescription (s : bytes)                                (* policy/description.hpp *)
| PMinMaxCount (mn mx : N)                                (* policy/min_max_count.hpp *)
| PMinMaxValue (mn mx : option value) (lt : value -> value -> bool) (* policy/min_max_value.hpp *)
| PValueSeparator (s : bytes)                             (* policy/value_separator.hpp *)
| PShortFormExpander                                      (* policy/short_form_expander.hpp *)
| PRuntimeEnable (enabled : bool)                         (* policy/runtime_enable.hpp:24-70 *)
| PRuntimeEnableRequired (enabled : bool) (d : value)     (* policy/runtime_enable.hpp:77-122 *)
| PTokenEndMarker (s : bytes)                             (* policy/token_end_marker.hpp *)
| PDefaultValue (v : value)                               (* policy/default_value.hpp *)
| PRequired                                               (* policy/required.hpp *)
| PAlias (ns : list nameref)                              (* policy/alias.hpp *)
| PDependent (ns : list nameref)                          (* policy/dependent.hpp *)
| PRouter                                                 (* policy/router.hpp *)
| PCustomParser (f : bytes -> res value)                  (* policy/custom_parser.hpp *)
| PMultiStage (merge : option value -> value -> value)    (* policy/multi_stage_value.hpp *)
| PNoResultValue                                          (* policy/no_result_value.hpp *)
| PFlattenHelp                                            (* policy/flatten_help.hpp *)
| PProgramName (s : bytes)                                (* policy/program_name.hpp *)
| PProgramVersion (s : bytes)                             (* policy/program_version.hpp *)
| PProgramIntro (s : bytes)                               (* policy/program_intro.hpp *)
| PProgramAddendum (s : bytes).                           (* policy/program_addendum.hpp *)

(** The classes derived from multi_arg_base_t, which share its behaviour and differ only in their
    policies and compile-time checks: arg.hpp, multi_arg.hpp, positional_arg.hpp,
    forwarding_arg.hpp. *)
Inductive argclass := AArg | AMulti | APositional | AForwarding.

(** Which class template the node is an instance of.  The argument of [KOneOf] is the address of the
    one_of_t object, which owns mutable state (dependency/one_of.hpp:132). *)
Inductive kind :=
| KFlag                 (* flag.hpp *)
| KArg (c : argclass)   (* multi_arg_base.hpp and the classes derived from it *)
| KCountingFlag         (* counting_flag.hpp *)
| KAliasGroup           (* dependency/alias_group.hpp *)
| KOneOf (inst : N)     (* dependency/one_of.hpp *)
| KMode                 (* mode.hpp *)
| KHelp                 (* help.hpp *)
| KRoot.                (* root.hpp *)

(** [value_type] of a node: whether it is a push_back container (and not a string), the result of
    [parser<T>::parse] for one element, and the value-initialised value. *)
Record vtype := VT {
  vt_container : bool;
  vt_parse : bytes -> res value;
  vt_init : value
}.

(** A node: its class, its type hash (utility/type_hash.hpp: equal hashes iff equal C++ types), its
    value_type, its policies in declaration order (the defaults that the class adds included) and
    its children (tree_node.hpp:57-59, lists already flattened). *)
Inductive node := Node (k : kind) (id : N) (ty : vtype) (ps : list policy) (cs : list node).

Definition n_kind (n : node) := let 'Node k _ _ _ _ := n in k.
Definition n_id (n : node) := let 'Node _ i _ _ _ := n in i.
Definition n_ty (n : node) := let 'Node _ _ t _ _ := n in t.
Definition n_pols (n : node) := let 'Node _ _ _ ps _ := n in ps.
Definition n_children (n : node) := let 'Node _ _ _ _ cs := n in cs.

(** First policy satisfying a partial selector. *)
Fixpoint first_some {A B} (f : A -> option B) (l : list A) : option B :=
  match l with
  | [] => None
  | x :: l' => match f x with Some y => Some y | None => first_some f l' end
  end.

(** traits.hpp [has_long_name_method] and the inherited accessor; same shape for the others. *)
Definition long_name (n : node) : option bytes :=
  first_some (fun p => match p with PLongName s => Some s | _ => None end) (n_pols n).
Definition short_name (n : node) : option bytes :=
  first_some (fun p => match p with PShortName s => Some s | _ => None end) (n_pols n).
Definition none_name (n : node) : option bytes :=
  first_some (fun p => match p with PNoneName s => Some s | _ => None end) (n_pols n).
Definition display_name (n : node) : option bytes :=
  first_some (fun p => match p with PDisplayName s => Some s | _ => None end) (n_pols n).
Definition error_name (n : node) : option bytes :=
  first_some (fun p => match p with PErrorName s => Some s | _ => None end) (n_pols n).
Definition description (n : node) : option bytes :=
  first_some (fun p => match p with PDescription s => Some s | _ => None end) (n_pols n).
Definition count_bounds (n : node) : option (N * N) :=
  first_some (fun p => match p with PMinMaxCount a c => Some (a, c) | _ => None end) (n_pols n).
Definition value_separator (n : node) : option bytes :=
  first_some (fun p => match p with PValueSeparator s => Some s | _ => None end) (n_pols n).
Definition token_end_marker (n : node) : option bytes :=
  first_some (fun p => match p with PTokenEndMarker s => Some s | _ => None end) (n_pols n).
Definition runtime_enabled (n : node) : option bool :=
  first_some (fun p => match p with
                       | PRuntimeEnable e => Some e
                       | PRuntimeEnableRequired e _ => Some e
                       | _ => None
                       end) (n_pols n).
Definition multi_stage (n : node) : option (option value -> value -> value) :=
  first_some (fun p => match p with PMultiStage m => Some m | _ => None end) (n_pols n).
Definition custom_parser (n : node) : option (bytes -> res value) :=
  first_some (fun p => match p with PCustomParser f => Some f | _ => None end) (n_pols n).

Definition is_some {A} (o : option A) : bool := match o with Some _ => true | None => false end.

(** policy/no_result_value.hpp:24-32; policy/alias.hpp:22 (alias_t derives from it). *)
Definition no_result_value (n : node) : bool :=
  existsb (fun p => match p with PNoResultValue | PAlias _ => true | _ => false end) (n_pols n).

(** policy/policy.hpp [has_routing_phase_method] over the node's policies. *)
Definition has_router (n : node) : bool :=
  existsb (fun p => match p with PRouter => true | _ => false end) (n_pols n).

(** policy/multi_stage_value.hpp:58-80 *)
Definition has_multi_stage (n : node) : bool := is_some (multi_stage n).

(** tree_node.hpp:68-70 *)
Definition is_named (n : node) : bool :=
  is_some (long_name n) || is_some (short_name n) || is_some (none_name n).

Definition is_mode (n : node) : bool := match n_kind n with KMode => true | _ => false end.

(** mode.hpp:104 *)
Definition is_anonymous (n : node) : bool := negb (is_some (none_name n)).

(** traits.hpp [has_parse_method]: alias_group_t, one_of_t and root_t have no
    [parse(parse_target, parents...)]. *)
Definition has_parse_method (n : node) : bool :=
  match n_kind n with
  | KFlag | KArg _ | KCountingFlag | KMode | KHelp => true
  | KAliasGroup | KOneOf _ | KRoot => false
  end.

(** parsing/parsing.hpp:36-57 [match<T>]. *)
Definition match_node (n : node) (t : token) : bool :=
  match long_name n with
  | Some s => prefix_eqb (t_prefix t) PLong && beq (t_name t) s | None => false end
  || match short_name n with
     | Some s => prefix_eqb (t_prefix t) PShort && beq (t_name t) s | None => false end
  || match none_name n with
     | Some s => prefix_eqb (t_prefix t) PNone && beq (t_name t) s | None => false end.

(** parsing/parsing.hpp:68-83 [node_token_type].  A node with no name at all is a compile error
    there; the model returns an empty name, and {!Validator.v} excludes it. *)
Definition node_token (n : node) : token :=
  match error_name n, display_name n, long_name n, short_name n, none_name n with
  | Some s, _, _, _, _ => Tok PNone s
  | None, Some s, _, _, _ => Tok PNone s
  | None, None, Some s, _, _ => Tok PLong s
  | None, None, None, Some s, _ => Tok PShort s
  | None, None, None, None, Some s => Tok PNone s
  | None, None, None, None, None => Tok PNone []
  end.

(** parsing/token_type.hpp:127-146 at a node. *)
Definition node_get_token (n : node) (s : bytes) : token :=
  get_token_type_for (is_some (long_name n)) (is_some (short_name n)) s.

(** The idiom "if the prefix is none then convert" (tree_node.hpp:601-605 and others). *)
Definition norm_token (n : node) (t : token) : token :=
  match t_prefix t with PNone => node_get_token n (t_name t) | _ => t end.

(** parsing/parsing.hpp:133-147 [is_runtime_disabled]. *)
Definition is_runtime_disabled (ns : list node) : bool :=
  existsb (fun n => match runtime_enabled n with Some e => negb e | None => false end) ns.

(** utility/tree_recursor.hpp:22-34: pre-order visit; each node with its parents, nearest first. *)
Fixpoint preorder (n : node) (parents : list node) : list (node * list node) :=
  (n, parents) ::
  match n with
  | Node _ _ _ _ cs => flat_map (fun c => preorder c (n :: parents)) cs
  end.

(** Does the policy equal the referenced name policy (type equality of name policies, taken to be equality of
    the texts; see {!CtString.v})? *)
Definition nameref_is (r : nameref) (p : policy) : bool :=
  match r, p with
  | NLong s, PLongName s' => beq s s'
  | NShort s, PShortName s' => beq s s'
  | _, _ => false
  end.

(** [mp_set_intersection<aliased_policies_type, policies_type>] is non-empty
    (policy/alias.hpp:121-126). *)
Definition refers_to (ns : list nameref) (n : node) : bool :=
  existsb (fun r => existsb (nameref_is r) (n_pols n)) ns.

(** policy/policy.hpp:206-229 [nearest_mode_like]: the first of the list that has a router. *)
Definition nearest_mode_like (ns : list node) : option node := find has_router ns.

(** policy priorities: the [priority] member of each policy (absent: 0, tree_node.hpp:29-44). *)
Definition priority (p : policy) : N :=
  match p with
  | PValueSeparator _ => 1000      (* policy/value_separator.hpp:43 *)
  | PShortFormExpander => 900      (* policy/short_form_expander.hpp:28 *)
  | PRuntimeEnable _ => 800        (* policy/runtime_enable.hpp:28 *)
  | PRuntimeEnableRequired _ _ => 800
  | PTokenEndMarker _ => 760       (* policy/token_end_marker.hpp:37 *)
  | PMinMaxCount _ _ => 750        (* policy/min_max_count.hpp:45 *)
  | PDefaultValue _ => 500         (* policy/default_value.hpp:24 *)
  | PRequired => 450               (* policy/required.hpp:23 *)
  | PAlias _ => 100                (* policy/alias.hpp:29 *)
  | _ => 0
  end%N.

(** Insertion into a list sorted by descending priority, after the equals. *)
Fixpoint insert_policy (p : policy) (l : list policy) : list policy :=
  match l with
  | [] => [p]
  | q :: l' => if N.ltb (priority q) (priority p) then p :: q :: l' else q :: insert_policy p l'
  end.

(** tree_node.hpp:29-54 [priority_ordered_policies_type] = mp_sort by [a > b].  mp_sort
    (mp11 quicksort: [mp_sort] partitions the tail by [b < pivot] keeping order) is stable for a
    strict order; the model is the stable sort. *)
Definition priority_order (ps : list policy) : list policy :=
  fold_left (fun acc p => insert_policy p acc) ps [].

(** Whole command lines: C02, C03, C05-C09, C11, C12, C16, C18, C38-C40, C42, C46, C48, C49.

    [fresh r mem args]: the tree compiles and is well formed, its one_ofs have no state from earlier
    parses.  [calls_router r mem args m vs]: the parse of [args] calls the router of [m] with the
    arguments [vs].  [typed r args m ts items]: what was typed; there is exactly one such [items] for a
    command line of a mode (C03). *)
From Verif Require Import Bytes Token Result CodePoint Utf8 Tree PreParse Parse Root Build Validator.
From Verif Require Import SpecTake SpecMode SpecDeliver SpecRoot SpecReading SpecClaims.
From Verif Require Import ExactProofs ClaimProofs RunProofs Demo.

(** ** C03, C46: the meaning of a command line *)

(** The router of [n] is called with [vs] exactly if the command line means this. *)
Theorem c03_meaning : forall r mem args n vs, fresh r mem args ->
  calls_router r mem args n vs <-> routes r args n vs.
Proof. exact fresh_routes. Qed.
Print Assumptions c03_meaning.

(** There is only one way to read a command line. *)
Theorem c03_unambiguous : forall r args m ts items m' ts' items',
  typed r args m ts items -> typed r args m' ts' items' -> m = m' /\ ts = ts' /\ items = items'.
Proof. exact typed_det. Qed.
Print Assumptions c03_unambiguous.

(** Every token is accounted for: apart from the names of the modes, the command line is the text of the
    items in order, once groups of short flags, labels with separators and end markers are written out. *)
Theorem c03_every_token : forall r mem args m vs,
  fresh r mem args -> calls_router r mem args m vs -> is_mode m = true -> tidy m ->
  exists names ts items final,
    args = map (Tok PNone) names ++ ts /\ typed r args m ts items
    /\ respelled m ts final /\ map token_str final = flat_map item_text items.
Proof. exact every_token. Qed.
Print Assumptions c03_every_token.

Example c03_example :
  fresh demo [] ex1 /\ calls_router demo [] ex1 d_copy ex1_values /\ routes demo ex1 d_copy ex1_values
  /\ tidy d_copy /\ exists ts items, typed demo ex1 d_copy ts items.
Proof.
  split; [exact ex1_fresh|]. split; [exact ex1_run|].
  split; [exact (proj1 (c03_meaning _ _ _ _ _ ex1_fresh) ex1_run)|]. split; [|exact ex1_typed].
  intros l (c & Hc & _ & Hl) Hs Hx.
  repeat destruct Hc as [<-|Hc]; try contradiction; repeat destruct Hl as [<-|Hl]; try contradiction;
    try (now apply Hs); repeat destruct Hx as [Hx|Hx]; try discriminate; contradiction.
Qed.

(** ** C02 *)

Theorem c02_one_call : forall r mem args, accepted r = true ->
  let o := root_parse r mem args in
  List.length (o_events o) <= 1
  /\ (o_res o = Ok tt -> List.length (o_events o) = 1)
  /\ (forall n vs, In (EvRoute n vs) (o_events o) -> o_res o = Ok tt /\ In n (below r) /\ has_router n = true).
Proof. exact calls_one. Qed.
Print Assumptions c02_one_call.

Example c02_example :
  accepted demo = true
  /\ error_of ["copy"; "--width"; "5"; "--unknown"; "--"; "d"; "e"]%string = Some unknown_argument_with_suggestion
  /\ values_of ["copy"; "--width"; "5"; "--unknown"; "--"; "d"; "e"]%string = None.
Proof. repeat split; vm_compute; reflexivity. Qed.

(** ** C05 *)

(** No argument is typed twice, unless it accumulates; *)
Theorem c05_typed_once : forall r mem args m ts items, fresh r mem args -> typed r args m ts items ->
  NoDup (map (fun it => n_id (i_node it)) (single_use items)).
Proof. exact run_once. Qed.
Print Assumptions c05_typed_once.

(** and none has two values, neither by itself nor through aliases or other members of its group. *)
Theorem c05_one_value : forall r mem args m ts items vs c, fresh r mem args -> typed r args m ts items ->
  calls_router r mem args m vs -> In c (router_children m) -> ~ repeatable c ->
  List.length (occurrences m c items) <= 1.
Proof. exact (fun r mem args m ts items vs c Hf Ht => run_at_most_once r mem args m ts items Hf Ht vs c). Qed.
Print Assumptions c05_one_value.

Theorem c05_repeated_rejected : forall r mem args m ts items c, fresh r mem args -> typed r args m ts items ->
  In c (router_children m) -> ~ repeatable c -> 2 <= List.length (occurrences m c items) ->
  o_res (root_parse r mem args) <> Ok tt /\ forall n vs, ~ calls_router r mem args n vs.
Proof. exact (fun r mem args m ts items c Hf Ht => run_repeated_rejected r mem args m ts items Hf Ht c). Qed.
Print Assumptions c05_repeated_rejected.

Example c05_example :
  (exists ts items, typed demo ex4 d_copy ts items /\ In d_width (router_children d_copy) /\ ~ repeatable d_width
     /\ 2 <= List.length (occurrences d_copy d_width items))
  /\ error_of ["copy"; "--both"; "5"; "--width"; "6"]%string = Some argument_has_already_been_set
  /\ error_of ["copy"; "--width"; "5"; "--width"; "6"]%string = Some argument_has_already_been_set
  /\ values_of ["-a"]%string <> None /\ error_of ["-aa"]%string = Some argument_has_already_been_set.
Proof.
  split.
  - destruct ex4_assigned as (ts & items & Ht & E). exists ts, items. split; [exact Ht|].
    split; [do 5 right; left; reflexivity|]. split; [intros [H|(d & [] & _)]; discriminate H|].
    rewrite <- (map_length by_id), (occurrences_picked _ _ _ _ E). vm_compute. auto.
  - split; [vm_compute; reflexivity|]. split; [vm_compute; reflexivity|]. split; [vm_compute; discriminate|vm_compute; reflexivity].
Qed.

(** ** C06 *)

Theorem c06_required_given : forall r mem args m ts items vs c, fresh r mem args -> typed r args m ts items ->
  calls_router r mem args m vs -> In c (router_children m) -> mandatory c ->
  exists d, In d (below c) /\ given m items d.
Proof. exact (fun r mem args m ts items vs c Hf Ht => run_mandatory r mem args m ts items Hf Ht vs c). Qed.
Print Assumptions c06_required_given.

Theorem c06_missing_rejected : forall r mem args m ts items c, fresh r mem args -> typed r args m ts items ->
  In c (router_children m) -> mandatory c -> (forall d, In d (below c) -> ~ given m items d) ->
  o_res (root_parse r mem args) <> Ok tt /\ forall n vs, ~ calls_router r mem args n vs.
Proof. exact (fun r mem args m ts items c Hf Ht => run_missing_rejected r mem args m ts items Hf Ht c). Qed.
Print Assumptions c06_missing_rejected.

Example c06_example :
  (exists ts items, typed demo ex3 d_copy ts items /\ In d_width (router_children d_copy) /\ mandatory d_width
     /\ forall d, In d (below d_width) -> ~ given d_copy items d)
  /\ error_of ["copy"]%string = Some missing_required_argument
  /\ error_of ["copy"; "--force"; "a"]%string = Some missing_required_argument.
Proof.
  split.
  - destruct ex3_assigned as (ts & items & Ht & E). exists ts, items. split; [exact Ht|].
    split; [do 5 right; left; reflexivity|]. split; [left; repeat (first [left; reflexivity|right])|].
    intros d Hd Hg. apply (proj2 (occurrences_given _ _ _ _ _ _ d_width ex3_fresh Ht ltac:(do 6 right; left; reflexivity))).
    + now exists d.
    + apply (map_eq_nil by_id). rewrite (occurrences_picked _ _ _ _ E). reflexivity.
  - split; vm_compute; reflexivity.
Qed.

(** ** C07 *)

Theorem c07_default : forall r mem args m ts items vs i c, fresh r mem args -> typed r args m ts items ->
  calls_router r mem args m vs -> nth_error (router_children m) i = Some c ->
  (forall d, In d (below c) -> ~ given m items d) ->
  nth_error vs i = Some (last (default_values c) (vt_init (n_ty c))).
Proof. exact (fun r mem args m ts items vs i c Hf Ht => run_default r mem args m ts items Hf Ht vs i c). Qed.
Print Assumptions c07_default.

Example c07_example :
  (exists ts items, typed demo ex1 d_copy ts items /\ nth_error (router_children d_copy) 2 = Some d_depth
     /\ forall d, In d (below d_depth) -> ~ given d_copy items d)
  /\ nth_error ex1_values 2 = Some (VInt 3) /\ default_values d_depth = [VInt 3]
  /\ nth_error ex1_values 4 = Some (VStr []) /\ default_values d_group = [] /\ vt_init (n_ty d_group) = VStr []
  /\ vt_init (n_ty d_force) = VBool false.
Proof.
  split.
  - destruct ex1_assigned as (ts & items & Ht & E). exists ts, items. split; [exact Ht|].
    split; [reflexivity|].
    intros d Hd Hg. apply (proj2 (occurrences_given _ _ _ _ _ _ d_depth ex1_fresh Ht ltac:(do 2 right; left; reflexivity))).
    + now exists d.
    + apply (map_eq_nil by_id). rewrite (occurrences_picked _ _ _ _ E). reflexivity.
  - repeat split.
Qed.

(** ** C08 *)

(** One argument for each child that has one, in order of declaration; *)
Theorem c08_one_per_child : forall r mem args m ts items vs, fresh r mem args -> typed r args m ts items ->
  calls_router r mem args m vs ->
  Forall2 (fun c v => delivered c (flat_map (assigned m) items) v) (router_children m) vs.
Proof. exact (fun r mem args m ts items vs Hf Ht Hc => proj2 (called_deliveries r mem args m vs ts items Hf Hc Ht)). Qed.
Print Assumptions c08_one_per_child.

(** the order of typing only matters among the occurrences of the same child. *)
Theorem c08_typing_order : forall r mem args m ts items vs mem' args' ts' items' vs',
  fresh r mem args -> typed r args m ts items -> calls_router r mem args m vs ->
  fresh r mem' args' -> typed r args' m ts' items' -> calls_router r mem' args' m vs' ->
  (forall c, In c (n_children m) -> occurrences m c items = occurrences m c items') -> vs = vs'.
Proof.
  exact (fun r mem args m ts items vs mem' args' ts' items' vs' Hf Ht Hc Hf' Ht' Hc' Hs =>
    deliveries_order m _ _ vs vs' Hs (called_deliveries r mem args m vs ts items Hf Hc Ht)
      (called_deliveries r mem' args' m vs' ts' items' Hf' Hc' Ht')).
Qed.
Print Assumptions c08_typing_order.

Example c08_example :
  values_of ["copy"; "--width"; "5"; "-vfv"; "--owner=me"; "a"; "b"; "--"; "c"]%string = Some ex1_values
  /\ values_of ["copy"; "-v"; "--owner=me"; "--force"; "--width"; "5"; "-v"; "a"; "b"; "--"; "c"]%string = Some ex1_values
  /\ List.length (n_children d_copy) = 11 /\ List.length ex1_values = 10.
Proof. repeat split; vm_compute; reflexivity. Qed.

(** ** C09 *)

Theorem c09_count : forall r mem args m ts items vs i cast id ps, fresh r mem args -> typed r args m ts items ->
  calls_router r mem args m vs -> integer_cast cast ->
  nth_error (router_children m) i = Some (counting_flag cast id ps) ->
  occurrences m (counting_flag cast id ps) items <> [] ->
  nth_error vs i = Some (VInt (cast (Z.of_nat (List.length (occurrences m (counting_flag cast id ps) items))))).
Proof. exact (fun r mem args m ts items vs i cast id ps Hf Ht => run_count r mem args m ts items Hf Ht vs i cast id ps). Qed.
Print Assumptions c09_count.

(** ** C11 *)

Theorem c11_count_in_bounds : forall r args m ts items it, typed r args m ts items -> In it items ->
  exists mn mx, count_bounds (i_node it) = Some (mn, mx) /\ (mn <= nlen (i_values it) <= mx)%N.
Proof. exact item_bounds. Qed.
Print Assumptions c11_count_in_bounds.

Example c11_example :
  (exists ts items it, typed demo ex1 d_copy ts items /\ In it items)
  /\ error_of ["copy"; "--width"]%string = Some minimum_count_not_reached
  /\ error_of ["remote"; "add"; "u"; "v"]%string = Some unhandled_arguments.
Proof.
  split; [|split; vm_compute; reflexivity]. destruct ex1_assigned as (ts & [|it items] & Ht & E); [discriminate|].
  exists ts, (it :: items), it. split; [exact Ht|now left].
Qed.

(** ** C12 *)

Theorem c12_in_range : forall r mem args m ts items vs i c v, fresh r mem args -> typed r args m ts items ->
  calls_router r mem args m vs -> nth_error (router_children m) i = Some c -> nth_error vs i = Some v ->
  n_kind c = KCountingFlag \/ (exists cl, n_kind c = KArg cl) -> in_range c v.
Proof. exact (fun r mem args m ts items vs i c v Hf Ht => run_range r mem args m ts items Hf Ht vs i c v). Qed.
Print Assumptions c12_in_range.

Theorem c12_out_of_range_rejected : forall r mem args m ts items c vals v, fresh r mem args -> typed r args m ts items ->
  In c (router_children m) -> (exists cl, n_kind c = KArg cl) -> ~ repeatable c ->
  occurrences m c items = [(c, vals)] -> (forall w, value_of c vals w -> w = v) -> ~ in_range c v ->
  o_res (root_parse r mem args) <> Ok tt /\ forall n vs, ~ calls_router r mem args n vs.
Proof. exact (fun r mem args m ts items c vals v Hf Ht => run_out_of_range_rejected r mem args m ts items Hf Ht c vals v). Qed.
Print Assumptions c12_out_of_range_rejected.

Example c12_example :
  ~ in_range d_depth (VInt 12) /\ in_range d_depth (VInt 9) /\ ~ in_range d_depth (VInt 0)
  /\ (forall w, value_of d_depth (toks ["12"%string]) w -> w = VInt 12)
  /\ error_of ["copy"; "--width"; "5"; "--depth"; "12"]%string = Some maximum_value_exceeded
  /\ error_of ["copy"; "--width"; "5"; "--depth"; "0"]%string = Some minimum_value_not_reached
  /\ values_of ["copy"; "--width"; "5"; "--depth"; "9"]%string <> None.
Proof.
  assert (Hpol : forall v, in_range d_depth v <-> int_lt v (VInt 1) = false /\ int_lt (VInt 9) v = false).
  { intros v. split.
    - intros H. destruct (H (Some (VInt 1)) (Some (VInt 9)) int_lt) as [H1 H2]; [repeat (first [left; reflexivity|right])|].
      split; [now apply H1|now apply H2].
    - intros [H1 H2] mn mx lt [Hx|[Hx|[Hx|[Hx|[]]]]]; try discriminate. injection Hx as <- <- <-.
      split; intros m Hm; injection Hm as <-; easy. }
  split; [intros H; apply Hpol in H as [_ H]; discriminate H|].
  split; [apply Hpol; split; reflexivity|].
  split; [intros H; apply Hpol in H as [H _]; discriminate H|].
  split.
  - intros w H. inversion H as [? [Hk|Hk]|c t ts v _ _ Hr _| |c ts vs _ Hc]; subst; try discriminate.
    cbv [reads_as d_depth custom_parser] in Hr. vm_compute in Hr. congruence.
  - repeat split; vm_compute; try reflexivity; discriminate.
Qed.

(** ** C16 *)

(** The child at position [i] is a one_of: only one of its members is typed. *)
Theorem c16_one_member : forall r mem args m ts items i it it', fresh r mem args -> typed r args m ts items ->
  is_choice m i -> In it items -> In it' items ->
  In (i, i_node it) (entries m) -> In (i, i_node it') (entries m) -> i_node it = i_node it'.
Proof. exact (fun r mem args m ts items i it it' Hf Ht => run_choice r mem args m ts items Hf Ht i it it'). Qed.
Print Assumptions c16_one_member.

Example c16_example :
  is_choice d_copy 7 /\ In (7, d_zip) (entries d_copy) /\ In (7, d_tar) (entries d_copy)
  /\ error_of ["copy"; "--width"; "5"; "--zip"; "1"; "--tar"]%string = Some one_of_selected_type_mismatch
  /\ values_of ["copy"; "--width"; "5"; "--zip"; "1"]%string <> None
  /\ values_of ["copy"; "--width"; "5"; "--tar"]%string <> None.
Proof.
  split; [exists d_pack, 1%N; split; reflexivity|]. split; [do 7 right; left; reflexivity|].
  split; [do 8 right; left; reflexivity|].
  split; [vm_compute; reflexivity|]. split; vm_compute; discriminate.
Qed.

(** ** C38 *)

(** An alias can be replaced by its targets with the same values. *)
Theorem c38_alias : forall r mem mem' args args' m ts ts' x it its y ns vs,
  fresh r mem args -> fresh r mem' args' ->
  typed r args m ts (x ++ it :: y) -> typed r args' m ts' (x ++ its ++ y) ->
  In (PAlias ns) (n_pols (i_node it)) ->
  map (fun j => (i_node j, i_values j)) its = map (fun d => (d, i_values it)) (filter (refers_to ns) (below m)) ->
  (forall j ns', In j its -> ~ In (PAlias ns') (n_pols (i_node j))) ->
  calls_router r mem args m vs <-> calls_router r mem' args' m vs.
Proof. exact alias_equivalent. Qed.
Print Assumptions c38_alias.

Example c38_example :
  map n_id (filter (refers_to [NLong (b "depth"); NLong (b "width")]) (below d_copy)) = [n_id d_depth; n_id d_width]
  /\ values_of ["copy"; "--force"; "--both"; "5"; "--group"; "g"; "--tar"; "a"]%string = Some ex2_values
  /\ values_of ["copy"; "--force"; "--depth"; "5"; "--width"; "5"; "--group"; "g"; "--tar"; "a"]%string = Some ex2_values.
Proof. repeat split; vm_compute; reflexivity. Qed.

(** ** C39 *)

(** A dependent argument is typed after all that it depends on. *)
Theorem c39_after_dependencies : forall r mem args m ts items before it after ns d, fresh r mem args ->
  typed r args m ts items -> items = before ++ it :: after -> In (PDependent ns) (n_pols (i_node it)) ->
  In d (below m) -> refers_to ns d = true -> given m before d.
Proof. exact (fun r mem args m ts items before it after ns d Hf Ht => run_dependent r mem args m ts items Hf Ht before it after ns d). Qed.
Print Assumptions c39_after_dependencies.

Example c39_example :
  In (PDependent [NLong (b "force")]) (n_pols d_group) /\ refers_to [NLong (b "force")] d_force = true
  /\ values_of ["copy"; "--width"; "5"; "--force"; "--group"; "g"]%string <> None
  /\ error_of ["copy"; "--width"; "5"; "--group"; "g"; "--force"]%string = Some dependent_argument_missing.
Proof. split; [repeat (first [left; reflexivity|right])|]. split; [reflexivity|]. split; vm_compute; [discriminate|reflexivity]. Qed.

(** ** C40 *)

(** The member that takes the tokens is the first one that they are for; *)
Theorem c40_first_member : forall r mem args m ts items before it after c x y, fresh r mem args ->
  typed r args m ts items -> items = before ++ it :: after -> In c (n_children m) ->
  n_kind c = KAliasGroup \/ (exists inst, n_kind c = KOneOf inst) -> n_children c = x ++ i_node it :: y ->
  exists ts' rest, consumes (i_node it) ts' (i_label it) (i_values it) rest
    /\ forall d, In d x -> is_named d = true -> enabled d -> ~ addressed d ts'.
Proof. exact run_group_first. Qed.
Print Assumptions c40_first_member.

(** the value of the group is the value of the member that was typed. *)
Theorem c40_value : forall r mem args m ts items vs i c, fresh r mem args -> typed r args m ts items ->
  calls_router r mem args m vs -> nth_error (router_children m) i = Some c ->
  is_argument c = false -> ~ repeatable c -> occurrences m c items <> [] ->
  exists d vals v, In d (n_children c) /\ occurrences m c items = [(d, vals)] /\ value_of d vals v
    /\ nth_error vs i = Some v.
Proof. exact (fun r mem args m ts items vs i c Hf Ht => run_group r mem args m ts items Hf Ht vs i c). Qed.
Print Assumptions c40_value.

(** ** C42 *)

(** When a positional argument takes tokens, those declared before it have theirs; *)
Theorem c42_filled_in_order : forall r mem args m ts items before it after i j k, fresh r mem args ->
  typed r args m ts items -> items = before ++ it :: after -> In (i, i_node it) (entries m) ->
  is_named (i_node it) = false -> In (j, k) (entries m) -> j < i -> is_named k = false -> enabled k ->
  exists it', In it' before /\ In (j, i_node it') (entries m).
Proof. exact (fun r mem args m ts items before it after i j k Hf Ht => run_filled r mem args m ts items Hf Ht before it after i j k). Qed.
Print Assumptions c42_filled_in_order.

(** they take their tokens in the order of declaration; *)
Theorem c42_declaration_order : forall r mem args m ts items x it y it' z i j, fresh r mem args ->
  typed r args m ts items -> items = x ++ it :: y ++ it' :: z ->
  In (i, i_node it) (entries m) -> In (j, i_node it') (entries m) ->
  is_named (i_node it) = false -> is_named (i_node it') = false -> has_multi_stage (i_node it') = false -> i < j.
Proof. exact (fun r mem args m ts items x it y it' z i j Hf Ht => run_positional_order r mem args m ts items Hf Ht x it y it' z i j). Qed.
Print Assumptions c42_declaration_order.

(** all but the last have as many as they can take (unless an end marker stops them). *)
Theorem c42_full : forall r mem args m ts items x it y z, fresh r mem args ->
  typed r args m ts items -> items = x ++ it :: y :: z -> token_end_marker (i_node it) = None ->
  exists mn, count_bounds (i_node it) = Some (mn, nlen (i_values it)).
Proof. exact (fun r mem args m ts items x it y z Hf Ht => run_full r mem args m ts items Hf Ht x it y z). Qed.
Print Assumptions c42_full.

(** ** C46 *)

(** The names at the start of the command line lead to the mode, and no further name would. *)
Theorem c46_path : forall r args m ts items, typed r args m ts items ->
  exists c names, In c (n_children r) /\ is_mode c = true /\ leads c names m
    /\ args = map (Tok PNone) names ++ ts
    /\ (none_name m <> None -> forall d rest, In d (n_children m) -> is_mode d = true -> ~ names_mode d ts rest).
Proof. exact typed_leads. Qed.
Print Assumptions c46_path.

(** All that was typed belongs to the mode, and no disabled argument was typed (C18). *)
Theorem c46_only_its_arguments : forall r args m ts items it, typed r args m ts items -> In it items ->
  argument_of m (i_node it) /\ enabled (i_node it)
  /\ exists ts' rest, consumes (i_node it) ts' (i_label it) (i_values it) rest.
Proof. exact typed_item. Qed.
Print Assumptions c46_only_its_arguments.

Example c46_example :
  values_of ["remote"; "add"; "u"]%string = Some [VStr (b "u")]
  /\ error_of ["remote"]%string = Some mode_requires_arguments
  /\ values_of ["add"; "u"]%string = Some [VBool false; VBool false; VList [VStr (b "add"); VStr (b "u")]].
Proof. repeat split; vm_compute; reflexivity. Qed.

(** ** C48 *)

Theorem c48_fold : forall r mem args m ts items vs i c merge, fresh r mem args -> typed r args m ts items ->
  calls_router r mem args m vs -> nth_error (router_children m) i = Some c ->
  is_argument c = true -> multi_stage c = Some merge -> occurrences m c items <> [] ->
  exists ws v, Forall2 (fun a w => value_of c (snd a) w) (occurrences m c items) ws
    /\ fold_left (fun o w => Some (merge o w)) ws None = Some v /\ nth_error vs i = Some v /\ in_range c v.
Proof. exact (fun r mem args m ts items vs i c merge Hf Ht => run_fold r mem args m ts items Hf Ht vs i c merge). Qed.
Print Assumptions c48_fold.

(** ** C49 *)

(** The value of an argument is made from the tokens typed for it; *)
Theorem c49_argument : forall r mem args m ts items vs i c, fresh r mem args -> typed r args m ts items ->
  calls_router r mem args m vs -> nth_error (router_children m) i = Some c ->
  is_argument c = true -> ~ repeatable c -> occurrences m c items <> [] ->
  exists vals v, occurrences m c items = [(c, vals)] /\ value_of c vals v /\ nth_error vs i = Some v.
Proof. exact (fun r mem args m ts items vs i c Hf Ht => run_argument r mem args m ts items Hf Ht vs i c). Qed.
Print Assumptions c49_argument.

(** a container has one element for each of them, in order. *)
Theorem c49_container : forall r mem args m ts items vs i c, fresh r mem args -> typed r args m ts items ->
  calls_router r mem args m vs -> nth_error (router_children m) i = Some c ->
  (exists cl, n_kind c = KArg cl) -> vt_container (n_ty c) = true -> ~ repeatable c -> occurrences m c items <> [] ->
  exists vals ws, occurrences m c items = [(c, vals)] /\ Forall2 (fun t w => reads_as c (t_name t) w) vals ws
    /\ nth_error vs i = Some (VList ws).
Proof. exact (fun r mem args m ts items vs i c Hf Ht => run_container r mem args m ts items Hf Ht vs i c). Qed.
Print Assumptions c49_container.

(** The hypotheses of C09, C40, C42, C48 and C49 on two command lines: the counting flag was given
    twice, the container has two values, and a member of the one_of was given. *)
Example run_examples :
  (exists ts items, typed demo ex1 d_copy ts items /\ calls_router demo [] ex1 d_copy ex1_values
     /\ nth_error (router_children d_copy) 1 = Some d_verbose /\ integer_cast (to_unsigned 64)
     /\ map by_id (occurrences d_copy d_verbose items) = [(11, []); (11, [])]%N
     /\ nth_error (router_children d_copy) 8 = Some d_src /\ vt_container (n_ty d_src) = true /\ ~ repeatable d_src
     /\ map by_id (occurrences d_copy d_src items) = [(21%N, toks ["a"; "b"]%string)]
     /\ map by_id (occurrences d_copy d_dst items) = [(22%N, toks ["c"]%string)])
  /\ (exists ts items, typed demo ex2 d_copy ts items /\ calls_router demo [] ex2 d_copy ex2_values
     /\ nth_error (router_children d_copy) 6 = Some d_pack /\ is_argument d_pack = false /\ ~ repeatable d_pack
     /\ map by_id (occurrences d_copy d_pack items) = [(19%N, [])] /\ nth_error ex2_values 6 = Some (VBool true)).
Proof.
  split.
  - destruct ex1_assigned as (ts & items & Ht & E). exists ts, items. split; [exact Ht|]. split; [exact ex1_run|].
    split; [reflexivity|]. split; [left; exists 64%Z; split; [lia|now left]|].
    split; [rewrite (occurrences_picked _ _ _ _ E); reflexivity|]. split; [reflexivity|]. split; [reflexivity|].
    split; [intros [H|(d & [] & _)]; discriminate H|].
    split; rewrite (occurrences_picked _ _ _ _ E); reflexivity.
  - destruct ex2_assigned as (ts & items & Ht & E). exists ts, items. split; [exact Ht|]. split; [exact ex2_run|].
    split; [reflexivity|]. split; [reflexivity|].
    split; [intros [H|(d & [<-|[<-|[]]] & H)]; discriminate H|].
    split; [rewrite (occurrences_picked _ _ _ _ E); reflexivity|reflexivity].
Qed.

(** Specification for C62: how every wrong command line is reported. *)
From Verif Require Import Bytes Token Result CodePoint Utf8 Tree PreParse Validator.
From Verif Require Import SpecTokens SpecEdit SpecSuggest SpecTake SpecMode SpecDeliver SpecRoot SpecReading SpecFault.

(** ** Errors in the structure of the command line *)

(** Argument [d] was typed, or is one that a typed alias stands for. *)
Definition present (m : node) (done : list (nat * node)) (d : node) : Prop :=
  exists a, In a done /\ In d (stands_for m (snd a)).

(** [fault m done ts i l x]: the tokens are for argument [l], which is child [i] of the mode or in that
    child, but there is something wrong with them. *)
Inductive fault (m : node) (done : list (nat * node)) (ts : list token) (i : nat) (l : node) : res unit -> Prop :=
| fault_breaks x : breaks l ts x -> fault m done ts i l x
| fault_choice c :
    claimed l ts -> excluded m done i l -> nth_error (n_children m) i = Some c ->
    fault m done ts i l (Throw (EML one_of_selected_type_mismatch [shown c]))
| fault_again t us :
    claimed l ts -> ~ excluded m done i l -> is_named l = true -> has_multi_stage l = false -> used done i ->
    ts = t :: us -> fault m done ts i l (Throw (EML argument_has_already_been_set [t]))
| fault_refused e :
    claimed l ts -> allowed m done i l -> refused l ts e -> fault m done ts i l (Throw (EML e [shown l]))
| fault_dependent label vals rest ns before d after :
    claimed l ts -> allowed m done i l -> consumes l ts label vals rest ->
    In (PDependent ns) (n_pols l) -> below m = before ++ d :: after -> refers_to ns d = true ->
    ~ present m done d -> (forall d', In d' before -> refers_to ns d' = true -> present m done d') ->
    fault m done ts i l (Throw (EML dependent_argument_missing [shown d])).

(** The report of a token that is no argument's: with the closest name, if there is any. *)
Inductive unknown (n : node) (t : token) : res unit -> Prop :=
| unknown_plain :
    enabledb n = false \/ names_below [] n = [] -> unknown n t (Throw (EML unknown_argument [t]))
| unknown_closest c :
    enabledb n = true -> decodable (typed_name t) ->
    (forall d, In d (names_below [] n) -> decodable (t_name (snd d))) ->
    first_closest (typed_name t) (names_below [] n) c ->
    unknown n t (Throw (EML unknown_argument_with_suggestion (t :: fst c ++ [snd c])))
| unknown_text :
    enabledb n = true -> names_below [] n <> [] ->
    ~ decodable (typed_name t) \/ (exists d, In d (names_below [] n) /\ ~ decodable (t_name (snd d))) ->
    unknown n t UB.

(** [stuck m done ts x]: the tokens [ts] are not a correct continuation of the arguments [done] of mode
    [m], which is reported as [x]. *)
Inductive stuck (m : node) : list (nat * node) -> list token -> res unit -> Prop :=
| stuck_fault done ts before i l after x :
    ts <> [] -> entries m = before ++ (i, l) :: after ->
    (forall j k, In (j, k) before -> passes m done ts j k) -> ~ passes m done ts i l ->
    fault m done ts i l x -> stuck m done ts x
| stuck_unhandled done ts :
    ts <> [] -> (forall j k, In (j, k) (entries m) -> passes m done ts j k) ->
    (forall i, i < List.length (n_children m) -> used done i) ->
    stuck m done ts (Throw (EML unhandled_arguments ts))
| stuck_unknown done t us i x :
    (forall j k, In (j, k) (entries m) -> passes m done (t :: us) j k) ->
    i < List.length (n_children m) -> ~ used done i ->
    unknown m t x -> stuck m done (t :: us) x
| stuck_later done ts before i l after label vals rest x :
    entries m = before ++ (i, l) :: after ->
    (forall j k, In (j, k) before -> passes m done ts j k) ->
    ~ chokes l ts -> enabled l -> consumes l ts label vals rest ->
    allowed m done i l -> dependencies m done l ->
    stuck m ((i, l) :: done) rest x -> stuck m done ts x.

(** ** Errors in the values *)

(** The value does not respect the node's min/max value policy. *)
Inductive off_range (l : node) (v : value) : ecode -> Prop :=
| too_small lo mx lt :
    In (PMinMaxValue (Some lo) mx lt) (n_pols l) -> lt v lo = true -> off_range l v minimum_value_not_reached
| too_large mn hi lt :
    In (PMinMaxValue mn (Some hi) lt) (n_pols l) -> (forall lo, mn = Some lo -> lt v lo = false) ->
    lt hi v = true -> off_range l v maximum_value_exceeded.

(** What the node's parser makes of the text. *)
Definition reader (l : node) (s : bytes) : res value :=
  match custom_parser l with Some f => f s | None => vt_parse (n_ty l) s end.

(** [unread l vals x]: node [l] cannot make a value of the tokens. *)
Inductive unread (l : node) : list token -> res unit -> Prop :=
| unread_single c t ts x :
    n_kind l = KArg c -> vt_container (n_ty l) = false -> same_failure (reader l (t_name t)) x ->
    unread l (t :: ts) x
| unread_list c before t after x :
    n_kind l = KArg c -> vt_container (n_ty l) = true ->
    (forall u, In u before -> exists v, reads_as l (t_name u) v) -> same_failure (reader l (t_name t)) x ->
    unread l (before ++ t :: after) x
| range_single c t ts v e :
    n_kind l = KArg c -> vt_container (n_ty l) = false -> reads_as l (t_name t) v -> off_range l v e ->
    unread l (t :: ts) (Throw (EML e [shown l]))
| range_empty c e :
    n_kind l = KArg c -> vt_container (n_ty l) = false -> off_range l (vt_init (n_ty l)) e ->
    unread l [] (Throw (EML e [shown l]))
| range_list c ts vs e :
    n_kind l = KArg c -> vt_container (n_ty l) = true ->
    Forall2 (fun t v => reads_as l (t_name t) v) ts vs -> off_range l (VList vs) e ->
    unread l ts (Throw (EML e [shown l])).

(** The assignments can all be carried out. *)
Definition settled (m : node) (asg : list (node * list token)) : Prop :=
  Forall (fun a => exists v, value_of (fst a) (snd a) v) asg
  /\ forall c, In c (router_children m) -> exists o, gathered None (for_child c asg) o.

(** [undelivered m asg x]: the router of mode [m] cannot be given its arguments. *)
Inductive undelivered (m : node) (asg : list (node * list token)) : res unit -> Prop :=
| undelivered_unread before l vals after x :
    asg = before ++ (l, vals) :: after -> settled m before -> unread l vals x -> undelivered m asg x
| undelivered_again before l vals after v c :
    asg = before ++ (l, vals) :: after -> settled m before -> value_of l vals v -> multi_stage l = None ->
    In c (router_children m) -> belongs c l = true -> for_child c before <> [] ->
    undelivered m asg (Throw (EML argument_has_already_been_set [shown l]))
| undelivered_missing before c after :
    settled m asg -> router_children m = before ++ c :: after ->
    (forall d, In d before -> for_child d asg = [] -> exists v, delivered d asg v) ->
    for_child c asg = [] -> mandatory c ->
    undelivered m asg (Throw (EML missing_required_argument [shown c]))
| undelivered_default before c after e :
    settled m asg -> router_children m = before ++ c :: after ->
    (forall d, In d before -> for_child d asg = [] -> exists v, delivered d asg v) ->
    for_child c asg = [] -> ~ mandatory c -> off_range c (last (default_values c) (vt_init (n_ty c))) e ->
    undelivered m asg (Throw (EML e [shown c]))
| undelivered_range before c after v e :
    settled m asg ->
    (forall d, In d (router_children m) -> for_child d asg = [] -> exists v, delivered d asg v) ->
    router_children m = before ++ c :: after -> (forall d, In d before -> exists v, delivered d asg v) ->
    repeatable c -> gathered None (for_child c asg) (Some v) -> off_range c v e ->
    undelivered m asg (Throw (EML e [shown c]))
| undelivered_router vs :
    deliveries m asg vs -> has_router m = false ->
    undelivered m asg (Throw (EML mode_requires_arguments [shown m])).

(** ** The whole command line *)

(** [wrong root c ts x]: to child [c] of the root, the tokens are a wrong command line, reported as [x]. *)
Inductive wrong (root c : node) (ts : list token) : res unit -> Prop :=
| wrong_arguments m ps ts' x :
    is_mode c = true -> selects c [root] ts m ps ts' -> stuck m [] ts' x -> wrong root c ts x
| wrong_values m ps ts' items x :
    is_mode c = true -> selects c [root] ts m ps ts' -> reading m [] ts' items ->
    undelivered m (flat_map (assigned m) items) x -> wrong root c ts x
| wrong_breaks x : is_mode c = false -> breaks c ts x -> wrong root c ts x
| wrong_refused e :
    is_mode c = false -> claimed c ts -> refused c ts e -> wrong root c ts (Throw (EML e [shown c]))
| wrong_unhandled label vals rest :
    is_mode c = false -> claimed c ts -> consumes c ts label vals rest -> rest <> [] ->
    wrong root c ts (Throw (EML unhandled_arguments rest))
| wrong_value label vals x :
    is_mode c = false -> n_kind c <> KHelp -> claimed c ts -> consumes c ts label vals [] -> unread c vals x ->
    wrong root c ts x.

(** [fails root ts x]: the command line is wrong, reported as [x]. *)
Inductive fails (root : node) (ts : list token) : res unit -> Prop :=
| fails_child before c after x :
    n_children root = before ++ c :: after -> (forall d, In d before -> passed_over ts d) ->
    wrong root c ts x -> fails root ts x
| fails_empty :
    (forall d, In d (n_children root) -> passed_over ts d) -> (forall t us, ts = t :: us -> t_name t = []) ->
    fails root ts (Throw (EML no_arguments_passed []))
| fails_unknown t us x :
    (forall d, In d (n_children root) -> passed_over ts d) -> ts = t :: us -> t_name t <> [] ->
    unknown root t x -> fails root ts x.

(** The command line asks the help argument [h] for help on [vals]. *)
Definition wants_help (root : node) (ts : list token) (h : node) (vals : list token) : Prop :=
  exists before after label, n_children root = before ++ h :: after
    /\ (forall d, In d before -> passed_over ts d) /\ n_kind h = KHelp /\ claimed h ts
    /\ consumes h ts label vals [].

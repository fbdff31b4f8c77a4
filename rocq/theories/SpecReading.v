(** Specification of what a command line means, precisely enough that there is at most one meaning
    (C03, C05-C09, C16, C38-C40, C42, C46, C48). *)
From Verif Require Import Bytes Token Result CodePoint Utf8 Tree PreParse Validator.
From Verif Require Import SpecTokens SpecTake SpecMode SpecDeliver SpecRoot.

(** Nodes that take tokens: flags, arguments and help, as opposed to modes and groups. *)
Definition is_argument (n : node) : bool :=
  match n_kind n with KFlag | KArg _ | KCountingFlag | KHelp => true | _ => false end.

(** The argument nodes of a mode in the order of declaration, each with the position of the child of
    the mode that it is, or that is the group it is in.  Nested modes have their own arguments. *)
Fixpoint entries_from (i : nat) (cs : list node) : list (nat * node) :=
  match cs with
  | [] => []
  | c :: cs' =>
      (if is_mode c then [] else map (pair i) (filter is_argument (below c))) ++ entries_from (S i) cs'
  end.
Definition entries (m : node) : list (nat * node) := entries_from 0 (n_children m).

(** The child at position [i] is a one_of. *)
Definition is_choice (m : node) (i : nat) : Prop :=
  exists c inst, nth_error (n_children m) i = Some c /\ n_kind c = KOneOf inst.

(** The nodes that get the values typed for [l]: [l] itself, or those it is an alias for. *)
Definition alias_of (l : node) : option (list nameref) :=
  first_some (fun p => match p with PAlias ns => Some ns | _ => None end) (n_pols l).
Definition stands_for (m l : node) : list node :=
  match alias_of l with
  | Some ns => filter (refers_to ns) (below m)
  | None => [l]
  end.

(** Below, [done] is the list of the arguments that were typed so far, the last one first. *)

(** Some argument of the child at position [i] was typed already. *)
Definition used (done : list (nat * node)) (i : nat) : Prop := exists l, In (i, l) done.

(** An alternative of a one_of other than [l] was chosen. *)
Definition excluded (m : node) (done : list (nat * node)) (i : nat) (l : node) : Prop :=
  is_choice m i /\ exists l', In (i, l') done /\ l' <> l.

(** Argument [l] may be typed now. *)
Definition allowed (m : node) (done : list (nat * node)) (i : nat) (l : node) : Prop :=
  (has_multi_stage l = true \/ ~ used done i) /\ ~ excluded m done i l.

(** A positional argument that has its values already; later tokens are for the next one. *)
Definition spent (m : node) (done : list (nat * node)) (i : nat) (l : node) : Prop :=
  is_named l = false /\ has_multi_stage l = false /\ used done i /\ ~ excluded m done i l.

(** The arguments that [l] depends on were typed. *)
Definition dependencies (m : node) (done : list (nat * node)) (l : node) : Prop :=
  forall ns d, In (PDependent ns) (n_pols l) -> In d (below m) -> refers_to ns d = true ->
    exists a, In a done /\ In d (stands_for m (snd a)).

(** The tokens are not for argument [l]. *)
Definition passes (m : node) (done : list (nat * node)) (ts : list token) (i : nat) (l : node) : Prop :=
  ~ chokes l ts /\ (~ enabled l \/ ~ addressed l ts \/ spent m done i l).

(** [reading m done ts items]: the tokens [ts] are the items in order.  Each item is for the first
    argument that its tokens are for. *)
Inductive reading (m : node) : list (nat * node) -> list token -> list item -> Prop :=
| reading_nil done : reading m done [] []
| reading_cons done ts before i l after label vals rest items :
    entries m = before ++ (i, l) :: after ->
    (forall j k, In (j, k) before -> passes m done ts j k) ->
    ~ chokes l ts -> enabled l -> consumes l ts label vals rest ->
    allowed m done i l -> dependencies m done l ->
    reading m ((i, l) :: done) rest items ->
    reading m done ts (Item l label vals :: items).

(** The assignments an item makes. *)
Definition assigned (m : node) (it : item) : list (node * list token) :=
  map (fun d => (d, i_values it)) (stands_for m (i_node it)).

(** The tokens are not for child [c] of the root. *)
Definition passed_over (ts : list token) (c : node) : Prop :=
  if is_mode c then none_name c <> None /\ forall rest, ~ names_mode c ts rest
  else ~ chokes c ts /\ (~ enabled c \/ ~ addressed c ts).

(** [means root c ts n args]: to child [c] of the root, the tokens [ts] are a correct command line that
    means a call of the router of [n] with the arguments [args]. *)
Inductive means (root c : node) (ts : list token) : node -> list value -> Prop :=
| means_mode m ps ts' items vs :
    is_mode c = true -> selects c [root] ts m ps ts' -> has_router m = true ->
    reading m [] ts' items -> deliveries m (flat_map (assigned m) items) vs -> means root c ts m vs
| means_argument label vals v :
    is_mode c = false -> n_kind c <> KHelp -> ~ chokes c ts -> enabled c ->
    consumes c ts label vals [] -> value_of c vals v -> means root c ts c [v].

(** [routes root ts n args]: the same for the first child of the root that the tokens are for. *)
Definition routes (root : node) (ts : list token) (n : node) (args : list value) : Prop :=
  exists before c after, n_children root = before ++ c :: after
    /\ (forall d, In d before -> passed_over ts d) /\ means root c ts n args.

(** Assumptions on the tree beyond the compile-time checks.  No node has one of the combinations of
    policies that misbehave; *)
Definition sane_tree (root : node) : Prop :=
  forall l, In l (below root) -> is_argument l = true -> sane l.
(** every one_of is an object of its own; *)
Definition one_of_object (n : node) : list N := match n_kind n with KOneOf inst => [inst] | _ => [] end.
Definition distinct_objects (root : node) : Prop := NoDup (flat_map one_of_object (below root)).
(** and none of them has been used by an earlier parse (see C17); *)
Definition unset (root : node) (mem : memory) : Prop :=
  forall inst, In inst (flat_map one_of_object (below root)) -> mem_get mem inst = None.
(** the arguments that are children of the root itself have a name. *)
Definition named_top (root : node) : Prop :=
  forall c, In c (n_children root) -> is_mode c = true \/ is_named c = true.

(** The trees that the theorems are about: those that the library compiles, but for some that
    misbehave (see DESIGN.md). *)
Record well_formed (r : node) : Prop := {
  wf_accepted : accepted r = true;
  wf_countless : countless_modes r;
  wf_distinct : distinct_modes r;
  wf_sane : sane_tree r;
  wf_objects : distinct_objects r
}.


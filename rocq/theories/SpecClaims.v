(** Vocabulary of the property theorems on whole command lines. *)
From Verif Require Import Bytes Token Result CodePoint Utf8 Tree PreParse Parse Root.
From Verif Require Import SpecTake SpecMode SpecDeliver SpecRoot SpecReading.

(** The parse of [args] calls the router of node [n] with the arguments [vs]. *)
Definition calls_router (r : node) (mem : memory) (args : list token) (n : node) (vs : list value) : Prop :=
  In (EvRoute n vs) (o_events (root_parse r mem args)).

(** A parse with a root object whose one_ofs have no state from earlier parses.  An empty command line
    is only allowed if there are no positional arguments directly in the root. *)
Record fresh (r : node) (mem : memory) (args : list token) : Prop := {
  fr_tree : well_formed r;
  fr_mem : unset r mem;
  fr_args : fits args;
  fr_top : args <> [] \/ named_top r
}.

(** [typed r args m ts items]: the command line [args] selects mode [m]; the tokens [ts] after the names
    of the modes are [items], in that order. *)
Definition typed (r : node) (args : list token) (m : node) (ts : list token) (items : list item) : Prop :=
  exists before c after ps, n_children r = before ++ c :: after
    /\ (forall d, In d before -> passed_over args d)
    /\ is_mode c = true /\ selects c [r] args m ps ts /\ reading m [] ts items.

(** The first child of the root that the tokens are for is the help argument. *)
Definition asks_help (r : node) (args : list token) : Prop :=
  exists before c after, n_children r = before ++ c :: after
    /\ (forall d, In d before -> passed_over args d) /\ n_kind c = KHelp /\ ~ passed_over args c.

(** Argument [d] was typed, by one of its own names or those of an alias. *)
Definition given (m : node) (items : list item) (d : node) : Prop :=
  exists it, In it items /\ In d (stands_for m (i_node it)).

(** What was typed for [c], or for the members of [c] if it is a group, in order. *)
Definition occurrences (m c : node) (items : list item) : list (node * list token) :=
  for_child c (flat_map (assigned m) items).

(** ** Rewriting of command lines (C03) *)

(** The command line [ts] is written with [ts'] in its place: a label and its value are separated; *)
Inductive respelled (m : node) : list token -> list token -> Prop :=
| resp_same ts : respelled m ts ts
| resp_split ts before p label c s v after l sep :
    respelled m ts (before ++ Tok p (label ++ c :: s ++ v) :: after) ->
    argument_of m l -> value_separator l = Some sep -> In c sep -> List.length (c :: s) = List.length sep ->
    (forall d, In d sep -> ~ In d label) -> v <> [] ->
    respelled m ts (before ++ Tok p label :: Tok PNone v :: after)
(** a group of short flags is written out; *)
| resp_group ts before t gs after l :
    respelled m ts (before ++ t :: after) -> gs <> [] ->
    argument_of m l -> In PShortFormExpander (n_pols l) -> t_prefix t <> PLong ->
    token_str t = short_prefix ++ List.concat gs -> graphemes (List.concat gs) = Some gs ->
    respelled m ts (before ++ map (Tok PShort) gs ++ after)
(** an end marker is dropped. *)
| resp_marker ts before t after l :
    respelled m ts (before ++ t :: after) ->
    argument_of m l -> token_end_marker l = Some (t_name t) ->
    respelled m ts (before ++ after).

(** An item as text. *)
Definition item_text (it : item) : list bytes :=
  match i_label it with Some t => [token_str t] | None => [] end ++ map token_str (i_values it).

(** No argument of the mode has both a value separator and the short-form expander. *)
Definition tidy (m : node) : Prop :=
  forall l, argument_of m l -> value_separator l <> None -> ~ In PShortFormExpander (n_pols l).

(** ** Paths of modes (C46) *)

(** [leads c names m]: typing [names] leads from mode [c] to mode [m]; an anonymous mode has no name. *)
Inductive leads : node -> list bytes -> node -> Prop :=
| leads_anonymous c : none_name c = None -> leads c [] c
| leads_here c nm : none_name c = Some nm -> leads c [nm] c
| leads_on c nm d names m :
    none_name c = Some nm -> In d (n_children c) -> is_mode d = true -> names <> [] -> leads d names m ->
    leads c (nm :: names) m.

(** ** Occurrences of arguments *)

(** The typed arguments that do not accumulate. *)
Definition single_use (items : list item) : list item :=
  filter (fun it => negb (has_multi_stage (i_node it))) items.
(** The typed positional arguments. *)
Definition positional_items (items : list item) : list item :=
  filter (fun it => negb (is_named (i_node it))) items.

(** ** Nodes with state (C17) *)

(** There is no one_of at or below [n]. *)
Definition no_choices (n : node) : Prop := forall c, In c (below n) -> forall inst, n_kind c <> KOneOf inst.

(** ** Names (C45) *)

(** No argument of the mode has a name without prefix that is the text of a name with prefix of another. *)
Definition clear_names (m : node) : Prop :=
  forall l k s s', argument_of m l -> argument_of m k -> none_name l = Some s ->
    (long_name k = Some s' -> s <> long_prefix ++ s') /\ (short_name k = Some s' -> s <> short_prefix ++ s').

(** ** Integer types (C09) *)

(** Conversion of a number to an integer type of C++; the cast of the counting flag with this value type. *)
Definition to_unsigned (bits z : Z) : Z := (z mod 2 ^ bits)%Z.
Definition to_signed (bits z : Z) : Z := ((z + 2 ^ (bits - 1)) mod 2 ^ bits - 2 ^ (bits - 1))%Z.
Definition to_bool (z : Z) : Z := if Z.eqb z 0 then 0%Z else 1%Z.
Definition integer_cast (cast : Z -> Z) : Prop :=
  (exists bits, (0 < bits <= 64)%Z /\ (cast = to_unsigned bits \/ cast = to_signed bits)) \/ cast = to_bool.

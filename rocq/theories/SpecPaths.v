(** Specification for C54, how tokens are rewritten, and for C57: which of several modes of the same name a command line selects. *)
From Verif Require Import Bytes Token Utf8 Tree SpecTokens SpecTake SpecMode SpecClaims.
Local Open Scope list_scope.

(** [first_path cs names m]: among the siblings [cs], the typed names lead to the mode [m].  At each step
    the name is that of the first sibling mode that has it and is switched on; a mode without a name is
    used only if no sibling mode before it is without one. *)
Inductive first_path : list node -> list bytes -> node -> Prop :=
| first_anonymous before c after :
    is_mode c = true -> none_name c = None ->
    (forall d, In d before -> is_mode d = true -> none_name d <> None) ->
    first_path (before ++ c :: after) [] c
| first_here before c after nm :
    is_mode c = true -> enabled c -> none_name c = Some nm ->
    (forall d, In d before -> is_mode d = true -> enabled d -> none_name d <> Some nm) ->
    first_path (before ++ c :: after) [nm] c
| first_on before c after nm names m :
    is_mode c = true -> enabled c -> none_name c = Some nm ->
    (forall d, In d before -> is_mode d = true -> enabled d -> none_name d <> Some nm) ->
    names <> [] -> first_path (n_children c) names m ->
    first_path (before ++ c :: after) (nm :: names) m.

(** ** C54 *)

(** As {!SpecClaims.respelled}, with one more way of rewriting, for an argument that has both a value
    separator and the short-form expander: of a group "-ab" whose value has been split off, the value
    stays behind the first letter and the other letters follow it. *)
Inductive respelled_mixed (m : node) : list token -> list token -> Prop :=
| mixed_plain ts ts' : respelled m ts ts' -> respelled_mixed m ts ts'
| mixed_group ts before t g gs v after l ts' :
    respelled_mixed m ts (before ++ t :: v :: after) ->
    argument_of m l -> In PShortFormExpander (n_pols l) -> value_separator l <> None -> t_prefix t <> PLong ->
    token_str t = short_prefix ++ List.concat (g :: gs) -> graphemes (List.concat (g :: gs)) = Some (g :: gs) ->
    respelled m (before ++ Tok PShort g :: v :: map (Tok PShort) gs ++ after) ts' ->
    respelled_mixed m ts ts'.

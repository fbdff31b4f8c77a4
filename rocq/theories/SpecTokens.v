(** Specification for C03: what an argument node may do with the tokens it is offered. *)
From Verif Require Import Bytes Token Result CodePoint Utf8 Tree.

(** The text of the token at the front of a list is split at a value separator; the separator takes
    as many bytes as the configured one. *)
Inductive split_front (n : node) : list token -> list token -> Prop :=
| split_no ts : split_front n ts ts
| split_yes sep p label s v us :
    In (PValueSeparator sep) (n_pols n) ->
    List.length s = List.length sep -> (forall c, In c sep -> ~ In c label) -> v <> [] ->
    split_front n (Tok p (label ++ s ++ v) :: us) (Tok p label :: Tok PNone v :: us).

(** A group of short flags at the front is written out.  [between] is empty except in a node that has
    a value separator too, where it is the value that was split off. *)
Inductive group_front (n : node) : list token -> list token -> Prop :=
| group_no ts : group_front n ts ts
| group_yes t g gs between us :
    In PShortFormExpander (n_pols n) -> t_prefix t <> PLong ->
    token_str t = short_prefix ++ List.concat (g :: gs) ->
    graphemes (List.concat (g :: gs)) = Some (g :: gs) ->
    (between = [] \/ exists sep, In (PValueSeparator sep) (n_pols n)) ->
    group_front n (t :: between ++ us) (Tok PShort g :: between ++ map (Tok PShort) gs ++ us).

(** One end marker is taken out. *)
Inductive drop_marker (n : node) : list token -> list token -> Prop :=
| marker_no ts : drop_marker n ts ts
| marker_yes m t before after :
    In (PTokenEndMarker m) (n_pols n) -> t_name t = m ->
    (forall u, In u (if is_named n then tl before else before) -> t_name u <> m) ->
    drop_marker n (before ++ t :: after) (before ++ after).

Definition rewritten (n : node) (ts ts' : list token) : Prop :=
  exists t1 t2, split_front n ts t1 /\ group_front n t1 t2 /\ drop_marker n t2 ts'.

(** [takes n ts label vals rest]: from the tokens [ts] node [n] takes its label and the tokens [vals],
    the first ones after the allowed rewriting, and leaves [rest].  The label is recorded in the
    classified form ("--foo" as long form foo). *)
Inductive takes (n : node) (ts : list token) : option token -> list token -> list token -> Prop :=
| takes_named t label vals rest :
    is_named n = true -> token_str t = token_str label -> match_node n label = true ->
    rewritten n ts (t :: vals ++ rest) -> takes n ts (Some label) vals rest
| takes_unnamed vals rest :
    is_named n = false -> rewritten n ts (vals ++ rest) -> takes n ts None vals rest.

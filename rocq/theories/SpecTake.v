(** Specification for C03, C11, C13, C15 and C42: exactly which tokens an argument node takes. *)
From Verif Require Import Bytes Token Result CodePoint Utf8 Tree PreParse Root.

(** A command line that fits into memory: fewer than 2^63 bytes. *)
Definition fits (ts : list token) : Prop := (N.of_nat (args_weight ts) < 9223372036854775808)%N.

(** The node was not disabled at run time. *)
Definition enabled (n : node) : Prop := runtime_enabled n <> Some false.

(** [fronted n ts t value us]: the first token of [ts] is [t]; if the node has a value separator then
    the first token is split at the first separator byte into [t] and [value]. *)
Inductive fronted (n : node) : list token -> token -> list token -> list token -> Prop :=
| front_plain t us : value_separator n = None -> fronted n (t :: us) t [] us
| front_split sep p l c s v us :
    value_separator n = Some sep -> In c sep -> List.length (c :: s) = List.length sep ->
    (forall d, In d sep -> ~ In d l) -> v <> [] ->
    fronted n (Tok p (l ++ (c :: s) ++ v) :: us) (Tok p l) [Tok PNone v] us.

(** [t] is a group of short-form flags, "-nm", to a node with the short-form expander: the text after
    the "-" is not as long as the node's own short name. *)
Definition group_for (n : node) (t : token) (nm : bytes) : Prop :=
  In PShortFormExpander (n_pols n)
  /\ (t_prefix t = PShort /\ nm = t_name t
      \/ t_prefix t = PNone /\ t_name t = short_prefix ++ nm /\ starts_with long_prefix (t_name t) = false)
  /\ forall s, short_name n = Some s -> List.length nm <> List.length s.

(** [grouped n t us t' us']: a group of short-form flags in front is written out, one token for each
    grapheme cluster. *)
Inductive grouped (n : node) : token -> list token -> token -> list token -> Prop :=
| group_none t us : (forall nm, ~ group_for n t nm) -> grouped n t us t us
| group_some t nm g gs us :
    group_for n t nm -> graphemes nm = Some (g :: gs) ->
    grouped n t us (Tok PShort g) (map (Tok PShort) gs ++ us).

(** [counted n us vals rest]: from the tokens [us] the node takes the values [vals]: as many as its
    maximum count allows, or those before its end marker, which is dropped.  If the node has no name, a
    maximum, and its end marker in front, then it takes the tokens behind the marker instead of none, as
    many as the maximum allows (see DESIGN.md; the maximum is compared as a signed number). *)
Inductive counted (n : node) (us : list token) : list token -> list token -> Prop :=
| count_plain mn mx vals rest :
    token_end_marker n = None -> count_bounds n = Some (mn, mx) ->
    us = vals ++ rest -> (mn <= nlen vals <= mx)%N -> (rest <> [] -> nlen vals = mx) ->
    counted n us vals rest
| count_marker mn mx m p vals rest :
    token_end_marker n = Some m -> count_bounds n = Some (mn, mx) ->
    us = vals ++ Tok p m :: rest -> (forall u, In u vals -> t_name u <> m) -> (mn <= nlen vals <= mx)%N ->
    is_named n = true \/ vals <> [] \/ (9223372036854775808 < mx)%N ->
    counted n us vals rest
| count_front_marker mx m p vals rest :
    token_end_marker n = Some m -> count_bounds n = Some (0%N, mx) ->
    is_named n = false -> (mx <= 9223372036854775808)%N ->
    us = Tok p m :: vals ++ rest -> (nlen vals <= mx)%N -> (rest <> [] -> nlen vals = mx) ->
    counted n us vals rest
| count_no_marker mn mx m :
    token_end_marker n = Some m -> count_bounds n = Some (mn, mx) ->
    (forall u, In u us -> t_name u <> m) -> (mn <= nlen us <= mx)%N ->
    counted n us us [].

(** [consumes n ts label vals rest]: node [n] takes the label [label] (none if the node has no name)
    and the values [vals] from the front of [ts], and leaves [rest].  The label is recorded in its
    classified form ("--foo" is the long form of foo). *)
Inductive consumes (n : node) (ts : list token) : option token -> list token -> list token -> Prop :=
| consumes_named t value us t' us' vals rest :
    is_named n = true -> fronted n ts t value us -> grouped n t us t' us' ->
    match_node n (norm_token n t') = true -> counted n (value ++ us') vals rest ->
    consumes n ts (Some (norm_token n t')) vals rest
| consumes_unnamed vals rest :
    is_named n = false -> ts <> [] -> counted n ts vals rest -> consumes n ts None vals rest.

(** The first token is the node's name, but without the value separator that the node needs. *)
Definition unsplit (n : node) (ts : list token) : Prop :=
  exists sep t us, value_separator n = Some sep /\ ts = t :: us /\ (forall d, In d sep -> ~ In d (t_name t))
    /\ match_node n (match t_prefix t with PNone => get_token_type (t_name t) | _ => t end) = true
    /\ match_node n (norm_token n t) = true.

(** The tokens are meant for the node: the first one is its name; a node without a name takes any
    token. *)
Definition addressed (n : node) (ts : list token) : Prop :=
  (is_named n = true
   /\ ((exists t value us t' us', fronted n ts t value us /\ grouped n t us t' us'
          /\ match_node n (norm_token n t') = true)
       \/ unsplit n ts))
  \/ (is_named n = false /\ ts <> []).

(** Tokens that the node cannot cope with, whether they are meant for it or not (see DESIGN.md).
    A separator of several bytes that is cut short by the end of the token: std::out_of_range. *)
Definition cut_short (n : node) (ts : list token) : Prop :=
  exists sep t us l c s, value_separator n = Some sep /\ ts = t :: us /\ t_name t = l ++ c :: s
    /\ (forall d, In d sep -> ~ In d l) /\ In c sep /\ List.length (c :: s) < List.length sep.

(** A group of short-form flags that is not valid UTF-8: undefined behaviour; one that is a lone "-" at
    the end of the command line, or does not fit into memory: std::length_error. *)
Definition bad_group (n : node) (t : token) (us : list token) : Prop :=
  exists nm, group_for n t nm
    /\ (graphemes nm = None \/ us = [] /\ nm = [] \/ (vec_max_size + 1 < nlen us + nlen nm)%N).

(** And the name of a disabled node without its separator, which is reported although the node is
    disabled. *)
Definition chokes (n : node) (ts : list token) : Prop :=
  cut_short n ts
  \/ (exists t value us, fronted n ts t value us /\ bad_group n t us)
  \/ (~ enabled n /\ is_named n = true /\ unsplit n ts).

(** Two combinations of policies that misbehave (see DESIGN.md) are excluded: a node without a name
    that has a value separator, and a node that is both an alias and dependent on another. *)
Definition sane (n : node) : Prop :=
  (is_named n = true \/ value_separator n = None)
  /\ forall ns ns', In (PAlias ns) (n_pols n) -> ~ In (PDependent ns') (n_pols n).

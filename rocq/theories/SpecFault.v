(** Specification for C62: why an argument refuses the tokens that are meant for it, and how that is
    reported. *)
From Verif Require Import Bytes Token Result CodePoint Utf8 Tree PreParse Root SpecTake.

(** The name of a node in an error: its error name, or else its display name, or else the long, the
    short or the plain name. *)
Definition own_names (n : node) : list token :=
  flat_map (fun p => match p with PErrorName s => [Tok PNone s] | _ => [] end) (n_pols n)
  ++ flat_map (fun p => match p with PDisplayName s => [Tok PNone s] | _ => [] end) (n_pols n)
  ++ flat_map (fun p => match p with PLongName s => [Tok PLong s] | _ => [] end) (n_pols n)
  ++ flat_map (fun p => match p with PShortName s => [Tok PShort s] | _ => [] end) (n_pols n)
  ++ flat_map (fun p => match p with PNoneName s => [Tok PNone s] | _ => [] end) (n_pols n).
Definition shown (n : node) : token := hd (Tok PNone []) (own_names n).

(** [x] is the failure [r], as the outcome of something else. *)
Definition same_failure {A} (r : res A) (x : res unit) : Prop :=
  match r with
  | Ok _ => False
  | Throw e => x = Throw e
  | UB => x = UB
  | Exited => x = Exited
  | OutOfFuel => x = OutOfFuel
  end.

(** [words n ts us]: the tokens [us] follow the name of the node. *)
Inductive words (n : node) (ts : list token) : list token -> Prop :=
| words_named t value us t' us' :
    is_named n = true -> fronted n ts t value us -> grouped n t us t' us' ->
    match_node n (norm_token n t') = true -> words n ts (value ++ us')
| words_unnamed : is_named n = false -> ts <> [] -> words n ts ts.

(** [candidates n us vs]: of the tokens [us], those before the end marker. *)
Inductive candidates (n : node) (us : list token) : list token -> Prop :=
| candidates_all : token_end_marker n = None -> candidates n us us
| candidates_marked m p vs rest :
    token_end_marker n = Some m -> us = vs ++ Tok p m :: rest ->
    (forall u, In u vs -> t_name u <> m) -> candidates n us vs
| candidates_unmarked m :
    token_end_marker n = Some m -> (forall u, In u us -> t_name u <> m) -> candidates n us us.

(** There are not enough values, or more in front of the end marker than allowed. *)
Inductive miscounted (n : node) (us : list token) : ecode -> Prop :=
| too_few vs mn mx :
    candidates n us vs -> count_bounds n = Some (mn, mx) -> (nlen vs < mn)%N ->
    miscounted n us minimum_count_not_reached
| too_many vs mn mx :
    token_end_marker n <> None -> candidates n us vs -> count_bounds n = Some (mn, mx) -> (mx < nlen vs)%N ->
    miscounted n us maximum_count_exceeded.

(** [refused n ts e]: the first token is the name of node [n], but what follows is not what the node
    needs. *)
Inductive refused (n : node) (ts : list token) : ecode -> Prop :=
| refused_separator : is_named n = true -> unsplit n ts -> refused n ts missing_value_separator
| refused_count us e : words n ts us -> miscounted n us e -> refused n ts e.

(** [breaks n ts x]: the node cannot cope with the tokens, whether they are meant for it or not, and
    the parse ends with [x], which is not one of the library's own errors (see DESIGN.md). *)
Inductive breaks (n : node) (ts : list token) : res unit -> Prop :=
| breaks_separator : cut_short n ts -> breaks n ts (Throw EOutOfRange)
| breaks_length t value us nm :
    fronted n ts t value us -> group_for n t nm ->
    us = [] /\ nm = [] \/ (vec_max_size + 1 < nlen us + nlen nm)%N ->
    breaks n ts (Throw ELengthError)
| breaks_text t value us nm :
    fronted n ts t value us -> group_for n t nm ->
    ~ (us = [] /\ nm = [] \/ (vec_max_size + 1 < nlen us + nlen nm)%N) -> graphemes nm = None ->
    breaks n ts UB.

(** The tokens are the node's: it is enabled and its name was typed.  (A node with a value separator
    complains about a missing separator even if it is disabled.) *)
Definition claimed (n : node) (ts : list token) : Prop :=
  (forall x, ~ breaks n ts x) /\ addressed n ts /\ (enabled n \/ is_named n = true /\ unsplit n ts).

(** Specification for C24: the names a suggestion may come from. *)
From Verif Require Import Bytes Token CodePoint Utf8 Tree SpecEdit.

(** Not switched off by a runtime_enable policy. *)
Definition enabled (n : node) : Prop := runtime_enabled n <> Some false.
Definition enabledb (n : node) : bool :=
  match runtime_enabled n with Some false => false | _ => true end.

(** The names of a node. *)
Definition opt_tok (p : prefix) (o : option bytes) : list token :=
  match o with Some s => [Tok p s] | None => [] end.
Definition names_of (n : node) : list token :=
  opt_tok PLong (long_name n) ++ opt_tok PShort (short_name n) ++ opt_tok PNone (none_name n).

(** All the names below [n] in tree order, skipping everything at or below a disabled node; each with
    the display tokens of the nodes on the way to it ([above]), outermost first. *)
Fixpoint names_below (above : list token) (n : node) : list (list token * token) :=
  match n with
  | Node _ _ _ _ cs =>
      flat_map (fun c => if enabledb c
                         then map (fun nm => (above, nm)) (names_of c)
                              ++ names_below (above ++ [node_token c]) c
                         else []) cs
  end.

(** The distance, in characters (grapheme clusters), between two strings. *)
Definition string_distance (x y : bytes) (d : nat) : Prop :=
  exists gx gy, graphemes x = Some gx /\ graphemes y = Some gy /\ edit_distance_is d gx gy.

(** The first closest candidate. *)
Definition first_closest (typed : bytes) (cands : list (list token * token))
           (c : list token * token) : Prop :=
  exists before after d,
    cands = before ++ c :: after
    /\ string_distance typed (t_name (snd c)) d
    /\ (forall c' d', In c' before -> string_distance typed (t_name (snd c')) d' -> d < d')
    /\ (forall c' d', In c' after -> string_distance typed (t_name (snd c')) d' -> d <= d').

(** Not cut off in the middle of a code point. *)
Definition decodable (s : bytes) : Prop := graphemes s <> None.

(** What the user typed, without its prefix. *)
Definition typed_name (t : token) : bytes :=
  t_name (match t_prefix t with PNone => get_token_type (t_name t) | _ => t end).

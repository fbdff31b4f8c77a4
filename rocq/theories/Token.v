(** Model of parsing/token_type.hpp (token types and prefix handling). *)
From Verif Require Import Bytes.

(** parsing/token_type.hpp:13-17 *)
Inductive prefix := PLong | PShort | PNone.

(** [operator==] on the enumeration. *)
Definition prefix_eqb (p q : prefix) : bool :=
  match p, q with
  | PLong, PLong | PShort, PShort | PNone, PNone => true
  | _, _ => false
  end.

(** parsing/token_type.hpp:36-66 *)
Record token := Tok { t_prefix : prefix; t_name : bytes }.

(** config.hpp [long_prefix] with the default configuration (AR_LONG_PREFIX "--").
    Other configurations are in Prefixes.v. *)
Definition long_prefix : bytes := b "--".

(** config.hpp [short_prefix] with the default configuration (AR_SHORT_PREFIX "-"). *)
Definition short_prefix : bytes := b "-".

(** parsing/token_type.hpp:25-32 *)
Definition prefix_str (p : prefix) : bytes :=
  match p with PLong => long_prefix | PShort => short_prefix | PNone => [] end.

(** parsing/token_type.hpp:74-78 *)
Definition token_str (t : token) : bytes := prefix_str (t_prefix t) ++ t_name t.

(** parsing/token_type.hpp:103-116 [get_token_type(token)]. *)
Definition get_token_type (s : bytes) : token :=
  if starts_with long_prefix s then Tok PLong (skipn (List.length long_prefix) s)
  else if starts_with short_prefix s then Tok PShort (skipn (List.length short_prefix) s)
  else Tok PNone s.

(** parsing/token_type.hpp:127-146 [get_token_type(node, token)]; the node only matters through
    whether it has a long name ([hl]) and whether it has a short name ([hs]). *)
Definition get_token_type_for (hl hs : bool) (s : bytes) : token :=
  if hl && starts_with long_prefix s then Tok PLong (skipn (List.length long_prefix) s)
  else if hs && (starts_with short_prefix s && negb (starts_with long_prefix s))
  then Tok PShort (skipn (List.length short_prefix) s)
  else Tok PNone s.

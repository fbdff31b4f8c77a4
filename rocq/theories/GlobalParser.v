(** Model of parsing/global_parser.hpp: how a token becomes a value. *)
From Verif Require Import Bytes Token Result Tree.

(** parsing/global_parser.hpp:64-71 *)
Definition true_tokens : list bytes := [b "true"; b "yes"; b "y"; b "on"; b "1"; b "enable"].
(** parsing/global_parser.hpp:73-80 *)
Definition false_tokens : list bytes := [b "false"; b "no"; b "n"; b "off"; b "0"; b "disable"].

(** parsing/global_parser.hpp:82-84 [match]. *)
Definition listed (s : bytes) (l : list bytes) : bool := existsb (beq s) l.

(** parsing/global_parser.hpp:57-96 [parser<bool>::parse]. *)
Definition parse_bool (s : bytes) : res value :=
  if listed s true_tokens then Ok (VBool true)
  else if listed s false_tokens then Ok (VBool false)
  else Throw (EML failed_to_parse [Tok PNone s]).

(** parsing/global_parser.hpp:52-55: types made from a string_view. *)
Definition parse_text (s : bytes) : res value := Ok (VStr s).

(** [value_type] of an argument of type bool.  Optionals and containers of [T]
    (parsing/global_parser.hpp:98-117) parse one token as [T].
    Not modelled: parsing/global_parser.hpp:35-50, numbers, which is Boost's lexical conversion; in
    the model the parser of a number is any function (Tree.v [vt_parse]). *)
Definition bool_arg : vtype := VT false parse_bool (VBool false).

(** What the caller of root.parse() sees with any prefixes: Caller.v with the functions of Prefixes.v. *)
From Verif Require Import Bytes Token Result Tree PreParse Root Message Caller Prefixes.

(** root.hpp:147-180 and 191-200: a whole call; the message has the tokens as parsing/token_type.hpp:74-78 writes
    them, with the configured prefixes. *)
Definition parse_call_with (lp sp : bytes) (user fallback : translations) (r : node) (mem : memory) (argv : list bytes) : seen :=
  caller_sees_of (token_str_with lp sp) user fallback (o_res (root_parse_with lp sp r mem (to_tokens argv))).

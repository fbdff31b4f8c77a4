(** What the caller of root.parse() sees: root.hpp:147-180 with its try/catch. *)
From Verif Require Import Bytes Token Result Tree PreParse Root Message.

(** The call returns, throws a [parse_exception] with a message, throws something else, is
    undefined, ends the program (help.hpp:206), or does not finish. *)
Inductive seen :=
| Returned
| ParseError (msg : bytes)
| OtherError
| Undefined
| ProgramEnds
| Unfinished.

(** root.hpp:175-180: [catch (multi_lang_exception& e) { this->translate_exception(e); }].  A
    standard exception passes through, also one thrown while the message is made. *)
Definition caller_sees_of (text_of : token -> bytes) (user fallback : translations) (r : res unit) : seen :=
  match r with
  | Ok _ => Returned
  | Throw (EML c ts) =>
    match translate_of text_of user fallback c ts with Ok msg => ParseError msg | _ => OtherError end
  | Throw _ => OtherError
  | UB => Undefined
  | Exited => ProgramEnds
  | OutOfFuel => Unfinished
  end.
Notation caller_sees := (caller_sees_of token_str).

(** root.hpp:191-200: a whole call.  Without an exception_translator policy the root adds one that
    has only the default table (root.hpp:26-47). *)
Definition parse_call (user fallback : translations) (r : node) (mem : memory) (argv : list bytes) : seen :=
  caller_sees user fallback (o_res (root_parse_strings r mem argv)).

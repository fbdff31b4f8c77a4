(** Model of examples/c++20/custom_policy_and_node: a program with a policy and a node of its own.  The validator of lines
    167-196 adds both to the default rules; its new rule is the one for [description_t]. *)
From Verif Require Import Bytes Token Result CodePoint Utf8 Tree PreParse Parse Build Message Digits Caller.

(** custom_policy_and_node/main.cpp:26-39 [smiley_description_t]: what [description()] gives, and so the same as a
    [description_t] of that text. *)
Definition smiley (text : bytes) : policy := PDescription (text ++ b " 🙂").

(** custom_policy_and_node/main.cpp:204-209 *)
Definition ev_help : node :=
  help 1 [PLongName (b "help"); PShortName (b "h"); PProgramName (b "is_even"); PProgramVersion (b "v1.0.0");
          PProgramAddendum (b "An example program for arg_router."); smiley (b "Display this help and exit")].
(** custom_policy_and_node/main.cpp:210-215; the action is [ev_write]. *)
Definition ev_version : node :=
  flag 2 [PLongName (b "version"); smiley (b "Output version information and exit"); PRouter].

(** The exception of line 58 has a text and no code.  In the model it has a code of its own whose text is in this table. *)
Definition not_even : ecode := user_code 1000.
Definition ev_errors : translations := [(not_even, b "Value not even")].

(** [std::to_string] of an [int], and how a stream writes it: the C++ library's, modelled by what they are documented to do. *)
Definition int_text (z : Z) : bytes := (if (z <? 0)%Z then b "-" else []) ++ lexical_cast (Z.abs_N z).

Section Reader.
(** [int]'s [arg_router::parser], boost::lexical_cast. *)
Variable read : bytes -> res value.

(** custom_policy_and_node/main.cpp:49-61 [is_even].  Simplification: the check is made together with the reading of the
    value, which it follows at once (multi_arg_base.hpp:107-124); there is no other policy with a validation phase. *)
Definition read_even (s : bytes) : res value :=
  match read s with
  | Ok (VInt z) => if negb (Z.eqb (Z.rem z 2) 0) then Throw (EML not_even [Tok PNone (int_text z)]) else Ok (VInt z)
  | r => r
  end.

(** custom_policy_and_node/main.cpp:71-164 [single_positional_arg_t]: [positional_arg_t] (positional_arg.hpp:33-93) with a
    fixed count of one and another label on help pages, which is not modelled; and 217. *)
Definition ev_value : node :=
  positional_arg (int_type read) 10 [PMinMaxCount 1 1; PRequired; PDisplayName (b "Value"); smiley (b "Value to read"); PCustomParser read_even].
(** custom_policy_and_node/main.cpp:216-218 *)
Definition ev_mode : node := mode 3 [PRouter] [ev_value].
(** custom_policy_and_node/main.cpp:202-218 *)
Definition ev_tree : node := root [] [ev_help; ev_version; ev_mode].
(** custom_policy_and_node/main.cpp:198-222 [main]: what happens to the call of [parse]. *)
Definition ev_main (argv : list bytes) : seen := parse_call ev_errors default_translations ev_tree [] argv.
End Reader.

(** custom_policy_and_node/main.cpp:212-215 and 218: what the routers write. *)
Definition ev_write (n : node) (vs : list value) : bytes :=
  if N.eqb (n_id n) (n_id ev_version) then b "v1.0.0" ++ [ascii_of_N 10]
  else match vs with [VInt z] => b "Value: " ++ int_text z ++ [ascii_of_N 10] | _ => [] end.

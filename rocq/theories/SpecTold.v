(** Specification of what the caller of parse() is told (C65). *)
From Verif Require Import Bytes Token Result Caller SpecMessage.

(** What each error says, in the library's own words. *)
Definition words (c : ecode) : bytes :=
  match c with
  | unknown_argument => b "Unknown argument"
  | unhandled_arguments => b "Unhandled arguments"
  | argument_has_already_been_set => b "Argument has already been set"
  | failed_to_parse => b "Failed to parse"
  | no_arguments_passed => b "No arguments passed"
  | minimum_value_not_reached => b "Minimum value not reached"
  | maximum_value_exceeded => b "Maximum value exceeded"
  | minimum_count_not_reached => b "Minimum count not reached"
  | maximum_count_exceeded => b "Maximum count exceeded"
  | unknown_argument_with_suggestion => []
  | mode_requires_arguments => b "Mode requires arguments"
  | missing_required_argument => b "Missing required argument"
  | too_few_values_for_alias => b "Too few values for alias"
  | dependent_argument_missing =>
      b "Dependent argument missing (needs to be before the requiring token on the command line)"
  | one_of_selected_type_mismatch => b "Only one argument from a ""One Of"" can be used at once"
  | missing_value_separator => b "Expected a value separator"
  | user_code _ => []
  end.

Section Texts.
(** How a token is written. *)
Variable text_of : token -> bytes.

(** The message: the words, then the tokens; for a suggestion the token and the closest name. *)
Inductive told_of : ecode -> list token -> bytes -> Prop :=
| told_bare c : c <> unknown_argument_with_suggestion -> (forall n, c <> user_code n) -> told_of c [] (words c)
| told_tokens c ts : c <> unknown_argument_with_suggestion -> (forall n, c <> user_code n) -> ts <> [] ->
    told_of c ts (words c ++ b ": " ++ joined_of text_of (b ", ") ts)
| told_suggestion_bare : told_of unknown_argument_with_suggestion [] (b "Unknown argument: . Did you mean ?")
| told_suggestion t ss : told_of unknown_argument_with_suggestion (t :: ss)
    (b "Unknown argument: " ++ text_of t ++ b ". Did you mean " ++ joined_of text_of (b " ") ss ++ b "?").

(** What the caller gets for each way in which a parse can end: it returns, a parse_exception with a
    message, another exception, undefined behaviour, the end of the program. *)
Inductive sees_of : res unit -> seen -> Prop :=
| sees_return : sees_of (Ok tt) Returned
| sees_message c ts m : told_of c ts m -> sees_of (Throw (EML c ts)) (ParseError m)
| sees_length : sees_of (Throw ELengthError) OtherError
| sees_range : sees_of (Throw EOutOfRange) OtherError
| sees_nothing : sees_of UB Undefined
| sees_end : sees_of Exited ProgramEnds
| sees_no_end : sees_of OutOfFuel Unfinished.
End Texts.
Notation told := (told_of token_str).
Notation sees := (sees_of token_str).

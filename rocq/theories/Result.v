(** Outcomes of a C++ call: values, exceptions, undefined behaviour. *)
From Verif Require Import Bytes Token.

(** exception.hpp:33-63 [enum class error_code].  User-defined codes are [EUser]. *)
Inductive ecode :=
| unknown_argument
| unhandled_arguments
| argument_has_already_been_set
| failed_to_parse
| no_arguments_passed
| minimum_value_not_reached
| maximum_value_exceeded
| minimum_count_not_reached
| maximum_count_exceeded
| unknown_argument_with_suggestion
| mode_requires_arguments
| missing_required_argument
| too_few_values_for_alias
| dependent_argument_missing
| one_of_selected_type_mismatch
| missing_value_separator
| user_code (n : N).

(** exception.hpp:33-63: the numeric values of the enumerators. *)
Definition ecode_num (c : ecode) : N :=
  match c with
  | unknown_argument => 0
  | unhandled_arguments => 1
  | argument_has_already_been_set => 2
  | failed_to_parse => 3
  | no_arguments_passed => 4
  | minimum_value_not_reached => 5
  | maximum_value_exceeded => 6
  | minimum_count_not_reached => 7
  | maximum_count_exceeded => 8
  | unknown_argument_with_suggestion => 9
  | mode_requires_arguments => 100
  | missing_required_argument => 101
  | too_few_values_for_alias => 102
  | dependent_argument_missing => 103
  | one_of_selected_type_mismatch => 104
  | missing_value_separator => 105
  | user_code n => n
  end%N.

(** A thrown exception: exception.hpp:109-155 [multi_lang_exception] (a code and tokens), or one of
    the standard library's exceptions that the modelled code can provoke ([vector::reserve] and
    [string_view::substr]). *)
Inductive exn :=
| EML (c : ecode) (ts : list token)
| ELengthError
| EOutOfRange.

(** The outcome of running a piece of C++.  [UB] is undefined behaviour; [Exited] is
    [std::exit(EXIT_SUCCESS)] (help.hpp:206); [OutOfFuel] is the model's own "did not finish
    within the given number of steps", proved unreachable for the fuel that the model uses. *)
Inductive res (A : Type) :=
| Ok (a : A)
| Throw (e : exn)
| UB
| Exited
| OutOfFuel.
Arguments Ok {A} a.
Arguments Throw {A} e.
Arguments UB {A}.
Arguments Exited {A}.
Arguments OutOfFuel {A}.

(** Sequencing. *)
Definition rbind {A B} (r : res A) (f : A -> res B) : res B :=
  match r with
  | Ok a => f a
  | Throw e => Throw e
  | UB => UB
  | Exited => Exited
  | OutOfFuel => OutOfFuel
  end.

(** [None] as undefined behaviour. *)
Definition or_ub {A} (o : option A) : res A :=
  match o with Some a => Ok a | None => UB end.

Declare Scope res_scope.
Delimit Scope res_scope with res.
Notation "x <- r ;; f" := (rbind r (fun x => f))
  (at level 61, r at next level, right associativity) : res_scope.
Notation "' p <- r ;; f" := (rbind r (fun p => f))
  (at level 61, p pattern, r at next level, right associativity) : res_scope.

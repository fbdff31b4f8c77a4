(** Model of utility/exception_formatter.hpp, policy/exception_translator.hpp and the message text
    of exception.hpp: what the user of the library is told when a parse fails. *)
From Verif Require Import Bytes Token Result Digits.
Local Open Scope nat_scope.

(** [std::string_view::find(c, pos)]. *)
Definition find_from (c : ascii) (s : bytes) (pos : nat) : option nat :=
  option_map (fun i => pos + i) (find_byte c (skipn pos s)).

(** The two bracket characters. *)
Definition open_brace : ascii := "{"%char.
Definition close_brace : ascii := "}"%char.

(** utility/exception_formatter.hpp:55-59 [placeholder]: where it starts and its joining text. *)
Definition placeholder := (nat * bytes)%type.

(** utility/exception_formatter.hpp:61-78 [placeholders_impl].  [substr(start + 1, end - start - 1)]
    with [end < start] asks for almost 2^64 bytes and so returns the rest of the string. *)
Fixpoint placeholders_from (fuel : nat) (s : bytes) (current : nat) : list placeholder :=
  match fuel with
  | O => []
  | S fuel' =>
    match find_from open_brace s current, find_from close_brace s (current + 1) with
    | Some st, Some en =>
      let joining := if Nat.ltb en st then skipn (st + 1) s
                     else firstn (en - st - 1) (skipn (st + 1) s) in
      (st, joining) :: placeholders_from fuel' s (en + 1)
    | _, _ => []
    end
  end.

(** utility/exception_formatter.hpp:85-86 [generate_placeholders].  [current] grows with every
    step, so the length of the text is fuel enough. *)
Definition placeholders (s : bytes) : list placeholder := placeholders_from (S (List.length s)) s 0.

(** utility/exception_formatter.hpp:80-83 [is_greedy]. *)
Definition is_greedy (p : placeholder) : bool := match snd p with [] => false | _ => true end.

(** utility/exception_formatter.hpp:109-126 [placeholder_check] and the assertions around it: does
    the format text compile? *)
Definition format_compiles (s : bytes) : bool :=
  let ps := placeholders s in
  if Nat.ltb 1 (List.length ps) then
    match List.length (filter is_greedy ps) with
    | 0 => true
    | 1 => match rev ps with p :: _ => is_greedy p | [] => true end
    | _ => false
    end
  else true.

(** [std::string::replace(pos, n, with)], which throws if [pos] is beyond the end.  The C++ computes
    [pos] modulo 2^64, so that a negative position is far beyond the end. *)
Definition str_replace (s : bytes) (pos : Z) (n : nat) (w : bytes) : res bytes :=
  if ((pos <? 0) || (Z.of_nat (List.length s) <? pos))%Z then Throw EOutOfRange
  else let p := Z.to_nat pos in Ok (firstn p s ++ w ++ skipn (p + n) s).

Section Texts.
(** The text of a token: [parsing::to_string], {!Token.token_str} with the default prefixes. *)
Variable text_of : token -> bytes.

(** parsing/token_type.hpp:85-95 *)
Fixpoint tokens_str_of (ts : list token) : bytes :=
  match ts with
  | [] => []
  | [t] => text_of t
  | t :: ts' => text_of t ++ b ", " ++ tokens_str_of ts'
  end.

(** utility/exception_formatter.hpp:158-166, the loop over the remaining tokens: [str.insert]. *)
Fixpoint insert_rest_of (joining s : bytes) (pos : Z) (ts : list token) : res bytes :=
  match ts with
  | [] => Ok s
  | t :: ts' =>
    let next := joining ++ text_of t in
    match str_replace s pos 0 next with
    | Ok s' => insert_rest_of joining s' (pos + Z.of_nat (List.length next))%Z ts'
    | r => r
    end
  end.

(** utility/exception_formatter.hpp:143-172, one call of the lambda for each placeholder. *)
Fixpoint fmt_loop_of (ps : list placeholder) (str : bytes) (offset : Z) (ts : list token) : res bytes :=
  match ps with
  | [] => Ok str
  | (st, joining) :: ps' =>
    match ts with
    | t :: ts' =>
      let next := text_of t in
      let pos := (Z.of_nat st + offset)%Z in
      match str_replace str pos (List.length joining + 2) next with
      | Ok str1 =>
        let offset' := (offset + Z.of_nat (List.length next) - 2)%Z in
        match joining with
        | [] => fmt_loop_of ps' str1 offset' ts'
        | _ :: _ =>
          match insert_rest_of joining str1 (pos + Z.of_nat (List.length next))%Z ts' with
          | Ok str2 => fmt_loop_of ps' str2 offset' []
          | r => r
          end
        end
      | r => r
      end
    | [] =>
      match str_replace str (Z.of_nat st + offset)%Z (List.length joining + 2) [] with
      | Ok str1 => fmt_loop_of ps' str1 (offset - 2)%Z []
      | r => r
      end
    end
  end.

(** utility/exception_formatter.hpp:128-175 [fmt]. *)
Definition fmt_of (s : bytes) (ts : list token) : res bytes := fmt_loop_of (placeholders s) s 0 ts.

(** utility/exception_formatter.hpp:96-106 [format]. *)
Definition format_of (s : bytes) (ts : list token) : res bytes :=
  match placeholders s with
  | _ :: _ => fmt_of s ts
  | [] => match ts with [] => Ok s | _ :: _ => fmt_of (s ++ b ": {, }") ts end
  end.

(** A translation table: [error_code_translations]. *)
Definition translations := list (ecode * bytes).

(** exception.hpp:65-103 [default_error_code_translations]. *)
Definition default_translations : translations :=
  [ (unknown_argument, b "Unknown argument");
    (unhandled_arguments, b "Unhandled arguments");
    (argument_has_already_been_set, b "Argument has already been set");
    (failed_to_parse, b "Failed to parse");
    (no_arguments_passed, b "No arguments passed");
    (minimum_value_not_reached, b "Minimum value not reached");
    (maximum_value_exceeded, b "Maximum value exceeded");
    (minimum_count_not_reached, b "Minimum count not reached");
    (maximum_count_exceeded, b "Maximum count exceeded");
    (unknown_argument_with_suggestion, b "Unknown argument: {}. Did you mean { }?");
    (mode_requires_arguments, b "Mode requires arguments");
    (missing_required_argument, b "Missing required argument");
    (too_few_values_for_alias, b "Too few values for alias");
    (dependent_argument_missing,
       b "Dependent argument missing (needs to be before the requiring token on the command line)");
    (one_of_selected_type_mismatch, b "Only one argument from a ""One Of"" can be used at once");
    (missing_value_separator, b "Expected a value separator") ].

(** exception.hpp:168-171: the message of a [parse_exception] made from a string and tokens. *)
Definition plain_message_of (m : bytes) (ts : list token) : bytes :=
  match ts with [] => m | _ :: _ => m ++ b ": " ++ tokens_str_of ts end.

(** policy/exception_translator.hpp:57-66, the iteration over the table; the enumerators are compared
    as numbers. *)
Fixpoint translate_entries_of (table : translations) (c : ecode) (ts : list token) : option (res bytes) :=
  match table with
  | [] => None
  | (c', msg) :: table' =>
    if N.eqb (ecode_num c') (ecode_num c) then Some (format_of msg ts) else translate_entries_of table' c ts
  end.

(** policy/exception_translator.hpp:37-41,55-75 [translate_exception]: the message of the
    [parse_exception] that is thrown.  [user] is the table of the translation type ([[]] if it has
    none) and [fallback] the one of the fallback type. *)
Definition translate_of (user fallback : translations) (c : ecode) (ts : list token) : res bytes :=
  match translate_entries_of (user ++ fallback) c ts with
  | Some r => r
  | None =>
    Ok (plain_message_of (b "Untranslated error code (" ++ lexical_cast (ecode_num c) ++ b ")") ts)
  end.

End Texts.

Notation insert_rest := (insert_rest_of token_str).
Notation fmt_loop := (fmt_loop_of token_str).
Notation fmt := (fmt_of token_str).
Notation format := (format_of token_str).
Notation plain_message := (plain_message_of token_str).
Notation translate_entries := (translate_entries_of token_str).
Notation translate := (translate_of token_str).
Notation tokens_str := (tokens_str_of token_str).

(** Every message of the table compiles: [exception_formatter] is instantiated for all of them. *)
Definition table_compiles (table : translations) : bool :=
  forallb (fun e => format_compiles (snd e)) table.

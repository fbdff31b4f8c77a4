(** Model of multi_lang/iso_locale.hpp and multi_lang/root.hpp. *)
From Verif Require Import Bytes Token Result Tree PreParse Parse Root Help HelpMore.

(** multi_lang/iso_locale.hpp:40-43: [locale_name.substr(0, locale_name.find('.'))]. *)
Definition strip_encoding (s : bytes) : bytes :=
  match find_byte "."%char s with Some i => firstn i s | None => s end.

(** multi_lang/iso_locale.hpp:45-50. *)
Definition dash_to_underscore (c : ascii) : ascii := if Ascii.eqb c "-"%char then "_"%char else c.

(** multi_lang/iso_locale.hpp:35-53 [iso_locale]. *)
Definition iso_locale (s : bytes) : bytes := map dash_to_underscore (strip_encoding s).

Section Select.
  (** What the factory returns is left open; it may depend on the language it is called for. *)
  Context {R : Type}.
  Variable factory : bytes -> R.

  (** [root_] and the languages that the factory has been called for, oldest first. *)
  Definition selection := (option R * list bytes)%type.

  (** multi_lang/root.hpp:115-123, one call of the lambda. *)
  Definition consider (request : bytes) (st : selection) (lang : bytes) : selection :=
    match fst st with
    | Some _ => st
    | None => if beq request lang then (Some (factory lang), snd st ++ [lang]) else st
    end.

  (** multi_lang/root.hpp:113-129, the constructor.  [supported] is
      [DefaultLanguageID, SupportedLanguageIDs...]. *)
  Definition select_language (default : bytes) (others : list bytes) (request : bytes) : R * list bytes :=
    match fold_left (consider request) (default :: others) (None, []) with
    | (Some r, calls) => (r, calls)
    | (None, calls) => (factory default, calls ++ [default])
    end.
End Select.

(** multi_lang/root.hpp:92-97, the class's assertions; [mp_unique] over the language types. *)
Fixpoint all_distinct (l : list bytes) : bool :=
  match l with [] => true | x :: l' => negb (existsb (beq x) l') && all_distinct l' end.
Definition languages_compile (default : bytes) (others : list bytes) : bool :=
  Nat.ltb 1 (List.length (default :: others)) && all_distinct (default :: others).

(** multi_lang/root.hpp:136-179 [parse] and 185-188 [help(std::ostream&)]: the selected root's methods
    (the overloads of [parse] for ranges, containers and argc/argv pass their arguments on as they are).
    [RootFactory] returns a root for each language; each of them has its own one_of objects.  The [help]
    that returns a string (lines 194-197) does not compile. *)
Definition multi_root (factory : bytes -> node) (default : bytes) (others : list bytes) (request : bytes) : node :=
  fst (select_language factory default others request).
Definition multi_parse (factory : bytes -> node) (default : bytes) (others : list bytes) (request : bytes)
           (mem : memory) (args : list token) : outcome :=
  root_parse (multi_root factory default others request) mem args.
Definition multi_help (limits_of : node -> option limits) (columns : N) (factory : bytes -> node)
           (default : bytes) (others : list bytes) (request : bytes) : res bytes :=
  root_help limits_of columns (multi_root factory default others request).

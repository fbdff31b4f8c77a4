(** Model of multi_lang/root_wrapper.hpp and multi_lang/string_selector.hpp. *)
From Verif Require Import Bytes Token Result Tree PreParse Parse Root Help HelpMore MultiLang.

(** multi_lang/string_selector.hpp:25 [string_selector] and 44-49 [SM_]: the [i]-th string, [None] if
    [std::tuple_element_t] does not compile. *)
Definition selected_string (i : nat) (variants : list bytes) : option bytes := nth_error variants i.

(** All strings that [Fn] selects when it is called for [i]; [uses] are the argument lists of its [SM_]s.
    Simplified: [Fn] is a function of the selected strings (the index is used for nothing else). *)
Fixpoint selected_strings (i : nat) (uses : list (list bytes)) : option (list bytes) :=
  match uses with
  | [] => Some []
  | variants :: uses' =>
      match selected_string i variants, selected_strings i uses' with
      | Some s, Some ss => Some (s :: ss)
      | _, _ => None
      end
  end.

(** multi_lang/root_wrapper.hpp:69-83, the class's assertions, and the instances of [Fn]'s call operator
    that [indicies_to_variant] (76-78) needs: one for each index. *)
Definition wrapper_compiles (codes : list bytes) (uses : list (list bytes)) : bool :=
  Nat.ltb 1 (List.length codes) && all_distinct codes &&
  forallb (fun i => match selected_strings i uses with Some _ => true | None => false end)
          (seq 0 (List.length codes)).

Section Wrapper.
  (** What [Fn] returns for an index. *)
  Context {R : Type}.
  Variable fn : nat -> R.

  (** multi_lang/root_wrapper.hpp:94-101, one call of the lambda; the second component has the indices that
      [Fn] was called for, oldest first. *)
  Definition consider_index (codes : list bytes) (request : bytes) (st : option R * list nat) (i : nat)
    : option R * list nat :=
    match fst st with
    | Some _ => st
    | None => if beq request (nth i codes []) then (Some (fn i), snd st ++ [i]) else st
    end.

  (** multi_lang/root_wrapper.hpp:92-107, the constructor; utility/tuple_iterator.hpp:74-79
      [tuple_type_iterator] goes through the indices in order. *)
  Definition wrap (codes : list bytes) (request : bytes) : R * list nat :=
    match fold_left (consider_index codes request) (seq 0 (List.length codes)) (None, []) with
    | (Some r, calls) => (r, calls)
    | (None, calls) => (fn 0, calls ++ [0])
    end.
End Wrapper.

(** The root that [build] makes of the selected strings.  The empty list stands for strings that there are
    none of; [wrapper_compiles] excludes it. *)
Definition wrapped_root {R : Type} (build : list bytes -> R) (codes : list bytes) (uses : list (list bytes))
           (request : bytes) : R * list nat :=
  wrap (fun i => build match selected_strings i uses with Some ss => ss | None => [] end) codes request.

(** multi_lang/root_wrapper.hpp:114-117 [parse] and 123-126 [help(std::ostream&)].  The [help] that returns a
    string (lines 132-135) does not compile. *)
Definition wrapper_parse (build : list bytes -> node) codes uses request (mem : memory) (args : list token)
  : outcome :=
  root_parse (fst (wrapped_root build codes uses request)) mem args.
Definition wrapper_help (limits_of : node -> option limits) (columns : N) (build : list bytes -> node)
           codes uses request : res bytes :=
  root_help limits_of columns (fst (wrapped_root build codes uses request)).

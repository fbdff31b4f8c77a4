(** Specification for C27, C30 and C31: table lookup and what wrapping a text into lines means. *)
From Verif Require Import Bytes CodePoint Utf8.

(** [wrapped lines text]: the text is the lines in order with only whitespace code points between
    them (and possibly behind the last); the whitespace between lines is removed completely. *)
Inductive wrapped : list (list bytes) -> list bytes -> Prop :=
| wrapped_nil : wrapped [] []
| wrapped_cons line gap rest lines :
    Forall (fun c => is_whitespace c = true) gap ->
    match rest with [] => True | c :: _ => gap = [] \/ is_whitespace c = false end ->
    wrapped lines rest ->
    wrapped (line :: lines) (line ++ gap ++ rest).

(** The iteration over the lines finishes after [k] steps with these lines. *)
Definition iterates_to (text : list bytes) (columns : nat) (k : nat) (lines : list (list bytes)) : Prop :=
  lines_from k (line_begin text columns) = Some lines.

(** C27: the table answers every lookup as the list of its rows (first, last, value) does. *)
Definition exact_lookup (rows : list (N * N * N)) (table : list range) : Prop :=
  forall cp,
    (forall f l m, In (f, l, m) rows -> (f <= cp <= l)%N ->
       exists r, find_range table cp = Some r /\ r_first r = f /\ r_last r = l /\ r_meta r = m)
    /\ ((forall f l m, In (f, l, m) rows -> ~ (f <= cp <= l)%N) -> find_range table cp = None).

(** Specification for C74 and C75: help pages of a formatter with its own settings, and pages made
    without looking at what is switched on. *)
From Verif Require Import Bytes Token Result CodePoint Utf8 Tree PreParse Parse Root.
From Verif Require Import SpecTake SpecMode SpecLines SpecReading SpecHelp.

(** A row like [row] of SpecHelp.v, for a formatter that indents by [ind] per level and wraps the
    descriptions if there are [offset] columns or more for them. *)
Inductive row_with (ind : nat) (offset columns : N) (col depth : nat) (label desc : bytes) : bytes -> Prop :=
| with_plain w :
    desc = [] -> terminal_width label = Some w -> depth * ind + w + ind <= col ->
    row_with ind offset columns col depth label desc (spaces (depth * ind) ++ label ++ end_of_line)
| with_described w gap cps line more :
    terminal_width label = Some w -> depth * ind + w + gap = col -> ind <= gap ->
    cp_split desc = Some cps -> wrapped (line :: more) cps ->
    ((N.of_nat col + offset <= columns)%N ->
     Forall (fun l => (N.of_nat (col + list_sum (map cp_width l)) <= columns)%N) (line :: more)) ->
    ((columns < N.of_nat col + offset)%N -> more = []) ->
    row_with ind offset columns col depth label desc
        (spaces (depth * ind) ++ label ++ spaces gap ++ List.concat line
         ++ List.concat (map (fun l => end_of_line ++ spaces col ++ List.concat l) more)
         ++ end_of_line).

(** The tree without the policies that can switch a node off. *)
Fixpoint always_on (n : node) : node :=
  match n with
  | Node k id ty pols cs =>
      Node k id ty
           (filter (fun p => match p with PRuntimeEnable _ | PRuntimeEnableRequired _ _ => false | _ => true end) pols)
           (map always_on cs)
  end.

(** Specification for C69: what a terminal shows of text with colour codes. *)
From Verif Require Import Bytes Token Result CodePoint Utf8 Tree.
From Verif Require Import SpecHelp.

Inductive colour := Plain | Red | Green.
Definition esc : ascii := ascii_of_N 27.

(** The codes of ECMA-48, "select graphic rendition". *)
Definition code (c : colour) : bytes :=
  esc :: match c with Plain => b "[0m" | Red => b "[31m" | Green => b "[32m" end.

(** [screen c s cells c']: a terminal that writes in colour [c] and receives [s] shows the characters
    [cells], each in its colour, and goes on in colour [c']. *)
Inductive screen : colour -> bytes -> list (colour * ascii) -> colour -> Prop :=
| screen_end c : screen c [] [] c
| screen_code c new s cells c' : screen new s cells c' -> screen c (code new ++ s) cells c'
| screen_char c x s cells c' : x <> esc -> screen c s cells c' -> screen c (x :: s) ((c, x) :: cells) c'.

(** Text in one colour. *)
Definition paint (c : colour) (s : bytes) : list (colour * ascii) := map (fun x => (c, x)) s.

(** Text without escape characters. *)
Definition uncoded (s : bytes) : Prop := ~ In esc s.

(** A row of a coloured page: what a row of the plain page shows, the label red and what follows it
    green. *)
Inductive coloured_row (columns : N) (col indent : nat) (label desc : bytes) : list (colour * ascii) -> Prop :=
| coloured_plain text : desc = [] -> row columns col indent label desc text ->
    coloured_row columns col indent label desc (paint Red text)
| coloured_described rest : desc <> [] -> row columns col indent label desc (spaces indent ++ label ++ rest) ->
    coloured_row columns col indent label desc (paint Red (spaces indent ++ label) ++ paint Green rest).

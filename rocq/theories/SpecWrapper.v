(** What a root with a choice of languages is, in terms of the table of its texts. *)
From Verif Require Import Bytes.

(** A table has a row for each text, and in it a column for each language. *)
Definition column (j : nat) (table : list (list bytes)) (texts : list bytes) : Prop :=
  Forall2 (fun row text => nth_error row j = Some text) table texts.

(** The column that is used for a request: the one of that language, or else the first one. *)
Inductive used (codes : list bytes) (request : bytes) : nat -> Prop :=
| used_supported j : nth_error codes j = Some request -> used codes request j
| used_default : ~ In request codes -> used codes request 0.

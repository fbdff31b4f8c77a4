(** Specification for C23: edit distance by single edits. *)
From Verif Require Import Bytes.

(** One insertion, deletion or substitution of a character, at any place. *)
Inductive edit {A} : list A -> list A -> Prop :=
| edit_insert p s x : edit (p ++ s) (p ++ x :: s)
| edit_delete p s x : edit (p ++ x :: s) (p ++ s)
| edit_subst p s x y : edit (p ++ x :: s) (p ++ y :: s).

(** [n] successive edits. *)
Inductive edits {A} : nat -> list A -> list A -> Prop :=
| edits_refl l : edits 0 l l
| edits_step n l m r : edit l m -> edits n m r -> edits (S n) l r.

(** [n] edits turn [l] into [r], and no smaller number of edits does. *)
Definition edit_distance_is {A} (n : nat) (l r : list A) : Prop :=
  edits n l r /\ forall m, edits m l r -> n <= m.

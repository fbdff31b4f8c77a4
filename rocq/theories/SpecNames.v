(** Specification for bare strings as names (C53) and for locale names and languages (C36, C37). *)
From Verif Require Import Bytes Utf8 Tree StringPolicy.

(** A string of more than one user-perceived character, and of exactly one. *)
Definition long_word (s : bytes) : Prop := exists g h gs, graphemes s = Some (g :: h :: gs).
Definition one_letter (s : bytes) : Prop := exists g, graphemes s = Some [g].

(** The bare strings and the policies among the parameters, each in the order given. *)
Definition given_strings (ps : list param) : list bytes :=
  flat_map (fun p => match p with Bare s => [s] | Pol _ => [] end) ps.
Definition given_policies (ps : list param) : list policy :=
  flat_map (fun p => match p with Bare _ => [] | Pol q => [q] end) ps.

(** Strings sorted into words and letters, order kept. *)
Inductive sorted_out : list bytes -> list bytes -> list bytes -> Prop :=
| so_none : sorted_out [] [] []
| so_word s ss ws ls : long_word s -> sorted_out ss ws ls -> sorted_out (s :: ss) (s :: ws) ls
| so_letter s ss ws ls : one_letter s -> sorted_out ss ws ls -> sorted_out (s :: ss) ws (s :: ls).

(** At most two words, a name and a description; and what they become. *)
Inductive named_by (name : bytes -> policy) : list bytes -> list policy -> Prop :=
| nb_none : named_by name [] []
| nb_name n : named_by name [n] [name n]
| nb_both n d : named_by name [n; d] [name n; PDescription d].

(** At most one letter, the short name. *)
Inductive lettered_by : list bytes -> list policy -> Prop :=
| lb_none : lettered_by [] []
| lb_one c : lettered_by [c] [PShortName c].

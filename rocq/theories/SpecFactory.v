(** Specification for C68: what the functions that make nodes add to the policies they are given. *)
From Verif Require Import Bytes Token Result Tree SpecRules SpecNode.

Definition given_kind (ps : list policy) (k : policy_kind) : Prop := exists p, In p ps /\ kind_of p = k.

(** [adds ps n more]: the node has the given policies and [more], in no particular order. *)
Definition adds (ps : list policy) (n : node) (more : list policy) : Prop :=
  forall p, In p (n_pols n) <-> In p ps \/ In p more.

(** The names of the nodes with commas between them. *)
Inductive joined : list node -> bytes -> Prop :=
| joined_one c t : shown c t -> joined [c] (token_str t)
| joined_more c t d cs s : shown c t -> joined (d :: cs) s -> joined (c :: d :: cs) (token_str t ++ b "," ++ s).

(** What is printed in front of the rows of a help page, and behind them. *)
Definition eol : bytes := [ascii_of_N 10].
Inductive title (h : node) : bytes -> Prop :=
| title_none : lacks h [k_program_name] -> title h []
| title_name x : In (PProgramName x) (n_pols h) -> lacks h [k_program_version] -> title h (x ++ eol ++ eol)
| title_version x v : In (PProgramName x) (n_pols h) -> In (PProgramVersion v) (n_pols h) ->
    title h (x ++ b " " ++ v ++ eol ++ eol).
Inductive introduction (h : node) : bytes -> Prop :=
| introduction_none : lacks h [k_program_intro] -> introduction h []
| introduction_text x : In (PProgramIntro x) (n_pols h) -> introduction h (x ++ eol ++ eol).
Inductive closing (h : node) : bytes -> Prop :=
| closing_none : lacks h [k_program_addendum] -> closing h []
| closing_text x : In (PProgramAddendum x) (n_pols h) -> closing h (eol ++ x ++ eol).

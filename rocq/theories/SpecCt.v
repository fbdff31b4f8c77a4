(** Specification for C77: the text of a compile-time string. *)
From Verif Require Import Bytes Token Tree CtString.
Local Open Scope list_scope.

(** Without null characters. *)
Definition nul_free (s : bytes) : Prop := ~ In "000"%char s.

(** The array [st] holds the text [s]: up to the end or the first null character. *)
Definition holds (st : bytes) (s : bytes) : Prop :=
  nul_free s /\ (st = s \/ exists rest, st = s ++ "000"%char :: rest).

(** The characters [pos], ..., [pos + count - 1]. *)
Definition part (pos count : nat) (s : bytes) : bytes := firstn count (skipn pos s).

(** The names in a tree, those that are referred to included. *)
Definition ref_strings (ns : list nameref) : list bytes := map (fun r => match r with NLong s | NShort s => s end) ns.
Definition pol_strings (p : policy) : list bytes :=
  match p with
  | PLongName s | PShortName s | PNoneName s => [s]
  | PAlias ns | PDependent ns => ref_strings ns
  | _ => []
  end.
Fixpoint strings (n : node) : list bytes :=
  match n with Node _ _ _ ps cs => flat_map pol_strings ps ++ flat_map strings cs end.

(** Names with the same text are written the same way. *)
Definition one_spelling (r : node) : Prop :=
  forall st st' s, In st (strings r) -> In st' (strings r) -> holds st s -> holds st' s -> st = st'.

(** The name of an alias group or one_of is its display name and the names of the members, with commas in
    between. *)
Fixpoint commas (l : list bytes) : bytes :=
  match l with
  | [] => []
  | [x] => x
  | x :: l' => x ++ b "," ++ commas l'
  end.

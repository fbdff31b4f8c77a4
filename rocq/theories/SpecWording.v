(** What it means that two programs differ in nothing but the texts that they show: the specification
    for C73. *)
From Verif Require Import Bytes Token Result Tree PreParse Parse Root.

(** Policies that only hold a text for people: the name shown in help and in error messages, the
    description, and the texts of a help page. *)
Definition is_text (p : policy) : bool :=
  match p with
  | PDisplayName _ | PErrorName _ | PDescription _ | PProgramName _ | PProgramVersion _ | PProgramIntro _
  | PProgramAddendum _ => true
  | _ => false
  end.

(** Those that appear in error messages. *)
Definition is_error_text (p : policy) : bool :=
  match p with PDisplayName _ | PErrorName _ => true | _ => false end.

(** Everything else about a node. *)
Definition substance (ps : list policy) : list policy := filter (fun p => negb (is_text p)) ps.

(** [reworded ty names n n']: the tree [n'] is the tree [n] with other texts, or with texts added or
    removed.  As the texts are part of a node's C++ type, type [i] becomes type [ty i].  If [names] is set,
    only descriptions and the texts of help pages may differ, not the names used in error messages. *)
Inductive reworded (ty : N -> N) (names : bool) : node -> node -> Prop :=
| Reworded k i t ps ps' cs cs' :
    substance ps = substance ps' ->
    (names = true -> filter is_error_text ps = filter is_error_text ps') ->
    Forall2 (reworded ty names) cs cs' ->
    reworded ty names (Node k i t ps cs) (Node k (ty i) t ps' cs').

(** Nodes of different types still have different types. *)
Definition keeps_types (ty : N -> N) : Prop := forall x y, ty x = ty y -> x = y.

(** Tokens of an error message: the same, or those that name the same node. *)
Definition reworded_token (ty : N -> N) (names : bool) (t t' : token) : Prop :=
  t = t' \/ exists n n', reworded ty names n n' /\ t = node_token n /\ t' = node_token n'.

Definition reworded_exn (ty : N -> N) (names : bool) (e e' : exn) : Prop :=
  match e, e' with
  | EML c ts, EML c' ts' => c = c' /\ Forall2 (reworded_token ty names) ts ts'
  | ELengthError, ELengthError | EOutOfRange, EOutOfRange => True
  | _, _ => False
  end.

(** The same way of ending. *)
Definition reworded_res {A} (ty : N -> N) (names : bool) (R : A -> A -> Prop) (r r' : res A) : Prop :=
  match r, r' with
  | Ok x, Ok y => R x y
  | Throw e, Throw e' => reworded_exn ty names e e'
  | UB, UB | Exited, Exited | OutOfFuel, OutOfFuel => True
  | _, _ => False
  end.

(** The same router with the same values, or the help page of the same node. *)
Definition reworded_event (ty : N -> N) (names : bool) (e e' : event) : Prop :=
  match e, e' with
  | EvRoute n vs, EvRoute n' vs' => reworded ty names n n' /\ vs = vs'
  | EvHelp h t f, EvHelp h' t' f' => reworded ty names h h' /\ reworded ty names t t' /\ f = f'
  | _, _ => False
  end.

(** What one_of nodes remember: the type of the chosen member. *)
Definition reworded_mem (ty : N -> N) (m : memory) : memory := map (fun kv => (fst kv, ty (snd kv))) m.

Definition reworded_outcome (ty : N -> N) (names : bool) (o o' : outcome) : Prop :=
  o_mem o' = reworded_mem ty (o_mem o) /\
  Forall2 (reworded_event ty names) (o_events o) (o_events o') /\
  reworded_res ty names eq (o_res o) (o_res o').

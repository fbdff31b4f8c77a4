(** Specification for C22: which policies take part in the pre-parse stage. *)
From Verif Require Import Bytes Token Result CodePoint Utf8 Tree PreParse.

(** Policies with a pre-parse phase. *)
Definition phased (p : policy) : bool :=
  match p with
  | PValueSeparator _ | PShortFormExpander | PRuntimeEnable _ | PRuntimeEnableRequired _ _
  | PTokenEndMarker _ | PMinMaxCount _ _ | PAlias _ | PDependent _ => true
  | _ => false
  end.

(** The (at most one) policy of a class among the given ones. *)
Definition pick (f : policy -> bool) (ps : list policy) : list policy :=
  match find f ps with Some p => [p] | None => [] end.

Definition is_separator (p : policy) := match p with PValueSeparator _ => true | _ => false end.
Definition is_expander (p : policy) := match p with PShortFormExpander => true | _ => false end.
Definition is_enable (p : policy) :=
  match p with PRuntimeEnable _ | PRuntimeEnableRequired _ _ => true | _ => false end.
Definition is_marker (p : policy) := match p with PTokenEndMarker _ => true | _ => false end.
Definition is_count (p : policy) := match p with PMinMaxCount _ _ => true | _ => false end.
Definition is_alias (p : policy) := match p with PAlias _ => true | _ => false end.
Definition is_dependent (p : policy) := match p with PDependent _ => true | _ => false end.

(** The documented order of the phases: separator, short-form expansion, runtime enable, end marker,
    count, alias, dependency. *)
Definition phase_order (ps : list policy) : list policy :=
  pick is_separator ps ++ pick is_expander ps ++ pick is_enable ps ++ pick is_marker ps
  ++ pick is_count ps ++ pick is_alias ps ++ pick is_dependent ps.

(** No two policies with a pre-parse phase have the same priority. *)
Definition distinct_priorities (ps : list policy) : Prop := NoDup (map priority (filter phased ps)).

(** The outcome of a pre-parse, without the node itself. *)
Definition visible (r : pst * res (option target)) : pst * res (option (list node * list token * list target)) :=
  (fst r, match snd r with
          | Ok (Some t) => Ok (Some (tg_parents t, tg_toks t, tg_subs t))
          | Ok None => Ok None
          | Throw e => Throw e
          | UB => UB
          | Exited => Exited
          | OutOfFuel => OutOfFuel
          end).

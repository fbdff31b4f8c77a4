(** Specification for C20: which parse actions are still waiting inside a target. *)
From Verif Require Import Bytes Token ParseTarget.

Section Waiting.
  Context {A : Type}.

  (** The actions held by a target and by all its sub-targets. *)
  Fixpoint waiting (t : target A) : list A :=
    match t with
    | Tgt p _ subs =>
      (match p with Some a => [a] | None => [] end) ++ flat_map waiting subs
    end.

  (** The actions held by all variables of a program. *)
  Definition all_waiting (vs : list (target A)) : list A := flat_map waiting vs.

  (** The action a target runs when it is invoked. *)
  Definition action_of (t : target A) : option A := match t with Tgt p _ _ => p end.

  (** The same target, unable to run anything. *)
  Definition disarmed (t : target A) : target A := match t with Tgt _ ts subs => Tgt None ts subs end.
End Waiting.

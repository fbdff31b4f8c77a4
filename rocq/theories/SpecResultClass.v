(** What a result object is to tell about its content. *)
From Verif Require Import Bytes ResultClass.

Section SpecResultClass.
  Context {V E : Type}.
  Variable left_value : V -> V.
  Variable left_error : E -> E.
  Variable value_eq : V -> V -> bool.

  (** Every member gives the answer for the value or exception [x]. *)
  Definition tells (c : cell V E) (x : V + E) : Prop :=
    match x with
    | inl v => has_result c = true /\ has_error c = false /\ to_bool c = true /\ op_not c = false /\
               get_if c = Some v /\ get c = inl v /\ fst (extract left_value left_error c) = inl v /\
               throw_exception c = None
    | inr e => has_result c = false /\ has_error c = true /\ to_bool c = false /\ op_not c = true /\
               get_if c = None /\ get c = inr (Held e) /\
               fst (extract left_value left_error c) = inr (Held e) /\
               throw_exception c = Some (Held e)
    end.

  (** What is left after [k] moves. *)
  Definition left_over (k : nat) (x : V + E) : V + E :=
    match x with
    | inl v => inl (Nat.iter k left_value v)
    | inr e => inr (Nat.iter k left_error e)
    end.

  (** A use that moves the content away. *)
  Definition moves (o : op V E) : Prop := o = Extract \/ o = Give.

  (** Two contents are equal if both are values, and equal ones. *)
  Definition equal_contents (x y : V + E) : bool :=
    match x, y with inl v, inl w => value_eq v w | _, _ => false end.
End SpecResultClass.

(** Model of the class [result] of utility/result.hpp. *)
From Verif Require Import Bytes.

Section ResultClass.
  (** [result_type] and [exception_type]; what is left of a value or exception that was moved from; the
      value's [operator==]. *)
  Context {V E : Type}.
  Variable left_value : V -> V.
  Variable left_error : E -> E.
  Variable value_eq : V -> V -> bool.

  (** utility/result.hpp:206 [data_]; [Nothing] is [valueless_by_exception]. *)
  Inductive cell := Value (v : V) | Error (e : E) | Nothing.

  (** What the class throws: the exception, or [std::get]'s [std::bad_variant_access]. *)
  Inductive thrown := Held (e : E) | BadAccess.

  (** utility/result.hpp:35 and 42, the constructors. *)
  Definition of_value (v : V) : cell := Value v.
  Definition of_error (e : E) : cell := Error e.

  (** utility/result.hpp:48 [has_result]. *)
  Definition has_result (c : cell) : bool := match c with Value _ => true | _ => false end.
  (** utility/result.hpp:54 [has_error]. *)
  Definition has_error (c : cell) : bool := negb (has_result c).
  (** utility/result.hpp:60 [operator bool]. *)
  Definition to_bool (c : cell) : bool := has_result c.
  (** utility/result.hpp:66 [operator!]. *)
  Definition op_not (c : cell) : bool := has_error c.

  (** [std::get<0>(data_)] and [std::get<1>(data_)]. *)
  Definition get0 (c : cell) : V + thrown := match c with Value v => inl v | _ => inr BadAccess end.
  Definition get1 (c : cell) : thrown := match c with Error e => Held e | _ => BadAccess end.

  (** utility/result.hpp:73-79 [operator==]. [None]: an exception would leave a function that is
      [noexcept], so the program ends. *)
  Definition op_eq (c d : cell) : option bool :=
    if has_error c || has_error d then Some false
    else match get0 c, get0 d with inl v, inl w => Some (value_eq v w) | _, _ => None end.
  (** utility/result.hpp:86-89 [operator!=]. *)
  Definition op_ne (c d : cell) : option bool := option_map negb (op_eq c d).
  (** utility/result.hpp:97-104 and 124-128 [operator==] with a value on the right or left. *)
  Definition op_eq_value (c : cell) (w : V) : option bool :=
    if has_error c then Some false else match get0 c with inl v => Some (value_eq v w) | inr _ => None end.
  Definition value_op_eq (w : V) (c : cell) : option bool := op_eq_value c w.
  (** utility/result.hpp:112-116 and 136-140 [operator!=] with a value on the right or left. *)
  Definition op_ne_value (c : cell) (w : V) : option bool := option_map negb (op_eq_value c w).
  Definition value_op_ne (w : V) (c : cell) : option bool := option_map negb (value_op_eq w c).

  (** utility/result.hpp:147-150 and 156-159 [get_if]; the pointer as what it points to. *)
  Definition get_if (c : cell) : option V :=
    if has_result c then match get0 c with inl v => Some v | inr _ => None end else None.

  (** utility/result.hpp:168-174 [extract], and the object afterwards. *)
  Definition extract (c : cell) : (V + thrown) * cell :=
    match c with
    | Value v => (inl v, Value (left_value v))
    | Error e => (inr (Held e), Error (left_error e))
    | Nothing => (inr BadAccess, Nothing)
    end.

  (** utility/result.hpp:182-192 [get]; copies and references are the same here. *)
  Definition get (c : cell) : V + thrown := if has_result c then get0 c else inr (get1 c).

  (** utility/result.hpp:198-203 [throw_exception]. *)
  Definition throw_exception (c : cell) : option thrown := if has_error c then Some (get1 c) else None.

  (** What happens to an object; the members that move, and the implicit assignment (utility/result.hpp:17
      declares no other). [Put]: an assignment of a result that holds this, or the construction; [Broken]:
      one where the copy or move throws; [Extract]; [Give]: it is moved from as a whole. *)
  Inductive op := Put (x : V + E) | Broken (x : V + E) | Extract | Give.

  Definition of_sum (x : V + E) : cell := match x with inl v => of_value v | inr e => of_error e end.

  (** [std::variant]'s assignment ([variant.assign]).  Simplified: an assignment that throws within the same
      alternative leaves the old content, between alternatives none (as it is if the alternative's copy may
      throw and its move as well). *)
  Definition step (c : cell) (o : op) : cell :=
    match o with
    | Put x => of_sum x
    | Broken x => match c, x with
                  | Value _, inl _ | Error _, inr _ => c
                  | _, _ => Nothing
                  end
    | Extract => snd (extract c)
    | Give => match c with
              | Value v => Value (left_value v)
              | Error e => Error (left_error e)
              | Nothing => Nothing
              end
    end.
End ResultClass.
Arguments cell : clear implicits.
Arguments thrown : clear implicits.
Arguments op : clear implicits.

(** Specification for C21: the same operations on one plain list. *)
From Verif Require Import Bytes Token Adapter.

(** An operation on the sequence at a position; [None] is the end position. *)
Inductive seq_op :=
| OpGet (i : option Z)
| OpSet (i : option Z) (v : token)
| OpInsert (i : option Z) (vs : list token)
| OpErase (i : option Z)
| OpTransfer (i : option Z).

(** The element at position [i], if there is one. *)
Definition at_pos (l : list token) (i : option Z) : option token :=
  match i with
  | None => None
  | Some i => if (i <? 0)%Z then None else nth_error l (Z.to_nat i)
  end.

(** Position as a natural number; every position past the last is the end. *)
Definition clamp (l : list token) (i : option Z) : option nat :=
  match i with
  | None => Some (List.length l)
  | Some i => if (i <? 0)%Z then None else Some (Nat.min (Z.to_nat i) (List.length l))
  end.

(** The plain list after the operation and what is read; [None]: the operation is not allowed. *)
Definition seq_step (l : list token) (o : seq_op) : option (list token * option token) :=
  match o with
  | OpGet i => match at_pos l i with Some t => Some (l, Some t) | None => None end
  | OpSet i v =>
      match i, at_pos l i with
      | Some i, Some _ => Some (firstn (Z.to_nat i) l ++ [v] ++ skipn (S (Z.to_nat i)) l, None)
      | _, _ => None
      end
  | OpInsert i vs =>
      match clamp l i with
      | Some k => Some (firstn k l ++ vs ++ skipn k l, None)
      | None => None
      end
  | OpErase i =>
      match clamp l i with
      | Some k => Some (firstn k l ++ skipn (S k) l, None)
      | None => None
      end
  | OpTransfer _ => Some (l, None)
  end.

(** A sequence of operations: final list and everything read, in order. *)
Fixpoint seq_run (l : list token) (os : list seq_op) : option (list token * list token) :=
  match os with
  | [] => Some (l, [])
  | o :: os' =>
      match seq_step l o with
      | None => None
      | Some (l', r) =>
          match seq_run l' os' with
          | None => None
          | Some (l'', rs) => Some (l'', match r with Some t => t :: rs | None => rs end)
          end
      end
  end.

(** The adapter's interpretation of the same operations. *)
Definition to_iter (i : option Z) : iter := match i with None => IEnd | Some i => IAt i end.

Definition adp_step (a : adapter) (o : seq_op) : option (adapter * option token) :=
  match o with
  | OpGet i => option_map (fun t => (a, Some t)) (a_deref a (to_iter i))
  | OpSet i v => option_map (fun a' => (a', None)) (a_set a (to_iter i) v)
  | OpInsert i vs => option_map (fun p => (fst p, None)) (a_insert a (to_iter i) vs)
  | OpErase i => option_map (fun a' => (a', None)) (a_erase a (to_iter i))
  | OpTransfer i => Some (transfer a (to_iter i), None)
  end.

Fixpoint adp_run (a : adapter) (os : list seq_op) : option (adapter * list token) :=
  match os with
  | [] => Some (a, [])
  | o :: os' =>
      match adp_step a o with
      | None => None
      | Some (a', r) =>
          match adp_run a' os' with
          | None => None
          | Some (a'', rs) => Some (a'', match r with Some t => t :: rs | None => rs end)
          end
      end
  end.

(** A range-for loop over the adapter (begin, [==] with end, dereference, increment): the tokens that
    it visits, if it takes at most [steps] rounds and all are allowed. *)
Fixpoint adp_loop (steps : nat) (a : adapter) (it : iter) : option (list token) :=
  if i_eqb a it IEnd then Some []
  else match steps, a_deref a it with
       | S k, Some t => option_map (cons t) (adp_loop k a (i_add it 1))
       | _, _ => None
       end.

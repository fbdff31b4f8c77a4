(** What the operations of [unsafe_any] mean for the values that are held. *)
From Verif Require Import Bytes UnsafeAny.

(** Each variable: not there, empty, or a value with its type. *)
Definition any_world := nat -> option (option (nat * nat)).
Definition put (w : any_world) (a : nat) (x : option (option (nat * nat))) : any_world :=
  fun c => if Nat.eqb c a then x else w c.

(** [None]: the program may not do this.  Copying an empty one has no effect, since it throws (that it
    does is a separate theorem). *)
Definition any_meaning (w : any_world) (o : any_op) : option any_world :=
  match o with
  | AEmpty a => match w a with None => Some (put w a (Some None)) | Some _ => None end
  | AMake a t v => match w a with None => Some (put w a (Some (Some (t, v)))) | Some _ => None end
  | ACopy a c => match w a, w c with
                 | None, Some (Some x) => Some (put w a (Some (Some x)))
                 | None, Some None => Some w
                 | _, _ => None
                 end
  | AMove a c => match w a, w c with
                 | None, Some x => Some (put (put w a (Some x)) c (Some None))
                 | _, _ => None
                 end
  | AAssign a c => match w a, w c with
                   | Some _, Some (Some x) => Some (put w a (Some (Some x)))
                   | Some _, Some None => Some w
                   | _, _ => None
                   end
  | AAssignMoved a c => match w a, w c with
                        | Some _, Some x => Some (put (put w c (Some None)) a (Some x))
                        | _, _ => None
                        end
  | AAssignValue a t v => match w a with Some _ => Some (put w a (Some (Some (t, v)))) | None => None end
  | ASet a t v => match w a with
                  | Some (Some (t', _)) => if Nat.eqb t' t then Some (put w a (Some (Some (t, v)))) else None
                  | _ => None
                  end
  | ASwap a c => match w a, w c with
                 | Some x, Some y => Some (put (put w a (Some y)) c (Some x))
                 | _, _ => None
                 end
  | ADestroy a => match w a with Some _ => Some (put w a None) | None => None end
  end.

Fixpoint any_means (w : any_world) (l : list any_op) : option any_world :=
  match l with
  | [] => Some w
  | o :: l' => match any_meaning w o with Some w' => any_means w' l' | None => None end
  end.
Definition no_anys : any_world := fun _ => None.

(** Model of utility/unsafe_any.hpp: what happens to the objects that are put into an [unsafe_any]. *)
From Verif Require Import Bytes.

(** The [unsafe_any] objects: variables of the program, the parameter of an assignment, and the local
    [new_any] of the copy constructor. *)
Inductive slot := Var (a : nat) | Param | Temp.
Definition slot_eqb (x y : slot) : bool :=
  match x, y with
  | Var a, Var c => Nat.eqb a c
  | Param, Param => true
  | Temp, Temp => true
  | _, _ => false
  end.

(** Where a held object is: in the buffer of an [unsafe_any], or in a block of its own (named like the
    object, since no block is used twice). *)
Inductive spot := InBuffer (s : slot) | InBlock (p : nat).

(** A held object: its number (each construction makes a new one), its type, its value, and where its
    constructor ran. *)
Record held := Held { h_id : nat; h_type : nat; h_value : nat; h_made_at : spot }.

(** unsafe_any.hpp:199-204 [storage_type] *)
Inductive any_storage := Null | Pointer (p : nat) | Buffer (x : held).
(** unsafe_any.hpp:206-208.  The two functions are determined by the type of the object. *)
Record any := Any { a_storage : any_storage; a_copier : option nat; a_destroyer : option nat }.

(** The memory; [am_made]: this many objects were made so far, [am_gone]: the destructors that ran, the
    last first. *)
Record any_memory := AMem {
  am_anys : slot -> option any;
  am_blocks : nat -> option held;
  am_made : nat;
  am_gone : list nat
}.
Definition any_start : any_memory := AMem (fun _ => None) (fun _ => None) 0 [].

Definition set_any (m : any_memory) (s : slot) (x : option any) : any_memory :=
  AMem (fun s' => if slot_eqb s' s then x else am_anys m s') (am_blocks m) (am_made m) (am_gone m).

(** What became of an operation: done, [std::bad_function_call], or undefined behaviour. *)
Inductive any_outcome := Did (m : any_memory) | Threw (m : any_memory) | Wrong.
Definition and_then (r : any_outcome) (f : any_memory -> any_outcome) : any_outcome :=
  match r with Did m => f m | Threw m => Threw m | Wrong => Wrong end.

Section Any.
(** unsafe_any.hpp:27-28 [use_internal_storage]: which types fit into the buffer. *)
Variable fits_buffer : nat -> bool.

(** unsafe_any.hpp:35 the default constructor *)
Definition any_default (m : any_memory) (s : slot) : any_outcome :=
  match am_anys m s with
  | None => Did (set_any m s (Some (Any Null None None)))
  | Some _ => Wrong
  end.

(** unsafe_any.hpp:44-62,73-95: from a value of type [t].  Simplification: the constructors of held
    types and the allocator do not throw. *)
Definition any_make (m : any_memory) (s : slot) (t v : nat) : any_outcome :=
  match am_anys m s with
  | None =>
      let n := am_made m in
      if fits_buffer t then
        Did (AMem (fun s' => if slot_eqb s' s then Some (Any (Buffer (Held n t v (InBuffer s))) (Some t) (Some t))
                             else am_anys m s')
                  (am_blocks m) (S n) (am_gone m))
      else
        Did (AMem (fun s' => if slot_eqb s' s then Some (Any (Pointer n) (Some t) (Some t)) else am_anys m s')
                  (fun p => if Nat.eqb p n then Some (Held n t v (InBlock n)) else am_blocks m p)
                  (S n) (am_gone m))
  | Some _ => Wrong
  end.

(** unsafe_any.hpp:147-181: the object that [get] of type [t] refers to; [None]: there is no object of
    this type. *)
Definition any_object (m : any_memory) (x : any) (t : nat) : option held :=
  let o := if fits_buffer t then match a_storage x with Buffer h => Some h | _ => None end
           else match a_storage x with Pointer p => am_blocks m p | _ => None end in
  match o with Some h => if Nat.eqb (h_type h) t then Some h else None | None => None end.
Definition any_get (m : any_memory) (s : slot) (t : nat) : option nat :=
  match am_anys m s with
  | Some x => option_map h_value (any_object m x t)
  | None => None
  end.
(** unsafe_any.hpp:139 [has_value] *)
Definition any_has_value (m : any_memory) (s : slot) : option bool :=
  option_map (fun x => match a_destroyer x with Some _ => true | None => false end) (am_anys m s).

(** An assignment to what [get] returned. *)
Definition any_set (m : any_memory) (s : slot) (t v : nat) : any_outcome :=
  match am_anys m s with
  | Some x =>
      match any_object m x t with
      | Some h =>
          let h' := Held (h_id h) (h_type h) v (h_made_at h) in
          match a_storage x with
          | Pointer p => Did (AMem (am_anys m) (fun q => if Nat.eqb q p then Some h' else am_blocks m q)
                                   (am_made m) (am_gone m))
          | Buffer _ => Did (set_any m s (Some (Any (Buffer h') (a_copier x) (a_destroyer x))))
          | Null => Wrong
          end
      | None => Wrong
      end
  | None => Wrong
  end.

(** unsafe_any.hpp:188-196 [swap]: the storage is exchanged as bytes, so that a held object in the
    buffer moves without its constructors being called. *)
Definition any_swap (m : any_memory) (s s' : slot) : any_outcome :=
  match am_anys m s, am_anys m s' with
  | Some x, Some y => Did (set_any (set_any m s (Some y)) s' (Some x))
  | _, _ => Wrong
  end.

(** unsafe_any.hpp:128-133 the destructor, with the destroyers of lines 58-61 and 87-93 *)
Definition any_destroy (m : any_memory) (s : slot) : any_outcome :=
  match am_anys m s with
  | Some x =>
      let m' := set_any m s None in
      match a_destroyer x with
      | None => Did m'
      | Some t =>
          match any_object m x t with
          | Some h =>
              let gone := h_id h :: am_gone m in
              if fits_buffer t then Did (AMem (am_anys m') (am_blocks m') (am_made m') gone)
              else match a_storage x with
                   | Pointer p => Did (AMem (am_anys m') (fun q => if Nat.eqb q p then None else am_blocks m q)
                                            (am_made m') gone)
                   | _ => Wrong
                   end
          | None => Wrong
          end
      end
  | None => Wrong
  end.

(** unsafe_any.hpp:102 the move constructor *)
Definition any_move (m : any_memory) (s other : slot) : any_outcome :=
  and_then (any_default m s) (fun m1 => any_swap m1 s other).

(** unsafe_any.hpp:108-112 the copy constructor, with the copiers of lines 55-57 and 84-86; calling a
    [std::function] that holds nothing throws. *)
Definition any_copy (m : any_memory) (s other : slot) : any_outcome :=
  match am_anys m s, am_anys m other with
  | None, Some y =>
      match a_copier y with
      | None => Threw m
      | Some t =>
          match any_object m y t with
          | Some h =>
              and_then (any_default m s) (fun m1 =>
              and_then (any_make m1 Temp t (h_value h)) (fun m2 =>
              and_then (any_swap m2 s Temp) (fun m3 =>
              any_destroy m3 Temp)))
          | None => Wrong
          end
      end
  | _, _ => Wrong
  end.

(** unsafe_any.hpp:119-123 the assignment, which takes its parameter by value; [param]: how the
    parameter is made. *)
Definition any_assign (m : any_memory) (s : slot) (param : any_memory -> any_outcome) : any_outcome :=
  match am_anys m s with
  | None => Wrong
  | Some _ =>
      and_then (param m) (fun m1 =>
      and_then (any_swap m1 s Param) (fun m2 =>
      any_destroy m2 Param))
  end.

(** What a program can do with its variables. *)
Inductive any_op :=
  | AEmpty (a : nat)                      (* unsafe_any a; *)
  | AMake (a t v : nat)                   (* unsafe_any a{T{v}}; *)
  | ACopy (a c : nat)                     (* unsafe_any a{c}; *)
  | AMove (a c : nat)                     (* unsafe_any a{std::move(c)}; *)
  | AAssign (a c : nat)                   (* a = c; *)
  | AAssignMoved (a c : nat)              (* a = std::move(c); *)
  | AAssignValue (a t v : nat)            (* a = T{v}; *)
  | ASet (a t v : nat)                    (* a.get<T>() = T{v}; *)
  | ASwap (a c : nat)                     (* swap(a, c); *)
  | ADestroy (a : nat).

Definition any_step (m : any_memory) (o : any_op) : any_outcome :=
  match o with
  | AEmpty a => any_default m (Var a)
  | AMake a t v => any_make m (Var a) t v
  | ACopy a c => any_copy m (Var a) (Var c)
  | AMove a c => any_move m (Var a) (Var c)
  | AAssign a c => any_assign m (Var a) (fun m1 => any_copy m1 Param (Var c))
  | AAssignMoved a c => any_assign m (Var a) (fun m1 => any_move m1 Param (Var c))
  | AAssignValue a t v => any_assign m (Var a) (fun m1 => any_make m1 Param t v)
  | ASet a t v => any_set m (Var a) t v
  | ASwap a c => any_swap m (Var a) (Var c)
  | ADestroy a => any_destroy m (Var a)
  end.

(** A program that catches the exceptions; [None]: undefined behaviour. *)
Fixpoint any_run (m : any_memory) (l : list any_op) : option any_memory :=
  match l with
  | [] => Some m
  | o :: l' => match any_step m o with Did m' | Threw m' => any_run m' l' | Wrong => None end
  end.
End Any.

(** Model of parsing/parse_target.hpp: the run-once object that pre-parsing hands to parsing.

    Here the objects are modelled as C++ objects with identity, so that moving from one, or
    calling one twice, is visible.  Parse.v runs targets directly and does not need this. *)
From Verif Require Import Bytes Token.

Section Targets.
  (** What the stored [std::function] does is left open: only which one it is matters. *)
  Context {A : Type}.

  (** parsing/parse_target.hpp:136-140, the data members: [parse_] ([None] is an empty
      [std::function]), [tokens_] and [sub_targets_].
      Simplification: [node_type_] is left out. *)
  Inductive target :=
  | Tgt (tg_parse : option A) (tg_tokens : list token) (tg_subs : list target).

  (** The state of an object that has been moved from.  Both vectors are empty; that the
      [std::function] is empty as well is what libstdc++, libc++ and MSVC do, the C++ standard
      leaves it unspecified. *)
  Definition moved_from : target := Tgt None [] [].

  (** parsing/parse_target.hpp:125-134 [operator()]: the object afterwards, and the call that is
      made, if any: which action, and the target that it is given. *)
  Definition invoke (t : target) : target * option (A * target) :=
    match t with
    | Tgt (Some a) ts subs => (moved_from, Some (a, Tgt None ts subs))
    | Tgt None _ _ => (t, None)
    end.

  (** Replace the element at an index; indices out of range do nothing. *)
  Fixpoint set_nth {B} (k : nat) (x : B) (l : list B) : list B :=
    match l, k with
    | [], _ => []
    | _ :: l', 0 => x :: l'
    | y :: l', S k' => y :: set_nth k' x l'
    end.

  (** parsing/parse_target.hpp:82-94 [sub_targets()]: the object at the end of a path of
      sub-target indices. *)
  Fixpoint sub_at (t : target) (path : list nat) : option target :=
    match path with
    | [] => Some t
    | k :: path' =>
      match t with
      | Tgt _ _ subs => match nth_error subs k with Some u => sub_at u path' | None => None end
      end
    end.

  (** The same position, overwritten. *)
  Fixpoint set_at (t : target) (path : list nat) (x : target) : target :=
    match path with
    | [] => x
    | k :: path' =>
      match t with
      | Tgt p ts subs =>
        match nth_error subs k with
        | Some u => Tgt p ts (set_nth k (set_at u path' x) subs)
        | None => t
        end
      end
    end.

  (** Where an object is: the number of a variable, then a path of sub-targets. *)
  Definition place := (nat * list nat)%type.

  (** What a program can do with targets without copying any of them. *)
  Inductive op :=
  | Invoke (p : place)                        (* 125-134 [operator()] *)
  | MoveOut (p : place)                       (* the move constructor, into a new variable *)
  | MoveTo (p : place) (v : nat)              (* the move assignment, onto an old variable *)
  | AddSub (p : place) (v : nat)              (* 113 [add_sub_target(std::move(v))] *)
  | SetTokens (p : place) (ts : list token).  (* 119 [tokens(ts)] *)

  (** The variables that are alive and the calls made so far, oldest first. *)
  Record world := World { w_vars : list target; w_calls : list (A * target) }.

  (** Look up a place. *)
  Definition look (w : world) (p : place) : option target :=
    match nth_error (w_vars w) (fst p) with Some t => sub_at t (snd p) | None => None end.

  (** Overwrite a place. *)
  Definition put (vs : list target) (p : place) (x : target) : list target :=
    match nth_error vs (fst p) with
    | Some t => set_nth (fst p) (set_at t (snd p) x) vs
    | None => vs
    end.

  (** One operation; naming an object that does not exist does nothing.  [operator()] leaves the
      target that the action is given as a new variable: it is the action's parameter, which the
      action is then free to use. *)
  Definition step (w : world) (o : op) : world :=
    match o with
    | Invoke p =>
      match look w p with
      | Some t =>
        match invoke t with
        | (t', Some (a, arg)) =>
          World (put (w_vars w) p t' ++ [arg]) (w_calls w ++ [(a, arg)])
        | (t', None) => World (put (w_vars w) p t') (w_calls w)
        end
      | None => w
      end
    | MoveOut p =>
      match look w p with
      | Some t => World (put (w_vars w) p moved_from ++ [t]) (w_calls w)
      | None => w
      end
    | MoveTo p v =>
      match look w p with
      | Some t => World (put (put (w_vars w) p moved_from) (v, []) t) (w_calls w)
      | None => w
      end
    | AddSub p v =>
      match nth_error (w_vars w) v with
      | Some t =>
        let vs := put (w_vars w) (v, []) moved_from in
        match look (World vs (w_calls w)) p with
        | Some (Tgt a ts subs) => World (put vs p (Tgt a ts (subs ++ [t]))) (w_calls w)
        | None => w
        end
      | None => w
      end
    | SetTokens p ts =>
      match look w p with
      | Some (Tgt a _ subs) => World (put (w_vars w) p (Tgt a ts subs)) (w_calls w)
      | None => w
      end
    end.

  (** A whole program. *)
  Definition run (w : world) (os : list op) : world := fold_left step os w.
End Targets.
Arguments target : clear implicits.
Arguments world : clear implicits.

(** Specification for C71: dynamic_string_view objects as values. *)
From Verif Require Import Bytes StringView.

(** What an object holds: a text of somebody else or its own. *)
Inductive content := Borrowed (k : nat) | Owned (x : bytes).
Record world := World { w_objects : nat -> option content; w_outside : nat -> option bytes }.

Definition text_of (w : world) (c : content) : option bytes :=
  match c with Borrowed k => w_outside w k | Owned x => Some x end.
Definition text (w : world) (o : nat) : option bytes :=
  match w_objects w o with Some c => text_of w c | None => None end.
Definition put (w : world) (o : nat) (c : option content) : world :=
  World (upd (w_objects w) o c) (w_outside w).

(** What the operations do to values; [None]: the caller may not do this (objects are made once and used
    until they are destroyed, and texts are there when they are read).  A moved object is empty
    afterwards.  Converting and appending make the text the object's own. *)
Definition value_step (w : world) (x : view_op) : option world :=
  let make o c := if Nat.eqb o 0 then None else match w_objects w o with None => Some (put w o (Some c)) | Some _ => None end in
  match x with
  | VView o k => match w_outside w k with Some _ => make o (Borrowed k) | None => None end
  | VString o s => make o (Owned s)
  | VCopy o other => match w_objects w other with Some c => make o c | None => None end
  | VMove o other =>
      match w_objects w other with
      | Some c => match make o c with Some w' => Some (put w' other (Some (Owned []))) | None => None end
      | None => None
      end
  | VAssign o other =>
      match w_objects w o, w_objects w other with Some _, Some c => Some (put w o (Some c)) | _, _ => None end
  | VAssignMoved o other =>
      match w_objects w o, w_objects w other with
      | Some _, Some c => Some (put (put w other (Some (Owned []))) o (Some c))
      | _, _ => None
      end
  | VSwap a c =>
      match w_objects w a, w_objects w c with
      | Some x, Some y => Some (put (put w a (Some y)) c (Some x))
      | _, _ => None
      end
  | VConvert _ o => match text w o with Some t => Some (put w o (Some (Owned t))) | None => None end
  | VAppend _ _ o k =>
      match text w o, w_outside w k with Some t, Some u => Some (put w o (Some (Owned (t ++ u)))) | _, _ => None end
  | VAppendView _ _ o other =>
      match text w o, text w other with Some t, Some u => Some (put w o (Some (Owned (t ++ u)))) | _, _ => None end
  | VDestroy o => match w_objects w o with Some _ => Some (put w o None) | None => None end
  | VFree k => Some (World (w_objects w) (upd (w_outside w) k None))
  end.
Fixpoint value_run (w : world) (l : list view_op) : option world :=
  match l with
  | [] => Some w
  | x :: l' => match value_step w x with Some w' => value_run w' l' | None => None end
  end.
Definition value_start (texts : nat -> option bytes) : world := World (fun _ => None) texts.

(** Model of utility/dynamic_string_view.hpp as objects in memory. *)
From Verif Require Import Bytes.

(** Where the characters of a view are: in memory of the caller, in the object itself (the buffer for
    short strings inside the [std::string] of the object with this number), or in an allocated block. *)
Inductive place := Outside (k : nat) | Inside (o : nat) | Block (p : nat).

(** A [std::string]: short ones are kept in the object.  Simplification: the capacity is not modelled,
    see {!assign_text}. *)
Inductive storage := Small (s : bytes) | Allocated (p : nat).

(** dynamic_string_view.hpp:187-188: the members [view_] (where and how many characters) and [str_]. *)
Record sview := SView { v_place : place; v_size : nat; v_str : storage }.

(** The memory: objects by number, allocated blocks, memory of the caller. *)
Record memory_of_views := MemV {
  mv_objects : nat -> option sview;
  mv_blocks : nat -> option bytes;
  mv_next : nat;                              (* the blocks from here on were never used *)
  mv_outside : nat -> option bytes
}.

Definition upd {A} (f : nat -> option A) (k : nat) (x : option A) : nat -> option A :=
  fun j => if Nat.eqb j k then x else f j.

Definition set_object (m : memory_of_views) (o : nat) (x : option sview) : memory_of_views :=
  MemV (upd (mv_objects m) o x) (mv_blocks m) (mv_next m) (mv_outside m).
Definition set_block (m : memory_of_views) (p : nat) (x : option bytes) : memory_of_views :=
  MemV (mv_objects m) (upd (mv_blocks m) p x) (mv_next m) (mv_outside m).

Section Small.
(** The number of characters that fit into a [std::string] object; it differs between
    implementations. *)
Variable small : nat.

(** The characters at a place; [None] if there are none any more: reading them is undefined
    behaviour. *)
Definition chars_at (m : memory_of_views) (a : place) : option bytes :=
  match a with
  | Outside k => mv_outside m k
  | Inside o => match mv_objects m o with
                | Some v => match v_str v with Small s => Some s | Allocated _ => None end
                | None => None
                end
  | Block p => mv_blocks m p
  end.

(** Reading the [n] characters of a view.  An empty view reads nothing. *)
Definition read_view (m : memory_of_views) (a : place) (n : nat) : option bytes :=
  match n with
  | O => Some []
  | _ => match chars_at m a with
         | Some s => if Nat.leb n (List.length s) then Some (firstn n s) else None
         | None => None
         end
  end.
(** dynamic_string_view.hpp:104 [operator std::string_view] *)
Definition read_object (m : memory_of_views) (o : nat) : option bytes :=
  match mv_objects m o with Some v => read_view m (v_place v) (v_size v) | None => None end.

(** The text of a [std::string] and the place of its characters ([data()]). *)
Definition string_text (m : memory_of_views) (s : storage) : option bytes :=
  match s with Small x => Some x | Allocated p => mv_blocks m p end.
Definition data_of (o : nat) (s : storage) : place :=
  match s with Small _ => Inside o | Allocated p => Block p end.

(** dynamic_string_view.hpp:155 [internal_storage_size] *)
Definition storage_size (m : memory_of_views) (o : nat) : option nat :=
  match mv_objects m o with
  | Some v => match string_text m (v_str v) with Some x => Some (List.length x) | None => None end
  | None => None
  end.

(** Construct a [std::string] with this text. *)
Definition make_string (m : memory_of_views) (x : bytes) : memory_of_views * storage :=
  if Nat.leb (List.length x) small then (m, Small x)
  else (MemV (mv_objects m) (upd (mv_blocks m) (mv_next m) (Some x)) (S (mv_next m)) (mv_outside m),
        Allocated (mv_next m)).

(** Give a [std::string] a new text.  [keep]: the allocated block is large enough; which it is depends
    on the capacity. *)
Definition assign_text (keep : bool) (m : memory_of_views) (s : storage) (x : bytes) : memory_of_views * storage :=
  match s with
  | Small _ => make_string m x
  | Allocated p =>
      if keep then (set_block m p (Some x), s)
      else let m' := set_block m p None in
           (MemV (mv_objects m') (upd (mv_blocks m') (mv_next m') (Some x)) (S (mv_next m')) (mv_outside m'),
            Allocated (mv_next m'))
  end.

Definition destroy_string (m : memory_of_views) (s : storage) : memory_of_views :=
  match s with Small _ => m | Allocated p => set_block m p None end.

(** dynamic_string_view.hpp:185 [update_view] of object [o]; [None]: no such string. *)
Definition update_view (m : memory_of_views) (o : nat) : option memory_of_views :=
  match mv_objects m o with
  | Some v => match string_text m (v_str v) with
              | Some x => Some (set_object m o (Some (SView (data_of o (v_str v)) (List.length x) (v_str v))))
              | None => None
              end
  | None => None
  end.
Definition update_if_filled (m : memory_of_views) (o : nat) : option memory_of_views :=
  match mv_objects m o with
  | Some v => match string_text m (v_str v) with
              | Some [] => Some m
              | Some _ => update_view m o
              | None => None
              end
  | None => None
  end.

(** dynamic_string_view.hpp:35,44: from a view of characters elsewhere. *)
Definition view_from (m : memory_of_views) (o k : nat) : option memory_of_views :=
  match mv_objects m o, mv_outside m k with
  | None, Some x => Some (set_object m o (Some (SView (Outside k) (List.length x) (Small []))))
  | _, _ => None
  end.

(** The default argument of dynamic_string_view.hpp:35: an empty view of nothing. *)
Definition view_empty (m : memory_of_views) (o : nat) : option memory_of_views :=
  match mv_objects m o with
  | None => Some (set_object m o (Some (SView (Outside 0) 0 (Small []))))
  | Some _ => None
  end.

(** dynamic_string_view.hpp:52: from a string with this text. *)
Definition view_string (m : memory_of_views) (o : nat) (x : bytes) : option memory_of_views :=
  match mv_objects m o with
  | None => let '(m', s) := make_string m x in
            update_view (set_object m' o (Some (SView (Outside 0) 0 s))) o
  | Some _ => None
  end.

(** dynamic_string_view.hpp:60-65: the copy constructor. *)
Definition view_copy (m : memory_of_views) (o other : nat) : option memory_of_views :=
  match mv_objects m o, mv_objects m other with
  | None, Some v =>
      match string_text m (v_str v) with
      | Some x => let '(m', s) := make_string m x in
                  update_if_filled (set_object m' o (Some (SView (v_place v) (v_size v) s))) o
      | None => None
      end
  | _, _ => None
  end.

(** dynamic_string_view.hpp:169-182 [swap]. *)
Definition view_swap (m : memory_of_views) (a c : nat) : option memory_of_views :=
  match mv_objects m a, mv_objects m c with
  | Some va, Some vc =>
      let m' := set_object (set_object m a (Some vc)) c (Some va) in
      match update_if_filled m' a with
      | Some m'' => update_if_filled m'' c
      | None => None
      end
  | _, _ => None
  end.

(** dynamic_string_view.hpp:71-74: move constructor. *)
Definition view_move (m : memory_of_views) (o other : nat) : option memory_of_views :=
  match view_empty m o with Some m' => view_swap m' o other | None => None end.

(** The destructor (generated by the compiler). *)
Definition view_destroy (m : memory_of_views) (o : nat) : option memory_of_views :=
  match mv_objects m o with
  | Some v => Some (set_object (destroy_string m (v_str v)) o None)
  | None => None
  end.

(** dynamic_string_view.hpp:81-85: assignment; the parameter is object [tmp], made by the copy or the
    move constructor and destroyed at the end of the call. *)
Definition view_assign (moved : bool) (tmp : nat) (m : memory_of_views) (o other : nat) : option memory_of_views :=
  match (if moved then view_move m tmp other else view_copy m tmp other) with
  | Some m1 => match view_swap m1 o tmp with
               | Some m2 => view_destroy m2 tmp
               | None => None
               end
  | None => None
  end.

(** dynamic_string_view.hpp:91-97 [convert_to_internal_storage]. *)
Definition view_convert (keep : bool) (m : memory_of_views) (o : nat) : option memory_of_views :=
  match mv_objects m o with
  | Some v =>
      match string_text m (v_str v), read_view m (v_place v) (v_size v) with
      | Some [], Some x =>
          let '(m', s) := assign_text keep m (v_str v) x in
          update_view (set_object m' o (Some (SView (v_place v) (v_size v) s))) o
      | Some (_ :: _), _ => Some m
      | _, _ => None
      end
  | None => None
  end.

(** dynamic_string_view.hpp:134-151: [operator+=] after the conversion; [x] are the characters to
    append. *)
Definition view_extend (keep : bool) (m : memory_of_views) (o : nat) (x : bytes) : option memory_of_views :=
  match mv_objects m o with
  | Some v =>
      match string_text m (v_str v) with
      | Some y => let '(m', s) := assign_text keep m (v_str v) (y ++ x) in
                  update_view (set_object m' o (Some (SView (v_place v) (v_size v) s))) o
      | None => None
      end
  | None => None
  end.
(** dynamic_string_view.hpp:134-141, with characters elsewhere. *)
Definition view_append (k1 k2 : bool) (m : memory_of_views) (o k : nat) : option memory_of_views :=
  match view_convert k1 m o with
  | Some m' => match mv_outside m' k with Some x => view_extend k2 m' o x | None => None end
  | None => None
  end.
(** dynamic_string_view.hpp:143-150; [other] may be the object itself. *)
Definition view_append_view (k1 k2 : bool) (m : memory_of_views) (o other : nat) : option memory_of_views :=
  match view_convert k1 m o with
  | Some m' => match read_object m' other with Some x => view_extend k2 m' o x | None => None end
  | None => None
  end.

(** What a program does with such objects.  Object 0 is only used for the parameter of the
    assignment. *)
Inductive view_op :=
| VView (o k : nat) | VString (o : nat) (x : bytes) | VCopy (o other : nat) | VMove (o other : nat)
| VAssign (o other : nat) | VAssignMoved (o other : nat) | VSwap (a c : nat)
| VConvert (keep : bool) (o : nat) | VAppend (k1 k2 : bool) (o k : nat) | VAppendView (k1 k2 : bool) (o other : nat)
| VDestroy (o : nat)
| VFree (k : nat).                            (* the caller's memory goes away *)

Definition view_step (m : memory_of_views) (x : view_op) : option memory_of_views :=
  match x with
  | VView o k => view_from m o k
  | VString o s => view_string m o s
  | VCopy o other => view_copy m o other
  | VMove o other => view_move m o other
  | VAssign o other => view_assign false 0 m o other
  | VAssignMoved o other => view_assign true 0 m o other
  | VSwap a c => view_swap m a c
  | VConvert keep o => view_convert keep m o
  | VAppend k1 k2 o k => view_append k1 k2 m o k
  | VAppendView k1 k2 o other => view_append_view k1 k2 m o other
  | VDestroy o => view_destroy m o
  | VFree k => Some (MemV (mv_objects m) (mv_blocks m) (mv_next m) (upd (mv_outside m) k None))
  end.
Fixpoint view_run (m : memory_of_views) (l : list view_op) : option memory_of_views :=
  match l with
  | [] => Some m
  | x :: l' => match view_step m x with Some m' => view_run m' l' | None => None end
  end.

(** Before: no objects, no blocks; the caller's texts. *)
Definition view_start (texts : nat -> option bytes) : memory_of_views :=
  MemV (fun _ => None) (fun _ => None) 0 texts.
End Small.

(** Model of parsing/dynamic_token_adapter.hpp. *)
From Verif Require Import Bytes Token.
Local Open Scope Z_scope.

(** parsing/dynamic_token_adapter.hpp:464-465: the two referenced vectors. *)
Record adapter := Adp { a_proc : list token; a_unproc : list token }.

(** parsing/dynamic_token_adapter.hpp:289-303: an iterator is the null-owner end iterator
    ([end()], line 354) or an index into its owner; the owner identity is not modelled (there is
    one adapter in each use). *)
Inductive iter := IEnd | IAt (i : Z).

(** Length of a vector as a [ptrdiff_t]. *)
Definition zlen {A} (l : list A) : Z := Z.of_nat (List.length l).

(** parsing/dynamic_token_adapter.hpp:360 *)
Definition a_size (a : adapter) : Z := zlen (a_proc a) + zlen (a_unproc a).

(** parsing/dynamic_token_adapter.hpp:364 *)
Definition a_empty (a : adapter) : bool :=
  match a_proc a, a_unproc a with [], [] => true | _, _ => false end.

(** parsing/dynamic_token_adapter.hpp:347 *)
Definition a_begin : iter := IAt 0.

(** parsing/dynamic_token_adapter.hpp:50-83 [it + offset]. *)
Definition i_add (it : iter) (k : Z) : iter :=
  match it with IEnd => IEnd | IAt i => IAt (i + k) end.

(** parsing/dynamic_token_adapter.hpp:293-296 *)
Definition is_end (a : adapter) (it : iter) : bool :=
  match it with IEnd => true | IAt i => a_size a <=? i end.

(** [v[i]] with a signed index; [None] is undefined behaviour. *)
Definition znth {A} (l : list A) (i : Z) : option A :=
  if i <? 0 then None else nth_error l (Z.to_nat i).

(** parsing/dynamic_token_adapter.hpp:210-218 [*it]; [None] is undefined behaviour. *)
Definition a_deref (a : adapter) (it : iter) : option token :=
  match it with
  | IEnd => None
  | IAt i => if zlen (a_proc a) <=? i then znth (a_unproc a) (i - zlen (a_proc a))
             else znth (a_proc a) i
  end.

(** parsing/dynamic_token_adapter.hpp:245-259 [==] for iterators of one adapter. *)
Definition i_eqb (a : adapter) (x y : iter) : bool :=
  if is_end a x && is_end a y then true
  else if is_end a x || is_end a y then false
  else match x, y with IAt i, IAt j => i =? j | _, _ => false end.

(** parsing/dynamic_token_adapter.hpp:447-461.  Past the first test [count] is at most the number
    of unprocessed tokens, so no undefined behaviour can arise. *)
Definition transfer (a : adapter) (it : iter) : adapter :=
  let i := match it with
           | IEnd => a_size a - 1
           | IAt i => if a_size a <=? i then a_size a - 1 else i
           end in
  if (i <? 0) || (i <? zlen (a_proc a)) then a
  else
    let count := Z.to_nat ((i + 1) - zlen (a_proc a)) in
    Adp (a_proc a ++ firstn count (a_unproc a)) (skipn count (a_unproc a)).

(** Replace element [i]. *)
Fixpoint upd {A} (l : list A) (i : nat) (v : A) : list A :=
  match l, i with
  | [], _ => []
  | _ :: l', O => v :: l'
  | x :: l', S i' => x :: upd l' i' v
  end.

(** parsing/dynamic_token_adapter.hpp:280-284 [it.set(v)]; [None] is undefined behaviour. *)
Definition a_set (a : adapter) (it : iter) (v : token) : option adapter :=
  match it with
  | IEnd => None
  | IAt i =>
      let a' := transfer a it in
      if (i <? 0) || (zlen (a_proc a') <=? i) then None
      else Some (Adp (upd (a_proc a') (Z.to_nat i) v) (a_unproc a'))
  end.

(** parsing/dynamic_token_adapter.hpp:385-395, 405-415: insertion of the values [vs] before [it];
    [None] is undefined behaviour.  Returns the new adapter and the returned iterator. *)
Definition a_insert (a : adapter) (it : iter) (vs : list token) : option (adapter * iter) :=
  let a' := transfer a (i_add it (-1)) in
  let ret := IAt (match it with IEnd => 0 | IAt i => i end) in
  if is_end a' it then Some (Adp (a_proc a' ++ vs) (a_unproc a'), ret)
  else match it with
       | IEnd => None
       | IAt i =>
           if (i <? 0) || (zlen (a_proc a') <? i) then None
           else Some (Adp (firstn (Z.to_nat i) (a_proc a') ++ vs ++ skipn (Z.to_nat i) (a_proc a'))
                          (a_unproc a'), ret)
       end.

(** [l.erase(l.begin() + i)] *)
Definition remove_at {A} (l : list A) (i : nat) : list A := firstn i l ++ skipn (S i) l.

(** parsing/dynamic_token_adapter.hpp:423-439 [erase]; [None] is undefined behaviour. *)
Definition a_erase (a : adapter) (it : iter) : option adapter :=
  if is_end a it then Some a
  else match it with
       | IEnd => Some a
       | IAt i =>
           if i <? 0 then None
           else if i <? zlen (a_proc a) then Some (Adp (remove_at (a_proc a) (Z.to_nat i)) (a_unproc a))
           else Some (Adp (a_proc a) (remove_at (a_unproc a) (Z.to_nat (i - zlen (a_proc a)))))
       end.

(** All the tokens seen through the adapter, in order. *)
Definition a_all (a : adapter) : list token := a_proc a ++ a_unproc a.

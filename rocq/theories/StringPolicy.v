(** Model of utility/string_to_policy.hpp and its uses in the node factory functions: bare
    compile-time strings given instead of policies. *)
From Verif Require Import Bytes Utf8 Tree.

(** A parameter of a factory function: a bare string or a policy (children of a mode behave like
    policies here and are left out). *)
Inductive param :=
| Bare (s : bytes)
| Pol (p : policy).

(** utility/string_to_policy.hpp:26-27 [multi_char_finder].  Counting a string that
    is not valid UTF-8 does not compile; here such a string is neither, with the same effect. *)
Definition multi_char (s : bytes) : bool := match gcount s with Some n => Nat.ltb 1 n | None => false end.
(** utility/string_to_policy.hpp:29-30 [single_char_finder]. *)
Definition single_char (s : bytes) : bool := match gcount s with Some n => Nat.eqb n 1 | None => false end.

(** A mapping takes the bare strings and gives a policy or nothing ([void]). *)
Definition mapper := list bytes -> option policy.

(** [mp_find_if] and what follows the element found. *)
Fixpoint find_rest (f : bytes -> bool) (l : list bytes) : option (bytes * list bytes) :=
  match l with
  | [] => None
  | x :: l' => if f x then Some (x, l') else find_rest f l'
  end.

(** utility/string_to_policy.hpp:51-69 *)
Definition first_string_mapper (P : bytes -> policy) : mapper := fun ss =>
  match find_rest multi_char ss with Some (s, _) => Some (P s) | None => None end.

(** utility/string_to_policy.hpp:77-105 *)
Definition second_string_mapper (P : bytes -> policy) : mapper := fun ss =>
  match find_rest multi_char ss with
  | Some (_, rest) => match find_rest multi_char rest with Some (s, _) => Some (P s) | None => None end
  | None => None
  end.

(** utility/string_to_policy.hpp:113-131 *)
Definition single_char_mapper (P : bytes -> policy) : mapper := fun ss =>
  match find_rest single_char ss with Some (s, _) => Some (P s) | None => None end.

(** utility/string_to_policy.hpp:139-153 *)
Definition first_text_mapper (P : bytes -> policy) : mapper := fun ss =>
  match ss with s :: _ => Some (P s) | [] => None end.

(** utility/string_to_policy.hpp:161-175 *)
Definition second_text_mapper (P : bytes -> policy) : mapper := fun ss =>
  match ss with _ :: s :: _ => Some (P s) | _ => None end.

(** The bare strings of a parameter pack. *)
Fixpoint strings_of (ps : list param) : list bytes :=
  match ps with [] => [] | Bare s :: ps' => s :: strings_of ps' | Pol _ :: ps' => strings_of ps' end.
(** The others. *)
Fixpoint policies_of (ps : list param) : list policy :=
  match ps with [] => [] | Bare _ :: ps' => policies_of ps' | Pol p :: ps' => p :: policies_of ps' end.
(** [mp_transform_q] with [mp_remove_if<is_void>]. *)
Fixpoint mapped (ms : list mapper) (ss : list bytes) : list policy :=
  match ms with
  | [] => []
  | m :: ms' => match m ss with Some p => p :: mapped ms' ss | None => mapped ms' ss end
  end.

(** utility/string_to_policy.hpp:185-213 [convert]; [None] is a compile error. *)
Definition convert (ms : list mapper) (ps : list param) : option (list policy) :=
  let ss := strings_of ps in
  let pols := mapped ms ss in
  if Nat.eqb (List.length ss) (List.length pols) then Some (pols ++ policies_of ps) else None.

(** flag.hpp:151-155, arg.hpp:105-109, multi_arg.hpp:118-122, counting_flag.hpp:164-168,
    help.hpp:301-305 *)
Definition convert_labelled : list param -> option (list policy) :=
  convert [first_string_mapper PLongName; second_string_mapper PDescription; single_char_mapper PShortName].

(** positional_arg.hpp:123-126 *)
Definition convert_positional : list param -> option (list policy) :=
  convert [first_text_mapper PDisplayName; second_text_mapper PDescription].

(** mode.hpp:577-580 *)
Definition convert_mode : list param -> option (list policy) :=
  convert [first_text_mapper PNoneName; second_text_mapper PDescription].

(** forwarding_arg.hpp:107-110 *)
Definition convert_forwarding : list param -> option (list policy) :=
  convert [first_string_mapper PNoneName; second_string_mapper PDescription].

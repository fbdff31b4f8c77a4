(** Model of utility/utf8/code_point.hpp. *)
From Verif Require Import Bytes.
Local Open Scope N_scope.

(** code_point.hpp:120-121: the six byte storage of a [range]; every component is a [uint8_t]. *)
Record range := mk_range { d0 : N; d1 : N; d2 : N; d3 : N; d4 : N; d5 : N }.

(** Storing into a [std::uint8_t]. *)
Definition u8 (x : N) : N := N.land x 255.

(** code_point.hpp:32-56: packing constructor.  [first], [last] are [uint32_t], [meta] is
    [uint8_t]; the mathematical integers given here are assumed in range by the callers
    (the tables are literals). *)
Definition pack (first last meta : N) : range :=
  let x0 := u8 (N.land first 255) in
  let x1 := u8 (N.land (N.shiftr first 8) 255) in
  let x2 := u8 (N.land (N.shiftr first 16) 31) in
  let x2' := u8 (N.lor x2 (N.shiftl (N.land last 7) 5)) in
  let x3 := u8 (N.land (N.shiftr last 3) 255) in
  let x4 := u8 (N.land (N.shiftr last 11) 255) in
  let x5 := u8 (N.land (N.shiftr last 19) 3) in
  let x5' := u8 (N.lor x5 (N.shiftl (N.land meta 63) 2)) in
  mk_range x0 x1 x2' x3 x4 x5'.

(** code_point.hpp:62-71 *)
Definition r_first (r : range) : N :=
  N.lor (N.lor (d0 r) (N.shiftl (d1 r) 8)) (N.shiftl (N.land (d2 r) 31) 16).

(** code_point.hpp:77-87 *)
Definition r_last (r : range) : N :=
  N.lor (N.lor (N.lor (N.land (N.shiftr (d2 r) 5) 7) (N.shiftl (d3 r) 3)) (N.shiftl (d4 r) 11))
        (N.shiftl (N.land (d5 r) 3) 19).

(** code_point.hpp:93-97 *)
Definition r_meta (r : range) : N := N.land (N.shiftr (d5 r) 2) 63.

(** code_point.hpp:129-141: number of bytes that are not continuation bytes. *)
Fixpoint cp_count (s : bytes) : nat :=
  match s with
  | [] => O
  | c :: s' => ((if N.eqb (N.land (byte_val c) 192) 128 then O else 1) + cp_count s')%nat
  end.

(** code_point.hpp:156-174, as a function of the leading byte. *)
Definition lead_size (x : N) : nat :=
  if N.eqb (N.land x 128) 0 then 1%nat
  else if x <? 223 then 2%nat
  else if x <? 239 then 3%nat
  else 4%nat.

(** code_point.hpp:148-175 [size]. *)
Definition cp_size (s : bytes) : nat :=
  match s with
  | [] => O
  | c :: _ => lead_size (byte_val c)
  end.

(** code_point.hpp:207-213: the loop folding in the subsequent bytes ([type] is [uint32_t]; four
    bytes give at most 3 + 18 = 21 bits so no wrap can occur). *)
Definition cp_fold (acc : N) (tl : bytes) : N :=
  fold_left (fun r c => N.lor (N.shiftl r 6) (N.land (byte_val c) 63)) tl acc.

(** code_point.hpp:184-216 [decode]. *)
Definition cp_decode (s : bytes) : option N :=
  match s with
  | [] => None
  | c :: s' =>
      let n := cp_size s in
      if Nat.eqb n 1 then Some (byte_val c)
      else if Nat.ltb (List.length s) n then None
      else Some (cp_fold (N.land (byte_val c) (N.shiftr 31 (N.of_nat (n - 2)))) (firstn (n - 1) s'))
  end.

(** code_point.hpp:220-347: a complete traversal with [code_point::iterator].  [*it] is
    [substr(0, size)], [++it] is [remove_prefix(size)], which is undefined behaviour when the size
    exceeds what is left: then the result is [None].  The first argument is fuel. *)
Fixpoint cp_split_fuel (fuel : nat) (s : bytes) : option (list bytes) :=
  match s with
  | [] => Some []
  | _ :: _ =>
      match fuel with
      | O => None
      | S f =>
          let n := cp_size s in
          if Nat.ltb (List.length s) n then None
          else option_map (cons (firstn n s)) (cp_split_fuel f (skipn n s))
      end
  end.

(** Every step consumes at least one byte so the length is enough fuel (see
    [cp_split_fuel_enough]). *)
Definition cp_split (s : bytes) : option (list bytes) := cp_split_fuel (List.length s) s.

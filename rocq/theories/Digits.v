(** Model of math.hpp and of the integer-to-text conversion in utility/compile_time_string.hpp. *)
From Verif Require Import Bytes.
Local Open Scope N_scope.

(** math.hpp:20-28 [abs].  Simplification: the most negative value of a signed type, for which
    the C++ overflows while compiling (an error), is treated like any other. *)
Definition math_abs (v : Z) : N := Z.abs_N v.

(** math.hpp:38-51 [num_digits], the loop: [while (value /= base) ++i].  Simplification: the
    template's integer type never overflows here (a type has fewer digits than its own maximum).
    The fuel is the number of bits of the value. *)
Fixpoint num_digits_loop (fuel : nat) (v i : N) : N :=
  match fuel with
  | O => i
  | S fuel' => let v' := v / 10 in if v' =? 0 then i else num_digits_loop fuel' v' (i + 1)
  end.

(** math.hpp:38-51 [num_digits]. *)
Definition num_digits (v : N) : N := num_digits_loop (N.size_nat v) v 1.

(** math.hpp:62-68 [pow<10>]. *)
Fixpoint pow10 (e : nat) : N := match e with O => 1 | S e' => 10 * pow10 e' end.

(** A one-character string: [compile_time_string<'0' + digit>]. *)
Definition digit_char (d : N) : ascii := ascii_of_N (48 + d).

(** utility/compile_time_string.hpp:246-260 and 457-471 [build] (the C++20 and the C++17 version
    do the same). *)
Fixpoint build_digits (fuel : nat) (v : N) : bytes :=
  match fuel with
  | O => []
  | S fuel' =>
    let nd := num_digits v in
    let power := pow10 (N.to_nat (nd - 1)) in
    let digit := digit_char (v / power) in
    if negb (nd =? 1) then digit :: build_digits fuel' (v mod power) else [digit]
  end.

(** utility/compile_time_string.hpp:240-266 and 451-478 [convert_integral_to_cts]. *)
Definition integral_cts (v : Z) : bytes :=
  let n := math_abs v in
  let digits := build_digits (S (N.size_nat n)) n in
  if (v <? 0)%Z then b "-" ++ digits else digits.

(** [boost::lexical_cast<string>] of a [std::size_t] (policy/exception_translator.hpp:72): an
    external library's function, modelled by what it is documented to do, digit by digit. *)
Fixpoint lexical_digits (fuel : nat) (v : N) (acc : bytes) : bytes :=
  match fuel with
  | O => acc
  | S fuel' =>
    let acc' := digit_char (v mod 10) :: acc in
    if v / 10 =? 0 then acc' else lexical_digits fuel' (v / 10) acc'
  end.

Definition lexical_cast (v : N) : bytes := lexical_digits (S (N.size_nat v)) v [].

(** Specification of decimal numerals (C33, C43). *)
From Verif Require Import Bytes.
Local Open Scope N_scope.

(** The number denoted by a list of digits, most significant first. *)
Definition value_of (ds : list N) : N := fold_left (fun acc d => 10 * acc + d) ds 0.

(** A decimal numeral: digits only, at least one, no zero in front. *)
Record numeral (ds : list N) : Prop := {
  nu_digits : Forall (fun d => d < 10) ds;
  nu_some : ds <> [];
  nu_front : forall d ds', ds = 0 :: d :: ds' -> False }.

(** The numeral as text. *)
Definition digits_text (ds : list N) : bytes :=
  map (fun d => nth (N.to_nat d) (b "0123456789") "?"%char) ds.

(** [ds] is the way to write [n] in decimal. *)
Definition writes (n : N) (ds : list N) : Prop := numeral ds /\ value_of ds = n.

(** The numeral with every zero left out that is not the last digit. *)
Definition squeezed (ds : list N) : list N :=
  filter (fun d => negb (d =? 0)) (removelast ds) ++ [last ds 0].

(** Specification of the labels on a help page (C43, C61). *)
From Verif Require Import Bytes Token Result Utf8 Tree PreParse Validator Help.
From Verif Require Import SpecNumeral SpecTake SpecHelp.

(** The decimal numeral of a number, with a minus sign if it is negative. *)
Definition decimal (z : Z) (s : bytes) : Prop :=
  exists ds, writes (Z.abs_N z) ds /\ s = (if Z.ltb z 0 then b "-" else []) ++ digits_text ds.

Section Labels.
(** How numbers are written, and the limits on the values of the arguments. *)
Variable num : Z -> bytes -> Prop.
Variable limits_of : node -> option limits.

(** The range of the values of an argument: [lo-hi] where an absent limit is N, or -N as the lower one,
    but 0 if the values cannot be negative. *)
Inductive range_text (n : node) : bytes -> Prop :=
| range_both lo hi u x y : limits_of n = Some (Limits (Some lo) (Some hi) u) -> num lo x -> num hi y ->
    range_text n (b "<" ++ x ++ b "-" ++ y ++ b ">")
| range_low lo u x : limits_of n = Some (Limits (Some lo) None u) -> num lo x ->
    range_text n (b "<" ++ x ++ b "-N>")
| range_high hi y : limits_of n = Some (Limits None (Some hi) false) -> num hi y ->
    range_text n (b "<-N-" ++ y ++ b ">")
| range_high_unsigned hi y : limits_of n = Some (Limits None (Some hi) true) -> num hi y ->
    range_text n (b "<0-" ++ y ++ b ">").
Definition unlimited (n : node) : Prop :=
  limits_of n = None \/ exists u, limits_of n = Some (Limits None None u).

Inductive placeholder (n : node) : bytes -> Prop :=
| ph_range s : range_text n s -> placeholder n s
| ph_value : unlimited n -> placeholder n (b "<Value>").

(** Behind the names of an argument with exactly one value there is the placeholder of the value,
    separated as on the command line. *)
Inductive value_shown (n : node) : bytes -> Prop :=
| shown_separator sep v : value_separator n = Some sep -> placeholder n v -> value_shown n (sep ++ v)
| shown_space v : value_separator n = None -> count_bounds n = Some (1, 1)%N -> placeholder n v ->
    value_shown n (b " " ++ v)
| shown_not : value_separator n = None -> count_bounds n <> Some (1, 1)%N -> value_shown n [].

(** The number of values: [n], [min,max] or [min,N]. *)
Inductive count_text (n : node) : bytes -> Prop :=
| count_fixed k x : count_bounds n = Some (k, k) -> num (Z.of_N k) x -> count_text n (b "[" ++ x ++ b "]")
| count_range lo hi x y : count_bounds n = Some (lo, hi) -> lo <> hi -> hi <> size_max ->
    num (Z.of_N lo) x -> num (Z.of_N hi) y -> count_text n (b "[" ++ x ++ b "," ++ y ++ b "]")
| count_open lo x : count_bounds n = Some (lo, size_max) -> lo <> size_max ->
    num (Z.of_N lo) x -> count_text n (b "[" ++ x ++ b ",N]").

(** The label of a node, whose names are written as [names] says. *)
Variable names : node -> list bytes.
Inductive label_by (n : node) : bytes -> Prop :=
| label_names v : match n_kind n with KFlag | KCountingFlag | KHelp | KArg AArg => True
                                    | KMode => none_name n <> None | _ => False end ->
    value_shown n v -> label_by n (comma_separated (names n) ++ v)
| label_list v c : n_kind n = KArg AMulti \/ n_kind n = KArg AForwarding ->
    value_shown n v -> count_text n c -> label_by n (comma_separated (names n) ++ v ++ b " " ++ c)
| label_positional d c : n_kind n = KArg APositional -> display_name n = Some d -> count_text n c ->
    label_by n (b "<" ++ d ++ b "> " ++ c)
| label_one_of i d : n_kind n = KOneOf i -> display_name n = Some d -> label_by n d
| label_alias_group d : n_kind n = KAliasGroup -> display_name n = Some d -> unlimited n -> label_by n d
| label_alias_group_range d v : n_kind n = KAliasGroup -> display_name n = Some d -> range_text n v ->
    label_by n (d ++ v)
| label_anonymous : n_kind n = KMode -> none_name n = None -> label_by n (b " ").

(** The numbers on the label of a node. *)
Definition numbers (n : node) : list Z :=
  match limits_of n with
  | Some (Limits lo hi _) => match lo with Some z => [z] | None => [] end ++ match hi with Some z => [z] | None => [] end
  | None => []
  end
  ++ match count_bounds n with Some (lo, hi) => [Z.of_N lo; Z.of_N hi] | None => [] end.
End Labels.

(** The label with the names as they are typed. *)
Definition label_text (num : Z -> bytes -> Prop) (limits_of : node -> option limits) : node -> bytes -> Prop :=
  label_by num limits_of typed_names.

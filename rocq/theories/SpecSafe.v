(** Specification for C19: command lines and trees for which nothing but a library error can go wrong. *)
From Verif Require Import Bytes Token Result CodePoint Utf8 Tree PreParse Parse Root.
From Verif Require Import SpecUtf8 SpecTake SpecMode SpecReading.

(** A scalar value whose UTF-8 encoding the library decodes correctly (see C25). *)
Definition decoded (c : N) : Prop := scalar c /\ ~ boundary_lead c.
(** UTF-8 text of such scalar values. *)
Definition readable (s : bytes) : Prop := exists cs, Forall decoded cs /\ s = encode_all cs.

(** The strings typed: readable, and none is a lone "-". *)
Definition proper (argv : list bytes) : Prop := forall a, In a argv -> readable a /\ a <> short_prefix.

(** Fewer bytes than a vector can hold tokens. *)
Definition small (ts : list token) : Prop := (N.of_nat (args_weight ts) <= 384307168202282325)%N.

(** A result that is not undefined behaviour, a foreign exception, or never reached. *)
Definition orderly {A} (r : res A) : Prop :=
  match r with Ok _ => True | Throw (EML _ _) => True | Exited => True | _ => False end.

(** The trees: the names are readable; value separators are one ASCII character, and only on nodes
    without the short-form expander; no node was disabled at run time; the users' parsers return a value or throw a
    library error. *)
Record harmless (r : node) : Prop := {
  hl_names : forall n s, In n (below r) ->
    long_name n = Some s \/ short_name n = Some s \/ none_name n = Some s -> readable s;
  hl_separators : forall n sep, In n (below r) -> value_separator n = Some sep ->
    (exists c, sep = [c] /\ (byte_val c < 128)%N) /\ ~ In PShortFormExpander (n_pols n);
  hl_enabled : forall n, In n (below r) -> enabled n;
  hl_parsers : forall n cl s, In n (below r) -> n_kind n = KArg cl -> orderly (parse_token n s)
}.

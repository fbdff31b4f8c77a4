(** Specification of a whole parse: what a router is given (C02, C03, C05-C08, C46). *)
From Verif Require Import Bytes Token Result CodePoint Utf8 Tree PreParse Parse Root SpecTokens SpecMode SpecDeliver.

(** What the tokens [ts] mean to mode [m]: the assignments they make, in order. *)
Definition meaning (m : node) (ts : list token) (asg : list (node * list token)) : Prop :=
  exists items asgs, understood m ts items /\ Forall2 (assigns m) items asgs /\ asg = List.concat asgs.

(** Mode [c] is the first child of the root that the tokens can be meant for: all modes before it have
    a name, and it was not typed. *)
Definition first_mode (r : node) (ts : list token) (c : node) : Prop :=
  exists before after, n_children r = before ++ c :: after
    /\ forall d, In d before -> is_mode d = true -> none_name d <> None /\ forall rest, ~ names_mode d ts rest.

(** [routed root ts n args]: the command line [ts] legitimately leads to a call of the router of [n],
    with [args]. *)
Inductive routed (root : node) (ts : list token) : node -> list value -> Prop :=
| routed_mode c m ps ts' asg vs :
    In c (n_children root) -> is_mode c = true -> first_mode root ts c -> selects c [root] ts m ps ts' ->
    meaning m ts' asg -> deliveries m asg vs -> routed root ts m vs
| routed_argument c label vals v :
    In c (n_children root) -> is_mode c = false -> takes c ts label vals [] -> value_of c vals v ->
    routed root ts c [v].

(** No two nodes below one mode are of the same C++ type. *)
Definition distinct_modes (root : node) : Prop :=
  forall m, In m (below root) -> is_mode m = true -> distinct_types m.

(** No mode has a count policy; the library never adds one itself. *)
Definition countless_modes (root : node) : Prop :=
  forall m, In m (below root) -> is_mode m = true -> count_bounds m = None.

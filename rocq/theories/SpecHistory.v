(** Several parses with one root object: the specification for C17. *)
From Verif Require Import Bytes Token Result CodePoint Utf8 Tree PreParse Parse Root.
From Verif Require Import SpecTake SpecMode SpecDeliver SpecRoot SpecReading SpecClaims.

(** The one_of object [inst] is at node [c]. *)
Definition object_at (c : node) (inst : N) : Prop := n_kind c = KOneOf inst.

(** The command line uses, of the one_of object [inst] in the mode that it selects, the alternative with the
    type [id]. *)
Definition chooses (r : node) (args : list token) (inst id : N) : Prop :=
  exists m ts items it c, typed r args m ts items /\ In it items /\ In c (n_children m) /\ object_at c inst
    /\ In (i_node it) (below c) /\ n_id (i_node it) = id.

(** [runs r mem lines calls]: the command lines are parsed one after the other with the same root object, whose
    one_ofs are in state [mem] before; the routers called are [calls]. *)
Inductive runs (r : node) : memory -> list (list token) -> list (node * list value) -> Prop :=
| runs_nil mem : runs r mem [] []
| runs_cons mem args lines n vs calls :
    calls_router r mem args n vs -> runs r (o_mem (root_parse r mem args)) lines calls ->
    runs r mem (args :: lines) ((n, vs) :: calls).

(** No one_of object has two different states. *)
Definition agree (mem mem' : memory) : Prop :=
  forall k h h', mem_get mem k = Some h -> mem_get mem' k = Some h' -> h = h'.

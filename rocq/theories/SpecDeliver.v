(** Specification of the values that a mode's router receives (C05-C09, C12, C48, C49). *)
From Verif Require Import Bytes Token Result CodePoint Utf8 Tree SpecMode.

(** The text [s] is read as [v] by the node's custom parser or its value type. *)
Definition reads_as (l : node) (s : bytes) (v : value) : Prop :=
  match custom_parser l with
  | Some f => f s = Ok v
  | None => vt_parse (n_ty l) s = Ok v
  end.

(** The value respects the node's min/max value policies. *)
Definition in_range (l : node) (v : value) : Prop :=
  forall mn mx lt, In (PMinMaxValue mn mx lt) (n_pols l) ->
    (forall m, mn = Some m -> lt v m = false) /\ (forall m, mx = Some m -> lt m v = false).

(** The value that node [l] makes from the tokens typed for it. *)
Inductive value_of (l : node) : list token -> value -> Prop :=
| value_flag vals : n_kind l = KFlag \/ n_kind l = KCountingFlag -> value_of l vals (VBool true)
| value_single c t ts v :
    n_kind l = KArg c -> vt_container (n_ty l) = false ->
    reads_as l (t_name t) v -> in_range l v -> value_of l (t :: ts) v
| value_empty c :
    n_kind l = KArg c -> vt_container (n_ty l) = false -> in_range l (vt_init (n_ty l)) ->
    value_of l [] (vt_init (n_ty l))
| value_list c ts vs :
    n_kind l = KArg c -> vt_container (n_ty l) = true ->
    Forall2 (fun t v => reads_as l (t_name t) v) ts vs -> in_range l (VList vs) ->
    value_of l ts (VList vs).

(** Assignments are pairs of a node and the tokens typed for it.  Those made below a child: *)
Definition belongs (c l : node) : bool := existsb (fun d => N.eqb (n_id d) (n_id l)) (below c).
Definition for_child (c : node) (asg : list (node * list token)) : list (node * list token) :=
  filter (fun a => belongs c (fst a)) asg.

(** [gathered o asg r]: the assignments, in order, turn the value [o] gathered so far into [r]; a node
    without a multi-stage policy can only set a value once. *)
Inductive gathered : option value -> list (node * list token) -> option value -> Prop :=
| gathered_nil o : gathered o [] o
| gathered_stage o l vals v merge more r :
    value_of l vals v -> multi_stage l = Some merge -> gathered (Some (merge o v)) more r ->
    gathered o ((l, vals) :: more) r
| gathered_once l vals v more r :
    value_of l vals v -> multi_stage l = None -> gathered (Some v) more r ->
    gathered None ((l, vals) :: more) r.

(** The values that the policies provide when nothing was typed. *)
Definition default_values (c : node) : list value :=
  flat_map (fun p => match p with
                     | PDefaultValue v => [v]
                     | PRuntimeEnableRequired false v => [v]
                     | _ => []
                     end) (n_pols c).
Definition mandatory (c : node) : Prop :=
  In PRequired (n_pols c) \/ exists v, In (PRuntimeEnableRequired true v) (n_pols c).

(** Repeatable: the child or one of its own children accumulates values. *)
Definition repeatable (c : node) : Prop :=
  has_multi_stage c = true \/ exists d, In d (n_children c) /\ has_multi_stage d = true.

(** The value the router receives for child [c]. *)
Inductive delivered (c : node) (asg : list (node * list token)) : value -> Prop :=
| delivered_typed v :
    gathered None (for_child c asg) (Some v) -> (repeatable c -> in_range c v) -> delivered c asg v
| delivered_missing v :
    for_child c asg = [] -> ~ mandatory c -> v = last (default_values c) (vt_init (n_ty c)) ->
    in_range c v -> delivered c asg v.

(** The children of a mode that have an argument in the router's signature. *)
Definition router_children (m : node) : list node :=
  filter (fun c => negb (no_result_value c)) (n_children m).

(** The arguments of the router of mode [m] when the command line made the assignments [asg]: every
    typed value is readable, and there is one argument per child that has one, in order. *)
Definition deliveries (m : node) (asg : list (node * list token)) (vs : list value) : Prop :=
  Forall (fun a => exists v, value_of (fst a) (snd a) v) asg
  /\ Forall2 (fun c v => delivered c asg v) (router_children m) vs.

(** No two nodes of the mode's subtree are of the same C++ type. *)
Definition distinct_types (m : node) : Prop := NoDup (map n_id (below m)).

(** What a list of validation rules says about a tree: the specification for C80. *)
From Verif Require Import Bytes Token Result CodePoint Utf8 Tree PreParse Validator RuleList SpecRules.

Section Classes.
  Variable cls : node -> N.
  Variable pcls : policy -> N.

  (** A rule is for types of some classes, or for all policies. *)
  Definition applies (k : key) (x : item) : Prop :=
    match k, x with
    | AnyOf cs, INode n => In (cls n) cs
    | AnyOf cs, IPol p => In (pcls p) cs
    | AnyPolicy, IPol _ => True
    | AnyPolicy, INode _ => False
    end.

  (** The conditions for a type are those of the first rule that applies to it. *)
  Inductive governs : list rule -> item -> list condition -> Prop :=
  | governs_here k cs rules x : applies k x -> governs ((k, cs) :: rules) x cs
  | governs_later k cs rules x cs' : ~ applies k x -> governs rules x cs' -> governs ((k, cs) :: rules) x cs'.

  (** No rule applies. *)
  Definition ungoverned (rules : list rule) (x : item) : Prop := forall k cs, In (k, cs) rules -> ~ applies k x.

  (** The nodes of a tree with their parents, and the policies with their owner and its parents. *)
  Inductive visited (r : node) : item -> list node -> Prop :=
  | visited_node n ps : placed r n ps -> visited r (INode n) ps
  | visited_policy n ps p : placed r n ps -> In p (n_pols n) -> visited r (IPol p) (n :: ps).

  (** ** Conditions *)

  (** A policy of the class is on the node; the root has the validator. *)
  Definition bears (n : node) (t : N) : Prop :=
    (exists p, In p (n_pols n) /\ pcls p = t) \/ a_root n /\ t = tag_validator.
  Definition is_a_mode (n : node) : Prop := cls n = c_mode.
  Definition nameless_mode (n : node) : Prop := is_a_mode n /\ ~ has n k_none.

  (** [path] leads from a node up to [start] without passing through another mode. *)
  Inductive within (start : node) : list node -> Prop :=
  | within_start : within start [start]
  | within_child n above c : within start (n :: above) -> In c (n_children n) ->
      (is_a_mode c -> n_id c = n_id start) -> within start (c :: n :: above).

  (** From a node up to the nearest mode, to the end if there is none. *)
  Inductive to_mode : list node -> list node -> Prop :=
  | to_mode_here n above : is_a_mode n -> to_mode (n :: above) [n]
  | to_mode_top n : ~ is_a_mode n -> to_mode [n] [n]
  | to_mode_more n m above path : ~ is_a_mode n -> to_mode (m :: above) path -> to_mode (n :: m :: above) (n :: path).

  Definition name_policy (p : policy) : Prop :=
    match p with PLongName _ | PShortName _ | PNoneName _ => True | _ => False end.

  (** The numbers of values that the node's first such policy allows. *)
  Definition bounds (n : node) (mn mx : N) : Prop :=
    exists before after, n_pols n = before ++ PMinMaxCount mn mx :: after
      /\ forall p, In p before -> kind_of p <> k_count.

  (** What a condition asks of a node or policy below [ps], the nearest first. *)
  Definition met (c : condition) (x : item) (ps : list node) : Prop :=
    match c, x with
    | UniqueInOwner, IPol p =>
        forall owner above, ps = owner :: above -> exists before q after, n_pols owner = before ++ q :: after
          /\ pcls q = pcls p /\ forall q', In q' (before ++ after) -> pcls q' <> pcls p
    | UniqueInOwner, INode n =>
        forall owner above, ps = owner :: above -> exists before q after, n_pols owner = before ++ q :: after
          /\ pcls q = cls n /\ forall q', In q' (before ++ after) -> pcls q' <> cls n
    | UniqueToMode, IPol p =>
        forall owner above path start, ps = owner :: above -> above <> [] -> name_policy p ->
        to_mode ps path -> last path owner = start ->
        forall m up, within start (m :: up) -> map n_id (m :: up) <> map n_id path -> ~ In p (n_pols m)
    | UniqueToMode, INode _ => True
    | ParentTypes l, _ => exists i k q, In (i, k) l /\ nth_error ps i = Some q /\ cls q = k
    | MustHave ts, INode n => forall t, In t ts -> bears n t
    | MustNotHave ts, INode n => forall t, In t ts -> ~ bears n t
    | AtLeastOneOf ts, INode n => 2 <= List.length ts /\ exists t, In t ts /\ bears n t
    | ChildMustHave t, INode n => forall d, In d (n_children n) -> bears d t
    | ChildMustNotHave t, INode n => n_children n = [] \/ exists d, In d (n_children n) /\ ~ bears d t
    | OwnerMustNotHave t, IPol _ => exists owner above, ps = owner :: above /\ ~ bears owner t
    | SingleAnonymousMode, INode n =>
        forall front d middle e back, n_children n = front ++ d :: middle ++ e :: back ->
          nameless_mode d -> nameless_mode e -> False
    | TypesAtEnd cs, INode n => cs <> [] /\ behind (fun d => In (cls d) cs) (n_children n)
    | AnonymousModeAtEnd, INode n =>
        forall d, In d (n_children n) -> nameless_mode d -> behind is_a_mode (n_children n)
    | ListLikeAtEnd, INode n =>
        forall front d back mn mx, n_children n = front ++ d :: back -> bounds d mn mx -> mn <> mx ->
          lacks d [k_multi_stage; k_end_marker] -> back = []
    | MinimumOneIfRequired, INode n => has n k_required -> forall mn mx, bounds n mn mx -> (1 <= mn)%N
    | _, _ => False
    end.

  (** Each node and each policy has a rule and meets its conditions. *)
  Definition passes (rules : list rule) (r : node) : Prop :=
    forall x ps, visited r x ps -> exists cs, governs rules x cs /\ forall c, In c cs -> met c x ps.
End Classes.

(** The static_asserts of the classes themselves hold everywhere in the tree. *)
Definition asserts (r : node) : Prop :=
  forall n ps, placed r n ps -> node_static n ps = true /\ forall p, In p (n_pols n) -> policy_static p n ps = true.

(** A node or policy of class [c]. *)
Definition of_class (cls : node -> N) (pcls : policy -> N) (c : N) (x : item) : Prop :=
  match x with INode n => cls n = c | IPol p => pcls p = c end.

(** Specification for C66: the rules that a tree has to keep so that it compiles, one by one. *)
From Verif Require Import Bytes CodePoint Token Result Tree Utf8.

(** ** Kinds of policies *)

Inductive policy_kind :=
| k_long | k_short | k_none | k_display | k_error | k_description | k_count | k_value_limit | k_separator
| k_expander | k_enable | k_enable_required | k_end_marker | k_default | k_required | k_alias
| k_dependent | k_router | k_parser | k_multi_stage | k_no_result | k_flatten | k_program_name
| k_program_version | k_program_intro | k_program_addendum.

Definition kind_of (p : policy) : policy_kind :=
  match p with
  | PLongName _ => k_long | PShortName _ => k_short | PNoneName _ => k_none | PDisplayName _ => k_display
  | PErrorName _ => k_error | PDescription _ => k_description | PMinMaxCount _ _ => k_count
  | PMinMaxValue _ _ _ => k_value_limit | PValueSeparator _ => k_separator
  | PShortFormExpander => k_expander | PRuntimeEnable _ => k_enable
  | PRuntimeEnableRequired _ _ => k_enable_required | PTokenEndMarker _ => k_end_marker
  | PDefaultValue _ => k_default | PRequired => k_required | PAlias _ => k_alias
  | PDependent _ => k_dependent | PRouter => k_router | PCustomParser _ => k_parser
  | PMultiStage _ => k_multi_stage | PNoResultValue => k_no_result | PFlattenHelp => k_flatten
  | PProgramName _ => k_program_name | PProgramVersion _ => k_program_version
  | PProgramIntro _ => k_program_intro | PProgramAddendum _ => k_program_addendum
  end.

Definition has (n : node) (k : policy_kind) : Prop := exists p, In p (n_pols n) /\ kind_of p = k.
Definition lacks (n : node) (ks : list policy_kind) : Prop := forall k, In k ks -> ~ has n k.

(** The number of values is between [mn] and [mx]. *)
Definition counts (n : node) (mn mx : N) : Prop := In (PMinMaxCount mn mx) (n_pols n).

(** ** Words *)

(** [s] has [k] characters. *)
Definition characters (s : bytes) (k : nat) : Prop := exists gs, graphemes s = Some gs /\ List.length gs = k.
Definition no_white_space (s : bytes) : Prop :=
  exists cps, cp_split s = Some cps /\ Forall (fun cp => is_whitespace cp = false) cps.

(** ** Places in the tree *)

Definition a_mode (n : node) : Prop := n_kind n = KMode.
Definition a_root (n : node) : Prop := n_kind n = KRoot.
Definition anonymous (n : node) : Prop := a_mode n /\ ~ has n k_none.

(** [n] is in the tree of [r], below the nodes [parents] (nearest first). *)
Inductive placed (r : node) : node -> list node -> Prop :=
| placed_root : placed r r []
| placed_child n parents c : placed r n parents -> In c (n_children n) -> placed r c (n :: parents).

(** [path] leads from a node up to [start] without passing through another mode. *)
Inductive reach (start : node) : list node -> Prop :=
| reach_start : reach start [start]
| reach_child n above c : reach start (n :: above) -> In c (n_children n) ->
    (a_mode c -> n_id c = n_id start) -> reach start (c :: n :: above).

(** From a node up to the nearest mode, the root if there is none. *)
Inductive up_to_mode : list node -> list node -> Prop :=
| up_mode n above : a_mode n -> up_to_mode (n :: above) [n]
| up_top n : ~ a_mode n -> up_to_mode [n] [n]
| up_more n m above path : ~ a_mode n -> up_to_mode (m :: above) path -> up_to_mode (n :: m :: above) (n :: path).

(** The name [p] of the node is in the scope of its mode only this once.  Nodes are told apart by the
    types on the path to them. *)
Definition only_here (p : policy) (n : node) (parents : list node) : Prop :=
  parents <> [] -> forall path start, up_to_mode (n :: parents) path -> last path n = start ->
  forall m above, reach start (m :: above) -> map n_id (m :: above) <> map n_id path -> ~ In p (n_pols m).

(** [m] is the nearest of [ns] with a router. *)
Definition nearest_routed (ns : list node) (m : node) : Prop :=
  exists before after, ns = before ++ m :: after /\ has m k_router /\ forall d, In d before -> ~ has d k_router.

(** ** Names that aliases and dependents refer to *)

Definition refers (r : nameref) (p : policy) : Prop :=
  match r with NLong s => p = PLongName s | NShort s => p = PShortName s end.

(** How many of the policies are referred to. *)
Inductive own_names (ns : list nameref) : list policy -> nat -> Prop :=
| own_nil : own_names ns [] 0
| own_yes p ps k r : In r ns -> refers r p -> own_names ns ps k -> own_names ns (p :: ps) (S k)
| own_no p ps k : (forall r, In r ns -> ~ refers r p) -> own_names ns ps k -> own_names ns (p :: ps) k.

(** The nodes that are referred to, children before their parent. *)
Inductive owners (ns : list nameref) : node -> list node -> Prop :=
| owners_at n tss k : Forall2 (owners ns) (n_children n) tss -> own_names ns (n_pols n) k ->
    owners ns n (List.concat tss ++ repeat n k).

(** As many as there are names, and of different types. *)
Definition resolved (ns : list nameref) (mode : node) (ts : list node) : Prop :=
  owners ns mode ts /\ ns <> [] /\ List.length ts = List.length ns /\ NoDup (map n_id ts).

(** Following the policies made by [mk] from node to node comes to an end, and all names on the way are
    found under [mode]. *)
Inductive grounded (mk : list nameref -> policy) (mode : node) (n : node) : Prop :=
| grounded_at : (forall ns, In (mk ns) (n_pols n) -> exists ts, resolved ns mode ts) ->
    (forall ns ts t, In (mk ns) (n_pols n) -> owners ns mode ts -> In t ts -> grounded mk mode t) ->
    grounded mk mode n.

(** ** Rules for policies *)

Definition policy_ok (p : policy) (n : node) (parents : list node) : Prop :=
  match p with
  | PLongName s => (exists k, characters s k /\ 1 < k) /\ no_white_space s /\ only_here p n parents
  | PShortName s => characters s 1 /\ s <> b "-" /\ only_here p n parents
  | PNoneName s => (exists k, characters s k /\ 1 < k) /\ no_white_space s /\ only_here p n parents
      /\ lacks n [k_long; k_short; k_display]
  | PDisplayName s => s <> [] /\ lacks n [k_long; k_short; k_none]
  | PErrorName s | PDescription s => s <> []
  | PMinMaxCount mn mx => (mn <= mx /\ mx < 2 ^ 64)%N
  | PValueSeparator s => characters s 1 /\ is_whitespace s = false /\ counts n 1 1
  | PTokenEndMarker s => (exists k, characters s k /\ 0 < k) /\ no_white_space s
      /\ (exists mn mx, counts n mn mx /\ mn <> mx) /\ lacks n [k_multi_stage]
  | PShortFormExpander => has n k_short
  | PRuntimeEnable _ => lacks n [k_required; k_enable_required]
  | PRuntimeEnableRequired _ _ => lacks n [k_required; k_enable]
  | PDefaultValue _ => lacks n [k_required]
  | PRequired => lacks n [k_default]
  | PRouter => a_mode n \/ exists r above, parents = r :: above /\ a_root r
  | PAlias ns => lacks n [k_parser; k_value_limit; k_router]
      /\ exists c mode ts, counts n c c /\ nearest_routed (n :: parents) mode /\ resolved ns mode ts
           /\ (forall t, In t ts -> counts t c c /\ grounded PAlias mode t)
  | PDependent ns => exists mode ts, nearest_routed parents mode /\ resolved ns mode ts
           /\ (forall t, In t ts -> grounded PDependent mode t)
  | PProgramName s => (exists k, characters s k /\ 1 < k) /\ no_white_space s
  | PProgramVersion s | PProgramIntro s | PProgramAddendum s => exists k, characters s k /\ 1 < k
  | _ => True
  end.

(** ** Rules for nodes *)

Definition named_by (n : node) (ks : list policy_kind) : Prop := exists k, In k ks /\ has n k.
Definition leaf (n : node) : Prop := n_children n = [].

(** The parent is of one of the kinds. *)
Definition parent_is_a (parents : list node) (ks : list kind) : Prop :=
  exists p above, parents = p :: above /\ In (n_kind p) ks.

(** At least one of the children is without the policy. *)
Definition some_child_lacks (n : node) (k : policy_kind) : Prop := exists c, In c (n_children n) /\ ~ has c k.

(** From the first of them on, all are. *)
Definition behind (P : node -> Prop) (cs : list node) : Prop :=
  exists front back, cs = front ++ back /\ (forall c, In c front -> ~ P c) /\ forall c, In c back -> P c.

(** A varying number of values, and nothing says where they end. *)
Definition open_ended (n : node) : Prop :=
  (exists mn mx, counts n mn mx /\ mn <> mx) /\ lacks n [k_multi_stage; k_end_marker].

(** What is used when the node is not on the command line. *)
Definition fallbacks : list policy_kind := [k_default; k_required; k_enable_required].
(** What looks at the tokens in front of the parsing. *)
Definition early : list policy_kind :=
  [k_separator; k_expander; k_enable; k_enable_required; k_end_marker; k_count; k_alias; k_dependent].

(** A node that delivers nothing to the router. *)
Definition silent (n : node) : Prop := has n k_no_result \/ has n k_alias.

Definition valued (n : node) : Prop :=
  leaf n /\ named_by n [k_long; k_short; k_none; k_display]
  /\ (exists mn mx, counts n mn mx /\ mx <> 0%N /\ (mn = 1 /\ mx = 1 \/ vt_container (n_ty n) = true)%N)
  /\ (forall k k', In k fallbacks -> In k' fallbacks -> has n k -> has n k' -> k = k').

Definition grouping (n : node) : Prop :=
  2 <= List.length (n_children n) /\ named_by n fallbacks
  /\ lacks n (early ++ [k_long; k_short; k_none; k_description; k_parser; k_router; k_no_result])
  /\ (exists c, In c (n_children n) /\ ~ silent c)
  /\ some_child_lacks n k_required /\ some_child_lacks n k_default.

Definition class_ok (n : node) (parents : list node) : Prop :=
  match n_kind n with
  | KFlag => leaf n /\ named_by n [k_long; k_short] /\ counts n 0 0
      /\ lacks n [k_none; k_display; k_parser; k_value_limit; k_multi_stage; k_no_result; k_required]
  | KCountingFlag => leaf n /\ named_by n [k_long; k_short] /\ counts n 0 0 /\ has n k_multi_stage
      /\ lacks n [k_none; k_display; k_parser; k_router; k_no_result; k_required]
  | KArg AArg => valued n /\ counts n 1 1 /\ lacks n [k_none; k_display; k_multi_stage; k_no_result]
  | KArg AMulti => valued n /\ (exists mn mx, counts n mn mx /\ 1 <= mn /\ 1 < mx)%N
      /\ lacks n [k_none; k_display; k_router; k_multi_stage; k_no_result]
  | KArg APositional => valued n /\ has n k_display
      /\ (has n k_required -> exists mn mx, counts n mn mx /\ 1 <= mn)%N
      /\ lacks n [k_long; k_short; k_none; k_router; k_alias; k_multi_stage; k_no_result]
  | KArg AForwarding => valued n
      /\ lacks n [k_long; k_short; k_display; k_router; k_multi_stage; k_no_result]
  | KOneOf _ => grouping n /\ lacks n [k_multi_stage; k_value_limit] /\ parent_is_a parents [KMode]
      /\ (forall c, In c (n_children n) -> ~ has c k_multi_stage)
  | KAliasGroup => grouping n /\ parent_is_a parents [KMode]
      /\ (forall c, In c (n_children n) -> has c k_multi_stage -> has c k_value_limit -> silent c)
  | KMode => n_children n <> [] /\ has n k_no_result /\ parent_is_a parents [KRoot; KMode]
      /\ lacks n ([k_long; k_short; k_display; k_parser; k_value_limit; k_multi_stage; k_alias; k_dependent]
                  ++ fallbacks)
      /\ (anonymous n -> has n k_error /\ has n k_router /\ ~ has n k_description
                         /\ List.length parents <= 1 /\ forall c, In c (n_children n) -> ~ a_mode c)
      /\ (~ anonymous n -> ~ has n k_error /\ (has n k_router \/ forall c, In c (n_children n) -> a_mode c))
      /\ (forall c, In c (n_children n) -> has c k_router -> a_mode c)
      /\ behind (fun c => n_kind c = KArg APositional) (n_children n)
      /\ (forall front c back, n_children n = front ++ c :: back -> open_ended c -> back = [])
  | KHelp => leaf n /\ named_by n [k_long; k_short] /\ counts n 0 (2 ^ 64 - 1) /\ has n k_no_result
      /\ parent_is_a parents [KRoot]
      /\ lacks n ([k_none; k_display; k_parser; k_value_limit; k_multi_stage; k_expander; k_enable] ++ fallbacks)
  | KRoot => n_children n <> [] /\ parents = []
      /\ lacks n (early ++ fallbacks ++ [k_long; k_short; k_none; k_display; k_error; k_description; k_parser;
                                         k_value_limit; k_router; k_multi_stage; k_no_result])
      /\ (forall c, In c (n_children n) -> silent c \/ has c k_router)
      /\ some_child_lacks n k_required /\ some_child_lacks n k_alias
      /\ (forall front c middle d back, n_children n = front ++ c :: middle ++ d :: back ->
             anonymous c -> anonymous d -> False)
      /\ (forall c, In c (n_children n) -> anonymous c -> behind a_mode (n_children n))
  end.

(** ** The rules for a whole tree *)

Definition node_keeps_rules (n : node) (parents : list node) : Prop :=
  NoDup (map kind_of (n_pols n)) /\ class_ok n parents /\ forall p, In p (n_pols n) -> policy_ok p n parents.

Definition compiles (r : node) : Prop :=
  a_root r /\ forall n parents, placed r n parents -> node_keeps_rules n parents.

(** From [n] one comes to [m] by following the policies made by [mk], once or more. *)
Inductive leads (mk : list nameref -> policy) (mode : node) (n : node) : node -> Prop :=
| leads_at ns ts m : In (mk ns) (n_pols n) -> owners ns mode ts -> In m ts -> leads mk mode n m
| leads_on m ns ts k : leads mk mode n m -> In (mk ns) (n_pols m) -> owners ns mode ts -> In k ts -> leads mk mode n k.

(** Specification for C46 and C03: which mode handles a command line, and which of its arguments take
    which tokens. *)
From Verif Require Import Bytes Token Result CodePoint Utf8 Tree PreParse SpecTokens.
From Verif Require Export SpecTake.

(** The nodes of a subtree. *)
Definition below (n : node) : list node := map fst (preorder n []).

(** The command line starts with the name of mode [m]. *)
Definition names_mode (m : node) (ts rest : list token) : Prop :=
  enabled m /\ exists nm, none_name m = Some nm /\ ts = Tok PNone nm :: rest.

(** [selects m parents ts m' parents' ts']: when mode [m] is offered the tokens [ts], mode [m'], which
    is [m] or a mode nested in it, is used with the tokens [ts'] that follow the typed names. *)
Inductive selects : node -> list node -> list token -> node -> list node -> list token -> Prop :=
| sel_anonymous m ps ts : none_name m = None -> selects m ps ts m ps ts
| sel_named m ps ts rest :
    names_mode m ts rest ->
    (forall c rest', In c (n_children m) -> is_mode c = true -> ~ names_mode c rest rest') ->
    selects m ps ts m ps rest
| sel_nested m ps ts rest before c after m' ps' ts' :
    names_mode m ts rest ->
    n_children m = before ++ c :: after -> is_mode c = true -> (exists rest', names_mode c rest rest') ->
    (forall d rest', In d before -> is_mode d = true -> ~ names_mode d rest rest') ->
    selects c (m :: ps) rest m' ps' ts' ->
    selects m ps ts m' ps' ts'.

(** A command line as it was understood by a mode: each item is an argument node of the mode, the
    label that was typed for it, if it has one, and the values it took. *)
Record item := Item { i_node : node; i_label : option token; i_values : list token }.

(** The argument nodes of a mode: those of its children that are not modes, and of the groups among
    these. *)
Definition argument_of (m l : node) : Prop :=
  exists c, In c (n_children m) /\ is_mode c = false /\ In l (below c).

(** [understood m ts items]: the tokens [ts] are exactly the items in order, up to the rewriting that
    {!SpecTokens} allows. *)
Inductive understood (m : node) : list token -> list item -> Prop :=
| und_nil : understood m [] []
| und_cons ts l label vals rest items :
    argument_of m l -> takes l ts label vals rest -> understood m rest items ->
    understood m ts (Item l label vals :: items).

(** The assignments an item makes: its values to its node, or, for an alias, the values to each node of
    the mode that the alias stands for. *)
Inductive assigns (m : node) : item -> list (node * list token) -> Prop :=
| assigns_node l label vals :
    (forall ns, ~ In (PAlias ns) (n_pols l)) -> assigns m (Item l label vals) [(l, vals)]
| assigns_alias l label vals ns :
    In (PAlias ns) (n_pols l) ->
    assigns m (Item l label vals) (map (fun d => (d, vals)) (filter (refers_to ns) (below m))).

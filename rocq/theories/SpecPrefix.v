(** Specification for C85: which words select an argument when the prefixes are [lp] and [sp]. *)
From Verif Require Import Bytes Token CodePoint Utf8 Tree PreParse.

Definition begins (p s : bytes) : Prop := exists r, s = p ++ r.

Section Prefixes.
Variables lp sp : bytes.

(** [t] is the short-form text [nm]: behind the short prefix on the command line, unless that reads as long
    form, or a letter of a group that was written out. *)
Definition short_text (t : token) (nm : bytes) : Prop :=
  t = Tok PShort nm \/ t = Tok PNone (sp ++ nm) /\ ~ begins lp (sp ++ nm).

(** [heads n t letters]: the token selects [n]; [letters] are the other flags of the group, if it is one. *)
Inductive heads (n : node) : token -> list bytes -> Prop :=
| by_long l : long_name n = Some l -> heads n (Tok PNone (lp ++ l)) []
| by_short t c : short_name n = Some c -> short_text t c -> heads n t []
| by_none s : none_name n = Some s -> (long_name n <> None -> ~ begins lp s) ->
    (short_name n <> None -> begins sp s -> begins lp s) -> heads n (Tok PNone s) []
| by_group t c gs : In PShortFormExpander (n_pols n) -> short_name n = Some c -> List.concat gs <> [] ->
    graphemes (c ++ List.concat gs) = Some (c :: gs) -> short_text t (c ++ List.concat gs) -> heads n t gs.

(** An argument with a name and without value separator, end marker, alias, dependencies or runtime switch. *)
Definition simple_argument (n : node) : Prop :=
  (long_name n <> None \/ short_name n <> None \/ none_name n <> None)
  /\ forall p, In p (n_pols n) ->
       match p with
       | PValueSeparator _ | PTokenEndMarker _ | PAlias _ | PDependent _ | PRuntimeEnable _ | PRuntimeEnableRequired _ _ => False
       | _ => True
       end.
End Prefixes.

(** ** Whole command lines *)

(** An argument of a mode that [line] is about. *)
Definition plain_child (c : node) : Prop :=
  simple_argument c /\ count_bounds c <> None
  /\ match n_kind c with KFlag | KCountingFlag | KArg _ => True | _ => False end.

(** [line lp sp cs used ps ws]: the words [ws] give the arguments [ps] of the mode with children [cs], each with
    its values, in front of those that [used] says were given already.  No argument that comes before it in the
    mode is selected by the word; an argument is given twice only if it adds up its values; the word is more than
    the short prefix and can be decoded behind it. *)
Inductive line (lp sp : bytes) (cs : list node) : list node -> list (node * list bytes) -> list bytes -> Prop :=
| line_end used : line lp sp cs used [] []
| line_argument used before c after w vals mn mx ps ws :
    cs = before ++ c :: after -> heads lp sp c (Tok PNone w) [] ->
    (forall d letters, In d before -> ~ heads lp sp d (Tok PNone w) letters) ->
    (In c used -> has_multi_stage c = true) ->
    (forall nm, w = sp ++ nm -> nm <> [] /\ graphemes nm <> None) ->
    count_bounds c = Some (mn, mx) -> (mn <= nlen vals <= mx)%N -> (ws <> [] -> nlen vals = mx) ->
    line lp sp cs (c :: used) ps ws -> line lp sp cs used ((c, vals) :: ps) (w :: vals ++ ws).

(** ** Separators, aliases, help, suggestions *)

(** A named argument with a one-byte value separator, or with an alias, and no other such policy. *)
Definition other_policies (keep : policy -> Prop) (n : node) : Prop :=
  (long_name n <> None \/ short_name n <> None \/ none_name n <> None)
  /\ forall p, In p (n_pols n) -> keep p \/
       match p with
       | PValueSeparator _ | PShortFormExpander | PTokenEndMarker _ | PAlias _ | PDependent _ | PRuntimeEnable _
       | PRuntimeEnableRequired _ _ => False
       | _ => True
       end.
Definition separated_argument (n : node) (sep : ascii) : Prop :=
  In (PValueSeparator [sep]) (n_pols n) /\ other_policies (fun p => p = PValueSeparator [sep]) n.
Definition alias_argument (n : node) (ns : list nameref) : Prop :=
  In (PAlias ns) (n_pols n) /\ other_policies (fun p => p = PAlias ns) n.

(** [help_path lp sp n words t]: from [n] the words lead to [t], each to the first child that it selects; all the
    nodes on the way are switched on. *)
Inductive help_path (lp sp : bytes) : node -> list bytes -> node -> Prop :=
| help_here n : runtime_enabled n <> Some false -> help_path lp sp n [] n
| help_child n before c after w words t :
    runtime_enabled n <> Some false -> n_children n = before ++ c :: after -> heads lp sp c (Tok PNone w) [] ->
    (forall d, In d before -> ~ heads lp sp d (Tok PNone w) []) -> help_path lp sp c words t ->
    help_path lp sp n (w :: words) t.

(** What is left of a word without its prefix. *)
Definition unprefixed (lp sp w x : bytes) : Prop :=
  w = lp ++ x \/ ~ begins lp w /\ w = sp ++ x \/ ~ begins lp w /\ ~ begins sp w /\ x = w.

(** ** Programs *)

(** A mode whose policies do nothing before its values are parsed, with arguments as above and perhaps other modes. *)
Definition plain_mode (m : node) : Prop :=
  n_kind m = KMode
  /\ (forall p, In p (n_pols m) ->
        match p with
        | PMinMaxCount _ _ | PValueSeparator _ | PShortFormExpander | PTokenEndMarker _ | PAlias _ | PDependent _
        | PRuntimeEnable _ | PRuntimeEnableRequired _ _ => False
        | _ => True
        end)
  /\ forall c, In c (n_children m) -> plain_child c \/ n_kind c = KMode /\ count_bounds c = None.

(** A named mode, or an argument or help argument, that the word [w] does not select. *)
Definition passed (lp sp w : bytes) (d : node) : Prop :=
  (forall letters, ~ heads lp sp d (Tok PNone w) letters)
  /\ (plain_mode d /\ none_name d <> None
      \/ simple_argument d /\ count_bounds d <> None
         /\ match n_kind d with KFlag | KCountingFlag | KArg _ | KHelp => True | _ => False end
         /\ forall nm, w = sp ++ nm -> nm <> [] /\ graphemes nm <> None).

(** [chosen lp sp parents ds ws m parents' rest]: of the nodes [ds] with the given parents, the words [ws] choose
    the mode [m] with its parents, by its name and those of the modes around it, and leave [rest] for its
    arguments.  A mode without a name is chosen by no word. *)
Inductive chosen (lp sp : bytes) : list node -> list node -> list bytes -> node -> list node -> list bytes -> Prop :=
| chosen_unnamed parents before m after ws :
    plain_mode m -> none_name m = None ->
    (forall d, In d before -> exists w rest, ws = w :: rest /\ passed lp sp w d) ->
    chosen lp sp parents (before ++ m :: after) ws m parents ws
| chosen_here parents before m after w rest :
    plain_mode m -> none_name m <> None -> heads lp sp m (Tok PNone w) [] ->
    (forall d, In d before -> passed lp sp w d) ->
    (forall w' ws d, rest = w' :: ws -> In d (n_children m) -> n_kind d = KMode -> passed lp sp w' d) ->
    chosen lp sp parents (before ++ m :: after) (w :: rest) m parents rest
| chosen_below parents before m after w ws m' parents' rest :
    plain_mode m -> none_name m <> None -> heads lp sp m (Tok PNone w) [] ->
    (forall d, In d before -> passed lp sp w d) ->
    ws <> [] -> chosen lp sp (m :: parents) (filter is_mode (n_children m)) ws m' parents' rest ->
    chosen lp sp parents (before ++ m :: after) (w :: ws) m' parents' rest.

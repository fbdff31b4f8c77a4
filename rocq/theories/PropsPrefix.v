(** C85: the prefixes of long and short names are configurable. *)
From Verif Require Import Bytes Token Adapter Result CodePoint Utf8 Tree PreParse Parse Root Build Validator Prefixes.
From Verif Require Import SpecMode SpecPrefix PrefixProofs PrefixRunProofs PrefixMoreProofs Levenshtein Demo.
Local Open Scope list_scope.

(** ** C85 *)

(** With the default prefixes the configurable library is the one of the other theorems. *)
Theorem c85_default : forall r mem args,
  root_parse_with long_prefix short_prefix r mem args = root_parse r mem args
  /\ accepted_with long_prefix short_prefix r = accepted r
  /\ (forall id ps, flag_with long_prefix short_prefix id ps = flag id ps).
Proof.
  intros r mem args. split; [reflexivity|]. split; [|reflexivity].
  unfold accepted_with, accepted. change (config_ok long_prefix short_prefix) with true. cbn [andb]. f_equal.
  induction (preorder r []) as [|[n tp] l IH]; [reflexivity|]. cbn [forallb]. rewrite IH. f_equal.
  unfold node_ok_with, node_ok. f_equal. clear. generalize (n_pols n) as ps. induction ps as [|p ps IH]; [reflexivity|]. cbn [forallb]. rewrite IH. do 2 f_equal.
  destruct p; try reflexivity. cbn [policy_static_with policy_static]. apply andb_true_r.
Qed.
Print Assumptions c85_default.

(** An argument is selected by exactly the words that [heads] lists, and then has between its minimum and its
    maximum of the words that follow, fewer than its maximum only if there are no more.  ([vec_max_size] tokens
    do not fit into memory.) *)
Theorem c85_label : forall lp sp r n parents pt mem t args vals rest mn mx,
  accepted_with lp sp r = true -> In n (below r) -> simple_argument n -> count_bounds n = Some (mn, mx) ->
  t_prefix t <> PLong -> (nlen (t_name t) + nlen args <= vec_max_size)%N ->
  (exists tg, node_pre_parse_with lp sp n parents pt always_true (PS (t :: args) mem) = (PS rest mem, Ok (Some tg)) /\ tg_toks tg = vals)
  <-> exists letters, heads lp sp n t letters /\ map (Tok PShort) letters ++ args = vals ++ rest
      /\ (mn <= nlen vals <= mx)%N /\ (rest <> [] -> nlen vals = mx).
Proof.
  intros lp sp r n parents pt mem t args vals rest mn mx Ha Hin. apply label_exact.
  exact (proj1 (accepted_with_leaf lp sp r n Ha Hin)).
Qed.
Print Assumptions c85_label.

(** The short name of an argument without other names can be typed if and only if the long prefix does not
    begin the short name with its prefix; *)
Theorem c85_short : forall lp sp r n parents pt mem c args,
  accepted_with lp sp r = true -> In n (below r) -> simple_argument n ->
  count_bounds n = Some (nlen args, nlen args) -> (nlen (sp ++ c) + nlen args <= vec_max_size)%N ->
  short_name n = Some c -> long_name n = None -> none_name n = None ->
  (exists tg, node_pre_parse_with lp sp n parents pt always_true (PS (Tok PNone (sp ++ c) :: args) mem) = (PS [] mem, Ok (Some tg))
    /\ tg_toks tg = args)
  <-> ~ begins lp (sp ++ c).
Proof.
  intros lp sp r n parents pt mem c args Ha Hin Hs Hb Hroom Hc Hl Hno.
  rewrite (c85_label lp sp r n parents pt mem (Tok PNone (sp ++ c)) args args [] _ _ Ha Hin Hs Hb); [|discriminate|exact Hroom]. split.
  - intros (letters & Hh & E & _). rewrite app_nil_r in E.
    assert (letters = []).
    { destruct letters as [|x l]; [reflexivity|]. apply (f_equal (@List.length token)) in E. rewrite app_length, map_length in E. cbn [List.length] in E. lia. }
    subst letters. inversion Hh as [l H1 H2|t' c' H1 H2|s' H1|t' c' gs' _ _ H1]; subst; [congruence| |congruence|now contradiction H1].
    destruct H2 as [H2|[H2 H3]]; [discriminate|]. injection H2 as H2. apply app_inv_head in H2. now subst c'.
  - intros H. exists []. split; [apply (by_short lp sp n _ c Hc); now right|]. split; [now rewrite app_nil_r|]. split; [lia|]. now intros [].
Qed.
Print Assumptions c85_short.

(** so it always can if neither prefix begins with the other; *)
Theorem c85_apart_partial : forall lp sp, ~ begins lp sp -> ~ begins sp lp -> forall c, ~ begins lp (sp ++ c).
Proof.
  intros lp sp H1 H2 c [r E]. apply app_eq_app in E as (x & [[-> _]|[-> _]]); [apply H1|apply H2]; now exists x.
Qed.
Print Assumptions c85_apart_partial.

(** and never if the prefixes are the same, which is described as common on Windows: no word selects an
    argument that only has a short name. *)
Theorem c85_same_refuted : forall p r n parents pt mem w args rest tg mn mx c,
  accepted_with p p r = true -> In n (below r) -> simple_argument n -> count_bounds n = Some (mn, mx) ->
  short_name n = Some c -> long_name n = None -> none_name n = None -> (nlen w + nlen args <= vec_max_size)%N ->
  node_pre_parse_with p p n parents pt always_true (PS (Tok PNone w :: args) mem) <> (PS rest mem, Ok (Some tg)).
Proof.
  intros p r n parents pt mem w args rest tg mn mx c Ha Hin Hs Hb Hc Hl Hno Hroom E.
  destruct (proj1 (c85_label p p r n parents pt mem (Tok PNone w) args (tg_toks tg) rest mn mx Ha Hin Hs Hb ltac:(discriminate) Hroom)) as (letters & Hh & _).
  { exists tg. split; [exact E|reflexivity]. }
  assert (Hn : forall nm, ~ short_text p p (Tok PNone w) nm).
  { intros nm [H|[H H']]; [discriminate|]. apply H'. now exists nm. }
  inversion Hh as [l H1 H2|t' c' H1 H2|s' H1|t' c' gs' _ _ _ _ H1]; subst; [congruence|exact (Hn _ H2)|congruence|exact (Hn _ H1)].
Qed.
Print Assumptions c85_same_refuted.

(** Whole command lines: a line gives the same calls, values and errors as the line with the same arguments and
    values written with other prefixes, so all that is proved for the default prefixes holds for others too.  (For
    a tree with one mode without a name; [plain_child] says which arguments.) *)
Theorem c85_line : forall lp sp lp' sp' r m mem ps ws ws',
  accepted_with lp sp r = true -> accepted_with lp' sp' r = true ->
  n_children r = [m] -> is_mode m = true -> is_anonymous m = true -> (forall c, In c (n_children m) -> plain_child c) ->
  line lp sp (n_children m) [] ps ws -> line lp' sp' (n_children m) [] ps ws' ->
  (nlen (List.concat ws) + nlen ws <= vec_max_size)%N -> (nlen (List.concat ws') + nlen ws' <= vec_max_size)%N ->
  root_parse_with lp sp r mem (map (Tok PNone) ws) = root_parse_with lp' sp' r mem (map (Tok PNone) ws').
Proof.
  intros lp sp lp' sp' r m mem ps ws ws' Ha Ha' Hr Hm Han Hk Hl Hl' Hw Hw'.
  transitivity (let '(tr, x) := exec (Target m [r] [] (targets_of m [r] ps)) [] in Out mem tr (_ <- x ;; Ok tt)%res).
  - exact (root_line lp sp r m mem ps ws Ha Hr Hm Han Hk Hl Hw).
  - symmetry. exact (root_line lp' sp' r m mem ps ws' Ha' Hr Hm Han Hk Hl' Hw').
Qed.
Print Assumptions c85_line.

(** An argument with a value separator is selected by a label followed by the separator and a value; *)
Theorem c85_separator : forall lp sp r n sep parents pt mem w args vals rest,
  accepted_with lp sp r = true -> In n (below r) -> separated_argument n sep ->
  (nlen (Tok PNone w :: args) < 9223372036854775807)%N ->
  (exists tg, node_pre_parse_with lp sp n parents pt always_true (PS (Tok PNone w :: args) mem) = (PS rest mem, Ok (Some tg)) /\ tg_toks tg = vals)
  <-> exists l v, w = l ++ sep :: v /\ ~ In sep l /\ v <> [] /\ heads lp sp n (Tok PNone l) [] /\ vals = [Tok PNone v] /\ rest = args.
Proof.
  intros lp sp r n sep parents pt mem w args vals rest Ha Hin. apply separator_exact. exact (proj1 (accepted_with_leaf lp sp r n Ha Hin)).
Qed.
Print Assumptions c85_separator.

(** the label alone is an error. *)
Theorem c85_separator_missing : forall lp sp r n sep parents pt mem w args,
  accepted_with lp sp r = true -> In n (below r) -> separated_argument n sep -> ~ In sep w ->
  heads lp sp n (Tok PNone w) [] -> (none_name n = Some w -> ~ begins lp w /\ ~ begins sp w) ->
  node_pre_parse_with lp sp n parents pt always_true (PS (Tok PNone w :: args) mem)
  = (PS (Tok PNone w :: args) mem, Throw (EML missing_value_separator [node_token n])).
Proof.
  intros lp sp r n sep parents pt mem w args Ha Hin. apply separator_missing. exact (proj1 (accepted_with_leaf lp sp r n Ha Hin)).
Qed.
Print Assumptions c85_separator_missing.

(** An alias is selected by its label and takes its number of words. *)
Theorem c85_alias : forall lp sp r n ns parents pt mem w args rest k,
  accepted_with lp sp r = true -> In n (below r) -> alias_argument n ns -> count_bounds n = Some (k, k) ->
  nearest_mode_like (n :: parents) <> None -> (nlen (Tok PNone w :: args) < 9223372036854775807)%N ->
  (exists tg, node_pre_parse_with lp sp n parents pt always_true (PS (Tok PNone w :: args) mem) = (PS rest mem, Ok (Some tg)))
  <-> heads lp sp n (Tok PNone w) [] /\ exists vals, args = vals ++ rest /\ nlen vals = k.
Proof.
  intros lp sp r n ns parents pt mem w args rest k Ha Hin Hal Hb Hm Hfit. destruct (nearest_mode_like (n :: parents)) as [mode|] eqn:E; [|now contradiction Hm].
  exact (alias_exact lp sp n ns parents pt mem w args rest k mode (proj1 (accepted_with_leaf lp sp r n Ha Hin)) Hal Hb E Hfit).
Qed.
Print Assumptions c85_alias.

(** The help for the words is that of the node which they lead to. *)
Theorem c85_help : forall lp sp h parents words t flat, parents <> [] ->
  (exists x, help_parse_with lp sp h parents (map (Tok PNone) words) [] = ([EvHelp h t flat], x))
  <-> help_path lp sp (last parents h) words t /\ flat = has_flatten_help h || negb (is_root t).
Proof. intros lp sp h parents words t flat Hne. now apply help_shows. Qed.
Print Assumptions c85_help.

(** For a suggestion a word is compared without its prefix, as C24 says. *)
Theorem c85_suggestion : forall lp sp n w x, unprefixed lp sp w x ->
  closest_matching_child_node_with lp sp n (Tok PNone w) = closest_matching_child_node n (Tok PLong x).
Proof. exact suggestion. Qed.
Print Assumptions c85_suggestion.

(** A flag "f", a flag "v" and an argument with a number, behind any prefixes. *)
Definition pre_f lp sp := flag_with lp sp 10 [PShortName (b "f")].
Definition pre_v lp sp := flag_with lp sp 11 [PLongName (b "verbose"); PShortName (b "v")].
Definition pre_n := arg num 12 [PLongName (b "num"); PShortName (b "n"); PDefaultValue (VInt 0)].
Definition pre_tool lp sp := root [] [mode 3 [PRouter] [pre_f lp sp; pre_v lp sp; pre_n]].
Definition calls_with lp sp (args : list string) : list (N * list value) :=
  map (fun e => match e with EvRoute n vs => (n_id n, vs) | _ => (0%N, []) end)
      (o_events (root_parse_with lp sp (pre_tool lp sp) [] (map (fun a => Tok PNone (b a)) args))).
Definition error_with lp sp (args : list string) : option (ecode * list token) :=
  match o_res (root_parse_with lp sp (pre_tool lp sp) [] (map (fun a => Tok PNone (b a)) args)) with Throw (EML c ts) => Some (c, ts) | _ => None end.

(** With "/" and "+": names, a group, and the hypotheses of the theorems. *)
Example c85_example :
  accepted_with (b "/") (b "+") (pre_tool (b "/") (b "+")) = true
  /\ calls_with (b "/") (b "+") ["/verbose"; "+n"; "7"]%string = [(3%N, [VBool false; VBool true; VInt 7])]
  /\ calls_with (b "/") (b "+") ["+vf"]%string = [(3%N, [VBool true; VBool true; VInt 0])]
  /\ error_with (b "/") (b "+") ["/f"]%string <> None
  /\ In (pre_f (b "/") (b "+")) (below (pre_tool (b "/") (b "+"))) /\ simple_argument (pre_f (b "/") (b "+"))
  /\ ~ begins (b "/") (b "+") /\ ~ begins (b "+") (b "/")
  /\ heads (b "/") (b "+") (pre_f (b "/") (b "+")) (Tok PNone (b "+fv")) [b "v"].
Proof.
  split; [vm_compute; reflexivity|]. split; [vm_compute; reflexivity|]. split; [vm_compute; reflexivity|]. split; [vm_compute; discriminate|].
  split; [right; right; left; reflexivity|].
  split. { split; [right; left; discriminate|]. intros p Hp. repeat destruct Hp as [<-|Hp]; try exact I. contradiction. }
  assert (Hb : forall x y (u v : bytes), x <> y -> ~ begins (x :: u) (y :: v)) by (intros x y u v H [z E]; injection E as E; congruence).
  split; [apply Hb; discriminate|]. split; [apply Hb; discriminate|].
  apply (by_group (b "/") (b "+") _ _ (b "f") [b "v"]); [right; right; left; reflexivity|reflexivity|discriminate|vm_compute; reflexivity|].
  right. split; [reflexivity|]. apply Hb. discriminate.
Qed.

(** With "/" twice the tool compiles and its long names work, but "/f" is an unknown argument, and so is "/v";
    "/verbose" is fine. *)
Example c85_same_example :
  accepted_with (b "/") (b "/") (pre_tool (b "/") (b "/")) = true
  /\ calls_with (b "/") (b "/") ["/verbose"; "/num"; "7"]%string = [(3%N, [VBool false; VBool true; VInt 7])]
  /\ option_map fst (error_with (b "/") (b "/") ["/f"]%string) = Some unknown_argument_with_suggestion
  /\ option_map fst (error_with (b "/") (b "/") ["/v"]%string) = Some unknown_argument_with_suggestion
  /\ In (pre_f (b "/") (b "/")) (below (pre_tool (b "/") (b "/"))) /\ simple_argument (pre_f (b "/") (b "/"))
  /\ short_name (pre_f (b "/") (b "/")) = Some (b "f") /\ long_name (pre_f (b "/") (b "/")) = None.
Proof.
  split; [vm_compute; reflexivity|]. split; [vm_compute; reflexivity|]. split; [vm_compute; reflexivity|]. split; [vm_compute; reflexivity|].
  split; [right; right; left; reflexivity|].
  split. { split; [right; left; discriminate|]. intros p Hp. repeat destruct Hp as [<-|Hp]; try exact I. contradiction. }
  split; reflexivity.
Qed.

(** Also with the default prefixes: a short name that is a hyphen with an accent is one character, is not refused,
    and cannot be typed. *)
Definition accent : bytes := ["-"; "204"; "129"]%char.
Example c85_hyphen_example :
  let r := root [] [mode 3 [PRouter] [flag 10 [PShortName accent]; pre_n]] in
  accepted r = true /\ begins long_prefix (short_prefix ++ accent)
  /\ (exists e, o_res (root_parse r [] [Tok PNone (short_prefix ++ accent)]) = Throw e).
Proof.
  split; [vm_compute; reflexivity|]. split; [eexists; reflexivity|]. eexists. vm_compute. reflexivity.
Qed.

(** The words "/verbose +n 7 +f" and "--verbose -n 7 -f". *)
Example c85_line_example :
  let r := pre_tool (b "/") (b "+") in
  let ps := [(pre_v (b "/") (b "+"), []); (pre_n, [b "7"]); (pre_f (b "/") (b "+"), [])] in
  accepted_with (b "/") (b "+") r = true /\ accepted_with (b "--") (b "-") r = true
  /\ (forall c, In c (n_children (hd r (n_children r))) -> plain_child c)
  /\ line (b "/") (b "+") (n_children (hd r (n_children r))) [] ps [b "/verbose"; b "+n"; b "7"; b "+f"]
  /\ line (b "--") (b "-") (n_children (hd r (n_children r))) [] ps [b "--verbose"; b "-n"; b "7"; b "-f"]
  /\ map (fun e => match e with EvRoute n vs => vs | _ => [] end) (o_events (root_parse_with (b "/") (b "+") r [] (map (fun a => Tok PNone (b a)) ["/verbose"; "+n"; "7"; "+f"]%string)))
     = [[VBool true; VBool true; VInt 7]].
Proof.
  assert (Hb : forall x y (u v : bytes), x <> y -> ~ begins (x :: u) (y :: v)) by (intros x y u v H [z E]; injection E as E; congruence).
  assert (Hb2 : forall x y z (u v : bytes), y <> z -> ~ begins (x :: y :: u) (x :: z :: v)) by (intros x y z u v H [q E]; injection E as E; congruence).
  split; [vm_compute; reflexivity|]. split; [vm_compute; reflexivity|].
  split. { intros c [<-|[<-|[<-|[]]]]; (split; [|split; [discriminate|exact I]]); (split; [right; left; discriminate|intros p Hp; repeat destruct Hp as [<-|Hp]; try exact I; contradiction]). }
  assert (Hpl : forall w lp sp (n : node), (forall nm, ~ short_text lp sp (Tok PNone w) nm) -> (forall l, long_name n = Some l -> w <> lp ++ l) -> none_name n = None ->
    forall letters, ~ heads lp sp n (Tok PNone w) letters).
  { intros w lp sp n H1 H2 H3 letters Hh. inversion Hh as [l Hl Et|t c Hc Ht Et|s Hx _ _ Et|t c gs _ _ _ _ Ht Et]; subst; [exact (H2 l Hl eq_refl)|exact (H1 _ Ht)|congruence|exact (H1 _ Ht)]. }
  assert (Hsh : forall w c x lp sp (n : node), short_name n = Some c -> w = sp ++ x -> (forall g gs, graphemes x = Some (g :: gs) -> g <> c) -> x <> c -> (forall l, long_name n = Some l -> w <> lp ++ l) -> none_name n = None ->
    forall letters, ~ heads lp sp n (Tok PNone w) letters).
  { intros w c x lp sp n Hc -> Hg Hx Hl Hn letters Hh. inversion Hh as [l Hl' Et|t c' Hc' Ht Et|s Hx' _ _ Et|t c' gs _ Hc' _ Hg' Ht Et]; subst; [exact (Hl l Hl' (eq_sym Et))| |congruence|].
    - destruct Ht as [Ht|[Ht _]]; [discriminate|]. injection Ht as Ht. apply app_inv_head in Ht. congruence.
    - destruct Ht as [Ht|[Ht _]]; [discriminate|]. injection Ht as Ht. apply app_inv_head in Ht. subst x. apply (Hg c' letters Hg'). congruence. }
  split; [|split; [|vm_compute; reflexivity]].
  - apply (line_argument _ _ _ [] [pre_f (b "/") (b "+")] (pre_v (b "/") (b "+")) [pre_n] (b "/verbose") [] 0 0 [(pre_n, [b "7"]); (pre_f (b "/") (b "+"), [])] [b "+n"; b "7"; b "+f"]).
    + reflexivity.
    + apply (by_long (b "/") (b "+") _ (b "verbose")). reflexivity.
    + intros d letters [<-|[]]. apply Hpl; [|discriminate|reflexivity]. intros nm [H|[H _]]; discriminate.
    + intros [].
    + intros nm E. discriminate.
    + reflexivity.
    + split; discriminate.
    + reflexivity.
    + apply (line_argument _ _ _ _ [pre_f (b "/") (b "+"); pre_v (b "/") (b "+")] pre_n [] (b "+n") [b "7"] 1 1 [(pre_f (b "/") (b "+"), [])] [b "+f"]).
      * reflexivity.
      * apply (by_short (b "/") (b "+") _ _ (b "n")); [reflexivity|]. right. split; [reflexivity|apply Hb; discriminate].
      * assert (Hg : forall c, b "n" <> c -> forall g gs, graphemes (b "n") = Some (g :: gs) -> g <> c).
        { intros c Hc g gs E. vm_compute in E. injection E as <- <-. exact Hc. }
        intros d letters [<-|[<-|[]]].
        -- apply (Hsh (b "+n") (b "f") (b "n") (b "/") (b "+") (pre_f (b "/") (b "+")) eq_refl eq_refl (Hg (b "f") ltac:(discriminate))); [discriminate|discriminate|reflexivity].
        -- apply (Hsh (b "+n") (b "v") (b "n") (b "/") (b "+") (pre_v (b "/") (b "+")) eq_refl eq_refl (Hg (b "v") ltac:(discriminate))); [discriminate|intros l E; injection E as <-; discriminate|reflexivity].
      * intros [H|[]]; discriminate.
      * intros nm E. injection E as <-. split; [discriminate|]. vm_compute. discriminate.
      * reflexivity.
      * split; vm_compute; discriminate.
      * reflexivity.
      * apply (line_argument _ _ _ _ [] (pre_f (b "/") (b "+")) [pre_v (b "/") (b "+"); pre_n] (b "+f") [] 0 0 [] []).
        -- reflexivity.
        -- apply (by_short (b "/") (b "+") _ _ (b "f")); [reflexivity|]. right. split; [reflexivity|apply Hb; discriminate].
        -- intros d letters [].
        -- intros [H|[H|[]]]; discriminate.
        -- intros nm E. injection E as <-. split; [discriminate|]. vm_compute. discriminate.
        -- reflexivity.
        -- split; discriminate.
        -- reflexivity.
        -- constructor.
  - apply (line_argument _ _ _ [] [pre_f (b "/") (b "+")] (pre_v (b "/") (b "+")) [pre_n] (b "--verbose") [] 0 0 [(pre_n, [b "7"]); (pre_f (b "/") (b "+"), [])] [b "-n"; b "7"; b "-f"]).
    + reflexivity.
    + apply (by_long (b "--") (b "-") _ (b "verbose")). reflexivity.
    + intros d letters [<-|[]]. apply Hpl; [|discriminate|reflexivity]. intros nm [H|[H H2]]; [discriminate|]. injection H as <-. apply H2. now exists (b "verbose").
    + intros [].
    + intros nm E. injection E as <-. split; [discriminate|]. vm_compute. discriminate.
    + reflexivity.
    + split; discriminate.
    + reflexivity.
    + apply (line_argument _ _ _ _ [pre_f (b "/") (b "+"); pre_v (b "/") (b "+")] pre_n [] (b "-n") [b "7"] 1 1 [(pre_f (b "/") (b "+"), [])] [b "-f"]).
      * reflexivity.
      * apply (by_short (b "--") (b "-") _ _ (b "n")); [reflexivity|]. right. split; [reflexivity|apply Hb2; discriminate].
      * assert (Hg : forall c, b "n" <> c -> forall g gs, graphemes (b "n") = Some (g :: gs) -> g <> c).
        { intros c Hc g gs E. vm_compute in E. injection E as <- <-. exact Hc. }
        intros d letters [<-|[<-|[]]].
        -- apply (Hsh (b "-n") (b "f") (b "n") (b "--") (b "-") (pre_f (b "/") (b "+")) eq_refl eq_refl (Hg (b "f") ltac:(discriminate))); [discriminate|discriminate|reflexivity].
        -- apply (Hsh (b "-n") (b "v") (b "n") (b "--") (b "-") (pre_v (b "/") (b "+")) eq_refl eq_refl (Hg (b "v") ltac:(discriminate))); [discriminate|intros l E; injection E as <-; discriminate|reflexivity].
      * intros [H|[]]; discriminate.
      * intros nm E. injection E as <-. split; [discriminate|]. vm_compute. discriminate.
      * reflexivity.
      * split; vm_compute; discriminate.
      * reflexivity.
      * apply (line_argument _ _ _ _ [] (pre_f (b "/") (b "+")) [pre_v (b "/") (b "+"); pre_n] (b "-f") [] 0 0 [] []).
        -- reflexivity.
        -- apply (by_short (b "--") (b "-") _ _ (b "f")); [reflexivity|]. right. split; [reflexivity|apply Hb2; discriminate].
        -- intros d letters [].
        -- intros [H|[H|[]]]; discriminate.
        -- intros nm E. injection E as <-. split; [discriminate|]. vm_compute. discriminate.
        -- reflexivity.
        -- split; discriminate.
        -- reflexivity.
        -- constructor.
Qed.

(** A tool with the separator ":", an alias, a help and a suggestion, behind "/" and "+". *)
Definition sep_o := arg str 13 [PLongName (b "owner"); PShortName (b "o"); PValueSeparator (b ":"); PDefaultValue (VStr [])].
Definition sep_a := arg num 14 [PLongName (b "all"); PAlias [NLong (b "num")]].
Definition sep_tool := root [] [help 1 [PLongName (b "help"); PShortName (b "h")]; mode 3 [PRouter] [pre_n; sep_o; sep_a]].
Definition sep_run (args : list string) : outcome := root_parse_with (b "/") (b "+") sep_tool [] (map (fun a => Tok PNone (b a)) args).
Example c85_more_example :
  accepted_with (b "/") (b "+") sep_tool = true
  /\ In sep_o (below sep_tool) /\ separated_argument sep_o ":" /\ In sep_a (below sep_tool) /\ alias_argument sep_a [NLong (b "num")]
  /\ (exists m, map (fun e => match e with EvRoute n vs => (n_id n, vs) | _ => (0%N, []) end) (o_events (sep_run ["/owner:me"; "/all"; "3"]%string)) = [(m, [VInt 3; VStr (b "me")])])
  /\ match o_res (sep_run ["+o"; "me"]%string) with Throw (EML c ts) => c = missing_value_separator | _ => False end
  /\ match o_res (sep_run ["/nun"; "4"]%string) with Throw (EML c ts) => ts = [Tok PNone (b "/nun"); Tok PLong (b "num")] | _ => False end
  /\ map (fun e => match e with EvHelp _ t _ => n_id t | _ => 0%N end) (o_events (sep_run ["/help"]%string)) = [0%N]
  /\ help_path (b "/") (b "+") sep_tool [b "+h"] (help 1 [PLongName (b "help"); PShortName (b "h")])
  /\ unprefixed (b "/") (b "+") (b "/nun") (b "nun").
Proof.
  split; [vm_compute; reflexivity|]. split; [right; right; right; right; left; reflexivity|].
  split. { split; [right; right; right; left; reflexivity|]. split; [left; discriminate|]. intros p Hp. repeat destruct Hp as [<-|Hp]; try (right; exact I); try (left; reflexivity). contradiction. }
  split; [right; right; right; right; right; left; reflexivity|].
  split. { split; [right; right; left; reflexivity|]. split; [left; discriminate|]. intros p Hp. repeat destruct Hp as [<-|Hp]; try (right; exact I); try (left; reflexivity). contradiction. }
  split; [exists 3%N; vm_compute; reflexivity|]. split; [vm_compute; reflexivity|]. split; [vm_compute; reflexivity|]. split; [vm_compute; reflexivity|].
  split. { apply (help_child _ _ _ [] (help 1 [PLongName (b "help"); PShortName (b "h")]) [mode 3 [PRouter] [pre_n; sep_o; sep_a]]); [discriminate|reflexivity| |intros d []|constructor; discriminate].
    apply (by_short (b "/") (b "+") _ _ (b "h")); [reflexivity|]. right. split; [reflexivity|]. intros [z E]. discriminate. }
  left. reflexivity.
Qed.

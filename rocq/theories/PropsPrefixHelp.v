(** C86: help pages and messages with any prefixes. *)
From Verif Require Import Bytes Token Adapter Result CodePoint Utf8 Tree Levenshtein PreParse Parse Root Build Validator Digits Help Message Caller Prefixes PrefixCaller Demo.
From Verif Require Import SpecEdit SpecSuggest SpecMode SpecTake SpecHelp SpecLabel SpecMessage SpecTold SpecTranslate SpecPrefix SpecPrefixHelp.
From Verif Require Import OrderProofs NodeProofs ModeProofs HelpProofs PageProofs LabelTextProofs MessageProofs ToldProofs PrefixProofs PrefixRunProofs PrefixMoreProofs PrefixHelpProofs.
From Verif Require Import PropsHelp PropsPrefix.
Local Open Scope list_scope.

(** The label of every node of a tree that compiles with the prefixes [lp] and [sp]: the names are shown behind
    these prefixes, and the rest of the label is as with the default ones. *)
Theorem c86_label : forall lp sp lim r n, accepted_with lp sp r = true -> In n (below r) -> is_root n = false -> has_label n = true ->
  label_by (fun z s => s = integral_cts z) lim (typed_behind lp sp) n (help_label_with lim lp sp n).
Proof.
  intros lp sp lim r n Ha Hn Hr Hl. apply accepted_with_core in Ha as [_ Hs]. destruct (sub_core_below r [] n Hs Hn) as (tp & _ & Hsn).
  exact (label_ok _ lim lp sp n (fun z _ => eq_refl) tp Hsn Hr Hl).
Qed.
Print Assumptions c86_label.

(** The page of every node: one row per listed node, in tree order, all with the same description column, which
    makes room for the longer or shorter names. *)
Theorem c86_page : forall lp sp lim columns h f r t col,
  accepted_with lp sp r = true -> In t (below r) -> switched_on t = true ->
  help_compiles_of (help_label_with lim lp sp) f t = true -> description_column_of (help_label_with lim lp sp) f t = Ok col ->
  (N.of_nat col < 2 ^ 31)%N -> (columns < 2 ^ 64)%N -> showable t ->
  exists texts, help_text_of (help_label_with lim lp sp) columns h t f = Ok (preamble h ++ List.concat texts ++ addendum h)
    /\ Forall2 (fun '(n, parents, line) text =>
                  row columns col (4 * List.length parents) (line ++ help_label_with lim lp sp n) (help_description n) text)
               (on_page f t) texts.
Proof.
  intros lp sp lim columns h f r t col H1 H2 H3 H4 H5 H6 H7 H8. apply accepted_with_core in H1 as [_ Hs].
  destruct (page_text_of _ columns h f r t col (labelled_with lim lp sp) Hs H2 H3 H4 H5 H6 H7 H8) as (texts & E & HF).
  exists texts. split; [exact E|]. revert HF. apply entries_impl. exact (fun _ _ _ _ H => H).
Qed.
Print Assumptions c86_page.

(** Every line of the rows fits into the terminal, unless it is so narrow that there are less than eight columns
    for the descriptions. *)
Theorem c86_fits : forall lp sp lim columns h f r t col,
  accepted_with lp sp r = true -> In t (below r) -> switched_on t = true ->
  help_compiles_of (help_label_with lim lp sp) f t = true -> description_column_of (help_label_with lim lp sp) f t = Ok col ->
  (N.of_nat col < 2 ^ 31)%N -> (columns < 2 ^ 64)%N -> showable t -> (N.of_nat (col + 8) <= columns)%N ->
  exists ls, help_text_of (help_label_with lim lp sp) columns h t f
             = Ok (preamble h ++ List.concat (map (fun l => l ++ end_of_line) ls) ++ addendum h)
    /\ Forall (fun l => exists w, terminal_width l = Some w /\ (N.of_nat w <= columns)%N) ls.
Proof.
  intros lp sp lim columns h f r t col H1. apply accepted_with_core in H1 as [_ Hs].
  exact (page_fits_of _ columns h f r t col (labelled_with lim lp sp) Hs).
Qed.
Print Assumptions c86_fits.

(** A whole run: the name of the help argument and words that lead to [t] write the page of [t], and nothing
    else. *)
Theorem c86_run : forall lp sp lim columns r h mem w words t f,
  accepted_with lp sp r = true -> asks_help lp sp r h w -> (nlen w + nlen words <= vec_max_size)%N ->
  help_path lp sp r words t -> flattened h t f ->
  help_written_of (help_label_with lim lp sp) columns (root_parse_with lp sp r mem (map (Tok PNone) (w :: words)))
  = [help_text_of (help_label_with lim lp sp) columns h t f]
  /\ In t (below r) /\ switched_on t = true.
Proof.
  intros lp sp lim columns r h mem w words t f Ha Hw Hroom Hp Hf. apply flattened_is in Hf. subst f. split; [|exact (path_below lp sp r words t Hp)].
  unfold help_written_of. rewrite (run_help lp sp r h mem w words t Ha Hw Hroom Hp). reflexivity.
Qed.
Print Assumptions c86_run.

(** A name that is shown can be typed, unless it is the short name and reads as a long one, and what can be typed
    is shown.  Missing for the full statement: the names that [misread] is about, see [c86_typed_refuted]. *)
Theorem c86_typed_partial : forall lp sp r n w, accepted_with lp sp r = true -> In n (below r) -> ~ misread lp sp n w ->
  (In w (typed_behind lp sp n) <-> heads lp sp n (Tok PNone w) []).
Proof.
  intros lp sp r n w Ha Hn Hm. split; [intros H; exact (typed_heads lp sp r n w Ha Hn H Hm)|apply heads_typed].
Qed.
Print Assumptions c86_typed_partial.

(** With the same prefix twice, the help page shows a name that selects nothing. *)
Theorem c86_typed_refuted : exists lp sp lim r n w, accepted_with lp sp r = true /\ In n (below r) /\ In w (typed_behind lp sp n)
  /\ help_label_with lim lp sp n = w /\ forall letters, ~ heads lp sp n (Tok PNone w) letters.
Proof.
  exists (b "/"), (b "/"), no_limits, (pre_tool (b "/") (b "/")), (pre_f (b "/") (b "/")), (b "/f").
  split; [vm_compute; reflexivity|]. split; [right; right; left; reflexivity|]. split; [left; reflexivity|]. split; [vm_compute; reflexivity|].
  intros letters H.
  assert (Hn : forall nm, ~ short_text (b "/") (b "/") (Tok PNone (b "/f")) nm).
  { intros nm [E|[E E']]; [discriminate|]. apply E'. now exists nm. }
  assert (Hl : long_name (pre_f (b "/") (b "/")) = None) by reflexivity. assert (Hm : none_name (pre_f (b "/") (b "/")) = None) by reflexivity.
  revert Hn H Hl Hm. generalize (pre_f (b "/") (b "/")), (Tok PNone (b "/f")). intros n t Hn H Hl Hm.
  inversion H as [l H1 H2|t' c' H1 H2|s' H1|t' c' gs' _ _ _ _ H1]; subst; [congruence|exact (Hn _ H2)|congruence|exact (Hn _ H1)].
Qed.
Print Assumptions c86_typed_refuted.

(** How a parse ends is what the caller sees, with the tokens behind the configured prefixes. *)
Theorem c86_seen : forall lp sp r mem argv s,
  sees_of (behind lp sp) (o_res (root_parse_with lp sp r mem (to_tokens argv))) s ->
  parse_call_with lp sp [] default_translations r mem argv = s.
Proof. intros lp sp r mem argv s H. exact (seen_as (behind lp sp) _ s H). Qed.
Print Assumptions c86_seen.

(** A translation of the user's own is filled with the same texts. *)
Theorem c86_message : forall lp sp user r mem argv c ts t,
  o_res (root_parse_with lp sp r mem (to_tokens argv)) = Throw (EML c ts) ->
  first_entry user c (written t) -> tidy t -> joins_last t ->
  parse_call_with lp sp user default_translations r mem argv = ParseError (message_of (behind lp sp) t ts).
Proof.
  intros lp sp user r mem argv c ts t E H1 H2 H3. unfold parse_call_with. rewrite E. cbn [caller_sees_of].
  now rewrite (translates (token_str_with lp sp) user default_translations c ts t (user_first _ _ _ _ H1) H2 H3).
Qed.
Print Assumptions c86_message.

(** A wrong first word of a program with one mode without a name: the message shows the word as it was typed and
    the first of the closest names behind its prefix. *)
Theorem c86_suggestion : forall lp sp r m mem w words x,
  accepted_with lp sp r = true -> n_children r = [m] -> n_kind m = KMode -> none_name m = None ->
  (forall c, In c (n_children m) -> plain_child c) ->
  (forall c letters, In c (n_children m) -> ~ heads lp sp c (Tok PNone w) letters) ->
  (forall nm, w = sp ++ nm -> nm <> [] /\ graphemes nm <> None) -> (nlen w + nlen words <= vec_max_size)%N ->
  unprefixed lp sp w x -> decodable x -> (forall c, In c (names_below [] m) -> decodable (t_name (snd c))) ->
  switched_on m = true -> names_below [] m <> [] ->
  exists c, first_closest x (names_below [] m) c
    /\ parse_call_with lp sp [] default_translations r mem (w :: words)
       = ParseError (b "Unknown argument: " ++ w ++ b ". Did you mean " ++ joined_of (behind lp sp) (b " ") (fst c ++ [snd c]) ++ b "?").
Proof.
  intros lp sp r m mem w words x Ha Hr Hm Han Hk Hno Hd Hroom Hx Hdx Hn Hon Hne.
  destruct (told_suggestion_with lp sp m w x Hx Hdx Hn Hon Hne) as (c & Hc & E). exists c. split; [exact Hc|].
  unfold parse_call_with, to_tokens. rewrite (run_unknown lp sp r m mem w words Ha Hr); auto.
  - unfold is_mode. now rewrite Hm.
  - unfold is_anonymous. now rewrite Han.
  - intros E0. apply Hne. destruct m as [k i ty ps cs]. cbn [n_children] in E0. subst cs. reflexivity.
Qed.
Print Assumptions c86_suggestion.

(** A tool with "/" and "+". *)
Definition x_help := help 1 [PLongName (b "help"); PShortName (b "h"); PDescription (b "Shows this")].
Definition x_v := flag_with (b "/") (b "+") 11 [PLongName (b "verbose"); PShortName (b "v"); PDescription (b "Say more")].
Definition x_n := arg num 12 [PLongName (b "num"); PShortName (b "n"); PValueSeparator (b ":"); PDefaultValue (VInt 0); PDescription (b "How many")].
Definition x_tool := root [] [x_help; mode 3 [PRouter] [x_v; x_n]].
Definition x_label := help_label_with no_limits (b "/") (b "+").

Lemma x_begins x y (u v : bytes) : x <> y -> ~ begins (x :: u) (y :: v).
Proof. intros H [z E]. injection E as E. congruence. Qed.

Lemma x_showable : showable x_tool.
Proof.
  assert (H : forallb (fun n => match cp_split (help_description n) with Some _ => true | None => false end
                                && N.ltb (N.of_nat (List.length (help_description n))) 1000) (below x_tool) = true) by (vm_compute; reflexivity).
  rewrite forallb_forall in H. intros n Hn. specialize (H n Hn). apply andb_true_iff in H as [H1 H2]. split.
  - destruct (cp_split (help_description n)); discriminate.
  - apply N.ltb_lt in H2. apply (N.lt_trans _ 1000); [exact H2|]. vm_compute. reflexivity.
Qed.

Example c86_page_example :
  accepted_with (b "/") (b "+") x_tool = true /\ help_compiles_of x_label true x_tool = true
  /\ description_column_of x_label true x_tool = Ok 27%nat /\ showable x_tool /\ switched_on x_tool = true
  /\ has_label x_v = true /\ x_label x_v = b "/verbose,+v"
  /\ help_text_of x_label 80 x_help x_tool true
     = Ok (lines ["    /help,+h               Shows this";
                  "     ";
                  "        /verbose,+v        Say more";
                  "        /num,+n:<Value>    How many"]%string).
Proof.
  split; [vm_compute; reflexivity|]. split; [vm_compute; reflexivity|]. split; [vm_compute; reflexivity|]. split; [exact x_showable|].
  repeat split; vm_compute; reflexivity.
Qed.

(** The run "+h /help" shows the page of the help argument. *)
Example c86_run_example :
  asks_help (b "/") (b "+") x_tool x_help (b "+h") /\ help_path (b "/") (b "+") x_tool [b "/help"] x_help /\ flattened x_help x_help true
  /\ help_written_of x_label 80 (root_parse_with (b "/") (b "+") x_tool [] (map (Tok PNone) (map b ["+h"; "/help"]%string)))
     = [Ok (lines ["/help,+h    Shows this"]%string)]
  /\ In (b "+h") (typed_behind (b "/") (b "+") x_help) /\ ~ misread (b "/") (b "+") x_help (b "+h").
Proof.
  assert (Hs : forall nm, b "+h" = b "+" ++ nm -> nm = b "h") by (intros nm E; injection E as <-; reflexivity).
  assert (Hn : ~ begins (b "/") (b "+h")) by (apply x_begins; discriminate).
  split.
  { exists [], [mode 3 [PRouter] [x_v; x_n]]. split; [reflexivity|]. split; [reflexivity|]. split.
    { split; [left; discriminate|]. intros p Hp. repeat destruct Hp as [<-|Hp]; try exact I. contradiction. }
    split. { apply (by_short (b "/") (b "+") _ _ (b "h")); [reflexivity|]. right. split; [reflexivity|exact Hn]. }
    split; [intros d letters []|]. intros nm E. rewrite (Hs nm E). split; [discriminate|vm_compute; discriminate]. }
  split.
  { apply (help_child _ _ _ [] x_help [mode 3 [PRouter] [x_v; x_n]]); [discriminate|reflexivity| |intros d []|constructor; discriminate].
    apply (by_long (b "/") (b "+") x_help (b "help")). reflexivity. }
  split. { split; [intros _; right; discriminate|reflexivity]. }
  split; [vm_compute; reflexivity|]. split; [right; left; reflexivity|]. intros [_ H]. exact (Hn H).
Qed.

(** "/nun" is not a name. *)
Definition y_mode := mode 3 [PRouter] [x_v; pre_n].
Definition y_tool := root [] [y_mode].
Example c86_message_example :
  accepted_with (b "/") (b "+") y_tool = true
  /\ (forall c, In c (n_children y_mode) -> plain_child c)
  /\ (forall c letters, In c (n_children y_mode) -> ~ heads (b "/") (b "+") c (Tok PNone (b "/nun")) letters)
  /\ unprefixed (b "/") (b "+") (b "/nun") (b "nun") /\ decodable (b "nun")
  /\ (forall c, In c (names_below [] y_mode) -> decodable (t_name (snd c)))
  /\ parse_call_with (b "/") (b "+") [] default_translations y_tool [] [b "/nun"; b "4"]
     = ParseError (b "Unknown argument: /nun. Did you mean /num?")
  /\ let t := Template (b "No ") [([], b ", but "); (b " or ", b ".")] in
     tidy t /\ joins_last t /\ parse_call_with (b "/") (b "+") [(unknown_argument_with_suggestion, written t)] default_translations y_tool [] [b "/nun"; b "4"]
     = ParseError (b "No /nun, but /num.").
Proof.
  split; [vm_compute; reflexivity|]. split.
  { intros c [<-|[<-|[]]].
    - split; [|split; [discriminate|exact I]]. split; [left; discriminate|]. intros p Hp. repeat destruct Hp as [<-|Hp]; try exact I. contradiction.
    - split; [|split; [discriminate|exact I]]. split; [left; discriminate|]. intros p Hp. repeat destruct Hp as [<-|Hp]; try exact I. contradiction. }
  split.
  { assert (Hn : forall nm, ~ short_text (b "/") (b "+") (Tok PNone (b "/nun")) nm) by (intros nm [E|[E _]]; discriminate).
    intros c letters Hc H. assert (Hl : long_name c <> Some (b "nun") /\ none_name c = None).
    { destruct Hc as [<-|[<-|[]]]; split; vm_compute; congruence. }
    destruct Hl as [Hl Hm]. remember (Tok PNone (b "/nun")) as t eqn:Et. revert Hn Et. clear Hc.
    destruct H as [l H|t c' H H2|s' H|t c' gs' _ _ _ _ H]; intros Hn Et; [|exact (Hn _ H2)|congruence|exact (Hn _ H)].
    injection Et as ->. exact (Hl H). }
  split; [left; reflexivity|]. split; [vm_compute; discriminate|]. split.
  { assert (H : forallb (fun c => match graphemes (t_name (snd c)) with Some _ => true | None => false end) (names_below [] y_mode) = true) by (vm_compute; reflexivity).
    rewrite forallb_forall in H. intros c Hc E. specialize (H c Hc). rewrite E in H. discriminate. }
  split; [vm_compute; reflexivity|]. cbv zeta. split; [|split; [|vm_compute; reflexivity]].
  - split; [split; intro I; simpl in I; repeat (destruct I as [I|I]; [discriminate|]); contradiction|].
    repeat constructor; intro I; simpl in I; repeat (destruct I as [I|I]; [discriminate|]); contradiction.
  - intros [|x [|y before]] h after E Hn; cbn [tp_holes app] in E.
    + injection E as <- <-. now exfalso.
    + injection E as _ _ <-. reflexivity.
    + injection E as _ _ E. now destruct before.
Qed.

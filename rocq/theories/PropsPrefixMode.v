(** C85, C86: programs with several modes with any prefixes, and which trees compile with them. *)
From Verif Require Import Bytes Token Adapter Result CodePoint Utf8 Tree Levenshtein PreParse Parse Root Build Validator Message Caller Prefixes PrefixCaller Demo.
From Verif Require Import SpecEdit SpecSuggest SpecTokens SpecTake SpecMode SpecMessage SpecTold SpecPrefix SpecPrefixRules SpecPrefixHelp.
From Verif Require Import OrderProofs NodeProofs ModeProofs PrefixProofs PrefixRunProofs PrefixMoreProofs PrefixModeProofs PrefixRulesProofs PrefixHelpProofs PropsPrefix.
Local Open Scope list_scope.

(** Which trees compile with which prefixes. *)
Theorem c85_compiles : forall lp sp r, accepted_with lp sp r = true <-> compiles_with lp sp r.
Proof. exact accepted_with_compiles. Qed.
Print Assumptions c85_compiles.

(** "-" is a short name that the default prefixes rule out, "/" and "+" do not; an empty prefix is not possible, nor
    is a short one of two characters; groups of short names need different prefixes. *)
Example c85_compiles_example :
  let r := root [] [mode 3 [PRouter] [flag_with (b "/") (b "+") 10 [PShortName (b "-")]]] in
  accepted_with (b "/") (b "+") r = true /\ accepted_with (b "--") (b "-") r = false
  /\ accepted_with (b "/") (b "/") r = false /\ accepted_with (b "") (b "+") r = false
  /\ accepted_with (b "/") (b "++") r = false.
Proof. repeat split; vm_compute; reflexivity. Qed.

(** Whole command lines of programs with several modes, also inside one another: the words that choose a mode, and
    then arguments and values, give the same calls, values and errors whatever the prefixes are, if they choose the
    same mode and give it the same arguments and values. *)
Theorem c85_modes : forall lp sp lp' sp' r m parents mem ps ws rest ws' rest',
  accepted_with lp sp r = true -> accepted_with lp' sp' r = true ->
  chosen lp sp [r] (n_children r) ws m parents rest -> chosen lp' sp' [r] (n_children r) ws' m parents rest' ->
  line lp sp (n_children m) [] ps rest -> line lp' sp' (n_children m) [] ps rest' ->
  (forall p, In p ps -> plain_child (fst p)) ->
  (nlen (List.concat ws) + nlen ws <= vec_max_size)%N -> (nlen (List.concat ws') + nlen ws' <= vec_max_size)%N ->
  root_parse_with lp sp r mem (map (Tok PNone) ws) = root_parse_with lp' sp' r mem (map (Tok PNone) ws').
Proof.
  intros lp sp lp' sp' r m parents mem ps ws rest ws' rest' Ha Ha' Hc Hc' Hl Hl' Hk Hw Hw'.
  transitivity (let '(tr, x) := exec (Target m parents [] (targets_of m parents ps)) [] in Out mem tr (_ <- x ;; Ok tt)%res).
  - exact (root_choice lp sp r m parents mem ps ws rest Ha Hc Hl Hk Hw).
  - symmetry. exact (root_choice lp' sp' r m parents mem ps ws' rest' Ha' Hc' Hl' Hk Hw').
Qed.
Print Assumptions c85_modes.

(** A first word that selects nothing is reported, and nothing is called; the message has the first of the closest
    of all names of the program, behind its prefix. *)
Theorem c86_first_word : forall lp sp r mem w words x,
  accepted_with lp sp r = true -> w <> [] -> (forall d, In d (n_children r) -> passed lp sp w d) ->
  (nlen w + nlen words <= vec_max_size)%N ->
  unprefixed lp sp w x -> decodable x -> (forall c, In c (names_below [] r) -> decodable (t_name (snd c))) ->
  enabled r -> names_below [] r <> [] ->
  o_events (root_parse_with lp sp r mem (map (Tok PNone) (w :: words))) = []
  /\ exists c, first_closest x (names_below [] r) c
     /\ parse_call_with lp sp [] default_translations r mem (w :: words)
        = ParseError (b "Unknown argument: " ++ w ++ b ". Did you mean " ++ joined_of (behind lp sp) (b " ") (fst c ++ [snd c]) ++ b "?").
Proof.
  intros lp sp r mem w words x Ha Hw Hp Hroom Hx Hdx Hn Hon Hne.
  destruct (root_unknown lp sp r mem w words Ha Hw Hp Hroom) as [E1 E2]. split; [exact E1|].
  assert (Hb : enabledb r = true).
  { unfold enabled in Hon. unfold enabledb. destruct (runtime_enabled r) as [[]|]; congruence. }
  destruct (told_suggestion_with lp sp r w x Hx Hdx Hn Hb Hne) as (c & Hc & E). exists c. split; [exact Hc|].
  unfold parse_call_with, to_tokens. change (map (Tok PNone) (w :: words)) with (toks_of (w :: words)). now rewrite E2.
Qed.
Print Assumptions c86_first_word.

(** The modes "remote add" and "log", with "/" and "+" and with the default prefixes. *)
Definition m_force := flag_with (b "/") (b "+") 20 [PLongName (b "force"); PShortName (b "f")].
Definition m_add := mode 4 [PNoneName (b "add"); PRouter] [m_force].
Definition m_remote := mode 3 [PNoneName (b "remote"); PRouter] [m_force; m_add].
Definition m_log := mode 5 [PNoneName (b "log"); PRouter] [m_force].
Definition m_tool := root [] [m_log; m_remote].

Lemma m_plain_force : plain_child m_force.
Proof.
  split; [|split; [discriminate|exact I]]. split; [left; discriminate|]. intros p Hp. repeat destruct Hp as [<-|Hp]; try exact I. contradiction.
Qed.
Lemma m_plain m : In m [m_add; m_remote; m_log] -> plain_mode m.
Proof.
  intros H. repeat destruct H as [<-|H]; try contradiction; (split; [reflexivity|]; split;
    [intros p Hp; repeat destruct Hp as [<-|Hp]; try exact I; contradiction|]);
    intros c Hc; repeat destruct Hc as [<-|Hc]; try contradiction; try (left; exact m_plain_force); right; split; reflexivity.
Qed.
Lemma m_not lp sp m w s : none_name m = Some s -> long_name m = None -> short_name m = None -> w <> s ->
  forall letters, ~ heads lp sp m (Tok PNone w) letters.
Proof.
  intros H1 H2 H3 H4 letters H. inversion H as [l E|t c E|s' E _ _ E'|t c gs _ E]; subst; congruence.
Qed.
Lemma m_yes lp sp m s : none_name m = Some s -> long_name m = None -> short_name m = None -> heads lp sp m (Tok PNone s) [].
Proof. intros H1 H2 H3. apply by_none; [exact H1|congruence|congruence]. Qed.
Lemma m_chosen lp sp rest : (forall w ws, rest = w :: ws -> w <> b "add") ->
  chosen lp sp [m_tool] (n_children m_tool) (b "remote" :: b "add" :: rest) m_add [m_remote; m_tool] rest.
Proof.
  intros Hr. apply (chosen_below lp sp [m_tool] [m_log] m_remote []).
  - apply m_plain. right; left; reflexivity.
  - discriminate.
  - now apply m_yes.
  - intros d [<-|[]]. split; [apply (m_not lp sp m_log (b "remote") (b "log")); [reflexivity|reflexivity|reflexivity|discriminate]|].
    left. split; [apply m_plain; right; right; left; reflexivity|discriminate].
  - discriminate.
  - apply (chosen_here lp sp [m_remote; m_tool] [] m_add []).
    + apply m_plain. left; reflexivity.
    + discriminate.
    + now apply m_yes.
    + intros d [].
    + intros w' ws d _ [<-|[]] Hk. discriminate.
Qed.

Example c85_modes_example :
  accepted_with (b "/") (b "+") m_tool = true /\ accepted_with (b "--") (b "-") m_tool = true
  /\ chosen (b "/") (b "+") [m_tool] (n_children m_tool) (map b ["remote"; "add"; "/force"]%string) m_add [m_remote; m_tool] [b "/force"]
  /\ chosen (b "--") (b "-") [m_tool] (n_children m_tool) (map b ["remote"; "add"; "--force"]%string) m_add [m_remote; m_tool] [b "--force"]
  /\ line (b "/") (b "+") (n_children m_add) [] [(m_force, [])] [b "/force"]
  /\ line (b "--") (b "-") (n_children m_add) [] [(m_force, [])] [b "--force"]
  /\ map (fun e => match e with EvRoute n vs => (n_id n, vs) | _ => (0%N, []) end)
       (o_events (root_parse_with (b "/") (b "+") m_tool [] (map (fun a => Tok PNone (b a)) ["remote"; "add"; "+f"]%string)))
     = [(4%N, [VBool true])].
Proof.
  split; [vm_compute; reflexivity|]. split; [vm_compute; reflexivity|].
  split. { apply m_chosen. intros w ws E. injection E as <- _. discriminate. }
  split. { apply m_chosen. intros w ws E. injection E as <- _. discriminate. }
  split; [|split; [|vm_compute; reflexivity]].
  - apply (line_argument _ _ _ _ [] m_force [] (b "/force") [] 0 0 [] []).
    + reflexivity.
    + apply (by_long (b "/") (b "+") _ (b "force")). reflexivity.
    + intros d letters [].
    + intros [].
    + intros nm E. discriminate.
    + reflexivity.
    + split; discriminate.
    + reflexivity.
    + constructor.
  - apply (line_argument _ _ _ _ [] m_force [] (b "--force") [] 0 0 [] []).
    + reflexivity.
    + apply (by_long (b "--") (b "-") _ (b "force")). reflexivity.
    + intros d letters [].
    + intros [].
    + intros nm E. injection E as <-. split; [discriminate|]. vm_compute. discriminate.
    + reflexivity.
    + split; discriminate.
    + reflexivity.
    + constructor.
Qed.

Example c86_first_word_example :
  (forall d, In d (n_children m_tool) -> passed (b "/") (b "+") (b "/fork") d)
  /\ unprefixed (b "/") (b "+") (b "/fork") (b "fork") /\ decodable (b "fork") /\ enabled m_tool
  /\ parse_call_with (b "/") (b "+") [] default_translations m_tool [] [b "/fork"] = ParseError (b "Unknown argument: /fork. Did you mean log /force?")
  /\ parse_call_with (b "/") (b "+") [] default_translations m_tool [] [b "/lot"] = ParseError (b "Unknown argument: /lot. Did you mean log?").
Proof.
  split.
  { intros d [<-|[<-|[]]]; (split; [|left; split; [apply m_plain; cbn [In]; auto|discriminate]]).
    - apply (m_not _ _ m_log _ (b "log")); [reflexivity|reflexivity|reflexivity|discriminate].
    - apply (m_not _ _ m_remote _ (b "remote")); [reflexivity|reflexivity|reflexivity|discriminate]. }
  split; [left; reflexivity|]. split; [vm_compute; discriminate|]. split; [discriminate|]. split; vm_compute; reflexivity.
Qed.

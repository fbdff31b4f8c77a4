(** Property theorems about parse targets, error messages, locales, numbers and names as text
    (C19, C20, C32, C33, C36, C37, C43, C44, C53). *)
From Verif Require Import Bytes Token Result Utf8 Tree PreParse Root Build Validator Demo.
From Verif Require Import ParseTarget Digits Message Caller GlobalParser MultiLang StringPolicy.
From Verif Require Import SpecTarget SpecNumeral SpecMessage SpecNames SpecTake SpecMode SpecReading SpecRoot SpecSafe.
From Verif Require Import TargetProofs DigitProofs MessageProofs TextProofs SafeProofs Oddities PropsTree.

(** ** C20 *)

(** Whatever is done with targets short of copying them, an invoked target's action runs there and
    then, on the tokens that the target holds, and never before or after. *)
Theorem c20_exactly_once : forall (A : Type) (vs : list (target A)) os1 p os2 t a,
  NoDup (all_waiting vs) -> look (run (World vs []) os1) p = Some t -> action_of t = Some a ->
  exists before after,
    w_calls (run (World vs []) (os1 ++ Invoke p :: os2)) = before ++ (a, disarmed t) :: after /\
    before = w_calls (run (World vs []) os1) /\
    ~ In a (map fst before) /\ ~ In a (map fst after).
Proof. exact (fun A => @run_exactly_once A). Qed.
Print Assumptions c20_exactly_once.

(** No action runs twice, invoked or not. *)
Theorem c20_at_most_once : forall (A : Type) (vs : list (target A)) os,
  NoDup (all_waiting vs) -> NoDup (map fst (w_calls (run (World vs []) os))).
Proof. exact (fun A => @calls_nodup A). Qed.
Print Assumptions c20_at_most_once.

Definition two_targets : list (target nat) :=
  [Tgt (Some 7) [Tok PLong (b "x")] [Tgt (Some 8) [] []]; Tgt (Some 9) [] []].

Example c20_example :
  NoDup (all_waiting two_targets) /\
  map fst (w_calls (run (World two_targets [])
    [AddSub (0, []) 1; MoveOut (0, []); Invoke (0, []); Invoke (2, []); Invoke (2, []);
     Invoke (3, [1]); Invoke (3, [0]); Invoke (3, [1])])) = [7; 9; 8].
Proof.
  split; [|vm_compute; reflexivity].
  repeat constructor; simpl; intuition discriminate.
Qed.

(** ** C32 *)

(** Placeholders are replaced by tokens, everything else is unchanged; the tokens are arbitrary. *)
Theorem c32_message : forall t ts, tidy t -> joins_last t -> format (written t) ts = Ok (message t ts).
Proof. exact (format_message token_str). Qed.
Print Assumptions c32_message.

(** Format texts with a joining placeholder anywhere but at the end do not compile, others do. *)
Theorem c32_compiles : forall t, tidy t -> (format_compiles (written t) = true <-> joins_last t).
Proof. exact format_compiles_spec. Qed.
Print Assumptions c32_compiles.

Example c32_example :
  let t := Template (b "Unknown argument: ") [([], b ". Did you mean "); (b " or ", b "?")] in
  tidy t /\ joins_last t /\
  format (written t) [Tok PLong (b "{}"); Tok PShort (b "x"); Tok PLong (b "y}")] =
    Ok (b "Unknown argument: --{}. Did you mean -x or --y}?") /\
  format (written t) [Tok PLong (b "a")] = Ok (b "Unknown argument: --a. Did you mean ?") /\
  format (b "Failed to parse") [Tok PNone (b "5x"); Tok PLong (b "n")] = Ok (b "Failed to parse: 5x, --n").
Proof.
  cbv zeta. split; [|split; [|repeat split; vm_compute; reflexivity]].
  - split; [split; intro I; simpl in I; repeat (destruct I as [I|I]; [discriminate|]); contradiction|].
    repeat constructor; intro I; simpl in I; repeat (destruct I as [I|I]; [discriminate|]); contradiction.
  - intros [|x [|y before]] h after E Hn; cbn [tp_holes app] in E.
    + injection E as <- <-. now exfalso.
    + injection E as _ _ <-. reflexivity.
    + injection E as _ _ E. now destruct before.
Qed.

(** Not for every text: an opening bracket that is never closed in the translation is taken together
    with the bracket that the library appends, and the first token lands in the middle of the text. *)
Theorem c32_bracket_refuted : exists s ts,
  ~ In "}"%char s /\ format_compiles s = true /\ ts <> [] /\
  format s ts <> Ok (s ++ b ": " ++ joined (b ", ") ts).
Proof.
  exists (b "Bad { in input"), [Tok PNone (b "a"); Tok PNone (b "b")].
  split; [|split; [|split; [discriminate|]]].
  - intro I; simpl in I; repeat (destruct I as [I|I]; [discriminate|]); contradiction.
  - vm_compute; reflexivity.
  - intro H. vm_compute in H. discriminate.
Qed.
Print Assumptions c32_bracket_refuted.

Example c32_bracket_result :
  format (b "Bad { in input") [Tok PNone (b "a"); Tok PNone (b "b")] = Ok (b "Bad a in input: {, b").
Proof. vm_compute. reflexivity. Qed.

(** Nor is it if there is a closing bracket before it: the end of the last token is lost. *)
Theorem c32_closing_refuted : exists s ts,
  ~ In "{"%char s /\ format_compiles s = true /\ ts <> [] /\
  format s ts <> Ok (s ++ b ": " ++ joined (b ", ") ts).
Proof.
  exists (b "Unexpected } in"), [Tok PNone (b "file.txt")].
  split; [|split; [|split; [discriminate|]]].
  - intro I; simpl in I; repeat (destruct I as [I|I]; [discriminate|]); contradiction.
  - vm_compute; reflexivity.
  - intro H. vm_compute in H. discriminate.
Qed.
Print Assumptions c32_closing_refuted.

Example c32_closing_result :
  format (b "Unexpected } in") [Tok PNone (b "file.txt")] = Ok (b "Unexpected } in: file.t").
Proof. vm_compute. reflexivity. Qed.

(** But whatever is written with the brackets: a text that compiles never makes the formatter throw
    anything else than the message. *)
Theorem c32_total : forall s ts, format_compiles s = true -> exists m, format s ts = Ok m.
Proof. exact (format_total token_str). Qed.
Print Assumptions c32_total.

Example c32_total_example :
  format_compiles (b "a{}}} b{") = true
  /\ format (b "a{}}} b{") [Tok PLong []; Tok PNone (b "xyz")] = Ok (b "a--}} bxyz")
  /\ format (b "a{}}} b{") [] = Ok (b "a}} b")
  /\ format_compiles (b "{abcdef}{}") = false /\ format (b "{abcdef}{}") [] = Throw EOutOfRange.
Proof. vm_compute. repeat split. Qed.

(** ** C33 *)

(** The user's first entry for the code is used; *)
Theorem c33_user : forall user fallback c ts t,
  first_entry user c (written t) -> tidy t -> joins_last t ->
  translate user fallback c ts = Ok (message t ts).
Proof.
  exact (fun user fallback c ts t H => translates token_str user fallback c ts t (user_first _ _ _ _ H)).
Qed.
Print Assumptions c33_user.

(** then the first one of the fallback; *)
Theorem c33_fallback : forall user fallback c ts t,
  (forall e, In e user -> ecode_num (fst e) <> ecode_num c) ->
  first_entry fallback c (written t) -> tidy t -> joins_last t ->
  translate user fallback c ts = Ok (message t ts).
Proof.
  exact (fun user fallback c ts t H1 H2 => translates token_str user fallback c ts t (fallback_next _ _ _ _ H1 H2)).
Qed.
Print Assumptions c33_fallback.

(** a code in neither is still reported, with its number and the tokens. *)
Theorem c33_untranslated : forall user fallback c ts ds,
  (forall e, In e (user ++ fallback) -> ecode_num (fst e) <> ecode_num c) ->
  writes (ecode_num c) ds ->
  translate user fallback c ts =
  Ok (b "Untranslated error code (" ++ digits_text ds ++ b ")" ++
      match ts with [] => [] | _ :: _ => b ": " ++ joined (b ", ") ts end).
Proof. exact (untranslated token_str). Qed.
Print Assumptions c33_untranslated.

(** With tables that compile there is a message for every code. *)
Theorem c33_total : forall user fallback c ts,
  table_compiles user = true -> table_compiles fallback = true -> exists m, translate user fallback c ts = Ok m.
Proof. exact (translate_total token_str). Qed.
Print Assumptions c33_total.

Theorem c33_tables : forall table, table_compiles table = true <-> forall e, In e table -> format_compiles (snd e) = true.
Proof. intro table. unfold table_compiles. apply forallb_forall. Qed.
Print Assumptions c33_tables.

(** Every code of the library has an entry in the default table. *)
Theorem c33_default_complete : forall c, (forall n, c <> user_code n) ->
  exists t, first_entry default_translations c (written t) /\ tidy t /\ joins_last t.
Proof.
  assert (Plain : forall t, forallb (fun x => negb (Ascii.eqb x "{" || Ascii.eqb x "}")) t = true -> plain t).
  { intros t H. rewrite forallb_forall in H. split; intro I; specialize (H _ I); discriminate. }
  assert (Simple : forall (before : translations) c m after,
    default_translations = before ++ (c, m) :: after ->
    forallb (fun e => negb (N.eqb (ecode_num (fst e)) (ecode_num c))) before = true ->
    forallb (fun x => negb (Ascii.eqb x "{" || Ascii.eqb x "}")) m = true ->
    exists t, first_entry default_translations c (written t) /\ tidy t /\ joins_last t).
  { intros before c m after E H1 H2. exists (Template m []). split; [|split].
    - exists before, c, after. unfold written. cbn [tp_text tp_holes flat_map]. rewrite app_nil_r.
      repeat split; auto. intros e He. rewrite forallb_forall in H1. specialize (H1 e He).
      intro Z. rewrite Z, N.eqb_refl in H1. discriminate.
    - split; [now apply Plain|constructor].
    - intros [|x before'] h after' Eq; discriminate. }
  pose (D := default_translations).
  assert (Split : forall i c m, nth_error D i = Some (c, m) ->
    forallb (fun e => negb (N.eqb (ecode_num (fst e)) (ecode_num c))) (firstn i D) = true ->
    forallb (fun x => negb (Ascii.eqb x "{" || Ascii.eqb x "}")) m = true ->
    exists t, first_entry default_translations c (written t) /\ tidy t /\ joins_last t).
  { intros i c m Hn H1 H2. apply (Simple (firstn i D) c m (skipn (S i) D)); auto.
    fold D. clear - Hn. revert i Hn. induction D as [|x l IH]; intros [|i] Hn; try discriminate.
    - injection Hn as ->. reflexivity.
    - cbn [firstn app skipn]. f_equal. now apply IH. }
  intros c Hu. destruct c;
    [ eapply (Split 0) | eapply (Split 1) | eapply (Split 2) | eapply (Split 3) | eapply (Split 4)
    | eapply (Split 5) | eapply (Split 6) | eapply (Split 7) | eapply (Split 8) |
    | eapply (Split 10) | eapply (Split 11) | eapply (Split 12) | eapply (Split 13) | eapply (Split 14)
    | eapply (Split 15) | exfalso; exact (Hu _ eq_refl) ];
    try (vm_compute; reflexivity).
  exists (Template (b "Unknown argument: ") [([], b ". Did you mean "); (b " ", b "?")]). split; [|split].
  - exists (firstn 9 D), unknown_argument_with_suggestion, (skipn 10 D).
    repeat split. intros e He. simpl in He. repeat (destruct He as [<-|He]; [discriminate|]). contradiction.
  - split; [now apply Plain|]. repeat constructor; intro I; simpl in I;
      repeat (destruct I as [I|I]; [discriminate|]); contradiction.
  - intros [|x [|y before]] h after E Hn; cbn [tp_holes app] in E.
    + injection E as <- <-. now exfalso.
    + injection E as _ _ <-. reflexivity.
    + injection E as _ _ E. now destruct before.
Qed.
Print Assumptions c33_default_complete.

Example c33_example :
  let user := [(failed_to_parse, b "Impossible de lire {, }"); (failed_to_parse, b "unused");
               (user_code 1005, b "Mine")] in
  let ts := [Tok PNone (b "5x")] in
  translate user default_translations failed_to_parse ts = Ok (b "Impossible de lire 5x") /\
  translate user default_translations no_arguments_passed [] = Ok (b "No arguments passed") /\
  translate user default_translations (user_code 1005) [] = Ok (b "Mine") /\
  translate user default_translations (user_code 1050) ts = Ok (b "Untranslated error code (1050): 5x") /\
  writes 1050 [1; 0; 5; 0]%N /\
  parse_call user default_translations flag_tool [] (map b ["run"; "--allx"]%string)
    = ParseError (b "Unknown argument: --allx. Did you mean --all?").
Proof.
  cbv zeta. split; [vm_compute; reflexivity|]. split; [vm_compute; reflexivity|].
  split; [vm_compute; reflexivity|]. split; [vm_compute; reflexivity|]. split.
  - split; [|reflexivity]. split; [repeat constructor|discriminate|intros d ds' [=]].
  - vm_compute. reflexivity.
Qed.

(** ** C19, as the caller sees it *)

(** For the trees and command lines in SpecSafe the caller gets a normal return, the end of the
    program (help), or a parse_exception.  Missing: as for [c19_orderly_partial]. *)
Theorem c19_message_partial : forall user fallback r mem argv,
  table_compiles user = true -> table_compiles fallback = true ->
  accepted r = true -> countless_modes r -> sane_tree r -> harmless r ->
  proper argv -> small (to_tokens argv) -> argv <> [] \/ named_top r ->
  match parse_call user fallback r mem argv with
  | Returned | ParseError _ | ProgramEnds => True
  | OtherError | Undefined | Unfinished => False
  end.
Proof.
  intros user fallback r mem argv Hu Hf H1 H2 H3 H4 H5 H6 H7.
  pose proof (c19_orderly_partial r mem argv H1 H2 H3 H4 H5 H6 H7) as O. unfold parse_call.
  destruct (o_res (root_parse_strings r mem argv)) as [x|[c ts| |]| | |]; try exact I; try contradiction.
  cbn [caller_sees_of].
  destruct (translate_total token_str user fallback c ts Hu Hf) as (msg & ->). exact I.
Qed.
Print Assumptions c19_message_partial.

(** ** C36 *)

(** Everything before the first dot is kept, with hyphens changed to underscores. *)
Theorem c36_normalised : forall head tail,
  ~ In "."%char head -> (tail = [] \/ exists t, tail = "."%char :: t) ->
  List.length (iso_locale (head ++ tail)) = List.length head /\
  forall i c, nth_error head i = Some c ->
    nth_error (iso_locale (head ++ tail)) i = Some (if Ascii.eqb c "-" then "_"%char else c).
Proof. exact iso_spec. Qed.
Print Assumptions c36_normalised.

(** No dot and no hyphen is left. *)
Theorem c36_clean : forall s, ~ In "."%char (iso_locale s) /\ ~ In "-"%char (iso_locale s).
Proof. exact iso_clean. Qed.
Print Assumptions c36_clean.

(** Normalising again changes nothing. *)
Theorem c36_stable : forall s, iso_locale (iso_locale s) = iso_locale s.
Proof. exact iso_twice. Qed.
Print Assumptions c36_stable.

Example c36_example :
  ~ In "."%char (b "uz-Latn-UZ") /\ iso_locale (b "uz-Latn-UZ" ++ b ".UTF-8") = b "uz_Latn_UZ" /\
  iso_locale (b "en-US") = b "en_US" /\ iso_locale (b "C.a.b") = b "C" /\ iso_locale [] = [].
Proof.
  split; [intro I; simpl in I; repeat (destruct I as [I|I]; [discriminate|]); contradiction|].
  repeat split.
Qed.

(** ** C37 *)

(** A supported language is used, *)
Theorem c37_supported : forall (R : Type) (factory : bytes -> R) default others request,
  In request (default :: others) ->
  select_language factory default others request = (factory request, [request]).
Proof. exact (fun R => @select_supported R). Qed.
Print Assumptions c37_supported.

(** for any other request the default; the factory is called once, for the language chosen. *)
Theorem c37_default : forall (R : Type) (factory : bytes -> R) default others request,
  ~ In request (default :: others) ->
  select_language factory default others request = (factory default, [default]).
Proof. exact (fun R => @select_default R). Qed.
Print Assumptions c37_default.

(** It compiles iff there is another language than the default, and no language twice. *)
Theorem c37_languages : forall default others,
  languages_compile default others = true <-> others <> [] /\ NoDup (default :: others).
Proof. exact languages_distinct. Qed.
Print Assumptions c37_languages.

Example c37_languages_example :
  languages_compile (b "en") [] = false /\ languages_compile (b "en") [b "fr"; b "en"] = false /\
  languages_compile (b "en") [b "fr"; b "ja"] = true.
Proof. vm_compute. repeat split. Qed.

Example c37_example :
  let langs := map b ["fr"; "ja"]%string in
  languages_compile (b "en_GB") langs = true /\ In (b "ja") (b "en_GB" :: langs) /\
  ~ In (iso_locale (b "fr-CA.UTF-8")) (b "en_GB" :: langs) /\
  select_language (fun l => l) (b "en_GB") langs (b "ja") = (b "ja", [b "ja"]) /\
  select_language (fun l => l) (b "en_GB") langs (iso_locale (b "fr.UTF-8")) = (b "fr", [b "fr"]) /\
  select_language (fun l => l) (b "en_GB") langs (iso_locale (b "fr-CA.UTF-8")) = (b "en_GB", [b "en_GB"]).
Proof.
  cbv zeta. split; [reflexivity|]. split; [now right; right; left|]. split; [|repeat split].
  intros [E|[E|[E|[]]]]; discriminate.
Qed.

(** ** C43 *)

(** What is shown for a number: its decimal numeral without the zeros that are not at the end. *)
Theorem c43_shown : forall n ds, writes n ds ->
  integral_cts (Z.of_N n) = digits_text (squeezed ds) /\
  (0 < n -> integral_cts (- Z.of_N n) = b "-" ++ digits_text (squeezed ds))%N.
Proof. exact (fun n ds H => conj (cts_squeezed n ds H) (cts_negative n ds H)). Qed.
Print Assumptions c43_shown.

(** Exactly the numbers without a zero before the last digit are shown in decimal.  Missing for the
    full statement: the other numbers, see [c43_zeros_refuted]. *)
Theorem c43_decimal_partial : forall n ds, writes n ds ->
  (integral_cts (Z.of_N n) = digits_text ds <-> ~ In 0%N (removelast ds)).
Proof. exact cts_exact. Qed.
Print Assumptions c43_decimal_partial.

(** Every number has one decimal numeral. *)
Theorem c43_numerals : forall n, exists ds, writes n ds /\ forall es, writes n es -> es = ds.
Proof.
  exact (fun n => match lexical_writes n with
                  | ex_intro _ ds (conj W _) =>
                      ex_intro _ ds (conj W (fun es We => writes_unique n es ds We W))
                  end).
Qed.
Print Assumptions c43_numerals.

(** 100 and 1000 are both shown as 10. *)
Theorem c43_zeros_refuted : exists n m ds, writes n ds /\ integral_cts (Z.of_N n) <> digits_text ds /\
  n <> m /\ integral_cts (Z.of_N n) = integral_cts (Z.of_N m).
Proof.
  exists 100%N, 1000%N, [1; 0; 0]%N. split; [|split; [|split]].
  - split; [|reflexivity]. split; [repeat constructor|discriminate|intros d ds' [=]].
  - vm_compute. discriminate.
  - discriminate.
  - vm_compute. reflexivity.
Qed.
Print Assumptions c43_zeros_refuted.

Example c43_example :
  writes 120 [1; 2; 0]%N /\ ~ In 0%N (removelast [1; 2; 0]%N) /\ integral_cts 120 = b "120" /\
  integral_cts (-42) = b "-42" /\ integral_cts 0 = b "0" /\
  integral_cts 1005 = b "15" /\ integral_cts (-100) = b "-10".
Proof.
  split; [split; [split; [repeat constructor|discriminate|intros d ds' [=]]|reflexivity]|].
  split; [simpl; intuition discriminate|]. repeat split; vm_compute; reflexivity.
Qed.

(** ** C44 *)

Theorem c44_words : forall s,
  let yes := map b ["true"; "yes"; "y"; "on"; "1"; "enable"]%string in
  let no := map b ["false"; "no"; "n"; "off"; "0"; "disable"]%string in
  (parse_bool s = Ok (VBool true) <-> In s yes) /\
  (parse_bool s = Ok (VBool false) <-> In s no) /\
  (~ In s yes -> ~ In s no -> parse_bool s = Throw (EML failed_to_parse [Tok PNone s])).
Proof. exact parse_bool_spec. Qed.
Print Assumptions c44_words.

Definition q_set := arg bool_arg 60 [PLongName (b "set")].
Example c44_example :
  let t := tool [q_set] in
  accepted t = true /\
  calls_of t [] (map b ["run"; "--set"; "off"]%string) = [(100%N, [VBool false])] /\
  calls_of t [] (map b ["run"; "--set"; "enable"]%string) = [(100%N, [VBool true])] /\
  ends_in t [] (map b ["run"; "--set"; "True"]%string) = Throw (EML failed_to_parse [Tok PNone (b "True")]).
Proof. cbv zeta. repeat split; vm_compute; reflexivity. Qed.

(** ** C53 *)

(** Flags, arguments and help: words are the long name and the description, a letter the short name;
    any other strings do not compile. *)
Theorem c53_labelled : forall ps out, convert_labelled ps = Some out <->
  exists ws ls names short, sorted_out (given_strings ps) ws ls /\ named_by PLongName ws names /\
    lettered_by ls short /\ out = names ++ short ++ given_policies ps.
Proof. exact labelled_spec. Qed.
Print Assumptions c53_labelled.

(** Positional arguments: the display name and the description, of any length. *)
Theorem c53_positional : forall ps out, convert_positional ps = Some out <->
  exists names, named_by PDisplayName (given_strings ps) names /\ out = names ++ given_policies ps.
Proof. exact (text_spec PDisplayName). Qed.
Print Assumptions c53_positional.

(** Modes: the name and the description. *)
Theorem c53_mode : forall ps out, convert_mode ps = Some out <->
  exists names, named_by PNoneName (given_strings ps) names /\ out = names ++ given_policies ps.
Proof. exact (text_spec PNoneName). Qed.
Print Assumptions c53_mode.

(** Forwarding arguments: words only. *)
Theorem c53_forwarding : forall ps out, convert_forwarding ps = Some out <->
  exists ws names, sorted_out (given_strings ps) ws [] /\ named_by PNoneName ws names /\
    out = names ++ given_policies ps.
Proof. exact forwarding_spec. Qed.
Print Assumptions c53_forwarding.

Example c53_example :
  convert_labelled [Bare (b "f"); Pol PRequired; Bare (b "force"); Bare (b "Do it")] =
    Some [PLongName (b "force"); PDescription (b "Do it"); PShortName (b "f"); PRequired] /\
  convert_labelled [Bare (b "force"); Bare (b "f"); Bare (b "x")] = None /\
  convert_positional [Bare (b "f"); Bare (b "File")] = Some [PDisplayName (b "f"); PDescription (b "File")] /\
  convert_mode [Bare (b "copy")] = Some [PNoneName (b "copy")] /\
  convert_forwarding [Bare (b "--"); Bare (b "d")] = None /\
  (exists ws ls, sorted_out [b "f"; b "force"; b "Do it"] ws ls).
Proof.
  repeat split; try (vm_compute; reflexivity).
  exists [b "force"; b "Do it"], [b "f"].
  apply so_letter; [eexists; vm_compute; reflexivity|].
  apply so_word; [do 3 eexists; vm_compute; reflexivity|].
  apply so_word; [do 3 eexists; vm_compute; reflexivity|]. constructor.
Qed.

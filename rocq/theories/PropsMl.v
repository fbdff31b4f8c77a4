(** C90: the program examples/c++20/simple_ml, in three languages. *)
From Verif Require Import Bytes Token Result CodePoint Utf8 Tree PreParse Root Build StringPolicy Message Caller MultiLang.
From Verif Require Import RunProofs TokenProofs SpecTokens SpecTake SpecMode SpecDeliver SpecRoot SpecReading SpecClaims.
From Verif Require Import Examples SpecExamples ExampleProofs ExamplesMl SpecMl MlProofs SpecUtf8 SpecMessage MessageProofs PropsText.

(** The trees and texts of all languages compile. *)
Theorem c90_compile : forall env locale,
  well_formed (fst (ml_program env locale)) /\ table_compiles (snd (ml_program env locale)) = true
  /\ languages_compile (b "en_GB") [b "fr"; b "ja"] = true.
Proof.
  intros env locale. destruct (ml_chosen env locale) as [[_ ->]|[[_ ->]|[_ [_ ->]]]]; cbn [fst snd];
    (split; [|split; vm_compute; reflexivity]).
  - exact ml_fr_well_formed.
  - exact ml_ja_well_formed.
  - exact ml_en_well_formed.
Qed.
Print Assumptions c90_compile.

(** The bare strings of a translation stand for the policies in the model. *)
Example c90_strings :
  let labelled tr := convert_labelled [Bare (tr_force tr); Bare (b "f"); Bare (tr_force_description tr)] in
  let help tr := convert_labelled [Bare (tr_help tr); Bare (b "h"); Bare (tr_help_description tr)] in
  let dst tr := convert_positional [Pol PRequired; Bare (tr_destination tr); Bare (tr_destination_description tr); Pol (PMinMaxCount 1 1)] in
  let src tr := convert_positional [Pol PRequired; Bare (tr_source tr); Bare (tr_source_description tr); Pol (PMinMaxCount 1 1)] in
  let srcs tr := convert_positional [Pol PRequired; Bare (tr_source tr); Bare (tr_sources_description tr); Pol (PMinMaxCount 1 size_max)] in
  let copy tr := convert_mode [Bare (tr_copy tr); Bare (tr_copy_description tr); Pol PRouter] in
  let move tr := convert_mode [Bare (tr_move tr); Bare (tr_move_description tr); Pol PRouter] in
  forallb (fun tr => match labelled tr, help tr, dst tr, src tr, srcs tr, copy tr, move tr with
    | Some [PLongName a1; PDescription a2; PShortName a3], Some [PLongName h1; PDescription h2; PShortName h3],
      Some [PDisplayName d1; PDescription d2; PRequired; PMinMaxCount 1 1],
      Some [PDisplayName s1; PDescription s2; PRequired; PMinMaxCount 1 1],
      Some [PDisplayName m1; PDescription m2; PRequired; PMinMaxCount 1 _],
      Some [PNoneName c1; PDescription c2; PRouter], Some [PNoneName v1; PDescription v2; PRouter] =>
        beq a1 (tr_force tr) && beq a2 (tr_force_description tr) && beq a3 (b "f")
        && beq h1 (tr_help tr) && beq h2 (tr_help_description tr) && beq h3 (b "h")
        && beq d1 (tr_destination tr) && beq d2 (tr_destination_description tr)
        && beq s1 (tr_source tr) && beq s2 (tr_source_description tr)
        && beq m1 (tr_source tr) && beq m2 (tr_sources_description tr)
        && beq c1 (tr_copy tr) && beq c2 (tr_copy_description tr)
        && beq v1 (tr_move tr) && beq v2 (tr_move_description tr)
    | _, _, _, _, _, _, _ => false
    end) [ml_en; ml_fr; ml_ja] = true.
Proof. vm_compute. reflexivity. Qed.

(** In every language a router is called exactly for the following command lines, and with these values: the words of the
    language are the only ones that count. *)
Theorem c90_calls : forall env locale copy move force words n vs,
  vocabulary (iso_locale (ml_locale_name env locale)) copy move force -> in_memory words ->
  calls_router (fst (ml_program env locale)) [] (map (Tok PNone) words) n vs <->
  In n (n_children (fst (ml_program env locale))) /\
  ((exists rest fl dst srcs, words = copy :: rest /\ srcs <> []
     /\ files_of force true 0 (map (Tok PNone) rest) fl (dst :: srcs)
     /\ none_name n = Some copy /\ vs = [VBool fl; VStr dst; VList (map VStr srcs)])
  \/ (exists rest fl dst src, words = move :: rest
     /\ files_of force false 0 (map (Tok PNone) rest) fl [dst; src]
     /\ none_name n = Some move /\ vs = [VBool fl; VStr dst; VStr src])).
Proof. exact ml_program_calls. Qed.
Print Assumptions c90_calls.

(** File names that do not begin with a hyphen, with the flag of the language in front. *)
Theorem c90_names : forall env locale copy move force dst src srcs,
  vocabulary (iso_locale (ml_locale_name env locale)) copy move force ->
  starts_with (b "-") dst = false -> starts_with (b "-") src = false ->
  (in_memory (copy :: (b "--" ++ force) :: dst :: src :: srcs) ->
    exists n, none_name n = Some copy
      /\ calls_router (fst (ml_program env locale)) [] (map (Tok PNone) (copy :: (b "--" ++ force) :: dst :: src :: srcs)) n
           [VBool true; VStr dst; VList (map VStr (src :: srcs))])
  /\ (in_memory (move :: (b "--" ++ force) :: dst :: [src]) ->
    exists n, none_name n = Some move
      /\ calls_router (fst (ml_program env locale)) [] (map (Tok PNone) (move :: (b "--" ++ force) :: dst :: [src])) n
           [VBool true; VStr dst; VStr src]).
Proof.
  intros env locale copy move force dst src srcs V Hd Hs.
  assert (Modes : (exists n, In n (n_children (fst (ml_program env locale))) /\ none_name n = Some copy)
    /\ exists n, In n (n_children (fst (ml_program env locale))) /\ none_name n = Some move).
  { destruct (ml_chosen env locale) as [[E ->]|[[E ->]|[E [E' ->]]]]; cbn [fst]; rewrite ?E in V;
      inversion V as [Z|Z|Z Z']; try discriminate Z; try contradiction; subst; (split; eexists;
        [split; [right; left; reflexivity|reflexivity]|split; [right; right; left; reflexivity|reflexivity]]). }
  destruct Modes as [(nc & Ic & Nc) (nm & Im & Nm)]. split; intros Hm.
  - exists nc. split; [exact Nc|]. apply (proj2 (c90_calls env locale copy move force _ nc _ V Hm)). split; [exact Ic|].
    left. exists ((b "--" ++ force) :: dst :: src :: srcs), true, dst, (src :: srcs).
    split; [reflexivity|]. split; [discriminate|]. split; [|split; [exact Nc|reflexivity]].
    apply (files_force _ _ 0 _ []); [left; split; reflexivity|].
    apply (files_one _ _ 0 (Tok PNone dst)); [apply word_ordinary; exact Hd|discriminate|].
    replace (src :: srcs) with (map t_name (map (Tok PNone) (src :: srcs))) by (rewrite map_map; apply map_id).
    apply (files_rest _ _ (Tok PNone src)); [apply word_ordinary; exact Hs|reflexivity].
  - exists nm. split; [exact Nm|]. apply (proj2 (c90_calls env locale copy move force _ nm _ V Hm)). split; [exact Im|].
    right. exists ((b "--" ++ force) :: dst :: [src]), true, dst, src.
    split; [reflexivity|]. split; [|split; [exact Nm|reflexivity]].
    apply (files_force _ _ 0 _ []); [left; split; reflexivity|].
    apply (files_one _ _ 0 (Tok PNone dst)); [apply word_ordinary; exact Hd|discriminate|].
    apply (files_one _ _ 1 (Tok PNone src)); [apply word_ordinary; exact Hs|discriminate|apply files_end].
Qed.
Print Assumptions c90_names.

(** In French and Japanese every error of the library has a text of the program's own, which is none of the English ones. *)
Theorem c90_messages : forall env locale c ts, (forall n, c <> user_code n) ->
  iso_locale (ml_locale_name env locale) = b "fr" \/ iso_locale (ml_locale_name env locale) = b "ja" ->
  exists t, first_entry (snd (ml_program env locale)) c (written t)
    /\ translate (snd (ml_program env locale)) default_translations c ts = Ok (message t ts)
    /\ forall e, In e default_translations -> snd e <> written t.
Proof.
  assert (Plain : forall t, forallb (fun x => negb (Ascii.eqb x "{" || Ascii.eqb x "}")) t = true -> SpecMessage.plain t).
  { intros t H. rewrite forallb_forall in H. split; intro I; specialize (H _ I); discriminate. }
  assert (Other : forall m, forallb (fun e => negb (beq (snd e) m)) default_translations = true ->
    forall e, In e default_translations -> snd e <> m).
  { intros m H e He E. rewrite forallb_forall in H. specialize (H e He). rewrite (proj2 (beq_eq _ _) E) in H. discriminate H. }
  assert (Split : forall (D : translations) i c t ts, nth_error D i = Some (c, written t) ->
    forallb (fun e => negb (N.eqb (ecode_num (fst e)) (ecode_num c))) (firstn i D) = true ->
    SpecMessage.tidy t -> joins_last t ->
    forallb (fun e => negb (beq (snd e) (written t))) default_translations = true ->
    exists t, first_entry D c (written t) /\ translate D default_translations c ts = Ok (message t ts)
      /\ forall e, In e default_translations -> snd e <> written t).
  { intros D i c t ts Hn H1 H2 H3 H4. exists t.
    assert (F : first_entry D c (written t)).
    { exists (firstn i D), c, (skipn (S i) D). split; [|split; [reflexivity|]].
      - clear - Hn. revert i Hn. induction D as [|x l IH]; intros [|i] Hn; try discriminate.
        + injection Hn as ->. reflexivity.
        + cbn [firstn app skipn]. f_equal. now apply IH.
      - intros e He Z. rewrite forallb_forall in H1. specialize (H1 e He). rewrite Z, N.eqb_refl in H1. discriminate. }
    split; [exact F|]. split; [exact (c33_user D default_translations c ts t F H2 H3)|exact (Other _ H4)]. }
  assert (Text : forall (D : translations) i c m ts, nth_error D i = Some (c, m) ->
    forallb (fun e => negb (N.eqb (ecode_num (fst e)) (ecode_num c))) (firstn i D) = true ->
    forallb (fun x => negb (Ascii.eqb x "{" || Ascii.eqb x "}")) m = true ->
    forallb (fun e => negb (beq (snd e) m)) default_translations = true ->
    exists t, first_entry D c (written t) /\ translate D default_translations c ts = Ok (message t ts)
      /\ forall e, In e default_translations -> snd e <> written t).
  { intros D i c m ts Hn H1 H2 H3.
    assert (W : written (Template m []) = m) by (unfold written; cbn [tp_text tp_holes flat_map]; apply app_nil_r).
    apply (Split D i c (Template m []) ts); rewrite ?W; auto.
    - split; [now apply Plain|constructor].
    - intros [|x before'] h after' Eq; discriminate. }
  assert (Two : forall x y z, joins_last (Template x [([], y); (b " ", z)])).
  { intros x y z [|x1 [|x2 before]] h after E Hn; cbn [tp_holes app] in E.
    + injection E as <- <-. now exfalso.
    + injection E as _ _ <-. reflexivity.
    + injection E as _ _ E. now destruct before. }
  assert (Clean : forall x y z, forallb (fun x => negb (Ascii.eqb x "{" || Ascii.eqb x "}")) (x ++ y ++ z) = true ->
    SpecMessage.tidy (Template x [([], y); (b " ", z)])).
  { intros x y z H. rewrite !forallb_app in H. apply andb_prop in H as [Hx H]. apply andb_prop in H as [Hy Hz].
    split; [now apply Plain|]. repeat (apply Forall_cons || apply Forall_nil); split; apply Plain; auto. }
  intros env locale c ts Hu L.
  destruct (ml_chosen env locale) as [[_ ->]|[[_ ->]|[E [E' _]]]]; cbn [snd]; [| |destruct L; contradiction]; destruct c;
    [ eapply (Text _ 0) | eapply (Text _ 1) | eapply (Text _ 2) | eapply (Text _ 3) | eapply (Text _ 4)
    | eapply (Text _ 5) | eapply (Text _ 6) | eapply (Text _ 7) | eapply (Text _ 8) |
    | eapply (Text _ 10) | eapply (Text _ 11) | eapply (Text _ 12) | eapply (Text _ 13) | eapply (Text _ 14)
    | eapply (Text _ 15) | exfalso; exact (Hu _ eq_refl)
    | eapply (Text _ 0) | eapply (Text _ 1) | eapply (Text _ 2) | eapply (Text _ 3) | eapply (Text _ 4)
    | eapply (Text _ 5) | eapply (Text _ 6) | eapply (Text _ 7) | eapply (Text _ 8) |
    | eapply (Text _ 10) | eapply (Text _ 11) | eapply (Text _ 12) | eapply (Text _ 13) | eapply (Text _ 14)
    | eapply (Text _ 15) | exfalso; exact (Hu _ eq_refl) ];
    try (vm_compute; reflexivity).
  - apply (Split _ 9%nat _ (Template (b "Argument inconnu : ") [([], b ". Vouliez-vous dire "); (b " ", b "?")]));
      [vm_compute; reflexivity|vm_compute; reflexivity|apply Clean; vm_compute; reflexivity|apply Two|vm_compute; reflexivity].
  - apply (Split _ 9%nat _ (Template (b "不明な引数 ") [([], b "。 "); (b " ", b " という意味でしたか？")]));
      [vm_compute; reflexivity|vm_compute; reflexivity|apply Clean; vm_compute; reflexivity|apply Two|vm_compute; reflexivity].
Qed.
Print Assumptions c90_messages.

(** In French only the French words select a mode, and the English flag is taken as the name of a file.  The name of a
    system's locale that has a country in it selects English. *)
(** If the variable AR_LOCALE_OVERRIDE is set then the system's locale does not matter, not even if the variable is not a
    language of the program; if it is not set then the locale counts as the variable would. *)
Theorem c90_override : forall e locale locale' argv,
  ml_main (Some e) locale argv = ml_main (Some e) locale' argv /\ ml_main None locale argv = ml_main (Some locale) locale' argv.
Proof. intros. split; reflexivity. Qed.
Print Assumptions c90_override.

Example c90_example :
  vocabulary (iso_locale (ml_locale_name None (b "fr.UTF-8"))) (b "copier") (b "déplacer") (b "forcer")
  /\ in_memory [b "copier"; b "--forcer"; b "dst"; b "src"]
  /\ files_of (b "forcer") true 0 (map (Tok PNone) [b "--forcer"; b "dst"; b "src"]) true [b "dst"; b "src"]
  /\ ml_main None (b "fr.UTF-8") [b "copier"; b "--forcer"; b "dst"; b "src"] = Returned
  /\ ml_main (Some (b "fr")) (b "ja") [b "copier"; b "--force"; b "dst"] = Returned
  /\ ml_main (Some (b "fr")) [] [b "copier"; b "dst"] = ParseError (b "Argument requis manquant: SRC")
  /\ ml_main (Some (b "fr")) [] [b "copy"; b "dst"; b "src"]
     = ParseError (b "Argument inconnu : copy. Vouliez-vous dire copier?")
  /\ ml_main (Some (b "ja")) [] [b "移動"; b "dst"; b "src"] = Returned
  /\ ml_main None (b "fr_FR.UTF-8") [b "copier"; b "dst"; b "src"]
     = ParseError (b "Unknown argument: copier. Did you mean copy?").
Proof.
  split; [exact (in_french _ eq_refl)|]. split; [vm_compute; discriminate|].
  split.
  { apply (files_force _ _ 0 _ []); [left; split; reflexivity|]. cbn [map app].
    apply (files_one _ _ 0 (Tok PNone (b "dst"))); [apply word_ordinary; reflexivity|discriminate|].
    apply (files_rest _ _ (Tok PNone (b "src"))); [apply word_ordinary; reflexivity|reflexivity]. }
  vm_compute. repeat split.
Qed.

(** The message shown in the guide for an unknown flag is not the one of the program. *)
Theorem c90_readme_refuted : exists argv,
  ml_main (Some (b "ja")) [] argv <> ParseError (b "不明な引数: -🐱") /\ argv = [b "-🐱"]
  /\ ml_main (Some (b "ja")) [] argv = ParseError (b "不明な引数 -🐱。 -h という意味でしたか？").
Proof.
  exists [b "-🐱"].
  assert (E : ml_main (Some (b "ja")) [] [b "-🐱"] = ParseError (b "不明な引数 -🐱。 -h という意味でしたか？")) by (vm_compute; reflexivity).
  split; [|split; [reflexivity|exact E]]. rewrite E. discriminate.
Qed.
Print Assumptions c90_readme_refuted.

(** C78: the translation generator. *)
From Verif Require Import Bytes TransGen SpecTransGen TransProofs.

(** The headers that the repository's own test expects (test/translation_generator_test.cpp) for the
    repository's own files (examples/resources/simple_ml_gen). *)
Definition en_file : bytes := b "# Copyright (C) 2023 by Camden Mannett.
# Distributed under the Boost Software License, Version 1.0.
# (See accompanying file LICENSE or copy at https://www.boost.org/LICENSE_1_0.txt)

force = ""force""
force_description = ""Force overwrite existing files""
destination = ""DST""
destination_description = ""Destination directory""
help = ""help""
help_description = ""Display this help and exit""
program_intro = ""A simple file copier and mover.""
program_addendum = ""An example program for arg_router.""
copy = ""copy""
copy_description = ""Copy source files to destination""
source = ""SRC""
sources_description = ""Source file paths""
move = ""move""
move_description = ""Move source file to destination""
source_description = ""Source file path""
".
Definition en_header : bytes := b "// Generated by CMake, do not modify manually
namespace arg_router::multi_lang
{
#ifdef AR_ENABLE_CPP20_STRINGS
template <>
class translation<str<""en_GB"">>
{
public:
    using force = str<""force"">;
    using force_description = str<""Force overwrite existing files"">;
    using destination = str<""DST"">;
    using destination_description = str<""Destination directory"">;
    using help = str<""help"">;
    using help_description = str<""Display this help and exit"">;
    using program_intro = str<""A simple file copier and mover."">;
    using program_addendum = str<""An example program for arg_router."">;
    using copy = str<""copy"">;
    using copy_description = str<""Copy source files to destination"">;
    using source = str<""SRC"">;
    using sources_description = str<""Source file paths"">;
    using move = str<""move"">;
    using move_description = str<""Move source file to destination"">;
    using source_description = str<""Source file path"">;
};
#else
template <>
class translation<S_(""en_GB"")>
{
public:
    using force = S_(""force"");
    using force_description = S_(""Force overwrite existing files"");
    using destination = S_(""DST"");
    using destination_description = S_(""Destination directory"");
    using help = S_(""help"");
    using help_description = S_(""Display this help and exit"");
    using program_intro = S_(""A simple file copier and mover."");
    using program_addendum = S_(""An example program for arg_router."");
    using copy = S_(""copy"");
    using copy_description = S_(""Copy source files to destination"");
    using source = S_(""SRC"");
    using sources_description = S_(""Source file paths"");
    using move = S_(""move"");
    using move_description = S_(""Move source file to destination"");
    using source_description = S_(""Source file path"");
};
#endif
}  // namespace arg_router::multi_lang
".
Definition ja_file : bytes := b "# Copyright (C) 2023 by Camden Mannett.
# Distributed under the Boost Software License, Version 1.0.
# (See accompanying file LICENSE or copy at https://www.boost.org/LICENSE_1_0.txt)

force = ""強制""
force_description = ""既存のファイルを強制的に上書きする""
destination = ""先""
destination_description = ""宛先ディレクトリ""
help = ""ヘルプ""
help_description = ""このヘルプを表示して終了""
program_intro = ""ファイルをコピーおよび移動するためのシンプルなプログラム。""
program_addendum = ""「arg_router」のサンプルプログラム。""
copy = ""コピー""
copy_description = ""ソース ファイルを宛先にコピーする""
source = ""出典""
sources_description = ""ソース ファイルのパス""
move = ""移動""
move_description = ""ソース ファイルを宛先に移動する""
source_description = ""ソース ファイル パス""

[error_code]
unknown_argument = ""不明な引数""
unhandled_arguments = ""未処理の引数""
argument_has_already_been_set = ""引数はすでに設定されています""
failed_to_parse = ""解析に失敗しました""
no_arguments_passed = ""引数が渡されませんでした""
minimum_value_not_reached = ""最小値に達していません""
maximum_value_exceeded = ""最大値を超えました""
minimum_count_not_reached = ""最小数に達していません""
maximum_count_exceeded = ""最大数を超えました""
unknown_argument_with_suggestion = ""不明な引数 {}。 { } という意味でしたか？""
mode_requires_arguments = ""モードには引数が必要です""
missing_required_argument = ""必要な引数がありません""
too_few_values_for_alias = ""エイリアス値が少なすぎる""
dependent_argument_missing = ""従属引数がありません (コマンドラインで必要なトークンの前に置く必要があります)""
one_of_selected_type_mismatch = ""一度に許可される「One Of」引数は1つだけです""
missing_value_separator = ""値の区切り文字が必要です""
".
Definition ja_header : bytes := b "// Generated by CMake, do not modify manually
namespace arg_router::multi_lang
{
#ifdef AR_ENABLE_CPP20_STRINGS
template <>
class translation<str<""ja"">>
{
public:
    using force = str<""強制"">;
    using force_description = str<""既存のファイルを強制的に上書きする"">;
    using destination = str<""先"">;
    using destination_description = str<""宛先ディレクトリ"">;
    using help = str<""ヘルプ"">;
    using help_description = str<""このヘルプを表示して終了"">;
    using program_intro = str<""ファイルをコピーおよび移動するためのシンプルなプログラム。"">;
    using program_addendum = str<""「arg_router」のサンプルプログラム。"">;
    using copy = str<""コピー"">;
    using copy_description = str<""ソース ファイルを宛先にコピーする"">;
    using source = str<""出典"">;
    using sources_description = str<""ソース ファイルのパス"">;
    using move = str<""移動"">;
    using move_description = str<""ソース ファイルを宛先に移動する"">;
    using source_description = str<""ソース ファイル パス"">;

    using error_code_translations = std::tuple<
        std::pair<traits::integral_constant<error_code::unknown_argument>, str<""不明な引数"">>,
        std::pair<traits::integral_constant<error_code::unhandled_arguments>, str<""未処理の引数"">>,
        std::pair<traits::integral_constant<error_code::argument_has_already_been_set>, str<""引数はすでに設定されています"">>,
        std::pair<traits::integral_constant<error_code::failed_to_parse>, str<""解析に失敗しました"">>,
        std::pair<traits::integral_constant<error_code::no_arguments_passed>, str<""引数が渡されませんでした"">>,
        std::pair<traits::integral_constant<error_code::minimum_value_not_reached>, str<""最小値に達していません"">>,
        std::pair<traits::integral_constant<error_code::maximum_value_exceeded>, str<""最大値を超えました"">>,
        std::pair<traits::integral_constant<error_code::minimum_count_not_reached>, str<""最小数に達していません"">>,
        std::pair<traits::integral_constant<error_code::maximum_count_exceeded>, str<""最大数を超えました"">>,
        std::pair<traits::integral_constant<error_code::unknown_argument_with_suggestion>, str<""不明な引数 {}。 { } という意味でしたか？"">>,
        std::pair<traits::integral_constant<error_code::mode_requires_arguments>, str<""モードには引数が必要です"">>,
        std::pair<traits::integral_constant<error_code::missing_required_argument>, str<""必要な引数がありません"">>,
        std::pair<traits::integral_constant<error_code::too_few_values_for_alias>, str<""エイリアス値が少なすぎる"">>,
        std::pair<traits::integral_constant<error_code::dependent_argument_missing>, str<""従属引数がありません (コマンドラインで必要なトークンの前に置く必要があります)"">>,
        std::pair<traits::integral_constant<error_code::one_of_selected_type_mismatch>, str<""一度に許可される「One Of」引数は1つだけです"">>,
        std::pair<traits::integral_constant<error_code::missing_value_separator>, str<""値の区切り文字が必要です"">>
    >;
};
#else
template <>
class translation<S_(""ja"")>
{
public:
    using force = S_(""強制"");
    using force_description = S_(""既存のファイルを強制的に上書きする"");
    using destination = S_(""先"");
    using destination_description = S_(""宛先ディレクトリ"");
    using help = S_(""ヘルプ"");
    using help_description = S_(""このヘルプを表示して終了"");
    using program_intro = S_(""ファイルをコピーおよび移動するためのシンプルなプログラム。"");
    using program_addendum = S_(""「arg_router」のサンプルプログラム。"");
    using copy = S_(""コピー"");
    using copy_description = S_(""ソース ファイルを宛先にコピーする"");
    using source = S_(""出典"");
    using sources_description = S_(""ソース ファイルのパス"");
    using move = S_(""移動"");
    using move_description = S_(""ソース ファイルを宛先に移動する"");
    using source_description = S_(""ソース ファイル パス"");

    using error_code_translations = std::tuple<
        std::pair<traits::integral_constant<error_code::unknown_argument>, S_(""不明な引数"")>,
        std::pair<traits::integral_constant<error_code::unhandled_arguments>, S_(""未処理の引数"")>,
        std::pair<traits::integral_constant<error_code::argument_has_already_been_set>, S_(""引数はすでに設定されています"")>,
        std::pair<traits::integral_constant<error_code::failed_to_parse>, S_(""解析に失敗しました"")>,
        std::pair<traits::integral_constant<error_code::no_arguments_passed>, S_(""引数が渡されませんでした"")>,
        std::pair<traits::integral_constant<error_code::minimum_value_not_reached>, S_(""最小値に達していません"")>,
        std::pair<traits::integral_constant<error_code::maximum_value_exceeded>, S_(""最大値を超えました"")>,
        std::pair<traits::integral_constant<error_code::minimum_count_not_reached>, S_(""最小数に達していません"")>,
        std::pair<traits::integral_constant<error_code::maximum_count_exceeded>, S_(""最大数を超えました"")>,
        std::pair<traits::integral_constant<error_code::unknown_argument_with_suggestion>, S_(""不明な引数 {}。 { } という意味でしたか？"")>,
        std::pair<traits::integral_constant<error_code::mode_requires_arguments>, S_(""モードには引数が必要です"")>,
        std::pair<traits::integral_constant<error_code::missing_required_argument>, S_(""必要な引数がありません"")>,
        std::pair<traits::integral_constant<error_code::too_few_values_for_alias>, S_(""エイリアス値が少なすぎる"")>,
        std::pair<traits::integral_constant<error_code::dependent_argument_missing>, S_(""従属引数がありません (コマンドラインで必要なトークンの前に置く必要があります)"")>,
        std::pair<traits::integral_constant<error_code::one_of_selected_type_mismatch>, S_(""一度に許可される「One Of」引数は1つだけです"")>,
        std::pair<traits::integral_constant<error_code::missing_value_separator>, S_(""値の区切り文字が必要です"")>
    >;
};
#endif
}  // namespace arg_router::multi_lang
".
Example repository_translations :
  generate (b "en_GB") en_file = Some en_header /\ generate (b "ja") ja_file = Some ja_header.
Proof. vm_compute. split; reflexivity. Qed.

(** ** C78 *)

(** For every language and file: if the lines of the file say [d], the header says [d], in both kinds
    of compile-time strings.  Missing: files that end in a comment or a blank line after a table of error
    codes, that have a line with unmatched brackets or with a backslash at its end, see below; the last line
    may have those. *)
Theorem c78_header_partial : forall language ls d text,
  says ls d -> stored ls text -> ls <> [] -> ls <> [[]] -> Forall listable (removelast ls) ->
  (d_errors d <> None -> forall ls' l, ls = ls' ++ [l] -> ~ silent l) ->
  generate language text = Some (header language d).
Proof. exact generate_eq. Qed.
Print Assumptions c78_header_partial.

(** The header tells everything: no two languages or documents have the same. *)
Theorem c78_lossless : forall language language' d d',
  ~ In new_line language -> ~ In new_line language' -> writable d -> writable d' ->
  header language d = header language' d' -> language = language' /\ d = d'.
Proof. exact header_inj. Qed.
Print Assumptions c78_lossless.

(** A line that is neither blank, nor a comment, nor an entry, nor the start of the error codes: no
    header is made, and the old one, if there is one, stays as it is. *)
Theorem c78_malformed : forall dir fs path ls l text,
  fs path = Some text -> stored ls text -> Forall listable (removelast ls) -> In l ls ->
  ~ silent l -> l <> b "[error_code]" -> (forall x y, l <> x ++ b " = " ++ y) ->
  run_script dir fs [path] = (fs, [], false).
Proof. exact script_malformed. Qed.
Print Assumptions c78_malformed.

(** A run for any number of languages: afterwards there is the header of each file, every other file is
    as it was, and the headers that were up to date already are not written again. *)
Theorem c78_script_partial : forall dir jobs fs,
  Forall (fun j => named_after (j_language j) (j_path j)
                   /\ exists text, fs (j_path j) = Some text /\ translates text (j_document j)) jobs ->
  NoDup (map j_language jobs) ->
  (forall j j', In j jobs -> In j' jobs -> j_path j <> header_path dir (j_language j')) ->
  exists fs' written, run_script dir fs (map j_path jobs) = (fs', written, true)
    /\ (forall j, In j jobs -> fs' (header_path dir (j_language j)) = Some (header (j_language j) (j_document j)))
    /\ (forall p, (forall j, In j jobs -> p <> header_path dir (j_language j)) -> fs' p = fs p)
    /\ (forall p, In p written <-> exists j, In j jobs /\ p = header_path dir (j_language j)
                                            /\ fs p <> Some (header (j_language j) (j_document j))).
Proof. exact script_eq. Qed.
Print Assumptions c78_script_partial.

(** A small file, with an escaped quote, a semicolon, brackets and a separator in its texts. *)
Definition small_lines : list bytes :=
  [b "# A comment; with [brackets]"; []; b "help = ""aide"""; b "intro = ""a = b; [c] \""d\"""""; b "# more";
   b "[error_code]"; b "# the codes"; b "unknown_argument = ""inconnu"""; []; b "failed_to_parse = ""non"""].
Definition small_document : document :=
  Doc [(b "help", b """aide"""); (b "intro", b """a = b; [c] \""d\""""")]
      (Some [(b "unknown_argument", b """inconnu"""); (b "failed_to_parse", b """non""")]).
Definition small_file : bytes := lines_text small_lines.

Definition identifier_b (k : bytes) : bool :=
  negb (beq k []) &&
  forallb (fun c => let n := N_of_ascii c in
                    (N.leb 48 n && N.leb n 57) || (N.leb 65 n && N.leb n 90) || N.eqb n 95 || (N.leb 97 n && N.leb n 122)) k.
Lemma identifier_spec k : identifier_b k = true -> identifier k.
Proof.
  unfold identifier_b. intros H. apply andb_true_iff in H as [H1 H2]. split.
  - intros ->. discriminate H1.
  - apply Forall_forall. intros c Hc. rewrite forallb_forall in H2. specialize (H2 c Hc). cbv zeta in H2.
    rewrite !orb_true_iff, !andb_true_iff, !N.leb_le, N.eqb_eq in H2. unfold in_identifier. cbv zeta. tauto.
Qed.
Lemma listable_spec l :
  Nat.eqb (count_occ ascii_dec l "["%char) (count_occ ascii_dec l "]"%char) && negb (beq (firstn 1 (rev l)) (b "\")) = true -> listable l.
Proof.
  intros H. apply andb_true_iff in H as [H1 H2]. split; [now apply Nat.eqb_eq|]. intros l' ->.
  rewrite rev_app_distr in H2. discriminate H2.
Qed.
Lemma stored_lines ls : forallb (fun l => negb (mem_byte new_line l) && negb (mem_byte carriage_return l)) ls = true -> stored ls (lines_text ls).
Proof.
  induction ls as [|l ls IH]; intros H; [constructor|]. cbn [forallb] in H. apply andb_true_iff in H as [H1 H2].
  apply andb_true_iff in H1 as [H0 H1]. rewrite lines_text_cons, <- app_assoc. apply stored_line; [|now left|now apply IH].
  split; intros Hi; apply mem_byte_in in Hi; [rewrite Hi in H0|rewrite Hi in H1]; discriminate.
Qed.
Ltac entries_tac :=
  repeat match goal with
  | |- entries [] _ => constructor
  | |- entries ([] :: _) _ => apply entries_silent; [constructor|]
  | |- entries ((b "#") :: _) _ => apply entries_silent; [constructor|]
  | |- entries _ ((?k, ?v) :: _) => apply (entries_cons k v); [apply identifier_spec; reflexivity|]
  end.

Lemma small_says : says small_lines small_document.
Proof.
  change small_lines with (firstn 5 small_lines ++ b "[error_code]" :: skipn 6 small_lines). apply says_errors; cbn [firstn skipn small_lines].
  - apply entries_silent; [constructor|]. apply entries_silent; [constructor|]. entries_tac. apply entries_silent; [constructor|]. constructor.
  - apply entries_silent; [constructor|]. entries_tac.
Qed.
Lemma small_translates : translates small_file small_document.
Proof.
  exists small_lines. split; [exact small_says|]. split; [apply stored_lines; reflexivity|]. split; [discriminate|]. split; [discriminate|]. split.
  - repeat (constructor; [apply listable_spec; reflexivity|]). constructor.
  - intros _ ls' l E. apply (f_equal (@rev bytes)) in E. rewrite rev_app_distr in E. cbn [rev app small_lines] in E.
    injection E as <- _. intros H. inversion H.
Qed.

Example c78_example :
  let fs := write (fun _ => None) (b "po/fr.toml") small_file in
  translates small_file small_document /\ named_after (b "fr") (b "po/fr.toml") /\ writable small_document /\
  fst (fst (run_script (b "out") fs [b "po/fr.toml"])) (b "out/fr.hpp") = Some (header (b "fr") small_document) /\
  generate (b "fr") (b "oops") = None.
Proof.
  split; [exact small_translates|]. split.
  { exists (b "po"), (b "toml"). split; [right; reflexivity|].
    split; [|split]; cbn; intros H; repeat (destruct H as [H|H]; [discriminate H|]); exact H. }
  split.
  { repeat (constructor; [split; [apply identifier_spec; reflexivity|apply single_iff; reflexivity]|]). constructor. }
  split; vm_compute; reflexivity.
Qed.

(** Comments are documented to be ignored, but after the table of error codes they leave a comma behind the
    last code; that header does not compile. *)
Theorem c78_comment_refuted : exists ls d text,
  says ls d /\ stored ls text /\ Forall listable ls /\ generate (b "fr") text <> Some (header (b "fr") d) /\
  exists x y, generate (b "fr") text = Some (x ++ b "str<""inconnu"">>," ++ [new_line] ++ b "    >;" ++ y).
Proof.
  set (ls := [b "[error_code]"; b "unknown_argument = ""inconnu"""; b "# the end"]).
  exists ls, (Doc [] (Some [(b "unknown_argument", b """inconnu""")])), (lines_text ls).
  split; [|split; [apply stored_lines; reflexivity|split; [repeat (constructor; [apply listable_spec; reflexivity|]); constructor|split]]].
  - apply (says_errors [] [] [b "unknown_argument = ""inconnu"""; b "# the end"]); [constructor|].
    entries_tac. apply entries_silent; [constructor|]. constructor.
  - vm_compute. discriminate.
  - match goal with |- exists x y, ?g = _ => let v := eval vm_compute in g in match v with Some ?t =>
      let n := eval vm_compute in (match find_string (b "str<""inconnu"">>,") t with Some n => n | None => 0 end) in
      exists (firstn n t), (skipn (n + 23) t) end end.
    vm_compute. reflexivity.
Qed.
Print Assumptions c78_comment_refuted.

(** An opening bracket without a closing one, or a backslash at the end of a comment: the entries on the
    lines behind it are lost, and nothing is reported. *)
Theorem c78_bracket_refuted : exists ls d text h,
  says ls d /\ stored ls text /\ In (b "help", b """aide""") (d_texts d) /\
  generate (b "fr") text = Some h /\ h = header (b "fr") (Doc [] None) /\ h <> header (b "fr") d.
Proof.
  set (ls := [b "# see [1"; b "help = ""aide"""; b "intro = ""x"""]).
  exists ls, (Doc [(b "help", b """aide"""); (b "intro", b """x""")] None), (lines_text ls).
  eexists. split; [apply says_texts; apply entries_silent; [constructor|]; entries_tac|].
  split; [apply stored_lines; reflexivity|]. split; [now left|]. split; [vm_compute; reflexivity|].
  split; vm_compute; [reflexivity|discriminate].
Qed.
Print Assumptions c78_bracket_refuted.

Theorem c78_backslash_refuted : exists ls d text h,
  says ls d /\ stored ls text /\ In (b "help", b """aide""") (d_texts d) /\
  generate (b "fr") text = Some h /\ h = header (b "fr") (Doc [(b "intro", b """x""")] None) /\ h <> header (b "fr") d.
Proof.
  set (ls := [b "# from C:\"; b "help = ""aide"""; b "intro = ""x"""]).
  exists ls, (Doc [(b "help", b """aide"""); (b "intro", b """x""")] None), (lines_text ls).
  eexists. split; [apply says_texts; apply entries_silent; [constructor|]; entries_tac|].
  split; [apply stored_lines; reflexivity|]. split; [now left|]. split; [vm_compute; reflexivity|].
  split; vm_compute; [reflexivity|discriminate].
Qed.
Print Assumptions c78_backslash_refuted.

(** Model of examples/c++20/simple_ml: the program [simple] in three languages.  examples/c++20/simple_ml_gen is the same
    program; its translations are generated from TOML files (see [TransGen.v]). *)
From Verif Require Import Bytes Token Result CodePoint Utf8 Tree PreParse Parse Build Message Caller MultiLang Examples.

(** simple_ml/main.cpp:25-39: the texts of a [translation]. *)
Record translation := Translation {
  tr_force : bytes; tr_force_description : bytes; tr_destination : bytes; tr_destination_description : bytes;
  tr_help : bytes; tr_help_description : bytes; tr_program_intro : bytes; tr_program_addendum : bytes;
  tr_copy : bytes; tr_copy_description : bytes; tr_source : bytes; tr_sources_description : bytes;
  tr_move : bytes; tr_move_description : bytes; tr_source_description : bytes
}.

(** simple_ml/main.cpp:21-40 *)
Definition ml_en : translation := Translation
  (b "force") (b "Force overwrite existing files") (b "DST") (b "Destination directory")
  (b "help") (b "Display this help and exit") (b "A simple file copier and mover.") (b "An example program for arg_router.")
  (b "copy") (b "Copy source files to destination") (b "SRC") (b "Source file paths")
  (b "move") (b "Move source file to destination") (b "Source file path").
(** simple_ml/main.cpp:42-60 *)
Definition ml_fr : translation := Translation
  (b "forcer") (b "Forcer l'écrasement des fichiers existants") (b "DST") (b "Répertoire de destination")
  (b "aider") (b "Afficher cette aide et quitter") (b "Un simple copieur et déménageur de fichiers.")
  (b "Un exemple de programme pour arg_router.")
  (b "copier") (b "Copier les fichiers source vers la destination") (b "SRC") (b "Chemins des fichiers sources")
  (b "déplacer") (b "Déplacer le fichier source vers la destination") (b "Chemin du fichier source").
(** simple_ml/main.cpp:62-95 *)
Definition ml_fr_errors : translations :=
  [ (unknown_argument, b "Argument inconnu");
    (unhandled_arguments, b "Arguments non gérés");
    (argument_has_already_been_set, b "L'argument a déjà été défini");
    (failed_to_parse, b "L'analyse a échoué");
    (no_arguments_passed, b "Aucun argument passé");
    (minimum_value_not_reached, b "Valeur minimale non atteinte");
    (maximum_value_exceeded, b "Valeur maximale dépassée");
    (minimum_count_not_reached, b "Nombre minimum non atteint");
    (maximum_count_exceeded, b "Nombre maximal dépassé");
    (unknown_argument_with_suggestion, b "Argument inconnu : {}. Vouliez-vous dire { }?");
    (mode_requires_arguments, b "Le mode nécessite des arguments");
    (missing_required_argument, b "Argument requis manquant");
    (too_few_values_for_alias, b "Trop peu de valeurs pour l'alias");
    (dependent_argument_missing, b "Argument dépendant manquant (doit être avant le jeton requis sur la ligne de commande)");
    (one_of_selected_type_mismatch, b "Un seul argument d'un ""One Of"" peut être utilisé à la fois");
    (missing_value_separator, b "Attendu un séparateur de valeur") ].
(** simple_ml/main.cpp:98-116 *)
Definition ml_ja : translation := Translation
  (b "強制") (b "既存のファイルを強制的に上書きする") (b "先") (b "宛先ディレクトリ")
  (b "ヘルプ") (b "このヘルプを表示して終了") (b "ファイルをコピーおよび移動するためのシンプルなプログラム。")
  (b "「arg_router」のサンプルプログラム。")
  (b "コピー") (b "ソース ファイルを宛先にコピーする") (b "出典") (b "ソース ファイルのパス")
  (b "移動") (b "ソース ファイルを宛先に移動する") (b "ソース ファイル パス").
(** simple_ml/main.cpp:118-150 *)
Definition ml_ja_errors : translations :=
  [ (unknown_argument, b "不明な引数");
    (unhandled_arguments, b "未処理の引数");
    (argument_has_already_been_set, b "引数はすでに設定されています");
    (failed_to_parse, b "解析に失敗しました");
    (no_arguments_passed, b "引数が渡されませんでした");
    (minimum_value_not_reached, b "最小値に達していません");
    (maximum_value_exceeded, b "最大値を超えました");
    (minimum_count_not_reached, b "最小数に達していません");
    (maximum_count_exceeded, b "最大数を超えました");
    (unknown_argument_with_suggestion, b "不明な引数 {}。 { } という意味でしたか？");
    (mode_requires_arguments, b "モードには引数が必要です");
    (missing_required_argument, b "必要な引数がありません");
    (too_few_values_for_alias, b "エイリアス値が少なすぎる");
    (dependent_argument_missing, b "従属引数がありません (コマンドラインで必要なトークンの前に置く必要があります)");
    (one_of_selected_type_mismatch, b "一度に許可される「One Of」引数は1つだけです");
    (missing_value_separator, b "値の区切り文字が必要です") ].

Section Tree.
Variable tr : translation.
(** simple_ml/main.cpp:197-202; the numbers of the types as in [Examples.v]. *)
Definition ml_force : node := flag 10 [PLongName (tr_force tr); PDescription (tr_force_description tr); PShortName (b "f")].
Definition ml_dst : node :=
  positional_arg text_type 11 [PDisplayName (tr_destination tr); PDescription (tr_destination_description tr); PRequired; PMinMaxCount 1 1].
(** simple_ml/main.cpp:207-215; the formatter is a parameter of the functions that write help pages. *)
Definition ml_help : node :=
  help 1 [PLongName (tr_help tr); PDescription (tr_help_description tr); PShortName (b "h");
          PProgramName (b "simple"); PProgramVersion (b "v0.1"); PProgramIntro (tr_program_intro tr);
          PProgramAddendum (tr_program_addendum tr); PFlattenHelp].
(** simple_ml/main.cpp:216-226 *)
Definition ml_srcs : node :=
  positional_arg strings_type 12 [PDisplayName (tr_source tr); PDescription (tr_sources_description tr); PRequired; PMinMaxCount 1 size_max].
Definition ml_copy : node :=
  mode 2 [PNoneName (tr_copy tr); PDescription (tr_copy_description tr); PRouter] [ml_force; ml_dst; ml_srcs].
(** simple_ml/main.cpp:227-236 *)
Definition ml_src : node :=
  positional_arg text_type 13 [PDisplayName (tr_source tr); PDescription (tr_source_description tr); PRequired; PMinMaxCount 1 1].
Definition ml_move : node :=
  mode 3 [PNoneName (tr_move tr); PDescription (tr_move_description tr); PRouter] [ml_force; ml_dst; ml_src].
(** simple_ml/main.cpp:204-236; for [exception_translator] see [ml_program]. *)
Definition ml_tree : node := root [] [ml_help; ml_copy; ml_move].
End Tree.

(** simple_ml/main.cpp:194-237: what the factory makes for a language, a root and the texts of its exceptions.  There is
    no [translation] for another language (it would not compile); here that gives the first one. *)
Definition ml_factory (lang : bytes) : node * translations :=
  if beq lang (b "fr") then (ml_tree ml_fr, ml_fr_errors)
  else if beq lang (b "ja") then (ml_tree ml_ja, ml_ja_errors)
  else (ml_tree ml_en, []).

(** simple_ml/main.cpp:162-169: [env] is the variable AR_LOCALE_OVERRIDE, if it is set, and [locale] the name of the
    system's locale. *)
Definition ml_locale_name (env : option bytes) (locale : bytes) : bytes :=
  match env with Some e => e | None => locale end.
(** simple_ml/main.cpp:192-193 *)
Definition ml_program (env : option bytes) (locale : bytes) : node * translations :=
  fst (select_language ml_factory (b "en_GB") [b "fr"; b "ja"] (iso_locale (ml_locale_name env locale))).
(** simple_ml/main.cpp:190-238 [main]: what happens to the call of [parse]. *)
Definition ml_main (env : option bytes) (locale : bytes) (argv : list bytes) : seen :=
  parse_call (snd (ml_program env locale)) default_translations (fst (ml_program env locale)) [] argv.

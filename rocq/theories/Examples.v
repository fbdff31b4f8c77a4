(** Model of the programs in examples/: their trees, and the functions of theirs that do something with the values.
    The bare strings are written as the policies that string_to_policy makes of them ([c87_strings] in
    PropsExamples.v), lists with their members in their place (C76).  The line numbers are those of examples/c++20;
    the programs of examples/c++17 differ in the notation of strings only. *)
From Verif Require Import Bytes Token Result CodePoint Utf8 Tree PreParse Build.

(** [std::string_view], [std::filesystem::path] (simple/main.cpp:39-42: the text itself), and vectors of them. *)
Definition text_type : vtype := VT false (fun s => Ok (VStr s)) (VStr []).

(** ** examples/c++20/simple *)

(** simple/main.cpp:47-51: the members of the list [common_args].  Both modes have objects of the same types. *)
Definition sim_force : node :=
  flag 10 [PLongName (b "force"); PDescription (b "Force overwrite existing files"); PShortName (b "f")].
Definition sim_dst : node :=
  positional_arg text_type 11 [PDisplayName (b "DST"); PDescription (b "Destination directory"); PRequired; PMinMaxCount 1 1].
(** simple/main.cpp:54-62 *)
Definition sim_help : node :=
  help 1 [PLongName (b "help"); PDescription (b "Display this help and exit"); PShortName (b "h");
          PProgramName (b "simple"); PProgramVersion (b "v0.1"); PProgramIntro (b "A simple file copier and mover.");
          PProgramAddendum (b "An example program for arg_router."); PFlattenHelp].
(** simple/main.cpp:63-72 *)
Definition sim_srcs : node :=
  positional_arg strings_type 12 [PDisplayName (b "SRC"); PDescription (b "Source file paths"); PRequired; PMinMaxCount 1 size_max].
Definition sim_copy : node :=
  mode 2 [PNoneName (b "copy"); PDescription (b "Copy source files to destination"); PRouter] [sim_force; sim_dst; sim_srcs].
(** simple/main.cpp:73-82 *)
Definition sim_src : node :=
  positional_arg text_type 13 [PDisplayName (b "SRC"); PDescription (b "Source file path"); PRequired; PMinMaxCount 1 1].
Definition sim_move : node :=
  mode 3 [PNoneName (b "move"); PDescription (b "Move source file to destination"); PRouter] [sim_force; sim_dst; sim_src].
(** simple/main.cpp:53-83 *)
Definition simple : node := root [] [sim_help; sim_copy; sim_move].

(** Regular files by their paths.  Simplifications: no directories, links or permissions; two paths are the same file
    only if they are the same text. *)
Definition files := bytes -> option bytes.
Definition file_set (f : files) (p : bytes) (c : option bytes) : files := fun q => if beq q p then c else f q.
(** [std::filesystem::remove]: nothing happens if there is no such file. *)
Definition fs_remove (f : files) (p : bytes) : files := file_set f p None.
(** [std::filesystem::rename], as rename() of POSIX: an existing file is replaced; [None]: a filesystem_error. *)
Definition fs_rename (f : files) (src dst : bytes) : option files :=
  match f src with
  | None => None
  | Some c => Some (if beq src dst then f else file_set (file_set f src None) dst (Some c))
  end.
(** [std::filesystem::copy] of a file to a path that is no directory; [None]: a filesystem_error. *)
Definition fs_copy (overwrite : bool) (f : files) (src dst : bytes) : option files :=
  match f src with
  | None => None
  | Some c =>
      if beq src dst then None
      else match f dst with
           | Some _ => if overwrite then Some (file_set f dst (Some c)) else None
           | None => Some (file_set f dst (Some c))
           end
  end.

(** simple/main.cpp:29-36 [move_mode]: the files afterwards, and whether it returned. *)
Definition move_mode (force : bool) (dst src : bytes) (f : files) : files * bool :=
  let f1 := if force && is_some (f dst) then fs_remove f src else f in
  match fs_rename f1 src dst with
  | Some f2 => (f2, true)
  | None => (f1, false)
  end.
(** simple/main.cpp:20-27 [copy_mode]. *)
Fixpoint copy_mode (force : bool) (dst : bytes) (srcs : list bytes) (f : files) : files * bool :=
  match srcs with
  | [] => (f, true)
  | src :: srcs' =>
      match fs_copy force f src dst with
      | Some f' => copy_mode force dst srcs' f'
      | None => (f, false)
      end
  end.

(** ** examples/c++20/launcher *)

(** launcher/main.cpp:69-74 *)
Definition lau_help : node :=
  help 1 [PLongName (b "help"); PDescription (b "Display this help and exit"); PShortName (b "h");
          PProgramName (b "launcher"); PProgramVersion (b "v3.14"); PProgramAddendum (b "An example program for arg_router.")].
(** launcher/main.cpp:75-78 *)
Definition lau_version : node :=
  flag 2 [PLongName (b "version"); PDescription (b "Output version information and exit"); PRouter].
(** launcher/main.cpp:80 *)
Definition lau_dry : node :=
  flag 10 [PLongName (b "dry-run"); PDescription (b "Just print launch invocations, do not execute them"); PShortName (b "d")].
(** launcher/main.cpp:81-85 *)
Definition lau_progs : node :=
  positional_arg strings_type 11 [PDisplayName (b "PROGS"); PDescription (b "Programs to run"); PRequired;
                                  PTokenEndMarker (b "--"); PMinMaxCount 1 size_max].
(** launcher/main.cpp:86-87 *)
Definition lau_args : node :=
  positional_arg strings_type 12 [PDisplayName (b "ARGS"); PDescription (b "Arguments to pass to programs")].
(** launcher/main.cpp:79-97 *)
Definition lau_mode : node := mode 3 [PRouter] [lau_dry; lau_progs; lau_args].
(** launcher/main.cpp:67-97 *)
Definition launcher : node := root [] [lau_help; lau_version; lau_mode].

(** launcher/main.cpp:27-37 [print_invocs]: what is written. *)
Definition print_invocs (progs args : list bytes) : bytes :=
  flat_map (fun p => p ++ flat_map (fun a => b " " ++ a) args ++ [ascii_of_N 10]) progs.
(** launcher/main.cpp:52-61 in [run_invocs]: the exit code, from those of the programs in order. *)
Fixpoint exit_code (result : Z) (codes : list Z) : Z :=
  match codes with
  | [] => result
  | ec :: codes' => exit_code (if Z.ltb result ec then ec else result) codes'
  end.

(** ** examples/c++20/runtime_node_enable *)

(** runtime_node_enable/main.cpp:25-31 *)
Definition rne_help : node :=
  help 1 [PLongName (b "help"); PDescription (b "Display this help and exit"); PShortName (b "h"); PFlattenHelp;
          PProgramName (b "runtime_node_enable"); PProgramVersion (b "v3.14"); PProgramAddendum (b "An example program for arg_router.")].
(** runtime_node_enable/main.cpp:32-35 *)
Definition rne_version : node :=
  flag 2 [PLongName (b "version"); PDescription (b "Output version information and exit"); PRouter].
Section Licence.
(** [int] and its [arg_router::parser], boost::lexical_cast. *)
Variable int_t : vtype.
(** runtime_node_enable/main.cpp:22 *)
Variable advanced : bool.
(** runtime_node_enable/main.cpp:38-40 *)
Definition rne_feature1 : node := flag 10 [PLongName (b "feature1"); PDescription (b "First feature")].
Definition rne_feature2 : node :=
  arg int_t 11 [PLongName (b "feature2"); PDescription (b "Second feature"); PDefaultValue (VInt 42)].
(** runtime_node_enable/main.cpp:36-44 *)
Definition rne_advanced : node :=
  mode 3 [PNoneName (b "advanced"); PDescription (b "Advanced features"); PRouter; PRuntimeEnable advanced] [rne_feature1; rne_feature2].
(** runtime_node_enable/main.cpp:46-50; the default of the disabled argument is an empty text (policy/runtime_enable.hpp:88-93). *)
Definition rne_foo : node := flag 12 [PLongName (b "foo"); PDescription (b "Foo flag"); PShortName (b "f")].
Definition rne_bar : node := flag 13 [PLongName (b "bar"); PDescription (b "Bar flag"); PShortName (b "b")].
Definition rne_licensed : node :=
  arg text_type 14 [PLongName (b "advance-foo"); PDescription (b "Licensed foo"); PRuntimeEnableRequired advanced (VStr [])].
(** runtime_node_enable/main.cpp:45-54 *)
Definition rne_mode : node := mode 4 [PRouter] [rne_foo; rne_bar; rne_licensed].
(** runtime_node_enable/main.cpp:23-55 *)
Definition runtime_node_enable : node := root [] [rne_help; rne_version; rne_advanced; rne_mode].
End Licence.

(** ** examples/c++20/just_cats *)

Definition cat_zh : bytes := map ascii_of_N [231; 140; 171]%N.          (* the character of line 23 *)
Definition cat_emoji : bytes := map ascii_of_N [240; 159; 144; 177]%N.  (* line 26 *)
Definition cat_th : bytes := map ascii_of_N [224; 185; 129; 224; 184; 161; 224; 184; 167]%N.  (* line 29 *)
Definition cat_uk : bytes := map ascii_of_N [208; 186; 209; 150; 209; 130]%N.  (* line 32 *)
(** just_cats/main.cpp:14-19; the descriptions of the flags in lines 20-34 are left out except for the first. *)
Definition cats_help : node :=
  help 1 [PLongName (b "help"); PDescription (b "Display this help and exit"); PShortName (b "h"); PProgramName (b "just-cats");
          PProgramIntro (b "Prints cats!"); PProgramAddendum (b "An example program for arg_router.")].
(** just_cats/main.cpp:20-34 *)
Definition cats_cat : node := flag 2 [PLongName (b "cat"); PDescription (b "English cat"); PRouter].
Definition cats_zh : node := flag 3 [PShortName cat_zh; PRouter].
Definition cats_emoji : node := flag 4 [PShortName cat_emoji; PRouter].
Definition cats_th : node := flag 5 [PLongName cat_th; PRouter].
Definition cats_uk : node := flag 6 [PLongName cat_uk; PRouter].
(** just_cats/main.cpp:13-35 *)
Definition just_cats : node := root [] [cats_help; cats_cat; cats_zh; cats_emoji; cats_th; cats_uk].

(** ** examples/c++20/basic_cat *)

(** basic_cat/main.cpp:156-161 and 162-165 *)
Definition bc_help : node :=
  help 1 [PLongName (b "help"); PDescription (b "Display this help and exit"); PShortName (b "h"); PProgramName (b "my-cat");
          PProgramVersion (b "v3.14"); PProgramAddendum (b "An example program for arg_router.")].
Definition bc_version : node :=
  flag 2 [PLongName (b "version"); PDescription (b "Output version information and exit"); PRouter].
(** basic_cat/main.cpp:167-174 *)
Definition bc_all : node :=
  flag 10 [PLongName (b "show-all"); PDescription (b "Equivalent to -nE"); PShortName (b "A"); PAlias [NShort (b "E"); NShort (b "n")]].
Definition bc_ends : node := flag 11 [PLongName (b "show-ends"); PDescription (b "Display $ at end of each line"); PShortName (b "E")].
Definition bc_nonprinting : node :=
  flag 12 [PLongName (b "show-nonprinting"); PDescription (b "Use ^ and M- notation, except for LFD and TAB"); PShortName (b "n")].

(** Enumerators as numbers: basic_cat/main.cpp:21 and 23. *)
(** basic_cat/main.cpp:35-48 [theme_from_string]: the exception has a text of its own; here its code. *)
Definition theme_of (s : bytes) : res value :=
  if beq s (b "none") then Ok (VInt 0) else if beq s (b "classic") then Ok (VInt 1)
  else if beq s (b "solarized") then Ok (VInt 2) else Throw (EML failed_to_parse [Tok PNone s]).
(** basic_cat/main.cpp:131-150 *)
Definition verbosity_of (s : bytes) : res value :=
  if beq s (b "error") then Ok (VInt 0) else if beq s (b "warning") then Ok (VInt 1)
  else if beq s (b "info") then Ok (VInt 2) else if beq s (b "debug") then Ok (VInt 3)
  else Throw (EML failed_to_parse [Tok PNone s]).
Definition theme_type : vtype := VT false (fun s => Throw (EML failed_to_parse [Tok PNone s])) (VInt 0).
Definition verbosity_type : vtype := VT false verbosity_of (VInt 0).
Definition enum_lt (x y : value) : bool := match x, y with VInt a, VInt c => Z.ltb a c | _, _ => false end.
(** [static_cast<verbosity_level_t>(std::size_t)]: the underlying type is int. *)
Definition enum_cast (z : Z) : Z := ((z + 2 ^ 31) mod 2 ^ 32 - 2 ^ 31)%Z.

Section Cat.
(** [int] and [std::optional<std::size_t>] with their [arg_router::parser]s, boost::lexical_cast; [no_length] is the
    empty optional. *)
Variables int_t length_t : vtype.
Variable no_length : value.
(** basic_cat/main.cpp:175-182 *)
Definition bc_lines : node :=
  arg int_t 13 [PLongName (b "max-lines"); PDescription (b "Maximum lines to output"); PValueSeparator (b "="); PDefaultValue (VInt (-1))].
Definition bc_length : node :=
  arg length_t 14 [PLongName (b "max-line-length"); PDescription (b "Maximum line length"); PValueSeparator (b "="); PDefaultValue no_length].
(** basic_cat/main.cpp:183-193 *)
Definition bc_skip : node :=
  flag 16 [PLongName (b "skip-line"); PDescription (b "Skips line output if max line length reached"); PShortName (b "s");
           PDependent [NLong (b "max-line-length")]].
Definition bc_suffix : node :=
  arg text_type 17 [PLongName (b "line-suffix");
                    PDescription (b "Shortens line length to maximum with the given suffix if max line length reached");
                    PDependent [NLong (b "max-line-length")]; PValueSeparator (b "=")].
Definition bc_handling : node := one_of 1 text_type 15 [PDefaultValue (VStr (b "..."))] [bc_skip; bc_suffix].
(** basic_cat/main.cpp:194-199 *)
Definition bc_theme : node :=
  arg theme_type 18 [PLongName (b "theme"); PDescription (b "Set the output colour theme"); PValueSeparator (b "=");
                     PDefaultValue (VInt 0); PCustomParser theme_of].
(** basic_cat/main.cpp:200-208 *)
Definition bc_v : node := counting_flag enum_cast 20 [PShortName (b "v"); PDescription (b "Verbosity level, number of 'v's sets level")].
Definition bc_verbose : node :=
  arg verbosity_type 21 [PLongName (b "verbose"); PDescription (b "Verbosity level"); PValueSeparator (b "=")].
Definition bc_verbosity : node :=
  alias_group verbosity_type 19 [PDefaultValue (VInt 2); PMinMaxValue (Some (VInt 0)) (Some (VInt 3)) enum_lt] [bc_v; bc_verbose].
(** basic_cat/main.cpp:209-212 *)
Definition bc_files : node :=
  positional_arg strings_type 22 [PDisplayName (b "FILES"); PDescription (b "Files to read"); PRequired; PMinMaxCount 1 size_max].
(** basic_cat/main.cpp:166-229 *)
Definition bc_mode : node :=
  mode 3 [PRouter] [bc_all; bc_ends; bc_nonprinting; bc_lines; bc_length; bc_handling; bc_theme; bc_verbosity; bc_files].
(** basic_cat/main.cpp:154-230 *)
Definition basic_cat : node := root [] [bc_help; bc_version; bc_mode].
End Cat.

(** basic_cat/main.cpp:62-81 [m_notation] *)
Definition m_char (c : ascii) : bytes :=
  let num := N_of_ascii c in
  if ((32 <=? num) && (num <=? 126) || (num =? 9) || (num =? 10))%N then [c]
  else if (num <=? 127)%N then b "^" ++ [ascii_of_N ((num + 64) mod 256)]
  else b "M-^" ++ [ascii_of_N ((num - 64) mod 256)].
Definition m_notation (s : bytes) : bytes := flat_map m_char s.

(** basic_cat/main.cpp:83-128 [cat]: what is written for the lines of one file that exists.  [limit] is [max_lines],
    [left] the number of lines that are still read ([None]: no limit in reach); [suffix] is [None] for skipping.
    Simplification: a file has fewer than 2^31 lines, so that [line_number] does not overflow. *)
Fixpoint cat_lines (ends nonprinting : bool) (number limit : Z) (len : option N) (suffix : option bytes) (lines : list bytes) : bytes :=
  match lines with
  | [] => []
  | line :: lines' =>
      if Z.eqb number limit then []
      else
        let rest := cat_lines ends nonprinting (number + 1) limit len suffix lines' in
        let write l :=
          (if nonprinting then m_notation l else l) ++ (if ends then b "$" else []) ++ [ascii_of_N 10] ++ rest in
        match len with
        | Some k =>
            if N.ltb k (nlen line)
            then match suffix with
                 | None => rest
                 | Some s => write (firstn (N.to_nat k) line ++ s)
                 end
            else write line
        | None => write line
        end
  end.
(** basic_cat/main.cpp:90-92: -1 stands for the largest int. *)
Definition line_limit (max_lines : Z) : Z := if Z.eqb max_lines (-1) then 2147483647 else max_lines.

(** Model of cmake/translation_generator/translation_generator_script.cmake, which makes a C++ header
    from each translation file.  The CMake commands that it uses are modelled as CMake documents
    them: a string is a list of bytes, a list is a string with semicolons. *)
From Verif Require Import Bytes.

(** A string literal with single quotes in the place of the double ones. *)
Definition q (s : string) : bytes := map (fun c => if Ascii.eqb c "'" then """"%char else c) (b s).
Definition lf : ascii := ascii_of_N 10.
Definition cr : ascii := ascii_of_N 13.
Definition line_end : bytes := [lf].

(** CMake's [file(STRINGS ... ENCODING UTF-8)] (line 38): the lines of the file; carriage returns are
    ignored, and so is an empty last line that is not ended.
    Simplification: the file is UTF-8 text, without other control characters than tabs and line ends. *)
Fixpoint file_strings (cur : bytes) (s : bytes) : list bytes :=
  match s with
  | [] => match cur with [] => [] | _ => [rev cur] end
  | c :: s' =>
      if Ascii.eqb c lf then rev cur :: file_strings [] s'
      else if Ascii.eqb c cr then file_strings cur s'
      else file_strings (c :: cur) s'
  end.

(** The list that [file(STRINGS)] makes of the lines: semicolons are escaped. *)
Definition escape (s : bytes) : bytes :=
  flat_map (fun c => if Ascii.eqb c ";" then ["\"%char; c] else [c]) s.
Fixpoint make_list (l : list bytes) : bytes :=
  match l with
  | [] => []
  | [x] => escape x
  | x :: l' => escape x ++ ";"%char :: make_list l'
  end.

(** The elements of a CMake list (with policy CMP0007 set to NEW, line 34): what is between the
    semicolons, except those that are escaped and those between square brackets. *)
Fixpoint split_list (nesting : Z) (cur : bytes) (s : bytes) : list bytes :=
  match s with
  | [] => [rev cur]
  | c :: s' =>
      if Ascii.eqb c "\" then
        match s' with
        | d :: s'' =>
            if Ascii.eqb d ";" then split_list nesting (d :: cur) s'' else split_list nesting (c :: cur) s'
        | [] => [rev (c :: cur)]
        end
      else if Ascii.eqb c "[" then split_list (nesting + 1) (c :: cur) s'
      else if Ascii.eqb c "]" then split_list (nesting - 1) (c :: cur) s'
      else if Ascii.eqb c ";" && Z.eqb nesting 0 then rev cur :: split_list 0 [] s'
      else split_list nesting (c :: cur) s'
  end.
Definition elements (s : bytes) : list bytes :=
  match s with [] => [] | _ => split_list 0 [] s end.

(** CMake's [string(FIND)]: the position of the first occurrence. *)
Fixpoint find_string (p s : bytes) : option nat :=
  if starts_with p s then Some 0
  else match s with [] => None | _ :: s' => option_map S (find_string p s') end.

(** translation_generator_script.cmake:5-11 *)
Definition translation_string (cpp17 : bool) (s : bytes) : bytes :=
  if cpp17 then b "S_(" ++ s ++ b ")" else b "str<" ++ s ++ b ">".

(** Lines 42-83: one turn of the loop, for line number [i].  [last] is [num_lines], the number of the
    last line.  The state is [error_code_section] and [output_data]; none if the script gives up
    (line 60). *)
Definition process_line (cpp17 : bool) (last i : nat) (line : bytes) (st : bool * bytes) : option (bool * bytes) :=
  let '(section, out) := st in
  if beq line [] || beq (firstn 1 line) (b "#") then Some st
  else if beq line (b "[error_code]") then
    Some (true, out ++ line_end ++ b "    using error_code_translations = std::tuple<" ++ line_end)
  else match find_string (b " = ") line with
       | None => None
       | Some div =>
           let key := firstn div line in
           let value := translation_string cpp17 (skipn (div + 3) line) in
           if section then
             Some (section, out ++ b "        std::pair<traits::integral_constant<error_code::" ++ key ++ b ">, "
                              ++ value ++ b ">"
                              ++ (if Nat.eqb i last then line_end else b "," ++ line_end))
           else Some (section, out ++ b "    using " ++ key ++ b " = " ++ value ++ b ";" ++ line_end)
       end.
Fixpoint process_lines (cpp17 : bool) (last i : nat) (lines : list bytes) (st : bool * bytes) : option (bool * bytes) :=
  match lines with
  | [] => Some st
  | l :: ls =>
      match process_line cpp17 last i l st with
      | Some st' => process_lines cpp17 last (S i) ls st'
      | None => None
      end
  end.

(** Lines 13-94 [__ar_translation_body_generator]: what is appended to the output.  [list(GET)] from
    an empty list is an error. *)
Definition body (cpp17 : bool) (language : bytes) (source : bytes) : option bytes :=
  let lines := elements (make_list (file_strings [] source)) in
  match lines with
  | [] => None
  | _ =>
      match process_lines cpp17 (List.length lines - 1) 0 lines
              (false, b "template <>" ++ line_end ++ b "class translation<"
                      ++ translation_string cpp17 (q "'" ++ language ++ q "'") ++ b ">" ++ line_end
                      ++ b "{" ++ line_end ++ b "public:" ++ line_end) with
      | Some (section, out) =>
          Some (out ++ (if section then b "    >;" ++ line_end else []) ++ b "};" ++ line_end)
      | None => None
      end
  end.

(** Lines 97-121: the header for one file. *)
Definition generate (language : bytes) (source : bytes) : option bytes :=
  match body false language source, body true language source with
  | Some x, Some y =>
      Some (b "// Generated by CMake, do not modify manually" ++ line_end
            ++ b "namespace arg_router::multi_lang" ++ line_end ++ b "{" ++ line_end
            ++ b "#ifdef AR_ENABLE_CPP20_STRINGS" ++ line_end
            ++ x ++ b "#else" ++ line_end ++ y
            ++ b "#endif" ++ line_end ++ b "}  // namespace arg_router::multi_lang" ++ line_end)
  | _, _ => None
  end.

(** CMake's [get_filename_component(... NAME_WLE)] (line 106): without the directory and the last
    extension. *)
Fixpoint base_name (path : bytes) : bytes :=
  match path with
  | [] => []
  | c :: path' => if mem_byte "/" path then base_name path' else path
  end.
Fixpoint without_extension (name : bytes) : bytes :=
  match name with
  | [] => []
  | c :: name' =>
      if Ascii.eqb c "." && negb (mem_byte "." name') then [] else c :: without_extension name'
  end.
Definition language_id (path : bytes) : bytes := without_extension (base_name path).

(** The files: their contents by path. *)
Definition files := bytes -> option bytes.
Definition write (fs : files) (path text : bytes) : files :=
  fun p => if beq p path then Some text else fs p.

(** Lines 105-133: one source.  The result is the files and the paths that were written; the file is
    only written if its contents change. *)
Definition run_source (dir : bytes) (fs : files) (source : bytes) : option (files * list bytes) :=
  match fs source with
  | None => None
  | Some text =>
      let language := language_id source in
      let output := dir ++ b "/" ++ language ++ b ".hpp" in
      match generate language text with
      | None => None
      | Some header =>
          match fs output with
          | Some old => if beq old header then Some (fs, []) else Some (write fs output header, [output])
          | None => Some (write fs output header, [output])
          end
      end
  end.

(** The whole script: the files when it ends, the files written, and whether it reached its end. *)
Fixpoint run_script (dir : bytes) (fs : files) (sources : list bytes) : files * list bytes * bool :=
  match sources with
  | [] => (fs, [], true)
  | s :: ss =>
      match run_source dir fs s with
      | None => (fs, [], false)
      | Some (fs', w) => let '(fs'', ws, ok) := run_script dir fs' ss in (fs'', w ++ ws, ok)
      end
  end.

(** Specification for C78: what a translation file says, and the header that says the same. *)
From Verif Require Import Bytes.

(** What a translation file is about: names for texts, and texts for error codes, if there are any. *)
Record document := Doc { d_texts : list (bytes * bytes); d_errors : option (list (bytes * bytes)) }.

(** Names are identifiers. *)
Definition in_identifier (c : ascii) : Prop :=
  let n := N_of_ascii c in
  (48 <= n <= 57 \/ 65 <= n <= 90 \/ n = 95 \/ 97 <= n <= 122)%N.
Definition identifier (k : bytes) : Prop := k <> [] /\ Forall in_identifier k.

(** Lines without contents. *)
Inductive silent : bytes -> Prop :=
| silent_blank : silent []
| silent_comment s : silent ("#"%char :: s).

(** [entries ls es]: the lines have the entries [es]. *)
Inductive entries : list bytes -> list (bytes * bytes) -> Prop :=
| entries_nil : entries [] []
| entries_silent l ls es : silent l -> entries ls es -> entries (l :: ls) es
| entries_cons k v ls es : identifier k -> entries ls es -> entries ((k ++ b " = " ++ v) :: ls) ((k, v) :: es).

Inductive says : list bytes -> document -> Prop :=
| says_texts ls es : entries ls es -> says ls (Doc es None)
| says_errors ls es ls' es' :
    entries ls es -> entries ls' es' -> says (ls ++ b "[error_code]" :: ls') (Doc es (Some es')).

(** [stored ls text]: the lines of the text are [ls].  The last one need not be ended. *)
Definition new_line : ascii := ascii_of_N 10.
Definition carriage_return : ascii := ascii_of_N 13.
Definition one_line (l : bytes) : Prop := ~ In new_line l /\ ~ In carriage_return l.
Inductive stored : list bytes -> bytes -> Prop :=
| stored_nil : stored [] []
| stored_last l : one_line l -> l <> [] -> stored [l] l
| stored_line l e ls t :
    one_line l -> e = [new_line] \/ e = [carriage_return; new_line] -> stored ls t -> stored (l :: ls) (l ++ e ++ t).

(** Lines that CMake can have in a list: as many opening square brackets as closing ones, and no
    backslash at the end. *)
Definition listable (l : bytes) : Prop :=
  count_occ ascii_dec l "["%char = count_occ ascii_dec l "]"%char /\ forall l', l <> l' ++ ["\"%char].

(** The header. *)
Definition lines_text (ls : list bytes) : bytes := List.concat (map (fun l => l ++ [new_line]) ls).
Fixpoint commas (ls : list bytes) : list bytes :=
  match ls with
  | [] => []
  | [l] => [l]
  | l :: ls' => (l ++ b ",") :: commas ls'
  end.
Definition quote : bytes := [ascii_of_N 34].
(** [ct] is how compile-time strings are written. *)
Definition class_lines (ct : bytes -> bytes) (language : bytes) (d : document) : list bytes :=
  [b "template <>"; b "class translation<" ++ ct (quote ++ language ++ quote) ++ b ">"; b "{"; b "public:"]
  ++ map (fun '(k, v) => b "    using " ++ k ++ b " = " ++ ct v ++ b ";") (d_texts d)
  ++ match d_errors d with
     | None => []
     | Some es =>
         [[]; b "    using error_code_translations = std::tuple<"]
         ++ commas (map (fun '(k, v) => b "        std::pair<traits::integral_constant<error_code::" ++ k ++ b ">, "
                                         ++ ct v ++ b ">") es)
         ++ [b "    >;"]
     end
  ++ [b "};"].
Definition header (language : bytes) (d : document) : bytes :=
  lines_text ([b "// Generated by CMake, do not modify manually"; b "namespace arg_router::multi_lang"; b "{";
               b "#ifdef AR_ENABLE_CPP20_STRINGS"]
              ++ class_lines (fun s => b "str<" ++ s ++ b ">") language d
              ++ [b "#else"]
              ++ class_lines (fun s => b "S_(" ++ s ++ b ")") language d
              ++ [b "#endif"; b "}  // namespace arg_router::multi_lang"]).

(** The last line has contents. *)
Definition ends_well (ls : list bytes) : Prop := forall ls' l, ls = ls' ++ [l] -> ~ silent l.

(** [translates text d]: the file is about [d], and has none of the shapes that the script cannot cope
    with: it is not empty, a table of error codes is not followed by comments or blank lines, and the lines
    fit into a list. *)
Definition translates (text : bytes) (d : document) : Prop :=
  exists ls, says ls d /\ stored ls text /\ ls <> [] /\ ls <> [[]] /\ Forall listable (removelast ls)
             /\ (d_errors d <> None -> ends_well ls).

(** The file is named after the language; the header that is made of it. *)
Definition named_after (language path : bytes) : Prop :=
  exists dir ext, (path = language ++ b "." ++ ext \/ path = dir ++ b "/" ++ language ++ b "." ++ ext)
    /\ ~ In "/"%char language /\ ~ In "/"%char ext /\ ~ In "."%char ext.
Definition header_path (dir language : bytes) : bytes := dir ++ b "/" ++ language ++ b ".hpp".

(** A file to be translated. *)
Record job := Job { j_path : bytes; j_language : bytes; j_document : document }.

(** All the names and texts of a document are what they have to be. *)
Definition writable (d : document) : Prop :=
  Forall (fun e => identifier (fst e) /\ ~ In new_line (snd e))
         (d_texts d ++ match d_errors d with Some es => es | None => [] end).

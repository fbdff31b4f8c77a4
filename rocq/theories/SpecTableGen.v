(** Specification of the tables of code points and the data files that they are made from (C82). *)
From Coq Require Import Permutation.
From Verif Require Import Bytes CodePoint Utf8 SpecNumeral SpecLines.
Local Open Scope list_scope.

(** ** Data files of the Unicode character database *)

Definition white (c : ascii) : Prop := In (N_of_ascii c) [9; 10; 11; 12; 13; 28; 29; 30; 31; 32]%N.
Definition blank (s : bytes) : Prop := Forall white s.

(** Hexadecimal numerals. *)
Definition digit_is (c : ascii) (d : N) : Prop :=
  nth_error (b "0123456789ABCDEF") (N.to_nat d) = Some c \/ nth_error (b "0123456789abcdef") (N.to_nat d) = Some c.
Inductive hexadecimal : bytes -> N -> Prop :=
| hex_one c d : digit_is c d -> hexadecimal [c] d
| hex_more s n c d : hexadecimal s n -> digit_is c d -> hexadecimal (s ++ [c]) (16 * n + d).

(** The first field of a line, a code point or a range of them. *)
Inductive place : bytes -> N -> N -> Prop :=
| place_one s c : hexadecimal s c -> place s c c
| place_range s f s' l : hexadecimal s f -> hexadecimal s' l -> place (s ++ b ".." ++ s') f l.

(** The second field: some text without a comment sign, no white space at its ends. *)
Record property (p : bytes) : Prop := {
  pr_some : p <> [];
  pr_sign : ~ In "#"%char p;
  pr_front : forall c p', p = c :: p' -> ~ white c;
  pr_back : forall c p', p = p' ++ [c] -> ~ white c
}.

(** An entry of a file: the code points from [e_first] to [e_last] have the property; the comment on the line. *)
Record entry := Entry { e_first : N; e_last : N; e_property : bytes; e_note : option bytes }.

Inductive says : bytes -> entry -> Prop :=
| says_entry s0 where_ s1 s2 p s3 tail note f l :
    blank s0 -> place where_ f l -> blank s1 -> blank s2 -> property p -> blank s3 ->
    (tail = [] /\ note = None \/ exists n, tail = "#"%char :: n /\ note = Some n) ->
    says (s0 ++ where_ ++ s1 ++ b ";" ++ s2 ++ p ++ s3 ++ tail) (Entry f l p note).

(** A line without an entry. *)
Definition says_nothing (line : bytes) : Prop := exists s0 s1, blank s0 /\ line = s0 ++ s1 /\ (s1 = [] \/ exists s2, s1 = "#"%char :: s2).

Inductive lists : list bytes -> list entry -> Prop :=
| lists_nil : lists [] []
| lists_nothing line lines es : says_nothing line -> lists lines es -> lists (line :: lines) es
| lists_entry line e lines es : says line e -> lists lines es -> lists (line :: lines) (e :: es).

(** The version in the first line. *)
Definition number (s : bytes) : Prop := s <> [] /\ forall c, In c s -> In c (b "0123456789").
Definition versioned (line : bytes) : Prop :=
  exists x i j k y, line = x ++ i ++ b "." ++ j ++ b "." ++ k ++ y /\ number i /\ number j /\ number k.

(** A text file with these lines; the last one may end with the file. *)
Inductive text : bytes -> list bytes -> Prop :=
| text_nil : text [] []
| text_last l : l <> [] -> ~ In (ascii_of_N 10) l -> text l [l]
| text_line l content lines : ~ In (ascii_of_N 10) l -> text content lines -> text (l ++ ascii_of_N 10 :: content) (l :: lines).

(** A data file: the first line has the version and an end, and every line is an entry or nothing. *)
Definition data_file (content : bytes) (es : list entry) : Prop :=
  exists l ls, text content (l :: ls) /\ In (ascii_of_N 10) content /\ versioned l /\ lists (l :: ls) es.

(** A line that starts with something but has no second field. *)
Definition broken (line : bytes) : Prop :=
  ~ In ";"%char line /\ exists s0 c s1, blank s0 /\ line = s0 ++ c :: s1 /\ ~ white c /\ c <> "#"%char.

(** ** Classes *)

(** The property is one of these; the tables that are only looked up for being in it have class 0 (code_point.hpp:32). *)
Definition one_of_class (ps : list bytes) (p : bytes) (note : option bytes) (k : N) : Prop := In p ps /\ k = 0%N.

(** The enumerators of grapheme_cluster_break.hpp:18-34 and line_break.hpp:15-55 as they are called in the
    data files. *)
Definition grapheme_classes : list bytes :=
  map b ["any"; "CR"; "LF"; "Control"; "Extend"; "ZWJ"; "Regional_Indicator"; "Prepend"; "SpacingMark"; "L"; "V"; "T"; "LV"; "LVT";
         "Extended_Pictographic"]%string.
Definition line_classes : list bytes :=
  map b ["any"; "AL"; "BA"; "BB"; "B2"; "BK"; "CB"; "CL"; "CM"; "CP"; "CR"; "EB"; "EM"; "EX"; "GL"; "H2"; "H3"; "HY"; "ID"; "HL"; "IN";
         "IS"; "JL"; "JT"; "JV"; "LF"; "NL"; "NS"; "NU"; "OP"; "PO"; "PR"; "QU"; "RI"; "SP"; "SY"; "WJ"; "ZW"; "ZWJ"]%string.
Definition enumerator (names : list bytes) (name : bytes) (k : N) : Prop :=
  (0 < k)%N /\ nth_error names (N.to_nat k) = Some name.

Definition grapheme_class (p : bytes) (note : option bytes) (k : N) : Prop := enumerator grapheme_classes p k.
Definition emoji_class (p : bytes) (note : option bytes) (k : N) : Prop := p = b "Extended_Pictographic" /\ enumerator grapheme_classes p k.

(** Rule LB1 of Unicode Standard Annex #14: AI, SG and XX are AL; CJ is NS; SA is CM for the general categories Mn and Mc,
    which stand at the front of the comment, and AL otherwise. *)
Definition mark (note : bytes) : Prop := exists c rest, note = c :: b "Mn" ++ rest \/ note = c :: b "Mc" ++ rest.
Inductive resolves : bytes -> option bytes -> bytes -> Prop :=
| resolves_plain p note : ~ In p (map b ["AI"; "SG"; "XX"; "CJ"; "SA"]%string) -> resolves p note p
| resolves_alphabetic p note : In p (map b ["AI"; "SG"; "XX"]%string) -> resolves p note (b "AL")
| resolves_starter note : resolves (b "CJ") note (b "NS")
| resolves_mark note : mark note -> resolves (b "SA") (Some note) (b "CM")
| resolves_letter note : ~ mark note -> resolves (b "SA") (Some note) (b "AL").
Definition line_class (p : bytes) (note : option bytes) (k : N) : Prop := exists name, resolves p note name /\ enumerator line_classes name k.

(** The rows for the entries that have a class. *)
Inductive classified (class : bytes -> option bytes -> N -> Prop) : list entry -> list (N * N * N) -> Prop :=
| cl_nil : classified class [] []
| cl_row e k es rows : class (e_property e) (e_note e) k -> classified class es rows ->
    classified class (e :: es) ((e_first e, e_last e, k) :: rows)
| cl_none e es rows : (forall k, ~ class (e_property e) (e_note e) k) -> classified class es rows -> classified class (e :: es) rows.

(** ** Tables *)

(** What the library needs of the rows: code points, and none in two of them. *)
Definition row_fits (r : N * N * N) : Prop := let '(f, l, k) := r in (f <= l < 2 ^ 21 /\ k < 2 ^ 6)%N.
Definition rows_apart (r r' : N * N * N) : Prop := let '(f, l, _) := r in let '(f', l', _) := r' in (l < f' \/ l' < f)%N.
Definition usable (rows : list (N * N * N)) : Prop := Forall row_fits rows /\ ForallOrdPairs rows_apart rows.

(** In the order of their first code points. *)
Definition ascending (rows : list (N * N * N)) : Prop := ForallOrdPairs (fun r r' => fst (fst r) <= fst (fst r'))%N rows.

(** The C++ text of a row and of a table; a row without a class has class 0. *)
Inductive row_written : N * N * N -> bytes -> Prop :=
| written_plain f l x y : hexadecimal x f -> hexadecimal y l -> row_written (f, l, 0%N) (b "    {0x" ++ x ++ b ", 0x" ++ y ++ b "},")
| written_class f l k x y z : hexadecimal x f -> hexadecimal y l -> hexadecimal z k ->
    row_written (f, l, k) (b "    {0x" ++ x ++ b ", 0x" ++ y ++ b ", 0x" ++ z ++ b "},").
Definition table_written (name : bytes) (rows : list (N * N * N)) (out : list bytes) : Prop :=
  exists ds texts, writes (N.of_nat (List.length rows)) ds /\ Forall2 row_written rows texts
    /\ out = [b "constexpr auto " ++ name ++ b " = std::array<code_point::range, " ++ digits_text ds ++ b ">{{"] ++ texts ++ [b "}};"].

(** What the script should print for these rows: they in ascending order, as a table which the library finds every code
    point of the rows in, with its class, and no other one. *)
Definition makes (printed : option (list bytes)) (name : bytes) (rows : list (N * N * N)) : Prop :=
  exists out rows', printed = Some out /\ Permutation rows rows' /\ ascending rows' /\ table_written name rows' out
    /\ (usable rows -> exact_lookup rows (map pack_row rows')).

(** Model of scripts/unicode_table_generators.py, which makes the tables of code points in utility/utf8/*.hpp
    from the data files of the Unicode character database.
    Simplifications: a Python string is the list of its bytes; white space and digits are the ASCII ones (Python also
    takes those of other scripts); downloads are parameters (lines 79-80); of what is printed only the table is
    modelled, not the lines with URL and version in front of it.  [None] stands for any Python exception. *)
From Verif Require Import Bytes.
Local Open Scope list_scope.

(** Python's [str.isspace] for ASCII. *)
Definition py_space (c : ascii) : bool :=
  let x := byte_val c in (N.leb 9 x && N.leb x 13) || (N.leb 28 x && N.leb x 32).

Fixpoint drop_space (s : bytes) : bytes :=
  match s with c :: s' => if py_space c then drop_space s' else s | [] => [] end.
(** Python's [str.strip()]. *)
Definition strip (s : bytes) : bytes := rev (drop_space (rev (drop_space s))).

Definition newline : ascii := ascii_of_N 10.

(** Python's iteration over [StringIO(content)]: the lines.  Simplification: without the line end, which the script
    strips anyway. *)
Fixpoint string_io (cur : bytes) (s : bytes) : list bytes :=
  match s with
  | [] => match cur with [] => [] | _ => [rev cur] end
  | c :: s' => if Ascii.eqb c newline then rev cur :: string_io [] s' else string_io (c :: cur) s'
  end.

(** Python's [s.find(p)]. *)
Fixpoint find_text (p s : bytes) : option nat :=
  if starts_with p s then Some 0
  else match s with [] => None | _ :: s' => option_map S (find_text p s') end.

(** Python's [s.find(p, start)] for [start <= len(s)]. *)
Definition find_text_from (p s : bytes) (start : nat) : option nat :=
  option_map (Nat.add start) (find_text p (skipn start s)).

(** Python's slice [s[i:j]]. *)
Definition slice (s : bytes) (i j : nat) : bytes := firstn (j - i) (skipn i s).

(** The value of a hexadecimal digit. *)
Definition hex_digit (c : ascii) : option N :=
  let x := byte_val c in
  if N.leb 48 x && N.leb x 57 then Some (x - 48)%N
  else if N.leb 65 x && N.leb x 70 then Some (x - 55)%N
  else if N.leb 97 x && N.leb x 102 then Some (x - 87)%N
  else None.
Fixpoint hex_digits (acc : N) (s : bytes) : option N :=
  match s with
  | [] => Some acc
  | c :: s' => match hex_digit c with Some d => hex_digits (16 * acc + d) s' | None => None end
  end.
(** Python's [int(s, 16)].  Simplification: Python also accepts a sign, "0x", and "_" between digits. *)
Definition int_16 (s : bytes) : option N :=
  match strip s with [] => None | s' => hex_digits 0 s' end.

(** unicode_table_generators.py:12-13 *)
Definition range_divider : bytes := b "..".
Definition comment : ascii := "#".

(** Skips digits, of which there must be at least one, for the regular expression. *)
Definition is_digit (c : ascii) : bool := N.leb 48 (byte_val c) && N.leb (byte_val c) 57.
Fixpoint skip_digits (s : bytes) : bytes :=
  match s with c :: s' => if is_digit c then skip_digits s' else s | [] => [] end.
Definition digits_then (k : bytes -> bool) (s : bytes) : bool :=
  match s with c :: s' => is_digit c && k (skip_digits s') | [] => false end.
Definition dot_then (k : bytes -> bool) (s : bytes) : bool :=
  match s with c :: s' => Ascii.eqb c "." && k s' | [] => false end.
(** unicode_table_generators.py:89-90: the regular expression matches somewhere. *)
Fixpoint has_version (s : bytes) : bool :=
  digits_then (dot_then (digits_then (dot_then (digits_then (fun _ => true))))) s
  || match s with _ :: s' => has_version s' | [] => false end.

(** unicode_table_generators.py:83-94; true unless it raises. *)
Definition extract_version (content : bytes) : bool :=
  match find_byte newline content with
  | None => false
  | Some line_end => has_version (slice content 0 line_end)
  end.

(** unicode_table_generators.py:97-109: the position of the semicolon and the property, or [Some None] for lines to skip. *)
Definition get_abbreviation (line : bytes) : option (option (nat * bytes)) :=
  match line with
  | [] => Some None
  | c :: _ =>
      if Ascii.eqb c comment then Some None
      else match find_text (b ";") line with
           | None => None
           | Some sc_pos =>
               let comment_pos := match find_text_from [comment] line sc_pos with Some p => p | None => List.length line end in
               Some (Some (sc_pos, strip (slice line (sc_pos + 1) comment_pos)))
           end
  end.

(** A row of a table: first and last code point, and the number of the class if there is one. *)
Definition row : Type := N * N * option N.

(** unicode_table_generators.py:134-145, 206-214, 236-244, 300-310: the code points of a line (they also are
    lines 112-120, which are not used). *)
Definition create_row (line : bytes) (sc_pos : nat) (meta : option N) : option row :=
  let line := strip (slice line 0 sc_pos) in
  match find_text range_divider line with
  | None => match int_16 line with Some start => Some (start, start, meta) | None => None end
  | Some range_split =>
      match int_16 (slice line 0 range_split), int_16 (slice line (range_split + 2) (List.length line)) with
      | Some start, Some last => Some (start, last, meta)
      | _, _ => None
      end
  end.

(** The loops over the lines; [choose] gets the line, the position of the semicolon and the property, and answers whether to
    raise, skip the line, or make a row with this class. *)
Fixpoint collect (choose : bytes -> nat -> bytes -> option (option (option N))) (lines : list bytes) : option (list row) :=
  match lines with
  | [] => Some []
  | l :: lines' =>
      let line := strip l in
      match get_abbreviation line with
      | None => None
      | Some None => collect choose lines'
      | Some (Some (sc_pos, abbrv)) =>
          match choose line sc_pos abbrv with
          | None => None
          | Some None => collect choose lines'
          | Some (Some meta) =>
              match create_row line sc_pos meta, collect choose lines' with
              | Some r, Some rs => Some (r :: rs)
              | _, _ => None
              end
          end
      end
  end.

(** unicode_table_generators.py:123-146 *)
Definition choose_listed (abbrvs : list bytes) (line : bytes) (sc_pos : nat) (abbrv : bytes) : option (option (option N)) :=
  if existsb (beq abbrv) abbrvs then Some (Some None) else Some None.
Definition extract_code_points (abbrvs : list bytes) (content : bytes) : option (list row) :=
  collect (choose_listed abbrvs) (string_io [] content).

(** unicode_table_generators.py:18-33 *)
Definition grapheme_members : list (N * bytes) :=
  [(1, b "CR"); (2, b "LF"); (3, b "Control"); (4, b "Extend"); (5, b "ZWJ"); (6, b "Regional_Indicator"); (7, b "Prepend");
   (8, b "SpacingMark"); (9, b "L"); (10, b "V"); (11, b "T"); (12, b "LV"); (13, b "LVT"); (14, b "Extended_Pictographic")]%N.

(** unicode_table_generators.py:36-76 *)
Definition line_members : list (N * bytes) :=
  [(1, b "AL"); (2, b "BA"); (3, b "BB"); (4, b "B2"); (5, b "BK"); (6, b "CB"); (7, b "CL"); (8, b "CM"); (9, b "CP"); (10, b "CR");
   (11, b "EB"); (12, b "EM"); (13, b "EX"); (14, b "GL"); (15, b "H2"); (16, b "H3"); (17, b "HY"); (18, b "ID"); (19, b "HL");
   (20, b "IN"); (21, b "IS"); (22, b "JL"); (23, b "JT"); (24, b "JV"); (25, b "LF"); (26, b "NL"); (27, b "NS"); (28, b "NU");
   (29, b "OP"); (30, b "PO"); (31, b "PR"); (32, b "QU"); (33, b "RI"); (34, b "SP"); (35, b "SY"); (36, b "WJ"); (37, b "ZW");
   (38, b "ZWJ")]%N.

(** unicode_table_generators.py:194-199, 292-297: the first member with that name. *)
Fixpoint member (abbrv : bytes) (l : list (N * bytes)) : option N :=
  match l with
  | [] => None
  | (k, name) :: l' => if beq name abbrv then Some k else member abbrv l'
  end.

(** unicode_table_generators.py:185-214 *)
Definition choose_grapheme (line : bytes) (sc_pos : nat) (abbrv : bytes) : option (option (option N)) :=
  match member abbrv grapheme_members with Some k => Some (Some (Some k)) | None => None end.

(** unicode_table_generators.py:222-246 *)
Definition choose_emoji (line : bytes) (sc_pos : nat) (abbrv : bytes) : option (option (option N)) :=
  if beq abbrv (b "Extended_Pictographic") then Some (Some (Some 14%N)) else Some None.

(** unicode_table_generators.py:263-310 *)
Definition choose_line (line : bytes) (sc_pos : nat) (abbrv : bytes) : option (option (option N)) :=
  if beq abbrv (b "AI") || beq abbrv (b "SG") || beq abbrv (b "XX") then Some (Some (Some 1%N))
  else if beq abbrv (b "CJ") then Some (Some (Some 27%N))
  else if beq abbrv (b "SA") then
    match find_text_from [comment] line sc_pos with
    | None => None
    | Some c_pos =>
        let general_category := slice line (c_pos + 2) (c_pos + 4) in
        if beq general_category (b "Mn") || beq general_category (b "Mc") then Some (Some (Some 8%N)) else Some (Some (Some 1%N))
    end
  else match member abbrv line_members with Some k => Some (Some (Some k)) | None => None end.

(** unicode_table_generators.py:149-150: Python's [sorted] is stable. *)
Definition row_first (r : row) : N := fst (fst r).
Fixpoint insert_row (r : row) (rows : list row) : list row :=
  match rows with
  | [] => [r]
  | r' :: rows' => if N.leb (row_first r) (row_first r') then r :: rows else r' :: insert_row r rows'
  end.
Fixpoint sort_code_points (rows : list row) : list row :=
  match rows with [] => [] | r :: rows' => insert_row r (sort_code_points rows') end.

(** Digits of a number, the last one first; [fuel] digits at most. *)
Fixpoint digits_of (fuel : nat) (base n : N) : list N :=
  match fuel with
  | O => []
  | S f => if N.ltb n base then [n] else (n mod base :: digits_of f base (n / base))%N
  end.
Definition digit_char (d : N) : ascii := ascii_of_N (if N.ltb d 10 then 48 + d else 55 + d).
Definition numeral (base n : N) : bytes := map digit_char (rev (digits_of (S (N.to_nat (N.log2 n))) base n)).
(** Python's format "06X". *)
Definition hex_06 (n : N) : bytes := let s := numeral 16 n in repeat "0"%char (6 - List.length s) ++ s.

(** unicode_table_generators.py:153-161 *)
Definition row_text (r : row) : bytes :=
  match r with
  | (first, last, Some meta) =>
      b "    {0x" ++ hex_06 first ++ b ", 0x" ++ hex_06 last ++ b ", 0x" ++ hex_06 meta ++ b "},"
  | (first, last, None) => b "    {0x" ++ hex_06 first ++ b ", 0x" ++ hex_06 last ++ b "},"
  end.

(** unicode_table_generators.py:168-173, 248-252, 312-315: sorts the rows and prints the table, line by line. *)
Definition print_table (varname : bytes) (rows : list row) : list bytes :=
  let cps := sort_code_points rows in
  [b "constexpr auto " ++ varname ++ b " = std::array<code_point::range, " ++ numeral 10 (N.of_nat (List.length cps)) ++ b ">{{"]
  ++ map row_text cps ++ [b "}};"].

(** unicode_table_generators.py:164-173 *)
Definition run (contents : bytes) (abbrvs : list bytes) (varname : bytes) : option (list bytes) :=
  if extract_version contents then option_map (print_table varname) (extract_code_points abbrvs contents) else None.

(** unicode_table_generators.py:176-252 *)
Definition run_grapheme_cluster_break (breaks emoji : bytes) : option (list bytes) :=
  if extract_version breaks then
    match collect choose_grapheme (string_io [] breaks) with
    | None => None
    | Some rows =>
        if extract_version emoji then
          match collect choose_emoji (string_io [] emoji) with
          | None => None
          | Some rows' => Some (print_table (b "grapheme_cluster_break_table") (rows ++ rows'))
          end
        else None
    end
  else None.

(** unicode_table_generators.py:255-315 *)
Definition line_break (contents : bytes) : option (list bytes) :=
  if extract_version contents then
    option_map (print_table (b "line_break_table")) (collect choose_line (string_io [] contents))
  else None.

(** unicode_table_generators.py:319-334 *)
Definition whitespace (contents : bytes) : option (list bytes) := run contents [b "White_Space"] (b "whitespace_table").
Definition double_width (contents : bytes) : option (list bytes) := run contents [b "W"; b "F"] (b "double_width_table").
Definition zero_width (contents : bytes) : option (list bytes) := run contents [b "Mn"; b "Me"] (b "zero_width_table").

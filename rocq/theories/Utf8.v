(** Model of utility/utf8.hpp, utility/utf8/grapheme_cluster_break.hpp and
    utility/utf8/line_break.hpp. *)
From Verif Require Import Bytes CodePoint.
From Verif Require Import TabGrapheme TabLine TabWhitespace TabZero TabDouble.
Local Open Scope N_scope.

(** A row literal of a table goes through the packing constructor (code_point.hpp:32-56). *)
Definition pack_row (r : N * N * N) : range := let '(f, l, m) := r in pack f l m.

(** grapheme_cluster_break.hpp:244 *)
Definition grapheme_table : list range := Eval vm_compute in map pack_row grapheme_cluster_break_table_rows.
(** line_break.hpp:700 *)
Definition line_table : list range := Eval vm_compute in map pack_row line_break_table_rows.
(** whitespace.hpp:18 *)
Definition whitespace_tab : list range := Eval vm_compute in map pack_row whitespace_table_rows.
(** zero_width.hpp:18 *)
Definition zero_width_tab : list range := Eval vm_compute in map pack_row zero_width_table_rows.
(** double_width.hpp:18 *)
Definition double_width_tab : list range := Eval vm_compute in map pack_row double_width_table_rows.

(** utf8.hpp:28-40: the loop of [find_range]; [first] is the iterator [table.begin() + first].
    The fuel bounds the number of iterations ([len] strictly decreases, so [len] is enough).
    An out-of-range access would be undefined behaviour; it is excluded by
    [find_range_loop_in_bounds]. *)
Fixpoint find_range_loop (fuel : nat) (table : list range) (first len : nat) (cp : N)
  : option range :=
  match fuel with
  | O => None
  | S f =>
      if Nat.eqb len 0 then None
      else
        let step := Nat.div len 2 in
        let halfway := (first + step)%nat in
        match nth_error table halfway with
        | None => None
        | Some r =>
            if cp <? r_first r then find_range_loop f table first step cp
            else if cp <=? r_last r then Some r
            else find_range_loop f table (S halfway) (len - (step + 1)) cp
        end
  end.

(** utf8.hpp:21-43 [find_range]. *)
Definition find_range (table : list range) (cp : N) : option range :=
  find_range_loop (S (List.length table)) table 0 (List.length table) cp.

(** ** Grapheme clusters *)

(** grapheme_cluster_break.hpp:18-34: the enumerators that the rules mention. *)
Definition G_any : N := 0.
Definition G_CR : N := 1.
Definition G_LF : N := 2.
Definition G_extend : N := 4.
Definition G_ZWJ : N := 5.
Definition G_RI : N := 6.
Definition G_prepend : N := 7.
Definition G_spacing_mark : N := 8.
Definition G_L : N := 9.
Definition G_V : N := 10.
Definition G_T : N := 11.
Definition G_LV : N := 12.
Definition G_LVT : N := 13.
Definition G_ext_pict : N := 14.

(** A trailing window [std::array<class, 16>]; index 0 is the most recent class
    (utf8.hpp:270, config.hpp AR_UTF8_TRAILING_WINDOW_SIZE = 16). *)
Definition window := list N.

(** config.hpp AR_UTF8_TRAILING_WINDOW_SIZE. *)
Definition window_size : nat := 16.

(** utf8.hpp:207-213, 464-470 [fill_trailing_window]. *)
Definition fresh_window : window := repeat 0 window_size.

(** utf8.hpp:215-226 and 247 [rotate_trailing_window] followed by [front() = c]. *)
Definition push_window (c : N) (w : window) : window := c :: firstn (List.length w - 1) w.

(** [trailing_window[i]]; the window always has 16 elements. *)
Definition win (w : window) (i : nat) : N := nth i w 0.

(** Number of leading elements of the window equal to [c]
    (grapheme_cluster_break.hpp:209-214, line_break.hpp:650-655). *)
Fixpoint lead_run (c : N) (w : window) : nat :=
  match w with
  | [] => O
  | x :: w' => if N.eqb x c then S (lead_run c w') else O
  end.

(** grapheme_cluster_break.hpp:52-58 *)
Definition GB3 (w : window) (n : N) := N.eqb (win w 0) G_CR && N.eqb n G_LF.
(** grapheme_cluster_break.hpp:70-79 *)
Definition GB6 (w : window) (n : N) :=
  N.eqb (win w 0) G_L && (N.eqb n G_L || N.eqb n G_V || N.eqb n G_LV || N.eqb n G_LVT).
(** grapheme_cluster_break.hpp:91-99 *)
Definition GB7 (w : window) (n : N) :=
  (N.eqb (win w 0) G_LV || N.eqb (win w 0) G_V) && (N.eqb n G_V || N.eqb n G_T).
(** grapheme_cluster_break.hpp:111-118 *)
Definition GB8 (w : window) (n : N) :=
  (N.eqb (win w 0) G_LVT || N.eqb (win w 0) G_T) && N.eqb n G_T.
(** grapheme_cluster_break.hpp:130-136 *)
Definition GB9 (w : window) (n : N) := N.eqb n G_extend || N.eqb n G_ZWJ.
(** grapheme_cluster_break.hpp:148-153 *)
Definition GB9a (w : window) (n : N) := N.eqb n G_spacing_mark.
(** grapheme_cluster_break.hpp:165-171 *)
Definition GB9b (w : window) (n : N) := N.eqb (win w 0) G_prepend.
(** grapheme_cluster_break.hpp:183-190 *)
Definition GB11 (w : window) (n : N) := N.eqb (win w 0) G_ZWJ && N.eqb n G_ext_pict.
(** grapheme_cluster_break.hpp:202-217 *)
Definition GB12_13 (w : window) (n : N) := Nat.odd (lead_run G_RI w) && N.eqb n G_RI.

(** grapheme_cluster_break.hpp:224-232 *)
Definition grapheme_rules : list (window -> N -> bool) :=
  [GB3; GB6; GB7; GB8; GB9; GB9a; GB9b; GB11; GB12_13].

(** utf8.hpp:196-205, 453-462 [should_break]. *)
Definition should_break (rules : list (window -> N -> bool)) (w : window) (next : N) : bool :=
  negb (existsb (fun r => r w next) rules).

(** utf8.hpp:184-194, 442-451 [extract_class]; class [any] is 0. *)
Definition extract_class (table : list range) (cp : N) : N :=
  match find_range table cp with
  | Some r => r_meta r
  | None => 0
  end.

(** utf8.hpp:255-258, 548-551: class of a neighbouring code point string, [any] if undecodable. *)
Definition class_of (table : list range) (s : bytes) : N :=
  match cp_decode s with
  | Some cp => extract_class table cp
  | None => 0
  end.

(** utf8.hpp:250-260, 543-553: [next_break_class]. *)
Definition next_class (table : list range) (rest : list bytes) : N :=
  match rest with
  | [] => 0
  | d :: _ => class_of table d
  end.

(** utf8.hpp:48-271: full traversal by the grapheme cluster [iterator] of a string whose code points
    are [cps] (utf8.hpp:228-266 [update_current] for each cluster, utf8.hpp:158-167 [operator++]).
    The window is filled once and kept between the clusters.  [cur] is the part of the current
    cluster read so far.  Simplification: the code points are split up front; a complete traversal
    reaches undefined behaviour exactly when splitting fails. *)
Fixpoint clusters (w : window) (cur : bytes) (cps : list bytes) : list bytes :=
  match cps with
  | [] => match cur with [] => [] | _ => [cur] end
  | c :: rest =>
      match cp_decode c with
      | None => clusters w (cur ++ c) rest
      | Some cp =>
          let w' := push_window (extract_class grapheme_table cp) w in
          if should_break grapheme_rules w' (next_class grapheme_table rest)
          then (cur ++ c) :: clusters w' [] rest
          else clusters w' (cur ++ c) rest
      end
  end.

(** All the grapheme clusters of [s]; [None] is undefined behaviour (truncated last code point). *)
Definition graphemes (s : bytes) : option (list bytes) :=
  option_map (clusters fresh_window []) (cp_split s).

(** utf8.hpp:278-281 [count]. *)
Definition gcount (s : bytes) : option nat := option_map (@List.length bytes) (graphemes s).

(** ** Whitespace and widths *)

(** utf8.hpp:289-297 [is_whitespace]. *)
Definition is_whitespace (s : bytes) : bool :=
  match cp_decode s with
  | None => false
  | Some cp => match find_range whitespace_tab cp with Some _ => true | None => false end
  end.

(** utf8.hpp:304-313 [contains_whitespace].  The early return is modelled: code points behind the
    first whitespace are not looked at. *)
Fixpoint contains_ws_fuel (fuel : nat) (s : bytes) : option bool :=
  match s with
  | [] => Some false
  | _ :: _ =>
      match fuel with
      | O => None
      | S f =>
          let n := cp_size s in
          if is_whitespace (firstn n s) then Some true
          else if Nat.ltb (List.length s) n then None
          else contains_ws_fuel f (skipn n s)
      end
  end.

(** utf8.hpp:304-313 *)
Definition contains_whitespace (s : bytes) : option bool := contains_ws_fuel (List.length s) s.

(** utf8.hpp:325-334: the columns needed by one code point string. *)
Definition cp_width (s : bytes) : nat :=
  match cp_decode s with
  | None => O
  | Some cp =>
      match find_range double_width_tab cp with
      | Some _ => 2%nat
      | None => match find_range zero_width_tab cp with Some _ => O | None => 1%nat end
      end
  end.

(** utf8.hpp:321-338 [terminal_width] over already split code points. *)
Definition cps_width (cps : list bytes) : nat := list_sum (map cp_width cps).

(** utf8.hpp:321-338 [terminal_width]; [None] is undefined behaviour. *)
Definition terminal_width (s : bytes) : option nat := option_map cps_width (cp_split s).

(** ** Line breaking *)

(** line_break.hpp:15-55: enumerator values in declaration order. *)
Definition L_AL : N := 1. Definition L_BA : N := 2. Definition L_BB : N := 3.
Definition L_B2 : N := 4. Definition L_BK : N := 5. Definition L_CL : N := 7.
Definition L_CM : N := 8. Definition L_CP : N := 9. Definition L_CR : N := 10.
Definition L_EB : N := 11. Definition L_EM : N := 12. Definition L_EX : N := 13.
Definition L_GL : N := 14. Definition L_H2 : N := 15. Definition L_H3 : N := 16.
Definition L_HY : N := 17. Definition L_ID : N := 18. Definition L_HL : N := 19.
Definition L_IN : N := 20. Definition L_IS : N := 21. Definition L_JL : N := 22.
Definition L_JT : N := 23. Definition L_JV : N := 24. Definition L_LF : N := 25.
Definition L_NL : N := 26. Definition L_NS : N := 27. Definition L_NU : N := 28.
Definition L_OP : N := 29. Definition L_PO : N := 30. Definition L_PR : N := 31.
Definition L_QU : N := 32. Definition L_RI : N := 33. Definition L_SP : N := 34.
Definition L_SY : N := 35. Definition L_WJ : N := 36. Definition L_ZW : N := 37.
Definition L_ZWJ : N := 38.

(** [x] is one of the classes in [l]. *)
Definition isin (x : N) (l : list N) : bool := existsb (N.eqb x) l.

(** line_break.hpp:69-77 *)
Definition LB6 (w : window) (n : N) := isin n [L_BK; L_CR; L_LF; L_NL].
(** line_break.hpp:89-95 *)
Definition LB7 (w : window) (n : N) := isin n [L_SP; L_ZW].
(** line_break.hpp:107-113 *)
Definition LB8a_9 (w : window) (n : N) := isin (win w 0) [L_CM; L_ZWJ].
(** line_break.hpp:125-131 *)
Definition LB11 (w : window) (n : N) := N.eqb (win w 0) L_WJ || N.eqb n L_WJ.
(** line_break.hpp:143-148 *)
Definition LB12 (w : window) (n : N) := N.eqb (win w 0) L_GL.
(** line_break.hpp:160-168 *)
Definition LB12a (w : window) (n : N) := negb (isin (win w 0) [L_SP; L_BA; L_HY]) && N.eqb n L_GL.
(** line_break.hpp:180-189 *)
Definition LB13 (w : window) (n : N) := isin n [L_CL; L_CP; L_EX; L_IS; L_SY].

(** line_break.hpp:206-213 and alike: first element that is not SP. *)
Fixpoint skip_sp (w : window) : option N :=
  match w with
  | [] => None
  | x :: w' => if N.eqb x L_SP then skip_sp w' else Some x
  end.

(** line_break.hpp:201-216 *)
Definition LB14 (w : window) (n : N) :=
  match skip_sp w with Some x => N.eqb x L_OP | None => false end.
(** line_break.hpp:228-244 *)
Definition LB15 (w : window) (n : N) :=
  match skip_sp w with Some x => N.eqb x L_QU && N.eqb n L_OP | None => false end.
(** line_break.hpp:257-273 *)
Definition LB16 (w : window) (n : N) :=
  match skip_sp w with Some x => isin x [L_CL; L_CP] && N.eqb n L_NS | None => false end.
(** line_break.hpp:285-301 *)
Definition LB17 (w : window) (n : N) :=
  match skip_sp w with Some x => N.eqb x L_B2 && N.eqb n L_B2 | None => false end.
(** line_break.hpp:313-319 *)
Definition LB19 (w : window) (n : N) := N.eqb n L_QU || N.eqb (win w 0) L_QU.
(** line_break.hpp:332-340 *)
Definition LB21 (w : window) (n : N) := isin n [L_BA; L_HY; L_NS] || N.eqb (win w 0) L_BB.
(** line_break.hpp:352-359 *)
Definition LB21a (w : window) (n : N) := N.eqb (win w 1) L_HL && isin (win w 0) [L_HY; L_BA].
(** line_break.hpp:371-377 *)
Definition LB21b (w : window) (n : N) := N.eqb (win w 0) L_SY && N.eqb n L_HL.
(** line_break.hpp:389-394 *)
Definition LB22 (w : window) (n : N) := N.eqb n L_IN.
(** line_break.hpp:406-416 *)
Definition LB23 (w : window) (n : N) :=
  (isin (win w 0) [L_AL; L_HL] && N.eqb n L_NU) || (N.eqb (win w 0) L_NU && isin n [L_AL; L_HL]).
(** line_break.hpp:429-441 *)
Definition LB23a (w : window) (n : N) :=
  (N.eqb (win w 0) L_PR && isin n [L_ID; L_EB; L_EM])
  || (isin (win w 0) [L_ID; L_EB; L_EM] && N.eqb n L_PO).
(** line_break.hpp:454-466 *)
Definition LB24 (w : window) (n : N) :=
  (isin (win w 0) [L_PR; L_PO] && isin n [L_AL; L_HL])
  || (isin (win w 0) [L_AL; L_HL] && isin n [L_PR; L_PO]).
(** line_break.hpp:478-507 *)
Definition LB25 (w : window) (n : N) :=
  existsb (fun p => N.eqb (win w 0) (fst p) && N.eqb n (snd p))
    [(L_CL, L_PO); (L_CP, L_PO); (L_CL, L_PR); (L_CP, L_PR); (L_NU, L_PO); (L_NU, L_PR);
     (L_PO, L_OP); (L_PO, L_NU); (L_PR, L_OP); (L_PR, L_NU); (L_HY, L_NU); (L_IS, L_NU);
     (L_NU, L_NU); (L_SY, L_NU)].
(** line_break.hpp:519-535 *)
Definition LB26 (w : window) (n : N) :=
  (N.eqb (win w 0) L_JL && isin n [L_JL; L_JV; L_H2; L_H3])
  || (isin (win w 0) [L_JV; L_H2] && isin n [L_JV; L_JT])
  || (isin (win w 0) [L_JT; L_H3] && N.eqb n L_JT).
(** line_break.hpp:547-563 *)
Definition LB27 (w : window) (n : N) :=
  (isin (win w 0) [L_JL; L_JV; L_JT; L_H2; L_H3] && N.eqb n L_PO)
  || (N.eqb (win w 0) L_PR && isin n [L_JL; L_JV; L_JT; L_H2; L_H3]).
(** line_break.hpp:575-583 *)
Definition LB28 (w : window) (n : N) := isin (win w 0) [L_AL; L_HL] && isin n [L_AL; L_HL].
(** line_break.hpp:595-602 *)
Definition LB29 (w : window) (n : N) := N.eqb (win w 0) L_IS && isin n [L_AL; L_HL].
(** line_break.hpp:619-631 *)
Definition LB30 (w : window) (n : N) :=
  (isin (win w 0) [L_AL; L_HL; L_NU] && N.eqb n L_OP)
  || (N.eqb (win w 0) L_CP && isin n [L_AL; L_HL; L_NU]).
(** line_break.hpp:644-658 *)
Definition LB30a (w : window) (n : N) := Nat.odd (lead_run L_RI w) && N.eqb n L_RI.
(** line_break.hpp:672-678 *)
Definition LB30b (w : window) (n : N) := N.eqb (win w 0) L_EB && N.eqb n L_EM.

(** line_break.hpp:685-689 *)
Definition line_rules : list (window -> N -> bool) :=
  [LB6; LB7; LB8a_9; LB11; LB12; LB12a; LB13; LB14; LB15; LB16; LB17; LB19; LB21; LB21a; LB21b;
   LB22; LB23; LB23a; LB24; LB25; LB26; LB27; LB28; LB29; LB30; LB30a; LB30b].

(** utf8.hpp:343-569: the data members of [line_iterator], with the string held as its code points
    (same simplification as for the grapheme iterator); [li_brk] counts code points instead of bytes,
    which is the same place because [bytes] only ever advances by whole code points. *)
Record line_it := mk_line_it {
  li_str : list bytes;     (* str_ *)
  li_max : nat;            (* max_columns_ *)
  li_brk : nat;            (* line_break_byte_, in code points *)
  li_win : window          (* trailing_window_ *)
}.

(** utf8.hpp:513-562: the scanning loop of [consume].  [column], [n] (code points so far),
    [lb_col], [lb_n] are the four local variables; [total] is the code point count of [str_].
    Returns the new [line_break_byte_] and window. *)
Fixpoint line_scan (max : nat) (w : window) (column n lb_col lb_n : nat) (cps : list bytes)
  : nat * window :=
  match cps with
  | [] => (n, w)
  | c :: rest =>
      let column := (column + cp_width c)%nat in
      if Nat.ltb max column then ((if Nat.eqb lb_col 0 then n else lb_n), w)
      else
        let n := S n in
        match cp_decode c with
        | None => line_scan max w column n lb_col lb_n rest
        | Some cp =>
            let w := push_window (extract_class line_table cp) w in
            if should_break line_rules w (next_class line_table rest)
            then line_scan max w column n column n rest
            else line_scan max w column n lb_col lb_n rest
        end
  end.

(** utf8.hpp:496-504: drop leading whitespace code points. *)
Fixpoint skip_ws (cps : list bytes) : list bytes :=
  match cps with
  | [] => []
  | c :: rest => if is_whitespace c then skip_ws rest else cps
  end.

(** utf8.hpp:485-563 [consume]. *)
Definition line_consume (it : line_it) : line_it :=
  match li_str it with
  | [] => it
  | _ :: _ =>
      let str1 := if Nat.eqb (li_brk it) 0 then li_str it
                  else skip_ws (skipn (li_brk it) (li_str it)) in
      match str1 with
      | [] => mk_line_it [] (li_max it) 0 (li_win it)
      | _ :: _ =>
          let '(brk, w) := line_scan (li_max it) (li_win it) 0 0 0 0 str1 in
          mk_line_it str1 (li_max it) brk w
      end
  end.

(** utf8.hpp:370-379: constructor. *)
Definition line_begin (cps : list bytes) (max : nat) : line_it :=
  line_consume (mk_line_it (if Nat.eqb max 0 then [] else cps) max 0 fresh_window).

(** utf8.hpp:416-419 [operator*]. *)
Definition line_deref (it : line_it) : list bytes := firstn (li_brk it) (li_str it).

(** The loop [for (it = line_iterator{str, max}; it != line_iterator{}; ++it)] used by the help
    formatters (default_help_formatter.hpp:110-124): the list of dereferenced lines;
    [None] when [fuel] increments did not reach the end iterator. *)
Fixpoint lines_from (fuel : nat) (it : line_it) : option (list (list bytes)) :=
  match li_str it with
  | [] => Some []
  | _ :: _ =>
      match fuel with
      | O => None
      | S f => option_map (cons (line_deref it)) (lines_from f (line_consume it))
      end
  end.

(** Specification for C63 and C64: where Unicode text may be cut.  The rules are written over the
    classes of all the code points before a position (nearest first) and of the one behind it. *)
From Verif Require Import Bytes TabGrapheme TabLine TabWhitespace TabZero TabDouble.
Local Open Scope N_scope.

(** ** User-perceived characters: Unicode Standard Annex #29, section 3.1.1 *)

(** The values of Grapheme_Cluster_Break, with Extended_Pictographic. *)
Inductive gclass :=
| g_other | g_cr | g_lf | g_control | g_extend | g_zwj | g_ri | g_prepend | g_spacing
| g_L | g_V | g_T | g_LV | g_LVT | g_pict.

(** The number by which each is written in the library's table
    (utility/utf8/grapheme_cluster_break.hpp:18-34). *)
Definition g_number (k : gclass) : N :=
  match k with
  | g_other => 0 | g_cr => 1 | g_lf => 2 | g_control => 3 | g_extend => 4 | g_zwj => 5 | g_ri => 6
  | g_prepend => 7 | g_spacing => 8 | g_L => 9 | g_V => 10 | g_T => 11 | g_LV => 12 | g_LVT => 13
  | g_pict => 14
  end.

(** [c] has number [x] in a table with rows (first, last, number); 0 if it is in no row. *)
Definition listed_as (rows : list (N * N * N)) (c x : N) : Prop :=
  (exists f l, In (f, l, x) rows /\ f <= c <= l)
  \/ (x = 0 /\ forall f l m, In (f, l, m) rows -> ~ f <= c <= l).

Definition g_class_is (c : N) (k : gclass) : Prop :=
  listed_as grapheme_cluster_break_table_rows c (g_number k).

Definition g_controls : list gclass := [g_control; g_cr; g_lf].

(** No boundary between what is before and what comes next, by the annex. *)
Inductive unparted : list gclass -> gclass -> Prop :=
| GB3 p : unparted (g_cr :: p) g_lf
| GB6 p n : In n [g_L; g_V; g_LV; g_LVT] -> unparted (g_L :: p) n
| GB7 a p n : In a [g_LV; g_V] -> In n [g_V; g_T] -> unparted (a :: p) n
| GB8 a p : In a [g_LVT; g_T] -> unparted (a :: p) g_T
| GB9 a p n : ~ In a g_controls -> In n [g_extend; g_zwj] -> unparted (a :: p) n
| GB9a a p : ~ In a g_controls -> unparted (a :: p) g_spacing
| GB9b p n : ~ In n g_controls -> unparted (g_prepend :: p) n
| GB11 k p : unparted (g_zwj :: repeat g_extend k ++ g_pict :: p) g_pict
| GB12_13 k p : hd_error p <> Some g_ri -> unparted (repeat g_ri (2 * k + 1) ++ p) g_ri.

(** The same as the library does it: also behind and before control characters, joining whatever is
    in front of the joiner to a pictograph, and not for 16 or more regional indicators in a row. *)
Inductive unparted_here : list gclass -> gclass -> Prop :=
| here_GB3 p : unparted_here (g_cr :: p) g_lf
| here_GB6 p n : In n [g_L; g_V; g_LV; g_LVT] -> unparted_here (g_L :: p) n
| here_GB7 a p n : In a [g_LV; g_V] -> In n [g_V; g_T] -> unparted_here (a :: p) n
| here_GB8 a p : In a [g_LVT; g_T] -> unparted_here (a :: p) g_T
| here_GB9 p n : In n [g_extend; g_zwj] -> unparted_here p n
| here_GB9a p : unparted_here p g_spacing
| here_GB9b p n : unparted_here (g_prepend :: p) n
| here_GB11 p : unparted_here (g_zwj :: p) g_pict
| here_GB12_13 k p : hd_error p <> Some g_ri -> (2 * k + 1 < 16)%nat ->
    unparted_here (repeat g_ri (2 * k + 1) ++ p) g_ri.

(** The positions that the library treats as the annex does. *)
Definition g_usual (before : list gclass) (next : gclass) : Prop :=
  (forall a p, before = a :: p -> In a g_controls -> ~ In next [g_extend; g_zwj; g_spacing])
  /\ (forall p, before = g_prepend :: p -> ~ In next g_controls)
  /\ (forall p, before = g_zwj :: p -> next = g_pict -> exists k q, p = repeat g_extend k ++ g_pict :: q)
  /\ (forall k p, before = repeat g_ri k ++ p -> next = g_ri -> (k <= 16)%nat).

(** ** Line breaking: Unicode Standard Annex #14, section 6 *)

(** The values of Line_Break that the library knows; the others are [l_any]. *)
Inductive lclass :=
| l_any | AL | BA | BB | B2 | BK | CB | CL | CM | CP | CR | EB | EM | EX | GL | H2 | H3 | HY | ID | HL
| IN | IS | JL | JT | JV | LF | NL | NS | NU | OP | PO | PR | QU | RI | SP | SY | WJ | ZW | ZWJ.

(** The number by which each is written in the library's table (utility/utf8/line_break.hpp:15-55). *)
Definition l_number (k : lclass) : N :=
  match k with
  | l_any => 0 | AL => 1 | BA => 2 | BB => 3 | B2 => 4 | BK => 5 | CB => 6 | CL => 7 | CM => 8
  | CP => 9 | CR => 10 | EB => 11 | EM => 12 | EX => 13 | GL => 14 | H2 => 15 | H3 => 16 | HY => 17
  | ID => 18 | HL => 19 | IN => 20 | IS => 21 | JL => 22 | JT => 23 | JV => 24 | LF => 25 | NL => 26
  | NS => 27 | NU => 28 | OP => 29 | PO => 30 | PR => 31 | QU => 32 | RI => 33 | SP => 34 | SY => 35
  | WJ => 36 | ZW => 37 | ZWJ => 38
  end.

Definition l_class_is (c : N) (k : lclass) : Prop :=
  listed_as line_break_table_rows c (l_number k).

(** No line break between what is before and what comes next, as the library reads the rules of the
    annex. *)
Inductive unbroken : list lclass -> lclass -> Prop :=
| LB6 p n : In n [BK; CR; LF; NL] -> unbroken p n
| LB7 p n : In n [SP; ZW] -> unbroken p n
| LB8a_9 a p n : In a [CM; ZWJ] -> unbroken (a :: p) n
| LB11_before p : unbroken p WJ
| LB11_after p n : unbroken (WJ :: p) n
| LB12 p n : unbroken (GL :: p) n
| LB12a a p : ~ In a [SP; BA; HY] -> unbroken (a :: p) GL
| LB13 p n : In n [CL; CP; EX; IS; SY] -> unbroken p n
| LB14 k p n : (k < 16)%nat -> unbroken (repeat SP k ++ OP :: p) n
| LB15 k p : (k < 16)%nat -> unbroken (repeat SP k ++ QU :: p) OP
| LB16 k a p : (k < 16)%nat -> In a [CL; CP] -> unbroken (repeat SP k ++ a :: p) NS
| LB17 k p : (k < 16)%nat -> unbroken (repeat SP k ++ B2 :: p) B2
| LB19_before p : unbroken p QU
| LB19_after p n : unbroken (QU :: p) n
| LB21_before p n : In n [BA; HY; NS] -> unbroken p n
| LB21_after p n : unbroken (BB :: p) n
| LB21a a p n : In a [HY; BA] -> unbroken (a :: HL :: p) n
| LB21b p : unbroken (SY :: p) HL
| LB22 p : unbroken p IN
| LB23_number a p : In a [AL; HL] -> unbroken (a :: p) NU
| LB23_letter p n : In n [AL; HL] -> unbroken (NU :: p) n
| LB23a_prefix p n : In n [ID; EB; EM] -> unbroken (PR :: p) n
| LB23a_postfix a p : In a [ID; EB; EM] -> unbroken (a :: p) PO
| LB24_letter a p n : In a [PR; PO] -> In n [AL; HL] -> unbroken (a :: p) n
| LB24_fix a p n : In a [AL; HL] -> In n [PR; PO] -> unbroken (a :: p) n
| LB25 a p n :
    In (a, n) [(CL, PO); (CP, PO); (CL, PR); (CP, PR); (NU, PO); (NU, PR); (PO, OP); (PO, NU);
               (PR, OP); (PR, NU); (HY, NU); (IS, NU); (NU, NU); (SY, NU)] -> unbroken (a :: p) n
| LB26_L p n : In n [JL; JV; H2; H3] -> unbroken (JL :: p) n
| LB26_V a p n : In a [JV; H2] -> In n [JV; JT] -> unbroken (a :: p) n
| LB26_T a p : In a [JT; H3] -> unbroken (a :: p) JT
| LB27_postfix a p : In a [JL; JV; JT; H2; H3] -> unbroken (a :: p) PO
| LB27_prefix p n : In n [JL; JV; JT; H2; H3] -> unbroken (PR :: p) n
| LB28 a p n : In a [AL; HL] -> In n [AL; HL] -> unbroken (a :: p) n
| LB29 p n : In n [AL; HL] -> unbroken (IS :: p) n
| LB30_open a p : In a [AL; HL; NU] -> unbroken (a :: p) OP
| LB30_close p n : In n [AL; HL; NU] -> unbroken (CP :: p) n
| LB30a k p : hd_error p <> Some RI -> (2 * k + 1 < 16)%nat -> unbroken (repeat RI (2 * k + 1) ++ p) RI
| LB30b p : unbroken (EB :: p) EM.

(** ** Lines *)

(** [c] is in some row of a table. *)
Definition in_rows (rows : list (N * N * N)) (c : N) : Prop :=
  exists f l m, In (f, l, m) rows /\ f <= c <= l.

Definition white (c : N) : Prop := in_rows whitespace_table_rows c.

(** Terminal columns of a code point, and of a text. *)
Inductive takes : N -> nat -> Prop :=
| takes_two c : in_rows double_width_table_rows c -> takes c 2
| takes_none c : ~ in_rows double_width_table_rows c -> in_rows zero_width_table_rows c -> takes c 0
| takes_one c : ~ in_rows double_width_table_rows c -> ~ in_rows zero_width_table_rows c -> takes c 1.

Inductive text_takes : list N -> nat -> Prop :=
| text_takes_nil : text_takes [] 0
| text_takes_cons c cs x y : takes c x -> text_takes cs y -> text_takes (c :: cs) (x + y).

(** What is seen before the beginning of a text. *)
Definition nothing_before : list lclass := repeat l_any 16.

(** A line may end behind [p] and before [c]; [h] is what was read before [p]. *)
Definition place (h : list lclass) (p : list N) (c : N) : Prop :=
  p <> [] /\ exists ks k, Forall2 l_class_is p ks /\ l_class_is c k /\ ~ unbroken (rev ks ++ h) k.

(** [fitted] is as much of the text as fits, [over] the rest. *)
Definition fill (max : nat) (fitted over : list N) : Prop :=
  (exists x, text_takes fitted x /\ (x <= max)%nat)
  /\ match over with
     | [] => True
     | c :: _ => exists x, text_takes (fitted ++ [c]) x /\ (max < x)%nat
     end.

(** The first line of a text: all of it if it fits; or else up to the last place that fits; if there
    is no such place, all that fits. *)
Inductive first_line (max : nat) (h : list lclass) (fitted over : list N) : list N -> Prop :=
| whole_text : over = [] -> first_line max h fitted over fitted
| last_place line c more x :
    over <> [] -> fitted ++ over = line ++ c :: more -> place h line c ->
    text_takes line x -> (0 < x)%nat -> (List.length line <= List.length fitted)%nat ->
    (forall line' c' more', fitted ++ over = line' ++ c' :: more' -> place h line' c' ->
       (List.length line' <= List.length fitted)%nat -> (List.length line' <= List.length line)%nat) ->
    first_line max h fitted over line
| no_place :
    over <> [] ->
    (forall line' c' more' x', fitted ++ over = line' ++ c' :: more' -> place h line' c' ->
       (List.length line' <= List.length fitted)%nat -> text_takes line' x' -> x' = 0%nat) ->
    first_line max h fitted over fitted.

(** The whole text: line after line, with the white space behind each removed.  What has been read
    before the next line is all that fitted, not only the line. *)
Inductive laid_out (max : nat) : list lclass -> list N -> list (list N) -> Prop :=
| laid_none h : laid_out max h [] []
| laid_line h fitted over line gap rest lines ks :
    fitted ++ over = line ++ gap ++ rest -> line <> [] ->
    fill max fitted over -> first_line max h fitted over line ->
    Forall white gap -> match rest with [] => True | c :: _ => ~ white c end ->
    Forall2 l_class_is fitted ks ->
    laid_out max (rev ks ++ h) rest lines ->
    laid_out max h (fitted ++ over) (line :: lines).

(** [gs] has a boundary behind its first part [s]. *)
Definition cut_at (gs : list bytes) (s : bytes) : Prop :=
  exists g1 g2, gs = g1 ++ g2 /\ List.concat g1 = s.

(** A word: letters and digits, then closing punctuation; it takes at least one column and has no
    white space in it. *)
Definition prose_word (w : list N) : Prop :=
  (exists stem tail ks kt, w = stem ++ tail /\ stem <> []
     /\ Forall2 l_class_is stem ks /\ Forall (fun k => In k [AL; HL; NU]) ks
     /\ Forall2 l_class_is tail kt /\ Forall (fun k => In k [CL; CP; EX; IS; SY]) kt)
  /\ (exists x, text_takes w x /\ (0 < x)%nat)
  /\ Forall (fun c => ~ white c) w.

(** Words with one space between them. *)
Fixpoint sentence (ws : list (list N)) : list N :=
  match ws with
  | [] => []
  | [w] => w
  | w :: more => w ++ 32 :: sentence more
  end.

(** The line of a group of words: they stand in it whole, with or without the space behind them. *)
Definition line_of (g : list (list N)) (line : list N) : Prop :=
  g <> [] /\ (line = sentence g \/ line = sentence g ++ [32]).

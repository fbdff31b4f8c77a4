(** C63 and C64. *)
From Verif Require Import Bytes CodePoint Utf8 SpecUtf8 SpecLines SpecBreaks.
From Verif Require Import TabGrapheme TabLine TabWhitespace TabZero TabDouble.
From Verif Require Import CodePointProofs Utf8Proofs LineProofs BreakProofs LayoutProofs ProseProofs.

(** C63: the clusters of a text have a boundary behind [cs] and before [n] exactly if no rule joins
    them; the rules are [unparted_here] of SpecBreaks.v. *)
Theorem c63_boundaries : forall cs n rest ks kn,
  Forall scalar (cs ++ n :: rest) -> Forall (fun c => ~ boundary_lead c) (cs ++ n :: rest) -> cs <> [] ->
  Forall2 g_class_is cs ks -> g_class_is n kn ->
  (exists gs, graphemes (encode_all (cs ++ n :: rest)) = Some gs /\ cut_at gs (encode_all cs))
  <-> ~ unparted_here (rev ks) kn.
Proof. exact graphemes_cut. Qed.
Print Assumptions c63_boundaries.

(** C63, partial: the boundaries are those of Unicode Standard Annex #29.  Missing are the positions
    that are not [g_usual], for which it is false, see below. *)
Theorem c63_standard_partial : forall cs n rest ks kn,
  Forall scalar (cs ++ n :: rest) -> Forall (fun c => ~ boundary_lead c) (cs ++ n :: rest) -> cs <> [] ->
  Forall2 g_class_is cs ks -> g_class_is n kn -> g_usual (rev ks) kn ->
  (exists gs, graphemes (encode_all (cs ++ n :: rest)) = Some gs /\ cut_at gs (encode_all cs))
  <-> ~ unparted (rev ks) kn.
Proof. exact graphemes_standard. Qed.
Print Assumptions c63_standard_partial.

(** C63: three of the positions that are missing: a line feed and a combining mark; a letter, a joiner
    and a pictograph; seventeen regional indicators and one more. *)
Theorem c63_control_refuted : exists gs,
  graphemes (encode_all [10; 769])%N = Some gs /\ ~ cut_at gs (encode_all [10]%N)
  /\ g_class_is 10 g_lf /\ g_class_is 769 g_extend /\ ~ unparted [g_lf] g_extend.
Proof. exact control_witness. Qed.
Print Assumptions c63_control_refuted.

Theorem c63_joiner_refuted : exists gs,
  graphemes (encode_all [97; 8205; 128512])%N = Some gs /\ ~ cut_at gs (encode_all [97; 8205]%N)
  /\ g_class_is 97 g_other /\ g_class_is 8205 g_zwj /\ g_class_is 128512 g_pict
  /\ ~ unparted [g_zwj; g_other] g_pict.
Proof. exact joiner_witness. Qed.
Print Assumptions c63_joiner_refuted.

Theorem c63_flags_refuted : exists gs,
  graphemes (encode_all (repeat 127462%N 18)) = Some gs /\ cut_at gs (encode_all (repeat 127462%N 17))
  /\ g_class_is 127462 g_ri /\ unparted (repeat g_ri 17) g_ri.
Proof. exact flags_witness. Qed.
Print Assumptions c63_flags_refuted.

(** A man, a joiner and a laptop are one character; the flag that follows begins another. *)
Example c63_example :
  let cs := [128104; 8205]%N in let ks := [g_pict; g_zwj] in
  Forall scalar (cs ++ 128187%N :: [127462%N]) /\ Forall (fun c => ~ boundary_lead c) (cs ++ 128187%N :: [127462%N])
  /\ Forall2 g_class_is cs ks /\ g_class_is 128187 g_pict /\ g_usual (rev ks) g_pict /\ unparted (rev ks) g_pict
  /\ ~ unparted [g_pict; g_zwj; g_pict] g_ri.
Proof. exact boundaries_example. Qed.

(** C64: the lines are those of [laid_out] of SpecBreaks.v: each is the text up to the last place that
    fits where no rule of [unbroken] forbids a break, or all that fits if there is none. *)
Theorem c64_layout : forall cs columns steps lines,
  Forall scalar cs -> Forall (fun c => ~ boundary_lead c) cs -> columns <> 0 ->
  iterates_to (map encode cs) columns steps lines ->
  exists nlines, lines = map (map encode) nlines /\ laid_out columns nothing_before cs nlines.
Proof. exact lines_exact. Qed.
Print Assumptions c64_layout.

(** C64: there is one such layout. *)
Theorem c64_layout_unique : forall columns h cs lines1 lines2,
  laid_out columns h cs lines1 -> laid_out columns h cs lines2 -> lines1 = lines2.
Proof. exact laid_out_unique. Qed.
Print Assumptions c64_layout_unique.

(** C64: in prose every word stands whole in one line if it fits. *)
Theorem c64_prose : forall ws columns steps lines,
  Forall scalar (sentence ws) -> Forall (fun c => ~ boundary_lead c) (sentence ws) -> columns <> 0 ->
  Forall prose_word ws -> Forall (fun w => exists x, text_takes w x /\ x <= columns) ws ->
  iterates_to (map encode (sentence ws)) columns steps lines ->
  exists groups nlines, lines = map (map encode) nlines /\ List.concat groups = ws /\ Forall2 line_of groups nlines.
Proof. exact prose_lines. Qed.
Print Assumptions c64_prose.

(** "Prints it, now." in seven columns. *)
Example c64_example :
  let ws := [[80; 114; 105; 110; 116; 115]; [105; 116; 44]; [110; 111; 119; 46]]%N in
  Forall scalar (sentence ws) /\ Forall (fun c => ~ boundary_lead c) (sentence ws)
  /\ Forall prose_word ws /\ Forall (fun w => exists x, text_takes w x /\ x <= 7) ws
  /\ iterates_to (map encode (sentence ws)) 7 3
       (map (map encode) [[80; 114; 105; 110; 116; 115; 32]; [105; 116; 44; 32]; [110; 111; 119; 46]]%N).
Proof. exact prose_example. Qed.

(** C64 is false of other words: one that begins with a hyphen, as the names of arguments do, is
    joined to the word before it, and then cut.  "abcd --ef" in six columns. *)
Theorem c64_words_refuted : exists w1 w2 columns steps line1 line2,
  text_takes w1 4 /\ text_takes w2 4 /\ columns = 6
  /\ iterates_to (map encode (sentence [w1; w2])) columns steps [map encode line1; map encode line2]
  /\ line1 ++ line2 = sentence [w1; w2] /\ exists c, last line1 32%N = c /\ ~ white c.
Proof. exact words_witness. Qed.
Print Assumptions c64_words_refuted.

(** C64 is false of characters: a line ends between a letter and its combining mark, and between the
    halves of a flag. *)
Theorem c64_mark_refuted : exists cs columns steps line more gs,
  iterates_to (map encode cs) columns steps (line :: more)
  /\ graphemes (encode_all cs) = Some gs /\ ~ cut_at gs (List.concat line).
Proof. exact mark_witness. Qed.
Print Assumptions c64_mark_refuted.

Theorem c64_flag_refuted : exists cs columns steps line1 line2 more gs,
  iterates_to (map encode cs) columns steps (line1 :: line2 :: more)
  /\ graphemes (encode_all cs) = Some gs
  /\ cut_at gs (List.concat line1) /\ ~ cut_at gs (List.concat line1 ++ List.concat line2)
  /\ Forall (fun g => List.length g <= 8) gs /\ Forall (fun c => l_class_is c RI) cs /\ List.length cs = 6.
Proof. exact flag_witness. Qed.
Print Assumptions c64_flag_refuted.

(** C64: a line feed does not end a line. *)
Theorem c64_newline_refuted : exists cs columns steps line,
  In 10%N cs /\ iterates_to (map encode cs) columns steps [line] /\ line = map encode cs.
Proof. exact newline_witness. Qed.
Print Assumptions c64_newline_refuted.

(** C27: white space is what the rows of the table say; bytes that are not a code point are not. *)
Theorem c27_whitespace : forall s,
  (forall c, scalar c -> ~ boundary_lead c -> (is_whitespace (encode c) = true <-> white c)) /\
  (is_whitespace s = true -> exists c, cp_decode s = Some c /\ white c).
Proof.
  intros s. split; [intros c H1 H2; apply white_iff; split; assumption|]. unfold is_whitespace.
  destruct (cp_decode s) as [c|]; [|discriminate]. intros H. exists c. split; [reflexivity|].
  apply (in_rows_found whitespace_table_rows whitespace_tab); [apply tables_lookup|]. destruct (find_range whitespace_tab c); congruence.
Qed.
Print Assumptions c27_whitespace.

(** C27: a text contains white space iff one of its code points is. *)
Theorem c27_contains_whitespace : forall cs,
  Forall scalar cs -> Forall (fun c => ~ boundary_lead c) cs ->
  (contains_whitespace (encode_all cs) = Some true <-> Exists white cs) /\
  (contains_whitespace (encode_all cs) = Some false <-> ~ Exists white cs).
Proof. exact contains_white. Qed.
Print Assumptions c27_contains_whitespace.

(** C29: the columns of a text are those that its code points take according to the rows of the tables. *)
Theorem c29_columns : forall cs x,
  Forall scalar cs -> Forall (fun c => ~ boundary_lead c) cs ->
  (terminal_width (encode_all cs) = Some x <-> text_takes cs x).
Proof. exact terminal_columns. Qed.
Print Assumptions c29_columns.

Example c29_columns_example :
  contains_whitespace (encode_all [97; 8195; 98]%N) = Some true /\ contains_whitespace (encode_all [97; 233]%N) = Some false /\
  is_whitespace [ascii_of_N 255] = false /\ is_whitespace [] = false /\
  Forall scalar [20013; 97; 769]%N /\ Forall (fun c => ~ boundary_lead c) [20013; 97; 769]%N /\
  terminal_width (encode_all [20013; 97; 769]%N) = Some 3%nat.
Proof.
  split; [vm_compute; reflexivity|]. split; [vm_compute; reflexivity|]. split; [vm_compute; reflexivity|].
  split; [vm_compute; reflexivity|]. split; [repeat constructor; unfold scalar; lia|].
  split; [repeat constructor; unfold boundary_lead; lia|vm_compute; reflexivity].
Qed.

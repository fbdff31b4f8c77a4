(** C25 to C31. *)
From Verif Require Import Bytes CodePoint Utf8 SpecUtf8 SpecLines.
From Verif Require Import TabGrapheme TabLine TabWhitespace TabZero TabDouble.
From Verif Require Import CodePointProofs Utf8Proofs LineProofs.

(** C25, partial: decoding is the inverse of the UTF-8 encoding, whatever bytes follow.  Missing are the
    scalar values U+07C0..U+07FF and U+F000..U+FFFF, for which it is false, see below. *)
Theorem c25_utf8_decode_partial : forall c rest,
  scalar c -> ~ boundary_lead c ->
  cp_decode (encode c ++ rest) = Some c
  /\ cp_size (encode c ++ rest) = List.length (encode c).
Proof. exact decode_inverse. Qed.
Print Assumptions c25_utf8_decode_partial.

Example c25_example :
  scalar 233 /\ ~ boundary_lead 233 /\ encode 233 = [ascii_of_N 195; ascii_of_N 169]
  /\ scalar 128512 /\ ~ boundary_lead 128512
  /\ cp_decode (encode 128512 ++ b "x") = Some 128512%N.
Proof. unfold scalar, boundary_lead. repeat split; try reflexivity; lia. Qed.

(** Code points are counted correctly in every well-formed string. *)
Theorem c25_count : forall cs, Forall scalar cs -> cp_count (encode_all cs) = List.length cs.
Proof. exact count_encode_all. Qed.
Print Assumptions c25_count.

Example c25_count_example : cp_count (encode_all [72; 233; 8364; 128512; 65281]%N) = 5 /\ Forall scalar [72; 233; 8364; 128512; 65281]%N.
Proof. split; [vm_compute; reflexivity|]. repeat constructor; unfold scalar; lia. Qed.

(** C25 is false exactly there: every one of the missing scalar values is taken to be one byte longer
    than it is, whatever follows. *)
Theorem c25_boundary_leads_refuted : forall c rest,
  boundary_lead c -> scalar c /\ cp_size (encode c ++ rest) = S (List.length (encode c)).
Proof. exact boundary_leads_wrong. Qed.
Print Assumptions c25_boundary_leads_refuted.

(** C25: a witness: U+FF01 is not decoded although its encoding is well formed. *)
Theorem c25_utf8_decode_refuted : exists c, scalar c /\ cp_decode (encode c) = None.
Proof. exact boundary_witness. Qed.
Print Assumptions c25_utf8_decode_refuted.

(** C26: the grapheme clusters of a string are groups of its code points, in order, none empty. *)
Theorem c26_graphemes_partition : forall s gs,
  graphemes s = Some gs ->
  List.concat gs = s /\ Forall (fun g => g <> []) gs
  /\ exists groups, gs = map (@List.concat ascii) groups
                    /\ cp_split s = Some (List.concat groups).
Proof. exact graphemes_partition_groups. Qed.
Print Assumptions c26_graphemes_partition.

(** C26: every well-formed string without the code points of C25 has clusters. *)
Theorem c26_graphemes_defined : forall cs,
  Forall scalar cs -> Forall (fun c => ~ boundary_lead c) cs ->
  cp_split (encode_all cs) = Some (map encode cs) /\ graphemes (encode_all cs) <> None.
Proof. exact graphemes_of_scalars. Qed.
Print Assumptions c26_graphemes_defined.

(** e with combining acute, a flag, then x. *)
Example c26_example :
  let s := encode_all [101; 769; 127462; 127463; 120]%N in
  graphemes s = Some [encode_all [101; 769]; encode_all [127462; 127463]; encode_all [120]]%N.
Proof. vm_compute. reflexivity. Qed.

(** C27: lookup in a table finds the row that contains the code point, for every code point, in each
    of the five tables of the library. *)
Theorem c27_table_lookup :
  exact_lookup grapheme_cluster_break_table_rows grapheme_table
  /\ exact_lookup line_break_table_rows line_table
  /\ exact_lookup whitespace_table_rows whitespace_tab
  /\ exact_lookup zero_width_table_rows zero_width_tab
  /\ exact_lookup double_width_table_rows double_width_tab.
Proof. exact tables_lookup. Qed.
Print Assumptions c27_table_lookup.

(** C27 for any table with increasing rows: found exactly when some row contains the code point. *)
Theorem c27_lookup_any_sorted_table : forall table cp,
  sorted_from 0 table = true ->
  match find_range table cp with
  | Some r => In r table /\ (r_first r <= cp <= r_last r)%N
  | None => forall r, In r table -> ~ (r_first r <= cp <= r_last r)%N
  end.
Proof. exact find_range_spec. Qed.
Print Assumptions c27_lookup_any_sorted_table.

Example c27_example : option_map r_first (find_range double_width_tab 4353) = Some 4352%N.
Proof. vm_compute. reflexivity. Qed.

(** C28: packing and reading back. *)
Theorem c28_pack_round_trip : forall f l m,
  (f < 2 ^ 21)%N -> (l < 2 ^ 21)%N -> (m < 2 ^ 6)%N ->
  r_first (pack f l m) = f /\ r_last (pack f l m) = l /\ r_meta (pack f l m) = m.
Proof. exact pack_round_trip. Qed.
Print Assumptions c28_pack_round_trip.

Example c28_example : r_last (pack 1114110 1114111 41) = 1114111%N /\ r_meta (pack 1114110 1114111 41) = 41%N.
Proof. split; vm_compute; reflexivity. Qed.

(** C29 *)
Theorem c29_width_additive : forall s t ws wt,
  terminal_width s = Some ws -> terminal_width t = Some wt ->
  terminal_width (s ++ t) = Some (ws + wt).
Proof. exact terminal_width_app. Qed.
Print Assumptions c29_width_additive.

(** C29: the width of a well-formed text is the sum over its scalar values of 2, 0 or 1 columns as
    the two width tables say. *)
Theorem c29_width_of_scalars : forall cs,
  Forall scalar cs -> Forall (fun c => ~ boundary_lead c) cs ->
  terminal_width (encode_all cs)
  = Some (list_sum (map (fun c => match find_range double_width_tab c with
                                  | Some _ => 2
                                  | None => match find_range zero_width_tab c with
                                            | Some _ => 0 | None => 1 end
                                  end) cs)).
Proof. exact terminal_width_encode. Qed.
Print Assumptions c29_width_of_scalars.

Example c29_example :
  terminal_width (encode_all [20013; 97; 769]%N) = Some 3 /\ terminal_width (b "abc") = Some 3.
Proof. split; vm_compute; reflexivity. Qed.

(** C30: however far the iteration over the lines of a text gets to its end, the lines are the text
    with only whitespace removed, and each fits. *)
Theorem c30_lines_fit_and_keep_text : forall text columns steps lines,
  columns <> 0 -> iterates_to text columns steps lines ->
  wrapped lines text /\ Forall (fun l => list_sum (map cp_width l) <= columns) lines.
Proof. exact iterates_wrapped. Qed.
Print Assumptions c30_lines_fit_and_keep_text.

Example c30_example :
  let text := map (fun c => [c]) (b "hello wide world") in
  iterates_to text 7 5 [map (fun c => [c]) (b "hello "); map (fun c => [c]) (b "wide ");
                        map (fun c => [c]) (b "world")].
Proof. vm_compute. reflexivity. Qed.

(** C31, partial: the iteration ends for two or more columns, and for one column when no code point is
    double width.  Missing: one column and a double-width code point, where it is false. *)
Theorem c31_lines_terminate_partial : forall text columns,
  2 <= columns \/ (columns = 1 /\ Forall (fun c => cp_width c <= 1) text) ->
  exists lines, iterates_to text columns (List.length text) lines.
Proof. exact iterates_terminates_cases. Qed.
Print Assumptions c31_lines_terminate_partial.

Example c31_example :
  iterates_to (map (fun c => [c]) (b "a bcd")) 2 5
              [map (fun c => [c]) (b "a "); map (fun c => [c]) (b "bc"); map (fun c => [c]) (b "d")].
Proof. vm_compute. reflexivity. Qed.

(** C31 is false: wrapping U+4E2D at one column never ends. *)
Theorem c31_lines_terminate_refuted : exists text columns,
  columns <> 0 /\ forall steps lines, ~ iterates_to text columns steps lines.
Proof. exact wide_never_ends. Qed.
Print Assumptions c31_lines_terminate_refuted.

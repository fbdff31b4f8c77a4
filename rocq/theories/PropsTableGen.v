(** The script that makes the tables of code points: C82. *)
From Coq Require Import Permutation.
From Verif Require Import Bytes CodePoint Utf8 TableGen.
From Verif Require Import SpecNumeral SpecLines SpecTableGen.
From Verif Require Import TableGenProofs.
Local Open Scope list_scope.

(** White space and the widths: the code points with one of the properties. *)
Theorem c82_listed : forall content es rows, data_file content es ->
  (classified (one_of_class [b "White_Space"]) es rows -> makes (whitespace content) (b "whitespace_table") rows)
  /\ (classified (one_of_class [b "W"; b "F"]) es rows -> makes (double_width content) (b "double_width_table") rows)
  /\ (classified (one_of_class [b "Mn"; b "Me"]) es rows -> makes (zero_width content) (b "zero_width_table") rows).
Proof.
  intros content es rows Hd. repeat apply conj; intros Hc;
  [exact (run_spec [b "White_Space"] (b "whitespace_table") content es rows Hd Hc)
  |exact (run_spec [b "W"; b "F"] (b "double_width_table") content es rows Hd Hc)
  |exact (run_spec [b "Mn"; b "Me"] (b "zero_width_table") content es rows Hd Hc)].
Qed.
Print Assumptions c82_listed.

(** Grapheme clusters: the entries of the first file, and the pictographs of the second. *)
Theorem c82_grapheme : forall breaks emoji es es' rows rows', data_file breaks es -> data_file emoji es' ->
  classified grapheme_class es rows -> classified emoji_class es' rows' ->
  (forall e, In e es -> exists k, grapheme_class (e_property e) (e_note e) k) ->
  makes (run_grapheme_cluster_break breaks emoji) (b "grapheme_cluster_break_table") (rows ++ rows').
Proof. exact grapheme_spec. Qed.
Print Assumptions c82_grapheme.

(** Line breaks: the entries, with the classes that UAX #14 resolves. *)
Theorem c82_line_break : forall content es rows, data_file content es -> classified line_class es rows ->
  (forall e, In e es -> exists k, line_class (e_property e) (e_note e) k) ->
  makes (line_break content) (b "line_break_table") rows.
Proof. exact line_break_spec. Qed.
Print Assumptions c82_line_break.

(** An entry of a class that the library does not have, a line without a second field, or a file without a version or of a single line that does not end: the script
    stops and prints no table. *)
Theorem c82_stops :
  (forall content es e, data_file content es -> In e es -> (forall k, ~ line_class (e_property e) (e_note e) k) -> line_break content = None)
  /\ (forall breaks emoji es e, data_file breaks es -> In e es -> (forall k, ~ grapheme_class (e_property e) (e_note e) k) ->
        run_grapheme_cluster_break breaks emoji = None)
  /\ (forall content l ls, text content (l :: ls) ->
        (~ versioned l \/ ~ In (ascii_of_N 10) content) \/ Exists broken (l :: ls) ->
        whitespace content = None /\ double_width content = None /\ zero_width content = None /\ line_break content = None
        /\ forall other, run_grapheme_cluster_break content other = None /\ run_grapheme_cluster_break other content = None).
Proof.
  split; [exact line_break_stops|]. split; [exact grapheme_stops|]. exact text_stops.
Qed.
Print Assumptions c82_stops.

(** ** Examples *)

Definition ex_head : bytes := b "# Example-14.0.0.txt".
Definition ex_file (lines : list bytes) : bytes := flat_map (fun l => l ++ [ascii_of_N 10]) lines.


(** Decision procedures for the parts of a line. *)
Lemma hex_digit_is c d : hex_digit c = Some d -> digit_is c d.
Proof.
  unfold hex_digit, byte_val. intros H. unfold digit_is. rewrite <- (ascii_N_embedding c). revert H. generalize (N_of_ascii c). intros x H.
  assert (Hx : In x [48;49;50;51;52;53;54;55;56;57;65;66;67;68;69;70;97;98;99;100;101;102]%N).
  { destruct (N.leb_spec 48 x), (N.leb_spec x 57), (N.leb_spec 65 x), (N.leb_spec x 70), (N.leb_spec 97 x), (N.leb_spec x 102);
    try discriminate H; cbn [In]; lia. }
  cbn [In] in Hx. repeat destruct Hx as [<-|Hx]; try contradiction; vm_compute in H; injection H as <-; first [left; reflexivity|right; reflexivity].
Qed.
Lemma hexadecimal_of s : forall n, s <> [] -> hex_digits 0 s = Some n -> hexadecimal s n.
Proof.
  induction s as [|c s IH] using rev_ind; intros n Hn H; [contradiction|]. rewrite hex_digits_snoc in H.
  destruct (hex_digits 0 s) as [m|] eqn:E; [|discriminate]. destruct (hex_digit c) as [d|] eqn:Ed; [|discriminate]. injection H as <-.
  destruct s as [|c' s].
  - injection E as <-. apply hex_one. now apply hex_digit_is.
  - apply hex_more; [apply IH; [discriminate|reflexivity]|]. now apply hex_digit_is.
Qed.
Lemma blank_of s : forallb py_space s = true -> blank s.
Proof. intros H. apply Forall_forall. intros c Hc. apply space_iff. rewrite forallb_forall in H. now apply H. Qed.
Lemma property_of p : p <> [] -> forallb (fun c => negb (py_space c) && negb (Ascii.eqb c "#")) p = true -> property p.
Proof.
  intros Hn H. rewrite forallb_forall in H.
  assert (G : forall c, In c p -> ~ white c /\ c <> "#"%char).
  { intros c Hc. apply H in Hc. apply andb_true_iff in Hc as [H1 H2]. apply negb_true_iff in H1, H2. split; [now apply space_not|].
    intros ->. discriminate H2. }
  split; [exact Hn|intros Hc; now apply (G "#"%char)|intros c p' ->; apply G; now left|intros c p' ->; apply G; apply in_app_iff; right; now left].
Qed.

Ltac hexa := apply hexadecimal_of; [discriminate|reflexivity].
Ltac one := constructor; hexa.
Ltac range s s' := apply (place_range s _ s'); hexa.

Lemma ex_head_versioned : versioned ex_head.
Proof. apply has_version_iff. reflexivity. Qed.
Lemma ex_head_nothing : says_nothing ex_head.
Proof. exists [], ex_head. split; [constructor|]. split; [reflexivity|]. right. eexists. reflexivity. Qed.
Lemma ex_text lines : forallb (fun l => negb (mem_byte (ascii_of_N 10) l)) lines = true -> text (ex_file lines) lines.
Proof.
  intros H. induction lines as [|l lines IH]; [constructor|]. cbn [forallb] in H. apply andb_true_iff in H as [H1 H2].
  unfold ex_file. cbn [flat_map]. rewrite <- app_assoc. cbn [app]. constructor; [|now apply IH].
  apply negb_true_iff in H1. clear - H1. revert H1. induction l as [|c l IH]; [intros _ []|]. cbn [mem_byte]. intros E.
  apply orb_false_iff in E as [E1 E2]. intros [->|Hc]; [now rewrite Ascii.eqb_refl in E1|now apply IH].
Qed.

(** Two entries with the property, out of order, and one with another. *)
Definition ex_white_lines : list bytes :=
  [ex_head; []; b "  0020 ; White_Space"; b "0009..000D    ; White_Space # Cc   [5] <control-0009>..<control-000D>"; b "002D ; Dash # Pd"].
Definition ex_white_entries : list entry :=
  [Entry 32 32 (b "White_Space") None; Entry 9 13 (b "White_Space") (Some (b " Cc   [5] <control-0009>..<control-000D>"));
   Entry 45 45 (b "Dash") (Some (b " Pd"))].
Lemma ex_white_data : data_file (ex_file ex_white_lines) ex_white_entries.
Proof.
  exists ex_head, (tl ex_white_lines). split; [apply ex_text; reflexivity|].
  split; [vm_compute; tauto|]. split; [apply ex_head_versioned|].
  apply lists_nothing; [apply ex_head_nothing|].
  apply lists_nothing; [exists [], []; split; [constructor|]; split; [reflexivity|now left]|].
  apply lists_entry.
  { refine (says_entry (b "  ") (b "0020") (b " ") (b " ") (b "White_Space") [] [] None 32 32 _ _ _ _ _ _ _);
    [now apply blank_of|one|now apply blank_of|now apply blank_of|now apply property_of|constructor|left; split; reflexivity]. }
  apply lists_entry.
  { refine (says_entry [] (b "0009..000D") (b "    ") (b " ") (b "White_Space") (b " ") (b "# Cc   [5] <control-0009>..<control-000D>")
      (Some (b " Cc   [5] <control-0009>..<control-000D>")) 9 13 _ _ _ _ _ _ _);
    [constructor|range (b "0009") (b "000D")|now apply blank_of|now apply blank_of|now apply property_of|now apply blank_of|].
    right. eexists. split; reflexivity. }
  apply lists_entry.
  { refine (says_entry [] (b "002D") (b " ") (b " ") (b "Dash") (b " ") (b "# Pd") (Some (b " Pd")) 45 45 _ _ _ _ _ _ _);
    [constructor|one|now apply blank_of|now apply blank_of|now apply property_of|now apply blank_of|]. right. eexists. split; reflexivity. }
  constructor.
Qed.

(** The rows of the example can be used, and this is what the script prints. *)
Example c82_listed_example :
  data_file (ex_file ex_white_lines) ex_white_entries
  /\ classified (one_of_class [b "White_Space"]) ex_white_entries [(32, 32, 0); (9, 13, 0)]%N
  /\ usable [(32, 32, 0); (9, 13, 0)]%N
  /\ whitespace (ex_file ex_white_lines) = Some
       [b "constexpr auto whitespace_table = std::array<code_point::range, 2>{{"; b "    {0x000009, 0x00000D},"; b "    {0x000020, 0x000020},"; b "}};"].
Proof.
  split; [exact ex_white_data|]. split; [|split; [|reflexivity]].
  - apply (cl_row _ (Entry 32 32 _ _)); [split; [now left|reflexivity]|]. apply (cl_row _ (Entry 9 13 _ _)); [split; [now left|reflexivity]|].
    apply cl_none; [intros k [[H|[]] _]; discriminate H|constructor].
  - split; [repeat constructor; cbn; lia|]. repeat constructor; cbn; lia.
Qed.

(** The same file makes the grapheme command stop: it has no class "White_Space". *)
(** A file whose last line does not end is read as well; if that is the only line, the script stops. *)
Example c82_last_line_example :
  text (ex_head ++ ascii_of_N 10 :: b "0020 ; White_Space") [ex_head; b "0020 ; White_Space"]
  /\ whitespace (ex_head ++ ascii_of_N 10 :: b "0020 ; White_Space") = Some
       [b "constexpr auto whitespace_table = std::array<code_point::range, 1>{{"; b "    {0x000020, 0x000020},"; b "}};"]
  /\ text ex_head [ex_head] /\ ~ In (ascii_of_N 10) ex_head /\ whitespace ex_head = None.
Proof.
  assert (N : ~ In (ascii_of_N 10) ex_head) by (vm_compute; intuition discriminate).
  split; [|split; [reflexivity|split; [|split; [exact N|reflexivity]]]].
  - apply text_line; [exact N|]. apply text_last; [discriminate|]. vm_compute. intuition discriminate.
  - apply text_last; [discriminate|exact N].
Qed.

Example c82_stops_example :
  run_grapheme_cluster_break (ex_file ex_white_lines) [] = None
  /\ line_break (ex_file ex_white_lines) = None
  /\ whitespace (ex_file [b "0020 ; White_Space"]) = None
  /\ whitespace (ex_file [ex_head; b "0020 White_Space"]) = None
  /\ ~ versioned (b "0020 ; White_Space") /\ broken (b "0020 White_Space").
Proof.
  split; [|split].
  - apply (grapheme_stops _ _ _ (Entry 32 32 (b "White_Space") None) ex_white_data); [now left|]. intros k [Hk Hx]. cbn [e_property] in Hx.
    apply nth_error_In in Hx. revert Hx. cbn. intuition discriminate.
  - apply (line_break_stops _ _ (Entry 32 32 (b "White_Space") None) ex_white_data); [now left|]. intros k (name & Hr & _ & Hx). cbn [e_property e_note] in Hr.
    apply nth_error_In in Hx. inversion Hr; subst; [|cbn in H; intuition discriminate]. revert Hx. cbn. intuition discriminate.
  - split; [reflexivity|]. split; [reflexivity|]. split.
    + intros H. apply has_version_iff in H. discriminate H.
    + split; [cbn; intuition discriminate|]. exists [], "0"%char, (b "020 White_Space"). split; [constructor|]. split; [reflexivity|].
      split; [|discriminate]. apply space_not. reflexivity.
Qed.

(** Line breaks: a resolved class, one by category, and a plain one. *)
Definition ex_line_lines : list bytes := [ex_head; b "0E31;SA # Mn THAI CHARACTER MAI HAN-AKAT"; b "0E01..0E30;SA # Lo [48] THAI"; b "000A;LF # Cc <control-000A>"].
Definition ex_line_entries : list entry :=
  [Entry 3633 3633 (b "SA") (Some (b " Mn THAI CHARACTER MAI HAN-AKAT")); Entry 3585 3632 (b "SA") (Some (b " Lo [48] THAI"));
   Entry 10 10 (b "LF") (Some (b " Cc <control-000A>"))].
Lemma ex_line_data : data_file (ex_file ex_line_lines) ex_line_entries.
Proof.
  exists ex_head, (tl ex_line_lines). split; [apply ex_text; reflexivity|].
  split; [vm_compute; tauto|]. split; [apply ex_head_versioned|].
  apply lists_nothing; [apply ex_head_nothing|].
  apply lists_entry.
  { refine (says_entry [] (b "0E31") [] [] (b "SA") (b " ") (b "# Mn THAI CHARACTER MAI HAN-AKAT") (Some (b " Mn THAI CHARACTER MAI HAN-AKAT")) 3633 3633 _ _ _ _ _ _ _);
    [constructor|one|constructor|constructor|now apply property_of|now apply blank_of|]. right. eexists. split; reflexivity. }
  apply lists_entry.
  { refine (says_entry [] (b "0E01..0E30") [] [] (b "SA") (b " ") (b "# Lo [48] THAI") (Some (b " Lo [48] THAI")) 3585 3632 _ _ _ _ _ _ _);
    [constructor|range (b "0E01") (b "0E30")|constructor|constructor|now apply property_of|now apply blank_of|]. right. eexists. split; reflexivity. }
  apply lists_entry.
  { refine (says_entry [] (b "000A") [] [] (b "LF") (b " ") (b "# Cc <control-000A>") (Some (b " Cc <control-000A>")) 10 10 _ _ _ _ _ _ _);
    [constructor|one|constructor|constructor|now apply property_of|now apply blank_of|]. right. eexists. split; reflexivity. }
  constructor.
Qed.
Lemma ex_line_classes : line_class (b "SA") (Some (b " Mn THAI CHARACTER MAI HAN-AKAT")) 8 /\ line_class (b "SA") (Some (b " Lo [48] THAI")) 1
  /\ line_class (b "LF") (Some (b " Cc <control-000A>")) 25.
Proof.
  split; [|split].
  - exists (b "CM"). split; [apply resolves_mark|split; reflexivity]. exists " "%char, (b " THAI CHARACTER MAI HAN-AKAT"). now left.
  - exists (b "AL"). split; [apply resolves_letter|split; reflexivity]. intros (c & rest & [H|H]); discriminate H.
  - exists (b "LF"). split; [apply resolves_plain|split; reflexivity]. cbn. intuition discriminate.
Qed.
Example c82_line_break_example :
  data_file (ex_file ex_line_lines) ex_line_entries
  /\ classified line_class ex_line_entries [(3633, 3633, 8); (3585, 3632, 1); (10, 10, 25)]%N
  /\ (forall e, In e ex_line_entries -> exists k, line_class (e_property e) (e_note e) k)
  /\ usable [(3633, 3633, 8); (3585, 3632, 1); (10, 10, 25)]%N
  /\ line_break (ex_file ex_line_lines) = Some
       [b "constexpr auto line_break_table = std::array<code_point::range, 3>{{"; b "    {0x00000A, 0x00000A, 0x000019},";
        b "    {0x000E01, 0x000E30, 0x000001},"; b "    {0x000E31, 0x000E31, 0x000008},"; b "}};"].
Proof.
  destruct ex_line_classes as (H1 & H2 & H3). split; [exact ex_line_data|]. split; [|split; [|split; [|reflexivity]]].
  - apply (cl_row _ (Entry 3633 3633 _ _)); [exact H1|]. apply (cl_row _ (Entry 3585 3632 _ _)); [exact H2|].
    apply (cl_row _ (Entry 10 10 _ _)); [exact H3|constructor].
  - intros e [<-|[<-|[<-|[]]]]; eexists; [exact H1|exact H2|exact H3].
  - split; [repeat constructor; cbn; lia|]. repeat constructor; cbn; lia.
Qed.

(** Grapheme clusters: of the emoji file only the pictographs. *)
Definition ex_break_lines : list bytes := [ex_head; b "000D ; CR # Cc <control-000D>"].
Definition ex_emoji_lines : list bytes := [ex_head; b "0023 ; Emoji # number sign"; b "00A9 ; Extended_Pictographic# copyright"].
Definition ex_break_entries : list entry := [Entry 13 13 (b "CR") (Some (b " Cc <control-000D>"))].
Definition ex_emoji_entries : list entry :=
  [Entry 35 35 (b "Emoji") (Some (b " number sign")); Entry 169 169 (b "Extended_Pictographic") (Some (b " copyright"))].
Example c82_grapheme_example :
  data_file (ex_file ex_break_lines) ex_break_entries /\ data_file (ex_file ex_emoji_lines) ex_emoji_entries
  /\ classified grapheme_class ex_break_entries [(13, 13, 1)]%N /\ classified emoji_class ex_emoji_entries [(169, 169, 14)]%N
  /\ (forall e, In e ex_break_entries -> exists k, grapheme_class (e_property e) (e_note e) k)
  /\ run_grapheme_cluster_break (ex_file ex_break_lines) (ex_file ex_emoji_lines) = Some
       [b "constexpr auto grapheme_cluster_break_table = std::array<code_point::range, 2>{{"; b "    {0x00000D, 0x00000D, 0x000001},";
        b "    {0x0000A9, 0x0000A9, 0x00000E},"; b "}};"].
Proof.
  split; [|split; [|split; [|split; [|split; [|reflexivity]]]]].
  - exists ex_head, (tl ex_break_lines). split; [apply ex_text; reflexivity|].
  split; [vm_compute; tauto|]. split; [apply ex_head_versioned|].
    apply lists_nothing; [apply ex_head_nothing|]. apply lists_entry; [|constructor].
    refine (says_entry [] (b "000D") (b " ") (b " ") (b "CR") (b " ") (b "# Cc <control-000D>") (Some (b " Cc <control-000D>")) 13 13 _ _ _ _ _ _ _);
    [constructor|one|now apply blank_of|now apply blank_of|now apply property_of|now apply blank_of|]. right. eexists. split; reflexivity.
  - exists ex_head, (tl ex_emoji_lines). split; [apply ex_text; reflexivity|].
  split; [vm_compute; tauto|]. split; [apply ex_head_versioned|].
    apply lists_nothing; [apply ex_head_nothing|]. apply lists_entry; [|apply lists_entry; [|constructor]].
    + refine (says_entry [] (b "0023") (b " ") (b " ") (b "Emoji") (b " ") (b "# number sign") (Some (b " number sign")) 35 35 _ _ _ _ _ _ _);
      [constructor|one|now apply blank_of|now apply blank_of|now apply property_of|now apply blank_of|]. right. eexists. split; reflexivity.
    + refine (says_entry [] (b "00A9") (b " ") (b " ") (b "Extended_Pictographic") [] (b "# copyright") (Some (b " copyright")) 169 169 _ _ _ _ _ _ _);
      [constructor|one|now apply blank_of|now apply blank_of|now apply property_of|constructor|]. right. eexists. split; reflexivity.
  - apply (cl_row _ (Entry 13 13 _ _)); [split; reflexivity|constructor].
  - apply cl_none; [intros k [H _]; discriminate H|]. apply (cl_row _ (Entry 169 169 _ _)); [split; [reflexivity|split; reflexivity]|constructor].
  - intros e [<-|[]]. exists 1%N. split; reflexivity.
Qed.

(** Why [usable] asks for rows that are apart: the script does not look at that.  Of these two, 0x46 is only in the first, and the
    library does not find it in the table. *)
Example c82_overlap_example :
  double_width (ex_file [ex_head; b "0041..0050 ; W"; b "0045 ; F"]) = Some
    [b "constexpr auto double_width_table = std::array<code_point::range, 2>{{"; b "    {0x000041, 0x000050},"; b "    {0x000045, 0x000045},"; b "}};"]
  /\ find_range (map pack_row [(65, 80, 0); (69, 69, 0)]%N) 70 = None.
Proof. split; reflexivity. Qed.

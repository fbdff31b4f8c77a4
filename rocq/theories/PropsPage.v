(** Property theorems about help pages without runtime help data (C74) and about the settings of the
    formatter (C75). *)
From Verif Require Import Bytes Token Result CodePoint Utf8 Tree PreParse Parse Root Build Validator Digits Help HelpMore HelpCustom Demo.
From Verif Require Import SpecNumeral SpecTake SpecMode SpecDeliver SpecRoot SpecReading SpecLines SpecHelp SpecLabel SpecColour SpecUtf8 SpecPage.
From Verif Require Import Utf8Proofs LineProofs DigitProofs ModeProofs RootProofs HelpProofs PageProofs LabelTextProofs ColourProofs CustomProofs PropsHelp PropsColour.

(** ** C74 *)

(** For every node of every accepted tree, every terminal and all settings: if nothing is switched off,
    the page made of the types is the page made of the instances. *)
Theorem c74_same : forall lim ind offset columns h f r t col,
  accepted r = true -> In t (below r) -> (forall n, In n (below t) -> switched_on n = true) ->
  custom_column lim ind f t = Ok col -> (N.of_nat col < 2 ^ 31)%N ->
  static_text lim ind offset columns h t f = custom_text lim ind offset columns h t f.
Proof.
  intros lim ind offset columns h f r t col Ha Ht Hon Hc Hlt. apply accepted_core in Ha as [_ Hs].
  destruct (sub_core_below r [] t Hs Ht) as (tp & _ & Hst).
  apply static_page_same with col; auto. exact (sub_core_shaped t tp Hst).
Qed.
Print Assumptions c74_same.

(** Whatever is switched off, it is the page that there would be if everything were on.  (Which bounds
    a label shows does not depend on what is switched on.) *)
Theorem c74_everything : forall lim ind offset columns h f r t col,
  accepted r = true -> In t (below r) -> (forall n, lim (always_on n) = lim n) ->
  custom_column lim ind f t = Ok col -> (N.of_nat col < 2 ^ 31)%N ->
  static_text lim ind offset columns h t f = custom_text lim ind offset columns h (always_on t) f.
Proof.
  intros lim ind offset columns h f r t col Ha Ht Hl Hc Hlt. apply accepted_core in Ha as [_ Hs].
  destruct (sub_core_below r [] t Hs Ht) as (tp & _ & Hst).
  apply static_page with col; auto. exact (sub_core_shaped t tp Hst).
Qed.
Print Assumptions c74_everything.

(** In [always_on t] everything is on, and nothing else is different. *)
Theorem c74_always_on : forall t,
  List.length (below (always_on t)) = List.length (below t)
  /\ (forall m, In m (below (always_on t)) -> switched_on m = true)
  /\ forall n, n_id (always_on n) = n_id n /\ n_kind (always_on n) = n_kind n
       /\ forall p, In p (n_pols (always_on n)) <->
                    In p (n_pols n) /\ forall e x, p <> PRuntimeEnable e /\ p <> PRuntimeEnableRequired e x.
Proof.
  intros t. split; [now rewrite on_below, map_length|]. split.
  - intros m Hm. rewrite on_below in Hm. apply in_map_iff in Hm as (m0 & <- & _). apply on_switched.
  - intros n. split; [now destruct n|]. split; [apply on_kind|]. intros p. rewrite on_pols, filter_In. split.
    + intros [Hp Hk]. split; [exact Hp|]. intros e x. split; intros ->; discriminate.
    + intros [Hp Hk]. split; [exact Hp|]. destruct p; try reflexivity; exfalso.
      * destruct (Hk enabled (VBool true)) as [H _]. now apply H.
      * destruct (Hk enabled d) as [_ H]. now apply H.
Qed.
Print Assumptions c74_always_on.

(** The coloured page of the types shows the same characters as the plain one, without the additional
    space of [c69_colours]: of each row the label is red and the rest is green. *)
Theorem c74_colours : forall lim ind offset columns h f t text,
  uncoded_page lim h t -> static_text lim ind offset columns h t f = Ok text ->
  exists out cells, static_colour_text lim ind offset columns h t f = Ok out
    /\ screen Plain out cells Plain /\ map snd cells = text
    /\ exists parts, cells = paint Plain (preamble h)
                             ++ List.concat (map (fun p => paint Red (fst p) ++ paint Green (snd p)) parts)
                             ++ paint Plain (addendum h)
       /\ Forall (fun p => exists n indent line, In n (below t) /\ In line [[]; top; middle; bottom]
            /\ (help_description n = [] /\ fst p = spaces indent ++ line ++ help_label lim n ++ end_of_line /\ snd p = []
                \/ help_description n <> [] /\ fst p = spaces indent ++ line ++ help_label lim n)) parts.
Proof.
  intros lim ind offset columns h f t text (U1 & U2 & U3) H. unfold static_text, page in H. unfold static_colour_text, page.
  destruct (custom_column lim ind f t) as [col| | | |]; try discriminate. cbn [rbind] in *.
  destruct (dispatch (static_row ind _ col) _) as [body| | | |] eqn:E; try discriminate. cbn [rbind] in H.
  destruct (static_colours lim ind _ col t U3 _ (static_from lim f t 0) body E) as (out & parts & Ho & Hb & Hs & Hf).
  rewrite Ho. cbn [rbind]. exists (preamble h ++ out ++ addendum h), (paint Plain (preamble h)
    ++ List.concat (map (fun p => paint Red (fst p) ++ paint Green (snd p)) parts) ++ paint Plain (addendum h)).
  split; [reflexivity|]. split.
  { apply screen_app with Plain; [now apply screen_text|]. apply screen_app with Plain; [exact Hs|now apply screen_text]. }
  split.
  { injection H as <-. rewrite !map_app, !map_snd_paint. f_equal. f_equal. rewrite Hb. clear.
    induction parts as [|p parts IH]; [reflexivity|]. cbn [map List.concat]. now rewrite !map_app, !map_snd_paint, IH. }
  exists parts. split; [reflexivity|]. eapply Forall_impl; [|exact Hf]. intros p (n & indent & line & Hn & Hl & Hc).
  exists n, indent, line. split; [exact Hn|]. split; [|exact Hc].
  destruct Hl as [->|[->|[->| ->]]]; cbn [In]; auto.
Qed.
Print Assumptions c74_colours.

(** The page of the types of the tree of PropsHelp.v: "--tar" and the mode "gone", which are switched
    off, are on it.  Each level is indented by 2; wrapping needs 14 columns. *)
Example c74_example :
  accepted h_root = true /\ custom_column no_limits 2 true h_root = Ok 23%nat
  /\ switched_on h_tar = false /\ In h_tar (below h_root)
  /\ static_text no_limits 2 14 44 h_help h_root true
     = Ok (lines ["foo v3.14";
               "";
               "My foo is good for you";
               "";
               "  --help,-h            Help output";
               "  mode1                Mode1 description";
               "    --flag1,-a         Flag1 description";
               "    --flag2";
               "    -b                 b description";
               "  mode2";
               "    One of:"]%string
        ++ spaces 6 ++ top ++ lines ["--zip <Value>  Pack with zip, which ";
                                     "                       everybody has"]%string
        ++ spaces 6 ++ middle ++ lines ["--tar=<Value>"]%string
        ++ spaces 6 ++ middle ++ lines ["--rar"]%string
        ++ spaces 6 ++ bottom ++ lines ["--lha"]%string
        ++ lines ["    <SRC> [1,12]       What to pack";
                  "  gone";
                  "    --deep"]%string)
  /\ map snd (cells_of (static_colour_text no_limits 2 14 44 h_help h_root true))
     = page_bytes (static_text no_limits 2 14 44 h_help h_root true).
Proof.
  split; [vm_compute; reflexivity|]. split; [vm_compute; reflexivity|]. split; [reflexivity|]. split.
  - apply (below_child h_mode2); [right; right; now left|]. apply (below_child h_pack); [now left|].
    apply (below_child h_tar); [right; now left|apply below_self].
  - split; vm_compute; reflexivity.
Qed.

(** A page on which nothing is switched off. *)
Example c74_example_same :
  In h_mode1 (below h_root) /\ (forall n, In n (below h_mode1) -> switched_on n = true)
  /\ custom_column no_limits 4 true h_mode1 = Ok 18%nat
  /\ static_text no_limits 4 8 80 h_help h_mode1 true
     = Ok (lines ["foo v3.14"; ""; "My foo is good for you"; "";
               "mode1             Mode1 description";
               "    --flag1,-a    Flag1 description";
               "    --flag2";
               "    -b            b description"]%string).
Proof.
  split; [exact h_mode1_below|]. split; [|split; vm_compute; reflexivity].
  assert (H : forallb switched_on (below h_mode1) = true) by (vm_compute; reflexivity).
  intros n Hn. rewrite forallb_forall in H. now apply H.
Qed.

(** ** C75 *)

(** The page with any settings is one row per listed node, in tree order, all with the same description
    column.  The descriptions must not have characters of double width if the formatter may wrap them
    to a single column. *)
Theorem c75_page_partial : forall lim ind offset columns h f r t col,
  accepted r = true -> In t (below r) -> switched_on t = true ->
  (forall n, In n (below t) -> has_label n = true) ->
  custom_column lim ind f t = Ok col -> (N.of_nat col < 2 ^ 31)%N -> (columns < 2 ^ 64)%N ->
  (2 <= offset)%N \/ (1 <= offset)%N /\ (forall n cps, In n (below t) -> cp_split (help_description n) = Some cps ->
                                                     Forall (fun c => cp_width c <= 1) cps) ->
  (N.of_nat col + offset < 2 ^ 64)%N -> showable t ->
  exists texts, custom_text lim ind offset columns h t f = Ok (preamble h ++ List.concat texts ++ addendum h)
    /\ Forall2 (fun '(n, parents, line) text =>
                  row_with ind offset columns col (List.length parents) (line ++ help_label lim n) (help_description n) text)
               (on_page f t) texts.
Proof.
  intros lim ind offset columns h f r t col H1 H2 H3 H4 H5 H6 H7 H8 H9 H10.
  destruct (custom_page ind offset lim columns h f r t col H1 H2 H3 H4 H5 H6 H7 H8 H9 H10) as (texts & E & HF).
  exists texts. split; [exact E|]. revert HF. apply entries_impl. exact (fun _ _ _ _ H => H).
Qed.
Print Assumptions c75_page_partial.

(** The defaults are an indent of 4 and an offset of 8. *)
Theorem c75_default : forall lim columns h f t col,
  description_column lim f t = Ok col -> (N.of_nat col < 2 ^ 63)%N ->
  custom_text lim 4 8 columns h t f = help_text lim columns h t f.
Proof. intros lim columns h f t col. apply custom_default. Qed.
Print Assumptions c75_default.

(** Without the condition on double width it is false: with an offset of 1, which is allowed, and a
    terminal that has one column for the descriptions, a page with a Chinese description is never
    finished. *)
Definition wide_flag := flag 2 [PLongName (b "zh"); PDescription (encode 20013)].
Definition wide_help := help 1 [PLongName (b "help")].
Definition wide_mode := mode 3 [PRouter] [wide_flag].
Definition wide_root := root [] [wide_help; wide_mode].
Theorem c75_page_refuted : exists lim ind offset columns h f r col,
  accepted r = true /\ switched_on r = true /\ help_compiles lim f r = true
  /\ (0 < ind)%nat /\ (0 < offset)%N /\ showable r
  /\ custom_column lim ind f r = Ok col /\ (N.of_nat col < 2 ^ 31)%N /\ (columns < 2 ^ 64)%N
  /\ (N.of_nat col + offset < 2 ^ 64)%N
  /\ custom_text lim ind offset columns h r f = OutOfFuel
  /\ exists n text, In n (map (fun e => fst (fst e)) (on_page f r)) /\ cp_split (help_description n) = Some text
       /\ forall steps ls, ~ iterates_to text (N.to_nat (columns - N.of_nat col)) steps ls.
Proof.
  exists no_limits, 4%nat, 1%N, 17%N, wide_help, false, wide_root, 16%nat.
  split; [vm_compute; reflexivity|]. split; [reflexivity|]. split; [vm_compute; reflexivity|].
  split; [repeat constructor|]. split; [reflexivity|]. split.
  { assert (H : forallb (fun n => match cp_split (help_description n) with
                                | Some _ => N.ltb (N.of_nat (List.length (help_description n))) (2 ^ 62)
                                | None => false end) (below wide_root) = true) by (vm_compute; reflexivity).
    intros n Hn. rewrite forallb_forall in H. specialize (H n Hn). destruct (cp_split (help_description n)); [|discriminate].
    split; [discriminate|now apply N.ltb_lt]. }
  split; [vm_compute; reflexivity|]. split; [reflexivity|]. split; [reflexivity|]. split; [reflexivity|].
  split; [vm_compute; reflexivity|]. exists wide_flag, [encode 20013]. split.
  - right. right. now left.
  - split; [vm_compute; reflexivity|]. apply never_iterates; [discriminate|]. rewrite wide_witness. constructor.
Qed.
Print Assumptions c75_page_refuted.

(** Hypotheses that are met, and the page. *)
Example c75_example :
  accepted h_root = true /\ switched_on h_root = true /\ (forall n, In n (below h_root) -> has_label n = true)
  /\ custom_column no_limits 2 true h_root = Ok 23%nat /\ showable h_root
  /\ custom_text no_limits 2 22 44 h_help h_root true
     = Ok (lines ["foo v3.14";
               "";
               "My foo is good for you";
               "";
               "  --help,-h            Help output";
               "  mode1                Mode1 description";
               "    --flag1,-a         Flag1 description";
               "    --flag2";
               "    -b                 b description";
               "  mode2";
               "    One of:"]%string
        ++ spaces 6 ++ top ++ lines ["--zip <Value>  Pack with zip, which everybody has"]%string
        ++ spaces 6 ++ middle ++ lines ["--rar"]%string
        ++ spaces 6 ++ bottom ++ lines ["--lha"]%string
        ++ lines ["    <SRC> [1,12]       What to pack"]%string).
Proof.
  split; [vm_compute; reflexivity|]. split; [reflexivity|]. split.
  { assert (H : forallb has_label (below h_root) = true) by (vm_compute; reflexivity).
    intros n Hn. rewrite forallb_forall in H. now apply H. }
  split; [vm_compute; reflexivity|]. split; [exact h_showable|vm_compute; reflexivity].
Qed.

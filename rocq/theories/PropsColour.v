(** Property theorems about the coloured help page (C69) and [help] of the root (C70). *)
From Verif Require Import Bytes Token Result CodePoint Utf8 Tree PreParse Parse Root Build Validator Digits Help HelpMore Demo.
From Verif Require Import SpecNumeral SpecTake SpecMode SpecDeliver SpecRoot SpecReading SpecLines SpecHelp SpecLabel SpecColour.
From Verif Require Import Utf8Proofs DigitProofs RootProofs ModeProofs HelpProofs PageProofs LabelTextProofs ColourProofs PropsHelp.

(** ** C69 *)

(** No text of the page has an escape character of its own. *)
Definition uncoded_page (lim : node -> option limits) (h t : node) : Prop :=
  uncoded (preamble h) /\ uncoded (addendum h)
  /\ forall n, In n (below t) -> uncoded (help_label lim n) /\ uncoded (help_description n).

(** For every node of every accepted tree, whatever is switched on or off, and every terminal: the
    labels are red and the descriptions are green, the rest is not coloured, the page leaves the
    terminal without a colour, and the rows are rows of a plain page.  The row of the node that the
    page is for, which is not indented, has one more space in front. *)
Theorem c69_colours : forall lim columns h f r t col,
  accepted r = true -> In t (below r) -> switched_on t = true ->
  help_compiles lim f t = true -> description_column lim f t = Ok col -> (N.of_nat col < 2 ^ 31)%N ->
  (columns < 2 ^ 64)%N -> showable t -> uncoded_page lim h t ->
  exists out cells, colour_text lim columns h t f = Ok out
    /\ screen Plain out (paint Plain (preamble h) ++ List.concat cells ++ paint Plain (addendum h)) Plain
    /\ Forall2 (fun '(n, parents, line) c => exists row_cells,
                  coloured_row columns col (4 * List.length parents) (line ++ help_label lim n)
                               (help_description n) row_cells
                  /\ c = match parents with [] => paint Red (spaces 1) | _ => [] end ++ row_cells)
               (on_page f t) cells.
Proof.
  intros lim columns h f r t col H1 H2 H3 H4 H5 H6 H7 H8 (U1 & U2 & U3).
  destruct (colour_page lim columns h f r t col H1 H2 H3 H4 H5 H6 H7 H8 U1 U2 U3) as (out & cells & text & E & _ & Hs & HF & _).
  exists out, cells. split; [exact E|]. split; [exact Hs|]. revert HF. apply entries_impl. intros n ps line c (rc & Hc & Hr).
  cbn [fst snd] in *. exists rc. split; [exact Hr|]. rewrite Hc. now destruct ps.
Qed.
Print Assumptions c69_colours.

(** What a terminal shows is determined by what it receives. *)
Theorem c69_screen : forall c s cells c' cells2 c2,
  screen c s cells c' -> screen c s cells2 c2 -> cells = cells2 /\ c' = c2.
Proof. intros c s cells c' cells2 c2 H1 H2. exact (screen_fun c s cells c' H1 cells2 c2 H2). Qed.
Print Assumptions c69_screen.

(** The page for the root shows the same characters as the plain page. *)
Theorem c69_same_partial : forall lim columns h f r col,
  accepted r = true -> switched_on r = true ->
  help_compiles lim f r = true -> description_column lim f r = Ok col -> (N.of_nat col < 2 ^ 31)%N ->
  (columns < 2 ^ 64)%N -> showable r -> uncoded_page lim h r ->
  exists out cells text, colour_text lim columns h r f = Ok out /\ help_text lim columns h r f = Ok text
    /\ screen Plain out cells Plain /\ map snd cells = text.
Proof.
  intros lim columns h f r col H1 H3 H4 H5 H6 H7 H8 (U1 & U2 & U3).
  destruct (colour_page lim columns h f r r col H1 (below_self r) H3 H4 H5 H6 H7 H8 U1 U2 U3) as (out & cells & text & E & Et & Hs & _ & Hm).
  exists out, (paint Plain (preamble h) ++ List.concat cells ++ paint Plain (addendum h)), text.
  split; [exact E|]. split; [exact Et|]. split; [exact Hs|]. apply Hm.
  apply accepted_sub in H1 as [H1 _]. exact H1.
Qed.
Print Assumptions c69_same_partial.

(** Two pages: the root's with its 11 rows and the one for mode1. *)
Definition no_escape (s : bytes) : bool := forallb (fun c => negb (Ascii.eqb c esc)) s.
Lemma no_escape_uncoded s : no_escape s = true -> uncoded s.
Proof. intros H Hin. unfold no_escape in H. rewrite forallb_forall in H. specialize (H _ Hin). now rewrite Ascii.eqb_refl in H. Qed.
Lemma h_uncoded t : In t (below h_root) -> uncoded_page no_limits h_help t.
Proof.
  intros Ht. split; [apply no_escape_uncoded; vm_compute; reflexivity|]. split; [apply no_escape_uncoded; vm_compute; reflexivity|].
  assert (H : forallb (fun n => no_escape (help_label no_limits n) && no_escape (help_description n)) (below h_root) = true)
    by (vm_compute; reflexivity).
  intros n Hn. rewrite forallb_forall in H. specialize (H n (below_trans _ _ _ Ht Hn)). apply andb_true_iff in H as [H1 H2].
  split; now apply no_escape_uncoded.
Qed.
Lemma h_mode1_below : In h_mode1 (below h_root).
Proof. apply (below_child h_mode1); [right; now left|apply below_self]. Qed.
Definition page_bytes (x : res bytes) : bytes := match x with Ok s => s | _ => [] end.
Definition cells_of (x : res bytes) : list (colour * ascii) :=
  match shown 2000 Plain (page_bytes x) with Some (cells, Plain) => cells | _ => [] end.
Definition in_colour (c : colour) (l : list (colour * ascii)) : bytes :=
  map snd (filter (fun p => match c, fst p with Plain, Plain | Red, Red | Green, Green => true | _, _ => false end) l).

Example c69_example :
  accepted h_root = true /\ switched_on h_root = true /\ help_compiles no_limits true h_root = true
  /\ description_column no_limits true h_root = Ok 31%nat /\ showable h_root /\ uncoded_page no_limits h_help h_root
  /\ map snd (cells_of (colour_text no_limits 44 h_help h_root true)) = page_bytes (help_text no_limits 44 h_help h_root true)
  /\ in_colour Plain (cells_of (colour_text no_limits 80 h_help (t_root h_help) false))
     = lines ["foo v3.14"; ""; "My foo is good for you"; ""]%string
  /\ in_colour Red (cells_of (colour_text no_limits 80 h_help (t_root h_help) false))
     = b "    --help,-h" ++ b "    mode1" ++ b "    mode2" ++ end_of_line
  /\ in_colour Green (cells_of (colour_text no_limits 80 h_help (t_root h_help) false))
     = lines ["    Help output"; "        Mode1 description"]%string.
Proof.
  split; [vm_compute; reflexivity|]. split; [reflexivity|]. split; [vm_compute; reflexivity|]. split; [vm_compute; reflexivity|].
  split; [exact h_showable|]. split; [apply h_uncoded, below_self|]. repeat split; vm_compute; reflexivity.
Qed.

(** The page for any other node does not: the first row is a column to the right of where it is on the
    plain page, its description too. *)
Theorem c69_same_refuted : exists r t h out text cells,
  accepted r = true /\ In t (below r) /\ In h (below r) /\ n_kind h = KHelp /\ switched_on t = true
  /\ help_compiles no_limits true t = true /\ showable t /\ uncoded_page no_limits h t
  /\ colour_text no_limits 80 h t true = Ok out /\ help_text no_limits 80 h t true = Ok text
  /\ screen Plain out cells Plain
  /\ text = lines ["foo v3.14"; ""; "My foo is good for you"; "";
                   "mode1             Mode1 description";
                   "    --flag1,-a    Flag1 description";
                   "    --flag2";
                   "    -b            b description"]%string
  /\ map snd cells = lines ["foo v3.14"; ""; "My foo is good for you"; "";
                   " mode1             Mode1 description";
                   "    --flag1,-a    Flag1 description";
                   "    --flag2";
                   "    -b            b description"]%string.
Proof.
  exists h_root, h_mode1, h_help, (page_bytes (colour_text no_limits 80 h_help h_mode1 true)),
    (page_bytes (help_text no_limits 80 h_help h_mode1 true)), (cells_of (colour_text no_limits 80 h_help h_mode1 true)).
  split; [vm_compute; reflexivity|]. split; [exact h_mode1_below|].
  split; [apply (below_child h_help); [now left|apply below_self]|]. split; [reflexivity|]. split; [reflexivity|].
  split; [vm_compute; reflexivity|].
  split; [intros n Hn; apply h_showable; exact (below_trans _ _ _ h_mode1_below Hn)|]. split; [apply h_uncoded, h_mode1_below|].
  split; [vm_compute; reflexivity|]. split; [vm_compute; reflexivity|].
  split; [apply (shown_screen 2000); vm_compute; reflexivity|]. split; vm_compute; reflexivity.
Qed.
Print Assumptions c69_same_refuted.

(** ** C70 *)

(** [h] is the first help argument of the root. *)
Definition first_help (r h : node) : Prop :=
  exists before after, n_children r = before ++ h :: after /\ n_kind h = KHelp
    /\ forall d, In d before -> n_kind d <> KHelp.

(** [help] of the root writes what the program writes when the help argument is the only word on the
    command line. *)
Theorem c70_same_page : forall r mem h argv lim columns,
  well_formed r -> unset r mem -> fits (to_tokens argv) -> asks r h argv [] -> first_help r h ->
  token_end_marker h = None -> (forall n, In n (below r) -> plain_short n) -> enabled r ->
  help_written lim columns (root_parse_strings r mem argv) = [root_help lim columns r].
Proof.
  intros r mem h argv lim columns Hw Hu Hf Ha Hh Hm Hp He.
  assert (Hn : n_kind r = KRoot).
  { apply wf_accepted in Hw. apply accepted_sub in Hw as [Hr _]. unfold is_root in Hr. now destruct (n_kind r). }
  rewrite (c35_shows r mem h argv [] r (has_flatten_help h) Hw Hu Hf Ha Hm Hp (path_here r He)).
  2:{ unfold flattened, has_flatten_help. rewrite existsb_exists. split.
      - intros (p & Hp' & E). left. destruct p; try discriminate; exact Hp'.
      - intros [Hp'|E]; [now exists PFlattenHelp|contradiction]. }
  unfold help_written_of. cbn [o_events flat_map app]. rewrite (first_help_node r h lim columns Hh). reflexivity.
Qed.
Print Assumptions c70_same_page.

(** Its rows. *)
Theorem c70_rows : forall r h lim columns col f,
  accepted r = true -> first_help r h -> switched_on r = true ->
  flattened h r f ->
  help_compiles lim f r = true -> description_column lim f r = Ok col -> (N.of_nat col < 2 ^ 31)%N ->
  (columns < 2 ^ 64)%N -> showable r ->
  exists texts, root_help lim columns r = Ok (preamble h ++ List.concat texts ++ addendum h)
    /\ Forall2 (fun '(n, parents, line) text =>
                  row columns col (4 * List.length parents) (line ++ help_label lim n) (help_description n) text)
               (on_page f r) texts.
Proof.
  intros r h lim columns col f Ha Hh Hon E Hc Hcol Hl Hcs Hs. rewrite (first_help_node r h lim columns Hh).
  apply flattened_is in E. replace (is_root r) with true in E by (symmetry; now apply accepted_sub in Ha).
  rewrite orb_false_r in E. subst f.
  exact (c34_aligned lim columns h _ r r col Ha (below_self r) Hon Hc Hcol Hl Hcs Hs).
Qed.
Print Assumptions c70_rows.

(** Without a help argument nothing is written. *)
Theorem c70_nothing : forall r lim columns, (forall c, In c (n_children r) -> n_kind c <> KHelp) ->
  root_help lim columns r = Ok [].
Proof. exact no_help_node. Qed.
Print Assumptions c70_nothing.

Example c70_example :
  asks h_root h_help [b "-h"] [] /\ first_help h_root h_help /\ enabled h_root
  /\ root_help no_limits 80 (t_root h_help)
     = Ok (lines ["foo v3.14"; ""; "My foo is good for you"; "";
                  "    --help,-h    Help output";
                  "    mode1        Mode1 description";
                  "    mode2"]%string)
  /\ root_help no_limits 80 (root [] [h_mode1]) = Ok [].
Proof.
  split; [apply (h_asks (b "-h") []); right; now left|].
  split; [exists [], [h_mode1; h_mode2; h_off]; split; [reflexivity|]; split; [reflexivity|intros d []]|].
  split; [discriminate|]. split; vm_compute; reflexivity.
Qed.

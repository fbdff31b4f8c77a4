(** Property theorems about the help argument and the help page (C34, C35, C43, C59-C61). *)
From Verif Require Import Bytes Token Result CodePoint Utf8 Tree PreParse Parse Root Build Validator Digits Help Demo.
From Verif Require Import SpecNumeral SpecTake SpecMode SpecDeliver SpecRoot SpecReading SpecLines SpecHelp SpecLabel.
From Verif Require Import Utf8Proofs DigitProofs RootProofs HelpProofs PageProofs LabelTextProofs.

(** The tree of the examples. *)
Definition h_help := help 1 [PLongName (b "help"); PShortName (b "h"); PDescription (b "Help output");
  PProgramName (b "foo"); PProgramVersion (b "v3.14"); PProgramIntro (b "My foo is good for you")].
Definition h_flag1 := flag 10 [PLongName (b "flag1"); PShortName (b "a"); PDescription (b "Flag1 description")].
Definition h_flag2 := flag 11 [PLongName (b "flag2")].
Definition h_b := flag 12 [PShortName (b "b"); PDescription (b "b description")].
Definition h_mode1 := mode 2 [PNoneName (b "mode1"); PDescription (b "Mode1 description"); PRouter]
  [h_flag1; h_flag2; h_b].
Definition h_zip := arg num 21 [PLongName (b "zip"); PDescription (b "Pack with zip, which everybody has")].
Definition h_tar := arg num 22 [PLongName (b "tar"); PValueSeparator (b "="); PRuntimeEnable false].
Definition h_rar := flag 23 [PLongName (b "rar")].
Definition h_lha := flag 24 [PLongName (b "lha")].
Definition h_pack := one_of 1 num 25 [PDefaultValue (VInt 7); PDisplayName (b "One of:")] [h_zip; h_tar; h_rar; h_lha].
Definition h_src := positional_arg strs 26 [PDisplayName (b "SRC"); PDescription (b "What to pack"); PMinMaxCount 1 12].
Definition h_mode2 := mode 3 [PNoneName (b "mode2"); PRouter] [h_pack; h_src].
Definition h_off := mode 4 [PNoneName (b "gone"); PRuntimeEnable false; PRouter] [flag 30 [PLongName (b "deep")]].
Definition h_root := root [] [h_help; h_mode1; h_mode2; h_off].
Definition no_limits (n : node) : option limits := None.

Lemma h_well_formed : well_formed h_root.
Proof. apply well_formed_b_spec. vm_compute. reflexivity. Qed.

(** test/policy/default_help_formatter_test.cpp:309-331 and 332-359: the expected texts, for a tree that
    has only [h_mode1] and a [mode2] with --flag3. *)
Definition lines (l : list string) : bytes := List.concat (map (fun s => b s ++ end_of_line) l).
Definition t_root (h : node) := root [] [h; h_mode1;
  mode 3 [PNoneName (b "mode2"); PRouter]
    [flag 13 [PLongName (b "flag3"); PShortName (b "c"); PDescription (b "Flag3 description")]]].
Example repository_page :
  help_text no_limits 80 h_help (t_root h_help) false
  = Ok (lines ["foo v3.14"; ""; "My foo is good for you"; "";
               "    --help,-h    Help output";
               "    mode1        Mode1 description";
               "    mode2"]%string).
Proof. vm_compute. reflexivity. Qed.
Example repository_flat_page :
  help_text no_limits 80 h_help (t_root h_help) true
  = Ok (lines ["foo v3.14"; ""; "My foo is good for you"; "";
               "    --help,-h         Help output";
               "    mode1             Mode1 description";
               "        --flag1,-a    Flag1 description";
               "        --flag2";
               "        -b            b description";
               "    mode2";
               "        --flag3,-c    Flag3 description"]%string).
Proof. vm_compute. reflexivity. Qed.

Lemma entries_impl {A B C D} (P Q : A * B * C -> D -> Prop) l m : (forall x y z d, P (x, y, z) d -> Q (x, y, z) d) ->
  Forall2 P l m -> Forall2 Q l m.
Proof. intros H. induction 1 as [|[[x y] z] d l m Hd _ IH]; constructor; auto. Qed.

(** ** C34, C59, C60 *)

(** The descriptions can be shown: the text is one that the library can split into code points, and it
    fits into memory. *)
Definition showable (t : node) : Prop :=
  forall n, In n (below t) -> cp_split (help_description n) <> None
                              /\ (N.of_nat (List.length (help_description n)) < 2 ^ 62)%N.

(** For every node of every accepted tree, whatever is switched on or off, and every terminal: the page
    is one row per listed node, in tree order, and all the rows have the same description column. *)
Theorem c34_aligned : forall lim columns h f r t col,
  accepted r = true -> In t (below r) -> switched_on t = true ->
  help_compiles lim f t = true -> description_column lim f t = Ok col -> (N.of_nat col < 2 ^ 31)%N ->
  (columns < 2 ^ 64)%N -> showable t ->
  exists texts, help_text lim columns h t f = Ok (preamble h ++ List.concat texts ++ addendum h)
    /\ Forall2 (fun '(n, parents, line) text =>
                  row columns col (4 * List.length parents) (line ++ help_label lim n) (help_description n) text)
               (on_page f t) texts.
Proof.
  intros lim columns h f r t col H1 H2 H3 H4 H5 H6 H7 H8.
  destruct (page_text lim columns h f r t col H1 H2 H3 H4 H5 H6 H7 H8) as (texts & E & HF).
  exists texts. split; [exact E|]. revert HF. apply entries_impl. exact (fun _ _ _ _ H => H).
Qed.
Print Assumptions c34_aligned.

(** Why the column has to be below 2^31: [std::setw] takes an int, so a gap of 2^31 or more spaces shrinks to one, and
    from 2^32 on it starts again. *)
Theorem c34_gap : forall k,
  ((k < 2 ^ 31)%N -> set_gap k = repeat (ascii_of_N 32) (N.to_nat k))
  /\ ((2 ^ 31 <= k < 2 ^ 32)%N -> set_gap k = [ascii_of_N 32])
  /\ (k <> 0%N -> set_gap (k + 2 ^ 32) = set_gap k).
Proof.
  intros k. split; [|split].
  - intros H. rewrite <- (N2Nat.id k) at 1. apply set_gap_spaces. now rewrite N2Nat.id.
  - intros H. unfold set_gap, int_of_size. destruct (N.eqb_spec k 0) as [E|_]; [lia|].
    rewrite Z.mod_small by lia. destruct (Z.ltb_spec (Z.of_N k) (2 ^ 31)); [lia|].
    replace (Z.to_nat (Z.of_N k - 2 ^ 32)) with 0 by lia. reflexivity.
  - intros H. unfold set_gap, int_of_size. destruct (N.eqb_spec k 0) as [E|_]; [easy|].
    destruct (N.eqb_spec (k + 2 ^ 32) 0) as [E|_]; [lia|]. rewrite N2Z.inj_add.
    change (Z.of_N (2 ^ 32)) with (1 * 2 ^ 32)%Z. now rewrite Z.mod_add by lia.
Qed.
Print Assumptions c34_gap.

(** When the page of [t] compiles: every group has a display name, no description below [t] has a tab in it,
    and the column of the descriptions can be computed. *)
Theorem c34_compiles : forall lim f t,
  help_compiles lim f t = true <->
  (exists col, description_column lim f t = Ok col) /\
  (forall n, In n (below t) -> ((exists inst, n_kind n = KOneOf inst) \/ n_kind n = KAliasGroup) ->
     exists s, In (PDisplayName s) (n_pols n)) /\
  (forall c n, In c (n_children t) -> In n (below c) -> ~ In (ascii_of_N 9) (help_description n)).
Proof. exact help_compiles_iff. Qed.
Print Assumptions c34_compiles.

(** The same for a whole run: the words after the help argument lead to [t], and the page is written. *)
Theorem c59_page_of_run : forall r mem h argv names lim columns t col f,
  well_formed r -> unset r mem -> fits (to_tokens argv) -> asks r h argv names ->
  token_end_marker h = None -> (forall n, In n (below r) -> plain_short n) ->
  path r names t -> flattened h t f ->
  help_compiles lim f t = true -> description_column lim f t = Ok col -> (N.of_nat col < 2 ^ 31)%N ->
  (columns < 2 ^ 64)%N -> showable t ->
  exists texts, help_written lim columns (root_parse_strings r mem argv)
                = [Ok (preamble h ++ List.concat texts ++ addendum h)]
    /\ Forall2 (fun '(n, parents, line) text =>
                  row columns col (4 * List.length parents) (line ++ help_label lim n) (help_description n) text)
               (on_page f t) texts.
Proof.
  intros r mem h argv names lim columns t col f Hw Hu Hf Ha Hm Hp Hpath E H1 H2 H3 H4 H5.
  apply flattened_is in E. subst f.
  destruct (run_page r mem h argv names Hw Hu Hf Ha Hm Hp lim columns t col Hpath H1 H2 H3 H4 H5) as (texts & E & HF).
  exists texts. split; [exact E|]. revert HF. apply entries_impl. exact (fun _ _ _ _ H => H).
Qed.
Print Assumptions c59_page_of_run.

(** Every line of the rows fits into the terminal, unless it is so narrow that there are less than eight
    columns for the descriptions. *)
Theorem c60_fits : forall lim columns h f r t col,
  accepted r = true -> In t (below r) -> switched_on t = true ->
  help_compiles lim f t = true -> description_column lim f t = Ok col -> (N.of_nat col < 2 ^ 31)%N ->
  (columns < 2 ^ 64)%N -> showable t -> (N.of_nat (col + 8) <= columns)%N ->
  exists ls, help_text lim columns h t f
             = Ok (preamble h ++ List.concat (map (fun l => l ++ end_of_line) ls) ++ addendum h)
    /\ Forall (fun l => exists w, terminal_width l = Some w /\ (N.of_nat w <= columns)%N) ls.
Proof. exact page_fits. Qed.
Print Assumptions c60_fits.

(** A page for a narrow terminal; --tar and the mode "gone" are switched off. *)
Example h_page :
  help_text no_limits 44 h_help h_root true
  = Ok (lines ["foo v3.14";
               "";
               "My foo is good for you";
               "";
               "    --help,-h                  Help output";
               "    mode1                      Mode1 ";
               "                               description";
               "        --flag1,-a             Flag1 ";
               "                               description";
               "        --flag2";
               "        -b                     b description";
               "    mode2";
               "        One of:"]%string
        ++ spaces 12 ++ top ++ lines ["--zip <Value>    Pack with "]%string
        ++ lines ["                               zip, which ";
               "                               everybody has"]%string
        ++ spaces 12 ++ middle ++ lines ["--rar"]%string
        ++ spaces 12 ++ bottom ++ lines ["--lha"]%string
        ++ lines ["        <SRC> [1,12]           What to pack"]%string).
Proof. vm_compute. reflexivity. Qed.

Definition entry_ids (l : list (node * list node * bytes)) : list (N * nat * bytes) :=
  map (fun '(n, ps, line) => (n_id n, List.length ps, line)) l.

Lemma h_showable : showable h_root.
Proof.
  assert (H : forallb (fun n => match cp_split (help_description n) with
                                | Some _ => N.ltb (N.of_nat (List.length (help_description n))) (2 ^ 62)
                                | None => false end) (below h_root) = true) by (vm_compute; reflexivity).
  intros n Hn. rewrite forallb_forall in H. specialize (H n Hn). destruct (cp_split (help_description n)); [|discriminate].
  split; [discriminate|now apply N.ltb_lt].
Qed.

(** The hypotheses for this page: the column is 31, and these are the listed nodes. *)
Example c34_example :
  accepted h_root = true /\ switched_on h_root = true /\ help_compiles no_limits true h_root = true /\
  description_column no_limits true h_root = Ok 31%nat /\ showable h_root /\
  entry_ids (on_page true h_root)
  = [(1, 1%nat, []); (2, 1%nat, []); (10, 2%nat, []); (11, 2%nat, []); (12, 2%nat, []);
     (3, 1%nat, []); (25, 2%nat, []); (21, 3%nat, top); (23, 3%nat, middle); (24, 3%nat, bottom);
     (26, 2%nat, [])]%N.
Proof.
  split; [vm_compute; reflexivity|]. split; [reflexivity|]. split; [vm_compute; reflexivity|].
  split; [vm_compute; reflexivity|]. split; [exact h_showable|vm_compute; reflexivity].
Qed.

(** A tab in a description and a group without a display name are refused; two spaces are not. *)
Example c34_compiles_example :
  let page text := mode 1 [] [flag 2 [PLongName (b "all"); PDescription text]] in
  help_compiles no_limits true (page (b "every" ++ [ascii_of_N 9] ++ b "file")) = false /\
  help_compiles no_limits true (page (b "every  file")) = true /\
  help_compiles no_limits true (mode 1 [] [Node KAliasGroup 3 (n_ty (page [])) [] [page []]]) = false.
Proof. vm_compute. repeat split. Qed.

(** ** C35 *)

(** The words after the help argument are names that lead to [t] from the root: the page of [t] is
    shown and nothing else happens. *)
Theorem c35_shows : forall r mem h argv names t f,
  well_formed r -> unset r mem -> fits (to_tokens argv) -> asks r h argv names ->
  token_end_marker h = None -> (forall n, In n (below r) -> plain_short n) ->
  path r names t -> flattened h t f ->
  root_parse_strings r mem argv = Out mem [EvHelp h t f] (if has_router h then Ok tt else Exited).
Proof.
  intros r mem h argv names t f H1 H2 H3 H4 H5 H6 H7 E. apply flattened_is in E. subst f.
  exact (run_found r mem h argv names H1 H2 H3 H4 H5 H6 t H7).
Qed.
Print Assumptions c35_shows.

(** A word that is not the name of a child is the error. *)
Theorem c35_unknown : forall r mem h argv names s,
  well_formed r -> unset r mem -> fits (to_tokens argv) -> asks r h argv names ->
  token_end_marker h = None -> (forall n, In n (below r) -> plain_short n) ->
  lost r names s ->
  root_parse_strings r mem argv = Out mem [] (Throw (EML unknown_argument [Tok PNone s])).
Proof. exact (fun r mem h argv names t H1 H2 H3 H4 H5 H6 H7 => run_lost r mem h argv names H1 H2 H3 H4 H5 H6 t H7). Qed.
Print Assumptions c35_unknown.

(** The two cases, and a path to a node that is switched off, are all there are. *)
Theorem c35_cases : forall r mem h argv names,
  well_formed r -> unset r mem -> fits (to_tokens argv) -> asks r h argv names ->
  token_end_marker h = None -> (forall n, In n (below r) -> plain_short n) ->
  (exists t, path r names t /\ forall u, path r names u -> u = t)
  \/ (exists s, lost r names s /\ forall x, lost r names x -> x = s)
  \/ (exists rest, reaches_off r names rest /\ forall x, reaches_off r names x -> x = rest).
Proof.
  intros r mem h argv names Hw Hu Hf Ha Hm Hp.
  destruct (run_cases r names Hw Hp) as [[t H]|[[s H]|[rest H]]];
    [left; exists t|right; left; exists s|right; right; exists rest]; (split; [exact H|]).
  - exact (path_det _ _ _ H).
  - exact (lost_det _ _ _ H).
  - exact (off_det _ _ _ H).
Qed.
Print Assumptions c35_cases.

(** A node that is switched off with further words behind its name: an error, but about the next word.
    Missing for the full statement: it should be about the node, and see [c35_disabled_refuted]. *)
Theorem c35_disabled_partial : forall r mem h argv names s more,
  well_formed r -> unset r mem -> fits (to_tokens argv) -> asks r h argv names ->
  token_end_marker h = None -> (forall n, In n (below r) -> plain_short n) ->
  reaches_off r names (s :: more) ->
  root_parse_strings r mem argv = Out mem [] (Throw (EML unknown_argument [Tok PNone s])).
Proof. exact (fun r mem h argv names s more H1 H2 H3 H4 H5 H6 H7 => run_off r mem h argv names H1 H2 H3 H4 H5 H6 s more H7). Qed.
Print Assumptions c35_disabled_partial.

(** If the words stop there, it is undefined behaviour. *)
Theorem c35_disabled : forall r mem h argv names,
  well_formed r -> unset r mem -> fits (to_tokens argv) -> asks r h argv names ->
  token_end_marker h = None -> (forall n, In n (below r) -> plain_short n) ->
  reaches_off r names [] -> root_parse_strings r mem argv = Out mem [] UB.
Proof. exact (fun r mem h argv names H1 H2 H3 H4 H5 H6 H7 => run_off_ub r mem h argv names H1 H2 H3 H4 H5 H6 H7). Qed.
Print Assumptions c35_disabled.

Definition h_plain_b (n : node) : bool :=
  match short_name n with Some s => negb (starts_with short_prefix s) | None => true end.
Lemma h_plain n : In n (below h_root) -> plain_short n.
Proof.
  assert (H : forallb h_plain_b (below h_root) = true) by (vm_compute; reflexivity).
  intros Hn s Hs. rewrite forallb_forall in H. specialize (H n Hn). unfold h_plain_b in H. rewrite Hs in H.
  now apply negb_true_iff.
Qed.
Lemma h_asks s names : In s [b "--help"; b "-h"] -> asks h_root h_help (s :: names) names.
Proof.
  intros Hs. exists [], [h_mode1; h_mode2; h_off], s. split; [reflexivity|]. split; [reflexivity|].
  split; [reflexivity|]. split; [|intros d []].
  destruct Hs as [<-|[<-|[]]]; [left|right; left]; reflexivity.
Qed.
Lemma no_name c s : forallb (fun x => negb (beq x s)) (typed_names c) = true -> ~ called_by c s.
Proof.
  intros H Hin. rewrite forallb_forall in H. specialize (H s Hin). apply negb_true_iff in H.
  assert (E : beq s s = true) by now apply beq_eq. congruence.
Qed.

(** "--help mode1 -b" shows -b; "-h mode1 --zip" and "-h mode3" are errors; "--help gone" is
    undefined behaviour. *)
Lemma h_path : path h_root [b "mode1"; b "-b"] h_b.
Proof.
  apply path_child with [h_help] h_mode1 [h_mode2; h_off]; [discriminate|reflexivity|now left| |].
  { intros d [<-|[]]. now apply no_name. }
  apply path_child with [h_flag1; h_flag2] h_b []; [discriminate|reflexivity|now left| |].
  { intros d [<-|[<-|[]]]; now apply no_name. }
  constructor. discriminate.
Qed.
Example c35_example :
  root_parse_strings h_root [] [b "--help"; b "mode1"; b "-b"] = Out [] [EvHelp h_help h_b true] Exited /\
  help_written no_limits 80 (root_parse_strings h_root [] [b "--help"; b "mode1"; b "-b"])
  = [Ok (lines ["foo v3.14"; ""; "My foo is good for you"; ""; "-b    b description"]%string)].
Proof.
  split; [|vm_compute; reflexivity].
  apply (c35_shows h_root [] h_help _ [b "mode1"; b "-b"] h_b);
    [exact h_well_formed|intros o _; reflexivity|reflexivity|apply h_asks; now left|reflexivity|exact h_plain|exact h_path|].
  split; [intros _; right; discriminate|reflexivity].
Qed.
Example c35_unknown_example :
  lost h_root [b "mode1"; b "--zip"] (b "--zip") /\
  o_res (root_parse_strings h_root [] [b "-h"; b "mode1"; b "--zip"]) = Throw (EML unknown_argument [Tok PNone (b "--zip")]).
Proof.
  split; [|vm_compute; reflexivity].
  apply lost_below with [h_help] h_mode1 [h_mode2; h_off]; [discriminate|reflexivity|now left| |].
  { intros d [<-|[]]. now apply no_name. }
  apply lost_here; [discriminate|]. intros c [<-|[<-|[<-|[]]]]; now apply no_name.
Qed.
Lemma h_reaches_off rest : reaches_off h_root (b "gone" :: rest) rest.
Proof.
  apply off_below with [h_help; h_mode1; h_mode2] h_off []; [discriminate|reflexivity|now left| |].
  { intros d [<-|[<-|[<-|[]]]]; now apply no_name. }
  constructor. intros H. now apply H.
Qed.
Theorem c35_disabled_refuted : exists r h argv names,
  well_formed r /\ unset r [] /\ fits (to_tokens argv) /\ asks r h argv names /\ reaches_off r names [] /\
  forall e, o_res (root_parse_strings r [] argv) <> Throw e.
Proof.
  exists h_root, h_help, [b "--help"; b "gone"], [b "gone"]. split; [exact h_well_formed|]. split; [intros o _; reflexivity|].
  split; [reflexivity|]. split; [apply h_asks; now left|]. split; [apply h_reaches_off|].
  replace (o_res _) with (@UB unit) by (vm_compute; reflexivity). discriminate.
Qed.
Print Assumptions c35_disabled_refuted.
Example c35_disabled_example :
  reaches_off h_root [b "gone"; b "--deep"] [b "--deep"] /\
  o_res (root_parse_strings h_root [] [b "-h"; b "gone"; b "--deep"])
  = Throw (EML unknown_argument [Tok PNone (b "--deep")]).
Proof. split; [apply h_reaches_off|vm_compute; reflexivity]. Qed.

(** The hypotheses of [c59_page_of_run] for "--help mode2". *)
Example c59_example :
  path h_root [b "mode2"] h_mode2 /\ help_compiles no_limits true h_mode2 = true /\
  description_column no_limits true h_mode2 = Ok 27%nat /\
  entry_ids (on_page true h_mode2)
  = [(3, 0%nat, []); (25, 1%nat, []); (21, 2%nat, top); (23, 2%nat, middle); (24, 2%nat, bottom); (26, 1%nat, [])]%N.
Proof.
  split; [|repeat split; vm_compute; reflexivity].
  apply path_child with [h_help; h_mode1] h_mode2 [h_off]; [discriminate|reflexivity|now left| |].
  { intros d [<-|[<-|[]]]; now apply no_name. }
  constructor. discriminate.
Qed.

(** ** C61, C43 *)

(** The label of every node of an accepted tree, with the numbers as the library writes them. *)
Theorem c61_label : forall lim r n, accepted r = true -> In n (below r) -> is_root n = false -> has_label n = true ->
  label_text (fun z s => s = integral_cts z) lim n (help_label lim n).
Proof. exact (fun lim r n H1 H2 H3 H4 => node_label _ lim r n H1 H2 H3 H4 (fun z _ => eq_refl)). Qed.
Print Assumptions c61_label.

(** The limits on the labels are decimal numerals if none of them has a zero before its last digit.
    Missing for the full statement: the other numbers, see [c43_label_refuted]. *)
Theorem c43_label_partial : forall lim r n, accepted r = true -> In n (below r) -> is_root n = false -> has_label n = true ->
  (forall z ds, In z (numbers lim n) -> writes (Z.abs_N z) ds -> ~ In 0%N (removelast ds)) ->
  label_text decimal lim n (help_label lim n).
Proof.
  exact (fun lim r n H1 H2 H3 H4 Hz =>
    node_label _ lim r n H1 H2 H3 H4 (fun z Hin => cts_decimal z (fun ds => Hz z ds Hin))).
Qed.
Print Assumptions c43_label_partial.

Example c61_example :
  accepted h_root = true /\ has_label h_src = true /\
  help_label no_limits h_src = b "<SRC> [1,12]" /\ help_label no_limits h_tar = b "--tar=<Value>" /\
  help_label no_limits h_flag1 = b "--flag1,-a" /\ numbers no_limits h_src = [1; 12]%Z.
Proof. repeat split; vm_compute; reflexivity. Qed.

(** An argument that takes 1 to 100 values is shown like one that takes 1 to 10. *)
Definition k_src := positional_arg strs 26 [PDisplayName (b "SRC"); PMinMaxCount 1 100].
Definition k_root := root [] [h_help; mode 3 [PNoneName (b "mode2"); PRouter] [k_src]].
Theorem c43_label_refuted : exists lim r n, accepted r = true /\ In n (below r) /\ is_root n = false /\
  has_label n = true /\ ~ label_text decimal lim n (help_label lim n).
Proof.
  exists no_limits, k_root, k_src. split; [vm_compute; reflexivity|]. split; [right; right; right; left; reflexivity|].
  split; [reflexivity|]. split; [reflexivity|].
  assert (E : help_label no_limits k_src = b "<SRC> [1,10]") by (vm_compute; reflexivity). rewrite E. intros H.
  inversion H as [v Hk|v c Hk|d c Hk Hd Hc Heq|i d Hk|d Hk|d v Hk|Hk]; try discriminate; try contradiction.
  - destruct Hk; discriminate.
  - injection Hd as <-. cbn [app] in Heq. injection Heq as Heq.
    inversion Hc as [k x Hb Hx Hcc|lo hi x y Hb Hne Hmax Hx Hy Hcc|lo x Hb Hne Hx Hcc].
    + vm_compute in Hb. congruence.
    + injection Hb as <- <-. destruct Hx as (d1 & W1 & ->). destruct Hy as (d2 & W2 & ->). subst c.
      assert (W1' : d1 = [1]%N).
      { apply (writes_unique _ _ _ W1). split; [|reflexivity]. split; [repeat constructor|discriminate|intros d ds' [=]]. }
      assert (W2' : d2 = [1; 0; 0]%N).
      { apply (writes_unique _ _ _ W2). split; [|reflexivity]. split; [repeat constructor|discriminate|intros d ds' [=]]. }
      subst. match goal with E : _ = [_; _; _; _; _; _] |- _ => vm_compute in E; discriminate end.
    + vm_compute in Hb. congruence.
Qed.
Print Assumptions c43_label_refuted.

(** Proofs for C82: the generated tables. *)
From Coq Require Import Permutation.
From Verif Require Import Bytes CodePoint Utf8 TableGen.
From Verif Require Import SpecNumeral SpecLines SpecTableGen.
From Verif Require Import CodePointProofs Utf8Proofs LineProofs.
Local Open Scope list_scope.

(** ** White space *)

Lemma space_iff c : py_space c = true <-> white c.
Proof.
  unfold py_space, white, byte_val. generalize (N_of_ascii c). intros x. rewrite orb_true_iff, !andb_true_iff, !N.leb_le. cbn [In]. lia.
Qed.
Lemma space_not c : py_space c = false <-> ~ white c.
Proof. rewrite <- space_iff. destruct (py_space c); intuition congruence. Qed.

Lemma drop_blank s t : blank s -> drop_space (s ++ t) = drop_space t.
Proof. induction 1 as [|c s Hc _ IH]; [reflexivity|]. cbn [app drop_space]. apply space_iff in Hc. now rewrite Hc. Qed.
Lemma drop_keep c s : ~ white c -> drop_space (c :: s) = c :: s.
Proof. intros H. apply space_not in H. cbn [drop_space]. now rewrite H. Qed.
Lemma blank_in s c : blank s -> In c s -> white c.
Proof. intros H. now apply (proj1 (Forall_forall white s) H). Qed.
Lemma blank_rev s : blank s -> blank (rev s).
Proof. unfold blank. rewrite !Forall_forall. intros H c Hc. apply H. now apply in_rev. Qed.
Lemma blank_app s t : blank s -> blank t -> blank (s ++ t).
Proof. unfold blank. rewrite Forall_app. auto. Qed.

(** White space cut off at the end only. *)
Definition cut (s : bytes) : bytes := rev (drop_space (rev s)).
Lemma cut_keep s c t : ~ white c -> cut (s ++ c :: t) = s ++ c :: cut t.
Proof.
  intros Hc. unfold cut. rewrite rev_app_distr. cbn [rev]. rewrite <- app_assoc. cbn [app].
  assert (G : forall u, drop_space (u ++ c :: rev s) = drop_space u ++ c :: rev s).
  { induction u as [|d u IH]; [cbn [app]; now apply drop_keep|]. cbn [app drop_space]. now destruct (py_space d). }
  rewrite G, rev_app_distr. cbn [rev]. rewrite rev_involutive, <- app_assoc. reflexivity.
Qed.
Lemma cut_blank s : blank s -> cut s = [].
Proof.
  intros H. unfold cut. apply blank_rev in H. rewrite <- (app_nil_r (rev s)), drop_blank by easy. reflexivity.
Qed.
Lemma strip_cut s : strip s = cut (drop_space s). Proof. reflexivity. Qed.

(** Text with no white space at its ends. *)
Record trim (p : bytes) : Prop := {
  tr_front : forall c p', p = c :: p' -> ~ white c;
  tr_back : forall c p', p = p' ++ [c] -> ~ white c
}.
Lemma strip_trim s0 p s1 : blank s0 -> blank s1 -> trim p -> strip (s0 ++ p ++ s1) = p.
Proof.
  intros H0 H1 [Hf Hb]. rewrite strip_cut, drop_blank by easy. destruct p as [|c p]; cbn [app].
  - rewrite <- (app_nil_r s1), drop_blank by easy. reflexivity.
  - rewrite drop_keep by now apply (Hf c p). change (c :: p ++ s1) with ((c :: p) ++ s1).
    destruct (exists_last (l := c :: p)) as (q & d & E); [discriminate|]. rewrite E, <- app_assoc. cbn [app].
    rewrite cut_keep by now apply (Hb d q). rewrite cut_blank by easy. reflexivity.
Qed.
Lemma trim_all p : (forall c, In c p -> ~ white c) -> trim p.
Proof. intros H. constructor; intros c p' ->; apply H; [now left|apply in_elt]. Qed.

(** ** Numbers *)

Lemma digit_hex c d : digit_is c d -> hex_digit c = Some d /\ (d < 16)%N.
Proof.
  unfold digit_is. intros H. assert (Hd : (N.to_nat d < 16)%nat).
  { destruct H as [H|H].
    - apply (proj1 (nth_error_Some (b "0123456789ABCDEF") (N.to_nat d))). congruence.
    - apply (proj1 (nth_error_Some (b "0123456789abcdef") (N.to_nat d))). congruence. }
  assert (G : forall k, k < 16 -> nth_error (b "0123456789ABCDEF") k = Some c \/ nth_error (b "0123456789abcdef") k = Some c ->
    hex_digit c = Some (N.of_nat k)).
  { clear. intros k Hk H. do 16 (destruct k as [|k]; [cbn [nth_error b list_ascii_of_string] in H; destruct H as [H|H]; injection H as <-; reflexivity|]). lia. }
  specialize (G _ Hd H). rewrite N2Nat.id in G. split; [exact G|lia].
Qed.
Lemma hex_not_white c d : hex_digit c = Some d -> ~ white c /\ c <> "."%char /\ c <> ";"%char.
Proof.
  intros H. split; [|split; intros ->; discriminate H]. intros Hw. apply space_iff in Hw. revert H Hw. unfold hex_digit, py_space.
  generalize (byte_val c). intros x.
  destruct (_ && _) eqn:E1; [|destruct (N.leb 65 x && _) eqn:E2; [|destruct (N.leb 97 x && _) eqn:E3; [|discriminate]]]; intros _ Hw;
    rewrite orb_true_iff, !andb_true_iff, !N.leb_le in Hw; rewrite andb_true_iff, !N.leb_le in *; lia.
Qed.
Lemma hex_digits_snoc s : forall acc c, hex_digits acc (s ++ [c]) =
  match hex_digits acc s, hex_digit c with Some n, Some d => Some (16 * n + d)%N | _, _ => None end.
Proof.
  induction s as [|x s IH]; intros acc c; cbn [app hex_digits]; [destruct (hex_digit c); reflexivity|].
  destruct (hex_digit x); [apply IH|reflexivity].
Qed.
Lemma hexadecimal_read s n : hexadecimal s n -> s <> [] /\ (forall c, In c s -> exists d, hex_digit c = Some d) /\ hex_digits 0 s = Some n.
Proof.
  induction 1 as [c d H|s n c d Hs (IH1 & IH2 & IH3) H].
  - apply digit_hex in H as [H _]. split; [discriminate|]. split; [intros c' [<-|[]]; eauto|]. cbn [hex_digits]. now rewrite H.
  - apply digit_hex in H as [H _]. split; [destruct s; discriminate|]. split.
    + intros c' Hc. apply in_app_iff in Hc as [Hc|[<-|[]]]; eauto.
    + rewrite hex_digits_snoc, IH3, H. reflexivity.
Qed.
Lemma hexadecimal_chars s n c : hexadecimal s n -> In c s -> ~ white c /\ c <> "."%char /\ c <> ";"%char.
Proof. intros H Hc. apply hexadecimal_read in H as (_ & H & _). destruct (H c Hc) as [d Hd]. now apply hex_not_white in Hd. Qed.
Lemma hexadecimal_int s n : hexadecimal s n -> int_16 s = Some n.
Proof.
  intros H. unfold int_16. assert (E : strip s = s).
  { rewrite <- (app_nil_r s) at 1. apply (strip_trim [] s []); [constructor|constructor|]. apply trim_all. intros c Hc.
    now apply (hexadecimal_chars s n c). }
  rewrite E. apply hexadecimal_read in H as (H1 & _ & H2). now destruct s.
Qed.

(** ** Searching *)

Lemma find_text_app c p z : forall a, ~ In c a -> find_text (c :: p) (a ++ (c :: p) ++ z) = Some (List.length a).
Proof.
  induction a as [|d a IH]; intros Ha.
  - cbn [app find_text]. assert (E : starts_with (c :: p) (c :: p ++ z) = true).
    { change (c :: p ++ z) with ((c :: p) ++ z). generalize (c :: p). intros q. induction q as [|x q IH]; [reflexivity|].
      cbn [app starts_with]. now rewrite Ascii.eqb_refl. }
    now rewrite E.
  - cbn [app find_text starts_with List.length]. destruct (Ascii.eqb_spec c d) as [->|_]; [destruct Ha; now left|]. cbn [andb].
    cbn [app] in IH. rewrite IH by (intros H; apply Ha; now right). reflexivity.
Qed.
Lemma find_text_none c p : forall s, ~ In c s -> find_text (c :: p) s = None.
Proof.
  induction s as [|d s IH]; intros Ha; [reflexivity|]. cbn [find_text starts_with].
  destruct (Ascii.eqb_spec c d) as [->|_]; [destruct Ha; now left|]. cbn [andb]. rewrite IH by (intros H; apply Ha; now right). reflexivity.
Qed.
Lemma slice_front s t : slice (s ++ t) 0 (List.length s) = s.
Proof. unfold slice. rewrite Nat.sub_0_r. cbn [skipn]. rewrite firstn_app, Nat.sub_diag, firstn_all, firstn_O. apply app_nil_r. Qed.
Lemma slice_mid s t u i j : i = List.length s -> j = List.length s + List.length t -> slice (s ++ t ++ u) i j = t.
Proof.
  intros -> ->. unfold slice. rewrite skipn_app, skipn_all, Nat.sub_diag. cbn [app skipn]. replace (_ - _) with (List.length t) by lia.
  rewrite firstn_app, Nat.sub_diag, firstn_all, firstn_O. apply app_nil_r.
Qed.

(** ** Lines *)

Lemma place_chars w f l c : place w f l -> In c w -> ~ white c /\ c <> ";"%char.
Proof.
  intros [s x H|s x s' y H H'] Hc.
  - split; now apply (hexadecimal_chars s x c H).
  - apply in_app_iff in Hc as [Hc|Hc]; [split; now apply (hexadecimal_chars s x c H)|].
    cbn [b list_ascii_of_string app] in Hc. destruct Hc as [<-|[<-|Hc]]; [| |split; now apply (hexadecimal_chars s' y c H')];
      (split; [|discriminate]); unfold white; cbv; intuition discriminate.
Qed.
Lemma place_nonempty w f l : place w f l -> exists c w', w = c :: w'.
Proof.
  intros [s x H|s x s' y H H']; apply hexadecimal_read in H as (H & _); destruct s as [|c s]; try contradiction; cbn [app]; eauto.
Qed.
Lemma place_row w f l s1 rest meta : place w f l -> blank s1 ->
  create_row (w ++ s1 ++ rest) (List.length (w ++ s1)) meta = Some (f, l, meta).
Proof.
  intros Hp Hb. unfold create_row. rewrite app_assoc, slice_front.
  assert (E : strip (w ++ s1) = w).
  { apply (strip_trim [] w s1); [constructor|exact Hb|]. apply trim_all. intros c Hc. now apply (place_chars w f l c). }
  rewrite E. destruct Hp as [s x H|s x s' y H H'].
  - unfold range_divider. cbn [b list_ascii_of_string]. rewrite find_text_none.
    + now rewrite (hexadecimal_int s x H).
    + intros Hc. now apply (hexadecimal_chars s x _ H) in Hc.
  - unfold range_divider. cbn [b list_ascii_of_string]. rewrite (find_text_app "."%char ["."%char] s').
    + change (s ++ ["."%char; "."%char] ++ s') with (s ++ ["."%char; "."%char] ++ s'). rewrite slice_front, (hexadecimal_int s x H).
      assert (E2 : slice (s ++ ["."%char; "."%char] ++ s') (List.length s + 2) (List.length (s ++ ["."%char; "."%char] ++ s')) = s').
      { rewrite app_assoc. rewrite <- (app_nil_r s') at 1. apply slice_mid; rewrite !app_length; cbn [List.length]; lia. }
      rewrite E2, (hexadecimal_int s' y H'). reflexivity.
    + intros Hc. now apply (hexadecimal_chars s x _ H) in Hc.
Qed.

Lemma sign_not_white : ~ white "#"%char. Proof. unfold white. cbv. intuition discriminate. Qed.
Lemma semicolon_not_white : ~ white ";"%char. Proof. unfold white. cbv. intuition discriminate. Qed.

(** A line with an entry, as the script sees it. *)
Lemma entry_line line e : says line e -> exists w s1 rest,
  let sc := List.length (w ++ s1) in
  strip line = w ++ s1 ++ rest /\ get_abbreviation (strip line) = Some (Some (sc, e_property e))
  /\ (forall meta, create_row (strip line) sc meta = Some (e_first e, e_last e, meta))
  /\ (match find_text_from [comment] (strip line) sc with
      | Some c_pos => exists note pre, strip line = pre ++ "#"%char :: cut note /\ List.length pre = c_pos /\ e_note e = Some note
      | None => e_note e = None
      end).
Proof.
  intros [s0 w s1 s2 p s3 tail note f l H0 Hw H1 H2 Hp H3 Ht]. cbn [e_property e_first e_last e_note].
  assert (Hws : forall c, In c (w ++ s1) -> c <> ";"%char).
  { intros c Hc ->. apply in_app_iff in Hc as [Hc|Hc]; [now apply (place_chars w f l _ Hw) in Hc|].
    apply semicolon_not_white. now apply (blank_in s1). }
  set (rest := b ";" ++ match tail with [] => s2 ++ p | _ :: _ => s2 ++ p ++ s3 ++ "#"%char :: cut (tl tail) end).
  exists w, s1, rest. cbv zeta.
  assert (E : strip (s0 ++ w ++ s1 ++ b ";" ++ s2 ++ p ++ s3 ++ tail) = w ++ s1 ++ rest).
  { rewrite strip_cut, drop_blank by easy. destruct (place_nonempty w f l Hw) as (c & w' & Ew).
    assert (Hc : ~ white c) by (apply (place_chars w f l c Hw); rewrite Ew; now left).
    rewrite Ew. cbn [app]. rewrite drop_keep by easy. change (c :: w' ++ ?x) with ((c :: w') ++ x). rewrite <- Ew.
    unfold rest. destruct Ht as [[-> ->]|(n & -> & ->)].
    - destruct (exists_last (l := p)) as (q & d & Ep); [apply Hp|]. rewrite Ep. rewrite app_nil_r.
      assert (Hd : ~ white d) by now apply (pr_back p Hp d q).
      replace (w ++ s1 ++ b ";" ++ s2 ++ (q ++ [d]) ++ s3) with ((w ++ s1 ++ b ";" ++ s2 ++ q) ++ d :: s3)
        by (rewrite <- !app_assoc; reflexivity).
      rewrite cut_keep, cut_blank by easy. rewrite <- !app_assoc. reflexivity.
    - replace (w ++ s1 ++ b ";" ++ s2 ++ p ++ s3 ++ "#"%char :: n) with ((w ++ s1 ++ b ";" ++ s2 ++ p ++ s3) ++ "#"%char :: n)
        by (rewrite <- !app_assoc; reflexivity).
      rewrite cut_keep by apply sign_not_white. rewrite <- !app_assoc. reflexivity. }
  assert (Hfs : find_text (b ";") (w ++ s1 ++ rest) = Some (List.length (w ++ s1))).
  { unfold rest. rewrite app_assoc. apply (find_text_app ";"%char []). intros Hc. now apply Hws in Hc. }
  assert (Hsk : skipn (List.length (w ++ s1)) (w ++ s1 ++ rest) = rest).
  { rewrite app_assoc, skipn_app, skipn_all, Nat.sub_diag. reflexivity. }
  assert (Hp2 : ~ In "#"%char (b ";" ++ s2 ++ p)).
  { intros Hc. cbn [b list_ascii_of_string app] in Hc. destruct Hc as [Hc|Hc]; [discriminate|].
    apply in_app_iff in Hc as [Hc|Hc]; [|now apply Hp in Hc]. apply sign_not_white. now apply (blank_in s2). }
  assert (Hp3 : ~ In "#"%char (b ";" ++ s2 ++ p ++ s3)).
  { rewrite !app_assoc. intros Hc. apply in_app_iff in Hc as [Hc|Hc]; [rewrite <- app_assoc in Hc; contradiction|].
    apply sign_not_white. now apply (blank_in s3). }
  assert (Hfc : find_text_from [comment] (w ++ s1 ++ rest) (List.length (w ++ s1)) =
    match tail with [] => None | _ => Some (List.length (w ++ s1) + List.length (b ";" ++ s2 ++ p ++ s3)) end).
  { unfold find_text_from. rewrite Hsk. unfold rest. destruct Ht as [[-> ->]|(n & -> & ->)].
    - unfold comment. now rewrite find_text_none.
    - cbn [tl]. change ("#"%char :: cut n) with ([comment] ++ cut n).
      replace (b ";" ++ s2 ++ p ++ s3 ++ [comment] ++ cut n) with ((b ";" ++ s2 ++ p ++ s3) ++ [comment] ++ cut n)
        by (rewrite <- !app_assoc; reflexivity).
      unfold comment at 1 2. rewrite (find_text_app "#"%char []) by easy. reflexivity. }
  assert (Htr : trim p) by (constructor; apply Hp).
  rewrite E. split; [reflexivity|]. split; [|split].
  - unfold get_abbreviation. destruct (place_nonempty w f l Hw) as (c & w' & Ew).
    assert (Hc0 : hex_digit c <> None).
    { clear - Hw Ew. destruct Hw as [s x H|s x s' y H H'].
      - apply hexadecimal_read in H as (_ & H & _). destruct (H c) as [d ->]; [rewrite Ew; now left|discriminate].
      - apply hexadecimal_read in H as (Hn & H & _). destruct s as [|d s]; [contradiction|]. cbn [app] in Ew. injection Ew as <- _.
        destruct (H d) as [x0 ->]; [now left|discriminate]. }
    assert (Hcc : Ascii.eqb c comment = false).
    { destruct (Ascii.eqb_spec c comment) as [->|_]; [|reflexivity]. now cbn in Hc0. }
    rewrite Hfs, Hfc. clear Hfs Hfc Hsk E Hws. revert rest. rewrite Ew. intros rest. cbn [app]. rewrite Hcc.
    change (c :: w' ++ ?x) with ((c :: w') ++ x). rewrite <- Ew. do 3 f_equal. unfold rest.
    destruct Ht as [[-> ->]|(n & -> & ->)].
    + transitivity (strip (s2 ++ p ++ [])); [f_equal; rewrite app_nil_r|apply strip_trim; [exact H2|constructor|exact Htr]].
      replace (w ++ s1 ++ b ";" ++ s2 ++ p) with ((w ++ s1 ++ b ";") ++ (s2 ++ p) ++ []) by (rewrite app_nil_r, <- !app_assoc; reflexivity).
      apply slice_mid; rewrite !app_length; cbn; lia.
    + transitivity (strip (s2 ++ p ++ s3)); [f_equal|now apply strip_trim]. cbn [tl].
      replace (w ++ s1 ++ b ";" ++ s2 ++ p ++ s3 ++ "#"%char :: cut n)
        with ((w ++ s1 ++ b ";") ++ (s2 ++ p ++ s3) ++ "#"%char :: cut n) by (rewrite <- !app_assoc; reflexivity).
      apply slice_mid; rewrite !app_length; cbn; rewrite ?app_length; lia.
  - intros meta. now apply place_row.
  - rewrite Hfc. unfold rest. destruct Ht as [[-> ->]|(n & -> & ->)]; [reflexivity|].
    exists n, (w ++ s1 ++ b ";" ++ s2 ++ p ++ s3). split; [rewrite <- !app_assoc; reflexivity|]. split; [|reflexivity].
    rewrite !app_length. lia.
Qed.

Lemma nothing_line line : says_nothing line -> get_abbreviation (strip line) = Some None.
Proof.
  intros (s0 & s1 & H0 & -> & [->|(s2 & ->)]); rewrite strip_cut, drop_blank by easy.
  - reflexivity.
  - rewrite drop_keep by apply sign_not_white. change ("#"%char :: s2) with ([] ++ "#"%char :: s2).
    rewrite cut_keep by apply sign_not_white. reflexivity.
Qed.

(** The comment of the entry as the script sees it. *)
Definition seen (line : bytes) (sc : nat) (e : entry) : Prop :=
  match find_text_from [comment] line sc with
  | Some c_pos => exists note pre, line = pre ++ "#"%char :: cut note /\ List.length pre = c_pos /\ e_note e = Some note
  | None => e_note e = None
  end.

(** A row of the script and one of the specification. *)
Definition meta_is (m : option N) (k : N) : Prop := m = Some k \/ m = None /\ k = 0%N.
Definition same_row (r : row) (x : N * N * N) : Prop := fst r = fst x /\ meta_is (snd r) (snd x).

Section Collect.
Variable choose : bytes -> nat -> bytes -> option (option (option N)).
Variable class : bytes -> option bytes -> N -> Prop.

Lemma collect_rows lines es : lists lines es -> forall rows, classified class es rows ->
  (forall e line sc k, In e es -> seen line sc e -> class (e_property e) (e_note e) k ->
     exists m, choose line sc (e_property e) = Some (Some m) /\ meta_is m k) ->
  (forall e line sc, In e es -> seen line sc e -> (forall k, ~ class (e_property e) (e_note e) k) ->
     choose line sc (e_property e) = Some None) ->
  exists rs, collect choose lines = Some rs /\ Forall2 same_row rs rows.
Proof.
  induction 1 as [|line lines es Hn Hl IH|line e lines es Hs Hl IH]; intros rows Hc H1 H2.
  - inversion Hc; subst. exists []. split; [reflexivity|constructor].
  - cbn [collect]. rewrite (nothing_line line Hn). now apply IH.
  - cbn [collect]. destruct (entry_line line e Hs) as (w & s1 & rest & E & Ea & Er & Hsn). rewrite Ea.
    inversion Hc as [|? k ? rows' Hk Hc'|? ? ? Hk Hc']; subst.
    + destruct (H1 e _ _ k (or_introl eq_refl) Hsn Hk) as (m & -> & Hm).
      destruct (IH rows' Hc') as (rs & -> & Hrs); [intros; eapply H1; eauto; now right|intros; eapply H2; eauto; now right|].
      rewrite Er. exists ((e_first e, e_last e, m) :: rs). split; [reflexivity|]. constructor; [split; [reflexivity|exact Hm]|exact Hrs].
    + rewrite (H2 e _ _ (or_introl eq_refl) Hsn Hk).
      apply IH; [exact Hc'|intros; eapply H1; eauto; now right|intros; eapply H2; eauto; now right].
Qed.

(** An entry for which the script raises. *)
Lemma collect_raises lines es : lists lines es ->
  (exists e, In e es /\ forall line sc, seen line sc e -> choose line sc (e_property e) = None) -> collect choose lines = None.
Proof.
  induction 1 as [|line lines es Hn Hl IH|line e lines es Hs Hl IH]; intros (x & Hx & Hr).
  - destruct Hx.
  - cbn [collect]. rewrite (nothing_line line Hn). apply IH. now exists x.
  - cbn [collect]. destruct (entry_line line e Hs) as (w & s1 & rest & E & Ea & Er & Hsn). rewrite Ea.
    destruct Hx as [->|Hx]; [now rewrite (Hr _ _ Hsn)|].
    destruct (choose _ _ _) as [[m|]|]; [|apply IH; now exists x|reflexivity].
    rewrite IH by now exists x. now destruct (create_row _ _ _).
Qed.
End Collect.

(** ** Classes *)

Lemma member_iff abbrv k : forall names i, member abbrv (combine (map N.of_nat (seq i (List.length names))) names) = Some k ->
  exists j, nth_error names j = Some abbrv /\ k = N.of_nat (i + j).
Proof.
  induction names as [|x names IH]; intros i; cbn [List.length seq map combine member]; [discriminate|].
  destruct (beq x abbrv) eqn:E.
  - intros [= <-]. apply beq_eq in E. exists 0. split; [now subst|]. now rewrite Nat.add_0_r.
  - intros H. apply IH in H as (j & Hj & ->). exists (S j). split; [exact Hj|]. f_equal. lia.
Qed.
Lemma member_none abbrv : forall names i, member abbrv (combine (map N.of_nat (seq i (List.length names))) names) = None ->
  ~ In abbrv names.
Proof.
  induction names as [|x names IH]; intros i; cbn [List.length seq map combine member]; [intros _ []|].
  destruct (beq x abbrv) eqn:E; [discriminate|]. intros H [<-|Hin]; [now rewrite beq_refl in E|]. now apply IH in H.
Qed.

Lemma members_enumerator names members p : members = combine (map N.of_nat (seq 1 (List.length (tl names)))) (tl names) ->
  names <> [] -> NoDup (tl names) ->
  (forall k, enumerator names p k -> member p members = Some k) /\ ((forall k, ~ enumerator names p k) -> member p members = None).
Proof.
  intros -> Hn Hd. destruct names as [|x names]; [contradiction|]. cbn [tl] in *. unfold enumerator.
  destruct (member p _) as [k'|] eqn:E.
  - apply member_iff in E as (j & Hj & ->). split.
    + intros k [Hk Hx]. f_equal. destruct (N.to_nat k) as [|i] eqn:Ek; [lia|]. cbn [nth_error] in Hx.
      assert (i = j); [|lia]. apply (proj1 (NoDup_nth_error names) Hd); [apply nth_error_Some; congruence|congruence].
    + intros H. exfalso. apply (H (N.of_nat (1 + j))). split; [lia|]. rewrite Nat2N.id. exact Hj.
  - apply member_none in E. split; [|reflexivity]. intros k [Hk Hx]. exfalso. destruct (N.to_nat k) as [|i] eqn:Ek; [lia|].
    cbn [nth_error] in Hx. apply E. now apply nth_error_In in Hx.
Qed.

Fixpoint distinct_bytes (l : list bytes) : bool :=
  match l with [] => true | x :: l' => negb (existsb (beq x) l') && distinct_bytes l' end.
Lemma distinct_nodup l : distinct_bytes l = true -> NoDup l.
Proof.
  induction l as [|x l IH]; intros H; [constructor|]. cbn [distinct_bytes] in H. apply andb_true_iff in H as [H1 H2].
  constructor; [|now apply IH]. intros Hin. apply negb_true_iff in H1.
  assert (existsb (beq x) l = true); [|congruence]. apply existsb_exists. exists x. split; [exact Hin|apply beq_refl].
Qed.

Lemma grapheme_members_enumerator p :
  (forall k, enumerator grapheme_classes p k -> member p grapheme_members = Some k)
  /\ ((forall k, ~ enumerator grapheme_classes p k) -> member p grapheme_members = None).
Proof. apply members_enumerator; [reflexivity|discriminate|apply distinct_nodup; reflexivity]. Qed.
Lemma line_members_enumerator p :
  (forall k, enumerator line_classes p k -> member p line_members = Some k)
  /\ ((forall k, ~ enumerator line_classes p k) -> member p line_members = None).
Proof. apply members_enumerator; [reflexivity|discriminate|apply distinct_nodup; reflexivity]. Qed.

Lemma beq_false x y : x <> y -> beq x y = false.
Proof. intros H. destruct (beq x y) eqn:E; [apply beq_eq in E; contradiction|reflexivity]. Qed.

(** The general category in the comment. *)
Lemma category_mark line note pre p c : line = pre ++ "#"%char :: cut note -> List.length pre = p ->
  In c ["n"; "c"]%char ->
  (slice line (p + 2) (p + 4) = ["M"%char; c] <-> exists x rest, note = x :: ["M"%char; c] ++ rest).
Proof.
  intros -> <- Hc. assert (Es : slice (pre ++ "#"%char :: cut note) (List.length pre + 2) (List.length pre + 4) = firstn 2 (skipn 1 (cut note))).
  { unfold slice. replace (_ - _) with 2 by lia. f_equal. rewrite skipn_app, skipn_all2 by lia.
    replace (List.length pre + 2 - List.length pre) with 2 by lia. reflexivity. }
  rewrite Es. clear Es.
  assert (Hm : ~ white "M"%char) by (unfold white; cbv; intuition discriminate).
  assert (Hw : ~ white c) by (destruct Hc as [<-|[<-|[]]]; unfold white; cbv; intuition discriminate).
  assert (Hcut : exists z, note = cut note ++ z).
  { unfold cut. assert (G : forall u, exists z, u = z ++ drop_space u).
    { induction u as [|d u [z IH]]; [now exists []|]. cbn [drop_space]. destruct (py_space d); [exists (d :: z); cbn [app]; congruence|now exists []]. }
    destruct (G (rev note)) as [z Hz]. exists (rev z). rewrite <- rev_app_distr, <- Hz, rev_involutive. reflexivity. }
  split.
  - intros E. destruct Hcut as [z Hz]. destruct (cut note) as [|x [|m [|c' rest]]]; try discriminate E. cbn [skipn firstn] in E.
    injection E as -> ->. exists x, (rest ++ z). rewrite Hz. reflexivity.
  - intros (x & rest & ->). change (x :: ["M"%char; c] ++ rest) with ([x; "M"%char] ++ c :: rest).
    rewrite cut_keep by easy. reflexivity.
Qed.

Lemma choose_line_class line sc e k : seen line sc e -> line_class (e_property e) (e_note e) k ->
  choose_line line sc (e_property e) = Some (Some (Some k)).
Proof.
  intros Hs (name & Hr & Hk). unfold choose_line, seen in *. destruct e as [f l p note]. cbn [e_property e_note] in *.
  destruct Hr as [p note Hp|p note Hp|note|note Hm|note Hm].
  - cbn [map In] in Hp. rewrite !(beq_false p) by (intros ->; apply Hp; tauto). cbn [orb].
    rewrite (proj1 (line_members_enumerator p) k Hk). reflexivity.
  - apply line_members_enumerator in Hk. vm_compute in Hk. injection Hk as <-.
    cbn [map In] in Hp. destruct Hp as [<-|[<-|[<-|[]]]]; reflexivity.
  - apply line_members_enumerator in Hk. vm_compute in Hk. injection Hk as <-. reflexivity.
  - apply line_members_enumerator in Hk. vm_compute in Hk. injection Hk as <-.
    change (beq (b "SA") (b "AI") || beq (b "SA") (b "SG") || beq (b "SA") (b "XX")) with false.
    change (beq (b "SA") (b "CJ")) with false. change (beq (b "SA") (b "SA")) with true. cbv iota.
    destruct (find_text_from _ _ _) as [p|]; [|discriminate Hs]. destruct Hs as (n & pre & E & Hl & [= <-]).
    destruct Hm as (x & rest & [Hn|Hn]).
    + assert (E1 := proj2 (category_mark line note pre p "n"%char E Hl (or_introl eq_refl)) (ex_intro _ x (ex_intro _ rest Hn))).
      rewrite E1. reflexivity.
    + assert (E1 := proj2 (category_mark line note pre p "c"%char E Hl (or_intror (or_introl eq_refl))) (ex_intro _ x (ex_intro _ rest Hn))).
      rewrite E1. reflexivity.
  - apply line_members_enumerator in Hk. vm_compute in Hk. injection Hk as <-.
    change (beq (b "SA") (b "AI") || beq (b "SA") (b "SG") || beq (b "SA") (b "XX")) with false.
    change (beq (b "SA") (b "CJ")) with false. change (beq (b "SA") (b "SA")) with true. cbv iota.
    destruct (find_text_from _ _ _) as [p|]; [|discriminate Hs]. destruct Hs as (n & pre & E & Hl & [= <-]).
    assert (E1 : slice line (p + 2) (p + 4) <> b "Mn").
    { intros Hx. apply (category_mark line note pre p "n"%char E Hl (or_introl eq_refl)) in Hx as (x & rest & Hn).
      apply Hm. exists x, rest. now left. }
    assert (E2 : slice line (p + 2) (p + 4) <> b "Mc").
    { intros Hx. apply (category_mark line note pre p "c"%char E Hl (or_intror (or_introl eq_refl))) in Hx as (x & rest & Hn).
      apply Hm. exists x, rest. now right. }
    rewrite (beq_false _ _ E1), (beq_false _ _ E2). reflexivity.
Qed.

Lemma mark_dec note : mark note \/ ~ mark note.
Proof.
  destruct (match note with _ :: m :: c :: _ => Ascii.eqb m "M" && (Ascii.eqb c "n" || Ascii.eqb c "c") | _ => false end) eqn:E.
  - left. destruct note as [|x [|m [|c rest]]]; try discriminate E. apply andb_true_iff in E as [E1 E2]. apply Ascii.eqb_eq in E1.
    subst m. apply orb_true_iff in E2 as [E2|E2]; apply Ascii.eqb_eq in E2; subst c; exists x, rest; [now left|now right].
  - right. intros (x & rest & [->| ->]); discriminate E.
Qed.

Lemma choose_line_unknown line sc e : seen line sc e -> (forall k, ~ line_class (e_property e) (e_note e) k) ->
  choose_line line sc (e_property e) = None.
Proof.
  intros Hs Hk. unfold choose_line, seen in *. destruct e as [f l p note]. cbn [e_property e_note] in *.
  assert (Hal : enumerator line_classes (b "AL") 1) by (split; reflexivity).
  assert (Hns : enumerator line_classes (b "NS") 27) by (split; reflexivity).
  assert (Hcm : enumerator line_classes (b "CM") 8) by (split; reflexivity).
  destruct (beq p (b "AI") || beq p (b "SG") || beq p (b "XX")) eqn:E1.
  { exfalso. apply (Hk 1%N). exists (b "AL"). split; [|exact Hal]. apply resolves_alphabetic. cbn [map In].
    rewrite !orb_true_iff, !beq_eq in E1. intuition. }
  destruct (beq p (b "CJ")) eqn:E2.
  { exfalso. apply beq_eq in E2. subst p. apply (Hk 27%N). exists (b "NS"). split; [constructor|exact Hns]. }
  destruct (beq p (b "SA")) eqn:E3.
  { apply beq_eq in E3. subst p. destruct (find_text_from _ _ _) as [p|]; [|reflexivity]. destruct Hs as (n & pre & _ & _ & ->).
    exfalso. destruct (mark_dec n) as [Hm|Hm].
    - apply (Hk 8%N). exists (b "CM"). split; [now constructor|exact Hcm].
    - apply (Hk 1%N). exists (b "AL"). split; [now constructor|exact Hal]. }
  rewrite (proj2 (line_members_enumerator p)); [reflexivity|]. intros k Hx. apply (Hk k). exists p. split; [|exact Hx].
  constructor. intros Hin. rewrite !orb_false_iff in E1. destruct E1 as [[E11 E12] E13]. cbn [map In] in Hin.
  repeat match goal with H : beq p _ = false |- _ => revert H end. destruct Hin as [<-|[<-|[<-|[<-|[<-|[]]]]]]; cbn; congruence.
Qed.

(** ** Files *)

Lemma string_io_line l rest : forall cur, ~ In newline l -> string_io cur (l ++ newline :: rest) = (rev cur ++ l) :: string_io [] rest.
Proof.
  induction l as [|c l IH]; intros cur Hn; cbn [app string_io].
  - rewrite Ascii.eqb_refl, app_nil_r. reflexivity.
  - destruct (Ascii.eqb_spec c newline) as [->|_]; [exfalso; apply Hn; now left|]. rewrite IH by (intros H; apply Hn; now right).
    cbn [rev]. rewrite <- app_assoc. reflexivity.
Qed.

Lemma string_io_last l : forall cur, ~ In newline l -> rev cur ++ l <> [] -> string_io cur l = [rev cur ++ l].
Proof.
  induction l as [|c l IH]; intros cur Hn Hc; cbn [string_io].
  - rewrite app_nil_r in *. destruct cur; [now destruct Hc|reflexivity].
  - destruct (Ascii.eqb_spec c newline) as [->|_]; [exfalso; apply Hn; now left|].
    rewrite IH; [cbn [rev]; now rewrite <- app_assoc|intros H; apply Hn; now right|].
    cbn [rev]. rewrite <- app_assoc. exact Hc.
Qed.

Lemma string_io_text content lines : text content lines -> string_io [] content = lines.
Proof.
  induction 1 as [|l Hl Hn|l content lines Hn _ IH]; [reflexivity|now apply (string_io_last l [])|].
  fold newline. rewrite (string_io_line l) by exact Hn. cbn [rev app]. now rewrite IH.
Qed.

Lemma find_byte_front c l rest : ~ In c l -> find_byte c (l ++ c :: rest) = Some (List.length l).
Proof.
  induction l as [|d l IH]; intros H; cbn [app find_byte].
  - now rewrite Ascii.eqb_refl.
  - destruct (Ascii.eqb_spec c d) as [->|_]; [exfalso; apply H; now left|]. rewrite IH by (intros H'; apply H; now right). reflexivity.
Qed.

Lemma digit_in c : is_digit c = true <-> In c (b "0123456789").
Proof.
  unfold is_digit, byte_val. split.
  - intros H. rewrite <- (ascii_N_embedding c). revert H. generalize (N_of_ascii c). intros x H.
    apply andb_true_iff in H as [H1 H2]. apply N.leb_le in H1, H2.
    assert (Hx : In x [48; 49; 50; 51; 52; 53; 54; 55; 56; 57]%N) by (cbn [In]; lia). clear H1 H2. cbn [In] in Hx.
    repeat destruct Hx as [<-|Hx]; try contradiction; cbn; tauto.
  - cbn [b list_ascii_of_string In]. intros H. repeat destruct H as [<-|H]; try contradiction; reflexivity.
Qed.

Lemma skip_digits_app i rest : (forall c, In c i -> In c (b "0123456789")) -> skip_digits (i ++ "."%char :: rest) = "."%char :: rest.
Proof.
  induction i as [|c i IH]; intros H; [reflexivity|]. cbn [app skip_digits]. rewrite (proj2 (digit_in c)) by (apply H; now left).
  apply IH. intros d Hd. apply H. now right.
Qed.
Lemma digits_then_app k i rest : number i -> digits_then (dot_then k) (i ++ b "." ++ rest) = k rest.
Proof.
  intros [Hn H]. destruct i as [|c i]; [contradiction|]. cbn [app digits_then b list_ascii_of_string]. rewrite (proj2 (digit_in c)) by (apply H; now left).
  rewrite skip_digits_app by (intros d Hd; apply H; now right). reflexivity.
Qed.
Lemma skip_digits_split s : exists i, s = i ++ skip_digits s /\ forall c, In c i -> In c (b "0123456789").
Proof.
  induction s as [|c s (i & E & H)]; [exists []; easy|]. cbn [skip_digits]. destruct (is_digit c) eqn:Ed; [|exists []; easy].
  exists (c :: i). split; [cbn [app]; congruence|]. intros d [<-|Hd]; [now apply digit_in|now apply H].
Qed.
Lemma digits_then_true k s : digits_then k s = true -> exists i rest, s = i ++ rest /\ number i /\ k rest = true.
Proof.
  destruct s as [|c s]; [discriminate|]. cbn [digits_then]. intros H. apply andb_true_iff in H as [H1 H2].
  destruct (skip_digits_split s) as (i & E & Hi). exists (c :: i), (skip_digits s). split; [cbn [app]; congruence|]. split; [|exact H2].
  split; [discriminate|]. intros d [<-|Hd]; [now apply digit_in|now apply Hi].
Qed.
Lemma dot_then_true k s : dot_then k s = true -> exists rest, s = b "." ++ rest /\ k rest = true.
Proof.
  destruct s as [|c s]; [discriminate|]. cbn [dot_then]. intros H. apply andb_true_iff in H as [H1 H2]. apply Ascii.eqb_eq in H1. subst c.
  now exists s.
Qed.

Lemma has_version_iff line : has_version line = true <-> versioned line.
Proof.
  split.
  - induction line as [|c line IH]; cbn [has_version]; intros H; apply orb_true_iff in H as [H|H]; try discriminate H.
    + apply digits_then_true in H as (i & r1 & -> & Hi & H). apply dot_then_true in H as (r2 & -> & H).
      apply digits_then_true in H as (j & r3 & -> & Hj & H). apply dot_then_true in H as (r4 & -> & H).
      apply digits_then_true in H as (k & r5 & -> & Hk & _). exists [], i, j, k, r5. easy.
    + destruct (IH H) as (x & i & j & k & y & -> & Hi & Hj & Hk). exists (c :: x), i, j, k, y. easy.
  - intros (x & i & j & k & y & -> & Hi & Hj & Hk). induction x as [|c x IH].
    + cbn [app]. assert (G : digits_then (dot_then (digits_then (dot_then (digits_then (fun _ => true))))) (i ++ b "." ++ j ++ b "." ++ k ++ y) = true).
      { rewrite digits_then_app, digits_then_app by easy. destruct Hk as [Hn Hk]. destruct k as [|c k]; [contradiction|]. cbn [app digits_then].
        rewrite (proj2 (digit_in c)) by (apply Hk; now left). reflexivity. }
      destruct (i ++ _); cbn [has_version]; rewrite G; reflexivity.
    + cbn [app has_version]. rewrite IH. apply orb_true_r.
Qed.

Lemma extract_version_text content l ls : text content (l :: ls) -> In newline content -> extract_version content = has_version l.
Proof.
  intros H Hin. inversion H as [|? Hl Hn|? content' lines Hn Ht]; subst; [contradiction|]. unfold extract_version. fold newline.
  rewrite find_byte_front by exact Hn. rewrite slice_front. reflexivity.
Qed.
Lemma extract_version_endless content : ~ In newline content -> extract_version content = false.
Proof.
  intros H. unfold extract_version. assert (E : find_byte newline content = None); [|now rewrite E].
  induction content as [|c s IH]; [reflexivity|]. cbn [find_byte].
  destruct (Ascii.eqb_spec newline c) as [E|_]; [destruct H; left; now rewrite E|]. rewrite IH; [reflexivity|]. intros G. apply H. now right.
Qed.

Lemma broken_line line : broken line -> get_abbreviation (strip line) = None.
Proof.
  intros (Hs & s0 & c & s1 & H0 & -> & Hw & Hc). rewrite strip_cut, drop_blank, drop_keep by easy.
  change (c :: s1) with ([] ++ c :: s1). rewrite cut_keep by easy. cbn [app]. unfold get_abbreviation.
  destruct (Ascii.eqb_spec c comment) as [E|_]; [contradiction|].
  assert (Hn : ~ In ";"%char (c :: cut s1)).
  { intros Hin. apply Hs. apply in_app_iff. right. destruct Hin as [<-|Hin]; [now left|]. right. revert Hin. clear.
    unfold cut. rewrite <- in_rev. intros H. apply in_rev. revert H. induction (rev s1) as [|d u IH]; [intros []|].
    cbn [drop_space]. destruct (py_space d); [intros H; right; now apply IH|now intros H]. }
  cbn [b list_ascii_of_string]. now rewrite find_text_none.
Qed.

Lemma collect_broken choose lines line : In line lines -> broken line -> collect choose lines = None.
Proof.
  intros Hin Hb. induction lines as [|x lines IH]; [destruct Hin|]. cbn [collect]. destruct Hin as [->|Hin].
  - now rewrite broken_line.
  - destruct (get_abbreviation _) as [[[sc p]|]|]; [|now apply IH|reflexivity].
    destruct (choose _ _ _) as [[m|]|]; [|now apply IH|reflexivity]. rewrite IH by easy. now destruct (create_row _ _ _).
Qed.

(** ** Order *)

Lemma insert_row_perm r rows : Permutation (r :: rows) (insert_row r rows).
Proof.
  induction rows as [|x rows IH]; cbn [insert_row]; [reflexivity|]. destruct (N.leb _ _); [reflexivity|].
  rewrite perm_swap. now constructor.
Qed.
Lemma sort_perm rows : Permutation rows (sort_code_points rows).
Proof. induction rows as [|r rows IH]; cbn [sort_code_points]; [constructor|]. rewrite <- insert_row_perm. now constructor. Qed.

Definition before (r r' : row) : Prop := (row_first r <= row_first r')%N.
Lemma insert_row_sorted r rows : ForallOrdPairs before rows -> ForallOrdPairs before (insert_row r rows).
Proof.
  induction 1 as [|x rows Hx Hs IH]; cbn [insert_row]; [constructor; constructor|]. destruct (N.leb_spec (row_first r) (row_first x)) as [H|H].
  - constructor; [|now constructor]. constructor; [exact H|]. eapply Forall_impl; [|exact Hx]. unfold before. intros y Hy. lia.
  - constructor; [|exact IH]. apply (Permutation_Forall (insert_row_perm r rows)). constructor; [unfold before; lia|exact Hx].
Qed.
Lemma sort_sorted rows : ForallOrdPairs before (sort_code_points rows).
Proof. induction rows as [|r rows IH]; cbn [sort_code_points]; [constructor|now apply insert_row_sorted]. Qed.

Lemma pairs_perm (A : Type) (R : A -> A -> Prop) l m : (forall x y, R x y -> R y x) -> Permutation l m ->
  ForallOrdPairs R l -> ForallOrdPairs R m.
Proof.
  intros Hs. induction 1 as [|x l m Hp IH|x y l|l m n H1 IH1 H2 IH2]; intros H.
  - constructor.
  - inversion H; subst. constructor; [now apply (Permutation_Forall Hp)|now apply IH].
  - inversion H as [|? ? Hx Hr]; subst. inversion Hr as [|? ? Hy Hr']; subst. inversion Hx; subst.
    constructor; [constructor; [now apply Hs|assumption]|]. now constructor.
  - now apply IH2, IH1.
Qed.

Lemma usable_perm rows rows' : Permutation rows rows' -> usable rows -> usable rows'.
Proof.
  intros Hp [H1 H2]. split; [now apply (Permutation_Forall Hp)|]. eapply pairs_perm; [|exact Hp|exact H2].
  intros [[f l] k] [[f' l'] k']. cbn [rows_apart]. tauto.
Qed.

Lemma usable_sorted rows : forall lo, usable rows -> ascending rows -> Forall (fun r => lo <= fst (fst r))%N rows ->
  sorted_from lo (map pack_row rows) = true.
Proof.
  induction rows as [|[[f l] k] rows IH]; intros lo [Hf Ha] Hs Hlo; [reflexivity|].
  inversion Hf as [|? ? Hf1 Hf2]; subst. inversion Ha as [|? ? Ha1 Ha2]; subst. inversion Hs as [|? ? Hs1 Hs2]; subst.
  inversion Hlo as [|? ? Hl1 Hl2]; subst. clear Hf Ha Hs Hlo. cbn [fst row_fits] in *. destruct Hf1 as [[Hf3 Hf4] Hf5].
  change (2 ^ 21)%N with 2097152%N in *. change (2 ^ 6)%N with 64%N in *.
  cbn [map pack_row sorted_from]. rewrite pack_first, pack_last by lia.
  apply andb_true_iff. split; [apply andb_true_iff; split; apply N.leb_le; assumption|].
  apply IH; [now split|exact Hs2|]. rewrite Forall_forall in *. intros [[f' l'] k'] Hin. cbn [fst].
  specialize (Hf2 _ Hin). specialize (Ha1 _ Hin). specialize (Hs1 _ Hin). cbn [row_fits rows_apart fst] in *. lia.
Qed.

Lemma usable_lookup rows : usable rows -> ascending rows -> exact_lookup rows (map pack_row rows).
Proof.
  intros Hu Ha cp. apply lookup_rows; [reflexivity| |].
  - apply usable_sorted; [exact Hu|exact Ha|]. apply Forall_forall. intros r _. apply N.le_0_l.
  - destruct Hu as [Hf _]. apply forallb_forall. rewrite Forall_forall in Hf. intros [[f l] k] Hin. specialize (Hf _ Hin).
    cbn [row_fits row_ok] in *. change (2 ^ 21)%N with 2097152%N in *. change (2 ^ 6)%N with 64%N in *. lia.
Qed.

(** ** Printing *)

Lemma digits_of_small base fuel n : (n < base)%N -> digits_of (S fuel) base n = [n].
Proof. intros H. cbn [digits_of]. now rewrite (proj2 (N.ltb_lt n base)). Qed.
Lemma digits_of_step base fuel n : (base <= n)%N -> digits_of (S fuel) base n = (n mod base)%N :: digits_of fuel base (n / base).
Proof. intros H. cbn [digits_of]. now rewrite (proj2 (N.ltb_ge n base)). Qed.

Lemma small_quotient base n fuel : (2 <= base)%N -> (base <= n)%N -> (n < 2 ^ N.of_nat (S (S fuel)))%N -> (n / base < 2 ^ N.of_nat (S fuel))%N.
Proof.
  intros Hb Hn H. rewrite (Nat2N.inj_succ (S fuel)), N.pow_succ_r' in H. apply N.div_lt_upper_bound; [lia|]. nia.
Qed.

Lemma fuel_big n : (n < 2 ^ N.of_nat (S (N.to_nat (N.log2 n))))%N.
Proof.
  rewrite Nat2N.inj_succ, N2Nat.id. destruct (N.eq_dec n 0) as [->|Hn]; [reflexivity|]. apply N.log2_spec. lia.
Qed.

Lemma digit_char_is d : (d < 16)%N -> digit_is (digit_char d) d.
Proof.
  intros H. left. assert (Hd : In d [0;1;2;3;4;5;6;7;8;9;10;11;12;13;14;15]%N) by (cbn [In]; lia). clear H. cbn [In] in Hd.
  repeat destruct Hd as [<-|Hd]; try contradiction; reflexivity.
Qed.

Lemma hex_numeral fuel : forall n, (n < 2 ^ N.of_nat (S fuel))%N -> hexadecimal (map digit_char (rev (digits_of (S fuel) 16 n))) n.
Proof.
  induction fuel as [|fuel IH]; intros n H; destruct (N.lt_ge_cases n 16) as [Hn|Hn].
  - rewrite digits_of_small by exact Hn. cbn [rev map app]. constructor. now apply digit_char_is.
  - exfalso. change (2 ^ N.of_nat 1)%N with 2%N in H. lia.
  - rewrite digits_of_small by exact Hn. cbn [rev map app]. constructor. now apply digit_char_is.
  - rewrite digits_of_step by exact Hn. cbn [rev]. rewrite map_app. cbn [map].
    assert (G : hexadecimal (map digit_char (rev (digits_of (S fuel) 16 (n / 16))) ++ [digit_char (n mod 16)]) (16 * (n / 16) + n mod 16)).
    { constructor; [apply IH; apply small_quotient; [lia|exact Hn|exact H]|]. apply digit_char_is. apply N.mod_lt. discriminate. }
    rewrite <- (N.div_mod' n 16) in G. exact G.
Qed.

Lemma hexadecimal_zeros j s n : hexadecimal s n -> hexadecimal (repeat "0"%char j ++ s) n.
Proof.
  intros H. induction j as [|j IH]; [exact H|]. cbn [repeat app]. revert IH. generalize (repeat "0"%char j ++ s). clear. intros s H.
  induction H as [c d H|s n c d H IH Hd].
  - change d with (16 * 0 + d)%N. apply (hex_more ["0"%char] 0 c d); [|exact H]. constructor. now left.
  - rewrite app_comm_cons. now constructor.
Qed.

Lemma hex_06_is n : hexadecimal (hex_06 n) n.
Proof. unfold hex_06. cbv zeta. apply hexadecimal_zeros. apply hex_numeral. apply fuel_big. Qed.

Lemma value_of_snoc ds d : value_of (ds ++ [d]) = (10 * value_of ds + d)%N.
Proof. unfold value_of. rewrite fold_left_app. reflexivity. Qed.

Lemma decimal_digits fuel : forall n, (n < 2 ^ N.of_nat (S fuel))%N ->
  Forall (fun d => d < 10)%N (rev (digits_of (S fuel) 10 n)) /\ value_of (rev (digits_of (S fuel) 10 n)) = n
  /\ exists d ds, rev (digits_of (S fuel) 10 n) = d :: ds /\ (d = 0%N -> ds = []).
Proof.
  induction fuel as [|fuel IH]; intros n H; destruct (N.lt_ge_cases n 10) as [Hn|Hn].
  - rewrite digits_of_small by exact Hn. cbn [rev app]. split; [constructor; [exact Hn|constructor]|]. split; [reflexivity|]. exists n, []. split; reflexivity.
  - exfalso. change (2 ^ N.of_nat 1)%N with 2%N in H. lia.
  - rewrite digits_of_small by exact Hn. cbn [rev app]. split; [constructor; [exact Hn|constructor]|]. split; [reflexivity|]. exists n, []. split; reflexivity.
  - destruct (IH (n / 10)%N) as (H1 & H2 & d & ds & H3 & H4); [apply small_quotient; [lia|exact Hn|exact H]|].
    rewrite digits_of_step by exact Hn. revert H1 H2 H3. generalize (digits_of (S fuel) 10 (n / 10)). intros u H1 H2 H3.
    cbn [rev]. split; [|split].
    + apply Forall_app. split; [exact H1|]. constructor; [|constructor]. apply N.mod_lt. discriminate.
    + rewrite value_of_snoc, H2. symmetry. apply N.div_mod'.
    + exists d, (ds ++ [(n mod 10)%N]). rewrite H3. split; [reflexivity|]. intros Hd. exfalso. specialize (H4 Hd). subst d ds.
      rewrite H3 in H2. change (value_of [0%N]) with 0%N in H2. symmetry in H2. apply N.div_small_iff in H2; [lia|discriminate].
Qed.

Lemma decimal_numeral n : exists ds, writes n ds /\ TableGen.numeral 10 n = digits_text ds.
Proof.
  destruct (decimal_digits (N.to_nat (N.log2 n)) n (fuel_big n)) as (H1 & H2 & d & ds & H3 & H4).
  exists (rev (digits_of (S (N.to_nat (N.log2 n))) 10 n)). split.
  - split; [|exact H2]. split; [exact H1|rewrite H3; discriminate|]. intros d' ds' E. rewrite H3 in E. injection E as -> ->. discriminate (H4 eq_refl).
  - unfold TableGen.numeral, digits_text. apply map_ext_in. intros x Hx. rewrite Forall_forall in H1. specialize (H1 x Hx). clear - H1.
    assert (Hd : In x [0;1;2;3;4;5;6;7;8;9]%N) by (cbn [In]; lia). clear H1. cbn [In] in Hd.
    repeat destruct Hd as [<-|Hd]; try contradiction; reflexivity.
Qed.

Lemma row_text_written r x : same_row r x -> row_written x (row_text r).
Proof.
  destruct r as [[f l] m], x as [[f' l'] k]. intros [E Hm]. cbn [fst snd] in *. injection E as -> ->. unfold row_text.
  destruct Hm as [->|[-> ->]]; constructor; apply hex_06_is.
Qed.

Lemma print_written name rs rows : Forall2 same_row rs rows -> exists rows', Permutation rows rows' /\ ascending rows'
  /\ table_written name rows' (print_table name rs).
Proof.
  intros H. destruct (Permutation_Forall2 (sort_perm rs) H) as (rows' & Hp & Hf). exists rows'. split; [exact Hp|].
  pose proof (sort_sorted rs) as Hs. unfold print_table. cbv zeta. revert Hs Hf. generalize (sort_code_points rs). clear. intros rs Hs Hf. split.
  - unfold ascending. revert rows' Hf. induction Hs as [|r rs Hr Hs IH]; intros rows' Hf; inversion Hf as [|? x ? rows2 Hx Hrest]; subst; constructor.
    + clear - Hr Hx Hrest. destruct Hx as [E _]. revert Hr. induction Hrest as [|r' y rs rows Hy _ IH]; intros Hr; constructor; inversion Hr; subst.
      * destruct Hy as [E' _]. unfold before, row_first in *. congruence.
      * now apply IH.
    + now apply IH.
  - destruct (decimal_numeral (N.of_nat (List.length rows'))) as (ds & Hw & Ed). exists ds, (map row_text rs). split; [exact Hw|]. split.
    + clear - Hf. induction Hf as [|r x rs rows Hx _ IH]; constructor; [now apply row_text_written|exact IH].
    + assert (El : List.length rs = List.length rows') by (clear - Hf; induction Hf; cbn [List.length]; congruence). rewrite El, Ed. reflexivity.
Qed.

Lemma lookup_perm rows rows' table : Permutation rows rows' -> exact_lookup rows' table -> exact_lookup rows table.
Proof.
  intros Hp H cp. destruct (H cp) as [H1 H2]. split.
  - intros f l m Hin. apply (H1 f l m). now apply (Permutation_in _ Hp).
  - intros Hno. apply H2. intros f l m Hin. apply (Hno f l m). apply (Permutation_in _ (Permutation_sym Hp)). exact Hin.
Qed.

(** The whole of a table. *)
Lemma print_table_spec name rs rows : Forall2 same_row rs rows -> exists rows', Permutation rows rows' /\ ascending rows'
  /\ table_written name rows' (print_table name rs) /\ (usable rows -> exact_lookup rows (map pack_row rows')).
Proof.
  intros H. destruct (print_written name rs rows H) as (rows' & Hp & Ha & Ht). exists rows'. split; [exact Hp|]. split; [exact Ha|].
  split; [exact Ht|]. intros Hu. apply (lookup_perm rows rows' (map pack_row rows') Hp). apply usable_lookup; [|exact Ha]. now apply (usable_perm rows).
Qed.

(** ** The commands *)

Lemma data_file_read content es : data_file content es -> exists lines, extract_version content = true /\ string_io [] content = lines /\ lists lines es.
Proof.
  intros (l & ls & Ht & Hn & Hv & Hl). exists (l :: ls). split; [rewrite (extract_version_text content l ls Ht Hn); now apply has_version_iff|].
  split; [now apply string_io_text|exact Hl].
Qed.

Lemma run_spec names name content es rows : data_file content es -> classified (one_of_class names) es rows ->
  exists out rows', run content names name = Some out /\ Permutation rows rows' /\ ascending rows' /\ table_written name rows' out
    /\ (usable rows -> exact_lookup rows (map pack_row rows')).
Proof.
  intros Hd Hc. destruct (data_file_read content es Hd) as (lines & Hv & Hio & Hl).
  destruct (collect_rows (choose_listed names) (one_of_class names) lines es Hl rows Hc) as (rs & Hrs & Hf).
  - intros e line sc k _ _ [Hin ->]. exists None. unfold choose_listed.
    assert (E : existsb (beq (e_property e)) names = true) by (apply existsb_exists; exists (e_property e); split; [exact Hin|apply beq_refl]).
    rewrite E. split; [reflexivity|now right].
  - intros e line sc _ _ Hk. unfold choose_listed. destruct (existsb _ _) eqn:E; [|reflexivity]. apply existsb_exists in E as (x & Hx & Ex).
    apply beq_eq in Ex. subst x. now elim (Hk 0%N).
  - destruct (print_table_spec name rs rows Hf) as (rows' & H). exists (print_table name rs), rows'. split; [|exact H].
    unfold run, extract_code_points. rewrite Hv, Hio, Hrs. reflexivity.
Qed.

Lemma line_break_spec content es rows : data_file content es -> classified line_class es rows ->
  (forall e, In e es -> exists k, line_class (e_property e) (e_note e) k) ->
  exists out rows', line_break content = Some out /\ Permutation rows rows' /\ ascending rows' /\ table_written (b "line_break_table") rows' out
    /\ (usable rows -> exact_lookup rows (map pack_row rows')).
Proof.
  intros Hd Hc Hall. destruct (data_file_read content es Hd) as (lines & Hv & Hio & Hl).
  destruct (collect_rows choose_line line_class lines es Hl rows Hc) as (rs & Hrs & Hf).
  - intros e line sc k _ Hs Hk. exists (Some k). split; [now apply choose_line_class|now left].
  - intros e line sc Hin _ Hk. destruct (Hall e Hin) as [k H]. now elim (Hk k).
  - destruct (print_table_spec (b "line_break_table") rs rows Hf) as (rows' & H). exists (print_table (b "line_break_table") rs), rows'. split; [|exact H].
    unfold line_break. rewrite Hv, Hio, Hrs. reflexivity.
Qed.

Lemma grapheme_spec breaks emoji es es' rows rows2 : data_file breaks es -> data_file emoji es' ->
  classified grapheme_class es rows -> classified emoji_class es' rows2 ->
  (forall e, In e es -> exists k, grapheme_class (e_property e) (e_note e) k) ->
  exists out rows', run_grapheme_cluster_break breaks emoji = Some out /\ Permutation (rows ++ rows2) rows' /\ ascending rows'
    /\ table_written (b "grapheme_cluster_break_table") rows' out
    /\ (usable (rows ++ rows2) -> exact_lookup (rows ++ rows2) (map pack_row rows')).
Proof.
  intros Hd Hd' Hc Hc' Hall. destruct (data_file_read breaks es Hd) as (lines & Hv & Hio & Hl).
  destruct (data_file_read emoji es' Hd') as (lines' & Hv' & Hio' & Hl').
  destruct (collect_rows choose_grapheme grapheme_class lines es Hl rows Hc) as (rs & Hrs & Hf).
  - intros e line sc k _ _ Hk. exists (Some k). unfold choose_grapheme. rewrite (proj1 (grapheme_members_enumerator _) k Hk). split; [reflexivity|now left].
  - intros e line sc Hin _ Hk. destruct (Hall e Hin) as [k H]. now elim (Hk k).
  - destruct (collect_rows choose_emoji emoji_class lines' es' Hl' rows2 Hc') as (rs2 & Hrs2 & Hf2).
    + intros e line sc k _ _ [Hp Hk]. exists (Some k). unfold choose_emoji. rewrite Hp in *. rewrite beq_refl.
      apply grapheme_members_enumerator in Hk. vm_compute in Hk. injection Hk as <-. split; [reflexivity|now left].
    + intros e line sc _ _ Hk. unfold choose_emoji. rewrite beq_false; [reflexivity|]. intros E. apply (Hk 14%N). split; [exact E|]. rewrite E. split; reflexivity.
    + destruct (print_table_spec (b "grapheme_cluster_break_table") (rs ++ rs2) (rows ++ rows2)) as (rows' & H); [now apply Forall2_app|].
      exists (print_table (b "grapheme_cluster_break_table") (rs ++ rs2)), rows'. split; [|exact H].
      unfold run_grapheme_cluster_break. rewrite Hv, Hio, Hrs, Hv', Hio', Hrs2. reflexivity.
Qed.

(** What stops the script. *)
Lemma unversioned content l ls : text content (l :: ls) -> ~ versioned l \/ ~ In newline content -> extract_version content = false.
Proof.
  intros Ht [Hv|Hn]; [|now apply extract_version_endless].
  destruct (in_dec ascii_dec newline content) as [Hi|Hn]; [|now apply extract_version_endless].
  rewrite (extract_version_text content l ls Ht Hi). destruct (has_version l) eqn:E; [|reflexivity]. apply has_version_iff in E. contradiction.
Qed.

Lemma line_break_stops content es e : data_file content es -> In e es -> (forall k, ~ line_class (e_property e) (e_note e) k) -> line_break content = None.
Proof.
  intros Hd Hin Hk. destruct (data_file_read content es Hd) as (lines & Hv & Hio & Hl). unfold line_break. rewrite Hv, Hio.
  rewrite (collect_raises choose_line lines es Hl); [reflexivity|]. exists e. split; [exact Hin|]. intros line sc Hs. now apply choose_line_unknown.
Qed.
Lemma grapheme_stops breaks emoji es e : data_file breaks es -> In e es -> (forall k, ~ grapheme_class (e_property e) (e_note e) k) ->
  run_grapheme_cluster_break breaks emoji = None.
Proof.
  intros Hd Hin Hk. destruct (data_file_read breaks es Hd) as (lines & Hv & Hio & Hl). unfold run_grapheme_cluster_break. rewrite Hv, Hio.
  rewrite (collect_raises choose_grapheme lines es Hl); [reflexivity|]. exists e. split; [exact Hin|]. intros line sc Hs. unfold choose_grapheme.
  now rewrite (proj2 (grapheme_members_enumerator _) Hk).
Qed.

Lemma text_stops content l ls : text content (l :: ls) ->
  (~ versioned l \/ ~ In (ascii_of_N 10) content) \/ Exists broken (l :: ls) ->
  whitespace content = None /\ double_width content = None /\ zero_width content = None /\ line_break content = None
  /\ forall other, run_grapheme_cluster_break content other = None /\ run_grapheme_cluster_break other content = None.
Proof.
  intros Ht H. unfold whitespace, double_width, zero_width, run, line_break, run_grapheme_cluster_break, extract_code_points.
  destruct H as [Hv|Hb].
  - rewrite (unversioned content l ls Ht Hv). do 4 (split; [reflexivity|]). intros other. split; [reflexivity|].
    destruct (extract_version other); [|reflexivity]. now destruct (collect _ _).
  - apply Exists_exists in Hb as (line & Hin & Hb). rewrite (string_io_text content (l :: ls) Ht).
    rewrite !(collect_broken _ (l :: ls) line Hin Hb). destruct (extract_version content); cbn [option_map];
    (do 4 (split; [reflexivity|]); intros other; split; [reflexivity|]; destruct (extract_version other); [|reflexivity];
     now destruct (collect choose_grapheme (string_io [] other))).
Qed.

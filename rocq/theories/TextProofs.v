(** Proofs about boolean words, locale names, languages and bare strings (C36, C37, C44, C53). *)
From Coq Require Import Lia.
From Verif Require Import Bytes Token Result Utf8 Tree GlobalParser MultiLang StringPolicy SpecNames.

Lemma listed_in s l : listed s l = true <-> In s l.
Proof.
  unfold listed. rewrite existsb_exists. split.
  - intros (x & I & E). apply beq_eq in E. now subst.
  - intro I. exists s. split; [exact I|apply beq_refl].
Qed.

Lemma parse_bool_spec s :
  (parse_bool s = Ok (VBool true) <-> In s true_tokens) /\
  (parse_bool s = Ok (VBool false) <-> In s false_tokens) /\
  (~ In s true_tokens -> ~ In s false_tokens ->
   parse_bool s = Throw (EML failed_to_parse [Tok PNone s])).
Proof.
  unfold parse_bool.
  assert (D : In s true_tokens -> In s false_tokens -> False).
  { intros H1 H2. simpl in H1, H2. intuition congruence. }
  destruct (listed s true_tokens) eqn:E1; [|destruct (listed s false_tokens) eqn:E2].
  - apply listed_in in E1. repeat split; auto; try discriminate.
    + intro H. exfalso. exact (D E1 H).
    + intro H. contradiction.
  - apply listed_in in E2. assert (~ In s true_tokens) by (rewrite <- listed_in; congruence).
    repeat split; auto; try discriminate; contradiction.
  - assert (~ In s true_tokens) by (rewrite <- listed_in; congruence).
    assert (~ In s false_tokens) by (rewrite <- listed_in; congruence).
    repeat split; auto; try discriminate; contradiction.
Qed.

(** Locales. *)

Lemma find_byte_at c s i : find_byte c s = Some i ->
  exists t, s = firstn i s ++ c :: t /\ ~ In c (firstn i s).
Proof.
  revert i; induction s as [|d s IH]; intros i H; [discriminate|]. simpl in H.
  destruct (Ascii.eqb c d) eqn:E.
  - injection H as <-. apply Ascii.eqb_eq in E. subst d. exists s. simpl. auto.
  - destruct (find_byte c s) as [j|] eqn:F; [|discriminate]. injection H as <-.
    destruct (IH j eq_refl) as (t & H1 & H2). exists t. simpl. split; [now rewrite <- H1|].
    intros [->|I]; [now rewrite Ascii.eqb_refl in E|contradiction].
Qed.

Lemma find_byte_not c s : find_byte c s = None -> ~ In c s.
Proof.
  induction s as [|d s IH]; intros H I; simpl in H; [contradiction|]. destruct I as [->|I].
  - now rewrite Ascii.eqb_refl in H.
  - destruct (Ascii.eqb c d); [discriminate|].
    destruct (find_byte c s); [discriminate|]. now apply IH.
Qed.

Lemma find_byte_first c x y : ~ In c x -> find_byte c (x ++ c :: y) = Some (List.length x).
Proof.
  induction x as [|d x IH]; intro H; simpl.
  - now rewrite Ascii.eqb_refl.
  - destruct (Ascii.eqb c d) eqn:E; [apply Ascii.eqb_eq in E; subst; exfalso; apply H; now left|].
    rewrite IH; [reflexivity|]. intro I. apply H. now right.
Qed.

Lemma find_byte_absent c s : ~ In c s -> find_byte c s = None.
Proof.
  intro H. destruct (find_byte c s) as [i|] eqn:E; [|reflexivity].
  apply find_byte_at in E as (t & E & _). exfalso. apply H. rewrite E. apply in_or_app. right. now left.
Qed.

Lemma strip_spec head tail : ~ In "."%char head -> (tail = [] \/ exists t, tail = "."%char :: t) ->
  strip_encoding (head ++ tail) = head.
Proof.
  intros H [->|(t & ->)]; unfold strip_encoding.
  - rewrite app_nil_r. now rewrite find_byte_absent.
  - rewrite find_byte_first by exact H. now rewrite firstn_app, firstn_all, Nat.sub_diag, app_nil_r.
Qed.

Lemma iso_spec head tail : ~ In "."%char head -> (tail = [] \/ exists t, tail = "."%char :: t) ->
  List.length (iso_locale (head ++ tail)) = List.length head /\
  forall i c, nth_error head i = Some c ->
    nth_error (iso_locale (head ++ tail)) i = Some (if Ascii.eqb c "-" then "_"%char else c).
Proof.
  intros H1 H2. unfold iso_locale. rewrite (strip_spec _ _ H1 H2). split.
  - apply map_length.
  - intros i c E. now rewrite (map_nth_error dash_to_underscore i head E).
Qed.

Lemma iso_clean s : ~ In "."%char (iso_locale s) /\ ~ In "-"%char (iso_locale s).
Proof.
  assert (Hn : ~ In "."%char (strip_encoding s)).
  { unfold strip_encoding. destruct (find_byte "." s) as [i|] eqn:E.
    - now apply find_byte_at in E as (t & _ & E).
    - now apply find_byte_not. }
  unfold iso_locale. split; intro I; apply in_map_iff in I as (c & E & I);
    unfold dash_to_underscore in E; destruct (Ascii.eqb c "-") eqn:F; try discriminate.
  - subst c. contradiction.
  - subst c. now rewrite Ascii.eqb_refl in F.
Qed.

Lemma iso_twice s : iso_locale (iso_locale s) = iso_locale s.
Proof.
  destruct (iso_clean s) as [H1 H2]. unfold iso_locale at 1, strip_encoding.
  rewrite find_byte_absent by exact H1.
  assert (G : forall l, ~ In "-"%char l -> map dash_to_underscore l = l).
  { induction l as [|c l IH]; intro H; [reflexivity|]. simpl. rewrite IH.
    - unfold dash_to_underscore. destruct (Ascii.eqb c "-") eqn:E; [|reflexivity].
      apply Ascii.eqb_eq in E. subst. exfalso. apply H. now left.
    - intro I. apply H. now right. }
  now apply G.
Qed.

(** Languages. *)

Section Select.
  Context {R : Type}.
  Variable factory : bytes -> R.

  Lemma consider_done request l r calls :
    fold_left (consider factory request) l (Some r, calls) = (Some r, calls).
  Proof. induction l as [|x l IH]; [reflexivity|]. cbn [fold_left]. unfold consider at 2. exact IH. Qed.

  Lemma consider_found request l calls : In request l ->
    fold_left (consider factory request) l (None, calls) = (Some (factory request), calls ++ [request]).
  Proof.
    induction l as [|x l IH]; intro I; [contradiction|]. cbn [fold_left].
    unfold consider at 2. cbn [fst snd]. destruct (beq request x) eqn:E.
    - apply beq_eq in E. subst x. apply consider_done.
    - destruct I as [->|I]; [now rewrite beq_refl in E|]. now apply IH.
  Qed.

  Lemma consider_none request l calls : ~ In request l ->
    fold_left (consider factory request) l (None, calls) = (None, calls).
  Proof.
    induction l as [|x l IH]; intro I; [reflexivity|]. cbn [fold_left].
    unfold consider at 2. cbn [fst snd]. destruct (beq request x) eqn:E.
    - apply beq_eq in E. subst x. exfalso. apply I. now left.
    - apply IH. intro J. apply I. now right.
  Qed.

  Lemma select_supported default others request : In request (default :: others) ->
    select_language factory default others request = (factory request, [request]).
  Proof. intro H. unfold select_language. now rewrite consider_found. Qed.

  Lemma select_default default others request : ~ In request (default :: others) ->
    select_language factory default others request = (factory default, [default]).
  Proof. intro H. unfold select_language. now rewrite consider_none. Qed.
End Select.

(** Bare strings. *)

Lemma multi_char_spec s : multi_char s = true <-> long_word s.
Proof.
  unfold multi_char, gcount, long_word. destruct (graphemes s) as [[|g [|h gs]]|]; simpl;
    split; try discriminate; try (intros (x & y & z & [=])); eauto.
Qed.

Lemma single_char_spec s : single_char s = true <-> one_letter s.
Proof.
  unfold single_char, gcount, one_letter. destruct (graphemes s) as [[|g [|h gs]]|]; simpl;
    split; try discriminate; try (intros (x & [=])); eauto.
Qed.

Lemma exclusive s : long_word s -> one_letter s -> False.
Proof. intros (x & y & z & E) (w & F). congruence. Qed.

Lemma strings_given ps : strings_of ps = given_strings ps.
Proof. induction ps as [|[s|q] ps IH]; simpl; [reflexivity|now rewrite IH|exact IH]. Qed.

Lemma policies_given ps : policies_of ps = given_policies ps.
Proof. induction ps as [|[s|q] ps IH]; simpl; [reflexivity|exact IH|now rewrite IH]. Qed.

(** Counting: words and letters. *)
Definition words (ss : list bytes) := filter multi_char ss.
Definition letters (ss : list bytes) := filter single_char ss.

Lemma find_rest_filter f ss : 
  match find_rest f ss with
  | Some (s, rest) => filter f ss = s :: filter f rest
  | None => filter f ss = []
  end.
Proof.
  induction ss as [|x ss IH]; simpl; [reflexivity|].
  destruct (f x); [reflexivity|exact IH].
Qed.

Lemma first_word P ss : first_string_mapper P ss = option_map P (hd_error (words ss)).
Proof.
  unfold first_string_mapper, words. pose proof (find_rest_filter multi_char ss) as H.
  destruct (find_rest multi_char ss) as [[s rest]|]; now rewrite H.
Qed.

Lemma second_word P ss : second_string_mapper P ss = option_map P (hd_error (tl (words ss))).
Proof.
  unfold second_string_mapper, words. pose proof (find_rest_filter multi_char ss) as H.
  destruct (find_rest multi_char ss) as [[s rest]|]; rewrite H; [|reflexivity]. cbn [tl].
  pose proof (find_rest_filter multi_char rest) as H2.
  destruct (find_rest multi_char rest) as [[s2 rest2]|]; now rewrite H2.
Qed.

Lemma first_letter P ss : single_char_mapper P ss = option_map P (hd_error (letters ss)).
Proof.
  unfold single_char_mapper, letters. pose proof (find_rest_filter single_char ss) as H.
  destruct (find_rest single_char ss) as [[s rest]|]; now rewrite H.
Qed.

Lemma counts ss : List.length (words ss) + List.length (letters ss) <= List.length ss.
Proof.
  unfold words, letters. induction ss as [|s ss IH]; [simpl; lia|]. simpl.
  destruct (multi_char s) eqn:E1, (single_char s) eqn:E2; simpl; try lia.
  exfalso. apply (exclusive s); [now apply multi_char_spec|now apply single_char_spec].
Qed.

Lemma sorted_counts ss :
  List.length (words ss) + List.length (letters ss) = List.length ss ->
  sorted_out ss (words ss) (letters ss).
Proof.
  induction ss as [|s ss IH]; intro H; [constructor|].
  pose proof (counts ss) as C. unfold words, letters in *. simpl in *.
  destruct (multi_char s) eqn:E1, (single_char s) eqn:E2; simpl in *.
  - exfalso. apply (exclusive s); [now apply multi_char_spec|now apply single_char_spec].
  - constructor; [now apply multi_char_spec|]. apply IH. lia.
  - constructor; [now apply single_char_spec|]. apply IH. lia.
  - lia.
Qed.

Lemma sorted_filters ss ws ls : sorted_out ss ws ls ->
  words ss = ws /\ letters ss = ls /\ List.length ws + List.length ls = List.length ss.
Proof.
  induction 1 as [|s ss ws ls H _ (I1 & I2 & I3)|s ss ws ls H _ (I1 & I2 & I3)]; [auto| |];
    unfold words, letters in *; simpl.
  - rewrite (proj2 (multi_char_spec s) H).
    destruct (single_char s) eqn:E.
    + exfalso. apply (exclusive s H). now apply single_char_spec.
    + rewrite I1, I2. repeat split. lia.
  - rewrite (proj2 (single_char_spec s) H).
    destruct (multi_char s) eqn:E.
    + exfalso. refine (exclusive s _ H). now apply multi_char_spec.
    + rewrite I1, I2. repeat split. lia.
Qed.

Lemma labelled_mapped ss ws ls :
  words ss = ws -> letters ss = ls ->
  mapped [first_string_mapper PLongName; second_string_mapper PDescription; single_char_mapper PShortName] ss
  = map PLongName (firstn 1 ws) ++ map PDescription (firstn 1 (skipn 1 ws)) ++ map PShortName (firstn 1 ls).
Proof.
  intros E1 E2. unfold mapped. rewrite first_word, second_word, first_letter, E1, E2.
  destruct ws as [|w [|w2 ws]], ls as [|l ls]; reflexivity.
Qed.

Lemma forwarding_mapped ss ws :
  words ss = ws ->
  mapped [first_string_mapper PNoneName; second_string_mapper PDescription] ss
  = map PNoneName (firstn 1 ws) ++ map PDescription (firstn 1 (skipn 1 ws)).
Proof.
  intros E1. unfold mapped. rewrite first_word, second_word, E1.
  destruct ws as [|w [|w2 ws]]; reflexivity.
Qed.

Lemma labelled_spec ps out : convert_labelled ps = Some out <->
  exists ws ls names short, sorted_out (given_strings ps) ws ls /\ named_by PLongName ws names /\
    lettered_by ls short /\ out = names ++ short ++ given_policies ps.
Proof.
  unfold convert_labelled, convert. rewrite strings_given, policies_given. set (ss := given_strings ps).
  rewrite (labelled_mapped ss (words ss) (letters ss) eq_refl eq_refl). cbv zeta.
  rewrite !app_length, !map_length. split.
  - destruct (Nat.eqb _ _) eqn:E; [|discriminate]. apply Nat.eqb_eq in E. intro H.
    pose proof (counts ss) as C. rewrite !firstn_length, skipn_length in E.
    exists (words ss), (letters ss). 
    assert (Hs : sorted_out ss (words ss) (letters ss)) by (apply sorted_counts; lia).
    assert (L1 : List.length (words ss) <= 2) by lia.
    assert (L2 : List.length (letters ss) <= 1) by lia.
    destruct (words ss) as [|w [|w2 [|w3 ws]]]; [| | |simpl in L1; lia];
      (destruct (letters ss) as [|l [|l2 ls]]; [| |simpl in L2; lia]);
      injection H as <-; do 2 eexists; (repeat split; [exact Hs|constructor|constructor|reflexivity]).
  - intros (ws & ls & names & short & Hs & Hn & Hl & ->).
    destruct (sorted_filters _ _ _ Hs) as (-> & -> & E). rewrite <- E.
    destruct Hn, Hl; cbn [List.length Nat.add firstn skipn map app Nat.eqb]; now rewrite <- ?app_assoc.
Qed.

Lemma forwarding_spec ps out : convert_forwarding ps = Some out <->
  exists ws names, sorted_out (given_strings ps) ws [] /\ named_by PNoneName ws names /\
    out = names ++ given_policies ps.
Proof.
  unfold convert_forwarding, convert. rewrite strings_given, policies_given. set (ss := given_strings ps).
  rewrite (forwarding_mapped ss (words ss) eq_refl). cbv zeta.
  rewrite !app_length, !map_length. split.
  - destruct (Nat.eqb _ _) eqn:E; [|discriminate]. apply Nat.eqb_eq in E. intro H.
    pose proof (counts ss) as C. rewrite !firstn_length, skipn_length in E.
    exists (words ss).
    assert (Z : List.length (letters ss) = 0) by lia.
    assert (Hs : sorted_out ss (words ss) (letters ss)) by (apply sorted_counts; lia).
    destruct (letters ss); [|discriminate].
    assert (L1 : List.length (words ss) <= 2) by lia.
    destruct (words ss) as [|w [|w2 [|w3 ws]]]; [| | |simpl in L1; lia];
      injection H as <-; eexists; (repeat split; [exact Hs|constructor|reflexivity]).
  - intros (ws & names & Hs & Hn & ->).
    destruct (sorted_filters _ _ _ Hs) as (-> & _ & E). rewrite <- E.
    destruct Hn; reflexivity.
Qed.

Lemma text_spec name ps out :
  convert [first_text_mapper name; second_text_mapper PDescription] ps = Some out <->
  exists names, named_by name (given_strings ps) names /\ out = names ++ given_policies ps.
Proof.
  unfold convert. rewrite strings_given, policies_given. set (ss := given_strings ps). cbv zeta.
  split.
  - destruct ss as [|s [|s2 [|s3 ss2]]]; simpl; intro H; try discriminate; injection H as <-;
      eexists; (split; [constructor|reflexivity]).
  - intros (names & Hn & ->). destruct Hn; reflexivity.
Qed.

Lemma all_distinct_iff l : all_distinct l = true <-> NoDup l.
Proof.
  induction l as [|x l IH]; [split; [constructor|reflexivity]|]. cbn [all_distinct]. rewrite andb_true_iff, negb_true_iff, IH.
  assert (E : existsb (beq x) l = true <-> In x l).
  { rewrite existsb_exists. split; [intros (y & Hy & E); apply beq_eq in E; now subst|intros H; exists x; split; [exact H|apply beq_refl]]. }
  split.
  - intros [H1 H2]. constructor; [|exact H2]. intros H. apply E in H. congruence.
  - intros H. apply NoDup_cons_iff in H as [H1 H2]. split; [|exact H2]. destruct (existsb (beq x) l); [|reflexivity]. elim H1. now apply E.
Qed.

Lemma languages_distinct default others :
  languages_compile default others = true <-> others <> [] /\ NoDup (default :: others).
Proof.
  unfold languages_compile. rewrite andb_true_iff, Nat.ltb_lt, all_distinct_iff.
  destruct others; cbn [List.length]; split; intros [H1 H2]; (split; [|exact H2]); try congruence; try lia; try discriminate.
Qed.

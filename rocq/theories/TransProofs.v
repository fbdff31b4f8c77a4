(** Proofs about the translation generator. *)
From Verif Require Import Bytes TransGen SpecTransGen.
Local Open Scope list_scope.

(** ** Lines of a file *)

Lemma strings_line l : one_line l -> forall cur r, file_strings cur (l ++ r) = file_strings (rev l ++ cur) r.
Proof.
  induction l as [|c l IH]; intros [H1 H2] cur r; [reflexivity|]. cbn [app file_strings].
  destruct (Ascii.eqb_spec c lf) as [->|_]; [elim H1; now left|].
  destruct (Ascii.eqb_spec c cr) as [->|_]; [elim H2; now left|].
  rewrite IH; [|split; intro; [apply H1|apply H2]; now right]. cbn [rev]. now rewrite <- app_assoc.
Qed.

Lemma strings_stored ls text : stored ls text -> file_strings [] text = ls.
Proof.
  induction 1 as [|l H Hn|l e ls t H He Hs IH]; [reflexivity| |].
  - rewrite <- (app_nil_r l) at 1. rewrite strings_line; [|exact H]. rewrite app_nil_r. cbn [file_strings].
    destruct (rev l) eqn:E.
    + elim Hn. apply (f_equal (@rev ascii)) in E. now rewrite rev_involutive in E.
    + now rewrite <- E, rev_involutive.
  - rewrite strings_line; [|exact H]. rewrite app_nil_r.
    destruct He as [->| ->]; cbn [app file_strings].
    + change (Ascii.eqb new_line lf) with true. cbn [app]. now rewrite IH, rev_involutive.
    + change (Ascii.eqb carriage_return lf) with false. change (Ascii.eqb carriage_return cr) with true.
      change (Ascii.eqb new_line lf) with true. cbn [app]. now rewrite IH, rev_involutive.
Qed.

(** ** CMake lists *)

Definition balance (x : bytes) : Z :=
  Z.of_nat (count_occ ascii_dec x "["%char) - Z.of_nat (count_occ ascii_dec x "]"%char).

Lemma escape_cons c x : escape (c :: x) = (if Ascii.eqb c ";" then ["\"%char; c] else [c]) ++ escape x.
Proof. reflexivity. Qed.

Lemma escape_front x r c d y :
  x <> [] -> escape x ++ r = c :: d :: y -> c <> ";"%char.
Proof.
  destruct x as [|a x]; [congruence|]. intros _. rewrite escape_cons. destruct (Ascii.eqb_spec a ";") as [->|Hn]; cbn [app]; intros E H; congruence.
Qed.

Lemma split_escape x : forall n cur r,
  r = [] \/ (forall x', x <> x' ++ ["\"%char]) ->
  split_list n cur (escape x ++ r) = split_list (n + balance x) (rev x ++ cur) r.
Proof.
  induction x as [|c x IH]; intros n cur r H.
  - unfold balance. cbn. f_equal. lia.
  - assert (H' : r = [] \/ (forall x', x <> x' ++ ["\"%char])).
    { destruct H as [H|H]; [now left|right]. intros x' ->. apply (H (c :: x')). reflexivity. }
    replace (rev (c :: x) ++ cur) with (rev x ++ c :: cur) by (cbn [rev]; now rewrite <- app_assoc).
    rewrite escape_cons, <- app_assoc.
    destruct (Ascii.eqb_spec c ";") as [->|Hs].
    { cbn [app split_list]. change (Ascii.eqb "\" "\") with true. change (Ascii.eqb ";" ";") with true. cbn iota.
      rewrite IH; [|exact H']. reflexivity. }
    cbn [app]. destruct (Ascii.eqb_spec c "\") as [->|Hb].
    { assert (E : split_list n cur ("\"%char :: escape x ++ r) = split_list n ("\"%char :: cur) (escape x ++ r)).
      { cbn [split_list]. change (Ascii.eqb "\" "\") with true. cbn iota.
        destruct (escape x ++ r) as [|d y] eqn:Ed; [reflexivity|].
        destruct (Ascii.eqb_spec d ";") as [->|_]; [|reflexivity].
        destruct x as [|a x]; cbn in Ed.
        - destruct H as [->|H]; [discriminate|]. now elim (H []).
        - destruct (Ascii.eqb_spec a ";") as [->|Ha]; cbn in Ed; congruence. }
      rewrite E, IH; [|exact H']. reflexivity. }
    assert (Ec : count_occ ascii_dec (c :: x) "["%char = (if Ascii.eqb c "[" then 1 else 0) + count_occ ascii_dec x "["%char).
    { cbn [count_occ]. destruct (ascii_dec c "["), (Ascii.eqb_spec c "["); try congruence; reflexivity. }
    assert (Ed : count_occ ascii_dec (c :: x) "]"%char = (if Ascii.eqb c "]" then 1 else 0) + count_occ ascii_dec x "]"%char).
    { cbn [count_occ]. destruct (ascii_dec c "]"), (Ascii.eqb_spec c "]"); try congruence; reflexivity. }
    unfold balance. rewrite Ec, Ed. cbn [split_list].
    destruct (Ascii.eqb_spec c "\") as [->|_]; [congruence|].
    destruct (Ascii.eqb_spec c "[") as [->|_].
    { rewrite IH; [|exact H']. unfold balance. change (Ascii.eqb "[" "]") with false. change (Ascii.eqb "[" "[") with true. cbn iota. f_equal. lia. }
    destruct (Ascii.eqb_spec c "]") as [->|_].
    { rewrite IH; [|exact H']. unfold balance. change (Ascii.eqb "]" "]") with true. cbn iota. f_equal. lia. }
    destruct (Ascii.eqb_spec c ";") as [->|_]; [congruence|]. cbn [andb].
    rewrite IH; [|exact H']. unfold balance. f_equal.
Qed.

Lemma split_made ls : ls <> [] -> Forall listable (removelast ls) -> split_list 0 [] (make_list ls) = ls.
Proof.
  induction ls as [|x ls IH]; [congruence|]. intros _ H. destruct ls as [|y ls].
  - cbn [make_list]. rewrite <- (app_nil_r (escape x)). rewrite split_escape; [|now left]. cbn [split_list]. now rewrite app_nil_r, rev_involutive.
  - change (make_list (x :: y :: ls)) with (escape x ++ ";"%char :: make_list (y :: ls)).
    change (removelast (x :: y :: ls)) with (x :: removelast (y :: ls)) in H.
    pose proof (Forall_inv H) as [Hb Hl]. apply Forall_inv_tail in H.
    rewrite split_escape; [|right; exact Hl]. unfold balance. rewrite Hb.
    replace (0 + (_ - _))%Z with 0%Z by lia.
    rewrite app_nil_r. cbn [split_list].
    change (Ascii.eqb ";" "\") with false. change (Ascii.eqb ";" "[") with false. change (Ascii.eqb ";" "]") with false.
    change (Ascii.eqb ";" ";" && Z.eqb 0 0) with true. cbn iota. rewrite rev_involutive, IH; [reflexivity|congruence|exact H].
Qed.

Lemma elements_made ls : ls <> [] -> ls <> [[]] -> Forall listable (removelast ls) -> elements (make_list ls) = ls.
Proof.
  intros H1 H2 H3. unfold elements. rewrite split_made; [|exact H1|exact H3].
  destruct (make_list ls) eqn:E; [|reflexivity].
  destruct ls as [|x [|y ls]]; [congruence| |].
  - destruct x as [|c x]; [congruence|]. cbn [make_list] in E. rewrite escape_cons in E. destruct (Ascii.eqb c ";"); discriminate.
  - change (make_list (x :: y :: ls)) with (escape x ++ ";"%char :: make_list (y :: ls)) in E. destruct (escape x); discriminate.
Qed.

(** ** Entries *)

Lemma identifier_char c : in_identifier c -> c <> "#"%char /\ c <> "["%char /\ c <> " "%char /\ c <> "="%char /\ c <> ">"%char /\ c <> ","%char.
Proof. intros H. repeat split; intros ->; unfold in_identifier in H; cbn in H; lia. Qed.

Lemma find_entry k v : Forall in_identifier k -> find_string (b " = ") (k ++ b " = " ++ v) = Some (List.length k).
Proof.
  induction 1 as [|c k Hc Hk IH]; [reflexivity|]. cbn [app List.length]. destruct (identifier_char c Hc) as (_ & _ & Hs & _).
  assert (E : starts_with (b " = ") (c :: k ++ b " = " ++ v) = false).
  { cbn [b list_ascii_of_string starts_with]. destruct (Ascii.eqb_spec " "%char c) as [<-|_]; [congruence|reflexivity]. }
  change (find_string (b " = ") (c :: k ++ b " = " ++ v)) with
    (if starts_with (b " = ") (c :: k ++ b " = " ++ v) then Some 0 else option_map S (find_string (b " = ") (k ++ b " = " ++ v))).
  now rewrite E, IH.
Qed.

Lemma silent_line cpp17 last i l st : silent l -> process_line cpp17 last i l st = Some st.
Proof. destruct st as [s o]. intros [|x]; reflexivity. Qed.

Lemma marker_line cpp17 last i s o :
  process_line cpp17 last i (b "[error_code]") (s, o)
  = Some (true, o ++ lines_text [[]; b "    using error_code_translations = std::tuple<"]).
Proof. reflexivity. Qed.

Definition using_line (cpp17 : bool) (e : bytes * bytes) : bytes :=
  b "    using " ++ fst e ++ b " = " ++ translation_string cpp17 (snd e) ++ b ";".
Definition pair_line (cpp17 : bool) (e : bytes * bytes) : bytes :=
  b "        std::pair<traits::integral_constant<error_code::" ++ fst e ++ b ">, "
  ++ translation_string cpp17 (snd e) ++ b ">".

Lemma entry_line cpp17 last i k v s o : identifier k ->
  process_line cpp17 last i (k ++ b " = " ++ v) (s, o)
  = Some (s, o ++ (if s then pair_line cpp17 (k, v) ++ (if Nat.eqb i last then [] else b ",")
                   else using_line cpp17 (k, v)) ++ line_end).
Proof.
  intros [Hn Hk]. destruct k as [|c k]; [congruence|]. destruct (identifier_char c (Forall_inv Hk)) as (H1 & H2 & _).
  unfold process_line. change ((c :: k) ++ b " = " ++ v) with (c :: (k ++ b " = " ++ v)).
  assert (E1 : beq (c :: (k ++ b " = " ++ v)) [] = false) by reflexivity.
  assert (E2 : beq (firstn 1 (c :: (k ++ b " = " ++ v))) (b "#") = false) by (apply beq_neq; cbn; congruence).
  assert (E3 : beq (c :: (k ++ b " = " ++ v)) (b "[error_code]") = false) by (apply beq_neq; cbn; congruence).
  rewrite E1, E2, E3. cbn [orb]. change (c :: (k ++ b " = " ++ v)) with ((c :: k) ++ b " = " ++ v).
  rewrite (find_entry (c :: k) v Hk). set (kk := c :: k) in *.
  assert (F : firstn (List.length kk) (kk ++ b " = " ++ v) = kk).
  { rewrite firstn_app, Nat.sub_diag, firstn_all. cbn [firstn]. apply app_nil_r. }
  assert (G : skipn (List.length kk + 3) (kk ++ b " = " ++ v) = v).
  { rewrite skipn_app, (skipn_all2 kk) by lia. replace (List.length kk + 3 - List.length kk) with 3 by lia. reflexivity. }
  rewrite F, G. unfold pair_line, using_line. cbn [fst snd]. destruct s; [destruct (Nat.eqb i last)|]; rewrite <- ?app_assoc; reflexivity.
Qed.

Lemma lines_text_app x y : lines_text (x ++ y) = lines_text x ++ lines_text y.
Proof. unfold lines_text. now rewrite map_app, concat_app. Qed.
Lemma lines_text_cons x y : lines_text (x :: y) = (x ++ line_end) ++ lines_text y.
Proof. reflexivity. Qed.

Lemma process_texts cpp17 last ls es : entries ls es -> forall i rest o,
  process_lines cpp17 last i (ls ++ rest) (false, o)
  = process_lines cpp17 last (i + List.length ls) rest (false, o ++ lines_text (map (using_line cpp17) es)).
Proof.
  induction 1 as [|l ls es Hl Hs IH|k v ls es Hk Hs IH]; intros i rest o.
  - cbn [app List.length map]. now rewrite Nat.add_0_r, app_nil_r.
  - cbn [app process_lines]. rewrite silent_line; [|exact Hl]. rewrite IH. cbn [List.length]. f_equal. lia.
  - cbn [app process_lines]. rewrite entry_line; [|exact Hk]. rewrite IH. cbn [List.length map]. rewrite lines_text_cons.
    f_equal; [lia|]. f_equal. now rewrite <- !app_assoc.
Qed.

Lemma ends_tail x ls : ends_well (x :: ls) -> ends_well ls.
Proof. intros H ls' l ->. exact (H (x :: ls') l eq_refl). Qed.

Lemma entries_some ls es : entries ls es -> ends_well ls -> ls <> [] -> es <> [].
Proof.
  induction 1 as [|l ls es Hl Hs IH|k v ls es Hk Hs IH]; intros He Hn; [congruence| |congruence].
  destruct ls as [|y ls]; [elim (He [] l eq_refl Hl)|]. apply IH; [exact (ends_tail _ _ He)|congruence].
Qed.

Lemma process_errors cpp17 last ls es : entries ls es -> forall i o,
  ends_well ls -> (ls <> [] -> i + List.length ls = S last) ->
  process_lines cpp17 last i ls (true, o) = Some (true, o ++ lines_text (commas (map (pair_line cpp17) es))).
Proof.
  induction 1 as [|l ls es Hl Hs IH|k v ls es Hk Hs IH]; intros i o He Hi.
  - cbn. now rewrite app_nil_r.
  - cbn [process_lines]. rewrite silent_line; [|exact Hl]. apply IH; [exact (ends_tail _ _ He)|].
    intros _. specialize (Hi ltac:(congruence)). cbn [List.length] in Hi. lia.
  - cbn [process_lines]. rewrite entry_line; [|exact Hk]. specialize (Hi ltac:(congruence)). cbn [List.length] in Hi.
    destruct ls as [|y ls].
    + inversion Hs; subst. cbn [process_lines map commas]. cbn [List.length] in Hi. replace i with last by lia.
      rewrite Nat.eqb_refl, app_nil_r. unfold lines_text. cbn [map List.concat]. now rewrite app_nil_r.
    + pose proof (entries_some _ _ Hs (ends_tail _ _ He) ltac:(congruence)) as Hne. cbn [List.length] in Hi.
      replace (Nat.eqb i last) with false by (symmetry; apply Nat.eqb_neq; lia).
      rewrite IH; [|exact (ends_tail _ _ He)|cbn [List.length]; lia].
      destruct es as [|e es]; [congruence|]. cbn [map].
      change (commas (pair_line cpp17 (k, v) :: pair_line cpp17 e :: map (pair_line cpp17) es))
        with ((pair_line cpp17 (k, v) ++ b ",") :: commas (pair_line cpp17 e :: map (pair_line cpp17) es)).
      rewrite lines_text_cons. f_equal. f_equal. now rewrite <- !app_assoc.
Qed.

Definition ct (cpp17 : bool) : bytes -> bytes :=
  if cpp17 then fun s => b "S_(" ++ s ++ b ")" else fun s => b "str<" ++ s ++ b ">".

Lemma class_lines_eq cpp17 language d :
  class_lines (ct cpp17) language d
  = [b "template <>"; b "class translation<" ++ translation_string cpp17 (quote ++ language ++ quote) ++ b ">"; b "{"; b "public:"]
    ++ map (using_line cpp17) (d_texts d)
    ++ match d_errors d with
       | None => []
       | Some es => [[]; b "    using error_code_translations = std::tuple<"] ++ commas (map (pair_line cpp17) es) ++ [b "    >;"]
       end ++ [b "};"].
Proof.
  assert (T : forall s, ct cpp17 s = translation_string cpp17 s) by (destruct cpp17; reflexivity).
  unfold class_lines. rewrite T. f_equal. f_equal; [|f_equal].
  - apply map_ext. intros [k v]. unfold using_line. cbn [fst snd]. now rewrite T.
  - destruct (d_errors d) as [es|]; [|reflexivity]. f_equal. f_equal. f_equal. apply map_ext. intros [k v]. unfold pair_line. cbn [fst snd]. now rewrite T.
Qed.

Lemma body_eq cpp17 language ls d text :
  says ls d -> stored ls text -> ls <> [] -> ls <> [[]] -> Forall listable (removelast ls) ->
  (d_errors d <> None -> ends_well ls) ->
  body cpp17 language text = Some (lines_text (class_lines (ct cpp17) language d)).
Proof.
  intros Hs Ht H1 H2 H3 H4. unfold body. rewrite (strings_stored ls text Ht), elements_made; [|exact H1|exact H2|exact H3].
  destruct ls as [|x ls0] eqn:El; [congruence|]. rewrite <- El in *.
  assert (Eq : q "'" = quote) by reflexivity. rewrite Eq. rewrite class_lines_eq.
  set (start := b "template <>" ++ line_end ++ _).
  assert (Es : start = lines_text [b "template <>"; b "class translation<" ++ translation_string cpp17 (quote ++ language ++ quote) ++ b ">"; b "{"; b "public:"]).
  { unfold start. rewrite !lines_text_cons. cbn [lines_text map List.concat]. rewrite <- !app_assoc. reflexivity. }
  rewrite Es. clear start Es. set (start := lines_text _).
  destruct Hs as [ls es He|ls es ls' es' He He'].
  - rewrite <- (app_nil_r ls) at 2. rewrite (process_texts cpp17 _ ls es He). cbn [process_lines d_texts d_errors].
    rewrite !lines_text_app. fold start. now rewrite <- app_assoc.
  - rewrite (process_texts cpp17 _ ls es He). cbn [process_lines]. rewrite marker_line.
    rewrite (process_errors cpp17 _ ls' es' He').
    + cbn [d_texts d_errors]. rewrite !lines_text_app. fold start. f_equal. rewrite <- !app_assoc. reflexivity.
    + specialize (H4 ltac:(discriminate)). intros l0 l E. apply (H4 (ls ++ b "[error_code]" :: l0) l). rewrite E, <- app_assoc. reflexivity.
    + intros Hn. rewrite app_length. cbn [List.length]. lia.
Qed.

Lemma generate_eq language ls d text :
  says ls d -> stored ls text -> ls <> [] -> ls <> [[]] -> Forall listable (removelast ls) ->
  (d_errors d <> None -> ends_well ls) ->
  generate language text = Some (header language d).
Proof.
  intros H1 H2 H3 H4 H5 H6. unfold generate. rewrite !(body_eq _ language ls d text H1 H2 H3 H4 H5 H6).
  unfold header. rewrite !lines_text_app. reflexivity.
Qed.

(** ** Malformed lines *)

Lemma find_some p s i : find_string p s = Some i -> exists x y, s = x ++ p ++ y.
Proof.
  revert i. induction s as [|c s IH]; intros i; cbn [find_string].
  - destruct (starts_with p []) eqn:E; [|discriminate]. apply starts_with_app in E as [y E]. intros _. exists [], y. exact E.
  - destruct (starts_with p (c :: s)) eqn:E.
    + apply starts_with_app in E as [y E]. intros _. exists [], y. exact E.
    + destruct (find_string p s) as [j|]; [|discriminate]. intros _. destruct (IH j eq_refl) as (x & y & ->). exists (c :: x), y. reflexivity.
Qed.

Lemma malformed_line cpp17 last i l st :
  ~ silent l -> l <> b "[error_code]" -> (forall x y, l <> x ++ b " = " ++ y) -> process_line cpp17 last i l st = None.
Proof.
  intros H1 H2 H3. destruct st as [s o]. unfold process_line.
  assert (E1 : beq l [] = false). { apply beq_neq. intros ->. apply H1. constructor. }
  assert (E2 : beq (firstn 1 l) (b "#") = false).
  { apply beq_neq. intros E. apply H1. destruct l as [|c l]; [discriminate|]. cbn in E. injection E as ->. constructor. }
  apply beq_neq in H2. rewrite E1, E2, H2. cbn [orb].
  destruct (find_string (b " = ") l) as [j|] eqn:E; [|reflexivity]. apply find_some in E as (x & y & ->). elim (H3 x y eq_refl).
Qed.

Lemma malformed_lines cpp17 last l : (forall i st, process_line cpp17 last i l st = None) ->
  forall ls i st, In l ls -> process_lines cpp17 last i ls st = None.
Proof.
  intros H. induction ls as [|x ls IH]; intros i st Hl; [destruct Hl|]. cbn [process_lines].
  destruct Hl as [->|Hl]; [now rewrite H|]. destruct (process_line cpp17 last i x st); [|reflexivity]. now apply IH.
Qed.

Lemma generate_malformed language ls l text :
  stored ls text -> Forall listable (removelast ls) -> In l ls ->
  ~ silent l -> l <> b "[error_code]" -> (forall x y, l <> x ++ b " = " ++ y) ->
  generate language text = None.
Proof.
  intros Ht H3 Hl N1 N2 N3. unfold generate, body. rewrite (strings_stored ls text Ht), elements_made.
  - destruct ls as [|x ls0] eqn:El; [destruct Hl|]. rewrite <- El in *.
    rewrite (malformed_lines _ _ l); [reflexivity| |exact Hl]. intros i st. now apply malformed_line.
  - intros ->. destruct Hl.
  - intros ->. destruct Hl as [<-|[]]. apply N1. constructor.
  - exact H3.
Qed.

(** ** Paths *)

Lemma mem_byte_in c s : mem_byte c s = true <-> In c s.
Proof.
  induction s as [|d s IH]; [split; [discriminate|intros []]|]. cbn [mem_byte In]. rewrite orb_true_iff, IH.
  destruct (Ascii.eqb_spec c d); split; intros [H|H]; auto; try discriminate; congruence.
Qed.
Lemma mem_byte_not c s : ~ In c s -> mem_byte c s = false.
Proof. intros H. destruct (mem_byte c s) eqn:E; [|reflexivity]. apply mem_byte_in in E. contradiction. Qed.

Lemma base_name_dir dir name : ~ In "/"%char name -> base_name (dir ++ b "/" ++ name) = name.
Proof.
  intros H. assert (E : forall n, ~ In "/"%char n -> base_name n = n).
  { intros [|c n] Hn; [reflexivity|]. cbn [base_name]. now rewrite mem_byte_not. }
  induction dir as [|c dir IH].
  - cbn [app b list_ascii_of_string base_name mem_byte]. change (Ascii.eqb "/" "/") with true. cbn [orb]. now apply E.
  - cbn [app base_name]. assert (Hi : mem_byte "/" (c :: dir ++ b "/" ++ name) = true).
    { apply mem_byte_in. right. apply in_or_app. right. now left. }
    rewrite Hi. exact IH.
Qed.

Lemma base_name_plain name : ~ In "/"%char name -> base_name name = name.
Proof. intros Hn. destruct name as [|c n]; [reflexivity|]. cbn [base_name]. now rewrite mem_byte_not. Qed.

Lemma extension_off lang ext : ~ In "."%char ext -> without_extension (lang ++ b "." ++ ext) = lang.
Proof.
  intros H. induction lang as [|c lang IH].
  - cbn [app b list_ascii_of_string without_extension]. change (Ascii.eqb "." ".") with true. now rewrite mem_byte_not.
  - cbn [app without_extension].
    assert (Hi : mem_byte "." (lang ++ b "." ++ ext) = true). { apply mem_byte_in, in_or_app. right. now left. }
    rewrite Hi. cbn [negb]. rewrite andb_false_r. now f_equal.
Qed.

Lemma language_named lang path : named_after lang path -> language_id path = lang.
Proof.
  intros (dir & ext & H & H1 & H2 & H3). unfold language_id.
  assert (Hn : ~ In "/"%char (lang ++ b "." ++ ext)).
  { intros Hi. apply in_app_or in Hi as [Hi|[Hi|Hi]]; [exact (H1 Hi)|discriminate|exact (H2 Hi)]. }
  destruct H as [->| ->]; [rewrite base_name_plain|rewrite base_name_dir]; try exact Hn; now apply extension_off.
Qed.

(** ** The script *)

Lemma generate_translates language text d : translates text d -> generate language text = Some (header language d).
Proof. intros (ls & H1 & H2 & H3 & H4 & H5 & H6). exact (generate_eq language ls d text H1 H2 H3 H4 H5 H6). Qed.

Lemma header_path_inj dir l l' : header_path dir l = header_path dir l' -> l = l'.
Proof. unfold header_path. intros H. apply app_inv_head in H. apply app_inv_head in H. exact (app_inv_tail _ _ _ H). Qed.

Lemma script_eq dir jobs : forall fs,
  Forall (fun j => named_after (j_language j) (j_path j)
                   /\ exists text, fs (j_path j) = Some text /\ translates text (j_document j)) jobs ->
  NoDup (map j_language jobs) ->
  (forall j j', In j jobs -> In j' jobs -> j_path j <> header_path dir (j_language j')) ->
  exists fs' written, run_script dir fs (map j_path jobs) = (fs', written, true)
    /\ (forall j, In j jobs -> fs' (header_path dir (j_language j)) = Some (header (j_language j) (j_document j)))
    /\ (forall p, (forall j, In j jobs -> p <> header_path dir (j_language j)) -> fs' p = fs p)
    /\ (forall p, In p written <-> exists j, In j jobs /\ p = header_path dir (j_language j)
                                            /\ fs p <> Some (header (j_language j) (j_document j))).
Proof.
  induction jobs as [|j jobs IH]; intros fs Hf Hn Hp.
  - exists fs, []. split; [reflexivity|]. split; [intros j []|]. split; [reflexivity|].
    intros p. split; [intros []|intros (j & [] & _)].
  - pose proof (Forall_inv Hf) as (H1 & text & H2 & H3). apply Forall_inv_tail in Hf.
    cbn [map] in Hn. apply NoDup_cons_iff in Hn as [Hn0 Hn]. cbn [map run_script].
    set (out := header_path dir (j_language j)). set (hd := header (j_language j) (j_document j)).
    assert (Hother : forall j', In j' jobs -> out <> header_path dir (j_language j')).
    { intros j' Hj' E. apply header_path_inj in E. apply Hn0. rewrite E. now apply in_map. }
    assert (Hstep : exists fs1 w, run_source dir fs (j_path j) = Some (fs1, w)
      /\ fs1 out = Some hd /\ (forall p, p <> out -> fs1 p = fs p) /\ (forall p, In p w <-> p = out /\ fs p <> Some hd)).
    { unfold run_source. rewrite H2, (language_named _ _ H1), (generate_translates _ _ _ H3).
      cbv zeta. change (dir ++ b "/" ++ j_language j ++ b ".hpp") with out. fold hd.
      assert (W : write fs out hd out = Some hd) by (unfold write; now rewrite beq_refl).
      assert (W' : forall p, p <> out -> write fs out hd p = fs p).
      { intros p Hpo. unfold write. apply beq_neq in Hpo. now rewrite Hpo. }
      assert (U : fs out <> Some hd -> forall p, In p [out] <-> p = out /\ fs p <> Some hd).
      { intros Hd p. split; [intros [<-|[]]; now split|intros [-> _]; now left]. }
      destruct (fs out) as [old|] eqn:Eo.
      - destruct (beq old hd) eqn:Eb.
        + apply beq_eq in Eb. subst old. exists fs, []. split; [reflexivity|]. split; [exact Eo|]. split; [reflexivity|].
          intros p. split; [intros []|intros [-> Hd]; congruence].
        + apply beq_neq in Eb. exists (write fs out hd), [out]. split; [reflexivity|]. split; [exact W|]. split; [exact W'|].
          apply U. congruence.
      - exists (write fs out hd), [out]. split; [reflexivity|]. split; [exact W|]. split; [exact W'|]. apply U. discriminate. }
    destruct Hstep as (fs1 & w & -> & S1 & S2 & S3).
    destruct (IH fs1) as (fs' & ws & E & R1 & R2 & R3).
    { rewrite Forall_forall in Hf |- *. intros j' Hj'. destruct (Hf j' Hj') as (A & t & B & C). split; [exact A|].
      exists t. split; [|exact C]. rewrite S2; [exact B|]. apply Hp; [now right|now left]. }
    { exact Hn. }
    { intros a c Ha Hc. apply Hp; now right. }
    rewrite E. exists fs', (w ++ ws). split; [reflexivity|]. split.
    { intros j' [<-|Hj']; [|now apply R1]. fold out hd. rewrite R2; [exact S1|exact Hother]. }
    split.
    { intros p Ho. rewrite R2; [|intros j' Hj'; apply Ho; now right]. apply S2. apply Ho. now left. }
    intros p. rewrite in_app_iff, S3, R3. split.
    + intros [[-> Hd]|(j' & Hj' & -> & Hd)].
      * exists j. split; [now left|]. now split.
      * exists j'. split; [now right|]. split; [reflexivity|]. rewrite <- (S2 _); [exact Hd|]. intros Ex. exact (Hother j' Hj' (eq_sym Ex)).
    + intros (j' & [<-|Hj'] & -> & Hd); [left; now split|right]. exists j'. split; [exact Hj'|]. split; [reflexivity|].
      rewrite S2; [exact Hd|]. intros Ex. exact (Hother j' Hj' (eq_sym Ex)).
Qed.

Lemma script_malformed dir fs path ls l text :
  fs path = Some text -> stored ls text -> Forall listable (removelast ls) -> In l ls ->
  ~ silent l -> l <> b "[error_code]" -> (forall x y, l <> x ++ b " = " ++ y) ->
  run_script dir fs [path] = (fs, [], false).
Proof.
  intros Hf H1 H2 H3 H4 H5 H6. cbn [run_script]. unfold run_source.
  now rewrite Hf, (generate_malformed (language_id path) ls l text H1 H2 H3 H4 H5 H6).
Qed.

(** ** Nothing is lost *)

Lemma lines_text_inj : forall x y, Forall (fun l => ~ In new_line l) x -> Forall (fun l => ~ In new_line l) y ->
  lines_text x = lines_text y -> x = y.
Proof.
  assert (L : forall l l' r r' : bytes, ~ In new_line l -> ~ In new_line l' -> l ++ new_line :: r = l' ++ new_line :: r' -> l = l' /\ r = r').
  { induction l as [|c l IH]; intros [|c' l'] r r' H H' E; cbn [app] in E.
    - injection E as ->. now split.
    - injection E as <- E. elim H'. now left.
    - injection E as -> E. elim H. now left.
    - injection E as <- E. destruct (IH l' r r') as [-> ->]; [intro; apply H; now right|intro; apply H'; now right|exact E|now split]. }
  induction x as [|l x IH]; intros [|l' y] Hx Hy E.
  - reflexivity.
  - rewrite lines_text_cons in E. cbn in E. destruct l'; discriminate.
  - rewrite lines_text_cons in E. cbn in E. destruct l; discriminate.
  - rewrite !lines_text_cons, <- !app_assoc in E. cbn [line_end app] in E.
    destruct (L l l' _ _ (Forall_inv Hx) (Forall_inv Hy) E) as [-> Er]. f_equal.
    apply IH; [exact (Forall_inv_tail Hx)|exact (Forall_inv_tail Hy)|exact Er].
Qed.

Definition single (l : bytes) : bool := negb (mem_byte new_line l).
Lemma single_iff l : single l = true <-> ~ In new_line l.
Proof.
  unfold single. rewrite negb_true_iff. split.
  - intros H Hi. apply mem_byte_in in Hi. congruence.
  - apply mem_byte_not.
Qed.
Lemma single_app x y : single (x ++ y) = single x && single y.
Proof.
  unfold single. rewrite <- negb_orb. f_equal. induction x as [|c x IH]; [reflexivity|]. cbn [app mem_byte]. now rewrite IH, orb_assoc.
Qed.
Lemma single_identifier k : identifier k -> single k = true.
Proof.
  intros [_ H]. apply single_iff. intros Hi. rewrite Forall_forall in H. specialize (H _ Hi). unfold in_identifier in H. cbn in H. lia.
Qed.

Lemma using_single cpp17 (e : bytes * bytes) : identifier (fst e) -> ~ In new_line (snd e) -> single (using_line cpp17 e) = true.
Proof.
  intros H1 H2. apply single_iff in H2. unfold using_line, translation_string.
  destruct cpp17; rewrite !single_app, (single_identifier _ H1), H2; reflexivity.
Qed.
Lemma pair_single cpp17 (e : bytes * bytes) : identifier (fst e) -> ~ In new_line (snd e) -> single (pair_line cpp17 e) = true.
Proof.
  intros H1 H2. apply single_iff in H2. unfold pair_line, translation_string.
  destruct cpp17; rewrite !single_app, (single_identifier _ H1), H2; reflexivity.
Qed.

Lemma commas_single ls : Forall (fun l => single l = true) ls -> Forall (fun l => single l = true) (commas ls).
Proof.
  induction ls as [|l ls IH]; intros H; [exact H|]. destruct ls as [|y ls]; [exact H|].
  change (commas (l :: y :: ls)) with ((l ++ b ",") :: commas (y :: ls)).
  constructor; [|apply IH; exact (Forall_inv_tail H)]. rewrite single_app, (Forall_inv H). reflexivity.
Qed.

Lemma class_single cpp17 language d : ~ In new_line language -> writable d ->
  Forall (fun l => single l = true) (class_lines (ct cpp17) language d).
Proof.
  intros Hl Hw. apply single_iff in Hl. rewrite class_lines_eq. apply Forall_app in Hw as [Hw1 Hw2].
  rewrite !Forall_app. split; [|split; [|split]].
  - constructor; [reflexivity|]. constructor; [|constructor; [reflexivity|constructor; [reflexivity|constructor]]].
    unfold translation_string. destruct cpp17; rewrite !single_app, Hl; reflexivity.
  - apply Forall_map. eapply Forall_impl; [|exact Hw1]. intros e [H1 H2]. now apply using_single.
  - destruct (d_errors d) as [es|]; [|constructor]. rewrite !Forall_app. split; [|split].
    + constructor; [reflexivity|]. constructor; [reflexivity|constructor].
    + apply commas_single, Forall_map. eapply Forall_impl; [|exact Hw2]. intros e [H1 H2]. now apply pair_single.
    + constructor; [reflexivity|constructor].
  - constructor; [reflexivity|constructor].
Qed.

Lemma key_split k k' s s' : Forall in_identifier k -> Forall in_identifier k' ->
  k ++ b " = " ++ s = k' ++ b " = " ++ s' -> k = k' /\ s = s'.
Proof.
  intros H H' E. pose proof (find_entry k s H) as F. rewrite E, (find_entry k' s' H') in F. injection F as F.
  assert (k = k').
  { apply (f_equal (firstn (List.length k))) in E. rewrite <- F in E at 2.
    rewrite !firstn_app, !Nat.sub_diag, !firstn_all in E. cbn [firstn] in E. now rewrite !app_nil_r in E. }
  subst k'. apply app_inv_head in E. apply app_inv_head in E. now split.
Qed.

Lemma key_angle k k' s s' : Forall in_identifier k -> Forall in_identifier k' ->
  k ++ b ">, " ++ s = k' ++ b ">, " ++ s' -> k = k' /\ s = s'.
Proof.
  intros H. revert k'. induction H as [|c k Hc Hk IH]; intros k' H' E.
  - destruct k' as [|c' k']; [cbn in E; split; [reflexivity|congruence]|].
    cbn in E. injection E as <- E. pose proof (Forall_inv H') as Hc. apply identifier_char in Hc. tauto.
  - destruct k' as [|c' k'].
    + cbn in E. injection E as -> E. apply identifier_char in Hc. tauto.
    + cbn [app] in E. injection E as <- E. destruct (IH k' (Forall_inv_tail H') E) as [-> ->]. now split.
Qed.

Lemma string_inj cpp17 v v' x : translation_string cpp17 v ++ x = translation_string cpp17 v' ++ x -> v = v'.
Proof.
  intros E. apply app_inv_tail in E. unfold translation_string in E.
  destruct cpp17; apply app_inv_head, app_inv_tail in E; exact E.
Qed.

Lemma using_inj cpp17 e e' : identifier (fst e) -> identifier (fst e') -> using_line cpp17 e = using_line cpp17 e' -> e = e'.
Proof.
  destruct e as [k v], e' as [k' v']. cbn [fst]. intros [_ H] [_ H'] E. unfold using_line in E. cbn [fst snd] in E.
  apply app_inv_head in E. apply key_split in E as [-> E]; [|exact H|exact H']. apply string_inj in E. now subst.
Qed.
Lemma pair_inj cpp17 e e' : identifier (fst e) -> identifier (fst e') -> pair_line cpp17 e = pair_line cpp17 e' -> e = e'.
Proof.
  destruct e as [k v], e' as [k' v']. cbn [fst]. intros [_ H] [_ H'] E. unfold pair_line in E. cbn [fst snd] in E.
  apply app_inv_head in E. apply key_angle in E as [-> E]; [|exact H|exact H']. apply string_inj in E. now subst.
Qed.

Definition no_using (ls : list bytes) : Prop := forall cpp17 e r, ls <> using_line cpp17 e :: r.

Lemma usings_inj cpp17 es : forall es' r r',
  Forall (fun e => identifier (fst e)) es -> Forall (fun e => identifier (fst e)) es' -> no_using r -> no_using r' ->
  map (using_line cpp17) es ++ r = map (using_line cpp17) es' ++ r' -> es = es' /\ r = r'.
Proof.
  induction es as [|e es IH]; intros [|e' es'] r r' H H' N N' E; cbn [map app] in E.
  - now split.
  - elim (N cpp17 e' _ E).
  - elim (N' cpp17 e _ (eq_sym E)).
  - assert (E1 : using_line cpp17 e = using_line cpp17 e') by congruence.
    assert (E2 : map (using_line cpp17) es ++ r = map (using_line cpp17) es' ++ r') by congruence.
    apply using_inj in E1; [|exact (Forall_inv H)|exact (Forall_inv H')]. subst e'.
    destruct (IH es' r r' (Forall_inv_tail H) (Forall_inv_tail H') N N' E2) as [-> ->]. now split.
Qed.

Lemma pair_not_end cpp17 e x : pair_line cpp17 e ++ x <> b "    >;".
Proof. unfold pair_line. cbn. intros E. discriminate E. Qed.
Lemma pair_comma cpp17 e e' : pair_line cpp17 e <> pair_line cpp17 e' ++ b ",".
Proof.
  unfold pair_line. intros E. apply (f_equal (@rev ascii)) in E. rewrite !rev_app_distr in E. cbn in E. discriminate E.
Qed.

Lemma pairs_inj cpp17 es : forall es' r r',
  Forall (fun e => identifier (fst e)) es -> Forall (fun e => identifier (fst e)) es' ->
  commas (map (pair_line cpp17) es) ++ b "    >;" :: r = commas (map (pair_line cpp17) es') ++ b "    >;" :: r' -> es = es'.
Proof.
  assert (C : forall e l, exists x r, commas (map (pair_line cpp17) (e :: l)) = (pair_line cpp17 e ++ x) :: r).
  { intros e [|e' l]; [exists [], []; cbn [map commas]; now rewrite app_nil_r|].
    exists (b ","), (commas (map (pair_line cpp17) (e' :: l))). reflexivity. }
  induction es as [|e es IH]; intros [|e' es'] r r' H H' E.
  - reflexivity.
  - destruct (C e' es') as (x & rr & Ec). rewrite Ec in E. cbn [map commas app] in E.
    assert (b "    >;" = pair_line cpp17 e' ++ x) as E1 by congruence. symmetry in E1. now apply pair_not_end in E1.
  - destruct (C e es) as (x & rr & Ec). rewrite Ec in E. cbn [map commas app] in E.
    assert (pair_line cpp17 e ++ x = b "    >;") as E1 by congruence. now apply pair_not_end in E1.
  - destruct es as [|e2 es], es' as [|e2' es'].
    + cbn [map commas app] in E. assert (E1 : pair_line cpp17 e = pair_line cpp17 e') by congruence.
      apply pair_inj in E1; [now subst|exact (Forall_inv H)|exact (Forall_inv H')].
    + cbn [map] in E. change (commas (pair_line cpp17 e' :: pair_line cpp17 e2' :: map (pair_line cpp17) es'))
        with ((pair_line cpp17 e' ++ b ",") :: commas (pair_line cpp17 e2' :: map (pair_line cpp17) es')) in E.
      cbn [commas app] in E. assert (E1 : pair_line cpp17 e = pair_line cpp17 e' ++ b ",") by congruence. now apply pair_comma in E1.
    + cbn [map] in E. change (commas (pair_line cpp17 e :: pair_line cpp17 e2 :: map (pair_line cpp17) es))
        with ((pair_line cpp17 e ++ b ",") :: commas (pair_line cpp17 e2 :: map (pair_line cpp17) es)) in E.
      cbn [commas app] in E. assert (E1 : pair_line cpp17 e' = pair_line cpp17 e ++ b ",") by congruence. now apply pair_comma in E1.
    + assert (D : forall a a2 l, commas (map (pair_line cpp17) (a :: a2 :: l)) = (pair_line cpp17 a ++ b ",") :: commas (map (pair_line cpp17) (a2 :: l)))
        by reflexivity.
      rewrite !D in E. rewrite <- !app_comm_cons in E.
      pose proof (f_equal (hd []) E) as E1. pose proof (f_equal (@tl bytes) E) as E2. cbn [hd tl] in E1, E2.
      apply app_inv_tail in E1. apply pair_inj in E1; [|exact (Forall_inv H)|exact (Forall_inv H')]. subst e'. f_equal.
      apply (IH (e2' :: es') r r'); [exact (Forall_inv_tail H)|exact (Forall_inv_tail H')|exact E2].
Qed.

Lemma header_inj language language' d d' :
  ~ In new_line language -> ~ In new_line language' -> writable d -> writable d' ->
  header language d = header language' d' -> language = language' /\ d = d'.
Proof.
  intros H1 H2 H3 H4 E. unfold header in E.
  assert (S : forall l x, ~ In new_line l -> writable x ->
    Forall (fun l => ~ In new_line l)
      ([b "// Generated by CMake, do not modify manually"; b "namespace arg_router::multi_lang"; b "{"; b "#ifdef AR_ENABLE_CPP20_STRINGS"]
              ++ class_lines (fun s => b "str<" ++ s ++ b ">") l x
              ++ [b "#else"]
              ++ class_lines (fun s => b "S_(" ++ s ++ b ")") l x
              ++ [b "#endif"; b "}  // namespace arg_router::multi_lang"])).
  { intros l x Hl Hx. apply (Forall_impl _ (fun y => proj1 (single_iff y))).
    rewrite !Forall_app. split; [repeat constructor|]. split; [exact (class_single false l x Hl Hx)|]. split; [repeat constructor|].
    split; [exact (class_single true l x Hl Hx)|repeat constructor]. }
  apply lines_text_inj in E; [|now apply S|now apply S]. clear S.
  change (fun s => b "str<" ++ s ++ b ">") with (ct false) in E. change (fun s => b "S_(" ++ s ++ b ")") with (ct true) in E.
  apply app_inv_head in E. rewrite !(class_lines_eq false) in E. rewrite <- !app_assoc in E. cbn [app] in E.
  injection E as E0 E. split.
  { apply app_inv_tail in E0. apply app_inv_tail in E0. exact (app_inv_tail _ _ _ E0). }
  clear E0.
  apply Forall_app in H3 as [H3 H3']. apply Forall_app in H4 as [H4 H4'].
  assert (K : forall es : list (bytes * bytes), Forall (fun e => identifier (fst e) /\ ~ In new_line (snd e)) es ->
    Forall (fun e => identifier (fst e)) es) by (intros es; apply Forall_impl; now intros e []).
  apply usings_inj in E as [Et E]; [|now apply K|now apply K| |].
  - destruct d as [ts [es|]], d' as [ts' [es'|]]; cbn [d_texts d_errors] in *; subst ts'; cbn [app] in E.
    + do 2 f_equal. rewrite <- !app_assoc in E. injection E as E. cbn [app] in E. exact (pairs_inj false es es' _ _ (K _ H3') (K _ H4') E).
    + discriminate E.
    + discriminate E.
    + reflexivity.
  - intros c e r. destruct (d_errors d); cbn [app]; intros Ex; discriminate Ex.
  - intros c e r. destruct (d_errors d'); cbn [app]; intros Ex; discriminate Ex.
Qed.

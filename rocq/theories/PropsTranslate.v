(** C79: a program that was translated into another language understands the translated command lines.

    [translated d r r']: the program [r'] is [r] with the names replaced according to the dictionary [d], and
    with any other texts.  [same_words d r ws ws']: the command line [ws'] is [ws] with the names replaced.
    [plain_values d r args]: no value in the command line looks like a name of either language. *)
From Verif Require Import Bytes Token Result CodePoint Utf8 Tree PreParse Parse Root Build Validator.
From Verif Require Import SpecTake SpecMode SpecDeliver SpecRoot SpecReading SpecClaims SpecTranslate.
From Verif Require Import MultiLang TextProofs ClaimProofs BlameProofs TranslateProofs Demo.
Local Open Scope N_scope.

(** A command line that calls a router calls the same router with the same values when both the program and
    the command line are translated. *)
Theorem c79_translated : forall d r r' mem mem' ws ws' n vs,
  translated d r r' -> faithful d (separates r) ->
  fresh r mem (to_tokens ws) -> fresh r' mem' (to_tokens ws') ->
  same_words d r ws ws' -> plain_values d r (to_tokens ws) ->
  calls_router r mem (to_tokens ws) n vs ->
  exists n', translated d n n' /\ calls_router r' mem' (to_tokens ws') n' vs.
Proof. exact translated_run. Qed.
Print Assumptions c79_translated.

(** And the translated program accepts nothing else: what calls a router there comes from a command line
    that calls the same router with the same values. *)
Theorem c79_nothing_new : forall d r r' mem mem' ws ws' n' vs,
  translated d r r' -> faithful d (separates r) ->
  fresh r mem (to_tokens ws) -> fresh r' mem' (to_tokens ws') ->
  same_words d r ws ws' -> plain_values d r' (to_tokens ws') ->
  calls_router r' mem' (to_tokens ws') n' vs ->
  exists n, translated d n n' /\ calls_router r mem (to_tokens ws) n vs.
Proof. exact translated_back. Qed.
Print Assumptions c79_nothing_new.

(** ** The demo program in German *)

Definition g_help := help 1 [PLongName (b "hilfe"); PShortName (b "h")].
Definition g_version := flag 2 [PLongName (b "fassung"); PRouter].
Definition g_force := flag 10 [PLongName (b "erzwingen"); PShortName (b "f")].
Definition g_verbose := counting_flag (to_unsigned 64) 11 [PLongName (b "verbose"); PShortName (b "v")].
Definition g_depth := arg num 12 [PLongName (b "tiefe"); PDefaultValue (VInt 3); PMinMaxValue (Some (VInt 1)) (Some (VInt 9)) int_lt].
Definition g_owner := arg str 13 [PLongName (b "besitzer"); PShortName (b "o"); PValueSeparator (b "=")].
Definition g_group := arg str 14 [PLongName (b "gruppe"); PDependent [NLong (b "erzwingen")]].
Definition g_both := arg num 15 [PLongName (b "beides"); PAlias [NLong (b "tiefe"); NLong (b "breite")]].
Definition g_width := arg num 16 [PLongName (b "breite"); PRequired].
Definition g_zip := arg num 18 [PLongName (b "zip")].
Definition g_tar := flag 19 [PLongName (b "tar"); PShortName (b "t")].
Definition g_pack := one_of 1 num 17 [PDefaultValue (VInt 7)] [g_zip; g_tar].
Definition g_old := flag 20 [PLongName (b "alt"); PRuntimeEnable false].
Definition g_src := positional_arg strs 21 [PDisplayName (b "QUELLE"); PTokenEndMarker (b "--")].
Definition g_dst := positional_arg str 22 [PDisplayName (b "ZIEL"); PMinMaxCount 1 1].
Definition g_copy := mode 3 [PNoneName (b "kopieren"); PRouter]
  [g_force; g_verbose; g_depth; g_owner; g_group; g_both; g_width; g_pack; g_old; g_src; g_dst].
Definition g_url := positional_arg str 31 [PDisplayName (b "ADRESSE"); PRequired; PMinMaxCount 1 1].
Definition g_add := mode 30 [PNoneName (b "neu"); PRouter] [g_url].
Definition g_remote := mode 4 [PNoneName (b "entfernt")] [g_add].
Definition g_all := flag 40 [PLongName (b "alle"); PShortName (b "a")].
Definition g_brief := flag 41 [PLongName (b "knapp"); PShortName (b "b")].
Definition g_names := positional_arg strs 42 [PDisplayName (b "NAMEN")].
Definition g_anon := mode 5 [PRouter] [g_all; g_brief; g_names].
Definition german : node := root [] [g_help; g_version; g_copy; g_remote; g_anon].

Definition g_long : list (bytes * bytes) := map (fun p => (b (fst p), b (snd p)))
  [("help", "hilfe"); ("version", "fassung"); ("force", "erzwingen"); ("verbose", "verbose"); ("depth", "tiefe");
   ("owner", "besitzer"); ("group", "gruppe"); ("both", "beides"); ("width", "breite"); ("zip", "zip"); ("tar", "tar");
   ("old", "alt"); ("all", "alle"); ("brief", "knapp")]%string.
Definition g_bare : list (bytes * bytes) := map (fun p => (b (fst p), b (snd p)))
  [("copy", "kopieren"); ("add", "neu"); ("remote", "entfernt")]%string.
Definition g_dict : dictionary := Dict (fun x y => In (x, y) g_long) (fun x y => In (x, y) g_bare) eq.

Lemma german_translated : translated g_dict demo german.
Proof.
  repeat first [ apply Translated | apply Forall2_nil | apply Forall2_cons | reflexivity
               | apply tp_same; reflexivity
               | apply tp_text; reflexivity
               | apply tp_long; cbn; tauto | apply tp_bare; cbn; tauto
               | apply tp_alias | apply tp_dependent | apply ref_long; cbn; tauto ].
Qed.

(** The hypotheses as computations. *)
Definition sep_bytes (r : node) : bytes := flat_map (fun n => match value_separator n with Some s => s | None => [] end) (below r).
Definition mark_words (r : node) : list bytes := flat_map (fun n => match token_end_marker n with Some s => [s] | None => [] end) (below r).
Lemma separates_in r c : separates r c <-> In c (sep_bytes r).
Proof.
  unfold separates, sep_bytes. rewrite in_flat_map. split.
  - intros (n & s & Hn & Hs & Hc). exists n. split; [exact Hn|]. now rewrite Hs.
  - intros (n & Hn & Hc). destruct (value_separator n) as [s|] eqn:E; [|contradiction]. now exists n, s.
Qed.
Lemma marks_in r s : marks r s <-> In s (mark_words r).
Proof.
  unfold marks, mark_words. rewrite in_flat_map. split.
  - intros (n & Hn & Hs). exists n. split; [exact Hn|]. rewrite Hs. now left.
  - intros (n & Hn & Hc). destruct (token_end_marker n) as [m|] eqn:E; [|contradiction].
    destruct Hc as [<-|[]]. now exists n.
Qed.

Definition g_words : list bytes :=
  map (fun p => long_prefix ++ fst p) g_long ++ map (fun p => long_prefix ++ snd p) g_long ++ map fst g_bare ++ map snd g_bare.
Definition suffix_b (seps v : bytes) : bool := match v with [] => true | c :: _ => existsb (Ascii.eqb c) seps end.
Definition no_word_b (seps w : bytes) : bool :=
  forallb (fun k => negb (suffix_b seps (skipn k w)) || negb (existsb (beq (firstn k w)) g_words)) (seq 0 (S (List.length w))).
Lemma no_word_b_spec r w : no_word_b (sep_bytes r) w = true -> no_word g_dict (separates r) w.
Proof.
  unfold no_word_b. rewrite forallb_forall. intros H s v -> Hv.
  assert (Hs : ~ In s g_words).
  { specialize (H (List.length s)). rewrite skipn_app, skipn_all, Nat.sub_diag, firstn_app, firstn_all, Nat.sub_diag in H.
    cbn [app skipn firstn] in H. rewrite app_nil_r in H. intros Hi.
    assert (E : existsb (beq s) g_words = true) by (apply existsb_exists; exists s; split; [exact Hi|now apply beq_eq]).
    assert (F : suffix_b (sep_bytes r) v = true).
    { destruct Hv as [->|(c & t & -> & Hc)]; [reflexivity|]. apply existsb_exists. exists c.
      split; [now apply separates_in|apply Ascii.eqb_refl]. }
    rewrite E, F in H. discriminate H. apply in_seq. rewrite app_length. lia. }
  unfold g_words in Hs. rewrite !in_app_iff in Hs. split; intros x y Hxy; cbn in Hxy; split; intros ->; apply Hs.
  - left. now apply (in_map (fun p => long_prefix ++ fst p) g_long (x, y)).
  - right; left. now apply (in_map (fun p => long_prefix ++ snd p) g_long (x, y)).
  - right; right; left. now apply (in_map fst g_bare (x, y)).
  - right; right; right. now apply (in_map snd g_bare (x, y)).
Qed.

Lemma pairs_one_to_one (l : list (bytes * bytes)) : NoDup (map fst l) -> NoDup (map snd l) ->
  one_to_one (fun x y => In (x, y) l).
Proof.
  intros H1 H2 x y x' y' H H'. split; intros E; subst.
  - assert (E : (x', y) = (x', y')) by (apply (ReadProofs.nodup_map_inj fst l H1); auto). congruence.
  - assert (E : (x, y') = (x', y')) by (apply (ReadProofs.nodup_map_inj snd l H2); auto). congruence.
Qed.

Lemma demo_equals c : separates demo c -> c = "="%char.
Proof.
  rewrite separates_in. assert (E : sep_bytes demo = b "=") by (vm_compute; reflexivity). rewrite E.
  intros [<-|[]]. reflexivity.
Qed.
Lemma unseparated_b w : existsb (Ascii.eqb "=") w = false -> unseparated (separates demo) w.
Proof.
  intros H c Hc Hs. apply demo_equals in Hs. subst c.
  assert (existsb (Ascii.eqb "=") w = true) by (apply existsb_exists; exists "="%char; split; [exact Hc|reflexivity]).
  congruence.
Qed.
Lemma german_faithful : faithful g_dict (separates demo).
Proof.
  constructor.
  - apply pairs_one_to_one; apply TextProofs.all_distinct_iff; vm_compute; reflexivity.
  - apply pairs_one_to_one; apply TextProofs.all_distinct_iff; vm_compute; reflexivity.
  - intros x y x' y' -> ->. reflexivity.
  - intros x y H. cbn in H.
    repeat (destruct H as [H|H]; [injection H as <- <-; split; apply unseparated_b; reflexivity|]). contradiction.
  - intros x y H. cbn in H.
    repeat (destruct H as [H|H]; [injection H as <- <-; split; apply unseparated_b; reflexivity|]). contradiction.
  - intros x y H. cbn in H.
    repeat (destruct H as [H|H]; [injection H as <- <-; split; (split; [discriminate|reflexivity])|]). contradiction.
Qed.

Lemma german_well_formed : well_formed german.
Proof. apply well_formed_b_spec. vm_compute. reflexivity. Qed.

(** demo copy --width 5 -vfv --owner=me a b -- c, and the same in German. *)
Definition english_line : list bytes := map b ["copy"; "--width"; "5"; "-vfv"; "--owner=me"; "a"; "b"; "--"; "c"]%string.
Definition german_line : list bytes := map b ["kopieren"; "--breite"; "5"; "-vfv"; "--besitzer=me"; "a"; "b"; "--"; "c"]%string.

Lemma translated_word x y v : d_long g_dict x y -> suffix (separates demo) v ->
  existsb (beq (long_prefix ++ x ++ v)) (mark_words demo) = false ->
  existsb (beq (long_prefix ++ y ++ v)) (mark_words demo) = false ->
  says g_dict (separates demo) (long_prefix ++ x ++ v) (long_prefix ++ y ++ v)
  /\ (long_prefix ++ x ++ v = long_prefix ++ y ++ v
      \/ ~ marks demo (long_prefix ++ x ++ v) /\ ~ marks demo (long_prefix ++ y ++ v)).
Proof.
  intros H Hv H1 H2. split; [now apply says_long|]. right.
  assert (G : forall w, existsb (beq w) (mark_words demo) = false -> ~ marks demo w).
  { intros w E Hm. apply marks_in in Hm. assert (existsb (beq w) (mark_words demo) = true); [|congruence].
    apply existsb_exists. exists w. split; [exact Hm|now apply beq_eq]. }
  split; apply G; assumption.
Qed.
Lemma same_word w : no_word_b (sep_bytes demo) w = true ->
  says g_dict (separates demo) w w /\ (w = w \/ ~ marks demo w /\ ~ marks demo w).
Proof. intros H. split; [apply says_other; now apply no_word_b_spec|now left]. Qed.

Lemma lines_same : same_words g_dict demo english_line german_line.
Proof.
  unfold english_line, german_line, same_words. cbn [map].
  assert (Hc : says g_dict (separates demo) (b "copy") (b "kopieren")
    /\ (b "copy" = b "kopieren" \/ ~ marks demo (b "copy") /\ ~ marks demo (b "kopieren"))).
  { split.
    - rewrite <- (app_nil_r (b "copy")), <- (app_nil_r (b "kopieren")). apply says_bare; [cbn; tauto|now left].
    - right. rewrite !marks_in. assert (E : mark_words demo = [b "--"]) by (vm_compute; reflexivity). rewrite E.
      split; intros [H|[]]; discriminate. }
  assert (Hw := translated_word (b "width") (b "breite") [] ltac:(cbn; tauto) (or_introl eq_refl)
                  ltac:(vm_compute; reflexivity) ltac:(vm_compute; reflexivity)).
  assert (Ho : suffix (separates demo) (b "=me")).
  { right. exists "="%char, (b "me"). split; [reflexivity|]. apply separates_in. vm_compute. now left. }
  assert (Hb := translated_word (b "owner") (b "besitzer") (b "=me") ltac:(cbn; tauto) Ho
                  ltac:(vm_compute; reflexivity) ltac:(vm_compute; reflexivity)).
  repeat first [apply Forall2_nil | apply Forall2_cons]; [exact Hc|exact Hw| | |exact Hb| | | |];
    apply same_word; vm_compute; reflexivity.
Qed.

Lemma english_plain : plain_values g_dict demo (to_tokens english_line).
Proof.
  change (to_tokens english_line) with ex1. intros t [(m & ts & items & it & Ht & Hit & Hi)|(c & label & vals & Hc & Hm & Hcon & Hi)].
  - destruct ex1_assigned as (ts0 & items0 & Ht0 & Ha).
    destruct (typed_det _ _ _ _ _ _ _ _ Ht Ht0) as (-> & -> & ->). clear Ht.
    assert (Hn : exists a, In a (flat_map (assigned d_copy) items0) /\ In t (snd a)).
    { destruct Ht0 as (bf & c & af & ps & _ & _ & _ & _ & Hrd).
      destruct (reading_entries _ _ _ _ Hrd _ Hit) as (i & Hin). apply entry_below in Hin.
      assert (Hs : forallb (fun l => match stands_for d_copy l with [] => false | _ => true end) (below d_copy) = true)
        by (vm_compute; reflexivity).
      rewrite forallb_forall in Hs. specialize (Hs _ Hin).
      destruct (stands_for d_copy (i_node it)) as [|e es] eqn:E; [discriminate|].
      exists (e, i_values it). split; [|exact Hi]. apply in_flat_map. exists it. split; [exact Hit|].
      unfold assigned. rewrite E. now left. }
    destruct Hn as (a & Hin & Hta). apply (in_map by_id) in Hin. rewrite Ha in Hin.
    apply no_word_b_spec.
    assert (Hall : forallb (fun a => forallb (fun t => no_word_b (sep_bytes demo) (t_name t)) (snd a))
       [(16, toks ["5"]); (11, []); (10, []); (11, []); (13, toks ["me"]); (21, toks ["a"; "b"]); (22, toks ["c"])]%N%string = true)
      by (vm_compute; reflexivity).
    rewrite forallb_forall in Hall. specialize (Hall _ Hin). rewrite forallb_forall in Hall. apply Hall. exact Hta.
  - exfalso. assert (Hx : c = d_help \/ c = d_version).
    { destruct Hc as [<-|[<-|[<-|[<-|[<-|[]]]]]]; try discriminate Hm; [now left|now right]. }
    clear Hc Hm Hi. destruct Hcon as [t0 value us t1 us1 vals rest Hn Hf Hg Hmt _|vals rest Hn _ _].
    + assert (E0 : t0 = Tok PNone (b "copy")).
      { inversion Hf as [t2 us2 E E1 E2 E3 E4|ss p l c0 s v us2 E]; [|destruct Hx as [-> | ->]; discriminate E].
        reflexivity. }
      subst t0. clear Hf. inversion Hg as [t2 us2 Hno E1 E2|t2 nm g gs us2 Hgf Hgs E1 E2]; subst.
      * destruct Hx as [-> | ->]; discriminate Hmt.
      * destruct Hgf as (_ & [[E _]|(_ & E & _)] & _); discriminate E.
    + destruct Hx as [-> | ->]; discriminate Hn.
Qed.

Example c79_example :
  translated g_dict demo german /\ faithful g_dict (separates demo)
  /\ fresh demo [] (to_tokens english_line) /\ fresh german [] (to_tokens german_line)
  /\ same_words g_dict demo english_line german_line /\ plain_values g_dict demo (to_tokens english_line)
  /\ calls_router demo [] (to_tokens english_line) d_copy ex1_values
  /\ exists n', translated g_dict d_copy n' /\ calls_router german [] (to_tokens german_line) n' ex1_values.
Proof.
  assert (Hf : fresh german [] (to_tokens german_line)).
  { constructor; [exact german_well_formed|intros inst _; reflexivity|vm_compute; reflexivity|left; discriminate]. }
  split; [exact german_translated|]. split; [exact german_faithful|]. split; [exact ex1_fresh|]. split; [exact Hf|].
  split; [exact lines_same|]. split; [exact english_plain|]. split; [exact ex1_run|].
  exact (c79_translated g_dict demo german [] [] english_line german_line d_copy ex1_values german_translated german_faithful
           ex1_fresh Hf lines_same english_plain ex1_run).
Qed.

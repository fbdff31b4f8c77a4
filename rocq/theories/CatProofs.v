(** Proofs for C87: the options of basic_cat. *)
From Verif Require Import Bytes Token Result CodePoint Utf8 Utf8Proofs Tree PreParse Root TokenProofs NodeProofs.
From Verif Require Import Build Demo RunProofs SpecTokens SpecTake SpecMode SpecDeliver SpecRoot SpecReading SpecClaims.
From Verif Require Import Examples SpecExamples ExampleProofs ReadProofs ExactProofs.
Local Open Scope nat_scope.

Definition eq_sign : ascii := "="%char.
Definition sep_ok (n : node) : Prop := value_separator n = None \/ value_separator n = Some [eq_sign].

Lemma split_unique (l l' v v' : bytes) : ~ In eq_sign l -> ~ In eq_sign l' -> l ++ eq_sign :: v = l' ++ eq_sign :: v' -> l = l'.
Proof.
  revert l'. induction l as [|a l IH]; intros [|a' l'] H H' E.
  - reflexivity.
  - exfalso. injection E as E _. apply H'. now left.
  - exfalso. injection E as E _. apply H. now left.
  - injection E as -> E. f_equal. apply (IH l'); [firstorder|firstorder|exact E].
Qed.

Lemma long_norm n l : norm_token n (Tok PNone (b "--" ++ l)) =
  if is_some (long_name n) then Tok PLong l else Tok PNone (b "--" ++ l).
Proof.
  unfold norm_token, node_get_token, get_token_type_for. cbn [t_prefix t_name].
  replace (starts_with long_prefix (b "--" ++ l)) with true by reflexivity.
  replace (starts_with short_prefix (b "--" ++ l)) with true by reflexivity.
  rewrite andb_true_r, !andb_false_r. destruct (is_some (long_name n)); reflexivity.
Qed.

Lemma long_matched n l : none_name n = None -> match_node n (norm_token n (Tok PNone (b "--" ++ l))) = true -> long_name n = Some l.
Proof.
  intros Hn. rewrite long_norm. unfold match_node. rewrite Hn. destruct (long_name n) as [L|]; cbn [is_some t_prefix t_name prefix_eqb andb orb].
  - destruct (short_name n); cbn [andb orb]; rewrite !orb_false_r; intros H; apply beq_eq in H; now subst.
  - destruct (short_name n); discriminate.
Qed.

(** A word "--nm" or "--nm=value". *)
Definition long_word (nm x : bytes) : Prop := ~ In eq_sign nm /\ (x = nm \/ exists v, x = nm ++ eq_sign :: v).

Lemma long_fronted n nm x us t value vs : sep_ok n -> long_word nm x ->
  fronted n (Tok PNone (b "--" ++ x) :: us) t value vs ->
  t = Tok PNone (b "--" ++ x) \/ t = Tok PNone (b "--" ++ nm).
Proof.
  intros Hs [Hnm Hx] H. inversion H as [t0 us0 Hsep|sep p l c s v us0 Hsep Hin Hlen Hc Hv]; subst; [now left|right].
  destruct Hs as [Hs|Hs]; rewrite Hs in Hsep; [discriminate Hsep|]. injection Hsep as <-. destruct Hin as [<-|[]].
  destruct s; [|discriminate Hlen].
  assert (Hl := Hc eq_sign (or_introl eq_refl)). cbn [app] in *.
  match goal with E : _ ++ _ = _ |- _ => rename E into E0 end.
  destruct l as [|a1 l]; [discriminate E0|]. destruct l as [|a2 l]; [discriminate E0|].
  simpl in E0. injection E0 as -> -> E0. simpl. do 3 f_equal.
  assert (Hl' : ~ In eq_sign l) by (intros X; apply Hl; now right; right).
  destruct Hx as [->|[v' ->]].
  - exfalso. apply Hnm. rewrite <- E0. apply in_or_app. right. now left.
  - exact (split_unique l nm v v' Hl' Hnm E0).
Qed.

Lemma long_ungroup n l nm : ~ group_for n (Tok PNone (b "--" ++ l)) nm.
Proof.
  intros (_ & [[E _]|(_ & E & F)] & _); [discriminate E|]. cbn [t_name] in *. discriminate F.
Qed.

Lemma long_passes m done n i nm x us : is_named n = true -> none_name n = None -> enabled n -> sep_ok n ->
  long_word nm x -> (forall L, long_name n = Some L -> ~ In eq_sign L /\ L <> nm) ->
  passes m done (Tok PNone (b "--" ++ x) :: us) i n.
Proof.
  intros Hn Hx He Hs Hw HL.
  assert (Hno : forall l, l = x \/ l = nm -> match_node n (norm_token n (Tok PNone (b "--" ++ l))) = true -> False).
  { intros l Hl H. apply (long_matched n l Hx) in H. destruct (HL _ H) as [A B]. destruct Hw as [_ Hw].
    destruct Hl as [->| ->]; [|now apply B]. destruct Hw as [->|[v ->]]; [now apply B|].
    apply A. apply in_or_app. right. now left. }
  split.
  - intros [(sep & t0 & us0 & l & c & s & H & _ & _ & _ & _ & Hlen)|[(t0 & value & us0 & Hf & nm' & Hg & Hb)|(H & _)]]; [| |contradiction].
    + destruct Hs as [Hs|Hs]; rewrite Hs in H; [discriminate H|]. injection H as <-. cbn [List.length] in Hlen. lia.
    + destruct (long_fronted n nm x us _ _ _ Hs Hw Hf) as [->| ->]; exact (long_ungroup n _ nm' Hg).
  - right; left. intros [[_ [(t1 & value & us1 & t' & us' & Hf & Hg & Hm)|(sep & t1 & us1 & _ & E & _ & _ & Hm)]]|[H _]]; [| |congruence].
    + assert (exists l, t1 = Tok PNone (b "--" ++ l) /\ (l = x \/ l = nm)) as (l & -> & Hl).
      { destruct (long_fronted n nm x us _ _ _ Hs Hw Hf) as [->| ->]; [exists x|exists nm]; auto. }
      inversion Hg as [t0 us0 Hng|t0 nm' g gs us0 Hgr Hgs]; subst; [exact (Hno l Hl Hm)|exact (long_ungroup n _ nm' Hgr)].
    + injection E as <- <-. exact (Hno x (or_introl eq_refl) Hm).
Qed.

(** A short name or a group of them. *)
Lemma short_matched n t nm : none_name n = None -> dashed t nm -> match_node n (norm_token n t) = true -> short_name n = Some nm.
Proof.
  intros Hn Hd. unfold match_node, norm_token, node_get_token, get_token_type_for. rewrite Hn. destruct Hd as [->|[-> Hd]]; cbn [t_prefix t_name].
  - destruct (long_name n), (short_name n) as [s|]; cbn [prefix_eqb andb orb]; rewrite ?orb_false_r; try discriminate;
      intros H; apply beq_eq in H; now subst.
  - assert (E : starts_with long_prefix (b "-" ++ nm) = false) by (apply (dashed_prefix (b "-" ++ nm) nm eq_refl); exact Hd).
    rewrite E, andb_false_r. replace (starts_with short_prefix (b "-" ++ nm)) with true by reflexivity.
    cbn [negb andb]. rewrite andb_true_r. destruct (long_name n), (short_name n) as [s|]; cbn [is_some t_prefix t_name prefix_eqb andb orb];
      rewrite ?orb_false_r; try discriminate; intros H; apply beq_eq in H; simpl in H; now subst.
Qed.

Lemma group_name n t nm nm' : dashed t nm -> group_for n t nm' -> nm' = nm.
Proof.
  intros Hd (_ & [[E1 E2]|(E1 & E2 & E3)] & _); destruct Hd as [->|[-> Hd]]; cbn [t_prefix t_name] in *; try discriminate; [exact E2|].
  injection E2 as E2. now rewrite E2.
Qed.

Lemma short_chokes n t nm g gs us : enabled n -> sep_ok n -> kept (t :: us) -> dashed t nm -> ~ In eq_sign nm ->
  graphemes nm = Some (g :: gs) -> ~ chokes n (t :: us).
Proof.
  intros He Hs K Hd Hq Hg.
  assert (Hfr : forall t' value vs, fronted n (t :: us) t' value vs -> t' = t /\ vs = us).
  { intros t' value vs H. inversion H as [t0 us0 Hsep|sep p l c s v us0 Hsep Hin Hlen Hc Hv]; subst; [now split|exfalso].
    destruct Hs as [Hs|Hs]; rewrite Hs in Hsep; [discriminate Hsep|]. injection Hsep as <-. destruct Hin as [<-|[]].
    assert (X : In eq_sign (l ++ eq_sign :: s ++ v)) by (apply in_or_app; right; now left).
    destruct Hd as [E|[E _]]; assert (E' := f_equal t_name E); cbn [t_name] in E'; rewrite E' in X; [exact (Hq X)|]. destruct X as [X|X]; [discriminate X|exact (Hq X)]. }
  assert (Hgr : forall nm', group_for n t nm' -> nm' = nm).
  { intros nm' (_ & [[E1 E2]|(E1 & E2 & E3)] & _); destruct Hd as [->|[-> Hd]]; cbn [t_prefix t_name] in *; try discriminate; [exact E2|].
    injection E2 as E2. now rewrite E2. }
  intros [(sep & t0 & us0 & l & c & s & H & _ & _ & _ & _ & Hlen)|[(t0 & value & us0 & Hf & nm' & Hg' & Hb)|(H & _)]]; [| |contradiction].
  - destruct Hs as [Hs|Hs]; rewrite Hs in H; [discriminate H|]. injection H as <-. cbn [List.length] in Hlen. lia.
  - destruct (Hfr _ _ _ Hf) as [-> ->]. rewrite (Hgr _ Hg') in Hb. destruct Hb as [Hb|[[_ E]|Hb]].
    + congruence.
    + subst nm. rewrite graphemes_nil in Hg. discriminate Hg.
    + destruct K as [_ Hw]. rewrite args_weight_cons in Hw.
      assert (L : List.length nm <= token_weight t).
      { unfold token_weight. destruct Hd as [->|[-> _]]; cbn [t_name]; [lia|]. rewrite app_length. lia. }
      pose proof (args_weight_length us). unfold nlen in Hb. lia.
Qed.

Lemma short_passes m done n i t nm g gs us : is_named n = true -> none_name n = None -> enabled n -> sep_ok n ->
  kept (t :: us) -> dashed t nm -> ~ In eq_sign nm -> graphemes nm = Some (g :: gs) ->
  short_name n <> Some nm -> short_name n <> Some g -> passes m done (t :: us) i n.
Proof.
  intros Hn Hx He Hs K Hd Hq Hg H1 H2.
  assert (Hfr : forall t' value vs, fronted n (t :: us) t' value vs -> t' = t /\ vs = us).
  { intros t' value vs H. inversion H as [t0 us0 Hsep|sep p l c s v us0 Hsep Hin Hlen Hc Hv]; subst; [now split|exfalso].
    destruct Hs as [Hs|Hs]; rewrite Hs in Hsep; [discriminate Hsep|]. injection Hsep as <-. destruct Hin as [<-|[]].
    assert (X : In eq_sign (l ++ eq_sign :: s ++ v)) by (apply in_or_app; right; now left).
    destruct Hd as [E|[E _]]; assert (E' := f_equal t_name E); cbn [t_name] in E'; rewrite E' in X; [exact (Hq X)|]. destruct X as [X|X]; [discriminate X|exact (Hq X)]. }
  assert (Hgr : forall nm', group_for n t nm' -> nm' = nm).
  { intros nm' (_ & [[E1 E2]|(E1 & E2 & E3)] & _); destruct Hd as [->|[-> Hd]]; cbn [t_prefix t_name] in *; try discriminate; [exact E2|].
    injection E2 as E2. now rewrite E2. }
  split; [exact (short_chokes n t nm g gs us He Hs K Hd Hq Hg)|].
  { right; left. intros [[_ [(t1 & value & us1 & t' & us' & Hf & Hg' & Hm)|(sep & t1 & us1 & _ & E & _ & _ & Hm)]]|[H _]]; [| |congruence].
    + destruct (Hfr _ _ _ Hf) as [-> ->]. inversion Hg' as [t0 us0 Hng|t0 nm' g' gs' us0 Hgr' Hgs]; subst.
      * apply H1. exact (short_matched n t' nm Hx Hd Hm).
      * rewrite (Hgr _ Hgr') in Hgs. rewrite Hg in Hgs. injection Hgs as <- <-. apply H2.
        apply (short_matched n (Tok PShort g) g Hx); [now left|exact Hm].
    + injection E as <- <-. apply H1. exact (short_matched n t nm Hx Hd Hm). }
Qed.

(** An argument that takes its value from behind the equals sign. *)
Lemma valued_consumes n nm v us : long_name n = Some nm -> ~ In eq_sign nm -> none_name n = None ->
  value_separator n = Some [eq_sign] -> token_end_marker n = None -> count_bounds n = Some (1%N, 1%N) -> v <> [] ->
  exists label, consumes n (Tok PNone (b "--" ++ nm ++ eq_sign :: v) :: us) label [Tok PNone v] us.
Proof.
  intros HL Hq Hx Hs Hm Hc Hv. eexists.
  apply (consumes_named n _ (Tok PNone (b "--" ++ nm)) [Tok PNone v] us (Tok PNone (b "--" ++ nm)) us).
  - unfold is_named. now rewrite HL.
  - apply (front_split n [eq_sign] PNone (b "--" ++ nm) eq_sign [] v us Hs); [now left|reflexivity| |exact Hv].
    intros d [<-|[]] X. destruct X as [X|[X|X]]; [discriminate X|discriminate X|exact (Hq X)].
  - constructor. intros nm'. apply long_ungroup.
  - rewrite long_norm, HL. unfold match_node. rewrite HL. cbn [is_some t_prefix t_name prefix_eqb andb].
    rewrite (proj2 (beq_eq nm nm) eq_refl). reflexivity.
  - apply (count_plain n _ 1%N 1%N [Tok PNone v] us Hm Hc); [reflexivity|unfold nlen; cbn; lia|reflexivity].
Qed.

Lemma valued_chokes n nm v us : enabled n -> sep_ok n -> ~ In eq_sign nm -> ~ chokes n (Tok PNone (b "--" ++ nm ++ eq_sign :: v) :: us).
Proof.
  intros He Hs Hq [(sep & t0 & us0 & l & c & s & H & _ & _ & _ & _ & Hlen)|[(t0 & value & us0 & Hf & nm' & Hg & Hb)|(H & _)]]; [| |contradiction].
  - destruct Hs as [Hs|Hs]; rewrite Hs in H; [discriminate H|]. injection H as <-. cbn [List.length] in Hlen. lia.
  - destruct (long_fronted n nm (nm ++ eq_sign :: v) us _ _ _ Hs (conj Hq (or_intror (ex_intro _ v eq_refl))) Hf) as [->| ->]; exact (long_ungroup n _ nm' Hg).
Qed.

Lemma used_more i (x : nat * node) done : used (x :: done) i <-> fst x = i \/ used done i.
Proof.
  unfold used. split.
  - intros [l [->|H]]; [now left|right; now exists l].
  - intros [<-|[l H]]; [exists (snd x); left; now destruct x|exists l; now right].
Qed.

Lemma map_same {A B} (f : A -> B) x k : map f (repeat x k) = repeat (f x) k.
Proof. induction k as [|k IH]; [reflexivity|]. cbn [repeat map]. now rewrite IH. Qed.

Section Cat.
Variables (int_t length_t : vtype) (no_length : value).
Let m := bc_mode int_t length_t no_length.
Let bc := basic_cat int_t length_t no_length.
Let lines := bc_lines int_t.
Let len := bc_length length_t no_length.

(** The node of an option and the assignments it makes. *)
Definition opt_node (o : cat_option) : nat * node :=
  match o with
  | Show_all _ => (0, bc_all) | Show_ends _ => (1, bc_ends) | Show_nonprinting _ => (2, bc_nonprinting)
  | Max_lines _ => (3, lines) | Max_line_length _ => (4, len) | Skip_line _ => (5, bc_skip) | Line_suffix _ => (5, bc_suffix)
  | Theme _ => (6, bc_theme) | Verbose _ => (7, bc_verbose) | Vs _ => (7, bc_v)
  end.
Definition opt_assigns (o : cat_option) : list (node * list token) :=
  match o with
  | Show_all _ => [(bc_ends, []); (bc_nonprinting, [])]
  | Show_ends _ => [(bc_ends, [])]
  | Show_nonprinting _ => [(bc_nonprinting, [])]
  | Max_lines s => [(lines, [Tok PNone s])]
  | Max_line_length s => [(len, [Tok PNone s])]
  | Skip_line _ => [(bc_skip, [])]
  | Line_suffix s => [(bc_suffix, [Tok PNone s])]
  | Theme s => [(bc_theme, [Tok PNone s])]
  | Verbose s => [(bc_verbose, [Tok PNone s])]
  | Vs more => (bc_v, []) :: repeat (bc_v, []) more
  end.

Definition before (o : cat_option) : list (nat * node) :=
  match o with
  | Show_all _ => []
  | Show_ends _ => [(0, bc_all)]
  | Show_nonprinting _ => [(0, bc_all); (1, bc_ends)]
  | Max_lines _ => [(0, bc_all); (1, bc_ends); (2, bc_nonprinting)]
  | Max_line_length _ => [(0, bc_all); (1, bc_ends); (2, bc_nonprinting); (3, lines)]
  | Skip_line _ => [(0, bc_all); (1, bc_ends); (2, bc_nonprinting); (3, lines); (4, len)]
  | Line_suffix _ => [(0, bc_all); (1, bc_ends); (2, bc_nonprinting); (3, lines); (4, len); (5, bc_skip)]
  | Theme _ => [(0, bc_all); (1, bc_ends); (2, bc_nonprinting); (3, lines); (4, len); (5, bc_skip); (5, bc_suffix)]
  | Vs _ => [(0, bc_all); (1, bc_ends); (2, bc_nonprinting); (3, lines); (4, len); (5, bc_skip); (5, bc_suffix); (6, bc_theme)]
  | Verbose _ => [(0, bc_all); (1, bc_ends); (2, bc_nonprinting); (3, lines); (4, len); (5, bc_skip); (5, bc_suffix); (6, bc_theme); (7, bc_v)]
  end.

Lemma cat_split o : exists after, entries m = before o ++ opt_node o :: after.
Proof. unfold m. rewrite (cat_entries int_t length_t no_length). destruct o; eexists; reflexivity. Qed.

Ltac no_eq := let H := fresh in intros H; vm_compute in H; repeat (destruct H as [H|H]; [discriminate H|]); destruct H.
Ltac all_before H tac := repeat (destruct H as [H|H]; [injection H as <- <-; tac|]); destruct H.
Ltac pass_long nm Hw :=
  apply (long_passes m _ _ _ nm); [reflexivity|reflexivity|unfold enabled; cbn; discriminate|first [left; reflexivity|right; reflexivity]|exact Hw
  |let L := fresh in let E := fresh in intros L E; first [discriminate E|injection E as <-; split; [no_eq|discriminate]]].

(** What was typed so far. *)
Definition known (done : list (nat * node)) (typed : list cat_option) : Prop :=
  (forall i, used done i -> In i (flat_map cat_slots typed))
  /\ (forall s, In (Max_line_length s) typed -> In (4, len) done).

Lemma known_next done typed o : known done typed -> known (opt_node o :: done) (typed ++ [o]).
Proof.
  intros [A B]. split.
  - intros i Hu. rewrite flat_map_app. apply in_or_app. apply used_more in Hu as [<-|Hu]; [right|left; now apply A].
    cbn [flat_map]. rewrite app_nil_r. destruct o; cbn; auto.
  - intros s Hs. apply in_app_or in Hs as [Hs|[->|[]]]; [right; exact (B s Hs)|now left].
Qed.

Lemma unused_allowed done i l : ~ used done i -> allowed m done i l.
Proof. intros H. split; [now right|]. intros [_ (l' & Hin & _)]. apply H. now exists l'. Qed.

Lemma opt_dependencies done typed o : known done typed -> (needs_length o -> exists s, In (Max_line_length s) typed) ->
  dependencies m done (snd (opt_node o)).
Proof.
  intros [_ K] Hn ns d Hin Hd Hr.
  assert (C : needs_length o /\ ns = [NLong (b "max-line-length")]).
  { destruct o; cbn in Hin; repeat (destruct Hin as [E|Hin]; [first [discriminate E|injection E as <-; now split]|]); destruct Hin. }
  destruct C as [Ho ->]. destruct (Hn Ho) as [s Hs]. exists (4, len). split; [exact (K s Hs)|].
  assert (E : d = len); [|subst d; now left].
  cbn in Hd. repeat (destruct Hd as [<-|Hd]; [first [reflexivity|exfalso; vm_compute in Hr; discriminate Hr]|]). destruct Hd.
Qed.

(** The flags. *)
Lemma flag_step done typed o (short : bool) nm ch us items : known done typed -> ~ used done (fst (opt_node o)) ->
  (needs_length o -> exists s, In (Max_line_length s) typed) ->
  cat_word o = (if short then b "-" ++ [ch] else b "--" ++ nm) ->
  long_name (snd (opt_node o)) = Some nm -> short_name (snd (opt_node o)) = Some [ch] -> none_name (snd (opt_node o)) = None ->
  value_separator (snd (opt_node o)) = None -> token_end_marker (snd (opt_node o)) = None ->
  count_bounds (snd (opt_node o)) = Some (0%N, 0%N) -> In PShortFormExpander (n_pols (snd (opt_node o))) -> enabled (snd (opt_node o)) ->
  graphemes [ch] = Some [[ch]] -> [ch] <> b "-" ->
  (forall j k, In (j, k) (before o) -> passes m done (Tok PNone (cat_word o) :: us) j k) ->
  kept (Tok PNone (cat_word o) :: us) -> reading m (opt_node o :: done) us items ->
  exists label, reading m done (Tok PNone (cat_word o) :: us) (Item (snd (opt_node o)) label [] :: items).
Proof.
  intros Hk Hu Hn Hw H1 H2 H3 H4 H5 H6 H7 H8 H9 H10 Hp K Hr.
  assert (P : picks nm [ch] (Tok PNone (cat_word o)) []).
  { rewrite Hw. destruct short; [now apply picks_short|left; now split]. }
  destruct (proj2 (switch_consumes _ nm ch H1 H2 H3 H4 H5 H6 H7 H9 H10 (Tok PNone (cat_word o)) us [] us ltac:(discriminate))) as [label Hc].
  { exists []. split; [exact P|now split]. }
  destruct (cat_split o) as [after He]. exists label. rewrite (surjective_pairing (opt_node o)) in He.
  apply (reading_cons m done _ (before o) (fst (opt_node o)) (snd (opt_node o)) after label [] us items He Hp).
  - intros X. apply (switch_chokes _ nm ch H1 H2 H3 H4 H5 H6 H7 H9 H10 _ _ H8 K) in X. destruct X as (nm' & Hd & Hl & Hb).
    rewrite Hw in Hd. destruct short.
    + assert (nm' = [ch]) as ->.
      { destruct Hd as [E|[E _]]; [discriminate E|]. assert (E' := f_equal t_name E). cbn [t_name] in E'. now injection E'. }
      now apply Hl.
    + destruct Hd as [E|[E Hd]]; [discriminate E|]. apply Hd. assert (E' := f_equal t_name E). cbn [t_name] in E'.
      exists nm. injection E' as E'. now rewrite <- E'.
  - exact H8.
  - exact Hc.
  - now apply unused_allowed.
  - exact (opt_dependencies done typed o Hk Hn).
  - rewrite <- surjective_pairing. exact Hr.
Qed.

(** The options with values. *)
Lemma valued_step done typed o nm v us items : known done typed -> ~ used done (fst (opt_node o)) ->
  (needs_length o -> exists s, In (Max_line_length s) typed) ->
  cat_word o = b "--" ++ nm ++ eq_sign :: v -> v <> [] -> ~ In eq_sign nm ->
  long_name (snd (opt_node o)) = Some nm -> none_name (snd (opt_node o)) = None ->
  value_separator (snd (opt_node o)) = Some [eq_sign] -> token_end_marker (snd (opt_node o)) = None ->
  count_bounds (snd (opt_node o)) = Some (1%N, 1%N) -> enabled (snd (opt_node o)) ->
  (forall j k, In (j, k) (before o) -> passes m done (Tok PNone (cat_word o) :: us) j k) ->
  reading m (opt_node o :: done) us items ->
  exists label, reading m done (Tok PNone (cat_word o) :: us) (Item (snd (opt_node o)) label [Tok PNone v] :: items).
Proof.
  intros Hk Hu Hn Hw Hv Hq H1 H2 H3 H4 H5 H6 Hp Hr.
  destruct (valued_consumes _ nm v us H1 Hq H2 H3 H4 H5 Hv) as [label Hc]. rewrite <- Hw in Hc.
  destruct (cat_split o) as [after He]. exists label. rewrite (surjective_pairing (opt_node o)) in He.
  apply (reading_cons m done _ (before o) (fst (opt_node o)) (snd (opt_node o)) after label [Tok PNone v] us items He Hp).
  - rewrite Hw. apply valued_chokes; [exact H6|right; exact H3|exact Hq].
  - exact H6.
  - exact Hc.
  - now apply unused_allowed.
  - exact (opt_dependencies done typed o Hk Hn).
  - rewrite <- surjective_pairing. exact Hr.
Qed.

(** The letters v. *)
Definition v_tok : token := Tok PShort (b "v").
Lemma v_step done t k us items : k <= 2 -> dashed t (repeat "v"%char (S k)) -> kept (t :: us) ->
  reading m ((7, bc_v) :: done) (repeat v_tok k ++ us) items ->
  exists label, reading m done (t :: us) (Item bc_v label [] :: items).
Proof.
  intros Hk Hd K Hr.
  assert (Hg : graphemes (repeat "v"%char (S k)) = Some (b "v" :: repeat (b "v") k)).
  { destruct k as [|[|[|k]]]; [vm_compute; reflexivity|vm_compute; reflexivity|vm_compute; reflexivity|lia]. }
  assert (Hq : ~ In eq_sign (repeat "v"%char (S k))) by (intros H; apply repeat_spec in H; discriminate H).
  assert (Hc : exists label, consumes bc_v (t :: us) label [] (repeat v_tok k ++ us)).
  { destruct k as [|k]; eexists.
    - apply (consumes_named bc_v _ t [] us t us); [reflexivity|constructor; reflexivity| | |].
      + constructor. intros nm H. assert (E := group_name _ _ _ _ Hd H). destruct H as (_ & _ & L). apply (L (b "v") eq_refl). rewrite E. reflexivity.
      + destruct Hd as [->|[-> _]]; vm_compute; reflexivity.
      + apply (count_plain bc_v _ 0%N 0%N [] us); [reflexivity|reflexivity|reflexivity|unfold nlen; cbn; lia|reflexivity].
    - apply (consumes_named bc_v _ t [] us v_tok (map (Tok PShort) (repeat (b "v") (S k)) ++ us)); [reflexivity|constructor; reflexivity| | |].
      + apply (group_some bc_v t _ _ _ us) with (2 := Hg). split; [cbn; tauto|]. split.
        * destruct Hd as [->|[-> Hd]]; [left; now split|right]. split; [reflexivity|]. split; [reflexivity|].
          refine (proj2 (dashed_prefix (b "-" ++ repeat "v"%char (S (S k))) _ eq_refl) Hd).
        * intros s E. injection E as <-. discriminate.
      + vm_compute. reflexivity.
      + apply (count_plain bc_v _ 0%N 0%N []); [reflexivity|reflexivity| |unfold nlen; cbn; lia|reflexivity].
        cbn [app]. rewrite (map_same (Tok PShort) (b "v") (S k)). reflexivity. }
  destruct Hc as [label Hc]. exists label.
  apply (reading_cons m done _ (before (Vs k)) 7 bc_v [(7, bc_verbose); (8, bc_files)] label [] (repeat v_tok k ++ us) items).
  - unfold m. rewrite (cat_entries int_t length_t no_length). reflexivity.
  - intros j n Hin. cbn [before] in Hin.
    all_before Hin ltac:(apply (short_passes m done _ _ t (repeat "v"%char (S k)) (b "v") (repeat (b "v") k) us);
      [reflexivity|reflexivity|unfold enabled; cbn; discriminate|first [left; reflexivity|right; reflexivity]|exact K|exact Hd|exact Hq|exact Hg
      |destruct k; discriminate|discriminate]).
  - apply (short_chokes bc_v t _ _ _ us) with (6 := Hg); [unfold enabled; cbn; discriminate|left; reflexivity|exact K|exact Hd|exact Hq].
  - unfold enabled; cbn; discriminate.
  - exact Hc.
  - split; [left; reflexivity|]. intros [(c & inst & X & Y) _]. change (nth_error (n_children m) 7) with (Some bc_verbosity) in X. injection X as <-. discriminate Y.
  - intros ns d Hin. exfalso. revert Hin. membership.
  - exact Hr.
Qed.

Lemma v_assigned label : assigned m (Item bc_v label []) = [(bc_v, [])]. Proof. reflexivity. Qed.

Lemma v_letters k : forall done us items, kept (repeat v_tok k ++ us) -> reading m (repeat (7, bc_v) k ++ done) us items ->
  exists items', reading m done (repeat v_tok k ++ us) items' /\ flat_map (assigned m) items' = repeat (bc_v, []) k ++ flat_map (assigned m) items.
Proof.
  induction k as [|k IH]; intros done us items K Hr; [exists items; now split|].
  cbn [repeat app] in K, Hr |- *.
  destruct (IH ((7, bc_v) :: done) us items) as (items' & Hr' & E).
  - now apply kept_tail in K.
  - clear - Hr. replace (repeat (7, bc_v) k ++ (7, bc_v) :: done) with ((7, bc_v) :: repeat (7, bc_v) k ++ done); [exact Hr|].
    clear Hr. induction k; [reflexivity|]. cbn [repeat app]. now rewrite <- IHk.
  - destruct (v_step done v_tok 0 (repeat v_tok k ++ us) items') as [label H]; [lia|left; reflexivity|exact K|exact Hr'|].
    exists (Item bc_v label [] :: items'). split; [exact H|]. cbn [flat_map]. now rewrite v_assigned, E.
Qed.

Lemma known_again done typed o k : known (opt_node o :: done) typed -> known (repeat (opt_node o) k ++ opt_node o :: done) typed.
Proof.
  intros H. induction k as [|k IH]; [exact H|]. destruct H as [A B], IH as [C D]. split.
  - intros i Hu. cbn [repeat app] in Hu. apply used_more in Hu as [<-|Hu]; [|now apply C]. apply A. apply used_more. now left.
  - intros s Hs. right. exact (D s Hs).
Qed.

Definition settled (typed opts : list cat_option) : Prop :=
  NoDup (flat_map cat_slots (typed ++ opts)) /\ Forall complete opts
  /\ forall before o after, typed ++ opts = before ++ o :: after -> needs_length o -> exists s, In (Max_line_length s) before.

Lemma settled_next typed o opts : settled typed (o :: opts) -> settled (typed ++ [o]) opts.
Proof.
  intros (A & B & C). split; [|split].
  - now rewrite <- app_assoc.
  - now inversion B.
  - rewrite <- app_assoc. exact C.
Qed.

Lemma slot_fresh done typed o opts : known done typed -> settled typed (o :: opts) -> ~ used done (fst (opt_node o)).
Proof.
  intros [A _] [B _] Hu. apply A in Hu. rewrite flat_map_app in B. cbn [flat_map] in B.
  assert (I : In (fst (opt_node o)) (cat_slots o)) by (destruct o; cbn; auto).
  revert B Hu I. generalize (flat_map cat_slots typed) (cat_slots o) (flat_map cat_slots opts) (fst (opt_node o)). clear.
  intros x y z i H Hx Hy. apply in_split in Hx as (x1 & x2 & ->). rewrite <- app_assoc in H. cbn [app] in H.
  apply NoDup_remove_2 in H. apply H. apply in_or_app. right. apply in_or_app. right. apply in_or_app. now left.
Qed.

Ltac flag_case short nm ch Hk Hs Hn K Hr :=
  match goal with |- exists label, reading m ?done (Tok PNone (cat_word ?o) :: ?us) _ =>
    apply (flag_step done _ o short nm ch us _ Hk Hs Hn);
    [destruct short; reflexivity|reflexivity|reflexivity|reflexivity|reflexivity|reflexivity|reflexivity|cbn; tauto|unfold enabled; cbn; discriminate
    |vm_compute; reflexivity|discriminate| |exact K|exact Hr];
    let j := fresh in let n := fresh in let Hin := fresh in intros j n Hin; cbn [before] in Hin;
    destruct short;
    [all_before Hin ltac:(apply (short_passes m done _ _ _ [ch] [ch] [] us);
      [reflexivity|reflexivity|unfold enabled; cbn; discriminate|first [left; reflexivity|right; reflexivity]|exact K
      |right; split; [reflexivity|intros [? E]; discriminate E]|no_eq|vm_compute; reflexivity|discriminate|discriminate])
    |all_before Hin ltac:(pass_long nm (conj (ltac:(no_eq) : ~ In eq_sign nm) (or_introl eq_refl) : long_word nm nm))]
  end.
Ltac value_case nm s Hv Hk Hs Hn Hr :=
  match goal with |- exists label, reading m ?done (Tok PNone (cat_word ?o) :: ?us) _ =>
    apply (valued_step done _ o nm s us _ Hk Hs Hn);
    [reflexivity|exact Hv|no_eq|reflexivity|reflexivity|reflexivity|reflexivity|reflexivity|unfold enabled; cbn; discriminate| |exact Hr];
    let j := fresh in let n := fresh in let Hin := fresh in intros j n Hin; cbn [before] in Hin;
    all_before Hin ltac:(pass_long nm (conj (ltac:(no_eq) : ~ In eq_sign nm) (or_intror (ex_intro _ s eq_refl)) : long_word nm (nm ++ eq_sign :: s)))
  end.

Definition sole_item (o : cat_option) (label : option token) : item :=
  Item (snd (opt_node o)) label
    match o with Max_lines s | Max_line_length s | Line_suffix s | Theme s | Verbose s => [Tok PNone s] | _ => [] end.
Definition is_vs (o : cat_option) : bool := match o with Vs _ => true | _ => false end.

Lemma sole_step done typed o us items : is_vs o = false -> known done typed -> ~ used done (fst (opt_node o)) ->
  (needs_length o -> exists s, In (Max_line_length s) typed) -> complete o ->
  kept (Tok PNone (cat_word o) :: us) -> reading m (opt_node o :: done) us items ->
  exists label, reading m done (Tok PNone (cat_word o) :: us) (sole_item o label :: items).
Proof.
  intros Hvs Hk Hs Hn Hc K Hr. unfold sole_item. destruct o as [sh|sh|sh|s|s|sh|s|s|s|k]; [| | | | | | | | |discriminate Hvs].
  - flag_case sh (b "show-all") "A"%char Hk Hs Hn K Hr.
  - flag_case sh (b "show-ends") "E"%char Hk Hs Hn K Hr.
  - flag_case sh (b "show-nonprinting") "n"%char Hk Hs Hn K Hr.
  - value_case (b "max-lines") s Hc Hk Hs Hn Hr.
  - value_case (b "max-line-length") s Hc Hk Hs Hn Hr.
  - flag_case sh (b "skip-line") "s"%char Hk Hs Hn K Hr.
  - value_case (b "line-suffix") s Hc Hk Hs Hn Hr.
  - value_case (b "theme") s Hc Hk Hs Hn Hr.
  - value_case (b "verbose") s Hc Hk Hs Hn Hr.
Qed.

Lemma sole_assigned o label : is_vs o = false -> assigned m (sole_item o label) = opt_assigns o.
Proof. destruct o; intros H; try discriminate H; reflexivity. Qed.

Lemma Forall2_tail {A B} (P : A -> B -> Prop) x xs ys : Forall2 P (x :: xs) ys -> Forall2 P xs (tl ys).
Proof. intros H. inversion H. assumption. Qed.
Lemma Forall2_first {A B} (P : A -> B -> Prop) x xs ys : Forall2 P (x :: xs) ys -> exists y, P x y.
Proof. intros H. inversion H. now exists y. Qed.

Lemma opts_read w files : starts_with short_prefix w = false -> forall opts done typed, known done typed -> settled typed opts ->
  kept (map (Tok PNone) (map cat_word opts ++ w :: files)) ->
  exists items, reading m done (map (Tok PNone) (map cat_word opts ++ w :: files)) items
    /\ flat_map (assigned m) items = flat_map opt_assigns opts ++ [(bc_files, map (Tok PNone) (w :: files))].
Proof.
  intros Hw. induction opts as [|o opts IH]; intros done typed Hk Hs K.
  - destruct (files_read int_t length_t no_length done w (map (Tok PNone) files)) as [label Hr].
    + intros Hu. apply (proj1 Hk) in Hu. apply in_flat_map in Hu as (o & _ & Ho).
      destruct o; cbn in Ho; repeat (destruct Ho as [Ho|Ho]; [discriminate Ho|]); destruct Ho.
    + exact Hw.
    + exact K.
    + exists [Item bc_files label (map (Tok PNone) (w :: files))]. split; [exact Hr|reflexivity].
  - cbn [map app] in K |- *. assert (Hu := slot_fresh done typed o opts Hk Hs).
    assert (Hn : needs_length o -> exists s, In (Max_line_length s) typed) by (intros H; exact (proj2 (proj2 Hs) typed o opts eq_refl H)).
    assert (Hc : complete o) by exact (Forall_inv (proj1 (proj2 Hs))).
    assert (K' := K). apply kept_tail in K'.
    assert (Hk' := known_next done typed o Hk).
    destruct (is_vs o) eqn:Hv.
    + destruct o as [| | | | | | | | |k]; try discriminate Hv. cbn [complete] in Hc.
      assert (Hd : dashed (Tok PNone (cat_word (Vs k))) (repeat "v"%char (S k))).
      { right. split; [reflexivity|]. intros [r E]. discriminate E. }
      destruct (IH (repeat (7, bc_v) k ++ (7, bc_v) :: done) (typed ++ [Vs k])) as (items & Hr & E).
      * exact (known_again done _ (Vs k) k Hk').
      * now apply settled_next.
      * exact K'.
      * assert (Kl : kept (repeat v_tok k ++ map (Tok PNone) (map cat_word opts ++ w :: files))).
        { assert (Hg : graphemes (repeat "v"%char (S k)) = Some (b "v" :: repeat (b "v") k)).
          { destruct k as [|[|[|k]]]; [vm_compute; reflexivity|vm_compute; reflexivity|vm_compute; reflexivity|lia]. }
          assert (X := kept_letters _ _ _ _ _ K Hd Hg). rewrite (map_same (Tok PShort) (b "v") k) in X. exact X. }
        destruct (v_letters k ((7, bc_v) :: done) _ items Kl Hr) as (items' & Hr' & E').
        destruct (v_step done _ k _ items' Hc Hd K Hr') as [label H].
        exists (Item bc_v label [] :: items'). split; [exact H|]. cbn [flat_map opt_assigns app]. rewrite v_assigned, E', E.
        cbn [app]. rewrite <- app_assoc. reflexivity.
    + destruct (IH (opt_node o :: done) (typed ++ [o])) as (items & Hr & E); [exact Hk'|now apply settled_next|exact K'|].
      destruct (sole_step done typed o _ items Hv Hk Hu Hn Hc K Hr) as [label H].
      exists (sole_item o label :: items). split; [exact H|]. cbn [flat_map]. rewrite (sole_assigned o label Hv), E. apply app_assoc.
Qed.

Lemma opts_read_bare : forall opts done typed, known done typed -> settled typed opts ->
  kept (map (Tok PNone) (map cat_word opts)) ->
  exists items, reading m done (map (Tok PNone) (map cat_word opts)) items
    /\ flat_map (assigned m) items = flat_map opt_assigns opts.
Proof.
  induction opts as [|o opts IH]; intros done typed Hk Hs K.
  - exists []. split; [constructor|reflexivity].
  - cbn [map app] in K |- *. assert (Hu := slot_fresh done typed o opts Hk Hs).
    assert (Hn : needs_length o -> exists s, In (Max_line_length s) typed) by (intros H; exact (proj2 (proj2 Hs) typed o opts eq_refl H)).
    assert (Hc : complete o) by exact (Forall_inv (proj1 (proj2 Hs))).
    assert (K' := K). apply kept_tail in K'.
    assert (Hk' := known_next done typed o Hk).
    destruct (is_vs o) eqn:Hv.
    + destruct o as [| | | | | | | | |k]; try discriminate Hv. cbn [complete] in Hc.
      assert (Hd : dashed (Tok PNone (cat_word (Vs k))) (repeat "v"%char (S k))).
      { right. split; [reflexivity|]. intros [r E]. discriminate E. }
      destruct (IH (repeat (7, bc_v) k ++ (7, bc_v) :: done) (typed ++ [Vs k])) as (items & Hr & E).
      * exact (known_again done _ (Vs k) k Hk').
      * now apply settled_next.
      * exact K'.
      * assert (Kl : kept (repeat v_tok k ++ map (Tok PNone) (map cat_word opts))).
        { assert (Hg : graphemes (repeat "v"%char (S k)) = Some (b "v" :: repeat (b "v") k)).
          { destruct k as [|[|[|k]]]; [vm_compute; reflexivity|vm_compute; reflexivity|vm_compute; reflexivity|lia]. }
          assert (X := kept_letters _ _ _ _ _ K Hd Hg). rewrite (map_same (Tok PShort) (b "v") k) in X. exact X. }
        destruct (v_letters k ((7, bc_v) :: done) _ items Kl Hr) as (items' & Hr' & E').
        destruct (v_step done _ k _ items' Hc Hd K Hr') as [label H].
        exists (Item bc_v label [] :: items'). split; [exact H|]. cbn [flat_map opt_assigns app]. rewrite v_assigned, E', E.
        reflexivity.
    + destruct (IH (opt_node o :: done) (typed ++ [o])) as (items & Hr & E); [exact Hk'|now apply settled_next|exact K'|].
      destruct (sole_step done typed o _ items Hv Hk Hu Hn Hc K Hr) as [label H].
      exists (sole_item o label :: items). split; [exact H|]. cbn [flat_map]. rewrite (sole_assigned o label Hv), E. reflexivity.
Qed.

(** The values. *)
Lemma slot_unique opts i o o' : NoDup (flat_map cat_slots opts) -> In o opts -> In o' opts -> In i (cat_slots o) -> In i (cat_slots o') -> o = o'.
Proof.
  induction opts as [|x opts IH]; intros H; [intros []|]. cbn [flat_map] in H.
  assert (D : forall y, In y opts -> In i (cat_slots x) -> In i (cat_slots y) -> False).
  { intros y Hy Hx Hi. apply in_split in Hx as (a & c & Ex). rewrite Ex, <- app_assoc in H. cbn [app] in H.
    apply NoDup_remove_2 in H. apply H. apply in_or_app. right. apply in_or_app. right. apply in_flat_map. now exists y. }
  assert (H' : NoDup (flat_map cat_slots opts)).
  { clear - H. induction (cat_slots x) as [|a l IH]; [exact H|]. cbn [app] in H. inversion H. now apply IH. }
  intros [<-|Ho] [<-|Ho'] Hi Hi'; [reflexivity|exfalso; exact (D _ Ho' Hi Hi')|exfalso; exact (D _ Ho Hi' Hi)|now apply IH].
Qed.

Lemma flat_map_one {A} (f : cat_option -> list A) i opts o : NoDup (flat_map cat_slots opts) -> (forall x, In i (cat_slots x) \/ f x = []) ->
  In o opts -> In i (cat_slots o) -> flat_map f opts = f o.
Proof.
  intros H Hf Ho Hi. induction opts as [|x opts IH]; [destruct Ho|].
  assert (U := slot_unique (x :: opts) i). cbn [flat_map].
  assert (H' : NoDup (flat_map cat_slots opts)).
  { clear - H. cbn [flat_map] in H. induction (cat_slots x) as [|a l IH]; [exact H|]. cbn [app] in H. inversion H. now apply IH. }
  destruct Ho as [<-|Ho].
  - assert (N : forall y, In y opts -> ~ In i (cat_slots y)).
    { intros y Hy Hyi. assert (E := U x y H (or_introl eq_refl) (or_intror Hy) Hi Hyi). subst y.
      cbn [flat_map] in H. apply in_split in Hi as (a & c & Ex). rewrite Ex, <- app_assoc in H. cbn [app] in H.
      apply NoDup_remove_2 in H. apply H. apply in_or_app. right. apply in_or_app. right. apply in_flat_map. now exists x. }
    assert (E0 : flat_map f opts = []); [|rewrite E0; apply app_nil_r].
    clear - N Hf. induction opts as [|y opts IH]; [reflexivity|]. cbn [flat_map]. rewrite IH; [|intros z Hz; apply N; now right].
    destruct (Hf y) as [C|C]; [exfalso; exact (N y (or_introl eq_refl) C)|]. now rewrite C.
  - destruct (Hf x) as [C|C]; [|rewrite C; now apply IH].
    assert (E := U x o H (or_introl eq_refl) (or_intror Ho) C Hi). subst x. exfalso.
    cbn [flat_map] in H. apply in_split in Hi as (a & c & Ex).
    assert (Ho' : In i (flat_map cat_slots opts)) by (apply in_flat_map; exists o; split; [exact Ho|rewrite Ex; apply in_or_app; right; now left]).
    rewrite Ex, <- app_assoc in H. cbn [app] in H.
    apply NoDup_remove_2 in H. apply H. apply in_or_app. right. apply in_or_app. now right.
Qed.

Lemma for_child_flat c (g : cat_option -> list (node * list token)) opts :
  for_child c (flat_map g opts) = flat_map (fun o => for_child c (g o)) opts.
Proof.
  unfold for_child. induction opts as [|o opts IH]; [reflexivity|]. cbn [flat_map]. rewrite filter_app. now rewrite IH.
Qed.

Lemma said_of opts says default v i o P : NoDup (flat_map cat_slots opts) -> (forall x, says x <> None -> In i (cat_slots x)) ->
  said opts says default v -> In o opts -> says o = Some P -> P v.
Proof.
  intros H Hi [(o' & P' & Ho' & E & Hp)|[N _]] Ho Es.
  - assert (o = o').
    { apply (slot_unique opts i o o' H Ho Ho'); apply Hi; [rewrite Es|rewrite E]; discriminate. }
    subst o'. rewrite Es in E. injection E as <-. exact Hp.
  - rewrite (N o Ho) in Es. discriminate Es.
Qed.

Lemma delivered_said c opts (says : cat_option -> option (value -> Prop)) default v i fs : NoDup (flat_map cat_slots opts) -> Forall complete opts ->
  (forall o, says o <> None -> In i (cat_slots o)) ->
  (forall o, In i (cat_slots o) \/ for_child c (opt_assigns o) = []) ->
  (forall o, says o = None -> for_child c (opt_assigns o) = []) ->
  (forall o P x, complete o -> says o = Some P -> P x ->
     gathered None (for_child c (opt_assigns o)) (Some x) /\ (repeatable c -> in_range c x)) ->
  ~ mandatory c -> default = last (default_values c) (vt_init (n_ty c)) -> in_range c default -> belongs c bc_files = false ->
  said opts says default v -> delivered c (flat_map opt_assigns opts ++ [(bc_files, fs)]) v.
Proof.
  intros H Hc Hi Hf Hn Hg Hm Hd Hr Hb Hs.
  assert (E : for_child c (flat_map opt_assigns opts ++ [(bc_files, fs)]) = flat_map (fun o => for_child c (opt_assigns o)) opts).
  { unfold for_child at 1. rewrite filter_app. cbn [filter fst]. rewrite Hb, app_nil_r. apply for_child_flat. }
  destruct Hs as [(o & P & Ho & Es & Hp)|[N ->]].
  - assert (Is : In i (cat_slots o)) by (apply Hi; rewrite Es; discriminate).
    assert (Co : complete o) by exact (proj1 (Forall_forall _ _) Hc o Ho).
    destruct (Hg o P v Co Es Hp) as [G R].
    apply delivered_typed; [|exact R]. rewrite E. rewrite (flat_map_one (fun o => for_child c (opt_assigns o)) i opts o H Hf Ho Is). exact G.
  - apply delivered_missing; [|exact Hm|exact Hd|exact Hr]. rewrite E. clear - N Hn.
    induction opts as [|o opts IH]; [reflexivity|]. cbn [flat_map]. rewrite (Hn o (N o (or_introl eq_refl))), IH; [reflexivity|].
    intros x Hx. apply N. now right.
Qed.

Section Values.
Hypothesis int_single : vt_container int_t = false.
Hypothesis length_single : vt_container length_t = false.

Lemma no_range n v : (forall mn mx lt, ~ In (PMinMaxValue mn mx lt) (n_pols n)) -> in_range n v.
Proof. intros H mn mx lt Hin. now apply H in Hin. Qed.

Ltac unranged := apply no_range; intros ? ? ?; membership.

Lemma lines_value s v : vt_parse int_t s = Ok v -> value_of lines [Tok PNone s] v.
Proof. intros H. apply (value_single lines AArg); [reflexivity|exact int_single|exact H|unranged]. Qed.
Lemma len_value s v : vt_parse length_t s = Ok v -> value_of len [Tok PNone s] v.
Proof. intros H. apply (value_single len AArg); [reflexivity|exact length_single|exact H|unranged]. Qed.
Lemma suffix_value s : value_of bc_suffix [Tok PNone s] (VStr s).
Proof. apply (value_single bc_suffix AArg); [reflexivity|reflexivity|reflexivity|unranged]. Qed.
Lemma theme_value s v : In (s, v) [(b "none", VInt 0); (b "classic", VInt 1); (b "solarized", VInt 2)] -> value_of bc_theme [Tok PNone s] v.
Proof.
  intros H. apply (value_single bc_theme AArg); [reflexivity|reflexivity| |unranged].
  repeat (destruct H as [H|H]; [injection H as <- <-; reflexivity|]). destruct H.
Qed.
Lemma verbose_value s v : In (s, v) [(b "error", VInt 0); (b "warning", VInt 1); (b "info", VInt 2); (b "debug", VInt 3)] ->
  value_of bc_verbose [Tok PNone s] v.
Proof.
  intros H. apply (value_single bc_verbose AArg); [reflexivity|reflexivity| |unranged].
  repeat (destruct H as [H|H]; [injection H as <- <-; reflexivity|]). destruct H.
Qed.

Lemma level_range z : (0 <= z <= 3)%Z -> in_range bc_verbosity (VInt z).
Proof.
  intros Hz mn mx lt Hin. destruct Hin as [E|[E|[E|[E|[]]]]]; try discriminate E. injection E as <- <- <-.
  split; intros x E; injection E as <-; cbn [enum_lt]; apply Z.ltb_ge; lia.
Qed.

Lemma vs_unassigned c k : belongs c bc_v = false -> for_child c (opt_assigns (Vs k)) = [].
Proof.
  intros H. unfold for_child. cbn [opt_assigns filter fst]. rewrite H. induction k as [|k IH]; [reflexivity|]. cbn [repeat filter fst]. now rewrite H.
Qed.

Ltac says_slot := intros o; destruct o; cbn; intros H; try (exfalso; apply H; reflexivity); tauto.
Ltac slot_or_none := intros o; destruct o as [| | | | | | | | |k]; first [right; apply vs_unassigned; reflexivity|right; reflexivity|left; cbn; tauto].
Ltac not_said := intros o; destruct o as [| | | | | | | | |k]; cbn [says_ends says_nonprinting says_lines says_length says_handling says_theme says_level];
  intros H; first [discriminate H|apply vs_unassigned; reflexivity|reflexivity].
Ltac flag_value := eapply gathered_once; [apply value_flag; left; reflexivity|reflexivity|constructor].

Lemma cat_says opts file files e n l len' h th vb : proper opts ->
  said opts says_ends (VBool false) e -> said opts says_nonprinting (VBool false) n ->
  said opts (says_lines int_t) (VInt (-1)) l -> said opts (says_length length_t) no_length len' ->
  said opts says_handling (VStr (b "...")) h -> said opts says_theme (VInt 0) th -> said opts says_level (VInt 2) vb ->
  deliveries m (flat_map opt_assigns opts ++ [(bc_files, map (Tok PNone) (file :: files))])
    [e; n; l; len'; h; th; vb; VList (map VStr (file :: files))].
Proof.
  intros (Hnd & Hc & _) He Hn Hl Hlen Hh Hth Hvb.
  assert (Hv : value_of bc_files (map (Tok PNone) (file :: files)) (VList (map VStr (file :: files)))).
  { apply (strings_value bc_files _ _ eq_refl eq_refl eq_refl files_plain). now rewrite map_map. }
  split.
  - apply Forall_app. split; [|apply Forall_cons; [exists (VList (map VStr (file :: files))); exact Hv|constructor]].
    apply Forall_forall. intros a Ha. apply in_flat_map in Ha as (o & Ho & Ha).
    assert (F : forall d, n_kind d = KFlag \/ n_kind d = KCountingFlag -> a = (d, []) -> exists v, value_of (fst a) (snd a) v).
    { intros d Hd ->. exists (VBool true). now apply value_flag. }
    destruct o as [sh|sh|sh|s|s|sh|s|s|s|k]; cbn [opt_assigns] in Ha.
    + destruct Ha as [<-|[<-|[]]]; eapply F; [left|reflexivity|left|reflexivity]; reflexivity.
    + destruct Ha as [<-|[]]; eapply F; [left|reflexivity]; reflexivity.
    + destruct Ha as [<-|[]]; eapply F; [left|reflexivity]; reflexivity.
    + destruct Ha as [<-|[]]. exists l. apply lines_value.
      exact (said_of opts (says_lines int_t) _ l 3 _ (fun v => vt_parse int_t s = Ok v) Hnd ltac:(says_slot) Hl Ho eq_refl).
    + destruct Ha as [<-|[]]. exists len'. apply len_value.
      exact (said_of opts (says_length length_t) _ len' 4 _ (fun v => vt_parse length_t s = Ok v) Hnd ltac:(says_slot) Hlen Ho eq_refl).
    + destruct Ha as [<-|[]]; eapply F; [left|reflexivity]; reflexivity.
    + destruct Ha as [<-|[]]. exists (VStr s). apply suffix_value.
    + destruct Ha as [<-|[]]. exists th. apply theme_value.
      exact (said_of opts says_theme _ th 6 (Theme s) _ Hnd ltac:(says_slot) Hth Ho eq_refl).
    + destruct Ha as [<-|[]]. exists vb. apply verbose_value.
      exact (said_of opts says_level _ vb 7 (Verbose s) _ Hnd ltac:(says_slot) Hvb Ho eq_refl).
    + destruct Ha as [<-|Ha]; [|apply repeat_spec in Ha; subst a]; eapply F; [right|reflexivity|right|reflexivity]; reflexivity.
  - change (router_children m) with [bc_ends; bc_nonprinting; lines; len; bc_handling; bc_theme; bc_verbosity; bc_files].
    constructor; [|constructor; [|constructor; [|constructor; [|constructor; [|constructor; [|constructor; [|constructor; [|constructor]]]]]]]].
    + apply (delivered_said bc_ends opts says_ends (VBool false) e 1); [exact Hnd|exact Hc|says_slot|slot_or_none|not_said| |no_mandatory|reflexivity|unranged|reflexivity|exact He].
      intros o P x _ E Hp. split; [|intros _; unranged]. destruct o; try discriminate E; injection E as <-; subst x; flag_value.
    + apply (delivered_said bc_nonprinting opts says_nonprinting (VBool false) n 2); [exact Hnd|exact Hc|says_slot|slot_or_none|not_said| |no_mandatory|reflexivity|unranged|reflexivity|exact Hn].
      intros o P x _ E Hp. split; [|intros _; unranged]. destruct o; try discriminate E; injection E as <-; subst x; flag_value.
    + apply (delivered_said lines opts (says_lines int_t) (VInt (-1)) l 3); [exact Hnd|exact Hc|says_slot|slot_or_none|not_said| |no_mandatory|reflexivity|unranged|reflexivity|exact Hl].
      intros o P x _ E Hp. split; [|intros _; unranged]. destruct o; try discriminate E; injection E as <-.
      eapply gathered_once; [apply lines_value; exact Hp|reflexivity|constructor].
    + apply (delivered_said len opts (says_length length_t) no_length len' 4); [exact Hnd|exact Hc|says_slot|slot_or_none|not_said| |no_mandatory|reflexivity|unranged|reflexivity|exact Hlen].
      intros o P x _ E Hp. split; [|intros _; unranged]. destruct o; try discriminate E; injection E as <-.
      eapply gathered_once; [apply len_value; exact Hp|reflexivity|constructor].
    + apply (delivered_said bc_handling opts says_handling (VStr (b "...")) h 5); [exact Hnd|exact Hc|says_slot|slot_or_none|not_said| |no_mandatory|reflexivity|unranged|reflexivity|exact Hh].
      intros o P x _ E Hp. split; [|intros _; unranged]. destruct o; try discriminate E; injection E as <-; subst x; [flag_value|].
      eapply gathered_once; [apply suffix_value|reflexivity|constructor].
    + apply (delivered_said bc_theme opts says_theme (VInt 0) th 6); [exact Hnd|exact Hc|says_slot|slot_or_none|not_said| |no_mandatory|reflexivity|unranged|reflexivity|exact Hth].
      intros o P x _ E Hp. split; [|intros _; unranged]. destruct o; try discriminate E; injection E as <-.
      eapply gathered_once; [apply theme_value; exact Hp|reflexivity|constructor].
    + apply (delivered_said bc_verbosity opts says_level (VInt 2) vb 7); [exact Hnd|exact Hc|says_slot|slot_or_none|not_said| |no_mandatory|reflexivity|apply level_range; lia|reflexivity|exact Hvb].
      intros o P x Hk E Hp. destruct o as [| | | | | | | |s|k]; try discriminate E; injection E as <-.
      * split; [eapply gathered_once; [apply verbose_value; exact Hp|reflexivity|constructor]|].
        intros _. repeat (destruct Hp as [Hp|Hp]; [injection Hp as _ <-; apply level_range; lia|]). destruct Hp.
      * subst x. cbn [complete] in Hk. split; [|intros _; apply level_range; lia].
        assert (V : value_of bc_v [] (VBool true)) by (apply value_flag; right; reflexivity).
        destruct k as [|[|[|k]]]; [| | |lia].
        -- apply (gathered_stage None bc_v [] (VBool true) (counting_merge enum_cast) [] _ V eq_refl). constructor.
        -- apply (gathered_stage None bc_v [] (VBool true) (counting_merge enum_cast) [(bc_v, [])] _ V eq_refl).
           apply (gathered_stage _ bc_v [] (VBool true) (counting_merge enum_cast) [] _ V eq_refl). constructor.
        -- apply (gathered_stage None bc_v [] (VBool true) (counting_merge enum_cast) [(bc_v, []); (bc_v, [])] _ V eq_refl).
           apply (gathered_stage _ bc_v [] (VBool true) (counting_merge enum_cast) [(bc_v, [])] _ V eq_refl).
           apply (gathered_stage _ bc_v [] (VBool true) (counting_merge enum_cast) [] _ V eq_refl). constructor.
    + apply delivered_typed; [|intros _; unranged].
      assert (E : for_child bc_files (flat_map opt_assigns opts ++ [(bc_files, map (Tok PNone) (file :: files))]) = [(bc_files, map (Tok PNone) (file :: files))]).
      { unfold for_child. rewrite filter_app. change (filter (fun a => belongs bc_files (fst a)) (flat_map opt_assigns opts)) with (for_child bc_files (flat_map opt_assigns opts)).
        rewrite for_child_flat. assert (Z : flat_map (fun o => for_child bc_files (opt_assigns o)) opts = []); [|rewrite Z; reflexivity].
        clear. induction opts as [|o opts IH]; [reflexivity|]. cbn [flat_map]. rewrite IH, app_nil_r.
        destruct o; first [apply vs_unassigned; reflexivity|reflexivity]. }
      rewrite E. eapply gathered_once; [exact Hv|reflexivity|constructor].
Qed.

Lemma cat_word_unmatched n o : none_name n = None -> is_vs o = is_vs o ->
  long_name n = Some (b "help") /\ short_name n = Some (b "h") \/ long_name n = Some (b "version") /\ short_name n = None ->
  match_node n (norm_token n (Tok PNone (cat_word o))) = false.
Proof.
  intros Hx _ Hn. apply not_true_iff_false. intros H.
  assert (L : forall l, cat_word o = b "--" ++ l -> long_name n = Some l).
  { intros l E. rewrite E in H. now apply long_matched in H. }
  assert (S : forall l, cat_word o = b "-" ++ l -> (forall r, l <> b "-" ++ r) -> short_name n = Some l).
  { intros l E N. apply (short_matched n (Tok PNone (cat_word o)) l Hx); [|exact H]. right. rewrite E. split; [reflexivity|]. intros [r Er]. exact (N r Er). }
  destruct o as [sh|sh|sh|s|s|sh|s|s|s|k]; try (destruct sh);
    first [assert (E := L _ eq_refl); destruct Hn as [[Hn _]|[Hn _]]; rewrite Hn in E; discriminate E
          |assert (E := S _ eq_refl ltac:(intros ?; discriminate)); destruct Hn as [[_ Hn]|[_ Hn]]; rewrite Hn in E; discriminate E].
Qed.

Lemma cat_options_routes opts file files vs : proper opts -> starts_with (b "-") file = false ->
  in_memory (map cat_word opts ++ file :: files) ->
  deliveries m (flat_map opt_assigns opts ++ [(bc_files, map (Tok PNone) (file :: files))]) vs ->
  routes bc (map (Tok PNone) (map cat_word opts ++ file :: files)) m vs.
Proof.
  intros Hp Hf Hm Hd. assert (K := kept_words _ Hm).
  exists [bc_help; bc_version], m, []. split; [reflexivity|]. split.
  - assert (Hh : simple_named bc_help) by is_simple. assert (Hv : simple_named bc_version) by is_simple.
    intros d [<-|[<-|[]]].
    + apply (simple_passed bc_help _ Hh eq_refl). intros t us E. destruct opts as [|o opts]; cbn [map app] in E; injection E as <- _.
      * now apply word_unmatched.
      * apply cat_word_unmatched; [reflexivity|reflexivity|left; split; reflexivity].
    + apply (simple_passed bc_version _ Hv eq_refl). intros t us E. destruct opts as [|o opts]; cbn [map app] in E; injection E as <- _.
      * now apply word_unmatched.
      * apply cat_word_unmatched; [reflexivity|reflexivity|right; split; reflexivity].
  - destruct (opts_read file files Hf opts [] []) as (items & Hr & E).
    + split; [intros i [l []]|intros s []].
    + exact Hp.
    + exact K.
    + apply (means_mode bc m _ m [bc] (map (Tok PNone) (map cat_word opts ++ file :: files)) items); [reflexivity| |reflexivity|exact Hr|].
      * constructor. reflexivity.
      * rewrite E. exact Hd.
Qed.

(** The other direction. *)
Lemma first_unmatched opts file files n t us : none_name n = None -> starts_with (b "-") file = false ->
  long_name n = Some (b "help") /\ short_name n = Some (b "h") \/ long_name n = Some (b "version") /\ short_name n = None ->
  map (Tok PNone) (map cat_word opts ++ file :: files) = t :: us -> match_node n (norm_token n t) = false.
Proof.
  intros Hx Hf Hn E. destruct opts as [|o opts]; cbn [map app] in E; injection E as <- _.
  - now apply word_unmatched.
  - now apply cat_word_unmatched.
Qed.

Lemma cat_options_only opts file files n vs : proper opts -> starts_with (b "-") file = false ->
  in_memory (map cat_word opts ++ file :: files) ->
  routes bc (map (Tok PNone) (map cat_word opts ++ file :: files)) n vs ->
  n = m /\ deliveries m (flat_map opt_assigns opts ++ [(bc_files, map (Tok PNone) (file :: files))]) vs.
Proof.
  intros Hp Hf Hw (before & c & after & E & Hb & Hm). assert (K := kept_words _ Hw).
  destruct before as [|x1 before].
  { injection E as <- _. exfalso. inversion Hm as [m' ps ts' items vs' Hmd|label vals v Hmd Hk]; [discriminate Hmd|now apply Hk]. }
  injection E as <- E. destruct before as [|x2 before].
  { injection E as <- _. exfalso. inversion Hm as [m' ps ts' items vs' Hmd|label vals v Hmd Hk Hch He Hc Hval]; [discriminate Hmd|].
    assert (Hv : simple_named bc_version) by is_simple.
    destruct (map (Tok PNone) (map cat_word opts ++ file :: files)) as [|t us] eqn:Et; [destruct opts; discriminate Et|].
    destruct (proj1 (simple_consumes bc_version t us vals [] Hv) (ex_intro _ label Hc)) as [M _].
    rewrite (first_unmatched opts file files bc_version t us eq_refl Hf (or_intror (conj eq_refl eq_refl)) Et) in M. discriminate M. }
  injection E as <- E. destruct before as [|x3 before].
  { injection E as <- _. inversion Hm as [m' ps ts' items vs' Hmd Hs Hr Hrd Hd|label vals v Hmd]; [|discriminate Hmd]. subst m' vs'.
    assert (n = m /\ ts' = map (Tok PNone) (map cat_word opts ++ file :: files)) as [-> ->].
    { inversion Hs as [m0 ps0 ts0 Hx|m0 ps0 ts0 rest (_ & nm & Hx & _)|m0 ps0 ts0 rest bf d af m1 ps1 ts1 (_ & nm & Hx & _)]; subst; [now split|discriminate Hx..]. }
    split; [reflexivity|].
    destruct (opts_read file files Hf opts [] []) as (items' & Hr' & E').
    - split; [intros i [l []]|intros s []].
    - exact Hp.
    - exact K.
    - rewrite <- E'. rewrite <- (reading_det _ _ _ _ Hrd _ Hr'). exact Hd. }
  exfalso. injection E as _ E. now destruct before.
Qed.

Lemma said_some opts (says : cat_option -> option (value -> Prop)) default :
  (forall o P, In o opts -> says o = Some P -> exists v, P v) -> exists v, said opts says default v.
Proof.
  intros H. assert (D : (exists o P, In o opts /\ says o = Some P) \/ forall o, In o opts -> says o = None).
  { clear H. induction opts as [|o opts IH]; [right; intros o []|]. destruct (says o) as [P|] eqn:E; [left; exists o, P; split; [now left|exact E]|].
    destruct IH as [(x & P & Hx & Ex)|IH]; [left; exists x, P; split; [now right|exact Ex]|]. right. intros x [<-|Hx]; [exact E|now apply IH]. }
  destruct D as [(o & P & Ho & E)|D].
  - destruct (H o P Ho E) as [v Hv]. exists v. left. now exists o, P.
  - exists default. now right.
Qed.

Lemma read_single l s v : value_of l [Tok PNone s] v -> vt_container (n_ty l) = false -> n_kind l = KArg AArg -> exists x, reads_as l s x.
Proof.
  intros H Hc Hk. inversion H as [vals Hf|c t ts v' _ _ Hr _|c _ _ _|c ts vs _ Hx _ _]; subst.
  - rewrite Hk in Hf. destruct Hf as [Hf|Hf]; discriminate Hf.
  - now exists v.
  - rewrite Hc in Hx. discriminate Hx.
Qed.

Lemma theme_table s v : theme_of s = Ok v -> In (s, v) [(b "none", VInt 0); (b "classic", VInt 1); (b "solarized", VInt 2)].
Proof.
  unfold theme_of. intros H.
  destruct (beq s (b "none")) eqn:E1; [apply beq_eq in E1; subst s; injection H as <-; left; reflexivity|].
  destruct (beq s (b "classic")) eqn:E2; [apply beq_eq in E2; subst s; injection H as <-; right; left; reflexivity|].
  destruct (beq s (b "solarized")) eqn:E3; [apply beq_eq in E3; subst s; injection H as <-; right; right; left; reflexivity|discriminate H].
Qed.
Lemma level_table s v : verbosity_of s = Ok v -> In (s, v) [(b "error", VInt 0); (b "warning", VInt 1); (b "info", VInt 2); (b "debug", VInt 3)].
Proof.
  unfold verbosity_of. intros H.
  destruct (beq s (b "error")) eqn:E1; [apply beq_eq in E1; subst s; injection H as <-; left; reflexivity|].
  destruct (beq s (b "warning")) eqn:E2; [apply beq_eq in E2; subst s; injection H as <-; right; left; reflexivity|].
  destruct (beq s (b "info")) eqn:E3; [apply beq_eq in E3; subst s; injection H as <-; right; right; left; reflexivity|].
  destruct (beq s (b "debug")) eqn:E4; [apply beq_eq in E4; subst s; injection H as <-; right; right; right; left; reflexivity|discriminate H].
Qed.

Lemma cat_delivered opts file files vs : proper opts ->
  deliveries m (flat_map opt_assigns opts ++ [(bc_files, map (Tok PNone) (file :: files))]) vs ->
  exists e n l len' h th vb, said opts says_ends (VBool false) e /\ said opts says_nonprinting (VBool false) n
  /\ said opts (says_lines int_t) (VInt (-1)) l /\ said opts (says_length length_t) no_length len'
  /\ said opts says_handling (VStr (b "...")) h /\ said opts says_theme (VInt 0) th /\ said opts says_level (VInt 2) vb
  /\ vs = [e; n; l; len'; h; th; vb; VList (map VStr (file :: files))].
Proof.
  intros Hp Hd. assert (R := proj1 Hd). apply Forall_app in R as [R _].
  assert (Ro : forall o a, In o opts -> In a (opt_assigns o) -> exists v, value_of (fst a) (snd a) v).
  { intros o a Ho Ha. apply (proj1 (Forall_forall _ _) R). apply in_flat_map. now exists o. }
  destruct (said_some opts says_ends (VBool false)) as [e He]; [intros o P Ho E; destruct o; try discriminate E; injection E as <-; now eexists|].
  destruct (said_some opts says_nonprinting (VBool false)) as [n Hn]; [intros o P Ho E; destruct o; try discriminate E; injection E as <-; now eexists|].
  destruct (said_some opts (says_lines int_t) (VInt (-1))) as [l Hl].
  { intros o P Ho E. destruct o as [| | |s| | | | | |]; try discriminate E. injection E as <-.
    destruct (Ro _ _ Ho (or_introl eq_refl)) as [v Hv]. exact (read_single lines s v Hv int_single eq_refl). }
  destruct (said_some opts (says_length length_t) no_length) as [len' Hlen].
  { intros o P Ho E. destruct o as [| | | |s| | | | |]; try discriminate E. injection E as <-.
    destruct (Ro _ _ Ho (or_introl eq_refl)) as [v Hv]. exact (read_single len s v Hv length_single eq_refl). }
  destruct (said_some opts says_handling (VStr (b "..."))) as [h Hh]; [intros o P Ho E; destruct o; try discriminate E; injection E as <-; now eexists|].
  destruct (said_some opts says_theme (VInt 0)) as [th Hth].
  { intros o P Ho E. destruct o as [| | | | | | |s| |]; try discriminate E. injection E as <-.
    destruct (Ro _ _ Ho (or_introl eq_refl)) as [v Hv]. destruct (read_single bc_theme s v Hv eq_refl eq_refl) as [x Hx]. exists x. exact (theme_table s x Hx). }
  destruct (said_some opts says_level (VInt 2)) as [vb Hvb].
  { intros o P Ho E. destruct o as [| | | | | | | |s|k]; try discriminate E; injection E as <-; [|now eexists].
    destruct (Ro _ _ Ho (or_introl eq_refl)) as [v Hv]. destruct (read_single bc_verbose s v Hv eq_refl eq_refl) as [x Hx]. exists x. exact (level_table s x Hx). }
  exists e, n, l, len', h, th, vb. repeat (split; [assumption|]).
  exact (deliveries_det m _ _ _ Hd (cat_says opts file files e n l len' h th vb Hp He Hn Hl Hlen Hh Hth Hvb)).
Qed.
(** Without a file. *)
Lemma cat_bare_only opts n vs : proper opts -> in_memory (map cat_word opts) -> ~ routes bc (map (Tok PNone) (map cat_word opts)) n vs.
Proof.
  intros Hp Hw (before & c & after & E & Hb & Hm). assert (K := kept_words _ Hw).
  destruct before as [|x1 before].
  { injection E as <- _. inversion Hm as [m' ps ts' items vs' Hmd|label vals v Hmd Hk]; [discriminate Hmd|now apply Hk]. }
  injection E as <- E. destruct before as [|x2 before].
  { injection E as <- _. inversion Hm as [m' ps ts' items vs' Hmd|label vals v Hmd Hk Hch He Hc Hval]; [discriminate Hmd|].
    assert (Hv : simple_named bc_version) by is_simple.
    destruct opts as [|o opts]; cbn [map] in Hc.
    - inversion Hc as [t1 value us1 t' us' vals' rest' _ Hf _ _ _|Hx]; [inversion Hf|]. now destruct Hv.
    - destruct (proj1 (simple_consumes bc_version _ _ vals [] Hv) (ex_intro _ label Hc)) as [M _].
      rewrite cat_word_unmatched in M; [discriminate M|reflexivity|reflexivity|right; split; reflexivity]. }
  injection E as <- E. destruct before as [|x3 before].
  { injection E as <- _. inversion Hm as [m' ps ts' items vs' Hmd Hs Hr Hrd Hd|label vals v Hmd]; [|discriminate Hmd]. subst m' vs'.
    assert (n = m /\ ts' = map (Tok PNone) (map cat_word opts)) as [-> ->].
    { inversion Hs as [m0 ps0 ts0 Hx|m0 ps0 ts0 rest (_ & nm & Hx & _)|m0 ps0 ts0 rest bf d af m1 ps1 ts1 (_ & nm & Hx & _)]; subst; [now split|discriminate Hx..]. }
    destruct (opts_read_bare opts [] []) as (items' & Hr' & E').
    - split; [intros i [l []]|intros s []].
    - exact Hp.
    - exact K.
    - rewrite (reading_det _ _ _ _ Hrd _ Hr'), E' in Hd. destruct Hd as [_ Hd].
      change (router_children m) with [bc_ends; bc_nonprinting; lines; len; bc_handling; bc_theme; bc_verbosity; bc_files] in Hd.
      assert (Z : for_child bc_files (flat_map opt_assigns opts) = []).
      { rewrite for_child_flat. clear. induction opts as [|o opts IH]; [reflexivity|]. cbn [flat_map]. rewrite IH, app_nil_r.
        destruct o; first [apply vs_unassigned; reflexivity|reflexivity]. }
      do 7 apply Forall2_tail in Hd. apply Forall2_first in Hd as [v Hd]. destruct Hd as [v Hg _|v _ Hm' _ _].
      + rewrite Z in Hg. inversion Hg.
      + apply Hm'. left. do 2 right. now left. }
  injection E as _ E. now destruct before.
Qed.
End Values.
End Cat.

Lemma cat_options_calls int_t length_t no_length opts file files router vs :
  vt_container int_t = false -> vt_container length_t = false ->
  proper opts -> starts_with (b "-") file = false -> in_memory (map cat_word opts ++ file :: files) ->
  calls_router (basic_cat int_t length_t no_length) [] (map (Tok PNone) (map cat_word opts ++ file :: files)) router vs <->
  router = bc_mode int_t length_t no_length
  /\ exists e n l len h th vb, said opts says_ends (VBool false) e /\ said opts says_nonprinting (VBool false) n
     /\ said opts (says_lines int_t) (VInt (-1)) l /\ said opts (says_length length_t) no_length len
     /\ said opts says_handling (VStr (b "...")) h /\ said opts says_theme (VInt 0) th /\ said opts says_level (VInt 2) vb
     /\ vs = [e; n; l; len; h; th; vb; VList (map VStr (file :: files))].
Proof.
  intros Hi Hl Hp Hf Hm.
  rewrite (fresh_routes _ _ _ router vs (example_fresh _ _ (cat_well_formed int_t length_t no_length) (cat_top int_t length_t no_length) Hm)).
  split.
  - intros H. destruct (cat_options_only int_t length_t no_length opts file files router vs Hp Hf Hm H) as [-> Hd].
    split; [reflexivity|]. exact (cat_delivered int_t length_t no_length Hi Hl opts file files vs Hp Hd).
  - intros (-> & e & n & l & len & h & th & vb & H1 & H2 & H3 & H4 & H5 & H6 & H7 & ->).
    apply cat_options_routes; [exact Hp|exact Hf|exact Hm|].
    exact (cat_says int_t length_t no_length Hi Hl opts file files e n l len h th vb Hp H1 H2 H3 H4 H5 H6 H7).
Qed.

Lemma cat_bare_calls int_t length_t no_length opts router vs : proper opts -> in_memory (map cat_word opts) ->
  ~ calls_router (basic_cat int_t length_t no_length) [] (map (Tok PNone) (map cat_word opts)) router vs.
Proof.
  intros Hp Hm.
  rewrite (fresh_routes _ _ _ router vs (example_fresh _ _ (cat_well_formed int_t length_t no_length) (cat_top int_t length_t no_length) Hm)).
  now apply cat_bare_only.
Qed.

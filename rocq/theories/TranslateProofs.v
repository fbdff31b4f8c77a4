(** Translated programs understand translated command lines: lemmas for C79. *)
From Verif Require Import Bytes Token Result CodePoint Utf8 Tree PreParse Parse Root Validator.
From Verif Require Import SpecTake SpecMode SpecDeliver SpecRoot SpecReading SpecClaims SpecWording SpecTranslate.
From Verif Require Import TreeProofs ModeProofs ReadProofs ClaimProofs RunProofs RulesProofs SpecRules.

(** ** Lists *)
Lemma F2_in {A B} (R : A -> B -> Prop) l l' : Forall2 R l l' -> forall x, In x l -> exists y, In y l' /\ R x y.
Proof.
  induction 1 as [|x y l l' H _ IH]; intros z Hz; [contradiction|].
  destruct Hz as [<-|Hz]; [exists y; split; [now left|exact H]|].
  destruct (IH z Hz) as (w & Hw & E). exists w. split; [now right|exact E].
Qed.
Lemma F2_flip {A B} (R : A -> B -> Prop) (Q : B -> A -> Prop) l l' :
  (forall x y, R x y -> Q y x) -> Forall2 R l l' -> Forall2 Q l' l.
Proof. intros H. induction 1; constructor; auto. Qed.
Lemma F2_in_r {A B} (R : A -> B -> Prop) l l' : Forall2 R l l' -> forall y, In y l' -> exists x, In x l /\ R x y.
Proof. intros H. apply (F2_in (fun y x => R x y)). revert H. apply F2_flip. auto. Qed.
Lemma F2_impl {A B} (R Q : A -> B -> Prop) l l' : (forall x y, R x y -> Q x y) -> Forall2 R l l' -> Forall2 Q l l'.
Proof. intros H. induction 1; constructor; auto. Qed.
Lemma F2_app {A B} (R : A -> B -> Prop) a a' c c' : Forall2 R a a' -> Forall2 R c c' -> Forall2 R (a ++ c) (a' ++ c').
Proof. induction 1; cbn; auto. Qed.
Lemma F2_len {A B} (R : A -> B -> Prop) l l' : Forall2 R l l' -> List.length l = List.length l'.
Proof. induction 1; cbn; congruence. Qed.
Lemma F2_split {A B} (R : A -> B -> Prop) l : forall l2 l', Forall2 R (l ++ l2) l' ->
  exists m m2, l' = m ++ m2 /\ Forall2 R l m /\ Forall2 R l2 m2.
Proof.
  induction l as [|x l IH]; intros l2 l' H; cbn in H.
  - exists [], l'. repeat split; auto.
  - inversion H as [|? y ? k Hy Hk]; subst. destruct (IH _ _ Hk) as (m & m2 & -> & H1 & H2).
    exists (y :: m), m2. repeat split; auto.
Qed.
Lemma F2_filter {A B} (R : A -> B -> Prop) f g l l' : Forall2 R l l' -> (forall x y, In x l -> R x y -> f x = g y) ->
  Forall2 R (filter f l) (filter g l').
Proof.
  induction 1 as [|x y l l' H _ IH]; intros E; [constructor|]. cbn [filter].
  rewrite <- (E x y (or_introl eq_refl) H).
  assert (IH' := IH (fun x0 y0 Hx => E x0 y0 (or_intror Hx))).
  destruct (f x); [constructor|]; assumption.
Qed.
Lemma F2_flat {A B C D} (R : A -> B -> Prop) (Q : C -> D -> Prop) f g l l' : Forall2 R l l' ->
  (forall x y, In x l -> R x y -> Forall2 Q (f x) (g y)) -> Forall2 Q (flat_map f l) (flat_map g l').
Proof.
  induction 1 as [|x y l l' H _ IH]; intros E; [constructor|]. cbn [flat_map].
  apply F2_app; [apply E; [now left|exact H]|]. apply IH. intros x0 y0 Hx. apply E. now right.
Qed.
Lemma F2_map {A B C D} (R : A -> B -> Prop) (Q : C -> D -> Prop) f g l l' : Forall2 R l l' ->
  (forall x y, R x y -> Q (f x) (g y)) -> Forall2 Q (map f l) (map g l').
Proof. intros H E. induction H; cbn; constructor; auto. Qed.

(** A word with a name in front of a separator. *)
Lemma app_cut (x v l : bytes) c s : x ++ v = l ++ c :: s -> ~ In c x -> exists u, l = x ++ u /\ v = u ++ c :: s.
Proof.
  revert l. induction x as [|y x IH]; intros l E H.
  - exists l. split; [reflexivity|exact E].
  - destruct l as [|z l].
    + injection E as -> _. exfalso. apply H. now left.
    + injection E as <- E. destruct (IH l E) as (u & -> & ->); [intros Hc; apply H; now right|].
      now exists u.
Qed.

Definition flip_dict (d : dictionary) : dictionary :=
  Dict (fun x y => d_long d y x) (fun x y => d_bare d y x) (fun x y => d_type d y x).

Lemma flip_flip d : flip_dict (flip_dict d) = d. Proof. now destruct d. Qed.

Lemma one_to_one_flip {A B} (R : A -> B -> Prop) : one_to_one R -> one_to_one (fun x y => R y x).
Proof. intros H x y x' y' E E'. symmetry. apply (H _ _ _ _ E E'). Qed.

Lemma faithful_flip d sep : faithful d sep -> faithful (flip_dict d) sep.
Proof.
  intros [H1 H2 H3 H4 H5 H6]. constructor; cbn; try (apply one_to_one_flip; assumption).
  - intros x y H. destruct (H4 _ _ H). now split.
  - intros x y H. destruct (H5 _ _ H). now split.
  - intros x y H. destruct (H6 _ _ H). now split.
Qed.

Lemma no_word_flip d sep w : no_word d sep w -> no_word (flip_dict d) sep w.
Proof.
  intros H s v E Hv. destruct (H s v E Hv) as [H1 H2]. split; intros x y Hxy.
  - destruct (H1 _ _ Hxy). now split.
  - destruct (H2 _ _ Hxy). now split.
Qed.

Lemma says_flip d sep w w' : says d sep w w' -> says (flip_dict d) sep w' w.
Proof.
  intros []; [apply says_long|apply says_bare|apply says_other]; try assumption. now apply no_word_flip.
Qed.

Lemma ref_flip d x y : translated_ref d x y -> translated_ref (flip_dict d) y x.
Proof. intros []; constructor; assumption. Qed.
Lemma policy_flip d x y : translated_policy d x y -> translated_policy (flip_dict d) y x.
Proof.
  intros [].
  - now apply tp_long.
  - now apply tp_bare.
  - apply tp_alias. revert H. apply F2_flip, ref_flip.
  - apply tp_dependent. revert H. apply F2_flip, ref_flip.
  - now apply tp_text.
  - now apply tp_same.
Qed.
Lemma translated_flip d : forall n n', translated d n n' -> translated (flip_dict d) n' n.
Proof.
  induction n as [k i t ps cs IH] using node_ind'. intros n' H. inversion H as [? ? j ? ? ps' ? cs' Hi Hp Hc]; subst.
  constructor; [exact Hi|revert Hp; apply F2_flip, policy_flip|].
  clear - IH Hc. induction Hc as [|c c' cs cs' H _ IHc]; constructor.
  - apply (Forall_inv IH), H.
  - apply IHc, (Forall_inv_tail IH).
Qed.

(** ** Nodes *)
Section Nodes.
Variable d : dictionary.
Variable sep : ascii -> Prop.
Hypothesis Hd : faithful d sep.

Local Notation tr := (translated d).
Local Notation trs := (Forall2 (translated d)).

Lemma tr_kind n n' : tr n n' -> n_kind n' = n_kind n. Proof. now intros []. Qed.
Lemma tr_type n n' : tr n n' -> d_type d (n_id n) (n_id n'). Proof. now intros []. Qed.
Lemma tr_vty n n' : tr n n' -> n_ty n' = n_ty n. Proof. now intros []. Qed.
Lemma tr_pols n n' : tr n n' -> Forall2 (translated_policy d) (n_pols n) (n_pols n'). Proof. now intros []. Qed.
Lemma tr_children n n' : tr n n' -> trs (n_children n) (n_children n'). Proof. now intros []. Qed.

Lemma tp_first {B} (f : policy -> option B) :
  (forall p p', translated_policy d p p' -> f p' = f p) ->
  forall ps ps', Forall2 (translated_policy d) ps ps' -> first_some f ps' = first_some f ps.
Proof.
  intros Hf ps ps' H. induction H as [|p p' ps ps' H _ IH]; [reflexivity|]. cbn [first_some].
  now rewrite (Hf _ _ H), IH.
Qed.
Lemma tp_exists (f : policy -> bool) :
  (forall p p', translated_policy d p p' -> f p' = f p) ->
  forall ps ps', Forall2 (translated_policy d) ps ps' -> existsb f ps' = existsb f ps.
Proof.
  intros Hf ps ps' H. induction H as [|p p' ps ps' H _ IH]; [reflexivity|]. cbn [existsb].
  now rewrite (Hf _ _ H), IH.
Qed.
(** A property of policies that are not words. *)
Lemma tp_texts {B} (f : policy -> B) (o : B) :
  (forall p, wordless p = false -> f p = o) -> forall p p', translated_policy d p p' -> f p' = f p.
Proof.
  intros H p p' []; try (rewrite !H by reflexivity; reflexivity); [|reflexivity].
  rewrite !H; [reflexivity| |]; [destruct p0 | destruct p'0]; try reflexivity; discriminate.
Qed.

Ltac by_first o := intros H; apply tp_first; [|exact (tr_pols _ _ H)];
  apply (tp_texts _ o); intros []; (reflexivity || discriminate).
Ltac by_exists := intros H; apply tp_exists; [|exact (tr_pols _ _ H)];
  apply (tp_texts _ false); intros []; (reflexivity || discriminate).

Lemma tr_short n n' : tr n n' -> short_name n' = short_name n. Proof. by_first (@None bytes). Qed.
Lemma tr_count n n' : tr n n' -> count_bounds n' = count_bounds n. Proof. by_first (@None (N * N)). Qed.
Lemma tr_separator n n' : tr n n' -> value_separator n' = value_separator n. Proof. by_first (@None bytes). Qed.
Lemma tr_marker n n' : tr n n' -> token_end_marker n' = token_end_marker n. Proof. by_first (@None bytes). Qed.
Lemma tr_enabled n n' : tr n n' -> runtime_enabled n' = runtime_enabled n. Proof. by_first (@None bool). Qed.
Lemma tr_stage n n' : tr n n' -> multi_stage n' = multi_stage n.
Proof. by_first (@None (option value -> value -> value)). Qed.
Lemma tr_parser n n' : tr n n' -> custom_parser n' = custom_parser n. Proof. by_first (@None (bytes -> res value)). Qed.
Lemma tr_router n n' : tr n n' -> has_router n' = has_router n. Proof. by_exists. Qed.
Lemma tr_noresult n n' : tr n n' -> no_result_value n' = no_result_value n.
Proof.
  intros H. apply tp_exists; [|exact (tr_pols _ _ H)]. intros p p' []; try reflexivity.
  destruct p0; try discriminate; destruct p'0; try discriminate; reflexivity.
Qed.
Lemma tr_hasstage n n' : tr n n' -> has_multi_stage n' = has_multi_stage n.
Proof. intros H. unfold has_multi_stage. now rewrite (tr_stage _ _ H). Qed.
Lemma tr_mode n n' : tr n n' -> is_mode n' = is_mode n.
Proof. intros H. unfold is_mode. now rewrite (tr_kind _ _ H). Qed.
Lemma tr_argument n n' : tr n n' -> is_argument n' = is_argument n.
Proof. intros H. unfold is_argument. now rewrite (tr_kind _ _ H). Qed.

Definition names_match (R : bytes -> bytes -> Prop) (o o' : option bytes) : Prop :=
  match o, o' with Some x, Some y => R x y | None, None => True | _, _ => False end.

Lemma tr_long_name n n' : tr n n' -> names_match (d_long d) (long_name n) (long_name n').
Proof.
  intros H. unfold long_name. generalize (tr_pols _ _ H). generalize (n_pols n) (n_pols n'). clear.
  induction 1 as [|p p' ps ps' H _ IH]; [exact I|]. cbn [first_some].
  destruct H; try exact IH; [exact H| |].
  - destruct p, p'; try discriminate; exact IH.
  - destruct p; try discriminate; exact IH.
Qed.
Lemma tr_bare_name n n' : tr n n' -> names_match (d_bare d) (none_name n) (none_name n').
Proof.
  intros H. unfold none_name. generalize (tr_pols _ _ H). generalize (n_pols n) (n_pols n'). clear.
  induction 1 as [|p p' ps ps' H _ IH]; [exact I|]. cbn [first_some].
  destruct H; try exact IH; [exact H| |].
  - destruct p, p'; try discriminate; exact IH.
  - destruct p; try discriminate; exact IH.
Qed.
Lemma match_some R o o' : names_match R o o' -> is_some o' = is_some o.
Proof. intros H. destruct o, o'; first [reflexivity|contradiction]. Qed.
Lemma tr_named n n' : tr n n' -> is_named n' = is_named n.
Proof.
  intros H. unfold is_named. rewrite (tr_short _ _ H), (match_some _ _ _ (tr_long_name _ _ H)).
  now rewrite (match_some _ _ _ (tr_bare_name _ _ H)).
Qed.
Lemma long_some n n' x : tr n n' -> long_name n = Some x -> exists y, long_name n' = Some y /\ d_long d x y.
Proof.
  intros H E. generalize (tr_long_name _ _ H). rewrite E. destruct (long_name n') as [y|]; [|contradiction].
  intros Hy. now exists y.
Qed.
Lemma bare_some n n' x : tr n n' -> none_name n = Some x -> exists y, none_name n' = Some y /\ d_bare d x y.
Proof.
  intros H E. generalize (tr_bare_name _ _ H). rewrite E. destruct (none_name n') as [y|]; [|contradiction].
  intros Hy. now exists y.
Qed.
Lemma bare_none n n' : tr n n' -> none_name n = None -> none_name n' = None.
Proof. intros H E. generalize (tr_bare_name _ _ H). rewrite E. now destruct (none_name n'). Qed.

Lemma tr_enabled_iff n n' : tr n n' -> enabled n <-> enabled n'.
Proof. intros H. unfold enabled. now rewrite (tr_enabled _ _ H). Qed.
Lemma tr_pol_in n n' p : tr n n' -> wordless p = true -> In p (n_pols n) -> In p (n_pols n').
Proof.
  intros H W Hp. destruct (F2_in _ _ _ (tr_pols _ _ H) _ Hp) as (q & Hq & E).
  destruct E; try discriminate; [|exact Hq].
  exfalso. destruct p; discriminate.
Qed.

(** ** Words *)
Lemma not_dashed x v : x <> [] -> starts_with short_prefix x = false -> starts_with short_prefix (x ++ v) = false.
Proof. destruct x as [|c x]; [congruence|]. intros _. change short_prefix with ["-"%char]. cbn [starts_with app]. auto. Qed.
Lemma not_long s : starts_with short_prefix s = false -> starts_with long_prefix s = false.
Proof. destruct s as [|c s]; [reflexivity|]. change short_prefix with ["-"%char]. change long_prefix with ["-"%char; "-"%char]. cbn [starts_with].
  rewrite andb_true_r. now intros ->. Qed.

Lemma clean_suffix x v y : unseparated sep y -> y = x ++ v -> suffix sep v -> v = [].
Proof.
  intros H E [->|(c & s & -> & Hc)]; [reflexivity|]. exfalso. apply (H c); [|exact Hc].
  rewrite E. apply in_or_app. right. now left.
Qed.
Lemma clean_prefix p x : unseparated sep (p ++ x) -> unseparated sep x.
Proof. intros H c Hc. apply H. apply in_or_app. now right. Qed.

(** The word for a name is that of the name. *)
Lemma says_bare_word w w' y : says d sep w w' -> d_bare d w y -> w' = y.
Proof.
  intros H Hy. inversion H as [x z v Hx Hv E1 E2|x z v Hx Hv E1 E2|u Hu E1 E2].
  - exfalso. destruct (f_undashed _ _ Hd _ _ Hy) as [[_ E] _]. rewrite <- E1 in E. discriminate.
  - destruct (f_clean_bare _ _ Hd _ _ Hy) as [Hc _].
    assert (v = []) as ->; [exact (clean_suffix x v w Hc (eq_sym E1) Hv)|].
    rewrite app_nil_r in *. subst x. apply (f_bare _ _ Hd _ _ _ _ Hx Hy). reflexivity.
  - exfalso. subst. destruct (Hu w' [] (eq_sym (app_nil_r _)) (or_introl eq_refl)) as [_ H2].
    destruct (H2 _ _ Hy) as [H3 _]. now apply H3.
Qed.
Lemma says_long_word x w' y : says d sep (long_prefix ++ x) w' -> d_long d x y -> w' = long_prefix ++ y.
Proof.
  intros H Hy. inversion H as [u z v Hx Hv E1 E2|u z v Hx Hv E1 E2|u Hu E1 E2].
  - destruct (f_clean_long _ _ Hd _ _ Hy) as [Hc _].
    assert (v = []) as -> by exact (clean_suffix u v x (clean_prefix _ _ Hc) (eq_sym E1) Hv).
    rewrite app_nil_r in *. subst u. f_equal. apply (f_long _ _ Hd _ _ _ _ Hx Hy). reflexivity.
  - exfalso. destruct (f_undashed _ _ Hd _ _ Hx) as [[N E] _].
    generalize (not_dashed _ v N E). rewrite E1. discriminate.
  - exfalso. subst. destruct (Hu (long_prefix ++ x) [] (eq_sym (app_nil_r _)) (or_introl eq_refl)) as [H2 _].
    destruct (H2 _ _ Hy) as [H3 _]. now apply H3.
Qed.
(** Words with a short prefix are the same. *)
Lemma says_short w w' : says d sep w w' -> starts_with long_prefix w = false -> starts_with short_prefix w = true -> w' = w.
Proof.
  intros [x z v Hx Hv|x z v Hx Hv|u Hu] E1 E2; [discriminate| |reflexivity].
  exfalso. destruct (f_undashed _ _ Hd _ _ Hx) as [[N E] _]. rewrite (not_dashed _ v N E) in E2. discriminate.
Qed.
Lemma says_prefix w w' : says d sep w w' -> starts_with long_prefix w' = starts_with long_prefix w
  /\ starts_with short_prefix w' = starts_with short_prefix w.
Proof.
  intros [x z v Hx Hv|x z v Hx Hv|u Hu]; [now split| |now split].
  destruct (f_undashed _ _ Hd _ _ Hx) as [[N E] [N' E']].
  pose proof (not_dashed _ v N E) as F. pose proof (not_dashed _ v N' E') as F'.
  rewrite F, F', (not_long _ F), (not_long _ F'). now split.
Qed.

(** The part before the first separator. *)
Lemma says_cut w w' (ss : bytes) l c s : says d sep w w' -> (forall e, In e ss -> sep e) ->
  w = l ++ c :: s -> In c ss -> (forall e, In e ss -> ~ In e l) ->
  exists l', w' = l' ++ c :: s /\ (forall e, In e ss -> ~ In e l') /\ says d sep l l'.
Proof.
  intros H Hs E Hc Hl.
  assert (Hgen : forall x y v, x ++ v = l ++ c :: s -> unseparated sep x -> unseparated sep y -> suffix sep v ->
    exists u, l = x ++ u /\ v = u ++ c :: s /\ (forall e, In e ss -> ~ In e (y ++ u)) /\ suffix sep u).
  { intros x y v Ex Hx Hy Hv. destruct (app_cut _ _ _ _ _ Ex) as (u & -> & ->).
    { intros Hi. apply (Hx c Hi), Hs, Hc. }
    exists u. repeat split.
    - intros e He Hi. apply in_app_or in Hi. destruct Hi as [Hi|Hi].
      + apply (Hy e Hi), Hs, He.
      + apply (Hl e He). apply in_or_app. now right.
    - destruct u as [|a u]; [now left|]. right. exists a, u. split; [reflexivity|].
      destruct Hv as [Hv|(c' & s' & Hv & Hc')]; [discriminate|]. injection Hv as -> _. exact Hc'. }
  destruct H as [x y v Hx Hv|x y v Hx Hv|w Hw].
  - destruct (f_clean_long _ _ Hd _ _ Hx) as [Hcx Hcy].
    destruct (Hgen (long_prefix ++ x) (long_prefix ++ y) v) as (u & -> & -> & Hu & Hsu);
      [rewrite <- app_assoc; exact E|exact Hcx|exact Hcy|exact Hv|].
    exists (long_prefix ++ y ++ u). repeat split.
    + now rewrite <- !app_assoc.
    + rewrite app_assoc. exact Hu.
    + rewrite <- app_assoc. now apply says_long.
  - destruct (f_clean_bare _ _ Hd _ _ Hx) as [Hcx Hcy].
    destruct (Hgen x y v) as (u & -> & -> & Hu & Hsu); [exact E|exact Hcx|exact Hcy|exact Hv|].
    exists (y ++ u). repeat split.
    + now rewrite <- !app_assoc.
    + exact Hu.
    + now apply says_bare.
  - exists l. repeat split; [exact E|exact Hl|]. apply says_other. intros k v Ek Hv.
    apply (Hw k (v ++ c :: s)); [rewrite E, Ek; now rewrite <- app_assoc|].
    right. destruct Hv as [->|(c' & s' & -> & Hc')]; [exists c, s|exists c', (s' ++ c :: s)]; split;
      try reflexivity; [apply Hs, Hc|exact Hc'].
Qed.
Lemma says_uncut w w' (ss : bytes) : says d sep w w' -> (forall e, In e ss -> sep e) ->
  (forall e, In e ss -> ~ In e w) -> forall e, In e ss -> ~ In e w'.
Proof.
  intros [x y v Hx Hv|x y v Hx Hv|u Hu] Hs Hw e He; [| |exact (Hw e He)]; intros Hi.
  - destruct (f_clean_long _ _ Hd _ _ Hx) as [_ Hcy]. rewrite app_assoc in Hi. apply in_app_or in Hi.
    destruct Hi as [Hi|Hi]; [exact (Hcy e Hi (Hs e He))|].
    apply (Hw e He). rewrite app_assoc. apply in_or_app. now right.
  - destruct (f_clean_bare _ _ Hd _ _ Hx) as [_ Hcy]. apply in_app_or in Hi.
    destruct Hi as [Hi|Hi]; [exact (Hcy e Hi (Hs e He))|].
    apply (Hw e He). apply in_or_app. now right.
Qed.
(** A word that is no name is the same. *)
Lemma says_no_word w w' : says d sep w w' -> no_word d sep w -> w' = w.
Proof.
  intros [x y v Hx Hv|x y v Hx Hv|u Hu] H; [| |reflexivity]; exfalso.
  - destruct (H (long_prefix ++ x) v) as [H1 _]; [now rewrite <- app_assoc|exact Hv|].
    now destruct (H1 _ _ Hx).
  - destruct (H x v) as [_ H1]; [reflexivity|exact Hv|]. now destruct (H1 _ _ Hx).
Qed.

(** ** Tokens *)
Inductive tsays : token -> token -> Prop :=
| tsays_word w w' : says d sep w w' -> tsays (Tok PNone w) (Tok PNone w')
| tsays_flag g : tsays (Tok PShort g) (Tok PShort g).

Lemma match_node_iff n t : match_node n t = true <->
  (exists s, long_name n = Some s /\ t = Tok PLong s) \/ (exists s, short_name n = Some s /\ t = Tok PShort s)
  \/ (exists s, none_name n = Some s /\ t = Tok PNone s).
Proof.
  unfold match_node. destruct t as [p w]. cbn [t_prefix t_name].
  assert (Hb : forall (o : option bytes) q, (match o with Some s => prefix_eqb p q && beq w s | None => false end) = true
    <-> exists s, o = Some s /\ Tok p w = Tok q s).
  { intros o q. destruct o as [s|].
    - rewrite andb_true_iff, beq_eq. split.
      + intros [E ->]. exists s. split; [reflexivity|]. f_equal. now destruct p, q.
      + intros (s' & E & F). injection E as <-. injection F as -> ->. split; [now destruct q|reflexivity].
    - split; [discriminate|]. now intros (s & E & _). }
  rewrite !orb_true_iff, !Hb. tauto.
Qed.

Lemma match_class n n' hl hs w w' : tr n n' -> says d sep w w' ->
  match_node n (get_token_type_for hl hs w) = true -> match_node n' (get_token_type_for hl hs w') = true.
Proof.
  intros H Hw. destruct (says_prefix _ _ Hw) as [P1 P2]. unfold get_token_type_for. rewrite P1, P2.
  destruct (hl && starts_with long_prefix w) eqn:E1.
  - apply andb_true_iff in E1. destruct E1 as [-> E1]. apply starts_with_app in E1. destruct E1 as (x & ->).
    rewrite match_node_iff. cbn [List.length long_prefix skipn app].
    intros [(s & Hs & E)|[(s & _ & E)|(s & _ & E)]]; try discriminate. injection E as ->.
    destruct (long_some _ _ _ H Hs) as (y & Hy & Hxy).
    rewrite (says_long_word _ _ _ Hw Hxy). apply match_node_iff. left. exists y. split; [exact Hy|reflexivity].
  - destruct (hs && (starts_with short_prefix w && negb (starts_with long_prefix w))) eqn:E2.
    + apply andb_true_iff in E2. destruct E2 as [-> E2]. apply andb_true_iff in E2. destruct E2 as [E2 E3].
      apply negb_true_iff in E3. rewrite (says_short _ _ Hw E3 E2).
      rewrite !match_node_iff. intros [(s & _ & E)|[(s & Hs & E)|(s & _ & E)]]; try discriminate.
      right; left. exists s. split; [now rewrite (tr_short _ _ H)|exact E].
    + rewrite match_node_iff. intros [(s & _ & E)|[(s & _ & E)|(s & Hs & E)]]; try discriminate. injection E as ->.
      destruct (bare_some _ _ _ H Hs) as (y & Hy & Hxy). rewrite (says_bare_word _ _ _ Hw Hxy).
      apply match_node_iff. right; right. exists y. split; [exact Hy|reflexivity].
Qed.
Lemma class_all s : get_token_type s = get_token_type_for true true s.
Proof.
  unfold get_token_type, get_token_type_for. cbn [andb]. destruct (starts_with long_prefix s); [reflexivity|].
  now rewrite andb_true_r.
Qed.
Lemma match_short n n' g : tr n n' -> match_node n (Tok PShort g) = true -> match_node n' (Tok PShort g) = true.
Proof.
  intros H. rewrite !match_node_iff. intros [(s & _ & E)|[(s & Hs & E)|(s & _ & E)]]; try discriminate.
  right; left. exists s. split; [now rewrite (tr_short _ _ H)|exact E].
Qed.
Lemma match_norm n n' t t' : tr n n' -> tsays t t' ->
  match_node n (norm_token n t) = true -> match_node n' (norm_token n' t') = true.
Proof.
  intros H [w w' Hw|g]; cbn [norm_token t_prefix t_name].
  - unfold node_get_token. rewrite (match_some _ _ _ (tr_long_name _ _ H)), (tr_short _ _ H).
    now apply match_class.
  - now apply match_short.
Qed.
Lemma match_typed n n' t t' : tr n n' -> tsays t t' ->
  match_node n (match t_prefix t with PNone => get_token_type (t_name t) | _ => t end) = true ->
  match_node n' (match t_prefix t' with PNone => get_token_type (t_name t') | _ => t' end) = true.
Proof.
  intros H [w w' Hw|g]; cbn [t_prefix t_name].
  - rewrite !class_all. now apply match_class.
  - now apply match_short.
Qed.

Variable mark : bytes -> Prop.
Definition unmarked (t t' : token) : Prop := t = t' \/ ~ mark (t_name t) /\ ~ mark (t_name t').
(** Tokens of the command line, and those or values. *)
Definition line (t t' : token) : Prop := tsays t t' /\ unmarked t t'.
Definition part (t t' : token) : Prop := line t t' \/ t = t'.

(** What a node's policies must satisfy. *)
Record plainly (n : node) : Prop := {
  pl_sep : forall ss c, value_separator n = Some ss -> In c ss -> sep c;
  pl_mark : forall m, token_end_marker n = Some m -> mark m;
  pl_one : value_separator n <> None -> count_bounds n = Some (1, 1)%N
}.

Lemma tsays_cut t t' ss p l c s : tsays t t' -> (forall e, In e ss -> sep e) -> t = Tok p (l ++ c :: s) ->
  In c ss -> (forall e, In e ss -> ~ In e l) ->
  exists l', t' = Tok p (l' ++ c :: s) /\ (forall e, In e ss -> ~ In e l') /\ tsays (Tok p l) (Tok p l').
Proof.
  intros [w w' Hw|g] Hs E Hc Hl; injection E as <- E.
  - destruct (says_cut _ _ _ _ _ _ Hw Hs E Hc Hl) as (l' & -> & H1 & H2). exists l'. repeat split; [exact H1|].
    now constructor.
  - exists l. subst g. repeat split; [exact Hl|]. constructor.
Qed.

Lemma fronted_tr n n' ts ts' t value us : tr n n' -> plainly n -> Forall2 line ts ts' -> fronted n ts t value us ->
  exists t2 us', fronted n' ts' t2 value us' /\ tsays t t2 /\ Forall2 line us us'.
Proof.
  intros H [Hs _ _] Hl Hf. revert Hl. destruct Hf as [t0 us0 E|ss p l c s v us0 E Hc Hlen Hl0 Hv]; intros Hl; inversion Hl as [|? t' ? us' Htm Hus]; subst; destruct Htm as [Ht Hm].
  - exists t', us'. repeat split; [|exact Ht|exact Hus]. constructor. now rewrite (tr_separator _ _ H).
  - destruct (tsays_cut _ _ ss p l c (s ++ v) Ht) as (l' & -> & H1 & H2);
      [intros e He; exact (Hs _ _ E He)|reflexivity|exact Hc|exact Hl0|].
    exists (Tok p l'), us'. repeat split; [|exact H2|exact Hus].
    apply (front_split n' ss p l' c s v us'); try assumption. now rewrite (tr_separator _ _ H).
Qed.

Lemma group_tr n n' t t' nm : tr n n' -> tsays t t' -> group_for n t nm -> group_for n' t' nm.
Proof.
  intros H Ht (Hp & Hn & Hs). split; [exact (tr_pol_in _ _ PShortFormExpander H eq_refl Hp)|].
  split; [|intros s; rewrite (tr_short _ _ H); apply Hs].
  destruct Ht as [w w' Hw|g]; cbn [t_prefix t_name] in *.
  - destruct Hn as [[E _]|(_ & E & F)]; [discriminate|]. right.
    assert (w' = w) as ->. { apply says_short; [exact Hw|exact F|]. rewrite E. reflexivity. }
    repeat split; assumption.
  - destruct Hn as [[_ E]|(E & _)]; [|discriminate]. left. now split.
Qed.

Lemma line_flags gs : Forall2 line (map (Tok PShort) gs) (map (Tok PShort) gs).
Proof. induction gs; constructor; [|assumption]. split; [constructor|now left]. Qed.

(** The same values are taken. *)
Lemma part_name t t' m : mark m -> part t t' -> t_name t = m -> t' = t.
Proof.
  intros Hm [[_ [E|[E _]]]|E] F; congruence.
Qed.
Lemma part_name_r t t' m : mark m -> part t t' -> t_name t' = m -> t' = t.
Proof.
  intros Hm [[_ [E|[_ E]]]|E] F; congruence.
Qed.
Lemma nlen_len {A B} (l : list A) (l' : list B) : List.length l = List.length l' -> nlen l = nlen l'.
Proof. unfold nlen. congruence. Qed.

Lemma counted_tr n n' us us' vals rest : tr n n' -> plainly n -> Forall2 part us us' -> counted n us vals rest ->
  exists vals' rest' pre pre', counted n' us' vals' rest' /\ Forall2 part vals vals' /\ Forall2 part rest rest'
    /\ us = pre ++ rest /\ us' = pre' ++ rest' /\ List.length pre = List.length pre' /\ List.length vals <= List.length pre.
Proof.
  intros H Hp Hu [mn mx vs rs E1 E2 E3 E4 E5|mn mx m p vs rs E1 E2 E3 E4 E5 E6|mx m p vs rs E1 E2 E3 E4 E5 E6 E7|mn mx m E1 E2 E3 E4].
  - subst us. destruct (F2_split _ _ _ _ Hu) as (vals' & rest' & -> & Hv & Hr).
    exists vals', rest', vs, vals'. repeat split; auto; [|exact (F2_len _ _ _ Hv)].
    apply (count_plain _ _ mn mx); [now rewrite (tr_marker _ _ H)|now rewrite (tr_count _ _ H)|reflexivity| |].
    + rewrite <- (nlen_len _ _ (F2_len _ _ _ Hv)). exact E4.
    + rewrite <- (nlen_len _ _ (F2_len _ _ _ Hv)). intros Hx. apply E5. intros ->. inversion Hr; subst. now apply Hx.
  - subst us. destruct (F2_split _ _ _ _ Hu) as (vals' & rest1 & -> & Hv & Hr).
    inversion Hr as [|? t' ? rest' Ht Hr']; subst.
    assert (Hm := pl_mark _ Hp _ E1). rewrite (part_name _ _ m Hm Ht eq_refl) in *.
    exists vals', rest', (vs ++ [Tok p m]), (vals' ++ [Tok p m]).
    repeat split; auto; [|now rewrite <- app_assoc|now rewrite <- app_assoc
                         |rewrite !app_length, (F2_len _ _ _ Hv); reflexivity|rewrite app_length; apply Nat.le_add_r].
    apply (count_marker _ _ mn mx m p); [now rewrite (tr_marker _ _ H)|now rewrite (tr_count _ _ H)|reflexivity| | |].
    + intros u Hi Hx. destruct (F2_in_r _ _ _ Hv _ Hi) as (u0 & Hi0 & Hp0).
      rewrite (part_name_r _ _ m Hm Hp0 Hx) in Hx. exact (E4 u0 Hi0 Hx).
    + rewrite <- (nlen_len _ _ (F2_len _ _ _ Hv)). exact E5.
    + rewrite (tr_named _ _ H). destruct E6 as [E6|[E6|E6]]; [left; exact E6| |right; right; exact E6].
      right. left. intros ->. apply E6. inversion Hv. reflexivity.
  - subst us. inversion Hu as [|? t' ? us1 Ht Hu1]; subst. assert (Hm := pl_mark _ Hp _ E1).
    rewrite (part_name _ _ m Hm Ht eq_refl) in *.
    destruct (F2_split _ _ _ _ Hu1) as (vals' & rest' & -> & Hv & Hr).
    exists vals', rest', (Tok p m :: vs), (Tok p m :: vals').
    repeat split; auto; [|cbn [List.length]; rewrite (F2_len _ _ _ Hv); reflexivity|cbn [List.length]; apply Nat.le_succ_diag_r].
    apply (count_front_marker _ _ mx m p); [now rewrite (tr_marker _ _ H)|now rewrite (tr_count _ _ H)
                                           |now rewrite (tr_named _ _ H)|exact E4|reflexivity| |].
    + rewrite <- (nlen_len _ _ (F2_len _ _ _ Hv)). exact E6.
    + rewrite <- (nlen_len _ _ (F2_len _ _ _ Hv)). intros Hx. apply E7. intros ->. inversion Hr; subst. now apply Hx.
  - exists us', [], us, us'. assert (Hm := pl_mark _ Hp _ E1).
    repeat split; auto; [|now rewrite app_nil_r|now rewrite app_nil_r|exact (F2_len _ _ _ Hu)].
    apply (count_no_marker _ _ mn mx m); [now rewrite (tr_marker _ _ H)|now rewrite (tr_count _ _ H)| |].
    + intros u Hi Hx. destruct (F2_in_r _ _ _ Hu _ Hi) as (u0 & Hi0 & Hp0).
      rewrite (part_name_r _ _ m Hm Hp0 Hx) in Hx. exact (E3 u0 Hi0 Hx).
    + rewrite <- (nlen_len _ _ (F2_len _ _ _ Hu)). exact E4.
Qed.

Lemma line_part ts ts' : Forall2 line ts ts' -> Forall2 part ts ts'.
Proof. apply F2_impl. intros. now left. Qed.
Lemma part_refl ts : Forall2 part ts ts.
Proof. induction ts; constructor; auto. now right. Qed.

(** The tail of a list from the same position. *)
Lemma tail_lines (pre rest pre' rest' us us' : list token) :
  Forall2 line us us' -> us = pre ++ rest -> us' = pre' ++ rest' ->
  List.length pre = List.length pre' -> Forall2 line rest rest'.
Proof.
  intros H -> E L. destruct (F2_split _ _ _ _ H) as (a & b & -> & Ha & Hb).
  apply F2_len in Ha.
  assert (Hx : forall (p q r s : list token), p ++ q = r ++ s -> List.length p = List.length r -> q = s).
  { clear. induction p as [|x p IH]; intros q [|y r] s E L; try discriminate; [exact E|].
    injection E as _ E. injection L as L. exact (IH _ _ _ E L). }
  apply Hx in E; [|congruence]. now subst.
Qed.

Lemma rest_lines n value us us' vals rest rest' pre pre' :
  plainly n -> (value = [] \/ (value_separator n <> None /\ exists v, value = [v])) -> counted n (value ++ us) vals rest ->
  Forall2 line us us' ->
  value ++ us = pre ++ rest -> value ++ us' = pre' ++ rest' ->
  List.length pre = List.length pre' -> List.length vals <= List.length pre -> Forall2 line rest rest'.
Proof.
  intros Hp [->|(Hs & v & ->)] Hc Hl E E' L1 L2.
  - exact (tail_lines _ _ _ _ _ _ Hl E E' L1).
  - assert (Hb := pl_one _ Hp Hs).
    assert (1 <= nlen vals)%N as Hn.
    { destruct Hc as [mn mx vs rs _ E2 _ E4 _|mn mx m p vs rs _ E2 _ _ E4 _|mx m p vs rs _ E2 _ _ _ _ _|mn mx m _ E2 _ E4]; rewrite Hb in E2;
        [| |discriminate|]; injection E2 as <- <-; apply E4. }
    destruct vals as [|x0 vals]; [exfalso; cbn in Hn; lia|]. destruct pre as [|x pre]; [exfalso; cbn in L2; lia|].
    destruct pre' as [|x' pre']; [discriminate|].
    injection E as _ E. injection E' as _ E'. injection L1 as L1.
    exact (tail_lines _ _ _ _ _ _ Hl E E' L1).
Qed.

Lemma fronted_value n ts t value us : fronted n ts t value us ->
  value = [] \/ (value_separator n <> None /\ exists v, value = [v]).
Proof. intros [? ? E|ss p l c s v us0 E]; [now left|]. right. split; [congruence|now exists (Tok PNone v)]. Qed.
End Nodes.

Lemma plainly_tr d sep mark n n' : translated d n n' -> plainly sep mark n -> plainly sep mark n'.
Proof.
  intros H [H1 H2 H3]. constructor.
  - intros ss c. rewrite (tr_separator _ _ _ H). apply H1.
  - intros m. rewrite (tr_marker _ _ _ H). apply H2.
  - rewrite (tr_separator _ _ _ H), (tr_count _ _ _ H). exact H3.
Qed.
Lemma tsays_flip d sep t t' : tsays d sep t t' -> tsays (flip_dict d) sep t' t.
Proof. intros []; constructor. now apply says_flip. Qed.
Lemma line_flip d sep mark t t' : line d sep mark t t' -> line (flip_dict d) sep mark t' t.
Proof. intros [H [->|[E1 E2]]]; (split; [now apply tsays_flip|]); [now left|]. right. now split. Qed.
Lemma lines_flip d sep mark ts ts' : Forall2 (line d sep mark) ts ts' -> Forall2 (line (flip_dict d) sep mark) ts' ts.
Proof. apply F2_flip, line_flip. Qed.

(** ** Tokens for a node *)
Section Taking.
Variable d : dictionary.
Variable sep : ascii -> Prop.
Variable mark : bytes -> Prop.
Hypothesis Hd : faithful d sep.

Local Notation tr := (translated d).
Local Notation ln := (line d sep mark).
Local Notation pl := (plainly sep mark).

Lemma group_iff n n' t t' nm : tr n n' -> tsays d sep t t' -> group_for n t nm <-> group_for n' t' nm.
Proof.
  intros H Ht. split; [apply (group_tr d sep Hd); assumption|].
  apply (group_tr (flip_dict d) sep (faithful_flip _ _ Hd)); [now apply translated_flip|now apply tsays_flip].
Qed.

Lemma grouped_tr n n' t us t1 us1 t2 us2 : tr n n' -> tsays d sep t t2 -> Forall2 ln us us2 -> grouped n t us t1 us1 ->
  exists t1' us1', grouped n' t2 us2 t1' us1' /\ tsays d sep t1 t1' /\ Forall2 ln us1 us1'.
Proof.
  intros H Ht Hl Hg. revert Ht Hl. destruct Hg as [t us Hn|t nm g gs us Hn Hgs]; intros Ht Hl.
  - exists t2, us2. repeat split; [|exact Ht|exact Hl]. constructor. intros nm Hx.
    apply (Hn nm). now apply (group_iff _ _ _ _ nm H Ht).
  - exists (Tok PShort g), (map (Tok PShort) gs ++ us2). repeat split.
    + apply (group_some n' t2 nm); [|exact Hgs]. now apply (group_iff _ _ _ _ nm H Ht).
    + constructor.
    + apply F2_app; [apply line_flags|exact Hl].
Qed.

Lemma consumes_tr n n' ts ts' label vals rest : tr n n' -> pl n -> Forall2 ln ts ts' -> consumes n ts label vals rest ->
  exists label' vals' rest', consumes n' ts' label' vals' rest' /\ Forall2 (part d sep mark) vals vals' /\ Forall2 ln rest rest'.
Proof.
  intros H Hp Hl [t value us t1 us1 vs rs Hn Hf Hg Hm Hc|vs rs Hn Ht Hc].
  - destruct (fronted_tr d sep Hd mark _ _ _ _ _ _ _ H Hp Hl Hf) as (t2 & us2 & Hf' & Htt & Hl2).
    destruct (grouped_tr _ _ _ _ _ _ _ _ H Htt Hl2 Hg) as (t3 & us3 & Hg' & Ht3 & Hl3).
    destruct (counted_tr d sep mark n n' (value ++ us1) (value ++ us3) vs rs) as
        (vals' & rest' & pre & pre' & Hc' & Hv & Hr & E1 & E2 & L & L'); [exact H|exact Hp| |exact Hc|].
    { apply F2_app; [apply part_refl|apply line_part, Hl3]. }
    exists (Some (norm_token n' t3)), vals', rest'. repeat split; [|exact Hv|].
    + apply (consumes_named n' ts' t2 value us2 t3 us3); try assumption; [now rewrite (tr_named _ _ _ H)|].
      exact (match_norm d sep Hd _ _ _ _ H Ht3 Hm).
    + apply (rest_lines d sep mark n value us1 us3 vs rs rest' pre pre' Hp); try assumption.
      exact (fronted_value _ _ _ _ _ Hf).
  - destruct (counted_tr d sep mark n n' ts ts' vs rs) as
        (vals' & rest' & pre & pre' & Hc' & Hv & Hr & E1 & E2 & L & L'); [exact H|exact Hp| |exact Hc|].
    { apply line_part, Hl. }
    exists None, vals', rest'. repeat split; [|exact Hv|].
    + apply consumes_unnamed; [now rewrite (tr_named _ _ _ H)| |exact Hc'].
      intros ->. inversion Hl; subst. now apply Ht.
    + apply (rest_lines d sep mark n [] ts ts' vs rs rest' pre pre' Hp); try assumption.
      now left.
Qed.

Lemma unsplit_tr n n' ts ts' : tr n n' -> pl n -> Forall2 ln ts ts' -> unsplit n ts -> unsplit n' ts'.
Proof.
  intros H Hp Hl (ss & t & us & E & -> & Hs & H1 & H2). inversion Hl as [|? t' ? us' Ht Hus]; subst.
  destruct Ht as [Ht Hm]. exists ss, t', us'. split; [now rewrite (tr_separator _ _ _ H)|]. split; [reflexivity|].
  split; [|split; [exact (match_typed d sep Hd _ _ _ _ H Ht H1)|exact (match_norm d sep Hd _ _ _ _ H Ht H2)]].
  destruct Ht as [w w' Hw|g]; cbn [t_name] in *; [|exact Hs].
  apply (says_uncut d sep Hd w w' ss Hw); [|exact Hs]. intros e He. exact (pl_sep _ _ _ Hp _ _ E He).
Qed.

Lemma addressed_tr n n' ts ts' : tr n n' -> pl n -> Forall2 ln ts ts' -> addressed n ts -> addressed n' ts'.
Proof.
  intros H Hp Hl [[Hn Ha]|[Hn Ht]].
  - left. split; [now rewrite (tr_named _ _ _ H)|]. destruct Ha as [(t & value & us & t1 & us1 & Hf & Hg & Hm)|Hu].
    + left. destruct (fronted_tr d sep Hd mark _ _ _ _ _ _ _ H Hp Hl Hf) as (t2 & us2 & Hf' & Htt & Hl2).
      destruct (grouped_tr _ _ _ _ _ _ _ _ H Htt Hl2 Hg) as (t3 & us3 & Hg' & Ht3 & Hl3).
      exists t2, value, us2, t3, us3. repeat split; [exact Hf'|exact Hg'|].
      exact (match_norm d sep Hd _ _ _ _ H Ht3 Hm).
    + right. exact (unsplit_tr _ _ _ _ H Hp Hl Hu).
  - right. split; [now rewrite (tr_named _ _ _ H)|]. intros ->. inversion Hl; subst. now apply Ht.
Qed.

Lemma chokes_tr n n' ts ts' : tr n n' -> pl n -> Forall2 ln ts ts' -> chokes n ts -> chokes n' ts'.
Proof.
  intros H Hp Hl [(ss & t & us & l & c & s & E & -> & Et & Hs & Hc & Hlen)|[(t & value & us & Hf & nm & Hg & Hb)|(He & Hn & Hu)]].
  - left. inversion Hl as [|? t' ? us' Ht Hus]; subst. destruct Ht as [Ht Hm].
    destruct (tsays_cut d sep Hd t t' ss (t_prefix t) l c s Ht) as (l' & -> & H1 & H2);
      [intros e He; exact (pl_sep _ _ _ Hp _ _ E He)|destruct t; cbn in *; now subst|exact Hc|exact Hs|].
    exists ss, (Tok (t_prefix t) (l' ++ c :: s)), us', l', c, s.
    repeat split; try assumption. now rewrite (tr_separator _ _ _ H).
  - right; left. destruct (fronted_tr d sep Hd mark _ _ _ _ _ _ _ H Hp Hl Hf) as (t2 & us2 & Hf' & Htt & Hl2).
    exists t2, value, us2. split; [exact Hf'|]. exists nm. split; [now apply (group_iff _ _ _ _ nm H Htt)|].
    rewrite <- (nlen_len _ _ (F2_len _ _ _ Hl2)).
    destruct Hb as [Hb|[[-> Hb]|Hb]]; [now left| |right; right; exact Hb].
    right; left. split; [|exact Hb]. now inversion Hl2.
  - right; right. split; [now rewrite <- (tr_enabled_iff _ _ _ H)|]. split; [now rewrite (tr_named _ _ _ H)|].
    exact (unsplit_tr _ _ _ _ H Hp Hl Hu).
Qed.

Lemma names_mode_tr m m' ts ts' rest : tr m m' -> Forall2 ln ts ts' -> names_mode m ts rest ->
  exists rest', names_mode m' ts' rest' /\ Forall2 ln rest rest'.
Proof.
  intros H Hl (He & nm & Hn & ->). inversion Hl as [|? t' ? rest' Ht Hr]; subst. destruct Ht as [Ht _].
  destruct (bare_some _ _ _ _ H Hn) as (y & Hy & Hxy). exists rest'. split; [|exact Hr].
  split; [now apply (tr_enabled_iff _ _ _ H)|]. exists y. split; [exact Hy|].
  inversion Ht as [w w' Hw|]; subst. now rewrite (says_bare_word d sep Hd _ _ _ Hw Hxy).
Qed.
End Taking.

(** Both directions. *)
Section Both.
Variable d : dictionary.
Variable sep : ascii -> Prop.
Variable mark : bytes -> Prop.
Hypothesis Hd : faithful d sep.

Local Notation tr := (translated d).
Local Notation ln := (line d sep mark).
Local Notation pl := (plainly sep mark).

Ltac back := first [apply faithful_flip; assumption|apply translated_flip; eassumption|apply lines_flip; eassumption
  |eapply plainly_tr; eassumption].

Lemma addressed_iff n n' ts ts' : tr n n' -> pl n -> Forall2 ln ts ts' -> addressed n ts <-> addressed n' ts'.
Proof.
  intros H Hp Hl. split; [now apply (addressed_tr d sep mark Hd)|].
  apply (addressed_tr (flip_dict d) sep mark); back.
Qed.
Lemma chokes_iff n n' ts ts' : tr n n' -> pl n -> Forall2 ln ts ts' -> chokes n ts <-> chokes n' ts'.
Proof.
  intros H Hp Hl. split; [now apply (chokes_tr d sep mark Hd)|].
  apply (chokes_tr (flip_dict d) sep mark); back.
Qed.
Lemma names_mode_iff m m' ts ts' : tr m m' -> Forall2 ln ts ts' ->
  (exists rest, names_mode m ts rest) <-> (exists rest, names_mode m' ts' rest).
Proof.
  intros H Hl. split; intros (rest & Hr).
  - destruct (names_mode_tr d sep mark Hd _ _ _ _ _ H Hl Hr) as (r' & Hr' & _). now exists r'.
  - destruct (names_mode_tr (flip_dict d) sep mark (faithful_flip _ _ Hd) m' m ts' ts rest) as (r' & Hr' & _);
      [back|back|exact Hr|now exists r'].
Qed.

(** ** Modes *)
Lemma selects_tr m ps ts m1 ps1 ts1 : selects m ps ts m1 ps1 ts1 -> forall m' ps' ts', tr m m' -> Forall2 ln ts ts' ->
  exists m1' ps1' ts1', selects m' ps' ts' m1' ps1' ts1' /\ tr m1 m1' /\ Forall2 ln ts1 ts1'.
Proof.
  induction 1 as [m ps ts Hn|m ps ts rest Hm Hc|m ps ts rest before c after m1 ps1 ts1 Hm Hch Hi Hr Hb Hs IH];
    intros m' ps' ts' H Hl.
  - exists m', ps', ts'. repeat split; [|exact H|exact Hl]. constructor. exact (bare_none _ _ _ H Hn).
  - destruct (names_mode_tr d sep mark Hd _ _ _ _ _ H Hl Hm) as (rest' & Hm' & Hl').
    exists m', ps', rest'. repeat split; [|exact H|exact Hl']. apply sel_named; [exact Hm'|].
    intros c' r' Hc' Hi Hx. destruct (F2_in_r _ _ _ (tr_children _ _ _ H) _ Hc') as (c & Hcc & Htc).
    destruct (proj2 (names_mode_iff _ _ _ _ Htc Hl') (ex_intro _ r' Hx)) as (r & Hr).
    apply (Hc c r Hcc); [|exact Hr]. now rewrite <- (tr_mode _ _ _ Htc).
  - destruct (names_mode_tr d sep mark Hd _ _ _ _ _ H Hl Hm) as (rest' & Hm' & Hl').
    pose proof (tr_children _ _ _ H) as Hcs. rewrite Hch in Hcs.
    destruct (F2_split _ _ _ _ Hcs) as (before' & l2 & E & Hbb & Hl2).
    inversion Hl2 as [|? c' ? after' Hc' Ha]; subst.
    destruct (IH c' (m' :: ps') rest' Hc' Hl') as (m1' & ps1' & ts1' & Hs' & Hm1 & Hl1).
    exists m1', ps1', ts1'. repeat split; [|exact Hm1|exact Hl1].
    apply (sel_nested m' ps' ts' rest' before' c' after'); try assumption.
    + now rewrite (tr_mode _ _ _ Hc').
    + exact (proj1 (names_mode_iff _ _ _ _ Hc' Hl') Hr).
    + intros e' r' He' Hi' Hx. destruct (F2_in_r _ _ _ Hbb _ He') as (e & He & Hte).
      destruct (proj2 (names_mode_iff _ _ _ _ Hte Hl') (ex_intro _ r' Hx)) as (r & Hr').
      apply (Hb e r He); [|exact Hr']. now rewrite <- (tr_mode _ _ _ Hte).
Qed.

Lemma preorder_tr : forall n n' ps ps', tr n n' ->
  Forall2 tr (map fst (preorder n ps)) (map fst (preorder n' ps')).
Proof.
  induction n as [k i t pols cs IH] using node_ind'. intros n' ps ps' H. pose proof H as H0.
  inversion H as [? ? j ? ? pols' ? cs' Hi Hp Hc]; subst. cbn [preorder map]. constructor; [exact H0|].
  cbn [fst]. generalize (Node k i t pols cs :: ps) (Node k j t pols' cs' :: ps'). clear - IH Hc. intros up up'.
  induction Hc as [|c c' cs cs' H _ IHc]; [constructor|]. cbn [flat_map]. rewrite !map_app.
  apply F2_app; [apply (Forall_inv IH), H|apply IHc, (Forall_inv_tail IH)].
Qed.
Lemma below_tr n n' : tr n n' -> Forall2 tr (below n) (below n').
Proof. apply preorder_tr. Qed.

Definition entry_tr (x y : nat * node) : Prop := fst x = fst y /\ tr (snd x) (snd y).
Lemma entries_tr m m' : tr m m' -> Forall2 entry_tr (entries m) (entries m').
Proof.
  intros H. unfold entries. generalize (tr_children _ _ _ H) 0. generalize (n_children m) (n_children m'). clear m m' H.
  induction 1 as [|c c' cs cs' H _ IH]; intros i; [constructor|]. cbn [entries_from].
  rewrite (tr_mode _ _ _ H). destruct (is_mode c); [apply IH|]. apply F2_app; [|apply IH].
  apply (F2_map tr entry_tr); [|intros x y Hxy; split; [reflexivity|exact Hxy]].
  apply F2_filter; [now apply below_tr|]. intros x y _ Hxy. symmetry. exact (tr_argument _ _ _ Hxy).
Qed.

Lemma ref_is_tr r r' p p' : translated_ref d r r' -> translated_policy d p p' -> nameref_is r' p' = nameref_is r p.
Proof.
  assert (Hb : forall x y x' y', d_long d x y -> d_long d x' y' -> beq y y' = beq x x').
  { intros x y x' y' H H'. pose proof (f_long _ _ Hd _ _ _ _ H H') as E.
    destruct (beq x x') eqn:E1; [apply beq_eq in E1; apply beq_eq; now apply E|].
    destruct (beq y y') eqn:E2; [|reflexivity]. apply beq_eq in E2. apply E in E2. subst x'.
    now rewrite (proj2 (beq_eq x x) eq_refl) in E1. }
  intros [x y H|x] [x' y' H'|x' y' H'|xs ys H'|xs ys H'|q q' T T'|q W]; cbn [nameref_is]; try reflexivity.
  - now apply Hb.
  - destruct q; try discriminate; destruct q'; try discriminate; reflexivity.
  - destruct q; try discriminate; reflexivity.
  - destruct q; try discriminate; destruct q'; try discriminate; reflexivity.
Qed.
Lemma refers_tr ns ns' n n' : Forall2 (translated_ref d) ns ns' -> tr n n' -> refers_to ns' n' = refers_to ns n.
Proof.
  intros Hns H. unfold refers_to. induction Hns as [|r r' ns ns' Hr _ IH]; [reflexivity|]. cbn [existsb].
  rewrite IH. f_equal. generalize (tr_pols _ _ _ H). generalize (n_pols n) (n_pols n'). clear - Hr Hd.
  induction 1 as [|p p' ps ps' Hp _ IHp]; [reflexivity|]. cbn [existsb].
  now rewrite (ref_is_tr _ _ _ _ Hr Hp), IHp.
Qed.

Lemma alias_tr n n' : tr n n' ->
  match alias_of n, alias_of n' with
  | Some ns, Some ns' => Forall2 (translated_ref d) ns ns' | None, None => True | _, _ => False end.
Proof.
  intros H. unfold alias_of. generalize (tr_pols _ _ _ H). generalize (n_pols n) (n_pols n'). clear.
  induction 1 as [|p p' ps ps' H _ IH]; [exact I|]. cbn [first_some].
  destruct H; try exact IH; [exact H| |].
  - destruct p, p'; try discriminate; exact IH.
  - destruct p; try discriminate; exact IH.
Qed.
Lemma stands_tr m m' l l' : tr m m' -> tr l l' -> Forall2 tr (stands_for m l) (stands_for m' l').
Proof.
  intros Hm Hl. unfold stands_for. generalize (alias_tr _ _ Hl).
  destruct (alias_of l) as [ns|], (alias_of l') as [ns'|]; try contradiction.
  - intros Hns. apply F2_filter; [now apply below_tr|]. intros x y _ Hxy. symmetry. now apply refers_tr.
  - intros _. constructor; [exact Hl|constructor].
Qed.
End Both.

Lemma entry_flip d x y : entry_tr d x y -> entry_tr (flip_dict d) y x.
Proof. intros [E H]. split; [now symmetry|now apply translated_flip]. Qed.
Lemma entries_flip d l l' : Forall2 (entry_tr d) l l' -> Forall2 (entry_tr (flip_dict d)) l' l.
Proof. apply F2_flip, entry_flip. Qed.

Lemma entry_below m i l : In (i, l) (entries m) -> In l (below m).
Proof. intros H. destruct (entry_argument _ _ _ H) as (c & Hc & _ & Hl). exact (below_child _ _ _ Hc Hl). Qed.

(** ** Reading *)
Section Reading.
Variable d : dictionary.
Variable sep : ascii -> Prop.
Variable mark : bytes -> Prop.
Hypothesis Hd : faithful d sep.

Local Notation tr := (translated d).
Local Notation ln := (line d sep mark).
Local Notation pl := (plainly sep mark).
Local Notation en := (entry_tr d).

Lemma same_node m x y x' y' : distinct_types m -> In x (below m) -> In y (below m) -> tr x x' -> tr y y' ->
  n_id x' = n_id y' -> x = y.
Proof.
  intros Hm Hx Hy H1 H2 E. apply (nodup_map_inj _ _ Hm _ _ Hx Hy).
  apply (f_type _ _ Hd _ _ _ _ (tr_type _ _ _ H1) (tr_type _ _ _ H2)). exact E.
Qed.

Lemma choice_tr m m' i : tr m m' -> is_choice m i -> is_choice m' i.
Proof.
  intros H (c & inst & Hc & Hk). revert i Hc. generalize (tr_children _ _ _ H).
  unfold is_choice. generalize (n_children m) (n_children m'). clear m m' H.
  induction 1 as [|x y cs cs' H _ IH]; intros i Hc; [destruct i; discriminate|].
  destruct i as [|i]; cbn [nth_error] in *; [|now apply IH].
  injection Hc as ->. exists y, inst. split; [reflexivity|]. now rewrite (tr_kind _ _ _ H).
Qed.
Lemma used_tr done done' i : Forall2 en done done' -> used done i -> used done' i.
Proof.
  intros H (l & Hl). destruct (F2_in _ _ _ H _ Hl) as ((j & l') & Hl' & E & _). cbn in E. subst j. now exists l'.
Qed.
Lemma excluded_tr m m' done done' i l l' : tr m m' -> distinct_types m -> Forall2 en done done' ->
  (forall j k, In (j, k) done -> In k (below m)) -> In l (below m) -> tr l l' ->
  excluded m done i l -> excluded m' done' i l'.
Proof.
  intros Hm Hdm Hdone Hb Hl Htl (Hc & k & Hk & Hne). split; [exact (choice_tr _ _ _ Hm Hc)|].
  destruct (F2_in _ _ _ Hdone _ Hk) as ((j & k') & Hk' & E & Htk). cbn in E, Htk. subst j.
  exists k'. split; [exact Hk'|]. intros ->. apply Hne.
  exact (same_node m k l l' l' Hdm (Hb _ _ Hk) Hl Htk Htl eq_refl).
Qed.
End Reading.

Section Reading2.
Variable d : dictionary.
Variable sep : ascii -> Prop.
Variable mark : bytes -> Prop.
Hypothesis Hd : faithful d sep.

Local Notation tr := (translated d).
Local Notation ln := (line d sep mark).
Local Notation pl := (plainly sep mark).
Local Notation en := (entry_tr d).

Lemma used_iff done done' i : Forall2 en done done' -> used done i <-> used done' i.
Proof.
  intros H. split; [exact (used_tr d _ _ _ H)|]. exact (used_tr (flip_dict d) _ _ _ (entries_flip _ _ _ H)).
Qed.

(** The mode and what was typed so far. *)
Variables m m' : node.
Hypothesis Hm : tr m m'.
Hypothesis Hdm : distinct_types m.
Hypothesis Hdm' : distinct_types m'.

Lemma entries_seen x done : incl done (entries x) -> forall j k, In (j, k) done -> In k (below x).
Proof. intros H j k Hk. exact (entry_below _ _ _ (H _ Hk)). Qed.

Lemma excluded_iff done done' i l l' : Forall2 en done done' -> incl done (entries m) -> incl done' (entries m') ->
  In l (below m) -> In l' (below m') -> tr l l' -> excluded m done i l <-> excluded m' done' i l'.
Proof.
  intros H Hs Hs' Hl Hl' Ht. split.
  - exact (excluded_tr d sep Hd m m' done done' i l l' Hm Hdm H (entries_seen _ _ Hs) Hl Ht).
  - exact (excluded_tr (flip_dict d) sep (faithful_flip _ _ Hd) m' m done' done i l' l (translated_flip _ _ _ Hm) Hdm'
             (entries_flip _ _ _ H) (entries_seen _ _ Hs') Hl' (translated_flip _ _ _ Ht)).
Qed.

Lemma passes_tr done done' ts ts' i l l' : Forall2 en done done' -> incl done (entries m) -> incl done' (entries m') ->
  In l (below m) -> In l' (below m') -> tr l l' -> pl l -> Forall2 ln ts ts' ->
  passes m done ts i l -> passes m' done' ts' i l'.
Proof.
  intros H Hs Hs' Hl Hl' Ht Hp Hts [H1 H2]. split; [now rewrite <- (chokes_iff d sep mark Hd _ _ _ _ Ht Hp Hts)|].
  rewrite <- (addressed_iff d sep mark Hd _ _ _ _ Ht Hp Hts), <- (tr_enabled_iff _ _ _ Ht).
  destruct H2 as [H2|[H2|(Hn & Hst & Hu & Hx)]]; [now left|now right; left|]. right; right.
  split; [now rewrite (tr_named _ _ _ Ht)|]. split; [now rewrite (tr_hasstage _ _ _ Ht)|].
  split; [now apply (used_iff _ _ _ H)|]. now rewrite <- (excluded_iff _ _ i _ _ H Hs Hs' Hl Hl' Ht).
Qed.

Lemma allowed_tr done done' i l l' : Forall2 en done done' -> incl done (entries m) -> incl done' (entries m') ->
  In l (below m) -> In l' (below m') -> tr l l' -> allowed m done i l -> allowed m' done' i l'.
Proof.
  intros H Hs Hs' Hl Hl' Ht [H1 H2]. split; [|now rewrite <- (excluded_iff _ _ i _ _ H Hs Hs' Hl Hl' Ht)].
  rewrite (tr_hasstage _ _ _ Ht), <- (used_iff _ _ _ H). exact H1.
Qed.

Lemma dependent_in l l' ns' : tr l l' -> In (PDependent ns') (n_pols l') ->
  exists ns, In (PDependent ns) (n_pols l) /\ Forall2 (translated_ref d) ns ns'.
Proof.
  intros H Hi. destruct (F2_in_r _ _ _ (tr_pols _ _ _ H) _ Hi) as (p & Hp & E).
  inversion E; subst; try discriminate. eexists; split; eassumption.
Qed.

Lemma dependencies_tr done done' l l' : Forall2 en done done' -> incl done (entries m) -> incl done' (entries m') ->
  tr l l' -> dependencies m done l -> dependencies m' done' l'.
Proof.
  intros H Hs Hs' Ht Hdep ns' e' Hns' He' Hr'.
  destruct (dependent_in _ _ _ Ht Hns') as (ns & Hns & Hnn).
  destruct (F2_in_r _ _ _ (below_tr _ _ _ Hm) _ He') as (e & He & Hte).
  rewrite (refers_tr d sep Hd _ _ _ _ Hnn Hte) in Hr'.
  destruct (Hdep ns e Hns He Hr') as ((i & a) & Ha & Hea). cbn [snd] in Hea.
  destruct (F2_in _ _ _ H _ Ha) as ((j & a') & Ha' & _ & Hta). cbn [snd] in Hta.
  destruct (F2_in _ _ _ (stands_tr d sep Hd _ _ _ _ Hm Hta) _ Hea) as (e2 & He2 & Hte2).
  exists (j, a'). split; [exact Ha'|]. cbn [snd]. replace e' with e2; [exact He2|].
  apply (same_node (flip_dict d) sep (faithful_flip _ _ Hd) m' e2 e' e e Hdm').
  - exact (stands_below _ _ _ (entry_below _ _ _ (Hs' _ Ha')) He2).
  - exact He'.
  - now apply translated_flip.
  - now apply translated_flip.
  - reflexivity.
Qed.

Definition item_tr (x y : item) : Prop :=
  tr (i_node x) (i_node y) /\ In (i_node x) (below m) /\ In (i_node y) (below m') /\ i_values x = i_values y.

Lemma part_same vals vals' : (forall v, In v vals -> no_word d sep (t_name v)) ->
  Forall2 (part d sep mark) vals vals' -> vals' = vals.
Proof.
  intros Hn H. induction H as [|v v' vals vals' Hv _ IH]; [reflexivity|]. f_equal.
  - destruct Hv as [[Ht _]|Hv]; [|now symmetry]. destruct Ht as [w w' Hw|g]; [|reflexivity].
    f_equal. apply (says_no_word d sep _ _ Hw). exact (Hn _ (or_introl eq_refl)).
  - apply IH. intros u Hu. apply Hn. now right.
Qed.

Lemma reading_tr done ts items : reading m done ts items -> (forall l, In l (below m) -> is_argument l = true -> pl l) ->
  (forall it v, In it items -> In v (i_values it) -> no_word d sep (t_name v)) ->
  forall done' ts', Forall2 en done done' -> incl done (entries m) -> incl done' (entries m') -> Forall2 ln ts ts' ->
  exists items', reading m' done' ts' items' /\ Forall2 item_tr items items'.
Proof.
  intros Hr Hpl. induction Hr as [done|done ts before i l after label vals rest items He Hb Hch Hen Hc Ha Hdep Hr IH];
    intros Hv done' ts' Hdone Hs Hs' Hl.
  - inversion Hl; subst. exists []. split; constructor.
  - pose proof (entries_tr _ _ _ Hm) as Hent. rewrite He in Hent.
    destruct (F2_split _ _ _ _ Hent) as (before' & rest0 & E' & Hbb & H2).
    inversion H2 as [|? x ? after' Hx Haa]; subst. destruct x as [i' l']. destruct Hx as [Ei Htl].
    cbn [fst snd] in Ei, Htl. subst i'.
    assert (Hin : In (i, l) (entries m)). { rewrite He. apply in_or_app. right. now left. }
    assert (Hin' : In (i, l') (entries m')). { rewrite E'. apply in_or_app. right. now left. }
    assert (Hlb := entry_below _ _ _ Hin). assert (Hlb' := entry_below _ _ _ Hin').
    assert (Harg : forall j k, In (j, k) (entries m) -> pl k).
    { intros j k Hk. apply Hpl; [exact (entry_below _ _ _ Hk)|].
      apply entries_in in Hk. destruct Hk as (? & _ & _ & _ & Hk). exact Hk. }
    destruct (consumes_tr d sep mark Hd _ _ _ _ _ _ _ Htl (Harg _ _ Hin) Hl Hc) as
        (label' & vals' & rest' & Hc' & Hvv & Hrr).
    assert (vals' = vals) as ->.
    { apply part_same; [|exact Hvv]. intros v Hiv. exact (Hv _ v (or_introl eq_refl) Hiv). }
    destruct (IH (fun it v Hit Hiv => Hv it v (or_intror Hit) Hiv) ((i, l') :: done') rest') as (items' & Hr' & Hitems).
    + constructor; [split; [reflexivity|exact Htl]|exact Hdone].
    + intros x [<-|Hx]; [exact Hin|now apply Hs].
    + intros x [<-|Hx]; [exact Hin'|now apply Hs'].
    + exact Hrr.
    + exists (Item l' label' vals :: items'). split.
      * apply (reading_cons m' done' ts' before' i l' after' label' vals rest'); try assumption.
        -- intros j k' Hk'. destruct (F2_in_r _ _ _ Hbb _ Hk') as ((j0 & k) & Hk & Ej & Htk). cbn in Ej, Htk. subst j0.
           assert (Hk1 : In (j, k) (entries m)) by (rewrite He; apply in_or_app; now left).
           apply (passes_tr done done' ts ts' j k k' Hdone Hs Hs'); try assumption.
           ++ exact (entry_below _ _ _ Hk1).
           ++ apply (entry_below _ j). rewrite E'. apply in_or_app. now left.
           ++ exact (Harg _ _ Hk1).
           ++ exact (Hb _ _ Hk).
        -- now rewrite <- (chokes_iff d sep mark Hd _ _ _ _ Htl (Harg _ _ Hin) Hl).
        -- now apply (tr_enabled_iff _ _ _ Htl).
        -- exact (allowed_tr _ _ i _ _ Hdone Hs Hs' Hlb Hlb' Htl Ha).
        -- exact (dependencies_tr _ _ _ _ Hdone Hs Hs' Htl Hdep).
      * constructor; [|exact Hitems]. cbn. repeat split; assumption.
Qed.

(** ** Values *)
Lemma in_range_tr l l' v : tr l l' -> in_range l v -> in_range l' v.
Proof.
  intros H Hr mn mx lt Hi. destruct (F2_in_r _ _ _ (tr_pols _ _ _ H) _ Hi) as (p & Hp & E).
  inversion E; subst; try discriminate. exact (Hr _ _ _ Hp).
Qed.
Lemma value_of_tr l l' vals v : tr l l' -> value_of l vals v -> value_of l' vals v.
Proof.
  intros H Hv. assert (Hr : forall s x, reads_as l s x -> reads_as l' s x).
  { intros s x. unfold reads_as. now rewrite (tr_parser _ _ _ H), (tr_vty _ _ _ H). }
  destruct Hv as [vals Hk|c t ts v Hk Hc Hs Hi|c Hk Hc Hi|c ts vs Hk Hc Hs Hi].
  - constructor. now rewrite (tr_kind _ _ _ H).
  - apply (value_single l' c); [now rewrite (tr_kind _ _ _ H)|now rewrite (tr_vty _ _ _ H)|now apply Hr|].
    exact (in_range_tr _ _ _ H Hi).
  - rewrite <- (tr_vty _ _ _ H) in *. apply (value_empty l' c); [now rewrite (tr_kind _ _ _ H)|exact Hc|].
    exact (in_range_tr _ _ _ H Hi).
  - apply (value_list l' c); [now rewrite (tr_kind _ _ _ H)|now rewrite (tr_vty _ _ _ H)| |].
    + revert Hs. apply F2_impl. intros x y. apply Hr.
    + exact (in_range_tr _ _ _ H Hi).
Qed.

Definition asg_tr (x y : node * list token) : Prop := tr (fst x) (fst y) /\ snd x = snd y.

Lemma belongs_tr c c' l l' : tr c c' -> tr l l' -> belongs c' l' = belongs c l.
Proof.
  intros Hc Hl. unfold belongs. induction (below_tr _ _ _ Hc) as [|x y xs ys Hx _ IH]; [reflexivity|]. cbn [existsb].
  rewrite IH. f_equal. pose proof (f_type _ _ Hd _ _ _ _ (tr_type _ _ _ Hx) (tr_type _ _ _ Hl)) as E.
  destruct (N.eqb_spec (n_id x) (n_id l)) as [E1|E1].
  - apply N.eqb_eq. now apply E.
  - apply N.eqb_neq. intros E2. apply E1. now apply E.
Qed.
Lemma for_child_tr c c' asg asg' : tr c c' -> Forall2 asg_tr asg asg' ->
  Forall2 asg_tr (for_child c asg) (for_child c' asg').
Proof.
  intros Hc H. apply F2_filter; [exact H|]. intros x y _ [Hxy _]. symmetry. now apply belongs_tr.
Qed.
Lemma gathered_tr o asg r : gathered o asg r -> forall asg', Forall2 asg_tr asg asg' -> gathered o asg' r.
Proof.
  induction 1 as [o|o l vals v merge more r Hv Hms _ IH|l vals v more r Hv Hms _ IH]; intros asg' H;
    inversion H as [|? y ? more' Hx Hmore]; subst; [constructor| |]; destruct y as [l' vals']; destruct Hx as [Htl E];
    cbn [fst snd] in Htl, E; subst vals'.
  - apply (gathered_stage o l' vals v merge); [exact (value_of_tr _ _ _ _ Htl Hv)|now rewrite (tr_stage _ _ _ Htl)|].
    now apply IH.
  - apply (gathered_once l' vals v); [exact (value_of_tr _ _ _ _ Htl Hv)|now rewrite (tr_stage _ _ _ Htl)|].
    now apply IH.
Qed.
Lemma default_tr c c' : tr c c' -> default_values c' = default_values c.
Proof.
  intros H. unfold default_values. induction (tr_pols _ _ _ H) as [|p p' ps ps' Hp _ IH]; [reflexivity|].
  cbn [flat_map]. rewrite IH. f_equal.
  destruct Hp; try reflexivity. destruct p; try discriminate; destruct p'; try discriminate; reflexivity.
Qed.
Lemma mandatory_iff c c' : tr c c' -> mandatory c' -> mandatory c.
Proof.
  intros H Hc. pose proof (translated_flip _ _ _ H) as Hf. destruct Hc as [Hc|(v & Hc)].
  - left. exact (tr_pol_in _ _ _ PRequired Hf eq_refl Hc).
  - right. exists v. exact (tr_pol_in _ _ _ (PRuntimeEnableRequired true v) Hf eq_refl Hc).
Qed.
Lemma repeatable_back c c' : tr c c' -> repeatable c' -> repeatable c.
Proof.
  intros H [Hc|(e' & He' & Hs)].
  - left. now rewrite <- (tr_hasstage _ _ _ H).
  - right. destruct (F2_in_r _ _ _ (tr_children _ _ _ H) _ He') as (e & He & Hte). exists e. split; [exact He|].
    now rewrite <- (tr_hasstage _ _ _ Hte).
Qed.
Lemma delivered_tr c c' asg asg' v : tr c c' -> Forall2 asg_tr asg asg' -> delivered c asg v -> delivered c' asg' v.
Proof.
  intros H Ha [v' Hg Hr|v' Hf Hn Hl Hi].
  - apply delivered_typed.
    + exact (gathered_tr _ _ _ Hg _ (for_child_tr _ _ _ _ H Ha)).
    + intros Hx. apply (in_range_tr _ _ _ H), Hr. exact (repeatable_back _ _ H Hx).
  - apply delivered_missing.
    + pose proof (for_child_tr _ _ _ _ H Ha) as Hfc. rewrite Hf in Hfc. now inversion Hfc.
    + intros Hx. apply Hn. exact (mandatory_iff _ _ H Hx).
    + now rewrite (default_tr _ _ H), (tr_vty _ _ _ H).
    + exact (in_range_tr _ _ _ H Hi).
Qed.
Lemma deliveries_tr asg asg' vs : Forall2 asg_tr asg asg' -> deliveries m asg vs -> deliveries m' asg' vs.
Proof.
  intros Ha [H1 H2]. split.
  - apply Forall_forall. intros y Hy. destruct (F2_in_r _ _ _ Ha _ Hy) as (x & Hx & Ht & E).
    rewrite Forall_forall in H1. destruct (H1 _ Hx) as (v & Hv). exists v. rewrite <- E.
    exact (value_of_tr _ _ _ _ Ht Hv).
  - assert (Hrc : Forall2 tr (router_children m) (router_children m')).
    { apply F2_filter; [exact (tr_children _ _ _ Hm)|]. intros x y _ Hxy. now rewrite (tr_noresult _ _ _ Hxy). }
    revert vs H2. induction Hrc as [|c c' cs cs' Hc _ IH]; intros vs H2; inversion H2; subst; constructor.
    + eapply delivered_tr; eassumption.
    + now apply IH.
Qed.

Lemma assigned_tr items items' : Forall2 item_tr items items' ->
  Forall2 asg_tr (flat_map (assigned m) items) (flat_map (assigned m') items').
Proof.
  intros H. apply (F2_flat item_tr); [exact H|]. intros x y _ (Ht & _ & _ & E). unfold assigned.
  apply (F2_map tr); [exact (stands_tr d sep Hd _ _ _ _ Hm Ht)|]. intros e e' He. split; [exact He|exact E].
Qed.
End Reading2.

(** ** Whole command lines *)
Lemma accepted_plainly r n : accepted r = true -> In n (below r) -> plainly (separates r) (marks r) n.
Proof.
  intros Ha Hn. constructor.
  - intros ss c E Hc. exists n, ss. repeat split; assumption.
  - intros m E. exists n. split; assumption.
  - intros Hs. unfold below in Hn. apply in_map_iff in Hn. destruct Hn as ((n0 & ps) & E & Hn). cbn in E. subst n0.
    apply accepted_compiles in Ha. destruct Ha as [_ Ha]. apply placed_preorder in Hn.
    destruct (Ha _ _ Hn) as (Hu & _ & Hp). apply counts_iff; [exact Hu|].
    destruct (value_separator n) as [ss|] eqn:E; [|congruence].
    assert (Hi : In (PValueSeparator ss) (n_pols n)).
    { clear - E. unfold value_separator in E. induction (n_pols n) as [|p pols IH]; [discriminate|].
      cbn [first_some] in E. destruct p; try (right; now apply IH). injection E as ->. now left. }
    apply (Hp _ Hi).
Qed.

Lemma separates_tr d r r' c : translated d r r' -> separates r c <-> separates r' c.
Proof.
  assert (Hx : forall d r r', translated d r r' -> separates r c -> separates r' c).
  { intros e x x' H (n & ss & Hn & Hs & Hc). destruct (F2_in _ _ _ (below_tr _ _ _ H) _ Hn) as (n' & Hn' & Ht).
    exists n', ss. repeat split; [exact Hn'| |exact Hc]. now rewrite (tr_separator _ _ _ Ht). }
  intros H. split; [now apply (Hx d)|]. apply (Hx (flip_dict d)). now apply translated_flip.
Qed.
Lemma marks_tr d r r' s : translated d r r' -> marks r s <-> marks r' s.
Proof.
  assert (Hx : forall d r r', translated d r r' -> marks r s -> marks r' s).
  { intros e x x' H (n & Hn & Hs). destruct (F2_in _ _ _ (below_tr _ _ _ H) _ Hn) as (n' & Hn' & Ht).
    exists n'. split; [exact Hn'|]. now rewrite (tr_marker _ _ _ Ht). }
  intros H. split; [now apply (Hx d)|]. apply (Hx (flip_dict d)). now apply translated_flip.
Qed.

Section Whole.
Variable d : dictionary.
Variables r r' : node.
Hypothesis Hd : faithful d (separates r).
Hypothesis Hr : translated d r r'.
Hypothesis Wr : well_formed r.
Hypothesis Wr' : well_formed r'.

Local Notation tr := (translated d).
Local Notation ln := (line d (separates r) (marks r)).

Lemma passed_tr ts ts' c c' : tr c c' -> In c (n_children r) -> Forall2 ln ts ts' ->
  passed_over ts c -> passed_over ts' c'.
Proof.
  intros H Hc Hl. assert (Hp : plainly (separates r) (marks r) c).
  { apply accepted_plainly; [exact (wf_accepted _ Wr)|]. exact (below_child _ _ _ Hc (below_self c)). }
  unfold passed_over. rewrite (tr_mode _ _ _ H). destruct (is_mode c).
  - intros [Hn Hx]. split.
    + intros E. apply Hn. apply (bare_none (flip_dict d) c' c); [now apply translated_flip|exact E].
    + intros rest Hm. destruct (proj2 (names_mode_iff d _ _ Hd _ _ _ _ H Hl) (ex_intro _ rest Hm)) as (rest0 & Hm0).
      exact (Hx _ Hm0).
  - rewrite <- (chokes_iff d _ _ Hd _ _ _ _ H Hp Hl), <- (addressed_iff d _ _ Hd _ _ _ _ H Hp Hl).
    now rewrite <- (tr_enabled_iff _ _ _ H).
Qed.

Lemma routes_tr ts ts' n vs : Forall2 ln ts ts' -> plain_values d r ts -> routes r ts n vs ->
  exists n', tr n n' /\ routes r' ts' n' vs.
Proof.
  intros Hl Hv (before & c & after & Hcs & Hb & Hmn).
  pose proof (tr_children _ _ _ Hr) as Hch. rewrite Hcs in Hch.
  destruct (F2_split _ _ _ _ Hch) as (before' & l2 & E & Hbb & Hl2).
  inversion Hl2 as [|? c' ? after' Hc Haa]; subst.
  assert (Hin : In c (n_children r)) by (rewrite Hcs; apply in_or_app; right; now left).
  assert (Hin' : In c' (n_children r')) by (rewrite E; apply in_or_app; right; now left).
  assert (Hb' : forall x', In x' before' -> passed_over ts' x').
  { intros x' Hx'. destruct (F2_in_r _ _ _ Hbb _ Hx') as (x & Hx & Htx).
    apply (passed_tr ts ts' x x' Htx); [rewrite Hcs; apply in_or_app; now left|exact Hl|now apply Hb]. }
  assert (Hcb := below_child _ _ _ Hin (below_self c)).
  pose proof (fun x => accepted_plainly r x (wf_accepted _ Wr)) as Hpl.
  destruct Hmn as [m ps ts1 items vs Hmode Hsel Hrt Hrd Hdel|label vals v Hmode Hk Hch0 Hen Hcon Hval].
  - destruct (selects_tr d _ _ Hd _ _ _ _ _ _ Hsel c' [r'] ts' Hc Hl) as (m' & ps' & ts1' & Hsel' & Htm & Hl1).
    assert (Hmode' : is_mode c' = true) by now rewrite (tr_mode _ _ _ Hc).
    destruct (selects_below _ _ _ _ _ _ Hsel Hmode) as [Hm1 Hm2].
    destruct (selects_below _ _ _ _ _ _ Hsel' Hmode') as [Hm1' Hm2'].
    assert (Hmb : In m (below r)) by exact (below_child _ _ _ Hin Hm1).
    assert (Hmb' : In m' (below r')) by exact (below_child _ _ _ Hin' Hm1').
    destruct (reading_tr d _ (marks r) Hd m m' Htm (wf_distinct _ Wr _ Hmb Hm2) (wf_distinct _ Wr' _ Hmb' Hm2') [] ts1 items Hrd)
      with (done' := @nil (nat * node)) (ts' := ts1') as (items' & Hrd' & Hit).
    + intros l Hlb _. apply Hpl. exact (below_trans _ _ _ Hmb Hlb).
    + intros it v Hit Hiv. apply Hv. left. exists m, ts1, items, it. repeat split; [|exact Hit|exact Hiv].
      exists before, c, after, ps. repeat split; assumption.
    + constructor.
    + intros x [].
    + intros x [].
    + exact Hl1.
    + exists m'. split; [exact Htm|]. exists before', c', after'. repeat split; [exact E|exact Hb'|].
      apply (means_mode r' c' ts' m' ps' ts1' items'); try assumption; [now rewrite (tr_router _ _ _ Htm)|].
      refine (deliveries_tr d _ Hd m m' Htm _ _ _ _ Hdel).
      exact (assigned_tr d _ Hd m m' Htm _ _ Hit).
  - destruct (consumes_tr d _ _ Hd _ _ _ _ _ _ _ Hc (Hpl _ Hcb) Hl Hcon) as (label' & vals' & rest' & Hcon' & Hvv & Hrr).
    inversion Hrr; subst. assert (vals' = vals) as ->.
    { apply (part_same d (separates r) (marks r)); [|exact Hvv]. intros u Hu. apply Hv. right.
      exists c, label, vals. repeat split; assumption. }
    exists c'. split; [exact Hc|]. exists before', c', after'. repeat split; [exact E|exact Hb'|].
    apply (means_argument r' c' ts' label' vals).
    + now rewrite (tr_mode _ _ _ Hc).
    + now rewrite (tr_kind _ _ _ Hc).
    + now rewrite <- (chokes_iff d _ _ Hd _ _ _ _ Hc (Hpl _ Hcb) Hl).
    + now apply (tr_enabled_iff _ _ _ Hc).
    + exact Hcon'.
    + exact (value_of_tr d _ _ _ _ Hc Hval).
Qed.
End Whole.

Lemma same_words_lines d r ws ws' : same_words d r ws ws' ->
  Forall2 (line d (separates r) (marks r)) (to_tokens ws) (to_tokens ws').
Proof.
  intros H. unfold to_tokens. apply (F2_map (fun w w' => says d (separates r) w w' /\ (w = w' \/ ~ marks r w /\ ~ marks r w')));
    [exact H|]. intros w w' [H1 H2]. split; [now constructor|]. destruct H2 as [->|H2]; [now left|right; exact H2].
Qed.

Theorem translated_run d r r' mem mem' ws ws' n vs :
  translated d r r' -> faithful d (separates r) -> fresh r mem (to_tokens ws) -> fresh r' mem' (to_tokens ws') ->
  same_words d r ws ws' -> plain_values d r (to_tokens ws) ->
  calls_router r mem (to_tokens ws) n vs ->
  exists n', translated d n n' /\ calls_router r' mem' (to_tokens ws') n' vs.
Proof.
  intros Ht Hf Hr Hr' Hw Hp Hc. apply (fresh_routes _ _ _ _ _ Hr) in Hc.
  destruct (routes_tr d r r' Hf Ht (fr_tree _ _ _ Hr) (fr_tree _ _ _ Hr') _ _ n vs (same_words_lines _ _ _ _ Hw) Hp Hc)
    as (n' & Hn & H').
  exists n'. split; [exact Hn|]. now apply (fresh_routes _ _ _ _ _ Hr').
Qed.

(** A property of separators and markers that does not depend on how they are given. *)
Lemma suffix_ext (s s' : ascii -> Prop) v : (forall c, s c <-> s' c) -> suffix s v -> suffix s' v.
Proof. intros H [->|(c & t & -> & Hc)]; [now left|]. right. exists c, t. split; [reflexivity|now apply H]. Qed.
Lemma no_word_ext d (s s' : ascii -> Prop) w : (forall c, s c <-> s' c) -> no_word d s w -> no_word d s' w.
Proof. intros H Hn x v E Hv. apply (Hn x v E). apply (suffix_ext s'); [|exact Hv]. intros c. symmetry. apply H. Qed.
Lemma says_ext d (s s' : ascii -> Prop) w w' : (forall c, s c <-> s' c) -> says d s w w' -> says d s' w w'.
Proof.
  intros H [x y v Hx Hv|x y v Hx Hv|u Hu].
  - apply says_long; [exact Hx|exact (suffix_ext _ _ _ H Hv)].
  - apply says_bare; [exact Hx|exact (suffix_ext _ _ _ H Hv)].
  - apply says_other. exact (no_word_ext _ _ _ _ H Hu).
Qed.
Lemma faithful_ext d (s s' : ascii -> Prop) : (forall c, s c <-> s' c) -> faithful d s -> faithful d s'.
Proof.
  intros H [H1 H2 H3 H4 H5 H6].
  assert (Hu : forall x, unseparated s x -> unseparated s' x).
  { intros x Hx c Hc Hs. apply (Hx c Hc). now apply H. }
  constructor; try assumption.
  - intros x y Hxy. destruct (H4 _ _ Hxy). split; now apply Hu.
  - intros x y Hxy. destruct (H5 _ _ Hxy). split; now apply Hu.
Qed.

Theorem translated_back d r r' mem mem' ws ws' n' vs :
  translated d r r' -> faithful d (separates r) -> fresh r mem (to_tokens ws) -> fresh r' mem' (to_tokens ws') ->
  same_words d r ws ws' -> plain_values d r' (to_tokens ws') ->
  calls_router r' mem' (to_tokens ws') n' vs ->
  exists n, translated d n n' /\ calls_router r mem (to_tokens ws) n vs.
Proof.
  intros Ht Hf Hr Hr' Hw Hp Hc. pose proof (fun c => separates_tr d r r' c Ht) as Hs.
  destruct (translated_run (flip_dict d) r' r mem' mem ws' ws n' vs) as (n & Hn & H); try assumption.
  - now apply translated_flip.
  - apply faithful_flip. exact (faithful_ext _ _ _ Hs Hf).
  - revert Hw. apply F2_flip. intros w w' [H1 H2]. split.
    + apply says_flip. exact (says_ext _ _ _ _ _ Hs H1).
    + destruct H2 as [->|[H2 H3]]; [now left|]. right. rewrite <- !(marks_tr d r r' _ Ht). now split.
  - intros t Htv. apply no_word_flip. exact (Hp t Htv).
  - exists n. split; [|exact H]. rewrite <- (flip_flip d). now apply translated_flip.
Qed.

(** What the accessors of a node mean in terms of its policies: C67. *)
From Verif Require Import Bytes Token Result CodePoint Utf8 Tree PreParse Validator.
From Verif Require Import SpecRules SpecNode TokenProofs TreeProofs RulesProofs.
Local Open Scope list_scope.

Lemma first_some_member {B} (f : policy -> option B) l y : first_some f l = Some y -> exists q, In q l /\ f q = Some y.
Proof.
  induction l as [|a l IH]; [discriminate|]. cbn [first_some].
  destruct (f a) eqn:E; [intros [= <-]; exists a; split; [now left|exact E]|]. intros F.
  destruct (IH F) as (q & Hq & ?). exists q; split; [now right|easy].
Qed.

Lemma says_first {A} (f : policy -> option A) (mk : A -> policy) k n : uniq n ->
  (forall x, f (mk x) = Some x) -> (forall q x, f q = Some x -> q = mk x) -> (forall x, kind_of (mk x) = k) ->
  (forall q, kind_of q = k -> is_some (f q) = true) -> says n mk (first_some f (n_pols n)).
Proof.
  intros Hu Hf Hg Hk Ha. unfold says. destruct (first_some f (n_pols n)) as [x|] eqn:E.
  - apply first_some_member in E as (q & Hq & E). now rewrite <- (Hg _ _ E).
  - intros x Hin. rewrite (first_some_sel f k n (mk x) x Hu) in E; [discriminate| |exact Hin|apply Hf].
    intros q. split; [|apply Ha]. intros G. destruct (f q) as [y|] eqn:Ey; [|discriminate]. rewrite (Hg _ _ Ey). apply Hk.
Qed.
Ltac saying k := apply (says_first _ _ k); [assumption|reflexivity|intros q x; destruct q; cbn; congruence|reflexivity
  |intros q; destruct q; cbn; congruence].

Lemma says_long n : uniq n -> says n PLongName (long_name n). Proof. intros. saying k_long. Qed.
Lemma says_short n : uniq n -> says n PShortName (short_name n). Proof. intros. saying k_short. Qed.
Lemma says_none n : uniq n -> says n PNoneName (none_name n). Proof. intros. saying k_none. Qed.
Lemma says_display n : uniq n -> says n PDisplayName (display_name n). Proof. intros. saying k_display. Qed.
Lemma says_error n : uniq n -> says n PErrorName (error_name n). Proof. intros. saying k_error. Qed.
Lemma says_description n : uniq n -> says n PDescription (description n). Proof. intros. saying k_description. Qed.
Lemma says_separator n : uniq n -> says n PValueSeparator (value_separator n). Proof. intros. saying k_separator. Qed.
Lemma says_marker n : uniq n -> says n PTokenEndMarker (token_end_marker n). Proof. intros. saying k_end_marker. Qed.
Lemma says_stage n : uniq n -> says n PMultiStage (multi_stage n). Proof. intros. saying k_multi_stage. Qed.
Lemma says_parser n : uniq n -> says n PCustomParser (custom_parser n). Proof. intros. saying k_parser. Qed.
Lemma says_count n : uniq n -> says n (fun c => PMinMaxCount (fst c) (snd c)) (count_bounds n).
Proof.
  intros. apply (says_first _ _ k_count); [assumption|intros [? ?]; reflexivity| |reflexivity|intros q; destruct q; cbn; congruence].
  intros q x; destruct q; cbn; try discriminate. intros [= <-]. reflexivity.
Qed.

Lemma says_fun {A} n (mk : A -> policy) k o o' : uniq n -> (forall x, kind_of (mk x) = k) -> (forall x y, mk x = mk y -> x = y) ->
  says n mk o -> says n mk o' -> o = o'.
Proof.
  intros Hu Hk Hi H G. destruct o as [x|], o' as [y|]; cbn [says] in *.
  - f_equal. apply Hi. apply (uniq_same n); auto. now rewrite !Hk.
  - destruct (G _ H).
  - destruct (H _ G).
  - reflexivity.
Qed.
Lemma says_some {A} n (mk : A -> policy) k o x : uniq n -> (forall x, kind_of (mk x) = k) -> (forall x y, mk x = mk y -> x = y) ->
  says n mk o -> (o = Some x <-> In (mk x) (n_pols n)).
Proof.
  intros Hu Hk Hi H. split; [intros ->; exact H|]. intros Hin. apply (says_fun n mk k _ (Some x) Hu Hk Hi H Hin).
Qed.

Lemma long_some n x : uniq n -> long_name n = Some x <-> In (PLongName x) (n_pols n).
Proof. intros Hu. apply (says_some n PLongName k_long); [assumption|reflexivity|congruence|now apply says_long]. Qed.
Lemma short_some n x : uniq n -> short_name n = Some x <-> In (PShortName x) (n_pols n).
Proof. intros Hu. apply (says_some n PShortName k_short); [assumption|reflexivity|congruence|now apply says_short]. Qed.
Lemma none_some n x : uniq n -> none_name n = Some x <-> In (PNoneName x) (n_pols n).
Proof. intros Hu. apply (says_some n PNoneName k_none); [assumption|reflexivity|congruence|now apply says_none]. Qed.
Lemma display_some n x : uniq n -> display_name n = Some x <-> In (PDisplayName x) (n_pols n).
Proof. intros Hu. apply (says_some n PDisplayName k_display); [assumption|reflexivity|congruence|now apply says_display]. Qed.
Lemma error_some n x : uniq n -> error_name n = Some x <-> In (PErrorName x) (n_pols n).
Proof. intros Hu. apply (says_some n PErrorName k_error); [assumption|reflexivity|congruence|now apply says_error]. Qed.

Lemma switched_iff n o : uniq n -> (has n k_enable -> ~ has n k_enable_required) -> switched n o <-> runtime_enabled n = o.
Proof.
  intros Hu Hx.
  assert (F : forall e, runtime_enabled n = Some e <-> In (PRuntimeEnable e) (n_pols n) \/ exists d, In (PRuntimeEnableRequired e d) (n_pols n)).
  { intros e. unfold runtime_enabled. set (f := fun p => match p with PRuntimeEnable e => Some e | PRuntimeEnableRequired e _ => Some e | _ => None end).
    assert (M : forall y, first_some f (n_pols n) = Some y -> In (PRuntimeEnable y) (n_pols n) \/ exists d, In (PRuntimeEnableRequired y d) (n_pols n)).
    { intros y E. apply first_some_member in E as (q & Hq & E). destruct q; try discriminate E; injection E as <-; eauto. }
    split; [apply M|]. intros H.
    assert (exists y, first_some f (n_pols n) = Some y) as [y E].
    { destruct (first_some f (n_pols n)) eqn:E; [eauto|]. exfalso.
      assert (G : forall q, In q (n_pols n) -> f q = None).
      { clear - E. induction (n_pols n) as [|a l IH]; [intros ? []|]. cbn [first_some] in E. destruct (f a) eqn:Ea; [discriminate|].
        intros q [<-|Hq]; auto. }
      destruct H as [H|[d H]]; apply G in H; discriminate. }
    rewrite E. f_equal. destruct (M _ E) as [G|[d G]], H as [H|[d' H]].
    - assert (Q : PRuntimeEnable y = PRuntimeEnable e) by (apply (uniq_same n); auto). congruence.
    - exfalso. apply Hx; [exists (PRuntimeEnable y)|exists (PRuntimeEnableRequired e d')]; auto.
    - exfalso. apply Hx; [exists (PRuntimeEnable e)|exists (PRuntimeEnableRequired y d)]; auto.
    - assert (Q : PRuntimeEnableRequired y d = PRuntimeEnableRequired e d') by (apply (uniq_same n); auto). congruence. }
  split.
  - intros H. destruct H as [e H|e d H|H]; [apply F; auto|apply F; eauto|].
    destruct (runtime_enabled n) as [e|] eqn:E; [|reflexivity]. exfalso. destruct (proj1 (F e) eq_refl) as [G|[d G]].
    + apply (H k_enable); [now left|]. exists (PRuntimeEnable e). auto.
    + apply (H k_enable_required); [right; now left|]. exists (PRuntimeEnableRequired e d). auto.
  - intros <-. destruct (runtime_enabled n) as [e|] eqn:E.
    + destruct (proj1 (F e) eq_refl) as [G|[d G]]; [now constructor|now apply switched_required with d].
    + apply switched_not. intros k [<-|[<-|[]]] (p & Hp & K).
      * destruct p; try discriminate K. assert (None = Some enabled) by (apply F; auto). discriminate.
      * destruct p; try discriminate K. assert (None = Some enabled) by (apply F; eauto). discriminate.
Qed.

Lemma dash_app s : starts_with short_prefix s = true <-> exists y, s = b "-" ++ y.
Proof.
  split; [apply starts_with_app|]. intros [y ->]. reflexivity.
Qed.
Lemma dashes_app s : starts_with long_prefix s = true <-> exists y, s = b "--" ++ y.
Proof.
  split; [apply starts_with_app|]. intros [y ->]. reflexivity.
Qed.

Lemma spelled_iff n s t : uniq n -> (has n k_none -> lacks n [k_long; k_short]) ->
  spelled n s t <-> norm_token n (Tok PNone s) = t /\ match_node n t = true.
Proof.
  intros Hu Hn. unfold norm_token, node_get_token. cbn [t_prefix t_name]. unfold match_node. split.
  - intros H. destruct H as [x Hx|x Hx Hd|x Hx].
    + apply long_some in Hx; [|exact Hu]. rewrite Hx. cbn [is_some]. unfold get_token_type_for. cbn [andb].
      change (starts_with long_prefix (b "--" ++ x)) with true. cbn [andb]. split; [reflexivity|].
      cbn [t_prefix t_name prefix_eqb andb]. now rewrite beq_refl.
    + apply short_some in Hx; [|exact Hu]. rewrite Hx. unfold get_token_type_for.
      assert (E : starts_with long_prefix (b "-" ++ x) = false).
      { apply not_true_iff_false. intros G. apply dashes_app in G as [y G]. apply (Hd y). now injection G as ->. }
      rewrite E, andb_false_r. change (starts_with short_prefix (b "-" ++ x)) with true. cbn [is_some andb negb].
      split; [reflexivity|]. cbn [t_prefix t_name prefix_eqb andb]. rewrite beq_refl. apply orb_true_iff. left. now rewrite orb_true_r.
    + assert (L : lacks n [k_long; k_short]) by (apply Hn; exists (PNoneName x); auto).
      apply none_some in Hx; [|exact Hu]. rewrite Hx. rewrite !lacks_cons in L. destruct L as (L1 & L2 & _).
      rewrite long_hb, short_hb, L1, L2. unfold get_token_type_for. cbn [andb]. split; [reflexivity|].
      cbn [t_prefix t_name prefix_eqb andb]. rewrite beq_refl. apply orb_true_r.
  - intros [<- H]. unfold get_token_type_for in *.
    destruct (is_some (long_name n) && starts_with long_prefix s) eqn:E1.
    { apply andb_true_iff in E1 as [E1 E2]. apply dashes_app in E2 as [y ->].
      change (skipn (List.length long_prefix) (b "--" ++ y)) with y in *.
      cbn [t_prefix t_name prefix_eqb andb] in H. destruct (long_name n) as [x|] eqn:El; [|discriminate].
      assert (beq y x = true). { destruct (short_name n), (none_name n); rewrite ?orb_false_r in H; exact H. }
      apply beq_eq in H0. subst y. constructor. now apply long_some. }
    destruct (is_some (short_name n) && (starts_with short_prefix s && negb (starts_with long_prefix s))) eqn:E2.
    { apply andb_true_iff in E2 as [E2 E3]. apply andb_true_iff in E3 as [E3 E4]. apply negb_true_iff in E4.
      apply dash_app in E3 as [y ->]. change (skipn (List.length short_prefix) (b "-" ++ y)) with y in *.
      cbn [t_prefix t_name prefix_eqb andb] in H. destruct (short_name n) as [x|] eqn:El; [|discriminate].
      assert (beq y x = true). { destruct (long_name n), (none_name n); cbn [orb] in H; rewrite ?orb_false_r in H; exact H. }
      apply beq_eq in H0. subst y. constructor; [now apply short_some|]. intros z ->. discriminate E4. }
    cbn [t_prefix t_name prefix_eqb andb] in H.
    assert (G : match none_name n with Some s' => beq s s' | None => false end = true).
    { destruct (long_name n), (short_name n); exact H. }
    destruct (none_name n) as [x|] eqn:El; [|discriminate]. apply beq_eq in G. subst x. constructor. now apply none_some.
Qed.

Lemma shown_iff n t : uniq n -> named_by n [k_error; k_display; k_long; k_short; k_none] -> shown n t <-> node_token n = t.
Proof.
  intros Hu Hn. unfold node_token. split.
  - intros H.
    destruct H as [x Hx|x Hx L|x Hx L|x Hx L|x Hx L].
    2-5: rewrite ?lacks_cons in L; rewrite <- ?error_hb, <- ?display_hb, <- ?long_hb, <- ?short_hb in L.
    + apply error_some in Hx; [|exact Hu]. now rewrite Hx.
    + apply display_some in Hx; [|exact Hu]. destruct L as (L1 & _). rewrite Hx. now destruct (error_name n).
    + apply long_some in Hx; [|exact Hu]. destruct L as (L1 & L2 & _). rewrite Hx. now destruct (error_name n), (display_name n).
    + apply short_some in Hx; [|exact Hu]. destruct L as (L1 & L2 & L3 & _). rewrite Hx.
      now destruct (error_name n), (display_name n), (long_name n).
    + apply none_some in Hx; [|exact Hu]. destruct L as (L1 & L2 & L3 & L4 & _). rewrite Hx.
      now destruct (error_name n), (display_name n), (long_name n), (short_name n).
  - intros <-. rewrite !named_by_cons, named_by_nil, <- error_hb, <- display_hb, <- long_hb, <- short_hb, <- none_hb in Hn.
    destruct (error_name n) as [x|] eqn:E1; [apply shown_error; now apply error_some|].
    assert (L1 : hb n k_error = false) by (rewrite <- error_hb, E1; reflexivity).
    destruct (display_name n) as [x|] eqn:E2; [apply shown_display; [now apply display_some|rewrite lacks_cons, lacks_nil; auto]|].
    assert (L2 : hb n k_display = false) by (rewrite <- display_hb, E2; reflexivity).
    destruct (long_name n) as [x|] eqn:E3; [apply shown_long; [now apply long_some|rewrite !lacks_cons, lacks_nil; auto]|].
    assert (L3 : hb n k_long = false) by (rewrite <- long_hb, E3; reflexivity).
    destruct (short_name n) as [x|] eqn:E4; [apply shown_short; [now apply short_some|rewrite !lacks_cons, lacks_nil; auto]|].
    assert (L4 : hb n k_short = false) by (rewrite <- short_hb, E4; reflexivity).
    destruct (none_name n) as [x|] eqn:E5; [apply shown_none; [now apply none_some|rewrite !lacks_cons, lacks_nil; auto]|].
    exfalso. cbn [is_some] in Hn. intuition discriminate.
Qed.

Lemma refers_to_iff ns n : refers_to ns n = true <-> exists r p, In r ns /\ In p (n_pols n) /\ refers r p.
Proof.
  unfold refers_to. rewrite existsb_exists. split.
  - intros (r & Hr & H). apply existsb_exists in H as (p & Hp & H). apply refers_iff in H. eauto.
  - intros (r & p & Hr & Hp & H). exists r. split; [exact Hr|]. apply existsb_exists. exists p. split; [exact Hp|].
    now apply refers_iff.
Qed.

Lemma listing_iff n : forall parents l, listing n parents l <-> l = preorder n parents.
Proof.
  induction n as [k id ty pols cs IH] using node_ind'. rewrite Forall_forall in IH. intros parents l. rewrite preorder_eq.
  cbn [n_children]. set (n := Node k id ty pols cs) in *. rewrite flat_map_concat_map. split.
  - intros H. inversion H as [m ps lss Hc E1 E2 E3]. subst m ps l. f_equal. f_equal. cbn [n_children] in Hc.
    change (n_children n) with cs in Hc. clear - IH Hc. clearbody n. induction Hc as [|c ls cs lss Hx _ IHc]; [reflexivity|]. cbn [map].
    f_equal; [apply IH; [now left|exact Hx]|]. apply IHc. intros x Hx'. apply (IH x). now right.
  - intros ->. constructor. change (n_children n) with cs. clear - IH. clearbody n. induction cs as [|c cs IHc]; cbn [map]; constructor.
    + apply IH; [now left|reflexivity].
    + apply IHc. intros x Hx. apply (IH x). now right.
Qed.

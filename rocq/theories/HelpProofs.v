(** Proofs about the help argument (C35) and the help text (C34, C43, C59-C61). *)
From Coq Require Import Lia.
From Verif Require Import Bytes Token Result CodePoint Utf8 Tree PreParse Parse Root Validator Digits Help.
From Verif Require Import SpecTokens SpecTake SpecMode SpecDeliver SpecRoot SpecReading SpecLines SpecHelp.
From Verif Require Import Utf8Proofs LineProofs TokenProofs OrderProofs NodeProofs TakeProofs ModeProofs MeaningProofs RootProofs ReadProofs ExactProofs.
Notation fits := SpecTake.fits.

(** ** Finding the target *)

Definition one_kind_of_name (n : node) : Prop :=
  none_name n <> None -> long_name n = None /\ short_name n = None.

Lemma get_for_long hl hs s l : get_token_type_for hl hs s = Tok PLong l -> s = long_prefix ++ l.
Proof.
  unfold get_token_type_for. destruct (hl && starts_with long_prefix s) eqn:E.
  - intros H. assert (l = skipn (List.length long_prefix) s) as -> by congruence.
    apply andb_true_iff in E as [_ E]. symmetry. now apply starts_with_skipn.
  - destruct (hs && _); discriminate.
Qed.

Lemma get_for_short hl hs s l : get_token_type_for hl hs s = Tok PShort l -> s = short_prefix ++ l.
Proof.
  unfold get_token_type_for. destruct (hl && starts_with long_prefix s) eqn:E; [discriminate|].
  destruct (hs && _) eqn:F; [|discriminate]. intros H.
  assert (l = skipn (List.length short_prefix) s) as -> by congruence.
  apply andb_true_iff in F as [_ F]. apply andb_true_iff in F as [F _]. symmetry. now apply starts_with_skipn.
Qed.

Lemma get_for_none hl hs s l : get_token_type_for hl hs s = Tok PNone l -> s = l.
Proof.
  unfold get_token_type_for. destruct (hl && _); [discriminate|]. destruct (hs && _); [discriminate|].
  now intros [= <-].
Qed.

Lemma answers_iff n s : one_kind_of_name n -> plain_short n ->
  match_node n (node_get_token n s) = true <-> called_by n s.
Proof.
  intros Ho Hp. unfold called_by, typed_names, typed_behind, node_get_token. change (b "--") with long_prefix. change (b "-") with short_prefix. split.
  - destruct (get_token_type_for _ _ s) as [p l] eqn:E. unfold match_node. cbn [t_prefix t_name].
    intros H. apply orb_true_iff in H as [H|H]; [apply orb_true_iff in H as [H|H]|].
    + destruct (long_name n) as [x|]; [|discriminate]. apply andb_true_iff in H as [H1 H2].
      destruct p; try discriminate. apply beq_eq in H2. subst l. apply get_for_long in E. left. now symmetry.
    + destruct (short_name n) as [x|]; [|discriminate]. apply andb_true_iff in H as [H1 H2].
      destruct p; try discriminate. apply beq_eq in H2. subst l. apply get_for_short in E.
      apply in_or_app. right. left. now symmetry.
    + destruct (none_name n) as [x|]; [|discriminate]. apply andb_true_iff in H as [H1 H2].
      destruct p; try discriminate. apply beq_eq in H2. subst l. apply get_for_none in E. subst x.
      apply in_or_app. right. apply in_or_app. right. now left.
  - intros H. apply in_app_or in H as [H|H]; [|apply in_app_or in H as [H|H]].
    + destruct (long_name n) as [x|] eqn:El; [|destruct H]. destruct H as [<-|[]].
      unfold get_token_type_for. cbn [is_some andb].
      assert (Hs : starts_with long_prefix (long_prefix ++ x) = true) by (apply starts_with_app; eauto).
      rewrite Hs. unfold match_node. rewrite El. cbn [t_prefix t_name List.length skipn app long_prefix prefix_eqb].
      now rewrite beq_refl.
    + destruct (short_name n) as [x|] eqn:Es; [|destruct H]. destruct H as [<-|[]].
      assert (Hs : starts_with short_prefix (short_prefix ++ x) = true) by (apply starts_with_app; eauto).
      assert (Hl : starts_with long_prefix (short_prefix ++ x) = false).
      { specialize (Hp x Es). destruct x as [|c x]; [reflexivity|]. cbn in Hp |- *. exact Hp. }
      unfold get_token_type_for. rewrite Hl, Hs. cbn [is_some andb negb]. rewrite andb_false_r.
      unfold match_node. rewrite Es. cbn [t_prefix t_name List.length skipn app short_prefix prefix_eqb andb].
      rewrite beq_refl. now rewrite orb_true_r.
    + destruct (none_name n) as [x|] eqn:En; [|destruct H]. destruct H as [<-|[]].
      destruct Ho as [El Es]; [congruence|]. rewrite El, Es. unfold get_token_type_for. cbn [is_some andb].
      unfold match_node. rewrite En. cbn [t_prefix t_name prefix_eqb andb]. rewrite beq_refl. now rewrite orb_true_r.
Qed.

Definition nameable (n : node) : Prop :=
  forall c, In c (below n) -> one_kind_of_name c /\ plain_short c.

Lemma nameable_child n c : nameable n -> In c (n_children n) -> nameable c.
Proof. intros H Hc d Hd. apply H. now apply (below_child c). Qed.

Lemma find_first (f : node -> bool) l c : find f l = Some c ->
  exists before after, l = before ++ c :: after /\ f c = true /\ forall d, In d before -> f d = false.
Proof.
  induction l as [|d l IH]; cbn [find]; intros H; [discriminate|]. destruct (f d) eqn:E.
  - injection H as <-. exists [], l. repeat split; auto. intros d' [].
  - destruct (IH H) as (x & y & -> & Hf & Hb). exists (d :: x), y. repeat split; auto.
    intros d' [<-|Hd]; auto.
Qed.

Lemma find_at (f : node -> bool) before c after : f c = true -> (forall d, In d before -> f d = false) ->
  find f (before ++ c :: after) = Some c.
Proof.
  intros Hc. induction before as [|d l IH]; intros Hb; cbn [app find]; [now rewrite Hc|].
  rewrite (Hb d (or_introl eq_refl)). apply IH. intros e He. apply Hb. now right.
Qed.

Lemma answers_child n c s : nameable n -> In c (n_children n) ->
  match_node c (node_get_token c s) = true <-> called_by c s.
Proof.
  intros Hn Hc. destruct (Hn c) as [H1 H2]; [apply (below_child c); [easy|apply below_self]|].
  now apply answers_iff.
Qed.

Lemma called_false n c s : nameable n -> In c (n_children n) ->
  match_node c (node_get_token c s) = false <-> ~ called_by c s.
Proof.
  intros Hn Hc. pose proof (answers_child n c s Hn Hc) as H. destruct (match_node _ _); split; intro G; auto.
  - discriminate.
  - exfalso. apply G. now apply H.
  - intro K. apply H in K. discriminate.
Qed.

Lemma next_child n before c after s : nameable n -> n_children n = before ++ c :: after ->
  called_by c s -> (forall d, In d before -> ~ called_by d s) ->
  find (fun c => match_node c (node_get_token c s)) (n_children n) = Some c.
Proof.
  intros Hn Hc Hs Hb. rewrite Hc. apply find_at.
  - apply (answers_child n); auto. rewrite Hc. apply in_or_app. right. now left.
  - intros d Hd. apply (called_false n); auto. rewrite Hc. apply in_or_app. now left.
Qed.

(** What the search for the target comes to. *)
Inductive outcome_of (n : node) (ts : list token) : res node -> Prop :=
| oo_found t : path n (map t_name ts) t -> outcome_of n ts (Ok t)
| oo_lost u : In u ts -> lost n (map t_name ts) (t_name u) -> outcome_of n ts (Throw (EML unknown_argument [u]))
| oo_off u us : reaches_off n (map t_name ts) (map t_name (u :: us)) -> (exists b, ts = b ++ u :: us) ->
    outcome_of n ts (Throw (EML unknown_argument [u]))
| oo_ub : reaches_off n (map t_name ts) [] -> outcome_of n ts UB.

Lemma enabled_cases n : {enabled n} + {runtime_enabled n = Some false}.
Proof. unfold enabled. destruct (runtime_enabled n) as [[]|]; [left|right|left]; congruence. Qed.

Lemma target_outcome ts : forall n, nameable n -> outcome_of n ts (find_help_target ts n).
Proof.
  induction ts as [|t ts IH]; intros n Hn; cbn [find_help_target].
  - destruct (enabled_cases n) as [He|He].
    + assert (H : outcome_of n [] (Ok n)) by (apply oo_found; now constructor).
      destruct (runtime_enabled n) as [[]|] eqn:E; auto. now destruct He.
    + rewrite He. apply oo_ub. constructor. unfold enabled. congruence.
  - destruct (enabled_cases n) as [He|He].
    + assert (H : outcome_of n (t :: ts)
               match find (fun c => match_node c (node_get_token c (t_name t))) (n_children n) with
               | Some c => find_help_target ts c
               | None => Throw (EML unknown_argument [t])
               end).
      { destruct (find _ _) as [c|] eqn:E.
        - apply find_first in E as (before & after & Hc & Hm & Hb).
          assert (Hin : In c (n_children n)) by (rewrite Hc; apply in_or_app; right; now left).
          apply (answers_child n) in Hm; auto.
          assert (Hb' : forall d, In d before -> ~ called_by d (t_name t)).
          { intros d Hd. apply (called_false n); auto. rewrite Hc. apply in_or_app. now left. }
          pose proof (IH c (nameable_child n c Hn Hin)) as [t' H|u Hu H|u us H [b' Hu]|H].
          + apply oo_found. cbn [map]. eapply path_child; eassumption.
          + apply oo_lost; [now right|]. cbn [map]. eapply lost_below; eassumption.
          + apply oo_off with us; [cbn [map]; eapply off_below; eassumption|]. exists (t :: b'). now rewrite Hu.
          + apply oo_ub. cbn [map]. eapply off_below; eassumption.
        - apply oo_lost; [now left|]. cbn [map]. apply lost_here; [easy|]. intros c Hc.
          apply (called_false n); auto. exact (find_none _ _ E c Hc). }
      destruct (runtime_enabled n) as [[]|] eqn:E; auto. now destruct He.
    + rewrite He. apply (oo_off n (t :: ts) t ts); [|now exists []]. constructor. unfold enabled. congruence.
Qed.

Lemma split_unique {A} (P : A -> Prop) b1 c1 a1 b2 c2 a2 : b1 ++ c1 :: a1 = b2 ++ c2 :: a2 ->
  P c1 -> P c2 -> (forall d, In d b1 -> ~ P d) -> (forall d, In d b2 -> ~ P d) -> c1 = c2.
Proof.
  revert b2. induction b1 as [|x b1 IH]; intros [|y b2] E H1 H2 N1 N2; cbn in E; injection E as E0 E; auto.
  - exfalso. apply (N2 y); [now left|now subst].
  - exfalso. apply (N1 x); [now left|now subst].
  - apply (IH b2); auto; intros d Hd; [apply N1|apply N2]; now right.
Qed.

Ltac same_child :=
  match goal with
  | E1 : n_children ?n = ?b1 ++ ?c1 :: ?a1, E2 : n_children ?n = ?b2 ++ ?c2 :: ?a2,
    C1 : called_by ?c1 ?s, C2 : called_by ?c2 ?s |- _ =>
      assert (c1 = c2) by
        (apply (split_unique (fun c => called_by c s) b1 c1 a1 b2 c2 a2); auto; congruence); subst c2
  end.

Lemma path_det n names t : path n names t -> forall u, path n names u -> u = t.
Proof.
  induction 1 as [n He|n bf c af s names t He Hc Hs Hb Hp IH]; intros u Hu; inversion Hu; subst; auto.
  same_child. auto.
Qed.

Lemma path_not_lost n names t : path n names t -> forall s, ~ lost n names s.
Proof.
  induction 1 as [n He|n bf c af s names t He Hc Hs Hb Hp IH]; intros x Hu; inversion Hu; subst.
  - match goal with Hn : forall c, In c (n_children n) -> _ |- _ => apply (Hn c); auto end.
    rewrite Hc. apply in_or_app. right. now left.
  - same_child. now apply (IH x).
Qed.

Lemma path_not_off n names t : path n names t -> forall s, ~ reaches_off n names s.
Proof.
  induction 1 as [n He|n bf c af s names t He Hc Hs Hb Hp IH]; intros x Hu; inversion Hu; subst; try contradiction.
  same_child. now apply (IH x).
Qed.

Lemma lost_det n names s : lost n names s -> forall x, lost n names x -> x = s.
Proof.
  induction 1 as [n s names He Hc|n bf c af s names x He Hc Hs Hb Hp IH]; intros y Hu; inversion Hu; subst; auto.
  - exfalso. apply (Hc c); auto. match goal with E : n_children n = _ |- _ => rewrite E end.
    apply in_or_app. right. now left.
  - exfalso. match goal with Hn : forall c, In c (n_children n) -> _ |- _ => apply (Hn c); auto end.
    rewrite Hc. apply in_or_app. right. now left.
  - same_child. now apply IH.
Qed.

Lemma lost_not_off n names s : lost n names s -> forall x, ~ reaches_off n names x.
Proof.
  induction 1 as [n s names He Hc|n bf c af s names x He Hc Hs Hb Hp IH]; intros y Hu; inversion Hu; subst; try contradiction.
  - apply (Hc c); auto. match goal with E : n_children n = _ |- _ => rewrite E end.
    apply in_or_app. right. now left.
  - same_child. now apply (IH y).
Qed.

Lemma off_det n names s : reaches_off n names s -> forall x, reaches_off n names x -> x = s.
Proof.
  induction 1 as [n names He|n bf c af s names x He Hc Hs Hb Hp IH]; intros y Hu; inversion Hu; subst; try contradiction; auto.
  same_child. now apply IH.
Qed.

Lemma map_tok_names names : map t_name (map (Tok PNone) names) = names.
Proof. rewrite map_map. cbn. apply map_id. Qed.

Lemma tok_in names u : In u (map (Tok PNone) names) -> u = Tok PNone (t_name u).
Proof. intros H. apply in_map_iff in H as (x & <- & _). reflexivity. Qed.

Lemma target_found n names t : nameable n ->
  find_help_target (map (Tok PNone) names) n = Ok t <-> path n names t.
Proof.
  intros Hn. pose proof (target_outcome (map (Tok PNone) names) n Hn) as H.
  split; intros G.
  - rewrite G in H. inversion H as [t' Hp Hq| | |]. rewrite map_tok_names in Hp. now subst.
  - inversion H as [t' Hp Hq|u Hu Hl Hq|u us Hr _ Hq|Hr Hq]; rewrite map_tok_names in *.
    + f_equal. eapply path_det; eassumption.
    + now apply (path_not_lost n names t G) in Hl.
    + now apply (path_not_off n names t G) in Hr.
    + now apply (path_not_off n names t G) in Hr.
Qed.

Lemma target_lost n names s : nameable n -> lost n names s ->
  find_help_target (map (Tok PNone) names) n = Throw (EML unknown_argument [Tok PNone s]).
Proof.
  intros Hn G. pose proof (target_outcome (map (Tok PNone) names) n Hn) as H.
  inversion H as [t' Hp Hq|u Hu Hl Hq|u us Hr _ Hq|Hr Hq]; rewrite map_tok_names in *.
  - now apply (path_not_lost _ _ _ Hp) in G.
  - rewrite (tok_in names u Hu), <- (lost_det _ _ _ G _ Hl). reflexivity.
  - now apply (lost_not_off _ _ _ G) in Hr.
  - now apply (lost_not_off _ _ _ G) in Hr.
Qed.

Lemma target_off n names s more : nameable n -> reaches_off n names (s :: more) ->
  find_help_target (map (Tok PNone) names) n = Throw (EML unknown_argument [Tok PNone s]).
Proof.
  intros Hn G. pose proof (target_outcome (map (Tok PNone) names) n Hn) as H.
  inversion H as [t' Hp Hq|u Hu Hl Hq|u us Hr [b' Hb] Hq|Hr Hq]; rewrite map_tok_names in *.
  - now apply (path_not_off _ _ _ Hp) in G.
  - now apply (lost_not_off _ _ _ Hl) in G.
  - pose proof (off_det _ _ _ G _ Hr) as E. injection E as E _.
    assert (Hu : In u (map (Tok PNone) names)) by (rewrite Hb; apply in_or_app; right; now left).
    now rewrite (tok_in names u Hu), E.
  - pose proof (off_det _ _ _ G _ Hr). discriminate.
Qed.

Lemma target_off_ub n names : nameable n -> reaches_off n names [] ->
  find_help_target (map (Tok PNone) names) n = UB.
Proof.
  intros Hn G. pose proof (target_outcome (map (Tok PNone) names) n Hn) as H.
  inversion H as [t' Hp Hq|u Hu Hl Hq|u us Hr _ Hq|Hr Hq]; rewrite map_tok_names in *.
  - now apply (path_not_off _ _ _ Hp) in G.
  - now apply (lost_not_off _ _ _ Hl) in G.
  - pose proof (off_det _ _ _ G _ Hr). discriminate.
  - reflexivity.
Qed.

(** ** The command line *)

Lemma tag_absent t n p : has_tag t n = false -> pol_tag p = t -> ~ In p (n_pols n).
Proof.
  unfold has_tag. intros H <- Hp. assert (E : existsb (fun q => N.eqb (pol_tag q) (pol_tag p)) (n_pols n) = true); [|congruence].
  apply existsb_exists. exists p. split; [easy|apply N.eqb_refl].
Qed.

Lemma first_some_none {A B} (f : A -> option B) l : (forall x, In x l -> f x = None) -> first_some f l = None.
Proof.
  induction l as [|x l IH]; intros H; [reflexivity|]. cbn [first_some]. rewrite (H x (or_introl eq_refl)).
  apply IH. intros y Hy. apply H. now right.
Qed.

Lemma first_some_in {A B} (f : A -> option B) l y : first_some f l = Some y -> exists x, In x l /\ f x = Some y.
Proof.
  induction l as [|x l IH]; cbn [first_some]; intros H; [discriminate|]. destruct (f x) eqn:E.
  - injection H as <-. exists x. split; [now left|easy].
  - destruct (IH H) as (z & Hz & Ez). exists z. split; [now right|easy].
Qed.

Record plain_help (h : node) : Prop := {
  ph_enabled : enabled h;
  ph_no_sep : value_separator h = None;
  ph_no_exp : ~ In PShortFormExpander (n_pols h);
  ph_count : count_bounds h = Some (0%N, size_max);
  ph_named : is_named h = true;
  ph_none : none_name h = None;
}.

Lemma help_plain h tp : node_ok (h, tp) = true -> n_kind h = KHelp -> plain_help h.
Proof.
  intros Hok Hk. apply node_ok_policies in Hok as (Hst & Hru & Hp).
  unfold node_static in Hst. unfold node_rules in Hru. rewrite Hk in Hst, Hru.
  unfold must_not_have in Hru. cbn [forallb] in Hru.
  repeat match goal with Hx : _ && _ = true |- _ => apply andb_true_iff in Hx as [? ?] end.
  repeat match goal with Hx : negb _ = true |- _ => apply negb_true_iff in Hx end.
  assert (Hcb : count_bounds h = Some (0%N, size_max)).
  { destruct (count_bounds h) as [[mn mx]|]; [|discriminate].
    match goal with Hx : N.eqb mn 0 && _ = true |- _ => apply andb_true_iff in Hx as [E1 E2] end.
    apply N.eqb_eq in E1, E2. now subst. }
  constructor; auto.
  - unfold enabled, runtime_enabled. rewrite first_some_none; [discriminate|]. intros p Hin.
    destruct p; try reflexivity; exfalso.
    + eapply (tag_absent tag_runtime_enable h); [assumption| |exact Hin]. reflexivity.
    + match goal with Hx : has_missing_phase h = false |- _ =>
        enough (has_missing_phase h = true) by congruence end.
      unfold has_missing_phase. apply existsb_exists. eexists. split; [exact Hin|reflexivity].
  - destruct (value_separator h) as [s|] eqn:E; [|reflexivity]. exfalso. unfold value_separator in E.
    apply first_some_in in E as (p & Hin & E). destruct p; try discriminate. injection E as ->.
    destruct (Hp _ Hin) as [Hps _]. cbn [policy_static] in Hps. rewrite Hcb in Hps.
    repeat match goal with Hx : _ && _ = true |- _ => apply andb_true_iff in Hx as [? ?] end. discriminate.
  - eapply (tag_absent tag_expander h); [assumption|reflexivity].
  - unfold is_named. unfold has_lname, has_sname in *.
    match goal with Hx : is_some (long_name h) || is_some (short_name h) = true |- _ => rewrite Hx end. reflexivity.
  - unfold has_nname in *. now destruct (none_name h).
Qed.

Lemma skip_tried f r : well_formed r -> forall before rest s, (forall c, In c before -> In c (n_children r)) ->
  unset r (p_mem s) -> fits (p_args s) -> args_weight (p_args s) <= f -> p_args s <> [] ->
  (forall d, In d before -> passed_over (p_args s) d) ->
  root_try f r (before ++ rest) s = root_try f r rest s.
Proof.
  intros [Ha Hcm Hdm Hsane Hdo]. induction before as [|c cs IH]; intros rest s Hcs Hun Hf Hw Hne Hp; [reflexivity|].
  assert (Hc : In c (n_children r)) by (apply Hcs; now left).
  assert (HR : child_result r c (p_args s) s (pre_parse f c [r] None always_true s)).
  { destruct (is_mode c) eqn:Em; [now apply mode_exact|apply top_leaf_exact; auto]. }
  assert (Hpc : passed_over (p_args s) c) by (apply Hp; now left).
  cbn [app root_try].
  destruct HR as [_|mem t n vs x Hme Hex|mem lb vs Hnp|s' t x Hnp|s' y x Hnp]; try contradiction.
  - apply IH; auto; intros d Hd; [apply Hcs|apply Hp]; now right.
  - exfalso. revert Hpc. now apply means_not_passed in Hme.
Qed.

Lemma help_consumes h s names : plain_help h -> token_end_marker h = None -> plain_short h -> called_by h s ->
  fits (map (Tok PNone) (s :: names)) ->
  exists label, consumes h (map (Tok PNone) (s :: names)) label (map (Tok PNone) names) [].
Proof.
  intros Hph Hmk Hps Hc Hf. exists (Some (norm_token h (Tok PNone s))).
  apply consumes_named with (value := []) (us := map (Tok PNone) names) (t := Tok PNone s) (us' := map (Tok PNone) names).
  - apply Hph.
  - apply front_plain. apply Hph.
  - apply group_none. intros nm (Hx & _). now apply (ph_no_exp h Hph).
  - unfold norm_token. cbn [t_prefix t_name]. apply answers_iff; auto.
    intros H. now rewrite (ph_none h Hph) in H.
  - cbn [app]. apply count_plain with 0%N size_max; auto; [apply Hph|now rewrite app_nil_r| |].
    + split; [apply N.le_0_l|].
      assert (H : (nlen (map (Tok PNone) names) < 9223372036854775808)%N).
      { eapply fits_nlen; [|exact Hf]. cbn [map]. rewrite args_weight_cons. lia. }
      unfold size_max. clear -H. lia.
    + intros H. now destruct H.
Qed.

Lemma help_not_chokes h ts : plain_help h -> ~ chokes h ts.
Proof.
  intros Hph [(sep & t & us & l & x & y & H & _)|[(t & value & us & _ & nm & (Hx & _) & _)|(He & _)]].
  - rewrite (ph_no_sep h Hph) in H. discriminate.
  - now apply (ph_no_exp h Hph).
  - apply He. apply Hph.
Qed.

Definition help_outcome (r h : node) (mem : memory) (x : res node) : outcome :=
  match x with
  | Ok t => Out mem [EvHelp h t (has_flatten_help h || negb (is_root t))]
                (if has_router h then Ok tt else Exited)
  | Throw e => Out mem [] (Throw e)
  | UB => Out mem [] UB
  | Exited => Out mem [] Exited
  | OutOfFuel => Out mem [] OutOfFuel
  end.

Lemma help_run r mem h argv names : well_formed r -> unset r mem -> fits (to_tokens argv) ->
  asks r h argv names -> token_end_marker h = None -> plain_short h ->
  root_parse_strings r mem argv = help_outcome r h mem (find_help_target (map (Tok PNone) names) r).
Proof.
  intros Hw Hun Hf (before & after & s & Hcs & Hk & -> & Hs & Hb) Hmk Hps.
  assert (Hin : In h (n_children r)) by (rewrite Hcs; apply in_or_app; right; now left).
  pose proof (wf_accepted r Hw) as Ha.
  pose proof (root_child r h Ha Hin) as [Hsub [Hm|(L & _ & Hal & _)]].
  { unfold is_mode in Hm. rewrite Hk in Hm. discriminate. }
  pose proof (help_plain h [r] (sub_ok_self _ _ Hsub) Hk) as Hph.
  destruct (help_consumes h s names Hph Hmk Hps Hs Hf) as (label & Hco).
  unfold root_parse_strings, root_parse. cbv zeta. rewrite Hcs. unfold to_tokens in *.
  rewrite (skip_tried _ r Hw); auto.
  2:{ intros c Hc. rewrite Hcs. apply in_or_app. now left. }
  2:{ discriminate. }
  cbn [root_try]. rewrite leaf_pre_parse by apply L.
  set (args := map (Tok PNone) (s :: names)) in *.
  pose proof (top_no_dependent r h) as Hdep.
  assert (HR : node_result h [r] None always_true (PS args mem) (node_pre_parse h [r] None always_true (PS args mem))).
  { apply node_exact; auto; try apply L.
    - apply (wf_sane r Hw); [apply (below_child h); [easy|apply below_self]|].
      unfold is_argument. now rewrite Hk.
    - rewrite (ph_count h Hph). discriminate.
    - intros ns H. now apply Hal in H.
    - intros ns H. now apply Hdep in H.
    - unfold args. discriminate. }
  pose proof (help_not_chokes h args Hph) as Hnc.
  destruct HR as [label2 vals rest toks subs He Hch Hco2 _ Hmks|Hch Hp|x d Hch He Hadr Hbad|y x Hch Hx|_ H1 H2 H3].
  - cbn [p_args] in Hco2. destruct (consumes_det _ _ _ _ _ _ _ _ Hco Hco2) as (_ & <- & <-).
    assert (Hms : toks = map (Tok PNone) names /\ subs = []).
    { destruct Hmks as [(_ & H)|(ns & md & H & _)]; [easy|exfalso]. now apply Hal in H. }
    destruct Hms as [-> ->]. unfold after_check, always_true. cbn [p_args p_mem]. cbn [exec]. rewrite Hk.
    unfold help_parse. cbn [rev app]. unfold ebind, elift, emit, eret.
    destruct (find_help_target (map (Tok PNone) names) r) as [t| | | |]; try reflexivity.
    unfold help_outcome, is_root. destruct (has_router h); reflexivity.
  - exfalso. cbn [p_args] in Hp. destruct Hp as [Hp|Hp]; apply Hp; [apply Hph|].
    eapply consumes_addressed; exact Hco.
  - exfalso. cbn [p_args] in Hbad. destruct Hbad as [(Hbad & _)|(_ & Hbad & _)]; [now apply Hbad in Hco|].
    apply Hbad. intros ns H. now apply Hdep in H.
  - exfalso. apply Hnc. now apply (breaks_chokes h _ x).
  - exfalso. apply Hnc. right. right. exact (conj H1 (conj H3 H2)).
Qed.

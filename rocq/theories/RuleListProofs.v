(** Proofs for C80. *)
From Verif Require Import Bytes Token Result CodePoint Utf8 Tree PreParse Validator RuleList.
From Verif Require Import SpecRules SpecRuleList OrderProofs TreeProofs RulesProofs.

Lemma forallb_false {A} (f : A -> bool) l : forallb f l = false -> exists x, In x l /\ f x = false.
Proof.
  induction l as [|x l IH]; cbn [forallb]; [discriminate|]. intros H. apply andb_false_iff in H as [H|H].
  - exists x. split; [now left|exact H].
  - destruct (IH H) as (y & Hy & E). exists y. split; [now right|exact E].
Qed.

Section Classes.
  Variable cls : node -> N.
  Variable pcls : policy -> N.
  Local Notation applies := (applies cls pcls).
  Local Notation governs := (governs cls pcls).
  Local Notation ungoverned := (ungoverned cls pcls).

  Lemma matches_iff k x : matches cls pcls k x = true <-> applies k x.
  Proof.
    destruct k as [cs|]; cbn [matches SpecRuleList.applies].
    - rewrite existsb_exists. destruct x as [n|p]; cbn [class_of]; split.
      + intros (c & Hc & E). apply N.eqb_eq in E. now subst c.
      + intros H. eexists. split; [exact H|apply N.eqb_refl].
      + intros (c & Hc & E). apply N.eqb_eq in E. now subst c.
      + intros H. eexists. split; [exact H|apply N.eqb_refl].
    - destruct x; [split; [discriminate|intros []]|split; trivial].
  Qed.

  Lemma applies_dec k x : {applies k x} + {~ applies k x}.
  Proof.
    destruct (matches cls pcls k x) eqn:E; [left; now apply matches_iff|right].
    intros H. apply matches_iff in H. congruence.
  Qed.

  Lemma find_governs rules x cs :
    governs rules x cs <-> exists k, find (fun r => matches cls pcls (fst r) x) rules = Some (k, cs).
  Proof.
    induction rules as [|[k ks] rules IH]; cbn [find fst].
    - split; [intros H; inversion H|intros (k & [=])].
    - destruct (matches cls pcls k x) eqn:E.
      + apply matches_iff in E. split.
        * intros H. inversion H; subst; [now exists k|contradiction].
        * intros (k' & [= <- <-]). now constructor.
      + assert (Hn : ~ applies k x) by (intros H; apply matches_iff in H; congruence). split.
        * intros H. inversion H; subst; [contradiction|now apply IH].
        * intros H. constructor; [exact Hn|now apply IH].
  Qed.

  Lemma governs_fun rules x cs cs' : governs rules x cs -> governs rules x cs' -> cs = cs'.
  Proof. rewrite !find_governs. intros (k & E) (k' & E'). congruence. Qed.

  Lemma governs_app a b x cs : governs (a ++ b) x cs <-> governs a x cs \/ ungoverned a x /\ governs b x cs.
  Proof.
    induction a as [|[k ks] a IH]; cbn [app].
    - split; [intros H; right; split; [intros ? ? []|exact H]|intros [H|[_ H]]; [inversion H|exact H]].
    - split.
      + intros H. inversion H; subst; [left; now constructor|]. apply IH in H6 as [G|[Hu G]].
        * left. now constructor.
        * right. split; [|exact G]. intros k' cs' [[= <- <-]|Hin]; [assumption|now apply (Hu k' cs')].
      + intros [H|[Hu G]].
        * inversion H; subst; [now constructor|]. constructor; [assumption|]. apply IH. now left.
        * constructor; [apply (Hu k ks); now left|]. apply IH. right. split; [|exact G].
          intros k' cs' Hin. apply (Hu k' cs'). now right.
  Qed.

  Lemma governs_cons k ks b x cs : governs ((k, ks) :: b) x cs <-> applies k x /\ cs = ks \/ ~ applies k x /\ governs b x cs.
  Proof.
    split.
    - intros H. inversion H; subst; auto.
    - intros [[H ->]|[H G]]; now constructor.
  Qed.

  Lemma ungoverned_governs a x cs : ungoverned a x -> ~ governs a x cs.
  Proof. intros Hu H. induction H; [apply (Hu k cs); [now left|assumption]|]. apply IHgoverns. intros k' c' Hin. apply (Hu k' c'). now right. Qed.

  (** ** Conditions *)
  Local Notation met := (met cls pcls).
  Local Notation bears := (bears pcls).

  Lemma carries_iff n t : carries pcls n t = true <-> bears n t.
  Proof.
    unfold carries, SpecRuleList.bears. rewrite orb_true_iff, existsb_exists, andb_true_iff, is_root_iff, N.eqb_eq.
    split; (intros [(p & H & E)|H]; [left; exists p; split; [exact H|now apply N.eqb_eq]|right; exact H]).
  Qed.
  Lemma carries_not n t : carries pcls n t = false <-> ~ bears n t.
  Proof. rewrite <- carries_iff. destruct (carries pcls n t); split; congruence. Qed.

  Lemma mode_class_iff n : mode_class cls n = true <-> is_a_mode cls n.
  Proof. apply N.eqb_eq. Qed.
  Lemma mode_class_not n : mode_class cls n = false <-> ~ is_a_mode cls n.
  Proof. rewrite <- mode_class_iff. destruct (mode_class cls n); split; congruence. Qed.
  Lemma nameless_iff n : anonymous_mode cls n = true <-> nameless_mode cls n.
  Proof.
    unfold anonymous_mode, nameless_mode. rewrite andb_true_iff, mode_class_iff. unfold is_anonymous.
    rewrite <- hb_false, <- none_hb. destruct (none_name n); cbn; intuition congruence.
  Qed.

  Lemma one_only {A} (f : A -> bool) (P : A -> Prop) l : (forall x, f x = true <-> P x) ->
    Nat.eqb (List.length (filter f l)) 1 = true <->
    exists before q after, l = before ++ q :: after /\ P q /\ forall x, In x (before ++ after) -> ~ P x.
  Proof.
    intros H. assert (H' : forall x, f x = false <-> ~ P x) by (intros x; rewrite <- H; destruct (f x); split; congruence).
    assert (Z : forall l, List.length (filter f l) = 0 <-> forall x, In x l -> ~ P x).
    { clear l. intros l. induction l as [|x l IH]; cbn [filter].
      - split; [intros _ x []|reflexivity].
      - destruct (f x) eqn:E.
        + split; [discriminate|]. intros G. exfalso. apply (G x); [now left|now apply H].
        + rewrite IH. apply H' in E. split; [intros G y [<-|Hy]; auto|]. intros G y Hy. apply G. now right. }
    rewrite Nat.eqb_eq. induction l as [|x l IH]; cbn [filter].
    - split; [discriminate|]. intros ([|? ?] & q & after & E & _); discriminate.
    - destruct (f x) eqn:E; cbn [List.length].
      + split.
        * intros [= G]. exists [], x, l. split; [reflexivity|]. split; [now apply H|]. now apply Z.
        * intros (before & q & after & Eq & Hq & G). f_equal. apply Z. destruct before as [|y before].
          { injection Eq as -> ->. exact G. }
          { injection Eq as -> Eq. exfalso. apply (G y); [now left|now apply H]. }
      + rewrite IH. apply H' in E. split.
        * intros (before & q & after & -> & Hq & G). exists (x :: before), q, after. split; [reflexivity|]. split; [exact Hq|].
          intros y [<-|Hy]; auto.
        * intros (before & q & after & Eq & Hq & G). destruct before as [|y before].
          { injection Eq as -> _. contradiction. }
          { injection Eq as -> ->. exists before, q, after. split; [reflexivity|]. split; [exact Hq|].
            intros z Hz. apply G. now right. }
  Qed.

  Lemma at_most_one {A} (f : A -> bool) (P : A -> Prop) l : (forall x, f x = true <-> P x) ->
    Nat.leb (List.length (filter f l)) 1 = true <->
    forall front d middle e back, l = front ++ d :: middle ++ e :: back -> P d -> P e -> False.
  Proof.
    intros H. rewrite Nat.leb_le. split.
    - intros L front d middle e back -> Hd He. apply H in Hd, He. rewrite filter_app, app_length in L.
      cbn [filter] in L. rewrite Hd, filter_app in L. cbn [filter] in L. rewrite He in L.
      cbn [List.length] in L. rewrite app_length in L. cbn [List.length] in L. lia.
    - intros G. induction l as [|x l IH]; cbn [filter]; [cbn; lia|]. destruct (f x) eqn:E.
      + cbn [List.length]. assert (Z : filter f l = []); [|rewrite Z; cbn; lia].
        destruct (filter f l) as [|y r] eqn:F; [reflexivity|]. exfalso.
        assert (I : In y (filter f l)) by (rewrite F; now left). apply filter_In in I as [I Ey].
        apply in_split in I as (m & k & ->). apply (G [] x m y k); [reflexivity| |]; now apply H.
      + apply IH. intros front d middle e back -> Hd He. now apply (G (x :: front) d middle e back).
  Qed.

  Lemma paths_eq start n above : paths_from cls start n above
    = if mode_class cls n && negb (N.eqb (n_id n) (n_id start)) then []
      else (n :: above) :: flat_map (fun c => paths_from cls start c (n :: above)) (n_children n).
  Proof. destruct n; reflexivity. Qed.

  Lemma goes_in start n : mode_class cls n && negb (N.eqb (n_id n) (n_id start)) = false <-> (is_a_mode cls n -> n_id n = n_id start).
  Proof.
    rewrite <- mode_class_iff. destruct (mode_class cls n); cbn [andb]; [|split; [discriminate|reflexivity]].
    rewrite negb_false_iff, N.eqb_eq. tauto.
  Qed.

  Lemma paths_within start path : In path (paths_from cls start start []) <-> within cls start path.
  Proof.
    split.
    - assert (F : forall m up, ((is_a_mode cls m -> n_id m = n_id start) -> within cls start (m :: up)) ->
                In path (paths_from cls start m up) -> within cls start path).
      { induction m as [k id ty pols cs IH] using node_ind'. rewrite Forall_forall in IH. intros up H Hin.
        rewrite paths_eq in Hin. destruct (mode_class cls (Node k id ty pols cs) && _) eqn:E in Hin; [destruct Hin|].
        pose proof (proj1 (goes_in _ _) E) as E'. destruct Hin as [<-|Hin]; [now apply H|].
        apply in_flat_map in Hin as (c & Hc & Hin). apply (IH c Hc) with (2 := Hin). intros Hm. constructor; auto. }
      apply F. intros _. constructor.
    - assert (G : forall c, (is_a_mode cls c -> n_id c = n_id start) -> forall m up d above, In (d :: above) (paths_from cls start m up) ->
                In c (n_children d) -> In (c :: d :: above) (paths_from cls start m up)).
      { intros c Ec. induction m as [k id ty pols cs IH] using node_ind'. rewrite Forall_forall in IH. intros up d above H Hc.
        rewrite paths_eq in H |- *. destruct (mode_class cls (Node k id ty pols cs) && _) in H |- *; [destruct H|]. right.
        apply in_flat_map. destruct H as [H|H].
        - injection H as <- <-. exists c. split; [exact Hc|]. rewrite paths_eq. rewrite (proj2 (goes_in _ _) Ec). now left.
        - apply in_flat_map in H as (e & He & H). exists e. split; [exact He|]. apply IH; auto. }
      induction 1 as [|n above c _ IH Hc Hm]; [|now apply G]. rewrite paths_eq, N.eqb_refl, andb_false_r. now left.
  Qed.

  Lemma to_mode_take l path : to_mode cls l path -> path = take_until (mode_class cls) l.
  Proof.
    induction 1 as [n above H|n H|n m above path H _ IH]; cbn [take_until] in *.
    - apply mode_class_iff in H. now rewrite H.
    - apply mode_class_not in H. now rewrite H.
    - apply mode_class_not in H. rewrite H. now rewrite IH.
  Qed.
  Lemma take_to_mode n l : to_mode cls (n :: l) (take_until (mode_class cls) (n :: l)).
  Proof.
    revert n. induction l as [|m l IH]; intros n; cbn [take_until]; destruct (mode_class cls n) eqn:E.
    - apply to_mode_here. now apply mode_class_iff.
    - apply to_mode_top. now apply mode_class_not.
    - apply to_mode_here. now apply mode_class_iff.
    - apply (to_mode_more cls n m l _ (proj1 (mode_class_not n) E)). apply IH.
  Qed.

  Lemma not_a_name p q : ~ name_policy p -> same_name_policy p q = false.
  Proof. destruct p; cbn; tauto. Qed.
  Lemma name_policy_dec p : name_policy p \/ ~ name_policy p.
  Proof. destruct p; cbn; tauto. Qed.

  Lemma unique_up_iff p n above : unique_up_to_mode cls p n above = true <-> met UniqueToMode (IPol p) (n :: above).
  Proof.
    unfold unique_up_to_mode. cbn [SpecRuleList.met]. destruct above as [|z zs].
    { split; [|reflexivity]. intros _ owner above path start [= <- <-] H. congruence. }
    destruct (name_policy_dec p) as [Hp|Hp].
    2:{ split; [intros _ owner above path start _ _ H; contradiction|]. intros _. cbv zeta. apply forallb_forall. intros path' _.
        apply orb_true_iff. right. destruct path' as [|m above]; [reflexivity|]. apply forallb_forall. intros q _.
        now rewrite not_a_name. }
    cbv zeta. set (path := take_until (mode_class cls) (n :: z :: zs)). rewrite forallb_forall. split.
    - intros H owner above path' start [= <- <-] _ _ Eu El m up Hr Hne Hin. pose proof (to_mode_take _ _ Eu) as E. fold path in E. subst path'.
      rewrite El in H. specialize (H _ (proj2 (paths_within _ _) Hr)). apply orb_true_iff in H as [H|H].
      + apply ids_eqb_iff in H. now apply Hne.
      + rewrite forallb_forall in H. specialize (H _ Hin). apply negb_true_iff in H.
        assert (same_name_policy p p = true) by now apply same_name_iff. congruence.
    - intros H path' Hw. apply paths_within in Hw. apply orb_true_iff.
      destruct (ids_eqb (ids path') (ids path)) eqn:E; [now left|right]. destruct path' as [|m up]; [reflexivity|].
      apply forallb_forall. intros q Hq. apply negb_true_iff. destruct (same_name_policy p q) eqn:Es; [|reflexivity].
      exfalso. apply same_name_iff in Es; [|exact Hp]. subst q.
      refine (H n (z :: zs) path _ eq_refl _ Hp (take_to_mode _ _) eq_refl m up Hw _ Hq); [discriminate|].
      intros G. apply (proj2 (ids_eqb_iff _ _)) in G. unfold ids in E. congruence.
  Qed.

  Lemma bounds_iff n mn mx : count_bounds n = Some (mn, mx) <-> bounds n mn mx.
  Proof.
    unfold count_bounds, bounds. generalize (n_pols n). intros l. induction l as [|p l IH]; cbn [first_some].
    - split; [discriminate|]. intros ([|? ?] & after & E & _); discriminate.
    - destruct p;
        try (rewrite IH; split;
             [intros (before & after & -> & G); eexists (_ :: before), after; split; [reflexivity|]; intros q [<-|Hq]; [discriminate|auto]
             |intros ([|q before] & after & Eq & G); [discriminate|]; injection Eq as <- ->; exists before, after; split; [reflexivity|];
              intros q' Hq; apply G; now right]).
      split.
      + intros [= -> ->]. exists [], l. split; [reflexivity|intros ? []].
      + intros ([|q before] & after & Eq & G); [now injection Eq as -> -> _|]. injection Eq as <- _.
        exfalso. apply (G (PMinMaxCount mn0 mx0)); [now left|reflexivity].
  Qed.

  Lemma list_like_iff d : is_list_like d = true <->
    exists mn mx, bounds d mn mx /\ mn <> mx /\ lacks d [k_multi_stage; k_end_marker].
  Proof.
    assert (L : lacks d [k_multi_stage; k_end_marker] <-> hb d k_multi_stage = false /\ hb d k_end_marker = false)
      by (rewrite !lacks_cons, lacks_nil; tauto).
    unfold is_list_like. rewrite stage_hb, marker_hb.
    destruct (count_bounds d) as [[mn mx]|] eqn:E.
    - rewrite !andb_true_iff, !negb_true_iff, N.eqb_neq. split.
      + intros [[H G] K]. exists mn, mx. apply bounds_iff in E. tauto.
      + intros (mn' & mx' & B & H). apply bounds_iff in B. rewrite E in B. injection B as <- <-. tauto.
    - split; [discriminate|]. intros (mn & mx & B & _). apply bounds_iff in B. congruence.
  Qed.

  Lemma last_iff (f : node -> bool) cs :
    (fix go l := match l with [] => true | [_] => true | c :: l' => negb (f c) && go l' end) cs = true <->
    forall front c back, cs = front ++ c :: back -> f c = true -> back = [].
  Proof.
    induction cs as [|c cs IH].
    - split; [|reflexivity]. intros _ front c back E. destruct front; discriminate.
    - destruct cs as [|d cs].
      + split; [|reflexivity]. intros _ front x back E _. destruct front as [|y [|z front]]; try discriminate.
        injection E as _ E. now symmetry.
      + rewrite andb_true_iff, IH. split.
        * intros [H G] front x back E Ho. destruct front as [|y front].
          { injection E as -> E. apply negb_true_iff in H. congruence. }
          { injection E as -> E. now apply (G front x back E). }
        * intros H. split.
          { apply negb_true_iff. destruct (f c) eqn:E; [|reflexivity].
            specialize (H [] c (d :: cs) eq_refl E). discriminate. }
          { intros front x back E Ho. apply (H (c :: front) x back); [now rewrite E|exact Ho]. }
  Qed.

  Lemma check_iff c x ps : check cls pcls c x ps = true <-> met c x ps.
  Proof.
    destruct c; cbn [check].
    - (* UniqueInOwner *)
      destruct ps as [|owner above].
      + split; [|reflexivity]. intros _. destruct x; intros ? ? [=].
      + destruct x as [n|p]; cbn [class_of SpecRuleList.met];
          (rewrite (one_only _ (fun q => pcls q = _)) by (intros q; apply N.eqb_eq));
          (split; [intros H owner' above' [= <- <-]; exact H|intros H; now apply (H owner above)]).
    - (* UniqueToMode *)
      destruct x as [n|p]; [split; reflexivity|]. destruct ps as [|owner above]; [|apply unique_up_iff].
      split; [|reflexivity]. intros _ ? ? ? ? [=].
    - (* ParentTypes *)
      rewrite existsb_exists. destruct x; cbn [SpecRuleList.met]; split.
      all: try (intros ([i k] & Hin & H); cbn [fst snd] in H; destruct (nth_error ps i) as [q|] eqn:E; [|discriminate];
                apply N.eqb_eq in H; exists i, k, q; auto).
      all: intros (i & k & q & Hin & E & H); exists (i, k); split; [exact Hin|]; cbn [fst snd]; rewrite E; now apply N.eqb_eq.
    - (* MustHave *)
      destruct x as [n|p]; cbn [SpecRuleList.met]; [|split; [discriminate|intros []]].
      rewrite forallb_forall. split; intros H t Ht; apply carries_iff; auto.
    - (* MustNotHave *)
      destruct x as [n|p]; cbn [SpecRuleList.met]; [|split; [discriminate|intros []]].
      rewrite forallb_forall. split; intros H t Ht; specialize (H t Ht); [apply carries_not; now apply negb_true_iff|].
      apply negb_true_iff. now apply carries_not.
    - (* ChildMustHave *)
      destruct x as [n|p]; cbn [SpecRuleList.met]; [|split; [discriminate|intros []]].
      rewrite forallb_forall. split; intros H d Hd; apply carries_iff; auto.
    - (* ChildMustNotHave *)
      destruct x as [n|p]; cbn [SpecRuleList.met]; [|split; [discriminate|intros []]].
      destruct (n_children n) as [|d0 ds]; [split; auto|]. rewrite negb_true_iff. split.
      + intros H. right. destruct (forallb_false _ _ H) as (d & Hd & E). exists d. split; [exact Hd|now apply carries_not].
      + intros [[=]|(d & Hd & E)]. apply not_true_iff_false. rewrite forallb_forall. intros G. apply carries_not in E.
        specialize (G d Hd). congruence.
    - (* AtLeastOneOf *)
      destruct x as [n|p]; cbn [SpecRuleList.met]; [|split; [discriminate|intros []]].
      rewrite andb_true_iff, Nat.leb_le, existsb_exists.
      split; intros [L (t & Ht & H)]; split; auto; exists t; split; auto; now apply carries_iff.
    - (* OwnerMustNotHave *)
      destruct x as [n|p]; cbn [SpecRuleList.met]; [split; [discriminate|intros []]|].
      destruct ps as [|owner above].
      + split; [discriminate|]. intros (? & ? & [=] & _).
      + rewrite negb_true_iff, carries_not. split; [intros H; now exists owner, above|].
        intros (o & a & [= <- <-] & H). exact H.
    - (* SingleAnonymousMode *)
      destruct x as [n|p]; cbn [SpecRuleList.met]; [|split; [discriminate|intros []]].
      apply at_most_one. exact nameless_iff.
    - (* TypesAtEnd *)
      destruct x as [n|p]; cbn [SpecRuleList.met]; [|split; [discriminate|intros []]].
      rewrite andb_true_iff, Nat.leb_le, (at_end_iff _ (fun d => In (cls d) cs)).
      + split; (intros [H G]; split; [|exact G]); [intros ->; cbn in H; lia|]. destruct cs; [congruence|cbn; lia].
      + intros d. rewrite existsb_exists. split; [intros (k & Hk & E); apply N.eqb_eq in E; now subst|].
        intros Hk. exists (cls d). split; [exact Hk|apply N.eqb_refl].
    - (* AnonymousModeAtEnd *)
      destruct x as [n|p]; cbn [SpecRuleList.met]; [|split; [discriminate|intros []]].
      rewrite orb_true_iff, negb_true_iff, (at_end_iff _ (is_a_mode cls)) by exact mode_class_iff. split.
      + intros [H|H] d Hd Hn; [|exact H]. apply nameless_iff in Hn. exfalso.
        assert (existsb (anonymous_mode cls) (n_children n) = true) by (apply existsb_exists; eauto). congruence.
      + intros H. destruct (existsb (anonymous_mode cls) (n_children n)) eqn:E; [|now left]. right.
        apply existsb_exists in E as (d & Hd & Hn). apply nameless_iff in Hn. now apply (H d).
    - (* ListLikeAtEnd *)
      destruct x as [n|p]; cbn [SpecRuleList.met]; [|split; [discriminate|intros []]].
      etransitivity; [exact (last_iff is_list_like (n_children n))|]. split.
      + intros H front d back mn mx E B Hne Hl. apply (H front d back E). apply list_like_iff. eauto.
      + intros H front d back E L. apply list_like_iff in L as (mn & mx & B & Hne & Hl). now apply (H front d back mn mx).
    - (* MinimumOneIfRequired *)
      destruct x as [n|p]; cbn [SpecRuleList.met]; [|split; [discriminate|intros []]].
      unfold min_1_if_required. change (has_tag tag_required n) with (hb n k_required).
      destruct (hb n k_required) eqn:R.
      + apply hb_true in R. destruct (count_bounds n) as [[mn mx]|] eqn:E.
        * rewrite N.leb_le. split; [|intros H; apply (H R mn mx); now apply bounds_iff].
          intros H _ mn' mx' B. apply bounds_iff in B. rewrite E in B. now injection B as <- <-.
        * split; [|reflexivity]. intros _ _ mn mx B. apply bounds_iff in B. congruence.
      + apply hb_false in R. split; [contradiction|reflexivity].
  Qed.

  Lemma item_iff rules x ps : validate_item cls pcls rules x ps = true <->
    exists cs, governs rules x cs /\ forall c, In c cs -> met c x ps.
  Proof.
    unfold validate_item. destruct (find (fun r => matches cls pcls (fst r) x) rules) as [[k cs]|] eqn:E.
    - assert (G : governs rules x cs) by (apply find_governs; now exists k). rewrite forallb_forall. split.
      + intros H. exists cs. split; [exact G|]. intros c Hc. apply check_iff. now apply H.
      + intros (cs' & G' & H) c Hc. apply check_iff. apply H. now rewrite <- (governs_fun _ _ _ _ G G').
    - split; [discriminate|]. intros (cs & G & _). apply find_governs in G as (k & G). congruence.
  Qed.

  Lemma visits_iff r x ps : In (x, ps) (visits r) <-> visited r x ps.
  Proof.
    unfold visits. rewrite in_flat_map. split.
    - intros ([n up] & Hin & H). apply placed_preorder in Hin. destruct H as [[= <- <-]|H]; [now constructor|].
      apply in_map_iff in H as (p & [= <- <-] & Hp). now constructor.
    - intros H. destruct H as [n up Hp|n up p Hp Hin].
      + exists (n, up). split; [now apply placed_preorder|now left].
      + exists (n, up). split; [now apply placed_preorder|]. right. apply in_map_iff. now exists p.
  Qed.

  Lemma validate_iff rules r : validate cls pcls rules r = true <-> passes cls pcls rules r.
  Proof.
    unfold validate, passes. rewrite forallb_forall. split.
    - intros H x ps Hv. apply visits_iff in Hv. apply H in Hv. now apply item_iff in Hv.
    - intros H [x ps] Hin. apply visits_iff in Hin. apply item_iff. now apply H.
  Qed.

  (** ** Editing lists *)

  Lemma split_at {A} i (l : list A) x : nth_error l i = Some x -> l = firstn i l ++ x :: skipn (S i) l.
  Proof.
    revert l. induction i as [|i IH]; intros [|y l]; cbn [nth_error]; try discriminate.
    - now intros [= ->].
    - intros H. cbn [firstn skipn app]. f_equal. now apply IH.
  Qed.

  Lemma tags_eqb_iff x : forall y, tags_eqb x y = true <-> x = y.
  Proof.
    induction x as [|i x IH]; intros [|j y]; cbn [tags_eqb]; try (split; congruence).
    rewrite andb_true_iff, N.eqb_eq, IH. split; [intros [-> ->]; reflexivity|intros [= -> ->]; auto].
  Qed.
  Lemma key_eqb_iff k l : key_eqb k l = true <-> k = l.
  Proof. destruct k as [x|], l as [y|]; cbn [key_eqb]; try (split; congruence). rewrite tags_eqb_iff. split; congruence. Qed.
End Classes.

Lemma find_index_spec k rules : let i := find_index k rules in
  (forall j k' cs, nth_error rules j = Some (k', cs) -> j < i -> k' <> k)
  /\ (i < List.length rules -> exists cs, nth_error rules i = Some (k, cs)) /\ i <= List.length rules.
Proof.
  cbv zeta. induction rules as [|[k0 cs0] rules (IH1 & IH2 & IH3)]; cbn [find_index fst List.length].
  - split; [intros [|j] ? ? ?; discriminate|]. split; [lia|lia].
  - destruct (key_eqb k k0) eqn:E.
    + apply key_eqb_iff in E as <-. split; [intros; lia|]. split; [|lia]. intros _. now exists cs0.
    + split; [|split; [|lia]].
      * intros [|j] k' cs H Hj; cbn [nth_error] in H.
        -- injection H as <- <-. intros <-. assert (key_eqb k0 k0 = true) by (now apply key_eqb_iff). congruence.
        -- apply (IH1 j k' cs H). lia.
      * intros H. cbn [nth_error]. apply IH2. lia.
Qed.

(** ** The default rules are the checks of Validator.v *)

Local Notation gov := (governs library_class pol_tag).

Lemma carries_has n t : N.eqb t tag_validator = false -> carries pol_tag n t = has_tag t n.
Proof. intros E. unfold carries, has_tag. now rewrite E, andb_false_r, orb_false_r. Qed.
Lemma carries_validator n : n_kind n <> KRoot -> carries pol_tag n tag_validator = false.
Proof.
  intros H. unfold carries. apply orb_false_iff. split.
  - apply not_true_iff_false. intros G. apply existsb_exists in G as (p & _ & E). destruct p; discriminate E.
  - unfold is_root. now destruct (n_kind n).
Qed.

Lemma class_mode q : N.eqb (library_class q) c_mode = is_mode q.
Proof. unfold library_class, is_mode. now destruct (n_kind q) as [|[]| | | | | |]. Qed.

Lemma take_until_ext {A} (f g : A -> bool) l : (forall x, f x = g x) -> take_until f l = take_until g l.
Proof. intros H. induction l as [|x l IH]; [reflexivity|]. cbn [take_until]. now rewrite H, IH. Qed.

Lemma library_paths start n : forall above, paths_from library_class start n above = walk start n above.
Proof.
  induction n as [k id ty pols cs IH] using node_ind'. intros above. rewrite paths_eq, walk_eq. unfold mode_class.
  rewrite class_mode. destruct (_ && _); [reflexivity|]. f_equal. cbn [n_children]. rewrite Forall_forall in IH.
  set (up := Node k id ty pols cs :: above). clearbody up.
  induction cs as [|c cs IHcs]; [reflexivity|]. cbn [flat_map]. rewrite IH by (now left). rewrite IHcs; [reflexivity|].
  intros d Hd. apply IH. now right.
Qed.

Lemma library_unique p n ps : unique_up_to_mode library_class p n ps = unique_to_mode p n ps.
Proof.
  unfold unique_up_to_mode, unique_to_mode. destruct ps as [|z zs]; [reflexivity|]. cbv zeta.
  rewrite (take_until_ext (mode_class library_class) is_mode) by exact class_mode.
  now rewrite library_paths.
Qed.

Lemma library_anonymous n : anonymous_mode library_class n = is_anonymous_mode n.
Proof. unfold anonymous_mode, is_anonymous_mode, mode_class. now rewrite class_mode. Qed.

Lemma policy_default p n ps : validate_item library_class pol_tag default_rules (IPol p) (n :: ps) = policy_rules p n ps.
Proof.
  destruct p; cbv [validate_item find default_rules fst matches class_of existsb pol_tag N.eqb Pos.eqb orb
    tag_long tag_short tag_none tag_display tag_required tag_default tag_router tag_translator];
    cbn [forallb check]; rewrite ?carries_has by reflexivity; rewrite ?library_unique; unfold policy_rules, unique_in_owner, must_not_have; cbn [class_of pol_tag forallb];
    rewrite ?andb_true_r; try reflexivity.
  f_equal. cbn [existsb fst snd nth_error]. rewrite orb_false_r.
  assert (M : forall q, N.eqb (library_class q) c_mode = is_mode q) by (intros q; unfold library_class, is_mode; now destruct (n_kind q) as [|[]| | | | | |]).
  assert (R : forall q, N.eqb (library_class q) c_root = is_root q) by (intros q; unfold library_class, is_root; now destruct (n_kind q) as [|[]| | | | | |]).
  rewrite M. f_equal. unfold parent_is. destruct ps as [|q ps]; [reflexivity|apply R].
Qed.

Lemma class_root q : N.eqb (library_class q) c_root = is_root q.
Proof. unfold library_class, is_root. now destruct (n_kind q) as [|[]| | | | | |]. Qed.
Lemma class_positional q : N.eqb (library_class q) c_positional_arg = match n_kind q with KArg APositional => true | _ => false end.
Proof. unfold library_class. now destruct (n_kind q) as [|[]| | | | | |]. Qed.

Lemma at_end_ext f g l : (forall x, f x = g x) -> at_end f l = at_end g l.
Proof.
  intros H. induction l as [|x l IH]; [reflexivity|]. cbn [at_end]. rewrite H, IH. destruct (g x); [|reflexivity].
  clear IH. induction l as [|y l IH]; [reflexivity|]. cbn [forallb]. now rewrite H, IH.
Qed.

Lemma child_carries t n ps : N.eqb t tag_validator = false ->
  check library_class pol_tag (ChildMustNotHave t) (INode n) ps = child_must_not_have t n.
Proof.
  intros E. cbn [check]. unfold child_must_not_have. destruct (n_children n) as [|c cs]; [reflexivity|].
  assert (G : forall l, forallb (fun d => carries pol_tag d t) l = forallb (has_tag t) l).
  { induction l as [|d l IH]; [reflexivity|]. cbn [forallb]. now rewrite carries_has, IH. }
  now rewrite G.
Qed.

Lemma parent_types_0 f c ps : (forall q, N.eqb (library_class q) c = f q) ->
  match nth_error ps 0 with Some q => N.eqb (library_class q) c | None => false end = parent_is f ps.
Proof. intros H. destruct ps; [reflexivity|]. cbn [nth_error parent_is]. apply H. Qed.

Lemma must_not ts n ps : forallb (fun t => negb (N.eqb t tag_validator)) ts = true ->
  check library_class pol_tag (MustNotHave ts) (INode n) ps = must_not_have ts n.
Proof.
  intros H. cbn [check]. unfold must_not_have. induction ts as [|t ts IH]; [reflexivity|]. cbn [forallb] in *.
  apply andb_true_iff in H as [H1 H2]. apply negb_true_iff in H1. now rewrite carries_has, IH.
Qed.
Lemma must_not_app us ts n ps : check library_class pol_tag (MustNotHave (us ++ ts)) (INode n) ps
  = check library_class pol_tag (MustNotHave us) (INode n) ps && check library_class pol_tag (MustNotHave ts) (INode n) ps.
Proof. cbn [check]. apply forallb_app. Qed.
Lemma must_not_v us ts n ps : n_kind n <> KRoot -> forallb (fun t => negb (N.eqb t tag_validator)) (us ++ ts) = true ->
  check library_class pol_tag (MustNotHave (us ++ tag_validator :: ts)) (INode n) ps = must_not_have (us ++ ts) n.
Proof.
  intros K H. rewrite <- (must_not (us ++ ts) n ps H). rewrite !must_not_app. f_equal. cbn [check forallb].
  now rewrite carries_validator.
Qed.

Lemma node_default n ps : validate_item library_class pol_tag default_rules (INode n) ps = node_rules n ps.
Proof.
  unfold validate_item.
  assert (F : find (fun r => matches library_class pol_tag (fst r) (INode n)) default_rules
    = nth_error default_rules (match n_kind n with
        | KFlag => 8 | KArg AArg => 9 | KArg AMulti => 10 | KArg AForwarding => 11 | KCountingFlag => 12
        | KArg APositional => 13 | KOneOf _ => 14 | KAliasGroup => 15 | KMode => 16 | KHelp => 17 | KRoot => 18 end)).
  { cbv [find default_rules fst matches class_of existsb library_class].
    destruct (n_kind n) as [|[]| | | | | |]; reflexivity. }
  rewrite F. clear F. unfold node_rules.
  assert (P0 : forall c f, (forall q, N.eqb (library_class q) c = f q) ->
    check library_class pol_tag (ParentTypes [(0, c)]) (INode n) ps = parent_is f ps).
  { intros c f H. cbn [check existsb fst snd]. rewrite orb_false_r. now apply parent_types_0. }
  destruct (n_kind n) as [|[]| | | | | |] eqn:K; cbn [nth_error default_rules forallb];
    rewrite ?child_carries by reflexivity; rewrite ?(P0 c_mode is_mode class_mode), ?(P0 c_root is_root class_root);
    rewrite ?andb_true_r.
  - apply (must_not_v [tag_multi_stage; tag_no_result; tag_required] []); [congruence|reflexivity].
  - apply (must_not_v [tag_multi_stage; tag_no_result] []); [congruence|reflexivity].
  - apply (must_not_v [tag_multi_stage; tag_no_result] []); [congruence|reflexivity].
  - f_equal. apply (must_not_v [tag_alias; tag_multi_stage; tag_no_result] []); [congruence|reflexivity].
  - apply (must_not_v [tag_multi_stage; tag_no_result] []); [congruence|reflexivity].
  - apply (must_not_v [tag_no_result; tag_required] []); [congruence|reflexivity].
  - rewrite (must_not_v [tag_no_result] []) by (congruence || reflexivity). now rewrite <- !andb_assoc.
  - rewrite (must_not_v [tag_no_result; tag_multi_stage] []) by (congruence || reflexivity). now rewrite <- !andb_assoc.
  - rewrite must_not by reflexivity. rewrite <- !andb_assoc. f_equal. f_equal.
    + cbn [check List.length Nat.leb andb]. apply at_end_ext. intros x. cbn [existsb]. rewrite orb_false_r. apply class_positional.
    + f_equal. cbn [check existsb fst snd]. rewrite orb_false_r.
      rewrite (parent_types_0 is_root _ _ class_root), (parent_types_0 is_mode _ _ class_mode).
      unfold parent_is. now destruct ps.
  - rewrite (must_not_v [tag_multi_stage; tag_required; tag_expander] [tag_runtime_enable]) by (congruence || reflexivity). reflexivity.
  - rewrite must_not by reflexivity.
    assert (V : check library_class pol_tag (MustHave [tag_validator]) (INode n) ps = true).
    { cbn [check forallb]. unfold carries, is_root. rewrite K. cbn. now rewrite orb_true_r. }
    rewrite V. cbn [andb]. rewrite <- !andb_assoc. do 4 f_equal.
    + cbn [check]. f_equal. f_equal. apply filter_ext. exact library_anonymous.
    + cbn [check]. f_equal; [f_equal|apply at_end_ext; exact class_mode].
      generalize (n_children n). intros l. induction l as [|x l IH]; [reflexivity|]. cbn [existsb]. now rewrite library_anonymous, IH.
Qed.

Lemma default_iff r : passes library_class pol_tag default_rules r <->
  forall n ps, placed r n ps -> node_rules n ps = true /\ forall p, In p (n_pols n) -> policy_rules p n ps = true.
Proof.
  unfold passes. split.
  - intros H n ps Hp. split.
    + rewrite <- node_default. apply item_iff. apply H. now constructor.
    + intros p Hin. rewrite <- policy_default. apply item_iff. apply H. now constructor.
  - intros H x ps Hv. apply item_iff. destruct Hv as [n ps Hp|n ps p Hp Hin].
    + rewrite node_default. now apply H.
    + rewrite policy_default. now apply (H n ps Hp).
Qed.

(** Proofs for C87: the advanced mode of the program runtime_node_enable. *)
From Verif Require Import Bytes Token Result CodePoint Utf8 Utf8Proofs Tree PreParse Root TokenProofs NodeProofs.
From Verif Require Import Build Demo RunProofs SpecTokens SpecTake SpecMode SpecDeliver SpecRoot SpecReading SpecClaims.
From Verif Require Import SpecFault SpecOutcome PropsFault.
From Verif Require Import Examples SpecExamples ExampleProofs.
Local Open Scope nat_scope.

Section Advanced.
Variable int_t : vtype.
Hypothesis int_single : vt_container int_t = false.
Let m := rne_advanced int_t true.
Let f2 := rne_feature2 int_t.

Lemma f1_simple : simple_named rne_feature1. Proof using. is_simple. Qed.
Lemma f2_simple : simple_named f2. Proof using. is_simple. Qed.
Lemma f1_plain : plain rne_feature1. Proof using. is_plain. Qed.
Lemma f2_plain : plain f2. Proof using. is_plain. Qed.
Lemma adv_entries : entries m = [(0, rne_feature1); (1, f2)]. Proof using. reflexivity. Qed.

Lemma f1_word w : match_node rne_feature1 (norm_token rne_feature1 (Tok PNone w)) = true <-> w = b "--feature1".
Proof using. exact (long_match rne_feature1 (b "feature1") eq_refl eq_refl eq_refl w). Qed.
Lemma f2_word w : match_node f2 (norm_token f2 (Tok PNone w)) = true <-> w = b "--feature2".
Proof using. exact (long_match f2 (b "feature2") eq_refl eq_refl eq_refl w). Qed.

Lemma f1_takes w us vals rest : (exists label, consumes rne_feature1 (Tok PNone w :: us) label vals rest) <-> w = b "--feature1" /\ vals = [] /\ us = rest.
Proof using.
  rewrite (simple_consumes rne_feature1 _ us vals rest f1_simple), f1_word. now rewrite (all_counted_zero rne_feature1 us vals rest eq_refl eq_refl).
Qed.
Lemma f2_takes w us vals rest : (exists label, consumes f2 (Tok PNone w :: us) label vals rest) <-> w = b "--feature2" /\ exists t, us = t :: rest /\ vals = [t].
Proof using.
  rewrite (simple_consumes f2 _ us vals rest f2_simple), f2_word. now rewrite (one_counted f2 us vals rest eq_refl eq_refl).
Qed.

Lemma consumes_some n ts label vals rest : simple_named n -> consumes n ts label vals rest -> ts <> [].
Proof using.
  intros [H1 _ _ _] H E. subst ts. inversion H as [t1 value us1 t' us' vals' rest' _ Hf _ _ _|vals' rest' X]; [inversion Hf|congruence].
Qed.

Lemma adv_choice i : ~ is_choice m i.
Proof using. intros (c & inst & X & Y). destruct i as [|[|[|i]]]; try discriminate X; injection X as <-; discriminate Y. Qed.

Definition adv_item (o : adv_option) : node * list token :=
  match o with Feature1 => (rne_feature1, []) | Feature2 s => (f2, [Tok PNone s]) end.

Lemma used_head i l (done : list (nat * node)) j : used ((i, l) :: done) j <-> i = j \/ used done j.
Proof using.
  unfold used. split.
  - intros [l' [E|H]]; [injection E as -> _; now left|right; now exists l'].
  - intros [->|[l' H]]; [exists l; now left|exists l'; now right].
Qed.

Lemma adv_reading_options done ts items : reading m done ts items -> forall words, ts = map (Tok PNone) words ->
  exists opts, words = flat_map adv_words opts /\ flat_map (assigned m) items = map adv_item opts
    /\ NoDup (map adv_slot opts) /\ forall o, In o opts -> ~ used done (adv_slot o).
Proof using.
  induction 1 as [done|done ts before i l after label vals rest items E Hp Hch He Hc Hal Hdp Hr IH]; intros words Ew.
  - exists []. destruct words; [|discriminate Ew]. repeat split; [constructor|intros o []].
  - change (entries m) with [(0, rne_feature1); (1, f2)] in E.
    destruct before as [|x before]; [injection E as <- <- _|].
    + destruct words as [|w words]; [subst ts; exfalso; exact (consumes_some _ _ _ _ _ f1_simple Hc eq_refl)|]. subst ts. cbn [map] in Hc.
      destruct (proj1 (f1_takes w _ vals rest) (ex_intro _ label Hc)) as (-> & -> & <-).
      destruct (IH words eq_refl) as (opts & -> & Ea & Hn & Hu). exists (Feature1 :: opts).
      split; [reflexivity|]. split; [cbn [flat_map map adv_item]; rewrite Ea; reflexivity|]. split.
      * cbn [map adv_slot]. constructor; [|exact Hn]. intros Hin. apply in_map_iff in Hin as (o & Eo & Ho). apply (Hu o Ho). apply used_head. left. now rewrite Eo.
      * intros o [<-|Ho]; [|intros X; apply (Hu o Ho), used_head; now right].
        destruct Hal as [[X|X] _]; [discriminate X|exact X].
    + injection E as <- E. destruct before as [|x before]; [injection E as <- <- _|injection E as _ E; now destruct before].
      destruct words as [|w words]; [subst ts; exfalso; exact (consumes_some _ _ _ _ _ f2_simple Hc eq_refl)|]. subst ts. cbn [map] in Hc.
      destruct (proj1 (f2_takes w _ vals rest) (ex_intro _ label Hc)) as (-> & t & Et & ->).
      destruct words as [|s words]; [discriminate Et|]. injection Et as <- <-.
      destruct (IH words eq_refl) as (opts & -> & Ea & Hn & Hu). exists (Feature2 s :: opts).
      split; [reflexivity|]. split; [cbn [flat_map map adv_item]; rewrite Ea; reflexivity|]. split.
      * cbn [map adv_slot]. constructor; [|exact Hn]. intros Hin. apply in_map_iff in Hin as (o & Eo & Ho). apply (Hu o Ho). apply used_head. left. now rewrite Eo.
      * intros o [<-|Ho]; [|intros X; apply (Hu o Ho), used_head; now right].
        destruct Hal as [[X|X] _]; [discriminate X|exact X].
Qed.

Lemma adv_allowed done i l : ~ used done i -> allowed m done i l.
Proof using. intros H. split; [now right|]. intros [Hx _]. exact (adv_choice i Hx). Qed.

Lemma adv_options_reading opts : NoDup (map adv_slot opts) -> forall done, (forall o, In o opts -> ~ used done (adv_slot o)) ->
  exists items, reading m done (map (Tok PNone) (flat_map adv_words opts)) items /\ flat_map (assigned m) items = map adv_item opts.
Proof using.
  induction opts as [|o opts IH]; intros Hn done Hu; [exists []; split; [constructor|reflexivity]|].
  cbn [map] in Hn. apply NoDup_cons_iff in Hn as [Hni Hn].
  destruct (IH Hn ((adv_slot o, fst (adv_item o)) :: done)) as (items & Hr & Ea).
  { intros o' Ho' X. apply used_head in X as [X|X]; [|exact (Hu o' (or_intror Ho') X)]. apply Hni. rewrite X. now apply in_map. }
  assert (Hf := Hu o (or_introl eq_refl)).
  destruct o as [|s]; cbn [flat_map adv_words app map adv_slot adv_item fst] in *.
  - destruct (proj2 (f1_takes (b "--feature1") (map (Tok PNone) (flat_map adv_words opts)) [] (map (Tok PNone) (flat_map adv_words opts)))) as [label Hc]; [now repeat split|].
    exists (Item rne_feature1 label [] :: items). split; [|cbn [flat_map]; rewrite Ea; reflexivity].
    apply (reading_cons m done _ [] 0 rne_feature1 [(1, f2)] label [] (map (Tok PNone) (flat_map adv_words opts)) items adv_entries); [intros j k []| | |exact Hc|now apply adv_allowed| |exact Hr].
    + exact (simple_chokes _ _ f1_simple).
    + exact (sn_enabled _ f1_simple).
    + intros ns d Hin. now apply (pl_dep _ f1_plain) in Hin.
  - destruct (proj2 (f2_takes (b "--feature2") (Tok PNone s :: map (Tok PNone) (flat_map adv_words opts)) [Tok PNone s] (map (Tok PNone) (flat_map adv_words opts)))) as [label Hc].
    { split; [reflexivity|]. now exists (Tok PNone s). }
    exists (Item f2 label [Tok PNone s] :: items). split; [|cbn [flat_map]; rewrite Ea; reflexivity].
    apply (reading_cons m done _ [(0, rne_feature1)] 1 f2 [] label [Tok PNone s] (map (Tok PNone) (flat_map adv_words opts)) items adv_entries);
      [| | |exact Hc|now apply adv_allowed| |exact Hr].
    + intros j k [E|[]]. injection E as <- <-. split; [exact (simple_chokes _ _ f1_simple)|]. right; left.
      intros X. apply (simple_addressed _ _ _ f1_simple) in X. apply f1_word in X. discriminate X.
    + exact (simple_chokes _ _ f2_simple).
    + exact (sn_enabled _ f2_simple).
    + intros ns d Hin. now apply (pl_dep _ f2_plain) in Hin.
Qed.

Lemma f2_value s v : value_of f2 [Tok PNone s] v <-> vt_parse int_t s = Ok v.
Proof using int_single.
  split.
  - intros H. inversion H as [vals Hf|c t ts v' _ _ Hr _|c _ _ _|c ts vs _ Hx _ _]; subst.
    + destruct Hf as [Hf|Hf]; discriminate Hf.
    + exact Hr.
    + change (vt_container int_t = true) in Hx. rewrite int_single in Hx. discriminate Hx.
  - intros H. apply (value_single f2 AArg); [reflexivity|exact int_single|exact H|now apply any_in_range, f2_plain].
Qed.

Lemma f1_true : value_of rne_feature1 [] (VBool true).
Proof using. apply value_flag. left. reflexivity. Qed.
Lemma f1_only v : value_of rne_feature1 [] v -> v = VBool true.
Proof using. intros H. inversion H as [vals Hf|c t ts v' X|c X|c ts vs X]; subst; [reflexivity|discriminate X..]. Qed.

Lemma given_delivered n asg o v : plain n -> for_child n asg = olist n o -> delivered n asg v <-> given_value n o v.
Proof using.
  intros Hpl Hf. destruct o as [vals|]; cbn [olist given_value] in *; split.
  - intros H. inversion H; subst; [|congruence]. rewrite Hf in *.
    match goal with H : gathered _ _ _ |- _ => inversion H; subst end; [rewrite (pl_stage n Hpl) in *; discriminate|].
    match goal with H : gathered _ [] _ |- _ => inversion H; subst end. assumption.
  - intros H. apply delivered_typed; [|intros _; now apply any_in_range]. rewrite Hf.
    apply (gathered_once n vals v [] _ H (pl_stage n Hpl)). constructor.
  - intros H. inversion H; subst; [|now split]. rewrite Hf in *. match goal with H : gathered None [] _ |- _ => inversion H end.
  - intros [H ->]. apply delivered_missing; auto. now apply any_in_range.
Qed.

Lemma two_deliveries asg vs (o1 o2 : option (list token)) :
  (forall a, In a asg -> fst a = rne_feature1 /\ o1 = Some (snd a) \/ fst a = f2 /\ o2 = Some (snd a)) ->
  for_child rne_feature1 asg = olist rne_feature1 o1 -> for_child f2 asg = olist f2 o2 ->
  deliveries m asg vs <-> exists x y, vs = [x; y] /\ given_value rne_feature1 o1 x /\ given_value f2 o2 y.
Proof using.
  intros Ha H1 H2. unfold deliveries. change (router_children m) with [rne_feature1; f2]. split.
  - intros [_ Hd]. inversion Hd as [|c x cs vs' Hx Hd']; subst. inversion Hd' as [|c y cs vs'' Hy Hd'']; subst. inversion Hd''; subst.
    exists x, y. split; [reflexivity|]. split; [now apply (given_delivered rne_feature1 asg o1 x f1_plain H1)|now apply (given_delivered f2 asg o2 y f2_plain H2)].
  - intros (x & y & -> & Hx & Hy). split.
    + apply Forall_forall. intros a Hin. destruct (Ha a Hin) as [[-> E]|[-> E]]; subst; [exists x; exact Hx|exists y; exact Hy].
    + constructor; [now apply (given_delivered rne_feature1 asg o1 x f1_plain H1)|]. constructor; [now apply (given_delivered f2 asg o2 y f2_plain H2)|constructor].
Qed.

Lemma adv_not_mandatory1 : ~ mandatory rne_feature1.
Proof using. intros [H|[v H]]; revert H; membership. Qed.
Lemma adv_not_mandatory2 : ~ mandatory f2.
Proof using. intros [H|[v H]]; revert H; membership. Qed.

Lemma adv_values opts vs : NoDup (map adv_slot opts) ->
  deliveries m (map adv_item opts) vs <-> exists x y, vs = [VBool x; y] /\ (x = true <-> In Feature1 opts)
    /\ ((exists s, In (Feature2 s) opts /\ vt_parse int_t s = Ok y) \/ (forall s, ~ In (Feature2 s) opts) /\ y = VInt 42).
Proof using int_single.
  intros Hn.
  assert (C : opts = [] \/ opts = [Feature1] \/ (exists s, opts = [Feature2 s]) \/ (exists s, opts = [Feature1; Feature2 s]) \/ exists s, opts = [Feature2 s; Feature1]).
  { destruct opts as [|[|s] [|[|s'] [|o opts]]]; cbn in Hn; auto; try (now right; left); try (right; right; left; now eexists); try (right; right; right; left; now eexists); try (right; right; right; right; now eexists).
    all: exfalso; repeat match goal with H : NoDup (_ :: _) |- _ => apply NoDup_cons_iff in H as [? H] end; cbn in *; try destruct o; cbn in *; tauto. }
  assert (F : forall x, given_value rne_feature1 None x <-> x = VBool false).
  { intros x. cbn [given_value]. change (last (default_values rne_feature1) (vt_init (n_ty rne_feature1))) with (VBool false).
    split; [now intros [_ H]|]. intros ->. split; [exact adv_not_mandatory1|reflexivity]. }
  assert (T : forall x, given_value rne_feature1 (Some []) x <-> x = VBool true).
  { intros x. split; [exact (f1_only x)|]. intros ->. exact f1_true. }
  assert (G : forall y, given_value f2 None y <-> y = VInt 42).
  { intros y. cbn [given_value]. change (last (default_values f2) (vt_init (n_ty f2))) with (VInt 42).
    split; [now intros [_ H]|]. intros ->. split; [exact adv_not_mandatory2|reflexivity]. }
  assert (V : forall s y, given_value f2 (Some [Tok PNone s]) y <-> vt_parse int_t s = Ok y) by (intros s y; exact (f2_value s y)).
  destruct C as [->|[->|[[s ->]|[[s ->]|[s ->]]]]]; cbn [map adv_item].
  - rewrite (two_deliveries [] vs None None); [|intros a []|reflexivity|reflexivity]. setoid_rewrite F. setoid_rewrite G. split.
    + intros (x & y & -> & -> & ->). exists false, (VInt 42). split; [reflexivity|]. split; [split; [discriminate|intros []]|right; split; [intros s []|reflexivity]].
    + intros (x & y & -> & Hx & [(s & [] & _)|[_ ->]]). exists (VBool x), (VInt 42). split; [reflexivity|]. split; [|reflexivity].
      destruct x; [destruct (proj1 Hx eq_refl)|reflexivity].
  - rewrite (two_deliveries _ vs (Some []) None); [|intros a [<-|[]]; left; now split|reflexivity|reflexivity]. setoid_rewrite T. setoid_rewrite G. split.
    + intros (x & y & -> & -> & ->). exists true, (VInt 42). split; [reflexivity|]. split; [split; [now left|reflexivity]|right; split; [intros s [X|[]]; discriminate X|reflexivity]].
    + intros (x & y & -> & Hx & [(s & [X|[]] & _)|[_ ->]]); [discriminate X|]. exists (VBool x), (VInt 42). split; [reflexivity|]. split; [|reflexivity].
      now rewrite (proj2 Hx (or_introl eq_refl)).
  - rewrite (two_deliveries _ vs None (Some [Tok PNone s])); [|intros a [<-|[]]; right; now split|reflexivity|reflexivity]. setoid_rewrite F. setoid_rewrite V. split.
    + intros (x & y & -> & -> & Hy). exists false, y. split; [reflexivity|]. split; [split; [discriminate|intros [X|[]]; discriminate X]|left; exists s; split; [now left|exact Hy]].
    + intros (x & y & -> & Hx & [(s' & [X|[]] & Hy)|[X _]]); [|exfalso; exact (X s (or_introl eq_refl))]. injection X as <-. exists (VBool x), y. split; [reflexivity|]. split; [|exact Hy].
      destruct x; [destruct (proj1 Hx eq_refl) as [X|[]]; discriminate X|reflexivity].
  - rewrite (two_deliveries _ vs (Some []) (Some [Tok PNone s])); [|intros a [<-|[<-|[]]]; [left|right]; now split|reflexivity|reflexivity]. setoid_rewrite T. setoid_rewrite V. split.
    + intros (x & y & -> & -> & Hy). exists true, y. split; [reflexivity|]. split; [split; [now left|reflexivity]|left; exists s; split; [now right; left|exact Hy]].
    + intros (x & y & -> & Hx & [(s' & [X|[X|[]]] & Hy)|[X _]]); [discriminate X| |exfalso; exact (X s (or_intror (or_introl eq_refl)))]. injection X as <-.
      exists (VBool x), y. split; [reflexivity|]. split; [|exact Hy]. now rewrite (proj2 Hx (or_introl eq_refl)).
  - rewrite (two_deliveries _ vs (Some []) (Some [Tok PNone s])); [|intros a [<-|[<-|[]]]; [right|left]; now split|reflexivity|reflexivity]. setoid_rewrite T. setoid_rewrite V. split.
    + intros (x & y & -> & -> & Hy). exists true, y. split; [reflexivity|]. split; [split; [now right; left|reflexivity]|left; exists s; split; [now left|exact Hy]].
    + intros (x & y & -> & Hx & [(s' & [X|[X|[]]] & Hy)|[X _]]); [|discriminate X|exfalso; exact (X s (or_introl eq_refl))]. injection X as <-.
      exists (VBool x), y. split; [reflexivity|]. split; [|exact Hy]. now rewrite (proj2 Hx (or_intror (or_introl eq_refl))).
Qed.
End Advanced.

Lemma adv_routes int_t words n vs : vt_container int_t = false -> routes (runtime_node_enable int_t true) (map (Tok PNone) (b "advanced" :: words)) n vs <->
  n = rne_advanced int_t true /\ exists opts x y, words = flat_map adv_words opts /\ NoDup (map adv_slot opts)
    /\ vs = [VBool x; y] /\ (x = true <-> In Feature1 opts)
    /\ ((exists s, In (Feature2 s) opts /\ vt_parse int_t s = Ok y) \/ (forall s, ~ In (Feature2 s) opts) /\ y = VInt 42).
Proof.
  intros Hi.
  assert (Hv : simple_named rne_version) by is_simple. assert (Hh : simple_named rne_help) by is_simple.
  assert (Hn : names_mode (rne_advanced int_t true) (map (Tok PNone) (b "advanced" :: words)) (map (Tok PNone) words)).
  { split; [unfold enabled; cbn; discriminate|]. exists (b "advanced"). split; reflexivity. }
  split.
  - intros (before & c & after & E & Hp & Hm). do 4 try (destruct before as [|? before]; [injection E as <- _|injection E as <- E]).
    + exfalso. inversion Hm as [m0 ps ts' items vs' Hmd|label vals v Hmd Hk]; [discriminate Hmd|now apply Hk].
    + exfalso. apply (long_taken rne_version (b "version") Hv eq_refl eq_refl eq_refl eq_refl eq_refl eq_refl) in Hm as (X & Y & Z). first [discriminate X|discriminate Y|discriminate Z].
    + inversion Hm as [m0 ps ts' items vs' Hmd Hs Hr Hrd Hd|label vals v Hmd]; [|discriminate Hmd]. subst.
      inversion Hs as [m0 ps0 ts0 Hx|m0 ps0 ts0 rest Hx|m0 ps0 ts0 rest bf d af m1 ps1 ts1 Hx Hch Hmd1]; subst.
      * discriminate Hx.
      * split; [reflexivity|]. assert (ts' = map (Tok PNone) words) as ->.
        { destruct Hx as (_ & nm & X & Y). injection Y as _ Y. now rewrite Y. }
        destruct (adv_reading_options int_t [] _ items Hrd words eq_refl) as (opts & -> & Ea & Hnd & _).
        rewrite Ea in Hd. apply (adv_values int_t Hi opts vs Hnd) in Hd as (x & y & A & B & C). exists opts, x, y. exact (conj eq_refl (conj Hnd (conj A (conj B C)))).
      * exfalso. change (n_children (rne_advanced int_t true)) with [rne_feature1; rne_feature2 int_t] in Hch.
        assert (Hin : In d [rne_feature1; rne_feature2 int_t]) by (rewrite Hch; apply in_or_app; right; now left).
        destruct Hin as [<-|[<-|[]]]; discriminate Hmd1.
    + exfalso. assert (X := Hp (rne_advanced int_t true) (or_intror (or_intror (or_introl eq_refl)))). destruct X as [_ X]. exact (X _ Hn).
    + exfalso. now destruct before.
  - intros (-> & opts & x & y & -> & Hnd & -> & Hx & Hy).
    exists [rne_help; rne_version], (rne_advanced int_t true), [rne_mode true]. split; [reflexivity|]. split.
    + intros d [<-|[<-|[]]].
      * apply (simple_passed rne_help _ Hh eq_refl). intros t us E. injection E as <- _. vm_compute. reflexivity.
      * apply (simple_passed rne_version _ Hv eq_refl). intros t us E. injection E as <- _. vm_compute. reflexivity.
    + destruct (adv_options_reading int_t opts Hnd []) as (items & Hr & Ea); [intros o _ [l []]|].
      eapply means_mode; [reflexivity|apply sel_named; [exact Hn|intros c rest' [<-|[<-|[]]] X; discriminate X]|reflexivity|exact Hr|]. rewrite Ea.
      apply (adv_values int_t Hi opts _ Hnd). exists x, y. exact (conj eq_refl (conj Hx Hy)).
Qed.

Lemma adv_calls int_t words n vs : vt_container int_t = false -> in_memory (b "advanced" :: words) ->
  calls_router (runtime_node_enable int_t true) [] (map (Tok PNone) (b "advanced" :: words)) n vs <->
  n = rne_advanced int_t true /\ exists opts x y, words = flat_map adv_words opts /\ NoDup (map adv_slot opts)
    /\ vs = [VBool x; y] /\ (x = true <-> In Feature1 opts)
    /\ ((exists s, In (Feature2 s) opts /\ vt_parse int_t s = Ok y) \/ (forall s, ~ In (Feature2 s) opts) /\ y = VInt 42).
Proof.
  intros Hi Hm.
  rewrite (fresh_routes _ _ _ n vs (example_fresh _ (b "advanced" :: words) (rne_well_formed int_t true) (rne_top int_t true) Hm)).
  exact (adv_routes int_t words n vs Hi).
Qed.

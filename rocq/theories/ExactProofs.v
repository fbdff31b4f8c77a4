(** A whole parse calls a router exactly when SpecReading.v says so. *)
From Verif Require Import Bytes Token Adapter Result CodePoint Utf8 Tree Levenshtein PreParse Parse Root Validator.
From Verif Require Import SpecPolicy SpecTokens SpecTake SpecMode SpecDeliver SpecRoot SpecReading SpecFault SpecOutcome SpecClaims.
From Verif Require Import OrderProofs TreeProofs NodeProofs TakeProofs ModeProofs SelectProofs ParseProofs MeaningProofs RootProofs FaultProofs ReadProofs OutcomeProofs.

(** ** Determinism *)

Lemma names_mode_det m ts r1 r2 : names_mode m ts r1 -> names_mode m ts r2 -> r1 = r2.
Proof. intros (_ & n1 & H1 & ->) (_ & n2 & H2 & [= _ E]). easy. Qed.

Lemma selects_det m ps ts m1 p1 t1 : selects m ps ts m1 p1 t1 -> forall m2 p2 t2, selects m ps ts m2 p2 t2 ->
  m1 = m2 /\ p1 = p2 /\ t1 = t2.
Proof.
  induction 1 as [m ps ts Hn|m ps ts rest Hn Hno|m ps ts rest bf c af m' ps' ts' Hn Hcs Hcm Hc Hno Hsel IH];
    intros m2 p2 t2 H2.
  - inversion H2 as [a b c0 d|a b c0 rest (_ & nm & Hnm & _) _|a b c0 rest x c y m3 p3 t3 (_ & nm & Hnm & _)]; subst;
      [easy|congruence|congruence].
  - inversion H2 as [a b c0 Hx|a b c0 rest2 Hn2 _|a b c0 rest2 x c y m3 p3 t3 Hn2 Hcs Hcm Hc Hno2 Hsel]; subst.
    + destruct Hn as (_ & nm & Hnm & _). congruence.
    + now rewrite (names_mode_det _ _ _ _ Hn Hn2).
    + rewrite (names_mode_det _ _ _ _ Hn Hn2) in *. destruct Hc as [r Hr]. exfalso. apply (Hno c r); auto.
      rewrite Hcs. apply in_elt.
  - inversion H2 as [a b c0 Hx|a b c0 rest2 Hn2 Hno2|a b c0 rest2 x c2 y m3 p3 t3 Hn2 Hcs2 Hcm2 Hc2 Hno2 Hsel2]; subst.
    + destruct Hn as (_ & nm & Hnm & _). congruence.
    + rewrite (names_mode_det _ _ _ _ Hn Hn2) in *. destruct Hc as [r Hr]. exfalso. apply (Hno2 c r); auto.
      rewrite Hcs. apply in_elt.
    + rewrite (names_mode_det _ _ _ _ Hn Hn2) in *.
      destruct (first_split (fun d => is_mode d = true /\ exists r, names_mode d rest2 r) bf c af x c2 y) as (-> & <- & ->);
        auto.
      * congruence.
      * intros u Hu [H1 [r Hr]]. now apply (Hno u r).
      * intros u Hu [H1 [r Hr]]. now apply (Hno2 u r).
Qed.

Lemma reads_as_det l s v w : reads_as l s v -> reads_as l s w -> v = w.
Proof. unfold reads_as. destruct (custom_parser l); congruence. Qed.

Lemma value_of_det l ts v w : value_of l ts v -> value_of l ts w -> v = w.
Proof.
  intros H1 H2.
  destruct H1 as [vals Hk|c t ts v Hk Hc Hr Hi|c Hk Hc Hi|c ts vs Hk Hc Hr Hi];
    inversion H2 as [vals' Hk'|c' t' ts' v' Hk' Hc' Hr' Hi'|c' Hk' Hc' Hi'|c' ts' vs' Hk' Hc' Hr' Hi']; subst; try easy;
    try (destruct Hk; congruence); try (destruct Hk'; congruence); try congruence.
  - now apply (reads_as_det l (t_name t)).
  - f_equal. clear Hi Hi' H2. revert vs' Hr'. induction Hr as [|t v ts vs Hx _ IH]; intros vs' Hr'.
    + now inversion Hr'.
    + inversion Hr' as [|? w ? ws Hy Hz]; subst. f_equal; [now apply (reads_as_det l (t_name t))|now apply IH].
Qed.

Lemma gathered_det o asg r1 : gathered o asg r1 -> forall r2, gathered o asg r2 -> r1 = r2.
Proof.
  induction 1 as [o|o l vals v mg more r Hv Hm Hg IH|l vals v more r Hv Hm Hg IH]; intros r2 H2;
    inversion H2 as [|o' l' vals' v' mg' more' r' Hv' Hm' Hg'|l' vals' v' more' r' Hv' Hm' Hg']; subst; try congruence.
  - rewrite (value_of_det _ _ _ _ Hv Hv') in *. assert (mg = mg') by congruence. subst. now apply IH.
  - rewrite (value_of_det _ _ _ _ Hv Hv') in *. now apply IH.
Qed.

Lemma delivered_det c asg v w : delivered c asg v -> delivered c asg w -> v = w.
Proof.
  intros [v1 Hg _|v1 Hn _ -> _] [v2 Hg' _|v2 Hn' _ -> _].
  - pose proof (gathered_det _ _ _ Hg _ Hg') as E. now injection E.
  - rewrite Hn' in Hg. inversion Hg.
  - rewrite Hn in Hg'. inversion Hg'.
  - easy.
Qed.

Lemma deliveries_det m asg v w : deliveries m asg v -> deliveries m asg w -> v = w.
Proof.
  intros [_ H1] [_ H2]. revert w H2. induction H1 as [|c x cs vs Hc _ IH]; intros w H2; inversion H2; subst; [easy|].
  f_equal; [now apply (delivered_det c asg)|now apply IH].
Qed.

Lemma means_det root c ts n vs : means root c ts n vs -> forall n' vs', means root c ts n' vs' -> n = n' /\ vs = vs'.
Proof.
  intros [m ps ts' items w Hm Hsel Hr Hrd Hdl|label vals v Hm Hk Hc He Hco Hv] n' vs' H2;
    inversion H2 as [m2 ps2 ts2 items2 w2 Hm2 Hsel2 Hr2 Hrd2 Hdl2|label2 vals2 v2 Hm2 Hk2 Hc2 He2 Hco2 Hv2]; subst;
    try congruence.
  - destruct (selects_det _ _ _ _ _ _ Hsel _ _ _ Hsel2) as (<- & <- & <-). split; [easy|].
    rewrite <- (reading_det _ _ _ _ Hrd _ Hrd2) in Hdl2. now apply (deliveries_det m (flat_map (assigned m) items)).
  - split; [easy|]. destruct (consumes_det _ _ _ _ _ _ _ _ Hco Hco2) as (_ & <- & _).
    now rewrite (value_of_det _ _ _ _ Hv Hv2).
Qed.

(** A child that the tokens mean something to is not passed over. *)
Lemma means_not_passed root c ts n vs : means root c ts n vs -> ~ passed_over ts c.
Proof.
  intros [m ps ts' items w Hm Hsel Hr Hrd Hdl|label vals v Hm Hk Hc He Hco Hv] Hp; unfold passed_over in Hp; rewrite Hm in Hp.
  - destruct Hp as [H1 H2]. destruct (selects_named _ _ _ _ _ _ Hsel H1) as [rest Hx]. now apply (H2 rest).
  - destruct Hp as [_ [H|H]]; [easy|]. apply H. now apply (consumes_addressed c ts label vals []).
Qed.

Lemma routes_det root ts n vs n' vs' : routes root ts n vs -> routes root ts n' vs' -> n = n' /\ vs = vs'.
Proof.
  intros (bf & c & af & Hcs & Hbf & Hm) (bf' & c' & af' & Hcs' & Hbf' & Hm').
  destruct (first_split (fun d => ~ passed_over ts d) bf c af bf' c' af') as (-> & <- & ->).
  - now rewrite <- Hcs.
  - now apply (means_not_passed root c ts n vs).
  - now apply (means_not_passed root c' ts n' vs').
  - intros u Hu Hx. now apply Hx, Hbf.
  - intros u Hu Hx. now apply Hx, Hbf'.
  - now apply (means_det root c ts).
Qed.

(** ** No tokens at all *)

Lemma transfer_empty it : transfer (Adp [] []) it = Adp [] [].
Proof.
  unfold transfer. cbn [a_proc a_unproc]. destruct (_ || _); [reflexivity|].
  now rewrite firstn_nil, skipn_nil.
Qed.

Lemma empty_phase p pt tg n parents r : (forall ns, p <> PAlias ns) -> (forall ns, p <> PDependent ns) ->
  pre_parse_phase p (Adp [] []) pt tg n parents = Some r ->
  exists m, r = Ok (Adp [] [], tg, m) /\ m <> Act UseSubs.
Proof.
  intros Ha Hd H. destruct p; try discriminate; cbn [pre_parse_phase] in H;
    try (now destruct (Ha ns)); try (now destruct (Hd ns)).
  all: injection H as <-.
  all: try (eexists; split; [reflexivity|]; try discriminate; match goal with |- context [if ?b then _ else _] => destruct b end; discriminate).
  - unfold phase_min_max_count. destruct (_ && _); [eexists; split; [reflexivity|discriminate]|].
    destruct (N.ltb _ _); [eexists; split; [reflexivity|discriminate]|]. rewrite transfer_empty.
    eexists; split; [reflexivity|discriminate].
  - unfold phase_end_marker. cbn [a_all a_proc a_unproc app]. rewrite skipn_nil. cbn [find_marker].
    rewrite transfer_empty. rewrite erase_end. cbn. eexists; split; [reflexivity|discriminate].
Qed.

Lemma empty_run ps pt tg n parents : (forall ns, ~ In (PAlias ns) ps) -> (forall ns, ~ In (PDependent ns) ps) ->
  forall m, m <> Act UseSubs ->
  exists m', run_policies ps (Adp [] []) pt tg n parents m = Ok (Adp [] [], tg, m') /\ m' <> Act UseSubs.
Proof.
  induction ps as [|p ps IH]; intros Ha Hd m Hm; cbn [run_policies]; [eauto|].
  assert (IH' := IH (fun ns H => Ha ns (or_intror H)) (fun ns H => Hd ns (or_intror H))).
  destruct (pre_parse_phase p (Adp [] []) pt tg n parents) as [r|] eqn:E; [|now apply IH'].
  apply empty_phase in E as (m1 & -> & Hm1).
  - destruct m as [[]|]; now apply IH'.
  - intros ns ->. apply (Ha ns). now left.
  - intros ns ->. apply (Hd ns). now left.
Qed.

Lemma empty_named n parents pt v mem : is_named n = true -> (forall ns, ~ In (PAlias ns) (n_pols n)) ->
  (forall ns, ~ In (PDependent ns) (n_pols n)) ->
  node_pre_parse n parents pt v (PS [] mem) = (PS [] mem, Ok None).
Proof.
  intros Hn Ha Hd. unfold node_pre_parse. cbn [p_args].
  destruct (empty_run (priority_order (n_pols n)) pt (Target n parents [] []) n parents) with (m := Act Valid) as (m & E & Hm).
  - intros ns H. apply (Permutation.Permutation_in _ (priority_order_perm _)) in H. now apply Ha in H.
  - intros ns H. apply (Permutation.Permutation_in _ (priority_order_perm _)) in H. now apply Hd in H.
  - discriminate.
  - unfold mbind at 1, mlift at 1. rewrite E.
    assert (Hc : check_label n m (Adp [] []) = None) by (unfold check_label; rewrite Hn; destruct m as [[]|]; easy).
    rewrite Hc. destruct m as [[]|]; reflexivity.
Qed.

(** ** The children of the root *)

Lemma nodup_flat_map_nth {A B} (f : A -> list B) l : NoDup (flat_map f l) -> forall i j x y b,
  nth_error l i = Some x -> nth_error l j = Some y -> In b (f x) -> In b (f y) -> i = j.
Proof.
  induction l as [|a l IH]; intros H [|i] [|j] x y b Hx Hy Hbx Hby; try discriminate; auto.
  - injection Hx as <-. cbn [nth_error flat_map] in *. exfalso. apply (nodup_app_disj _ _ b H Hbx).
    apply in_flat_map. exists y. split; [eapply nth_error_In; exact Hy|easy].
  - injection Hy as <-. cbn [nth_error flat_map] in *. exfalso. apply (nodup_app_disj _ _ b H Hby).
    apply in_flat_map. exists x. split; [eapply nth_error_In; exact Hx|easy].
  - f_equal. cbn [nth_error flat_map] in *. apply (IH (nodup_app_r _ _ H) i j x y b); auto.
Qed.

Lemma objects_eq n : flat_map one_of_object (below n)
  = one_of_object n ++ flat_map (fun c => flat_map one_of_object (below c)) (n_children n).
Proof.
  rewrite below_eq. cbn [flat_map]. f_equal. induction (n_children n) as [|c cs IH]; [easy|].
  cbn [flat_map]. now rewrite flat_map_app, IH.
Qed.

Lemma objects_below n : forall m, In m (below n) -> NoDup (flat_map one_of_object (below n)) ->
  NoDup (flat_map one_of_object (below m)).
Proof.
  induction n as [k id ty pols cs IH] using node_ind'. intros m Hm H. rewrite Forall_forall in IH.
  rewrite below_eq in Hm. destruct Hm as [<-|Hm]; [easy|]. apply in_flat_map in Hm as (c & Hc & Hm).
  cbn [n_children] in Hc. apply (IH c Hc m Hm). rewrite objects_eq in H. apply nodup_app_r in H. cbn [n_children] in H.
  clear -H Hc. induction cs as [|d cs IHc]; [easy|]. cbn [flat_map] in H. destruct Hc as [<-|Hc].
  - now apply nodup_app_l in H.
  - apply IHc; [easy|]. now apply nodup_app_r in H.
Qed.

Lemma objects_choices root m : distinct_objects root -> In m (below root) -> distinct_choices m.
Proof.
  intros H Hm i j c d inst Hi Hj Hc Hd. apply (objects_below root m Hm) in H.
  rewrite objects_eq in H. apply nodup_app_r in H.
  apply (nodup_flat_map_nth _ _ H i j c d inst Hi Hj); apply in_flat_map.
  - exists c. split; [apply below_self|]. unfold one_of_object. rewrite Hc. now left.
  - exists d. split; [apply below_self|]. unfold one_of_object. rewrite Hd. now left.
Qed.

Lemma unset_mem root m mem : unset root mem -> In m (below root) -> mem_ok m [] mem.
Proof.
  intros H Hm i c inst Hi Hk. rewrite (H inst).
  - intros [l []].
  - apply in_flat_map. exists c. split.
    + apply (below_trans root m); [easy|]. apply (below_child c); [|apply below_self].
      eapply nth_error_In; exact Hi.
    + unfold one_of_object. rewrite Hk. now left.
Qed.

Lemma no_routes_help n parents ts : forall x vs, ~ In (EvRoute x vs) (fst (help_parse n parents ts [])).
Proof.
  intros x vs. unfold help_parse. destruct (rev parents) as [|r rr]; [easy|].
  unfold ebind, elift, emit, eret. destruct (find_help_target ts r) as [t| | | |]; try easy.
  destruct (has_router n); cbn; intros [H|[]]; discriminate.
Qed.

(** What child [c] of the root does with the tokens. *)
Inductive child_result (r c : node) (ts : list token) (s : pst) : pst * res (option target) -> Prop :=
| cr_passed : passed_over ts c -> child_result r c ts s (s, Ok None)
| cr_means mem t n vs x : means r c ts n vs -> exec t [] = ([EvRoute n vs], Ok x) ->
    child_result r c ts s (PS [] mem, Ok (Some t))
| cr_help mem label vals : ~ passed_over ts c -> (forall n vs, ~ means r c ts n vs) ->
    n_kind c = KHelp -> claimed c ts -> consumes c ts label vals [] ->
    child_result r c ts s (PS [] mem, Ok (Some (Target c [r] vals [])))
| cr_fails s' t x : ~ passed_over ts c -> (forall n vs, ~ means r c ts n vs) -> wrong r c ts x ->
    (p_args s' = [] -> exists y, exec t [] = ([], y) /\ same_failure y x) ->
    (p_args s' <> [] -> x = Throw (EML unhandled_arguments (p_args s'))) ->
    child_result r c ts s (s', Ok (Some t))
| cr_stops s' y x : ~ passed_over ts c -> (forall n vs, ~ means r c ts n vs) -> wrong r c ts x ->
    same_failure y x -> child_result r c ts s (s', y).

Lemma mode_exact r c f s : accepted r = true -> countless_modes r -> distinct_modes r -> sane_tree r ->
  distinct_objects r -> unset r (p_mem s) -> In c (n_children r) -> is_mode c = true ->
  fits (p_args s) -> args_weight (p_args s) <= f ->
  child_result r c (p_args s) s (pre_parse f c [r] None always_true s).
Proof.
  intros Ha Hcm Hdm Hsane Hdo Hun Hc Hm Hf Hw.
  pose proof (root_child r c Ha Hc) as Htc. pose proof (tc_ok _ _ Htc) as Hs.
  destruct (mode_selected f c [r] [r] None s Hs Hm (plain_modes_sub r c Hcm Hc))
    as [(m & ps & ts' & tp' & Hsel & Hmm & Hin & Hsm & Heq)|(H1 & H2 & Heq)]; rewrite Heq.
  2:{ apply cr_passed. unfold passed_over. rewrite Hm. easy. }
  assert (Hmr : In m (below r)) by now apply (below_child c).
  assert (Hnp : ~ passed_over (p_args s) c).
  { unfold passed_over. rewrite Hm. intros [H1 H2]. destruct (selects_named _ _ _ _ _ _ Hsel H1) as [rest Hx].
    now apply (H2 rest). }
  assert (Hwt : args_weight ts' <= args_weight (p_args s)).
  { clear -Hsel. induction Hsel as [m ps ts Hn|m ps ts rest (_ & nm & _ & ->) Hno|m ps ts rest bf c af m' ps' ts' (_ & nm & _ & ->) Hcs Hcm Hc Hno Hsel IH].
    - lia.
    - rewrite args_weight_cons. lia.
    - rewrite args_weight_cons. lia. }
  unfold mode_start.
  assert (Hd : distinct_types m) by now apply Hdm.
  destruct (loop_exact m tp' ps Hsm Hmm Hd (objects_choices r m Hdo Hmr)) with (f := f) (fuel := f) (done := @nil (nat * node))
    (tg := Target m ps [] []) (seen := map (fun _ => false) (n_children m)) (s := PS ts' (p_mem s))
    as [(items & subs & mem' & Hrd & Hrun & Has & Hg & Hew)|(Hno & s' & y & x & Hrun & Hy & Hx)].
  - intros l Hl. apply Hsane. now apply (below_trans r m).
  - constructor.
    + now rewrite map_length.
    + intros i. split; [|intros [l []]]. intros H. exfalso.
      assert (Hx : forall k, nth k (map (fun _ : node => false) (n_children m)) false = false).
      { intros k. clear. revert k. induction (n_children m) as [|x l IH]; intros [|k]; cbn; auto. }
      rewrite Hx in H. discriminate.
    + now apply (unset_mem r m).
    + easy.
    + intros id. cbn [tg_subs]. split; [intros (x & [] & _)|intros (a & d & [] & _)].
    + intros a [].
  - unfold fits in *. cbn [p_args]. lia.
  - cbn [p_args]. lia.
  - cbn [p_args] in Hrd. rewrite Hrun. cbn [add_subs app].
    assert (Hr : forall n vs, means r c (p_args s) n vs -> n = m /\ has_router m = true /\ deliveries m (flat_map (assigned m) items) vs).
    { intros n vs Hme. inversion Hme as [m2 ps2 ts2 items2 w2 Hm2 Hsel2 Hr2 Hrd2 Hdl2|]; subst; [|congruence].
      destruct (selects_det _ _ _ _ _ _ Hsel _ _ _ Hsel2) as (<- & <- & <-).
      rewrite <- (reading_det _ _ _ _ Hrd _ Hrd2) in Hdl2. easy. }
    destruct (mode_parse_exact m subs [] Hd Hg) as [(vs & Er & Hdl & Hex)|(y & x & Hex & Hy & Hu)]; rewrite Has in *.
    + apply (cr_means r c (p_args s) s mem' _ m vs None).
      * now apply (means_mode r c (p_args s) m ps ts' items vs).
      * rewrite exec_mode by easy. exact Hex.
    + apply (cr_fails _ _ _ _ _ _ x); [easy| | | |].
      * intros n vs Hme. apply Hr in Hme as (_ & Er & Hdl).
        destruct (mode_parse_spec m subs [] Hd Hg Er) as [(w & _ & Hex')|(Hndl & _)].
        -- rewrite Hex in Hex'. injection Hex' as Hl _. discriminate.
        -- rewrite Has in Hndl. now apply Hndl in Hdl.
      * eapply wrong_values; eauto.
      * intros _. rewrite exec_mode by easy. rewrite Hex. eauto.
      * cbn [p_args]. easy.
  - rewrite Hrun. apply (cr_stops _ _ _ _ _ _ x); auto; [|cbn [p_args] in Hx; eapply wrong_arguments; eauto]. intros n vs Hme.
    inversion Hme as [m2 ps2 ts2 items2 w2 Hm2 Hsel2 Hr2 Hrd2 Hdl2|]; subst; [|congruence].
    destruct (selects_det _ _ _ _ _ _ Hsel _ _ _ Hsel2) as (<- & <- & <-). now apply (Hno items2).
Qed.

(** What a mode makes of the tokens before its parse stage. *)
Lemma mode_typed r c f s : accepted r = true -> countless_modes r -> distinct_modes r -> sane_tree r ->
  distinct_objects r -> unset r (p_mem s) -> In c (n_children r) -> is_mode c = true ->
  fits (p_args s) -> args_weight (p_args s) <= f ->
  (exists m ps ts' items, selects c [r] (p_args s) m ps ts' /\ reading m [] ts' items
     /\ exists mem' t, pre_parse f c [r] None always_true s = (PS [] mem', Ok (Some t)) /\ tg_node t = m
          /\ map assignment (tg_subs t) = flat_map (assigned m) items /\ ends_with m [] items mem'
          /\ pre_parse f c [r] None always_true s = mode_start f m ps (PS ts' (p_mem s)))
  \/ (passed_over (p_args s) c /\ pre_parse f c [r] None always_true s = (s, Ok None))
  \/ exists s' x, pre_parse f c [r] None always_true s = (s', x) /\ (forall o, x <> Ok o)
       /\ forall m ps ts' items, selects c [r] (p_args s) m ps ts' -> ~ reading m [] ts' items.
Proof.
  intros Ha Hcm Hdm Hsane Hdo Hun Hc Hm Hf Hw.
  pose proof (root_child r c Ha Hc) as Htc. pose proof (tc_ok _ _ Htc) as Hs.
  destruct (mode_selected f c [r] [r] None s Hs Hm (plain_modes_sub r c Hcm Hc))
    as [(m & ps & ts' & tp' & Hsel & Hmm & Hin & Hsm & Heq)|(H1 & H2 & Heq)]; rewrite Heq.
  2:{ right. left. unfold passed_over. rewrite Hm. easy. }
  assert (Hmr : In m (below r)) by now apply (below_child c).
  assert (Hwt : args_weight ts' <= args_weight (p_args s)).
  { clear -Hsel. induction Hsel as [m ps ts Hn|m ps ts rest (_ & nm & _ & ->) Hno|m ps ts rest bf c af m' ps' ts' (_ & nm & _ & ->) Hcs Hcm Hc Hno Hsel IH].
    - lia.
    - rewrite args_weight_cons. lia.
    - rewrite args_weight_cons. lia. }
  unfold mode_start.
  assert (Hd : distinct_types m) by now apply Hdm.
  destruct (loop_exact m tp' ps Hsm Hmm Hd (objects_choices r m Hdo Hmr)) with (f := f) (fuel := f) (done := @nil (nat * node))
    (tg := Target m ps [] []) (seen := map (fun _ => false) (n_children m)) (s := PS ts' (p_mem s))
    as [(items & subs & mem' & Hrd & Hrun & Has & Hg & Hew)|(Hno & s' & y & x & Hrun & Hy & Hx)].
  - intros l Hl. apply Hsane. now apply (below_trans r m).
  - constructor.
    + now rewrite map_length.
    + intros i. split; [|intros [l []]]. intros H. exfalso.
      assert (Hx : forall k, nth k (map (fun _ : node => false) (n_children m)) false = false).
      { intros k. clear. revert k. induction (n_children m) as [|x l IH]; intros [|k]; cbn; auto. }
      rewrite Hx in H. discriminate.
    + now apply (unset_mem r m).
    + easy.
    + intros id. cbn [tg_subs]. split; [intros (x & [] & _)|intros (a & d & [] & _)].
    + intros a [].
  - unfold fits in *. cbn [p_args]. lia.
  - cbn [p_args]. lia.
  - left. exists m, ps, ts', items. cbn [p_args] in Hrd. split; [easy|]. split; [easy|]. exists mem'. rewrite Hrun. eexists.
    split; [reflexivity|]. repeat (split; [easy|]). reflexivity.
  - right. right. rewrite Hrun. exists s', y. split; [easy|]. split; [intros o ->; easy|].
    intros m2 ps2 ts2 items2 Hsel2. destruct (selects_det _ _ _ _ _ _ Hsel _ _ _ Hsel2) as (<- & <- & <-). apply Hno.
Qed.

Lemma top_no_dependent r c ns : accepted r = true -> In c (n_children r) -> ~ In (PDependent ns) (n_pols c).
Proof.
  intros Ha Hc Hin. pose proof (accepted_sub r Ha) as [Hr Hs].
  pose proof (sub_ok_self _ _ (sub_ok_child _ _ _ Hs Hc)) as Hok.
  apply node_ok_policies in Hok as (_ & _ & H). destruct (H _ Hin) as [Hp _]. cbn [policy_static] in Hp.
  pose proof (sub_ok_self _ _ Hs) as Hrk. apply node_ok_policies in Hrk as (Hrs & _ & _).
  unfold node_static in Hrs. unfold is_root in Hr. destruct (n_kind r); try discriminate.
  assert (Hnr : has_router r = false).
  { repeat match goal with Hx : _ && _ = true |- _ => apply andb_true_iff in Hx as [? ?] end.
    now apply negb_true_iff. }
  unfold nearest_mode_like in Hp. cbn [find] in Hp. rewrite Hnr in Hp. discriminate.
Qed.

Lemma top_leaf_exact r c f s : accepted r = true -> sane_tree r -> In c (n_children r) -> is_mode c = false ->
  p_args s <> [] \/ named_top r -> fits (p_args s) ->
  child_result r c (p_args s) s (pre_parse f c [r] None always_true s).
Proof.
  intros Ha Hsane Hc Hm Hne Hf. pose proof (root_child r c Ha Hc) as [Hs [Hk|(L & _ & Hal & Hkind)]]; [congruence|].
  rewrite leaf_pre_parse by apply L.
  pose proof (top_no_dependent r c) as Hdep.
  assert (Hno : passed_over (p_args s) c -> forall n vs, ~ means r c (p_args s) n vs)
    by (intros H n vs Hme; now apply means_not_passed in Hme).
  destruct (p_args s) as [|t0 ts0] eqn:Ea.
  - destruct Hne as [?|Hn]; [easy|]. destruct (Hn c Hc) as [?|Hnm]; [congruence|].
    destruct s as [a mem]. cbn [p_args] in Ea. subst a. rewrite empty_named by (auto; intros ns; now apply Hdep).
    apply cr_passed. unfold passed_over. rewrite Hm. split.
    + intros [(sep & t & us & l & x & y & _ & H & _)|[(t & value & us & H & _)|(_ & _ & (sep & t & us & _ & H & _))]];
        [easy|inversion H|easy].
    + right. intros [(_ & [(t & value & us & t' & us' & H & _)|(sep & t & us & _ & H & _)])|[H _]];
        [inversion H|easy|congruence].
  - rewrite <- Ea. rewrite <- Ea in Hf, Hno. assert (Hne' : p_args s <> []) by (rewrite Ea; discriminate).
    clear Ea t0 ts0 Hne.
    assert (HR : node_result c [r] None always_true s (node_pre_parse c [r] None always_true s)).
    { apply node_exact; auto; try apply L.
      - apply Hsane; [apply (below_child c); [easy|apply below_self]|].
        unfold is_argument. destruct L as [L _ _]. unfold is_leaf in L. now destruct (n_kind c).
      - apply (leaf_count c [r]); [now apply sub_ok_self|apply L].
      - intros ns H. now apply Hal in H.
      - intros ns H. now apply Hdep in H. }
    assert (Hadd : forall label vals rest, consumes c (p_args s) label vals rest -> addressed c (p_args s))
      by (intros; eapply consumes_addressed; eassumption).
    assert (Hclaim : ~ chokes c (p_args s) -> enabled c -> addressed c (p_args s) -> claimed c (p_args s)).
    { intros H1 H2 H3. split; [|auto]. intros x Hx. apply H1. now apply (breaks_chokes c _ x). }
    destruct HR as [label vals rest toks subs He Hch Hco _ Hmk|Hch Hp|e d Hch He Hadr Hbad|y x Hch Hx|Hch Hdis Huns Hnm].
    + assert (Hnp : ~ passed_over (p_args s) c).
      { unfold passed_over. rewrite Hm. intros [_ [H|H]]; [easy|]. apply H. eauto. }
      pose proof (Hclaim Hch He (Hadd _ _ _ Hco)) as Hcl.
      unfold after_check, always_true.
      assert (Hms : toks = vals /\ subs = []).
      { destruct Hmk as [(_ & H)|(ns & md & H & _)]; [easy|exfalso]. now apply Hal in H. }
      destruct Hms as [-> ->].
      assert (Hrest : rest <> [] -> child_result r c (p_args s) s (PS rest (p_mem s), Ok (Some (Target c [r] vals [])))).
      { intros Hrest. apply (cr_fails _ _ _ _ _ _ (Throw (EML unhandled_arguments rest))); [easy| | | |easy].
        - intros n vs Hme. inversion Hme as [|label2 vals2 v2 _ _ _ _ Hco2]; subst; [congruence|].
          destruct (consumes_det _ _ _ _ _ _ _ _ Hco Hco2) as (_ & _ & Hx). congruence.
        - now apply (wrong_unhandled r c _ label vals rest).
        - cbn [p_args]. easy. }
      destruct rest as [|t rest]; [|apply Hrest; discriminate]. clear Hrest.
      destruct Hkind as [Hh|(Hv & Hr & Hnc)].
      * apply (cr_help _ _ _ _ _ label); auto.
        intros n vs Hme. inversion Hme; subst; [congruence|easy].
      * destruct (router_leaf c [r] vals [] Hv Hr Hnc) as [(v & Hvo & Hex)|(Hnv & y & Hex & Hy)].
        -- eapply cr_means; [|exact Hex]. apply (means_argument r c (p_args s) label vals v); auto.
           unfold is_value_leaf in Hv. now destruct (n_kind c).
        -- destruct (router_leaf_fails c [r] vals [] y Hv Hr Hnc Hex Hy) as (x & Hx1 & Hx2).
           apply (cr_fails _ _ _ _ _ _ x); [easy| | | |easy].
           ++ intros n vs Hme. inversion Hme as [|label2 vals2 v2 _ _ _ _ Hco2 Hv2]; subst; [congruence|].
              destruct (consumes_det _ _ _ _ _ _ _ _ Hco Hco2) as (_ & <- & _). now apply Hnv in Hv2.
           ++ eapply wrong_value; eauto. unfold is_value_leaf in Hv. now destruct (n_kind c).
           ++ intros _. rewrite Hex. eauto.
    + apply cr_passed. unfold passed_over. rewrite Hm. easy.
    + unfold after_check, always_true. destruct Hbad as [(Hb & Href & ->)|(_ & Hb & _)].
      2:{ exfalso. apply Hb. intros ns Hin. now apply Hdep in Hin. }
      eapply cr_stops; [| | |reflexivity].
      * unfold passed_over. rewrite Hm. intros [_ [H|H]]; easy.
      * intros n vs Hme. inversion Hme as [|label2 vals2 v2 _ _ _ _ Hco2]; subst; [congruence|].
        now apply Hb in Hco2.
      * rewrite <- shown_token. apply wrong_refused; auto.
    + pose proof (breaks_chokes c _ x Hch) as Hck. apply (cr_stops _ _ _ _ _ _ x); [| | |easy].
      * unfold passed_over. rewrite Hm. intros [H _]; easy.
      * intros n vs Hme. inversion Hme; subst; [congruence|easy].
      * now apply wrong_breaks.
    + assert (Hck : chokes c (p_args s)) by (right; right; easy).
      unfold after_check, always_true. eapply cr_stops; [| | |reflexivity].
      * unfold passed_over. rewrite Hm. intros [H _]; easy.
      * intros n vs Hme. inversion Hme; subst; [congruence|easy].
      * rewrite <- shown_token. apply wrong_refused; [easy| |now apply refused_separator].
        split; [easy|]. split; [|auto]. left. auto.
Qed.

(** ** The command line *)

Lemma try_exact f r : accepted r = true -> countless_modes r -> distinct_modes r -> sane_tree r ->
  distinct_objects r -> forall cs, (forall c, In c cs -> In c (n_children r)) -> forall s,
  unset r (p_mem s) -> fits (p_args s) -> args_weight (p_args s) <= f -> p_args s <> [] \/ named_top r ->
  exists s' tr res, root_try f r cs s = (s', tr, res)
    /\ ((exists n vs, (exists before c after, cs = before ++ c :: after
            /\ (forall d, In d before -> passed_over (p_args s) d) /\ means r c (p_args s) n vs)
          /\ tr = [EvRoute n vs] /\ res = Ok true)
        \/ ((forall before c after n vs, cs = before ++ c :: after ->
              (forall d, In d before -> passed_over (p_args s) d) -> ~ means r c (p_args s) n vs)
            /\ ((exists before c after x, cs = before ++ c :: after
                   /\ (forall d, In d before -> passed_over (p_args s) d) /\ wrong r c (p_args s) x
                   /\ tr = [] /\ same_failure res x)
                \/ (exists before c after label vals, cs = before ++ c :: after
                   /\ (forall d, In d before -> passed_over (p_args s) d) /\ n_kind c = KHelp
                   /\ claimed c (p_args s) /\ ~ passed_over (p_args s) c /\ consumes c (p_args s) label vals []
                   /\ tr = fst (help_parse c [r] vals []) /\ res = (_ <- snd (help_parse c [r] vals []) ;; Ok true)%res)
                \/ (forall c, In c cs -> passed_over (p_args s) c) /\ tr = [] /\ res = Ok false))).
Proof.
  intros Ha Hcm Hdm Hsane Hdo. induction cs as [|c cs IH]; intros Hcs s Hun Hf Hw Hne.
  - cbn [root_try]. eexists _, _, _. split; [reflexivity|]. right. split.
    2:{ right. right. easy. }
    intros [|] ? ? ? ? H; discriminate.
  - assert (Hc : In c (n_children r)) by (apply Hcs; now left).
    assert (HR : child_result r c (p_args s) s (pre_parse f c [r] None always_true s)).
    { destruct (is_mode c) eqn:Em; [now apply mode_exact|now apply top_leaf_exact]. }
    cbn [root_try].
    assert (Hend : ~ passed_over (p_args s) c -> (forall n vs, ~ means r c (p_args s) n vs) ->
      forall before c0 after n vs, c :: cs = before ++ c0 :: after ->
              (forall d, In d before -> passed_over (p_args s) d) -> ~ means r c0 (p_args s) n vs).
    { intros H1 H2 [|d before] c0 after n vs H Hb; injection H as <- ->; [apply H2|].
      exfalso. apply H1, Hb. now left. }
    destruct HR as [Hp|mem t n vs x Hme Hex|mem label vals Hnp Hnm Hk Hcl Hco|s' t x Hnp Hnm Hwr Hev Hun'|s' y x Hnp Hnm Hwr Hx].
    + assert (Hall : forall bf, (forall d, In d bf -> passed_over (p_args s) d) ->
                forall d, In d (c :: bf) -> passed_over (p_args s) d).
      { intros bf H d [<-|Hd]; auto. }
      destruct (IH (fun d H => Hcs d (or_intror H)) s Hun Hf Hw Hne) as (s' & tr & res & E & [H|(H1 & H2)]);
        eexists _, _, _; (split; [exact E|]).
      * left. destruct H as (n & vs & (before & c0 & after & -> & Hb & Hme) & -> & ->). exists n, vs.
        split; [|easy]. exists (c :: before), c0, after. split; [easy|]. split; [now apply Hall|easy].
      * right. split.
        -- intros [|d before] c0 after n vs H Hb Hme.
           ++ injection H as <- <-. now apply means_not_passed in Hme.
           ++ injection H as <- ->. apply (H1 before c0 after n vs eq_refl); [|easy]. intros d Hd. apply Hb. now right.
        -- destruct H2 as [(bf & d & af & x & -> & Hb & H)|[(bf & d & af & lb & vals & -> & Hb & H)|(Hb & H)]].
           ++ left. exists (c :: bf), d, af, x. split; [easy|]. split; [now apply Hall|easy].
           ++ right. left. exists (c :: bf), d, af, lb, vals. split; [easy|]. split; [now apply Hall|easy].
           ++ right. right. split; [|easy]. intros d [<-|Hd]; auto.
    + cbn [p_args]. rewrite Hex. eexists _, _, _. split; [reflexivity|]. left. exists n, vs.
      split; [|easy]. exists [], c, cs. split; [easy|]. split; [intros d []|easy].
    + cbn [p_args]. cbn [exec]. rewrite Hk. destruct (help_parse c [r] vals []) as [tr y] eqn:Eh.
      eexists _, _, _. split; [reflexivity|]. right. split; [now apply Hend|]. right. left.
      exists [], c, cs, label, vals. rewrite Eh. repeat (split; [easy|]). easy.
    + destruct (p_args s') as [|t1 ts1] eqn:Es'.
      * destruct (Hev eq_refl) as (y & Hex & Hy). rewrite Hex. eexists _, _, _. split; [reflexivity|].
        right. split; [now apply Hend|]. left. exists [], c, cs, x. repeat (split; [easy|]). destruct y; easy.
      * eexists _, _, _. split; [reflexivity|]. right. split; [now apply Hend|]. left. exists [], c, cs, x.
        repeat (split; [easy|]). now apply Hun'.
    + destruct y as [o| | | |]; [easy| | | |]; eexists _, _, _; (split; [reflexivity|]); right;
        (split; [now apply Hend|]); left; exists [], c, cs, x; repeat (split; [easy|]); exact Hx.
Qed.

(** Everything that can happen. *)
Lemma root_outcome r mem args : well_formed r -> unset r mem -> fits args -> args <> [] \/ named_top r ->
  let o := root_parse r mem args in
  (exists n vs, routes r args n vs /\ o_events o = [EvRoute n vs] /\ o_res o = Ok tt)
  \/ ((forall n vs, ~ routes r args n vs)
      /\ ((exists h vals, wants_help r args h vals /\ asks_help r args
              /\ o_events o = fst (help_parse h [r] vals [])
              /\ o_res o = (_ <- snd (help_parse h [r] vals []) ;; Ok tt)%res)
          \/ (exists x, fails r args x /\ o_events o = [] /\ same_failure (o_res o) x))).
Proof.
  intros [Ha Hcm Hdm Hsane Hdo] Hun Hf Hne o. unfold o, root_parse.
  destruct (try_exact (root_fuel args) r Ha Hcm Hdm Hsane Hdo (n_children r) (fun c H => H) (PS args mem))
    as (s' & tr & res & -> & H); auto.
  cbn [p_args] in H. cbn [o_events o_res]. destruct H as [(n & vs & Hr & -> & ->)|(H1 & H2)].
  - left. exists n, vs. easy.
  - right. split.
    { intros n vs (before & c & after & Hcs & Hb & Hme). now apply (H1 before c after n vs) in Hme. }
    destruct H2 as [(bf & d & af & x & Hcs & Hb & Hw & -> & Hx)|[(bf & d & af & lb & vals & Hcs & Hb & Hk & Hcl & Hnp & Hco & -> & ->)|(Hb & -> & ->)]].
    + right. exists x. split; [now apply (fails_child r args bf d af)|]. split; [easy|]. destruct res; easy.
    + left. exists d, vals. split; [exists bf, af, lb; easy|]. split; [exists bf, d, af; easy|]. split; [easy|].
      destruct (snd (help_parse d [r] vals [])); reflexivity.
    + right. cbn [rbind].
      destruct args as [|t us].
      * eexists. split; [apply fails_empty; easy|]. split; reflexivity.
      * destruct (t_name t) as [|b0 s0] eqn:Et.
        -- eexists. split; [apply fails_empty; [easy|]|split; reflexivity]. intros t2 us2 [= <- <-]. exact Et.
        -- destruct (unknown_exact unit r t) as (x & Hx1 & Hx2). exists x. split; [|easy].
           apply (fails_unknown r _ t us); auto. rewrite Et. discriminate.
Qed.

Lemma root_exact r mem args : well_formed r -> unset r mem -> fits args -> args <> [] \/ named_top r ->
  let o := root_parse r mem args in
  (exists n vs, routes r args n vs /\ o_events o = [EvRoute n vs] /\ o_res o = Ok tt)
  \/ ((forall n vs, ~ routes r args n vs) /\ (forall n vs, ~ In (EvRoute n vs) (o_events o))
      /\ (o_res o = Ok tt -> asks_help r args)).
Proof.
  intros Hw Hun Hf Hne o. destruct (root_outcome r mem args Hw Hun Hf Hne) as [H|[Hno [(h & vals & _ & Hh & He & _)|(x & _ & He & Hx)]]];
    [now left|right|right]; fold o in He; (split; [easy|]); rewrite He; (split; [|]).
  - apply no_routes_help.
  - easy.
  - easy.
  - fold o in Hx. intros E. rewrite E in Hx. easy.
Qed.

Lemma root_routes_iff r mem args n vs : well_formed r -> unset r mem -> fits args -> args <> [] \/ named_top r ->
  In (EvRoute n vs) (o_events (root_parse r mem args)) <-> routes r args n vs.
Proof.
  intros Hw Hun Hf Hne. destruct (root_exact r mem args Hw Hun Hf Hne) as [(n' & vs' & Hr & He & _)|(H1 & H2 & _)].
  - rewrite He. split.
    + intros [H|[]]. injection H as <- <-. easy.
    + intros H. destruct (routes_det _ _ _ _ _ _ Hr H) as [<- <-]. now left.
  - split; intros H; [now apply H2 in H|now apply H1 in H].
Qed.

(** The lemmas behind PropsRun.v in the form that is used there. *)
From Verif Require Import Bytes Token Result CodePoint Utf8 Tree PreParse Parse Root Build Validator.
From Verif Require Import SpecTake SpecMode SpecDeliver SpecRoot SpecReading SpecClaims.
From Verif Require Import NodeProofs ModeProofs ParseProofs MeaningProofs RootProofs ReadProofs ExactProofs ClaimProofs.

Lemma fresh_routes r mem args n vs : fresh r mem args -> calls_router r mem args n vs <-> routes r args n vs.
Proof. intros [H1 H2 H3 H4]. now apply root_routes_iff. Qed.

Lemma every_token r mem args m vs : fresh r mem args -> calls_router r mem args m vs -> is_mode m = true -> tidy m ->
  exists names ts items final,
    args = map (Tok PNone) names ++ ts /\ typed r args m ts items
    /\ respelled m ts final /\ map token_str final = flat_map item_text items.
Proof.
  intros Hf Hc Hm Ht. destruct (called_typed _ _ _ _ _ Hf Hc Hm) as (ts & items & Hty & _).
  destruct (typed_leads _ _ _ _ _ Hty) as (c & names & _ & _ & _ & E & _).
  pose proof Hty as (bf & c' & af & ps & _ & _ & _ & _ & Hrd).
  destruct (reading_respelled m [] ts items Ht Hrd) as (final & H1 & H2).
  exists names, ts, items, final. easy.
Qed.

Lemma calls_one r mem args : accepted r = true ->
  let o := root_parse r mem args in
  List.length (o_events o) <= 1
  /\ (o_res o = Ok tt -> List.length (o_events o) = 1)
  /\ (forall n vs, In (EvRoute n vs) (o_events o) -> o_res o = Ok tt /\ In n (below r) /\ has_router n = true).
Proof.
  intros Ha o. pose proof (root_calls r mem args Ha) as H. cbn zeta in H. fold o in H.
  destruct (o_res o) as [[]|e| | |] eqn:E.
  - destruct H as (n & e & Hn & -> & He). cbn. split; [auto|]. split; [easy|]. intros n' vs [->|[]].
    destruct He as [(w & Hw & Hr)|(h & f & Hw)]; [|discriminate]. injection Hw as <- <-. easy.
  - rewrite H. cbn. split; [auto|]. split; [discriminate|easy].
  - rewrite H. cbn. split; [auto|]. split; [discriminate|easy].
  - destruct H as [->|(n & h & f & ->)]; cbn; (split; [auto|]; split; [discriminate|]); [easy|].
    intros n' vs [Hx|[]]; discriminate.
  - rewrite H. cbn. split; [auto|]. split; [discriminate|easy].
Qed.

Section Run.
  Context (r : node) (mem : memory) (args : list token) (m : node) (ts : list token) (items : list item).
  Hypothesis Hfresh : fresh r mem args.
  Hypothesis Htyped : typed r args m ts items.

  Lemma run_reading : exists ps, reading m [] ts items /\ distinct_types m /\ ps = m.
  Proof.
    pose proof Htyped as (bf & c & af & ps & _ & _ & _ & _ & Hrd). exists m.
    split; [easy|]. split; [|easy]. now apply (typed_distinct r mem args m ts items).
  Qed.

  Lemma run_once : NoDup (map (fun it => n_id (i_node it)) (single_use items)).
  Proof. destruct run_reading as (_ & H1 & H2 & _). now apply (reading_once m [] ts). Qed.

  Lemma run_router_child i c : nth_error (router_children m) i = Some c -> In c (router_children m).
  Proof. apply nth_error_In. Qed.

  Lemma run_at_most_once vs c : calls_router r mem args m vs -> In c (router_children m) -> ~ repeatable c ->
    List.length (occurrences m c items) <= 1.
  Proof.
    intros Hc Hin Hr. apply In_nth_error in Hin as [i Hi].
    pose proof (called_deliveries _ _ _ _ _ _ _ Hfresh Hc Htyped) as [_ H].
    assert (Hv : exists v, nth_error vs i = Some v).
    { pose proof (Forall2_len _ _ _ H) as E. destruct (nth_error vs i) eqn:Ev; [eauto|].
      apply nth_error_None in Ev. rewrite <- E in Ev. apply nth_error_None in Ev. congruence. }
    destruct Hv as [v Hv].
    pose proof (called_value _ _ _ _ _ _ _ _ _ _ Hfresh Hc Htyped Hi Hv) as Hd.
    apply (delivered_at_most_once r mem args m ts items Hfresh Htyped c v); auto. now apply (run_router_child i).
  Qed.

  Lemma run_value vs i c : calls_router r mem args m vs -> nth_error (router_children m) i = Some c ->
    exists v, nth_error vs i = Some v /\ delivered c (flat_map (assigned m) items) v.
  Proof.
    intros Hc Hi. pose proof (called_deliveries _ _ _ _ _ _ _ Hfresh Hc Htyped) as [_ H].
    assert (Hv : exists v, nth_error vs i = Some v).
    { pose proof (Forall2_len _ _ _ H) as E. destruct (nth_error vs i) eqn:Ev; [eauto|].
      apply nth_error_None in Ev. rewrite <- E in Ev. apply nth_error_None in Ev. congruence. }
    destruct Hv as [v Hv]. exists v. split; [easy|]. now apply (Forall2_nth _ _ _ H i).
  Qed.

  Lemma given_dec c : In c (n_children m) ->
    (exists d, In d (below c) /\ given m items d) \/ forall d, In d (below c) -> ~ given m items d.
  Proof.
    intros Hc. pose proof (occurrences_given r mem args m ts items c Hfresh Htyped Hc) as H.
    destruct (occurrences m c items) as [|a l].
    - right. intros d Hd Hg. apply (proj2 H); [|easy]. now exists d.
    - left. apply H. discriminate.
  Qed.

  Lemma run_mandatory vs c : calls_router r mem args m vs -> In c (router_children m) -> mandatory c ->
    exists d, In d (below c) /\ given m items d.
  Proof.
    intros Hc Hin Hm.
    destruct (given_dec c) as [H|H]; [now apply filter_In in Hin as [? _]|easy|exfalso].
    pose proof Hin as Hin'. apply In_nth_error in Hin as [i Hi]. destruct (run_value vs i c Hc Hi) as (v & _ & Hd).
    now apply (delivered_absent r mem args m ts items Hfresh Htyped c v Hin' H) in Hd as [? _].
  Qed.

  Lemma run_missing_rejected c : In c (router_children m) -> mandatory c ->
    (forall d, In d (below c) -> ~ given m items d) ->
    o_res (root_parse r mem args) <> Ok tt /\ forall n vs, ~ calls_router r mem args n vs.
  Proof.
    intros Hin Hm Hno. apply (typed_fails r mem args m ts items Hfresh Htyped). intros vs [_ H].
    pose proof Hin as Hin'. apply In_nth_error in Hin as [i Hi].
    assert (Hv : exists v, nth_error vs i = Some v).
    { pose proof (Forall2_len _ _ _ H) as E. destruct (nth_error vs i) eqn:Ev; [eauto|].
      apply nth_error_None in Ev. rewrite <- E in Ev. apply nth_error_None in Ev. congruence. }
    destruct Hv as [v Hv]. pose proof (Forall2_nth _ _ _ H i _ _ Hi Hv) as Hd. cbn beta in Hd.
    now apply (delivered_absent r mem args m ts items Hfresh Htyped c v Hin' Hno) in Hd as [? _].
  Qed.

  Lemma run_repeated_rejected c : In c (router_children m) -> ~ repeatable c -> 2 <= List.length (occurrences m c items) ->
    o_res (root_parse r mem args) <> Ok tt /\ forall n vs, ~ calls_router r mem args n vs.
  Proof.
    intros Hin Hr Hlen. apply (typed_fails r mem args m ts items Hfresh Htyped). intros vs [_ H].
    pose proof Hin as Hin'. apply In_nth_error in Hin as [i Hi].
    assert (Hv : exists v, nth_error vs i = Some v).
    { pose proof (Forall2_len _ _ _ H) as E. destruct (nth_error vs i) eqn:Ev; [eauto|].
      apply nth_error_None in Ev. rewrite <- E in Ev. apply nth_error_None in Ev. congruence. }
    destruct Hv as [v Hv]. pose proof (Forall2_nth _ _ _ H i _ _ Hi Hv) as Hd. cbn beta in Hd.
    pose proof (delivered_at_most_once r mem args m ts items Hfresh Htyped c v Hin' Hr Hd). lia.
  Qed.

  Lemma run_default vs i c : calls_router r mem args m vs -> nth_error (router_children m) i = Some c ->
    (forall d, In d (below c) -> ~ given m items d) ->
    nth_error vs i = Some (last (default_values c) (vt_init (n_ty c))).
  Proof.
    intros Hc Hi Hno. destruct (run_value vs i c Hc Hi) as (v & Hv & Hd).
    apply (delivered_absent r mem args m ts items Hfresh Htyped c v) in Hd as (_ & -> & _); auto. now apply (run_router_child i).
  Qed.

  Lemma run_range vs i c v : calls_router r mem args m vs -> nth_error (router_children m) i = Some c -> nth_error vs i = Some v ->
    n_kind c = KCountingFlag \/ (exists cl, n_kind c = KArg cl) -> in_range c v.
  Proof.
    intros Hc Hi Hv Hk. destruct (run_value vs i c Hc Hi) as (v' & Hv' & Hd). assert (v' = v) by congruence. subst v'.
    apply (delivered_in_range r mem args m ts items Hfresh Htyped c v); auto. now apply (run_router_child i).
  Qed.

  Lemma run_out_of_range_rejected c vals v : In c (router_children m) -> (exists cl, n_kind c = KArg cl) -> ~ repeatable c ->
    occurrences m c items = [(c, vals)] -> (forall w, value_of c vals w -> w = v) -> ~ in_range c v ->
    o_res (root_parse r mem args) <> Ok tt /\ forall n vs, ~ calls_router r mem args n vs.
  Proof.
    intros Hin [cl Hk] Hr Ho Hall Hnr. apply (typed_fails r mem args m ts items Hfresh Htyped). intros vs [_ H].
    pose proof Hin as Hin'. apply In_nth_error in Hin as [i Hi].
    assert (Hv : exists w, nth_error vs i = Some w).
    { pose proof (Forall2_len _ _ _ H) as E. destruct (nth_error vs i) eqn:Ev; [eauto|].
      apply nth_error_None in Ev. rewrite <- E in Ev. apply nth_error_None in Ev. congruence. }
    destruct Hv as [w Hv]. pose proof (Forall2_nth _ _ _ H i _ _ Hi Hv) as Hd. cbn beta in Hd.
    destruct (delivered_once r mem args m ts items Hfresh Htyped c w Hin' Hr) as (a & Ea & Hw); [rewrite Ho; discriminate|easy|].
    assert (Heq : a = (c, vals)) by congruence. subst a. cbn [fst snd] in Hw. rewrite (Hall w Hw) in *.
    apply Hnr. apply (delivered_in_range r mem args m ts items Hfresh Htyped c v); eauto.
  Qed.

  Lemma run_fold vs i c merge : calls_router r mem args m vs -> nth_error (router_children m) i = Some c ->
    is_argument c = true -> multi_stage c = Some merge -> occurrences m c items <> [] ->
    exists ws v, Forall2 (fun a w => value_of c (snd a) w) (occurrences m c items) ws
      /\ fold_left (fun o w => Some (merge o w)) ws None = Some v /\ nth_error vs i = Some v /\ in_range c v.
  Proof.
    intros Hc Hi Hl Hms Hne. destruct (run_value vs i c Hc Hi) as (v & Hv & Hd).
    destruct (delivered_fold r mem args m ts items Hfresh Htyped c merge v) as (ws & H1 & H2 & H3); auto.
    { now apply (run_router_child i). }
    exists ws, v. auto.
  Qed.

  Lemma cast_law cast : integer_cast cast ->
    forall j, (0 < j)%Z -> cast (Z.modulo (cast j) (Z.of_N size_mod) + 1)%Z = cast (j + 1)%Z.
  Proof.
    assert (E64 : Z.of_N size_mod = (2 ^ 64)%Z) by reflexivity. rewrite E64.
    intros [(bits & Hb & [->| ->])| ->] j Hj.
    - unfold to_unsigned.
      assert (Hp : (2 ^ 64 = 2 ^ bits * 2 ^ (64 - bits))%Z) by (rewrite <- Z.pow_add_r by lia; f_equal; lia).
      assert (0 < 2 ^ bits)%Z by (apply Z.pow_pos_nonneg; lia). assert (0 < 2 ^ (64 - bits))%Z by (apply Z.pow_pos_nonneg; lia).
      rewrite (Z.mod_small (j mod 2 ^ bits) (2 ^ 64)).
      + now rewrite Z.add_mod_idemp_l by lia.
      + pose proof (Z.mod_pos_bound j (2 ^ bits)). nia.
    - unfold to_signed.
      assert (Hp : (2 ^ 64 = 2 ^ (64 - bits) * 2 ^ bits)%Z) by (rewrite <- Z.pow_add_r by lia; f_equal; lia).
      assert (0 < 2 ^ bits)%Z by (apply Z.pow_pos_nonneg; lia). assert (0 < 2 ^ (64 - bits))%Z by (apply Z.pow_pos_nonneg; lia).
      f_equal. set (M := (2 ^ bits)%Z) in *. set (h := (2 ^ (bits - 1))%Z) in *. rewrite Hp.
      set (x := ((j + h) mod M - h)%Z).
      assert (E : exists q, (x mod (2 ^ (64 - bits) * M) = j + q * M)%Z).
      { rewrite (Z.mod_eq x) by nia. exists (- ((j + h) / M) - 2 ^ (64 - bits) * (x / (2 ^ (64 - bits) * M)))%Z.
        unfold x at 1. rewrite (Z.mod_eq (j + h)) by lia. ring. }
      destruct E as [q ->]. replace (j + q * M + 1 + h)%Z with (j + 1 + h + q * M)%Z by ring. now rewrite Z.mod_add by lia.
    - unfold to_bool. replace (Z.eqb j 0) with false by lia. replace (Z.eqb (j + 1) 0) with false by lia. reflexivity.
  Qed.

  Lemma run_count vs i cast id ps : calls_router r mem args m vs -> integer_cast cast ->
    nth_error (router_children m) i = Some (counting_flag cast id ps) ->
    occurrences m (counting_flag cast id ps) items <> [] ->
    nth_error vs i = Some (VInt (cast (Z.of_nat (List.length (occurrences m (counting_flag cast id ps) items))))).
  Proof.
    intros Hc Hcast Hi Hne. destruct (run_value vs i _ Hc Hi) as (v & Hv & Hd). rewrite Hv. f_equal.
    apply (delivered_count r mem args m ts items cast id ps v); auto; [now apply (run_router_child i)|now apply cast_law].
  Qed.

  Lemma run_choice i it it' : is_choice m i -> In it items -> In it' items ->
    In (i, i_node it) (entries m) -> In (i, i_node it') (entries m) -> i_node it = i_node it'.
  Proof. destruct run_reading as (_ & H1 & H2 & _). now apply (reading_choice m [] ts). Qed.

  Lemma run_dependent before it after ns d : items = before ++ it :: after -> In (PDependent ns) (n_pols (i_node it)) ->
    In d (below m) -> refers_to ns d = true -> given m before d.
  Proof.
    intros E H1 H2 H3. destruct run_reading as (_ & Hr & _ & _).
    now destruct (reading_dependent m [] ts items Hr before it after ns d E H1 H2 H3) as [(a & [] & _)|H].
  Qed.

  Lemma run_filled before it after i j k : items = before ++ it :: after -> In (i, i_node it) (entries m) ->
    is_named (i_node it) = false -> In (j, k) (entries m) -> j < i -> is_named k = false -> enabled k ->
    exists it', In it' before /\ In (j, i_node it') (entries m).
  Proof.
    intros E Hi Hn Hj Hlt Hk He. destruct run_reading as (_ & Hr & Hd & _).
    now destruct (positional_filled m [] ts items Hr before it after i j k E Hi Hn Hd Hj Hlt Hk He) as [(l & [])|H].
  Qed.

  Lemma run_positional_order x it y it' z i j : items = x ++ it :: y ++ it' :: z ->
    In (i, i_node it) (entries m) -> In (j, i_node it') (entries m) ->
    is_named (i_node it) = false -> is_named (i_node it') = false -> has_multi_stage (i_node it') = false -> i < j.
  Proof.
    intros E Hi Hj Hn Hn' Hms. destruct run_reading as (_ & Hr & Hd & _).
    now apply (positional_order m [] ts items Hr Hd x it y it' z i j E).
  Qed.

  Lemma run_full x it y z : items = x ++ it :: y :: z -> token_end_marker (i_node it) = None ->
    exists mn, count_bounds (i_node it) = Some (mn, nlen (i_values it)).
  Proof. destruct run_reading as (_ & Hr & _ & _). now apply (item_full m [] ts items Hr). Qed.

  Lemma occurrence_argument c a : In c (n_children m) -> In a (occurrences m c items) ->
    In (fst a) (below c) /\ is_argument (fst a) = true.
  Proof.
    intros Hc Ha. split; [now apply (occurrence_node r mem args m ts items Hfresh Htyped c)|].
    unfold occurrences, for_child in Ha. apply filter_In in Ha as [Ha _].
    destruct (typed_assigned _ _ _ _ _ _ Htyped Ha) as (it & Hit & Hst & _ & Hb).
    destruct (typed_mode _ _ _ _ _ Htyped) as [Hm Hk]. pose proof (wf_accepted r (fr_tree _ _ _ Hfresh)) as Hacc.
    destruct (mode_sub_ok r m Hacc Hm Hk) as (tp & Hs & _).
    assert (Hcase : is_leaf (fst a) = true -> is_argument (fst a) = true).
    { unfold is_leaf, is_argument. now destruct (n_kind (fst a)). }
    unfold stands_for in Hst. destruct (alias_of (i_node it)) as [ns|].
    - apply filter_In in Hst as [_ Hr]. destruct (sub_ok_below _ _ _ Hs Hb) as (tpd & _ & Hsd). apply Hcase.
      eapply referred_leaf; [apply sub_ok_self; exact Hsd|exact Hr].
    - destruct Hst as [<-|[]]. pose proof Htyped as (bf & c' & af & ps & _ & _ & _ & _ & Hrd).
      destruct (reading_node _ _ _ _ Hrd it Hit) as ((i & Hi) & _). now apply entries_in in Hi as (d & _ & _ & _ & H).
  Qed.

  Lemma run_group vs i c : calls_router r mem args m vs -> nth_error (router_children m) i = Some c ->
    is_argument c = false -> ~ repeatable c -> occurrences m c items <> [] ->
    exists d vals v, In d (n_children c) /\ occurrences m c items = [(d, vals)] /\ value_of d vals v /\ nth_error vs i = Some v.
  Proof.
    intros Hc Hi Hk Hr Hne. destruct (run_value vs i c Hc Hi) as (v & Hv & Hd).
    pose proof (run_router_child i c Hi) as Hrc.
    destruct (delivered_once r mem args m ts items Hfresh Htyped c v Hrc Hr Hne Hd) as ([d vals] & E & Hval).
    cbn [fst snd] in Hval. destruct (router_child_not_mode r mem args m ts items Hfresh Htyped c Hrc) as [Hin Hm].
    destruct (occurrence_argument c (d, vals) Hin) as [Hb Ha]; [rewrite E; now left|]. cbn [fst] in *.
    exists d, vals, v. split; [|easy].
    destruct (child_cases r mem args m ts items Hfresh Htyped c) as [[Hl _]|[_ Eb]]; auto.
    - exfalso. unfold is_argument in Hk. unfold is_leaf in Hl. now destruct (n_kind c).
    - rewrite Eb in Hb. destruct Hb as [<-|Hb]; [congruence|easy].
  Qed.

  Lemma run_argument vs i c : calls_router r mem args m vs -> nth_error (router_children m) i = Some c ->
    is_argument c = true -> ~ repeatable c -> occurrences m c items <> [] ->
    exists vals v, occurrences m c items = [(c, vals)] /\ value_of c vals v /\ nth_error vs i = Some v.
  Proof.
    intros Hc Hi Hk Hr Hne. destruct (run_value vs i c Hc Hi) as (v & Hv & Hd).
    pose proof (run_router_child i c Hi) as Hrc.
    destruct (delivered_once r mem args m ts items Hfresh Htyped c v Hrc Hr Hne Hd) as ([d vals] & E & Hval).
    destruct (router_child_not_mode r mem args m ts items Hfresh Htyped c Hrc) as [Hin Hm].
    assert (Ed : d = c).
    { change d with (fst (d, vals)). apply (leaf_occurrence r mem args m ts items Hfresh Htyped c); auto.
      rewrite E. now left. }
    subst d. exists vals, v. easy.
  Qed.

  Lemma run_container vs i c : calls_router r mem args m vs -> nth_error (router_children m) i = Some c ->
    (exists cl, n_kind c = KArg cl) -> vt_container (n_ty c) = true -> ~ repeatable c -> occurrences m c items <> [] ->
    exists vals ws, occurrences m c items = [(c, vals)] /\ Forall2 (fun t w => reads_as c (t_name t) w) vals ws
      /\ nth_error vs i = Some (VList ws).
  Proof.
    intros Hc Hi [cl Hk] Hct Hr Hne.
    destruct (run_argument vs i c Hc Hi) as (vals & v & E & Hval & Hv); auto; [unfold is_argument; now rewrite Hk|].
    inversion Hval as [? Hf|? ? ? ? _ Hx|? _ Hx|cl' ? ws _ _ Hws]; subst; try congruence.
    - destruct Hf; congruence.
    - exists vals, ws. easy.
  Qed.

  Lemma run_alias_assigned it ns : In it items -> In (PAlias ns) (n_pols (i_node it)) ->
    assigned m it = map (fun d => (d, i_values it)) (filter (refers_to ns) (below m)).
  Proof.
    intros Hit Hal. unfold assigned, stands_for.
    destruct (typed_mode _ _ _ _ _ Htyped) as [Hm Hk]. pose proof (wf_accepted r (fr_tree _ _ _ Hfresh)) as Hacc.
    destruct (mode_sub_ok r m Hacc Hm Hk) as (tp & Hs & _).
    pose proof Htyped as (bf & c' & af & ps & _ & _ & _ & _ & Hrd).
    destruct (reading_node _ _ _ _ Hrd it Hit) as ((i & Hi) & _).
    pose proof (entry_facts m tp ps i _ Hs Hk Hi) as E.
    now rewrite (proj2 (alias_of_spec _ ns (lf_ok _ (eo_leaf _ _ _ E))) Hal).
  Qed.
End Run.

Lemma alias_equivalent r mem mem' args args' m ts ts' x it its y ns vs :
  fresh r mem args -> fresh r mem' args' ->
  typed r args m ts (x ++ it :: y) -> typed r args' m ts' (x ++ its ++ y) ->
  In (PAlias ns) (n_pols (i_node it)) ->
  map (fun j => (i_node j, i_values j)) its = map (fun d => (d, i_values it)) (filter (refers_to ns) (below m)) ->
  (forall j ns', In j its -> ~ In (PAlias ns') (n_pols (i_node j))) ->
  calls_router r mem args m vs <-> calls_router r mem' args' m vs.
Proof.
  intros Hf Hf' Ht Ht' Hal E Hno. apply (same_assignments r mem args m ts (x ++ it :: y) mem' args' ts' (x ++ its ++ y)); auto.
  rewrite !flat_map_app. cbn [flat_map]. f_equal. f_equal.
  rewrite (run_alias_assigned r mem args m ts _ Hf Ht it ns) by (auto; apply in_elt). rewrite <- E.
  clear E Ht Ht'. induction its as [|j its IH]; [easy|]. cbn [flat_map map]. rewrite <- IH by (intros; apply Hno; now right).
  unfold assigned. rewrite stands_for_self by (intros ns'; apply Hno; now left). easy.
Qed.

Lemma run_group_first r mem args m ts items before it after c x y : fresh r mem args -> typed r args m ts items ->
  items = before ++ it :: after -> In c (n_children m) -> n_kind c = KAliasGroup \/ (exists inst, n_kind c = KOneOf inst) ->
  n_children c = x ++ i_node it :: y ->
  exists ts' rest, consumes (i_node it) ts' (i_label it) (i_values it) rest
    /\ forall d, In d x -> is_named d = true -> enabled d -> ~ addressed d ts'.
Proof.
  intros Hf Ht E Hc Hk Hcs. apply (group_first r mem args m ts items before it after c x y); auto.
  unfold is_dep. destruct Hk as [->|[inst ->]]; reflexivity.
Qed.

(** Consequences of ExactProofs.v for the single properties. *)
From Verif Require Import Bytes Token Adapter Result CodePoint Utf8 Tree Levenshtein PreParse Parse Root Build Validator.
From Verif Require Import SpecPolicy SpecTokens SpecMode SpecDeliver SpecRoot SpecReading SpecClaims.
From Verif Require Import CodePointProofs Utf8Proofs OrderProofs TreeProofs TokenProofs PermProofs NodeProofs TakeProofs ModeProofs SelectProofs ParseProofs MeaningProofs RootProofs ReadProofs ExactProofs.

(** ** Runs and their reading *)

Lemma selects_below c ps ts m ps' ts' : selects c ps ts m ps' ts' -> is_mode c = true ->
  In m (below c) /\ is_mode m = true.
Proof.
  induction 1 as [m ps ts Hn|m ps ts rest Hn Hno|m ps ts rest bf c af m' ps' ts' Hn Hcs Hcm Hc Hno Hsel IH];
    intros Hm; try (split; [apply below_self|easy]).
  destruct (IH Hcm) as [H1 H2]. split; [|easy]. apply (below_child c); [rewrite Hcs; apply in_elt|easy].
Qed.

Lemma selects_not_passed c r ts m ps ts' : is_mode c = true -> selects c [r] ts m ps ts' -> ~ passed_over ts c.
Proof.
  intros Hm Hsel Hp. unfold passed_over in Hp. rewrite Hm in Hp. destruct Hp as [H1 H2].
  destruct (selects_named _ _ _ _ _ _ Hsel H1) as [rest Hx]. now apply (H2 rest).
Qed.

Lemma first_child r args (bf bf' : list node) c c' af af' :
  n_children r = bf ++ c :: af -> n_children r = bf' ++ c' :: af' ->
  (forall d, In d bf -> passed_over args d) -> (forall d, In d bf' -> passed_over args d) ->
  ~ passed_over args c -> ~ passed_over args c' -> bf = bf' /\ c = c' /\ af = af'.
Proof.
  intros H1 H2 Hb Hb' Hc Hc'. apply (first_split (fun d => ~ passed_over args d)); auto.
  - now rewrite <- H1.
Qed.

Lemma typed_det r args m ts items m' ts' items' : typed r args m ts items -> typed r args m' ts' items' ->
  m = m' /\ ts = ts' /\ items = items'.
Proof.
  intros (bf & c & af & ps & Hcs & Hb & Hm & Hsel & Hrd) (bf' & c' & af' & ps' & Hcs' & Hb' & Hm' & Hsel' & Hrd').
  destruct (first_child r args bf bf' c c' af af') as (-> & <- & ->); auto.
  - now apply (selects_not_passed c r args m ps ts).
  - now apply (selects_not_passed c' r args m' ps' ts').
  - destruct (selects_det _ _ _ _ _ _ Hsel _ _ _ Hsel') as (<- & <- & <-).
    now rewrite (reading_det _ _ _ _ Hrd _ Hrd').
Qed.

Lemma typed_mode r args m ts items : typed r args m ts items -> In m (below r) /\ is_mode m = true.
Proof.
  intros (bf & c & af & ps & Hcs & Hb & Hm & Hsel & Hrd). apply selects_below in Hsel as [H1 H2]; [|easy].
  split; [|easy]. apply (below_child c); [rewrite Hcs; apply in_elt|easy].
Qed.

Lemma called_typed r mem args m vs : fresh r mem args -> calls_router r mem args m vs -> is_mode m = true ->
  exists ts items, typed r args m ts items /\ has_router m = true /\ deliveries m (flat_map (assigned m) items) vs.
Proof.
  intros [Hw Hu Hf Ht] Hc Hm. apply root_routes_iff in Hc; auto.
  destruct Hc as (bf & c & af & Hcs & Hb & Hme).
  destruct Hme as [m ps ts' items w Hmc Hsel Hr Hrd Hdl|label vals v Hmc Hk Hc He Hco Hv]; [|congruence].
  exists ts', items. split; [|easy]. exists bf, c, af, ps. easy.
Qed.

Lemma called_deliveries r mem args m vs ts items : fresh r mem args -> calls_router r mem args m vs ->
  typed r args m ts items -> deliveries m (flat_map (assigned m) items) vs.
Proof.
  intros Hf Hc Ht. destruct (typed_mode _ _ _ _ _ Ht) as [_ Hm].
  destruct (called_typed r mem args m vs Hf Hc Hm) as (ts' & items' & Ht' & _ & Hd).
  destruct (typed_det _ _ _ _ _ _ _ _ Ht Ht') as (_ & _ & ->). easy.
Qed.

Lemma typed_called r mem args m ts items vs : fresh r mem args -> typed r args m ts items ->
  calls_router r mem args m vs <-> has_router m = true /\ deliveries m (flat_map (assigned m) items) vs.
Proof.
  intros Hf Ht. destruct (typed_mode _ _ _ _ _ Ht) as [_ Hm]. split.
  - intros Hc. split; [|now apply (called_deliveries r mem args m vs ts items)].
    destruct (called_typed r mem args m vs Hf Hc Hm) as (_ & _ & _ & H & _). easy.
  - intros [Hr Hd]. destruct Hf as [Hw Hu Hf Hn]. apply root_routes_iff; auto.
    destruct Ht as (bf & c & af & ps & Hcs & Hb & Hmc & Hsel & Hrd). exists bf, c, af. split; [easy|]. split; [easy|].
    now apply (means_mode r c args m ps ts items vs).
Qed.

Lemma typed_not_help r args m ts items : typed r args m ts items -> ~ asks_help r args.
Proof.
  intros (bf & c & af & ps & Hcs & Hb & Hm & Hsel & Hrd) (bf' & c' & af' & Hcs' & Hb' & Hk & Hnp).
  destruct (first_child r args bf bf' c c' af af') as (-> & <- & ->); auto.
  - now apply (selects_not_passed c r args m ps ts).
  - unfold is_mode in Hm. rewrite Hk in Hm. discriminate.
Qed.

(** When the typed items do not add up to arguments for the router, the parse fails. *)
Lemma typed_fails r mem args m ts items : fresh r mem args -> typed r args m ts items ->
  (forall vs, ~ deliveries m (flat_map (assigned m) items) vs) ->
  o_res (root_parse r mem args) <> Ok tt /\ forall n vs, ~ calls_router r mem args n vs.
Proof.
  intros Hf Ht Hno. pose proof Hf as [Hw Hu Hfi Hn].
  destruct (root_exact r mem args Hw Hu Hfi Hn) as [(n & vs & Hr & He & _)|(H1 & H2 & H3)].
  - exfalso. destruct (typed_mode _ _ _ _ _ Ht) as [_ Hm].
    destruct Hr as (bf' & c' & af' & Hcs' & Hb' & Hme).
    pose proof (means_not_passed _ _ _ _ _ Hme) as Hnp.
    pose proof Ht as (bf & c & af & ps & Hcs & Hb & Hmc & Hsel & Hrd).
    destruct (first_child r args bf bf' c c' af af') as (-> & <- & ->); auto.
    { now apply (selects_not_passed c r args m ps ts). }
    destruct Hme as [m' ps' ts' items' w _ Hsel' Hr Hrd' Hdl|label vals v Hmc' Hk Hc He' Hco Hv]; [|congruence].
    destruct (selects_det _ _ _ _ _ _ Hsel _ _ _ Hsel') as (<- & <- & <-).
    rewrite (reading_det _ _ _ _ Hrd _ Hrd') in Hno. now apply Hno in Hdl.
  - split; [|easy]. intros Ho. apply H3 in Ho. now apply (typed_not_help r args m ts items).
Qed.

(** ** Positions and occurrences *)

Lemma reading_node m done ts items : reading m done ts items ->
  forall it, In it items -> (exists i, In (i, i_node it) (entries m)) /\ enabled (i_node it)
    /\ exists ts' rest, consumes (i_node it) ts' (i_label it) (i_values it) rest.
Proof.
  induction 1 as [done|done ts bf i l af label vals rest items He Hb Hch Hen Hco Hal Hdp Hrd IH]; intros it [].
  - subst it. cbn [i_node i_label i_values]. split; [exists i; rewrite He; apply in_elt|]. split; [easy|eauto].
  - now apply IH.
Qed.

Lemma entry_argument m i l : In (i, l) (entries m) -> argument_of m l.
Proof.
  intros H. apply entries_in in H as (c & Hi & Hm & Hl & _). exists c. split; [eapply nth_error_In; exact Hi|easy].
Qed.

Lemma typed_item r args m ts items it : typed r args m ts items -> In it items ->
  argument_of m (i_node it) /\ enabled (i_node it)
  /\ exists ts' rest, consumes (i_node it) ts' (i_label it) (i_values it) rest.
Proof.
  intros (bf & c & af & ps & Hcs & Hb & Hmc & Hsel & Hrd) Hin.
  destruct (reading_node _ _ _ _ Hrd it Hin) as ((i & Hi) & He & Hc). split; [now apply entry_argument in Hi|easy].
Qed.

Lemma stands_below m l d : In l (below m) -> In d (stands_for m l) -> In d (below m).
Proof.
  unfold stands_for. intros Hl. destruct (alias_of l); [|intros [<-|[]]; easy].
  intros H. now apply filter_In in H as [H _].
Qed.

Lemma belongs_iff m c l : distinct_types m -> In c (n_children m) -> In l (below m) ->
  belongs c l = true <-> In l (below c).
Proof.
  intros Hd Hc Hl. split; [|apply belongs_in]. intros H. apply belongs_id in H as (d & Hdin & E).
  assert (d = l); [|now subst]. apply (nodup_map_inj n_id (below m) Hd); auto. now apply (below_child c).
Qed.

Lemma typed_assigned r args m ts items a : typed r args m ts items -> In a (flat_map (assigned m) items) ->
  exists it, In it items /\ In (fst a) (stands_for m (i_node it)) /\ snd a = i_values it /\ In (fst a) (below m).
Proof.
  intros Ht Ha. apply in_flat_map in Ha as (it & Hit & Ha). unfold assigned in Ha.
  apply in_map_iff in Ha as (d & <- & Hd). exists it. cbn [fst snd]. repeat split; auto.
  pose proof Ht as (bf & c & af & ps & Hcs & Hb & Hmc & Hsel & Hrd).
  destruct (reading_node _ _ _ _ Hrd it Hit) as ((i & Hi) & _). apply entry_below in Hi. now apply (stands_below m (i_node it)).
Qed.

Lemma typed_distinct r mem args m ts items : fresh r mem args -> typed r args m ts items -> distinct_types m.
Proof.
  intros [Hw _ _ _] Ht. destruct (typed_mode _ _ _ _ _ Ht) as [H1 H2]. now apply (wf_distinct r Hw).
Qed.

(** Something was typed for a child exactly if it has an occurrence. *)
Lemma occurrences_given r mem args m ts items c : fresh r mem args -> typed r args m ts items -> In c (n_children m) ->
  occurrences m c items <> [] <-> exists d, In d (below c) /\ given m items d.
Proof.
  intros Hf Ht Hc. pose proof (typed_distinct _ _ _ _ _ _ Hf Ht) as Hd. unfold occurrences, for_child. split.
  - destruct (filter _ _) as [|a l] eqn:E; [easy|]. intros _.
    assert (Ha : In a (a :: l)) by now left. rewrite <- E in Ha. apply filter_In in Ha as [Ha Hbl].
    destruct (typed_assigned _ _ _ _ _ _ Ht Ha) as (it & Hit & Hs & _ & Hbm).
    exists (fst a). split; [now apply (belongs_iff m c)|]. now exists it.
  - intros (d & Hdc & it & Hit & Hs) E.
    assert (Ha : In (d, i_values it) (filter (fun a => belongs c (fst a)) (flat_map (assigned m) items))).
    { apply filter_In. split; [|now apply belongs_in]. apply in_flat_map. exists it. split; [easy|].
      unfold assigned. now apply (in_map (fun d => (d, i_values it))). }
    rewrite E in Ha. destruct Ha.
Qed.

Lemma Forall2_nth {A B} (P : A -> B -> Prop) l k : Forall2 P l k -> forall i x y,
  nth_error l i = Some x -> nth_error k i = Some y -> P x y.
Proof.
  induction 1 as [|x y l k Hp _ IH]; intros [|i] x' y' Hx Hy; try discriminate.
  - cbn in *. now injection Hx as <-; injection Hy as <-.
  - now apply (IH i).
Qed.

Lemma router_child_in m i c : nth_error (router_children m) i = Some c -> In c (n_children m) /\ no_result_value c = false.
Proof.
  intros H. apply nth_error_In in H. apply filter_In in H as [H1 H2]. split; [easy|]. now apply negb_true_iff.
Qed.

Lemma called_value r mem args m vs ts items i c v : fresh r mem args -> calls_router r mem args m vs ->
  typed r args m ts items -> nth_error (router_children m) i = Some c -> nth_error vs i = Some v ->
  delivered c (flat_map (assigned m) items) v.
Proof.
  intros Hf Hc Ht Hi Hv. destruct (called_deliveries _ _ _ _ _ _ _ Hf Hc Ht) as [_ H].
  now apply (Forall2_nth _ _ _ H i).
Qed.

(** ** C05, C16, C39, C42: order of the typed arguments *)

Lemma used_mono done i a : used done i -> used (a :: done) i.
Proof. intros [l H]. exists l. now right. Qed.

Lemma entry_index m i j l : distinct_types m -> In (i, l) (entries m) -> In (j, l) (entries m) -> i = j.
Proof.
  intros Hd Hi Hj. apply entries_in in Hi as (c & Hi & _ & Hc & _). apply entries_in in Hj as (d & Hj & _ & Hdd & _).
  apply distinct_children in Hd. rewrite flat_map_concat_map, concat_map, map_map, <- flat_map_concat_map in Hd.
  apply (nodup_flat_map_nth _ _ Hd i j c d (n_id l) Hi Hj); now apply in_map.
Qed.

Lemma entry_same m i j l l' : distinct_types m -> In (i, l) (entries m) -> In (j, l') (entries m) -> n_id l = n_id l' ->
  l = l' /\ i = j.
Proof.
  intros Hd Hi Hj E. assert (l = l').
  { apply (nodup_map_inj n_id (below m) Hd); auto; eapply entry_below; eassumption. }
  subst l'. split; [easy|]. now apply (entry_index m i j l).
Qed.

Lemma reading_later m done ts items : distinct_types m -> reading m done ts items -> forall it i, In it items ->
  In (i, i_node it) (entries m) ->
  (has_multi_stage (i_node it) = true \/ ~ used done i) /\ ~ excluded m done i (i_node it).
Proof.
  intros Hd. induction 1 as [done|done ts bf j l af label vals rest items He Hb Hch Hen Hco Hal Hdp Hrd IH]; intros it i [] Hi.
  - subst it. cbn [i_node] in *.
    assert (i = j) by (apply (entry_index m i j l Hd); [easy|rewrite He; apply in_elt]). subst j. exact Hal.
  - destruct (IH it i H Hi) as [H1 H2]. split.
    + destruct H1 as [H1|H1]; [now left|right]. intros Hu. now apply H1, used_mono.
    + intros (Hc & l' & Hl' & Hne). apply H2. split; [easy|]. exists l'. split; [now right|easy].
Qed.

Lemma reading_once m done ts items : distinct_types m -> reading m done ts items ->
  NoDup (map (fun it => n_id (i_node it)) (single_use items)).
Proof.
  intros Hd. induction 1 as [done|done ts bf j l af label vals rest items He Hb Hch Hen Hco Hal Hdp Hrd IH]; [constructor|].
  unfold single_use in *. cbn [filter i_node]. destruct (has_multi_stage l) eqn:Em; cbn [negb]; [easy|].
  cbn [map i_node]. constructor; [|easy]. intros Hin. apply in_map_iff in Hin as (it & E & Hit).
  apply filter_In in Hit as [Hit Hms]. apply negb_true_iff in Hms.
  destruct (reading_node _ _ _ _ Hrd it Hit) as ((i & Hi) & _).
  assert (Hj : In (j, l) (entries m)) by (rewrite He; apply in_elt).
  destruct (entry_same m i j _ _ Hd Hi Hj E) as [E1 E2].
  destruct (reading_later _ _ _ _ Hd Hrd it i Hit Hi) as [[H|H] _]; [congruence|].
  apply H. exists l. left. now rewrite E2.
Qed.

Lemma reading_choice m done ts items : distinct_types m -> reading m done ts items -> forall i it it',
  is_choice m i -> In it items -> In it' items -> In (i, i_node it) (entries m) -> In (i, i_node it') (entries m) ->
  i_node it = i_node it'.
Proof.
  intros Hd. induction 1 as [done|done ts bf j l af label vals rest items He Hb Hch Hen Hco Hal Hdp Hrd IH];
    intros i it it' Hc Hit Hit' Hi Hi'; [easy|].
  assert (Hj : In (j, l) (entries m)) by (rewrite He; apply in_elt).
  assert (Hone : forall u, In u items -> In (i, i_node u) (entries m) -> In (i, l) (entries m) -> i_node u = l).
  { intros u Hu Hiu Hil. pose proof (entry_index m i j l Hd Hil Hj). subst j.
    destruct (reading_later _ _ _ _ Hd Hrd u i Hu Hiu) as [_ Hx].
    destruct (N.eq_dec (n_id (i_node u)) (n_id l)) as [E|E].
    - now destruct (entry_same m i i _ _ Hd Hiu Hil E).
    - exfalso. apply Hx. split; [easy|]. exists l. split; [now left|]. intros ->. easy. }
  destruct Hit as [<-|Hit], Hit' as [<-|Hit']; cbn [i_node] in *; auto.
  - symmetry. now apply Hone.
  - now apply (IH i).
Qed.

(** A dependent argument comes after those it depends on. *)
Lemma reading_dependent m done ts items : reading m done ts items -> forall before it after ns d,
  items = before ++ it :: after -> In (PDependent ns) (n_pols (i_node it)) -> In d (below m) -> refers_to ns d = true ->
  (exists a, In a done /\ In d (stands_for m (snd a))) \/ given m before d.
Proof.
  induction 1 as [done|done ts bf j l af label vals rest items He Hb Hch Hen Hco Hal Hdp Hrd IH];
    intros [|x before] it after ns d E Hp Hd Hr; try discriminate.
  - injection E as <- <-. left. now apply (Hdp ns d).
  - injection E as <- ->. destruct (IH before it after ns d eq_refl Hp Hd Hr) as [(a & [<-|Ha] & Hs)|(u & Hu & Hs)].
    + right. exists (Item l label vals). split; [now left|easy].
    + left. eauto.
    + right. exists u. split; [now right|easy].
Qed.

(** Positional arguments are filled in order. *)
Definition position (m : node) (it : item) (i : nat) : Prop := In (i, i_node it) (entries m).

Lemma in_split_before {A} (x y : A) bf af : In y (bf ++ x :: af) -> y = x \/ In y bf \/ In y af.
Proof. intros H. apply in_app_iff in H as [H|[H|H]]; auto. Qed.

Lemma entries_sorted cs : forall k bf i l af j x, entries_from k cs = bf ++ (i, l) :: af -> In (j, x) af -> i <= j.
Proof.
  induction cs as [|c cs IH]; intros k bf i l af j x E Hx; [now destruct bf|]. cbn [entries_from] in E.
  assert (Hge : forall j x, In (j, x) (entries_from (S k) cs) -> S k <= j).
  { intros j0 x0 H. apply entries_from_in in H as (i0 & c0 & -> & _). lia. }
  set (g := if is_mode c then [] else map (pair k) (filter is_argument (below c))) in *.
  assert (Hg : forall j x, In (j, x) g -> j = k).
  { intros j0 x0 H. unfold g in H. destruct (is_mode c); [easy|]. apply in_map_iff in H as (y & [= -> ->] & _). easy. }
  apply app_eq_app in E as (mid & [[E1 E2]|[E1 E2]]).
  - destruct mid as [|[i0 l0] mid]; cbn in E2.
    + apply (IH (S k) [] i l af j x); [|easy]. now rewrite E2.
    + injection E2 as <- <- E2. assert (i = k) by (apply (Hg i l); rewrite E1; apply in_elt). subst i.
      rewrite E2 in Hx. apply in_app_iff in Hx as [Hx|Hx].
      * assert (j = k) by (apply (Hg j x); rewrite E1; apply in_app_iff; right; now right). lia.
      * apply Hge in Hx. lia.
  - apply (IH (S k) mid i l af j x); [|easy]. now rewrite E2.
Qed.

Lemma reading_tokens m done ts it items : reading m done ts (it :: items) -> ts <> [].
Proof.
  intros H E. subst ts. inversion H as [|d0 t0 bf i l af label vals rest its He Hb Hch Hen Hco Hal Hdp Hrd]; subst.
  inversion Hco as [t value us t' us' va re Hn Hf|va re Hn Hne]; [inversion Hf|easy].
Qed.

Lemma entry_order m bf i l af j x : entries m = bf ++ (i, l) :: af -> In (j, x) (entries m) -> j < i -> In (j, x) bf.
Proof.
  intros E Hj Hlt. rewrite E in Hj. apply in_split_before in Hj as [Hj|[Hj|Hj]]; [injection Hj; lia|easy|].
  unfold entries in E. pose proof (entries_sorted _ _ _ _ _ _ _ _ E Hj). lia.
Qed.

(** When a positional argument takes tokens, those declared before it have theirs. *)
Lemma positional_filled m done ts items : reading m done ts items -> forall before it after i j k,
  items = before ++ it :: after -> position m it i -> is_named (i_node it) = false -> distinct_types m ->
  In (j, k) (entries m) -> j < i -> is_named k = false -> enabled k ->
  used done j \/ exists it', In it' before /\ position m it' j.
Proof.
  induction 1 as [done|done ts bf p l af label vals rest items He Hb Hch Hen Hco Hal Hdp Hrd IH];
    intros [|x before] it after i j k E Hi Hn Hd Hj Hlt Hk Hek; try discriminate.
  - injection E as <- <-. left. unfold position in Hi. cbn [i_node] in Hi, Hn.
    assert (i = p) by (apply (entry_index m i p l Hd Hi); rewrite He; apply in_elt). subst p.
    pose proof (entry_order m bf i l af j k He Hj Hlt) as Hin.
    destruct (Hb j k Hin) as [_ [H|[H|H]]]; [easy| |].
    + exfalso. apply H. right. split; [easy|]. inversion Hco; congruence.
    + apply H.
  - injection E as <- ->.
    destruct (IH before it after i j k eq_refl Hi Hn Hd Hj Hlt Hk Hek) as [(u & [Hu|Hu])|(it' & Hin & Hp)].
    + injection Hu as <- <-. right. exists (Item l label vals). split; [now left|]. unfold position. cbn [i_node].
      rewrite He. apply in_elt.
    + left. exists u. exact Hu.
    + right. exists it'. split; [now right|easy].
Qed.

Lemma positional_order m done ts items : reading m done ts items -> distinct_types m -> forall x it y it' z i j,
  items = x ++ it :: y ++ it' :: z -> position m it i -> position m it' j ->
  is_named (i_node it) = false -> is_named (i_node it') = false -> has_multi_stage (i_node it') = false -> i < j.
Proof.
  intros H Hd. induction H as [done|done ts bf p l af label vals rest items He Hb Hch Hen Hco Hal Hdp Hrd IH];
    intros [|a x] it y it' z i j E Hi Hj Hn Hn' Hms; try discriminate.
  - injection E as <- ->. unfold position in *. cbn [i_node] in Hi, Hn.
    assert (i = p) by (apply (entry_index m i p l Hd Hi); rewrite He; apply in_elt). subst p.
    assert (Hin : In it' (y ++ it' :: z)) by apply in_elt.
    destruct (reading_node _ _ _ _ Hrd it' Hin) as (_ & Hen' & _).
    destruct (reading_later _ _ _ _ Hd Hrd it' j Hin Hj) as [[Hx|Hx] _]; [congruence|].
    destruct (Nat.lt_trichotomy i j) as [Hlt|[->|Hlt]]; [easy| |].
    + exfalso. apply Hx. exists l. now left.
    + exfalso. pose proof (entry_order m bf i l af j (i_node it') He Hj Hlt) as Hbf.
      destruct (Hb j _ Hbf) as [_ [H|[H|H]]]; [easy| |].
      * apply H. right. split; [easy|]. inversion Hco; congruence.
      * apply Hx. apply used_mono. apply H.
  - injection E as <- ->. now apply (IH x it y it' z i j).
Qed.

(** An argument without end marker that something follows has all the values it can take. *)
Lemma item_full m done ts items : reading m done ts items -> forall x it y z,
  items = x ++ it :: y :: z -> token_end_marker (i_node it) = None ->
  exists mn, count_bounds (i_node it) = Some (mn, nlen (i_values it)).
Proof.
  induction 1 as [done|done ts bf p l af label vals rest items He Hb Hch Hen Hco Hal Hdp Hrd IH];
    intros [|a x] it y z E Hm; try discriminate.
  - injection E as <- ->. cbn [i_node i_values] in *. pose proof (reading_tokens _ _ _ _ _ Hrd) as Hne.
    assert (Hc : exists us, counted l us vals rest) by (inversion Hco; subst; eauto).
    destruct Hc as [us Hc]. inversion Hc as [mn mx va re Hmk Hcb Hus Hle Hfull| | |]; subst; try congruence.
    exists mn. rewrite Hcb. now rewrite (Hfull Hne).
  - injection E as <- ->. now apply (IH x it y z).
Qed.

Lemma counted_bounds l us vals rest : counted l us vals rest ->
  exists mn mx, count_bounds l = Some (mn, mx) /\ (mn <= nlen vals <= mx)%N.
Proof.
  intros [mn mx va re _ Hcb _ Hle _|mn mx mk p va re _ Hcb _ _ Hle _|mx mk p va re _ Hcb _ _ _ Hle _|mn mx mk _ Hcb _ Hle]; eauto.
  exists 0%N, mx. split; [exact Hcb|]. split; [apply N.le_0_l|exact Hle].
Qed.

Lemma consumes_counted l ts label vals rest : consumes l ts label vals rest -> exists us, counted l us vals rest.
Proof. intros H. inversion H; subst; eauto. Qed.

Lemma item_bounds r args m ts items it : typed r args m ts items -> In it items ->
  exists mn mx, count_bounds (i_node it) = Some (mn, mx) /\ (mn <= nlen (i_values it) <= mx)%N.
Proof.
  intros Ht Hin. destruct (typed_item _ _ _ _ _ _ Ht Hin) as (_ & _ & ts' & rest & Hc).
  apply consumes_counted in Hc as [us Hc]. now apply counted_bounds in Hc.
Qed.

(** ** C05-C09, C12, C40, C48, C49: values *)

Lemma gathered_some_once w asg r : gathered (Some w) asg r -> (forall a, In a asg -> multi_stage (fst a) = None) -> asg = [].
Proof.
  intros H Hn. inversion H as [|o l vals v mg more r' Hv Hms|]; subst; [easy|].
  specialize (Hn (l, vals) (or_introl eq_refl)). cbn in Hn. congruence.
Qed.

Lemma gathered_single asg v : gathered None asg (Some v) -> (forall a, In a asg -> multi_stage (fst a) = None) ->
  exists a, asg = [a] /\ value_of (fst a) (snd a) v.
Proof.
  intros H Hn. inversion H as [|o l vals w mg more r' Hv Hms|l vals w more r' Hv Hms Hg]; subst.
  - specialize (Hn (l, vals) (or_introl eq_refl)). cbn in Hn. congruence.
  - assert (E : more = []) by (apply (gathered_some_once w more (Some v) Hg); intros a Ha; apply Hn; now right).
    subst more. inversion Hg; subst. exists (l, vals). easy.
Qed.

(** Folding of the occurrences of a node that accumulates. *)
Lemma gathered_fold merge asg : forall o r, gathered o asg r ->
  (forall a, In a asg -> multi_stage (fst a) = Some merge) ->
  exists ws, Forall2 (fun a w => value_of (fst a) (snd a) w) asg ws
    /\ r = fold_left (fun o w => Some (merge o w)) ws o.
Proof.
  induction asg as [|a asg IH]; intros o r H Hm.
  - inversion H; subst. exists []. split; [constructor|easy].
  - inversion H as [|o' l vals v mg more r' Hv Hms Hg|l vals v more r' Hv Hms Hg]; subst.
    + specialize (Hm _ (or_introl eq_refl)) as Hm0. cbn in Hm0. assert (mg = merge) by congruence. subst mg.
      destruct (IH _ _ Hg (fun a Ha => Hm a (or_intror Ha))) as (ws & H1 & H2).
      exists (v :: ws). split; [now constructor|exact H2].
    + specialize (Hm _ (or_introl eq_refl)) as Hm0. cbn in Hm0. congruence.
Qed.

Lemma mode_sub_ok r m : accepted r = true -> In m (below r) -> is_mode m = true -> exists tp, sub_ok m tp /\ tp <> [].
Proof.
  intros Ha Hm Hk. apply accepted_sub in Ha as [Hr Hs]. destruct (sub_ok_below r [] m Hs Hm) as (tp & Hpre & Hsm).
  exists tp. split; [easy|]. intros ->. apply sub_ok_self in Hsm. apply node_ok_policies in Hsm as (_ & H & _).
  unfold node_rules in H. unfold is_mode in Hk. destruct (n_kind m); try discriminate.
  repeat match goal with Hx : _ && _ = true |- _ => apply andb_true_iff in Hx as [? ?] end. easy.
Qed.

(** The nodes below a child of a mode that is not a mode: itself and its members. *)
Lemma child_nodes r m c : accepted r = true -> In m (below r) -> is_mode m = true -> In c (n_children m) -> is_mode c = false ->
  (is_leaf c = true /\ below c = [c]) \/ (is_dep c = true /\ below c = c :: n_children c).
Proof.
  intros Ha Hm Hk Hc Hcm. destruct (mode_sub_ok r m Ha Hm Hk) as (tp & Hs & Htp).
  pose proof (sub_ok_child _ _ _ Hs Hc) as Hsc. pose proof (sub_ok_self _ _ Hsc) as Hok.
  destruct (kinds c) as [H|[H|[H|H]]]; [left|right|congruence|].
  - split; [easy|]. now apply (leaf_below c (m :: tp)).
  - split; [easy|]. rewrite below_eq. f_equal.
    assert (Hl : forall d, In d (n_children c) -> below d = [d]).
    { intros d Hd. apply (leaf_below d (c :: m :: tp)); [|now apply (group_member c (m :: tp))].
      apply sub_ok_self. now apply sub_ok_child. }
    clear -Hl. induction (n_children c) as [|d ds IH]; [easy|]. cbn [flat_map]. rewrite (Hl d) by now left.
    cbn [app]. f_equal. apply IH. intros e He. apply Hl. now right.
  - exfalso. rewrite (not_root c (m :: tp)) in H; easy.
Qed.

Lemma mode_no_result r m c : accepted r = true -> In m (below r) -> is_mode c = true -> In m (below r) -> In c (n_children m) ->
  no_result_value c = true.
Proof.
  intros Ha Hm Hk _ Hc. apply accepted_sub in Ha as [Hr Hs]. destruct (sub_ok_below r [] m Hs Hm) as (tp & Hpre & Hsm).
  pose proof (sub_ok_self _ _ (sub_ok_child _ _ _ Hsm Hc)) as Hok. apply node_ok_policies in Hok as (H & _ & _).
  unfold node_static in H. unfold is_mode in Hk. destruct (n_kind c); try discriminate.
  repeat match goal with Hx : _ && _ = true |- _ => apply andb_true_iff in Hx as [? ?] end.
  match goal with Hx : has_tag tag_no_result c = true |- _ => apply existsb_exists in Hx as (p & Hp & E) end.
  unfold no_result_value. apply existsb_exists. exists p. split; [easy|]. apply N.eqb_eq in E. destruct p; try discriminate; easy.
Qed.

Section Run.
  Context (r : node) (mem : memory) (args : list token) (m : node) (ts : list token) (items : list item).
  Hypothesis Hfresh : fresh r mem args.
  Hypothesis Htyped : typed r args m ts items.

  Let Hd : distinct_types m := typed_distinct _ _ _ _ _ _ Hfresh Htyped.
  Let Hacc : accepted r = true := wf_accepted r (fr_tree _ _ _ Hfresh).

  Lemma occurrence_node c a : In c (n_children m) -> In a (occurrences m c items) -> In (fst a) (below c).
  Proof.
    intros Hc Ha. unfold occurrences, for_child in Ha. apply filter_In in Ha as [Ha Hb].
    destruct (typed_assigned _ _ _ _ _ _ Htyped Ha) as (it & _ & _ & _ & Hbm). now apply (belongs_iff m c).
  Qed.

  Lemma router_child_not_mode c : In c (router_children m) -> In c (n_children m) /\ is_mode c = false.
  Proof.
    intros H. apply filter_In in H as [H1 H2]. split; [easy|]. destruct (is_mode c) eqn:E; [|easy].
    destruct (typed_mode _ _ _ _ _ Htyped) as [Hm _].
    rewrite (mode_no_result r m c Hacc Hm E Hm H1) in H2. discriminate.
  Qed.

  Lemma child_cases c : In c (n_children m) -> is_mode c = false ->
    (is_leaf c = true /\ below c = [c]) \/ (is_dep c = true /\ below c = c :: n_children c).
  Proof.
    intros Hc Hm. destruct (typed_mode _ _ _ _ _ Htyped) as [H1 H2]. now apply (child_nodes r m c).
  Qed.

  Lemma single_stages c a : In c (router_children m) -> ~ repeatable c -> In a (occurrences m c items) ->
    multi_stage (fst a) = None.
  Proof.
    intros Hc Hr Ha. apply router_child_not_mode in Hc as [Hc Hm]. pose proof (occurrence_node c a Hc Ha) as Hb.
    assert (Hcm : multi_stage c = None).
    { destruct (multi_stage c) eqn:E; [|easy]. exfalso. apply Hr. left. unfold has_multi_stage. now rewrite E. }
    destruct (child_cases c Hc Hm) as [[_ E]|[_ E]]; rewrite E in Hb.
    - destruct Hb as [<-|[]]. exact Hcm.
    - destruct Hb as [<-|Hb]; [exact Hcm|]. destruct (multi_stage (fst a)) eqn:Es; [|easy]. exfalso. apply Hr. right.
      exists (fst a). split; [easy|]. unfold has_multi_stage. now rewrite Es.
  Qed.

  Lemma delivered_once c v : In c (router_children m) -> ~ repeatable c -> occurrences m c items <> [] ->
    delivered c (flat_map (assigned m) items) v ->
    exists a, occurrences m c items = [a] /\ value_of (fst a) (snd a) v.
  Proof.
    intros Hc Hr Hne Hdl. destruct Hdl as [v Hg _|v Hn _ _ _]; [|easy].
    apply gathered_single; [exact Hg|]. intros a Ha. now apply (single_stages c).
  Qed.

  Lemma delivered_at_most_once c v : In c (router_children m) -> ~ repeatable c ->
    delivered c (flat_map (assigned m) items) v -> List.length (occurrences m c items) <= 1.
  Proof.
    intros Hc Hr Hdl. destruct (occurrences m c items) as [|a l] eqn:E; [cbn; lia|].
    destruct (delivered_once c v Hc Hr) as (a' & E' & _); [rewrite E; discriminate|easy|]. rewrite E in E'. rewrite E'. cbn. lia.
  Qed.

  Lemma delivered_absent c v : In c (router_children m) -> (forall d, In d (below c) -> ~ given m items d) ->
    delivered c (flat_map (assigned m) items) v ->
    ~ mandatory c /\ v = last (default_values c) (vt_init (n_ty c)) /\ in_range c v.
  Proof.
    intros Hc Hno Hdl. apply router_child_not_mode in Hc as [Hc Hm].
    assert (E : occurrences m c items = []).
    { destruct (occurrences m c items) as [|a l] eqn:E; [easy|exfalso].
      destruct (occurrences_given r mem args m ts items c Hfresh Htyped Hc) as [H _].
      destruct H as (d & Hb & Hgv); [rewrite E; discriminate|]. now apply (Hno d). }
    destruct Hdl as [v Hg _|v Hn Hmd -> Hi]; [|easy]. unfold occurrences in E. rewrite E in Hg. inversion Hg.
  Qed.

  Lemma leaf_occurrence c a : In c (n_children m) -> is_leaf c = true -> In a (occurrences m c items) -> fst a = c.
  Proof.
    intros Hc Hl Ha. pose proof (occurrence_node c a Hc Ha) as Hb.
    assert (Hm : is_mode c = false) by (unfold is_leaf in Hl; unfold is_mode; now destruct (n_kind c)).
    destruct (child_cases c Hc Hm) as [[_ E]|[Hx E]]; rewrite E in Hb.
    - now destruct Hb as [<-|[]].
    - exfalso. unfold is_leaf in Hl. unfold is_dep in Hx. now destruct (n_kind c).
  Qed.

  Lemma delivered_in_range c v : In c (router_children m) ->
    n_kind c = KCountingFlag \/ (exists cl, n_kind c = KArg cl) ->
    delivered c (flat_map (assigned m) items) v -> in_range c v.
  Proof.
    intros Hc Hk Hdl. pose proof Hc as Hc'. apply router_child_not_mode in Hc' as [Hin Hm].
    assert (Hl : is_leaf c = true) by (unfold is_leaf; destruct Hk as [->|[cl ->]]; reflexivity).
    destruct (multi_stage c) as [mg|] eqn:Ems.
    { assert (Hr : repeatable c) by (left; unfold has_multi_stage; now rewrite Ems).
      destruct Hdl as [v Hg Hi|v Hn Hmd -> Hi]; auto. }
    destruct Hk as [Hk|[cl Hk]].
    - (* accepted counting flags accumulate *)
      exfalso. destruct (typed_mode _ _ _ _ _ Htyped) as [H1 H2]. destruct (mode_sub_ok r m Hacc H1 H2) as (tp & Hs & _).
      pose proof (sub_ok_self _ _ (sub_ok_child _ _ _ Hs Hin)) as Hok. apply node_ok_policies in Hok as (Hst & _ & _).
      unfold node_static in Hst. rewrite Hk in Hst.
      repeat match goal with Hx : _ && _ = true |- _ => apply andb_true_iff in Hx as [? ?] end.
      match goal with Hx : has_tag tag_multi_stage c = true |- _ => apply existsb_exists in Hx as (p & Hp & E) end.
      apply N.eqb_eq in E. destruct p; try discriminate. unfold multi_stage in Ems.
      pose proof (proj1 (first_some_none _ _) Ems _ Hp). discriminate.
    - assert (Hr : ~ repeatable c).
      { intros [H|(d & H & _)]; [unfold has_multi_stage in H; now rewrite Ems in H|].
        destruct (child_cases c Hin Hm) as [[_ E]|[Hx E]].
        - rewrite below_eq in E. injection E as E. assert (In d (flat_map below (n_children c))) as Hf.
          { apply in_flat_map. exists d. split; [easy|apply below_self]. } rewrite E in Hf. destruct Hf.
        - unfold is_dep in Hx. rewrite Hk in Hx. discriminate. }
      destruct Hdl as [v Hg Hi|v Hn Hmd -> Hi]; auto.
      apply gathered_single in Hg as (a & E & Hv); [|intros a Ha; now apply (single_stages c)].
      assert (Ha : In a (occurrences m c items)) by (unfold occurrences; rewrite E; now left).
      pose proof (leaf_occurrence c a Hin Hl Ha) as Ea. destruct a as [l vals]. cbn [fst snd] in *. subst l.
      inversion Hv as [v0 Hf| | |]; subst; auto. destruct Hf; congruence.
  Qed.

  Lemma delivered_fold c merge v : In c (router_children m) -> is_leaf c = true -> multi_stage c = Some merge ->
    occurrences m c items <> [] -> delivered c (flat_map (assigned m) items) v ->
    exists ws, Forall2 (fun a w => value_of c (snd a) w) (occurrences m c items) ws
      /\ Some v = fold_left (fun o w => Some (merge o w)) ws None /\ in_range c v.
  Proof.
    intros Hc Hl Hms Hne Hdl. apply router_child_not_mode in Hc as [Hin Hm].
    destruct Hdl as [v Hg Hi|v Hn _ _ _]; [|easy].
    destruct (gathered_fold merge _ _ _ Hg) as (ws & H1 & H2).
    { intros a Ha. now rewrite (leaf_occurrence c a Hin Hl Ha). }
    exists ws. split.
    - fold (occurrences m c items) in H1. assert (Hx : forall a, In a (occurrences m c items) -> fst a = c) by (intros; now apply leaf_occurrence).
      clear H2. revert H1 Hx. generalize (occurrences m c items). intros l H1. induction H1 as [|a w l ws Hv _ IH]; intros Hx; constructor.
      + rewrite <- (Hx a) at 1 by now left. exact Hv.
      + apply IH. intros b Hb. apply Hx. now right.
    - split; [easy|]. apply Hi. left. unfold has_multi_stage. now rewrite Hms.
  Qed.
End Run.

(** ** C09 *)

Lemma counting_fold cast ws : forall k, (0 < k)%Z ->
  (forall j, (0 < j)%Z -> cast (Z.modulo (cast j) (Z.of_N size_mod) + 1)%Z = cast (j + 1)%Z) ->
  fold_left (fun o w => Some (counting_merge cast o w)) ws (Some (VInt (cast k)))
  = Some (VInt (cast (k + Z.of_nat (List.length ws))%Z)).
Proof.
  induction ws as [|w ws IH]; intros k Hk Hc; cbn [fold_left List.length].
  - now rewrite Z.add_0_r.
  - unfold counting_merge at 2. rewrite Hc by easy. rewrite IH by (auto; lia). do 3 f_equal. lia.
Qed.

Lemma Forall2_len {A B} (P : A -> B -> Prop) l k : Forall2 P l k -> List.length l = List.length k.
Proof. induction 1; cbn; auto. Qed.

Lemma delivered_count r mem args m ts items cast id ps v : fresh r mem args -> typed r args m ts items ->
  let c := counting_flag cast id ps in
  In c (router_children m) ->
  (forall j, (0 < j)%Z -> cast (Z.modulo (cast j) (Z.of_N size_mod) + 1)%Z = cast (j + 1)%Z) ->
  occurrences m c items <> [] -> delivered c (flat_map (assigned m) items) v ->
  v = VInt (cast (Z.of_nat (List.length (occurrences m c items)))).
Proof.
  intros Hf Ht c Hc Hcast Hne Hdl.
  destruct (delivered_fold r mem args m ts items Hf Ht c (counting_merge cast) v) as (ws & H1 & H2 & _); auto.
  rewrite (Forall2_len _ _ _ H1). destruct ws as [|w ws]; [destruct (occurrences m c items); [easy|inversion H1]|].
  cbn [fold_left counting_merge] in H2. rewrite counting_fold in H2 by (auto; lia).
  assert (E : v = VInt (cast (1 + Z.of_nat (List.length ws))%Z)) by congruence. rewrite E.
  f_equal. f_equal. cbn [List.length]. lia.
Qed.

(** ** C46 *)

Lemma selects_leads c ps ts m ps' ts' : selects c ps ts m ps' ts' ->
  exists names, ts = map (Tok PNone) names ++ ts' /\ leads c names m
    /\ (none_name m <> None -> forall d rest, In d (n_children m) -> is_mode d = true -> ~ names_mode d ts' rest).
Proof.
  induction 1 as [m ps ts Hn|m ps ts rest Hn Hno|m ps ts rest bf c af m' ps' ts' Hn Hcs Hcm Hc Hno Hsel IH].
  - exists []. split; [easy|]. split; [now constructor|easy].
  - destruct Hn as (_ & nm & Hnm & ->). exists [nm]. split; [easy|]. split; [now constructor|].
    intros _ d rest' Hd Hm. now apply Hno.
  - destruct Hn as (_ & nm & Hnm & ->). destruct IH as (names & -> & Hl & Hlast). exists (nm :: names). split; [easy|].
    split; [|easy]. apply (leads_on m nm c names m'); auto; [rewrite Hcs; apply in_elt|].
    destruct Hc as (rest' & _ & nm' & Hnm' & E'). inversion Hl; subst; try discriminate. congruence.
Qed.

Lemma typed_leads r args m ts items : typed r args m ts items ->
  exists c names, In c (n_children r) /\ is_mode c = true /\ leads c names m
    /\ args = map (Tok PNone) names ++ ts
    /\ (none_name m <> None -> forall d rest, In d (n_children m) -> is_mode d = true -> ~ names_mode d ts rest).
Proof.
  intros (bf & c & af & ps & Hcs & Hb & Hmc & Hsel & Hrd). apply selects_leads in Hsel as (names & H1 & H2 & H3).
  exists c, names. split; [rewrite Hcs; apply in_elt|]. easy.
Qed.

(** ** C03 *)

Lemma respelled_trans m a b' c : respelled m a b' -> respelled m b' c -> respelled m a c.
Proof.
  intros H1 H2. induction H2 as [ts|ts bf p label x s v af l sep _ IH|ts bf t gs af l _ IH|ts bf t af l _ IH]; auto.
  - eapply resp_split; eauto.
  - eapply resp_group; eauto.
  - eapply resp_marker; eauto.
Qed.

Lemma respelled_under m pre a c : respelled m a c -> respelled m (pre ++ a) (pre ++ c).
Proof.
  induction 1 as [ts|ts bf p label x s v af l sep _ IH|ts bf t gs af l _ IH|ts bf t af l _ IH]; [constructor| | |];
    rewrite app_assoc in *; [eapply resp_split|eapply resp_group|eapply resp_marker]; eauto.
Qed.

Lemma counted_respelled m l us vals rest : argument_of m l -> counted l us vals rest -> respelled m us (vals ++ rest).
Proof.
  intros Ha [mn mx va re _ _ -> _ _|mn mx mk p va re Hm _ -> _ _ _|mx mk p va re Hm _ _ _ -> _ _|mn mx mk _ _ _ _].
  - constructor.
  - apply (resp_marker m _ va (Tok p mk) re l); [constructor|easy|easy].
  - apply (resp_marker m _ [] (Tok p mk) (va ++ re) l); [constructor|easy|easy].
  - rewrite app_nil_r. constructor.
Qed.

Lemma consumes_respelled m l ts label vals rest : argument_of m l -> tidy m -> consumes l ts label vals rest ->
  exists mid, respelled m ts (mid ++ rest) /\ map token_str mid = item_text (Item l label vals).
Proof.
  intros Ha Ht Hc. destruct Hc as [t value us t' us' vals rest Hn Hf Hg Hm Hc|vals rest Hn Hne Hc].
  2:{ exists vals. split; [now apply (counted_respelled m l)|easy]. }
  exists (t' :: vals). split; [|unfold item_text; cbn [i_label i_values map app]; now rewrite norm_token_str].
  cbn [app].
  assert (Hfr : respelled m ts (t :: value ++ us)).
  { destruct Hf as [t us _|sep p lb c s v us Hv Hin Hlen Hno Hvne].
    - constructor.
    - apply (resp_split m _ [] p lb c s v us l sep); auto. cbn [app]. constructor. }
  apply (respelled_trans m _ _ _ Hfr).
  assert (Hgr : respelled m (t :: value ++ us) (t' :: value ++ us')).
  { destruct Hg as [t us Hno|t nm g gs us Hgf Hgs]; [constructor|].
    destruct Hf as [t us Hsep|sep p lb c s v us Hv Hin Hlen Hno Hvne].
    - cbn [app]. destruct Hgf as (He & Hnm & _). pose proof (graphemes_partition _ _ Hgs) as [Hcc _].
      apply (resp_group m _ [] t (g :: gs) us l); auto.
      + discriminate.
      + destruct Hnm as [[-> _]|(-> & _)]; discriminate.
      + rewrite Hcc. destruct t as [pf nmt]. cbn [t_prefix t_name] in Hnm. unfold token_str. cbn [t_prefix t_name].
        destruct Hnm as [[-> ->]|(-> & -> & _)]; [easy|]. easy.
      + now rewrite Hcc.
    - exfalso. apply (Ht l Ha); [congruence|]. apply Hgf. }
  apply (respelled_trans m _ _ _ Hgr). apply (respelled_under m [t']). now apply (counted_respelled m l).
Qed.

Lemma reading_respelled m done ts items : tidy m -> reading m done ts items ->
  exists final, respelled m ts final /\ map token_str final = flat_map item_text items.
Proof.
  intros Ht. induction 1 as [done|done ts bf i l af label vals rest items He Hb Hch Hen Hco Hal Hdp Hrd IH].
  - exists []. split; [constructor|easy].
  - destruct IH as (final & H1 & H2). destruct (consumes_respelled m l ts label vals rest) as (mid & H3 & H4); auto.
    { apply (entry_argument m i). rewrite He. apply in_elt. }
    exists (mid ++ final). split.
    + apply (respelled_trans m _ _ _ H3). now apply respelled_under.
    + rewrite map_app, H2, H4. easy.
Qed.

(** ** C40: members of a group in order *)

Lemma reading_at m done ts items : reading m done ts items -> forall before it after, items = before ++ it :: after ->
  exists ts' done' bf i af rest, entries m = bf ++ (i, i_node it) :: af
    /\ (forall j k, In (j, k) bf -> passes m done' ts' j k) /\ consumes (i_node it) ts' (i_label it) (i_values it) rest
    /\ reading m ((i, i_node it) :: done') rest after.
Proof.
  induction 1 as [done|done ts bf i l af label vals rest items He Hb Hch Hen Hco Hal Hdp Hrd IH];
    intros [|x before] it after E; try discriminate.
  - injection E as <- <-. exists ts, done, bf, i, af, rest. easy.
  - injection E as <- ->. now apply (IH before it after).
Qed.

(** The entries of one child are in order. *)
Lemma entries_group cs : forall k i c, nth_error cs i = Some c -> is_mode c = false ->
  exists x y, entries_from k cs = x ++ map (pair (k + i)) (filter is_argument (below c)) ++ y.
Proof.
  induction cs as [|d cs IH]; intros k [|i] c Hi Hm; try discriminate.
  - injection Hi as ->. cbn [entries_from]. rewrite Hm, Nat.add_0_r. exists [], (entries_from (S k) cs). easy.
  - cbn [entries_from]. destruct (IH (S k) i c Hi Hm) as (x & y & E). rewrite E.
    exists ((if is_mode d then [] else map (pair k) (filter is_argument (below d))) ++ x), y.
    rewrite <- app_assoc. now replace (S k + i) with (k + S i) by lia.
Qed.

Lemma nodup_app_join {A} (x y : list A) : NoDup x -> NoDup y -> (forall a, In a x -> In a y -> False) -> NoDup (x ++ y).
Proof.
  induction x as [|a x IH]; intros Hx Hy Hno; [easy|]. inversion Hx as [|? ? Ha Hx']; subst. cbn [app]. constructor.
  - intros H. apply in_app_iff in H as [H|H]; [easy|]. apply (Hno a); [now left|easy].
  - apply IH; auto. intros b Hb Hb'. apply (Hno b); [now right|easy].
Qed.

Lemma nodup_map_filter {A B} (f : A -> B) (p : A -> bool) l : NoDup (map f l) -> NoDup (map f (filter p l)).
Proof.
  induction l as [|a l IH]; intros H; [constructor|]. cbn [map] in H. inversion H as [|? ? Ha Hl]; subst. cbn [filter].
  destruct (p a); [|now apply IH]. cbn [map]. constructor; [|now apply IH]. intros Hin. apply Ha.
  apply in_map_iff in Hin as (x & <- & Hx). apply filter_In in Hx as [Hx _]. now apply in_map.
Qed.

Lemma entries_nodup cs : forall k, NoDup (map n_id (flat_map below cs)) ->
  NoDup (map (fun e => n_id (snd e)) (entries_from k cs)).
Proof.
  induction cs as [|c cs IH]; intros k H; [constructor|]. cbn [flat_map] in H. rewrite map_app in H.
  cbn [entries_from]. rewrite map_app. apply nodup_app_join.
  - destruct (is_mode c); [constructor|]. rewrite map_map. cbn [snd]. apply nodup_map_filter. now apply nodup_app_l in H.
  - apply IH. now apply nodup_app_r in H.
  - intros a Ha Hb. apply (nodup_app_disj _ _ a H).
    + destruct (is_mode c); [destruct Ha|]. rewrite map_map in Ha. cbn [snd] in Ha. apply in_map_iff in Ha as (x & <- & Hx).
      apply filter_In in Hx as [Hx _]. now apply in_map.
    + apply in_map_iff in Hb as ([j x] & <- & Hx). cbn [snd]. apply in_map. apply entries_from_in in Hx as (i & d & _ & Hi & _ & Hx & _).
      apply in_flat_map. exists d. split; [eapply nth_error_In; exact Hi|easy].
Qed.

Lemma nodup_split {A B} (f : A -> B) (x x' y y' : list A) a : NoDup (map f (x ++ a :: y)) -> x ++ a :: y = x' ++ a :: y' -> x = x'.
Proof.
  revert x'. induction x as [|b x IH]; intros [|c x'] H E; cbn [app] in *; auto.
  - injection E as <- ->. cbn [map] in H. inversion H as [|? ? Hn _]; subst. exfalso. apply Hn. apply in_map. apply in_elt.
  - injection E as -> <-. cbn [map] in H. inversion H as [|? ? Hn _]; subst. exfalso. apply Hn. apply in_map. apply in_elt.
  - injection E as -> E. f_equal. apply IH; [|easy]. cbn [map] in H. now inversion H.
Qed.

Lemma entries_before m bf i l af j c x y : distinct_types m -> entries m = bf ++ (i, l) :: af ->
  nth_error (n_children m) j = Some c -> is_mode c = false ->
  filter is_argument (below c) = x ++ l :: y -> forall d, In d x -> In (j, d) bf.
Proof.
  intros Hd He Hj Hm Hf d Hin. destruct (entries_group (n_children m) 0 j c Hj Hm) as (u & v & E).
  fold (entries m) in E. rewrite Hf, map_app in E. cbn [map Nat.add] in E.
  assert (i = j).
  { apply (entry_index m i j l Hd); [rewrite He; apply in_elt|]. rewrite E. rewrite !in_app_iff. right. left. right. now left. }
  subst j.
  assert (Heq : bf = u ++ map (pair i) x); [|subst bf; apply in_app_iff; right; now apply in_map].
  pose proof (entries_nodup (n_children m) 0 (distinct_children m Hd)) as Hnd. fold (entries m) in Hnd. rewrite He in E, Hnd.
  apply (nodup_split _ _ _ _ (map (pair i) y ++ v) _ Hnd). rewrite E, <- !app_assoc. easy.
Qed.

(** The member of a group that takes the tokens is the first that they are for. *)
Lemma group_first r mem args m ts items before it after c x y : fresh r mem args -> typed r args m ts items ->
  items = before ++ it :: after -> In c (n_children m) -> is_dep c = true -> n_children c = x ++ i_node it :: y ->
  exists ts' rest, consumes (i_node it) ts' (i_label it) (i_values it) rest
    /\ forall d, In d x -> is_named d = true -> enabled d -> ~ addressed d ts'.
Proof.
  intros Hf Ht E Hc Hdep Hcs. pose proof (typed_distinct _ _ _ _ _ _ Hf Ht) as Hd.
  destruct (typed_mode _ _ _ _ _ Ht) as [Hm Hk]. destruct Hf as [Hw _ _ _].
  destruct (mode_sub_ok r m (wf_accepted _ Hw) Hm Hk) as (tp & Hs & _).
  pose proof Ht as (bf0 & c0 & af0 & ps & _ & _ & _ & _ & Hrd).
  destruct (reading_at _ _ _ _ Hrd before it after E) as (ts' & done' & bf & i & af & rest & He & Hb & Hco & _).
  exists ts', rest. split; [easy|]. intros d Hd' Hn Hen. apply In_nth_error in Hc as [j Hj].
  assert (Hin : In c (n_children m)) by (eapply nth_error_In; exact Hj).
  assert (Hcm : is_mode c = false) by (unfold is_dep in Hdep; unfold is_mode; now destruct (n_kind c)).
  assert (Hbf : In (j, d) bf).
  { apply (entries_before m bf i (i_node it) af j c x y); auto.
    rewrite (group_arguments c (m :: tp)); auto. now apply sub_ok_child. }
  destruct (Hb j d Hbf) as [_ [H|[H|(H & _)]]]; [easy|easy|congruence].
Qed.

(** ** C38 *)

Lemma same_assignments r mem args m ts items mem' args' ts' items' vs : fresh r mem args -> fresh r mem' args' ->
  typed r args m ts items -> typed r args' m ts' items' ->
  flat_map (assigned m) items = flat_map (assigned m) items' ->
  calls_router r mem args m vs <-> calls_router r mem' args' m vs.
Proof.
  intros H1 H2 H3 H4 E. rewrite (typed_called r mem args m ts items) by easy. rewrite (typed_called r mem' args' m ts' items') by easy.
  now rewrite E.
Qed.

(** The order in which arguments of different children were typed does not matter. *)
Lemma deliveries_order m asg asg' vs vs' : (forall c, In c (n_children m) -> for_child c asg = for_child c asg') ->
  deliveries m asg vs -> deliveries m asg' vs' -> vs = vs'.
Proof.
  intros Hsame [_ H1] [_ H2].
  assert (Hin : forall c, In c (router_children m) -> In c (n_children m)) by (intros c H; now apply filter_In in H as [H _]).
  revert vs' H2. induction H1 as [|c v cs vs Hc _ IH]; intros vs' H2; inversion H2 as [|c' v' cs' w Hc' Hr]; subst; [easy|].
  f_equal; [|apply IH; auto; intros d Hd; apply Hin; now right].
  assert (Hs : for_child c asg = for_child c asg') by (apply Hsame, Hin; now left).
  destruct Hc as [v Hg _|v Hn _ -> _], Hc' as [v' Hg' _|v' Hn' _ -> _]; rewrite Hs in *.
  - pose proof (gathered_det _ _ _ Hg _ Hg') as E. now injection E.
  - rewrite Hn' in Hg. inversion Hg.
  - rewrite Hn in Hg'. inversion Hg'.
  - easy.
Qed.

(** Proofs about repeated names of modes, and about values that reach the router (C55-C57). *)
From Verif Require Import Bytes Token Result CodePoint Utf8 Tree PreParse Parse Root Levenshtein Build Validator.
From Verif Require Import SpecTokens SpecTake SpecMode SpecDeliver SpecRoot SpecReading SpecClaims SpecPaths.
From Verif Require Import Utf8Proofs TokenProofs NodeProofs TakeProofs ReadProofs ClaimProofs RunProofs.
Local Open Scope list_scope.

(** ** Modes of the same name *)

Lemma selects_first c ps ts m ps' ts' : selects c ps ts m ps' ts' ->
  forall before after, is_mode c = true ->
  (forall d, In d before -> is_mode d = true ->
     (none_name c = None -> none_name d <> None) /\ forall rest, ~ names_mode d ts rest) ->
  exists names, ts = map (Tok PNone) names ++ ts' /\ first_path (before ++ c :: after) names m
    /\ (none_name c <> None -> names <> []).
Proof.
  induction 1 as [m ps ts Hn|m ps ts rest Hn Hno|m ps ts rest bf c af m' ps' ts' Hn Hcs Hcm Hc Hno Hsel IH];
    intros before after Hm Hb.
  - exists []. split; [reflexivity|]. split; [|congruence]. apply first_anonymous; [exact Hm|exact Hn|].
    intros d Hd Hdm. exact (proj1 (Hb d Hd Hdm) Hn).
  - destruct Hn as (He & nm & Hnm & ->). exists [nm]. split; [reflexivity|]. split; [|discriminate].
    apply first_here; auto.
    intros d Hd Hdm Hde E. apply (proj2 (Hb d Hd Hdm) rest). split; [exact Hde|]. now exists nm.
  - destruct Hn as (He & nm & Hnm & ->). destruct Hc as (rest' & _ & nm' & Hnm' & _).
    destruct (IH bf af Hcm) as (names & E & Hp & Hne).
    { intros d Hd Hdm. split; [congruence|]. intros rest0. exact (Hno d rest0 Hd Hdm). }
    exists (nm :: names). split; [rewrite E; reflexivity|]. split; [|discriminate].
    apply first_on; auto.
    + intros d Hd Hdm Hde E'. apply (proj2 (Hb d Hd Hdm) rest). split; [exact Hde|]. now exists nm.
    + apply Hne. congruence.
    + rewrite Hcs. exact Hp.
Qed.

Lemma typed_first r args m ts items : typed r args m ts items ->
  exists names, args = map (Tok PNone) names ++ ts /\ first_path (n_children r) names m.
Proof.
  intros (bf & c & af & ps & Hcs & Hb & Hmc & Hsel & Hrd).
  destruct (selects_first c [r] args m ps ts Hsel bf af Hmc) as (names & E & Hp & _).
  { intros d Hd Hdm. specialize (Hb d Hd). unfold passed_over in Hb. rewrite Hdm in Hb.
    split; [intros _; exact (proj1 Hb)|exact (proj2 Hb)]. }
  exists names. split; [exact E|]. rewrite Hcs. exact Hp.
Qed.

(** The path is the only one. *)
Lemma split_first (P Q : node -> Prop) before c after before' c' after' :
  before ++ c :: after = before' ++ c' :: after' -> P c -> Q c' ->
  (forall d, In d before -> ~ Q d) -> (forall d, In d before' -> ~ P d) -> before = before' /\ c = c' /\ after = after'.
Proof.
  revert before'. induction before as [|x l IH]; intros [|y l'] E Hc Hc' Hb Hb'; cbn [app] in E.
  - injection E as -> ->. easy.
  - injection E as -> ->. exfalso. apply (Hb' y); [now left|exact Hc].
  - injection E as E1 E2. subst x. exfalso. apply (Hb c'); [now left|exact Hc'].
  - injection E as -> E. destruct (IH l' E Hc Hc') as (-> & -> & ->).
    + intros d Hd. apply Hb. now right.
    + intros d Hd. apply Hb'. now right.
    + easy.
Qed.

Lemma first_path_unique cs names m : first_path cs names m -> forall m', first_path cs names m' -> m = m'.
Proof.
  assert (same : forall (nm : bytes) before c after before' c' after',
    before ++ c :: after = before' ++ c' :: after' ->
    is_mode c = true -> enabled c -> none_name c = Some nm ->
    is_mode c' = true -> enabled c' -> none_name c' = Some nm ->
    (forall d, In d before -> is_mode d = true -> enabled d -> none_name d <> Some nm) ->
    (forall d, In d before' -> is_mode d = true -> enabled d -> none_name d <> Some nm) -> c = c').
  { intros nm bf c af bf' c' af' E H1 H2 H3 H1' H2' H3' Hb Hb'.
    pose (P := fun d => is_mode d = true /\ enabled d /\ none_name d = Some nm).
    apply (split_first P P bf c af bf' c' af' E); unfold P; auto.
    - intros d Hd (A & B & C). exact (Hb d Hd A B C).
    - intros d Hd (A & B & C). exact (Hb' d Hd A B C). }
  induction 1 as [bf c af Hm Hn Hb|bf c af nm Hm He Hn Hb|bf c af nm names m Hm He Hn Hb Hne Hp IH]; intros m' H'.
  - inversion H' as [bf' c' af' Hm' Hn' Hb' E| |]; subst.
    pose (P := fun d => is_mode d = true /\ none_name d = None).
    symmetry in E. apply (split_first P P bf c af bf' m' af' E); unfold P; auto.
    + intros d Hd (A & B). exact (Hb d Hd A B).
    + intros d Hd (A & B). exact (Hb' d Hd A B).
  - inversion H' as [|bf' c' af' nm' Hm' He' Hn' Hb' E|bf' c' af' nm' names' m'' Hm' He' Hn' Hb' Hne' Hp' E]; subst.
    + symmetry in E. now apply (same nm bf c af bf' m' af').
    + now elim Hne'.
  - inversion H' as [|bf' c' af' nm' Hm' He' Hn' Hb' E|bf' c' af' nm' names' m'' Hm' He' Hn' Hb' Hne' Hp' E]; subst.
    + now elim Hne.
    + symmetry in E. assert (c = c') as <- by now apply (same nm bf c af bf' c' af').
      now apply IH.
Qed.

(** ** Values that reach the router *)

Lemma item_occurrence m items it d c : In it items -> In d (stands_for m (i_node it)) -> In d (below c) ->
  In (d, i_values it) (occurrences m c items).
Proof.
  intros Hit Hd Hc. unfold occurrences, for_child. apply filter_In. split.
  - apply in_flat_map. exists it. split; [exact Hit|]. unfold assigned. apply in_map_iff. now exists d.
  - cbn [fst]. unfold belongs. apply existsb_exists. exists d. split; [exact Hc|]. apply N.eqb_refl.
Qed.

Lemma run_reaches r mem args m ts items vs it d i c : fresh r mem args -> typed r args m ts items ->
  calls_router r mem args m vs -> In it items -> In d (stands_for m (i_node it)) ->
  nth_error (router_children m) i = Some c -> In d (below c) ->
  exists v, nth_error vs i = Some v /\ In (d, i_values it) (occurrences m c items)
    /\ gathered None (occurrences m c items) (Some v).
Proof.
  intros Hf Ht Hc Hit Hd Hi Hb. destruct (run_value r mem args m ts items Hf Ht vs i c Hc Hi) as (v & Hv & Hdl).
  pose proof (item_occurrence m items it d c Hit Hd Hb) as Hin.
  exists v. split; [exact Hv|]. split; [exact Hin|].
  destruct Hdl as [v Hg _|v Hn _ _ _]; [exact Hg|].
  unfold occurrences in Hin. rewrite Hn in Hin. destruct Hin.
Qed.

Lemma run_reaches_once r mem args m ts items vs it d i c : fresh r mem args -> typed r args m ts items ->
  calls_router r mem args m vs -> In it items -> In d (stands_for m (i_node it)) ->
  nth_error (router_children m) i = Some c -> In d (below c) -> ~ repeatable c ->
  exists v, nth_error vs i = Some v /\ value_of d (i_values it) v.
Proof.
  intros Hf Ht Hc Hit Hd Hi Hb Hr. destruct (run_value r mem args m ts items Hf Ht vs i c Hc Hi) as (v & Hv & Hdl).
  pose proof (item_occurrence m items it d c Hit Hd Hb) as Hin.
  assert (Hne : occurrences m c items <> []) by (intros E; rewrite E in Hin; destruct Hin).
  destruct (delivered_once r mem args m ts items Hf Ht c v (nth_error_In _ _ Hi) Hr Hne Hdl) as (a & E & Hval).
  rewrite E in Hin. destruct Hin as [->|[]]. exists v. split; [exact Hv|exact Hval].
Qed.

(** An alias. *)
Lemma run_alias_reaches r mem args m ts items vs it ns d i c : fresh r mem args -> typed r args m ts items ->
  calls_router r mem args m vs -> In it items -> In (PAlias ns) (n_pols (i_node it)) ->
  In d (below m) -> refers_to ns d = true ->
  nth_error (router_children m) i = Some c -> In d (below c) ->
  exists v, nth_error vs i = Some v /\ In (d, i_values it) (occurrences m c items)
    /\ gathered None (occurrences m c items) (Some v) /\ (~ repeatable c -> value_of d (i_values it) v).
Proof.
  intros Hf Ht Hc Hit Hal Hd Hr Hi Hb.
  assert (Hs : In d (stands_for m (i_node it))).
  { pose proof (run_alias_assigned r mem args m ts items Hf Ht it ns Hit Hal) as E. unfold assigned in E.
    assert (Hx : In (d, i_values it) (map (fun x => (x, i_values it)) (stands_for m (i_node it)))).
    { rewrite E. apply in_map_iff. exists d. split; [reflexivity|]. apply filter_In. now split. }
    apply in_map_iff in Hx as (x & Ex & Hx). injection Ex as <-. exact Hx. }
  destruct (run_reaches r mem args m ts items vs it d i c Hf Ht Hc Hit Hs Hi Hb) as (v & Hv & Hin & Hg).
  exists v. split; [exact Hv|]. split; [exact Hin|]. split; [exact Hg|]. intros Hrep.
  destruct (run_reaches_once r mem args m ts items vs it d i c Hf Ht Hc Hit Hs Hi Hb Hrep) as (w & Hw & Hval).
  rewrite Hv in Hw. injection Hw as <-. exact Hval.
Qed.

(** An argument that is not an alias. *)
Lemma run_own_reaches r mem args m ts items vs it i c : fresh r mem args -> typed r args m ts items ->
  calls_router r mem args m vs -> In it items -> (forall ns, ~ In (PAlias ns) (n_pols (i_node it))) ->
  nth_error (router_children m) i = Some c -> In (i_node it) (below c) ->
  exists v, nth_error vs i = Some v /\ In (i_node it, i_values it) (occurrences m c items)
    /\ gathered None (occurrences m c items) (Some v) /\ (~ repeatable c -> value_of (i_node it) (i_values it) v).
Proof.
  intros Hf Ht Hc Hit Hal Hi Hb.
  assert (Hs : In (i_node it) (stands_for m (i_node it))) by (rewrite ReadProofs.stands_for_self by exact Hal; now left).
  destruct (run_reaches r mem args m ts items vs it _ i c Hf Ht Hc Hit Hs Hi Hb) as (v & Hv & Hin & Hg).
  exists v. split; [exact Hv|]. split; [exact Hin|]. split; [exact Hg|]. intros Hrep.
  destruct (run_reaches_once r mem args m ts items vs it _ i c Hf Ht Hc Hit Hs Hi Hb Hrep) as (w & Hw & Hval).
  rewrite Hv in Hw. injection Hw as <-. exact Hval.
Qed.

(** ** C54 *)

Lemma mixed_then m a b' c : respelled_mixed m a b' -> respelled m b' c -> respelled_mixed m a c.
Proof.
  intros H1 H2. destruct H1 as [ts ts' H|ts bf t g gs v af l ts' H Ha He Hs Hp Et Eg Hr].
  - apply mixed_plain. now apply (respelled_trans m ts ts').
  - apply (mixed_group m ts bf t g gs v af l); auto. now apply (respelled_trans m _ ts').
Qed.

Lemma mixed_trans m a b' c : respelled_mixed m a b' -> respelled_mixed m b' c -> respelled_mixed m a c.
Proof.
  intros H1 H2. induction H2 as [ts ts' H|ts bf t g gs v af l ts' H IH Ha He Hs Hp Et Eg Hr].
  - now apply (mixed_then m a ts).
  - apply (mixed_group m a bf t g gs v af l); auto.
Qed.

Lemma mixed_under m pre a c : respelled_mixed m a c -> respelled_mixed m (pre ++ a) (pre ++ c).
Proof.
  induction 1 as [ts ts' H|ts bf t g gs v af l ts' H IH Ha He Hs Hp Et Eg Hr].
  - apply mixed_plain. now apply respelled_under.
  - apply (mixed_group m (pre ++ ts) (pre ++ bf) t g gs v af l); auto.
    + rewrite <- app_assoc. exact IH.
    + rewrite <- app_assoc. now apply respelled_under.
Qed.

Lemma consumes_mixed m l ts label vals rest : argument_of m l -> consumes l ts label vals rest ->
  exists mid, respelled_mixed m ts (mid ++ rest) /\ map token_str mid = item_text (Item l label vals).
Proof.
  intros Ha Hc. destruct Hc as [t value us t' us' vals rest Hn Hf Hg Hm Hc|vals rest Hn Hne Hc].
  2:{ exists vals. split; [apply mixed_plain; now apply (counted_respelled m l)|easy]. }
  exists (t' :: vals). split; [|unfold item_text; cbn [i_label i_values map app]; now rewrite norm_token_str].
  cbn [app].
  assert (Hfr : respelled m ts (t :: value ++ us)).
  { destruct Hf as [t us _|sep p lb c s v us Hv Hin Hlen Hno Hvne].
    - constructor.
    - apply (resp_split m _ [] p lb c s v us l sep); auto. cbn [app]. constructor. }
  assert (Hct : respelled m (t' :: value ++ us') (t' :: vals ++ rest))
    by (apply (respelled_under m [t']); now apply (counted_respelled m l)).
  destruct Hg as [t us Hno|t nm g gs us Hgf Hgs].
  { apply mixed_plain. now apply (respelled_trans m _ _ _ Hfr). }
  pose proof (graphemes_partition _ _ Hgs) as [Hcc _]. destruct Hgf as (He & Hnm & _).
  assert (Hp : t_prefix t <> PLong) by (destruct Hnm as [[-> _]|(-> & _)]; discriminate).
  assert (Et : token_str t = short_prefix ++ List.concat (g :: gs)).
  { rewrite Hcc. destruct t as [pf nmt]. cbn [t_prefix t_name] in Hnm. unfold token_str. cbn [t_prefix t_name].
    destruct Hnm as [[-> ->]|(-> & -> & _)]; easy. }
  assert (Eg : graphemes (List.concat (g :: gs)) = Some (g :: gs)) by now rewrite Hcc.
  destruct Hf as [t us Hsep|sep p lb c s v us Hv Hin Hlen Hno Hvne].
  - apply mixed_plain. apply (respelled_trans m _ _ _ Hfr). cbn [app]. cbn [app] in Hct.
    refine (respelled_trans m _ _ _ _ Hct).
    apply (resp_group m _ [] t (g :: gs) us l); auto; try discriminate; apply resp_same.
  - apply (mixed_group m _ [] (Tok p lb) g gs (Tok PNone v) us l); auto.
    + apply mixed_plain. exact Hfr.
    + congruence.
Qed.

Lemma reading_mixed m done ts items : reading m done ts items ->
  exists final, respelled_mixed m ts final /\ map token_str final = flat_map item_text items.
Proof.
  induction 1 as [done|done ts bf i l af label vals rest items He Hb Hch Hen Hco Hal Hdp Hrd IH].
  - exists []. split; [apply mixed_plain; constructor|easy].
  - destruct IH as (final & H1 & H2). destruct (consumes_mixed m l ts label vals rest) as (mid & H3 & H4); auto.
    { apply (entry_argument m i). rewrite He. apply in_elt. }
    exists (mid ++ final). split.
    + apply (mixed_trans m _ _ _ H3). now apply mixed_under.
    + rewrite map_app, H2, H4. easy.
Qed.

Lemma every_token_mixed r mem args m vs : fresh r mem args -> calls_router r mem args m vs -> is_mode m = true ->
  exists names ts items final,
    args = map (Tok PNone) names ++ ts /\ typed r args m ts items
    /\ respelled_mixed m ts final /\ map token_str final = flat_map item_text items.
Proof.
  intros Hf Hc Hm. destruct (called_typed _ _ _ _ _ Hf Hc Hm) as (ts & items & Hty & _).
  destruct (typed_leads _ _ _ _ _ Hty) as (c & names & _ & _ & _ & E & _).
  pose proof Hty as (bf & c' & af & ps & _ & _ & _ & _ & Hrd).
  destruct (reading_mixed m [] ts items Hrd) as (final & H1 & H2).
  exists names, ts, items, final. easy.
Qed.

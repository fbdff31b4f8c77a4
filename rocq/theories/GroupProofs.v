(** Lemmas for C10. *)
From Verif Require Import Bytes Token Adapter Result CodePoint Utf8 Tree Levenshtein PreParse Parse Root Validator.
From Verif Require Import SpecTokens SpecTake SpecMode SpecDeliver SpecRoot SpecReading SpecClaims SpecPolicy SpecSafe SpecGroup.
From Verif Require Import TreeProofs OrderProofs PermProofs Utf8Proofs NodeProofs TakeProofs ModeProofs ParseProofs MeaningProofs RootProofs SelectProofs ReadProofs ExactProofs ClaimProofs LabelProofs.
Local Open Scope list_scope.

Lemma head_exact m done t us us' f g before i after :
  entries m = before ++ (i, f) :: after ->
  (forall j k, In (j, k) before -> ~ chokes k (t :: us) /\ ~ addressed k (t :: us)) ->
  ~ chokes f (t :: us) -> enabled f -> is_named f = true ->
  match_node f (Tok PShort g) = true -> addressed f (t :: us) ->
  (forall label vals rest, consumes f (t :: us) label vals rest <-> label = Some (Tok PShort g) /\ counted f us' vals rest) ->
  forall items, reading m done (t :: us) items <->
    exists vals rest items', items = Item f (Some (Tok PShort g)) vals :: items' /\ counted f us' vals rest
      /\ allowed m done i f /\ dependencies m done f /\ reading m ((i, f) :: done) rest items'.
Proof.
  intros He Hb Hch Hen Hn Hmt Hadr Hco items. split.
  - intros H. inversion H as [|d0 t0 bf j l af label vals rest its He' Hb' Hch' Hen' Hco' Hal' Hdp' Hrd']; subst.
    assert (E : before = bf /\ (i, f) = (j, l) /\ after = af).
    { apply (first_split (fun e => ~ passes m done (t :: us) (fst e) (snd e))).
      - now rewrite <- He.
      - cbn [fst snd]. intros (_ & [Hx|[Hx|(Hx & _)]]); [easy|easy|congruence].
      - cbn [fst snd]. apply (taking_not_passes m done (t :: us) j l label vals rest). repeat split; auto; apply Hal'.
      - intros [j' k] Hin Hx. cbn [fst snd] in Hx. apply Hx. destruct (Hb j' k Hin). split; auto.
      - intros [j' k] Hin Hx. cbn [fst snd] in Hx. apply Hx. now apply Hb'. }
    destruct E as (<- & E & <-). injection E as <- <-. apply Hco in Hco' as [-> Hc].
    exists vals, rest, its. easy.
  - intros (vals & rest & its & -> & Hc & Hal & Hdp & Hrd).
    apply (reading_cons m done (t :: us) before i f after (Some (Tok PShort g)) vals rest its); auto.
    + intros j k Hin. destruct (Hb j k Hin). split; auto.
    + now apply Hco.
Qed.

(** A token that does not match node [k], neither by itself nor written out. *)
Lemma foreign k t us : is_named k = true ->
  (forall sep c, value_separator k = Some sep -> In c sep -> ~ In c (t_name t)) ->
  (forall nm, group_for k t nm -> exists g gs, graphemes nm = Some (g :: gs) /\ match_node k (Tok PShort g) = false
     /\ nm <> [] /\ (nlen us + nlen nm <= vec_max_size)%N) ->
  match_node k (norm_token k t) = false ->
  ~ chokes k (t :: us) /\ ~ addressed k (t :: us).
Proof.
  intros Hn Hsep Hgrp Hm1.
  assert (Hfr : forall t1 value us1, fronted k (t :: us) t1 value us1 -> t1 = t /\ us1 = us).
  { intros t1 value us1 H. inversion H as [? ? Hs|sep p l c s v us2 Hs Hin Hlen Hno Hv]; subst; [easy|].
    exfalso. apply (Hsep sep c Hs Hin). cbn [t_name]. apply in_or_app. right. now left. }
  assert (Hun : ~ unsplit k (t :: us)).
  { intros (sep & t1 & us1 & _ & E & _ & _ & Hx). injection E as <- <-. congruence. }
  split.
  - intros [H|[H|(_ & _ & H)]]; [| |now apply Hun].
    + destruct H as (sep & t1 & us1 & l & c & s & Hs & E & Et & _ & Hin & _). injection E as <- <-.
      apply (Hsep sep c Hs Hin). rewrite Et. apply in_or_app. right. now left.
    + destruct H as (t1 & value & us1 & Hf & nm & Hg & Hbad). apply Hfr in Hf as [-> ->].
      destruct (Hgrp nm Hg) as (g & gs & E & _ & Hne & Hsz). destruct Hbad as [Hx|[[_ Hx]|Hx]]; [congruence|easy|].
      clear - Hsz Hx. lia.
  - intros [[_ [H|H]]|[H _]]; [|now apply Hun|congruence].
    destruct H as (t1 & value & us1 & t' & us' & Hf & Hg & Hx). apply Hfr in Hf as [-> ->].
    inversion Hg as [? ? Hng|? nm g gs ? Hgf Hgr]; subst; [congruence|].
    destruct (Hgrp nm Hgf) as (g' & gs' & E & Hno & _). rewrite Hgr in E. injection E as <- <-.
    unfold norm_token in Hx. cbn [t_prefix] in Hx. congruence.
Qed.

Lemma match_short k g : match_node k (Tok PShort g) = true <-> short_name k = Some g.
Proof.
  unfold match_node. cbn [t_prefix t_name prefix_eqb andb].
  destruct (long_name k), (short_name k) as [s|], (none_name k); cbn [orb andb];
    rewrite ?orb_false_r; split; intros H; try discriminate;
    try (apply beq_eq in H; now subst); try (injection H as ->; now apply beq_eq).
Qed.

Lemma short_in_names k g : short_name k = Some g -> In (Tok PShort g) (SpecSuggest.names_of k).
Proof.
  intros H. unfold SpecSuggest.names_of. rewrite H. apply in_or_app. right. apply in_or_app. left. now left.
Qed.

Lemma norm_dashed k s : starts_with long_prefix (short_prefix ++ s) = false ->
  norm_token k (Tok PNone (short_prefix ++ s))
  = if is_some (short_name k) then Tok PShort s else Tok PNone (short_prefix ++ s).
Proof.
  intros H. unfold norm_token, node_get_token, get_token_type_for. cbn [t_prefix t_name]. rewrite H, !andb_false_r. cbn [negb].
  rewrite andb_true_r.
  destruct (is_some (short_name k)); reflexivity.
Qed.

Lemma match_dashed k s : starts_with long_prefix (short_prefix ++ s) = false -> none_name k <> Some (short_prefix ++ s) ->
  match_node k (norm_token k (Tok PNone (short_prefix ++ s))) = true <-> short_name k = Some s.
Proof.
  intros Hl Hn. rewrite norm_dashed by easy. destruct (short_name k) as [x|] eqn:E; cbn [is_some].
  - rewrite match_short. now rewrite E.
  - split; [|easy]. intros H. exfalso. unfold match_node in H. rewrite E in H. cbn [t_prefix t_name prefix_eqb andb] in H.
    destruct (none_name k) as [y|]; [|now destruct (long_name k)].
    assert (H' : beq (short_prefix ++ s) y = true) by (destruct (long_name k); exact H).
    apply beq_eq in H'. now subst y.
Qed.

Lemma counted_flag f us vals rest : count_bounds f = Some (0%N, 0%N) -> token_end_marker f = None ->
  counted f us vals rest <-> vals = [] /\ rest = us.
Proof.
  intros Hb Hk. split.
  - intros [mn mx v rr _ Hb' -> Hc _|mn mx mk p v rr Hk' _ _ _ _ _|mx mk p v rr Hk' _ _ _ _ _ _|mn mx mk Hk' _ _ _]; try congruence.
    rewrite Hb in Hb'. injection Hb' as <- <-. destruct v as [|x v]; [easy|]. unfold nlen in Hc. cbn [List.length] in Hc. lia.
  - intros [-> ->]. apply (count_plain f us 0%N 0%N); auto. cbn. lia.
Qed.

Lemma weight_dashed g us : args_weight (dashed g :: us) = S (List.length g) + args_weight us.
Proof. rewrite args_weight_cons. unfold dashed, token_weight. cbn [t_name short_prefix]. cbn. lia. Qed.

Lemma small_head g us : small (dashed g :: us) -> (nlen us + nlen g <= vec_max_size)%N.
Proof.
  unfold small, vec_max_size. rewrite weight_dashed. pose proof (args_weight_length us). unfold nlen. lia.
Qed.

Lemma group_weight gs us : gs <> [] -> small (map dashed gs ++ us) -> small (dashed (List.concat gs) :: us).
Proof.
  unfold small. rewrite weight_dashed. intros Hne H.
  assert (E : S (List.length (List.concat gs)) + args_weight us <= args_weight (map dashed gs ++ us)).
  { rewrite args_weight_app. destruct gs as [|g gs]; [easy|]. clear. cbn [map List.concat]. rewrite weight_dashed, app_length.
    enough (List.length (List.concat gs) <= args_weight (map dashed gs)) by lia.
    induction gs as [|x gs IH]; [cbn; lia|]. cbn [map List.concat]. rewrite weight_dashed, app_length. lia. }
  clear - H E. lia.
Qed.

Section Group.
  Context (r m : node).
  Hypotheses (Ha : accepted r = true) (Hin : In m (below r)) (Hm : is_mode m = true) (Hd : distinct_types m).

  Lemma entry_arg j k : In (j, k) (entries m) -> argument_of m k.
  Proof. apply entry_argument. Qed.

  Lemma letter_arg g f : letter m g f -> argument_of m f.
  Proof. intros [(bf & i & af & E & _) _ _ _]. apply (entry_argument m i). rewrite E. apply in_elt. Qed.

  Lemma letter_unique g f k : letter m g f -> argument_of m k -> short_name k = Some g -> k = f.
  Proof.
    intros L Hk Hs. apply (names_unique r m k f (Tok PShort g)); auto.
    - now apply (letter_arg g).
    - now apply short_in_names.
    - apply short_in_names, L.
  Qed.

  Lemma short_cluster f g : argument_of m f -> short_name f = Some g -> graphemes g = Some [g].
  Proof.
    intros (c & Hc & _ & Hf) Hname.
    assert (Hfb : In f (below r)) by (apply (below_trans r m); [easy|now apply (below_child c)]).
    pose proof Ha as Ha'. apply accepted_sub in Ha' as [_ Hs]. destruct (sub_ok_below r [] f Hs Hfb) as (tp & _ & Hn).
    apply sub_ok_self in Hn. apply node_ok_policies in Hn as (_ & _ & Hp).
    assert (Hpol : In (PShortName g) (n_pols f)).
    { pose proof Hname as E. apply (name_policy _ PShortName f g) in E; [easy|].
      intros [] x Hx; try discriminate Hx; now injection Hx as ->. }
    apply Hp in Hpol as [H _]. cbn [policy_static] in H. apply andb_true_iff in H as [H _]. unfold gcount_is in H.
    destruct (graphemes g) as [gs|] eqn:E; [|discriminate].
    pose proof (graphemes_partition g gs E) as [Hc' _]. destruct gs as [|x [|]]; try discriminate.
    cbn [List.concat] in Hc'. rewrite app_nil_r in Hc'. now subst x.
  Qed.

  Lemma letter_cluster g f : letter m g f -> graphemes g = Some [g].
  Proof. intros L. apply (short_cluster f); [now apply (letter_arg g)|apply L]. Qed.

  Lemma letter_ne g f : letter m g f -> g <> [].
  Proof.
    intros L. apply letter_cluster in L. apply graphemes_partition in L as [_ H]. now inversion H.
  Qed.

  Lemma before_other f before i after j k : entries m = before ++ (i, f) :: after -> In (j, k) before ->
    argument_of m k /\ k <> f.
  Proof.
    intros E H. split; [apply (entry_argument m j); rewrite E; apply in_or_app; now left|].
    intros ->.
    assert (Hij : i = j).
    { apply (entry_index m i j f Hd); rewrite E; [apply in_elt|apply in_or_app; now left]. }
    subst j.
    assert (Hnd : NoDup (map (fun e => n_id (snd e)) (entries m))).
    { apply (entries_nodup (n_children m) 0). now apply distinct_children. }
    rewrite E, map_app in Hnd. cbn [map snd] in Hnd. apply NoDup_remove_2 in Hnd. apply Hnd.
    apply in_or_app. left. apply in_map_iff. now exists (i, f).
  Qed.

  Lemma is_named_short f g : short_name f = Some g -> is_named f = true.
  Proof. intros H. apply (match_node_named f (Tok PShort g)). now apply match_short. Qed.

  (** A single short flag, as it is typed or as it is left from a group. *)
  Lemma single_head g f t us : letter m g f -> t = dashed g \/ t = Tok PShort g -> plain_text m (short_prefix ++ g) ->
    (nlen us + nlen g <= vec_max_size)%N ->
    forall bf i af, entries m = bf ++ (i, f) :: af -> (forall j k, In (j, k) bf -> is_named k = true) ->
    forall done items, reading m done (t :: us) items <->
      exists vals rest items', items = Item f (Some (Tok PShort g)) vals :: items' /\ counted f us vals rest
        /\ allowed m done i f /\ dependencies m done f /\ reading m ((i, f) :: done) rest items'.
  Proof.
    intros L Ht Htx Hsz bf i af E Hnm done items. pose proof L as [_ Hname Hen Hsp].
    assert (Hgrp : forall k nm, group_for k t nm -> nm = g).
    { intros k nm (_ & [[Hp ->]|(Hp & En & _)] & _); destruct Ht as [->| ->]; try discriminate; [easy|].
      cbn [t_name dashed] in En. now injection En. }
    assert (Hnorm : forall k, argument_of m k -> (match_node k (norm_token k t) = true <-> short_name k = Some g)).
    { intros k Hk. destruct Ht as [->| ->].
      - apply match_dashed; [apply Htx|now apply Htx].
      - unfold norm_token. cbn [t_prefix]. apply match_short. }
    assert (Hseps : forall k sep c, argument_of m k -> value_separator k = Some sep -> In c sep -> ~ In c (t_name t)).
    { intros k sep c Hk Hsk Hc Hx. apply (pt_separator m _ Htx k sep c Hk Hsk Hc). apply in_or_app.
      destruct Ht as [->| ->]; cbn [dashed t_name] in Hx; [now apply in_app_iff in Hx|now right]. }
    assert (Hfgrp : forall nm, ~ group_for f t nm).
    { intros nm Hg. pose proof (Hgrp f nm Hg). subst nm. destruct Hg as (_ & _ & Hl). now apply (Hl g). }
    assert (Hnf : norm_token f t = Tok PShort g).
    { destruct Ht as [->| ->]; [|easy]. unfold dashed. rewrite norm_dashed by apply Htx. now rewrite Hname. }
    assert (Hnamed : is_named f = true) by now apply (is_named_short f g).
    assert (Hgd : grouped f t us t us) by now constructor.
    assert (Hmt : match_node f (norm_token f t) = true) by (rewrite Hnf; now apply match_short).
    apply (head_exact m done t us us f g bf i af); auto.
    - intros j k Hjk. destruct (before_other f bf i af j k E Hjk) as [Hk Hkf].
      assert (Hks : short_name k <> Some g) by (intros Hx; apply Hkf; now apply (letter_unique g)).
      apply foreign.
      + now apply (Hnm j).
      + intros sep c Hsk Hc. now apply (Hseps k sep c).
      + intros nm Hg. pose proof (Hgrp k nm Hg). subst nm. exists g, []. rewrite (letter_cluster g f L).
        split; [easy|]. split; [|split; [now apply (letter_ne g f)|easy]].
        destruct (match_node k (Tok PShort g)) eqn:Em; [|easy]. now apply match_short in Em.
      + destruct (match_node k (norm_token k t)) eqn:Em; [|easy]. now apply Hnorm in Em.
    - intros [H|[H|(H & _)]]; [| |easy].
      + destruct H as (sep & t1 & us1 & l & c & s & Hs & _). congruence.
      + destruct H as (t1 & value & us1 & Hf & nm & Hg & _). inversion Hf; subst; [|congruence]. now apply Hfgrp in Hg.
    - now rewrite Hnf in Hmt.
    - left. split; [easy|]. left. exists t, [], us, t, us. split; [now constructor|easy].
    - intros label vals rest. split.
      + intros H. inversion H as [t1 value us1 t' us' v rr Hn' Hf Hg Hmm Hc|v rr Hn' Hne Hc]; subst; [|congruence].
        inversion Hf; subst; [|congruence]. inversion Hg as [? ? Hng|? nm g0 gs ? Hgf]; subst; [|now apply Hfgrp in Hgf].
        rewrite Hnf. split; [easy|exact Hc].
      + intros [-> Hc]. rewrite <- Hnf. apply (consumes_named f (t :: us) t [] us t us); auto. now constructor.
  Qed.

  (** The group as it is typed. *)
  Lemma group_head g gs f us : gs <> [] -> letter m g f -> In PShortFormExpander (n_pols f) ->
    graphemes (List.concat (g :: gs)) = Some (g :: gs) -> plain_text m (short_prefix ++ List.concat (g :: gs)) ->
    (nlen us + nlen (List.concat (g :: gs)) <= vec_max_size)%N ->
    (forall k, argument_of m k -> short_name k <> Some (List.concat (g :: gs))) ->
    forall bf i af, entries m = bf ++ (i, f) :: af -> (forall j k, In (j, k) bf -> is_named k = true) ->
    forall done items, reading m done (dashed (List.concat (g :: gs)) :: us) items <->
      exists vals rest items', items = Item f (Some (Tok PShort g)) vals :: items'
        /\ counted f (map (Tok PShort) gs ++ us) vals rest
        /\ allowed m done i f /\ dependencies m done f /\ reading m ((i, f) :: done) rest items'.
  Proof.
    intros Hgs L Hx Hcl Htx Hsz Hnone bf i af E Hnm done items. pose proof L as [_ Hname Hen Hsp].
    set (nm := List.concat (g :: gs)) in *. set (t := dashed nm).
    destruct (graphemes_partition nm _ Hcl) as [_ Hne].
    assert (Hnmne : nm <> []).
    { unfold nm. cbn [List.concat]. inversion Hne; subst. destruct g; [easy|discriminate]. }
    assert (Hgrp : forall k nm', group_for k t nm' -> nm' = nm).
    { intros k nm' (_ & [[Hp _]|(Hp & En & _)] & _); [discriminate|]. cbn [t dashed t_name] in En.
      now apply app_inv_head in En. }
    assert (Hseps : forall k sep c, argument_of m k -> value_separator k = Some sep -> In c sep -> ~ In c (t_name t))
      by (intros k sep c; apply (pt_separator m _ Htx)).
    assert (Hlen : List.length nm <> List.length g).
    { unfold nm. cbn [List.concat]. rewrite app_length. inversion Hne as [|? ? _ Hne']; subst.
      destruct gs as [|x gs]; [easy|]. inversion Hne'; subst. cbn [List.concat]. rewrite app_length. destruct x; [easy|]. cbn. lia. }
    assert (Hfgrp : group_for f t nm).
    { split; [easy|]. split; [right; split; [easy|]; split; [easy|apply Htx]|]. intros s Hs. rewrite Hname in Hs. injection Hs as <-. easy. }
    assert (Hnamed : is_named f = true) by now apply (is_named_short f g).
    assert (Hmt : match_node f (Tok PShort g) = true) by now apply match_short.
    assert (Hgd : grouped f t us (Tok PShort g) (map (Tok PShort) gs ++ us)) by now apply (group_some f t nm).
    apply (head_exact m done t us (map (Tok PShort) gs ++ us) f g bf i af); auto.
    - intros j k Hjk. destruct (before_other f bf i af j k E Hjk) as [Hk Hkf]. apply foreign.
      + now apply (Hnm j).
      + intros sep c Hsk Hc. now apply (Hseps k sep c).
      + intros nm' Hg. pose proof (Hgrp k nm' Hg). subst nm'. exists g, gs. split; [easy|]. split; [|split; easy].
        destruct (match_node k (Tok PShort g)) eqn:Em; [|easy]. apply match_short in Em. exfalso. apply Hkf.
        now apply (letter_unique g).
      + destruct (match_node k (norm_token k t)) eqn:Em; [|easy]. exfalso.
        apply match_dashed in Em; [now apply (Hnone k Hk)|apply Htx|now apply Htx].
    - intros [H|[H|(H & _)]]; [| |easy].
      + destruct H as (sep & t1 & us1 & l & c & s & Hs & _). congruence.
      + destruct H as (t1 & value & us1 & Hf & nm' & Hg & Hbad). inversion Hf; subst; [|congruence].
        pose proof (Hgrp f nm' Hg). subst nm'. destruct Hbad as [Hb|[[_ Hb]|Hb]]; [congruence|easy|]. clear - Hb Hsz. lia.
    - left. split; [easy|]. left. exists t, [], us, (Tok PShort g), (map (Tok PShort) gs ++ us). split; [now constructor|easy].
    - intros label vals rest. split.
      + intros H. inversion H as [t1 value us1 t' us' v rr Hn' Hf Hg Hmm Hc|v rr Hn' Hne' Hc]; subst; [|congruence].
        inversion Hf; subst; [|congruence]. inversion Hg as [? ? Hng|? nm' g0 gs0 ? Hgf Hgr]; subst; [now apply Hng in Hfgrp|].
        pose proof (Hgrp f nm' Hgf). subst nm'. rewrite Hcl in Hgr. injection Hgr as <- <-. split; [easy|exact Hc].
      + intros [-> Hc]. change (Tok PShort g) with (norm_token f (Tok PShort g)).
        apply (consumes_named f (t :: us) t [] us (Tok PShort g) (map (Tok PShort) gs ++ us)); auto. now constructor.
  Qed.

  (** Groups are the flags one by one: what the first flag leaves is the rest of the group. *)
  Lemma rest_of_group gs us : (forall g, In g gs -> exists f, letter m g f) ->
    (forall before g after f, gs = before ++ g :: after -> after <> [] -> letter m g f ->
       count_bounds f = Some (0%N, 0%N) /\ token_end_marker f = None) ->
    (forall g, In g gs -> plain_text m (short_prefix ++ g)) -> small (map dashed gs ++ us) ->
    forall done items, reading m done (map (Tok PShort) gs ++ us) items <-> reading m done (map dashed gs ++ us) items.
  Proof.
    induction gs as [|g gs IH]; intros Hl Hfl Htx Hsm done items; [easy|]. cbn [map app] in *.
    destruct (Hl g (or_introl eq_refl)) as (f & L).
    pose proof (small_head _ _ Hsm) as Hsz.
    assert (Hsm' : small (map dashed gs ++ us)).
    { clear - Hsm. unfold small in *. rewrite weight_dashed in Hsm. lia. }
    assert (Hsz' : (nlen (map (Tok PShort) gs ++ us) + nlen g <= vec_max_size)%N).
    { clear - Hsz. unfold nlen in *. rewrite app_length, map_length in *. exact Hsz. }
    assert (IHg := IH (fun g' H => Hl g' (or_intror H))
      (fun bf g' af f' E => Hfl (g :: bf) g' af f' (f_equal (cons g) E)) (fun g' H => Htx g' (or_intror H)) Hsm').
    destruct (lt_entry m g f L) as (bf & i & af & E & Hnm).
    rewrite (single_head g f (Tok PShort g) (map (Tok PShort) gs ++ us) L (or_intror eq_refl) (Htx g (or_introl eq_refl)) Hsz' bf i af E Hnm).
    rewrite (single_head g f (dashed g) (map dashed gs ++ us) L (or_introl eq_refl) (Htx g (or_introl eq_refl)) Hsz bf i af E Hnm).
    destruct gs as [|g2 gs]; [easy|].
    destruct (Hfl [] g (g2 :: gs) f eq_refl) with (2 := L) as [Hb Hk]; [discriminate|].
    split; intros (vals & rest & its & -> & Hc & Hal & Hdp & Hrd); apply counted_flag in Hc as [-> ->]; auto.
    - exists [], (map dashed (g2 :: gs) ++ us), its. split; [easy|]. split; [now apply counted_flag|]. split; [easy|].
      split; [easy|]. now apply IHg.
    - exists [], (map (Tok PShort) (g2 :: gs) ++ us), its. split; [easy|]. split; [now apply counted_flag|]. split; [easy|].
      split; [easy|]. now apply IHg.
  Qed.

  Lemma group_reading gs us : flag_group m gs -> small (map dashed gs ++ us) ->
    forall done items, reading m done (dashed (List.concat gs) :: us) items <-> reading m done (map dashed gs ++ us) items.
  Proof.
    intros [Hne Hcl Hl Hfl Hfi Htx] Hsm done items. destruct gs as [|g gs]; [easy|].
    destruct (Hl g (or_introl eq_refl)) as (f & L). destruct (lt_entry m g f L) as (bf & i & af & E & Hnm).
    destruct gs as [|g2 gs].
    { cbn [List.concat map app]. now rewrite app_nil_r. }
    set (gs' := g2 :: gs) in *.
    rewrite <- (rest_of_group (g :: gs') us); auto; [|intros x Hx; apply Htx; now right].
    cbn [map app].
    assert (Hsz : (nlen us + nlen (List.concat (g :: gs')) <= vec_max_size)%N) by (apply small_head, group_weight; easy).
    assert (Hsz1 : (nlen (map (Tok PShort) gs' ++ us) + nlen g <= vec_max_size)%N).
    { change (small (dashed g :: (map dashed gs' ++ us))) in Hsm. apply small_head in Hsm. clear - Hsm. unfold nlen in *. rewrite app_length, map_length in *. exact Hsm. }
    rewrite (group_head g gs' f us) with (bf := bf) (i := i) (af := af); auto; try discriminate.
    - rewrite (single_head g f (Tok PShort g) (map (Tok PShort) gs' ++ us)) with (bf := bf) (i := i) (af := af); auto; [easy|].
      apply Htx. right. now left.
    - apply Htx. now left.
    - intros k Hk Hs. assert (Lk : graphemes (List.concat (g :: gs')) = Some [List.concat (g :: gs')]); [|rewrite Lk in Hcl; discriminate Hcl].
      apply (short_cluster k); auto.
  Qed.

  Lemma leading_reading gs hs us : leading_group m gs hs -> small (map dashed (gs ++ hs) ++ us) ->
    forall done items, reading m done (dashed (List.concat (gs ++ hs)) :: us) items
      <-> reading m done (map dashed gs ++ map (Tok PShort) hs ++ us) items.
  Proof.
    intros [Hne Hcl Hl Hfl Hfi Htx] Hsm done items. destruct gs as [|g gs]; [easy|].
    destruct (Hl g (or_introl eq_refl)) as (f & L). destruct (lt_entry m g f L) as (bf & i & af & E & Hnm).
    destruct (gs ++ hs) as [|g2 rest] eqn:Er.
    { apply app_eq_nil in Er as [-> ->]. cbn [app List.concat map]. now rewrite app_nil_r. }
    assert (Hgr : (g :: gs) ++ hs = g :: g2 :: rest) by (cbn [app]; now rewrite Er). rewrite Hgr in *.
    assert (Hsm2 : small (map dashed (g :: gs) ++ map (Tok PShort) hs ++ us)).
    { clear - Hsm Hgr. unfold small in *. rewrite <- Hgr in Hsm. rewrite map_app, <- app_assoc in Hsm. rewrite !args_weight_app in *.
      assert (W : args_weight (map (Tok PShort) hs) <= args_weight (map dashed hs)); [|lia].
      clear. induction hs as [|h hs IH]; [cbn; lia|]. cbn [map]. rewrite weight_dashed, args_weight_cons. unfold token_weight. cbn [t_name]. lia. }
    rewrite <- (rest_of_group (g :: gs) (map (Tok PShort) hs ++ us)); auto; [|intros x Hx; apply Htx; now right].
    cbn [map app]. replace (map (Tok PShort) gs ++ map (Tok PShort) hs ++ us) with (map (Tok PShort) (g2 :: rest) ++ us)
      by (rewrite <- Er, map_app, <- app_assoc; reflexivity).
    assert (Hsz : (nlen us + nlen (List.concat (g :: g2 :: rest)) <= vec_max_size)%N) by (apply small_head, group_weight; easy).
    assert (Hsz1 : (nlen (map (Tok PShort) (g2 :: rest) ++ us) + nlen g <= vec_max_size)%N).
    { change (small (dashed g :: (map dashed (g2 :: rest) ++ us))) in Hsm. apply small_head in Hsm. clear - Hsm. unfold nlen in *. rewrite app_length, map_length in *. exact Hsm. }
    rewrite (group_head g (g2 :: rest) f us) with (bf := bf) (i := i) (af := af); auto; try discriminate.
    - rewrite (single_head g f (Tok PShort g) (map (Tok PShort) (g2 :: rest) ++ us)) with (bf := bf) (i := i) (af := af); auto; [easy|].
      apply Htx. right. now left.
    - apply Htx. now left.
    - intros k Hk Hs. assert (Lk : graphemes (List.concat (g :: g2 :: rest)) = Some [List.concat (g :: g2 :: rest)]); [|rewrite Lk in Hcl; discriminate Hcl].
      apply (short_cluster k); auto.
  Qed.
End Group.

(** The command line with the group and the one with single flags call the same router with the same arguments. *)
Lemma group_calls r mem args args' m gs us vs : fresh r mem args -> fresh r mem args' ->
  reaches r args m (dashed (List.concat gs) :: us) -> reaches r args' m (map dashed gs ++ us) ->
  flag_group m gs -> small (map dashed gs ++ us) ->
  calls_router r mem args m vs <-> calls_router r mem args' m vs.
Proof.
  intros Hf Hf' Hr Hr' Hg Hsm.
  assert (Hmode : forall a ts, reaches r a m ts -> In m (below r) /\ is_mode m = true).
  { intros a ts (bf & c & af & ps & Hcs & _ & Hm & Hsel). apply selects_below in Hsel as [H1 H2]; [|easy].
    split; [|easy]. apply (below_child c); [rewrite Hcs; apply in_elt|easy]. }
  destruct (Hmode _ _ Hr) as [Hin Hm]. pose proof (fr_tree _ _ _ Hf) as Hw.
  assert (Hrd : forall items, reading m [] (dashed (List.concat gs) :: us) items <-> reading m [] (map dashed gs ++ us) items).
  { intros items. apply (group_reading r m); auto; [apply Hw|apply (wf_distinct r Hw); auto]. }
  assert (Hty : forall a ts, fresh r mem a -> reaches r a m ts ->
     (calls_router r mem a m vs <-> exists items, reading m [] ts items /\ has_router m = true
        /\ deliveries m (flat_map (assigned m) items) vs)).
  { intros a ts Hfr (bf & c & af & ps & Hcs & Hb & Hmc & Hsel). split.
    - intros Hc. destruct (called_typed r mem a m vs Hfr Hc Hm) as (ts' & items & Ht & Hro & Hde).
      exists items. destruct Ht as (bf' & c' & af' & ps' & Hcs' & Hb' & Hmc' & Hsel' & Hrd').
      destruct (first_child r a bf bf' c c' af af') as (-> & <- & ->); auto.
      + now apply (selects_not_passed c r a m ps ts).
      + now apply (selects_not_passed c' r a m ps' ts').
      + destruct (selects_det _ _ _ _ _ _ Hsel _ _ _ Hsel') as (_ & _ & <-). easy.
    - intros (items & Hrd' & Hro & Hde). apply (typed_called r mem a m ts items vs Hfr); [|easy].
      exists bf, c, af, ps. easy. }
  rewrite (Hty _ _ Hf Hr), (Hty _ _ Hf' Hr'). split; intros (items & H1 & H2); exists items; (split; [now apply Hrd|easy]).
Qed.

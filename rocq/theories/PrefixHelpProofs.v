(** Proofs for C86: help pages and messages with any prefixes. *)
From Coq Require Import Lia.
From Verif Require Import Bytes Token Adapter Result CodePoint Utf8 Tree PreParse Parse Root Validator Digits Help Levenshtein Message Caller Prefixes PrefixCaller.
From Verif Require Import SpecEdit SpecSuggest SpecMode SpecTake SpecHelp SpecLabel SpecMessage SpecTold SpecPrefix SpecPrefixHelp.
From Verif Require Import OrderProofs NodeProofs ModeProofs HelpProofs PageProofs LabelTextProofs PrefixProofs PrefixRunProofs PrefixMoreProofs SuggestProofs ToldProofs.
Local Open Scope list_scope.

Lemma node_ok_with_core lp sp n tp : node_ok_with lp sp (n, tp) = true -> core_node (n, tp).
Proof.
  unfold node_ok_with, core_node, core_ok. cbn [fst snd]. rewrite !andb_true_iff, forallb_forall. intros ((H1 & H2) & H).
  split; [exact H1|]. split; [exact H2|]. intros p Hp. specialize (H p Hp). apply andb_true_iff in H as [H Hr]. split; [|exact Hr].
  destruct p; try exact (core_static _ _ _ H); unfold policy_static_with in H.
  - unfold short_name_ok in H. apply andb_true_iff in H as [H _]. exact H.
  - apply andb_true_iff in H as [H _]. exact H.
Qed.

Lemma accepted_with_core lp sp r : accepted_with lp sp r = true -> is_root r = true /\ sub_core r [].
Proof.
  unfold accepted_with. rewrite !andb_true_iff, forallb_forall. intros ((_ & H1) & H2). split; [exact H1|].
  intros [n tp] Hin. exact (node_ok_with_core lp sp n tp (H2 _ Hin)).
Qed.

(** ** Names on a label *)

Lemma one_name lp sp r n : accepted_with lp sp r = true -> In n (below r) -> none_name n <> None -> long_name n = None /\ short_name n = None.
Proof.
  intros Ha Hn. apply accepted_with_core in Ha as [_ Hs]. destruct (sub_core_below r [] n Hs Hn) as (tp & _ & Hsn).
  exact (ok_one_name n tp Hsn).
Qed.

Lemma typed_heads lp sp r n w : accepted_with lp sp r = true -> In n (below r) -> In w (typed_behind lp sp n) -> ~ misread lp sp n w ->
  heads lp sp n (Tok PNone w) [].
Proof.
  intros Ha Hn Hw Hm. unfold typed_behind in Hw. apply in_app_or in Hw as [Hw|Hw]; [|apply in_app_or in Hw as [Hw|Hw]].
  - destruct (long_name n) as [l|] eqn:El; [|destruct Hw]. destruct Hw as [<-|[]]. now apply by_long.
  - destruct (short_name n) as [c|] eqn:Ec; [|destruct Hw]. destruct Hw as [<-|[]].
    apply (by_short lp sp n _ c Ec). right. split; [reflexivity|]. intros Hb. apply Hm. split; [now exists c|exact Hb].
  - destruct (none_name n) as [m|] eqn:En; [|destruct Hw]. destruct Hw as [<-|[]].
    destruct (one_name lp sp r n Ha Hn) as [El Es]; [congruence|]. apply by_none; [exact En|congruence|congruence].
Qed.

Lemma heads_typed lp sp n w : heads lp sp n (Tok PNone w) [] -> In w (typed_behind lp sp n).
Proof.
  intros H. unfold typed_behind. inversion H as [l E E'|t c E Ht|s E _ _ E'|t c gs _ _ Hne _ _ E' E'']; subst.
  - rewrite E. now left.
  - apply in_or_app. right. rewrite E. destruct Ht as [Ht|[Ht _]]; [discriminate|]. injection Ht as ->. now left.
  - apply in_or_app. right. apply in_or_app. right. rewrite E. now left.
  - now contradiction Hne.
Qed.

(** ** Runs *)

Section Run.
Variables lp sp : bytes.

Lemma help_bounds r h : accepted_with lp sp r = true -> In h (below r) -> n_kind h = KHelp -> count_bounds h = Some (0%N, size_max).
Proof.
  intros Ha Hn Hk. apply accepted_with_core in Ha as [_ Hs]. destruct (sub_core_below r [] h Hs Hn) as (tp & _ & Hsn).
  destruct (sub_core_self _ _ Hsn) as (Hst & _ & _). unfold node_static in Hst. rewrite Hk in Hst.
  repeat match goal with Hx : _ && _ = true |- _ => apply andb_true_iff in Hx as [? ?] end.
  destruct (count_bounds h) as [[mn mx]|]; [|discriminate].
  match goal with Hx : N.eqb mn 0 && _ = true |- _ => apply andb_true_iff in Hx as [E1 E2] end.
  apply N.eqb_eq in E1, E2. now subst.
Qed.

Lemma try_help fuel r h after mem w words : accepted_with lp sp r = true -> In h (below r) -> n_kind h = KHelp -> simple_argument h ->
  heads lp sp h (Tok PNone w) [] -> (nlen w + nlen words <= vec_max_size)%N ->
  forall before, (forall d, In d before -> In d (below r)) ->
  (forall d letters, In d before -> plain_child d /\ ~ heads lp sp d (Tok PNone w) letters) ->
  (forall nm, w = sp ++ nm -> nm <> [] /\ graphemes nm <> None) ->
  root_try_with lp sp fuel r (before ++ h :: after) (PS (map (Tok PNone) (w :: words)) mem)
  = (PS [] mem, fst (help_parse_with lp sp h [r] (map (Tok PNone) words) []),
     (_ <- snd (help_parse_with lp sp h [r] (map (Tok PNone) words) []) ;; Ok true)%res).
Proof.
  intros Ha Hh Hk Hs Hw Hroom before Hb Hno Hd.
  assert (Hlen : nlen (map (Tok PNone) words) = nlen words) by (unfold nlen; now rewrite map_length).
  induction before as [|d before IH]; cbn [app root_try_with map].
  - assert (Ep : pre_parse_with lp sp fuel h [r] = node_pre_parse_with lp sp h [r]).
    { destruct h as [k i ty ps cs]. cbn [n_kind] in Hk. subst k. reflexivity. }
    rewrite Ep. pose proof (selected lp sp h [r] None always_true mem w (map (Tok PNone) words) [] 0%N size_max) as E.
    rewrite app_nil_r in E. rewrite E; clear E.
    + cbn [p_args exec_with]. rewrite Hk. now destruct (help_parse_with lp sp h [r] (map (Tok PNone) words) []).
    + exact (proj1 (accepted_with_leaf lp sp r h Ha Hh)).
    + exact Hs.
    + exact (help_bounds r h Ha Hh Hk).
    + exact Hw.
    + split; [apply N.le_0_l|]. rewrite Hlen. revert Hroom. unfold vec_max_size, size_max. lia.
    + intros []; reflexivity.
    + rewrite Hlen. exact Hroom.
    + reflexivity.
  - destruct (Hno d [] (or_introl eq_refl)) as [Hp _]. destruct (plain_kind lp sp d fuel [r] Hp) as [_ ->].
    destruct (count_bounds d) as [[mn mx]|] eqn:Ec; [|destruct Hp as (_ & Hp & _); congruence].
    rewrite (unselected lp sp d [r] None always_true mem w (map (Tok PNone) words) mn mx).
    + apply IH; [intros e He; apply Hb; now right|intros e l He; apply Hno; now right].
    + exact (proj1 (accepted_with_leaf lp sp r d Ha (Hb d (or_introl eq_refl)))).
    + apply Hp.
    + exact Ec.
    + intros letters. apply (Hno d letters (or_introl eq_refl)).
    + exact Hd.
    + rewrite Hlen. exact Hroom.
Qed.

Lemma run_help r h mem w words t : accepted_with lp sp r = true -> asks_help lp sp r h w ->
  (nlen w + nlen words <= vec_max_size)%N -> help_path lp sp r words t ->
  o_events (root_parse_with lp sp r mem (map (Tok PNone) (w :: words))) = [EvHelp h t (has_flatten_help h || negb (is_root t))].
Proof.
  intros Ha (before & after & E & Hk & Hs & Hw & Hno & Hd) Hroom Hp.
  assert (Hc : forall d, In d (n_children r) -> In d (below r)).
  { intros d Hin. apply (below_child d); [exact Hin|apply below_self]. }
  unfold root_parse_with. rewrite E.
  rewrite (try_help (root_fuel (map (Tok PNone) (w :: words))) r h after mem w words Ha); auto.
  - cbn [o_events]. destruct (proj2 (help_shows lp sp h [r] r words t (has_flatten_help h || negb (is_root t)) eq_refl ltac:(discriminate))) as (x & ->); [|reflexivity].
    split; [exact Hp|reflexivity].
  - apply Hc. rewrite E. apply in_elt.
  - intros d Hin. apply Hc. rewrite E. apply in_or_app. now left.
Qed.

(** ** Messages *)

Lemma try_nothing fuel m parents mem tg matched w us : (nlen w + nlen us <= vec_max_size)%N ->
  (forall nm, w = sp ++ nm -> nm <> [] /\ graphemes nm <> None) -> forall cs i,
  (forall d, In d cs -> leaf_ok d /\ plain_child d) -> (forall d letters, In d cs -> ~ heads lp sp d (Tok PNone w) letters) ->
  mode_try (kids lp sp fuel m parents cs) i matched (Tok PNone w) tg (PS (Tok PNone w :: us) mem) = (PS (Tok PNone w :: us) mem, Ok None).
Proof.
  intros Hroom Hd. induction cs as [|d cs IH]; intros i Hall Hno; [reflexivity|].
  destruct (Hall d (or_introl eq_refl)) as [L Hp]. destruct (plain_kind lp sp d fuel (m :: parents) Hp) as [Hk Hpp].
  cbn [kids map mode_try]. rewrite Hk, Hpp. unfold mbind.
  destruct (count_bounds d) as [[a z]|] eqn:Ebd; [|exfalso; exact (proj1 (proj2 Hp) Ebd)].
  rewrite (unselected lp sp d (m :: parents) (Some tg) _ mem w us a z L (proj1 Hp) Ebd (fun letters => Hno d letters (or_introl eq_refl)) Hd Hroom).
  apply IH; [intros e He; apply Hall; now right|intros e l He; apply Hno; now right].
Qed.

Lemma run_unknown r m mem w words : accepted_with lp sp r = true -> n_children r = [m] -> is_mode m = true -> is_anonymous m = true ->
  n_children m <> [] -> (forall c, In c (n_children m) -> plain_child c) ->
  (forall c letters, In c (n_children m) -> ~ heads lp sp c (Tok PNone w) letters) ->
  (forall nm, w = sp ++ nm -> nm <> [] /\ graphemes nm <> None) -> (nlen w + nlen words <= vec_max_size)%N ->
  o_res (root_parse_with lp sp r mem (map (Tok PNone) (w :: words))) = @unknown_argument_exception_with lp sp unit m (Tok PNone w).
Proof.
  intros Ha Hr Hm Han Hne Hk Hno Hd Hroom. cbn [map]. set (us := map (Tok PNone) words).
  assert (Hall : forall d, In d (n_children m) -> leaf_ok d /\ plain_child d).
  { intros d Hin. split; [|exact (Hk d Hin)]. refine (proj1 (accepted_with_leaf lp sp r d Ha _)).
    apply (below_child m); [rewrite Hr; now left|]. apply (below_child d); [exact Hin|apply below_self]. }
  assert (Hus : (nlen w + nlen us <= vec_max_size)%N) by (unfold us, nlen in *; rewrite map_length; exact Hroom).
  assert (Hpp : forall fuel, pre_parse_with lp sp fuel m [r] = mode_pre_parse_with lp sp fuel m [r] (kids lp sp fuel m [r] (n_children m))).
  { intros fuel. destruct m as [k i ty pl cs]. unfold is_mode in Hm. cbn [n_kind] in Hm. destruct k; try discriminate. reflexivity. }
  unfold root_parse_with. rewrite Hr. cbn [root_try_with]. rewrite Hpp. unfold mode_pre_parse_with. rewrite Han. unfold mbind.
  cbn [run_validator always_true p_mem p_args negb].
  assert (Hf : exists f, root_fuel (Tok PNone w :: us) = S f) by (exists (pred (root_fuel (Tok PNone w :: us))); unfold root_fuel, args_weight; cbn [map list_sum fold_right]; unfold token_weight at 1 3; lia).
  destruct Hf as (f & Ef). rewrite Ef. cbn [mode_loop_with p_args]. unfold mbind. rewrite (try_nothing (S f) m [r] mem _ _ w us Hus Hd (n_children m) 0 Hall Hno).
  destruct (n_children m) as [|c cs]; [now contradiction Hne|]. cbn [kids map forallb andb].
  unfold unknown_argument_exception_with. destruct (closest_matching_child_node_with lp sp m (Tok PNone w)) as [[|x l]|e| | |]; reflexivity.
Qed.
End Run.

(** The closest name, behind the prefixes. *)
Lemma told_suggestion_with lp sp n w x : unprefixed lp sp w x -> decodable x ->
  (forall c, In c (names_below [] n) -> decodable (t_name (snd c))) -> enabledb n = true -> names_below [] n <> [] ->
  exists c, first_closest x (names_below [] n) c
    /\ caller_sees_of (token_str_with lp sp) [] default_translations (@unknown_argument_exception_with lp sp unit n (Tok PNone w))
       = ParseError (b "Unknown argument: " ++ w ++ b ". Did you mean " ++ joined_of (behind lp sp) (b " ") (fst c ++ [snd c]) ++ b "?").
Proof.
  intros Hx Hd Hn Hon Hne. destruct (proj2 (@suggestion_ok unit n (Tok PLong x) Hd Hn) Hon Hne) as (c & Hc & E). exists c. split; [exact Hc|].
  unfold unknown_argument_exception in E. unfold unknown_argument_exception_with. rewrite (suggestion lp sp n w x Hx).
  assert (Hok : (exists l, closest_matching_child_node n (Tok PLong x) = Ok l) \/ closest_matching_child_node n (Tok PLong x) = UB).
  { unfold closest_matching_child_node. cbn [t_prefix t_name].
    destruct (closest_fold_form x (preorder n []) None) as [(bst & ->)| ->]; [left; eexists; reflexivity|right; reflexivity]. }
  destruct Hok as [([|y l] & Hok)|Hok]; rewrite Hok in E |- *; cbn [rbind] in *; try discriminate.
  injection E as E. change (rev (y :: l)) with (rev l ++ [y]). rewrite E. apply seen_as. apply sees_message. exact (told_suggestion (behind lp sp) (Tok PNone w) (fst c ++ [snd c])).
Qed.

Lemma path_below lp sp n words t : help_path lp sp n words t -> In t (below n) /\ switched_on t = true.
Proof.
  induction 1 as [n H|n before c after w words t H E _ _ _ [IH1 IH2]].
  - split; [apply below_self|]. unfold switched_on. destruct (runtime_enabled n) as [[]|]; congruence.
  - split; [|exact IH2]. apply (below_child c); [rewrite E; apply in_elt|exact IH1].
Qed.

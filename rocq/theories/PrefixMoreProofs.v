(** Proofs for C85: separators, aliases, help and suggestions under any prefixes. *)
From Verif Require Import Bytes Token Adapter Result CodePoint Utf8 Tree Levenshtein PreParse Parse Root Build Validator StringPolicy Prefixes.
From Verif Require Import SpecPolicy SpecTokens SpecTake SpecAdapter SpecUtf8 SpecRules SpecMode SpecPrefix.
From Verif Require Import AdapterProofs TokenProofs OrderProofs PermProofs CodePointProofs Utf8Proofs NodeProofs TakeProofs ModeProofs PrefixProofs PrefixRunProofs.
Local Open Scope list_scope.

Section More.
Variables lp sp : bytes.

(** ** Help *)

Lemma first_child (f : node -> bool) cs : match find f cs with
  | Some c => exists before after, cs = before ++ c :: after /\ f c = true /\ forall d, In d before -> f d = false
  | None => forall d, In d cs -> f d = false
  end.
Proof.
  induction cs as [|c cs IH]; cbn [find]; [intros d []|]. destruct (f c) eqn:E.
  - exists [], cs. split; [reflexivity|]. split; [exact E|intros d []].
  - destruct (find f cs) as [x|].
    + destruct IH as (before & after & -> & H1 & H2). exists (c :: before), after. split; [reflexivity|]. split; [exact H1|].
      intros d [<-|Hd]; [exact E|exact (H2 d Hd)].
    + intros d [<-|Hd]; [exact E|exact (IH d Hd)].
Qed.

Lemma label_of c w : match_node c (node_get_token_with lp sp c w) = true <-> heads lp sp c (Tok PNone w) [].
Proof. apply (heads_plain lp sp c (Tok PNone w)). discriminate. Qed.

Lemma split_first {A} (P : A -> Prop) (b1 : list A) : forall x1 a1 b2 x2 a2, b1 ++ x1 :: a1 = b2 ++ x2 :: a2 ->
  P x1 -> P x2 -> (forall d, In d b1 -> ~ P d) -> (forall d, In d b2 -> ~ P d) -> x1 = x2.
Proof.
  induction b1 as [|y b1 IH]; intros x1 a1 [|z b2] x2 a2 E P1 P2 H1 H2; cbn [app] in E; injection E as E1 E2.
  - exact E1.
  - subst z. exfalso. exact (H2 x1 (or_introl eq_refl) P1).
  - subst y. exfalso. exact (H1 x2 (or_introl eq_refl) P2).
  - apply (IH x1 a1 b2 x2 a2 E2 P1 P2); intros d Hd; [apply H1|apply H2]; now right.
Qed.

Lemma help_iff words : forall n t, find_help_target_with lp sp (map (Tok PNone) words) n = Ok t <-> help_path lp sp n words t.
Proof.
  induction words as [|w words IH]; intros n t; cbn [map find_help_target_with].
  - split.
    + intros H. destruct (runtime_enabled n) as [[|]|] eqn:E; try discriminate; injection H as <-; constructor; congruence.
    + intros H. inversion H as [n' He|]; subst. destruct (runtime_enabled t) as [[|]|]; try reflexivity. now contradiction He.
  - pose proof (first_child (fun c => match_node c (node_get_token_with lp sp c w)) (n_children n)) as Hf. cbn [t_name]. split.
    + intros H. destruct (find _ (n_children n)) as [c|].
      * destruct Hf as (before & after & E & H1 & H2).
        apply (help_child lp sp n before c after w words t).
        -- intros Hd. rewrite Hd in H. discriminate.
        -- exact E.
        -- now apply label_of.
        -- intros d Hd Hh. apply label_of in Hh. rewrite (H2 d Hd) in Hh. discriminate.
        -- apply IH. destruct (runtime_enabled n) as [[|]|]; first [exact H|discriminate].
      * destruct (runtime_enabled n) as [[|]|]; discriminate.
    + intros H. inversion H as [|n' before c after w' words' t' He E Hh Hb Hp]; subst.
      assert (Hc : find (fun c => match_node c (node_get_token_with lp sp c w)) (n_children n) = Some c).
      { destruct (find _ (n_children n)) as [c'|].
        - destruct Hf as (b' & a' & E' & H1 & H2). f_equal.
          apply (split_first (fun d => heads lp sp d (Tok PNone w) []) b' c' a' before c after); [congruence|now apply label_of|exact Hh| |exact Hb].
          intros d Hd Hx. apply label_of in Hx. rewrite (H2 d Hd) in Hx. discriminate.
        - exfalso. apply label_of in Hh. rewrite Hf in Hh; [discriminate|]. rewrite E. apply in_elt. }
      rewrite Hc. apply IH in Hp. destruct (runtime_enabled n) as [[|]|]; [exact Hp|now contradiction He|exact Hp].
Qed.

Lemma help_shows h parents r words t flat : last parents h = r -> parents <> [] ->
  (exists x, help_parse_with lp sp h parents (map (Tok PNone) words) [] = ([EvHelp h t flat], x))
  <-> help_path lp sp r words t /\ flat = has_flatten_help h || negb (is_root t).
Proof.
  intros Hr Hne. unfold help_parse_with. destruct (exists_last Hne) as (ps & r' & ->). rewrite last_last in Hr. subst r'.
  rewrite rev_app_distr. cbn [rev app]. unfold ebind, elift, emit. rewrite <- help_iff.
  destruct (find_help_target_with lp sp (map (Tok PNone) words) r) as [t'| | | |]; cbn [app].
  - split.
    + intros (x & E). destruct (has_router h); unfold eret in E; injection E; intros; subst; split; try reflexivity.
    + intros [E ->]. injection E as ->. destruct (has_router h); eexists; reflexivity.
  - split; [intros (x & E); discriminate|intros [E _]; discriminate].
  - split; [intros (x & E); discriminate|intros [E _]; discriminate].
  - split; [intros (x & E); discriminate|intros [E _]; discriminate].
  - split; [intros (x & E); discriminate|intros [E _]; discriminate].
Qed.

(** ** Suggestions *)

Lemma typed_unprefixed w x : unprefixed lp sp w x -> t_name (get_token_type_with lp sp w) = x.
Proof.
  intros H. unfold get_token_type_with. destruct (starts_with lp w) eqn:El.
  - apply begins_iff in El. destruct H as [->|[[H _]|[H _]]]; [cbn [t_name]; apply skipn_prefix|contradiction|contradiction].
  - apply begins_not in El. destruct H as [->|[[_ ->]|(_ & H & ->)]].
    + exfalso. apply El. now exists x.
    + assert (Hs : starts_with sp (sp ++ x) = true) by (apply begins_iff; now exists x). rewrite Hs. cbn [t_name]. apply skipn_prefix.
    + apply begins_not in H. rewrite H. reflexivity.
Qed.

Lemma suggestion n w x : unprefixed lp sp w x ->
  closest_matching_child_node_with lp sp n (Tok PNone w) = closest_matching_child_node n (Tok PLong x).
Proof.
  intros H. unfold closest_matching_child_node_with, closest_matching_child_node. cbn [t_prefix t_name]. now rewrite (typed_unprefixed w x H).
Qed.

(** ** Separators *)

Lemma other_named keep n : other_policies keep n -> is_named n = true.
Proof.
  intros [Hs _]. unfold is_named. destruct (long_name n), (short_name n), (none_name n); try reflexivity.
  destruct Hs as [H|[H|H]]; now contradiction H.
Qed.
Lemma other_marker keep n : other_policies keep n -> (forall m, ~ keep (PTokenEndMarker m)) -> token_end_marker n = None.
Proof.
  intros [_ Hs] Hk. destruct (token_end_marker n) as [m|] eqn:E; [|reflexivity]. exfalso.
  unfold token_end_marker in E. apply first_some_in in E as (p & Hp & E). destruct (Hs p Hp) as [H|H]; destruct p; try discriminate; [exact (Hk _ H)|exact H].
Qed.

Lemma separated_order n sep : leaf_ok n -> separated_argument n sep ->
  count_bounds n = Some (1, 1)%N /\ phase_order (n_pols n) = [PValueSeparator [sep]; PMinMaxCount 1 1].
Proof.
  intros L [Hin [_ Hs]]. pose proof (lo_sep _ L _ Hin) as Hb. split; [exact Hb|].
  unfold phase_order. pose proof (pick_count n L) as Hc. rewrite Hb in Hc. destruct Hc as [-> _].
  assert (Hsep : pick is_separator (n_pols n) = [PValueSeparator [sep]]).
  { destruct (pick_cases is_separator (n_pols n)) as [E|(p & E & Hp & Hf)].
    - exfalso. unfold pick in E. destruct (find is_separator (n_pols n)) eqn:Ef; [discriminate|]. now pose proof (find_none _ _ Ef _ Hin).
    - rewrite E. destruct (Hs p Hp) as [->|H]; [reflexivity|]. destruct p; try discriminate. contradiction. }
  assert (H : forall f, (forall p, f p = true -> match p with
       | PShortFormExpander | PTokenEndMarker _ | PAlias _ | PDependent _ | PRuntimeEnable _ | PRuntimeEnableRequired _ _ => True
       | _ => False end) -> pick f (n_pols n) = []).
  { intros f Hf. apply none_pick. intros p Hp. specialize (Hf p). destruct (f p); [|reflexivity]. specialize (Hf eq_refl).
    destruct (Hs p Hp) as [->|H]; [contradiction|destruct p; contradiction]. }
  rewrite Hsep, (H is_expander), (H is_enable), (H is_marker), (H is_alias), (H is_dependent); [reflexivity| | | | |];
    intros p; destruct p; (discriminate || exact (fun _ => I)).
Qed.

Lemma separator_exact n sep parents pt mem w args vals rest : leaf_ok n -> separated_argument n sep ->
  (nlen (Tok PNone w :: args) < 9223372036854775807)%N ->
  (exists tg, node_pre_parse_with lp sp n parents pt always_true (PS (Tok PNone w :: args) mem) = (PS rest mem, Ok (Some tg)) /\ tg_toks tg = vals)
  <-> exists l v, w = l ++ sep :: v /\ ~ In sep l /\ v <> [] /\ heads lp sp n (Tok PNone l) [] /\ vals = [Tok PNone v] /\ rest = args.
Proof.
  intros L Hs Hfit. destruct (separated_order n sep L Hs) as [Hb Ho].
  assert (Hn := other_named _ n (proj2 Hs)). assert (Hm : token_end_marker n = None) by (apply (other_marker _ n (proj2 Hs)); discriminate).
  rewrite settles. cbn [p_args]. rewrite run_with_filter, (filter_order _ (lo_prio _ L)), Ho.
  set (st := PS (Tok PNone w :: args) mem).
  cbn [run_policies_with]. cbn [pre_parse_phase_with].
  destruct (find_first_of [sep] w) as [i|] eqn:E.
  - assert (Hd : phase_value_separator_with lp sp [sep] n (Adp [] (Tok PNone w :: args)) = phase_value_separator [sep] n (Adp [] (Tok PNone w :: args))).
    { unfold phase_value_separator_with, phase_value_separator. cbn [a_empty a_proc a_unproc]. change (a_deref (Adp [] (Tok PNone w :: args)) a_begin) with (Some (Tok PNone w)).
      cbn [or_ub rbind t_name]. rewrite E. reflexivity. }
    rewrite Hd. destruct (find_first_of_spec _ _ _ E) as [Hi Hno]. destruct (find_first_of_in _ _ _ E) as (c & v & Ev & Hc).
    assert (c = sep) by (destruct Hc as [<-|[]]; reflexivity). subst c.
    assert (Hw : w = firstn i w ++ sep :: v) by (rewrite <- Ev; symmetry; apply firstn_skipn).
    assert (Hnl : ~ In sep (firstn i w)) by (apply Hno; now left).
    assert (Hsp : forall l v', w = l ++ sep :: v' -> ~ In sep l -> l = firstn i w /\ v' = v).
    { intros l v' E' H'. assert (Hw2 : l ++ sep :: v' = firstn i w ++ sep :: v) by (rewrite <- E'; exact Hw). clear - Hw2 H' Hnl. revert Hw2 Hnl. generalize (firstn i w) as l2. 
      induction l as [|x l IH]; intros [|y l2] Hw Hnl; cbn [app] in Hw; [injection Hw as H2|injection Hw as H1 H2..].
      - subst. now split.
      - subst y. exfalso. apply Hnl. now left.
      - subst x. exfalso. apply H'. now left.
      - subst y. destruct (IH (fun H => H' (or_intror H)) l2 H2 (fun H => Hnl (or_intror H))) as [-> ->]. now split. }
    destruct v as [|x v].
    + (* nothing behind the separator *)
      assert (Hp : phase_value_separator [sep] n (Adp [] (Tok PNone w :: args)) = Ok (Adp [] (Tok PNone w :: args), Act Skip)).
      { unfold phase_value_separator. cbn [a_empty a_proc a_unproc]. change (a_deref (Adp [] (Tok PNone w :: args)) a_begin) with (Some (Tok PNone w)).
        cbn [or_ub rbind t_name]. rewrite E. cbn [List.length].
        assert (Hlen : List.length w = i + 1).
        { rewrite Hw, app_length, firstn_length_le by lia. reflexivity. }
        rewrite Hlen, Nat.ltb_irrefl, <- Hlen, skipn_all. reflexivity. }
      rewrite Hp. cbn [rbind run_policies_with]. split.
      * intros (tg & H & _). cbv [settle mbind mlift mret] in H. discriminate.
      * intros (l & v' & E' & H' & Hv' & _). destruct (Hsp l v' E' H') as [_ ->]. now contradiction Hv'.
    + pose proof (sep_forward [sep] n PNone (firstn i w) sep [] (x :: v) args (or_introl eq_refl) eq_refl) as Hp.
      cbn [app] in Hp. rewrite <- Hw in Hp. rewrite Hp; [|intros d [<-|[]]; exact Hnl|discriminate]. cbn [rbind].
      change (run_policies_with lp sp [PMinMaxCount 1 1] (Adp [Tok PNone (firstn i w); Tok PNone (x :: v)] args) pt (Target n parents [] []) n parents (Act Valid)) with
        (run_policies_with lp sp [PMinMaxCount 1 1] (Adp [Tok PNone (firstn i w); Tok PNone (x :: v)] args) pt (Target n parents [] []) n parents (Act Valid)).
      destruct (count_plain_exact n 1 1 (Adp [Tok PNone (firstn i w); Tok PNone (x :: v)] args) [Tok PNone (firstn i w)] (Tok PNone (x :: v) :: args)) as [_ H2].
      * exact Hm.
      * unfold size_max. lia.
      * now left.
      * reflexivity.
      * unfold width. now rewrite Hn.
      * discriminate.
      * cbn [a_proc]. unfold nlen. cbn [List.length]. lia.
      * cbn [app]. rewrite !nlen_cons in *. lia.
      * specialize (H2 ltac:(rewrite nlen_cons; lia) [Tok PNone (x :: v)] args eq_refl ltac:(rewrite !nlen_cons; unfold nlen; cbn [List.length]; lia)).
        cbn [app] in H2. cbn [run_policies_with pre_parse_phase_with]. rewrite H2. cbn [rbind].
        assert (Hset : settle lp sp n parents always_true (Ok (Adp [Tok PNone (firstn i w); Tok PNone (x :: v)] args, Target n parents [] [], Act Valid)) st
          = if match_node n (norm_token_with lp sp n (Tok PNone (firstn i w))) then (PS args mem, Ok (Some (Target n parents [Tok PNone (x :: v)] []))) else (st, Ok None)).
        { unfold settle, mbind, mlift. rewrite (check_named lp sp _ _ _ (Tok PNone (firstn i w)) (Tok PNone (x :: v) :: args) Hn) by (reflexivity || discriminate).
          destruct (match_node n _); [|reflexivity]. cbn [a_proc a_unproc run_validator always_true set_args mret negb tl tg_subs]. rewrite Hn. reflexivity. }
        rewrite Hset. split.
        -- intros (tg & H & Ht). destruct (match_node n _) eqn:Em; [|discriminate]. injection H as <- <-. cbn [tg_toks] in Ht.
           exists (firstn i w), (x :: v). split; [exact Hw|]. split; [exact Hnl|]. split; [discriminate|]. split; [|now split].
           apply heads_plain; [discriminate|exact Em].
        -- intros (l & v' & E' & H' & Hv' & Hh & -> & ->). destruct (Hsp l v' E' H') as [-> ->].
           apply heads_plain in Hh; [|discriminate]. rewrite Hh. eexists. split; reflexivity.
  - assert (Hno : ~ In sep w) by (apply (proj1 (find_first_of_none [sep] w) E sep); now left).
    split.
    + intros (tg & H & _). exfalso. revert H. unfold phase_value_separator_with. cbn [a_empty a_proc a_unproc].
      change (a_deref (Adp [] (Tok PNone w :: args)) a_begin) with (Some (Tok PNone w)). cbn [or_ub rbind t_name t_prefix]. rewrite E.
      destruct (match_node n (get_token_type_with lp sp w)); cbn [rbind run_policies_with].
      * unfold settle, mbind, mlift. destruct (check_label_with _ _ _ _ _); discriminate.
      * cbv [settle mbind mlift mret]. discriminate.
    + intros (l & v & -> & _). exfalso. apply Hno, in_elt.
Qed.

(** Without the separator: an error if the word is a name of the argument. *)
Lemma separator_missing n sep parents pt mem w args : leaf_ok n -> separated_argument n sep -> ~ In sep w ->
  heads lp sp n (Tok PNone w) [] -> (none_name n = Some w -> ~ begins lp w /\ ~ begins sp w) ->
  node_pre_parse_with lp sp n parents pt always_true (PS (Tok PNone w :: args) mem)
  = (PS (Tok PNone w :: args) mem, Throw (EML missing_value_separator [node_token n])).
Proof.
  intros L Hs Hno Hh Hnone. destruct (separated_order n sep L Hs) as [Hb Ho].
  assert (Hn := other_named _ n (proj2 Hs)).
  rewrite settles. cbn [p_args]. rewrite run_with_filter, (filter_order _ (lo_prio _ L)), Ho.
  cbn [run_policies_with]. cbn [pre_parse_phase_with].
  assert (E : find_first_of [sep] w = None) by (apply find_first_of_none; intros d [<-|[]]; exact Hno).
  unfold phase_value_separator_with. cbn [a_empty a_proc a_unproc].
  change (a_deref (Adp [] (Tok PNone w :: args)) a_begin) with (Some (Tok PNone w)). cbn [or_ub rbind t_name t_prefix]. rewrite E.
  assert (Hm : match_node n (get_token_type_with lp sp w) = true).
  { apply match_iff. unfold get_token_type_with. inversion Hh as [l Hl Et|t c Hc Ht Et|s Hx H1 H2 Et|t c gs _ _ Hne]; subst.
    - assert (Hp : starts_with lp (lp ++ l) = true) by (apply begins_iff; now exists l). rewrite Hp. left. cbn [t_prefix t_name]. rewrite skipn_prefix. now split.
    - destruct Ht as [Ht|[Ht Hb']]; [discriminate|]. injection Ht as ->.
      rewrite (proj2 (begins_not _ _) Hb'). assert (Hp : starts_with sp (sp ++ c) = true) by (apply begins_iff; now exists c). rewrite Hp.
      right; left. cbn [t_prefix t_name]. rewrite skipn_prefix. now split.
    - destruct (Hnone Hx) as [Ha Hc]. rewrite (proj2 (begins_not _ _) Ha), (proj2 (begins_not _ _) Hc). right; right. now split.
    - now contradiction Hne. }
  rewrite Hm. cbn [rbind run_policies_with].
  unfold settle, mbind, mlift. rewrite (check_named lp sp n _ _ (Tok PNone w) args Hn) by (reflexivity || discriminate).
  rewrite (proj2 (heads_plain lp sp n (Tok PNone w) ltac:(discriminate)) Hh). reflexivity.
Qed.

(** ** Aliases *)

Lemma alias_order n ns mn mx : leaf_ok n -> alias_argument n ns -> count_bounds n = Some (mn, mx) ->
  phase_order (n_pols n) = [PMinMaxCount mn mx; PAlias ns].
Proof.
  intros L [Hin [_ Hs]] Hb.
  unfold phase_order. pose proof (pick_count n L) as Hc. rewrite Hb in Hc. destruct Hc as [-> _].
  assert (Hal : pick is_alias (n_pols n) = [PAlias ns]).
  { destruct (pick_cases is_alias (n_pols n)) as [E|(p & E & Hp & Hf)].
    - exfalso. unfold pick in E. destruct (find is_alias (n_pols n)) eqn:Ef; [discriminate|]. now pose proof (find_none _ _ Ef _ Hin).
    - rewrite E. destruct (Hs p Hp) as [->|H]; [reflexivity|]. destruct p; try discriminate. contradiction. }
  assert (H : forall f, (forall p, f p = true -> match p with
       | PShortFormExpander | PTokenEndMarker _ | PValueSeparator _ | PDependent _ | PRuntimeEnable _ | PRuntimeEnableRequired _ _ => True
       | _ => False end) -> pick f (n_pols n) = []).
  { intros f Hf. apply none_pick. intros p Hp. specialize (Hf p). destruct (f p); [|reflexivity]. specialize (Hf eq_refl).
    destruct (Hs p Hp) as [->|H]; [contradiction|destruct p; contradiction]. }
  rewrite Hal, (H is_expander), (H is_enable), (H is_marker), (H is_separator), (H is_dependent); [reflexivity| | | | |];
    intros p; destruct p; (discriminate || exact (fun _ => I)).
Qed.

Lemma alias_forward_with ns n parents t vals rest tg c mx mode :
  count_bounds n = Some (c, mx) -> nearest_mode_like (n :: parents) = Some mode -> nlen vals = c ->
  phase_alias_with lp sp ns n parents (Adp (t :: vals) rest) tg
  = if match_node n (norm_token_with lp sp n t) then Ok (Adp [] rest, add_subs tg (alias_subs ns mode vals), Act UseSubs)
    else Ok (Adp (t :: vals) rest, tg, Act Skip).
Proof.
  intros Hc Hm Hl. unfold phase_alias_with. rewrite Hc, Hm.
  assert (Hn : N.to_nat c = List.length vals) by (unfold nlen in Hl; lia). rewrite Hn.
  destruct (Z.ltb_spec (a_size (Adp (t :: vals) rest)) (Z.of_nat (List.length vals) + 1)) as [Hs|_].
  { unfold a_size, zlen in Hs. cbn [a_proc a_unproc List.length] in Hs. lia. }
  rewrite a_deref_begin. unfold a_all at 1. cbn [a_proc a_unproc app nth_error or_ub rbind].
  destruct (match_node n (norm_token_with lp sp n t)); cbn [negb]; [|reflexivity].
  assert (Ht : transfer (Adp (t :: vals) rest) (i_add a_begin (Z.of_nat (List.length vals))) = Adp (t :: vals) rest).
  { unfold transfer, a_begin, i_add. cbn [a_proc a_unproc Z.add].
    destruct (Z.leb_spec (a_size (Adp (t :: vals) rest)) (Z.of_nat (List.length vals))) as [Hs|_].
    { unfold a_size, zlen in Hs. cbn [a_proc a_unproc List.length] in Hs. lia. }
    destruct (Z.ltb_spec (Z.of_nat (List.length vals)) (zlen (t :: vals))) as [|Hs]; [now rewrite orb_true_r|].
    unfold zlen in Hs. cbn [List.length] in Hs. lia. }
  rewrite Ht. unfold a_all. cbn [a_proc a_unproc app skipn].
  rewrite firstn_app, Nat.sub_diag, firstn_all. cbn [firstn]. rewrite app_nil_r.
  rewrite Nat.add_comm. cbn [Nat.add skipn]. now rewrite skipn_all.
Qed.

Lemma alias_exact n ns parents pt mem w args rest k mode : leaf_ok n -> alias_argument n ns -> count_bounds n = Some (k, k) ->
  nearest_mode_like (n :: parents) = Some mode -> (nlen (Tok PNone w :: args) < 9223372036854775807)%N ->
  (exists tg, node_pre_parse_with lp sp n parents pt always_true (PS (Tok PNone w :: args) mem) = (PS rest mem, Ok (Some tg)))
  <-> heads lp sp n (Tok PNone w) [] /\ exists vals, args = vals ++ rest /\ nlen vals = k.
Proof.
  intros L Hs Hb Hmode Hfit.
  assert (Hn := other_named _ n (proj2 Hs)). assert (Hm : token_end_marker n = None) by (apply (other_marker _ n (proj2 Hs)); discriminate).
  rewrite settles. cbn [p_args]. rewrite run_with_filter, (filter_order _ (lo_prio _ L)), (alias_order n ns k k L Hs Hb).
  set (st := PS (Tok PNone w :: args) mem). set (tg0 := Target n parents [] []).
  cbn [run_policies_with]. cbn [pre_parse_phase_with].
  destruct (count_plain_exact n k k (Adp [] (Tok PNone w :: args)) [Tok PNone w] args) as [H1 H2]; try (exact Hm || reflexivity || discriminate).
  { exact (lo_count _ L _ _ Hb). }
  { now left. }
  { unfold width. now rewrite Hn. }
  { cbn [a_proc]. unfold nlen. cbn [List.length]. lia. }
  { cbn [app]. lia. }
  destruct (N.lt_ge_cases (nlen args) k) as [Hlt|Hge].
  - rewrite (H1 Hlt). cbn [rbind]. split.
    + intros (tg & H). exfalso. revert H. unfold settle, mbind, mlift. rewrite (check_named lp sp _ _ _ (Tok PNone w) args Hn) by (reflexivity || discriminate).
      destruct (match_node n _); discriminate.
    + intros (_ & vals & -> & Hv). exfalso. rewrite nlen_app in Hlt. lia.
  - destruct (split_at_most k args) as (vs & rs & E & Hc & Hfull).
    assert (Hv : nlen vs = k).
    { subst args. rewrite nlen_app in *. destruct rs as [|r rs]; [unfold nlen in *; cbn [List.length] in *; lia|]. exact (Hfull ltac:(discriminate)). }
    rewrite (H2 Hge vs rs E) by lia. cbn [rbind app].
    rewrite (alias_forward_with ns n parents (Tok PNone w) vs rs tg0 k k mode Hb Hmode Hv).
    destruct (match_node n (norm_token_with lp sp n (Tok PNone w))) eqn:Em; cbn [rbind].
    + assert (Hset : forall tg, settle lp sp n parents always_true (Ok (Adp [] rs, tg, Act UseSubs)) st = (PS rs mem, Ok (Some (Target n parents [] (tg_subs tg))))).
      { intros tg. unfold settle, mbind, mlift, check_label_with. rewrite Hn. cbn [a_proc a_unproc run_validator always_true set_args mret negb tl]. reflexivity. }
      rewrite Hset. split.
      * intros (tg & H). injection H as <- _. split; [apply heads_plain; [discriminate|exact Em]|]. exists vs. now split.
      * intros (_ & vals & E' & Hv'). assert (vals = vs /\ rest = rs) as [-> ->].
        { apply (full_det vals rest vs rs k); [congruence|lia|lia|lia|intros _; exact Hv]. }
        eexists. reflexivity.
    + split.
      * intros (tg & H). cbv [settle mbind mlift mret] in H. discriminate.
      * intros (Hh & _). apply heads_plain in Hh; [|discriminate]. congruence.
Qed.
End More.

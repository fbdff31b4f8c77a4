(** Proofs about the labels of the help page (C43, C61). *)
From Coq Require Import Lia.
From Verif Require Import Bytes Token Result Utf8 Tree PreParse Parse Root Validator Digits Help.
From Verif Require Import SpecNumeral SpecTake SpecMode SpecHelp SpecLabel.
From Verif Require Import DigitProofs OrderProofs NodeProofs TakeProofs ModeProofs RootProofs HelpProofs PageProofs.

Section Labels.
Variable num : Z -> bytes -> Prop.
Variable lim : node -> option limits.
Variables lp sp : bytes.
Variable n : node.
Hypothesis Hnum : forall z, In z (numbers lim n) -> num z (integral_cts z).

Lemma suffix_range : value_suffix lim n <> [] -> range_text num lim n (value_suffix lim n).
Proof.
  unfold value_suffix. unfold numbers in Hnum. destruct (lim n) as [[[lo|] [hi|] u]|] eqn:E; try easy; intros _.
  - eapply range_both; [exact E| |]; apply Hnum; cbn; auto.
  - rewrite !app_assoc. rewrite <- (app_assoc _ (b "N") _), <- (app_assoc _ (b "-") _), <- (app_assoc (b "<")).
    change (b "-" ++ b "N" ++ b ">") with (b "-N>"). eapply range_low; [exact E|]. apply Hnum. cbn; auto.
  - destruct u.
    + change (b "<" ++ b "0" ++ b "-" ++ integral_cts hi ++ b ">") with (b "<0-" ++ integral_cts hi ++ b ">").
      eapply range_high_unsigned; [exact E|]. apply Hnum. cbn; auto.
    + change (b "<" ++ b "-N" ++ b "-" ++ integral_cts hi ++ b ">") with (b "<-N-" ++ integral_cts hi ++ b ">").
      eapply range_high; [exact E|]. apply Hnum. cbn; auto.
Qed.

Lemma suffix_none : value_suffix lim n = [] -> unlimited lim n.
Proof.
  unfold value_suffix, unlimited. destruct (lim n) as [[[lo|] [hi|] u]|]; intros H; try discriminate; [right; eauto|now left].
Qed.

Lemma placeholder_ok : placeholder num lim n (match value_suffix lim n with [] => b "<Value>" | s => s end).
Proof.
  destruct (value_suffix lim n) as [|c s] eqn:E.
  - apply ph_value. now apply suffix_none.
  - rewrite <- E. apply ph_range. apply suffix_range. rewrite E. discriminate.
Qed.

Lemma shown_ok : value_shown num lim n (value_separator_suffix lim n).
Proof.
  unfold value_separator_suffix. cbv zeta. destruct (value_separator n) as [sep|] eqn:Es.
  - apply shown_separator; [exact Es|apply placeholder_ok].
  - destruct (count_bounds n) as [[mn mx]|] eqn:Ec; [|apply shown_not; [exact Es|rewrite Ec; discriminate]].
    destruct (N.eqb mn mx && N.eqb mn 1) eqn:E.
    + apply andb_true_iff in E as [E1 E2]. apply N.eqb_eq in E1, E2. subst.
      apply shown_space; [exact Es|exact Ec|apply placeholder_ok].
    + apply shown_not; [exact Es|]. rewrite Ec. intros H. injection H as -> ->. discriminate.
Qed.

Lemma count_ok : count_bounds n <> None -> count_text num n (count_suffix n).
Proof.
  unfold count_suffix. unfold numbers in Hnum. destruct (count_bounds n) as [[mn mx]|] eqn:E; [|easy]. intros _.
  destruct (N.eqb_spec mn mx) as [->|Hne].
  - eapply count_fixed; [exact E|]. apply Hnum. apply in_or_app. right. now left.
  - destruct (N.eqb_spec mx size_max) as [->|Hx].
    + change (b "[" ++ integral_cts (Z.of_N mn) ++ b "," ++ b "N" ++ b "]") with (b "[" ++ integral_cts (Z.of_N mn) ++ b ",N]").
      eapply count_open; [exact E|exact Hne|]. apply Hnum. apply in_or_app. right. now left.
    + eapply count_range; [exact E|exact Hne|exact Hx| |]; apply Hnum; apply in_or_app; right; [now left|right; now left].
Qed.

Lemma generator_names : (none_name n <> None -> long_name n = None /\ short_name n = None) -> typed_behind lp sp n <> [] ->
  label_generator_with lim lp sp n = comma_separated (typed_behind lp sp n) ++ value_separator_suffix lim n.
Proof.
  unfold label_generator_with, typed_behind, comma_separated.
  destruct (long_name n) as [l|], (short_name n) as [s|], (none_name n) as [m|]; intros H Hne;
    try (destruct H as [? ?]; discriminate); cbn [app map List.concat];
    rewrite ?app_nil_r, <- ?app_assoc; try reflexivity; easy.
Qed.

Lemma label_ok tp : sub_core n tp -> is_root n = false -> has_label n = true -> label_by num lim (typed_behind lp sp) n (help_label_with lim lp sp n).
Proof.
  intros Hs Hr Hl. apply sub_core_self in Hs. destruct Hs as (Hst & _ & Hp).
  assert (Hno : none_name n <> None -> long_name n = None /\ short_name n = None).
  { intros H. destruct (none_name n) as [m|] eqn:En; [|easy]. unfold none_name in En.
    apply first_some_in in En as (p & Hin & E). destruct p; try discriminate. destruct (Hp _ Hin) as [_ Hru].
    unfold policy_rules in Hru.
    repeat match goal with Hx : _ && _ = true |- _ => apply andb_true_iff in Hx as [? ?] end.
    match goal with Hx : must_not_have _ n = true |- _ => unfold must_not_have in Hx; cbn [forallb] in Hx end.
    repeat match goal with Hx : _ && _ = true |- _ => apply andb_true_iff in Hx as [? ?] end.
    repeat match goal with Hx : negb _ = true |- _ => apply negb_true_iff in Hx end.
    unfold long_name, short_name. split; apply first_some_none; intros q Hq; destruct q; try reflexivity; exfalso.
    - eapply (tag_absent tag_long n); [eassumption| |exact Hq]. reflexivity.
    - eapply (tag_absent tag_short n); [eassumption| |exact Hq]. reflexivity. }
  assert (Htn : has_lname n || has_sname n || has_nname n = true -> typed_behind lp sp n <> []).
  { unfold has_lname, has_sname, has_nname, typed_behind.
    destruct (long_name n), (short_name n), (none_name n); intros; discriminate. }
  pose proof shown_ok as Hshown. pose proof count_ok as Hcount. pose proof (generator_names Hno) as Hgen.
  unfold node_static, arg_base_static in Hst. unfold has_label in Hl. unfold is_root in Hr. unfold help_label_with.
  destruct (n_kind n) as [|[]| | | | | |] eqn:Ek; try discriminate Hr;
    repeat match goal with Hx : _ && _ = true |- _ => apply andb_true_iff in Hx as [? ?] end;
    repeat match goal with Hx : negb _ = true |- _ => apply negb_true_iff in Hx end;
    repeat match goal with Hx : has_nname n = false |- _ => rewrite Hx in *; rewrite ?orb_false_r in * end;
    repeat match goal with Hx : has_dname n = false |- _ => rewrite Hx in *; rewrite ?orb_false_r in * end.
  - rewrite Hgen by auto. apply label_names; [now rewrite Ek|exact Hshown].
  - rewrite Hgen by auto. apply label_names; [now rewrite Ek|exact Hshown].
  - rewrite Hgen by auto. rewrite <- app_assoc. apply label_list; [auto|exact Hshown|]. apply Hcount. now destruct (count_bounds n).
  - unfold has_dname in *. destruct (display_name n) as [d|] eqn:Ed; [|discriminate].
    apply label_positional; auto. apply Hcount. now destruct (count_bounds n).
  - rewrite Hgen. 2:{ apply Htn. repeat match goal with Hx : ?f n = false |- _ => rewrite Hx in * end. assumption. }
    rewrite <- app_assoc. apply label_list; [auto|exact Hshown|]. apply Hcount. now destruct (count_bounds n).
  - rewrite Hgen by auto. apply label_names; [now rewrite Ek|exact Hshown].
  - destruct (display_name n) as [d|] eqn:Ed; [|discriminate]. destruct (value_suffix lim n) as [|c s] eqn:Ev.
    + rewrite app_nil_r. apply label_alias_group; auto. now apply suffix_none.
    + rewrite <- Ev. apply label_alias_group_range; auto. apply suffix_range. rewrite Ev. discriminate.
  - destruct (display_name n) as [d|] eqn:Ed; [|discriminate]. now apply label_one_of with inst.
  - destruct (is_anonymous n) eqn:Ea; unfold is_anonymous in Ea.
    + apply label_anonymous; [exact Ek|]. now destruct (none_name n).
    + assert (Hnn : none_name n <> None) by (now destruct (none_name n)).
      rewrite Hgen.
      * apply label_names; [now rewrite Ek|exact Hshown].
      * apply Htn. unfold has_nname. destruct (none_name n); [|easy]. now rewrite !orb_true_r.
  - rewrite Hgen by auto. apply label_names; [now rewrite Ek|exact Hshown].
Qed.
End Labels.

Lemma cts_decimal z : (forall ds, writes (Z.abs_N z) ds -> ~ In 0%N (removelast ds)) -> decimal z (integral_cts z).
Proof.
  intros H. destruct (lexical_writes (Z.abs_N z)) as (ds & W & _). exists ds. split; [exact W|].
  specialize (H ds W). apply (cts_exact _ _ W) in H. destruct (Z.ltb_spec z 0) as [Hz|Hz].
  - assert (E : z = (- Z.of_N (Z.abs_N z))%Z) by lia. rewrite E at 1. rewrite (cts_negative _ ds W) by lia.
    rewrite <- H. now rewrite (cts_squeezed _ ds W).
  - assert (E : z = Z.of_N (Z.abs_N z)) by lia. rewrite E at 1. exact H.
Qed.

Lemma node_label (num : Z -> bytes -> Prop) lim r n : accepted r = true -> In n (below r) -> is_root n = false -> has_label n = true ->
  (forall z, In z (numbers lim n) -> num z (integral_cts z)) -> label_text num lim n (help_label lim n).
Proof.
  intros Ha Hn Hr Hl Hz. apply accepted_core in Ha as [_ Hs]. destruct (sub_core_below r [] n Hs Hn) as (tp & _ & Hsn).
  exact (label_ok num lim (b "--") (b "-") n Hz tp Hsn Hr Hl).
Qed.

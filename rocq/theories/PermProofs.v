(** A node's pre-parse does not depend on the declaration order of its policies. *)
From Verif Require Import Bytes Token Adapter Result CodePoint Utf8 Tree PreParse SpecPolicy Validator.
From Verif Require Import OrderProofs.
From Coq Require Import Permutation.

Lemma first_some_none {A B} (f : A -> option B) l : first_some f l = None <-> forall x, In x l -> f x = None.
Proof.
  induction l as [|y l IH]; cbn [first_some In]; [easy|].
  destruct (f y) eqn:E; split.
  - easy.
  - intros H. rewrite H in E; auto.
  - intros H x [<-|Hx]; [easy|]. now apply IH.
  - intros H. apply IH. auto.
Qed.

Lemma first_some_in {A B} (f : A -> option B) l y : first_some f l = Some y -> exists x, In x l /\ f x = Some y.
Proof.
  induction l as [|x l IH]; cbn [first_some]; [easy|].
  destruct (f x) eqn:E.
  - intros [= <-]. exists x. split; [now left|easy].
  - intros H. destruct (IH H) as (z & Hz & Ez). exists z. split; [now right|easy].
Qed.

Lemma first_some_perm {B} (f : policy -> option B) t ps ps' :
  (forall p y, f p = Some y -> pol_tag p = t) ->
  Permutation ps ps' -> NoDup (map pol_tag ps) -> first_some f ps = first_some f ps'.
Proof.
  intros Ht P Hd. destruct (first_some f ps) as [y|] eqn:E; symmetry.
  - destruct (first_some_in _ _ _ E) as (x & Hx & Ex).
    destruct (first_some f ps') as [y'|] eqn:E'.
    + destruct (first_some_in _ _ _ E') as (x' & Hx' & Ex').
      apply (Permutation_in _ (Permutation_sym P)) in Hx'.
      assert (x = x'); [|congruence].
      eapply nodup_map_inj; [exact Hd| | |]; auto. now rewrite (Ht _ _ Ex), (Ht _ _ Ex').
    + assert (Hx' := Permutation_in _ P Hx).
      apply (proj1 (first_some_none f ps') E') in Hx'. congruence.
  - apply first_some_none. intros x Hx. apply (Permutation_in _ (Permutation_sym P)) in Hx.
    now apply (proj1 (first_some_none f ps) E).
Qed.

Lemma existsb_perm {A} (f : A -> bool) l l' : Permutation l l' -> existsb f l = existsb f l'.
Proof.
  intros P. destruct (existsb f l) eqn:E; symmetry.
  - apply existsb_exists in E as (x & Hx & Ex). apply existsb_exists. exists x.
    split; [|easy]. now apply (Permutation_in _ P).
  - apply not_true_iff_false. intros E'. apply not_true_iff_false in E. apply E.
    apply existsb_exists in E' as (x & Hx & Ex). apply existsb_exists. exists x.
    split; [|easy]. now apply (Permutation_in _ (Permutation_sym P)).
Qed.

(** What the pre-parse stage reads of a node. *)
Record same_view (n n' : node) : Prop := {
  sv_long : long_name n = long_name n';
  sv_short : short_name n = short_name n';
  sv_none : none_name n = none_name n';
  sv_display : display_name n = display_name n';
  sv_error : error_name n = error_name n';
  sv_count : count_bounds n = count_bounds n';
  sv_marker : token_end_marker n = token_end_marker n';
  sv_router : has_router n = has_router n' }.

Lemma same_view_perm k id ty ps ps' cs :
  Permutation ps ps' -> NoDup (map pol_tag ps) ->
  same_view (Node k id ty ps cs) (Node k id ty ps' cs).
Proof.
  intros P Hd. constructor;
    unfold long_name, short_name, none_name, display_name, error_name, count_bounds,
      token_end_marker, has_router; cbn [n_pols];
    try (eapply first_some_perm; [|exact P|exact Hd]; intros p y; destruct p; try discriminate;
         intros _; cbn [pol_tag]; reflexivity).
  now apply existsb_perm.
Qed.

Section View.
  Variables (n n' : node).
  Hypothesis V : same_view n n'.

  Lemma sv_named : is_named n = is_named n'.
  Proof using V. unfold is_named. now rewrite (sv_long _ _ V), (sv_short _ _ V), (sv_none _ _ V). Qed.
  Lemma sv_match t : match_node n t = match_node n' t.
  Proof using V. unfold match_node. now rewrite (sv_long _ _ V), (sv_short _ _ V), (sv_none _ _ V). Qed.
  Lemma sv_token : node_token n = node_token n'.
  Proof using V.
    unfold node_token. now rewrite (sv_long _ _ V), (sv_short _ _ V), (sv_none _ _ V),
                         (sv_display _ _ V), (sv_error _ _ V).
  Qed.
  Lemma sv_get s : node_get_token n s = node_get_token n' s.
  Proof using V. unfold node_get_token. now rewrite (sv_long _ _ V), (sv_short _ _ V). Qed.
  Lemma sv_norm t : norm_token n t = norm_token n' t.
  Proof using V. unfold norm_token. destruct (t_prefix t); auto. apply sv_get. Qed.

  (** Results that differ at most in the node that owns the target. *)
  Definition same_phase (r r' : res (adapter * target * presult)) : Prop :=
    match r, r' with
    | Ok (a, t, m), Ok (a', t', m') => a = a' /\ m = m' /\ tg_subs t = tg_subs t'
    | Throw e, Throw e' => e = e'
    | UB, UB | Exited, Exited | OutOfFuel, OutOfFuel => True
    | _, _ => False
    end.

  Lemma same_phase_keep (r : res (adapter * presult)) t t' :
    tg_subs t = tg_subs t' ->
    same_phase (rbind r (fun '(a', m) => Ok (a', t, m))) (rbind r (fun '(a', m) => Ok (a', t', m))).
  Proof using. destruct r as [[a m]| | | |]; cbn; auto. Qed.

  Lemma add_subs_subs t ss : tg_subs (add_subs t ss) = tg_subs t ++ ss.
  Proof using. now destruct t. Qed.

  Lemma phase_view p a pt t t' parents :
    (forall ns, p = PAlias ns -> has_router n = false) -> tg_subs t = tg_subs t' ->
    match pre_parse_phase p a pt t n parents, pre_parse_phase p a pt t' n' parents with
    | None, None => True
    | Some r, Some r' => same_phase r r'
    | _, _ => False
    end.
  Proof using V.
    intros Hr Ht. destruct p; cbn [pre_parse_phase]; auto;
      try (apply same_phase_keep; easy).
    - unfold phase_min_max_count, count_offset. rewrite sv_named, sv_token, (sv_marker _ _ V).
      now apply same_phase_keep.
    - unfold phase_value_separator. rewrite sv_token. 
      assert (E : forall t0, match_node n t0 = match_node n' t0) by apply sv_match.
      destruct (a_empty a); [now apply same_phase_keep|].
      destruct (a_deref a a_begin) as [first|]; [|easy]. cbn [or_ub rbind].
      destruct (find_first_of s (t_name first)).
      + destruct (Nat.ltb _ _); [easy|]. destruct (skipn _ _); [now apply same_phase_keep|].
        now apply same_phase_keep.
      + rewrite E. destruct (match_node n' _); now apply same_phase_keep.
    - unfold phase_short_form, short_candidate. rewrite (sv_short _ _ V).
      assert (E : forall t0, node_get_token n t0 = node_get_token n' t0) by apply sv_get.
      destruct (a_empty a); [now apply same_phase_keep|].
      destruct (a_deref a a_begin) as [first|]; [|easy]. cbn [or_ub rbind]. rewrite E.
      now apply same_phase_keep.
    - unfold phase_end_marker. rewrite sv_named. now apply same_phase_keep.
    - unfold phase_alias. rewrite (sv_count _ _ V), sv_token. unfold nearest_mode_like.
      cbn [find]. rewrite <- (sv_router _ _ V), (Hr _ eq_refl).
      destruct (count_bounds n') as [[c ?]|]; [|easy].
      destruct (find has_router parents) as [md|]; [|easy].
      destruct (Z.ltb _ _); [easy|].
      destruct (a_deref a a_begin) as [label|]; [|easy]. cbn [or_ub rbind].
      rewrite sv_norm, sv_match. destruct (negb _); [easy|].
      cbn. rewrite !add_subs_subs. now rewrite Ht.
  Qed.

  Lemma run_view ps : forall a pt t t' parents m,
    (forall ns, In (PAlias ns) ps -> has_router n = false) -> tg_subs t = tg_subs t' ->
    same_phase (run_policies ps a pt t n parents m) (run_policies ps a pt t' n' parents m).
  Proof using V.
    induction ps as [|p ps IH]; intros a pt t t' parents m Hr Ht; cbn [run_policies]; [easy|].
    assert (Hr' : forall ns, In (PAlias ns) ps -> has_router n = false)
      by (intros ns Hin; apply (Hr ns); now right).
    assert (Hv := phase_view p a pt t t' parents (fun ns E => Hr ns (or_introl E)) Ht).
    destruct (pre_parse_phase p a pt t n parents) as [r|],
             (pre_parse_phase p a pt t' n' parents) as [r'|]; try easy; [|now apply IH].
    destruct m as [m0|c ts]; [|now apply IH].
    destruct m0; [now apply IH| |].
    all: destruct r as [[[a1 t1] m1]| | | |], r' as [[[a2 t2] m2]| | | |]; try easy;
      destruct Hv as (<- & <- & Hs); cbn [rbind]; now apply IH.
  Qed.

  Lemma check_label_view m a : check_label n m a = check_label n' m a.
  Proof using V.
    unfold check_label. rewrite sv_named. destruct (is_named n'); auto.
    destruct m as [[]|]; auto; destruct a as [[|t pr] [|u us]]; cbn [a_proc a_unproc]; auto;
      rewrite sv_norm, sv_match; auto.
  Qed.
End View.

Lemma node_pre_parse_perm k id ty ps ps' cs parents pt v s :
  Permutation ps ps' -> NoDup (map pol_tag ps) -> distinct_priorities ps ->
  (forall ns, In (PAlias ns) ps -> ~ In PRouter ps) ->
  v (Node k id ty ps cs) = v (Node k id ty ps' cs) ->
  visible (node_pre_parse (Node k id ty ps cs) parents pt v s)
  = visible (node_pre_parse (Node k id ty ps' cs) parents pt v s).
Proof.
  intros P Hd Hp Ha Hv.
  pose proof (same_view_perm k id ty ps ps' cs P Hd) as V.
  set (n := Node k id ty ps cs) in *. set (n' := Node k id ty ps' cs) in *.
  unfold node_pre_parse. cbn [n_pols]. change (n_pols n) with ps. change (n_pols n') with ps'.
  rewrite (run_policies_perm ps ps' _ _ _ n _ _ P Hp).
  assert (Hr : forall ns, In (PAlias ns) (priority_order ps') -> has_router n = false).
  { intros ns Hin. apply (Permutation_in _ (priority_order_perm ps')) in Hin.
    apply (Permutation_in _ (Permutation_sym P)) in Hin. apply Ha in Hin.
    apply not_true_iff_false. intros E. apply Hin. unfold has_router in E.
    apply existsb_exists in E as (q & Hq & Eq). destruct q; try discriminate. exact Hq. }
  assert (H := run_view n n' V (priority_order ps') (Adp [] (p_args s)) pt
                        (Target n parents [] []) (Target n' parents [] []) parents (Act Valid) Hr eq_refl).
  unfold mbind, mlift.
  destruct (run_policies (priority_order ps') (Adp [] (p_args s)) pt (Target n parents [] []) n
                         parents (Act Valid)) as [[[a t] m]| | | |],
           (run_policies (priority_order ps') (Adp [] (p_args s)) pt (Target n' parents [] []) n'
                         parents (Act Valid)) as [[[a' t'] m']| | | |]; try easy.
  - destruct H as (<- & <- & Hs). rewrite (check_label_view n n' V). unfold run_validator.
    rewrite Hv, (sv_named _ _ V).
    destruct m as [[]|]; auto; destruct (check_label n' _ a); auto;
      destruct (v n' (p_mem s)) as [m' [[]| | | |]]; cbn; try reflexivity.
    all: unfold visible; cbn; rewrite Hs; reflexivity.
  - cbn in H. subst. reflexivity.
Qed.

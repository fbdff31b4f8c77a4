(** Lemmas on the pre-parse of dependency nodes and modes. *)
From Verif Require Import Bytes Token Adapter Result CodePoint Utf8 Tree PreParse Root Validator Levenshtein.
From Verif Require Import SpecPolicy SpecTokens SpecMode OrderProofs TreeProofs NodeProofs.

(** All nodes of a subtree pass the compile-time checks, the root of the subtree having the ancestors
    [tp]. *)
Definition sub_ok (n : node) (tp : list node) : Prop :=
  forall x, In x (preorder n tp) -> node_ok x = true.

Lemma preorder_shift n : forall tp tp', map fst (preorder n tp) = map fst (preorder n tp').
Proof.
  induction n as [k id ty pols cs IH] using node_ind'. intros tp tp'.
  rewrite !preorder_eq. cbn [map fst n_children]. f_equal.
  generalize (Node k id ty pols cs). intros m.
  induction IH as [|c cs Hc _ IH]; [easy|]. cbn [flat_map]. rewrite !map_app, IH. f_equal. apply Hc.
Qed.

Lemma below_eq n : below n = n :: flat_map below (n_children n).
Proof.
  unfold below at 1. rewrite preorder_eq. cbn [map fst]. f_equal.
  induction (n_children n) as [|c cs IH]; [easy|]. cbn [flat_map]. rewrite map_app, IH. f_equal.
  apply preorder_shift.
Qed.

Lemma below_self n : In n (below n).
Proof. rewrite below_eq. now left. Qed.

Lemma below_child c d n : In c (n_children n) -> In d (below c) -> In d (below n).
Proof. intros Hc Hd. rewrite below_eq. right. apply in_flat_map. eauto. Qed.

Lemma below_trans n : forall c d, In c (below n) -> In d (below c) -> In d (below n).
Proof.
  induction n as [k id ty pols cs IH] using node_ind'. intros c d Hc Hd.
  rewrite below_eq in Hc. cbn [n_children] in Hc. destruct Hc as [<-|Hc]; [easy|].
  apply in_flat_map in Hc as (e & He & Hc). eapply below_child; [exact He|].
  rewrite Forall_forall in IH. eapply IH; eauto.
Qed.

Lemma sub_ok_self n tp : sub_ok n tp -> node_ok (n, tp) = true.
Proof. intros H. apply H. rewrite preorder_eq. now left. Qed.

Lemma sub_ok_child n tp c : sub_ok n tp -> In c (n_children n) -> sub_ok c (n :: tp).
Proof. intros H Hc x Hx. apply H. rewrite preorder_eq. right. apply in_flat_map. eauto. Qed.

Lemma sub_ok_below n : forall tp d, sub_ok n tp -> In d (below n) ->
  exists tp', In (d, tp') (preorder n tp) /\ sub_ok d tp'.
Proof.
  induction n as [k id ty pols cs IH] using node_ind'. intros tp d Hs Hd.
  rewrite below_eq in Hd. destruct Hd as [<-|Hd].
  - exists tp. split; [rewrite preorder_eq; now left|easy].
  - apply in_flat_map in Hd as (c & Hc & Hd). rewrite Forall_forall in IH. cbn [n_children] in Hc.
    destruct (IH c Hc _ d (sub_ok_child _ _ _ Hs Hc) Hd) as (tp' & Hin & Hs').
    exists tp'. split; [|easy]. rewrite preorder_eq. right. apply in_flat_map. eauto.
Qed.

Definition is_leaf (n : node) : bool :=
  match n_kind n with KFlag | KArg _ | KCountingFlag | KHelp => true | _ => false end.

(** Facts about an argument node somewhere in an accepted tree. *)
Record leaf (n : node) : Prop := {
  lf_kind : is_leaf n = true;
  lf_ok : leaf_ok n;
  lf_consumer : consumer n
}.

Lemma leaf_consumer n tp : node_ok (n, tp) = true -> is_leaf n = true -> consumer n.
Proof.
  intros H Hl. pose proof (node_ok_leaf _ _ H) as L.
  apply node_ok_policies in H as (Hs & _ & _). unfold is_leaf in Hl. unfold node_static in Hs.
  unfold consumer, is_named.
  assert (Hn : (has_lname n || has_sname n = true) ->
               is_some (long_name n) || is_some (short_name n) || is_some (none_name n) = true).
  { unfold has_lname, has_sname. intros ->. easy. }
  destruct (n_kind n) as [|c| | | | | |] eqn:Ek; try discriminate.
  - left. apply Hn. rewrite !andb_true_iff in Hs. tauto.
  - assert (Ha : arg_base_static n = true).
    { destruct c; rewrite !andb_true_iff in Hs; tauto. }
    right. unfold arg_base_static in Ha. destruct (count_bounds n) as [[mn mx]|] eqn:Ec.
    2:{ rewrite !andb_true_iff in Ha. destruct Ha as (((_ & Ha) & _) & _). discriminate. }
    exists mn, mx. split; [easy|].
    assert (Hle : (mn <= mx)%N) by (now apply (lo_count _ L)).
    rewrite !andb_true_iff, negb_true_iff, andb_false_iff, !N.eqb_neq in Ha. lia.
  - left. apply Hn. rewrite !andb_true_iff in Hs. tauto.
  - left. apply Hn. rewrite !andb_true_iff in Hs. tauto.
Qed.

Lemma node_ok_is_leaf n tp : node_ok (n, tp) = true -> is_leaf n = true -> leaf n.
Proof. intros H K. constructor; auto; [now apply node_ok_leaf in H|now apply (leaf_consumer _ tp)]. Qed.

(** ** Nodes that are not modes *)

Lemma mbind_inv {A B} (m : M A) (f : A -> M B) s s' r :
  mbind m f s = (s', r) ->
  exists s1 r1, m s = (s1, r1)
    /\ match r1 with
       | Ok x => f x s1 = (s', r)
       | Throw e => s' = s1 /\ r = Throw e
       | UB => s' = s1 /\ r = UB
       | Exited => s' = s1 /\ r = Exited
       | OutOfFuel => s' = s1 /\ r = OutOfFuel
       end.
Proof.
  unfold mbind. destruct (m s) as [s1 r1]. intros H. exists s1, r1. split; [easy|].
  destruct r1; try (now injection H as <- <-). easy.
Qed.

(** What a child of a mode does when it is offered tokens: nothing when it does not match; when it
    matches, one of its argument nodes [l], accepted by the validator, takes tokens. *)
Definition offers (n : node) (parents : list node) (pp : child_pp) : Prop :=
  forall pt v s s' r, pp pt v s = (s', r) ->
    match r with
    | Ok None => p_args s' = p_args s
    | Ok (Some t) =>
        exists l m m', In l (below n) /\ leaf l /\ matched l parents (p_args s) t (p_args s')
          /\ v l m = (m', Ok true)
          /\ (fits (p_args s) -> p_args s <> [] -> args_weight (p_args s') < args_weight (p_args s))
    | r => (forall c m, regular (snd (v c m))) -> r <> OutOfFuel /\ r <> Exited
    end.

Lemma leaf_offers n parents : leaf n -> offers n parents (node_pre_parse n parents).
Proof.
  intros L pt v s s' r H. pose proof H as H0. apply node_pre_parse_inv in H0.
  destruct r as [[t|]| | | |]; auto.
  2-5: intros Hv; now apply (node_pre_parse_regular _ _ _ _ _ _ _ Hv H).
  destruct H0 as (a & tg & m & a' & _ & _ & _ & Hv & _ & _).
  exists n, (p_mem s), (p_mem s'). split; [apply below_self|]. split; [easy|].
  split; [apply (node_matched n parents pt v); [apply L|easy]|]. split; [easy|].
  intros Hf Hne. apply (node_progress n parents pt v s s' t); auto; apply L.
Qed.

Lemma first_match_offers n parents (g : node -> child_pp) cs :
  (forall c, In c cs -> In c (n_children n)) -> (forall c, In c cs -> offers c parents (g c)) ->
  offers n parents (first_match (map g cs)).
Proof.
  induction cs as [|c cs IH]; intros Hc Ho pt v s s' r H.
  - cbn in H. injection H as <- <-. easy.
  - cbn [map first_match] in H. apply mbind_inv in H as (s1 & r1 & H1 & H2).
    pose proof (Ho c (or_introl eq_refl) _ _ _ _ _ H1) as Ho1.
    destruct r1 as [[t|]| | | |];
      try (match type of H2 with _ /\ _ => destruct H2 as [-> ->]; exact Ho1 end).
    + injection H2 as <- <-. destruct Ho1 as (l & m & m' & Hl & ?). exists l, m, m'.
      split; [|easy]. eapply below_child; [|exact Hl]. apply Hc. now left.
    + apply IH in H2.
      * destruct r as [[t|]| | | |]; auto.
        -- now rewrite Ho1 in H2.
        -- congruence.
      * intros; apply Hc; now right.
      * intros; apply Ho; now right.
Qed.

Lemma one_of_validator_inner inst self v c m m' :
  one_of_validator inst self v c m = (m', Ok true) -> exists m1, v c m1 = (m', Ok true).
Proof.
  unfold one_of_validator. destruct (mem_get m inst) as [h|].
  - destruct (N.eqb _ _); [eauto|discriminate].
  - eauto.
Qed.

Lemma one_of_validator_regular inst self v :
  (forall c m, regular (snd (v c m))) -> forall c m, regular (snd (one_of_validator inst self v c m)).
Proof.
  intros H c m. unfold one_of_validator. destruct (mem_get m inst); [|apply H].
  destruct (N.eqb _ _); [apply H|split; easy].
Qed.

Lemma one_of_match_offers n parents inst self (g : node -> child_pp) cs :
  (forall c, In c cs -> In c (n_children n)) -> (forall c, In c cs -> offers c parents (g c)) ->
  offers n parents (fun pt v => one_of_match (map (fun c => (c, g c)) cs) pt (one_of_validator inst self v)).
Proof.
  induction cs as [|c cs IH]; intros Hc Ho pt v s s' r H.
  - cbn in H. injection H as <- <-. easy.
  - cbn [map one_of_match] in H. apply mbind_inv in H as (s1 & r1 & H1 & H2).
    pose proof (Ho c (or_introl eq_refl) _ _ _ _ _ H1) as Ho1.
    destruct r1 as [[t|]| | | |];
      try (match type of H2 with _ /\ _ =>
             destruct H2 as [-> ->]; intros Hv; apply Ho1; now apply one_of_validator_regular end).
    + apply mbind_inv in H2 as (s2 & r2 & H2 & H3). unfold run_validator in H2.
      destruct (one_of_validator inst self v c (p_mem s1)) as [m2 r3] eqn:Ev. injection H2 as <- <-.
      destruct r3; try (match type of H3 with _ /\ _ => destruct H3 as [-> ->] end).
      * cbn in H3. injection H3 as <- <-. cbn [p_args].
        destruct Ho1 as (l & m & m' & Hl & L & Hm & Hv & Hw).
        destruct (one_of_validator_inner _ _ _ _ _ _ Hv) as (m1 & Hv'). exists l, m1, m'.
        split; [|easy]. eapply below_child; [|exact Hl]. apply Hc. now left.
      * intros _; easy.
      * intros _; easy.
      * intros Hv. pose proof (one_of_validator_regular inst self v Hv c (p_mem s1)) as Hr.
        rewrite Ev in Hr. destruct Hr; easy.
      * intros Hv. pose proof (one_of_validator_regular inst self v Hv c (p_mem s1)) as Hr.
        rewrite Ev in Hr. destruct Hr; easy.
    + apply IH in H2.
      * destruct r as [[t|]| | | |]; auto; [now rewrite Ho1 in H2|congruence].
      * intros; apply Hc; now right.
      * intros; apply Ho; now right.
Qed.

Lemma rules_not_mode n tp : node_ok (n, tp) = true -> parent_is (fun p => is_root p || is_mode p) tp = false ->
  tp <> [] -> is_mode n = false /\ is_root n = false /\ n_kind n <> KHelp.
Proof.
  intros H Hp Hne. apply node_ok_policies in H as (Hs & Hr & _).
  unfold is_mode, is_root. unfold node_rules in Hr. unfold node_static in Hs.
  destruct (n_kind n) eqn:E; auto; repeat split; try easy.
  - rewrite !andb_true_iff in Hr. destruct Hr as [_ Hr]. congruence.
  - rewrite !andb_true_iff in Hr. destruct Hr as [_ Hr]. destruct tp as [|p tp]; [easy|].
    cbn [parent_is] in *. rewrite Hr in Hp. discriminate.
  - rewrite !andb_true_iff in Hs. destruct Hs as [_ Hs]. now destruct tp.
Qed.

Definition is_dep (n : node) : bool := match n_kind n with KAliasGroup | KOneOf _ => true | _ => false end.

Lemma dep_children n tp c : sub_ok n tp -> is_dep n = true -> In c (n_children n) ->
  is_mode c = false /\ is_root c = false /\ n_kind c <> KHelp.
Proof.
  intros Hs Hd Hc. apply (rules_not_mode c (n :: tp)); [|unfold is_dep in Hd|easy].
  - apply sub_ok_self. now apply sub_ok_child.
  - cbn [parent_is]. unfold is_root, is_mode. destruct (n_kind n); try discriminate; easy.
Qed.

Lemma pre_parse_offers f n : forall tp parents, sub_ok n tp -> is_mode n = false -> is_root n = false ->
  offers n parents (pre_parse f n parents).
Proof.
  induction n as [k id ty pols cs IH] using node_ind'. intros tp parents Hs Hm Hr.
  rewrite Forall_forall in IH. set (n := Node k id ty pols cs) in *.
  assert (Hleaf : is_leaf n = true -> offers n parents (node_pre_parse n parents)).
  { intros Hl. apply leaf_offers. apply (node_ok_is_leaf n tp); auto. now apply sub_ok_self. }
  assert (Hdep : is_dep n = true -> forall c, In c cs -> offers c parents (pre_parse f c parents)).
  { intros Hd c Hc. destruct (dep_children n tp c Hs Hd Hc) as (H1 & H2 & _).
    apply (IH c Hc (n :: tp)); auto. now apply sub_ok_child. }
  destruct k; try (apply Hleaf; reflexivity); try discriminate; cbn [pre_parse].
  - apply first_match_offers; auto.
  - apply one_of_match_offers; auto.
Qed.

(** ** The token loop of a mode *)

Lemma verify_match_regular already front : forall c m, regular (snd (verify_match already front c m)).
Proof.
  intros c m. unfold verify_match. cbn [snd].
  destruct (has_multi_stage c), (is_named c), already; split; easy.
Qed.

Lemma verify_match_true already front c m m' :
  verify_match already front c m = (m', Ok true) -> has_multi_stage c = true \/ already = false.
Proof. unfold verify_match. destruct (has_multi_stage c), (is_named c), already; auto; discriminate. Qed.

Lemma mode_try_offers parents (g : node -> child_pp) matched front tg cs :
  (forall c, In c cs -> is_mode c = false -> offers c parents (g c)) ->
  forall i s s' r, mode_try (map (fun c => (c, g c)) cs) i matched front tg s = (s', r) ->
  match r with
  | Ok None => p_args s' = p_args s
  | Ok (Some (j, t)) =>
      exists k c l, j = i + k /\ nth_error cs k = Some c /\ is_mode c = false /\ In l (below c) /\ leaf l
        /\ NodeProofs.matched l parents (p_args s) t (p_args s')
        /\ (has_multi_stage l = true \/ nth j matched false = false)
        /\ (fits (p_args s) -> p_args s <> [] -> args_weight (p_args s') < args_weight (p_args s))
  | r => r <> OutOfFuel /\ r <> Exited
  end.
Proof.
  induction cs as [|c cs IH]; intros Ho i s s' r H.
  - cbn in H. injection H as <- <-. easy.
  - cbn [map mode_try] in H.
    assert (IH' : forall s1, mode_try (map (fun c => (c, g c)) cs) (S i) matched front tg s1 = (s', r) ->
              p_args s1 = p_args s ->
              match r with
              | Ok None => p_args s' = p_args s
              | Ok (Some (j, t)) =>
                  exists k c0 l, j = i + k /\ nth_error (c :: cs) k = Some c0 /\ is_mode c0 = false
                    /\ In l (below c0) /\ leaf l
                    /\ NodeProofs.matched l parents (p_args s) t (p_args s')
                    /\ (has_multi_stage l = true \/ nth j matched false = false)
                    /\ (fits (p_args s) -> p_args s <> [] -> args_weight (p_args s') < args_weight (p_args s))
              | r => r <> OutOfFuel /\ r <> Exited
              end).
    { intros s1 H1 Hs1. apply IH in H1; [|intros; apply Ho; auto; now right]. rewrite Hs1 in H1.
      destruct r as [[[j t]|]| | | |]; auto.
      destruct H1 as (k & c0 & l & -> & Hk & ?). exists (S k), c0, l. split; [lia|]. easy. }
    destruct (is_mode c) eqn:Em; [now apply (IH' s)|].
    apply mbind_inv in H as (s1 & r1 & H1 & H2).
    pose proof (Ho c (or_introl eq_refl) Em _ _ _ _ _ H1) as Ho1.
    destruct r1 as [[t|]| | | |];
      try (match type of H2 with _ /\ _ =>
             destruct H2 as [-> ->]; specialize (Ho1 (verify_match_regular _ _)); destruct Ho1; easy end).
    + injection H2 as <- <-. destruct Ho1 as (l & m & m' & Hl & L & Hm & Hv & Hw).
      apply verify_match_true in Hv. exists 0, c, l. rewrite Nat.add_0_r. easy.
    + now apply (IH' s1).
Qed.

(** One turn of the loop: the child's position, the argument node and the target it made. *)
Record step := Step { st_child : nat; st_leaf : node; st_target : target }.

Inductive steps (self : node) (parents : list node) : list token -> list bool -> list step -> Prop :=
| steps_nil seen : steps self parents [] seen []
| steps_cons ts seen rest more i c l t :
    ts <> [] -> nth_error (n_children self) i = Some c -> is_mode c = false -> In l (below c) -> leaf l ->
    NodeProofs.matched l (self :: parents) ts t rest ->
    (has_multi_stage l = true \/ nth i seen false = false) ->
    steps self parents rest (upd seen i true) more ->
    steps self parents ts seen (Step i l t :: more).

(** The sub-targets that a step adds to the mode's target. *)
Definition step_subs (st : step) : list target :=
  match tg_subs (st_target st) with [] => [st_target st] | ss => ss end.

Definition exc_free {A} (r : res A) : Prop := r <> OutOfFuel /\ r <> Exited.

Lemma add_subs_app t x y : add_subs (add_subs t x) y = add_subs t (x ++ y).
Proof. destruct t. cbn. now rewrite app_assoc. Qed.

Lemma add_subs_nil t : add_subs t [] = t.
Proof. destruct t. cbn. now rewrite app_nil_r. Qed.

Lemma try_name_form tok p nm above bst :
  (exists b', try_name tok p nm above bst = Ok b') \/ try_name tok p nm above bst = UB.
Proof. unfold try_name. destruct nm; [|eauto]. destruct (levenshtein_distance _ _); eauto. Qed.

Lemma closest_visit_form tok np bst :
  (exists b', closest_visit tok np bst = Ok b') \/ closest_visit tok np bst = UB.
Proof.
  destruct np as [n parents]. unfold closest_visit. destruct parents as [|p ps]; [eauto|].
  destruct (is_runtime_disabled _); [eauto|].
  destruct (try_name_form tok PLong (long_name n) (removelast (p :: ps)) bst) as [[b1 ->]| ->];
    cbn [rbind]; [|now right].
  destruct (try_name_form tok PShort (short_name n) (removelast (p :: ps)) b1) as [[b2 ->]| ->];
    cbn [rbind]; [|now right].
  apply try_name_form.
Qed.

Lemma closest_fold_form tok l : forall bst,
  (exists b', closest_fold tok l bst = Ok b') \/ closest_fold tok l bst = UB.
Proof.
  induction l as [|np l IH]; intros bst; cbn [closest_fold]; [eauto|].
  destruct (closest_visit_form tok np bst) as [[b1 ->]| ->]; cbn [rbind]; [apply IH|now right].
Qed.

(** The outcome for an unknown argument. *)
Lemma unknown_form A n t :
  (exists c ts, @unknown_argument_exception A n t = Throw (EML c ts)) \/ @unknown_argument_exception A n t = UB.
Proof.
  unfold unknown_argument_exception, closest_matching_child_node.
  destruct (closest_fold_form (t_name (match t_prefix t with PNone => get_token_type (t_name t) | _ => t end))
                              (preorder n []) None) as [[b1 ->]| ->]; cbn [rbind]; [|now right].
  left. destruct b1 as [[d ts]|]; cbn; [|eauto]. destruct ts; eauto.
Qed.

Lemma mode_loop_inv self parents fuel f : forall tg seen s s' r,
  (forall c, In c (n_children self) -> is_mode c = false ->
             offers c (self :: parents) (pre_parse f c (self :: parents))) ->
  mode_loop fuel self (map (fun c => (c, pre_parse f c (self :: parents))) (n_children self)) tg seen s = (s', r) ->
  match r with
  | Ok (Some tg') =>
      p_args s' = []
      /\ exists sts, steps self parents (p_args s) seen sts /\ tg' = add_subs tg (flat_map step_subs sts)
  | Ok None => False
  | OutOfFuel => fits (p_args s) -> fuel < args_weight (p_args s)
  | Exited => False
  | _ => True
  end.
Proof.
  induction fuel as [|fuel IH]; intros tg seen s s' r Ho H; cbn [mode_loop] in H.
  - destruct (p_args s) as [|t0 ts] eqn:Ea; injection H as <- <-.
    + split; [easy|]. exists []. split; [constructor|]. cbn. now rewrite add_subs_nil.
    + intros _. rewrite args_weight_cons. pose proof (token_weight_pos t0). lia.
  - destruct (p_args s) as [|t0 ts] eqn:Ea.
    + injection H as <- <-. split; [easy|]. exists []. split; [constructor|]. cbn. now rewrite add_subs_nil.
    + apply mbind_inv in H as (s1 & r1 & H1 & H2).
      apply (mode_try_offers (self :: parents)) in H1; auto. rewrite Ea in H1.
      destruct r1 as [[[j t]|]| | | |];
        try (match type of H2 with _ /\ _ => destruct H2 as [-> ->]; destruct H1; easy end).
      * destruct H1 as (k & c & l & -> & Hk & Hm & Hl & L & Hma & Hseen & Hw). cbn [Nat.add] in *.
        apply IH in H2; auto. destruct r as [[tg'|]| | | |]; auto.
        -- destruct H2 as (Hs' & sts & Hst & ->). split; [easy|].
           exists (Step k l t :: sts). split.
           ++ econstructor; eauto. easy.
           ++ cbn [flat_map]. now rewrite <- add_subs_app.
        -- intros Hf. assert (Hw' := Hw Hf). assert (t0 :: ts <> []) by easy. specialize (Hw' H).
           assert (fits (p_args s1)) by (unfold fits in *; lia). specialize (H2 H0). lia.
      * destruct (forallb _ seen).
        -- injection H2 as <- <-. easy.
        -- destruct (unknown_form (option target) self t0) as [(c & ts' & Eu)|Eu]; rewrite Eu in H2;
             injection H2 as <- <-; easy.
Qed.

(** ** Modes *)

Lemma named_progress n parents pt v s s' t :
  leaf_ok n -> is_named n = true -> node_pre_parse n parents pt v s = (s', Ok (Some t)) ->
  args_weight (p_args s') < args_weight (p_args s).
Proof.
  intros L En H. apply node_matched in H; auto. destruct H as [_ _ (label & vals & Ht & _)].
  pose proof (takes_weight _ _ _ _ _ L Ht) as [_ Hw].
  assert (label <> None) by (inversion Ht; congruence). specialize (Hw H). lia.
Qed.

Lemma first_match_modes {P : pst -> Prop} {Q : res (option target) -> Prop} (g : node -> child_pp) pt v cs :
  Q (Ok None) ->
  (forall c s s' r, In c cs -> P s -> g c pt v s = (s', r) -> Q r /\ (r = Ok None -> P s')) ->
  forall s s' r, P s -> first_match (map g cs) pt v s = (s', r) -> Q r /\ (r = Ok None -> P s').
Proof.
  intros Q0. induction cs as [|c cs IH]; intros Hg s s' r HP H.
  - cbn in H. injection H as <- <-. auto.
  - cbn [map first_match] in H. apply mbind_inv in H as (s1 & r1 & H1 & H2).
    apply Hg in H1 as [HQ HP1]; [|now left|easy].
    destruct r1 as [[t|]| | | |]; try (match type of H2 with _ /\ _ => destruct H2 as [-> ->]; now split end).
    + injection H2 as <- <-. now split.
    + apply (IH (fun c s s' r Hc => Hg c s s' r (or_intror Hc)) s1); auto.
Qed.

Lemma filter_modes (g : node -> child_pp) cs :
  map snd (filter (fun nc => is_mode (fst nc)) (map (fun c => (c, g c)) cs)) = map g (filter is_mode cs).
Proof.
  induction cs as [|c cs IH]; [easy|]. cbn [map filter fst]. destruct (is_mode c); cbn [map snd]; now rewrite IH.
Qed.

Lemma mode_children_offers f n tp parents : sub_ok n tp -> is_mode n = true ->
  forall c, In c (n_children n) -> is_mode c = false ->
            offers c parents (pre_parse f c parents).
Proof.
  intros Hs Hm c Hc Hcm. apply (pre_parse_offers f c (n :: tp)); auto; [now apply sub_ok_child|].
  assert (Hk := sub_ok_self _ _ (sub_ok_child _ _ _ Hs Hc)). apply node_ok_policies in Hk as (Hk & _ & _).
  unfold node_static in Hk. unfold is_root. destruct (n_kind c); auto.
  rewrite !andb_true_iff in Hk. destruct Hk as [_ Hk]. discriminate.
Qed.

(** Fuel is never the reason to stop, and a mode that does not match leaves the tokens alone. *)
Lemma pre_parse_mode_fuel f n : forall tp parents pt s s' r,
  sub_ok n tp -> is_mode n = true -> fits (p_args s) -> args_weight (p_args s) <= f ->
  pre_parse f n parents pt always_true s = (s', r) ->
  (r <> OutOfFuel /\ r <> Exited) /\ (r = Ok None -> p_args s' = p_args s).
Proof.
  induction n as [k id ty pols cs IH] using node_ind'. intros tp parents pt s s' r Hs Hm Hf Hw H.
  set (n := Node k id ty pols cs) in *. destruct k; try discriminate.
  pose proof (sub_ok_self _ _ Hs) as Hok. pose proof (node_ok_leaf _ _ Hok) as L.
  set (g := fun c => pre_parse f c (n :: parents)) in *.
  change (pre_parse f n parents)
    with (mode_pre_parse f n parents (map (fun c => (c, g c)) (n_children n))) in H.
  assert (Hbody : forall s s' r, fits (p_args s) -> args_weight (p_args s) <= f ->
            (ok <- run_validator always_true n ;;
             if negb ok then mret None
             else mode_loop f n (map (fun c => (c, g c)) (n_children n)) (Target n parents [] [])
                            (map (fun _ => false) (map (fun c => (c, g c)) (n_children n))))%m s = (s', r) ->
            (r <> OutOfFuel /\ r <> Exited) /\ r <> Ok None).
  { clear s s' r Hf Hw H. intros s s' r Hf Hw H. apply mbind_inv in H as (s1 & r1 & H1 & H2).
    cbn in H1. injection H1 as <- <-. cbn [negb] in H2.
    apply mode_loop_inv in H2; [|now apply (mode_children_offers f n tp)]. cbn [p_args] in H2.
    destruct r as [[?|]| | | |]; try easy.
    specialize (H2 Hf). lia. }
  unfold mode_pre_parse in H. destruct (is_anonymous n) eqn:Ea.
  - apply Hbody in H; auto. tauto.
  - assert (En : is_named n = true).
    { unfold is_named. unfold is_anonymous in Ea. apply negb_false_iff in Ea. rewrite Ea. apply orb_true_r. }
    apply mbind_inv in H as (s1 & r1 & H1 & H2).
    assert (Hreg : forall c m, regular (snd (always_true c m))) by (split; easy).
    pose proof (node_pre_parse_regular _ _ _ _ _ _ _ Hreg H1) as [Hr1 Hr2].
    destruct r1 as [[t0|]| | | |]; try (match type of H2 with _ /\ _ => destruct H2 as [-> ->] end);
      try easy.
    + pose proof (named_progress _ _ _ _ _ _ _ L En H1) as Hp.
      assert (Hf1 : fits (p_args s1)) by (unfold fits in *; lia).
      assert (Hw1 : args_weight (p_args s1) <= f) by lia.
      destruct (p_args s1) as [|t1 ts1] eqn:E1.
      * apply Hbody in H2; [|rewrite E1; easy|rewrite E1; easy]. tauto.
      * apply mbind_inv in H2 as (s2 & r2 & H2 & H3). rewrite filter_modes in H2.
        apply (@first_match_modes (fun s => p_args s = t1 :: ts1) (fun r => r <> OutOfFuel /\ r <> Exited)) in H2;
          [|easy| |easy].
        -- destruct H2 as [Hq2 Hn2].
           destruct r2 as [[t2|]| | | |]; try (match type of H3 with _ /\ _ => destruct H3 as [-> ->] end);
             try (split; [now split|discriminate]).
           ++ injection H3 as <- <-. split; [easy|discriminate].
           ++ specialize (Hn2 eq_refl). apply Hbody in H3; [tauto|now rewrite Hn2|now rewrite Hn2].
        -- intros c s3 s4 r4 Hc HP Hg. apply filter_In in Hc as [Hc Hcm].
           rewrite Forall_forall in IH.
           destruct (IH c Hc (n :: tp) (n :: parents) pt s3 s4 r4) as [Hq Hnn]; auto.
           ++ now apply sub_ok_child.
           ++ now rewrite HP.
           ++ now rewrite HP.
           ++ split; [easy|]. intros E. rewrite (Hnn E). easy.
    + injection H2 as <- <-. split; [easy|]. intros _. now apply node_pre_parse_inv in H1.
Qed.

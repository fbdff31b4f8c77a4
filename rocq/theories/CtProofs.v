(** Lemmas for C77. *)
From Verif Require Import Bytes Token Result CodePoint Utf8 Tree PreParse Validator TreeProofs CtString SpecCt.
Local Open Scope list_scope.

(** ** Texts *)

Lemma text_cons c s : ct_text (c :: s) = if Ascii.eqb c nul then [] else c :: ct_text s.
Proof. unfold ct_text. cbn [ct_size]. destruct (Ascii.eqb c nul); reflexivity. Qed.

Lemma text_size s : List.length (ct_text s) = ct_size s.
Proof. induction s as [|c s IH]; [reflexivity|]. rewrite text_cons. cbn [ct_size]. destruct (Ascii.eqb c nul); cbn [List.length]; congruence. Qed.

Lemma text_holds s : holds s (ct_text s).
Proof.
  induction s as [|c s [H1 H2]].
  - split; [intros []|now left].
  - rewrite text_cons. destruct (Ascii.eqb c nul) eqn:E.
    + apply Ascii.eqb_eq in E. subst c. split; [intros []|]. right. now exists s.
    + apply Ascii.eqb_neq in E. split.
      * intros [->|H]; [now apply E|now apply H1].
      * destruct H2 as [H2|[rest H2]]; [left|right; exists rest]; cbn [app]; congruence.
Qed.

Lemma text_unique s t : holds s t -> ct_text s = t.
Proof.
  revert t. induction s as [|c s IH]; intros t [H1 [H2|[rest H2]]].
  - now subst.
  - destruct t; discriminate H2.
  - subst t. rewrite text_cons. destruct (Ascii.eqb c nul) eqn:E.
    + apply Ascii.eqb_eq in E. destruct H1. left. exact E.
    + f_equal. apply IH. split; [intros H; apply H1; now right|now left].
  - destruct t as [|d t].
    + cbn [app] in H2. injection H2 as -> ->. now rewrite text_cons.
    + cbn [app] in H2. injection H2 as -> ->. rewrite text_cons. destruct (Ascii.eqb d nul) eqn:E.
      * apply Ascii.eqb_eq in E. destruct H1. left. exact E.
      * f_equal. apply IH. split; [intros H; apply H1; now right|right; now exists rest].
Qed.

Lemma text_literal s : nul_free s -> ct_text (from_literal s) = s.
Proof. intros H. apply text_unique. split; [exact H|]. right. now exists []. Qed.
Lemma text_array s : nul_free s -> ct_text (from_array s) = s.
Proof. intros H. apply text_unique. split; [exact H|now left]. Qed.

Lemma text_nul_free s : nul_free (ct_text s). Proof. apply text_holds. Qed.

Lemma nul_free_app s t : nul_free s -> nul_free t -> nul_free (s ++ t).
Proof. intros H1 H2 H. apply in_app_or in H as [H|H]; [now apply H1|now apply H2]. Qed.

Lemma join_literal s t : ct_join s t = from_literal (ct_text s ++ ct_text t).
Proof. unfold ct_join, from_literal. now rewrite app_assoc. Qed.

Lemma text_join s t : ct_text (ct_join s t) = ct_text s ++ ct_text t.
Proof. rewrite join_literal. apply text_literal, nul_free_app; apply text_nul_free. Qed.

Lemma nth_text s i : i < ct_size s -> nth i s nul = nth i (ct_text s) nul.
Proof.
  revert i. induction s as [|c s IH]; intros i H; [reflexivity|]. rewrite text_cons. cbn [ct_size] in H.
  destruct (Ascii.eqb c nul); [lia|]. destruct i as [|i]; [reflexivity|]. cbn [nth]. apply IH. lia.
Qed.

Lemma part_nth count : forall pos (s : bytes), pos + count <= List.length s ->
  map (fun i => nth (pos + i) s nul) (seq 0 count) = part pos count s.
Proof.
  induction count as [|k IH]; intros pos s H; [reflexivity|]. cbn [seq map]. unfold part. rewrite Nat.add_0_r.
  assert (Hs : skipn pos s = nth pos s nul :: skipn (S pos) s).
  { clear IH. revert s H. induction pos as [|p IHp]; intros [|c s] H; cbn [List.length] in H; try lia; [reflexivity|].
    cbn [nth]. change (skipn (S p) (c :: s)) with (skipn p s). change (skipn (S (S p)) (c :: s)) with (skipn (S p) s). apply IHp. lia. }
  rewrite Hs. cbn [firstn]. f_equal. change (firstn k (skipn (S pos) s)) with (part (S pos) k s).
  rewrite <- IH by lia. rewrite <- seq_shift, map_map. apply map_ext. intros i. f_equal. lia.
Qed.

Lemma substr_text pos count s r :
  ct_substr pos count s = Some r <->
  pos + count < List.length (ct_text s) /\ r = from_literal (part pos count (ct_text s)).
Proof.
  unfold ct_substr. rewrite text_size. destruct (Nat.ltb (pos + count) (ct_size s)) eqn:E.
  - apply Nat.ltb_lt in E. rewrite <- part_nth by (rewrite text_size; lia).
    replace (map (fun i => nth (pos + i) s nul) (seq 0 count)) with (map (fun i => nth (pos + i) (ct_text s) nul) (seq 0 count)).
    + unfold from_literal. split; [intros H; split; [exact E|congruence]|intros [_ ->]; reflexivity].
    + apply map_ext_in. intros i Hi. apply in_seq in Hi. symmetry. apply nth_text. lia.
  - apply Nat.ltb_ge in E. split; [discriminate|lia].
Qed.

Lemma part_nul_free pos count s : nul_free s -> nul_free (part pos count s).
Proof.
  intros H Hin. apply H. unfold part in Hin. rewrite <- (firstn_skipn pos s). apply in_or_app. right.
  rewrite <- (firstn_skipn count (skipn pos s)). apply in_or_app. now left.
Qed.

Lemma sequence_repeat n c : ct_sequence n c = repeat c n.
Proof. unfold ct_sequence. generalize 0. induction n as [|n IH]; intros k; [reflexivity|]. cbn [seq map repeat]. now rewrite IH. Qed.

(** ** Packs *)

Lemma filter_nul s : nul_free s -> filter (fun c => negb (Ascii.eqb c nul)) s = s.
Proof.
  induction s as [|c s IH]; intros H; [reflexivity|]. cbn [filter]. destruct (Ascii.eqb c nul) eqn:E.
  - apply Ascii.eqb_eq in E. destruct H. left. exact E.
  - cbn [negb]. f_equal. apply IH. intros Hin. apply H. now right.
Qed.

Lemma stripped_text limit : forall s, nul_free s ->
  filter (fun c => negb (Ascii.eqb c nul)) (map (pack_get s) (seq 0 limit)) = firstn limit s.
Proof.
  induction limit as [|k IH]; intros s H; [reflexivity|]. cbn [seq map]. rewrite <- seq_shift, map_map.
  destruct s as [|c s].
  - cbn [firstn]. replace (map (fun x => pack_get [] (S x)) (seq 0 k)) with (map (pack_get []) (seq 0 k)).
    + cbn [filter pack_get nth]. change (Ascii.eqb nul nul) with true. cbn [negb]. rewrite IH by exact H. now destruct k.
    + apply map_ext. intros [|i]; reflexivity.
  - cbn [firstn]. change (pack_get (c :: s) 0) with c. cbn [filter]. destruct (Ascii.eqb c nul) eqn:E.
    + apply Ascii.eqb_eq in E. destruct H. left. exact E.
    + cbn [negb]. f_equal. rewrite <- IH by (intros Hin; apply H; now right). reflexivity.
Qed.

Lemma pack_text limit s p : nul_free s ->
  pack_of limit s = Some p <-> p = s /\ List.length s < limit.
Proof.
  intros H. unfold pack_of. rewrite stripped_text by exact H. cbv zeta. rewrite firstn_length.
  destruct (Nat.ltb (Nat.min limit (List.length s)) limit) eqn:E.
  - apply Nat.ltb_lt in E. rewrite firstn_all2 by lia. split; [intros Hp; split; [congruence|lia]|intros [-> _]; reflexivity].
  - apply Nat.ltb_ge in E. split; [discriminate|lia].
Qed.

Lemma pack_literal limit s : nul_free s -> pack_of limit (s ++ [nul]) = pack_of limit s.
Proof.
  intros _. unfold pack_of. replace (map (pack_get (s ++ [nul])) (seq 0 limit)) with (map (pack_get s) (seq 0 limit)); [reflexivity|].
  apply map_ext. intros i. unfold pack_get. destruct (Nat.lt_ge_cases i (List.length s)) as [H|H].
  - now rewrite app_nth1.
  - rewrite app_nth2, (nth_overflow s) by exact H. destruct (i - List.length s) as [|[|k]]; reflexivity.
Qed.

(** ** Made-up names *)

Lemma commas_cut l display : l <> [] ->
  removelast (display ++ flat_map (fun x => x ++ b ",") l) = display ++ commas l.
Proof.
  intros H. rewrite removelast_app.
  2:{ destruct l as [|[|c x] l]; [congruence|discriminate|discriminate]. }
  f_equal. induction l as [|x [|y l] IH]; [congruence| |].
  - cbn [flat_map commas]. rewrite app_nil_r. now rewrite removelast_app, app_nil_r by discriminate.
  - transitivity (removelast ((x ++ b ",") ++ flat_map (fun x0 => x0 ++ b ",") (y :: l))); [reflexivity|].
    rewrite removelast_app by (cbn [flat_map]; destruct y; discriminate). rewrite IH by discriminate.
    change (commas (x :: y :: l)) with (x ++ b "," ++ commas (y :: l)). now rewrite <- app_assoc.
Qed.

Lemma fold_text l : forall s, ct_text (fold_left ct_join l s) = ct_text s ++ flat_map ct_text l.
Proof.
  induction l as [|x l IH]; intros s; [now rewrite app_nil_r|]. cbn [fold_left flat_map]. now rewrite IH, text_join, <- app_assoc.
Qed.

Lemma removelast_part (s : bytes) : part 0 (List.length s - 1) s = removelast s.
Proof. unfold part. cbn [skipn]. rewrite removelast_firstn_len. f_equal. lia. Qed.

Lemma flat_map_map {A B C} (f : A -> B) (g : B -> list C) l : flat_map g (map f l) = flat_map (fun x => g (f x)) l.
Proof. induction l as [|x l IH]; [reflexivity|]. cbn [map flat_map]. now rewrite IH. Qed.

Lemma flat_map_ext' {A B} (f g : A -> list B) l : Forall (fun x => f x = g x) l -> flat_map f l = flat_map g l.
Proof. induction 1 as [|x l H _ IH]; [reflexivity|]. cbn [flat_map]. now rewrite H, IH. Qed.

Lemma group20 display names :
  names <> [] -> Forall (fun pn => nul_free (fst pn) /\ nul_free (snd pn)) names ->
  group_name20 display names = Some (from_literal (ct_text display ++ commas (map (fun pn => fst pn ++ snd pn) names))).
Proof.
  intros Hne Hnul. unfold group_name20. cbv zeta.
  match goal with |- ct_substr 0 _ ?a = _ => set (all := a) end.
  assert (Et : ct_text all = ct_text display ++ flat_map (fun x => x ++ b ",") (map (fun pn => fst pn ++ snd pn) names)).
  { unfold all. rewrite text_join, fold_text. f_equal. cbn [app].
    change (ct_text no_string) with (@nil ascii). cbn [app]. rewrite !flat_map_map. apply flat_map_ext'.
    eapply Forall_impl; [|exact Hnul]. intros [p n] [H1 H2]. cbn [fst snd] in *.
    rewrite !text_join, !text_array by assumption. reflexivity. }
  apply substr_text. rewrite <- text_size, Et. split.
  - rewrite app_length. destruct names as [|[p n] names]; [congruence|]. cbn [map flat_map].
    rewrite !app_length. cbn [b list_ascii_of_string List.length]. lia.
  - f_equal. rewrite removelast_part. symmetry. apply commas_cut. destruct names; [congruence|discriminate].
Qed.

Lemma group17 limit display names :
  names <> [] ->
  Forall (fun pn => nul_free (fst pn) /\ nul_free (snd pn) /\ List.length (fst pn) < limit /\ List.length (snd pn) < limit) names ->
  group_name17 limit display names = Some (display ++ commas (map (fun pn => fst pn ++ snd pn) names)).
Proof.
  intros Hne Hn. unfold group_name17. cbv zeta.
  assert (Eb : map (fun pn => match pack_of limit (fst pn), pack_of limit (snd pn) with
                              | Some p, Some n => Some (pack_join p n)
                              | _, _ => None
                              end) names = map (fun pn => Some (fst pn ++ snd pn)) names).
  { apply map_ext_in. intros [p n] Hin. rewrite Forall_forall in Hn. destruct (Hn _ Hin) as (H1 & H2 & H3 & H4).
    cbn [fst snd] in *.
    rewrite (proj2 (pack_text limit p p H1)) by (split; [reflexivity|exact H3]).
    rewrite (proj2 (pack_text limit n n H2)) by (split; [reflexivity|exact H4]). reflexivity. }
  rewrite Eb. clear Eb Hn.
  replace (existsb _ _) with false.
  2:{ symmetry. induction names as [|x l IH]; [reflexivity|]. cbn [map existsb]. destruct l; [reflexivity|]. apply IH. discriminate. }
  f_equal. rewrite map_map.
  replace (List.concat (map (fun x => (fst x ++ snd x) ++ [","%char]) names))
    with (flat_map (fun x => x ++ b ",") (map (fun pn => fst pn ++ snd pn) names)).
  - rewrite <- commas_cut by (destruct names; [congruence|discriminate]).
    rewrite removelast_firstn_len. f_equal. lia.
  - rewrite flat_map_map, flat_map_concat_map. reflexivity.
Qed.

(** ** Other names *)

Section Names.
Variable f : bytes -> bytes.
Hypothesis Hf : forall x y, f x = f y -> x = y.
Local Notation R := (named f).
Local Notation P := (pol_named f).

Lemma na_pols n : n_pols (R n) = map P (n_pols n). Proof. now destruct n. Qed.
Lemma na_kind n : n_kind (R n) = n_kind n. Proof. now destruct n. Qed.
Lemma na_vty n : n_ty (R n) = n_ty n. Proof. now destruct n. Qed.
Lemma na_id n : n_id (R n) = n_id n. Proof. now destruct n. Qed.
Lemma na_children n : n_children (R n) = map R (n_children n). Proof. now destruct n. Qed.
Lemma na_tag p : pol_tag (P p) = pol_tag p. Proof. now destruct p. Qed.

Lemma na_beq x y : beq (f x) (f y) = beq x y.
Proof.
  destruct (beq x y) eqn:E.
  - apply beq_eq in E. subst. apply beq_refl.
  - destruct (beq (f x) (f y)) eqn:E'; [|reflexivity]. apply beq_eq, Hf in E'. subst. now rewrite beq_refl in E.
Qed.

Lemma na_flat {A B} (g g' : A -> list B) (h : B -> B) (k : A -> A) l :
  Forall (fun c => g' (k c) = map h (g c)) l -> flat_map g' (map k l) = map h (flat_map g l).
Proof. induction 1 as [|c l Hc _ IH]; [reflexivity|]. cbn [map flat_map]. now rewrite map_app, Hc, IH. Qed.

Lemma na_exists_pol (g : policy -> bool) n : (forall p, g (P p) = g p) -> existsb g (n_pols (R n)) = existsb g (n_pols n).
Proof. intros H. rewrite na_pols. induction (n_pols n) as [|p l IH]; [reflexivity|]. cbn [map existsb]. now rewrite H, IH. Qed.
Lemma na_filter_pol (g : policy -> bool) l : (forall p, g (P p) = g p) -> filter g (map P l) = map P (filter g l).
Proof. intros H. induction l as [|p l IH]; [reflexivity|]. cbn [map filter]. rewrite H. destruct (g p); cbn [map]; now rewrite IH. Qed.
Lemma na_first_pol {A} (g : policy -> option A) (h : A -> A) n :
  (forall p, g (P p) = option_map h (g p)) -> first_some g (n_pols (R n)) = option_map h (first_some g (n_pols n)).
Proof.
  intros H. rewrite na_pols. induction (n_pols n) as [|p l IH]; [reflexivity|]. cbn [map first_some]. rewrite H.
  destruct (g p); [reflexivity|exact IH].
Qed.
Lemma na_first_same {A} (g : policy -> option A) n :
  (forall p, g (P p) = g p) -> first_some g (n_pols (R n)) = first_some g (n_pols n).
Proof.
  intros H. rewrite (na_first_pol g (fun x => x)); [now destruct (first_some g (n_pols n))|]. intros p. rewrite H. now destruct (g p).
Qed.

Lemma na_has_tag t n : has_tag t (R n) = has_tag t n.
Proof. apply na_exists_pol. intros p. now rewrite na_tag. Qed.
Lemma na_must_not ts n : must_not_have ts (R n) = must_not_have ts n.
Proof. unfold must_not_have. induction ts as [|t ts IH]; [reflexivity|]. cbn [forallb]. now rewrite na_has_tag, IH. Qed.
Lemma na_is_some {A} (h : A -> A) o : is_some (option_map h o) = is_some o. Proof. now destruct o. Qed.
Lemma na_lname n : is_some (long_name (R n)) = is_some (long_name n).
Proof. unfold long_name. rewrite (na_first_pol _ f) by (now intros []). apply na_is_some. Qed.
Lemma na_sname n : is_some (short_name (R n)) = is_some (short_name n).
Proof. unfold short_name. rewrite (na_first_pol _ f) by (now intros []). apply na_is_some. Qed.
Lemma na_nname n : is_some (none_name (R n)) = is_some (none_name n).
Proof. unfold none_name. rewrite (na_first_pol _ f) by (now intros []). apply na_is_some. Qed.
Lemma na_dname n : display_name (R n) = display_name n.
Proof. apply na_first_same. now intros []. Qed.
Lemma na_ename n : error_name (R n) = error_name n.
Proof. apply na_first_same. now intros []. Qed.
Lemma na_count n : count_bounds (R n) = count_bounds n.
Proof. apply na_first_same. now intros []. Qed.
Lemma na_marker n : token_end_marker (R n) = token_end_marker n.
Proof. apply na_first_same. now intros []. Qed.
Lemma na_stage n : has_multi_stage (R n) = has_multi_stage n.
Proof. unfold has_multi_stage, multi_stage. now rewrite na_first_same by (now intros []). Qed.
Lemma na_no_result n : no_result_value (R n) = no_result_value n.
Proof. apply na_exists_pol. now intros []. Qed.
Lemma na_router n : has_router (R n) = has_router n.
Proof. apply na_exists_pol. now intros []. Qed.
Lemma na_missing n : has_missing_phase (R n) = has_missing_phase n.
Proof. apply na_exists_pol. now intros []. Qed.
Lemma na_pre n : has_pre_parse_phase (R n) = has_pre_parse_phase n.
Proof. apply na_exists_pol. now intros []. Qed.
Lemma na_no_children n : no_children (R n) = no_children n.
Proof. unfold no_children. rewrite na_children. now destruct (n_children n). Qed.
Lemma na_mode n : is_mode (R n) = is_mode n. Proof. unfold is_mode. now rewrite na_kind. Qed.
Lemma na_anonymous n : is_anonymous (R n) = is_anonymous n. Proof. unfold is_anonymous. now rewrite na_nname. Qed.
Lemma na_list_like n : is_list_like (R n) = is_list_like n.
Proof. unfold is_list_like. now rewrite na_count, na_stage, na_marker. Qed.
Lemma na_root n : is_root (R n) = is_root n. Proof. unfold is_root. now rewrite na_kind. Qed.

Lemma na_find g l : (forall n, g (R n) = g n) -> find g (map R l) = option_map R (find g l).
Proof. intros H. induction l as [|x l IH]; [reflexivity|]. cbn [map find]. rewrite H. now destruct (g x). Qed.
Lemma na_forallb (g : node -> bool) l : (forall n, g (R n) = g n) -> forallb g (map R l) = forallb g l.
Proof. intros H. induction l as [|x l IH]; [reflexivity|]. cbn [map forallb]. now rewrite H, IH. Qed.
Lemma na_existsb (g : node -> bool) l : (forall n, g (R n) = g n) -> existsb g (map R l) = existsb g l.
Proof. intros H. induction l as [|x l IH]; [reflexivity|]. cbn [map existsb]. now rewrite H, IH. Qed.
Lemma na_filter (g : node -> bool) l : (forall n, g (R n) = g n) -> filter g (map R l) = map R (filter g l).
Proof. intros H. induction l as [|x l IH]; [reflexivity|]. cbn [map filter]. rewrite H. destruct (g x); cbn [map]; now rewrite IH. Qed.
Lemma na_at_end (g : node -> bool) l : (forall n, g (R n) = g n) -> at_end g (map R l) = at_end g l.
Proof. intros H. induction l as [|x l IH]; [reflexivity|]. cbn [map at_end]. rewrite H, na_forallb by exact H. now rewrite IH. Qed.
Lemma na_list_last l : list_like_last (map R l) = list_like_last l.
Proof.
  induction l as [|x l IH]; [reflexivity|]. destruct l as [|y l]; [reflexivity|].
  change (negb (is_list_like (R x)) && list_like_last (map R (y :: l)) = negb (is_list_like x) && list_like_last (y :: l)).
  now rewrite IH, na_list_like.
Qed.
Lemma na_parent_is (g : node -> bool) l : (forall n, g (R n) = g n) -> parent_is g (map R l) = parent_is g l.
Proof. intros H. destruct l; [reflexivity|apply H]. Qed.
Lemma na_child_must_not t n : child_must_not_have t (R n) = child_must_not_have t n.
Proof.
  unfold child_must_not_have. rewrite na_children. destruct (n_children n) as [|c cs]; [reflexivity|]. cbn [map].
  change (R c :: map R cs) with (map R (c :: cs)). rewrite na_forallb; [reflexivity|]. apply na_has_tag.
Qed.

Lemma na_arg_base n : arg_base_static (R n) = arg_base_static n.
Proof.
  unfold arg_base_static, has_lname, has_sname, has_nname, has_dname.
  rewrite na_no_children, na_count, na_vty, na_lname, na_sname, na_nname, na_dname, na_pols, na_filter_pol by (now intros []).
  now rewrite map_length.
Qed.

Lemma na_one_of n : one_of_base_static (R n) = one_of_base_static n.
Proof.
  unfold one_of_base_static, has_lname, has_sname, has_nname.
  rewrite na_children, map_length, na_lname, na_sname, na_nname, !na_has_tag, na_missing, na_pre, na_router.
  rewrite na_existsb; [reflexivity|]. intros c. now rewrite na_no_result.
Qed.

Lemma na_node_static n ps : node_static (R n) (map R ps) = node_static n ps.
Proof.
  unfold node_static. rewrite na_kind. unfold has_lname, has_sname, has_nname, has_dname.
  destruct (n_kind n) as [| [| | |] | | | | | |];
    rewrite ?na_arg_base, ?na_one_of, ?na_no_children, ?na_lname, ?na_sname, ?na_nname, ?na_dname, ?na_ename, ?na_must_not,
      ?na_has_tag, ?na_count, ?na_router, ?na_missing, ?na_pre, ?na_anonymous, ?na_children, ?map_length;
    repeat match goal with
           | |- context [forallb ?g (map R ?l)] =>
               rewrite (na_forallb g l) by (intros c; rewrite ?na_stage, ?na_no_result, ?na_has_tag, ?na_mode, ?na_router; reflexivity)
           end; try reflexivity.
  now destruct ps.
Qed.

Lemma na_node_rules n ps : node_rules (R n) (map R ps) = node_rules n ps.
Proof.
  unfold node_rules, min_1_if_required. rewrite na_kind. destruct (n_kind n) as [| [| | |] | | | | | |];
    rewrite ?na_child_must_not, ?na_must_not, ?na_has_tag, ?na_count, ?na_children, ?na_list_last;
    repeat match goal with
           | |- context [existsb ?g (map R ?l)] =>
               rewrite (na_existsb g l) by (intros c; unfold is_anonymous_mode; rewrite ?na_mode, ?na_anonymous; reflexivity)
           | |- context [at_end ?g (map R ?l)] => rewrite (na_at_end g l) by (intros c; unfold is_mode; rewrite ?na_kind; reflexivity)
           | |- context [filter ?g (map R ?l)] =>
               rewrite (na_filter g l) by (intros c; unfold is_anonymous_mode; rewrite ?na_mode, ?na_anonymous; reflexivity)
           | |- context [parent_is ?g (map R ?l)] =>
               rewrite (na_parent_is g l) by (intros c; unfold is_root, is_mode; rewrite ?na_kind; reflexivity)
           end; rewrite ?map_length; try reflexivity.
Qed.

Definition na_pair (np : node * list node) := (R (fst np), map R (snd np)).
Lemma na_preorder n : forall above, preorder (R n) (map R above) = map na_pair (preorder n above).
Proof.
  induction n as [k i t ps cs IH] using node_ind'. intros above. cbn [named preorder map]. f_equal.
  change (Node k i t (map P ps) (map R cs)) with (R (Node k i t ps cs)).
  change (R (Node k i t ps cs) :: map R above) with (map R (Node k i t ps cs :: above)).
  apply (na_flat _ _ na_pair R). rewrite Forall_forall in *. intros c Hc. now apply IH.
Qed.

Lemma na_walk start n : forall above, walk (R start) (R n) (map R above) = map (map R) (walk start n above).
Proof.
  induction n as [k i t ps cs IH] using node_ind'. intros above.
  assert (E : is_mode (R (Node k i t ps cs)) && negb (N.eqb (n_id (R (Node k i t ps cs))) (n_id (R start)))
              = is_mode (Node k i t ps cs) && negb (N.eqb (n_id (Node k i t ps cs)) (n_id start))).
  { now rewrite na_mode, !na_id. }
  revert E. cbn [named walk]. intros ->. destruct (is_mode (Node k i t ps cs) && _)%bool; [reflexivity|]. cbn [map]. f_equal.
  change (Node k i t (map P ps) (map R cs)) with (R (Node k i t ps cs)).
  change (R (Node k i t ps cs) :: map R above) with (map R (Node k i t ps cs :: above)).
  apply (na_flat _ _ (map R) R). rewrite Forall_forall in *. intros c Hc. now apply IH.
Qed.

Lemma na_nearest l : nearest_mode_like (map R l) = option_map R (nearest_mode_like l).
Proof. apply na_find, na_router. Qed.

Lemma na_nameref r p : nameref_is (ref_named f r) (P p) = nameref_is r p.
Proof. destruct r, p; try reflexivity; apply na_beq. Qed.

Lemma na_owners ns m : ref_owners (map (ref_named f) ns) (R m) = map R (ref_owners ns m).
Proof.
  induction m as [k i t ps cs IH] using node_ind'. cbn [named ref_owners]. rewrite map_app. f_equal.
  - apply na_flat. exact IH.
  - change (Node k i t (map P ps) (map R cs)) with (R (Node k i t ps cs)). clear IH.
    generalize (Node k i t ps cs). intros n. induction ps as [|q l IHl]; [reflexivity|]. cbn [map flat_map]. rewrite map_app, IHl. f_equal.
    replace (existsb (fun r => nameref_is r (P q)) (map (ref_named f) ns)) with (existsb (fun r => nameref_is r q) ns).
    + now destruct (existsb _ ns).
    + clear - Hf. induction ns as [|r ns IH]; [reflexivity|]. cbn [map existsb]. now rewrite na_nameref, IH.
Qed.

Lemma na_distinct l : distinct_ids (map R l) = distinct_ids l.
Proof.
  induction l as [|x l IH]; [reflexivity|]. cbn [map distinct_ids]. rewrite IH. f_equal. f_equal.
  clear IH. rewrite na_id. induction l as [|y l IH]; [reflexivity|]. cbn [map existsb]. now rewrite na_id, IH.
Qed.

Lemma na_refs_ok ns m : refs_ok (map (ref_named f) ns) (R m) = refs_ok ns m.
Proof. unfold refs_ok. cbv zeta. now rewrite na_owners, !map_length, na_distinct. Qed.

Lemma na_same_refs ns ms : same_refs (map (ref_named f) ns) (map (ref_named f) ms) = same_refs ns ms.
Proof.
  revert ms. induction ns as [|r ns IH]; intros [|q ms]; try reflexivity. cbn [map same_refs]. rewrite IH. f_equal.
  destruct r, q; cbn [ref_named nameref_eqb]; rewrite ?na_beq; reflexivity.
Qed.

Lemma na_no_cycle refs m self : (forall n, refs (R n) = option_map (map (ref_named f)) (refs n)) -> forall d l,
  no_cycle refs (R m) (map (ref_named f) self) d (map R l) = no_cycle refs m self d l.
Proof.
  intros H. induction d as [|d IH]; intros l; [now destruct l|]. cbn [no_cycle].
  induction l as [|x l IHl]; [reflexivity|]. cbn [map forallb]. rewrite IHl, H. f_equal.
  destruct (refs x) as [ns|]; [|reflexivity]. cbn [option_map]. now rewrite na_owners, IH, na_same_refs, na_refs_ok.
Qed.

Lemma na_acyclic refs m ns : (forall n, refs (R n) = option_map (map (ref_named f)) (refs n)) ->
  acyclic refs (R m) (map (ref_named f) ns) = acyclic refs m ns.
Proof.
  intros H. unfold acyclic. rewrite na_owners, na_no_cycle by exact H.
  change (preorder (R m) []) with (preorder (R m) (map R [])). now rewrite na_preorder, map_length.
Qed.

Lemma na_alias_refs n : alias_refs (R n) = option_map (map (ref_named f)) (alias_refs n).
Proof. apply na_first_pol. now intros []. Qed.
Lemma na_dependent_refs n : dependent_refs (R n) = option_map (map (ref_named f)) (dependent_refs n).
Proof. apply na_first_pol. now intros []. Qed.

(** A static_assert says the same in both trees as long as it does so about the characters of the name. *)
Lemma na_policy_static p n ps :
  (forall s, In s (pol_strings p) -> ct_text s = f s) ->
  policy_static (P p) (R n) (map R ps) = policy_static20 p n ps.
Proof.
  intros Hs. unfold policy_static20. destruct p; cbn [pol_named];
    try (cbn [policy_static]; rewrite ?na_has_tag, ?na_count, ?na_stage, ?na_sname; reflexivity).
  1-3: cbn [policy_static]; rewrite <- Hs by (now left); reflexivity.
  - cbn [policy_static]. change (R n :: map R ps) with (map R (n :: ps)). rewrite na_nearest, na_must_not, na_count. f_equal.
    destruct (count_bounds n) as [[mn mx]|]; [|reflexivity].
    destruct (nearest_mode_like (n :: ps)) as [m|]; [|reflexivity]. cbn [option_map].
    rewrite na_refs_ok, na_owners, (na_acyclic alias_refs) by (apply na_alias_refs).
    rewrite na_forallb; [reflexivity|]. intros c. now rewrite na_count.
  - cbn [policy_static]. rewrite na_nearest. destruct (nearest_mode_like ps) as [m|]; [|reflexivity]. cbn [option_map].
    now rewrite na_refs_ok, (na_acyclic dependent_refs) by (apply na_dependent_refs).
Qed.

Lemma na_take_until l : take_until is_mode (map R l) = map R (take_until is_mode l).
Proof. induction l as [|x l IH]; [reflexivity|]. cbn [map take_until]. rewrite na_mode. destruct (is_mode x); cbn [map]; now rewrite ?IH. Qed.
Lemma na_last l d : last (map R l) (R d) = R (last l d).
Proof. induction l as [|x l IH]; [reflexivity|]. destruct l as [|y l]; [reflexivity|]. exact IH. Qed.
Lemma na_ids l : ids (map R l) = ids l.
Proof. unfold ids. rewrite map_map. apply map_ext. exact na_id. Qed.
Lemma na_same_name p q : same_name_policy (P p) (P q) = same_name_policy p q.
Proof. destruct p, q; try reflexivity; apply na_beq. Qed.

Lemma na_unique_to_mode p n ps : unique_to_mode (P p) (R n) (map R ps) = unique_to_mode p n ps.
Proof.
  unfold unique_to_mode. destruct ps as [|q ps]; [reflexivity|]. cbn [map]. cbv zeta.
  change (R n :: R q :: map R ps) with (map R (n :: q :: ps)). rewrite na_take_until, na_last.
  change (@nil node) with (map R []) at 1. rewrite na_walk.
  generalize (walk (last (take_until is_mode (n :: q :: ps)) n) (last (take_until is_mode (n :: q :: ps)) n) []).
  intros l. induction l as [|x l IH]; [reflexivity|]. cbn [map forallb]. rewrite IH, !na_ids. f_equal. f_equal.
  destruct x as [|y x]; [reflexivity|]. cbn [map]. rewrite na_pols. clear - Hf.
  induction (n_pols y) as [|r l IH]; [reflexivity|]. cbn [map forallb]. now rewrite na_same_name, IH.
Qed.

Lemma na_unique_in_owner p n : unique_in_owner (P p) (R n) = unique_in_owner p n.
Proof.
  unfold unique_in_owner. rewrite na_tag, na_pols, na_filter_pol by (intros q; now rewrite na_tag). now rewrite map_length.
Qed.

Lemma na_policy_rules p n ps : policy_rules (P p) (R n) (map R ps) = policy_rules p n ps.
Proof.
  unfold policy_rules. rewrite na_unique_in_owner. f_equal. destruct p; cbn [pol_named]; try reflexivity;
    rewrite ?na_must_not, ?na_mode, ?(na_parent_is is_root) by (apply na_root); try reflexivity.
  - exact (na_unique_to_mode (PLongName s) n ps).
  - exact (na_unique_to_mode (PShortName s) n ps).
  - f_equal. exact (na_unique_to_mode (PNoneName s) n ps).
Qed.

Lemma strings_in n : forall above x ps p s, In (x, ps) (preorder n above) -> In p (n_pols x) -> In s (pol_strings p) -> In s (strings n).
Proof.
  induction n as [k i t pols cs IH] using node_ind'. intros above x ps p s Hin Hp Hs. cbn [preorder] in Hin. cbn [strings].
  apply in_or_app. destruct Hin as [E|Hin].
  - left. apply in_flat_map. exists p. split; [|exact Hs]. replace x with (Node k i t pols cs) in Hp by congruence. exact Hp.
  - right. apply in_flat_map in Hin as (c & Hc & Hin). apply in_flat_map. exists c. split; [exact Hc|].
    rewrite Forall_forall in IH. eapply IH; eassumption.
Qed.

Lemma na_accepted r : (forall s, In s (strings r) -> ct_text s = f s) -> accepted (R r) = accepted20 r.
Proof.
  intros Hs. unfold accepted, accepted20. rewrite na_root. f_equal. change (preorder (R r) []) with (preorder (R r) (map R [])).
  rewrite na_preorder.
  assert (Hall : forall x ps, In (x, ps) (preorder r []) -> forall p, In p (n_pols x) -> forall s, In s (pol_strings p) -> ct_text s = f s).
  { intros x ps Hx p Hp s Hin. apply Hs. eapply strings_in; eassumption. }
  revert Hall. generalize (preorder r []). intros l Hall. induction l as [|[x ps] l IH]; [reflexivity|]. cbn [map forallb].
  rewrite IH by (intros y qs Hy; apply (Hall y qs); now right). f_equal. unfold na_pair. cbn [node_ok node_ok20 fst snd].
  rewrite na_node_static, na_node_rules, na_pols. f_equal. specialize (Hall x ps (or_introl eq_refl)).
  induction (n_pols x) as [|p l' IH']; [reflexivity|]. cbn [map forallb].
  rewrite na_policy_static by (intros s Hin; apply (Hall p); [now left|exact Hin]).
  rewrite na_policy_rules, IH' by (intros q Hq; apply Hall; now right). reflexivity.
Qed.
End Names.

(** ** From one spelling to an injection *)

(** Exchange two strings. *)
Definition swap (x y z : bytes) : bytes := if beq z x then y else if beq z y then x else z.
Lemma swap_inj x y z z' : swap x y z = swap x y z' -> z = z'.
Proof.
  unfold swap. destruct (beq z x) eqn:E1, (beq z' x) eqn:E2; [| | |destruct (beq z y) eqn:E3, (beq z' y) eqn:E4];
    repeat match goal with H : beq _ _ = true |- _ => apply beq_eq in H end;
    try (destruct (beq z' y) eqn:E3; [apply beq_eq in E3|]); try (destruct (beq z y) eqn:E4; [apply beq_eq in E4|]); subst; intros H;
    subst; rewrite ?beq_refl in *; try congruence; try reflexivity.
Qed.
Lemma swap_left x y : swap x y x = y. Proof. unfold swap. now rewrite beq_refl. Qed.
Lemma swap_other x y z : z <> x -> z <> y -> swap x y z = z.
Proof.
  intros H1 H2. unfold swap. destruct (beq z x) eqn:E; [now apply beq_eq in E|]. destruct (beq z y) eqn:E'; [now apply beq_eq in E'|]. reflexivity.
Qed.

(** A function that is injective on a list agrees there with one that is injective. *)
Lemma extend (g : bytes -> bytes) l :
  (forall x y, In x l -> In y l -> g x = g y -> x = y) ->
  exists f, (forall x y, f x = f y -> x = y) /\ forall x, In x l -> g x = f x.
Proof.
  induction l as [|a l IH]; intros H.
  - exists (fun x => x). split; [auto|intros x []].
  - destruct IH as (f & Hf & Hl). { intros x y Hx Hy. apply H; now right. }
    destruct (in_dec (list_eq_dec Ascii.ascii_dec) a l) as [Ha|Ha].
    + exists f. split; [exact Hf|]. intros x [<-|Hx]; now apply Hl.
    + exists (fun x => swap (f a) (g a) (f x)). split.
      * intros x y E. now apply Hf, (swap_inj (f a) (g a)).
      * intros x [<-|Hx]; [now rewrite swap_left|]. rewrite <- (Hl x Hx). rewrite swap_other; [reflexivity| |].
        -- intros E. rewrite (Hl x Hx) in E. apply Hf in E. now subst.
        -- intros E. apply Ha. rewrite <- (H x a); [exact Hx|now right|now left|exact E].
Qed.

Lemma named_ext f g n : (forall s, In s (strings n) -> f s = g s) -> named f n = named g n.
Proof.
  induction n as [k i t ps cs IH] using node_ind'. intros H. cbn [named strings] in *. f_equal.
  - apply map_ext_in. intros p Hp.
    assert (Hp' : forall s, In s (pol_strings p) -> f s = g s).
    { intros s Hs. apply H, in_or_app. left. apply in_flat_map. now exists p. }
    assert (Hr : forall ns, (forall s, In s (ref_strings ns) -> f s = g s) -> map (ref_named f) ns = map (ref_named g) ns).
    { intros ns Hns. apply map_ext_in. intros r Hin. unfold ref_strings in Hns.
      destruct r as [s|s]; cbn [ref_named]; f_equal; apply Hns, in_map_iff; eexists; (split; [|exact Hin]); reflexivity. }
    destruct p; try reflexivity; cbn [pol_named pol_strings] in *; f_equal; try (apply Hp'; now left); apply Hr, Hp'.
  - apply map_ext_in. intros c Hc. rewrite Forall_forall in IH. apply (IH c Hc). intros s Hs. apply H, in_or_app. right.
    apply in_flat_map. now exists c.
Qed.

Lemma accepted_spelling r : one_spelling r -> accepted20 r = accepted (with_texts r).
Proof.
  intros H. destruct (extend ct_text (strings r)) as (f & Hf & Hext).
  { intros x y Hx Hy E. apply (H x y (ct_text x) Hx Hy); [apply text_holds|]. rewrite E. apply text_holds. }
  unfold with_texts. rewrite (named_ext ct_text f r Hext). symmetry. now apply na_accepted.
Qed.

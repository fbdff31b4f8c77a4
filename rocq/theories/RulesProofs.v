(** The compile-time checks of Validator.v are the rules of SpecRules.v: C66. *)
From Verif Require Import Bytes Token Result CodePoint Utf8 Tree PreParse Validator.
From Verif Require Import SpecRules Utf8Proofs TreeProofs.
Local Open Scope list_scope.

(** ** Kinds *)

Definition tagk (k : policy_kind) : N :=
  match k with
  | k_long => 1 | k_short => 2 | k_none => 3 | k_display => 4 | k_error => 5 | k_description => 6
  | k_count => 7 | k_value_limit => 8 | k_separator => 9 | k_expander => 10 | k_enable => 11
  | k_enable_required => 12 | k_end_marker => 13 | k_default => 14 | k_required => 15 | k_alias => 16
  | k_dependent => 17 | k_router => 18 | k_parser => 19 | k_multi_stage => 20 | k_no_result => 21
  | k_flatten => 22 | k_program_name => 23 | k_program_version => 24 | k_program_intro => 25
  | k_program_addendum => 26
  end%N.

Definition kindn (t : N) : policy_kind :=
  match t with
  | 1 => k_long | 2 => k_short | 3 => k_none | 4 => k_display | 5 => k_error | 6 => k_description
  | 7 => k_count | 8 => k_value_limit | 9 => k_separator | 10 => k_expander | 11 => k_enable
  | 12 => k_enable_required | 13 => k_end_marker | 14 => k_default | 15 => k_required | 16 => k_alias
  | 17 => k_dependent | 18 => k_router | 19 => k_parser | 20 => k_multi_stage | 21 => k_no_result
  | 22 => k_flatten | 23 => k_program_name | 24 => k_program_version | 25 => k_program_intro
  | _ => k_program_addendum
  end%N.

Lemma kindn_tagk k : kindn (tagk k) = k.
Proof. destruct k; reflexivity. Qed.
Lemma tagk_inj k k' : tagk k = tagk k' -> k = k'.
Proof. intros H. rewrite <- (kindn_tagk k), H. apply kindn_tagk. Qed.
Lemma pol_tag_kind p : pol_tag p = tagk (kind_of p).
Proof. destruct p; reflexivity. Qed.

Definition hb (n : node) (k : policy_kind) : bool := has_tag (tagk k) n.

Lemma hb_true n k : hb n k = true <-> has n k.
Proof.
  unfold hb, has_tag, has. rewrite existsb_exists. split.
  - intros (p & Hin & E). apply N.eqb_eq in E. rewrite pol_tag_kind in E. apply tagk_inj in E. eauto.
  - intros (p & Hin & <-). exists p. split; [exact Hin|]. rewrite pol_tag_kind. apply N.eqb_refl.
Qed.
Lemma hb_false n k : hb n k = false <-> ~ has n k.
Proof. rewrite <- hb_true. destruct (hb n k); split; congruence. Qed.
Lemma has_dec n k : has n k \/ ~ has n k.
Proof. destruct (hb n k) eqn:E; [left; now apply hb_true|right; now apply hb_false]. Qed.

Lemma lacks_nil n : lacks n [] <-> True.
Proof. split; [auto|]. intros _ k []. Qed.
Lemma lacks_cons n k ks : lacks n (k :: ks) <-> hb n k = false /\ lacks n ks.
Proof.
  unfold lacks. rewrite hb_false. split.
  - intros H. split; [apply H; now left|]. intros k' Hk. apply H. now right.
  - intros [H G] k' [<-|Hk]; auto.
Qed.
Lemma must_not_have_nil n : must_not_have [] n = true <-> True.
Proof. cbn. tauto. Qed.
Lemma must_not_have_cons n k ks : must_not_have (tagk k :: ks) n = true <-> hb n k = false /\ must_not_have ks n = true.
Proof. unfold must_not_have. cbn [forallb]. rewrite andb_true_iff, negb_true_iff. reflexivity. Qed.
Lemma must_not_have_iff ks n : must_not_have (map tagk ks) n = true <-> lacks n ks.
Proof.
  induction ks as [|k ks IH]; cbn [map]; [now rewrite lacks_nil, must_not_have_nil|].
  now rewrite must_not_have_cons, lacks_cons, IH.
Qed.

Lemma named_by_cons n k ks : named_by n (k :: ks) <-> hb n k = true \/ named_by n ks.
Proof.
  unfold named_by. rewrite hb_true. split.
  - intros (k' & [<-|Hin] & H); [now left|right; eauto].
  - intros [H|(k' & Hin & H)]; [exists k|exists k']; split; auto; [now left|now right].
Qed.
Lemma named_by_nil n : named_by n [] <-> False.
Proof. split; [intros (k & [] & _)|easy]. Qed.

(** A policy that is looked for by its pattern. *)
Lemma first_some_kind {B} (f : policy -> option B) k n :
  (forall p, is_some (f p) = true <-> kind_of p = k) -> is_some (first_some f (n_pols n)) = hb n k.
Proof.
  intros H. unfold hb, has_tag. induction (n_pols n) as [|p ps IH]; [reflexivity|]. cbn [first_some existsb].
  specialize (H p). rewrite pol_tag_kind. destruct (f p) eqn:E; cbn [is_some] in *.
  - destruct H as [H _]. rewrite (H eq_refl), N.eqb_refl. reflexivity.
  - rewrite IH. destruct (N.eqb_spec (tagk (kind_of p)) (tagk k)) as [E'|]; [|reflexivity].
    apply tagk_inj in E'. apply H in E'. discriminate.
Qed.
Lemma exists_kind (f : policy -> bool) ks n : (forall p, f p = existsb (fun k => N.eqb (pol_tag p) (tagk k)) ks) ->
  existsb f (n_pols n) = existsb (hb n) ks.
Proof.
  intros H. apply eq_true_iff_eq. rewrite !existsb_exists. split.
  - intros (p & Hin & Hf). rewrite H in Hf. apply existsb_exists in Hf as (k & Hk & E). exists k. split; [exact Hk|].
    apply existsb_exists. now exists p.
  - intros (k & Hk & E). apply existsb_exists in E as (p & Hin & E). exists p. split; [exact Hin|]. rewrite H.
    apply existsb_exists. now exists k.
Qed.

Ltac by_pattern := let p := fresh "p" in apply first_some_kind; intros p; destruct p; cbn; split; congruence.
Lemma long_hb n : is_some (long_name n) = hb n k_long. Proof. by_pattern. Qed.
Lemma short_hb n : is_some (short_name n) = hb n k_short. Proof. by_pattern. Qed.
Lemma none_hb n : is_some (none_name n) = hb n k_none. Proof. by_pattern. Qed.
Lemma display_hb n : is_some (display_name n) = hb n k_display. Proof. by_pattern. Qed.
Lemma error_hb n : is_some (error_name n) = hb n k_error. Proof. by_pattern. Qed.
Lemma count_hb n : is_some (count_bounds n) = hb n k_count. Proof. by_pattern. Qed.
Lemma marker_hb n : is_some (token_end_marker n) = hb n k_end_marker. Proof. by_pattern. Qed.
Lemma stage_hb n : has_multi_stage n = hb n k_multi_stage. Proof. by_pattern. Qed.
Lemma router_hb n : has_router n = hb n k_router.
Proof.
  transitivity (existsb (hb n) [k_router]); [|cbn; apply orb_false_r]. apply exists_kind. intros p; destruct p; reflexivity.
Qed.
Lemma missing_hb n : has_missing_phase n = existsb (hb n) fallbacks.
Proof. apply exists_kind. intros p; destruct p; reflexivity. Qed.
Lemma early_hb n : has_pre_parse_phase n = existsb (hb n) early.
Proof. apply exists_kind. intros p; destruct p; reflexivity. Qed.
Lemma silent_hb n : no_result_value n = existsb (hb n) [k_no_result; k_alias].
Proof. apply exists_kind. intros p; destruct p; reflexivity. Qed.

Lemma existsb_hb n ks : existsb (hb n) ks = true <-> named_by n ks.
Proof.
  induction ks as [|k ks IH]; cbn [existsb]; [rewrite named_by_nil; split; easy|].
  now rewrite orb_true_iff, named_by_cons, IH.
Qed.
Lemma not_existsb_hb n ks : negb (existsb (hb n) ks) = true <-> lacks n ks.
Proof.
  induction ks as [|k ks IH]; cbn [existsb]; [rewrite lacks_nil; split; easy|].
  now rewrite negb_orb, andb_true_iff, lacks_cons, IH, negb_true_iff.
Qed.
Lemma silent_iff n : no_result_value n = true <-> silent n.
Proof.
  rewrite silent_hb, existsb_hb, !named_by_cons, named_by_nil, !hb_true. unfold silent. tauto.
Qed.

(** ** Policies of one kind *)

Definition uniq (n : node) : Prop := NoDup (map kind_of (n_pols n)).

Lemma unique_iff n : forallb (fun p => unique_in_owner p n) (n_pols n) = true <-> uniq n.
Proof.
  unfold uniq, unique_in_owner. rewrite forallb_forall.
  assert (F : forall p ps, filter (fun q => N.eqb (pol_tag q) (pol_tag p)) ps = [] <-> ~ In (kind_of p) (map kind_of ps)).
  { intros p ps. induction ps as [|q ps IH]; cbn [filter map In]; [tauto|]. rewrite !pol_tag_kind.
    destruct (N.eqb_spec (tagk (kind_of q)) (tagk (kind_of p))) as [E|E].
    - apply tagk_inj in E. split; [discriminate|]. tauto.
    - rewrite <- pol_tag_kind, IH. split; [|tauto]. intros H [G|G]; [|tauto]. now rewrite G in E. }
  assert (A : forall p ps qs, filter (fun q => N.eqb (pol_tag q) (pol_tag p)) (ps ++ qs)
     = filter (fun q => N.eqb (pol_tag q) (pol_tag p)) ps ++ filter (fun q => N.eqb (pol_tag q) (pol_tag p)) qs).
  { intros. apply filter_app. }
  split.
  - intros H. induction (n_pols n) as [|p ps IH]; cbn [map]; constructor.
    + specialize (H p (or_introl eq_refl)). cbn [filter] in H. rewrite N.eqb_refl in H. cbn [List.length] in H.
      apply Nat.eqb_eq in H. injection H as H. apply length_zero_iff_nil in H. now apply F.
    + apply IH. intros q Hq. specialize (H q (or_intror Hq)). cbn [filter] in H.
      destruct (N.eqb (pol_tag p) (pol_tag q)) eqn:E; [|exact H]. exfalso. cbn [List.length] in H.
      apply Nat.eqb_eq in H. injection H as H. apply length_zero_iff_nil in H. apply F in H. apply H. now apply in_map.
  - intros H p Hp. apply Nat.eqb_eq. apply in_split in Hp as (l1 & l2 & E). rewrite E in *. rewrite map_app in H.
    cbn [map] in H. apply NoDup_remove_2 in H. rewrite in_app_iff in H. rewrite A. cbn [filter]. rewrite N.eqb_refl.
    assert (E1 : filter (fun q => N.eqb (pol_tag q) (pol_tag p)) l1 = []) by (apply F; tauto).
    assert (E2 : filter (fun q => N.eqb (pol_tag q) (pol_tag p)) l2 = []) by (apply F; tauto).
    now rewrite E1, E2.
Qed.

Lemma uniq_same n p q : uniq n -> In p (n_pols n) -> In q (n_pols n) -> kind_of p = kind_of q -> p = q.
Proof.
  unfold uniq. induction (n_pols n) as [|x xs IH]; intros H Hp Hq E; [destruct Hp|]. cbn [map] in H. inversion_clear H.
  destruct Hp as [<-|Hp], Hq as [<-|Hq]; auto; exfalso; apply H0; [rewrite E|rewrite <- E]; now apply in_map.
Qed.

Lemma first_some_sel {B} (f : policy -> option B) k n p x : uniq n ->
  (forall q, is_some (f q) = true <-> kind_of q = k) -> In p (n_pols n) -> f p = Some x -> first_some f (n_pols n) = Some x.
Proof.
  intros Hu H Hp E. pose proof (first_some_kind f k n H) as G.
  assert (K : kind_of p = k) by (apply H; now rewrite E).
  assert (Hh : hb n k = true) by (apply hb_true; exists p; auto). rewrite Hh in G.
  destruct (first_some f (n_pols n)) as [y|] eqn:F; [|discriminate].
  assert (exists q, In q (n_pols n) /\ f q = Some y) as (q & Hq & Eq).
  { revert F. clear. induction (n_pols n) as [|a l IH]; [discriminate|]. cbn [first_some].
    destruct (f a) eqn:E; [intros [= <-]; exists a; split; [now left|exact E]|]. intros F.
    destruct (IH F) as (q & Hq & ?). exists q; split; [now right|easy]. }
  assert (Kq : kind_of q = k) by (apply H; now rewrite Eq).
  assert (p = q) by (apply (uniq_same n); auto; congruence). subst q. congruence.
Qed.

Lemma counts_iff n mn mx : uniq n -> count_bounds n = Some (mn, mx) <-> counts n mn mx.
Proof.
  intros Hu. unfold counts, count_bounds. split.
  - intros F. revert F. clear. induction (n_pols n) as [|a l IH]; [discriminate|]. cbn [first_some].
    destruct a; try (intros F; right; now apply IH). intros [= <- <-]. now left.
  - intros H. apply (first_some_sel _ k_count _ _ _ Hu) with (2 := H); [|reflexivity].
    intros q; destruct q; cbn; split; congruence.
Qed.
Lemma counts_fun n mn mx mn' mx' : uniq n -> counts n mn mx -> counts n mn' mx' -> mn = mn' /\ mx = mx'.
Proof. intros Hu H G. apply counts_iff in H, G; auto. rewrite H in G. injection G as -> ->. auto. Qed.
Lemma alias_refs_iff n ns : uniq n -> alias_refs n = Some ns <-> In (PAlias ns) (n_pols n).
Proof.
  intros Hu. unfold alias_refs. split.
  - intros F. revert F. clear. induction (n_pols n) as [|a l IH]; [discriminate|]. cbn [first_some].
    destruct a; try (intros F; right; now apply IH). intros [= <-]. now left.
  - intros H. apply (first_some_sel _ k_alias _ _ _ Hu) with (2 := H); [|reflexivity].
    intros q; destruct q; cbn; split; congruence.
Qed.
Lemma dependent_refs_iff n ns : uniq n -> dependent_refs n = Some ns <-> In (PDependent ns) (n_pols n).
Proof.
  intros Hu. unfold dependent_refs. split.
  - intros F. revert F. clear. induction (n_pols n) as [|a l IH]; [discriminate|]. cbn [first_some].
    destruct a; try (intros F; right; now apply IH). intros [= <-]. now left.
  - intros H. apply (first_some_sel _ k_dependent _ _ _ Hu) with (2 := H); [|reflexivity].
    intros q; destruct q; cbn; split; congruence.
Qed.

(** ** Words *)

Lemma gcount_iff (f : nat -> bool) (P : nat -> Prop) s : (forall k, f k = true <-> P k) ->
  gcount_is f s = true <-> exists k, characters s k /\ P k.
Proof.
  intros H. unfold gcount_is, characters. destruct (graphemes s) as [gs|].
  - rewrite H. split; [eauto 6|]. intros (k & (gs' & [= <-] & <-) & G). exact G.
  - split; [discriminate|]. intros (k & (gs' & E & _) & _). discriminate E.
Qed.
Lemma gcount_1 s : gcount_is (Nat.eqb 1) s = true <-> characters s 1.
Proof.
  rewrite (gcount_iff _ (fun k => 1 = k)) by (intros; apply Nat.eqb_eq). split; [intros (k & H & <-); exact H|eauto].
Qed.

Lemma contains_fuel s : forall f, List.length s <= f ->
  contains_ws_fuel f s = Some false
  <-> exists cps, cp_split s = Some cps /\ Forall (fun cp => is_whitespace cp = false) cps.
Proof.
  remember (List.length s) as k eqn:Ek. assert (Hk : List.length s <= k) by lia. clear Ek. revert s Hk.
  induction k as [|k IH]; intros s Hk f Hf.
  - destruct s; [|cbn in Hk; lia]. split; [|destruct f; reflexivity]. intros _. exists []. rewrite cp_split_nil. auto.
  - destruct s as [|c s].
    { split; [|destruct f; reflexivity]. intros _. exists []. rewrite cp_split_nil. auto. }
    cbn [List.length] in Hk. destruct f as [|f]; [lia|]. cbn [contains_ws_fuel]. cbv zeta. rewrite cp_split_cons. cbv zeta.
    pose proof (cp_size_pos c s) as Hp. set (m := cp_size (c :: s)) in *.
    destruct (is_whitespace (firstn m (c :: s))) eqn:Ew.
    + split; [discriminate|]. intros (cps & E & Hf'). exfalso.
      destruct (Nat.ltb (List.length (c :: s)) m); [discriminate|].
      destruct (cp_split (skipn m (c :: s))); [|discriminate]. cbn [option_map] in E. injection E as <-.
      apply Forall_inv in Hf'. congruence.
    + destruct (Nat.ltb (List.length (c :: s)) m); [split; [discriminate|intros (? & [=] & _)]|].
      rewrite IH by (solve [rewrite skipn_length; cbn [List.length]; lia | lia]). split.
      * intros (cps & -> & G). exists (firstn m (c :: s) :: cps). split; [reflexivity|]. constructor; assumption.
      * intros (cps & E & G). destruct (cp_split (skipn m (c :: s))) as [cs|]; [|discriminate]. cbn [option_map] in E.
        injection E as <-. exists cs. split; [reflexivity|]. now apply Forall_inv_tail in G.
Qed.
Lemma no_whitespace_iff s : no_whitespace s = true <-> no_white_space s.
Proof.
  unfold no_whitespace, no_white_space, contains_whitespace. rewrite <- (contains_fuel s _ (le_n _)).
  destruct (contains_ws_fuel (List.length s) s) as [[|]|]; cbn; split; congruence.
Qed.

(** ** Places *)

Lemma is_mode_iff n : is_mode n = true <-> a_mode n.
Proof. unfold is_mode, a_mode. destruct (n_kind n); split; congruence. Qed.
Lemma is_mode_false n : is_mode n = false <-> ~ a_mode n.
Proof. rewrite <- is_mode_iff. destruct (is_mode n); split; congruence. Qed.
Lemma is_root_iff n : is_root n = true <-> a_root n.
Proof. unfold is_root, a_root. destruct (n_kind n); split; congruence. Qed.
Lemma anonymous_iff n : is_anonymous_mode n = true <-> anonymous n.
Proof.
  unfold is_anonymous_mode, is_anonymous, anonymous. rewrite andb_true_iff, is_mode_iff, none_hb, negb_true_iff, hb_false.
  reflexivity.
Qed.

Lemma placed_preorder r n parents : placed r n parents <-> In (n, parents) (preorder r []).
Proof.
  assert (G : forall m up d above, In (d, above) (preorder m up) -> forall c, In c (n_children d) ->
              In (c, d :: above) (preorder m up)).
  { induction m as [k id ty pols cs IH] using node_ind'. rewrite Forall_forall in IH. intros up d above H c Hc.
    rewrite preorder_eq in H |- *. right. apply in_flat_map. destruct H as [H|H].
    - injection H as <- <-. exists c. split; [exact Hc|]. rewrite preorder_eq. now left.
    - apply in_flat_map in H as (e & He & H). exists e. split; [exact He|]. apply IH; auto. }
  split.
  - induction 1 as [|n parents c _ IH Hc]; [rewrite preorder_eq; now left|]. now apply G.
  - assert (F : forall m up, placed r m up -> In (n, parents) (preorder m up) -> placed r n parents).
    { induction m as [k id ty pols cs IH] using node_ind'. rewrite Forall_forall in IH. intros up H Hin.
      rewrite preorder_eq in Hin. destruct Hin as [Hin|Hin]; [injection Hin as <- <-; exact H|].
      apply in_flat_map in Hin as (c & Hc & Hin). apply (IH c Hc _ (placed_child _ _ _ _ H Hc) Hin). }
    apply F. constructor.
Qed.

Lemma walk_eq start n above : walk start n above
  = if is_mode n && negb (N.eqb (n_id n) (n_id start)) then []
    else (n :: above) :: flat_map (fun c => walk start c (n :: above)) (n_children n).
Proof. destruct n; reflexivity. Qed.

Lemma entered start n : is_mode n && negb (N.eqb (n_id n) (n_id start)) = false <-> (a_mode n -> n_id n = n_id start).
Proof.
  rewrite <- is_mode_iff. destruct (is_mode n); cbn [andb]; [|split; [discriminate|reflexivity]].
  rewrite negb_false_iff, N.eqb_eq. tauto.
Qed.

Lemma walk_reach start path : In path (walk start start []) <-> reach start path.
Proof.
  split.
  - assert (F : forall m up, ((a_mode m -> n_id m = n_id start) -> reach start (m :: up)) ->
              In path (walk start m up) -> reach start path).
    { induction m as [k id ty pols cs IH] using node_ind'. rewrite Forall_forall in IH. intros up H Hin.
      rewrite walk_eq in Hin. destruct (is_mode (Node k id ty pols cs) && _) eqn:E in Hin; [destruct Hin|].
      pose proof (proj1 (entered _ _) E) as E'. destruct Hin as [<-|Hin]; [now apply H|].
      apply in_flat_map in Hin as (c & Hc & Hin). apply (IH c Hc) with (2 := Hin). intros Hm. constructor; auto. }
    apply F. intros _. constructor.
  - assert (G : forall c, (a_mode c -> n_id c = n_id start) -> forall m up d above, In (d :: above) (walk start m up) ->
              In c (n_children d) -> In (c :: d :: above) (walk start m up)).
    { intros c Ec. induction m as [k id ty pols cs IH] using node_ind'. rewrite Forall_forall in IH. intros up d above H Hc.
      rewrite walk_eq in H |- *. destruct (is_mode (Node k id ty pols cs) && _) in H |- *; [destruct H|]. right.
      apply in_flat_map. destruct H as [H|H].
      - injection H as <- <-. exists c. split; [exact Hc|]. rewrite walk_eq. rewrite (proj2 (entered _ _) Ec). now left.
      - apply in_flat_map in H as (e & He & H). exists e. split; [exact He|]. apply IH; auto. }
    induction 1 as [|n above c _ IH Hc Hm]; [|now apply G]. rewrite walk_eq, N.eqb_refl, andb_false_r. now left.
Qed.

Lemma up_take l path : up_to_mode l path -> path = take_until is_mode l.
Proof.
  induction 1 as [n above H|n H|n m above path H _ IH]; cbn [take_until] in *.
  - apply is_mode_iff in H. now rewrite H.
  - apply is_mode_false in H. now rewrite H.
  - apply is_mode_false in H. rewrite H. now rewrite IH.
Qed.
Lemma take_up n l : up_to_mode (n :: l) (take_until is_mode (n :: l)).
Proof.
  revert n. induction l as [|m l IH]; intros n; cbn [take_until]; destruct (is_mode n) eqn:E.
  - apply up_mode. now apply is_mode_iff.
  - apply up_top. now apply is_mode_false.
  - apply up_mode. now apply is_mode_iff.
  - apply (up_more n m l _ (proj1 (is_mode_false n) E)). apply IH.
Qed.

Lemma ids_eqb_iff x : forall y, ids_eqb x y = true <-> x = y.
Proof.
  induction x as [|i x IH]; intros [|j y]; cbn [ids_eqb]; try (split; congruence).
  rewrite andb_true_iff, N.eqb_eq, IH. split; [intros [-> ->]; reflexivity|intros [= -> ->]; auto].
Qed.

Definition a_name (p : policy) : Prop := match p with PLongName _ | PShortName _ | PNoneName _ => True | _ => False end.

Lemma same_name_iff p q : a_name p -> same_name_policy p q = true <-> p = q.
Proof.
  intros H. destruct p; destruct H; destruct q; cbn [same_name_policy]; try (split; congruence);
  rewrite beq_eq; split; congruence.
Qed.

Lemma unique_to_mode_iff p n parents : a_name p -> unique_to_mode p n parents = true <-> only_here p n parents.
Proof.
  intros Hp. unfold unique_to_mode, only_here. destruct parents as [|z zs]; [split; [congruence|reflexivity]|].
  cbv zeta. set (path := take_until is_mode (n :: z :: zs)). rewrite forallb_forall. split.
  - intros H _ path' start Eu El m above Hr Hne Hin. pose proof (up_take _ _ Eu) as E. fold path in E. subst path'.
    rewrite El in H. specialize (H _ (proj2 (walk_reach _ _) Hr)). apply orb_true_iff in H as [H|H].
    + apply ids_eqb_iff in H. now apply Hne.
    + rewrite forallb_forall in H. specialize (H _ Hin). apply negb_true_iff in H.
      assert (same_name_policy p p = true) by now apply same_name_iff. congruence.
  - intros H path' Hw. apply walk_reach in Hw. apply orb_true_iff.
    destruct (ids_eqb (ids path') (ids path)) eqn:E; [now left|right]. destruct path' as [|m above]; [reflexivity|].
    apply forallb_forall. intros q Hq. apply negb_true_iff. destruct (same_name_policy p q) eqn:Es; [|reflexivity].
    exfalso. apply same_name_iff in Es; [|exact Hp]. subst q.
    refine (H _ path _ (take_up _ _) eq_refl m above Hw _ Hq); [discriminate|].
    intros G. apply (proj2 (ids_eqb_iff _ _)) in G. unfold ids in E. congruence.
Qed.

Lemma nearest_iff ns m : nearest_mode_like ns = Some m <-> nearest_routed ns m.
Proof.
  unfold nearest_mode_like, nearest_routed. split.
  - induction ns as [|x ns IH]; cbn [find]; [discriminate|]. destruct (has_router x) eqn:E.
    + intros [= <-]. exists [], ns. rewrite router_hb in E. apply hb_true in E. split; [reflexivity|]. split; [exact E|easy].
    + intros H. destruct (IH H) as (b & a & -> & Hm & Hb). exists (x :: b), a. split; [reflexivity|]. split; [exact Hm|].
      intros d [<-|Hd]; [|auto]. rewrite router_hb in E. now apply hb_false.
  - intros (b & a & -> & Hm & Hb). induction b as [|x b IH]; cbn [app find].
    + apply hb_true in Hm. now rewrite router_hb, Hm.
    + assert (Hx : ~ has x k_router) by (apply Hb; now left). apply hb_false in Hx. rewrite router_hb, Hx.
      apply IH. intros d Hd. apply Hb. now right.
Qed.

(** ** References *)

Lemma refers_iff r p : nameref_is r p = true <-> refers r p.
Proof. destruct r, p; cbn; try (split; congruence); rewrite beq_eq; split; congruence. Qed.

Definition own (ns : list nameref) (n : node) (ps : list policy) : list node :=
  flat_map (fun p => if existsb (fun r => nameref_is r p) ns then [n] else []) ps.

Lemma own_fun ns n ps k : own_names ns ps k -> own ns n ps = repeat n k.
Proof.
  unfold own. induction 1 as [|p ps k r Hr Hp _ IH|p ps k H _ IH]; cbn [flat_map]; [reflexivity| |].
  - assert (E : existsb (fun r => nameref_is r p) ns = true).
    { apply existsb_exists. exists r. split; [exact Hr|]. now apply refers_iff. }
    rewrite E, IH. reflexivity.
  - assert (E : existsb (fun r => nameref_is r p) ns = false).
    { apply not_true_iff_false. intros G. apply existsb_exists in G as (r & Hr & G). apply refers_iff in G. now apply (H r). }
    now rewrite E, IH.
Qed.
Lemma own_ex ns ps : exists k, own_names ns ps k.
Proof.
  induction ps as [|p ps [k IH]]; [exists 0; constructor|].
  destruct (existsb (fun r => nameref_is r p) ns) eqn:E.
  - apply existsb_exists in E as (r & Hr & E). apply refers_iff in E. exists (S k). now apply own_yes with r.
  - exists k. apply own_no; [|exact IH]. intros r Hr G. apply refers_iff in G.
    assert (existsb (fun r => nameref_is r p) ns = true) by (apply existsb_exists; eauto). congruence.
Qed.

Lemma ref_owners_eq ns n : ref_owners ns n = flat_map (ref_owners ns) (n_children n) ++ own ns n (n_pols n).
Proof. destruct n; reflexivity. Qed.

Lemma owners_iff ns n : forall ts, owners ns n ts <-> ts = ref_owners ns n.
Proof.
  induction n as [k id ty pols cs IH] using node_ind'. rewrite Forall_forall in IH. intros ts. rewrite ref_owners_eq. split.
  - intros H. inversion H as [n tss j Hc Ho E1 E2]. subst n ts. rewrite (own_fun _ _ _ _ Ho). f_equal.
    cbn [n_children] in Hc |- *. clear - IH Hc. induction Hc as [|c xs cs tss Hx _ IHc]; [reflexivity|]. cbn [List.concat flat_map].
    f_equal; [apply IH; [now left|exact Hx]|]. apply IHc. intros; apply IH; now right.
  - intros ->. destruct (own_ex ns pols) as [j Hj]. cbn [n_pols]. rewrite (own_fun _ _ _ _ Hj).
    assert (E : flat_map (ref_owners ns) cs = List.concat (map (ref_owners ns) cs)) by apply flat_map_concat_map.
    cbn [n_children]. rewrite E. constructor; [|exact Hj]. cbn [n_children]. clear - IH.
    induction cs as [|c cs IHc]; cbn [map]; constructor; [apply IH; [now left|reflexivity]|].
    apply IHc. intros x Hx. apply (IH x). now right.
Qed.

Lemma ref_owners_below ns n : forall t, In t (ref_owners ns n) -> In t (map fst (preorder n [])).
Proof.
  assert (G : forall up t, In t (ref_owners ns n) -> In t (map fst (preorder n up))).
  { induction n as [k id ty pols cs IH] using node_ind'. rewrite Forall_forall in IH. intros up t H. rewrite ref_owners_eq in H.
    rewrite preorder_eq. cbn [map fst]. apply in_app_iff in H as [H|H].
    - right. apply in_flat_map in H as (c & Hc & H). apply (IH c Hc (Node k id ty pols cs :: up)) in H.
      apply in_map_iff in H as (x & <- & H). apply in_map. apply in_flat_map. exists c. split; [exact Hc|exact H].
    - left. unfold own in H. apply in_flat_map in H as (p & _ & H). destruct (existsb _ ns); [|destruct H].
      destruct H as [H|[]]. exact H. }
  intros t. apply G.
Qed.

Lemma distinct_iff ts : distinct_ids ts = true <-> NoDup (map n_id ts).
Proof.
  induction ts as [|t ts IH]; cbn [distinct_ids map]; [split; [constructor|reflexivity]|].
  rewrite andb_true_iff, IH, negb_true_iff. split.
  - intros [H G]. constructor; [|exact G]. intros Hin. apply in_map_iff in Hin as (u & E & Hu).
    assert (existsb (fun m => N.eqb (n_id m) (n_id t)) ts = true); [|congruence].
    apply existsb_exists. exists u. split; [exact Hu|]. now apply N.eqb_eq.
  - intros H. inversion_clear H. split; [|assumption]. apply not_true_iff_false. intros G.
    apply existsb_exists in G as (u & Hu & E). apply N.eqb_eq in E. apply H0. rewrite <- E. now apply in_map.
Qed.

Lemma resolved_iff ns mode ts : resolved ns mode ts <-> ts = ref_owners ns mode /\ refs_ok ns mode = true.
Proof.
  unfold resolved, refs_ok. cbv zeta. rewrite owners_iff, !andb_true_iff, negb_true_iff, Nat.eqb_eq, Nat.eqb_neq.
  split.
  - intros (-> & Hn & Hl & Hd). repeat split; auto; [now apply distinct_iff|]. now destruct ns.
  - intros (-> & (Hl & Hd) & Hn). repeat split; auto; [now destruct ns|now apply distinct_iff].
Qed.

(** ** Cycles *)

Lemma nameref_eqb_iff r q : nameref_eqb r q = true <-> r = q.
Proof. destruct r, q; cbn; try (split; congruence); rewrite beq_eq; split; congruence. Qed.
Lemma same_refs_iff ns : forall ms, same_refs ns ms = true <-> ns = ms.
Proof.
  induction ns as [|r ns IH]; intros [|q ms]; cbn [same_refs]; try (split; congruence).
  rewrite andb_true_iff, nameref_eqb_iff, IH. split; [intros [-> ->]; reflexivity|intros [= -> ->]; auto].
Qed.

Section Cycles.
  Variable mk : list nameref -> policy.
  Variable refs : node -> option (list nameref).
  Hypothesis Hrefs : forall n ns, uniq n -> refs n = Some ns <-> In (mk ns) (n_pols n).
  Variable mode : node.
  Let all := map fst (preorder mode []).
  Hypothesis Hall : forall d, In d all -> uniq d.

  Lemma no_cycle_grounded self : forall d ts, incl ts all -> no_cycle refs mode self d ts = true ->
    forall t, In t ts -> grounded mk mode t.
  Proof.
    induction d as [|d IH]; intros ts Hi H t Ht; cbn [no_cycle] in H.
    - destruct ts; [destruct Ht|discriminate].
    - rewrite forallb_forall in H. specialize (H t Ht). constructor.
      { intros ns Hns. apply Hrefs in Hns; [|now apply Hall, Hi]. rewrite Hns in H. apply andb_true_iff in H as [H _].
        apply andb_true_iff in H as [_ H]. exists (ref_owners ns mode). now apply resolved_iff. }
      intros ns us u Hns Ho Hu.
      apply Hrefs in Hns; [|now apply Hall, Hi]. rewrite Hns in H. apply andb_true_iff in H as [_ H].
      apply owners_iff in Ho. subst us. apply (IH (ref_owners ns mode)); auto. intros x Hx. now apply (ref_owners_below ns).
  Qed.

  Definition step (u t : node) : Prop := exists ns, refs t = Some ns /\ In u (ref_owners ns mode).

  Lemma grounded_acc t : In t all -> grounded mk mode t -> Acc step t.
  Proof.
    intros Ht H. revert Ht. induction H as [t _ _ IH]. intros Ht. constructor. intros u (ns & E & Hu).
    apply Hrefs in E; [|now apply Hall]. apply (IH ns (ref_owners ns mode)); auto; [now apply owners_iff|].
    now apply (ref_owners_below ns).
  Qed.

  (** [path u t]: following the references from [t] one comes to [u]. *)
  Inductive path : node -> node -> Prop :=
  | path_one u t : step u t -> path u t
  | path_more u t v : path u t -> step t v -> path u v.

  Lemma path_trans u t v : path u t -> path t v -> path u v.
  Proof.
    intros H G. revert H. induction G as [x y Hs|x y z _ IH Hs]; intros Hp; [now apply path_more with x|].
    apply path_more with y; auto.
  Qed.
  Lemma acc_irrefl t : Acc step t -> ~ path t t.
  Proof.
    assert (G : forall t, Acc step t -> forall u, path u t -> Acc (fun x y => path x y) u).
    { clear. induction 1 as [t _ IH]. intros u Hp. constructor. intros x Hx. inversion Hp as [? ? H|? w ? H1 H2]; subst.
      - apply (IH u H x Hx).
      - apply (IH w H2). eapply path_trans; eassumption. }
    intros H Hp. assert (A : Acc (fun x y => path x y) t) by (now apply (G t)). clear - A Hp.
    revert Hp. induction A as [t _ IH]. intros Hp. now apply (IH t).
  Qed.

  Lemma grounded_no_cycle self : forall d chain ts, NoDup chain -> incl chain all -> incl ts all ->
    (forall v u, In v chain -> In u ts -> path u v) ->
    (forall u, In u ts -> Acc step u) -> (forall u, In u ts -> grounded mk mode u) ->
    (forall u, In u ts -> exists t0, In t0 (ref_owners self mode) /\ (t0 = u \/ path u t0)) ->
    List.length chain + d = S (List.length all) -> no_cycle refs mode self d ts = true.
  Proof.
    induction d as [|d IH]; intros chain ts Hn Hc Hi Hp Ha Hg Hs El; cbn [no_cycle].
    - exfalso. pose proof (NoDup_incl_length Hn Hc). lia.
    - apply forallb_forall. intros t Ht. destruct (refs t) as [ns|] eqn:E; [|reflexivity].
      assert (Hns : In (mk ns) (n_pols t)) by (apply Hrefs; [now apply Hall, Hi|exact E]).
      apply andb_true_iff. split; [apply andb_true_iff; split|].
      + apply negb_true_iff. destruct (same_refs ns self) eqn:Es; [|reflexivity]. exfalso.
        apply same_refs_iff in Es. subst ns. destruct (Hs t Ht) as (t0 & H0 & Hr). apply (acc_irrefl t (Ha t Ht)).
        assert (St : step t0 t) by (now exists self). destruct Hr as [->|Hr]; [now constructor|].
        apply path_more with t0; assumption.
      + destruct (Hg t Ht) as [G _]. destruct (G ns Hns) as (us & Hr). now apply resolved_iff in Hr.
      + assert (Hstep : forall u, In u (ref_owners ns mode) -> step u t) by (intros u Hu; now exists ns).
        apply (IH (t :: chain)).
        * constructor; [|exact Hn]. intros Hin. apply (acc_irrefl t (Ha t Ht)). now apply Hp.
        * intros x [<-|Hx]; [now apply Hi|now apply Hc].
        * intros x Hx. now apply (ref_owners_below ns).
        * intros v u [<-|Hv] Hu; [constructor; auto|]. eapply path_trans; [constructor; apply Hstep, Hu|]. now apply Hp.
        * intros u Hu. apply (Acc_inv (Ha t Ht)). auto.
        * intros u Hu. destruct (Hg t Ht) as [_ G]. apply (G ns (ref_owners ns mode)); auto. now apply owners_iff.
        * intros u Hu. destruct (Hs t Ht) as (t0 & H0 & Hr). exists t0. split; [exact H0|]. right.
          destruct Hr as [->|Hr]; [constructor; auto|]. eapply path_trans; [constructor; apply Hstep, Hu|exact Hr].
        * cbn [List.length]. lia.
  Qed.

  Lemma acyclic_iff ns : acyclic refs mode ns = true <-> forall t, In t (ref_owners ns mode) -> grounded mk mode t.
  Proof.
    unfold acyclic. split.
    - intros H. eapply no_cycle_grounded; [|exact H]. intros x Hx. now apply (ref_owners_below ns).
    - intros H. apply (grounded_no_cycle ns _ []).
      + constructor.
      + intros x [].
      + intros x Hx. now apply (ref_owners_below ns).
      + intros v u [].
      + intros u Hu. apply grounded_acc; [now apply (ref_owners_below ns)|auto].
      + exact H.
      + intros u Hu. exists u. auto.
      + cbn [List.length]. unfold all. now rewrite map_length.
  Qed.
End Cycles.

(** ** Policies *)

Lemma size_max_lt x : N.leb x size_max = true <-> (x < 2 ^ 64)%N.
Proof. rewrite N.leb_le. change size_max with (2 ^ 64 - 1)%N. lia. Qed.

Lemma short_dash s : negb (beq (short_prefix ++ s) long_prefix) = true <-> s <> b "-".
Proof.
  rewrite negb_true_iff, beq_neq. change long_prefix with (short_prefix ++ b "-"). split; intros H G; apply H.
  - now rewrite G.
  - now apply app_inv_head in G.
Qed.

Lemma nonempty_iff s : negb (beq s []) = true <-> s <> [].
Proof. now rewrite negb_true_iff, beq_neq. Qed.

Lemma parent_root_iff parents : parent_is is_root parents = true <-> exists r above, parents = r :: above /\ a_root r.
Proof.
  unfold parent_is. destruct parents as [|r above].
  - split; [discriminate|]. intros (? & ? & [=] & _).
  - rewrite is_root_iff. split; [eauto|]. intros (? & ? & [= <- <-] & H). exact H.
Qed.

Definition policy_checked (p : policy) (n : node) (parents : list node) : bool :=
  policy_static p n parents && policy_rules p n parents.

Lemma policy_iff p n parents : uniq n -> In p (n_pols n) ->
  (forall d, In d (n :: parents) -> forall e, In e (map fst (preorder d [])) -> uniq e) ->
  policy_checked p n parents = true <-> policy_ok p n parents.
Proof.
  intros Hu Hp Hb. unfold policy_checked, policy_rules.
  assert (Hq : unique_in_owner p n = true).
  { apply unique_iff in Hu. rewrite forallb_forall in Hu. auto. }
  rewrite Hq. cbn [andb].
  assert (G1 : forall s, gcount_is (Nat.ltb 1) s = true <-> exists k, characters s k /\ 1 < k).
  { intros s. apply gcount_iff. intros k. apply Nat.ltb_lt. }
  assert (G0 : forall s, gcount_is (Nat.ltb 0) s = true <-> exists k, characters s k /\ 0 < k).
  { intros s. apply gcount_iff. intros k. apply Nat.ltb_lt. }
  destruct p; cbn [policy_static policy_ok]; rewrite ?andb_true_r; try (split; [trivial|reflexivity]).
  - rewrite !andb_true_iff, G1, no_whitespace_iff, unique_to_mode_iff by exact I. tauto.
  - rewrite !andb_true_iff, gcount_1, short_dash, unique_to_mode_iff by exact I. tauto.
  - rewrite !andb_true_iff, G1, no_whitespace_iff, unique_to_mode_iff by exact I.
    change [tag_long; tag_short; tag_display] with (map tagk [k_long; k_short; k_display]). rewrite must_not_have_iff. tauto.
  - change [tag_long; tag_short; tag_none] with (map tagk [k_long; k_short; k_none]).
    now rewrite !andb_true_iff, nonempty_iff, must_not_have_iff.
  - apply nonempty_iff.
  - apply nonempty_iff.
  - rewrite andb_true_iff, N.leb_le, size_max_lt. reflexivity.
  - rewrite !andb_true_iff, gcount_1, negb_true_iff.
    assert (E : match count_bounds n with Some (mn, mx) => N.eqb mn 1 && N.eqb mx 1 | None => false end = true
                <-> counts n 1 1).
    { rewrite <- counts_iff by exact Hu. destruct (count_bounds n) as [[mn mx]|]; [|split; discriminate].
      rewrite andb_true_iff, !N.eqb_eq. split; [intros [-> ->]; reflexivity|intros [= -> ->]; auto]. }
    rewrite E. tauto.
  - rewrite short_hb. apply hb_true.
  - rewrite andb_true_iff, !negb_true_iff. rewrite !lacks_cons, lacks_nil. unfold hb, tagk, tag_required, tag_runtime_enable_required. tauto.
  - rewrite andb_true_iff, !negb_true_iff. rewrite !lacks_cons, lacks_nil. unfold hb, tagk, tag_required, tag_runtime_enable. tauto.
  - rewrite !andb_true_iff, G0, no_whitespace_iff, stage_hb, negb_true_iff, lacks_cons, lacks_nil.
    assert (E : match count_bounds n with Some (mn, mx) => negb (N.eqb mn mx) | None => false end = true
                <-> exists mn mx, counts n mn mx /\ mn <> mx).
    { destruct (count_bounds n) as [[mn mx]|] eqn:Ec.
      - rewrite negb_true_iff, N.eqb_neq. apply (counts_iff _ _ _ Hu) in Ec. split; [eauto|].
        intros (mn' & mx' & Hc & H). destruct (counts_fun _ _ _ _ _ Hu Ec Hc) as [-> ->]. exact H.
      - split; [discriminate|]. intros (mn' & mx' & Hc & H). apply (counts_iff _ _ _ Hu) in Hc. congruence. }
    rewrite E. tauto.
  - change [tag_required] with (map tagk [k_required]). apply must_not_have_iff.
  - change [tag_default] with (map tagk [k_default]). apply must_not_have_iff.
  - change [tag_custom_parser; tag_min_max_value; tag_router] with (map tagk [k_parser; k_value_limit; k_router]).
    rewrite andb_true_iff, must_not_have_iff. apply and_iff_compat_l.
    destruct (count_bounds n) as [[mn mx]|] eqn:Ec.
    2:{ split; [discriminate|]. intros (c & m & ts & Hc & _). apply (counts_iff _ _ _ Hu) in Hc. congruence. }
    destruct (nearest_mode_like (n :: parents)) as [mode|] eqn:Em.
    2:{ split; [discriminate|]. intros (c & m & ts & _ & Hm & _). apply nearest_iff in Hm. congruence. }
    assert (Hd : forall e, In e (map fst (preorder mode [])) -> uniq e).
    { apply Hb. apply (find_some _ _ Em). }
    apply (counts_iff _ _ _ Hu) in Ec. rewrite !andb_true_iff, N.eqb_eq, forallb_forall.
    rewrite (acyclic_iff PAlias alias_refs alias_refs_iff mode Hd ns).
    assert (Ht : forall t, In t (ref_owners ns mode) -> forall c,
      match count_bounds t with Some (tn, tx) => N.eqb tn tx && N.eqb tn c | None => false end = true <-> counts t c c).
    { intros t Ht c. assert (Hut : uniq t) by (apply Hd; now apply (ref_owners_below ns)).
      destruct (count_bounds t) as [[tn tx]|] eqn:Et.
      - apply (counts_iff _ _ _ Hut) in Et. rewrite andb_true_iff, !N.eqb_eq. split; [intros [<- <-]; exact Et|].
        intros Hc. destruct (counts_fun _ _ _ _ _ Hut Et Hc) as [-> ->]. auto.
      - split; [discriminate|]. intros Hc. apply (counts_iff _ _ _ Hut) in Hc. congruence. }
    split.
    + intros (((-> & Hr) & Hts) & Hg). exists mx, mode, (ref_owners ns mode). split; [exact Ec|].
      split; [now apply nearest_iff|]. split; [now apply resolved_iff|]. intros t Hin. split; [|auto].
      apply Ht; auto.
    + intros (c & m & ts & Hc & Hm & Hr & Hts). apply nearest_iff in Hm. rewrite Hm in Em. injection Em as ->.
      apply resolved_iff in Hr as [-> Hr]. destruct (counts_fun _ _ _ _ _ Hu Ec Hc) as [-> ->].
      split; [split; [split; [reflexivity|exact Hr]|]|].
      * intros t Hin. apply Ht; [exact Hin|]. now apply Hts.
      * intros t Hin. now apply Hts.
  - destruct (nearest_mode_like parents) as [mode|] eqn:Em.
    2:{ split; [discriminate|]. intros (m & ts & Hm & _). apply nearest_iff in Hm. congruence. }
    assert (Hd : forall e, In e (map fst (preorder mode [])) -> uniq e).
    { apply Hb. right. apply (find_some _ _ Em). }
    rewrite andb_true_iff, (acyclic_iff PDependent dependent_refs dependent_refs_iff mode Hd ns). split.
    + intros [Hr Hg]. exists mode, (ref_owners ns mode). split; [now apply nearest_iff|]. split; [now apply resolved_iff|auto].
    + intros (m & ts & Hm & Hr & Hts). apply nearest_iff in Hm. rewrite Hm in Em. injection Em as ->.
      apply resolved_iff in Hr as [-> Hr]. auto.
  - cbn [andb]. rewrite orb_true_iff, is_mode_iff, parent_root_iff. reflexivity.
  - now rewrite andb_true_iff, G1, no_whitespace_iff.
  - apply G1.
  - apply G1.
  - apply G1.
Qed.

(** ** Nodes *)

Lemma leaf_iff n : no_children n = true <-> leaf n.
Proof. unfold no_children, leaf. destruct (n_children n); split; congruence. Qed.
Lemma inner_iff n : negb (no_children n) = true <-> n_children n <> [].
Proof. unfold no_children. destruct (n_children n); cbn [negb]; split; congruence. Qed.

Lemma counts_00 n : uniq n -> match count_bounds n with Some (0%N, 0%N) => true | _ => false end = true <-> counts n 0 0.
Proof.
  intros Hu. rewrite <- counts_iff by exact Hu. destruct (count_bounds n) as [[[|a] [|c]]|]; split; congruence.
Qed.
Lemma counts_11 n : uniq n -> match count_bounds n with Some (1%N, 1%N) => true | _ => false end = true <-> counts n 1 1.
Proof.
  intros Hu. rewrite <- counts_iff by exact Hu.
  destruct (count_bounds n) as [[[|[a|a|]] [|[c|c|]]]|]; split; congruence.
Qed.
Lemma counts_test n (f : N -> N -> bool) (P : N -> N -> Prop) : uniq n ->
  (forall mn mx, counts n mn mx -> f mn mx = true <-> P mn mx) ->
  match count_bounds n with Some (mn, mx) => f mn mx | None => false end = true <-> exists mn mx, counts n mn mx /\ P mn mx.
Proof.
  intros Hu H. destruct (count_bounds n) as [[mn mx]|] eqn:E.
  - apply (counts_iff _ _ _ Hu) in E. rewrite (H _ _ E). split; [eauto|]. intros (mn' & mx' & Hc & G).
    destruct (counts_fun _ _ _ _ _ Hu E Hc) as [-> ->]. exact G.
  - split; [discriminate|]. intros (mn' & mx' & Hc & _). apply (counts_iff _ _ _ Hu) in Hc. congruence.
Qed.

Definition fallback_policy (p : policy) : bool :=
  match p with PDefaultValue _ | PRequired | PRuntimeEnableRequired _ _ => true | _ => false end.
Lemma fallback_kind p : fallback_policy p = true <-> In (kind_of p) fallbacks.
Proof.
  destruct p; cbn; split; try discriminate; try tauto;
    try (intros [H|[H|[H|[]]]]; discriminate).
Qed.

Lemma one_fallback n : uniq n ->
  Nat.leb (List.length (filter fallback_policy (n_pols n))) 1 = true
  <-> forall k k', In k fallbacks -> In k' fallbacks -> has n k -> has n k' -> k = k'.
Proof.
  intros Hu. rewrite Nat.leb_le. split.
  - intros H k k' Hk Hk' (p & Hp & <-) (q & Hq & <-).
    assert (Fp : In p (filter fallback_policy (n_pols n))) by (apply filter_In; split; [exact Hp|now apply fallback_kind]).
    assert (Fq : In q (filter fallback_policy (n_pols n))) by (apply filter_In; split; [exact Hq|now apply fallback_kind]).
    destruct (filter fallback_policy (n_pols n)) as [|x [|y l]]; [destruct Fp| |cbn [List.length] in H; lia].
    destruct Fp as [<-|[]], Fq as [<-|[]]. reflexivity.
  - intros H. destruct (filter fallback_policy (n_pols n)) as [|x [|y l]] eqn:E; cbn [List.length]; try lia. exfalso.
    assert (Hn : NoDup (map kind_of (filter fallback_policy (n_pols n)))).
    { clear - Hu. unfold uniq in Hu. induction (n_pols n) as [|p ps IH]; [constructor|]. cbn [map filter] in *.
      inversion_clear Hu. destruct (fallback_policy p); [|auto]. cbn [map]. constructor; [|auto].
      intros G. apply H. apply in_map_iff in G as (q & <- & G). apply filter_In in G as [G _]. now apply in_map. }
    rewrite E in Hn. cbn [map] in Hn. inversion_clear Hn.
    assert (Hx : In x (n_pols n) /\ fallback_policy x = true) by (apply filter_In; rewrite E; now left).
    assert (Hy : In y (n_pols n) /\ fallback_policy y = true) by (apply filter_In; rewrite E; right; now left).
    apply H0. left. symmetry. apply H; try (now apply fallback_kind); [exists x|exists y]; tauto.
Qed.

Lemma valued_iff n : uniq n -> (forall mn mx, counts n mn mx -> (mn <= mx)%N) -> arg_base_static n = true <-> valued n.
Proof.
  intros Hu Hm. unfold arg_base_static, valued. rewrite !andb_true_iff, leaf_iff.
  rewrite (counts_test n _ (fun mn mx => mx <> 0%N /\ (mn = 1 /\ mx = 1 \/ vt_container (n_ty n) = true)%N) Hu).
  2:{ intros mn mx Hc. apply Hm in Hc. rewrite andb_true_iff, negb_true_iff, orb_true_iff, andb_true_iff, !N.eqb_eq,
        andb_false_iff, !N.eqb_neq. split; intros [H G]; (split; [lia|exact G]). }
  rewrite (one_fallback n Hu).
  unfold has_lname, has_sname, has_nname, has_dname. rewrite long_hb, short_hb, none_hb, display_hb, !orb_true_iff.
  rewrite !named_by_cons, named_by_nil. tauto.
Qed.

Lemma child_lacks_iff n k : n_children n <> [] ->
  child_must_not_have (tagk k) n = true <-> some_child_lacks n k.
Proof.
  intros H. unfold child_must_not_have, some_child_lacks. destruct (n_children n) as [|c cs]; [congruence|]. clear H.
  rewrite negb_true_iff. generalize (c :: cs). clear. intros l. split.
  - induction l as [|c l IH]; cbn [forallb]; [discriminate|]. destruct (has_tag (tagk k) c) eqn:E; cbn [andb].
    + intros H. destruct (IH H) as (d & Hd & G). exists d. split; [now right|exact G].
    + intros _. exists c. split; [now left|]. now apply hb_false.
  - intros (c & Hc & H). apply not_true_iff_false. intros G. rewrite forallb_forall in G. apply H, hb_true. now apply G.
Qed.

Lemma at_end_iff f (P : node -> Prop) cs : (forall c, f c = true <-> P c) -> at_end f cs = true <-> behind P cs.
Proof.
  intros H. unfold behind. induction cs as [|c cs IH]; cbn [at_end].
  - split; [|reflexivity]. intros _. exists [], []. repeat split; easy.
  - destruct (f c) eqn:E.
    + rewrite forallb_forall. split.
      * intros G. exists [], (c :: cs). split; [reflexivity|]. split; [easy|]. intros d [<-|Hd]; apply H; auto.
      * intros (front & back & Eq & Hf & Hb) d Hd. apply H. apply Hb. destruct front as [|x front].
        { cbn [app] in Eq. rewrite <- Eq. now right. }
        { injection Eq as -> Eq. exfalso. apply (Hf x); [now left|]. now apply H. }
    + rewrite IH. split.
      * intros (front & back & -> & Hf & Hb). exists (c :: front), back. split; [reflexivity|]. split; [|exact Hb].
        intros d [<-|Hd]; [|auto]. rewrite <- H, E. discriminate.
      * intros (front & back & Eq & Hf & Hb). destruct front as [|x front].
        { exfalso. cbn [app] in Eq. assert (P c) by (apply Hb; rewrite <- Eq; now left). apply H in H0. congruence. }
        { injection Eq as -> Eq. exists front, back. split; [exact Eq|]. split; [|exact Hb]. intros d Hd. apply Hf. now right. }
Qed.

Lemma open_iff n : uniq n -> is_list_like n = true <-> open_ended n.
Proof.
  intros Hu. unfold is_list_like, open_ended. rewrite stage_hb, marker_hb, !lacks_cons, lacks_nil.
  rewrite (counts_test n (fun mn mx => negb (N.eqb mn mx) && negb (hb n k_multi_stage) && negb (hb n k_end_marker))
             (fun mn mx => mn <> mx /\ hb n k_multi_stage = false /\ hb n k_end_marker = false) Hu).
  - split; [intros (mn & mx & Hc & H & G & K); eauto 8|]. intros ((mn & mx & Hc & H) & G & K & _). eauto 8.
  - intros mn mx _. rewrite !andb_true_iff, !negb_true_iff, N.eqb_neq. tauto.
Qed.

Lemma list_like_last_iff cs : (forall c, In c cs -> uniq c) ->
  list_like_last cs = true <-> forall front c back, cs = front ++ c :: back -> open_ended c -> back = [].
Proof.
  induction cs as [|c cs IH]; intros Hu.
  - split; [|reflexivity]. intros _ front c back E. destruct front; discriminate.
  - destruct cs as [|d cs].
    + split; [|reflexivity]. intros _ front x back E _. destruct front as [|y [|z front]]; try discriminate.
      injection E as _ E. now symmetry.
    + change (list_like_last (c :: d :: cs)) with (negb (is_list_like c) && list_like_last (d :: cs)).
      rewrite andb_true_iff, IH by (intros; apply Hu; now right). split.
      * intros [H G] front x back E Ho. destruct front as [|y front].
        { injection E as -> E. apply negb_true_iff in H. apply open_iff in Ho; [|apply Hu; now left]. congruence. }
        { injection E as -> E. now apply (G front x back E). }
      * intros H. split.
        { apply negb_true_iff. destruct (is_list_like c) eqn:E; [|reflexivity]. apply open_iff in E; [|apply Hu; now left].
          specialize (H [] c (d :: cs) eq_refl E). discriminate. }
        { intros front x back E Ho. apply (H (c :: front) x back); [now rewrite E|exact Ho]. }
Qed.

Lemma silent_dec c : silent c \/ ~ silent c.
Proof. rewrite <- silent_iff. destruct (no_result_value c); auto. Qed.

Lemma grouping_iff n : (one_of_base_static n && negb (hb n k_no_result)
    && child_must_not_have tag_required n && child_must_not_have tag_default n) = true <-> grouping n.
Proof.
  unfold one_of_base_static, grouping, has_lname, has_sname, has_nname.
  rewrite long_hb, short_hb, none_hb, missing_hb, early_hb, router_hb, !andb_true_iff, Nat.leb_le.
  rewrite existsb_hb, not_existsb_hb, !negb_true_iff.
  change (has_tag tag_description n) with (hb n k_description). change (has_tag tag_custom_parser n) with (hb n k_parser).
  assert (E : existsb (fun c => negb (no_result_value c)) (n_children n) = true <-> exists c, In c (n_children n) /\ ~ silent c).
  { rewrite existsb_exists. split; intros (c & Hc & H); exists c; (split; [exact Hc|]).
    - apply negb_true_iff in H. intros G. apply silent_iff in G. congruence.
    - apply negb_true_iff, not_true_iff_false. intros G. now apply H, silent_iff. }
  rewrite E. clear E.
  assert (L : lacks n (early ++ [k_long; k_short; k_none; k_description; k_parser; k_router; k_no_result])
    <-> lacks n early /\ lacks n [k_long; k_short; k_none; k_description; k_parser; k_router; k_no_result]).
  { unfold lacks. split.
    - intros H. split; intros k Hk; apply H, in_app_iff; auto.
    - intros [H G] k Hk. apply in_app_iff in Hk as [Hk|Hk]; auto. }
  rewrite L, (lacks_cons n k_long), (lacks_cons n k_short), (lacks_cons n k_none), (lacks_cons n k_description),
    (lacks_cons n k_parser), (lacks_cons n k_router), (lacks_cons n k_no_result), lacks_nil.
  assert (C : 2 <= List.length (n_children n) -> forall k, child_must_not_have (tagk k) n = true <-> some_child_lacks n k).
  { intros H k. apply child_lacks_iff. destruct (n_children n); [cbn in H; lia|discriminate]. }
  change tag_required with (tagk k_required). change tag_default with (tagk k_default).
  split.
  - intros H. decompose [and] H. repeat split; auto; apply C; assumption.
  - intros H. decompose [and] H. repeat split; auto; apply C; assumption.
Qed.

Lemma one_anonymous cs : Nat.leb (List.length (filter is_anonymous_mode cs)) 1 = true
  <-> forall front c middle d back, cs = front ++ c :: middle ++ d :: back -> anonymous c -> anonymous d -> False.
Proof.
  rewrite Nat.leb_le. split.
  - intros H front c middle d back -> Hc Hd. apply anonymous_iff in Hc, Hd.
    rewrite filter_app in H. cbn [filter] in H. rewrite Hc, filter_app in H. cbn [filter] in H. rewrite Hd in H.
    rewrite app_length in H. cbn [List.length] in H. rewrite app_length in H. cbn [List.length] in H. lia.
  - intros H.
    assert (F : forall l x r, filter is_anonymous_mode l = x :: r ->
       exists l1 l2, l = l1 ++ x :: l2 /\ anonymous x /\ filter is_anonymous_mode l2 = r).
    { clear. induction l as [|y l IH]; cbn [filter]; [discriminate|]. intros x r. destruct (is_anonymous_mode y) eqn:E.
      - intros [= <- <-]. exists [], l. split; [reflexivity|]. split; [now apply anonymous_iff|reflexivity].
      - intros G. destruct (IH _ _ G) as (l1 & l2 & -> & Hx & Hr). exists (y :: l1), l2. auto. }
    destruct (filter is_anonymous_mode cs) as [|x [|y r]] eqn:E; cbn [List.length]; try lia. exfalso.
    destruct (F _ _ _ E) as (l1 & l2 & -> & Hx & E2). destruct (F _ _ _ E2) as (l3 & l4 & -> & Hy & _).
    exact (H l1 x l3 y l4 eq_refl Hx Hy).
Qed.

Lemma parent_in parents (f : node -> bool) ks : (forall p, f p = true <-> In (n_kind p) ks) ->
  parent_is f parents = true <-> parent_is_a parents ks.
Proof.
  intros H. unfold parent_is, parent_is_a. destruct parents as [|p above].
  - split; [discriminate|]. intros (? & ? & [=] & _).
  - rewrite H. split; [eauto|]. intros (? & ? & [= <- <-] & G). exact G.
Qed.
Lemma parent_mode parents : parent_is is_mode parents = true <-> parent_is_a parents [KMode].
Proof.
  apply parent_in. intros p. rewrite is_mode_iff. unfold a_mode. cbn [In]. split; [intros ->; now left|]. intros [<-|[]]. reflexivity.
Qed.
Lemma parent_root parents : parent_is is_root parents = true <-> parent_is_a parents [KRoot].
Proof.
  apply parent_in. intros p. rewrite is_root_iff. unfold a_root. cbn [In]. split; [intros ->; now left|]. intros [<-|[]]. reflexivity.
Qed.
Lemma parent_root_mode parents : parent_is (fun p => is_root p || is_mode p) parents = true <-> parent_is_a parents [KRoot; KMode].
Proof.
  apply parent_in. intros p. rewrite orb_true_iff, is_root_iff, is_mode_iff. unfold a_root, a_mode. cbn [In].
  split; [intros [->| ->]; auto|]. intros [<-|[<-|[]]]; auto.
Qed.

Lemma min_1_iff n : uniq n -> (hb n k_count = true) ->
  min_1_if_required n = true <-> (has n k_required -> exists mn mx, counts n mn mx /\ 1 <= mn)%N.
Proof.
  intros Hu Hc. unfold min_1_if_required. change (has_tag tag_required n) with (hb n k_required). rewrite <- hb_true.
  destruct (hb n k_required); [|split; [discriminate|reflexivity]].
  rewrite <- (counts_test n (fun mn _ => N.leb 1 mn) (fun mn _ => (1 <= mn)%N) Hu) by (intros; apply N.leb_le).
  rewrite <- count_hb in Hc. destruct (count_bounds n) as [[mn mx]|]; [tauto|discriminate].
Qed.

Ltac hbs := repeat match goal with
  | |- context [has_tag ?t ?n] => progress change (has_tag t n) with (hb n (kindn t))
  end.
Ltac norm_all := unfold has_lname, has_sname, has_nname, has_dname;
  rewrite ?long_hb, ?short_hb, ?none_hb, ?display_hb, ?error_hb, ?stage_hb, ?router_hb,
    ?andb_true_iff, ?negb_true_iff.

Definition class_checked (n : node) (parents : list node) : bool := node_static n parents && node_rules n parents.

Ltac tags := repeat match goal with
  | |- context [must_not_have (?t :: ?ts) ?n] =>
      let k := eval cbv in (kindn t) in
      change (must_not_have (t :: ts) n) with (must_not_have (tagk k :: ts) n); rewrite (must_not_have_cons n k ts)
  end; rewrite ?must_not_have_nil.
Ltac has_tags := repeat match goal with
  | |- context [has_tag ?t ?n] =>
      let k := eval cbv in (kindn t) in change (has_tag t n) with (hb n k)
  end.
Ltac lack := unfold early, fallbacks; cbn [app]; rewrite ?lacks_cons, ?lacks_nil.

Lemma class_iff n parents : uniq n -> (forall c, In c (n_children n) -> uniq c) ->
  (forall mn mx, counts n mn mx -> (mn <= mx)%N) -> class_checked n parents = true <-> class_ok n parents.
Proof.
  intros Hu Hc Hm. pose proof (valued_iff n Hu Hm) as Hv. pose proof (counts_00 n Hu) as H00. pose proof (counts_11 n Hu) as H11.
  unfold class_checked, class_ok, node_static, node_rules. destruct (n_kind n) as [|[]| | | | | |] eqn:K.
  - (* flag *)
    norm_all. rewrite orb_true_iff, leaf_iff, H00. tags. lack. rewrite !named_by_cons, named_by_nil. tauto.
  - (* arg *)
    norm_all. rewrite Hv, H11. tags. lack. tauto.
  - (* multi_arg *)
    norm_all. rewrite Hv. tags. lack.
    assert (E : match count_bounds n with
                | Some (mn, mx) => negb (N.eqb mn 1 && N.eqb mx 1) && N.leb 1 mn
                | None => false
                end = true <-> exists mn mx, counts n mn mx /\ (1 <= mn /\ 1 < mx)%N).
    { apply counts_test; [exact Hu|]. intros mn mx G. apply Hm in G.
      rewrite andb_true_iff, negb_true_iff, andb_false_iff, !N.eqb_neq, N.leb_le. lia. }
    rewrite E. tauto.
  - (* positional_arg *)
    norm_all. rewrite Hv. tags. lack.
    assert (C : valued n -> hb n k_count = true).
    { intros (_ & _ & (mn & mx & G & _) & _). apply hb_true. exists (PMinMaxCount mn mx). auto. }
    pose proof (min_1_iff n Hu) as M. rewrite <- hb_true. tauto.
  - (* forwarding_arg *)
    norm_all. rewrite Hv. tags. lack. tauto.
  - (* counting_flag *)
    norm_all. rewrite orb_true_iff, leaf_iff, H00. tags. has_tags. lack. rewrite !named_by_cons, named_by_nil, <- hb_true. tauto.
  - (* alias_group *)
    rewrite <- grouping_iff. norm_all. tags. rewrite parent_mode.
    assert (E : forallb (fun c => negb (has_multi_stage c && negb (no_result_value c) && has_tag tag_min_max_value c)) (n_children n) = true
      <-> forall c, In c (n_children n) -> has c k_multi_stage -> has c k_value_limit -> silent c).
    { rewrite forallb_forall. split; intros H c Hin.
      - intros Hs Hl. specialize (H c Hin). apply hb_true in Hs, Hl. rewrite stage_hb, Hs in H. apply silent_iff.
        change (has_tag tag_min_max_value c) with (hb c k_value_limit) in H. rewrite Hl in H.
        destruct (no_result_value c); [reflexivity|discriminate].
      - specialize (H c Hin). rewrite stage_hb. change (has_tag tag_min_max_value c) with (hb c k_value_limit).
        rewrite <- !hb_true, <- silent_iff in H. destruct (hb c k_multi_stage), (hb c k_value_limit), (no_result_value c);
        try reflexivity. discriminate (H eq_refl eq_refl). }
    rewrite E. tauto.
  - (* one_of *)
    rewrite <- grouping_iff. norm_all. tags. has_tags. rewrite parent_mode. lack.
    assert (E : forallb (fun c => negb (has_multi_stage c)) (n_children n) = true
      <-> forall c, In c (n_children n) -> ~ has c k_multi_stage).
    { rewrite forallb_forall. split; intros H c Hin; specialize (H c Hin).
      - apply negb_true_iff in H. rewrite stage_hb in H. now apply hb_false.
      - apply negb_true_iff. rewrite stage_hb. now apply hb_false. }
    rewrite E. tauto.
  - (* mode *)
    assert (Ha : anonymous n <-> hb n k_none = false).
    { unfold anonymous, a_mode. rewrite hb_false, K. tauto. }
    assert (F1 : forallb (fun c => negb (is_mode c)) (n_children n) = true <-> forall c, In c (n_children n) -> ~ a_mode c).
    { rewrite forallb_forall. split; intros H c Hin; specialize (H c Hin); [apply negb_true_iff in H|apply negb_true_iff];
      now apply is_mode_false. }
    assert (F2 : forallb is_mode (n_children n) = true <-> forall c, In c (n_children n) -> a_mode c).
    { rewrite forallb_forall. split; intros H c Hin; specialize (H c Hin); now apply is_mode_iff. }
    assert (F3 : forallb (fun c => is_mode c || negb (has_router c)) (n_children n) = true
      <-> forall c, In c (n_children n) -> has c k_router -> a_mode c).
    { rewrite forallb_forall. split; intros H c Hin; specialize (H c Hin).
      - intros G. apply hb_true in G. rewrite router_hb, G in H. apply is_mode_iff. now destruct (is_mode c).
      - rewrite router_hb, <- hb_true, <- is_mode_iff in *. destruct (is_mode c), (hb c k_router); auto. }
    rewrite !andb_true_iff, missing_hb, not_existsb_hb, inner_iff.
    rewrite (at_end_iff _ (fun c => n_kind c = KArg APositional)).
    2:{ intros c. destruct (n_kind c) as [|[]| | | | | |]; split; congruence. }
    rewrite (list_like_last_iff _ Hc), parent_root_mode, F3. tags. has_tags. lack.
    unfold has_lname, has_sname, has_dname, is_anonymous.
    rewrite !long_hb, !short_hb, !none_hb, !display_hb, !error_hb, !router_hb, Ha.
    rewrite <- !hb_true. destruct (hb n k_none); cbn [negb orb andb]; rewrite ?negb_true_iff, ?orb_true_iff, ?Nat.leb_le, ?F1, ?F2.
    all: rewrite ?not_true_iff_false; pose proof (eq_refl true) as T; set (anon := true = false); set (named := false = false).
    + assert (N1 : ~ anon) by (unfold anon; discriminate). clear - N1 T. clearbody anon. tauto.
    + assert (N2 : named) by (unfold named; reflexivity).
      assert (N3 : false <> true) by discriminate. clear - N2 N3 T. clearbody named. tauto.
  - (* help *)
    rewrite !andb_true_iff, leaf_iff, parent_root, missing_hb, not_existsb_hb. tags. has_tags. lack. norm_all.
    rewrite orb_true_iff, !named_by_cons, named_by_nil, <- !hb_true.
    assert (E : match count_bounds n with Some (mn, mx) => N.eqb mn 0 && N.eqb mx size_max | None => false end = true
      <-> counts n 0 (2 ^ 64 - 1)).
    { rewrite <- counts_iff by exact Hu. change (2 ^ 64 - 1)%N with size_max.
      destruct (count_bounds n) as [[mn mx]|]; [|split; discriminate].
      rewrite andb_true_iff, !N.eqb_eq. split; [intros [-> ->]; reflexivity|intros [= -> ->]; auto]. }
    rewrite E. tauto.
  - (* root *)
    assert (F1 : forallb (fun c => no_result_value c || has_router c) (n_children n) = true
      <-> forall c, In c (n_children n) -> silent c \/ has c k_router).
    { rewrite forallb_forall. split; intros H c Hin; specialize (H c Hin).
      - apply orb_true_iff in H as [H|H]; [left; now apply silent_iff|right]. rewrite router_hb in H. now apply hb_true.
      - apply orb_true_iff. rewrite silent_iff, router_hb, hb_true. exact H. }
    assert (F2 : negb (existsb is_anonymous_mode (n_children n)) || at_end is_mode (n_children n) = true
      <-> forall c, In c (n_children n) -> anonymous c -> behind a_mode (n_children n)).
    { rewrite orb_true_iff, negb_true_iff, (at_end_iff _ a_mode) by apply is_mode_iff. split.
      - intros [H|H] c Hin Hanon; [|exact H]. exfalso. apply anonymous_iff in Hanon.
        assert (existsb is_anonymous_mode (n_children n) = true) by (apply existsb_exists; eauto). congruence.
      - intros H. destruct (existsb is_anonymous_mode (n_children n)) eqn:E; [right|now left].
        apply existsb_exists in E as (c & Hin & G). apply anonymous_iff in G. now apply (H c). }
    assert (F3 : match parents with [] => true | _ => false end = true <-> parents = []).
    { destruct parents; split; congruence. }
    rewrite !andb_true_iff, inner_iff, early_hb, missing_hb, !not_existsb_hb, F1, F2, F3, one_anonymous. tags. has_tags. lack.
    norm_all. change tag_required with (tagk k_required). change tag_alias with (tagk k_alias).
    pose proof (child_lacks_iff n k_required) as C1. pose proof (child_lacks_iff n k_alias) as C2.
    clear - C1 C2. tauto.
Qed.

(** ** Trees *)

Lemma counted_le n parents : (forall p, In p (n_pols n) -> policy_ok p n parents) ->
  forall mn mx, counts n mn mx -> (mn <= mx)%N.
Proof. intros H mn mx Hc. apply (H _ Hc). Qed.
Lemma checked_le n parents : (forall p, In p (n_pols n) -> policy_static p n parents = true) ->
  forall mn mx, counts n mn mx -> (mn <= mx)%N.
Proof. intros H mn mx Hc. specialize (H _ Hc). cbn [policy_static] in H. apply andb_true_iff in H as [H _]. now apply N.leb_le. Qed.

Lemma preorder_placed r d parents : placed r d parents ->
  forall e, In e (map fst (preorder d [])) -> exists up, placed r e up.
Proof.
  intros H e He. apply in_map_iff in He as ([e' up] & E & He). cbn [fst] in E. subst e'. apply placed_preorder in He.
  induction He as [|n up' c _ IH Hc]; [eauto|]. destruct IH as [up IH]. exists (n :: up). now constructor.
Qed.
Lemma placed_above r n parents : placed r n parents -> forall d, In d (n :: parents) -> exists up, placed r d up.
Proof.
  induction 1 as [|n parents c H IH Hc]; intros d [<-|Hd]; [exists []; constructor|destruct Hd| |].
  - exists (n :: parents). now constructor.
  - auto.
Qed.

Lemma node_iff r n parents : (forall m up, placed r m up -> uniq m) -> placed r n parents ->
  node_ok (n, parents) = true <-> node_keeps_rules n parents.
Proof.
  intros Hall Hp. assert (Hu : uniq n) by eauto.
  assert (Hc : forall c, In c (n_children n) -> uniq c).
  { intros c Hc. apply (Hall c (n :: parents)). now constructor. }
  assert (Hb : forall d, In d (n :: parents) -> forall e, In e (map fst (preorder d [])) -> uniq e).
  { intros d Hd e He. destruct (placed_above _ _ _ Hp d Hd) as [up Hd']. destruct (preorder_placed _ _ _ Hd' e He) as [up' He'].
    eauto. }
  unfold node_ok, node_keeps_rules.
  assert (E : forallb (fun p => policy_static p n parents && policy_rules p n parents) (n_pols n) = true
    <-> forall p, In p (n_pols n) -> policy_ok p n parents).
  { rewrite forallb_forall. split; intros H p Hin; specialize (H p Hin).
    - apply policy_iff; auto.
    - apply policy_iff in H; auto. }
  rewrite andb_true_iff, E. fold (uniq n). split.
  - intros [H G]. split; [exact Hu|]. split; [|exact G]. apply class_iff; auto. now apply (counted_le n parents).
  - intros (_ & H & G). split; [|exact G]. apply class_iff; auto. now apply (counted_le n parents).
Qed.

Lemma ok_uniq n parents : node_ok (n, parents) = true -> uniq n.
Proof.
  unfold node_ok. rewrite andb_true_iff. intros [_ H]. apply unique_iff. rewrite forallb_forall in *. intros p Hp.
  specialize (H p Hp). apply andb_true_iff in H as [_ H]. unfold policy_rules in H. now apply andb_true_iff in H as [H _].
Qed.

Theorem accepted_compiles r : accepted r = true <-> compiles r.
Proof.
  unfold accepted, compiles. rewrite andb_true_iff, is_root_iff, forallb_forall. split.
  - intros [Hr H]. split; [exact Hr|]. intros n parents Hp.
    assert (Hall : forall m up, placed r m up -> uniq m).
    { intros m up Hm. apply (ok_uniq m up). apply H. now apply placed_preorder. }
    apply (node_iff r); auto. apply H. now apply placed_preorder.
  - intros [Hr H]. split; [exact Hr|]. intros [n parents] Hin. apply placed_preorder in Hin.
    apply (node_iff r); auto. intros m up Hm. apply (H m up Hm).
Qed.

Lemma leads_grounded mk mode n m : grounded mk mode n -> leads mk mode n m -> grounded mk mode m.
Proof.
  intros G H. induction H as [ns ts m Hp Ho Hm|m ns ts k _ IH Hp Ho Hk].
  - destruct G as [_ G]. exact (G _ _ _ Hp Ho Hm).
  - destruct IH as [_ IH]. exact (IH _ _ _ Hp Ho Hk).
Qed.
Lemma leads_first mk mode n m : leads mk mode n m ->
  exists ns ts t, In (mk ns) (n_pols n) /\ owners ns mode ts /\ In t ts /\ (m = t \/ leads mk mode t m).
Proof.
  induction 1 as [ns ts m Hp Ho Hm|m ns ts k _ (ns' & ts' & t & Hp' & Ho' & Ht & Hr) Hp Ho Hk].
  - exists ns, ts, m. auto.
  - exists ns', ts', t. split; [exact Hp'|]. split; [exact Ho'|]. split; [exact Ht|]. right.
    destruct Hr as [->|Hr]; [now apply leads_at with ns ts|now apply leads_on with m ns ts].
Qed.
Lemma leads_snoc mk mode n m k : leads mk mode n m -> leads mk mode m k -> leads mk mode n k.
Proof.
  intros H G. induction G as [ns ts k Hp Ho Hk|k ns ts j _ IH Hp Ho Hj].
  - now apply leads_on with m ns ts.
  - now apply leads_on with k ns ts.
Qed.
Lemma grounded_no_loop mk mode n : grounded mk mode n -> ~ leads mk mode n n.
Proof.
  induction 1 as [n _ _ IH]. intros H. destruct (leads_first _ _ _ _ H) as (ns & ts & t & Hp & Ho & Ht & Hr).
  apply (IH ns ts t Hp Ho Ht). destruct Hr as [E|Hr]; [subst t; exact H|].
  eapply leads_snoc; [exact Hr|]. now apply leads_at with ns ts.
Qed.

Lemma compiles_grounded r n parents : compiles r -> placed r n parents ->
  (forall mode, nearest_routed (n :: parents) mode -> grounded PAlias mode n)
  /\ (forall mode, nearest_routed parents mode -> grounded PDependent mode n).
Proof.
  intros [_ H] Hp. destruct (H n parents Hp) as (Hu & _ & Hpol). split; intros mode Hm; constructor.
  - intros ns Hin. destruct (Hpol _ Hin) as (_ & c & mode' & ts' & _ & Hm' & Hr & _). apply nearest_iff in Hm, Hm'.
    rewrite Hm in Hm'. injection Hm' as <-. now exists ts'.
  - intros ns ts t Hin Ho Ht. destruct (Hpol _ Hin) as (_ & c & mode' & ts' & _ & Hm' & Hr & Hg). apply nearest_iff in Hm, Hm'. rewrite Hm in Hm'.
    injection Hm' as <-. apply resolved_iff in Hr as [-> _]. apply owners_iff in Ho. subst ts. now apply Hg.
  - intros ns Hin. destruct (Hpol _ Hin) as (mode' & ts' & Hm' & Hr & _). apply nearest_iff in Hm, Hm'.
    rewrite Hm in Hm'. injection Hm' as <-. now exists ts'.
  - intros ns ts t Hin Ho Ht. destruct (Hpol _ Hin) as (mode' & ts' & Hm' & Hr & Hg). apply nearest_iff in Hm, Hm'. rewrite Hm in Hm'.
    injection Hm' as <-. apply resolved_iff in Hr as [-> _]. apply owners_iff in Ho. subst ts. now apply Hg.
Qed.

(** Consequences on names and labels: C13, C15, C18, C45, C52. *)
From Verif Require Import Bytes Token Adapter Result CodePoint Utf8 Tree Levenshtein PreParse Parse Root Validator.
From Verif Require Import SpecTokens SpecTake SpecMode SpecDeliver SpecRoot SpecReading SpecClaims SpecPolicy SpecSuggest.
From Verif Require Import TokenProofs TreeProofs OrderProofs PermProofs NodeProofs TakeProofs ModeProofs ParseProofs MeaningProofs RootProofs SelectProofs ReadProofs ExactProofs ClaimProofs SuggestProofs RunProofs.
Local Open Scope list_scope.

(** ** C45: names are unique in a mode *)

Lemma walk_in start n : forall above d path, (forall x, In x (below n) -> is_mode x = false) ->
  In (d, path) (preorder n above) -> In (d :: path) (walk start n above).
Proof.
  induction n as [k id ty pols cs IH] using node_ind'. rewrite Forall_forall in IH. intros above d path Hno H.
  rewrite preorder_eq in H. cbn [walk]. pose proof (Hno _ (below_self _)) as Hm. rewrite Hm. cbn [andb].
  destruct H as [H|H]; [injection H as <- <-; now left|right].
  apply in_flat_map in H as (c & Hc & H). cbn [n_children] in Hc. apply in_flat_map. exists c. split; [easy|].
  apply IH; auto. intros x Hx. apply Hno. now apply (below_child c).
Qed.

Lemma take_until_path (l m : node) q tp : is_mode m = true -> (forall x, In x (l :: q) -> is_mode x = false) ->
  take_until is_mode (l :: q ++ m :: tp) = l :: q ++ [m].
Proof.
  intros Hm H. change (l :: q ++ m :: tp) with ((l :: q) ++ m :: tp). change (l :: q ++ [m]) with ((l :: q) ++ [m]).
  induction (l :: q) as [|x xs IH]; cbn [app take_until]; [now rewrite Hm|].
  rewrite (H x (or_introl eq_refl)). f_equal. apply IH. intros; apply H; now right.
Qed.

Lemma ids_eqb_head x y p q : ids_eqb (ids (x :: p)) (ids (y :: q)) = true -> n_id x = n_id y.
Proof. cbn [ids map ids_eqb]. rewrite andb_true_iff. intros [H _]. now apply N.eqb_eq. Qed.

Lemma child_path m tp c l : sub_ok m tp -> is_mode m = true -> In c (n_children m) -> is_mode c = false -> In l (below c) ->
  exists q, In (l, q ++ m :: tp) (preorder c (m :: tp)) /\ In (l :: q ++ [m]) (walk m m [])
    /\ (forall x, In x (l :: q) -> is_mode x = false) /\ node_ok (l, q ++ m :: tp) = true.
Proof.
  intros Hs Hm Hc Hcm Hl. pose proof (sub_ok_child _ _ _ Hs Hc) as Hsc.
  assert (Hcr : is_root c = false) by (apply (not_root c (m :: tp)); [now apply sub_ok_self|easy]).
  assert (Hno : forall x, In x (below c) -> is_mode x = false) by (intros x; now apply (below_no_mode c (m :: tp))).
  unfold below in Hl. rewrite (preorder_shift c [] [m]) in Hl. apply in_map_iff in Hl as ([l' p] & E & Hin).
  cbn [fst] in E. subst l'. destruct (preorder_path _ _ _ _ Hin) as (q & -> & Hq).
  assert (Hlb : In l (below c)).
  { unfold below. rewrite (preorder_shift c [] [m]). apply in_map_iff. now exists (l, q ++ [m]). }
  exists q. assert (Hpre : In (l, q ++ m :: tp) (preorder c (m :: tp))).
  { clear - Hin. assert (G : forall n x y z d p, In (d, p ++ x) (preorder n (z ++ x)) -> In (d, p ++ y) (preorder n (z ++ y))).
    { clear. intros n. induction n as [k id ty pols cs IH] using node_ind'. rewrite Forall_forall in IH. intros x y z d p H.
      rewrite preorder_eq in H |- *. destruct H as [H|H].
      - injection H as <- H. apply app_inv_tail in H. subst. now left.
      - right. apply in_flat_map in H as (c & Hc & H). apply in_flat_map. exists c. split; [easy|].
        apply (IH c Hc x y (Node k id ty pols cs :: z)). exact H. }
    specialize (G c [] tp [m] l (q ++ [m])). rewrite !app_nil_r in G. specialize (G Hin). now rewrite <- app_assoc in G. }
  split; [easy|]. split; [|split].
  - destruct m as [k id ty pols cs]. cbn [walk]. rewrite N.eqb_refl, andb_false_r. right. apply in_flat_map.
    exists c. split; [exact Hc|]. now apply walk_in.
  - intros x [<-|Hx]; [now apply Hno|]. apply Hno. now apply Hq.
  - now apply Hsc.
Qed.

Lemma name_policy (sel : policy -> option bytes) (mk : bytes -> policy) n s :
  (forall p x, sel p = Some x -> p = mk x) -> first_some sel (n_pols n) = Some s -> In (mk s) (n_pols n).
Proof.
  intros H E. apply first_some_in in E as (p & Hin & Hp). apply H in Hp. now subst p.
Qed.

Lemma names_policies n t : In t (names_of n) ->
  exists p, In p (n_pols n) /\ p = match t_prefix t with PLong => PLongName | PShort => PShortName | PNone => PNoneName end (t_name t).
Proof.
  unfold names_of, opt_tok. intros H. apply in_app_iff in H as [H|H]; [|apply in_app_iff in H as [H|H]].
  - destruct (long_name n) as [s|] eqn:E; [|easy]. destruct H as [<-|[]]. exists (PLongName s). split; [|easy].
    apply (name_policy _ PLongName n s) in E; [easy|]. intros [] x Hx; try discriminate Hx; now injection Hx as ->.
  - destruct (short_name n) as [s|] eqn:E; [|easy]. destruct H as [<-|[]]. exists (PShortName s). split; [|easy].
    apply (name_policy _ PShortName n s) in E; [easy|]. intros [] x Hx; try discriminate Hx; now injection Hx as ->.
  - destruct (none_name n) as [s|] eqn:E; [|easy]. destruct H as [<-|[]]. exists (PNoneName s). split; [|easy].
    apply (name_policy _ PNoneName n s) in E; [easy|]. intros [] x Hx; try discriminate Hx; now injection Hx as ->.
Qed.

Lemma beq_refl s : beq s s = true.
Proof. now apply beq_eq. Qed.

Lemma unique_names m tp l k t : sub_ok m tp -> is_mode m = true -> distinct_types m ->
  argument_of m l -> argument_of m k -> In t (names_of l) -> In t (names_of k) -> l = k.
Proof.
  intros Hs Hm Hd (c & Hc & Hcm & Hl) (d & Hdc & Hdm & Hk) Htl Htk.
  destruct (child_path m tp c l Hs Hm Hc Hcm Hl) as (q & _ & _ & Hq & Hok).
  destruct (child_path m tp d k Hs Hm Hdc Hdm Hk) as (q2 & _ & Hw & _ & _).
  apply (nodup_map_inj n_id (below m) Hd); [now apply (below_child c)|now apply (below_child d)|].
  destruct (names_policies l t Htl) as (p & Hp & Ep). destruct (names_policies k t Htk) as (p' & Hp' & Ep').
  apply node_ok_policies in Hok as (_ & _ & Hpol). destruct (Hpol p Hp) as [_ Hru].
  assert (Hu : unique_to_mode p l (q ++ m :: tp) = true).
  { unfold policy_rules in Hru. apply andb_true_iff in Hru as [_ Hru]. subst p.
    destruct (t_prefix t); try exact Hru. now apply andb_true_iff in Hru as [Hru _]. }
  unfold unique_to_mode in Hu. destruct (q ++ m :: tp) as [|z zs] eqn:Ez; [now destruct q|]. rewrite <- Ez in Hu.
  rewrite take_until_path in Hu by easy. assert (El : last (l :: q ++ [m]) l = m) by exact (last_last (l :: q) m l). rewrite El in Hu.
  rewrite forallb_forall in Hu. specialize (Hu _ Hw). apply orb_true_iff in Hu as [Hu|Hu].
  - apply ids_eqb_head in Hu. now symmetry.
  - exfalso. rewrite forallb_forall in Hu. specialize (Hu _ Hp'). apply negb_true_iff in Hu. subst p p'.
    destruct (t_prefix t); cbn [same_name_policy] in Hu; rewrite beq_refl in Hu; discriminate.
Qed.

(** A name that is declared somewhere in the mode belongs to one argument. *)
Lemma names_unique r m l k t : accepted r = true -> In m (below r) -> is_mode m = true -> distinct_types m ->
  argument_of m l -> argument_of m k -> In t (names_of l) -> In t (names_of k) -> l = k.
Proof.
  intros Ha Hin. apply accepted_sub in Ha as [_ Hs]. destruct (sub_ok_below r [] m Hs Hin) as (tp & _ & Hn).
  now apply (unique_names m tp).
Qed.

Lemma match_names n t : match_node n t = true -> In t (names_of n).
Proof.
  unfold match_node, names_of, opt_tok. destruct t as [p s]. cbn [t_prefix t_name]. intros H.
  apply orb_true_iff in H as [H|H]; [apply orb_true_iff in H as [H|H]|];
    [destruct (long_name n)|destruct (short_name n)|destruct (none_name n)]; try discriminate;
    apply andb_true_iff in H as [H1 H2]; apply beq_eq in H2; subst; destruct p; try discriminate;
    rewrite !in_app_iff; cbn; auto.
Qed.

Lemma named_in n t : In t (names_of n) ->
  match t_prefix t with PLong => long_name n | PShort => short_name n | PNone => none_name n end = Some (t_name t).
Proof.
  unfold names_of, opt_tok. rewrite !in_app_iff.
  intros [H|[H|H]]; [destruct (long_name n) eqn:E|destruct (short_name n) eqn:E|destruct (none_name n) eqn:E];
    try contradiction; destruct H as [<-|[]]; cbn [t_prefix t_name]; (exact E || reflexivity).
Qed.

Lemma norm_clear m l k t : clear_names m -> argument_of m l -> argument_of m k ->
  match_node l (norm_token l t) = true -> match_node k (norm_token k t) = true -> norm_token l t = norm_token k t.
Proof.
  intros Hc Hl Hk Ml Mk. apply match_names, named_in in Ml, Mk. unfold norm_token, node_get_token, get_token_type_for in *.
  destruct (t_prefix t) eqn:Et; try easy.
  assert (Hll : forall a c, argument_of m a -> argument_of m c -> none_name a = Some (t_name t) ->
     starts_with long_prefix (t_name t) = true -> long_name c <> Some (skipn (List.length long_prefix) (t_name t))).
  { intros a c Ha Hac E Hs Hn. destruct (Hc a c _ (skipn (List.length long_prefix) (t_name t)) Ha Hac E) as [H _]. apply (H Hn). symmetry. now apply starts_with_skipn. }
  assert (Hss : forall a c, argument_of m a -> argument_of m c -> none_name a = Some (t_name t) ->
     starts_with short_prefix (t_name t) = true -> short_name c <> Some (skipn (List.length short_prefix) (t_name t))).
  { intros a c Ha Hac E Hs Hn. destruct (Hc a c _ (skipn (List.length short_prefix) (t_name t)) Ha Hac E) as [_ H]. apply (H Hn). symmetry. now apply starts_with_skipn. }
  destruct (starts_with long_prefix (t_name t)) eqn:EL, (starts_with short_prefix (t_name t)) eqn:ES;
    destruct (long_name l) as [ll|] eqn:E1, (long_name k) as [lk|] eqn:E2, (short_name l) as [sl|] eqn:E3, (short_name k) as [sk|] eqn:E4;
    cbn [is_some andb negb t_prefix t_name] in *; try reflexivity; try congruence;
    exfalso;
    first [exact (Hll l k Hl Hk Ml eq_refl (eq_trans E2 Mk))|exact (Hll k l Hk Hl Mk eq_refl (eq_trans E1 Ml))
          |exact (Hss l k Hl Hk Ml eq_refl (eq_trans E4 Mk))|exact (Hss k l Hk Hl Mk eq_refl (eq_trans E3 Ml))].
Qed.

(** A typed label is for one argument. *)
Lemma label_unique r m l k t : accepted r = true -> In m (below r) -> is_mode m = true -> distinct_types m -> clear_names m ->
  argument_of m l -> argument_of m k ->
  match_node l (norm_token l t) = true -> match_node k (norm_token k t) = true -> l = k.
Proof.
  intros Ha Hin Hm Hd Hc Hl Hk Ml Mk. apply (names_unique r m l k (norm_token l t)); auto; [now apply match_names|].
  rewrite (norm_clear m l k t); auto. now apply match_names.
Qed.

(** ** C18: disabled arguments *)

Lemma names_below_enabled n : forall above c, In c (names_below above n) ->
  exists d, In d (below n) /\ SpecTake.enabled d /\ In (snd c) (names_of d).
Proof.
  induction n as [k id ty pols cs IH] using node_ind'. rewrite Forall_forall in IH. intros above c H.
  cbn [names_below] in H. apply in_flat_map in H as (d & Hd & H). unfold enabledb in H.
  destruct (runtime_enabled d) as [[|]|] eqn:E; try contradiction; apply in_app_iff in H as [H|H].
  1, 3: apply in_map_iff in H as (nm & <- & Hnm); exists d; split; [now apply (below_child d); [|apply below_self]|];
        split; [unfold SpecTake.enabled; congruence|exact Hnm].
  all: destruct (IH d Hd _ _ H) as (e & He & H2); exists e; split; [now apply (below_child d)|exact H2].
Qed.

Lemma suggested_enabled n t ts : decodable (typed_name t) ->
  (forall c, In c (names_below [] n) -> decodable (t_name (snd c))) ->
  @unknown_argument_exception unit n t = Throw (EML unknown_argument_with_suggestion ts) ->
  exists d path nm, ts = t :: path ++ [nm] /\ In d (below n) /\ SpecTake.enabled d /\ In nm (names_of d).
Proof.
  intros H1 H2 H. destruct (@suggestion_ok unit n t H1 H2) as [Hno Hyes].
  destruct (enabledb n) eqn:E; [|rewrite Hno in H by auto; discriminate].
  destruct (names_below [] n) as [|c cs] eqn:En; [rewrite Hno in H by auto; discriminate|].
  destruct (Hyes eq_refl) as (x & Hx & Hr); [discriminate|]. rewrite Hr in H. injection H as <-.
  destruct Hx as (bf & af & dd & Hsplit & _).
  destruct (names_below_enabled n [] x) as (d & Hd & Hen & Hin); [rewrite En, Hsplit; apply in_elt|].
  exists d, (fst x), (snd x). easy.
Qed.

Lemma disabled_not_given r args m ts items d : typed r args m ts items -> ~ SpecTake.enabled d ->
  (forall l ns, argument_of m l -> alias_of l = Some ns -> refers_to ns d = false) -> ~ given m items d.
Proof.
  intros Ht Hd Hno (it & Hit & Hs). destruct (typed_item _ _ _ _ _ _ Ht Hit) as (Ha & He & _).
  unfold stands_for in Hs. destruct (alias_of (i_node it)) as [ns|] eqn:E.
  - apply filter_In in Hs as [_ Hs]. rewrite (Hno _ _ Ha E) in Hs. discriminate.
  - destruct Hs as [<-|[]]. now apply Hd.
Qed.

(** ** C52: dependencies on an alias *)

Lemma alias_dependency_dead r args m ts items it ns d ns' : typed r args m ts items -> In it items ->
  In (PDependent ns) (n_pols (i_node it)) -> In d (below m) -> refers_to ns d = true -> alias_of d = Some ns' ->
  (forall l ns'', argument_of m l -> alias_of l = Some ns'' -> refers_to ns'' d = false) -> False.
Proof.
  intros Ht Hit Hp Hd Hr Hal Hno. pose proof Ht as (bf & c & af & ps & Hcs & Hb & Hmc & Hsel & Hrd).
  apply in_split in Hit as (before & after & E).
  destruct (reading_dependent _ _ _ _ Hrd before it after ns d E Hp Hd Hr) as [(a & [] & _)|(it' & Hit' & Hs)].
  assert (Hin' : In it' items) by (rewrite E; apply in_or_app; now left).
  destruct (typed_item _ _ _ _ _ _ Ht Hin') as (Ha & _ & _).
  unfold stands_for in Hs. destruct (alias_of (i_node it')) as [ns2|] eqn:E2.
  - apply filter_In in Hs as [_ Hs]. rewrite (Hno _ _ Ha E2) in Hs. discriminate.
  - destruct Hs as [Hs|[]]. congruence.
Qed.

(** ** C13: one-byte separators *)

Lemma consumes_separator n c t us label vals rest :
  is_named n = true -> value_separator n = Some [c] -> ~ In PShortFormExpander (n_pols n) ->
  consumes n (t :: us) label vals rest ->
  exists p nm w, t = Tok p (nm ++ c :: w) /\ ~ In c nm /\ w <> []
    /\ label = Some (norm_token n (Tok p nm)) /\ match_node n (norm_token n (Tok p nm)) = true
    /\ counted n (Tok PNone w :: us) vals rest.
Proof.
  intros Hn Hsep Hx H. inversion H as [t1 value us1 t' us' v r Hn' Hf Hg Hm Hc|v r Hn' Hne Hc]; subst; [|congruence].
  inversion Hf as [? ? Hs|sep p l c0 s w us2 Hs Hin Hlen Hno Hw]; subst; [congruence|].
  assert (sep = [c]) by congruence. subst sep. destruct Hin as [<-|[]]. destruct s; [|discriminate].
  exists p, l, w. split; [easy|]. split; [apply Hno; now left|]. split; [easy|].
  inversion Hg as [? ? Hng|? nm g gs ? Hgf]; subst; [easy|]. destruct Hgf as [Hgf _]. now apply Hx in Hgf.
Qed.

(** ** C15: end markers *)

Lemma counted_marker n us vals rest mk : token_end_marker n = Some mk ->
  ((exists mn mx, count_bounds n = Some (mn, mx) /\ (9223372036854775808 < mx)%N) \/ (forall p us', us <> Tok p mk :: us')) ->
  counted n us vals rest ->
  (forall u, In u vals -> t_name u <> mk)
  /\ ((exists p, us = vals ++ Tok p mk :: rest) \/ us = vals /\ rest = []).
Proof.
  intros Hm Hor H. destruct H as [mn mx vals rest Hm'|mn mx m p vals rest Hm' Hb E Hno Hc _|mx m p vals rest Hm' Hb Hn Hle E Hc _|mn mx m Hm' Hb Hno Hc].
  - congruence.
  - assert (m = mk) by congruence. subst m. split; [exact Hno|]. left. exists p. exact E.
  - exfalso. assert (m = mk) by congruence. subst m. destruct Hor as [(mn & mx' & Hb' & Hlt)|Hf]; [|exact (Hf _ _ E)].
    rewrite Hb in Hb'. injection Hb' as _ <-. apply N.lt_nge in Hlt. exact (Hlt Hle).
  - assert (m = mk) by congruence. subst m. split; [exact Hno|]. right. split; reflexivity.
Qed.

Lemma counted_front n us vals rest mk mx p : token_end_marker n = Some mk -> count_bounds n = Some (0%N, mx) ->
  is_named n = false -> (mx <= 9223372036854775808)%N -> counted n (Tok p mk :: us) vals rest ->
  us = vals ++ rest /\ (nlen vals <= mx)%N /\ (rest <> [] -> nlen vals = mx).
Proof.
  intros Hm Hb Hn Hle H. inversion H as [mn1 mx1 v r Hm'|mn1 mx1 m p1 v r Hm' Hb' E Hno Hc Hor|mx1 m p1 v r Hm' Hb' Hn' Hle' E Hc Hf|mn1 mx1 m Hm' Hb' Hno Hc].
  - congruence.
  - exfalso. subst v r. assert (m = mk) by congruence. subst m. rewrite Hb in Hb'. injection Hb' as _ <-.
    destruct vals as [|x vals].
    + destruct Hor as [Hx|[Hx|Hx]]; [congruence|exact (Hx eq_refl)|]. apply N.lt_nge in Hx. exact (Hx Hle).
    + injection E as <- _. exact (Hno _ (or_introl eq_refl) eq_refl).
  - subst v r. injection E as _ _ ->. rewrite Hb in Hb'. injection Hb' as <-. split; [reflexivity|]. split; [exact Hc|exact Hf].
  - exfalso. assert (m = mk) by congruence. subst m. exact (Hno _ (or_introl eq_refl) eq_refl).
Qed.

(** ** The same for readings *)

Lemma counted_one n t us vals rest : token_end_marker n = None -> count_bounds n = Some (1, 1)%N ->
  counted n (t :: us) vals rest -> vals = [t] /\ rest = us.
Proof.
  intros Hm Hb H. destruct H as [mn mx vals rest _ Hb' E Hc Hr|mn mx m p vals rest Hm' _ _ _ _ _|mx m p vals rest Hm' _ _ _ _ _ _|mn mx m Hm' _ _ _]; try congruence.
  rewrite Hb in Hb'. injection Hb' as <- <-. unfold nlen in Hc. destruct vals as [|x [|y vals]]; cbn in E, Hc; try lia.
  now injection E as <- <-.
Qed.

Lemma reading_separator m done t us it items c : reading m done (t :: us) (it :: items) ->
  is_named (i_node it) = true -> value_separator (i_node it) = Some [c] -> ~ In PShortFormExpander (n_pols (i_node it)) ->
  count_bounds (i_node it) = Some (1, 1)%N -> token_end_marker (i_node it) = None ->
  exists p nm w i, t = Tok p (nm ++ c :: w) /\ ~ In c nm /\ w <> []
    /\ i_label it = Some (norm_token (i_node it) (Tok p nm)) /\ match_node (i_node it) (norm_token (i_node it) (Tok p nm)) = true
    /\ i_values it = [Tok PNone w] /\ reading m ((i, i_node it) :: done) us items.
Proof.
  intros H Hn Hs Hx Hb Hm. inversion H as [|d0 t0 bf j l af label vals rest its He Hb' Hch Hen Hco Hal Hdp Hrd]; subst.
  cbn [i_node i_label i_values] in *. destruct (consumes_separator l c t us label vals rest) as (p & nm & w & H1 & H2 & H3 & H4 & H5 & H6); auto.
  apply counted_one in H6 as [-> ->]; auto. exists p, nm, w, j. easy.
Qed.

Lemma reading_marker m done ts it items mk : reading m done ts (it :: items) ->
  is_named (i_node it) = false -> token_end_marker (i_node it) = Some mk ->
  ((exists mn mx, count_bounds (i_node it) = Some (mn, mx) /\ (9223372036854775808 < mx)%N) \/ (forall p us, ts <> Tok p mk :: us)) ->
  (forall u, In u (i_values it) -> t_name u <> mk)
  /\ ((exists p rest i, ts = i_values it ++ Tok p mk :: rest /\ reading m ((i, i_node it) :: done) rest items)
      \/ ts = i_values it /\ items = []).
Proof.
  intros H Hn Hm Hor. inversion H as [|d0 t0 bf j l af label vals rest its He Hb' Hch Hen Hco Hal Hdp Hrd]; subst d0 t0 it its.
  cbn [i_node i_label i_values] in *. inversion Hco as [t value us t' us' v r Hn'|v r Hn' Hne Hc]; subst; [congruence|].
  destruct (counted_marker _ _ _ _ _ Hm Hor Hc) as [H1 [[p E]|[E ->]]]; (split; [exact H1|]).
  - left. exists p, rest, j. split; [exact E|exact Hrd].
  - right. split; [exact E|]. destruct items as [|x items]; [reflexivity|]. now apply reading_tokens in Hrd.
Qed.

Lemma reading_front_marker m done p us it items mk mx : reading m done (Tok p mk :: us) (it :: items) ->
  is_named (i_node it) = false -> token_end_marker (i_node it) = Some mk ->
  count_bounds (i_node it) = Some (0%N, mx) -> (mx <= 9223372036854775808)%N ->
  exists rest i, us = i_values it ++ rest /\ (nlen (i_values it) <= mx)%N /\ (rest <> [] -> nlen (i_values it) = mx)
    /\ reading m ((i, i_node it) :: done) rest items.
Proof.
  intros H Hn Hm Hb Hle. inversion H as [|d0 t0 bf j l af label vals rest its He Hb' Hch Hen Hco Hal Hdp Hrd]; subst d0 t0 it its.
  cbn [i_node i_label i_values] in *. inversion Hco as [t value us0 t' us' v r Hn'|v r Hn' Hne Hc]; [congruence|]. subst v r.
  destruct (counted_front _ _ _ _ _ _ _ Hm Hb Hn Hle Hc) as (E & Hc1 & Hc2).
  exists rest, j. split; [exact E|]. split; [exact Hc1|]. split; [exact Hc2|exact Hrd].
Qed.

(** ** C14: separators of several bytes *)

Lemma reading_separator_bytes m done t us it items sep : reading m done (t :: us) (it :: items) ->
  is_named (i_node it) = true -> value_separator (i_node it) = Some sep -> ~ In PShortFormExpander (n_pols (i_node it)) ->
  count_bounds (i_node it) = Some (1, 1)%N -> token_end_marker (i_node it) = None ->
  exists p nm c s w i, t = Tok p (nm ++ (c :: s) ++ w) /\ In c sep /\ List.length (c :: s) = List.length sep
    /\ (forall d, In d sep -> ~ In d nm) /\ w <> []
    /\ i_label it = Some (norm_token (i_node it) (Tok p nm)) /\ match_node (i_node it) (norm_token (i_node it) (Tok p nm)) = true
    /\ i_values it = [Tok PNone w] /\ reading m ((i, i_node it) :: done) us items.
Proof.
  intros H Hn Hs Hx Hb Hm. inversion H as [|d0 t0 bf j l af label vals rest its He Hb' Hch Hen Hco Hal Hdp Hrd]; subst.
  cbn [i_node i_label i_values] in *.
  inversion Hco as [t1 value us1 t' us' v r Hn' Hf Hg Hm' Hc|v r Hn' Hne Hc]; subst; [|congruence].
  inversion Hf as [? ? Hs'|sep' p l1 c s w us2 Hs' Hin Hlen Hno Hw]; subst; [congruence|].
  assert (sep' = sep) by congruence. subst sep'.
  inversion Hg as [? ? Hng|? nm g gs ? Hgf]; subst; [|destruct Hgf as [Hgf _]; now apply Hx in Hgf].
  apply counted_one in Hc as [-> ->]; auto. exists p, l1, c, s, w, j.
  split; [reflexivity|]. split; [exact Hin|]. split; [exact Hlen|]. split; [exact Hno|]. split; [exact Hw|].
  split; [reflexivity|]. split; [exact Hm'|]. split; [reflexivity|exact Hrd].
Qed.

Lemma first_part_unique {A} (sep : list A) x y : forall nm nm' c, In c sep ->
  (forall d, In d sep -> ~ In d nm) -> (forall d, In d sep -> ~ In d nm') ->
  forall c', In c' sep -> nm ++ c :: x = nm' ++ c' :: y -> nm = nm'.
Proof.
  induction nm as [|a nm IH]; intros [|a' nm'] c Hc H H' c' Hc' E; cbn [app] in E; injection E as E1 E2.
  - reflexivity.
  - subst a'. exfalso. apply (H' c Hc). now left.
  - subst a. exfalso. apply (H c' Hc'). now left.
  - subst a'. f_equal. apply (IH nm' c Hc) with (c' := c'); auto; intros d Hd Hin; [apply (H d Hd)|apply (H' d Hd)]; now right.
Qed.

Lemma reading_separator_whole m done p nm sep w us it items : reading m done (Tok p (nm ++ sep ++ w) :: us) (it :: items) ->
  is_named (i_node it) = true -> value_separator (i_node it) = Some sep -> ~ In PShortFormExpander (n_pols (i_node it)) ->
  count_bounds (i_node it) = Some (1, 1)%N -> token_end_marker (i_node it) = None ->
  sep <> [] -> (forall d, In d sep -> ~ In d nm) ->
  w <> [] /\ i_label it = Some (norm_token (i_node it) (Tok p nm)) /\ match_node (i_node it) (norm_token (i_node it) (Tok p nm)) = true
    /\ i_values it = [Tok PNone w] /\ exists i, reading m ((i, i_node it) :: done) us items.
Proof.
  intros H Hn Hs Hx Hb Hm Hsep Hno. destruct (reading_separator_bytes _ _ _ _ _ _ _ H Hn Hs Hx Hb Hm) as (p' & l & c & s & v & i & E & Hc & Hl & Hno' & Hv & Hlab & Hmt & Hvs & Hrd).
  injection E as Ep E. subst p'. destruct sep as [|c' sep']; [easy|].
  assert (nm = l).
  { apply (first_part_unique (c' :: sep') (sep' ++ w) (s ++ v) nm l c' (or_introl eq_refl) Hno Hno' c Hc). exact E. }
  subst l. apply app_inv_head in E.
  assert (w = v) as ->.
  { assert (F : skipn (List.length (c' :: sep')) ((c' :: sep') ++ w) = skipn (List.length (c' :: sep')) ((c :: s) ++ v)) by now rewrite E.
    rewrite <- Hl in F at 2. rewrite !skipn_app, !skipn_all, !Nat.sub_diag in F. exact F. }
  split; [exact Hv|]. split; [exact Hlab|]. split; [exact Hmt|]. split; [exact Hvs|]. now exists i.
Qed.

(** ** C41: bounds of groups with an accumulating member *)

Lemma repeatable_in_range r mem args m ts items vs i c v : fresh r mem args -> typed r args m ts items ->
  calls_router r mem args m vs -> nth_error (router_children m) i = Some c -> nth_error vs i = Some v ->
  repeatable c -> in_range c v.
Proof.
  intros Hf Ht Hc Hi Hv Hr. destruct (run_value r mem args m ts items Hf Ht vs i c Hc Hi) as (v' & Hv' & Hd).
  assert (v' = v) by congruence. subst v'. destruct Hd; auto.
Qed.

(** ** C18: the value of a disabled argument *)

Lemma disabled_default r mem args m ts items vs i c : fresh r mem args -> typed r args m ts items ->
  calls_router r mem args m vs -> nth_error (router_children m) i = Some c -> is_argument c = true -> ~ SpecTake.enabled c ->
  (forall l ns, argument_of m l -> alias_of l = Some ns -> refers_to ns c = false) ->
  nth_error vs i = Some (last (default_values c) (vt_init (n_ty c))).
Proof.
  intros Hf Ht Hc Hi Harg Hd Hno. apply (run_default r mem args m ts items Hf Ht vs i c Hc Hi).
  intros d Hdb. assert (d = c); [|subst d; now apply (disabled_not_given r args m ts items c)].
  pose proof (typed_mode _ _ _ _ _ Ht) as [Hm _]. apply nth_error_In, filter_In in Hi as [Hi _].
  assert (Hc' : In c (below r)) by (apply (below_trans r m c Hm); apply (below_child c); [easy|apply below_self]).
  pose proof (wf_accepted _ (fr_tree _ _ _ Hf)) as Ha.
  apply accepted_sub in Ha as [_ Hs]. destruct (sub_ok_below r [] c Hs Hc') as (tp & _ & Hn). apply sub_ok_self in Hn.
  rewrite (leaf_below c tp Hn) in Hdb.
  - destruct Hdb as [<-|[]]. reflexivity.
  - unfold is_argument in Harg. unfold is_leaf. now destruct (n_kind c).
Qed.

(** ** C51 *)

Lemma not_all_required r n : accepted r = true -> In n (below r) ->
  (exists inst, n_kind n = KOneOf inst) \/ n_kind n = KAliasGroup ->
  exists c, In c (n_children n) /\ ~ In PRequired (n_pols c).
Proof.
  intros Ha Hin Hk. apply accepted_sub in Ha as [_ Hs]. destruct (sub_ok_below r [] n Hs Hin) as (tp & _ & Hn).
  apply sub_ok_self in Hn. unfold node_ok in Hn. apply andb_true_iff in Hn as [Hn _]. apply andb_true_iff in Hn as [Hst Hru].
  assert (H : child_must_not_have tag_required n = true /\ n_children n <> []).
  { unfold node_rules in Hru. unfold node_static, one_of_base_static in Hst. destruct Hk as [[inst Hk]|Hk]; rewrite Hk in Hru, Hst;
      repeat match goal with Hx : _ && _ = true |- _ => apply andb_true_iff in Hx as [? ?] end;
      (split; [assumption|]); destruct (n_children n); [discriminate|easy|discriminate|easy]. }
  destruct H as [H Hne]. unfold child_must_not_have in H. destruct (n_children n) as [|x xs] eqn:E; [easy|]. rewrite <- E in *.
  apply negb_true_iff in H. clear E Hne.
  assert (G : exists c, In c (n_children n) /\ has_tag tag_required c = false).
  { induction (n_children n) as [|y ys IH]; [discriminate|]. cbn [forallb] in H.
    destruct (has_tag tag_required y) eqn:Ey; [|exists y; split; [now left|easy]].
    destruct (IH H) as (c & Hc & Ht). exists c. split; [now right|easy]. }
  destruct G as (c & Hc & Ht). exists c. split; [easy|]. intros Hp.
  assert (has_tag tag_required c = true); [|congruence]. apply existsb_exists. exists PRequired. split; [easy|reflexivity].
Qed.

(** Lemmas on the names in errors and on the report of unknown arguments. *)
From Verif Require Import Bytes Token Adapter Result CodePoint Utf8 Tree PreParse Parse Root Validator Levenshtein.
From Verif Require Import SpecTokens SpecEdit SpecSuggest SpecTake SpecMode SpecDeliver SpecRoot SpecReading SpecFault SpecOutcome.
From Verif Require Import LevProofs SuggestProofs TreeProofs NodeProofs ModeProofs.

Lemma hd_flat_first {A B} (f : A -> option B) (g : B -> token) (l : list A) (rest : list token) (z : token) :
  hd z (flat_map (fun p => match f p with Some s => [g s] | None => [] end) l ++ rest)
  = match first_some f l with Some s => g s | None => hd z rest end.
Proof.
  induction l as [|p l IH]; cbn [flat_map first_some app]; [easy|]. destruct (f p); [easy|]. exact IH.
Qed.

(** The library's name for a node in errors is the one of the specification. *)
Lemma shown_token n : shown n = node_token n.
Proof.
  unfold shown, own_names, node_token, error_name, display_name, long_name, short_name, none_name.
  pose proof (fun (f : policy -> option bytes) g rest => hd_flat_first f g (n_pols n) rest (Tok PNone [])) as H.
  pose proof (H (fun p => match p with PErrorName s => Some s | _ => None end) (Tok PNone)) as H1.
  pose proof (H (fun p => match p with PDisplayName s => Some s | _ => None end) (Tok PNone)) as H2.
  pose proof (H (fun p => match p with PLongName s => Some s | _ => None end) (Tok PLong)) as H3.
  pose proof (H (fun p => match p with PShortName s => Some s | _ => None end) (Tok PShort)) as H4.
  pose proof (H (fun p => match p with PNoneName s => Some s | _ => None end) (Tok PNone)) as H5.
  assert (E : forall (f : policy -> option bytes) (g : bytes -> token) (h : policy -> list token),
    (forall p, h p = match f p with Some s => [g s] | None => [] end) ->
    flat_map h (n_pols n) = flat_map (fun p => match f p with Some s => [g s] | None => [] end) (n_pols n)).
  { intros f g h Hh. now apply flat_map_ext. }
  rewrite (E (fun p => match p with PErrorName s => Some s | _ => None end) (Tok PNone)
             (fun p => match p with PErrorName s => [Tok PNone s] | _ => [] end)) by (now intros []).
  rewrite (E (fun p => match p with PDisplayName s => Some s | _ => None end) (Tok PNone)
             (fun p => match p with PDisplayName s => [Tok PNone s] | _ => [] end)) by (now intros []).
  rewrite (E (fun p => match p with PLongName s => Some s | _ => None end) (Tok PLong)
             (fun p => match p with PLongName s => [Tok PLong s] | _ => [] end)) by (now intros []).
  rewrite (E (fun p => match p with PShortName s => Some s | _ => None end) (Tok PShort)
             (fun p => match p with PShortName s => [Tok PShort s] | _ => [] end)) by (now intros []).
  rewrite (E (fun p => match p with PNoneName s => Some s | _ => None end) (Tok PNone)
             (fun p => match p with PNoneName s => [Tok PNone s] | _ => [] end)) by (now intros []).
  rewrite H1, H2, H3, H4. clear H1 H2 H3 H4. specialize (H5 []). rewrite app_nil_r in H5. rewrite H5.
  repeat match goal with |- context [first_some ?f ?l] => destruct (first_some f l); [reflexivity|] end.
  reflexivity.
Qed.

(** ** Unknown arguments *)

Lemma decodable_dec s : decodable s \/ ~ decodable s.
Proof. unfold decodable. destruct (graphemes s); [left; discriminate|right; intros H; now apply H]. Qed.

Lemma fold_cands_ub tok l : forall bst, l <> [] ->
  ~ decodable tok \/ (exists c, In c l /\ ~ decodable (t_name (snd c))) ->
  fold_cands tok l bst = UB.
Proof.
  induction l as [|c l IH]; intros bst Hne H; [easy|]. cbn [fold_cands]. unfold try_cand, try_name.
  destruct (levenshtein_distance tok (t_name (snd c))) eqn:E; [|easy]. cbn [rbind].
  unfold levenshtein_distance in E. destruct (graphemes tok) eqn:E1; [|easy].
  destruct (graphemes (t_name (snd c))) eqn:E2; [|easy].
  destruct H as [H|(d & [<-|Hd] & H)].
  - exfalso. apply H. unfold decodable. now rewrite E1.
  - exfalso. apply H. unfold decodable. now rewrite E2.
  - apply IH; [now destruct l|]. right. eauto.
Qed.

Lemma unknown_exact A n t : exists x, same_failure (@unknown_argument_exception A n t) x /\ unknown n t x.
Proof.
  assert (Hcase : (enabledb n = false \/ names_below [] n = []) \/ enabledb n = true /\ names_below [] n <> []).
  { destruct (enabledb n); [|auto]. destruct (names_below [] n); [auto|]. right. easy. }
  pose proof (cands_spec n []) as Hc. cbn [map rev] in Hc.
  destruct Hcase as [Hp|[He Hne]].
  - exists (Throw (EML unknown_argument [t])). split; [|now constructor].
    unfold unknown_argument_exception, closest_matching_child_node. fold (typed_name t). rewrite closest_fold_cands.
    destruct (enabledb n); [|reflexivity]. destruct Hp as [?|E]; [discriminate|].
    rewrite E in Hc. destruct (cands [] n); [reflexivity|discriminate].
  - assert (Hd : (decodable (typed_name t) /\ forall c, In c (names_below [] n) -> decodable (t_name (snd c)))
             \/ (~ decodable (typed_name t) \/ exists c, In c (names_below [] n) /\ ~ decodable (t_name (snd c)))).
    { destruct (decodable_dec (typed_name t)) as [H|H]; [|auto].
      clear Hc Hne. induction (names_below [] n) as [|c l IH]; [left; easy|].
      destruct (decodable_dec (t_name (snd c))) as [H1|H1].
      - destruct IH as [[_ H2]|[H2|(d & H2 & H3)]].
        + left. split; [easy|]. intros d [<-|Hd]; auto.
        + easy.
        + right. right. exists d. split; [now right|easy].
      - right. right. exists c. split; [now left|easy]. }
    destruct Hd as [[H1 H2]|Hd].
    + destruct (proj2 (suggestion_ok (A := A) n t H1 H2) He Hne) as (c & Hf & ->).
      eexists. split; [reflexivity|]. now apply unknown_closest.
    + exists UB. split; [|now apply unknown_text].
      unfold unknown_argument_exception, closest_matching_child_node. fold (typed_name t). rewrite closest_fold_cands, He.
      rewrite fold_cands_ub; [reflexivity| |].
      * intros E. apply Hne. rewrite Hc, E. reflexivity.
      * destruct Hd as [Hd|(c & Hin & Hd)]; [now left|right]. rewrite Hc in Hin.
        apply in_map_iff in Hin as (c0 & <- & Hin). exists c0. easy.
Qed.

Lemma first_closest_det tok l c d : decodable tok -> (forall c, In c l -> decodable (t_name (snd c))) ->
  first_closest tok l c -> first_closest tok l d -> c = d.
Proof.
  intros Ht Hl (b1 & a1 & d1 & E1 & D1 & B1 & A1) (b2 & a2 & d2 & E2 & D2 & B2 & A2).
  assert (Hex : forall c, In c l -> exists k, string_distance tok (t_name (snd c)) k).
  { intros e He. destruct (lev_defined tok (t_name (snd e)) Ht (Hl e He)) as [k Hk]. exists k.
    now apply string_distance_fun. }
  assert (Hcase : (exists z, b1 = b2 ++ d :: z) \/ b1 = b2 \/ (exists z, b2 = b1 ++ c :: z)).
  { rewrite E1 in E2. clear - E2. revert b2 E2. induction b1 as [|x b1 IH]; intros [|y b2] E; cbn in E; injection E as <- E.
    - auto.
    - right. right. exists b2. reflexivity.
    - left. exists b1. reflexivity.
    - destruct (IH b2 E) as [(z & ->)|[->|(z & ->)]]; [left; now exists z|now right; left|right; right; now exists z]. }
  destruct Hcase as [(z & ->)|[->|(z & ->)]].
  - (* d is before c *)
    exfalso. specialize (B1 d d2 (in_elt _ _ _) D2).
    assert (Hin : In c a2).
    { rewrite E1 in E2. rewrite <- app_assoc in E2. apply app_inv_head in E2. cbn in E2. injection E2 as <-.
      apply in_elt. }
    specialize (A2 c d1 Hin D1). lia.
  - rewrite E1 in E2. apply app_inv_head in E2. now injection E2.
  - exfalso. specialize (B2 c d1 (in_elt _ _ _) D1).
    assert (Hin : In d a1).
    { rewrite E1 in E2. rewrite <- app_assoc in E2. apply app_inv_head in E2. cbn in E2. injection E2 as ->.
      apply in_elt. }
    specialize (A1 d d2 Hin D2). lia.
Qed.

Lemma unknown_det n t x y : unknown n t x -> unknown n t y -> x = y.
Proof.
  intros [H1|c H1 H2 H3 H4|H1 H2 H3] [K1|d K1 K2 K3 K4|K1 K2 K3]; try reflexivity.
  - destruct H1 as [H1|H1]; [congruence|]. rewrite H1 in K4. destruct K4 as ([|] & a & k & E & _); discriminate.
  - destruct H1; congruence.
  - destruct K1 as [K1|K1]; [congruence|]. rewrite K1 in H4. destruct H4 as ([|] & a & k & E & _); discriminate.
  - now rewrite (first_closest_det _ _ _ _ H2 H3 H4 K4).
  - destruct K3 as [K3|(e & K3 & K4)]; [easy|]. exfalso. now apply K4, H3.
  - destruct K1; congruence.
  - destruct H3 as [H3|(e & H3 & H4)]; [easy|]. exfalso. now apply H4, K3.
Qed.

(** ** Dependencies *)

Lemma first_absent_app t a b : first_absent t (a ++ b)
  = match first_absent t a with Some d => Some d | None => first_absent t b end.
Proof. induction a as [|d a IH]; cbn [app first_absent]; [easy|]. now destruct (target_present t (n_id d)). Qed.

Lemma first_absent_split t l d : first_absent t l = Some d ->
  exists before after, l = before ++ d :: after /\ target_present t (n_id d) = false
    /\ forall e, In e before -> target_present t (n_id e) = true.
Proof.
  induction l as [|x l IH]; cbn [first_absent]; [discriminate|]. destruct (target_present t (n_id x)) eqn:E.
  - intros H. destruct (IH H) as (bf & af & -> & H1 & H2). exists (x :: bf), af. split; [easy|]. split; [easy|].
    intros e [<-|He]; auto.
  - intros [= ->]. exists [], l. easy.
Qed.

Lemma filter_split {A} (f : A -> bool) l a d z : filter f l = a ++ d :: z ->
  exists bf af, l = bf ++ d :: af /\ filter f bf = a.
Proof.
  revert a. induction l as [|x l IH]; intros a E; [now destruct a|]. cbn [filter] in E. destruct (f x) eqn:Ex.
  - destruct a as [|y a]; cbn [app] in E; injection E as <- E.
    + exists [], l. easy.
    + destruct (IH _ E) as (bf & af & -> & H). exists (x :: bf), af. split; [easy|]. cbn [filter]. now rewrite Ex, H.
  - destruct (IH _ E) as (bf & af & -> & H). exists (x :: bf), af. split; [easy|]. cbn [filter]. now rewrite Ex.
Qed.

Lemma first_absent_owners t ns n : (forall d, In d (below n) -> refers_to ns d = true -> n_children d = []) ->
  first_absent t (ref_owners ns n) = first_absent t (filter (refers_to ns) (below n)).
Proof.
  induction n as [k id ty pols cs IH] using node_ind'. intros Hl. rewrite Forall_forall in IH.
  set (n := Node k id ty pols cs) in *.
  assert (Hcs : first_absent t (flat_map (ref_owners ns) cs) = first_absent t (filter (refers_to ns) (flat_map below cs))).
  { assert (Hl' : forall c d, In c cs -> In d (below c) -> refers_to ns d = true -> n_children d = []).
    { intros c d Hc Hd. apply Hl. unfold n. rewrite below_eq. right. apply in_flat_map. eauto. }
    clear Hl. clear n. induction cs as [|c cs IHcs]; [easy|]. cbn [flat_map]. rewrite filter_app, !first_absent_app.
    rewrite IH; [|now left|intros d; apply Hl'; now left].
    rewrite IHcs; [easy|intros x Hx; apply IH; now right|intros x d Hx; apply Hl'; now right]. }
  cbn [ref_owners n]. fold n. rewrite first_absent_app, Hcs. rewrite below_eq. cbn [filter n_children n]. fold n.
  assert (Hown : first_absent t (flat_map (fun p => if existsb (fun r => nameref_is r p) ns then [n] else []) pols)
               = if refers_to ns n then first_absent t [n] else None).
  { assert (E : refers_to ns n = existsb (fun p => existsb (fun r => nameref_is r p) ns) pols).
    { unfold refers_to. apply Bool.eq_true_iff_eq. rewrite !existsb_exists. split.
      - intros (r & Hr & H). apply existsb_exists in H as (p & Hp & H). exists p. split; [exact Hp|].
        apply existsb_exists. eauto.
      - intros (p & Hp & H). apply existsb_exists in H as (r & Hr & H). exists r. split; [easy|].
        apply existsb_exists. eauto. }
    rewrite E. clear. generalize n. intros m. induction pols as [|p ps IH]; [easy|]. cbn [flat_map existsb].
    rewrite first_absent_app, IH. destruct (existsb _ ns); cbn [orb app first_absent]; [|easy].
    destruct (target_present t (n_id m)); [|easy]. destruct (existsb _ ps); easy. }
  rewrite Hown. destruct (refers_to ns n) eqn:Er.
  - assert (Hz : cs = []) by (apply (Hl n (below_self n) Er)). subst cs. cbn [flat_map filter first_absent]. reflexivity.
  - clear. match goal with |- context [first_absent t ?x] => destruct (first_absent t x); reflexivity end.
Qed.

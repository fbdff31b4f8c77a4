(** The suggestion for an unknown argument. *)
From Verif Require Import Bytes Token Result CodePoint Utf8 Tree Levenshtein TreeProofs.
From Verif Require Import SpecEdit SpecSuggest LevProofs.

(** A candidate with the nodes above it, nearest first. *)
Fixpoint cands (above : list node) (n : node) : list (list node * token) :=
  match n with
  | Node _ _ _ _ cs =>
      flat_map (fun c => if enabledb c
                         then map (fun nm => (above, nm)) (names_of c) ++ cands (c :: above) c
                         else []) cs
  end.

Definition try_cand (tok : bytes) (c : list node * token) (bst : best) : res best :=
  try_name tok (t_prefix (snd c)) (Some (t_name (snd c))) (fst c) bst.

Fixpoint fold_cands (tok : bytes) (l : list (list node * token)) (bst : best) : res best :=
  match l with
  | [] => Ok bst
  | c :: l' => rbind (try_cand tok c bst) (fold_cands tok l')
  end.

Lemma fold_cands_app tok l m bst :
  fold_cands tok (l ++ m) bst = rbind (fold_cands tok l bst) (fold_cands tok m).
Proof.
  revert bst; induction l as [|c l IH]; intros bst; cbn [fold_cands app]; [easy|].
  destruct (try_cand tok c bst); cbn [rbind]; auto.
Qed.

Lemma closest_fold_app tok l m bst :
  closest_fold tok (l ++ m) bst = rbind (closest_fold tok l bst) (closest_fold tok m).
Proof.
  revert bst; induction l as [|c l IH]; intros bst; cbn [closest_fold app]; [easy|].
  destruct (closest_visit tok c bst); cbn [rbind]; auto.
Qed.

Lemma disabled_enabledb n : (match runtime_enabled n with Some e => negb e | None => false end)
                            = negb (enabledb n).
Proof. unfold enabledb. destruct (runtime_enabled n) as [[]|]; easy. Qed.

Lemma is_runtime_disabled_cons n ns :
  is_runtime_disabled (n :: ns) = negb (enabledb n) || is_runtime_disabled ns.
Proof. unfold is_runtime_disabled. cbn [existsb]. now rewrite disabled_enabledb. Qed.

Lemma fold_disabled tok n : forall ps bst,
  is_runtime_disabled ps = true -> closest_fold tok (preorder n ps) bst = Ok bst.
Proof.
  induction n as [k id ty pols cs IH] using node_ind'. intros ps bst Hd.
  rewrite preorder_eq. cbn [n_children closest_fold closest_visit].
  set (n := Node k id ty pols cs).
  assert (Hd' : is_runtime_disabled (n :: ps) = true)
    by (rewrite is_runtime_disabled_cons, Hd; apply orb_true_r).
  rewrite Hd'. replace (match ps with [] => Ok bst | _ => Ok bst end) with (@Ok best bst)
    by (now destruct ps).
  cbn [rbind]. clear Hd. clearbody n. induction IH as [|c cs Hc _ IHcs]; [easy|].
  cbn [flat_map]. rewrite closest_fold_app, (Hc _ bst Hd'). cbn [rbind]. exact IHcs.
Qed.

Lemma visit_names tok n ps p0 bst :
  is_runtime_disabled (n :: ps ++ [p0]) = false ->
  closest_visit tok (n, ps ++ [p0]) bst = fold_cands tok (map (fun nm => (ps, nm)) (names_of n)) bst.
Proof.
  intros Hd. unfold closest_visit.
  destruct (ps ++ [p0]) as [|q qs] eqn:E; [now destruct ps|]. rewrite <- E in *. clear E.
  rewrite Hd, removelast_last. unfold names_of.
  rewrite !map_app. rewrite !fold_cands_app.
  assert (T : forall p o b0, fold_cands tok (map (fun nm => (ps, nm)) (opt_tok p o)) b0
                             = try_name tok p o ps b0).
  { intros p [s|] b0; cbn [opt_tok map fold_cands]; [|easy].
    unfold try_cand; cbn [fst snd t_prefix t_name].
    destruct (try_name tok p (Some s) ps b0); easy. }
  rewrite T. destruct (try_name tok PLong (long_name n) ps bst) as [b1| | | |]; cbn [rbind]; try easy.
  rewrite fold_cands_app, T.
  destruct (try_name tok PShort (short_name n) ps b1) as [b2| | | |]; cbn [rbind]; [|easy..].
  now rewrite T.
Qed.

Lemma cands_eq above n :
  cands above n = flat_map (fun c => if enabledb c
                         then map (fun nm => (above, nm)) (names_of c) ++ cands (c :: above) c
                         else []) (n_children n).
Proof. destruct n; reflexivity. Qed.

Lemma fold_children tok p0 n : forall ps bst,
  is_runtime_disabled (n :: ps ++ [p0]) = false ->
  closest_fold tok (flat_map (fun c => preorder c (n :: ps ++ [p0])) (n_children n)) bst
  = fold_cands tok (cands (n :: ps) n) bst.
Proof.
  induction n as [k id ty pols cs IH] using node_ind'. intros ps bst Hd.
  rewrite cands_eq. cbn [n_children].
  set (n := Node k id ty pols cs) in *. clearbody n.
  revert bst. induction IH as [|c cs Hc _ IHcs]; intros bst; [easy|].
  cbn [flat_map]. rewrite closest_fold_app, fold_cands_app.
  assert (E : closest_fold tok (preorder c (n :: ps ++ [p0])) bst
              = fold_cands tok (if enabledb c then map (fun nm => (n :: ps, nm)) (names_of c)
                                                   ++ cands (c :: n :: ps) c else []) bst).
  { destruct (enabledb c) eqn:Ec.
    - rewrite preorder_eq. cbn [closest_fold]. rewrite fold_cands_app.
      assert (Hd' : is_runtime_disabled (c :: (n :: ps) ++ [p0]) = false).
      { rewrite is_runtime_disabled_cons, Ec. exact Hd. }
      change (n :: ps ++ [p0]) with ((n :: ps) ++ [p0]).
      rewrite (visit_names tok c (n :: ps) p0 bst Hd').
      destruct (fold_cands tok (map _ _) bst) as [b1| | | |]; cbn [rbind]; try easy.
      exact (Hc (n :: ps) b1 Hd').
    - rewrite preorder_eq. cbn [closest_fold]. unfold closest_visit at 1.
      rewrite is_runtime_disabled_cons, Ec. cbn [negb orb rbind].
      cbn [fold_cands].
      assert (Hx : is_runtime_disabled (c :: n :: ps ++ [p0]) = true)
        by (rewrite is_runtime_disabled_cons, Ec; easy).
      generalize (n_children c). intros l. induction l as [|d l IHl]; [easy|].
      cbn [flat_map]. rewrite closest_fold_app, fold_disabled by exact Hx. exact IHl. }
  rewrite E. destruct (fold_cands tok _ bst) as [b1| | | |]; cbn [rbind]; [apply IHcs|easy..].
Qed.

Lemma closest_fold_cands tok n :
  closest_fold tok (preorder n []) None
  = if enabledb n then fold_cands tok (cands [] n) None else Ok None.
Proof.
  rewrite preorder_eq. cbn [closest_fold closest_visit rbind].
  destruct (enabledb n) eqn:En.
  - (* children of the start node *)
    rewrite cands_eq. generalize (@None (nat * list token)) as bst.
    assert (Hn : is_runtime_disabled [n] = false) by (rewrite is_runtime_disabled_cons, En; easy).
    induction (n_children n) as [|c cs IHcs]; intros bst; [easy|].
    cbn [flat_map]. rewrite closest_fold_app, fold_cands_app.
    assert (E : closest_fold tok (preorder c [n]) bst
              = fold_cands tok (if enabledb c then map (fun nm => ([], nm)) (names_of c)
                                                   ++ cands [c] c else []) bst).
    { rewrite preorder_eq. cbn [closest_fold]. destruct (enabledb c) eqn:Ec.
      - assert (Hd' : is_runtime_disabled (c :: [] ++ [n]) = false).
        { rewrite is_runtime_disabled_cons, Ec. exact Hn. }
        rewrite fold_cands_app.
        change [n] with ([] ++ [n]). rewrite (visit_names tok c [] n bst Hd').
        destruct (fold_cands tok (map _ _) bst) as [b1| | | |]; cbn [rbind]; try easy.
        exact (fold_children tok n c [] b1 Hd').
      - unfold closest_visit at 1. rewrite is_runtime_disabled_cons, Ec. cbn [negb orb rbind fold_cands].
        assert (Hx : is_runtime_disabled [c; n] = true)
          by (rewrite is_runtime_disabled_cons, Ec; easy).
        generalize (n_children c). intros l. induction l as [|d l IHl]; [easy|].
        cbn [flat_map]. rewrite closest_fold_app, fold_disabled by exact Hx. exact IHl. }
    rewrite E. destruct (fold_cands tok _ bst) as [b1| | | |]; cbn [rbind]; [apply IHcs|easy..].
  - assert (Hx : is_runtime_disabled [n] = true) by (rewrite is_runtime_disabled_cons, En; easy).
    generalize (n_children n). intros l. induction l as [|d l IHl]; [easy|].
    cbn [flat_map]. rewrite closest_fold_app, fold_disabled by exact Hx. exact IHl.
Qed.

(** The specification's candidates are the same. *)
Lemma cands_spec n : forall above,
  names_below (rev (map node_token above)) n
  = map (fun c => (rev (map node_token (fst c)), snd c)) (cands above n).
Proof.
  induction n as [k id ty pols cs IH] using node_ind'. intros above.
  rewrite cands_eq. cbn [names_below n_children].
  induction IH as [|c cs Hc _ IHcs]; [easy|]. cbn [flat_map]. rewrite map_app, IHcs. f_equal.
  destruct (enabledb c); [|easy]. rewrite map_app, map_map. cbn [fst snd]. f_equal.
  rewrite <- Hc. cbn [map rev]. reflexivity.
Qed.

(** Scanning the candidates. *)
Lemma string_distance_fun x y d : levenshtein_distance x y = Some d -> string_distance x y d.
Proof.
  unfold levenshtein_distance, string_distance.
  destruct (graphemes x) as [gx|], (graphemes y) as [gy|]; intros E; try discriminate.
  injection E as <-. exists gx, gy. repeat split; try apply lev_distance; apply beq_eq.
Qed.

Lemma string_distance_lev x y d : string_distance x y d -> levenshtein_distance x y = Some d.
Proof.
  intros (gx & gy & Hx & Hy & Hd). unfold levenshtein_distance. rewrite Hx, Hy. f_equal.
  apply (edit_distance_unique _ _ gx gy); [|exact Hd]. apply lev_distance. apply beq_eq.
Qed.

Lemma string_distance_det x y d d' : string_distance x y d -> string_distance x y d' -> d = d'.
Proof. intros H H'. apply string_distance_lev in H, H'. congruence. Qed.

Lemma lev_defined x y : decodable x -> decodable y -> exists d, levenshtein_distance x y = Some d.
Proof.
  unfold decodable, levenshtein_distance. destruct (graphemes x), (graphemes y); try easy. eauto.
Qed.

(** State of the scan after the candidates [seen]. *)
Definition scan_inv (tok : bytes) (seen : list (list node * token)) (bst : best) : Prop :=
  match bst with
  | None => seen = []
  | Some (d, ts) =>
      exists before c after,
        seen = before ++ c :: after
        /\ ts = snd c :: map node_token (fst c)
        /\ string_distance tok (t_name (snd c)) d
        /\ (forall c' d', In c' before -> string_distance tok (t_name (snd c')) d' -> d < d')
        /\ (forall c' d', In c' after -> string_distance tok (t_name (snd c')) d' -> d <= d')
  end.

Lemma fold_cands_scan tok l : decodable tok ->
  (forall c, In c l -> decodable (t_name (snd c))) ->
  forall seen bst, scan_inv tok seen bst ->
  exists bst', fold_cands tok l bst = Ok bst' /\ scan_inv tok (seen ++ l) bst'.
Proof.
  intros Htok. induction l as [|c l IH]; intros Hl seen bst Hinv.
  - exists bst. rewrite app_nil_r. easy.
  - cbn [fold_cands]. unfold try_cand, try_name.
    destruct (lev_defined tok (t_name (snd c)) Htok (Hl c (or_introl eq_refl))) as [d Hd].
    rewrite Hd. cbn [rbind]. replace (seen ++ c :: l) with ((seen ++ [c]) ++ l)
      by (now rewrite <- app_assoc).
    apply IH; [intros c' Hc'; apply Hl; now right|].
    apply string_distance_fun in Hd.
    destruct c as [ab [p s]]; cbn [fst snd t_prefix t_name] in *.
    destruct bst as [[d0 ts]|]; cbn [scan_inv] in Hinv.
    + destruct Hinv as (before & c0 & after & Es & Ets & Hd0 & Hb & Ha).
      destruct (Nat.ltb_spec d d0) as [Hlt|Hge]; cbn [scan_inv].
      * exists seen, (ab, Tok p s), []. repeat split; cbn [fst snd t_name]; try easy.
        intros c' d' Hin Hd'. subst seen. apply in_app_iff in Hin as [Hin|[<-|Hin]].
        -- specialize (Hb c' d' Hin Hd'). lia.
        -- rewrite (string_distance_det _ _ _ _ Hd' Hd0). lia.
        -- specialize (Ha c' d' Hin Hd'). lia.
      * exists before, c0, (after ++ [(ab, Tok p s)]). repeat split; try easy.
        -- subst seen. now rewrite <- app_assoc.
        -- intros c' d' Hin Hd'. apply in_app_iff in Hin as [Hin|[<-|[]]].
           ++ now apply (Ha c').
           ++ cbn [snd t_name] in Hd'. now rewrite (string_distance_det _ _ _ _ Hd' Hd).
    + subst seen. cbn [scan_inv app]. exists [], (ab, Tok p s), []. repeat split; try easy.
Qed.

Lemma suggestion_ok {A} n t :
  decodable (typed_name t) ->
  (forall c, In c (names_below [] n) -> decodable (t_name (snd c))) ->
  (enabledb n = false \/ names_below [] n = []
   -> @unknown_argument_exception A n t = Throw (EML unknown_argument [t]))
  /\ (enabledb n = true -> names_below [] n <> [] ->
      exists c, first_closest (typed_name t) (names_below [] n) c
                /\ @unknown_argument_exception A n t
                   = Throw (EML unknown_argument_with_suggestion (t :: fst c ++ [snd c]))).
Proof.
  intros Ht Hn. unfold unknown_argument_exception, closest_matching_child_node.
  fold (typed_name t). rewrite closest_fold_cands.
  pose proof (cands_spec n []) as Hc. cbn [map rev] in Hc.
  split.
  - intros [->|E]; [reflexivity|]. destruct (enabledb n); [|reflexivity].
    rewrite E in Hc. destruct (cands [] n); [reflexivity|discriminate].
  - intros -> Hne.
    destruct (fold_cands_scan (typed_name t) (cands [] n) Ht) with (seen := @nil (list node * token))
      (bst := @None (nat * list token)) as (bst' & E & Hinv); [|easy|].
    { intros c Hin. rewrite Hc in Hn.
      apply (Hn (rev (map node_token (fst c)), snd c)).
      apply (in_map (fun c => (rev (map node_token (fst c)), snd c)) _ _ Hin). }
    rewrite E. cbn [rbind]. cbn [app] in Hinv.
    destruct bst' as [[d ts]|]; cbn [scan_inv] in Hinv.
    + destruct Hinv as (before & c & after & Es & -> & Hd & Hb & Ha).
      exists (rev (map node_token (fst c)), snd c). split.
      * exists (map (fun c => (rev (map node_token (fst c)), snd c)) before),
               (map (fun c => (rev (map node_token (fst c)), snd c)) after), d.
        repeat split; try easy.
        -- rewrite Hc, Es, map_app. reflexivity.
        -- intros c' d' Hin. apply in_map_iff in Hin as (c0 & <- & Hin). cbn [snd]. now apply Hb.
        -- intros c' d' Hin. apply in_map_iff in Hin as (c0 & <- & Hin). cbn [snd]. now apply Ha.
      * cbn [fst snd rev]. reflexivity.
    + rewrite Hinv in Hc. now elim Hne.
Qed.

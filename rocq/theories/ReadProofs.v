(** The token loop of a mode does exactly what {!SpecReading} says. *)
From Verif Require Import Bytes Token Adapter Result CodePoint Utf8 Tree PreParse Parse Root Validator Levenshtein.
From Verif Require Import SpecPolicy SpecTokens SpecTake SpecMode SpecDeliver SpecRoot SpecReading SpecFault SpecOutcome.
From Verif Require Import OrderProofs TreeProofs NodeProofs TakeProofs ModeProofs FaultProofs SelectProofs ParseProofs MeaningProofs RootProofs.

(** ** The argument nodes of a mode *)

Lemma entries_from_in cs : forall k i l, In (i, l) (entries_from k cs) <->
  exists j c, i = k + j /\ nth_error cs j = Some c /\ is_mode c = false /\ In l (below c) /\ is_argument l = true.
Proof.
  induction cs as [|c cs IH]; intros k i l; cbn [entries_from].
  - split; [easy|]. intros ([|j] & c & _ & H & _); discriminate.
  - rewrite in_app_iff, IH. split.
    + intros [H|(j & d & -> & Hj & H)].
      * destruct (is_mode c) eqn:Em; [easy|]. apply in_map_iff in H as (l' & [= <- <-] & H).
        apply filter_In in H as [H1 H2]. exists 0, c. rewrite Nat.add_0_r. easy.
      * exists (S j), d. split; [lia|easy].
    + intros ([|j] & d & -> & Hj & Hm & Hl & Ha).
      * injection Hj as ->. left. rewrite Hm. rewrite Nat.add_0_r. apply in_map. now apply filter_In.
      * right. exists j, d. split; [lia|easy].
Qed.

Lemma entries_in m i l : In (i, l) (entries m) <->
  exists c, nth_error (n_children m) i = Some c /\ is_mode c = false /\ In l (below c) /\ is_argument l = true.
Proof.
  unfold entries. rewrite entries_from_in. split.
  - intros (j & c & -> & H). exists c. exact H.
  - intros (c & H). exists i, c. easy.
Qed.

Lemma leaf_below l tp : node_ok (l, tp) = true -> is_leaf l = true -> below l = [l].
Proof.
  intros H Hk. rewrite below_eq. apply node_ok_policies in H as (H & _ & _).
  assert (Hz : no_children l = true).
  { unfold node_static, arg_base_static in H. unfold is_leaf in Hk.
    destruct (n_kind l) as [|[]| | | | | |]; try discriminate;
      repeat match goal with Hx : _ && _ = true |- _ => apply andb_true_iff in Hx as [? ?] end; easy. }
  unfold no_children in Hz. destruct (n_children l); easy.
Qed.

(** The members of a group are arguments: groups are not nested. *)
Lemma group_member c tp d : sub_ok c tp -> is_dep c = true -> In d (n_children c) -> is_leaf d = true.
Proof.
  intros Hs Hd Hin. destruct (dep_children c tp d Hs Hd Hin) as (H1 & H2 & H3).
  pose proof (sub_ok_self _ _ (sub_ok_child _ _ _ Hs Hin)) as Hok.
  apply node_ok_policies in Hok as (_ & Hr & _). unfold node_rules in Hr.
  assert (Hp : parent_is is_mode (c :: tp) = false).
  { cbn [parent_is]. unfold is_mode. unfold is_dep in Hd. now destruct (n_kind c). }
  unfold is_leaf. unfold is_mode, is_root in *. destruct (n_kind d); try discriminate; try easy;
    rewrite Hp in Hr; rewrite andb_false_r in Hr; discriminate.
Qed.

Lemma group_arguments c tp : sub_ok c tp -> is_dep c = true -> filter is_argument (below c) = n_children c.
Proof.
  intros Hs Hd. rewrite below_eq. cbn [filter].
  replace (is_argument c) with false by (unfold is_argument; unfold is_dep in Hd; now destruct (n_kind c)).
  assert (H : forall d, In d (n_children c) -> is_leaf d = true /\ below d = [d]).
  { intros d Hin. pose proof (group_member c tp d Hs Hd Hin) as Hl. split; [easy|].
    apply (leaf_below d (c :: tp)); [|easy]. apply sub_ok_self. now apply sub_ok_child. }
  clear Hs. induction (n_children c) as [|d ds IH]; [easy|]. cbn [flat_map].
  destruct (H d (or_introl eq_refl)) as [Hl ->]. cbn [app filter].
  replace (is_argument d) with true by (symmetry; exact Hl). f_equal. apply IH. intros e He. apply H. now right.
Qed.

Lemma kinds c : is_leaf c = true \/ is_dep c = true \/ is_mode c = true \/ is_root c = true.
Proof. unfold is_leaf, is_dep, is_mode, is_root. destruct (n_kind c); auto. Qed.

(** ** A child as the sequence of its arguments *)

Definition wrap (c : node) (v : validator) : validator :=
  match n_kind c with KOneOf inst => one_of_validator inst c v | _ => v end.

Lemma wrap_again c already front l m m' : wrap c (verify_match already front) l m = (m', Ok true) ->
  wrap c (verify_match already front) l m' = (m', Ok true).
Proof.
  assert (Hv : forall m m', verify_match already front l m = (m', Ok true) ->
            m' = m /\ forall m2, verify_match already front l m2 = (m2, Ok true)).
  { intros m0 m1. unfold verify_match. intros [= <- H]. split; [easy|]. intros m2. now rewrite H. }
  unfold wrap. destruct (n_kind c); try (intros H; apply Hv in H as [-> H]; apply H).
  unfold one_of_validator. destruct (mem_get m inst) as [h|] eqn:E.
  - destruct (N.eqb (n_id l) h) eqn:Eh; [|discriminate]. intros H. apply Hv in H as [-> H].
    rewrite E, Eh. apply H.
  - intros H. apply Hv in H as [-> H]. cbn [mem_get]. rewrite !N.eqb_refl. apply H.
Qed.

Lemma one_of_first ls parents pt w s :
  (forall l m m', In l ls -> w l m = (m', Ok true) -> w l m' = (m', Ok true)) ->
  one_of_match (map (fun l => (l, node_pre_parse l parents)) ls) pt w s
  = first_match (map (fun l => node_pre_parse l parents) ls) pt w s.
Proof.
  revert s. induction ls as [|l ls IH]; intros s Hw; [easy|]. cbn [map one_of_match first_match].
  unfold mbind at 1 3. destruct (node_pre_parse l parents pt w s) as [s1 r] eqn:E.
  destruct r as [[t|]| | | |]; try easy.
  - apply node_pre_parse_inv in E. destruct E as (a & tg & m & a' & _ & _ & _ & Hv & _ & _).
    apply Hw in Hv; [|now left]. unfold mbind, run_validator. rewrite Hv. now destruct s1.
  - apply IH. intros l0 m m' Hin. apply Hw. now right.
Qed.

Lemma first_match_ext (g h : node -> child_pp) pt v ls :
  (forall l, In l ls -> g l = h l) -> first_match (map g ls) pt v = first_match (map h ls) pt v.
Proof. intros H. f_equal. apply map_ext_in. exact H. Qed.

Lemma child_arguments f c tp parents pt already front s :
  sub_ok c tp -> is_mode c = false -> is_root c = false ->
  pre_parse f c parents pt (verify_match already front) s
  = first_match (map (fun l => node_pre_parse l parents) (filter is_argument (below c))) pt
                (wrap c (verify_match already front)) s.
Proof.
  intros Hs Hm Hr. destruct (kinds c) as [Hk|[Hk|[Hk|Hk]]]; try congruence.
  - rewrite (leaf_below c tp) by (auto; now apply sub_ok_self). cbn [filter].
    replace (is_argument c) with true by (symmetry; exact Hk). cbn [map first_match].
    rewrite leaf_pre_parse by easy.
    replace (wrap c (verify_match already front)) with (verify_match already front)
      by (unfold wrap; unfold is_leaf in Hk; destruct (n_kind c); easy).
    unfold mbind. destruct (node_pre_parse c parents pt _ s) as [s1 [[t|]| | | |]]; reflexivity.
  - rewrite (group_arguments c tp) by easy.
    assert (Hl : forall l, In l (n_children c) -> pre_parse f l parents = node_pre_parse l parents).
    { intros l Hl. apply leaf_pre_parse. now apply (group_member c tp). }
    assert (Hw : forall l m m', In l (n_children c) -> wrap c (verify_match already front) l m = (m', Ok true) ->
                   wrap c (verify_match already front) l m' = (m', Ok true))
      by (intros l m m' _; apply wrap_again).
    destruct c as [k id ty pols cs]. cbn [n_children] in *. unfold is_dep in Hk. cbn [n_kind] in Hk.
    destruct k; try discriminate; cbn [pre_parse]; unfold wrap; cbn [n_kind].
    + now rewrite (first_match_ext _ _ _ _ _ Hl).
    + rewrite <- one_of_first by (intros l m m' Hin; apply (Hw l m m' Hin)).
      assert (He : map (fun c => (c, pre_parse f c parents)) cs = map (fun l => (l, node_pre_parse l parents)) cs).
      { apply map_ext_in. intros l Hin. f_equal. now apply Hl. }
      now rewrite He.
Qed.

(** ** The children of a mode as the sequence of its arguments *)

Definition checks (m : node) (seen : list bool) (front : token) (i : nat) : validator :=
  match nth_error (n_children m) i with
  | Some c => wrap c (verify_match (nth i seen false) front)
  | None => verify_match (nth i seen false) front
  end.

Fixpoint flat_try (m : node) (parents : list node) (seen : list bool) (front : token) (tg : target)
         (es : list (nat * node)) : M (option (nat * target)) :=
  match es with
  | [] => mret None
  | (i, l) :: es' =>
      (r <- node_pre_parse l (m :: parents) (Some tg) (checks m seen front i) ;;
       match r with
       | Some t => mret (Some (i, t))
       | None => flat_try m parents seen front tg es'
       end)%m
  end.

Lemma flat_try_child m parents seen front tg k ls : forall es s,
  flat_try m parents seen front tg (map (pair k) ls ++ es) s
  = (r <- first_match (map (fun l => node_pre_parse l (m :: parents)) ls) (Some tg) (checks m seen front k) ;;
     match r with
     | Some t => mret (Some (k, t))
     | None => flat_try m parents seen front tg es
     end)%m s.
Proof.
  induction ls as [|l ls IH]; intros es s.
  - cbn [map app first_match]. reflexivity.
  - cbn [map app first_match flat_try]. unfold mbind at 1 2 3.
    destruct (node_pre_parse l (m :: parents) (Some tg) (checks m seen front k) s) as [s1 [[t|]| | | |]]; try easy.
    rewrite IH. reflexivity.
Qed.

Lemma mode_try_flat f m tp parents seen front tg cs : forall k s,
  (forall j c, nth_error cs j = Some c -> nth_error (n_children m) (k + j) = Some c
                                          /\ sub_ok c (m :: tp) /\ is_root c = false) ->
  mode_try (map (fun c => (c, pre_parse f c (m :: parents))) cs) k seen front tg s
  = flat_try m parents seen front tg (entries_from k cs) s.
Proof.
  induction cs as [|c cs IH]; intros k s H; [reflexivity|]. cbn [map mode_try entries_from].
  assert (IH' : forall s, mode_try (map (fun c => (c, pre_parse f c (m :: parents))) cs) (S k) seen front tg s
                = flat_try m parents seen front tg (entries_from (S k) cs) s).
  { intros s0. apply IH. intros j d Hj. specialize (H (S j) d Hj). now rewrite Nat.add_succ_r in H. }
  destruct (H 0 c eq_refl) as (Hc & Hs & Hr). rewrite Nat.add_0_r in Hc.
  destruct (is_mode c) eqn:Em; [apply IH'|]. rewrite flat_try_child.
  unfold mbind. rewrite (child_arguments f c (m :: tp)) by easy.
  unfold checks at 1. rewrite Hc.
  destruct (first_match _ _ _ _) as [s1 [[t|]| | | |]]; try reflexivity. apply IH'.
Qed.

(** ** Facts about an argument of a mode *)

Record entry_ok (m : node) (parents : list node) (l : node) : Prop := {
  eo_leaf : leaf l;
  eo_below : In l (flat_map below (n_children m));
  eo_count : count_bounds l <> None;
  eo_value : is_value_leaf l = true;
  eo_router : has_router l = false;
  eo_mode : has_router m = true;
  eo_alias : forall ns, In (PAlias ns) (n_pols l) -> is_named l = true;
  eo_alias_subs : forall ns vals, In (PAlias ns) (n_pols l) -> alias_subs ns m vals <> [];
  eo_near : nearest_mode_like (l :: m :: parents) = Some m;
  eo_near' : nearest_mode_like (m :: parents) = Some m
}.

Lemma leaf_count l tp : node_ok (l, tp) = true -> is_leaf l = true -> count_bounds l <> None.
Proof.
  intros H Hk E. apply node_ok_policies in H as (H & _ & _). unfold node_static, arg_base_static in H.
  unfold is_leaf in Hk. rewrite E in H. destruct (n_kind l) as [|[]| | | | | |]; try discriminate;
    repeat match goal with Hx : _ && _ = true |- _ => apply andb_true_iff in Hx as [? ?] end; discriminate.
Qed.

Lemma has_tag_in p n : In p (n_pols n) -> has_tag (pol_tag p) n = true.
Proof. intros H. apply existsb_exists. exists p. split; [easy|]. apply N.eqb_refl. Qed.

Lemma alias_named l tp ns : node_ok (l, tp) = true -> is_leaf l = true -> In (PAlias ns) (n_pols l) -> is_named l = true.
Proof.
  intros H Hk Hin. apply has_tag_in in Hin. cbn [pol_tag] in Hin.
  apply node_ok_policies in H as (H & Hr & _). unfold node_static, arg_base_static in H. unfold node_rules in Hr.
  unfold is_leaf in Hk. unfold is_named. unfold has_lname, has_sname, has_nname, has_dname in H.
  destruct (n_kind l) as [|[]| | | | | |]; try discriminate;
    repeat match goal with Hx : _ && _ = true |- _ => apply andb_true_iff in Hx as [? ?] end.
  all: unfold must_not_have in *; cbn [forallb] in *; unfold tag_alias in *.
  all: repeat match goal with Hx : _ && _ = true |- _ => apply andb_true_iff in Hx as [? ?] end.
  all: try (exfalso; match goal with Hx : negb (has_tag 16 ?x) = true, Hy : has_tag 16 ?x = true |- _ => rewrite Hy in Hx; discriminate end).
  all: repeat match goal with Hx : context [is_some ?x] |- _ => destruct x; cbn in *; try discriminate end; try easy.
Qed.

Lemma entry_facts m tp parents i l : sub_ok m tp -> is_mode m = true -> In (i, l) (entries m) -> entry_ok m parents l.
Proof.
  intros Hs Hm Hin. apply entries_in in Hin as (c & Hi & Hcm & Hl & Hk).
  assert (Hc : In c (n_children m)) by (eapply nth_error_In; exact Hi).
  pose proof (sub_ok_child _ _ _ Hs Hc) as Hsc.
  destruct (sub_ok_below _ _ l Hsc Hl) as (tpl & Hpre & Hsl). pose proof (sub_ok_self _ _ Hsl) as Hok.
  assert (Hlb : In l (flat_map below (n_children m))) by (apply in_flat_map; eauto).
  pose proof (mode_router m tp c Hs Hm Hc Hcm) as Hrt.
  destruct (leaf_value_leaf m tp l Hs Hm Hlb Hk) as [Hvl Hnr].
  constructor; auto.
  - now apply (node_ok_is_leaf l tpl).
  - now apply (leaf_count l tpl).
  - intros ns. now apply (alias_named l tpl).
  - intros ns vals Hal. apply (alias_subs_ne ns l tpl m vals); [easy|easy|].
    destruct (preorder_path _ _ _ _ Hpre) as (q & -> & Hq).
    apply (nearest_skip (l :: q) m tp); [|easy].
    intros d [<-|Hd]; [easy|]. destruct (mode_below m tp d Hs Hm) as (_ & _ & Hx).
    + apply in_flat_map. eauto.
    + apply Hx. apply (below_no_mode c (m :: tp)); auto.
      apply (not_root c (m :: tp)); [now apply sub_ok_self|easy].
  - unfold nearest_mode_like. cbn [find]. now rewrite Hnr, Hrt.
  - unfold nearest_mode_like. cbn [find]. now rewrite Hrt.
Qed.

(** ** The state of the loop *)

Definition mem_ok (m : node) (done : list (nat * node)) (mem : memory) : Prop :=
  forall i c inst, nth_error (n_children m) i = Some c -> n_kind c = KOneOf inst ->
    match mem_get mem inst with
    | Some h => used done i /\ forall l, In (i, l) done -> n_id l = h
    | None => ~ used done i
    end.

Definition subs_ok (m : node) (done : list (nat * node)) (subs : list target) : Prop :=
  forall id, (exists s, In s subs /\ n_id (tg_node s) = id)
             <-> exists a d, In a done /\ In d (stands_for m (snd a)) /\ n_id d = id.

Record state_ok (m : node) (done : list (nat * node)) (tg : target) (seen : list bool) (mem : memory) : Prop := {
  so_len : List.length seen = List.length (n_children m);
  so_seen : forall i, nth i seen false = true <-> used done i;
  so_mem : mem_ok m done mem;
  so_node : tg_node tg = m;
  so_subs : subs_ok m done (tg_subs tg);
  so_done : forall a, In a done -> In a (entries m)
}.

Definition distinct_choices (m : node) : Prop :=
  forall i j c d inst, nth_error (n_children m) i = Some c -> nth_error (n_children m) j = Some d ->
    n_kind c = KOneOf inst -> n_kind d = KOneOf inst -> i = j.

Lemma nodup_map_inj {A B} (f : A -> B) l : NoDup (map f l) -> forall x y, In x l -> In y l -> f x = f y -> x = y.
Proof.
  induction l as [|a l IH]; intros H x y Hx Hy E; [easy|]. cbn [map] in H. inversion H as [|? ? Hn Hd]; subst.
  destruct Hx as [<-|Hx], Hy as [<-|Hy]; auto.
  - exfalso. apply Hn. rewrite E. now apply in_map.
  - exfalso. apply Hn. rewrite <- E. now apply in_map.
Qed.

Lemma entry_below m i l : In (i, l) (entries m) -> In l (below m).
Proof.
  intros H. apply entries_in in H as (c & Hi & _ & Hl & _). apply (below_child c); [|easy].
  eapply nth_error_In; exact Hi.
Qed.

(** How a forbidden argument is reported. *)
Definition forbidden (m : node) (done : list (nat * node)) (front : token) (i : nat) (l : node) (e : exn) : Prop :=
  (excluded m done i l /\ exists c, nth_error (n_children m) i = Some c
     /\ e = EML one_of_selected_type_mismatch [node_token c])
  \/ (~ excluded m done i l /\ is_named l = true /\ has_multi_stage l = false /\ used done i
      /\ e = EML argument_has_already_been_set [front]).

(** What the checks of the mode and its groups decide. *)
Lemma checks_spec m done tg seen mem front i l : state_ok m done tg seen mem -> distinct_types m ->
  distinct_choices m -> In (i, l) (entries m) ->
  (spent m done i l /\ checks m seen front i l mem = (mem, Ok false))
  \/ (allowed m done i l /\ exists mem', checks m seen front i l mem = (mem', Ok true) /\ mem_ok m ((i, l) :: done) mem')
  \/ (~ allowed m done i l /\ ~ spent m done i l /\ exists e, checks m seen front i l mem = (mem, Throw e) /\ forbidden m done front i l e).
Proof.
  intros S Hd Hdc Hin.
  assert (Hinj : forall l', In (i, l') done -> n_id l' = n_id l -> l' = l).
  { intros l' Hl' E. apply (nodup_map_inj n_id (below m)); auto.
    - apply (entry_below m i). now apply (so_done _ _ _ _ _ S).
    - now apply (entry_below m i). }
  pose proof (so_seen _ _ _ _ _ S i) as Hseen. pose proof (so_mem _ _ _ _ _ S) as Hmem.
  (* the memory after an argument of a child that is not a one_of, or that was chosen before *)
  assert (Hsame : ~ excluded m done i l -> (is_choice m i -> used done i) -> mem_ok m ((i, l) :: done) mem).
  { intros Hex Hch j d inst Hj Hk. specialize (Hmem j d inst Hj Hk). destruct (mem_get mem inst) as [h|] eqn:E.
    - destruct Hmem as [[l0 H1] H2]. split; [exists l0; now right|]. intros l1 [[= <- <-]|H3]; [|now apply H2].
      assert (l0 = l); [|subst; now apply H2].
      destruct (N.eq_dec (n_id l0) (n_id l)) as [En|En]; [now apply Hinj|].
      exfalso. apply Hex. split; [now exists d, inst|]. exists l0. split; [easy|]. congruence.
    - intros [l0 [[= <- <-]|H3]]; [|apply Hmem; now exists l0]. apply Hmem. apply Hch. now exists d, inst. }
  (* the check of the mode itself, when no other alternative was chosen *)
  assert (Hv : ~ excluded m done i l -> (is_choice m i -> used done i) ->
    let w := verify_match (nth i seen false) front in
    (spent m done i l /\ w l mem = (mem, Ok false))
    \/ (allowed m done i l /\ exists mem', w l mem = (mem', Ok true) /\ mem_ok m ((i, l) :: done) mem')
    \/ (~ allowed m done i l /\ ~ spent m done i l /\ exists e, w l mem = (mem, Throw e) /\ forbidden m done front i l e)).
  { intros Hex Hch w. unfold w, verify_match. destruct (has_multi_stage l) eqn:Ems.
    - right. left. split; [split; [now left|easy]|]. exists mem. split; [easy|now apply Hsame].
    - destruct (nth i seen false) eqn:Es.
      + assert (Hu : used done i) by now apply Hseen. destruct (is_named l) eqn:En.
        * right. right. split; [intros [[H|H] _]; [congruence|now apply H]|]. split; [intros (H & _); congruence|].
          eexists. split; [reflexivity|]. right. easy.
        * left. split; [|easy]. now repeat split.
      + assert (Hu : ~ used done i) by (rewrite <- Hseen; congruence).
        right. left. split; [split; [now right|easy]|]. exists mem. split; [destruct (is_named l); easy|now apply Hsame]. }
  assert (Hnc : ~ is_choice m i ->
    (spent m done i l /\ checks m seen front i l mem = (mem, Ok false))
    \/ (allowed m done i l /\ exists mem', checks m seen front i l mem = (mem', Ok true) /\ mem_ok m ((i, l) :: done) mem')
    \/ (~ allowed m done i l /\ ~ spent m done i l /\ exists e, checks m seen front i l mem = (mem, Throw e) /\ forbidden m done front i l e)).
  { intros Hch. replace (checks m seen front i) with (verify_match (nth i seen false) front).
    - apply Hv; [intros [H _]|]; easy.
    - unfold checks. destruct (nth_error (n_children m) i) as [c|] eqn:Ec; [|easy]. unfold wrap.
      destruct (n_kind c) eqn:Ek; try easy. exfalso. apply Hch. exists c, inst. easy. }
  apply entries_in in Hin as Hin'. destruct Hin' as (c & Hi & Hcm & Hl & Hk).
  destruct (n_kind c) as [| | | |inst| | |] eqn:Ek;
    try (apply Hnc; intros (c' & inst & Hc' & Hk'); rewrite Hi in Hc'; injection Hc' as <-; congruence).
  assert (Hch : is_choice m i) by (exists c, inst; easy). clear Hnc.
  unfold checks. rewrite Hi. unfold wrap. rewrite Ek. unfold one_of_validator.
  pose proof (Hmem i c inst Hi Ek) as Hm. destruct (mem_get mem inst) as [h|] eqn:Eg.
  - destruct Hm as [[l0 Hl0] Hall]. destruct (N.eqb_spec (n_id l) h) as [Eh|Eh].
    + apply Hv.
      * intros (_ & l' & Hl' & Hne). apply Hne. apply Hinj; [easy|]. rewrite Eh. now apply Hall.
      * intros _. now exists l0.
    + assert (Hex : excluded m done i l).
      { split; [easy|]. exists l0. split; [easy|]. intros ->. now apply Eh, Hall. }
      right. right. split; [intros [_ H]; easy|]. split; [intros (_ & _ & _ & H); easy|].
      eexists. split; [reflexivity|]. left. split; [easy|]. exists c. easy.
  - right. left. split.
    + split; [now right|]. intros (_ & l' & Hl' & _). apply Hm. now exists l'.
    + exists ((inst, n_id l) :: mem). split.
      * unfold verify_match. assert (Es : nth i seen false = false).
        { destruct (nth i seen false) eqn:Es; [|easy]. exfalso. now apply Hm, Hseen. }
        rewrite Es. destruct (has_multi_stage l), (is_named l); reflexivity.
      * intros j d inst' Hj Hk'. cbn [mem_get]. destruct (N.eqb_spec inst' inst) as [->|Hne].
        -- assert (j = i) by (apply (Hdc j i d c inst); auto). subst j. split; [exists l; now left|].
           intros l1 [[= <-]|H1]; [easy|]. exfalso. apply Hm. now exists l1.
        -- specialize (Hmem j d inst' Hj Hk'). assert (Hji : j <> i) by (intros ->; congruence).
           destruct (mem_get mem inst') as [h|].
           ++ destruct Hmem as [[l0 H0] H1]. split; [exists l0; now right|].
              intros l1 [[= E _]|H2]; [congruence|now apply H1].
           ++ intros [l0 [[= E _]|H0]]; [congruence|]. apply Hmem. now exists l0.
Qed.

(** ** Dependencies *)

Lemma alias_of_spec l ns : leaf_ok l -> (alias_of l = Some ns <-> In (PAlias ns) (n_pols l)).
Proof.
  intros L. split.
  - unfold alias_of. intros H. apply PermProofs.first_some_in in H as (p & Hin & E). destruct p; try discriminate.
    now injection E as ->.
  - intros H. apply (policy_selected _ 16%N l (PAlias ns)); auto; [|apply L].
    intros q z. destruct q; try discriminate. easy.
Qed.

Lemma stands_for_self m l : (forall ns, ~ In (PAlias ns) (n_pols l)) -> stands_for m l = [l].
Proof.
  intros H. unfold stands_for, alias_of. destruct (first_some _ _) as [ns|] eqn:E; [|easy].
  apply PermProofs.first_some_in in E as (p & Hin & E). destruct p; try discriminate. now apply H in Hin.
Qed.

Lemma stands_for_below m i l d : In (i, l) (entries m) -> In d (stands_for m l) -> In d (below m).
Proof.
  intros Hin Hd. unfold stands_for in Hd. destruct (alias_of l).
  - now apply filter_In in Hd.
  - destruct Hd as [<-|[]]. now apply (entry_below m i).
Qed.

Lemma ref_owners_in ns n : forall d, In d (below n) -> refers_to ns d = true -> In d (ref_owners ns n).
Proof.
  induction n as [k id ty pols cs IH] using node_ind'. intros d Hd Hr. rewrite Forall_forall in IH.
  rewrite below_eq in Hd. cbn [ref_owners]. apply in_app_iff. destruct Hd as [<-|Hd].
  - right. unfold refers_to in Hr. apply existsb_exists in Hr as (r & Hr & E).
    apply existsb_exists in E as (p & Hp & E). cbn [n_pols] in Hp. apply in_flat_map. exists p. split; [easy|].
    replace (existsb _ ns) with true; [now left|]. symmetry. apply existsb_exists. eauto.
  - left. apply in_flat_map in Hd as (c & Hc & Hd). apply in_flat_map. exists c. split; [easy|]. now apply IH.
Qed.

Lemma first_absent_none t ds : first_absent t ds = None <-> forall d, In d ds -> target_present t (n_id d) = true.
Proof.
  induction ds as [|d ds IH]; cbn [first_absent]; [easy|]. destruct (target_present t (n_id d)) eqn:E.
  - rewrite IH. split; [intros H e [<-|He]; auto|intros H e He; apply H; now right].
  - split; [easy|]. intros H. rewrite (H d) in E by now left. discriminate.
Qed.

Lemma present_spec m tp done tg seen mem ns d : sub_ok m tp -> is_mode m = true -> distinct_types m ->
  state_ok m done tg seen mem -> In d (below m) -> refers_to ns d = true ->
  (target_present tg (n_id d) = true <-> present m done d).
Proof.
  intros Hs Hm Hd S Hb Hr.
  assert (Hne : n_id m <> n_id d).
  { intros En. apply (nodup_map_inj n_id (below m) Hd) in En; [|apply below_self|easy]. subst d.
    apply (referred_leaf m tp) in Hr; [|now apply sub_ok_self]. unfold is_leaf in Hr. unfold is_mode in Hm.
    destruct (n_kind m); discriminate. }
  unfold target_present. rewrite (so_node _ _ _ _ _ S). apply N.eqb_neq in Hne. rewrite Hne. cbn [orb].
  rewrite existsb_exists. split.
  - intros (s & Hin & En). apply N.eqb_eq in En.
    destruct (proj1 (so_subs _ _ _ _ _ S (n_id d))) as (a & d' & Ha & Hd' & Ei); [eauto|].
    exists a. split; [easy|]. assert (d' = d); [|now subst].
    apply (nodup_map_inj n_id (below m) Hd); auto. destruct a as [i k]. apply (stands_for_below m i k); [|easy].
    now apply (so_done _ _ _ _ _ S).
  - intros (a & Ha & Hin). destruct (proj2 (so_subs _ _ _ _ _ S (n_id d))) as (s & Hs1 & Hs2); [eauto|].
    exists s. split; [easy|]. now apply N.eqb_eq.
Qed.

Lemma leaf_no_children l tp : node_ok (l, tp) = true -> is_leaf l = true -> n_children l = [].
Proof.
  intros H Hk. pose proof (leaf_below l tp H Hk) as E. rewrite below_eq in E. injection E as E.
  destruct (n_children l) as [|c cs]; [easy|]. cbn [flat_map] in E. rewrite below_eq in E. discriminate.
Qed.

(** The first argument in the order of the tree that is missing. *)
Lemma absent_spec m tp done tg seen mem ns d : sub_ok m tp -> is_mode m = true -> distinct_types m ->
  state_ok m done tg seen mem -> first_absent tg (ref_owners ns m) = Some d ->
  exists before after, below m = before ++ d :: after /\ refers_to ns d = true /\ ~ present m done d
    /\ forall e, In e before -> refers_to ns e = true -> present m done e.
Proof.
  intros Hs Hm Hd S H. rewrite first_absent_owners in H.
  - apply first_absent_split in H as (a & z & E & Hab & Hpr).
    pose proof E as E'. apply FaultProofs.filter_split in E as (bf & af & Hb & <-).
    assert (Hdr : In d (below m) /\ refers_to ns d = true).
    { apply filter_In. rewrite E'. apply in_elt. }
    exists bf, af. split; [easy|]. split; [apply Hdr|]. split.
    + intros Hp. apply (present_spec m tp done tg seen mem ns d Hs Hm Hd S) in Hp; try apply Hdr. congruence.
    + intros e He Hr. apply (present_spec m tp done tg seen mem ns e Hs Hm Hd S); auto.
      * rewrite Hb. apply in_app_iff. now left.
      * apply Hpr. now apply filter_In.
  - intros e He Hr. destruct (sub_ok_below _ _ _ Hs He) as (tpe & _ & Hse). pose proof (sub_ok_self _ _ Hse) as Hok.
    apply (leaf_no_children e tpe Hok). now apply (referred_leaf e tpe ns).
Qed.

Lemma deps_spec m tp parents done tg seen mem l : sub_ok m tp -> is_mode m = true -> distinct_types m ->
  state_ok m done tg seen mem -> entry_ok m parents l ->
  (deps_met l (m :: parents) (Some tg) <-> dependencies m done l).
Proof.
  intros Hs Hm Hd S E.
  assert (Hpres : forall ns d, In d (below m) -> refers_to ns d = true ->
            (target_present tg (n_id d) = true <-> exists a, In a done /\ In d (stands_for m (snd a)))).
  { intros ns d. apply (present_spec m tp done tg seen mem ns d Hs Hm Hd S). }
  split.
  - intros H ns d Hin Hb Hr. destruct (H ns Hin) as (mode & t & Hn & [= <-] & Hf).
    rewrite (eo_near' _ _ _ E) in Hn. injection Hn as <-. rewrite first_absent_none in Hf.
    apply (Hpres ns d Hb Hr). apply Hf. now apply ref_owners_in.
  - intros H ns Hin. exists m, tg. split; [apply (eo_near' _ _ _ E)|]. split; [easy|]. apply first_absent_none.
    intros d Hdd. apply ref_owners_below in Hdd as [Hb Hr]. apply (Hpres ns d Hb Hr). now apply (H ns).
Qed.

(** ** Offering the tokens to each argument in turn *)

Definition taking (m : node) (done : list (nat * node)) (ts : list token) (i : nat) (l : node)
           (label : option token) (vals rest : list token) : Prop :=
  ~ chokes l ts /\ enabled l /\ consumes l ts label vals rest /\ allowed m done i l /\ dependencies m done l.

Lemma consumes_addressed l ts label vals rest : consumes l ts label vals rest -> addressed l ts.
Proof.
  intros [t value us t' us' v r Hn Hf Hg Hm Hc|v r Hn Hne Hc].
  - left. split; [easy|]. left. exists t, value, us, t', us'. easy.
  - right. easy.
Qed.

Lemma taking_not_passes m done ts i l label vals rest : taking m done ts i l label vals rest ->
  ~ passes m done ts i l.
Proof.
  intros (_ & He & Hc & [Ha Hx] & _) (_ & [H|[H|(H1 & H2 & H3 & _)]]).
  - easy.
  - now apply H, (consumes_addressed l ts label vals rest).
  - destruct Ha; [congruence|easy].
Qed.

Section Scan.
Variables (m : node) (tp parents : list node).
Hypotheses (Hs : sub_ok m tp) (Hm : is_mode m = true) (Hd : distinct_types m) (Hdc : distinct_choices m)
           (Hsane : forall l, In l (below m) -> is_argument l = true -> sane l).

Lemma entry_result done tg seen front s i l : state_ok m done tg seen (p_mem s) -> In (i, l) (entries m) ->
  p_args s <> [] -> fits (p_args s) ->
  node_result l (m :: parents) (Some tg) (checks m seen front i) s
              (node_pre_parse l (m :: parents) (Some tg) (checks m seen front i) s).
Proof.
  intros S Hin Hne Hf. pose proof (entry_facts m tp parents i l Hs Hm Hin) as E.
  apply node_exact; auto.
  - apply (eo_leaf _ _ _ E).
  - apply Hsane; [now apply (entry_below m i)|]. now apply entries_in in Hin as (c & _ & _ & _ & Hk).
  - apply (eo_leaf _ _ _ E).
  - apply E.
  - intros ns Hal. split; [now apply (eo_alias _ _ _ E ns)|]. now rewrite (eo_near _ _ _ E).
  - intros ns _. rewrite (eo_near' _ _ _ E). easy.
Qed.

Lemma scan done tg seen front s : state_ok m done tg seen (p_mem s) -> p_args s <> [] ->
  hd_error (p_args s) = Some front -> fits (p_args s) ->
  forall es, (forall a, In a es -> In a (entries m)) ->
  let run := flat_try m parents seen front tg es s in
  ((forall j k, In (j, k) es -> passes m done (p_args s) j k) /\ run = (s, Ok None))
  \/ (exists before i l after label vals rest mem' toks subs, es = before ++ (i, l) :: after
        /\ (forall j k, In (j, k) before -> passes m done (p_args s) j k)
        /\ taking m done (p_args s) i l label vals rest
        /\ run = (PS rest mem', Ok (Some (i, Target l (m :: parents) toks subs)))
        /\ makes l (m :: parents) vals toks subs /\ mem_ok m ((i, l) :: done) mem'
        /\ args_weight rest < args_weight (p_args s))
  \/ (exists before i l after, es = before ++ (i, l) :: after
        /\ (forall j k, In (j, k) before -> passes m done (p_args s) j k)
        /\ ~ passes m done (p_args s) i l
        /\ (forall label vals rest, ~ taking m done (p_args s) i l label vals rest)
        /\ exists s' r x, run = (s', r) /\ same_failure r x /\ fault m done (p_args s) i l x).
Proof.
  intros S Hne Hfront Hf. induction es as [|[i l] es IH]; intros Hes run.
  - left. easy.
  - assert (Hin : In (i, l) (entries m)) by (apply Hes; now left).
    pose proof (entry_facts m tp parents i l Hs Hm Hin) as E.
    pose proof (entry_result done tg seen front s i l S Hin Hne Hf) as HR.
    pose proof (checks_spec m done tg seen (p_mem s) front i l S Hd Hdc Hin) as HC.
    pose proof (deps_spec m tp parents done tg seen (p_mem s) l Hs Hm Hd S E) as HD.
    unfold run. cbn [flat_try]. clear run. specialize (IH (fun a H => Hes a (or_intror H))). cbn zeta in IH.
    set (w := checks m seen front i) in *.
    (* the argument passes *)
    assert (Hpass : passes m done (p_args s) i l -> node_pre_parse l (m :: parents) (Some tg) w s = (s, Ok None) ->
       let run := (r <- node_pre_parse l (m :: parents) (Some tg) w ;;
                   match r with
                   | Some t => mret (Some (i, t))
                   | None => flat_try m parents seen front tg es
                   end)%m s in
       ((forall j k, In (j, k) ((i, l) :: es) -> passes m done (p_args s) j k) /\ run = (s, Ok None))
       \/ (exists before i0 l0 after label vals rest mem' toks subs, (i, l) :: es = before ++ (i0, l0) :: after
        /\ (forall j k, In (j, k) before -> passes m done (p_args s) j k)
        /\ taking m done (p_args s) i0 l0 label vals rest
        /\ run = (PS rest mem', Ok (Some (i0, Target l0 (m :: parents) toks subs)))
        /\ makes l0 (m :: parents) vals toks subs /\ mem_ok m ((i0, l0) :: done) mem'
        /\ args_weight rest < args_weight (p_args s))
       \/ (exists before i0 l0 after, (i, l) :: es = before ++ (i0, l0) :: after
        /\ (forall j k, In (j, k) before -> passes m done (p_args s) j k)
        /\ ~ passes m done (p_args s) i0 l0
        /\ (forall label vals rest, ~ taking m done (p_args s) i0 l0 label vals rest)
        /\ exists s' r x, run = (s', r) /\ same_failure r x /\ fault m done (p_args s) i0 l0 x)).
    { intros Hp Heq run. unfold run. rewrite (mbind_ok _ _ _ _ _ Heq). clear run.
      destruct IH as [(H1 & H2)|[(bf & j & k & af & lb & vs & rs & mm & tk & sb & -> & H1 & H2)|(bf & j & k & af & -> & H1 & H2)]].
      - left. split; [|easy]. intros j k [[= <- <-]|H]; [easy|now apply H1].
      - right. left. exists ((i, l) :: bf), j, k, af, lb, vs, rs, mm, tk, sb. split; [easy|]. split; [|exact H2].
        intros j0 k0 [[= <- <-]|H]; [easy|now apply H1].
      - right. right. exists ((i, l) :: bf), j, k, af. split; [easy|]. split; [|exact H2].
        intros j0 k0 [[= <- <-]|H]; [easy|now apply H1]. }
    (* the argument stops everything *)
    assert (Hstop : forall s' r x, ~ passes m done (p_args s) i l ->
       (forall label vals rest, ~ taking m done (p_args s) i l label vals rest) ->
       node_pre_parse l (m :: parents) (Some tg) w s = (s', r) -> same_failure r x -> fault m done (p_args s) i l x ->
       exists before i0 l0 after, (i, l) :: es = before ++ (i0, l0) :: after
        /\ (forall j k, In (j, k) before -> passes m done (p_args s) j k)
        /\ ~ passes m done (p_args s) i0 l0
        /\ (forall label vals rest, ~ taking m done (p_args s) i0 l0 label vals rest)
        /\ exists s' r x, (r <- node_pre_parse l (m :: parents) (Some tg) w ;;
                   match r with
                   | Some t => mret (Some (i, t))
                   | None => flat_try m parents seen front tg es
                   end)%m s = (s', r) /\ same_failure r x /\ fault m done (p_args s) i0 l0 x).
    { intros s' r x H1 H2 Heq Hr Hx. exists [], i, l, es. split; [easy|]. split; [easy|]. split; [easy|]. split; [easy|].
      unfold mbind. rewrite Heq. destruct r; [easy|..]; eexists _, _, x; (split; [reflexivity|easy]). }
    (* it may not be typed now *)
    assert (Hforb : forall e, claimed l (p_args s) -> forbidden m done front i l e -> fault m done (p_args s) i l (Throw e)).
    { intros e Hcl [(Hex & c & Hc & ->)|(Hex & Hn & Hms & Hu & ->)].
      - rewrite <- shown_token. now apply fault_choice.
      - destruct (p_args s) as [|t us] eqn:Ets; [easy|]. injection Hfront as ->. eapply fault_again; eauto. }
    destruct (node_pre_parse l (m :: parents) (Some tg) w s) as [s1 r1] eqn:Hrun.
    assert (Hprog : forall t, r1 = Ok (Some t) -> args_weight (p_args s1) < args_weight (p_args s)).
    { intros t ->. apply (node_progress l (m :: parents) (Some tg) w s s1 t); auto; apply (eo_leaf _ _ _ E). }
    inversion HR as [label vals rest toks subs He Hc Hco Hdp Hmk Heq|Hc Hp Heq|c d Hc He Had Hno Heq|r x Hc Hr Heq|Hc Hdis Huns Hn Heq].
    + (* tokens taken *)
      unfold after_check in Heq. pose proof (consumes_addressed l _ label vals rest Hco) as Had.
      destruct HC as [[Hsp Ew]|[(Hal & mem' & Ew & Hmem)|(Hna & Hns & e & Ew & Hfb)]]; rewrite Ew in Heq.
      * injection Heq as <- <-. apply Hpass; [|now destruct s]. split; [easy|]. now right; right.
      * injection Heq as <- <-. right. left. exists [], i, l, es, label, vals, rest, mem', toks, subs.
        split; [easy|]. split; [easy|]. split; [now apply HD in Hdp|].
        split; [now rewrite (mbind_ok _ _ _ _ _ Hrun)|]. split; [easy|]. split; [easy|].
        apply (Hprog _ eq_refl).
      * injection Heq as <- <-. right. right. eapply Hstop; [| |reflexivity|reflexivity|].
        -- intros (_ & [H|[H|H]]); auto.
        -- intros lb vs rs (_ & _ & _ & H & _). easy.
        -- apply Hforb; [|easy]. split; [|auto]. intros x Hx. apply Hc. now apply (breaks_chokes l _ x).
    + (* not for this argument *)
      try subst s1; try subst r1; try subst r. apply Hpass; auto. split; [easy|]. destruct Hp; auto.
    + (* tokens rejected *)
      unfold after_check in Heq.
      assert (Hcl : claimed l (p_args s)).
      { split; [|auto]. intros x Hx. apply Hc. now apply (breaks_chokes l _ x). }
      assert (Hnt : forall lb vs rs, ~ taking m done (p_args s) i l lb vs rs).
      { intros lb vs rs (_ & _ & H1 & _ & H2). destruct Hno as [[Hno _]|[_ [Hno _]]]; [now apply (Hno lb vs rs)|].
        now apply Hno, HD. }
      destruct HC as [[Hsp Ew]|[(Hal & mem' & Ew & Hmem)|(Hna & Hns & e & Ew & Hfb)]]; rewrite Ew in Heq.
      * injection Heq as <- <-. apply Hpass; [|now destruct s]. split; [easy|]. now right; right.
      * injection Heq as <- <-. right. right. eapply Hstop; [|exact Hnt|reflexivity|reflexivity|].
        -- intros (_ & [H|[H|(H1 & H2 & H3 & _)]]); auto. destruct Hal as [[Hal|Hal] _]; [congruence|easy].
        -- destruct Hno as [(_ & Href & ->)|((lb & vs & rs & Hco) & _ & -> & ns & mode & t & dep & Hin' & Hnm & [= <-] & Hfa & ->)].
           ++ rewrite <- shown_token. now apply fault_refused.
           ++ rewrite (eo_near' _ _ _ E) in Hnm. injection Hnm as <-.
              destruct (absent_spec m tp done tg seen (p_mem s) ns dep Hs Hm Hd S Hfa) as (bf & af & H1 & H2 & H3 & H4).
              rewrite <- shown_token. eapply fault_dependent; eauto.
      * injection Heq as <- <-. right. right. eapply Hstop; [|exact Hnt|reflexivity|reflexivity|].
        -- intros (_ & [H|[H|H]]); auto.
        -- now apply Hforb.
    + try subst s1; try subst r1. right. right. pose proof (breaks_chokes l _ x Hc) as Hck.
      eapply Hstop; [| |reflexivity|exact Hr|].
      * intros [H _]. easy.
      * intros lb vs rs [H _]. easy.
      * now apply fault_breaks.
    + (* the name of a disabled argument without its separator *)
      unfold after_check in Heq. right. right.
      assert (Hck : chokes l (p_args s)) by (right; right; easy).
      assert (Hcl : claimed l (p_args s)).
      { split; [easy|]. split; [|auto]. left. auto. }
      assert (H1 : ~ passes m done (p_args s) i l) by (intros [H _]; easy).
      assert (H2 : forall lb vs rs, ~ taking m done (p_args s) i l lb vs rs) by (intros lb vs rs [H _]; easy).
      destruct HC as [[(Hsp & _) _]|[(Hal & mem' & Ew & Hmem)|(Hna & Hns & e & Ew & Hfb)]]; [congruence| |];
        rewrite Ew in Heq; injection Heq as <- <-; (eapply Hstop; [exact H1|exact H2|reflexivity|reflexivity|]).
      * rewrite <- shown_token. apply fault_refused; [easy|easy|]. now apply refused_separator.
      * now apply Hforb.
Qed.

(** ** One turn of the loop *)

Definition new_subs (t : target) : list target := match tg_subs t with [] => [t] | ss => ss end.

Lemma new_subs_spec l vals toks subs : entry_ok m parents l -> leaf_ok l -> makes l (m :: parents) vals toks subs ->
  let ss := new_subs (Target l (m :: parents) toks subs) in
  map assignment ss = map (fun d => (d, vals)) (stands_for m l) /\ Forall (good_sub m) ss.
Proof.
  intros E L Hmk. unfold new_subs. cbn [tg_subs].
  destruct Hmk as [(Hno & -> & ->)|(ns & mode & Hal & Hn & -> & ->)].
  - rewrite stands_for_self by easy. split; [easy|]. constructor; [|constructor]. constructor; apply E.
  - rewrite (eo_near _ _ _ E) in Hn. injection Hn as <-.
    pose proof (eo_alias_subs _ _ _ E ns vals Hal) as Hne.
    replace (match alias_subs ns m vals with [] => _ | _ :: _ => _ end) with (alias_subs ns m vals)
      by (destruct (alias_subs ns m vals); easy).
    split.
    + rewrite alias_subs_assign. unfold stands_for. apply (alias_of_spec l ns L) in Hal. now rewrite Hal.
    + apply Forall_forall. intros t' Ht'. apply alias_subs_nodes in Ht' as (Hb & Hr & _ & _).
      destruct (sub_ok_below _ _ _ Hs Hb) as (tpd & _ & Hsd).
      assert (Hlf : is_leaf (tg_node t') = true)
        by (eapply referred_leaf; [apply sub_ok_self; exact Hsd|exact Hr]).
      assert (Hb' : In (tg_node t') (flat_map below (n_children m))).
      { rewrite below_eq in Hb. destruct Hb as [Hb|Hb]; [|easy]. exfalso. rewrite <- Hb in Hlf.
        unfold is_leaf in Hlf. unfold is_mode in Hm. destruct (n_kind m); discriminate. }
      destruct (leaf_value_leaf m tp _ Hs Hm Hb' Hlf). constructor; easy.
Qed.

Lemma nth_upd_bool (seen : list bool) i j : i < List.length seen ->
  nth j (upd seen i true) false = true <-> j = i \/ nth j seen false = true.
Proof.
  revert i j. induction seen as [|x seen IH]; intros [|i] [|j] Hl; cbn in *; try lia.
  all: try (rewrite IH by lia).
  all: split; [try (intros [H|H]); auto; try lia|intros [H|H]; auto; try lia; try discriminate].
Qed.

Lemma state_step done tg seen mem mem' i l vals toks subs :
  state_ok m done tg seen mem -> In (i, l) (entries m) -> makes l (m :: parents) vals toks subs ->
  mem_ok m ((i, l) :: done) mem' ->
  state_ok m ((i, l) :: done) (add_subs tg (new_subs (Target l (m :: parents) toks subs))) (upd seen i true) mem'.
Proof.
  intros S Hin Hmk Hmem. pose proof (entry_facts m tp parents i l Hs Hm Hin) as E.
  destruct (new_subs_spec l vals toks subs E (lf_ok _ (eo_leaf _ _ _ E)) Hmk) as [Ha _].
  constructor.
  - rewrite upd_length. apply S.
  - intros j. rewrite nth_upd_bool.
    + rewrite (so_seen _ _ _ _ _ S). split.
      * intros [->|[l0 H]]; [exists l; now left|exists l0; now right].
      * intros [l0 [[= <- <-]|H]]; [now left|right; now exists l0].
    + rewrite (so_len _ _ _ _ _ S). apply nth_error_Some. apply entries_in in Hin as (c & -> & _). easy.
  - easy.
  - pose proof (so_node _ _ _ _ _ S) as Hn. now destruct tg.
  - pose proof (so_subs _ _ _ _ _ S) as Hsb. destruct tg as [n0 p0 t0 old]. cbn [add_subs tg_subs] in *.
    set (ss := new_subs _) in *.
    assert (Hnodes : map tg_node ss = stands_for m l).
    { apply (f_equal (map fst)) in Ha. rewrite !map_map in Ha. cbn [assignment fst] in Ha. rewrite map_id in Ha. exact Ha. }
    intros id. split.
    + intros (s & Hin' & Hid). apply in_app_iff in Hin' as [Hin'|Hin'].
      * destruct (proj1 (Hsb id)) as (a & d & H1 & H2); [eauto|]. exists a, d. split; [now right|easy].
      * exists (i, l), (tg_node s). split; [now left|]. split; [|easy]. cbn [snd]. rewrite <- Hnodes.
        now apply in_map.
    + intros (a & d & [<-|H1] & H2 & H3).
      * cbn [snd] in H2. rewrite <- Hnodes in H2. apply in_map_iff in H2 as (s & <- & H2). exists s.
        split; [apply in_app_iff; now right|easy].
      * destruct (proj2 (Hsb id)) as (s & H4 & H5); [eauto|]. exists s. split; [apply in_app_iff; now left|easy].
  - intros a [<-|Ha']; [easy|]. now apply (so_done _ _ _ _ _ S).
Qed.

Lemma reading_head done ts items : reading m done ts items -> ts <> [] ->
  exists before i l after label vals rest more, entries m = before ++ (i, l) :: after
    /\ (forall j k, In (j, k) before -> passes m done ts j k)
    /\ taking m done ts i l label vals rest /\ items = Item l label vals :: more
    /\ reading m ((i, l) :: done) rest more.
Proof.
  intros H Hne. inversion H as [|done' ts' bf i l af lb vs rs more H1 H2 H3 H4 H5 H6 H7 H8]; subst; [easy|].
  exists bf, i, l, af, lb, vs, rs, more. repeat (split; [easy|]). easy.
Qed.

(** The state of the one_ofs after the items. *)
Definition ends_with (done : list (nat * node)) (items : list item) (mem : memory) : Prop :=
  exists done', mem_ok m done' mem /\ map snd done' = rev (map i_node items) ++ map snd done
    /\ forall a, In a done' -> In a done \/ In a (entries m).

Lemma loop_exact f fuel : forall done tg seen s, state_ok m done tg seen (p_mem s) ->
  fits (p_args s) -> args_weight (p_args s) <= fuel ->
  let run := mode_loop fuel m (map (fun c => (c, pre_parse f c (m :: parents))) (n_children m)) tg seen s in
  (exists items subs mem', reading m done (p_args s) items /\ run = (PS [] mem', Ok (Some (add_subs tg subs)))
     /\ map assignment subs = flat_map (assigned m) items /\ Forall (good_sub m) subs /\ ends_with done items mem')
  \/ ((forall items, ~ reading m done (p_args s) items)
      /\ exists s' r x, run = (s', r) /\ same_failure r x /\ stuck m done (p_args s) x).
Proof.
  assert (Hend : forall fuel done tg seen s, mem_ok m done (p_mem s) -> p_args s = [] ->
    let run := mode_loop fuel m (map (fun c => (c, pre_parse f c (m :: parents))) (n_children m)) tg seen s in
    exists items subs mem', reading m done [] items /\ run = (PS [] mem', Ok (Some (add_subs tg subs)))
     /\ map assignment subs = flat_map (assigned m) items /\ Forall (good_sub m) subs /\ ends_with done items mem').
  { clear fuel. intros fuel done tg seen [a mem] Hmok Ea run. cbn [p_args] in Ea. subst a.
    exists [], [], mem. split; [constructor|]. rewrite add_subs_nil.
    split; [unfold run; now destruct fuel|]. split; [easy|]. split; [constructor|]. exists done.
    split; [exact Hmok|]. split; [reflexivity|]. intros a Ha. now left. }
  induction fuel as [|fuel IH]; intros done tg seen s S Hf Hw run; unfold run; clear run;
    (destruct (p_args s) as [|t0 ts0] eqn:Ea; [left; apply Hend; [apply S|exact Ea]|]).
  { exfalso. rewrite args_weight_cons in Hw. pose proof (token_weight_pos t0). lia. }
  cbn [mode_loop]. rewrite Ea. rewrite <- Ea in Hf, Hw. rewrite <- Ea.
  assert (Hne : p_args s <> []) by (rewrite Ea; discriminate).
  assert (Hflat : forall s0, mode_try (map (fun c => (c, pre_parse f c (m :: parents))) (n_children m)) 0 seen t0 tg s0
                  = flat_try m parents seen t0 tg (entries m) s0).
  { intros s0. apply (mode_try_flat f m tp). intros j c Hj. split; [easy|].
    assert (Hc : In c (n_children m)) by (eapply nth_error_In; exact Hj).
    split; [now apply sub_ok_child|]. apply (not_root c (m :: tp)); [|easy].
    apply sub_ok_self. now apply sub_ok_child. }
  assert (Hfront : hd_error (p_args s) = Some t0) by now rewrite Ea.
  destruct (scan done tg seen t0 s S Hne Hfront Hf (entries m) (fun a H => H))
    as [(Hall & Hrun)|[(bf & i & l & af & lb & vs & rs & mm & tk & sb & Hes & Hbf & Htk & Hrun & Hmk & Hmem & Hlt)
                      |(bf & i & l & af & Hes & Hbf & Hnp & Hnt & s' & r & x & Hrun & Hr & Hx)]];
    rewrite <- Hflat in Hrun.
  - (* nobody takes the tokens *)
    right. split.
    + intros items Hrd. apply reading_head in Hrd; [|easy].
      destruct Hrd as (bf & i & l & af & lb & vs & rs & more & Hes & _ & Htk & _).
      apply (taking_not_passes _ _ _ _ _ _ _ _ Htk). apply Hall. rewrite Hes. apply in_elt.
    + rewrite (mbind_ok _ _ _ _ _ Hrun). destruct (forallb (fun x => x) seen) eqn:Efa.
      * eexists _, _, _. split; [reflexivity|]. split; [reflexivity|]. apply stuck_unhandled; auto.
        intros i Hi. apply (so_seen _ _ _ _ _ S). rewrite forallb_forall in Efa. apply Efa.
        apply nth_In. now rewrite (so_len _ _ _ _ _ S).
      * destruct (unknown_exact (option target) m t0) as (x & Hx1 & Hx2). eexists _, _, x. split; [reflexivity|].
        split; [exact Hx1|].
        assert (Hex : exists i, i < List.length (n_children m) /\ ~ used done i).
        { rewrite <- (so_len _ _ _ _ _ S). pose proof (so_seen _ _ _ _ _ S) as Hsn. clear - Efa Hsn.
          assert (H : exists i, i < List.length seen /\ nth i seen false = false).
          { clear Hsn. induction seen as [|[] seen IH]; [discriminate| |].
            - destruct (IH Efa) as (i & H1 & H2). exists (S i). cbn. split; [lia|easy].
            - exists 0. cbn. split; [lia|easy]. }
          destruct H as (i & H1 & H2). exists i. split; [easy|]. rewrite <- Hsn. congruence. }
        destruct Hex as (i & Hi & Hu). rewrite Ea in *. eapply stuck_unknown; eauto.
  - (* an argument takes them *)
    rewrite (mbind_ok _ _ _ _ _ Hrun).
    assert (Hin : In (i, l) (entries m)) by (rewrite Hes; apply in_elt).
    pose proof (entry_facts m tp parents i l Hs Hm Hin) as E.
    destruct (new_subs_spec l vs tk sb E (lf_ok _ (eo_leaf _ _ _ E)) Hmk) as [Hasg Hgood].
    pose proof (state_step done tg seen (p_mem s) mm i l vs tk sb S Hin Hmk Hmem) as S'.
    change (match tg_subs (Target l (m :: parents) tk sb) with [] => _ | _ :: _ => _ end)
      with (new_subs (Target l (m :: parents) tk sb)).
    set (ss := new_subs (Target l (m :: parents) tk sb)) in *.
    destruct (IH ((i, l) :: done) (add_subs tg ss) (upd seen i true) (PS rs mm)) as
      [(items & subs & mem' & Hrd & Hlp & Has & Hgs & (dn & Hdn & Hdm & Hde))|(Hno & s' & r & x & Hlp & Hr & Hx)].
    + exact S'.
    + cbn [p_args]. unfold fits in *. lia.
    + cbn [p_args]. lia.
    + left. exists (Item l lb vs :: items), (ss ++ subs), mem'. destruct Htk as (H1 & H2 & H3 & H4 & H5).
      split; [eapply reading_cons; eauto|]. split; [now rewrite Hlp, add_subs_app|].
      split; [rewrite map_app, Has, Hasg; reflexivity|]. split; [apply Forall_app; easy|]. exists dn.
      split; [exact Hdn|]. split; [rewrite Hdm; cbn [map rev i_node snd]; now rewrite <- app_assoc|].
      intros a Ha. destruct (Hde a Ha) as [[<-|H]|H]; auto.
    + right. split; [|exists s', r, x; split; [easy|]; split; [easy|]; destruct Htk as (H1 & H2 & H3 & H4 & H5);
                      eapply stuck_later; eauto].
      intros items Hrd. apply reading_head in Hrd; [|easy].
      destruct Hrd as (bf' & i' & l' & af' & lb' & vs' & rs' & more & Hes' & Hbf' & Htk' & -> & Hrd).
      destruct (first_split (fun a => ~ passes m done (p_args s) (fst a) (snd a)) bf (i, l) af bf' (i', l') af') as (-> & [= <- <-] & ->).
      * now rewrite <- Hes.
      * exact (taking_not_passes _ _ _ _ _ _ _ _ Htk).
      * exact (taking_not_passes _ _ _ _ _ _ _ _ Htk').
      * intros [j k] H Hz. apply Hz. now apply Hbf.
      * intros [j k] H Hz. apply Hz. now apply Hbf'.
      * destruct Htk as (_ & _ & Hc & _), Htk' as (_ & _ & Hc' & _).
        destruct (consumes_det _ _ _ _ _ _ _ _ Hc Hc') as (<- & <- & <-). now apply (Hno more).
  - (* an argument stops the parse *)
    right. split.
    + intros items Hrd. apply reading_head in Hrd; [|easy].
      destruct Hrd as (bf' & i' & l' & af' & lb' & vs' & rs' & more & Hes' & Hbf' & Htk' & _ & _).
      destruct (first_split (fun a => ~ passes m done (p_args s) (fst a) (snd a)) bf (i, l) af bf' (i', l') af') as (-> & [= <- <-] & ->).
      * now rewrite <- Hes.
      * exact Hnp.
      * exact (taking_not_passes _ _ _ _ _ _ _ _ Htk').
      * intros [j k] H Hz. apply Hz. now apply Hbf.
      * intros [j k] H Hz. apply Hz. now apply Hbf'.
      * now apply Hnt in Htk'.
    + assert (Hst : stuck m done (p_args s) x) by (eapply stuck_fault; eauto).
      unfold mbind. rewrite Hrun. destruct r; [easy|..]; eexists _, _, x; (split; [reflexivity|easy]).
Qed.
End Scan.

(** There is at most one reading. *)
Lemma reading_det m done ts x : reading m done ts x -> forall y, reading m done ts y -> x = y.
Proof.
  induction 1 as [done|done ts bf i l af lb vs rs items Hes Hbf Hc He Hco Hal Hdp Hrd IH]; intros y Hy.
  - inversion Hy as [|done' ts' bf i l af lb vs rs more H1 H2 H3 H4 H5]; subst; [easy|].
    inversion H5 as [? ? ? ? ? ? ? ? Hf|? ? ? ? ?]; subst; [inversion Hf|easy].
  - assert (Hne : ts <> []).
    { intros ->. inversion Hco as [? ? ? ? ? ? ? ? Hf|]; subst; [inversion Hf|easy]. }
    assert (Htk : taking m done ts i l lb vs rs) by easy.
    apply reading_head in Hy; [|easy].
    destruct Hy as (bf' & i' & l' & af' & lb' & vs' & rs' & more & Hes' & Hbf' & Htk' & -> & Hrd').
    destruct (first_split (fun a => ~ passes m done ts (fst a) (snd a)) bf (i, l) af bf' (i', l') af') as (-> & [= <- <-] & ->).
    + now rewrite <- Hes.
    + exact (taking_not_passes _ _ _ _ _ _ _ _ Htk).
    + exact (taking_not_passes _ _ _ _ _ _ _ _ Htk').
    + intros [j k] H Hz. apply Hz. now apply Hbf.
    + intros [j k] H Hz. apply Hz. now apply Hbf'.
    + destruct Htk' as (_ & _ & Hc' & _).
      destruct (consumes_det _ _ _ _ _ _ _ _ Hco Hc') as (<- & <- & <-). f_equal. now apply IH.
Qed.

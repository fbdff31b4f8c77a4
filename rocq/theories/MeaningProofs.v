(** From the token loop of a mode to the assignments it makes. *)
From Verif Require Import Bytes Token Adapter Result CodePoint Utf8 Tree PreParse Parse Root Validator.
From Verif Require Import SpecPolicy SpecTokens SpecMode SpecDeliver OrderProofs TreeProofs NodeProofs ModeProofs.
From Verif Require Import SelectProofs ParseProofs.

Lemma preorder_above n : forall tp d tp', In (d, tp') (preorder n tp) ->
  (d = n /\ tp' = tp) \/ exists p q, tp' = p :: q ++ tp /\ In p (below n).
Proof.
  induction n as [k id ty pols cs IH] using node_ind'. intros tp d tp' H.
  rewrite preorder_eq in H. destruct H as [H|H]; [injection H as <- <-; now left|]. right.
  apply in_flat_map in H as (c & Hc & H). cbn [n_children] in Hc. rewrite Forall_forall in IH.
  destruct (IH c Hc _ _ _ H) as [[-> ->]|(p & q & -> & Hp)].
  - exists (Node k id ty pols cs), []. split; [easy|]. apply below_self.
  - exists p, (q ++ [Node k id ty pols cs]). split; [now rewrite <- app_assoc|].
    now apply (below_child c).
Qed.

Lemma not_root n tp : node_ok (n, tp) = true -> tp <> [] -> is_root n = false.
Proof.
  intros H Hne. apply node_ok_policies in H as (Hs & _ & _). unfold node_static in Hs. unfold is_root.
  destruct (n_kind n); auto. repeat (apply andb_true_iff in Hs as [Hs ?]). now destruct tp.
Qed.

(** A node below a non-root node has a parent that is not the root. *)
Lemma below_parent n tp d : sub_ok n tp -> In d (below n) -> tp <> [] -> is_root (hd n tp) = false ->
  exists tp', node_ok (d, tp') = true /\ tp' <> [] /\ is_root (hd d tp') = false.
Proof.
  intros Hs Hd Hne Hr. destruct (sub_ok_below n tp d Hs Hd) as (tp' & Hin & Hs').
  exists tp'. split; [now apply sub_ok_self|].
  destruct (preorder_above _ _ _ _ Hin) as [[-> ->]|(p & q & -> & Hp)].
  - split; [easy|]. now destruct tp.
  - split; [easy|]. cbn [hd].
    destruct (sub_ok_below n tp p Hs Hp) as (tp2 & Hin2 & Hs2). apply (not_root p tp2); [now apply sub_ok_self|].
    destruct (preorder_above _ _ _ _ Hin2) as [[-> ->]|(? & ? & -> & _)]; easy.
Qed.

Lemma router_rule d tp : node_ok (d, tp) = true -> tp <> [] -> is_root (hd d tp) = false ->
  is_mode d = false -> has_router d = false.
Proof.
  intros H Hne Hr Hm. destruct (has_router d) eqn:E; [|easy]. unfold has_router in E.
  apply existsb_exists in E as (p & Hp & Ep). destruct p; try discriminate.
  apply node_ok_policies in H as (_ & _ & H). destruct (H _ Hp) as [_ Hpr].
  unfold policy_rules in Hpr. apply andb_true_iff in Hpr as [_ Hpr]. rewrite Hm in Hpr. cbn [orb] in Hpr.
  destruct tp; [easy|]. cbn [hd parent_is] in *. congruence.
Qed.

Lemma help_rule d tp : node_ok (d, tp) = true -> tp <> [] -> is_root (hd d tp) = false -> n_kind d <> KHelp.
Proof.
  intros H Hne Hr E. apply node_ok_policies in H as (_ & H & _). unfold node_rules in H. rewrite E in H.
  apply andb_true_iff in H as [_ H]. destruct tp; [easy|]. cbn [hd parent_is] in *. congruence.
Qed.

(** Facts about the nodes below a child of a mode. *)
Lemma mode_below self tp d : sub_ok self tp -> is_mode self = true -> In d (flat_map below (n_children self)) ->
  is_root d = false /\ n_kind d <> KHelp /\ (is_mode d = false -> has_router d = false).
Proof.
  intros Hs Hm Hd. apply in_flat_map in Hd as (c & Hc & Hd).
  pose proof (sub_ok_child self tp c Hs Hc) as Hcs.
  destruct (below_parent c (self :: tp) d Hcs Hd) as (tp' & Hok & Hne & Hr); [easy| |].
  - cbn [hd]. unfold is_mode in Hm. unfold is_root. now destruct (n_kind self).
  - split; [now apply (not_root d tp')|]. split; [now apply (help_rule d tp')|].
    intros Hdm. now apply (router_rule d tp').
Qed.

Lemma leaf_value_leaf self tp l : sub_ok self tp -> is_mode self = true ->
  In l (flat_map below (n_children self)) -> is_leaf l = true ->
  is_value_leaf l = true /\ has_router l = false.
Proof.
  intros Hs Hm Hl Hk. destruct (mode_below self tp l Hs Hm Hl) as (_ & Hh & Hr).
  unfold is_leaf in Hk. unfold is_value_leaf. unfold is_mode in Hr. destruct (n_kind l); try easy; auto.
Qed.

Lemma mode_router self tp c : sub_ok self tp -> is_mode self = true -> In c (n_children self) ->
  is_mode c = false -> has_router self = true.
Proof.
  intros Hs Hm Hc Hcm. pose proof (sub_ok_self _ _ Hs) as H. apply node_ok_policies in H as (H & _ & _).
  unfold is_mode in Hm. unfold node_static in H. destruct (n_kind self); try discriminate.
  repeat match goal with Hx : _ && _ = true |- _ => apply andb_true_iff in Hx as [? ?] end.
  destruct (has_router self); [easy|]. cbn [orb] in *.
  repeat match goal with Hx : _ && _ = true |- _ => apply andb_true_iff in Hx as [? ?] end.
  match goal with Hx : forallb is_mode _ = true |- _ => rewrite forallb_forall in Hx; apply Hx in Hc end.
  congruence.
Qed.

(** A node with a long or short name is an argument. *)
Lemma referred_leaf d tp ns : node_ok (d, tp) = true -> refers_to ns d = true -> is_leaf d = true.
Proof.
  intros H Hr. pose proof (node_ok_leaf _ _ H) as L. apply node_ok_policies in H as (H & _ & _).
  assert (Hn : long_name d <> None \/ short_name d <> None).
  { unfold refers_to in Hr. apply existsb_exists in Hr as (r & _ & Hr).
    apply existsb_exists in Hr as (p & Hp & Hr). destruct r, p; try discriminate.
    - left. unfold long_name. intros E. pose proof (proj1 (PermProofs.first_some_none _ _) E _ Hp). discriminate.
    - right. unfold short_name. intros E. pose proof (proj1 (PermProofs.first_some_none _ _) E _ Hp). discriminate. }
  unfold is_leaf. unfold node_static, one_of_base_static in H. unfold has_lname, has_sname in H.
  destruct (n_kind d); auto; exfalso;
    repeat match goal with Hx : _ && _ = true |- _ => apply andb_true_iff in Hx as [? ?] end;
    destruct (long_name d), (short_name d); cbn [is_some negb] in *; try discriminate; destruct Hn; easy.
Qed.

Lemma alias_subs_assign ns self vals :
  map assignment (alias_subs ns self vals) = map (fun d => (d, vals)) (filter (refers_to ns) (below self)).
Proof.
  unfold alias_subs, below. induction (preorder self []) as [|[d ps] l IH]; [easy|].
  cbn [flat_map map filter fst]. rewrite map_app, IH. destruct (refers_to ns d); reflexivity.
Qed.

Lemma alias_subs_nodes ns self vals t : In t (alias_subs ns self vals) ->
  In (tg_node t) (below self) /\ refers_to ns (tg_node t) = true /\ tg_toks t = vals /\ tg_subs t = [].
Proof.
  unfold alias_subs. intros H. apply in_flat_map in H as ([d ps] & Hin & H).
  destruct (refers_to ns d) eqn:E; [|easy]. destruct H as [<-|[]]. cbn. split; [|easy].
  apply in_map_iff. exists (d, ps). easy.
Qed.

Lemma ref_owners_below ns n : forall d, In d (ref_owners ns n) -> In d (below n) /\ refers_to ns d = true.
Proof.
  induction n as [k id ty pols cs IH] using node_ind'. intros d H. cbn [ref_owners] in H.
  rewrite Forall_forall in IH. apply in_app_iff in H as [H|H].
  - apply in_flat_map in H as (c & Hc & H). destruct (IH c Hc d H) as [H1 H2]. split; [|easy].
    apply (below_child c); easy.
  - apply in_flat_map in H as (p & Hp & H). destruct (existsb _ ns) eqn:E; [|easy].
    destruct H as [<-|[]]. split; [apply below_self|]. unfold refers_to.
    apply existsb_exists in E as (r & Hr & E). apply existsb_exists. exists r. split; [easy|].
    apply existsb_exists. exists p. easy.
Qed.

Lemma alias_subs_ne ns l tp mode vals : node_ok (l, tp) = true -> In (PAlias ns) (n_pols l) ->
  nearest_mode_like (l :: tp) = Some mode -> alias_subs ns mode vals <> [].
Proof.
  intros H Hin Hm E. apply node_ok_policies in H as (_ & _ & H). destruct (H _ Hin) as [Hs _].
  cbn [policy_static] in Hs. apply andb_true_iff in Hs as [_ Hs].
  destruct (count_bounds l) as [[mn mx]|]; [|easy]. rewrite Hm in Hs.
  apply andb_true_iff in Hs as [Hs _]. apply andb_true_iff in Hs as [Hs _]. apply andb_true_iff in Hs as [_ Hs]. unfold refs_ok in Hs.
  apply andb_true_iff in Hs as [Hs Hne]. apply andb_true_iff in Hs as [Hs _].
  apply Nat.eqb_eq in Hs. destruct (ref_owners ns mode) as [|d ds] eqn:Er.
  - rewrite <- Hs in Hne. discriminate.
  - destruct (ref_owners_below ns mode d) as [Hd1 Hd2]; [rewrite Er; now left|].
    unfold alias_subs in E. apply in_map_iff in Hd1 as ([d' ps] & <- & Hd1). cbn [fst] in Hd2.
    assert (Hx : In (Target d' ps vals []) (alias_subs ns mode vals)).
    { unfold alias_subs. apply in_flat_map. exists (d', ps). split; [easy|]. rewrite Hd2. now left. }
    unfold alias_subs in Hx. rewrite E in Hx. destruct Hx.
Qed.

Lemma nearest_skip q mode tp : (forall d, In d q -> has_router d = false) -> has_router mode = true ->
  nearest_mode_like (q ++ mode :: tp) = Some mode.
Proof.
  intros Hq Hm. unfold nearest_mode_like. induction q as [|d q IH]; cbn [app find].
  - now rewrite Hm.
  - rewrite (Hq d) by now left. apply IH. intros e He. apply Hq. now right.
Qed.

Lemma preorder_path n : forall tp d tp', In (d, tp') (preorder n tp) ->
  exists q, tp' = q ++ tp /\ (forall x, In x q -> In x (below n)).
Proof.
  induction n as [k id ty pols cs IH] using node_ind'. intros tp d tp' H.
  rewrite preorder_eq in H. destruct H as [H|H]; [injection H as <- <-; now exists []|].
  apply in_flat_map in H as (c & Hc & H). cbn [n_children] in Hc. rewrite Forall_forall in IH.
  destruct (IH c Hc _ _ _ H) as (q & -> & Hq).
  exists (q ++ [Node k id ty pols cs]). split; [now rewrite <- app_assoc|].
  intros x Hx. apply in_app_iff in Hx as [Hx|[<-|[]]]; [|apply below_self]. apply (below_child c); auto.
Qed.

(** No mode is nested in an argument or a group of arguments. *)
Lemma below_no_mode c : forall tp d, sub_ok c tp -> is_mode c = false -> is_root c = false ->
  In d (below c) -> is_mode d = false.
Proof.
  induction c as [k id ty pols cs IH] using node_ind'. intros tp d Hs Hm Hr Hd.
  rewrite below_eq in Hd. destruct Hd as [<-|Hd]; [easy|].
  apply in_flat_map in Hd as (e & He & Hd). rewrite Forall_forall in IH. cbn [n_children] in He.
  destruct (is_dep (Node k id ty pols cs)) eqn:Ed.
  - destruct (dep_children _ tp e Hs Ed He) as (H1 & H2 & _).
    apply (IH e He (Node k id ty pols cs :: tp)); auto. now apply sub_ok_child.
  - exfalso. pose proof (sub_ok_self _ _ Hs) as Hk. apply node_ok_policies in Hk as (Hk & _ & _).
    assert (Hz : no_children (Node k id ty pols cs) = true).
    { unfold is_mode, is_root, is_dep in *. unfold node_static, arg_base_static in Hk. cbn [n_kind] in *.
      destruct k as [|[]| | | | | |]; try discriminate;
        repeat match goal with Hx : _ && _ = true |- _ => apply andb_true_iff in Hx as [? ?] end; easy. }
    unfold no_children in Hz. cbn [n_children] in Hz. destruct cs; easy.
Qed.

(** ** The meaning of the loop's steps *)

Lemma steps_meaning self tp parents : sub_ok self tp -> is_mode self = true ->
  forall ts seen sts, steps self parents ts seen sts ->
  exists items asgs, understood self ts items /\ Forall2 (assigns self) items asgs
    /\ map assignment (flat_map step_subs sts) = List.concat asgs
    /\ Forall (good_sub self) (flat_map step_subs sts).
Proof.
  intros Hs Hm ts seen sts H.
  induction H as [seen|ts seen rest more i c l t Hne Hi Hcm Hl L Hma Hseen Hst IH].
  - exists [], []. repeat split; constructor.
  - destruct IH as (items & asgs & Hu & Ha & He & Hg).
    assert (Hc : In c (n_children self)) by (eapply nth_error_In; exact Hi).
    assert (Hlb : In l (flat_map below (n_children self))) by (apply in_flat_map; eauto).
    pose proof (mode_router self tp c Hs Hm Hc Hcm) as Hrt.
    destruct (leaf_value_leaf self tp l Hs Hm Hlb (lf_kind _ L)) as [Hvl Hnr].
    destruct Hma as [Hn Hp (label & vals & Ht & Hcase)].
    destruct Hcase as [(Hno & Htk & Hsb)|(ns & n0 & mode & Hal & Hcb & Hlen & Hnm & Htk & Hsb)].
    + exists (Item l label vals :: items), ([(l, vals)] :: asgs).
      assert (Es : step_subs (Step i l t) = [t]) by (unfold step_subs; cbn [st_target]; now rewrite Hsb).
      split; [|split; [|split]].
      * econstructor; eauto. exists c. easy.
      * constructor; [now constructor|easy].
      * cbn [flat_map]. rewrite Es, map_app, He. cbn [map app List.concat]. f_equal.
        unfold assignment. now rewrite Hn, Htk.
      * cbn [flat_map]. rewrite Es. constructor; [|easy]. constructor; rewrite Hn; easy.
    + assert (mode = self).
      { unfold nearest_mode_like in Hnm. cbn [find] in Hnm. rewrite Hnr, Hrt in Hnm. now injection Hnm. }
      subst mode.
      assert (Hsne : tg_subs t <> []).
      { rewrite Hsb. pose proof (sub_ok_child _ _ _ Hs Hc) as Hsc.
        destruct (sub_ok_below _ _ l Hsc Hl) as (tpl & Hin & Hsl).
        apply (alias_subs_ne ns l tpl self vals); [now apply sub_ok_self|easy|].
        destruct (preorder_path _ _ _ _ Hin) as (q & -> & Hq).
        apply (nearest_skip (l :: q) self tp); [|easy].
        intros d [<-|Hd]; [easy|]. destruct (mode_below self tp d Hs Hm) as (_ & _ & Hx).
        - apply in_flat_map. eauto.
        - apply Hx. apply (below_no_mode c (self :: tp)); auto.
          apply (not_root c (self :: tp)); [now apply sub_ok_self|easy]. }
      assert (Es : step_subs (Step i l t) = tg_subs t)
        by (unfold step_subs; cbn [st_target]; now destruct (tg_subs t)).
      exists (Item l label vals :: items), (map (fun d => (d, vals)) (filter (refers_to ns) (below self)) :: asgs).
      split; [|split; [|split]].
      * econstructor; eauto. exists c. easy.
      * constructor; [econstructor; eauto|easy].
      * cbn [flat_map]. rewrite Es, map_app, He. cbn [List.concat]. f_equal.
        rewrite Hsb. apply alias_subs_assign.
      * cbn [flat_map]. rewrite Es. apply Forall_app. split; [|easy]. rewrite Hsb. apply Forall_forall.
        intros t' Ht'. apply alias_subs_nodes in Ht' as (Hb & Hr & _ & _).
        destruct (sub_ok_below _ _ _ Hs Hb) as (tpd & _ & Hsd).
        assert (Hlf : is_leaf (tg_node t') = true)
          by (eapply referred_leaf; [apply sub_ok_self; exact Hsd|exact Hr]).
        assert (Hb' : In (tg_node t') (flat_map below (n_children self))).
        { rewrite below_eq in Hb. destruct Hb as [Hb|Hb]; [|easy]. exfalso. rewrite <- Hb in Hlf.
          unfold is_leaf in Hlf. unfold is_mode in Hm. destruct (n_kind self); discriminate. }
        destruct (leaf_value_leaf self tp _ Hs Hm Hb' Hlf). constructor; easy.
Qed.

(** ** The mode that a match belongs to *)

Record ready (top m : node) (ps : list node) (ts : list token) (t : target) : Prop := {
  rd_below : In m (below top);
  rd_mode : is_mode m = true;
  rd_ok : exists tp, sub_ok m tp;
  rd_steps : exists sts, steps m ps ts (map (fun _ => false) (n_children m)) sts
               /\ t = add_subs (Target m ps [] []) (flat_map step_subs sts)
}.

Lemma first_match_some {P : target -> list token -> Prop} (g : node -> child_pp) pt v cs :
  (forall c s s' t, In c cs -> g c pt v s = (s', Ok (Some t)) -> P t (p_args s')) ->
  forall s s' t, first_match (map g cs) pt v s = (s', Ok (Some t)) -> P t (p_args s').
Proof.
  intros Hg. induction cs as [|c cs IH]; intros s s' t H; [easy|].
  cbn [map first_match] in H. apply mbind_inv in H as (s1 & r1 & H1 & H2).
  destruct r1 as [[t1|]| | | |]; try (destruct H2; discriminate).
  - injection H2 as <- <-. apply (Hg c s); [now left|easy].
  - exact (IH (fun c' a b d Hc => Hg c' a b d (or_intror Hc)) s1 s' t H2).
Qed.

Lemma mode_target f n : forall tp parents pt s s' t,
  sub_ok n tp -> is_mode n = true -> pre_parse f n parents pt always_true s = (s', Ok (Some t)) ->
  p_args s' = [] /\ exists m ps ts, ready n m ps ts t.
Proof.
  induction n as [k id ty pols cs IH] using node_ind'. intros tp parents pt s s' t Hs Hm H.
  set (n := Node k id ty pols cs) in *. destruct k; try discriminate.
  set (g := fun c => pre_parse f c (n :: parents)) in *.
  change (pre_parse f n parents)
    with (mode_pre_parse f n parents (map (fun c => (c, g c)) (n_children n))) in H.
  assert (Hbody : forall s s' t,
            (ok <- run_validator always_true n ;;
             if negb ok then mret None
             else mode_loop f n (map (fun c => (c, g c)) (n_children n)) (Target n parents [] [])
                            (map (fun _ => false) (map (fun c => (c, g c)) (n_children n))))%m s = (s', Ok (Some t)) ->
            p_args s' = [] /\ exists m ps ts, ready n m ps ts t).
  { clear s s' t H. intros s s' t H. apply mbind_inv in H as (s1 & r1 & H1 & H2).
    cbn in H1. injection H1 as <- <-. cbn [negb] in H2.
    apply mode_loop_inv in H2; [|now apply (mode_children_offers f n tp)]. cbn [p_args] in H2.
    rewrite map_map in H2. destruct H2 as (Ha & sts & Hst & ->). split; [easy|].
    exists n, parents, (p_args s). constructor; [apply below_self|easy|now exists tp|]. eauto. }
  unfold mode_pre_parse in H. destruct (is_anonymous n) eqn:Ea; [now apply Hbody in H|].
  apply mbind_inv in H as (s1 & r1 & H1 & H2).
  destruct r1 as [[t0|]| | | |]; try (destruct H2; discriminate); [|discriminate].
  destruct (p_args s1) as [|t1 ts1] eqn:E1; [now apply Hbody in H2|].
  apply mbind_inv in H2 as (s2 & r2 & H2 & H3). rewrite filter_modes in H2.
  destruct r2 as [[t2|]| | | |]; try (destruct H3; discriminate); [|now apply Hbody in H3].
  injection H3 as <- <-.
  apply (@first_match_some (fun t ts => ts = [] /\ exists m ps ts, ready n m ps ts t)) in H2; [easy|].
  intros c s3 s4 t4 Hc Hg. apply filter_In in Hc as [Hc Hcm]. rewrite Forall_forall in IH.
  destruct (IH c Hc (n :: tp) (n :: parents) pt s3 s4 t4) as (Hx & m & ps & ts & [R1 R2 R3 R4]); auto.
  - now apply sub_ok_child.
  - split; [easy|]. exists m, ps, ts. constructor; auto. now apply (below_child c).
Qed.

(** Proofs about the help page (C34, C43, C59-C61). *)
From Coq Require Import Lia.
From Verif Require Import Bytes Token Result CodePoint Utf8 Tree PreParse Parse Root Validator Digits Help.
From Verif Require Import SpecTake SpecMode SpecDeliver SpecRoot SpecReading SpecLines SpecHelp.
From Verif Require Import TreeProofs Utf8Proofs LineProofs OrderProofs NodeProofs TakeProofs ModeProofs RootProofs HelpProofs.

(** ** Lines *)

Lemma line_scan_all max cps : forall w col n lc ln, col + cps_width cps <= max ->
  fst (line_scan max w col n lc ln cps) = n + List.length cps.
Proof.
  induction cps as [|c cps IH]; intros w col n lc ln H; cbn [line_scan].
  - cbn [fst List.length]. lia.
  - change (cps_width (c :: cps)) with (cp_width c + cps_width cps) in H.
    destruct (Nat.ltb_spec max (col + cp_width c)); [lia|].
    cbn [List.length]. destruct (cp_decode c) as [cp|]; [destruct (should_break _ _ _)|]; rewrite IH; lia.
Qed.

(** A text that is not wider than the limit is a single line. *)
Lemma wide_limit text max k : text <> [] -> max <> 0 -> cps_width text <= max ->
  lines_from (S k) (line_begin text max) = Some [text].
Proof.
  intros Hne Hm Hw. unfold line_begin. destruct (Nat.eqb_spec max 0) as [|_]; [lia|].
  unfold line_consume at 1. cbn [li_str li_brk li_max li_win Nat.eqb].
  destruct text as [|c text]; [easy|]. set (t := c :: text) in *.
  destruct (line_scan max fresh_window 0 0 0 0 t) as [brk w] eqn:E.
  assert (Hb : brk = List.length t).
  { pose proof (line_scan_all max t fresh_window 0 0 0 0 ltac:(lia)) as H. rewrite E in H. exact H. }
  subst brk. cbn [lines_from li_str]. unfold t at 1. unfold line_deref. cbn [li_brk li_str].
  rewrite firstn_all. unfold line_consume. cbn [li_str li_brk li_max li_win]. unfold t at 1.
  destruct (Nat.eqb_spec (List.length t) 0) as [Hz|_]; [discriminate|].
  rewrite skipn_all. cbn [skip_ws]. destruct k; reflexivity.
Qed.

Lemma cps_width_bound cps : cps_width cps <= 2 * List.length cps.
Proof.
  induction cps as [|c cps IH]; [cbn; lia|]. change (cps_width (c :: cps)) with (cp_width c + cps_width cps).
  pose proof (cp_width_le c). cbn [List.length]. lia.
Qed.

(** ** The shape of an accepted tree *)

(** All nodes of a subtree pass the compile-time checks that do not look at the prefixes. *)
Definition core_node (x : node * list node) : Prop :=
  node_static (fst x) (snd x) = true /\ node_rules (fst x) (snd x) = true /\ core_ok (fst x) (snd x).
Definition sub_core (n : node) (tp : list node) : Prop := forall x, In x (preorder n tp) -> core_node x.

Lemma sub_ok_core n tp : sub_ok n tp -> sub_core n tp.
Proof.
  intros H [m tm] Hin. specialize (H _ Hin). split; [|split]; [apply node_ok_policies in H; apply H| |exact (node_ok_core _ _ H)].
  apply node_ok_policies in H. apply H.
Qed.

Lemma sub_core_self n tp : sub_core n tp -> node_static n tp = true /\ node_rules n tp = true /\ core_ok n tp.
Proof. intros H. apply (H (n, tp)). rewrite preorder_eq. now left. Qed.

Lemma sub_core_child n tp c : sub_core n tp -> In c (n_children n) -> sub_core c (n :: tp).
Proof. intros H Hc x Hx. apply H. rewrite preorder_eq. right. apply in_flat_map. eauto. Qed.

Lemma sub_core_below n : forall tp d, sub_core n tp -> In d (below n) ->
  exists tp', In (d, tp') (preorder n tp) /\ sub_core d tp'.
Proof.
  induction n as [k id ty pols cs IH] using node_ind'. intros tp d Hs Hd.
  rewrite below_eq in Hd. destruct Hd as [<-|Hd].
  - exists tp. split; [rewrite preorder_eq; now left|exact Hs].
  - apply in_flat_map in Hd as (c & Hc & Hd). rewrite Forall_forall in IH. cbn [n_children] in Hc.
    destruct (IH c Hc _ d (sub_core_child _ _ _ Hs Hc) Hd) as (tp' & Hin & Hs').
    exists tp'. split; [|exact Hs']. rewrite preorder_eq. right. apply in_flat_map. eauto.
Qed.

Lemma accepted_core r : accepted r = true -> is_root r = true /\ sub_core r [].
Proof. intros H. apply accepted_sub in H as [H1 H2]. split; [exact H1|]. now apply sub_ok_core. Qed.

Lemma core_dep_children n tp c : sub_core n tp -> is_dep n = true -> In c (n_children n) ->
  is_mode c = false /\ is_root c = false.
Proof.
  intros Hs Hd Hc. destruct (sub_core_self _ _ (sub_core_child _ _ _ Hs Hc)) as (Hst & Hr & _).
  unfold is_dep in Hd. unfold is_mode, is_root, node_static, node_rules in *.
  destruct (n_kind c) eqn:E; auto; exfalso.
  - rewrite !andb_true_iff in Hr. destruct Hr as [_ Hr]. cbn [parent_is] in Hr. unfold is_root, is_mode in Hr.
    destruct (n_kind n); discriminate.
  - rewrite !andb_true_iff in Hst. destruct Hst as [_ Hst]. discriminate.
Qed.

Lemma ok_leaf n tp : sub_core n tp -> is_leaf n = true -> n_children n = [].
Proof.
  intros Hs Hl. apply sub_core_self in Hs. destruct Hs as (Hs & _ & _).
  unfold node_static in Hs. unfold is_leaf in Hl.
  assert (H : no_children n = true).
  { destruct (n_kind n) as [|[]| | | | | |]; try discriminate; unfold arg_base_static in Hs;
      repeat match goal with Hx : _ && _ = true |- _ => apply andb_true_iff in Hx as [? ?] end; assumption. }
  unfold no_children in H. now destruct (n_children n).
Qed.

Lemma ok_group n tp c : sub_core n tp -> is_dep n = true -> In c (n_children n) -> is_leaf c = true.
Proof.
  intros Hs Hd Hc. destruct (core_dep_children n tp c Hs Hd Hc) as (Hm & Hr).
  pose proof (sub_core_self _ _ (sub_core_child _ _ _ Hs Hc)) as Hk. destruct Hk as (_ & Hk & _).
  unfold node_rules in Hk. unfold is_leaf. unfold is_mode in Hm. unfold is_root in Hr. unfold is_dep in Hd.
  assert (Hx : is_mode n = true -> False) by (unfold is_mode; destruct (n_kind n); discriminate).
  destruct (n_kind c); try easy; exfalso; cbn [parent_is] in Hk;
    repeat match goal with Hx : _ && _ = true |- _ => apply andb_true_iff in Hx as [? ?] end; auto.
Qed.

Lemma ok_anonymous n tp c : sub_core n tp -> is_mode n = true -> is_anonymous n = true -> In c (n_children n) ->
  is_mode c = false.
Proof.
  intros Hs Hm Ha Hc. apply sub_core_self in Hs. destruct Hs as (Hs & _ & _).
  unfold node_static in Hs. unfold is_mode in Hm. destruct (n_kind n); try discriminate. rewrite Ha in Hs. cbn [negb orb] in Hs.
  repeat match goal with Hx : _ && _ = true |- _ => apply andb_true_iff in Hx as [? ?] end.
  match goal with Hx : forallb (fun c => negb (is_mode c)) _ = true |- _ => rewrite forallb_forall in Hx; specialize (Hx c Hc) end.
  now apply negb_true_iff.
Qed.

Lemma ok_child_root n tp c : sub_core n tp -> In c (n_children n) -> is_root c = false.
Proof.
  intros Hs Hc. pose proof (sub_core_self _ _ (sub_core_child _ _ _ Hs Hc)) as Hk. destruct Hk as (Hk & _ & _).
  unfold node_static in Hk. unfold is_root. destruct (n_kind c); auto.
  rewrite !andb_true_iff in Hk. destruct Hk as [_ Hk]. discriminate.
Qed.

(** ** Which entries there are *)

Lemma preorder_above n : forall ps x, In x (preorder n ps) -> incl ps (snd x) /\ (fst x = n \/ In n (snd x)).
Proof.
  induction n as [k id ty pols cs IH] using node_ind'. rewrite Forall_forall in IH. intros ps x Hx.
  rewrite preorder_eq in Hx. destruct Hx as [<-|Hx]; [split; [apply incl_refl|now left]|].
  apply in_flat_map in Hx as (c & Hc & Hx). cbn [n_children] in Hc. destruct (IH c Hc _ _ Hx) as [H1 _].
  split; [|right]; [intros y Hy|]; apply H1; [now right|now left].
Qed.

Definition seen (flatten : bool) (np : node * list node) : bool :=
  forallb switched_on (fst np :: snd np) && negb (existsb (closed flatten) (snd np)).

Lemma filter_none {A} (p : A -> bool) l : (forall x, In x l -> p x = false) -> filter p l = [].
Proof.
  induction l as [|x l IH]; intros H; [easy|]. cbn [filter]. rewrite H by now left. apply IH. intros y Hy. apply H. now right.
Qed.

Lemma seen_off f n ps : switched_on n = false -> filter (seen f) (preorder n ps) = [].
Proof.
  intros H. apply filter_none. intros x Hx. destruct (preorder_above n ps x Hx) as [_ Hn].
  unfold seen. cbn [forallb]. apply andb_false_iff. left. apply andb_false_iff. destruct Hn as [->|Hn]; [now left|right].
  apply not_true_iff_false. rewrite forallb_forall. intros Ha. rewrite Ha in H by exact Hn. discriminate.
Qed.

Lemma seen_closed f n ps p : In p ps -> closed f p = true -> filter (seen f) (preorder n ps) = [].
Proof.
  intros Hp H. apply filter_none. intros x Hx. destruct (preorder_above n ps x Hx) as [Hi _].
  unfold seen. apply andb_false_iff. right. apply negb_false_iff. apply existsb_exists. exists p. split; [now apply Hi|easy].
Qed.

Lemma filter_flat_map {A B} (p : B -> bool) (g : A -> list B) l :
  filter p (flat_map g l) = flat_map (fun x => filter p (g x)) l.
Proof. induction l as [|x l IH]; [easy|]. cbn [flat_map]. now rewrite filter_app, IH. Qed.

Lemma help_filter_on n : help_filter n = switched_on n.
Proof. unfold help_filter, switched_on. now destruct (runtime_enabled n) as [[]|]. Qed.

Section Page.
Variable label : node -> bytes.

(** The row of an entry: depth, label and description. *)
Definition entry_row (e : node * list node * bytes) : nat * bytes * bytes :=
  (List.length (snd (fst e)), snd e ++ label (fst (fst e)), help_description (fst (fst e))).

Lemma runtime_same f n tp : sub_core n tp -> is_mode n = false -> is_root n = false ->
  runtime_children_of label f n = runtime_children_of label true n.
Proof.
  intros Hs Hm Hr. assert (Hl := ok_leaf n tp Hs). destruct n as [k id ty pols cs].
  unfold is_leaf in Hl. unfold is_mode in Hm. unfold is_root in Hr. cbn [n_kind n_children] in *.
  destruct k; try discriminate; try (rewrite (Hl eq_refl)); reflexivity.
Qed.

Definition head_depth (d : nat) (l : list (node * list node)) : Prop :=
  match l with [] => True | (_, qs) :: _ => List.length qs <= d end.

Lemma lines_plain above n ps l : in_group ps = false ->
  with_lines above ((n, ps) :: l) = (n, ps, []) :: with_lines (Some (List.length ps)) l.
Proof. intros H. cbn [with_lines]. now rewrite H. Qed.

Lemma group_below g ps l : forall L, is_dep g = true -> head_depth (List.length ps) l -> L <> [] ->
  exists D, with_lines (Some (S (List.length ps))) (map (fun c => (c, g :: ps)) L ++ l)
            = D ++ with_lines (Some (S (List.length ps))) l
    /\ flat_map (visit (S (List.length ps)))
         (bars_below (map (fun c => HD (label c) (help_description c) []) L)) = map entry_row D.
Proof.
  intros L Hg Hh. assert (Hig : in_group (g :: ps) = true).
  { unfold in_group. unfold is_dep in Hg. now destruct (n_kind g). }
  induction L as [|c [|c' L] IH]; intros Hne; [easy| |].
  - eexists [(c, g :: ps, bottom)]. split; [|reflexivity].
    cbn [map app with_lines]. rewrite Hig. cbn [List.length]. rewrite Nat.eqb_refl.
    assert (E : match l with [] => false | (_, qs) :: _ => Nat.eqb (List.length qs) (S (List.length ps)) end = false).
    { destruct l as [|[x qs] l]; [easy|]. apply Nat.eqb_neq. cbn [head_depth] in Hh. lia. }
    now rewrite E.
  - destruct IH as (D & E1 & E2); [discriminate|]. exists ((c, g :: ps, middle) :: D). split.
    + cbn [map app]. cbn [map app] in E1. cbn [with_lines] in E1 |- *. rewrite Hig in E1 |- *. cbn [List.length] in E1 |- *.
      rewrite Nat.eqb_refl in E1 |- *. now rewrite E1.
    + cbn [map]. cbn [map] in E2. cbn [bars_below] in E2 |- *. cbn [flat_map]. rewrite E2. reflexivity.
Qed.

Lemma group_lines g ps l L : is_dep g = true -> head_depth (List.length ps) l ->
  exists D above', with_lines (Some (List.length ps)) (map (fun c => (c, g :: ps)) L ++ l) = D ++ with_lines above' l
    /\ flat_map (visit (S (List.length ps)))
         (let r := map (fun c => HD (label c) (help_description c) []) L in
          if Nat.leb (List.length r) 1 then r else with_bars r) = map entry_row D.
Proof.
  intros Hg Hh. assert (Hig : in_group (g :: ps) = true).
  { unfold in_group. unfold is_dep in Hg. now destruct (n_kind g). }
  assert (Hab : Nat.eqb (List.length ps) (S (List.length ps)) = false) by (apply Nat.eqb_neq; lia).
  destruct L as [|c [|c' L]].
  - exists [], (Some (List.length ps)). easy.
  - exists [(c, g :: ps, [])], (Some (S (List.length ps))). split; [|reflexivity].
    cbn [map app with_lines]. rewrite Hig. cbn [List.length]. rewrite Hab.
    assert (E : match l with [] => false | (_, qs) :: _ => Nat.eqb (List.length qs) (S (List.length ps)) end = false).
    { destruct l as [|[x qs] l]; [easy|]. apply Nat.eqb_neq. cbn [head_depth] in Hh. lia. }
    now rewrite E.
  - destruct (group_below g ps l (c' :: L) Hg Hh) as (D & E1 & E2); [discriminate|].
    exists ((c, g :: ps, top) :: D), (Some (S (List.length ps))). split.
    + cbn [map app]. cbn [map app] in E1. cbn [with_lines] in E1 |- *. rewrite Hig in E1 |- *. cbn [List.length] in E1 |- *.
      rewrite Nat.eqb_refl in E1 |- *. rewrite Hab. now rewrite E1.
    + cbn [map List.length Nat.leb]. cbv zeta. cbn [with_bars]. cbn [map] in E2. cbn [flat_map]. rewrite E2. reflexivity.
Qed.

Definition group_of (n : node) (ps : list node) : Prop := in_group ps = false.

Lemma page_rows f n : forall tp ps above l, sub_core n tp -> in_group ps = false -> switched_on n = true ->
  (forall p, In p ps -> switched_on p = true /\ closed f p = false) -> head_depth (List.length ps) l ->
  exists D above', with_lines above (filter (seen f) (preorder n ps) ++ l) = D ++ with_lines above' l
    /\ visit (List.length ps) (HD (label n) (help_description n) (runtime_children_of label f n)) = map entry_row D.
Proof.
  induction n as [k id ty pols cs IH] using node_ind'. rewrite Forall_forall in IH.
  intros tp ps above l Hs Hg Hon Hps Hh. set (n := Node k id ty pols cs) in *.
  rewrite preorder_eq. cbn [filter].
  assert (Hseen : seen f (n, ps) = true).
  { unfold seen. cbn [fst snd forallb]. rewrite Hon. cbn [andb]. apply andb_true_iff. split.
    - apply forallb_forall. intros p Hp. now apply Hps.
    - apply negb_true_iff. apply not_true_iff_false. intros H. apply existsb_exists in H as (p & Hp & H).
      destruct (Hps p Hp) as [_ H']. congruence. }
  rewrite Hseen. cbn [app]. rewrite lines_plain by exact Hg. rewrite filter_flat_map.
  enough (exists D above', with_lines (Some (List.length ps))
            (flat_map (fun c => filter (seen f) (preorder c (n :: ps))) (n_children n) ++ l) = D ++ with_lines above' l
          /\ flat_map (visit (S (List.length ps))) (runtime_children_of label f n) = map entry_row D) as (D & ab & E1 & E2).
  { exists ((n, ps, []) :: D), ab. split; [now rewrite E1|]. cbn [visit map]. now rewrite E2. }
  change (n_children n) with cs. change (runtime_children_of label f n) with (runtime_children_of label f (Node k id ty pols cs)).
  (* the children of a node that is not a group *)
  assert (Hplain : is_dep n = false -> closed f n = false ->
            forall fl, (forall c, In c cs -> runtime_children_of label fl c = runtime_children_of label f c) ->
            forall cs', incl cs' cs -> forall ab l', head_depth (List.length ps) l' ->
            exists D above', with_lines ab (flat_map (fun c => filter (seen f) (preorder c (n :: ps))) cs' ++ l') = D ++ with_lines above' l'
            /\ flat_map (visit (S (List.length ps)))
                 (flat_map (fun c => if help_filter c then [HD (label c) (help_description c) (runtime_children_of label fl c)] else []) cs')
               = map entry_row D).
  { intros Hd Hc fl Hfl. induction cs' as [|c cs' IHc]; intros Hi ab l' Hl'; [exists [], ab; easy|].
    assert (Hin : In c cs) by (apply Hi; now left).
    cbn [flat_map]. rewrite help_filter_on. destruct (switched_on c) eqn:Ec.
    - rewrite <- app_assoc.
      destruct (IH c Hin (n :: tp) (n :: ps) ab (flat_map (fun c => filter (seen f) (preorder c (n :: ps))) cs' ++ l')) as (D1 & ab1 & E1 & E2); auto.
      + now apply sub_core_child.
      + intros p [<-|Hp]; auto.
      + clear -Hl'. induction cs' as [|d cs' IHd]; cbn [flat_map app].
        * destruct l' as [|[? ?] ?]; [easy|]. cbn [head_depth List.length] in *. lia.
        * rewrite preorder_eq. cbn [filter]. destruct (seen f (d, n :: ps)) eqn:E; [cbn [app head_depth]; lia|].
          assert (H : filter (seen f) (flat_map (fun c => preorder c (d :: n :: ps)) (n_children d)) = []).
          { apply filter_none. intros x Hx. apply in_flat_map in Hx as (c & Hc & Hx).
            destruct (preorder_above c _ x Hx) as [Hi _].
            apply not_true_iff_false. intros Hse. apply not_true_iff_false in E. apply E.
            unfold seen in *. cbn [fst snd]. apply andb_true_iff in Hse as [H1 H2]. apply andb_true_iff. split.
            - apply forallb_forall. rewrite forallb_forall in H1. intros p Hp. apply H1. right. apply Hi. exact Hp.
            - apply negb_true_iff. apply negb_true_iff in H2. apply not_true_iff_false. intros H.
              apply not_true_iff_false in H2. apply H2. apply existsb_exists in H as (p & Hp & H).
              apply existsb_exists. exists p. split; [apply Hi; now right|easy]. }
          rewrite H. cbn [app]. exact IHd.
      + destruct (IHc (fun x Hx => Hi x (or_intror Hx)) ab1 l' Hl') as (D2 & ab2 & E3 & E4).
        exists (D1 ++ D2), ab2. split.
        * rewrite E1, E3. now rewrite app_assoc.
        * cbn [app flat_map]. rewrite E4, map_app. f_equal. rewrite <- E2. now rewrite Hfl.
    - rewrite seen_off by exact Ec. cbn [app]. apply IHc; auto. intros x Hx. apply Hi. now right. }
  assert (Hleaf : is_leaf n = true -> exists (D : list (node * list node * bytes)) (above' : option nat),
    with_lines (Some (List.length ps)) (flat_map (fun c => filter (seen f) (preorder c (n :: ps))) cs ++ l) = D ++ with_lines above' l
    /\ flat_map (visit (S (List.length ps))) (flat_map (fun c => if help_filter c
         then [HD (label c) (help_description c) (runtime_children_of label f c)] else []) cs) = map entry_row D).
  { intros Hl. apply (ok_leaf n tp Hs) in Hl. change (n_children n) with cs in Hl. rewrite Hl.
    exists [], (Some (List.length ps)). easy. }
  assert (Hgroup : is_dep n = true -> exists (D : list (node * list node * bytes)) (above' : option nat),
    with_lines (Some (List.length ps)) (flat_map (fun c => filter (seen f) (preorder c (n :: ps))) cs ++ l) = D ++ with_lines above' l
    /\ flat_map (visit (S (List.length ps))) (let result := flat_map (fun c => if help_filter c
         then [HD (label c) (help_description c) (runtime_children_of label true c)] else []) cs in
         if Nat.leb (List.length result) 1 then result else with_bars result) = map entry_row D).
  { intros Hd. destruct (group_lines n ps l (filter switched_on cs) Hd Hh) as (D & ab & E1 & E2). exists D, ab.
    assert (Hkids : forall c, In c cs -> n_children c = []).
    { intros c Hc. apply (ok_leaf c (n :: tp)); [now apply sub_core_child|]. now apply (ok_group n tp). }
    assert (Hcl : closed f n = false).
    { unfold closed, is_mode. unfold is_dep in Hd. destruct (n_kind n); try discriminate; now rewrite andb_false_r. }
    split.
    - rewrite <- E1. f_equal. f_equal. clear -Hkids Hps Hon Hcl. clearbody n. induction cs as [|c cs' IHc]; [easy|].
      cbn [flat_map filter]. rewrite preorder_eq, Hkids by now left. cbn [flat_map filter].
      rewrite IHc by (intros d Hd; apply Hkids; now right).
      destruct (switched_on c) eqn:Ec.
      + replace (seen f (c, n :: ps)) with true; [reflexivity|]. symmetry. unfold seen. cbn [fst snd forallb existsb].
        rewrite Ec, Hon, Hcl. cbn [andb orb]. apply andb_true_iff. split.
        * apply forallb_forall. intros p Hp. now apply Hps.
        * apply negb_true_iff, not_true_iff_false. intros H. apply existsb_exists in H as (p & Hp & H).
          destruct (Hps p Hp) as [_ H']. congruence.
      + replace (seen f (c, n :: ps)) with false; [reflexivity|]. symmetry. unfold seen. cbn [fst snd forallb].
        now rewrite Ec.
    - rewrite <- E2.
      assert (E : flat_map (fun c => if help_filter c then [HD (label c) (help_description c) (runtime_children_of label true c)] else []) cs
              = map (fun c => HD (label c) (help_description c) []) (filter switched_on cs)); [|now rewrite E].
      assert (Hrt : forall c, In c cs -> runtime_children_of label true c = []).
      { intros c Hc. pose proof (ok_group n tp c Hs Hd Hc) as Hl. pose proof (Hkids c Hc) as Hk.
        destruct c as [kc idc tyc polsc csc]. unfold is_leaf in Hl. cbn [n_kind n_children] in *. subst csc.
        destruct kc; try discriminate; reflexivity. }
      clear -Hrt. induction cs as [|c cs' IHc]; [easy|]. cbn [flat_map filter]. rewrite help_filter_on.
      rewrite IHc by (intros d Hd; apply Hrt; now right).
      destruct (switched_on c); [|easy]. cbn [app map]. now rewrite Hrt by now left. }
  assert (Hmode : is_mode n = true -> exists (D : list (node * list node * bytes)) (above' : option nat),
    with_lines (Some (List.length ps)) (flat_map (fun c => filter (seen f) (preorder c (n :: ps))) cs ++ l) = D ++ with_lines above' l
    /\ flat_map (visit (S (List.length ps))) (if is_anonymous n || f then flat_map (fun c => if help_filter c
         then [HD (label c) (help_description c) (runtime_children_of label true c)] else []) cs else []) = map entry_row D).
  { intros Hm. assert (Hd : is_dep n = false) by (unfold is_dep; unfold is_mode in Hm; now destruct (n_kind n)).
    destruct (is_anonymous n || f) eqn:Ef.
    - apply Hplain; auto; [| |apply incl_refl].
      + unfold closed. unfold is_anonymous in Ef. rewrite Hm. destruct f; [easy|]. rewrite orb_false_r in Ef.
        apply negb_true_iff in Ef. now rewrite Ef.
      + intros c Hc. destruct f; [easy|]. rewrite orb_false_r in Ef. symmetry. apply (runtime_same false c (n :: tp)).
        * now apply sub_core_child.
        * now apply (ok_anonymous n tp).
        * now apply (ok_child_root n tp).
    - exists [], (Some (List.length ps)). split; [|reflexivity]. cbn [app]. f_equal.
      assert (Hcl : closed f n = true).
      { unfold closed. rewrite Hm. apply orb_false_iff in Ef as [Ea ->]. unfold is_anonymous in Ea.
        apply negb_false_iff in Ea. now rewrite Ea. }
      clear -Hcl. clearbody n. induction cs as [|c cs' IHc]; [easy|]. cbn [flat_map].
      rewrite (seen_closed f c (n :: ps) n); [exact IHc|now left|exact Hcl]. }
  destruct k; cbn [runtime_children_of];
    first [ exact (Hleaf eq_refl) | exact (Hgroup eq_refl) | exact (Hmode eq_refl)
          | apply Hplain; auto using incl_refl ].
  unfold closed, is_mode. cbn. now rewrite andb_false_r.
Qed.

(** ** The column of the descriptions *)

Definition a_bar (x : bytes) : Prop := x = top \/ x = middle \/ x = bottom.

(** [l] takes the place of [l'] when bars change or go. *)
Definition narrower (l l' : bytes) : Prop :=
  l = l' \/ exists x y s, l = x ++ s /\ l' = y ++ s /\ (x = [] \/ a_bar x) /\ a_bar y.

Lemma bars_below_in (g : node -> help_data) L : forall h, In h (bars_below (map g L)) ->
  exists c x, In c L /\ a_bar x /\ h = with_bar x (g c).
Proof.
  induction L as [|c [|c' L] IH]; intros h H; [easy| |].
  - destruct H as [<-|[]]. exists c, bottom. split; [now left|]. split; [right; now right|reflexivity].
  - cbn [map bars_below] in H. destruct H as [<-|H].
    + exists c, middle. split; [now left|]. split; [right; now left|reflexivity].
    + destruct (IH h H) as (d & x & Hd & Hx & E). exists d, x. split; [now right|easy].
Qed.

Lemma with_bars_in (g : node -> help_data) L h : In h (with_bars (map g L)) ->
  exists c x, In c L /\ a_bar x /\ h = with_bar x (g c).
Proof.
  destruct L as [|c L]; [easy|]. intros [<-|H].
  - exists c, top. split; [now left|]. split; [now left|reflexivity].
  - destruct (bars_below_in g L h H) as (d & x & Hd & Hx & E). exists d, x. split; [now right|easy].
Qed.

Lemma bars_below_all (g : node -> help_data) L : forall c, In c L ->
  exists x, a_bar x /\ In (with_bar x (g c)) (bars_below (map g L)).
Proof.
  induction L as [|d [|d' L] IH]; intros c H; [easy| |].
  - destruct H as [<-|[]]. exists bottom. split; [right; now right|now left].
  - destruct H as [<-|H].
    + exists middle. split; [right; now left|now left].
    + destruct (IH c H) as (x & Hx & E). exists x. split; [easy|]. cbn [map bars_below]. right. exact E.
Qed.

Lemma with_bars_all (g : node -> help_data) L c : In c L ->
  exists x, a_bar x /\ In (with_bar x (g c)) (with_bars (map g L)).
Proof.
  destruct L as [|d L]; [easy|]. intros [<-|H].
  - exists top. split; [now left|now left].
  - destruct (bars_below_all g L c H) as (x & Hx & E). exists x. split; [easy|]. now right.
Qed.

Lemma static_covers f n : forall tp k d l x, sub_core n tp ->
  In (d, l, x) (visit k (HD (label n) (help_description n) (runtime_children_of label f n))) ->
  exists l' x', In (d, l', x') (visit k (static_data_of label f n)) /\ narrower l l'.
Proof.
  induction n as [kd id ty pols cs IH] using node_ind'. rewrite Forall_forall in IH.
  intros tp k d l x Hs H. set (n := Node kd id ty pols cs) in *.
  assert (Est : forall kids, static_data_of label f n = HD (label n) (help_description n) kids ->
            (In (d, l, x) (flat_map (visit (S k)) (runtime_children_of label f n)) ->
             exists l' x', In (d, l', x') (flat_map (visit (S k)) kids) /\ narrower l l') ->
            exists l' x', In (d, l', x') (visit k (static_data_of label f n)) /\ narrower l l').
  { intros kids -> Hk. cbn [visit] in H |- *. destruct H as [H|H].
    - injection H as <- <- <-. exists (label n), (help_description n). split; [now left|now left].
    - destruct (Hk H) as (l' & x' & Hin & Hn). exists l', x'. split; [now right|easy]. }
  assert (Hmap : forall fl, (forall c, In c cs -> runtime_children_of label fl c = runtime_children_of label f c) ->
            In (d, l, x) (flat_map (visit (S k)) (flat_map (fun c => if help_filter c
              then [HD (label c) (help_description c) (runtime_children_of label fl c)] else []) cs)) ->
            exists l' x', In (d, l', x') (flat_map (visit (S k)) (map (static_data_of label f) cs)) /\ narrower l l').
  { intros fl Hfl Hin. apply in_flat_map in Hin as (h & Hh & Hin). apply in_flat_map in Hh as (c & Hc & Hh).
    destruct (help_filter c); [|destruct Hh]. destruct Hh as [<-|[]]. rewrite Hfl in Hin by exact Hc.
    destruct (IH c Hc (n :: tp) (S k) d l x (sub_core_child _ _ _ Hs Hc) Hin) as (l' & x' & H1 & H2).
    exists l', x'. split; [|easy]. apply in_flat_map. exists (static_data_of label f c). split; [now apply in_map|easy]. }
  assert (Hleaf : is_leaf n = true -> In (d, l, x) (flat_map (visit (S k)) (flat_map (fun c => if help_filter c
              then [HD (label c) (help_description c) (runtime_children_of label f c)] else []) cs)) -> False).
  { intros Hl. apply (ok_leaf n tp Hs) in Hl. change (n_children n) with cs in Hl. rewrite Hl. easy. }
  assert (Hgroup : is_dep n = true -> In (d, l, x) (flat_map (visit (S k)) (let result := flat_map (fun c => if help_filter c
         then [HD (label c) (help_description c) (runtime_children_of label true c)] else []) cs in
         if Nat.leb (List.length result) 1 then result else with_bars result)) ->
       exists l' x', In (d, l', x') (flat_map (visit (S k)) (with_bars (map (fun c => HD (label c) (help_description c) []) cs)))
          /\ narrower l l').
  { intros Hd Hin. set (g := fun c => HD (label c) (help_description c) []) in *.
    assert (E : flat_map (fun c => if help_filter c then [HD (label c) (help_description c) (runtime_children_of label true c)] else []) cs
              = map g (filter switched_on cs)).
    { assert (Hrt : forall c, In c cs -> runtime_children_of label true c = []).
      { intros c Hc. pose proof (ok_group n tp c Hs Hd Hc) as Hl.
        pose proof (ok_leaf c (n :: tp) (sub_core_child _ _ _ Hs Hc) Hl) as Hk.
        destruct c as [kc idc tyc polsc csc]. unfold is_leaf in Hl. cbn [n_kind n_children] in *. subst csc.
        destruct kc; try discriminate; reflexivity. }
      clear -Hrt. induction cs as [|c cs' IHc]; [easy|]. cbn [flat_map filter]. rewrite help_filter_on.
      rewrite IHc by (intros d Hd; apply Hrt; now right).
      destruct (switched_on c); [|easy]. cbn [app map]. now rewrite Hrt by now left. }
    cbv zeta in Hin. rewrite E in Hin.
    assert (Hx : exists c bx, In c cs /\ (bx = [] \/ a_bar bx) /\ In (d, l, x) (visit (S k) (with_bar bx (g c)))).
    { destruct (Nat.leb _ _); apply in_flat_map in Hin as (h & Hh & Hin).
      - apply in_map_iff in Hh as (c & <- & Hc). apply filter_In in Hc as [Hc _]. exists c, []. auto.
      - apply with_bars_in in Hh as (c & bx & Hc & Hb & ->). apply filter_In in Hc as [Hc _]. exists c, bx. auto. }
    destruct Hx as (c & bx & Hc & Hb & Hv). destruct (with_bars_all g cs c Hc) as (y & Hy & Hi).
    cbn in Hv. destruct Hv as [Hv|[]]. injection Hv as <- <- <-.
    exists (y ++ label c), (help_description c). split.
    - apply in_flat_map. exists (with_bar y (g c)). split; [easy|now left].
    - right. exists bx, y, (label c). auto. }
  destruct kd.
  1,2,3,7: eapply Est; [reflexivity|]; intros Hin; exfalso; apply Hleaf; [reflexivity|exact Hin].
  1,2: eapply Est; [reflexivity|]; intros Hin; apply Hgroup; [reflexivity|exact Hin].
  - eapply Est; [reflexivity|]. change (runtime_children_of label f n) with
      (if is_anonymous n || f then flat_map (fun c => if help_filter c
         then [HD (label c) (help_description c) (runtime_children_of label true c)] else []) cs else []).
    fold n. destruct (is_anonymous n || f) eqn:Ef; [|easy]. intros Hin. apply Hmap with true; [|exact Hin].
    intros c Hc. destruct f; [easy|]. rewrite orb_false_r in Ef. symmetry. apply (runtime_same false c (n :: tp)).
    + now apply sub_core_child.
    + now apply (ok_anonymous n tp).
    + now apply (ok_child_root n tp).
  - eapply Est; [reflexivity|]. intros Hin. apply Hmap with f; [easy|exact Hin].
Qed.
End Page.

Lemma split_space s : cp_split (ascii_of_N 32 :: s) = option_map (cons [ascii_of_N 32]) (cp_split s).
Proof.
  rewrite cp_split_cons. replace (cp_size (ascii_of_N 32 :: s)) with 1 by reflexivity. reflexivity.
Qed.

Lemma split_bar x s : a_bar x ->
  exists c1, cp_split (x ++ s) = option_map (fun l => c1 :: [ascii_of_N 32] :: l) (cp_split s) /\ cp_width c1 = 1.
Proof.
  intros [->|[->| ->]].
  all: eexists; split; [|].
  all: try (unfold top, middle, bottom; cbn [map app]; rewrite cp_split_cons;
    match goal with |- context [cp_size ?y] => replace (cp_size y) with 3 by reflexivity end;
    cbn [List.length Nat.ltb Nat.leb firstn skipn]; rewrite split_space; destruct (cp_split s); reflexivity).
  all: vm_compute; reflexivity.
Qed.

Lemma narrower_width l l' w' : narrower l l' -> terminal_width l' = Some w' ->
  exists w, terminal_width l = Some w /\ w <= w'.
Proof.
  intros [->|(x & y & s & -> & -> & Hx & Hy)] H; [exists w'; auto|].
  destruct (split_bar y s Hy) as (cy & Ey & Wy). unfold terminal_width in *. rewrite Ey in H.
  destruct (cp_split s) as [ls|] eqn:Es; [|discriminate]. cbn [option_map] in H.
  assert (w' = cps_width (cy :: [ascii_of_N 32] :: ls)) as -> by congruence.
  destruct Hx as [->|Hx].
  - cbn [app]. rewrite Es. cbn [option_map]. eexists. split; [reflexivity|].
    change (cps_width (cy :: [ascii_of_N 32] :: ls)) with (cp_width cy + (cp_width [ascii_of_N 32] + cps_width ls)). lia.
  - destruct (split_bar x s Hx) as (cx & Ex & Wx). rewrite Ex, Es. cbn [option_map]. eexists. split; [reflexivity|].
    change (cps_width (cy :: [ascii_of_N 32] :: ls)) with (cp_width cy + (cp_width [ascii_of_N 32] + cps_width ls)).
    change (cps_width (cx :: [ascii_of_N 32] :: ls)) with (cp_width cx + (cp_width [ascii_of_N 32] + cps_width ls)). lia.
Qed.

Lemma max_start_bound rows : forall m col, max_start m rows = Ok col ->
  m <= col /\ forall d l x, In (d, l, x) rows -> exists w, terminal_width l = Some w /\ d * help_indent + w + help_indent <= col.
Proof.
  induction rows as [|[[d l] x] rows IH]; intros m col H; cbn [max_start] in H.
  - injection H as ->. split; [lia|easy].
  - destruct (terminal_width l) as [w|] eqn:Ew; [|discriminate]. destruct (IH _ _ H) as [H1 H2]. split; [lia|].
    intros d' l' x' [E|Hin]; [injection E as <- <- <-; exists w; split; [easy|lia]|eauto].
Qed.

(** ** A row *)

Lemma set_gap_spaces k : (N.of_nat k < 2 ^ 31)%N -> set_gap (N.of_nat k) = spaces k.
Proof.
  intros H. unfold set_gap, spaces, int_of_size. destruct (N.eqb_spec (N.of_nat k) 0) as [E|E].
  - replace k with 0 by lia. reflexivity.
  - rewrite Z.mod_small by lia. destruct (Z.ltb_spec (Z.of_N (N.of_nat k)) (2 ^ 31)); [|lia].
    f_equal. lia.
Qed.

Lemma split_nonempty d text : cp_split d = Some text -> d <> [] -> text <> [].
Proof.
  intros H Hd ->. apply cp_split_concat in H as [H _]. cbn in H. now subst.
Qed.

Lemma description_lines columns col d text : d <> [] -> cp_split d = Some text ->
  (columns < 2 ^ 64)%N -> (N.of_nat col < 2 ^ 31)%N -> (N.of_nat (List.length d) < 2 ^ 62)%N ->
  exists line more, lines_from (List.length text) (line_begin text (wrap_limit (usable_columns columns col) col text)) = Some (line :: more)
    /\ wrapped (line :: more) text
    /\ ((N.of_nat (col + 8) <= columns)%N ->
          Forall (fun l => (N.of_nat (col + list_sum (map cp_width l)) <= columns)%N) (line :: more))
    /\ ((columns < N.of_nat (col + 8))%N -> more = []).
Proof.
  intros Hd Hsp Hc Hcol Hlen. pose proof (split_nonempty d text Hsp Hd) as Hne.
  assert (Hl : List.length text <= List.length d).
  { apply cp_split_concat in Hsp as [<- Hall]. clear -Hall. induction Hall as [|c l [Hc _] _ IH]; [easy|].
    cbn [List.concat List.length]. rewrite app_length. destruct c; [easy|]. cbn [List.length]. lia. }
  set (L := wrap_limit (usable_columns columns col) col text).
  assert (H2 : 2 <= L).
  { unfold L, wrap_limit, usable_columns, desc_column_offset. destruct text as [|c text]; [easy|]. cbn [List.length].
    assert (Hz : size_mod = (2 ^ 64)%N) by reflexivity. assert (Hx : size_max = (2 ^ 64 - 1)%N) by reflexivity.
    destruct (N.leb_spec (N.of_nat (col + 8)) columns).
    - replace (columns + size_mod - N.of_nat col)%N with (columns - N.of_nat col + 1 * size_mod)%N by lia.
      rewrite N.mod_add, N.mod_small by lia. lia.
    - replace (size_max + size_mod - N.of_nat col)%N with (size_max - N.of_nat col + 1 * size_mod)%N by lia.
      rewrite N.mod_add, N.mod_small by lia. lia. }
  destruct (iterates_terminates_cases text L (or_introl H2)) as (lines & Hit).
  destruct (iterates_wrapped text L _ lines ltac:(lia) Hit) as [Hw Hf]. unfold iterates_to in Hit.
  destruct lines as [|line more]; [inversion Hw; congruence|]. exists line, more. split; [exact Hit|]. split; [exact Hw|]. split.
  - intros Hu. eapply Forall_impl; [|exact Hf]. cbn beta. intros l Hle. change (list_sum (map cp_width l)) with (cps_width l).
    unfold L, wrap_limit, usable_columns, desc_column_offset in Hle.
    assert (Hz : size_mod = (2 ^ 64)%N) by reflexivity.
    destruct (N.leb_spec (N.of_nat (col + 8)) columns); [|lia].
    replace (columns + size_mod - N.of_nat col)%N with (columns - N.of_nat col + 1 * size_mod)%N in Hle by lia.
    rewrite N.mod_add, N.mod_small in Hle by lia. lia.
  - intros Hu. assert (HL : L = 2 * List.length text + 1).
    { unfold L, wrap_limit, usable_columns, desc_column_offset.
      assert (Hz : size_mod = (2 ^ 64)%N) by reflexivity. assert (Hx : size_max = (2 ^ 64 - 1)%N) by reflexivity.
      destruct (N.leb_spec (N.of_nat (col + 8)) columns); [lia|].
      replace (size_max + size_mod - N.of_nat col)%N with (size_max - N.of_nat col + 1 * size_mod)%N by lia.
      rewrite N.mod_add, N.mod_small by lia. lia. }
    pose proof (cps_width_bound text) as Hb. destruct (List.length text) as [|k] eqn:El; [destruct text; easy|].
    rewrite (wide_limit text L k) in Hit by (auto; lia). congruence.
Qed.

Lemma format_row_spec columns col d l x w : l <> [] -> terminal_width l = Some w -> d * 4 + w + 4 <= col ->
  (columns < 2 ^ 64)%N -> (N.of_nat col < 2 ^ 31)%N -> (N.of_nat (List.length x) < 2 ^ 62)%N -> cp_split x <> None ->
  exists text, format_row (usable_columns columns col) col (d, l, x) = Ok text /\ row columns col (4 * d) l x text.
Proof.
  intros Hl Hw Hcol Hc Hlt Hlen Hx. unfold format_row. destruct l as [|l0 l]; [easy|].
  replace (d * help_indent) with (4 * d) by (unfold help_indent; lia).
  rewrite set_gap_spaces by lia.
  destruct x as [|x0 x1] eqn:Ex.
  - eexists. split; [reflexivity|]. apply row_plain with w; [easy|exact Hw|lia].
  - rewrite <- Ex in *. rewrite Hw.
    assert (Hg : ((N.of_nat col + 2 * size_mod - N.of_nat (4 * d) - N.of_nat w) mod size_mod = N.of_nat (col - 4 * d - w))%N).
    { assert (Hz : size_mod = (2 ^ 64)%N) by reflexivity.
      replace (N.of_nat col + 2 * size_mod - N.of_nat (4 * d) - N.of_nat w)%N
        with (N.of_nat (col - 4 * d - w) + 2 * size_mod)%N by lia.
      rewrite N.mod_add, N.mod_small by lia. reflexivity. }
    rewrite Hg. rewrite set_gap_spaces by lia.
    destruct (cp_split x) as [text|] eqn:Es; [|easy]. unfold description_text. rewrite Es.
    destruct (description_lines columns col x text) as (line & more & E & Hwr & Hfit & Hone); auto.
    { rewrite Ex. discriminate. }
    rewrite E. cbn [rbind]. eexists. split; [reflexivity|].
    replace (flat_map (fun l1 => newline ++ set_gap (N.of_nat col) ++ List.concat l1) more)
      with (List.concat (map (fun l1 => end_of_line ++ spaces col ++ List.concat l1) more)).
    2:{ rewrite flat_map_concat_map. f_equal. apply map_ext. intros l1. now rewrite set_gap_spaces. }
    rewrite <- !app_assoc. apply row_described with w text; auto; lia.
Qed.

(** ** The page *)

Lemma app_nonempty_r {A} (x y : list A) : y <> [] -> x ++ y <> [].
Proof. intros H E. now apply app_eq_nil in E. Qed.

Lemma generator_nonempty lim lp sp n tp : sub_core n tp -> has_lname n || has_sname n = true -> label_generator_with lim lp sp n <> [].
Proof.
  intros Hs. destruct (sub_core_self _ _ Hs) as (_ & _ & Hp). unfold has_lname, has_sname, label_generator_with.
  assert (Hl : forall s, long_name n = Some s -> s <> []).
  { intros s E ->. unfold long_name in E. apply first_some_in in E as (p & Hin & E).
    destruct p; try discriminate. injection E as ->. destruct (Hp _ Hin) as [H _]. discriminate. }
  assert (Hn : forall s, short_name n = Some s -> s <> []).
  { intros s E ->. unfold short_name in E. apply first_some_in in E as (p & Hin & E).
    destruct p; try discriminate. injection E as ->. destruct (Hp _ Hin) as [H _]. discriminate. }
  destruct (long_name n) as [l|]; [|destruct (short_name n) as [c|]; [|discriminate]]; intros _ E.
  - apply (Hl l eq_refl). destruct (short_name n); apply app_eq_nil in E as [_ E]; now apply app_eq_nil in E.
  - apply (Hn c eq_refl). apply app_eq_nil in E as [_ E]. now apply app_eq_nil in E.
Qed.

Lemma label_nonempty lim lp sp n tp : sub_core n tp -> is_root n = false -> has_label n = true -> help_label_with lim lp sp n <> [].
Proof.
  intros Hs Hr Hl. pose proof (generator_nonempty lim lp sp n tp Hs) as Hg. apply sub_core_self in Hs. destruct Hs as (Hst & _ & Hp).
  unfold node_static, arg_base_static in Hst. unfold has_label in Hl. unfold is_root in Hr. unfold help_label_with.
  assert (Hdn : forall d, display_name n = Some d -> d <> []).
  { intros d Hd ->. unfold display_name in Hd. apply first_some_in in Hd as (p & Hin & E).
    destruct p; try discriminate. injection E as ->. destruct (Hp _ Hin) as [H _]. discriminate. }
  destruct (n_kind n) as [|[]| | | | | |] eqn:Ek; try discriminate;
    repeat match goal with Hx : _ && _ = true |- _ => apply andb_true_iff in Hx as [? ?] end;
    repeat match goal with Hx : negb _ = true |- _ => apply negb_true_iff in Hx end.
  - now apply Hg.
  - apply Hg.
    match goal with Hx : _ || _ = true, H1 : has_nname n = false, H2 : has_dname n = false |- _ =>
      rewrite H1, H2, !orb_false_r in Hx; exact Hx end.
  - apply app_nonempty_r. discriminate.
  - apply app_nonempty_r. discriminate.
  - now apply Hg.
  - destruct (display_name n) as [d|]; [|discriminate]. intros E. apply app_eq_nil in E as [E _]. now apply (Hdn d).
  - destruct (display_name n) as [d|]; [|discriminate]. now apply Hdn.
  - destruct (is_anonymous n) eqn:Ea; [discriminate|]. unfold label_generator_with, has_lname, has_sname in *.
    destruct (long_name n); [discriminate|]. destruct (short_name n); [discriminate|].
    unfold is_anonymous in Ea. destruct (none_name n) as [m|] eqn:En; [|discriminate].
    intros E. apply app_eq_nil in E as [-> _]. unfold none_name in En. apply first_some_in in En as (p & Hin & E).
    destruct p; try discriminate. injection E as ->. destruct (Hp _ Hin) as [H' _]. discriminate.
  - now apply Hg.
Qed.

Lemma with_lines_in l : forall above e, In e (with_lines above l) -> In (fst e) l.
Proof.
  induction l as [|[n ps] l IH]; intros above e H; [easy|]. cbn [with_lines] in H. destruct H as [<-|H]; [now left|].
  right. now apply IH in H.
Qed.

Lemma with_lines_group l : forall above e, In e (with_lines above l) -> in_group (snd (fst e)) = false -> snd e = [].
Proof.
  induction l as [|[n ps] l IH]; intros above e H Hg; [easy|]. cbn [with_lines] in H. destruct H as [<-|H]; [|eauto].
  cbn [fst snd] in *. now rewrite Hg.
Qed.

Lemma below_not_root n : forall tp d, sub_core n tp -> tp <> [] -> In d (below n) -> is_root d = false.
Proof.
  intros tp d Hs Ht Hd. destruct (sub_core_below n tp d Hs Hd) as (tp' & Hin & Hsd).
  apply preorder_above in Hin as [Hi _]. cbn [snd] in Hi.
  apply sub_core_self in Hsd. destruct Hsd as (Hst & _ & _). unfold node_static in Hst. unfold is_root.
  destruct (n_kind d); auto. rewrite !andb_true_iff in Hst. destruct Hst as [_ Hst].
  destruct tp as [|p tp]; [easy|]. specialize (Hi p (or_introl eq_refl)). destruct tp'; [destruct Hi|discriminate].
Qed.

Lemma format_all columns col (D : list (node * list node * bytes)) label :
  (forall e, In e D -> exists text, format_row (usable_columns columns col) col (entry_row label e) = Ok text
     /\ (if is_root (fst (fst e)) then text = []
         else row columns col (4 * List.length (snd (fst e))) (snd e ++ label (fst (fst e))) (help_description (fst (fst e))) text)) ->
  exists texts, format_rows (usable_columns columns col) col (map (entry_row label) D) = Ok (List.concat texts)
    /\ Forall2 (fun e text => row columns col (4 * List.length (snd (fst e))) (snd e ++ label (fst (fst e)))
                                  (help_description (fst (fst e))) text)
               (filter (fun e => match n_kind (fst (fst e)) with KRoot => false | _ => true end) D) texts.
Proof.
  induction D as [|e D IH]; intros H.
  - exists []. split; [reflexivity|constructor].
  - destruct IH as (texts & E & HF); [intros e' He; apply H; now right|].
    destruct (H e (or_introl eq_refl)) as (text & Ef & Hr). cbn [map format_rows filter].
    rewrite Ef, E. cbn [rbind]. unfold is_root in Hr. destruct (n_kind (fst (fst e))) eqn:Ek.
    8:{ subst text. exists texts. split; [reflexivity|exact HF]. }
    all: exists (text :: texts); split; [reflexivity|constructor; [exact Hr|exact HF]].
Qed.

(** Labels: the root has none, all others have one. *)
Definition labelled (label : node -> bytes) : Prop :=
  (forall n, is_root n = true -> label n = [])
  /\ forall n tp, sub_core n tp -> is_root n = false -> has_label n = true -> label n <> [].

Lemma labelled_with lim lp sp : labelled (help_label_with lim lp sp).
Proof.
  split; [|intros n tp; apply label_nonempty].
  intros n Hr. unfold help_label_with. unfold is_root in Hr. now destruct (n_kind n).
Qed.

Lemma page_text_of label columns h f r t col : labelled label -> sub_core r [] -> In t (below r) -> switched_on t = true ->
  help_compiles_of label f t = true -> description_column_of label f t = Ok col -> (N.of_nat col < 2 ^ 31)%N ->
  (columns < 2 ^ 64)%N ->
  (forall n, In n (below t) -> cp_split (help_description n) <> None
                               /\ (N.of_nat (List.length (help_description n)) < 2 ^ 62)%N) ->
  exists texts, help_text_of label columns h t f = Ok (preamble h ++ List.concat texts ++ addendum h)
    /\ Forall2 (fun e text => row columns col (4 * List.length (snd (fst e))) (snd e ++ label (fst (fst e)))
                                  (help_description (fst (fst e))) text)
               (on_page f t) texts.
Proof.
  intros [Hlr Hls] Hs Ht Hon Hc Hcol Hlt Hcs Hd.
  destruct (sub_core_below r [] t Hs Ht) as (tp & _ & Hst).
  destruct (page_rows label f t tp [] None [] Hst eq_refl Hon) as (D & ab & E1 & E2); [intros p []|exact I|].
  cbn [with_lines] in E1. rewrite !app_nil_r in E1. cbn [List.length] in E2.
  unfold help_text_of. rewrite Hcol. cbn [rbind]. unfold runtime_data_of. rewrite E2.
  change (listed f t) with (filter (seen f) (preorder t [])) in *.
  unfold on_page. change (listed f t) with (filter (seen f) (preorder t [])). rewrite E1.
  destruct (format_all columns col D label) as (texts & E & HF).
  2:{ exists texts. rewrite E. split; [reflexivity|exact HF]. }
  intros e He. assert (Hin : In (fst e) (filter (seen f) (preorder t []))).
  { apply with_lines_in with (above := None). rewrite E1. exact He. }
  apply filter_In in Hin as [Hin _].
  assert (Hb : In (fst (fst e)) (below t)) by (apply in_map_iff; eauto).
  destruct (sub_core_below t tp _ Hst Hb) as (tp' & _ & Hse).
  destruct (Hd _ Hb) as [Hd1 Hd2].
  assert (Hrow : In (entry_row label e) (visit 0 (HD (label t) (help_description t) (runtime_children_of label f t)))).
  { rewrite E2. now apply in_map. }
  unfold entry_row in *.
  destruct (static_covers label f t tp 0 _ _ _ Hst Hrow) as (l' & x' & Hst' & Hn).
  destruct (max_start_bound _ _ _ Hcol) as [_ Hmb]. destruct (Hmb _ _ _ Hst') as (w' & Hw' & Hle).
  destruct (narrower_width _ _ _ Hn Hw') as (w & Hw & Hww). unfold help_indent in Hle.
  assert (Hlab : has_label (fst (fst e)) = true).
  { unfold help_compiles_of in Hc. repeat match goal with Hx : _ && _ = true |- _ => apply andb_true_iff in Hx as [? ?] end.
    match goal with Hx : forallb has_label _ = true |- _ => rewrite forallb_forall in Hx; apply Hx end. exact Hb. }
  destruct (is_root (fst (fst e))) eqn:Er.
  - exists []. split; [|reflexivity].
    (* the root has no label *)
    assert (Hl0 : snd e ++ label (fst (fst e)) = []).
    { assert (Hps : snd e = []).
      { (* only the first entry can be the root *)
        rewrite preorder_eq in Hin. destruct Hin as [Heq|Hin].
        - assert (He' : In e (with_lines None (filter (seen f) (preorder t [])))) by now rewrite E1.
          apply with_lines_group in He'; [exact He'|]. now rewrite <- Heq.
        - exfalso. apply in_flat_map in Hin as (c & Hcc & Hin).
          assert (Hbc : In (fst (fst e)) (below c)).
          { unfold below. rewrite (preorder_shift c [] [t]). apply in_map_iff. eauto. }
          rewrite (below_not_root c (t :: tp)) in Er; [discriminate| |discriminate|exact Hbc].
          now apply sub_core_child. }
      rewrite Hps. now rewrite Hlr. }
    unfold format_row. now rewrite Hl0.
  - apply format_row_spec with w; auto; [|lia]. apply app_nonempty_r. now apply (Hls _ tp').
Qed.

Lemma page_text lim columns h f r t col : accepted r = true -> In t (below r) -> switched_on t = true ->
  help_compiles lim f t = true -> description_column lim f t = Ok col -> (N.of_nat col < 2 ^ 31)%N ->
  (columns < 2 ^ 64)%N ->
  (forall n, In n (below t) -> cp_split (help_description n) <> None
                               /\ (N.of_nat (List.length (help_description n)) < 2 ^ 62)%N) ->
  exists texts, help_text lim columns h t f = Ok (preamble h ++ List.concat texts ++ addendum h)
    /\ Forall2 (fun e text => row columns col (4 * List.length (snd (fst e))) (snd e ++ help_label lim (fst (fst e)))
                                  (help_description (fst (fst e))) text)
               (on_page f t) texts.
Proof. intros Ha. apply accepted_core in Ha as [_ Hs]. exact (page_text_of _ columns h f r t col (labelled_with _ _ _) Hs). Qed.

(** ** Whole runs *)

Lemma ok_one_name n tp : sub_core n tp -> one_kind_of_name n.
Proof.
  intros Hs H. apply sub_core_self in Hs. destruct Hs as (_ & _ & Hp).
  destruct (none_name n) as [m|] eqn:En; [|easy]. unfold none_name in En.
  apply first_some_in in En as (p & Hin & E). destruct p; try discriminate. destruct (Hp _ Hin) as [_ Hru].
  unfold policy_rules in Hru.
  repeat match goal with Hx : _ && _ = true |- _ => apply andb_true_iff in Hx as [? ?] end.
  match goal with Hx : must_not_have _ n = true |- _ => unfold must_not_have in Hx; cbn [forallb] in Hx end.
  repeat match goal with Hx : _ && _ = true |- _ => apply andb_true_iff in Hx as [? ?] end.
  repeat match goal with Hx : negb _ = true |- _ => apply negb_true_iff in Hx end.
  unfold long_name, short_name. split; apply first_some_none; intros q Hq; destruct q; try reflexivity; exfalso.
  - eapply (tag_absent tag_long n); [eassumption| |exact Hq]. reflexivity.
  - eapply (tag_absent tag_short n); [eassumption| |exact Hq]. reflexivity.
Qed.

Lemma accepted_nameable r : accepted r = true -> (forall n, In n (below r) -> plain_short n) -> nameable r.
Proof.
  intros Ha Hp c Hc. split; [|now apply Hp]. apply accepted_core in Ha as [_ Hs].
  destruct (sub_core_below r [] c Hs Hc) as (tp & _ & Hsc). now apply (ok_one_name c tp).
Qed.

Lemma path_below n names t : path n names t -> In t (below n) /\ enabled t.
Proof.
  induction 1 as [n He|n bf c af s names t He Hc Hs Hb Hp IH]; [split; [apply below_self|easy]|].
  destruct IH as [H1 H2]. split; [|easy]. apply (below_child c); [|easy]. rewrite Hc. apply in_or_app. right. now left.
Qed.

Lemma enabled_on n : enabled n -> switched_on n = true.
Proof. unfold enabled, switched_on. destruct (runtime_enabled n) as [[]|]; congruence. Qed.

Lemma flattened_is h t f : flattened h t f -> f = has_flatten_help h || negb (is_root t).
Proof.
  unfold flattened. intros H.
  assert (E : has_flatten_help h || negb (is_root t) = true <-> In PFlattenHelp (n_pols h) \/ n_kind t <> KRoot).
  { rewrite orb_true_iff, negb_true_iff. unfold has_flatten_help, is_root. rewrite existsb_exists. split.
    - intros [(p & Hp & E)|E]; [left; destruct p; try discriminate; exact Hp|right; destruct (n_kind t); congruence].
    - intros [Hp|E]; [left; now exists PFlattenHelp|right; destruct (n_kind t); congruence]. }
  destruct f, (has_flatten_help h || negb (is_root t)); intuition congruence.
Qed.

Section Run.
Variables (r : node) (mem : memory) (h : node) (argv names : list bytes).
Hypothesis Hw : well_formed r.
Hypothesis Hun : unset r mem.
Hypothesis Hf : fits (to_tokens argv).
Hypothesis Hask : asks r h argv names.
Hypothesis Hmk : token_end_marker h = None.
Hypothesis Hps : forall n, In n (below r) -> plain_short n.

Lemma run_target : root_parse_strings r mem argv = help_outcome r h mem (find_help_target (map (Tok PNone) names) r).
Proof.
  apply help_run; auto. apply Hps. destruct Hask as (bf & af & s & Hc & _).
  apply (below_child h); [|apply below_self]. rewrite Hc. apply in_or_app. right. now left.
Qed.

Lemma run_nameable : nameable r.
Proof. apply accepted_nameable; [apply Hw|exact Hps]. Qed.

Lemma run_found t : path r names t ->
  root_parse_strings r mem argv
  = Out mem [EvHelp h t (has_flatten_help h || negb (is_root t))] (if has_router h then Ok tt else Exited).
Proof. intros Hp. rewrite run_target. apply (target_found r names t run_nameable) in Hp. now rewrite Hp. Qed.

Lemma run_lost s : lost r names s ->
  root_parse_strings r mem argv = Out mem [] (Throw (EML unknown_argument [Tok PNone s])).
Proof. intros Hp. rewrite run_target. now rewrite (target_lost r names s run_nameable Hp). Qed.

Lemma run_off s more : reaches_off r names (s :: more) ->
  root_parse_strings r mem argv = Out mem [] (Throw (EML unknown_argument [Tok PNone s])).
Proof. intros Hp. rewrite run_target. now rewrite (target_off r names s more run_nameable Hp). Qed.

Lemma run_off_ub : reaches_off r names [] -> root_parse_strings r mem argv = Out mem [] UB.
Proof. intros Hp. rewrite run_target. now rewrite (target_off_ub r names run_nameable Hp). Qed.

(** The names always lead somewhere. *)
Lemma run_cases : (exists t, path r names t) \/ (exists s, lost r names s) \/ (exists rest, reaches_off r names rest).
Proof.
  pose proof (target_outcome (map (Tok PNone) names) r run_nameable) as H.
  inversion H as [t Hp|u Hu Hl|u us Hr|Hr]; rewrite ?map_tok_names in *; eauto 6.
Qed.

Lemma run_page lim columns t col : path r names t ->
  let f := has_flatten_help h || negb (is_root t) in
  help_compiles lim f t = true -> description_column lim f t = Ok col -> (N.of_nat col < 2 ^ 31)%N ->
  (columns < 2 ^ 64)%N ->
  (forall n, In n (below t) -> cp_split (help_description n) <> None
                               /\ (N.of_nat (List.length (help_description n)) < 2 ^ 62)%N) ->
  exists texts, help_written lim columns (root_parse_strings r mem argv)
                = [Ok (preamble h ++ List.concat texts ++ addendum h)]
    /\ Forall2 (fun e text => row columns col (4 * List.length (snd (fst e))) (snd e ++ help_label lim (fst (fst e)))
                                  (help_description (fst (fst e))) text)
               (on_page f t) texts.
Proof.
  intros Hp f Hc Hcol Hlt Hcs Hd. destruct (path_below _ _ _ Hp) as [Hb He].
  destruct (page_text lim columns h f r t col) as (texts & E & HF); auto; [apply Hw|now apply enabled_on|].
  exists texts. split; [|exact HF]. rewrite (run_found t Hp). unfold help_written_of. cbn [o_events flat_map app]. fold f.
  now rewrite E.
Qed.
End Run.

(** ** Widths of the lines *)

Lemma spaces_width k : terminal_width (spaces k) = Some k.
Proof.
  induction k as [|k IH]; [reflexivity|]. change (spaces (S k)) with (ascii_of_N 32 :: spaces k).
  unfold terminal_width in *. rewrite split_space. destruct (cp_split (spaces k)) as [l|]; [|discriminate].
  cbn [option_map] in *. assert (cps_width l = k) as Hl by congruence. f_equal.
  change (cps_width ([ascii_of_N 32] :: l)) with (cp_width [ascii_of_N 32] + cps_width l).
  replace (cp_width [ascii_of_N 32]) with 1 by (vm_compute; reflexivity). lia.
Qed.

Lemma wrapped_cps ls cps : wrapped ls cps -> Forall is_cp cps -> Forall (Forall is_cp) ls.
Proof.
  induction 1 as [|line gap rest lines _ _ _ IH]; intros H; [constructor|].
  apply Forall_app in H as [H1 H2]. apply Forall_app in H2 as [_ H2]. constructor; auto.
Qed.

Lemma cps_text_width l : Forall is_cp l -> terminal_width (List.concat l) = Some (list_sum (map cp_width l)).
Proof. intros H. unfold terminal_width. now rewrite cp_split_concat_cps. Qed.

Lemma row_lines columns col indent label desc text : row columns col indent label desc text ->
  (N.of_nat (col + 8) <= columns)%N ->
  exists lines, text = List.concat (map (fun l => l ++ end_of_line) lines)
    /\ Forall (fun l => exists w, terminal_width l = Some w /\ (N.of_nat w <= columns)%N) lines.
Proof.
  intros [w Hd Hw Hle|w gap cps line more Hw Hg Hge Hs Hwr Hfit _] Hc.
  - exists [spaces indent ++ label]. cbn [map List.concat]. rewrite app_nil_r, <- app_assoc. split; [reflexivity|].
    constructor; [|constructor]. eexists. split; [apply terminal_width_app; [apply spaces_width|exact Hw]|]. lia.
  - specialize (Hfit Hc). apply cp_split_concat in Hs as [_ Hcp].
    pose proof (wrapped_cps _ _ Hwr Hcp) as Hcs. inversion Hcs as [|? ? Hl Hm]; subst.
    inversion Hfit as [|? ? Hfl Hfm]; subst.
    exists ((spaces indent ++ label ++ spaces gap ++ List.concat line)
            :: map (fun l => spaces (indent + w + gap) ++ List.concat l) more). split.
    + cbn [map List.concat]. rewrite <- !app_assoc. do 4 f_equal. rewrite map_map. clear.
      generalize (indent + w + gap). intros col. induction more as [|m more IH]; [now rewrite app_nil_r|].
      cbn [map List.concat]. rewrite <- !app_assoc. do 3 f_equal. rewrite <- IH. reflexivity.
    + constructor.
      * eexists. split; [|apply Hfl]. rewrite <- !Nat.add_assoc.
        apply terminal_width_app; [apply spaces_width|]. apply terminal_width_app; [exact Hw|].
        apply terminal_width_app; [apply spaces_width|now apply cps_text_width].
      * apply Forall_map. rewrite Forall_forall in *. intros l Hi. eexists. split; [|now apply (Hfm l)].
        apply terminal_width_app; [apply spaces_width|]. apply cps_text_width. now apply Hm.
Qed.

Lemma rows_lines label columns col (D : list (node * list node * bytes)) texts :
  (N.of_nat (col + 8) <= columns)%N ->
  Forall2 (fun e text => row columns col (4 * List.length (snd (fst e))) (snd e ++ label (fst (fst e)))
                             (help_description (fst (fst e))) text) D texts ->
  exists lines, List.concat texts = List.concat (map (fun l => l ++ end_of_line) lines)
    /\ Forall (fun l => exists w, terminal_width l = Some w /\ (N.of_nat w <= columns)%N) lines.
Proof.
  intros Hc. induction 1 as [|e text D texts Hr _ IH]; [exists []; easy|].
  destruct (row_lines _ _ _ _ _ _ Hr Hc) as (l1 & E1 & F1). destruct IH as (l2 & E2 & F2).
  exists (l1 ++ l2). split; [|now apply Forall_app]. cbn [List.concat]. rewrite E1, E2, map_app. now rewrite concat_app.
Qed.

Lemma page_fits_of label columns h f r t col : labelled label -> sub_core r [] -> In t (below r) -> switched_on t = true ->
  help_compiles_of label f t = true -> description_column_of label f t = Ok col -> (N.of_nat col < 2 ^ 31)%N ->
  (columns < 2 ^ 64)%N ->
  (forall n, In n (below t) -> cp_split (help_description n) <> None
                               /\ (N.of_nat (List.length (help_description n)) < 2 ^ 62)%N) ->
  (N.of_nat (col + 8) <= columns)%N ->
  exists ls, help_text_of label columns h t f
             = Ok (preamble h ++ List.concat (map (fun l => l ++ end_of_line) ls) ++ addendum h)
    /\ Forall (fun l => exists w, terminal_width l = Some w /\ (N.of_nat w <= columns)%N) ls.
Proof.
  intros H0 H1 H2 H3 H4 H5 H6 H7 H8 H9. destruct (page_text_of label columns h f r t col H0 H1 H2 H3 H4 H5 H6 H7 H8) as (texts & E & HF).
  destruct (rows_lines label columns col _ _ H9 HF) as (ls & El & Fl). exists ls. rewrite E, El. auto.
Qed.

Lemma page_fits lim columns h f r t col : accepted r = true -> In t (below r) -> switched_on t = true ->
  help_compiles lim f t = true -> description_column lim f t = Ok col -> (N.of_nat col < 2 ^ 31)%N ->
  (columns < 2 ^ 64)%N ->
  (forall n, In n (below t) -> cp_split (help_description n) <> None
                               /\ (N.of_nat (List.length (help_description n)) < 2 ^ 62)%N) ->
  (N.of_nat (col + 8) <= columns)%N ->
  exists ls, help_text lim columns h t f
             = Ok (preamble h ++ List.concat (map (fun l => l ++ end_of_line) ls) ++ addendum h)
    /\ Forall (fun l => exists w, terminal_width l = Some w /\ (N.of_nat w <= columns)%N) ls.
Proof. intros Ha. apply accepted_core in Ha as [_ Hs]. exact (page_fits_of _ columns h f r t col (labelled_with _ _ _) Hs). Qed.

Lemma has_tab_iff s : has_tab s = true <-> In (ascii_of_N 9) s.
Proof.
  unfold has_tab. rewrite existsb_exists. split.
  - intros (c & Hc & E). apply N.eqb_eq in E. rewrite <- E, ascii_N_embedding. exact Hc.
  - intros H. exists (ascii_of_N 9). split; [exact H|reflexivity].
Qed.

Lemma help_compiles_iff lim f t :
  help_compiles lim f t = true <->
  (exists col, description_column lim f t = Ok col) /\
  (forall n, In n (below t) -> ((exists inst, n_kind n = KOneOf inst) \/ n_kind n = KAliasGroup) ->
     exists s, In (PDisplayName s) (n_pols n)) /\
  (forall c n, In c (n_children t) -> In n (below c) -> ~ In (ascii_of_N 9) (help_description n)).
Proof.
  unfold help_compiles_of. rewrite !andb_true_iff, and_assoc.
  assert (E1 : match description_column lim f t with Ok _ => true | _ => false end = true
               <-> exists col, description_column lim f t = Ok col).
  { destruct (description_column lim f t); split; try discriminate; try (intros [x H]; discriminate); eauto. }
  assert (E2 : forallb has_label (map fst (preorder t [])) = true <->
    (forall n, In n (below t) -> ((exists inst, n_kind n = KOneOf inst) \/ n_kind n = KAliasGroup) ->
     exists s, In (PDisplayName s) (n_pols n))).
  { rewrite forallb_forall.
    assert (D : forall n, is_some (display_name n) = true <-> exists s, In (PDisplayName s) (n_pols n)).
    { intros n. unfold display_name. induction (n_pols n) as [|p l IH]; [split; [discriminate|intros [s []]]|]. cbn [first_some].
      destruct p; try (rewrite IH; split; intros [x Hx]; exists x; [now right|destruct Hx as [Hx|Hx]; [discriminate|exact Hx]]).
      split; [intros _; exists s; now left|reflexivity]. }
    split.
    - intros H n Hn Hk. apply D. specialize (H n Hn). unfold has_label in H.
      destruct Hk as [[inst Hk]|Hk]; rewrite Hk in H; exact H.
    - intros H n Hn. specialize (H n Hn). unfold has_label. destruct (n_kind n); try reflexivity; apply D, H; eauto. }
  assert (E3 : forallb (fun c => negb (has_tab (help_description c))) (map fst (flat_map (fun c => preorder c []) (n_children t))) = true
    <-> (forall c n, In c (n_children t) -> In n (below c) -> ~ In (ascii_of_N 9) (help_description n))).
  { rewrite forallb_forall. split.
    - intros H c n Hc Hn Ht. apply has_tab_iff in Ht. apply in_map_iff in Hn as (x & Ex & Hx).
      assert (negb (has_tab (help_description n)) = true); [|rewrite Ht in *; discriminate].
      apply H, in_map_iff. exists x. split; [exact Ex|]. apply in_flat_map. now exists c.
    - intros H n Hn. apply in_map_iff in Hn as (x & Ex & Hx). apply in_flat_map in Hx as (c & Hc & Hx).
      apply negb_true_iff. destruct (has_tab (help_description n)) eqn:Et; [|reflexivity]. apply has_tab_iff in Et.
      elim (H c n Hc); [|exact Et]. apply in_map_iff. now exists x. }
  now rewrite E1, E2, E3.
Qed.

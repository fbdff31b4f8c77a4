(** Proofs for C85: programs with several modes, and which trees compile. *)
From Coq Require Import Lia.
From Verif Require Import Bytes Token Adapter Result CodePoint Utf8 Tree PreParse Parse Root Validator Prefixes.
From Verif Require Import SpecPolicy SpecTokens SpecTake SpecAdapter SpecUtf8 SpecRules SpecMode SpecPrefix.
From Verif Require Import AdapterProofs TokenProofs OrderProofs PermProofs NodeProofs TakeProofs ModeProofs PrefixProofs PrefixRunProofs.
Local Open Scope list_scope.

Section Modes.
Variables lp sp : bytes.

Lemma plain_phases m : plain_mode m -> filter phased (priority_order (n_pols m)) = [].
Proof.
  intros (_ & Hp & _). assert (H : forall p, In p (priority_order (n_pols m)) -> phased p = false).
  { intros p Hin. apply (proj1 (priority_in p (n_pols m))) in Hin. specialize (Hp p Hin). destruct p; try contradiction; reflexivity. }
  induction (priority_order (n_pols m)) as [|p l IH]; [reflexivity|]. cbn [filter]. rewrite (H p (or_introl eq_refl)).
  apply IH. intros q Hq. apply H. now right.
Qed.

Lemma plain_anonymous m : none_name m <> None -> is_anonymous m = false /\ is_named m = true.
Proof. unfold is_anonymous, is_named. destruct (none_name m); [|congruence]. intros _. cbn [is_some negb]. now rewrite orb_true_r. Qed.

(** The label of a named mode. *)
Lemma mode_label m parents pt mem w us : plain_mode m -> none_name m <> None ->
  (heads lp sp m (Tok PNone w) [] ->
     node_pre_parse_with lp sp m parents pt always_true (PS (Tok PNone w :: us) mem) = (PS us mem, Ok (Some (Target m parents [] []))))
  /\ ((forall letters, ~ heads lp sp m (Tok PNone w) letters) ->
     node_pre_parse_with lp sp m parents pt always_true (PS (Tok PNone w :: us) mem) = (PS (Tok PNone w :: us) mem, Ok None)).
Proof.
  intros Hm Hn. destruct (plain_anonymous m Hn) as [_ Hnm]. rewrite settles. cbn [p_args].
  rewrite run_with_filter, (plain_phases m Hm). cbn [run_policies_with]. unfold settle, mbind, mlift.
  rewrite (check_named lp sp m (Act Valid) (Adp [] (Tok PNone w :: us)) (Tok PNone w) us Hnm eq_refl) by discriminate.
  split; intros H.
  - apply heads_plain in H; [|discriminate]. rewrite H. cbn. now rewrite Hnm.
  - destruct (match_node m (norm_token_with lp sp m (Tok PNone w))) eqn:E; [|reflexivity].
    exfalso. apply (H []). apply heads_plain; [discriminate|exact E].
Qed.

Lemma mode_method m fuel parents : n_kind m = KMode ->
  pre_parse_with lp sp fuel m parents = mode_pre_parse_with lp sp fuel m parents (kids lp sp fuel m parents (n_children m)).
Proof. intros H. destruct m as [k i ty ps cs]. cbn [n_kind] in H. subst k. reflexivity. Qed.

(** A node that the word does not select is passed over. *)
Lemma passes fuel d parents pt mem w us : leaf_ok d -> (nlen w + nlen us <= vec_max_size)%N -> passed lp sp w d ->
  pre_parse_with lp sp fuel d parents pt always_true (PS (Tok PNone w :: us) mem) = (PS (Tok PNone w :: us) mem, Ok None).
Proof.
  intros L Hroom [Hno [[Hm Hn]|(Hs & Hc & Hk & Hd)]].
  - rewrite (mode_method d fuel parents (proj1 Hm)). unfold mode_pre_parse_with. destruct (plain_anonymous d Hn) as [-> _].
    unfold mbind. rewrite (proj2 (mode_label d parents pt mem w us Hm Hn) Hno). reflexivity.
  - assert (E : pre_parse_with lp sp fuel d parents = node_pre_parse_with lp sp d parents).
    { destruct d as [k i ty ps cs]. cbn [n_kind] in Hk. destruct k; try contradiction; reflexivity. }
    rewrite E. destruct (count_bounds d) as [[mn mx]|] eqn:Eb; [|now contradiction Hc].
    exact (unselected lp sp d parents pt always_true mem w us mn mx L Hs Eb Hno Hd Hroom).
Qed.

Lemma pass_over fuel parents pt mem w us after : (nlen w + nlen us <= vec_max_size)%N -> forall before,
  (forall d, In d before -> leaf_ok d /\ passed lp sp w d) ->
  first_match (map (fun d => pre_parse_with lp sp fuel d parents) (before ++ after)) pt always_true (PS (Tok PNone w :: us) mem)
  = first_match (map (fun d => pre_parse_with lp sp fuel d parents) after) pt always_true (PS (Tok PNone w :: us) mem).
Proof.
  intros Hroom. induction before as [|d before IH]; intros H; [reflexivity|]. cbn [app map first_match]. unfold mbind.
  destruct (H d (or_introl eq_refl)) as [L Hp]. rewrite (passes fuel d parents pt mem w us L Hroom Hp). apply IH. intros e He. apply H. now right.
Qed.

(** The loop of a mode that was chosen. *)
Lemma mode_body fuel0 fuel m parents mem ps ws : plain_mode m -> (forall d, In d (below m) -> leaf_ok d) ->
  line lp sp (n_children m) [] ps ws -> List.length ps <= fuel -> (weight ws <= vec_max_size)%N ->
  mode_loop_with lp sp fuel m (kids lp sp fuel0 m parents (n_children m)) (Target m parents [] [])
     (map (fun _ => false) (kids lp sp fuel0 m parents (n_children m))) (PS (toks_of ws) mem)
  = (PS [] mem, Ok (Some (Target m parents [] (targets_of m parents ps)))).
Proof.
  intros Hm HL Hl Hf Hw. rewrite (loop_line lp sp fuel0 m parents mem (n_children m)) with (used := []) (ps := ps); auto.
  - intros d Hd. destruct Hm as (_ & _ & Hk). destruct (Hk d Hd) as [H|H]; [left|right; exact H]. split; [|exact H].
    apply HL, (below_child d); [exact Hd|apply below_self].
  - intros i c _ Hn. exfalso. revert Hn. clear. revert i. induction (kids _ _ _ m parents (n_children m)) as [|x l IH]; intros i; destruct i; cbn; try discriminate. apply IH.
Qed.

Lemma kid_modes fuel m parents cs :
  map snd (filter (fun nc => is_mode (fst nc)) (kids lp sp fuel m parents cs)) = map (fun d => pre_parse_with lp sp fuel d (m :: parents)) (filter is_mode cs).
Proof.
  induction cs as [|c cs IH]; [reflexivity|]. cbn [kids map filter fst]. destruct (is_mode c); cbn [map snd]; [f_equal|]; exact IH.
Qed.

Lemma toks_room w ws : (weight (w :: ws) <= vec_max_size)%N -> (nlen w + nlen (toks_of ws) <= vec_max_size)%N /\ (weight ws <= vec_max_size)%N.
Proof.
  unfold weight. cbn [List.concat]. rewrite nlen_app, nlen_cons. unfold toks_of, nlen. rewrite map_length. lia.
Qed.

Lemma choice parents ds ws m parents' rest : chosen lp sp parents ds ws m parents' rest ->
  forall fuel pt mem ps, (forall d x, In d ds -> In x (below d) -> leaf_ok x) ->
  line lp sp (n_children m) [] ps rest -> List.length ps <= fuel -> (weight ws <= vec_max_size)%N ->
  first_match (map (fun d => pre_parse_with lp sp fuel d parents) ds) pt always_true (PS (toks_of ws) mem)
  = (PS [] mem, Ok (Some (Target m parents' [] (targets_of m parents' ps)))).
Proof.
  induction 1 as [parents before m after ws Hm Hn Hb|parents before m after w rest Hm Hn Hh Hb Hsub|parents before m after w ws m' parents' rest Hm Hn Hh Hb Hne Hc IH];
    intros fuel pt mem ps HL Hl Hf Hw.
  - assert (E : first_match (map (fun d => pre_parse_with lp sp fuel d parents) (before ++ m :: after)) pt always_true (PS (toks_of ws) mem)
      = first_match (map (fun d => pre_parse_with lp sp fuel d parents) (m :: after)) pt always_true (PS (toks_of ws) mem)).
    { destruct before as [|d0 before]; [reflexivity|]. destruct (Hb d0 (or_introl eq_refl)) as (w & us & -> & _).
      apply toks_room in Hw as [Hw _]. apply pass_over; [exact Hw|]. intros d Hd. split.
      - apply (HL d); [apply in_or_app; now left|apply below_self].
      - destruct (Hb d Hd) as (w' & us' & Ew & Hp). injection Ew as -> _. exact Hp. }
    rewrite E. cbn [map first_match]. unfold mbind. rewrite (mode_method m fuel parents (proj1 Hm)). unfold mode_pre_parse_with.
    assert (Han : is_anonymous m = true) by (unfold is_anonymous; now rewrite Hn). rewrite Han. unfold mbind.
    cbn [run_validator always_true p_mem p_args negb]. rewrite (mode_body fuel fuel m parents mem ps ws Hm); auto.
    intros d Hd. apply (HL m); [apply in_elt|exact Hd].
  - destruct (toks_room w rest Hw) as [Hw1 Hw2]. change (toks_of (w :: rest)) with (Tok PNone w :: toks_of rest).
    rewrite pass_over; [|exact Hw1|].
    2:{ intros d Hd. split; [apply (HL d); [apply in_or_app; now left|apply below_self]|exact (Hb d Hd)]. }
    cbn [map first_match]. unfold mbind at 1. rewrite (mode_method m fuel parents (proj1 Hm)). unfold mode_pre_parse_with.
    destruct (plain_anonymous m Hn) as [-> _]. unfold mbind at 1 2. rewrite (proj1 (mode_label m parents pt mem w (toks_of rest) Hm Hn) Hh).
    assert (HLm : forall d, In d (below m) -> leaf_ok d) by (intros d Hd; apply (HL m); [apply in_elt|exact Hd]).
    pose proof (mode_body fuel fuel m parents mem ps rest Hm HLm Hl Hf Hw2) as Hbody.
    destruct rest as [|w' us].
    + cbn [toks_of map p_args]. unfold mbind. cbn [run_validator always_true p_mem p_args negb].
      change (PS [] mem) with (PS (toks_of []) mem). now rewrite Hbody.
    + cbn [toks_of map p_args]. rewrite kid_modes.
      pose proof (pass_over fuel (m :: parents) pt mem w' (toks_of us) [] (proj1 (toks_room w' us Hw2)) (filter is_mode (n_children m))) as Hp.
      rewrite app_nil_r in Hp. change (map (Tok PNone) us) with (toks_of us). unfold mbind at 1. rewrite Hp; clear Hp.
      * cbn [map first_match]. unfold mret, mbind. cbn [run_validator always_true p_mem p_args negb].
        change (Tok PNone w' :: toks_of us) with (toks_of (w' :: us)). now rewrite Hbody.
      * intros d Hd. apply filter_In in Hd as [Hd Hk]. split; [apply HLm, (below_child d); [exact Hd|apply below_self]|].
        apply (Hsub w' us d eq_refl Hd). unfold is_mode in Hk. destruct (n_kind d); try discriminate. reflexivity.
  - destruct (toks_room w ws Hw) as [Hw1 Hw2]. change (toks_of (w :: ws)) with (Tok PNone w :: toks_of ws).
    rewrite pass_over; [|exact Hw1|].
    2:{ intros d Hd. split; [apply (HL d); [apply in_or_app; now left|apply below_self]|exact (Hb d Hd)]. }
    cbn [map first_match]. unfold mbind at 1. rewrite (mode_method m fuel parents (proj1 Hm)). unfold mode_pre_parse_with.
    destruct (plain_anonymous m Hn) as [-> _]. unfold mbind at 1 2. rewrite (proj1 (mode_label m parents pt mem w (toks_of ws) Hm Hn) Hh).
    destruct ws as [|w' us]; [now contradiction Hne|].
    cbn [toks_of map p_args]. rewrite kid_modes. unfold mbind. change (Tok PNone w' :: map (Tok PNone) us) with (toks_of (w' :: us)).
    rewrite (IH fuel pt mem ps); auto. intros d x Hd Hx. apply filter_In in Hd as [Hd _]. apply (HL m); [apply in_elt|].
    exact (below_child d x m Hd Hx).
Qed.

Lemma chosen_rest parents ds ws m parents' rest : chosen lp sp parents ds ws m parents' rest ->
  plain_mode m /\ List.length rest <= List.length ws.
Proof. induction 1 as [| |? ? ? ? ? ? ? ? ? ? ? ? ? ? ? [IH1 IH2]]; cbn [List.length]; split; auto; lia. Qed.

Lemma root_first fuel r mem t : forall cs s,
  first_match (map (fun d => pre_parse_with lp sp fuel d [r]) cs) None always_true s = (PS [] mem, Ok (Some t)) ->
  root_try_with lp sp fuel r cs s = (let '(tr, x) := exec_with lp sp t [] in (PS [] mem, tr, (_ <- x ;; Ok true)%res)).
Proof.
  induction cs as [|c cs IH]; intros s H; cbn [map first_match] in H; [discriminate|]. cbn [root_try_with]. unfold mbind in H.
  destruct (pre_parse_with lp sp fuel c [r] None always_true s) as [s' [[t'|]|e| | |]]; try discriminate.
  - injection H as -> ->. cbn [p_args]. now destruct (exec_with lp sp t []).
  - exact (IH s' H).
Qed.

(** The whole run: the same whatever the prefixes. *)
Lemma root_choice r m parents mem ps ws rest : accepted_with lp sp r = true -> chosen lp sp [r] (n_children r) ws m parents rest ->
  line lp sp (n_children m) [] ps rest -> (forall p, In p ps -> plain_child (fst p)) -> (weight ws <= vec_max_size)%N ->
  root_parse_with lp sp r mem (toks_of ws)
  = let '(tr, x) := exec (Target m parents [] (targets_of m parents ps)) [] in Out mem tr (_ <- x ;; Ok tt)%res.
Proof.
  intros Ha Hc Hl Hk Hw. destruct (chosen_rest _ _ _ _ _ _ Hc) as [Hm Hlen].
  unfold root_parse_with. rewrite (root_first _ r mem (Target m parents [] (targets_of m parents ps))).
  - assert (Hex : exec_with lp sp (Target m parents [] (targets_of m parents ps)) = exec (Target m parents [] (targets_of m parents ps))).
    { cbn [exec_with exec]. destruct Hm as [-> _]. f_equal. apply map_ext_in. intros t Ht. f_equal.
      unfold targets_of in Ht. apply in_map_iff in Ht as ([c vs] & <- & Hin). cbn [fst snd]. apply exec_leaf. exact (Hk _ Hin). }
    rewrite Hex. destruct (exec (Target m parents [] (targets_of m parents ps)) []) as [tr x]. cbn [p_mem]. f_equal. destruct x; reflexivity.
  - apply (choice _ _ _ _ _ _ Hc); auto.
    + intros d x Hd Hx. refine (proj1 (accepted_with_leaf lp sp r x Ha _)). exact (below_child d x r Hd Hx).
    + pose proof (line_length lp sp _ _ _ _ Hl) as H1. unfold root_fuel, args_weight.
      assert (H2 : List.length ws <= list_sum (map token_weight (toks_of ws))).
      { clear. induction ws as [|w ws IH]; [apply le_n|]. cbn [toks_of map List.length list_sum fold_right]. unfold token_weight at 1.
        change (fold_right Nat.add 0 (map token_weight (map (Tok PNone) ws))) with (list_sum (map token_weight (toks_of ws))). lia. }
      lia.
Qed.

(** Nothing is selected: the unknown word is reported by the root. *)
Lemma root_unknown r mem w words : accepted_with lp sp r = true -> w <> [] -> (forall d, In d (n_children r) -> passed lp sp w d) ->
  (nlen w + nlen words <= vec_max_size)%N ->
  o_events (root_parse_with lp sp r mem (toks_of (w :: words))) = []
  /\ o_res (root_parse_with lp sp r mem (toks_of (w :: words))) = @unknown_argument_exception_with lp sp unit r (Tok PNone w).
Proof.
  intros Ha Hw Hp Hroom.
  assert (E : forall fuel cs, (forall d, In d cs -> In d (n_children r)) ->
    root_try_with lp sp fuel r cs (PS (toks_of (w :: words)) mem) = (PS (toks_of (w :: words)) mem, [], Ok false)).
  { intros fuel. induction cs as [|c cs IH]; intros Hin; [reflexivity|]. cbn [root_try_with]. cbn [toks_of map].
    rewrite (passes fuel c [r] None mem w (map (Tok PNone) words)).
    - apply IH. intros d Hd. apply Hin. now right.
    - refine (proj1 (accepted_with_leaf lp sp r c Ha _)). apply (below_child c); [apply Hin; now left|apply below_self].
    - unfold nlen in *. rewrite map_length. exact Hroom.
    - apply Hp, Hin. now left. }
  unfold root_parse_with. rewrite E by auto. cbn [o_events o_res rbind toks_of map t_name].
  destruct w as [|x w]; [now contradiction Hw|]. split; reflexivity.
Qed.
End Modes.

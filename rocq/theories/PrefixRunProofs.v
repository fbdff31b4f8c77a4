(** Proofs for C85: whole command lines under any prefixes, separators, aliases, help. *)
From Verif Require Import Bytes Token Adapter Result CodePoint Utf8 Tree Levenshtein PreParse Parse Root Build Validator StringPolicy Prefixes.
From Verif Require Import SpecPolicy SpecTokens SpecTake SpecAdapter SpecUtf8 SpecRules SpecMode SpecPrefix.
From Verif Require Import AdapterProofs TokenProofs OrderProofs PermProofs CodePointProofs Utf8Proofs NodeProofs TakeProofs ModeProofs PrefixProofs.
From Coq Require Import Permutation.
Local Open Scope list_scope.

Section Run.
Variables lp sp : bytes.

Lemma run_target ps : forall a pt tg n parents m a' tg' m',
  (forall p, In p ps -> match p with PAlias _ => False | _ => True end) ->
  run_policies_with lp sp ps a pt tg n parents m = Ok (a', tg', m') -> tg' = tg.
Proof.
  induction ps as [|p ps IH]; intros a pt tg n parents m a' tg' m' Hp E; cbn [run_policies_with] in E.
  - now injection E as _ -> _.
  - assert (Hps : forall q, In q ps -> match q with PAlias _ => False | _ => True end) by (intros q Hq; apply Hp; now right).
    destruct (pre_parse_phase_with lp sp p a pt tg n parents) as [r|] eqn:Er; [|exact (IH _ _ _ _ _ _ _ _ _ Hps E)].
    assert (Hr : forall x y z, r = Ok (x, y, z) -> y = tg).
    { intros x y z ->. specialize (Hp p (or_introl eq_refl)).
      assert (K : forall r0 : res (adapter * presult), (' (a1, m1) <- r0 ;; Ok (a1, tg, m1))%res = Ok (x, y, z) -> y = tg).
      { intros [[? ?]| | | |] H; cbn [rbind] in H; try discriminate. now injection H as _ -> _. }
      destruct p; cbn [pre_parse_phase_with] in Er; try discriminate; try contradiction; injection Er as Er; first [exact (K _ Er)|destruct (phase_min_max_count mn mx n a); congruence|congruence]. }
    destruct m as [m0|]; [|exact (IH _ _ _ _ _ _ _ _ _ Hps E)].
    destruct m0; try exact (IH _ _ _ _ _ _ _ _ _ Hps E);
      (destruct r as [[[x y] z]| | | |]; cbn [rbind] in E; try discriminate; assert (y = tg) by exact (Hr _ _ _ eq_refl); subst y; exact (IH _ _ _ _ _ _ _ _ _ Hps E)).
Qed.

Lemma priority_in p ps : In p (priority_order ps) <-> In p ps.
Proof.
  split; intros H; [exact (Permutation_in _ (priority_order_perm ps) H)|exact (Permutation_in _ (Permutation_sym (priority_order_perm ps)) H)].
Qed.

Lemma simple_form n parents pt v s s' tg : simple_argument n ->
  node_pre_parse_with lp sp n parents pt v s = (s', Ok (Some tg)) -> tg = Target n parents (tg_toks tg) [].
Proof.
  intros [_ Hs] E. rewrite settles in E. unfold settle, mbind, mlift in E.
  destruct (run_policies_with _ _ _ _ _ _ _ _ _) as [[[a tg0] m]| | | |] eqn:Er; try discriminate.
  apply run_target in Er.
  2:{ intros p Hp. specialize (Hs p (proj1 (priority_in p (n_pols n)) Hp)). destruct p; try exact I. exact Hs. }
  subst tg0.
  destruct m as [[]|]; cbn [mret] in E; try discriminate;
    destruct (check_label_with _ _ _ _ _) as [a'|]; cbn [mret] in E; try discriminate;
    destruct (run_validator v n s) as [s1 [[]| | | |]]; cbn [negb] in E; try discriminate;
    unfold mret, set_args in E; injection E as _ <-; reflexivity.
Qed.

Lemma settle_valid n parents v r s : v n (p_mem s) = (p_mem s, Ok true) ->
  settle lp sp n parents v r s = settle lp sp n parents always_true r s.
Proof.
  intros H. unfold settle, mbind, mlift. destruct r as [[[a tg] m]| | | |]; try reflexivity.
  assert (Hr : run_validator v n s = run_validator always_true n s) by (unfold run_validator; rewrite H; reflexivity).
  destruct m as [[]|]; try reflexivity; destruct (check_label_with _ _ _ _ _); try reflexivity; now rewrite Hr.
Qed.

Lemma selected n parents pt v mem w vals rest mn mx :
  leaf_ok n -> simple_argument n -> count_bounds n = Some (mn, mx) -> heads lp sp n (Tok PNone w) [] ->
  (mn <= nlen vals <= mx)%N -> (rest <> [] -> nlen vals = mx) -> (nlen w + nlen (vals ++ rest) <= vec_max_size)%N ->
  v n mem = (mem, Ok true) ->
  node_pre_parse_with lp sp n parents pt v (PS (Tok PNone w :: vals ++ rest) mem) = (PS rest mem, Ok (Some (Target n parents vals []))).
Proof.
  intros L Hs Hb Hh Hc Hf Hroom Hv.
  destruct (proj2 (label_exact lp sp n parents pt mem (Tok PNone w) (vals ++ rest) vals rest mn mx L Hs Hb ltac:(discriminate) Hroom)) as (tg & E & Et).
  { exists []. split; [exact Hh|]. split; [reflexivity|]. split; [exact Hc|exact Hf]. }
  rewrite settles, settle_valid by exact Hv. rewrite <- settles, E. apply simple_form in E; [|exact Hs]. rewrite E, Et. reflexivity.
Qed.

Lemma unselected n parents pt v mem w us mn mx :
  leaf_ok n -> simple_argument n -> count_bounds n = Some (mn, mx) -> (forall letters, ~ heads lp sp n (Tok PNone w) letters) ->
  (forall nm, w = sp ++ nm -> nm <> [] /\ graphemes nm <> None) -> (nlen w + nlen us <= vec_max_size)%N ->
  node_pre_parse_with lp sp n parents pt v (PS (Tok PNone w :: us) mem) = (PS (Tok PNone w :: us) mem, Ok None).
Proof.
  intros L Hs Hb Hno Hd Hroom. set (t := Tok PNone w) in *. set (s := PS (t :: us) mem).
  assert (Hn := simple_named n Hs). assert (Hm := simple_marker n Hs).
  assert (H0 : forall a t' us', a_all a = t' :: us' -> match_node n (norm_token_with lp sp n t') = false ->
    settle lp sp n parents v (let '(a', m) := phase_min_max_count mn mx n a in Ok (a', Target n parents [] [], m)) s = (s, Ok None)).
  { intros a t' us' Ha Hx. unfold phase_min_max_count. rewrite Hm. cbn [is_some andb]. destruct (N.ltb _ _).
    - unfold settle, mbind, mlift. rewrite (check_named lp sp n _ a t' us' Hn Ha) by discriminate. rewrite Hx. reflexivity.
    - unfold settle, mbind, mlift. rewrite (check_named lp sp n _ _ t' us' Hn) by (rewrite ?transfer_all; first [exact Ha|discriminate]). rewrite Hx. reflexivity. }
  assert (Ht : match_node n (norm_token_with lp sp n t) = false).
  { destruct (match_node n (norm_token_with lp sp n t)) eqn:E; [|reflexivity]. exfalso. apply (Hno []). apply heads_plain; [discriminate|exact E]. }
  assert (Hplain : settle lp sp n parents v (run_policies_with lp sp [PMinMaxCount mn mx] (Adp [] (t :: us)) pt (Target n parents [] []) n parents (Act Valid)) s = (s, Ok None)).
  { rewrite run_one. exact (H0 (Adp [] (t :: us)) t us eq_refl Ht). }
  rewrite settles. unfold s at 1. cbn [p_args].
  rewrite run_with_filter, (filter_order _ (lo_prio _ L)), (simple_order n mn mx L Hs Hb).
  destruct (pick_expander n) as [[-> Hx]|[-> Hx]]; cbn [app]; [exact Hplain|].
  rewrite run_two. destruct (lo_exp _ L Hx) as (c & Hc). assert (Hcs : short_name n <> None) by congruence.
  unfold phase_short_form_with. cbn [a_empty a_proc a_unproc]. change (a_deref (Adp [] (t :: us)) a_begin) with (Some t).
  cbn [or_ub rbind]. rewrite Hc.
  destruct (short_candidate_with lp sp n t) as [ft|] eqn:Ec; [|exact Hplain].
  destruct (proj1 (candidate_short lp sp n t ft ltac:(discriminate) Hcs) Ec) as (nm & -> & Hnm). cbn [t_name].
  destruct (Nat.eqb_spec (List.length nm) (List.length c)) as [Hlen|Hlen]; [exact Hplain|].
  change (transfer (Adp [] (t :: us)) a_begin) with (Adp [t] us). cbn [a_unproc a_proc].
  assert (Hw : w = sp ++ nm).
  { destruct Hnm as [E|[E _]]; [discriminate|]. now injection E. }
  destruct (Hd nm Hw) as [Hne Hg0].
  destruct (N.ltb_spec vec_max_size (size_pred (nlen us + nlen nm))) as [Hbig|_].
  { exfalso. rewrite Hw, nlen_app in Hroom. destruct nm as [|x nm]; [now apply Hne|]. rewrite nlen_cons in *. unfold size_pred in Hbig.
    destruct (N.eqb_spec (nlen us + (1 + nlen nm)) 0); lia. }
  destruct (graphemes nm) as [[|g gs]|] eqn:Hg; [| |now contradiction Hg0].
  { exfalso. apply graphemes_partition in Hg as [E _]. cbn in E. now apply Hne. }
  cbn [or_ub rbind tl map app]. rewrite set_front. cbn [or_ub rbind]. rewrite run_one.
  apply (H0 _ (Tok PShort g) (map (Tok PShort) gs ++ us)); [reflexivity|].
  destruct (match_node n (norm_token_with lp sp n (Tok PShort g))) eqn:E; [|reflexivity]. exfalso. apply match_iff in E as [[E _]|[[_ E]|[E _]]]; try discriminate.
  cbn [norm_token_with t_prefix t_name] in E. assert (g = c) by congruence. subst g.
  destruct (graphemes_partition _ _ Hg) as [Hcat _]. cbn [List.concat] in Hcat. apply (Hno gs).
  apply (by_group lp sp n t c gs Hx Hc).
  - intros E'. apply Hlen. now rewrite <- Hcat, E', app_nil_r.
  - rewrite Hcat. exact Hg.
  - rewrite Hcat. exact Hnm.
Qed.

(** ** The mode *)

Definition toks_of (ws : list bytes) : list token := map (Tok PNone) ws.
Definition targets_of (m : node) (parents : list node) (ps : list (node * list bytes)) : list target :=
  map (fun p => Target (fst p) (m :: parents) (toks_of (snd p)) []) ps.
Definition kids (fuel : nat) (m : node) (parents : list node) (cs : list node) : list (node * child_pp) :=
  map (fun c => (c, pre_parse_with lp sp fuel c (m :: parents))) cs.

Lemma plain_kind c fuel parents : plain_child c ->
  is_mode c = false /\ pre_parse_with lp sp fuel c parents = node_pre_parse_with lp sp c parents.
Proof.
  intros (_ & _ & Hk). destruct c as [k i ty ps cs]. cbn [n_kind] in Hk. destruct k; try contradiction; split; reflexivity.
Qed.

Definition weight (ws : list bytes) : N := (nlen (List.concat ws) + nlen ws)%N.

(** An argument of a mode, or a mode inside it, which the loop passes over. *)
Definition loop_child (d : node) : Prop := leaf_ok d /\ plain_child d \/ n_kind d = KMode /\ count_bounds d = None.

Lemma try_finds fuel m parents mem tg matched w vals rest mn mx c after : forall before i,
  (forall d, In d (before ++ c :: after) -> loop_child d) ->
  heads lp sp c (Tok PNone w) [] ->
  (forall d letters, In d before -> ~ heads lp sp d (Tok PNone w) letters) ->
  (forall nm, w = sp ++ nm -> nm <> [] /\ graphemes nm <> None) ->
  count_bounds c = Some (mn, mx) -> (mn <= nlen vals <= mx)%N -> (rest <> [] -> nlen vals = mx) ->
  (nlen w + nlen (vals ++ rest) <= vec_max_size)%N ->
  (nth (i + List.length before) matched false = true -> has_multi_stage c = true) ->
  mode_try (kids fuel m parents (before ++ c :: after)) i matched (Tok PNone w) tg (PS (Tok PNone w :: vals ++ rest) mem)
  = (PS rest mem, Ok (Some (i + List.length before, Target c (m :: parents) vals []))).
Proof.
  induction before as [|d before IH]; intros i Hall Hh Hno Hd Hb Hc Hf Hroom Hms.
  - destruct (Hall c (or_introl eq_refl)) as [[L Hp]|[_ Hx]]; [|congruence]. destruct (plain_kind c fuel (m :: parents) Hp) as [Hk Hpp].
    cbn [app kids map mode_try]. rewrite Hk, Hpp. unfold mbind.
    rewrite (selected c (m :: parents) (Some tg) _ mem w vals rest mn mx L (proj1 Hp) Hb Hh Hc Hf Hroom).
    + cbn [List.length]. rewrite Nat.add_0_r. reflexivity.
    + unfold verify_match. cbn [List.length] in Hms. rewrite Nat.add_0_r in Hms.
      destruct (has_multi_stage c) eqn:E; [reflexivity|]. rewrite (simple_named c (proj1 Hp)).
      destruct (nth i matched false); [now specialize (Hms eq_refl)|reflexivity].
  - assert (Hgo : mode_try (kids fuel m parents ((d :: before) ++ c :: after)) i matched (Tok PNone w) tg (PS (Tok PNone w :: vals ++ rest) mem)
      = mode_try (kids fuel m parents (before ++ c :: after)) (S i) matched (Tok PNone w) tg (PS (Tok PNone w :: vals ++ rest) mem)).
    { destruct (Hall d (or_introl eq_refl)) as [[L Hp]|[Hk _]]; [|cbn [app kids map mode_try]; unfold is_mode; now rewrite Hk].
      destruct (plain_kind d fuel (m :: parents) Hp) as [Hk Hpp].
      cbn [app kids map mode_try]. rewrite Hk, Hpp. unfold mbind.
      destruct (count_bounds d) as [[a z]|] eqn:Ebd; [|exfalso; exact (proj1 (proj2 Hp) Ebd)].
      now rewrite (unselected d (m :: parents) (Some tg) _ mem w (vals ++ rest) a z L (proj1 Hp) Ebd (fun letters => Hno d letters (or_introl eq_refl)) Hd Hroom). }
    rewrite Hgo. cbn [List.length]. rewrite Nat.add_succ_r. change (S (i + List.length before)) with (S i + List.length before).
    apply IH; try assumption.
    + intros x Hx. apply Hall. now right.
    + intros x letters Hx. apply Hno. now right.
    + cbn [List.length] in Hms. rewrite Nat.add_succ_r in Hms. exact Hms.
Qed.

Lemma upd_nth (l : list bool) i j : nth j (upd l i true) false = true -> j = i \/ nth j l false = true.
Proof.
  revert i j. induction l as [|x l IH]; intros i j H; [destruct i; right; exact H|].
  destruct i as [|i], j as [|j]; cbn in *; auto.
  destruct (IH i j H) as [->|H']; auto.
Qed.

Lemma loop_line fuel0 m parents mem cs : (forall d, In d cs -> loop_child d) ->
  forall used ps ws, line lp sp cs used ps ws -> forall fuel tg matched,
  List.length ps <= fuel -> (weight ws <= vec_max_size)%N ->
  (forall i c, nth_error cs i = Some c -> nth i matched false = true -> In c used) ->
  mode_loop_with lp sp fuel m (kids fuel0 m parents cs) tg matched (PS (toks_of ws) mem)
  = (PS [] mem, Ok (Some (add_subs tg (targets_of m parents ps)))).
Proof.
  intros Hall used ps ws H. induction H as [used|used before c after w vals mn mx ps ws Ecs Hh Hno Hu Hd Hb Hc Hf Hl IH];
    intros fuel tg matched Hfuel Hw Hm.
  - destruct fuel; cbn [mode_loop_with toks_of map p_args targets_of add_subs]; destruct tg as [n p ts old]; cbn [add_subs]; now rewrite app_nil_r.
  - destruct fuel as [|fuel]; [cbn [List.length] in Hfuel; lia|].
    cbn [mode_loop_with]. cbn [toks_of map]. rewrite map_app. cbn [p_args].
    unfold mbind.
    assert (Hw' : (nlen w + nlen (vals ++ ws) <= vec_max_size)%N).
    { unfold weight in Hw. cbn [List.concat] in Hw. rewrite nlen_cons, nlen_app in Hw. lia. }
    replace (kids fuel0 m parents cs) with (kids fuel0 m parents (before ++ c :: after)) by now rewrite Ecs.
    rewrite (try_finds fuel0 m parents mem tg matched w (map (Tok PNone) vals) (map (Tok PNone) ws) mn mx c after before 0).
    + cbn [Nat.add tg_subs]. rewrite <- Ecs.
      change (map (Tok PNone) ws) with (toks_of ws). rewrite (IH fuel (add_subs tg [Target c (m :: parents) (map (Tok PNone) vals) []]) (upd matched (List.length before) true)).
      * destruct tg as [n p ts old]. cbn [add_subs targets_of map fst snd]. now rewrite <- app_assoc.
      * cbn [List.length] in Hfuel. lia.
      * unfold weight in *. cbn [List.concat] in Hw. rewrite concat_app, !nlen_app, nlen_cons, !nlen_app in Hw. lia.
      * intros i d Hi Hn. apply upd_nth in Hn as [->|Hn]; [left|right; exact (Hm _ _ Hi Hn)].
        rewrite Ecs, nth_error_app2, Nat.sub_diag in Hi by lia. now injection Hi.
    + rewrite <- Ecs. exact Hall.
    + exact Hh.
    + exact Hno.
    + exact Hd.
    + exact Hb.
    + unfold nlen in *. rewrite map_length. exact Hc.
    + intros Hne. unfold nlen in *. rewrite map_length. apply Hf. intros ->. now apply Hne.
    + unfold nlen in *. rewrite <- map_app, map_length. exact Hw'.
    + intros Hn. apply Hu, (Hm (List.length before)); [|exact Hn]. now rewrite Ecs, nth_error_app2, Nat.sub_diag by lia.
Qed.

Lemma exec_leaf c parents toks : plain_child c -> exec_with lp sp (Target c parents toks []) = exec (Target c parents toks []).
Proof. intros (_ & _ & Hk). cbn [exec_with exec]. destruct (n_kind c); try contradiction; reflexivity. Qed.

Lemma line_children cs used ps ws : line lp sp cs used ps ws -> forall p, In p ps -> In (fst p) cs.
Proof.
  induction 1 as [|used before c after w vals mn mx ps ws Ecs _ _ _ _ _ _ _ _ IH]; [intros p []|].
  intros p [<-|Hp]; [|exact (IH p Hp)]. rewrite Ecs. apply in_elt.
Qed.

Lemma line_length cs used ps ws : line lp sp cs used ps ws -> List.length ps <= List.length ws.
Proof. induction 1; [apply le_n|]. cbn [List.length]. rewrite app_length. lia. Qed.

(** The whole run: the same whatever the prefixes. *)
Lemma root_line r m mem ps ws : accepted_with lp sp r = true -> n_children r = [m] -> is_mode m = true -> is_anonymous m = true ->
  (forall c, In c (n_children m) -> plain_child c) -> line lp sp (n_children m) [] ps ws -> (weight ws <= vec_max_size)%N ->
  root_parse_with lp sp r mem (toks_of ws)
  = let '(tr, x) := exec (Target m [r] [] (targets_of m [r] ps)) [] in Out mem tr (_ <- x ;; Ok tt)%res.
Proof.
  intros Ha Hr Hm Han Hk Hl Hw.
  assert (Hall : forall d, In d (n_children m) -> loop_child d).
  { intros d Hd. left. split; [|exact (Hk d Hd)]. refine (proj1 (accepted_with_leaf lp sp r d Ha _)).
    apply (below_child m); [rewrite Hr; now left|]. apply (below_child d); [exact Hd|apply below_self]. }
  assert (Hloop : pre_parse_with lp sp (root_fuel (toks_of ws)) m [r] None always_true (PS (toks_of ws) mem)
    = (PS [] mem, Ok (Some (Target m [r] [] (targets_of m [r] ps))))).
  { assert (Hpp : forall fuel, pre_parse_with lp sp fuel m [r] = mode_pre_parse_with lp sp fuel m [r] (kids fuel m [r] (n_children m))).
    { intros fuel. destruct m as [k i ty pl cs]. unfold is_mode in Hm. cbn [n_kind] in Hm. destruct k; try discriminate. reflexivity. }
    rewrite Hpp. unfold mode_pre_parse_with. rewrite Han. unfold mbind. cbn [run_validator always_true p_mem p_args negb].
    rewrite (loop_line _ m [r] mem (n_children m) Hall [] ps ws Hl).
    - reflexivity.
    - pose proof (line_length _ _ _ _ Hl) as H1. unfold root_fuel, args_weight. clear - H1.
      assert (H2 : List.length ws <= list_sum (map token_weight (toks_of ws))).
      { clear. induction ws as [|w ws IH]; [apply le_n|]. cbn [toks_of map List.length list_sum fold_right]. unfold token_weight at 1.
        change (fold_right Nat.add 0 (map token_weight (map (Tok PNone) ws))) with (list_sum (map token_weight (toks_of ws))). lia. }
      lia.
    - exact Hw.
    - intros i c _ Hn. exfalso. revert Hn. clear. revert i. induction (kids _ m [r] (n_children m)) as [|x l IH]; intros i; destruct i; cbn; try discriminate. apply IH. }
  unfold root_parse_with. rewrite Hr. cbn [root_try_with]. rewrite Hloop. cbn [p_args].
  assert (Hex : exec_with lp sp (Target m [r] [] (targets_of m [r] ps)) = exec (Target m [r] [] (targets_of m [r] ps))).
  { cbn [exec_with exec]. unfold is_mode in Hm. destruct (n_kind m); try discriminate. f_equal. apply map_ext_in. intros t Ht. f_equal.
    unfold targets_of in Ht. apply in_map_iff in Ht as ([c vs] & <- & Hin). cbn [fst snd].
    apply exec_leaf, Hk. exact (line_children _ _ _ _ Hl _ Hin). }
  rewrite Hex. destruct (exec (Target m [r] [] (targets_of m [r] ps)) []) as [tr x]. cbn [p_mem].
  f_equal. destruct x; reflexivity.
Qed.
End Run.

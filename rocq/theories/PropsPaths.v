(** What holds of C54-C57, beside the refutations in PropsTree.v and PropsNode.v. *)
From Verif Require Import Bytes Token Result CodePoint Utf8 Tree PreParse Parse Root Levenshtein Build Validator.
From Verif Require Import SpecUtf8 SpecTake SpecMode SpecDeliver SpecRoot SpecReading SpecClaims SpecSafe SpecPaths.
From Verif Require Import MeaningProofs RootProofs ReadProofs ExactProofs ClaimProofs RunProofs PathProofs Demo Oddities.
Local Open Scope list_scope.

(** ** C54 *)

(** In the trees that [fresh] admits, arguments with both a value separator and the short-form expander
    among them, every token is accounted for: apart from the names of the modes, the command line is the
    text of the items in order, once groups, separators and end markers are written out.  Of a group with
    a value behind a separator the value goes to the first letter.  Missing: positional arguments with a
    value separator; those lose text. *)
Theorem c54_every_token_partial : forall r mem args m vs,
  fresh r mem args -> calls_router r mem args m vs -> is_mode m = true ->
  exists names ts items final,
    args = map (Tok PNone) names ++ ts /\ typed r args m ts items
    /\ respelled_mixed m ts final /\ map token_str final = flat_map item_text items.
Proof. exact every_token_mixed. Qed.
Print Assumptions c54_every_token_partial.

Lemma calls_by_id r args n vs : accepted r = true -> NoDup (map n_id (below r)) -> In n (below r) ->
  called (root_parse r [] args) = Some (n_id n, vs) -> calls_router r [] args n vs.
Proof.
  intros Ha Hd Hn H. pose proof (root_calls r [] args Ha) as Hc. cbn zeta in Hc.
  unfold calls_router, called in *. destruct (o_events (root_parse r [] args)) as [|[n' vs'|h t f] [|e2 es]] eqn:E;
    try discriminate.
  injection H as Hid <-. left. f_equal.
  destruct (o_res (root_parse r [] args)); try discriminate.
  - destruct Hc as (k & e & Hk & He & [(w & -> & _)|(h & f & ->)]); [|discriminate].
    injection He as <- <-. now apply (nodup_map_inj n_id (below r) Hd).
  - destruct Hc as [Hc|(k & h & f & Hc)]; discriminate.
Qed.

Example c54_example : exists m,
  fresh mixed_tool [] (toks ["run"; "-ab=5"]%string) /\ is_mode m = true
  /\ calls_router mixed_tool [] (toks ["run"; "-ab=5"]%string) m [VInt 5; VBool true] /\ ~ SpecClaims.tidy m.
Proof.
  eexists. split; [|split; [|split]].
  - constructor; [apply well_formed_b_spec; vm_compute; reflexivity|intros inst []|vm_compute; reflexivity|left; discriminate].
  - instantiate (1 := mode 100 [PNoneName (b "run"); PRouter] [q_vals; q_b]). reflexivity.
  - apply calls_by_id; [vm_compute; reflexivity|apply nodup_n_spec; vm_compute; reflexivity|right; left; reflexivity|vm_compute; reflexivity].
  - intros H. apply (H q_vals).
    + exists q_vals. split; [left; reflexivity|]. split; [reflexivity|left; reflexivity].
    + discriminate.
    + repeat (first [left; reflexivity|right]).
Qed.

(** ** C55 *)

(** In the trees that [fresh] admits, where a mode's subtree has no two nodes of one C++ type, what was
    typed for an argument is part of what its child's value is made from, and is all of it if the child
    takes one value.  Missing: the trees with a type twice in a mode; there it is false. *)
Theorem c55_delivered_partial : forall r mem args m ts items vs it i c, fresh r mem args -> typed r args m ts items ->
  calls_router r mem args m vs -> In it items -> (forall ns, ~ In (PAlias ns) (n_pols (i_node it))) ->
  nth_error (router_children m) i = Some c -> In (i_node it) (below c) ->
  exists v, nth_error vs i = Some v /\ In (i_node it, i_values it) (occurrences m c items)
    /\ gathered None (occurrences m c items) (Some v) /\ (~ repeatable c -> value_of (i_node it) (i_values it) v).
Proof. exact run_own_reaches. Qed.
Print Assumptions c55_delivered_partial.

(** --force was typed, in a group. *)
Example c55_delivered_example : exists ts items it,
  fresh demo [] ex1 /\ typed demo ex1 d_copy ts items /\ calls_router demo [] ex1 d_copy ex1_values
  /\ In it items /\ (forall ns, ~ In (PAlias ns) (n_pols (i_node it)))
  /\ nth_error (router_children d_copy) 0 = Some d_force /\ In (i_node it) (below d_force) /\ ~ repeatable d_force
  /\ nth_error ex1_values 0 = Some (VBool true).
Proof.
  destruct ex1_assigned as (ts & items & Ht & E).
  assert (Hin : In (10%N, []) (map by_id (flat_map (assigned d_copy) items))) by (rewrite E; right; right; left; reflexivity).
  apply in_map_iff in Hin as ([d vals] & Ed & Hin). injection Ed as Ed _. cbn [fst] in Ed.
  apply in_flat_map in Hin as (it & Hit & Hin). unfold assigned in Hin. apply in_map_iff in Hin as (d' & Ex & Hd).
  injection Ex as -> _.
  destruct (typed_item _ _ _ _ _ _ Ht Hit) as ((c & Hc & _ & Hl) & _ & _).
  assert (Ei : i_node it = d_force).
  { clear - Ed Hd Hc Hl. revert Hd. generalize dependent (i_node it). intros l Hl Hd.
    repeat destruct Hc as [<-|Hc]; try contradiction; repeat destruct Hl as [<-|Hl]; try contradiction; try reflexivity;
      exfalso; cbn in Hd; repeat destruct Hd as [<-|Hd]; try contradiction; discriminate Ed. }
  exists ts, items, it. rewrite Ei. split; [exact ex1_fresh|]. split; [exact Ht|]. split; [exact ex1_run|].
  split; [exact Hit|]. split.
  - intros ns H. repeat destruct H as [H|H]; try discriminate; contradiction.
  - split; [reflexivity|]. split; [left; reflexivity|]. split; [|reflexivity]. intros [H|(x & [] & _)]. discriminate H.
Qed.

(** ** C56 *)

(** An alias with a target among the mode's own arguments sets it.  Missing: an alias whose targets are
    all in nested modes, which has no effect. *)
Theorem c56_effect_partial : forall r mem args m ts items vs it ns d i c, fresh r mem args -> typed r args m ts items ->
  calls_router r mem args m vs -> In it items -> In (PAlias ns) (n_pols (i_node it)) ->
  In d (below m) -> refers_to ns d = true ->
  nth_error (router_children m) i = Some c -> In d (below c) ->
  exists v, nth_error vs i = Some v /\ In (d, i_values it) (occurrences m c items)
    /\ gathered None (occurrences m c items) (Some v) /\ (~ repeatable c -> value_of d (i_values it) v).
Proof. exact run_alias_reaches. Qed.
Print Assumptions c56_effect_partial.

(** demo copy --both 5: an alias and no other argument. *)
Definition ex_alias : list token := toks ["copy"; "--both"; "5"]%string.
Lemma ex_alias_fresh : fresh demo [] ex_alias.
Proof. apply demo_fresh; [discriminate|vm_compute; reflexivity]. Qed.
Lemma ex_alias_run : calls_router demo [] ex_alias d_copy
  [VBool false; VInt 0; VInt 5; VStr []; VStr []; VInt 5; VInt 7; VBool false; VList []; VStr []].
Proof. apply demo_calls; [right; right; right; left; reflexivity|vm_compute; reflexivity]. Qed.

Lemma ex_alias_tokens m ts items : typed demo ex_alias m ts items -> m = d_copy -> ts = toks ["--both"; "5"]%string.
Proof.
  intros Ht ->. destruct (typed_leads _ _ _ _ _ Ht) as (c & names & Hc & _ & Hl & E & _).
  inversion Hl as [c' Hn|c' nm Hn|c' nm d nms m' Hn Hd Hdm Hne Hl']; subst.
  - discriminate Hn.
  - injection E as _ E. symmetry. exact E.
  - exfalso. injection E as E1 _. subst nm.
    repeat destruct Hc as [<-|Hc]; try contradiction; try discriminate Hn.
    repeat destruct Hd as [<-|Hd]; try contradiction; discriminate Hdm.
Qed.

Example c56_effect_example : exists ts it items,
  fresh demo [] ex_alias /\ typed demo ex_alias d_copy ts (it :: items)
  /\ calls_router demo [] ex_alias d_copy
       [VBool false; VInt 0; VInt 5; VStr []; VStr []; VInt 5; VInt 7; VBool false; VList []; VStr []]
  /\ In (PAlias [NLong (b "depth"); NLong (b "width")]) (n_pols (i_node it))
  /\ In d_width (below d_copy) /\ refers_to [NLong (b "depth"); NLong (b "width")] d_width = true
  /\ nth_error (router_children d_copy) 5 = Some d_width /\ In d_width (below d_width) /\ ~ repeatable d_width.
Proof.
  assert (Ht : exists ts items, typed demo ex_alias d_copy ts items).
  { destruct (called_typed demo [] ex_alias d_copy _ ex_alias_fresh ex_alias_run eq_refl) as (ts & items & H & _). eauto. }
  destruct Ht as (ts & items & Ht). pose proof (ex_alias_tokens _ _ _ Ht eq_refl) as Ets.
  pose proof Ht as (bf & c & af & ps & _ & _ & _ & _ & Hrd).
  destruct Hrd as [|done ts bf' i l af' label vals rest items He Hb Hch Hen Hco Hal Hdep Hrd]; [discriminate Ets|].
  assert (El : l = d_both).
  { subst ts.
    assert (Hg : forall n t' us', grouped n (Tok PNone (b "--both")) (toks ["5"]%string) t' us' -> t' = Tok PNone (b "--both")).
    { intros n t' us' H. inversion H as [|? nm ? ? ? (_ & [[E _]|(_ & _ & E)] & _)]; subst; [reflexivity|discriminate E|discriminate E]. }
    assert (Had : In (5, d_both) bf' -> False).
    { intros Hin. destruct (Hb 5 d_both Hin) as [_ [H|[H|[H _]]]]; [| |discriminate H].
      - apply H. discriminate.
      - apply H. left. split; [reflexivity|]. left.
        exists (Tok PNone (b "--both")), [], (toks ["5"]%string), (Tok PNone (b "--both")), (toks ["5"]%string).
        split; [apply front_plain; reflexivity|]. split; [|reflexivity]. apply group_none.
        intros nm [H' _]. repeat destruct H' as [H'|H']; try discriminate; contradiction. }
    assert (Hno : is_named l = true -> value_separator l = None \/ value_separator l = Some (b "=") ->
      match_node l (norm_token l (Tok PNone (b "--both"))) = false -> False).
    { clear - Hco Hg. intros Hn Hs Hm. inversion Hco as [t value us t' us' vals' rest' _ Hf Hgr Hm'|? ? Hn']; [|congruence].
      inversion Hf as [t0 us0 E E2|sep p l0 c s v us0 Es Hc _ _ _ E2]; subst.
      - apply Hg in Hgr. subst t'. rewrite Hm in Hm'. discriminate.
      - destruct Hs as [Hs|Hs]; [congruence|]. rewrite Hs in Es. injection Es as <-.
        destruct Hc as [<-|[]]. 
        match goal with H : ?x ++ _ :: _ = ?y |- _ => assert (Hx : In "="%char y) by (rewrite <- H; apply in_elt) end.
        repeat destruct Hx as [Hx|Hx]; try discriminate; contradiction. }
    cbn in He. do 6 (destruct bf' as [|? bf']; [injection He as _ <- _; first [reflexivity|exfalso; apply Hno; [reflexivity|first [left; reflexivity|right; reflexivity]|reflexivity]]|injection He as <- He]).
    exfalso. apply Had. do 5 right. now left. }
  subst l. eexists _, _, _. split; [exact ex_alias_fresh|]. split; [exact Ht|]. split; [exact ex_alias_run|].
  split; [repeat (first [left; reflexivity|right])|]. split; [repeat (first [left; reflexivity|right])|]. split; [reflexivity|]. split; [reflexivity|].
  split; [left; reflexivity|]. intros [H|(d & [] & _)]. discriminate H.
Qed.

(** ** C57 *)

(** Of the modes that have the same name, the one that a command line selects is the first that is
    switched on, at every level; *)
Theorem c57_first_mode_partial : forall r args m ts items, typed r args m ts items ->
  exists names, args = map (Tok PNone) names ++ ts /\ first_path (n_children r) names m.
Proof. exact typed_first. Qed.
Print Assumptions c57_first_mode_partial.

(** the names lead to no other mode. *)
Theorem c57_one_mode : forall cs names m m', first_path cs names m -> first_path cs names m' -> m = m'.
Proof. exact (fun cs names m m' H => first_path_unique cs names m H m'). Qed.
Print Assumptions c57_one_mode.

(** Of two modes called "run" the first is used. *)
Example c57_first_mode_example :
  (exists m, first_path (n_children modes_tool) [b "run"] m /\ n_id m = 100%N)
  /\ calls_of modes_tool [] (map b ["run"]%string) = [(100%N, [VBool false])]
  /\ (exists ts items, typed demo ex1 d_copy ts items).
Proof.
  split; [|split; [vm_compute; reflexivity|exact ex1_typed]].
  eexists. split; [apply (first_here [] _ [_]); [reflexivity|discriminate|reflexivity|intros d []]|reflexivity].
Qed.

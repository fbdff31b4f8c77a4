(** Single arguments and groups of tokens: C01, C04, C10, C13-C15, C22, C45, C57, C58. *)
From Coq Require Import Permutation.
From Verif Require Import Bytes Token Result CodePoint Utf8 Tree PreParse Parse Root Build Validator.
From Verif Require Import SpecTake SpecMode SpecDeliver SpecRoot SpecReading SpecClaims SpecPolicy SpecSafe SpecGroup.
From Verif Require Import ExactProofs PermProofs OrderProofs ClaimProofs TotalProofs NodeClaims LabelProofs GroupProofs Demo Oddities.
Local Open Scope list_scope.

(** ** C01 *)

(** Every parse ends, if the users' parsers do.  [OutOfFuel] is the only result of the model that stands for
    a loop that does not end; the command line is shorter than 2^63 bytes. *)
Theorem c01_returns : forall r mem args, accepted r = true -> fits args ->
  (forall n cl s, In n (below r) -> n_kind n = KArg cl -> parse_token n s <> OutOfFuel) ->
  o_res (root_parse r mem args) <> OutOfFuel.
Proof. exact root_returns. Qed.
Print Assumptions c01_returns.

Example c01_example :
  accepted demo = true /\ fits ex1 /\ (forall n cl s, In n (below demo) -> n_kind n = KArg cl -> parse_token n s <> OutOfFuel)
  /\ o_res (root_parse demo [] ex1) = Ok tt.
Proof.
  split; [vm_compute; reflexivity|]. split; [vm_compute; reflexivity|]. split; [|vm_compute; reflexivity].
  intros n cl s Hn _. repeat destruct Hn as [<-|Hn]; try contradiction; cbn; try discriminate;
    unfold num_parse; destruct s; try discriminate; destruct (digits _ _); discriminate.
Qed.

(** ** C04 *)

(** A node that reports no match leaves the tokens as they were.  A mode at the top level gets the
    validator [always_true] (root.hpp); the other nodes may get any. *)
Theorem c04_untouched : forall r n fuel parents pt v s s', accepted r = true -> In n (below r) -> is_root n = false ->
  (is_mode n = true -> v = always_true) ->
  pre_parse fuel n parents pt v s = (s', Ok None) -> p_args s' = p_args s.
Proof. exact (fun r n f parents pt v s s' => no_match r n f parents pt v s s'). Qed.
Print Assumptions c04_untouched.

(** "--owner=me" is split, and then is not for --depth nor, with another name, for --owner. *)
Example c04_example :
  let s := PS (toks ["--ownr=me"; "-vfv"]%string) [] in
  In d_owner (below demo)
  /\ pre_parse 100 d_owner [d_copy; demo] None always_true s = (s, Ok None)
  /\ pre_parse 100 d_pack [d_copy; demo] None always_true s = (s, Ok None).
Proof.
  intros s. split; [do 7 right; left; reflexivity|].
  split; vm_compute; reflexivity.
Qed.

(** ** C10 *)

(** A group "-abc" of flags in front of any tokens is read exactly as "-a" "-b" "-c"; the last one may also
    be an argument with values.  [done] is what was typed before. *)
Theorem c10_same_reading : forall r m gs us done items, accepted r = true -> In m (below r) -> is_mode m = true ->
  distinct_types m -> flag_group m gs -> small (map dashed gs ++ us) ->
  reading m done (dashed (List.concat gs) :: us) items <-> reading m done (map dashed gs ++ us) items.
Proof. exact (fun r m gs us done items Ha Hin Hm Hd Hg Hs => group_reading r m Ha Hin Hm Hd gs us Hg Hs done items). Qed.
Print Assumptions c10_same_reading.

(** So the same router is called with the same arguments, or none. *)
Theorem c10_same_call : forall r mem args args' m gs us vs, fresh r mem args -> fresh r mem args' ->
  reaches r args m (dashed (List.concat gs) :: us) -> reaches r args' m (map dashed gs ++ us) ->
  flag_group m gs -> small (map dashed gs ++ us) ->
  calls_router r mem args m vs <-> calls_router r mem args' m vs.
Proof. exact group_calls. Qed.
Print Assumptions c10_same_call.

Definition ex_ba : list bytes := map b ["b"; "a"]%string.
Definition ex_rest : list token := toks ["x"; "y"]%string.

Lemma anon_group : flag_group d_anon ex_ba.
Proof.
  assert (Hl : forall f g, letter d_anon g f -> f = d_all /\ g = b "a" \/ f = d_brief /\ g = b "b").
  { intros f g [ (bf & i & af & He & _) Hn _ _ ].
    assert (Hin : In (i, f) (entries d_anon)) by (rewrite He; apply in_elt).
    repeat destruct Hin as [Hin|Hin]; try contradiction; injection Hin as <- <-;
      try (cbn in Hn; discriminate Hn); injection Hn as <-; auto. }
  constructor.
  - discriminate.
  - vm_compute. reflexivity.
  - intros g [<-|[<-|[]]].
    + exists d_brief. constructor; try reflexivity; [|discriminate].
      exists [(0, d_all)], 1, [(2, d_names)]. split; [reflexivity|]. intros j k [H|[]]. injection H as <- <-. reflexivity.
    + exists d_all. constructor; try reflexivity; [|discriminate].
      exists [], 0, [(1, d_brief); (2, d_names)]. split; [reflexivity|]. intros j k [].
  - intros bf g af f _ _ Hf. destruct (Hl f g Hf) as [[-> _]|[-> _]]; split; reflexivity.
  - intros f Hf. destruct (Hl f _ Hf) as [[-> _]|[-> _]]; repeat (first [left; reflexivity|right]).
  - intros g Hg. constructor.
    + repeat destruct Hg as [<-|Hg]; try contradiction; reflexivity.
    + intros l (c & Hc & _ & Hl'). repeat destruct Hc as [<-|Hc]; try contradiction;
        repeat destruct Hl' as [<-|Hl']; try contradiction; discriminate.
    + intros l sep c (d & Hc & _ & Hl'). repeat destruct Hc as [<-|Hc]; try contradiction;
        repeat destruct Hl' as [<-|Hl']; try contradiction; discriminate.
Qed.

Lemma anon_reaches args : fresh demo [] args -> (exists l, offer (root_fuel args) demo (n_children demo) (PS args []) = Some (5%N, l)) ->
  reaches demo args d_anon args.
Proof.
  intros Hf [l Ho]. destruct (demo_typed args d_anon l Hf) as (ts & items & (bf & c & af & ps & Hcs & Hb & Hm & Hs & _) & _).
  - do 20 right. left. reflexivity.
  - exact Ho.
  - exists bf, c, af, ps. split; [exact Hcs|]. split; [exact Hb|]. split; [exact Hm|].
    pose proof Hs as Hs'.
    assert (Hc : In c (n_children demo)) by (rewrite Hcs; apply in_elt).
    assert (Hcd : c = d_anon).
    { apply selects_below in Hs as [Hs _]; [|easy]. clear - Hc Hs.
      assert (E : existsb (fun x => N.eqb (n_id x) 5) (below c) = true).
      { apply existsb_exists. exists d_anon. split; [exact Hs|reflexivity]. }
      repeat destruct Hc as [<-|Hc]; try contradiction; try reflexivity; vm_compute in E; discriminate E. }
    subst c. inversion Hs' as [m0 ps0 ts0 Hn E1 E2 E3 E4 E5 E6|m0 ps0 ts0 rest Hn|m0 ps0 ts0 rest bf0 c0 af0 m1 ps1 ts1 Hn];
      [now subst| |]; destruct Hn as (_ & s & Hn & _); discriminate Hn.
Qed.

Example c10_example :
  fresh demo [] (dashed (List.concat ex_ba) :: ex_rest) /\ fresh demo [] (map dashed ex_ba ++ ex_rest)
  /\ reaches demo (dashed (List.concat ex_ba) :: ex_rest) d_anon (dashed (List.concat ex_ba) :: ex_rest)
  /\ reaches demo (map dashed ex_ba ++ ex_rest) d_anon (map dashed ex_ba ++ ex_rest)
  /\ flag_group d_anon ex_ba /\ small (map dashed ex_ba ++ ex_rest)
  /\ calls_router demo [] (dashed (List.concat ex_ba) :: ex_rest) d_anon
       [VBool true; VBool true; VList [VStr (b "x"); VStr (b "y")]].
Proof.
  assert (H1 : fresh demo [] (dashed (List.concat ex_ba) :: ex_rest)) by (apply demo_fresh; [discriminate|vm_compute; reflexivity]).
  assert (H2 : fresh demo [] (map dashed ex_ba ++ ex_rest)) by (apply demo_fresh; [discriminate|vm_compute; reflexivity]).
  split; [exact H1|]. split; [exact H2|].
  split; [apply anon_reaches; [exact H1|eexists; vm_compute; reflexivity]|].
  split; [apply anon_reaches; [exact H2|eexists; vm_compute; reflexivity]|].
  split; [exact anon_group|]. split; [vm_compute; discriminate|].
  apply demo_calls; [do 20 right; left; reflexivity|vm_compute; reflexivity].
Qed.

(** ** C58 *)

(** In a group with other letters behind the flags, the flags are read as if each was typed, and the other letters as tokens
    of their own that are not preceded by "-".  Missing: that these mean the same as if they were typed with it, which is
    false, see below. *)
Theorem c58_leading_partial : forall r m gs hs us done items, accepted r = true -> In m (below r) -> is_mode m = true ->
  distinct_types m -> leading_group m gs hs -> small (map dashed (gs ++ hs) ++ us) ->
  reading m done (dashed (List.concat (gs ++ hs)) :: us) items <-> reading m done (map dashed gs ++ map (Tok PShort) hs ++ us) items.
Proof. exact (fun r m gs hs us done items Ha Hin Hm Hd Hg Hs => leading_reading r m Ha Hin Hm Hd gs hs us Hg Hs done items). Qed.
Print Assumptions c58_leading_partial.

(** "-at" of the demo: a flag, and a letter that is none. *)
Example c58_example :
  leading_group d_anon [b "a"] [b "t"] /\ dashed (List.concat ([b "a"] ++ [b "t"])) = Tok PNone (b "-at")
  /\ small (map dashed ([b "a"] ++ [b "t"]) ++ []) /\ calls_of demo [] [b "-at"] <> [].
Proof.
  split; [|split; [reflexivity|split; [vm_compute; discriminate|vm_compute; discriminate]]].
  assert (Hl : forall f, letter d_anon (b "a") f -> f = d_all).
  { intros f [ (bf & i & af & He & _) Hn _ _ ].
    assert (Hin : In (i, f) (entries d_anon)) by (rewrite He; apply in_elt).
    repeat destruct Hin as [Hin|Hin]; try contradiction; injection Hin as <- <-; try (cbn in Hn; discriminate Hn). reflexivity. }
  constructor.
  - discriminate.
  - vm_compute. reflexivity.
  - intros g [<-|[]]. exists d_all. constructor; try reflexivity; [|discriminate].
    exists [], 0, [(1, d_brief); (2, d_names)]. split; [reflexivity|]. intros j k [].
  - intros bf g af f E Haf _. exfalso. destruct bf as [|x bf]; [|now destruct bf]. injection E as <- <-. now apply Haf.
  - intros f Hf. rewrite (Hl f Hf). repeat (first [left; reflexivity|right]).
  - intros g Hg. constructor.
    + repeat destruct Hg as [<-|Hg]; try contradiction; reflexivity.
    + intros l (c & Hc & _ & Hl'). repeat destruct Hc as [<-|Hc]; try contradiction;
        repeat destruct Hl' as [<-|Hl']; try contradiction; discriminate.
    + intros l sep c (d & Hc & _ & Hl'). repeat destruct Hc as [<-|Hc]; try contradiction;
        repeat destruct Hl' as [<-|Hl']; try contradiction; discriminate.
Qed.

(** Not so if one of the letters is no flag: it loses its "-". *)
Theorem c58_other_letter_refuted : exists r a g us, accepted r = true
  /\ calls_of r [] ((short_prefix ++ a ++ g) :: us) <> []
  /\ calls_of r [] ((short_prefix ++ a) :: (short_prefix ++ g) :: us) <> []
  /\ calls_of r [] ((short_prefix ++ a ++ g) :: us) <> calls_of r [] ((short_prefix ++ a) :: (short_prefix ++ g) :: us).
Proof.
  exists demo, (b "a"), (b "t"), []. split; [vm_compute; reflexivity|].
  split; [vm_compute; discriminate|]. split; [vm_compute; discriminate|vm_compute; discriminate].
Qed.
Print Assumptions c58_other_letter_refuted.

(** ** C13 *)

(** An argument with a one-byte separator takes one token, which is split at the first separator: neither
    a missing separator nor an empty value is accepted. *)
Theorem c13_split : forall m done t us it items c, reading m done (t :: us) (it :: items) ->
  is_named (i_node it) = true -> value_separator (i_node it) = Some [c] -> ~ In PShortFormExpander (n_pols (i_node it)) ->
  count_bounds (i_node it) = Some (1, 1)%N -> token_end_marker (i_node it) = None ->
  exists p nm w i, t = Tok p (nm ++ c :: w) /\ ~ In c nm /\ w <> []
    /\ i_label it = Some (norm_token (i_node it) (Tok p nm)) /\ match_node (i_node it) (norm_token (i_node it) (Tok p nm)) = true
    /\ i_values it = [Tok PNone w] /\ reading m ((i, i_node it) :: done) us items.
Proof. exact reading_separator. Qed.
Print Assumptions c13_split.

Example c13_example :
  is_named d_owner = true /\ value_separator d_owner = Some (b "=") /\ ~ In PShortFormExpander (n_pols d_owner)
  /\ count_bounds d_owner = Some (1, 1)%N /\ token_end_marker d_owner = None
  /\ option_map (fun vs => nth 3 vs (VBool false)) (values_of ["copy"; "--width"; "1"; "--owner=a=b"]%string) = Some (VStr (b "a=b"))
  /\ error_of ["copy"; "--width"; "1"; "--owner"; "me"]%string = Some missing_value_separator
  /\ option_map (fun vs => nth 3 vs (VBool false)) (values_of ["copy"; "--width"; "1"; "--owner="]%string) = Some (VStr [])
  /\ option_map (fun vs => nth 8 vs (VBool false)) (values_of ["copy"; "--width"; "1"; "--owner="]%string) = Some (VList [VStr (b "--owner=")]).
Proof.
  split; [reflexivity|]. split; [reflexivity|].
  split; [intros H; repeat destruct H as [H|H]; try discriminate; contradiction|].
  repeat split; vm_compute; reflexivity.
Qed.

(** ** C14 *)

(** Any separator works if no byte of it occurs in the label: the label is what is before it and the value
    what is after it.  Missing: labels that share a byte with the separator, see the theorems below. *)
Theorem c14_split_partial : forall m done p nm sep w us it items,
  reading m done (Tok p (nm ++ sep ++ w) :: us) (it :: items) ->
  is_named (i_node it) = true -> value_separator (i_node it) = Some sep -> ~ In PShortFormExpander (n_pols (i_node it)) ->
  count_bounds (i_node it) = Some (1, 1)%N -> token_end_marker (i_node it) = None ->
  sep <> [] -> (forall d, In d sep -> ~ In d nm) ->
  w <> [] /\ i_label it = Some (norm_token (i_node it) (Tok p nm)) /\ match_node (i_node it) (norm_token (i_node it) (Tok p nm)) = true
  /\ i_values it = [Tok PNone w] /\ exists i, reading m ((i, i_node it) :: done) us items.
Proof. exact reading_separator_whole. Qed.
Print Assumptions c14_split_partial.

(** What happens with every separator: the token is split at the first byte that is one of the bytes of the
    separator, and as many bytes are dropped as the separator has. *)
Theorem c14_bytes : forall m done t us it items sep,
  reading m done (t :: us) (it :: items) ->
  is_named (i_node it) = true -> value_separator (i_node it) = Some sep -> ~ In PShortFormExpander (n_pols (i_node it)) ->
  count_bounds (i_node it) = Some (1, 1)%N -> token_end_marker (i_node it) = None ->
  exists p nm c s w i, t = Tok p (nm ++ (c :: s) ++ w) /\ In c sep /\ List.length (c :: s) = List.length sep
    /\ (forall d, In d sep -> ~ In d nm) /\ w <> []
    /\ i_label it = Some (norm_token (i_node it) (Tok p nm)) /\ match_node (i_node it) (norm_token (i_node it) (Tok p nm)) = true
    /\ i_values it = [Tok PNone w] /\ reading m ((i, i_node it) :: done) us items.
Proof. exact reading_separator_bytes. Qed.
Print Assumptions c14_bytes.

Example c14_example :
  let args := to_tokens [b "run"; b "--name" ++ q_acute ++ b "va" ++ q_acute] in
  is_named q_sep = true /\ value_separator q_sep = Some q_acute /\ ~ In PShortFormExpander (n_pols q_sep)
  /\ count_bounds q_sep = Some (1, 1)%N /\ token_end_marker q_sep = None /\ q_acute <> []
  /\ (forall d, In d q_acute -> ~ In d (b "--name"))
  /\ exists m ts items, typed sep_tool args m ts items
       /\ map (fun a => (n_id (fst a), snd a)) (flat_map (assigned m) items) = [(6%N, [Tok PNone (b "va" ++ q_acute)])].
Proof.
  cbv zeta. split; [reflexivity|]. split; [reflexivity|].
  split; [intros H; repeat destruct H as [H|H]; try discriminate; contradiction|].
  split; [reflexivity|]. split; [reflexivity|]. split; [discriminate|].
  split; [intros d [<-|[<-|[]]] H; repeat destruct H as [H|H]; try discriminate; contradiction|].
  destruct (offer_typed sep_tool [] (to_tokens [b "run"; b "--name" ++ q_acute ++ b "va" ++ q_acute])) with (id := 100%N)
    (l := [(6%N, [Tok PNone (b "va" ++ q_acute)])]) as (m & ts & items & H1 & _ & H2).
  - constructor; [apply well_formed_b_spec; vm_compute; reflexivity|intros inst _; reflexivity|vm_compute; reflexivity|left; discriminate].
  - vm_compute. reflexivity.
  - now exists m, ts, items.
Qed.

(** With a separator that is one character of two bytes (U+00E9) the split is also made at another character
    that shares a byte with it (U+00E0), *)
Theorem c14_wrong_character_refuted : exists r n sep name other v, accepted r = true /\ In n (below r)
  /\ long_name n = Some name /\ value_separator n = Some sep /\ graphemes sep = Some [sep] /\ graphemes other = Some [other]
  /\ other <> sep
  /\ calls_of r [] [b "run"; long_prefix ++ name ++ other ++ v] = [(100%N, [VStr v])].
Proof.
  exists sep_tool, q_sep, q_acute, (b "name"), (byte_str [195; 160]%N), (b "va").
  split; [vm_compute; reflexivity|]. split; [right; right; left; reflexivity|].
  split; [reflexivity|]. split; [reflexivity|]. split; [vm_compute; reflexivity|]. split; [vm_compute; reflexivity|].
  split; [discriminate|vm_compute; reflexivity].
Qed.
Print Assumptions c14_wrong_character_refuted.

(** and a token that ends in the first byte of the separator makes std::out_of_range escape. *)
Theorem c14_foreign_exception_refuted : exists r argv, accepted r = true
  /\ ends_in r [] argv = Throw EOutOfRange.
Proof. exists sep_tool, [b "run"; b "--name" ++ byte_str [195]%N]. split; vm_compute; reflexivity. Qed.
Print Assumptions c14_foreign_exception_refuted.

(** ** C15 *)

(** A positional argument with an end marker gets exactly the tokens before the first marker, or all if there is
    none; the tokens after the marker are for the other arguments.  This is so if the maximum count is unbounded
    or the marker is not the very first token. *)
Theorem c15_marker : forall m done ts it items mk, reading m done ts (it :: items) ->
  is_named (i_node it) = false -> token_end_marker (i_node it) = Some mk ->
  ((exists mn mx, count_bounds (i_node it) = Some (mn, mx) /\ (9223372036854775808 < mx)%N)
   \/ (forall p us, ts <> Tok p mk :: us)) ->
  (forall u, In u (i_values it) -> t_name u <> mk)
  /\ ((exists p rest i, ts = i_values it ++ Tok p mk :: rest /\ reading m ((i, i_node it) :: done) rest items)
      \/ ts = i_values it /\ items = []).
Proof. exact reading_marker. Qed.
Print Assumptions c15_marker.

Example c15_example :
  is_named d_src = false /\ token_end_marker d_src = Some (b "--")
  /\ (exists ts items, typed demo ex1 d_copy ts items
        /\ map by_id (flat_map (assigned d_copy) items)
           = [(16, toks ["5"]); (11, []); (10, []); (11, []); (13, toks ["me"]); (21, toks ["a"; "b"]); (22, toks ["c"])]%N%string)
  /\ option_map (skipn 8) (values_of ["copy"; "--width"; "1"; "--"; "d"]%string) = Some [VList []; VStr (b "d")].
Proof. split; [reflexivity|]. split; [reflexivity|]. split; [exact ex1_assigned|vm_compute; reflexivity]. Qed.

(** In the remaining case, a bounded maximum and the marker in front, the marker is dropped and the argument takes
    the tokens behind it, exactly as many as the maximum allows: *)
Theorem c15_front_marker : forall m done p us it items mk mx, reading m done (Tok p mk :: us) (it :: items) ->
  is_named (i_node it) = false -> token_end_marker (i_node it) = Some mk ->
  count_bounds (i_node it) = Some (0%N, mx) -> (mx <= 9223372036854775808)%N ->
  exists rest i, us = i_values it ++ rest /\ (nlen (i_values it) <= mx)%N /\ (rest <> [] -> nlen (i_values it) = mx)
    /\ reading m ((i, i_node it) :: done) rest items.
Proof. exact reading_front_marker. Qed.
Print Assumptions c15_front_marker.

Example c15_front_example :
  is_named q_some = false /\ token_end_marker q_some = Some (b "--") /\ count_bounds q_some = Some (0, 2)%N
  /\ exists m ts items, typed marker_tool (toks ["run"; "--"; "x"; "y"; "z"]%string) m ts items
     /\ map by_id (flat_map (assigned m) items) = [(7, toks ["x"; "y"]); (8, toks ["z"])]%N%string.
Proof.
  split; [reflexivity|]. split; [reflexivity|]. split; [reflexivity|].
  destruct (offer_typed marker_tool [] (toks ["run"; "--"; "x"; "y"; "z"]%string)) with (id := 100%N)
    (l := [(7, toks ["x"; "y"]); (8, toks ["z"])]%N%string) as (m & ts & items & H1 & _ & H2).
  - constructor; [apply well_formed_b_spec; vm_compute; reflexivity|intros inst []|vm_compute; reflexivity|left; discriminate].
  - vm_compute. reflexivity.
  - exists m, ts, items. split; [exact H1|exact H2].
Qed.

(** so that the claim is false there. *)
Theorem c15_bounded_refuted : exists r n k mk, accepted r = true /\ In n (below r) /\ In k (below r)
  /\ token_end_marker n = Some mk /\ count_bounds n = Some (0, 2)%N
  /\ calls_of r [] [b "run"; mk; b "x"; b "y"] = [(100%N, [VList [VStr (b "x"); VStr (b "y")]; VList []])].
Proof.
  exists marker_tool, q_some, q_rest, (b "--"). split; [vm_compute; reflexivity|].
  split; [right; right; left; reflexivity|]. split; [right; right; right; left; reflexivity|].
  split; [reflexivity|]. split; [reflexivity|vm_compute; reflexivity].
Qed.
Print Assumptions c15_bounded_refuted.

(** ** C22 *)

(** The policies take part in descending order of priority; *)
Theorem c22_descending : forall ps, Permutation (priority_order ps) ps
  /\ forall before p between q after, priority_order ps = before ++ p :: between ++ q :: after -> (priority q <= priority p)%N.
Proof. exact priority_descending. Qed.
Print Assumptions c22_descending.

(** so the order in which the policies of a node are declared does not matter. *)
Theorem c22_any_order : forall k id ty ps ps' cs parents pt v s,
  Permutation ps ps' -> NoDup (map pol_tag ps) -> distinct_priorities ps ->
  (forall ns, In (PAlias ns) ps -> ~ In PRouter ps) ->
  v (Node k id ty ps cs) = v (Node k id ty ps' cs) ->
  visible (node_pre_parse (Node k id ty ps cs) parents pt v s)
  = visible (node_pre_parse (Node k id ty ps' cs) parents pt v s).
Proof. exact node_pre_parse_perm. Qed.
Print Assumptions c22_any_order.

Example c22_example :
  let ps := [PLongName (b "owner"); PMinMaxCount 1 1; PValueSeparator (b "="); PRuntimeEnable true] in
  let ps' := [PMinMaxCount 1 1; PRuntimeEnable true; PValueSeparator (b "="); PLongName (b "owner")] in
  Permutation ps ps' /\ NoDup (map pol_tag ps) /\ distinct_priorities ps /\ (forall ns, In (PAlias ns) ps -> ~ In PRouter ps)
  /\ always_true (Node (KArg AArg) 1 str ps []) = always_true (Node (KArg AArg) 1 str ps' [])
  /\ visible (node_pre_parse (Node (KArg AArg) 1 str ps []) [] None always_true (PS (toks ["--owner=me"; "x"]%string) []))
     = (PS (toks ["x"%string]) [], Ok (Some ([], [Tok PNone (b "me")], []))).
Proof.
  intros ps ps'. split; [|split; [|split; [|split; [|split]]]].
  - unfold ps, ps'. apply (Permutation_cons_app [_; _; _] [] (PLongName (b "owner"))). cbn [app]. apply perm_skip. apply perm_swap.
  - apply nodup_n_spec. vm_compute. reflexivity.
  - apply nodup_n_spec. vm_compute. reflexivity.
  - intros ns H. repeat destruct H as [H|H]; try discriminate; contradiction.
  - reflexivity.
  - vm_compute. reflexivity.
Qed.

(** ** C45 *)

(** In a tree that compiles, no two arguments of a mode have the same name, *)
Theorem c45_names : forall r m l k t, accepted r = true -> In m (below r) -> is_mode m = true -> distinct_types m ->
  argument_of m l -> argument_of m k -> match_node l t = true -> match_node k t = true -> l = k.
Proof.
  exact (fun r m l k t Ha Hi Hm Hd Hl Hk Ml Mk =>
           names_unique r m l k t Ha Hi Hm Hd Hl Hk (match_names l t Ml) (match_names k t Mk)).
Qed.
Print Assumptions c45_names.

(** and a label as it is typed is for one of them. *)
Theorem c45_labels : forall r m l k t, accepted r = true -> In m (below r) -> is_mode m = true -> distinct_types m ->
  clear_names m -> argument_of m l -> argument_of m k ->
  match_node l (norm_token l t) = true -> match_node k (norm_token k t) = true -> l = k.
Proof. exact label_unique. Qed.
Print Assumptions c45_labels.

Example c45_example :
  accepted demo = true /\ In d_copy (below demo) /\ is_mode d_copy = true /\ distinct_types d_copy
  /\ clear_names d_copy /\ argument_of d_copy d_zip
  /\ match_node d_zip (norm_token d_zip (Tok PNone (b "--zip"))) = true.
Proof.
  split; [vm_compute; reflexivity|]. split; [right; right; right; left; reflexivity|]. split; [reflexivity|].
  split; [apply nodup_n_spec; vm_compute; reflexivity|]. split.
  - intros l k s s' (c & Hc & _ & Hl) _ Hn. exfalso.
    repeat destruct Hc as [<-|Hc]; try contradiction; repeat destruct Hl as [<-|Hl]; try contradiction; discriminate Hn.
  - split; [|vm_compute; reflexivity]. exists d_pack. split; [do 7 right; left; reflexivity|]. split; [reflexivity|].
    right. left. reflexivity.
Qed.

(** ** C57 *)

(** Without [distinct_types]: two declarations of the same C++ type under one parent are taken for one. *)
Theorem c57_same_type_refuted : exists r m l, accepted r = true /\ n_children r = [m] /\ n_children m = [l; l]
  /\ long_name l = Some (b "xx") /\ calls_of r [] (map b ["run"; "--xx"; "1"]%string) = [(n_id m, [VInt 1; VInt 0])].
Proof.
  exists twice_tool, (mode 100 [PNoneName (b "run"); PRouter] [q_x; q_x]), q_x.
  split; [vm_compute; reflexivity|]. split; [reflexivity|]. split; [reflexivity|]. split; [reflexivity|vm_compute; reflexivity].
Qed.
Print Assumptions c57_same_type_refuted.

(** The rule does not cover modes: two sibling modes may have the same name, and the second is out of reach. *)
Theorem c57_modes_refuted : exists r c d, accepted r = true /\ n_children r = [c; d]
  /\ is_mode c = true /\ is_mode d = true /\ none_name c = none_name d /\ n_id c <> n_id d
  /\ forall t, match_node c t = match_node d t.
Proof.
  exists modes_tool, (mode 100 [PNoneName (b "run"); PRouter] [q_a]), (mode 101 [PNoneName (b "run"); PRouter] [q_b]).
  split; [vm_compute; reflexivity|]. repeat split; try reflexivity. discriminate.
Qed.
Print Assumptions c57_modes_refuted.

(** Without [clear_names]: the name of a forwarding argument may be the text of a label. *)
Theorem c57_forwarding_refuted : exists r m l k s, accepted r = true /\ n_children r = [m] /\ n_children m = [l; k]
  /\ match_node l (norm_token l (Tok PNone s)) = true /\ match_node k (norm_token k (Tok PNone s)) = true
  /\ n_id l <> n_id k.
Proof.
  exists forward_tool, (mode 100 [PNoneName (b "run"); PRouter] [q_x; q_forward]), q_x, q_forward, (b "--xx").
  split; [vm_compute; reflexivity|]. repeat split; try reflexivity; discriminate.
Qed.
Print Assumptions c57_forwarding_refuted.

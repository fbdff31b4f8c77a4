(** Example trees used by the examples that accompany the theorems. *)
From Verif Require Import Bytes Token Result CodePoint Utf8 Tree PreParse Parse Root Build Validator.
From Verif Require Import SpecTake SpecMode SpecDeliver SpecRoot SpecReading SpecClaims MeaningProofs RootProofs ReadProofs ExactProofs ClaimProofs.

(** A value type for the examples: decimal numerals. *)
Fixpoint digits (s : bytes) (acc : Z) : option Z :=
  match s with
  | [] => Some acc
  | c :: s' =>
      let d := Z.of_N (N_of_ascii c) in
      if (Z.leb 48 d && Z.leb d 57)%bool then digits s' (acc * 10 + (d - 48))%Z else None
  end.
Definition num_parse (s : bytes) : res value :=
  match s, digits s 0 with
  | _ :: _, Some z => Ok (VInt z)
  | _, _ => Throw (EML failed_to_parse [Tok PNone s])
  end.
Definition num : vtype := VT false num_parse (VInt 0).
Definition str : vtype := VT false (fun s => Ok (VStr s)) (VStr []).
Definition strs : vtype := VT true (fun s => Ok (VStr s)) (VList []).
Definition int_lt (x y : value) : bool :=
  match x, y with VInt a, VInt c => Z.ltb a c | _, _ => false end.

(** A file utility.  The modes: "copy SRC... DST"-like with many kinds of options, "remote add", and an
    anonymous mode. *)
Definition d_help := help 1 [PLongName (b "help"); PShortName (b "h")].
Definition d_version := flag 2 [PLongName (b "version"); PRouter].

Definition d_force := flag 10 [PLongName (b "force"); PShortName (b "f")].
Definition d_verbose := counting_flag (to_unsigned 64) 11 [PLongName (b "verbose"); PShortName (b "v")].
Definition d_depth := arg num 12 [PLongName (b "depth"); PDefaultValue (VInt 3); PMinMaxValue (Some (VInt 1)) (Some (VInt 9)) int_lt].
Definition d_owner := arg str 13 [PLongName (b "owner"); PShortName (b "o"); PValueSeparator (b "=")].
Definition d_group := arg str 14 [PLongName (b "group"); PDependent [NLong (b "force")]].
Definition d_both := arg num 15 [PLongName (b "both"); PAlias [NLong (b "depth"); NLong (b "width")]].
Definition d_width := arg num 16 [PLongName (b "width"); PRequired].
Definition d_zip := arg num 18 [PLongName (b "zip")].
Definition d_tar := flag 19 [PLongName (b "tar"); PShortName (b "t")].
Definition d_pack := one_of 1 num 17 [PDefaultValue (VInt 7)] [d_zip; d_tar].
Definition d_old := flag 20 [PLongName (b "old"); PRuntimeEnable false].
Definition d_src := positional_arg strs 21 [PDisplayName (b "SRC"); PTokenEndMarker (b "--")].
Definition d_dst := positional_arg str 22 [PDisplayName (b "DST"); PMinMaxCount 1 1].
Definition d_copy := mode 3 [PNoneName (b "copy"); PRouter]
  [d_force; d_verbose; d_depth; d_owner; d_group; d_both; d_width; d_pack; d_old; d_src; d_dst].

Definition d_url := positional_arg str 31 [PDisplayName (b "URL"); PRequired; PMinMaxCount 1 1].
Definition d_add := mode 30 [PNoneName (b "add"); PRouter] [d_url].
Definition d_remote := mode 4 [PNoneName (b "remote")] [d_add].

Definition d_all := flag 40 [PLongName (b "all"); PShortName (b "a")].
Definition d_brief := flag 41 [PLongName (b "brief"); PShortName (b "b")].
Definition d_names := positional_arg strs 42 [PDisplayName (b "NAMES")].
Definition d_anon := mode 5 [PRouter] [d_all; d_brief; d_names].

Definition demo : node := root [] [d_help; d_version; d_copy; d_remote; d_anon].

(** ** The hypotheses of the theorems as computations *)

Fixpoint nodup_n (l : list N) : bool :=
  match l with
  | [] => true
  | x :: l' => negb (existsb (N.eqb x) l') && nodup_n l'
  end.

Lemma nodup_n_spec l : nodup_n l = true -> NoDup l.
Proof.
  induction l as [|x l IH]; cbn; intros H; [constructor|]. apply andb_true_iff in H as [H1 H2].
  constructor; [|now apply IH]. intros Hin. apply negb_true_iff in H1.
  assert (existsb (N.eqb x) l = true); [|congruence]. apply existsb_exists. exists x. split; [easy|apply N.eqb_refl].
Qed.

Definition is_alias_policy (p : policy) : bool := match p with PAlias _ => true | _ => false end.
Definition is_dependent_policy (p : policy) : bool := match p with PDependent _ => true | _ => false end.

Definition sane_b (n : node) : bool :=
  (is_named n || match value_separator n with Some _ => false | None => true end)
  && negb (existsb is_alias_policy (n_pols n) && existsb is_dependent_policy (n_pols n)).

Lemma sane_b_spec n : sane_b n = true -> sane n.
Proof.
  unfold sane_b, sane. intros H. apply andb_true_iff in H as [H1 H2]. split.
  - apply orb_true_iff in H1 as [H1|H1]; [now left|right]. now destruct (value_separator n).
  - intros ns ns' Ha Hd. apply negb_true_iff in H2. apply andb_false_iff in H2 as [H2|H2].
    + assert (existsb is_alias_policy (n_pols n) = true); [|congruence]. apply existsb_exists. eexists. split; [exact Ha|easy].
    + assert (existsb is_dependent_policy (n_pols n) = true); [|congruence]. apply existsb_exists. eexists. split; [exact Hd|easy].
Qed.

Definition well_formed_b (r : node) : bool :=
  accepted r
  && forallb (fun m => negb (is_mode m) || negb (is_some (count_bounds m)) && nodup_n (map n_id (below m))) (below r)
  && forallb (fun l => negb (is_argument l) || sane_b l) (below r)
  && nodup_n (flat_map one_of_object (below r)).

Lemma well_formed_b_spec r : well_formed_b r = true -> well_formed r.
Proof.
  unfold well_formed_b. intros H.
  apply andb_true_iff in H as [H H4]. apply andb_true_iff in H as [H H3]. apply andb_true_iff in H as [H1 H2].
  rewrite forallb_forall in H2, H3. constructor.
  - easy.
  - intros m Hm Hk. specialize (H2 m Hm). rewrite Hk in H2. apply andb_true_iff in H2 as [H2 _].
    now destruct (count_bounds m).
  - intros m Hm Hk. specialize (H2 m Hm). rewrite Hk in H2. apply andb_true_iff in H2 as [_ H2].
    now apply nodup_n_spec.
  - intros l Hl Hk. specialize (H3 l Hl). rewrite Hk in H3. now apply sane_b_spec.
  - now apply nodup_n_spec.
Qed.

Lemma demo_well_formed : well_formed demo.
Proof. apply well_formed_b_spec. vm_compute. reflexivity. Qed.

(** A command line of the demo. *)
Definition run (args : list string) : outcome := root_parse_strings demo [] (map b args).
Definition result (o : outcome) := (o_events o, o_res o).

Lemma demo_fresh args : args <> [] -> fits args -> fresh demo [] args.
Proof. intros H1 H2. constructor; [exact demo_well_formed|intros inst _; reflexivity|exact H2|left; exact H1]. Qed.

(** The objects of the demo have different types, so the calls can be told apart by them. *)
Definition called (o : outcome) : option (N * list value) :=
  match o_events o with [EvRoute n vs] => Some (n_id n, vs) | _ => None end.

Lemma demo_ids : NoDup (map n_id (below demo)).
Proof. apply nodup_n_spec. vm_compute. reflexivity. Qed.

Lemma demo_calls args n vs : In n (below demo) -> called (root_parse demo [] args) = Some (n_id n, vs) ->
  calls_router demo [] args n vs.
Proof.
  intros Hn H. pose proof (root_calls demo [] args (wf_accepted _ demo_well_formed)) as Hc. cbn zeta in Hc.
  unfold calls_router, called in *. destruct (o_events (root_parse demo [] args)) as [|[n' vs'|h t f] [|e2 es]] eqn:E;
    try discriminate.
  injection H as Hid <-. left. f_equal.
  destruct (o_res (root_parse demo [] args)); try discriminate.
  - destruct Hc as (k & e & Hk & He & [(w & -> & _)|(h & f & ->)]); [|discriminate].
    injection He as <- <-. now apply (nodup_map_inj n_id (below demo) demo_ids).
  - destruct Hc as [Hc|(k & h & f & Hc)]; discriminate.
Qed.

(** ** Reading off what was typed, for the examples *)

(** The mode that takes the command line, and what was assigned to its arguments; nodes by their type. *)
Fixpoint offer (fuel : nat) (r : node) (cs : list node) (s : pst) : option (N * list (N * list token)) :=
  match cs with
  | [] => None
  | c :: cs' =>
      match pre_parse fuel c [r] None always_true s with
      | (s', Ok None) => offer fuel r cs' s'
      | (_, Ok (Some t)) =>
          if is_mode c then Some (n_id (tg_node t), map (fun u => (n_id (tg_node u), tg_toks u)) (tg_subs t)) else None
      | _ => None
      end
  end.

Lemma offer_typed r mem args : fresh r mem args -> forall id l,
  offer (root_fuel args) r (n_children r) (PS args mem) = Some (id, l) ->
  exists m ts items, typed r args m ts items /\ n_id m = id
    /\ map (fun a => (n_id (fst a), snd a)) (flat_map (assigned m) items) = l.
Proof.
  intros [[Ha Hcm Hdm Hsane Hdo] Hun Hf Hne] id l.
  assert (G : forall cs before, n_children r = before ++ cs -> (forall d, In d before -> passed_over args d) ->
    offer (root_fuel args) r cs (PS args mem) = Some (id, l) ->
    exists m ts items, typed r args m ts items /\ n_id m = id
    /\ map (fun a => (n_id (fst a), snd a)) (flat_map (assigned m) items) = l).
  2:{ intros H. now apply (G (n_children r) []). }
  induction cs as [|c cs IH]; intros before Hcs Hb; cbn [offer]; [discriminate|].
  assert (Hc : In c (n_children r)) by (rewrite Hcs; apply in_elt).
  destruct (is_mode c) eqn:Em.
  - destruct (mode_typed r c (root_fuel args) (PS args mem) Ha Hcm Hdm Hsane Hdo Hun Hc Em Hf (le_n _))
      as [(m & ps & ts & items & Hsel & Hrd & mem' & t & -> & Hn & Hs & _)|[[Hp ->]|(s' & x & -> & Hx & _)]].
    + intros H. injection H as Hi Hl. exists m, ts, items. split.
      * exists before, c, cs, ps. easy.
      * split; [congruence|]. rewrite <- Hs, <- Hl, map_map. now apply map_ext.
    + apply (IH (before ++ [c])); [now rewrite <- app_assoc|]. intros d Hd. apply in_app_iff in Hd as [Hd|[<-|[]]]; auto.
    + destruct x as [o| | | |]; try discriminate. now destruct (Hx o).
  - pose proof (top_leaf_exact r c (root_fuel args) (PS args mem) Ha Hsane Hc Em Hne Hf) as HR. cbn [p_args] in HR.
    destruct HR as [Hp|mem' t n vs x Hme Hex|mem' lb vs Hnp|s' t x Hnp|s' y x Hnp Hnm _ Hx]; try discriminate.
    + apply (IH (before ++ [c])); [now rewrite <- app_assoc|]. intros d Hd. apply in_app_iff in Hd as [Hd|[<-|[]]]; auto.
    + destruct y as [o| | | |]; try discriminate. easy.
Qed.

Lemma demo_typed args m l : fresh demo [] args -> In m (below demo) ->
  offer (root_fuel args) demo (n_children demo) (PS args []) = Some (n_id m, l) ->
  exists ts items, typed demo args m ts items /\ map (fun a => (n_id (fst a), snd a)) (flat_map (assigned m) items) = l.
Proof.
  intros Hf Hm H. destruct (offer_typed demo [] args Hf _ _ H) as (m' & ts & items & Ht & Hi & Hl).
  destruct (typed_mode _ _ _ _ _ Ht) as [Hm' _]. apply (nodup_map_inj n_id (below demo) demo_ids) in Hi; auto. subst m'. eauto.
Qed.

(** demo copy --width 5 -vfv --owner=me a b -- c *)
Definition ex1 : list token :=
  to_tokens (map b ["copy"; "--width"; "5"; "-vfv"; "--owner=me"; "a"; "b"; "--"; "c"]%string).
Definition ex1_values : list value :=
  [VBool true; VInt 2; VInt 3; VStr (b "me"); VStr []; VInt 5; VInt 7; VBool false;
   VList [VStr (b "a"); VStr (b "b")]; VStr (b "c")].
Lemma ex1_fresh : fresh demo [] ex1.
Proof. apply demo_fresh; [discriminate|vm_compute; reflexivity]. Qed.
Lemma ex1_run : calls_router demo [] ex1 d_copy ex1_values.
Proof. apply demo_calls; [right; right; right; left; reflexivity|vm_compute; reflexivity]. Qed.
Lemma ex1_typed : exists ts items, typed demo ex1 d_copy ts items.
Proof.
  destruct (called_typed demo [] ex1 d_copy ex1_values ex1_fresh ex1_run eq_refl) as (ts & items & H & _). eauto.
Qed.

(** demo copy --force --both 5 --group g --tar a: an alias for two arguments, a dependent argument and a
    one_of. *)
Definition ex2 : list token :=
  to_tokens (map b ["copy"; "--force"; "--both"; "5"; "--group"; "g"; "--tar"; "a"]%string).
Definition ex2_values : list value :=
  [VBool true; VInt 0; VInt 5; VStr []; VStr (b "g"); VInt 5; VBool true; VBool false;
   VList [VStr (b "a")]; VStr []].
Lemma ex2_fresh : fresh demo [] ex2.
Proof. apply demo_fresh; [discriminate|vm_compute; reflexivity]. Qed.
Lemma ex2_run : calls_router demo [] ex2 d_copy ex2_values.
Proof. apply demo_calls; [right; right; right; left; reflexivity|vm_compute; reflexivity]. Qed.

(** What a command line leads to, for the examples of rejected ones. *)
Definition error_of (args : list string) : option ecode :=
  match o_res (run args) with Throw (EML c _) => Some c | _ => None end.
Definition values_of (args : list string) : option (list value) :=
  match o_events (run args) with [EvRoute _ vs] => Some vs | _ => None end.

(** What was typed for a child, with the nodes by their type. *)
Definition by_id (a : node * list token) : N * list token := (n_id (fst a), snd a).
Definition picked (c : node) (l : list (N * list token)) : list (N * list token) :=
  filter (fun a => existsb (fun d => N.eqb (n_id d) (fst a)) (below c)) l.

Lemma occurrences_picked m c items l : map by_id (flat_map (assigned m) items) = l ->
  map by_id (occurrences m c items) = picked c l.
Proof.
  intros <-. unfold occurrences, for_child, picked. generalize (flat_map (assigned m) items). intros asg.
  induction asg as [|a asg IH]; [easy|]. cbn [map filter]. unfold belongs at 1.
  change (fst (by_id a)) with (n_id (fst a)). destruct (existsb _ (below c)); cbn [map]; now rewrite IH.
Qed.

Definition toks (l : list string) : list token := to_tokens (map b l).

Lemma ex1_assigned : exists ts items, typed demo ex1 d_copy ts items
  /\ map by_id (flat_map (assigned d_copy) items)
     = [(16, toks ["5"]); (11, []); (10, []); (11, []); (13, toks ["me"]); (21, toks ["a"; "b"]); (22, toks ["c"])]%N%string.
Proof. apply demo_typed; [exact ex1_fresh|right; right; right; left; reflexivity|vm_compute; reflexivity]. Qed.

Lemma ex2_assigned : exists ts items, typed demo ex2 d_copy ts items
  /\ map by_id (flat_map (assigned d_copy) items)
     = [(10, []); (12, toks ["5"]); (16, toks ["5"]); (14, toks ["g"]); (19, []); (21, toks ["a"])]%N%string.
Proof. apply demo_typed; [exact ex2_fresh|right; right; right; left; reflexivity|vm_compute; reflexivity]. Qed.

(** demo copy: a required argument is missing. *)
Definition ex3 : list token := toks ["copy"]%string.
Lemma ex3_fresh : fresh demo [] ex3.
Proof. apply demo_fresh; [discriminate|vm_compute; reflexivity]. Qed.
Lemma ex3_assigned : exists ts items, typed demo ex3 d_copy ts items /\ map by_id (flat_map (assigned d_copy) items) = [].
Proof. apply demo_typed; [exact ex3_fresh|right; right; right; left; reflexivity|vm_compute; reflexivity]. Qed.

(** demo copy --both 5 --width 6: the alias and one of its targets. *)
Definition ex4 : list token := toks ["copy"; "--both"; "5"; "--width"; "6"]%string.
Lemma ex4_fresh : fresh demo [] ex4.
Proof. apply demo_fresh; [discriminate|vm_compute; reflexivity]. Qed.
Lemma ex4_assigned : exists ts items, typed demo ex4 d_copy ts items
  /\ map by_id (flat_map (assigned d_copy) items) = [(12, toks ["5"]); (16, toks ["5"]); (16, toks ["6"])]%N%string.
Proof. apply demo_typed; [exact ex4_fresh|right; right; right; left; reflexivity|vm_compute; reflexivity]. Qed.

(** demo copy --width 5 --depth 12: a value out of range. *)
Definition ex5 : list token := toks ["copy"; "--width"; "5"; "--depth"; "12"]%string.
Lemma ex5_fresh : fresh demo [] ex5.
Proof. apply demo_fresh; [discriminate|vm_compute; reflexivity]. Qed.
Lemma ex5_assigned : exists ts items, typed demo ex5 d_copy ts items
  /\ map by_id (flat_map (assigned d_copy) items) = [(16, toks ["5"]); (12, toks ["12"])]%N%string.
Proof. apply demo_typed; [exact ex5_fresh|right; right; right; left; reflexivity|vm_compute; reflexivity]. Qed.

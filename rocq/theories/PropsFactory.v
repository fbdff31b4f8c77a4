(** C68: what the functions that make nodes add to the user's policies, and what follows from it; and the
    frame of the help page (C34). *)
From Verif Require Import Bytes Token Adapter Result CodePoint Utf8 Tree Levenshtein PreParse Parse Root Build Validator Help.
From Verif Require Import SpecTake SpecMode SpecDeliver SpecRoot SpecReading SpecClaims SpecRules SpecNode SpecFactory.
From Verif Require Import MeaningProofs RootProofs ReadProofs ExactProofs ClaimProofs RunProofs RulesProofs VocabProofs FactoryProofs.
From Verif Require Import Demo PropsRun PropsHelp.
Local Open Scope list_scope.

(** ** The added policies *)

(** A flag takes no values and is false by default; one with a short name can be grouped. *)
Theorem c68_flag : forall id ps, n_kind (flag id ps) = KFlag /\ n_children (flag id ps) = []
  /\ (given_kind ps k_short -> adds ps (flag id ps) [PDefaultValue (VBool false); PMinMaxCount 0 0; PShortFormExpander])
  /\ (~ given_kind ps k_short -> adds ps (flag id ps) [PDefaultValue (VBool false); PMinMaxCount 0 0]).
Proof.
  intros id ps. split; [reflexivity|]. split; [reflexivity|]. split; intros H p; unfold flag; cbn [n_pols In].
  - rewrite (with_expander_short ps p H). intuition congruence.
  - rewrite (with_expander_not ps p H). intuition congruence.
Qed.
Print Assumptions c68_flag.

Theorem c68_counting_flag : forall cast id ps,
  n_kind (counting_flag cast id ps) = KCountingFlag /\ n_children (counting_flag cast id ps) = []
  /\ (given_kind ps k_short ->
      adds ps (counting_flag cast id ps) [PMultiStage (counting_merge cast); PMinMaxCount 0 0; PShortFormExpander])
  /\ (~ given_kind ps k_short ->
      adds ps (counting_flag cast id ps) [PMultiStage (counting_merge cast); PMinMaxCount 0 0]).
Proof.
  intros cast id ps. split; [reflexivity|]. split; [reflexivity|]. split; intros H p; unfold counting_flag; cbn [n_pols In].
  - rewrite (with_expander_short ps p H). intuition congruence.
  - rewrite (with_expander_not ps p H). intuition congruence.
Qed.
Print Assumptions c68_counting_flag.

(** An arg takes one value.  The others take what the user says, or else any number from 1 or 0 on. *)
Theorem c68_args : forall ty id ps,
  (n_kind (arg ty id ps) = KArg AArg /\ adds ps (arg ty id ps) [PMinMaxCount 1 1])
  /\ (given_kind ps k_count -> adds ps (multi_arg ty id ps) [] /\ adds ps (positional_arg ty id ps) []
        /\ adds ps (forwarding_arg id ps) [])
  /\ (~ given_kind ps k_count -> adds ps (multi_arg ty id ps) [PMinMaxCount 1 (2 ^ 64 - 1)]
        /\ adds ps (positional_arg ty id ps) [PMinMaxCount 0 (2 ^ 64 - 1)]
        /\ adds ps (forwarding_arg id ps) [PMinMaxCount 0 (2 ^ 64 - 1)]).
Proof.
  intros ty id ps. split; [|split; intros H; (split; [|split])].
  - split; [reflexivity|]. intros p. unfold arg. cbn [n_pols In]. intuition congruence.
  - intros p. unfold multi_arg. cbn [n_pols In]. rewrite (add_count_given _ ps H). tauto.
  - intros p. unfold positional_arg. cbn [n_pols In]. rewrite (add_count_given _ ps H). tauto.
  - intros p. unfold forwarding_arg. cbn [n_pols In]. rewrite (add_count_given _ ps H). tauto.
  - intros p. unfold multi_arg. cbn [n_pols]. rewrite (add_count_not _ ps p H). cbn [In]. clear. intuition congruence.
  - intros p. unfold positional_arg. cbn [n_pols]. rewrite (add_count_not _ ps p H). cbn [In]. clear. intuition congruence.
  - intros p. unfold forwarding_arg. cbn [n_pols]. rewrite (add_count_not _ ps p H). cbn [In]. clear. intuition congruence.
Qed.
Print Assumptions c68_args.

(** A group without a display name gets one, and its error name lists the members. *)
Theorem c68_groups : forall r g parents inst ty id ps cs start, accepted r = true -> placed r g parents ->
  (g = alias_group ty id ps cs /\ start = b "Alias Group: ") \/ (g = one_of inst ty id ps cs /\ start = b "One of: ") ->
  n_children g = cs
  /\ (~ given_kind ps k_display -> exists names, joined cs names
        /\ adds ps g [PDisplayName start; PErrorName (start ++ names)])
  /\ (forall d, In (PDisplayName d) ps -> exists names, joined cs names /\ adds ps g [PErrorName (d ++ names)]).
Proof.
  intros r g parents inst ty id ps cs start Ha Hp Hg.
  assert (Hk : n_kind g = KAliasGroup \/ exists i, n_kind g = KOneOf i).
  { destruct Hg as [[-> _]|[-> _]]; [now left|right; now exists inst]. }
  assert (Hc : n_children g = cs) by (destruct Hg as [[-> _]|[-> _]]; reflexivity).
  assert (Hps : n_pols g = add_names start ps cs) by (destruct Hg as [[-> ->]|[-> ->]]; reflexivity).
  destruct (group_names r g parents Ha Hp Hk) as [Hne Hall]. rewrite Hc in Hne, Hall.
  assert (Hu : uniq g) by (apply accepted_compiles in Ha; apply (proj2 Ha g parents Hp)).
  assert (Hj : joined cs (join_names cs)) by now apply joined_names.
  split; [exact Hc|]. split.
  - intros Hn. exists (join_names cs). split; [exact Hj|]. intros p. rewrite Hps. unfold add_names.
    destruct (has_display ps) as [d|] eqn:E.
    + exfalso. apply Hn. unfold has_display in E. clear - E. induction ps as [|q ps IH]; [discriminate E|].
      cbn [first_some] in E. destruct q; try (destruct (IH E) as (p & Hp & K); exists p; split; [now right|exact K]).
      exists (PDisplayName s). split; [now left|reflexivity].
    + cbn [In]. clear. intuition congruence.
  - intros d Hd. exists (join_names cs). split; [exact Hj|]. intros p. rewrite Hps. unfold uniq in Hu. rewrite Hps in Hu.
    unfold add_names in *. destruct (has_display ps) as [d'|] eqn:E.
    + assert (d' = d); [|subst d'; cbn [In]; clear; intuition congruence].
      cbn [map] in Hu. apply NoDup_cons_iff in Hu as [_ Hu]. unfold has_display in E. clear - E Hu Hd.
      induction ps as [|q ps IH]; [destruct Hd|]. cbn [map] in Hu. apply NoDup_cons_iff in Hu as [H1 H2]. cbn [first_some] in E.
      destruct Hd as [->|Hd]; [now injection E as <-|].
      destruct q; try (now apply IH). exfalso. apply H1. apply in_map_iff. exists (PDisplayName d). split; [reflexivity|exact Hd].
    + exfalso. unfold has_display in E. clear - E Hd. induction ps as [|q ps IH]; [destruct Hd|]. cbn [first_some] in E.
      destruct Hd as [->|Hd]; [discriminate E|]. destruct q; now apply IH.
Qed.
Print Assumptions c68_groups.

(** A mode delivers nothing itself; one without a name has a name in error messages. *)
Theorem c68_mode : forall id ps cs, n_kind (mode id ps cs) = KMode /\ n_children (mode id ps cs) = cs
  /\ (given_kind ps k_none \/ given_kind ps k_error -> adds ps (mode id ps cs) [PNoResultValue])
  /\ (~ given_kind ps k_none -> ~ given_kind ps k_error ->
      adds ps (mode id ps cs) [PErrorName (b "(Anon mode)"); PNoResultValue]).
Proof.
  intros id ps cs. split; [reflexivity|]. split; [reflexivity|].
  assert (G : existsb (fun p => match p with PNoneName _ | PErrorName _ => true | _ => false end) ps = true
              <-> given_kind ps k_none \/ given_kind ps k_error).
  { rewrite existsb_exists. unfold given_kind. split.
    - intros (p & Hp & H). destruct p; try discriminate H; [left|right]; eexists; (split; [exact Hp|reflexivity]).
    - intros [(p & Hp & H)|(p & Hp & H)]; exists p; (split; [exact Hp|]); destruct p; try discriminate H; reflexivity. }
  unfold mode, adds. cbn [n_pols]. destruct (existsb _ ps) eqn:E.
  - assert (Hy : given_kind ps k_none \/ given_kind ps k_error) by now apply G. split.
    + intros _ p. cbn [In]. clear. intuition congruence.
    + intros H1 H2. exfalso. tauto.
  - split.
    + intros H. apply G in H. discriminate H.
    + intros _ _ p. cbn [In]. clear. intuition congruence.
Qed.
Print Assumptions c68_mode.

Theorem c68_help : forall id ps, n_kind (help id ps) = KHelp /\ n_children (help id ps) = []
  /\ adds ps (help id ps) [PNoResultValue; PMinMaxCount 0 (2 ^ 64 - 1)].
Proof.
  intros id ps. split; [reflexivity|]. split; [reflexivity|]. intros p. unfold help. cbn [n_pols In].
  change (2 ^ 64 - 1)%N with size_max. clear. intuition congruence.
Qed.
Print Assumptions c68_help.

(** ** What the user sees of it *)

(** A flag is true exactly if it is on the command line. *)
Theorem c68_flag_value : forall r mem args m ts items vs i id ps, fresh r mem args -> typed r args m ts items ->
  calls_router r mem args m vs -> nth_error (router_children m) i = Some (flag id ps) ->
  (given m items (flag id ps) -> nth_error vs i = Some (VBool true))
  /\ (~ given m items (flag id ps) -> ~ given_kind ps k_enable_required -> nth_error vs i = Some (VBool false)).
Proof.
  intros r mem args m ts items vs i id ps Hf Ht Hc Hi. split; intros H.
  - now apply (flag_given r mem args m ts items Hf Ht vs i id ps).
  - intros Hn. now apply (flag_not_given r mem args m ts items Hf Ht vs i id ps).
Qed.
Print Assumptions c68_flag_value.

(** A counting flag that is not on the command line counts zero. *)
Theorem c68_count_absent : forall r mem args m ts items vs i cast id ps, fresh r mem args -> typed r args m ts items ->
  calls_router r mem args m vs -> nth_error (router_children m) i = Some (counting_flag cast id ps) ->
  ~ given m items (counting_flag cast id ps) -> ~ given_kind ps k_enable_required -> ~ given_kind ps k_default ->
  nth_error vs i = Some (VInt 0).
Proof.
  intros r mem args m ts items vs i cast id ps Hf Ht Hc Hi Hg H1 H2.
  now apply (count_not_given r mem args m ts items Hf Ht vs i cast id ps).
Qed.
Print Assumptions c68_count_absent.

(** The number of values after each of them. *)
Theorem c68_taken : forall r args m ts items it, typed r args m ts items -> In it items ->
  (forall id ps, i_node it = flag id ps -> i_values it = [])
  /\ (forall cast id ps, i_node it = counting_flag cast id ps -> i_values it = [])
  /\ (forall ty id ps, i_node it = arg ty id ps -> exists v, i_values it = [v])
  /\ (forall ty id ps, i_node it = multi_arg ty id ps -> ~ given_kind ps k_count -> i_values it <> []).
Proof.
  intros r args m ts items it Ht Hi. destruct (item_bounds r args m ts items it Ht Hi) as (mn & mx & E & H). unfold nlen in H.
  split; [|split; [|split]].
  - intros id ps En. rewrite En in E. cbn in E. injection E as <- <-. destruct (i_values it); [reflexivity|]. cbn in H. lia.
  - intros cast id ps En. rewrite En in E. cbn in E. injection E as <- <-. destruct (i_values it); [reflexivity|]. cbn in H. lia.
  - intros ty id ps En. rewrite En in E. cbn in E. injection E as <- <-. destruct (i_values it) as [|v [|w l]]; cbn in H; try lia. eauto.
  - intros ty id ps En Hn. rewrite En in E. unfold multi_arg, add_missing_count in E.
    destruct (has_count ps) eqn:Eh; [now apply has_count_iff in Eh|]. unfold count_bounds in E. cbn [n_pols first_some] in E.
    injection E as <- _. destruct (i_values it); [cbn in H; lia|discriminate].
Qed.
Print Assumptions c68_taken.

(** demo copy --width 5 -vfv --owner=me a b -- c: --force is given in a group, --old is not; -v is not given in
    the second command line. *)
Example c68_example :
  (exists ts items, fresh demo [] ex1 /\ typed demo ex1 d_copy ts items /\ calls_router demo [] ex1 d_copy ex1_values
     /\ nth_error (router_children d_copy) 0 = Some d_force /\ given d_copy items d_force
     /\ nth_error (router_children d_copy) 7 = Some d_old /\ ~ given d_copy items d_old)
  /\ (exists ts items, fresh demo [] ex2 /\ typed demo ex2 d_copy ts items /\ calls_router demo [] ex2 d_copy ex2_values
     /\ nth_error (router_children d_copy) 1 = Some d_verbose /\ ~ given d_copy items d_verbose)
  /\ accepted demo = true /\ placed demo d_pack [d_copy; demo] /\ joined [d_zip; d_tar] (b "--zip,--tar").
Proof.
  assert (G : forall args ts items l c, fresh demo [] args -> typed demo args d_copy ts items ->
    map by_id (flat_map (assigned d_copy) items) = l -> In c (n_children d_copy) -> below c = [c] ->
    (picked c l <> [] <-> given d_copy items c)).
  { intros args ts items l c Hf Ht El Hc Hb. rewrite <- (occurrences_picked d_copy c items l El).
    pose proof (occurrences_given demo [] args d_copy ts items c Hf Ht Hc) as O. rewrite Hb in O. split.
    - intros H. destruct (proj1 O) as (d & [<-|[]] & Hg); [|exact Hg]. intros E. apply H. now rewrite E.
    - intros H E. apply (proj2 O); [exists c; split; [now left|exact H]|]. now apply map_eq_nil in E. }
  assert (Ha : accepted demo = true) by (vm_compute; reflexivity).
  split; [|split; [|split; [exact Ha|split]]].
  - destruct ex1_assigned as (ts & items & Ht & El). exists ts, items. split; [exact ex1_fresh|]. split; [exact Ht|].
    split; [exact ex1_run|]. split; [reflexivity|]. split.
    { apply (G ex1 ts items _ d_force ex1_fresh Ht El); [now left|reflexivity|discriminate]. }
    split; [reflexivity|]. intros H. apply (G ex1 ts items _ d_old ex1_fresh Ht El) in H; [|do 8 right; now left|reflexivity].
    apply H. vm_compute. reflexivity.
  - destruct ex2_assigned as (ts & items & Ht & El). exists ts, items. split; [exact ex2_fresh|]. split; [exact Ht|].
    split; [exact ex2_run|]. split; [reflexivity|].
    intros H. apply (G ex2 ts items _ d_verbose ex2_fresh Ht El) in H; [|right; now left|reflexivity]. apply H. vm_compute. reflexivity.
  - apply placed_child with (n := d_copy) (parents := [demo]); [|do 7 right; now left].
    apply placed_child with (1 := placed_root demo). do 2 right. now left.
  - assert (Hp : placed demo d_pack [d_copy; demo]).
    { apply placed_child with (n := d_copy) (parents := [demo]); [|do 7 right; now left].
      apply placed_child with (1 := placed_root demo). do 2 right. now left. }
    destruct (group_names demo d_pack _ Ha Hp) as [Hne Hall]; [right; now exists 1%N|].
    apply (joined_names [d_zip; d_tar] _ Hall Hne). vm_compute. reflexivity.
Qed.

(** ** The frame of the help page *)

(** In front of the rows of the page are the program's name, version and introduction, if given; behind
    them is the addendum. *)
Theorem c34_frame : forall r h parents, accepted r = true -> placed r h parents ->
  exists t i z, title h t /\ introduction h i /\ closing h z /\ preamble h = t ++ i /\ addendum h = z.
Proof.
  intros r h parents Ha Hp. assert (Hu : uniq h) by (apply accepted_compiles in Ha; apply (proj2 Ha h parents Hp)).
  assert (S1 := frame_says h Hu PProgramName k_program_name (fun p => match p with PProgramName s => Some s | _ => None end)
    ltac:(intros q; destruct q; cbn; split; congruence) ltac:(intros q x; destruct q; split; congruence)).
  assert (S2 := frame_says h Hu PProgramVersion k_program_version (fun p => match p with PProgramVersion s => Some s | _ => None end)
    ltac:(intros q; destruct q; cbn; split; congruence) ltac:(intros q x; destruct q; split; congruence)).
  assert (S3 := frame_says h Hu PProgramIntro k_program_intro (fun p => match p with PProgramIntro s => Some s | _ => None end)
    ltac:(intros q; destruct q; cbn; split; congruence) ltac:(intros q x; destruct q; split; congruence)).
  assert (S4 := frame_says h Hu PProgramAddendum k_program_addendum (fun p => match p with PProgramAddendum s => Some s | _ => None end)
    ltac:(intros q; destruct q; cbn; split; congruence) ltac:(intros q x; destruct q; split; congruence)).
  unfold preamble, addendum, program_name, program_version, program_intro, program_addendum.
  assert (T : exists t, title h t /\ t = match first_some (fun p => match p with PProgramName s => Some s | _ => None end) (n_pols h) with
    | Some s => s ++ match first_some (fun p => match p with PProgramVersion s => Some s | _ => None end) (n_pols h) with
                     | Some v => b " " ++ v | None => [] end ++ newline ++ newline
    | None => [] end).
  { destruct S1 as [(x & -> & Hx)|[-> Hx]]; [|exists []; split; [now apply title_none|reflexivity]].
    destruct S2 as [(v & -> & Hv)|[-> Hv]].
    - exists (x ++ b " " ++ v ++ eol ++ eol). split; [now apply title_version|]. now rewrite <- app_assoc.
    - exists (x ++ eol ++ eol). split; [now apply title_name|reflexivity]. }
  assert (I : exists i, introduction h i /\ i = match first_some (fun p => match p with PProgramIntro s => Some s | _ => None end) (n_pols h) with
    | Some s => s ++ newline ++ newline | None => [] end).
  { destruct S3 as [(x & -> & Hx)|[-> Hx]]; [exists (x ++ eol ++ eol)|exists []]; (split; [|reflexivity]); now constructor. }
  assert (Z : exists z, closing h z /\ z = match first_some (fun p => match p with PProgramAddendum s => Some s | _ => None end) (n_pols h) with
    | Some s => newline ++ s ++ newline | None => [] end).
  { destruct S4 as [(x & -> & Hx)|[-> Hx]]; [exists (eol ++ x ++ eol)|exists []]; (split; [|reflexivity]); now constructor. }
  destruct T as (t & Ht & Et), I as (i & Hi & Ei), Z as (z & Hz & Ez). exists t, i, z. rewrite Et, Ei, Ez in *.
  split; [exact Ht|]. split; [exact Hi|]. split; [exact Hz|]. split; reflexivity.
Qed.
Print Assumptions c34_frame.

Example c34_frame_example : accepted h_root = true /\ placed h_root h_help [h_root]
  /\ title h_help (lines ["foo v3.14"; ""]%string) /\ introduction h_help (lines ["My foo is good for you"; ""]%string)
  /\ closing h_help [].
Proof.
  split; [vm_compute; reflexivity|]. split; [apply placed_child with (1 := placed_root h_root); now left|].
  split; [apply (title_version h_help (b "foo") (b "v3.14")); cbn; tauto|].
  split; [apply (introduction_text h_help (b "My foo is good for you")); cbn; tauto|].
  apply closing_none. rewrite lacks_cons, lacks_nil. split; [reflexivity|exact I].
Qed.

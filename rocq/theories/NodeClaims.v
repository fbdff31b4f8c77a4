(** Consequences for single nodes and for trees of certain forms: C04, C17, C18, C47. *)
From Verif Require Import Bytes Token Adapter Result CodePoint Utf8 Tree Levenshtein PreParse Parse Root Validator.
From Verif Require Import SpecTokens SpecTake SpecMode SpecDeliver SpecRoot SpecReading SpecClaims SpecPolicy.
From Verif Require Import TreeProofs OrderProofs NodeProofs ModeProofs RootProofs SelectProofs ExactProofs TotalProofs.
Local Open Scope list_scope.

(** ** C04: no match, no change *)

Lemma no_match r n f parents pt v s s' :
  accepted r = true -> In n (below r) -> is_root n = false -> (is_mode n = true -> v = always_true) ->
  pre_parse f n parents pt v s = (s', Ok None) -> p_args s' = p_args s.
Proof.
  intros Ha Hin Hr Hv H. apply accepted_sub in Ha as [_ Hs].
  destruct (sub_ok_below r [] n Hs Hin) as (tp & _ & Hn).
  destruct (is_mode n) eqn:Em.
  - rewrite (Hv eq_refl) in H. now apply (mode_none f n tp parents pt).
  - pose proof (pre_parse_offers f n tp parents Hn Em Hr) as Ho. now apply Ho in H.
Qed.

(** ** C18: a disabled argument takes nothing *)

Lemma enable_first ps : exists before after, phase_order ps = before ++ pick is_enable ps ++ after.
Proof.
  unfold phase_order. exists (pick is_separator ps ++ pick is_expander ps). eexists.
  rewrite <- app_assoc. reflexivity.
Qed.

Lemma disabled_takes_nothing r n parents pt v s s' t :
  accepted r = true -> In n (below r) -> is_argument n = true -> ~ enabled n ->
  node_pre_parse n parents pt v s <> (s', Ok (Some t)).
Proof.
  intros Ha Hin Harg Hd H. apply accepted_sub in Ha as [_ Hs].
  destruct (sub_ok_below r [] n Hs Hin) as (tp & _ & Hn).
  assert (L : leaf_ok n) by (apply (node_ok_leaf n tp), sub_ok_self, Hn).
  apply node_pre_parse_inv in H as (a & tg & m & a' & Hrun & Hg & _).
  rewrite run_policies_order in Hrun by apply L.
  destruct (enable_first (n_pols n)) as (b1 & b2 & E). rewrite E in Hrun.
  apply run_policies_app_going in Hrun as (a1 & tg1 & m1 & _ & G1 & Hrun); [|easy].
  apply run_policies_app_going in Hrun as (a2 & tg2 & m2 & H2 & G2 & _); [|easy].
  assert (Hre : runtime_enabled n = Some false).
  { unfold enabled in Hd. destruct (runtime_enabled n) as [[]|]; try easy; exfalso; apply Hd; discriminate. }
  pose proof (enable_selected (n_pols n)) as Hsel. unfold runtime_enabled in Hre.
  destruct (pick_cases is_enable (n_pols n)) as [Ep|(p & Ep & _ & _)]; rewrite Ep in *.
  - congruence.
  - destruct Hsel as (e & Hp & Hf). rewrite Hf in Hre. injection Hre as ->.
    destruct m1 as [[]|]; try discriminate; destruct Hp as [->|(d & ->)]; cbn in H2; injection H2 as <- <- <-; discriminate.
Qed.

(** ** C17: without a one_of nothing is remembered *)

Definition indep {A} (m : M A) : Prop :=
  forall args mem mem', exists args' r, m (PS args mem) = (PS args' mem, r) /\ m (PS args mem') = (PS args' mem', r).
Definition vindep (v : validator) : Prop :=
  forall c mem mem', exists r, v c mem = (mem, r) /\ v c mem' = (mem', r).

Lemma indep_ret {A} (x : A) : indep (mret x).
Proof. intros args mem mem'. exists args, (Ok x). easy. Qed.
Lemma indep_lift {A} (r : res A) : indep (mlift r).
Proof. intros args mem mem'. exists args, r. easy. Qed.
Lemma indep_bind {A B} (m : M A) (f : A -> M B) : indep m -> (forall x, indep (f x)) -> indep (mbind m f).
Proof.
  intros Hm Hf args mem mem'. destruct (Hm args mem mem') as (args1 & r1 & E1 & E2). unfold mbind. rewrite E1, E2.
  destruct r1; [apply Hf| | | |]; eauto.
Qed.
Lemma indep_validator v n : vindep v -> indep (run_validator v n).
Proof.
  intros Hv args mem mem'. unfold run_validator. cbn [p_args p_mem]. destruct (Hv n mem mem') as (r & -> & ->). eauto.
Qed.
Lemma indep_set ts : indep (set_args ts).
Proof. intros args mem mem'. exists ts, (Ok tt). easy. Qed.
Lemma indep_args {A} (m : list token -> M A) : (forall a, indep (m a)) -> indep (fun s => m (p_args s) s).
Proof. intros H args mem mem'. cbn [p_args]. apply H. Qed.

Lemma indep_node n parents pt v : vindep v -> indep (node_pre_parse n parents pt v).
Proof.
  intros Hv. unfold node_pre_parse.
  apply (indep_args (fun args => (r <- mlift (run_policies (priority_order (n_pols n)) (Adp [] args) pt
                            (Target n parents [] []) n parents (Act Valid)) ;; _)%m)).
  intros args. apply indep_bind; [apply indep_lift|]. intros [[a tg] m].
  assert (Hck : forall m, indep (match check_label n m a with
       | None => mret None
       | Some a' =>
           ok <- run_validator v n ;;
           if negb ok then mret None
           else match m with
                | Err c ts => mlift (Throw (EML c ts))
                | Act _ =>
                    _ <- set_args (a_unproc a') ;;
                    mret (Some (Target n parents
                                       (if is_named n then tl (a_proc a') else a_proc a')
                                       (tg_subs tg)))
                end
       end)%m).
  { intros m0. destruct (check_label n m0 a); [|apply indep_ret].
    apply indep_bind; [now apply indep_validator|]. intros []; cbn [negb]; [|apply indep_ret].
    destruct m0; [|apply indep_lift]. apply indep_bind; [apply indep_set|]. intros; apply indep_ret. }
  destruct m as [[]|]; [apply indep_ret|apply Hck..].
Qed.

Lemma indep_first cs pt v : (forall c, In c cs -> indep (c pt v)) -> indep (first_match cs pt v).
Proof.
  induction cs as [|c cs IH]; intros H; cbn [first_match]; [apply indep_ret|].
  apply indep_bind; [apply H; now left|]. intros [t|]; [apply indep_ret|]. apply IH. intros; apply H; now right.
Qed.

Lemma vindep_verify already front : vindep (verify_match already front).
Proof. intros c mem mem'. unfold verify_match. eauto. Qed.
Lemma vindep_true : vindep always_true.
Proof. intros c mem mem'. unfold always_true. eauto. Qed.

Lemma indep_try (g : node -> child_pp) matched front tg cs : (forall c v, In c cs -> vindep v -> indep (g c (Some tg) v)) ->
  forall i, indep (mode_try (map (fun c => (c, g c)) cs) i matched front tg).
Proof.
  induction cs as [|c cs IH]; intros H i; cbn [map mode_try]; [apply indep_ret|].
  destruct (is_mode c).
  - apply IH. intros; apply H; [now right|easy].
  - apply indep_bind; [apply H; [now left|apply vindep_verify]|]. intros [t|]; [apply indep_ret|].
    apply IH. intros; apply H; [now right|easy].
Qed.

Lemma indep_loop self (g : node -> child_pp) cs : (forall c pt v, In c cs -> vindep v -> indep (g c pt v)) ->
  forall fuel tg matched, indep (mode_loop fuel self (map (fun c => (c, g c)) cs) tg matched).
Proof.
  intros H. induction fuel as [|fuel IH]; intros tg matched args mem mem'; cbn [mode_loop p_args].
  - destruct args; eauto.
  - destruct args as [|front args]; [eauto|].
    apply (indep_bind (mode_try (map (fun c => (c, g c)) cs) 0 matched front tg)).
    + apply indep_try. auto.
    + intros [[i t]|]; [apply IH|].
      intros a m1 m2. cbn [p_args]. destruct (forallb _ _); eauto.
Qed.


Lemma indep_pre_parse fuel n : no_choices n -> forall parents pt v, vindep v -> indep (pre_parse fuel n parents pt v).
Proof.
  induction n as [k id ty pols cs IH] using node_ind'. rewrite Forall_forall in IH. intros Hno parents pt v Hv.
  assert (IH' : forall c ps pt v, In c cs -> vindep v -> indep (pre_parse fuel c ps pt v)).
  { intros c ps pt' v' Hc Hv'. apply IH; auto. intros d Hd. apply Hno. now apply (below_child c). }
  set (n := Node k id ty pols cs) in *.
  destruct k; try (apply indep_node; exact Hv).
  - apply indep_first. intros c Hc. apply in_map_iff in Hc as (d & <- & Hd). now apply IH'.
  - exfalso. now apply (Hno n (below_self n) inst).
  - set (g := fun c => pre_parse fuel c (n :: parents)).
    change (indep (mode_pre_parse fuel n parents (map (fun c => (c, g c)) cs) pt v)).
    assert (Hbody : indep (ok <- run_validator v n ;;
         if negb ok then mret None
         else mode_loop fuel n (map (fun c => (c, g c)) cs) (Target n parents [] []) (map (fun _ => false) (map (fun c => (c, g c)) cs)))%m).
    { apply indep_bind; [now apply indep_validator|]. intros []; cbn [negb]; [|apply indep_ret].
      apply indep_loop. intros; now apply IH'. }
    unfold mode_pre_parse. destruct (is_anonymous n); [exact Hbody|].
    apply indep_bind; [now apply indep_node|]. intros [t|]; [|apply indep_ret].
    intros a m1 m2. cbn [p_args]. destruct a as [|x a]; [apply Hbody|].
    match goal with |- exists _ _, mbind ?f ?k _ = _ /\ _ => apply (indep_bind f k) end.
    + apply indep_first. intros c Hc. apply in_map_iff in Hc as ([d pp] & <- & Hd). apply filter_In in Hd as [Hd _].
      apply in_map_iff in Hd as (e & [= <- <-] & He). now apply IH'.
    + intros [t'|]; [apply indep_ret|exact Hbody].
  - apply indep_lift.
Qed.

Lemma indep_root_try fuel r : forall cs, (forall c, In c cs -> no_choices c) -> forall args mem mem', exists args' tr res,
  root_try fuel r cs (PS args mem) = (PS args' mem, tr, res) /\ root_try fuel r cs (PS args mem') = (PS args' mem', tr, res).
Proof.
  induction cs as [|c cs IH]; intros Hno args mem mem'; cbn [root_try]; [eauto 6|].
  destruct (indep_pre_parse fuel c (Hno c (or_introl eq_refl)) [r] None always_true vindep_true args mem mem') as (a1 & r1 & -> & ->).
  destruct r1 as [[t|]| | | |]; eauto 6.
  - cbn [p_args]. destruct a1; [destruct (exec t []); eauto 6|eauto 6].
  - apply IH. intros; apply Hno; now right.
Qed.

Lemma root_forgets r : no_choices r -> forall mem mem' args,
  o_mem (root_parse r mem args) = mem
  /\ o_events (root_parse r mem args) = o_events (root_parse r mem' args)
  /\ o_res (root_parse r mem args) = o_res (root_parse r mem' args).
Proof.
  intros Hno mem mem' args. unfold root_parse.
  destruct (indep_root_try (root_fuel args) r (n_children r)) with (args := args) (mem := mem) (mem' := mem')
    as (a & tr & res & -> & ->); [|easy].
  intros c Hc d Hd. apply Hno. now apply (below_child c).
Qed.

(** ** C47: the empty command line *)

Lemma empty_try f r cs mem : accepted r = true -> countless_modes r -> (forall c, In c cs -> In c (n_children r)) ->
  (forall c, In c cs -> if is_mode c then none_name c <> None else is_named c = true) ->
  root_try f r cs (PS [] mem) = (PS [] mem, [], Ok false).
Proof.
  intros Ha Hcm. induction cs as [|c cs IH]; intros Hin Hn; cbn [root_try]; [easy|].
  assert (Hc : In c (n_children r)) by (apply Hin; now left).
  destruct (root_child r c Ha Hc) as [Hs Ht].
  assert (E : pre_parse f c [r] None always_true (PS [] mem) = (PS [] mem, Ok None)).
  { specialize (Hn c (or_introl eq_refl)). destruct (is_mode c) eqn:Em.
    - destruct (mode_selected f c [r] [r] None (PS [] mem) Hs Em) as [(m & ps & ts & tp & Hsel & _)|(_ & _ & E)]; auto.
      + intros d Hd Hm. apply Hcm; [|easy]. now apply (below_child c).
      + exfalso. cbn [p_args] in Hsel. inversion Hsel; subst; [easy| |];
          match goal with H : names_mode _ _ _ |- _ => destruct H as (_ & nm & _ & ?); discriminate end.
    - destruct Ht as [?|(L & _ & Hal & _)]; [congruence|].
      rewrite leaf_pre_parse by apply L. apply empty_named; auto.
      intros ns. now apply (top_no_dependent r c). }
  rewrite E. apply IH; [intros; apply Hin|intros; apply Hn]; now right.
Qed.

Lemma root_empty r mem : accepted r = true -> countless_modes r ->
  (forall c, In c (n_children r) -> if is_mode c then none_name c <> None else is_named c = true) ->
  root_parse r mem [] = Out mem [] (Throw (EML no_arguments_passed [])).
Proof.
  intros Ha Hcm Hn. unfold root_parse. now rewrite (empty_try _ r (n_children r) mem Ha Hcm (fun c H => H) Hn).
Qed.

(** The error for an empty command line is thrown for nothing else. *)
Definition not_empty_error {A} (r : res A) : Prop := forall ts, r <> Throw (EML no_arguments_passed ts).
Definition mne {A} (m : M A) : Prop := forall s, not_empty_error (snd (m s)).
Definition vne (v : validator) : Prop := forall c mem, not_empty_error (snd (v c mem)).

Lemma ne_ok {A} (x : A) : not_empty_error (Ok x).
Proof. intros ts. discriminate. Qed.
Lemma ne_bind_res {A B} (r : res A) (f : A -> res B) :
  not_empty_error r -> (forall x, r = Ok x -> not_empty_error (f x)) -> not_empty_error (rbind r f).
Proof. intros H1 H2. destruct r; cbn [rbind]; auto; intros ts E; try discriminate. injection E as ->. now apply (H1 ts). Qed.
Lemma ne_or_ub {A} (o : option A) : not_empty_error (or_ub o).
Proof. destruct o; intros ts; discriminate. Qed.

Lemma mne_ret {A} (x : A) : mne (mret x).
Proof. intros s ts. discriminate. Qed.
Lemma mne_lift {A} (r : res A) : not_empty_error r -> mne (mlift r).
Proof. intros H s. exact H. Qed.
Lemma mne_bind {A B} (m : M A) (f : A -> M B) : mne m -> (forall x, mne (f x)) -> mne (mbind m f).
Proof.
  intros Hm Hf s. unfold mbind. specialize (Hm s). destruct (m s) as [s' r]. cbn [snd] in Hm.
  destruct r as [x|e| | |]; [apply Hf|..]; intros ts E; try discriminate E. cbn [snd] in E. injection E as ->. now apply (Hm ts).
Qed.
Lemma mne_validator v n : vne v -> mne (run_validator v n).
Proof. intros Hv s. unfold run_validator. specialize (Hv n (p_mem s)). now destruct (v n (p_mem s)). Qed.
Lemma mne_set ts : mne (set_args ts).
Proof. intros s us. discriminate. Qed.

Definition ne_result (m : presult) : Prop := forall c ts, m = Err c ts -> c <> no_arguments_passed.

Lemma phase_ne p a pt tg n parents r : pre_parse_phase p a pt tg n parents = Some r ->
  not_empty_error r /\ forall a' tg' m, r = Ok (a', tg', m) -> ne_result m.
Proof.
  assert (Hk : forall (x : res (adapter * presult)) a' tg' m, (' (a', m) <- x ;; Ok (a', tg, m))%res = Ok (a', tg', m) -> x = Ok (a', m)).
  { intros x a' tg' m H. destruct x as [[a1 m1]| | | |]; try discriminate. cbn in H. congruence. }
  assert (Hn : forall x : res (adapter * presult), not_empty_error x ->
     not_empty_error (' (a', m) <- x ;; Ok (a', tg, m))%res).
  { intros x Hx. apply ne_bind_res; [easy|]. intros [a1 m1] _. apply ne_ok. }
  destruct p; cbn [pre_parse_phase]; try discriminate; intros [= <-].
  - assert (Hm : ne_result (snd (phase_min_max_count mn mx n a))).
    { unfold phase_min_max_count.
      repeat match goal with |- context[if ?x then _ else _] => destruct x end; intros c ts; cbn [snd]; try discriminate;
        intros [= <- <-]; discriminate. }
    destruct (phase_min_max_count mn mx n a) as [a1 m1]. split; [apply ne_ok|].
    intros a' tg' m [= <- <- <-]. exact Hm.
  - split; [apply Hn|intros a' tg' m H; apply Hk in H; revert H]; unfold phase_value_separator.
    + destruct (a_empty a); [apply ne_ok|]. apply ne_bind_res; [apply ne_or_ub|]. intros first _.
      destruct (find_first_of _ _); [|destruct (match_node _ _); apply ne_ok].
      destruct (Nat.ltb _ _); [intros ts; discriminate|]. destruct (skipn _ _); [apply ne_ok|].
      apply ne_bind_res; [apply ne_or_ub|]. intros [a1 ?] _. apply ne_bind_res; [apply ne_or_ub|]. intros; apply ne_ok.
    + destruct (a_empty a); [intros [= <- <-] c ts; discriminate|]. destruct (a_deref a a_begin); cbn [or_ub rbind]; [|discriminate].
      destruct (find_first_of _ _).
      2:{ destruct (match_node _ _); intros [= <- <-] c ts; [intros [= <- <-]; discriminate|discriminate]. }
      destruct (Nat.ltb _ _); [discriminate|]. destruct (skipn _ _); [intros [= <- <-] c ts; discriminate|].
      destruct (a_insert _ _ _) as [[a1 ?]|]; cbn [or_ub rbind]; [|discriminate].
      destruct (a_set _ _ _); cbn [or_ub rbind]; [|discriminate]. intros [= <- <-] c ts; discriminate.
  - split; [apply Hn|intros a' tg' m H; apply Hk in H; revert H]; unfold phase_short_form.
    + destruct (a_empty a); [apply ne_ok|]. apply ne_bind_res; [apply ne_or_ub|]. intros first _.
      destruct (short_candidate n first); [|apply ne_ok]. destruct (short_name n); [|intros ts; discriminate].
      destruct (Nat.eqb _ _); [apply ne_ok|]. destruct (N.ltb _ _); [intros ts; discriminate|].
      apply ne_bind_res; [apply ne_or_ub|]. intros gs _. apply ne_bind_res; [apply ne_or_ub|]. intros; apply ne_ok.
    + destruct (a_empty a); [intros [= <- <-] c ts; discriminate|]. destruct (a_deref a a_begin); cbn [or_ub rbind]; [|discriminate].
      destruct (short_candidate n _); [|intros [= <- <-] c ts; discriminate]. destruct (short_name n); [|discriminate].
      destruct (Nat.eqb _ _); [intros [= <- <-] c ts; discriminate|]. destruct (N.ltb _ _); [discriminate|].
      destruct (graphemes _); cbn [or_ub rbind]; [|discriminate]. destruct (a_set _ _ _); cbn [or_ub rbind]; [|discriminate].
      intros [= <- <-] c ts; discriminate.
  - split; [apply ne_ok|]. intros a' tg' m [= <- <- <-] c ts. discriminate.
  - split; [apply ne_ok|]. intros a' tg' m [= <- <- <-] c ts. discriminate.
  - split; [apply Hn|intros a' tg' m0 H; apply Hk in H; revert H]; unfold phase_end_marker.
    + apply ne_bind_res; [apply ne_or_ub|]. intros; apply ne_ok.
    + destruct (a_erase _ _); cbn [or_ub rbind]; [|discriminate]. intros [= <- <-] c ts; discriminate.
  - unfold phase_alias. destruct (count_bounds n) as [[c mx]|]; [|split; [intros ts|]; discriminate].
    destruct (nearest_mode_like _); [|split; [intros ts|]; discriminate].
    destruct (Z.ltb _ _); [split; [apply ne_ok|intros a' tg' m [= <- <- <-] c0 ts [= <- <-]; discriminate]|].
    destruct (a_deref a a_begin); cbn [or_ub rbind]; [|split; [intros ts|]; discriminate].
    destruct (negb _); (split; [apply ne_ok|intros a' tg' m [= <- <- <-] c0 ts; discriminate]).
  - split; [apply Hn|intros a' tg' m H; apply Hk in H; revert H]; unfold phase_dependent.
    + destruct (nearest_mode_like parents), pt; try (intros ts; discriminate). destruct (first_absent _ _); apply ne_ok.
    + destruct (nearest_mode_like parents), pt; try discriminate. destruct (first_absent _ _); cbn [rbind];
        intros [= <- <-] c ts; [intros [= <- <-]|]; discriminate.
Qed.

Lemma run_policies_ne ps : forall a pt tg n parents m, ne_result m ->
  not_empty_error (run_policies ps a pt tg n parents m)
  /\ forall a' tg' m', run_policies ps a pt tg n parents m = Ok (a', tg', m') -> ne_result m'.
Proof.
  induction ps as [|p ps IH]; intros a pt tg n parents m Hm; cbn [run_policies].
  - split; [apply ne_ok|]. intros a' tg' m' [= <- <- <-]. exact Hm.
  - destruct (pre_parse_phase p a pt tg n parents) as [r|] eqn:E; [|now apply IH].
    apply phase_ne in E as [E1 E2]. destruct (going m) eqn:Hg.
    2:{ destruct m as [[]|]; try discriminate; now apply IH. }
    assert (G : forall m0, m = Act m0 ->
      not_empty_error (' (a', tg', m') <- r ;;
              let m'' := match m0, m' with UseSubs, Act Valid => Act UseSubs | _, _ => m' end in
              run_policies ps a' pt tg' n parents m'')%res
      /\ forall a' tg' m', (' (a', tg', m') <- r ;;
              let m'' := match m0, m' with UseSubs, Act Valid => Act UseSubs | _, _ => m' end in
              run_policies ps a' pt tg' n parents m'')%res = Ok (a', tg', m') -> ne_result m').
    { intros m0 _. destruct r as [[[a1 tg1] m1]| | | |]; cbn [rbind]; try (split; [intros ts|]; discriminate).
      - apply IH. specialize (E2 a1 tg1 m1 eq_refl). destruct m0; auto. destruct m1 as [[]|]; auto. intros c ts. discriminate.
      - split; [|discriminate]. intros ts Ht. injection Ht as ->. now apply (E1 ts). }
    destruct m as [x|]; [destruct x|]; try discriminate; exact (G _ eq_refl).
Qed.

Lemma mne_node n parents pt v : vne v -> mne (node_pre_parse n parents pt v).
Proof.
  intros Hv s. unfold node_pre_parse.
  destruct (run_policies_ne (priority_order (n_pols n)) (Adp [] (p_args s)) pt (Target n parents [] []) n parents (Act Valid)) as [H1 H2].
  { intros c ts. discriminate. }
  unfold mbind at 1, mlift at 1.
  destruct (run_policies _ _ _ _ _ _ _) as [[[a tg] m]| | | |]; cbn [snd]; try (intros ts; discriminate).
  2:{ intros ts Ht. injection Ht as ->. now apply (H1 ts). }
  specialize (H2 a tg m eq_refl). clear H1.
  assert (Hck : m <> Act Skip -> mne (match check_label n m a with
       | None => mret None
       | Some a' =>
           ok <- run_validator v n ;;
           if negb ok then mret None
           else match m with
                | Err c ts => mlift (Throw (EML c ts))
                | Act _ =>
                    _ <- set_args (a_unproc a') ;;
                    mret (Some (Target n parents
                                       (if is_named n then tl (a_proc a') else a_proc a')
                                       (tg_subs tg)))
                end
       end)%m).
  { intros _. destruct (check_label n m a); [|apply mne_ret].
    apply mne_bind; [now apply mne_validator|]. intros []; cbn [negb]; [|apply mne_ret].
    destruct m as [x|c ts]; [apply mne_bind; [apply mne_set|intros; apply mne_ret]|].
    apply mne_lift. intros us Hu. injection Hu as -> ->. now apply (H2 no_arguments_passed us). }
  destruct m as [[]|]; [intros ts; discriminate|apply Hck; discriminate..].
Qed.

Lemma mne_first cs pt v : (forall c, In c cs -> mne (c pt v)) -> mne (first_match cs pt v).
Proof.
  induction cs as [|c cs IH]; intros H; cbn [first_match]; [apply mne_ret|].
  apply mne_bind; [apply H; now left|]. intros [t|]; [apply mne_ret|]. apply IH. intros; apply H; now right.
Qed.

Lemma mne_one_of (g : node -> child_pp) cs pt w : vne w -> (forall c, In c cs -> mne (g c pt w)) ->
  mne (one_of_match (map (fun c => (c, g c)) cs) pt w).
Proof.
  intros Hw. induction cs as [|c cs IH]; intros H; cbn [map one_of_match]; [apply mne_ret|].
  apply mne_bind; [apply H; now left|]. intros [t|].
  - apply mne_bind; [now apply mne_validator|intros; apply mne_ret].
  - apply IH. intros; apply H; now right.
Qed.

Lemma vne_verify already front : vne (verify_match already front).
Proof. intros c mem ts. cbn. destruct (has_multi_stage c), (is_named c), already; discriminate. Qed.
Lemma vne_true : vne always_true.
Proof. intros c mem ts. discriminate. Qed.
Lemma vne_one_of inst self v : vne v -> vne (one_of_validator inst self v).
Proof.
  intros Hv c mem. unfold one_of_validator. destruct (mem_get mem inst); [|apply Hv]. destruct (N.eqb _ _); [apply Hv|].
  intros ts. discriminate.
Qed.

Lemma mne_try (g : node -> child_pp) matched front tg cs : (forall c v, In c cs -> vne v -> mne (g c (Some tg) v)) ->
  forall i, mne (mode_try (map (fun c => (c, g c)) cs) i matched front tg).
Proof.
  induction cs as [|c cs IH]; intros H i; cbn [map mode_try]; [apply mne_ret|].
  destruct (is_mode c).
  - apply IH. intros; apply H; [now right|easy].
  - apply mne_bind; [apply H; [now left|apply vne_verify]|]. intros [t|]; [apply mne_ret|].
    apply IH. intros; apply H; [now right|easy].
Qed.

Lemma unknown_ne A n t : not_empty_error (@unknown_argument_exception A n t).
Proof.
  intros us. unfold unknown_argument_exception, closest_matching_child_node.
  destruct (closest_fold_form (t_name (match t_prefix t with PNone => get_token_type (t_name t) | _ => t end))
                              (preorder n []) None) as [[b1 ->]| ->]; cbn [rbind]; [|discriminate].
  destruct b1 as [[d ts]|]; cbn; [|discriminate]. destruct ts; discriminate.
Qed.

Lemma mne_loop self (g : node -> child_pp) cs : (forall c pt v, In c cs -> vne v -> mne (g c pt v)) ->
  forall fuel tg matched, mne (mode_loop fuel self (map (fun c => (c, g c)) cs) tg matched).
Proof.
  intros H. induction fuel as [|fuel IH]; intros tg matched s; cbn [mode_loop].
  - destruct (p_args s); intros ts; discriminate.
  - destruct (p_args s) as [|front args]; [intros ts; discriminate|].
    apply (mne_bind (mode_try (map (fun c => (c, g c)) cs) 0 matched front tg)).
    + apply mne_try. auto.
    + intros [[i t]|]; [apply IH|]. intros s'. destruct (forallb _ _); [intros ts; discriminate|apply unknown_ne].
Qed.

Lemma mne_pre_parse fuel n : forall parents pt v, vne v -> mne (pre_parse fuel n parents pt v).
Proof.
  induction n as [k id ty pols cs IH] using node_ind'. rewrite Forall_forall in IH. intros parents pt v Hv.
  set (n := Node k id ty pols cs) in *.
  destruct k; try (apply mne_node; exact Hv).
  - apply mne_first. intros c Hc. apply in_map_iff in Hc as (d & <- & Hd). now apply IH.
  - apply (mne_one_of (fun c => pre_parse fuel c parents) cs pt (one_of_validator inst n v)); [now apply vne_one_of|].
    intros c Hc. apply IH; [easy|now apply vne_one_of].
  - set (g := fun c => pre_parse fuel c (n :: parents)).
    change (mne (mode_pre_parse fuel n parents (map (fun c => (c, g c)) cs) pt v)).
    assert (Hbody : mne (ok <- run_validator v n ;;
         if negb ok then mret None
         else mode_loop fuel n (map (fun c => (c, g c)) cs) (Target n parents [] []) (map (fun _ => false) (map (fun c => (c, g c)) cs)))%m).
    { apply mne_bind; [now apply mne_validator|]. intros []; cbn [negb]; [|apply mne_ret].
      apply mne_loop. intros; now apply IH. }
    unfold mode_pre_parse. destruct (is_anonymous n); [exact Hbody|].
    apply mne_bind; [now apply mne_node|]. intros [t|]; [|apply mne_ret].
    intros s. destruct (p_args s); [apply Hbody|].
    match goal with |- not_empty_error (snd (mbind ?f ?k _)) => apply (mne_bind f k) end.
    + apply mne_first. intros c Hc. apply in_map_iff in Hc as ([d pp] & <- & Hd). apply filter_In in Hd as [Hd _].
      apply in_map_iff in Hd as (e & [= <- <-] & He). now apply IH.
    + intros [t'|]; [apply mne_ret|exact Hbody].
  - intros s ts. discriminate.
Qed.

Lemma help_target_ne ts : forall n, not_empty_error (find_help_target ts n).
Proof.
  induction ts as [|t ts IH]; intros n us; cbn [find_help_target]; destruct (runtime_enabled n) as [[|]|]; try discriminate;
    destruct (find _ _); try discriminate; apply IH.
Qed.

Lemma root_not_empty r mem args : accepted r = true ->
  (forall n cl s ts, In n (below r) -> n_kind n = KArg cl -> parse_token n s <> Throw (EML no_arguments_passed ts)) ->
  (forall t ts, args = t :: ts -> t_name t <> []) -> args <> [] ->
  forall ts, o_res (root_parse r mem args) <> Throw (EML no_arguments_passed ts).
Proof.
  intros Ha Hp Hne Hargs. change (not_empty_error (o_res (root_parse r mem args))).
  apply (class_root (@not_empty_error)); auto.
  - intros A x. apply ne_ok.
  - intros A c ts Hc us E. injection E as -> ->. now apply Hc.
  - intros A ts. discriminate.
  - intros A B x f H1 H2. now apply ne_bind_res.
  - intros n Hn _ cl s Hk ts. now apply (Hp n cl).
  - intros c s s' o Hin Hs Ho. pose proof (mne_pre_parse (root_fuel args) c [r] None always_true vne_true s) as H.
    rewrite Ho in H. exact H.
  - intros c s s' toks ps subs _ _ _ _ _. apply help_target_ne.
  - intros t ts _ _. apply unknown_ne.
  - intros [E|(t & ts & E & Et)]; [easy|]. now apply Hne in E.
Qed.

Lemma strings_not_empty r mem a argv ts : accepted r = true ->
  (forall n cl s ts', In n (below r) -> n_kind n = KArg cl -> parse_token n s <> Throw (EML no_arguments_passed ts')) ->
  a <> [] -> o_res (root_parse_strings r mem (a :: argv)) <> Throw (EML no_arguments_passed ts).
Proof.
  intros Ha Hp Hne. unfold root_parse_strings. apply root_not_empty; auto.
  - intros t ts' E. cbn in E. injection E as <- _. exact Hne.
  - discriminate.
Qed.

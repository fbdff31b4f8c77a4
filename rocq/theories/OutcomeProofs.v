(** The parse stage fails exactly as {!SpecOutcome} says. *)
From Verif Require Import Bytes Token Adapter Result CodePoint Utf8 Tree PreParse Parse Root Validator.
From Verif Require Import SpecSuggest SpecTake SpecMode SpecDeliver SpecRoot SpecReading SpecFault SpecOutcome.
From Verif Require Import OrderProofs TreeProofs NodeProofs ModeProofs FaultProofs ParseProofs.

(** ** The value of one argument *)

Lemma validate_exact l v : validate l v = Ok tt \/ exists e, off_range l v e /\ validate l v = Throw (EML e [shown l]).
Proof.
  unfold validate. rewrite shown_token.
  assert (H : forall ps, (forall p, In p ps -> In p (n_pols l)) ->
    validate_with ps l v = Ok tt \/ exists e, off_range l v e /\ validate_with ps l v = Throw (EML e [node_token l])).
  { induction ps as [|p ps IH]; intros Hp; [now left|]. specialize (IH (fun q H => Hp q (or_intror H))).
    destruct p; cbn [validate_with]; try exact IH.
    unfold check_value.
    destruct (match mn with Some m => lt v m | None => false end) eqn:E1.
    - destruct mn as [m1|]; [|discriminate]. right. exists minimum_value_not_reached. split; [|easy].
      apply (too_small l v m1 mx lt); [apply Hp; now left|easy].
    - destruct (match mx with Some m => lt m v | None => false end) eqn:E2; [|exact IH].
      destruct mx as [m2|]; [|discriminate]. right. exists maximum_value_exceeded. split; [|easy].
      apply (too_large l v mn m2 lt); [apply Hp; now left| |easy]. intros lo ->. exact E1. }
  apply H. auto.
Qed.

Lemma parse_token_reader l s : parse_token l s = reader l s.
Proof. reflexivity. Qed.

Lemma map_res_fail {A B} (f : A -> res B) l :
  (exists ys, map_res f l = Ok ys) \/
  (exists before x after z, l = before ++ x :: after /\ (forall u, In u before -> exists y, f u = Ok y)
     /\ same_failure (f x) z /\ same_failure (map_res f l) z).
Proof.
  induction l as [|x l IH]; cbn [map_res]; [eauto|].
  destruct (f x) as [y| | | |] eqn:E; cbn [rbind].
  - destruct IH as [[ys ->]|(bf & u & af & z & -> & H1 & H2 & H3)]; [cbn; eauto|right].
    exists (x :: bf), u, af, z. split; [easy|]. split; [intros w [<-|Hw]; eauto|]. split; [easy|].
    now destruct (map_res f _).
  - right. exists [], x, l, (Throw e). rewrite E. repeat split; easy.
  - right. exists [], x, l, UB. rewrite E. repeat split; easy.
  - right. exists [], x, l, Exited. rewrite E. repeat split; easy.
  - right. exists [], x, l, OutOfFuel. rewrite E. repeat split; easy.
Qed.

(** Reading and checking the value of an argument. *)
Lemma arg_exact n c toks : n_kind n = KArg c ->
  (exists v, (w <- arg_value n toks ;; _ <- validate n w ;; Ok w)%res = Ok v /\ value_of n toks v)
  \/ (exists x, same_failure (w <- arg_value n toks ;; _ <- validate n w ;; Ok w)%res x /\ unread n toks x).
Proof.
  intros Ek. unfold arg_value. destruct (vt_container (n_ty n)) eqn:Ec.
  - destruct (map_res_fail (fun t => parse_token n (t_name t)) toks) as [[ys Hy]|(bf & t & af & z & -> & H1 & H2 & H3)].
    + rewrite Hy. cbn [rbind].
      assert (Hys : Forall2 (fun t v => reads_as n (t_name t) v) toks ys).
      { apply map_res_spec in Hy. eapply Forall2_impl; [|exact Hy]. intros a w. apply parse_token_spec. }
      destruct (validate_exact n (VList ys)) as [Hv|(e & He & Hv)]; rewrite Hv; cbn [rbind].
      * left. exists (VList ys). split; [easy|]. apply (value_list n c); auto. now apply validate_spec.
      * right. eexists. split; [reflexivity|]. eapply range_list; eauto.
    + right. exists z. split.
      * destruct (map_res _ _); [easy|..]; exact H3.
      * eapply unread_list; eauto. intros u Hu. destruct (H1 u Hu) as [y Hy]. exists y. now apply parse_token_spec.
  - destruct toks as [|t ts]; cbn [rbind].
    + destruct (validate_exact n (vt_init (n_ty n))) as [Hv|(e & He & Hv)]; rewrite Hv; cbn [rbind].
      * left. eexists. split; [reflexivity|]. apply (value_empty n c); auto. now apply validate_spec.
      * right. eexists. split; [reflexivity|]. eapply range_empty; eauto.
    + destruct (parse_token n (t_name t)) as [v| | | |] eqn:Ep; cbn [rbind].
      * destruct (validate_exact n v) as [Hv|(e & He & Hv)]; rewrite Hv; cbn [rbind].
        -- left. exists v. split; [easy|]. apply (value_single n c); auto; [now apply parse_token_spec|now apply validate_spec].
        -- right. eexists. split; [reflexivity|]. eapply range_single; eauto. now apply parse_token_spec.
      * right. eexists. split; [reflexivity|]. eapply unread_single; eauto. rewrite <- parse_token_reader, Ep. reflexivity.
      * right. eexists. split; [reflexivity|]. eapply unread_single; eauto. rewrite <- parse_token_reader, Ep. reflexivity.
      * right. eexists. split; [reflexivity|]. eapply unread_single; eauto. rewrite <- parse_token_reader, Ep. reflexivity.
      * right. eexists. split; [reflexivity|]. eapply unread_single; eauto. rewrite <- parse_token_reader, Ep. reflexivity.
Qed.

Lemma leaf_exact t tr : is_value_leaf (tg_node t) = true -> has_router (tg_node t) = false ->
  (exists v, exec t tr = (tr, Ok (Some v)) /\ value_of (tg_node t) (tg_toks t) v)
  \/ (exists r x, exec t tr = (tr, r) /\ same_failure r x /\ unread (tg_node t) (tg_toks t) x).
Proof.
  destruct t as [n parents toks subs]. cbn [tg_node tg_toks]. intros Hl Hr.
  unfold is_value_leaf in Hl. cbn [exec].
  destruct (n_kind n) as [|c| | | | | |] eqn:Ek; try discriminate.
  - left. exists (VBool true). unfold flag_parse. rewrite Hr. split; [easy|]. constructor. now left.
  - unfold arg_parse. rewrite Hr. unfold ebind, elift, eret.
    destruct (arg_exact n c toks Ek) as [(v & E & Hv)|(x & E & Hx)].
    + left. exists v. split; [|easy]. destruct (arg_value n toks) as [w| | | |]; try discriminate. cbn [rbind] in E.
      destruct (validate n w); try discriminate. cbn [rbind] in E. now injection E as ->.
    + right. destruct (arg_value n toks) as [w| | | |]; cbn [rbind] in E; try (eexists _, x; split; [reflexivity|easy]).
      destruct (validate n w); cbn [rbind] in E; try (eexists _, x; split; [reflexivity|easy]).
  - left. exists (VBool true). split; [easy|]. constructor. now right.
Qed.

Lemma router_leaf_fails n parents vals subs y : is_value_leaf n = true -> has_router n = true ->
  n_kind n <> KCountingFlag -> exec (Target n parents vals subs) [] = ([], y) -> (forall v, y <> Ok v) ->
  exists x, same_failure y x /\ unread n vals x.
Proof.
  intros Hl Hr Hnc He Hy. cbn [exec] in He. unfold is_value_leaf in Hl.
  destruct (n_kind n) as [|c| | | | | |] eqn:Ek; try discriminate.
  - unfold flag_parse in He. rewrite Hr in He. discriminate.
  - unfold arg_parse in He. rewrite Hr in He. unfold ebind, elift, emit, eret in He.
    destruct (arg_exact n c vals Ek) as [(v & E & Hv)|(x & E & Hx)].
    + destruct (arg_value n vals) as [w| | | |]; try discriminate. cbn [rbind] in E.
      destruct (validate n w); try discriminate.
    + exists x. split; [|easy]. destruct (arg_value n vals) as [w| | | |]; cbn [rbind] in E; try (injection He as <-; easy).
      destruct (validate n w); cbn [rbind] in E; try (injection He as <-; easy). discriminate.
  - easy.
Qed.

(** ** Gathering the values *)

Lemma gathered_app o x r : gathered o x r -> forall y s, gathered r y s -> gathered o (x ++ y) s.
Proof.
  induction 1 as [o|o l vals v merge more r Hv Hm _ IH|l vals v more r Hv Hm _ IH]; intros y s Hy; cbn [app].
  - easy.
  - eapply gathered_stage; eauto.
  - eapply gathered_once; eauto.
Qed.

Lemma for_child_app c x y : for_child c (x ++ y) = for_child c x ++ for_child c y.
Proof. apply filter_app. Qed.

(** What the slots hold after the assignments [asg]. *)
Definition holds (m : node) (asg : list (node * list token)) (slots : list slot) : Prop :=
  Forall2 (slot_final asg) (n_children m) slots.

Lemma holds_nth m asg slots i c : holds m asg slots -> nth_error (n_children m) i = Some c ->
  exists sl, nth_error slots i = Some sl /\ slot_final asg c sl.
Proof.
  unfold holds. generalize (n_children m). intros cs H. revert i. induction H as [|d sl cs slots Hd _ IH]; intros [|i] Hi; try discriminate.
  - injection Hi as ->. exists sl. easy.
  - now apply IH.
Qed.

Lemma holds_settled m asg slots : Forall (fun a => exists v, value_of (fst a) (snd a) v) asg -> holds m asg slots ->
  settled m asg.
Proof.
  intros Hv H. split; [easy|]. intros c Hc. unfold router_children in Hc. apply filter_In in Hc as [Hc Hn].
  apply In_nth_error in Hc as [i Hi]. destruct (holds_nth m asg slots i c H Hi) as (sl & _ & Hs).
  unfold slot_final in Hs. destruct (no_result_value c); [discriminate|]. destruct Hs as (o & _ & Hg). eauto.
Qed.

Lemma Forall2_nth {A B} (R : A -> B -> Prop) x y : List.length x = List.length y ->
  (forall i a, nth_error x i = Some a -> exists b, nth_error y i = Some b /\ R a b) -> Forall2 R x y.
Proof.
  revert y. induction x as [|a x IH]; intros [|b y] Hl H; try discriminate; [constructor|].
  destruct (H 0 a eq_refl) as (b' & [= <-] & Hr). constructor; [easy|]. apply IH; [now injection Hl|].
  intros i. apply (H (S i)).
Qed.

Lemma Forall2_same_length {A B} (R : A -> B -> Prop) x y : Forall2 R x y -> List.length x = List.length y.
Proof. induction 1; cbn; congruence. Qed.

Lemma holds_init m : holds m [] (map init_slot (n_children m)).
Proof.
  unfold holds. induction (n_children m) as [|c cs IH]; constructor; [|exact IH].
  unfold slot_final, init_slot. destruct (no_result_value c); [easy|]. exists None. split; [easy|]. constructor.
Qed.

Lemma run_subs_exact m ts : distinct_types m -> Forall (good_sub m) ts ->
  forall before slots tr, holds m before slots ->
  Forall (fun a => exists v, value_of (fst a) (snd a) v) before ->
  let asg := before ++ map assignment ts in
  let run := run_subs (map (fun t => (tg_node t, exec t)) ts) (n_children m) slots tr in
  (exists slots', run = (tr, Ok slots') /\ holds m asg slots' /\ Forall (fun a => exists v, value_of (fst a) (snd a) v) asg)
  \/ (exists r x, run = (tr, r) /\ same_failure r x /\ undelivered m asg x).
Proof.
  intros Hd. apply distinct_children in Hd. induction 1 as [|t ts G _ IH]; intros before slots tr Hh Hv asg run.
  - left. exists slots. unfold asg. cbn [map]. rewrite app_nil_r. easy.
  - remember run as q eqn:Eq. unfold run in Eq. clear run. unfold asg. clear asg. cbn [map run_subs] in *. pose proof (holds_settled m before slots Hv Hh) as Hset.
    destruct (locate_spec (n_children m) (tg_node t) Hd (gs_below _ _ G) (gs_kind _ _ G) 0)
      as (i & c & Hlo & Hi & Hb). cbn [Nat.add] in Hlo.
    pose proof (eq_trans (Hb i c Hi) (Nat.eqb_refl i)) as Hbc.
    unfold ebind at 1 in Eq. destruct (leaf_exact t tr (gs_kind _ _ G) (gs_router _ _ G)) as [(v & He & Hval)|(r & x & He & Hr & Hu)]; rewrite He in Eq.
    + rewrite Hlo in Eq. destruct (holds_nth m before slots i c Hh Hi) as (sl & Hsl & Hfin). rewrite Hsl in Eq.
      unfold ebind at 2 in Eq. unfold elift in Eq.
      assert (Hgo : forall sl', process_result sl (tg_node t) v = Ok sl' ->
                holds m (before ++ [assignment t]) (upd slots i sl')).
      { intros sl' Hp. apply Forall2_nth.
        - rewrite upd_length. unfold holds in Hh. now apply Forall2_same_length in Hh.
        - intros j d Hj. rewrite nth_upd. destruct (holds_nth m before slots j d Hh Hj) as (s2 & Hs2 & Hf2).
          rewrite Hs2. destruct (Nat.eqb_spec j i) as [->|Hne]; cbn [option_map].
          + exists sl'. split; [easy|]. assert (d = c) by congruence. subst d. assert (s2 = sl) by congruence. subst s2.
            unfold slot_final in *. destruct (no_result_value c).
            * subst sl. now injection Hp.
            * destruct Hfin as (o & -> & Hg). rewrite for_child_app.
              assert (Hfc : for_child c [assignment t] = [assignment t]).
              { unfold for_child, assignment. cbn [filter fst]. now rewrite Hbc. }
              rewrite Hfc. cbn [process_result] in Hp. destruct (multi_stage (tg_node t)) as [merge|] eqn:Em.
              -- injection Hp as <-. eexists. split; [reflexivity|]. eapply gathered_app; [exact Hg|].
                 eapply gathered_stage; [exact Hval|exact Em|constructor].
              -- destruct o as [w|]; [discriminate|]. injection Hp as <-. eexists. split; [reflexivity|].
                 eapply gathered_app; [exact Hg|]. eapply gathered_once; [exact Hval|exact Em|constructor].
          + exists s2. split; [easy|]. unfold slot_final in *. destruct (no_result_value d); [easy|].
            assert (Hfc : for_child d (before ++ [assignment t]) = for_child d before).
            { rewrite for_child_app. unfold for_child at 2. unfold assignment. cbn [filter fst]. rewrite (Hb j d Hj).
              apply Nat.eqb_neq in Hne. rewrite Hne. apply app_nil_r. }
            now rewrite Hfc. }
      assert (Happ : before ++ assignment t :: map assignment ts = (before ++ [assignment t]) ++ map assignment ts)
        by now rewrite <- app_assoc.
      destruct (process_result sl (tg_node t) v) as [sl'|e| | |] eqn:Epr.
      * unfold ebind, eret in Eq. subst q. rewrite Happ. apply IH; [now apply Hgo|]. apply Forall_app. split; [easy|]. constructor; [|constructor].
        exists v. exact Hval.
      * right. unfold ebind in Eq. subst q. eexists _, _. split; [reflexivity|]. split; [reflexivity|].
        unfold process_result in Epr. destruct sl as [|old]; [discriminate|].
        destruct (multi_stage (tg_node t)) eqn:Em; [discriminate|]. destruct old as [w|]; [|discriminate]. injection Epr as <-.
        unfold slot_final in Hfin. destruct (no_result_value c) eqn:En; [discriminate|]. destruct Hfin as (o & [= <-] & Hg).
        rewrite <- shown_token. apply (undelivered_again m _ before (tg_node t) (tg_toks t) (map assignment ts) v c); auto.
        -- apply filter_In. split; [now apply nth_error_In in Hi|]. now rewrite En.
        -- intros E. rewrite E in Hg. inversion Hg.
      * unfold process_result in Epr. destruct sl as [|[w|]]; try discriminate; destruct (multi_stage (tg_node t)); discriminate.
      * unfold process_result in Epr. destruct sl as [|[w|]]; try discriminate; destruct (multi_stage (tg_node t)); discriminate.
      * unfold process_result in Epr. destruct sl as [|[w|]]; try discriminate; destruct (multi_stage (tg_node t)); discriminate.
    + right. assert (Hun : undelivered m (before ++ assignment t :: map assignment ts) x).
      { apply (undelivered_unread m _ before (tg_node t) (tg_toks t) (map assignment ts)); auto. }
      subst q. destruct r; [easy|..]; eexists _, x; (split; [reflexivity|easy]).
Qed.

(** ** Missing values *)

Lemma process_missing_exact c :
  (exists v, process_missing c = Ok v)
  \/ (mandatory c /\ process_missing c = Throw (EML missing_required_argument [shown c]))
  \/ (~ mandatory c /\ exists e, off_range c (last (default_values c) (vt_init (n_ty c))) e
      /\ process_missing c = Throw (EML e [shown c])).
Proof.
  unfold process_missing.
  destruct (run_missing_spec c (n_pols c) None) as [(Hm & o & -> & Hd)|(Hm & ->)]; cbn [rbind].
  - rewrite (Hd (vt_init (n_ty c))). change (defaults_in (n_pols c)) with (default_values c).
    destruct (validate_exact c (last (default_values c) (vt_init (n_ty c)))) as [->|(e & He & ->)]; cbn [rbind].
    + eauto.
    + right. right. split; [easy|]. eauto.
  - right. left. split; [easy|]. now rewrite shown_token.
Qed.

Definition filled (asg : list (node * list token)) (c : node) (sl : slot) : Prop :=
  if no_result_value c then sl = NoSlot
  else exists v, sl = Slot (Some v)
       /\ (gathered None (for_child c asg) (Some v) \/ for_child c asg = [] /\ process_missing c = Ok v).

Lemma fill_missing_exact asg cs slots : Forall2 (slot_final asg) cs slots ->
  (exists slots', fill_missing cs slots = Ok slots' /\ Forall2 (filled asg) cs slots')
  \/ (exists before c after x, filter (fun c => negb (no_result_value c)) cs = before ++ c :: after
        /\ (forall d, In d before -> for_child d asg = [] -> exists v, delivered d asg v)
        /\ for_child c asg = []
        /\ (mandatory c /\ x = Throw (EML missing_required_argument [shown c])
            \/ ~ mandatory c /\ exists e, off_range c (last (default_values c) (vt_init (n_ty c))) e
                 /\ x = Throw (EML e [shown c]))
        /\ same_failure (fill_missing cs slots) x).
Proof.
  induction 1 as [|c sl cs slots Hsl _ IH]; cbn [fill_missing].
  - left. exists []. split; [easy|constructor].
  - unfold slot_final in Hsl. cbn [filter]. destruct (no_result_value c) eqn:En; cbn [negb].
    + subst sl. cbn [rbind]. destruct IH as [(sl' & E & H)|(bf & d & af & x & H1 & H2 & H3 & H4 & H5)].
      * left. rewrite E. cbn [rbind]. eexists. split; [reflexivity|]. constructor; [|easy]. unfold filled. now rewrite En.
      * right. exists bf, d, af, x. rewrite H1. split; [easy|]. split; [easy|]. split; [easy|]. split; [easy|].
        destruct (fill_missing cs slots); easy.
    + destruct Hsl as (o & -> & Hg).
      assert (Hrest : forall v, filled asg c (Slot (Some v)) -> (for_child c asg = [] -> exists v, delivered c asg v) ->
        let run := (rest <- fill_missing cs slots ;; Ok (Slot (Some v) :: rest))%res in
        (exists slots', run = Ok slots' /\ Forall2 (filled asg) (c :: cs) slots')
        \/ (exists before d after x, c :: filter (fun c => negb (no_result_value c)) cs = before ++ d :: after
              /\ (forall d, In d before -> for_child d asg = [] -> exists v, delivered d asg v)
              /\ for_child d asg = []
              /\ (mandatory d /\ x = Throw (EML missing_required_argument [shown d])
                  \/ ~ mandatory d /\ exists e, off_range d (last (default_values d) (vt_init (n_ty d))) e
                       /\ x = Throw (EML e [shown d]))
              /\ same_failure run x)).
      { intros v Hf Hdel run. unfold run. destruct IH as [(sl' & E & H)|(bf & d & af & x & H1 & H2 & H3 & H4 & H5)].
        - left. rewrite E. cbn [rbind]. eexists. split; [reflexivity|]. now constructor.
        - right. exists (c :: bf), d, af, x. rewrite H1. split; [easy|]. split; [intros e [<-|He]; auto|].
          split; [easy|]. split; [easy|]. destruct (fill_missing cs slots); easy. }
      destruct o as [v|].
      * cbn [rbind]. apply Hrest.
        -- unfold filled. rewrite En. exists v. auto.
        -- intros E. rewrite E in Hg. inversion Hg.
      * apply gathered_none in Hg. destruct (process_missing_exact c) as [[v Hv]|Hbad].
        -- rewrite Hv. cbn [rbind]. apply Hrest.
           ++ unfold filled. rewrite En. exists v. auto.
           ++ intros _. exists v. apply process_missing_spec in Hv as (K1 & K2 & K3). now apply delivered_missing.
        -- right. destruct Hbad as [[Hm E]|[Hm (e & He & E)]]; rewrite E; cbn [rbind].
           ++ exists [], c, (filter (fun c => negb (no_result_value c)) cs). eexists. split; [easy|]. split; [easy|].
              split; [easy|]. split; [left; easy|]. reflexivity.
           ++ exists [], c, (filter (fun c => negb (no_result_value c)) cs). eexists. split; [easy|]. split; [easy|].
              split; [easy|]. split; [right; eauto|]. reflexivity.
Qed.

Lemma msv_exact asg cs slots : Forall2 (filled asg) cs slots ->
  (exists vs, msv_validate cs slots = Ok tt /\ slot_values slots = Ok vs
     /\ Forall2 (fun c v => delivered c asg v) (filter (fun c => negb (no_result_value c)) cs) vs)
  \/ (exists before c after v e, filter (fun c => negb (no_result_value c)) cs = before ++ c :: after
        /\ (forall d, In d before -> exists v, delivered d asg v)
        /\ repeatable c /\ gathered None (for_child c asg) (Some v) /\ off_range c v e
        /\ msv_validate cs slots = Throw (EML e [shown c])).
Proof.
  induction 1 as [|c sl cs slots Hsl _ IH]; cbn [msv_validate slot_values].
  - left. exists []. split; [easy|]. split; [easy|constructor].
  - unfold filled in Hsl. cbn [filter]. destruct (no_result_value c) eqn:En; cbn [negb].
    + subst sl. cbn [rbind]. destruct IH as [(vs & H1 & H2 & H3)|IH]; [left; eauto|right; exact IH].
    + destruct Hsl as (v & -> & Hv).
      assert (Hok : (is_msv c = true -> validate c v = Ok tt) ->
        (_ <- (if is_msv c then validate c v else Ok tt) ;; msv_validate cs slots)%res = msv_validate cs slots
        /\ delivered c asg v).
      { intros H. split.
        - destruct (is_msv c); [rewrite H by easy|]; reflexivity.
        - destruct Hv as [Hg|[Hno Hp]].
          + apply delivered_typed; [easy|]. intros Hr. apply validate_spec, H. now apply repeatable_msv.
          + apply process_missing_spec in Hp as (K1 & K2 & K3). now apply delivered_missing. }
      assert (Hcase : (is_msv c = true -> validate c v = Ok tt)
                \/ (is_msv c = true /\ exists e, off_range c v e /\ validate c v = Throw (EML e [shown c]))).
      { destruct (is_msv c); [|now left]. destruct (validate_exact c v) as [Hx|Hx]; [now left|now right]. }
      destruct Hcase as [H|(Hms & e & He & Hx)].
      * destruct (Hok H) as [-> Hdel]. destruct IH as [(vs & H1 & H2 & H3)|(bf & d & af & w & e & H1 & H2 & H3)].
        -- left. exists (v :: vs). rewrite H2. split; [easy|]. split; [easy|]. now constructor.
        -- right. exists (c :: bf), d, af, w, e. rewrite H1. split; [easy|]. split; [|exact H3].
           intros k [<-|Hk]; eauto.
      * right. exists [], c, (filter (fun c => negb (no_result_value c)) cs), v, e. split; [easy|]. split; [easy|].
        split; [now apply repeatable_msv|]. rewrite Hms, Hx. cbn [rbind]. split; [|easy].
        destruct Hv as [Hg|[Hno Hp]]; [easy|]. exfalso. apply process_missing_spec in Hp as (K1 & K2 & K3).
        apply validate_spec in K3. rewrite K3 in Hx. discriminate.
Qed.

(** ** The parse of a mode *)

Lemma mode_parse_exact m ts tr : distinct_types m -> Forall (good_sub m) ts ->
  let asg := map assignment ts in
  let run := mode_parse m (map (fun t => (tg_node t, exec t)) ts) tr in
  (exists vs, has_router m = true /\ deliveries m asg vs /\ run = (tr ++ [EvRoute m vs], Ok None))
  \/ (exists r x, run = (tr, r) /\ same_failure r x /\ undelivered m asg x).
Proof.
  intros Hd Hg asg run. remember run as q eqn:Eq. unfold run, mode_parse in Eq. clear run.
  unfold ebind at 1 in Eq.
  destruct (run_subs_exact m ts Hd Hg [] (map init_slot (n_children m)) tr (holds_init m) (Forall_nil _))
    as [(slots & Hrun & Hh & Hv)|(r & x & Hrun & Hr & Hu)]; rewrite Hrun in Eq.
  2:{ right. subst q. destruct r; [easy|..]; eexists _, x; (split; [reflexivity|easy]). }
  cbn [app] in Hh, Hv. fold asg in Hh, Hv. pose proof (holds_settled m asg slots Hv Hh) as Hset.
  unfold ebind, elift in Eq. destruct (fill_missing_exact asg (n_children m) slots Hh)
    as [(slots' & Hf & Hfl)|(bf & c & af & x & H1 & H2 & H3 & H4 & H5)].
  - rewrite Hf in Eq. destruct (msv_exact asg (n_children m) slots' Hfl) as [(vs & E1 & E2 & E3)|(bf & c & af & v & e & H1 & H2 & H3 & H4 & H5 & H6)].
    + assert (Hdel : deliveries m asg vs) by (split; [exact Hv|exact E3]).
      rewrite E1 in Eq. destruct (has_router m) eqn:Er.
      * left. exists vs. rewrite E2 in Eq. easy.
      * right. subst q. eexists _, _. split; [reflexivity|]. split; [reflexivity|]. rewrite <- shown_token.
        now apply (undelivered_router m asg vs).
    + rewrite H6 in Eq. right. subst q. eexists _, _. split; [reflexivity|]. split; [reflexivity|].
      eapply undelivered_range; eauto.
      intros d Hd' Hno. clear - Hfl Hd' Hno. unfold router_children in Hd'.
      revert slots' Hfl. induction (n_children m) as [|k cs IH]; intros slots' Hfl; [easy|].
      inversion Hfl as [|? sl ? sls Hs Hss]; subst. cbn [filter] in Hd'. unfold filled in Hs.
      destruct (no_result_value k) eqn:En; cbn [negb] in Hd'; [now apply (IH Hd' sls)|].
      destruct Hd' as [->|Hd']; [|now apply (IH Hd' sls)].
      destruct Hs as (w & _ & [Hg|[_ Hp]]).
      * rewrite Hno in Hg. inversion Hg.
      * exists w. apply process_missing_spec in Hp as (K1 & K2 & K3). now apply delivered_missing.
  - right. assert (Hun : undelivered m asg x).
    { destruct H4 as [[Hm ->]|[Hm (e & He & ->)]].
      - eapply undelivered_missing; eauto.
      - eapply undelivered_default; eauto. }
    subst q. destruct (fill_missing (n_children m) slots); [easy|..]; eexists _, x; (split; [reflexivity|easy]).
Qed.

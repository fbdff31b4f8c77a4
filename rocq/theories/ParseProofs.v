(** Lemmas on the parse stage. *)
From Verif Require Import Bytes Token Adapter Result CodePoint Utf8 Tree PreParse Parse Root Validator.
From Verif Require Import SpecMode SpecDeliver OrderProofs TreeProofs NodeProofs ModeProofs.

Lemma parse_token_spec l s v : parse_token l s = Ok v <-> reads_as l s v.
Proof. unfold parse_token, reads_as. destruct (custom_parser l); easy. Qed.

Lemma validate_spec l v : validate l v = Ok tt <-> in_range l v.
Proof.
  unfold validate, in_range. induction (n_pols l) as [|p ps IH]; [easy|].
  destruct p; cbn [validate_with];
    try (rewrite IH; split; intros H ? ? ? Hin; [destruct Hin as [[=]|Hin]|]; eauto using in_cons; fail).
  split.
  - intros H. destruct (check_value mn mx lt l v) eqn:E; cbn [rbind] in H; try discriminate.
    intros mn0 mx0 lt0 [[= <- <- <-]|Hin]; [|now apply IH].
    unfold check_value in E. destruct mn as [m1|], mx as [m2|];
      repeat match type of E with context [if ?x then _ else _] => destruct x eqn:? end; try discriminate;
      split; intros ? [= <-]; auto.
  - intros H. destruct (H mn mx lt (or_introl eq_refl)) as [H1 H2].
    assert (Hc : check_value mn mx lt l v = Ok tt).
    { unfold check_value. destruct mn as [m1|], mx as [m2|]; rewrite ?(H1 _ eq_refl), ?(H2 _ eq_refl); easy. }
    rewrite Hc. cbn [rbind]. apply IH. intros ? ? ? Hin. apply H. now right.
Qed.

Lemma validate_unit l v u : validate l v = Ok u -> validate l v = Ok tt.
Proof. now destruct u. Qed.

Lemma map_res_spec {A B} (f : A -> res B) l ys :
  map_res f l = Ok ys <-> Forall2 (fun x y => f x = Ok y) l ys.
Proof.
  revert ys. induction l as [|x l IH]; intros ys; cbn [map_res].
  - split; [intros [= <-]; constructor|]. intros H. now inversion H.
  - split.
    + intros H. destruct (f x) eqn:E; try discriminate. cbn [rbind] in H.
      destruct (map_res f l) eqn:E2; try discriminate. cbn [rbind] in H. injection H as <-.
      constructor; [easy|]. now apply IH.
    + intros H. inversion H as [|? y ? ys' Hy Hys]; subst. rewrite Hy. cbn [rbind].
      apply IH in Hys. rewrite Hys. easy.
Qed.

Lemma Forall2_impl {A B} (P Q : A -> B -> Prop) l m :
  (forall x y, P x y -> Q x y) -> Forall2 P l m -> Forall2 Q l m.
Proof. intros H. induction 1; constructor; auto. Qed.

(** A target of an argument node below a mode. *)
Definition is_value_leaf (n : node) : bool :=
  match n_kind n with KFlag | KArg _ | KCountingFlag => true | _ => false end.

(** The value of an argument node. *)
Lemma arg_result_spec n c toks v : n_kind n = KArg c ->
  (w <- arg_value n toks ;; _ <- validate n w ;; Ok (Some w))%res = Ok (Some v) <-> value_of n toks v.
Proof.
  intros Ek. unfold arg_value. split.
  * intros H.
    destruct (vt_container (n_ty n)) eqn:Ec.
    -- destruct (map_res _ toks) as [vs| | | |] eqn:Em; try discriminate. cbn [rbind] in H.
       destruct (validate n (VList vs)) as [u| | | |] eqn:Ev; try discriminate. cbn [rbind] in H.
       injection H as <-. apply (value_list n c); auto.
       ++ apply map_res_spec in Em. eapply Forall2_impl; [|exact Em]. intros a w. apply parse_token_spec.
       ++ apply validate_spec. now destruct u.
    -- destruct toks as [|t0 ts]; cbn [rbind] in H.
       ++ destruct (validate n _) as [u| | | |] eqn:Ev; try discriminate. cbn [rbind] in H.
          injection H as <-. apply (value_empty n c); auto. apply validate_spec. now destruct u.
       ++ destruct (parse_token n (t_name t0)) as [w| | | |] eqn:Ep; try discriminate. cbn [rbind] in H.
          destruct (validate n w) as [u| | | |] eqn:Ev; try discriminate. cbn [rbind] in H.
          injection H as <-. apply (value_single n c); auto; [now apply parse_token_spec|].
          apply validate_spec. now destruct u.
  * intros H. inversion H as [? [E|E]|? t0 ts ? Ek' Ec Hp Hr'|? Ek' Ec Hr'|? ? vs Ek' Ec Hp Hr']; subst;
      try congruence; rewrite Ec.
    -- apply parse_token_spec in Hp. rewrite Hp. cbn [rbind]. apply validate_spec in Hr'. now rewrite Hr'.
    -- cbn [rbind]. apply validate_spec in Hr'. now rewrite Hr'.
    -- assert (Hm : map_res (fun t => parse_token n (t_name t)) toks = Ok vs).
       { apply map_res_spec. eapply Forall2_impl; [|exact Hp]. intros a w. apply parse_token_spec. }
       rewrite Hm. cbn [rbind]. apply validate_spec in Hr'. now rewrite Hr'.
Qed.

Lemma exec_leaf t tr : is_value_leaf (tg_node t) = true -> has_router (tg_node t) = false ->
  exists r, exec t tr = (tr, r) /\ r <> Ok None
    /\ (forall v, r = Ok (Some v) <-> value_of (tg_node t) (tg_toks t) v).
Proof.
  destruct t as [n parents toks subs]. cbn [tg_node tg_toks]. intros Hl Hr.
  unfold is_value_leaf in Hl. cbn [exec].
  destruct (n_kind n) as [|c| | | | | |] eqn:Ek; try discriminate.
  - unfold flag_parse. rewrite Hr. cbn. eexists. split; [reflexivity|]. split; [easy|]. intros v.
    split; [intros [= <-]; constructor; now left|].
    intros H. inversion H; subst; congruence.
  - unfold arg_parse. rewrite Hr.
    exists (v <- arg_value n toks ;; _ <- validate n v ;; Ok (Some v))%res. split; [|split].
    + unfold ebind, elift, eret. destruct (arg_value n toks) as [v| | | |]; try reflexivity. cbn [rbind].
      destruct (validate n v); reflexivity.
    + destruct (arg_value n toks) as [v| | | |]; try discriminate. cbn [rbind].
      destruct (validate n v); discriminate.
    + intros v. now apply (arg_result_spec n c).
  - cbn. eexists. split; [reflexivity|]. split; [easy|]. intros v.
    split; [intros [= <-]; constructor; now right|].
    intros H. inversion H; subst; congruence.
Qed.

(** ** Which child a value belongs to *)

Lemma belongs_in c l : In l (below c) -> belongs c l = true.
Proof. intros H. apply existsb_exists. exists l. split; [easy|]. apply N.eqb_refl. Qed.

Lemma belongs_id c l : belongs c l = true -> exists d, In d (below c) /\ n_id d = n_id l.
Proof. intros H. apply existsb_exists in H as (d & Hd & E). apply N.eqb_eq in E. eauto. Qed.

Lemma nodup_app_l {A} (x y : list A) : NoDup (x ++ y) -> NoDup x.
Proof. induction x as [|a x IH]; [constructor|]. cbn. intros H. inversion H; subst. constructor; auto.
  intros Hin. apply H2. apply in_or_app. now left. Qed.
Lemma nodup_app_r {A} (x y : list A) : NoDup (x ++ y) -> NoDup y.
Proof. induction x as [|a x IH]; [easy|]. cbn. intros H. inversion H; auto. Qed.
Lemma nodup_app_disj {A} (x y : list A) a : NoDup (x ++ y) -> In a x -> In a y -> False.
Proof.
  induction x as [|b x IH]; [easy|]. cbn. intros H [<-|Hx] Hy; inversion H; subst; [|now apply IH].
  apply H2. apply in_or_app. now right.
Qed.

Lemma match_child_none c id : (forall d, In d (below c) -> n_id d <> id) -> match_child c id = None.
Proof.
  intros H. unfold match_child. destruct (find _ _) as [[d ps]|] eqn:E; [|easy].
  apply find_some in E as [Hin E]. cbn [fst] in E. apply andb_true_iff in E as [_ E]. apply N.eqb_eq in E.
  exfalso. apply (H d); [|easy]. apply in_map_iff. exists (d, ps). easy.
Qed.

Lemma match_child_some c l : NoDup (map n_id (below c)) -> In l (below c) -> is_value_leaf l = true ->
  match_child c (n_id l) = Some l.
Proof.
  intros Hd Hl Hv. unfold match_child. destruct (find _ _) as [[d ps]|] eqn:E.
  - apply find_some in E as [Hin E]. cbn [fst] in E. apply andb_true_iff in E as [_ E]. apply N.eqb_eq in E.
    cbn. f_equal. eapply nodup_map_inj; [exact Hd| | |easy]; [|easy]. apply in_map_iff. exists (d, ps). easy.
  - apply in_map_iff in Hl as ([d ps] & Ed & Hin). cbn in Ed. subst d.
    pose proof (find_none _ _ E _ Hin) as Hn. cbn [fst] in Hn. rewrite N.eqb_refl in Hn.
    unfold is_value_leaf in Hv. unfold is_mode, has_parse_method in Hn. destruct (n_kind l); easy.
Qed.

Lemma locate_spec cs l : NoDup (map n_id (flat_map below cs)) -> In l (flat_map below cs) ->
  is_value_leaf l = true ->
  forall k, exists i c, locate cs k (n_id l) = Some (k + i, l) /\ nth_error cs i = Some c
    /\ (forall j d, nth_error cs j = Some d -> belongs d l = Nat.eqb j i).
Proof.
  induction cs as [|c cs IH]; intros Hd Hl Hv k; [easy|]. cbn [flat_map locate] in *.
  rewrite map_app in Hd. apply in_app_iff in Hl as [Hl|Hl].
  - exists 0, c. rewrite (match_child_some c l); auto; [|now apply nodup_app_l in Hd].
    split; [now rewrite Nat.add_0_r|]. split; [easy|]. intros [|j] d Hj; cbn in Hj.
    + injection Hj as <-. now apply belongs_in.
    + cbn. destruct (belongs d l) eqn:Eb; [|easy]. apply belongs_id in Eb as (e & He & Ee). exfalso.
      apply (nodup_app_disj _ _ (n_id l) Hd); [now apply in_map|]. rewrite <- Ee. apply in_map.
      apply in_flat_map. exists d. split; [now apply nth_error_In in Hj|easy].
  - assert (Hno : forall d, In d (below c) -> n_id d <> n_id l).
    { intros d Hdc E. apply (nodup_app_disj _ _ (n_id l) Hd); [rewrite <- E|]; now apply in_map. }
    rewrite match_child_none by easy.
    destruct (IH (nodup_app_r _ _ Hd) Hl Hv (S k)) as (i & d & Hlo & Hi & Hb).
    exists (S i), d. split; [rewrite Hlo; f_equal; f_equal; lia|]. split; [easy|].
    intros [|j] e Hj; cbn in Hj.
    + injection Hj as <-. cbn. destruct (belongs c l) eqn:Eb; [|easy].
      apply belongs_id in Eb as (e & He & Ee). now apply Hno in He.
    + cbn. now apply Hb.
Qed.

(** ** Running the sub-targets *)

Definition assignment (t : target) : node * list token := (tg_node t, tg_toks t).

Record good_sub (m : node) (t : target) : Prop := {
  gs_kind : is_value_leaf (tg_node t) = true;
  gs_router : has_router (tg_node t) = false;
  gs_below : In (tg_node t) (flat_map below (n_children m))
}.

(** How the slot of child [c] changes. *)
Definition slot_after (c : node) (asg : list (node * list token)) (sl sl' : slot) : Prop :=
  match sl, sl' with
  | NoSlot, NoSlot => True
  | Slot o, Slot o' => gathered o (for_child c asg) o'
  | _, _ => False
  end.

Definition slots_after (cs : list node) (asg : list (node * list token)) (slots slots' : list slot) : Prop :=
  List.length slots' = List.length slots
  /\ forall i c sl, nth_error cs i = Some c -> nth_error slots i = Some sl ->
       exists sl', nth_error slots' i = Some sl' /\ slot_after c asg sl sl'.

Lemma upd_length {A} (l : list A) : forall i v, List.length (upd l i v) = List.length l.
Proof. induction l as [|x l IH]; intros [|i] v; cbn [upd List.length]; auto. Qed.

Lemma nth_upd {A} (l : list A) : forall i j v,
  nth_error (upd l i v) j = if Nat.eqb j i then option_map (fun _ => v) (nth_error l j) else nth_error l j.
Proof.
  induction l as [|x l IH]; intros [|i] [|j] v; cbn [upd nth_error Nat.eqb]; auto.
  now destruct (Nat.eqb j i).
Qed.

Lemma value_of_fun l vals v w : value_of l vals v -> value_of l vals w -> is_value_leaf l = true ->
  has_router l = false -> v = w.
Proof.
  intros H1 H2 Hk Hr. destruct (exec_leaf (Target l [] vals []) [] Hk Hr) as (r & _ & _ & Hv).
  cbn [tg_node tg_toks] in Hv. apply Hv in H1, H2. congruence.
Qed.

Lemma slot_after_skip c asg l vals sl sl' : belongs c l = false ->
  slot_after c ((l, vals) :: asg) sl sl' <-> slot_after c asg sl sl'.
Proof.
  intros Hb. unfold slot_after, for_child. cbn [filter fst]. rewrite Hb. easy.
Qed.

Lemma process_slot c asg l vals v sl r :
  is_value_leaf l = true -> has_router l = false -> belongs c l = true -> value_of l vals v ->
  process_result sl l v = r ->
  match r with
  | Ok sl1 => forall sl', slot_after c ((l, vals) :: asg) sl sl' <-> slot_after c asg sl1 sl'
  | _ => forall sl', ~ slot_after c ((l, vals) :: asg) sl sl'
  end.
Proof.
  intros Hk Hr Hb Hv <-. unfold process_result. destruct sl as [|o].
  - intros sl'. unfold slot_after. now destruct sl'.
  - assert (Hf : for_child c ((l, vals) :: asg) = (l, vals) :: for_child c asg)
      by (unfold for_child; cbn [filter fst]; now rewrite Hb).
    destruct (multi_stage l) as [merge|] eqn:Em.
    + intros [|o']; cbn [slot_after]; [easy|]. rewrite Hf. split; intros H.
      * inversion H as [|? ? ? v' merge' ? ? Hv' Em' Hg|? ? v' ? ? Hv' Em' Hg]; subst; [|congruence].
        rewrite (value_of_fun _ _ _ _ Hv Hv' Hk Hr). congruence.
      * now apply (gathered_stage o l vals v merge).
    + destruct o as [w|].
      * intros [|o']; cbn [slot_after]; [easy|]. rewrite Hf. intros H.
        inversion H; subst; congruence.
      * intros [|o']; cbn [slot_after]; [easy|]. rewrite Hf. split; intros H.
        -- inversion H as [|? ? ? v' merge' ? ? Hv' Em' Hg|? ? v' ? ? Hv' Em' Hg]; subst; [congruence|].
           now rewrite (value_of_fun _ _ _ _ Hv Hv' Hk Hr).
        -- now apply (gathered_once l vals v).
Qed.

Lemma nth_error_ext {A} (x y : list A) : (forall i, nth_error x i = nth_error y i) -> x = y.
Proof.
  revert y. induction x as [|a x IH]; intros [|b y] H; auto.
  - specialize (H 0). discriminate.
  - specialize (H 0). discriminate.
  - pose proof (H 0) as H0. injection H0 as ->. f_equal. apply IH. intros i. apply (H (S i)).
Qed.

Lemma slots_after_nil cs slots slots' : List.length slots = List.length cs ->
  slots_after cs [] slots slots' <-> slots' = slots.
Proof.
  intros Hl. split.
  - intros [Hl' H]. apply nth_error_ext. intros i.
    destruct (nth_error slots i) as [sl|] eqn:Es.
    + destruct (nth_error cs i) as [c|] eqn:Ec.
      * destruct (H i c sl Ec Es) as (sl' & -> & Hs). f_equal. unfold slot_after, for_child in Hs. cbn in Hs.
        destruct sl, sl'; try easy. inversion Hs; subst. easy.
      * apply nth_error_None in Ec. assert (nth_error slots i <> None) by congruence.
        apply nth_error_Some in H0. lia.
    + apply nth_error_None in Es. apply nth_error_None. lia.
  - intros ->. split; [easy|]. intros i c sl _ Hsl. exists sl. split; [easy|].
    destruct sl; cbn; [easy|constructor].
Qed.

Lemma distinct_children m : distinct_types m -> NoDup (map n_id (flat_map below (n_children m))).
Proof. unfold distinct_types. rewrite below_eq. cbn [map]. intros H. now inversion H. Qed.

Lemma run_subs_spec m ts : distinct_types m -> Forall (good_sub m) ts ->
  forall slots tr, List.length slots = List.length (n_children m) ->
  exists r, run_subs (map (fun t => (tg_node t, exec t)) ts) (n_children m) slots tr = (tr, r)
    /\ forall slots', r = Ok slots' <->
         Forall (fun t => exists v, value_of (tg_node t) (tg_toks t) v) ts
         /\ slots_after (n_children m) (map assignment ts) slots slots'.
Proof.
  intros Hd. apply distinct_children in Hd. induction 1 as [|t ts G _ IH]; intros slots tr Hl.
  - cbn [map run_subs]. exists (Ok slots). split; [easy|]. intros slots'. rewrite slots_after_nil by easy.
    split; [intros [= <-]; now split|]. now intros [_ ->].
  - cbn [map run_subs]. destruct (exec_leaf t tr (gs_kind _ _ G) (gs_router _ _ G)) as (r0 & He & Hne & Hv).
    destruct (locate_spec (n_children m) (tg_node t) Hd (gs_below _ _ G) (gs_kind _ _ G) 0)
      as (i & c & Hlo & Hi & Hb). cbn [Nat.add] in Hlo.
    unfold ebind at 1. rewrite He. destruct r0 as [[v|]| | | |].
    + assert (Hval : value_of (tg_node t) (tg_toks t) v) by now apply Hv.
      rewrite Hlo. destruct (nth_error slots i) as [sl|] eqn:Es.
      2:{ apply nth_error_None in Es. assert (nth_error (n_children m) i <> None) as Hx by congruence.
          apply nth_error_Some in Hx. lia. }
      unfold ebind at 2. unfold elift.
      pose proof (fun asg => process_slot c asg (tg_node t) (tg_toks t) v sl _ (gs_kind _ _ G) (gs_router _ _ G)
                    (eq_trans (Hb i c Hi) (Nat.eqb_refl i)) Hval eq_refl) as Hp.
      (* the effect of the whole list, slot by slot *)
      assert (Hbad : (forall sl', ~ slot_after c (map assignment (t :: ts)) sl sl') ->
                forall slots', ~ slots_after (n_children m) (map assignment (t :: ts)) slots slots').
      { intros Hno slots' [_ H]. destruct (H i c sl Hi Es) as (sl' & _ & Hs). now apply Hno in Hs. }
      destruct (process_result sl (tg_node t) v) as [sl1| | | |] eqn:Epr.
      * unfold ebind, eret.
        destruct (IH (upd slots i sl1) tr) as (r & Hrun & Hr); [now rewrite upd_length|].
        exists r. split; [exact Hrun|]. intros slots'. rewrite Hr.
        assert (Hsa : slots_after (n_children m) (map assignment ts) (upd slots i sl1) slots'
                      <-> slots_after (n_children m) (map assignment (t :: ts)) slots slots').
        { unfold slots_after. rewrite upd_length. split; intros [Hl' H]; (split; [easy|]).
          - intros j d sl2 Hj Hs2. destruct (Nat.eqb_spec j i) as [->|Hne'].
            + assert (d = c) by congruence. subst d. assert (sl2 = sl) by congruence. subst sl2.
              destruct (H i c sl1 Hi) as (sl' & Hn & Ha).
              { rewrite nth_upd, Nat.eqb_refl, Es. easy. }
              exists sl'. split; [easy|]. cbn [map]. now apply Hp.
            + destruct (H j d sl2 Hj) as (sl' & Hn & Ha).
              { rewrite nth_upd. apply Nat.eqb_neq in Hne'. now rewrite Hne'. }
              exists sl'. split; [easy|]. cbn [map]. apply slot_after_skip; [|easy].
              rewrite (Hb j d Hj). now apply Nat.eqb_neq.
          - intros j d sl2 Hj Hs2. rewrite nth_upd in Hs2. destruct (Nat.eqb_spec j i) as [->|Hne'].
            + rewrite Es in Hs2. injection Hs2 as <-. assert (d = c) by congruence. subst d.
              destruct (H i c sl Hi Es) as (sl' & Hn & Ha). exists sl'. split; [easy|]. now apply Hp.
            + destruct (H j d sl2 Hj Hs2) as (sl' & Hn & Ha). exists sl'. split; [easy|].
              apply (slot_after_skip d _ (tg_node t) (tg_toks t)); [|easy].
              rewrite (Hb j d Hj). now apply Nat.eqb_neq. }
        rewrite Hsa. split.
        -- intros [Hf Hs]. split; [|easy]. constructor; eauto.
        -- intros [Hf Hs]. split; [|easy]. now inversion Hf.
      * eexists. split; [reflexivity|]. intros slots'. split; [discriminate|]. intros [_ Hs].
        exfalso. apply (Hbad (Hp _) slots' Hs).
      * eexists. split; [reflexivity|]. intros slots'. split; [discriminate|]. intros [_ Hs].
        exfalso. apply (Hbad (Hp _) slots' Hs).
      * eexists. split; [reflexivity|]. intros slots'. split; [discriminate|]. intros [_ Hs].
        exfalso. apply (Hbad (Hp _) slots' Hs).
      * eexists. split; [reflexivity|]. intros slots'. split; [discriminate|]. intros [_ Hs].
        exfalso. apply (Hbad (Hp _) slots' Hs).
    + easy.
    + eexists. split; [reflexivity|]. intros slots'. split; [discriminate|]. intros [Hf _].
      inversion Hf as [|? ? [w Hw] _]; subst. apply Hv in Hw. discriminate.
    + eexists. split; [reflexivity|]. intros slots'. split; [discriminate|]. intros [Hf _].
      inversion Hf as [|? ? [w Hw] _]; subst. apply Hv in Hw. discriminate.
    + eexists. split; [reflexivity|]. intros slots'. split; [discriminate|]. intros [Hf _].
      inversion Hf as [|? ? [w Hw] _]; subst. apply Hv in Hw. discriminate.
    + eexists. split; [reflexivity|]. intros slots'. split; [discriminate|]. intros [Hf _].
      inversion Hf as [|? ? [w Hw] _]; subst. apply Hv in Hw. discriminate.
Qed.

(** ** Missing values *)

Definition defaults_in (ps : list policy) : list value :=
  flat_map (fun p => match p with PDefaultValue v => [v] | PRuntimeEnableRequired false v => [v] | _ => [] end) ps.
Definition mandatory_in (ps : list policy) : Prop :=
  In PRequired ps \/ exists v, In (PRuntimeEnableRequired true v) ps.

Lemma mandatory_cons p ps : p <> PRequired -> (forall v, p <> PRuntimeEnableRequired true v) ->
  mandatory_in (p :: ps) <-> mandatory_in ps.
Proof.
  intros H1 H2. unfold mandatory_in. split; intros [H|[v H]].
  - destruct H; [easy|now left].
  - destruct H; [now apply H2 in H|eauto].
  - left. now right.
  - right. exists v. now right.
Qed.

Lemma last_cons {A} (l : list A) : forall x d, last (x :: l) d = last l x.
Proof.
  induction l as [|y l IHl]; intros x d; [easy|].
  change (last (x :: y :: l) d) with (last (y :: l) d). now rewrite !IHl.
Qed.

Lemma run_missing_spec c ps : forall cur,
  (~ mandatory_in ps /\ exists o, run_missing ps c cur = Ok o
     /\ forall d, match o with Some v => v | None => d end
                  = last (defaults_in ps) (match cur with Some v => v | None => d end))
  \/ (mandatory_in ps /\ run_missing ps c cur = Throw (EML missing_required_argument [node_token c])).
Proof.
  induction ps as [|p ps IH]; intros cur.
  - left. split; [intros [[]|[v []]]|]. exists cur. easy.
  - assert (Hskip : missing_phase p c = None -> defaults_in (p :: ps) = defaults_in ps ->
              (mandatory_in (p :: ps) <-> mandatory_in ps) ->
              (~ mandatory_in (p :: ps) /\ exists o, run_missing (p :: ps) c cur = Ok o
                 /\ forall d, match o with Some v => v | None => d end
                  = last (defaults_in (p :: ps)) (match cur with Some v => v | None => d end))
              \/ (mandatory_in (p :: ps)
                  /\ run_missing (p :: ps) c cur = Throw (EML missing_required_argument [node_token c]))).
    { intros H1 H2 H3. cbn [run_missing]. rewrite H1, H2, H3. apply IH. }
    assert (Hset : forall w, missing_phase p c = Some (Ok w) -> defaults_in (p :: ps) = w :: defaults_in ps ->
              (mandatory_in (p :: ps) <-> mandatory_in ps) ->
              (~ mandatory_in (p :: ps) /\ exists o, run_missing (p :: ps) c cur = Ok o
                 /\ forall d, match o with Some v => v | None => d end
                  = last (defaults_in (p :: ps)) (match cur with Some v => v | None => d end))
              \/ (mandatory_in (p :: ps)
                  /\ run_missing (p :: ps) c cur = Throw (EML missing_required_argument [node_token c]))).
    { intros w H1 H2 H3. cbn [run_missing]. rewrite H1, H2, H3. cbn [rbind].
      destruct (IH (Some w)) as [(Hm & o & Ho & Hd)|[Hm Ht]]; [left|now right]. split; [easy|].
      exists o. split; [easy|]. intros d. rewrite last_cons. apply Hd. }
    destruct p; try (apply Hskip; [easy|easy|now apply mandatory_cons]).
    + destruct enabled.
      * right. split; [|easy]. right. exists d. now left.
      * apply (Hset d); [easy|easy|now apply mandatory_cons].
    + apply (Hset v); [easy|easy|now apply mandatory_cons].
    + right. split; [left; now left|easy].
Qed.

Lemma process_missing_spec c v : process_missing c = Ok v <->
  ~ mandatory c /\ v = last (default_values c) (vt_init (n_ty c)) /\ in_range c v.
Proof.
  unfold process_missing.
  destruct (run_missing_spec c (n_pols c) None) as [(Hm & o & -> & Hd)|(Hm & ->)]; cbn [rbind].
  - rewrite (Hd (vt_init (n_ty c))). change (defaults_in (n_pols c)) with (default_values c).
    set (d := last (default_values c) (vt_init (n_ty c))). split.
    + intros H. destruct (validate c d) as [[]| | | |] eqn:E; try discriminate. injection H as <-.
      split; [exact Hm|]. split; [easy|now apply validate_spec].
    + intros (_ & -> & Hr). apply validate_spec in Hr. now rewrite Hr.
  - split; [discriminate|]. intros [Hn _]. now apply Hn in Hm.
Qed.

(** ** The whole parse of a mode *)

Definition leaf_asg (asg : list (node * list token)) : Prop :=
  Forall (fun a => is_value_leaf (fst a) = true /\ has_router (fst a) = false) asg.

Lemma gathered_fun o asg r1 : gathered o asg r1 -> leaf_asg asg -> forall r2, gathered o asg r2 -> r1 = r2.
Proof.
  induction 1 as [o|o l vals v merge more r Hv Hm _ IH|l vals v more r Hv Hm _ IH]; intros Hl r2 H2.
  - now inversion H2.
  - inversion Hl as [|? ? [Hk Hr] Hl']; subst.
    inversion H2 as [|? ? ? v' merge' ? ? Hv' Hm' Hg|? ? v' ? ? Hv' Hm' Hg]; subst; [|congruence].
    apply IH; auto. rewrite (value_of_fun _ _ _ _ Hv Hv' Hk Hr). congruence.
  - inversion Hl as [|? ? [Hk Hr] Hl']; subst.
    inversion H2 as [|? ? ? v' merge' ? ? Hv' Hm' Hg|? ? v' ? ? Hv' Hm' Hg]; subst; [congruence|].
    apply IH; auto. now rewrite (value_of_fun _ _ _ _ Hv Hv' Hk Hr).
Qed.

Lemma gathered_some w asg r : gathered (Some w) asg r -> exists v, r = Some v.
Proof.
  intros H. remember (Some w) as o. revert w Heqo.
  induction H as [o|o l vals v merge more r Hv Hm _ IH|l vals v more r Hv Hm _ IH];
    intros w E; try discriminate; subst; eauto.
Qed.

Lemma gathered_none asg : gathered None asg None -> asg = [].
Proof.
  intros H. inversion H as [|? ? ? ? ? ? ? _ _ Hg|? ? ? ? ? _ _ Hg]; subst; auto;
    apply gathered_some in Hg as [? ?]; discriminate.
Qed.

Lemma repeatable_msv c : is_msv c = true <-> repeatable c.
Proof.
  unfold is_msv, repeatable. rewrite orb_true_iff, existsb_exists. firstorder.
Qed.

(** The slot of a child after all sub-targets ran. *)
Definition slot_final (asg : list (node * list token)) (c : node) (sl : slot) : Prop :=
  if no_result_value c then sl = NoSlot else exists o, sl = Slot o /\ gathered None (for_child c asg) o.

Lemma leaf_asg_child c asg : leaf_asg asg -> leaf_asg (for_child c asg).
Proof. unfold leaf_asg, for_child. rewrite !Forall_forall. intros H a Ha. apply filter_In in Ha as [Ha _]. auto. Qed.

Lemma finish_spec asg cs slots : leaf_asg asg -> Forall2 (slot_final asg) cs slots ->
  forall vs, (exists slots2, fill_missing cs slots = Ok slots2 /\ msv_validate cs slots2 = Ok tt
                             /\ slot_values slots2 = Ok vs)
             <-> Forall2 (fun c v => delivered c asg v) (filter (fun c => negb (no_result_value c)) cs) vs.
Proof.
  intros Hla. induction 1 as [|c sl cs slots Hsl _ IH]; intros vs.
  - cbn. split.
    + intros (s2 & [= <-] & _ & [= <-]). constructor.
    + intros H. inversion H. exists []. easy.
  - cbn [fill_missing filter]. unfold slot_final in Hsl. destruct (no_result_value c) eqn:En; cbn [negb].
    + subst sl. cbn [rbind]. rewrite <- IH. split.
      * intros (s2 & H1 & H2 & H3). destruct (fill_missing cs slots) as [rest| | | |] eqn:Ef; try discriminate.
        cbn [rbind] in H1. injection H1 as <-. cbn [msv_validate rbind slot_values] in *. eauto.
      * intros (rest & H1 & H2 & H3). exists (NoSlot :: rest). rewrite H1. cbn. easy.
    + destruct Hsl as (o & -> & Hg).
      pose proof (leaf_asg_child c asg Hla) as Hlc.
      assert (Hval : forall v, match o with
                | Some w => v = w /\ (is_msv c = true -> validate c v = Ok tt)
                | None => process_missing c = Ok v /\ (is_msv c = true -> validate c v = Ok tt) end
                <-> delivered c asg v).
      { intros v. destruct o as [w|].
        - split.
          + intros [-> Hm]. apply delivered_typed; [easy|]. intros Hrep. apply validate_spec. apply Hm.
            now apply repeatable_msv.
          + intros Hd. destruct Hd as [v Hgv Hr|v Hno _ _ _].
            * pose proof (gathered_fun _ _ _ Hg Hlc _ Hgv) as [= ->]. split; [easy|]. intros Hm.
              apply validate_spec. apply Hr. now apply repeatable_msv.
            * rewrite Hno in Hg. inversion Hg.
        - split.
          + intros [Hp Hm]. apply process_missing_spec in Hp as (Hp1 & Hp2 & Hp3).
            apply delivered_missing; auto. now apply gathered_none.
          + intros Hd. destruct Hd as [v Hgv _|v Hno Hm Hd Hr].
            * pose proof (gathered_fun _ _ _ Hg Hlc _ Hgv). discriminate.
            * split; [now apply process_missing_spec|]. intros _. now apply validate_spec. }
      split.
      * intros (s2 & H1 & H2 & H3).
        assert (Hex : exists v rest, (match o with Some w => v = w | None => process_missing c = Ok v end)
                   /\ fill_missing cs slots = Ok rest /\ s2 = Slot (Some v) :: rest).
        { destruct o as [w|]; cbn [rbind] in H1.
          - destruct (fill_missing cs slots) as [rest| | | |] eqn:Ef; try discriminate. injection H1 as <-. eauto.
          - destruct (process_missing c) as [v| | | |] eqn:Ep; try discriminate. cbn [rbind] in H1.
            destruct (fill_missing cs slots) as [rest| | | |] eqn:Ef; try discriminate. injection H1 as <-. eauto. }
        destruct Hex as (v & rest & Hv & Hf & ->). cbn [msv_validate slot_values] in *.
        destruct (slot_values rest) as [vs'| | | |] eqn:Es; try discriminate. injection H3 as <-.
        assert (Hms : (is_msv c = true -> validate c v = Ok tt) /\ msv_validate cs rest = Ok tt).
        { destruct (is_msv c); [destruct (validate c v) as [[]| | | |]; try discriminate|]; now split. }
        constructor; [|apply IH; exists rest; easy]. apply Hval. destruct o; now split.
      * intros H. inversion H as [|? v ? vs' Hd Hds]; subst. apply IH in Hds as (rest & Hf & Hm & Hs).
        apply Hval in Hd. exists (Slot (Some v) :: rest). rewrite Hf. cbn [msv_validate slot_values].
        rewrite Hm, Hs. destruct o as [w|]; destruct Hd as [Hd1 Hd2]; [subst w|rewrite Hd1]; cbn [rbind].
        -- split; [easy|]. split; [|easy]. destruct (is_msv c); [rewrite Hd2|]; easy.
        -- split; [easy|]. split; [|easy]. destruct (is_msv c); [rewrite Hd2|]; easy.
Qed.

Lemma slots_final asg cs slots' :
  slots_after cs asg (map init_slot cs) slots' -> Forall2 (slot_final asg) cs slots'.
Proof.
  unfold slots_after. rewrite map_length. intros [Hl H].
  assert (H' : forall i c, nth_error cs i = Some c -> exists sl', nth_error slots' i = Some sl' /\ slot_final asg c sl').
  { intros i c Hi. destruct (H i c (init_slot c) Hi) as (sl' & Hn & Ha).
    - now apply map_nth_error.
    - exists sl'. split; [easy|]. unfold slot_final. unfold init_slot in Ha.
      destruct (no_result_value c); cbn [slot_after] in Ha; destruct sl'; try easy. eauto. }
  clear H. revert slots' Hl H'. induction cs as [|c cs IH]; intros [|sl slots'] Hl H'; cbn in Hl; try easy.
  constructor.
  - destruct (H' 0 c eq_refl) as (sl' & [= <-] & Ha). easy.
  - apply IH; [lia|]. intros i d Hi. apply (H' (S i) d Hi).
Qed.

Lemma slots_exist asg cs : forall vs,
  Forall2 (fun c v => delivered c asg v) (filter (fun c => negb (no_result_value c)) cs) vs ->
  exists slots', slots_after cs asg (map init_slot cs) slots'.
Proof.
  induction cs as [|c cs IH]; intros vs H; cbn [filter] in H.
  - exists []. split; [easy|]. intros [|i] c sl Hc; discriminate.
  - assert (Hcons : forall sl', slot_after c asg (init_slot c) sl' ->
              (exists rest, slots_after cs asg (map init_slot cs) rest) ->
              exists slots', slots_after (c :: cs) asg (map init_slot (c :: cs)) slots').
    { intros sl' Hs (rest & Hl & Hr). exists (sl' :: rest). split; [cbn; lia|].
      intros [|i] d sl Hd Hsl; cbn in Hd, Hsl.
      - injection Hd as <-. injection Hsl as <-. exists sl'. easy.
      - now apply Hr. }
    destruct (no_result_value c) eqn:En; cbn [negb] in H.
    + apply (Hcons NoSlot); [unfold init_slot; rewrite En; easy|eauto].
    + inversion H as [|? v ? vs' Hd Hds]; subst. destruct Hd as [v Hg _|v Hno _ _ _].
      * apply (Hcons (Slot (Some v))); [unfold init_slot; rewrite En; easy|eauto].
      * apply (Hcons (Slot None)); [unfold init_slot; rewrite En; cbn; rewrite Hno; constructor|eauto].
Qed.

Lemma mode_parse_spec m ts tr : distinct_types m -> Forall (good_sub m) ts -> has_router m = true ->
  let run := mode_parse m (map (fun t => (tg_node t, exec t)) ts) tr in
  (exists vs, deliveries m (map assignment ts) vs /\ run = (tr ++ [EvRoute m vs], Ok None))
  \/ ((forall vs, ~ deliveries m (map assignment ts) vs)
      /\ exists r, run = (tr, r) /\ (forall x, r <> Ok x)).
Proof.
  intros Hd Hg Hr run. unfold run, mode_parse. rewrite Hr.
  destruct (run_subs_spec m ts Hd Hg (map init_slot (n_children m)) tr) as (r & Hrun & Hspec);
    [now rewrite map_length|].
  unfold ebind, elift, emit, eret. rewrite Hrun.
  assert (Hla : leaf_asg (map assignment ts)).
  { unfold leaf_asg. rewrite Forall_map. eapply Forall_impl; [|exact Hg]. intros t G. cbn [assignment fst].
    split; apply G. }
  assert (Hv : forall vs, deliveries m (map assignment ts) vs ->
             Forall (fun t => exists v, value_of (tg_node t) (tg_toks t) v) ts).
  { intros vs [H _]. now rewrite Forall_map in H. }
  assert (Hsl : forall vs, deliveries m (map assignment ts) vs -> exists slots, r = Ok slots).
  { intros vs Hdl. destruct (slots_exist (map assignment ts) (n_children m) vs) as [slots Hs]; [apply Hdl|].
    exists slots. apply Hspec. split; [now apply (Hv vs)|easy]. }
  assert (Hbad : (forall x, r <> Ok x) -> forall vs, ~ deliveries m (map assignment ts) vs).
  { intros Hx vs Hdl. destruct (Hsl vs Hdl) as [slots E]. now apply Hx in E. }
  destruct r as [slots| | | |];
    try (right; split; [apply Hbad; easy|]; eexists; split; [reflexivity|easy]).
  destruct (proj1 (Hspec slots) eq_refl) as [Hvals Hsa]. apply slots_final in Hsa.
  pose proof (finish_spec _ _ _ Hla Hsa) as Hfin.
  assert (Hno : (forall vs, ~ (exists slots2, fill_missing (n_children m) slots = Ok slots2
                   /\ msv_validate (n_children m) slots2 = Ok tt /\ slot_values slots2 = Ok vs)) ->
                forall vs, ~ deliveries m (map assignment ts) vs).
  { intros H vs [_ Hdl]. apply (H vs). now apply Hfin. }
  destruct (fill_missing (n_children m) slots) as [slots2| | | |] eqn:Ef;
    try (right; split; [apply Hno; intros vs (? & [=] & _)|]; eexists; split; [reflexivity|easy]).
  destruct (msv_validate (n_children m) slots2) as [[]| | | |] eqn:Em;
    try (right; split; [apply Hno; intros vs (? & [= <-] & ? & _); congruence|]; eexists; split; [reflexivity|easy]).
  destruct (slot_values slots2) as [vs| | | |] eqn:Es;
    try (right; split; [apply Hno; intros vs (? & [= <-] & _ & ?); congruence|]; eexists; split; [reflexivity|easy]).
  left. exists vs. split; [|easy]. split; [now rewrite Forall_map|]. apply Hfin. eauto.
Qed.

(** A mode without a router always fails. *)
Lemma mode_parse_no_router m ts tr : distinct_types m -> Forall (good_sub m) ts -> has_router m = false ->
  exists r, mode_parse m (map (fun t => (tg_node t, exec t)) ts) tr = (tr, r) /\ (forall x, r <> Ok x).
Proof.
  intros Hd Hg Hr. unfold mode_parse. rewrite Hr.
  destruct (run_subs_spec m ts Hd Hg (map init_slot (n_children m)) tr) as (r & Hrun & _);
    [now rewrite map_length|].
  unfold ebind, elift. rewrite Hrun. destruct r as [slots| | | |]; try (eexists; split; [reflexivity|easy]).
  destruct (fill_missing _ _); try (eexists; split; [reflexivity|easy]).
  destruct (msv_validate _ _); eexists; (split; [reflexivity|easy]).
Qed.

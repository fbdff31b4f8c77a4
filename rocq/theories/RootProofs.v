(** Lemmas on root_t::parse. *)
From Verif Require Import Bytes Token Adapter Result CodePoint Utf8 Tree Levenshtein PreParse Parse Root Validator.
From Verif Require Import SpecPolicy SpecTokens SpecMode SpecDeliver SpecRoot OrderProofs TreeProofs NodeProofs ModeProofs.
From Verif Require Import SelectProofs ParseProofs MeaningProofs.

Lemma accepted_sub r : accepted r = true -> is_root r = true /\ sub_ok r [].
Proof.
  unfold accepted. intros H. apply andb_true_iff in H as [H1 H2]. split; [easy|].
  rewrite forallb_forall in H2. exact H2.
Qed.

(** The children of the root. *)
Record top_child (r c : node) : Prop := {
  tc_ok : sub_ok c [r];
  tc_kind : is_mode c = true
            \/ leaf c /\ is_mode c = false /\ (forall ns, ~ In (PAlias ns) (n_pols c))
               /\ (n_kind c = KHelp
                   \/ is_value_leaf c = true /\ has_router c = true /\ n_kind c <> KCountingFlag)
}.

Lemma tag_no_result_spec c : has_tag tag_no_result c = false -> (forall ns, ~ In (PAlias ns) (n_pols c)) ->
  no_result_value c = false.
Proof.
  intros H1 H2. unfold no_result_value. destruct (existsb _ _) eqn:E; [|easy].
  apply existsb_exists in E as (p & Hp & E). destruct p; try discriminate.
  - now apply H2 in Hp.
  - assert (has_tag tag_no_result c = true) by (apply existsb_exists; eexists; split; [exact Hp|reflexivity]).
    congruence.
Qed.

Lemma has_router_tag c : has_router c = true -> has_tag tag_router c = true.
Proof.
  unfold has_router. intros E. apply existsb_exists in E as (p & Hp & E). destruct p; try discriminate.
  apply existsb_exists. eexists. split; [exact Hp|reflexivity].
Qed.

Lemma counting_router c tp : node_ok (c, tp) = true -> n_kind c = KCountingFlag -> has_router c = true -> False.
Proof.
  intros H Hk Hr. apply node_ok_policies in H as (H & _ & _). unfold node_static in H. rewrite Hk in H.
  unfold must_not_have in H. cbn [forallb] in H. rewrite (has_router_tag c Hr) in H.
  repeat match goal with Hx : _ && _ = true |- _ => apply andb_true_iff in Hx as [? ?] end. discriminate.
Qed.

Lemma root_child r c : accepted r = true -> In c (n_children r) -> top_child r c.
Proof.
  intros H Hc. apply accepted_sub in H as [Hr Hs]. pose proof (sub_ok_child _ _ _ Hs Hc) as Hsc.
  constructor; [easy|]. pose proof (sub_ok_self _ _ Hsc) as Hok. pose proof (sub_ok_self _ _ Hs) as Hrk.
  apply node_ok_policies in Hrk as (Hrk & _ & _). unfold node_static in Hrk. unfold is_root in Hr.
  destruct (n_kind r) eqn:Ekr; try discriminate.
  repeat match goal with Hx : _ && _ = true |- _ => apply andb_true_iff in Hx as [? ?] end.
  match goal with Hx : forallb (fun c => no_result_value c || has_router c) _ = true |- _ =>
    rewrite forallb_forall in Hx; specialize (Hx c Hc) end.
  assert (Hal : forall ns, ~ In (PAlias ns) (n_pols c)).
  { intros ns Hin. apply node_ok_policies in Hok as (_ & _ & Hp). destruct (Hp _ Hin) as [Hps _].
    cbn [policy_static] in Hps. apply andb_true_iff in Hps as [Hmh Hps].
    destruct (count_bounds c) as [[? ?]|]; [|easy]. unfold nearest_mode_like in Hps. cbn [find] in Hps.
    assert (Hrc : has_router c = false).
    { unfold must_not_have in Hmh. cbn [forallb] in Hmh.
      repeat match goal with Hx : _ && _ = true |- _ => apply andb_true_iff in Hx as [? ?] end.
      match goal with Hx : negb (has_tag tag_router c) = true |- _ => apply negb_true_iff in Hx; rename Hx into Hz end.
      unfold has_router. destruct (existsb _ _) eqn:E; [|easy]. apply existsb_exists in E as (p & Hp' & E).
      destruct p; try discriminate.
      assert (has_tag tag_router c = true) by (apply existsb_exists; eexists; split; [exact Hp'|reflexivity]).
      congruence. }
    assert (Hrr : has_router r = false) by now apply negb_true_iff.
    rewrite Hrc, Hrr in Hps. discriminate. }
  destruct (is_mode c) eqn:Em; [now left|]. right.
  assert (Hlf : is_leaf c = true).
  { unfold is_leaf. unfold is_mode in Em. pose proof Hok as Hok'.
    apply node_ok_policies in Hok' as (Hst & Hru & _). unfold node_rules in Hru. unfold node_static in Hst.
    destruct (n_kind c); try easy;
      repeat match goal with Hx : _ && _ = true |- _ => apply andb_true_iff in Hx as [? ?] end;
      cbn [parent_is] in *; unfold is_mode in *; rewrite ?Ekr in *; discriminate. }
  split; [now apply (node_ok_is_leaf c [r])|]. split; [easy|]. split; [easy|].
  pose proof Hok as Hok'. apply node_ok_policies in Hok' as (_ & Hru & _). unfold node_rules in Hru.
  unfold is_leaf in Hlf. unfold is_value_leaf.
  destruct (n_kind c) eqn:Ek; try easy; [right|right|right|now left]; split; try easy;
    (destruct (no_result_value c) eqn:En;
      [|split; [easy|]; try easy; exfalso; apply (counting_router c [r]); easy]); exfalso;
    (assert (Ht : has_tag tag_no_result c = false);
      [|rewrite (tag_no_result_spec c Ht Hal) in En; discriminate]).
  - unfold must_not_have in Hru. cbn [forallb] in Hru.
    repeat match goal with Hx : _ && _ = true |- _ => apply andb_true_iff in Hx as [? ?] end.
    now apply negb_true_iff.
  - destruct c0; unfold must_not_have in Hru; cbn [forallb] in Hru;
    repeat match goal with Hx : _ && _ = true |- _ => apply andb_true_iff in Hx as [? ?] end;
    now apply negb_true_iff.
  - unfold must_not_have in Hru. cbn [forallb] in Hru.
    repeat match goal with Hx : _ && _ = true |- _ => apply andb_true_iff in Hx as [? ?] end.
    now apply negb_true_iff.
Qed.

(** ** Events of the parse stage *)

Lemma ebind_inv {A B} (m : E A) (f : A -> E B) tr tr' r :
  ebind m f tr = (tr', r) ->
  exists tr1 r1, m tr = (tr1, r1)
    /\ match r1 with
       | Ok x => f x tr1 = (tr', r)
       | Throw e => tr' = tr1 /\ r = Throw e
       | UB => tr' = tr1 /\ r = UB
       | Exited => tr' = tr1 /\ r = Exited
       | OutOfFuel => tr' = tr1 /\ r = OutOfFuel
       end.
Proof.
  unfold ebind. destruct (m tr) as [tr1 r1]. intros H. exists tr1, r1. split; [easy|].
  destruct r1; [easy| | | |]; now injection H as <- <-.
Qed.

(** A step of the parse stage that causes no event. *)
Definition quiet {A} (m : E A) : Prop := forall tr, fst (m tr) = tr.

Lemma quiet_bind {A B} (m : E A) (f : A -> E B) : quiet m -> (forall x, quiet (f x)) -> quiet (ebind m f).
Proof.
  intros Hm Hf tr. unfold ebind. specialize (Hm tr). destruct (m tr) as [tr1 r1]. cbn in Hm. subst tr1.
  destruct r1; try reflexivity. apply Hf.
Qed.
Lemma quiet_lift {A} (r : res A) : quiet (elift r).
Proof. easy. Qed.
Lemma quiet_ret {A} (x : A) : quiet (eret x).
Proof. easy. Qed.

Lemma quiet_leaf t : is_value_leaf (tg_node t) = true -> has_router (tg_node t) = false -> quiet (exec t).
Proof. intros H1 H2 tr. destruct (exec_leaf t tr H1 H2) as (r & -> & _). easy. Qed.

Lemma quiet_subs cs runs : (forall n run, In (n, run) runs -> quiet run) ->
  forall slots, quiet (run_subs runs cs slots).
Proof.
  induction runs as [|[n run] runs IH]; intros H slots; cbn [run_subs]; [apply quiet_ret|].
  apply quiet_bind; [apply (H n); now left|]. intros [v|].
  - apply quiet_bind.
    + destruct (locate cs 0 (n_id n)) as [[i sub]|]; [|apply quiet_ret].
      destruct (nth_error slots i); [|apply quiet_lift]. apply quiet_bind; [apply quiet_lift|]. intros; apply quiet_ret.
    + intros x. apply IH. intros n' run' Hin. apply (H n'). now right.
  - apply quiet_bind; [apply quiet_ret|]. intros x. apply IH. intros n' run' Hin. apply (H n'). now right.
Qed.

(** What running a target leaves behind: its own call if it succeeds. *)
Definition calls (n : node) (run : list event * res (option value)) : Prop :=
  match snd run with
  | Ok _ => exists e, fst run = [e] /\ ((exists vs, e = EvRoute n vs /\ has_router n = true) \/ exists h f, e = EvHelp n h f)
  | Exited => fst run = [] \/ exists h f, fst run = [EvHelp n h f]
  | _ => fst run = []
  end.

Lemma mode_calls m ts : Forall (good_sub m) ts ->
  calls m (mode_parse m (map (fun t => (tg_node t, exec t)) ts) []).
Proof.
  intros Hg. unfold mode_parse.
  assert (Hq : quiet (run_subs (map (fun t => (tg_node t, exec t)) ts) (n_children m) (map init_slot (n_children m)))).
  { apply quiet_subs. intros n run Hin. apply in_map_iff in Hin as (t & Ht & Hin).
    injection Ht as <- <-. rewrite Forall_forall in Hg. destruct (Hg t Hin). now apply quiet_leaf. }
  unfold ebind at 1. specialize (Hq []). destruct (run_subs _ _ _ []) as [tr r]. cbn in Hq. subst tr.
  destruct r as [slots| | | |]; try reflexivity; [|now left].
  unfold ebind, elift, emit, eret.
  destruct (fill_missing _ _) as [s2| | | |]; try reflexivity; [|now left].
  destruct (msv_validate _ _) as [u| | | |]; try reflexivity; [|now left].
  destruct (has_router m) eqn:Er; [|reflexivity].
  destruct (slot_values s2) as [vs| | | |]; try reflexivity; [|now left].
  unfold calls. cbn. eexists. split; [reflexivity|]. left. eauto.
Qed.

(** A target of a child of the root with a router. *)
Lemma router_leaf n parents vals subs : is_value_leaf n = true -> has_router n = true ->
  n_kind n <> KCountingFlag ->
  (exists v, value_of n vals v /\ exec (Target n parents vals subs) [] = ([EvRoute n [v]], Ok (Some v)))
  \/ ((forall v, ~ value_of n vals v)
      /\ exists r, exec (Target n parents vals subs) [] = ([], r) /\ (forall x, r <> Ok x)).
Proof.
  intros Hl Hr Hnc. cbn [exec]. unfold is_value_leaf in Hl.
  destruct (n_kind n) as [|c| | | | | |] eqn:Ek; try discriminate; [| |easy].
  - unfold flag_parse. rewrite Hr. cbn. left. exists (VBool true).
    split; [|easy]. constructor. now left.
  - unfold arg_parse. rewrite Hr. pose proof (fun v => arg_result_spec n c vals v Ek) as Hspec.
    unfold ebind, elift, emit, eret. destruct (arg_value n vals) as [w| | | |]; cbn [rbind] in Hspec.
    2-5: right; split; [intros v Hv; apply Hspec in Hv; discriminate|]; eexists; split; [reflexivity|easy].
    destruct (validate n w); cbn [rbind] in Hspec.
    + left. exists w. split; [now apply Hspec|easy].
    + right; split; [intros v Hv; apply Hspec in Hv; discriminate|]; eexists; split; [reflexivity|easy].
    + right; split; [intros v Hv; apply Hspec in Hv; discriminate|]; eexists; split; [reflexivity|easy].
    + right; split; [intros v Hv; apply Hspec in Hv; discriminate|]; eexists; split; [reflexivity|easy].
    + right; split; [intros v Hv; apply Hspec in Hv; discriminate|]; eexists; split; [reflexivity|easy].
Qed.

Lemma help_calls n parents ts : calls n (help_parse n parents ts []).
Proof.
  unfold help_parse. destruct (rev parents) as [|root l]; [reflexivity|].
  unfold ebind, elift, emit. destruct (find_help_target ts root) as [t| | | |]; try reflexivity; [|now left].
  destruct (has_router n); unfold calls; cbn.
  - eexists. split; [reflexivity|]. right. eauto.
  - right. eauto.
Qed.

(** ** The children of the root in turn *)

Lemma leaf_pre_parse f n parents : is_leaf n = true -> pre_parse f n parents = node_pre_parse n parents.
Proof. destruct n as [k id ty pols cs]. unfold is_leaf. cbn [n_kind]. intros H. destruct k; easy. Qed.

Lemma mode_none f n : forall tp parents pt s s',
  sub_ok n tp -> is_mode n = true -> pre_parse f n parents pt always_true s = (s', Ok None) -> p_args s' = p_args s.
Proof.
  intros tp parents pt s s' Hs Hm H. destruct n as [k id ty pols cs].
  set (n := Node k id ty pols cs) in *. destruct k; try discriminate.
  set (g := fun c => pre_parse f c (n :: parents)) in *.
  change (pre_parse f n parents)
    with (mode_pre_parse f n parents (map (fun c => (c, g c)) (n_children n))) in H.
  assert (Hbody : forall s s' r,
            (ok <- run_validator always_true n ;;
             if negb ok then mret None
             else mode_loop f n (map (fun c => (c, g c)) (n_children n)) (Target n parents [] [])
                            (map (fun _ => false) (map (fun c => (c, g c)) (n_children n))))%m s = (s', r) ->
            r <> Ok None).
  { clear s s' H. intros s s' r H. apply mbind_inv in H as (s1 & r1 & H1 & H2).
    cbn in H1. injection H1 as <- <-. cbn [negb] in H2.
    apply mode_loop_inv in H2; [|now apply (mode_children_offers f n tp)]. destruct r as [[?|]| | | |]; easy. }
  unfold mode_pre_parse in H. destruct (is_anonymous n) eqn:Ea; [now apply Hbody in H|].
  apply mbind_inv in H as (s1 & r1 & H1 & H2).
  destruct r1 as [[t0|]| | | |]; try (destruct H2; discriminate).
  - exfalso. destruct (p_args s1) as [|t1 ts1] eqn:E1; [now apply Hbody in H2|].
    apply mbind_inv in H2 as (s2 & r2 & H2 & H3).
    destruct r2 as [[t2|]| | | |]; try (destruct H3; discriminate); [discriminate|now apply Hbody in H3].
  - injection H2 as <-. now apply node_pre_parse_inv in H1.
Qed.

Lemma top_none f r c s s' : top_child r c -> pre_parse f c [r] None always_true s = (s', Ok None) ->
  p_args s' = p_args s.
Proof.
  intros [Hs [Hm|(L & Hm & _)]] H; [now apply (mode_none f c [r] [r] None)|].
  rewrite leaf_pre_parse in H by apply L. now apply node_pre_parse_inv in H.
Qed.

(** The target of the child that matched. *)
Inductive top_target (r c : node) (ts : list token) : target -> list token -> Prop :=
| top_leaf label vals rest :
    is_mode c = false -> takes c ts label vals rest -> top_target r c ts (Target c [r] vals []) rest
| top_mode m ps ts' t :
    is_mode c = true -> ready c m ps ts' t -> top_target r c ts t [].

Lemma top_some f r c s s' t : top_child r c -> pre_parse f c [r] None always_true s = (s', Ok (Some t)) ->
  top_target r c (p_args s) t (p_args s').
Proof.
  intros [Hs [Hm|(L & Hm & Hal & _)]] H.
  - apply (mode_target f c [r]) in H; auto. destruct H as (-> & m & ps & ts' & Hr). now apply (top_mode r c _ m ps ts').
  - rewrite leaf_pre_parse in H by apply L. apply node_matched in H; [|apply L].
    destruct t as [n ps tk sb]. destruct H as [Hn Hp (label & vals & Ht & Hc)]. cbn [tg_node tg_parents tg_toks tg_subs] in *.
    subst n ps. destruct Hc as [(_ & -> & ->)|(ns & ? & ? & Hin & _)]; [|now apply Hal in Hin].
    now apply (top_leaf r c _ label).
Qed.

Record tried (f : nat) (r : node) (ts : list token) (before : list node) : Prop := {
  tr_none : forall d, In d before -> exists s s', p_args s = ts /\ pre_parse f d [r] None always_true s = (s', Ok None)
}.

Lemma root_try_inv f r cs : (forall c, In c cs -> top_child r c) -> forall s s' tr res,
  root_try f r cs s = (s', tr, res) ->
  (tr = [] /\ res = Ok false /\ tried f r (p_args s) cs /\ p_args s' = p_args s)
  \/ exists before c after s0, cs = before ++ c :: after /\ tried f r (p_args s) before /\ p_args s0 = p_args s
      /\ exists s1 o, pre_parse f c [r] None always_true s0 = (s1, o)
      /\ match o with
         | Ok (Some t) =>
             (p_args s1 = [] /\ exists x, exec t [] = (tr, x) /\ res = (_ <- x ;; Ok true)%res)
             \/ (tr = [] /\ res = Throw (EML unhandled_arguments (p_args s1)) /\ p_args s1 <> [])
         | Ok None => False
         | Throw e => tr = [] /\ res = Throw e
         | UB => tr = [] /\ res = UB
         | Exited => tr = [] /\ res = Exited
         | OutOfFuel => tr = [] /\ res = OutOfFuel
         end.
Proof.
  induction cs as [|c cs IH]; intros Hc s s' tr res H; cbn [root_try] in H.
  - injection H as <- <- <-. left. split; [easy|]. split; [easy|]. split; [|easy]. constructor. intros d [].
  - destruct (pre_parse f c [r] None always_true s) as [s1 o] eqn:E.
    destruct o as [[t|]| | | |].
    + right. exists [], c, cs, s. split; [easy|]. split; [constructor; intros d []|]. split; [easy|].
      exists s1. eexists. split; [exact E|]. destruct (p_args s1) as [|t1 ts1] eqn:E1.
      * left. split; [easy|]. destruct (exec t []) as [tr0 x] eqn:Ex. injection H as <- <- <-. eauto.
      * right. injection H as <- <- <-. easy.
    + pose proof (top_none f r c s s1 (Hc c (or_introl eq_refl)) E) as Ea.
      apply IH in H; [|intros d Hd; apply Hc; now right]. rewrite Ea in H.
      assert (Ht : forall l, tried f r (p_args s) l -> tried f r (p_args s) (c :: l)).
      { intros l [Hl]. constructor. intros d [<-|Hd]; [eauto|auto]. }
      destruct H as [(-> & -> & Hl & Hs')|(before & d & after & s0 & -> & Hl & Hs0 & Hx)].
      * left. auto.
      * right. exists (c :: before), d, after, s0. auto.
    + injection H as <- <- <-. right. exists [], c, cs, s. split; [easy|]. split; [constructor; intros d []|].
      split; [easy|]. exists s1. eexists. split; [exact E|]. easy.
    + injection H as <- <- <-. right. exists [], c, cs, s. split; [easy|]. split; [constructor; intros d []|].
      split; [easy|]. exists s1. eexists. split; [exact E|]. easy.
    + injection H as <- <- <-. right. exists [], c, cs, s. split; [easy|]. split; [constructor; intros d []|].
      split; [easy|]. exists s1. eexists. split; [exact E|]. easy.
    + injection H as <- <- <-. right. exists [], c, cs, s. split; [easy|]. split; [constructor; intros d []|].
      split; [easy|]. exists s1. eexists. split; [exact E|]. easy.
Qed.

(** ** Calls *)

Lemma exec_mode m ps toks subs : is_mode m = true ->
  exec (Target m ps toks subs) = mode_parse m (map (fun t => (tg_node t, exec t)) subs).
Proof. unfold is_mode. cbn [exec]. destruct (n_kind m); easy. Qed.

Lemma ready_good c m ps ts t : ready c m ps ts t ->
  exists subs asg, t = Target m ps [] subs /\ Forall (good_sub m) subs /\ meaning m ts asg
    /\ map assignment subs = asg.
Proof.
  intros [_ Hm (tp & Hs) (sts & Hst & ->)].
  destruct (steps_meaning m tp ps Hs Hm _ _ _ Hst) as (items & asgs & Hu & Ha & He & Hg).
  exists (flat_map step_subs sts), (List.concat asgs). split; [easy|]. split; [easy|]. split; [|easy].
  exists items, asgs. easy.
Qed.

Lemma top_calls r c ts t rest : top_child r c -> top_target r c ts t rest ->
  exists n, In n (below c) /\ calls n (exec t []).
Proof.
  intros [Hs Hk] [label vals rest' Hm Ht|m ps ts' t' Hm Hr].
  - exists c. split; [apply below_self|]. destruct Hk as [Hk|(L & _ & _ & [Hh|(Hv & Hr & Hn)])]; [congruence| |].
    + cbn [exec]. rewrite Hh. apply help_calls.
    + destruct (router_leaf c [r] vals [] Hv Hr Hn) as [(v & _ & ->)|(_ & x & -> & Hx)].
      * unfold calls. cbn. eexists. split; [reflexivity|]. left. eauto.
      * unfold calls. cbn. destruct x as [y| | | |]; auto. now destruct (Hx y).
  - exists m. split; [apply Hr|]. pose proof (rd_mode _ _ _ _ _ Hr) as Hmm.
    destruct (ready_good _ _ _ _ _ Hr) as (subs & asg & -> & Hg & _).
    rewrite exec_mode by easy. now apply mode_calls.
Qed.

Lemma unknown_events A n t : (forall x, @unknown_argument_exception A n t <> Ok x)
  /\ @unknown_argument_exception A n t <> Exited /\ @unknown_argument_exception A n t <> OutOfFuel.
Proof. destruct (unknown_form A n t) as [(c & ts & ->)| ->]; easy. Qed.

(** At most one router is called, and only by a parse that succeeds. *)
Lemma root_calls r mem args : accepted r = true ->
  let o := root_parse r mem args in
  match o_res o with
  | Ok _ => exists n e, In n (below r) /\ o_events o = [e]
              /\ ((exists vs, e = EvRoute n vs /\ has_router n = true) \/ exists h f, e = EvHelp n h f)
  | Exited => o_events o = [] \/ exists n h f, o_events o = [EvHelp n h f]
  | _ => o_events o = []
  end.
Proof.
  intros Ha o. unfold o, root_parse.
  destruct (root_try (root_fuel args) r (n_children r) (PS args mem)) as [[s' tr] res] eqn:E.
  apply root_try_inv in E; [|intros c Hc; now apply root_child].
  destruct E as [(-> & -> & _)|(before & c & after & s0 & Hcs & _ & Hs0 & s1 & x & Hpp & Hx)].
  - cbn [rbind o_res o_events]. destruct (t_name _) eqn:Et.
    + reflexivity.
    + match goal with |- context [unknown_argument_exception ?a ?b] => destruct (unknown_form unit a b) as [(? & ? & ->)| ->] end; reflexivity.
  - assert (Hin : In c (n_children r)) by (rewrite Hcs; apply in_or_app; right; now left).
    pose proof (root_child r c Ha Hin) as Htc.
    destruct x as [[t|]| | | |]; try (destruct Hx as [-> ->]; cbn; auto; fail).
    + destruct Hx as [(Hs1 & x & Hex & ->)|(-> & -> & _)]; [|reflexivity].
      apply top_some in Hpp; [|easy]. destruct (top_calls r c _ t _ Htc Hpp) as (n & Hn & Hcalls).
      rewrite Hex in Hcalls. unfold calls in Hcalls. cbn [fst snd] in Hcalls. cbn [o_res o_events].
      destruct x; cbn [rbind]; auto.
      * destruct Hcalls as (e & -> & He). exists n, e. split; [now apply (below_child c)|]. easy.
      * destruct Hcalls as [->|(h & fl & ->)]; eauto.
    + easy.
Qed.

(** ** What a router is given *)

Lemma plain_ready f r c s s' t : sub_ok c [r] -> is_mode c = true -> plain_modes c ->
  pre_parse f c [r] None always_true s = (s', Ok (Some t)) ->
  exists m ps ts', selects c [r] (p_args s) m ps ts' /\ ready c m ps ts' t.
Proof.
  intros Hs Hm Hp H.
  destruct (mode_selected f c [r] [r] None s Hs Hm Hp) as [(m & ps & ts' & tp' & Hsel & Hmm & Hin & Hsm & Heq)|(_ & _ & Heq)];
    rewrite Heq in H; [|discriminate].
  exists m, ps, ts'. split; [easy|]. unfold mode_start in H.
  apply mode_loop_inv in H; [|now apply (mode_children_offers f m tp')]. cbn [p_args] in H.
  destruct H as (_ & sts & Hst & ->). constructor; auto; [now exists tp'|]. eauto.
Qed.

Lemma plain_modes_sub r c : countless_modes r -> In c (n_children r) -> plain_modes c.
Proof. intros H Hc m Hm Hmm. apply H; [now apply (below_child c)|easy]. Qed.

Lemma tried_modes f r before ts : (forall d, In d before -> sub_ok d [r] /\ plain_modes d) -> tried f r ts before ->
  forall d, In d before -> is_mode d = true -> none_name d <> None /\ forall rest, ~ names_mode d ts rest.
Proof.
  intros Hp [Ht] d Hd Hm. destruct (Ht d Hd) as (s & s' & <- & He). destruct (Hp d Hd) as [Hs Hpl].
  destruct (mode_selected f d [r] [r] None s Hs Hm Hpl) as [(m & ps & ts' & tp' & _ & Hmm & _ & Hsm & Heq)|(H1 & H2 & _)];
    [|easy].
  rewrite Heq in He. unfold mode_start in He.
  now apply mode_loop_inv in He; [|now apply (mode_children_offers f m tp')].
Qed.

Lemma root_routed r mem args n vs : accepted r = true -> countless_modes r -> distinct_modes r ->
  In (EvRoute n vs) (o_events (root_parse r mem args)) -> routed r args n vs.
Proof.
  intros Ha Hcm Hdm. unfold root_parse.
  destruct (root_try (root_fuel args) r (n_children r) (PS args mem)) as [[s' tr] res] eqn:E.
  cbn [o_events]. apply root_try_inv in E; [|intros c Hc; now apply root_child]. cbn [p_args] in E.
  destruct E as [(-> & _)|(before & c & after & s0 & Hcs & Htr & Hs0 & s1 & x & Hpp & Hx)]; [easy|].
  assert (Hin : In c (n_children r)) by (rewrite Hcs; apply in_or_app; right; now left).
  pose proof (root_child r c Ha Hin) as Htc.
  destruct x as [[t|]| | | |]; try (destruct Hx as [-> _]; easy); [|easy].
  destruct Hx as [(Hs1 & x & Hex & _)|(-> & _)]; [|easy]. intros Hev.
  destruct (is_mode c) eqn:Em.
  - pose proof (tc_ok _ _ Htc) as Hs.
    destruct (plain_ready _ r c s0 s1 t Hs Em (plain_modes_sub r c Hcm Hin) Hpp) as (m & ps & ts' & Hsel & Hrd).
    destruct (ready_good _ _ _ _ _ Hrd) as (subs & asg & -> & Hg & Hme & Has).
    pose proof (rd_mode _ _ _ _ _ Hrd) as Hmm.
    assert (Hd : distinct_types m) by (apply Hdm; [apply (below_child c); [easy|apply Hrd]|easy]).
    rewrite exec_mode in Hex by easy.
    destruct (has_router m) eqn:Er.
    + destruct (mode_parse_spec m subs [] Hd Hg Er) as [(vs' & Hdl & Hrun)|(_ & y & Hrun & _)];
        rewrite Hrun in Hex; injection Hex as <- _; [|easy].
      destruct Hev as [Hev|[]]. injection Hev as <- <-. rewrite Has in Hdl. rewrite Hs0 in Hsel.
      apply (routed_mode r args c m ps ts' asg vs'); auto. exists before, after. split; [easy|].
      apply (tried_modes (root_fuel args) r); [|easy]. intros d Hd'.
      assert (Hin' : In d (n_children r)) by (rewrite Hcs; apply in_or_app; now left).
      split; [apply (tc_ok _ _ (root_child r d Ha Hin'))|now apply (plain_modes_sub r)].
    + destruct (mode_parse_no_router m subs [] Hd Hg Er) as (y & Hrun & _). rewrite Hrun in Hex.
      injection Hex as <- _. destruct Hev.
  - pose proof (top_some _ _ _ _ _ _ Htc Hpp) as Htt. rewrite Hs1, Hs0 in Htt.
    inversion Htt as [label vals rest Hm Ht|]; subst; [|congruence].
    destruct Htc as [_ [Hk|(L & _ & _ & [Hh|(Hv & Hr & Hn)])]]; [congruence| |].
    + cbn [exec] in Hex. rewrite Hh in Hex. pose proof (help_calls c [r] vals) as Hcl. rewrite Hex in Hcl.
      unfold calls in Hcl. cbn [fst snd] in Hcl.
      unfold help_parse in Hex. cbn [rev app] in Hex. unfold ebind, elift, emit in Hex.
      destruct (find_help_target vals r); [|injection Hex as <- _; destruct Hev..].
      destruct (has_router c); injection Hex as <- _; destruct Hev as [Hev|[]]; discriminate.
    + destruct (router_leaf c [r] vals [] Hv Hr Hn) as [(v & Hvo & Hrun)|(_ & y & Hrun & _)];
        rewrite Hrun in Hex; injection Hex as <- _; [|easy].
      destruct Hev as [Hev|[]]. injection Hev as <- <-. eapply routed_argument; eauto.
Qed.

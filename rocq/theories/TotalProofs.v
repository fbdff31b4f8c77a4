(** How a parse can end: classes of results that the parse stage does not leave (C01, C19). *)
From Verif Require Import Bytes Token Adapter Result CodePoint Utf8 Tree Levenshtein PreParse Parse Root Validator.
From Verif Require Import SpecPolicy SpecTokens SpecMode SpecTake SpecDeliver SpecRoot SpecReading.
From Verif Require Import OrderProofs TreeProofs NodeProofs TakeProofs ModeProofs SelectProofs ParseProofs MeaningProofs RootProofs.

(** A class of results that is closed under sequencing. *)
Section Class.
  Variable Q : forall A, res A -> Prop.
  Arguments Q {A} _.
  Hypothesis Qok : forall A (x : A), Q (Ok x).
  Hypothesis Qeml : forall A c ts, c <> no_arguments_passed -> Q (@Throw A (EML c ts)).
  Hypothesis Qexit : forall A, Q (@Exited A).
  Hypothesis Qbind : forall A B (r : res A) (f : A -> res B),
    Q r -> (forall x, r = Ok x -> Q (f x)) -> Q (rbind r f).

  Local Hint Extern 2 (_ <> no_arguments_passed) => discriminate : core.

  Lemma class_throw A B e : Q (@Throw A e) -> Q (@Throw B e).
  Proof. intros H. apply (Qbind A B (Throw e) (fun _ => Exited) H). discriminate. Qed.
  Lemma class_ub A B : Q (@UB A) -> Q (@UB B).
  Proof. intros H. apply (Qbind A B UB (fun _ => Exited) H). discriminate. Qed.
  Lemma class_fuel A B : Q (@OutOfFuel A) -> Q (@OutOfFuel B).
  Proof. intros H. apply (Qbind A B OutOfFuel (fun _ => Exited) H). discriminate. Qed.

  Definition Qe {A} (m : E A) : Prop := forall tr, Q (snd (m tr)).

  Lemma class_lift A (r : res A) : Q r -> Qe (elift r).
  Proof. intros H tr. exact H. Qed.
  Lemma class_ret A (x : A) : Qe (eret x).
  Proof. intros tr. apply Qok. Qed.
  Lemma class_emit e : Qe (emit e).
  Proof. intros tr. apply Qok. Qed.
  Lemma class_bind A B (m : E A) (f : A -> E B) :
    Qe m -> (forall x tr tr', m tr = (tr', Ok x) -> Qe (f x)) -> Qe (ebind m f).
  Proof.
    intros Hm Hf tr. unfold ebind. specialize (Hm tr). destruct (m tr) as [tr1 r] eqn:E. cbn [snd] in Hm.
    destruct r as [x|e| | |]; cbn [snd].
    - apply (Hf x tr tr1 E).
    - now apply (class_throw A).
    - now apply (class_ub A).
    - apply Qexit.
    - now apply (class_fuel A).
  Qed.

  Lemma class_validate n v : Q (validate n v).
  Proof.
    unfold validate. induction (n_pols n) as [|p ps IH]; cbn [validate_with]; [apply Qok|].
    destruct p; auto. apply Qbind; [|auto]. unfold check_value.
    repeat match goal with |- Q (if ?x then _ else _) => destruct x end; auto.
  Qed.

  Lemma class_map_res A B (f : A -> res B) l : (forall x, In x l -> Q (f x)) -> Q (map_res f l).
  Proof.
    induction l as [|x l IH]; intros H; cbn [map_res]; [apply Qok|].
    apply Qbind; [apply H; now left|]. intros y _. apply Qbind; [apply IH; intros z Hz; apply H; now right|].
    intros ys _. apply Qok.
  Qed.

  (** The user's parser of a node. *)
  Definition Qparser (n : node) : Prop := forall cl s, n_kind n = KArg cl -> Q (parse_token n s).

  Lemma class_arg n ts : (forall s, Q (parse_token n s)) -> Qe (arg_parse n ts).
  Proof.
    intros H. unfold arg_parse. apply class_bind.
    - apply class_lift. unfold arg_value. destruct (vt_container (n_ty n)).
      + apply Qbind; [apply class_map_res; intros x _; apply H|]. intros; apply Qok.
      + destruct ts; [apply Qok|apply H].
    - intros v _ _ _. apply class_bind; [apply class_lift, class_validate|]. intros _ _ _ _.
      apply class_bind; [destruct (has_router n); [apply class_emit|apply class_ret]|].
      intros _ _ _ _. apply class_ret.
  Qed.

  Lemma class_flag n : Qe (flag_parse n).
  Proof.
    unfold flag_parse. apply class_bind; [destruct (has_router n); [apply class_emit|apply class_ret]|].
    intros _ _ _ _. apply class_ret.
  Qed.

  Lemma class_value_leaf t : is_value_leaf (tg_node t) = true -> Qparser (tg_node t) -> Qe (exec t).
  Proof.
    destruct t as [n parents toks subs]. cbn [tg_node]. intros Hl Hp. unfold is_value_leaf in Hl. cbn [exec].
    destruct (n_kind n) eqn:E; try discriminate; [apply class_flag|apply class_arg; intros s; now eapply Hp; eauto|apply class_ret].
  Qed.

  Lemma locate_lt cs : forall k id i sub, locate cs k id = Some (i, sub) -> i < k + List.length cs.
  Proof.
    induction cs as [|c cs IH]; intros k id i sub H; cbn [locate] in H; [discriminate|]. cbn [List.length].
    destruct (match_child c id); [injection H as <- _; lia|]. apply IH in H. lia.
  Qed.

  Lemma class_process sl sub v : Q (process_result sl sub v).
  Proof. unfold process_result. destruct sl as [|[old|]]; auto; destruct (multi_stage sub); auto. Qed.

  Lemma class_subs cs runs : (forall n run, In (n, run) runs -> Qe run) ->
    forall slots, List.length slots = List.length cs -> Qe (run_subs runs cs slots).
  Proof.
    induction runs as [|[n run] runs IH]; intros H slots Hl; cbn [run_subs]; [apply class_ret|].
    assert (IH' : forall slots, List.length slots = List.length cs -> Qe (run_subs runs cs slots)).
    { apply IH. intros n' run' Hin. apply (H n'). now right. }
    apply class_bind; [apply (H n); now left|]. intros [v|] _ _ _.
    - destruct (locate cs 0 (n_id n)) as [[i sub]|] eqn:El.
      + apply locate_lt in El. cbn [Nat.add] in El. rewrite <- Hl in El.
        destruct (nth_error slots i) as [sl|] eqn:En; [|apply nth_error_None in En; lia].
        apply class_bind.
        * apply class_bind; [apply class_lift, class_process|]. intros x _ _ _. apply class_ret.
        * intros x tr tr' Hx. apply ebind_inv in Hx as (tr1 & r1 & _ & H2).
          destruct r1; try (destruct H2; discriminate). injection H2 as _ <-. apply IH'. now rewrite upd_length.
      + apply class_bind; [apply class_ret|]. intros x tr tr' Hx. injection Hx as _ <-. now apply IH'.
    - apply class_bind; [apply class_ret|]. intros x tr tr' Hx. injection Hx as _ <-. now apply IH'.
  Qed.

  Lemma class_missing c : Q (process_missing c).
  Proof.
    unfold process_missing. apply Qbind; [|intros o _; apply Qbind; [apply class_validate|intros; apply Qok]].
    generalize (@None value). induction (n_pols c) as [|p ps IH]; intros cur; cbn [run_missing]; [apply Qok|].
    destruct p; cbn [missing_phase]; auto.
    all: apply Qbind; [|auto]; auto.
    destruct enabled; auto.
  Qed.

  Definition set (sl : slot) : Prop := sl <> Slot None.

  Lemma class_fill cs : forall slots, Q (fill_missing cs slots)
    /\ forall slots', fill_missing cs slots = Ok slots' -> Forall set slots'.
  Proof.
    induction cs as [|c cs IH]; intros [|sl slots]; cbn [fill_missing];
      try (split; [apply Qok|intros ? [= <-]; constructor]).
    destruct (IH slots) as [H1 H2]. split.
    - apply Qbind.
      + destruct sl as [|[v|]]; try apply Qok. apply Qbind; [apply class_missing|]. intros; apply Qok.
      + intros x _. apply Qbind; [easy|]. intros; apply Qok.
    - intros slots' H.
      assert (Hs : forall sl', set sl' ->
               (rest <- fill_missing cs slots ;; Ok (sl' :: rest))%res = Ok slots' -> Forall set slots').
      { intros sl' Hsl Hr. destruct (fill_missing cs slots) as [rest| | | |]; try discriminate.
        cbn [rbind] in Hr. injection Hr as <-. constructor; auto. }
      destruct sl as [|[v|]]; cbn [rbind] in H.
      + eapply Hs; [|exact H]. discriminate.
      + eapply Hs; [|exact H]. discriminate.
      + destruct (process_missing c) as [v| | | |]; try discriminate. cbn [rbind] in H.
        eapply Hs; [|exact H]. discriminate.
  Qed.

  Lemma class_msv cs : forall slots, Forall set slots -> Q (msv_validate cs slots).
  Proof.
    induction cs as [|c cs IH]; intros [|sl slots] H; cbn [msv_validate]; try apply Qok.
    inversion H as [|? ? H1 H2]; subst. apply Qbind; [|intros _ _; now apply IH].
    destruct sl as [|[v|]]; [apply Qok| |now elim H1]. destruct (is_msv c); [apply class_validate|apply Qok].
  Qed.

  Lemma class_slots slots : Forall set slots -> Q (slot_values slots).
  Proof.
    induction 1 as [|sl slots H1 H2 IH]; cbn [slot_values]; [apply Qok|].
    destruct sl as [|[v|]]; [easy| |now elim H1]. apply Qbind; [easy|]. intros; apply Qok.
  Qed.

  Lemma class_mode m ts : (forall t, In t ts -> Qe (exec t)) ->
    Qe (mode_parse m (map (fun t => (tg_node t, exec t)) ts)).
  Proof.
    intros H. unfold mode_parse. apply class_bind.
    - apply class_subs; [|now rewrite map_length]. intros n run Hin. apply in_map_iff in Hin as (t & Ht & Hin).
      injection Ht as <- <-. auto.
    - intros slots _ _ _. destruct (class_fill (n_children m) slots) as [H1 H2].
      apply class_bind; [now apply class_lift|]. intros slots' tr tr' Hf.
      assert (Hs : Forall set slots') by (apply H2; unfold elift in Hf; congruence).
      apply class_bind; [apply class_lift; now apply class_msv|]. intros _ _ _ _.
      destruct (has_router m); [|apply class_lift, Qeml; discriminate].
      apply class_bind; [apply class_lift; now apply class_slots|]. intros vs _ _ _.
      apply class_bind; [apply class_emit|]. intros _ _ _ _. apply class_ret.
  Qed.

  Lemma class_help n parents ts : (forall root, hd_error (rev parents) = Some root -> Q (find_help_target ts root)) ->
    parents <> [] -> Qe (help_parse n parents ts).
  Proof.
    intros H Hp. unfold help_parse. destruct (rev parents) as [|root l] eqn:E.
    - apply (f_equal (@rev node)) in E. rewrite rev_involutive in E. now elim Hp.
    - apply class_bind; [apply class_lift; now apply H|]. intros t _ _ _.
      apply class_bind; [apply class_emit|]. intros _ _ _ _. destruct (has_router n); [apply class_ret|].
      apply class_lift, Qexit.
  Qed.

  (** The whole parse stays in the class if the pre-parse, the users' parsers, the look-up of the help
      target and the error for an unknown argument do. *)
  Lemma class_root r mem args : accepted r = true ->
    (forall n, In n (below r) -> is_value_leaf n = true -> Qparser n) ->
    (forall c s s' o, In c (n_children r) -> p_args s = args ->
       pre_parse (root_fuel args) c [r] None always_true s = (s', o) -> Q o) ->
    (forall c s s' toks ps subs, In c (n_children r) -> n_kind c = KHelp -> p_args s = args -> p_args s' = [] ->
       pre_parse (root_fuel args) c [r] None always_true s = (s', Ok (Some (Target c ps toks subs))) ->
       Q (find_help_target toks r)) ->
    (forall t ts, args = t :: ts -> t_name t <> [] -> Q (@unknown_argument_exception unit r t)) ->
    (args = [] \/ (exists t ts, args = t :: ts /\ t_name t = []) -> Q (@Throw unit (EML no_arguments_passed []))) ->
    Q (o_res (root_parse r mem args)).
  Proof.
    intros Ha Hpr Hpp Hhelp Hun Hno. unfold root_parse.
    destruct (root_try (root_fuel args) r (n_children r) (PS args mem)) as [[s' tr] res] eqn:E.
    apply root_try_inv in E; [|intros c Hc; now apply root_child]. cbn [p_args] in E. cbn [o_res].
    destruct E as [(-> & -> & _)|(before & c & after & s0 & Hcs & _ & Hs0 & s1 & o & Ho & Hx)].
    - cbn [rbind]. destruct args as [|t ts]; cbn [t_name]; [apply Hno; now left|]. destruct (t_name t) eqn:Et; [apply Hno; right; eauto|].
      apply (Hun t ts eq_refl). congruence.
    - assert (Hin : In c (n_children r)) by (rewrite Hcs; apply in_or_app; right; now left).
      pose proof (root_child r c Ha Hin) as Htc.
      apply Qbind; [|intros b Hb; destruct b; [apply Qok|]].
      + pose proof (Hpp c s0 s1 o Hin Hs0 Ho) as Hq. destruct o as [[t|]|e| | |].
        * destruct Hx as [(Hs1 & x & Hex & ->)|(_ & -> & _)]; [|apply Qeml; discriminate].
          apply Qbind; [|intros; apply Qok].
          assert (Hqe : Qe (exec t)).
          { pose proof (top_some _ _ _ _ _ _ Htc Ho) as Htt. rewrite Hs0, Hs1 in Htt.
            remember (@nil token) as tl eqn:Etl in Htt.
            destruct Htt as [label vals rest Hm Ht|m ps ts' t Hm Hr].
            - destruct Htc as [_ [Hk|(L & _ & _ & [Hh|(Hv & Hr & Hn)])]]; [congruence| |].
              + cbn [exec]. rewrite Hh. apply class_help; [|discriminate]. cbn. intros root [= <-].
                now apply (Hhelp c s0 s1 vals [r] []).
              + apply class_value_leaf; [easy|]. cbn [tg_node]. apply Hpr; [|easy].
                apply (below_child c); [easy|apply below_self].
            - pose proof (rd_mode _ _ _ _ _ Hr) as Hmm. pose proof (rd_below _ _ _ _ _ Hr) as Hb.
              destruct (ready_good _ _ _ _ _ Hr) as (subs & asg & -> & Hg & _).
              rewrite exec_mode by easy. apply class_mode. intros t Ht. rewrite Forall_forall in Hg.
              destruct (Hg t Ht) as [G1 G2 G3]. apply class_value_leaf; [easy|]. apply Hpr; [|easy].
              apply (below_child c); [easy|]. apply (below_trans c m); [easy|].
              apply in_flat_map in G3 as (d & Hd & G3). now apply (below_child d). }
          specialize (Hqe []). now rewrite Hex in Hqe.
        * easy.
        * destruct Hx as [_ ->]. now apply (class_throw (option target)).
        * destruct Hx as [_ ->]. now apply (class_ub (option target)).
        * destruct Hx as [_ ->]. apply Qexit.
        * destruct Hx as [_ ->]. now apply (class_fuel (option target)).
      + exfalso. destruct o as [[t|]|e| | |]; try easy; try (destruct Hx as [_ Hx]; congruence).
        destruct Hx as [(_ & x & _ & Hx)|(_ & Hx & _)]; [|congruence]. rewrite Hx in Hb.
        destruct x; discriminate.
  Qed.
End Class.

(** ** Every parse returns *)

Definition returns A (r : res A) : Prop := r <> OutOfFuel.

Lemma root_returns r mem args : accepted r = true -> fits args ->
  (forall n cl s, In n (below r) -> n_kind n = KArg cl -> parse_token n s <> OutOfFuel) ->
  o_res (root_parse r mem args) <> OutOfFuel.
Proof.
  intros Ha Hf Hp. apply (class_root returns); unfold returns; try discriminate; auto.
  - intros A B x f H1 H2. destruct x; cbn [rbind]; auto; discriminate.
  - intros n Hn _ cl s Hk. now apply (Hp n cl).
  - intros c s s' o Hin Hs Ho. pose proof (root_child r c Ha Hin) as [Hok [Hm|(L & Hm & _)]].
    + apply (pre_parse_mode_fuel _ c [r]) in Ho; auto; [apply Ho|now rewrite Hs|rewrite Hs; apply Nat.le_refl].
    + rewrite leaf_pre_parse in Ho by apply L.
      assert (Hv : forall n m, regular (snd (always_true n m))) by (intros n m; split; discriminate).
      exact (proj1 (node_pre_parse_regular _ _ _ _ _ _ _ Hv Ho)).
  - intros c s s' toks ps subs _ _ _ _ _. clear. revert r. induction toks as [|t ts IH]; intros r;
      cbn [find_help_target]; destruct (runtime_enabled r) as [[|]|]; try discriminate;
      destruct (find _ _); try discriminate; apply IH.
  - intros t ts _ _. apply unknown_events.
Qed.

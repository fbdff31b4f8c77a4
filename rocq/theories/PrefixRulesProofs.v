(** Proofs for C85: which trees compile with any prefixes. *)
From Coq Require Import Lia.
From Verif Require Import Bytes Token Adapter Result CodePoint Utf8 Tree PreParse Validator Prefixes SpecRules SpecPrefixRules RulesProofs.
Local Open Scope list_scope.

Section Rules.
Variables lp sp : bytes.

Lemma config_iff : config_ok lp sp = true <-> prefixes_ok lp sp.
Proof.
  unfold config_ok, prefixes_ok, characters, gcount. destruct (graphemes sp) as [gs|]; cbn [option_map].
  - destruct (graphemes lp) as [gl|]; cbn [option_map].
    + rewrite andb_true_iff, Nat.eqb_eq, Nat.leb_le. split.
      * intros [H1 H2]. split; [now exists gs|]. exists (List.length gl). split; [now exists gl|]. now rewrite H1 in H2.
      * intros [(g & E & H) (k & (g' & E' & <-) & Hk)]. injection E as ->. injection E' as ->. rewrite H. auto.
    + split; [discriminate|]. intros [_ (k & (g' & E' & _) & _)]. discriminate.
  - split; [destruct (graphemes lp); discriminate|]. intros [(g & E & _) _]. discriminate.
Qed.

Lemma policy_with_iff p n parents : uniq n -> In p (n_pols n) ->
  (forall d, In d (n :: parents) -> forall e, In e (map fst (preorder d [])) -> uniq e) ->
  policy_static_with lp sp p n parents && policy_rules p n parents = true <-> policy_ok_with lp sp p n parents.
Proof.
  intros Hu Hp Hb. pose proof (policy_iff p n parents Hu Hp Hb) as H.
  assert (Hq : unique_in_owner p n = true).
  { apply unique_iff in Hu. rewrite forallb_forall in Hu. auto. }
  destruct p; try exact H; clear H; unfold policy_static_with, policy_ok_with, policy_rules; rewrite Hq; cbn [andb].
  - unfold short_name_ok. rewrite !andb_true_iff, gcount_1, negb_true_iff, beq_neq, unique_to_mode_iff by exact I. tauto.
  - unfold expander_ok. rewrite andb_true_r, andb_true_iff, negb_true_iff, beq_neq, short_hb, hb_true. split; intros [? ?]; split; congruence.
Qed.

Lemma node_with_iff r n parents : (forall m up, placed r m up -> uniq m) -> placed r n parents ->
  node_ok_with lp sp (n, parents) = true
  <-> NoDup (map kind_of (n_pols n)) /\ class_ok n parents /\ forall p, In p (n_pols n) -> policy_ok_with lp sp p n parents.
Proof.
  intros Hall Hp. assert (Hu : uniq n) by eauto.
  assert (Hc : forall c, In c (n_children n) -> uniq c).
  { intros c Hc. apply (Hall c (n :: parents)). now constructor. }
  assert (Hb : forall d, In d (n :: parents) -> forall e, In e (map fst (preorder d [])) -> uniq e).
  { intros d Hd e He. destruct (placed_above _ _ _ Hp d Hd) as [up Hd']. destruct (preorder_placed _ _ _ Hd' e He) as [up' He'].
    eauto. }
  unfold node_ok_with.
  assert (E : forallb (fun p => policy_static_with lp sp p n parents && policy_rules p n parents) (n_pols n) = true
    <-> forall p, In p (n_pols n) -> policy_ok_with lp sp p n parents).
  { rewrite forallb_forall. split; intros H p Hin; specialize (H p Hin).
    - apply policy_with_iff; auto.
    - apply policy_with_iff in H; auto. }
  assert (Hle : (forall p, In p (n_pols n) -> policy_ok_with lp sp p n parents) -> forall mn mx, counts n mn mx -> (mn <= mx)%N).
  { intros H mn mx Hcn. exact (proj1 (H _ Hcn)). }
  rewrite andb_true_iff, E. fold (uniq n). split.
  - intros [H G]. split; [exact Hu|]. split; [|exact G]. apply class_iff; auto.
  - intros (_ & H & G). split; [|exact G]. apply class_iff; auto.
Qed.

Lemma ok_with_uniq n parents : node_ok_with lp sp (n, parents) = true -> uniq n.
Proof.
  unfold node_ok_with. rewrite andb_true_iff. intros [_ H]. apply unique_iff. rewrite forallb_forall in *. intros p Hp.
  specialize (H p Hp). apply andb_true_iff in H as [_ H]. unfold policy_rules in H. now apply andb_true_iff in H as [H _].
Qed.

Lemma accepted_with_compiles r : accepted_with lp sp r = true <-> compiles_with lp sp r.
Proof.
  unfold accepted_with, compiles_with. rewrite !andb_true_iff, config_iff, is_root_iff, forallb_forall. split.
  - intros [[Hcf Hr] H]. split; [exact Hcf|]. split; [exact Hr|]. intros n parents Hp.
    assert (Hall : forall m up, placed r m up -> uniq m).
    { intros m up Hm. apply (ok_with_uniq m up). apply H. now apply placed_preorder. }
    apply (node_with_iff r); auto. apply H. now apply placed_preorder.
  - intros (Hcf & Hr & H). split; [auto|]. intros [n parents] Hin. apply placed_preorder in Hin.
    apply (node_with_iff r); auto. intros m up Hm. apply (H m up Hm).
Qed.
End Rules.

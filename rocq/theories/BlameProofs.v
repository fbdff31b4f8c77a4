(** A command line has one meaning only: it is correct, asks for help, or is wrong in one way (C62). *)
From Coq Require Import Lia.
From Verif Require Import Bytes Token Result CodePoint Utf8 Tree PreParse Parse Root Validator.
From Verif Require Import SpecTokens SpecEdit SpecSuggest SpecTake SpecMode SpecDeliver SpecRoot SpecReading SpecFault SpecOutcome.
From Verif Require Import TreeProofs OrderProofs NodeProofs SelectProofs TakeProofs ModeProofs FaultProofs ReadProofs OutcomeProofs ExactProofs.

Lemma same_failure_det {A} (r : res A) x y : same_failure r x -> same_failure r y -> x = y.
Proof. destruct r; cbn [same_failure]; intros H1 H2; try contradiction; congruence. Qed.

(** ** One argument *)

Lemma cut_not_fronted n ts t value us : cut_short n ts -> ~ fronted n ts t value us.
Proof.
  intros (sep & t0 & us0 & l & c & s & Hs & -> & Et & Hno & Hc & Hlen) Hf.
  inversion Hf as [t1 us1 Hs1|sep1 p l1 c1 s1 v us1 Hs1 Hc1 Hl1 Hno1 Hv]; subst; [congruence|].
  rewrite Hs in Hs1. injection Hs1 as <-. cbn [t_name] in Et.
  destruct (first_split (fun c => In c sep) l1 c1 (s1 ++ v) l c s) as (-> & -> & E2); auto.
  { intros u Hu Hin. now apply (Hno1 u). }
  { intros u Hu Hin. now apply (Hno u). }
  rewrite <- E2 in Hlen. cbn [List.length] in *. rewrite app_length in Hlen. lia.
Qed.

Lemma breaks_det n ts x y : breaks n ts x -> breaks n ts y -> x = y.
Proof.
  intros [Hc|t v us nm Hf Hg Hb|t v us nm Hf Hg Hb Hgr] [Hc'|t' v' us' nm' Hf' Hg' Hb'|t' v' us' nm' Hf' Hg' Hb' Hgr'];
    try reflexivity;
    try (exfalso; (eapply cut_not_fronted; [exact Hc|eassumption]));
    try (exfalso; (eapply cut_not_fronted; [exact Hc'|eassumption]));
    destruct (fronted_det _ _ _ _ _ _ _ _ Hf Hf') as (<- & <- & <-);
    rewrite (group_for_det _ _ _ _ Hg' Hg) in *; contradiction.
Qed.

Lemma words_det n ts u w : words n ts u -> words n ts w -> u = w.
Proof.
  intros [t value us t' us' Hn Hf Hg Hm|Hn Hne] H2;
    inversion H2 as [t2 value2 us2 t2' us2' Hn2 Hf2 Hg2 Hm2|Hn2 Hne2]; subst; try congruence.
  destruct (fronted_det _ _ _ _ _ _ _ _ Hf Hf2) as (<- & <- & <-).
  destruct (grouped_det _ _ _ _ _ _ _ Hg Hg2) as (<- & <-). reflexivity.
Qed.

Lemma candidates_det n us u w : candidates n us u -> candidates n us w -> u = w.
Proof.
  intros H1 H2. inversion H1 as [Hm E1|m p vs rest Hm E Hno E1|m Hm Hno E1]; subst;
    inversion H2 as [Hm2 E2|m2 p2 vs2 rest2 Hm2 E Hno2 E2|m2 Hm2 Hno2 E2]; subst; try congruence.
  - rewrite Hm in Hm2. injection Hm2 as <-.
    destruct (first_split (fun u => t_name u = m) u (Tok p m) rest w (Tok p2 m) rest2) as (-> & _); auto.
  - rewrite Hm in Hm2. injection Hm2 as <-. exfalso. apply (Hno2 (Tok p m)); [apply in_elt|reflexivity].
  - rewrite Hm in Hm2. injection Hm2 as <-. exfalso. apply (Hno (Tok p2 m)); [apply in_elt|reflexivity].
Qed.

Lemma refused_det n ts e f : leaf_ok n -> refused n ts e -> refused n ts f -> e = f.
Proof.
  intros L.
  assert (Hsep : forall us, is_named n = true -> unsplit n ts -> ~ words n ts us).
  { intros us Hn Hu [t value us0 t' us' _ Hf _ _|Hn2 _]; [|congruence].
    exact (fronted_not_unsplit _ _ _ _ _ Hf Hu). }
  intros [Hn Hu|us e1 Hw Hc] [Hn2 Hu2|us2 f1 Hw2 Hc2]; try reflexivity.
  - now apply Hsep in Hw2.
  - now apply Hsep in Hw.
  - rewrite <- (words_det _ _ _ _ Hw Hw2) in Hc2.
    destruct Hc as [vs mn mx Hca Hb Hlt|vs mn mx Hm Hca Hb Hlt], Hc2 as [vs2 mn2 mx2 Hca2 Hb2 Hlt2|vs2 mn2 mx2 Hm2 Hca2 Hb2 Hlt2];
      try reflexivity; rewrite <- (candidates_det _ _ _ _ Hca Hca2) in Hlt2; rewrite Hb in Hb2; injection Hb2 as <- <-;
      pose proof (lo_count _ L _ _ Hb); lia.
Qed.

Lemma counted_not_miscounted n us vals rest e : counted n us vals rest -> ~ miscounted n us e.
Proof.
  intros Hc [vs mn mx Hca Hb Hlt|vs mn mx Hm Hca Hb Hlt];
    inversion Hc as [mn1 mx1 ? ? Hm1 Hc1 Hu1 Hb1 Hx1|mn1 mx1 m1 p1 ? ? Hm1 Hc1 Hu1 Hno1 Hb1 _|mx1 m1 p1 ? ? Hm1 Hc1 Hn1 Hlt1 Hu1 Hb1 Hx1|mn1 mx1 m1 Hm1 Hc1 Hno1 Hb1]; subst;
    rewrite Hb in Hc1; [injection Hc1 as <- <-|injection Hc1 as <- <-|injection Hc1 as -> <-|injection Hc1 as <- <-
                       |injection Hc1 as <- <-|injection Hc1 as <- <-|injection Hc1 as -> <-|injection Hc1 as <- <-].
  - pose proof (candidates_det _ _ _ _ Hca (candidates_all _ _ Hm1)) as ->. rewrite nlen_app in Hlt. lia.
  - pose proof (candidates_det _ _ _ _ Hca (candidates_marked _ _ _ _ _ _ Hm1 eq_refl Hno1)) as ->. lia.
  - exact (N.nlt_0_r _ Hlt).
  - pose proof (candidates_det _ _ _ _ Hca (candidates_unmarked _ _ _ Hm1 Hno1)) as ->. lia.
  - contradiction.
  - pose proof (candidates_det _ _ _ _ Hca (candidates_marked _ _ _ _ _ _ Hm1 eq_refl Hno1)) as ->. lia.
  - assert (Hcm : candidates n (Tok p1 m1 :: vals ++ rest) [])
      by (apply (candidates_marked _ _ m1 p1 [] (vals ++ rest)); [exact Hm1|reflexivity|intros u []]).
    pose proof (candidates_det _ _ _ _ Hca Hcm) as ->. exact (N.nlt_0_r _ Hlt).
  - pose proof (candidates_det _ _ _ _ Hca (candidates_unmarked _ _ _ Hm1 Hno1)) as ->. lia.
Qed.

Lemma consumes_not_refused n ts label vals rest e : consumes n ts label vals rest -> ~ refused n ts e.
Proof.
  intros [t value us t' us' va re Hn Hf Hg Hm Hc|va re Hn Hne Hc] [Hn2 Hu|us2 e2 Hw Hmis].
  - exact (fronted_not_unsplit _ _ _ _ _ Hf Hu).
  - assert (Hw2 : words n ts (value ++ us')) by (eapply words_named; eauto).
    rewrite <- (words_det _ _ _ _ Hw2 Hw) in Hmis. now apply (counted_not_miscounted _ _ _ _ _ Hc) in Hmis.
  - congruence.
  - rewrite <- (words_det _ _ _ _ (words_unnamed _ _ Hn Hne) Hw) in Hmis.
    now apply (counted_not_miscounted _ _ _ _ _ Hc) in Hmis.
Qed.

Lemma refused_addressed n ts e : refused n ts e -> addressed n ts.
Proof.
  intros [Hn Hu|us e1 [t value us0 t' us' Hn Hf Hg Hm|Hn Hne] _].
  - left. split; [exact Hn|]. now right.
  - left. split; [exact Hn|]. left. eauto 10.
  - right. easy.
Qed.

(** ** The arguments of a mode *)

Lemma fault_det m done ts i l x y : leaf_ok l -> fault m done ts i l x -> fault m done ts i l y -> x = y.
Proof.
  intros L [x0 Hb|c Hcl Hex Hn|t us Hcl Hex Hnm Hms Hu Ht|e Hcl Hal Hr|lb vs rs ns bf d af Hcl Hal Hco Hin Hbl Hre Hnp Hbf]
    [x2 Hb2|c2 Hcl2 Hex2 Hn2|t2 us2 Hcl2 Hex2 Hnm2 Hms2 Hu2 Ht2|e2 Hcl2 Hal2 Hr2|lb2 vs2 rs2 ns2 bf2 d2 af2 Hcl2 Hal2 Hco2 Hin2 Hbl2 Hre2 Hnp2 Hbf2];
    try (exfalso; match goal with H : breaks l ts _, H2 : claimed l ts |- _ => destruct H2 as (H2 & _); now apply H2 in H end);
    try (exfalso; match goal with H : excluded _ _ _ _, H2 : ~ excluded _ _ _ _ |- _ => now apply H2 in H end);
    try (exfalso; match goal with H : excluded _ _ _ _, H2 : allowed _ _ _ _ |- _ => destruct H2 as (_ & H2); now apply H2 in H end);
    try (exfalso; match goal with H : allowed _ _ _ _, H2 : used _ _ |- _ => destruct H as ([H|H] & _); [congruence|now apply H in H2] end);
    try (exfalso; match goal with H : refused _ _ _, H2 : consumes _ _ _ _ _ |- _ => now apply (consumes_not_refused _ _ _ _ _ _ H2) in H end).
  - now apply (breaks_det l ts).
  - rewrite Hn in Hn2. now injection Hn2 as <-.
  - congruence.
  - now rewrite (refused_det _ _ _ _ L Hr Hr2).
  - assert (E : PDependent ns = PDependent ns2).
    { apply (nodup_map_inj pol_tag (n_pols l)); auto. apply (lo_tags _ L). }
    injection E as <-.
    destruct (first_split (fun d => refers_to ns d = true /\ ~ present m done d) bf d af bf2 d2 af2) as (_ & <- & _); auto.
    + now rewrite <- Hbl.
    + intros u Hu [H1 H2]. now apply H2, Hbf.
    + intros u Hu [H1 H2]. now apply H2, Hbf2.
Qed.

Lemma taking_no_fault m done ts i l label vals rest x :
  ~ chokes l ts -> consumes l ts label vals rest -> allowed m done i l -> dependencies m done l ->
  ~ fault m done ts i l x.
Proof.
  intros Hc Hco [Ha1 Ha2] Hd [x0 Hb|c Hcl Hex Hn|t us Hcl Hex Hnm Hms Hu Ht|e Hcl Hal Hr|lb vs rs ns bf d af Hcl Hal Hco2 Hin Hbl Hre Hnp Hbf].
  - now apply breaks_chokes in Hb.
  - contradiction.
  - destruct Ha1 as [Ha1|Ha1]; [congruence|contradiction].
  - now apply (consumes_not_refused _ _ _ _ _ _ Hco) in Hr.
  - apply Hnp. apply (Hd ns d Hin); [|exact Hre]. rewrite Hbl. apply in_elt.
Qed.

Lemma consumes_ne n ts label vals rest : consumes n ts label vals rest -> ts <> [].
Proof. intros H ->. inversion H as [? ? ? ? ? ? ? ? Hf|? ? ? Hne]; subst; [inversion Hf|now apply Hne]. Qed.

(** The first argument that does not pass on the tokens is unique. *)
Lemma first_entry m done ts bf i l af bf2 i2 l2 af2 :
  entries m = bf ++ (i, l) :: af -> entries m = bf2 ++ (i2, l2) :: af2 ->
  (forall j k, In (j, k) bf -> passes m done ts j k) -> (forall j k, In (j, k) bf2 -> passes m done ts j k) ->
  ~ passes m done ts i l -> ~ passes m done ts i2 l2 -> i = i2 /\ l = l2.
Proof.
  intros E1 E2 H1 H2 N1 N2.
  destruct (first_split (fun a => ~ passes m done ts (fst a) (snd a)) bf (i, l) af bf2 (i2, l2) af2) as (_ & [= <- <-] & _); auto.
  - now rewrite <- E1.
  - intros [j k] H Hz. apply Hz. now apply H1.
  - intros [j k] H Hz. apply Hz. now apply H2.
Qed.

Lemma stuck_not_reading m done ts x : stuck m done ts x -> forall items, ~ reading m done ts items.
Proof.
  induction 1 as [done ts bf i l af x Hne Hes Hbf Hnp Hfa|done ts Hne Hall Hus|done t us i x Hall Hi Hu Hx
                 |done ts bf i l af lb vs rs x Hes Hbf Hc He Hco Hal Hdp Hst IH]; intros items Hr;
    try (assert (Hne0 : ts <> []) by (now apply consumes_ne in Hco)).
  - apply reading_head in Hr; [|exact Hne]. destruct Hr as (bf2 & i2 & l2 & af2 & lb2 & vs2 & rs2 & more & Hes2 & Hbf2 & Htk2 & _).
    destruct (first_entry m done ts bf i l af bf2 i2 l2 af2) as [<- <-]; auto.
    { exact (taking_not_passes _ _ _ _ _ _ _ _ Htk2). }
    destruct Htk2 as (Hc & _ & Hco & Hal & Hd). revert Hfa. now apply (taking_no_fault m done ts i l lb2 vs2 rs2).
  - apply reading_head in Hr; [|exact Hne]. destruct Hr as (bf2 & i2 & l2 & af2 & lb2 & vs2 & rs2 & more & Hes2 & Hbf2 & Htk2 & _).
    apply (taking_not_passes _ _ _ _ _ _ _ _ Htk2). apply Hall. rewrite Hes2. apply in_elt.
  - apply reading_head in Hr; [|discriminate]. destruct Hr as (bf2 & i2 & l2 & af2 & lb2 & vs2 & rs2 & more & Hes2 & Hbf2 & Htk2 & _).
    apply (taking_not_passes _ _ _ _ _ _ _ _ Htk2). apply Hall. rewrite Hes2. apply in_elt.
  - apply reading_head in Hr; [|exact Hne0]. destruct Hr as (bf2 & i2 & l2 & af2 & lb2 & vs2 & rs2 & more & Hes2 & Hbf2 & Htk2 & -> & Hrd2).
    assert (Htk : taking m done ts i l lb vs rs) by (unfold taking; auto).
    destruct (first_entry m done ts bf i l af bf2 i2 l2 af2) as [<- <-]; auto.
    { exact (taking_not_passes _ _ _ _ _ _ _ _ Htk). }
    { exact (taking_not_passes _ _ _ _ _ _ _ _ Htk2). }
    destruct Htk2 as (_ & _ & Hco2 & _). destruct (consumes_det _ _ _ _ _ _ _ _ Hco Hco2) as (_ & _ & <-).
    now apply IH in Hrd2.
Qed.

Lemma stuck_det m done ts x : (forall i l, In (i, l) (entries m) -> leaf_ok l) ->
  stuck m done ts x -> forall y, stuck m done ts y -> x = y.
Proof.
  intros HL.
  induction 1 as [done ts bf i l af x Hne Hes Hbf Hnp Hfa|done ts Hne Hall Hus|done t us i x Hall Hi Hu Hx
                 |done ts bf i l af lb vs rs x Hes Hbf Hc He Hco Hal Hdp Hst IH]; intros y Hy;
    inversion Hy as [done2 ts2 bf2 i2 l2 af2 x2 Hne2 Hes2 Hbf2 Hnp2 Hfa2|done2 ts2 Hne2 Hall2 Hus2|done2 t2 us2 i2 x2 Hall2 Hi2 Hu2 Hx2
                 |done2 ts2 bf2 i2 l2 af2 lb2 vs2 rs2 x2 Hes2 Hbf2 Hc2 He2 Hco2 Hal2 Hdp2 Hst2]; subst.
  - destruct (first_entry m done ts bf i l af bf2 i2 l2 af2) as [<- <-]; auto.
    apply (fault_det m done ts i l); auto. apply (HL i). rewrite Hes. apply in_elt.
  - exfalso. apply Hnp, Hall2. rewrite Hes. apply in_elt.
  - exfalso. apply Hnp, Hall2. rewrite Hes. apply in_elt.
  - exfalso. assert (Htk : taking m done ts i2 l2 lb2 vs2 rs2) by (unfold taking; auto).
    destruct (first_entry m done ts bf i l af bf2 i2 l2 af2) as [<- <-]; auto.
    { exact (taking_not_passes _ _ _ _ _ _ _ _ Htk). }
    revert Hfa. now apply (taking_no_fault m done ts i l lb2 vs2 rs2).
  - exfalso. apply Hnp2, Hall. rewrite Hes2. apply in_elt.
  - reflexivity.
  - exfalso. now apply Hu2, Hus.
  - exfalso. assert (Htk : taking m done ts i2 l2 lb2 vs2 rs2) by (unfold taking; auto).
    apply (taking_not_passes _ _ _ _ _ _ _ _ Htk). apply Hall. rewrite Hes2. apply in_elt.
  - exfalso. apply Hnp2, Hall. rewrite Hes2. apply in_elt.
  - exfalso. now apply Hu, Hus2.
  - now apply (unknown_det m t).
  - exfalso. assert (Htk : taking m done (t :: us) i2 l2 lb2 vs2 rs2) by (unfold taking; auto).
    apply (taking_not_passes _ _ _ _ _ _ _ _ Htk). apply Hall. rewrite Hes2. apply in_elt.
  - exfalso. assert (Htk : taking m done ts i l lb vs rs) by (unfold taking; auto).
    destruct (first_entry m done ts bf i l af bf2 i2 l2 af2) as [<- <-]; auto.
    { exact (taking_not_passes _ _ _ _ _ _ _ _ Htk). }
    revert Hfa2. now apply (taking_no_fault m done ts i l lb vs rs).
  - exfalso. assert (Htk : taking m done ts i l lb vs rs) by (unfold taking; auto).
    apply (taking_not_passes _ _ _ _ _ _ _ _ Htk). apply Hall2. rewrite Hes. apply in_elt.
  - exfalso. assert (Htk : taking m done (t2 :: us2) i l lb vs rs) by (unfold taking; auto).
    apply (taking_not_passes _ _ _ _ _ _ _ _ Htk). apply Hall2. rewrite Hes. apply in_elt.
  - assert (Htk : taking m done ts i l lb vs rs) by (unfold taking; auto).
    assert (Htk2 : taking m done ts i2 l2 lb2 vs2 rs2) by (unfold taking; auto).
    destruct (first_entry m done ts bf i l af bf2 i2 l2 af2) as [<- <-]; auto.
    { exact (taking_not_passes _ _ _ _ _ _ _ _ Htk). }
    { exact (taking_not_passes _ _ _ _ _ _ _ _ Htk2). }
    destruct (consumes_det _ _ _ _ _ _ _ _ Hco Hco2) as (_ & _ & <-). now apply IH.
Qed.

(** ** Values *)

Lemma off_range_not_in l v e : off_range l v e -> ~ in_range l v.
Proof.
  intros [lo mx lt Hin Hlt|mn hi lt Hin Hlo Hlt] Hr; destruct (Hr _ _ _ Hin) as [H1 H2].
  - rewrite (H1 lo eq_refl) in Hlt. discriminate.
  - rewrite (H2 hi eq_refl) in Hlt. discriminate.
Qed.

Lemma off_range_det l v e f : leaf_ok l -> off_range l v e -> off_range l v f -> e = f.
Proof.
  intros L [lo mx lt Hin Hlt|mn hi lt Hin Hlo Hlt] [lo2 mx2 lt2 Hin2 Hlt2|mn2 hi2 lt2 Hin2 Hlo2 Hlt2]; try reflexivity.
  - assert (E : PMinMaxValue (Some lo) mx lt = PMinMaxValue mn2 (Some hi2) lt2).
    { apply (nodup_map_inj pol_tag (n_pols l)); auto. apply (lo_tags _ L). }
    injection E as <- _ <-. rewrite (Hlo2 lo eq_refl) in Hlt. discriminate.
  - assert (E : PMinMaxValue mn (Some hi) lt = PMinMaxValue (Some lo2) mx2 lt2).
    { apply (nodup_map_inj pol_tag (n_pols l)); auto. apply (lo_tags _ L). }
    injection E as -> _ ->. rewrite (Hlo lo2 eq_refl) in Hlt2. discriminate.
Qed.

Lemma reads_reader l s v : reads_as l s v <-> reader l s = Ok v.
Proof. unfold reads_as, reader. now destruct (custom_parser l). Qed.

Lemma reads_no_failure l s v x : reads_as l s v -> ~ same_failure (reader l s) x.
Proof. rewrite reads_reader. intros -> H. exact H. Qed.

Lemma forall2_reads l before t after vs : Forall2 (fun t v => reads_as l (t_name t) v) (before ++ t :: after) vs ->
  exists v, reads_as l (t_name t) v.
Proof. intros H. apply Forall2_app_inv_l in H as (v1 & v2 & _ & H & _). inversion H; subst. eauto. Qed.

Lemma unread_no_value l ts x v : unread l ts x -> ~ value_of l ts v.
Proof.
  intros Hu Hv.
  destruct Hu as [c t ts x Hk Hc Hx|c bf t af x Hk Hc Hbf Hx|c t ts w e Hk Hc Hr Ho|c e Hk Hc Ho|c ts vs e Hk Hc Hf Ho];
    inversion Hv as [ts2 Hk2|c2 t2 ts2 v2 Hk2 Hc2 Hr2 Hi2|c2 Hk2 Hc2 Hi2|c2 ts2 vs2 Hk2 Hc2 Hf2 Hi2]; subst; try congruence;
    try (destruct Hk2 as [Hk2|Hk2]; congruence).
  - now apply (reads_no_failure _ _ _ _ Hr2) in Hx.
  - destruct (forall2_reads _ _ _ _ _ Hf2) as [w Hw]. now apply (reads_no_failure _ _ _ _ Hw) in Hx.
  - rewrite (reads_as_det _ _ _ _ Hr Hr2) in Ho. now apply off_range_not_in in Ho.
  - now apply off_range_not_in in Ho.
  - assert (vs = vs2) as ->; [|now apply off_range_not_in in Ho].
    clear -Hf Hf2. revert vs2 Hf2. induction Hf as [|t v ts vs Hr _ IH]; intros vs2 H2; inversion H2; subst; [reflexivity|].
    f_equal; [now apply (reads_as_det l (t_name t))|now apply IH].
Qed.

Lemma unread_det l ts x y : leaf_ok l -> unread l ts x -> unread l ts y -> x = y.
Proof.
  intros L Hx Hy.
  inversion Hx as [c t us x1 Hk Hc Hxx|c bf t af x1 Hk Hc Hbf Hxx|c t us w e Hk Hc Hr Ho|c e Hk Hc Ho|c us vs e Hk Hc Hf Ho]; subst;
  inversion Hy as [c2 t2 us2 x2 Hk2 Hc2 Hxx2|c2 bf2 t2 af2 x2 Hk2 Hc2 Hbf2 Hxx2|c2 t2 us2 w2 e2 Hk2 Hc2 Hr2 Ho2|c2 e2 Hk2 Hc2 Ho2|c2 us2 vs2 e2 Hk2 Hc2 Hf2 Ho2];
    subst; try congruence.
  - exact (same_failure_det _ _ _ Hxx Hxx2).
  - now apply (reads_no_failure _ _ _ _ Hr2) in Hxx.
  - destruct (first_split (fun u => ~ exists v, reads_as l (t_name u) v) bf t af bf2 t2 af2) as (_ & <- & _); auto.
    + intros [v Hv]. now apply (reads_no_failure _ _ _ _ Hv) in Hxx.
    + intros [v Hv]. now apply (reads_no_failure _ _ _ _ Hv) in Hxx2.
    + exact (same_failure_det _ _ _ Hxx Hxx2).
  - destruct (forall2_reads _ _ _ _ _ Hf2) as [w Hw]. now apply (reads_no_failure _ _ _ _ Hw) in Hxx.
  - now apply (reads_no_failure _ _ _ _ Hr) in Hxx2.
  - rewrite (reads_as_det _ _ _ _ Hr Hr2) in Ho. now rewrite (off_range_det _ _ _ _ L Ho Ho2).
  - now rewrite (off_range_det _ _ _ _ L Ho Ho2).
  - destruct (forall2_reads _ _ _ _ _ Hf) as [w Hw]. now apply (reads_no_failure _ _ _ _ Hw) in Hxx2.
  - assert (vs = vs2) as ->; [|now rewrite (off_range_det _ _ _ _ L Ho Ho2)].
    clear -Hf Hf2. revert vs2 Hf2. induction Hf as [|t v ts vs Hr _ IH]; intros vs2 H2; inversion H2; subst; [reflexivity|].
    f_equal; [now apply (reads_as_det l (t_name t))|now apply IH].
Qed.

(** ** The router's arguments *)

Lemma gathered_some o asg r : gathered o asg r -> asg <> [] \/ o <> None -> r <> None.
Proof.
  induction 1 as [o|o l vals v merge more r Hv Hm Hg IH|l vals v more r Hv Hm Hg IH]; intros [H|H] E; try easy.
  - apply IH; [right; discriminate|exact E].
  - apply IH; [right; discriminate|exact E].
  - apply IH; [right; discriminate|exact E].
Qed.

Lemma gathered_split a b o r : gathered o (a ++ b) r -> exists q, gathered o a q /\ gathered q b r.
Proof.
  revert o. induction a as [|[l vals] a IH]; intros o H; cbn [app] in H.
  - exists o. split; [constructor|exact H].
  - inversion H as [|o1 l1 vals1 v merge more r1 Hv Hm Hg|l1 vals1 v more r1 Hv Hm Hg]; subst.
    + destruct (IH _ Hg) as (q & H1 & H2). exists q. split; [|exact H2]. eapply gathered_stage; eauto.
    + destruct (IH _ Hg) as (q & H1 & H2). exists q. split; [|exact H2]. eapply gathered_once; eauto.
Qed.

Lemma gathered_again a l vals b r : a <> [] -> multi_stage l = None -> ~ gathered None (a ++ (l, vals) :: b) r.
Proof.
  intros Ha Hm H. apply gathered_split in H as (q & H1 & H2).
  pose proof (gathered_some _ _ _ H1 (or_introl Ha)) as Hq. inversion H2; subst; congruence.
Qed.

Lemma settled_again m bf l vals af c : settled m (bf ++ (l, vals) :: af) -> multi_stage l = None ->
  In c (router_children m) -> belongs c l = true -> for_child c bf <> [] -> False.
Proof.
  intros [_ H] Hm Hc Hb Hne. destruct (H c Hc) as [o Ho]. rewrite for_child_app in Ho.
  unfold for_child in Ho at 2. cbn [filter fst] in Ho. rewrite Hb in Ho. now apply gathered_again in Ho.
Qed.

Lemma settled_value m bf l vals af : settled m (bf ++ (l, vals) :: af) -> exists v, value_of l vals v.
Proof. intros [H _]. apply Forall_app in H as [_ H]. inversion H; subst. easy. Qed.

Lemma deliveries_each m asg vs c : deliveries m asg vs -> In c (router_children m) -> exists v, delivered c asg v.
Proof.
  intros [_ H] Hc. revert Hc. induction H as [|d v ds vs Hd _ IH]; [intros []|]. intros [<-|Hc]; eauto.
Qed.

Lemma deliveries_settled m asg vs : deliveries m asg vs -> settled m asg.
Proof.
  intros H. split; [apply H|]. intros c Hc. destruct (deliveries_each _ _ _ _ H Hc) as [v [v1 Hg _|v1 Hn _ _ _]].
  - eauto.
  - rewrite Hn. exists None. constructor.
Qed.

Lemma mandatory_not_delivered c asg : for_child c asg = [] -> mandatory c -> ~ exists v, delivered c asg v.
Proof. intros Hn Hm [v [v1 Hg _|v1 _ Hm2 _ _]]; [|contradiction]. rewrite Hn in Hg. inversion Hg. Qed.

Lemma default_not_delivered c asg e : for_child c asg = [] ->
  off_range c (last (default_values c) (vt_init (n_ty c))) e -> ~ exists v, delivered c asg v.
Proof.
  intros Hn Ho [v [v1 Hg _|v1 _ Hm2 -> Hr]].
  - rewrite Hn in Hg. inversion Hg.
  - now apply off_range_not_in in Ho.
Qed.

Lemma range_not_delivered c asg v e : repeatable c -> gathered None (for_child c asg) (Some v) -> off_range c v e ->
  ~ exists v, delivered c asg v.
Proof.
  intros Hr Hg Ho [w [v1 Hg2 Hi|v1 Hn _ _ _]].
  - pose proof (gathered_det _ _ _ Hg _ Hg2) as E. injection E as <-. apply off_range_not_in in Ho. auto.
  - rewrite Hn in Hg. inversion Hg.
Qed.

Lemma undelivered_not_deliveries m asg x vs : undelivered m asg x -> has_router m = true -> ~ deliveries m asg vs.
Proof.
  intros Hu Hr Hd. pose proof (deliveries_settled _ _ _ Hd) as Hs.
  destruct Hu as [bf l vals af x E _ Hx|bf l vals af v c E _ Hv Hm Hc Hb Hn|bf c af _ E _ Hn Hm|bf c af e _ E _ Hn _ Ho
                 |bf c af v e _ _ E _ Hre Hg Ho|vs2 _ Hr2].
  - rewrite E in Hs. apply settled_value in Hs as [v Hv]. now apply (unread_no_value _ _ _ _ Hx) in Hv.
  - rewrite E in Hs. now apply (settled_again _ _ _ _ _ _ Hs Hm Hc Hb).
  - apply (mandatory_not_delivered _ _ Hn Hm). apply (deliveries_each m asg vs); auto. rewrite E. apply in_elt.
  - apply (default_not_delivered _ _ _ Hn Ho). apply (deliveries_each m asg vs); auto. rewrite E. apply in_elt.
  - apply (range_not_delivered _ _ _ _ Hre Hg Ho). apply (deliveries_each m asg vs); auto. rewrite E. apply in_elt.
  - congruence.
Qed.

Lemma splits_compare {A} (a : list A) x b a' x' b' : a ++ x :: b = a' ++ x' :: b' ->
  (a = a' /\ x = x') \/ (exists mid, a' = a ++ x :: mid) \/ (exists mid, a = a' ++ x' :: mid).
Proof.
  revert a'. induction a as [|y a IH]; intros [|y' a'] E; cbn [app] in E; injection E as E1 E2.
  - left. easy.
  - subst. right. left. exists a'. reflexivity.
  - subst. right. right. exists a. reflexivity.
  - subst. destruct (IH a' E2) as [[-> ->]|[[mid ->]|[mid ->]]]; [now left|right; left; now exists mid|right; right; now exists mid].
Qed.

(** A failure while the assignments are carried out. *)
Inductive early (m : node) (asg : list (node * list token)) : list (node * list token) -> node -> list token -> res unit -> Prop :=
| early_unread bf l vals af x : asg = bf ++ (l, vals) :: af -> settled m bf -> unread l vals x -> early m asg bf l vals x
| early_again bf l vals af v c : asg = bf ++ (l, vals) :: af -> settled m bf -> value_of l vals v -> multi_stage l = None ->
    In c (router_children m) -> belongs c l = true -> for_child c bf <> [] ->
    early m asg bf l vals (Throw (EML argument_has_already_been_set [shown l])).

Lemma early_split m asg bf l vals x : early m asg bf l vals x -> exists af, asg = bf ++ (l, vals) :: af.
Proof. intros [? ? ? ? ? E _ _|? ? ? ? ? ? E _ _ _ _ _ _]; eauto. Qed.

Lemma early_settled m asg bf l vals x : early m asg bf l vals x -> forall af, ~ settled m (bf ++ (l, vals) :: af).
Proof.
  intros [bf0 l0 vals0 af0 x0 E _ Hx|bf0 l0 vals0 af0 v c E _ Hv Hm Hc Hb Hn] af Hs.
  - apply settled_value in Hs as [v Hv]. now apply (unread_no_value _ _ _ _ Hx) in Hv.
  - now apply (settled_again _ _ _ _ _ _ Hs Hm Hc Hb).
Qed.

Lemma early_before m asg bf l vals x : early m asg bf l vals x -> settled m bf.
Proof. now intros [? ? ? ? ? E Hs _|? ? ? ? ? ? E Hs _ _ _ _ _]. Qed.

Lemma early_det m asg bf l vals x bf2 l2 vals2 y : (forall a, In a asg -> leaf_ok (fst a)) ->
  early m asg bf l vals x -> early m asg bf2 l2 vals2 y -> x = y.
Proof.
  intros HL H1 H2. destruct (early_split _ _ _ _ _ _ H1) as [af E1]. destruct (early_split _ _ _ _ _ _ H2) as [af2 E2].
  assert (E : bf ++ (l, vals) :: af = bf2 ++ (l2, vals2) :: af2) by congruence.
  apply splits_compare in E as [[E3 E4]|[[mid E]|[mid E]]].
  - subst bf2. injection E4 as <- <-.
    assert (L : leaf_ok l) by (apply (HL (l, vals)); rewrite E1; apply in_elt).
    inversion H1 as [? ? ? ? ? _ _ Hx|? ? ? ? v c _ _ Hv]; subst; inversion H2 as [? ? ? ? ? _ _ Hx2|? ? ? ? v2 c2 _ _ Hv2]; subst.
    + now apply (unread_det l vals).
    + now apply (unread_no_value _ _ _ _ Hx) in Hv2.
    + now apply (unread_no_value _ _ _ _ Hx2) in Hv.
    + reflexivity.
  - exfalso. apply (early_settled _ _ _ _ _ _ H1 mid). rewrite <- E. now apply early_before in H2.
  - exfalso. apply (early_settled _ _ _ _ _ _ H2 mid). rewrite <- E. now apply early_before in H1.
Qed.

(** A failure once they are carried out. *)
Inductive late (m : node) (asg : list (node * list token)) : res unit -> Prop :=
| late_missing bf c af x : router_children m = bf ++ c :: af ->
    (forall d, In d bf -> for_child d asg = [] -> exists v, delivered d asg v) -> for_child c asg = [] ->
    (mandatory c /\ x = Throw (EML missing_required_argument [shown c])
     \/ ~ mandatory c /\ exists e, off_range c (last (default_values c) (vt_init (n_ty c))) e /\ x = Throw (EML e [shown c])) ->
    late m asg x
| late_range bf c af v e :
    (forall d, In d (router_children m) -> for_child d asg = [] -> exists v, delivered d asg v) ->
    router_children m = bf ++ c :: af -> (forall d, In d bf -> exists v, delivered d asg v) ->
    repeatable c -> gathered None (for_child c asg) (Some v) -> off_range c v e -> late m asg (Throw (EML e [shown c]))
| late_router vs : deliveries m asg vs -> late m asg (Throw (EML mode_requires_arguments [shown m])).

Lemma undelivered_cases m asg x : undelivered m asg x ->
  (exists bf l vals, early m asg bf l vals x) \/ settled m asg /\ late m asg x.
Proof.
  intros [bf l vals af y E H1 Hx|bf l vals af v c E H1 Hv Hm Hc Hb Hn|bf c af Hs E Hbf Hn Hm|bf c af e Hs E Hbf Hn Hm Ho
         |bf c af v e Hs Hall E Hbf Hre Hg Ho|vs Hd Hr].
  - left. exists bf, l, vals. eapply early_unread; eauto.
  - left. exists bf, l, vals. eapply early_again; eauto.
  - right. split; [exact Hs|]. apply (late_missing m asg bf c af); auto.
  - right. split; [exact Hs|]. apply (late_missing m asg bf c af); auto. right. eauto.
  - right. split; [exact Hs|]. apply (late_range m asg bf c af v); auto.
  - right. split; [now apply deliveries_settled in Hd|]. now apply (late_router m asg vs).
Qed.

Lemma late_det m asg x y : (forall c, In c (router_children m) -> leaf_ok c) -> late m asg x -> late m asg y -> x = y.
Proof.
  intros HL.
  assert (Hmiss : forall c (z : res unit), for_child c asg = [] ->
    (mandatory c /\ z = Throw (EML missing_required_argument [shown c])
     \/ ~ mandatory c /\ exists e, off_range c (last (default_values c) (vt_init (n_ty c))) e /\ z = Throw (EML e [shown c])) ->
    ~ exists v, delivered c asg v).
  { intros c z Hn [[Hm _]|(Hm & e & Ho & _)]; [now apply mandatory_not_delivered|now apply (default_not_delivered c asg e)]. }
  intros [bf c af x0 E Hbf Hn Hx|bf c af v e Hall E Hbf Hre Hg Ho|vs Hd] [bf2 c2 af2 x2 E2 Hbf2 Hn2 Hx2|bf2 c2 af2 v2 e2 Hall2 E2 Hbf2 Hre2 Hg2 Ho2|vs2 Hd2].
  - destruct (first_split (fun d => for_child d asg = [] /\ ~ exists v, delivered d asg v) bf c af bf2 c2 af2) as (_ & <- & _).
    + now rewrite <- E.
    + split; [exact Hn|]. exact (Hmiss _ _ Hn Hx).
    + split; [exact Hn2|]. exact (Hmiss _ _ Hn2 Hx2).
    + intros u Hu [H1 H2]. apply H2. now apply Hbf.
    + intros u Hu [H1 H2]. apply H2. now apply Hbf2.
    + destruct Hx as [[Hm ->]|(Hm & e & Ho & ->)], Hx2 as [[Hm2 ->]|(Hm2 & e2 & Ho2 & ->)]; try contradiction; [reflexivity|].
      rewrite (off_range_det c _ _ _ (HL c ltac:(rewrite E; apply in_elt)) Ho Ho2). reflexivity.
  - exfalso. apply (Hmiss _ _ Hn Hx). apply Hall2; [rewrite E; apply in_elt|exact Hn].
  - exfalso. apply (Hmiss _ _ Hn Hx). apply (deliveries_each m asg vs2); auto. rewrite E. apply in_elt.
  - exfalso. apply (Hmiss _ _ Hn2 Hx2). apply Hall; [rewrite E2; apply in_elt|exact Hn2].
  - destruct (first_split (fun d => ~ exists v, delivered d asg v) bf c af bf2 c2 af2) as (_ & <- & _).
    + now rewrite <- E.
    + now apply (range_not_delivered c asg v e).
    + now apply (range_not_delivered c2 asg v2 e2).
    + intros u Hu H. now apply H, Hbf.
    + intros u Hu H. now apply H, Hbf2.
    + pose proof (gathered_det _ _ _ Hg _ Hg2) as Ev. injection Ev as <-.
      rewrite (off_range_det c _ _ _ (HL c ltac:(rewrite E; apply in_elt)) Ho Ho2). reflexivity.
  - exfalso. apply (range_not_delivered _ _ _ _ Hre Hg Ho). apply (deliveries_each m asg vs2); auto. rewrite E. apply in_elt.
  - exfalso. apply (Hmiss _ _ Hn2 Hx2). apply (deliveries_each m asg vs); auto. rewrite E2. apply in_elt.
  - exfalso. apply (range_not_delivered _ _ _ _ Hre2 Hg2 Ho2). apply (deliveries_each m asg vs); auto. rewrite E2. apply in_elt.
  - reflexivity.
Qed.

Lemma undelivered_det m asg x y : (forall a, In a asg -> leaf_ok (fst a)) ->
  (forall c, In c (router_children m) -> leaf_ok c) -> undelivered m asg x -> undelivered m asg y -> x = y.
Proof.
  intros HL HL2 Hx Hy.
  apply undelivered_cases in Hx as [(bf & l & vals & Hx)|[Hs Hx]], Hy as [(bf2 & l2 & vals2 & Hy)|[Hs2 Hy]].
  - now apply (early_det m asg bf l vals x bf2 l2 vals2 y).
  - exfalso. destruct (early_split _ _ _ _ _ _ Hx) as [af ->]. now apply (early_settled _ _ _ _ _ _ Hx) in Hs2.
  - exfalso. destruct (early_split _ _ _ _ _ _ Hy) as [af ->]. now apply (early_settled _ _ _ _ _ _ Hy) in Hs.
  - now apply (late_det m asg).
Qed.

(** ** The whole command line *)

Lemma claimed_not_passed c ts : is_mode c = false -> claimed c ts -> ~ passed_over ts c.
Proof.
  intros Hm (_ & Ha & He) Hp. unfold passed_over in Hp. rewrite Hm in Hp. destruct Hp as [Hc [H|H]]; [|contradiction].
  destruct He as [He|[Hn Hu]]; [contradiction|]. apply Hc. right. right. auto.
Qed.

Lemma wrong_not_passed root c ts x : wrong root c ts x -> ~ passed_over ts c.
Proof.
  intros [m ps ts' y Hm Hsel Hst|m ps ts' items y Hm Hsel Hrd Hu|y Hm Hb|e Hm Hcl Hr|lb vs rs Hm Hcl Hco Hne|lb vs y Hm Hk Hcl Hco Hu];
    try (now apply claimed_not_passed).
  - unfold passed_over. rewrite Hm. intros [H1 H2]. destruct (selects_named _ _ _ _ _ _ Hsel H1) as [rest Hx]. now apply (H2 rest).
  - unfold passed_over. rewrite Hm. intros [H1 H2]. destruct (selects_named _ _ _ _ _ _ Hsel H1) as [rest Hx]. now apply (H2 rest).
  - unfold passed_over. rewrite Hm. intros [H1 _]. now apply breaks_chokes in Hb.
Qed.

Lemma wrong_not_means root c ts x n vs : wrong root c ts x -> ~ means root c ts n vs.
Proof.
  intros Hw Hme.
  destruct Hme as [m2 ps2 ts2 items2 w2 Hm2 Hsel2 Hr2 Hrd2 Hdl2|lb2 vals2 v2 Hm2 Hk2 Hc2 He2 Hco2 Hv2];
    destruct Hw as [m ps ts' y Hm Hsel Hst|m ps ts' items y Hm Hsel Hrd Hu|y Hm Hb|e Hm Hcl Hr|lb vs0 rs Hm Hcl Hco Hne|lb vs0 y Hm Hk Hcl Hco Hu];
    try congruence.
  - destruct (selects_det _ _ _ _ _ _ Hsel _ _ _ Hsel2) as (<- & <- & <-). now apply (stuck_not_reading _ _ _ _ Hst) in Hrd2.
  - destruct (selects_det _ _ _ _ _ _ Hsel _ _ _ Hsel2) as (<- & <- & <-).
    rewrite <- (reading_det _ _ _ _ Hrd _ Hrd2) in Hdl2. now apply (undelivered_not_deliveries _ _ _ _ Hu Hr2) in Hdl2.
  - now apply breaks_chokes in Hb.
  - now apply (consumes_not_refused _ _ _ _ _ _ Hco2) in Hr.
  - destruct (consumes_det _ _ _ _ _ _ _ _ Hco Hco2) as (_ & _ & ->). now apply Hne.
  - destruct (consumes_det _ _ _ _ _ _ _ _ Hco Hco2) as (_ & <- & _). now apply (unread_no_value _ _ _ _ Hu) in Hv2.
Qed.

Lemma selects_in m ps ts m' ps' ts' : selects m ps ts m' ps' ts' -> In m' (below m).
Proof.
  induction 1 as [m ps ts Hn|m ps ts rest Hx Hno|m ps ts rest bf c af m' ps' ts' Hx Hcs Hcm Hc Hno Hsel IH].
  - apply below_self.
  - apply below_self.
  - apply (below_child c); [|exact IH]. rewrite Hcs. apply in_elt.
Qed.

Lemma accepted_leaf r d : accepted r = true -> In d (below r) -> leaf_ok d.
Proof.
  intros Ha Hd. unfold accepted in Ha. apply andb_true_iff in Ha as [_ Ha]. rewrite forallb_forall in Ha.
  unfold below in Hd. apply in_map_iff in Hd as ([d' tp] & <- & Hin). now apply (node_ok_leaf _ tp), Ha.
Qed.

Lemma reading_entries m done ts items : reading m done ts items -> forall it, In it items -> exists i, In (i, i_node it) (entries m).
Proof.
  induction 1 as [done|done ts bf i l af lb vs rs items Hes Hbf Hc He Hco Hal Hdp Hrd IH]; [intros it []|].
  intros it [<-|Hit]; [|now apply IH]. exists i. cbn [i_node]. rewrite Hes. apply in_elt.
Qed.

Section Tree.
Variable r : node.
Hypothesis Ha : accepted r = true.

Lemma wrong_det c ts x y : In c (n_children r) -> wrong r c ts x -> wrong r c ts y -> x = y.
Proof.
  intros Hin Hw Hw2.
  assert (Hb : forall d, In d (below c) -> leaf_ok d).
  { intros d Hd. apply (accepted_leaf r); [exact Ha|]. now apply (below_child c). }
  assert (Hsub : forall m ps ts', selects c [r] ts m ps ts' -> forall d, In d (below m) -> leaf_ok d).
  { intros m ps ts' Hs d Hd. apply Hb. apply selects_in in Hs. now apply (below_trans c m). }
  assert (L : leaf_ok c) by (apply Hb, below_self).
  destruct Hw as [m ps ts' x Hm Hsel Hst|m ps ts' items x Hm Hsel Hrd Hu|x Hm Hbr|e Hm Hcl Hr|lb vs rs Hm Hcl Hco Hne|lb vs x Hm Hk Hcl Hco Hu];
    destruct Hw2 as [m2 ps2 ts2 x2 Hm2 Hsel2 Hst2|m2 ps2 ts2 items2 x2 Hm2 Hsel2 Hrd2 Hu2|x2 Hm2 Hbr2|e2 Hm2 Hcl2 Hr2|lb2 vs2 rs2 Hm2 Hcl2 Hco2 Hne2|lb2 vs2 x2 Hm2 Hk2 Hcl2 Hco2 Hu2];
    try congruence;
    try (exfalso; match goal with H : breaks c ts _, H2 : claimed c ts |- _ => destruct H2 as (H2 & _); now apply H2 in H end);
    try (exfalso; match goal with H : refused _ _ _, H2 : consumes _ _ _ _ _ |- _ => now apply (consumes_not_refused _ _ _ _ _ _ H2) in H end);
    try (match goal with H : consumes _ _ _ _ _, H2 : consumes _ _ _ _ _ |- _ =>
           destruct (consumes_det _ _ _ _ _ _ _ _ H H2) as (_ & ? & ?); subst end);
    try contradiction;
    try (match goal with H : selects _ _ _ _ _ _, H2 : selects _ _ _ _ _ _ |- _ =>
           destruct (selects_det _ _ _ _ _ _ H _ _ _ H2) as (<- & <- & <-) end).
  - apply (stuck_det m [] ts'); auto. intros i l Hl. apply (Hsub _ _ _ Hsel). now apply (entry_below m i).
  - exfalso. now apply (stuck_not_reading _ _ _ _ Hst) in Hrd2.
  - exfalso. now apply (stuck_not_reading _ _ _ _ Hst2) in Hrd.
  - rewrite <- (reading_det _ _ _ _ Hrd _ Hrd2) in Hu2. apply (undelivered_det m (flat_map (assigned m) items)); auto.
    + intros a Hai. apply in_flat_map in Hai as (it & Hit & Hai). unfold assigned in Hai. apply in_map_iff in Hai as (d & <- & Hd).
      destruct (reading_entries _ _ _ _ Hrd it Hit) as [i Hi]. apply (Hsub _ _ _ Hsel). cbn [fst].
      now apply (stands_for_below m i (i_node it)).
    + intros d Hd. apply (Hsub _ _ _ Hsel). unfold router_children in Hd. apply filter_In in Hd as [Hd _].
      apply (below_child d); [exact Hd|apply below_self].
  - now apply (breaks_det c ts).
  - now rewrite (refused_det _ _ _ _ L Hr Hr2).
  - reflexivity.
  - eapply unread_det; eassumption.
Qed.

Lemma fails_det ts x y : fails r ts x -> fails r ts y -> x = y.
Proof.
  intros [bf c af x1 Hcs Hb Hw|Hall Ht|t us x1 Hall Ht Hn Hu] [bf2 c2 af2 x2 Hcs2 Hb2 Hw2|Hall2 Ht2|t2 us2 x2 Hall2 Ht2 Hn2 Hu2].
  - destruct (first_split (fun d => ~ passed_over ts d) bf c af bf2 c2 af2) as (_ & <- & _).
    + now rewrite <- Hcs.
    + now apply wrong_not_passed in Hw.
    + now apply wrong_not_passed in Hw2.
    + intros u Hu Hx. now apply Hx, Hb.
    + intros u Hu Hx. now apply Hx, Hb2.
    + apply (wrong_det c ts); auto. rewrite Hcs. apply in_elt.
  - exfalso. apply wrong_not_passed in Hw. apply Hw, Hall2. rewrite Hcs. apply in_elt.
  - exfalso. apply wrong_not_passed in Hw. apply Hw, Hall2. rewrite Hcs. apply in_elt.
  - exfalso. apply wrong_not_passed in Hw2. apply Hw2, Hall. rewrite Hcs2. apply in_elt.
  - reflexivity.
  - exfalso. now apply Hn2, (Ht t2 us2).
  - exfalso. apply wrong_not_passed in Hw2. apply Hw2, Hall. rewrite Hcs2. apply in_elt.
  - exfalso. now apply Hn, (Ht2 t us).
  - rewrite Ht in Ht2. injection Ht2 as <- <-. now apply (unknown_det r t).
Qed.
End Tree.

Lemma fails_not_routes r ts x n vs : fails r ts x -> ~ routes r ts n vs.
Proof.
  intros Hf (bf2 & c2 & af2 & Hcs2 & Hb2 & Hme). pose proof (means_not_passed _ _ _ _ _ Hme) as Hnp.
  destruct Hf as [bf c af x1 Hcs Hb Hw|Hall Ht|t us x1 Hall Ht Hn Hu].
  - destruct (first_split (fun d => ~ passed_over ts d) bf c af bf2 c2 af2) as (_ & <- & _).
    + now rewrite <- Hcs.
    + now apply wrong_not_passed in Hw.
    + exact Hnp.
    + intros u Hu Hx. now apply Hx, Hb.
    + intros u Hu Hx. now apply Hx, Hb2.
    + now apply (wrong_not_means _ _ _ _ _ _ Hw) in Hme.
  - apply Hnp, Hall. rewrite Hcs2. apply in_elt.
  - apply Hnp, Hall. rewrite Hcs2. apply in_elt.
Qed.

Lemma help_not_mode h : n_kind h = KHelp -> is_mode h = false.
Proof. unfold is_mode. now intros ->. Qed.

Lemma wants_help_not_fails r ts h vals x : wants_help r ts h vals -> ~ fails r ts x.
Proof.
  intros (bf2 & af2 & lb & Hcs2 & Hb2 & Hk & Hcl & Hco) Hf. pose proof (help_not_mode h Hk) as Hm.
  pose proof (claimed_not_passed h ts Hm Hcl) as Hnp.
  destruct Hf as [bf c af x1 Hcs Hb Hw|Hall Ht|t us x1 Hall Ht Hn Hu].
  - destruct (first_split (fun d => ~ passed_over ts d) bf c af bf2 h af2) as (_ & -> & _).
    + now rewrite <- Hcs.
    + now apply wrong_not_passed in Hw.
    + exact Hnp.
    + intros u Hu Hx. now apply Hx, Hb.
    + intros u Hu Hx. now apply Hx, Hb2.
    + destruct Hw as [m ps ts' y Hm2|m ps ts' items y Hm2|y _ Hbr|e _ _ Hr|lb2 vs2 rs2 _ _ Hco2 Hne|lb2 vs2 y _ Hk2]; try congruence.
      * destruct Hcl as (H & _). now apply H in Hbr.
      * now apply (consumes_not_refused _ _ _ _ _ _ Hco) in Hr.
      * destruct (consumes_det _ _ _ _ _ _ _ _ Hco Hco2) as (_ & _ & <-). now apply Hne.
  - apply Hnp, Hall. rewrite Hcs2. apply in_elt.
  - apply Hnp, Hall. rewrite Hcs2. apply in_elt.
Qed.

Lemma wants_help_not_routes r ts h vals n vs : wants_help r ts h vals -> ~ routes r ts n vs.
Proof.
  intros (bf2 & af2 & lb & Hcs2 & Hb2 & Hk & Hcl & Hco) (bf & c & af & Hcs & Hb & Hme). pose proof (help_not_mode h Hk) as Hm.
  destruct (first_split (fun d => ~ passed_over ts d) bf c af bf2 h af2) as (_ & -> & _).
  - now rewrite <- Hcs.
  - now apply means_not_passed in Hme.
  - now apply claimed_not_passed.
  - intros u Hu Hx. now apply Hx, Hb.
  - intros u Hu Hx. now apply Hx, Hb2.
  - destruct Hme as [m ps ts' items w Hm2|lb2 vals2 v Hm2 Hk2]; congruence.
Qed.

Lemma wants_help_det r ts h vals h2 vals2 : wants_help r ts h vals -> wants_help r ts h2 vals2 -> h = h2 /\ vals = vals2.
Proof.
  intros (bf & af & lb & Hcs & Hb & Hk & Hcl & Hco) (bf2 & af2 & lb2 & Hcs2 & Hb2 & Hk2 & Hcl2 & Hco2).
  destruct (first_split (fun d => ~ passed_over ts d) bf h af bf2 h2 af2) as (_ & <- & _).
  - now rewrite <- Hcs.
  - apply claimed_not_passed; [now apply help_not_mode|exact Hcl].
  - apply claimed_not_passed; [now apply help_not_mode|exact Hcl2].
  - intros u Hu Hx. now apply Hx, Hb.
  - intros u Hu Hx. now apply Hx, Hb2.
  - destruct (consumes_det _ _ _ _ _ _ _ _ Hco Hco2) as (_ & <- & _). easy.
Qed.

(** A wrong command line is reported as the specification says. *)
Lemma fails_exact r mem args x : well_formed r -> unset r mem -> fits args -> args <> [] \/ named_top r ->
  fails r args x <-> same_failure (o_res (root_parse r mem args)) x /\ (forall h vals, ~ wants_help r args h vals).
Proof.
  intros Hw Hun Hf Hne. destruct (root_outcome r mem args Hw Hun Hf Hne) as [(n & vs & Hr & _ & Eo)|(_ & [(h & vals & Hh & _)|(y & Hy & _ & Ho)])].
  - split; [intros H; now apply (fails_not_routes _ _ _ _ _ H) in Hr|]. rewrite Eo. now intros [[] _].
  - split; [intros H; now apply (wants_help_not_fails _ _ _ _ _ Hh) in H|]. intros [_ H]. now apply H in Hh.
  - split.
    + intros H. rewrite (fails_det r (wf_accepted _ Hw) args x y H Hy). split; [exact Ho|].
      intros h vals Hh. now apply (wants_help_not_fails _ _ _ _ _ Hh) in Hy.
    + intros [H _]. now rewrite (same_failure_det _ _ _ H Ho).
Qed.

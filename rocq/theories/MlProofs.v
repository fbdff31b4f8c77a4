(** Proofs for C90: the program simple_ml. *)
From Verif Require Import Bytes Token Result CodePoint Utf8 Utf8Proofs Tree PreParse Root TokenProofs NodeProofs.
From Verif Require Import Build Demo RunProofs SpecTokens SpecTake SpecMode SpecDeliver SpecRoot SpecReading SpecClaims.
From Verif Require Import Examples SpecExamples ExampleProofs Message MultiLang TextProofs Caller ExamplesMl SpecUtf8 SpecMl.
Local Open Scope nat_scope.

Section Language.
Variable tr : translation.
Hypothesis copy_word : starts_with short_prefix (tr_copy tr) = false.
Hypothesis move_word : starts_with short_prefix (tr_move tr) = false.
Hypothesis two_words : tr_copy tr <> tr_move tr.
Hypothesis ml_well_formed : well_formed (ml_tree tr).

Definition ml_three (q : node) := three (ml_dst tr) q (tr_force tr) "f"%char.

Lemma ml_force_plain : plain (ml_force tr). Proof. is_plain. Qed.
Lemma ml_dst_plain : plain (ml_dst tr). Proof. is_plain. Qed.
Lemma ml_dst_positional : positional (ml_dst tr). Proof. is_positional. Qed.
Lemma ml_srcs_plain : plain (ml_srcs tr). Proof. is_plain. Qed.
Lemma ml_srcs_positional : positional (ml_srcs tr). Proof. is_positional. Qed.
Lemma ml_src_plain : plain (ml_src tr). Proof. is_plain. Qed.
Lemma ml_src_positional : positional (ml_src tr). Proof. is_positional. Qed.

Lemma ml_copy_means ts vs : kept ts ->
  (exists items, reading (ml_copy tr) [] ts items /\ deliveries (ml_copy tr) (flat_map (assigned (ml_copy tr)) items) vs)
  <-> exists fl po qo v w, ml_three (ml_srcs tr) false 0 ts fl po qo /\ vs = [VBool fl; v; w]
        /\ given_value (ml_dst tr) po v /\ given_value (ml_srcs tr) qo w.
Proof. three_shape (ml_copy tr) (ml_force tr). Qed.

Lemma ml_move_means ts vs : kept ts ->
  (exists items, reading (ml_move tr) [] ts items /\ deliveries (ml_move tr) (flat_map (assigned (ml_move tr)) items) vs)
  <-> exists fl po qo v w, ml_three (ml_src tr) false 0 ts fl po qo /\ vs = [VBool fl; v; w]
        /\ given_value (ml_dst tr) po v /\ given_value (ml_src tr) qo w.
Proof. three_shape (ml_move tr) (ml_force tr). Qed.

Definition ml_q_of (many : bool) : node := if many then (ml_srcs tr) else (ml_src tr).

Lemma ml_dst_counted us vals rest : counted (ml_dst tr) us vals rest <-> exists t, us = t :: rest /\ vals = [t].
Proof. now apply one_counted. Qed.

Lemma ml_q_counted many us vals rest : kept us -> counted (ml_q_of many) us vals rest <->
  if many then vals = us /\ rest = [] /\ us <> [] else exists t, us = t :: rest /\ vals = [t].
Proof.
  intros K. destruct many; cbn [ml_q_of]; [|now apply one_counted].
  rewrite (all_counted (ml_srcs tr) 1 us vals rest eq_refl eq_refl K). unfold nlen. destruct us as [|u us]; cbn [List.length].
  - split; intros (A & B & C); [lia|contradiction].
  - split; intros (A & B & C); repeat split; auto; [discriminate|lia].
Qed.

Lemma ml_three_files many g k ts fl po qo : ml_three (ml_q_of many) g k ts fl po qo -> kept ts ->
  files_of (tr_force tr) many k ts fl (names_of po ++ names_of qo)
  /\ (forall vals, po = Some vals -> exists t, vals = [t])
  /\ (forall vals, qo = Some vals -> if many then vals <> [] else exists t, vals = [t]).
Proof.
  induction 1 as [g k|k t us letters po qo Hl _ IH|g t us vals rest fl qo Ho Hc _ IH|g t us vals rest fl Ho Hc Ht IH]; intros K.
  - cbn. split; [constructor|]. now split.
  - destruct IH as (A & B & C); [exact (kept_picks (tr_force tr) "f"%char t us letters K Hl)|]. split; [|now split].
    exact (files_force (tr_force tr) many k t letters us _ Hl A).
  - assert (K' := kept_counted _ _ _ _ Hc K). apply ml_dst_counted in Hc as (t' & E & ->). injection E as <- <-.
    destruct (IH K') as (A & B & C). split; [|split].
    + cbn [names_of map app] in *. apply (files_one (tr_force tr) many 0 t us fl _ Ho); [discriminate|exact A].
    + intros vals E. injection E as <-. now exists t.
    + exact C.
  - assert (K' := kept_counted _ _ _ _ Hc K). apply (ml_q_counted many _ _ _ K) in Hc. destruct many.
    + destruct Hc as (-> & -> & _). assert (fl = false) as -> by (inversion Ht; reflexivity).
      split; [|split; [discriminate|]].
      * cbn [names_of app]. now apply files_rest.
      * intros vals E. injection E as <-. discriminate.
    + destruct Hc as (t' & E & ->). injection E as <- <-. destruct (IH K') as (A & _ & _). split; [|split; [discriminate|]].
      * cbn [names_of map app] in *. apply (files_one (tr_force tr) false 1 t us fl _ Ho); [discriminate|exact A].
      * intros vals E. injection E as <-. now exists t.
Qed.

Lemma ml_files_three many k ts fl fs : files_of (tr_force tr) many k ts fl fs -> forall g, kept ts -> (g = true -> fl = false) ->
  (if many then k <= 1 else k + List.length fs <= 2) ->
  exists po qo, ml_three (ml_q_of many) g k ts fl po qo /\ fs = names_of po ++ names_of qo
    /\ (k = 0 -> po = None -> fs = []) /\ (1 <= k -> po = None).
Proof.
  induction 1 as [k|k t us force fs Ho Hk _ IH|t us Ho Hm|k t letters us fs Hl _ IH]; intros g K Hg Hb.
  - exists None, None. split; [constructor|]. now repeat split.
  - destruct (IH g) as (po & qo & Ht & E & _ & E'); [now apply kept_tail in K|exact Hg| |].
    { destruct many; [specialize (Hk eq_refl); lia|cbn [List.length] in Hb; lia]. }
    specialize (E' ltac:(lia)). subst po. destruct k as [|k].
    + exists (Some [t]), qo. split; [|split; [cbn; now rewrite E|now split]].
      apply (th_first _ _ _ _ g t us [t] us force qo Ho); [|exact Ht]. apply ml_dst_counted. now exists t.
    + destruct many; [specialize (Hk eq_refl); lia|].
      assert (k = 0) as -> by (cbn [List.length] in Hb; lia).
      destruct (three_none (ml_force tr) _ _ _ _ _ _ _ _ _ _ Ht) as (_ & _ & Q). specialize (Q (le_n 2)). subst qo.
      exists None, (Some [t]). split; [|split; [cbn; now rewrite E|now split]].
      apply (th_second _ _ _ _ g t us [t] us force Ho); [|exact Ht]. apply (ml_q_counted false _ _ _ K). now exists t.
  - subst many. exists None, (Some (t :: us)). split; [|now repeat split].
    apply (th_second _ _ _ _ g t us (t :: us) [] false Ho); [|constructor].
    apply (ml_q_counted true _ _ _ K). now repeat split.
  - assert (g = false) as -> by (destruct g; [now specialize (Hg eq_refl)|reflexivity]).
    destruct (IH true) as (po & qo & Ht & E & E0 & E1); [exact (kept_picks (tr_force tr) "f"%char t us letters K Hl)|reflexivity|exact Hb|].
    exists po, qo. split; [|now repeat split]. exact (th_flag _ _ _ _ k t us letters po qo Hl Ht).
Qed.

Lemma ml_top : named_top (ml_tree tr).
Proof. intros c [<-|[<-|[<-|[]]]]; [right|left|left]; reflexivity. Qed.

Lemma ml_copy_values us vs : kept us ->
  (exists items, reading (ml_copy tr) [] us items /\ deliveries (ml_copy tr) (flat_map (assigned (ml_copy tr)) items) vs)
  <-> exists force dst srcs, srcs <> [] /\ files_of (tr_force tr) true 0 us force (dst :: srcs)
        /\ vs = [VBool force; VStr dst; VList (map VStr srcs)].
Proof.
  intros K. rewrite (ml_copy_means us vs K). split.
  - intros (fl & po & qo & v & w & Ht & -> & Hv & Hw).
    destruct (ml_three_files true _ _ _ _ _ _ Ht K) as (A & B & C).
    destruct po as [vals|]; [|exfalso; apply (proj1 Hv); left; cbn; tauto].
    destruct qo as [ws|]; [|exfalso; apply (proj1 Hw); left; cbn; tauto].
    destruct (B vals eq_refl) as [t ->]. specialize (C ws eq_refl). cbn [given_value names_of map app] in *.
    apply (text_value (ml_dst tr) _ v eq_refl eq_refl eq_refl ml_dst_plain t eq_refl) in Hv.
    apply (strings_value (ml_srcs tr) ws w eq_refl eq_refl eq_refl ml_srcs_plain) in Hw. subst v w.
    exists fl, (t_name t), (map t_name ws). split; [now destruct ws|]. split; [exact A|]. now rewrite map_map.
  - intros (force & dst & srcs & Hs & Hf & ->).
    destruct (ml_files_three true 0 us force _ Hf false K ltac:(discriminate) ltac:(cbn; lia)) as (po & qo & Ht & E & E0 & _).
    destruct (ml_three_files true _ _ _ _ _ _ Ht K) as (_ & B & C).
    destruct po as [vals|]; [|specialize (E0 eq_refl eq_refl); discriminate E0].
    destruct (B vals eq_refl) as [t ->]. cbn [names_of map app] in E. injection E as -> ->.
    destruct qo as [ws|]; [|contradiction Hs; reflexivity].
    exists force, (Some [t]), (Some ws), (VStr (t_name t)), (VList (map VStr (map t_name ws))).
    split; [exact Ht|]. split; [reflexivity|]. split.
    + now apply (text_value (ml_dst tr) _ _ eq_refl eq_refl eq_refl ml_dst_plain t eq_refl).
    + apply (strings_value (ml_srcs tr) ws _ eq_refl eq_refl eq_refl ml_srcs_plain). now rewrite map_map.
Qed.

Lemma ml_move_values us vs : kept us ->
  (exists items, reading (ml_move tr) [] us items /\ deliveries (ml_move tr) (flat_map (assigned (ml_move tr)) items) vs)
  <-> exists force dst src, files_of (tr_force tr) false 0 us force [dst; src] /\ vs = [VBool force; VStr dst; VStr src].
Proof.
  intros K. rewrite (ml_move_means us vs K). split.
  - intros (fl & po & qo & v & w & Ht & -> & Hv & Hw).
    destruct (ml_three_files false _ _ _ _ _ _ Ht K) as (A & B & C).
    destruct po as [vals|]; [|exfalso; apply (proj1 Hv); left; cbn; tauto].
    destruct qo as [ws|]; [|exfalso; apply (proj1 Hw); left; cbn; tauto].
    destruct (B vals eq_refl) as [t ->]. destruct (C ws eq_refl) as [t' ->]. cbn [given_value names_of map app] in *.
    apply (text_value (ml_dst tr) _ v eq_refl eq_refl eq_refl ml_dst_plain t eq_refl) in Hv.
    apply (text_value (ml_src tr) _ w eq_refl eq_refl eq_refl ml_src_plain t' eq_refl) in Hw. subst v w.
    exists fl, (t_name t), (t_name t'). now split.
  - intros (force & dst & src & Hf & ->).
    destruct (ml_files_three false 0 us force _ Hf false K ltac:(discriminate) ltac:(cbn; lia)) as (po & qo & Ht & E & E0 & _).
    destruct (ml_three_files false _ _ _ _ _ _ Ht K) as (_ & B & C).
    destruct po as [vals|]; [|specialize (E0 eq_refl eq_refl); discriminate E0].
    destruct (B vals eq_refl) as [t ->]. cbn [names_of map app] in E.
    destruct qo as [ws|]; [|discriminate E]. destruct (C ws eq_refl) as [t' ->]. cbn [names_of map] in E. injection E as -> ->.
    exists force, (Some [t]), (Some [t']), (VStr (t_name t)), (VStr (t_name t')).
    split; [exact Ht|]. split; [reflexivity|]. split.
    + now apply (text_value (ml_dst tr) _ _ eq_refl eq_refl eq_refl ml_dst_plain t eq_refl).
    + now apply (text_value (ml_src tr) _ _ eq_refl eq_refl eq_refl ml_src_plain t' eq_refl).
Qed.

Lemma ml_help_simple : simple_named (ml_help tr).
Proof. is_simple. Qed.

Lemma ml_routes ts n vs : kept ts -> routes (ml_tree tr) ts n vs <->
  (exists us force dst srcs, ts = Tok PNone (tr_copy tr) :: us /\ srcs <> [] /\ files_of (tr_force tr) true 0 us force (dst :: srcs)
     /\ n = (ml_copy tr) /\ vs = [VBool force; VStr dst; VList (map VStr srcs)])
  \/ (exists us force dst src, ts = Tok PNone (tr_move tr) :: us /\ files_of (tr_force tr) false 0 us force [dst; src]
     /\ n = (ml_move tr) /\ vs = [VBool force; VStr dst; VStr src]).
Proof.
  intros K.
  assert (Hcopy : forall d, In d (n_children (ml_copy tr)) -> is_mode d = false) by (intros d [<-|[<-|[<-|[]]]]; reflexivity).
  assert (Hmove : forall d, In d (n_children (ml_move tr)) -> is_mode d = false) by (intros d [<-|[<-|[<-|[]]]]; reflexivity).
  assert (Ec : enabled (ml_copy tr)) by (unfold enabled; cbn; discriminate).
  assert (Em : enabled (ml_move tr)) by (unfold enabled; cbn; discriminate).
  split.
  - intros (before & c & after & E & _ & Hm). destruct before as [|x1 before].
    { injection E as <- _. exfalso. inversion Hm as [m ps ts' items vs' Hmd|label vals v Hmd Hk]; [discriminate Hmd|now apply Hk]. }
    injection E as _ E. destruct before as [|x2 before].
    { injection E as <- _. left. inversion Hm as [m ps ts' items vs' Hmd Hs Hr Hrd Hd|label vals v Hmd]; [|discriminate Hmd]. subst.
      apply (selects_named (ml_copy tr) (tr_copy tr) _ _ _ _ _ eq_refl Ec Hcopy) in Hs as (-> & -> & ->).
      destruct (proj1 (ml_copy_values ts' vs (kept_tail _ _ K)) (ex_intro _ items (conj Hrd Hd))) as (force & dst & srcs & A & B & C).
      now exists ts', force, dst, srcs. }
    injection E as _ E. destruct before as [|x3 before].
    { injection E as <- _. right. inversion Hm as [m ps ts' items vs' Hmd Hs Hr Hrd Hd|label vals v Hmd]; [|discriminate Hmd]. subst.
      apply (selects_named (ml_move tr) (tr_move tr) _ _ _ _ _ eq_refl Em Hmove) in Hs as (-> & -> & ->).
      destruct (proj1 (ml_move_values ts' vs (kept_tail _ _ K)) (ex_intro _ items (conj Hrd Hd))) as (force & dst & src & A & B).
      now exists ts', force, dst, src. }
    exfalso. injection E as _ E. now destruct before.
  - intros [(us & force & dst & srcs & -> & Hs & Hf & -> & ->)|(us & force & dst & src & -> & Hf & -> & ->)].
    + exists [(ml_help tr)], (ml_copy tr), [(ml_move tr)]. split; [reflexivity|]. split.
      * intros d [<-|[]]. apply (simple_passed (ml_help tr) _ ml_help_simple eq_refl). intros t us' E. injection E as <- _. apply word_unmatched; [assumption|reflexivity].
      * destruct (proj2 (ml_copy_values us [VBool force; VStr dst; VList (map VStr srcs)] (kept_tail _ _ K))) as (items & Hr & Hd).
        { exists force, dst, srcs. now repeat split. }
        apply (means_mode (ml_tree tr) (ml_copy tr) _ (ml_copy tr) [ml_tree tr] us items); auto.
        now apply (selects_named (ml_copy tr) (tr_copy tr) _ _ _ _ _ eq_refl Ec Hcopy).
    + exists [(ml_help tr); (ml_copy tr)], (ml_move tr), []. split; [reflexivity|]. split.
      * intros d [<-|[<-|[]]].
        -- apply (simple_passed (ml_help tr) _ ml_help_simple eq_refl). intros t us' E. injection E as <- _. apply word_unmatched; [assumption|reflexivity].
        -- split; [discriminate|]. intros rest (_ & nm & E & E'). injection E as <-. exfalso. apply two_words. symmetry. injection E' as E' _. exact E'.
      * destruct (proj2 (ml_move_values us [VBool force; VStr dst; VStr src] (kept_tail _ _ K))) as (items & Hr & Hd).
        { exists force, dst, src. now split. }
        apply (means_mode (ml_tree tr) (ml_move tr) _ (ml_move tr) [ml_tree tr] us items); auto.
        now apply (selects_named (ml_move tr) (tr_move tr) _ _ _ _ _ eq_refl Em Hmove).
Qed.

Lemma ml_calls words n vs : in_memory words ->
  calls_router (ml_tree tr) [] (map (Tok PNone) words) n vs <->
  (exists rest force dst srcs, words = tr_copy tr :: rest /\ srcs <> []
     /\ files_of (tr_force tr) true 0 (map (Tok PNone) rest) force (dst :: srcs)
     /\ n = (ml_copy tr) /\ vs = [VBool force; VStr dst; VList (map VStr srcs)])
  \/ (exists rest force dst src, words = tr_move tr :: rest
     /\ files_of (tr_force tr) false 0 (map (Tok PNone) rest) force [dst; src]
     /\ n = (ml_move tr) /\ vs = [VBool force; VStr dst; VStr src]).
Proof.
  intros Hm. rewrite (fresh_routes _ _ _ n vs (example_fresh (ml_tree tr) words ml_well_formed ml_top Hm)).
  rewrite (ml_routes _ n vs (kept_words words Hm)). split.
  - intros [(us & force & dst & srcs & E & H)|(us & force & dst & src & E & H)]; destruct words as [|w rest]; try discriminate E; injection E as -> <-.
    + left. exists rest, force, dst, srcs. split; [reflexivity|exact H].
    + right. exists rest, force, dst, src. split; [reflexivity|exact H].
  - intros [(rest & force & dst & srcs & -> & H)|(rest & force & dst & src & -> & H)].
    + left. exists (map (Tok PNone) rest), force, dst, srcs. split; [reflexivity|exact H].
    + right. exists (map (Tok PNone) rest), force, dst, src. split; [reflexivity|exact H].
Qed.
End Language.

Lemma ml_en_well_formed : well_formed (ml_tree ml_en).
Proof. apply well_formed_b_spec. vm_compute. reflexivity. Qed.
Lemma ml_fr_well_formed : well_formed (ml_tree ml_fr).
Proof. apply well_formed_b_spec. vm_compute. reflexivity. Qed.
Lemma ml_ja_well_formed : well_formed (ml_tree ml_ja).
Proof. apply well_formed_b_spec. vm_compute. reflexivity. Qed.

(** ** The choice of the language *)

Lemma ml_chosen env locale :
  (iso_locale (ml_locale_name env locale) = b "fr" /\ ml_program env locale = (ml_tree ml_fr, ml_fr_errors))
  \/ (iso_locale (ml_locale_name env locale) = b "ja" /\ ml_program env locale = (ml_tree ml_ja, ml_ja_errors))
  \/ (iso_locale (ml_locale_name env locale) <> b "fr" /\ iso_locale (ml_locale_name env locale) <> b "ja"
      /\ ml_program env locale = (ml_tree ml_en, [])).
Proof.
  unfold ml_program. generalize (iso_locale (ml_locale_name env locale)). intros name.
  destruct (beq name (b "fr")) eqn:F.
  { apply beq_eq in F. left. split; [exact F|]. subst name.
    rewrite (select_supported ml_factory (b "en_GB") [b "fr"; b "ja"] (b "fr")) by (right; left; reflexivity). reflexivity. }
  destruct (beq name (b "ja")) eqn:J.
  { apply beq_eq in J. right. left. split; [exact J|]. subst name.
    rewrite (select_supported ml_factory (b "en_GB") [b "fr"; b "ja"] (b "ja")) by (right; right; left; reflexivity). reflexivity. }
  right. right.
  assert (Hf : name <> b "fr") by (intros ->; discriminate F).
  assert (Hj : name <> b "ja") by (intros ->; discriminate J).
  split; [exact Hf|]. split; [exact Hj|].
  destruct (beq name (b "en_GB")) eqn:G.
  - apply beq_eq in G. subst name.
    rewrite (select_supported ml_factory (b "en_GB") [b "fr"; b "ja"] (b "en_GB")) by (left; reflexivity). reflexivity.
  - rewrite (select_default ml_factory (b "en_GB") [b "fr"; b "ja"] name); [reflexivity|].
    intros [E|[E|[E|[]]]]; [subst name; discriminate G|now apply Hf|now apply Hj].
Qed.

Lemma ml_program_calls env locale copy move force words n vs :
  vocabulary (iso_locale (ml_locale_name env locale)) copy move force -> in_memory words ->
  calls_router (fst (ml_program env locale)) [] (map (Tok PNone) words) n vs <->
  In n (n_children (fst (ml_program env locale))) /\
  ((exists rest fl dst srcs, words = copy :: rest /\ srcs <> []
     /\ files_of force true 0 (map (Tok PNone) rest) fl (dst :: srcs)
     /\ none_name n = Some copy /\ vs = [VBool fl; VStr dst; VList (map VStr srcs)])
  \/ (exists rest fl dst src, words = move :: rest
     /\ files_of force false 0 (map (Tok PNone) rest) fl [dst; src]
     /\ none_name n = Some move /\ vs = [VBool fl; VStr dst; VStr src])).
Proof.
  assert (General : forall tr, starts_with short_prefix (tr_copy tr) = false -> starts_with short_prefix (tr_move tr) = false ->
    tr_copy tr <> tr_move tr -> well_formed (ml_tree tr) -> in_memory words ->
    calls_router (ml_tree tr) [] (map (Tok PNone) words) n vs <->
    In n (n_children (ml_tree tr)) /\
    ((exists rest fl dst srcs, words = tr_copy tr :: rest /\ srcs <> []
       /\ files_of (tr_force tr) true 0 (map (Tok PNone) rest) fl (dst :: srcs)
       /\ none_name n = Some (tr_copy tr) /\ vs = [VBool fl; VStr dst; VList (map VStr srcs)])
    \/ (exists rest fl dst src, words = tr_move tr :: rest
       /\ files_of (tr_force tr) false 0 (map (Tok PNone) rest) fl [dst; src]
       /\ none_name n = Some (tr_move tr) /\ vs = [VBool fl; VStr dst; VStr src]))).
  { intros tr Hc Hm Hd Hw Hin. rewrite (ml_calls tr Hc Hm Hd Hw words n vs Hin). split.
    - intros [(rest & fl & dst & srcs & A & B & C & -> & D)|(rest & fl & dst & src & A & B & -> & C)].
      + split; [right; left; reflexivity|]. left. exists rest, fl, dst, srcs. repeat (split; [assumption|]). split; [reflexivity|exact D].
      + split; [right; right; left; reflexivity|]. right. exists rest, fl, dst, src. repeat (split; [assumption|]). split; [reflexivity|exact C].
    - intros [Hn [(rest & fl & dst & srcs & A & B & C & E & D)|(rest & fl & dst & src & A & B & E & C)]].
      + left. exists rest, fl, dst, srcs. repeat (split; [assumption|]). split; [|exact D].
        destruct Hn as [<-|[<-|[<-|[]]]]; [discriminate E|reflexivity|].
        exfalso. apply Hd. injection E as E. exact (eq_sym E).
      + right. exists rest, fl, dst, src. repeat (split; [assumption|]). split; [|exact C].
        destruct Hn as [<-|[<-|[<-|[]]]]; [discriminate E| |reflexivity].
        exfalso. apply Hd. injection E as E. exact E. }
  intros V Hm. destruct (ml_chosen env locale) as [[E ->]|[[E ->]|[E [E' ->]]]]; cbn [fst]; rewrite ?E in V;
    inversion V as [Z|Z|Z Z']; try discriminate Z; try contradiction; subst;
    [ exact (General ml_fr eq_refl eq_refl ltac:(discriminate) ml_fr_well_formed Hm)
    | exact (General ml_ja eq_refl eq_refl ltac:(discriminate) ml_ja_well_formed Hm)
    | exact (General ml_en eq_refl eq_refl ltac:(discriminate) ml_en_well_formed Hm) ].
Qed.

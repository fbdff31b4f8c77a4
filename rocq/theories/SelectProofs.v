(** Lemmas on the selection of a mode. *)
From Verif Require Import Bytes Token Adapter Result CodePoint Utf8 Tree PreParse Root Validator Levenshtein.
From Verif Require Import SpecPolicy SpecTokens SpecMode OrderProofs PermProofs TokenProofs TreeProofs NodeProofs ModeProofs.

(** A mode without a count policy; the library never adds one to a mode. *)
Definition plain (m : node) : Prop := count_bounds m = None.
Definition plain_modes (n : node) : Prop := forall m, In m (below n) -> is_mode m = true -> plain m.

Lemma plain_modes_child n c : plain_modes n -> In c (n_children n) -> plain_modes c.
Proof. intros H Hc m Hm. apply H. eapply below_child; eauto. Qed.

Record plain_mode (n : node) : Prop := {
  pm_ok : leaf_ok n;
  pm_phase : forall p, In p (n_pols n) -> phased p = true -> is_enable p = true;
  pm_long : long_name n = None;
  pm_short : short_name n = None
}.

Lemma node_ok_plain n tp : node_ok (n, tp) = true -> is_mode n = true -> plain n -> plain_mode n.
Proof.
  intros H Hm Hp. pose proof (node_ok_leaf _ _ H) as L.
  apply node_ok_policies in H as (Hs & Hr & Hpol). unfold is_mode in Hm. unfold node_static in Hs.
  unfold node_rules in Hr. destruct (n_kind n); try discriminate.
  repeat (apply andb_true_iff in Hs as [Hs ?]). unfold has_lname, has_sname in *.
  assert (Hl : long_name n = None) by (now destruct (long_name n)).
  assert (Hsn : short_name n = None) by (now destruct (short_name n)).
  constructor; auto. intros p Hin Hph.
  repeat (apply andb_true_iff in Hr as [Hr ?]).
  repeat match goal with Hx : _ && _ = true |- _ => apply andb_true_iff in Hx as [? ?] end.
  destruct p; try discriminate; try reflexivity; exfalso.
  - pose proof (count_selected n mn mx (lo_tags _ L) Hin). unfold plain in Hp. congruence.
  - pose proof (lo_sep _ L _ Hin). unfold plain in Hp. congruence.
  - destruct (lo_exp _ L Hin). congruence.
  - destruct (lo_marker _ L _ Hin) as (? & ? & ? & _). unfold plain in Hp. congruence.
  - assert (has_tag tag_alias n = true); [|
      match goal with T : has_tag ?t n = true, U : negb (has_tag ?t n) = true |- _ => rewrite T in U; discriminate end].
    apply existsb_exists. exists (PAlias ns). auto.
  - assert (has_tag tag_dependent n = true); [|
      match goal with T : has_tag ?t n = true, U : negb (has_tag ?t n) = true |- _ => rewrite T in U; discriminate end].
    apply existsb_exists. exists (PDependent ns). auto.
Qed.

Lemma plain_run n a pt tg parents : plain_mode n ->
  run_policies (priority_order (n_pols n)) a pt tg n parents (Act Valid)
  = Ok (a, tg, Act (match runtime_enabled n with Some false => Skip | _ => Valid end)).
Proof.
  intros P. rewrite run_policies_order by apply (lo_prio _ (pm_ok _ P)).
  assert (Hn : forall f, (forall p, f p = true -> phased p = true /\ is_enable p = false) -> pick f (n_pols n) = []).
  { intros f Hf. apply pick_none. intros p Hp. destruct (f p) eqn:E; [|easy].
    destruct (Hf p E) as [H1 H2]. rewrite (pm_phase _ P p Hp H1) in H2. discriminate. }
  unfold phase_order.
  rewrite (Hn is_separator), (Hn is_expander), (Hn is_marker), (Hn is_count), (Hn is_alias), (Hn is_dependent);
    try (intros []; easy).
  cbn [app]. rewrite app_nil_r. apply stage_enable.
Qed.

Lemma norm_plain n t : long_name n = None -> short_name n = None -> norm_token n t = t.
Proof.
  intros Hl Hs. unfold norm_token, node_get_token. rewrite Hl, Hs. cbn [is_some].
  destruct t as [[] nm]; reflexivity.
Qed.

Lemma plain_match n nm t : long_name n = None -> short_name n = None -> none_name n = Some nm ->
  match_node n t = true <-> t = Tok PNone nm.
Proof.
  intros Hl Hs Hn. unfold match_node. rewrite Hl, Hs, Hn. cbn [orb].
  destruct t as [[] x]; cbn [t_prefix t_name prefix_eqb andb]; split; try discriminate.
  - intros H. apply beq_eq in H. now subst.
  - intros [= ->]. apply beq_refl.
Qed.

(** A named mode takes exactly its name. *)
Lemma plain_pre_parse n nm parents pt s : plain_mode n -> none_name n = Some nm ->
  (exists rest, names_mode n (p_args s) rest
     /\ node_pre_parse n parents pt always_true s
        = (PS rest (p_mem s), Ok (Some (Target n parents [] []))))
  \/ ((forall rest, ~ names_mode n (p_args s) rest)
      /\ node_pre_parse n parents pt always_true s = (s, Ok None)).
Proof.
  intros P Hn. assert (En : is_named n = true).
  { unfold is_named. rewrite Hn. apply orb_true_r. }
  assert (Hnp : node_pre_parse n parents pt always_true s
                = match runtime_enabled n, p_args s with
                  | Some false, _ | _, [] => (s, Ok None)
                  | _, t :: us => if match_node n t
                                  then (PS us (p_mem s), Ok (Some (Target n parents [] [])))
                                  else (s, Ok None)
                  end).
  { unfold node_pre_parse. rewrite plain_run by easy. unfold mbind, mlift.
    destruct (runtime_enabled n) as [[]|]; try reflexivity;
      unfold check_label; rewrite En; cbn [a_proc a_unproc];
      (destruct (p_args s) as [|t us]; [reflexivity|]); rewrite norm_plain by apply P;
      destruct (match_node n t); destruct s; reflexivity. }
  rewrite Hnp. destruct (runtime_enabled n) as [[]|] eqn:Ee.
  2:{ right. split; [|easy]. intros rest [He _]. now apply He. }
  all: destruct (p_args s) as [|t us] eqn:Ea;
    [right; split; [intros rest (_ & ? & _ & ?); discriminate|easy]|].
  all: destruct (match_node n t) eqn:Em.
  all: try (apply (plain_match n nm) in Em; [|apply P|apply P|easy]; subst t;
            left; exists us; split; [split; [unfold enabled; congruence|eauto]|reflexivity]).
  all: right; split; [|easy]; intros rest (_ & nm' & Hn' & [= -> ->]);
    assert (nm' = nm) by congruence; subst nm';
    assert (H := proj2 (plain_match n nm (Tok PNone nm) (pm_long _ P) (pm_short _ P) Hn) eq_refl);
    congruence.
Qed.

Definition mode_start (f : nat) (m : node) (parents : list node) : M (option target) :=
  mode_loop f m (map (fun c => (c, pre_parse f c (m :: parents))) (n_children m)) (Target m parents [] [])
            (map (fun _ => false) (n_children m)).

Lemma first_match_select (g : node -> child_pp) pt s (Q : node -> Prop) (R : M (option target) -> Prop) cs :
  (forall c, In c cs -> (~ Q c /\ g c pt always_true s = (s, Ok None))
                        \/ (Q c /\ exists m, R m /\ g c pt always_true s = m s /\ snd (m s) <> Ok None)) ->
  (forall c, In c cs -> ~ Q c) /\ first_match (map g cs) pt always_true s = (s, Ok None)
  \/ exists before c after m, cs = before ++ c :: after /\ (forall d, In d before -> ~ Q d) /\ Q c
       /\ R m /\ g c pt always_true s = m s
       /\ first_match (map g cs) pt always_true s = m s /\ snd (m s) <> Ok None.
Proof.
  induction cs as [|c cs IH]; intros H; [now left|]. cbn [map first_match].
  destruct (H c (or_introl eq_refl)) as [[Hq Hg]|(Hq & m & HR & Hg & Hne)].
  - unfold mbind. rewrite Hg. destruct IH as [[Ha Hf]|(bf & d & af & m & -> & Hb & Hd & HR & Hg' & Hf & Hne)].
    + intros d Hd. apply H. now right.
    + left. split; [|easy]. intros d [<-|Hd]; auto.
    + right. exists (c :: bf), d, af, m. split; [easy|]. split; [intros e [<-|He]; auto|].
      now rewrite Hf.
  - right. exists [], c, cs, m. split; [easy|]. split; [easy|]. split; [easy|]. split; [easy|].
    split; [easy|]. unfold mbind. rewrite Hg. destruct (m s) as [s1 [[t|]| | | |]] eqn:E; try now split.
Qed.

Lemma filter_split {A} (f : A -> bool) l : forall bf c af, filter f l = bf ++ c :: af ->
  exists x y, l = x ++ c :: y /\ filter f x = bf /\ f c = true.
Proof.
  induction l as [|a l IH]; intros bf c af H; cbn [filter] in H; [now destruct bf|].
  destruct (f a) eqn:E.
  - destruct bf as [|b0 bf]; injection H as <- H.
    + exists [], l. easy.
    + apply IH in H as (x & y & -> & <- & Hc). exists (a :: x), y. cbn [filter]. rewrite E. easy.
  - apply IH in H as (x & y & -> & <- & Hc). exists (a :: x), y. cbn [filter]. rewrite E. easy.
Qed.

Lemma mbind_ok {A B} (m : M A) (f : A -> M B) s s' x : m s = (s', Ok x) -> mbind m f s = f x s'.
Proof. unfold mbind. now intros ->. Qed.

Lemma selects_named m ps ts m' ps' ts' : selects m ps ts m' ps' ts' -> none_name m <> None ->
  exists rest, names_mode m ts rest.
Proof. intros [m0 p0 t0 Hn|m0 p0 t0 rest Hn _|m0 p0 t0 rest x c y m1 p1 t1 Hn _ _ _ _ _] H; [easy|eauto|eauto]. Qed.

Lemma mode_start_not_none f n tp parents s :
  sub_ok n tp -> is_mode n = true -> snd (mode_start f n parents s) <> Ok None.
Proof.
  intros Hs Hm. destruct (mode_start f n parents s) as [s' r] eqn:E. unfold mode_start in E.
  apply mode_loop_inv in E; [|now apply (mode_children_offers f n tp)].
  cbn [snd]. intros ->. easy.
Qed.

Lemma anonymous_none n : is_anonymous n = true <-> none_name n = None.
Proof. unfold is_anonymous. destruct (none_name n); cbn; split; easy. Qed.

Lemma mode_pre_parse_eq f k id ty pols cs parents pt : k = KMode ->
  pre_parse f (Node k id ty pols cs) parents pt
  = mode_pre_parse f (Node k id ty pols cs) parents
      (map (fun c => (c, pre_parse f c (Node k id ty pols cs :: parents))) cs) pt.
Proof. intros ->. reflexivity. Qed.

Lemma mode_selected f n : forall tp parents pt s,
  sub_ok n tp -> is_mode n = true -> plain_modes n ->
  (exists m' ps' ts' tp', selects n parents (p_args s) m' ps' ts' /\ is_mode m' = true /\ In m' (below n)
      /\ sub_ok m' tp'
      /\ pre_parse f n parents pt always_true s = mode_start f m' ps' (PS ts' (p_mem s)))
  \/ (none_name n <> None /\ (forall rest, ~ names_mode n (p_args s) rest)
      /\ pre_parse f n parents pt always_true s = (s, Ok None)).
Proof.
  induction n as [k id ty pols cs IH] using node_ind'. intros tp parents pt s Hs Hm Hpl.
  rewrite Forall_forall in IH.
  assert (Hk : k = KMode) by (destruct k; easy). rewrite mode_pre_parse_eq by easy.
  set (n := Node k id ty pols cs) in *.
  set (g := fun c => pre_parse f c (n :: parents)) in *.
  change (map _ cs) with (map (fun c => (c, g c)) cs).
  pose proof (sub_ok_self _ _ Hs) as Hok.
  pose proof (node_ok_plain n tp Hok Hm (Hpl n (below_self n) Hm)) as P.
  assert (Hbody : forall s, (ok <- run_validator always_true n ;;
             if negb ok then mret None
             else mode_loop f n (map (fun c => (c, g c)) cs) (Target n parents [] [])
                            (map (fun _ => false) (map (fun c => (c, g c)) cs)))%m s
            = mode_start f n parents s).
  { intros s0. unfold mbind, run_validator, always_true. cbn [negb].
    unfold mode_start. cbn [n_children n]. rewrite map_map. destruct s0. reflexivity. }
  unfold mode_pre_parse. destruct (none_name n) as [nm|] eqn:En.
  2:{ replace (is_anonymous n) with true by (symmetry; now apply anonymous_none).
      left. exists n, parents, (p_args s), tp. split; [now constructor|]. split; [easy|].
      split; [apply below_self|]. split; [easy|]. rewrite Hbody. now destruct s. }
  replace (is_anonymous n) with false by (unfold is_anonymous; now rewrite En).
  destruct (plain_pre_parse n nm parents pt s P En) as [(rest & Hnm & Hpp)|(Hno & Hpp)];
    rewrite (mbind_ok _ _ _ _ _ Hpp).
  2:{ right. split; [discriminate|split; [exact Hno|easy]]. }
  left. cbn [p_args].
  assert (Hhere : (forall c rest', In c cs -> is_mode c = true -> ~ names_mode c rest rest') ->
            exists m' ps' ts' tp', selects n parents (p_args s) m' ps' ts' /\ is_mode m' = true /\ In m' (below n)
              /\ sub_ok m' tp'
              /\ mode_start f n parents (PS rest (p_mem s)) = mode_start f m' ps' (PS ts' (p_mem s))).
  { intros H. exists n, parents, rest, tp. split; [|split; [easy|]; split; [apply below_self|easy]].
    now apply sel_named. }
  destruct rest as [|t1 ts1].
  { rewrite Hbody. apply Hhere. intros c rest' _ _ (_ & ? & _ & E). discriminate. }
  rewrite filter_modes.
  set (s1 := {| p_args := t1 :: ts1; p_mem := p_mem s |}).
  destruct (first_match_select g pt s1
     (fun c => exists rest', names_mode c (t1 :: ts1) rest')
     (fun m => True) (filter is_mode cs)) as [[Hnone Hf]|(bf & c & af & m & Hcs & Hb & Hc & _ & Hg & Hf & Hne)].
  - intros c Hc. apply filter_In in Hc as [Hc Hcm].
    assert (Hcs := sub_ok_child n tp c Hs Hc).
    assert (Hcn : none_name c <> None).
    { pose proof (sub_ok_self _ _ Hcs) as Hcok. apply node_ok_policies in Hcok as (Hst & _ & _).
      unfold is_mode in Hcm. unfold node_static in Hst. destruct (n_kind c); try discriminate.
      repeat match goal with Hx : _ && _ = true |- _ => apply andb_true_iff in Hx as [? ?] end.
      intros Ec. apply anonymous_none in Ec.
      match goal with Hx : negb (is_anonymous c) || (List.length _ <=? 1) = true |- _ => rename Hx into Hd end.
      rewrite Ec in Hd. cbn [negb orb List.length] in Hd. apply Nat.leb_le in Hd.
      (* n itself has a parent *)
      apply node_ok_policies in Hok as (_ & Hr & _). unfold node_rules in Hr. 
      assert (Hkn : n_kind n = KMode) by exact Hk. rewrite Hkn in Hr.
      repeat match goal with Hx : _ && _ = true |- _ => apply andb_true_iff in Hx as [? ?] end.
      destruct tp; [discriminate|]. cbn in Hd. lia. }
    destruct (IH c Hc (n :: tp) (n :: parents) pt s1 Hcs Hcm (plain_modes_child _ _ Hpl Hc))
      as [(m' & ps' & ts' & tp' & Hsel & Hmm & Hin & Hsm & Heq)|(_ & Hno & Heq)].
    + right. split.
      * now apply (selects_named _ _ _ _ _ _ Hsel).
      * exists (fun s0 => mode_start f m' ps' (PS ts' (p_mem s0))). split; [easy|]. split; [exact Heq|].
        now apply (mode_start_not_none f m' tp').
    + left. split; [|easy]. intros [rest' Hr]. now apply (Hno rest').
  - rewrite (mbind_ok _ _ _ _ _ Hf).
    match goal with |- context [?b s1 = mode_start _ _ _ _] => replace (b s1) with (mode_start f n parents s1) by (symmetry; apply Hbody) end.
    apply Hhere. intros c rest' Hc Hcm Hnc. apply (Hnone c); [now apply filter_In|eauto].
  - apply filter_split in Hcs as (x & y & Hcs & Hx & Hcm).
    assert (Hcin : In c cs) by (rewrite Hcs; apply in_elt).
    assert (Hcok := sub_ok_child n tp c Hs Hcin).
    destruct (IH c Hcin (n :: tp) (n :: parents) pt s1 Hcok Hcm (plain_modes_child _ _ Hpl Hcin))
      as [(m' & ps' & ts' & tp' & Hsel & Hmm & Hin & Hsm & Heq)|(_ & Hno & _)].
    2:{ destruct Hc as [rest' Hr]. now apply Hno in Hr. }
    exists m', ps', ts', tp'. split.
    { apply (sel_nested n parents (p_args s) (t1 :: ts1) x c y); auto.
      intros d rest' Hd Hdm Hn'. apply (Hb d); [|eauto]. rewrite <- Hx. now apply filter_In. }
    split; [easy|]. split; [eapply below_child; eauto|]. split; [easy|].
    unfold mbind. rewrite Hf, <- Hg. unfold g. cbn [p_mem s1] in Heq. rewrite Heq.
    pose proof (mode_start_not_none f m' tp' ps' {| p_args := ts'; p_mem := p_mem s |} Hsm Hmm) as Hne'.
    destruct (mode_start f m' ps' _) as [s2 [[t2|]| | | |]]; try reflexivity. now cbn in Hne'.
Qed.

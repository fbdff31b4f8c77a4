(** Proofs for C85: the label of an argument under any prefixes. *)
From Verif Require Import Bytes Token Adapter Result CodePoint Utf8 Tree Levenshtein PreParse Parse Root Build Validator StringPolicy Prefixes.
From Verif Require Import SpecPolicy SpecTokens SpecTake SpecAdapter SpecUtf8 SpecRules SpecMode SpecPrefix.
From Verif Require Import AdapterProofs TokenProofs OrderProofs PermProofs CodePointProofs Utf8Proofs NodeProofs TakeProofs.
Local Open Scope list_scope.

Lemma begins_iff p s : starts_with p s = true <-> begins p s.
Proof. apply starts_with_app. Qed.
Lemma begins_not p s : starts_with p s = false <-> ~ begins p s.
Proof. rewrite <- begins_iff. now destruct (starts_with p s). Qed.

Section Prefixes.
Variables lp sp : bytes.

Lemma phase_with_phased p a pt tg n parents :
  pre_parse_phase_with lp sp p a pt tg n parents = None <-> phased p = false.
Proof. destruct p; cbn [pre_parse_phase_with phased]; easy. Qed.

Lemma run_with_filter ps : forall a pt tg n parents m,
  run_policies_with lp sp ps a pt tg n parents m = run_policies_with lp sp (filter phased ps) a pt tg n parents m.
Proof.
  induction ps as [|p ps IH]; intros; [easy|]. cbn [run_policies_with filter].
  destruct (phased p) eqn:Ep.
  - cbn [run_policies_with]. destruct (pre_parse_phase_with lp sp p a pt tg n parents) as [r|] eqn:E.
    + destruct m as [m0|]; [|apply IH].
      destruct m0; try apply IH.
      all: destruct r as [[[a' tg'] m']| | | |]; cbn [rbind]; auto.
    + apply IH.
  - apply (phase_with_phased p a pt tg n parents) in Ep. rewrite Ep. apply IH.
Qed.

Lemma skipn_prefix (p s : bytes) : skipn (List.length p) (p ++ s) = s.
Proof. induction p; [easy|exact IHp]. Qed.
Lemma app_cancel (p x y : bytes) : p ++ x = p ++ y -> x = y.
Proof. apply app_inv_head. Qed.

(** How a word is classified for a node. *)
Lemma classify n s :
  (exists r, s = lp ++ r /\ long_name n <> None /\ node_get_token_with lp sp n s = Tok PLong r)
  \/ (exists r, s = sp ++ r /\ short_name n <> None /\ ~ begins lp s /\ node_get_token_with lp sp n s = Tok PShort r)
  \/ ((long_name n <> None -> ~ begins lp s) /\ (short_name n <> None -> begins sp s -> begins lp s)
      /\ node_get_token_with lp sp n s = Tok PNone s).
Proof.
  unfold node_get_token_with, get_token_type_for_with.
  destruct (starts_with lp s) eqn:El.
  - apply begins_iff in El as El'. destruct (long_name n) as [l|] eqn:Eln; cbn [is_some andb negb].
    + left. destruct El' as [r ->]. exists r. rewrite skipn_prefix. repeat split; congruence.
    + right. right. rewrite !andb_false_r. split; [congruence|]. split; [intros _ _; exact El'|reflexivity].
  - apply begins_not in El as El'. rewrite andb_false_r, andb_true_r. cbn [negb].
    destruct (starts_with sp s) eqn:Es.
    + apply begins_iff in Es as Es'. destruct (short_name n) as [c|] eqn:Esn; cbn [is_some andb].
      * right. left. destruct Es' as [r ->]. exists r. rewrite skipn_prefix. repeat split; [congruence|exact El'].
      * right. right. repeat split; [intros _; exact El'|congruence].
    + apply begins_not in Es as Es'. rewrite andb_false_r. right. right. repeat split; [intros _; exact El'|].
      intros _ H. now apply Es' in H.
Qed.

Lemma match_iff n t : match_node n t = true <->
  (t_prefix t = PLong /\ long_name n = Some (t_name t)) \/ (t_prefix t = PShort /\ short_name n = Some (t_name t))
  \/ (t_prefix t = PNone /\ none_name n = Some (t_name t)).
Proof.
  unfold match_node. destruct t as [p s]. cbn [t_prefix t_name]. rewrite !orb_true_iff.
  assert (H : forall (o : option bytes) q, match o with Some s' => prefix_eqb p q && beq s s' | None => false end = true
              <-> p = q /\ o = Some s).
  { intros [s'|] q; [|split; [discriminate|intros [_ E]; discriminate]]. rewrite andb_true_iff, beq_eq.
    split; [intros [E ->]; split; [destruct p, q; easy|reflexivity]|intros [-> E]; injection E as ->; split; [now destruct q|reflexivity]]. }
  rewrite !H. tauto.
Qed.

(** A word that is not a group is a label if it is classified as the node's name. *)
Lemma heads_plain n t : t_prefix t <> PLong ->
  match_node n (norm_token_with lp sp n t) = true <-> heads lp sp n t [].
Proof.
  intros Hp. destruct t as [p s]. cbn [t_prefix] in Hp. unfold norm_token_with. cbn [t_prefix t_name].
  split.
  - destruct p; [easy| |].
    + intros H. apply match_iff in H as [[H _]|[[_ H]|[H _]]]; try discriminate. cbn [t_name] in H.
      apply (by_short _ _ _ _ s H). left. reflexivity.
    + destruct (classify n s) as [(r & -> & Hl & ->)|[(r & -> & Hs & Hb & ->)|(Hl & Hs & ->)]]; intros H;
        apply match_iff in H; cbn [t_prefix t_name] in H;
        destruct H as [[H1 H]|[[H1 H]|[H1 H]]]; try discriminate.
      * now constructor.
      * apply (by_short _ _ _ _ r H). right. split; [reflexivity|exact Hb].
      * now constructor.
  - intros H. apply match_iff. inversion H as [l Hl Et|t' c Hc Hs Et|s' Hn H1 H2 Et|t' c gs Hx Hc Hne Hg Hs Et]; subst.
    + destruct (classify n (lp ++ l)) as [(r & E & _ & ->)|[(r & _ & _ & Hb & _)|(Hb & _ & _)]]; cbn [t_prefix t_name].
      * apply app_cancel in E. subst r. now left.
      * exfalso. apply Hb. now exists l.
      * exfalso. apply Hb; [congruence|now exists l].
    + destruct Hs as [E|[E Hb]]; injection E as -> ->; cbn [t_prefix t_name]; [right; now left|].
      destruct (classify n (sp ++ c)) as [(r & E & _ & _)|[(r & E & _ & _ & ->)|(_ & Hx & _)]]; cbn [t_prefix t_name].
      * exfalso. apply Hb. now exists r.
      * apply app_cancel in E. subst r. right; now left.
      * exfalso. apply Hb, Hx; [congruence|now exists c].
    + destruct (classify n s) as [(r & E & Hx & _)|[(r & E & Hx & Hb & _)|(_ & _ & ->)]]; cbn [t_prefix t_name].
      * exfalso. apply H1; [exact Hx|now exists r].
      * exfalso. apply Hb, H2; [exact Hx|now exists r].
      * right; right. now split.
    + now contradiction Hne.
Qed.

Lemma candidate_short n t ft : t_prefix t <> PLong -> short_name n <> None ->
  short_candidate_with lp sp n t = Some ft <-> exists nm, ft = Tok PShort nm /\ short_text lp sp t nm.
Proof.
  intros Hp Hsn. destruct t as [p s]. cbn [t_prefix] in Hp. unfold short_candidate_with. cbn [t_prefix t_name].
  destruct p; [easy| |].
  - split; [intros E; injection E as <-; exists s; split; [reflexivity|now left]|].
    intros (nm & -> & [E|[E _]]); [now injection E as ->|discriminate].
  - destruct (classify n s) as [(r & E & _ & ->)|[(r & E & _ & Hb & ->)|(_ & Hx & ->)]]; cbn [t_prefix]; split; try discriminate.
    + intros (nm & _ & [E'|[E' Hb]]); [discriminate|]. injection E' as E'. exfalso. apply Hb. rewrite <- E', E. now exists r.
    + intros E'. injection E' as <-. exists r. split; [reflexivity|]. right. split; [now rewrite E|now rewrite <- E].
    + intros (nm & -> & [E'|[E' _]]); [discriminate|]. injection E' as E'. rewrite E in E'. apply app_cancel in E'. now subst r.
    + intros (nm & _ & [E'|[E' Hb]]); [discriminate|]. injection E' as ->. exfalso. apply Hb, Hx; [exact Hsn|now exists nm].
Qed.

Lemma short_text_det t a c : short_text lp sp t a -> short_text lp sp t c -> a = c.
Proof.
  intros [->|[-> _]] [E|[E _]]; try discriminate; injection E as E; [exact E|now apply app_cancel in E].
Qed.

(** What happens behind the policies' phases. *)
Definition settle (n : node) (parents : list node) (v : validator) (r : res (adapter * target * presult)) : M (option target) :=
  (r <- mlift r ;;
   let '(a, tg, m) := r in
   match m with
   | Act Skip => mret None
   | _ =>
       match check_label_with lp sp n m a with
       | None => mret None
       | Some a' =>
           ok <- run_validator v n ;;
           if negb ok then mret None
           else match m with
                | Err c ts => mlift (Throw (EML c ts))
                | Act _ =>
                    _ <- set_args (a_unproc a') ;;
                    mret (Some (Target n parents
                                       (if is_named n then tl (a_proc a') else a_proc a')
                                       (tg_subs tg)))
                end
       end
   end)%m.

Lemma settles n parents pt v s : node_pre_parse_with lp sp n parents pt v s
  = settle n parents v (run_policies_with lp sp (priority_order (n_pols n)) (Adp [] (p_args s)) pt (Target n parents [] []) n parents (Act Valid)) s.
Proof. reflexivity. Qed.

(** The node takes its tokens. *)
Definition takes (n : node) (parents : list node) (r : res (adapter * target * presult)) (s : pst) (vals rest : list token) : Prop :=
  exists t, settle n parents always_true r s = (PS rest (p_mem s), Ok (Some t)) /\ tg_toks t = vals.

Lemma check_named n m a t us : is_named n = true -> a_all a = t :: us -> m <> Act UseSubs ->
  check_label_with lp sp n m a = if match_node n (norm_token_with lp sp n t)
    then Some (match a_proc a with [] => Adp [norm_token_with lp sp n t] us | _ :: ps => Adp (norm_token_with lp sp n t :: ps) (a_unproc a) end)
    else None.
Proof.
  intros Hn Ha Hm. unfold check_label_with. rewrite Hn. destruct a as [[|x pr] [|y un]]; cbn in Ha; try discriminate;
    injection Ha as -> Ha; subst; cbn [a_proc a_unproc];
    (destruct m as [[]|]; [| |congruence|]); destruct (match_node n (norm_token_with lp sp n t)); reflexivity.
Qed.

Lemma finish n parents mn mx (a : adapter) t us s vals rest :
  leaf_ok n -> is_named n = true -> token_end_marker n = None -> count_bounds n = Some (mn, mx) ->
  a_all a = t :: us -> List.length (a_proc a) <= 1 -> (nlen (t :: us) < 9223372036854775808)%N ->
  takes n parents (let '(a', m) := phase_min_max_count mn mx n a in Ok (a', Target n parents [] [], m)) s vals rest
  <-> match_node n (norm_token_with lp sp n t) = true /\ us = vals ++ rest /\ (mn <= nlen vals <= mx)%N /\ (rest <> [] -> nlen vals = mx).
Proof.
  intros L Hn Hm Hb Ha Hl Hf. pose proof (lo_count _ L _ _ Hb) as [Hmm _].
  destruct (count_plain_exact n mn mx a [t] us) as [H1 H2]; auto.
  { exact (lo_count _ L _ _ Hb). }
  { unfold width. now rewrite Hn. }
  { discriminate. }
  { unfold nlen in *. cbn [List.length]. lia. }
  destruct (N.lt_ge_cases (nlen us) mn) as [Hlt|Hge].
  - rewrite (H1 Hlt). split.
    + intros (tg & E & _). exfalso. revert E. unfold settle, mbind, mlift. rewrite (check_named _ _ _ t us Hn Ha) by discriminate.
      destruct (match_node n (norm_token_with lp sp n t)); discriminate.
    + intros (_ & -> & Hc & _). exfalso. rewrite nlen_app in Hlt. lia.
  - specialize (H2 Hge). destruct (split_at_most mx us) as (vs & rs & E & Hc & Hfull).
    assert (Hv : nlen vs = N.min mx (nlen us)).
    { subst us. rewrite nlen_app in *. destruct rs as [|r rs]; [unfold nlen in *; cbn [List.length] in *; lia|].
      rewrite nlen_cons in *. specialize (Hfull ltac:(discriminate)). lia. }
    rewrite (H2 vs rs E Hv).
    assert (Hs : settle n parents always_true (Ok (Adp ([t] ++ vs) rs, Target n parents [] [], Act Valid)) s
      = if match_node n (norm_token_with lp sp n t) then (PS rs (p_mem s), Ok (Some (Target n parents vs []))) else (s, Ok None)).
    { unfold settle, mbind, mlift. rewrite (check_named _ _ _ t (vs ++ rs) Hn) by (reflexivity || discriminate).
      destruct (match_node n (norm_token_with lp sp n t)); [|reflexivity].
      cbn [a_proc app a_unproc run_validator always_true set_args mret negb tl tg_subs]. rewrite Hn.
      destruct s. reflexivity. }
    unfold takes. rewrite Hs. destruct (match_node n (norm_token_with lp sp n t)).
    + split.
      * intros (tg & E1 & E2). injection E1 as <- <-. cbn [tg_toks] in E2. subst vs. split; [reflexivity|]. split; [exact E|].
        split; [split; [lia|exact Hc]|exact Hfull].
      * intros (_ & E1 & Hc1 & Hf1). destruct (full_det vals rest vs rs mx) as [-> ->]; [congruence|lia|exact Hc|exact Hf1|exact Hfull|].
        exists (Target n parents vs []). split; reflexivity.
    + split; [intros (tg & E1 & _); discriminate|intros (E1 & _); discriminate].
Qed.

Lemma none_pick f ps : (forall p, In p ps -> f p = false) -> pick f ps = [].
Proof.
  intros H. destruct (pick_cases f ps) as [E|(p & _ & Hin & E)]; [exact E|]. rewrite (H p Hin) in E. discriminate.
Qed.

Lemma simple_order n mn mx : leaf_ok n -> simple_argument n -> count_bounds n = Some (mn, mx) ->
  phase_order (n_pols n) = pick is_expander (n_pols n) ++ [PMinMaxCount mn mx].
Proof.
  intros L [_ Hs] Hb. unfold phase_order. pose proof (pick_count n L) as Hc. rewrite Hb in Hc. destruct Hc as [-> _].
  assert (H : forall f, (forall p, f p = true -> match p with
       | PValueSeparator _ | PTokenEndMarker _ | PAlias _ | PDependent _ | PRuntimeEnable _ | PRuntimeEnableRequired _ _ => True
       | _ => False end) -> pick f (n_pols n) = []).
  { intros f Hf. apply none_pick. intros p Hp. specialize (Hs p Hp). specialize (Hf p).
    destruct (f p); [|reflexivity]. specialize (Hf eq_refl). destruct p; contradiction. }
  rewrite (H is_separator), (H is_enable), (H is_marker), (H is_alias), (H is_dependent); [reflexivity| | | | |];
    intros p; destruct p; (discriminate || exact (fun _ => I)).
Qed.

Lemma simple_marker n : simple_argument n -> token_end_marker n = None.
Proof.
  intros [_ Hs]. destruct (token_end_marker n) as [m|] eqn:E; [|reflexivity]. exfalso.
  unfold token_end_marker in E. apply first_some_in in E as (p & Hp & E). specialize (Hs p Hp). destruct p; try discriminate. exact Hs.
Qed.
Lemma simple_named n : simple_argument n -> is_named n = true.
Proof.
  intros [Hs _]. unfold is_named. destruct (long_name n), (short_name n), (none_name n); try reflexivity.
  destruct Hs as [H|[H|H]]; now contradiction H.
Qed.

Lemma run_one n pt parents mn mx a : run_policies_with lp sp [PMinMaxCount mn mx] a pt (Target n parents [] []) n parents (Act Valid)
  = let '(a', m) := phase_min_max_count mn mx n a in Ok (a', Target n parents [] [], m).
Proof.
  cbn [run_policies_with pre_parse_phase_with rbind]. destruct (phase_min_max_count mn mx n a) as [a' m]. reflexivity.
Qed.

Lemma run_two n pt parents mn mx a : run_policies_with lp sp [PShortFormExpander; PMinMaxCount mn mx] a pt (Target n parents [] []) n parents (Act Valid)
  = (' (a', m) <- phase_short_form_with lp sp n a ;; run_policies_with lp sp [PMinMaxCount mn mx] a' pt (Target n parents [] []) n parents m)%res.
Proof.
  cbn [run_policies_with]. cbn [pre_parse_phase_with]. destruct (phase_short_form_with lp sp n a) as [[a' m]| | | |]; cbn [rbind]; reflexivity.
Qed.

(** Which words select the node, and what it takes. *)
Lemma label_exact n parents pt mem t args vals rest mn mx :
  leaf_ok n -> simple_argument n -> count_bounds n = Some (mn, mx) -> t_prefix t <> PLong ->
  (nlen (t_name t) + nlen args <= vec_max_size)%N ->
  (exists tg, node_pre_parse_with lp sp n parents pt always_true (PS (t :: args) mem) = (PS rest mem, Ok (Some tg)) /\ tg_toks tg = vals)
  <-> exists letters, heads lp sp n t letters /\ map (Tok PShort) letters ++ args = vals ++ rest
      /\ (mn <= nlen vals <= mx)%N /\ (rest <> [] -> nlen vals = mx).
Proof.
  intros L Hs Hb Hp Hroom.
  assert (Hn := simple_named n Hs). assert (Hm := simple_marker n Hs).
  assert (Hsmall : (nlen (t :: args) < 9223372036854775808)%N).
  { rewrite nlen_cons. unfold vec_max_size in Hroom. lia. }
  rewrite settles. cbn [p_args].
  rewrite run_with_filter, (filter_order _ (lo_prio _ L)), (simple_order n mn mx L Hs Hb).
  change (takes n parents (run_policies_with lp sp (pick is_expander (n_pols n) ++ [PMinMaxCount mn mx]) (Adp [] (t :: args)) pt
            (Target n parents [] []) n parents (Act Valid)) (PS (t :: args) mem) vals rest
    <-> exists letters, heads lp sp n t letters /\ map (Tok PShort) letters ++ args = vals ++ rest
      /\ (mn <= nlen vals <= mx)%N /\ (rest <> [] -> nlen vals = mx)).
  assert (Hplain : (forall letters, heads lp sp n t letters -> letters = []) ->
    takes n parents (run_policies_with lp sp [PMinMaxCount mn mx] (Adp [] (t :: args)) pt (Target n parents [] []) n parents (Act Valid)) (PS (t :: args) mem) vals rest
    <-> exists letters, heads lp sp n t letters /\ map (Tok PShort) letters ++ args = vals ++ rest
      /\ (mn <= nlen vals <= mx)%N /\ (rest <> [] -> nlen vals = mx)).
  { intros Hnil. rewrite run_one, (finish n parents mn mx (Adp [] (t :: args)) t args (PS (t :: args) mem) vals rest L Hn Hm Hb eq_refl (Nat.le_0_l 1) Hsmall).
    rewrite (heads_plain n t Hp). split.
    - intros (Hh & E & Hc). exists []. split; [exact Hh|]. split; [exact E|exact Hc].
    - intros (letters & Hh & E & Hc). assert (letters = []) by exact (Hnil _ Hh). subst letters. split; [exact Hh|]. split; [exact E|exact Hc]. }
  destruct (pick_expander n) as [[-> Hx]|[-> Hx]]; cbn [app].
  { apply Hplain. intros letters Hh. inversion Hh; subst; try reflexivity. contradiction. }
  rewrite run_two. destruct (lo_exp _ L Hx) as (c & Hc). assert (Hcn := lo_short _ L c Hc).
  assert (Hcs : short_name n <> None) by congruence.
  unfold phase_short_form_with. cbn [a_empty a_proc a_unproc]. change (a_deref (Adp [] (t :: args)) a_begin) with (Some t).
  cbn [or_ub rbind]. rewrite Hc.
  destruct (short_candidate_with lp sp n t) as [ft|] eqn:Ec.
  2:{ cbn [rbind]. apply Hplain. intros letters Hh. inversion Hh as [| | |t' c' gs' _ Hc' Hne Hg Ht]; subst; try reflexivity.
      exfalso. assert (Hy : short_candidate_with lp sp n t = Some (Tok PShort (c' ++ List.concat letters))).
      { apply candidate_short; [exact Hp|exact Hcs|]. eexists. split; [reflexivity|exact Ht]. }
      congruence. }
  destruct (proj1 (candidate_short n t ft Hp Hcs) Ec) as (nm & -> & Hnm). cbn [t_name].
  destruct (Nat.eqb_spec (List.length nm) (List.length c)) as [Hlen|Hlen].
  { cbn [rbind]. apply Hplain. intros letters Hh. inversion Hh as [| | |t' c' gs' _ Hc' Hne Hg Ht]; subst; try reflexivity.
    exfalso. assert (nm = c' ++ List.concat letters) by exact (short_text_det _ _ _ Hnm Ht). subst nm.
    assert (c' = c) by congruence. subst c'. rewrite app_length in Hlen. destruct (List.concat letters); [now apply Hne|cbn in Hlen; lia]. }
  change (transfer (Adp [] (t :: args)) a_begin) with (Adp [t] args). cbn [a_unproc a_proc].
  (* what heads says now *)
  assert (Hheads : forall letters, heads lp sp n t letters <-> graphemes nm = Some (c :: letters)).
  { intros letters. split.
    - intros Hh. inversion Hh as [l Hl Et|t' c' Hc' Ht Et|s' Hn' H1 H2 Et|t' c' gs' _ Hc' Hne Hg Ht Et]; subst.
      + exfalso. destruct Hnm as [E|[E Hb']]; [discriminate|]. injection E as E. apply Hb'. rewrite <- E. now exists l.
      + exfalso. assert (nm = c') by exact (short_text_det _ _ _ Hnm Ht). congruence.
      + exfalso. destruct Hnm as [E|[E Hb']]; [discriminate|]. injection E as ->. apply Hb', H2; [exact Hcs|now exists nm].
      + assert (nm = c' ++ List.concat letters) by exact (short_text_det _ _ _ Hnm Ht). subst nm. congruence.
    - intros Hg. destruct (graphemes_partition _ _ Hg) as [E _]. cbn [List.concat] in E. subst nm.
      apply (by_group lp sp n t c letters Hx Hc); [|exact Hg|exact Hnm].
      intros E. apply Hlen. now rewrite E, app_nil_r. }
  assert (Hnml : (nlen nm <= nlen (t_name t))%N).
  { destruct Hnm as [->|[-> _]]; cbn [t_name]; unfold nlen; [lia|]. rewrite app_length. lia. }
  destruct (N.ltb_spec vec_max_size (size_pred (nlen args + nlen nm))) as [Hbig|_].
  { cbn [rbind]. split.
    - intros (tg & E & _). discriminate.
    - intros (letters & Hh & _). exfalso. apply Hheads in Hh. destruct nm as [|x nm].
      + rewrite graphemes_nil in Hh. discriminate.
      + rewrite nlen_cons in *. unfold size_pred in Hbig. destruct (N.eqb_spec (nlen args + (1 + nlen nm)) 0); lia. }
  destruct (graphemes nm) as [[|g gs]|] eqn:Hg; cbn [or_ub rbind].
  3:{ split; [intros (tg & E & _); discriminate|]. intros (letters & Hh & _). apply Hheads in Hh. discriminate. }
  { cbn [tl map app]. rewrite set_front. cbn [or_ub rbind]. rewrite run_one.
    rewrite (finish n parents mn mx (Adp [Tok PShort []] args) (Tok PShort []) args (PS (t :: args) mem) vals rest L Hn Hm Hb eq_refl (le_n 1)).
    2:{ rewrite nlen_cons in *. exact Hsmall. }
    split.
    - intros (Hmt & _). exfalso. apply match_iff in Hmt as [[E _]|[[_ E]|[E _]]]; try discriminate. cbn [t_name norm_token_with t_prefix] in E. congruence.
    - intros (letters & Hh & _). apply Hheads in Hh. discriminate. }
  cbn [tl map app]. rewrite set_front. cbn [or_ub rbind]. rewrite run_one.
  destruct (graphemes_partition _ _ Hg) as [Hcat Hall].
  rewrite (finish n parents mn mx (Adp [Tok PShort g] (map (Tok PShort) gs ++ args)) (Tok PShort g) (map (Tok PShort) gs ++ args) (PS (t :: args) mem) vals rest L Hn Hm Hb eq_refl (le_n 1)).
  2:{ assert (Hx2 : (nlen (Tok PShort g :: map (Tok PShort) gs ++ args) <= nlen nm + nlen args)%N).
      { rewrite nlen_cons, nlen_app. assert (Hy : List.length (g :: gs) <= List.length nm).
        { rewrite <- Hcat. clear - Hall. induction Hall as [|x l Hx Hl IH]; [apply le_n|]. cbn [List.concat List.length]. rewrite app_length.
          destruct x; [now contradiction Hx|cbn [List.length] in *; lia]. }
        unfold nlen in *. rewrite map_length. cbn [List.length] in Hy. lia. }
      unfold vec_max_size in Hroom. lia. }
  split.
  - intros (Hmt & E & Hcnt). apply match_iff in Hmt as [[E' _]|[[_ E']|[E' _]]]; try discriminate. cbn [t_name norm_token_with t_prefix] in E'.
    assert (g = c) by congruence. subst g. exists gs. split; [now apply Hheads|]. split; [exact E|exact Hcnt].
  - intros (letters & Hh & E & Hcnt). apply Hheads in Hh. injection Hh as -> ->. split; [|split; [exact E|exact Hcnt]].
    apply match_iff. right; left. split; [reflexivity|exact Hc].
Qed.

(** ** The trees that compile *)

Lemma node_ok_with_leaf n tp : node_ok_with lp sp (n, tp) = true -> leaf_ok n /\ (In PShortFormExpander (n_pols n) -> lp <> sp).
Proof.
  intros H. unfold node_ok_with in H. apply andb_true_iff in H as [_ H]. rewrite forallb_forall in H. split.
  - apply (core_leaf n tp). intros p Hp. specialize (H p Hp). apply andb_true_iff in H as [H Hr]. split; [|exact Hr].
    destruct p; try exact (core_static _ _ _ H); unfold policy_static_with in H.
    + unfold short_name_ok in H. apply andb_true_iff in H as [H _]. exact H.
    + apply andb_true_iff in H as [H _]. exact H.
  - intros Hx E. specialize (H _ Hx). apply andb_true_iff in H as [H _]. unfold policy_static_with in H. apply andb_true_iff in H as [_ H].
    unfold expander_ok in H. rewrite E in H. rewrite beq_refl in H. discriminate.
Qed.

Lemma accepted_with_leaf r d : accepted_with lp sp r = true -> In d (below r) -> leaf_ok d /\ (In PShortFormExpander (n_pols d) -> lp <> sp).
Proof.
  intros Ha Hd. unfold accepted_with in Ha. apply andb_true_iff in Ha as [_ Ha]. rewrite forallb_forall in Ha.
  unfold below in Hd. apply in_map_iff in Hd as ([d' tp] & <- & Hin). now apply (node_ok_with_leaf _ tp), Ha.
Qed.
End Prefixes.

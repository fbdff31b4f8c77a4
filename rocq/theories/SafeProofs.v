(** Lemmas for C19. *)
From Verif Require Import Bytes Token Adapter Result CodePoint Utf8 Tree Levenshtein PreParse Parse Root Validator.
From Verif Require Import SpecUtf8 SpecSuggest SpecPolicy SpecTokens SpecMode SpecTake SpecDeliver SpecRoot SpecReading SpecSafe.
From Verif Require Import CodePointProofs Utf8Proofs SuggestProofs OrderProofs TreeProofs NodeProofs TakeProofs ModeProofs.
From Verif Require Import SelectProofs ParseProofs MeaningProofs RootProofs ReadProofs ExactProofs TotalProofs.

(** ** Readable text *)

Lemma readable_cps s : readable s -> exists cs, Forall decoded cs /\ cp_split s = Some (map encode cs).
Proof.
  intros (cs & H & ->). exists cs. split; [easy|]. apply cp_split_encode; (eapply Forall_impl; [|exact H]);
    intros c [? ?]; easy.
Qed.

Lemma readable_decodable s : readable s -> graphemes s <> None.
Proof. intros H. apply readable_cps in H as (cs & _ & E). apply graphemes_defined. now rewrite E. Qed.

(** The bytes of a multi-byte character are not ASCII. *)
Lemma encode_ascii c x : In x (encode c) -> (byte_val x < 128)%N -> scalar c -> encode c = [x].
Proof.
  intros Hin Hx Hc. assert (Hlt : (c < 1114112)%N) by (destruct Hc; lia).
  unfold encode in *.
  destruct (N.ltb_spec c 128) as [H1|H1]; [destruct Hin as [<-|[]]; reflexivity|].
  assert (Hbig : forall y, (128 <= y < 256)%N -> x <> byte y).
  { intros y Hy ->. rewrite byte_val_byte in Hx by lia. lia. }
  assert (Hm : forall a, (128 <= 128 + a mod 64 < 256)%N) by (intros a; pose proof (N.mod_lt a 64); lia).
  assert (Hd1 : (c / 64 < 17409)%N) by (apply N.div_lt_upper_bound; lia).
  exfalso. destruct (N.ltb_spec c 2048) as [H2|H2].
  - assert (c / 64 < 32)%N by (apply N.div_lt_upper_bound; lia).
    destruct Hin as [E|[E|[]]]; symmetry in E; revert E; apply Hbig; auto. lia.
  - destruct (N.ltb_spec c 65536) as [H3|H3].
    + assert (c / 4096 < 16)%N by (apply N.div_lt_upper_bound; lia).
      destruct Hin as [E|[E|[E|[]]]]; symmetry in E; revert E; apply Hbig; auto. lia.
    + assert (c / 262144 < 8)%N by (apply N.div_lt_upper_bound; lia).
      destruct Hin as [E|[E|[E|[E|[]]]]]; symmetry in E; revert E; apply Hbig; auto. lia.
Qed.

(** Text split at an ASCII character. *)
Lemma readable_split l x v : readable (l ++ x :: v) -> (byte_val x < 128)%N -> readable l /\ readable v.
Proof.
  intros (cs & Hcs & E) Hx. revert l E. induction Hcs as [|c cs Hc Hcs IH]; intros l E.
  - destruct l; discriminate.
  - unfold encode_all in E. cbn [map List.concat] in E. fold (encode_all cs) in E.
    assert (Hcase : (exists l', l = encode c ++ l' /\ encode_all cs = l' ++ x :: v)
                    \/ (exists q, encode c = l ++ x :: q /\ v = q ++ encode_all cs)).
    { clear - E. revert l E. induction (encode c) as [|a e IH]; intros l E.
      - left. exists l. easy.
      - destruct l as [|y l]; cbn [app] in E.
        + injection E as <- ->. right. exists e. easy.
        + injection E as <- E. apply IH in E as [(l' & -> & E)|(q & E1 & ->)].
          * left. exists l'. easy.
          * right. exists q. now rewrite E1. }
    destruct Hcase as [(l' & -> & E')|(q & E1 & ->)].
    + destruct (IH l' (eq_sym E')) as [(ds & Hds & ->) Hv]. split; [|easy]. exists (c :: ds). split; [now constructor|easy].
    + assert (E2 : encode c = [x]).
      { apply encode_ascii; [rewrite E1; apply in_or_app; right; now left|easy|apply Hc]. }
      rewrite E2 in E1. destruct l as [|a l]; [|destruct l; discriminate]. injection E1 as <-. split.
      * exists []. split; [constructor|easy].
      * exists cs. easy.
Qed.

Lemma dash_ascii : (byte_val "-"%char < 128)%N.
Proof. reflexivity. Qed.

Lemma readable_graphemes s gs : readable s -> graphemes s = Some gs ->
  forall g, In g gs -> readable g /\ g <> [].
Proof.
  intros Hs Hg g Hin. pose proof (graphemes_partition s gs Hg) as [_ Hne]. rewrite Forall_forall in Hne.
  split; [|now apply Hne]. apply readable_cps in Hs as (cs & Hcs & E).
  apply graphemes_groups in Hg as (cps & groups & E' & _ & _ & Hgr & _ & ->).
  rewrite E in E'. injection E' as <-. apply in_map_iff in Hin as (grp & <- & Hin).
  assert (Hf : Forall (fun b => exists c, decoded c /\ b = encode c) grp).
  { rewrite Forall_forall. intros b Hb. assert (Hb' : In b (map encode cs)) by (rewrite <- Hgr; apply in_concat; eauto).
    apply in_map_iff in Hb' as (c & <- & Hc). rewrite Forall_forall in Hcs. eauto. }
  clear - Hf. induction Hf as [|b grp (c & Hc & ->) _ (ds & Hds & E)].
  - exists []. split; [constructor|easy].
  - exists (c :: ds). split; [now constructor|]. cbn [List.concat]. rewrite E. easy.
Qed.

(** ** Tokens *)

Lemma small_fits ts : small ts -> fits ts.
Proof. unfold small, fits. intros H. clear - H. lia. Qed.

Record good_token (t : token) : Prop := {
  gt_readable : readable (t_name t);
  gt_short : t_prefix t = PShort -> t_name t <> [];
  gt_dash : t_prefix t = PNone -> t_name t <> short_prefix
}.
Definition good (ts : list token) : Prop := forall t, In t ts -> good_token t.

Lemma group_readable n t nm : group_for n t nm -> readable (t_name t) -> readable nm.
Proof.
  intros (_ & [(_ & ->)|(_ & E & _)] & _) H; [easy|]. rewrite E in H.
  apply (readable_split [] "-"%char nm) in H; [apply H|apply dash_ascii].
Qed.

Definition mild (n : node) : Prop :=
  enabled n
  /\ forall sep, value_separator n = Some sep ->
       (exists c, sep = [c] /\ (byte_val c < 128)%N) /\ ~ In PShortFormExpander (n_pols n).

Lemma fronted_readable n ts t value us : mild n -> good ts -> fronted n ts t value us ->
  readable (t_name t) /\ good us.
Proof.
  intros [_ Hsep] Hg H0. revert Hg. destruct H0 as [t0 us0 Hn|sep p l c s v us0 Hn Hc Hl Hno Hv]; intros Hg.
  - split; [apply gt_readable, Hg; now left|]. intros u Hu. apply Hg. now right.
  - destruct (Hsep sep Hn) as ((x & -> & Hx) & _). destruct Hc as [<-|[]]. destruct s as [|y s]; [|discriminate].
    split; [|intros u Hu; apply Hg; now right].
    assert (H : readable (t_name (Tok p (l ++ [x] ++ v)))) by (apply gt_readable, Hg; now left). cbn [t_name app] in H.
    now apply (readable_split l x v) in H.
Qed.

Lemma not_chokes n ts : mild n -> good ts -> small ts -> ~ chokes n ts.
Proof.
  intros Hm Hg Hf [(sep & t & us & l & c & s & Hn & _ & _ & _ & _ & Hl)|[(t & value & us & Hfr & nm & Hgr & Hb)|(He & _)]].
  - destruct Hm as [_ Hsep]. destruct (Hsep sep Hn) as ((x & -> & _) & _). cbn in Hl. lia.
  - pose proof (fronted_readable n ts t value us Hm Hg Hfr) as [Hr Hu].
    pose proof (group_readable n t nm Hgr Hr) as Hnm.
    revert Hg Hf. destruct Hfr as [t us Hn|sep p l c s v us Hn _ _ _ _].
    2:{ intros _ _. destruct Hm as [_ Hsep]. destruct (Hsep sep Hn) as [_ H]. now destruct Hgr. }
    intros Hg Hf.
    assert (Ht : good_token t) by (apply Hg; now left).
    destruct Hb as [Hb|[[_ ->]|Hb]].
    + now apply (readable_decodable nm).
    + destruct Hgr as (_ & [(Hp & E)|(Hp & E & _)] & _).
      * apply (gt_short t Ht Hp). now symmetry.
      * apply (gt_dash t Ht Hp). rewrite E. apply app_nil_r.
    + assert (Hw : List.length us + List.length nm <= args_weight (t :: us)).
      { rewrite args_weight_cons. pose proof (args_weight_length us).
        assert (List.length nm <= token_weight t); [|lia]. unfold token_weight.
        destruct Hgr as (_ & [(_ & ->)|(_ & E & _)] & _); [lia|]. rewrite E, app_length. lia. }
      unfold small in Hf. unfold nlen, vec_max_size in Hb. clear - Hw Hf Hb. lia.
  - apply He. apply Hm.
Qed.

Lemma counted_rest n us vals rest t : counted n us vals rest -> In t rest -> In t us.
Proof.
  intros [mn mx v r _ _ -> _ _|mn mx m p v r _ _ -> _ _ _|mx m p v r _ _ _ _ -> _ _|mn mx m _ _ _ _] H.
  - apply in_or_app. now right.
  - apply in_or_app. right. now right.
  - right. apply in_or_app. now right.
  - destruct H.
Qed.

Lemma counted_sep n v us vals rest t : count_bounds n = Some (1, 1)%N -> counted n (v :: us) vals rest ->
  In t rest -> In t us.
Proof.
  intros Hb [mn mx vs r _ Hc E Hn _|mn mx m p vs r _ Hc E _ Hn _|mx m p vs r _ Hc _ _ _ _ _|mn mx m _ _ _ _] Hin; [| |congruence|destruct Hin];
    rewrite Hb in Hc; injection Hc as <- <-; (destruct vs as [|x vs]; [unfold nlen in Hn; cbn in Hn; lia|]);
    injection E as -> ->; apply in_or_app; right; [|right]; easy.
Qed.

Lemma consumes_good n ts label vals rest : leaf_ok n -> mild n -> good ts -> consumes n ts label vals rest -> good rest.
Proof.
  intros L Hm Hg [t value us t' us' v r Hn Hfr Hgr _ Hc|v r _ _ Hc] x Hx.
  - pose proof (fronted_readable n ts t value us Hm Hg Hfr) as [Hr Hu].
    assert (Hin : In x us').
    { destruct Hfr as [t us _|sep p l c s w us Hsep _ _ _ _]; [now apply (counted_rest n _ _ _ _ Hc)|].
      apply (counted_sep n (Tok PNone w) us' v r x); [|easy|easy].
      unfold value_separator in Hsep. apply PermProofs.first_some_in in Hsep as (q & Hq & E).
      destruct q; try discriminate. now apply (lo_sep n L s0). }
    destruct Hgr as [t us _|t nm g gs us Hgr Hgs]; [now apply Hu|].
    apply in_app_iff in Hin as [Hin|Hin]; [|now apply Hu].
    apply in_map_iff in Hin as (h & <- & Hh). pose proof (group_readable n t nm Hgr Hr) as Hnm.
    destruct (readable_graphemes nm _ Hnm Hgs h (or_intror Hh)) as [H1 H2]. constructor; cbn; easy.
  - apply Hg. now apply (counted_rest n _ _ _ _ Hc).
Qed.

(** ** The pre-parse *)

(** Orderly, or a loop that is not finished. *)
Definition calm A (r : res A) : Prop := orderly r \/ r = OutOfFuel.
Arguments calm {A} r.

Lemma calm_bind A B (r : res A) (f : A -> res B) : calm r -> (forall x, r = Ok x -> calm (f x)) -> calm (rbind r f).
Proof.
  intros H1 H2. destruct r as [x|e| | |]; cbn [rbind].
  - now apply H2.
  - destruct H1 as [H1|H1]; [|discriminate]. destruct e; try destruct H1. now left.
  - destruct H1 as [[]|H1]; discriminate.
  - now left.
  - now right.
Qed.

Lemma after_check_calm v n s rest r : (forall m, calm (snd (v n m))) -> calm r -> calm (snd (after_check v n s rest r)).
Proof.
  intros Hv Hr. unfold after_check. specialize (Hv (p_mem s)). destruct (v n (p_mem s)) as [m' o]. cbn [snd] in Hv.
  destruct o as [[|]|e| | |]; cbn [snd]; auto.
  - now left.
  - destruct Hv as [Hv|Hv]; [|discriminate]. destruct e; try destruct Hv. now left.
  - destruct Hv as [[]|Hv]; discriminate.
  - now left.
  - now right.
Qed.

Lemma node_calm n parents pt v s s' r : leaf_ok n -> mild n -> good (p_args s) -> small (p_args s) ->
  (forall m, calm (snd (v n m))) ->
  node_result n parents pt v s (s', r) ->
  calm r /\ (forall x, r = Ok (Some x) -> good (p_args s')).
Proof.
  intros L Hm Hg Hf Hv HR. pose proof (not_chokes n (p_args s) Hm Hg Hf) as Hnc.
  remember (s', r) as o eqn:Eo. destruct HR as [label vals rest toks subs He _ Hc _ _|_ _|c d _ _ _ _|y x Hc _|_ H1 H2 H3]; try easy.
  - assert (Hcalm : calm (snd (after_check v n s rest (Ok (Some (Target n parents toks subs))))))
      by (apply after_check_calm; [easy|now left]).
    rewrite Eo in Hcalm. split; [exact Hcalm|]. intros x ->. unfold after_check in Eo.
    destruct (v n (p_mem s)) as [m' [[|]|e| | |]]; injection Eo as <- E; try discriminate.
    now apply (consumes_good n (p_args s) label vals).
  - injection Eo as <- <-. split; [now left|]. discriminate.
  - assert (Hcalm : calm (snd (after_check v n s (p_args s) (@Throw (option target) (EML c d)))))
      by (apply after_check_calm; [easy|now left]).
    rewrite Eo in Hcalm. split; [exact Hcalm|]. intros x ->. unfold after_check in Eo.
    destruct (v n (p_mem s)) as [m' [[|]|e| | |]]; injection Eo as <- E; discriminate.
  - exfalso. apply Hnc. now apply (breaks_chokes n _ x).
  - exfalso. apply Hnc. right. right. exact (conj H1 (conj H3 H2)).
Qed.

Lemma checks_calm m seen front i l mem : calm (snd (checks m seen front i l mem)).
Proof.
  assert (Hv : forall already mem0, calm (snd (verify_match already front l mem0))).
  { intros already mem0. left. unfold verify_match. cbn [snd].
    destruct (has_multi_stage l), (is_named l), already; exact I. }
  unfold checks. destruct (nth_error _ _) as [c|]; [|apply Hv]. unfold wrap. destruct (n_kind c); try apply Hv.
  unfold one_of_validator. destruct (mem_get mem inst); [|apply Hv]. destruct (N.eqb _ _); [apply Hv|now left].
Qed.

Lemma unknown_calm n t : (forall d s, In d (below n) ->
    long_name d = Some s \/ short_name d = Some s \/ none_name d = Some s -> readable s) ->
  good_token t -> forall A, calm (@unknown_argument_exception A n t).
Proof.
  intros Hn Ht A. unfold unknown_argument_exception, closest_matching_child_node.
  set (tok := t_name _).
  assert (Htok : graphemes tok <> None).
  { apply readable_decodable. unfold tok. pose proof (gt_readable t Ht) as Hr.
    destruct (t_prefix t); try exact Hr. unfold get_token_type.
    destruct (starts_with long_prefix (t_name t)) eqn:E1; cbn [t_name].
    - apply starts_with_app in E1 as (y & E1). rewrite E1 in *. cbn [skipn app List.length long_prefix].
      apply (readable_split [] "-"%char ("-"%char :: y)) in Hr as [_ Hr]; [|apply dash_ascii].
      apply (readable_split [] "-"%char y) in Hr as [_ Hr]; [|apply dash_ascii]. exact Hr.
    - destruct (starts_with short_prefix (t_name t)) eqn:E2; cbn [t_name]; [|exact Hr].
      apply starts_with_app in E2 as (y & E2). rewrite E2 in *. cbn [skipn app List.length short_prefix].
      now apply (readable_split [] "-"%char y) in Hr as [_ Hr]; [|apply dash_ascii]. }
  assert (Htry : forall p nm above bst, (forall s, nm = Some s -> readable s) ->
            exists b', try_name tok p nm above bst = Ok b').
  { intros p nm above bst H. unfold try_name. destruct nm as [s|]; [|eauto].
    pose proof (readable_decodable s (H s eq_refl)). unfold levenshtein_distance.
    destruct (graphemes tok), (graphemes s); try easy. eauto. }
  assert (Hfold : forall l bst, (forall np, In np l -> In (fst np) (below n)) -> exists b', closest_fold tok l bst = Ok b').
  { induction l as [|[d ps] l IH]; intros bst Hl; cbn [closest_fold]; [eauto|].
    assert (Hd : In d (below n)) by (apply (Hl (d, ps)); now left).
    assert (Hvis : exists b', closest_visit tok (d, ps) bst = Ok b').
    { unfold closest_visit. destruct ps as [|p ps]; [eauto|]. destruct (is_runtime_disabled _); [eauto|].
      destruct (Htry PLong (long_name d) (removelast (p :: ps)) bst) as [b1 ->]; [intros s Es; apply (Hn d s Hd); auto|].
      cbn [rbind].
      destruct (Htry PShort (short_name d) (removelast (p :: ps)) b1) as [b2 ->]; [intros s Es; apply (Hn d s Hd); auto|].
      cbn [rbind]. apply Htry. intros s Es; apply (Hn d s Hd); auto. }
    destruct Hvis as [b1 ->]. cbn [rbind]. apply IH. intros np Hnp. apply Hl. now right. }
  destruct (Hfold (preorder n []) None) as [bst ->].
  { intros np Hnp. unfold below. now apply in_map. }
  cbn [rbind]. left. destruct bst as [[d ts]|]; cbn; [|exact I]. destruct ts; exact I.
Qed.

Section Loop.
Variables (m : node) (tp parents : list node).
Hypotheses (Hs : sub_ok m tp) (Hm : is_mode m = true)
           (Hsane : forall l, In l (below m) -> is_argument l = true -> sane l)
           (Hmild : forall l, In l (below m) -> mild l)
           (Hnames : forall d s, In d (below m) ->
              long_name d = Some s \/ short_name d = Some s \/ none_name d = Some s -> readable s).

Lemma flat_calm tg seen front : forall es s s' r, (forall a, In a es -> In a (entries m)) ->
  p_args s <> [] -> good (p_args s) -> small (p_args s) ->
  flat_try m parents seen front tg es s = (s', r) ->
  calm r /\ (r = Ok None -> p_args s' = p_args s)
  /\ (forall x, r = Ok (Some x) -> good (p_args s') /\ small (p_args s')).
Proof.
  induction es as [|[i l] es IH]; intros s s' r Hes Hne Hg Hf H; cbn [flat_try] in H.
  - injection H as <- <-. split; [now left|]. split; [easy|discriminate].
  - assert (Hin : In (i, l) (entries m)) by (apply Hes; now left).
    pose proof (entry_facts m tp parents i l Hs Hm Hin) as E.
    pose proof (entry_below m i l Hin) as Hb. pose proof (eo_leaf _ _ _ E) as [_ L HC].
    apply mbind_inv in H as (s1 & r1 & H1 & H2).
    assert (HR : node_result l (m :: parents) (Some tg) (checks m seen front i) s (s1, r1)).
    { rewrite <- H1. apply node_exact; auto; try (now apply small_fits).
      - apply Hsane; [easy|]. now apply entries_in in Hin as (c & _ & _ & _ & Hk).
      - apply E.
      - intros ns Hal. split; [now apply (eo_alias _ _ _ E ns)|]. now rewrite (eo_near _ _ _ E).
      - intros ns _. rewrite (eo_near' _ _ _ E). easy. }
    apply node_calm in HR as [HR1 HR2]; auto; [|intros; apply checks_calm].
    destruct r1 as [[t|]|e| | |].
    + injection H2 as <- <-. split; [now left|]. split; [discriminate|]. intros x _.
      split; [now apply (HR2 t)|]. apply node_progress in H1; auto; [|now apply small_fits]. unfold small in *. clear - H1 Hf. lia.
    + apply node_pre_parse_inv in H1. apply IH in H2; rewrite ?H1; auto.
      * now rewrite H1 in H2.
      * intros a Ha. apply Hes. now right.
    + destruct H2 as [-> ->]. split; [|split; discriminate].
      destruct HR1 as [HR1|HR1]; [|discriminate]. now left.
    + destruct HR1 as [[]|HR1]; discriminate.
    + destruct H2 as [-> ->]. split; [now left|]. split; discriminate.
    + destruct H2 as [-> ->]. split; [now right|]. split; discriminate.
Qed.

Lemma loop_calm f fuel : forall tg seen s, good (p_args s) -> small (p_args s) ->
  calm (snd (mode_loop fuel m (map (fun c => (c, pre_parse f c (m :: parents))) (n_children m)) tg seen s)).
Proof.
  induction fuel as [|fuel IH]; intros tg seen s Hg Hf; cbn [mode_loop];
    (destruct (p_args s) as [|t0 ts0] eqn:Ea; [now left|]); [now right|].
  rewrite <- Ea in Hg, Hf.
  assert (Hne : p_args s <> []) by (rewrite Ea; discriminate).
  assert (Hflat : forall s0, mode_try (map (fun c => (c, pre_parse f c (m :: parents))) (n_children m)) 0 seen t0 tg s0
                  = flat_try m parents seen t0 tg (entries m) s0).
  { intros s0. apply (mode_try_flat f m tp). intros j c Hj. split; [easy|].
    assert (Hc : In c (n_children m)) by (eapply nth_error_In; exact Hj).
    split; [now apply sub_ok_child|]. apply (not_root c (m :: tp)); [|easy].
    apply sub_ok_self. now apply sub_ok_child. }
  unfold mbind. rewrite Hflat. destruct (flat_try _ _ _ _ _ _ s) as [s1 r1] eqn:E.
  apply flat_calm in E as (H1 & H2 & H3); auto.
  destruct r1 as [[[i t]|]|e| | |]; cbn [snd].
  - destruct (H3 _ eq_refl) as [H4 H5]. now apply IH.
  - destruct (forallb _ seen); cbn [snd]; [now left|]. apply unknown_calm; [exact Hnames|].
    apply Hg. rewrite Ea. now left.
  - destruct H1 as [H1|H1]; [|discriminate]. now left.
  - destruct H1 as [[]|H1]; discriminate.
  - now left.
  - now right.
Qed.
End Loop.

Lemma names_mode_good m ts rest : names_mode m ts rest -> good ts -> good rest.
Proof. intros (_ & nm & _ & ->) H u Hu. apply H. now right. Qed.

Lemma names_mode_small m ts rest : names_mode m ts rest -> small ts -> small rest.
Proof.
  intros (_ & nm & _ & ->) H. unfold small in *. rewrite args_weight_cons in H. clear - H. lia.
Qed.

Lemma selects_good m ps ts m' ps' ts' : selects m ps ts m' ps' ts' -> good ts -> good ts'.
Proof. induction 1; intros Hg; eauto using names_mode_good. Qed.

Lemma selects_small m ps ts m' ps' ts' : selects m ps ts m' ps' ts' -> small ts -> small ts'.
Proof. induction 1; intros Hg; eauto using names_mode_small. Qed.

Lemma root_orderly r mem argv : accepted r = true -> countless_modes r -> sane_tree r -> harmless r ->
  proper argv -> small (to_tokens argv) -> argv <> [] \/ named_top r ->
  orderly (o_res (root_parse_strings r mem argv)).
Proof.
  intros Ha Hcm Hsane Hh Hp Hf Hne. unfold root_parse_strings.
  assert (Hg : good (to_tokens argv)).
  { intros t Ht. apply in_map_iff in Ht as (a & <- & Hin). destruct (Hp a Hin). constructor; cbn; easy. }
  assert (Hmild : forall n, In n (below r) -> mild n).
  { intros n Hn. split; [now apply (hl_enabled r Hh)|]. intros sep Hsep. now apply (hl_separators r Hh). }
  assert (Hc : calm (o_res (root_parse r mem (to_tokens argv)))).
  { apply (class_root (@calm)).
    - now left.
    - now left.
    - now left.
    - exact calm_bind.
    - easy.
    - intros n Hn _ cl s Hk. left. now apply (hl_parsers r Hh n cl).
    - intros c s s' o Hin Hs Ho. pose proof (root_child r c Ha Hin) as [Hok Hk].
      assert (Hsub : forall d, In d (below c) -> In d (below r)) by (intros d; now apply below_child).
      destruct (is_mode c) eqn:Em.
      + destruct (mode_selected (root_fuel (to_tokens argv)) c [r] [r] None s Hok Em (plain_modes_sub r c Hcm Hin))
          as [(m & ps & ts' & tp' & Hsel & Hmm & Hb & Hsm & Heq)|(_ & _ & Heq)]; rewrite Heq in Ho.
        * rewrite Hs in Hsel. pose proof (selects_good _ _ _ _ _ _ Hsel Hg) as Hg'.
          assert (Hf' : small ts') by exact (selects_small _ _ _ _ _ _ Hsel Hf).
          replace o with (snd (mode_start (root_fuel (to_tokens argv)) m ps (PS ts' (p_mem s)))) by now rewrite Ho.
          assert (Hsub' : forall d, In d (below m) -> In d (below r)) by (intros d Hd; apply Hsub; now apply (below_trans c m)).
          apply (loop_calm m tp' ps); auto.
          -- intros d x Hd. now apply (hl_names r Hh), Hsub'.
        * injection Ho as <- <-. now left.
      + destruct Hk as [Hk|(L & _ & Hal & Hkind)]; [congruence|]. rewrite leaf_pre_parse in Ho by apply L.
        assert (Hdep := top_no_dependent r c).
        destruct (p_args s) as [|t0 ts0] eqn:Ea.
        * destruct argv; [|discriminate]. destruct Hne as [?|Hn]; [easy|]. destruct (Hn c Hin) as [?|Hnm]; [congruence|].
          destruct s as [a mem0]. cbn [p_args] in Ea. subst a.
          rewrite empty_named in Ho by (auto; intros ns; now apply Hdep). injection Ho as <- <-. now left.
        * rewrite <- Ea in Hs. assert (Hne' : p_args s <> []) by (rewrite Ea; discriminate). rewrite <- Hs in Hg, Hf.
          assert (HR : node_result c [r] None always_true s (s', o)).
          { rewrite <- Ho. apply node_exact; auto; try apply L; try (now apply small_fits).
            - apply Hsane; [apply Hsub, below_self|].
              unfold is_argument. destruct L as [L _ _]. unfold is_leaf in L. now destruct (n_kind c).
            - apply (leaf_count c [r]); [now apply sub_ok_self|apply L].
            - intros ns H. now apply Hal in H.
            - intros ns H. now apply Hdep in H. }
          apply node_calm in HR; auto; [apply HR|apply L|apply Hmild, Hsub, below_self|]. intros; now left.
    - intros c s s' toks ps subs _ _ _ _ _. left.
      assert (Hen : forall n, In n (below r) -> enabled n) by apply Hh. clear - Hen.
      revert r Hen. induction toks as [|t ts IH]; intros r Hen; cbn [find_help_target];
        pose proof (Hen r (below_self r)) as Hr; unfold enabled in Hr;
        destruct (runtime_enabled r) as [[|]|]; try easy;
        (destruct (find _ _) as [c|] eqn:E; [|exact I]); apply find_some in E as [E _]; apply IH; intros n Hn;
        apply Hen; now apply (below_child c).
    - intros t ts E _. apply unknown_calm; [apply (hl_names r Hh)|]. apply Hg. rewrite E. now left.
    - now left. }
  destruct Hc as [Hc|Hc]; [easy|]. exfalso. revert Hc. apply root_returns; auto; [now apply small_fits|].
  intros n cl s Hn Hk E. pose proof (hl_parsers r Hh n cl s Hn Hk) as H. rewrite E in H. destruct H.
Qed.

(** The pre-parse of a single node takes exactly the tokens that {!SpecTake} says. *)
From Verif Require Import Bytes Token Adapter Result CodePoint Utf8 Tree PreParse Root Validator.
From Verif Require Import SpecPolicy SpecTokens SpecTake SpecFault SpecMode SpecAdapter AdapterProofs TokenProofs OrderProofs PermProofs.
From Verif Require Import SpecUtf8 CodePointProofs Utf8Proofs NodeProofs.

(** ** Selecting the policies *)

Lemma pick_sep n : leaf_ok n ->
  match value_separator n with
  | None => pick is_separator (n_pols n) = []
  | Some sep => pick is_separator (n_pols n) = [PValueSeparator sep] /\ In (PValueSeparator sep) (n_pols n)
  end.
Proof.
  intros L. destruct (pick_cases is_separator (n_pols n)) as [E|(p & E & Hin & Hf)].
  - destruct (value_separator n) as [sep|] eqn:Es; [|easy]. exfalso.
    unfold value_separator in Es. apply first_some_in in Es as (q & Hq & Eq).
    unfold pick in E. destruct (find is_separator (n_pols n)) eqn:Ef; [easy|].
    pose proof (find_none _ _ Ef q Hq). destruct q; discriminate.
  - destruct p; try discriminate.
    replace (value_separator n) with (Some s); [easy|]. symmetry.
    eapply (policy_selected _ (pol_tag (PValueSeparator s))); [|apply L|exact Hin|easy].
    intros q z. now destruct q.
Qed.

Lemma pick_marker n : leaf_ok n ->
  match token_end_marker n with
  | None => pick is_marker (n_pols n) = []
  | Some m => pick is_marker (n_pols n) = [PTokenEndMarker m] /\ In (PTokenEndMarker m) (n_pols n)
  end.
Proof.
  intros L. destruct (pick_cases is_marker (n_pols n)) as [E|(p & E & Hin & Hf)].
  - destruct (token_end_marker n) as [sep|] eqn:Es; [|easy]. exfalso.
    unfold token_end_marker in Es. apply first_some_in in Es as (q & Hq & Eq).
    unfold pick in E. destruct (find is_marker (n_pols n)) eqn:Ef; [easy|].
    pose proof (find_none _ _ Ef q Hq). destruct q; discriminate.
  - destruct p; try discriminate.
    replace (token_end_marker n) with (Some s); [easy|]. symmetry.
    eapply (policy_selected _ (pol_tag (PTokenEndMarker s))); [|apply L|exact Hin|easy].
    intros q z. now destruct q.
Qed.

Lemma pick_count n : leaf_ok n ->
  match count_bounds n with
  | None => pick is_count (n_pols n) = []
  | Some (mn, mx) => pick is_count (n_pols n) = [PMinMaxCount mn mx] /\ (mn <= mx <= size_max)%N
  end.
Proof.
  intros L. destruct (pick_cases is_count (n_pols n)) as [E|(p & E & Hin & Hf)].
  - destruct (count_bounds n) as [[mn mx]|] eqn:Es; [|easy]. exfalso.
    unfold count_bounds in Es. apply first_some_in in Es as (q & Hq & Eq).
    unfold pick in E. destruct (find is_count (n_pols n)) eqn:Ef; [easy|].
    pose proof (find_none _ _ Ef q Hq). destruct q; discriminate.
  - destruct p; try discriminate. rewrite (count_selected _ _ _ (lo_tags _ L) Hin). split; [easy|].
    apply (lo_count _ L). now apply count_selected; [apply L|].
Qed.

Lemma pick_expander n : (pick is_expander (n_pols n) = [] /\ ~ In PShortFormExpander (n_pols n))
  \/ (pick is_expander (n_pols n) = [PShortFormExpander] /\ In PShortFormExpander (n_pols n)).
Proof.
  destruct (pick_cases is_expander (n_pols n)) as [E|(p & E & Hin & Hf)].
  - left. split; [easy|]. intros Hin. unfold pick in E. destruct (find _ _) eqn:Ef; [easy|].
    now pose proof (find_none _ _ Ef _ Hin).
  - right. destruct p; easy.
Qed.

(** ** The separator stage *)

Lemma find_first_of_none set s : find_first_of set s = None <-> forall d, In d set -> ~ In d s.
Proof.
  induction s as [|x s IH]; cbn [find_first_of]; [split; auto|].
  assert (Hm : mem_byte x set = true <-> In x set).
  { clear. induction set as [|y set IH]; cbn [mem_byte]; [easy|]. rewrite orb_true_iff, IH.
    rewrite Ascii.eqb_eq. cbn [In]. intuition congruence. }
  destruct (mem_byte x set) eqn:E.
  - split; [easy|]. intros H. exfalso. apply (H x); [now apply Hm|now left].
  - destruct (find_first_of set s).
    + split; [easy|]. intros H. destruct IH as [_ IH]. discriminate IH. intros d Hd Hin. apply (H d Hd). now right.
    + split; [|easy]. intros _ d Hd [->|Hin]; [|now apply IH in Hin].
      apply Hm in Hd. congruence.
Qed.

Lemma find_first_of_app set l c r : (forall d, In d set -> ~ In d l) -> In c set ->
  find_first_of set (l ++ c :: r) = Some (List.length l).
Proof.
  intros H Hc. assert (Hm : forall x, mem_byte x set = true <-> In x set).
  { clear. intros x. induction set as [|y set IH]; cbn [mem_byte]; [easy|]. rewrite orb_true_iff, IH.
    rewrite Ascii.eqb_eq. cbn [In]. intuition congruence. }
  induction l as [|x l IH]; cbn [app find_first_of List.length].
  - now rewrite (proj2 (Hm c) Hc).
  - destruct (mem_byte x set) eqn:E; [apply Hm in E; exfalso; apply (H x E); now left|].
    rewrite IH; [easy|]. intros d Hd Hin. apply (H d Hd). now right.
Qed.

Lemma find_first_of_in set s i : find_first_of set s = Some i -> exists c r, skipn i s = c :: r /\ In c set.
Proof.
  revert i. induction s as [|x s IH]; intros i; cbn [find_first_of]; [easy|].
  assert (Hm : mem_byte x set = true <-> In x set).
  { clear. induction set as [|y set IH]; cbn [mem_byte]; [easy|]. rewrite orb_true_iff, IH.
    rewrite Ascii.eqb_eq. cbn [In]. intuition congruence. }
  destruct (mem_byte x set) eqn:E.
  - intros [= <-]. exists x, s. split; [easy|]. now apply Hm.
  - destruct (find_first_of set s) as [j|]; [|easy]. intros [= <-]. cbn [skipn]. now apply IH.
Qed.

(** The separator phase, forwards and backwards. *)
Lemma sep_forward sep n p l c s v us : In c sep -> List.length (c :: s) = List.length sep ->
  (forall d, In d sep -> ~ In d l) -> v <> [] ->
  phase_value_separator sep n (Adp [] (Tok p (l ++ (c :: s) ++ v) :: us))
  = Ok (Adp [Tok p l; Tok PNone v] us, Act Valid).
Proof.
  intros Hc Hl Hno Hv. unfold phase_value_separator.
  cbn [a_empty a_proc a_unproc a_deref a_begin]. cbn [zlen List.length Z.of_nat Z.leb Z.compare].
  cbn [znth Z.sub Z.opp Z.add Z.ltb Z.compare Z.to_nat nth_error or_ub rbind t_name t_prefix].
  cbn [app]. rewrite find_first_of_app by easy.
  destruct (Nat.ltb_spec (List.length (l ++ c :: s ++ v)) (List.length l + List.length sep)) as [Hlt|_].
  { rewrite app_length in Hlt. cbn [List.length] in *. rewrite app_length in Hlt. lia. }
  assert (Hsk : skipn (List.length l + List.length sep) (l ++ c :: s ++ v) = v).
  { rewrite <- Hl, skipn_add, skipn_app_len. cbn [List.length skipn]. now rewrite skipn_app_len. }
  rewrite Hsk. destruct v as [|x v]; [easy|].
  rewrite insert_second. cbn [or_ub rbind]. rewrite set_front. cbn [or_ub rbind].
  rewrite firstn_app, Nat.sub_diag, firstn_all. cbn [firstn]. now rewrite app_nil_r.
Qed.

Lemma sep_backward sep n ts a' : ts <> [] -> sep <> [] ->
  phase_value_separator sep n (Adp [] ts) = Ok (a', Act Valid) ->
  exists p l c s v us, ts = Tok p (l ++ (c :: s) ++ v) :: us /\ a' = Adp [Tok p l; Tok PNone v] us
    /\ In c sep /\ List.length (c :: s) = List.length sep /\ (forall d, In d sep -> ~ In d l) /\ v <> [].
Proof.
  unfold phase_value_separator. intros Hne Hsep. destruct ts as [|[p nm] us]; [easy|].
  cbn [a_empty a_proc a_unproc a_deref a_begin]. cbn [zlen List.length Z.of_nat Z.leb Z.compare].
  cbn [znth Z.sub Z.opp Z.add Z.ltb Z.compare Z.to_nat nth_error or_ub rbind t_name t_prefix].
  destruct (find_first_of sep nm) as [i|] eqn:E.
  - destruct (Nat.ltb _ _) eqn:El; [discriminate|]. apply Nat.ltb_ge in El.
    destruct (skipn (i + List.length sep) nm) as [|x v] eqn:Ev; [discriminate|].
    rewrite insert_second. cbn [or_ub rbind]. rewrite set_front. cbn [or_ub rbind].
    intros [= <-].
    destruct (find_first_of_spec _ _ _ E) as [Hi Hn].
    destruct (find_first_of_in _ _ _ E) as (c & r & Hr & Hc).
    assert (Hfl : List.length (firstn (List.length sep) (skipn i nm)) = List.length sep)
      by (rewrite firstn_length, skipn_length; lia).
    destruct sep as [|s0 sep']; [easy|]. rewrite Hr in Hfl. cbn [List.length firstn] in Hfl.
    exists p, (firstn i nm), c, (firstn (List.length sep') r), (x :: v), us.
    split; [|split; [easy|]; split; [easy|]; split; [cbn [List.length]; lia|easy]].
    f_equal. f_equal. rewrite <- Ev, skipn_add, Hr. cbn [List.length skipn].
    cbn [app]. rewrite firstn_skipn. rewrite <- Hr. now rewrite firstn_skipn.
  - destruct (match_node n _); discriminate.
Qed.

(** ** The expander stage *)

Lemma candidate_group n t ft : In PShortFormExpander (n_pols n) -> short_candidate n t = Some ft ->
  exists nm, ft = Tok PShort nm
    /\ (t_prefix t = PShort /\ nm = t_name t
        \/ t_prefix t = PNone /\ t_name t = short_prefix ++ nm /\ starts_with long_prefix (t_name t) = false).
Proof.
  intros Hin. unfold short_candidate. destruct t as [[] nm0]; cbn [t_prefix t_name]; try discriminate.
  - intros [= <-]. eauto 10.
  - unfold node_get_token, get_token_type_for.
    destruct (is_some (long_name n) && starts_with long_prefix nm0) eqn:E1; [discriminate|].
    destruct (is_some (short_name n) && (starts_with short_prefix nm0 && negb (starts_with long_prefix nm0))) eqn:E2;
      [|discriminate].
    cbn [t_prefix]. intros [= <-]. apply andb_true_iff in E2 as [_ E2]. apply andb_true_iff in E2 as [E2 E3].
    exists (skipn (List.length short_prefix) nm0). split; [easy|]. right. split; [easy|]. split; [|now apply negb_true_iff].
    symmetry. now apply starts_with_skipn.
Qed.

Lemma group_candidate n t nm : (exists s, short_name n = Some s) ->
  (t_prefix t = PShort /\ nm = t_name t
   \/ t_prefix t = PNone /\ t_name t = short_prefix ++ nm /\ starts_with long_prefix (t_name t) = false) ->
  short_candidate n t = Some (Tok PShort nm).
Proof.
  intros (s & Hs) H. unfold short_candidate. destruct t as [[] nm0]; cbn [t_prefix t_name] in *.
  - destruct H as [[H _]|[H _]]; discriminate.
  - destruct H as [[_ ->]|[H _]]; [easy|discriminate].
  - destruct H as [[H _]|(_ & -> & H)]; [discriminate|].
    unfold node_get_token, get_token_type_for. rewrite H, Hs, andb_false_r. cbn [is_some negb andb].
    rewrite (proj2 (starts_with_app short_prefix (short_prefix ++ nm))) by eauto. cbn [andb]. reflexivity.
Qed.

Lemma front_transfer a t value us : transfer a a_begin = Adp (t :: value) us ->
  a_empty a = false /\ a_all a = t :: value ++ us /\ a_deref a a_begin = Some t.
Proof.
  intros H. assert (Ha : a_all a = t :: value ++ us) by (rewrite <- (transfer_all a a_begin), H; reflexivity).
  split; [|split; [easy|]].
  - destruct a as [[|x pr] [|y un]]; easy.
  - rewrite a_deref_begin, Ha. reflexivity.
Qed.

Lemma exp_none n a t value us : leaf_ok n -> In PShortFormExpander (n_pols n) ->
  transfer a a_begin = Adp (t :: value) us ->
  (forall nm, ~ group_for n t nm) -> phase_short_form n a = Ok (a, Act Valid).
Proof.
  intros L Hin Ht Hno. destruct (front_transfer _ _ _ _ Ht) as (He & _ & Hd).
  unfold phase_short_form. rewrite He, Hd. cbn [or_ub rbind].
  destruct (short_candidate n t) as [ft|] eqn:Ec; [|easy].
  destruct (lo_exp _ L Hin) as (sn & Hsn). rewrite Hsn.
  destruct (candidate_group n t ft Hin Ec) as (nm & -> & Hc). cbn [t_name].
  destruct (Nat.eqb_spec (List.length nm) (List.length sn)) as [|Hlen]; [easy|].
  exfalso. apply (Hno nm). split; [easy|]. split; [easy|]. intros s Es. rewrite Hsn in Es. now injection Es as <-.
Qed.

Lemma exp_some n a t value us nm : leaf_ok n -> In PShortFormExpander (n_pols n) ->
  transfer a a_begin = Adp (t :: value) us -> group_for n t nm ->
  phase_short_form n a =
  if N.ltb vec_max_size (size_pred (nlen us + nlen nm)) then Throw ELengthError
  else (gs <- or_ub (graphemes nm) ;;
        Ok (Adp (Tok PShort (match gs with [] => [] | g :: _ => g end) :: value) (map (Tok PShort) (tl gs) ++ us),
            Act Valid))%res.
Proof.
  intros L Hin Ht (_ & Hg & Hlen). destruct (front_transfer _ _ _ _ Ht) as (He & _ & Hd).
  destruct (lo_exp _ L Hin) as (sn & Hsn).
  unfold phase_short_form. rewrite He, Hd. cbn [or_ub rbind].
  rewrite (group_candidate n t nm) by eauto. rewrite Hsn. cbn [t_name].
  destruct (Nat.eqb_spec (List.length nm) (List.length sn)) as [E|_]; [now apply Hlen in E|].
  rewrite Ht. cbn [a_unproc a_proc]. destruct (N.ltb _ _); [easy|].
  destruct (graphemes nm) as [gs|]; [|easy]. cbn [or_ub rbind]. rewrite set_front. reflexivity.
Qed.

Lemma group_dec n t : leaf_ok n -> (exists nm, group_for n t nm) \/ (forall nm, ~ group_for n t nm).
Proof.
  intros L. destruct (pick_expander n) as [[_ H]|[_ Hin]]; [right; intros nm [H' _]; easy|].
  destruct (lo_exp _ L Hin) as (sn & Hsn).
  destruct (short_candidate n t) as [ft|] eqn:Ec.
  - destruct (candidate_group n t ft Hin Ec) as (nm & -> & Hc).
    destruct (Nat.eq_dec (List.length nm) (List.length sn)) as [E|E].
    + right. intros nm' (_ & Hc' & Hl). assert (nm' = nm).
      { assert (Hx : short_candidate n t = Some (Tok PShort nm')) by (apply group_candidate; eauto). congruence. }
      subst. now apply (Hl sn).
    + left. exists nm. split; [easy|]. split; [easy|]. intros s Hs. congruence.
  - right. intros nm (_ & Hc & _).
    assert (Hx : short_candidate n t = Some (Tok PShort nm)) by (apply group_candidate; eauto). congruence.
Qed.

(** ** The end marker and count stages *)

Lemma nlen_app {A} (x y : list A) : nlen (x ++ y) = (nlen x + nlen y)%N.
Proof. unfold nlen. rewrite app_length. lia. Qed.
Lemma nlen_cons {A} (x : A) y : nlen (x :: y) = (1 + nlen y)%N.
Proof. unfold nlen. cbn [List.length]. lia. Qed.

Lemma transfer_firstn a k : (Z.of_nat (List.length (a_proc a)) <= k + 1)%Z ->
  (0 <= k)%Z -> a_all a <> [] ->
  transfer a (IAt k) = Adp (firstn (Z.to_nat (k + 1)) (a_all a)) (skipn (Z.to_nat (k + 1)) (a_all a)).
Proof.
  intros Hp Hk Hne.
  destruct (Z.ltb_spec k (a_size a)) as [Hs|Hs].
  - rewrite transfer_at; [easy|lia|unfold zlen; lia].
  - assert (Hl : (List.length (a_all a) <= Z.to_nat (k + 1))%nat).
    { rewrite a_size_all in Hs. unfold zlen in Hs. lia. }
    rewrite firstn_all2, skipn_all2 by easy. apply transfer_end. cbn [is_end]. lia.
Qed.

Definition width (n : node) : nat := if is_named n then 1 else 0.

Lemma offset_some n c : (c <= size_max)%N ->
  count_offset n c = if N.eqb c size_max then size_max else (c + N.of_nat (width n))%N.
Proof. unfold count_offset, width. intros H. destruct (N.eqb_spec c size_max) as [->|]; [easy|]. now destruct (is_named n). Qed.

Lemma count_plain_exact n mn mx a l us :
  token_end_marker n = None -> (mn <= mx <= size_max)%N -> is_named n = true \/ (1 <= mx)%N ->
  a_all a = l ++ us -> List.length l = width n -> l ++ us <> [] ->
  (nlen (a_proc a) <= nlen l + N.min mx (nlen us))%N -> (nlen (l ++ us) < 9223372036854775808)%N ->
  ((nlen us < mn)%N -> phase_min_max_count mn mx n a = (a, Err minimum_count_not_reached [node_token n]))
  /\ ((mn <= nlen us)%N -> forall vals rest, us = vals ++ rest -> nlen vals = N.min mx (nlen us) ->
       phase_min_max_count mn mx n a = (Adp (l ++ vals) rest, Act Valid)).
Proof.
  intros Hm Hb Hmx Ha Hl Hne Hp Hf. unfold phase_min_max_count. rewrite Hm. cbn [is_some andb].
  rewrite !offset_some by lia. rewrite a_size_all, Ha.
  assert (Hnum : Z.to_N (zlen (l ++ us)) = nlen (l ++ us)) by (unfold zlen, nlen; lia). rewrite Hnum.
  assert (Hw : N.of_nat (width n) = nlen l) by (unfold nlen; lia). rewrite Hw.
  assert (Hpos : (1 <= nlen (l ++ us))%N) by (destruct (l ++ us); [easy|rewrite nlen_cons; lia]).
  rewrite nlen_app in *. unfold size_max in *.
  set (mn' := if N.eqb mn _ then _ else _).
  assert (Hmn : N.ltb (nlen l + nlen us) mn' = N.ltb (nlen us) mn)
    by (unfold mn'; destruct (N.eqb_spec mn 18446744073709551615); destruct (N.ltb_spec (nlen us) mn);
        destruct (N.ltb_spec (nlen l + nlen us)
          (if N.eqb mn 18446744073709551615 then 18446744073709551615 else mn + nlen l)%N); lia).
  set (mx' := if N.eqb mx _ then _ else _). rewrite Hmn. split.
  - intros Hlt. destruct (N.ltb_spec (nlen us) mn); [|lia]. reflexivity.
  - intros Hle vals rest -> Hv. destruct (N.ltb_spec (nlen (vals ++ rest)) mn); [lia|]. f_equal.
    rewrite nlen_app in *.
    assert (Hmx' : (1 <= mx')%N).
    { unfold mx'. destruct (N.eqb_spec mx 18446744073709551615); [lia|].
      destruct Hmx as [Hmx|Hmx]; [|lia]. unfold width in Hw. rewrite Hmx in Hw. lia. }
    set (k := N.min (size_pred mx') (size_pred (nlen l + (nlen vals + nlen rest)))).
    assert (Hk : (k + 1 = nlen l + nlen vals)%N).
    { unfold k, size_pred. destruct (N.eqb_spec mx' 0); [lia|].
      destruct (N.eqb_spec (nlen l + (nlen vals + nlen rest)) 0); [lia|].
      unfold mx'. destruct (N.eqb_spec mx 18446744073709551615); lia. }
    assert (Hkp : to_ptrdiff k = Z.of_N k) by (unfold to_ptrdiff; destruct (N.ltb_spec k 9223372036854775808); lia).
    rewrite Hkp. cbn [a_begin i_add Z.add].
    rewrite transfer_firstn; [|unfold nlen in *; lia|lia|now rewrite Ha].
    replace (Z.to_nat (Z.of_N k + 1)) with (List.length (l ++ vals)) by (rewrite app_length; unfold nlen in *; lia).
    rewrite Ha, app_assoc. rewrite firstn_app, Nat.sub_diag, firstn_all, skipn_app_len. cbn [firstn].
    now rewrite app_nil_r.
Qed.

Lemma count_marker_exact n mn mx m l vals rest :
  token_end_marker n = Some m -> (mn <= mx <= size_max)%N ->
  List.length l = width n -> (nlen (l ++ vals) < 9223372036854775808)%N ->
  ((nlen vals < mn \/ mx < nlen vals)%N ->
     exists e, phase_min_max_count mn mx n (Adp (l ++ vals) rest) = (Adp (l ++ vals) rest, Err e [node_token n])
       /\ (e = minimum_count_not_reached /\ (nlen vals < mn)%N \/ e = maximum_count_exceeded /\ (mx < nlen vals)%N))
  /\ ((mn <= nlen vals <= mx)%N -> is_named n = true \/ vals <> [] \/ (9223372036854775808 < mx)%N ->
     phase_min_max_count mn mx n (Adp (l ++ vals) rest) = (Adp (l ++ vals) rest, Act Valid)).
Proof.
  intros Hm Hb Hl Hf. unfold phase_min_max_count. rewrite Hm. cbn [is_some andb a_proc].
  rewrite !offset_some by lia.
  assert (Hw : N.of_nat (width n) = nlen l) by (unfold nlen; lia). rewrite Hw.
  rewrite nlen_app in *. unfold size_max in *.
  set (mn' := if N.eqb mn _ then _ else _). set (mx' := if N.eqb mx _ then _ else _).
  assert (Hmn : N.ltb (nlen l + nlen vals) mn' = N.ltb (nlen vals) mn)
    by (unfold mn'; destruct (N.eqb_spec mn 18446744073709551615); destruct (N.ltb_spec (nlen vals) mn);
        destruct (N.ltb_spec (nlen l + nlen vals)
          (if N.eqb mn 18446744073709551615 then 18446744073709551615 else mn + nlen l)%N); lia).
  assert (Hmx' : N.ltb mx' (nlen l + nlen vals) = N.ltb mx (nlen vals))
    by (unfold mx'; destruct (N.eqb_spec mx 18446744073709551615); destruct (N.ltb_spec mx (nlen vals));
        destruct (N.ltb_spec
          (if N.eqb mx 18446744073709551615 then 18446744073709551615 else mx + nlen l)%N (nlen l + nlen vals)); lia).
  rewrite Hmn, Hmx'. split.
  - intros H. destruct (N.ltb_spec mx (nlen vals)); [eauto 6|]. destruct (N.ltb_spec (nlen vals) mn); [eauto 6|lia].
  - intros H Hmx. destruct (N.ltb_spec mx (nlen vals)); [lia|]. destruct (N.ltb_spec (nlen vals) mn); [lia|]. f_equal.
    unfold transfer. cbn [a_begin i_add Z.add a_proc a_unproc].
    match goal with |- (if (?i <? 0)%Z || _ then _ else _) = _ =>
      assert (Hi : (i < 0 \/ i < zlen (l ++ vals))%Z);
      [|destruct (Z.ltb_spec i 0); [easy|]; destruct (Z.ltb_spec i (zlen (l ++ vals))); [easy|lia]] end.
    set (k := N.min _ _).
    assert (Hz : (nlen l + nlen vals = 0)%N \/ (1 <= nlen l + nlen vals)%N) by lia.
    destruct Hz as [Hz|Hz].
    + left. destruct Hmx as [Hmx|[Hmx|Hmx]]; [unfold width in Hw; rewrite Hmx in Hw; lia| |].
      { exfalso. apply Hmx. assert (Hv0 : nlen vals = 0%N) by lia. destruct vals; [reflexivity|].
        rewrite nlen_cons in Hv0. lia. }
      assert (Hk : (9223372036854775808 <= k < 18446744073709551616)%N).
      { unfold k, mx', size_pred. rewrite Hz. cbn [N.eqb].
        destruct (N.eqb_spec mx 18446744073709551615); [unfold size_max; cbn; lia|].
        destruct (N.eqb_spec (mx + nlen l) 0); unfold size_max; lia. }
      assert (Hkp : (to_ptrdiff k < 0)%Z).
      { unfold to_ptrdiff, size_mod. destruct (N.ltb_spec k 9223372036854775808); lia. }
      destruct (Z.leb_spec (a_size (Adp (l ++ vals) rest)) (to_ptrdiff k)); [|lia].
      unfold a_size, zlen in *; cbn [a_proc a_unproc] in *; lia.
    + right. assert (Hk : (k <= nlen l + nlen vals - 1)%N).
      { unfold k, size_pred. destruct (N.eqb_spec (nlen l + nlen vals) 0); lia. }
      assert (Hkp : to_ptrdiff k = Z.of_N k) by (unfold to_ptrdiff; destruct (N.ltb_spec k 9223372036854775808); lia).
      rewrite Hkp. unfold a_size, zlen in *. cbn [a_proc a_unproc]. rewrite app_length.
      unfold nlen in *. destruct (Z.leb_spec (Z.of_nat (List.length l + List.length vals) + Z.of_nat (List.length rest)) (Z.of_N k)); lia.
Qed.

Lemma split_at_most (mx : N) (u : list token) : exists vals rest, u = vals ++ rest /\ (nlen vals <= mx)%N
  /\ (rest <> [] -> nlen vals = mx).
Proof.
  destruct (N.le_gt_cases (nlen u) mx) as [H|H].
  - exists u, []. rewrite app_nil_r. easy.
  - exists (firstn (N.to_nat mx) u), (skipn (N.to_nat mx) u). split; [symmetry; apply firstn_skipn|].
    assert (E : nlen (firstn (N.to_nat mx) u) = mx) by (unfold nlen in *; rewrite firstn_length; lia).
    rewrite E. split; [lia|easy].
Qed.

(** A node without a name whose end marker was in front: nothing was transferred. *)
Lemma count_front_exact n mx m vals rest :
  token_end_marker n = Some m -> is_named n = false -> (1 <= mx <= 9223372036854775808)%N ->
  (nlen (vals ++ rest) < 9223372036854775808)%N -> (nlen vals <= mx)%N -> (rest <> [] -> nlen vals = mx) ->
  phase_min_max_count 0 mx n (Adp [] (vals ++ rest)) = (Adp vals rest, Act Valid).
Proof.
  intros Hm Hn Hb Hf Hle Hfull. unfold phase_min_max_count. rewrite Hm. cbn [is_some andb a_proc].
  rewrite !offset_some by (unfold size_max; lia).
  assert (Hw : N.of_nat (width n) = 0%N) by (unfold width; now rewrite Hn). rewrite Hw.
  destruct (N.eqb_spec mx size_max) as [E|_]; [unfold size_max in E; lia|]. rewrite N.add_0_r.
  change (nlen []) with 0%N. destruct (N.ltb_spec mx 0); [lia|].
  change (N.ltb 0 (if N.eqb 0 size_max then size_max else (0 + 0)%N)) with false. cbv iota. f_equal.
  set (k := N.min _ _).
  assert (Hk : k = (mx - 1)%N).
  { unfold k, size_pred. destruct (N.eqb_spec mx 0); [lia|]. cbn [N.eqb]. unfold size_max. lia. }
  assert (Hkp : to_ptrdiff k = (Z.of_N mx - 1)%Z)
    by (rewrite Hk; unfold to_ptrdiff; destruct (N.ltb_spec (mx - 1) 9223372036854775808); lia).
  rewrite Hkp. clearbody k. clear k Hk Hkp.
  unfold transfer. cbn [a_begin i_add Z.add a_proc a_unproc]. unfold a_size, zlen. cbn [a_proc a_unproc List.length].
  rewrite app_length. unfold nlen in *. rewrite app_length in Hf.
  destruct rest as [|x rest].
  - rewrite !app_nil_r. cbn [List.length] in *. rewrite Nat.add_0_r.
    match goal with |- context [(?x <=? ?y)%Z] => destruct (Z.leb_spec x y) as [Hx|Hx] end.
    + destruct vals as [|v vals]; [reflexivity|]. cbn [List.length] in *.
      match goal with |- (if (?i <? 0)%Z || (?i <? ?j)%Z then _ else _) = _ =>
        destruct (Z.ltb_spec i 0); [lia|]; destruct (Z.ltb_spec i j); [lia|] end. cbn [orb].
      match goal with |- context [firstn ?c _] => replace c with (S (List.length vals)) by lia end.
      rewrite firstn_all2, skipn_all2 by (cbn [List.length]; lia). reflexivity.
    + match goal with |- (if (?i <? 0)%Z || (?i <? ?j)%Z then _ else _) = _ =>
        destruct (Z.ltb_spec i 0); [lia|]; destruct (Z.ltb_spec i j); [lia|] end. cbn [orb].
      match goal with |- context [firstn ?c _] => replace c with (List.length vals) by lia end.
      rewrite firstn_all2, skipn_all2 by lia. reflexivity.
  - specialize (Hfull ltac:(discriminate)). cbn [List.length] in *.
    match goal with |- context [(?x <=? ?y)%Z] => destruct (Z.leb_spec x y); [lia|] end.
    match goal with |- (if (?i <? 0)%Z || (?i <? ?j)%Z then _ else _) = _ =>
      destruct (Z.ltb_spec i 0); [lia|]; destruct (Z.ltb_spec i j); [lia|] end. cbn [orb].
    match goal with |- context [firstn ?c _] => replace c with (List.length vals) by lia end.
    rewrite skipn_app_len, firstn_app, Nat.sub_diag, firstn_all. cbn [firstn app]. rewrite app_nil_r. reflexivity.
Qed.

(** ** The stages together *)

Section Stages.
Variables (n : node) (pt : option target) (tg : target) (parents : list node).
Hypothesis L : leaf_ok n.

Let run ps a := run_policies ps a pt tg n parents (Act Valid).

Lemma cut_phase sep p l c s us : In c sep -> (forall d, In d sep -> ~ In d l) ->
  List.length (c :: s) < List.length sep ->
  phase_value_separator sep n (Adp [] (Tok p (l ++ c :: s) :: us)) = Throw EOutOfRange.
Proof.
  intros Hc Hno Hl. unfold phase_value_separator.
  cbn [a_empty a_proc a_unproc a_deref a_begin]. cbn [zlen List.length Z.of_nat Z.leb Z.compare].
  cbn [znth Z.sub Z.opp Z.add Z.ltb Z.compare Z.to_nat nth_error or_ub rbind t_name t_prefix].
  rewrite find_first_of_app by easy.
  destruct (Nat.ltb_spec (List.length (l ++ c :: s)) (List.length l + List.length sep)) as [_|Hlt]; [easy|].
  rewrite app_length in Hlt. lia.
Qed.

Lemma sep_stage ts : ts <> [] ->
  (exists t value us a, fronted n ts t value us /\ run (pick is_separator (n_pols n)) (Adp [] ts) = Ok (a, tg, Act Valid)
     /\ transfer a a_begin = Adp (t :: value) us /\ List.length (a_proc a) <= 1 + List.length value
     /\ ~ cut_short n ts /\ ~ unsplit n ts)
  \/ (forall t value us, ~ fronted n ts t value us)
     /\ (cut_short n ts /\ run (pick is_separator (n_pols n)) (Adp [] ts) = Throw EOutOfRange
         \/ ~ cut_short n ts
            /\ (run (pick is_separator (n_pols n)) (Adp [] ts) = Ok (Adp [] ts, tg, Act Skip) /\ ~ unsplit n ts
                \/ exists t us, run (pick is_separator (n_pols n)) (Adp [] ts) = Ok (Adp [] ts, tg, Err missing_value_separator [node_token n])
                     /\ ts = t :: us /\ (match_node n (norm_token n t) = true -> unsplit n ts))).
Proof.
  intros Hne. pose proof (pick_sep n L) as Hp. destruct (value_separator n) as [sep|] eqn:Es.
  2:{ left. rewrite Hp. destruct ts as [|t us]; [easy|]. exists t, [], us, (Adp [] (t :: us)).
      split; [now constructor|]. split; [easy|]. split; [now rewrite transfer_begin|]. split; [cbn; lia|].
      split; [intros (sep & ? & ? & ? & ? & ? & E & _)|intros (sep & ? & ? & E & _)]; congruence. }
  destruct Hp as [-> Hin]. pose proof (lo_sepne _ L _ Hin) as Hsne.
  unfold run. cbn [run_policies pre_parse_phase].
  assert (Hfwd : forall t value us, fronted n ts t value us ->
            exists a, phase_value_separator sep n (Adp [] ts) = Ok (a, Act Valid)).
  { intros t value us Hf. inversion Hf as [? ? Hs|sep' p l c s v us' Hs Hc Hl Hno Hv]; subst; [congruence|].
    rewrite Es in Hs. injection Hs as <-. rewrite sep_forward by easy. eauto. }
  assert (Hcut : cut_short n ts -> phase_value_separator sep n (Adp [] ts) = Throw EOutOfRange).
  { intros (sep' & [p nm] & us & l & c & s & E & -> & Hn & Hno & Hc & Hl). rewrite Es in E. injection E as <-.
    cbn [t_name] in Hn. subst nm. now apply cut_phase. }
  assert (Huns : unsplit n ts -> phase_value_separator sep n (Adp [] ts) = Ok (Adp [] ts, Err missing_value_separator [node_token n])).
  { intros (sep' & [p nm] & us & E & -> & Hno & Hm & _). rewrite Es in E. injection E as <-.
    unfold phase_value_separator.
    cbn [a_empty a_proc a_unproc a_deref a_begin]. cbn [zlen List.length Z.of_nat Z.leb Z.compare].
    cbn [znth Z.sub Z.opp Z.add Z.ltb Z.compare Z.to_nat nth_error or_ub rbind t_name t_prefix] in *.
    rewrite (proj2 (find_first_of_none sep nm)) by easy. now rewrite Hm. }
  destruct (phase_value_separator sep n (Adp [] ts)) as [[a m]| | | |] eqn:E.
  - assert (Hm : m = Act Valid \/ a = Adp [] ts /\ (m = Act Skip \/ exists t us, m = Err missing_value_separator [node_token n] /\ ts = t :: us
                  /\ (match_node n (norm_token n t) = true -> unsplit n ts))).
    { clear Hfwd Hcut Huns. destruct ts as [|[p nm] us]; [easy|]. unfold phase_value_separator in E.
      cbn [a_empty a_proc a_unproc a_deref a_begin] in E. cbn [zlen List.length Z.of_nat Z.leb Z.compare] in E.
      cbn [znth Z.sub Z.opp Z.add Z.ltb Z.compare Z.to_nat nth_error or_ub rbind t_name t_prefix] in E.
      destruct (find_first_of sep nm) as [i|] eqn:Ef.
      - destruct (Nat.ltb _ _); [discriminate|]. destruct (skipn _ _); [injection E as <- <-; auto|].
        destruct (a_insert _ _ _) as [[]|]; [|discriminate]. cbn [or_ub rbind] in E.
        destruct (a_set _ _ _); [|discriminate]. cbn [or_ub rbind] in E. injection E as <- <-. now left.
      - right. destruct (match_node _ _) eqn:Em; injection E as <- <-; (split; [easy|]); [right|now left].
        exists (Tok p nm), us. split; [easy|]. split; [easy|]. intros Hq.
        exists sep, (Tok p nm), us. cbn [t_name t_prefix]. split; [easy|]. split; [easy|].
        split; [now apply find_first_of_none|]. split; [exact Em|exact Hq]. }
    destruct Hm as [->|[-> Hm]].
    + left. pose proof E as E'. apply sep_backward in E as (p & l & c & s & v & us & -> & -> & Hc & Hl & Hno & Hv); auto.
      exists (Tok p l), [Tok PNone v], us, (Adp [Tok p l; Tok PNone v] us).
      split; [now apply (front_split n sep)|]. cbn [rbind run_policies]. split; [easy|].
      rewrite transfer_begin. cbn [a_proc a_unproc List.length]. split; [easy|]. split; [easy|].
      split; intros Hx; [apply Hcut in Hx|apply Huns in Hx]; congruence.
    + right. split.
      * intros t value us Hf. destruct (Hfwd _ _ _ Hf) as [a' E']. injection E' as E1 E2. subst m.
        destruct Hm as [Hm|(? & ? & Hm & _)]; discriminate.
      * right. split; [intros Hx; apply Hcut in Hx; discriminate|].
        destruct Hm as [->|(t & us & -> & -> & Hq)]; [left|right].
        -- split; [easy|]. intros Hx. apply Huns in Hx. discriminate.
        -- exists t, us. split; [reflexivity|]. split; [easy|exact Hq].
  - right. split.
    { intros t value us Hf. destruct (Hfwd _ _ _ Hf) as [a' E']. discriminate. }
    left. clear Hfwd Hcut Huns. destruct ts as [|[p nm] us]; [easy|]. unfold phase_value_separator in E.
    cbn [a_empty a_proc a_unproc a_deref a_begin] in E. cbn [zlen List.length Z.of_nat Z.leb Z.compare] in E.
    cbn [znth Z.sub Z.opp Z.add Z.ltb Z.compare Z.to_nat nth_error or_ub rbind t_name t_prefix] in E.
    destruct (find_first_of sep nm) as [i|] eqn:Ef; [|destruct (match_node _ _); discriminate].
    destruct (Nat.ltb_spec (List.length nm) (i + List.length sep)) as [Hlt|_].
    + injection E as <-. split; [|reflexivity].
      destruct (find_first_of_spec _ _ _ Ef) as [Hi Hn].
      destruct (find_first_of_in _ _ _ Ef) as (c & r & Hr & Hc).
      exists sep, (Tok p nm), us, (firstn i nm), c, r. cbn [t_name].
      split; [easy|]. split; [easy|]. split; [rewrite <- Hr; symmetry; apply firstn_skipn|].
      split; [exact Hn|]. split; [easy|]. rewrite <- Hr, skipn_length. lia.
    + destruct (skipn _ _); [discriminate|].
      destruct (a_insert _ _ _) as [[]|]; [|discriminate]. cbn [or_ub rbind] in E.
      destruct (a_set _ _ _); discriminate.
  - exfalso. unfold phase_value_separator in E. destruct ts as [|[p nm] us]; [easy|].
    cbn [a_empty a_proc a_unproc a_deref a_begin] in E. cbn [zlen List.length Z.of_nat Z.leb Z.compare] in E.
    cbn [znth Z.sub Z.opp Z.add Z.ltb Z.compare Z.to_nat nth_error or_ub rbind t_name t_prefix] in E.
    destruct (find_first_of _ _); [|destruct (match_node _ _); discriminate].
    destruct (Nat.ltb _ _); [discriminate|]. destruct (skipn _ _); [discriminate|].
    rewrite insert_second in E. cbn [or_ub rbind] in E. rewrite set_front in E. discriminate.
  - exfalso. pose proof (phase_regular (PValueSeparator sep) (Adp [] ts) pt tg n parents _ eq_refl) as [Hx Hy].
    rewrite E in Hx, Hy. easy.
  - exfalso. pose proof (phase_regular (PValueSeparator sep) (Adp [] ts) pt tg n parents _ eq_refl) as [Hx Hy].
    rewrite E in Hx, Hy. easy.
Qed.

Lemma length_error (us : list token) (nm : bytes) : N.ltb vec_max_size (size_pred (nlen us + nlen nm)) = true <->
  us = [] /\ nm = [] \/ (vec_max_size + 1 < nlen us + nlen nm)%N.
Proof.
  rewrite N.ltb_lt. unfold size_pred. destruct (N.eqb_spec (nlen us + nlen nm) 0) as [E|E].
  - split; [|intros _; reflexivity]. intros _. left. unfold nlen in E.
    destruct us, nm; cbn [List.length] in E; split; try easy; lia.
  - split.
    + intros H. right. lia.
    + intros [[-> ->]|H]; [now destruct E|]. lia.
Qed.

Lemma exp_stage a t value us : transfer a a_begin = Adp (t :: value) us -> List.length (a_proc a) <= 1 + List.length value ->
  (exists nm, group_for n t nm
     /\ ((us = [] /\ nm = [] \/ (vec_max_size + 1 < nlen us + nlen nm)%N) /\ run (pick is_expander (n_pols n)) a = Throw ELengthError
         \/ ~ (us = [] /\ nm = [] \/ (vec_max_size + 1 < nlen us + nlen nm)%N) /\ graphemes nm = None
            /\ run (pick is_expander (n_pols n)) a = UB))
  \/ ~ bad_group n t us
     /\ ((exists t' us' a', grouped n t us t' us' /\ run (pick is_expander (n_pols n)) a = Ok (a', tg, Act Valid)
            /\ transfer a' a_begin = Adp (t' :: value) us' /\ List.length (a_proc a') <= 1 + List.length value)
         \/ (forall t' us', ~ grouped n t us t' us')
            /\ exists a', run (pick is_expander (n_pols n)) a = Ok (a', tg, Act Valid) /\ (exists s, short_name n = Some s)
                 /\ transfer a' a_begin = Adp (Tok PShort [] :: value) us /\ List.length (a_proc a') <= 1 + List.length value).
Proof.
  intros Ht Hlen. destruct (pick_expander n) as [[-> Hno]|[-> Hin]].
  - right. split; [intros (nm & [H _] & _); easy|]. left. exists t, us, a. split; [|easy]. constructor.
    intros nm [H _]. easy.
  - unfold run. cbn [run_policies pre_parse_phase].
    destruct (group_dec n t L) as [(nm & Hg)|Hno].
    + rewrite (exp_some n a t value us nm) by easy.
      assert (Huniq : forall nm', group_for n t nm' -> nm' = nm).
      { intros nm' (_ & Hg' & _). destruct Hg as (_ & Hg & _).
        assert (H1 := group_candidate n t nm (lo_exp _ L Hin) Hg).
        assert (H2 := group_candidate n t nm' (lo_exp _ L Hin) Hg'). congruence. }
      destruct (N.ltb _ _) eqn:El.
      { left. apply length_error in El. exists nm. split; [easy|]. now left. }
      assert (Hroom : ~ (us = [] /\ nm = [] \/ (vec_max_size + 1 < nlen us + nlen nm)%N)).
      { intros Hx. apply length_error in Hx. congruence. }
      destruct (graphemes nm) as [gs|] eqn:Eg; cbn [or_ub rbind run_policies].
      * right. split.
        { intros (nm' & Hg' & Hbad). rewrite (Huniq _ Hg') in Hbad. destruct Hbad as [Hbad|Hbad]; [congruence|easy]. }
        destruct gs as [|g gs].
        -- right. split.
           ++ intros t' us' H. inversion H as [? ? Hn|? nm' g gs ? Hn Hgs]; subst; [now apply (Hn nm)|].
              rewrite (Huniq _ Hn) in Hgs. congruence.
           ++ eexists. split; [reflexivity|]. split; [now apply (lo_exp _ L)|].
              rewrite transfer_begin. cbn. auto.
        -- left. exists (Tok PShort g), (map (Tok PShort) gs ++ us). eexists.
           split; [eapply group_some; eauto|]. split; [reflexivity|]. rewrite transfer_begin. cbn. auto.
      * left. exists nm. split; [easy|]. now right.
    + rewrite (exp_none n a t value us) by easy. right.
      split; [intros (nm & H & _); now apply Hno in H|]. left. exists t, us, a. cbn [rbind run_policies].
      split; [now constructor|]. easy.
Qed.

Lemma enable_stage a :
  (enabled n /\ run (pick is_enable (n_pols n)) a = Ok (a, tg, Act Valid))
  \/ (~ enabled n /\ run (pick is_enable (n_pols n)) a = Ok (a, tg, Act Skip)).
Proof.
  unfold enabled. unfold run. rewrite stage_enable.
  destruct (runtime_enabled n) as [[]|]; [left|right|left]; now split; [intros|].
Qed.

End Stages.

Lemma first_split {A} (P : A -> Prop) : forall x a y x' a' y',
  x ++ a :: y = x' ++ a' :: y' -> P a -> P a' -> (forall u, In u x -> ~ P u) -> (forall u, In u x' -> ~ P u) ->
  x = x' /\ a = a' /\ y = y'.
Proof.
  induction x as [|b x IH]; intros a y [|b' x'] a' y' E Ha Ha' Hx Hx'; cbn [app] in E; injection E as E1 E2.
  - auto.
  - subst. exfalso. apply (Hx' b'); [now left|easy].
  - subst. exfalso. apply (Hx a'); [now left|easy].
  - subst. destruct (IH a y x' a' y') as (-> & -> & ->); auto.
    + intros u Hu. apply Hx. now right.
    + intros u Hu. apply Hx'. now right.
Qed.

Lemma full_det (v1 r1 v2 r2 : list token) mx : v1 ++ r1 = v2 ++ r2 -> (nlen v1 <= mx)%N -> (nlen v2 <= mx)%N ->
  (r1 <> [] -> nlen v1 = mx) -> (r2 <> [] -> nlen v2 = mx) -> v1 = v2 /\ r1 = r2.
Proof.
  intros Hu Hb Hb' Hx Hx'.
  assert (Hl : nlen v1 = nlen v2).
  { pose proof Hu as E. apply (f_equal (@nlen token)) in E. rewrite !nlen_app in E.
    destruct r1 as [|x1 r1], r2 as [|x2 r2]; rewrite ?nlen_cons in E; unfold nlen in E at 2 4; cbn [List.length] in E.
    - lia.
    - rewrite Hx' in * by easy. lia.
    - rewrite Hx in * by easy. lia.
    - rewrite Hx, Hx' by easy. easy. }
  assert (List.length v1 = List.length v2) by (unfold nlen in Hl; lia).
  clear -Hu H. revert v2 Hu H. induction v1 as [|x v1 IH]; intros [|y v2] E Hl; try discriminate; [auto|].
  cbn [app] in E. injection E as -> E. injection Hl as Hl. destruct (IH v2 E Hl) as [-> ->]. auto.
Qed.

Lemma marker_not_front n u mx m p p' vals rest us : token_end_marker n = Some m ->
  is_named n = true \/ vals <> [] \/ (9223372036854775808 < mx)%N ->
  u = vals ++ Tok p m :: rest -> (forall x, In x vals -> t_name x <> m) ->
  is_named n = false -> (mx <= 9223372036854775808)%N -> u = Tok p' m :: us -> False.
Proof.
  intros _ [H|[H|H]] E Hno Hn Hx E'; [congruence| |lia].
  destruct vals as [|v vals]; [now apply H|]. rewrite E in E'. injection E' as -> _. now apply (Hno (Tok p' m)); [left|].
Qed.

Lemma counted_det n u v1 r1 v2 r2 : counted n u v1 r1 -> counted n u v2 r2 -> v1 = v2 /\ r1 = r2.
Proof.
  intros H1 H2.
  destruct H1 as [mn mx v1 r1 Hm Hc Hu Hb Hx|mn mx m p v1 r1 Hm Hc Hu Hno Hb Hf|mx m p v1 r1 Hm Hc Hn Hlt Hu Hb Hx|mn mx m Hm Hc Hno Hb];
    destruct H2 as [mn' mx' v2 r2 Hm' Hc' Hu' Hb' Hx'|mn' mx' m' p' v2 r2 Hm' Hc' Hu' Hno' Hb' Hf'|mx' m' p' v2 r2 Hm' Hc' Hn' Hlt' Hu' Hb' Hx'|mn' mx' m' Hm' Hc' Hno' Hb'];
    try congruence; rewrite Hc in Hc'; try (rewrite Hm in Hm'; injection Hm' as <-).
  - injection Hc' as <- <-. apply (full_det v1 r1 v2 r2 mx); [congruence|lia|lia|exact Hx|exact Hx'].
  - destruct (first_split (fun u => t_name u = m) v1 (Tok p m) r1 v2 (Tok p' m) r2) as (-> & _ & ->); auto. congruence.
  - injection Hc' as -> <-. exfalso.
    exact (marker_not_front n u mx m p p' v1 r1 _ Hm Hf Hu Hno Hn' Hlt' Hu').
  - exfalso. apply (Hno' (Tok p m)); [|easy]. rewrite Hu. apply in_elt.
  - injection Hc' as <- <-. exfalso.
    exact (marker_not_front n u mx m p' p v2 r2 _ Hm Hf' Hu' Hno' Hn Hlt Hu).
  - injection Hc' as <-. rewrite Hu in Hu'. injection Hu' as _ Hu'.
    apply (full_det v1 r1 v2 r2 mx); auto.
  - exfalso. apply (Hno' (Tok p m)); [|easy]. rewrite Hu. now left.
  - exfalso. apply (Hno (Tok p' m)); [|easy]. rewrite Hu'. apply in_elt.
  - exfalso. apply (Hno (Tok p' m)); [|easy]. rewrite Hu'. now left.
  - auto.
Qed.

Lemma fronted_det n ts t1 v1 u1 t2 v2 u2 : fronted n ts t1 v1 u1 -> fronted n ts t2 v2 u2 ->
  t1 = t2 /\ v1 = v2 /\ u1 = u2.
Proof.
  intros [t us Hs|sep p l c s v us Hs Hc Hl Hno Hv] H2;
    inversion H2 as [t' us' Hs'|sep' p' l' c' s' v' us' Hs' Hc' Hl' Hno' Hv']; subst; try congruence; [auto|].
  rewrite Hs in Hs'. injection Hs' as <-.
  match goal with E : _ ++ _ = _ ++ _ |- _ => rename E into Ex end. cbn [app] in Ex.
  destruct (first_split (fun c => In c sep) l' c' (s' ++ v') l c (s ++ v)) as (-> & -> & E2); auto.
  { intros u Hu Hin. now apply (Hno' u). }
  { intros u Hu Hin. now apply (Hno u). }
  assert (Hls : List.length s = List.length s') by (cbn [List.length] in *; lia).
  assert (s' = s /\ v' = v) as [-> ->]; [|auto].
  clear -E2 Hls. revert s' Hls E2. induction s as [|x s IH]; intros [|y s'] Hl E; try discriminate; [auto|].
  cbn [app] in E. injection E as -> E. injection Hl as Hl. destruct (IH s' Hl E) as [-> ->]. auto.
Qed.

Lemma group_for_det n t a b : group_for n t a -> group_for n t b -> a = b.
Proof.
  intros (_ & H1 & _) (_ & H2 & _).
  destruct H1 as [[P1 ->]|(P1 & E1 & _)], H2 as [[P2 ->]|(P2 & E2 & _)]; try congruence.
  rewrite E1 in E2. now apply app_inv_head in E2.
Qed.

Lemma grouped_det n t us t1 u1 t2 u2 : grouped n t us t1 u1 -> grouped n t us t2 u2 -> t1 = t2 /\ u1 = u2.
Proof.
  intros [t0 us0 Hn|t0 nm g gs us0 Hg Hgs] H2; inversion H2 as [? ? Hn'|? nm' g' gs' ? Hg' Hgs']; subst; auto.
  - exfalso. now apply (Hn nm').
  - exfalso. now apply (Hn' nm).
  - rewrite (group_for_det _ _ _ _ Hg' Hg) in Hgs'. rewrite Hgs in Hgs'. now injection Hgs' as <- <-.
Qed.

(** What a node takes is determined by the tokens. *)
Lemma consumes_det n ts l1 v1 r1 l2 v2 r2 : consumes n ts l1 v1 r1 -> consumes n ts l2 v2 r2 ->
  l1 = l2 /\ v1 = v2 /\ r1 = r2.
Proof.
  intros [t value us t' us' va re Hn Hf Hg Hm Hc|va re Hn Hne Hc] H2;
    inversion H2 as [t2 value2 us2 t2' us2' va2 re2 Hn2 Hf2 Hg2 Hm2 Hc2|va2 re2 Hn2 Hne2 Hc2]; subst; try congruence.
  - destruct (fronted_det _ _ _ _ _ _ _ _ Hf Hf2) as (<- & <- & <-).
    destruct (grouped_det _ _ _ _ _ _ _ Hg Hg2) as (<- & <-).
    destruct (counted_det _ _ _ _ _ _ Hc Hc2) as (<- & <-). auto.
  - destruct (counted_det _ _ _ _ _ _ Hc Hc2) as (<- & <-). auto.
Qed.

Section Tail.
Variables (n : node) (pt : option target) (tg : target) (parents : list node).
Hypothesis L : leaf_ok n.

Let run ps a := run_policies ps a pt tg n parents (Act Valid).

Lemma marker_runs m a : exists a', phase_end_marker m n a = Ok (a', Act Valid).
Proof.
  unfold phase_end_marker. set (off := if is_named n then 1 else 0).
  pose proof (find_marker_spec m (skipn off (a_all a)) (Z.of_nat off)) as H.
  destruct (find_marker m (skipn off (a_all a)) (Z.of_nat off)) as [|j].
  - rewrite erase_end. cbn [or_ub rbind]. eauto.
  - destruct H as (bf & t & af & _ & _ & _ & ->). unfold a_erase.
    destruct (is_end _ _); [cbn [or_ub rbind]; eauto|].
    destruct (Z.ltb_spec (Z.of_nat off + zlen bf) 0) as [Hlt|_]; [unfold zlen in Hlt; lia|].
    destruct (_ <? _)%Z; cbn [or_ub rbind]; eauto.
Qed.

Lemma tail_stage a t value us mn mx :
  transfer a a_begin = Adp (t :: value) us -> List.length (a_proc a) <= 1 + List.length value ->
  (is_named n = false -> a_proc a = [] /\ value = []) ->
  value = [] \/ (exists v, value = [v]) /\ value_separator n <> None ->
  count_bounds n = Some (mn, mx) -> consumer n -> sane n -> (nlen (t :: value ++ us) < 9223372036854775808)%N ->
  let l := if is_named n then [t] else [] in
  let u := if is_named n then value ++ us else t :: us in
  (exists vals rest, counted n u vals rest
     /\ run (pick is_marker (n_pols n) ++ pick is_count (n_pols n)) a = Ok (Adp (l ++ vals) rest, tg, Act Valid))
  \/ (forall vals rest, ~ counted n u vals rest)
     /\ exists a' e, run (pick is_marker (n_pols n) ++ pick is_count (n_pols n)) a = Ok (a', tg, Err e [node_token n])
          /\ miscounted n u e /\ (is_named n = true -> hd_error (a_all a') = Some t).
Proof.
  intros Ht Hlen Hun Hval Hcb Hcons Hsane Hfit l u.
  destruct (front_transfer _ _ _ _ Ht) as (_ & Hall & _).
  assert (Hlu : a_all a = l ++ u).
  { rewrite Hall. unfold l, u. destruct (is_named n); [easy|]. destruct (Hun eq_refl) as [_ ->]. easy. }
  assert (Hw : List.length l = width n) by (unfold l, width; now destruct (is_named n)).
  pose proof (pick_count n L) as Hpc. rewrite Hcb in Hpc. destruct Hpc as [Hpc Hb].
  pose proof (pick_marker n L) as Hpm. rewrite Hpc.
  assert (Hfit' : (nlen (l ++ u) < 9223372036854775808)%N) by (rewrite <- Hlu, Hall; easy).
  destruct (token_end_marker n) as [m|] eqn:Em.
  - (* with an end marker *)
    destruct Hpm as [Hpm Hin]. rewrite Hpm. unfold run. cbn [app run_policies pre_parse_phase].
    assert (Hv0 : value = []).
    { destruct Hval as [|[_ Hs]]; [easy|]. exfalso. pose proof (pick_sep n L) as Hps.
      destruct (value_separator n) as [sep|]; [|easy]. destruct Hps as [_ Hps].
      pose proof (lo_sep _ L _ Hps) as Hone. destruct (lo_marker _ L _ Hin) as (a1 & b1 & E1 & E2). congruence. }
    destruct (marker_runs m a) as (a1 & Ha1). rewrite Ha1. cbn [rbind].
    apply stage_marker in Ha1 as [_ Ha1]. fold (width n) in Ha1.
    assert (Hsk : skipn (width n) (l ++ u) = u) by (rewrite <- Hw; apply skipn_app_len).
    destruct Ha1 as [(-> & Hno)|(bf & tm & af & Hbf & Htm & _ & Hwb & Hnb & Hadp)].
    + rewrite Hlu, Hsk in *.
      destruct (count_marker_exact n mn mx m l u [] Em Hb Hw Hfit') as [Hbad Hgood].
      assert (Hc : (nlen u < mn \/ mx < nlen u)%N \/ (mn <= nlen u <= mx)%N) by lia.
      destruct Hc as [Hc|Hc].
      * right. destruct (Hbad Hc) as (e & -> & He). cbn [rbind run_policies]. split.
        -- intros vals rest H.
           inversion H as [? ? ? ? Hm'|mn' mx' m' p ? ? Hm' Hc' Hu Hno' Hb' _|mx' m' p ? ? Hm' Hc' Hn' Hlt' Hu Hb' Hx'|mn' mx' m' Hm' Hc' Hno' Hb'];
             subst; rewrite Em in Hm'; try discriminate; injection Hm' as <-.
           ++ apply (Hno (Tok p m)); [|easy]. rewrite Hu. apply in_elt.
           ++ apply (Hno (Tok p m)); [|easy]. rewrite Hu. now left.
           ++ rewrite Hcb in Hc'. injection Hc' as <- <-. lia.
        -- eexists _, e. split; [reflexivity|]. split.
           { assert (Hcd : candidates n u u) by (eapply candidates_unmarked; eauto).
             destruct He as [[-> He]|[-> He]]; [eapply too_few; eauto|eapply too_many; eauto; congruence]. }
           intros Hn. unfold a_all. cbn [a_proc a_unproc].
           unfold l. rewrite Hn. reflexivity.
      * assert (Hmx : is_named n = true \/ u <> [] \/ (9223372036854775808 < mx)%N).
        { unfold u. destruct (is_named n); [now left|]. right. left. discriminate. }
        left. rewrite (Hgood Hc Hmx). cbn [rbind run_policies]. exists u, []. split; [|easy].
        eapply count_no_marker; eauto.
    + assert (Hpl : List.length (a_proc a) <= List.length bf).
      { unfold width in Hwb. destruct (is_named n) eqn:En.
        - subst value. cbn [List.length] in *. lia.
        - destruct (Hun eq_refl) as [-> _]. cbn. lia. }
      rewrite (Hadp Hpl). rewrite Hbf in Hlu.
      set (vals := skipn (width n) bf) in *.
      assert (Hb2 : bf = l ++ vals).
      { unfold vals. rewrite <- (firstn_skipn (width n) bf) at 1. f_equal.
        apply (f_equal (firstn (width n))) in Hlu. rewrite !firstn_app in Hlu.
        rewrite <- Hw in Hlu. rewrite Hw, Nat.sub_diag in Hlu.
        replace (width n - List.length bf) with 0 in Hlu by lia. cbn [firstn] in Hlu.
        rewrite !app_nil_r in Hlu. rewrite Hlu. rewrite <- Hw. apply firstn_all. }
      assert (Hu : u = vals ++ tm :: af).
      { rewrite Hb2, <- app_assoc in Hlu. now apply app_inv_head in Hlu. }
      rewrite Hb2. clearbody vals.
      assert (Hfit2 : (nlen (l ++ vals) < 9223372036854775808)%N).
      { rewrite Hu in Hfit'. rewrite !nlen_app in *. lia. }
      destruct (count_marker_exact n mn mx m l vals af Em Hb Hw Hfit2) as [Hbad Hgood].
      assert (Hc : (nlen vals < mn \/ mx < nlen vals)%N \/ (mn <= nlen vals <= mx)%N) by lia.
      destruct Hc as [Hc|Hc].
      * right. destruct (Hbad Hc) as (e & -> & He). cbn [rbind run_policies]. split.
        -- intros vals' rest H.
           inversion H as [? ? ? ? Hm'|mn' mx' m' p ? ? Hm' Hc' Hu' Hno' Hb' _|mx' m' p ? ? Hm' Hc' Hn' Hlt' Hu' Hb' Hx'|mn' mx' m' Hm' Hc' Hno' Hb'];
             subst; rewrite Em in Hm'; try discriminate; injection Hm' as E; subst; rewrite Hcb in Hc';
             [injection Hc' as <- <-|injection Hc' as -> <-|injection Hc' as <- <-].
           ++ rewrite Hu in Hu'. destruct (first_split (fun w => t_name w = t_name tm) vals tm af vals' (Tok p (t_name tm)) rest)
                as (-> & _); auto. lia.
           ++ rewrite Hu in Hu'. destruct vals as [|v vals]; [unfold nlen in Hc; cbn in Hc; lia|].
              injection Hu' as -> _. now apply (Hnb (Tok p (t_name tm))); [left|].
           ++ apply (Hno' tm); [|easy]. rewrite Hu. apply in_elt.
        -- eexists _, e. split; [reflexivity|]. split.
           { assert (Hcd : candidates n u vals).
             { destruct tm as [p nm]. cbn [t_name] in *. subst nm. eapply candidates_marked; eauto. }
             destruct He as [[-> He]|[-> He]]; [eapply too_few; eauto|eapply too_many; eauto; congruence]. }
           intros Hn. unfold a_all. cbn [a_proc a_unproc].
           unfold l. rewrite Hn. reflexivity.
      * destruct tm as [p nm]. cbn [t_name] in *. subst nm. left.
        assert (Hmx : (is_named n = true \/ vals <> [] \/ (9223372036854775808 < mx)%N)
          \/ is_named n = false /\ vals = [] /\ (mx <= 9223372036854775808)%N).
        { destruct (is_named n); [left; left; reflexivity|]. destruct vals; [|left; right; left; discriminate].
          destruct (N.lt_ge_cases 9223372036854775808 mx) as [Hx|Hx]; [left; right; right; exact Hx|].
          right. split; [reflexivity|]. split; [reflexivity|exact Hx]. }
        destruct Hmx as [Hmx|(Hn0 & -> & Hlt)].
        -- rewrite (Hgood Hc Hmx). cbn [rbind run_policies]. exists vals, af. split; [|reflexivity].
           exact (count_marker n u mn mx m p vals af Em Hcb Hu Hnb Hc Hmx).
        -- assert (El : l = []) by (unfold l; now rewrite Hn0). rewrite El in *. cbn [app].
           assert (Hmn : mn = 0%N) by (unfold nlen in Hc; cbn in Hc; lia). subst mn.
           assert (Hpos : (1 <= mx)%N).
           { destruct (lo_marker _ L _ Hin) as (a2 & b2 & E2 & Hne2). rewrite Hcb in E2. injection E2 as <- <-. lia. }
           destruct (split_at_most mx af) as (vs & rs & Ea & Hvl & Hvf).
           assert (Hfv : (nlen (vs ++ rs) < 9223372036854775808)%N).
           { clear - Hfit' Hu Ea. rewrite Hu, Ea in Hfit'. cbn [app] in Hfit'. rewrite nlen_cons in Hfit'. lia. }
           rewrite Ea. rewrite (count_front_exact n mx m vs rs Em Hn0 (conj Hpos Hlt) Hfv Hvl Hvf).
           cbn [rbind run_policies]. exists vs, rs. split; [|reflexivity].
           apply (count_front_marker n _ mx m p vs rs Em Hcb Hn0 Hlt); [rewrite Hu, Ea; reflexivity|exact Hvl|exact Hvf].
  - (* without *)
    rewrite Hpm. unfold run. cbn [app run_policies pre_parse_phase].
    assert (Hone : value <> [] -> mx = 1%N).
    { destruct Hval as [|[_ Hs]]; [easy|]. intros _. pose proof (pick_sep n L) as Hps.
      destruct (value_separator n) as [sep|]; [|easy]. destruct Hps as [_ Hps].
      pose proof (lo_sep _ L _ Hps). congruence. }
    assert (Hmx : is_named n = true \/ (1 <= mx)%N).
    { destruct Hcons as [|(mn' & mx' & E & ?)]; [now left|right]. congruence. }
    assert (Hne : l ++ u <> []) by (unfold l, u; destruct (is_named n); discriminate).
    assert (Hp : (nlen (a_proc a) <= nlen l + N.min mx (nlen u))%N).
    { clear Hfit Hfit'. unfold l, u. destruct (is_named n) eqn:En.
      - destruct Hval as [->|[(v & ->) _]].
        + unfold nlen. cbn [List.length] in *. lia.
        + rewrite Hone by discriminate. cbn [app]. rewrite nlen_cons. unfold nlen. cbn [List.length] in *. lia.
      - destruct (Hun eq_refl) as [-> _]. unfold nlen at 1. cbn. lia. }
    destruct (count_plain_exact n mn mx a l u Em Hb Hmx Hlu Hw Hne Hp Hfit') as [Hbad Hgood].
    clear Hfit Hfit'. destruct (N.lt_ge_cases (nlen u) mn) as [Hc|Hc].
    + right. rewrite (Hbad Hc). cbn [rbind run_policies]. split.
      * intros vals rest H. inversion H as [mn' mx' ? ? Hm' Hc' Hu Hb' Hx|? ? ? ? ? ? Hm'|? ? ? ? ? Hm'|? ? ? Hm']; subst; try congruence.
        rewrite Hcb in Hc'. injection Hc' as <- <-. rewrite Hu, nlen_app in Hc. lia.
      * exists a, minimum_count_not_reached. split; [reflexivity|]. split.
        -- apply (too_few _ _ u mn mx); auto. now apply candidates_all.
        -- intros _. now rewrite Hall.
    + left. set (k := List.length u).
      assert (Hex : exists vals rest, u = vals ++ rest /\ nlen vals = N.min mx (nlen u)).
      { clear -u. revert mx. induction u as [|x u' IH]; intros mx; [exists [], []; split; [easy|unfold nlen; cbn; lia]|].
        destruct (N.eq_dec mx 0) as [->|Hz].
        - exists [], (x :: u'). split; [easy|]. unfold nlen. cbn [List.length]. lia.
        - destruct (IH (N.pred mx)) as (v & r & -> & Hv). exists (x :: v), r. split; [easy|].
          rewrite !nlen_cons, Hv. lia. }
      destruct Hex as (vals & rest & Hu & Hv). rewrite (Hgood Hc vals rest Hu Hv). cbn [rbind run_policies].
      exists vals, rest. split; [|easy]. eapply count_plain; eauto.
      * split; [|lia]. rewrite Hv. lia.
      * intros Hr. rewrite Hv. rewrite Hu, nlen_app. destruct rest; [easy|]. rewrite Hu, nlen_app in Hv.
        rewrite nlen_cons in *. lia.
Qed.

End Tail.

Lemma fronted_split n ts t value us : leaf_ok n -> fronted n ts t value us -> split_front n ts (t :: value ++ us).
Proof.
  intros L [t0 us0 Hs|sep p l c s v us0 Hs Hc Hl Hno Hv]; [apply split_no|].
  cbn [app]. apply (split_yes n sep p l (c :: s) v us0); auto.
  pose proof (pick_sep n L) as Hp. rewrite Hs in Hp. apply Hp.
Qed.

Lemma grouped_front n t us t' us' value : leaf_ok n ->
  value = [] \/ (exists sep, In (PValueSeparator sep) (n_pols n)) ->
  grouped n t us t' us' -> group_front n (t :: value ++ us) (t' :: value ++ us').
Proof.
  intros L Hv [t0 us0 Hno|t0 nm g gs us0 (Hin & Hg & _) Hgs]; [apply group_no|].
  destruct (graphemes_partition _ _ Hgs) as [Hcat _].
  apply group_yes; auto.
  - destruct Hg as [[Hp _]|[Hp _]]; rewrite Hp; discriminate.
  - transitivity (short_prefix ++ nm); [|f_equal; symmetry; exact Hcat].
    unfold token_str. destruct Hg as [[-> ->]|(-> & -> & _)]; reflexivity.
  - etransitivity; [|exact Hgs]. f_equal. exact Hcat.
Qed.

Lemma fronted_value n ts t value us : fronted n ts t value us ->
  value = [] \/ (exists v, value = [v]) /\ value_separator n <> None.
Proof. intros [t0 us0 Hs|sep p l c s v us0 Hs Hc Hl Hno Hv]; [now left|right]. rewrite Hs. split; [eauto|discriminate]. Qed.

Lemma value_sep_in n value : leaf_ok n -> value = [] \/ (exists v : token, value = [v]) /\ value_separator n <> None ->
  value = [] \/ exists sep, In (PValueSeparator sep) (n_pols n).
Proof.
  intros L [Hv|[_ Hs]]; [now left|right]. pose proof (pick_sep n L) as Hp.
  destruct (value_separator n) as [sep|]; [|easy]. exists sep. apply Hp.
Qed.

Lemma fits_nlen ts us : args_weight us <= args_weight ts -> fits ts -> (nlen us < 9223372036854775808)%N.
Proof.
  unfold fits, nlen. intros H1 H2. pose proof (args_weight_length us). lia.
Qed.

(** The tokens the node claims, before its label is checked. *)
Definition shape (n : node) (ts l vals rest : list token) : Prop :=
  (is_named n = true /\ exists t value us t' us', fronted n ts t value us /\ grouped n t us t' us'
      /\ counted n (value ++ us') vals rest /\ l = [t'])
  \/ (is_named n = false /\ counted n ts vals rest /\ l = []).

Definition front_stages (n : node) : list policy :=
  pick is_separator (n_pols n) ++ pick is_expander (n_pols n) ++ pick is_enable (n_pols n)
  ++ pick is_marker (n_pols n) ++ pick is_count (n_pols n).

Lemma unnamed_no_expander n : leaf_ok n -> is_named n = false -> pick is_expander (n_pols n) = [].
Proof.
  intros L Hn. destruct (pick_expander n) as [[E _]|[_ Hin]]; [easy|].
  destruct (lo_exp _ L Hin) as (s & Hs). unfold is_named in Hn. rewrite Hs, orb_true_r in Hn. discriminate.
Qed.

Lemma fronted_not_unsplit n ts t value us : fronted n ts t value us -> ~ unsplit n ts.
Proof.
  intros Hf (sep & t2 & us2 & Es & E & Hno & _).
  destruct Hf as [? ? Hs|sep' p l c s v us0 Hs Hc Hl Hn Hv]; [congruence|].
  rewrite Es in Hs. injection Hs as <-. injection E as <- <-. apply (Hno c Hc). cbn [t_name].
  apply in_app_iff. right. now left.
Qed.

Lemma addressed_front n ts t value us t' us' : is_named n = true -> fronted n ts t value us -> ~ unsplit n ts ->
  grouped n t us t' us' -> (addressed n ts <-> match_node n (norm_token n t') = true).
Proof.
  intros En Hf Hu Hg. split.
  - intros [(_ & [(t2 & v2 & us2 & t2' & us2' & Hf2 & Hg2 & Hm)|H])|(H & _)]; [|easy|congruence].
    destruct (fronted_det _ _ _ _ _ _ _ _ Hf Hf2) as (<- & <- & <-).
    destruct (grouped_det _ _ _ _ _ _ _ Hg Hg2) as (<- & <-). exact Hm.
  - intros Hm. left. split; [easy|]. left. eauto 10.
Qed.

Lemma chokes_front n ts t value us : fronted n ts t value us -> ~ cut_short n ts -> ~ unsplit n ts ->
  (chokes n ts <-> bad_group n t us).
Proof.
  intros Hf Hc Hu. split.
  - intros [H|[(t2 & v2 & us2 & Hf2 & Hb)|(_ & _ & H)]]; [easy| |easy].
    destruct (fronted_det _ _ _ _ _ _ _ _ Hf Hf2) as (<- & <- & <-). exact Hb.
  - intros Hb. right. left. eauto.
Qed.

Lemma breaks_chokes n ts x : breaks n ts x -> chokes n ts.
Proof.
  intros [H|t value us nm Hf Hg Hb|t value us nm Hf Hg _ Hb]; [now left| |]; right; left; exists t, value, us;
    (split; [easy|]); exists nm; auto.
Qed.

(** What the stages up to the count leave behind. *)
Inductive front_result (n : node) (tg : target) (ts : list token) : res (adapter * target * presult) -> Prop :=
| fr_takes l vals rest :
    enabled n -> ~ chokes n ts -> shape n ts l vals rest ->
    front_result n tg ts (Ok (Adp (l ++ vals) rest, tg, Act Valid))
| fr_chokes r x :
    breaks n ts x -> same_failure r x -> front_result n tg ts r
| fr_disabled a t us :
    (forall x, ~ breaks n ts x) -> ~ enabled n -> unsplit n ts ->
    is_named n = true -> a = Adp [] (t :: us) -> match_node n (norm_token n t) = true ->
    front_result n tg ts (Ok (a, tg, Err missing_value_separator [node_token n]))
| fr_skip a :
    ~ chokes n ts -> ~ enabled n \/ ~ addressed n ts -> front_result n tg ts (Ok (a, tg, Act Skip))
| fr_error a e :
    ~ chokes n ts -> (forall l vals rest, ~ shape n ts l vals rest) ->
    (enabled n /\ addressed n ts /\ refused n ts e /\ check_label n (Err e [node_token n]) a <> None
     \/ (~ enabled n \/ ~ addressed n ts) /\ check_label n (Err e [node_token n]) a = None) ->
    front_result n tg ts (Ok (a, tg, Err e [node_token n]))
| fr_dash a :
    ~ chokes n ts -> ~ addressed n ts -> is_named n = true -> (exists s, short_name n = Some s) ->
    hd_error (a_all a) = Some (Tok PShort []) -> front_result n tg ts (Ok (a, tg, Act Valid)).

Lemma check_label_head n e a t : is_named n = true -> hd_error (a_all a) = Some t ->
  (check_label n (Err e [node_token n]) a <> None <-> match_node n (norm_token n t) = true).
Proof.
  intros En Hh. unfold check_label. rewrite En. destruct a as [[|x pr] [|y un]]; cbn in Hh; try discriminate;
    injection Hh as ->; cbn [a_proc a_unproc]; destruct (match_node n (norm_token n t)); split; congruence.
Qed.

Lemma front_exact n pt tg parents ts mn mx :
  leaf_ok n -> sane n -> consumer n -> count_bounds n = Some (mn, mx) -> ts <> [] -> fits ts ->
  front_result n tg ts (run_policies (front_stages n) (Adp [] ts) pt tg n parents (Act Valid)).
Proof.
  intros L Hsane Hcons Hcb Hne Hfit.
  assert (Hden : enabled n \/ ~ enabled n).
  { unfold enabled. destruct (runtime_enabled n) as [[]|]; auto; left; congruence. }
  destruct (is_named n) eqn:En.
  - unfold front_stages. rewrite run_policies_app.
    destruct (sep_stage n pt tg parents L ts Hne) as [(t & value & us & a1 & Hf & -> & Ht1 & Hl1 & Hcut & Huns)|(Hno & Hr)].
    2:{ assert (Hnsh : forall l vals rest, ~ shape n ts l vals rest).
        { intros l vals rest [(_ & t & value & us & t' & us' & Hf & _)|(H & _)]; [now apply Hno in Hf|congruence]. }
        assert (Hnad : ~ unsplit n ts -> ~ addressed n ts).
        { intros Hu [(_ & [(t2 & v2 & us2 & t2' & us2' & Hf2 & _)|H])|(H & _)]; [|easy|congruence]. now apply Hno in Hf2. }
        destruct Hr as [(Hcut & ->)|(Hcut & [(-> & Hu)|(t & us & -> & Hts & Hu)])]; cbn [rbind].
        - apply (fr_chokes _ _ _ _ (Throw EOutOfRange)); [now apply breaks_separator|reflexivity].
        - rewrite run_policies_stuck by easy. apply fr_skip; [|right; now apply Hnad].
          intros [H|[(t2 & v2 & us2 & Hf2 & _)|(_ & _ & H)]]; [easy| |easy]. now apply Hno in Hf2.
        - rewrite run_policies_stuck by easy.
          destruct (match_node n (norm_token n t)) eqn:Em.
          + specialize (Hu eq_refl). destruct Hden as [He|He].
            * apply fr_error; [|easy|].
              -- intros [H|[(t2 & v2 & us2 & Hf2 & _)|(H & _)]]; [easy| |easy]. now apply Hno in Hf2.
              -- left. split; [easy|]. split; [left; split; [easy|now right]|]. split; [now apply refused_separator|].
                 apply (check_label_head n missing_value_separator (Adp [] ts) t En); [now rewrite Hts|easy].
            * subst ts. apply (fr_disabled _ _ _ _ t us); auto.
              intros x [Hx|t2 v2 us2 nm Hf2 _ _|t2 v2 us2 nm Hf2 _ _ _]; [easy| |]; now apply Hno in Hf2.
          + assert (Hnu : ~ unsplit n ts).
            { intros (sep & t2 & us2 & _ & E & _ & _ & Hm). rewrite Hts in E. injection E as <- <-. congruence. }
            apply fr_error; [|easy|].
            * intros [H|[(t2 & v2 & us2 & Hf2 & _)|(_ & _ & H)]]; [easy| |easy]. now apply Hno in Hf2.
            * right. split; [right; now apply Hnad|].
              destruct (check_label n (Err missing_value_separator [node_token n]) (Adp [] ts)) eqn:Ec; [|easy]. exfalso.
              assert (Hx : match_node n (norm_token n t) = true); [|congruence].
              apply (check_label_head n missing_value_separator (Adp [] ts) t En); [now rewrite Hts|congruence]. }
    cbn [rbind]. rewrite run_policies_app.
    pose proof (fronted_value _ _ _ _ _ Hf) as Hval. pose proof (value_sep_in _ _ L Hval) as Hval'.
    pose proof (fronted_split _ _ _ _ _ L Hf) as Hsf. apply split_front_weight in Hsf as [Hw1 _]; [|easy].
    pose proof (chokes_front n ts t value us Hf Hcut Huns) as Hck.
    destruct (exp_stage n pt tg parents L a1 t value us Ht1 Hl1)
      as [(nm & Hgf & Hr)|(Hgood & [(t' & us' & a2 & Hg & -> & Ht2 & Hl2)|(Hno & a2 & -> & Hs & Ht2 & Hl2)])].
    + destruct Hr as [(Hb & ->)|(Hb1 & Hb2 & ->)].
      * apply (fr_chokes _ _ _ _ (Throw ELengthError)); [|reflexivity]. eapply breaks_length; eauto.
      * apply (fr_chokes _ _ _ _ UB); [|reflexivity]. eapply breaks_text; eauto.
    + assert (Hnc : ~ chokes n ts) by (now rewrite Hck).
      cbn [rbind]. rewrite run_policies_app.
      pose proof (grouped_front _ _ _ _ _ value L Hval' Hg) as Hgf. apply group_front_weight in Hgf as [Hw2 _].
      assert (Hroom : (nlen (t' :: value ++ us') < 9223372036854775808)%N) by (apply (fits_nlen ts); [lia|easy]).
      destruct (enable_stage n pt tg parents a2) as [[He ->]|[He ->]]; cbn [rbind].
      * destruct (tail_stage n pt tg parents L a2 t' value us' mn mx Ht2 Hl2) as [(vals & rest & Hc & ->)|(Hno & a3 & e & -> & Hmc & Hh)];
          auto; try (intros Hx; congruence).
        -- clear Hroom Hfit. rewrite En in *. apply (fr_takes n tg ts [t'] vals rest); auto.
           left. split; [easy|]. eauto 12.
        -- clear Hroom Hfit. rewrite En in *. specialize (Hh eq_refl). apply fr_error; [easy| |].
           ++ intros l vals rest [(_ & t2 & value2 & us2 & t2' & us2' & Hf2 & Hg2 & Hc2 & _)|(H & _)]; [|congruence].
              destruct (fronted_det _ _ _ _ _ _ _ _ Hf Hf2) as (<- & <- & <-).
              destruct (grouped_det _ _ _ _ _ _ _ Hg Hg2) as (<- & <-). now apply Hno in Hc2.
           ++ rewrite (addressed_front n ts t value us t' us') by easy.
              pose proof (check_label_head n e a3 t' En Hh) as Hx.
              destruct (match_node n (norm_token n t')) eqn:Em2; [left|right].
              ** split; [easy|]. split; [easy|]. split; [|now apply Hx].
                 apply (refused_count _ _ (value ++ us')); [|easy]. eapply words_named; eauto.
              ** split; [now right|]. destruct (check_label _ _ a3); [|easy].
                 exfalso. enough (false = true) by discriminate. apply Hx. discriminate.
      * clear Hfit. try clear Hroom. rewrite run_policies_stuck by easy. apply fr_skip; [easy|now left].
    + assert (Hnc : ~ chokes n ts) by (now rewrite Hck).
      assert (Hna : ~ addressed n ts).
      { intros [(_ & [(t2 & v2 & us2 & t2' & us2' & Hf2 & Hg2 & Hm)|H])|(H & _)]; [|easy|congruence].
        destruct (fronted_det _ _ _ _ _ _ _ _ Hf Hf2) as (<- & <- & <-). now apply Hno in Hg2. }
      cbn [rbind]. rewrite run_policies_app.
      destruct (enable_stage n pt tg parents a2) as [[He ->]|[He ->]]; cbn [rbind].
      * assert (Hroom : (nlen (Tok PShort [] :: value ++ us) < 9223372036854775808)%N).
        { pose proof (fits_nlen ts (t :: value ++ us) Hw1 Hfit) as H. rewrite nlen_cons in *. exact H. }
        destruct (tail_stage n pt tg parents L a2 (Tok PShort []) value us mn mx Ht2 Hl2)
          as [(vals & rest & Hc & ->)|(_ & a3 & e & -> & _ & Hh)]; auto; try (intros Hx; congruence).
        -- clear Hroom Hfit. rewrite En. apply fr_dash; auto.
        -- clear Hroom Hfit. apply fr_error; [easy| |].
           ++ intros l vals rest [(_ & t2 & value2 & us2 & t2' & us2' & Hf2 & Hg2 & Hc2 & _)|(H & _)]; [|congruence].
              destruct (fronted_det _ _ _ _ _ _ _ _ Hf Hf2) as (<- & <- & <-). now apply Hno in Hg2.
           ++ right. split; [now right|]. destruct (check_label _ _ a3) eqn:Ec; [|easy]. exfalso.
              pose proof (proj1 (check_label_head n e a3 (Tok PShort []) En (Hh En))) as Hx.
              rewrite Ec in Hx. specialize (Hx ltac:(discriminate)).
              change (norm_token n (Tok PShort [])) with (Tok PShort []) in Hx.
              rewrite empty_short_false in Hx by easy. discriminate.
      * clear Hfit. try clear Hroom. rewrite run_policies_stuck by easy. apply fr_skip; [easy|now left].
  - assert (Hns : value_separator n = None) by (destruct Hsane as [[H|H] _]; [congruence|exact H]).
    unfold front_stages. rewrite (unnamed_no_expander n L En).
    pose proof (pick_sep n L) as Hp. rewrite Hns in Hp. rewrite Hp. cbn [app]. rewrite run_policies_app.
    assert (Hnc : ~ chokes n ts).
    { intros [(sep & ? & ? & ? & ? & ? & E & _)|[(t & value & us & _ & nm & (Hin & _) & _)|(_ & H & _)]]; [congruence| |congruence].
      pose proof (unnamed_no_expander n L En) as Hx. destruct (pick_expander n) as [[_ H]|[H _]]; [easy|congruence]. }
    assert (Had : addressed n ts) by (right; auto).
    destruct ts as [|t us]; [easy|].
    assert (Hroom : (nlen (t :: [] ++ us) < 9223372036854775808)%N) by (apply (fits_nlen (t :: us)); [easy|exact Hfit]).
    destruct (enable_stage n pt tg parents (Adp [] (t :: us))) as [[He ->]|[He ->]]; cbn [rbind].
    + destruct (tail_stage n pt tg parents L (Adp [] (t :: us)) t [] us mn mx) as [(vals & rest & Hc & ->)|(Hno & a3 & e & -> & Hmc & _)];
        auto; rewrite ?En in *.
      * clear Hroom Hfit. apply (fr_takes n tg (t :: us) [] vals rest); auto. right. auto.
      * clear Hroom Hfit. apply fr_error; [easy| |].
        -- intros l vals rest [(H & _)|(_ & Hc & _)]; [congruence|]. now apply Hno in Hc.
        -- left. split; [easy|]. split; [easy|]. split; [|unfold check_label; rewrite En; discriminate].
           apply (refused_count _ _ (t :: us)); [now apply words_unnamed|easy].
    + clear Hroom Hfit. rewrite run_policies_stuck by easy. apply fr_skip; [easy|now left].
Qed.

Lemma alias_forward ns n parents t vals rest tg c mx mode :
  count_bounds n = Some (c, mx) -> nearest_mode_like (n :: parents) = Some mode -> nlen vals = c ->
  match_node n (norm_token n t) = true ->
  phase_alias ns n parents (Adp (t :: vals) rest) tg
  = Ok (Adp [] rest, add_subs tg (alias_subs ns mode vals), Act UseSubs).
Proof.
  intros Hc Hm Hl Hq. unfold phase_alias. rewrite Hc, Hm.
  assert (Hn : N.to_nat c = List.length vals) by (unfold nlen in Hl; lia). rewrite Hn.
  destruct (Z.ltb_spec (a_size (Adp (t :: vals) rest)) (Z.of_nat (List.length vals) + 1)) as [Hs|_].
  { unfold a_size, zlen in Hs. cbn [a_proc a_unproc List.length] in Hs. lia. }
  rewrite a_deref_begin. unfold a_all at 1. cbn [a_proc a_unproc app nth_error or_ub rbind]. rewrite Hq. cbn [negb].
  assert (Ht : transfer (Adp (t :: vals) rest) (i_add a_begin (Z.of_nat (List.length vals))) = Adp (t :: vals) rest).
  { unfold transfer, a_begin, i_add. cbn [a_proc a_unproc Z.add].
    destruct (Z.leb_spec (a_size (Adp (t :: vals) rest)) (Z.of_nat (List.length vals))) as [Hs|_].
    { unfold a_size, zlen in Hs. cbn [a_proc a_unproc List.length] in Hs. lia. }
    destruct (Z.ltb_spec (Z.of_nat (List.length vals)) (zlen (t :: vals))) as [|Hs]; [now rewrite orb_true_r|].
    unfold zlen in Hs. cbn [List.length] in Hs. lia. }
  rewrite Ht. unfold a_all. cbn [a_proc a_unproc app skipn].
  rewrite firstn_app, Nat.sub_diag, firstn_all. cbn [firstn]. rewrite app_nil_r.
  rewrite Nat.add_comm. cbn [Nat.add skipn]. now rewrite skipn_all.
Qed.

Lemma pick_alias n : (pick is_alias (n_pols n) = [] /\ forall ns, ~ In (PAlias ns) (n_pols n))
  \/ exists ns, pick is_alias (n_pols n) = [PAlias ns] /\ In (PAlias ns) (n_pols n).
Proof.
  destruct (pick_cases is_alias (n_pols n)) as [E|(p & E & Hin & Hf)].
  - left. split; [easy|]. intros ns Hin. unfold pick in E. destruct (find _ _) eqn:Ef; [easy|].
    now pose proof (find_none _ _ Ef _ Hin).
  - right. destruct p; try discriminate. eauto.
Qed.

Lemma counted_length n u vals rest mn mx : counted n u vals rest -> count_bounds n = Some (mn, mx) ->
  (mn <= nlen vals <= mx)%N.
Proof.
  intros Hc Hb. destruct Hc as [mn' mx' va re _ Hcb _ Hle _|mn' mx' mk p va re _ Hcb _ _ Hle _|mx' mk p va re _ Hcb _ _ _ Hle _|mn' mx' mk _ Hcb _ Hle];
    rewrite Hb in Hcb; [injection Hcb as -> ->; exact Hle|injection Hcb as -> ->; exact Hle| |injection Hcb as -> ->; exact Hle].
  injection Hcb as -> ->. split; [apply N.le_0_l|exact Hle].
Qed.

(** The pre-parse of a node, exactly. *)
(** The result of a node that has decided, subject to the validator. *)
Definition after_check (v : validator) (n : node) (s : pst) (rest : list token) (r : res (option target))
  : pst * res (option target) :=
  match v n (p_mem s) with
  | (m', Ok true) => (PS rest m', r)
  | (m', Ok false) => (PS (p_args s) m', Ok None)
  | (m', Throw e) => (PS (p_args s) m', Throw e)
  | (m', UB) => (PS (p_args s) m', UB)
  | (m', Exited) => (PS (p_args s) m', Exited)
  | (m', OutOfFuel) => (PS (p_args s) m', OutOfFuel)
  end.

(** The arguments that the node depends on are in the parent's target. *)
Definition deps_met (n : node) (parents : list node) (pt : option target) : Prop :=
  forall ns, In (PDependent ns) (n_pols n) ->
    exists mode t, nearest_mode_like parents = Some mode /\ pt = Some t /\ first_absent t (ref_owners ns mode) = None.

(** The tokens and sub-targets of a node's target. *)
Definition makes (n : node) (parents : list node) (vals toks : list token) (subs : list target) : Prop :=
  (forall ns, ~ In (PAlias ns) (n_pols n)) /\ toks = vals /\ subs = []
  \/ exists ns mode, In (PAlias ns) (n_pols n) /\ nearest_mode_like (n :: parents) = Some mode
       /\ toks = [] /\ subs = alias_subs ns mode vals.

Inductive node_result (n : node) (parents : list node) (pt : option target) (v : validator) (s : pst)
  : pst * res (option target) -> Prop :=
| nr_takes label vals rest toks subs :
    enabled n -> ~ chokes n (p_args s) -> consumes n (p_args s) label vals rest -> deps_met n parents pt ->
    makes n parents vals toks subs ->
    node_result n parents pt v s (after_check v n s rest (Ok (Some (Target n parents toks subs))))
| nr_passes :
    ~ chokes n (p_args s) -> ~ enabled n \/ ~ addressed n (p_args s) -> node_result n parents pt v s (s, Ok None)
| nr_rejects c d :
    ~ chokes n (p_args s) -> enabled n -> addressed n (p_args s) ->
    (forall label vals rest, ~ consumes n (p_args s) label vals rest)
    /\ refused n (p_args s) c /\ d = [node_token n]
    \/ (exists label vals rest, consumes n (p_args s) label vals rest) /\ ~ deps_met n parents pt
       /\ c = dependent_argument_missing
       /\ (exists ns mode t dep, In (PDependent ns) (n_pols n) /\ nearest_mode_like parents = Some mode
            /\ pt = Some t /\ first_absent t (ref_owners ns mode) = Some dep /\ d = [node_token dep]) ->
    node_result n parents pt v s (after_check v n s (p_args s) (Throw (EML c d)))
| nr_chokes r x :
    breaks n (p_args s) x -> same_failure r x -> node_result n parents pt v s (s, r)
| nr_disabled :
    (forall x, ~ breaks n (p_args s) x) -> ~ enabled n -> unsplit n (p_args s) -> is_named n = true ->
    node_result n parents pt v s
      (after_check v n s (p_args s) (Throw (EML missing_value_separator [node_token n]))).

Lemma tail_mismatch n pt tg parents a t0 : is_named n = true -> hd_error (a_all a) = Some t0 ->
  match_node n (norm_token n t0) = false ->
  (forall ns, In (PAlias ns) (n_pols n) -> count_bounds n <> None /\ nearest_mode_like (n :: parents) <> None) ->
  (forall ns, In (PDependent ns) (n_pols n) -> nearest_mode_like parents <> None /\ pt <> None) ->
  exists a' tg' m', run_policies (pick is_alias (n_pols n) ++ pick is_dependent (n_pols n)) a pt tg n parents (Act Valid)
                    = Ok (a', tg', m')
    /\ (m' = Act Skip \/ m' <> Act Skip /\ check_label n m' a' = None).
Proof.
  intros En Hh Hm Hal Hdp.
  assert (Hck : forall m, m <> Act UseSubs -> check_label n m a = None).
  { intros m Hu. unfold check_label. rewrite En. destruct a as [[|x pr] [|y un]]; cbn in Hh; try discriminate;
      injection Hh as ->; cbn [a_proc a_unproc]; rewrite Hm; destruct m as [[]|]; easy. }
  assert (Hdep : forall tg, exists m', run_policies (pick is_dependent (n_pols n)) a pt tg n parents (Act Valid) = Ok (a, tg, m')
             /\ (m' = Act Skip \/ m' <> Act Skip /\ check_label n m' a = None)).
  { intros tg0. destruct (pick_cases is_dependent (n_pols n)) as [Ed|(p & Ed & Hin & Hf)]; rewrite Ed.
    - eexists. split; [reflexivity|]. right. split; [discriminate|now apply Hck].
    - destruct p; try discriminate. destruct (Hdp _ Hin) as [H1 H2]. cbn [run_policies pre_parse_phase].
      unfold phase_dependent. destruct (nearest_mode_like parents), pt; try easy.
      destruct (first_absent _ _); cbn [rbind run_policies]; (eexists; split; [reflexivity|]);
        right; (split; [discriminate|now apply Hck]). }
  rewrite run_policies_app.
  destruct (pick_alias n) as [[Ea Hna]|(ns & Ea & Hin)]; rewrite Ea.
  - cbn [run_policies rbind]. destruct (Hdep tg) as (m' & -> & H). eauto.
  - destruct (Hal _ Hin) as [H1 H2]. cbn [run_policies pre_parse_phase]. unfold phase_alias.
    destruct (count_bounds n) as [[c mx]|]; [|easy]. destruct (nearest_mode_like (n :: parents)) as [mode|]; [|easy].
    destruct (Z.ltb _ _); cbn [rbind].
    + rewrite run_policies_stuck by easy. eexists _, _, _. split; [reflexivity|]. right. split; [discriminate|now apply Hck].
    + rewrite a_deref_begin. assert (Hn : nth_error (a_all a) 0 = Some t0) by (destruct (a_all a); exact Hh).
      rewrite Hn. cbn [or_ub rbind]. rewrite Hm. cbn [negb rbind].
      rewrite run_policies_stuck by easy. eexists _, _, _. split; [reflexivity|]. now left.
Qed.

Lemma node_exact n parents pt v s :
  leaf_ok n -> sane n -> consumer n -> count_bounds n <> None ->
  (forall ns, In (PAlias ns) (n_pols n) -> is_named n = true /\ nearest_mode_like (n :: parents) <> None) ->
  (forall ns, In (PDependent ns) (n_pols n) -> nearest_mode_like parents <> None /\ pt <> None) ->
  p_args s <> [] -> fits (p_args s) ->
  node_result n parents pt v s (node_pre_parse n parents pt v s).
Proof.
  intros L Hsane Hcons Hcb Hal Hdp Hne Hfit.
  destruct (count_bounds n) as [[mn mx]|] eqn:Ecb; [|easy]. clear Hcb.
  set (tg0 := Target n parents [] []).
  pose proof (front_exact n pt tg0 parents (p_args s) mn mx L Hsane Hcons Ecb Hne Hfit) as Hfr.
  assert (Hord : run_policies (priority_order (n_pols n)) (Adp [] (p_args s)) pt tg0 n parents (Act Valid)
    = rbind (run_policies (front_stages n) (Adp [] (p_args s)) pt tg0 n parents (Act Valid))
        (fun '(a', tg', m') => run_policies (pick is_alias (n_pols n) ++ pick is_dependent (n_pols n)) a' pt tg' n parents m')).
  { rewrite run_policies_order by apply L. unfold phase_order, front_stages.
    rewrite <- run_policies_app. f_equal. now rewrite <- !app_assoc. }
  unfold node_pre_parse, mbind at 1, mlift at 1. fold tg0. rewrite Hord. clear Hord.
  set (fin := fun r : adapter * target * presult => let '(a, tg, m) := r in
     (match m with
      | Act Skip => mret None
      | _ =>
       match check_label n m a with
       | None => mret None
       | Some a' =>
           ok <- run_validator v n ;;
           if negb ok then mret None
           else match m with
                | Err c ts => mlift (Throw (EML c ts))
                | Act _ =>
                    _ <- set_args (a_unproc a') ;;
                    mret (Some (Target n parents
                                       (if is_named n then tl (a_proc a') else a_proc a')
                                       (tg_subs tg)))
                end
       end
     end)%m).
  assert (Hskip : forall a tg, fin (a, tg, Act Skip) s = (s, Ok None)) by easy.
  assert (Hnone : forall a tg m, m <> Act Skip -> check_label n m a = None -> fin (a, tg, m) s = (s, Ok None)).
  { intros a tg m H1 H2. unfold fin. rewrite H2. destruct m as [[]|]; easy. }
  assert (Herr : forall a tg c d, check_label n (Err c d) a <> None ->
             fin (a, tg, Err c d) s = after_check v n s (p_args s) (Throw (EML c d))).
  { intros a tg c d H. unfold fin. destruct (check_label n (Err c d) a); [|easy].
    unfold after_check, mbind, run_validator. destruct (v n (p_mem s)) as [m' [[]| | | |]]; reflexivity. }
  assert (Hok : forall a tg m a', going m = true -> check_label n m a = Some a' ->
             fin (a, tg, m) s = after_check v n s (a_unproc a')
               (Ok (Some (Target n parents (if is_named n then tl (a_proc a') else a_proc a') (tg_subs tg))))).
  { intros a tg m a' Hg H. unfold fin. rewrite H. destruct m as [[]|]; try discriminate;
    unfold after_check, mbind, run_validator, set_args; destruct (v n (p_mem s)) as [m' [[]| | | |]]; reflexivity. }
  assert (Hal' : forall ns, In (PAlias ns) (n_pols n) -> count_bounds n <> None /\ nearest_mode_like (n :: parents) <> None).
  { intros ns Hin. rewrite Ecb. split; [discriminate|]. now apply (Hal ns). }
  match goal with |- context [rbind ?a ?f] => set (R0 := rbind a f) end.
  assert (Hgoal : node_result n parents pt v s
    (match R0 with
     | Ok x => fin x s
     | Throw e => (s, Throw e)
     | UB => (s, UB)
     | Exited => (s, Exited)
     | OutOfFuel => (s, OutOfFuel)
     end)).
  2:{ exact Hgoal. }
  unfold R0. clear R0.
  (* a first token that does not name the node *)
  assert (Hmis : forall a t0, ~ chokes n (p_args s) -> ~ addressed n (p_args s) -> is_named n = true ->
             hd_error (a_all a) = Some t0 -> match_node n (norm_token n t0) = false ->
             node_result n parents pt v s
               (match run_policies (pick is_alias (n_pols n) ++ pick is_dependent (n_pols n)) a pt tg0 n parents (Act Valid) with
                | Ok x => fin x s
                | Throw e => (s, Throw e)
                | UB => (s, UB)
                | Exited => (s, Exited)
                | OutOfFuel => (s, OutOfFuel)
                end)).
  { intros a t0 Hc Hna En Hh Hm.
    destruct (tail_mismatch n pt tg0 parents a t0 En Hh Hm Hal' Hdp) as (a' & tg' & m' & -> & [->|[H1 H2]]).
    - rewrite Hskip. apply nr_passes; auto.
    - rewrite Hnone by easy. apply nr_passes; auto. }
  destruct Hfr as [l vals rest He Hnc Hsh|r x Hc Hr|a t us Hc Hdis Huns En -> Hm|a Hnc Hp|a e Hnc Hns Hp|a Hnc Hna En Hs Hh]; cbn [rbind].
  - destruct Hsh as [(En & t & value & us & t' & us' & Hfd & Hgd & Hcd & ->)|(En & Hcd & ->)].
    + cbn [app].
      destruct (match_node n (norm_token n t')) eqn:Em.
      2:{ apply (Hmis _ t'); auto. intros [(_ & [(t2 & v2 & us2 & t2' & us2' & Hf2 & Hg2 & Hm)|Hx])|(H & _)]; [| |congruence].
          - destruct (fronted_det _ _ _ _ _ _ _ _ Hfd Hf2) as (<- & <- & <-).
            destruct (grouped_det _ _ _ _ _ _ _ Hgd Hg2) as (<- & <-). congruence.
          - now apply (fronted_not_unsplit _ _ _ _ _ Hfd). }
      assert (Hcon : consumes n (p_args s) (Some (norm_token n t')) vals rest) by (econstructor; eauto).
      destruct (pick_alias n) as [[Ea Hna]|(ns & Ea & Hin)].
      * rewrite Ea. cbn [app].
        assert (Hck : forall m, m <> Act UseSubs -> check_label n m (Adp (t' :: vals) rest) = Some (Adp (norm_token n t' :: vals) rest)).
        { intros m Hu. unfold check_label. rewrite En. cbn [a_proc a_unproc]. rewrite Em. destruct m as [[]|]; easy. }
        assert (Hmk : makes n parents vals vals []) by (left; auto).
        destruct (pick_cases is_dependent (n_pols n)) as [Ed|(p & Ed & Hin & Hf)]; rewrite Ed.
        -- cbn [run_policies]. rewrite (Hok _ _ (Act Valid) _ eq_refl (Hck (Act Valid) ltac:(discriminate))). rewrite En.
           cbn [a_unproc a_proc tl tg_subs tg0]. apply (nr_takes _ _ _ _ _ (Some (norm_token n t')) vals); auto.
           intros ns Hns. exfalso. pose proof (find_none is_dependent (n_pols n)) as Hfn. unfold pick in Ed.
           destruct (find is_dependent (n_pols n)); [discriminate|]. now specialize (Hfn eq_refl _ Hns).
        -- destruct p; try discriminate. cbn [run_policies pre_parse_phase].
           destruct (Hdp _ Hin) as [H1 H2]. unfold phase_dependent.
           destruct (nearest_mode_like parents) as [mode|] eqn:Emd; [|easy]. destruct pt as [ptg|]; [|easy].
           destruct (first_absent ptg (ref_owners ns mode)) as [d|] eqn:Eab; cbn [rbind run_policies].
           ++ rewrite Herr by (rewrite Hck by discriminate; discriminate).
              apply nr_rejects; auto.
              ** left. split; [easy|]. left. eauto 10.
              ** right. split; [eauto|]. split; [|split; [easy|exists ns, mode, ptg, d; easy]].
                 intros Hd. destruct (Hd ns Hin) as (mode' & t2 & E1 & E2 & E3).
                 rewrite Emd in E1. injection E1 as <-. injection E2 as <-. congruence.
           ++ rewrite (Hok _ _ (Act Valid) _ eq_refl (Hck (Act Valid) ltac:(discriminate))). rewrite En.
              cbn [a_unproc a_proc tl tg_subs tg0]. apply (nr_takes _ _ _ _ _ (Some (norm_token n t')) vals); auto.
              intros ns' Hin'. exists mode, ptg. split; [easy|]. split; [easy|].
              assert (PDependent ns' = PDependent ns) as [= ->]; [|easy].
              apply (nodup_map_inj pol_tag (n_pols n)); auto. apply L.
      * destruct (lo_alias _ L _ Hin) as (c & Hc'). rewrite Hc' in Ecb. injection Ecb as <- <-.
        pose proof (counted_length _ _ _ _ _ _ Hcd Hc') as Hlv.
        destruct (Hal' _ Hin) as [_ Hmo]. destruct (nearest_mode_like (n :: parents)) as [mode|] eqn:Emd; [|easy].
        assert (Hnd : pick is_dependent (n_pols n) = []).
        { destruct (pick_cases is_dependent (n_pols n)) as [|(p & _ & Hin2 & Hf)]; [easy|].
          destruct p; try discriminate. destruct Hsane as [_ Hsane]. now apply (Hsane ns ns0) in Hin2. }
        rewrite Ea, Hnd. cbn [app run_policies pre_parse_phase].
        rewrite (alias_forward ns n parents t' vals rest tg0 c c mode) by (auto; lia). cbn [rbind run_policies].
        rewrite (Hok _ _ (Act UseSubs) (Adp [] rest) eq_refl) by (unfold check_label; now rewrite En).
        rewrite En. cbn [a_unproc a_proc tl add_subs tg0 tg_subs app].
        apply (nr_takes _ _ _ _ _ (Some (norm_token n t')) vals); auto.
        -- intros ns' Hin'. exfalso. destruct Hsane as [_ Hsane]. now apply (Hsane ns ns') in Hin'.
        -- right. exists ns, mode. auto.
    + assert (Hcon : consumes n (p_args s) None vals rest) by (now constructor).
      assert (Had : addressed n (p_args s)) by (right; auto).
      assert (Hna : forall ns, ~ In (PAlias ns) (n_pols n)).
      { intros ns Hin. destruct (Hal ns Hin). congruence. }
      assert (Hpa : pick is_alias (n_pols n) = []).
      { destruct (pick_alias n) as [[Ea _]|(ns & _ & Hin)]; [easy|]. now apply Hna in Hin. }
      assert (Hck : forall m, check_label n m (Adp vals rest) = Some (Adp vals rest)) by (intros m; unfold check_label; now rewrite En).
      assert (Hmk : makes n parents vals vals []) by (left; auto).
      rewrite Hpa. cbn [app].
      destruct (pick_cases is_dependent (n_pols n)) as [Ed|(p & Ed & Hin & Hf)]; rewrite Ed.
      * cbn [run_policies]. rewrite (Hok _ _ (Act Valid) _ eq_refl (Hck (Act Valid))). rewrite En.
        cbn [a_unproc a_proc tg_subs tg0]. apply (nr_takes _ _ _ _ _ None vals); auto.
        intros ns Hns. exfalso. pose proof (find_none is_dependent (n_pols n)) as Hfn. unfold pick in Ed.
        destruct (find is_dependent (n_pols n)); [discriminate|]. now specialize (Hfn eq_refl _ Hns).
      * destruct p; try discriminate. cbn [run_policies pre_parse_phase].
        destruct (Hdp _ Hin) as [H1 H2]. unfold phase_dependent.
        destruct (nearest_mode_like parents) as [mode|] eqn:Emd; [|easy]. destruct pt as [ptg|]; [|easy].
        destruct (first_absent ptg (ref_owners ns mode)) as [d|] eqn:Eab; cbn [rbind run_policies].
        -- rewrite Herr by (rewrite Hck; discriminate).
           apply nr_rejects; auto. right. split; [eauto|]. split; [|split; [easy|exists ns, mode, ptg, d; easy]].
           intros Hd. destruct (Hd ns Hin) as (mode' & t2 & E1 & E2 & E3).
           rewrite Emd in E1. injection E1 as <-. injection E2 as <-. congruence.
        -- rewrite (Hok _ _ (Act Valid) _ eq_refl (Hck (Act Valid))). rewrite En.
           cbn [a_unproc a_proc tg_subs tg0]. apply (nr_takes _ _ _ _ _ None vals); auto.
           intros ns' Hin'. exists mode, ptg. split; [easy|]. split; [easy|].
           assert (PDependent ns' = PDependent ns) as [= ->]; [|easy].
           apply (nodup_map_inj pol_tag (n_pols n)); auto. apply L.
  - destruct r; [easy| | | |]; cbn [rbind]; apply (nr_chokes _ _ _ _ _ _ x); auto.
  - rewrite run_policies_stuck by easy. rewrite Herr.
    + now apply nr_disabled.
    + apply (check_label_head n _ _ t En); [reflexivity|easy].
  - rewrite run_policies_stuck by easy. rewrite Hskip. now apply nr_passes.
  - rewrite run_policies_stuck by easy. destruct Hp as [(He & Had & Href & Hck)|(Hp & Hck)].
    + rewrite Herr by easy. apply nr_rejects; auto. left. split; [|easy]. intros label vals rest Hx.
      inversion Hx as [t2 value2 us2 t2' us2' va2 re2 Hn2 Hf2 Hg2 Hm2 Hc2|va2 re2 Hn2 _ Hc2]; subst.
      * apply (Hns [t2'] vals rest). left. split; [easy|]. eauto 12.
      * apply (Hns [] vals rest). right. auto.
    + rewrite Hnone by easy. now apply nr_passes.
  - apply (Hmis a (Tok PShort [])); auto.
    change (norm_token n (Tok PShort [])) with (Tok PShort []). now apply empty_short_false.
Qed.

(** Lemmas on the pre-parse of a single node. *)
From Verif Require Import SpecTake.
From Verif Require Import Bytes Token Adapter Result CodePoint Utf8 Tree PreParse Root Validator.
From Verif Require Import SpecPolicy SpecTokens SpecAdapter AdapterProofs TokenProofs OrderProofs PermProofs.
From Verif Require Import SpecUtf8 CodePointProofs Utf8Proofs.
From Coq Require Import Permutation.

(** ** Running policies in stages *)

Definition going (m : presult) : bool := match m with Act Skip | Err _ _ => false | _ => true end.

Lemma run_policies_stuck ps : forall a pt tg n parents m,
  going m = false -> run_policies ps a pt tg n parents m = Ok (a, tg, m).
Proof.
  induction ps as [|p ps IH]; intros a pt tg n parents m Hm; cbn [run_policies]; [easy|].
  destruct (pre_parse_phase _ _ _ _ _ _); [|now apply IH].
  destruct m as [[]|]; try discriminate; now apply IH.
Qed.

Lemma run_policies_app l1 : forall l2 a pt tg n parents m,
  run_policies (l1 ++ l2) a pt tg n parents m
  = rbind (run_policies l1 a pt tg n parents m)
          (fun '(a', tg', m') => run_policies l2 a' pt tg' n parents m').
Proof.
  induction l1 as [|p l1 IH]; intros; cbn [app run_policies]; [easy|].
  destruct (pre_parse_phase _ _ _ _ _ _) as [r|]; [|apply IH].
  destruct m as [[]|]; try apply IH.
  all: destruct r as [[[a' tg'] m']| | | |]; cbn [rbind]; auto.
Qed.

(** If the end of a run is not stuck then no stage was. *)
Lemma run_policies_app_going l1 l2 a pt tg n parents m a2 tg2 m2 :
  run_policies (l1 ++ l2) a pt tg n parents m = Ok (a2, tg2, m2) -> going m2 = true ->
  exists a1 tg1 m1,
    run_policies l1 a pt tg n parents m = Ok (a1, tg1, m1) /\ going m1 = true
    /\ run_policies l2 a1 pt tg1 n parents m1 = Ok (a2, tg2, m2).
Proof.
  rewrite run_policies_app. intros H G.
  destruct (run_policies l1 a pt tg n parents m) as [[[a1 tg1] m1]| | | |]; try discriminate.
  cbn [rbind] in H. exists a1, tg1, m1. split; [easy|]. split; [|easy].
  destruct (going m1) eqn:E; [easy|]. rewrite run_policies_stuck in H by easy.
  injection H as -> -> ->. congruence.
Qed.

Lemma run_pick f ps a pt tg n parents m a' tg' m' :
  (forall p, f p = true -> phased p = true) ->
  run_policies (pick f ps) a pt tg n parents m = Ok (a', tg', m') -> going m = true -> going m' = true ->
  (a' = a /\ tg' = tg /\ m' = m /\ forall p, In p ps -> f p = false)
  \/ exists p r, In p ps /\ f p = true /\ pre_parse_phase p a pt tg n parents = Some (Ok (a', tg', r))
             /\ m' = match m, r with Act UseSubs, Act Valid => Act UseSubs | _, _ => r end
             /\ going r = true.
Proof.
  unfold pick. destruct (find f ps) as [p|] eqn:Ef; cbn [run_policies]; intros Hph H G G'.
  2:{ injection H as <- <- <-. left. repeat (split; [easy|]). intros p Hin.
      now apply (find_none _ _ Ef p Hin). }
  apply find_some in Ef as [Hin Hf].
  destruct (pre_parse_phase p a pt tg n parents) as [r|] eqn:E; cbn [run_policies] in H.
  - right. destruct m as [[]|]; try discriminate;
        destruct r as [[[a1 t1] m1]| | | |]; try discriminate; cbn [rbind run_policies] in H;
        injection H as <- <- <-; exists p, m1; (split; [easy|]; split; [easy|]; split; [easy|]);
        destruct m1 as [[]|]; try discriminate; easy.
  - apply pre_parse_phase_phased in E. rewrite Hph in E by easy. discriminate.
Qed.

(** ** The stages *)

Lemma keep_inv (r : res (adapter * presult)) tg a' tg' m :
  rbind r (fun '(a1, m1) => Ok (a1, tg, m1)) = Ok (a', tg' : target, m) -> r = Ok (a', m) /\ tg' = tg.
Proof. destruct r as [[a1 m1]| | | |]; cbn [rbind]; try discriminate. now intros [= <- <- <-]. Qed.

Lemma find_first_of_spec set s i :
  find_first_of set s = Some i ->
  i < List.length s /\ (forall c, In c set -> ~ In c (firstn i s)).
Proof.
  revert i. induction s as [|d s IH]; intros i; cbn [find_first_of]; [easy|].
  destruct (mem_byte d set) eqn:E.
  - intros [= <-]. cbn. split; [lia|auto].
  - destruct (find_first_of set s) as [j|]; [|easy]. intros [= <-].
    destruct (IH j eq_refl) as [H1 H2]. cbn. split; [lia|].
    intros c Hc [->|Hin]; [|now apply (H2 c)].
    assert (mem_byte c set = true); [|congruence].
    clear -Hc. induction set as [|x set IH]; cbn [mem_byte] in *; [easy|].
    destruct Hc as [->|Hc]; [now rewrite Ascii.eqb_refl|]. rewrite IH by easy. apply orb_true_r.
Qed.

Lemma a_deref_begin a : a_deref a a_begin = nth_error (a_all a) 0.
Proof. unfold a_begin. rewrite deref_all. cbn. now destruct (a_all a). Qed.

Lemma short_candidate_str n t ft : short_candidate n t = Some ft ->
  t_prefix ft = PShort /\ token_str ft = token_str t /\ t_prefix t <> PLong.
Proof.
  unfold short_candidate. destruct t as [[] nm]; cbn [t_prefix t_name]; try discriminate.
  - now intros [= <-].
  - destruct (t_prefix (node_get_token n nm)) eqn:E; try discriminate. intros [= <-].
    split; [easy|]. split; [|easy]. unfold node_get_token. now rewrite get_token_type_for_str.
Qed.

Lemma transfer_begin a : transfer a a_begin =
  match a_proc a, a_unproc a with [], t :: us => Adp [t] us | _, _ => a end.
Proof.
  destruct a as [[|t pr] [|u us]]; unfold transfer, a_begin, a_size, zlen; cbn [a_proc a_unproc].
  - reflexivity.
  - assert (H : (Z.of_nat (List.length (@nil token)) + Z.of_nat (List.length (u :: us)) <=? 0)%Z = false)
      by (cbn [List.length]; lia).
    rewrite H. reflexivity.
  - match goal with |- context [if ?c then _ else 0%Z] => destruct c eqn:E end;
      [cbn [List.length] in E; lia|].
    assert (H : (0 <? Z.of_nat (List.length (t :: pr)))%Z = true) by (cbn [List.length]; lia).
    now rewrite H.
  - match goal with |- context [if ?c then _ else 0%Z] => destruct c eqn:E end;
      [cbn [List.length] in E; lia|].
    assert (H : (0 <? Z.of_nat (List.length (t :: pr)))%Z = true) by (cbn [List.length]; lia).
    now rewrite H.
Qed.

Lemma set_front t pr us v : a_set (Adp (t :: pr) us) a_begin v = Some (Adp (v :: pr) us).
Proof.
  unfold a_set, a_begin. change (IAt 0) with a_begin. rewrite transfer_begin. cbn [a_proc a_unproc].
  unfold zlen. cbn [a_proc a_unproc].
  assert (H : (0 <? 0)%Z || (Z.of_nat (List.length (t :: pr)) <=? 0)%Z = false)
    by (cbn [List.length]; lia).
  now rewrite H.
Qed.

Lemma insert_second t us v :
  a_insert (Adp [] (t :: us)) (i_add a_begin 1) [v] = Some (Adp [t; v] us, IAt 1).
Proof.
  unfold a_insert, a_begin. cbn [i_add]. change (0 + 1 + -1)%Z with 0%Z. change (IAt 0) with a_begin.
  rewrite transfer_begin. cbn [a_proc a_unproc]. unfold is_end, a_size, zlen. cbn [a_proc a_unproc].
  destruct us as [|u us].
  - reflexivity.
  - destruct (_ <=? _)%Z eqn:E; [cbn [List.length] in E; lia|]. reflexivity.
Qed.

Lemma skipn_add {A} (l : list A) : forall i j, skipn (i + j) l = skipn j (skipn i l).
Proof. induction l as [|x l IH]; intros [|i] j; cbn [Nat.add skipn]; auto; now rewrite ?skipn_nil. Qed.

Lemma stage_separator n sep args a' :
  phase_value_separator sep n (Adp [] args) = Ok (a', Act Valid) ->
  (args = [] /\ a' = Adp [] [])
  \/ exists p label s v us,
       args = Tok p (label ++ s ++ v) :: us /\ a' = Adp [Tok p label; Tok PNone v] us
       /\ List.length s = List.length sep /\ (forall c, In c sep -> ~ In c label) /\ v <> [].
Proof.
  unfold phase_value_separator. destruct args as [|[p nm] us]; [cbn; intros [= <-]; now left|].
  cbn [a_empty a_proc a_unproc a_deref a_begin]. cbn [zlen List.length Z.of_nat Z.leb Z.compare].
  cbn [znth Z.sub Z.opp Z.add Z.ltb Z.compare Z.to_nat nth_error or_ub rbind t_name t_prefix].
  destruct (find_first_of sep nm) as [i|] eqn:E.
  - destruct (Nat.ltb _ _) eqn:El; [discriminate|]. apply Nat.ltb_ge in El.
    destruct (skipn (i + List.length sep) nm) as [|c v] eqn:Ev; [discriminate|].
    rewrite insert_second. cbn [or_ub rbind]. rewrite set_front. cbn [or_ub rbind].
    intros [= <-]. right.
    destruct (find_first_of_spec _ _ _ E) as [Hi Hn].
    exists p, (firstn i nm), (firstn (List.length sep) (skipn i nm)), (c :: v), us.
    split.
    + f_equal. f_equal. rewrite <- Ev, skipn_add.
      now rewrite !firstn_skipn.
    + split; [easy|]. split; [|easy].
      rewrite firstn_length, skipn_length. lia.
  - destruct (match_node n _); discriminate.
Qed.

Lemma stage_expander n a a' :
  phase_short_form n a = Ok (a', Act Valid) ->
  a' = a
  \/ exists t pr us ft gs,
       transfer a a_begin = Adp (t :: pr) us /\ t_prefix ft = PShort /\ token_str ft = token_str t
       /\ t_prefix t <> PLong /\ graphemes (t_name ft) = Some gs
       /\ a' = Adp (Tok PShort (match gs with [] => [] | g :: _ => g end) :: pr) (map (Tok PShort) (tl gs) ++ us).
Proof.
  unfold phase_short_form. destruct (a_empty a) eqn:Ee; [intros [= <-]; now left|].
  rewrite a_deref_begin.
  destruct (nth_error (a_all a) 0) as [first|] eqn:Ef; [|discriminate]. cbn [or_ub rbind].
  destruct (short_candidate n first) as [ft|] eqn:Ec; [|intros [= <-]; now left].
  destruct (short_name n) as [sn|]; [|discriminate].
  destruct (Nat.eqb _ _); [intros [= <-]; now left|].
  destruct (N.ltb _ _); [discriminate|].
  destruct (graphemes (t_name ft)) as [gs|] eqn:Eg; [|discriminate]. cbn [or_ub rbind].
  apply short_candidate_str in Ec as (Ep & Es & El).
  assert (Ht : exists pr us, transfer a a_begin = Adp (first :: pr) us).
  { rewrite transfer_begin. destruct a as [[|t pr] [|u us]]; cbn [a_proc a_unproc]; unfold a_all in Ef;
      cbn in Ef; try discriminate; injection Ef as ->; eauto. }
  destruct Ht as (pr & us & Ht). rewrite Ht. cbn [a_proc a_unproc]. rewrite set_front. cbn [or_ub rbind].
  intros [= <-]. right. exists first, pr, us, ft, gs. auto 10.
Qed.

Lemma find_marker_spec m ts : forall i,
  match find_marker m ts i with
  | IEnd => forall t, In t ts -> t_name t <> m
  | IAt j => exists before t after,
      ts = before ++ t :: after /\ t_name t = m /\ (forall u, In u before -> t_name u <> m)
      /\ j = (i + zlen before)%Z
  end.
Proof.
  induction ts as [|t ts IH]; intros i; cbn [find_marker]; [easy|].
  destruct (beq (t_name t) m) eqn:E.
  - apply beq_eq in E. exists [], t, ts. split; [easy|]. split; [easy|]. split; [easy|]. cbn. lia.
  - apply beq_neq in E. specialize (IH (i + 1)%Z). destruct (find_marker m ts (i + 1)).
    + intros u [<-|Hu]; auto.
    + destruct IH as (bf & u & af & -> & Hu & Hb & ->). exists (t :: bf), u, af.
      split; [easy|]. split; [easy|]. split.
      * intros w [<-|Hw]; auto.
      * unfold zlen. cbn [List.length]. lia.
Qed.

Lemma erase_end a : a_erase a IEnd = Some a.
Proof. unfold a_erase. reflexivity. Qed.

(** After the end marker stage. *)
Lemma stage_marker n m a a' r :
  phase_end_marker m n a = Ok (a', r) ->
  r = Act Valid
  /\ ((a' = Adp (a_all a) [] /\ forall t, In t (skipn (if is_named n then 1 else 0) (a_all a)) -> t_name t <> m)
      \/ exists before t after,
           a_all a = before ++ t :: after /\ t_name t = m /\ a_all a' = before ++ after
           /\ (if is_named n then 1 else 0) <= List.length before
           /\ (forall u, In u (skipn (if is_named n then 1 else 0) before) -> t_name u <> m)
           /\ (List.length (a_proc a) <= List.length before -> a' = Adp before after)).
Proof.
  unfold phase_end_marker. set (off := if is_named n then 1 else 0).
  pose proof (find_marker_spec m (skipn off (a_all a)) (Z.of_nat off)) as H.
  destruct (find_marker m (skipn off (a_all a)) (Z.of_nat off)) as [|j].
  - rewrite erase_end. cbn [or_ub rbind]. intros [= <- <-]. split; [easy|]. left.
    split; [|easy]. now apply transfer_end.
  - destruct H as (bf & t & af & Hs & Ht & Hb & ->).
    assert (Hoff : off <= List.length (a_all a)).
    { destruct (Nat.le_gt_cases off (List.length (a_all a))) as [|Hgt]; [easy|].
      rewrite skipn_all2 in Hs by lia. now destruct bf. }
    assert (Hall : a_all a = (firstn off (a_all a) ++ bf) ++ t :: af)
      by (rewrite <- app_assoc, <- Hs; now rewrite firstn_skipn).
    set (before := firstn off (a_all a) ++ bf) in *.
    assert (Hlen : (Z.of_nat off + zlen bf)%Z = Z.of_nat (List.length before)).
    { unfold before, zlen. rewrite app_length, firstn_length. lia. }
    rewrite Hlen. set (j := Z.of_nat (List.length before)).
    assert (Hj : (0 <= j < a_size a)%Z).
    { rewrite a_size_all, Hall. unfold zlen. rewrite app_length. cbn [List.length]. lia. }
    destruct (a_erase (transfer a (IAt j)) (IAt j)) as [a2|] eqn:Ee; [|discriminate].
    cbn [or_ub rbind]. intros [= <- <-]. split; [easy|]. right. exists before, t, af.
    split; [easy|]. split; [easy|].
    assert (Hr : remove_at (a_all a) (List.length before) = before ++ af).
    { unfold remove_at. rewrite Hall. rewrite firstn_app, Nat.sub_diag, firstn_all. cbn [firstn].
      rewrite app_nil_r. f_equal.
      replace (S (List.length before)) with (List.length (before ++ [t]))
        by (rewrite app_length; cbn; lia).
      change (before ++ t :: af) with (before ++ ([t] ++ af)). rewrite app_assoc.
      now rewrite skipn_app_len. }
    assert (Hb0 : off <= List.length before).
    { unfold before. rewrite app_length, firstn_length. lia. }
    assert (Hall' : a_all a2 = before ++ af).
    { unfold a_erase in Ee. unfold is_end in Ee. rewrite transfer_size in Ee.
      destruct (a_size a <=? j)%Z eqn:E1; [lia|]. destruct (j <? 0)%Z eqn:E2; [lia|].
      assert (Et := transfer_all a (IAt j)).
      destruct (transfer a (IAt j)) as [pr un]. unfold a_all in Et at 1. cbn [a_proc a_unproc] in *.
      destruct (j <? zlen pr)%Z eqn:E3; injection Ee as <-; unfold a_all; cbn [a_proc a_unproc].
      - rewrite <- Hr. rewrite <- Et. unfold j. rewrite Nat2Z.id.
        unfold j, zlen in E3. unfold remove_at.
        rewrite firstn_app, skipn_app.
        replace (List.length before - List.length pr) with 0 by lia.
        replace (S (List.length before) - List.length pr) with 0 by lia.
        cbn [firstn skipn]. now rewrite app_nil_r, app_assoc.
      - rewrite <- Hr. rewrite <- Et. unfold j, zlen in *.
        replace (Z.to_nat (Z.of_nat (List.length before) - Z.of_nat (List.length pr)))
          with (List.length before - List.length pr) by lia.
        unfold remove_at. rewrite firstn_app, skipn_app.
        rewrite (firstn_all2 pr) by lia. rewrite (skipn_all2 pr) by lia.
        cbn [app]. rewrite app_assoc. f_equal. f_equal. lia. }
    split; [easy|]. split; [easy|]. split.
    + intros u Hu. unfold before in Hu. rewrite skipn_app in Hu. apply in_app_iff in Hu as [Hu|Hu].
      * rewrite skipn_firstn_comm in Hu. now rewrite Nat.sub_diag in Hu.
      * rewrite firstn_length in Hu. replace (off - Nat.min off (List.length (a_all a))) with 0 in Hu by lia.
        now apply Hb.
    + intros Hp. unfold a_erase, is_end in Ee. rewrite transfer_size in Ee.
      destruct (a_size a <=? j)%Z eqn:E1; [lia|]. destruct (j <? 0)%Z eqn:E2; [lia|].
      rewrite transfer_at in Ee by (unfold zlen; lia).
      cbn [a_proc a_unproc] in Ee.
      replace (Z.to_nat (j + 1)) with (List.length (before ++ [t])) in Ee
        by (rewrite app_length; cbn; lia).
      assert (Hall2 : a_all a = (before ++ [t]) ++ af) by (now rewrite <- app_assoc).
      rewrite Hall2, firstn_app, Nat.sub_diag, firstn_all, skipn_app_len in Ee. cbn [firstn] in Ee.
      rewrite app_nil_r in Ee.
      destruct (j <? zlen (before ++ [t]))%Z eqn:E3;
        [|unfold zlen in E3; rewrite app_length in E3; cbn [List.length] in E3; lia].
      injection Ee as <-. f_equal. unfold j. rewrite Nat2Z.id. unfold remove_at.
      rewrite firstn_app, Nat.sub_diag, firstn_all. cbn [firstn].
      rewrite skipn_all2 by (rewrite app_length; cbn; lia). now rewrite !app_nil_r.
Qed.

(** ** Facts about accepted nodes used at the pre-parse stage *)

Record leaf_ok (n : node) : Prop := {
  lo_tags : NoDup (map pol_tag (n_pols n));
  lo_prio : distinct_priorities (n_pols n);
  lo_sep : forall s, In (PValueSeparator s) (n_pols n) -> count_bounds n = Some (1, 1)%N;
  lo_sepne : forall s, In (PValueSeparator s) (n_pols n) -> s <> [];
  lo_exp : In PShortFormExpander (n_pols n) -> exists s, short_name n = Some s;
  lo_short : forall s, short_name n = Some s -> s <> [];
  lo_marker : forall m, In (PTokenEndMarker m) (n_pols n) ->
              exists mn mx, count_bounds n = Some (mn, mx) /\ mn <> mx;
  lo_alias : forall ns, In (PAlias ns) (n_pols n) -> exists c, count_bounds n = Some (c, c);
  lo_count : forall mn mx, count_bounds n = Some (mn, mx) -> (mn <= mx <= size_max)%N }.

Lemma graphemes_nil : graphemes [] = Some [].
Proof. vm_compute. reflexivity. Qed.

Lemma policy_selected {B} (f : policy -> option B) t n p y :
  (forall q z, f q = Some z -> pol_tag q = t) -> NoDup (map pol_tag (n_pols n)) ->
  In p (n_pols n) -> f p = Some y -> first_some f (n_pols n) = Some y.
Proof.
  intros Ht Hd Hin E. destruct (first_some f (n_pols n)) as [z|] eqn:Ez.
  - destruct (first_some_in _ _ _ Ez) as (q & Hq & Eq).
    assert (p = q); [|congruence]. eapply nodup_map_inj; [exact Hd| | |]; auto.
    now rewrite (Ht _ _ E), (Ht _ _ Eq).
  - rewrite (proj1 (first_some_none f _) Ez p Hin) in E. discriminate.
Qed.

Lemma core_leaf n tp : core_ok n tp -> leaf_ok n.
Proof.
  intros H. pose proof (core_tags _ _ H) as Ht. pose proof (core_priorities _ _ H) as Hp.
  constructor; auto.
  - intros s Hs. destruct (H _ Hs) as [Hs' _]. cbn [static_core policy_static] in Hs'.
    apply andb_true_iff in Hs' as [_ Hs'].
    destruct (count_bounds n) as [[mn mx]|]; [|easy].
    apply andb_true_iff in Hs' as [E1 E2]. apply N.eqb_eq in E1, E2. now subst.
  - intros s Hs. destruct (H _ Hs) as [Hs' _]. cbn [static_core policy_static] in Hs'.
    apply andb_true_iff in Hs' as [Hs' _]. apply andb_true_iff in Hs' as [Hs' _].
    unfold gcount_is in Hs'. intros ->. rewrite graphemes_nil in Hs'. discriminate.
  - intros Hs. destruct (H _ Hs) as [Hs' _]. cbn [static_core policy_static] in Hs'.
    destruct (short_name n); [eauto|easy].
  - intros s Hs. unfold short_name in Hs. apply first_some_in in Hs as (p & Hin & E).
    destruct p; try discriminate. injection E as ->. destruct (H _ Hin) as [Hs' _].
    cbn [static_core] in Hs'. unfold gcount_is in Hs'.
    intros ->. rewrite graphemes_nil in Hs'. discriminate.
  - intros m Hm. destruct (H _ Hm) as [Hs' _]. cbn [static_core policy_static] in Hs'.
    apply andb_true_iff in Hs' as [Hs' _]. apply andb_true_iff in Hs' as [_ Hs'].
    destruct (count_bounds n) as [[mn mx]|]; [|easy]. exists mn, mx. split; [easy|].
    apply negb_true_iff in Hs'. now apply N.eqb_neq in Hs'.
  - intros ns Hn. destruct (H _ Hn) as [Hs' _]. cbn [static_core policy_static] in Hs'.
    apply andb_true_iff in Hs' as [_ Hs'].
    destruct (count_bounds n) as [[mn mx]|]; [|easy].
    destruct (nearest_mode_like (n :: tp)); [|easy].
    apply andb_true_iff in Hs' as [Hs' _]. apply andb_true_iff in Hs' as [Hs' _]. apply andb_true_iff in Hs' as [Hs' _].
    apply N.eqb_eq in Hs'. subst. eauto.
  - intros mn mx Hc. unfold count_bounds in Hc. apply first_some_in in Hc as (p & Hin & E).
    destruct p; try discriminate. injection E as -> ->. destruct (H _ Hin) as [Hs' _].
    cbn [static_core policy_static] in Hs'. apply andb_true_iff in Hs' as [E1 E2].
    apply N.leb_le in E1, E2. easy.
Qed.
Lemma node_ok_leaf n tp : node_ok (n, tp) = true -> leaf_ok n.
Proof. intros H. exact (core_leaf _ _ (node_ok_core _ _ H)). Qed.

Lemma count_selected n mn mx :
  NoDup (map pol_tag (n_pols n)) -> In (PMinMaxCount mn mx) (n_pols n) -> count_bounds n = Some (mn, mx).
Proof.
  intros Hd Hin. eapply (policy_selected _ 7%N); [|exact Hd|exact Hin|easy].
  intros q z. destruct q; try discriminate. easy.
Qed.

(** ** The remaining stages *)

Lemma norm_token_str n t : token_str (norm_token n t) = token_str t.
Proof.
  unfold norm_token. destruct t as [[] nm]; cbn [t_prefix t_name]; auto.
  unfold node_get_token. now rewrite get_token_type_for_str.
Qed.

Lemma transfer_proc_le a i :
  List.length (a_proc (transfer a (IAt i))) <= Nat.max (List.length (a_proc a)) (Z.to_nat (i + 1)).
Proof.
  unfold transfer. destruct (_ || _) eqn:E; [lia|]. apply orb_false_iff in E as [E1 E2].
  cbn [a_proc]. rewrite app_length, firstn_length. unfold zlen in *.
  destruct (a_size a <=? i)%Z eqn:E3; unfold a_size, zlen in *; lia.
Qed.

Lemma stage_count n mn mx a a' :
  phase_min_max_count mn mx n a = (a', Act Valid) ->
  exists k, a' = transfer a (IAt k) /\ (k + 1 <= Z.of_N (size_pred (count_offset n mx)) + 1)%Z.
Proof.
  unfold phase_min_max_count.
  destruct (_ && _); [discriminate|]. destruct (N.ltb _ _); [discriminate|].
  cbn [a_begin i_add]. intros [= <-].
  eexists. split; [reflexivity|]. unfold to_ptrdiff, size_mod.
  destruct (N.ltb _ _); lia.
Qed.

Lemma match_node_named n t : match_node n t = true -> is_named n = true.
Proof.
  unfold match_node, is_named.
  destruct (long_name n), (short_name n), (none_name n); cbn; auto.
Qed.

Lemma stage_alias ns n parents a tg a' tg' r :
  phase_alias ns n parents a tg = Ok (a', tg', r) -> going r = true ->
  r = Act UseSubs
  /\ exists c mx mode t vals rest,
       count_bounds n = Some (c, mx) /\ nearest_mode_like (n :: parents) = Some mode
       /\ a_all a = t :: vals ++ rest /\ nlen vals = c /\ match_node n (norm_token n t) = true
       /\ tg' = add_subs tg (alias_subs ns mode vals)
       /\ (List.length (a_proc a) <= N.to_nat c + 1 -> a' = Adp [] rest).
Proof.
  unfold phase_alias. destruct (count_bounds n) as [[c mx]|] eqn:Ec; [|discriminate].
  destruct (nearest_mode_like (n :: parents)) as [mode|] eqn:Em; [|discriminate].
  destruct (Z.ltb_spec (a_size a) (Z.of_nat (N.to_nat c) + 1)) as [|Hs]; [intros [= <- <- <-]; easy|].
  rewrite a_deref_begin. destruct (a_all a) as [|t ts] eqn:Ea; [discriminate|].
  cbn [nth_error or_ub rbind].
  destruct (match_node n (norm_token n t)) eqn:Eq; [|intros [= <- <- <-]; easy].
  cbn [negb]. intros [= <- <- <-] _. split; [easy|].
  rewrite a_size_all, Ea in Hs. unfold zlen in Hs. cbn [List.length] in Hs.
  exists c, mx, mode, t, (firstn (N.to_nat c) ts), (skipn (N.to_nat c) ts).
  split; [easy|]. split; [easy|]. split; [now rewrite firstn_skipn|]. split.
  { unfold nlen. rewrite firstn_length. lia. }
  split; [easy|]. rewrite transfer_all, Ea. cbn [skipn]. split; [easy|].
  intros Hp. unfold a_begin, i_add. 
  rewrite transfer_at; [|rewrite a_size_all, Ea; unfold zlen; cbn [List.length]; lia|unfold zlen; lia].
  cbn [a_proc a_unproc]. rewrite Ea.
  replace (Z.to_nat (Z.of_nat (N.to_nat c) + 1)) with (S (N.to_nat c)) by lia.
  f_equal.
  apply skipn_all2. rewrite firstn_length. cbn [List.length]. lia.
Qed.

(** ** What a matching node takes *)

Record matched (n : node) (parents : list node) (ts : list token) (t : target) (rest : list token) : Prop := {
  mt_node : tg_node t = n;
  mt_parents : tg_parents t = parents;
  mt_takes : exists label vals, takes n ts label vals rest
    /\ ((forall ns, ~ In (PAlias ns) (n_pols n)) /\ tg_toks t = vals /\ tg_subs t = []
        \/ exists ns c mode, In (PAlias ns) (n_pols n) /\ count_bounds n = Some (c, c) /\ nlen vals = c
             /\ nearest_mode_like (n :: parents) = Some mode
             /\ tg_toks t = [] /\ tg_subs t = alias_subs ns mode vals) }.


(** ** Weights *)

Lemma token_weight_pos t : 1 <= token_weight t.
Proof. unfold token_weight. lia. Qed.

Lemma args_weight_cons t ts : args_weight (t :: ts) = token_weight t + args_weight ts.
Proof. reflexivity. Qed.

Lemma args_weight_app x y : args_weight (x ++ y) = args_weight x + args_weight y.
Proof. unfold args_weight. now rewrite map_app, list_sum_app. Qed.

Lemma args_weight_length ts : List.length ts <= args_weight ts.
Proof.
  induction ts as [|t ts IH]; [cbn; lia|]. rewrite args_weight_cons. cbn [List.length].
  pose proof (token_weight_pos t). lia.
Qed.

Lemma args_weight_shorts gs : Forall (fun g => g <> []) gs ->
  args_weight (map (Tok PShort) gs) = List.length (List.concat gs).
Proof.
  induction 1 as [|g gs Hg _ IH]; [easy|]. cbn [map List.concat]. rewrite args_weight_cons, IH, app_length.
  unfold token_weight. cbn [t_name]. destruct g; [easy|]. cbn [List.length]. lia.
Qed.

Lemma split_front_weight n ts ts' : leaf_ok n -> split_front n ts ts' ->
  args_weight ts' <= args_weight ts /\ (ts <> [] -> ts' <> []).
Proof.
  intros L [|sep p label s v us Hin Hl Hc Hv]; [easy|]. split; [|easy].
  rewrite !args_weight_cons. unfold token_weight. cbn [t_name]. rewrite !app_length.
  pose proof (lo_sepne _ L _ Hin). destruct sep; [easy|]. destruct v; [easy|]. cbn [List.length] in *. lia.
Qed.

Lemma group_front_weight n ts ts' : group_front n ts ts' ->
  args_weight ts' <= args_weight ts /\ (ts <> [] -> ts' <> []).
Proof.
  intros [|t g gs bt us Hin Hp Hs Hg Hb]; [easy|]. split; [|easy].
  destruct (graphemes_partition _ _ Hg) as [_ Hne].
  pose proof (args_weight_shorts _ Hne) as Hw. cbn [map] in Hw.
  rewrite !args_weight_cons, !args_weight_app in *.
  assert (token_weight t >= List.length (List.concat (g :: gs))); [|lia].
  unfold token_weight. apply (f_equal (@List.length ascii)) in Hs. unfold token_str in Hs.
  rewrite !app_length in Hs. destruct t as [[] nm]; cbn [t_prefix t_name prefix_str] in *; [easy| |];
    unfold short_prefix in Hs; cbn [b list_ascii_of_string] in Hs; cbn [List.length] in Hs; lia.
Qed.

Lemma drop_marker_weight n ts ts' : drop_marker n ts ts' -> ts' = ts \/ args_weight ts' < args_weight ts.
Proof.
  intros [|m t bf af Hin Ht Hb]; [now left|right]. rewrite !args_weight_app, args_weight_cons.
  pose proof (token_weight_pos t). lia.
Qed.

Lemma rewritten_weight n ts ts' : leaf_ok n -> rewritten n ts ts' -> args_weight ts' <= args_weight ts.
Proof.
  intros L (t1 & t2 & H1 & H2 & H3). apply split_front_weight in H1 as [H1 _]; auto.
  apply group_front_weight in H2 as [H2 _]. apply drop_marker_weight in H3 as [->|H3]; lia.
Qed.

Lemma transfer_proc_ne a it : a_proc a <> [] -> a_proc (transfer a it) <> [].
Proof.
  intros H. unfold transfer. destruct (_ || _); [easy|]. cbn [a_proc]. destruct (a_proc a); easy.
Qed.

Lemma stage_count_progress n mn mx a a' :
  is_named n = false -> (1 <= mx)%N -> token_end_marker n = None ->
  a_all a <> [] -> fits (a_all a) -> phase_min_max_count mn mx n a = (a', Act Valid) -> a_proc a' <> [].
Proof.
  intros En Hmx Em Ha Hf. unfold phase_min_max_count, count_offset. rewrite En, Em.
  cbn [is_some andb]. destruct (N.ltb _ _); [discriminate|]. intros [= <-].
  assert (Hsz : (1 <= a_size a)%Z).
  { rewrite a_size_all. destruct (a_all a); [easy|]. unfold zlen. cbn [List.length]. lia. }
  assert (Hsz' : (a_size a < 9223372036854775808)%Z).
  { rewrite a_size_all. unfold fits in Hf. pose proof (args_weight_length (a_all a)). unfold zlen. lia. }
  set (k := N.min _ _).
  assert (Hk : (k <= Z.to_N (a_size a) - 1)%N).
  { unfold k, size_pred. destruct (N.eqb_spec (Z.to_N (a_size a)) 0); lia. }
  unfold to_ptrdiff. destruct (N.ltb_spec k 9223372036854775808); [|lia].
  cbn [a_begin i_add].
  pose proof (transfer_proc_len a (Z.of_N k)) as Hp.
  intros E. rewrite E in Hp. unfold zlen in Hp. cbn [List.length] in Hp. lia.
Qed.

(** The tokens after the rewriting stages: as the specification says, or an empty short name in front
    (from a lone "-"), which never matches. *)
Definition rewritten' (n : node) (ts ts' : list token) : Prop :=
  rewritten n ts ts' \/ exists us, ts' = Tok PShort [] :: us /\ exists s, short_name n = Some s.

Lemma stages n pt tg parents args a tg' m :
  leaf_ok n ->
  run_policies (priority_order (n_pols n)) (Adp [] args) pt tg n parents (Act Valid) = Ok (a, tg', m) ->
  going m = true ->
  exists a5 : adapter,
    rewritten' n args (a_all a5)
    /\ (is_named n = false -> args <> [] -> fits args ->
        (exists mn mx, count_bounds n = Some (mn, mx) /\ (1 <= mx)%N) ->
        a_proc a5 <> [] \/ args_weight (a_all a5) < args_weight args)
    /\ ((forall ns, ~ In (PAlias ns) (n_pols n)) /\ a = a5 /\ tg' = tg /\ m = Act Valid
        \/ exists ns c mode t vals rest,
             In (PAlias ns) (n_pols n) /\ count_bounds n = Some (c, c)
             /\ nearest_mode_like (n :: parents) = Some mode
             /\ a_all a5 = t :: vals ++ rest /\ nlen vals = c /\ match_node n (norm_token n t) = true
             /\ tg' = add_subs tg (alias_subs ns mode vals) /\ m = Act UseSubs /\ a = Adp [] rest).
Proof.
  intros L. rewrite run_policies_order by apply L. unfold phase_order. intros H G.
  apply run_policies_app_going in H as (a1 & tg1 & m1 & H1 & G1 & H); [|easy].
  apply run_policies_app_going in H as (a2 & tg2 & m2 & H2 & G2 & H); [|easy].
  apply run_policies_app_going in H as (a3 & tg3 & m3 & H3 & G3 & H); [|easy].
  apply run_policies_app_going in H as (a4 & tg4 & m4 & H4 & G4 & H); [|easy].
  apply run_policies_app_going in H as (a5 & tg5 & m5 & H5 & G5 & H); [|easy].
  apply run_policies_app_going in H as (a6 & tg6 & m6 & H6 & G6 & H7); [|easy].
  (* separator *)
  assert (S1 : m1 = Act Valid /\ tg1 = tg /\ split_front n args (a_all a1)
               /\ (a_proc a1 = [] \/ List.length (a_proc a1) = 2 /\ exists s, In (PValueSeparator s) (n_pols n))).
  { apply run_pick in H1 as [(-> & -> & -> & Hno)|(p & r & Hin & Hf & Hp & -> & Gr)]; auto;
      try (intros q; destruct q; easy).
    - split; [easy|]. split; [easy|]. split; [apply split_no|now left].
    - destruct p; try discriminate. cbn [pre_parse_phase] in Hp. injection Hp as Hp.
      apply keep_inv in Hp as [Hp ->].
      assert (r = Act Valid) as ->.
      { clear -Hp Gr. unfold phase_value_separator in Hp. destruct (a_empty _); [congruence|].
        destruct (a_deref _ _); [|discriminate]. cbn [or_ub rbind] in Hp.
        destruct (find_first_of _ _).
        - destruct (Nat.ltb _ _); [discriminate|]. destruct (skipn _ _).
          + injection Hp as <- <-. discriminate.
          + destruct (a_insert _ _ _) as [[]|]; [|discriminate]. cbn [or_ub rbind] in Hp.
            destruct (a_set _ _ _); [|discriminate]. cbn [or_ub rbind] in Hp. congruence.
        - destruct (match_node _ _); injection Hp as <- <-; discriminate. }
      split; [easy|]. split; [easy|].
      apply stage_separator in Hp as [(-> & ->)|(p & l & sb & v & us & -> & -> & Hl & Hc & Hv)].
      + split; [apply split_no|now left].
      + split; [|right; eauto]. unfold a_all; cbn [a_proc a_unproc app]. eapply split_yes; eauto. }
  destruct S1 as (-> & -> & S1 & P1).
  (* expander *)
  assert (S2 : m2 = Act Valid /\ tg2 = tg
               /\ (group_front n (a_all a1) (a_all a2)
                   \/ exists us, a_all a2 = Tok PShort [] :: us /\ exists s, short_name n = Some s)
               /\ (List.length (a_proc a2) <= 1
                   \/ List.length (a_proc a2) = 2 /\ exists s, In (PValueSeparator s) (n_pols n))).
  { apply run_pick in H2 as [(-> & -> & -> & Hno)|(p & r & Hin & Hf & Hp & -> & Gr)]; auto;
      try (intros q; destruct q; easy).
    - split; [easy|]. split; [easy|]. split; [left; apply group_no|].
      destruct P1 as [->|P1]; [left; cbn; lia|now right].
    - destruct p; try discriminate. cbn [pre_parse_phase] in Hp. injection Hp as Hp.
      apply keep_inv in Hp as [Hp ->].
      assert (r = Act Valid) as ->.
      { clear -Hp Gr. unfold phase_short_form in Hp. destruct (a_empty _); [congruence|].
        destruct (a_deref _ _); [|discriminate]. cbn [or_ub rbind] in Hp.
        destruct (short_candidate _ _); [|congruence]. destruct (short_name _); [|discriminate].
        destruct (Nat.eqb _ _); [congruence|]. destruct (N.ltb _ _); [discriminate|].
        destruct (graphemes _); [|discriminate]. cbn [or_ub rbind] in Hp.
        destruct (a_set _ _ _); [|discriminate]. cbn [or_ub rbind] in Hp. congruence. }
      split; [easy|]. split; [easy|].
      apply stage_expander in Hp as [->|(t & pr & us & ft & gs & Ht & Hpf & Hs & Hpl & Hg & ->)].
      + split; [left; apply group_no|]. destruct P1 as [->|P1]; [left; cbn; lia|now right].
      + assert (Hall : a_all a1 = t :: pr ++ us) by (rewrite <- (transfer_all a1 a_begin), Ht; reflexivity).
        assert (Hpr : pr = [] \/ List.length pr = 1 /\ exists s, In (PValueSeparator s) (n_pols n)).
        { rewrite transfer_begin in Ht. destruct P1 as [P1|[P1 Hsep]].
          - rewrite P1 in Ht. destruct (a_unproc a1); [|injection Ht as <- <- <-; now left].
            destruct a1; cbn in *. congruence.
          - right. split; [|easy]. destruct a1 as [[|? pr1] un1]; cbn in *; [discriminate|].
            injection Ht as -> -> ->. lia. }
        unfold a_all at 2 3. cbn [a_proc a_unproc]. split.
        * destruct gs as [|g gs].
          -- right. cbn [app]. eexists. split; [reflexivity|]. now apply (lo_exp _ L).
          -- left. cbn [tl app]. rewrite Hall.
             destruct (graphemes_partition _ _ Hg) as [Hcat _].
             apply group_yes; auto.
             ++ rewrite <- Hs. unfold token_str. rewrite Hpf. f_equal. symmetry. exact Hcat.
             ++ etransitivity; [|exact Hg]. f_equal. exact Hcat.
             ++ destruct Hpr as [->|[_ ?]]; auto.
        * destruct Hpr as [->|[Hl ?]]; [left; cbn; lia|right]. cbn [a_proc List.length]. split; [lia|easy]. }
  destruct S2 as (-> & -> & S2 & P2). clear P1.
  (* runtime enable *)
  assert (S3 : m3 = Act Valid /\ tg3 = tg /\ a3 = a2).
  { apply run_pick in H3 as [(-> & -> & -> & Hno)|(p & r & Hin & Hf & Hp & -> & Gr)]; auto;
      try (intros q; destruct q; easy).
    destruct p; try discriminate; cbn [pre_parse_phase rbind] in Hp; injection Hp as <- <- <-;
      destruct enabled; try discriminate; easy. }
  destruct S3 as (-> & -> & ->).
  (* end marker *)
  assert (S4 : m4 = Act Valid /\ tg4 = tg /\ rewritten' n args (a_all a4)
               /\ ((exists mk, In (PTokenEndMarker mk) (n_pols n))
                   \/ List.length (a_proc a4) <= 1
                   \/ List.length (a_proc a4) = 2 /\ exists s, In (PValueSeparator s) (n_pols n))
               /\ (is_named n = false -> args <> [] ->
                   a_proc a4 <> [] \/ args_weight (a_all a4) < args_weight args
                   \/ token_end_marker n = None /\ a_all a4 <> [])).
  { assert (W2 : is_named n = false -> args_weight (a_all a2) <= args_weight args /\ (args <> [] -> a_all a2 <> [])).
    { intros En. destruct S2 as [S2|(us & _ & sn & Hs)].
      - apply split_front_weight in S1 as [W1 N1]; auto. apply group_front_weight in S2 as [W2 N2]. split; [lia|auto].
      - unfold is_named in En. rewrite Hs, orb_true_r in En. discriminate. }
    apply run_pick in H4 as [(-> & -> & -> & Hno)|(p & r & Hin & Hf & Hp & -> & Gr)]; auto;
      try (intros q; destruct q; easy).
    - split; [easy|]. split; [easy|].
      split; [|split; [now right|]].
      2:{ intros En Hne. right. right. split; [|now apply W2].
          unfold token_end_marker. apply first_some_none. intros q Hq. specialize (Hno q Hq).
          now destruct q. }
      destruct S2 as [S2|S2]; [left|right]; [|easy].
      exists (a_all a1), (a_all a2). split; [easy|]. split; [easy|apply marker_no].
    - destruct p; try discriminate. cbn [pre_parse_phase] in Hp. injection Hp as Hp.
      apply keep_inv in Hp as [Hp ->]. apply stage_marker in Hp as [-> Hp].
      split; [easy|]. split; [easy|].
      split; [|split; [now left; eauto|]].
      2:{ intros En Hne. destruct (W2 En) as [W W']. specialize (W' Hne).
          destruct Hp as [(-> & _)|(bf & t & af & E & Ht & -> & _)].
          - left. cbn [a_proc]. easy.
          - right. left. rewrite E in W. rewrite args_weight_app, args_weight_cons in W.
            rewrite args_weight_app. pose proof (token_weight_pos t). lia. }
      destruct S2 as [S2|(us & Eus & sn & Esn)].
      + left. exists (a_all a1), (a_all a2). split; [easy|]. split; [easy|].
        destruct Hp as [(-> & _)|(bf & t & af & -> & Ht & -> & _ & Hn & _)].
        * unfold a_all at 2. cbn [a_proc a_unproc]. rewrite app_nil_r. apply marker_no.
        * eapply marker_yes; eauto. intros u Hu. apply Hn. destruct (is_named n); [|easy].
          now destruct bf.
      + right. destruct Hp as [(-> & _)|(bf & t & af & E & Ht & -> & Hb & Hn & _)].
        * unfold a_all at 1. cbn [a_proc a_unproc]. rewrite app_nil_r. eauto.
        * rewrite Eus in E. destruct bf as [|b0 bf].
          -- unfold is_named in Hb. rewrite Esn in Hb. rewrite orb_true_r in Hb. cbn in Hb. lia.
          -- cbn [app] in E |- *. injection E as <- E. eauto. }
  destruct S4 as (-> & -> & S4 & P4 & Q4).
  (* count *)
  assert (S5 : m5 = Act Valid /\ tg5 = tg /\ rewritten' n args (a_all a5)
               /\ (forall c, count_bounds n = Some (c, c) -> is_named n = true ->
                   List.length (a_proc a5) <= N.to_nat c + 1)
               /\ (is_named n = false -> args <> [] -> fits args ->
                   (exists mn mx, count_bounds n = Some (mn, mx) /\ (1 <= mx)%N) ->
                   a_proc a5 <> [] \/ args_weight (a_all a5) < args_weight args)).
  { assert (P4' : forall c, count_bounds n = Some (c, c) -> List.length (a_proc a4) <= N.to_nat c + 1).
    { intros c Hc. destruct P4 as [(mk & Hm)|[P4|[P4 (s & Hs)]]].
      - destruct (lo_marker _ L _ Hm) as (mn & mx & E & Hne). congruence.
      - lia.
      - rewrite (lo_sep _ L _ Hs) in Hc. injection Hc as <-. rewrite P4. cbn. lia. }
    apply run_pick in H5 as [(-> & -> & -> & Hno)|(p & r & Hin & Hf & Hp & -> & Gr)]; auto;
      try (intros q; destruct q; easy).
    { repeat (split; [now auto|]). intros _ _ _ (mn & mx & E & _). exfalso. unfold count_bounds in E.
      apply first_some_in in E as (q & Hq & Eq). specialize (Hno q Hq). destruct q; discriminate. }
    destruct p; try discriminate. cbn [pre_parse_phase rbind] in Hp.
    destruct (phase_min_max_count mn mx n a4) as [a5' r'] eqn:Ec. injection Hp as -> -> ->.
    assert (r = Act Valid) as ->.
    { unfold phase_min_max_count in Ec. destruct (_ && _); [injection Ec as <- <-; discriminate|].
      destruct (N.ltb _ _); injection Ec as <- <-; [discriminate|easy]. }
    split; [easy|]. split; [easy|].
    pose proof Ec as Ec'. apply stage_count in Ec' as (k & -> & Hk). rewrite transfer_all. split; [easy|].
    split.
    2:{ intros En Hne Hfit (mn' & mx' & E & Hmx).
        rewrite (count_selected _ _ _ (lo_tags _ L) Hin) in E. injection E as <- <-.
        destruct (Q4 En Hne) as [Q|[Q|[Q1 Q2]]]; [left; now apply transfer_proc_ne|now right|left].
        eapply stage_count_progress; eauto.
        destruct S4 as [S4|(us & _ & sn & Hs)].
        - apply rewritten_weight in S4; auto. unfold fits in *. lia.
        - unfold is_named in En. rewrite Hs, orb_true_r in En. discriminate. }
    intros c Hc Hnm. pose proof (transfer_proc_le a4 k) as Hle. specialize (P4' c Hc).
    rewrite (count_selected _ _ _ (lo_tags _ L) Hin) in Hc. injection Hc as -> ->.
    assert (Hoff : (Z.of_N (size_pred (count_offset n c)) <= Z.of_N c)%Z).
    { pose proof (lo_count _ L c c (count_selected _ _ _ (lo_tags _ L) Hin)).
      unfold count_offset. rewrite Hnm. unfold size_pred.
      destruct (N.eqb_spec c size_max) as [->|]; [vm_compute; discriminate|].
      destruct (N.eqb_spec (c + 1) 0); lia. }
    lia. }
  destruct S5 as (-> & -> & S5 & P5 & Q5). clear P4 Q4.
  exists a5. split; [easy|]. split; [easy|].
  (* dependency *)
  assert (S7 : a6 = a /\ tg6 = tg' /\ (m6 = Act Valid -> m = Act Valid) /\ (m6 = Act UseSubs -> m = Act UseSubs)).
  { apply run_pick in H7 as [(-> & -> & -> & Hno)|(p & r & Hin & Hf & Hp & -> & Gr)]; auto;
      try (intros q; destruct q; easy).
    destruct p; try discriminate. cbn [pre_parse_phase] in Hp. injection Hp as Hp.
    apply keep_inv in Hp as [Hp ->].
    destruct (phase_dependent ns parents pt) as [r0| | | |] eqn:Ed; try discriminate. cbn [rbind] in Hp.
    injection Hp as <- <-.
    assert (r0 = Act Valid) as ->.
    { unfold phase_dependent in Ed. destruct (nearest_mode_like parents), pt; try discriminate.
      destruct (first_absent _ _); [injection Ed as <-; discriminate|]. congruence. }
    destruct m6 as [[]|]; try discriminate; easy. }
  destruct S7 as (-> & -> & M1 & M2).
  apply run_pick in H6 as [(-> & -> & -> & Hno)|(p & r & Hin & Hf & Hp & -> & Gr)]; auto;
      try (intros q; destruct q; easy).
  - left. split; [|auto].
    (* no alias policy, since its phase would have run *)
    intros ns Hns. discriminate (Hno _ Hns).
  - right. destruct p; try discriminate. cbn [pre_parse_phase] in Hp. injection Hp as Hp.
    apply stage_alias in Hp as (-> & c & mx & mode & t & vals & rest & Hc & Hm & Ha & Hl & Hq & -> & Hadp); auto.
    destruct (lo_alias _ L _ Hin) as (c' & Hc'). rewrite Hc' in Hc. injection Hc as -> ->.
    exists ns, mx, mode, t, vals, rest. split; [easy|]. split; [easy|]. split; [easy|].
    split; [easy|]. split; [easy|]. split; [easy|]. split; [easy|]. split; [auto|].
    apply Hadp. apply P5; auto. eapply match_node_named; eauto.
Qed.

Lemma node_pre_parse_inv n parents pt v s s' r :
  node_pre_parse n parents pt v s = (s', r) ->
  match r with
  | Ok (Some t) =>
      exists a tg m a', run_policies (priority_order (n_pols n)) (Adp [] (p_args s)) pt (Target n parents [] [])
                                     n parents (Act Valid) = Ok (a, tg, m)
                 /\ going m = true /\ check_label n m a = Some a'
                 /\ v n (p_mem s) = (p_mem s', Ok true) /\ p_args s' = a_unproc a'
                 /\ t = Target n parents (if is_named n then tl (a_proc a') else a_proc a') (tg_subs tg)
  | _ => p_args s' = p_args s
  end.
Proof.
  unfold node_pre_parse, mbind, mlift.
  destruct (run_policies _ _ _ _ _ _ _) as [[[a tg] m]| | | |]; try (intros [= <- <-]; easy).
  destruct m as [[]|c ts].
  - intros [= <- <-]. easy.
  - destruct (check_label n (Act Valid) a) as [a'|] eqn:El; [|intros [= <- <-]; easy].
    unfold run_validator. destruct (v n (p_mem s)) as [m' [[]| | | |]] eqn:Ev; cbn;
      intros [= <- <-]; try easy.
    exists a, tg, (Act Valid), a'. cbn. auto 10.
  - destruct (check_label n (Act UseSubs) a) as [a'|] eqn:El; [|intros [= <- <-]; easy].
    unfold run_validator. destruct (v n (p_mem s)) as [m' [[]| | | |]] eqn:Ev; cbn;
      intros [= <- <-]; try easy.
    exists a, tg, (Act UseSubs), a'. cbn. auto 10.
  - destruct (check_label n (Err c ts) a) as [a'|] eqn:El; [|intros [= <- <-]; easy].
    unfold run_validator. destruct (v n (p_mem s)) as [m' [[]| | | |]] eqn:Ev; cbn;
      intros [= <- <-]; easy.
Qed.

Lemma empty_short_false n : leaf_ok n -> (exists s, short_name n = Some s) ->
  match_node n (Tok PShort []) = false.
Proof.
  intros L (sn & E). unfold match_node. rewrite E. cbn [t_prefix prefix_eqb t_name andb orb].
  pose proof (lo_short _ L _ E) as Hne. destruct sn; [easy|]. cbn.
  now destruct (long_name n), (none_name n).
Qed.

Lemma node_matched n parents pt v s s' t :
  leaf_ok n -> node_pre_parse n parents pt v s = (s', Ok (Some t)) ->
  matched n parents (p_args s) t (p_args s').
Proof.
  intros L H. apply node_pre_parse_inv in H as (a & tg & m & a' & Hr & Hg & Hl & Hv & Ha & ->).
  apply stages in Hr as (a5 & Hw & _ & Hc); auto.
  constructor; [easy|easy|]. rewrite Ha. cbn [tg_toks tg_subs].
  destruct Hc as [(Hno & -> & -> & ->)|(ns & c & mode & t & vals & rest & Hns & Hb & Hm & Hall & Hlen & Hq & -> & -> & ->)].
  - (* ordinary match *)
    unfold check_label in Hl. destruct (is_named n) eqn:En.
    + assert (exists t0 vals, a_all a5 = t0 :: vals ++ a_unproc a' /\ tl (a_proc a') = vals
                /\ match_node n (norm_token n t0) = true) as (t0 & vals & E1 & E2 & E3).
      { unfold a_all. destruct a5 as [[|p0 pr] [|u us]]; cbn [a_proc a_unproc] in *; try discriminate.
        - destruct (match_node n (norm_token n u)) eqn:E; [|discriminate]. injection Hl as <-.
          exists u, []. auto.
        - destruct (match_node n (norm_token n p0)) eqn:E; [|discriminate]. injection Hl as <-.
          exists p0, pr. auto.
        - destruct (match_node n (norm_token n p0)) eqn:E; [|discriminate]. injection Hl as <-.
          exists p0, pr. auto. }
      rewrite E1 in Hw. exists (Some (norm_token n t0)), vals. split.
      * destruct Hw as [Hw|(us & Eus & Hs)].
        -- apply (takes_named _ _ t0); auto. now rewrite norm_token_str.
        -- exfalso. injection Eus as -> _. change (norm_token n (Tok PShort [])) with (Tok PShort []) in E3.
           rewrite empty_short_false in E3 by easy. discriminate.
      * left. auto.
    + injection Hl as <-. exists None, (a_proc a5). split; [|left; auto].
      apply takes_unnamed; [easy|]. destruct Hw as [Hw|(us & _ & sn & Hs)]; [easy|].
      unfold is_named in En. rewrite Hs, orb_true_r in En. discriminate.
  - unfold check_label in Hl. assert (En : is_named n = true) by (eapply match_node_named; eauto).
    rewrite En in Hl. injection Hl as <-. cbn [a_unproc a_proc].
    exists (Some (norm_token n t)), vals. split.
    + destruct Hw as [Hw|(us & Eus & Hs)].
      * rewrite Hall in Hw. apply (takes_named _ _ t); auto. now rewrite norm_token_str.
      * exfalso. rewrite Hall in Eus. injection Eus as -> _.
        change (norm_token n (Tok PShort [])) with (Tok PShort []) in Hq.
        rewrite empty_short_false in Hq by easy. discriminate.
    + right. exists ns, c, mode. rewrite En. repeat (split; [easy|]).
      cbn [tl add_subs tg_subs app]. easy.
Qed.

(** ** Progress *)

Definition consumer (n : node) : Prop :=
  is_named n = true \/ exists mn mx, count_bounds n = Some (mn, mx) /\ (1 <= mx)%N.

Lemma takes_weight n ts label vals rest : leaf_ok n -> takes n ts label vals rest ->
  args_weight vals + args_weight rest <= args_weight ts
  /\ (label <> None -> args_weight vals + args_weight rest < args_weight ts).
Proof.
  intros L [t l v r En Es Em Hw|v r En Hw]; apply rewritten_weight in Hw; auto.
  - rewrite args_weight_cons, args_weight_app in Hw. pose proof (token_weight_pos t). split; intros; lia.
  - rewrite args_weight_app in Hw. split; [lia|easy].
Qed.

Lemma node_progress n parents pt v s s' t :
  leaf_ok n -> consumer n -> fits (p_args s) -> p_args s <> [] ->
  node_pre_parse n parents pt v s = (s', Ok (Some t)) ->
  args_weight (p_args s') < args_weight (p_args s).
Proof.
  intros L C Hf Hne H. destruct (is_named n) eqn:En.
  - apply node_matched in H; auto. destruct H as [_ _ (label & vals & Ht & _)].
    pose proof (takes_weight _ _ _ _ _ L Ht) as [_ Hw].
    assert (label <> None) by (inversion Ht; congruence). specialize (Hw H). lia.
  - destruct C as [C|C]; [congruence|].
    apply node_pre_parse_inv in H as (a & tg & m & a' & Hr & Hg & Hl & Hv & Ha & ->).
    apply stages in Hr as (a5 & Hw & Hp & Hc); auto. specialize (Hp En Hne Hf C). rewrite Ha.
    destruct Hc as [(_ & -> & _ & ->)|(ns & c & mode & t & vals & rest & _ & _ & _ & _ & _ & Hq & _)].
    + unfold check_label in Hl. rewrite En in Hl. injection Hl as <-.
      assert (Hw' : args_weight (a_all a5) <= args_weight (p_args s)).
      { destruct Hw as [Hw|(us & _ & sn & Hs)]; [now apply rewritten_weight in Hw|].
        unfold is_named in En. rewrite Hs, orb_true_r in En. discriminate. }
      unfold a_all in *. rewrite args_weight_app in *. destruct Hp as [Hp|Hp]; [|lia].
      destruct (a_proc a5) as [|t pr]; [easy|]. rewrite args_weight_cons in Hw'.
      pose proof (token_weight_pos t). lia.
    + apply match_node_named in Hq. congruence.
Qed.

(** Whatever happens in the phases, they end. *)
Definition regular {A} (r : res A) : Prop := r <> OutOfFuel /\ r <> Exited.

Lemma regular_rbind {A B} (r : res A) (f : A -> res B) :
  regular r -> (forall x, r = Ok x -> regular (f x)) -> regular (rbind r f).
Proof. intros [H1 H2] Hf. destruct r; cbn [rbind]; try (split; easy). now apply Hf. Qed.

Lemma regular_or_ub {A} (o : option A) : regular (or_ub o).
Proof. destruct o; split; easy. Qed.

Lemma phase_regular p a pt tg n parents r : pre_parse_phase p a pt tg n parents = Some r -> regular r.
Proof.
  destruct p; cbn [pre_parse_phase]; intros [= <-];
    try (apply regular_rbind; [|intros [? ?] _; split; easy]);
    try (split; easy).
  - destruct (phase_min_max_count _ _ _ _). split; easy.
  - unfold phase_value_separator. destruct (a_empty a); [split; easy|].
    apply regular_rbind; [apply regular_or_ub|]. intros f _.
    destruct (find_first_of _ _); [|destruct (match_node _ _); split; easy].
    destruct (Nat.ltb _ _); [split; easy|]. destruct (skipn _ _); [split; easy|].
    apply regular_rbind; [apply regular_or_ub|]. intros [? ?] _.
    apply regular_rbind; [apply regular_or_ub|]. intros ? _. split; easy.
  - unfold phase_short_form. destruct (a_empty a); [split; easy|].
    apply regular_rbind; [apply regular_or_ub|]. intros f _.
    destruct (short_candidate n f); [|split; easy]. destruct (short_name n); [|split; easy].
    destruct (Nat.eqb _ _); [split; easy|]. destruct (N.ltb _ _); [split; easy|].
    apply regular_rbind; [apply regular_or_ub|]. intros ? _.
    apply regular_rbind; [apply regular_or_ub|]. intros ? _. split; easy.
  - unfold phase_end_marker. apply regular_rbind; [apply regular_or_ub|]. intros ? _. split; easy.
  - unfold phase_alias. destruct (count_bounds n) as [[? ?]|]; [|split; easy].
    destruct (nearest_mode_like _); [|split; easy]. destruct (Z.ltb _ _); [split; easy|].
    apply regular_rbind; [apply regular_or_ub|]. intros ? _. destruct (negb _); split; easy.
  - apply regular_rbind; [|intros ? _; split; easy].
    unfold phase_dependent. destruct (nearest_mode_like _), pt; try (split; easy).
    destruct (first_absent _ _); split; easy.
Qed.

Lemma run_policies_regular ps : forall a pt tg n parents m,
  regular (run_policies ps a pt tg n parents m).
Proof.
  induction ps as [|p ps IH]; intros; cbn [run_policies]; [split; easy|].
  destruct (pre_parse_phase p a pt tg n parents) as [r|] eqn:E; [|apply IH].
  apply phase_regular in E. destruct m as [[]|]; try apply IH.
  all: apply regular_rbind; [easy|]; intros [[? ?] ?] _; apply IH.
Qed.

Lemma node_pre_parse_regular n parents pt v s s' r :
  (forall c m, regular (snd (v c m))) -> node_pre_parse n parents pt v s = (s', r) -> regular r.
Proof.
  intros Hv. unfold node_pre_parse, mbind, mlift.
  pose proof (run_policies_regular (priority_order (n_pols n)) (Adp [] (p_args s)) pt (Target n parents [] [])
                                   n parents (Act Valid)) as Hr.
  destruct (run_policies _ _ _ _ _ _ _) as [[[a tg] m]| | | |]; try (intros [= <- <-]; split; easy);
    try (destruct Hr; easy).
  pose proof (Hv n (p_mem s)) as Hvn. unfold run_validator.
  destruct m as [[]|]; try (intros [= <- <-]; split; easy);
    (destruct (check_label n _ a); [|intros [= <- <-]; split; easy]);
    destruct (v n (p_mem s)) as [m' [[]| | | |]]; cbn in *; intros [= <- <-]; try (split; easy);
      destruct Hvn; easy.
Qed.

Lemma pick_none f ps : (forall p, In p ps -> f p = false) -> pick f ps = [].
Proof.
  intros H. unfold pick. destruct (find f ps) eqn:E; [|easy]. apply find_some in E as [Hin Hf].
  now rewrite H in Hf.
Qed.

Lemma enable_selected ps :
  match pick is_enable ps with
  | [] => first_some (fun p => match p with PRuntimeEnable e | PRuntimeEnableRequired e _ => Some e | _ => None end) ps = None
  | p :: _ => exists e, (p = PRuntimeEnable e \/ exists d, p = PRuntimeEnableRequired e d)
      /\ first_some (fun p => match p with PRuntimeEnable e | PRuntimeEnableRequired e _ => Some e | _ => None end) ps = Some e
  end.
Proof.
  unfold pick. induction ps as [|p ps IH]; [easy|]. cbn [find first_some].
  destruct p; cbn [is_enable]; try exact IH; eauto.
Qed.

(** The runtime enable stage. *)
Lemma stage_enable n a pt tg parents :
  run_policies (pick is_enable (n_pols n)) a pt tg n parents (Act Valid)
  = Ok (a, tg, Act (match runtime_enabled n with Some false => Skip | _ => Valid end)).
Proof.
  pose proof (enable_selected (n_pols n)) as H. unfold runtime_enabled.
  destruct (pick_cases is_enable (n_pols n)) as [E|(p & E & _ & _)]; rewrite E in *.
  - rewrite H. reflexivity.
  - destruct H as (e & [->|(d & ->)] & ->); cbn; destruct e; reflexivity.
Qed.

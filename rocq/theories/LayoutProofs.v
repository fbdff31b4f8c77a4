(** Lemmas on the layout of lines: C64. *)
From Verif Require Import Bytes CodePoint Utf8 SpecUtf8 SpecLines SpecBreaks CodePointProofs Utf8Proofs LineProofs
  BreakProofs.
From Verif Require Import TabGrapheme TabLine TabWhitespace TabZero TabDouble.
Local Open Scope nat_scope.

(** ** Tables *)

Lemma in_rows_found rows table c : exact_lookup rows table ->
  (find_range table c <> None <-> in_rows rows c).
Proof.
  intros L. destruct (L c) as [L1 L2]. split.
  - intros H. destruct (existsb (fun r => (fst (fst r) <=? c)%N && (c <=? snd (fst r))%N) rows) eqn:D.
    + apply existsb_exists in D as ([[f l] m] & Hin & Hc). cbn [fst snd] in Hc.
      apply andb_true_iff in Hc as [Hc1 Hc2]. apply N.leb_le in Hc1, Hc2. now exists f, l, m.
    + elim H. apply L2. intros f l m Hin Hc.
      assert (T : existsb (fun r => (fst (fst r) <=? c)%N && (c <=? snd (fst r))%N) rows = true).
      { apply existsb_exists. exists (f, l, m). split; [exact Hin|]. cbn [fst snd].
        apply andb_true_iff. split; apply N.leb_le; apply Hc. }
      congruence.
  - intros (f & l & m & Hin & Hc). destruct (L1 f l m Hin Hc) as (r & -> & _). discriminate.
Qed.

Definition good (c : N) : Prop := scalar c /\ ~ boundary_lead c.

Lemma white_iff c : good c -> is_whitespace (encode c) = true <-> white c.
Proof.
  intros [H1 H2]. unfold is_whitespace, white. rewrite (decode_encode c H1 H2).
  rewrite <- (in_rows_found whitespace_table_rows whitespace_tab) by apply tables_lookup.
  destruct (find_range whitespace_tab c); split; intros H; try easy.
Qed.

Definition wd (c : N) : nat := cp_width (encode c).

Lemma takes_wd c : good c -> takes c (wd c).
Proof.
  intros [H1 H2]. unfold wd, cp_width. rewrite (decode_encode c H1 H2).
  pose proof (in_rows_found double_width_table_rows double_width_tab c) as D.
  pose proof (in_rows_found zero_width_table_rows zero_width_tab c) as Z.
  destruct tables_lookup as (_ & _ & _ & TZ & TD). specialize (D TD). specialize (Z TZ). clear TZ TD.
  destruct (find_range double_width_tab c).
  - apply takes_two. apply D. discriminate.
  - assert (~ in_rows double_width_table_rows c) by (intros H; now apply D in H).
    destruct (find_range zero_width_tab c).
    + apply takes_none; [assumption|]. apply Z. discriminate.
    + apply takes_one; [assumption|]. intros H'. now apply Z in H'.
Qed.

Lemma takes_fun c x y : takes c x -> takes c y -> x = y.
Proof. intros H1 H2. destruct H1; inversion H2; subst; auto; contradiction. Qed.

Definition tw (cs : list N) : nat := cps_width (map encode cs).

Lemma tw_cons c cs : tw (c :: cs) = wd c + tw cs.
Proof. reflexivity. Qed.
Lemma tw_app cs ds : tw (cs ++ ds) = tw cs + tw ds.
Proof. unfold tw. now rewrite map_app, cps_width_app. Qed.

Lemma text_takes_tw cs : Forall good cs -> text_takes cs (tw cs).
Proof.
  induction 1 as [|c cs Hc _ IH]; [constructor|]. rewrite tw_cons. constructor; [now apply takes_wd|exact IH].
Qed.

Lemma text_takes_fun cs x y : text_takes cs x -> text_takes cs y -> x = y.
Proof.
  intros H. revert y. induction H as [|c cs x y H1 H2 IH]; intros z Hz; inversion Hz; subst; [reflexivity|].
  f_equal; [eapply takes_fun; eassumption|]. now apply IH.
Qed.

(** ** Classes *)

Definition all_classes : list lclass :=
  [l_any; AL; BA; BB; B2; BK; CB; CL; CM; CP; CR; EB; EM; EX; GL; H2; H3; HY; ID; HL; IN; IS; JL; JT; JV;
   LF; NL; NS; NU; OP; PO; PR; QU; RI; SP; SY; WJ; ZW; ZWJ].
Definition l_of (x : N) : lclass := nth (N.to_nat x) all_classes l_any.

Lemma l_of_number x : (x <= 38)%N -> l_number (l_of x) = x.
Proof.
  intros H. assert (E : forallb (fun i => N.eqb (l_number (l_of (N.of_nat i))) (N.of_nat i)) (seq 0 39) = true)
    by (vm_compute; reflexivity).
  rewrite forallb_forall in E. specialize (E (N.to_nat x)). rewrite N2Nat.id in E.
  apply N.eqb_eq, E. apply in_seq. lia.
Qed.

Definition kc (c : N) : lclass := l_of (extract_class line_table c).

Lemma line_rows_small : forallb (fun r => (snd r <=? 38)%N) line_break_table_rows = true.
Proof. vm_compute. reflexivity. Qed.

Lemma kc_number c : l_number (kc c) = extract_class line_table c.
Proof.
  unfold kc. apply l_of_number. unfold extract_class.
  destruct (find_range line_table c) as [r|] eqn:E; [|lia].
  destruct tables_lookup as (_ & TL & _).
  pose proof (in_rows_found line_break_table_rows line_table c TL) as [D _]. destruct (TL c) as [L1 _].
  rewrite E in D. destruct D as (f & l & m & Hin & Hc); [discriminate|].
  destruct (L1 f l m Hin Hc) as (r' & E' & _ & _ & Em). assert (r = r') by congruence. subst r'. rewrite Em.
  pose proof line_rows_small as S. rewrite forallb_forall in S. specialize (S _ Hin). cbn [snd] in S.
  now apply N.leb_le in S.
Qed.

Lemma kc_is c : l_class_is c (kc c).
Proof.
  unfold l_class_is. rewrite kc_number. unfold extract_class.
  destruct tables_lookup as (_ & TL & _).
  pose proof (in_rows_found line_break_table_rows line_table c TL) as D. destruct (TL c) as [L1 L2].
  destruct (find_range line_table c) as [r|] eqn:E.
  - left. destruct D as [D _]. destruct D as (f & l & m & Hin & Hc); [discriminate|].
    destruct (L1 f l m Hin Hc) as (r' & E' & _ & _ & <-).
    assert (r = r') by congruence. subst. exists f, l. split; [exact Hin|exact Hc].
  - right. split; [reflexivity|]. intros f l m Hin Hc.
    apply (proj2 D); [|reflexivity]. exists f, l, m. split; [exact Hin|exact Hc].
Qed.

Lemma l_class_fun c k : l_class_is c k -> k = kc c.
Proof.
  intros H. apply l_number_inj. rewrite kc_number. symmetry.
  apply (extract_listed line_break_table_rows); [|exact H]. apply tables_lookup.
Qed.

Lemma classes_are cs : Forall2 l_class_is cs (map kc cs).
Proof. induction cs; constructor; [apply kc_is|assumption]. Qed.

Lemma classes_fun cs ks : Forall2 l_class_is cs ks -> ks = map kc cs.
Proof. induction 1 as [|c k cs ks H _ ->]; [reflexivity|]. cbn [map]. now rewrite (l_class_fun c k H). Qed.

Lemma place_iff h p c : place h p c <-> p <> [] /\ ~ unbroken (rev (map kc p) ++ h) (kc c).
Proof.
  unfold place. split.
  - intros (H0 & ks & k & H1 & H2 & H3). rewrite <- (classes_fun _ _ H1), <- (l_class_fun _ _ H2). auto.
  - intros [H0 H]. split; [exact H0|]. exists (map kc p), (kc c).
    split; [apply classes_are|]. split; [apply kc_is|exact H].
Qed.

(** ** The scan *)

(** A break behind [j] code points of [t], as the code computes it (the class behind the end is
    [l_any]). *)
Definition spot (h : list lclass) (t : list N) (j : nat) : Prop :=
  ~ unbroken (rev (map kc (firstn j t)) ++ h) (nth j (map kc t) l_any).

(** [j] is the last spot up to [n], 0 if there is none. *)
Definition last_spot (h : list lclass) (t : list N) (n j : nat) : Prop :=
  j <= n /\ (0 < j -> spot h t j) /\ forall i, j < i <= n -> ~ spot h t i.

Lemma last_spot_step_yes h t n j : last_spot h t n j -> spot h t (S n) -> last_spot h t (S n) (S n).
Proof. intros _ H. split; [lia|]. split; [auto|]. intros i Hi. lia. Qed.
Lemma last_spot_step_no h t n j : last_spot h t n j -> ~ spot h t (S n) -> last_spot h t (S n) j.
Proof.
  intros (H1 & H2 & H3) H. split; [lia|]. split; [auto|]. intros i Hi.
  destruct (Nat.eq_dec i (S n)) as [->|]; [exact H|apply H3; lia].
Qed.

Lemma scan_exact max h rest : forall done w j,
  Forall good rest ->
  shows l_number w (rev (map kc done) ++ h) -> tw done <= max ->
  last_spot h (done ++ rest) (List.length done) j ->
  exists fitted over j',
    done ++ rest = fitted ++ over
    /\ tw fitted <= max
    /\ match over with [] => True | c :: _ => max < tw (fitted ++ [c]) end
    /\ last_spot h (fitted ++ over) (List.length fitted) j'
    /\ let r := line_scan max w (tw done) (List.length done) (tw (firstn j done)) j (map encode rest) in
       shows l_number (snd r) (rev (map kc fitted) ++ h)
       /\ fst r = match over with
                  | [] => List.length fitted
                  | _ => if Nat.eqb (tw (firstn j' fitted)) 0 then List.length fitted else j'
                  end.
Proof.
  induction rest as [|c rest IH]; intros done w j Hg Hw Hfit Hj.
  - exists done, [], j. cbn [map line_scan fst snd]. split; [reflexivity|]. split; [exact Hfit|].
    split; [exact I|]. split; [exact Hj|]. split; [exact Hw|reflexivity].
  - inversion Hg as [|? ? [Hc1 Hc2] Hg']; subst. cbn [map line_scan].
    change (cp_width (encode c)) with (wd c).
    destruct (Nat.ltb_spec max (tw done + wd c)) as [Hover|Hok].
    + exists done, (c :: rest), j. split; [reflexivity|]. split; [exact Hfit|]. split.
      { rewrite tw_app, tw_cons. change (tw []) with 0. lia. }
      split; [exact Hj|]. cbn [fst snd]. auto.
    + rewrite (decode_encode c Hc1 Hc2).
      assert (Ed : tw (done ++ [c]) = tw done + wd c).
      { rewrite tw_app, tw_cons. change (tw []) with 0. lia. }
      assert (El : List.length (done ++ [c]) = S (List.length done)) by (rewrite app_length; cbn; lia).
      assert (Ea : done ++ c :: rest = (done ++ [c]) ++ rest) by (now rewrite <- app_assoc).
      assert (Hw' : shows l_number (push_window (extract_class line_table c) w) (rev (map kc (done ++ [c])) ++ h)).
      { rewrite map_app, rev_app_distr, <- kc_number. cbn [map rev app]. now apply shows_push. }
      assert (Hn : next_class line_table (map encode rest)
                   = l_number (nth (S (List.length done)) (map kc (done ++ c :: rest)) l_any)).
      { rewrite Ea, map_app, app_nth2, map_length, El, Nat.sub_diag by (rewrite map_length; lia).
        destruct rest as [|d rest]; [reflexivity|].
        inversion Hg' as [|? ? [Hd1 Hd2] _]; subst. cbn [map next_class nth]. unfold class_of.
        rewrite (decode_encode d Hd1 Hd2). symmetry. apply kc_number. }
      pose proof (LB_rules _ _ (nth (S (List.length done)) (map kc (done ++ c :: rest)) l_any) Hw') as R.
      rewrite <- Hn in R.
      assert (Sp : should_break line_rules (push_window (extract_class line_table c) w)
                     (next_class line_table (map encode rest)) = true
                   <-> spot h (done ++ c :: rest) (S (List.length done))).
      { unfold spot. rewrite <- El at 1. rewrite Ea at 1.
        rewrite firstn_app, firstn_all, Nat.sub_diag. cbn [firstn]. rewrite app_nil_r, <- R.
        rewrite not_false_iff_true. reflexivity. }
      assert (Jd : j <= List.length done) by apply Hj.
      destruct (should_break line_rules (push_window (extract_class line_table c) w)
                  (next_class line_table (map encode rest))) eqn:B.
      * destruct (IH (done ++ [c]) (push_window (extract_class line_table c) w) (S (List.length done)))
          as (fitted & over & j' & I1 & I2 & I3 & I4 & I5); auto; [lia| |].
        { rewrite El, <- Ea. eapply last_spot_step_yes; [exact Hj|]. now apply Sp. }
        exists fitted, over, j'. rewrite Ea. split; [exact I1|]. split; [exact I2|]. split; [exact I3|].
        split; [exact I4|]. rewrite Ed, El in I5.
        assert (Ef : firstn (S (List.length done)) (done ++ [c]) = done ++ [c]) by (rewrite <- El; apply firstn_all).
        rewrite Ef, Ed in I5. exact I5.
      * destruct (IH (done ++ [c]) (push_window (extract_class line_table c) w) j)
          as (fitted & over & j' & I1 & I2 & I3 & I4 & I5); auto; [lia| |].
        { rewrite El, <- Ea. apply last_spot_step_no; [exact Hj|]. intros H. apply Sp in H. discriminate. }
        exists fitted, over, j'. rewrite Ea. split; [exact I1|]. split; [exact I2|]. split; [exact I3|].
        split; [exact I4|]. rewrite firstn_app in I5. replace (j - List.length done) with 0 in I5 by lia.
        cbn [firstn] in I5. rewrite app_nil_r, Ed, El in I5. exact I5.
Qed.

Lemma spot_place h t line c more : t = line ++ c :: more -> line <> [] ->
  spot h t (List.length line) <-> place h line c.
Proof.
  intros -> Hne. rewrite place_iff. unfold spot.
  rewrite firstn_app, firstn_all, Nat.sub_diag. cbn [firstn]. rewrite app_nil_r.
  rewrite map_app, app_nth2, map_length, Nat.sub_diag by (rewrite map_length; lia). cbn [map nth]. tauto.
Qed.

Lemma scan_first_line max h w t : Forall good t -> shows l_number w h ->
  exists fitted over,
    let r := line_scan max w 0 0 0 0 (map encode t) in
    t = fitted ++ over /\ fill max fitted over
    /\ first_line max h fitted over (firstn (fst r) t)
    /\ shows l_number (snd r) (rev (map kc fitted) ++ h)
    /\ fst r <= List.length t.
Proof.
  intros Hg Hw.
  destruct (scan_exact max h t [] w 0 Hg) as (fitted & over & j & I1 & I2 & I3 & I4 & I5).
  - exact Hw.
  - apply Nat.le_0_l.
  - split; [lia|]. split; [lia|]. cbn [List.length]. intros i Hi. lia.
  - cbn [app] in I1. subst t.
    change (tw []) with 0 in I5. cbn [firstn List.length] in I5. change (tw []) with 0 in I5.
    destruct I5 as [I5 I6]. set (r := line_scan _ _ _ _ _ _ _) in *. cbv zeta.
    apply Forall_app in Hg as [Gf Go].
    exists fitted, over. split; [reflexivity|]. split; [|split; [|split; [exact I5|]]].
    + split; [exists (tw fitted); split; [now apply text_takes_tw|exact I2]|].
      destruct over as [|c over]; [exact I|]. exists (tw (fitted ++ [c])). split; [|exact I3].
      apply text_takes_tw. apply Forall_app. split; [exact Gf|]. inversion Go; subst; auto.
    + destruct I4 as (J1 & J2 & J3). rewrite I6. destruct over as [|c over].
      * rewrite app_nil_r, firstn_all. now apply whole_text.
      * set (all := fitted ++ c :: over) in *.
        destruct (Nat.eqb_spec (tw (firstn j fitted)) 0) as [Z|Z].
        -- unfold all. rewrite firstn_app, firstn_all, Nat.sub_diag. cbn [firstn]. rewrite app_nil_r.
           apply no_place; [discriminate|]. intros line' c' more' x' E P L T.
           assert (Hne : line' <> []) by apply P.
           assert (S' : spot h all (List.length line')) by (apply (spot_place h all line' c' more' E Hne); exact P).
           assert (List.length line' <= j).
           { destruct (Nat.le_gt_cases (List.length line') j) as [H|H]; [exact H|].
             elim (J3 (List.length line')); [lia|exact S']. }
           assert (P1 : line' = firstn (List.length line') fitted).
           { apply (f_equal (firstn (List.length line'))) in E.
             rewrite !firstn_app, firstn_all, Nat.sub_diag in E.
             replace (List.length line' - List.length fitted) with 0 in E by lia. cbn [firstn] in E.
             rewrite !app_nil_r in E. congruence. }
           assert (Tl : tw line' = 0).
           { rewrite <- (firstn_skipn (List.length line') (firstn j fitted)) in Z.
             rewrite tw_app, firstn_firstn, Nat.min_l in Z by lia. rewrite P1. lia. }
           rewrite <- Tl. eapply text_takes_fun; [exact T|]. apply text_takes_tw.
           rewrite P1. rewrite <- (firstn_skipn (List.length line') fitted) in Gf.
           now apply Forall_app in Gf as [Gf _].
        -- assert (J0 : 0 < j). { destruct j; [elim Z; reflexivity|lia]. }
           assert (Ej : firstn j all = firstn j fitted).
           { unfold all. rewrite firstn_app. replace (j - List.length fitted) with 0 by lia.
             cbn [firstn]. apply app_nil_r. }
           assert (Lj : List.length (firstn j all) = j).
           { rewrite firstn_length. unfold all. rewrite app_length. cbn [List.length]. lia. }
           destruct (skipn j all) as [|d more] eqn:Es.
           { apply (f_equal (@List.length N)) in Es. rewrite skipn_length in Es. unfold all in Es.
             rewrite app_length in Es. cbn [List.length] in Es. lia. }
           assert (Ea : all = firstn j all ++ d :: more) by (rewrite <- Es; symmetry; apply firstn_skipn).
           assert (Hne : firstn j all <> []).
           { intros E. apply (f_equal (@List.length N)) in E. rewrite Lj in E. cbn in E. lia. }
           apply last_place with (c := d) (more := more) (x := tw (firstn j fitted)).
           ++ discriminate.
           ++ exact Ea.
           ++ apply (spot_place h all _ d more Ea Hne). rewrite Lj. now apply J2.
           ++ rewrite Ej. apply text_takes_tw. rewrite <- (firstn_skipn j fitted) in Gf.
              now apply Forall_app in Gf as [Gf _].
           ++ lia.
           ++ rewrite Lj. exact J1.
           ++ intros line' c' more' E P L. rewrite Lj.
              destruct (Nat.le_gt_cases (List.length line') j) as [H|H]; [exact H|].
              elim (J3 (List.length line')); [lia|]. apply (spot_place h all line' c' more' E); [apply P|exact P].
    + rewrite app_length. rewrite I6. destruct over; [cbn; lia|].
      destruct I4 as (J1 & _ & _). destruct (Nat.eqb (tw (firstn j fitted)) 0); lia.
Qed.

(** ** All the lines *)

Lemma skip_ws_map cs : Forall good cs -> exists gap rest,
  cs = gap ++ rest /\ skip_ws (map encode cs) = map encode rest /\ Forall white gap
  /\ match rest with [] => True | c :: _ => ~ white c end.
Proof.
  induction 1 as [|c cs Hc _ (gap & rest & -> & E & Hg & Hr)].
  - exists [], []. easy.
  - cbn [map skip_ws]. destruct (is_whitespace (encode c)) eqn:W.
    + exists (c :: gap), rest. split; [reflexivity|]. split; [exact E|]. split; [|exact Hr].
      constructor; [now apply white_iff|exact Hg].
    + exists [], (c :: gap ++ rest). split; [reflexivity|]. split; [reflexivity|]. split; [constructor|].
      intros H. apply (white_iff c Hc) in H. congruence.
Qed.

Definition stands (it : line_it) (max : nat) (h : list lclass) (t : list N) : Prop :=
  li_str it = map encode t /\ li_max it = max
  /\ (t <> [] -> exists fitted over, t = fitted ++ over /\ fill max fitted over
        /\ first_line max h fitted over (firstn (li_brk it) t)
        /\ shows l_number (li_win it) (rev (map kc fitted) ++ h)
        /\ li_brk it <= List.length t).

Lemma brk_zero it max h t lines fuel : stands it max h t -> t <> [] -> li_brk it = 0 ->
  Forall good t -> lines_from fuel it = Some lines -> False.
Proof.
  intros (E1 & E2 & E3) Hne Hz Hg H.
  destruct t as [|c t]; [contradiction|].
  assert (W : max < wd c).
  { destruct (E3 Hne) as (fitted & over & Et & [Hf Ho] & Hl & _). rewrite Hz in Hl. cbn [firstn] in Hl.
    assert (F : fitted = []).
    { inversion Hl; subst.
      - reflexivity.
      - match goal with H : place _ [] _ |- _ => destruct H as [H _]; now elim H end.
      - reflexivity. }
    subst fitted. cbn [app] in Et. subst over. destruct Ho as (x & Hx & Hx').
    inversion Hg as [|? ? G _]; subst. cbn [app] in Hx.
    assert (Ex : x = tw [c]) by (eapply text_takes_fun; [exact Hx|]; apply text_takes_tw; auto).
    rewrite tw_cons in Ex. change (tw []) with 0 in Ex. lia. }
  destruct it as [str mx brk w]. cbn [li_str li_max li_brk] in *. subst.
  cbn [map] in H. rewrite (stuck_forever (encode c) _ _ _ W) in H. discriminate.
Qed.

Lemma stands_nil max h w : stands (mk_line_it [] max 0 w) max h [].
Proof. split; [reflexivity|]. split; [reflexivity|]. intros H. now elim H. Qed.

Lemma stands_scan max h w t : Forall good t -> shows l_number w h -> t <> [] ->
  stands (let '(brk, w') := line_scan max w 0 0 0 0 (map encode t) in
          mk_line_it (map encode t) max brk w') max h t.
Proof.
  intros Hg Hw Hne. pose proof (scan_first_line max h w t Hg Hw) as (fitted & over & H).
  cbv zeta in H. destruct (line_scan max w 0 0 0 0 (map encode t)) as [brk w']. cbn [fst snd] in H.
  split; [reflexivity|]. split; [reflexivity|]. intros _. exists fitted, over. exact H.
Qed.

Lemma consume_line it max h t : stands it max h t -> Forall good t -> li_brk it <> 0 -> t <> [] ->
  exists fitted over gap rest,
    t = fitted ++ over /\ fill max fitted over /\ first_line max h fitted over (firstn (li_brk it) t)
    /\ fitted ++ over = firstn (li_brk it) t ++ gap ++ rest /\ Forall white gap
    /\ match rest with [] => True | c :: _ => ~ white c end
    /\ stands (line_consume it) max (rev (map kc fitted) ++ h) rest.
Proof.
  intros (E1 & E2 & E3) Hg Hb Hne. destruct (E3 Hne) as (fitted & over & Et & Hf & Hl & Hw & Hlen).
  assert (Gs : Forall good (skipn (li_brk it) t)).
  { rewrite <- (firstn_skipn (li_brk it) t) in Hg. now apply Forall_app in Hg as [_ Hg]. }
  destruct (skip_ws_map (skipn (li_brk it) t) Gs) as (gap & rest & Eg & Ew & Hwh & Hr).
  assert (Gr : Forall good rest) by (rewrite Eg in Gs; now apply Forall_app in Gs as [_ Gs]).
  exists fitted, over, gap, rest. split; [exact Et|]. split; [exact Hf|]. split; [exact Hl|].
  split; [rewrite <- Et, <- Eg; symmetry; apply firstn_skipn|]. split; [exact Hwh|]. split; [exact Hr|].
  destruct it as [str mx brk w]. cbn [li_str li_max li_brk li_win] in *. subst str mx.
  unfold line_consume. cbn [li_str li_max li_brk li_win].
  destruct (Nat.eqb_spec brk 0) as [|_]; [contradiction|].
  rewrite skipn_map, Ew. destruct t as [|c t]; [contradiction|]. cbn [map].
  destruct rest as [|d rest]; [apply stands_nil|].
  pose proof (stands_scan max (rev (map kc fitted) ++ h) w (d :: rest) Gr Hw) as S.
  specialize (S ltac:(discriminate)). exact S.
Qed.

Lemma lines_laid_out max fuel : forall it h t lines,
  stands it max h t -> Forall good t -> lines_from fuel it = Some lines ->
  exists nlines, lines = map (map encode) nlines /\ laid_out max h t nlines.
Proof.
  induction fuel as [|fuel IH]; intros it h t lines Hst Hg H.
  - destruct Hst as (E1 & _). cbn [lines_from] in H. rewrite E1 in H.
    destruct t; [|discriminate]. injection H as <-. exists []. split; [reflexivity|constructor].
  - pose proof Hst as (E1 & _). cbn [lines_from] in H. rewrite E1 in H.
    destruct t as [|c t]; [injection H as <-; exists []; split; [reflexivity|constructor]|].
    cbn [map] in H. destruct (lines_from fuel (line_consume it)) as [ls|] eqn:E; [|discriminate].
    injection H as <-.
    assert (Hb : li_brk it <> 0).
    { intros Hz. eapply (brk_zero it max h (c :: t) (line_deref it :: ls) (S fuel)); eauto; [discriminate|].
      cbn [lines_from]. rewrite E1. cbn [map]. now rewrite E. }
    destruct (consume_line it max h (c :: t) Hst Hg Hb ltac:(discriminate))
      as (fitted & over & gap & rest & Et & Hf & Hl & Es & Hwh & Hr & Hst').
    assert (Gr : Forall good rest).
    { rewrite Et, Es in Hg. apply Forall_app in Hg as [_ Hg]. now apply Forall_app in Hg as [_ Hg]. }
    destruct (IH _ _ _ _ Hst' Gr E) as (nl & -> & Hn).
    exists (firstn (li_brk it) (c :: t) :: nl). split.
    + cbn [map]. f_equal. unfold line_deref. rewrite E1. apply firstn_map.
    + rewrite Et. rewrite Et in Es, Hl. eapply laid_line with (gap := gap) (rest := rest) (ks := map kc fitted); eauto.
      * rewrite <- Et. destruct (li_brk it); [now elim Hb|discriminate].
      * apply classes_are.
Qed.

Lemma lines_exact cs columns steps lines :
  Forall scalar cs -> Forall (fun c => ~ boundary_lead c) cs -> columns <> 0 ->
  iterates_to (map encode cs) columns steps lines ->
  exists nlines, lines = map (map encode) nlines /\ laid_out columns nothing_before cs nlines.
Proof.
  intros H1 H2 Hc H.
  assert (Hg : Forall good cs).
  { rewrite Forall_forall in *. intros c Hin. split; [now apply H1|now apply H2]. }
  unfold iterates_to, line_begin in H. destruct (Nat.eqb_spec columns 0) as [|_]; [contradiction|].
  eapply lines_laid_out; [|exact Hg|exact H].
  unfold line_consume. cbn [li_str li_max li_brk li_win Nat.eqb].
  destruct cs as [|c cs]; [apply stands_nil|].
  assert (Hw : shows l_number fresh_window nothing_before) by (apply (shows_fresh l_number l_any); reflexivity).
  exact (stands_scan columns nothing_before fresh_window (c :: cs) Hg Hw ltac:(discriminate)).
Qed.

(** ** There is one layout *)

Lemma text_takes_app a b x : text_takes (a ++ b) x -> exists y z, text_takes a y /\ text_takes b z /\ x = y + z.
Proof.
  revert x. induction a as [|c a IH]; cbn [app]; intros x H.
  - exists 0, x. split; [constructor|]. split; [exact H|reflexivity].
  - inversion H as [|? ? y z H1 H2]; subst. destruct (IH _ H2) as (y' & z' & I1 & I2 & ->).
    exists (y + y'), z'. split; [now constructor|]. split; [exact I2|lia].
Qed.

Lemma app_split {A} (a b c d : list A) : a ++ b = c ++ d -> List.length a < List.length c ->
  exists x e, c = a ++ x :: e /\ b = x :: e ++ d.
Proof.
  revert c. induction a as [|y a IH]; intros c E L.
  - destruct c as [|x e]; [cbn in L; lia|]. exists x, e. cbn [app] in *. auto.
  - destruct c as [|z c]; [cbn in L; lia|]. cbn [app List.length] in E, L. injection E as -> E.
    destruct (IH c E) as (x & e & -> & ->); [lia|]. now exists x, e.
Qed.

Lemma app_same {A} (a b c d : list A) : a ++ b = c ++ d -> List.length a = List.length c -> a = c /\ b = d.
Proof.
  revert c. induction a as [|y a IH]; intros [|z c] E L; try discriminate.
  - auto.
  - cbn [app List.length] in E, L. injection E as -> E. injection L as L. destruct (IH c E L) as [-> ->]. auto.
Qed.

Lemma fill_unique max f1 o1 f2 o2 : fill max f1 o1 -> fill max f2 o2 -> f1 ++ o1 = f2 ++ o2 ->
  f1 = f2 /\ o1 = o2.
Proof.
  assert (W : forall f1 o1 f2 o2, fill max f1 o1 -> fill max f2 o2 -> f1 ++ o1 = f2 ++ o2 ->
                ~ List.length f1 < List.length f2).
  { clear. intros f1 o1 f2 o2 [_ H1] [(x & H2 & Hx) _] E L.
    destruct (app_split _ _ _ _ E L) as (c & e & -> & ->). destruct H1 as (y & H1 & Hy).
    replace (f1 ++ c :: e) with ((f1 ++ [c]) ++ e) in H2 by (now rewrite <- app_assoc).
    apply text_takes_app in H2 as (u & v & U & _ & ->).
    assert (u = y) by (eapply text_takes_fun; eassumption). lia. }
  intros H1 H2 E. apply app_same; [exact E|].
  pose proof (W _ _ _ _ H1 H2 E). pose proof (W _ _ _ _ H2 H1 (eq_sym E)). lia.
Qed.

Lemma first_line_unique max h f o l1 l2 : first_line max h f o l1 -> first_line max h f o l2 -> l1 = l2.
Proof.
  intros H1 H2.
  destruct H1 as [E1|l1 c1 m1 x1 N1 E1 P1 T1 X1 L1 M1|N1 M1];
    destruct H2 as [E2|l2 c2 m2 x2 N2 E2 P2 T2 X2 L2 M2|N2 M2]; try reflexivity; try contradiction.
  - apply (app_same l1 (c1 :: m1) l2 (c2 :: m2)); [congruence|].
    pose proof (M1 _ _ _ E2 P2 L2). pose proof (M2 _ _ _ E1 P1 L1). lia.
  - pose proof (M2 _ _ _ _ E1 P1 L1 T1). lia.
  - pose proof (M1 _ _ _ _ E2 P2 L2 T2). lia.
Qed.

Lemma gap_unique g1 r1 g2 r2 : g1 ++ r1 = g2 ++ r2 -> Forall white g1 -> Forall white g2 ->
  match r1 with [] => True | c :: _ => ~ white c end ->
  match r2 with [] => True | c :: _ => ~ white c end -> r1 = r2.
Proof.
  revert g2. induction g1 as [|c g1 IH]; intros [|d g2] E H1 H2 N1 N2; cbn [app] in E.
  - exact E.
  - subst r1. inversion H2; subst. contradiction.
  - subst r2. inversion H1; subst. contradiction.
  - injection E as -> E. inversion H1; inversion H2; subst. eapply IH; eauto.
Qed.

Lemma laid_out_nil max h t l : laid_out max h t l -> t = [] -> l = [].
Proof.
  intros H. destruct H as [|h f o line gap rest lines ks E Hne]; [reflexivity|]. intros Et.
  rewrite Et in E. symmetry in E. apply app_eq_nil in E as [E _]. contradiction.
Qed.

Lemma laid_out_unique max h t l1 l2 : laid_out max h t l1 -> laid_out max h t l2 -> l1 = l2.
Proof.
  intros H. revert l2. induction H as [h|h f o line gap rest lines ks E Hne Hf Hl Hg Hr Hk _ IH]; intros l2 H2.
  - symmetry. now apply (laid_out_nil _ _ _ _ H2).
  - inversion H2 as [h' Eh Et El|h' f' o' line' gap' rest' lines' ks' E' Hne' Hf' Hl' Hg' Hr' Hk' H' Eh Et El].
    + rewrite <- Et in E. symmetry in E. apply app_eq_nil in E as [E _]. contradiction.
    + subst h'. destruct (fill_unique _ _ _ _ _ Hf' Hf Et) as [-> ->].
      pose proof (first_line_unique _ _ _ _ _ _ Hl Hl') as <-. f_equal.
      rewrite E in E'. apply app_inv_head in E'.
      pose proof (gap_unique _ _ _ _ E' Hg Hg' Hr Hr') as <-.
      rewrite (classes_fun _ _ Hk), (classes_fun _ _ Hk') in *. now apply IH.
Qed.

(** ** White space and columns *)

Lemma good_all cs : Forall scalar cs -> Forall (fun c => ~ boundary_lead c) cs -> Forall good cs.
Proof. rewrite !Forall_forall. intros H1 H2 c Hc. split; auto. Qed.

Lemma contains_encode cs : Forall good cs -> forall f, List.length (encode_all cs) <= f ->
  contains_ws_fuel f (encode_all cs) = Some (existsb (fun c => is_whitespace (encode c)) cs).
Proof.
  induction 1 as [|c cs [H1 H2] _ IH]; intros f Hf; [now destruct f|].
  change (encode_all (c :: cs)) with (encode c ++ encode_all cs) in *. rewrite app_length in Hf.
  destruct (decode_inverse c (encode_all cs) H1 H2) as [_ Hs].
  assert (Hn : 0 < List.length (encode c)).
  { clear. unfold encode. repeat match goal with |- context [if ?x then _ else _] => destruct x end; cbn [List.length]; lia. }
  destruct (encode c ++ encode_all cs) as [|a t] eqn:E.
  { apply (f_equal (@List.length ascii)) in E. rewrite app_length in E. cbn [List.length] in E. lia. }
  destruct f as [|f]; [lia|]. cbn [contains_ws_fuel]. cbv zeta. rewrite Hs, <- E, firstn_app, Nat.sub_diag, firstn_all, firstn_O, app_nil_r.
  cbn [existsb]. destruct (is_whitespace (encode c)); [reflexivity|]. cbn [orb]. rewrite app_length.
  replace (Nat.ltb _ _) with false by (symmetry; apply Nat.ltb_ge; lia).
  rewrite skipn_app, Nat.sub_diag, skipn_all. cbn [skipn app]. apply IH. lia.
Qed.

Lemma contains_white cs : Forall scalar cs -> Forall (fun c => ~ boundary_lead c) cs ->
  (contains_whitespace (encode_all cs) = Some true <-> Exists white cs) /\
  (contains_whitespace (encode_all cs) = Some false <-> ~ Exists white cs).
Proof.
  intros H1 H2. pose proof (good_all cs H1 H2) as Hg. unfold contains_whitespace. rewrite (contains_encode cs Hg _ (le_n _)).
  assert (E : existsb (fun c => is_whitespace (encode c)) cs = true <-> Exists white cs).
  { rewrite existsb_exists, Exists_exists. rewrite Forall_forall in Hg.
    split; intros (c & Hc & Hw); exists c; (split; [exact Hc|]); apply (white_iff c (Hg c Hc)); exact Hw. }
  destruct (existsb _ cs).
  - split; split; intros H; try congruence; [now apply E|]. elim H. now apply E.
  - split; split; intros H; try congruence; [apply E in H; discriminate|]. intros H'. apply E in H'. discriminate.
Qed.

Lemma terminal_columns cs x : Forall scalar cs -> Forall (fun c => ~ boundary_lead c) cs ->
  (terminal_width (encode_all cs) = Some x <-> text_takes cs x).
Proof.
  intros H1 H2. pose proof (text_takes_tw cs (good_all cs H1 H2)) as Ht.
  assert (E : terminal_width (encode_all cs) = Some (tw cs)).
  { rewrite (terminal_width_encode cs H1 H2). f_equal. clear Ht. induction cs as [|c cs IH]; [reflexivity|].
    apply Forall_inv in H1 as S1. apply Forall_inv in H2 as S2. apply Forall_inv_tail in H1. apply Forall_inv_tail in H2.
    cbn [map list_sum fold_right]. change (fold_right Nat.add 0) with list_sum. rewrite tw_cons, <- IH by assumption.
    unfold wd, cp_width. now rewrite (decode_encode c S1 S2). }
  rewrite E. split; [intros H; injection H as <-; exact Ht|]. intros H. f_equal. eapply text_takes_fun; eassumption.
Qed.

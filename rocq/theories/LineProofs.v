(** Lemmas on the line iterator. *)
From Verif Require Import Bytes CodePoint Utf8 SpecUtf8 CodePointProofs Utf8Proofs SpecLines.
From Verif Require Import TabGrapheme TabLine TabWhitespace TabZero TabDouble.

Lemma line_scan_spec max cps : forall w done lb_n,
  cps_width done <= max -> lb_n <= List.length done ->
  let brk := fst (line_scan max w (cps_width done) (List.length done)
                            (cps_width (firstn lb_n done)) lb_n cps) in
  brk <= List.length (done ++ cps)
  /\ cps_width (firstn brk (done ++ cps)) <= max
  /\ (done <> [] -> 1 <= brk).
Proof.
  induction cps as [|c cps IH]; intros w done lb_n Hw Hlb; cbn [line_scan].
  - cbn [fst]. rewrite app_nil_r, firstn_all. repeat split; auto.
    destruct done; [easy|]. cbn; lia.
  - assert (W : cps_width (firstn lb_n done) <= cps_width done).
    { rewrite <- (firstn_skipn lb_n done) at 2. rewrite cps_width_app. lia. }
    destruct (Nat.ltb_spec max (cps_width done + cp_width c)) as [Hover|Hfit].
    + cbn [fst]. destruct (Nat.eqb_spec (cps_width (firstn lb_n done)) 0) as [E|E].
      * rewrite app_length, firstn_app, firstn_all, Nat.sub_diag. cbn [firstn].
        rewrite app_nil_r. repeat split; [lia|exact Hw|]. destruct done; [easy|]. cbn; lia.
      * rewrite app_length, firstn_app. replace (lb_n - List.length done) with 0 by lia.
        cbn [firstn]. rewrite app_nil_r. repeat split; [lia|lia|].
        intros _. destruct lb_n; [now elim E|lia].
    + assert (Ed : cps_width (done ++ [c]) = cps_width done + cp_width c).
      { rewrite cps_width_app. unfold cps_width at 2. cbn. lia. }
      assert (El : List.length (done ++ [c]) = S (List.length done)).
      { rewrite app_length. cbn. lia. }
      assert (Ea : done ++ c :: cps = (done ++ [c]) ++ cps) by (now rewrite <- app_assoc).
      assert (Hne : done ++ [c] <> []) by (now destruct done).
      assert (Ef : firstn lb_n (done ++ [c]) = firstn lb_n done).
      { rewrite firstn_app. replace (lb_n - List.length done) with 0 by lia. cbn. now rewrite app_nil_r. }
      assert (Eall : firstn (S (List.length done)) (done ++ [c]) = done ++ [c]).
      { rewrite <- El. apply firstn_all. }
      rewrite Ea. destruct (cp_decode c) as [cp|].
      * destruct (should_break _ _ _).
        -- specialize (IH (push_window (extract_class line_table cp) w) (done ++ [c])
                          (S (List.length done)) ltac:(lia) ltac:(lia)).
           rewrite Eall, Ed, El in IH. cbv zeta in IH. destruct IH as (I1 & I2 & I3). auto.
        -- specialize (IH (push_window (extract_class line_table cp) w) (done ++ [c])
                          lb_n ltac:(lia) ltac:(lia)).
           rewrite Ef, Ed, El in IH. cbv zeta in IH. destruct IH as (I1 & I2 & I3). auto.
      * specialize (IH w (done ++ [c]) lb_n ltac:(lia) ltac:(lia)).
        rewrite Ef, Ed, El in IH. cbv zeta in IH. destruct IH as (I1 & I2 & I3). auto.
Qed.

(** Progress: a first code point that fits is always taken. *)
Lemma line_scan_progress max c cps w :
  cp_width c <= max -> 1 <= fst (line_scan max w 0 0 0 0 (c :: cps)).
Proof.
  intros Hc. cbn [line_scan]. rewrite Nat.add_0_l.
  destruct (Nat.ltb_spec max (cp_width c)); [lia|].
  assert (E : cps_width [c] = cp_width c) by (unfold cps_width; cbn; lia).
  destruct (cp_decode c) as [cp|].
  - destruct (should_break _ _ _).
    + pose proof (line_scan_spec max cps (push_window (extract_class line_table cp) w) [c] 1) as H'.
      cbn [firstn List.length] in H'. rewrite E in H'. now apply H'; lia || discriminate.
    + pose proof (line_scan_spec max cps (push_window (extract_class line_table cp) w) [c] 0) as H'.
      cbn [firstn List.length] in H'. rewrite E in H'. now apply H'; lia || discriminate.
  - pose proof (line_scan_spec max cps w [c] 0) as H'.
    cbn [firstn List.length] in H'. rewrite E in H'. now apply H'; lia || discriminate.
Qed.

Lemma line_scan_start max cps w :
  let brk := fst (line_scan max w 0 0 0 0 cps) in
  brk <= List.length cps /\ cps_width (firstn brk cps) <= max.
Proof.
  pose proof (line_scan_spec max cps w [] 0) as H. cbn [firstn List.length app] in H.
  change (cps_width []) with 0 in H. destruct H as (H1 & H2 & _); [lia|lia|]. auto.
Qed.

Lemma skip_ws_split cps : exists gap,
  cps = gap ++ skip_ws cps /\ Forall (fun c => is_whitespace c = true) gap
  /\ match skip_ws cps with [] => True | c :: _ => is_whitespace c = false end.
Proof.
  induction cps as [|c cps (gap & E & Hg & Hh)]; [now exists []|]. cbn [skip_ws].
  destruct (is_whitespace c) eqn:Ec.
  - exists (c :: gap). split; [cbn; now rewrite <- E|]. split; [now constructor|exact Hh].
  - exists []. now rewrite Ec.
Qed.

(** The state of an iterator that is at a line. *)
Definition at_line (it : line_it) : Prop :=
  li_brk it <= List.length (li_str it) /\ cps_width (line_deref it) <= li_max it.

Lemma line_consume_at it : at_line (line_consume it) \/ li_str it = [].
Proof.
  unfold line_consume. destruct (li_str it) as [|c0 s0] eqn:Es; [now right|left].
  set (str1 := if Nat.eqb (li_brk it) 0 then c0 :: s0 else skip_ws (skipn (li_brk it) (c0 :: s0))).
  destruct str1 as [|c s]; [unfold at_line, line_deref; cbn; split; [lia|apply Nat.le_0_l]|].
  destruct (line_scan (li_max it) (li_win it) 0 0 0 0 (c :: s)) as [brk w] eqn:E.
  unfold at_line, line_deref; cbn [li_str li_brk li_max].
  pose proof (line_scan_start (li_max it) (c :: s) (li_win it)) as H. rewrite E in H. exact H.
Qed.

Lemma line_consume_max it : li_max (line_consume it) = li_max it.
Proof.
  unfold line_consume. destruct (li_str it); [easy|].
  destruct (if Nat.eqb (li_brk it) 0 then _ else _); [easy|].
  now destruct (line_scan _ _ _ _ _ _ _).
Qed.

(** What remains after moving on. *)
Lemma line_consume_str it :
  li_brk it <= List.length (li_str it) ->
  exists gap, li_str it = line_deref it ++ gap ++ li_str (line_consume it)
              /\ Forall (fun c => is_whitespace c = true) gap
              /\ match li_str (line_consume it) with
                 | [] => True
                 | c :: _ => gap = [] \/ is_whitespace c = false
                 end.
Proof.
  intros Hb. unfold line_consume, line_deref. destruct (li_str it) as [|c0 s0] eqn:Es.
  - exists []. cbn [li_str]. rewrite Es. split; [now destruct (li_brk it)|split; [constructor|exact I]].
  - destruct (Nat.eqb_spec (li_brk it) 0) as [E0|E0].
    + destruct (line_scan (li_max it) (li_win it) 0 0 0 0 (c0 :: s0)) as [brk w].
      exists []. rewrite E0. cbn [li_str firstn app]. auto.
    + destruct (skip_ws_split (skipn (li_brk it) (c0 :: s0))) as (gap & Eg & Hg & Hh).
      exists gap. destruct (skip_ws (skipn (li_brk it) (c0 :: s0))) as [|c s] eqn:Ew.
      * cbn [li_str]. rewrite <- Eg. rewrite firstn_skipn. auto.
      * destruct (line_scan (li_max it) (li_win it) 0 0 0 0 (c :: s)) as [brk w]. cbn [li_str].
        rewrite <- Eg, firstn_skipn. auto.
Qed.

Lemma lines_from_spec fuel : forall it lines,
  (at_line it \/ li_str it = []) -> lines_from fuel it = Some lines ->
  wrapped lines (li_str it) /\ Forall (fun l => cps_width l <= li_max it) lines.
Proof.
  induction fuel as [|fuel IH]; intros it lines Hat E; cbn [lines_from] in E.
  - destruct (li_str it); [|discriminate]. injection E as <-. split; constructor.
  - destruct (li_str it) as [|c s] eqn:Es.
    + injection E as <-. split; constructor.
    + destruct (lines_from fuel (line_consume it)) as [ls|] eqn:El; [|discriminate].
      cbn [option_map] in E. injection E as <-.
      destruct Hat as [[H1 H2]|Hn]; [|congruence].
      assert (Hat' : at_line (line_consume it) \/ li_str (line_consume it) = []).
      { destruct (line_consume_at it); [auto|congruence]. }
      destruct (IH _ _ Hat' El) as [Hwr Hwd].
      destruct (line_consume_str it H1) as (gap & Eg & Hg & Hh).
      split.
      * rewrite <- Es, Eg. now constructor.
      * rewrite line_consume_max in Hwd. now constructor.
Qed.

Lemma line_begin_at cps max : at_line (line_begin cps max) \/ li_str (line_begin cps max) = [].
Proof.
  unfold line_begin. set (it0 := mk_line_it _ _ _ _).
  destruct (line_consume_at it0) as [H|H]; [now left|right].
  unfold line_consume. rewrite H. exact H.
Qed.

Lemma line_begin_str cps max : max <> 0 -> li_str (line_begin cps max) = cps.
Proof.
  intros Hm. unfold line_begin, line_consume. cbn [li_str li_brk].
  destruct (Nat.eqb_spec max 0); [lia|]. destruct cps as [|c cps]; [easy|].
  cbn [Nat.eqb]. now destruct (line_scan _ _ _ _ _ _ _).
Qed.

Lemma line_begin_max cps max : li_max (line_begin cps max) = max.
Proof. unfold line_begin. now rewrite line_consume_max. Qed.

Lemma iterates_wrapped cps max k lines :
  max <> 0 -> iterates_to cps max k lines ->
  wrapped lines cps /\ Forall (fun l => cps_width l <= max) lines.
Proof.
  intros Hm H. destruct (lines_from_spec k _ _ (line_begin_at cps max) H) as [H1 H2].
  rewrite line_begin_str in H1 by exact Hm. rewrite line_begin_max in H2. auto.
Qed.

(** ** Progress *)

Definition fits (max : nat) (cps : list bytes) : Prop := Forall (fun c => cp_width c <= max) cps.

Definition live (it : line_it) : Prop :=
  at_line it /\ (li_str it <> [] -> 1 <= li_brk it) /\ fits (li_max it) (li_str it).

Lemma fits_skipn max n cps : fits max cps -> fits max (skipn n cps).
Proof.
  unfold fits. rewrite !Forall_forall. intros H c Hin. apply H.
  rewrite <- (firstn_skipn n cps). apply in_app_iff. now right.
Qed.

Lemma fits_skip_ws max cps : fits max cps -> fits max (skip_ws cps).
Proof.
  intros H. destruct (skip_ws_split cps) as (gap & E & _). unfold fits in *.
  rewrite E in H. now apply Forall_app in H as [_ H].
Qed.

Lemma skip_ws_length cps : List.length (skip_ws cps) <= List.length cps.
Proof.
  destruct (skip_ws_split cps) as (gap & E & _). rewrite E at 2. rewrite app_length. lia.
Qed.

Lemma consume_live it : live it -> li_str it <> [] ->
  live (line_consume it) /\ List.length (li_str (line_consume it)) < List.length (li_str it).
Proof.
  intros (Hat & Hb & Hf) Hne. specialize (Hb Hne).
  destruct (line_consume_at it) as [Hat'|]; [|congruence].
  unfold live. rewrite line_consume_max.
  revert Hat'. unfold line_consume. destruct (li_str it) as [|c0 s0] eqn:Es; [easy|].
  destruct (Nat.eqb_spec (li_brk it) 0) as [|_]; [lia|].
  assert (Hl : List.length (skip_ws (skipn (li_brk it) (c0 :: s0))) < List.length (c0 :: s0)).
  { eapply Nat.le_lt_trans; [apply skip_ws_length|]. rewrite skipn_length. cbn [List.length]. lia. }
  assert (Hf' : fits (li_max it) (skip_ws (skipn (li_brk it) (c0 :: s0)))).
  { apply fits_skip_ws, fits_skipn, Hf. }
  destruct (skip_ws (skipn (li_brk it) (c0 :: s0))) as [|c s] eqn:Ew; intros Hat'.
  - cbn [li_str li_max]. repeat split; try apply Hat'; [easy|constructor|cbn; lia].
  - pose proof (line_scan_progress (li_max it) c s (li_win it)) as Hp.
    destruct (line_scan (li_max it) (li_win it) 0 0 0 0 (c :: s)) as [brk w]. cbn [fst] in Hp.
    cbn [li_str li_brk li_max] in *. repeat split; try apply Hat'; auto.
    intros _. apply Hp. now inversion Hf'.
Qed.

Lemma lines_from_live n : forall it, live it -> List.length (li_str it) <= n ->
  exists lines, lines_from n it = Some lines.
Proof.
  induction n as [|n IH]; intros it Hl Hn; cbn [lines_from].
  - destruct (li_str it); [eauto|cbn in Hn; lia].
  - destruct (li_str it) as [|c s] eqn:Es; [eauto|].
    destruct (consume_live it Hl) as [Hl' Hlt]; [congruence|].
    destruct (IH (line_consume it) Hl') as [ls E].
    { rewrite Es in Hlt. cbn [List.length] in *. lia. }
    rewrite E. cbn. eauto.
Qed.

Lemma line_begin_live cps max : max <> 0 -> fits max cps -> live (line_begin cps max).
Proof.
  intros Hm Hf. unfold live. rewrite line_begin_str, line_begin_max by exact Hm.
  destruct cps as [|c cps].
  - repeat split; try easy; unfold line_begin, line_consume; cbn; destruct (Nat.eqb max 0); cbn; lia.
  - destruct (line_begin_at (c :: cps) max) as [Hat|Hn];
      [|rewrite line_begin_str in Hn by exact Hm; discriminate].
    repeat split; try apply Hat; try exact Hf. intros _.
    unfold line_begin, line_consume. cbn [li_str li_brk li_max li_win].
    destruct (Nat.eqb_spec max 0); [lia|]. cbn [Nat.eqb].
    pose proof (line_scan_progress max c cps fresh_window) as Hp.
    destruct (line_scan max fresh_window 0 0 0 0 (c :: cps)) as [brk w]. cbn [fst li_brk] in *.
    apply Hp. now inversion Hf.
Qed.

Lemma iterates_terminates cps max : max <> 0 -> fits max cps ->
  exists lines, iterates_to cps max (List.length cps) lines.
Proof.
  intros Hm Hf. unfold iterates_to. apply lines_from_live; [now apply line_begin_live|].
  now rewrite line_begin_str.
Qed.

Lemma fits_2 cps max : 2 <= max -> fits max cps.
Proof.
  intros H. unfold fits. rewrite Forall_forall. intros c _. pose proof (cp_width_le c). lia.
Qed.

(** ** The endless loop *)

Lemma line_scan_stuck max w c cps :
  max < cp_width c -> line_scan max w 0 0 0 0 (c :: cps) = (0, w).
Proof.
  intros H. cbn [line_scan]. rewrite Nat.add_0_l. now destruct (Nat.ltb_spec max (cp_width c)); [|lia].
Qed.

Lemma stuck_forever c cps max w : max < cp_width c ->
  forall fuel, lines_from fuel (mk_line_it (c :: cps) max 0 w) = None.
Proof.
  intros H. induction fuel as [|fuel IH]; [easy|]. cbn [lines_from li_str].
  unfold line_consume. cbn [li_str li_brk li_max li_win Nat.eqb].
  rewrite line_scan_stuck by exact H. now rewrite IH.
Qed.

Lemma never_iterates c cps max : max <> 0 -> max < cp_width c ->
  forall fuel lines, ~ iterates_to (c :: cps) max fuel lines.
Proof.
  intros Hm H fuel lines. unfold iterates_to, line_begin.
  destruct (Nat.eqb_spec max 0); [lia|].
  unfold line_consume. cbn [li_str li_brk li_max li_win Nat.eqb].
  rewrite line_scan_stuck by exact H. rewrite stuck_forever by exact H. discriminate.
Qed.

Lemma wide_witness : cp_width (encode 20013) = 2.
Proof. vm_compute. reflexivity. Qed.

Lemma iterates_terminates_cases cps max :
  2 <= max \/ (max = 1 /\ fits 1 cps) -> exists lines, iterates_to cps max (List.length cps) lines.
Proof.
  intros [H|[-> H]]; apply iterates_terminates; try lia; [now apply fits_2|exact H].
Qed.

(** ** Closing lemmas of PropsUtf8.v *)

Lemma decode_inverse c rest :
  scalar c -> ~ boundary_lead c ->
  cp_decode (encode c ++ rest) = Some c
  /\ cp_size (encode c ++ rest) = List.length (encode c).
Proof. intros Hs Hb. split; [apply encode_decode | apply encode_size]; assumption. Qed.

Lemma boundary_leads_wrong c rest :
  boundary_lead c -> scalar c /\ cp_size (encode c ++ rest) = S (List.length (encode c)).
Proof.
  intros Hb. split; [|now apply encode_size_boundary].
  unfold boundary_lead, scalar in *. lia.
Qed.

Lemma boundary_witness : exists c, scalar c /\ cp_decode (encode c) = None.
Proof.
  exists 65281%N. split; [unfold scalar; lia|]. vm_compute. reflexivity.
Qed.

Lemma graphemes_partition_groups s gs :
  graphemes s = Some gs ->
  List.concat gs = s /\ Forall (fun g => g <> []) gs
  /\ exists groups, gs = map (@List.concat ascii) groups
                    /\ cp_split s = Some (List.concat groups).
Proof.
  intros H. destruct (graphemes_partition s gs H) as [H1 H2]. split; [exact H1|]. split; [exact H2|].
  destruct (graphemes_groups s gs H) as (cps & groups & E1 & _ & _ & E2 & _ & E3).
  exists groups. split; [exact E3|]. rewrite E1. f_equal. symmetry. exact E2.
Qed.

Lemma graphemes_of_scalars cs :
  Forall scalar cs -> Forall (fun c => ~ boundary_lead c) cs ->
  cp_split (encode_all cs) = Some (map encode cs) /\ graphemes (encode_all cs) <> None.
Proof.
  intros Hs Hb. pose proof (cp_split_encode cs Hs Hb) as E. split; [exact E|].
  apply graphemes_defined. now rewrite E.
Qed.

Lemma tables_lookup :
  exact_lookup grapheme_cluster_break_table_rows grapheme_table
  /\ exact_lookup line_break_table_rows line_table
  /\ exact_lookup whitespace_table_rows whitespace_tab
  /\ exact_lookup zero_width_table_rows zero_width_tab
  /\ exact_lookup double_width_table_rows double_width_tab.
Proof.
  split; [|split; [|split; [|split]]]; intro cp.
  - destruct grapheme_table_ok as (E & H1 & H2). now apply lookup_rows.
  - destruct line_table_ok as (E & H1 & H2). now apply lookup_rows.
  - destruct whitespace_tab_ok as (E & H1 & H2). now apply lookup_rows.
  - destruct zero_width_tab_ok as (E & H1 & H2). now apply lookup_rows.
  - destruct double_width_tab_ok as (E & H1 & H2). now apply lookup_rows.
Qed.

Lemma pack_round_trip f l m :
  (f < 2 ^ 21)%N -> (l < 2 ^ 21)%N -> (m < 2 ^ 6)%N ->
  r_first (pack f l m) = f /\ r_last (pack f l m) = l /\ r_meta (pack f l m) = m.
Proof.
  intros Hf Hl Hm. split; [|split]; [apply pack_first | apply pack_last | apply pack_meta]; assumption.
Qed.

Lemma wide_never_ends : exists text columns,
  columns <> 0 /\ forall steps lines, ~ iterates_to text columns steps lines.
Proof.
  exists [encode 20013], 1. split; [discriminate|].
  apply never_iterates; [discriminate|]. rewrite wide_witness. auto.
Qed.

(** Lemmas on the break rules of graphemes and lines. *)
From Verif Require Import Bytes CodePoint Utf8 SpecUtf8 SpecLines SpecBreaks CodePointProofs Utf8Proofs LineProofs.
From Verif Require Import TabGrapheme TabLine.
Local Open Scope nat_scope.

(** ** Windows *)

(** The window shows the last 16 of the classes [ks] (nearest first). *)
Definition shows {K} (no : K -> N) (w : window) (ks : list K) : Prop :=
  w = firstn window_size (map no ks) /\ window_size <= List.length ks.

Lemma shows_length {K} (no : K -> N) w ks : shows no w ks -> List.length w = window_size.
Proof. intros [-> H]. rewrite firstn_length, map_length. lia. Qed.

Lemma shows_push {K} (no : K -> N) w ks k : shows no w ks -> shows no (push_window (no k) w) (k :: ks).
Proof.
  intros H. pose proof (shows_length _ _ _ H) as L. destruct H as [-> H]. split; [|cbn [List.length]; lia].
  unfold push_window. rewrite L, firstn_firstn. reflexivity.
Qed.

Lemma shows_fresh {K} (no : K -> N) k0 : no k0 = 0%N -> shows no fresh_window (repeat k0 window_size).
Proof.
  intros H. split; [|now rewrite repeat_length].
  unfold window_size, fresh_window. cbn [repeat map firstn]. now rewrite H.
Qed.

Lemma shows_more {K} (no : K -> N) w ks rest : shows no w ks -> shows no w (ks ++ rest).
Proof.
  intros [-> H]. split; [|rewrite app_length; lia].
  rewrite map_app, firstn_app, map_length.
  replace (window_size - List.length ks) with 0 by lia. cbn [firstn]. now rewrite app_nil_r.
Qed.

Lemma shows_win {K} (no : K -> N) w ks i k : shows no w ks -> i < window_size ->
  nth_error ks i = Some k -> win w i = no k.
Proof.
  intros [-> H] Hi E. unfold win. rewrite <- (firstn_skipn window_size ks) in E.
  rewrite nth_error_app1 in E by (rewrite firstn_length; lia).
  rewrite firstn_map. apply (map_nth_error no) in E.
  now apply nth_error_nth.
Qed.

(** The run at the front of a list. *)
Lemma run_split {K} (eqb : K -> bool) (ks : list K) :
  exists r p, ks = r ++ p /\ Forall (fun k => eqb k = true) r
              /\ match p with [] => True | k :: _ => eqb k = false end.
Proof.
  induction ks as [|k ks (r & p & -> & Hr & Hp)].
  - exists [], []. easy.
  - destruct (eqb k) eqn:E.
    + exists (k :: r), p. repeat split; auto.
    + exists [], (k :: r ++ p). repeat split; auto.
Qed.

Section Rules.
  Context {K : Type} (no : K -> N).
  Hypothesis inj : forall a c, no a = no c -> a = c.

  Lemma no_eqb a c : N.eqb (no a) (no c) = true <-> a = c.
  Proof. rewrite N.eqb_eq. split; [apply inj|congruence]. Qed.

  Lemma no_isin a l : isin (no a) (map no l) = true <-> In a l.
  Proof.
    unfold isin. rewrite existsb_exists. split.
    - intros (x & Hx & E). apply in_map_iff in Hx as (c & <- & Hc). apply no_eqb in E. now subst.
    - intros H. exists (no a). split; [now apply in_map|apply N.eqb_refl].
  Qed.

  Lemma lead_run_firstn (c : K) n : forall ks, n <= List.length ks -> forall r p,
    ks = repeat c r ++ p -> hd_error p <> Some c ->
    lead_run (no c) (firstn n (map no ks)) = Nat.min n r.
  Proof.
    induction n as [|n IH]; intros ks Hl r p -> Hp; [reflexivity|].
    destruct r as [|r]; cbn [repeat app map firstn].
    - destruct p as [|x p]; cbn [app repeat map firstn lead_run]; [reflexivity|].
      destruct (N.eqb (no x) (no c)) eqn:E; [|lia].
      apply no_eqb in E. subst. now contradiction Hp.
    - cbn [lead_run]. rewrite N.eqb_refl.
      rewrite (IH (repeat c r ++ p)) with (r := r) (p := p); auto.
      rewrite app_length, repeat_length in *. cbn [repeat app List.length] in Hl. lia.
  Qed.

  Lemma run_of (c : K) ks : exists r p, ks = repeat c r ++ p /\ hd_error p <> Some c.
  Proof.
    induction ks as [|k ks (r & p & -> & Hp)].
    - exists 0, []. easy.
    - destruct (N.eqb (no k) (no c)) eqn:E.
      + apply no_eqb in E. subst. exists (S r), p. split; [reflexivity|exact Hp].
      + exists 0, (k :: repeat c r ++ p). split; [reflexivity|]. cbn. intros H. injection H as ->.
        now rewrite N.eqb_refl in E.
  Qed.

  Lemma run_unique (c : K) : forall r r' p p', repeat c r ++ p = repeat c r' ++ p' ->
    hd_error p <> Some c -> hd_error p' <> Some c -> r = r' /\ p = p'.
  Proof.
    induction r as [|r IH]; intros [|r'] p p' E Hp Hp'; cbn [repeat app] in *.
    - auto.
    - subst. now contradiction Hp.
    - subst. now contradiction Hp'.
    - injection E as E. destruct (IH _ _ _ E Hp Hp') as [-> ->]. auto.
  Qed.

  Lemma lead_run_odd w (c : K) ks : shows no w ks ->
    Nat.odd (lead_run (no c) w) = true <->
    exists k p, ks = repeat c (2 * k + 1) ++ p /\ hd_error p <> Some c /\ 2 * k + 1 < 16.
  Proof.
    intros [-> Hl]. destruct (run_of c ks) as (r & p & E & Hp).
    rewrite (lead_run_firstn c window_size ks Hl r p E Hp). unfold window_size.
    rewrite Nat.odd_spec. split.
    - intros [k Hk]. exists k, p. rewrite <- Hk.
      assert (r < 16).
      { destruct (Nat.le_gt_cases 16 r) as [H|H]; [|exact H].
        rewrite Nat.min_l in Hk by exact H. lia. }
      rewrite Nat.min_r in * by lia. auto.
    - intros (k & p' & E' & Hp' & Hk). rewrite E in E'.
      destruct (run_unique _ _ _ _ _ E' Hp Hp') as [-> _]. exists k. lia.
  Qed.
End Rules.

(** ** Graphemes *)

Lemma g_number_inj a c : g_number a = g_number c -> a = c.
Proof. destruct a, c; intros H; try reflexivity; discriminate H. Qed.

(** Both ways of reading a rule, on classes. *)
Lemma GB_rules w ks n : shows g_number w ks -> ks <> [] ->
  should_break grapheme_rules w (g_number n) = false <-> unparted_here ks n.
Proof.
  intros Hw Hne. destruct ks as [|a p]; [contradiction|].
  assert (Ew : win w 0 = g_number a) by (apply (shows_win g_number w (a :: p)); [exact Hw|cbv; lia|reflexivity]).
  unfold should_break. rewrite negb_false_iff. unfold grapheme_rules. cbn [existsb].
  rewrite !orb_true_iff.
  unfold Utf8.GB3, Utf8.GB6, Utf8.GB7, Utf8.GB8, Utf8.GB9, Utf8.GB9a, Utf8.GB9b, Utf8.GB11, Utf8.GB12_13.
  rewrite Ew.
  change G_CR with (g_number g_cr). change G_LF with (g_number g_lf).
  change G_L with (g_number g_L). change G_V with (g_number g_V). change G_T with (g_number g_T).
  change G_LV with (g_number g_LV). change G_LVT with (g_number g_LVT).
  change G_extend with (g_number g_extend). change G_ZWJ with (g_number g_zwj).
  change G_spacing_mark with (g_number g_spacing). change G_prepend with (g_number g_prepend).
  change G_ext_pict with (g_number g_pict). change G_RI with (g_number g_ri).
  rewrite !andb_true_iff, !orb_true_iff, !(no_eqb g_number g_number_inj).
  rewrite (lead_run_odd g_number g_number_inj w g_ri (a :: p) Hw).
  split.
  - intros [H|[H|[H|[H|[H|[H|[H|[H|[H|H]]]]]]]]].
    + destruct H as [-> ->]. apply here_GB3.
    + destruct H as [-> H]. apply here_GB6. cbn. intuition.
    + destruct H as [H H']. apply here_GB7; cbn; intuition.
    + destruct H as [H ->]. apply here_GB8; cbn; intuition.
    + apply here_GB9. cbn. intuition.
    + subst. apply here_GB9a.
    + subst. apply here_GB9b.
    + destruct H as [-> ->]. apply here_GB11.
    + destruct H as [(k & q & -> & Hq & Hk) ->]. now apply here_GB12_13.
    + discriminate.
  - intros H. remember (a :: p) as ks eqn:E. destruct H as [p'|p' n H|a' p' n H H'|a' p' H|p' n H|p'|p' n|p'|k p' H H'].
    1-8: try injection E as <- <-; cbn [In] in *; intuition (subst; auto 20).
    do 8 right. left. split; [|reflexivity]. exists k, p'. auto.
Qed.

(** In the usual positions the library agrees with the annex. *)
Lemma unparted_usual ks n : ks <> [] -> g_usual ks n -> unparted_here ks n <-> unparted ks n.
Proof.
  intros Hne (U1 & U2 & U3 & U4). split.
  - intros H. destruct H as [p|p n H|a p n H H'|a p H|p n H|p|p n|p|k p H H'].
    + constructor.
    + now constructor.
    + now constructor.
    + now constructor.
    + destruct p as [|a p]; [contradiction|]. apply GB9; [|exact H].
      intros Ha. apply (U1 a p eq_refl Ha). cbn [In] in *. tauto.
    + destruct p as [|a p]; [contradiction|]. apply GB9a.
      intros Ha. apply (U1 a p eq_refl Ha). cbn [In]. tauto.
    + apply GB9b. exact (U2 p eq_refl).
    + destruct (U3 p eq_refl eq_refl) as (k & q & ->). apply GB11.
    + now apply GB12_13.
  - intros H. destruct H as [p|p n H|a p n H H'|a p H|a p n H H'|a p H|p n H|k p|k p H].
    + constructor.
    + now constructor.
    + now constructor.
    + now constructor.
    + now apply here_GB9.
    + apply here_GB9a.
    + apply here_GB9b.
    + apply here_GB11.
    + apply here_GB12_13; [exact H|]. specialize (U4 _ _ eq_refl eq_refl). lia.
Qed.

Lemma unparted_pad ks n r : ks <> [] -> unparted_here (ks ++ repeat g_other r) n <-> unparted_here ks n.
Proof.
  intros Hne. destruct ks as [|a ks]; [contradiction|]. cbn [app]. split.
  - intros H. remember (a :: ks ++ repeat g_other r) as l eqn:E.
    destruct H as [p|p n H|a' p n H H'|a' p H|p n H|p|p n|p|k p H H'];
      [..|idtac].
    1-4, 7-8: injection E as <- ->; now constructor.
    1: now apply here_GB9.
    1: now apply here_GB9a.
    destruct (run_of g_number g_number_inj g_ri (a :: ks)) as (r' & p' & E' & Hp').
    assert (E2 : repeat g_ri (2 * k + 1) ++ p = repeat g_ri r' ++ (p' ++ repeat g_other r)).
    { rewrite app_assoc, <- E'. exact E. }
    destruct (run_unique g_ri _ _ _ _ E2 H) as [E3 _].
    { destruct p' as [|x p']; [|exact Hp']. now destruct r. }
    rewrite E', <- E3. apply here_GB12_13; assumption.
  - intros H. remember (a :: ks) as l eqn:E.
    destruct H as [p|p n H|a' p n H H'|a' p H|p n H|p|p n|p|k p H H'];
      [..|idtac].
    1-4, 7-8: injection E as <- ->; now constructor.
    1: now apply here_GB9.
    1: now apply here_GB9a.
    change (a :: ks ++ repeat g_other r) with ((a :: ks) ++ repeat g_other r).
    rewrite <- E, <- app_assoc. apply here_GB12_13; [|exact H'].
    destruct p as [|x p]; [now destruct r|exact H].
Qed.

(** [listed_as] is what the lookup gives. *)
Lemma extract_listed rows table c x : exact_lookup rows table -> listed_as rows c x ->
  extract_class table c = x.
Proof.
  intros L H. unfold extract_class. destruct (L c) as [L1 L2].
  destruct H as [(f & l & Hin & Hc)|[-> Hno]].
  - destruct (L1 f l x Hin Hc) as (r & -> & _ & _ & E). exact E.
  - now rewrite (L2 Hno).
Qed.

Lemma g_extract c k : g_class_is c k -> extract_class grapheme_table c = g_number k.
Proof. apply extract_listed. apply tables_lookup. Qed.

(** A cluster in progress stays in one piece. *)
Lemma clusters_first c cps : Forall is_cp (c :: cps) -> forall w cur,
  exists g gs, clusters w cur (c :: cps) = (cur ++ c ++ g) :: gs.
Proof.
  intros H. revert c H. induction cps as [|d cps IH]; intros c H w cur; cbn [clusters].
  - inversion H as [|? ? [Hc _] _]; subst.
    assert (cur ++ c <> []) by (destruct cur, c; [contradiction| | |]; discriminate).
    exists [], []. rewrite app_nil_r. destruct (cp_decode c).
    + destruct (should_break _ _ _); [reflexivity|]. destruct (cur ++ c); [contradiction|reflexivity].
    + destruct (cur ++ c); [contradiction|reflexivity].
  - change (match d :: cps with [] => match cur ++ c with [] => [] | _ :: _ => [cur ++ c] end
            | _ => [] end) with (@nil bytes) in *.
    inversion H as [|? ? _ H']; subst.
    assert (D : forall w', exists g gs, clusters w' (cur ++ c) (d :: cps) = (cur ++ c ++ g) :: gs).
    { intros w'. destruct (IH d H' w' (cur ++ c)) as (g & gs & E).
      exists (d ++ g), gs. rewrite E, <- app_assoc. reflexivity. }
    destruct (cp_decode c).
    + destruct (should_break _ _ _); [|apply D].
      eexists [], _. rewrite app_nil_r. reflexivity.
    + apply D.
Qed.

Lemma cons_inv {A} (x y : A) l m : x :: l = y :: m -> x = y /\ l = m.
Proof. intros H. injection H as -> ->. auto. Qed.

Fixpoint push_all (w : window) (cs : list N) : window :=
  match cs with
  | [] => w
  | c :: cs' => push_all (push_window (extract_class grapheme_table c) w) cs'
  end.

Lemma decode_encode c : scalar c -> ~ boundary_lead c -> cp_decode (encode c) = Some c.
Proof. intros H1 H2. rewrite <- (app_nil_r (encode c)). now apply decode_inverse. Qed.

Lemma clusters_cut cs : forall w cur n rest,
  Forall scalar (cs ++ n :: rest) -> Forall (fun c => ~ boundary_lead c) (cs ++ n :: rest) -> cs <> [] ->
  cut_at (clusters w cur (map encode (cs ++ n :: rest))) (cur ++ encode_all cs)
  <-> should_break grapheme_rules (push_all w cs) (extract_class grapheme_table n) = true.
Proof.
  assert (NE : forall c, scalar c -> ~ boundary_lead c -> encode c <> []).
  { intros c H1 H2. apply (encode_is_cp c H1 H2). }
  assert (CP : forall l, Forall scalar l -> Forall (fun c => ~ boundary_lead c) l ->
               Forall is_cp (map encode l)).
  { intros l H1 H2. apply Forall_map. rewrite Forall_forall in *. intros x Hx.
    apply encode_is_cp; auto. }
  induction cs as [|c cs IH]; intros w cur n rest Hs Hb Hne; [contradiction|].
  cbn [app] in *. inversion Hs as [|? ? Hs1 Hs2]; inversion Hb as [|? ? Hb1 Hb2]; subst.
  cbn [map clusters push_all]. rewrite (decode_encode c Hs1 Hb1).
  set (w' := push_window (extract_class grapheme_table c) w).
  unfold encode_all. cbn [map List.concat]. fold (encode_all cs).
  assert (NX : next_class grapheme_table (map encode (cs ++ n :: rest))
               = extract_class grapheme_table (hd n cs)).
  { destruct cs as [|d cs]; cbn [app map next_class hd]; unfold class_of.
    - inversion Hs2; inversion Hb2; subst. now rewrite decode_encode.
    - inversion Hs2; inversion Hb2; subst. now rewrite decode_encode. }
  rewrite NX. destruct cs as [|d cs].
  - cbn [hd push_all app map] in *. unfold encode_all. cbn [map List.concat].
    rewrite app_nil_r. destruct (should_break grapheme_rules w' (extract_class grapheme_table n)) eqn:B.
    + split; [reflexivity|]. intros _. exists [cur ++ encode c]. eexists. split; [reflexivity|].
      cbn [List.concat]. apply app_nil_r.
    + split; [|discriminate]. intros (g1 & g2 & E & Ec).
      destruct (clusters_first (encode n) (map encode rest)) with (w := w') (cur := cur ++ encode c)
        as (g & gs & E').
      { apply (CP (n :: rest)); assumption. }
      rewrite E' in E. inversion Hs2; inversion Hb2; subst.
      destruct g1 as [|x g1].
      * cbn [List.concat] in Ec. symmetry in Ec. apply app_eq_nil in Ec as [_ Ec]. destruct (NE c Hs1 Hb1 Ec).
      * cbn [app] in E. apply cons_inv in E as [<- _]. cbn [List.concat] in Ec.
        apply (f_equal (@List.length ascii)) in Ec. rewrite !app_length in Ec.
        assert (N2 : encode n <> []) by (apply NE; assumption).
        destruct (encode n); [contradiction|]. cbn [List.length] in Ec. lia.
  - cbn [hd] in *. destruct (should_break grapheme_rules w' (extract_class grapheme_table d)) eqn:B.
    + rewrite <- (IH w' [] n rest Hs2 Hb2) by discriminate. cbn [app].
      split.
      * intros (g1 & g2 & E & Ec). destruct g1 as [|x g1].
        -- cbn [List.concat] in Ec. symmetry in Ec. apply app_eq_nil in Ec as [_ Ec]. apply app_eq_nil in Ec as [Ec _]. destruct (NE c Hs1 Hb1 Ec).
        -- cbn [app] in E. apply cons_inv in E as [<- E]. exists g1, g2. split; [exact E|].
           cbn [List.concat] in Ec. rewrite <- app_assoc in Ec. apply app_inv_head in Ec.
           now apply app_inv_head in Ec.
      * intros (g1 & g2 & E & Ec). exists ((cur ++ encode c) :: g1), g2.
        cbn [app] in E |- *. rewrite E. split; [reflexivity|].
        cbn [List.concat]. rewrite Ec. now rewrite <- app_assoc.
    + rewrite <- (IH w' (cur ++ encode c) n rest Hs2 Hb2) by discriminate.
      now rewrite <- app_assoc.
Qed.

Lemma push_all_shows cs : forall w before ks, shows g_number w before ->
  Forall2 g_class_is cs ks -> shows g_number (push_all w cs) (rev ks ++ before).
Proof.
  induction cs as [|c cs IH]; intros w before ks Hw Hk; inversion Hk as [|? k ? ks' K1 K2]; subst.
  - exact Hw.
  - cbn [push_all rev]. rewrite <- app_assoc. cbn [app].
    apply IH; [|exact K2]. rewrite (g_extract c k K1). now apply shows_push.
Qed.

Lemma graphemes_cut cs n rest ks kn :
  Forall scalar (cs ++ n :: rest) -> Forall (fun c => ~ boundary_lead c) (cs ++ n :: rest) -> cs <> [] ->
  Forall2 g_class_is cs ks -> g_class_is n kn ->
  (exists gs, graphemes (encode_all (cs ++ n :: rest)) = Some gs /\ cut_at gs (encode_all cs))
  <-> ~ unparted_here (rev ks) kn.
Proof.
  intros Hs Hb Hne Hk Hn. unfold graphemes.
  rewrite (cp_split_encode _ Hs Hb). cbn [option_map].
  pose proof (clusters_cut cs fresh_window [] n rest Hs Hb Hne) as C. cbn [app] in C.
  rewrite (g_extract n kn Hn) in C.
  assert (W : shows g_number (push_all fresh_window cs) (rev ks ++ repeat g_other window_size)).
  { apply push_all_shows; [|exact Hk]. now apply (shows_fresh g_number). }
  assert (Rne : rev ks <> []).
  { intros E. apply (f_equal (@List.length gclass)) in E. rewrite rev_length in E.
    inversion Hk; subst; [contradiction|discriminate]. }
  pose proof (GB_rules _ _ kn W) as G.
  rewrite unparted_pad in G by exact Rne. rewrite <- G by (destruct (rev ks); [contradiction|discriminate]).
  rewrite not_false_iff_true, <- C. split.
  - intros (gs & E & H). injection E as <-. exact H.
  - intros H. eexists. split; [reflexivity|exact H].
Qed.

(** ** Lines *)

Lemma l_number_inj a c : l_number a = l_number c -> a = c.
Proof. destruct a, c; intros H; try reflexivity; discriminate H. Qed.

Lemma skip_sp_spec w ks x : shows l_number w ks ->
  skip_sp w = Some (l_number x) <->
  exists k p, (k < 16)%nat /\ ks = repeat SP k ++ x :: p /\ x <> SP.
Proof.
  intros [-> Hl]. revert Hl. unfold window_size. generalize 16 as n. intros n. revert ks.
  induction n as [|n IH]; intros ks Hl.
  - cbn [firstn skip_sp]. split; [discriminate|]. intros (k & p & H & _). lia.
  - destruct ks as [|a ks]; [cbn [List.length] in Hl; lia|].
    cbn [map firstn skip_sp]. change L_SP with (l_number SP).
    destruct (N.eqb (l_number a) (l_number SP)) eqn:E.
    + apply (no_eqb l_number l_number_inj) in E. subst a.
      rewrite IH by (cbn [List.length] in Hl; lia). split.
      * intros (k & p & H1 & -> & H3). exists (S k), p. repeat split; [lia|exact H3].
      * intros (k & p & H1 & H2 & H3). destruct k as [|k]; cbn [repeat app] in H2.
        -- injection H2 as <- _. now contradiction H3.
        -- injection H2 as ->. exists k, p. repeat split; [lia|exact H3].
    + assert (a <> SP) by (intros ->; now rewrite N.eqb_refl in E). split.
      * intros H'. injection H' as H'. apply l_number_inj in H'. subst x.
        exists 0, ks. repeat split; [lia|exact H].
      * intros (k & p & H1 & H2 & H3). destruct k as [|k]; cbn [repeat app] in H2.
        -- injection H2 as -> _. reflexivity.
        -- injection H2 as -> _. contradiction.
Qed.

Lemma skip_sp_is w ks : shows l_number w ks ->
  skip_sp w = None \/ exists x, skip_sp w = Some (l_number x).
Proof.
  intros [-> _]. generalize window_size as n. revert ks.
  intros ks n. revert ks. induction n as [|n IH]; intros ks; [now left|].
  destruct ks as [|a ks]; [now left|]. cbn [map firstn skip_sp].
  destruct (N.eqb (l_number a) L_SP); [apply IH|]. right. now exists a.
Qed.

Lemma behind_spaces w ks (f : N -> bool) l : shows l_number w ks ->
  (forall x, f (l_number x) = true <-> In x l) -> ~ In SP l ->
  match skip_sp w with Some x => f x | None => false end = true
  <-> exists k a p, (k < 16)%nat /\ In a l /\ ks = repeat SP k ++ a :: p.
Proof.
  intros Hw Hf Hsp. split.
  - destruct (skip_sp_is w ks Hw) as [E|[x E]]; rewrite E; [discriminate|].
    intros H. apply Hf in H. apply (skip_sp_spec w ks x Hw) in E as (k & p & H1 & H2 & _).
    exists k, x, p. auto.
  - intros (k & a & p & H1 & H2 & H3).
    assert (E : skip_sp w = Some (l_number a)).
    { apply (skip_sp_spec w ks a Hw). exists k, p. repeat split; auto. now intros ->. }
    rewrite E. now apply Hf.
Qed.

Lemma match_and (o : option N) (f : N -> bool) (y : bool) :
  match o with Some x => f x && y | None => false end
  = (match o with Some x => f x | None => false end) && y.
Proof. now destruct o. Qed.

(** Each rule on classes. *)
Section Lines.
  Variables (w : window) (a a2 : lclass) (p : list lclass) (n : lclass).
  Notation ks := (a :: a2 :: p).
  Hypothesis Hw : shows l_number w ks.

  Lemma win0 : win w 0 = l_number a.
  Proof. apply (shows_win l_number w ks); [exact Hw|cbv; lia|reflexivity]. Qed.
  Lemma win1 : win w 1 = l_number a2.
  Proof. apply (shows_win l_number w ks); [exact Hw|cbv; lia|reflexivity]. Qed.

  Lemma leq x y : N.eqb (l_number x) (l_number y) = true <-> x = y.
  Proof. apply (no_eqb l_number l_number_inj). Qed.
  Lemma lin x l : isin (l_number x) (map l_number l) = true <-> In x l.
  Proof. apply (no_isin l_number l_number_inj). Qed.

  Lemma R6 : Utf8.LB6 w (l_number n) = true <-> In n [BK; CR; LF; NL].
  Proof. apply (lin n [BK; CR; LF; NL]). Qed.
  Lemma R7 : Utf8.LB7 w (l_number n) = true <-> In n [SP; ZW].
  Proof. apply (lin n [SP; ZW]). Qed.
  Lemma R8 : Utf8.LB8a_9 w (l_number n) = true <-> In a [CM; ZWJ].
  Proof. unfold Utf8.LB8a_9. rewrite win0. apply (lin a [CM; ZWJ]). Qed.
  Lemma R11 : Utf8.LB11 w (l_number n) = true <-> a = WJ \/ n = WJ.
  Proof. unfold Utf8.LB11. rewrite win0, orb_true_iff, (leq a WJ), (leq n WJ). tauto. Qed.
  Lemma R12 : Utf8.LB12 w (l_number n) = true <-> a = GL.
  Proof. unfold Utf8.LB12. rewrite win0. apply (leq a GL). Qed.
  Lemma R12a : Utf8.LB12a w (l_number n) = true <-> ~ In a [SP; BA; HY] /\ n = GL.
  Proof.
    unfold Utf8.LB12a. rewrite win0, andb_true_iff, negb_true_iff, <- not_true_iff_false,
      (lin a [SP; BA; HY]), (leq n GL). tauto.
  Qed.
  Lemma R13 : Utf8.LB13 w (l_number n) = true <-> In n [CL; CP; EX; IS; SY].
  Proof. apply (lin n [CL; CP; EX; IS; SY]). Qed.
  Lemma R14 : Utf8.LB14 w (l_number n) = true <-> exists k q, (k < 16)%nat /\ ks = repeat SP k ++ OP :: q.
  Proof.
    unfold Utf8.LB14. rewrite (behind_spaces w ks (fun x => N.eqb x L_OP) [OP] Hw).
    - split; [intros (k & x & q & H1 & [<-|[]] & H3); eauto|intros (k & q & H1 & H2)].
      exists k, OP, q. cbn [In]. auto.
    - intros x. rewrite (leq x OP). cbn [In]. intuition.
    - intros [H|[]]; discriminate.
  Qed.
  Lemma R15 : Utf8.LB15 w (l_number n) = true <->
    n = OP /\ exists k q, (k < 16)%nat /\ ks = repeat SP k ++ QU :: q.
  Proof.
    unfold Utf8.LB15. rewrite match_and, andb_true_iff, (leq n OP).
    rewrite (behind_spaces w ks (fun x => N.eqb x L_QU) [QU] Hw).
    - split; [intros [(k & x & q & H1 & [<-|[]] & H3) H]; eauto|intros (H & k & q & H1 & H2)].
      split; [exists k, QU, q; cbn [In]; auto|exact H].
    - intros x. rewrite (leq x QU). cbn [In]. intuition.
    - intros [H|[]]; discriminate.
  Qed.
  Lemma R16 : Utf8.LB16 w (l_number n) = true <->
    n = NS /\ exists k x q, (k < 16)%nat /\ In x [CL; CP] /\ ks = repeat SP k ++ x :: q.
  Proof.
    unfold Utf8.LB16. rewrite match_and, andb_true_iff, (leq n NS).
    rewrite (behind_spaces w ks (fun x => isin x [L_CL; L_CP]) [CL; CP] Hw).
    - tauto.
    - intros x. apply (lin x [CL; CP]).
    - intros [H|[H|[]]]; discriminate.
  Qed.
  Lemma R17 : Utf8.LB17 w (l_number n) = true <->
    n = B2 /\ exists k q, (k < 16)%nat /\ ks = repeat SP k ++ B2 :: q.
  Proof.
    unfold Utf8.LB17. rewrite match_and, andb_true_iff, (leq n B2).
    rewrite (behind_spaces w ks (fun x => N.eqb x L_B2) [B2] Hw).
    - split; [intros [(k & x & q & H1 & [<-|[]] & H3) H]; eauto|intros (H & k & q & H1 & H2)].
      split; [exists k, B2, q; cbn [In]; auto|exact H].
    - intros x. rewrite (leq x B2). cbn [In]. intuition.
    - intros [H|[]]; discriminate.
  Qed.
  Lemma R19 : Utf8.LB19 w (l_number n) = true <-> n = QU \/ a = QU.
  Proof. unfold Utf8.LB19. rewrite win0, orb_true_iff, (leq n QU), (leq a QU). tauto. Qed.
  Lemma R21 : Utf8.LB21 w (l_number n) = true <-> In n [BA; HY; NS] \/ a = BB.
  Proof. unfold Utf8.LB21. rewrite win0, orb_true_iff, (lin n [BA; HY; NS]), (leq a BB). tauto. Qed.
  Lemma R21a : Utf8.LB21a w (l_number n) = true <-> a2 = HL /\ In a [HY; BA].
  Proof. unfold Utf8.LB21a. rewrite win0, win1, andb_true_iff, (leq a2 HL), (lin a [HY; BA]). tauto. Qed.
  Lemma R21b : Utf8.LB21b w (l_number n) = true <-> a = SY /\ n = HL.
  Proof. unfold Utf8.LB21b. rewrite win0, andb_true_iff, (leq a SY), (leq n HL). tauto. Qed.
  Lemma R22 : Utf8.LB22 w (l_number n) = true <-> n = IN.
  Proof. apply (leq n IN). Qed.
  Lemma R23 : Utf8.LB23 w (l_number n) = true <->
    (In a [AL; HL] /\ n = NU) \/ (a = NU /\ In n [AL; HL]).
  Proof.
    unfold Utf8.LB23. rewrite win0, orb_true_iff, !andb_true_iff,
      (lin a [AL; HL]), (leq n NU), (leq a NU), (lin n [AL; HL]). tauto.
  Qed.
  Lemma R23a : Utf8.LB23a w (l_number n) = true <->
    (a = PR /\ In n [ID; EB; EM]) \/ (In a [ID; EB; EM] /\ n = PO).
  Proof.
    unfold Utf8.LB23a. rewrite win0, orb_true_iff, !andb_true_iff,
      (lin a [ID; EB; EM]), (leq n PO), (leq a PR), (lin n [ID; EB; EM]). tauto.
  Qed.
  Lemma R24 : Utf8.LB24 w (l_number n) = true <->
    (In a [PR; PO] /\ In n [AL; HL]) \/ (In a [AL; HL] /\ In n [PR; PO]).
  Proof.
    unfold Utf8.LB24. rewrite win0, orb_true_iff, !andb_true_iff,
      (lin a [PR; PO]), (lin n [AL; HL]), (lin a [AL; HL]), (lin n [PR; PO]). tauto.
  Qed.
  Definition LB25_pairs := [(CL, PO); (CP, PO); (CL, PR); (CP, PR); (NU, PO); (NU, PR); (PO, OP); (PO, NU);
                            (PR, OP); (PR, NU); (HY, NU); (IS, NU); (NU, NU); (SY, NU)].
  Lemma R25 : Utf8.LB25 w (l_number n) = true <-> In (a, n) LB25_pairs.
  Proof.
    unfold Utf8.LB25. rewrite win0.
    change (existsb (fun q => N.eqb (l_number a) (fst q) && N.eqb (l_number n) (snd q))
                    (map (fun q => (l_number (fst q), l_number (snd q))) LB25_pairs) = true
            <-> In (a, n) LB25_pairs).
    generalize LB25_pairs. intros l. rewrite existsb_exists. split.
    - intros ([x y] & Hin & H). apply in_map_iff in Hin as ([x' y'] & Hq & Hin).
      injection Hq as <- <-. cbn [fst snd] in H. apply andb_true_iff in H as [H1 H2].
      apply leq in H1. apply leq in H2. now subst.
    - intros H. exists (l_number a, l_number n). split.
      + apply in_map_iff. now exists (a, n).
      + cbn [fst snd]. now rewrite !N.eqb_refl.
  Qed.
  Lemma R26 : Utf8.LB26 w (l_number n) = true <->
    (a = JL /\ In n [JL; JV; H2; H3]) \/ (In a [JV; H2] /\ In n [JV; JT]) \/ (In a [JT; H3] /\ n = JT).
  Proof.
    unfold Utf8.LB26. rewrite win0, !orb_true_iff, !andb_true_iff,
      (leq a JL), (lin n [JL; JV; H2; H3]), (lin a [JV; H2]), (lin n [JV; JT]), (lin a [JT; H3]), (leq n JT).
    tauto.
  Qed.
  Lemma R27 : Utf8.LB27 w (l_number n) = true <->
    (In a [JL; JV; JT; H2; H3] /\ n = PO) \/ (a = PR /\ In n [JL; JV; JT; H2; H3]).
  Proof.
    unfold Utf8.LB27. rewrite win0, !orb_true_iff, !andb_true_iff,
      (leq a PR), (lin n [JL; JV; JT; H2; H3]), (lin a [JL; JV; JT; H2; H3]), (leq n PO).
    tauto.
  Qed.
  Lemma R28 : Utf8.LB28 w (l_number n) = true <-> In a [AL; HL] /\ In n [AL; HL].
  Proof. unfold Utf8.LB28. rewrite win0, andb_true_iff, (lin a [AL; HL]), (lin n [AL; HL]). tauto. Qed.
  Lemma R29 : Utf8.LB29 w (l_number n) = true <-> a = IS /\ In n [AL; HL].
  Proof. unfold Utf8.LB29. rewrite win0, andb_true_iff, (leq a IS), (lin n [AL; HL]). tauto. Qed.
  Lemma R30 : Utf8.LB30 w (l_number n) = true <->
    (In a [AL; HL; NU] /\ n = OP) \/ (a = CP /\ In n [AL; HL; NU]).
  Proof.
    unfold Utf8.LB30. rewrite win0, orb_true_iff, !andb_true_iff,
      (lin a [AL; HL; NU]), (leq n OP), (leq a CP), (lin n [AL; HL; NU]). tauto.
  Qed.
  Lemma R30a : Utf8.LB30a w (l_number n) = true <->
    n = RI /\ exists k q, ks = repeat RI (2 * k + 1) ++ q /\ hd_error q <> Some RI /\ (2 * k + 1 < 16)%nat.
  Proof.
    unfold Utf8.LB30a. rewrite andb_true_iff, (leq n RI).
    rewrite (lead_run_odd l_number l_number_inj w RI ks Hw). tauto.
  Qed.
  Lemma R30b : Utf8.LB30b w (l_number n) = true <-> a = EB /\ n = EM.
  Proof. unfold Utf8.LB30b. rewrite win0, andb_true_iff, (leq a EB), (leq n EM). tauto. Qed.
End Lines.

Lemma orb_or x y (P Q : Prop) : (x = true <-> P) -> (y = true <-> Q) -> (x || y = true <-> P \/ Q).
Proof. rewrite orb_true_iff. tauto. Qed.

Ltac or_search :=
  first [ assumption | reflexivity | split; [assumption|reflexivity] | split; [reflexivity|assumption]
        | split; assumption | split; reflexivity
        | do 2 eexists; split; [eassumption|reflexivity]
        | split; [reflexivity|]; do 2 eexists; split; [eassumption|reflexivity]
        | split; [reflexivity|]; do 3 eexists; split; [eassumption|]; split; [eassumption|reflexivity]
        | split; [reflexivity|]; do 2 eexists; split; [reflexivity|]; split; eassumption
        | left; or_search | right; or_search ].

Lemma LB_rules w ks n : shows l_number w ks ->
  should_break line_rules w (l_number n) = false <-> unbroken ks n.
Proof.
  intros Hw. pose proof Hw as [_ Hl]. destruct ks as [|a [|a2 p]]; try (cbn in Hl; unfold window_size in Hl; lia).
  unfold should_break. rewrite negb_false_iff. unfold line_rules. cbn [existsb].
  rewrite !orb_true_iff.
  rewrite (R6 w n), (R7 w n), (R8 w a a2 p n Hw), (R11 w a a2 p n Hw), (R12 w a a2 p n Hw), (R12a w a a2 p n Hw),
    (R13 w n), (R14 w a a2 p n Hw), (R15 w a a2 p n Hw), (R16 w a a2 p n Hw), (R17 w a a2 p n Hw),
    (R19 w a a2 p n Hw), (R21 w a a2 p n Hw), (R21a w a a2 p n Hw), (R21b w a a2 p n Hw), (R22 w n),
    (R23 w a a2 p n Hw), (R23a w a a2 p n Hw), (R24 w a a2 p n Hw), (R25 w a a2 p n Hw), (R26 w a a2 p n Hw),
    (R27 w a a2 p n Hw), (R28 w a a2 p n Hw), (R29 w a a2 p n Hw), (R30 w a a2 p n Hw), (R30a w a a2 p n Hw),
    (R30b w a a2 p n Hw).
  remember (a :: a2 :: p) as ks eqn:E. split.
  - intros H.
    repeat match type of H with _ \/ _ => destruct H as [H|H] end.
    all: repeat match goal with
             | H : _ /\ _ |- _ => destruct H
             | H : exists _, _ |- _ => destruct H
             end.
    all: try discriminate.
    all: try (rewrite E; subst; constructor; assumption).
    all: try (match goal with H : _ = repeat _ _ ++ _ |- _ => rewrite H end; subst; constructor; assumption).
  - intros H. destruct H.
    all: try (apply cons_inv in E as [<- E]).
    all: try (apply cons_inv in E as [<- E]).
    all: try rewrite <- E.
    all: or_search.
Qed.

Lemma graphemes_standard cs n rest ks kn :
  Forall scalar (cs ++ n :: rest) -> Forall (fun c => ~ boundary_lead c) (cs ++ n :: rest) -> cs <> [] ->
  Forall2 g_class_is cs ks -> g_class_is n kn -> g_usual (rev ks) kn ->
  (exists gs, graphemes (encode_all (cs ++ n :: rest)) = Some gs /\ cut_at gs (encode_all cs))
  <-> ~ unparted (rev ks) kn.
Proof.
  intros H1 H2 H3 H4 H5 H6. rewrite (graphemes_cut cs n rest ks kn H1 H2 H3 H4 H5).
  rewrite unparted_usual; [reflexivity| |exact H6].
  intros E. apply H3. apply (f_equal (@List.length gclass)) in E. rewrite rev_length in E.
  destruct H4; [reflexivity|discriminate].
Qed.

(** ** Witnesses and examples *)

Definition row_has (c : N) (r : N * N * N) : bool := (fst (fst r) <=? c)%N && (c <=? snd (fst r))%N.

Lemma listed_check rows c x :
  match find (row_has c) rows with Some (_, _, m) => N.eqb m x | None => N.eqb x 0 end = true ->
  listed_as rows c x.
Proof.
  destruct (find (row_has c) rows) as [[[f l] m]|] eqn:E; intros H.
  - apply N.eqb_eq in H. subst m. apply find_some in E as [E1 E2]. unfold row_has in E2. cbn [fst snd] in E2.
    apply andb_true_iff in E2 as [E2 E3]. apply N.leb_le in E2, E3. left. exists f, l. auto.
  - apply N.eqb_eq in H. subst x. right. split; [reflexivity|]. intros f l m Hin Hc.
    pose proof (find_none _ _ E _ Hin) as F. unfold row_has in F. cbn [fst snd] in F.
    apply andb_false_iff in F as [F|F]; apply N.leb_gt in F; lia.
Qed.

(** [gs] has no boundary behind [s]: checked on the lengths of its beginnings. *)
Lemma not_cut gs s :
  forallb (fun k => negb (Nat.eqb (List.length (List.concat (firstn k gs))) (List.length s)))
    (seq 0 (S (List.length gs))) = true -> ~ cut_at gs s.
Proof.
  intros H (g1 & g2 & -> & E). rewrite forallb_forall in H. specialize (H (List.length g1)).
  rewrite firstn_app, firstn_all, Nat.sub_diag in H. cbn [firstn] in H. rewrite app_nil_r, E in H.
  rewrite Nat.eqb_refl in H. discriminate H. apply in_seq. rewrite app_length. lia.
Qed.

Lemma is_cut gs s k : List.concat (firstn k gs) = s -> cut_at gs s.
Proof. intros E. exists (firstn k gs), (skipn k gs). split; [symmetry; apply firstn_skipn|exact E]. Qed.

Lemma control_witness : exists gs,
  graphemes (encode_all [10; 769])%N = Some gs /\ ~ cut_at gs (encode_all [10]%N)
  /\ g_class_is 10 g_lf /\ g_class_is 769 g_extend /\ ~ unparted [g_lf] g_extend.
Proof.
  eexists. split; [vm_compute; reflexivity|].
  split; [apply not_cut; vm_compute; reflexivity|].
  split; [apply listed_check; vm_compute; reflexivity|].
  split; [apply listed_check; vm_compute; reflexivity|].
  intros H. inversion H; subst; try match goal with Hi : In _ _ |- _ => cbn in Hi; intuition discriminate end.
  match goal with Hi : ~ In _ _ |- _ => apply Hi; cbn; auto end.
Qed.

Lemma joiner_witness : exists gs,
  graphemes (encode_all [97; 8205; 128512])%N = Some gs /\ ~ cut_at gs (encode_all [97; 8205]%N)
  /\ g_class_is 97 g_other /\ g_class_is 8205 g_zwj /\ g_class_is 128512 g_pict
  /\ ~ unparted [g_zwj; g_other] g_pict.
Proof.
  eexists. split; [vm_compute; reflexivity|].
  split; [apply not_cut; vm_compute; reflexivity|].
  split; [apply listed_check; vm_compute; reflexivity|].
  split; [apply listed_check; vm_compute; reflexivity|].
  split; [apply listed_check; vm_compute; reflexivity|].
  intros H. inversion H; subst; try match goal with Hi : In _ _ |- _ => cbn in Hi; intuition discriminate end.
  match goal with Hi : repeat _ ?k ++ _ = _ |- _ => destruct k; discriminate end.
Qed.

Lemma flags_witness : exists gs,
  graphemes (encode_all (repeat 127462%N 18)) = Some gs /\ cut_at gs (encode_all (repeat 127462%N 17))
  /\ g_class_is 127462 g_ri /\ unparted (repeat g_ri 17) g_ri.
Proof.
  eexists. split; [vm_compute; reflexivity|].
  split; [apply (is_cut _ _ 9); vm_compute; reflexivity|].
  split; [apply listed_check; vm_compute; reflexivity|].
  apply (SpecBreaks.GB12_13 8 []). discriminate.
Qed.

Lemma boundaries_example :
  let cs := [128104; 8205]%N in let ks := [g_pict; g_zwj] in
  Forall scalar (cs ++ 128187%N :: [127462%N]) /\ Forall (fun c => ~ boundary_lead c) (cs ++ 128187%N :: [127462%N])
  /\ Forall2 g_class_is cs ks /\ g_class_is 128187 g_pict /\ g_usual (rev ks) g_pict /\ unparted (rev ks) g_pict
  /\ ~ unparted [g_pict; g_zwj; g_pict] g_ri.
Proof.
  cbv zeta. split; [repeat constructor; unfold scalar; lia|].
  split; [cbn [app]; repeat constructor; unfold boundary_lead; lia|].
  split; [repeat (constructor; [apply listed_check; vm_compute; reflexivity|]); constructor|].
  split; [apply listed_check; vm_compute; reflexivity|]. split; [|split].
  - cbn [rev app]. split; [|split; [|split]].
    + intros a p E Ha. apply cons_inv in E as [<- _]. cbn in Ha. intuition discriminate.
    + intros p E. discriminate.
    + intros p E _. apply cons_inv in E as [_ <-]. exists 0%nat, []. reflexivity.
    + discriminate.
  - apply (SpecBreaks.GB11 0 []).
  - intros H. inversion H; subst; try match goal with Hi : In _ _ |- _ => cbn in Hi; intuition discriminate end.
    match goal with Hi : repeat _ (?x + _)%nat ++ _ = _ |- _ => rewrite Nat.add_comm in Hi; discriminate end.
Qed.

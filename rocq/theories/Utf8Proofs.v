(** Lemmas on code point splitting, table lookup, grapheme clusters and widths. *)
From Verif Require Import Bytes CodePoint Utf8 SpecUtf8 CodePointProofs.
From Verif Require Import TabGrapheme TabLine TabWhitespace TabZero TabDouble.
From Coq Require Import ZifyBool ZifyNat ZifyN.

(** ** Splitting into code points *)

Lemma lead_size_pos x : 1 <= lead_size x.
Proof. unfold lead_size. destruct (N.eqb (N.land x 128) 0), (N.ltb x 223), (N.ltb x 239); lia. Qed.

Lemma cp_size_pos c s : 1 <= cp_size (c :: s).
Proof. apply lead_size_pos. Qed.

Lemma cp_split_fuel_enough s : forall f g,
  List.length s <= f -> List.length s <= g -> cp_split_fuel f s = cp_split_fuel g s.
Proof.
  assert (H : forall k s, List.length s <= k -> forall f g,
    List.length s <= f -> List.length s <= g -> cp_split_fuel f s = cp_split_fuel g s).
  { clear s. induction k as [|k IH]; intros s Hk f g Hf Hg.
    - destruct s; [|cbn in Hk; lia]. destruct f, g; reflexivity.
    - destruct s as [|c s]; [destruct f, g; reflexivity|].
      cbn [List.length] in *. destruct f as [|f]; [lia|]. destruct g as [|g]; [lia|].
      cbn [cp_split_fuel]. destruct (Nat.ltb_spec (List.length (c :: s)) (cp_size (c :: s))); [easy|].
      f_equal. pose proof (cp_size_pos c s). apply IH; rewrite skipn_length; cbn [List.length]; lia. }
  eauto.
Qed.

Lemma cp_split_nil : cp_split [] = Some [].
Proof. reflexivity. Qed.

(** One step of the traversal. *)
Lemma cp_split_cons c s :
  cp_split (c :: s)
  = let n := cp_size (c :: s) in
    if Nat.ltb (List.length (c :: s)) n then None
    else option_map (cons (firstn n (c :: s))) (cp_split (skipn n (c :: s))).
Proof.
  unfold cp_split at 1. cbn [List.length cp_split_fuel]. cbv zeta.
  destruct (Nat.ltb_spec (S (List.length s)) (cp_size (c :: s))); [easy|].
  f_equal. pose proof (cp_size_pos c s).
  apply cp_split_fuel_enough; rewrite skipn_length; cbn [List.length]; lia.
Qed.

Lemma cp_split_ind (P : bytes -> option (list bytes) -> Prop) :
  P [] (Some []) ->
  (forall c s, List.length (c :: s) < cp_size (c :: s) -> P (c :: s) None) ->
  (forall c s r, cp_size (c :: s) <= List.length (c :: s) ->
     r = cp_split (skipn (cp_size (c :: s)) (c :: s)) ->
     P (skipn (cp_size (c :: s)) (c :: s)) r ->
     P (c :: s) (option_map (cons (firstn (cp_size (c :: s)) (c :: s))) r)) ->
  forall s, P s (cp_split s).
Proof.
  intros H0 H1 H2.
  assert (H : forall k s, List.length s <= k -> P s (cp_split s)).
  { induction k as [|k IH]; intros s Hk.
    - destruct s; [exact H0|cbn in Hk; lia].
    - destruct s as [|c s]; [exact H0|]. rewrite cp_split_cons. cbv zeta.
      destruct (Nat.ltb_spec (List.length (c :: s)) (cp_size (c :: s))) as [Hl|Hl].
      + now apply H1.
      + apply H2; [easy|reflexivity|]. apply IH. pose proof (cp_size_pos c s).
        rewrite skipn_length. cbn [List.length] in *. lia. }
  intros s. apply (H (List.length s) s (le_n _)).
Qed.

(** A code point string: its lead byte gives its length. *)
Definition is_cp (c : bytes) : Prop := c <> [] /\ cp_size c = List.length c.

Lemma cp_split_concat s l : cp_split s = Some l -> List.concat l = s /\ Forall is_cp l.
Proof.
  revert l. apply (cp_split_ind (fun s o => forall l, o = Some l -> List.concat l = s /\ Forall is_cp l)).
  - intros l E. injection E as <-. easy.
  - intros; discriminate.
  - intros c s' r Hle Hr IH l E. destruct r as [l'|]; [|discriminate].
    cbn [option_map] in E. injection E as <-. destruct (IH l' eq_refl) as [Hc Hf].
    split.
    + cbn [List.concat]. rewrite Hc. apply firstn_skipn.
    + constructor; [|exact Hf]. pose proof (cp_size_pos c s'). unfold is_cp.
      destruct (cp_size (c :: s')) as [|n] eqn:E; [lia|].
      assert (El : List.length (firstn (S n) (c :: s')) = S n).
      { rewrite firstn_length. cbn [List.length] in *. lia. }
      change (lead_size (byte_val c)) with (cp_size (c :: s')).
      rewrite E. split; [|rewrite El; exact E]. intros En. rewrite En in El. discriminate.
Qed.

Lemma cp_size_app c s t : c :: s <> [] -> cp_size ((c :: s) ++ t) = cp_size (c :: s).
Proof. reflexivity. Qed.

Lemma cp_split_app s t l :
  cp_split s = Some l -> cp_split (s ++ t) = option_map (app l) (cp_split t).
Proof.
  revert l. apply (cp_split_ind (fun s o => forall l, o = Some l ->
                     cp_split (s ++ t) = option_map (app l) (cp_split t))).
  - intros l E. injection E as <-. cbn [app]. now destruct (cp_split t).
  - intros; discriminate.
  - intros c s' r Hle Hr IH l E. destruct r as [l'|]; [|discriminate].
    cbn [option_map] in E. injection E as <-. specialize (IH l' eq_refl).
    change ((c :: s') ++ t) with (c :: (s' ++ t)). rewrite cp_split_cons. cbv zeta.
    change (cp_size (c :: s' ++ t)) with (cp_size (c :: s')).
    set (n := cp_size (c :: s')) in *.
    change (c :: s' ++ t) with ((c :: s') ++ t).
    destruct (Nat.ltb_spec (List.length ((c :: s') ++ t)) n) as [Hl|Hl].
    { rewrite app_length in Hl. lia. }
    rewrite firstn_app, skipn_app. replace (n - List.length (c :: s')) with 0 by lia.
    cbn [firstn skipn]. rewrite app_nil_r, IH. destruct (cp_split t); reflexivity.
Qed.

Lemma cp_split_single c : is_cp c -> cp_split c = Some [c].
Proof.
  intros [Hne Hs]. destruct c as [|x c]; [easy|]. rewrite cp_split_cons. cbv zeta.
  rewrite Hs. rewrite Nat.ltb_irrefl, firstn_all, skipn_all. reflexivity.
Qed.

Lemma cp_split_concat_cps l : Forall is_cp l -> cp_split (List.concat l) = Some l.
Proof.
  induction 1 as [|c l Hc _ IH]; [easy|]. cbn [List.concat].
  rewrite (cp_split_app c _ [c]) by (now apply cp_split_single). now rewrite IH.
Qed.

Lemma encode_is_cp c : scalar c -> ~ boundary_lead c -> is_cp (encode c).
Proof.
  intros Hs Hb. split.
  - unfold encode. destruct (N.ltb c 128), (N.ltb c 2048), (N.ltb c 65536); discriminate.
  - pose proof (encode_size c [] Hs Hb) as H. now rewrite app_nil_r in H.
Qed.

Lemma cp_split_encode cs :
  Forall scalar cs -> Forall (fun c => ~ boundary_lead c) cs ->
  cp_split (encode_all cs) = Some (map encode cs).
Proof.
  intros Hs Hb. apply cp_split_concat_cps. apply Forall_map. rewrite Forall_forall in *.
  intros c Hin. apply encode_is_cp; auto.
Qed.

(** ** Table lookup *)

(** Rows in increasing order, without overlap. *)
Fixpoint sorted_from (lo : N) (t : list range) : bool :=
  match t with
  | [] => true
  | r :: t' => N.leb lo (r_first r) && N.leb (r_first r) (r_last r) && sorted_from (N.succ (r_last r)) t'
  end.

Lemma sorted_from_spec t : forall lo, sorted_from lo t = true ->
  forall i r, nth_error t i = Some r ->
    (lo <= r_first r /\ r_first r <= r_last r)%N
    /\ (forall j r', i < j -> nth_error t j = Some r' -> (r_last r < r_first r')%N).
Proof.
  induction t as [|r0 t IH]; intros lo H i r Hi.
  - now destruct i.
  - cbn [sorted_from] in H. apply andb_true_iff in H as [H Ht]. apply andb_true_iff in H as [H1 H2].
    destruct i as [|i]; cbn [nth_error] in Hi.
    + injection Hi as <-. split; [lia|]. intros j r' Hj Hr'.
      destruct j as [|j]; [lia|]. cbn [nth_error] in Hr'.
      destruct (IH _ Ht j r' Hr') as [? _]. lia.
    + destruct (IH _ Ht i r Hi) as [Ha Hb]. split; [lia|].
      intros j r' Hj Hr'. destruct j as [|j]; [lia|]. apply (Hb j r'); [lia|exact Hr'].
Qed.

Lemma find_range_loop_in_bounds (table : list range) : forall fuel first len,
  len < fuel -> first + len <= List.length table ->
  len <> 0 -> exists r, nth_error table (first + len / 2) = Some r.
Proof.
  intros fuel first len Hf Hl Hn.
  destruct (nth_error table (first + len / 2)) eqn:E; [eauto|].
  apply nth_error_None in E. pose proof (Nat.div_lt len 2 ltac:(lia) ltac:(lia)). lia.
Qed.

Definition contains (r : range) (cp : N) : Prop := (r_first r <= cp /\ cp <= r_last r)%N.

Lemma find_range_loop_spec table cp : sorted_from 0 table = true ->
  forall fuel first len,
  len < fuel -> first + len <= List.length table ->
  (forall i r, nth_error table i = Some r -> contains r cp -> first <= i < first + len) ->
  match find_range_loop fuel table first len cp with
  | Some r => In r table /\ contains r cp
  | None => forall r, In r table -> ~ contains r cp
  end.
Proof.
  intros Hs. induction fuel as [|fuel IH]; intros first len Hf Hl Hin; [lia|].
  cbn [find_range_loop]. destruct (Nat.eqb_spec len 0) as [->|Hn].
  - intros r Hr Hc. apply In_nth_error in Hr as [i Hi]. specialize (Hin i r Hi Hc). lia.
  - destruct (find_range_loop_in_bounds table (S fuel) first len Hf Hl Hn) as [r Er].
    rewrite Er. pose proof (Nat.div_lt len 2 ltac:(lia) ltac:(lia)) as Hd.
    destruct (N.ltb_spec cp (r_first r)) as [Hlt|Hge].
    + apply IH; [lia|lia|]. intros i r' Hi Hc. specialize (Hin i r' Hi Hc). split; [lia|].
      destruct (Nat.lt_ge_cases i (first + len / 2)) as [|Hge]; [easy|exfalso].
      destruct (Nat.eq_dec i (first + len / 2)) as [->|Hne].
      * rewrite Er in Hi. injection Hi as <-. unfold contains in Hc. lia.
      * destruct (sorted_from_spec table 0 Hs _ r Er) as [Ha Hb].
        specialize (Hb i r' ltac:(lia) Hi). unfold contains in Hc. lia.
    + destruct (N.leb_spec cp (r_last r)) as [Hle|Hgt].
      * split; [now apply nth_error_In in Er|]. unfold contains; lia.
      * apply IH; [lia|lia|]. intros i r' Hi Hc. specialize (Hin i r' Hi Hc).
        split; [|lia].
        destruct (Nat.lt_ge_cases (first + len / 2) i) as [|Hle]; [easy|exfalso].
        destruct (Nat.eq_dec i (first + len / 2)) as [->|Hne].
        -- rewrite Er in Hi. injection Hi as <-. unfold contains in Hc. lia.
        -- destruct (sorted_from_spec table 0 Hs _ r' Hi) as [Ha Hb].
           specialize (Hb (first + len / 2) r ltac:(lia) Er). unfold contains in Hc.
           destruct (sorted_from_spec table 0 Hs _ r Er) as [Ha' _]. lia.
Qed.

Lemma find_range_spec table cp : sorted_from 0 table = true ->
  match find_range table cp with
  | Some r => In r table /\ contains r cp
  | None => forall r, In r table -> ~ contains r cp
  end.
Proof.
  intros Hs. apply find_range_loop_spec; [easy|lia|lia|].
  intros i r Hi _. split; [lia|]. apply nth_error_Some. congruence.
Qed.

Lemma sorted_unique table cp r r' : sorted_from 0 table = true ->
  In r table -> In r' table -> contains r cp -> contains r' cp -> r = r'.
Proof.
  intros Hs Hr Hr' Hc Hc'. apply In_nth_error in Hr as [i Hi]. apply In_nth_error in Hr' as [j Hj].
  unfold contains in *.
  destruct (Nat.lt_trichotomy i j) as [H|[->|H]].
  - destruct (sorted_from_spec _ _ Hs i r Hi) as [_ Hb]. specialize (Hb j r' H Hj). lia.
  - congruence.
  - destruct (sorted_from_spec _ _ Hs j r' Hj) as [_ Hb]. specialize (Hb i r H Hi). lia.
Qed.

(** Rows as in the source, and the packed table. *)
Definition row_ok (x : N * N * N) : bool :=
  let '(f, l, m) := x in (f <? 2097152)%N && (l <? 2097152)%N && (m <? 64)%N.

Lemma lookup_rows rows table cp :
  table = map pack_row rows -> sorted_from 0 table = true -> forallb row_ok rows = true ->
  (forall f l m, In (f, l, m) rows -> (f <= cp <= l)%N ->
      exists r, find_range table cp = Some r /\ r_first r = f /\ r_last r = l /\ r_meta r = m)
  /\ ((forall f l m, In (f, l, m) rows -> ~ (f <= cp <= l)%N) -> find_range table cp = None).
Proof.
  intros -> Hs Hok. rewrite forallb_forall in Hok.
  assert (P : forall f l m, In (f, l, m) rows ->
            r_first (pack f l m) = f /\ r_last (pack f l m) = l /\ r_meta (pack f l m) = m).
  { intros f l m Hin. specialize (Hok _ Hin). cbn [row_ok] in Hok.
    repeat split; [apply pack_first|apply pack_last|apply pack_meta]; lia. }
  pose proof (find_range_spec (map pack_row rows) cp Hs) as F. split.
  - intros f l m Hin Hc. destruct (P f l m Hin) as (P1 & P2 & P3).
    assert (Hin' : In (pack f l m) (map pack_row rows)) by (apply (in_map pack_row _ (f, l, m)); exact Hin).
    assert (Hc' : contains (pack f l m) cp) by (unfold contains; rewrite P1, P2; lia).
    destruct (find_range (map pack_row rows) cp) as [r|].
    + destruct F as [Fr Fc]. exists r. split; [easy|].
      rewrite (sorted_unique _ cp r _ Hs Fr Hin' Fc Hc'). auto.
    + now elim (F _ Hin').
  - intros Hno. destruct (find_range (map pack_row rows) cp) as [r|]; [|easy].
    destruct F as [Fr Fc]. apply in_map_iff in Fr as ([[f l] m] & <- & Hin).
    destruct (P f l m Hin) as (P1 & P2 & P3). cbn [pack_row] in Fc. unfold contains in Fc.
    rewrite P1, P2 in Fc. now elim (Hno f l m Hin).
Qed.

(** The five tables of the library. *)
Lemma grapheme_table_ok :
  grapheme_table = map pack_row grapheme_cluster_break_table_rows
  /\ sorted_from 0 grapheme_table = true /\ forallb row_ok grapheme_cluster_break_table_rows = true.
Proof. repeat split; vm_compute; reflexivity. Qed.
Lemma line_table_ok :
  line_table = map pack_row line_break_table_rows
  /\ sorted_from 0 line_table = true /\ forallb row_ok line_break_table_rows = true.
Proof. repeat split; vm_compute; reflexivity. Qed.
Lemma whitespace_tab_ok :
  whitespace_tab = map pack_row whitespace_table_rows
  /\ sorted_from 0 whitespace_tab = true /\ forallb row_ok whitespace_table_rows = true.
Proof. repeat split; vm_compute; reflexivity. Qed.
Lemma zero_width_tab_ok :
  zero_width_tab = map pack_row zero_width_table_rows
  /\ sorted_from 0 zero_width_tab = true /\ forallb row_ok zero_width_table_rows = true.
Proof. repeat split; vm_compute; reflexivity. Qed.
Lemma double_width_tab_ok :
  double_width_tab = map pack_row double_width_table_rows
  /\ sorted_from 0 double_width_tab = true /\ forallb row_ok double_width_table_rows = true.
Proof. repeat split; vm_compute; reflexivity. Qed.

(** ** Grapheme clusters *)

Lemma clusters_concat cps : Forall is_cp cps -> forall w cur,
  List.concat (clusters w cur cps) = cur ++ List.concat cps.
Proof.
  induction 1 as [|c cps Hc _ IH]; intros w cur; cbn [clusters List.concat].
  - destruct cur; cbn [List.concat]; now rewrite ?app_nil_r.
  - destruct (cp_decode c).
    + destruct (should_break _ _ _); cbn [List.concat]; rewrite IH; cbn [app]; now rewrite <- app_assoc.
    + rewrite IH. now rewrite <- app_assoc.
Qed.

(** Clusters are made of whole code points, none is empty. *)
Lemma clusters_groups cps : Forall is_cp cps -> forall w cur, Forall is_cp cur ->
  exists gs, clusters w (List.concat cur) cps = map (@List.concat ascii) gs
             /\ List.concat gs = cur ++ cps
             /\ Forall (fun g => g <> []) gs.
Proof.
  induction 1 as [|c cps Hc _ IH]; intros w cur Hcur; cbn [clusters].
  - destruct cur as [|d cur].
    + exists []. easy.
    + exists [d :: cur]. split; [|split].
      * inversion Hcur as [|? ? [Hd _] _]; subst. destruct d; [easy|]. reflexivity.
      * cbn. now rewrite !app_nil_r.
      * constructor; [discriminate|constructor].
  - assert (E : List.concat cur ++ c = List.concat (cur ++ [c])).
    { rewrite concat_app. cbn. now rewrite app_nil_r. }
    assert (Hcur' : Forall is_cp (cur ++ [c])) by (apply Forall_app; auto).
    rewrite E. destruct (cp_decode c) as [cp|].
    + destruct (should_break _ _ _).
      * destruct (IH (push_window (extract_class grapheme_table cp) w) [] (Forall_nil _))
          as (gs & E1 & E2 & E3).
        exists ((cur ++ [c]) :: gs). cbn [map List.concat] in *. rewrite E1, E2, <- app_assoc.
        repeat split. constructor; [now destruct cur|exact E3].
      * destruct (IH (push_window (extract_class grapheme_table cp) w) _ Hcur') as (gs & E1 & E2 & E3).
        exists gs. rewrite E1, E2, <- app_assoc. easy.
    + destruct (IH w _ Hcur') as (gs & E1 & E2 & E3).
      exists gs. rewrite E1, E2, <- app_assoc. easy.
Qed.

Lemma graphemes_groups s gs : graphemes s = Some gs ->
  exists cps groups,
    cp_split s = Some cps /\ List.concat cps = s /\ Forall is_cp cps
    /\ List.concat groups = cps /\ Forall (fun g => g <> []) groups
    /\ gs = map (@List.concat ascii) groups.
Proof.
  unfold graphemes. destruct (cp_split s) as [cps|] eqn:E; [|discriminate].
  cbn [option_map]. intros H. injection H as <-.
  destruct (cp_split_concat s cps E) as [Hc Hf].
  destruct (clusters_groups cps Hf fresh_window [] (Forall_nil _)) as (groups & E1 & E2 & E3).
  exists cps, groups. cbn [List.concat app] in *. repeat split; auto.
Qed.

Lemma graphemes_partition s gs : graphemes s = Some gs ->
  List.concat gs = s /\ Forall (fun g => g <> []) gs.
Proof.
  intros H. apply graphemes_groups in H as (cps & groups & _ & Hc & Hf & Hg & Hn & ->).
  split.
  - rewrite <- Hc, <- Hg. symmetry. clear. induction groups as [|g groups IH]; [easy|].
    cbn [List.concat map]. now rewrite concat_app, IH.
  - subst cps. apply Forall_map. rewrite Forall_forall in *. intros g Hin E.
    destruct g as [|c g]; [now apply (Hn [] Hin)|].
    assert (is_cp c) as [Hc' _].
    { apply Hf. apply in_concat. exists (c :: g). split; [exact Hin|now left]. }
    cbn [List.concat] in E. apply app_eq_nil in E as [-> _]. easy.
Qed.

Lemma graphemes_defined s : graphemes s <> None <-> cp_split s <> None.
Proof. unfold graphemes. destruct (cp_split s); easy. Qed.

(** ** Widths *)

Lemma cps_width_app l m : cps_width (l ++ m) = cps_width l + cps_width m.
Proof. unfold cps_width. now rewrite map_app, list_sum_app. Qed.

Lemma terminal_width_app s t ws wt :
  terminal_width s = Some ws -> terminal_width t = Some wt ->
  terminal_width (s ++ t) = Some (ws + wt).
Proof.
  unfold terminal_width. destruct (cp_split s) as [l|] eqn:Es; [|discriminate].
  destruct (cp_split t) as [m|] eqn:Et; [|discriminate]. cbn [option_map].
  intros E1 E2. injection E1 as <-. injection E2 as <-.
  rewrite (cp_split_app s t l Es), Et. cbn [option_map]. now rewrite cps_width_app.
Qed.

Lemma cp_width_le c : cp_width c <= 2.
Proof.
  unfold cp_width. destruct (cp_decode c); [|lia].
  destruct (find_range double_width_tab n); [lia|]. destruct (find_range zero_width_tab n); lia.
Qed.

Lemma terminal_width_encode cs :
  Forall scalar cs -> Forall (fun c => ~ boundary_lead c) cs ->
  terminal_width (encode_all cs)
  = Some (list_sum (map (fun c => match find_range double_width_tab c with
                                  | Some _ => 2
                                  | None => match find_range zero_width_tab c with
                                            | Some _ => 0 | None => 1 end
                                  end) cs)).
Proof.
  intros Hs Hb. unfold terminal_width. rewrite cp_split_encode by assumption. cbn [option_map].
  f_equal. unfold cps_width. f_equal. rewrite map_map. apply map_ext_in. intros c Hin.
  rewrite Forall_forall in *. unfold cp_width.
  pose proof (encode_decode c [] (Hs c Hin) (Hb c Hin)) as E. rewrite app_nil_r in E. now rewrite E.
Qed.

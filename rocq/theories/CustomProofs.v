(** Proofs about the formatter's settings and the pages without runtime help data (C74, C75). *)
From Coq Require Import Lia.
From Verif Require Import Bytes Token Result CodePoint Utf8 Tree PreParse Parse Root Validator Digits Help HelpMore HelpCustom.
From Verif Require Import SpecTake SpecMode SpecDeliver SpecRoot SpecReading SpecLines SpecHelp SpecColour SpecPage.
From Verif Require Import TreeProofs Utf8Proofs LineProofs OrderProofs NodeProofs TakeProofs ModeProofs RootProofs HelpProofs PageProofs ColourProofs.

(** ** The two kinds of help data *)

(** What the comparison needs of an accepted tree. *)
Definition shape (n : node) : Prop :=
  (is_leaf n = true -> n_children n = [])
  /\ (is_dep n = true -> 2 <= List.length (n_children n) /\ forall c, In c (n_children n) -> is_leaf c = true)
  /\ (is_mode n = true -> is_anonymous n = true -> forall c, In c (n_children n) -> is_mode c = false)
  /\ (forall c, In c (n_children n) -> is_root c = false).
Definition shaped (n : node) : Prop := forall m, In m (below n) -> shape m.

Lemma shaped_child n c : shaped n -> In c (n_children n) -> shaped c.
Proof. intros H Hc m Hm. apply H. now apply (below_child c). Qed.

Lemma ok_group_size n tp : sub_core n tp -> is_dep n = true -> 2 <= List.length (n_children n).
Proof.
  intros Hs Hd. apply sub_core_self in Hs. destruct Hs as (Hs & _ & _).
  unfold node_static, one_of_base_static in Hs. unfold is_dep in Hd.
  destruct (n_kind n); try discriminate;
    repeat match goal with Hx : _ && _ = true |- _ => apply andb_true_iff in Hx as [? ?] end;
    match goal with Hx : Nat.leb 2 _ = true |- _ => now apply Nat.leb_le in Hx end.
Qed.

Lemma sub_core_shaped n tp : sub_core n tp -> shaped n.
Proof.
  intros Hs m Hm. destruct (sub_core_below n tp m Hs Hm) as (tp' & _ & Hk). split; [|split; [|split]].
  - now apply (ok_leaf m tp').
  - intros Hd. split; [now apply (ok_group_size m tp')|]. intros c Hc. now apply (ok_group m tp').
  - intros H1 H2 c Hc. now apply (ok_anonymous m tp').
  - intros c Hc. now apply (ok_child_root m tp').
Qed.

Section Data.
Variable lim : node -> option limits.

Lemma flatten_same f n : shaped n -> is_mode n = false -> is_root n = false ->
  runtime_children lim f n = runtime_children lim true n.
Proof.
  intros Hs Hm Hr. destruct (Hs n (below_self n)) as (Hl & _ & _ & _). destruct n as [k id ty pols cs].
  unfold is_leaf in Hl. unfold is_mode in Hm. unfold is_root in Hr. cbn [n_kind n_children] in *.
  destruct k; try discriminate; try (rewrite (Hl eq_refl)); reflexivity.
Qed.

(** If nothing is switched off the two kinds are the same. *)
Lemma static_runtime f n : shaped n -> (forall m, In m (below n) -> switched_on m = true) ->
  static_data lim f n = runtime_data lim f n.
Proof.
  induction n as [k id ty pols cs IH] using node_ind'. rewrite Forall_forall in IH.
  intros Hs Hon. set (n := Node k id ty pols cs) in *.
  assert (Hc : forall c, In c cs -> help_filter c = true).
  { intros c Hc. rewrite help_filter_on. apply Hon. apply (below_child c); [exact Hc|apply below_self]. }
  assert (Hall : forall fl, flat_map (fun c => if help_filter c then [HD (help_label lim c) (help_description c) (runtime_children lim fl c)] else []) cs
                 = map (fun c => runtime_data lim fl c) cs).
  { intros fl. clear -Hc. induction cs as [|c cs IHc]; [reflexivity|]. cbn [flat_map map]. rewrite Hc by now left.
    cbn [app]. f_equal. apply IHc. intros d Hd. apply Hc. now right. }
  assert (Hmap : map (static_data lim f) cs = map (fun c => runtime_data lim f c) cs).
  { apply map_ext_in. intros c Hin. apply IH; [exact Hin|now apply (shaped_child n)|].
    intros m Hm. apply Hon. now apply (below_child c). }
  destruct (Hs n (below_self n)) as (Hl & Hg & Ha & Hr).
  unfold runtime_data_of at 1. unfold n at 1. cbn [static_data_of]. fold n. f_equal.
  change (runtime_children lim f n) with (runtime_children lim f (Node k id ty pols cs)).
  assert (Hgroup : is_dep n = true -> with_bars (map (fun c => HD (help_label lim c) (help_description c) []) cs)
     = (let result := flat_map (fun c => if help_filter c then [HD (help_label lim c) (help_description c) (runtime_children lim true c)] else []) cs in
        if Nat.leb (List.length result) 1 then result else with_bars result)).
  { intros Hd. destruct (Hg Hd) as [H2 Hk]. cbv zeta. rewrite Hall, map_length. change (n_children n) with cs in *.
    destruct (Nat.leb_spec (List.length cs) 1); [lia|]. f_equal. apply map_ext_in. intros c Hin. unfold runtime_data_of. f_equal.
    specialize (Hk c Hin). destruct (shaped_child n c Hs Hin c (below_self c)) as (Hlc & _). specialize (Hlc Hk).
    destruct c as [kc idc tyc polsc csc]. unfold is_leaf in Hk. cbn [n_kind n_children] in *. subst csc.
    destruct kc; try discriminate; reflexivity. }
  destruct k; cbn [runtime_children_of];
    try (change (n_children n) with cs in Hl; rewrite (Hl eq_refl); reflexivity);
    try (exact (Hgroup eq_refl)).
  - fold n. rewrite Hmap. destruct (is_anonymous n || f) eqn:Ef; [|reflexivity]. rewrite Hall. apply map_ext_in. intros c Hin.
    destruct f; [reflexivity|]. rewrite orb_false_r in Ef. unfold runtime_data_of. f_equal. apply flatten_same.
    + now apply (shaped_child n).
    + now apply Ha.
    + now apply Hr.
  - rewrite Hall. exact Hmap.
Qed.
End Data.

(** ** A tree in which nothing is switched off *)

Definition keeps (p : policy) : bool :=
  match p with PRuntimeEnable _ | PRuntimeEnableRequired _ _ => false | _ => true end.

Lemma on_pols n : n_pols (always_on n) = filter keeps (n_pols n).
Proof. now destruct n. Qed.
Lemma on_kind n : n_kind (always_on n) = n_kind n.
Proof. now destruct n. Qed.
Lemma on_children n : n_children (always_on n) = map always_on (n_children n).
Proof. now destruct n. Qed.

Lemma first_some_on {B} (g : policy -> option B) n : (forall p, keeps p = false -> g p = None) ->
  first_some g (n_pols (always_on n)) = first_some g (n_pols n).
Proof.
  intros H. rewrite on_pols. induction (n_pols n) as [|p l IH]; [reflexivity|]. cbn [filter first_some].
  destruct (keeps p) eqn:E; [cbn [first_some]; now rewrite IH|]. rewrite H by exact E. exact IH.
Qed.

Lemma on_below n : below (always_on n) = map always_on (below n).
Proof.
  induction n as [k id ty pols cs IH] using node_ind'. rewrite Forall_forall in IH.
  rewrite (below_eq (always_on _)), (below_eq (Node _ _ _ _ _)), on_children. cbn [n_children map]. f_equal.
  induction cs as [|c cs IHc]; [reflexivity|]. cbn [map flat_map]. rewrite map_app, IH by now left. f_equal.
  apply IHc. intros d Hd. apply IH. now right.
Qed.

Lemma on_switched n : switched_on (always_on n) = true.
Proof.
  unfold switched_on, runtime_enabled. rewrite on_pols. induction (n_pols n) as [|p l IH]; [reflexivity|].
  destruct p; exact IH.
Qed.

Lemma on_shaped n : shaped n -> shaped (always_on n).
Proof.
  intros H m Hm. rewrite on_below in Hm. apply in_map_iff in Hm as (m0 & <- & Hm). destruct (H m0 Hm) as (H1 & H2 & H3 & H4).
  assert (Hk : forall (P : node -> bool), (forall x, P (always_on x) = P x) -> forall x,
    (forall c, In c (n_children m0) -> P c = x) -> forall c, In c (n_children (always_on m0)) -> P c = x).
  { intros P HP x Hx c Hc. rewrite on_children in Hc. apply in_map_iff in Hc as (c0 & <- & Hc). rewrite HP. now apply Hx. }
  assert (Hleaf : forall x, is_leaf (always_on x) = is_leaf x) by (intros x; unfold is_leaf; now rewrite on_kind).
  assert (Hmode : forall x, is_mode (always_on x) = is_mode x) by (intros x; unfold is_mode; now rewrite on_kind).
  assert (Hroot : forall x, is_root (always_on x) = is_root x) by (intros x; unfold is_root; now rewrite on_kind).
  assert (Hdep : forall x, is_dep (always_on x) = is_dep x) by (intros x; unfold is_dep; now rewrite on_kind).
  assert (Hanon : forall x, is_anonymous (always_on x) = is_anonymous x).
  { intros x. unfold is_anonymous, none_name. rewrite first_some_on; [reflexivity|]. intros []; easy. }
  split; [|split; [|split]].
  - rewrite Hleaf, on_children. intros Hl. now rewrite H1.
  - rewrite Hdep. intros Hd. destruct (H2 Hd) as [Hz Hc]. split; [now rewrite on_children, map_length|]. now apply Hk.
  - rewrite Hmode, Hanon. intros Hm1 Ha. apply Hk; auto.
  - now apply Hk.
Qed.

(** The help data of the types does not depend on what is switched on. *)
Section On.
Variable lim : node -> option limits.
Hypothesis lim_on : forall n, lim (always_on n) = lim n.

Lemma on_label n : help_label lim (always_on n) = help_label lim n.
Proof.
  unfold help_label_with, label_generator_with, value_separator_suffix, value_suffix, count_suffix, count_bounds, is_anonymous,
    long_name, short_name, none_name, display_name, value_separator.
  rewrite on_kind, lim_on, !first_some_on by (intros []; easy). reflexivity.
Qed.
Lemma on_description n : help_description (always_on n) = help_description n.
Proof.
  unfold help_description, description_generator. rewrite on_kind.
  first [rewrite first_some_on by (intros []; easy); reflexivity
        | unfold description; rewrite first_some_on by (intros []; easy); reflexivity].
Qed.
Lemma on_static f n : static_data lim f (always_on n) = static_data lim f n.
Proof.
  induction n as [k id ty pols cs IH] using node_ind'. rewrite Forall_forall in IH.
  set (n := Node k id ty pols cs) in *.
  assert (Hanon : is_anonymous (always_on n) = is_anonymous n).
  { unfold is_anonymous, none_name. rewrite first_some_on; [reflexivity|]. intros []; easy. }
  assert (Hmap : map (static_data lim f) (map always_on cs) = map (static_data lim f) cs).
  { rewrite map_map. apply map_ext_in. exact IH. }
  assert (Hg : map (fun c => HD (help_label lim c) (help_description c) []) (map always_on cs)
             = map (fun c => HD (help_label lim c) (help_description c) []) cs).
  { rewrite map_map. apply map_ext. intros c. now rewrite on_label, on_description. }
  assert (E : forall m, static_data lim f m = HD (help_label lim m) (help_description m)
     match n_kind m with
         | KRoot => map (static_data lim f) (n_children m)
         | KMode => if is_anonymous m || f then map (static_data lim f) (n_children m) else []
         | KOneOf _ | KAliasGroup =>
             with_bars (map (fun c => HD (help_label lim c) (help_description c) []) (n_children m))
         | KFlag | KArg _ | KCountingFlag | KHelp => []
         end) by (intros []; reflexivity).
  rewrite !E, on_label, on_description, on_kind, on_children, Hanon. change (n_children n) with cs.
  now rewrite Hmap, Hg.
Qed.
End On.

(** ** Rows *)

Section Rows.
Variables (ind : nat) (offset : N).

Lemma start_column_bound rows : forall m col, start_column ind m rows = Ok col ->
  m <= col /\ forall d l x, In (d, l, x) rows -> exists w, terminal_width l = Some w /\ d * ind + w + ind <= col.
Proof.
  induction rows as [|[[d l] x] rows IH]; intros m col H; cbn [start_column] in H.
  - injection H as ->. split; [lia|easy].
  - destruct (terminal_width l) as [w|] eqn:Ew; [|discriminate]. destruct (IH _ _ H) as [H1 H2]. split; [lia|].
    intros d' l' x' [E|Hin]; [injection E as <- <- <-; exists w; split; [easy|lia]|eauto].
Qed.

Lemma sequence_spaces k : sequence (N.of_nat k) = spaces k.
Proof. unfold sequence, spaces. now rewrite Nnat.Nat2N.id. Qed.

Lemma gap_value col indent w : indent + w <= col -> (N.of_nat col < 2 ^ 31)%N ->
  ((N.of_nat col + 2 * size_mod - N.of_nat indent - N.of_nat w) mod size_mod = N.of_nat (col - indent - w))%N.
Proof.
  intros H Hlt. assert (Hz : size_mod = (2 ^ 64)%N) by reflexivity.
  replace (N.of_nat col + 2 * size_mod - N.of_nat indent - N.of_nat w)%N
    with (N.of_nat (col - indent - w) + 2 * size_mod)%N by lia.
  rewrite N.mod_add, N.mod_small by lia. reflexivity.
Qed.

Lemma static_description_same columns col d : (N.of_nat col < 2 ^ 31)%N ->
  static_description columns col d = description_text columns col d.
Proof.
  intros H. unfold static_description, description_text. destruct (cp_split d); [|reflexivity].
  destruct (lines_from _ _) as [[|line more]|]; try reflexivity. f_equal. f_equal.
  now rewrite sequence_spaces, set_gap_spaces.
Qed.

Lemma static_row_same columns col d l x w : terminal_width l = Some w -> d * ind + w + ind <= col -> (N.of_nat col < 2 ^ 31)%N ->
  static_row ind columns col (d, l, x) = custom_row ind columns col (d, l, x).
Proof.
  intros Hw Hle Hlt. unfold static_row, custom_row. destruct l as [|l0 l]; [reflexivity|].
  rewrite sequence_spaces, set_gap_spaces by lia. destruct x as [|x0 x]; [reflexivity|].
  rewrite Hw, gap_value by lia. rewrite sequence_spaces, set_gap_spaces by lia. now rewrite static_description_same.
Qed.

Lemma dispatch_ext g g' rows : (forall r, In r rows -> g r = g' r) -> dispatch g rows = dispatch g' rows.
Proof.
  induction rows as [|r rows IH]; intros H; [reflexivity|]. cbn [dispatch]. rewrite H by now left.
  rewrite IH by (intros x Hx; apply H; now right). reflexivity.
Qed.

Lemma static_rows_same lim columns h n f col : custom_column lim ind f n = Ok col -> (N.of_nat col < 2 ^ 31)%N ->
  static_text lim ind offset columns h n f
  = page lim ind offset (custom_row ind) columns h n f (static_data lim f n).
Proof.
  intros Hc Hlt. unfold static_text, page. rewrite Hc. cbn [rbind].
  rewrite (dispatch_ext (static_row ind _ _) (custom_row ind (custom_usable offset columns col) col)); [reflexivity|].
  intros [[d l] x] Hin. destruct (start_column_bound _ _ _ Hc) as [_ Hb]. destruct (Hb _ _ _ Hin) as (w & Hw & Hle).
  now apply static_row_same with w.
Qed.
End Rows.

(** ** The page without runtime help data *)

Lemma static_page lim ind offset columns h n f col : (forall m, lim (always_on m) = lim m) ->
  shaped n -> custom_column lim ind f n = Ok col -> (N.of_nat col < 2 ^ 31)%N ->
  static_text lim ind offset columns h n f = custom_text lim ind offset columns h (always_on n) f.
Proof.
  intros Hl Hs Hc Hlt. rewrite (static_rows_same ind offset lim columns h n f col Hc Hlt).
  unfold custom_text. rewrite <- (static_runtime lim f (always_on n)).
  - unfold page, custom_column. rewrite (on_static lim Hl). reflexivity.
  - now apply on_shaped.
  - intros m Hm. rewrite on_below in Hm. apply in_map_iff in Hm as (m0 & <- & _). apply on_switched.
Qed.

Lemma static_page_same lim ind offset columns h n f col :
  shaped n -> (forall m, In m (below n) -> switched_on m = true) ->
  custom_column lim ind f n = Ok col -> (N.of_nat col < 2 ^ 31)%N ->
  static_text lim ind offset columns h n f = custom_text lim ind offset columns h n f.
Proof.
  intros Hs Hon Hc Hlt. rewrite (static_rows_same ind offset lim columns h n f col Hc Hlt).
  unfold custom_text. now rewrite (static_runtime lim f n Hs Hon).
Qed.

(** ** The default settings *)

Lemma start_column_default rows : forall m, start_column 4 m rows = max_start m rows.
Proof. induction rows as [|[[d l] x] rows IH]; intros m; cbn [start_column max_start]; [reflexivity|]. destruct (terminal_width l); [apply IH|reflexivity]. Qed.

Lemma custom_default lim columns h n f col : description_column lim f n = Ok col -> (N.of_nat col < 2 ^ 63)%N ->
  custom_text lim 4 8 columns h n f = help_text lim columns h n f.
Proof.
  intros Hc Hlt. unfold custom_text, page, help_text_of, custom_column. rewrite start_column_default.
  change (max_start 0 (visit 0 (static_data lim f n))) with (description_column lim f n). rewrite Hc. cbn [rbind].
  assert (Hz : size_mod = (2 ^ 64)%N) by reflexivity.
  assert (Eu : custom_usable 8 columns col = usable_columns columns col).
  { unfold custom_usable, usable_columns, desc_column_offset. rewrite N.mod_small by lia.
    replace (N.of_nat col + 8)%N with (N.of_nat (col + 8)) by lia. reflexivity. }
  rewrite Eu. generalize (visit 0 (runtime_data lim f n)). intros rows.
  assert (E : dispatch (custom_row 4 (usable_columns columns col) col) rows
            = format_rows (usable_columns columns col) col rows); [|now rewrite E].
  induction rows as [|r rows IH]; [reflexivity|]. cbn [dispatch format_rows]. rewrite IH. reflexivity.
Qed.

(** ** Pages with other settings *)

Section Settings.
Variables (ind : nat) (offset : N).

Lemma wrapped_description columns col d text : d <> [] -> cp_split d = Some text ->
  (columns < 2 ^ 64)%N -> (N.of_nat col < 2 ^ 31)%N -> (N.of_nat (List.length d) < 2 ^ 62)%N ->
  (2 <= offset)%N \/ (1 <= offset)%N /\ Forall (fun c => cp_width c <= 1) text -> (N.of_nat col + offset < 2 ^ 64)%N ->
  exists line more, lines_from (List.length text) (line_begin text (wrap_limit (custom_usable offset columns col) col text)) = Some (line :: more)
    /\ wrapped (line :: more) text
    /\ ((N.of_nat col + offset <= columns)%N ->
          Forall (fun l => (N.of_nat (col + list_sum (map cp_width l)) <= columns)%N) (line :: more))
    /\ ((columns < N.of_nat col + offset)%N -> more = []).
Proof.
  intros Hd Hsp Hc Hcol Hlen Ho2 Hof. pose proof (split_nonempty d text Hsp Hd) as Hne.
  assert (Hl : List.length text <= List.length d).
  { apply cp_split_concat in Hsp as [<- Hall]. clear -Hall. induction Hall as [|c l [Hc _] _ IH]; [easy|].
    cbn [List.concat List.length]. rewrite app_length. destruct c; [easy|]. cbn [List.length]. lia. }
  assert (Hz : size_mod = (2 ^ 64)%N) by reflexivity. assert (Hx : size_max = (2 ^ 64 - 1)%N) by reflexivity.
  set (L := wrap_limit (custom_usable offset columns col) col text).
  assert (HL : (N.of_nat col + offset <= columns)%N /\ L = N.to_nat (N.min (columns - N.of_nat col) (N.of_nat (2 * List.length text + 1)))
               \/ (columns < N.of_nat col + offset)%N /\ L = 2 * List.length text + 1).
  { unfold L, wrap_limit, custom_usable. rewrite (N.mod_small (N.of_nat col + offset)) by lia.
    destruct (N.leb_spec (N.of_nat col + offset) columns); [left|right]; (split; [assumption|]).
    - replace (columns + size_mod - N.of_nat col)%N with (columns - N.of_nat col + 1 * size_mod)%N by lia.
      rewrite N.mod_add, N.mod_small by lia. reflexivity.
    - replace (size_max + size_mod - N.of_nat col)%N with (size_max - N.of_nat col + 1 * size_mod)%N by lia.
      rewrite N.mod_add, N.mod_small by lia. lia. }
  assert (H2 : 2 <= L \/ (L = 1 /\ Forall (fun c => cp_width c <= 1) text)).
  { destruct (Nat.le_gt_cases 2 L) as [|Hl1]; [now left|right]. destruct Ho2 as [Ho2|[Ho2 Hn]].
    - destruct text as [|c text]; [easy|]; cbn [List.length] in HL; lia.
    - split; [|exact Hn]. destruct text as [|c text]; [easy|]; cbn [List.length] in HL; lia. }
  destruct (iterates_terminates_cases text L H2) as (lines & Hit).
  destruct (iterates_wrapped text L _ lines ltac:(lia) Hit) as [Hw Hf]. unfold iterates_to in Hit.
  destruct lines as [|line more]; [inversion Hw; congruence|]. exists line, more. split; [exact Hit|]. split; [exact Hw|]. split.
  - intros Hu. eapply Forall_impl; [|exact Hf]. cbn beta. intros l Hle. change (list_sum (map cp_width l)) with (cps_width l). lia.
  - intros Hu. pose proof (cps_width_bound text) as Hb. destruct (List.length text) as [|k] eqn:El; [destruct text; easy|].
    rewrite (wide_limit text L k) in Hit by (auto; lia). congruence.
Qed.

Lemma custom_row_spec columns col d l x w : l <> [] -> terminal_width l = Some w -> d * ind + w + ind <= col ->
  (columns < 2 ^ 64)%N -> (N.of_nat col < 2 ^ 31)%N -> (N.of_nat (List.length x) < 2 ^ 62)%N -> cp_split x <> None ->
  (2 <= offset)%N \/ (1 <= offset)%N /\ (forall cps, cp_split x = Some cps -> Forall (fun c => cp_width c <= 1) cps) ->
  (N.of_nat col + offset < 2 ^ 64)%N ->
  exists text, custom_row ind (custom_usable offset columns col) col (d, l, x) = Ok text
    /\ row_with ind offset columns col d l x text.
Proof.
  intros Hl Hw Hcol Hc Hlt Hlen Hx Ho2 Hof. unfold custom_row. destruct l as [|l0 l]; [easy|].
  rewrite set_gap_spaces by lia.
  destruct x as [|x0 x1] eqn:Ex.
  - eexists. split; [reflexivity|]. apply with_plain with w; [easy|exact Hw|lia].
  - rewrite <- Ex in *. rewrite Hw, gap_value by lia. rewrite set_gap_spaces by lia.
    destruct (cp_split x) as [text|] eqn:Es; [|easy]. unfold description_text. rewrite Es.
    destruct (wrapped_description columns col x text) as (line & more & E & Hwr & Hfit & Hone); auto.
    { rewrite Ex. discriminate. }
    { destruct Ho2 as [Ho2|[Ho2 Hn]]; [now left|right; auto]. }
    rewrite E. cbn [rbind]. eexists. split; [reflexivity|].
    replace (flat_map (fun l1 => newline ++ set_gap (N.of_nat col) ++ List.concat l1) more)
      with (List.concat (map (fun l1 => end_of_line ++ spaces col ++ List.concat l1) more)).
    2:{ rewrite flat_map_concat_map. f_equal. apply map_ext. intros l1. now rewrite set_gap_spaces. }
    rewrite <- !app_assoc. apply with_described with w text; auto; lia.
Qed.

Lemma custom_all columns col (D : list (node * list node * bytes)) lim :
  (forall e, In e D -> exists text, custom_row ind (custom_usable offset columns col) col (entry_row (help_label lim) e) = Ok text
     /\ (if is_root (fst (fst e)) then text = []
         else row_with ind offset columns col (List.length (snd (fst e))) (snd e ++ help_label lim (fst (fst e)))
                       (help_description (fst (fst e))) text)) ->
  exists texts, dispatch (custom_row ind (custom_usable offset columns col) col) (map (entry_row (help_label lim)) D) = Ok (List.concat texts)
    /\ Forall2 (fun e text => row_with ind offset columns col (List.length (snd (fst e))) (snd e ++ help_label lim (fst (fst e)))
                                  (help_description (fst (fst e))) text)
               (filter (fun e => match n_kind (fst (fst e)) with KRoot => false | _ => true end) D) texts.
Proof.
  induction D as [|e D IH]; intros H.
  - exists []. split; [reflexivity|constructor].
  - destruct IH as (texts & E & HF); [intros e' He; apply H; now right|].
    destruct (H e (or_introl eq_refl)) as (text & Ef & Hr). cbn [map dispatch filter].
    rewrite Ef, E. cbn [rbind]. unfold is_root in Hr. destruct (n_kind (fst (fst e))) eqn:Ek.
    8:{ subst text. exists texts. split; [reflexivity|exact HF]. }
    all: exists (text :: texts); split; [reflexivity|constructor; [exact Hr|exact HF]].
Qed.

Lemma custom_page lim columns h f r t col : accepted r = true -> In t (below r) -> switched_on t = true ->
  (forall n, In n (below t) -> has_label n = true) ->
  custom_column lim ind f t = Ok col -> (N.of_nat col < 2 ^ 31)%N ->
  (columns < 2 ^ 64)%N ->
  (2 <= offset)%N \/ (1 <= offset)%N /\ (forall n cps, In n (below t) -> cp_split (help_description n) = Some cps ->
                                                     Forall (fun c => cp_width c <= 1) cps) ->
  (N.of_nat col + offset < 2 ^ 64)%N ->
  (forall n, In n (below t) -> cp_split (help_description n) <> None
                               /\ (N.of_nat (List.length (help_description n)) < 2 ^ 62)%N) ->
  exists texts, custom_text lim ind offset columns h t f = Ok (preamble h ++ List.concat texts ++ addendum h)
    /\ Forall2 (fun e text => row_with ind offset columns col (List.length (snd (fst e))) (snd e ++ help_label lim (fst (fst e)))
                                  (help_description (fst (fst e))) text)
               (on_page f t) texts.
Proof.
  intros Ha Ht Hon Hlabs Hcol Hlt Hcs Ho2 Hof Hd. apply accepted_core in Ha as [_ Hs].
  destruct (sub_core_below r [] t Hs Ht) as (tp & _ & Hst).
  destruct (page_rows (help_label lim) f t tp [] None [] Hst eq_refl Hon) as (D & ab & E1 & E2); [intros p []|exact I|].
  cbn [with_lines] in E1. rewrite !app_nil_r in E1. cbn [List.length] in E2.
  unfold custom_text, page. rewrite Hcol. cbn [rbind]. unfold runtime_data_of. rewrite E2.
  unfold on_page. change (listed f t) with (filter (seen f) (preorder t [])). rewrite E1.
  destruct (custom_all columns col D lim) as (texts & E & HF).
  2:{ exists texts. rewrite E. split; [reflexivity|exact HF]. }
  intros e He. assert (Hin : In (fst e) (filter (seen f) (preorder t []))).
  { apply with_lines_in with (above := None). rewrite E1. exact He. }
  apply filter_In in Hin as [Hin _].
  assert (Hb : In (fst (fst e)) (below t)) by (apply in_map_iff; eauto).
  destruct (sub_core_below t tp _ Hst Hb) as (tp' & _ & Hse).
  destruct (Hd _ Hb) as [Hd1 Hd2].
  assert (Hrow : In (entry_row (help_label lim) e) (visit 0 (HD (help_label lim t) (help_description t) (runtime_children lim f t)))).
  { rewrite E2. now apply in_map. }
  unfold entry_row in *.
  destruct (static_covers (help_label lim) f t tp 0 _ _ _ Hst Hrow) as (l' & x' & Hst' & Hn).
  destruct (start_column_bound ind _ _ _ Hcol) as [_ Hmb]. destruct (Hmb _ _ _ Hst') as (w' & Hw' & Hle).
  destruct (narrower_width _ _ _ Hn Hw') as (w & Hw & Hww).
  assert (Hlab : has_label (fst (fst e)) = true) by now apply Hlabs.
  destruct (is_root (fst (fst e))) eqn:Er.
  - exists []. split; [|reflexivity].
    assert (Hl0 : snd e ++ help_label lim (fst (fst e)) = []).
    { assert (Hps : snd e = []).
      { rewrite preorder_eq in Hin. destruct Hin as [Heq|Hin].
        - assert (He' : In e (with_lines None (filter (seen f) (preorder t [])))) by now rewrite E1.
          apply with_lines_group in He'; [exact He'|]. now rewrite <- Heq.
        - exfalso. apply in_flat_map in Hin as (c & Hcc & Hin).
          assert (Hbc : In (fst (fst e)) (below c)).
          { unfold below. rewrite (preorder_shift c [] [t]). apply in_map_iff. eauto. }
          rewrite (below_not_root c (t :: tp)) in Er; [discriminate| |discriminate|exact Hbc].
          now apply sub_core_child. }
      rewrite Hps. unfold help_label_with. unfold is_root in Er. destruct (n_kind (fst (fst e))); try discriminate. reflexivity. }
    unfold custom_row. now rewrite Hl0.
  - apply custom_row_spec with w; auto; [|lia|destruct Ho2 as [Ho2|[Ho2 Hn1]]; [now left|right; split; [exact Ho2|intros cps; now apply Hn1]]]. apply app_nonempty_r. now apply (label_nonempty lim _ _ _ tp').
Qed.
End Settings.

(** ** Colours *)

(** What remains without the colour codes. *)
Lemma map_snd_paint c s : map snd (paint c s) = s.
Proof. unfold paint. rewrite map_map. cbn [snd]. apply map_id. Qed.

Lemma line_begin_0 text k : lines_from k (line_begin text 0) = Some [].
Proof. unfold line_begin. cbn [Nat.eqb]. destruct k; reflexivity. Qed.

Lemma uncoded_description columns col d text : uncoded d -> static_description columns col d = Ok text -> uncoded text.
Proof.
  intros Hu H. unfold static_description in H. destruct (cp_split d) as [cps|] eqn:Es; [|discriminate].
  destruct (lines_from _ _) as [[|line more]|] eqn:El; try discriminate; injection H as <-; [intros []|].
  assert (Hw : wrapped (line :: more) cps).
  { destruct (Nat.eq_dec (wrap_limit columns col cps) 0) as [E|E].
    - rewrite E, line_begin_0 in El. discriminate.
    - exact (proj1 (iterates_wrapped _ _ _ _ E El)). }
  apply uncoded_app; [apply (uncoded_line d cps (line :: more)); auto; now left|].
  rewrite flat_map_concat_map. apply uncoded_concat. intros s Hs. apply in_map_iff in Hs as (l & <- & Hl).
  rewrite sequence_spaces. apply (uncoded_app end_of_line); [exact uncoded_eol|]. apply uncoded_app; [apply uncoded_spaces|].
  apply (uncoded_line d cps (line :: more)); auto. now right.
Qed.

(** The rows of a page come from nodes. *)
Definition from_node (lim : node -> option limits) (t : node) (l x : bytes) : Prop :=
  exists n line, In n (below t) /\ (line = [] \/ a_bar line) /\ l = line ++ help_label lim n /\ x = help_description n.

Lemma static_from lim f n : forall k d l x, In (d, l, x) (visit k (static_data lim f n)) -> from_node lim n l x.
Proof.
  induction n as [kd id ty pols cs IH] using node_ind'. rewrite Forall_forall in IH.
  intros k d l x H. set (n := Node kd id ty pols cs) in *.
  assert (Hself : (d, l, x) = (k, help_label lim n, help_description n) -> from_node lim n l x).
  { intros E. assert (l = help_label lim n /\ x = help_description n) as [-> ->] by (split; congruence).
    exists n, []. split; [apply below_self|]. split; [now left|]. easy. }
  assert (Hmap : In (d, l, x) (flat_map (visit (S k)) (map (static_data lim f) cs)) -> from_node lim n l x).
  { intros Hin. apply in_flat_map in Hin as (h & Hh & Hin). apply in_map_iff in Hh as (c & <- & Hc).
    destruct (IH c Hc _ _ _ _ Hin) as (m & line & Hm & Hl). exists m, line. split; [now apply (below_child c)|exact Hl]. }
  assert (Hgroup : In (d, l, x) (flat_map (visit (S k)) (with_bars (map (fun c => HD (help_label lim c) (help_description c) []) cs)))
                   -> from_node lim n l x).
  { intros Hin. apply in_flat_map in Hin as (h & Hh & Hin). apply with_bars_in in Hh as (c & bx & Hc & Hb & ->).
    cbn [with_bar visit flat_map] in Hin. destruct Hin as [Hin|[]].
    assert (l = bx ++ help_label lim c /\ x = help_description c) as [-> ->] by (split; congruence).
    exists c, bx. split; [apply (below_child c); [exact Hc|apply below_self]|]. auto. }
  unfold n in H. destruct kd; cbn [static_data_of visit] in H; fold n in H; destruct H as [H|H];
    try (apply Hself; now symmetry); auto; try (now destruct H).
  destruct (is_anonymous n || f); auto. destruct H.
Qed.

(** A row is a red part, which is the label, and a green part, which follows it. *)
Definition red_part (lim : node -> option limits) (t : node) (red green : bytes) : Prop :=
  exists n indent line, In n (below t) /\ (line = [] \/ a_bar line)
    /\ (help_description n = [] /\ red = spaces indent ++ line ++ help_label lim n ++ end_of_line /\ green = []
        \/ help_description n <> [] /\ red = spaces indent ++ line ++ help_label lim n).

Lemma static_colours lim ind columns col t : (forall n, In n (below t) -> uncoded (help_label lim n) /\ uncoded (help_description n)) ->
  forall rows, (forall d l x, In (d, l, x) rows -> from_node lim t l x) ->
  forall text, dispatch (static_row ind columns col) rows = Ok text ->
  exists out parts, dispatch (static_colour_row ind columns col) rows = Ok out
    /\ text = List.concat (map (fun p => fst p ++ snd p) parts)
    /\ screen Plain out (List.concat (map (fun p => paint Red (fst p) ++ paint Green (snd p)) parts)) Plain
    /\ Forall (fun p => red_part lim t (fst p) (snd p)) parts.
Proof.
  intros Hu rows. induction rows as [|[[d l] x] rows IH]; intros Hr text H.
  - injection H as <-. exists [], []. split; [reflexivity|]. split; [reflexivity|]. split; constructor.
  - cbn [dispatch] in H |- *. destruct (static_row ind columns col (d, l, x)) as [s| | | |] eqn:E; try discriminate. cbn [rbind] in H.
    destruct (dispatch (static_row ind columns col) rows) as [s'| | | |] eqn:E'; try discriminate. cbn [rbind] in H.
    injection H as <-.
    destruct (IH (fun d' l' x' Hin => Hr d' l' x' (or_intror Hin)) s' eq_refl) as (out' & parts & Ho & -> & Hs & Hf).
    destruct (Hr d l x (or_introl eq_refl)) as (n & line & Hn & Hb & Hl & Hx). destruct (Hu n Hn) as [U1 U2].
    assert (Ul : uncoded l).
    { rewrite Hl. apply uncoded_app; [|exact U1]. destruct Hb as [->|[->|[->| ->]]]; intros Hi; cbn in Hi;
        repeat (destruct Hi as [Hi|Hi]; [discriminate|]); exact Hi. }
    assert (Ux : uncoded x) by now rewrite Hx.
    rewrite Ho. unfold static_row in E. unfold static_colour_row. destruct l as [|l0 l'] eqn:El.
    { injection E as <-. cbn [rbind]. exists out', parts. auto. }
    rewrite <- El in *. clear El. rewrite sequence_spaces in *. destruct x as [|x0 x'] eqn:Ex.
    + injection E as <-. cbn [rbind].
      exists ((red_colour ++ spaces (d * ind) ++ l ++ newline ++ reset_colour) ++ out'),
             ((spaces (d * ind) ++ l ++ newline, []) :: parts).
      split; [reflexivity|]. split; [cbn [map List.concat fst snd]; now rewrite app_nil_r|]. split.
      * cbn [map List.concat fst snd]. change (paint Green []) with (@nil (colour * ascii)). rewrite app_nil_r. apply screen_app with Plain; [|exact Hs].
        rewrite <- (app_nil_l (paint Red _)). apply screen_app with Red; [exact (screen_switch Plain Red)|].
        replace (spaces (d * ind) ++ l ++ newline ++ reset_colour) with ((spaces (d * ind) ++ l ++ newline) ++ reset_colour)
          by now rewrite <- !app_assoc.
        rewrite <- (app_nil_r (paint Red _)). apply screen_app with Red; [|exact (screen_switch Red Plain)].
        apply screen_text. apply uncoded_app; [apply uncoded_spaces|]. apply uncoded_app; [exact Ul|exact uncoded_eol].
      * constructor; [|exact Hf]. exists n, (d * ind), line. split; [exact Hn|]. split; [exact Hb|]. left. cbn [fst snd].
        split; [now rewrite <- Hx|]. split; [|reflexivity]. now rewrite Hl, <- !app_assoc.
    + rewrite <- Ex in *. destruct (terminal_width l) as [w|]; [|discriminate].
      destruct (static_description columns col x) as [tx| | | |] eqn:Ed; try discriminate. cbn [rbind] in E |- *.
      injection E as <-. set (gap := sequence _).
      assert (Ug : uncoded gap) by exact (uncoded_spaces _).
      exists ((red_colour ++ spaces (d * ind) ++ l ++ green_colour ++ gap ++ tx ++ newline ++ reset_colour) ++ out'),
             ((spaces (d * ind) ++ l, gap ++ tx ++ newline) :: parts).
      split; [reflexivity|]. split; [cbn [map List.concat fst snd]; now rewrite <- !app_assoc|]. split.
      * cbn [map List.concat fst snd]. apply screen_app with Plain; [|exact Hs].
        rewrite <- (app_nil_l (paint Red _ ++ _)). apply screen_app with Red; [exact (screen_switch Plain Red)|].
        replace (spaces (d * ind) ++ l ++ green_colour ++ gap ++ tx ++ newline ++ reset_colour)
          with ((spaces (d * ind) ++ l) ++ green_colour ++ (gap ++ tx ++ newline) ++ reset_colour)
          by now rewrite <- !app_assoc.
        apply screen_app with Red; [apply screen_text; apply uncoded_app; [apply uncoded_spaces|exact Ul]|].
        rewrite <- (app_nil_l (paint Green _)). apply screen_app with Green; [exact (screen_switch Red Green)|].
        rewrite <- (app_nil_r (paint Green _)). apply screen_app with Green; [|exact (screen_switch Green Plain)].
        apply screen_text. apply uncoded_app; [exact Ug|]. apply uncoded_app; [now apply (uncoded_description columns col x)|exact uncoded_eol].
      * constructor; [|exact Hf]. exists n, (d * ind), line. split; [exact Hn|]. split; [exact Hb|]. right. cbn [fst snd].
        split; [rewrite <- Hx, Ex; discriminate|]. now rewrite Hl.
Qed.

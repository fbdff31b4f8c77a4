(** Proofs about the coloured help page (C69). *)
From Coq Require Import Lia.
From Verif Require Import Bytes Token Result CodePoint Utf8 Tree PreParse Parse Root Validator Digits Help HelpMore.
From Verif Require Import SpecTake SpecMode SpecDeliver SpecRoot SpecReading SpecLines SpecHelp SpecColour.
From Verif Require Import TreeProofs Utf8Proofs LineProofs OrderProofs NodeProofs TakeProofs ModeProofs RootProofs HelpProofs PageProofs.

(** ** The terminal *)

Lemma screen_app c1 s1 x1 c2 s2 x2 c3 : screen c1 s1 x1 c2 -> screen c2 s2 x2 c3 -> screen c1 (s1 ++ s2) (x1 ++ x2) c3.
Proof.
  induction 1 as [c|c new s x c' H IH|c a s x c' Ha H IH]; intros H2; [exact H2| |].
  - rewrite <- app_assoc. constructor. auto.
  - cbn [app]. constructor; auto.
Qed.

Lemma screen_text c s : uncoded s -> screen c s (paint c s) c.
Proof.
  induction s as [|x s IH]; intros H; [constructor|]. cbn [paint map]. constructor.
  - intros ->. apply H. now left.
  - apply IH. intros Hx. apply H. now right.
Qed.

Lemma screen_switch c new : screen c (code new) [] new.
Proof. rewrite <- (app_nil_r (code new)). constructor. constructor. Qed.

Lemma code_inj c c' s s' : code c ++ s = code c' ++ s' -> c = c' /\ s = s'.
Proof. destruct c, c'; cbn [code b app list_ascii_of_string]; intros H; split; try reflexivity; congruence. Qed.

Lemma screen_fun c s x1 c1 : screen c s x1 c1 -> forall x2 c2, screen c s x2 c2 -> x1 = x2 /\ c1 = c2.
Proof.
  induction 1 as [c|c new s x c' H IH|c a s x c' Ha H IH]; intros x2 c2 H2.
  - remember [] as e eqn:Ee. destruct H2 as [k|k new s x k' H|]; [easy| |discriminate]. destruct new; discriminate.
  - remember (code new ++ s) as e eqn:E. destruct H2 as [k|k new' s' x' k' H'|k a s' x' k' Hne H'].
    + destruct new; discriminate.
    + apply code_inj in E as [-> ->]. now apply IH.
    + exfalso. apply Hne. unfold code in E. cbn [app] in E. congruence.
  - remember (a :: s) as e eqn:E. destruct H2 as [k|k new' s' x' k' H'|k a' s' x' k' Hne H']; [discriminate| |].
    + exfalso. apply Ha. unfold code in E. cbn [app] in E. congruence.
    + injection E as -> ->. destruct (IH _ _ H') as [-> ->]. easy.
Qed.

(** The terminal as a function, for the examples. *)
Fixpoint shown (fuel : nat) (c : colour) (s : bytes) : option (list (colour * ascii) * colour) :=
  match fuel, s with
  | _, [] => Some ([], c)
  | O, _ => None
  | S k, x :: s' =>
      if Ascii.eqb x esc
      then match find (fun new => starts_with (code new) s) [Plain; Red; Green] with
           | Some new => shown k new (skipn (List.length (code new)) s)
           | None => None
           end
      else match shown k c s' with Some (cells, c') => Some ((c, x) :: cells, c') | None => None end
  end.

Lemma shown_screen k : forall c s cells c', shown k c s = Some (cells, c') -> screen c s cells c'.
Proof.
  induction k as [|k IH]; intros c [|x s] cells c' H; cbn [shown] in H; try discriminate.
  1,2: injection H as <- <-; constructor.
  destruct (Ascii.eqb x esc) eqn:Ex.
  - destruct (find _ _) as [new|] eqn:Ef; [|discriminate]. apply find_some in Ef as [_ Ef].
    apply starts_with_app in Ef as (rest & Er). rewrite Er in *.
    rewrite skipn_app, skipn_all, Nat.sub_diag in H. cbn [app skipn] in H. constructor. now apply IH.
  - destruct (shown k c s) as [[cells0 c0]|] eqn:Es; [|discriminate]. injection H as <- <-.
    constructor; [|now apply IH]. intros ->. now rewrite Ascii.eqb_refl in Ex.
Qed.

Lemma uncoded_app s t : uncoded s -> uncoded t -> uncoded (s ++ t).
Proof. unfold uncoded. rewrite in_app_iff. tauto. Qed.
Lemma uncoded_spaces k : uncoded (spaces k).
Proof. intros H. apply repeat_spec in H. discriminate. Qed.
Lemma uncoded_eol : uncoded end_of_line.
Proof. intros [H|[]]. discriminate. Qed.
Lemma uncoded_concat l : (forall s, In s l -> uncoded s) -> uncoded (List.concat l).
Proof. intros H Hx. apply in_concat in Hx as (s & Hs & Hx). exact (H s Hs Hx). Qed.
Lemma paint_app c s t : paint c (s ++ t) = paint c s ++ paint c t.
Proof. apply map_app. Qed.

(** ** A row *)

Lemma padded_spaces k : (N.of_nat k < 2 ^ 31)%N -> padded_space (N.of_nat k) = spaces (Nat.max 1 k).
Proof.
  intros H. unfold padded_space, spaces, int_of_size. rewrite Z.mod_small by lia.
  destruct (Z.ltb_spec (Z.of_N (N.of_nat k)) (2 ^ 31)); [|lia]. f_equal. lia.
Qed.

Lemma wrapped_incl lines text : wrapped lines text -> forall l, In l lines -> incl l text.
Proof.
  induction 1 as [|line gap rest lines _ _ _ IH]; intros l Hl; [easy|]. destruct Hl as [<-|Hl].
  - apply incl_appl, incl_refl.
  - apply incl_appr, incl_appr. now apply IH.
Qed.

Lemma uncoded_line d text lines l : uncoded d -> cp_split d = Some text -> wrapped lines text -> In l lines ->
  uncoded (List.concat l).
Proof.
  intros Hd Hs Hw Hl Hx. apply cp_split_concat in Hs as [<- _]. apply Hd. apply in_concat in Hx as (c & Hc & Hx).
  apply in_concat. exists c. split; [|exact Hx]. exact (wrapped_incl lines text Hw l Hl c Hc).
Qed.

(** The additional space at depth 0. *)
Definition extra (d : nat) : list (colour * ascii) := if Nat.eqb d 0 then paint Red (spaces 1) else [].

Lemma paint_indent d k : k = 4 * d -> paint Red (spaces (Nat.max 1 k)) = extra d ++ paint Red (spaces k).
Proof. intros ->. unfold extra. destruct d as [|d]; [reflexivity|]. cbn [Nat.eqb app]. now replace (Nat.max 1 (4 * S d)) with (4 * S d) by lia. Qed.

Lemma colour_row_spec columns col d l x w : l <> [] -> terminal_width l = Some w -> d * 4 + w + 4 <= col ->
  (columns < 2 ^ 64)%N -> (N.of_nat col < 2 ^ 31)%N -> (N.of_nat (List.length x) < 2 ^ 62)%N -> cp_split x <> None ->
  uncoded l -> uncoded x ->
  exists out cells text, colour_row (usable_columns columns col) col (d, l, x) = Ok out
    /\ screen Plain out (extra d ++ cells) Plain /\ coloured_row columns col (4 * d) l x cells
    /\ format_row (usable_columns columns col) col (d, l, x) = Ok text /\ map snd cells = text.
Proof.
  intros Hl Hw Hcol Hc Hlt Hlen Hx Ul Ux. destruct (format_row_spec columns col d l x w Hl Hw Hcol Hc Hlt Hlen Hx) as (text & Ef & Hrow).
  assert (Mp : forall c s, map snd (paint c s) = s).
  { intros c s. unfold paint. rewrite map_map. cbn [snd]. apply map_id. }
  unfold colour_row. destruct l as [|l0 l1] eqn:El; [easy|]. rewrite <- El in *.
  replace (d * help_indent) with (4 * d) by (unfold help_indent; lia). rewrite padded_spaces by lia.
  assert (Hl' : match l with [] => False | _ => True end) by now rewrite El.
  destruct x as [|x0 x1] eqn:Ex.
  - assert (Et : text = spaces (4 * d) ++ l ++ end_of_line).
    { unfold format_row in Ef. destruct l; [easy|]. injection Ef as <-.
      replace (d * help_indent) with (4 * d) by (unfold help_indent; lia). now rewrite set_gap_spaces by lia. }
    eexists. exists (paint Red text), text. split; [reflexivity|]. split; [|split; [now constructor|split; [exact Ef|apply Mp]]].
    change red_colour with (code Red). change reset_colour with (code Plain). change newline with end_of_line.
    change (extra d ++ paint Red text) with ([] ++ (extra d ++ paint Red text)).
    apply screen_app with Red; [apply screen_switch|].
    rewrite !app_assoc. rewrite <- (app_nil_r (extra d ++ paint Red text)). apply screen_app with Red; [|apply screen_switch].
    rewrite Et, paint_app, app_assoc, <- paint_indent by reflexivity. rewrite <- paint_app, <- app_assoc.
    apply screen_text. repeat apply uncoded_app; [apply uncoded_spaces|exact Ul|apply uncoded_eol].
  - rewrite <- Ex in *. rewrite Hw.
    assert (Hg : ((N.of_nat col + 2 * size_mod - N.of_nat (4 * d) - N.of_nat w) mod size_mod = N.of_nat (col - 4 * d - w))%N).
    { assert (Hz : size_mod = (2 ^ 64)%N) by reflexivity.
      replace (N.of_nat col + 2 * size_mod - N.of_nat (4 * d) - N.of_nat w)%N
        with (N.of_nat (col - 4 * d - w) + 2 * size_mod)%N by lia.
      rewrite N.mod_add, N.mod_small by lia. reflexivity. }
    rewrite Hg. rewrite padded_spaces by lia.
    assert (Hx0 : x <> []) by (rewrite Ex; discriminate).
    destruct (cp_split x) as [cps|] eqn:Es; [|easy]. unfold colour_description. rewrite Es.
    destruct (description_lines columns col x cps Hx0 Es Hc Hlt Hlen) as (line & more & E & Hwr & Hfit & Hone).
    rewrite E. cbn [rbind].
    replace (flat_map (fun l1 => newline ++ padded_space (N.of_nat col) ++ List.concat l1) more)
      with (List.concat (map (fun l1 => end_of_line ++ spaces col ++ List.concat l1) more)).
    2:{ rewrite flat_map_concat_map. f_equal. apply map_ext. intros lx. rewrite padded_spaces by lia.
        now replace (Nat.max 1 col) with col by lia. }
    replace (Nat.max 1 (col - 4 * d - w)) with (col - 4 * d - w) by lia.
    set (rest := spaces (col - 4 * d - w) ++ (List.concat line ++ List.concat (map (fun l1 => end_of_line ++ spaces col ++ List.concat l1) more)) ++ end_of_line).
    assert (Et : text = spaces (4 * d) ++ l ++ rest).
    { unfold format_row in Ef. destruct l; [easy|]. destruct x; [easy|].
      replace (d * help_indent) with (4 * d) in Ef by (unfold help_indent; lia).
      rewrite Hw, Hg in Ef. rewrite !set_gap_spaces in Ef by lia. unfold description_text in Ef. rewrite Es, E in Ef.
      cbn [rbind] in Ef. rewrite flat_map_concat_map in Ef.
      rewrite (map_ext _ (fun l1 => end_of_line ++ spaces col ++ List.concat l1)) in Ef
        by (intros l2; now rewrite set_gap_spaces).
      unfold rest. change newline with end_of_line in Ef. congruence. }
    assert (Ur : uncoded rest).
    { assert (Ui : forall l2, In l2 (line :: more) -> uncoded (List.concat l2)).
      { intros l2 Hl2. exact (uncoded_line x cps (line :: more) l2 Ux Es Hwr Hl2). }
      unfold rest. repeat apply uncoded_app; [apply uncoded_spaces|apply Ui; now left| |apply uncoded_eol].
      apply uncoded_concat. intros s Hs. apply in_map_iff in Hs as (l2 & <- & Hl2).
      repeat apply uncoded_app; [apply uncoded_eol|apply uncoded_spaces|apply Ui; now right]. }
    eexists. exists (paint Red (spaces (4 * d) ++ l) ++ paint Green rest), text. split; [reflexivity|]. split; [|split; [|split; [exact Ef|]]].
    2:{ apply coloured_described; [exact Hx0|]. now rewrite <- Et. }
    2:{ rewrite map_app, !Mp, Et. now rewrite app_assoc. }
    change red_colour with (code Red). change reset_colour with (code Plain). change newline with end_of_line.
    change green_colour with (code Green).
    match goal with |- screen _ ?s _ _ => replace s with (code Red ++ (spaces (Nat.max 1 (4 * d)) ++ l) ++ code Green ++ rest ++ code Plain) end.
    2:{ unfold rest. now rewrite <- !app_assoc. }
    change (extra d ++ paint Red (spaces (4 * d) ++ l) ++ paint Green rest)
      with ([] ++ (extra d ++ paint Red (spaces (4 * d) ++ l) ++ paint Green rest)).
    apply screen_app with Red; [apply screen_switch|]. rewrite (app_assoc (extra d)). apply screen_app with Red.
    + rewrite paint_app, app_assoc, <- paint_indent by reflexivity. rewrite <- paint_app.
      apply screen_text. apply uncoded_app; [apply uncoded_spaces|exact Ul].
    + change (paint Green rest) with ([] ++ paint Green rest). apply screen_app with Green; [apply screen_switch|].
      rewrite <- (app_nil_r (paint Green rest)). apply screen_app with Green; [now apply screen_text|apply screen_switch].
Qed.

(** ** The page *)

Lemma colour_all columns col (D : list (node * list node * bytes)) lim :
  (forall e, In e D -> is_root (fst (fst e)) = false -> exists out cells text,
     colour_row (usable_columns columns col) col (entry_row (help_label lim) e) = Ok out
     /\ screen Plain out (extra (List.length (snd (fst e))) ++ cells) Plain
     /\ coloured_row columns col (4 * List.length (snd (fst e))) (snd e ++ help_label lim (fst (fst e))) (help_description (fst (fst e))) cells
     /\ format_row (usable_columns columns col) col (entry_row (help_label lim) e) = Ok text /\ map snd cells = text) ->
  (forall e, In e D -> is_root (fst (fst e)) = true -> snd e ++ help_label lim (fst (fst e)) = []) ->
  exists out cells text, colour_rows (usable_columns columns col) col (map (entry_row (help_label lim)) D) = Ok out
    /\ format_rows (usable_columns columns col) col (map (entry_row (help_label lim)) D) = Ok text
    /\ screen Plain out (List.concat cells) Plain
    /\ Forall2 (fun e c => exists row_cells,
           c = extra (List.length (snd (fst e))) ++ row_cells
           /\ coloured_row columns col (4 * List.length (snd (fst e))) (snd e ++ help_label lim (fst (fst e)))
                           (help_description (fst (fst e))) row_cells)
         (filter (fun e => match n_kind (fst (fst e)) with KRoot => false | _ => true end) D) cells
    /\ ((forall e, In e D -> is_root (fst (fst e)) = false -> snd (fst e) <> []) -> map snd (List.concat cells) = text).
Proof.
  induction D as [|e D IH]; intros H Hr.
  - exists [], [], []. split; [reflexivity|]. split; [reflexivity|]. split; [constructor|]. split; [constructor|reflexivity].
  - destruct IH as (out & cells & text & E1 & E2 & Hs & HF & Ht).
    { intros e' He. apply H. now right. }
    { intros e' He. apply Hr. now right. }
    cbn [map colour_rows format_rows filter]. rewrite E1, E2. destruct (is_root (fst (fst e))) eqn:Er.
    + assert (En : colour_row (usable_columns columns col) col (entry_row (help_label lim) e) = Ok []
                   /\ format_row (usable_columns columns col) col (entry_row (help_label lim) e) = Ok []).
      { unfold entry_row, colour_row, format_row. rewrite (Hr e (or_introl eq_refl) Er). easy. }
      destruct En as [-> ->]. cbn [rbind app]. exists out, cells, text. split; [reflexivity|]. split; [reflexivity|].
      split; [exact Hs|]. split.
      * unfold is_root in Er. destruct (n_kind (fst (fst e))); try discriminate. exact HF.
      * intros Hp. apply Ht. intros e' He. apply Hp. now right.
    + destruct (H e (or_introl eq_refl) Er) as (o & c & t & -> & Hsc & Hc & -> & Hm). cbn [rbind].
      exists (o ++ out), ((extra (List.length (snd (fst e))) ++ c) :: cells), (t ++ text).
      split; [reflexivity|]. split; [reflexivity|]. split; [|split].
      * cbn [List.concat]. now apply screen_app with Plain.
      * unfold is_root in Er. destruct (n_kind (fst (fst e))); try discriminate; constructor; eauto.
      * intros Hp. cbn [List.concat]. rewrite map_app, Ht by (intros e' He; apply Hp; now right). f_equal.
        assert (Hne := Hp e (or_introl eq_refl) Er). unfold extra. destruct (snd (fst e)); [easy|]. exact Hm.
Qed.

Lemma extra_0 k : Nat.eqb k 0 = false -> extra k = [].
Proof. unfold extra. now intros ->. Qed.

Lemma uncoded_bar l above e : In e (with_lines above l) -> uncoded (snd e).
Proof.
  revert above. induction l as [|[n ps] l IH]; intros above H; [easy|]. cbn [with_lines] in H. destruct H as [<-|H]; [|eauto].
  cbn [snd]. assert (U : uncoded [] /\ uncoded top /\ uncoded middle /\ uncoded bottom).
  { unfold uncoded, top, middle, bottom, esc. cbn [map In].
    repeat split; intros Hx; repeat (destruct Hx as [Hx|Hx]; [discriminate|]); exact Hx. }
  destruct U as (U1 & U2 & U3 & U4). destruct (in_group ps); [|exact U1].
  match goal with |- uncoded (match ?p with true => _ | false => _ end) => destruct p end;
    match goal with |- uncoded (match ?p with true => _ | false => _ end) => destruct p end; assumption.
Qed.

Lemma colour_page lim columns h f r t col : accepted r = true -> In t (below r) -> switched_on t = true ->
  help_compiles lim f t = true -> description_column lim f t = Ok col -> (N.of_nat col < 2 ^ 31)%N ->
  (columns < 2 ^ 64)%N ->
  (forall n, In n (below t) -> cp_split (help_description n) <> None
                               /\ (N.of_nat (List.length (help_description n)) < 2 ^ 62)%N) ->
  uncoded (preamble h) -> uncoded (addendum h) ->
  (forall n, In n (below t) -> uncoded (help_label lim n) /\ uncoded (help_description n)) ->
  exists out cells text, colour_text lim columns h t f = Ok out
    /\ help_text lim columns h t f = Ok text
    /\ screen Plain out (paint Plain (preamble h) ++ List.concat cells ++ paint Plain (addendum h)) Plain
    /\ Forall2 (fun e c => exists row_cells,
           c = extra (List.length (snd (fst e))) ++ row_cells
           /\ coloured_row columns col (4 * List.length (snd (fst e))) (snd e ++ help_label lim (fst (fst e)))
                           (help_description (fst (fst e))) row_cells)
         (on_page f t) cells
    /\ (is_root t = true ->
        map snd (paint Plain (preamble h) ++ List.concat cells ++ paint Plain (addendum h)) = text).
Proof.
  intros Ha Ht Hon Hc Hcol Hlt Hcs Hd Up Ua Un. apply accepted_core in Ha as [_ Hs].
  destruct (sub_core_below r [] t Hs Ht) as (tp & _ & Hst).
  destruct (page_rows (help_label lim) f t tp [] None [] Hst eq_refl Hon) as (D & ab & E1 & E2); [intros p []|exact I|].
  cbn [with_lines] in E1. rewrite !app_nil_r in E1. cbn [List.length] in E2.
  unfold help_text_of, colour_text. rewrite Hcol. cbn [rbind]. unfold runtime_data_of. rewrite E2.
  unfold on_page. change (listed f t) with (filter (seen f) (preorder t [])). rewrite E1.
  assert (Hroots : forall e, In e D -> is_root (fst (fst e)) = true -> snd e = [] /\ snd (fst e) = []).
  { intros e He Er. assert (Hin : In (fst e) (filter (seen f) (preorder t []))).
    { apply with_lines_in with (above := None). rewrite E1. exact He. }
    apply filter_In in Hin as [Hin _]. rewrite preorder_eq in Hin. destruct Hin as [Heq|Hin].
    - assert (He' : In e (with_lines None (filter (seen f) (preorder t [])))) by now rewrite E1.
      apply with_lines_group in He'; [split; [exact He'|]|]; now rewrite <- Heq.
    - exfalso. apply in_flat_map in Hin as (c & Hcc & Hin).
      assert (Hbc : In (fst (fst e)) (below c)).
      { unfold below. rewrite (preorder_shift c [] [t]). apply in_map_iff. eauto. }
      rewrite (below_not_root c (t :: tp)) in Er; [discriminate| |discriminate|exact Hbc].
      now apply sub_core_child. }
  destruct (colour_all columns col D lim) as (out & cells & text & X1 & X2 & X3 & X4 & X5).
  3:{ rewrite X1, X2. cbn [rbind]. exists (preamble h ++ out ++ addendum h), cells, (preamble h ++ text ++ addendum h).
      split; [reflexivity|]. split; [reflexivity|]. split; [|split; [exact X4|]].
      - apply screen_app with Plain; [now apply screen_text|]. apply screen_app with Plain; [exact X3|now apply screen_text].
      - intros Hr. rewrite !map_app. unfold paint. rewrite !map_map. cbn [snd]. rewrite !map_id. f_equal. f_equal. apply X5.
        intros e He Er Hn.
        assert (Hin : In (fst e) (filter (seen f) (preorder t []))).
        { apply with_lines_in with (above := None). rewrite E1. exact He. }
        apply filter_In in Hin as [Hin _]. rewrite preorder_eq in Hin. destruct Hin as [Heq|Hin].
        + rewrite <- Heq in Er. cbn [fst] in Er. congruence.
        + apply in_flat_map in Hin as (c & _ & Hin). apply preorder_above in Hin as [Hi _]. rewrite Hn in Hi.
          destruct (Hi t (or_introl eq_refl)). }
  2:{ intros e He Er. destruct (Hroots e He Er) as [-> _]. unfold help_label_with. unfold is_root in Er.
      destruct (n_kind (fst (fst e))); try discriminate. reflexivity. }
  intros e He Er. assert (Hin : In (fst e) (filter (seen f) (preorder t []))).
  { apply with_lines_in with (above := None). rewrite E1. exact He. }
  apply filter_In in Hin as [Hin _].
  assert (Hb : In (fst (fst e)) (below t)) by (apply in_map_iff; eauto).
  destruct (sub_core_below t tp _ Hst Hb) as (tp' & _ & Hse).
  destruct (Hd _ Hb) as [Hd1 Hd2]. destruct (Un _ Hb) as [Ul Ux].
  assert (Hrow : In (entry_row (help_label lim) e) (visit 0 (HD (help_label lim t) (help_description t) (runtime_children lim f t)))).
  { rewrite E2. now apply in_map. }
  unfold entry_row in *.
  destruct (static_covers (help_label lim) f t tp 0 _ _ _ Hst Hrow) as (l' & x' & Hst' & Hn).
  destruct (max_start_bound _ _ _ Hcol) as [_ Hmb]. destruct (Hmb _ _ _ Hst') as (w' & Hw' & Hle).
  destruct (narrower_width _ _ _ Hn Hw') as (w & Hw & Hww). unfold help_indent in Hle.
  assert (Hlab : has_label (fst (fst e)) = true).
  { unfold help_compiles_of in Hc. repeat match goal with Hx : _ && _ = true |- _ => apply andb_true_iff in Hx as [? ?] end.
    match goal with Hx : forallb has_label _ = true |- _ => rewrite forallb_forall in Hx; apply Hx end. exact Hb. }
  apply colour_row_spec with w; auto; [|lia|].
  - apply app_nonempty_r. now apply (label_nonempty lim _ _ _ tp').
  - apply uncoded_app; [|exact Ul]. apply uncoded_bar with (l := filter (seen f) (preorder t [])) (above := None).
    rewrite E1. exact He.
Qed.

(** ** [help] of the root *)

Lemma first_help_node r h lim columns :
  (exists before after, n_children r = before ++ h :: after /\ n_kind h = KHelp /\ forall d, In d before -> n_kind d <> KHelp) ->
  root_help lim columns r = help_text lim columns h r (has_flatten_help h).
Proof.
  intros (bf & af & Hc & Hk & Hb). unfold root_help. rewrite Hc. clear Hc.
  assert (E : find (fun c => match n_kind c with KHelp => true | _ => false end) (bf ++ h :: af) = Some h).
  { induction bf as [|d bf IH]; cbn [app find]; [now rewrite Hk|].
    assert (Hd := Hb d (or_introl eq_refl)). rewrite IH by (intros x Hx; apply Hb; now right). now destruct (n_kind d). }
  now rewrite E.
Qed.

Lemma no_help_node r lim columns : (forall c, In c (n_children r) -> n_kind c <> KHelp) -> root_help lim columns r = Ok [].
Proof.
  intros H. unfold root_help. destruct (find _ _) as [c|] eqn:E; [|reflexivity].
  apply find_some in E as [Hc E]. specialize (H c Hc). now destruct (n_kind c).
Qed.

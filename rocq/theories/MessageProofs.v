(** Proofs about error messages (C32, C33). *)
From Coq Require Import Lia ZifyNat ZifyBool.
From Verif Require Import Bytes Token Result Digits SpecNumeral DigitProofs Message SpecMessage.
Local Open Scope nat_scope.

Section Texts.
Variable text_of : token -> bytes.
Local Notation insert_rest := (insert_rest_of text_of).
Local Notation fmt_loop := (fmt_loop_of text_of).
Local Notation fmt := (fmt_of text_of).
Local Notation format := (format_of text_of).
Local Notation plain_message := (plain_message_of text_of).
Local Notation translate_entries := (translate_entries_of text_of).
Local Notation translate := (translate_of text_of).
Local Notation tokens_str := (tokens_str_of text_of).
Local Notation joined := (joined_of text_of).
Local Notation filled := (filled_of text_of).
Local Notation message := (message_of text_of).

Lemma find_byte_app c x y : ~ In c x -> find_byte c (x ++ c :: y) = Some (List.length x).
Proof.
  induction x as [|d x IH]; intro H; simpl.
  - now rewrite Ascii.eqb_refl.
  - destruct (Ascii.eqb c d) eqn:E; [apply Ascii.eqb_eq in E; subst; exfalso; apply H; now left|].
    rewrite IH; [reflexivity|]. intro I. apply H. now right.
Qed.

Lemma find_byte_none c s : ~ In c s -> find_byte c s = None.
Proof.
  induction s as [|d s IH]; intro H; simpl; [reflexivity|].
  destruct (Ascii.eqb c d) eqn:E; [apply Ascii.eqb_eq in E; subst; exfalso; apply H; now left|].
  rewrite IH; [reflexivity|]. intro I. apply H. now right.
Qed.

Lemma find_from_app c x y pre : ~ In c x ->
  find_from c (pre ++ x ++ c :: y) (List.length pre) = Some (List.length pre + List.length x).
Proof.
  intro H. unfold find_from. rewrite skipn_app, skipn_all, Nat.sub_diag. simpl.
  now rewrite find_byte_app.
Qed.

Lemma find_from_none c x pre : ~ In c x -> find_from c (pre ++ x) (List.length pre) = None.
Proof.
  intro H. unfold find_from. rewrite skipn_app, skipn_all, Nat.sub_diag. simpl.
  now rewrite find_byte_none.
Qed.

(** The text from one placeholder on. *)
Definition holes_text (holes : list (bytes * bytes)) : bytes :=
  flat_map (fun h => b "{" ++ fst h ++ b "}" ++ snd h) holes.

(** Where the placeholders are. *)
Fixpoint holes_at (pos : nat) (holes : list (bytes * bytes)) : list placeholder :=
  match holes with
  | [] => []
  | h :: holes' =>
    (pos, fst h) :: holes_at (pos + List.length (fst h) + 2 + List.length (snd h)) holes'
  end.

Lemma placeholders_from_spec holes : forall fuel pre text,
  plain text -> Forall (fun h => plain (fst h) /\ plain (snd h)) holes ->
  List.length holes < fuel ->
  placeholders_from fuel (pre ++ text ++ holes_text holes) (List.length pre) =
  holes_at (List.length pre + List.length text) holes.
Proof.
  induction holes as [|[j t] holes IH]; intros fuel pre text [P1 P2] HF Hf.
  - destruct fuel as [|fuel]; [lia|]. cbn [placeholders_from holes_text flat_map holes_at].
    rewrite app_nil_r. now rewrite find_from_none.
  - inversion HF as [|? ? [[J1 J2] [T1 T2]] HF']; subst. cbn [fst snd] in *.
    destruct fuel as [|fuel]; [lia|]. cbn [placeholders_from].
    change (holes_text ((j, t) :: holes)) with
      ((b "{" ++ j ++ b "}" ++ t) ++ holes_text holes).
    assert (E1 : find_from open_brace (pre ++ text ++ (b "{" ++ j ++ b "}" ++ t) ++ holes_text holes)
      (List.length pre) = Some (List.length pre + List.length text)).
    { apply find_from_app, P1. }
    rewrite E1.
    (* the closing bracket, searched from one character further on *)
    set (s := pre ++ text ++ (b "{" ++ j ++ b "}" ++ t) ++ holes_text holes).
    assert (E2 : find_from close_brace s (List.length pre + 1) =
      Some (List.length pre + List.length text + 1 + List.length j)).
    { unfold s. destruct text as [|c text].
      - replace (pre ++ [] ++ (b "{" ++ j ++ b "}" ++ t) ++ holes_text holes)
          with ((pre ++ b "{") ++ j ++ close_brace :: (t ++ holes_text holes)).
        2:{ rewrite <- !app_assoc. reflexivity. }
        replace (List.length pre + 1) with (List.length (pre ++ b "{")) by (rewrite app_length; reflexivity).
        rewrite find_from_app by exact J2. f_equal. rewrite app_length. simpl. lia.
      - replace (pre ++ (c :: text) ++ (b "{" ++ j ++ b "}" ++ t) ++ holes_text holes)
          with ((pre ++ [c]) ++ (text ++ b "{" ++ j) ++ close_brace :: (t ++ holes_text holes)).
        2:{ rewrite <- !app_assoc. reflexivity. }
        replace (List.length pre + 1) with (List.length (pre ++ [c])) by (rewrite app_length; reflexivity).
        rewrite find_from_app.
        + f_equal. rewrite !app_length. simpl. lia.
        + rewrite !in_app_iff. intros [I|[I|I]].
          * apply P2. now right.
          * destruct I as [I|[]]. discriminate.
          * exact (J2 I). }
    rewrite E2. cbv zeta.
    set (st := List.length pre + List.length text).
    replace (Nat.ltb (st + 1 + List.length j) st) with false by (symmetry; apply Nat.ltb_ge; lia).
    assert (E3 : skipn (st + 1) s = j ++ b "}" ++ t ++ holes_text holes).
    { unfold s, st. replace (List.length pre + List.length text + 1)
        with (List.length (pre ++ text ++ b "{")) by (rewrite !app_length; simpl; lia).
      replace (pre ++ text ++ (b "{" ++ j ++ b "}" ++ t) ++ holes_text holes)
        with ((pre ++ text ++ b "{") ++ j ++ b "}" ++ t ++ holes_text holes).
      2:{ rewrite <- !app_assoc. reflexivity. }
      now rewrite skipn_app, skipn_all, Nat.sub_diag. }
    rewrite E3.
    replace (st + 1 + List.length j - st - 1) with (List.length j) by lia.
    rewrite firstn_app, firstn_all, Nat.sub_diag. simpl firstn. rewrite app_nil_r.
    cbn [holes_at fst snd]. f_equal.
    set (pre' := pre ++ text ++ b "{" ++ j ++ b "}").
    assert (L : List.length pre' = st + 1 + List.length j + 1).
    { unfold pre', st. rewrite !app_length. simpl. lia. }
    rewrite <- L. unfold s.
    replace (pre ++ text ++ (b "{" ++ j ++ b "}" ++ t) ++ holes_text holes)
      with (pre' ++ t ++ holes_text holes).
    2:{ unfold pre'. rewrite <- !app_assoc. reflexivity. }
    rewrite IH; [|now split|exact HF'|simpl in Hf; lia].
    f_equal. rewrite L. lia.
Qed.

Lemma holes_length holes : List.length holes <= List.length (holes_text holes).
Proof.
  induction holes as [|[j t] holes IH]; [simpl; lia|].
  cbn [holes_text flat_map]. rewrite !app_length. unfold holes_text in IH. simpl in *. lia.
Qed.

Lemma placeholders_written t : tidy t ->
  placeholders (written t) = holes_at (List.length (tp_text t)) (tp_holes t).
Proof.
  intros [H1 H2]. unfold placeholders, written. fold (holes_text (tp_holes t)).
  apply (placeholders_from_spec (tp_holes t) _ [] (tp_text t)); auto.
  rewrite app_length. pose proof (holes_length (tp_holes t)). lia.
Qed.

(** Replacing. *)

Lemma str_replace_app x y z w : 
  str_replace (x ++ y ++ z) (Z.of_nat (List.length x)) (List.length y) w = Ok (x ++ w ++ z).
Proof.
  unfold str_replace.
  replace (Z.of_nat (List.length x) <? 0)%Z with false by lia.
  replace (Z.of_nat (List.length (x ++ y ++ z)) <? Z.of_nat (List.length x))%Z with false
    by (rewrite !app_length; lia).
  cbn [orb]. cbv zeta. rewrite Nat2Z.id. f_equal.
  rewrite firstn_app, firstn_all, Nat.sub_diag. simpl firstn. rewrite app_nil_r. f_equal. f_equal.
  rewrite app_assoc, <- (app_length x y), skipn_app, skipn_all, Nat.sub_diag. reflexivity.
Qed.

Lemma joined_snoc sep t ts :
  joined sep (t :: ts) = text_of t ++ flat_map (fun u => sep ++ text_of u) ts.
Proof.
  revert t; induction ts as [|u ts IH]; intro t.
  - simpl. now rewrite app_nil_r.
  - change (joined sep (t :: u :: ts)) with (text_of t ++ sep ++ joined sep (u :: ts)).
    rewrite IH. cbn [flat_map]. now rewrite <- app_assoc.
Qed.

Lemma insert_rest_spec joining ts : forall x z,
  insert_rest joining (x ++ z) (Z.of_nat (List.length x)) ts =
  Ok (x ++ flat_map (fun u => joining ++ text_of u) ts ++ z).
Proof.
  induction ts as [|t ts IH]; intros x z; cbn [insert_rest_of flat_map]; [reflexivity|].
  cbv zeta. pose proof (str_replace_app x [] z (joining ++ text_of t)) as E.
  simpl in E. rewrite E.
  replace (Z.of_nat (List.length x) + Z.of_nat (List.length (joining ++ text_of t)))%Z
    with (Z.of_nat (List.length (x ++ joining ++ text_of t)))
    by (rewrite (app_length x); lia).
  rewrite app_assoc, IH. f_equal. now rewrite <- !app_assoc.
Qed.

(** [joins_last] for a list of placeholders. *)
Definition lasts (holes : list (bytes * bytes)) : Prop :=
  forall before h after, holes = before ++ h :: after -> fst h <> [] -> after = [].

Lemma lasts_tail h holes : lasts (h :: holes) -> lasts holes.
Proof. intros H before g after E. apply (H (h :: before) g after). now rewrite E. Qed.

Lemma fmt_loop_spec holes : forall done pos offset ts,
  lasts holes ->
  (Z.of_nat pos + offset = Z.of_nat (List.length done))%Z ->
  fmt_loop (holes_at pos holes) (done ++ holes_text holes) offset ts = Ok (done ++ filled holes ts).
Proof.
  induction holes as [|[j t] holes IH]; intros done pos offset ts HL Hp; [reflexivity|].
  cbn [holes_at fst snd fmt_loop_of].
  change (holes_text ((j, t) :: holes)) with ((b "{" ++ j ++ b "}" ++ t) ++ holes_text holes).
  assert (Len : List.length j + 2 = List.length (b "{" ++ j ++ b "}")).
  { rewrite !app_length. simpl. lia. }
  assert (Split : done ++ (b "{" ++ j ++ b "}" ++ t) ++ holes_text holes =
    done ++ (b "{" ++ j ++ b "}") ++ (t ++ holes_text holes)).
  { rewrite <- !app_assoc. reflexivity. }
  rewrite Split, Len, Hp. pose proof (lasts_tail _ _ HL) as HL'.
  destruct ts as [|tk ts].
  - rewrite str_replace_app. cbn [app].
    rewrite (app_assoc done t).
    destruct j as [|c j].
    + cbn [filled_of]. cbn [List.length app] in *.
      rewrite IH; auto; [now rewrite <- app_assoc|]. rewrite app_length. simpl in *. lia.
    + assert (holes = []) as -> by (apply (HL [] (c :: j, t) holes eq_refl); discriminate).
      cbn [holes_at fmt_loop_of holes_text flat_map filled_of joined_of app]. now rewrite !app_nil_r.
  - cbv zeta. rewrite str_replace_app. destruct j as [|c j].
    + rewrite (app_assoc (text_of tk)), (app_assoc done).
      rewrite IH; auto; [cbn [filled_of]; now rewrite <- !app_assoc|].
      rewrite !app_length. simpl. lia.
    + assert (holes = []) as -> by (apply (HL [] (c :: j, t) holes eq_refl); discriminate).
      replace (Z.of_nat (List.length done) + Z.of_nat (List.length (text_of tk)))%Z
        with (Z.of_nat (List.length (done ++ text_of tk))) by (rewrite app_length; lia).
      rewrite (app_assoc done (text_of tk)), insert_rest_spec.
      cbn [holes_at fmt_loop_of holes_text flat_map filled_of]. rewrite !app_nil_r.
      rewrite joined_snoc. f_equal. now rewrite <- !app_assoc.
Qed.

Lemma fmt_spec t ts : tidy t -> joins_last t ->
  fmt (written t) ts = Ok (tp_text t ++ filled (tp_holes t) ts).
Proof.
  intros H HL. unfold fmt_of. rewrite (placeholders_written t H).
  apply fmt_loop_spec; [exact HL|lia].
Qed.

Lemma format_message t ts : tidy t -> joins_last t -> format (written t) ts = Ok (message t ts).
Proof.
  intros H HL. unfold format_of, message_of. rewrite (placeholders_written t H).
  destruct (tp_holes t) as [|h holes] eqn:Eh.
  - cbn [holes_at]. unfold written. rewrite Eh. cbn [flat_map]. rewrite app_nil_r.
    destruct ts as [|tk ts]; [now rewrite app_nil_r|].
    pose proof (fmt_spec (Template (tp_text t ++ b ": ") [(b ", ", [])]) (tk :: ts)) as E.
    unfold written in E. cbn [tp_text tp_holes flat_map fst snd] in E.
    rewrite app_nil_r, <- app_assoc in E. change (b ": " ++ b "{" ++ b ", " ++ b "}" ++ []) with (b ": {, }") in E.
    rewrite E.
    + cbn [filled_of]. change (b ", ") with (","%char :: b " "). cbn iota. rewrite !app_nil_r, <- app_assoc. reflexivity.
    + destruct H as [[P1 P2] _]. split; [|repeat constructor].
      * cbn [tp_text]. split; rewrite in_app_iff; intros [I|I]; auto;
          repeat (destruct I as [I|I]; [discriminate|]); contradiction.
      * cbn [fst]. intro I. repeat (destruct I as [I|I]; [discriminate|]); contradiction.
      * cbn [fst]. intro I. repeat (destruct I as [I|I]; [discriminate|]); contradiction.
      * cbn [snd]. intros [].
      * cbn [snd]. intros [].
    + intros before g after Eq _. cbn [tp_holes] in Eq.
      destruct before as [|x before]; [now injection Eq|].
      injection Eq as _ Eq. now destruct before.
  - cbn [holes_at]. rewrite <- Eh. now apply fmt_spec.
Qed.

(** The compile-time check. *)

Lemma holes_at_greedy holes : forall pos,
  map is_greedy (holes_at pos holes) = map (fun h => match fst h with [] => false | _ => true end) holes.
Proof.
  induction holes as [|h holes IH]; intro pos; cbn [holes_at map]; [reflexivity|].
  now rewrite IH.
Qed.

Lemma lasts_greedy holes :
  lasts holes <->
  (forall before g after, map (fun h : bytes * bytes => match fst h with [] => false | _ => true end) holes
     = before ++ g :: after -> g = true -> after = []).
Proof.
  split.
  - intros H before g after E Hg. apply map_eq_app in E as (l1 & l2 & -> & E1 & E2).
    destruct l2 as [|h l2]; [discriminate|]. cbn [map] in E2. injection E2 as Eg Ea.
    assert (l2 = []).
    { apply (H l1 h l2 eq_refl). intro Z. rewrite Z in Eg. subst g. discriminate. }
    subst l2. now rewrite <- Ea.
  - intros H before h after -> Hh. rewrite map_app in H. cbn [map] in H.
    specialize (H _ _ _ eq_refl). destruct (fst h); [congruence|]. specialize (H eq_refl).
    now destruct after.
Qed.

Lemma check_greedy (gs : list bool) :
  (if Nat.ltb 1 (List.length gs) then
     match List.length (filter (fun g => g) gs) with
     | 0 => true
     | 1 => match rev gs with g :: _ => g | [] => true end
     | _ => false
     end
   else true) = true <->
  (forall before g after, gs = before ++ g :: after -> g = true -> after = []).
Proof.
  assert (Empty : forall l : list bool, List.length (filter (fun g => g) l) = 0 ->
    forall before g after, l = before ++ g :: after -> g = false).
  { intros l Hl before g after ->. rewrite filter_app, app_length in Hl. simpl in Hl.
    destruct g; [simpl in Hl; lia|reflexivity]. }
  split.
  - intros H before g after E Hg.
    destruct (Nat.ltb 1 (List.length gs)) eqn:L.
    + destruct (List.length (filter (fun g => g) gs)) as [|[|k]] eqn:C; [| |discriminate].
      * now rewrite (Empty gs C _ _ _ E) in Hg.
      * rewrite E, rev_app_distr in H. simpl in H. rewrite <- app_assoc in H.
        subst g. rewrite E in C. rewrite filter_app, app_length in C. simpl in C.
        destruct after as [|x after _] using rev_ind; [reflexivity|]. exfalso.
        rewrite rev_app_distr in H. simpl in H. subst x.
        rewrite filter_app, app_length in C. simpl in C. lia.
    + apply Nat.ltb_ge in L. rewrite E, app_length in L. simpl in L.
      destruct after; [reflexivity|simpl in L; lia].
  - intro H. destruct (Nat.ltb 1 (List.length gs)) eqn:L; [|reflexivity].
    destruct gs as [|g gs _] using rev_ind; [reflexivity|].
    assert (Z : filter (fun g => g) gs = []).
    { destruct (filter (fun g => g) gs) as [|x l] eqn:F; [reflexivity|]. exfalso.
      assert (I : In x (filter (fun g => g) gs)) by (rewrite F; now left).
      apply filter_In in I as [I Hx]. apply in_split in I as (l1 & l2 & ->).
      specialize (H l1 x (l2 ++ [g])). rewrite <- app_assoc in H. specialize (H eq_refl Hx).
      now destruct l2. }
    rewrite filter_app, Z, rev_app_distr. simpl. now destruct g.
Qed.

Lemma format_compiles_spec t : tidy t -> (format_compiles (written t) = true <-> joins_last t).
Proof.
  intro H. unfold format_compiles. rewrite (placeholders_written t H). cbv zeta.
  set (ps := holes_at (List.length (tp_text t)) (tp_holes t)).
  assert (G : map is_greedy ps =
    map (fun h : bytes * bytes => match fst h with [] => false | _ => true end) (tp_holes t))
    by apply holes_at_greedy.
  unfold joins_last. fold (lasts (tp_holes t)). rewrite lasts_greedy, <- G, <- check_greedy.
  rewrite map_length, <- map_rev.
  assert (F : List.length (filter (fun g : bool => g) (map is_greedy ps)) = List.length (filter is_greedy ps)).
  { clear. induction ps as [|p ps IH]; [reflexivity|]. simpl. destruct (is_greedy p); simpl; auto. }
  rewrite F. destruct (rev ps); reflexivity.
Qed.

(** Translation. *)

Lemma translate_first table c ts msg : first_entry table c msg ->
  translate_entries table c ts = Some (format msg ts).
Proof.
  intros (before & c' & after & -> & Hc & Hb). induction before as [|[d m] before IH]; cbn [app translate_entries_of].
  - now rewrite Hc, N.eqb_refl.
  - pose proof (Hb (d, m) (or_introl eq_refl)) as Hn. apply N.eqb_neq in Hn. cbn [fst] in Hn.
    rewrite Hn. apply IH. intros e He. apply Hb. now right.
Qed.

Lemma translate_unknown table c ts : (forall e, In e table -> ecode_num (fst e) <> ecode_num c) ->
  translate_entries table c ts = None.
Proof.
  induction table as [|[d m] table IH]; intro H; cbn [translate_entries_of]; [reflexivity|].
  pose proof (H (d, m) (or_introl eq_refl)) as Hn. apply N.eqb_neq in Hn. cbn [fst] in Hn.
  rewrite Hn. apply IH. intros e He. apply H. now right.
Qed.

Lemma translates user fallback c ts t : first_entry (user ++ fallback) c (written t) ->
  tidy t -> joins_last t -> translate user fallback c ts = Ok (message t ts).
Proof.
  intros H1 H2 H3. unfold translate_of. rewrite (translate_first _ _ ts _ H1). now apply format_message.
Qed.

Lemma user_first user fallback c msg : first_entry user c msg -> first_entry (user ++ fallback) c msg.
Proof.
  intros (before & c' & after & -> & H). exists before, c', (after ++ fallback).
  now rewrite <- app_assoc.
Qed.

Lemma fallback_next user fallback c msg : (forall e, In e user -> ecode_num (fst e) <> ecode_num c) ->
  first_entry fallback c msg -> first_entry (user ++ fallback) c msg.
Proof.
  intros Hu (before & c' & after & -> & Hc & Hb). exists (user ++ before), c', after.
  rewrite <- app_assoc. repeat split; auto. intros e He. apply in_app_iff in He as [He|He]; auto.
Qed.

Lemma tokens_joined ts : tokens_str ts = joined (b ", ") ts.
Proof. induction ts as [|t [|u ts] IH]; [reflexivity|reflexivity|]. 
  change (tokens_str (t :: u :: ts)) with (text_of t ++ b ", " ++ tokens_str (u :: ts)). now rewrite IH.
Qed.

Lemma untranslated user fallback c ts ds :
  (forall e, In e (user ++ fallback) -> ecode_num (fst e) <> ecode_num c) ->
  writes (ecode_num c) ds ->
  translate user fallback c ts =
  Ok (b "Untranslated error code (" ++ digits_text ds ++ b ")" ++
      match ts with [] => [] | _ :: _ => b ": " ++ joined (b ", ") ts end).
Proof.
  intros H W. unfold translate_of. rewrite (translate_unknown _ _ ts H). f_equal.
  destruct (lexical_writes (ecode_num c)) as (es & W2 & E). rewrite E.
  rewrite (writes_unique _ _ _ W2 W). unfold plain_message_of.
  destruct ts as [|t ts]; [now rewrite app_nil_r|]. rewrite tokens_joined, <- !app_assoc. reflexivity.
Qed.

(** ** No format text that compiles makes the formatter throw *)

Lemma find_byte_lt c s i : find_byte c s = Some i -> i < List.length s.
Proof.
  revert i. induction s as [|d s IH]; intros i H; cbn [find_byte] in H; [discriminate|].
  destruct (Ascii.eqb c d); [injection H as <-; cbn; lia|].
  destruct (find_byte c s) as [j|]; [|discriminate]. injection H as <-. specialize (IH j eq_refl). cbn. lia.
Qed.

Lemma find_from_bounds c s pos i : find_from c s pos = Some i -> pos <= i < List.length s.
Proof.
  unfold find_from. destruct (find_byte c (skipn pos s)) as [j|] eqn:E; [|discriminate].
  intros [= <-]. apply find_byte_lt in E. rewrite skipn_length in E. lia.
Qed.

(** Each placeholder lies in the text, and there is room for the ones before it. *)
Fixpoint spaced (len least : nat) (ps : list placeholder) : Prop :=
  match ps with
  | [] => True
  | p :: ps' => least <= fst p < len /\ spaced len (least + 2) ps'
  end.

Lemma placeholders_spaced s : forall fuel current least,
  least <= current -> spaced (List.length s) least (placeholders_from fuel s current).
Proof.
  induction fuel as [|fuel IH]; intros current least H; cbn [placeholders_from]; [exact I|].
  destruct (find_from open_brace s current) as [st|] eqn:E1; [|exact I].
  destruct (find_from close_brace s (current + 1)) as [en|] eqn:E2; [|exact I].
  apply find_from_bounds in E1, E2. cbn [spaced fst]. split; [lia|]. apply IH. lia.
Qed.

Lemma str_replace_ok s pos n w : (0 <= pos <= Z.of_nat (List.length s))%Z ->
  exists s', str_replace s pos n w = Ok s'
    /\ (Z.of_nat (List.length s) - Z.of_nat n + Z.of_nat (List.length w) <= Z.of_nat (List.length s'))%Z
    /\ (pos + Z.of_nat (List.length w) <= Z.of_nat (List.length s'))%Z.
Proof.
  intro H. unfold str_replace. replace ((pos <? 0)%Z || (Z.of_nat (List.length s) <? pos)%Z)%bool with false by lia.
  cbv zeta. eexists. split; [reflexivity|].
  rewrite !app_length, firstn_length, skipn_length. lia.
Qed.

Lemma insert_rest_ok j ts : forall s pos, (0 <= pos <= Z.of_nat (List.length s))%Z ->
  exists s', insert_rest j s pos ts = Ok s' /\ List.length s <= List.length s'.
Proof.
  induction ts as [|t ts IH]; intros s pos H; cbn [insert_rest_of]; [exists s; split; [reflexivity|lia]|].
  cbv zeta. destruct (str_replace_ok s pos 0 (j ++ text_of t) H) as (s1 & E & L1 & L2). rewrite E.
  destruct (IH s1 (pos + Z.of_nat (List.length (j ++ text_of t)))%Z ltac:(lia)) as (s2 & E2 & L). rewrite E2.
  exists s2. split; [reflexivity|lia].
Qed.

(** Only the last placeholder joins. *)
Fixpoint last_joins (ps : list placeholder) : Prop :=
  match ps with [] => True | p :: ps' => (ps' <> [] -> snd p = []) /\ last_joins ps' end.

Lemma fmt_loop_ok len : forall ps str offset least ts,
  spaced len least ps -> last_joins ps ->
  (- Z.of_nat least <= offset)%Z -> (Z.of_nat len + offset <= Z.of_nat (List.length str))%Z ->
  exists m, fmt_loop ps str offset ts = Ok m.
Proof.
  induction ps as [|[st j] ps IH]; intros str offset least ts Hs Hj Ho Hl; cbn [fmt_loop_of]; [eauto|].
  cbn [spaced fst] in Hs. destruct Hs as (Hst & Hs). cbn [last_joins snd] in Hj. destruct Hj as (Hj & Hj').
  destruct ts as [|t ts].
  - destruct (str_replace_ok str (Z.of_nat st + offset) (List.length j + 2) [] ltac:(lia)) as (s1 & E & L1 & L2).
    rewrite E. destruct ps as [|p ps]; [cbn; eauto|]. rewrite (Hj ltac:(discriminate)) in L1.
    cbn [List.length] in L1. apply (IH s1 (offset - 2)%Z (least + 2)); auto; lia.
  - cbv zeta. destruct (str_replace_ok str (Z.of_nat st + offset) (List.length j + 2) (text_of t) ltac:(lia))
      as (s1 & E & L1 & L2). rewrite E.
    destruct j as [|c j].
    + cbn [List.length] in L1. apply (IH s1 _ (least + 2)); auto; lia.
    + destruct (insert_rest_ok (c :: j) ts s1 (Z.of_nat st + offset + Z.of_nat (List.length (text_of t)))%Z
        ltac:(lia)) as (s2 & E2 & _). rewrite E2.
      destruct ps as [|p ps]; [cbn; eauto|]. exfalso. discriminate (Hj ltac:(discriminate)).
Qed.

(** Placeholders that start at one place. *)
Lemma fmt_loop_same st : forall ps str offset least ts,
  (forall p, In p ps -> fst p = st) -> spaced (S st) least ps ->
  (- Z.of_nat least <= offset)%Z -> (Z.of_nat st + offset <= Z.of_nat (List.length str))%Z ->
  exists m, fmt_loop ps str offset ts = Ok m.
Proof.
  induction ps as [|[st' j] ps IH]; intros str offset least ts Hp Hs Ho Hl; cbn [fmt_loop_of]; [eauto|].
  cbn [spaced fst] in Hs. destruct Hs as (Hst & Hs).
  assert (st' = st) as -> by exact (Hp (st', j) (or_introl eq_refl)).
  assert (Hp' : forall p, In p ps -> fst p = st) by (intros p Hi; apply Hp; right; exact Hi).
  destruct ts as [|t ts].
  - destruct (str_replace_ok str (Z.of_nat st + offset) (List.length j + 2) [] ltac:(lia)) as (s1 & E & L1 & L2).
    rewrite E. cbn [List.length] in L2. apply (IH s1 (offset - 2)%Z (least + 2)); auto; lia.
  - cbv zeta. destruct (str_replace_ok str (Z.of_nat st + offset) (List.length j + 2) (text_of t) ltac:(lia))
      as (s1 & E & L1 & L2). rewrite E.
    destruct j as [|c j].
    + apply (IH s1 _ (least + 2)); auto; lia.
    + destruct (insert_rest_ok (c :: j) ts s1 (Z.of_nat st + offset + Z.of_nat (List.length (text_of t)))%Z
        ltac:(lia)) as (s2 & E2 & L3). rewrite E2.
      apply (IH s2 _ (least + 2)); auto; lia.
Qed.

Lemma none_joins ps : List.length (filter is_greedy ps) = 0 -> forall p, In p ps -> snd p = [].
Proof.
  intros H [st j] Hi. destruct j as [|c j]; [reflexivity|]. exfalso.
  assert (I : In (st, c :: j) (filter is_greedy ps)) by (apply filter_In; split; [exact Hi|reflexivity]).
  destruct (filter is_greedy ps); [exact I|discriminate].
Qed.

Lemma last_joins_app ps p : (forall q, In q ps -> snd q = []) -> last_joins (ps ++ [p]).
Proof.
  induction ps as [|q ps IH]; intro H; cbn [app last_joins].
  - split; [intro E; now exfalso|exact I].
  - split; [intros _; apply H; left; reflexivity|]. apply IH. intros x Hx. apply H. right. exact Hx.
Qed.

Lemma compiles_last_joins s : format_compiles s = true -> last_joins (placeholders s).
Proof.
  unfold format_compiles. cbv zeta. generalize (placeholders s). intros ps H.
  destruct ps as [|p ps _] using rev_ind; [exact I|].
  apply last_joins_app. rewrite app_length in H. cbn [List.length] in H.
  destruct ps as [|q ps]; [intros x []|].
  assert (L : Nat.ltb 1 (List.length (q :: ps) + 1) = true) by (apply Nat.ltb_lt; cbn [List.length]; lia).
  rewrite L in H. clear L.
  rewrite filter_app, app_length, rev_app_distr in H. cbn [rev app filter List.length] in H.
  intros x Hx. apply (none_joins (q :: ps)); [|exact Hx]. clear x Hx.
  change (if is_greedy q then q :: filter is_greedy ps else filter is_greedy ps) with (filter is_greedy (q :: ps)) in H.
  remember (List.length (filter is_greedy (q :: ps))) as n eqn:En. clear En.
  destruct (is_greedy p); cbn [List.length] in H.
  - destruct n as [|n]; [reflexivity|]. exfalso. replace (S n + 1) with (S (S n)) in H by lia. cbn in H. discriminate.
  - destruct n as [|[|n]]; [reflexivity| |]; exfalso; cbn in H; discriminate.
Qed.

Lemma spaced_less len n ps : forall least, (forall p, In p ps -> fst p < n) -> spaced len least ps -> spaced n least ps.
Proof.
  induction ps as [|p ps IH]; intros least H; cbn [spaced]; [auto|]. intros (A & B). split.
  - specialize (H p (or_introl eq_refl)). lia.
  - apply IH; [|exact B]. intros q Hq. apply H. right. exact Hq.
Qed.

Lemma find_from_app_l c x y pos : find_from c x pos = None -> pos <= List.length x ->
  find_from c (x ++ y) pos = option_map (fun i => List.length x + i) (find_byte c y).
Proof.
  unfold find_from. intros H L. rewrite skipn_app. replace (pos - List.length x) with 0 by lia. cbn [skipn].
  assert (G : forall u v, find_byte c u = None ->
    find_byte c (u ++ v) = option_map (fun i => List.length u + i) (find_byte c v)).
  { clear. induction u as [|d u IH]; intros v H; cbn [app find_byte List.length] in *.
    - now destruct (find_byte c v).
    - destruct (Ascii.eqb c d); [discriminate|]. destruct (find_byte c u) as [|]; [discriminate|].
      rewrite (IH v eq_refl). now destruct (find_byte c v). }
  destruct (find_byte c (skipn pos x)) eqn:E; [discriminate|]. rewrite (G _ y E).
  destruct (find_byte c y) as [i|]; cbn; [|reflexivity]. f_equal. rewrite skipn_length. lia.
Qed.

Lemma appended_same s : find_from open_brace s 0 = None -> forall fuel current p,
  In p (placeholders_from fuel (s ++ b ": {, }") current) -> fst p = List.length s + 2.
Proof.
  intro H. assert (K : forall current st, find_from open_brace (s ++ b ": {, }") current = Some st -> st = List.length s + 2).
  { intros current st E. destruct (Nat.le_gt_cases current (List.length s)) as [L|L].
    - rewrite find_from_app_l in E; [cbn in E; congruence| |exact L].
      clear - H. unfold find_from in *. destruct (find_byte open_brace (skipn current s)) as [i|] eqn:E; [|reflexivity].
      exfalso. cbn [skipn] in H. destruct (find_byte open_brace s) eqn:E2; [discriminate|].
      assert (G : forall u n i, find_byte open_brace (skipn n u) = Some i -> find_byte open_brace u <> None).
      { clear. induction u as [|d u IH]; intros [|n] i E; cbn [skipn] in E; try discriminate; [congruence|].
        cbn [find_byte]. destruct (Ascii.eqb open_brace d); [discriminate|].
        specialize (IH n i E). destruct (find_byte open_brace u); [discriminate|contradiction]. }
      exact (G s current i E E2).
    - unfold find_from in E. rewrite skipn_app, skipn_all2 in E by lia. cbn [app] in E.
      destruct (current - List.length s) as [|[|[|n]]] eqn:D; [lia| | |]; cbn in E.
      + injection E as <-. lia.
      + injection E as <-. lia.
      + do 4 (destruct n as [|n]; [cbn in E; discriminate|]). cbn in E. destruct n; discriminate. }
  induction fuel as [|fuel IH]; intros current p; cbn [placeholders_from]; [intros []|].
  destruct (find_from open_brace (s ++ b ": {, }") current) as [st|] eqn:E1; [|intros []].
  destruct (find_from close_brace (s ++ b ": {, }") (current + 1)) as [en|]; [|intros []].
  intros [<-|Hi]; [exact (K _ _ E1)|exact (IH _ _ Hi)].
Qed.

Lemma format_total s ts : format_compiles s = true -> exists m, format s ts = Ok m.
Proof.
  intro H. unfold format_of. destruct (placeholders s) as [|p ps] eqn:E.
  - destruct ts as [|t ts]; [eauto|]. unfold fmt_of.
    pose proof (placeholders_spaced (s ++ b ": {, }") (S (List.length (s ++ b ": {, }"))) 0 0 (Nat.le_refl 0)) as Sp.
    fold (placeholders (s ++ b ": {, }")) in Sp.
    destruct (find_from open_brace s 0) as [st|] eqn:E1.
    + assert (E2 : find_from close_brace s (0 + 1) = None).
      { unfold placeholders in E. cbn [placeholders_from] in E. rewrite E1 in E.
        destruct (find_from close_brace s (0 + 1)); [discriminate|reflexivity]. }
      apply (fmt_loop_ok (List.length (s ++ b ": {, }")) _ _ 0%Z 0); [exact Sp| |lia|lia].
      assert (One : List.length (placeholders (s ++ b ": {, }")) <= 1).
      { unfold placeholders. cbn [placeholders_from].
        destruct (find_from open_brace (s ++ b ": {, }") 0) as [st'|] eqn:F1; [|cbn; lia].
        destruct (find_from close_brace (s ++ b ": {, }") (0 + 1)) as [en|] eqn:F2; [|cbn; lia].
        rewrite find_from_app_l in F2; [|exact E2|apply find_from_bounds in E1; lia].
        cbn in F2. injection F2 as <-. cbn [List.length].
        set (n := List.length (s ++ b ": {, }")).
        assert (G : forall fuel cur, n <= cur -> placeholders_from fuel (s ++ b ": {, }") cur = []).
        { intros fuel cur Hc. destruct fuel as [|fuel]; [reflexivity|]. cbn [placeholders_from].
          destruct (find_from open_brace (s ++ b ": {, }") cur) as [i|] eqn:F; [|reflexivity].
          apply find_from_bounds in F. subst n. lia. }
        rewrite G; [cbn; lia|]. subst n. rewrite app_length. cbn. lia. }
      destruct (placeholders (s ++ b ": {, }")) as [|q [|q' qs]]; cbn [List.length] in One; [exact I| |lia].
      split; [intro N; now exfalso|exact I].
    + assert (At : forall q, In q (placeholders (s ++ b ": {, }")) -> fst q = List.length s + 2)
        by (intros q; apply appended_same; exact E1).
      apply (fmt_loop_same (List.length s + 2) _ _ 0%Z 0); [exact At| |lia|].
      * apply (spaced_less (List.length (s ++ b ": {, }"))); [|exact Sp]. intros q Hq. rewrite (At q Hq). lia.
      * rewrite app_length. cbn. lia.
  - unfold fmt_of. apply (fmt_loop_ok (List.length s) _ _ 0%Z 0).
    + apply placeholders_spaced. lia.
    + apply compiles_last_joins. exact H.
    + lia.
    + lia.
Qed.

Lemma translate_total user fallback c ts :
  table_compiles user = true -> table_compiles fallback = true -> exists m, translate user fallback c ts = Ok m.
Proof.
  intros Hu Hf. unfold translate_of.
  assert (T : table_compiles (user ++ fallback) = true)
    by (unfold table_compiles in *; rewrite forallb_app, Hu, Hf; reflexivity).
  revert T. generalize (user ++ fallback). intros table. 
  destruct (translate_entries table c ts) as [r|] eqn:E; [|eauto]. intro T.
  induction table as [|[c' m] table IH]; cbn [translate_entries_of] in E; [discriminate|].
  unfold table_compiles in T. cbn [forallb snd] in T. apply andb_prop in T as (T1 & T2).
  destruct (N.eqb (ecode_num c') (ecode_num c)).
  - destruct (format_total m ts T1) as (x & Ex). exists x. congruence.
  - exact (IH E T2).
Qed.
End Texts.

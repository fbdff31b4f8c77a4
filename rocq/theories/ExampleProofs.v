(** Proofs for C87-C89. *)
From Verif Require Import Bytes Token Result CodePoint Utf8 Utf8Proofs Tree PreParse Root TokenProofs NodeProofs.
From Verif Require Import Build Demo RunProofs SpecTokens SpecTake SpecMode SpecDeliver SpecRoot SpecReading SpecClaims Examples SpecExamples.
Local Open Scope nat_scope.
Set Default Proof Using "All".

(** What is left of a command line: no word was given a long prefix, and all of it fits into memory. *)
Definition kept (ts : list token) : Prop :=
  Forall (fun t => t_prefix t <> PLong) ts /\ (N.of_nat (args_weight ts) <= vec_max_size)%N.

Lemma kept_app vs ts : kept (vs ++ ts) -> kept ts.
Proof.
  intros [H1 H2]. split; [now apply Forall_app in H1 as [_ H]|]. rewrite args_weight_app in H2. lia.
Qed.

Lemma kept_tail t ts : kept (t :: ts) -> kept ts.
Proof. exact (kept_app [t] ts). Qed.

Lemma kept_letters t us nm g gs : kept (t :: us) -> dashed t nm -> graphemes nm = Some (g :: gs) ->
  kept (map (Tok PShort) gs ++ us).
Proof.
  intros [H1 H2] Hd Hg. apply graphemes_partition in Hg as [Hc Hn]. split.
  - apply Forall_app. split; [|now apply Forall_inv_tail in H1].
    apply Forall_map, Forall_forall. intros x _. cbn. discriminate.
  - rewrite args_weight_cons in H2. rewrite args_weight_app.
    assert (W : args_weight (map (Tok PShort) gs) = List.length (List.concat gs)).
    { apply Forall_inv_tail in Hn. clear - Hn. induction gs as [|x gs IH]; [reflexivity|].
      cbn [map List.concat]. rewrite args_weight_cons, app_length, IH by (now apply Forall_inv_tail in Hn).
      unfold token_weight. cbn [t_name]. apply Forall_inv in Hn. destruct x; [contradiction|]. cbn [List.length]. lia. }
    assert (L : List.length (List.concat gs) <= token_weight t).
    { apply (f_equal (@List.length ascii)) in Hc. cbn [List.concat] in Hc. rewrite app_length in Hc.
      unfold token_weight. destruct Hd as [->|[-> _]]; cbn [t_name]; [lia|]. rewrite app_length. lia. }
    lia.
Qed.

Lemma dashed_prefix w r : w = short_prefix ++ r -> starts_with long_prefix w = false <-> ~ exists r', r = b "-" ++ r'.
Proof.
  intros ->. split.
  - intros H [r' ->]. assert (X : starts_with long_prefix (short_prefix ++ b "-" ++ r') = true); [|congruence].
    apply starts_with_app. exists r'. reflexivity.
  - intros H. destruct (starts_with long_prefix (short_prefix ++ r)) eqn:E; [|reflexivity]. exfalso. apply H.
    apply starts_with_app in E as [r' E]. exists r'. cbn in E. injection E as E. cbn. exact E.
Qed.

Lemma dashed_det t nm nm' : dashed t nm -> dashed t nm' -> nm = nm'.
Proof.
  intros [->|[-> _]] [E|[E _]]; try discriminate E; injection E as E; auto.
Qed.

(** ** Flags *)

Lemma names_match n long ch (Hlong : long_name n = Some long) (Hshort : short_name n = Some [ch])
  (Hnone : none_name n = None) (Hdash : [ch] <> b "-") t : t_prefix t <> PLong ->
  match_node n (norm_token n t) = true <-> t = Tok PNone (b "--" ++ long) \/ dashed t [ch].
Proof.
  intros Hp. unfold match_node, norm_token, node_get_token, get_token_type_for. rewrite Hlong, Hshort, Hnone.
  destruct t as [p w]. cbn [t_prefix t_name is_some andb] in *. destruct p; [contradiction| |].
  - cbn [prefix_eqb t_prefix t_name andb orb]. rewrite orb_false_r, beq_eq. split.
    + intros ->. now right; left.
    + intros [E|[E|[E _]]]; try discriminate E. now injection E as ->.
  - destruct (starts_with long_prefix w) eqn:E1.
    + cbn [prefix_eqb t_prefix t_name andb orb]. rewrite !orb_false_r, beq_eq. apply starts_with_app in E1 as [r ->].
      rewrite skipn_app_len. split.
      * intros ->. now left.
      * intros [E|[E|[E Hn]]]; [|discriminate E|].
        -- injection E as E. exact E.
        -- exfalso. injection E as E _. apply Hdash. rewrite <- E. reflexivity.
    + destruct (starts_with short_prefix w) eqn:E2; cbn [andb negb prefix_eqb t_prefix t_name orb].
      * rewrite orb_false_r, beq_eq. apply starts_with_app in E2 as [r ->]. rewrite skipn_app_len. split.
        -- intros ->. right; right. split; [reflexivity|]. now apply (dashed_prefix _ [ch] eq_refl).
        -- intros [E|[E|[E Hn]]]; [|discriminate E|].
           ++ exfalso. injection E as E. assert (starts_with long_prefix (short_prefix ++ r) = true); [|congruence].
              apply starts_with_app. exists long. rewrite E. reflexivity.
           ++ injection E as E. exact E.
      * split; [discriminate|]. intros [E|[E|[E Hn]]]; [|discriminate E|]; exfalso; injection E as E.
        -- assert (starts_with long_prefix w = true); [|congruence]. apply starts_with_app. now exists long.
        -- assert (starts_with short_prefix w = true); [|congruence]. apply starts_with_app. now exists [ch].
Qed.

Section Switch.
Variables (n : node) (long : bytes) (ch : ascii).
Hypothesis Hlong : long_name n = Some long.
Hypothesis Hshort : short_name n = Some [ch].
Hypothesis Hnone : none_name n = None.
Hypothesis Hsep : value_separator n = None.
Hypothesis Hmark : token_end_marker n = None.
Hypothesis Hcount : count_bounds n = Some (0%N, 0%N).
Hypothesis Hexp : In PShortFormExpander (n_pols n).
Hypothesis Hch : graphemes [ch] = Some [[ch]].
Hypothesis Hdash : [ch] <> b "-".

Lemma switch_named : is_named n = true.
Proof. unfold is_named. rewrite Hlong. reflexivity. Qed.

Lemma switch_group t nm : t_prefix t <> PLong -> group_for n t nm <-> dashed t nm /\ List.length nm <> 1.
Proof.
  intros Hp. unfold group_for, dashed. destruct t as [p w]. cbn [t_prefix t_name] in *. split.
  - intros (_ & H & Hl). split; [|exact (Hl _ Hshort)].
    destruct H as [[-> ->]|(-> & Hw & Hs)]; [now left|right]. split; [now rewrite Hw|].
    exact (proj1 (dashed_prefix w nm Hw) Hs).
  - intros [H Hl]. split; [exact Hexp|]. split.
    + destruct H as [H|[H Hn]]; injection H as -> ->; [now left|right].
      split; [reflexivity|]. split; [reflexivity|]. now apply (dashed_prefix _ nm eq_refl).
    + intros s E. rewrite Hshort in E. injection E as <-. exact Hl.
Qed.

Lemma switch_match t : t_prefix t <> PLong ->
  match_node n (norm_token n t) = true <-> t = Tok PNone (b "--" ++ long) \/ dashed t [ch].
Proof. exact (names_match n long ch Hlong Hshort Hnone Hdash t). Qed.

Lemma switch_fronted ts t value us : fronted n ts t value us <-> value = [] /\ ts = t :: us.
Proof.
  split.
  - intros H. inversion H; subst; [now split|congruence].
  - intros [-> ->]. now constructor.
Qed.

Lemma one_letter nm : List.length nm = 1 -> (exists letters, graphemes nm = Some ([ch] :: letters)) -> nm = [ch].
Proof.
  intros Hl [letters H]. apply graphemes_partition in H as [Hc _]. destruct nm as [|c [|]]; try discriminate Hl.
  injection Hc as <- _. reflexivity.
Qed.

Lemma dashed_short t : t_prefix t <> PLong -> dashed t [ch] -> forall nm, ~ group_for n t nm.
Proof.
  intros Hp Hd nm Hg. apply (switch_group t nm Hp) in Hg as [Hd' Hl].
  rewrite <- (dashed_det t _ _ Hd Hd') in Hl. exact (Hl eq_refl).
Qed.

Lemma long_ungrouped nm : ~ group_for n (Tok PNone (b "--" ++ long)) nm.
Proof.
  intros Hg. apply (switch_group _ nm) in Hg as [[E|[E Hn]] _]; [discriminate E| |discriminate].
  injection E as E. apply Hn. exists long. exact (eq_sym E).
Qed.


Lemma switch_takes t us us' : t_prefix t <> PLong ->
  (exists t', grouped n t us t' us' /\ match_node n (norm_token n t') = true)
  <-> exists letters, picks long [ch] t letters /\ us' = map (Tok PShort) letters ++ us.
Proof.
  intros Hp. split.
  - intros (t' & Hg & Hm). inversion Hg; subst.
    + apply (switch_match t' Hp) in Hm as [->|Hd].
      * exists []. split; [now left|reflexivity].
      * exists []. split; [right; exists [ch]; now split|reflexivity].
    + match goal with H : group_for n t _ |- _ => apply (switch_group t nm Hp) in H as [Hd Hl] end.
      apply switch_match in Hm as [E|Hd']; [discriminate E| |discriminate].
      assert (E : g = [ch]) by (destruct Hd' as [E|[E _]]; [now injection E|discriminate E]). subst g.
      exists gs. split; [right; exists nm; now split|reflexivity].
  - intros (letters & [[-> ->]|(nm & Hd & Hg)] & ->).
    + exists (Tok PNone (b "--" ++ long)). split; [apply group_none; exact long_ungrouped|].
      apply switch_match; [discriminate|now left].
    + destruct (Nat.eq_dec (List.length nm) 1) as [Hl|Hl].
      * assert (E : nm = [ch]) by (apply one_letter; [exact Hl|now exists letters]). subst nm.
        rewrite Hch in Hg. injection Hg as <-. exists t. split; [apply group_none; now apply dashed_short|].
        apply switch_match; [exact Hp|now right].
      * exists (Tok PShort [ch]). split.
        -- apply (group_some n t nm [ch] letters us); [|exact Hg]. now apply switch_group.
        -- apply switch_match; [discriminate|right; now left].
Qed.

Lemma switch_unsplit ts : ~ unsplit n ts.
Proof. intros (sep & t & us & H & _). congruence. Qed.

Lemma switch_addressed t us : t_prefix t <> PLong -> addressed n (t :: us) <-> exists letters, picks long [ch] t letters.
Proof.
  intros Hp. unfold addressed. rewrite switch_named. split.
  - intros [[_ [(t1 & value & us1 & t' & us' & Hf & Hg & Hm)|H]]|[H _]]; [|now apply switch_unsplit in H|discriminate H].
    apply switch_fronted in Hf as [-> E]. injection E as <- <-.
    destruct (proj1 (switch_takes t us us' Hp) (ex_intro _ t' (conj Hg Hm))) as (letters & H & _). now exists letters.
  - intros (letters & H).
    destruct (proj2 (switch_takes t us _ Hp) (ex_intro _ letters (conj H eq_refl))) as (t' & Hg & Hm).
    left. split; [reflexivity|left]. exists t, [], us, t', (map (Tok PShort) letters ++ us).
    split; [now apply switch_fronted|now split].
Qed.

Lemma switch_counted us vals rest : counted n us vals rest <-> vals = [] /\ rest = us.
Proof.
  split.
  - intros H. inversion H; subst; try congruence.
    match goal with H : count_bounds n = _ |- _ => rewrite Hcount in H; injection H as <- <- end.
    assert (vals = []) as ->; [|now split]. destruct vals; [reflexivity|].
    match goal with H : (_ <= nlen _ <= _)%N |- _ => unfold nlen in H; cbn [List.length] in H; lia end.
  - intros [-> ->]. apply (count_plain n us 0 0 [] us Hmark Hcount eq_refl); [cbn; lia|reflexivity].
Qed.

Lemma switch_consumes t us vals rest : t_prefix t <> PLong ->
  (exists label, consumes n (t :: us) label vals rest)
  <-> exists letters, picks long [ch] t letters /\ vals = [] /\ rest = map (Tok PShort) letters ++ us.
Proof.
  intros Hp. split.
  - intros [label H]. inversion H; subst; [|rewrite switch_named in *; discriminate].
    match goal with H : fronted _ _ _ _ _ |- _ => apply switch_fronted in H as [-> E] end. injection E as <- <-.
    cbn [app] in *. match goal with H : counted _ _ _ _ |- _ => apply switch_counted in H as [-> ->] end.
    edestruct (proj1 (switch_takes t us us' Hp)) as (letters & Hl & ->); [eexists; split; eassumption|].
    now exists letters.
  - intros (letters & H & -> & ->).
    destruct (proj2 (switch_takes t us _ Hp) (ex_intro _ letters (conj H eq_refl))) as (t' & Hg & Hm).
    exists (Some (norm_token n t')). apply (consumes_named n _ t [] us t' (map (Tok PShort) letters ++ us)); auto using switch_named.
    + now apply switch_fronted.
    + now apply switch_counted.
Qed.

Lemma switch_chokes t us : enabled n -> kept (t :: us) -> chokes n (t :: us) <-> unreadable t us.
Proof.
  intros He [Hp Hw]. apply Forall_inv in Hp. rewrite args_weight_cons in Hw. unfold chokes, unreadable. split.
  - intros [(sep & t0 & us0 & l & c & s & H & _)|[(t0 & value & us0 & Hf & nm & Hg & Hb)|(H & _)]]; [congruence| |contradiction].
    apply switch_fronted in Hf as [_ E]. injection E as <- <-.
    apply (switch_group t nm Hp) in Hg as [Hd Hl]. exists nm. split; [exact Hd|]. split; [exact Hl|].
    destruct Hb as [Hb|[[E1 E2]|Hb]]; [now left|now right|]. exfalso.
    assert (L : List.length nm <= token_weight t).
    { unfold token_weight. destruct Hd as [->|[-> _]]; cbn [t_name]; [lia|]. rewrite app_length. lia. }
    pose proof (args_weight_length us). unfold nlen in Hb. lia.
  - intros (nm & Hd & Hl & Hb). right; left. exists t, [], us. split; [now apply switch_fronted|].
    exists nm. split; [now apply switch_group|]. destruct Hb as [Hb|[H1 H2]]; [now left|right; left; now split].
Qed.
End Switch.

(** ** A mode of a flag and two positional arguments *)

Record positional (n : node) : Prop := {
  po_named : is_named n = false; po_sep : value_separator n = None; po_enabled : enabled n;
  po_exp : ~ In PShortFormExpander (n_pols n) }.

Record plain (n : node) : Prop := {
  pl_alias : alias_of n = None; pl_dep : forall ns, ~ In (PDependent ns) (n_pols n);
  pl_multi : has_multi_stage n = false; pl_stage : multi_stage n = None;
  pl_range : forall mn mx lt, ~ In (PMinMaxValue mn mx lt) (n_pols n) }.

Lemma positional_chokes n ts : positional n -> ~ chokes n ts.
Proof.
  intros [H1 H2 H3 H4] [(sep & t0 & us0 & l & c & s & H & _)|[(t0 & value & us0 & Hf & nm & Hg & Hb)|(H & _)]]; [congruence| |contradiction].
  now apply H4, Hg.
Qed.

Lemma positional_consumes n ts vals rest : positional n ->
  (exists label, consumes n ts label vals rest) <-> ts <> [] /\ counted n ts vals rest.
Proof.
  intros [H1 H2 H3 H4]. split.
  - intros [label H]. inversion H; subst; [congruence|now split].
  - intros [Ht H]. exists None. now constructor.
Qed.

Lemma positional_addressed n ts : positional n -> addressed n ts <-> ts <> [].
Proof.
  intros [H1 H2 H3 H4]. unfold addressed. rewrite H1. split; [intros [[H _]|[_ H]]; [discriminate H|exact H]|now right].
Qed.

Lemma kept_counted n ts vals rest : counted n ts vals rest -> kept ts -> kept rest.
Proof.
  intros H K. inversion H; subst.
  - now apply kept_app in K.
  - apply kept_app in K. now apply kept_tail in K.
  - apply kept_tail in K. now apply kept_app in K.
  - split; [constructor|]. cbn. lia.
Qed.

Lemma kept_picks long ch t us letters : kept (t :: us) -> picks long [ch] t letters -> kept (map (Tok PShort) letters ++ us).
Proof.
  intros K [[_ ->]|(nm & Hd & Hg)]; [now apply kept_tail in K|]. exact (kept_letters t us nm [ch] letters K Hd Hg).
Qed.

Section Three.
Variables (m f p q : node) (long : bytes) (ch : ascii).
Hypothesis Flong : long_name f = Some long.
Hypothesis Fshort : short_name f = Some [ch].
Hypothesis Fnone : none_name f = None.
Hypothesis Fsep : value_separator f = None.
Hypothesis Fmark : token_end_marker f = None.
Hypothesis Fcount : count_bounds f = Some (0%N, 0%N).
Hypothesis Fexp : In PShortFormExpander (n_pols f).
Hypothesis Fch : graphemes [ch] = Some [[ch]].
Hypothesis Fdash : [ch] <> b "-".
Hypothesis Fenabled : enabled f.
Hypothesis Fkind : n_kind f = KFlag.
Hypothesis Fplain : plain f.
Hypothesis Fmand : ~ mandatory f.
Hypothesis Fdefault : last (default_values f) (vt_init (n_ty f)) = VBool false.
Hypothesis Ppos : positional p.
Hypothesis Pplain : plain p.
Hypothesis Qpos : positional q.
Hypothesis Qplain : plain q.
Hypothesis Hentries : entries m = [(0, f); (1, p); (2, q)].
Hypothesis Hchildren : router_children m = [f; p; q].
Hypothesis Hchoice : forall i, ~ is_choice m i.
Hypothesis Hff : belongs f f = true.
Hypothesis Hfp : belongs f p = false.
Hypothesis Hfq : belongs f q = false.
Hypothesis Hpf : belongs p f = false.
Hypothesis Hpp : belongs p p = true.
Hypothesis Hpq : belongs p q = false.
Hypothesis Hqf : belongs q f = false.
Hypothesis Hqp : belongs q p = false.
Hypothesis Hqq : belongs q q = true.

Inductive three : bool -> nat -> list token -> bool -> option (list token) -> option (list token) -> Prop :=
| th_end g k : three g k [] false None None
| th_flag k t us letters po qo :
    picks long [ch] t letters -> three true k (map (Tok PShort) letters ++ us) false po qo ->
    three false k (t :: us) true po qo
| th_first g t us vals rest fl qo :
    ordinary long [ch] t us -> counted p (t :: us) vals rest -> three g 1 rest fl None qo ->
    three g 0 (t :: us) fl (Some vals) qo
| th_second g t us vals rest fl :
    ordinary long [ch] t us -> counted q (t :: us) vals rest -> three g 2 rest fl None None ->
    three g 1 (t :: us) fl None (Some vals).

Lemma three_none g k ts fl po qo : three g k ts fl po qo ->
  (g = true -> fl = false) /\ (1 <= k -> po = None) /\ (2 <= k -> qo = None).
Proof using f.
  induction 1 as [| |g t us vals rest fl qo _ _ _ (A & B & C)|g t us vals rest fl _ _ _ (A & B & C)]; repeat split; try easy; try lia; try tauto.
Qed.

Definition state (g : bool) (k : nat) (done : list (nat * node)) : Prop :=
  (used done 0 <-> g = true) /\ (used done 1 <-> 1 <= k) /\ (used done 2 <-> 2 <= k).
Definition olist (n : node) (o : option (list token)) : list (node * list token) :=
  match o with Some vals => [(n, vals)] | None => [] end.
Definition summary (asg : list (node * list token)) (fl : bool) (po qo : option (list token)) : Prop :=
  for_child f asg = (if fl then [(f, [])] else []) /\ for_child p asg = olist p po /\ for_child q asg = olist q qo
  /\ Forall (fun a => fst a = f \/ fst a = p \/ fst a = q) asg.

Lemma used_cons i (x : nat * node) done : used (x :: done) i <-> fst x = i \/ used done i.
Proof.
  unfold used. split.
  - intros [l [->|H]]; [now left|right; now exists l].
  - intros [<-|[l H]]; [exists (snd x); left; now destruct x|exists l; now right].
Qed.

Lemma ordinary_passes done t us : kept (t :: us) -> passes m done (t :: us) 0 f <-> ordinary long [ch] t us.
Proof.
  intros K. assert (Hp : t_prefix t <> PLong) by (destruct K as [K _]; now apply Forall_inv in K).
  unfold passes, ordinary.
  rewrite (switch_chokes f long ch Flong Fshort Fnone Fsep Fmark Fcount Fexp Fch Fdash t us Fenabled K).
  rewrite (switch_addressed f long ch Flong Fshort Fnone Fsep Fmark Fcount Fexp Fch Fdash t us Hp). split.
  - intros [H1 [H|[H|H]]]; [contradiction| |].
    + split; [|exact H1]. intros letters Hl. apply H. now exists letters.
    + exfalso. destruct H as [H _]. rewrite (switch_named f long ch Flong Fshort Fnone Fsep Fmark Fcount Fexp Fch Fdash) in H. discriminate H.
  - intros [H1 H2]. split; [exact H2|right; left]. intros [letters H]. exact (H1 letters H).
Qed.

Lemma assigned_plain l label vals : alias_of l = None -> assigned m (Item l label vals) = [(l, vals)].
Proof. intros H. unfold assigned, stands_for. cbn [i_node i_values]. rewrite H. reflexivity. Qed.

Lemma summary_flag asg po qo : summary asg false po qo -> summary ((f, []) :: asg) true po qo.
Proof.
  intros (A & B & C & D). unfold summary, for_child in *. cbn [filter fst]. rewrite Hff, Hpf, Hqf, A, B, C.
  repeat split. constructor; [now left|exact D].
Qed.
Lemma summary_first asg fl qo vals : summary asg fl None qo -> summary ((p, vals) :: asg) fl (Some vals) qo.
Proof.
  intros (A & B & C & D). unfold summary, for_child in *. cbn [filter fst]. rewrite Hfp, Hpp, Hqp, A, B, C.
  repeat split. constructor; [now right; left|exact D].
Qed.
Lemma summary_second asg fl vals : summary asg fl None None -> summary ((q, vals) :: asg) fl None (Some vals).
Proof.
  intros (A & B & C & D). unfold summary, for_child in *. cbn [filter fst]. rewrite Hfq, Hpq, Hqq, A, B, C.
  repeat split. constructor; [now right; right|exact D].
Qed.

Lemma fresh_child done i l : has_multi_stage l = false -> allowed m done i l <-> ~ used done i.
Proof.
  intros H. unfold allowed. rewrite H. split.
  - intros [[E|E] _]; [discriminate E|exact E].
  - intros E. split; [now right|]. intros [Hc _]. now apply (Hchoice i).
Qed.

Lemma no_dependencies done l : plain l -> dependencies m done l.
Proof. intros H ns d Hin. now apply (pl_dep l H) in Hin. Qed.

Lemma reading_three done ts items : reading m done ts items -> forall g k, state g k done -> kept ts ->
  exists fl po qo, three g k ts fl po qo /\ summary (flat_map (assigned m) items) fl po qo.
Proof.
  induction 1 as [done|done ts before i l after label vals rest items He Hb Hck Hen Hc Ha Hd _ IH]; intros g k Hs K.
  { exists false, None, None. split; [constructor|]. cbn [flat_map]. repeat split. constructor. }
  assert (Hne : ts <> []).
  { intros ->. inversion Hc; subst; [|contradiction]. match goal with H : fronted _ [] _ _ _ |- _ => inversion H end. }
  rewrite Hentries in He. destruct Hs as (S0 & S1 & S2).
  destruct ts as [|t us]; [contradiction|].
  assert (Hp : t_prefix t <> PLong) by (destruct K as [K _]; now apply Forall_inv in K).
  cbn [flat_map]. destruct before as [|x1 before].
  - injection He as <- <- <-. rewrite (assigned_plain f _ _ (pl_alias f Fplain)).
    apply (fresh_child done 0 f (pl_multi f Fplain)) in Ha.
    destruct (proj1 (switch_consumes f long ch Flong Fshort Fnone Fsep Fmark Fcount Fexp Fch Fdash t us vals rest Hp) (ex_intro _ _ Hc)) as (letters & Hl & -> & ->).
    assert (g = false) as -> by (destruct g; [exfalso; now apply Ha, S0|reflexivity]).
    destruct (IH true k) as (fl & po & qo & Ht & Hsum).
    { repeat split; rewrite ?used_cons; cbn [fst]; intros; try tauto; try (now left); intuition discriminate. }
    { exact (kept_picks long ch t us letters K Hl). }
    destruct (three_none _ _ _ _ _ _ Ht) as (E & _). specialize (E eq_refl). subst fl.
    exists true, po, qo. split; [exact (th_flag k t us letters po qo Hl Ht)|]. cbn [app]. now apply summary_flag.
  - injection He as <- He.
    assert (Ho : ordinary long [ch] t us) by (apply (ordinary_passes done t us K), Hb; now left).
    destruct before as [|x2 before].
    + injection He as <- <- <-. rewrite (assigned_plain p _ _ (pl_alias p Pplain)).
      apply (fresh_child done 1 p (pl_multi p Pplain)) in Ha.
      destruct (proj1 (positional_consumes p _ vals rest Ppos) (ex_intro _ _ Hc)) as [_ Hcnt].
      assert (k = 0) as -> by (destruct k; [reflexivity|exfalso; apply Ha, S1; lia]).
      destruct (IH g 1) as (fl & po & qo & Ht & Hsum).
      { assert (~ used done 2) by (rewrite S2; lia).
        repeat split; rewrite ?used_cons; cbn [fst]; intros X; try lia; try (now left); try tauto; destruct X as [X|X]; try discriminate X; tauto. }
      { exact (kept_counted p _ _ _ Hcnt K). }
      destruct (three_none _ _ _ _ _ _ Ht) as (_ & E & _). specialize (E (le_n 1)). subst po.
      exists fl, (Some vals), qo. split; [exact (th_first g t us vals rest fl qo Ho Hcnt Ht)|]. cbn [app]. now apply summary_first.
    + injection He as <- He. destruct before as [|x3 before].
      * injection He as <- <- <-. rewrite (assigned_plain q _ _ (pl_alias q Qplain)).
        apply (fresh_child done 2 q (pl_multi q Qplain)) in Ha.
        destruct (proj1 (positional_consumes q _ vals rest Qpos) (ex_intro _ _ Hc)) as [_ Hcnt].
        assert (U1 : used done 1).
        { destruct (Hb 1 p) as [_ [H|[H|H]]]; [now right; left| | |].
          - exfalso. exact (H (po_enabled p Ppos)).
          - exfalso. apply H, (positional_addressed p _ Ppos). discriminate.
          - destruct H as (_ & _ & H & _). exact H. }
        assert (k = 1) as ->.
        { apply S1 in U1. destruct k as [|[|k]]; [lia|reflexivity|]. exfalso. apply Ha, S2. lia. }
        destruct (IH g 2) as (fl & po & qo & Ht & Hsum).
        { repeat split; rewrite ?used_cons; cbn [fst]; intros X; try lia; try (now left); try tauto; destruct X as [X|X]; try discriminate X; tauto. }
        { exact (kept_counted q _ _ _ Hcnt K). }
        destruct (three_none _ _ _ _ _ _ Ht) as (_ & E & E'). specialize (E (le_S _ _ (le_n 1))). specialize (E' (le_n 2)). subst po qo.
        exists fl, None, (Some vals). split; [exact (th_second g t us vals rest fl Ho Hcnt Ht)|]. cbn [app]. now apply summary_second.
      * exfalso. injection He as _ He. now destruct before.
Qed.

Lemma three_reading g k ts fl po qo : three g k ts fl po qo -> forall done, state g k done -> kept ts ->
  exists items, reading m done ts items /\ summary (flat_map (assigned m) items) fl po qo.
Proof.
  induction 1 as [g k|k t us letters po qo Hl _ IH|g t us vals rest fl qo Ho Hc _ IH|g t us vals rest fl Ho Hc _ IH]; intros done (S0 & S1 & S2) K.
  - exists []. split; [constructor|]. repeat split. constructor.
  - assert (Hp : t_prefix t <> PLong) by (destruct K as [K' _]; now apply Forall_inv in K').
    destruct (proj2 (switch_consumes f long ch Flong Fshort Fnone Fsep Fmark Fcount Fexp Fch Fdash t us [] _ Hp)
                (ex_intro _ letters (conj Hl (conj eq_refl eq_refl)))) as [label Hcs].
    destruct (IH ((0, f) :: done)) as (items & Hr & Hs).
    { repeat split; rewrite ?used_cons; cbn [fst]; intros X; try tauto; try (now left); destruct X as [X|X]; try discriminate X; tauto. }
    { exact (kept_picks long ch t us letters K Hl). }
    exists (Item f label [] :: items). split.
    + apply (reading_cons m done (t :: us) [] 0 f [(1, p); (2, q)] label [] (map (Tok PShort) letters ++ us) items Hentries).
      * contradiction.
      * intros H. apply (switch_chokes f long ch Flong Fshort Fnone Fsep Fmark Fcount Fexp Fch Fdash t us Fenabled K) in H. destruct H as (nm & Hd & Hl1 & Hbad).
        destruct Hl as [[-> ->]|(nm' & Hd' & Hg')].
        -- destruct Hd as [E|[E Hn]]; [discriminate E|]. injection E as E. apply Hn. exists long. exact (eq_sym E).
        -- rewrite <- (dashed_det _ _ _ Hd Hd') in Hg'. destruct Hbad as [E|[E _]]; [congruence|].
           subst nm. rewrite graphemes_nil in Hg'. discriminate Hg'.
      * exact Fenabled.
      * exact Hcs.
      * apply (fresh_child done 0 f (pl_multi f Fplain)). rewrite S0. discriminate.
      * exact (no_dependencies done f Fplain).
      * exact Hr.
    + cbn [flat_map]. rewrite (assigned_plain f _ _ (pl_alias f Fplain)). cbn [app]. now apply summary_flag.
  - destruct (proj2 (positional_consumes p (t :: us) vals rest Ppos)) as [label Hcs]; [split; [discriminate|exact Hc]|].
    destruct (IH ((1, p) :: done)) as (items & Hr & Hs).
    { assert (~ used done 2) by (rewrite S2; lia).
      repeat split; rewrite ?used_cons; cbn [fst]; intros X; try lia; try (now left); try tauto; destruct X as [X|X]; try discriminate X; tauto. }
    { exact (kept_counted p _ _ _ Hc K). }
    exists (Item p label vals :: items). split.
    + apply (reading_cons m done (t :: us) [(0, f)] 1 p [(2, q)] label vals rest items Hentries).
      * intros j x [E|[]]. injection E as <- <-. now apply (ordinary_passes done t us K).
      * now apply positional_chokes.
      * exact (po_enabled p Ppos).
      * exact Hcs.
      * apply (fresh_child done 1 p (pl_multi p Pplain)). rewrite S1. lia.
      * exact (no_dependencies done p Pplain).
      * exact Hr.
    + cbn [flat_map]. rewrite (assigned_plain p _ _ (pl_alias p Pplain)). cbn [app]. now apply summary_first.
  - destruct (proj2 (positional_consumes q (t :: us) vals rest Qpos)) as [label Hcs]; [split; [discriminate|exact Hc]|].
    assert (U1 : used done 1) by (apply S1; lia).
    destruct (IH ((2, q) :: done)) as (items & Hr & Hs).
    { repeat split; rewrite ?used_cons; cbn [fst]; intros X; try lia; try (now left); try tauto; destruct X as [X|X]; try discriminate X; tauto. }
    { exact (kept_counted q _ _ _ Hc K). }
    exists (Item q label vals :: items). split.
    + apply (reading_cons m done (t :: us) [(0, f); (1, p)] 2 q [] label vals rest items Hentries).
      * intros j x [E|[E|[]]]; injection E as <- <-; [now apply (ordinary_passes done t us K)|].
        split; [now apply positional_chokes|]. right; right. split; [exact (po_named p Ppos)|].
        split; [exact (pl_multi p Pplain)|]. split; [exact U1|]. intros [Hx _]. now apply (Hchoice 1).
      * now apply positional_chokes.
      * exact (po_enabled q Qpos).
      * exact Hcs.
      * apply (fresh_child done 2 q (pl_multi q Qplain)). rewrite S2. lia.
      * exact (no_dependencies done q Qplain).
      * exact Hr.
    + cbn [flat_map]. rewrite (assigned_plain q _ _ (pl_alias q Qplain)). cbn [app]. now apply summary_second.
Qed.

Definition given_value (n : node) (o : option (list token)) (v : value) : Prop :=
  match o with
  | Some vals => value_of n vals v
  | None => ~ mandatory n /\ v = last (default_values n) (vt_init (n_ty n))
  end.

Lemma any_in_range n v : plain n -> in_range n v.
Proof using. intros H mn mx lt Hin. now apply (pl_range n H) in Hin. Qed.

Lemma delivered_given n asg o v : plain n -> for_child n asg = olist n o -> delivered n asg v <-> given_value n o v.
Proof.
  intros Hpl Hf. destruct o as [vals|]; cbn [olist given_value] in *; split.
  - intros H. inversion H; subst; [|congruence]. rewrite Hf in *.
    match goal with H : gathered _ _ _ |- _ => inversion H; subst end; [rewrite (pl_stage n Hpl) in *; discriminate|].
    match goal with H : gathered _ [] _ |- _ => inversion H; subst end. assumption.
  - intros H. apply delivered_typed; [|intros _; now apply any_in_range]. rewrite Hf.
    apply (gathered_once n vals v [] _ H (pl_stage n Hpl)). constructor.
  - intros H. inversion H; subst; [|now split]. rewrite Hf in *. match goal with H : gathered None [] _ |- _ => inversion H end.
  - intros [H ->]. apply delivered_missing; auto. now apply any_in_range.
Qed.

Lemma three_deliveries asg fl po qo vs : summary asg fl po qo ->
  deliveries m asg vs <-> exists v w, vs = [VBool fl; v; w] /\ given_value p po v /\ given_value q qo w.
Proof.
  intros (A & B & C & D). unfold deliveries. rewrite Hchildren.
  assert (Hd : forall x, delivered f asg x <-> x = VBool fl).
  { intros x. rewrite (delivered_given f asg (if fl then Some [] else None) x Fplain); [|rewrite A; now destruct fl].
    destruct fl; cbn [given_value].
    - split; [|intros ->; apply value_flag; now left]. intros H. inversion H; subst; [reflexivity|congruence..].
    - rewrite Fdefault. split; [now intros [_ ->]|now intros ->]. }
  split.
  - intros [_ H]. inversion H as [|? x ? l1 H1 H2]; subst. inversion H2 as [|? v ? l2 H3 H4]; subst. inversion H4 as [|? w ? l3 H5 H6]; subst.
    inversion H6; subst. apply Hd in H1. subst x. exists v, w. split; [reflexivity|].
    split; [now apply (delivered_given p asg po v Pplain B)|now apply (delivered_given q asg qo w Qplain C)].
  - intros (v & w & -> & Hv & Hw). split.
    + apply Forall_forall. intros [x vals] Hin. pose proof (proj1 (Forall_forall _ _) D _ Hin) as Hx. cbn [fst snd] in *.
      destruct Hx as [->|[->|Hx]]; [| |subst x].
      * exists (VBool true). apply value_flag. now left.
      * assert (Hx : In (p, vals) (for_child p asg)) by (apply filter_In; now split).
        rewrite B in Hx. destruct po as [vals'|]; [|contradiction]. destruct Hx as [E|[]]. injection E as <-. now exists v.
      * assert (Hx : In (q, vals) (for_child q asg)) by (apply filter_In; now split).
        rewrite C in Hx. destruct qo as [vals'|]; [|contradiction]. destruct Hx as [E|[]]. injection E as <-. now exists w.
    + constructor; [now apply Hd|]. constructor; [now apply (delivered_given p asg po v Pplain B)|].
      constructor; [now apply (delivered_given q asg qo w Qplain C)|constructor].
Qed.

Lemma three_means ts vs : kept ts ->
  (exists items, reading m [] ts items /\ deliveries m (flat_map (assigned m) items) vs)
  <-> exists fl po qo v w, three false 0 ts fl po qo /\ vs = [VBool fl; v; w] /\ given_value p po v /\ given_value q qo w.
Proof.
  intros K. assert (S0 : state false 0 []).
  { repeat split; intros X; try discriminate X; try lia; destruct X as [l []]. }
  split.
  - intros (items & Hr & Hd). destruct (reading_three [] ts items Hr false 0 S0 K) as (fl & po & qo & Ht & Hs).
    destruct (proj1 (three_deliveries _ fl po qo vs Hs) Hd) as (v & w & H). exists fl, po, qo, v, w. exact (conj Ht H).
  - intros (fl & po & qo & v & w & Ht & H). destruct (three_reading _ _ _ _ _ _ Ht [] S0 K) as (items & Hr & Hs).
    exists items. split; [exact Hr|]. apply (three_deliveries _ fl po qo vs Hs). exists v, w. exact H.
Qed.
End Three.

(** ** Named nodes of the root *)

Lemma long_match n long (Hlong : long_name n = Some long) (Hshort : short_name n = None) (Hnone : none_name n = None) w :
  match_node n (norm_token n (Tok PNone w)) = true <-> w = b "--" ++ long.
Proof.
  unfold match_node, norm_token, node_get_token, get_token_type_for. rewrite Hlong, Hshort, Hnone.
  cbn [t_prefix t_name is_some andb]. destruct (starts_with long_prefix w) eqn:E1.
  - cbn [prefix_eqb t_prefix t_name andb orb]. rewrite !orb_false_r, beq_eq. apply starts_with_app in E1 as [r ->].
    rewrite skipn_app_len. split; [intros ->; reflexivity|]. intros E. injection E as E. exact E.
  - cbn [prefix_eqb t_prefix t_name andb orb]. split; [discriminate|]. intros ->.
    assert (starts_with long_prefix (b "--" ++ long) = true); [|congruence]. apply starts_with_app. now exists long.
Qed.

Record simple_named (n : node) : Prop := {
  sn_named : is_named n = true; sn_sep : value_separator n = None; sn_enabled : enabled n;
  sn_exp : ~ In PShortFormExpander (n_pols n) }.

Lemma simple_chokes n ts : simple_named n -> ~ chokes n ts.
Proof.
  intros [H1 H2 H3 H4] [(sep & t0 & us0 & l & c & s & H & _)|[(t0 & value & us0 & Hf & nm & Hg & Hb)|(H & _)]]; [congruence| |contradiction].
  now apply H4, Hg.
Qed.

Lemma simple_addressed n t us : simple_named n -> addressed n (t :: us) <-> match_node n (norm_token n t) = true.
Proof.
  intros [H1 H2 H3 H4]. unfold addressed. rewrite H1. split.
  - intros [[_ [(t1 & value & us1 & t' & us' & Hf & Hg & Hm)|(sep & H)]]|[H _]]; [| |discriminate H].
    + inversion Hf; subst; [|congruence]. inversion Hg; subst; [exact Hm|]. exfalso.
      match goal with H : group_for _ _ _ |- _ => now apply H4, H end.
    + destruct H as (t1 & us1 & H & _). congruence.
  - intros Hm. left. split; [reflexivity|left]. exists t, [], us, t, us. split; [now constructor|]. split; [|exact Hm].
    constructor. intros nm H. now apply H4, H.
Qed.

Lemma simple_consumes n t us vals rest : simple_named n ->
  (exists label, consumes n (t :: us) label vals rest) <-> match_node n (norm_token n t) = true /\ counted n us vals rest.
Proof.
  intros [H1 H2 H3 H4]. split.
  - intros [label H]. inversion H as [t1 value us1 t' us' vals' rest' _ Hf Hg Hm Hc|]; subst; [|congruence].
    inversion Hf; subst; [|congruence]. inversion Hg; subst; [now split|]. exfalso.
    match goal with H : group_for _ _ _ |- _ => now apply H4, H end.
  - intros [Hm Hc]. exists (Some (norm_token n t)). apply (consumes_named n _ t [] us t us); auto; [now constructor|].
    constructor. intros nm H. now apply H4, H.
Qed.

Lemma simple_nothing n : simple_named n -> ~ addressed n [].
Proof.
  intros [H1 H2 H3 H4] [[_ [(t1 & value & us1 & t' & us' & Hf & _)|(sep & t1 & us1 & H & _)]]|[H _]]; [inversion Hf|congruence|congruence].
Qed.

Lemma simple_passed n ts : simple_named n -> is_mode n = false ->
  passed_over ts n <-> forall t us, ts = t :: us -> match_node n (norm_token n t) = false.
Proof.
  intros Hn Hm. unfold passed_over. rewrite Hm. split.
  - intros [_ [H|H]] t us ->; [exfalso; exact (H (sn_enabled n Hn))|].
    destruct (match_node n (norm_token n t)) eqn:E; [|reflexivity]. exfalso. apply H. now apply simple_addressed.
  - intros H. split; [now apply simple_chokes|right]. destruct ts as [|t us]; [now apply simple_nothing|].
    rewrite (simple_addressed n t us Hn), (H t us eq_refl). discriminate.
Qed.

(** ** Values *)

Lemma text_value n vals v : n_kind n = KArg APositional -> n_ty n = text_type -> custom_parser n = None -> plain n ->
  forall t, vals = [t] -> value_of n vals v <-> v = VStr (t_name t).
Proof.
  intros Hk Ht Hc Hp t ->. split.
  - intros H. inversion H as [vals' H'|c t' ts' v' _ _ Hr|c H1|c ts vs H1 H2]; subst.
    + rewrite Hk in H'. destruct H' as [H'|H']; discriminate H'.
    + unfold reads_as in Hr. rewrite Hc, Ht in Hr. cbn [text_type vt_parse] in Hr. injection Hr as <-. reflexivity.
    + rewrite Ht in H2. discriminate H2.
  - intros ->. apply (value_single n APositional); [exact Hk|rewrite Ht; reflexivity| |now apply any_in_range].
    unfold reads_as. rewrite Hc, Ht. reflexivity.
Qed.

Lemma strings_value n vals v : n_kind n = KArg APositional -> n_ty n = strings_type -> custom_parser n = None -> plain n ->
  value_of n vals v <-> v = VList (map (fun t => VStr (t_name t)) vals).
Proof.
  intros Hk Ht Hc Hp. split.
  - intros H. inversion H as [vals' H'|c t' ts' v' H1 H2 Hr|c H1 H2|c ts vs H1 H2 H3]; subst.
    + rewrite Hk in H'. destruct H' as [H'|H']; discriminate H'.
    + rewrite Ht in H2. discriminate H2.
    + rewrite Ht in H2. discriminate H2.
    + f_equal. clear H H1 H2 H0. induction H3 as [|t x ts xs Hr _ IH]; [reflexivity|]. cbn [map]. rewrite <- IH. f_equal.
      unfold reads_as in Hr. rewrite Hc, Ht in Hr. cbn [strings_type vt_parse] in Hr. injection Hr as <-. reflexivity.
  - intros ->. apply (value_list n APositional); [exact Hk|rewrite Ht; reflexivity| |now apply any_in_range].
    induction vals as [|t vals IH]; constructor; [|exact IH]. unfold reads_as. rewrite Hc, Ht. reflexivity.
Qed.

(** ** How many *)

Lemma one_counted n us vals rest : token_end_marker n = None -> count_bounds n = Some (1%N, 1%N) ->
  counted n us vals rest <-> exists t, us = t :: rest /\ vals = [t].
Proof.
  intros Hm Hc. split.
  - intros H. inversion H as [mn mx vals' rest' _ Hb E Hl _| | |]; subst; try congruence.
    rewrite Hc in Hb. injection Hb as <- <-. unfold nlen in Hl. destruct vals as [|t [|]]; cbn [List.length] in Hl; try lia. now exists t.
  - intros (t & -> & ->). apply (count_plain n _ 1 1 [t] rest Hm Hc eq_refl); [unfold nlen; cbn [List.length]; lia|reflexivity].
Qed.

Lemma kept_small ts : kept ts -> (nlen ts < size_max)%N.
Proof.
  intros [_ H]. pose proof (args_weight_length ts). unfold nlen, vec_max_size, size_max in *. lia.
Qed.

Lemma all_counted n mn us vals rest : token_end_marker n = None -> count_bounds n = Some (mn, size_max) -> kept us ->
  counted n us vals rest <-> vals = us /\ rest = [] /\ (mn <= nlen us)%N.
Proof.
  intros Hm Hc K. apply kept_small in K. split.
  - intros H. inversion H as [mn' mx vals' rest' _ Hb E Hl Hr| | |]; subst; try congruence.
    rewrite Hc in Hb. injection Hb as <- <-. destruct rest as [|t rest].
    + rewrite app_nil_r. repeat split. apply Hl.
    + exfalso. specialize (Hr ltac:(discriminate)). unfold nlen in *. rewrite app_length in K. cbn [List.length] in K. lia.
  - intros (-> & -> & H). apply (count_plain n us mn size_max us [] Hm Hc); [now rewrite app_nil_r|lia|congruence].
Qed.

Lemma all_counted_zero n us vals rest : token_end_marker n = None -> count_bounds n = Some (0%N, 0%N) ->
  counted n us vals rest <-> vals = [] /\ us = rest.
Proof.
  intros Hm Hc. split.
  - intros H. inversion H as [mn mx vals' rest' _ Hb E Hl _| | |]; subst; try congruence.
    rewrite Hc in Hb. injection Hb as <- <-. unfold nlen in Hl. destruct vals; [now split|]. cbn [List.length] in Hl. lia.
  - intros [-> ->]. apply (count_plain n rest 0 0 [] rest Hm Hc eq_refl); [cbn; lia|reflexivity].
Qed.

(** ** Command lines *)

Lemma kept_words words : in_memory words -> kept (map (Tok PNone) words).
Proof.
  intros H. split.
  - apply Forall_map, Forall_forall. intros w _. cbn. discriminate.
  - assert (L : args_weight (map (Tok PNone) words) <= List.length (List.concat words) + List.length words).
    { clear H. induction words as [|w words IH]; [cbn; lia|]. cbn [map List.concat List.length]. rewrite args_weight_cons, app_length.
      unfold token_weight. cbn [t_name]. lia. }
    unfold in_memory, nlen in H. lia.
Qed.

Lemma kept_fits ts : kept ts -> fits ts.
Proof. intros [_ H]. unfold fits, vec_max_size in *. lia. Qed.

Lemma unset_nothing r : flat_map one_of_object (below r) = [] -> unset r [].
Proof. intros H inst Hin. rewrite H in Hin. destruct Hin. Qed.

Lemma unset_empty r : unset r [].
Proof. intros inst Hin. reflexivity. Qed.

Lemma example_fresh r words : well_formed r -> named_top r -> in_memory words -> fresh r [] (map (Tok PNone) words).
Proof.
  intros Hw Hn Hm. constructor; [exact Hw|apply unset_empty|now apply kept_fits, kept_words|now right].
Qed.

Ltac membership := let H := fresh in intros H; repeat (destruct H as [H|H]; [discriminate H|]); destruct H.
Ltac is_plain := constructor; [reflexivity|intros ?; membership|reflexivity|reflexivity|intros ? ? ?; membership].
Ltac is_positional := constructor; [reflexivity|reflexivity|unfold enabled; cbn; discriminate|membership].
Ltac is_simple := constructor; [reflexivity|reflexivity|unfold enabled; cbn; discriminate|membership].

(** ** simple *)

Definition simple_three (q : node) := three sim_dst q (b "force") "f"%char.

Lemma force_plain : plain sim_force. Proof. is_plain. Qed.
Lemma dst_plain : plain sim_dst. Proof. is_plain. Qed.
Lemma dst_positional : positional sim_dst. Proof. is_positional. Qed.
Lemma srcs_plain : plain sim_srcs. Proof. is_plain. Qed.
Lemma srcs_positional : positional sim_srcs. Proof. is_positional. Qed.
Lemma src_plain : plain sim_src. Proof. is_plain. Qed.
Lemma src_positional : positional sim_src. Proof. is_positional. Qed.

Ltac no_choice :=
  let i := fresh in let c := fresh in let k := fresh in let H := fresh in let H' := fresh in
  intros i (c & k & H & H'); destruct i as [|[|[|[|]]]]; cbn [nth_error n_children] in H; try discriminate H; injection H as <-; discriminate H'.


Ltac no_mandatory := intros [?H|[?v ?H]]; revert H; membership.
Ltac three_shape m f :=
  apply (three_means m f); try reflexivity;
  [right; right; left; reflexivity|discriminate|unfold enabled; cbn; discriminate|is_plain|no_mandatory
  |is_positional|is_plain|is_positional|is_plain|no_choice].

Lemma copy_means ts vs : kept ts ->
  (exists items, reading sim_copy [] ts items /\ deliveries sim_copy (flat_map (assigned sim_copy) items) vs)
  <-> exists fl po qo v w, simple_three sim_srcs false 0 ts fl po qo /\ vs = [VBool fl; v; w]
        /\ given_value sim_dst po v /\ given_value sim_srcs qo w.
Proof. three_shape sim_copy sim_force. Qed.

Lemma move_means ts vs : kept ts ->
  (exists items, reading sim_move [] ts items /\ deliveries sim_move (flat_map (assigned sim_move) items) vs)
  <-> exists fl po qo v w, simple_three sim_src false 0 ts fl po qo /\ vs = [VBool fl; v; w]
        /\ given_value sim_dst po v /\ given_value sim_src qo w.
Proof. three_shape sim_move sim_force. Qed.

Definition names_of (o : option (list token)) : list bytes :=
  match o with Some vals => map t_name vals | None => [] end.
Definition q_of (many : bool) : node := if many then sim_srcs else sim_src.

Lemma dst_counted us vals rest : counted sim_dst us vals rest <-> exists t, us = t :: rest /\ vals = [t].
Proof. now apply one_counted. Qed.

Lemma q_counted many us vals rest : kept us -> counted (q_of many) us vals rest <->
  if many then vals = us /\ rest = [] /\ us <> [] else exists t, us = t :: rest /\ vals = [t].
Proof.
  intros K. destruct many; cbn [q_of]; [|now apply one_counted].
  rewrite (all_counted sim_srcs 1 us vals rest eq_refl eq_refl K). unfold nlen. destruct us as [|u us]; cbn [List.length].
  - split; intros (A & B & C); [lia|contradiction].
  - split; intros (A & B & C); repeat split; auto; [discriminate|lia].
Qed.

Lemma three_files many g k ts fl po qo : simple_three (q_of many) g k ts fl po qo -> kept ts ->
  files_of (b "force") many k ts fl (names_of po ++ names_of qo)
  /\ (forall vals, po = Some vals -> exists t, vals = [t])
  /\ (forall vals, qo = Some vals -> if many then vals <> [] else exists t, vals = [t]).
Proof.
  induction 1 as [g k|k t us letters po qo Hl _ IH|g t us vals rest fl qo Ho Hc _ IH|g t us vals rest fl Ho Hc Ht IH]; intros K.
  - cbn. split; [constructor|]. now split.
  - destruct IH as (A & B & C); [exact (kept_picks (b "force") "f"%char t us letters K Hl)|]. split; [|now split].
    exact (files_force (b "force") many k t letters us _ Hl A).
  - assert (K' := kept_counted _ _ _ _ Hc K). apply dst_counted in Hc as (t' & E & ->). injection E as <- <-.
    destruct (IH K') as (A & B & C). split; [|split].
    + cbn [names_of map app] in *. apply (files_one (b "force") many 0 t us fl _ Ho); [discriminate|exact A].
    + intros vals E. injection E as <-. now exists t.
    + exact C.
  - assert (K' := kept_counted _ _ _ _ Hc K). apply (q_counted many _ _ _ K) in Hc. destruct many.
    + destruct Hc as (-> & -> & _). assert (fl = false) as -> by (inversion Ht; reflexivity).
      split; [|split; [discriminate|]].
      * cbn [names_of app]. now apply files_rest.
      * intros vals E. injection E as <-. discriminate.
    + destruct Hc as (t' & E & ->). injection E as <- <-. destruct (IH K') as (A & _ & _). split; [|split; [discriminate|]].
      * cbn [names_of map app] in *. apply (files_one (b "force") false 1 t us fl _ Ho); [discriminate|exact A].
      * intros vals E. injection E as <-. now exists t.
Qed.

Lemma files_three many k ts fl fs : files_of (b "force") many k ts fl fs -> forall g, kept ts -> (g = true -> fl = false) ->
  (if many then k <= 1 else k + List.length fs <= 2) ->
  exists po qo, simple_three (q_of many) g k ts fl po qo /\ fs = names_of po ++ names_of qo
    /\ (k = 0 -> po = None -> fs = []) /\ (1 <= k -> po = None).
Proof.
  induction 1 as [k|k t us force fs Ho Hk _ IH|t us Ho Hm|k t letters us fs Hl _ IH]; intros g K Hg Hb.
  - exists None, None. split; [constructor|]. now repeat split.
  - destruct (IH g) as (po & qo & Ht & E & _ & E'); [now apply kept_tail in K|exact Hg| |].
    { destruct many; [specialize (Hk eq_refl); lia|cbn [List.length] in Hb; lia]. }
    specialize (E' ltac:(lia)). subst po. destruct k as [|k].
    + exists (Some [t]), qo. split; [|split; [cbn; now rewrite E|now split]].
      apply (th_first _ _ _ _ g t us [t] us force qo Ho); [|exact Ht]. apply dst_counted. now exists t.
    + destruct many; [specialize (Hk eq_refl); lia|].
      assert (k = 0) as -> by (cbn [List.length] in Hb; lia).
      destruct (three_none sim_force _ _ _ _ _ _ _ _ _ _ Ht) as (_ & _ & Q). specialize (Q (le_n 2)). subst qo.
      exists None, (Some [t]). split; [|split; [cbn; now rewrite E|now split]].
      apply (th_second _ _ _ _ g t us [t] us force Ho); [|exact Ht]. apply (q_counted false _ _ _ K). now exists t.
  - subst many. exists None, (Some (t :: us)). split; [|now repeat split].
    apply (th_second _ _ _ _ g t us (t :: us) [] false Ho); [|constructor].
    apply (q_counted true _ _ _ K). now repeat split.
  - assert (g = false) as -> by (destruct g; [now specialize (Hg eq_refl)|reflexivity]).
    destruct (IH true) as (po & qo & Ht & E & E0 & E1); [exact (kept_picks (b "force") "f"%char t us letters K Hl)|reflexivity|exact Hb|].
    exists po, qo. split; [|now repeat split]. exact (th_flag _ _ _ _ k t us letters po qo Hl Ht).
Qed.

Lemma simple_well_formed : well_formed simple.
Proof. apply well_formed_b_spec. vm_compute. reflexivity. Qed.
Lemma simple_top : named_top simple.
Proof. intros c [<-|[<-|[<-|[]]]]; [right|left|left]; reflexivity. Qed.

Lemma copy_values us vs : kept us ->
  (exists items, reading sim_copy [] us items /\ deliveries sim_copy (flat_map (assigned sim_copy) items) vs)
  <-> exists force dst srcs, srcs <> [] /\ files_of (b "force") true 0 us force (dst :: srcs)
        /\ vs = [VBool force; VStr dst; VList (map VStr srcs)].
Proof.
  intros K. rewrite (copy_means us vs K). split.
  - intros (fl & po & qo & v & w & Ht & -> & Hv & Hw).
    destruct (three_files true _ _ _ _ _ _ Ht K) as (A & B & C).
    destruct po as [vals|]; [|exfalso; apply (proj1 Hv); left; cbn; tauto].
    destruct qo as [ws|]; [|exfalso; apply (proj1 Hw); left; cbn; tauto].
    destruct (B vals eq_refl) as [t ->]. specialize (C ws eq_refl). cbn [given_value names_of map app] in *.
    apply (text_value sim_dst _ v eq_refl eq_refl eq_refl dst_plain t eq_refl) in Hv.
    apply (strings_value sim_srcs ws w eq_refl eq_refl eq_refl srcs_plain) in Hw. subst v w.
    exists fl, (t_name t), (map t_name ws). split; [now destruct ws|]. split; [exact A|]. now rewrite map_map.
  - intros (force & dst & srcs & Hs & Hf & ->).
    destruct (files_three true 0 us force _ Hf false K ltac:(discriminate) ltac:(cbn; lia)) as (po & qo & Ht & E & E0 & _).
    destruct (three_files true _ _ _ _ _ _ Ht K) as (_ & B & C).
    destruct po as [vals|]; [|specialize (E0 eq_refl eq_refl); discriminate E0].
    destruct (B vals eq_refl) as [t ->]. cbn [names_of map app] in E. injection E as -> ->.
    destruct qo as [ws|]; [|contradiction Hs; reflexivity].
    exists force, (Some [t]), (Some ws), (VStr (t_name t)), (VList (map VStr (map t_name ws))).
    split; [exact Ht|]. split; [reflexivity|]. split.
    + now apply (text_value sim_dst _ _ eq_refl eq_refl eq_refl dst_plain t eq_refl).
    + apply (strings_value sim_srcs ws _ eq_refl eq_refl eq_refl srcs_plain). now rewrite map_map.
Qed.

Lemma move_values us vs : kept us ->
  (exists items, reading sim_move [] us items /\ deliveries sim_move (flat_map (assigned sim_move) items) vs)
  <-> exists force dst src, files_of (b "force") false 0 us force [dst; src] /\ vs = [VBool force; VStr dst; VStr src].
Proof.
  intros K. rewrite (move_means us vs K). split.
  - intros (fl & po & qo & v & w & Ht & -> & Hv & Hw).
    destruct (three_files false _ _ _ _ _ _ Ht K) as (A & B & C).
    destruct po as [vals|]; [|exfalso; apply (proj1 Hv); left; cbn; tauto].
    destruct qo as [ws|]; [|exfalso; apply (proj1 Hw); left; cbn; tauto].
    destruct (B vals eq_refl) as [t ->]. destruct (C ws eq_refl) as [t' ->]. cbn [given_value names_of map app] in *.
    apply (text_value sim_dst _ v eq_refl eq_refl eq_refl dst_plain t eq_refl) in Hv.
    apply (text_value sim_src _ w eq_refl eq_refl eq_refl src_plain t' eq_refl) in Hw. subst v w.
    exists fl, (t_name t), (t_name t'). now split.
  - intros (force & dst & src & Hf & ->).
    destruct (files_three false 0 us force _ Hf false K ltac:(discriminate) ltac:(cbn; lia)) as (po & qo & Ht & E & E0 & _).
    destruct (three_files false _ _ _ _ _ _ Ht K) as (_ & B & C).
    destruct po as [vals|]; [|specialize (E0 eq_refl eq_refl); discriminate E0].
    destruct (B vals eq_refl) as [t ->]. cbn [names_of map app] in E.
    destruct qo as [ws|]; [|discriminate E]. destruct (C ws eq_refl) as [t' ->]. cbn [names_of map] in E. injection E as -> ->.
    exists force, (Some [t]), (Some [t']), (VStr (t_name t)), (VStr (t_name t')).
    split; [exact Ht|]. split; [reflexivity|]. split.
    + now apply (text_value sim_dst _ _ eq_refl eq_refl eq_refl dst_plain t eq_refl).
    + now apply (text_value sim_src _ _ eq_refl eq_refl eq_refl src_plain t' eq_refl).
Qed.

Lemma help_simple : simple_named sim_help.
Proof. is_simple. Qed.

(** A mode with a name and without nested modes. *)
Lemma selects_named c nm ps ts m ps' ts' : none_name c = Some nm -> enabled c ->
  (forall d, In d (n_children c) -> is_mode d = false) ->
  selects c ps ts m ps' ts' <-> m = c /\ ps' = ps /\ ts = Tok PNone nm :: ts'.
Proof.
  intros Hn He Hc. split.
  - intros H. inversion H as [m0 ps0 ts0 Hx|m0 ps0 ts0 rest Hx Hy|m0 ps0 ts0 rest before d after m1 ps1 ts1 Hx Hch Hmd]; subst.
    + congruence.
    + destruct Hx as (_ & nm' & E & ->). rewrite Hn in E. injection E as <-. now repeat split.
    + exfalso. rewrite (Hc d) in Hmd; [discriminate Hmd|]. rewrite Hch. apply in_or_app. right. now left.
  - intros (-> & -> & ->). apply sel_named; [split; [exact He|now exists nm]|].
    intros d rest' Hd Hmd. rewrite (Hc d Hd) in Hmd. discriminate Hmd.
Qed.

Lemma simple_routes ts n vs : kept ts -> routes simple ts n vs <->
  (exists us force dst srcs, ts = Tok PNone (b "copy") :: us /\ srcs <> [] /\ files_of (b "force") true 0 us force (dst :: srcs)
     /\ n = sim_copy /\ vs = [VBool force; VStr dst; VList (map VStr srcs)])
  \/ (exists us force dst src, ts = Tok PNone (b "move") :: us /\ files_of (b "force") false 0 us force [dst; src]
     /\ n = sim_move /\ vs = [VBool force; VStr dst; VStr src]).
Proof.
  intros K.
  assert (Hcopy : forall d, In d (n_children sim_copy) -> is_mode d = false) by (intros d [<-|[<-|[<-|[]]]]; reflexivity).
  assert (Hmove : forall d, In d (n_children sim_move) -> is_mode d = false) by (intros d [<-|[<-|[<-|[]]]]; reflexivity).
  assert (Ec : enabled sim_copy) by (unfold enabled; cbn; discriminate).
  assert (Em : enabled sim_move) by (unfold enabled; cbn; discriminate).
  split.
  - intros (before & c & after & E & _ & Hm). destruct before as [|x1 before].
    { injection E as <- _. exfalso. inversion Hm as [m ps ts' items vs' Hmd|label vals v Hmd Hk]; [discriminate Hmd|now apply Hk]. }
    injection E as _ E. destruct before as [|x2 before].
    { injection E as <- _. left. inversion Hm as [m ps ts' items vs' Hmd Hs Hr Hrd Hd|label vals v Hmd]; [|discriminate Hmd]. subst.
      apply (selects_named sim_copy (b "copy") _ _ _ _ _ eq_refl Ec Hcopy) in Hs as (-> & -> & ->).
      destruct (proj1 (copy_values ts' vs (kept_tail _ _ K)) (ex_intro _ items (conj Hrd Hd))) as (force & dst & srcs & A & B & C).
      now exists ts', force, dst, srcs. }
    injection E as _ E. destruct before as [|x3 before].
    { injection E as <- _. right. inversion Hm as [m ps ts' items vs' Hmd Hs Hr Hrd Hd|label vals v Hmd]; [|discriminate Hmd]. subst.
      apply (selects_named sim_move (b "move") _ _ _ _ _ eq_refl Em Hmove) in Hs as (-> & -> & ->).
      destruct (proj1 (move_values ts' vs (kept_tail _ _ K)) (ex_intro _ items (conj Hrd Hd))) as (force & dst & src & A & B).
      now exists ts', force, dst, src. }
    exfalso. injection E as _ E. now destruct before.
  - intros [(us & force & dst & srcs & -> & Hs & Hf & -> & ->)|(us & force & dst & src & -> & Hf & -> & ->)].
    + exists [sim_help], sim_copy, [sim_move]. split; [reflexivity|]. split.
      * intros d [<-|[]]. apply (simple_passed sim_help _ help_simple eq_refl). intros t us' E. injection E as <- _. vm_compute. reflexivity.
      * destruct (proj2 (copy_values us [VBool force; VStr dst; VList (map VStr srcs)] (kept_tail _ _ K))) as (items & Hr & Hd).
        { exists force, dst, srcs. now repeat split. }
        apply (means_mode simple sim_copy _ sim_copy [simple] us items); auto.
        now apply (selects_named sim_copy (b "copy") _ _ _ _ _ eq_refl Ec Hcopy).
    + exists [sim_help; sim_copy], sim_move, []. split; [reflexivity|]. split.
      * intros d [<-|[<-|[]]].
        -- apply (simple_passed sim_help _ help_simple eq_refl). intros t us' E. injection E as <- _. vm_compute. reflexivity.
        -- split; [discriminate|]. intros rest (_ & nm & E & E'). injection E as <-. discriminate E'.
      * destruct (proj2 (move_values us [VBool force; VStr dst; VStr src] (kept_tail _ _ K))) as (items & Hr & Hd).
        { exists force, dst, src. now split. }
        apply (means_mode simple sim_move _ sim_move [simple] us items); auto.
        now apply (selects_named sim_move (b "move") _ _ _ _ _ eq_refl Em Hmove).
Qed.

(** ** launcher *)

Lemma lau_help_simple : simple_named lau_help.
Proof. is_simple. Qed.
Lemma lau_version_simple : simple_named lau_version.
Proof. is_simple. Qed.
Lemma progs_plain : plain lau_progs. Proof. is_plain. Qed.
Lemma args_plain : plain lau_args. Proof. is_plain. Qed.

Definition launcher_three := three lau_progs lau_args (b "dry-run") "d"%char.

Lemma launcher_means ts vs : kept ts ->
  (exists items, reading lau_mode [] ts items /\ deliveries lau_mode (flat_map (assigned lau_mode) items) vs)
  <-> exists fl po qo v w, launcher_three false 0 ts fl po qo /\ vs = [VBool fl; v; w]
        /\ given_value lau_progs po v /\ given_value lau_args qo w.
Proof. three_shape lau_mode lau_dry. Qed.

Lemma progs_counted us vals rest : kept us -> counted lau_progs us vals rest <->
  vals <> [] /\ (forall u, In u vals -> t_name u <> b "--")
  /\ (us = vals /\ rest = [] \/ exists p, us = vals ++ Tok p (b "--") :: rest).
Proof.
  intros K. apply kept_small in K.
  assert (Hm : token_end_marker lau_progs = Some (b "--")) by reflexivity.
  assert (Hc : count_bounds lau_progs = Some (1%N, size_max)) by reflexivity.
  split.
  - intros H. inversion H as [mn mx vals' rest' A B|mn mx m p vals' rest' A B C D E F|mx m p vals' rest' A B|mn mx m A B C D]; subst.
    + rewrite Hm in A. discriminate A.
    + rewrite Hm in A. rewrite Hc in B. injection A as <-. injection B as <- <-. split; [intros ->; unfold nlen in E; cbn in E; lia|].
      split; [exact D|right]. now exists p.
    + rewrite Hc in B. discriminate B.
    + rewrite Hm in A. rewrite Hc in B. injection A as <-. injection B as <- <-. split; [intros ->; unfold nlen in D; cbn in D; lia|].
      split; [exact C|now left].
  - intros (Hv & Hn & [[-> ->]|[p ->]]).
    + apply (count_no_marker lau_progs vals 1 size_max (b "--") Hm Hc Hn). destruct vals; [contradiction|]. unfold nlen in *. cbn [List.length] in *. lia.
    + apply (count_marker lau_progs _ 1 size_max (b "--") p vals rest Hm Hc eq_refl Hn); [|right; now left].
      destruct vals; [contradiction|]. unfold nlen in *. rewrite app_length in K. cbn [List.length] in *. lia.
Qed.

Lemma progs_programs us progs rest : kept us ->
  programs us progs rest <-> exists vals, counted lau_progs us vals rest /\ progs = map t_name vals.
Proof.
  intros K. split.
  - intros (ps & A & B & -> & C). exists ps. split; [|reflexivity]. now apply progs_counted.
  - intros (vals & H & ->). apply (progs_counted us vals rest K) in H as (A & B & C). now exists vals.
Qed.

Lemma args_counted us vals rest : kept us -> counted lau_args us vals rest <-> vals = us /\ rest = [].
Proof.
  intros K. rewrite (all_counted lau_args 0 us vals rest eq_refl eq_refl K). split; [now intros (A & B & _)|].
  intros [A B]. repeat split; auto. apply N.le_0_l.
Qed.

(** What is behind the programs. *)
Definition tail_of (o : option (list token)) : list token := match o with Some vals => vals | None => [] end.

Lemma three_tail g rest fl qo : kept rest -> launcher_three g 1 rest fl None qo -> (g = true -> fl = false) ->
  fl = false /\ no_dry rest /\ tail_of qo = rest
  \/ fl = true /\ exists rest', dry_first rest rest' /\ no_dry rest' /\ tail_of qo = rest'.
Proof.
  intros K H Hg. inversion H as [g' k|k t us letters po qo' Hl Ht|g' t us vals rest' fl' qo' Ho Hc Ht|g' t us vals rest' fl' Ho Hc Ht]; subst.
  - left. split; [reflexivity|]. split; [intros ? ? E; discriminate E|reflexivity].
  - right. split; [reflexivity|]. exists (map (Tok PShort) letters ++ us). split; [now exists t, letters, us|].
    assert (K' := kept_picks _ _ t us letters K Hl).
    remember (map (Tok PShort) letters ++ us) as us1 eqn:E1. clear H E1.
    inversion Ht as [g' k|k t' us' letters' po' qo' Hl' Ht'|g' t' us' vals rest' fl' qo' Ho Hc Ht'|g' t' us' vals rest' fl' Ho Hc Ht']; subst.
    + split; [|reflexivity]. intros x y E. discriminate E.
    + apply (args_counted _ _ _ K') in Hc as [-> ->]. split; [|reflexivity]. intros x y E. now injection E as <- <-.
  - apply (args_counted _ _ _ K) in Hc as [-> ->]. inversion Ht; subst. left. split; [reflexivity|]. split; [|reflexivity].
    intros x y E. now injection E as <- <-.
Qed.

Lemma tail_three g rest : kept rest -> no_dry rest -> exists qo, launcher_three g 1 rest false None qo /\ tail_of qo = rest.
Proof.
  intros K H. destruct rest as [|t us]; [exists None; split; [constructor|reflexivity]|].
  exists (Some (t :: us)). split; [|reflexivity]. apply (th_second _ _ _ _ g t us (t :: us) [] false (H t us eq_refl)); [|constructor].
  now apply args_counted.
Qed.

Lemma three_launch ts fl vals qo : kept ts -> launcher_three false 0 ts fl (Some vals) qo ->
  launch ts fl (map t_name vals) (map t_name (tail_of qo)).
Proof.
  intros K H. inversion H as [g' k|k t us letters po qo' Hl Ht|g' t us vals' rest fl' qo' Ho Hc Ht|]; subst.
  - assert (K1 := kept_picks _ _ t us letters K Hl).
    assert (Hd : dry_first (t :: us) (map (Tok PShort) letters ++ us)) by (now exists t, letters, us).
    remember (map (Tok PShort) letters ++ us) as us1 eqn:E1. clear H E1.
    inversion Ht as [g' k|k t' us' letters' po' qo' Hl' Ht'|g' t' us' vals' rest fl' qo' Ho Hc Ht'|]; subst.
    assert (K2 := kept_counted _ _ _ _ Hc K1).
    destruct (three_tail true rest false qo K2 Ht' (fun _ => eq_refl)) as [(_ & Hn & ->)|(E & _)]; [|discriminate E].
    apply (launch_dry _ (t' :: us')); [exact Hd| | |exact Hn].
    + intros x y E. now injection E as <- <-.
    + apply (progs_programs _ _ _ K1). now exists vals.
  - assert (K2 := kept_counted _ _ _ _ Hc K).
    assert (Hn0 : no_dry (t :: us)) by (intros x y E; now injection E as <- <-).
    assert (Hp : programs (t :: us) (map t_name vals) rest) by (apply (progs_programs _ _ _ K); now exists vals).
    destruct (three_tail false rest fl qo K2 Ht ltac:(discriminate)) as [(-> & Hn & ->)|(-> & rest' & Hd & Hn & ->)].
    + now apply launch_plain.
    + now apply (launch_dry_later _ _ rest).
Qed.

Lemma kept_dry us us' : kept us -> dry_first us us' -> kept us'.
Proof. intros K (t & letters & vs & -> & Hl & ->). exact (kept_picks _ _ t vs letters K Hl). Qed.

Lemma programs_head us progs rest : programs us progs rest -> exists t us', us = t :: us'.
Proof.
  intros (ps & Hp & _ & _ & H). destruct ps as [|t ps]; [contradiction|]. exists t.
  destruct H as [[-> _]|[p ->]]; eexists; reflexivity.
Qed.

Lemma launch_three ts fl progs args : kept ts -> launch ts fl progs args ->
  exists vals qo, launcher_three false 0 ts fl (Some vals) qo /\ progs = map t_name vals /\ args = map t_name (tail_of qo).
Proof.
  intros K H. destruct H as [progs rest Hn Hp Hr|us' progs rest Hd Hn Hp Hr|progs rest rest' Hn Hp Hd Hr].
  - destruct (programs_head _ _ _ Hp) as (t & us & ->). apply (progs_programs _ _ _ K) in Hp as (vals & Hc & ->).
    destruct (tail_three false rest (kept_counted _ _ _ _ Hc K) Hr) as (qo & Ht & E). exists vals, qo. rewrite E.
    split; [|now split]. exact (th_first _ _ _ _ false t us vals rest false qo (Hn t us eq_refl) Hc Ht).
  - assert (K' := kept_dry _ _ K Hd). destruct (programs_head _ _ _ Hp) as (t & us & ->).
    apply (progs_programs _ _ _ K') in Hp as (vals & Hc & ->).
    destruct (tail_three true rest (kept_counted _ _ _ _ Hc K') Hr) as (qo & Ht & E). exists vals, qo. rewrite E.
    split; [|now split]. destruct Hd as (t0 & letters & vs & -> & Hl & E0).
    apply (th_flag _ _ _ _ 0 t0 vs letters (Some vals) qo Hl). rewrite <- E0.
    exact (th_first _ _ _ _ true t us vals rest false qo (Hn t us eq_refl) Hc Ht).
  - destruct (programs_head _ _ _ Hp) as (t & us & ->). apply (progs_programs _ _ _ K) in Hp as (vals & Hc & ->).
    assert (K' := kept_counted _ _ _ _ Hc K).
    destruct (tail_three true rest' (kept_dry _ _ K' Hd) Hr) as (qo & Ht & E). exists vals, qo. rewrite E.
    split; [|now split]. apply (th_first _ _ _ _ false t us vals rest true qo (Hn t us eq_refl) Hc).
    destruct Hd as (t0 & letters & vs & -> & Hl & E0). apply (th_flag _ _ _ _ 1 t0 vs letters None qo Hl). now rewrite <- E0.
Qed.

Lemma launcher_values us vs : kept us ->
  (exists items, reading lau_mode [] us items /\ deliveries lau_mode (flat_map (assigned lau_mode) items) vs)
  <-> exists dry progs args, launch us dry progs args /\ vs = [VBool dry; VList (map VStr progs); VList (map VStr args)].
Proof.
  intros K. rewrite (launcher_means us vs K). split.
  - intros (fl & po & qo & v & w & Ht & -> & Hv & Hw).
    destruct po as [vals|]; [|exfalso; apply (proj1 Hv); left; cbn; tauto].
    exists fl, (map t_name vals), (map t_name (tail_of qo)). split; [now apply three_launch|].
    apply (strings_value lau_progs vals v eq_refl eq_refl eq_refl progs_plain) in Hv. subst v. rewrite !map_map.
    destruct qo as [ws|].
    + apply (strings_value lau_args ws w eq_refl eq_refl eq_refl args_plain) in Hw. subst w. reflexivity.
    + destruct Hw as [_ ->]. reflexivity.
  - intros (dry & progs & args & Hl & ->). destruct (launch_three us dry progs args K Hl) as (vals & qo & Ht & -> & ->).
    exists dry, (Some vals), qo, (VList (map VStr (map t_name vals))), (VList (map VStr (map t_name (tail_of qo)))).
    split; [exact Ht|]. split; [reflexivity|]. rewrite !map_map. split.
    + now apply (strings_value lau_progs vals _ eq_refl eq_refl eq_refl progs_plain).
    + destruct qo as [ws|].
      * now apply (strings_value lau_args ws _ eq_refl eq_refl eq_refl args_plain).
      * split; [|reflexivity]. no_mandatory.
Qed.

Lemma launcher_well_formed : well_formed launcher.
Proof. apply well_formed_b_spec. vm_compute. reflexivity. Qed.

Lemma named_word n long ch w : long_name n = Some long -> short_name n = Some [ch] -> none_name n = None -> [ch] <> b "-" ->
  match_node n (norm_token n (Tok PNone w)) = false <-> w <> b "--" ++ long /\ w <> b "-" ++ [ch].
Proof.
  intros Hl Hs Hn Hd. assert (M := names_match n long ch Hl Hs Hn Hd (Tok PNone w) ltac:(discriminate)).
  destruct (match_node n (norm_token n (Tok PNone w))).
  - split; [discriminate|]. intros [A B]. exfalso. destruct (proj1 M eq_refl) as [E|[E|[E _]]]; [|discriminate E|]; injection E as E; subst w; contradiction.
  - split; [|reflexivity]. intros _. split; intros ->; assert (X : false = true); try discriminate X; apply M; [now left|].
    right; right. split; [reflexivity|]. intros [r E]. apply Hd. injection E as E _. rewrite E. reflexivity.
Qed.

Lemma launcher_routes words n vs : in_memory words -> routes launcher (map (Tok PNone) words) n vs <->
  (words = [b "--version"] /\ n = lau_version /\ vs = [VBool true])
  \/ (forall w, nth_error words 0 = Some w -> ~ In w [b "--help"; b "-h"; b "--version"])
     /\ exists dry progs args, launch (map (Tok PNone) words) dry progs args
          /\ n = lau_mode /\ vs = [VBool dry; VList (map VStr progs); VList (map VStr args)].
Proof.
  intros Hw. assert (K := kept_words words Hw).
  assert (Hh : passed_over (map (Tok PNone) words) lau_help <->
               forall w, nth_error words 0 = Some w -> w <> b "--help" /\ w <> b "-h").
  { rewrite (simple_passed lau_help _ lau_help_simple eq_refl). split.
    - intros H w E. destruct words as [|w' words]; [discriminate E|]. injection E as ->.
      apply (named_word lau_help (b "help") "h"%char w eq_refl eq_refl eq_refl ltac:(discriminate)). exact (H _ _ eq_refl).
    - intros H t us E. destruct words as [|w words]; [discriminate E|]. injection E as <- _.
      apply (named_word lau_help (b "help") "h"%char w eq_refl eq_refl eq_refl ltac:(discriminate)). exact (H w eq_refl). }
  assert (Hv : passed_over (map (Tok PNone) words) lau_version <-> forall w, nth_error words 0 = Some w -> w <> b "--version").
  { rewrite (simple_passed lau_version _ lau_version_simple eq_refl). split.
    - intros H w E ->. destruct words as [|w' words]; [discriminate E|]. injection E as ->.
      specialize (H _ _ eq_refl). vm_compute in H. discriminate H.
    - intros H t us E. destruct words as [|w words]; [discriminate E|]. injection E as <- _.
      destruct (match_node lau_version (norm_token lau_version (Tok PNone w))) eqn:M; [|reflexivity].
      exfalso. apply (H w eq_refl). now apply (long_match lau_version (b "version") eq_refl eq_refl eq_refl). }
  split.
  - intros (before & c & after & E & Hb & Hm). destruct before as [|x1 before].
    { injection E as <- _. exfalso. inversion Hm as [m ps ts' items vs' Hmd|label vals v Hmd Hk]; [discriminate Hmd|now apply Hk]. }
    injection E as <- E. assert (P1 := proj1 Hh (Hb lau_help (or_introl eq_refl))). destruct before as [|x2 before].
    { injection E as <- _. left. inversion Hm as [m ps ts' items vs' Hmd|label vals v Hmd Hk Hch He Hc Hval]; [discriminate Hmd|]. subst.
      destruct words as [|w words].
      { exfalso. inversion Hc as [t value us t' us' vals' rest _ Hf|vals' rest Hx]; [inversion Hf|discriminate Hx]. }
      destruct (proj1 (simple_consumes lau_version _ _ vals [] lau_version_simple) (ex_intro _ label Hc)) as [M Hcnt].
      apply (long_match lau_version (b "version") eq_refl eq_refl eq_refl) in M. subst w.
      apply (all_counted_zero lau_version) in Hcnt; [|reflexivity..]. destruct Hcnt as [-> E]. destruct words; [|discriminate E].
      split; [reflexivity|]. split; [reflexivity|]. inversion Hval as [? _|? ? ? ? X|? X|? ? ? X]; subst; [reflexivity|discriminate X..]. }
    injection E as <- E. assert (P2 := proj1 Hv (Hb lau_version (or_intror (or_introl eq_refl)))). destruct before as [|x3 before].
    { injection E as <- _. right. split.
      - intros w Hw0 Hin. destruct Hin as [X|[X|[X|[]]]]; subst w; [now apply (proj1 (P1 _ Hw0))|now apply (proj2 (P1 _ Hw0))|now apply (P2 _ Hw0)].
      - inversion Hm as [m ps ts' items vs' Hmd Hs Hr Hrd Hd|label vals v Hmd]; [|discriminate Hmd]. subst.
        assert (n = lau_mode /\ ts' = map (Tok PNone) words) as [-> ->].
        { inversion Hs as [m0 ps0 ts0 Hx|m0 ps0 ts0 rest (_ & nm & Hx & _)|m0 ps0 ts0 rest bf d af m1 ps1 ts1 (_ & nm & Hx & _)]; subst; [now split|discriminate Hx..]. }
        destruct (proj1 (launcher_values _ vs K) (ex_intro _ items (conj Hrd Hd))) as (dry & progs & args & A & B).
        now exists dry, progs, args. }
    exfalso. injection E as _ E. now destruct before.
  - intros [(-> & -> & ->)|(Hn & dry & progs & args & Hl & -> & ->)].
    + exists [lau_help], lau_version, [lau_mode]. split; [reflexivity|]. split.
      * intros d [<-|[]]. apply Hh. intros w E. injection E as <-. split; discriminate.
      * destruct (proj2 (simple_consumes lau_version (Tok PNone (b "--version")) [] [] [] lau_version_simple)) as [label Hc].
        { split; [now apply (long_match lau_version (b "version") eq_refl eq_refl eq_refl)|]. now apply (all_counted_zero lau_version). }
        apply (means_argument launcher lau_version _ label [] (VBool true)); auto; try reflexivity; try discriminate.
        -- now apply simple_chokes, lau_version_simple.
        -- apply value_flag. now left.
    + exists [lau_help; lau_version], lau_mode, []. split; [reflexivity|]. split.
      * intros d [<-|[<-|[]]].
        -- apply Hh. intros w E. specialize (Hn w E). split; intros ->; apply Hn; cbn; tauto.
        -- apply Hv. intros w E ->. apply (Hn _ E). cbn; tauto.
      * destruct (proj2 (launcher_values _ [VBool dry; VList (map VStr progs); VList (map VStr args)] K)) as (items & Hr & Hd).
        { now exists dry, progs, args. }
        apply (means_mode launcher lau_mode _ lau_mode [launcher] (map (Tok PNone) words) items); auto. now constructor.
Qed.

(** ** just_cats *)

(** A node of the root with a name, which takes no values. *)
Lemma lone_consumes n s t us label vals : is_named n = true -> value_separator n = None ->
  token_end_marker n = None -> count_bounds n = Some (0%N, 0%N) -> long_name n = None -> short_name n = Some s -> none_name n = None ->
  s <> [] -> (forall r, s <> b "-" ++ r) ->
  t_prefix t = PNone -> consumes n (t :: us) label vals [] -> t = Tok PNone (b "-" ++ s) /\ us = [].
Proof.
  intros Hn Hsep Hm Hc Hl Hs Hx Hne Hd Ht H.
  inversion H as [t1 value us1 t' us' vals' rest' _ Hf Hg Hmt Hcn|]; subst; [|congruence].
  inversion Hf; subst; [|congruence]. apply (all_counted_zero n _ _ _ Hm Hc) in Hcn as [-> E]. cbn [app] in E. subst us'.
  unfold match_node, norm_token, node_get_token, get_token_type_for in Hmt. rewrite Hl, Hs, Hx in Hmt. cbn [is_some andb orb] in Hmt.
  inversion Hg as [t0 us0 Hno|t0 nm g gs us0 Hgr Hgs]; subst.
  - split; [|reflexivity]. rewrite Ht in Hmt. destruct t' as [p w]. cbn [t_prefix t_name] in *. subst p.
    destruct (starts_with short_prefix w) eqn:E; [|discriminate Hmt].
    destruct (starts_with long_prefix w) eqn:E'; [discriminate Hmt|]. cbn [andb negb t_prefix t_name prefix_eqb orb] in Hmt.
    rewrite orb_false_r in Hmt. apply beq_eq in Hmt. apply starts_with_app in E as [r ->]. rewrite skipn_app_len in Hmt. now subst r.
  - exfalso. match goal with E : _ ++ _ = [] |- _ => apply app_eq_nil in E as [E1 E2] end. destruct gs; [|discriminate E1].
    cbn [t_prefix prefix_eqb t_name andb] in Hmt. rewrite orb_false_r in Hmt. apply beq_eq in Hmt. subst g.
    apply graphemes_partition in Hgs as [Hcc _]. cbn [List.concat] in Hcc. rewrite app_nil_r in Hcc. subst nm.
    destruct Hgr as (_ & _ & Hlen). exact (Hlen s Hs eq_refl).
Qed.

Lemma lone_passed n s w : is_mode n = false -> enabled n -> value_separator n = None -> long_name n = None ->
  short_name n = Some s -> none_name n = None ->
  starts_with long_prefix w = true
  \/ (exists nm, w = b "-" ++ nm /\ starts_with long_prefix w = false /\ nm <> s /\ nm <> [] /\ graphemes nm = Some [nm]
        /\ (vec_max_size + 1 >= nlen nm)%N) ->
  passed_over [Tok PNone w] n.
Proof.
  intros Hmd He Hsep Hl Hs Hx Hw. unfold passed_over. rewrite Hmd.
  assert (Hfr : forall t value us, fronted n [Tok PNone w] t value us -> t = Tok PNone w /\ value = [] /\ us = []).
  { intros t value us H. inversion H; subst; [now repeat split|congruence]. }
  assert (Hgf : forall nm, group_for n (Tok PNone w) nm -> w = b "-" ++ nm /\ starts_with long_prefix w = false /\ List.length nm <> List.length s).
  { intros nm (_ & [[E _]|(_ & E1 & E2)] & E3); [discriminate E|]. split; [exact E1|]. split; [exact E2|exact (E3 s Hs)]. }
  split.
  - intros [(sep & t0 & us0 & l & c & x & H & _)|[(t0 & value & us0 & Hf & nm & Hg & Hb)|(H & _)]]; [congruence| |contradiction].
    apply Hfr in Hf as (-> & -> & ->). apply Hgf in Hg as (E1 & E2 & _).
    destruct Hw as [Hw|(nm' & Ew & Hw & _ & Hne & Hgr & Hsz)]; [congruence|].
    rewrite Ew in E1. apply app_inv_head in E1. subst nm'. destruct Hb as [Hb|[[_ Hb]|Hb]]; [congruence|contradiction|].
    change (nlen (@nil token)) with 0%N in Hb. lia.
  - right. intros [[_ [(t1 & value & us1 & t' & us' & Hf & Hg & Hm)|(sep & H)]]|[H _]].
    + apply Hfr in Hf as (-> & -> & ->).
      unfold match_node, norm_token, node_get_token, get_token_type_for in Hm. rewrite Hl, Hs, Hx in Hm. cbn [is_some andb orb] in Hm.
      inversion Hg as [t0 us0 Hno|t0 nm g gs us0 Hgr Hgs]; subst.
      * cbn [t_prefix t_name] in Hm. destruct (starts_with short_prefix w) eqn:E; [|discriminate Hm].
        destruct Hw as [Hw|(nm' & Ew & Hw & Hns & _)]; rewrite Hw in Hm; [discriminate Hm|].
        cbn [andb negb t_prefix t_name prefix_eqb orb] in Hm. rewrite orb_false_r in Hm. apply beq_eq in Hm. apply Hns.
        rewrite <- Hm, Ew. reflexivity.
      * cbn [t_prefix prefix_eqb t_name andb] in Hm. rewrite orb_false_r in Hm. apply beq_eq in Hm. subst g.
        apply Hgf in Hgr as (E1 & E2 & _). destruct Hw as [Hw|(nm' & Ew & Hw & Hns & _ & Hg' & _)]; [congruence|].
        rewrite Ew in E1. apply app_inv_head in E1. subst nm'. rewrite Hg' in Hgs. injection Hgs as E _. contradiction.
    + destruct H as (t1 & us1 & H & _). congruence.
    + unfold is_named in H. rewrite Hl, Hs in H. discriminate H.
Qed.

Lemma lone_taken n s : value_separator n = None -> token_end_marker n = None -> count_bounds n = Some (0%N, 0%N) ->
  long_name n = None -> short_name n = Some s -> none_name n = None -> (forall r, s <> b "-" ++ r) -> n_kind n = KFlag ->
  enabled n -> forall root, means root n [Tok PNone (b "-" ++ s)] n [VBool true].
Proof.
  intros Hsep Hm Hc Hl Hs Hx Hd Hk He root.
  assert (Hno : forall nm, ~ group_for n (Tok PNone (b "-" ++ s)) nm).
  { intros nm (_ & [[E _]|(_ & E1 & _)] & E3); [discriminate E|]. cbn [t_name] in E1. apply app_inv_head in E1. subst nm. exact (E3 s Hs eq_refl). }
  assert (Hlp : starts_with long_prefix (b "-" ++ s) = false).
  { destruct (starts_with long_prefix (b "-" ++ s)) eqn:E; [|reflexivity]. exfalso. apply starts_with_app in E as [r E].
    apply (Hd r). injection E as E. exact E. }
  assert (Hsp : starts_with short_prefix (b "-" ++ s) = true) by (apply starts_with_app; now exists s).
  apply (means_argument root n _ (Some (norm_token n (Tok PNone (b "-" ++ s)))) [] (VBool true)).
  - unfold is_mode. now rewrite Hk.
  - rewrite Hk. discriminate.
  - intros [(sep & t0 & us0 & l & c & x & H & _)|[(t0 & value & us0 & Hf & nm & Hg & Hb)|(H & _)]]; [congruence| |contradiction].
    inversion Hf; subst; [|congruence]. exact (Hno nm Hg).
  - exact He.
  - apply (consumes_named n _ (Tok PNone (b "-" ++ s)) [] [] (Tok PNone (b "-" ++ s)) []).
    + unfold is_named. rewrite Hl, Hs. reflexivity.
    + now constructor.
    + now constructor.
    + unfold match_node, norm_token, node_get_token, get_token_type_for. rewrite Hl, Hs, Hx. cbn [is_some andb orb t_prefix t_name].
      rewrite Hlp, Hsp. cbn [andb negb t_prefix t_name prefix_eqb orb]. rewrite orb_false_r. apply beq_eq. reflexivity.
    + now apply (all_counted_zero n).
  - apply value_flag. now left.
Qed.

Lemma cats_help_simple : simple_named cats_help. Proof. is_simple. Qed.
Lemma cats_cat_simple : simple_named cats_cat. Proof. is_simple. Qed.
Lemma cats_th_simple : simple_named cats_th. Proof. is_simple. Qed.
Lemma cats_uk_simple : simple_named cats_uk. Proof. is_simple. Qed.

Lemma long_taken n long : simple_named n -> long_name n = Some long -> short_name n = None -> none_name n = None ->
  token_end_marker n = None -> count_bounds n = Some (0%N, 0%N) -> n_kind n = KFlag ->
  forall root words vs m, means root n (map (Tok PNone) words) m vs <-> words = [b "--" ++ long] /\ m = n /\ vs = [VBool true].
Proof.
  intros Hn Hl Hs Hx Hm Hc Hk root words vs m. split.
  - intros H. inversion H as [m' ps ts' items vs' Hmd|label vals v Hmd _ Hch He Hcs Hval]; subst; [unfold is_mode in Hmd; rewrite Hk in Hmd; discriminate Hmd|].
    destruct words as [|w words].
    { exfalso. inversion Hcs as [t value us t' us' vals' rest _ Hf|vals' rest Hy Hz]; [inversion Hf|now apply Hz]. }
    destruct (proj1 (simple_consumes m _ _ vals [] Hn) (ex_intro _ label Hcs)) as [M Hcnt].
    apply (long_match m long Hl Hs Hx) in M. subst w. apply (all_counted_zero m _ _ _ Hm Hc) in Hcnt as [-> E]. destruct words; [|discriminate E].
    split; [reflexivity|]. split; [reflexivity|]. inversion Hval as [? _|? ? ? ? X|? X|? ? ? X]; subst; [reflexivity|congruence..].
  - intros (-> & -> & ->). destruct (proj2 (simple_consumes n (Tok PNone (b "--" ++ long)) [] [] [] Hn)) as [label Hcs].
    { split; [now apply (long_match n long Hl Hs Hx)|]. now apply (all_counted_zero n). }
    apply (means_argument root n _ label [] (VBool true)).
    + unfold is_mode. now rewrite Hk.
    + rewrite Hk. discriminate.
    + now apply simple_chokes.
    + exact (sn_enabled n Hn).
    + exact Hcs.
    + apply value_flag. now left.
Qed.

Lemma short_taken n s : value_separator n = None -> token_end_marker n = None -> count_bounds n = Some (0%N, 0%N) ->
  long_name n = None -> short_name n = Some s -> none_name n = None -> s <> [] -> (forall r, s <> b "-" ++ r) -> n_kind n = KFlag ->
  enabled n -> forall root words vs m,
  means root n (map (Tok PNone) words) m vs <-> words = [b "-" ++ s] /\ m = n /\ vs = [VBool true].
Proof.
  intros Hsep Hm Hc Hl Hs Hx Hne Hd Hk He root words vs m. split.
  - intros H. inversion H as [m' ps ts' items vs' Hmd|label vals v Hmd _ Hch _ Hcs Hval]; subst; [unfold is_mode in Hmd; rewrite Hk in Hmd; discriminate Hmd|].
    assert (Hn : is_named m = true) by (unfold is_named; rewrite Hl, Hs; reflexivity).
    destruct words as [|w words].
    { exfalso. inversion Hcs as [t value us t' us' vals' rest _ Hf|vals' rest Hy Hz]; [inversion Hf|now apply Hz]. }
    cbn [map] in Hcs. apply (lone_consumes m s (Tok PNone w) _ _ _ Hn Hsep Hm Hc Hl Hs Hx Hne Hd eq_refl) in Hcs as [E1 E2].
    injection E1 as ->. destruct words; [|discriminate E2].
    split; [reflexivity|]. split; [reflexivity|]. inversion Hval as [? _|? ? ? ? X|? X|? ? ? X]; subst; [reflexivity|congruence..].
  - intros (-> & -> & ->). now apply lone_taken.
Qed.

Lemma cats_routes words n vs : routes just_cats (map (Tok PNone) words) n vs <->
  vs = [VBool true] /\ exists w, words = [w] /\ In (w, n)
    [(b "--cat", cats_cat); (b "-" ++ cat_zh, cats_zh); (b "-" ++ cat_emoji, cats_emoji); (b "--" ++ cat_th, cats_th); (b "--" ++ cat_uk, cats_uk)].
Proof.
  assert (Ez : enabled cats_zh) by (unfold enabled; cbn; discriminate).
  assert (Ee : enabled cats_emoji) by (unfold enabled; cbn; discriminate).
  assert (Nz : forall r, cat_zh <> b "-" ++ r) by (intros r; discriminate).
  assert (Ne : forall r, cat_emoji <> b "-" ++ r) by (intros r; discriminate).
  assert (M1 := long_taken cats_cat (b "cat") cats_cat_simple eq_refl eq_refl eq_refl eq_refl eq_refl eq_refl just_cats words vs n).
  assert (M2 := short_taken cats_zh cat_zh eq_refl eq_refl eq_refl eq_refl eq_refl eq_refl ltac:(discriminate) Nz eq_refl Ez just_cats words vs n).
  assert (M3 := short_taken cats_emoji cat_emoji eq_refl eq_refl eq_refl eq_refl eq_refl eq_refl ltac:(discriminate) Ne eq_refl Ee just_cats words vs n).
  assert (M4 := long_taken cats_th cat_th cats_th_simple eq_refl eq_refl eq_refl eq_refl eq_refl eq_refl just_cats words vs n).
  assert (M5 := long_taken cats_uk cat_uk cats_uk_simple eq_refl eq_refl eq_refl eq_refl eq_refl eq_refl just_cats words vs n).
  split.
  - intros (before & c & after & E & _ & Hm). do 6 try (destruct before as [|? before]; [injection E as <- _|injection E as _ E]).
    + exfalso. inversion Hm as [m ps ts' items vs' Hmd|label vals v Hmd Hk]; [discriminate Hmd|now apply Hk].
    + apply M1 in Hm as (-> & -> & ->). split; [reflexivity|]. eexists. split; [reflexivity|]. now left.
    + apply M2 in Hm as (-> & -> & ->). split; [reflexivity|]. eexists. split; [reflexivity|]. now right; left.
    + apply M3 in Hm as (-> & -> & ->). split; [reflexivity|]. eexists. split; [reflexivity|]. now right; right; left.
    + apply M4 in Hm as (-> & -> & ->). split; [reflexivity|]. eexists. split; [reflexivity|]. now right; right; right; left.
    + apply M5 in Hm as (-> & -> & ->). split; [reflexivity|]. eexists. split; [reflexivity|]. now right; right; right; right; left.
    + exfalso. now destruct before.
  - intros (-> & w & -> & Hin).
    assert (PS : forall c x, simple_named c -> is_mode c = false -> match_node c (norm_token c (Tok PNone x)) = false -> passed_over [Tok PNone x] c).
    { intros c x Hc Hmd H. apply (simple_passed c _ Hc Hmd). intros t us E. now injection E as <- _. }
    assert (PZ : forall x, starts_with long_prefix x = true -> passed_over [Tok PNone x] cats_zh).
    { intros x Hx. apply (lone_passed cats_zh cat_zh x eq_refl Ez eq_refl eq_refl eq_refl eq_refl). now left. }
    assert (PE : forall x, starts_with long_prefix x = true -> passed_over [Tok PNone x] cats_emoji).
    { intros x Hx. apply (lone_passed cats_emoji cat_emoji x eq_refl Ee eq_refl eq_refl eq_refl eq_refl). now left. }
    assert (PZE : passed_over [Tok PNone (b "-" ++ cat_emoji)] cats_zh).
    { apply (lone_passed cats_zh cat_zh _ eq_refl Ez eq_refl eq_refl eq_refl eq_refl). right. exists cat_emoji.
      split; [reflexivity|]. split; [reflexivity|]. split; [discriminate|]. split; [discriminate|]. split; [vm_compute; reflexivity|]. vm_compute. discriminate. }
    repeat destruct Hin as [Hin|Hin]; try injection Hin as <- <-; [| | | | |destruct Hin].
    + exists [cats_help], cats_cat, [cats_zh; cats_emoji; cats_th; cats_uk]. split; [reflexivity|]. split; [|now apply M1].
      intros d [<-|[]]. apply (PS _ _ cats_help_simple); vm_compute; reflexivity.
    + exists [cats_help; cats_cat], cats_zh, [cats_emoji; cats_th; cats_uk]. split; [reflexivity|]. split; [|now apply M2].
      intros d [<-|[<-|[]]]; [apply (PS _ _ cats_help_simple)|apply (PS _ _ cats_cat_simple)]; vm_compute; reflexivity.
    + exists [cats_help; cats_cat; cats_zh], cats_emoji, [cats_th; cats_uk]. split; [reflexivity|]. split; [|now apply M3].
      intros d [<-|[<-|[<-|[]]]]; [apply (PS _ _ cats_help_simple); vm_compute; reflexivity|apply (PS _ _ cats_cat_simple); vm_compute; reflexivity|exact PZE].
    + exists [cats_help; cats_cat; cats_zh; cats_emoji], cats_th, [cats_uk]. split; [reflexivity|]. split; [|now apply M4].
      intros d [<-|[<-|[<-|[<-|[]]]]]; [apply (PS _ _ cats_help_simple); vm_compute; reflexivity|apply (PS _ _ cats_cat_simple); vm_compute; reflexivity
        |apply PZ; reflexivity|apply PE; reflexivity].
    + exists [cats_help; cats_cat; cats_zh; cats_emoji; cats_th], cats_uk, []. split; [reflexivity|]. split; [|now apply M5].
      intros d [<-|[<-|[<-|[<-|[<-|[]]]]]]; [apply (PS _ _ cats_help_simple); vm_compute; reflexivity|apply (PS _ _ cats_cat_simple); vm_compute; reflexivity
        |apply PZ; reflexivity|apply PE; reflexivity|apply (PS _ _ cats_th_simple); vm_compute; reflexivity].
Qed.

(** ** What the programs do *)
Lemma cat_all ends np len suffix : forall lines k lim, (k <= lim)%Z ->
  cat_lines ends np k lim len suffix lines
  = flat_map (written_line ends np) (flat_map (fitted len suffix) (firstn (Z.to_nat (lim - k)) lines)).
Proof.
  induction lines as [|l lines IH]; intros k lim H; [now rewrite firstn_nil|]. cbn [cat_lines].
  destruct (Z.eqb_spec k lim) as [->|Hn]; [now rewrite Z.sub_diag|].
  replace (Z.to_nat (lim - k)) with (S (Z.to_nat (lim - (k + 1)))) by lia. cbn [firstn flat_map]. rewrite flat_map_app.
  rewrite <- (IH (k + 1)%Z lim) by lia. unfold fitted, written_line. destruct len as [n|].
  - destruct (N.ltb_spec n (nlen l)) as [Hl|Hl].
    + destruct (N.leb_spec (nlen l) n); [lia|]. destruct suffix; cbn [flat_map app]; [|reflexivity]. now rewrite !app_nil_r, <- !app_assoc.
    + destruct (N.leb_spec (nlen l) n); [|lia]. cbn [flat_map]. now rewrite !app_nil_r, <- !app_assoc.
  - cbn [flat_map]. now rewrite !app_nil_r, <- !app_assoc.
Qed.
Lemma cat_free ends np len suffix : forall lines k lim, (lim < k)%Z ->
  cat_lines ends np k lim len suffix lines
  = flat_map (written_line ends np) (flat_map (fitted len suffix) lines).
Proof.
  induction lines as [|l lines IH]; intros k lim H; [reflexivity|]. cbn [cat_lines].
  destruct (Z.eqb_spec k lim) as [->|Hn]; [lia|].
  cbn [flat_map]. rewrite flat_map_app.
  rewrite <- (IH (k + 1)%Z lim) by lia. unfold fitted, written_line. destruct len as [n|].
  - destruct (N.ltb_spec n (nlen l)) as [Hl|Hl].
    + destruct (N.leb_spec (nlen l) n); [lia|]. destruct suffix; cbn [flat_map app]; [|reflexivity]. now rewrite !app_nil_r, <- !app_assoc.
    + destruct (N.leb_spec (nlen l) n); [|lia]. cbn [flat_map]. now rewrite !app_nil_r, <- !app_assoc.
  - cbn [flat_map]. now rewrite !app_nil_r, <- !app_assoc.
Qed.
Lemma cat_output ends np len suffix lines limit :
  cat_lines ends np 0 limit len suffix lines
  = flat_map (written_line ends np) (flat_map (fitted len suffix) (first_lines limit lines)).
Proof.
  unfold first_lines. destruct (Z.ltb_spec limit 0); [now apply cat_free|]. rewrite cat_all by lia. now rewrite Z.sub_0_r.
Qed.
Lemma notation_shown s : (forall c, In c s -> (N_of_ascii c <= 190)%N /\ N_of_ascii c <> 127%N) -> Forall shown_byte (m_notation s).
Proof.
  intros H. apply Forall_forall. intros x Hx. apply in_flat_map in Hx as (c & Hc & Hx). destruct (H c Hc) as [H1 H2]. clear H Hc.
  assert (G : forallb (fun k => let c := ascii_of_N k in
     negb (N.leb (N_of_ascii c) 190 && negb (N.eqb (N_of_ascii c) 127)) ||
     forallb (fun x => (N.leb 32 (N_of_ascii x) && N.leb (N_of_ascii x) 126) || N.eqb (N_of_ascii x) 9 || N.eqb (N_of_ascii x) 10) (m_char c)) (map N.of_nat (seq 0 256)) = true) by (vm_compute; reflexivity).
  rewrite forallb_forall in G. specialize (G (N_of_ascii c)).
  assert (I : In (N_of_ascii c) (map N.of_nat (seq 0 256))).
  { apply in_map_iff. exists (N.to_nat (N_of_ascii c)). split; [now rewrite N2Nat.id|]. apply in_seq. pose proof (N_ascii_bounded c). lia. }
  specialize (G I). cbv zeta in G. rewrite ascii_N_embedding in G.
  apply orb_true_iff in G as [G|G].
  - apply negb_true_iff, andb_false_iff in G as [G|G]; [apply N.leb_gt in G; lia|]. apply negb_false_iff, N.eqb_eq in G. contradiction.
  - rewrite forallb_forall in G. specialize (G x Hx). unfold shown_byte.
    apply orb_true_iff in G as [G|G]; [|right; right; now apply N.eqb_eq].
    apply orb_true_iff in G as [G|G]; [|right; left; now apply N.eqb_eq].
    apply andb_true_iff in G as [A B]. apply N.leb_le in A. apply N.leb_le in B. lia.
Qed.
Lemma exit_code_max codes : forall r, (r <= exit_code r codes)%Z /\ (forall c, In c codes -> (c <= exit_code r codes)%Z)
  /\ (exit_code r codes = r \/ In (exit_code r codes) codes).
Proof.
  induction codes as [|c codes IH]; intros r; cbn [exit_code].
  - split; [lia|]. split; [intros c []|now left].
  - destruct (IH (if Z.ltb r c then c else r)) as (A & B & C). destruct (Z.ltb_spec r c).
    + split; [lia|]. split; [intros x [<-|Hx]; [exact A|now apply B]|right]. destruct C as [->|C]; [now left|now right].
    + split; [lia|]. split; [intros x [<-|Hx]; [lia|now apply B]|]. destruct C as [C|C]; [now left|right; now right].
Qed.

Lemma set_same f p c : file_set f p c p = c.
Proof. unfold file_set. now rewrite beq_refl. Qed.
Lemma set_other f p c q : q <> p -> file_set f p c q = f q.
Proof. intros H. unfold file_set. destruct (beq q p) eqn:E; [|reflexivity]. apply beq_eq in E. contradiction. Qed.

Lemma move_moves force dst src f c : f src = Some c -> src <> dst -> force = false \/ f dst = None ->
  snd (move_mode force dst src f) = true /\ moved f src dst (fst (move_mode force dst src f)).
Proof.
  intros Hs Hn H. unfold move_mode.
  assert (E : force && is_some (f dst) = false) by (destruct H as [->| ->]; [reflexivity|now rewrite andb_false_r]).
  rewrite E. unfold fs_rename. rewrite Hs. destruct (beq src dst) eqn:B; [apply beq_eq in B; contradiction|].
  cbn [fst snd]. split; [reflexivity|]. split; [now rewrite set_same|]. split.
  - rewrite set_other by exact Hn. apply set_same.
  - intros q Hq Hq'. now rewrite !set_other.
Qed.
Lemma move_loses dst src f d : f dst = Some d -> src <> dst ->
  snd (move_mode true dst src f) = false /\ fst (move_mode true dst src f) src = None
  /\ forall q, q <> src -> fst (move_mode true dst src f) q = f q.
Proof.
  intros Hd Hn. unfold move_mode. rewrite Hd. cbn [andb is_some]. unfold fs_rename, fs_remove. rewrite set_same. cbn [fst snd].
  split; [reflexivity|]. split; [apply set_same|]. intros q Hq. now apply set_other.
Qed.
Lemma copy_keeps force dst srcs : forall f q, q <> dst -> fst (copy_mode force dst srcs f) q = f q.
Proof.
  induction srcs as [|s srcs IH]; intros f q Hq; [reflexivity|]. cbn [copy_mode].
  destruct (fs_copy force f s dst) as [f'|] eqn:E; [|reflexivity]. rewrite (IH f' q Hq). unfold fs_copy in E.
  destruct (f s) as [c|]; [|discriminate E]. destruct (beq s dst); [discriminate E|].
  destruct (f dst); [destruct force; [|discriminate E]|]; injection E as <-; now apply set_other.
Qed.
Lemma copy_last force dst srcs : forall f, snd (copy_mode force dst srcs f) = true -> srcs <> [] ->
  ~ In dst srcs /\ (forall s, In s srcs -> f s <> None) /\ fst (copy_mode force dst srcs f) dst = f (last srcs dst)
  /\ (force = false -> List.length srcs = 1 /\ f dst = None).
Proof.
  induction srcs as [|s srcs IH]; intros f H Hn; [contradiction|]. clear Hn. cbn [copy_mode] in *.
  destruct (fs_copy force f s dst) as [f'|] eqn:E; [|discriminate H]. unfold fs_copy in E.
  destruct (f s) as [c|] eqn:Es; [|discriminate E]. destruct (beq s dst) eqn:B; [discriminate E|].
  assert (Hsd : s <> dst) by (intros ->; rewrite beq_refl in B; discriminate B).
  assert (Hf : f' = file_set f dst (Some c) /\ (force = false -> f dst = None)).
  { destruct (f dst); [destruct force; [|discriminate E]|]; injection E as <-; split; auto; discriminate. }
  destruct Hf as [-> Hfo]. destruct srcs as [|s2 srcs].
  - cbn [copy_mode fst snd last] in *. split; [intros [X|[]]; contradiction|]. split; [intros x [<-|[]]; congruence|].
    split; [now rewrite set_same|]. intros X. split; [reflexivity|now apply Hfo].
  - destruct (IH _ H ltac:(discriminate)) as (A & A2 & A3 & A4). split; [intros [X|X]; [contradiction|now apply A]|]. split.
    + intros x [<-|Hx]; [congruence|]. specialize (A2 x Hx). rewrite set_other in A2; [exact A2|]. intros ->. now apply A.
    + split.
      * rewrite A3. cbn [last]. apply set_other. intros X. apply A. rewrite <- X at 1.
        change (In (last (s2 :: srcs) dst) (s2 :: srcs)). clear. generalize dst. intros d. revert s2.
        induction srcs as [|x xs IH]; intros s2; [now left|]. right. apply IH.
      * intros X. destruct (A4 X) as [_ Y]. rewrite set_same in Y. discriminate Y.
Qed.

(** ** runtime_node_enable *)

Lemma reading_items m done ts items : reading m done ts items ->
  forall it, In it items -> In (i_node it) (map snd (entries m)) /\ enabled (i_node it)
    /\ exists ts' rest, consumes (i_node it) ts' (i_label it) (i_values it) rest.
Proof.
  induction 1 as [|done ts before i l after label vals rest items He Hb Hck Hen Hc Ha Hd _ IH]; intros it Hin; [destruct Hin|].
  destruct Hin as [<-|Hin]; [|exact (IH it Hin)]. cbn [i_node i_label i_values]. split.
  - rewrite He, map_app. apply in_or_app. right. now left.
  - split; [exact Hen|]. now exists ts, rest.
Qed.

Section Runtime.
Variables (int_t : vtype) (advanced : bool).
Let m := rne_mode advanced.
Let lic := rne_licensed advanced.

Lemma rne_well_formed : well_formed (runtime_node_enable int_t advanced).
Proof using. apply well_formed_b_spec. destruct advanced; vm_compute; reflexivity. Qed.

Lemma rne_assignments done ts items : reading m done ts items ->
  forall a, In a (flat_map (assigned m) items) -> exists it, In it items /\ i_node it = fst a /\ i_values it = snd a /\ In (fst a) [rne_foo; rne_bar; lic].
Proof using.
  intros H a Ha. apply in_flat_map in Ha as (it & Hit & Ha). exists it. split; [exact Hit|].
  destruct (reading_items m done ts items H it Hit) as (Hin & _).
  change (map snd (entries m)) with [rne_foo; rne_bar; lic] in Hin. unfold assigned, stands_for in Ha.
  assert (E : alias_of (i_node it) = None) by (destruct Hin as [<-|[<-|[<-|[]]]]; reflexivity).
  rewrite E in Ha. cbn [map] in Ha. destruct Ha as [<-|[]]. cbn [fst snd]. now repeat split.
Qed.

Lemma once_gathered asg v : (forall a, In a asg -> multi_stage (fst a) = None) -> gathered None asg (Some v) ->
  exists l vals, asg = [(l, vals)] /\ value_of l vals v.
Proof using.
  intros Hb Hg. inversion Hg as [|o l vals v1 merge more r Hv Hms|l vals v1 more r Hv Hms Hg']; subst.
  - specialize (Hb _ (or_introl eq_refl)). cbn [fst] in Hb. congruence.
  - exists l, vals. inversion Hg' as [|o l' vals' v2 merge more' r' Hv' Hms'|]; subst; [now split|].
    specialize (Hb (l', vals') (or_intror (or_introl eq_refl))). cbn [fst] in Hb. congruence.
Qed.

Lemma flag_delivered f asg v : n_kind f = KFlag -> multi_stage f = None -> default_values f = [VBool false] ->
  (forall a, In a (for_child f asg) -> fst a = f) -> delivered f asg v -> exists x, v = VBool x.
Proof using.
  intros Hk Hs Hd Hb H. inversion H as [v' Hg Hr|v' Hn Hm E Hr]; subst.
  - apply once_gathered in Hg as (l & vals & E & Hv); [|intros a Ha; now rewrite (Hb a Ha)].
    assert (El : l = f) by (apply (Hb (l, vals)); rewrite E; now left). subst l.
    exists true. inversion Hv; subst; [reflexivity|congruence..].
  - rewrite Hd. cbn. now exists false.
Qed.

Lemma rne_values ts items vs : reading m [] ts items -> deliveries m (flat_map (assigned m) items) vs ->
  exists foo bar s, vs = [VBool foo; VBool bar; VStr s]
    /\ (advanced = false -> s = [])
    /\ (advanced = true -> exists it t, In it items /\ i_node it = lic /\ i_values it = [t] /\ t_name t = s).
Proof using.
  intros Hr [_ Hd]. set (asg := flat_map (assigned m) items) in *.
  assert (Hasg : forall a, In a asg -> exists it, In it items /\ i_node it = fst a /\ i_values it = snd a /\ In (fst a) [rne_foo; rne_bar; lic]).
  { exact (rne_assignments [] ts items Hr). }
  assert (Hc : forall c, In c [rne_foo; rne_bar; lic] -> forall a, In a (for_child c asg) -> fst a = c).
  { intros c Hc a Ha. apply filter_In in Ha as [Ha Hb]. destruct (Hasg a Ha) as (_ & _ & _ & _ & Hin).
    destruct Hc as [<-|[<-|[<-|[]]]]; destruct Hin as [E|[E|[E|[]]]]; rewrite <- E in Hb |- *; try reflexivity; discriminate Hb. }
  change (router_children m) with [rne_foo; rne_bar; lic] in Hd.
  inversion Hd as [|? x ? l1 H1 H2]; subst. inversion H2 as [|? y ? l2 H3 H4]; subst. inversion H4 as [|? z ? l3 H5 H6]; subst. inversion H6; subst.
  destruct (flag_delivered rne_foo asg x eq_refl eq_refl eq_refl (Hc _ ltac:(now left)) H1) as [foo ->].
  destruct (flag_delivered rne_bar asg y eq_refl eq_refl eq_refl (Hc _ ltac:(now right; left)) H3) as [bar ->].
  exists foo, bar. assert (Hl := Hc lic ltac:(now right; right; left)).
  inversion H5 as [v' Hg Hrp|v' Hn Hm E Hrg]; subst.
  - apply once_gathered in Hg as (l & vals & E & Hv); [|intros a Ha; now rewrite (Hl a Ha)].
    assert (El : l = lic) by (apply (Hl (l, vals)); rewrite E; now left). subst l.
    assert (Ha : In (lic, vals) asg) by (apply (filter_In (fun a => belongs lic (fst a))); fold (for_child lic asg); rewrite E; now left).
    destruct (Hasg _ Ha) as (it & Hit & En & Ev & _). cbn [fst snd] in En, Ev.
    destruct (reading_items m [] ts items Hr it Hit) as (_ & Hen & ts' & rest & Hcs). rewrite En in Hen, Hcs.
    assert (advanced = true) as Hadv.
    { destruct advanced; [reflexivity|]. exfalso. apply Hen. reflexivity. }
    assert (Hone : exists t, vals = [t]).
    { rewrite Ev in Hcs. assert (Hsn : simple_named lic).
      { constructor; [reflexivity|reflexivity|exact Hen|]. unfold lic. membership. }
      destruct ts' as [|t0 us0].
      { exfalso. inversion Hcs as [t value us t' us' vals' rest' _ Hf|vals' rest' Hy Hz]; [inversion Hf|now apply Hz]. }
      destruct (proj1 (simple_consumes lic t0 us0 vals rest Hsn) (ex_intro _ _ Hcs)) as [_ Hcn].
      apply (one_counted lic us0 vals rest eq_refl eq_refl) in Hcn as (t & _ & ->). now exists t. }
    destruct Hone as [t ->]. clear E Ha.
    assert (z = VStr (t_name t)) as ->.
    { remember [t] as vals eqn:Et. destruct Hv as [vals X|c t1 more v1 X Y Z|c X Y|c more vs1 X Y]; [destruct X; discriminate| |discriminate Et|discriminate Y].
      injection Et as -> _. unfold reads_as in Z. cbn in Z. now injection Z as <-. }
    exists (t_name t). split; [reflexivity|]. split; [congruence|]. intros _. now exists it, t.
  - exists []. split; [|split; [reflexivity|]].
    + unfold lic. destruct advanced; reflexivity.
    + intros Ha. exfalso. apply Hm. right. exists (VStr []). unfold lic. rewrite Ha. cbn. tauto.
Qed.

Lemma rne_routes words n vs : routes (runtime_node_enable int_t advanced) (map (Tok PNone) words) n vs ->
  n = rne_version /\ words = [b "--version"] /\ vs = [VBool true]
  \/ n = rne_advanced int_t advanced /\ advanced = true /\ nth_error words 0 = Some (b "advanced")
  \/ n = m /\ exists items foo bar s, reading m [] (map (Tok PNone) words) items /\ vs = [VBool foo; VBool bar; VStr s]
       /\ (advanced = false -> s = [])
       /\ (advanced = true -> exists it t, In it items /\ i_node it = lic /\ i_values it = [t] /\ t_name t = s).
Proof using.
  intros (before & c & after & E & _ & Hm). do 4 try (destruct before as [|? before]; [injection E as <- _|injection E as _ E]).
  - exfalso. inversion Hm as [m0 ps ts' items vs' Hmd|label vals v Hmd Hk]; [discriminate Hmd|now apply Hk].
  - left. assert (Hs : simple_named rne_version) by is_simple.
    apply (long_taken rne_version (b "version") Hs eq_refl eq_refl eq_refl eq_refl eq_refl eq_refl) in Hm as (-> & -> & ->). now repeat split.
  - right; left. inversion Hm as [m0 ps ts' items vs' Hmd Hs Hr Hrd Hd|label vals v Hmd]; [|discriminate Hmd]. subst.
    assert (Hn : forall rest, names_mode (rne_advanced int_t advanced) (map (Tok PNone) words) rest -> advanced = true /\ nth_error words 0 = Some (b "advanced")).
    { intros rest (He & nm & X & Y). injection X as <-. destruct words as [|w words]; [discriminate Y|]. injection Y as -> _.
      split; [|reflexivity]. destruct advanced; [reflexivity|]. exfalso. apply He. reflexivity. }
    inversion Hs as [m0 ps0 ts0 Hx|m0 ps0 ts0 rest Hx|m0 ps0 ts0 rest bf d af m1 ps1 ts1 Hx Hch Hmd1]; subst.
    + discriminate Hx.
    + split; [reflexivity|exact (Hn _ Hx)].
    + exfalso. change (n_children (rne_advanced int_t advanced)) with [rne_feature1; rne_feature2 int_t] in Hch.
      assert (Hin : In d [rne_feature1; rne_feature2 int_t]) by (rewrite Hch; apply in_or_app; right; now left).
      destruct Hin as [<-|[<-|[]]]; discriminate Hmd1.
  - right; right. inversion Hm as [m0 ps ts' items vs' Hmd Hs Hr Hrd Hd|label vals v Hmd]; [|discriminate Hmd]. subst.
    assert (n = m /\ ts' = map (Tok PNone) words) as [-> ->].
    { inversion Hs as [m0 ps0 ts0 Hx|m0 ps0 ts0 rest (_ & nm & Hx & _)|m0 ps0 ts0 rest bf d af m1 ps1 ts1 (_ & nm & Hx & _)]; subst; [now split|discriminate Hx..]. }
    split; [reflexivity|]. destruct (rne_values _ items vs Hrd Hd) as (foo & bar & s & H). exists items, foo, bar, s. split; [exact Hrd|exact H].
  - exfalso. now destruct before.
Qed.
End Runtime.

(** ** basic_cat *)

Lemma word_norm n w : starts_with short_prefix w = false -> norm_token n (Tok PNone w) = Tok PNone w.
Proof.
  intros H. unfold norm_token, node_get_token, get_token_type_for. cbn [t_prefix t_name].
  assert (E : starts_with long_prefix w = false).
  { destruct (starts_with long_prefix w) eqn:E; [|reflexivity]. apply starts_with_app in E as [r ->].
    assert (X : starts_with short_prefix (long_prefix ++ r) = true) by (apply starts_with_app; now exists (b "-" ++ r)). congruence. }
  rewrite H, E, !andb_false_r. reflexivity.
Qed.

Lemma word_unmatched n w : starts_with short_prefix w = false -> none_name n = None ->
  match_node n (norm_token n (Tok PNone w)) = false.
Proof.
  intros H Hn. rewrite (word_norm n w H). unfold match_node. rewrite Hn. cbn [t_prefix t_name prefix_eqb andb].
  destruct (long_name n), (short_name n); reflexivity.
Qed.

(** A word without a hyphen in front is for no named argument. *)
Lemma word_passes m done n i w us : is_named n = true -> none_name n = None -> enabled n ->
  (value_separator n = None \/ exists c, value_separator n = Some [c]) -> starts_with short_prefix w = false ->
  passes m done (Tok PNone w :: us) i n.
Proof.
  intros Hn Hx He Hs Hw.
  assert (Hfr : forall t value vs, fronted n (Tok PNone w :: us) t value vs -> exists w', t = Tok PNone w' /\ starts_with short_prefix w' = false).
  { intros t value vs H. inversion H as [t0 us0 Hsep|sep p l c s v us0 Hsep Hin Hlen Hc Hv]; subst; [now exists w|].
    exists l. split; [reflexivity|]. destruct (starts_with short_prefix l) eqn:E; [|reflexivity].
    apply starts_with_app in E as [r ->]. rewrite <- app_assoc in Hw.
    rewrite <- Hw. symmetry. apply starts_with_app. eexists. reflexivity. }
  assert (Hgf : forall w' nm, starts_with short_prefix w' = false -> ~ group_for n (Tok PNone w') nm).
  { intros w' nm Hw' (_ & [[E _]|(_ & E & _)] & _); [discriminate E|]. cbn [t_name] in E. subst w'.
    assert (X : starts_with short_prefix (short_prefix ++ nm) = true) by (apply starts_with_app; now exists nm). congruence. }
  split.
  - intros [(sep & t0 & us0 & l & c & s & H & _ & _ & _ & _ & Hlen)|[(t0 & value & us0 & Hf & nm & Hg & Hb)|(H & _)]]; [| |contradiction].
    + destruct Hs as [Hs|[x Hs]]; rewrite Hs in H; [discriminate H|]. injection H as <-. cbn [List.length] in Hlen. lia.
    + destruct (Hfr _ _ _ Hf) as (w' & -> & Hw'). exact (Hgf w' nm Hw' Hg).
  - right; left. intros [[_ [(t1 & value & us1 & t' & us' & Hf & Hg & Hm)|(sep & t1 & us1 & _ & E & _ & _ & Hm)]]|[H _]]; [| |congruence].
    + destruct (Hfr _ _ _ Hf) as (w' & -> & Hw'). inversion Hg as [t0 us0 Hno|t0 nm g gs us0 Hgr Hgs]; subst.
      * rewrite (word_unmatched n w' Hw' Hx) in Hm. discriminate Hm.
      * exact (Hgf w' nm Hw' Hgr).
    + injection E as <- <-. rewrite (word_unmatched n w Hw Hx) in Hm. discriminate Hm.
Qed.

Section Cat.
Variables (int_t length_t : vtype) (no_length : value).
Let m := bc_mode int_t length_t no_length.
Let bc := basic_cat int_t length_t no_length.

Lemma cat_well_formed : well_formed bc.
Proof using. apply well_formed_b_spec. vm_compute. reflexivity. Qed.

Lemma files_plain : plain bc_files. Proof using. is_plain. Qed.
Lemma files_positional : positional bc_files. Proof using. is_positional. Qed.

Lemma cat_entries : entries m =
  [(0, bc_all); (1, bc_ends); (2, bc_nonprinting); (3, bc_lines int_t); (4, bc_length length_t no_length); (5, bc_skip); (5, bc_suffix);
   (6, bc_theme); (7, bc_v); (7, bc_verbose); (8, bc_files)].
Proof using. reflexivity. Qed.

Lemma files_read done w us : ~ used done 8 -> starts_with short_prefix w = false -> kept (Tok PNone w :: us) ->
  exists label, reading m done (Tok PNone w :: us) [Item bc_files label (Tok PNone w :: us)].
Proof using.
  intros Hu Hw K.
  assert (Hc : counted bc_files (Tok PNone w :: us) (Tok PNone w :: us) []).
  { apply (all_counted bc_files 1 _ _ _ eq_refl eq_refl K). repeat split. unfold nlen. cbn [List.length]. lia. }
  destruct (proj2 (positional_consumes bc_files (Tok PNone w :: us) (Tok PNone w :: us) [] files_positional)) as [label Hcs]; [split; [discriminate|exact Hc]|].
  exists label.
  apply (reading_cons m done _ [(0, bc_all); (1, bc_ends); (2, bc_nonprinting); (3, bc_lines int_t); (4, bc_length length_t no_length); (5, bc_skip); (5, bc_suffix);
   (6, bc_theme); (7, bc_v); (7, bc_verbose)] 8 bc_files [] label (Tok PNone w :: us) [] [] cat_entries).
  - intros j k Hin.
    repeat (destruct Hin as [E|Hin]; [injection E as <- <-; apply word_passes; [reflexivity|reflexivity|unfold enabled; cbn; discriminate|first [left; reflexivity|right; eexists; reflexivity]|exact Hw]|]).
    destruct Hin.
  - apply positional_chokes, files_positional.
  - exact (po_enabled _ files_positional).
  - exact Hcs.
  - split; [now right|]. intros [(c & inst & X & Y) _]. change (nth_error (n_children m) 8) with (Some bc_files) in X. injection X as <-. discriminate Y.
  - intros ns d Hin. now apply (pl_dep _ files_plain) in Hin.
  - constructor.
Qed.
End Cat.

(** ** The theorems *)

Lemma cats_well_formed : well_formed just_cats.
Proof. apply well_formed_b_spec. vm_compute. reflexivity. Qed.

Lemma simple_calls words n vs : in_memory words ->
  calls_router simple [] (map (Tok PNone) words) n vs <->
  (exists rest force dst srcs, words = b "copy" :: rest /\ srcs <> []
     /\ files_of (b "force") true 0 (map (Tok PNone) rest) force (dst :: srcs)
     /\ n = sim_copy /\ vs = [VBool force; VStr dst; VList (map VStr srcs)])
  \/ (exists rest force dst src, words = b "move" :: rest
     /\ files_of (b "force") false 0 (map (Tok PNone) rest) force [dst; src]
     /\ n = sim_move /\ vs = [VBool force; VStr dst; VStr src]).
Proof.
  intros Hm. rewrite (fresh_routes _ _ _ n vs (example_fresh simple words simple_well_formed simple_top Hm)).
  rewrite (simple_routes _ n vs (kept_words words Hm)). split.
  - intros [(us & force & dst & srcs & E & H)|(us & force & dst & src & E & H)]; destruct words as [|w rest]; try discriminate E; injection E as -> <-.
    + left. exists rest, force, dst, srcs. split; [reflexivity|exact H].
    + right. exists rest, force, dst, src. split; [reflexivity|exact H].
  - intros [(rest & force & dst & srcs & -> & H)|(rest & force & dst & src & -> & H)].
    + left. exists (map (Tok PNone) rest), force, dst, srcs. split; [reflexivity|exact H].
    + right. exists (map (Tok PNone) rest), force, dst, src. split; [reflexivity|exact H].
Qed.

Lemma word_ordinary long short w us : starts_with (b "-") w = false -> ordinary long short (Tok PNone w) us.
Proof.
  intros Hw. assert (Hd : forall nm, ~ dashed (Tok PNone w) nm).
  { intros nm [E|[E _]]; [discriminate E|]. assert (Ew : w = b "-" ++ nm) by exact (f_equal t_name E). rewrite Ew in Hw. discriminate Hw. }
  split.
  - intros letters [[E _]|(nm & H & _)]; [|exact (Hd nm H)]. assert (Ew : w = b "--" ++ long) by exact (f_equal t_name E). rewrite Ew in Hw. discriminate Hw.
  - intros (nm & H & _). exact (Hd nm H).
Qed.

Lemma picks_short long ch : graphemes [ch] = Some [[ch]] -> [ch] <> b "-" -> picks long [ch] (Tok PNone (b "-" ++ [ch])) [].
Proof.
  intros Hg Hd. right. exists [ch]. split; [right|exact Hg]. split; [reflexivity|]. intros [r E]. apply Hd. injection E as E _. now rewrite E.
Qed.

Lemma in_memory_incl x y : (nlen (List.concat x) + nlen x <= nlen (List.concat y) + nlen y)%N -> in_memory y -> in_memory x.
Proof. exact (N.le_trans _ _ _). Qed.

Lemma simple_names dst src srcs : starts_with (b "-") dst = false -> starts_with (b "-") src = false ->
  (in_memory (b "move" :: b "--force" :: dst :: [src]) ->
     calls_router simple [] (map (Tok PNone) [b "move"; dst; src]) sim_move [VBool false; VStr dst; VStr src]
     /\ calls_router simple [] (map (Tok PNone) [b "move"; b "-f"; dst; src]) sim_move [VBool true; VStr dst; VStr src]
     /\ calls_router simple [] (map (Tok PNone) [b "move"; b "--force"; dst; src]) sim_move [VBool true; VStr dst; VStr src])
  /\ (in_memory (b "copy" :: b "--force" :: dst :: src :: srcs) ->
     calls_router simple [] (map (Tok PNone) (b "copy" :: dst :: src :: srcs)) sim_copy
       [VBool false; VStr dst; VList (map VStr (src :: srcs))]
     /\ calls_router simple [] (map (Tok PNone) (b "copy" :: b "-f" :: dst :: src :: srcs)) sim_copy
       [VBool true; VStr dst; VList (map VStr (src :: srcs))]
     /\ calls_router simple [] (map (Tok PNone) (b "copy" :: b "--force" :: dst :: src :: srcs)) sim_copy
       [VBool true; VStr dst; VList (map VStr (src :: srcs))]).
Proof.
  intros Hd Hs.
  assert (PF : picks (b "force") (b "f") (Tok PNone (b "-f")) []).
  { apply (picks_short (b "force") "f"%char); [vm_compute; reflexivity|discriminate]. }
  assert (PL : picks (b "force") (b "f") (Tok PNone (b "--force")) []) by (left; split; reflexivity).
  assert (Fm : files_of (b "force") false 0 (map (Tok PNone) [dst; src]) false [dst; src]).
  { cbn [map]. apply (files_one (b "force") false 0 (Tok PNone dst)); [now apply word_ordinary|discriminate|].
    apply (files_one (b "force") false 1 (Tok PNone src)); [now apply word_ordinary|discriminate|constructor]. }
  assert (Fc : files_of (b "force") true 0 (map (Tok PNone) (dst :: src :: srcs)) false (dst :: src :: srcs)).
  { cbn [map]. apply (files_one (b "force") true 0 (Tok PNone dst)); [now apply word_ordinary|discriminate|].
    assert (E : src :: srcs = map t_name (Tok PNone src :: map (Tok PNone) srcs)) by (cbn [map t_name]; rewrite map_map, map_id; reflexivity).
    rewrite E. apply (files_rest (b "force") true (Tok PNone src) (map (Tok PNone) srcs)); [now apply word_ordinary|reflexivity]. }
  split; intros Hm.
  - assert (M1 : in_memory [b "move"; dst; src]).
    { apply (in_memory_incl _ _) with (2 := Hm). unfold nlen. cbn [List.concat List.length b list_ascii_of_string]. rewrite !app_length. cbn [List.length]. lia. }
    assert (M2 : in_memory [b "move"; b "-f"; dst; src]).
    { apply (in_memory_incl _ _) with (2 := Hm). unfold nlen. cbn [List.concat List.length b list_ascii_of_string]. rewrite !app_length. cbn [List.length]. lia. }
    split; [|split].
    + refine (proj2 (simple_calls _ _ _ M1) _). right. exists [dst; src], false, dst, src. repeat split. exact Fm.
    + refine (proj2 (simple_calls _ _ _ M2) _). right. exists [b "-f"; dst; src], true, dst, src. repeat split. exact (files_force (b "force") false 0 _ [] _ _ PF Fm).
    + refine (proj2 (simple_calls _ _ _ Hm) _). right. exists [b "--force"; dst; src], true, dst, src. repeat split. exact (files_force (b "force") false 0 _ [] _ _ PL Fm).
  - assert (M1 : in_memory (b "copy" :: dst :: src :: srcs)).
    { apply (in_memory_incl _ _) with (2 := Hm). unfold nlen. cbn [List.concat List.length b list_ascii_of_string]. rewrite !app_length. cbn [List.length]. lia. }
    assert (M2 : in_memory (b "copy" :: b "-f" :: dst :: src :: srcs)).
    { apply (in_memory_incl _ _) with (2 := Hm). unfold nlen. cbn [List.concat List.length b list_ascii_of_string]. rewrite !app_length. cbn [List.length]. lia. }
    split; [|split].
    + refine (proj2 (simple_calls _ _ _ M1) _). left. exists (dst :: src :: srcs), false, dst, (src :: srcs). repeat split; [discriminate|exact Fc].
    + refine (proj2 (simple_calls _ _ _ M2) _). left. exists (b "-f" :: dst :: src :: srcs), true, dst, (src :: srcs). repeat split; [discriminate|]. exact (files_force (b "force") true 0 _ [] _ _ PF Fc).
    + refine (proj2 (simple_calls _ _ _ Hm) _). left. exists (b "--force" :: dst :: src :: srcs), true, dst, (src :: srcs). repeat split; [discriminate|]. exact (files_force (b "force") true 0 _ [] _ _ PL Fc).
Qed.

Lemma simple_example :
  in_memory [b "copy"; b "-fab"; b "src"]
  /\ calls_router simple [] (map (Tok PNone) [b "copy"; b "-fab"; b "src"]) sim_copy
       [VBool true; VStr (b "a"); VList [VStr (b "b"); VStr (b "src")]]
  /\ (forall n vs, ~ calls_router simple [] (map (Tok PNone) [b "move"; b "a"; b "c"; b "d"]) n vs).
Proof.
  assert (M : in_memory [b "copy"; b "-fab"; b "src"]) by (vm_compute; discriminate).
  assert (Mv : in_memory [b "move"; b "a"; b "c"; b "d"]) by (vm_compute; discriminate).
  split; [exact M|]. split.
  - refine (proj2 (simple_calls _ _ _ M) _). left. exists [b "-fab"; b "src"], true, (b "a"), [b "b"; b "src"].
    split; [reflexivity|]. split; [discriminate|]. split; [|split; reflexivity].
    apply (files_force (b "force") true 0 (Tok PNone (b "-fab")) [b "a"; b "b"] [Tok PNone (b "src")]).
    + right. exists (b "fab"). split; [right; split; [reflexivity|intros [r E]; discriminate E]|vm_compute; reflexivity].
    + assert (O : forall ch us, ch <> b "f" -> graphemes ch = Some [ch] -> List.length ch = 1 -> ordinary (b "force") (b "f") (Tok PShort ch) us).
      { intros ch us Hf Hg Hl. split.
        - intros letters [[E _]|(nm & [E|[E _]] & Hn)]; [discriminate E| |discriminate E]. injection E as <-. rewrite Hg in Hn. injection Hn as Hn _. exact (Hf Hn).
        - intros (nm & [E|[E _]] & Hn & _); [|discriminate E]. injection E as <-. exact (Hn Hl). }
      cbn [map app]. apply (files_one (b "force") true 0 (Tok PShort (b "a"))); [apply O; [discriminate|vm_compute; reflexivity|reflexivity]|discriminate|].
      apply (files_rest (b "force") true (Tok PShort (b "b")) [Tok PNone (b "src")]); [|reflexivity]. apply O; [discriminate|vm_compute; reflexivity|reflexivity].
  - intros n vs H0. destruct (proj1 (simple_calls _ _ _ Mv) H0) as [(rest & force & dst & srcs & E & _)|(rest & force & dst & src & E & H & _)]; [discriminate E|].
    injection E as <-. cbn [map] in H.
    assert (P : forall w letters, starts_with (b "-") w = false -> ~ picks (b "force") (b "f") (Tok PNone w) letters).
    { intros w letters Hw. exact (proj1 (word_ordinary (b "force") (b "f") w [] Hw) letters). }
    inversion H as [|? ? ? ? ? _ _ H1| |? ? ? ? ? H1]; subst; [|exact (P (b "a") _ eq_refl H1)].
    inversion H1 as [|? ? ? ? ? _ _ H2| |? ? ? ? ? H2]; subst; [|exact (P (b "c") _ eq_refl H2)].
    inversion H2 as [| | |? ? ? ? ? H3]; subst. exact (P (b "d") _ eq_refl H3).
Qed.

Lemma launcher_top : named_top launcher.
Proof. intros c Hc. cbn in Hc. repeat (destruct Hc as [<-|Hc]; [first [right; reflexivity|left; reflexivity]|]). destruct Hc. Qed.
Lemma cats_top : named_top just_cats.
Proof. intros c Hc. cbn in Hc. repeat (destruct Hc as [<-|Hc]; [first [right; reflexivity|left; reflexivity]|]). destruct Hc. Qed.
Lemma rne_top int_t advanced : named_top (runtime_node_enable int_t advanced).
Proof. intros c Hc. cbn in Hc. repeat (destruct Hc as [<-|Hc]; [first [right; reflexivity|left; reflexivity]|]). destruct Hc. Qed.
Lemma cat_top int_t length_t no_length : named_top (basic_cat int_t length_t no_length).
Proof. intros c Hc. cbn in Hc. repeat (destruct Hc as [<-|Hc]; [first [right; reflexivity|left; reflexivity]|]). destruct Hc. Qed.

Lemma launcher_calls words n vs : in_memory words ->
  calls_router launcher [] (map (Tok PNone) words) n vs <->
  (words = [b "--version"] /\ n = lau_version /\ vs = [VBool true])
  \/ (forall w, nth_error words 0 = Some w -> ~ In w [b "--help"; b "-h"; b "--version"])
     /\ exists dry progs args, launch (map (Tok PNone) words) dry progs args
          /\ n = lau_mode /\ vs = [VBool dry; VList (map VStr progs); VList (map VStr args)].
Proof.
  intros Hm. rewrite (fresh_routes _ _ _ n vs (example_fresh launcher words launcher_well_formed launcher_top Hm)).
  exact (launcher_routes words n vs Hm).
Qed.

Lemma launcher_readme p progs args :
  starts_with (b "-") p = false -> ~ In (b "--") progs -> (forall a, nth_error args 0 = Some a -> starts_with (b "-") a = false) ->
  in_memory (b "-d" :: (p :: progs) ++ b "--" :: args) ->
  calls_router launcher [] (map (Tok PNone) ((p :: progs) ++ b "--" :: args)) lau_mode
    [VBool false; VList (map VStr (p :: progs)); VList (map VStr args)]
  /\ calls_router launcher [] (map (Tok PNone) (b "-d" :: (p :: progs) ++ b "--" :: args)) lau_mode
    [VBool true; VList (map VStr (p :: progs)); VList (map VStr args)].
Proof.
  intros Hp Hn Ha Hm.
  assert (M1 : in_memory ((p :: progs) ++ b "--" :: args)).
  { apply (in_memory_incl _ _) with (2 := Hm). unfold nlen. cbn [List.concat List.length b list_ascii_of_string]. rewrite !app_length. cbn [List.length]. lia. }
  assert (Pr : programs (map (Tok PNone) ((p :: progs) ++ b "--" :: args)) (p :: progs) (map (Tok PNone) args)).
  { exists (map (Tok PNone) (p :: progs)). split; [discriminate|]. split; [|split].
    - intros u Hu. apply in_map_iff in Hu as (w & <- & [<-|Hw]); cbn [t_name].
      + intros ->. discriminate Hp.
      + intros ->. exact (Hn Hw).
    - rewrite map_map. cbn [t_name]. now rewrite map_id.
    - right. exists PNone. rewrite map_app. reflexivity. }
  assert (N1 : no_dry (map (Tok PNone) ((p :: progs) ++ b "--" :: args))).
  { intros t us' E. cbn [map app] in E. injection E as <- _. now apply word_ordinary. }
  assert (N2 : no_dry (map (Tok PNone) args)).
  { intros t us' E. destruct args as [|a args]; [discriminate E|]. cbn [map] in E. injection E as <- _. apply word_ordinary. exact (Ha a eq_refl). }
  assert (Ea : args = map t_name (map (Tok PNone) args)) by (rewrite map_map; cbn [t_name]; now rewrite map_id).
  split.
  - refine (proj2 (launcher_calls _ _ _ M1) _). right. split.
    + intros w E. cbn in E. injection E as <-. intros [<-|[<-|[<-|[]]]]; discriminate Hp.
    + exists false, (p :: progs), args. split; [|split; reflexivity]. rewrite Ea at 2. exact (launch_plain _ _ _ N1 Pr N2).
  - refine (proj2 (launcher_calls _ _ _ Hm) _). right. split.
    + intros w E. cbn in E. injection E as <-. intros [E|[E|[E|[]]]]; discriminate E.
    + exists true, (p :: progs), args. split; [|split; reflexivity]. rewrite Ea at 2.
      apply (launch_dry _ (map (Tok PNone) ((p :: progs) ++ b "--" :: args))); [|exact N1|exact Pr|exact N2].
      exists (Tok PNone (b "-d")), [], (map (Tok PNone) ((p :: progs) ++ b "--" :: args)). split; [reflexivity|]. split; [|reflexivity].
      apply (picks_short (b "dry-run") "d"%char); [vm_compute; reflexivity|discriminate].
Qed.

Lemma launcher_arguments : exists progs args, ~ In (b "--") progs
  /\ calls_router launcher [] (map (Tok PNone) (progs ++ b "--" :: args)) lau_mode
       [VBool true; VList (map VStr progs); VList []]
  /\ ~ calls_router launcher [] (map (Tok PNone) (progs ++ b "--" :: args)) lau_mode
       [VBool false; VList (map VStr progs); VList (map VStr args)].
Proof.
  exists [b "p"], [b "-d"]. split; [intros [E|[]]; discriminate E|].
  assert (M : in_memory ([b "p"] ++ b "--" :: [b "-d"])) by (vm_compute; discriminate).
  assert (Pd : picks (b "dry-run") (b "d") (Tok PNone (b "-d")) []) by (apply (picks_short (b "dry-run") "d"%char); [vm_compute; reflexivity|discriminate]).
  split.
  - refine (proj2 (launcher_calls _ _ _ M) _). right. split.
    + intros w E. cbn in E. injection E as <-. intros [E|[E|[E|[]]]]; discriminate E.
    + exists true, [b "p"], []. split; [|split; reflexivity].
      apply (launch_dry_later _ [b "p"] [Tok PNone (b "-d")] []).
      * intros t us' E. cbn [map app] in E. injection E as <- _. now apply word_ordinary.
      * exists [Tok PNone (b "p")]. split; [discriminate|]. split; [|split; [reflexivity|right; exists PNone; reflexivity]].
        intros u [<-|[]]. discriminate.
      * exists (Tok PNone (b "-d")), [], []. split; [reflexivity|]. split; [exact Pd|reflexivity].
      * intros t us' E. discriminate E.
  - intros H0. destruct (proj1 (launcher_calls _ _ _ M) H0) as [(E & _)|(_ & dry & progs & args & H & _ & E)]; [discriminate E|].
    injection E as <- Ep Ea. inversion H as [progs' rest N1 Pr N2| |].
    destruct Pr as (ps & _ & Hps & _ & [[E _]|[q E]]).
    + apply (Hps (Tok PNone (b "--"))); [rewrite <- E; right; left; reflexivity|reflexivity].
    + destruct ps as [|p1 ps]; [discriminate E|]. destruct ps as [|p2 ps].
      * cbn [map app] in E. injection E as _ _ <-. exact (proj1 (N2 _ _ eq_refl) [] Pd).
      * cbn [map app] in E. injection E as _ E2 _. apply (Hps p2); [right; left; reflexivity|]. rewrite <- E2. reflexivity.
Qed.

Lemma cats_calls words n vs : in_memory words ->
  calls_router just_cats [] (map (Tok PNone) words) n vs <->
  vs = [VBool true] /\ exists w, words = [w] /\ In (w, n)
    [(b "--cat", cats_cat); (b "-" ++ cat_zh, cats_zh); (b "-" ++ cat_emoji, cats_emoji);
     (b "--" ++ cat_th, cats_th); (b "--" ++ cat_uk, cats_uk)].
Proof.
  intros Hm. rewrite (fresh_routes _ _ _ n vs (example_fresh just_cats words cats_well_formed cats_top Hm)).
  exact (cats_routes words n vs).
Qed.

Lemma rne_calls int_t advanced words n vs : in_memory words ->
  calls_router (runtime_node_enable int_t advanced) [] (map (Tok PNone) words) n vs ->
  n = rne_version /\ words = [b "--version"] /\ vs = [VBool true]
  \/ n = rne_advanced int_t advanced /\ advanced = true /\ nth_error words 0 = Some (b "advanced")
  \/ n = rne_mode advanced /\ exists items foo bar s, reading n [] (map (Tok PNone) words) items
       /\ vs = [VBool foo; VBool bar; VStr s] /\ (advanced = false -> s = [])
       /\ (advanced = true -> exists it t, In it items /\ i_node it = rne_licensed advanced /\ i_values it = [t] /\ t_name t = s).
Proof.
  intros Hm H. apply (fresh_routes _ _ _ n vs (example_fresh _ words (rne_well_formed int_t advanced) (rne_top int_t advanced) Hm)) in H.
  destruct (rne_routes int_t advanced words n vs H) as [A|[A|(A & B)]]; [left; exact A|right; left; exact A|right; right].
  split; [exact A|]. rewrite A. exact B.
Qed.

Lemma invocs_spaced progs args : print_invocs progs args = flat_map (fun p => spaced (p :: args) ++ [ascii_of_N 10]) progs.
Proof.
  unfold print_invocs. apply flat_map_ext. intros p. rewrite app_assoc. f_equal. revert p.
  induction args as [|a args IH]; intros p; [apply app_nil_r|].
  change (spaced (p :: a :: args)) with (p ++ b " " ++ spaced (a :: args)). rewrite <- IH. cbn [flat_map]. now rewrite <- !app_assoc.
Qed.

Lemma unlimited {A} (lines : list A) : (Z.of_nat (List.length lines) < 2 ^ 31)%Z -> first_lines (line_limit (-1)) lines = lines.
Proof.
  intros H. unfold first_lines. change (line_limit (-1)) with 2147483647%Z. change (Z.ltb 2147483647 0) with false. cbn iota.
  apply firstn_all2. lia.
Qed.

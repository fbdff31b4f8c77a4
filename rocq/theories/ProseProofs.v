(** Lemmas on the layout of prose: C64. *)
From Verif Require Import Bytes CodePoint Utf8 SpecUtf8 SpecLines SpecBreaks CodePointProofs Utf8Proofs LineProofs
  BreakProofs LayoutProofs.
From Verif Require Import TabGrapheme TabLine TabWhitespace TabZero TabDouble.
Local Open Scope nat_scope.

Definition stem_class (k : lclass) : Prop := In k [AL; HL; NU].
Definition tail_class (k : lclass) : Prop := In k [CL; CP; EX; IS; SY].

(** The classes of a prose word, in order. *)
Definition word_classes (ks : list lclass) : Prop :=
  exists k1 k2, ks = k1 ++ k2 /\ k1 <> [] /\ Forall stem_class k1 /\ Forall tail_class k2.

Lemma Forall2_len {A B} (R : A -> B -> Prop) l m : Forall2 R l m -> List.length l = List.length m.
Proof. induction 1; cbn; congruence. Qed.

Lemma prose_classes w : prose_word w -> word_classes (map kc w).
Proof.
  intros ((stem & tail & ks & kt & -> & Hne & H1 & H2 & H3 & H4) & _).
  apply classes_fun in H1, H3. subst. exists (map kc stem), (map kc tail).
  split; [apply map_app|]. split; [|auto]. destruct stem; [contradiction|discriminate].
Qed.

Lemma space_class : kc 32 = SP.
Proof. vm_compute. reflexivity. Qed.
Lemma space_white : white 32.
Proof.
  apply white_iff; [split; [unfold scalar; lia|unfold boundary_lead; lia]|]. vm_compute. reflexivity.
Qed.

(** No place inside a word, nor before a space. *)
Lemma inside_word k1 a n k2 p : word_classes (k1 ++ a :: n :: k2) -> unbroken (a :: p) n.
Proof.
  intros (s & t & E & _ & Hs & Ht).
  assert (Hn : stem_class n \/ tail_class n).
  { assert (In n (s ++ t)) by (rewrite <- E; apply in_or_app; right; right; left; reflexivity).
    rewrite Forall_forall in Hs, Ht. apply in_app_or in H as [H|H]; auto. }
  destruct Hn as [Hn|Hn]; [|now apply LB13].
  assert (Ha : stem_class a \/ tail_class n).
  { clear Hn. revert k1 E. induction Hs as [|x s Hx Hs IH]; intros k1 E.
    - right. cbn [app] in E. subst t. apply Forall_app in Ht as [_ Ht]. inversion Ht as [|? ? _ Ht']; subst.
      now inversion Ht'.
    - destruct k1 as [|y k1]; cbn [app] in E; injection E as -> E.
      + now left.
      + now apply (IH k1). }
  destruct Ha as [Ha|Ha]; [|now apply LB13].
  unfold stem_class in *. cbn [In] in Ha, Hn.
  destruct Ha as [<-|[<-|[<-|[]]]], Hn as [<-|[<-|[<-|[]]]];
    first [ apply LB28; cbn; tauto | apply LB23_number; cbn; tauto | apply LB23_letter; cbn; tauto
          | apply LB25; cbn; tauto ].
Qed.

(** A place behind a word and its space. *)
Lemma behind_word a p n : stem_class a \/ tail_class a -> stem_class n -> ~ unbroken (SP :: a :: p) n.
Proof.
  intros Ha Hn H. unfold stem_class, tail_class in *. cbn [In] in Ha, Hn.
  inversion H; subst;
    repeat match goal with
           | Hi : In _ _ |- _ => cbn [In] in Hi
           | Hi : repeat SP ?k ++ _ = _ |- _ =>
               destruct k as [|[|k]]; cbn [repeat app] in Hi; injection Hi; clear Hi; intros; subst
           | Hi : repeat RI ?k ++ _ = _ |- _ => clear Hi
           end; intuition (try discriminate; try congruence).
Qed.

Lemma sentence_cons w ws : ws <> [] -> sentence (w :: ws) = w ++ 32%N :: sentence ws.
Proof. destruct ws; [contradiction|reflexivity]. Qed.

Lemma prose_ne w : prose_word w -> w <> [].
Proof. intros ((stem & tail & ks & kt & -> & Hne & _) & _). destruct stem; [contradiction|discriminate]. Qed.

Lemma prose_head w : prose_word w -> exists c w', w = c :: w' /\ stem_class (kc c) /\ ~ white c.
Proof.
  intros ((stem & tail & ks & kt & -> & Hne & H1 & H2 & _) & _ & Hw).
  destruct stem as [|c stem]; [contradiction|]. exists c, (stem ++ tail). split; [reflexivity|].
  apply classes_fun in H1. rewrite H1 in H2. cbn [map] in H2. split; [exact (Forall_inv H2)|exact (Forall_inv Hw)].
Qed.

Lemma prose_last w : prose_word w -> exists w' a, w = w' ++ [a] /\ (stem_class (kc a) \/ tail_class (kc a)).
Proof.
  intros H. destruct (exists_last (prose_ne w H)) as (w' & a & ->). exists w', a. split; [reflexivity|].
  destruct (prose_classes _ H) as (s & t & E & _ & Hs & Ht). rewrite map_app in E.
  assert (Hin : In (kc a) (s ++ t)) by (rewrite <- E; apply in_or_app; right; now left).
  rewrite Forall_forall in Hs, Ht. apply in_app_or in Hin as [Hin|Hin]; auto.
Qed.

Lemma no_place_inside h w line c more : prose_word w -> w = line ++ c :: more -> place h line c -> False.
Proof.
  intros Hw E P. apply place_iff in P as [Hne P]. apply P.
  destruct (exists_last Hne) as (l' & a & ->). rewrite map_app, rev_app_distr. cbn [map rev app].
  apply (inside_word (map kc l') (kc a) (kc c) (map kc more)).
  apply prose_classes in Hw. rewrite E, !map_app in Hw. cbn [map] in Hw. now rewrite <- app_assoc in Hw.
Qed.

Lemma sentence_places ws : forall h line c more,
  Forall prose_word ws -> sentence ws = line ++ c :: more -> place h line c ->
  exists ws1 ws2, ws = ws1 ++ ws2 /\ ws1 <> [] /\ ws2 <> []
    /\ line = sentence ws1 ++ [32%N] /\ c :: more = sentence ws2.
Proof.
  induction ws as [|w ws IH]; intros h line c more Hp E P.
  - destruct line; discriminate.
  - inversion Hp as [|? ? Hw Hp']; subst. destruct ws as [|v ws].
    { exfalso. eapply no_place_inside; eauto. }
    rewrite sentence_cons in E by discriminate.
    destruct (Nat.lt_trichotomy (List.length line) (List.length w)) as [L|[L|L]].
    + exfalso. destruct (app_split _ _ _ _ (eq_sym E) L) as (x & e & -> & Ex). injection Ex as <- _.
      eapply no_place_inside; eauto.
    + exfalso. destruct (app_same _ _ _ _ (eq_sym E) L) as [-> Ex]. injection Ex as -> _.
      apply place_iff in P as [_ P]. apply P. rewrite space_class. apply LB7. cbn. auto.
    + destruct (app_split _ _ _ _ E L) as (x & e & -> & Ex). injection Ex as <- Ex.
      destruct e as [|y e].
      * cbn [app] in Ex. exists [w], (v :: ws). cbn [sentence]. split; [reflexivity|].
        split; [discriminate|]. split; [discriminate|]. split; [reflexivity|]. symmetry. exact Ex.
      * destruct (IH (SP :: rev (map kc w) ++ h) (y :: e) c more Hp' Ex) as (ws1 & ws2 & E1 & N1 & N2 & E2 & E3).
        { apply place_iff. apply place_iff in P as [_ P]. split; [discriminate|].
          rewrite map_app, rev_app_distr in P. cbn [map] in P. rewrite space_class in P.
          cbn [rev] in P |- *. rewrite <- !app_assoc in P. cbn [app] in P.
          cbn [map rev]. rewrite <- app_assoc. cbn [app]. exact P. }
        exists (w :: ws1), ws2. rewrite E1. split; [reflexivity|]. split; [discriminate|]. split; [exact N2|].
        split; [|exact E3]. rewrite sentence_cons by exact N1. rewrite E2, <- app_assoc. reflexivity.
Qed.

Lemma sentence_head ws : Forall prose_word ws -> ws <> [] -> exists c t, sentence ws = c :: t /\ stem_class (kc c) /\ ~ white c.
Proof.
  intros H Hne. destruct ws as [|w ws]; [contradiction|]. inversion H as [|? ? Hw _]; subst.
  destruct (prose_head w Hw) as (c & w' & -> & H1 & H2). destruct ws as [|v ws].
  - exists c, w'. auto.
  - rewrite sentence_cons by discriminate. exists c, (w' ++ 32%N :: sentence (v :: ws)). auto.
Qed.

Lemma gap_none gap rest c t : gap ++ rest = c :: t -> Forall white gap -> ~ white c -> gap = [] /\ rest = c :: t.
Proof. destruct gap as [|d gap]; [auto|]. intros E H N. injection E as -> _. inversion H; subst. contradiction. Qed.

Lemma sentence_fits max h ws nlines : laid_out max h (sentence ws) nlines ->
  Forall prose_word ws -> Forall (fun w => exists x, text_takes w x /\ x <= max) ws ->
  exists groups, List.concat groups = ws /\ Forall2 line_of groups nlines.
Proof.
  remember (sentence ws) as t eqn:Et. intros H. revert ws Et.
  induction H as [h|h f o line gap rest lines ks E Hne Hf Hl Hg Hr Hk _ IH]; intros ws Et Hp Hx.
  - exists []. split; [|constructor]. destruct ws as [|w ws]; [reflexivity|].
    destruct (sentence_head (w :: ws) Hp ltac:(discriminate)) as (c & t & E & _). congruence.
  - assert (Wne : ws <> []).
    { intros ->. cbn [sentence] in Et. rewrite Et in E. symmetry in E. apply app_eq_nil in E as [E _]. contradiction. }
    destruct Hl as [Eo|line c more x N1 E1 P1 T1 X1 L1 M1|N1 M1].
    + subst o. rewrite app_nil_r in *. rewrite <- (app_nil_r f) in E at 1. apply app_inv_head in E.
      symmetry in E. apply app_eq_nil in E as [-> ->].
      destruct (IH [] eq_refl) as (groups & Ec & Hgs); [constructor|constructor|].
      assert (groups = []).
      { destruct groups as [|g gs]; [reflexivity|]. inversion Hgs as [|? l ? ls [G _] _]; subst.
        destruct g; [contradiction|discriminate]. }
      subst groups. exists [ws]. split; [cbn; apply app_nil_r|]. constructor; [|exact Hgs].
      split; [exact Wne|]. left. exact Et.
    + rewrite Et in E1.
      destruct (sentence_places ws h line c more Hp E1 P1) as (ws1 & ws2 & -> & W1 & W2 & El & Em).
      rewrite Et, E1 in E. apply app_inv_head in E.
      apply Forall_app in Hp as [Hp1 Hp2]. apply Forall_app in Hx as [Hx1 Hx2].
      destruct (sentence_head ws2 Hp2 W2) as (d & t & Ed & _ & Hd).
      rewrite Em, Ed in E. symmetry in E. destruct (gap_none _ _ _ _ E Hg Hd) as [-> ->].
      rewrite <- Ed in IH. destruct (IH ws2 eq_refl Hp2 Hx2) as (groups & Ec & Hgs).
      exists (ws1 :: groups). split; [cbn [List.concat]; now rewrite Ec|]. constructor; [|exact Hgs].
      split; [exact W1|]. right. exact El.
    + destruct ws as [|w ws]; [contradiction|]. inversion Hp as [|? ? Hw Hp']; subst.
      inversion Hx as [|? ? (x & Tx & Lx) Hx']; subst.
      pose proof (prose_ne w Hw) as Wn.
      destruct ws as [|v ws].
      { (* one word: it fits *)
        exfalso. cbn [sentence] in Et. destruct Hf as [_ Ho]. destruct o as [|c o]; [contradiction|].
        destruct Ho as (y & Ty & Ly). subst w.
        replace (f ++ c :: o) with ((f ++ [c]) ++ o) in Tx by (now rewrite <- app_assoc).
        apply text_takes_app in Tx as (u & z & U & _ & ->).
        assert (u = y) by (eapply text_takes_fun; eassumption). lia. }
      rewrite sentence_cons in Et by discriminate.
      destruct (Nat.lt_trichotomy (List.length f) (List.length w)) as [L|[L|L]].
      * exfalso. destruct (app_split _ _ _ _ Et L) as (c & e & -> & ->).
        destruct Hf as [_ (y & Ty & Ly)].
        replace (f ++ c :: e) with ((f ++ [c]) ++ e) in Tx by (now rewrite <- app_assoc).
        apply text_takes_app in Tx as (u & z & U & _ & ->).
        assert (u = y) by (eapply text_takes_fun; eassumption). lia.
      * destruct (app_same _ _ _ _ Et L) as [-> ->]. apply app_inv_head in E.
        destruct (sentence_head (v :: ws) Hp' ltac:(discriminate)) as (d & t & Ed & _ & Hd).
        assert (G : gap = [32%N] /\ rest = sentence (v :: ws)).
        { destruct gap as [|y gap].
          - cbn [app] in E. subst rest. elim Hr. apply space_white.
          - cbn [app] in E. apply cons_inv in E as [<- E]. rewrite Ed in E |- *. symmetry in E.
            destruct (gap_none _ _ _ _ E (Forall_inv_tail Hg) Hd) as [-> ->]. auto. }
        destruct G as [-> ->]. destruct (IH (v :: ws) eq_refl Hp' Hx') as (groups & Ec & Hgs).
        exists ([w] :: groups). split; [cbn [List.concat app]; now rewrite Ec|].
        constructor; [|exact Hgs]. split; [discriminate|]. left. reflexivity.
      * exfalso. destruct (app_split _ _ _ _ (eq_sym Et) L) as (c & e & -> & Ec). injection Ec as <- Ec.
        destruct (sentence_head (v :: ws) Hp' ltac:(discriminate)) as (d & t & Ed & Hs & _).
        destruct (prose_last w Hw) as (w' & a & Ew & Ha).
        assert (P : place h (w ++ [32%N]) d).
        { apply place_iff. split; [destruct w; discriminate|]. rewrite Ew.
          rewrite !map_app, !rev_app_distr. cbn [map rev app]. rewrite space_class. now apply behind_word. }
        assert (S1 : exists z, text_takes [32%N] z) by (exists (tw [32%N]); apply text_takes_tw; constructor;
          [split; [unfold scalar; lia|unfold boundary_lead; lia]|constructor]).
        destruct S1 as (z & Tz).
        assert (Tw : text_takes (w ++ [32%N]) (x + z)).
        { clear - Tx Tz. revert x Tx. induction w as [|c w IH]; intros x Tx; inversion Tx; subst; [exact Tz|].
          cbn [app]. rewrite <- Nat.add_assoc. constructor; auto. }
        assert (Z : x + z = 0).
        { apply (M1 (w ++ [32%N]) d t); [|exact P| |exact Tw].
          - rewrite Et, Ed, <- app_assoc. reflexivity.
          - rewrite !app_length. cbn [List.length]. lia. }
        destruct Hw as (_ & (x' & Tx' & X') & _).
        assert (x = x') by (eapply text_takes_fun; eassumption). lia.
Qed.

Lemma prose_lines ws columns steps lines :
  Forall scalar (sentence ws) -> Forall (fun c => ~ boundary_lead c) (sentence ws) -> columns <> 0 ->
  Forall prose_word ws -> Forall (fun w => exists x, text_takes w x /\ x <= columns) ws ->
  iterates_to (map encode (sentence ws)) columns steps lines ->
  exists groups nlines, lines = map (map encode) nlines /\ List.concat groups = ws /\ Forall2 line_of groups nlines.
Proof.
  intros H1 H2 H3 H4 H5 H6. destruct (lines_exact _ _ _ _ H1 H2 H3 H6) as (nlines & El & Hl).
  destruct (sentence_fits _ _ _ _ Hl H4 H5) as (groups & Ec & Hg). exists groups, nlines. auto.
Qed.

(** ** Examples *)

Lemma ascii_good cs : forallb (fun c => (c <? 128)%N) cs = true -> Forall scalar cs /\ Forall (fun c => ~ boundary_lead c) cs.
Proof.
  intros H. rewrite forallb_forall in H. split; apply Forall_forall; intros c Hin; specialize (H c Hin);
    apply N.ltb_lt in H; unfold scalar, boundary_lead; lia.
Qed.

Lemma takes_check cs x : forallb (fun c => (c <? 128)%N) cs = true -> tw cs = x -> text_takes cs x.
Proof.
  intros H <-. apply ascii_good in H as [H1 H2]. apply text_takes_tw. rewrite Forall_forall in *.
  intros c Hin. split; [now apply H1|now apply H2].
Qed.

Lemma word_check stem tail :
  forallb (fun c => (c <? 128)%N) (stem ++ tail) = true -> stem <> [] ->
  forallb (fun c => isin (extract_class line_table c) [1; 19; 28]%N) stem = true ->
  forallb (fun c => isin (extract_class line_table c) [7; 9; 13; 21; 35]%N) tail = true ->
  0 < tw (stem ++ tail) -> forallb (fun c => negb (is_whitespace (encode c))) (stem ++ tail) = true ->
  prose_word (stem ++ tail).
Proof.
  intros H1 H2 H3 H4 H5 H6. split; [|split].
  - exists stem, tail, (map kc stem), (map kc tail). split; [reflexivity|]. split; [exact H2|].
    split; [apply classes_are|]. split; [|split; [apply classes_are|]].
    + apply Forall_map, Forall_forall. intros c Hin. rewrite forallb_forall in H3. specialize (H3 c Hin).
      rewrite <- kc_number in H3. destruct (kc c); cbn in H3; try discriminate; cbn; tauto.
    + apply Forall_map, Forall_forall. intros c Hin. rewrite forallb_forall in H4. specialize (H4 c Hin).
      rewrite <- kc_number in H4. destruct (kc c); cbn in H4; try discriminate; cbn; tauto.
  - exists (tw (stem ++ tail)). split; [now apply takes_check|exact H5].
  - apply ascii_good in H1 as [G1 G2]. apply Forall_forall. intros c Hin Hw.
    rewrite forallb_forall in H6. specialize (H6 c Hin). rewrite Forall_forall in G1, G2.
    apply white_iff in Hw; [|split; [now apply G1|now apply G2]]. rewrite Hw in H6. discriminate.
Qed.

Lemma prose_example :
  let ws := [[80; 114; 105; 110; 116; 115]; [105; 116; 44]; [110; 111; 119; 46]]%N in
  Forall scalar (sentence ws) /\ Forall (fun c => ~ boundary_lead c) (sentence ws)
  /\ Forall prose_word ws /\ Forall (fun w => exists x, text_takes w x /\ x <= 7) ws
  /\ iterates_to (map encode (sentence ws)) 7 3
       (map (map encode) [[80; 114; 105; 110; 116; 115; 32]; [105; 116; 44; 32]; [110; 111; 119; 46]]%N).
Proof.
  intros ws. assert (G : forallb (fun c => (c <? 128)%N) (sentence ws) = true) by reflexivity.
  apply ascii_good in G as [G1 G2]. split; [exact G1|]. split; [exact G2|]. split; [|split].
  - constructor; [|constructor; [|constructor; [|constructor]]].
    + apply (word_check [80; 114; 105; 110; 116; 115]%N []); try discriminate; vm_compute; try reflexivity. repeat constructor.
    + apply (word_check [105; 116]%N [44]%N); try discriminate; vm_compute; try reflexivity. repeat constructor.
    + apply (word_check [110; 111; 119]%N [46]%N); try discriminate; vm_compute; try reflexivity. repeat constructor.
  - constructor; [|constructor; [|constructor; [|constructor]]]; eexists;
      (split; [apply takes_check; [reflexivity|vm_compute; reflexivity]|lia]).
  - vm_compute. reflexivity.
Qed.

Lemma words_witness : exists w1 w2 columns steps line1 line2,
  text_takes w1 4 /\ text_takes w2 4 /\ columns = 6
  /\ iterates_to (map encode (sentence [w1; w2])) columns steps [map encode line1; map encode line2]
  /\ line1 ++ line2 = sentence [w1; w2] /\ exists c, last line1 32%N = c /\ ~ white c.
Proof.
  exists [97; 98; 99; 100]%N, [45; 45; 101; 102]%N, 6, 3, [97; 98; 99; 100; 32; 45]%N, [45; 101; 102]%N.
  split; [apply takes_check; vm_compute; reflexivity|]. split; [apply takes_check; vm_compute; reflexivity|].
  split; [reflexivity|]. split; [vm_compute; reflexivity|]. split; [reflexivity|].
  exists 45%N. split; [reflexivity|]. intros H.
  apply white_iff in H; [vm_compute in H; discriminate|]. split; [unfold scalar; lia|unfold boundary_lead; lia].
Qed.

Lemma mark_witness : exists cs columns steps line more gs,
  iterates_to (map encode cs) columns steps (line :: more)
  /\ graphemes (encode_all cs) = Some gs /\ ~ cut_at gs (List.concat line).
Proof.
  exists [114; 101; 769; 115; 117; 109; 101; 769]%N, 3, 3, (map encode [114; 101]%N),
    [map encode [769; 115; 117; 109]%N; map encode [101; 769]%N].
  eexists. split; [vm_compute; reflexivity|]. split; [vm_compute; reflexivity|].
  apply not_cut. vm_compute. reflexivity.
Qed.

Lemma flag_witness : exists cs columns steps line1 line2 more gs,
  iterates_to (map encode cs) columns steps (line1 :: line2 :: more)
  /\ graphemes (encode_all cs) = Some gs
  /\ cut_at gs (List.concat line1) /\ ~ cut_at gs (List.concat line1 ++ List.concat line2)
  /\ Forall (fun g => List.length g <= 8) gs /\ Forall (fun c => l_class_is c RI) cs /\ List.length cs = 6.
Proof.
  exists [127462; 127463; 127464; 127465; 127466; 127467]%N, 3, 3, (map encode [127462; 127463]%N),
    (map encode [127464; 127465; 127466]%N), [map encode [127467]%N].
  eexists. split; [vm_compute; reflexivity|]. split; [vm_compute; reflexivity|].
  split; [apply (is_cut _ _ 1); vm_compute; reflexivity|].
  split; [apply not_cut; vm_compute; reflexivity|].
  split; [repeat constructor|]. split; [|reflexivity].
  repeat (constructor; [apply listed_check; vm_compute; reflexivity|]); constructor.
Qed.

Lemma newline_witness : exists cs columns steps line,
  In 10%N cs /\ iterates_to (map encode cs) columns steps [line] /\ line = map encode cs.
Proof.
  exists [97; 98; 99; 10; 100; 101]%N, 8, 1. eexists. split; [cbn; auto|]. split; [vm_compute; reflexivity|reflexivity].
Qed.

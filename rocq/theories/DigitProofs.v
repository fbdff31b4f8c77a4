(** Proofs about integers as text (C33, C43). *)
From Coq Require Import Lia ZifyN ZifyNat ZifyBool.
From Verif Require Import Bytes Digits SpecNumeral.
Local Open Scope N_scope.

Lemma pow10_pow k : pow10 k = 10 ^ N.of_nat k.
Proof.
  induction k as [|k IH]; [reflexivity|]. cbn [pow10]. rewrite IH, Nnat.Nat2N.inj_succ.
  now rewrite N.pow_succ_r'.
Qed.

Lemma pow10_pos k : 0 < pow10 k.
Proof. induction k as [|k IH]; cbn [pow10]; lia. Qed.

Lemma div10_size v : v <> 0 -> v < 2 ^ N.of_nat (N.size_nat v).
Proof.
  intro H. destruct v as [|p]; [congruence|].
  pose proof (N.size_gt (N.pos p)) as G.
  replace (N.of_nat (N.size_nat (N.pos p))) with (N.size (N.pos p)); [exact G|].
  clear. simpl. induction p as [p IH|p IH|]; simpl Pos.size_nat; cbn [Pos.size]; lia.
Qed.

Lemma size_bound v : v < 2 ^ N.of_nat (N.size_nat v).
Proof. destruct (N.eq_dec v 0) as [->|H]; [reflexivity|now apply div10_size]. Qed.

Lemma num_digits_loop_spec fuel : forall v i k,
  v < 2 ^ N.of_nat fuel -> v < pow10 (S k) -> (k = O \/ pow10 k <= v) ->
  num_digits_loop fuel v i = i + N.of_nat k.
Proof.
  induction fuel as [|fuel IH]; intros v i k Hf Hu Hl.
  - change (2 ^ N.of_nat 0) with 1 in Hf. cbn [num_digits_loop].
    destruct Hl as [->|Hl]; [lia|]. pose proof (pow10_pos k). lia.
  - cbn [num_digits_loop]. cbv zeta.
    destruct (v / 10 =? 0) eqn:E.
    + apply N.eqb_eq, N.div_small_iff in E; [|lia].
      destruct Hl as [->|Hl]; [lia|]. destruct k as [|k]; [lia|].
      cbn [pow10] in Hl. pose proof (pow10_pos k). lia.
    + apply N.eqb_neq in E.
      assert (10 <= v).
      { destruct (N.lt_ge_cases v 10) as [L|L]; [|exact L]. exfalso. apply E. now apply N.div_small. }
      destruct k as [|k]; [change (pow10 1) with 10 in Hu; lia|].
      destruct Hl as [Hl|Hl]; [discriminate|].
      rewrite (IH (v / 10) (i + 1) k); [lia| | |].
      * rewrite Nnat.Nat2N.inj_succ, N.pow_succ_r' in Hf.
        apply N.div_lt_upper_bound; [lia|]. lia.
      * apply N.div_lt_upper_bound; [lia|]. cbn [pow10] in *. lia.
      * right. apply N.div_le_lower_bound; [lia|]. cbn [pow10] in *. lia.
Qed.

Lemma num_digits_spec v k : v < pow10 (S k) -> (k = O \/ pow10 k <= v) ->
  num_digits v = 1 + N.of_nat k.
Proof. intros. unfold num_digits. apply num_digits_loop_spec; auto using size_bound. Qed.

(** Values of digit lists. *)

Lemma value_acc ds : forall acc,
  fold_left (fun acc d => 10 * acc + d) ds acc = acc * pow10 (List.length ds) + value_of ds.
Proof.
  induction ds as [|d ds IH]; intro acc; unfold value_of.
  - cbn [fold_left List.length pow10]. lia.
  - cbn [fold_left List.length pow10]. rewrite (IH (10 * acc + d)), (IH (10 * 0 + d)). lia.
Qed.

Lemma value_cons d ds : value_of (d :: ds) = d * pow10 (List.length ds) + value_of ds.
Proof.
  unfold value_of at 1. cbn [fold_left]. rewrite value_acc. reflexivity.
Qed.

Lemma value_lt ds : Forall (fun d => d < 10) ds -> value_of ds < pow10 (List.length ds).
Proof.
  induction 1 as [|d ds Hd _ IH]; [reflexivity|].
  rewrite value_cons. cbn [List.length pow10]. pose proof (pow10_pos (List.length ds)). nia.
Qed.

Lemma squeezed_zero d ds : squeezed (0 :: d :: ds) = squeezed (d :: ds).
Proof. reflexivity. Qed.

Lemma squeezed_cons c d ds : c <> 0 -> squeezed (c :: d :: ds) = c :: squeezed (d :: ds).
Proof.
  intro H. unfold squeezed. cbn [removelast last filter].
  destruct (c =? 0) eqn:E; [apply N.eqb_eq in E; contradiction|reflexivity].
Qed.

Lemma digit_char_text d : d < 10 -> digit_char d = nth (N.to_nat d) (b "0123456789") "?"%char.
Proof.
  intro H. assert (E : d = 0 \/ d = 1 \/ d = 2 \/ d = 3 \/ d = 4 \/ d = 5 \/ d = 6 \/ d = 7 \/
    d = 8 \/ d = 9) by lia.
  repeat (destruct E as [->|E]; [reflexivity|]). now subst.
Qed.

Lemma build_squeezed fuel : forall ds, Forall (fun d => d < 10) ds -> ds <> [] ->
  (List.length ds <= fuel)%nat ->
  forall fuel', (N.to_nat (num_digits (value_of ds)) <= fuel')%nat ->
  build_digits fuel' (value_of ds) = digits_text (squeezed ds).
Proof.
  induction fuel as [|fuel IH]; intros ds Hd Hn Hf fuel' Hf'.
  - destruct ds; [congruence|simpl in Hf; lia].
  - destruct ds as [|c ds]; [congruence|]. inversion Hd as [|? ? Hc Hds]; subst.
    destruct ds as [|d ds].
    + assert (E : value_of [c] = c) by reflexivity. rewrite E in *.
      assert (N1 : num_digits c = 1).
      { rewrite (num_digits_spec c 0); [reflexivity|exact Hc|now left]. }
      rewrite N1 in Hf'. destruct fuel' as [|fuel']; [lia|].
      cbn [build_digits]. rewrite N1. cbn [N.eqb Pos.eqb negb N.sub N.to_nat pow10].
      change (pow10 (N.to_nat (1 - 1))) with 1. rewrite N.div_1_r.
      unfold squeezed, digits_text. simpl removelast. simpl filter. simpl last. cbn [app map].
      now rewrite digit_char_text.
    + destruct (N.eq_dec c 0) as [->|Hz].
      * assert (E : value_of (0 :: d :: ds) = value_of (d :: ds)) by (rewrite value_cons; lia).
        rewrite E in *. rewrite squeezed_zero. apply IH; auto; [discriminate|].
        simpl in Hf |- *. lia.
      * pose proof (value_lt _ Hds) as Hlt. set (k := List.length (d :: ds)) in *.
        assert (Hk : (1 <= k)%nat) by (unfold k; simpl; lia).
        pose proof (pow10_pos k) as Hp.
        assert (V : value_of (c :: d :: ds) = c * pow10 k + value_of (d :: ds)) by apply value_cons.
        assert (ND : num_digits (value_of (c :: d :: ds)) = 1 + N.of_nat k).
        { apply num_digits_spec; [|right]; rewrite V; cbn [pow10]; nia. }
        rewrite ND in Hf'. destruct fuel' as [|fuel']; [lia|].
        cbn [build_digits]. rewrite ND. cbv zeta.
        replace (1 + N.of_nat k =? 1) with false by (symmetry; apply N.eqb_neq; lia).
        cbn [negb].
        replace (N.to_nat (1 + N.of_nat k - 1)) with k by lia.
        replace (value_of (c :: d :: ds) / pow10 k) with c.
        2:{ rewrite V. rewrite N.div_add_l by lia. rewrite N.div_small by exact Hlt. lia. }
        replace (value_of (c :: d :: ds) mod pow10 k) with (value_of (d :: ds)).
        2:{ rewrite V, N.add_comm, N.mod_add by lia. now rewrite N.mod_small. }
        rewrite (squeezed_cons c d ds Hz). unfold digits_text. cbn [map].
        rewrite (digit_char_text c Hc). f_equal.
        apply IH; auto; [discriminate|unfold k in *; simpl in Hf |- *; lia|].
        (* the rest has at most as many digits as places *)
        assert (B : forall j v, v < pow10 (S j) -> num_digits v <= 1 + N.of_nat j).
        { clear. induction j as [|j IHj]; intros v Hv.
          - rewrite (num_digits_spec v 0); [lia|exact Hv|now left].
          - destruct (N.lt_ge_cases v (pow10 (S j))) as [L|L].
            + specialize (IHj v L). lia.
            + rewrite (num_digits_spec v (S j)); [lia|exact Hv|now right]. }
        destruct k as [|j]; [lia|]. specialize (B j _ Hlt). lia.
Qed.

Lemma num_digits_size v : (N.to_nat (num_digits v) <= S (N.size_nat v))%nat.
Proof.
  unfold num_digits.
  assert (G : forall f v i, num_digits_loop f v i <= i + N.of_nat f).
  { induction f as [|f IH]; intros u i; cbn [num_digits_loop]; [lia|]. cbv zeta.
    destruct (u / 10 =? 0); [lia|]. specialize (IH (u / 10) (i + 1)). lia. }
  specialize (G (N.size_nat v) v 1). lia.
Qed.

Lemma cts_squeezed n ds : writes n ds -> integral_cts (Z.of_N n) = digits_text (squeezed ds).
Proof.
  intros [[H1 H2 H3] <-]. unfold integral_cts, math_abs.
  replace (Z.of_N (value_of ds) <? 0)%Z with false by lia.
  rewrite Zabs2N.id. apply (build_squeezed (List.length ds)); auto. apply num_digits_size.
Qed.

Lemma cts_negative n ds : writes n ds -> (0 < n) ->
  integral_cts (- Z.of_N n) = b "-" ++ digits_text (squeezed ds).
Proof.
  intros H Hn. pose proof (cts_squeezed n ds H) as E. revert E. unfold integral_cts, math_abs.
  replace (Z.of_N n <? 0)%Z with false by lia. replace (- Z.of_N n <? 0)%Z with true by lia.
  rewrite Zabs2N.inj_opp. intro E. cbv zeta. now rewrite E.
Qed.

(** Every number has exactly one numeral. *)

Lemma value_snoc ds d : value_of (ds ++ [d]) = 10 * value_of ds + d.
Proof. unfold value_of. now rewrite fold_left_app. Qed.

Lemma lexical_acc fuel : forall v acc, lexical_digits fuel v acc = lexical_digits fuel v [] ++ acc.
Proof.
  induction fuel as [|fuel IH]; intros v acc; [reflexivity|].
  cbn [lexical_digits]. cbv zeta. destruct (v / 10 =? 0); [reflexivity|].
  rewrite (IH _ (_ :: acc)), (IH _ [_]), <- app_assoc. reflexivity.
Qed.

Lemma lexical_numeral fuel : forall v, v < 2 ^ N.of_nat fuel ->
  exists ds, writes v ds /\ lexical_digits (S fuel) v [] = digits_text ds.
Proof.
  induction fuel as [|fuel IH]; intros v Hv; remember lexical_digits as L eqn:EL.
  - change (2 ^ N.of_nat 0) with 1 in Hv. assert (v = 0) by lia. subst v L.
    exists [0]. split; [|reflexivity]. split; [|reflexivity]. split.
    + repeat constructor.
    + discriminate.
    + intros d ds' [=].
  - rewrite EL. remember (S fuel) as f2 eqn:Ef2. cbn [lexical_digits]. cbv zeta.
    assert (Hm : v mod 10 < 10) by (apply N.mod_lt; lia).
    pose proof (N.div_mod v 10 ltac:(lia)) as DM.
    destruct (v / 10 =? 0) eqn:E.
    + apply N.eqb_eq in E. exists [v mod 10]. split.
      * split; [split; [now repeat constructor|discriminate|intros d ds' [=]]|].
        unfold value_of. simpl. lia.
      * unfold digits_text. cbn [map]. now rewrite digit_char_text.
    + apply N.eqb_neq in E.
      destruct (IH (v / 10)) as (ds & [Hn Hval] & Ht).
      { subst f2. rewrite Nnat.Nat2N.inj_succ, N.pow_succ_r' in Hv.
        apply N.div_lt_upper_bound; [lia|]. lia. }
      exists (ds ++ [v mod 10]). split.
      * split; [|rewrite value_snoc, Hval; lia]. destruct Hn as [N1 N2 N3]. split.
        -- apply Forall_app. split; [exact N1|now repeat constructor].
        -- destruct ds; discriminate.
        -- intros d ds' Heq. destruct ds as [|x [|y ds2]]; [congruence| |].
           ++ injection Heq as -> _ _. apply E. rewrite <- Hval. reflexivity.
           ++ injection Heq as -> -> _. exact (N3 _ _ eq_refl).
      * rewrite lexical_acc. subst f2 L. rewrite Ht. unfold digits_text. rewrite map_app.
        cbn [map]. now rewrite digit_char_text.
Qed.

Lemma lexical_writes v : exists ds, writes v ds /\ lexical_cast v = digits_text ds.
Proof. apply lexical_numeral, size_bound. Qed.

Lemma writes_length v ds : writes v ds -> v <> 0 ->
  pow10 (pred (List.length ds)) <= v < pow10 (List.length ds).
Proof.
  intros [[H1 H2 H3] <-] Hv. split; [|now apply value_lt].
  destruct ds as [|c ds]; [congruence|]. rewrite value_cons. cbn [List.length pred].
  destruct (N.eq_dec c 0) as [->|Hc]; [|nia].
  destruct ds as [|d ds]; [now cbn in Hv|]. exfalso. eauto.
Qed.

Lemma value_inj ds : forall es, Forall (fun d => d < 10) ds -> Forall (fun d => d < 10) es ->
  List.length ds = List.length es -> value_of ds = value_of es -> ds = es.
Proof.
  induction ds as [|d ds IH]; intros [|e es] Hd He Hl Hv; try discriminate; [reflexivity|].
  inversion Hd; inversion He; subst. injection Hl as Hl. rewrite !value_cons in Hv.
  pose proof (value_lt ds ltac:(assumption)). pose proof (value_lt es ltac:(assumption)).
  rewrite <- Hl in *. set (p := pow10 (List.length ds)) in *.
  assert (d = e) by nia. subst e. f_equal. apply IH; auto. lia.
Qed.

Lemma pow10_mono i j : (i <= j)%nat -> pow10 i <= pow10 j.
Proof. induction 1 as [|j _ IH]; [lia|]. cbn [pow10]. lia. Qed.

Lemma writes_unique v ds es : writes v ds -> writes v es -> ds = es.
Proof.
  intros Hd He. destruct (N.eq_dec v 0) as [->|Hv].
  - assert (Z : forall l, writes 0 l -> l = [0]).
    { clear. intros l [[H1 H2 H3] H]. destruct l as [|c l]; [congruence|].
      rewrite value_cons in H. pose proof (pow10_pos (List.length l)).
      assert (c = 0) by nia. subst c. destruct l as [|d l]; [reflexivity|]. exfalso. eauto. }
    now rewrite (Z _ Hd), (Z _ He).
  - pose proof (writes_length _ _ Hd Hv) as [L1 U1]. pose proof (writes_length _ _ He Hv) as [L2 U2].
    assert (Hl : List.length ds = List.length es).
    { destruct Hd as [[_ Hn _] _], He as [[_ Hm _] _].
      assert (List.length ds <> O) by (destruct ds; [congruence|discriminate]).
      assert (List.length es <> O) by (destruct es; [congruence|discriminate]).
      destruct (Nat.lt_trichotomy (List.length ds) (List.length es)) as [G|[G|G]]; [|exact G|].
      - pose proof (pow10_mono (List.length ds) (pred (List.length es)) ltac:(lia)). lia.
      - pose proof (pow10_mono (List.length es) (pred (List.length ds)) ltac:(lia)). lia. }
    destruct Hd as [[D1 _ _] D2], He as [[E1 _ _] E2]. apply value_inj; auto. congruence.
Qed.

Lemma digits_text_inj ds es : Forall (fun d => d < 10) ds -> Forall (fun d => d < 10) es ->
  digits_text ds = digits_text es -> ds = es.
Proof.
  unfold digits_text.
  assert (G : forall d e, d < 10 -> e < 10 ->
    nth (N.to_nat d) (b "0123456789") "?"%char = nth (N.to_nat e) (b "0123456789") "?"%char ->
    d = e).
  { intros d e Hd He. rewrite <- !digit_char_text by assumption. unfold digit_char. intro H.
    apply (f_equal N_of_ascii) in H. rewrite !N_ascii_embedding in H by lia. lia. }
  revert es; induction ds as [|d ds IH]; intros [|e es] Hd He H; try discriminate; [reflexivity|].
  inversion Hd; inversion He; subst. cbn [map] in H. injection H as Ha Hb.
  f_equal; [apply G|apply IH]; assumption.
Qed.

Lemma squeezed_digits ds : ds <> [] -> Forall (fun d => d < 10) ds ->
  Forall (fun d => d < 10) (squeezed ds).
Proof.
  intros Hn H. rewrite (app_removelast_last 0 Hn) in H. apply Forall_app in H as [H1 H2].
  unfold squeezed. apply Forall_app. split; [|exact H2].
  apply Forall_forall. intros x Hx. apply filter_In in Hx as [Hx _].
  exact (proj1 (Forall_forall _ _) H1 x Hx).
Qed.

Lemma filter_same (f : N -> bool) l : filter f l = l <-> forall x, In x l -> f x = true.
Proof.
  split.
  - intros H x Hx. rewrite <- H in Hx. now apply filter_In in Hx as [_ ?].
  - induction l as [|y l IH]; intro H; [reflexivity|]. simpl.
    rewrite (H y) by (now left). f_equal. apply IH. intros x Hx. apply H. now right.
Qed.

Lemma squeezed_same ds : ds <> [] -> (squeezed ds = ds <-> ~ In 0 (removelast ds)).
Proof.
  intro Hn. unfold squeezed. split.
  - intros H Hz. rewrite (app_removelast_last 0 Hn) in H at 3. apply app_inj_tail in H as [H _].
    pose proof (proj1 (filter_same _ _) H 0 Hz). discriminate.
  - intro H. rewrite (app_removelast_last 0 Hn) at 3. f_equal. apply filter_same.
    intros x Hx. destruct (x =? 0) eqn:E; [|reflexivity]. apply N.eqb_eq in E. subst x. contradiction.
Qed.

Lemma cts_exact n ds : writes n ds ->
  (integral_cts (Z.of_N n) = digits_text ds <-> ~ In 0 (removelast ds)).
Proof.
  intro H. rewrite (cts_squeezed n ds H). destruct H as [[H1 H2 _] _].
  rewrite <- (squeezed_same ds H2). split.
  - intro E. apply digits_text_inj in E; auto using squeezed_digits.
  - intros ->. reflexivity.
Qed.

(** The cost-row algorithm computes the edit distance. *)
From Verif Require Import Bytes CodePoint Utf8 Levenshtein SpecEdit.

Section Lev.
  Context {A : Type} (eqb : A -> A -> bool) (eqb_ok : forall x y, eqb x y = true <-> x = y).

  (** The recursive edit distance. *)
  Fixpoint ed (l : list A) : list A -> nat :=
    fix edr (r : list A) : nat :=
      match l, r with
      | [], _ => List.length r
      | _, [] => List.length l
      | x :: l', y :: r' =>
          if eqb x y then ed l' r' else S (Nat.min (edr r') (Nat.min (ed l' r) (ed l' r')))
      end.

  Lemma ed_nil_l r : ed [] r = List.length r.
  Proof. destruct r; reflexivity. Qed.
  Lemma ed_nil_r l : ed l [] = List.length l.
  Proof. destruct l; reflexivity. Qed.
  Lemma ed_cons x l y r :
    ed (x :: l) (y :: r) = if eqb x y then ed l r
                           else S (Nat.min (ed (x :: l) r) (Nat.min (ed l (y :: r)) (ed l r))).
  Proof. reflexivity. Qed.

  Lemma ed_lipschitz n : forall l r, List.length l + List.length r <= n ->
    (forall y, ed l (y :: r) <= S (ed l r)) /\ (forall y, ed l r <= S (ed l (y :: r)))
    /\ (forall x, ed (x :: l) r <= S (ed l r)) /\ (forall x, ed l r <= S (ed (x :: l) r)).
  Proof.
    induction n as [|n IH]; intros l r Hn.
    - destruct l, r; cbn [List.length] in Hn; try lia. repeat split; intros z; cbn; lia.
    - assert (L1 : forall y, ed l (y :: r) <= S (ed l r)).
      { intros y. destruct l as [|x l]; [rewrite !ed_nil_l; cbn; lia|].
        rewrite ed_cons. cbn [List.length] in Hn.
        destruct (IH l r ltac:(lia)) as (_ & _ & _ & I4). specialize (I4 x).
        destruct (eqb x y); lia. }
      assert (L3 : forall x, ed (x :: l) r <= S (ed l r)).
      { intros x. destruct r as [|y r]; [rewrite !ed_nil_r; cbn; lia|].
        rewrite ed_cons. cbn [List.length] in Hn.
        destruct (IH l r ltac:(lia)) as (_ & I2 & _ & _). specialize (I2 y).
        destruct (eqb x y); lia. }
      assert (L2 : forall y, ed l r <= S (ed l (y :: r))).
      { intros y. destruct l as [|x l]; [rewrite !ed_nil_l; cbn; lia|].
        rewrite ed_cons. cbn [List.length] in Hn.
        destruct (IH l r ltac:(lia)) as (I1 & I2 & I3 & I4).
        specialize (I2 y). specialize (I3 x).
        destruct (eqb x y); [exact I3|]. lia. }
      assert (L4 : forall x, ed l r <= S (ed (x :: l) r)).
      { intros x. destruct r as [|y r]; [rewrite !ed_nil_r; cbn; lia|].
        rewrite ed_cons. cbn [List.length] in Hn.
        destruct (IH l r ltac:(lia)) as (I1 & I2 & I3 & I4).
        specialize (I1 y). specialize (I4 x).
        destruct (eqb x y); [exact I1|]. lia. }
      auto.
  Qed.

  Lemma ed_ins l y r : ed l (y :: r) <= S (ed l r).
  Proof. now apply (ed_lipschitz _ l r (le_n _)). Qed.
  Lemma ed_del x l r : ed l r <= S (ed (x :: l) r).
  Proof. now apply (ed_lipschitz _ l r (le_n _)). Qed.
  Lemma ed_rem l y r : ed l r <= S (ed l (y :: r)).
  Proof. now apply (ed_lipschitz _ l r (le_n _)). Qed.
  Lemma ed_add x l r : ed (x :: l) r <= S (ed l r).
  Proof. now apply (ed_lipschitz _ l r (le_n _)). Qed.

  Lemma ed_refl l : ed l l = 0.
  Proof.
    induction l as [|x l IH]; [easy|]. rewrite ed_cons.
    now replace (eqb x x) with true by (symmetry; now apply eqb_ok).
  Qed.

  (** A common head never increases the difference. *)
  Lemma ed_head_le l m (k : nat) :
    (forall r, ed l r <= k + ed m r) -> forall x r, ed (x :: l) r <= k + ed (x :: m) r.
  Proof.
    intros H x r. induction r as [|y r IH].
    - rewrite !ed_nil_r. specialize (H []). rewrite !ed_nil_r in H. cbn [List.length]. lia.
    - rewrite !ed_cons. pose proof (H (y :: r)). pose proof (H r). destruct (eqb x y); lia.
  Qed.

  Lemma ed_edit l m : edit l m -> forall r, ed l r <= 1 + ed m r.
  Proof.
    assert (P : forall p s s', (forall r, ed s r <= 1 + ed s' r) ->
                          forall r, ed (p ++ s) r <= 1 + ed (p ++ s') r).
    { induction p as [|x p IH]; intros s s' H; [exact H|]. cbn [app].
      apply ed_head_le. now apply IH. }
    intros [p s x|p s x|p s x y]; apply P; intros r.
    - apply ed_del.
    - apply ed_add.
    - induction r as [|z r IHr].
      + rewrite !ed_nil_r. cbn. lia.
      + rewrite !ed_cons. pose proof (ed_del y s r). pose proof (ed_rem s z r). destruct (eqb x z), (eqb y z); lia.
  Qed.

  Lemma ed_lower n l r : edits n l r -> ed l r <= n.
  Proof.
    induction 1 as [l|n l m r H _ IH].
    - now rewrite ed_refl.
    - pose proof (ed_edit l m H r). lia.
  Qed.

  Lemma edits_head n (l r : list A) x : edits n l r -> edits n (x :: l) (x :: r).
  Proof.
    induction 1 as [l|n l m r H _ IH]; [constructor|].
    apply edits_step with (x :: m); [|exact IH].
    destruct H as [p s z|p s z|p s z y].
    - exact (edit_insert (x :: p) s z).
    - exact (edit_delete (x :: p) s z).
    - exact (edit_subst (x :: p) s z y).
  Qed.

  Lemma ed_reached l : forall r, edits (ed l r) l r.
  Proof.
    induction l as [|x l IHl].
    - intros r. rewrite ed_nil_l. induction r as [|y r IHr]; [constructor|].
      cbn [List.length]. apply edits_step with [y]; [exact (edit_insert [] [] y)|].
      now apply edits_head.
    - induction r as [|y r IHr].
      + rewrite ed_nil_r. cbn [List.length]. apply edits_step with l; [exact (edit_delete [] l x)|].
        specialize (IHl []). now rewrite ed_nil_r in IHl.
      + rewrite ed_cons. destruct (eqb x y) eqn:E.
        * apply eqb_ok in E. subst y. now apply edits_head.
        * assert (C : forall k, edits k l r -> edits (S k) (x :: l) (y :: r)).
          { intros k Hk. apply edits_step with (y :: l); [exact (edit_subst [] l x y)|].
            now apply edits_head. }
          assert (D : forall k, edits k l (y :: r) -> edits (S k) (x :: l) (y :: r)).
          { intros k Hk. apply edits_step with l; [exact (edit_delete [] l x)|exact Hk]. }
          assert (I : forall k, edits k (x :: l) r -> edits (S k) (x :: l) (y :: r)).
          { intros k Hk. apply edits_step with (y :: x :: l); [exact (edit_insert [] _ y)|].
            now apply edits_head. }
          destruct (Nat.min_spec (ed (x :: l) r) (Nat.min (ed l (y :: r)) (ed l r))) as [[_ ->]|[_ ->]];
            [now apply I|].
          destruct (Nat.min_spec (ed l (y :: r)) (ed l r)) as [[_ ->]|[_ ->]];
            [now apply D|now apply C].
  Qed.

  Lemma edit_rev (l m : list A) : edit l m -> edit (rev l) (rev m).
  Proof.
    intros [p s x|p s x|p s x y]; rewrite !rev_app_distr; cbn [rev]; rewrite <- ?app_assoc;
      cbn [app]; constructor.
  Qed.

  Lemma edits_rev n (l m : list A) : edits n l m -> edits n (rev l) (rev m).
  Proof.
    induction 1 as [l|n l m r H _ IH]; [constructor|].
    apply edits_step with (rev m); [now apply edit_rev|exact IH].
  Qed.

  (** The row of the table for the prefix with reversal [p], behind position [q] (reversed). *)
  Fixpoint row (p q bs : list A) : list nat :=
    match bs with
    | [] => []
    | y :: bs' => ed p (y :: q) :: row p (y :: q) bs'
    end.

  Lemma lev_row_ok c1 p bs : forall q,
    lev_row eqb c1 bs (ed (c1 :: p) q) (ed p q) (row p q bs) = row (c1 :: p) q bs.
  Proof.
    induction bs as [|y bs IH]; intros q; cbn [lev_row row]; [easy|].
    assert (E : (if eqb c1 y then ed p q
                 else Nat.min (ed (c1 :: p) q) (Nat.min (ed p (y :: q)) (ed p q)) + 1)
                = ed (c1 :: p) (y :: q)).
    { rewrite ed_cons. destruct (eqb c1 y); lia. }
    rewrite E. f_equal. apply IH.
  Qed.

  Lemma lev_rows_ok as_ bs : forall p,
    lev_rows eqb as_ bs (List.length p) (ed p [] :: row p [] bs)
    = ed (rev as_ ++ p) [] :: row (rev as_ ++ p) [] bs.
  Proof.
    induction as_ as [|c as_ IH]; intros p; [easy|].
    cbn [lev_rows tl rev].
    assert (E : lev_row eqb c bs (List.length p + 1) (List.length p) (row p [] bs)
                = row (c :: p) [] bs).
    { rewrite <- lev_row_ok, !ed_nil_r. cbn [List.length]. now rewrite Nat.add_1_r. }
    rewrite E. replace (List.length p + 1) with (ed (c :: p) [])
      by (rewrite ed_nil_r; cbn [List.length]; lia).
    change (S (List.length p)) with (List.length (c :: p)).
    rewrite IH. now rewrite <- app_assoc.
  Qed.

  Lemma row_init bs : forall q, row [] q bs = seq (S (List.length q)) (List.length bs).
  Proof.
    induction bs as [|y bs IH]; intros q; [easy|].
    cbn [row List.length seq]. rewrite ed_nil_l, IH. reflexivity.
  Qed.

  Lemma row_last p bs : forall q d, last (d :: row p q bs) 0 = match bs with [] => d | _ => ed p (rev bs ++ q) end.
  Proof.
    induction bs as [|y bs IH]; intros q d; [easy|].
    cbn [row]. change (last (d :: ed p (y :: q) :: row p (y :: q) bs) 0)
      with (last (ed p (y :: q) :: row p (y :: q) bs) 0).
    rewrite IH. cbn [rev]. rewrite <- app_assoc. cbn [app]. destruct bs; reflexivity.
  Qed.

  Lemma lev_ed as_ bs : lev eqb as_ bs = ed (rev as_) (rev bs).
  Proof.
    unfold lev. destruct as_ as [|x as_].
    - cbn [rev]. now rewrite ed_nil_l, rev_length.
    - destruct bs as [|y bs].
      + change (rev (@nil A)) with (@nil A). now rewrite ed_nil_r, rev_length.
      + assert (E : seq 0 (S (List.length (y :: bs))) = ed [] [] :: row [] [] (y :: bs)).
        { now rewrite row_init. }
        rewrite E. change 0 with (List.length (@nil A)) at 1.
        rewrite lev_rows_ok, row_last. now rewrite !app_nil_r.
  Qed.

  Lemma lev_distance as_ bs : edit_distance_is (lev eqb as_ bs) as_ bs.
  Proof.
    rewrite lev_ed. split.
    - pose proof (edits_rev _ _ _ (ed_reached (rev as_) (rev bs))) as H.
      now rewrite !rev_involutive in H.
    - intros m H. apply ed_lower. now apply edits_rev.
  Qed.
End Lev.

Lemma levenshtein_distance_ok x y gx gy :
  graphemes x = Some gx -> graphemes y = Some gy ->
  exists d, levenshtein_distance x y = Some d /\ edit_distance_is d gx gy.
Proof.
  intros Hx Hy. unfold levenshtein_distance. rewrite Hx, Hy.
  eexists. split; [reflexivity|]. apply lev_distance. apply beq_eq.
Qed.

Lemma edit_distance_unique {A} n m (l r : list A) :
  edit_distance_is n l r -> edit_distance_is m l r -> n = m.
Proof. intros [H1 H2] [H3 H4]. specialize (H2 m H3). specialize (H4 n H1). lia. Qed.

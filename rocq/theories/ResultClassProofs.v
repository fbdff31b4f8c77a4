(** Proofs about utility/result.hpp. *)
From Verif Require Import Bytes ResultClass SpecResultClass.

Section ResultClassProofs.
  Context {V E : Type}.
  Variable left_value : V -> V.
  Variable left_error : E -> E.
  Variable value_eq : V -> V -> bool.
  Notation step := (step left_value left_error).
  Notation tells := (tells left_value left_error).
  Notation left_over := (left_over left_value left_error).

  Lemma of_sum_tells (x : V + E) : tells (of_sum x) x.
  Proof. destruct x; cbn; repeat split; reflexivity. Qed.

  Lemma move_over (o : op V E) k x : moves o -> step (of_sum (left_over k x)) o = of_sum (left_over (S k) x).
  Proof. intros [-> | ->]; destruct x; reflexivity. Qed.

  Lemma moves_over (x : V + E) : forall os k, Forall moves os ->
    fold_left step os (of_sum (left_over k x)) = of_sum (left_over (List.length os + k) x).
  Proof.
    induction os as [|o os IH]; intros k F; [reflexivity|]. inversion F; subst. cbn [fold_left List.length].
    rewrite move_over by assumption. rewrite IH by assumption. f_equal. f_equal. lia.
  Qed.

  Lemma put_over c before (x : V + E) os : Forall moves os ->
    tells (fold_left step (before ++ Put x :: os) c) (left_over (List.length os) x).
  Proof.
    intro F. rewrite fold_left_app. cbn [fold_left]. 
    change (step _ (Put x)) with (of_sum x : cell V E).
    replace (of_sum x) with (of_sum (left_over 0 x) : cell V E) by (destruct x; reflexivity).
    rewrite moves_over by exact F. rewrite Nat.add_0_r. apply of_sum_tells.
  Qed.

  Lemma tells_unique c x : tells c x -> c = of_sum x.
  Proof.
    destruct x, c; cbn; intros (A & B & C & D & F & G & H & I); try discriminate; try congruence.
    - now injection F as ->.
    - now injection H as ->.
  Qed.

  Lemma equal_told c d x y : tells c x -> tells d y ->
    op_eq value_eq c d = Some (equal_contents value_eq x y) /\
    op_ne value_eq c d = Some (negb (equal_contents value_eq x y)).
  Proof. intros H K. apply tells_unique in H, K. subst. destruct x, y; split; reflexivity. Qed.

  Lemma value_told c x w : tells c x ->
    op_eq_value value_eq c w = Some (equal_contents value_eq x (inl w)) /\
    value_op_eq value_eq w c = Some (equal_contents value_eq x (inl w)) /\
    op_ne_value value_eq c w = Some (negb (equal_contents value_eq x (inl w))) /\
    value_op_ne value_eq w c = Some (negb (equal_contents value_eq x (inl w))).
  Proof. intro H. apply tells_unique in H. subst. destruct x; repeat split; reflexivity. Qed.

  Lemma never_nothing (os : list (op V E)) :
    Forall (fun o => forall x, o <> Broken x) os -> forall x, exists y, tells (fold_left step os (of_sum x)) y.
  Proof.
    intro F. induction F as [|o os N F IH]; intro x; cbn [fold_left]; [exists x; apply of_sum_tells|].
    destruct o as [y|y| |].
    - apply IH.
    - exfalso. now apply (N y).
    - destruct x as [v|e]; [apply (IH (inl (left_value v)))|apply (IH (inr (left_error e)))].
    - destruct x as [v|e]; [apply (IH (inl (left_value v)))|apply (IH (inr (left_error e)))].
  Qed.
End ResultClassProofs.

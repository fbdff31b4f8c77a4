(** Proofs about multi_lang/root_wrapper.hpp. *)
From Verif Require Import Bytes Token Result Tree PreParse Parse Root Help HelpMore MultiLang Wrapper.
From Verif Require Import SpecWrapper TextProofs.

Lemma selected_column i uses : forall texts, selected_strings i uses = Some texts <-> column i uses texts.
Proof.
  unfold column. induction uses as [|row uses IH]; intro texts; cbn [selected_strings]; split; intro H.
  - injection H as <-. constructor.
  - inversion H. reflexivity.
  - unfold selected_string in H. destruct (nth_error row i) eqn:N; [|discriminate].
    destruct (selected_strings i uses) as [ss|]; [|discriminate]. injection H as <-.
    constructor; [exact N|]. now apply IH.
  - inversion H as [|? t ? ts N F]; subst. unfold selected_string. rewrite N.
    apply IH in F. now rewrite F.
Qed.

Lemma selected_exists i uses :
  (exists texts, selected_strings i uses = Some texts) <-> Forall (fun row => i < List.length row) uses.
Proof.
  induction uses as [|row uses IH]; cbn [selected_strings]; split; intro H.
  - constructor.
  - eexists. reflexivity.
  - destruct H as (ts & H). unfold selected_string in H. destruct (nth_error row i) eqn:N; [|discriminate].
    destruct (selected_strings i uses) as [ss|]; [|discriminate].
    constructor; [apply nth_error_Some; congruence|]. apply IH. now exists ss.
  - inversion H as [|? ? N F]; subst. apply IH in F as (ss & ->). unfold selected_string.
    destruct (nth_error row i) eqn:E; [eauto|]. apply nth_error_None in E. lia.
Qed.

Lemma wrapper_compiles_iff codes uses :
  wrapper_compiles codes uses = true <->
  1 < List.length codes /\ NoDup codes /\ Forall (fun row => List.length codes <= List.length row) uses.
Proof.
  unfold wrapper_compiles. rewrite !andb_true_iff, Nat.ltb_lt.
  assert (D : all_distinct codes = true <-> NoDup codes).
  { clear. induction codes as [|c codes IH]; cbn [all_distinct]; [split; [constructor|reflexivity]|].
    rewrite andb_true_iff, IH, negb_true_iff. split.
    - intros [H N]. constructor; [|exact N]. intro I.
      assert (existsb (beq c) codes = true) by (apply existsb_exists; exists c; split; [exact I|apply beq_refl]).
      congruence.
    - intro N. inversion N as [|? ? I N']; subst. split; [|exact N'].
      destruct (existsb (beq c) codes) eqn:X; [|reflexivity]. apply existsb_exists in X as (d & I' & X).
      apply beq_eq in X. subst. contradiction. }
  rewrite D, forallb_forall. split.
  - intros [[L N] F]. repeat split; [exact L|exact N|].
    assert (S : exists t, selected_strings (List.length codes - 1) uses = Some t).
    { specialize (F (List.length codes - 1)). destruct selected_strings; [eauto|].
      discriminate F. apply in_seq. lia. }
    apply selected_exists in S. eapply Forall_impl; [|exact S]. cbv beta. intros. lia.
  - intros (L & N & F). repeat split; [exact L|exact N|]. intros i I. apply in_seq in I.
    assert (S : exists t, selected_strings i uses = Some t).
    { apply selected_exists. eapply Forall_impl; [|exact F]. cbv beta. intros. lia. }
    destruct S as (t & ->). reflexivity.
Qed.

Section Wrap.
  Context {R : Type}.
  Variable fn : nat -> R.

  Lemma consider_done codes request r calls : forall is,
    fold_left (consider_index fn codes request) is (Some r, calls) = (Some r, calls).
  Proof. induction is as [|i is IH]; [reflexivity|]. cbn [fold_left]. exact IH. Qed.

  Lemma consider_other codes request calls i : nth i codes [] <> request ->
    consider_index fn codes request (None, calls) i = (None, calls).
  Proof.
    intro H. unfold consider_index. cbn [fst snd].
    match goal with |- context [beq ?x ?y] => destruct (beq x y) eqn:B end; [|reflexivity].
    apply beq_eq in B. exfalso. apply H. now symmetry.
  Qed.

  Lemma consider_this codes request calls i : nth i codes [] = request ->
    consider_index fn codes request (None, calls) i = (Some (fn i), calls ++ [i]).
  Proof. intros <-. unfold consider_index. cbn [fst snd]. now rewrite beq_refl. Qed.

  Lemma consider_skips codes request calls : forall is,
    (forall i, In i is -> nth i codes [] <> request) ->
    fold_left (consider_index fn codes request) is (None, calls) = (None, calls).
  Proof.
    induction is as [|i is IH]; intro H; [reflexivity|]. cbn [fold_left].
    rewrite consider_other by (apply H; now left). apply IH. intros j I. apply H. now right.
  Qed.

  Lemma wrap_used codes request j : NoDup codes -> used codes request j ->
    wrap fn codes request = (fn j, [j]).
  Proof.
    intros N U. unfold wrap. destruct U as [j U|U].
    - assert (L : j < List.length codes) by (apply nth_error_Some; congruence).
      replace (List.length codes) with (j + S (List.length codes - S j)) by lia.
      rewrite seq_app, fold_left_app. cbn [seq plus fold_left].
      rewrite consider_skips.
      2:{ intros i I E. apply in_seq in I.
          assert (i = j); [|lia].
          apply (proj1 (NoDup_nth_error codes) N); [lia|]. rewrite U.
          rewrite (nth_error_nth' codes [] (n := i)) by lia. f_equal. exact E. }
      rewrite consider_this by (apply nth_error_nth; exact U). now rewrite consider_done.
    - rewrite consider_skips; [reflexivity|]. intros i I E. apply in_seq in I. apply U. rewrite <- E.
      apply nth_In. exact (proj2 I).
  Qed.
End Wrap.

Lemma wrapped_used R (build : list bytes -> R) codes uses request j :
  wrapper_compiles codes uses = true -> used codes request j ->
  exists texts, column j uses texts /\ wrapped_root build codes uses request = (build texts, [j]).
Proof.
  intros C U. apply wrapper_compiles_iff in C as (L & N & F).
  assert (S : exists t, selected_strings j uses = Some t).
  { apply selected_exists. eapply Forall_impl; [|exact F]. cbv beta. intros row Lr.
    destruct U as [j U|U]; [|lia]. assert (j < List.length codes) by (apply nth_error_Some; congruence). lia. }
  destruct S as (texts & S). exists texts. split; [now apply selected_column|].
  unfold wrapped_root. rewrite (wrap_used _ codes request j N U), S. reflexivity.
Qed.

Lemma used_exists codes request : exists j, used codes request j.
Proof.
  destruct (in_dec (list_eq_dec ascii_dec) request codes) as [I|I].
  - apply In_nth_error in I as (j & I). exists j. now constructor.
  - exists 0. now constructor.
Qed.

Lemma same_as_root (build : list bytes -> node) default others uses request (factory : bytes -> node) :
  wrapper_compiles (default :: others) uses = true ->
  (forall j lang texts, nth_error (default :: others) j = Some lang -> column j uses texts ->
     factory lang = build texts) ->
  fst (wrapped_root build (default :: others) uses request) = multi_root factory default others request.
Proof.
  intros C F. destruct (used_exists (default :: others) request) as (j & U).
  destruct (wrapped_used node build _ uses request j C U) as (texts & Col & ->). cbn [fst].
  unfold multi_root. destruct U as [j U|U].
  - rewrite (@select_supported node factory) by (eapply nth_error_In; exact U). cbn [fst]. symmetry.
    now apply (F j).
  - rewrite (@select_default node factory) by exact U. cbn [fst]. symmetry. now apply (F 0).
Qed.

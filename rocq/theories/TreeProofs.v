(** Induction on trees and basic lemmas on nodes. *)
From Verif Require Import Bytes Token Result CodePoint Utf8 Tree.

Section NodeInd.
  Variable P : node -> Prop.
  Hypothesis H : forall k id ty ps cs, Forall P cs -> P (Node k id ty ps cs).

  Fixpoint node_ind' (n : node) : P n :=
    match n with
    | Node k id ty ps cs =>
        H k id ty ps cs
          ((fix go (l : list node) : Forall P l :=
              match l with
              | [] => Forall_nil P
              | c :: l' => Forall_cons c (node_ind' c) (go l')
              end) cs)
    end.
End NodeInd.

Lemma preorder_eq n ps :
  preorder n ps = (n, ps) :: flat_map (fun c => preorder c (n :: ps)) (n_children n).
Proof. destruct n; reflexivity. Qed.

Lemma preorder_parents n ps c qs : In (c, qs) (preorder n ps) -> exists q, qs = q ++ ps.
Proof.
  revert ps c qs. induction n as [k id ty pols cs IH] using node_ind'. intros ps c qs.
  rewrite preorder_eq. cbn [n_children]. intros [Hin|Hin].
  - injection Hin as <- <-. now exists [].
  - apply in_flat_map in Hin as (d & Hd & Hin). rewrite Forall_forall in IH.
    destruct (IH d Hd _ _ _ Hin) as [q ->]. exists (q ++ [Node k id ty pols cs]).
    now rewrite <- app_assoc.
Qed.

(** Byte strings: the model of [std::string_view] / [std::string] contents. *)
From Coq Require Export List Ascii String Bool Arith NArith ZArith Lia.
Export ListNotations.
Open Scope list_scope.

(** A [std::string_view] is modelled by the list of its bytes; the pointer identity of the view
    is not modelled. *)
Definition bytes := list ascii.

(** Byte string literal. *)
Definition b (s : string) : bytes := list_ascii_of_string s.

(** [static_cast<std::uint8_t>(c)]. *)
Definition byte_val (c : ascii) : N := N_of_ascii c.

(** [operator==] on string views. *)
Fixpoint beq (x y : bytes) : bool :=
  match x, y with
  | [], [] => true
  | c :: x', d :: y' => Ascii.eqb c d && beq x' y'
  | _, _ => false
  end.

(** utility/string_view_ops.hpp / parsing/token_type.hpp:103-116 [starts_with]: [s] starts with [p]. *)
Fixpoint starts_with (p s : bytes) : bool :=
  match p, s with
  | [], _ => true
  | c :: p', d :: s' => Ascii.eqb c d && starts_with p' s'
  | _ :: _, [] => false
  end.

(** [s.find(c)] for a single byte: the index of the first occurrence. *)
Fixpoint find_byte (c : ascii) (s : bytes) : option nat :=
  match s with
  | [] => None
  | d :: s' => if Ascii.eqb c d then Some 0 else option_map S (find_byte c s')
  end.

(** Does the byte occur in the string? *)
Fixpoint mem_byte (c : ascii) (s : bytes) : bool :=
  match s with
  | [] => false
  | d :: s' => Ascii.eqb c d || mem_byte c s'
  end.

(** [s.find_first_of(set)]: index of the first byte of [s] that is any of the bytes of [set]. *)
Fixpoint find_first_of (set s : bytes) : option nat :=
  match s with
  | [] => None
  | d :: s' => if mem_byte d set then Some 0 else option_map S (find_first_of set s')
  end.

Lemma beq_eq x y : beq x y = true <-> x = y.
Proof.
  revert y; induction x as [|c x IH]; intros [|d y]; simpl; split; intro H; try easy.
  - apply andb_true_iff in H as [H1 H2]. apply Ascii.eqb_eq in H1. apply IH in H2. congruence.
  - injection H as -> ->. rewrite Ascii.eqb_refl. simpl. now apply IH.
Qed.

Lemma beq_refl x : beq x x = true.
Proof. now apply beq_eq. Qed.

Lemma beq_neq x y : beq x y = false <-> x <> y.
Proof.
  destruct (beq x y) eqn:E.
  - apply beq_eq in E. split; [easy|congruence].
  - split; [|easy]. intros _ ->. now rewrite beq_refl in E.
Qed.

Lemma beq_sym x y : beq x y = beq y x.
Proof.
  destruct (beq x y) eqn:E; symmetry.
  - apply beq_eq in E. subst. apply beq_refl.
  - apply beq_neq in E. apply beq_neq. congruence.
Qed.

Lemma bytes_eq_dec (x y : bytes) : {x = y} + {x <> y}.
Proof. apply list_eq_dec. apply ascii_dec. Qed.

Lemma starts_with_app p s : starts_with p s = true <-> exists r, s = p ++ r.
Proof.
  revert s; induction p as [|c p IH]; intros s; simpl.
  - split; [intros _; now exists s|easy].
  - destruct s as [|d s].
    + split; [easy|]. now intros [r H].
    + rewrite andb_true_iff, Ascii.eqb_eq, IH. split.
      * intros [-> [r ->]]. now exists r.
      * intros [r H]. injection H as -> ->. split; [easy|]. now exists r.
Qed.

Lemma byte_val_lt c : (byte_val c < 256)%N.
Proof. unfold byte_val. apply N_ascii_bounded. Qed.

(** Specification for C85: which trees compile with the prefixes [lp] and [sp].  The rules are those of SpecRules.v
    but for short names and the short-form expander. *)
From Verif Require Import Bytes Token Tree SpecRules.

Definition policy_ok_with (lp sp : bytes) (p : policy) (n : node) (parents : list node) : Prop :=
  match p with
  | PShortName s => characters s 1 /\ sp ++ s <> lp /\ only_here p n parents
  | PShortFormExpander => has n k_short /\ lp <> sp
  | _ => policy_ok p n parents
  end.

(** The short prefix is one character, the long one at least one. *)
Definition prefixes_ok (lp sp : bytes) : Prop := characters sp 1 /\ exists k, characters lp k /\ 1 <= k.

Definition compiles_with (lp sp : bytes) (r : node) : Prop :=
  prefixes_ok lp sp /\ a_root r
  /\ forall n parents, placed r n parents ->
       NoDup (map kind_of (n_pols n)) /\ class_ok n parents /\ forall p, In p (n_pols n) -> policy_ok_with lp sp p n parents.

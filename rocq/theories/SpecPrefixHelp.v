(** Specification for C86: names on the help page and in messages when the prefixes are [lp] and [sp]. *)
From Verif Require Import Bytes Token CodePoint Utf8 Tree PreParse SpecHelp SpecPrefix.

(** The command line is the name [w] of the help argument [h] of the root and then [words]; the arguments before
    [h] are not selected by [w], and [w] is more than the short prefix and can be decoded behind it. *)
Definition asks_help (lp sp : bytes) (r h : node) (w : bytes) : Prop :=
  exists before after, n_children r = before ++ h :: after /\ n_kind h = KHelp /\ simple_argument h
    /\ heads lp sp h (Tok PNone w) []
    /\ (forall d letters, In d before -> plain_child d /\ ~ heads lp sp d (Tok PNone w) letters)
    /\ forall nm, w = sp ++ nm -> nm <> [] /\ graphemes nm <> None.

(** A word that is the short name of [n] behind the short prefix, but reads as a long name: it begins with the
    long prefix. *)
Definition misread (lp sp : bytes) (n : node) (w : bytes) : Prop :=
  (exists c, short_name n = Some c /\ w = sp ++ c) /\ begins lp w.

(** A token as it is typed. *)
Definition behind (lp sp : bytes) (t : token) : bytes :=
  match t_prefix t with PLong => lp | PShort => sp | PNone => [] end ++ t_name t.

(** Specification for C10: groups of short flags. *)
From Verif Require Import Bytes Token Result CodePoint Utf8 Tree PreParse Root.
From Verif Require Import SpecTake SpecMode SpecDeliver SpecRoot SpecReading SpecClaims SpecSafe.

(** "-g" as it is typed. *)
Definition dashed (g : bytes) : token := Tok PNone (short_prefix ++ g).

(** [g] is the short name of argument [f] of mode [m]; [f] is declared before any positional argument,
    is enabled and has no value separator. *)
Record letter (m : node) (g : bytes) (f : node) : Prop := {
  lt_entry : exists before i after, entries m = before ++ (i, f) :: after
               /\ forall j k, In (j, k) before -> is_named k = true;
  lt_name : short_name f = Some g;
  lt_enabled : enabled f;
  lt_separator : value_separator f = None
}.

(** The text is not that of a long name, nor the name of an argument without prefix, and has no
    character that some argument of [m] uses as a value separator. *)
Record plain_text (m : node) (s : bytes) : Prop := {
  pt_long : starts_with long_prefix s = false;
  pt_none : forall l, argument_of m l -> none_name l <> Some s;
  pt_separator : forall l sep c, argument_of m l -> value_separator l = Some sep -> In c sep -> ~ In c s
}.

(** [flag_group m gs]: all of [gs] are short names of [m]; all but the last are flags, and the first is
    one that may be grouped. *)
Record flag_group (m : node) (gs : list bytes) : Prop := {
  fg_some : gs <> [];
  fg_clusters : graphemes (List.concat gs) = Some gs;
  fg_letters : forall g, In g gs -> exists f, letter m g f;
  fg_flags : forall before g after f, gs = before ++ g :: after -> after <> [] -> letter m g f ->
               count_bounds f = Some (0%N, 0%N) /\ token_end_marker f = None;
  fg_first : forall f, letter m (hd [] gs) f -> In PShortFormExpander (n_pols f);
  fg_text : forall g, In g (List.concat gs :: gs) -> plain_text m (short_prefix ++ g)
}.

(** [leading_group m gs hs]: such letters [gs] in front of any others [hs]. *)
Record leading_group (m : node) (gs hs : list bytes) : Prop := {
  lg_some : gs <> [];
  lg_clusters : graphemes (List.concat (gs ++ hs)) = Some (gs ++ hs);
  lg_letters : forall g, In g gs -> exists f, letter m g f;
  lg_flags : forall before g after f, gs = before ++ g :: after -> after <> [] -> letter m g f ->
               count_bounds f = Some (0%N, 0%N) /\ token_end_marker f = None;
  lg_first : forall f, letter m (hd [] gs) f -> In PShortFormExpander (n_pols f);
  lg_text : forall g, In g (List.concat (gs ++ hs) :: gs) -> plain_text m (short_prefix ++ g)
}.

(** The command line [args] selects mode [m], for which the tokens [ts] are left. *)
Definition reaches (r : node) (args : list token) (m : node) (ts : list token) : Prop :=
  exists before c after ps, n_children r = before ++ c :: after
    /\ (forall d, In d before -> passed_over args d)
    /\ is_mode c = true /\ selects c [r] args m ps ts.

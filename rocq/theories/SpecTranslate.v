(** What it means that a program is the translation of another one into a different language, and that a
    command line says the same in both: the specification for C79. *)
From Verif Require Import Bytes Token Result CodePoint Utf8 Tree.
From Verif Require Import SpecTake SpecMode SpecDeliver SpecRoot SpecReading SpecClaims SpecWording.

(** A dictionary: which long names, and which names without a prefix (those of the modes), correspond.
    Short names are the same in both languages.  As names are part of a node's C++ type, the types of the
    nodes change as well. *)
Record dictionary := Dict {
  d_long : bytes -> bytes -> Prop;
  d_bare : bytes -> bytes -> Prop;
  d_type : N -> N -> Prop
}.

Inductive translated_ref (d : dictionary) : nameref -> nameref -> Prop :=
| ref_long x y : d_long d x y -> translated_ref d (NLong x) (NLong y)
| ref_short x : translated_ref d (NShort x) (NShort x).

(** Policies without words in them. *)
Definition wordless (p : policy) : bool :=
  match p with
  | PLongName _ | PNoneName _ | PAlias _ | PDependent _ => false
  | _ => negb (is_text p)
  end.

(** Names are translated by the dictionary, also where a policy refers to another argument by its name;
    texts that are only shown may be any; all else is kept. *)
Inductive translated_policy (d : dictionary) : policy -> policy -> Prop :=
| tp_long x y : d_long d x y -> translated_policy d (PLongName x) (PLongName y)
| tp_bare x y : d_bare d x y -> translated_policy d (PNoneName x) (PNoneName y)
| tp_alias xs ys : Forall2 (translated_ref d) xs ys -> translated_policy d (PAlias xs) (PAlias ys)
| tp_dependent xs ys : Forall2 (translated_ref d) xs ys -> translated_policy d (PDependent xs) (PDependent ys)
| tp_text p p' : is_text p = true -> is_text p' = true -> translated_policy d p p'
| tp_same p : wordless p = true -> translated_policy d p p.

Inductive translated (d : dictionary) : node -> node -> Prop :=
| Translated k i j t ps ps' cs cs' :
    d_type d i j -> Forall2 (translated_policy d) ps ps' -> Forall2 (translated d) cs cs' ->
    translated d (Node k i t ps cs) (Node k j t ps' cs').

(** The bytes of the value separators of a program, and its end markers. *)
Definition separates (r : node) (c : ascii) : Prop :=
  exists n sep, In n (below r) /\ value_separator n = Some sep /\ In c sep.
Definition marks (r : node) (s : bytes) : Prop := exists n, In n (below r) /\ token_end_marker n = Some s.

Definition one_to_one {A B} (R : A -> B -> Prop) : Prop :=
  forall x y x' y', R x y -> R x' y' -> (x = x' <-> y = y').

(** The text has no byte of a value separator in it. *)
Definition unseparated (sep : ascii -> Prop) (s : bytes) : Prop := forall c, In c s -> ~ sep c.

(** The dictionary has one word for each word; no word has a byte of a value separator in it; and no name
    without a prefix looks like one with a prefix. *)
Record faithful (d : dictionary) (sep : ascii -> Prop) : Prop := {
  f_long : one_to_one (d_long d);
  f_bare : one_to_one (d_bare d);
  f_type : one_to_one (d_type d);
  f_clean_long : forall x y, d_long d x y ->
    unseparated sep (long_prefix ++ x) /\ unseparated sep (long_prefix ++ y);
  f_clean_bare : forall x y, d_bare d x y -> unseparated sep x /\ unseparated sep y;
  f_undashed : forall x y, d_bare d x y ->
    (x <> [] /\ starts_with short_prefix x = false) /\ (y <> [] /\ starts_with short_prefix y = false)
}.

(** [v] may follow a name: nothing, or a value separator and a value. *)
Definition suffix (sep : ascii -> Prop) (v : bytes) : Prop := v = [] \/ exists c s, v = c :: s /\ sep c.

(** A word that is no name in either language, nor is the part of it before a separator. *)
Definition no_word (d : dictionary) (sep : ascii -> Prop) (w : bytes) : Prop :=
  forall s v, w = s ++ v -> suffix sep v ->
    (forall x y, d_long d x y -> s <> long_prefix ++ x /\ s <> long_prefix ++ y)
    /\ (forall x y, d_bare d x y -> s <> x /\ s <> y).

(** [says d sep w w']: what is written [w] in one language is written [w'] in the other: names are
    translated, other words are the same. *)
Inductive says (d : dictionary) (sep : ascii -> Prop) : bytes -> bytes -> Prop :=
| says_long x y v : d_long d x y -> suffix sep v ->
    says d sep (long_prefix ++ x ++ v) (long_prefix ++ y ++ v)
| says_bare x y v : d_bare d x y -> suffix sep v -> says d sep (x ++ v) (y ++ v)
| says_other w : no_word d sep w -> says d sep w w.

(** A command line in both languages.  No translated word is an end marker. *)
Definition same_words (d : dictionary) (r : node) : list bytes -> list bytes -> Prop :=
  Forall2 (fun w w' => says d (separates r) w w' /\ (w = w' \/ ~ marks r w /\ ~ marks r w')).

(** A value that was typed for some argument. *)
Definition typed_value (r : node) (args : list token) (t : token) : Prop :=
  (exists m ts items it, typed r args m ts items /\ In it items /\ In t (i_values it))
  \/ (exists c label vals, In c (n_children r) /\ is_mode c = false /\ consumes c args label vals [] /\ In t vals).

(** No value that was typed looks like a name. *)
Definition plain_values (d : dictionary) (r : node) (args : list token) : Prop :=
  forall t, typed_value r args t -> no_word d (separates r) (t_name t).

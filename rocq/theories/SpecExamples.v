(** Specification for C87-C89: what the command lines of the example programs mean. *)
From Verif Require Import Bytes Token Result Tree CodePoint Utf8 PreParse Examples.

(** The text [nm] behind a single hyphen, or a letter of a group that was written out. *)
Definition dashed (t : token) (nm : bytes) : Prop :=
  t = Tok PShort nm \/ t = Tok PNone (b "-" ++ nm) /\ ~ exists r, nm = b "-" ++ r.

(** The word gives the flag, perhaps in a group with the letters behind it. *)
Definition picks (long short : bytes) (t : token) (letters : list bytes) : Prop :=
  t = Tok PNone (b "--" ++ long) /\ letters = []
  \/ exists nm, dashed t nm /\ graphemes nm = Some (short :: letters).

(** Words that a program with flags of this kind does not survive (C19): not UTF-8, or a hyphen alone at the end. *)
Definition unreadable (t : token) (us : list token) : Prop :=
  exists nm, dashed t nm /\ List.length nm <> 1 /\ (graphemes nm = None \/ nm = [] /\ us = []).

(** Neither: what [t] is taken for is up to the other arguments. *)
Definition ordinary (long short : bytes) (t : token) (us : list token) : Prop :=
  (forall letters, ~ picks long short t letters) /\ ~ unreadable t us.

(** ** simple *)

(** [files_of word many k us force fs]: with [k] file names before them, the words [us] are the file names [fs], perhaps
    with the flag [--word] or [-f] between them; with [many], all the words from the second file name on are file names. *)
Inductive files_of (word : bytes) (many : bool) : nat -> list token -> bool -> list bytes -> Prop :=
| files_end k : files_of word many k [] false []
| files_one k t us force fs :
    ordinary word (b "f") t us -> (many = true -> k <> 1) -> files_of word many (S k) us force fs ->
    files_of word many k (t :: us) force (t_name t :: fs)
| files_rest t us :
    ordinary word (b "f") t us -> many = true -> files_of word many 1 (t :: us) false (map t_name (t :: us))
| files_force k t letters us fs :
    picks word (b "f") t letters -> files_of word many k (map (Tok PShort) letters ++ us) false fs ->
    files_of word many k (t :: us) true fs.

(** ** launcher *)

(** The words up to the first "--", at least one, or all of them. *)
Definition programs (us : list token) (progs : list bytes) (rest : list token) : Prop :=
  exists ps, ps <> [] /\ (forall u, In u ps -> t_name u <> b "--") /\ progs = map t_name ps
    /\ (us = ps /\ rest = [] \/ exists p, us = ps ++ Tok p (b "--") :: rest).

(** No flag in front. *)
Definition no_dry (us : list token) : Prop :=
  forall t us', us = t :: us' -> ordinary (b "dry-run") (b "d") t us'.
Definition dry_first (us us' : list token) : Prop :=
  exists t letters vs, us = t :: vs /\ picks (b "dry-run") (b "d") t letters /\ us' = map (Tok PShort) letters ++ vs.

(** [launch us dry progs args]: the flag may be in front of the programs or in front of the arguments. *)
Inductive launch (us : list token) : bool -> list bytes -> list bytes -> Prop :=
| launch_plain progs rest :
    no_dry us -> programs us progs rest -> no_dry rest -> launch us false progs (map t_name rest)
| launch_dry us' progs rest :
    dry_first us us' -> no_dry us' -> programs us' progs rest -> no_dry rest -> launch us true progs (map t_name rest)
| launch_dry_later progs rest rest' :
    no_dry us -> programs us progs rest -> dry_first rest rest' -> no_dry rest' -> launch us true progs (map t_name rest').

(** A command line of fewer than [vec_max_size] bytes and words. *)
Definition in_memory (words : list bytes) : Prop := (nlen (List.concat words) + nlen words <= vec_max_size)%N.

(** ** The file system *)

(** After moving [src] to [dst] there is what was in [src], nothing is left there, and no other file has changed. *)
Definition moved (f : files) (src dst : bytes) (f' : files) : Prop :=
  f' dst = f src /\ f' src = None /\ forall q, q <> src -> q <> dst -> f' q = f q.

(** ** basic_cat *)

(** The first [limit] lines; a negative limit is none. *)
Definition first_lines {A} (limit : Z) (lines : list A) : list A :=
  if Z.ltb limit 0 then lines else firstn (Z.to_nat limit) lines.
(** A line that is longer than [len] bytes is left out, or cut and marked with the suffix. *)
Definition fitted (len : option N) (suffix : option bytes) (line : bytes) : list bytes :=
  match len with
  | Some k => if N.leb (nlen line) k then [line]
              else match suffix with Some s => [firstn (N.to_nat k) line ++ s] | None => [] end
  | None => [line]
  end.
Definition written_line (ends nonprinting : bool) (line : bytes) : bytes :=
  (if nonprinting then m_notation line else line) ++ (if ends then b "$" else []) ++ [ascii_of_N 10].
(** A byte that a terminal shows as a character, a tab or the end of a line. *)
Definition shown_byte (c : ascii) : Prop :=
  (32 <= N_of_ascii c <= 126 \/ N_of_ascii c = 9 \/ N_of_ascii c = 10)%N.

(** ** The output of a dry run *)

(** Words with a space between them. *)
Fixpoint spaced (words : list bytes) : bytes :=
  match words with
  | [] => []
  | [w] => w
  | w :: ws => w ++ b " " ++ spaced ws
  end.

(** ** The options of basic_cat *)

(** Options with values in the form "--name=value"; flags by their long or short name; "-v", "-vv" and "-vvv". *)
Inductive cat_option :=
| Show_all (short : bool)
| Show_ends (short : bool)
| Show_nonprinting (short : bool)
| Max_lines (s : bytes)
| Max_line_length (s : bytes)
| Skip_line (short : bool)
| Line_suffix (s : bytes)
| Theme (s : bytes)
| Verbose (s : bytes)
| Vs (more : nat).

Definition cat_word (o : cat_option) : bytes :=
  match o with
  | Show_all short => if short then b "-A" else b "--show-all"
  | Show_ends short => if short then b "-E" else b "--show-ends"
  | Show_nonprinting short => if short then b "-n" else b "--show-nonprinting"
  | Max_lines s => b "--max-lines=" ++ s
  | Max_line_length s => b "--max-line-length=" ++ s
  | Skip_line short => if short then b "-s" else b "--skip-line"
  | Line_suffix s => b "--line-suffix=" ++ s
  | Theme s => b "--theme=" ++ s
  | Verbose s => b "--verbose=" ++ s
  | Vs more => b "-v" ++ repeat "v"%char more
  end.

(** Options that have a number in common exclude each other. *)
Definition cat_slots (o : cat_option) : list nat :=
  match o with
  | Show_all _ => [0; 1; 2] | Show_ends _ => [1] | Show_nonprinting _ => [2] | Max_lines _ => [3] | Max_line_length _ => [4]
  | Skip_line _ | Line_suffix _ => [5] | Theme _ => [6] | Verbose _ | Vs _ => [7]
  end.
Definition needs_length (o : cat_option) : Prop :=
  match o with Skip_line _ | Line_suffix _ => True | _ => False end.
(** A value is not empty, and there are at most three letters v. *)
Definition complete (o : cat_option) : Prop :=
  match o with
  | Max_lines s | Max_line_length s | Line_suffix s | Theme s | Verbose s => s <> []
  | Vs more => more <= 2
  | _ => True
  end.
(** No two options exclude each other, and what to do with long lines comes after their length. *)
Definition proper (opts : list cat_option) : Prop :=
  NoDup (flat_map cat_slots opts) /\ Forall complete opts
  /\ forall before o after, opts = before ++ o :: after -> needs_length o -> exists s, In (Max_line_length s) before.

(** The value is what an option says, or [default] if none says anything. *)
Definition said (opts : list cat_option) (says : cat_option -> option (value -> Prop)) (default v : value) : Prop :=
  (exists o P, In o opts /\ says o = Some P /\ P v) \/ (forall o, In o opts -> says o = None) /\ v = default.

Section Options.
Variables int_t length_t : vtype.
Definition says_ends (o : cat_option) : option (value -> Prop) :=
  match o with Show_all _ | Show_ends _ => Some (fun v => v = VBool true) | _ => None end.
Definition says_nonprinting (o : cat_option) : option (value -> Prop) :=
  match o with Show_all _ | Show_nonprinting _ => Some (fun v => v = VBool true) | _ => None end.
Definition says_lines (o : cat_option) : option (value -> Prop) :=
  match o with Max_lines s => Some (fun v => vt_parse int_t s = Ok v) | _ => None end.
Definition says_length (o : cat_option) : option (value -> Prop) :=
  match o with Max_line_length s => Some (fun v => vt_parse length_t s = Ok v) | _ => None end.
Definition says_handling (o : cat_option) : option (value -> Prop) :=
  match o with
  | Skip_line _ => Some (fun v => v = VBool true)
  | Line_suffix s => Some (fun v => v = VStr s)
  | _ => None
  end.
(** Themes and levels by the positions of the enumerators. *)
Definition says_theme (o : cat_option) : option (value -> Prop) :=
  match o with
  | Theme s => Some (fun v => In (s, v) [(b "none", VInt 0); (b "classic", VInt 1); (b "solarized", VInt 2)])
  | _ => None
  end.
Definition says_level (o : cat_option) : option (value -> Prop) :=
  match o with
  | Verbose s => Some (fun v => In (s, v) [(b "error", VInt 0); (b "warning", VInt 1); (b "info", VInt 2); (b "debug", VInt 3)])
  | Vs more => Some (fun v => v = VInt (Z.of_nat (1 + more)))
  | _ => None
  end.
End Options.

(** An option of the advanced mode of runtime_node_enable, the words it is typed as, and which one it is. *)
Inductive adv_option := Feature1 | Feature2 (s : bytes).
Definition adv_words (o : adv_option) : list bytes :=
  match o with Feature1 => [b "--feature1"] | Feature2 s => [b "--feature2"; s] end.
Definition adv_slot (o : adv_option) : nat := match o with Feature1 => 0 | Feature2 _ => 1 end.

(** The same for its other mode; the flags have a long and a short form. *)
Inductive rne_option := Foo (short : bool) | Bar (short : bool) | Licensed (s : bytes).
Definition rne_words (o : rne_option) : list bytes :=
  match o with
  | Foo short => [if short then b "-f" else b "--foo"]
  | Bar short => [if short then b "-b" else b "--bar"]
  | Licensed s => [b "--advance-foo"; s]
  end.
Definition rne_slot (o : rne_option) : nat := match o with Foo _ => 0 | Bar _ => 1 | Licensed _ => 2 end.

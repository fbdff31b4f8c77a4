(** Specification for the help text (C34, C43, C59, C60, C61) and the help argument (C35). *)
From Verif Require Import Bytes Token Result CodePoint Utf8 Tree PreParse Parse Root.
From Verif Require Import SpecTake SpecMode SpecLines SpecReading.

Definition spaces (k : nat) : bytes := repeat (ascii_of_N 32) k.
Definition end_of_line : bytes := [ascii_of_N 10].

(** ** Rows *)

(** [row columns col indent label desc text]: the text is a row of a help page whose descriptions
    start in column [col]: the label, indented, and four columns or more behind it the description if
    there is one.  The description is wrapped so that it does not pass the last column of the
    terminal; its lines start in column [col] as well.  If less than eight columns are left for the
    description it is not wrapped. *)
Inductive row (columns : N) (col indent : nat) (label desc : bytes) : bytes -> Prop :=
| row_plain w :
    desc = [] -> terminal_width label = Some w -> indent + w + 4 <= col ->
    row columns col indent label desc (spaces indent ++ label ++ end_of_line)
| row_described w gap cps line more :
    terminal_width label = Some w -> indent + w + gap = col -> 4 <= gap ->
    cp_split desc = Some cps -> wrapped (line :: more) cps ->
    ((N.of_nat (col + 8) <= columns)%N ->
     Forall (fun l => (N.of_nat (col + list_sum (map cp_width l)) <= columns)%N) (line :: more)) ->
    ((columns < N.of_nat (col + 8))%N -> more = []) ->
    row columns col indent label desc
        (spaces indent ++ label ++ spaces gap ++ List.concat line
         ++ List.concat (map (fun l => end_of_line ++ spaces col ++ List.concat l) more)
         ++ end_of_line).

(** ** Which nodes are listed *)

Definition switched_on (n : node) : bool :=
  match runtime_enabled n with Some false => false | _ => true end.

(** A page that is not flattened does not show what is inside a named mode. *)
Definition closed (flatten : bool) (n : node) : bool :=
  negb flatten && is_mode n && is_some (none_name n).

(** The nodes on the page for [t] in tree order, each with the nodes between it and [t], the nearest
    first: those that are switched on, as is everything above them. *)
Definition listed (flatten : bool) (t : node) : list (node * list node) :=
  filter (fun np => forallb switched_on (fst np :: snd np) && negb (existsb (closed flatten) (snd np)))
         (preorder t []).

(** ** Labels *)

(** A group of alternatives: its members have a line of bars in front of their labels. *)
Definition top : bytes := map ascii_of_N [226; 148; 140; 32]%N.
Definition middle : bytes := map ascii_of_N [226; 148; 156; 32]%N.
Definition bottom : bytes := map ascii_of_N [226; 148; 148; 32]%N.
Definition in_group (parents : list node) : bool :=
  match parents with
  | p :: _ => match n_kind p with KAliasGroup | KOneOf _ => true | _ => false end
  | [] => false
  end.
(** The bar depends on whether the entries above and below are at the same depth, that is, members of
    the same group.  [above] is the depth of the entry above. *)
Fixpoint with_lines (above : option nat) (l : list (node * list node)) : list (node * list node * bytes) :=
  match l with
  | [] => []
  | (n, ps) :: l' =>
      let depth := List.length ps in
      let more_above := match above with Some d => Nat.eqb d depth | None => false end in
      let more_below := match l' with (_, qs) :: _ => Nat.eqb (List.length qs) depth | [] => false end in
      (n, ps, if in_group ps
              then match more_above, more_below with
                   | false, false => []
                   | false, true => top
                   | true, true => middle
                   | true, false => bottom
                   end
              else [])
      :: with_lines (Some depth) l'
  end.

(** Is the page of [t] flat?  If the help argument [h] says so, or it is not the page of the root. *)
Definition flattened (h t : node) (f : bool) : Prop := f = true <-> In PFlattenHelp (n_pols h) \/ n_kind t <> KRoot.

(** The entries of the page; the root has none. *)
Definition on_page (flatten : bool) (t : node) : list (node * list node * bytes) :=
  filter (fun e => match n_kind (fst (fst e)) with KRoot => false | _ => true end)
         (with_lines None (listed flatten t)).

(** The names as they are typed, with the prefixes [lp] and [sp] and with the default ones. *)
Definition typed_behind (lp sp : bytes) (n : node) : list bytes :=
  match long_name n with Some s => [lp ++ s] | None => [] end
  ++ match short_name n with Some s => [sp ++ s] | None => [] end
  ++ match none_name n with Some s => [s] | None => [] end.
Definition typed_names : node -> list bytes := typed_behind (b "--") (b "-").
Definition comma_separated (l : list bytes) : bytes :=
  match l with
  | [] => []
  | s :: l' => s ++ List.concat (map (fun x => b "," ++ x) l')
  end.

(** ** Targets *)

(** The node is called [s] on the command line. *)
Definition called_by (n : node) (s : bytes) : Prop := In s (typed_names n).

(** A short name that begins with "-" (a cluster such as "-" with an accent) could not be told from a
    long name; it is excluded. *)
Definition plain_short (n : node) : Prop :=
  forall s, short_name n = Some s -> starts_with short_prefix s = false.

(** [path n names t]: from [n] the names lead to [t], each name to the first child of that name; all
    the nodes on the way are switched on. *)
Inductive path : node -> list bytes -> node -> Prop :=
| path_here n : enabled n -> path n [] n
| path_child n before c after s names t :
    enabled n -> n_children n = before ++ c :: after -> called_by c s ->
    (forall d, In d before -> ~ called_by d s) -> path c names t ->
    path n (s :: names) t.

(** [lost n names s]: the names lead to a node that has no child called by the next name, [s]. *)
Inductive lost : node -> list bytes -> bytes -> Prop :=
| lost_here n s names : enabled n -> (forall c, In c (n_children n) -> ~ called_by c s) ->
    lost n (s :: names) s
| lost_below n before c after s names x :
    enabled n -> n_children n = before ++ c :: after -> called_by c s ->
    (forall d, In d before -> ~ called_by d s) -> lost c names x ->
    lost n (s :: names) x.

(** The names lead to a node that is switched off, and stop there or go on with [s]. *)
Inductive reaches_off : node -> list bytes -> list bytes -> Prop :=
| off_here n names : ~ enabled n -> reaches_off n names names
| off_below n before c after s names x :
    enabled n -> n_children n = before ++ c :: after -> called_by c s ->
    (forall d, In d before -> ~ called_by d s) -> reaches_off c names x ->
    reaches_off n (s :: names) x.

(** The first child of the root that the command line is for is the help argument [h], called by its
    name; the rest of the command line is [names]. *)
Definition asks (r h : node) (argv : list bytes) (names : list bytes) : Prop :=
  exists before after s, n_children r = before ++ h :: after /\ n_kind h = KHelp
    /\ argv = s :: names /\ called_by h s
    /\ forall d, In d before -> passed_over (map (Tok PNone) argv) d.

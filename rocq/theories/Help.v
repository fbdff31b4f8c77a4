(** Model of the help text: the help data of the node classes (tree_node.hpp, mode.hpp, root.hpp,
    multi_arg.hpp, positional_arg.hpp, forwarding_arg.hpp, dependency/*.hpp), help.hpp and
    policy/default_help_formatter.hpp with its default settings. *)
From Verif Require Import Bytes Token Result CodePoint Utf8 Tree PreParse Parse Root Digits.

(** default_help_formatter.hpp:228-229: the default [Indent] and [DescColumnOffset]. *)
Definition help_indent : nat := 4.
Definition desc_column_offset : nat := 8.

(** policy/min_max_value.hpp:95-171: the bounds of a [min_max_value_ct] and whether their type is
    unsigned.  Only this compile-time variant of the policy has the static methods that the labels
    use (tree_node.hpp:179-180); the model's [PMinMaxValue] stands for both variants, so which nodes
    have these bounds is a separate parameter here. *)
Record limits := Limits { lim_min : option Z; lim_max : option Z; lim_unsigned : bool }.

Section Labels.
Variable limits_of : node -> option limits.

(** tree_node.hpp:177-224 [value_suffix]. *)
Definition value_suffix (n : node) : bytes :=
  match limits_of n with
  | Some (Limits (Some mn) (Some mx) _) => b "<" ++ integral_cts mn ++ b "-" ++ integral_cts mx ++ b ">"
  | Some (Limits (Some mn) None _) => b "<" ++ integral_cts mn ++ b "-" ++ b "N" ++ b ">"
  | Some (Limits None (Some mx) u) =>
      b "<" ++ (if u then b "0" else b "-N") ++ b "-" ++ integral_cts mx ++ b ">"
  | _ => []
  end.

(** tree_node.hpp:229-261 [value_separator_suffix]. *)
Definition value_separator_suffix (n : node) : bytes :=
  let value_str := match value_suffix n with [] => b "<Value>" | s => s end in
  match value_separator n with
  | Some sep => sep ++ value_str
  | None =>
      match count_bounds n with
      | Some (mn, mx) => if N.eqb mn mx && N.eqb mn 1 then b " " ++ value_str else []
      | None => []
      end
  end.

(** tree_node.hpp:266-294 [label_generator]; [lp] and [sp] are [config::long_prefix] and
    [config::short_prefix]. *)
Definition label_generator_with (lp sp : bytes) (n : node) : bytes :=
  match long_name n, short_name n, none_name n with
  | Some l, Some s, _ => lp ++ l ++ b "," ++ sp ++ s ++ value_separator_suffix n
  | Some l, None, _ => lp ++ l ++ value_separator_suffix n
  | None, Some s, _ => sp ++ s ++ value_separator_suffix n
  | None, None, Some m => m ++ value_separator_suffix n
  | None, None, None => []
  end.

(** tree_node.hpp:298-309 [description_generator]. *)
Definition description_generator (n : node) : bytes :=
  match description n with Some d => d | None => [] end.

(** tree_node.hpp:313-353 [count_suffix]. *)
Definition count_suffix (n : node) : bytes :=
  match count_bounds n with
  | Some (mn, mx) =>
      if N.eqb mn mx then b "[" ++ integral_cts (Z.of_N mn) ++ b "]"
      else b "[" ++ integral_cts (Z.of_N mn) ++ b ","
           ++ (if N.eqb mx size_max then b "N" else integral_cts (Z.of_N mx)) ++ b "]"
  | None => b "[" ++ b "0" ++ b "," ++ b "N" ++ b "]"
  end.

(** [help_data_type<Flatten>::label] of each node class; it does not depend on [Flatten].
    A positional argument without a display name does not compile. *)
Definition help_label_with (lp sp : bytes) (n : node) : bytes :=
  match n_kind n with
  | KFlag | KArg AArg | KCountingFlag | KHelp => label_generator_with lp sp n  (* flag.hpp:57-58, arg.hpp:47-48,
                                             counting_flag.hpp:61-62, help.hpp:84-86 *)
  | KArg AMulti | KArg AForwarding =>        (* multi_arg.hpp:51-54, forwarding_arg.hpp:46-49 *)
      label_generator_with lp sp n ++ b " " ++ count_suffix n
  | KArg APositional =>                      (* positional_arg.hpp:50-61 *)
      b "<" ++ match display_name n with Some d => d | None => [] end ++ b "> " ++ count_suffix n
  | KMode => if is_anonymous n then b " " else label_generator_with lp sp n       (* mode.hpp:119-122 *)
  | KOneOf _ => match display_name n with Some d => d | None => [] end (* dependency/one_of.hpp:51 *)
  | KAliasGroup =>                           (* dependency/alias_group.hpp:73-75 *)
      match display_name n with Some d => d | None => [] end ++ value_suffix n
  | KRoot => []                              (* root.hpp:110 *)
  end.

End Labels.

(** With the default prefixes. *)
Notation label_generator limits_of := (label_generator_with limits_of long_prefix short_prefix).
Notation help_label limits_of := (help_label_with limits_of long_prefix short_prefix).

(** [help_data_type<Flatten>::description] of each node class. *)
Definition help_description (n : node) : bytes :=
  match n_kind n with
  | KOneOf _ | KAliasGroup | KRoot => []     (* one_of.hpp:52, alias_group.hpp:76, root.hpp:111 *)
  | _ => description_generator n
  end.

(** [help_data_type<Flatten>] and [runtime_help_data] (tree_node_fwd.hpp:19-23): label,
    description, children. *)
Inductive help_data := HD (label desc : bytes) (children : list help_data).

(** dependency/detail.hpp:170-172: the UTF-8 bytes of the box drawing characters and a space. *)
Definition bar (last_byte : N) : bytes :=
  [ascii_of_N 226; ascii_of_N 148; ascii_of_N last_byte; ascii_of_N 32].
Definition top_bar : bytes := bar 140.
Definition middle_bar : bytes := bar 156.
Definition bottom_bar : bytes := bar 148.

Definition with_bar (x : bytes) (h : help_data) : help_data :=
  let 'HD l d cs := h in HD (x ++ l) d cs.

(** The first element gets [top_bar], the last [bottom_bar], the others [middle_bar]
    (dependency/detail.hpp:184-188 and 198-210; a single element never occurs here). *)
Fixpoint bars_below (l : list help_data) : list help_data :=
  match l with
  | [] => []
  | [h] => [with_bar bottom_bar h]
  | h :: l' => with_bar middle_bar h :: bars_below l'
  end.
Definition with_bars (l : list help_data) : list help_data :=
  match l with
  | [] => []
  | h :: l' => with_bar top_bar h :: bars_below l'
  end.

Section Pages.
(** The labels of the nodes. *)
Variable label : node -> bytes.

(** [help_data_type<Flatten>] of a node (references at {!help_label_with}); the children: root.hpp:112-113,
    mode.hpp:127-130, dependency/detail.hpp:162-188, tree_node.hpp:406-426. *)
Fixpoint static_data_of (flatten : bool) (n : node) : help_data :=
  HD (label n) (help_description n)
     match n with
     | Node k _ _ _ cs =>
         match k with
         | KRoot => map (static_data_of flatten) cs
         | KMode => if is_anonymous n || flatten then map (static_data_of flatten) cs else []
         | KOneOf _ | KAliasGroup =>
             with_bars (map (fun c => HD (label c) (help_description c) []) cs)
         | KFlag | KArg _ | KCountingFlag | KHelp => []
         end
     end.

(** help.hpp:142-153: the filter. *)
Definition help_filter (n : node) : bool :=
  match runtime_enabled n with Some e => e | None => true end.

(** tree_node.hpp:370-404 [default_leaf_help_data_type<Flatten>::runtime_children] and its
    replacements in mode.hpp:132-143 and dependency/detail.hpp:190-213.  Nodes without a replacement
    (root, multi_arg...) use the default: has_runtime_children_method only decides through which
    class it is called. *)
Fixpoint runtime_children_of (flatten : bool) (n : node) : list help_data :=
  match n with
  | Node k _ _ _ cs =>
      let children_with fl :=
        flat_map (fun c => if help_filter c
                           then [HD (label c) (help_description c) (runtime_children_of fl c)]
                           else []) cs in
      match k with
      | KMode => if is_anonymous n || flatten then children_with true else []
      | KOneOf _ | KAliasGroup =>
          let result := children_with true in
          if Nat.leb (List.length result) 1 then result else with_bars result
      | KRoot | KFlag | KArg _ | KCountingFlag | KHelp => children_with flatten
      end
  end.

(** help.hpp:136-165 [generate_runtime_help_data]. *)
Definition runtime_data_of (flatten : bool) (n : node) : help_data :=
  HD (label n) (help_description n) (runtime_children_of flatten n).

(** The order in which [line_formatter_dispatch] visits (default_help_formatter.hpp:335-368), each
    entry with its depth, its label and its description. *)
Fixpoint visit (depth : nat) (h : help_data) : list (nat * bytes * bytes) :=
  let 'HD l d cs := h in (depth, l, d) :: flat_map (visit (S depth)) cs.

(** default_help_formatter.hpp:318-333 [description_column_start] over all the entries. *)
Fixpoint max_start (current_max : nat) (rows : list (nat * bytes * bytes)) : res nat :=
  match rows with
  | [] => Ok current_max
  | (depth, l, _) :: rows' =>
      match terminal_width l with
      | Some w => max_start (Nat.max current_max (depth * help_indent + w + help_indent)) rows'
      | None => UB                           (* in a constant expression: a compile error *)
      end
  end.
Definition description_column_of (flatten : bool) (n : node) : res nat :=
  max_start 0 (visit 0 (static_data_of flatten n)).

(** default_help_formatter.hpp:136-141 [set_gap].  [std::setw] takes an [int]; a stream pads to the
    width, so a width under 2 leaves the single space (C++ streams, [operator<<(ostream&, char)]). *)
Definition int_of_size (n : N) : Z :=
  let m := (Z.of_N n mod 2 ^ 32)%Z in if (m <? 2 ^ 31)%Z then m else (m - 2 ^ 32)%Z.
Definition set_gap (num_chars : N) : bytes :=
  if N.eqb num_chars 0 then []
  else repeat (ascii_of_N 32) (Nat.max 1 (Z.to_nat (int_of_size num_chars))).

Definition newline : bytes := [ascii_of_N 10].

(** default_help_formatter.hpp:289-298: the columns passed to the line formatter; [columns] is
    what utility/terminal.hpp reports (0 if unknown). *)
Definition usable_columns (columns : N) (desc : nat) : N :=
  if N.leb (N.of_nat (desc + desc_column_offset)) columns then columns else size_max.

(** The column limit of the line iterator, [columns - desc_start].  Simplification: a limit larger
    than twice the number of code points plus one is replaced by that number, which no line reaches
    either; this only keeps the number small enough to compute with. *)
Definition wrap_limit (columns : N) (desc : nat) (text : list bytes) : nat :=
  N.to_nat (N.min ((columns + size_mod - N.of_nat desc) mod size_mod)
                  (N.of_nat (2 * List.length text + 1))).

(** default_help_formatter.hpp:108-122: the lines of the description.  No result is reached when
    the line iterator does not end; a malformed description is undefined behaviour. *)
Definition description_text (columns : N) (desc : nat) (d : bytes) : res bytes :=
  match cp_split d with
  | None => UB
  | Some text =>
      match lines_from (List.length text) (line_begin text (wrap_limit columns desc text)) with
      | None => OutOfFuel
      | Some [] => Ok []
      | Some (line :: more) =>
          Ok (List.concat line
              ++ flat_map (fun l => newline ++ set_gap (N.of_nat desc) ++ List.concat l) more)
      end
  end.

(** default_help_formatter.hpp:93-127 [format]. *)
Definition format_row (columns : N) (desc : nat) (row : nat * bytes * bytes) : res bytes :=
  let '(depth, l, d) := row in
  match l with
  | [] => Ok []
  | _ =>
      let indent := (depth * help_indent)%nat in
      match d with
      | [] => Ok (set_gap (N.of_nat indent) ++ l ++ newline)
      | _ =>
          match terminal_width l with
          | None => UB
          | Some w =>
              let gap := ((N.of_nat desc + 2 * size_mod - N.of_nat indent - N.of_nat w) mod size_mod)%N in
              (text <- description_text columns desc d ;;
               Ok (set_gap (N.of_nat indent) ++ l ++ set_gap gap ++ text ++ newline))%res
          end
      end
  end.

Fixpoint format_rows (columns : N) (desc : nat) (rows : list (nat * bytes * bytes)) : res bytes :=
  match rows with
  | [] => Ok []
  | r :: rows' =>
      (x <- format_row columns desc r ;; y <- format_rows columns desc rows' ;; Ok (x ++ y))%res
  end.

Definition program_name (h : node) : option bytes :=
  first_some (fun p => match p with PProgramName s => Some s | _ => None end) (n_pols h).
Definition program_version (h : node) : option bytes :=
  first_some (fun p => match p with PProgramVersion s => Some s | _ => None end) (n_pols h).
Definition program_intro (h : node) : option bytes :=
  first_some (fun p => match p with PProgramIntro s => Some s | _ => None end) (n_pols h).
Definition program_addendum (h : node) : option bytes :=
  first_some (fun p => match p with PProgramAddendum s => Some s | _ => None end) (n_pols h).

(** default_help_formatter.hpp:145-187 [default_preamble_formatter]. *)
Definition preamble (h : node) : bytes :=
  match program_name h with
  | Some s => s ++ match program_version h with Some v => b " " ++ v | None => [] end
              ++ newline ++ newline
  | None => []
  end
  ++ match program_intro h with Some s => s ++ newline ++ newline | None => [] end.

(** default_help_formatter.hpp:189-213 [default_addendum_formatter]. *)
Definition addendum (h : node) : bytes :=
  match program_addendum h with Some s => newline ++ s ++ newline | None => [] end.

(** default_help_formatter.hpp:272-316 [generate_help_impl] with runtime help data: what help node
    [h] prints for node [n]. *)
Definition help_text_of (columns : N) (h n : node) (flatten : bool) : res bytes :=
  (desc <- description_column_of flatten n ;;
   body <- format_rows (usable_columns columns desc) desc (visit 0 (runtime_data_of flatten n)) ;;
   Ok (preamble h ++ body ++ addendum h))%res.

(** The static_asserts on descriptions (tree_node.hpp:381-384) and the constant expressions: help for
    node [n] compiles.  The label of a group is its display name (one_of.hpp:51, alias_group.hpp:73),
    which has to exist. *)
Definition has_tab (s : bytes) : bool := existsb (fun c => N.eqb (N_of_ascii c) 9) s.
Definition has_label (n : node) : bool :=
  match n_kind n with KOneOf _ | KAliasGroup => is_some (display_name n) | _ => true end.
Definition help_compiles_of (flatten : bool) (n : node) : bool :=
  match description_column_of flatten n with Ok _ => true | _ => false end
  && forallb has_label (map fst (preorder n []))
  && forallb (fun c => negb (has_tab (help_description c)))
             (map fst (flat_map (fun c => preorder c []) (n_children n))).

(** help.hpp:179-225: the help texts that a run writes (to std::cout or to the help node's
    router). *)
Definition help_written_of (columns : N) (o : outcome) : list (res bytes) :=
  flat_map (fun e => match e with EvHelp h t f => [help_text_of columns h t f] | EvRoute _ _ => [] end)
           (o_events o).

End Pages.

(** With the labels of the default prefixes. *)
Notation static_data limits_of := (static_data_of (help_label limits_of)).
Notation runtime_children limits_of := (runtime_children_of (help_label limits_of)).
Notation runtime_data limits_of := (runtime_data_of (help_label limits_of)).
Notation description_column limits_of := (description_column_of (help_label limits_of)).
Notation help_text limits_of := (help_text_of (help_label limits_of)).
Notation help_compiles limits_of := (help_compiles_of (help_label limits_of)).
Notation help_written limits_of := (help_written_of (help_label limits_of)).

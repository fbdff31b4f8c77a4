(** Model of the rest of policy/default_help_formatter.hpp: the settings [Indent] and
    [DescColumnOffset], which Help.v has at their defaults, and the overloads without runtime help
    data, which write the help data of the node types themselves; and of the latter in
    policy/colour_help_formatter.hpp. *)
From Verif Require Import Bytes Token Result CodePoint Utf8 Tree PreParse Parse Root Digits Help HelpMore.

Section Formatter.
Variable limits_of : node -> option limits.
(** default_help_formatter.hpp:227-228, both more than 0 (lines 234-238).  Simplification: an [Indent]
    has type [size_t] and the depths are small, so that no product with it wraps around. *)
Variable ind : nat.
Variable offset : N.

(** default_help_formatter.hpp:318-333 [description_column_start] *)
Fixpoint start_column (current_max : nat) (rows : list (nat * bytes * bytes)) : res nat :=
  match rows with
  | [] => Ok current_max
  | (depth, l, _) :: rows' =>
      match terminal_width l with
      | Some w => start_column (Nat.max current_max (depth * ind + w + ind)) rows'
      | None => UB                           (* in a constant expression: a compile error *)
      end
  end.
Definition custom_column (flatten : bool) (n : node) : res nat :=
  start_column 0 (visit 0 (static_data limits_of flatten n)).

(** default_help_formatter.hpp:289-309 *)
Definition custom_usable (columns : N) (desc : nat) : N :=
  if N.leb ((N.of_nat desc + offset) mod size_mod) columns then columns else size_max.

(** default_help_formatter.hpp:93-127 [format] with runtime help data. *)
Definition custom_row (columns : N) (desc : nat) (row : nat * bytes * bytes) : res bytes :=
  let '(depth, l, d) := row in
  match l with
  | [] => Ok []
  | _ =>
      let indent := (depth * ind)%nat in
      match d with
      | [] => Ok (set_gap (N.of_nat indent) ++ l ++ newline)
      | _ =>
          match terminal_width l with
          | None => UB
          | Some w =>
              let gap := ((N.of_nat desc + 2 * size_mod - N.of_nat indent - N.of_nat w) mod size_mod)%N in
              (text <- description_text columns desc d ;;
               Ok (set_gap (N.of_nat indent) ++ l ++ set_gap gap ++ text ++ newline))%res
          end
      end
  end.

(** utility/compile_time_string.hpp [create_sequence_cts_t<n, ' '>]: [n] spaces. *)
Definition sequence (n : N) : bytes := repeat (ascii_of_N 32) (N.to_nat n).

(** default_help_formatter.hpp:68-79: as [description_text]. *)
Definition static_description (columns : N) (desc : nat) (d : bytes) : res bytes :=
  match cp_split d with
  | None => UB
  | Some text =>
      match lines_from (List.length text) (line_begin text (wrap_limit columns desc text)) with
      | None => OutOfFuel
      | Some [] => Ok []
      | Some (line :: more) =>
          Ok (List.concat line
              ++ flat_map (fun l => newline ++ sequence (N.of_nat desc) ++ List.concat l) more)
      end
  end.

(** default_help_formatter.hpp:50-82 [format]. *)
Definition static_row (columns : N) (desc : nat) (row : nat * bytes * bytes) : res bytes :=
  let '(depth, l, d) := row in
  match l with
  | [] => Ok []
  | _ =>
      let indent := (depth * ind)%nat in
      match d with
      | [] => Ok (sequence (N.of_nat indent) ++ l ++ newline)
      | _ =>
          match terminal_width l with
          | None => UB
          | Some w =>
              let gap := ((N.of_nat desc + 2 * size_mod - N.of_nat indent - N.of_nat w) mod size_mod)%N in
              (text <- static_description columns desc d ;;
               Ok (sequence (N.of_nat indent) ++ l ++ sequence gap ++ text ++ newline))%res
          end
      end
  end.

(** colour_help_formatter.hpp:42-70 [format]. *)
Definition static_colour_row (columns : N) (desc : nat) (row : nat * bytes * bytes) : res bytes :=
  let '(depth, l, d) := row in
  match l with
  | [] => Ok []
  | _ =>
      let indent := (depth * ind)%nat in
      match d with
      | [] => Ok (red_colour ++ sequence (N.of_nat indent) ++ l ++ newline ++ reset_colour)
      | _ =>
          match terminal_width l with
          | None => UB
          | Some w =>
              let gap := ((N.of_nat desc + 2 * size_mod - N.of_nat indent - N.of_nat w) mod size_mod)%N in
              (text <- static_description columns desc d ;;
               Ok (red_colour ++ sequence (N.of_nat indent) ++ l ++ green_colour ++ sequence gap
                   ++ text ++ newline ++ reset_colour))%res
          end
      end
  end.

(** default_help_formatter.hpp:335-368 [line_formatter_dispatch] with the line formatter [row]. *)
Fixpoint dispatch (row : nat * bytes * bytes -> res bytes) (rows : list (nat * bytes * bytes)) : res bytes :=
  match rows with
  | [] => Ok []
  | r :: rows' => (x <- row r ;; y <- dispatch row rows' ;; Ok (x ++ y))%res
  end.

(** default_help_formatter.hpp:272-316 [generate_help_impl]. *)
Definition page (row : N -> nat -> nat * bytes * bytes -> res bytes) (columns : N) (h n : node)
           (flatten : bool) (data : help_data) : res bytes :=
  (desc <- custom_column flatten n ;;
   body <- dispatch (row (custom_usable columns desc) desc) (visit 0 data) ;;
   Ok (preamble h ++ body ++ addendum h))%res.

(** default_help_formatter.hpp:265-269 [generate_help] with runtime help data. *)
Definition custom_text (columns : N) (h n : node) (flatten : bool) : res bytes :=
  page custom_row columns h n flatten (runtime_data limits_of flatten n).
(** default_help_formatter.hpp:251-255 [generate_help] without. *)
Definition static_text (columns : N) (h n : node) (flatten : bool) : res bytes :=
  page static_row columns h n flatten (static_data limits_of flatten n).
(** The same with the line formatter of colour_help_formatter.hpp. *)
Definition static_colour_text (columns : N) (h n : node) (flatten : bool) : res bytes :=
  page static_colour_row columns h n flatten (static_data limits_of flatten n).

End Formatter.

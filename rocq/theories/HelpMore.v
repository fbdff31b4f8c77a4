(** Model of policy/colour_help_formatter.hpp, with its default settings, and of the [help] methods of
    root.hpp. *)
From Verif Require Import Bytes Token Result CodePoint Utf8 Tree PreParse Parse Root Digits Help.

(** colour_help_formatter.hpp:24-26 *)
Definition escape_code (s : string) : bytes := ascii_of_N 27 :: b "[" ++ b s ++ b "m".
Definition reset_colour : bytes := escape_code "0".
Definition red_colour : bytes := escape_code "31".
Definition green_colour : bytes := escape_code "32".

(** [stream << std::setw(n) << ' ']; unlike [set_gap] there is no test for 0, so that a width of 0 gives
    a space too (colour_help_formatter.hpp:89,96,106). *)
Definition padded_space (n : N) : bytes := repeat (ascii_of_N 32) (Nat.max 1 (Z.to_nat (int_of_size n))).

(** colour_help_formatter.hpp:98-108: the lines of the description, as in [description_text]. *)
Definition colour_description (columns : N) (desc : nat) (d : bytes) : res bytes :=
  match cp_split d with
  | None => UB
  | Some text =>
      match lines_from (List.length text) (line_begin text (wrap_limit columns desc text)) with
      | None => OutOfFuel
      | Some [] => Ok []
      | Some (line :: more) =>
          Ok (List.concat line
              ++ flat_map (fun l => newline ++ padded_space (N.of_nat desc) ++ List.concat l) more)
      end
  end.

(** colour_help_formatter.hpp:81-113 [format] with runtime help data. *)
Definition colour_row (columns : N) (desc : nat) (row : nat * bytes * bytes) : res bytes :=
  let '(depth, l, d) := row in
  match l with
  | [] => Ok []
  | _ =>
      let indent := (depth * help_indent)%nat in
      match d with
      | [] => Ok (red_colour ++ padded_space (N.of_nat indent) ++ l ++ newline ++ reset_colour)
      | _ =>
          match terminal_width l with
          | None => UB
          | Some w =>
              let gap := ((N.of_nat desc + 2 * size_mod - N.of_nat indent - N.of_nat w) mod size_mod)%N in
              (text <- colour_description columns desc d ;;
               Ok (red_colour ++ padded_space (N.of_nat indent) ++ l ++ green_colour ++ padded_space gap
                   ++ text ++ newline ++ reset_colour))%res
          end
      end
  end.

(** default_help_formatter.hpp:351-368 [line_formatter_dispatch] *)
Fixpoint colour_rows (columns : N) (desc : nat) (rows : list (nat * bytes * bytes)) : res bytes :=
  match rows with
  | [] => Ok []
  | r :: rows' =>
      (x <- colour_row columns desc r ;; y <- colour_rows columns desc rows' ;; Ok (x ++ y))%res
  end.

(** colour_help_formatter.hpp:136-145: [default_help_formatter_t] with the line formatter above, so
    default_help_formatter.hpp:272-316 as in [help_text]. *)
Definition colour_text (limits_of : node -> option limits) (columns : N) (h n : node) (flatten : bool) : res bytes :=
  (desc <- description_column limits_of flatten n ;;
   body <- colour_rows (usable_columns columns desc) desc (visit 0 (runtime_data limits_of flatten n)) ;;
   Ok (preamble h ++ body ++ addendum h))%res.

(** root.hpp:234-285 [help]: what is written; nothing if there is no help node.  The first child with a
    [generate_help] method is the first help node. *)
Definition root_help (limits_of : node -> option limits) (columns : N) (r : node) : res bytes :=
  match find (fun c => match n_kind c with KHelp => true | _ => false end) (n_children r) with
  | Some h => help_text limits_of columns h r (has_flatten_help h)
  | None => Ok []
  end.

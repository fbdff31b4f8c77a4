(** Model of root.hpp: the parse methods of the root. *)
From Verif Require Import Bytes Token Adapter Result CodePoint Utf8 Tree Levenshtein PreParse Parse.

(** Everything that can be observed of one call of root.parse() (up to the conversion of
    multi_lang_exception into parse_exception, see Caller.v): the one_of objects' new state, the
    router and help events, and the outcome. *)
Record outcome := Out { o_mem : memory; o_events : list event; o_res : res unit }.

(** An upper bound on the number of iterations of any mode's token loop: a token gives rise to at
    most as many tokens as its name has bytes. *)
Definition token_weight (t : token) : nat := Nat.max 1 (List.length (t_name t)).
Definition args_weight (ts : list token) : nat := list_sum (map token_weight ts).
Definition root_fuel (ts : list token) : nat := args_weight ts.

(** root.hpp:155-170: offer the arguments to each child in turn; the first that matches is run. *)
Fixpoint root_try (fuel : nat) (root : node) (cs : list node) (s : pst) : pst * list event * res bool :=
  match cs with
  | [] => (s, [], Ok false)
  | c :: cs' =>
      match pre_parse fuel c [root] None always_true s with
      | (s', Ok None) => root_try fuel root cs' s'
      | (s', Ok (Some t)) =>
          match p_args s' with
          | [] => match exec t [] with
                  | (tr, r) => (s', tr, (_ <- r ;; Ok true)%res)
                  end
          | _ => (s', [], Throw (EML unhandled_arguments (p_args s')))
          end
      | (s', Throw e) => (s', [], Throw e)
      | (s', UB) => (s', [], UB)
      | (s', Exited) => (s', [], Exited)
      | (s', OutOfFuel) => (s', [], OutOfFuel)
      end
  end.

(** root.hpp:147-180 [parse(vector<token_type>)], before the translation of the exception. *)
Definition root_parse (root : node) (mem : memory) (args : list token) : outcome :=
  let front := match args with [] => Tok PNone [] | t :: _ => t end in
  let '(s, tr, r) := root_try (root_fuel args) root (n_children root) (PS args mem) in
  Out (p_mem s) tr
      (matched <- r ;;
       if matched : bool then Ok tt
       else match t_name front with
            | [] => Throw (EML no_arguments_passed [])
            | _ => unknown_argument_exception root front
            end)%res.

(** root.hpp:191-200 and 228-232: the range and argc/argv overloads; [argv] here is without the
    program name. *)
Definition to_tokens (argv : list bytes) : list token := map (Tok PNone) argv.
Definition root_parse_strings (root : node) (mem : memory) (argv : list bytes) : outcome :=
  root_parse root mem (to_tokens argv).

(** Model of the pre-parse stage: the policies' pre-parse phases, tree_node::pre_parse and the
    pre_parse methods of the dependency nodes and modes. *)
From Verif Require Import Bytes Token Adapter Result CodePoint Utf8 Tree Levenshtein.
Local Open Scope res_scope.

(** parsing/parse_target.hpp:28-141: node, parents (nearest first), tokens, sub-targets.  The
    type-erased [parse_] member, which makes a target runnable at most once, is modelled separately
    in ParseTarget.v. *)
Inductive target :=
  Target (n : node) (parents : list node) (toks : list token) (subs : list target).

Definition tg_node (t : target) := let 'Target n _ _ _ := t in n.
Definition tg_parents (t : target) := let 'Target _ p _ _ := t in p.
Definition tg_toks (t : target) := let 'Target _ _ ts _ := t in ts.
Definition tg_subs (t : target) := let 'Target _ _ _ ss := t in ss.

(** parsing/parse_target.hpp:113 [add_sub_target]. *)
Definition add_subs (t : target) (ss : list target) : target :=
  let 'Target n p ts old := t in Target n p ts (old ++ ss).

(** parsing/parsing.hpp:15-24 [pre_parse_action]. *)
Inductive paction := Skip | Valid | UseSubs.

(** parsing/parsing.hpp:27 [pre_parse_result]: an action or an exception that is not yet thrown. *)
Inductive presult := Act (a : paction) | Err (c : ecode) (ts : list token).

(** std::numeric_limits<std::size_t>::max() and the modulus. *)
Definition size_mod : N := 18446744073709551616.
Definition size_max : N := 18446744073709551615.

(** [x - 1] on std::size_t. *)
Definition size_pred (x : N) : N := if N.eqb x 0 then size_max else N.pred x.

(** Conversion of a std::size_t to ptrdiff_t. *)
Definition to_ptrdiff (x : N) : Z :=
  if N.ltb x 9223372036854775808 then Z.of_N x else (Z.of_N x - Z.of_N size_mod)%Z.

(** [std::vector<token_type>::max_size()] (libstdc++, 24 byte elements): PTRDIFF_MAX / 24. *)
Definition vec_max_size : N := 384307168202282325.

Definition nlen {A} (l : list A) : N := N.of_nat (List.length l).

(** policy/value_separator.hpp:70-126. [string_view::substr] throws std::out_of_range when the
    position is past the end (line 110). *)
Definition phase_value_separator (sep : bytes) (n : node) (a : adapter)
  : res (adapter * presult) :=
  if a_empty a then Ok (a, Act Valid)
  else
    first <- or_ub (a_deref a a_begin) ;;
    match find_first_of sep (t_name first) with
    | None =>
        let tt := match t_prefix first with
                  | PNone => get_token_type (t_name first)
                  | _ => first
                  end in
        if match_node n tt then Ok (a, Err missing_value_separator [node_token n])
        else Ok (a, Act Skip)
    | Some i =>
        let start := i + List.length sep in
        if Nat.ltb (List.length (t_name first)) start then Throw EOutOfRange
        else
          match skipn start (t_name first) with
          | [] => Ok (a, Act Skip)
          | v =>
              ' (a1, _) <- or_ub (a_insert a (i_add a_begin 1) [Tok PNone v]) ;;
              a2 <- or_ub (a_set a1 a_begin (Tok (t_prefix first) (firstn i (t_name first)))) ;;
              Ok (a2, Act Valid)
          end
    end.

(** policy/short_form_expander.hpp:77-95: the token to expand, if it may be one. *)
Definition short_candidate (n : node) (first : token) : option token :=
  match t_prefix first with
  | PNone => let tt := node_get_token n (t_name first) in
             match t_prefix tt with PShort => Some tt | _ => None end
  | PLong => None
  | PShort => Some first
  end.

(** policy/short_form_expander.hpp:49-115.  [reserve] (line 100) throws std::length_error when
    [unprocessed.size() + name.size() - 1], computed on std::size_t, exceeds max_size().  A node
    without a short name is a compile error (line 62); the model calls it UB. *)
Definition phase_short_form (n : node) (a : adapter) : res (adapter * presult) :=
  if a_empty a then Ok (a, Act Valid)
  else
    first <- or_ub (a_deref a a_begin) ;;
    match short_candidate n first, short_name n with
    | None, _ => Ok (a, Act Valid)
    | Some _, None => UB
    | Some ft, Some sn =>
        if Nat.eqb (List.length (t_name ft)) (List.length sn) then Ok (a, Act Valid)
        else
          let a1 := transfer a a_begin in
          if N.ltb vec_max_size (size_pred (nlen (a_unproc a1) + nlen (t_name ft))%N)
          then Throw ELengthError
          else
            gs <- or_ub (graphemes (t_name ft)) ;;
            let a2 := Adp (a_proc a1) (map (Tok PShort) (tl gs) ++ a_unproc a1) in
            let g0 := match gs with [] => [] | g :: _ => g end in
            a3 <- or_ub (a_set a2 a_begin (Tok PShort g0)) ;;
            Ok (a3, Act Valid)
    end.

(** policy/token_end_marker.hpp:83-87 [std::find_if] over the adapter from index [off]. *)
Fixpoint find_marker (m : bytes) (ts : list token) (i : Z) : iter :=
  match ts with
  | [] => IEnd
  | t :: ts' => if beq (t_name t) m then IAt i else find_marker m ts' (i + 1)
  end.

(** policy/token_end_marker.hpp:64-94 *)
Definition phase_end_marker (m : bytes) (n : node) (a : adapter) : res (adapter * presult) :=
  let off := if is_named n then 1%nat else 0%nat in
  let it := find_marker m (skipn off (a_all a)) (Z.of_nat off) in
  a1 <- or_ub (a_erase (transfer a it) it) ;;
  Ok (a1, Act Valid).

(** policy/min_max_count.hpp:84-91 *)
Definition count_offset (n : node) (c : N) : N :=
  if N.eqb c size_max then c else (c + (if is_named n then 1 else 0))%N.

(** policy/min_max_count.hpp:72-116 *)
Definition phase_min_max_count (mn mx : N) (n : node) (a : adapter) : adapter * presult :=
  let mn' := count_offset n mn in
  let mx' := count_offset n mx in
  let marker := is_some (token_end_marker n) in
  let num := if marker then nlen (a_proc a) else Z.to_N (a_size a) in
  if marker && N.ltb mx' num then (a, Err maximum_count_exceeded [node_token n])
  else if N.ltb num mn' then (a, Err minimum_count_not_reached [node_token n])
  else
    let k := to_ptrdiff (N.min (size_pred mx') (size_pred num)) in
    (transfer a (i_add a_begin k), Act Valid).

(** policy/alias.hpp:117-145: the sub-targets. *)
Definition alias_subs (ns : list nameref) (mode : node) (vals : list token) : list target :=
  flat_map (fun '(c, ps) => if refers_to ns c then [Target c ps vals []] else [])
           (preorder mode []).

(** policy/alias.hpp:60-154.  Lines 77-84 and 156-252 are compile-time checks; a node without a
    fixed count or a mode-like ancestor does not compile, which the model calls UB.  The reads of
    lines 132-135 and the erase of line 148 are in range because of the test of line 88. *)
Definition phase_alias (ns : list nameref) (n : node) (parents : list node) (a : adapter)
           (tg : target) : res (adapter * target * presult) :=
  match count_bounds n, nearest_mode_like (n :: parents) with
  | Some (c, _), Some mode =>
      let count := N.to_nat c in
      if Z.ltb (a_size a) (Z.of_nat count + 1)
      then Ok (a, tg, Err too_few_values_for_alias [node_token n])
      else
        label <- or_ub (a_deref a a_begin) ;;
        if negb (match_node n (norm_token n label)) then Ok (a, tg, Act Skip)
        else
          let a1 := transfer a (i_add a_begin (Z.of_nat count)) in
          let vals := firstn count (skipn 1 (a_all a1)) in
          Ok (Adp (skipn (count + 1) (a_proc a1)) (a_unproc a1),
              add_subs tg (alias_subs ns mode vals), Act UseSubs)
  | _, _ => UB
  end.

(** policy/alias.hpp:184-210 [alias_targets] and policy/dependent.hpp:115-139 [depends_targets], on
    utility/tree_recursor.hpp:55-79: the owners of the referenced name policies, in the collector's
    order (children before the node's own policies). *)
Fixpoint ref_owners (ns : list nameref) (n : node) : list node :=
  match n with
  | Node _ _ _ ps cs =>
      flat_map (ref_owners ns) cs
      ++ flat_map (fun p => if existsb (fun r => nameref_is r p) ns then [n] else []) ps
  end.

(** policy/dependent.hpp:76-86: is the node already in the parent's target or its sub-targets? *)
Definition target_present (pt : target) (id : N) : bool :=
  N.eqb (n_id (tg_node pt)) id || existsb (fun s => N.eqb (n_id (tg_node s)) id) (tg_subs pt).

(** policy/dependent.hpp:65-88 *)
Fixpoint first_absent (pt : target) (ns : list node) : option node :=
  match ns with
  | [] => None
  | n :: ns' => if target_present pt (n_id n) then first_absent pt ns' else Some n
  end.

(** policy/dependent.hpp:48-91.  No mode-like parent or no parent target is a compile error (lines
    55-57), which the model calls UB. *)
Definition phase_dependent (ns : list nameref) (parents : list node) (pt : option target)
  : res presult :=
  match nearest_mode_like parents, pt with
  | Some mode, Some t =>
      match first_absent t (ref_owners ns mode) with
      | None => Ok (Act Valid)
      | Some d => Ok (Err dependent_argument_missing [node_token d])
      end
  | _, _ => UB
  end.

(** The pre-parse phase of a policy; [None] for policies without one
    (policy/policy.hpp [has_pre_parse_phase_method]). *)
Definition pre_parse_phase (p : policy) (a : adapter) (pt : option target) (tg : target)
           (n : node) (parents : list node) : option (res (adapter * target * presult)) :=
  let keep (r : res (adapter * presult)) := Some (' (a', m) <- r ;; Ok (a', tg, m)) in
  match p with
  | PValueSeparator sep => keep (phase_value_separator sep n a)
  | PShortFormExpander => keep (phase_short_form n a)
  | PRuntimeEnable e                              (* policy/runtime_enable.hpp:53-66 *)
  | PRuntimeEnableRequired e _ => keep (Ok (a, Act (if e then Valid else Skip)))
  | PTokenEndMarker m => keep (phase_end_marker m n a)
  | PMinMaxCount mn mx => keep (Ok (phase_min_max_count mn mx n a))
  | PAlias ns => Some (phase_alias ns n parents a tg)
  | PDependent ns => keep (m <- phase_dependent ns parents pt ;; Ok (a, m))
  | _ => None
  end.

(** tree_node.hpp:561-580: the phases run in priority order; after a skip or an error the rest is
    skipped; use-sub-targets survives a later valid. *)
Fixpoint run_policies (ps : list policy) (a : adapter) (pt : option target) (tg : target)
         (n : node) (parents : list node) (m : presult) : res (adapter * target * presult) :=
  match ps with
  | [] => Ok (a, tg, m)
  | p :: ps' =>
      match pre_parse_phase p a pt tg n parents with
      | None => run_policies ps' a pt tg n parents m
      | Some r =>
          match m with
          | Err _ _ | Act Skip => run_policies ps' a pt tg n parents m
          | Act m0 =>
              ' (a', tg', m') <- r ;;
              let m'' := match m0, m' with UseSubs, Act Valid => Act UseSubs | _, _ => m' end in
              run_policies ps' a' pt tg' n parents m''
          end
      end
  end.

(** The mutable state of a parse: the remaining arguments, and the [last_typeid_] member of every
    one_of_t object (dependency/one_of.hpp:132), keyed by the object. *)
Definition memory := list (N * N).
Record pst := PS { p_args : list token; p_mem : memory }.

Fixpoint mem_get (m : memory) (k : N) : option N :=
  match m with
  | [] => None
  | (k', v) :: m' => if N.eqb k k' then Some v else mem_get m' k
  end.

(** A state-passing computation; the state survives exceptions, as C++ objects do. *)
Definition M (A : Type) := pst -> pst * res A.
Definition mret {A} (x : A) : M A := fun s => (s, Ok x).
Definition mlift {A} (r : res A) : M A := fun s => (s, r).
Definition mbind {A B} (m : M A) (f : A -> M B) : M B :=
  fun s => match m s with
           | (s', Ok x) => f x s'
           | (s', Throw e) => (s', Throw e)
           | (s', UB) => (s', UB)
           | (s', Exited) => (s', Exited)
           | (s', OutOfFuel) => (s', OutOfFuel)
           end.
Declare Scope m_scope.
Delimit Scope m_scope with m.
Notation "x <- r ;; f" := (mbind r (fun x => f))
  (at level 61, r at next level, right associativity) : m_scope.

(** parsing/pre_parse_data.hpp: the validator callable; it can only touch one_of state. *)
Definition validator := node -> memory -> memory * res bool.

(** parsing/pre_parse_data.hpp:12-20: the default, always-true validator. *)
Definition always_true : validator := fun _ m => (m, Ok true).

Definition run_validator (v : validator) (n : node) : M bool :=
  fun s => let '(m', r) := v n (p_mem s) in (PS (p_args s) m', r).

Definition set_args (ts : list token) : M unit := fun s => (PS ts (p_mem s), Ok tt).

(** tree_node.hpp:590-612: the label check of a named node.  [None]: not this node's tokens. *)
Definition check_label (n : node) (m : presult) (a : adapter) : option adapter :=
  if is_named n then
    match m with
    | Act UseSubs => Some a
    | _ =>
        match a_proc a, a_unproc a with
        | [], [] => None
        | [], t :: us =>
            let t' := norm_token n t in
            if match_node n t' then Some (Adp [t'] us) else None
        | t :: ps, us =>
            let t' := norm_token n t in
            if match_node n t' then Some (Adp (t' :: ps) us) else None
        end
    end
  else Some a.

(** tree_node.hpp:548-635 [pre_parse_impl].  Note that the arguments of the caller are only
    replaced at the very end (line 624). *)
Definition node_pre_parse (n : node) (parents : list node) (pt : option target) (v : validator)
  : M (option target) :=
  fun s =>
  (r <- mlift (run_policies (priority_order (n_pols n)) (Adp [] (p_args s)) pt
                            (Target n parents [] []) n parents (Act Valid)) ;;
   let '(a, tg, m) := r in
   match m with
   | Act Skip => mret None
   | _ =>
       match check_label n m a with
       | None => mret None
       | Some a' =>
           ok <- run_validator v n ;;
           if negb ok then mret None
           else match m with
                | Err c ts => mlift (Throw (EML c ts))
                | Act _ =>
                    _ <- set_args (a_unproc a') ;;
                    mret (Some (Target n parents
                                       (if is_named n then tl (a_proc a') else a_proc a')
                                       (tg_subs tg)))
                end
       end
   end)%m s.

(** The pre_parse method of a child, as a function of the pre_parse_data. *)
Definition child_pp := option target -> validator -> M (option target).

(** dependency/alias_group.hpp:112-126 and mode.hpp:257-267: the first child that matches. *)
Fixpoint first_match (cs : list child_pp) (pt : option target) (v : validator)
  : M (option target) :=
  match cs with
  | [] => mret None
  | c :: cs' =>
      (r <- c pt v ;;
       match r with
       | Some t => mret (Some t)
       | None => first_match cs' pt v
       end)%m
  end.

(** dependency/one_of.hpp:90-107: the wrapped validator of the one_of_t object [inst], which is
    node [self]. *)
Definition one_of_validator (inst : N) (self : node) (v : validator) : validator :=
  fun c m =>
    match mem_get m inst with
    | Some h => if N.eqb (n_id c) h then v c m
                else (m, Throw (EML one_of_selected_type_mismatch [node_token self]))
    | None => v c ((inst, n_id c) :: m)
    end.

(** dependency/one_of.hpp:117-129: as {!first_match}, with the second validator call, whose result
    is ignored. *)
Fixpoint one_of_match (cs : list (node * child_pp)) (pt : option target) (w : validator)
  : M (option target) :=
  match cs with
  | [] => mret None
  | (n, c) :: cs' =>
      (r <- c pt w ;;
       match r with
       | Some t => _ <- run_validator w n ;; mret (Some t)
       | None => one_of_match cs' pt w
       end)%m
  end.

(** mode.hpp:440-459 [verify_match]; [already] is [matched[i]], [front] the front token. *)
Definition verify_match (already : bool) (front : token) : validator :=
  fun c m =>
    (m, if has_multi_stage c then Ok true
        else if is_named c
             then if already then Throw (EML argument_has_already_been_set [front]) else Ok true
             else Ok (negb already)).

(** mode.hpp:283-309: offer the tokens to each child that is not a mode, in order; result: the
    index of the child that matched and its target. *)
Fixpoint mode_try (cs : list (node * child_pp)) (i : nat) (matched : list bool) (front : token)
         (tg : target) : M (option (nat * target)) :=
  match cs with
  | [] => mret None
  | (n, c) :: cs' =>
      if is_mode n then mode_try cs' (S i) matched front tg
      else
        (r <- c (Some tg) (verify_match (nth i matched false) front) ;;
         match r with
         | Some t => mret (Some (i, t))
         | None => mode_try cs' (S i) matched front tg
         end)%m
  end.

(** mode.hpp:273-338: the token loop.  Recursion on fuel; see [root_fuel] for the fuel given. *)
Fixpoint mode_loop (fuel : nat) (self : node) (cs : list (node * child_pp)) (tg : target)
         (matched : list bool) : M (option target) :=
  fun s =>
  match p_args s with
  | [] => (s, Ok (Some tg))
  | front :: _ =>
      match fuel with
      | O => (s, OutOfFuel)
      | S fuel' =>
          (r <- mode_try cs 0 matched front tg ;;
           match r with
           | None =>
               fun s' =>
                 if forallb (fun x => x) matched
                 then (s', Throw (EML unhandled_arguments (p_args s')))
                 else (s', unknown_argument_exception self front)
           | Some (i, t) =>
               let subs := match tg_subs t with [] => [t] | ss => ss end in
               mode_loop fuel' self cs (add_subs tg subs) (upd matched i true)
           end)%m s
      end
  end.

(** mode.hpp:233-338 [pre_parse_impl], given the children's pre_parse methods. *)
Definition mode_pre_parse (fuel : nat) (self : node) (parents : list node)
           (cs : list (node * child_pp)) (pt : option target) (v : validator)
  : M (option target) :=
  let body :=
    (ok <- run_validator v self ;;
     if negb ok then mret None
     else mode_loop fuel self cs (Target self parents [] []) (map (fun _ => false) cs))%m in
  if is_anonymous self then body
  else
    (r <- node_pre_parse self parents pt v ;;
     match r with
     | None => mret None
     | Some t0 =>
         fun s =>
           match p_args s with
           | [] => body s
           | _ =>
               (r' <- first_match (map snd (filter (fun nc => is_mode (fst nc)) cs)) pt v ;;
                match r' with
                | Some t => mret (Some t)
                | None => body
                end)%m s
           end
     end)%m.

(** The pre_parse method of every node class: flag.hpp:72-79, counting_flag.hpp:76-83,
    multi_arg_base.hpp:80-86, help.hpp:117-126, dependency/alias_group.hpp:112-126,
    dependency/one_of.hpp:84-129, mode.hpp:180-194.  The dependency nodes do not add themselves to
    the ancestry they pass on.  [fuel] only bounds the loop of modes. *)
Fixpoint pre_parse (fuel : nat) (n : node) (parents : list node) {struct n} : child_pp :=
  match n with
  | Node k _ _ _ cs =>
      match k with
      | KFlag | KArg _ | KCountingFlag | KHelp => node_pre_parse n parents
      | KAliasGroup => first_match (map (fun c => pre_parse fuel c parents) cs)
      | KOneOf inst =>
          fun pt v => one_of_match (map (fun c => (c, pre_parse fuel c parents)) cs) pt
                                   (one_of_validator inst n v)
      | KMode => mode_pre_parse fuel n parents
                                (map (fun c => (c, pre_parse fuel c (n :: parents))) cs)
      | KRoot => fun _ _ => mlift UB                (* root_t has no pre_parse *)
      end
  end.

(** Model of the configurable prefixes (config.hpp: AR_LONG_PREFIX, AR_SHORT_PREFIX).  Token.v and the files
    above it have the default prefixes "--" and "-"; here are the functions that use them, from the tokens up to
    root.parse(), for any prefixes.  Functions that do not use a prefix are those of the other files. *)
From Verif Require Import Bytes Token Adapter Result CodePoint Utf8 Tree Levenshtein PreParse Parse Root Build Validator StringPolicy.

Section Prefixes.
(** config.hpp:52 [long_prefix] and config.hpp:58 [short_prefix]. *)
Variables lp sp : bytes.

(** config.hpp:60-63: the two static assertions; [utf8::count] counts grapheme clusters. *)
Definition config_ok : bool :=
  match gcount sp, gcount lp with
  | Some s, Some l => Nat.eqb s 1 && Nat.leb s l
  | _, _ => false
  end.

(** policy/short_name.hpp:46-51: the two static assertions. *)
Definition short_name_ok (s : bytes) : bool := gcount_is (Nat.eqb 1) s && negb (beq (sp ++ s) lp).

(** policy/short_form_expander.hpp:68: the expander does not compile with equal prefixes. *)
Definition expander_ok : bool := negb (beq sp lp).

(** parsing/token_type.hpp:25-32 and 74-78. *)
Definition prefix_str_with (p : prefix) : bytes := match p with PLong => lp | PShort => sp | PNone => [] end.
Definition token_str_with (t : token) : bytes := prefix_str_with (t_prefix t) ++ t_name t.

(** parsing/token_type.hpp:103-116 *)
Definition get_token_type_with (s : bytes) : token :=
  if starts_with lp s then Tok PLong (skipn (List.length lp) s)
  else if starts_with sp s then Tok PShort (skipn (List.length sp) s)
  else Tok PNone s.

(** parsing/token_type.hpp:127-146 *)
Definition get_token_type_for_with (hl hs : bool) (s : bytes) : token :=
  if hl && starts_with lp s then Tok PLong (skipn (List.length lp) s)
  else if hs && (starts_with sp s && negb (starts_with lp s)) then Tok PShort (skipn (List.length sp) s)
  else Tok PNone s.
Definition node_get_token_with (n : node) (s : bytes) : token :=
  get_token_type_for_with (is_some (long_name n)) (is_some (short_name n)) s.

(** tree_node.hpp:601-605 *)
Definition norm_token_with (n : node) (t : token) : token :=
  match t_prefix t with PNone => node_get_token_with n (t_name t) | _ => t end.

(** flag.hpp:141-150, counting_flag.hpp:149-158: the expander is added if there is a short name and the prefixes
    differ. *)
Definition with_expander_with (ps : list policy) : list policy :=
  if beq lp sp then ps else with_expander ps.
Definition flag_with (id : N) (ps : list policy) : node :=
  Node KFlag id bool_type (PDefaultValue (VBool false) :: PMinMaxCount 0 0 :: with_expander_with ps) [].

(** policy/value_separator.hpp:70-126 *)
Definition phase_value_separator_with (sep : bytes) (n : node) (a : adapter) : res (adapter * presult) :=
  (if a_empty a then Ok (a, Act Valid)
  else
    first <- or_ub (a_deref a a_begin) ;;
    match find_first_of sep (t_name first) with
    | None =>
        let tt := match t_prefix first with
                  | PNone => get_token_type_with (t_name first)
                  | _ => first
                  end in
        if match_node n tt then Ok (a, Err missing_value_separator [node_token n])
        else Ok (a, Act Skip)
    | Some i =>
        let start := i + List.length sep in
        if Nat.ltb (List.length (t_name first)) start then Throw EOutOfRange
        else
          match skipn start (t_name first) with
          | [] => Ok (a, Act Skip)
          | v =>
              ' (a1, _) <- or_ub (a_insert a (i_add a_begin 1) [Tok PNone v]) ;;
              a2 <- or_ub (a_set a1 a_begin (Tok (t_prefix first) (firstn i (t_name first)))) ;;
              Ok (a2, Act Valid)
          end
    end)%res.

(** policy/short_form_expander.hpp:77-95 *)
Definition short_candidate_with (n : node) (first : token) : option token :=
  match t_prefix first with
  | PNone => let tt := node_get_token_with n (t_name first) in
             match t_prefix tt with PShort => Some tt | _ => None end
  | PLong => None
  | PShort => Some first
  end.

(** policy/short_form_expander.hpp:49-115 *)
Definition phase_short_form_with (n : node) (a : adapter) : res (adapter * presult) :=
  (if a_empty a then Ok (a, Act Valid)
  else
    first <- or_ub (a_deref a a_begin) ;;
    match short_candidate_with n first, short_name n with
    | None, _ => Ok (a, Act Valid)
    | Some _, None => UB
    | Some ft, Some sn =>
        if Nat.eqb (List.length (t_name ft)) (List.length sn) then Ok (a, Act Valid)
        else
          let a1 := transfer a a_begin in
          if N.ltb vec_max_size (size_pred (nlen (a_unproc a1) + nlen (t_name ft))%N)
          then Throw ELengthError
          else
            gs <- or_ub (graphemes (t_name ft)) ;;
            let a2 := Adp (a_proc a1) (map (Tok PShort) (tl gs) ++ a_unproc a1) in
            let g0 := match gs with [] => [] | g :: _ => g end in
            a3 <- or_ub (a_set a2 a_begin (Tok PShort g0)) ;;
            Ok (a3, Act Valid)
    end)%res.

(** policy/alias.hpp:60-154 *)
Definition phase_alias_with (ns : list nameref) (n : node) (parents : list node) (a : adapter)
           (tg : target) : res (adapter * target * presult) :=
  match count_bounds n, nearest_mode_like (n :: parents) with
  | Some (c, _), Some mode =>
      let count := N.to_nat c in
      (if Z.ltb (a_size a) (Z.of_nat count + 1)
      then Ok (a, tg, Err too_few_values_for_alias [node_token n])
      else
        label <- or_ub (a_deref a a_begin) ;;
        if negb (match_node n (norm_token_with n label)) then Ok (a, tg, Act Skip)
        else
          let a1 := transfer a (i_add a_begin (Z.of_nat count)) in
          let vals := firstn count (skipn 1 (a_all a1)) in
          Ok (Adp (skipn (count + 1) (a_proc a1)) (a_unproc a1),
              add_subs tg (alias_subs ns mode vals), Act UseSubs))%res
  | _, _ => UB
  end.

(** policy/policy.hpp [has_pre_parse_phase_method] *)
Definition pre_parse_phase_with (p : policy) (a : adapter) (pt : option target) (tg : target)
           (n : node) (parents : list node) : option (res (adapter * target * presult)) :=
  let keep (r : res (adapter * presult)) := Some (' (a', m) <- r ;; Ok (a', tg, m))%res in
  match p with
  | PValueSeparator sep => keep (phase_value_separator_with sep n a)
  | PShortFormExpander => keep (phase_short_form_with n a)
  | PRuntimeEnable e
  | PRuntimeEnableRequired e _ => keep (Ok (a, Act (if e then Valid else Skip)))
  | PTokenEndMarker m => keep (phase_end_marker m n a)
  | PMinMaxCount mn mx => keep (Ok (phase_min_max_count mn mx n a))
  | PAlias ns => Some (phase_alias_with ns n parents a tg)
  | PDependent ns => keep (m <- phase_dependent ns parents pt ;; Ok (a, m))%res
  | _ => None
  end.

(** tree_node.hpp:561-580 *)
Fixpoint run_policies_with (ps : list policy) (a : adapter) (pt : option target) (tg : target)
         (n : node) (parents : list node) (m : presult) : res (adapter * target * presult) :=
  match ps with
  | [] => Ok (a, tg, m)
  | p :: ps' =>
      match pre_parse_phase_with p a pt tg n parents with
      | None => run_policies_with ps' a pt tg n parents m
      | Some r =>
          match m with
          | Err _ _ | Act Skip => run_policies_with ps' a pt tg n parents m
          | Act m0 =>
              (' (a', tg', m') <- r ;;
              let m'' := match m0, m' with UseSubs, Act Valid => Act UseSubs | _, _ => m' end in
              run_policies_with ps' a' pt tg' n parents m'')%res
          end
      end
  end.

(** tree_node.hpp:590-612 *)
Definition check_label_with (n : node) (m : presult) (a : adapter) : option adapter :=
  if is_named n then
    match m with
    | Act UseSubs => Some a
    | _ =>
        match a_proc a, a_unproc a with
        | [], [] => None
        | [], t :: us =>
            let t' := norm_token_with n t in
            if match_node n t' then Some (Adp [t'] us) else None
        | t :: ps, us =>
            let t' := norm_token_with n t in
            if match_node n t' then Some (Adp (t' :: ps) us) else None
        end
    end
  else Some a.

(** tree_node.hpp:548-635 *)
Definition node_pre_parse_with (n : node) (parents : list node) (pt : option target) (v : validator)
  : M (option target) :=
  fun s =>
  (r <- mlift (run_policies_with (priority_order (n_pols n)) (Adp [] (p_args s)) pt
                            (Target n parents [] []) n parents (Act Valid)) ;;
   let '(a, tg, m) := r in
   match m with
   | Act Skip => mret None
   | _ =>
       match check_label_with n m a with
       | None => mret None
       | Some a' =>
           ok <- run_validator v n ;;
           if negb ok then mret None
           else match m with
                | Err c ts => mlift (Throw (EML c ts))
                | Act _ =>
                    _ <- set_args (a_unproc a') ;;
                    mret (Some (Target n parents
                                       (if is_named n then tl (a_proc a') else a_proc a')
                                       (tg_subs tg)))
                end
       end
   end)%m s.

(** utility/utf8/levenshtein_distance.hpp:70-148 and parsing/unknown_argument_handling.hpp:20-35 *)
Definition closest_matching_child_node_with (n : node) (t : token) : res (list token) :=
  let t' := match t_prefix t with PNone => get_token_type_with (t_name t) | _ => t end in
  (bst <- closest_fold (t_name t') (preorder n []) None ;;
   Ok match bst with None => [] | Some (_, ts) => ts end)%res.
Definition unknown_argument_exception_with {A} (n : node) (unknown : token) : res A :=
  (ms <- closest_matching_child_node_with n unknown ;;
   match ms with
   | [] => Throw (EML unknown_argument [unknown])
   | _ => Throw (EML unknown_argument_with_suggestion (unknown :: rev ms))
   end)%res.

(** mode.hpp:273-338 *)
Fixpoint mode_loop_with (fuel : nat) (self : node) (cs : list (node * child_pp)) (tg : target)
         (matched : list bool) : M (option target) :=
  fun s =>
  match p_args s with
  | [] => (s, Ok (Some tg))
  | front :: _ =>
      match fuel with
      | O => (s, OutOfFuel)
      | S fuel' =>
          (r <- mode_try cs 0 matched front tg ;;
           match r with
           | None =>
               fun s' =>
                 if forallb (fun x => x) matched
                 then (s', Throw (EML unhandled_arguments (p_args s')))
                 else (s', unknown_argument_exception_with self front)
           | Some (i, t) =>
               let subs := match tg_subs t with [] => [t] | ss => ss end in
               mode_loop_with fuel' self cs (add_subs tg subs) (upd matched i true)
           end)%m s
      end
  end.

(** mode.hpp:233-338 *)
Definition mode_pre_parse_with (fuel : nat) (self : node) (parents : list node)
           (cs : list (node * child_pp)) (pt : option target) (v : validator)
  : M (option target) :=
  let body :=
    (ok <- run_validator v self ;;
     if negb ok then mret None
     else mode_loop_with fuel self cs (Target self parents [] []) (map (fun _ => false) cs))%m in
  if is_anonymous self then body
  else
    (r <- node_pre_parse_with self parents pt v ;;
     match r with
     | None => mret None
     | Some t0 =>
         fun s =>
           match p_args s with
           | [] => body s
           | _ =>
               (r' <- first_match (map snd (filter (fun nc => is_mode (fst nc)) cs)) pt v ;;
                match r' with
                | Some t => mret (Some t)
                | None => body
                end)%m s
           end
     end)%m.

(** The pre_parse methods, as {!PreParse.pre_parse}. *)
Fixpoint pre_parse_with (fuel : nat) (n : node) (parents : list node) {struct n} : child_pp :=
  match n with
  | Node k _ _ _ cs =>
      match k with
      | KFlag | KArg _ | KCountingFlag | KHelp => node_pre_parse_with n parents
      | KAliasGroup => first_match (map (fun c => pre_parse_with fuel c parents) cs)
      | KOneOf inst =>
          fun pt v => one_of_match (map (fun c => (c, pre_parse_with fuel c parents)) cs) pt
                                   (one_of_validator inst n v)
      | KMode => mode_pre_parse_with fuel n parents
                                (map (fun c => (c, pre_parse_with fuel c (n :: parents))) cs)
      | KRoot => fun _ _ => mlift UB
      end
  end.

(** help.hpp:236-275 *)
Fixpoint find_help_target_with (ts : list token) (n : node) : res node :=
  match runtime_enabled n with
  | Some false =>
      match ts with
      | [] => UB
      | t :: _ => Throw (EML unknown_argument [t])
      end
  | _ =>
      match ts with
      | [] => Ok n
      | t :: ts' =>
          match find (fun c => match_node c (node_get_token_with c (t_name t))) (n_children n) with
          | Some c => find_help_target_with ts' c
          | None => Throw (EML unknown_argument [t])
          end
      end
  end.

(** help.hpp:179-225 *)
Definition help_parse_with (n : node) (parents : list node) (ts : list token) : E (option value) :=
  match rev parents with
  | [] => elift UB
  | root :: _ =>
      (t <- elift (find_help_target_with ts root) ;;
       let is_root := match n_kind t with KRoot => true | _ => false end in
       _ <- emit (EvHelp n t (has_flatten_help n || negb is_root)) ;;
       if has_router n then eret None else elift Exited)%e
  end.

(** parsing/parse_target.hpp:125-134 *)
Fixpoint exec_with (t : target) : E (option value) :=
  match t with
  | Target n parents toks subs =>
      match n_kind n with
      | KFlag => flag_parse n
      | KCountingFlag => eret (Some (VBool true))
      | KArg _ => arg_parse n toks
      | KHelp => help_parse_with n parents toks
      | KMode => mode_parse n (map (fun t' => (tg_node t', exec_with t')) subs)
      | KAliasGroup | KOneOf _ | KRoot => elift UB
      end
  end.

(** root.hpp:155-170 *)
Fixpoint root_try_with (fuel : nat) (root : node) (cs : list node) (s : pst) : pst * list event * res bool :=
  match cs with
  | [] => (s, [], Ok false)
  | c :: cs' =>
      match pre_parse_with fuel c [root] None always_true s with
      | (s', Ok None) => root_try_with fuel root cs' s'
      | (s', Ok (Some t)) =>
          match p_args s' with
          | [] => match exec_with t [] with
                  | (tr, r) => (s', tr, (_ <- r ;; Ok true)%res)
                  end
          | _ => (s', [], Throw (EML unhandled_arguments (p_args s')))
          end
      | (s', Throw e) => (s', [], Throw e)
      | (s', UB) => (s', [], UB)
      | (s', Exited) => (s', [], Exited)
      | (s', OutOfFuel) => (s', [], OutOfFuel)
      end
  end.

(** root.hpp:147-180 *)
Definition root_parse_with (root : node) (mem : memory) (args : list token) : outcome :=
  let front := match args with [] => Tok PNone [] | t :: _ => t end in
  let '(s, tr, r) := root_try_with (root_fuel args) root (n_children root) (PS args mem) in
  Out (p_mem s) tr
      (matched <- r ;;
       if matched : bool then Ok tt
       else match t_name front with
            | [] => Throw (EML no_arguments_passed [])
            | _ => unknown_argument_exception_with root front
            end)%res.

(** {!Validator.policy_static}, {!Validator.node_ok} and {!Validator.accepted}; no other condition looks at the
    prefixes. *)
Definition policy_static_with (p : policy) (owner : node) (parents : list node) : bool :=
  match p with
  | PShortName s => short_name_ok s
  | PShortFormExpander => is_some (short_name owner) && expander_ok
  | _ => policy_static p owner parents
  end.
Definition node_ok_with (np : node * list node) : bool :=
  let '(n, parents) := np in
  node_static n parents && node_rules n parents
  && forallb (fun p => policy_static_with p n parents && policy_rules p n parents) (n_pols n).
Definition accepted_with (r : node) : bool := config_ok && is_root r && forallb node_ok_with (preorder r []).
End Prefixes.

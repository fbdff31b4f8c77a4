(** Model of the parse stage: running a parse_target (parse_target::operator(), the parse methods of
    the nodes and mode_t::parse_impl). *)
From Verif Require Import Bytes Token Adapter Result CodePoint Utf8 Tree Levenshtein PreParse.

(** The observable effects of the parse stage. *)
Inductive event :=
| EvRoute (n : node) (args : list value)         (* a user's router callable is invoked *)
| EvHelp (h target : node) (flatten : bool).     (* help output is generated by node [h] *)

(** A computation that appends to the list of events (newest last). *)
Definition E (A : Type) := list event -> list event * res A.
Definition eret {A} (x : A) : E A := fun tr => (tr, Ok x).
Definition elift {A} (r : res A) : E A := fun tr => (tr, r).
Definition ebind {A B} (m : E A) (f : A -> E B) : E B :=
  fun tr => match m tr with
            | (tr', Ok x) => f x tr'
            | (tr', Throw e) => (tr', Throw e)
            | (tr', UB) => (tr', UB)
            | (tr', Exited) => (tr', Exited)
            | (tr', OutOfFuel) => (tr', OutOfFuel)
            end.
Definition emit (e : event) : E unit := fun tr => (tr ++ [e], Ok tt).
Declare Scope e_scope.
Delimit Scope e_scope with e.
Notation "x <- r ;; f" := (ebind r (fun x => f))
  (at level 61, r at next level, right associativity) : e_scope.

(** policy/min_max_value.hpp:63-78 [validation_phase] (and 164-183 for the compile-time form). *)
Definition check_value (mn mx : option value) (lt : value -> value -> bool) (n : node) (v : value)
  : res unit :=
  if match mn with Some m => lt v m | None => false end
  then Throw (EML minimum_value_not_reached [node_token n])
  else if match mx with Some m => lt m v | None => false end
       then Throw (EML maximum_value_exceeded [node_token n])
       else Ok tt.

(** The validation phases of a node's policies, in declaration order
    (multi_arg_base.hpp:114-124, mode.hpp:512-520, 539-546). *)
Fixpoint validate_with (ps : list policy) (n : node) (v : value) : res unit :=
  match ps with
  | [] => Ok tt
  | PMinMaxValue mn mx lt :: ps' =>
      (_ <- check_value mn mx lt n v ;; validate_with ps' n v)%res
  | _ :: ps' => validate_with ps' n v
  end.
Definition validate (n : node) (v : value) : res unit := validate_with (n_pols n) n v.

(** tree_node.hpp:637-671 [parse_impl]. *)
Definition parse_token (n : node) (s : bytes) : res value :=
  match custom_parser n with
  | Some f => f s
  | None => vt_parse (n_ty n) s
  end.

Fixpoint map_res {A B} (f : A -> res B) (l : list A) : res (list B) :=
  match l with
  | [] => Ok []
  | x :: l' => (y <- f x ;; ys <- map_res f l' ;; Ok (y :: ys))%res
  end.

(** multi_arg_base.hpp:98-112 *)
Definition arg_value (n : node) (ts : list token) : res value :=
  if vt_container (n_ty n)
  then (vs <- map_res (fun t => parse_token n (t_name t)) ts ;; Ok (VList vs))%res
  else match ts with
       | [] => Ok (vt_init (n_ty n))
       | t :: _ => parse_token n (t_name t)
       end.

(** multi_arg_base.hpp:98-134 [parse]; the value returned after routing is moved-from, the model
    returns the value itself (root_t discards it and children of modes have no router). *)
Definition arg_parse (n : node) (ts : list token) : E (option value) :=
  (v <- elift (arg_value n ts) ;;
   _ <- elift (validate n v) ;;
   _ <- (if has_router n then emit (EvRoute n [v]) else eret tt) ;;
   eret (Some v))%e.

(** flag.hpp:90-104 [parse]. *)
Definition flag_parse (n : node) : E (option value) :=
  (_ <- (if has_router n then emit (EvRoute n [VBool true]) else eret tt) ;;
   eret (Some (VBool true)))%e.

(** help.hpp:236-275 [find_help_target]; [tokens.front()] of an empty vector (line 242) is UB. *)
Fixpoint find_help_target (ts : list token) (n : node) : res node :=
  match runtime_enabled n with
  | Some false =>
      match ts with
      | [] => UB
      | t :: _ => Throw (EML unknown_argument [t])
      end
  | _ =>
      match ts with
      | [] => Ok n
      | t :: ts' =>
          match find (fun c => match_node c (node_get_token c (t_name t))) (n_children n) with
          | Some c => find_help_target ts' c
          | None => Throw (EML unknown_argument [t])
          end
      end
  end.

(** policy/flatten_help.hpp, help.hpp:190-193 *)
Definition has_flatten_help (n : node) : bool :=
  existsb (fun p => match p with PFlattenHelp => true | _ => false end) (n_pols n).

(** help.hpp:179-225 [parse]: without a router the output goes to std::cout and the process exits.
    The text itself is modelled in Help.v.  [std::is_same_v<root_type, node_type>] (line 193) is
    "the target is the root". *)
Definition help_parse (n : node) (parents : list node) (ts : list token) : E (option value) :=
  match rev parents with
  | [] => elift UB                                  (* help.hpp:123 static_assert *)
  | root :: _ =>
      (t <- elift (find_help_target ts root) ;;
       let is_root := match n_kind t with KRoot => true | _ => false end in
       _ <- emit (EvHelp n t (has_flatten_help n || negb is_root)) ;;
       if has_router n then eret None else elift Exited)%e
  end.

(** mode.hpp:36-41,343-347: one slot per child; a no_result_value child has no slot. *)
Inductive slot := NoSlot | Slot (v : option value).

Definition init_slot (c : node) : slot := if no_result_value c then NoSlot else Slot None.

(** mode.hpp:419-437 [match_child]. *)
Definition match_child (c : node) (id : N) : option node :=
  option_map fst
    (find (fun np => negb (is_mode (fst np)) && has_parse_method (fst np)
                     && N.eqb (n_id (fst np)) id)
          (preorder c [])).

(** mode.hpp:358-372: the first child whose subtree contains the node of the sub-target. *)
Fixpoint locate (cs : list node) (i : nat) (id : N) : option (nat * node) :=
  match cs with
  | [] => None
  | c :: cs' =>
      match match_child c id with
      | Some sub => Some (i, sub)
      | None => locate cs' (S i) id
      end
  end.

(** mode.hpp:462-486 [process_result]. *)
Definition process_result (sl : slot) (sub : node) (v : value) : res slot :=
  match sl with
  | NoSlot => Ok NoSlot
  | Slot old =>
      match multi_stage sub with
      | Some merge => Ok (Slot (Some (merge old v)))
      | None =>
          match old with
          | Some _ => Throw (EML argument_has_already_been_set [node_token sub])
          | None => Ok (Slot (Some v))
          end
      end
  end.

(** mode.hpp:349-373: run each sub-target and store its result. *)
Fixpoint run_subs (runs : list (node * E (option value))) (cs : list node) (slots : list slot)
  : E (list slot) :=
  match runs with
  | [] => eret slots
  | (n, run) :: runs' =>
      (r <- run ;;
       slots' <-
         match r with
         | None => eret slots
         | Some v =>
             match locate cs 0 (n_id n) with
             | None => eret slots
             | Some (i, sub) =>
                 match nth_error slots i with
                 | None => elift UB
                 | Some sl => (sl' <- elift (process_result sl sub v) ;; eret (upd slots i sl'))%e
                 end
             end
         end ;;
       run_subs runs' cs slots')%e
  end.

(** The missing phases of the built-in policies: policy/default_value.hpp:41-45,
    policy/required.hpp:34-42, policy/runtime_enable.hpp:107-118.  [None]: no such phase. *)
Definition missing_phase (p : policy) (c : node) : option (res value) :=
  match p with
  | PDefaultValue v => Some (Ok v)
  | PRequired => Some (Throw (EML missing_required_argument [node_token c]))
  | PRuntimeEnableRequired e d =>
      Some (if e then Throw (EML missing_required_argument [node_token c]) else Ok d)
  | _ => None
  end.

(** mode.hpp:497-504: in declaration order, each overwriting the former result. *)
Fixpoint run_missing (ps : list policy) (c : node) (cur : option value) : res (option value) :=
  match ps with
  | [] => Ok cur
  | p :: ps' =>
      match missing_phase p c with
      | None => run_missing ps' c cur
      | Some r => (v <- r ;; run_missing ps' c (Some v))%res
      end
  end.

(** mode.hpp:493-521 [process_missing_token]. *)
Definition process_missing (c : node) : res value :=
  (o <- run_missing (n_pols c) c None ;;
   let v := match o with Some v => v | None => vt_init (n_ty c) end in
   _ <- validate c v ;;
   Ok v)%res.

(** mode.hpp:376-386 *)
Fixpoint fill_missing (cs : list node) (slots : list slot) : res (list slot) :=
  match cs, slots with
  | c :: cs', sl :: slots' =>
      (sl' <- match sl with
              | Slot None => v <- process_missing c ;; Ok (Slot (Some v))
              | _ => Ok sl
              end ;;
       rest <- fill_missing cs' slots' ;;
       Ok (sl' :: rest))%res
  | _, _ => Ok []
  end.

(** mode.hpp:533-535: the child or one of its direct children is multi-stage. *)
Definition is_msv (c : node) : bool :=
  has_multi_stage c || existsb has_multi_stage (n_children c).

(** mode.hpp:524-552 [multi_stage_validation]; every slot is set by then. *)
Fixpoint msv_validate (cs : list node) (slots : list slot) : res unit :=
  match cs, slots with
  | c :: cs', sl :: slots' =>
      (_ <- match sl with
            | Slot (Some v) => if is_msv c then validate c v else Ok tt
            | Slot None => if is_msv c then UB else Ok tt
            | NoSlot => Ok tt
            end ;;
       msv_validate cs' slots')%res
  | _, _ => Ok tt
  end.

(** mode.hpp:397-399 [tuple_filter_and_construct]: the values of the slots; an unset slot would be
    dereferenced, which is UB. *)
Fixpoint slot_values (slots : list slot) : res (list value) :=
  match slots with
  | [] => Ok []
  | NoSlot :: slots' => slot_values slots'
  | Slot None :: _ => UB
  | Slot (Some v) :: slots' => (vs <- slot_values slots' ;; Ok (v :: vs))%res
  end.

(** mode.hpp:341-416 [parse_impl]; returns no value. *)
Definition mode_parse (self : node) (runs : list (node * E (option value))) : E (option value) :=
  let cs := n_children self in
  (slots <- run_subs runs cs (map init_slot cs) ;;
   slots <- elift (fill_missing cs slots) ;;
   _ <- elift (msv_validate cs slots) ;;
   if has_router self
   then (vs <- elift (slot_values slots) ;;
         _ <- emit (EvRoute self vs) ;;
         eret None)
   else elift (Throw (EML mode_requires_arguments [node_token self])))%e.

(** parsing/parse_target.hpp:125-134 [operator()] of a target that was not run before: calls the
    node's parse method.  The dependency nodes have none, so they never own a target. *)
Fixpoint exec (t : target) : E (option value) :=
  match t with
  | Target n parents toks subs =>
      match n_kind n with
      | KFlag => flag_parse n
      | KCountingFlag => eret (Some (VBool true))          (* counting_flag.hpp:95-102 *)
      | KArg _ => arg_parse n toks
      | KHelp => help_parse n parents toks
      | KMode => mode_parse n (map (fun t' => (tg_node t', exec t')) subs)
      | KAliasGroup | KOneOf _ | KRoot => elift UB
      end
  end.

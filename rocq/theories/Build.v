(** Model of the node factories: the policies that the node classes add to the user's. *)
From Verif Require Import Bytes Token Result CodePoint Utf8 Tree PreParse.

(** policy/short_form_expander.hpp is added by the flag factories when there is a short name
    (flag.hpp:141-150, counting_flag.hpp:147-161). *)
Definition has_short (ps : list policy) : bool :=
  existsb (fun p => match p with PShortName _ => true | _ => false end) ps.
Definition with_expander (ps : list policy) : list policy :=
  if has_short ps then PShortFormExpander :: ps else ps.

(** [bool] as a value type; a flag's parser is never used. *)
Definition bool_type : vtype := VT false (fun s => Throw (EML failed_to_parse [Tok PNone s])) (VBool false).

(** flag.hpp:30-36,64-70,136-156 *)
Definition flag (id : N) (ps : list policy) : node :=
  Node KFlag id bool_type (PDefaultValue (VBool false) :: PMinMaxCount 0 0 :: with_expander ps) [].

(** counting_flag.hpp:109-117 [merge_impl]; [cast] is [static_cast<T>] from std::size_t and values
    of [T] are integers. *)
Definition counting_merge (cast : Z -> Z) (old : option value) (v : value) : value :=
  match old with
  | Some (VInt z) => VInt (cast (Z.modulo z (Z.of_N size_mod) + 1)%Z)
  | _ => VInt (cast 1%Z)
  end.

(** [T] of a counting flag. *)
Definition int_type (parse : bytes -> res value) : vtype := VT false parse (VInt 0).

(** counting_flag.hpp:29-35,64-71,142-167 *)
Definition counting_flag (cast : Z -> Z) (id : N) (ps : list policy) : node :=
  Node KCountingFlag id (int_type (fun s => Throw (EML failed_to_parse [Tok PNone s])))
       (PMultiStage (counting_merge cast) :: PMinMaxCount 0 0 :: with_expander ps) [].

(** arg.hpp:21-27,46-53 *)
Definition arg (ty : vtype) (id : N) (ps : list policy) : node :=
  Node (KArg AArg) id ty (PMinMaxCount 1 1 :: ps) [].

(** policy/min_max_count.hpp:193-222 [add_missing_min_max_policy]. *)
Definition has_count (ps : list policy) : bool :=
  existsb (fun p => match p with PMinMaxCount _ _ => true | _ => false end) ps.
Definition add_missing_count (mn : N) (ps : list policy) : list policy :=
  if has_count ps then ps else PMinMaxCount mn size_max :: ps.

(** multi_arg.hpp:22-62 *)
Definition multi_arg (ty : vtype) (id : N) (ps : list policy) : node :=
  Node (KArg AMulti) id ty (add_missing_count 1 ps) [].

(** positional_arg.hpp:27-75 *)
Definition positional_arg (ty : vtype) (id : N) (ps : list policy) : node :=
  Node (KArg APositional) id ty (add_missing_count 0 ps) [].

(** [vector<std::string_view>]: parser.hpp, each element is the token itself. *)
Definition strings_type : vtype := VT true (fun s => Ok (VStr s)) (VList []).

(** forwarding_arg.hpp:22-63 *)
Definition forwarding_arg (id : N) (ps : list policy) : node :=
  Node (KArg AForwarding) id strings_type (add_missing_count 0 ps) [].

(** dependency/detail.hpp:16-72: the names of the children, joined with commas. *)
Fixpoint join_names (cs : list node) : bytes :=
  match cs with
  | [] => []
  | [c] => token_str (node_token c)
  | c :: cs' => token_str (node_token c) ++ b "," ++ join_names cs'
  end.

Definition has_display (ps : list policy) : option bytes :=
  first_some (fun p => match p with PDisplayName s => Some s | _ => None end) ps.

(** dependency/detail.hpp:74-118 [add_names]. *)
Definition add_names (default_string : bytes) (ps : list policy) (cs : list node) : list policy :=
  match has_display ps with
  | Some d => PErrorName (d ++ join_names cs) :: ps
  | None => PDisplayName default_string :: PErrorName (default_string ++ join_names cs) :: ps
  end.

(** dependency/alias_group.hpp:33-52 *)
Definition alias_group (ty : vtype) (id : N) (ps : list policy) (cs : list node) : node :=
  Node KAliasGroup id ty (add_names (b "Alias Group: ") ps cs) cs.

(** dependency/one_of.hpp:19-49 *)
Definition one_of (inst : N) (ty : vtype) (id : N) (ps : list policy) (cs : list node) : node :=
  Node (KOneOf inst) id ty (add_names (b "One of: ") ps cs) cs.

Definition no_value : vtype := VT false (fun _ => UB) (VList []).

(** mode.hpp:23-43,56-60,140-166 *)
Definition mode (id : N) (ps : list policy) (cs : list node) : node :=
  let named := existsb (fun p => match p with PNoneName _ | PErrorName _ => true | _ => false end) ps in
  Node KMode id no_value
       (if named then PNoResultValue :: ps
        else PErrorName (b "(Anon mode)") :: PNoResultValue :: ps) cs.

(** help.hpp:48-55,92-115; the formatter is modelled in Help.v with its default settings. *)
Definition help (id : N) (ps : list policy) : node :=
  Node KHelp id no_value (PNoResultValue :: PMinMaxCount 0 size_max :: ps) [].

(** root.hpp:51-140 *)
Definition root (ps : list policy) (cs : list node) : node :=
  Node KRoot 0 no_value ps cs.

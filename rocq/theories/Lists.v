(** Lists of nodes and how a node is put together from what is written in its constructor call:
    list.hpp and the constructor of tree_node. *)
From Verif Require Import Bytes Token Tree Build.
Local Open Scope list_scope.

(** A constructor argument: a policy, a node or a list (list.hpp:20-50).  A list holds a tuple of its
    arguments. *)
Inductive param :=
| QPolicy (p : policy)
| QNode (n : node)
| QList (children : list param).

(** policy/policy.hpp [is_policy], tree_node_fwd.hpp:32-43 [is_tree_node]: neither holds of a list. *)
Definition is_policy (q : param) : bool := match q with QPolicy _ => true | _ => false end.
Definition is_tree_node (q : param) : bool := match q with QNode _ => true | _ => false end.

(** list.hpp:27-28: the static_assert of a list.  That a list is not empty follows from name lookup:
    [list_expander_unpacker] (list.hpp:59-65) calls [list_expander_impl] with only the result if there are
    no children, but the overload for this (list.hpp:69-72) is declared later and argument-dependent lookup
    does not find it, as no argument has a type of namespace detail. *)
Definition list_compiles (q : param) : bool :=
  match q with
  | QList children => forallb is_tree_node children && negb (Nat.eqb (List.length children) 0)
  | _ => true
  end.

(** list.hpp:74-88 [list_expander_impl], one step: [result] with the next argument; the children of a list
    are given to [list_expander_impl] in turn (lines 59-65). *)
Fixpoint expand_next (result : list param) (next : param) : list param :=
  match next with
  | QList children =>
      (fix unpacked (result children : list param) : list param :=
         match children with
         | [] => result
         | child :: children' => unpacked (expand_next result child) children'
         end) result children
  | _ => result ++ [next]                                        (* algorithm.hpp:245-252 *)
  end.

(** list.hpp:97-101 [list_expander]. *)
Fixpoint list_expander_impl (result : list param) (others : list param) : list param :=
  match others with
  | [] => result
  | next :: others' => list_expander_impl (expand_next result next) others'
  end.
Definition list_expander (params : list param) : list param := list_expander_impl [] params.

(** tree_node.hpp:49-52, 434-436: the policies are taken from the arguments as they are written. *)
Definition policies_of (params : list param) : list policy :=
  flat_map (fun q => match q with QPolicy p => [p] | _ => [] end) (filter is_policy params).

(** tree_node.hpp:57-60, 437: the children are taken from the expanded arguments. *)
Definition children_of (params : list param) : list node :=
  flat_map (fun q => match q with QNode n => [n] | _ => [] end) (filter is_tree_node (list_expander params)).

(** dependency/detail.hpp:16-72 [generate_string_of_child_names]: the names of the nodes among the arguments
    as they are written (line 49: lists are not expanded here) behind [display], each with a comma behind it;
    then the last byte is cut off. *)
Definition generated_name (display : bytes) (params : list param) : bytes :=
  removelast (display ++ flat_map (fun q => match q with
                                            | QNode c => token_str (node_token c) ++ b ","
                                            | _ => []
                                            end) (filter is_tree_node params)).

(** dependency/detail.hpp:74-115 [add_names]. *)
Definition names_added (default_string : bytes) (params : list param) : list param :=
  match has_display (policies_of params) with
  | Some d => [QPolicy (PErrorName (generated_name d params))]
  | None => [QPolicy (PDisplayName default_string); QPolicy (PErrorName (generated_name default_string params))]
  end.

(** What the class adds to the arguments: dependency/alias_group.hpp:34, dependency/one_of.hpp:20.  What
    other classes add does not depend on their children (mode.hpp:24-44: only on the policies), for these
    the arguments are taken with the additions. *)
Definition class_adds (k : kind) (params : list param) : list param :=
  match k with
  | KAliasGroup => names_added (b "Alias Group: ") params
  | KOneOf _ => names_added (b "One of: ") params
  | _ => []
  end.

(** tree_node.hpp:61-66, 434-439: a node of class [k] and type [i] for values of type [t], or [None] if it
    does not compile. *)
Definition construct (k : kind) (i : N) (t : vtype) (written : list param) : option node :=
  let params := class_adds k written ++ written in
  if forallb list_compiles params
     && Nat.eqb (List.length (children_of params) + List.length (policies_of params))
                (List.length (list_expander params))
  then Some (Node k i t (policies_of params) (children_of params))
  else None.

(** Source text: an expression that makes a policy, a node or a list. *)
Inductive source :=
| SPolicy (p : policy)
| SNode (k : kind) (i : N) (t : vtype) (params : list source)
| SList (children : list source).

(** All of them, or [None] if one does not compile. *)
Fixpoint all_compile {A} (l : list (option A)) : option (list A) :=
  match l with
  | [] => Some []
  | None :: _ => None
  | Some x :: l' => match all_compile l' with Some xs => Some (x :: xs) | None => None end
  end.

(** The value of an expression, arguments first. *)
Fixpoint compile (s : source) : option param :=
  match s with
  | SPolicy p => Some (QPolicy p)
  | SNode k i t params =>
      match all_compile (map compile params) with
      | Some qs => match construct k i t qs with Some n => Some (QNode n) | None => None end
      | None => None
      end
  | SList children =>
      match all_compile (map compile children) with
      | Some qs => if list_compiles (QList qs) then Some (QList qs) else None
      | None => None
      end
  end.

(** Source text without lists: the specification for C76. *)
From Verif Require Import Bytes Token Tree Lists.
Local Open Scope list_scope.

(** The same source text with the content of each list written in its place.  As the lists are part of the
    C++ type of the node that they are written in, type [i] becomes type [ty i]. *)
Fixpoint spelled_out (ty : N -> N) (s : source) : list source :=
  match s with
  | SPolicy p => [SPolicy p]
  | SNode k i t params => [SNode k (ty i) t (List.concat (map (spelled_out ty) params))]
  | SList children => List.concat (map (spelled_out ty) children)
  end.

(** Is there a list anywhere? *)
Fixpoint no_list (s : source) : bool :=
  match s with
  | SPolicy _ => true
  | SNode _ _ _ params => forallb no_list params
  | SList _ => false
  end.

(** The policies and the nodes that are written among the arguments, in order; the nodes in lists
    included. *)
Definition written_policies (params : list source) : list policy :=
  List.concat (map (fun s => match s with SPolicy p => [p] | _ => [] end) params).
Definition written_nodes (params : list source) : list source :=
  List.concat (map (fun s => match s with SPolicy _ => [] | SNode _ _ _ _ => [s] | SList cs => cs end) params).

(** Is a list written directly inside an alias_group or one_of? *)
Definition is_group (k : kind) : bool := match k with KAliasGroup | KOneOf _ => true | _ => false end.
Definition is_list (s : source) : bool := match s with SList _ => true | _ => false end.
Fixpoint lists_in_groups (s : source) : bool :=
  match s with
  | SPolicy _ => false
  | SNode k _ _ params => is_group k && existsb is_list params || existsb lists_in_groups params
  | SList children => existsb lists_in_groups children
  end.

(** The names of the nodes that are written among the arguments themselves, not in lists. *)
Definition direct_nodes (params : list source) : list source :=
  List.concat (map (fun s => match s with SNode _ _ _ _ => [s] | _ => [] end) params).
Fixpoint comma_list (names : list bytes) : bytes :=
  match names with [] => [] | [x] => x | x :: names' => x ++ b "," ++ comma_list names' end.

(** The error name of a group: its display name and these names; without any, the last byte is cut off. *)
Definition group_title (display : bytes) (direct : list node) : bytes :=
  match direct with
  | [] => removelast display
  | _ => display ++ comma_list (map (fun c => token_str (node_token c)) direct)
  end.

Definition no_display (ps : list policy) : Prop := forall d, ~ In (PDisplayName d) ps.

(** What the class of the node says about itself: the names that alias_group and one_of make up. *)
Definition made_up (k : kind) (params : list source) (ps : list policy) : Prop :=
  if is_group k
  then exists direct, Forall2 (fun s c => compile s = Some (QNode c)) (direct_nodes params) direct /\
    ((exists d before after, written_policies params = before ++ PDisplayName d :: after /\ no_display before
        /\ ps = [PErrorName (group_title d direct)])
     \/ no_display (written_policies params)
        /\ let start := match k with KAliasGroup => b "Alias Group: " | _ => b "One of: " end in
           ps = [PDisplayName start; PErrorName (group_title start direct)])
  else ps = [].

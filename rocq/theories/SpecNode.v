(** Specification for C67: what a node's policies say about its names and how it is typed and shown. *)
From Verif Require Import Bytes Token Result Tree SpecRules.

(** [spelled n s t]: the word [s] on the command line is a name of the node, the one written as [t]. *)
Inductive spelled (n : node) : bytes -> token -> Prop :=
| spelled_long x : In (PLongName x) (n_pols n) -> spelled n (b "--" ++ x) (Tok PLong x)
| spelled_short x : In (PShortName x) (n_pols n) -> (forall y, x <> b "-" ++ y) -> spelled n (b "-" ++ x) (Tok PShort x)
| spelled_none x : In (PNoneName x) (n_pols n) -> spelled n x (Tok PNone x).

(** [shown n t]: the node is written as [t] in an error message: by its error name if there is one, then
    display name, long name, short name, none name. *)
Inductive shown (n : node) : token -> Prop :=
| shown_error x : In (PErrorName x) (n_pols n) -> shown n (Tok PNone x)
| shown_display x : In (PDisplayName x) (n_pols n) -> lacks n [k_error] -> shown n (Tok PNone x)
| shown_long x : In (PLongName x) (n_pols n) -> lacks n [k_error; k_display] -> shown n (Tok PLong x)
| shown_short x : In (PShortName x) (n_pols n) -> lacks n [k_error; k_display; k_long] -> shown n (Tok PShort x)
| shown_none x : In (PNoneName x) (n_pols n) -> lacks n [k_error; k_display; k_long; k_short] -> shown n (Tok PNone x).

(** [o] is what the policy made by [mk] says, if the node has it. *)
Definition says {A} (n : node) (mk : A -> policy) (o : option A) : Prop :=
  match o with
  | Some x => In (mk x) (n_pols n)
  | None => forall x, ~ In (mk x) (n_pols n)
  end.

(** The runtime switch. *)
Inductive switched (n : node) : option bool -> Prop :=
| switched_plain e : In (PRuntimeEnable e) (n_pols n) -> switched n (Some e)
| switched_required e d : In (PRuntimeEnableRequired e d) (n_pols n) -> switched n (Some e)
| switched_not : lacks n [k_enable; k_enable_required] -> switched n None.

(** The nodes of a tree with their parents, each before its children, these from first to last. *)
Inductive listing : node -> list node -> list (node * list node) -> Prop :=
| listing_at n parents lss : Forall2 (fun c ls => listing c (n :: parents) ls) (n_children n) lss ->
    listing n parents ((n, parents) :: List.concat lss).

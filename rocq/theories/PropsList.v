(** Arguments in lists: C76. *)
From Verif Require Import Bytes Token Result CodePoint Utf8 Tree PreParse Parse Root Build Validator Lists.
From Verif Require Import SpecWording SpecList WordingProofs ListProofs Demo Oddities.
Local Open Scope list_scope.

(** A node has the policies that are written in it, behind those that its class makes up, and as children
    the nodes that are written in it, the members of lists in place of the lists; all in order. *)
Theorem c76_content : forall k i t params n,
  compile (SNode k i t params) = Some (QNode n) ->
  n_kind n = k /\ n_id n = i /\ n_ty n = t /\
  (exists own, made_up k params own /\ n_pols n = own ++ written_policies params) /\
  Forall2 (fun s c => compile s = Some (QNode c)) (written_nodes params) (n_children n).
Proof. exact node_content. Qed.
Print Assumptions c76_content.

(** Lists hold nodes, at least one; policies and lists in a list are refused. *)
Theorem c76_lists : forall cs,
  (exists q, compile (SList cs) = Some q) <->
  cs <> [] /\ Forall (fun c => exists n, compile c = Some (QNode n)) cs.
Proof. exact list_content. Qed.
Print Assumptions c76_lists.

Lemma one_node k i t ps (qs : list param) :
  Forall2 (fun s q => compile s = Some q) [SNode k i t ps] qs -> exists n, qs = [QNode n] /\ compile (SNode k i t ps) = Some (QNode n).
Proof.
  intros H. inversion H as [|? q ? l Hq Hl]; subst. inversion Hl; subst. pose proof Hq as Hq'.
  apply node_compiles in Hq as (? & n & _ & _ & ->). now exists n.
Qed.

(** A program with lists does what the program does in which the members are written in their place: the
    same router is called with the same values, or the help page of the same node is shown, or the same error
    is reported of the same nodes.  Missing: programs in which nodes of different C++ type get the same type
    when the lists are written out, as the first has its children in a list and the second has not. *)
Theorem c76_outcome_partial : forall ty k i t params n,
  keeps_types ty -> compile (SNode k i t params) = Some (QNode n) ->
  exists plain n',
    spelled_out ty (SNode k i t params) = [plain] /\ no_list plain = true /\ compile plain = Some (QNode n') /\
    forall mem args,
      reworded_outcome ty false (root_parse n mem args) (root_parse n' (reworded_mem ty mem) args).
Proof.
  intros ty k i t params n Hty H. destruct (compile_alike ty _ _ H) as (qs & H1 & H2). pose proof (spelled_no_list ty (SNode k i t params)) as L.
  cbn [spelled_out] in H1 |- *. apply one_node in H1 as (n' & -> & H1). eexists _, n'. split; [reflexivity|].
  split; [now apply andb_prop in L|]. split; [exact H1|]. intros mem args. apply (rew_root_parse ty false Hty). now inversion H2; subst.
Qed.
Print Assumptions c76_outcome_partial.

(** If no list is written directly in an alias_group or a one_of, then the one program compiles exactly if
    the other does and the outcomes are the same to the letter. *)
Theorem c76_exact_partial : forall ty k i t params n,
  keeps_types ty -> compile (SNode k i t params) = Some (QNode n) ->
  lists_in_groups (SNode k i t params) = false ->
  exists plain n',
    spelled_out ty (SNode k i t params) = [plain] /\ no_list plain = true /\ compile plain = Some (QNode n') /\
    accepted n' = accepted n /\
    forall mem args,
      reworded_outcome ty true (root_parse n mem args) (root_parse n' (reworded_mem ty mem) args) /\
      o_res (root_parse n' (reworded_mem ty mem) args) = o_res (root_parse n mem args).
Proof.
  intros ty k i t params n Hty H G. pose proof (compile_plain ty _ _ H G) as H1. pose proof (spelled_no_list ty (SNode k i t params)) as L.
  cbn [spelled_out plain] in H1, L |- *. inversion H1 as [|? ? ? ? Hc]; subst. eexists _, _. split; [reflexivity|].
  split; [now apply andb_prop in L|]. split; [exact Hc|]. split; [now apply re_accepted|]. intros mem args.
  pose proof (rew_root_parse ty true Hty _ _ mem args (retype_reworded ty n)) as R. split; [exact R|].
  apply (rres_exact ty true Hty eq_refl). apply R.
Qed.
Print Assumptions c76_exact_partial.

(** The same list in two modes, and in a one_of. *)
Definition s_arg (id : N) (name : bytes) : source := SNode (KArg AArg) id num [SPolicy (PMinMaxCount 1 1); SPolicy (PLongName name)].
Definition common := SList [s_arg 1 (b "xx"); s_arg 2 (b "yy")].
Definition s_mode (id : N) (name : bytes) (ps : list source) : source :=
  SNode KMode id no_value (SPolicy PNoResultValue :: SPolicy (PNoneName name) :: ps ++ [SPolicy PRouter]).
Definition s_root (ms : list source) : source := SNode KRoot 0 no_value ms.
Definition two_modes (c : list source) : source :=
  s_root [s_mode 10 (b "first") (s_arg 3 (b "zz") :: c); s_mode 11 (b "second") c].
Definition s_pick (id : N) (c : list source) : source := SNode (KOneOf 1) id num (SPolicy PRequired :: c).
Definition picking (id : N) (c : list source) : source := s_root [s_mode 10 (b "run") [s_pick id c]].

Definition program (s : source) : node :=
  match compile s with Some (QNode n) => n | _ => q_x end.

(** Two programs that differ in a list only: the message of the first does not name the alternatives. *)
Theorem c76_names_refuted : exists k i t params plain r r' args,
  (exists ty, keeps_types ty /\ spelled_out ty (SNode k i t params) = [plain]) /\
  compile (SNode k i t params) = Some (QNode r) /\ compile plain = Some (QNode r') /\
  accepted r = true /\ accepted r' = true /\
  o_res (root_parse r [] args) = Throw (EML missing_required_argument [Tok PNone (b "One of:")]) /\
  o_res (root_parse r' [] args) = Throw (EML missing_required_argument [Tok PNone (b "One of: --xx,--yy")]).
Proof.
  exists KRoot, 0%N, no_value, [s_mode 10 (b "run") [s_pick 5 [common]]],
    (picking 5 [s_arg 1 (b "xx"); s_arg 2 (b "yy")]),
    (program (picking 5 [common])), (program (picking 5 [s_arg 1 (b "xx"); s_arg 2 (b "yy")])), (to_tokens [b "run"]).
  split; [exists (fun i => i); split; [now intros x y|reflexivity]|].
  split; [reflexivity|]. split; [reflexivity|]. split; [vm_compute; reflexivity|]. split; [vm_compute; reflexivity|].
  split; vm_compute; reflexivity.
Qed.
Print Assumptions c76_names_refuted.

Example c76_example :
  let listed := two_modes [common] in
  let written := two_modes [s_arg 1 (b "xx"); s_arg 2 (b "yy")] in
  spelled_out (fun i => i) listed = [written] /\ no_list listed = false /\ lists_in_groups listed = false /\
  compile listed = Some (QNode (program listed)) /\ accepted (program listed) = true /\
  calls_of (program listed) [] (map b ["second"; "--yy"; "2"; "--xx"; "1"]%string) = [(11%N, [VInt 1; VInt 2])] /\
  calls_of (program listed) [] (map b ["first"; "--yy"; "2"; "--zz"; "1"]%string)
  = calls_of (program written) [] (map b ["first"; "--yy"; "2"; "--zz"; "1"]%string) /\
  compile (SList [s_arg 1 (b "xx"); SPolicy PRequired]) = None /\ compile (SList []) = None /\
  compile (SList [common]) = None.
Proof.
  cbv zeta. split; [reflexivity|]. split; [reflexivity|]. split; [reflexivity|]. split; [reflexivity|].
  split; [vm_compute; reflexivity|]. split; [vm_compute; reflexivity|]. split; [vm_compute; reflexivity|].
  split; [reflexivity|]. split; reflexivity.
Qed.

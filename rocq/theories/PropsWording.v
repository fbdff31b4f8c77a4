(** The texts that are only shown, and programs in several languages: C73. *)
From Verif Require Import Bytes Token Result CodePoint Utf8 Tree PreParse Parse Root Help HelpMore MultiLang Validator Build.
From Verif Require Import SpecHelp SpecWording WordingProofs TextProofs Demo Oddities.
Local Open Scope list_scope.

(** A program with other texts does the same: the same router is called with the same values, or the help
    page of the same node is shown, or the same error is reported of the same nodes.  Missing for the full
    statement: texts that change which nodes have the same C++ type, see [c73_types_refuted]. *)
Theorem c73_outcome_partial : forall ty names r r' mem args,
  keeps_types ty -> reworded ty names r r' ->
  reworded_outcome ty names (root_parse r mem args) (root_parse r' (reworded_mem ty mem) args).
Proof. exact (fun ty names r r' mem args Hty H => rew_root_parse ty names Hty r r' mem args H). Qed.
Print Assumptions c73_outcome_partial.

(** If the names for error messages are kept, then the outcome is the same to the letter. *)
Theorem c73_exact_partial : forall ty r r' mem args,
  keeps_types ty -> reworded ty true r r' ->
  o_res (root_parse r' (reworded_mem ty mem) args) = o_res (root_parse r mem args).
Proof.
  intros ty r r' mem args Hty H. apply (rres_exact ty true Hty eq_refl).
  apply (rew_root_parse ty true Hty r r' mem args H).
Qed.
Print Assumptions c73_exact_partial.

(** The help page has the same entries at the same depth with the same bars and labels, and the
    descriptions start in the same column (the rows themselves: [c34_aligned] and [c59_page_of_run]). *)
Theorem c73_page : forall ty lim f t t',
  keeps_types ty ->
  (forall n n', reworded ty true n n' -> lim n' = lim n) ->
  reworded ty true t t' ->
  description_column lim f t' = description_column lim f t /\
  Forall2 (fun '(n, parents, line) '(n', parents', line') =>
             reworded ty true n n' /\ List.length parents = List.length parents' /\
             line ++ help_label lim n = line' ++ help_label lim n')
          (on_page f t) (on_page f t').
Proof.
  intros ty lim f t t' Hty Hlim H. split; [now apply (rew_column ty true Hty eq_refl lim Hlim)|].
  pose proof (rew_on_page ty true Hty f t t' H) as P. revert P. generalize (on_page f t) (on_page f t').
  induction 1 as [|[[n ps] x] [[n' ps'] x'] l l' (Hn & Hp & Hx) Hs IH]; constructor; auto.
  cbn [fst snd] in Hn, Hp, Hx. subst x'. split; [exact Hn|]. split; [now apply (rews_length ty true)|].
  now rewrite (rew_label ty true Hty eq_refl lim Hlim _ _ Hn).
Qed.
Print Assumptions c73_page.

(** A program in several languages, which keep the names: whatever language is requested, it does what it
    does in the default language. *)
Theorem c73_languages_partial : forall factory default others request names args,
  (forall l, In l others -> exists ty, keeps_types ty /\ reworded ty names (factory default) (factory l)) ->
  exists ty, keeps_types ty /\
    reworded_outcome ty names (root_parse (factory default) [] args)
                     (multi_parse factory default others request [] args).
Proof.
  intros factory default others request names args Hl. unfold multi_parse, multi_root.
  assert (D : exists ty, keeps_types ty /\ reworded_outcome ty names (root_parse (factory default) [] args) (root_parse (factory default) [] args)).
  { exists (fun i => i). split; [now intros x y|].
    apply (rew_root_parse (fun i => i) names (fun x y H => H) _ _ [] args (reworded_refl names _)). }
  destruct (in_dec (list_eq_dec ascii_dec) request (default :: others)) as [Hin|Hout].
  - rewrite (select_supported factory default others request Hin). cbn [fst]. destruct Hin as [<-|Hin]; [exact D|].
    destruct (Hl _ Hin) as (ty & Hty & H). exists ty. split; [exact Hty|].
    apply (rew_root_parse ty names Hty _ _ [] args H).
  - rewrite (select_default factory default others request Hout). exact D.
Qed.
Print Assumptions c73_languages_partial.

(** Two programs that differ in nothing but a description: in one of them the value of --xx is lost.  An
    argument of the sub-mode has the same C++ type as the mode's own as long as it has the same description.
    [honest]: nodes have the same type if and only if they are equal. *)
Definition honest (r : node) : Prop :=
  forall n n', In n (map fst (preorder r [])) -> In n' (map fst (preorder r [])) -> (n_id n = n_id n' <-> n = n').

(** The same tree with another description for one of its nodes. *)
Inductive redescribed : node -> node -> Prop :=
| Redescribed k i i' t ps ps' cs cs' :
    substance ps = substance ps' -> filter is_error_text ps = filter is_error_text ps' ->
    Forall2 redescribed cs cs' -> redescribed (Node k i t ps cs) (Node k i' t ps' cs').

Definition q_x_described := arg num 90 [PLongName (b "xx"); PDescription (b "The same for the sub-mode")].
Definition sub_tool_described := tool [mode 101 [PNoneName (b "sub"); PRouter] [q_x_described]; q_x].

Theorem c73_types_refuted : exists r r' args,
  accepted r = true /\ accepted r' = true /\ honest r /\ honest r' /\ redescribed r r' /\
  calls_of r [] args = [(100%N, [VInt 0])] /\ calls_of r' [] args = [(100%N, [VInt 1])].
Proof.
  exists sub_tool, sub_tool_described, (map b ["run"; "--xx"; "1"]%string).
  split; [vm_compute; reflexivity|]. split; [vm_compute; reflexivity|].
  split.
  { intros n n' H H'. cbn [sub_tool tool root mode map fst preorder flat_map app In] in H, H'.
    split; [|now intros ->].
    destruct H as [<-|[<-|[<-|[<-|[<-|[]]]]]], H' as [<-|[<-|[<-|[<-|[<-|[]]]]]];
      first [reflexivity|intros E; exfalso; cbv in E; discriminate E]. }
  split.
  { intros n n' H H'. cbn [sub_tool_described tool root mode map fst preorder flat_map app In] in H, H'.
    split; [|now intros ->].
    destruct H as [<-|[<-|[<-|[<-|[<-|[]]]]]], H' as [<-|[<-|[<-|[<-|[<-|[]]]]]];
      first [reflexivity|intros E; exfalso; cbv in E; discriminate E]. }
  split; [|split; vm_compute; reflexivity].
  repeat (constructor; [reflexivity|reflexivity|]; repeat (constructor; try reflexivity)).
Qed.
Print Assumptions c73_types_refuted.

(** Every tree has a rewording: with a description added to each node. *)
Fixpoint describe (text : bytes) (n : node) : node :=
  match n with Node k i t ps cs => Node k (i + 1000) t (PDescription text :: ps) (map (describe text) cs) end.

Lemma describe_reworded text n : reworded (fun i => (i + 1000)%N) true n (describe text n).
Proof.
  induction n as [k i t ps cs IH] using TreeProofs.node_ind'. cbn [describe].
  apply (Reworded (fun i => (i + 1000)%N) true k i t ps (PDescription text :: ps) cs); try reflexivity.
  induction IH; cbn [map]; constructor; auto.
Qed.

Example c73_example :
  keeps_types (fun i => (i + 1000)%N) /\
  reworded (fun i => (i + 1000)%N) true demo (describe (b "Un mot") demo) /\
  (forall n n', reworded (fun i => (i + 1000)%N) true n n' -> (fun _ => @None limits) n' = (fun _ => @None limits) n) /\
  List.length (on_page true (describe (b "Un mot") demo)) = 22 /\
  let words := map b ["copy"; "-fv"; "--width"; "2"; "a"; "--"; "z"]%string in
  calls_of demo [] words <> [] /\
  map snd (calls_of (describe (b "Un mot") demo) [] words) = map snd (calls_of demo [] words) /\
  calls_of demo [] (map b ["copy"; "--widht"]%string) = [] /\
  ends_in (describe (b "Un mot") demo) [] (map b ["copy"; "--widht"]%string) = ends_in demo [] (map b ["copy"; "--widht"]%string).
Proof.
  split; [intros x y H; lia|]. split; [apply describe_reworded|]. split; [reflexivity|]. split; [vm_compute; reflexivity|]. cbv zeta.
  split; [vm_compute; discriminate|]. split; [vm_compute; reflexivity|]. split; [vm_compute; reflexivity|]. vm_compute; reflexivity.
Qed.

(** Display names in another language: the same error, with the other name in it. *)
Definition t_en := tool [positional_arg str 1 [PDisplayName (b "FILE"); PMinMaxCount 1 1; PRequired]].
Definition t_fr := tool [positional_arg str 1 [PDisplayName (b "FICHIER"); PMinMaxCount 1 1; PRequired]].
Definition by_language (l : bytes) : node := if beq l (b "fr") then t_fr else t_en.

Example c73_languages_example :
  languages_compile (b "en_GB") [b "fr"] = true /\ accepted t_en = true /\ accepted t_fr = true /\
  (forall l, In l [b "fr"] -> exists ty, keeps_types ty /\ reworded ty false (by_language (b "en_GB")) (by_language l)) /\
  o_res (multi_parse by_language (b "en_GB") [b "fr"] (iso_locale (b "fr.UTF-8")) [] (to_tokens [b "run"]))
  = Throw (EML missing_required_argument [Tok PNone (b "FICHIER")]) /\
  o_res (multi_parse by_language (b "en_GB") [b "fr"] (b "de") [] (to_tokens [b "run"]))
  = Throw (EML missing_required_argument [Tok PNone (b "FILE")]).
Proof.
  split; [reflexivity|]. split; [vm_compute; reflexivity|]. split; [vm_compute; reflexivity|]. split.
  { intros l [<-|[]]. exists (fun i => i). split; [now intros x y|].
    change (reworded (fun i => i) false t_en t_fr).
    assert (R : forall k i t ps ps' cs cs', substance ps = substance ps' -> Forall2 (reworded (fun i => i) false) cs cs' ->
              reworded (fun i => i) false (Node k i t ps cs) (Node k i t ps' cs')).
    { intros k i t ps ps' cs cs' H1 H2. apply (Reworded (fun i => i) false k i t ps ps' cs cs' H1); [discriminate|exact H2]. }
    apply R; [reflexivity|]. constructor; [|constructor]. apply R; [reflexivity|]. constructor; [|constructor].
    apply R; [reflexivity|constructor]. }
  split; vm_compute; reflexivity.
Qed.

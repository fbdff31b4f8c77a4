(** Lemmas for C76. *)
From Verif Require Import Bytes Token Result CodePoint Utf8 Tree PreParse Parse Root Build Validator TreeProofs Lists SpecList SpecWording WordingProofs.
Local Open Scope list_scope.

(** ** Other types *)

Fixpoint retype (ty : N -> N) (n : node) : node :=
  match n with Node k i t ps cs => Node k (ty i) t ps (map (retype ty) cs) end.

Section Types.
Variable ty : N -> N.
Hypothesis Hty : keeps_types ty.
Local Notation R := (retype ty).

Lemma retype_reworded n : reworded ty true n (R n).
Proof.
  induction n as [k i t ps cs IH] using node_ind'. cbn [retype]. constructor; try reflexivity.
  induction IH; cbn [map]; constructor; auto.
Qed.

Lemma re_pols n : n_pols (R n) = n_pols n. Proof. now destruct n. Qed.
Lemma re_kind n : n_kind (R n) = n_kind n. Proof. now destruct n. Qed.
Lemma re_vty n : n_ty (R n) = n_ty n. Proof. now destruct n. Qed.
Lemma re_id n : n_id (R n) = ty (n_id n). Proof. now destruct n. Qed.
Lemma re_children n : n_children (R n) = map R (n_children n). Proof. now destruct n. Qed.

Lemma eqb_ty x y : N.eqb (ty x) (ty y) = N.eqb x y.
Proof. exact (ty_eqb ty Hty x y). Qed.

Lemma re_flat {A B} (f f' : A -> list B) (g : B -> B) (h : A -> A) l :
  Forall (fun c => f' (h c) = map g (f c)) l -> flat_map f' (map h l) = map g (flat_map f l).
Proof. induction 1 as [|c l Hc _ IH]; [reflexivity|]. cbn [map flat_map]. now rewrite map_app, Hc, IH. Qed.

Definition re_pair (np : node * list node) := (R (fst np), map R (snd np)).

Lemma re_preorder n : forall above, preorder (R n) (map R above) = map re_pair (preorder n above).
Proof.
  induction n as [k i t ps cs IH] using node_ind'. intros above. cbn [retype preorder map]. f_equal.
  change (Node k (ty i) t ps (map R cs)) with (R (Node k i t ps cs)).
  change (R (Node k i t ps cs) :: map R above) with (map R (Node k i t ps cs :: above)).
  apply (re_flat _ _ re_pair R). rewrite Forall_forall in *. intros c Hc. now apply IH.
Qed.

Lemma re_mode n : is_mode (R n) = is_mode n.
Proof. unfold is_mode. now rewrite re_kind. Qed.

Lemma re_walk start n : forall above,
  walk (R start) (R n) (map R above) = map (map R) (walk start n above).
Proof.
  induction n as [k i t ps cs IH] using node_ind'. intros above.
  assert (E : is_mode (R (Node k i t ps cs)) && negb (N.eqb (n_id (R (Node k i t ps cs))) (n_id (R start)))
              = is_mode (Node k i t ps cs) && negb (N.eqb (n_id (Node k i t ps cs)) (n_id start))).
  { now rewrite re_mode, !re_id, eqb_ty. }
  revert E. cbn [retype walk]. intros ->. destruct (is_mode (Node k i t ps cs) && _)%bool; [reflexivity|]. cbn [map]. f_equal.
  change (Node k (ty i) t ps (map R cs)) with (R (Node k i t ps cs)).
  change (R (Node k i t ps cs) :: map R above) with (map R (Node k i t ps cs :: above)).
  apply (re_flat _ _ (map R) R). rewrite Forall_forall in *. intros c Hc. now apply IH.
Qed.

Lemma re_find f l : (forall n, f (R n) = f n) -> find f (map R l) = option_map R (find f l).
Proof. intros H. induction l as [|x l IH]; [reflexivity|]. cbn [map find]. rewrite H. now destruct (f x). Qed.

Lemma re_router n : has_router (R n) = has_router n.
Proof. unfold has_router. now rewrite re_pols. Qed.

Lemma re_nearest l : nearest_mode_like (map R l) = option_map R (nearest_mode_like l).
Proof. apply re_find, re_router. Qed.

Lemma re_forallb (f : node -> bool) l : (forall n, f (R n) = f n) -> forallb f (map R l) = forallb f l.
Proof. intros H. induction l as [|x l IH]; [reflexivity|]. cbn [map forallb]. now rewrite H, IH. Qed.
Lemma re_existsb (f : node -> bool) l : (forall n, f (R n) = f n) -> existsb f (map R l) = existsb f l.
Proof. intros H. induction l as [|x l IH]; [reflexivity|]. cbn [map existsb]. now rewrite H, IH. Qed.
Lemma re_filter (f : node -> bool) l : (forall n, f (R n) = f n) -> filter f (map R l) = map R (filter f l).
Proof. intros H. induction l as [|x l IH]; [reflexivity|]. cbn [map filter]. rewrite H. destruct (f x); cbn [map]; now rewrite IH. Qed.
Lemma re_at_end (f : node -> bool) l : (forall n, f (R n) = f n) -> at_end f (map R l) = at_end f l.
Proof. intros H. induction l as [|x l IH]; [reflexivity|]. cbn [map at_end]. rewrite H, re_forallb by exact H. now rewrite IH. Qed.
Lemma re_list_like l : list_like_last (map R l) = list_like_last l.
Proof.
  induction l as [|x l IH]; [reflexivity|]. destruct l as [|y l]; [reflexivity|].
  change (negb (is_list_like (R x)) && list_like_last (map R (y :: l)) = negb (is_list_like x) && list_like_last (y :: l)).
  rewrite IH. f_equal. now destruct x.
Qed.
Lemma re_parent_is (f : node -> bool) l : (forall n, f (R n) = f n) -> parent_is f (map R l) = parent_is f l.
Proof. intros H. destruct l; [reflexivity|apply H]. Qed.

Lemma re_child_must_not t n : child_must_not_have t (R n) = child_must_not_have t n.
Proof.
  unfold child_must_not_have. rewrite re_children. destruct (n_children n) as [|c cs]; [reflexivity|]. cbn [map].
  change (R c :: map R cs) with (map R (c :: cs)). rewrite re_forallb; [reflexivity|]. now intros [].
Qed.

Lemma re_one_of n : one_of_base_static (R n) = one_of_base_static n.
Proof.
  unfold one_of_base_static. rewrite !re_children, !map_length, re_existsb by (now intros []). now destruct n.
Qed.

Lemma re_node_static n ps : node_static (R n) (map R ps) = node_static n ps.
Proof.
  unfold node_static. rewrite re_kind. destruct (n_kind n) as [| [| | |] | | | | | |]; 
    rewrite ?re_one_of, ?re_children, ?map_length;
    repeat match goal with
           | |- context [forallb ?f (map R ?l)] => rewrite (re_forallb f l) by (now intros [])
           end;
    try (destruct n as [? ? ? ? []]; reflexivity).
  all: try (destruct n as [? ? ? ? []], ps; reflexivity).
Qed.

Lemma re_node_rules n ps : node_rules (R n) (map R ps) = node_rules n ps.
Proof.
  unfold node_rules. rewrite re_kind. destruct (n_kind n) as [| [| | |] | | | | | |];
    rewrite ?re_child_must_not, ?re_children, ?re_list_like;
    repeat match goal with
           | |- context [existsb ?f (map R ?l)] => rewrite (re_existsb f l) by (now intros [])
           | |- context [at_end ?f (map R ?l)] => rewrite (re_at_end f l) by (now intros [])
           | |- context [filter ?f (map R ?l)] => rewrite (re_filter f l) by (now intros [])
           | |- context [parent_is ?f (map R ?l)] => rewrite (re_parent_is f l) by (now intros [])
           end; rewrite ?map_length;
    try (destruct n as [? ? ? ? ?]; reflexivity).
Qed.

Lemma re_refers ns n : refers_to ns (R n) = refers_to ns n.
Proof. now destruct n. Qed.

Lemma re_owners ns m : ref_owners ns (R m) = map R (ref_owners ns m).
Proof.
  induction m as [k i t ps cs IH] using node_ind'. cbn [retype ref_owners]. rewrite map_app. f_equal.
  - apply re_flat. exact IH.
  - change (Node k (ty i) t ps (map R cs)) with (R (Node k i t ps cs)). clear IH.
    induction ps as [|p ps IHp] in k, i, t, cs |- * .
    + reflexivity.
    + generalize (Node k i t (p :: ps) cs). clear IHp. intros n. generalize (p :: ps). intros l.
      induction l as [|q l IHl]; [reflexivity|]. cbn [flat_map]. rewrite map_app, IHl. f_equal.
      now destruct (existsb _ ns).
Qed.

Lemma re_distinct l : distinct_ids (map R l) = distinct_ids l.
Proof.
  induction l as [|x l IH]; [reflexivity|]. cbn [map distinct_ids]. rewrite IH. f_equal. f_equal.
  clear IH. rewrite re_id. induction l as [|y l IH]; [reflexivity|]. cbn [map existsb]. now rewrite re_id, eqb_ty, IH.
Qed.

Lemma re_refs_ok ns m : refs_ok ns (R m) = refs_ok ns m.
Proof. unfold refs_ok. cbv zeta. now rewrite re_owners, map_length, re_distinct. Qed.

Lemma re_no_cycle refs m self : (forall n, refs (R n) = refs n) -> forall d l,
  no_cycle refs (R m) self d (map R l) = no_cycle refs m self d l.
Proof.
  intros H. induction d as [|d IH]; intros l; [now destruct l|]. cbn [no_cycle].
  induction l as [|x l IHl]; [reflexivity|]. cbn [map forallb]. rewrite IHl, H. f_equal.
  destruct (refs x) as [ns|]; [|reflexivity]. now rewrite re_owners, re_refs_ok, IH.
Qed.

Lemma re_acyclic refs m ns : (forall n, refs (R n) = refs n) -> acyclic refs (R m) ns = acyclic refs m ns.
Proof.
  intros H. unfold acyclic. rewrite re_owners, re_no_cycle by exact H.
  change (preorder (R m) []) with (preorder (R m) (map R [])). now rewrite re_preorder, map_length.
Qed.

Lemma re_policy_static p n ps : policy_static p (R n) (map R ps) = policy_static p n ps.
Proof.
  destruct p; try (now destruct n).
  - cbn [policy_static]. change (R n :: map R ps) with (map R (n :: ps)). rewrite re_nearest.
    replace (count_bounds (R n)) with (count_bounds n) by now destruct n.
    replace (must_not_have [tag_custom_parser; tag_min_max_value; tag_router] (R n))
      with (must_not_have [tag_custom_parser; tag_min_max_value; tag_router] n) by now destruct n.
    destruct (count_bounds n) as [[mn mx]|]; [|reflexivity].
    destruct (nearest_mode_like (n :: ps)) as [m|]; [|reflexivity]. cbn [option_map].
    rewrite re_refs_ok, re_owners, (re_acyclic alias_refs) by (now intros []). rewrite re_forallb by (now intros []). reflexivity.
  - cbn [policy_static]. rewrite re_nearest. destruct (nearest_mode_like ps) as [m|]; [|reflexivity]. cbn [option_map].
    now rewrite re_refs_ok, (re_acyclic dependent_refs) by (now intros []).
Qed.

Lemma re_take_until l : take_until is_mode (map R l) = map R (take_until is_mode l).
Proof. induction l as [|x l IH]; [reflexivity|]. cbn [map take_until]. rewrite re_mode. destruct (is_mode x); cbn [map]; now rewrite ?IH. Qed.

Lemma re_last l d : last (map R l) (R d) = R (last l d).
Proof. induction l as [|x l IH]; [reflexivity|]. destruct l as [|y l]; [reflexivity|]. exact IH. Qed.

Lemma re_ids_eqb x y : ids_eqb (ids (map R x)) (ids (map R y)) = ids_eqb (ids x) (ids y).
Proof.
  revert y. induction x as [|a x IH]; intros [|c y]; try reflexivity. cbn [ids map ids_eqb]. rewrite !re_id, eqb_ty. f_equal. apply IH.
Qed.

Lemma re_unique_to_mode p n ps : unique_to_mode p (R n) (map R ps) = unique_to_mode p n ps.
Proof.
  unfold unique_to_mode. destruct ps as [|q ps]; [reflexivity|]. cbn [map]. cbv zeta.
  change (R n :: R q :: map R ps) with (map R (n :: q :: ps)). rewrite re_take_until, re_last.
  change (@nil node) with (map R []) at 1. rewrite re_walk.
  generalize (walk (last (take_until is_mode (n :: q :: ps)) n) (last (take_until is_mode (n :: q :: ps)) n) []).
  intros l. induction l as [|x l IH]; [reflexivity|]. cbn [map forallb]. rewrite IH, re_ids_eqb. f_equal. f_equal.
  destruct x as [|y x]; [reflexivity|]. cbn [map]. now rewrite re_pols.
Qed.

Lemma re_policy_rules p n ps : policy_rules p (R n) (map R ps) = policy_rules p n ps.
Proof.
  unfold policy_rules. rewrite !re_unique_to_mode, (re_parent_is is_root) by (now intros []). now destruct n.
Qed.

Lemma re_accepted n : accepted (R n) = accepted n.
Proof.
  unfold accepted. change (preorder (R n) []) with (preorder (R n) (map R [])). rewrite re_preorder.
  f_equal; [now destruct n|]. induction (preorder n []) as [|[x ps] l IH]; [reflexivity|]. cbn [map forallb]. rewrite IH. f_equal.
  unfold re_pair. cbn [node_ok fst snd]. rewrite re_node_static, re_node_rules, re_pols. f_equal.
  induction (n_pols x) as [|p l' IH']; [reflexivity|]. cbn [forallb]. now rewrite re_policy_static, re_policy_rules, IH'.
Qed.
End Types.

(** ** Lists *)

Lemma source_ind' (P : source -> Prop)
  (HP : forall p, P (SPolicy p))
  (HN : forall k i t ps, Forall P ps -> P (SNode k i t ps))
  (HL : forall cs, Forall P cs -> P (SList cs)) : forall s, P s.
Proof.
  fix IH 1. intros [p|k i t ps|cs]; [apply HP|apply HN|apply HL].
  - induction ps; constructor; [apply IH|assumption].
  - induction cs; constructor; [apply IH|assumption].
Qed.

Lemma all_compile_some {A} (l : list (option A)) xs : all_compile l = Some xs <-> l = map Some xs.
Proof.
  revert xs. induction l as [|[x|] l IH]; intros xs; cbn [all_compile].
  - split; [intros H; injection H as <-; reflexivity|]. destruct xs; [reflexivity|discriminate].
  - destruct (all_compile l) as [ys|] eqn:E.
    + split; [intros H; injection H as <-; cbn [map]; f_equal; now apply IH|].
      destruct xs as [|y xs]; cbn [map]; [discriminate|]. intros H. injection H as -> H.
      apply IH in H. congruence.
    + split; [discriminate|]. destruct xs as [|y xs]; cbn [map]; [discriminate|]. intros H. injection H as _ H.
      apply IH in H. discriminate.
  - split; [discriminate|]. destruct xs; discriminate.
Qed.

Lemma compiled_all l qs : all_compile (map compile l) = Some qs <-> Forall2 (fun s q => compile s = Some q) l qs.
Proof.
  rewrite all_compile_some. revert qs. induction l as [|s l IH]; intros [|q qs]; cbn [map]; split; intros H;
    try constructor; try discriminate; try (inversion H; fail).
  - injection H as H _. exact H.
  - injection H as _ H. now apply IH.
  - inversion H as [|? ? ? ? H1 H2]; subst. rewrite H1. f_equal. now apply IH.
Qed.

Lemma node_compiles k i t ps q : compile (SNode k i t ps) = Some q ->
  exists qs n, Forall2 (fun s q => compile s = Some q) ps qs /\ construct k i t qs = Some n /\ q = QNode n.
Proof.
  cbn [compile]. destruct (all_compile (map compile ps)) as [qs|] eqn:E; [|discriminate]. apply compiled_all in E.
  destruct (construct k i t qs) as [n|] eqn:F; [|discriminate]. intros H. injection H as <-. now exists qs, n.
Qed.

Lemma list_compiles_iff cs q : compile (SList cs) = Some q ->
  exists qs, Forall2 (fun s q => compile s = Some q) cs qs /\ list_compiles (QList qs) = true /\ q = QList qs.
Proof.
  cbn [compile]. destruct (all_compile (map compile cs)) as [qs|] eqn:E; [|discriminate]. apply compiled_all in E.
  destruct (list_compiles (QList qs)) eqn:F; [|discriminate]. intros H. injection H as <-. now exists qs.
Qed.

(** The arguments with the lists replaced by their members. *)
Definition members (q : param) : list param := match q with QList l => l | _ => [q] end.

Lemma expand_impl l : forall result, forallb list_compiles l = true ->
  list_expander_impl result l = result ++ flat_map members l.
Proof.
  induction l as [|q l IH]; intros result H; cbn [list_expander_impl flat_map]; [now rewrite app_nil_r|].
  cbn [forallb] in H. apply andb_prop in H as [H1 H2]. rewrite IH by exact H2. rewrite app_assoc. f_equal.
  destruct q as [p|n|cs]; try reflexivity. cbn [expand_next members]. cbn [list_compiles] in H1. apply andb_prop in H1 as [H1 _].
  clear IH. revert result. induction cs as [|c cs IHc]; intros result; [now rewrite app_nil_r|].
  cbn [forallb] in H1. apply andb_prop in H1 as [Hc H1]. rewrite (IHc H1). destruct c; try discriminate.
  cbn [expand_next]. now rewrite <- app_assoc.
Qed.

Lemma expand l : forallb list_compiles l = true -> list_expander l = flat_map members l.
Proof. exact (expand_impl l []). Qed.

Definition policy_in (q : param) : list policy := match q with QPolicy p => [p] | _ => [] end.
Definition node_in (q : param) : list node := match q with QNode n => [n] | _ => [] end.
Definition nodes_in (q : param) : list node := flat_map node_in (members q).

Lemma policies_in l : policies_of l = flat_map policy_in l.
Proof.
  unfold policies_of. induction l as [|q l IH]; [reflexivity|]. cbn [filter flat_map]. destruct q; cbn [is_policy flat_map policy_in app]; now rewrite ?IH.
Qed.

Lemma children_in l : forallb list_compiles l = true -> children_of l = flat_map nodes_in l.
Proof.
  intros H. unfold children_of. rewrite expand by exact H. clear H.
  induction l as [|q l IH]; [reflexivity|]. cbn [flat_map]. rewrite filter_app, flat_map_app, IH. f_equal.
  unfold nodes_in. induction (members q) as [|m ms IHm]; [reflexivity|]. cbn [filter flat_map].
  destruct m; cbn [is_tree_node flat_map node_in app]; now rewrite ?IHm.
Qed.

(** The count of tree_node.hpp:61-66 is then always right. *)
Lemma count_right l : forallb list_compiles l = true ->
  Nat.eqb (List.length (children_of l) + List.length (policies_of l)) (List.length (list_expander l)) = true.
Proof.
  intros H. rewrite children_in, policies_in, expand by exact H. apply Nat.eqb_eq.
  induction l as [|q l IH]; [reflexivity|]. cbn [forallb] in H. apply andb_prop in H as [H1 H2].
  cbn [flat_map]. rewrite !app_length. specialize (IH H2). destruct q as [p|n|cs]; unfold nodes_in at 1; cbn [members flat_map policy_in List.length app node_in].
  - lia.
  - lia.
  - cbn [list_compiles] in H1. apply andb_prop in H1 as [H1 _].
    assert (E : List.length (flat_map node_in cs) = List.length cs).
    { clear -H1. induction cs as [|c cs IH]; [reflexivity|]. cbn [forallb] in H1. apply andb_prop in H1 as [Hc H1].
      destruct c; try discriminate. cbn [flat_map node_in app List.length]. now rewrite IH. }
    lia.
Qed.

Lemma adds_compile k l : forallb list_compiles (class_adds k l) = true.
Proof. destruct k; try reflexivity; cbn [class_adds]; unfold names_added; now destruct (has_display _). Qed.
Lemma adds_nodes k l : flat_map nodes_in (class_adds k l) = [].
Proof. destruct k; try reflexivity; cbn [class_adds]; unfold names_added; now destruct (has_display _). Qed.
Lemma adds_text k l : substance (flat_map policy_in (class_adds k l)) = [].
Proof. destruct k; try reflexivity; cbn [class_adds]; unfold names_added; now destruct (has_display _). Qed.

Lemma construct_some k i t l n :
  construct k i t l = Some n <->
  forallb list_compiles l = true /\ n = Node k i t (flat_map policy_in (class_adds k l) ++ flat_map policy_in l) (flat_map nodes_in l).
Proof.
  unfold construct. cbv zeta.
  assert (F : forallb list_compiles (class_adds k l ++ l) = forallb list_compiles l) by (rewrite forallb_app, adds_compile; reflexivity).
  destruct (forallb list_compiles l) eqn:E; rewrite F; cbn [andb].
  - rewrite count_right, policies_in, children_in by exact F. rewrite !flat_map_app, adds_nodes. cbn [app].
    split; [intros H; injection H as <-; auto|intros [_ ->]; auto].
  - split; [discriminate|intros [H _]; discriminate].
Qed.

Lemma F2_app {A B} (P : A -> B -> Prop) l l' m m' : Forall2 P l m -> Forall2 P l' m' -> Forall2 P (l ++ l') (m ++ m').
Proof. exact (@Forall2_app A B P l l' m m'). Qed.

(** What is compiled from the text without lists. *)
Section Plain.
Variable ty : N -> N.

Definition alike (q q' : param) : Prop :=
  match q, q' with
  | QPolicy p, QPolicy p' => p = p'
  | QNode n, QNode n' => reworded ty false n n'
  | _, _ => False
  end.

Lemma alike_lists l l' : Forall2 alike l l' -> forallb list_compiles l' = true.
Proof. induction 1 as [|q q' l l' H _ IH]; [reflexivity|]. destruct q, q'; try contradiction; exact IH. Qed.
Lemma alike_policies l l' : Forall2 alike l l' -> flat_map policy_in l' = flat_map policy_in l.
Proof. induction 1 as [|q q' l l' H _ IH]; [reflexivity|]. destruct q, q'; try contradiction; cbn [flat_map policy_in app alike] in *; congruence. Qed.
Lemma alike_nodes l l' : Forall2 alike l l' -> Forall2 (reworded ty false) (flat_map node_in l) (flat_map nodes_in l').
Proof. induction 1 as [|q q' l l' H _ IH]; [constructor|]. destruct q, q'; try contradiction; [exact IH|constructor; [exact H|exact IH]]. Qed.

Lemma member_policies l : forallb list_compiles l = true -> flat_map policy_in (flat_map members l) = flat_map policy_in l.
Proof.
  induction l as [|q l IH]; [reflexivity|]. cbn [forallb flat_map]. intros H. apply andb_prop in H as [H1 H2]. rewrite flat_map_app, IH by exact H2. f_equal.
  destruct q as [| |cs]; try reflexivity. cbn [list_compiles] in H1. apply andb_prop in H1 as [H1 _]. cbn [members policy_in].
  induction cs as [|c cs IHc]; [reflexivity|]. cbn [forallb] in H1. apply andb_prop in H1 as [Hc H1]. destruct c; try discriminate. cbn [flat_map policy_in app]. now apply IHc.
Qed.
Lemma member_nodes l : flat_map node_in (flat_map members l) = flat_map nodes_in l.
Proof. induction l as [|q l IH]; [reflexivity|]. cbn [flat_map]. rewrite flat_map_app, IH. reflexivity. Qed.

Lemma compile_alike s : forall q, compile s = Some q ->
  exists qs, Forall2 (fun s q => compile s = Some q) (spelled_out ty s) qs /\ Forall2 alike (members q) qs.
Proof.
  induction s as [p|k i t ps IH|cs IH] using source_ind'; intros q H.
  - injection H as <-. exists [QPolicy p]. repeat constructor.
  - apply node_compiles in H as (qs & n & Hqs & Hc & ->). apply construct_some in Hc as [Hl ->].
    assert (E : exists qs', Forall2 (fun s q => compile s = Some q) (List.concat (map (spelled_out ty) ps)) qs' /\ Forall2 alike (flat_map members qs) qs').
    { clear Hl. induction Hqs as [|s q l l' Hs Hl IHl]; [exists []; repeat constructor|]. inversion IH as [|? ? H1 H2]; subst.
      destruct (H1 q Hs) as (x & X1 & X2), (IHl H2) as (y & Y1 & Y2). exists (x ++ y). cbn [map List.concat flat_map]. split; now apply F2_app. }
    destruct E as (qs' & E1 & E2). pose proof (proj2 (construct_some k (ty i) t qs' _) (conj (alike_lists _ _ E2) eq_refl)) as C.
    eexists [QNode _]. split; [cbn [spelled_out]; constructor; [|constructor]; cbn [compile]; apply compiled_all in E1; rewrite E1, C; reflexivity|].
    cbn [members]. constructor; [|constructor]. cbn [alike]. constructor; [|discriminate|].
    + unfold substance. rewrite !filter_app. fold (substance (flat_map policy_in (class_adds k qs))). fold (substance (flat_map policy_in (class_adds k qs'))).
      rewrite !adds_text. f_equal. now rewrite (alike_policies _ _ E2), member_policies.
    + rewrite <- member_nodes. now apply alike_nodes.
  - apply list_compiles_iff in H as (qs & Hqs & Hc & ->). cbn [list_compiles] in Hc. apply andb_prop in Hc as [Hc _]. cbn [spelled_out members].
    induction Hqs as [|s q l l' Hs Hl IHl]; [exists []; repeat constructor|]. inversion IH as [|? ? H1 H2]; subst.
    cbn [forallb] in Hc. apply andb_prop in Hc as [Hq Hc]. destruct q as [|n|]; try discriminate.
    destruct (H1 _ Hs) as (x & X1 & X2), (IHl H2 Hc) as (y & Y1 & Y2). exists (x ++ y). cbn [map List.concat]. split; [now apply F2_app|].
    change (QNode n :: l') with (members (QNode n) ++ l'). now apply F2_app.
Qed.

(** If groups hold no lists, nothing but the types changes. *)
Definition plain (q : param) : list param :=
  match q with
  | QPolicy p => [QPolicy p]
  | QNode n => [QNode (retype ty n)]
  | QList cs => map (fun n => QNode (retype ty n)) (flat_map node_in cs)
  end.

Lemma plain_lists qs : forallb list_compiles (flat_map plain qs) = true.
Proof.
  apply forallb_forall. intros q Hq. apply in_flat_map in Hq as (x & _ & Hq). destruct x as [p|n|cs]; cbn [plain] in Hq.
  - destruct Hq as [<-|[]]. reflexivity.
  - destruct Hq as [<-|[]]. reflexivity.
  - apply in_map_iff in Hq as (n & <- & _). reflexivity.
Qed.
Lemma plain_policies qs : flat_map policy_in (flat_map plain qs) = flat_map policy_in qs.
Proof.
  induction qs as [|q qs IH]; [reflexivity|]. cbn [flat_map]. rewrite flat_map_app, IH. f_equal.
  destruct q as [p|n|cs]; try reflexivity. cbn [plain policy_in]. now induction (flat_map node_in cs).
Qed.
Lemma plain_nodes qs : flat_map nodes_in (flat_map plain qs) = map (retype ty) (flat_map nodes_in qs).
Proof.
  induction qs as [|q qs IH]; [reflexivity|]. cbn [flat_map]. rewrite flat_map_app, map_app, IH. f_equal.
  destruct q as [p|n|cs]; try reflexivity. cbn [plain]. unfold nodes_in at 2. cbn [members].
  induction (flat_map node_in cs) as [|n l IHl]; [reflexivity|]. cbn [map flat_map]. rewrite IHl. reflexivity.
Qed.

Lemma re_node_token n : node_token (retype ty n) = node_token n.
Proof. now destruct n. Qed.

Definition not_list (q : param) : bool := match q with QList _ => false | _ => true end.

Lemma plain_adds k qs : is_group k = false \/ forallb not_list qs = true ->
  class_adds k (flat_map plain qs) = class_adds k qs.
Proof.
  intros H.
  assert (G : forall d, forallb not_list qs = true -> generated_name d (flat_map plain qs) = generated_name d qs).
  { intros d Hq. unfold generated_name. f_equal. f_equal. clear H. induction qs as [|q qs IH]; [reflexivity|].
    cbn [forallb] in Hq. apply andb_prop in Hq as [H1 H2]. destruct q as [p|n|cs]; try discriminate; cbn [flat_map plain app filter is_tree_node]; [now apply IH|].
    rewrite re_node_token. f_equal. now apply IH. }
  assert (N : forall d, forallb not_list qs = true -> names_added d (flat_map plain qs) = names_added d qs).
  { intros d Hq. unfold names_added. rewrite !policies_in, plain_policies. destruct (has_display _); now rewrite !G. }
  destruct k; try reflexivity; cbn [class_adds]; (destruct H as [H|H]; [discriminate|]); now apply N.
Qed.

Lemma compiled_not_list l qs : Forall2 (fun s q => compile s = Some q) l qs -> existsb is_list l = false -> forallb not_list qs = true.
Proof.
  induction 1 as [|s q l qs Hs _ IH]; [reflexivity|]. cbn [existsb forallb]. intros E. apply Bool.orb_false_elim in E as [E1 E2]. rewrite (IH E2), Bool.andb_true_r.
  destruct s; [injection Hs as <-; reflexivity| |discriminate]. apply node_compiles in Hs as (? & ? & _ & _ & ->). reflexivity.
Qed.

Lemma compile_plain s : forall q, compile s = Some q -> lists_in_groups s = false ->
  Forall2 (fun s q => compile s = Some q) (spelled_out ty s) (plain q).
Proof.
  induction s as [p|k i t ps IH|cs IH] using source_ind'; intros q H G.
  - injection H as <-. repeat constructor.
  - apply node_compiles in H as (qs & n & Hqs & Hc & ->). apply construct_some in Hc as [Hl ->]. cbn [spelled_out plain].
    cbn [lists_in_groups] in G. apply Bool.orb_false_elim in G as [G1 G2].
    constructor; [|constructor]. cbn [compile].
    assert (A : class_adds k (flat_map plain qs) = class_adds k qs).
    { apply plain_adds. apply Bool.andb_false_elim in G1 as [G1|G1]; [now left|right]. now apply (compiled_not_list ps). }
    assert (E : all_compile (map compile (List.concat (map (spelled_out ty) ps))) = Some (flat_map plain qs)).
    { apply compiled_all. clear Hl A G1. induction Hqs as [|s q l l' Hs Hl IHl]; [constructor|]. inversion IH as [|? ? H1 H2]; subst.
      cbn [existsb] in G2. apply Bool.orb_false_elim in G2 as [G2 G3].
      cbn [map List.concat flat_map]. apply F2_app; [now apply H1|now apply IHl]. }
    rewrite E. rewrite (proj2 (construct_some k (ty i) t (flat_map plain qs) _)
      (conj (plain_lists qs) eq_refl)). cbn [retype]. now rewrite A, plain_policies, plain_nodes.
  - apply list_compiles_iff in H as (qs & Hqs & Hc & ->). cbn [list_compiles] in Hc. apply andb_prop in Hc as [Hc _]. cbn [spelled_out plain].
    cbn [lists_in_groups] in G.
    induction Hqs as [|s q l l' Hs Hl IHl]; [constructor|]. inversion IH as [|? ? H1 H2]; subst.
    cbn [existsb] in G. apply Bool.orb_false_elim in G as [G1 G2].
    cbn [forallb] in Hc. apply andb_prop in Hc as [Hq Hc]. destruct q as [|n|]; try discriminate.
    cbn [map List.concat flat_map node_in app].
    change (QNode (retype ty n) :: map (fun n0 => QNode (retype ty n0)) (flat_map node_in l'))
      with (plain (QNode n) ++ map (fun n0 => QNode (retype ty n0)) (flat_map node_in l')).
    apply F2_app; [now apply H1|now apply IHl].
Qed.
End Plain.

Lemma spelled_no_list ty s : forallb no_list (spelled_out ty s) = true.
Proof.
  induction s as [p|k i t ps IH|cs IH] using source_ind'; cbn [spelled_out forallb no_list andb]; [reflexivity| |].
  - rewrite Bool.andb_true_r. induction IH as [|s l Hs _ IHl]; [reflexivity|]. cbn [map List.concat]. now rewrite forallb_app, Hs, IHl.
  - induction IH as [|s l Hs _ IHl]; [reflexivity|]. cbn [map List.concat]. now rewrite forallb_app, Hs, IHl.
Qed.

(** The names that groups make up. *)
Lemma has_display_some ps d : has_display ps = Some d -> exists before after, ps = before ++ PDisplayName d :: after /\ no_display before.
Proof.
  unfold has_display. induction ps as [|p ps IH]; [discriminate|]. cbn [first_some].
  destruct p; intros H;
  try (injection H as ->; exists [], ps; split; [reflexivity|now intros x Hx]);
  destruct (IH H) as (bf & af & -> & Hn); eexists (_ :: bf), af; (split; [reflexivity|]); intros x [Hx|Hx]; try discriminate Hx; now apply (Hn x).
Qed.
Lemma has_display_none ps : has_display ps = None -> no_display ps.
Proof.
  unfold has_display. induction ps as [|p ps IH]; intros H d Hd; [destruct Hd|]. cbn [first_some] in H.
  destruct p; try discriminate H; destruct Hd as [Hd|Hd]; try discriminate Hd; now apply (IH H d).
Qed.

Lemma removelast_last (A : Type) (l : list A) x : removelast (l ++ [x]) = l.
Proof. rewrite removelast_app by discriminate. cbn [removelast]. apply app_nil_r. Qed.

Lemma comma_join names : names <> [] -> flat_map (fun x => x ++ b ",") names = comma_list names ++ b ",".
Proof.
  induction names as [|x [|y names] IH]; intros H; [contradiction|cbn [flat_map comma_list]; apply app_nil_r|].
  cbn [flat_map]. change (flat_map (fun x => x ++ b ",") (y :: names)) with (flat_map (fun x => x ++ b ",") (y :: names)) in IH. cbn [flat_map] in IH.
  rewrite IH by discriminate. change (comma_list (x :: y :: names)) with (x ++ b "," ++ comma_list (y :: names)). now rewrite <- !app_assoc.
Qed.

Lemma generated_title d qs : generated_name d qs = group_title d (flat_map node_in qs).
Proof.
  unfold generated_name. assert (E : flat_map (fun q => match q with QNode c => token_str (node_token c) ++ b "," | _ => [] end) (filter is_tree_node qs)
    = flat_map (fun x => x ++ b ",") (map (fun c => token_str (node_token c)) (flat_map node_in qs))).
  { induction qs as [|q qs IH]; [reflexivity|]. destruct q; cbn [filter is_tree_node flat_map node_in app map]; [exact IH|now rewrite IH|exact IH]. }
  rewrite E. unfold group_title. destruct (flat_map node_in qs) as [|c cs] eqn:En.
  - cbn [map flat_map]. now rewrite app_nil_r.
  - rewrite comma_join by discriminate. rewrite app_assoc. apply removelast_last.
Qed.

Lemma adds_made_up k params qs : Forall2 (fun s q => compile s = Some q) params qs -> flat_map policy_in qs = written_policies params ->
  made_up k params (flat_map policy_in (class_adds k qs)).
Proof.
  intros Hqs Hp. unfold made_up.
  assert (Hd : Forall2 (fun s c => compile s = Some (QNode c)) (direct_nodes params) (flat_map node_in qs)).
  { clear Hp. unfold direct_nodes. induction Hqs as [|s q l l' Hs Hql IH]; [constructor|]. cbn [map List.concat flat_map].
    destruct s as [p|k' i' t' ps|cs].
    - injection Hs as <-. exact IH.
    - pose proof Hs as Hs'. apply node_compiles in Hs as (qs & n & _ & _ & ->). cbn [node_in app]. now constructor.
    - apply list_compiles_iff in Hs as (qs & _ & _ & ->). exact IH. }
  destruct (is_group k) eqn:Ek; [|destruct k; try discriminate Ek; reflexivity].
  exists (flat_map node_in qs). split; [exact Hd|]. rewrite <- Hp, <- policies_in.
  assert (G : forall start, flat_map policy_in (names_added start qs)
    = match has_display (policies_of qs) with Some d => [PErrorName (group_title d (flat_map node_in qs))]
      | None => [PDisplayName start; PErrorName (group_title start (flat_map node_in qs))] end).
  { intros start. unfold names_added. destruct (has_display _); cbn [flat_map policy_in app]; now rewrite generated_title. }
  destruct (has_display (policies_of qs)) as [d|] eqn:E.
  - left. apply has_display_some in E as (bf & af & E & Hn). exists d, bf, af. split; [exact E|]. split; [exact Hn|].
    destruct k; try discriminate Ek; apply G.
  - right. split; [now apply has_display_none|]. destruct k; try discriminate Ek; apply G.
Qed.

Lemma node_content k i t params n : compile (SNode k i t params) = Some (QNode n) ->
  n_kind n = k /\ n_id n = i /\ n_ty n = t /\
  (exists own, made_up k params own /\ n_pols n = own ++ written_policies params) /\
  Forall2 (fun s c => compile s = Some (QNode c)) (written_nodes params) (n_children n).
Proof.
  intros H. apply node_compiles in H as (qs & m & Hqs & Hc & E). injection E as ->. apply construct_some in Hc as [Hl ->]. cbn [n_kind n_id n_ty n_pols n_children].
  split; [reflexivity|]. split; [reflexivity|]. split; [reflexivity|].
  enough (B : flat_map policy_in qs = written_policies params /\
              Forall2 (fun s c => compile s = Some (QNode c)) (written_nodes params) (flat_map nodes_in qs)).
  { destruct B as [B1 B2]. split; [|exact B2]. eexists. split; [apply (adds_made_up k params qs Hqs B1)|]. now rewrite B1. }
  unfold written_policies, written_nodes. induction Hqs as [|s q l l' Hs Hql IH]; [split; constructor|].
  cbn [forallb] in Hl. apply andb_prop in Hl as [Hq Hl]. destruct (IH Hl) as [IH1 IH2]. cbn [map List.concat flat_map].
  destruct s as [p|k' i' t' ps|cs].
  - injection Hs as <-. cbn [policy_in app nodes_in members flat_map node_in]. rewrite IH1. split; [reflexivity|exact IH2].
  - pose proof Hs as Hs'. apply node_compiles in Hs as (qs & n & _ & _ & ->). cbn [policy_in app]. split; [exact IH1|].
    cbn [nodes_in members flat_map node_in app]. constructor; [exact Hs'|exact IH2].
  - apply list_compiles_iff in Hs as (qs & Hcs & Hc & ->). cbn [policy_in app]. split; [exact IH1|].
    apply F2_app; [|exact IH2]. unfold nodes_in. cbn [members]. cbn [list_compiles] in Hc. apply andb_prop in Hc as [Hc _]. clear -Hcs Hc.
    induction Hcs as [|c q cs qs Hx Hcs IH]; [constructor|]. cbn [forallb] in Hc. apply andb_prop in Hc as [Hq Hc].
    destruct q as [|n|]; try discriminate. cbn [flat_map node_in app]. constructor; [exact Hx|now apply IH].
Qed.

Lemma list_content cs : (exists q, compile (SList cs) = Some q) <->
  cs <> [] /\ Forall (fun c => exists n, compile c = Some (QNode n)) cs.
Proof.
  split.
  - intros [q H]. apply list_compiles_iff in H as (qs & H & Hc & ->). cbn [list_compiles] in Hc. apply andb_prop in Hc as [H1 H2].
    split; [intros ->; inversion H; subst; discriminate|]. clear H2. induction H as [|c q cs qs Hx Hcs IH]; [constructor|].
    cbn [forallb] in H1. apply andb_prop in H1 as [Hq Hc]. destruct q as [|n|]; try discriminate. constructor; [now exists n|now apply IH].
  - intros [Hne H].
    assert (E : exists qs, Forall2 (fun s q => compile s = Some q) cs qs /\ forallb is_tree_node qs = true /\ List.length qs = List.length cs).
    { clear Hne. induction H as [|c cs [n Hn] _ (qs & H1 & H2 & H3)]; [now exists []|]. exists (QNode n :: qs).
      split; [now constructor|]. cbn [forallb is_tree_node andb List.length]. auto. }
    destruct E as (qs & H1 & H2 & H3). exists (QList qs). cbn [compile]. apply compiled_all in H1. rewrite H1. cbn [list_compiles].
    rewrite H2, H3. now destruct cs.
Qed.

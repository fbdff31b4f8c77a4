(** Parsing does not depend on the texts that are only shown: lemmas for C73. *)
From Verif Require Import Bytes Token Adapter Result CodePoint Utf8 Tree Levenshtein PreParse Parse Root Digits Help HelpMore
     TreeProofs OrderProofs SpecHelp SpecWording.
From Coq Require Import Permutation Sorted.

Section Wording.
Variable ty : N -> N.
Variable names : bool.
Hypothesis Hty : keeps_types ty.

Local Notation rew := (reworded ty names).
Local Notation rews := (Forall2 (reworded ty names)).
Local Notation rtok := (reworded_token ty names).
Local Notation rres := (reworded_res ty names).
Local Notation rmem := (reworded_mem ty).

Lemma ty_eqb x y : N.eqb (ty x) (ty y) = N.eqb x y.
Proof.
  destruct (N.eqb_spec x y) as [->|H]; [apply N.eqb_refl|].
  apply N.eqb_neq. intros E. now apply H, Hty.
Qed.

(** Parts of a node. *)
Lemma rew_parts n n' : rew n n' ->
  n_kind n' = n_kind n /\ n_id n' = ty (n_id n) /\ n_ty n' = n_ty n /\
  substance (n_pols n') = substance (n_pols n) /\ rews (n_children n) (n_children n').
Proof. intros H. inversion H; subst. cbn. auto. Qed.
Lemma rew_kind n n' : rew n n' -> n_kind n' = n_kind n. Proof. intros H. apply (rew_parts _ _ H). Qed.
Lemma rew_id n n' : rew n n' -> n_id n' = ty (n_id n). Proof. intros H. apply (rew_parts _ _ H). Qed.
Lemma rew_vty n n' : rew n n' -> n_ty n' = n_ty n. Proof. intros H. apply (rew_parts _ _ H). Qed.
Lemma rew_pols n n' : rew n n' -> substance (n_pols n') = substance (n_pols n).
Proof. intros H. apply (rew_parts _ _ H). Qed.
Lemma rew_children n n' : rew n n' -> rews (n_children n) (n_children n').
Proof. intros H. apply (rew_parts _ _ H). Qed.

Lemma first_some_substance {B} (f : policy -> option B) :
  (forall p, is_text p = true -> f p = None) ->
  forall ps, first_some f ps = first_some f (substance ps).
Proof.
  intros Hf. induction ps as [|p ps IH]; [reflexivity|]. cbn [first_some substance filter].
  destruct (is_text p) eqn:E; cbn [negb].
  - rewrite (Hf _ E). apply IH.
  - cbn [first_some]. fold (substance ps). now rewrite IH.
Qed.
Lemma rew_first {B} (f : policy -> option B) n n' :
  (forall p, is_text p = true -> f p = None) -> rew n n' -> first_some f (n_pols n') = first_some f (n_pols n).
Proof.
  intros Hf H. rewrite (first_some_substance f Hf (n_pols n')), (rew_pols _ _ H).
  symmetry. now apply first_some_substance.
Qed.
Lemma existsb_substance (f : policy -> bool) :
  (forall p, is_text p = true -> f p = false) ->
  forall ps, existsb f ps = existsb f (substance ps).
Proof.
  intros Hf. induction ps as [|p ps IH]; [reflexivity|]. cbn [existsb substance filter].
  destruct (is_text p) eqn:E; cbn [negb].
  - rewrite (Hf _ E). apply IH.
  - cbn [existsb]. fold (substance ps). now rewrite IH.
Qed.
Lemma rew_exists (f : policy -> bool) n n' :
  (forall p, is_text p = true -> f p = false) -> rew n n' -> existsb f (n_pols n') = existsb f (n_pols n).
Proof.
  intros Hf H. rewrite (existsb_substance f Hf (n_pols n')), (rew_pols _ _ H).
  symmetry. now apply existsb_substance.
Qed.

Ltac by_first := intros H; apply rew_first; [now intros []|exact H].
Ltac by_exists := intros H; apply rew_exists; [now intros []|exact H].

Lemma rew_long n n' : rew n n' -> long_name n' = long_name n. Proof. by_first. Qed.
Lemma rew_short n n' : rew n n' -> short_name n' = short_name n. Proof. by_first. Qed.
Lemma rew_none n n' : rew n n' -> none_name n' = none_name n. Proof. by_first. Qed.
Lemma rew_count n n' : rew n n' -> count_bounds n' = count_bounds n. Proof. by_first. Qed.
Lemma rew_marker n n' : rew n n' -> token_end_marker n' = token_end_marker n. Proof. by_first. Qed.
Lemma rew_enabled n n' : rew n n' -> runtime_enabled n' = runtime_enabled n. Proof. by_first. Qed.
Lemma rew_stage n n' : rew n n' -> multi_stage n' = multi_stage n. Proof. by_first. Qed.
Lemma rew_parser n n' : rew n n' -> custom_parser n' = custom_parser n. Proof. by_first. Qed.
Lemma rew_noresult n n' : rew n n' -> no_result_value n' = no_result_value n. Proof. by_exists. Qed.
Lemma rew_router n n' : rew n n' -> has_router n' = has_router n. Proof. by_exists. Qed.
Lemma rew_flatten n n' : rew n n' -> has_flatten_help n' = has_flatten_help n. Proof. by_exists. Qed.
Lemma rew_hasstage n n' : rew n n' -> has_multi_stage n' = has_multi_stage n.
Proof. intros H. unfold has_multi_stage. now rewrite (rew_stage _ _ H). Qed.
Lemma rew_named n n' : rew n n' -> is_named n' = is_named n.
Proof. intros H. unfold is_named. now rewrite (rew_long _ _ H), (rew_short _ _ H), (rew_none _ _ H). Qed.
Lemma rew_mode n n' : rew n n' -> is_mode n' = is_mode n.
Proof. intros H. unfold is_mode. now rewrite (rew_kind _ _ H). Qed.
Lemma rew_anon n n' : rew n n' -> is_anonymous n' = is_anonymous n.
Proof. intros H. unfold is_anonymous. now rewrite (rew_none _ _ H). Qed.
Lemma rew_parsem n n' : rew n n' -> has_parse_method n' = has_parse_method n.
Proof. intros H. unfold has_parse_method. now rewrite (rew_kind _ _ H). Qed.
Lemma rew_match n n' t : rew n n' -> match_node n' t = match_node n t.
Proof. intros H. unfold match_node. now rewrite (rew_long _ _ H), (rew_short _ _ H), (rew_none _ _ H). Qed.
Lemma rew_get n n' s : rew n n' -> node_get_token n' s = node_get_token n s.
Proof. intros H. unfold node_get_token. now rewrite (rew_long _ _ H), (rew_short _ _ H). Qed.
Lemma rew_norm n n' t : rew n n' -> norm_token n' t = norm_token n t.
Proof. intros H. unfold norm_token. destruct (t_prefix t); auto. now apply rew_get. Qed.
Lemma rew_refers ns n n' : rew n n' -> refers_to ns n' = refers_to ns n.
Proof.
  intros H. unfold refers_to. induction ns as [|r ns IH]; [reflexivity|]. cbn [existsb]. rewrite IH. f_equal.
  apply rew_exists; [|exact H]. destruct r; now intros [].
Qed.

Lemma rew_token n n' : rew n n' -> rtok (node_token n) (node_token n').
Proof. intros H. right. eauto. Qed.
Lemma rtok_refl t : rtok t t. Proof. now left. Qed.
Lemma rtoks_refl ts : Forall2 rtok ts ts.
Proof. induction ts; constructor; auto. apply rtok_refl. Qed.
Lemma rtok_one n n' : rew n n' -> Forall2 rtok [node_token n] [node_token n'].
Proof. intros H. constructor; [now apply rew_token|constructor]. Qed.

(** Lists of nodes. *)
Lemma rews_find f f' ns ns' : rews ns ns' -> (forall n n', rew n n' -> f' n' = f n) ->
  match find f ns, find f' ns' with
  | Some n, Some n' => rew n n'
  | None, None => True
  | _, _ => False
  end.
Proof.
  intros H Hf. induction H as [|n n' ns ns' Hn Hs IH]; cbn [find]; [exact I|].
  rewrite (Hf _ _ Hn). destruct (f n); auto.
Qed.
Lemma rews_existsb f f' ns ns' : rews ns ns' -> (forall n n', rew n n' -> f' n' = f n) ->
  existsb f' ns' = existsb f ns.
Proof.
  intros H Hf. induction H as [|n n' ns ns' Hn Hs IH]; cbn [existsb]; [reflexivity|].
  now rewrite (Hf _ _ Hn), IH.
Qed.
Lemma rews_disabled ns ns' : rews ns ns' -> is_runtime_disabled ns' = is_runtime_disabled ns.
Proof.
  intros H. apply (rews_existsb _ _ _ _ H). intros n n' Hn. now rewrite (rew_enabled _ _ Hn).
Qed.
Lemma Forall2_app_intro {A B} (R : A -> B -> Prop) l1 l1' l2 l2' :
  Forall2 R l1 l1' -> Forall2 R l2 l2' -> Forall2 R (l1 ++ l2) (l1' ++ l2').
Proof. induction 1; cbn; auto. Qed.
Lemma Forall2_removelast {A B} (R : A -> B -> Prop) l l' : Forall2 R l l' -> Forall2 R (removelast l) (removelast l').
Proof.
  induction 1 as [|x y l l' H Hs IH]; [constructor|]. destruct Hs; [constructor|].
  cbn [removelast]. cbn [removelast] in IH. constructor; auto.
Qed.
Lemma Forall2_rev' {A B} (R : A -> B -> Prop) l l' : Forall2 R l l' -> Forall2 R (rev l) (rev l').
Proof. induction 1; cbn [rev]; [constructor|]. apply Forall2_app_intro; auto. Qed.

Definition rpair (x y : node * list node) : Prop := rew (fst x) (fst y) /\ rews (snd x) (snd y).

Lemma rew_preorder n : forall n' ps ps', rew n n' -> rews ps ps' -> Forall2 rpair (preorder n ps) (preorder n' ps').
Proof.
  induction n as [k i t ps cs IH] using node_ind'. intros n' above above' H Ha.
  inversion H as [? ? ? ? ps' ? cs' Hp Hw Hc]; subst. cbn [preorder]. constructor; [split; auto|].
  assert (Ha' : rews (Node k i t ps cs :: above) (Node k (ty i) t ps' cs' :: above')) by (constructor; auto).
  revert Ha'. generalize (Node k i t ps cs :: above) (Node k (ty i) t ps' cs' :: above'). clear H Ha.
  induction Hc as [|c c' cs cs' Hc1 Hc2 IHc]; intros l l' Hl; [constructor|].
  inversion IH; subst. cbn [flat_map]. apply Forall2_app_intro; auto.
Qed.

(** Outcomes. *)
Lemma rres_bind {A B} (R : A -> A -> Prop) (Q : B -> B -> Prop) r r' f f' :
  rres R r r' -> (forall x y, R x y -> rres Q (f x) (f' y)) -> rres Q (rbind r f) (rbind r' f').
Proof. intros H Hf. destruct r, r'; cbn in *; auto; contradiction. Qed.
Lemma rres_refl {A} (R : A -> A -> Prop) r : (forall x, R x x) -> rres R r r.
Proof.
  intros HR. destruct r as [x|[c ts| |]| | |]; cbn; auto. split; auto. apply rtoks_refl.
Qed.
Lemma rres_eq {A} (r r' : res A) : r' = r -> rres eq r r'.
Proof. intros ->. now apply rres_refl. Qed.

(** The suggestion. *)
Definition rbest (x y : best) : Prop :=
  match x, y with
  | Some (d, ts), Some (d', ts') => d = d' /\ Forall2 rtok ts ts'
  | None, None => True
  | _, _ => False
  end.

Lemma rew_tokens ns ns' : rews ns ns' -> Forall2 rtok (map node_token ns) (map node_token ns').
Proof. induction 1; cbn; constructor; auto. now apply rew_token. Qed.

Lemma rew_try tok p nm above above' x y : rews above above' -> rbest x y ->
  rres rbest (try_name tok p nm above x) (try_name tok p nm above' y).
Proof.
  intros Ha Hx. unfold try_name. destruct nm as [s|]; [|exact Hx].
  destruct (levenshtein_distance tok s) as [d|]; [|exact I]. cbn [reworded_res].
  assert (E : match y with None => true | Some (d0, _) => Nat.ltb d d0 end
              = match x with None => true | Some (d0, _) => Nat.ltb d d0 end).
  { destruct x as [[dx tx]|], y as [[dy t_y]|]; cbn in Hx; try contradiction; auto. destruct Hx as [-> _]. reflexivity. }
  rewrite E. destruct (match x with None => true | Some (d0, _) => Nat.ltb d d0 end); [|exact Hx].
  cbn [rbest]. split; [reflexivity|]. constructor; [apply rtok_refl|]. now apply rew_tokens.
Qed.

Lemma rew_visit tok np np' x y : rpair np np' -> rbest x y ->
  rres rbest (closest_visit tok np x) (closest_visit tok np' y).
Proof.
  destruct np as [n ps], np' as [n' ps']. intros [Hn Hp] Hx. cbn [fst snd] in Hn, Hp. unfold closest_visit.
  destruct Hp as [|q q' ps ps' Hq Hp]; [exact Hx|].
  assert (Hl : rews (n :: q :: ps) (n' :: q' :: ps')) by (do 2 (constructor; auto)).
  rewrite (rews_disabled _ _ Hl). destruct (is_runtime_disabled (n :: q :: ps)); [exact Hx|].
  assert (Hr : rews (removelast (q :: ps)) (removelast (q' :: ps'))) by (apply Forall2_removelast; constructor; auto).
  rewrite (rew_long _ _ Hn), (rew_short _ _ Hn), (rew_none _ _ Hn).
  eapply rres_bind; [apply rew_try; eassumption|]. intros x1 y1 H1. cbv beta.
  eapply rres_bind; [apply rew_try; eassumption|]. intros x2 y2 H2. now apply rew_try.
Qed.

Lemma rew_closest tok l l' : Forall2 rpair l l' -> forall x y, rbest x y ->
  rres rbest (closest_fold tok l x) (closest_fold tok l' y).
Proof.
  induction 1 as [|np np' l l' Hn Hl IH]; intros x y Hx; cbn [closest_fold]; [exact Hx|].
  eapply rres_bind; [now apply rew_visit|]. intros x1 y1 H1. now apply IH.
Qed.

Lemma rew_unknown {A} (R : A -> A -> Prop) n n' t : rew n n' ->
  rres R (unknown_argument_exception n t) (unknown_argument_exception n' t).
Proof.
  intros H. unfold unknown_argument_exception, closest_matching_child_node.
  apply (rres_bind (Forall2 rtok)).
  - eapply rres_bind; [apply rew_closest; [apply rew_preorder; [exact H|constructor]|exact I]|].
    intros [[d ts]|] [[d' ts']|] Hb; cbn in Hb |- *; try contradiction; [apply Hb|constructor].
  - intros ts ts' Hs. destruct Hs as [|x y ts ts' Hx Hs].
    + cbn. split; auto. apply rtoks_refl.
    + cbn [reworded_res reworded_exn]. split; [reflexivity|]. constructor; [apply rtok_refl|].
      apply Forall2_rev'. constructor; auto.
Qed.

(** Targets. *)
Inductive rtarget : target -> target -> Prop :=
| RTarget n n' ps ps' ts ss ss' :
    rew n n' -> rews ps ps' -> Forall2 rtarget ss ss' ->
    rtarget (Target n ps ts ss) (Target n' ps' ts ss').

Definition ropt (x y : option target) : Prop :=
  match x, y with Some t, Some t' => rtarget t t' | None, None => True | _, _ => False end.

Lemma rtarget_node t t' : rtarget t t' -> rew (tg_node t) (tg_node t').
Proof. now intros []. Qed.
Lemma rtarget_subs t t' : rtarget t t' -> Forall2 rtarget (tg_subs t) (tg_subs t').
Proof. now intros []. Qed.
Lemma rtarget_add t t' ss ss' : rtarget t t' -> Forall2 rtarget ss ss' -> rtarget (add_subs t ss) (add_subs t' ss').
Proof. intros Ht Hs. destruct Ht. cbn. constructor; auto. now apply Forall2_app_intro. Qed.

Lemma target_ind' (P : target -> Prop) :
  (forall n ps ts ss, Forall P ss -> P (Target n ps ts ss)) -> forall t, P t.
Proof.
  intros H. fix F 1. intros [n ps ts ss]. apply H. induction ss as [|s ss IH]; constructor; auto.
Qed.

(** Policies. *)
Definition rpres (m m' : presult) : Prop :=
  match m, m' with
  | Act a, Act a' => a = a'
  | Err c ts, Err c' ts' => c = c' /\ Forall2 rtok ts ts'
  | _, _ => False
  end.
Definition rap (x y : adapter * presult) : Prop := fst x = fst y /\ rpres (snd x) (snd y).
Definition ratp (x y : adapter * target * presult) : Prop :=
  fst (fst x) = fst (fst y) /\ rtarget (snd (fst x)) (snd (fst y)) /\ rpres (snd x) (snd y).

Lemma rpres_refl m : rpres m m.
Proof. destruct m; cbn; auto. split; auto. apply rtoks_refl. Qed.

Lemma rew_separator sep n n' a : rew n n' ->
  rres rap (phase_value_separator sep n a) (phase_value_separator sep n' a).
Proof.
  intros H. unfold phase_value_separator. destruct (a_empty a); [split; [reflexivity|apply rpres_refl]|].
  eapply rres_bind; [now apply rres_eq|]. intros first ? <-.
  destruct (find_first_of sep (t_name first)) as [i|].
  - apply rres_refl. intros x. split; [reflexivity|apply rpres_refl].
  - rewrite (rew_match _ _ _ H). destruct (match_node n _); cbn; split; cbn; auto. split; auto. now apply rtok_one.
Qed.

Lemma rew_short_form n n' a : rew n n' -> phase_short_form n' a = phase_short_form n a.
Proof.
  intros H. unfold phase_short_form, short_candidate, node_get_token.
  now rewrite (rew_short _ _ H), (rew_long _ _ H).
Qed.

Lemma rew_end_marker m n n' a : rew n n' -> phase_end_marker m n' a = phase_end_marker m n a.
Proof. intros H. unfold phase_end_marker. now rewrite (rew_named _ _ H). Qed.

Lemma rew_min_max mn mx n n' a : rew n n' -> rap (phase_min_max_count mn mx n a) (phase_min_max_count mn mx n' a).
Proof.
  intros H. unfold phase_min_max_count, count_offset. rewrite (rew_named _ _ H), (rew_marker _ _ H).
  destruct (_ && _)%bool; [split; cbn; auto; split; auto; now apply rtok_one|].
  destruct (N.ltb _ _); [split; cbn; auto; split; auto; now apply rtok_one|]. split; cbn; auto.
Qed.

Lemma rew_alias_subs ns mode mode' vals : rew mode mode' ->
  Forall2 rtarget (alias_subs ns mode vals) (alias_subs ns mode' vals).
Proof.
  intros H. unfold alias_subs. pose proof (rew_preorder _ _ [] [] H (Forall2_nil _)) as P.
  induction P as [|[n ps] [n' ps'] l l' [Hn Hp] Hl IH]; [constructor|]. cbn [fst snd] in Hn, Hp.
  cbn [flat_map]. rewrite (rew_refers ns _ _ Hn). destruct (refers_to ns n); cbn [app]; auto.
  constructor; auto. constructor; auto.
Qed.

Lemma rews_nearest ns ns' : rews ns ns' ->
  match nearest_mode_like ns, nearest_mode_like ns' with
  | Some n, Some n' => rew n n' | None, None => True | _, _ => False end.
Proof. intros H. apply rews_find; auto. apply rew_router. Qed.

Lemma rew_alias ns n n' ps ps' a tg tg' : rew n n' -> rews ps ps' -> rtarget tg tg' ->
  rres ratp (phase_alias ns n ps a tg) (phase_alias ns n' ps' a tg').
Proof.
  intros H Hp Ht. unfold phase_alias. rewrite (rew_count _ _ H).
  pose proof (rews_nearest (n :: ps) (n' :: ps') (Forall2_cons _ _ H Hp)) as Hm.
  destruct (count_bounds n) as [[c c']|]; [|exact I].
  destruct (nearest_mode_like (n :: ps)) as [mode|], (nearest_mode_like (n' :: ps')) as [mode'|]; try contradiction; [|exact I].
  destruct (Z.ltb _ _).
  { cbn. repeat split; auto. now apply rtok_one. }
  eapply rres_bind; [now apply rres_eq|]. intros label ? <-.
  rewrite (rew_norm _ _ _ H), (rew_match _ _ _ H). destruct (negb _); cbn; repeat split; auto.
  apply rtarget_add; auto. now apply rew_alias_subs.
Qed.

Lemma owners_substance ns (n : node) ps :
  flat_map (fun p => if existsb (fun r => nameref_is r p) ns then [n] else []) ps =
  flat_map (fun p => if existsb (fun r => nameref_is r p) ns then [n] else []) (substance ps).
Proof.
  induction ps as [|p ps IH]; [reflexivity|]. cbn [substance filter flat_map]. fold (substance ps).
  destruct (is_text p) eqn:E; cbn [negb].
  - replace (existsb (fun r => nameref_is r p) ns) with false; [exact IH|].
    symmetry. clear -E. induction ns as [|r ns IH]; [reflexivity|]. cbn [existsb]. rewrite IH, orb_false_r.
    destruct r, p; try reflexivity; discriminate.
  - cbn [flat_map]. now rewrite IH.
Qed.

Lemma rew_owners ns n : forall n', rew n n' -> rews (ref_owners ns n) (ref_owners ns n').
Proof.
  induction n as [k i t ps cs IH] using node_ind'. intros n' H.
  pose proof H as H0. inversion H as [? ? ? ? ps' ? cs' Hp Hw Hc]; subst. cbn [ref_owners]. apply Forall2_app_intro.
  - clear H H0 Hp. induction Hc as [|c c' cs cs' Hc1 Hc2 IHc]; [constructor|].
    inversion IH; subst. cbn [flat_map]. apply Forall2_app_intro; auto.
  - rewrite (owners_substance ns _ ps), (owners_substance ns _ ps'), <- Hp. clear Hp.
    induction (substance ps) as [|p l IHl]; [constructor|]. cbn [flat_map].
    destruct (existsb _ ns); cbn [app]; auto.
Qed.

Lemma rew_present t t' id : rtarget t t' -> target_present t' (ty id) = target_present t id.
Proof.
  intros H. unfold target_present. rewrite (rew_id _ _ (rtarget_node _ _ H)), ty_eqb. f_equal.
  pose proof (rtarget_subs _ _ H) as Hs. induction Hs as [|x y ss ss' Hx Hs IH]; [reflexivity|].
  cbn [existsb]. now rewrite (rew_id _ _ (rtarget_node _ _ Hx)), ty_eqb, IH.
Qed.

Lemma rew_absent t t' ns ns' : rtarget t t' -> rews ns ns' ->
  match first_absent t ns, first_absent t' ns' with
  | Some n, Some n' => rew n n' | None, None => True | _, _ => False end.
Proof.
  intros Ht H. induction H as [|n n' ns ns' Hn Hs IH]; cbn [first_absent]; [exact I|].
  rewrite (rew_id _ _ Hn), (rew_present _ _ _ Ht). destruct (target_present t (n_id n)); auto.
Qed.

Lemma rew_dependent ns ps ps' pt pt' : rews ps ps' -> ropt pt pt' ->
  rres rpres (phase_dependent ns ps pt) (phase_dependent ns ps' pt').
Proof.
  intros Hp Ht. unfold phase_dependent. pose proof (rews_nearest _ _ Hp) as Hm.
  destruct (nearest_mode_like ps) as [mode|], (nearest_mode_like ps') as [mode'|]; try contradiction; [|exact I].
  destruct pt as [t|], pt' as [t'|]; try contradiction; [|exact I].
  pose proof (rew_absent _ _ _ _ Ht (rew_owners ns _ _ Hm)) as Ha.
  destruct (first_absent t _) as [d|], (first_absent t' _) as [d'|]; try contradiction; cbn; auto.
  split; auto. now apply rtok_one.
Qed.

Definition rphase (x y : option (res (adapter * target * presult))) : Prop :=
  match x, y with Some r, Some r' => rres ratp r r' | None, None => True | _, _ => False end.

Lemma rew_phase p a pt pt' tg tg' n n' ps ps' :
  ropt pt pt' -> rtarget tg tg' -> rew n n' -> rews ps ps' ->
  rphase (pre_parse_phase p a pt tg n ps) (pre_parse_phase p a pt' tg' n' ps').
Proof.
  intros Ho Ht Hn Hp.
  assert (K : forall r r', rres rap r r' ->
            rres ratp (rbind r (fun '(a', m) => Ok (a', tg, m))) (rbind r' (fun '(a', m) => Ok (a', tg', m)))).
  { intros r r' Hr. eapply rres_bind; [exact Hr|]. intros [x m] [y m'] [Hx Hm]. repeat split; auto. }
  assert (Q : forall r r', r' = r -> rres rap r r').
  { intros r r' ->. apply rres_refl. intros x. split; [reflexivity|apply rpres_refl]. }
  destruct p; try exact I; cbn [pre_parse_phase rphase]; try (apply K).
  - apply (rew_min_max mn mx _ _ a Hn).
  - now apply rew_separator.
  - apply Q. now apply rew_short_form.
  - now apply Q.
  - now apply Q.
  - apply Q. now apply rew_end_marker.
  - now apply rew_alias.
  - eapply rres_bind; [now apply rew_dependent|]. intros m m' Hm. split; auto.
Qed.

Lemma rew_run ps : forall a pt pt' tg tg' n n' above above' m m',
  ropt pt pt' -> rtarget tg tg' -> rew n n' -> rews above above' -> rpres m m' ->
  rres ratp (run_policies ps a pt tg n above m) (run_policies ps a pt' tg' n' above' m').
Proof.
  induction ps as [|p ps IH]; intros a pt pt' tg tg' n n' above above' m m' Ho Ht Hn Hp Hm; cbn [run_policies].
  { repeat split; auto. }
  pose proof (rew_phase p a pt pt' tg tg' n n' above above' Ho Ht Hn Hp) as P.
  destruct (pre_parse_phase p a pt tg n above) as [r|], (pre_parse_phase p a pt' tg' n' above') as [r'|]; try contradiction.
  2: { now apply IH. }
  destruct m as [x|c ts], m' as [x'|c' ts']; try contradiction.
  2: { now apply IH. }
  cbn in Hm. subst x'. destruct x; [now apply IH| |].
  - eapply rres_bind; [exact P|]. intros [[a1 t1] m1] [[a2 t2] m2] (Ha & Ht' & Hm'). cbn [fst snd] in Ha, Ht', Hm'. subst a2.
    now apply IH.
  - eapply rres_bind; [exact P|]. intros [[a1 t1] m1] [[a2 t2] m2] (Ha & Ht' & Hm'). cbn [fst snd] in Ha, Ht', Hm'. subst a2.
    apply IH; auto. destruct m1 as [[]|], m2 as [[]|]; try contradiction; try discriminate; try exact Hm'; reflexivity.
Qed.

(** The texts have no pre-parse phase, and do not disturb the order of the others. *)
Lemma run_substance ps : forall a pt tg n above m,
  run_policies ps a pt tg n above m = run_policies (substance ps) a pt tg n above m.
Proof.
  induction ps as [|p ps IH]; intros; [reflexivity|]. cbn [substance filter]. fold (substance ps).
  destruct (is_text p) eqn:E; cbn [negb].
  - cbn [run_policies]. replace (pre_parse_phase p a pt tg n above) with (@None (res (adapter * target * presult))); [apply IH|].
    destruct p; try discriminate; reflexivity.
  - cbn [run_policies]. destruct (pre_parse_phase p a pt tg n above) as [r|]; [|apply IH].
    destruct m as [[]|]; try apply IH; destruct r as [[[a1 t1] m1]| | | |]; cbn [rbind]; auto.
Qed.

Lemma filter_insert f p l : StronglySorted prio_ge l ->
  filter f (insert_policy p l) = if f p then insert_policy p (filter f l) else filter f l.
Proof.
  induction 1 as [|q l Hs IH Hq]; cbn [insert_policy filter]; [now destruct (f p)|].
  destruct (N.ltb (priority q) (priority p)) eqn:E.
  - cbn [filter]. destruct (f p); [|reflexivity]. destruct (f q); cbn [insert_policy]; [now rewrite E|].
    (* the first of the rest is lower as well *)
    assert (Hf : Forall (prio_ge q) (filter f l)).
    { rewrite Forall_forall in *. intros y Hy. apply filter_In in Hy. now apply Hq. }
    destruct Hf as [|y l' Hy _]; [reflexivity|]. cbn [insert_policy].
    replace (N.ltb (priority y) (priority p)) with true; [reflexivity|].
    symmetry. apply N.ltb_lt. apply N.ltb_lt in E. unfold prio_ge in Hy. lia.
  - cbn [filter]. rewrite IH. destruct (f q), (f p); cbn [insert_policy]; auto. now rewrite E.
Qed.

Lemma filter_order f ps : filter f (priority_order ps) = priority_order (filter f ps).
Proof.
  unfold priority_order.
  assert (H : forall acc, StronglySorted prio_ge acc ->
    filter f (fold_left (fun acc p => insert_policy p acc) ps acc)
    = fold_left (fun acc p => insert_policy p acc) (filter f ps) (filter f acc)).
  { induction ps as [|p ps IH]; intros acc Ha; cbn [fold_left filter]; [reflexivity|].
    rewrite IH by now apply insert_policy_sorted. rewrite filter_insert by exact Ha.
    destruct (f p); reflexivity. }
  apply (H []). constructor.
Qed.

(** The states and the computations on them. *)
Definition rpst (s s' : pst) : Prop := p_args s' = p_args s /\ p_mem s' = rmem (p_mem s).
Definition rM {A} (R : A -> A -> Prop) (m m' : M A) : Prop :=
  forall s s', rpst s s' -> rpst (fst (m s)) (fst (m' s')) /\ rres R (snd (m s)) (snd (m' s')).

Lemma rM_ret {A} (R : A -> A -> Prop) x y : R x y -> rM R (mret x) (mret y).
Proof. intros H s s' Hs. split; auto. Qed.
Lemma rM_lift {A} (R : A -> A -> Prop) r r' : rres R r r' -> rM R (mlift r) (mlift r').
Proof. intros H s s' Hs. split; auto. Qed.
Lemma rM_bind {A B} (R : A -> A -> Prop) (Q : B -> B -> Prop) m m' f f' :
  rM R m m' -> (forall x y, R x y -> rM Q (f x) (f' y)) -> rM Q (mbind m f) (mbind m' f').
Proof.
  intros H Hf s s' Hs. unfold mbind. destruct (H s s' Hs) as [H1 H2].
  destruct (m s) as [s1 r], (m' s') as [s1' r']. cbn [fst snd] in H1, H2.
  destruct r, r'; cbn in H2; try contradiction; cbn [fst snd]; try (split; auto; fail). now apply Hf.
Qed.
Lemma rM_opt {A} (R : A -> A -> Prop) m m' : (forall s s', rpst s s' -> rpst (fst (m s)) (fst (m' s')) /\ rres R (snd (m s)) (snd (m' s'))) -> rM R m m'.
Proof. auto. Qed.

Lemma rmem_get m k : mem_get (rmem m) k = option_map ty (mem_get m k).
Proof.
  induction m as [|[k' v] m IH]; [reflexivity|]. cbn. destruct (N.eqb k k'); auto.
Qed.

Definition rvalid (v v' : validator) : Prop :=
  forall n n' m, rew n n' ->
    fst (v' n' (rmem m)) = rmem (fst (v n m)) /\ rres eq (snd (v n m)) (snd (v' n' (rmem m))).

Lemma rM_validator v v' n n' : rvalid v v' -> rew n n' -> rM eq (run_validator v n) (run_validator v' n').
Proof.
  intros Hv Hn s s' [Ha Hm]. unfold run_validator. rewrite Hm. destruct (Hv n n' (p_mem s) Hn) as [H1 H2].
  destruct (v n (p_mem s)) as [m1 r1], (v' n' (rmem (p_mem s))) as [m2 r2]. cbn [fst snd] in *. split; [split; auto|auto].
Qed.

Lemma rvalid_true : rvalid always_true always_true.
Proof. intros n n' m _. cbn. auto. Qed.

Lemma rew_check n n' m m' a : rew n n' -> rpres m m' -> check_label n' m' a = check_label n m a.
Proof.
  intros H Hm. unfold check_label. rewrite (rew_named _ _ H). destruct (is_named n); [|reflexivity].
  assert (E : forall (x : option adapter), match m' with Act UseSubs => Some a | _ => x end = match m with Act UseSubs => Some a | _ => x end).
  { intros x. destruct m as [k|], m' as [k'|]; cbn in Hm; try contradiction; [|reflexivity]. now subst. }
  rewrite E. destruct m as [[]|]; auto;
    (destruct (a_proc a); [destruct (a_unproc a); [reflexivity|]|]; now rewrite (rew_norm _ _ _ H), (rew_match _ _ _ H)).
Qed.

Lemma rew_node_pre_parse n n' ps ps' pt pt' v v' :
  rew n n' -> rews ps ps' -> ropt pt pt' -> rvalid v v' ->
  rM ropt (node_pre_parse n ps pt v) (node_pre_parse n' ps' pt' v').
Proof.
  intros Hn Hp Ho Hv s s' Hs. unfold node_pre_parse.
  match goal with |- rpst (fst (?m s)) (fst (?m' s')) /\ _ => enough (K : rM ropt m m') by (apply K; exact Hs) end.
  eapply rM_bind.
  { apply rM_lift. rewrite (proj1 Hs). rewrite (run_substance (priority_order (n_pols n'))), (run_substance (priority_order (n_pols n))).
    unfold substance. rewrite !filter_order. fold (substance (n_pols n)) (substance (n_pols n')). rewrite (rew_pols _ _ Hn).
    apply rew_run; auto; [|reflexivity]. constructor; auto. }
  intros [[a tg] m] [[a' tg'] m'] (Ha & Ht & Hm). cbn [fst snd] in Ha, Ht, Hm. subst a'.
  assert (C : forall c : option adapter, rM ropt
    (match c with
     | None => mret None
     | Some a' => mbind (run_validator v n) (fun ok => if negb ok then mret None
           else match m with
                | Err c ts => mlift (Throw (EML c ts))
                | Act _ => mbind (set_args (a_unproc a')) (fun _ => mret (Some (Target n ps (if is_named n then tl (a_proc a') else a_proc a') (tg_subs tg))))
                end) end)
    (match c with
     | None => mret None
     | Some a' => mbind (run_validator v' n') (fun ok => if negb ok then mret None
           else match m' with
                | Err c ts => mlift (Throw (EML c ts))
                | Act _ => mbind (set_args (a_unproc a')) (fun _ => mret (Some (Target n' ps' (if is_named n' then tl (a_proc a') else a_proc a') (tg_subs tg'))))
                end) end)).
  { intros [c|]; [|now apply rM_ret]. eapply rM_bind; [now apply rM_validator|]. intros ok ? <-.
    destruct ok; cbn [negb]; [|now apply rM_ret].
    destruct m as [x|c0 ts], m' as [x'|c0' ts']; cbn in Hm; try contradiction.
    - eapply (rM_bind eq); [intros z z' [_ Hz]; split; [split; auto|reflexivity]|]. intros _ _ _. apply rM_ret. cbn [ropt].
      rewrite (rew_named _ _ Hn). constructor; auto. now apply rtarget_subs.
    - apply rM_lift. cbn. exact Hm. }
  rewrite (rew_check _ _ _ _ a Hn Hm).
  destruct m as [x|c0 ts], m' as [x'|c0' ts']; cbn in Hm; try contradiction.
  - subst x'. destruct x; [now apply rM_ret|apply C|apply C].
  - apply C.
Qed.

(** The children of a node. *)
Definition rchild (c c' : child_pp) : Prop :=
  forall pt pt' v v', ropt pt pt' -> rvalid v v' -> rM ropt (c pt v) (c' pt' v').
Definition rnchild (x y : node * child_pp) : Prop := rew (fst x) (fst y) /\ rchild (snd x) (snd y).

Lemma rew_first_match cs cs' : Forall2 rchild cs cs' -> forall pt pt' v v', ropt pt pt' -> rvalid v v' ->
  rM ropt (first_match cs pt v) (first_match cs' pt' v').
Proof.
  induction 1 as [|c c' cs cs' Hc Hs IH]; intros pt pt' v v' Ho Hv; cbn [first_match]; [now apply rM_ret|].
  eapply rM_bind; [now apply Hc|]. intros [t|] [t'|] Ht; try contradiction; [now apply rM_ret|]. now apply IH.
Qed.

Lemma rew_one_of_validator inst n n' v v' : rew n n' -> rvalid v v' ->
  rvalid (one_of_validator inst n v) (one_of_validator inst n' v').
Proof.
  intros Hn Hv c c' m Hc. unfold one_of_validator. rewrite rmem_get. destruct (mem_get m inst) as [h|]; cbn [option_map].
  - rewrite (rew_id _ _ Hc), ty_eqb. destruct (N.eqb (n_id c) h); [now apply Hv|].
    cbn. repeat split. now apply rtok_one.
  - rewrite (rew_id _ _ Hc). apply (Hv c c' ((inst, n_id c) :: m) Hc).
Qed.

Lemma rew_one_of_match cs cs' : Forall2 rnchild cs cs' -> forall pt pt' w w', ropt pt pt' -> rvalid w w' ->
  rM ropt (one_of_match cs pt w) (one_of_match cs' pt' w').
Proof.
  induction 1 as [|[n c] [n' c'] cs cs' [Hn Hc] Hs IH]; intros pt pt' w w' Ho Hv; cbn [one_of_match]; [now apply rM_ret|].
  cbn [fst snd] in Hn, Hc.
  eapply rM_bind; [now apply Hc|]. intros [t|] [t'|] Ht; try contradiction.
  - eapply rM_bind; [now apply rM_validator|]. intros _ _ _. now apply rM_ret.
  - now apply IH.
Qed.

Lemma rew_verify already front : rvalid (verify_match already front) (verify_match already front).
Proof.
  intros n n' m H. unfold verify_match. rewrite (rew_hasstage _ _ H), (rew_named _ _ H). split; [reflexivity|].
  apply rres_refl. reflexivity.
Qed.

Definition rfound (x y : option (nat * target)) : Prop :=
  match x, y with
  | Some (i, t), Some (i', t') => i = i' /\ rtarget t t' | None, None => True | _, _ => False end.

Lemma rew_try_mode cs cs' : Forall2 rnchild cs cs' -> forall i matched front tg tg', rtarget tg tg' ->
  rM rfound (mode_try cs i matched front tg) (mode_try cs' i matched front tg').
Proof.
  induction 1 as [|[n c] [n' c'] cs cs' [Hn Hc] Hs IH]; intros i matched front tg tg' Ht; cbn [mode_try]; [now apply rM_ret|].
  cbn [fst snd] in Hn, Hc. rewrite (rew_mode _ _ Hn). destruct (is_mode n); [now apply IH|].
  eapply rM_bind; [apply Hc; [exact Ht|apply rew_verify]|]. intros [t|] [t'|] Ht'; try contradiction.
  - apply rM_ret. cbn. auto.
  - now apply IH.
Qed.

Lemma rew_loop fuel : forall self self' cs cs' tg tg' matched,
  rew self self' -> Forall2 rnchild cs cs' -> rtarget tg tg' ->
  rM ropt (mode_loop fuel self cs tg matched) (mode_loop fuel self' cs' tg' matched).
Proof.
  induction fuel as [|fuel IH]; intros self self' cs cs' tg tg' matched Hn Hc Ht s s' Hs; cbn [mode_loop];
    rewrite (proj1 Hs); destruct (p_args s) as [|front args] eqn:E; try (split; [exact Hs|]; cbn; auto; fail).
  match goal with |- rpst (fst (?m s)) (fst (?m' s')) /\ _ => enough (K : rM ropt m m') by (apply K; exact Hs) end.
  eapply rM_bind; [apply rew_try_mode; eassumption|].
  intros [[i t]|] [[i' t']|] Hf; try contradiction.
  - destruct Hf as [<- Hf]. apply IH; auto. apply rtarget_add; auto.
    pose proof (rtarget_subs _ _ Hf) as Hss. destruct Hss; [constructor; auto|constructor; auto].
  - intros z z' Hz. destruct (forallb (fun x => x) matched); cbn [fst snd]; split; try exact Hz.
    + rewrite (proj1 Hz). cbn. split; auto. apply rtoks_refl.
    + now apply rew_unknown.
Qed.

Lemma rnchild_modes cs cs' : Forall2 rnchild cs cs' ->
  Forall2 rchild (map snd (filter (fun nc => is_mode (fst nc)) cs)) (map snd (filter (fun nc => is_mode (fst nc)) cs')).
Proof.
  induction 1 as [|[n c] [n' c'] cs cs' [Hn Hc] Hs IH]; [constructor|]. cbn [filter fst]. cbn [fst snd] in Hn, Hc.
  rewrite (rew_mode _ _ Hn). destruct (is_mode n); cbn [map snd]; auto.
Qed.

Lemma rew_mode_pre_parse fuel n n' ps ps' cs cs' pt pt' v v' :
  rew n n' -> rews ps ps' -> Forall2 rnchild cs cs' -> ropt pt pt' -> rvalid v v' ->
  rM ropt (mode_pre_parse fuel n ps cs pt v) (mode_pre_parse fuel n' ps' cs' pt' v').
Proof.
  intros Hn Hp Hc Ho Hv. unfold mode_pre_parse. cbv zeta.
  assert (B : rM ropt
     (mbind (run_validator v n) (fun ok => if negb ok then mret None else mode_loop fuel n cs (Target n ps [] []) (map (fun _ => false) cs)))
     (mbind (run_validator v' n') (fun ok => if negb ok then mret None else mode_loop fuel n' cs' (Target n' ps' [] []) (map (fun _ => false) cs')))).
  { eapply rM_bind; [now apply rM_validator|]. intros ok ? <-. destruct ok; cbn [negb]; [|now apply rM_ret].
    replace (map (fun _ => false) cs') with (map (fun _ : node * child_pp => false) cs).
    2: { clear -Hc. induction Hc; cbn; congruence. }
    apply rew_loop; auto. constructor; auto. }
  rewrite (rew_anon _ _ Hn). destruct (is_anonymous n); [exact B|].
  eapply rM_bind; [now apply rew_node_pre_parse|]. intros [t|] [t'|] Ht; try contradiction; [|now apply rM_ret].
  intros s s' Hs. rewrite (proj1 Hs). destruct (p_args s); [now apply B|].
  match goal with |- rpst (fst (?m s)) (fst (?m' s')) /\ _ => enough (K : rM ropt m m') by (apply K; exact Hs) end.
  eapply rM_bind; [apply rew_first_match; [now apply rnchild_modes|exact Ho|exact Hv]|].
  intros [u|] [u'|] Hu; try contradiction; [now apply rM_ret|exact B].
Qed.

Lemma rew_pre_parse fuel n : forall n' ps ps', rew n n' -> rews ps ps' ->
  rchild (pre_parse fuel n ps) (pre_parse fuel n' ps').
Proof.
  induction n as [k i t pols cs IH] using node_ind'. intros n' ps ps' H Hp.
  pose proof H as H0. inversion H as [? ? ? ? pols' ? cs' Hpol Hw Hc]; subst.
  assert (Hcs : forall l l', rews l l' -> Forall2 rnchild (map (fun c => (c, pre_parse fuel c l)) cs)
                                              (map (fun c => (c, pre_parse fuel c l')) cs')).
  { intros l l' Hl. clear H H0 Hpol. induction Hc as [|c c' cs cs' Hc1 Hc2 IHc]; [constructor|].
    inversion IH; subst. cbn [map]. constructor; auto. split; cbn [fst snd]; auto. }
  intros pt pt' v v' Ho Hv. cbn [pre_parse]. destruct k; try (now apply rew_node_pre_parse).
  - assert (Hf : Forall2 rchild (map (fun c => pre_parse fuel c ps) cs) (map (fun c => pre_parse fuel c ps') cs')).
    { specialize (Hcs ps ps' Hp). clear -Hcs. revert cs' Hcs. induction cs as [|c cs IH]; intros [|c' cs'] Hcs; inversion Hcs; subst; cbn [map]; constructor; auto.
      now destruct H2. }
    now apply rew_first_match.
  - apply rew_one_of_match; auto. now apply rew_one_of_validator.
  - apply rew_mode_pre_parse; auto.
  - now apply rM_lift.
Qed.

(** Running the targets. *)
Definition rE {A} (R : A -> A -> Prop) (m m' : E A) : Prop :=
  forall tr tr', Forall2 (reworded_event ty names) tr tr' ->
    Forall2 (reworded_event ty names) (fst (m tr)) (fst (m' tr')) /\ rres R (snd (m tr)) (snd (m' tr')).

Lemma rE_ret {A} (R : A -> A -> Prop) x y : R x y -> rE R (eret x) (eret y).
Proof. intros H tr tr' Ht. split; auto. Qed.
Lemma rE_lift {A} (R : A -> A -> Prop) r r' : rres R r r' -> rE R (elift r) (elift r').
Proof. intros H tr tr' Ht. split; auto. Qed.
Lemma rE_bind {A B} (R : A -> A -> Prop) (Q : B -> B -> Prop) m m' f f' :
  rE R m m' -> (forall x y, R x y -> rE Q (f x) (f' y)) -> rE Q (ebind m f) (ebind m' f').
Proof.
  intros H Hf s s' Hs. unfold ebind. destruct (H s s' Hs) as [H1 H2].
  destruct (m s) as [s1 r], (m' s') as [s1' r']. cbn [fst snd] in H1, H2.
  destruct r, r'; cbn in H2; try contradiction; cbn [fst snd]; try (split; auto; fail). now apply Hf.
Qed.
Lemma rE_emit e e' : reworded_event ty names e e' -> rE eq (emit e) (emit e').
Proof. intros H tr tr' Ht. unfold emit. cbn. split; [apply Forall2_app_intro; auto|reflexivity]. Qed.

Lemma validate_substance ps n v : validate_with ps n v = validate_with (substance ps) n v.
Proof.
  induction ps as [|p ps IH]; [reflexivity|]. cbn [substance filter]. fold (substance ps).
  destruct p; cbn [is_text negb validate_with]; auto. now rewrite IH.
Qed.
Lemma rew_validate n n' v : rew n n' -> rres eq (validate n v) (validate n' v).
Proof.
  intros H. unfold validate. rewrite (validate_substance (n_pols n)), (validate_substance (n_pols n')), (rew_pols _ _ H).
  induction (substance (n_pols n)) as [|p l IH]; [reflexivity|]. destruct p; cbn [validate_with]; auto.
  eapply (rres_bind eq); [|intros _ _ _; exact IH]. unfold check_value.
  destruct (match mn with Some m => lt v m | None => false end); [cbn; split; auto; now apply rtok_one|].
  destruct (match mx with Some m => lt m v | None => false end); [cbn; split; auto; now apply rtok_one|]. reflexivity.
Qed.

Lemma rew_parse_token n n' s : rew n n' -> parse_token n' s = parse_token n s.
Proof. intros H. unfold parse_token. now rewrite (rew_parser _ _ H), (rew_vty _ _ H). Qed.
Lemma rew_arg_value n n' ts : rew n n' -> arg_value n' ts = arg_value n ts.
Proof.
  intros H. unfold arg_value. rewrite (rew_vty _ _ H).
  assert (E : map_res (fun t => parse_token n' (t_name t)) ts = map_res (fun t => parse_token n (t_name t)) ts).
  { induction ts as [|t ts IH]; [reflexivity|]. cbn [map_res]. now rewrite (rew_parse_token _ _ _ H), IH. }
  rewrite E. destruct (vt_container (n_ty n)); [reflexivity|]. destruct ts; [reflexivity|]. now apply rew_parse_token.
Qed.

Lemma rew_route n n' vs : rew n n' ->
  rE eq (if has_router n then emit (EvRoute n vs) else eret tt) (if has_router n' then emit (EvRoute n' vs) else eret tt).
Proof.
  intros H. rewrite (rew_router _ _ H). destruct (has_router n); [|now apply rE_ret]. apply rE_emit. cbn. auto.
Qed.
Lemma rew_arg_parse n n' ts : rew n n' -> rE eq (arg_parse n ts) (arg_parse n' ts).
Proof.
  intros H. unfold arg_parse. eapply (rE_bind eq).
  { apply rE_lift. apply rres_eq. now apply rew_arg_value. }
  intros v ? <-. eapply (rE_bind eq); [apply rE_lift; now apply rew_validate|]. intros _ _ _.
  eapply (rE_bind eq); [now apply rew_route|]. intros _ _ _. now apply rE_ret.
Qed.
Lemma rew_flag_parse n n' : rew n n' -> rE eq (flag_parse n) (flag_parse n').
Proof.
  intros H. unfold flag_parse. eapply (rE_bind eq); [now apply rew_route|]. intros _ _ _. now apply rE_ret.
Qed.

Lemma rew_help_target ts : forall n n', rew n n' -> rres rew (find_help_target ts n) (find_help_target ts n').
Proof.
  induction ts as [|t ts IH]; intros n n' H; cbn [find_help_target]; rewrite (rew_enabled _ _ H);
    (destruct (runtime_enabled n) as [[]|]; [| |]).
  all: try exact H; try exact I.
  2: { cbn. split; auto. apply rtoks_refl. }
  all: pose proof (rews_find (fun c => match_node c (node_get_token c (t_name t))) (fun c => match_node c (node_get_token c (t_name t)))
                     _ _ (rew_children _ _ H)) as F;
    assert (Fe : forall c c', rew c c' -> match_node c' (node_get_token c' (t_name t)) = match_node c (node_get_token c (t_name t)))
      by (intros c c' Hc; now rewrite (rew_get _ _ _ Hc), (rew_match _ _ _ Hc));
    specialize (F Fe);
    destruct (find _ (n_children n)) as [c|], (find _ (n_children n')) as [c'|]; try contradiction;
    [now apply IH|cbn; split; auto; apply rtoks_refl].
Qed.

Lemma rew_help_parse n n' ps ps' ts : rew n n' -> rews ps ps' -> rE eq (help_parse n ps ts) (help_parse n' ps' ts).
Proof.
  intros H Hp. unfold help_parse. pose proof (Forall2_rev' _ _ _ Hp) as Hr.
  destruct Hr as [|root root' l l' Hroot Hl]; [now apply rE_lift|].
  eapply rE_bind; [apply rE_lift; now apply rew_help_target|]. intros t t' Ht. cbv zeta.
  eapply (rE_bind eq).
  { apply rE_emit. cbn. rewrite (rew_kind _ _ Ht), (rew_flatten _ _ H). auto. }
  intros _ _ _. rewrite (rew_router _ _ H). destruct (has_router n); [now apply rE_ret|now apply rE_lift].
Qed.

Lemma rew_match_child c c' id : rew c c' ->
  match match_child c id, match_child c' (ty id) with
  | Some n, Some n' => rew n n' | None, None => True | _, _ => False end.
Proof.
  intros H. unfold match_child. pose proof (rew_preorder _ _ [] [] H (Forall2_nil _)) as P.
  induction P as [|[n ps] [n' ps'] l l' [Hn Hp] Hl IH]; cbn [find option_map]; [exact I|]. cbn [fst snd] in *.
  rewrite (rew_mode _ _ Hn), (rew_parsem _ _ Hn), (rew_id _ _ Hn), ty_eqb.
  destruct (negb (is_mode n) && has_parse_method n && N.eqb (n_id n) id)%bool; [exact Hn|exact IH].
Qed.

Lemma rew_locate cs cs' id : rews cs cs' -> forall i,
  match locate cs i id, locate cs' i (ty id) with
  | Some (j, n), Some (j', n') => j = j' /\ rew n n' | None, None => True | _, _ => False end.
Proof.
  induction 1 as [|c c' cs cs' Hc Hs IH]; intros i; cbn [locate]; [exact I|].
  pose proof (rew_match_child c c' id Hc) as M.
  destruct (match_child c id), (match_child c' (ty id)); try contradiction; [split; auto|apply IH].
Qed.

Lemma rew_process sl n n' v : rew n n' -> rres eq (process_result sl n v) (process_result sl n' v).
Proof.
  intros H. unfold process_result. destruct sl as [|old]; [reflexivity|]. rewrite (rew_stage _ _ H).
  destruct (multi_stage n); [reflexivity|]. destruct old; [|reflexivity]. cbn. split; auto. now apply rtok_one.
Qed.

Definition rrun (x y : node * E (option value)) : Prop := rew (fst x) (fst y) /\ rE eq (snd x) (snd y).

Lemma rew_run_subs runs runs' cs cs' : Forall2 rrun runs runs' -> rews cs cs' -> forall slots,
  rE eq (run_subs runs cs slots) (run_subs runs' cs' slots).
Proof.
  intros Hr Hc. induction Hr as [|[n r] [n' r'] runs runs' [Hn He] Hs IH]; intros slots; cbn [run_subs]; [now apply rE_ret|].
  cbn [fst snd] in Hn, He.
  eapply (rE_bind eq); [exact He|]. intros o ? <-. eapply (rE_bind eq); [|intros s ? <-; apply IH].
  destruct o as [v|]; [|now apply rE_ret].
  pose proof (rew_locate cs cs' (n_id n) Hc 0) as L. rewrite (rew_id _ _ Hn).
  destruct (locate cs 0 (n_id n)) as [[i sub]|], (locate cs' 0 (ty (n_id n))) as [[i' sub']|]; try contradiction; [|now apply rE_ret].
  destruct L as [<- L]. destruct (nth_error slots i); [|now apply rE_lift].
  eapply (rE_bind eq); [apply rE_lift; now apply rew_process|]. intros x ? <-. now apply rE_ret.
Qed.

Lemma missing_substance ps c cur : run_missing ps c cur = run_missing (substance ps) c cur.
Proof.
  revert cur. induction ps as [|p ps IH]; intros cur; [reflexivity|]. cbn [substance filter]. fold (substance ps).
  destruct p; cbn [is_text negb run_missing missing_phase rbind]; auto.
  destruct enabled; cbn [rbind]; auto.
Qed.

Lemma rew_missing c c' : rew c c' -> rres eq (process_missing c) (process_missing c').
Proof.
  intros H. unfold process_missing. eapply (rres_bind eq).
  - rewrite (missing_substance (n_pols c)), (missing_substance (n_pols c')), (rew_pols _ _ H).
    generalize (@None value). induction (substance (n_pols c)) as [|p l IH]; intros cur; [reflexivity|]. cbn [run_missing].
    destruct p; cbn [missing_phase]; auto; try (cbn [rbind]; apply IH).
    + destruct enabled; cbn [rbind]; [|apply IH]. cbn. split; auto. now apply rtok_one.
    + cbn. split; auto. now apply rtok_one.
  - intros o ? <-. rewrite (rew_vty _ _ H). eapply (rres_bind eq); [now apply rew_validate|]. intros _ _ _. reflexivity.
Qed.

Lemma rew_fill cs cs' : rews cs cs' -> forall slots, rres eq (fill_missing cs slots) (fill_missing cs' slots).
Proof.
  induction 1 as [|c c' cs cs' Hc Hs IH]; intros [|sl slots]; cbn [fill_missing]; try reflexivity.
  eapply (rres_bind eq).
  - destruct sl as [|[v|]]; try reflexivity. eapply (rres_bind eq); [now apply rew_missing|]. intros v ? <-. reflexivity.
  - intros x ? <-. eapply (rres_bind eq); [apply IH|]. intros y ? <-. reflexivity.
Qed.

Lemma rew_msv c c' : rew c c' -> is_msv c' = is_msv c.
Proof.
  intros H. unfold is_msv. rewrite (rew_hasstage _ _ H). f_equal.
  apply (rews_existsb _ _ _ _ (rew_children _ _ H)). apply rew_hasstage.
Qed.

Lemma rew_msv_validate cs cs' : rews cs cs' -> forall slots, rres eq (msv_validate cs slots) (msv_validate cs' slots).
Proof.
  induction 1 as [|c c' cs cs' Hc Hs IH]; intros [|sl slots]; cbn [msv_validate]; try reflexivity.
  eapply (rres_bind eq); [|intros _ _ _; apply IH]. rewrite (rew_msv _ _ Hc).
  destruct sl as [|[v|]]; [reflexivity| |]; destruct (is_msv c); try reflexivity. now apply rew_validate.
Qed.

Lemma rew_mode_parse n n' runs runs' : rew n n' -> Forall2 rrun runs runs' -> rE eq (mode_parse n runs) (mode_parse n' runs').
Proof.
  intros H Hr. unfold mode_parse. cbv zeta. pose proof (rew_children _ _ H) as Hc.
  replace (map init_slot (n_children n')) with (map init_slot (n_children n)).
  2: { clear -Hc Hty. induction Hc as [|c c' cs cs' H Hs IH]; [reflexivity|]. cbn [map]. rewrite IH. f_equal.
       unfold init_slot. now rewrite (rew_noresult _ _ H). }
  eapply (rE_bind eq); [now apply rew_run_subs|]. intros slots ? <-.
  eapply (rE_bind eq); [apply rE_lift; now apply rew_fill|]. intros slots1 ? <-.
  eapply (rE_bind eq); [apply rE_lift; now apply rew_msv_validate|]. intros _ _ _.
  rewrite (rew_router _ _ H). destruct (has_router n).
  - eapply (rE_bind eq); [apply rE_lift; now apply rres_eq|]. intros vs ? <-.
    eapply (rE_bind eq); [apply rE_emit; cbn; auto|]. intros _ _ _. now apply rE_ret.
  - apply rE_lift. cbn. split; auto. now apply rtok_one.
Qed.

Lemma rew_exec t : forall t', rtarget t t' -> rE eq (exec t) (exec t').
Proof.
  induction t as [n ps ts ss IH] using target_ind'. intros t' H. inversion H as [? n' ? ps' ? ? ss' Hn Hp Hs]; subst.
  cbn [exec]. rewrite (rew_kind _ _ Hn). destruct (n_kind n).
  - now apply rew_flag_parse.
  - now apply rew_arg_parse.
  - now apply rE_ret.
  - now apply rE_lift.
  - now apply rE_lift.
  - apply rew_mode_parse; auto. clear H. induction Hs as [|x y ss ss' Hx Hs IHs]; [constructor|]. inversion IH; subst.
    cbn [map]. constructor; auto. split; cbn [fst snd]; auto. now apply rtarget_node.
  - now apply rew_help_parse.
  - now apply rE_lift.
Qed.

(** The root. *)
Lemma rew_root_try fuel root root' cs cs' : rew root root' -> rews cs cs' -> forall s s', rpst s s' ->
  let '(z, tr, r) := root_try fuel root cs s in
  let '(z', tr', r') := root_try fuel root' cs' s' in
  rpst z z' /\ Forall2 (reworded_event ty names) tr tr' /\ rres eq r r'.
Proof.
  intros Hroot. induction 1 as [|c c' cs cs' Hc Hs IH]; intros s s' Hst; cbn [root_try].
  { split; [exact Hst|]. split; [constructor|reflexivity]. }
  assert (Hp : rews [root] [root']) by (constructor; auto).
  destruct (rew_pre_parse fuel c c' _ _ Hc Hp None None always_true always_true I rvalid_true s s' Hst) as [H1 H2].
  destruct (pre_parse fuel c [root] None always_true s) as [s1 r1], (pre_parse fuel c' [root'] None always_true s') as [s1' r1'].
  cbn [fst snd] in H1, H2. destruct r1 as [[t|]|e| | |], r1' as [[t'|]|e'| | |]; cbn in H2; try contradiction;
    try (split; [exact H1|split; [constructor|cbn; auto]]).
  - rewrite (proj1 H1). destruct (p_args s1).
    + destruct (rew_exec _ _ H2 [] [] (Forall2_nil _)) as [E1 E2]. destruct (exec t []) as [tr r], (exec t' []) as [tr' r'].
      cbn [fst snd] in E1, E2. split; [exact H1|]. split; [exact E1|].
      eapply (rres_bind eq); [exact E2|]. intros; reflexivity.
    + split; [exact H1|]. split; [constructor|]. cbn. split; auto. apply rtoks_refl.
  - now apply IH.
Qed.

Theorem rew_root_parse root root' mem args : rew root root' ->
  reworded_outcome ty names (root_parse root mem args) (root_parse root' (rmem mem) args).
Proof.
  intros H. unfold root_parse. cbv zeta.
  pose proof (rew_root_try (root_fuel args) _ _ _ _ H (rew_children _ _ H) (PS args mem) (PS args (rmem mem)) (conj eq_refl eq_refl)) as R.
  destruct (root_try (root_fuel args) root (n_children root) (PS args mem)) as [[z tr] r].
  destruct (root_try (root_fuel args) root' (n_children root') (PS args (rmem mem))) as [[z' tr'] r'].
  destruct R as (R1 & R2 & R3). split; [apply R1|]. split; [exact R2|]. cbn [o_res].
  eapply (rres_bind eq); [exact R3|]. intros b ? <-. destruct b; [reflexivity|].
  destruct (t_name _); [cbn; split; auto|]. now apply rew_unknown.
Qed.

(** The help page. *)
Hypothesis Hnames : negb names = false.

Lemma first_some_filter {B} (f : policy -> option B) (g : policy -> bool) ps :
  (forall p, g p = false -> f p = None) -> first_some f ps = first_some f (filter g ps).
Proof.
  intros Hf. induction ps as [|p ps IH]; [reflexivity|]. cbn [first_some filter].
  destruct (g p) eqn:E; cbn [first_some]; [now rewrite IH|]. rewrite (Hf _ E). exact IH.
Qed.
Lemma rew_error_texts n n' : rew n n' -> filter is_error_text (n_pols n') = filter is_error_text (n_pols n).
Proof. intros H. inversion H as [k i t ps ps' cs cs' Hp Hw Hc]. subst. cbn [n_pols]. symmetry. apply Hw. now destruct names. Qed.
Lemma rew_display n n' : rew n n' -> display_name n' = display_name n.
Proof.
  intros H. unfold display_name. rewrite (first_some_filter _ is_error_text (n_pols n')), (first_some_filter _ is_error_text (n_pols n)).
  - now rewrite (rew_error_texts _ _ H).
  - intros []; try discriminate; reflexivity.
  - intros []; try discriminate; reflexivity.
Qed.
Lemma rew_error n n' : rew n n' -> error_name n' = error_name n.
Proof.
  intros H. unfold error_name. rewrite (first_some_filter _ is_error_text (n_pols n')), (first_some_filter _ is_error_text (n_pols n)).
  - now rewrite (rew_error_texts _ _ H).
  - intros []; try discriminate; reflexivity.
  - intros []; try discriminate; reflexivity.
Qed.
Lemma rew_same_token n n' : rew n n' -> node_token n' = node_token n.
Proof.
  intros H. unfold node_token. now rewrite (rew_error _ _ H), (rew_display _ _ H), (rew_long _ _ H), (rew_short _ _ H), (rew_none _ _ H).
Qed.

Lemma rres_exact {A} (r r' : res A) : rres eq r r' -> r' = r.
Proof.
  destruct r as [x|[c ts| |]| | |], r' as [y|[c' ts'| |]| | |]; cbn; try contradiction; try reflexivity; [congruence|].
  intros [<- H]. do 2 f_equal. induction H as [|t t' ts ts' Ht Hs IH]; [reflexivity|]. rewrite IH. f_equal.
  destruct Ht as [->|(n & n' & Hn & -> & ->)]; [reflexivity|]. now apply rew_same_token.
Qed.

Variable limits_of : node -> option limits.
Hypothesis Hlim : forall n n', rew n n' -> limits_of n' = limits_of n.

Lemma rew_separator_policy n n' : rew n n' -> value_separator n' = value_separator n. Proof. by_first. Qed.
Lemma rew_suffix n n' : rew n n' -> value_suffix limits_of n' = value_suffix limits_of n.
Proof. intros H. unfold value_suffix. now rewrite (Hlim _ _ H). Qed.
Lemma rew_separator_suffix n n' : rew n n' -> value_separator_suffix limits_of n' = value_separator_suffix limits_of n.
Proof. intros H. unfold value_separator_suffix. now rewrite (rew_suffix _ _ H), (rew_separator_policy _ _ H), (rew_count _ _ H). Qed.
Lemma rew_generator n n' : rew n n' -> label_generator limits_of n' = label_generator limits_of n.
Proof.
  intros H. unfold label_generator_with.
  now rewrite (rew_long _ _ H), (rew_short _ _ H), (rew_none _ _ H), (rew_separator_suffix _ _ H).
Qed.
Lemma rew_count_suffix n n' : rew n n' -> count_suffix n' = count_suffix n.
Proof. intros H. unfold count_suffix. now rewrite (rew_count _ _ H). Qed.
Lemma rew_label n n' : rew n n' -> help_label limits_of n' = help_label limits_of n.
Proof.
  intros H. unfold help_label_with. rewrite (rew_kind _ _ H), (rew_generator _ _ H), (rew_count_suffix _ _ H),
    (rew_display _ _ H), (rew_suffix _ _ H), (rew_anon _ _ H). reflexivity.
Qed.

(** The same rows, apart from the descriptions. *)
Inductive rhelp : help_data -> help_data -> Prop :=
| RHelp l d d' cs cs' : Forall2 rhelp cs cs' -> rhelp (HD l d cs) (HD l d' cs').

Lemma rhelp_bar x h h' : rhelp h h' -> rhelp (with_bar x h) (with_bar x h').
Proof. intros []. cbn. now constructor. Qed.
Lemma rhelp_bars_below l l' : Forall2 rhelp l l' -> Forall2 rhelp (bars_below l) (bars_below l').
Proof.
  induction 1 as [|h h' l l' H Hs IH]; [constructor|]. destruct Hs as [|g g' l l' Hg Hs].
  - cbn. constructor; [now apply rhelp_bar|constructor].
  - change (Forall2 rhelp (with_bar middle_bar h :: bars_below (g :: l)) (with_bar middle_bar h' :: bars_below (g' :: l'))).
    constructor; [now apply rhelp_bar|exact IH].
Qed.
Lemma rhelp_bars l l' : Forall2 rhelp l l' -> Forall2 rhelp (with_bars l) (with_bars l').
Proof.
  intros [|h h' m m' H Hs]; [constructor|]. cbn [with_bars]. constructor; [now apply rhelp_bar|now apply rhelp_bars_below].
Qed.

Lemma rew_static n : forall n' fl, rew n n' -> rhelp (static_data limits_of fl n) (static_data limits_of fl n').
Proof.
  induction n as [k i t ps cs IH] using node_ind'. intros n' fl H.
  pose proof H as H0. inversion H as [? ? ? ? ps' ? cs' Hp Hw Hc]; subst.
  assert (C : Forall2 rhelp (map (static_data limits_of fl) cs) (map (static_data limits_of fl) cs')).
  { clear H H0 Hp Hw. induction Hc as [|c c' cs cs' Hc1 Hc2 IHc]; [constructor|]. inversion IH; subst. cbn [map]. constructor; auto. }
  assert (G : Forall2 rhelp (map (fun c => HD (help_label limits_of c) (help_description c) []) cs)
                            (map (fun c => HD (help_label limits_of c) (help_description c) []) cs')).
  { clear -Hc Hlim Hnames Hty. induction Hc as [|c c' cs cs' Hc1 Hc2 IHc]; [constructor|]. cbn [map]. constructor; auto.
    rewrite (rew_label _ _ Hc1). constructor. constructor. }
  cbn [static_data_of]. rewrite (rew_label _ _ H0), (rew_anon _ _ H0). constructor.
  destruct k; try constructor; try apply C; try (apply rhelp_bars, G).
  destruct (_ || fl)%bool; [apply C|constructor].
Qed.

Lemma rhelp_visit : forall h h' d, rhelp h h' -> map fst (visit d h) = map fst (visit d h').
Proof.
  fix F 1. intros [l ds cs] h' d H. inversion H as [? ? ds' ? cs' Hc]; subst. cbn [visit map fst]. f_equal.
  clear H. revert cs' Hc. induction cs as [|c cs IH]; intros cs' Hc; inversion Hc; subst; [reflexivity|].
  cbn [flat_map]. rewrite !map_app. f_equal; [now apply F|now apply IH].
Qed.

Lemma max_start_places rows : forall rows' m, map fst rows = map fst rows' -> max_start m rows = max_start m rows'.
Proof.
  induction rows as [|[[d l] x] rows IH]; intros [|[[d' l'] x'] rows'] m H; try discriminate; [reflexivity|].
  cbn [map fst] in H. inversion H; subst. cbn [max_start]. destruct (terminal_width l'); [|reflexivity]. now apply IH.
Qed.

Lemma rew_column n n' fl : rew n n' -> description_column limits_of fl n' = description_column limits_of fl n.
Proof.
  intros H. unfold description_column_of. apply max_start_places. symmetry. apply rhelp_visit. now apply rew_static.
Qed.

(** An entry of the page: the same place, the same label. *)
Definition rentry (x y : node * list node * bytes) : Prop :=
  rew (fst (fst x)) (fst (fst y)) /\ rews (snd (fst x)) (snd (fst y)) /\ snd x = snd y.

Lemma filter_pairs {A B} (R : A -> B -> Prop) f g l l' : Forall2 R l l' -> (forall x y, R x y -> f x = g y) ->
  Forall2 R (filter f l) (filter g l').
Proof.
  intros H Hf. induction H as [|x y l l' H Hs IH]; [constructor|]. cbn [filter]. rewrite (Hf _ _ H).
  destruct (g y); auto.
Qed.
Lemma rew_switched n n' : rew n n' -> switched_on n = switched_on n'.
Proof. intros H. unfold switched_on. now rewrite (rew_enabled _ _ H). Qed.
Lemma rew_closed fl n n' : rew n n' -> closed fl n' = closed fl n.
Proof. intros H. unfold closed. now rewrite (rew_mode _ _ H), (rew_none _ _ H). Qed.
Lemma rews_switched ns ns' : rews ns ns' -> forallb switched_on ns = forallb switched_on ns'.
Proof. induction 1 as [|n n' ns ns' H Hs IH]; [reflexivity|]. cbn [forallb]. now rewrite (rew_switched _ _ H), IH. Qed.
Lemma rews_length ns ns' : rews ns ns' -> List.length ns = List.length ns'.
Proof. induction 1; cbn; congruence. Qed.
Lemma rew_listed fl n n' : rew n n' -> Forall2 rpair (listed fl n) (listed fl n').
Proof.
  intros H. unfold listed. apply filter_pairs; [apply rew_preorder; [exact H|constructor]|].
  intros [x xs] [y ys] [Hx Hxs]. cbn [fst snd] in *. f_equal.
  - apply rews_switched. now constructor.
  - f_equal. symmetry. apply (rews_existsb _ _ _ _ Hxs). intros z z' Hz. now apply rew_closed.
Qed.
Lemma rew_group ps ps' : rews ps ps' -> in_group ps = in_group ps'.
Proof. intros [|p p' l l' H Hs]; [reflexivity|]. cbn [in_group]. now rewrite (rew_kind _ _ H). Qed.
Lemma rew_lines l l' : Forall2 rpair l l' -> forall above, Forall2 rentry (with_lines above l) (with_lines above l').
Proof.
  induction 1 as [|[n ps] [n' ps'] l l' [Hn Hp] Hs IH]; intros above; [constructor|]. cbn [fst snd] in Hn, Hp.
  cbn [with_lines]. rewrite <- (rews_length _ _ Hp), <- (rew_group _ _ Hp).
  assert (E : match l' with (_, qs) :: _ => Nat.eqb (List.length qs) (List.length ps) | [] => false end
            = match l with (_, qs) :: _ => Nat.eqb (List.length qs) (List.length ps) | [] => false end).
  { destruct Hs as [|[m ms] [m' ms'] l l' [_ Hm] _]; [reflexivity|]. cbn [snd] in Hm. now rewrite (rews_length _ _ Hm). }
  rewrite E. constructor; [|apply IH]. split; [exact Hn|]. split; [exact Hp|reflexivity].
Qed.
Lemma rew_on_page fl n n' : rew n n' -> Forall2 rentry (on_page fl n) (on_page fl n').
Proof.
  intros H. unfold on_page. apply filter_pairs; [apply rew_lines, rew_listed, H|].
  intros [[x xs] z] [[y ys] z'] (Hx & _). cbn [fst snd] in *. now rewrite (rew_kind _ _ Hx).
Qed.

End Wording.

Lemma reworded_refl names n : reworded (fun i => i) names n n.
Proof.
  induction n as [k i t ps cs IH] using node_ind'. constructor; auto. induction IH; constructor; auto.
Qed.

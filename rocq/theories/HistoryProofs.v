(** Proofs for C17: parses with a root object that was used before. *)
From Verif Require Import Bytes Token Adapter Result CodePoint Utf8 Tree Levenshtein PreParse Parse Root Build Validator.
From Verif Require Import SpecTake SpecMode SpecDeliver SpecRoot SpecReading SpecClaims SpecHistory.
From Verif Require Import OrderProofs TreeProofs TakeProofs ModeProofs SelectProofs RootProofs ReadProofs ExactProofs ClaimProofs RunProofs.

(** ** A parse from any state and one from a new object *)

Section Base.
(** The state of the objects at the start. *)
Variable base : memory.

Record related (mem new : memory) : Prop := {
  rel_get : forall k, mem_get mem k = match mem_get new k with Some h => Some h | None => mem_get base k end;
  rel_agree : agree base new
}.

Definition grows (mem mem' : memory) : Prop := forall k h, mem_get mem k = Some h -> mem_get mem' k = Some h.

Lemma grows_refl m : grows m m. Proof. now intros k h. Qed.
Lemma grows_trans a b c : grows a b -> grows b c -> grows a c. Proof. intros H1 H2 k h H. now apply H2, H1. Qed.
Lemma grows_disagree a b : grows a b -> ~ agree base a -> ~ agree base b.
Proof. intros H Hn Hb. apply Hn. intros k h h' H1 H2. apply (Hb k h h' H1). now apply H. Qed.

Definition mismatch {A} (x : res A) : Prop := exists t, x = Throw (EML one_of_selected_type_mismatch [t]).

(** A computation on the parse state: from the two states it does the same, or it fails from the old one and
    the new one becomes different. *)
Definition sim {A} (f : M A) : Prop := forall a mem new, related mem new ->
  grows new (p_mem (fst (f (PS a new))))
  /\ ((exists a' mem' new' x, f (PS a mem) = (PS a' mem', x) /\ f (PS a new) = (PS a' new', x) /\ related mem' new')
      \/ (mismatch (snd (f (PS a mem))) /\ ~ agree base (p_mem (fst (f (PS a new)))))).
Definition grow {A} (f : M A) : Prop := forall s, grows (p_mem s) (p_mem (fst (f s))).
Definition both {A} (f : M A) : Prop := sim f /\ grow f.

Definition vboth (v : validator) : Prop := forall c,
  (forall mem, grows mem (fst (v c mem)))
  /\ forall mem new, related mem new ->
       (exists mem' new' x, v c mem = (mem', x) /\ v c new = (new', x) /\ related mem' new')
       \/ (mismatch (snd (v c mem)) /\ ~ agree base (fst (v c new))).

Lemma both_lift {A} (x : res A) : both (mlift x).
Proof.
  split; [|intros s; apply grows_refl]. intros a mem new H. split; [apply grows_refl|]. left. now exists a, mem, new, x.
Qed.
Lemma both_ret {A} (x : A) : both (mret x).
Proof. apply (both_lift (Ok x)). Qed.
Lemma both_set ts : both (set_args ts).
Proof.
  split; [|intros s; apply grows_refl]. intros a mem new H. split; [apply grows_refl|]. left. now exists ts, mem, new, (Ok tt).
Qed.
Lemma both_validator v n : vboth v -> both (run_validator v n).
Proof.
  intros Hv. destruct (Hv n) as [Hg Hs]. split.
  - intros a mem new H. unfold run_validator. cbn [p_args p_mem]. specialize (Hs mem new H). pose proof (Hg new) as G.
    destruct (v n mem) as [m1 x1], (v n new) as [m2 x2]. cbn [fst snd p_mem] in *. split; [exact G|].
    destruct Hs as [(m1' & m2' & x & E1 & E2 & R)|[H1 H2]]; [left|right; now split].
    injection E1 as -> ->. injection E2 as -> ->. now exists a, m1', m2', x.
  - intros s. unfold run_validator. pose proof (Hg (p_mem s)) as G. destruct (v n (p_mem s)). exact G.
Qed.

Lemma grow_bind {A B} (f : M A) (g : A -> M B) : grow f -> (forall x, grow (g x)) -> grow (mbind f g).
Proof.
  intros Hf Hg s. unfold mbind. specialize (Hf s). destruct (f s) as [s1 [x| | | |]]; try exact Hf.
  eapply grows_trans; [exact Hf|apply Hg].
Qed.
Lemma both_bind {A B} (f : M A) (g : A -> M B) : both f -> (forall x, both (g x)) -> both (mbind f g).
Proof.
  intros [Hf Gf] Hg. assert (G : grow (mbind f g)) by (apply grow_bind; [exact Gf|intros x; apply Hg]).
  split; [|exact G]. intros a mem new H. split; [apply (G (PS a new))|].
  destruct (Hf a mem new H) as [_ [(a' & m1 & m2 & x & E1 & E2 & R)|[Hx Hd]]].
  - unfold mbind. rewrite E1, E2. destruct x as [x|e| | |]; [|left; eauto 8..]. apply Hg. exact R.
  - right. unfold mbind. destruct Hx as (t & Hx). destruct (f (PS a mem)) as [s1 x1]. cbn [snd] in Hx. subst x1.
    split; [now exists t|]. destruct (f (PS a new)) as [s2 [x| | | |]]; try exact Hd. cbn [fst] in Hd.
    eapply grows_disagree; [|exact Hd]. apply Hg.
Qed.
Lemma both_args {A} (f : list token -> M A) : (forall a, both (f a)) -> both (fun s => f (p_args s) s).
Proof. intros H. split; [intros a mem new R; apply (H a); exact R|intros s; apply (H (p_args s))]. Qed.

Lemma both_ext {A} (f g : M A) : (forall s, f s = g s) -> both f -> both g.
Proof.
  intros E [H G]. split; [|intros s; rewrite <- E; apply G]. intros a mem new R. rewrite <- !E. now apply H.
Qed.

Lemma both_node n parents pt v : vboth v -> both (node_pre_parse n parents pt v).
Proof.
  intros Hv. unfold node_pre_parse.
  apply (both_args (fun args => (r <- mlift (run_policies (priority_order (n_pols n)) (Adp [] args) pt
                            (Target n parents [] []) n parents (Act Valid)) ;; _)%m)).
  intros args. apply both_bind; [apply both_lift|]. intros [[a tg] m].
  assert (Hck : forall m, both (match check_label n m a with
       | None => mret None
       | Some a' =>
           ok <- run_validator v n ;;
           if negb ok then mret None
           else match m with
                | Err c ts => mlift (Throw (EML c ts))
                | Act _ =>
                    _ <- set_args (a_unproc a') ;;
                    mret (Some (Target n parents
                                       (if is_named n then tl (a_proc a') else a_proc a')
                                       (tg_subs tg)))
                end
       end)%m).
  { intros m0. destruct (check_label n m0 a); [|apply both_ret].
    apply both_bind; [now apply both_validator|]. intros []; cbn [negb]; [|apply both_ret].
    destruct m0; [|apply both_lift]. apply both_bind; [apply both_set|]. intros; apply both_ret. }
  destruct m as [[]|]; [apply both_ret|apply Hck..].
Qed.

Lemma both_first cs pt v : (forall c, In c cs -> both (c pt v)) -> both (first_match cs pt v).
Proof.
  induction cs as [|c cs IH]; intros H; cbn [first_match]; [apply both_ret|].
  apply both_bind; [apply H; now left|]. intros [t|]; [apply both_ret|]. apply IH. intros; apply H; now right.
Qed.

Lemma both_one_of (g : node -> child_pp) cs pt w : vboth w -> (forall c, In c cs -> both (g c pt w)) ->
  both (one_of_match (map (fun c => (c, g c)) cs) pt w).
Proof.
  intros Hw. induction cs as [|c cs IH]; intros H; cbn [map one_of_match]; [apply both_ret|].
  apply both_bind; [apply H; now left|]. intros [t|].
  - apply both_bind; [now apply both_validator|intros; apply both_ret].
  - apply IH. intros; apply H; now right.
Qed.

Lemma vboth_verify already front : vboth (verify_match already front).
Proof.
  intros c. split; [intros mem; apply grows_refl|]. intros mem new H. left. unfold verify_match. eauto 6.
Qed.
Lemma vboth_true : vboth always_true.
Proof. intros c. split; [intros mem; apply grows_refl|]. intros mem new H. left. unfold always_true. eauto 6. Qed.

Lemma grows_add mem k h : mem_get mem k = None -> grows mem ((k, h) :: mem).
Proof. intros H j x Hj. cbn [mem_get]. destruct (N.eqb_spec j k) as [->|_]; [congruence|exact Hj]. Qed.

Lemma vboth_one_of inst self v : vboth v -> vboth (one_of_validator inst self v).
Proof.
  intros Hv c. destruct (Hv c) as [Hg Hs]. split.
  - intros mem. unfold one_of_validator. destruct (mem_get mem inst) as [h|] eqn:E.
    + destruct (N.eqb _ _); [apply Hg|apply grows_refl].
    + apply (grows_trans _ ((inst, n_id c) :: mem)); [now apply grows_add|apply Hg].
  - intros mem new R. unfold one_of_validator. rewrite (rel_get _ _ R inst).
    destruct (mem_get new inst) as [h|] eqn:En.
    + destruct (N.eqb _ _); [apply Hs; exact R|]. left. eauto 6.
    + destruct (mem_get base inst) as [h|] eqn:Eb.
      * destruct (N.eqb_spec (n_id c) h) as [<-|Hne].
        -- apply Hs. constructor.
           ++ intros k. cbn [mem_get]. destruct (N.eqb_spec k inst) as [->|_]; [|apply (rel_get _ _ R)].
              rewrite (rel_get _ _ R inst), En. exact Eb.
           ++ intros k x y Hx. cbn [mem_get]. destruct (N.eqb_spec k inst) as [->|_]; [congruence|].
              now apply (rel_agree _ _ R).
        -- right. split; [eexists; reflexivity|]. intros Ha. apply Hne. symmetry. apply (Ha inst); [exact Eb|].
           apply (Hg ((inst, n_id c) :: new)). cbn [mem_get]. now rewrite N.eqb_refl.
      * apply Hs. constructor.
        -- intros k. cbn [mem_get]. destruct (N.eqb_spec k inst) as [->|_]; [reflexivity|apply (rel_get _ _ R)].
        -- intros k x y Hx. cbn [mem_get]. destruct (N.eqb_spec k inst) as [->|_]; [congruence|].
           now apply (rel_agree _ _ R).
Qed.

Lemma both_try (g : node -> child_pp) matched front tg cs : (forall c v, In c cs -> vboth v -> both (g c (Some tg) v)) ->
  forall i, both (mode_try (map (fun c => (c, g c)) cs) i matched front tg).
Proof.
  induction cs as [|c cs IH]; intros H i; cbn [map mode_try]; [apply both_ret|].
  destruct (is_mode c).
  - apply IH. intros; apply H; [now right|easy].
  - apply both_bind; [apply H; [now left|apply vboth_verify]|]. intros [t|]; [apply both_ret|].
    apply IH. intros; apply H; [now right|easy].
Qed.

Lemma both_loop self (g : node -> child_pp) cs : (forall c pt v, In c cs -> vboth v -> both (g c pt v)) ->
  forall fuel tg matched, both (mode_loop fuel self (map (fun c => (c, g c)) cs) tg matched).
Proof.
  intros H. induction fuel as [|fuel IH]; intros tg matched.
  - eapply both_ext; [|apply (both_args (fun a => match a with [] => mret (Some tg) | front :: _ => mlift OutOfFuel end))];
      [intros s; cbn [mode_loop]; now destruct (p_args s)|].
    intros [|t a]; [apply both_ret|apply both_lift].
  - eapply both_ext; [|apply (both_args (fun a => match a with
       | [] => mret (Some tg)
       | front :: _ =>
           (r <- mode_try (map (fun c => (c, g c)) cs) 0 matched front tg ;;
            match r with
            | None => fun s' => if forallb (fun x => x) matched
                 then (s', Throw (EML unhandled_arguments (p_args s')))
                 else (s', unknown_argument_exception self front)
            | Some (i, t) =>
               let subs := match tg_subs t with [] => [t] | ss => ss end in
               mode_loop fuel self (map (fun c => (c, g c)) cs) (add_subs tg subs) (upd matched i true)
            end)%m
       end))]; [intros s; cbn [mode_loop]; now destruct (p_args s)|].
    intros [|front a]; [apply both_ret|]. apply both_bind; [apply both_try; auto|]. intros [[i t]|]; [apply IH|].
    apply (both_args (fun a s' => if forallb (fun x => x) matched then (s', Throw (EML unhandled_arguments a))
                                  else (s', unknown_argument_exception self front))).
    intros a'. destruct (forallb _ _); apply both_lift.
Qed.

Lemma both_pre_parse fuel n : forall parents pt v, vboth v -> both (pre_parse fuel n parents pt v).
Proof.
  induction n as [k id ty pols cs IH] using node_ind'. rewrite Forall_forall in IH. intros parents pt v Hv.
  set (n := Node k id ty pols cs) in *.
  destruct k; try (apply both_node; exact Hv).
  - apply both_first. intros c Hc. apply in_map_iff in Hc as (d & <- & Hd). now apply IH.
  - apply (both_one_of (fun c => pre_parse fuel c parents) cs pt (one_of_validator inst n v)); [now apply vboth_one_of|].
    intros c Hc. apply IH; [easy|now apply vboth_one_of].
  - set (g := fun c => pre_parse fuel c (n :: parents)).
    change (both (mode_pre_parse fuel n parents (map (fun c => (c, g c)) cs) pt v)).
    assert (Hbody : both (ok <- run_validator v n ;;
         if negb ok then mret None
         else mode_loop fuel n (map (fun c => (c, g c)) cs) (Target n parents [] []) (map (fun _ => false) (map (fun c => (c, g c)) cs)))%m).
    { apply both_bind; [now apply both_validator|]. intros []; cbn [negb]; [|apply both_ret].
      apply both_loop. intros; now apply IH. }
    unfold mode_pre_parse. destruct (is_anonymous n); [exact Hbody|].
    apply both_bind; [now apply both_node|]. intros [t|]; [|apply both_ret].
    match goal with |- both (fun s => match _ with [] => _ | _ :: _ => mbind ?f ?k s end) =>
      assert (Ho : both (mbind f k)) end.
    { apply both_bind.
      - apply both_first. intros c Hc. apply in_map_iff in Hc as ([d pp] & <- & Hd). apply filter_In in Hd as [Hd _].
        apply in_map_iff in Hd as (e & [= <- <-] & He). now apply IH.
      - intros [t'|]; [apply both_ret|exact Hbody]. }
    split.
    + intros a mem new R. cbn [p_args]. destruct a; [apply Hbody|apply Ho]; exact R.
    + intros s. destruct (p_args s); [apply Hbody|apply Ho].
  - apply both_lift.
Qed.

Lemma try_grows fuel r : forall cs s, grows (p_mem s) (p_mem (fst (fst (root_try fuel r cs s)))).
Proof.
  induction cs as [|c cs IH]; intros s; cbn [root_try]; [apply grows_refl|].
  destruct (both_pre_parse fuel c [r] None always_true vboth_true) as [_ G]. specialize (G s).
  destruct (pre_parse fuel c [r] None always_true s) as [s' x]. cbn [fst] in G. destruct x as [[t|]| | | |]; try exact G.
  - destruct (p_args s'); [destruct (exec t [])|]; exact G.
  - eapply grows_trans; [exact G|apply IH].
Qed.

Lemma both_root_try fuel r : forall cs a mem new, related mem new ->
  (exists a' mem' new' tr x, root_try fuel r cs (PS a mem) = (PS a' mem', tr, x)
      /\ root_try fuel r cs (PS a new) = (PS a' new', tr, x) /\ related mem' new')
  \/ (exists s' t, root_try fuel r cs (PS a mem) = (s', [], Throw (EML one_of_selected_type_mismatch [t]))
      /\ ~ agree base (p_mem (fst (fst (root_try fuel r cs (PS a new)))))).
Proof.
  induction cs as [|c cs IH]; intros a mem new R; cbn [root_try]; [left; exists a, mem, new, [], (Ok false); auto|].
  destruct (both_pre_parse fuel c [r] None always_true vboth_true) as [Hs _].
  destruct (Hs a mem new R) as [_ [(a' & m1 & m2 & x & -> & -> & R')|[(t & Ht) Hd]]].
  - destruct x as [[t|]| | | |]; try (left; eauto 9; fail).
    + cbn [p_args]. destruct a'; [destruct (exec t [])|]; left; eauto 9.
    + now apply IH.
  - right. destruct (pre_parse fuel c [r] None always_true (PS a mem)) as [s1 x1]. cbn [snd] in Ht. subst x1.
    exists s1, t. split; [reflexivity|].
    destruct (pre_parse fuel c [r] None always_true (PS a new)) as [s2 [[t'|]| | | |]]; try exact Hd.
    + destruct (p_args s2); [destruct (exec t' [])|]; exact Hd.
    + eapply grows_disagree; [apply try_grows|exact Hd].
Qed.
End Base.

(** The parse from state [mem] does what one with a new object does, or fails; it fails if and only if the latter
    would change what [mem] has. *)
Lemma any_state r mem args :
  let o := root_parse r mem args in let new := root_parse r [] args in
  (agree mem (o_mem new) -> o_events o = o_events new /\ o_res o = o_res new
     /\ forall k, mem_get (o_mem o) k = match mem_get (o_mem new) k with Some h => Some h | None => mem_get mem k end)
  /\ (~ agree mem (o_mem new) -> o_events o = [] /\ exists t, o_res o = Throw (EML one_of_selected_type_mismatch [t])).
Proof.
  cbv zeta. unfold root_parse.
  assert (R : related mem mem []) by (constructor; [reflexivity|intros k h h' _ [=]]).
  destruct (both_root_try mem (root_fuel args) r (n_children r) args mem [] R)
    as [(a' & m1 & m2 & tr & x & -> & -> & R')|(s' & t & -> & Hd)].
  - cbn [o_mem o_events o_res p_mem]. destruct R' as [R1 R2]. split; [|contradiction]. intros _. auto.
  - destruct (root_try (root_fuel args) r (n_children r) (PS args [])) as [[s2 tr2] x2]. cbn [o_mem o_events o_res p_mem fst] in *.
    split; [contradiction|]. intros _. cbn [rbind]. split; [reflexivity|now exists t].
Qed.

(** ** Which objects a parse changes *)

Definition only {A} (K : N -> Prop) (f : M A) : Prop :=
  forall s k, ~ K k -> mem_get (p_mem (fst (f s))) k = mem_get (p_mem s) k.
Definition vonly (K : N -> Prop) (v : validator) : Prop :=
  forall c mem k, ~ K k -> mem_get (fst (v c mem)) k = mem_get mem k.

Section Only.
Variable K : N -> Prop.

Lemma only_lift {A} (x : res A) : only K (mlift x). Proof. intros s k _. reflexivity. Qed.
Lemma only_bind {A B} (f : M A) (g : A -> M B) : only K f -> (forall x, only K (g x)) -> only K (mbind f g).
Proof.
  intros Hf Hg s k Hk. unfold mbind. specialize (Hf s k Hk). destruct (f s) as [s1 [x| | | |]]; try exact Hf.
  rewrite (Hg x s1 k Hk). exact Hf.
Qed.
Lemma only_validator v n : vonly K v -> only K (run_validator v n).
Proof. intros Hv s k Hk. unfold run_validator. specialize (Hv n (p_mem s) k Hk). destruct (v n (p_mem s)). exact Hv. Qed.

Lemma only_node n parents pt v : vonly K v -> only K (node_pre_parse n parents pt v).
Proof.
  intros Hv s. unfold node_pre_parse. revert s.
  assert (H : forall args, only K ((r <- mlift (run_policies (priority_order (n_pols n)) (Adp [] args) pt
                            (Target n parents [] []) n parents (Act Valid)) ;;
     let '(a, tg, m) := r in
     match m with
     | Act Skip => mret None
     | _ =>
       match check_label n m a with
       | None => mret None
       | Some a' =>
           ok <- run_validator v n ;;
           if negb ok then mret None
           else match m with
                | Err c ts => mlift (Throw (EML c ts))
                | Act _ =>
                    _ <- set_args (a_unproc a') ;;
                    mret (Some (Target n parents
                                       (if is_named n then tl (a_proc a') else a_proc a')
                                       (tg_subs tg)))
                end
       end
     end)%m)).
  { intros args. apply only_bind; [apply only_lift|]. intros [[a tg] m].
    assert (Hck : forall m, only K (match check_label n m a with
       | None => mret None
       | Some a' =>
           ok <- run_validator v n ;;
           if negb ok then mret None
           else match m with
                | Err c ts => mlift (Throw (EML c ts))
                | Act _ =>
                    _ <- set_args (a_unproc a') ;;
                    mret (Some (Target n parents
                                       (if is_named n then tl (a_proc a') else a_proc a')
                                       (tg_subs tg)))
                end
       end)%m).
    { intros m0. destruct (check_label n m0 a); [|apply (only_lift (Ok None))].
      apply only_bind; [now apply only_validator|]. intros []; cbn [negb]; [|apply (only_lift (Ok None))].
      destruct m0; [|apply only_lift]. apply only_bind; [intros s k _; reflexivity|]. intros x s k _. reflexivity. }
    destruct m as [[]|]; [apply (only_lift (Ok None))|apply Hck..]. }
  intros s. apply (H (p_args s) s).
Qed.

Lemma only_first cs pt v : (forall c, In c cs -> only K (c pt v)) -> only K (first_match cs pt v).
Proof.
  induction cs as [|c cs IH]; intros H; cbn [first_match]; [apply (only_lift (Ok None))|].
  apply only_bind; [apply H; now left|]. intros [t|]; [apply (only_lift (Ok (Some t)))|]. apply IH. intros; apply H; now right.
Qed.

Lemma only_one_of (g : node -> child_pp) cs pt w : vonly K w -> (forall c, In c cs -> only K (g c pt w)) ->
  only K (one_of_match (map (fun c => (c, g c)) cs) pt w).
Proof.
  intros Hw. induction cs as [|c cs IH]; intros H; cbn [map one_of_match]; [apply (only_lift (Ok None))|].
  apply only_bind; [apply H; now left|]. intros [t|].
  - apply only_bind; [now apply only_validator|intros; apply (only_lift (Ok (Some t)))].
  - apply IH. intros; apply H; now right.
Qed.

Lemma vonly_verify already front : vonly K (verify_match already front).
Proof. intros c mem k _. reflexivity. Qed.
Lemma vonly_one_of inst self v : K inst -> vonly K v -> vonly K (one_of_validator inst self v).
Proof.
  intros Hi Hv c mem k Hk. unfold one_of_validator. destruct (mem_get mem inst) as [h|].
  - destruct (N.eqb _ _); [now apply Hv|reflexivity].
  - rewrite (Hv c _ k Hk). cbn [mem_get]. destruct (N.eqb_spec k inst) as [->|_]; [contradiction|reflexivity].
Qed.

Lemma only_try (g : node -> child_pp) matched front tg cs :
  (forall c v, In c cs -> is_mode c = false -> vonly K v -> only K (g c (Some tg) v)) ->
  forall i, only K (mode_try (map (fun c => (c, g c)) cs) i matched front tg).
Proof.
  induction cs as [|c cs IH]; intros H i; cbn [map mode_try]; [apply (only_lift (Ok None))|].
  destruct (is_mode c) eqn:E.
  - apply IH. intros; apply H; [now right|easy..].
  - apply only_bind; [apply H; [now left|exact E|apply vonly_verify]|]. intros [t|]; [apply (only_lift (Ok (Some (i, t))))|].
    apply IH. intros; apply H; [now right|easy..].
Qed.

Lemma only_loop self (g : node -> child_pp) cs :
  (forall c pt v, In c cs -> is_mode c = false -> vonly K v -> only K (g c pt v)) ->
  forall fuel tg matched, only K (mode_loop fuel self (map (fun c => (c, g c)) cs) tg matched).
Proof.
  intros H. induction fuel as [|fuel IH]; intros tg matched s; cbn [mode_loop].
  - destruct (p_args s); intros k _; reflexivity.
  - destruct (p_args s) as [|front args]; [intros k _; reflexivity|].
    apply (only_bind (mode_try (map (fun c => (c, g c)) cs) 0 matched front tg)).
    + apply only_try. auto.
    + intros [[i t]|]; [apply IH|]. intros s' k _. destruct (forallb _ _); reflexivity.
Qed.
End Only.

Lemma start_only f m tp parents : sub_ok m tp -> is_mode m = true ->
  only (fun k => exists c, In c (n_children m) /\ object_at c k) (mode_start f m parents).
Proof.
  intros Hs Hm. apply only_loop. intros c pt v Hc Hcm Hv. pose proof (sub_ok_child _ _ _ Hs Hc) as Hsc.
  assert (G : forall d, In d (n_children c) -> is_dep c = true -> forall ps w,
    vonly (fun k => exists c0, In c0 (n_children m) /\ object_at c0 k) w ->
    only (fun k => exists c0, In c0 (n_children m) /\ object_at c0 k) (pre_parse f d ps pt w)).
  { intros d Hd Hk ps w Hw. rewrite leaf_pre_parse by (now apply (group_member c (m :: tp))). now apply only_node. }
  destruct c as [k id ty pols cs] eqn:Ec. cbn [pre_parse]. rewrite <- Ec in *.
  assert (Hd : n_children c = cs) by now subst c. rewrite Hd in G.
  assert (Ek : n_kind c = k) by now subst c.
  destruct k; try (now apply only_node).
  - apply only_first. intros x Hx. apply in_map_iff in Hx as (d & <- & Hx). apply G; [exact Hx| |exact Hv].
    unfold is_dep. now rewrite Ek.
  - apply (only_one_of _ (fun d => pre_parse f d (m :: parents))).
    + apply vonly_one_of; [now exists c|exact Hv].
    + intros d Hx. apply G; [exact Hx| |apply vonly_one_of; [now exists c|exact Hv]]. unfold is_dep. now rewrite Ek.
  - unfold is_mode in Hcm. now rewrite Ek in Hcm.
  - apply only_lift.
Qed.

(** ** The objects after a parse with a new root *)

Lemma passed_child r mem args c f : fresh r mem args -> In c (n_children r) -> args_weight args <= f -> passed_over args c ->
  pre_parse f c [r] None always_true (PS args mem) = (PS args mem, Ok None).
Proof.
  intros [[Ha Hcm Hdm Hsane Hdo] Hun Hf Hne] Hc Hw Hp.
  assert (HR : child_result r c args (PS args mem) (pre_parse f c [r] None always_true (PS args mem))).
  { destruct (is_mode c) eqn:Em.
    - now apply (mode_exact r c f (PS args mem)).
    - now apply (top_leaf_exact r c f (PS args mem)). }
  destruct HR as [_|mem' t n vs x Hme _|mem' lb vs Hnp|s' t x Hnp|s' y x Hnp]; try contradiction; [reflexivity|].
  now apply means_not_passed in Hme.
Qed.

Lemma try_to fuel r args mem : forall before c after, fresh r mem args -> (forall d, In d (before ++ c :: after) -> In d (n_children r)) ->
  args_weight args <= fuel -> (forall d, In d before -> passed_over args d) ->
  root_try fuel r (before ++ c :: after) (PS args mem) = root_try fuel r (c :: after) (PS args mem).
Proof.
  induction before as [|d before IH]; intros c after Hf Hin Hw Hb; [reflexivity|]. cbn [app].
  change (root_try fuel r (d :: before ++ c :: after) (PS args mem)) with
    (match pre_parse fuel d [r] None always_true (PS args mem) with
      | (s', Ok None) => root_try fuel r (before ++ c :: after) s'
      | (s', Ok (Some t)) =>
          match p_args s' with
          | [] => match exec t [] with
                  | (tr, r) => (s', tr, (_ <- r ;; Ok true)%res)
                  end
          | _ => (s', [], Throw (EML unhandled_arguments (p_args s')))
          end
      | (s', Throw e) => (s', [], Throw e)
      | (s', UB) => (s', [], UB)
      | (s', Exited) => (s', [], Exited)
      | (s', OutOfFuel) => (s', [], OutOfFuel)
      end).
  rewrite (passed_child r mem args d fuel Hf); [|apply Hin; now left|exact Hw|apply Hb; now left].
  apply IH; auto; intros; [apply Hin|apply Hb]; now right.
Qed.

Lemma typed_memory r args m ts items : fresh r [] args -> typed r args m ts items ->
  exists ps, o_mem (root_parse r [] args) = p_mem (fst (mode_start (root_fuel args) m ps (PS ts [])))
    /\ ends_with m [] items (o_mem (root_parse r [] args)).
Proof.
  intros Hfr Ht. destruct Ht as (before & c & after & ps & Hcs & Hb & Hm & Hsel & Hrd).
  assert (Hin : forall d, In d (before ++ c :: after) -> In d (n_children r)) by (rewrite Hcs; auto).
  assert (Hc : In c (n_children r)) by (apply Hin, in_elt).
  assert (E : root_try (root_fuel args) r (n_children r) (PS args []) = root_try (root_fuel args) r (c :: after) (PS args [])).
  { rewrite Hcs. now apply try_to. }
  destruct Hfr as [[Ha Hcm Hdm Hsane Hdo] Hun Hf Hne].
  destruct (mode_typed r c (root_fuel args) (PS args []) Ha Hcm Hdm Hsane Hdo Hun Hc Hm Hf (le_n _))
      as [(m' & ps' & ts' & items' & Hsel' & Hrd' & mem' & t & Hrun & Hn & Hs & Hew & Hst)|[[Hp _]|(s' & x & _ & _ & Hno)]].
  - cbn [p_args p_mem] in *. destruct (selects_det _ _ _ _ _ _ Hsel _ _ _ Hsel') as (<- & <- & <-).
    rewrite <- (reading_det _ _ _ _ Hrd _ Hrd') in Hew. exists ps.
    assert (Em : o_mem (root_parse r [] args) = mem').
    { unfold root_parse. rewrite E. cbn [root_try]. rewrite Hrun. cbn [p_args]. now destruct (exec t []). }
    rewrite Em, <- Hst, Hrun. split; [reflexivity|exact Hew].
  - exfalso. cbn [p_args] in Hp. unfold passed_over in Hp. rewrite Hm in Hp. destruct Hp as [H1 H2].
    destruct (selects_named _ _ _ _ _ _ Hsel H1) as [rest Hx]. now apply (H2 rest).
  - exfalso. now apply (Hno m ps ts items).
Qed.

Lemma chooses_memory r args m ts items : fresh r [] args -> typed r args m ts items -> forall inst id,
  mem_get (o_mem (root_parse r [] args)) inst = Some id <-> chooses r args inst id.
Proof.
  intros Hfr Ht inst id. destruct (typed_memory r args m ts items Hfr Ht) as (ps & Est & (done & Hok & Hdn & Hde)).
  rewrite app_nil_r in Hdn. destruct (typed_mode _ _ _ _ _ Ht) as [Hmr Hmm].
  assert (Hen : forall a, In a done -> In a (entries m)) by (intros a H; destruct (Hde a H) as [[]|H']; exact H').
  assert (Hit : forall l, In l (map i_node items) <-> exists i, In (i, l) done).
  { intros l. rewrite in_rev, <- map_rev. rewrite map_rev, <- Hdn. rewrite in_map_iff. split.
    - intros ([i l'] & <- & H). now exists i.
    - intros (i & H). now exists (i, l). }
  split.
  - intros Hg. assert (K : exists c, In c (n_children m) /\ object_at c inst).
    { destruct (existsb (fun c => match n_kind c with KOneOf j => N.eqb j inst | _ => false end) (n_children m)) eqn:Ex.
      - apply existsb_exists in Ex as (c & Hc & Ek). exists c. split; [exact Hc|]. unfold object_at.
        destruct (n_kind c); try discriminate. apply N.eqb_eq in Ek. now subst.
      - exfalso. assert (Hno : ~ exists c, In c (n_children m) /\ object_at c inst).
        { intros (c & Hc & Ek). assert (existsb (fun c => match n_kind c with KOneOf j => N.eqb j inst | _ => false end) (n_children m) = true); [|congruence].
          apply existsb_exists. exists c. split; [exact Hc|]. unfold object_at in Ek. rewrite Ek. apply N.eqb_refl. }
        rewrite Est in Hg. destruct (mode_sub_ok r m) as (tp & Hs & _); [apply Hfr|exact Hmr|exact Hmm|].
        rewrite (start_only (root_fuel args) m tp ps Hs Hmm (PS ts []) inst Hno) in Hg. discriminate. }
    destruct K as (c & Hc & Ek). apply In_nth_error in Hc as Hi. destruct Hi as (i & Hi).
    specialize (Hok i c inst Hi Ek). rewrite Hg in Hok. destruct Hok as [[l Hl] Hall].
    assert (Hli : In l (map i_node items)) by (apply Hit; now exists i). apply in_map_iff in Hli as (it & <- & Hit').
    exists m, ts, items, it, c. split; [exact Ht|]. split; [exact Hit'|]. split; [exact Hc|]. split; [exact Ek|].
    split; [|now apply Hall]. apply Hen in Hl. apply entries_in in Hl as (c' & Hi' & _ & Hlb & _). congruence.
  - intros (m' & ts' & items' & it & c & Ht' & Hin & Hc & Ek & Hb & <-).
    destruct (typed_det _ _ _ _ _ _ _ _ Ht Ht') as (<- & <- & <-).
    assert (Hl : exists i, In (i, i_node it) done) by (apply Hit; now apply in_map). destruct Hl as (i & Hl).
    apply Hen in Hl as Hl'. apply entries_in in Hl' as (c' & Hi & Hcm & Hlb & Hla).
    assert (c' = c).
    { apply In_nth_error in Hc as (j & Hj). assert (i = j); [|subst; congruence].
      apply (entry_index m i j (i_node it)); [apply (typed_distinct r [] args m ts items Hfr Ht)|now apply Hen|].
      apply entries_in. exists c. split; [exact Hj|]. split; [unfold is_mode; now rewrite Ek|easy]. }
    subst c'. specialize (Hok i c inst Hi Ek). destruct (mem_get (o_mem (root_parse r [] args)) inst) as [h|].
    + destruct Hok as [_ Hall]. now rewrite (Hall _ Hl).
    + exfalso. apply Hok. now exists (i_node it).
Qed.

Lemma choices_memory r args n vs : fresh r [] args -> routes r args n vs -> forall inst id,
  mem_get (o_mem (root_parse r [] args)) inst = Some id <-> chooses r args inst id.
Proof.
  intros Hfr (bf & c & af & Hcs & Hb & Hme) inst id.
  destruct (is_mode c) eqn:Em.
  - inversion Hme as [m ps ts' items w Hmc Hsel Hr Hrd Hdl|label vals v Hmc]; [|congruence]. subst.
    apply (chooses_memory r args n ts' items Hfr). exists bf, c, af, ps. easy.
  - assert (Hc : In c (n_children r)) by (rewrite Hcs; apply in_elt).
    assert (E : root_try (root_fuel args) r (n_children r) (PS args []) = root_try (root_fuel args) r (c :: af) (PS args [])).
    { rewrite Hcs. apply try_to; [exact Hfr|now rewrite Hcs|apply le_n|exact Hb]. }
    assert (Hnp := means_not_passed _ _ _ _ _ Hme).
    assert (H0 : mem_get (o_mem (root_parse r [] args)) inst = None).
    { unfold root_parse. rewrite E. cbn [root_try].
      destruct Hfr as [[Ha Hcm Hdm Hsane Hdo] Hun Hf Hne].
      pose proof (root_child r c Ha Hc) as [Hs [Hk|(L & _)]]; [congruence|].
      pose proof (only_node (fun _ => False) c [r] None always_true (fun c mem k _ => eq_refl) (PS args []) inst (fun F => F)) as Ho.
      rewrite <- (leaf_pre_parse (root_fuel args) c [r]) in Ho by apply L.
      pose proof (top_leaf_exact r c (root_fuel args) (PS args []) Ha Hsane Hc Em Hne Hf) as HR.
      cbn [p_args] in HR. destruct HR as [Hp|mem' t n' vs' x Hme' Hex|mem' lb vals _ Hno|s' t x _ Hno|s' y x _ Hno];
        [contradiction| |now apply Hno in Hme..].
      cbn [p_args]. rewrite Hex. exact Ho. }
    rewrite H0. split; [discriminate|]. intros (m & ts & items & it & c' & Ht & _).
    destruct Ht as (bf' & d & af' & ps & Hcs' & Hb' & Hm' & Hsel & Hrd).
    destruct (first_child r args bf bf' c d af af') as (_ & <- & _); auto; [|congruence].
    now apply (selects_not_passed d r args m ps ts).
Qed.

Lemma fresh_new r mem args : fresh r mem args -> fresh r [] args.
Proof. intros [H1 H2 H3 H4]. constructor; try assumption. now intros inst _. Qed.

Lemma agree_or r mem args : agree mem (o_mem (root_parse r [] args)) \/ ~ agree mem (o_mem (root_parse r [] args)).
Proof.
  unfold root_parse. assert (R : related mem mem []) by (constructor; [reflexivity|intros k h h' _ [=]]).
  destruct (both_root_try mem (root_fuel args) r (n_children r) args mem [] R)
    as [(a' & m1 & m2 & tr & x & _ & -> & R')|(s' & t & _ & Hd)]; [left; apply R'|right].
  now destruct (root_try (root_fuel args) r (n_children r) (PS args [])) as [[s2 tr] x].
Qed.

(** What is called from any state. *)
Lemma state_calls r mem args n vs : fresh r [] args ->
  calls_router r mem args n vs <-> routes r args n vs
    /\ forall inst id h, chooses r args inst id -> mem_get mem inst = Some h -> h = id.
Proof.
  intros Hf. destruct (any_state r mem args) as [H1 H2]. split.
  - unfold calls_router. intros Hev. assert (Ag : agree mem (o_mem (root_parse r [] args))).
    { destruct (agree_or r mem args) as [H|H]; [exact H|]. destruct (H2 H) as [H3 _]. now rewrite H3 in Hev. }
    destruct (H1 Ag) as (E1 & E2 & _).
    assert (Hr : routes r args n vs). { apply (fresh_routes r [] args n vs Hf). unfold calls_router. now rewrite <- E1. }
    split; [exact Hr|]. intros inst id h Hc Hm. apply (Ag inst h id Hm). now apply (choices_memory r args n vs Hf Hr).
  - intros [Hr Hag]. assert (Ag : agree mem (o_mem (root_parse r [] args))).
    { intros k h h' Hh Hh'. apply (Hag k h' h); [|exact Hh]. now apply (choices_memory r args n vs Hf Hr). }
    destruct (H1 Ag) as (E1 & E2 & _). apply (fresh_routes r [] args n vs Hf) in Hr. unfold calls_router. now rewrite E1.
Qed.

(** What the objects are afterwards. *)
Lemma state_after r mem args n vs : fresh r [] args -> calls_router r mem args n vs -> forall inst id,
  mem_get (o_mem (root_parse r mem args)) inst = Some id <-> chooses r args inst id \/ mem_get mem inst = Some id.
Proof.
  intros Hf Hc inst id. apply (state_calls r mem args n vs Hf) in Hc as [Hr Hag].
  pose proof (choices_memory r args n vs Hf Hr) as Hcm. destruct (any_state r mem args) as [H1 _].
  assert (Ag : agree mem (o_mem (root_parse r [] args))).
  { intros k h h' Hh Hh'. apply (Hag k h' h); [|exact Hh]. now apply Hcm. }
  destruct (H1 Ag) as (_ & _ & ->). rewrite <- (Hcm inst id).
  destruct (mem_get (o_mem (root_parse r [] args)) inst) as [h|] eqn:E; [|split; [now right|intros [?|?]; easy]].
  split; [now left|]. intros [H|H]; [exact H|]. f_equal. symmetry. apply (Ag inst id h H E).
Qed.

Lemma runs_lines r : forall lines mem calls, Forall (fresh r []) lines ->
  runs r mem lines calls <->
    Forall2 (fun args call => routes r args (fst call) (snd call)) lines calls
    /\ (forall a a' inst id id', In a lines -> In a' lines -> chooses r a inst id -> chooses r a' inst id' -> id = id')
    /\ (forall a inst id h, In a lines -> chooses r a inst id -> mem_get mem inst = Some h -> h = id).
Proof.
  induction lines as [|args lines IH]; intros mem calls Hf.
  - split.
    + intros H. inversion H; subst. split; [constructor|]. split; [intros ? ? ? ? ? []|intros ? ? ? ? []].
    + intros (H & _). inversion H; subst. constructor.
  - inversion Hf as [|x l Hx Hl]; subst. split.
    + intros H. inversion H as [|? ? ? n vs calls' Hc Hrs]; subst.
      pose proof (state_after r mem args n vs Hx Hc) as Haf.
      apply (state_calls r mem args n vs Hx) in Hc as [Hr Hag]. apply (IH _ _ Hl) in Hrs as (H1 & H2 & H3).
      assert (Hself : forall inst id id', chooses r args inst id -> chooses r args inst id' -> id = id').
      { intros inst id id' Ha Hb. apply (choices_memory r args n vs Hx Hr) in Ha, Hb. congruence. }
      split; [constructor; [exact Hr|exact H1]|]. split.
      * intros a a' inst id id' [<-|Ha] [<-|Ha'] C C'; [now apply (Hself inst)| | |now apply (H2 a a' inst)].
        -- apply (H3 a' inst id' id Ha' C'). apply Haf. now left.
        -- symmetry. apply (H3 a inst id id' Ha C). apply Haf. now left.
      * intros a inst id h [<-|Ha] C Hm; [now apply (Hag inst)|]. apply (H3 a inst id h Ha C). apply Haf. now right.
    + intros (H1 & H2 & H3). inversion H1 as [|? [n vs] ? calls' Hr Hrs]; subst. cbn [fst snd] in Hr.
      assert (Hc : calls_router r mem args n vs).
      { apply (state_calls r mem args n vs Hx). split; [exact Hr|]. intros inst id h C Hm. apply (H3 args inst id h); [now left|easy..]. }
      apply runs_cons; [exact Hc|]. apply (IH _ _ Hl). split; [exact Hrs|]. split.
      * intros a a' inst id id' Ha Ha'. apply H2; now right.
      * intros a inst id h Ha C Hm. apply (state_after r mem args n vs Hx Hc) in Hm as [Hm|Hm].
        -- apply (H2 args a inst h id); [now left|now right|easy..].
        -- apply (H3 a inst id h); [now right|easy..].
Qed.

Lemma runs_new r lines calls : Forall (fresh r []) lines ->
  runs r [] lines calls <->
    Forall2 (fun args call => routes r args (fst call) (snd call)) lines calls
    /\ forall a a' inst id id', In a lines -> In a' lines -> chooses r a inst id -> chooses r a' inst id' -> id = id'.
Proof.
  intros Hf. rewrite (runs_lines r lines [] calls Hf). split; [now intros (H1 & H2 & _)|]. intros [H1 H2].
  split; [exact H1|]. split; [exact H2|]. intros a inst id h _ _ [=].
Qed.

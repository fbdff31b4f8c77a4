(** Proofs for C87: the mode of the program runtime_node_enable that has no name. *)
From Verif Require Import Bytes Token Result CodePoint Utf8 Utf8Proofs Tree PreParse Root TokenProofs NodeProofs.
From Verif Require Import Build Demo RunProofs SpecTokens SpecTake SpecMode SpecDeliver SpecRoot SpecReading SpecClaims.
From Verif Require Import SpecFault SpecOutcome PropsFault ReadProofs ExactProofs.
From Verif Require Import Examples SpecExamples ExampleProofs CatProofs AdvancedProofs.
Local Open Scope nat_scope.

Section Base.
Variable advanced : bool.
Let m := rne_mode advanced.
Let lic := rne_licensed advanced.

Definition rne_node (o : rne_option) : node := match o with Foo _ => rne_foo | Bar _ => rne_bar | Licensed _ => lic end.
Definition rne_item (o : rne_option) : node * list token :=
  (rne_node o, match o with Licensed s => [Tok PNone s] | _ => [] end).

Lemma base_entries : entries m = [(0, rne_foo); (1, rne_bar); (2, lic)]. Proof. reflexivity. Qed.
Lemma base_allowed done i l : ~ used done i -> allowed m done i l.
Proof.
  intros H. split; [now right|]. intros [(c & inst & X & Y) _].
  destruct i as [|[|[|[|i]]]]; try discriminate X; injection X as <-; discriminate Y.
Qed.

Ltac no_sign := let H := fresh in intros H; cbn in H; repeat (destruct H as [H|H]; [discriminate H|]); destruct H.
Ltac other_name nm := let L := fresh in let H := fresh in intros L H; injection H as <-; split; [no_sign|discriminate].

Lemma rne_flag done f i before after nm ch (short : bool) us items :
  long_name f = Some nm -> short_name f = Some [ch] -> none_name f = None -> value_separator f = None -> token_end_marker f = None ->
  count_bounds f = Some (0%N, 0%N) -> In PShortFormExpander (n_pols f) -> enabled f -> plain f -> graphemes [ch] = Some [[ch]] -> [ch] <> b "-" ->
  entries m = before ++ (i, f) :: after ->
  let t := Tok PNone (if short then b "-" ++ [ch] else b "--" ++ nm) in
  (forall j k, In (j, k) before -> passes m done (t :: us) j k) ->
  kept (t :: us) -> ~ used done i -> reading m ((i, f) :: done) us items ->
  exists label, reading m done (t :: us) (Item f label [] :: items).
Proof.
  intros H1 H2 H3 H4 H5 H6 H7 H8 Hpl H9 H10 He t Hp K Hu Hr.
  assert (P : picks nm [ch] t []) by (unfold t; destruct short; [now apply picks_short|left; now split]).
  destruct (proj2 (switch_consumes f nm ch H1 H2 H3 H4 H5 H6 H7 H9 H10 t us [] us ltac:(discriminate))) as [label Hc].
  { exists []. split; [exact P|now split]. }
  exists label. apply (reading_cons m done _ before i f after label [] us items He Hp).
  - intros X. apply (switch_chokes f nm ch H1 H2 H3 H4 H5 H6 H7 H9 H10 _ _ H8 K) in X. destruct X as (nm' & Hd & Hl & Hb). unfold t in Hd.
    destruct short.
    + assert (nm' = [ch]) as ->.
      { destruct Hd as [E|[E _]]; [discriminate E|]. assert (E' := f_equal t_name E). cbn [t_name] in E'. now injection E'. }
      now apply Hl.
    + destruct Hd as [E|[E Hd]]; [discriminate E|]. apply Hd. assert (E' := f_equal t_name E). cbn [t_name] in E'.
      exists nm. injection E' as E'. now rewrite <- E'.
  - exact H8.
  - exact Hc.
  - now apply base_allowed.
  - intros ns d Hin. now apply (pl_dep f Hpl) in Hin.
  - exact Hr.
Qed.

Lemma foo_plain : plain rne_foo. Proof. is_plain. Qed.
Lemma bar_plain : plain rne_bar. Proof. is_plain. Qed.
Lemma lic_plain : plain lic. Proof. is_plain. Qed.

Lemma rne_options_reading opts : NoDup (map rne_slot opts) -> (advanced = false -> forall s, ~ In (Licensed s) opts) ->
  forall done, (forall o, In o opts -> ~ used done (rne_slot o)) -> kept (map (Tok PNone) (flat_map rne_words opts)) ->
  exists items, reading m done (map (Tok PNone) (flat_map rne_words opts)) items /\ flat_map (assigned m) items = map rne_item opts.
Proof.
  induction opts as [|o opts IH]; intros Hn Ha done Hu K; [exists []; split; [constructor|reflexivity]|].
  cbn [map] in Hn. apply NoDup_cons_iff in Hn as [Hni Hn].
  assert (K' : kept (map (Tok PNone) (flat_map rne_words opts))).
  { destruct o; cbn [flat_map rne_words app map] in K; [exact (kept_tail _ _ K)|exact (kept_tail _ _ K)|exact (kept_tail _ _ (kept_tail _ _ K))]. }
  destruct (IH Hn (fun E s Hs => Ha E s (or_intror Hs)) ((rne_slot o, rne_node o) :: done)) as (items & Hr & Ea).
  { intros o' Ho' X. apply used_head in X as [X|X]; [|exact (Hu o' (or_intror Ho') X)]. apply Hni. rewrite X. now apply in_map. }
  { exact K'. }
  assert (Hf := Hu o (or_introl eq_refl)). assert (Hl : forall s, o = Licensed s -> advanced = true).
  { intros s ->. destruct (Bool.bool_dec advanced true) as [X|X]; [exact X|]. apply Bool.not_true_is_false in X. exfalso. exact (Ha X s (or_introl eq_refl)). }
  set (us := map (Tok PNone) (flat_map rne_words opts)) in *.
  destruct o as [short|short|s]; cbn [flat_map rne_words app map rne_slot rne_node] in *.
  - destruct (rne_flag done rne_foo 0 [] [(1, rne_bar); (2, lic)] (b "foo") "f"%char short us items eq_refl eq_refl eq_refl eq_refl eq_refl eq_refl) as [label H];
      [cbn; tauto|unfold enabled; cbn; discriminate|exact foo_plain|vm_compute; reflexivity|discriminate|reflexivity|intros j k []|destruct short; exact K|exact Hf|exact Hr|].
    exists (Item rne_foo label [] :: items). split; [destruct short; exact H|cbn [flat_map map]; rewrite Ea; reflexivity].
  - destruct (rne_flag done rne_bar 1 [(0, rne_foo)] [(2, lic)] (b "bar") "b"%char short us items eq_refl eq_refl eq_refl eq_refl eq_refl eq_refl) as [label H];
      [cbn; tauto|unfold enabled; cbn; discriminate|exact bar_plain|vm_compute; reflexivity|discriminate|reflexivity| |destruct short; exact K|exact Hf|exact Hr|].
    + intros j k [E|[]]. injection E as <- <-. destruct short.
      * apply (short_passes m done _ _ _ (b "b") (b "b") [] us);
          [reflexivity|reflexivity|unfold enabled; cbn; discriminate|left; reflexivity|exact K|right; split; [reflexivity|intros [? E]; discriminate E]|no_sign|vm_compute; reflexivity|discriminate|discriminate].
      * apply (long_passes m done _ _ (b "bar") (b "bar") us); [reflexivity|reflexivity|unfold enabled; cbn; discriminate|left; reflexivity|split; [no_sign|now left]|other_name (b "bar")].
    + exists (Item rne_bar label [] :: items). split; [destruct short; exact H|cbn [flat_map map]; rewrite Ea; reflexivity].
  - assert (Hs : simple_named lic).
    { constructor; [reflexivity|reflexivity| |unfold lic; membership]. unfold lic. rewrite (Hl s eq_refl). unfold enabled. cbn. discriminate. }
    destruct (proj2 (simple_consumes lic (Tok PNone (b "--advance-foo")) (Tok PNone s :: us) [Tok PNone s] us Hs)) as [label Hc].
    { split; [exact (proj2 (long_match lic (b "advance-foo") eq_refl eq_refl eq_refl _) eq_refl)|].
      apply (one_counted lic _ _ us eq_refl eq_refl). now exists (Tok PNone s). }
    exists (Item lic label [Tok PNone s] :: items). split; [|cbn [flat_map map]; rewrite Ea; reflexivity].
    apply (reading_cons m done _ [(0, rne_foo); (1, rne_bar)] 2 lic [] label [Tok PNone s] us items base_entries);
      [|exact (simple_chokes _ _ Hs)|exact (sn_enabled _ Hs)|exact Hc|now apply base_allowed| |exact Hr].
    + intros j k [E|[E|[]]]; injection E as <- <-;
        (apply (long_passes m done _ _ (b "advance-foo") (b "advance-foo") (Tok PNone s :: us)); [reflexivity|reflexivity|unfold enabled; cbn; discriminate|left; reflexivity|split; [no_sign|now left]|other_name (b "advance-foo")]).
    + intros ns d Hin. now apply (pl_dep lic lic_plain) in Hin.
Qed.

(** The values. *)
Definition typed_foo (opts : list rne_option) : option (list token) := if existsb (fun o => match o with Foo _ => true | _ => false end) opts then Some [] else None.
Definition typed_bar (opts : list rne_option) : option (list token) := if existsb (fun o => match o with Bar _ => true | _ => false end) opts then Some [] else None.
Fixpoint typed_lic (opts : list rne_option) : option (list token) :=
  match opts with [] => None | Licensed s :: _ => Some [Tok PNone s] | _ :: opts' => typed_lic opts' end.

Lemma slot_gone i opts : ~ In i (map rne_slot opts) -> forall o, In o opts -> rne_slot o <> i.
Proof. intros H o Ho E. apply H. rewrite <- E. now apply in_map. Qed.

Lemma items_foo opts : NoDup (map rne_slot opts) -> for_child rne_foo (map rne_item opts) = olist rne_foo (typed_foo opts).
Proof.
  induction opts as [|o opts IH]; intros H; [reflexivity|]. cbn [map] in H. apply NoDup_cons_iff in H as [Hi H]. specialize (IH H).
  destruct o as [sh|sh|s]; [|exact IH..].
  assert (typed_foo opts = None) as E.
  { unfold typed_foo. destruct (existsb _ opts) eqn:X; [|reflexivity]. apply existsb_exists in X as (o & Ho & X). exfalso.
    destruct o; try discriminate X. exact (slot_gone 0 opts Hi _ Ho eq_refl). }
  rewrite E in IH. cbn [olist] in IH. change (for_child rne_foo (map rne_item (Foo sh :: opts))) with ((rne_foo, []) :: for_child rne_foo (map rne_item opts)). rewrite IH. reflexivity.
Qed.
Lemma items_bar opts : NoDup (map rne_slot opts) -> for_child rne_bar (map rne_item opts) = olist rne_bar (typed_bar opts).
Proof.
  induction opts as [|o opts IH]; intros H; [reflexivity|]. cbn [map] in H. apply NoDup_cons_iff in H as [Hi H]. specialize (IH H).
  destruct o as [sh|sh|s]; [exact IH| |exact IH].
  assert (typed_bar opts = None) as E.
  { unfold typed_bar. destruct (existsb _ opts) eqn:X; [|reflexivity]. apply existsb_exists in X as (o & Ho & X). exfalso.
    destruct o; try discriminate X. exact (slot_gone 1 opts Hi _ Ho eq_refl). }
  rewrite E in IH. cbn [olist] in IH. change (for_child rne_bar (map rne_item (Bar sh :: opts))) with ((rne_bar, []) :: for_child rne_bar (map rne_item opts)). rewrite IH. reflexivity.
Qed.
Lemma no_lic opts : (forall o, In o opts -> rne_slot o <> 2) -> typed_lic opts = None.
Proof.
  induction opts as [|o opts IH]; intros H; [reflexivity|]. destruct o as [sh|sh|s]; [| |exfalso; exact (H _ (or_introl eq_refl) eq_refl)];
    apply IH; intros x Hx; apply H; now right.
Qed.
Lemma items_lic opts : NoDup (map rne_slot opts) -> for_child lic (map rne_item opts) = olist lic (typed_lic opts).
Proof.
  induction opts as [|o opts IH]; intros H; [reflexivity|]. cbn [map] in H. apply NoDup_cons_iff in H as [Hi H]. specialize (IH H).
  destruct o as [sh|sh|s]; [exact IH|exact IH|]. rewrite (no_lic opts (slot_gone 2 opts Hi)) in IH. cbn [olist] in IH.
  change (for_child lic (map rne_item (Licensed s :: opts))) with ((lic, [Tok PNone s]) :: for_child lic (map rne_item opts)). rewrite IH. reflexivity.
Qed.

Lemma lic_typed opts s : NoDup (map rne_slot opts) -> In (Licensed s) opts -> typed_lic opts = Some [Tok PNone s].
Proof.
  induction opts as [|o opts IH]; intros H Hi; [destruct Hi|]. cbn [map] in H. apply NoDup_cons_iff in H as [Hn H].
  destruct Hi as [->|Hi]; [reflexivity|]. destruct o as [sh|sh|s']; [now apply IH|now apply IH|].
  exfalso. exact (slot_gone 2 opts Hn _ Hi eq_refl).
Qed.
Lemma typed_lic_in opts vals : typed_lic opts = Some vals -> exists s, In (Licensed s) opts /\ vals = [Tok PNone s].
Proof.
  induction opts as [|o opts IH]; intros H; [discriminate H|]. destruct o as [sh|sh|s].
  - destruct (IH H) as (s & A & B). exists s. split; [now right|exact B].
  - destruct (IH H) as (s & A & B). exists s. split; [now right|exact B].
  - injection H as <-. exists s. split; [now left|reflexivity].
Qed.

Lemma flag_given f (x : bool) v : n_kind f = KFlag -> ~ mandatory f -> default_values f = [VBool false] ->
  given_value f (if x then Some [] else None) v <-> v = VBool x.
Proof.
  intros Hk Hm Hd. destruct x; cbn [given_value].
  - split; [|intros ->; apply value_flag; now left]. intros H. inversion H as [vals Hf|c t ts v' X|c X|c ts vs X]; subst; [reflexivity|congruence..].
  - rewrite Hd. cbn [last]. split; [now intros [_ H]|intros ->; now split].
Qed.

Lemma lic_value s v : value_of lic [Tok PNone s] v <-> v = VStr s.
Proof.
  split.
  - intros H. inversion H as [vals Hf|c t ts v' _ _ Hr _|c _ Hx _|c ts vs _ Hx _ _]; subst.
    + destruct Hf as [Hf|Hf]; discriminate Hf.
    + unfold reads_as in Hr. cbn in Hr. now injection Hr as <-.
    + discriminate Hx.
  - intros ->. apply (value_single lic AArg); [reflexivity|reflexivity|reflexivity|now apply any_in_range, lic_plain].
Qed.

Lemma rne_option_values opts vs : NoDup (map rne_slot opts) -> (advanced = false -> forall s, ~ In (Licensed s) opts) ->
  deliveries m (map rne_item opts) vs <-> exists foo bar s, vs = [VBool foo; VBool bar; VStr s]
    /\ (foo = true <-> exists short, In (Foo short) opts) /\ (bar = true <-> exists short, In (Bar short) opts)
    /\ (In (Licensed s) opts \/ advanced = false /\ s = []).
Proof.
  intros Hn Ha.
  assert (F : forall v, delivered rne_foo (map rne_item opts) v <-> v = VBool (existsb (fun o => match o with Foo _ => true | _ => false end) opts)).
  { intros v. rewrite (given_delivered rne_foo _ _ v foo_plain (items_foo opts Hn)). unfold typed_foo. apply flag_given; [reflexivity| |reflexivity].
    intros [X|[w X]]; revert X; membership. }
  assert (B : forall v, delivered rne_bar (map rne_item opts) v <-> v = VBool (existsb (fun o => match o with Bar _ => true | _ => false end) opts)).
  { intros v. rewrite (given_delivered rne_bar _ _ v bar_plain (items_bar opts Hn)). unfold typed_bar. apply flag_given; [reflexivity| |reflexivity].
    intros [X|[w X]]; revert X; membership. }
  assert (L : forall v, delivered lic (map rne_item opts) v <-> exists s, v = VStr s /\ (In (Licensed s) opts \/ advanced = false /\ s = [])).
  { intros v. rewrite (given_delivered lic _ _ v lic_plain (items_lic opts Hn)). split.
    - destruct (typed_lic opts) as [vals|] eqn:E; cbn [given_value].
      + intros H. apply typed_lic_in in E as (s & Hs & ->). apply lic_value in H. exists s. split; [exact H|now left].
      + intros [Hm Hv]. destruct (Bool.bool_dec advanced true) as [E'|E'].
        * exfalso. apply Hm. right. exists (VStr []). unfold lic, rne_licensed. rewrite E'. cbn. tauto.
        * apply Bool.not_true_is_false in E'. exists []. split; [|right; now split]. rewrite Hv. unfold lic, rne_licensed. rewrite E'. reflexivity.
    - intros (s & -> & [Hs|[E' ->]]).
      + rewrite (lic_typed opts s Hn Hs). cbn [given_value]. now apply lic_value.
      + destruct (typed_lic opts) as [vals|] eqn:E; [exfalso; apply typed_lic_in in E as (s & Hs & _); exact (Ha E' s Hs)|].
        cbn [given_value]. unfold lic, rne_licensed. rewrite E'. split; [|reflexivity]. intros [X|[w X]]; revert X; membership. }
  assert (XF : existsb (fun o => match o with Foo _ => true | _ => false end) opts = true <-> exists short, In (Foo short) opts).
  { rewrite existsb_exists. split; [intros (o & Ho & X); destruct o as [sh| |]; try discriminate X; now exists sh|intros [sh H]; now exists (Foo sh)]. }
  assert (XB : existsb (fun o => match o with Bar _ => true | _ => false end) opts = true <-> exists short, In (Bar short) opts).
  { rewrite existsb_exists. split; [intros (o & Ho & X); destruct o as [|sh|]; try discriminate X; now exists sh|intros [sh H]; now exists (Bar sh)]. }
  unfold deliveries. change (router_children m) with [rne_foo; rne_bar; lic]. split.
  - intros [_ Hd]. inversion Hd as [|c x cs vs1 Hx Hd1]; subst. inversion Hd1 as [|c y cs vs2 Hy Hd2]; subst. inversion Hd2 as [|c z cs vs3 Hz Hd3]; subst. inversion Hd3; subst.
    apply F in Hx. apply B in Hy. apply L in Hz as (s & -> & Hs). subst x y. do 2 eexists. exists s. split; [reflexivity|]. exact (conj XF (conj XB Hs)).
  - intros (foo & bar & s & -> & Hf & Hb & Hs).
    assert (foo = existsb (fun o => match o with Foo _ => true | _ => false end) opts) as -> by (apply Bool.eq_true_iff_eq; now rewrite Hf, XF).
    assert (bar = existsb (fun o => match o with Bar _ => true | _ => false end) opts) as -> by (apply Bool.eq_true_iff_eq; now rewrite Hb, XB).
    split.
    + apply Forall_forall. intros a Hin. apply in_map_iff in Hin as (o & <- & _). destruct o as [sh|sh|s']; cbn [rne_item fst snd rne_node].
      * exists (VBool true). apply value_flag. now left.
      * exists (VBool true). apply value_flag. now left.
      * exists (VStr s'). now apply lic_value.
    + constructor; [now apply F|]. constructor; [now apply B|]. constructor; [apply L; now exists s|constructor].
Qed.

Lemma rne_option_routes int_t opts n vs : NoDup (map rne_slot opts) -> (advanced = false -> forall s, ~ In (Licensed s) opts) ->
  in_memory (flat_map rne_words opts) ->
  routes (runtime_node_enable int_t advanced) (map (Tok PNone) (flat_map rne_words opts)) n vs <->
  n = m /\ deliveries m (map rne_item opts) vs.
Proof.
  intros Hn Ha Hw. assert (K := kept_words _ Hw).
  assert (Hv : simple_named rne_version) by is_simple. assert (Hh : simple_named rne_help) by is_simple.
  destruct (rne_options_reading opts Hn Ha [] (fun o _ H => match H with ex_intro _ _ F => F end) K) as (items & Hr & Ea).
  assert (W : forall w ws, flat_map rne_words opts = w :: ws -> In w [b "-f"; b "--foo"; b "-b"; b "--bar"; b "--advance-foo"]).
  { intros w ws E. destruct opts as [|[[|]|[|]|s] opts']; [discriminate E|..]; injection E as <- _; cbn; tauto. }
  assert (P : forall d, In d [rne_help; rne_version; rne_advanced int_t advanced] -> passed_over (map (Tok PNone) (flat_map rne_words opts)) d).
  { intros d [<-|[<-|[<-|[]]]].
    - apply (simple_passed rne_help _ Hh eq_refl). intros t us E. destruct (flat_map rne_words opts) as [|w ws]; [discriminate E|]. injection E as <- _.
      specialize (W w ws eq_refl). repeat (destruct W as [<-|W]; [vm_compute; reflexivity|]). destruct W.
    - apply (simple_passed rne_version _ Hv eq_refl). intros t us E. destruct (flat_map rne_words opts) as [|w ws]; [discriminate E|]. injection E as <- _.
      specialize (W w ws eq_refl). repeat (destruct W as [<-|W]; [vm_compute; reflexivity|]). destruct W.
    - split; [discriminate|]. intros rest (_ & nm & X & Y). injection X as <-. destruct (flat_map rne_words opts) as [|w ws]; [discriminate Y|]. injection Y as Y _.
      specialize (W w ws eq_refl). subst w. repeat (destruct W as [W|W]; [discriminate W|]). destruct W. }
  split.
  - intros H. destruct (rne_routes int_t advanced _ n vs H) as [(_ & E & _)|[(_ & _ & E)|(-> & _)]].
    + exfalso. assert (X := W _ _ E). repeat (destruct X as [X|X]; [discriminate X|]). destruct X.
    + exfalso. destruct (flat_map rne_words opts) as [|w ws]; [discriminate E|]. injection E as ->.
      assert (X := W _ _ eq_refl). repeat (destruct X as [X|X]; [discriminate X|]). destruct X.
    + split; [reflexivity|]. destruct H as (before & c & after & E & _ & Hm).
      assert (Hc : c = m).
      { do 4 try (destruct before as [|? before]; [injection E as <- _|injection E as _ E]); [..|now destruct before].
        - exfalso. inversion Hm; match goal with H : is_mode rne_help = true |- _ => discriminate H | H : n_kind rne_help <> KHelp |- _ => now apply H end.
        - exfalso. inversion Hm; match goal with H : is_mode rne_version = true |- _ => discriminate H | _ => idtac end.
        - exfalso. destruct (P (rne_advanced int_t advanced) (or_intror (or_intror (or_introl eq_refl)))) as [_ X].
          inversion Hm; try discriminate; match goal with H : selects _ _ _ _ _ _ |- _ => inversion H; subst end; match goal with H : names_mode _ _ _ |- _ => exact (X _ H) | H : none_name _ = None |- _ => discriminate H end.
        - reflexivity. }
      subst c. inversion Hm as [m0 ps ts' its vs' Hmd Hs Hro Hrd Hd|label vals v Hmd]; [|discriminate Hmd]. subst.
      assert (ts' = map (Tok PNone) (flat_map rne_words opts)) as ->.
      { inversion Hs as [m1 ps1 ts1 Hx|m1 ps1 ts1 rest (_ & nm & Hx & _)|m1 ps1 ts1 rest bf d af m2 ps2 ts2 (_ & nm & Hx & _)]; subst; [reflexivity|discriminate Hx..]. }
      rewrite (reading_det _ _ _ _ Hrd _ Hr) in Hd. rewrite <- Ea. exact Hd.
  - intros [-> Hd]. exists [rne_help; rne_version; rne_advanced int_t advanced], m, []. split; [reflexivity|]. split; [exact P|].
    eapply means_mode; [reflexivity|apply sel_anonymous; reflexivity|reflexivity|exact Hr|]. rewrite Ea. exact Hd.
Qed.
End Base.

Lemma rne_option_calls int_t advanced opts n vs : NoDup (map rne_slot opts) -> (advanced = false -> forall s, ~ In (Licensed s) opts) ->
  in_memory (flat_map rne_words opts) ->
  calls_router (runtime_node_enable int_t advanced) [] (map (Tok PNone) (flat_map rne_words opts)) n vs <->
  n = rne_mode advanced /\ exists foo bar s, vs = [VBool foo; VBool bar; VStr s]
    /\ (foo = true <-> exists short, In (Foo short) opts) /\ (bar = true <-> exists short, In (Bar short) opts)
    /\ (In (Licensed s) opts \/ advanced = false /\ s = []).
Proof.
  intros Hn Ha Hm.
  rewrite (fresh_routes _ _ _ n vs (example_fresh _ _ (rne_well_formed int_t advanced) (rne_top int_t advanced) Hm)).
  rewrite (rne_option_routes advanced int_t opts n vs Hn Ha Hm). now rewrite (rne_option_values advanced opts vs Hn Ha).
Qed.

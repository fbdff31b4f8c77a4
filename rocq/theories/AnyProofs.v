(** Proofs about [unsafe_any] (C72). *)
From Coq Require Import Lia.
From Verif Require Import Bytes UnsafeAny SpecAny.

Lemma slot_eqb_spec x y : reflect (x = y) (slot_eqb x y).
Proof.
  destruct x as [a| |], y as [c| |]; cbn [slot_eqb]; try (constructor; congruence).
  destruct (Nat.eqb_spec a c) as [->|N]; constructor; congruence.
Qed.

(** Which objects are held by which [unsafe_any]. *)
Definition holding := slot -> option (option held).
Definition hold (C : holding) (s : slot) (x : option (option held)) : holding :=
  fun s' => if slot_eqb s' s then x else C s'.
Lemma hold_same C s x : hold C s x s = x.
Proof. unfold hold. destruct (slot_eqb_spec s s); congruence. Qed.
Lemma hold_other C s x s' : s' <> s -> hold C s x s' = C s'.
Proof. unfold hold. destruct (slot_eqb_spec s' s); congruence. Qed.

Section Any.
Variable fits_buffer : nat -> bool.

Definition any_of (x : option held) : any :=
  match x with
  | None => Any Null None None
  | Some h => Any (if fits_buffer (h_type h) then Buffer h else Pointer (h_id h)) (Some (h_type h)) (Some (h_type h))
  end.

Record rep (m : any_memory) (C : holding) : Prop := {
  rep_anys : forall s, am_anys m s = option_map any_of (C s);
  rep_blocks : forall p h, am_blocks m p = Some h <->
    exists s, C s = Some (Some h) /\ fits_buffer (h_type h) = false /\ h_id h = p;
  rep_one : forall s s' h h', C s = Some (Some h) -> C s' = Some (Some h') -> h_id h = h_id h' -> s = s';
  rep_live : forall s h, C s = Some (Some h) -> h_id h < am_made m /\ ~ In (h_id h) (am_gone m);
  rep_all : forall i, i < am_made m -> In i (am_gone m) \/ exists s h, C s = Some (Some h) /\ h_id h = i;
  rep_once : NoDup (am_gone m);
  rep_gone : forall i, In i (am_gone m) -> i < am_made m;
  rep_home : forall s h, C s = Some (Some h) -> fits_buffer (h_type h) = false -> h_made_at h = InBlock (h_id h)
}.

Lemma rep_ext m C C' : (forall s, C s = C' s) -> rep m C -> rep m C'.
Proof.
  intros E [A B O L G1 G2 G3 H]. constructor; auto.
  - intro s. rewrite <- E. apply A.
  - intros p h. rewrite B. split; intros (s & X); exists s; [rewrite <- E|rewrite E]; exact X.
  - intros s s' h h'. rewrite <- !E. apply O.
  - intros s h. rewrite <- E. apply L.
  - intros i Hi. destruct (G1 i Hi) as [X|(s & h & X)]; [left; exact X|right]. exists s, h. rewrite <- E. exact X.
  - intros s h. rewrite <- E. apply H.
Qed.

Lemma rep_object m C s h : rep m C -> C s = Some (Some h) -> any_object fits_buffer m (any_of (Some h)) (h_type h) = Some h.
Proof.
  intros R E. unfold any_object, any_of. cbn [a_storage]. destruct (fits_buffer (h_type h)) eqn:F.
  - rewrite Nat.eqb_refl. reflexivity.
  - rewrite (proj2 (rep_blocks _ _ R (h_id h) h) (ex_intro _ s (conj E (conj F eq_refl)))), Nat.eqb_refl. reflexivity.
Qed.

Lemma default_rep m C s : rep m C -> C s = None -> exists m', any_default m s = Did m' /\ rep m' (hold C s (Some None)).
Proof.
  intros R E. unfold any_default. rewrite (rep_anys _ _ R), E. cbn [option_map]. eexists. split; [reflexivity|].
  assert (K : forall s' h, hold C s (Some None) s' = Some (Some h) <-> C s' = Some (Some h)).
  { intros s' h. unfold hold. destruct (slot_eqb_spec s' s) as [->|N]; [|reflexivity]. rewrite E. split; discriminate. }
  destruct R as [A B O L G1 G2 G3 H]. constructor; cbn [set_any am_anys am_blocks am_made am_gone]; auto.
  - intro s'. unfold hold. destruct (slot_eqb s' s); [reflexivity|apply A].
  - intros p h. rewrite B. split; intros (s' & X); exists s'; [rewrite K|rewrite <- K]; exact X.
  - intros s1 s2 h h'. rewrite !K. apply O.
  - intros s' h. rewrite K. apply L.
  - intros i Hi. destruct (G1 i Hi) as [X|(s' & h & X)]; [left; exact X|right]. exists s', h. rewrite K. exact X.
  - intros s' h. rewrite K. apply H.
Qed.

Lemma make_rep m C s t v : rep m C -> C s = None ->
  exists m' h, any_make fits_buffer m s t v = Did m' /\ h_type h = t /\ h_value h = v /\ rep m' (hold C s (Some (Some h))).
Proof.
  intros R E. unfold any_make. rewrite (rep_anys _ _ R), E. cbn [option_map]. cbv zeta.
  destruct R as [A B O L G1 G2 G3 H].
  assert (K : forall h s' h', hold C s (Some (Some h)) s' = Some (Some h') <-> (s' = s /\ h' = h) \/ (s' <> s /\ C s' = Some (Some h'))).
  { intros h s' h'. unfold hold. destruct (slot_eqb_spec s' s) as [->|N].
    - split; [intros [= ->]; left; split; reflexivity|intros [(_ & ->)|(N & _)]; [reflexivity|contradiction]].
    - split; [intro X; right; split; assumption|intros [(X & _)|(_ & X)]; [contradiction|exact X]]. }
  assert (Fresh : forall s' h, C s' = Some (Some h) -> h_id h <> am_made m)
    by (intros s' h X; specialize (L s' h X); lia).
  assert (Rest : forall h blocks anys, h_id h = am_made m ->
    (fits_buffer (h_type h) = false -> h_made_at h = InBlock (h_id h)) ->
    (forall s', anys s' = option_map any_of (hold C s (Some (Some h)) s')) ->
    (forall p h', blocks p = Some h' <-> (fits_buffer (h_type h) = false /\ p = am_made m /\ h' = h) \/ am_blocks m p = Some h') ->
    rep (AMem anys blocks (S (am_made m)) (am_gone m)) (hold C s (Some (Some h)))).
  { intros h blocks anys Hid Hat Hanys Hblocks. constructor; cbn [am_anys am_blocks am_made am_gone]; auto.
    - intros p h'. rewrite Hblocks, B. split.
      + intros [(F & -> & ->)|(s' & X & F & Y)].
        * exists s. rewrite hold_same. repeat split; auto.
        * exists s'. split; [|split; assumption]. rewrite hold_other; [exact X|]. intros ->. congruence.
      + intros (s' & X & F & Y). apply K in X as [(-> & ->)|(N & X)].
        * left. repeat split; [exact F|congruence].
        * right. exists s'. repeat split; assumption.
    - intros s1 s2 h1 h2 X1 X2 Y. apply K in X1, X2.
      destruct X1 as [(-> & ->)|(N1 & X1)], X2 as [(-> & ->)|(N2 & X2)]; [reflexivity| | |exact (O _ _ _ _ X1 X2 Y)].
      + exfalso. apply (Fresh _ _ X2). congruence.
      + exfalso. apply (Fresh _ _ X1). congruence.
    - intros s' h' X. apply K in X as [(-> & ->)|(N & X)].
      + rewrite Hid. split; [lia|]. intro I. specialize (G3 _ I). lia.
      + destruct (L _ _ X) as (L1 & L2). split; [lia|exact L2].
    - intros i Hi. destruct (Nat.eq_dec i (am_made m)) as [->|N].
      + right. exists s, h. split; [apply hold_same|exact Hid].
      + destruct (G1 i ltac:(lia)) as [X|(s' & h' & X & Y)]; [left; exact X|right]. exists s', h'.
        split; [|exact Y]. rewrite hold_other; [exact X|]. intros ->. congruence.
    - intros i Hi. specialize (G3 i Hi). lia.
    - intros s' h' X F. apply K in X as [(-> & ->)|(N & X)]; [exact (Hat F)|exact (H _ _ X F)]. }
  destruct (fits_buffer t) eqn:F.
  - eexists. exists (Held (am_made m) t v (InBuffer s)). split; [reflexivity|]. split; [reflexivity|]. split; [reflexivity|].
    apply Rest; [reflexivity|cbn [h_type]; congruence| |].
    + intro s'. unfold hold. destruct (slot_eqb s' s); [|apply A]. unfold any_of. cbn [h_type option_map]. now rewrite F.
    + intros p h'. cbn [h_type]. split; [intro X; right; exact X|intros [(X & _)|X]; [congruence|exact X]].
  - eexists. exists (Held (am_made m) t v (InBlock (am_made m))). split; [reflexivity|]. split; [reflexivity|]. split; [reflexivity|].
    apply Rest; [reflexivity|reflexivity| |].
    + intro s'. unfold hold. destruct (slot_eqb s' s); [|apply A]. unfold any_of. cbn [h_type h_id option_map]. now rewrite F.
    + intros p h'. cbn [h_type]. destruct (Nat.eqb_spec p (am_made m)) as [->|N].
      * split; [intros [= <-]; left; repeat split; exact F|intros [(_ & _ & ->)|X]; [reflexivity|]].
        apply B in X as (s' & X & _ & Y). exfalso. apply (Fresh _ _ X Y).
      * split; [intro X; right; exact X|intros [(_ & X & _)|X]; [contradiction|exact X]].
Qed.

Lemma swap_rep m C s s' x y : rep m C -> C s = Some x -> C s' = Some y ->
  exists m', any_swap m s s' = Did m' /\ rep m' (hold (hold C s (Some y)) s' (Some x)).
Proof.
  intros R E1 E2. unfold any_swap. rewrite !(rep_anys _ _ R), E1, E2. cbn [option_map]. eexists. split; [reflexivity|].
  set (D := hold (hold C s (Some y)) s' (Some x)).
  (* the exchange as a map of the slots *)
  set (f := fun z => if slot_eqb z s' then s else if slot_eqb z s then s' else z).
  assert (Df : forall z, D z = C (f z)).
  { intro z. unfold D, f, hold. destruct (slot_eqb_spec z s') as [->|]; [congruence|].
    destruct (slot_eqb_spec z s) as [->|]; congruence. }
  assert (ff : forall z, f (f z) = z).
  { intro z. unfold f. destruct (slot_eqb_spec z s') as [->|N1].
    - destruct (slot_eqb_spec s s') as [->|N2]; [reflexivity|]. destruct (slot_eqb_spec s s); congruence.
    - destruct (slot_eqb_spec z s) as [->|N2].
      + destruct (slot_eqb_spec s' s'); congruence.
      + destruct (slot_eqb_spec z s'); [congruence|]. destruct (slot_eqb_spec z s); congruence. }
  destruct R as [A B O L G1 G2 G3 H]. constructor; cbn [set_any am_anys am_blocks am_made am_gone]; auto.
  - intro z. unfold D, hold. destruct (slot_eqb z s'); [reflexivity|]. destruct (slot_eqb z s); [reflexivity|apply A].
  - intros p h. rewrite B. split; intros (z & X); exists (f z); [rewrite Df, ff|rewrite <- Df]; exact X.
  - intros z1 z2 h h'. rewrite !Df. intros X1 X2 Y. rewrite <- (ff z1), <- (ff z2). f_equal. exact (O _ _ _ _ X1 X2 Y).
  - intros z h. rewrite Df. apply L.
  - intros i Hi. destruct (G1 i Hi) as [X|(z & h & X)]; [left; exact X|right]. exists (f z), h. rewrite Df, ff. exact X.
  - intros z h. rewrite Df. apply H.
Qed.

Lemma destroy_rep m C s x : rep m C -> C s = Some x ->
  exists m', any_destroy fits_buffer m s = Did m' /\ rep m' (hold C s None).
Proof.
  intros R E. unfold any_destroy. rewrite (rep_anys _ _ R), E. cbn [option_map].
  destruct x as [h|].
  - cbn [any_of a_destroyer]. fold (any_of (Some h)). rewrite (rep_object _ _ _ _ R E). cbv zeta.
    destruct R as [A B O L G1 G2 G3 H].
    assert (K : forall s' h', hold C s None s' = Some (Some h') <-> (s' <> s /\ C s' = Some (Some h'))).
    { intros s' h'. unfold hold. destruct (slot_eqb_spec s' s) as [->|N].
      - split; [discriminate|intros (N & _); contradiction].
      - split; [intro X; split; assumption|intros (_ & X); exact X]. }
    assert (Rest : forall blocks,
      (forall p h', blocks p = Some h' <-> am_blocks m p = Some h' /\ ~ (fits_buffer (h_type h) = false /\ p = h_id h)) ->
      rep (AMem (am_anys (set_any m s None)) blocks (am_made m) (h_id h :: am_gone m)) (hold C s None)).
    { intros blocks Hb. constructor; cbn [set_any am_anys am_blocks am_made am_gone]; auto.
      - intro s'. unfold hold. destruct (slot_eqb s' s); [reflexivity|apply A].
      - intros p h'. rewrite Hb, B. split.
        + intros ((s' & X & F & Y) & N). exists s'. split; [|split; assumption]. apply K. split; [|exact X].
          intros ->. apply N. split; [|congruence]. congruence.
        + intros (s' & X & F & Y). apply K in X as (N & X). split; [exists s'; repeat split; assumption|].
          intros (_ & ->). apply N. exact (O _ _ _ _ X E Y).
      - intros s1 s2 h1 h2 X1 X2. apply K in X1 as (_ & X1), X2 as (_ & X2). exact (O _ _ _ _ X1 X2).
      - intros s' h' X. apply K in X as (N & X). destruct (L _ _ X) as (L1 & L2). split; [exact L1|].
        intros [Y|Y]; [|exact (L2 Y)]. apply N. exact (O _ _ _ _ X E (eq_sym Y)).
      - intros i Hi. destruct (G1 i Hi) as [X|(s' & h' & X & Y)]; [left; right; exact X|].
        destruct (slot_eqb_spec s' s) as [->|N]; [left; left; congruence|right]. exists s', h'. split; [|exact Y].
        apply K. split; assumption.
      - constructor; [exact (proj2 (L _ _ E))|exact G2].
      - intros i [<-|Hi]; [exact (proj1 (L _ _ E))|exact (G3 i Hi)].
      - intros s' h' X. apply K in X as (_ & X). exact (H _ _ X). }
    destruct (fits_buffer (h_type h)) eqn:F.
    + eexists. split; [reflexivity|]. apply Rest. intros p h'. cbn [set_any am_blocks].
      split; [intro X; split; [exact X|intros (Y & _); discriminate]|intros (X & _); exact X].
    + unfold any_of. rewrite F. cbn [a_storage]. eexists. split; [reflexivity|]. apply Rest. intros p h'. cbn [set_any am_blocks].
      destruct (Nat.eqb_spec p (h_id h)) as [->|N].
      * split; [discriminate|]. intros (_ & N). exfalso. apply N. split; reflexivity.
      * split; [intro X; split; [exact X|intros (_ & Y); contradiction]|intros (X & _); exact X].
  - cbn [any_of a_destroyer]. eexists. split; [reflexivity|].
    assert (K : forall s' h', hold C s None s' = Some (Some h') <-> C s' = Some (Some h')).
    { intros s' h'. unfold hold. destruct (slot_eqb_spec s' s) as [->|N]; [|reflexivity]. rewrite E. split; discriminate. }
    destruct R as [A B O L G1 G2 G3 H]. constructor; cbn [set_any am_anys am_blocks am_made am_gone]; auto.
    + intro s'. unfold hold. destruct (slot_eqb s' s); [reflexivity|apply A].
    + intros p h. rewrite B. split; intros (s' & X); exists s'; [rewrite K|rewrite <- K]; exact X.
    + intros s1 s2 h h'. rewrite !K. apply O.
    + intros s' h. rewrite K. apply L.
    + intros i Hi. destruct (G1 i Hi) as [X|(s' & h & X)]; [left; exact X|right]. exists s', h. rewrite K. exact X.
    + intros s' h. rewrite K. apply H.
Qed.

Lemma set_rep m C s h v : rep m C -> C s = Some (Some h) ->
  exists m', any_set fits_buffer m s (h_type h) v = Did m'
    /\ rep m' (hold C s (Some (Some (Held (h_id h) (h_type h) v (h_made_at h))))).
Proof.
  intros R E. unfold any_set. rewrite (rep_anys _ _ R), E. cbn [option_map]. rewrite (rep_object _ _ _ _ R E). cbv zeta.
  set (h1 := Held (h_id h) (h_type h) v (h_made_at h)).
  destruct R as [A B O L G1 G2 G3 H].
  assert (K : forall s' h', hold C s (Some (Some h1)) s' = Some (Some h') ->
    exists h2, C s' = Some (Some h2) /\ h_id h2 = h_id h' /\ h_type h2 = h_type h' /\ h_made_at h2 = h_made_at h').
  { intros s' h'. unfold hold. destruct (slot_eqb_spec s' s) as [->|N].
    - intros [= <-]. exists h. repeat split. exact E.
    - intro X. exists h'. repeat split. exact X. }
  assert (Rest : forall anys blocks,
    (forall s', anys s' = option_map any_of (hold C s (Some (Some h1)) s')) ->
    (forall p h', blocks p = Some h' <-> exists s', hold C s (Some (Some h1)) s' = Some (Some h') /\ fits_buffer (h_type h') = false /\ h_id h' = p) ->
    rep (AMem anys blocks (am_made m) (am_gone m)) (hold C s (Some (Some h1)))).
  { intros anys blocks Ha Hb. constructor; cbn [am_anys am_blocks am_made am_gone]; auto.
    - intros s1 s2 x1 x2 X1 X2 Y. apply K in X1 as (y1 & X1 & I1 & _), X2 as (y2 & X2 & I2 & _).
      apply (O _ _ _ _ X1 X2). congruence.
    - intros s' h' X. apply K in X as (h2 & X & I & _). rewrite <- I. exact (L _ _ X).
    - intros i Hi. destruct (G1 i Hi) as [X|(s' & h' & X & Y)]; [left; exact X|right].
      destruct (slot_eqb_spec s' s) as [->|N].
      + exists s, h1. split; [apply hold_same|]. cbn. congruence.
      + exists s', h'. split; [|exact Y]. rewrite hold_other; assumption.
    - intros s' h' X F. apply K in X as (h2 & X & I & T & M). rewrite <- M, <- I. apply (H _ _ X). congruence. }
  destruct (fits_buffer (h_type h)) eqn:F; unfold any_of; rewrite F; cbn [a_storage a_copier a_destroyer];
    (eexists; split; [reflexivity|]).
  - apply Rest; cbn [set_any am_anys am_blocks].
    + intro s'. unfold hold. destruct (slot_eqb s' s); [|apply A]. cbn [option_map any_of h_type h1]. now rewrite F.
    + intros p h'. rewrite B. split; intros (s' & X & T & Y); exists s'.
      * split; [|split; assumption]. rewrite hold_other; [exact X|]. intros ->. congruence.
      * split; [|split; assumption]. unfold hold in X. destruct (slot_eqb_spec s' s) as [Q|N]; [|exact X].
        exfalso. injection X as X. rewrite <- X in T. cbn in T. congruence.
  - apply Rest.
    + intro s'. unfold hold. destruct (slot_eqb_spec s' s) as [->|N]; [|apply A]. rewrite A, E. cbn [option_map any_of h_type h_id h1]. now rewrite F.
    + intros p h'. destruct (Nat.eqb_spec p (h_id h)) as [->|N].
      * split.
        -- intros [= <-]. exists s. rewrite hold_same. repeat split. exact F.
        -- intros (s' & X & T & Y). unfold hold in X. destruct (slot_eqb_spec s' s) as [Q|N]; [congruence|].
           exfalso. apply N. exact (O _ _ _ _ X E Y).
      * rewrite B. split; intros (s' & X & T & Y); exists s'.
        -- split; [|split; assumption]. rewrite hold_other; [exact X|]. intros ->. congruence.
        -- split; [|split; assumption]. unfold hold in X. destruct (slot_eqb_spec s' s) as [Q|M]; [|exact X].
           exfalso. injection X as X. rewrite <- X in Y. apply N. symmetry. exact Y.
Qed.

(** The values. *)
Definition shown (x : option (option held)) : option (option (nat * nat)) :=
  option_map (option_map (fun h => (h_type h, h_value h))) x.

Record tied (w : any_world) (m : any_memory) (C : holding) : Prop := {
  tied_rep : rep m C;
  tied_values : forall a, w a = shown (C (Var a));
  tied_param : C Param = None;
  tied_temp : C Temp = None
}.

Lemma move_rep m C s o x : rep m C -> s <> o -> C s = None -> C o = Some x ->
  exists m', any_move m s o = Did m' /\ rep m' (hold (hold C s (Some x)) o (Some None)).
Proof.
  intros R N E1 E2. unfold any_move. destruct (default_rep m C s R E1) as (m1 & D1 & R1). rewrite D1. cbn [and_then].
  destruct (swap_rep m1 _ s o None x R1 (hold_same _ _ _)) as (m2 & D2 & R2); [rewrite hold_other; auto|].
  exists m2. split; [exact D2|]. refine (rep_ext _ _ _ _ R2). intro z. unfold hold.
  destruct (slot_eqb z o); [reflexivity|]. destruct (slot_eqb z s); reflexivity.
Qed.

Lemma copy_rep m C s o h : rep m C -> s <> o -> s <> Temp -> o <> Temp -> C s = None -> C Temp = None -> C o = Some (Some h) ->
  exists m' h', any_copy fits_buffer m s o = Did m' /\ h_type h' = h_type h /\ h_value h' = h_value h
    /\ rep m' (hold C s (Some (Some h'))).
Proof.
  intros R N1 N2 N3 E1 Et E2. unfold any_copy. rewrite !(rep_anys _ _ R), E1, E2. cbn [option_map any_of a_copier].
  fold (any_of (Some h)). rewrite (rep_object _ _ _ _ R E2).
  destruct (default_rep m C s R E1) as (m1 & D1 & R1). rewrite D1. cbn [and_then].
  destruct (make_rep m1 _ Temp (h_type h) (h_value h) R1) as (m2 & h' & D2 & T & V & R2); [rewrite hold_other; auto|].
  rewrite D2. cbn [and_then].
  destruct (swap_rep m2 _ s Temp None (Some h') R2) as (m3 & D3 & R3);
    [rewrite hold_other; [apply hold_same|exact N2]|apply hold_same|]. rewrite D3. cbn [and_then].
  destruct (destroy_rep m3 _ Temp None R3 (hold_same _ _ _)) as (m4 & D4 & R4).
  exists m4, h'. split; [exact D4|]. split; [exact T|]. split; [exact V|]. refine (rep_ext _ _ _ _ R4). intro z. unfold hold.
  destruct (slot_eqb_spec z Temp) as [->|]; [|destruct (slot_eqb z s); reflexivity].
  destruct (slot_eqb_spec Temp s); congruence.
Qed.

Lemma assign_rep m C a x param m1 C1 y : rep m C -> C (Var a) = Some x -> param m = Did m1 -> rep m1 C1 ->
  C1 Param = Some y -> (exists z, C1 (Var a) = Some z) ->
  exists m', any_assign fits_buffer m (Var a) param = Did m' /\ rep m' (hold (hold C1 (Var a) (Some y)) Param None).
Proof.
  intros R E P R1 Ep (z & Ez). unfold any_assign. rewrite (rep_anys _ _ R), E, P. cbn [option_map and_then].
  destruct (swap_rep m1 C1 (Var a) Param z y R1 Ez Ep) as (m2 & D2 & R2). rewrite D2. cbn [and_then].
  destruct (destroy_rep m2 _ Param z R2 (hold_same _ _ _)) as (m3 & D3 & R3).
  exists m3. split; [exact D3|]. refine (rep_ext _ _ _ _ R3). intro s. unfold hold.
  destruct (slot_eqb s Param); reflexivity.
Qed.

Lemma put_shown w C a x : (forall c, w c = shown (C (Var c))) ->
  forall c, put w a (shown x) c = shown (hold C (Var a) x (Var c)).
Proof. intros H c. unfold put, hold. cbn [slot_eqb]. destruct (Nat.eqb c a); [reflexivity|apply H]. Qed.

Lemma start_tied : tied no_anys any_start (fun _ => None).
Proof.
  constructor; try reflexivity. constructor; cbn [any_start am_anys am_blocks am_made am_gone].
  - reflexivity.
  - intros p h. split; [discriminate|]. intros (s & E & _). discriminate.
  - discriminate.
  - discriminate.
  - intros i Hi. lia.
  - constructor.
  - intros i [].
  - discriminate.
Qed.

Lemma shown_none x : shown x = None -> x = None.
Proof. destruct x; [discriminate|reflexivity]. Qed.
Lemma shown_some x y : shown x = Some y -> exists z, x = Some z /\ option_map (fun h => (h_type h, h_value h)) z = y.
Proof. destruct x as [z|]; [|discriminate]. intros [= <-]. exists z. split; reflexivity. Qed.

(** The outcome of an operation. *)
Definition after (r : any_outcome) : option any_memory := match r with Did m | Threw m => Some m | Wrong => None end.

Lemma step_tied w m C o w' : tied w m C -> any_meaning w o = Some w' ->
  exists m' C', after (any_step fits_buffer m o) = Some m' /\ tied w' m' C'.
Proof.
  intros [R V Np Nt] H. destruct o as [a|a t v|a c|a c|a c|a c|a t v|a t v|a c|a]; cbn [any_meaning any_step] in *;
    rewrite ?V in H.
  - (* AEmpty *)
    destruct (shown (C (Var a))) eqn:E; [discriminate|]. apply shown_none in E. injection H as <-.
    destruct (default_rep m C (Var a) R E) as (m' & D & R'). rewrite D.
    exists m', (hold C (Var a) (Some None)). split; [reflexivity|]. constructor; [exact R'| |exact Np|exact Nt].
    exact (put_shown w C a (Some None) V).
  - (* AMake *)
    destruct (shown (C (Var a))) eqn:E; [discriminate|]. apply shown_none in E. injection H as <-.
    destruct (make_rep m C (Var a) t v R E) as (m' & h & D & T & X & R'). rewrite D.
    exists m', (hold C (Var a) (Some (Some h))). split; [reflexivity|]. constructor; [exact R'| |exact Np|exact Nt].
    rewrite <- T, <- X. exact (put_shown w C a (Some (Some h)) V).
  - (* ACopy *)
    destruct (shown (C (Var a))) eqn:E; [discriminate|]. apply shown_none in E.
    destruct (shown (C (Var c))) as [y|] eqn:E2; [|discriminate]. apply shown_some in E2 as ([h|] & E2 & Y); cbn in Y; subst y;
      injection H as <-.
    + destruct (copy_rep m C (Var a) (Var c) h R) as (m' & h' & D & T & X & R'); [congruence|discriminate|discriminate|exact E|exact Nt|exact E2|].
      rewrite D. exists m', (hold C (Var a) (Some (Some h'))). split; [reflexivity|]. constructor; [exact R'| |exact Np|exact Nt].
      rewrite <- T, <- X. exact (put_shown w C a (Some (Some h')) V).
    + unfold any_copy. rewrite !(rep_anys _ _ R), E, E2. cbn [option_map any_of a_copier after].
      exists m, C. split; [reflexivity|]. constructor; assumption.
  - (* AMove *)
    destruct (shown (C (Var a))) eqn:E; [discriminate|]. apply shown_none in E.
    destruct (shown (C (Var c))) as [y|] eqn:E2; [|discriminate]. apply shown_some in E2 as (z & E2 & Y). injection H as <-.
    destruct (move_rep m C (Var a) (Var c) z R) as (m' & D & R'); [congruence|exact E|exact E2|]. rewrite D.
    eexists m', _. split; [reflexivity|]. constructor; [exact R'| |exact Np|exact Nt].
    rewrite <- Y. exact (put_shown _ _ c (Some None) (put_shown w C a (Some z) V)).
  - (* AAssign *)
    destruct (shown (C (Var a))) as [x|] eqn:E; [|discriminate]. apply shown_some in E as (x' & E & _).
    destruct (shown (C (Var c))) as [y|] eqn:E2; [|discriminate]. apply shown_some in E2 as ([h|] & E2 & Y); cbn in Y; subst y;
      injection H as <-.
    + destruct (copy_rep m C Param (Var c) h R) as (m1 & h' & D & T & X & R1); [discriminate|discriminate|discriminate|exact Np|exact Nt|exact E2|].
      destruct (assign_rep m C a x' (fun m1 => any_copy fits_buffer m1 Param (Var c)) m1 _ (Some h') R E D R1) as (m' & D' & R').
      { apply hold_same. } { exists x'. rewrite hold_other; [exact E|discriminate]. }
      rewrite D'. eexists m', _. split; [reflexivity|]. constructor; [exact R'| |reflexivity|exact Nt].
      rewrite <- T, <- X. exact (put_shown w C a (Some (Some h')) V).
    + unfold any_assign, any_copy. rewrite !(rep_anys _ _ R), E, E2, Np. cbn [option_map any_of a_copier and_then after].
      exists m, C. split; [reflexivity|]. constructor; assumption.
  - (* AAssignMoved *)
    destruct (shown (C (Var a))) as [x|] eqn:E; [|discriminate]. apply shown_some in E as (x' & E & _).
    destruct (shown (C (Var c))) as [y|] eqn:E2; [|discriminate]. apply shown_some in E2 as (z & E2 & Y). injection H as <-.
    destruct (move_rep m C Param (Var c) z R) as (m1 & D & R1); [discriminate|exact Np|exact E2|].
    destruct (assign_rep m C a x' (fun m1 => any_move m1 Param (Var c)) m1 _ z R E D R1) as (m' & D' & R').
    { rewrite hold_other by discriminate. apply hold_same. }
    { destruct (Nat.eq_dec a c) as [->|N]; [eexists; apply hold_same|]. exists x'.
      rewrite !hold_other by congruence. exact E. }
    rewrite D'. eexists m', _. split; [reflexivity|]. constructor; [exact R'| |reflexivity|exact Nt].
    rewrite <- Y. exact (put_shown _ _ a (Some z) (put_shown w C c (Some None) V)).
  - (* AAssignValue *)
    destruct (shown (C (Var a))) as [x|] eqn:E; [|discriminate]. apply shown_some in E as (x' & E & _). injection H as <-.
    destruct (make_rep m C Param t v R Np) as (m1 & h & D & T & X & R1).
    destruct (assign_rep m C a x' (fun m1 => any_make fits_buffer m1 Param t v) m1 _ (Some h) R E D R1) as (m' & D' & R').
    { apply hold_same. } { exists x'. rewrite hold_other; [exact E|discriminate]. }
    rewrite D'. eexists m', _. split; [reflexivity|]. constructor; [exact R'| |reflexivity|exact Nt].
    rewrite <- T, <- X. exact (put_shown w C a (Some (Some h)) V).
  - (* ASet *)
    destruct (shown (C (Var a))) as [[[t' u]|]|] eqn:E; try discriminate. apply shown_some in E as ([h|] & E & Y); cbn in Y; [|discriminate].
    injection Y as Yt Yv. destruct (Nat.eqb_spec t' t) as [->|]; [|discriminate]. injection H as <-. subst t.
    destruct (set_rep m C (Var a) h v R E) as (m' & D & R'). rewrite D.
    eexists m', _. split; [reflexivity|]. constructor; [exact R'| |exact Np|exact Nt].
    exact (put_shown w C a (Some (Some (Held (h_id h) (h_type h) v (h_made_at h)))) V).
  - (* ASwap *)
    destruct (shown (C (Var a))) as [x|] eqn:E; [|discriminate]. apply shown_some in E as (x' & E & X).
    destruct (shown (C (Var c))) as [y|] eqn:E2; [|discriminate]. apply shown_some in E2 as (y' & E2 & Y). injection H as <-.
    destruct (swap_rep m C (Var a) (Var c) x' y' R E E2) as (m' & D & R'). rewrite D.
    eexists m', _. split; [reflexivity|]. constructor; [exact R'| |exact Np|exact Nt].
    rewrite <- X, <- Y. exact (put_shown _ _ c (Some x') (put_shown w C a (Some y') V)).
  - (* ADestroy *)
    destruct (shown (C (Var a))) as [x|] eqn:E; [|discriminate]. apply shown_some in E as (x' & E & X). injection H as <-.
    destruct (destroy_rep m C (Var a) x' R E) as (m' & D & R'). rewrite D.
    eexists m', _. split; [reflexivity|]. constructor; [exact R'| |exact Np|exact Nt].
    exact (put_shown w C a None V).
Qed.

Lemma run_tied l : forall w m C w', tied w m C -> any_means w l = Some w' ->
  exists m' C', any_run fits_buffer m l = Some m' /\ tied w' m' C'.
Proof.
  induction l as [|o l IH]; intros w m C w' T H; cbn [any_means any_run] in *.
  - injection H as <-. exists m, C. split; [reflexivity|exact T].
  - destruct (any_meaning w o) as [w1|] eqn:E; [|discriminate].
    destruct (step_tied w m C o w1 T E) as (m1 & C1 & S & T1).
    destruct (IH w1 m1 C1 w' T1 H) as (m' & C' & S' & T'). exists m', C'. split; [|exact T'].
    destruct (any_step fits_buffer m o); cbn [after] in S; try discriminate; injection S as ->; exact S'.
Qed.

Lemma tied_get w m C a t v : tied w m C -> w a = Some (Some (t, v)) -> any_get fits_buffer m (Var a) t = Some v.
Proof.
  intros T E. rewrite (tied_values _ _ _ T) in E. apply shown_some in E as ([h|] & E & Y); cbn in Y; [|discriminate].
  injection Y as <- <-. unfold any_get. rewrite (rep_anys _ _ (tied_rep _ _ _ T)), E. cbn [option_map].
  rewrite (rep_object _ _ _ _ (tied_rep _ _ _ T) E). reflexivity.
Qed.
Lemma tied_has w m C a : tied w m C ->
  any_has_value m (Var a) = option_map (fun x => match x with Some _ => true | None => false end) (w a).
Proof.
  intro T. unfold any_has_value. rewrite (rep_anys _ _ (tied_rep _ _ _ T)), (tied_values _ _ _ T).
  destruct (C (Var a)) as [[h|]|]; reflexivity.
Qed.
Lemma tied_slot w m C s x : tied w m C -> C s = Some x -> exists a, s = Var a.
Proof.
  intros T E. destruct s as [a| |]; [eauto| |]; exfalso.
  - rewrite (tied_param _ _ _ T) in E. discriminate.
  - rewrite (tied_temp _ _ _ T) in E. discriminate.
Qed.
End Any.

(** How many objects are constructed. *)
Section Count.
Variable fits_buffer : nat -> bool.
Lemma then_did r f m : and_then r f = Did m -> exists m1, r = Did m1 /\ f m1 = Did m.
Proof. destruct r as [m1|m1|]; cbn; try discriminate. intro H. exists m1. split; [reflexivity|exact H]. Qed.
Lemma default_made m s m' : any_default m s = Did m' -> am_made m' = am_made m.
Proof. unfold any_default. destruct (am_anys m s); [discriminate|]. intros [= <-]. reflexivity. Qed.
Lemma make_made m s t v m' : any_make fits_buffer m s t v = Did m' -> am_made m' = S (am_made m).
Proof.
  unfold any_make. destruct (am_anys m s); [discriminate|]. cbv zeta.
  destruct (fits_buffer t); intros [= <-]; reflexivity.
Qed.
Lemma swap_made m s s' m' : any_swap m s s' = Did m' -> am_made m' = am_made m.
Proof.
  unfold any_swap. destruct (am_anys m s); [|discriminate]. destruct (am_anys m s'); [|discriminate].
  intros [= <-]. reflexivity.
Qed.
Lemma destroy_made m s m' : any_destroy fits_buffer m s = Did m' -> am_made m' = am_made m.
Proof.
  unfold any_destroy. destruct (am_anys m s) as [x|]; [|discriminate]. cbv zeta.
  destruct (a_destroyer x) as [t|]; [|intros [= <-]; reflexivity].
  destruct (any_object fits_buffer m x t) as [h|]; [|discriminate].
  destruct (fits_buffer t); [intros [= <-]; reflexivity|].
  destruct (a_storage x); try discriminate. intros [= <-]; reflexivity.
Qed.
Lemma set_made m s t v m' : any_set fits_buffer m s t v = Did m' -> am_made m' = am_made m.
Proof.
  unfold any_set. destruct (am_anys m s) as [x|]; [|discriminate].
  destruct (any_object fits_buffer m x t) as [h|]; [|discriminate]. cbv zeta.
  destruct (a_storage x); try discriminate; intros [= <-]; reflexivity.
Qed.
Lemma move_made m s o m' : any_move m s o = Did m' -> am_made m' = am_made m.
Proof.
  unfold any_move. intro H. apply then_did in H as (m1 & H1 & H2).
  rewrite (swap_made _ _ _ _ H2). exact (default_made _ _ _ H1).
Qed.
Lemma copy_made m s o m' : any_copy fits_buffer m s o = Did m' -> am_made m' = S (am_made m).
Proof.
  unfold any_copy. destruct (am_anys m s); [discriminate|]. destruct (am_anys m o) as [y|]; [|discriminate].
  destruct (a_copier y) as [t|]; [|discriminate]. destruct (any_object fits_buffer m y t) as [h|]; [|discriminate].
  intro H. apply then_did in H as (m1 & H1 & H). apply then_did in H as (m2 & H2 & H). apply then_did in H as (m3 & H3 & H).
  rewrite (destroy_made _ _ _ H), (swap_made _ _ _ _ H3), (make_made _ _ _ _ _ H2), (default_made _ _ _ H1). reflexivity.
Qed.
Lemma assign_made m s p n m' : any_assign fits_buffer m s p = Did m' -> (forall m1, p m = Did m1 -> am_made m1 = n) -> am_made m' = n.
Proof.
  unfold any_assign. destruct (am_anys m s); [|discriminate]. intros H Hp.
  apply then_did in H as (m1 & H1 & H). apply then_did in H as (m2 & H2 & H).
  rewrite (destroy_made _ _ _ H), (swap_made _ _ _ _ H2). exact (Hp _ H1).
Qed.
End Count.

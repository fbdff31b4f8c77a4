(** Property theorems about unsafe_any (C72). *)
From Coq Require Import Lia.
From Verif Require Import Bytes UnsafeAny SpecAny AnyProofs.

(** For every program that uses its variables as it may, and whichever types fit into the buffer: no
    operation has undefined behaviour, and every variable is empty or gives back its value. *)
Theorem c72_values : forall fits_buffer l w,
  any_means no_anys l = Some w ->
  exists m, any_run fits_buffer any_start l = Some m
    /\ (forall a, any_has_value m (Var a)
                  = match w a with None => None | Some None => Some false | Some (Some _) => Some true end)
    /\ (forall a t v, w a = Some (Some (t, v)) -> any_get fits_buffer m (Var a) t = Some v).
Proof.
  intros fb l w H. destruct (run_tied fb l _ _ _ w (start_tied fb) H) as (m & C & E & T).
  exists m. split; [exact E|]. split.
  - intro a. rewrite (tied_has fb w m C a T). destruct (w a) as [[x|]|]; reflexivity.
  - intros a t v. exact (tied_get fb w m C a t v T).
Qed.
Print Assumptions c72_values.

(** The variable [a] holds the object with this number. *)
Definition holds (fits_buffer : nat -> bool) (m : any_memory) (a i : nat) : Prop :=
  exists x t h, am_anys m (Var a) = Some x /\ a_destroyer x = Some t
    /\ any_object fits_buffer m x t = Some h /\ h_id h = i.

(** Each object that was ever constructed for an [unsafe_any] is either held by exactly one variable and
    not destroyed yet, or was destroyed exactly once and is held by none. *)
Theorem c72_once : forall fits_buffer l w m,
  any_means no_anys l = Some w -> any_run fits_buffer any_start l = Some m ->
  NoDup (am_gone m) /\ (forall i, In i (am_gone m) -> i < am_made m)
  /\ forall i, i < am_made m ->
       (In i (am_gone m) /\ forall a, ~ holds fits_buffer m a i)
       \/ (~ In i (am_gone m) /\ exists a, holds fits_buffer m a i /\ forall a', holds fits_buffer m a' i -> a' = a).
Proof.
  intros fb l w m H E. destruct (run_tied fb l _ _ _ w (start_tied fb) H) as (m' & C & E' & T).
  assert (m' = m) as -> by congruence. pose proof (tied_rep _ _ _ _ T) as R.
  assert (K : forall a i, holds fb m a i <-> exists h, C (Var a) = Some (Some h) /\ h_id h = i).
  { intros a i. unfold holds. split.
    - intros (x & t & h & X & D & O & I). rewrite (rep_anys _ _ _ R) in X.
      destruct (C (Var a)) as [[h'|]|] eqn:Ec; [|injection X as <-; discriminate|discriminate].
      cbn [option_map] in X. injection X as <-. cbn [any_of a_destroyer] in D. injection D as <-.
      fold (any_of fb (Some h')) in O. rewrite (rep_object _ _ _ _ _ R Ec) in O. injection O as <-. exists h'. split; [reflexivity|exact I].
    - intros (h & Ec & I). exists (any_of fb (Some h)), (h_type h), h. rewrite (rep_anys _ _ _ R), Ec.
      split; [reflexivity|]. split; [reflexivity|]. split; [exact (rep_object _ _ _ _ _ R Ec)|exact I]. }
  split; [exact (rep_once _ _ _ R)|]. split; [exact (rep_gone _ _ _ R)|].
  intros i Hi. destruct (rep_all _ _ _ R i Hi) as [G|(s & h & Ec & I)].
  - left. split; [exact G|]. intros a Ha. apply K in Ha as (h & Ec & <-). exact (proj2 (rep_live _ _ _ R _ _ Ec) G).
  - right. destruct (tied_slot _ _ _ _ _ _ T Ec) as (a & ->). split; [rewrite <- I; exact (proj2 (rep_live _ _ _ R _ _ Ec))|].
    exists a. split; [apply K; exists h; split; assumption|]. intros a' Ha. apply K in Ha as (h' & Ec' & I').
    assert (Q : Var a' = Var a) by (apply (rep_one _ _ _ R _ _ _ _ Ec' Ec); congruence). congruence.
Qed.
Print Assumptions c72_once.

(** When all variables are gone every object was destroyed and all memory was given back. *)
Theorem c72_released : forall fits_buffer l w m,
  any_means no_anys l = Some w -> any_run fits_buffer any_start l = Some m -> (forall a, w a = None) ->
  (forall i, i < am_made m -> In i (am_gone m)) /\ (forall p, am_blocks m p = None).
Proof.
  intros fb l w m H E N. destruct (run_tied fb l _ _ _ w (start_tied fb) H) as (m' & C & E' & T).
  assert (m' = m) as -> by congruence. pose proof (tied_rep _ _ _ _ T) as R.
  assert (Cn : forall s, C s = None).
  { intro s. destruct (C s) as [x|] eqn:Ec; [|reflexivity]. destruct (tied_slot _ _ _ _ _ _ T Ec) as (a & ->).
    specialize (N a). rewrite (tied_values _ _ _ _ T), Ec in N. discriminate. }
  split.
  - intros i Hi. destruct (rep_all _ _ _ R i Hi) as [G|(s & h & Ec & _)]; [exact G|]. rewrite Cn in Ec. discriminate.
  - intro p. destruct (am_blocks m p) as [h|] eqn:B; [|reflexivity]. apply (rep_blocks _ _ _ R) in B as (s & Ec & _).
    rewrite Cn in Ec. discriminate.
Qed.
Print Assumptions c72_released.

(** Copying makes one object, moving and exchanging none. *)
Theorem c72_constructions : forall fits_buffer m o m',
  any_step fits_buffer m o = Did m' ->
  am_made m' = am_made m + match o with
                           | AMake _ _ _ | ACopy _ _ | AAssign _ _ | AAssignValue _ _ _ => 1
                           | AEmpty _ | AMove _ _ | AAssignMoved _ _ | ASet _ _ _ | ASwap _ _ | ADestroy _ => 0
                           end.
Proof.
  intros fb m o m' H. destruct o; cbn [any_step] in H; rewrite ?Nat.add_0_r, ?Nat.add_1_r.
  - exact (default_made _ _ _ H).
  - exact (make_made _ _ _ _ _ _ H).
  - exact (copy_made _ _ _ _ _ H).
  - exact (move_made _ _ _ _ H).
  - apply (assign_made _ _ _ _ _ _ H). intros m1. apply copy_made.
  - apply (assign_made _ _ _ _ _ _ H). intros m1. apply move_made.
  - apply (assign_made _ _ _ _ _ _ H). intros m1. apply make_made.
  - exact (set_made _ _ _ _ _ _ H).
  - exact (swap_made _ _ _ _ H).
  - exact (destroy_made _ _ _ _ H).
Qed.
Print Assumptions c72_constructions.

(** Types 0 to 9 fit into the buffer. *)
Definition y_fits (t : nat) : bool := Nat.ltb t 10.
Definition y_program : list any_op :=
  [AMake 1 3 70; AMake 2 30 80; AEmpty 3; ACopy 4 1; ACopy 5 2; ASet 4 3 71; ASet 5 30 81; AMove 6 2; AAssign 2 5;
   AAssignMoved 3 1; ASwap 3 5; AAssignValue 6 4 90; AAssign 6 6; AAssignMoved 6 6; ACopy 7 1; ADestroy 4].
Example c72_example : exists w m,
  any_means no_anys y_program = Some w /\ any_run y_fits any_start y_program = Some m
  /\ map w [1; 2; 3; 4; 5; 6; 7]
     = [Some None; Some (Some (30, 81)); Some (Some (30, 81)); None; Some (Some (3, 70)); Some (Some (4, 90)); None]
  /\ map (fun p => any_get y_fits m (Var (fst p)) (snd p)) [(2, 30); (3, 30); (5, 3); (6, 4)]
     = [Some 81; Some 81; Some 70; Some 90]
  /\ am_made m = 7 /\ am_gone m = [2; 5; 1].
Proof.
  destruct (any_means no_anys y_program) as [w|] eqn:Ew; [|vm_compute in Ew; discriminate].
  destruct (any_run y_fits any_start y_program) as [m|] eqn:Em; [|vm_compute in Em; discriminate].
  exists w, m. split; [reflexivity|]. split; [reflexivity|].
  vm_compute in Ew, Em. injection Ew as <-. injection Em as <-. repeat split; vm_compute; reflexivity.
Qed.
Example c72_released_example : exists w,
  any_means no_anys (y_program ++ map ADestroy [1; 2; 3; 5; 6]) = Some w /\ forall a, w a = None.
Proof.
  eexists. split; [vm_compute; reflexivity|]. intro a. do 8 (destruct a as [|a]; [reflexivity|]). reflexivity.
Qed.

(** Copying one that holds a value gives an equal one (missing: one that is empty); *)
Theorem c72_copy_partial : forall fits_buffer l w m a c x,
  any_means no_anys l = Some w -> any_run fits_buffer any_start l = Some m ->
  w a = None -> w c = Some (Some x) ->
  exists m', any_step fits_buffer m (ACopy a c) = Did m'
    /\ any_get fits_buffer m' (Var a) (fst x) = Some (snd x) /\ any_get fits_buffer m' (Var c) (fst x) = Some (snd x).
Proof.
  intros fb l w m a c [t v] H E Ha Hc.
  destruct (run_tied fb l _ _ _ w (start_tied fb) H) as (m' & C & E' & T). assert (m' = m) as -> by congruence.
  assert (Hm : any_meaning w (ACopy a c) = Some (put w a (Some (Some (t, v))))) by (cbn [any_meaning]; rewrite Ha, Hc; reflexivity).
  destruct (step_tied fb w m C (ACopy a c) _ T Hm) as (m2 & C2 & S & T2).
  assert (Dd : any_step fb m (ACopy a c) = Did m2).
  { destruct T as [R V Np Nt]. rewrite V in Ha, Hc. apply shown_none in Ha. apply shown_some in Hc as ([h|] & Hc & Y); [|discriminate].
    destruct (copy_rep fb m C (Var a) (Var c) h R) as (m3 & h' & D & _); [congruence|discriminate|discriminate|exact Ha|exact Nt|exact Hc|].
    cbn [any_step] in S |- *. rewrite D in S |- *. cbn [after] in S. congruence. }
  exists m2. split; [exact Dd|]. cbn [fst snd]. split; apply (tied_get fb _ m2 C2 _ t v T2).
  - unfold put. rewrite Nat.eqb_refl. reflexivity.
  - unfold put. destruct (Nat.eqb_spec c a) as [->|_]; [reflexivity|exact Hc].
Qed.
Print Assumptions c72_copy_partial.

(** an empty one cannot be copied: [std::bad_function_call]. *)
Theorem c72_copy_refuted : exists l w m a c,
  any_means no_anys l = Some w /\ any_run y_fits any_start l = Some m /\ w a = None /\ w c = Some None
  /\ forall m', any_step y_fits m (ACopy a c) <> Did m'.
Proof.
  exists [AEmpty 1], (put no_anys 1 (Some None)). eexists. exists 2, 1.
  split; [reflexivity|]. split; [reflexivity|]. split; [reflexivity|]. split; [reflexivity|]. intros m' H. vm_compute in H. discriminate.
Qed.
Print Assumptions c72_copy_refuted.

(** An object that does not fit into the buffer stays where it was constructed (missing: the others); *)
Theorem c72_stays_partial : forall fits_buffer l w m a x t h,
  any_means no_anys l = Some w -> any_run fits_buffer any_start l = Some m ->
  am_anys m (Var a) = Some x -> a_destroyer x = Some t -> any_object fits_buffer m x t = Some h ->
  fits_buffer t = false -> exists p, a_storage x = Pointer p /\ am_blocks m p = Some h /\ h_made_at h = InBlock p.
Proof.
  intros fb l w m a x t h H E X D O F. destruct (run_tied fb l _ _ _ w (start_tied fb) H) as (m' & C & E' & T).
  assert (m' = m) as -> by congruence. pose proof (tied_rep _ _ _ _ T) as R.
  rewrite (rep_anys _ _ _ R) in X. destruct (C (Var a)) as [[h'|]|] eqn:Ec; [|injection X as <-; discriminate|discriminate].
  cbn [option_map] in X. injection X as <-. cbn [any_of a_destroyer] in D. injection D as <-.
  fold (any_of fb (Some h')) in O. rewrite (rep_object _ _ _ _ _ R Ec) in O. injection O as <-.
  exists (h_id h'). cbn [any_of a_storage]. rewrite F. split; [reflexivity|]. split.
  - apply (rep_blocks _ _ _ R). exists (Var a). repeat split; assumption.
  - exact (rep_home _ _ _ R _ _ Ec F).
Qed.
Print Assumptions c72_stays_partial.

(** an object in the buffer moves as bytes: it need not be where its constructor ran, which matters to
    types that keep their own address. *)
Theorem c72_stays_refuted : exists l w m a x h,
  any_means no_anys l = Some w /\ any_run y_fits any_start l = Some m
  /\ am_anys m (Var a) = Some x /\ any_object y_fits m x 3 = Some h /\ a_storage x = Buffer h /\ h_made_at h <> InBuffer (Var a).
Proof.
  exists [AMake 1 3 70; AMove 2 1]. do 2 eexists. exists 2. do 2 eexists.
  split; [reflexivity|]. split; [reflexivity|]. split; [reflexivity|]. split; [reflexivity|]. split; [reflexivity|].
  vm_compute. discriminate.
Qed.
Print Assumptions c72_stays_refuted.

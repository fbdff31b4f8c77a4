(** Property theorems about dynamic_string_view (C71). *)
From Verif Require Import Bytes StringView SpecView ViewProofs.

(** For every program that uses such objects as it may (each is made once and used until it is
    destroyed, and a text of somebody else is there when it is read), and whatever the capacity of the
    strings is: no operation reads memory that is gone, and every object shows the text that the
    sequence of operations says. *)
Theorem c71_values : forall small texts l w,
  value_run (value_start texts) l = Some w ->
  exists m, view_run small (view_start texts) l = Some m
    /\ forall o t, text w o = Some t -> read_object m o = Some t.
Proof.
  intros small texts l w H. destruct (run_related small l _ _ w (start_related texts) eq_refl H) as (m & E & R).
  exists m. split; [exact E|]. intros o t. apply related_text. exact R.
Qed.
Print Assumptions c71_values.

(** A text that was appended to or converted is kept by the object itself, so that it stays when the
    memory it came from goes away; any other is not copied. *)
Theorem c71_storage : forall small texts l w m,
  value_run (value_start texts) l = Some w -> view_run small (view_start texts) l = Some m ->
  forall o, (forall x, w_objects w o = Some (Owned x) -> storage_size m o = Some (List.length x))
            /\ (forall k, w_objects w o = Some (Borrowed k) -> storage_size m o = Some 0).
Proof.
  intros small texts l w m H E o. destruct (run_related small l _ _ w (start_related texts) eq_refl H) as (m' & E' & R).
  assert (m' = m) as -> by congruence. split; intros x Hx; exact (related_storage w m o _ R Hx).
Qed.
Print Assumptions c71_storage.

(** When all the objects are gone, so is the memory they used. *)
Theorem c71_released : forall small texts l w m,
  value_run (value_start texts) l = Some w -> view_run small (view_start texts) l = Some m ->
  (forall o, w_objects w o = None) -> forall p, mv_blocks m p = None.
Proof.
  intros small texts l w m H E Hn. destruct (run_related small l _ _ w (start_related texts) eq_refl H) as (m' & E' & R).
  assert (m' = m) as -> by congruence. exact (related_released w m R Hn).
Qed.
Print Assumptions c71_released.

(** As in dependency/detail.hpp:206: a bar and a label are joined (object 3) and stored (object 2); a
    short and a long text; then the texts that they were made of go away. *)
Definition v_texts (k : nat) : option bytes :=
  match k with 0 => Some (b "| ") | 1 => Some (b "--flag,-f") | 2 => Some (b " takes any number of values") | _ => None end.
Definition v_program : list view_op :=
  [VView 1 1; VView 2 1; VView 3 0; VAppendView false false 3 2; VMove 4 3; VAssignMoved 2 4;
   VCopy 5 2; VAppend true false 5 2; VAppendView true true 5 5; VSwap 5 2; VAssign 2 2; VAssignMoved 5 5; VConvert true 1;
   VFree 0; VFree 1; VFree 2; VDestroy 3].
Example c71_example : exists w m,
  value_run (value_start v_texts) v_program = Some w /\ view_run 15 (view_start v_texts) v_program = Some m
  /\ map (text w) [1; 2; 3; 4; 5]
     = [Some (b "--flag,-f"); Some (b "| --flag,-f takes any number of values| --flag,-f takes any number of values");
        None; Some []; Some (b "| --flag,-f")]
  /\ map (read_object m) [1; 2; 4; 5] = map (text w) [1; 2; 4; 5]
  /\ map (storage_size m) [1; 2; 4; 5] = [Some 9; Some 76; Some 0; Some 11].
Proof.
  destruct (value_run (value_start v_texts) v_program) as [w|] eqn:Ew; [|vm_compute in Ew; discriminate].
  destruct (view_run 15 (view_start v_texts) v_program) as [m|] eqn:Em; [|vm_compute in Em; discriminate].
  exists w, m. split; [reflexivity|]. split; [reflexivity|].
  vm_compute in Ew, Em. injection Ew as <-. injection Em as <-. repeat split; vm_compute; reflexivity.
Qed.
Example c71_released_example : exists w,
  value_run (value_start v_texts) (v_program ++ [VDestroy 1; VDestroy 2; VDestroy 4; VDestroy 5]) = Some w
  /\ forall o, w_objects w o = None.
Proof.
  eexists. split; [vm_compute; reflexivity|]. intros o. do 6 (destruct o as [|o]; [reflexivity|]). reflexivity.
Qed.

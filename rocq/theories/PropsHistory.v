(** Several parses with one root object: C17. *)
From Verif Require Import Bytes Token Result CodePoint Utf8 Tree PreParse Parse Root Build Validator.
From Verif Require Import SpecTake SpecMode SpecDeliver SpecRoot SpecReading SpecClaims SpecHistory.
From Verif Require Import ClaimProofs RunProofs HistoryProofs Demo.
Local Open Scope list_scope.

(** C17 is false in general, see [c17_one_of_refuted]: a one_of object keeps the alternative that an earlier parse
    used.  The theorems here say exactly what the state of the objects can do.

    For any tree, state and command line: the parse does exactly what it would do with a new object, with the same
    outcome, or it calls no router and throws that another alternative was used.  It is the latter if and only if
    the parse with a new object would set an object to another alternative than it has now. *)
Theorem c17_any_state_partial : forall r mem args,
  let used := root_parse r mem args in let new := root_parse r [] args in
  (agree mem (o_mem new) ->
     o_events used = o_events new /\ o_res used = o_res new
     /\ forall inst, mem_get (o_mem used) inst
          = match mem_get (o_mem new) inst with Some id => Some id | None => mem_get mem inst end)
  /\ (~ agree mem (o_mem new) ->
     o_events used = [] /\ exists t, o_res used = Throw (EML one_of_selected_type_mismatch [t])).
Proof. exact any_state. Qed.
Print Assumptions c17_any_state_partial.

(** In terms of what was typed: the router is called from state [mem] if the command line means it, and no object
    that it uses has another alternative from before. *)
Theorem c17_state_partial : forall r mem args n vs, fresh r [] args ->
  calls_router r mem args n vs <-> routes r args n vs
    /\ forall inst id earlier, chooses r args inst id -> mem_get mem inst = Some earlier -> earlier = id.
Proof. exact state_calls. Qed.
Print Assumptions c17_state_partial.

(** After a call the objects have the alternatives that this command line used, besides those from before. *)
Theorem c17_remembers_partial : forall r mem args n vs, fresh r [] args -> calls_router r mem args n vs ->
  forall inst id, mem_get (o_mem (root_parse r mem args)) inst = Some id
    <-> chooses r args inst id \/ mem_get mem inst = Some id.
Proof. exact state_after. Qed.
Print Assumptions c17_remembers_partial.

(** A sequence of parses with one object makes the calls that the command lines mean, each on its own, if and only
    if no two of them use different alternatives of the same one_of. *)
Theorem c17_sequence_partial : forall r lines calls, Forall (fresh r []) lines ->
  runs r [] lines calls <->
    Forall2 (fun args call => routes r args (fst call) (snd call)) lines calls
    /\ forall a a' inst id id', In a lines -> In a' lines ->
         chooses r a inst id -> chooses r a' inst id' -> id = id'.
Proof. exact runs_new. Qed.
Print Assumptions c17_sequence_partial.

(** demo copy --width 2 --zip 4 *)
Definition ex_zip : list token := to_tokens (map b ["copy"; "--width"; "2"; "--zip"; "4"]%string).
Definition ex_zip_values : list value :=
  [VBool false; VInt 0; VInt 3; VStr []; VStr []; VInt 2; VInt 4; VBool false; VList []; VStr []].
Lemma ex_zip_fresh : fresh demo [] ex_zip.
Proof. apply demo_fresh; [discriminate|vm_compute; reflexivity]. Qed.
Lemma ex_zip_run : calls_router demo [] ex_zip d_copy ex_zip_values.
Proof. apply demo_calls; [right; right; right; left; reflexivity|vm_compute; reflexivity]. Qed.

(** The demo with ex1, which does not use the one_of, twice with "--tar" and once with "--zip 4": the first three are
    a sequence in which every parse makes its call; with the last one there is no such sequence. *)
Example c17_history_example :
  Forall (fresh demo []) [ex1; ex2; ex2; ex_zip]
  /\ runs demo [] [ex1; ex2; ex2] [(d_copy, ex1_values); (d_copy, ex2_values); (d_copy, ex2_values)]
  /\ chooses demo ex2 1 19 /\ chooses demo ex_zip 1 18 /\ (forall inst id, ~ chooses demo ex1 inst id)
  /\ (forall calls, ~ runs demo [] [ex1; ex2; ex2; ex_zip] calls)
  /\ ~ agree (o_mem (root_parse demo [] ex2)) (o_mem (root_parse demo [] ex_zip)).
Proof.
  assert (R1 := proj1 (fresh_routes demo [] ex1 _ _ ex1_fresh) ex1_run).
  assert (R2 := proj1 (fresh_routes demo [] ex2 _ _ ex2_fresh) ex2_run).
  assert (R3 := proj1 (fresh_routes demo [] ex_zip _ _ ex_zip_fresh) ex_zip_run).
  pose proof (choices_memory demo ex1 _ _ ex1_fresh R1) as M1.
  pose proof (choices_memory demo ex2 _ _ ex2_fresh R2) as M2.
  pose proof (choices_memory demo ex_zip _ _ ex_zip_fresh R3) as M3.
  assert (E1 : o_mem (root_parse demo [] ex1) = []) by (vm_compute; reflexivity).
  assert (E2 : o_mem (root_parse demo [] ex2) = [(1, 19)]%N) by (vm_compute; reflexivity).
  assert (E3 : o_mem (root_parse demo [] ex_zip) = [(1, 18)]%N) by (vm_compute; reflexivity).
  rewrite E1 in M1. rewrite E2 in M2. rewrite E3 in M3.
  assert (F : Forall (fresh demo []) [ex1; ex2; ex2; ex_zip]).
  { repeat (constructor; [first [exact ex1_fresh|exact ex2_fresh|exact ex_zip_fresh]|]). constructor. }
  assert (C2 : chooses demo ex2 1 19) by (apply M2; reflexivity).
  assert (C3 : chooses demo ex_zip 1 18) by (apply M3; reflexivity).
  assert (C1 : forall inst id, ~ chooses demo ex1 inst id) by (intros inst id H; apply M1 in H; discriminate H).
  split; [exact F|]. split.
  { apply runs_new.
    - inversion F as [|? ? F1 F']; subst. inversion F' as [|? ? F2 F'']; subst. constructor; [exact F1|]. constructor; [exact F2|].
      constructor; [exact F2|constructor].
    - split; [constructor; [exact R1|constructor; [exact R2|constructor; [exact R2|constructor]]]|].
      assert (G : forall inst id id', chooses demo ex2 inst id -> chooses demo ex2 inst id' -> id = id').
      { intros inst id id' H H'. apply M2 in H, H'. congruence. }
      intros a a' inst id id' Ha Ha' H H'.
      destruct Ha as [<-|[<-|[<-|[]]]]; [now apply C1 in H| |];
        (destruct Ha' as [<-|[<-|[<-|[]]]]; [now apply C1 in H'| |]); now apply (G inst). }
  split; [exact C2|]. split; [exact C3|]. split; [exact C1|]. split.
  - intros calls H. apply runs_new in H as [_ H]; [|exact F]. clear - H C2 C3.
    specialize (H ex2 ex_zip 1%N 19%N 18%N (or_intror (or_introl eq_refl))).
    assert (X : (19 = 18)%N) by (apply H; [right; right; right; left; reflexivity|exact C2|exact C3]). discriminate X.
  - rewrite E2, E3. intros H. specialize (H 1%N 19%N 18%N eq_refl eq_refl). discriminate H.
Qed.

(** C91: the program examples/c++20/custom_policy_and_node, with a policy and a node of its own. *)
From Verif Require Import Bytes Token Result CodePoint Utf8 Tree PreParse Root Build Demo Message Caller.
From Verif Require Import Digits SpecNumeral SpecMessage SpecTokens SpecTake SpecMode SpecDeliver SpecRoot SpecReading SpecClaims.
From Verif Require Import Examples SpecExamples ExampleProofs ExampleEven EvenProofs.

Theorem c91_compile : forall read, well_formed (ev_tree read).
Proof. exact ev_well_formed. Qed.
Print Assumptions c91_compile.

(** Whatever the reader of numbers does, a router is called exactly for "--version" and for one even number. *)
Theorem c91_calls : forall read words n vs, (forall s v, read s = Ok v -> exists z, v = VInt z) -> in_memory words ->
  calls_router (ev_tree read) [] (map (Tok PNone) words) n vs <->
  (words = [b "--version"] /\ n = ev_version /\ vs = [VBool true])
  \/ (exists w z, words = [w] /\ ~ In w [b "--help"; b "-h"; b "--version"] /\ read w = Ok (VInt z) /\ Z.Even z
       /\ n = ev_mode read /\ vs = [VInt z]).
Proof. exact (fun read words n vs H => ev_calls read H words n vs). Qed.
Print Assumptions c91_calls.

(** the version is written for "--version"; *)
Theorem c91_version : forall vs, ev_write ev_version vs = b "v1.0.0" ++ [ascii_of_N 10].
Proof. reflexivity. Qed.
Print Assumptions c91_version.

(** otherwise the number is written; *)
Theorem c91_written : forall read z ds, writes (Z.abs_N z) ds ->
  ev_write (ev_mode read) [VInt z] = b "Value: " ++ (if (z <? 0)%Z then b "-" else []) ++ digits_text ds ++ [ascii_of_N 10].
Proof.
  intros read z ds H. unfold ev_write. change (N.eqb (n_id (ev_mode read)) (n_id ev_version)) with false. cbv iota.
  rewrite (int_text_writes z ds H), <- app_assoc. reflexivity.
Qed.
Print Assumptions c91_written.

(** an odd one is named in the error; *)
Theorem c91_odd : forall read w z ds, in_memory [w] -> ~ In w [b "--help"; b "-h"; b "--version"] ->
  read w = Ok (VInt z) -> Z.Odd z -> writes (Z.abs_N z) ds ->
  ev_main read [w] = ParseError (b "Value not even: " ++ (if (z <? 0)%Z then b "-" else []) ++ digits_text ds).
Proof.
  intros read w z ds Hm Hn Hr Ho Hw. rewrite <- (int_text_writes z ds Hw). exact (ev_odd read w z Hm Hn Hr Ho).
Qed.
Print Assumptions c91_odd.

(** a word that is no number is reported as it was typed. *)
Theorem c91_unreadable : forall read w, in_memory [w] -> ~ In w [b "--help"; b "-h"; b "--version"] ->
  read w = Throw (EML failed_to_parse [Tok PNone w]) -> ev_main read [w] = ParseError (b "Failed to parse: " ++ w).
Proof. exact ev_unreadable. Qed.
Print Assumptions c91_unreadable.

(** Without a number, and with more words behind it: *)
Theorem c91_count : forall read,
  ev_main read [] = ParseError (b "Missing required argument: Value")
  /\ forall w u us, in_memory (w :: u :: us) -> ~ In w [b "--help"; b "-h"; b "--version"] ->
     ev_main read (w :: u :: us) = ParseError (b "Unhandled arguments: " ++ joined (b ", ") (map (Tok PNone) (u :: us))).
Proof. intros read. split; [vm_compute; reflexivity|exact (ev_more read)]. Qed.
Print Assumptions c91_count.

(** [read] for a few words. *)
Example c91_example :
  let read s := if beq s (b "-107") then Ok (VInt (-107)) else if beq s (b "40") then Ok (VInt 40)
                else Throw (EML failed_to_parse [Tok PNone s]) in
  (forall s v, read s = Ok v -> exists z, v = VInt z)
  /\ in_memory [b "-107"] /\ ~ In (b "-107") [b "--help"; b "-h"; b "--version"] /\ Z.Odd (-107) /\ writes 107 [1; 0; 7]%N
  /\ ev_main read [b "-107"] = ParseError (b "Value not even: -107")
  /\ ev_main read [b "40"] = Returned /\ Z.Even 40
  /\ ev_write (ev_mode read) [VInt 40] = b "Value: 40" ++ [ascii_of_N 10]
  /\ ev_main read [b "x"] = ParseError (b "Failed to parse: x")
  /\ ev_main read [b "40"; b "40"] = ParseError (b "Unhandled arguments: 40")
  /\ ev_main read [] = ParseError (b "Missing required argument: Value").
Proof.
  cbv zeta. split.
  { intros s v H. destruct (beq s (b "-107")); [injection H as <-; now eexists|].
    destruct (beq s (b "40")); [injection H as <-; now eexists|discriminate H]. }
  split; [vm_compute; discriminate|]. split; [intros [E|[E|[E|[]]]]; discriminate E|].
  split; [exists (-54)%Z; reflexivity|]. split.
  { split; [|reflexivity]. split; [repeat constructor|discriminate|intros d ds' [=]]. }
  split; [vm_compute; reflexivity|]. split; [vm_compute; reflexivity|]. split; [exists 20%Z; reflexivity|].
  vm_compute. repeat split.
Qed.

(** C50 and C21. *)
From Verif Require Import Bytes Token Adapter SpecAdapter TokenProofs AdapterProofs.

(** C50: classification of a raw argument, and the round trip. *)
Theorem c50_prefix_classification : forall s,
  (t_prefix (get_token_type s) = PLong <-> exists r, s = b "--" ++ r)
  /\ (t_prefix (get_token_type s) = PShort
      <-> (exists r, s = b "-" ++ r) /\ ~ (exists r, s = b "--" ++ r))
  /\ token_str (get_token_type s) = s.
Proof.
  exact (fun s => conj (get_token_type_long s)
                       (conj (get_token_type_short s) (get_token_type_str s))).
Qed.
Print Assumptions c50_prefix_classification.

(** C50 at a node, which only looks for the prefixes of the kinds of name it has. *)
Theorem c50_prefix_classification_node : forall has_long has_short s,
  (t_prefix (get_token_type_for has_long has_short s) = PLong
   <-> has_long = true /\ exists r, s = b "--" ++ r)
  /\ (t_prefix (get_token_type_for has_long has_short s) = PShort
      <-> has_short = true /\ (exists r, s = b "-" ++ r) /\ ~ (exists r, s = b "--" ++ r))
  /\ token_str (get_token_type_for has_long has_short s) = s.
Proof.
  exact (fun hl hs s => conj (get_token_type_for_long hl hs s)
                       (conj (get_token_type_for_short hl hs s) (get_token_type_for_str hl hs s))).
Qed.
Print Assumptions c50_prefix_classification_node.

Example c50_examples :
  get_token_type (b "--foo") = Tok PLong (b "foo") /\ get_token_type (b "-f") = Tok PShort (b "f")
  /\ get_token_type (b "foo") = Tok PNone (b "foo").
Proof. repeat split. Qed.

(** C21: any sequence of operations on the adapter reads the same tokens as the same operations on
    the concatenation of its two vectors, leaves the same concatenation, and is undefined exactly
    when it is undefined on a plain list. *)
Theorem c21_adapter_is_one_sequence : forall os a,
  match adp_run a os with
  | Some (a', reads) => seq_run (a_proc a ++ a_unproc a) os = Some (a_proc a' ++ a_unproc a', reads)
  | None => seq_run (a_proc a ++ a_unproc a) os = None
  end.
Proof. exact adp_run_refines. Qed.
Print Assumptions c21_adapter_is_one_sequence.

(** C21: a transfer up to an element moves the boundary behind it and nothing else; the processed
    tokens never move back. *)
Theorem c21_transfer_boundary : forall a i,
  (0 <= i < Z.of_nat (List.length (a_proc a ++ a_unproc a)))%Z ->
  a_proc (transfer a (IAt i)) ++ a_unproc (transfer a (IAt i)) = a_proc a ++ a_unproc a
  /\ Z.of_nat (List.length (a_proc (transfer a (IAt i))))
     = Z.max (Z.of_nat (List.length (a_proc a))) (i + 1).
Proof.
  exact (fun a i H => conj (transfer_all a (IAt i))
           (transfer_proc_len a i
              (eq_ind_r (fun z => (0 <= i < z)%Z) H (a_size_all a)))).
Qed.
Print Assumptions c21_transfer_boundary.

(** The operations of the examples are allowed and not trivial. *)
Example c21_example :
  let x := Tok PNone (b "x") in let y := Tok PNone (b "y") in let z := Tok PLong (b "z") in
  adp_run (Adp [x] [y; x]) [OpInsert (Some 2%Z) [z; z]; OpErase (Some 0%Z); OpGet (Some 1%Z);
                            OpSet (Some 3%Z) y]
  = Some (Adp [y; z; z; y] [], [z]).
Proof. reflexivity. Qed.

(** C21: two iterators compare equal exactly when they stand at the same place of the sequence (all
    places past the last one are the end). *)
Theorem c21_equal : forall a i j ki kj,
  clamp (a_proc a ++ a_unproc a) i = Some ki -> clamp (a_proc a ++ a_unproc a) j = Some kj ->
  (i_eqb a (to_iter i) (to_iter j) = true <-> ki = kj).
Proof. exact i_eqb_spec. Qed.
Print Assumptions c21_equal.

(** C21: a loop over the adapter visits every token of the sequence once, in order, and ends. *)
Theorem c21_loop : forall a,
  adp_loop (S (List.length (a_proc a ++ a_unproc a))) a (IAt 0) = Some (a_proc a ++ a_unproc a).
Proof. exact (fun a => loop_spec a _ 0 (Nat.add_0_r _)). Qed.
Print Assumptions c21_loop.

Example c21_equal_example :
  let x := Tok PNone (b "x") in let a := Adp [x] [x] in
  i_eqb a (IAt 5) IEnd = true /\ i_eqb a (IAt 1) (IAt 1) = true /\ i_eqb a (IAt 1) IEnd = false
  /\ i_eqb a (IAt 0) (IAt 1) = false.
Proof. repeat split. Qed.

(** Compile-time strings: C77. *)
From Verif Require Import Bytes Token Result CodePoint Utf8 Tree PreParse Parse Root Build Validator CtString.
From Verif Require Import SpecCt CtProofs Demo Oddities.
Local Open Scope list_scope.

(** A compile-time string has the text that it was made from, in whichever of the ways; [size], [empty] and
    [get] speak of that text. *)
Theorem c77_text : forall s,
  holds s (ct_text s) /\ ct_size s = List.length (ct_text s) /\ (ct_empty s = true <-> ct_text s = []) /\
  (nul_free s -> ct_text (from_literal s) = s /\ ct_text (from_array s) = s) /\
  (forall c, c <> "000"%char -> ct_text (from_char c) = [c]).
Proof.
  intros s. split; [apply text_holds|]. split; [symmetry; apply text_size|]. split.
  - unfold ct_empty. rewrite <- text_size, Nat.eqb_eq. destruct (ct_text s); [easy|]. split; discriminate.
  - split; [intros H; split; [now apply text_literal|now apply text_array]|].
    intros c Hc. apply text_unique. split; [|now left]. intros [E|[]]. now apply Hc.
Qed.
Print Assumptions c77_text.

(** The operations do to the texts what they say. *)
Theorem c77_operations : forall s s' pos count,
  ct_text (ct_join s s') = ct_text s ++ ct_text s' /\
  ((exists r, ct_substr pos count s = Some r) <-> pos + count < List.length (ct_text s)) /\
  (forall r, ct_substr pos count s = Some r -> ct_text r = part pos count (ct_text s)) /\
  (forall c, c <> "000"%char -> ct_text (ct_sequence count c) = repeat c count).
Proof.
  intros s s' pos count. split; [apply text_join|]. split.
  - split; [intros [r H]; now apply substr_text in H|]. intros H. eexists. apply substr_text. split; [exact H|reflexivity].
  - split.
    + intros r H. apply substr_text in H as [_ ->]. apply text_literal, part_nul_free, text_nul_free.
    + intros c Hc. rewrite sequence_repeat. apply text_array. intros Hin. apply repeat_spec in Hin. now apply Hc.
Qed.
Print Assumptions c77_operations.

(** With C++20, string literals and the results of the operations are the same type iff they have the same
    text.  Missing: strings made from a character, an array or a span (refuted: [c77_types_refuted]). *)
Theorem c77_types_partial : forall s t u v pos count r,
  nul_free s -> nul_free t ->
  (from_literal s = from_literal t <-> s = t) /\
  (ct_join u v = from_literal s <-> ct_text u ++ ct_text v = s) /\
  (ct_substr pos count u = Some r -> (r = from_literal s <-> part pos count (ct_text u) = s)).
Proof.
  intros s t u v pos count r Hs Ht.
  assert (E : forall x y, from_literal x = from_literal y <-> x = y).
  { intros x y. unfold from_literal. split; [intros H; now apply app_inj_tail in H|congruence]. }
  split; [apply E|]. split; [rewrite join_literal; apply E|]. intros H. apply substr_text in H as [_ ->]. apply E.
Qed.
Print Assumptions c77_types_partial.

(** With C++20, a name that is written as a character is another type than the same name written as a
    literal. *)
Theorem c77_types_refuted : exists c,
  ct_text (from_char c) = ct_text (from_literal [c]) /\ from_char c <> from_literal [c] /\
  ct_text (from_array [c]) = ct_text (from_literal [c]) /\ from_array [c] <> from_literal [c].
Proof. exists "h"%char. repeat split; discriminate. Qed.
Print Assumptions c77_types_refuted.

(** With C++17, a text compiles iff it is shorter than AR_MAX_CTS_SIZE, as a literal or as a view; the type
    is the text. *)
Theorem c77_packs : forall limit s, nul_free s ->
  ((exists p, pack_of limit s = Some p) <-> List.length s < limit) /\
  (forall p, pack_of limit s = Some p -> p = s) /\
  pack_of limit (from_literal s) = pack_of limit s.
Proof.
  intros limit s H. split; [|split].
  - split; [intros [p Hp]; now apply pack_text in Hp|]. intros Hl. exists s. now apply pack_text.
  - intros p Hp. now apply pack_text in Hp.
  - now apply pack_literal.
Qed.
Print Assumptions c77_packs.

(** The error name of an alias_group or one_of is made of the display name and the names of the members,
    with commas in between, with C++20 and with C++17. *)
Theorem c77_group_names : forall limit display names, names <> [] ->
  Forall (fun pn => nul_free (fst pn) /\ nul_free (snd pn) /\ List.length (fst pn) < limit /\ List.length (snd pn) < limit) names ->
  nul_free display ->
  group_name20 (from_literal display) names = Some (from_literal (display ++ commas (map (fun pn => fst pn ++ snd pn) names))) /\
  group_name17 limit display names = Some (display ++ commas (map (fun pn => fst pn ++ snd pn) names)).
Proof.
  intros limit display names Hne Hn Hd. split; [|now apply group17].
  rewrite group20; [now rewrite text_literal|exact Hne|]. eapply Forall_impl; [|exact Hn]. cbn beta. tauto.
Qed.
Print Assumptions c77_group_names.

(** A tree of C++20 strings is accepted iff it is according to the texts of the names.  Missing: trees in
    which the same name is written in two ways (refuted: [c77_duplicate_refuted], [c77_reference_refuted]). *)
Theorem c77_tree_partial : forall r, one_spelling r -> accepted20 r = accepted (with_texts r).
Proof. exact accepted_spelling. Qed.
Print Assumptions c77_tree_partial.

(** Trees with one flag [-f] written with a character and one written with a literal; resp. an alias. *)
Definition lit (s : string) : bytes := from_literal (b s).
Definition twice_f := root [] [mode 5 [PNoneName (lit "run"); PRouter]
  [flag 1 [PLongName (lit "foo"); PShortName (from_char "f")]; flag 2 [PLongName (lit "bar"); PShortName (lit "f")]]].
Definition alias_f (short : bytes) := root [] [mode 5 [PNoneName (lit "run"); PRouter]
  [flag 1 [PLongName (lit "foo"); PShortName (from_char "f")];
   flag 2 [PLongName (lit "bar"); PAlias [NShort short]]]].

(** Two flags with the same short name are accepted in the same mode; [-f] is the first of them. *)
Theorem c77_duplicate_refuted : exists r,
  accepted20 r = true /\ accepted (with_texts r) = false /\
  (exists m f g, In m (n_children (with_texts r)) /\ n_children m = [f; g] /\ n_id f <> n_id g /\
     short_name f = Some (b "f") /\ short_name g = Some (b "f")) /\
  calls_of (with_texts r) [] (map b ["run"; "-f"]%string) = [(5%N, [VBool true; VBool false])].
Proof.
  exists twice_f. split; [vm_compute; reflexivity|]. split; [vm_compute; reflexivity|]. split.
  - exists (mode 5 [PNoneName (b "run"); PRouter]
      [flag 1 [PLongName (b "foo"); PShortName (b "f")]; flag 2 [PLongName (b "bar"); PShortName (b "f")]]),
      (flag 1 [PLongName (b "foo"); PShortName (b "f")]), (flag 2 [PLongName (b "bar"); PShortName (b "f")]).
    split; [left; reflexivity|]. split; [reflexivity|]. split; [discriminate|]. split; reflexivity.
  - vm_compute. reflexivity.
Qed.
Print Assumptions c77_duplicate_refuted.

(** An alias for a short name is refused if the node has it written in the other way. *)
Theorem c77_reference_refuted : exists r, accepted20 r = false /\ accepted (with_texts r) = true.
Proof. exists (alias_f (lit "f")). split; vm_compute; reflexivity. Qed.
Print Assumptions c77_reference_refuted.

Definition one_spelling_b (r : node) : bool :=
  forallb (fun s => forallb (fun t => negb (beq (ct_text s) (ct_text t)) || beq s t) (strings r)) (strings r).
Lemma one_spelling_check r : one_spelling_b r = true -> one_spelling r.
Proof.
  intros H st st' s H1 H2 T1 T2. unfold one_spelling_b in H. rewrite forallb_forall in H. specialize (H _ H1).
  rewrite forallb_forall in H. specialize (H _ H2). apply text_unique in T1. apply text_unique in T2. rewrite T1, T2, beq_refl in H.
  now apply beq_eq in H.
Qed.

Example c77_example :
  one_spelling (alias_f (from_char "f")) /\ accepted20 (alias_f (from_char "f")) = true /\
  accepted20 (named (fun s => s ++ [nul]) demo) = true /\ one_spelling (named (fun s => s ++ [nul]) demo) /\
  ct_text (ct_join (from_char "a") (lit "bc")) = b "abc" /\
  option_map ct_text (ct_substr 1 2 (lit "abcd")) = Some (b "bc") /\ ct_substr 0 4 (lit "abcd") = None /\
  ct_text (ct_sequence 3 "x") = b "xxx" /\
  pack_of 4 (b "abc") = Some (b "abc") /\ pack_of 3 (b "abc") = None /\
  option_map ct_text (group_name20 (lit "One of: ") [(b "--", b "xx"); (b "-", b "y")]) = Some (b "One of: --xx,-y") /\
  group_name17 128 (b "One of: ") [(b "--", b "xx"); (b "-", b "y")] = Some (b "One of: --xx,-y").
Proof.
  split; [apply one_spelling_check; vm_compute; reflexivity|]. split; [vm_compute; reflexivity|].
  split; [vm_compute; reflexivity|]. split; [apply one_spelling_check; vm_compute; reflexivity|].
  split; [reflexivity|]. split; [reflexivity|]. split; [reflexivity|]. split; [reflexivity|]. split; [reflexivity|].
  split; [reflexivity|]. split; [vm_compute; reflexivity|vm_compute; reflexivity].
Qed.

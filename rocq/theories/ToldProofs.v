(** Lemmas on what the caller is told: C65. *)
From Verif Require Import Bytes Token Result Tree PreParse Parse Root Message Caller.
From Verif Require Import SpecTokens SpecSuggest SpecTake SpecMode SpecDeliver SpecRoot SpecReading SpecClaims SpecFault SpecOutcome.
From Verif Require Import SpecMessage SpecTold MessageProofs ExactProofs.

Lemma written_plain m : written (Template m []) = m.
Proof. unfold written. cbn [tp_text tp_holes flat_map]. apply app_nil_r. Qed.

Lemma plain_check t : forallb (fun x => negb (Ascii.eqb x "{" || Ascii.eqb x "}")) t = true -> plain t.
Proof. intros H. rewrite forallb_forall in H. split; intro I; specialize (H _ I); discriminate. Qed.

Lemma default_entry i c m (D := default_translations) : nth_error D i = Some (c, m) ->
  forallb (fun e => negb (N.eqb (ecode_num (fst e)) (ecode_num c))) (firstn i D) = true ->
  first_entry D c m.
Proof.
  intros Hn H1. exists (firstn i D), c, (skipn (S i) D). split; [|split; [reflexivity|]].
  - clear H1. revert i Hn. induction D as [|x l IH]; intros [|i] Hn; try discriminate.
    + injection Hn as ->. reflexivity.
    + cbn [firstn app skipn]. f_equal. now apply IH.
  - intros e He. rewrite forallb_forall in H1. specialize (H1 e He). intro Z. rewrite Z, N.eqb_refl in H1. discriminate.
Qed.

Lemma words_entry c : c <> unknown_argument_with_suggestion -> (forall n, c <> user_code n) ->
  first_entry default_translations c (words c) /\ plain (words c).
Proof.
  intros H1 H2. split.
  - destruct c;
    [ apply (default_entry 0) | apply (default_entry 1) | apply (default_entry 2) | apply (default_entry 3)
    | apply (default_entry 4) | apply (default_entry 5) | apply (default_entry 6) | apply (default_entry 7)
    | apply (default_entry 8) | now elim H1
    | apply (default_entry 10) | apply (default_entry 11) | apply (default_entry 12) | apply (default_entry 13)
    | apply (default_entry 14) | apply (default_entry 15) | now elim (H2 n) ]; vm_compute; reflexivity.
  - apply plain_check. destruct c; vm_compute; reflexivity.
Qed.

Section Texts.
Variable text_of : token -> bytes.

Lemma told_plain c ts : c <> unknown_argument_with_suggestion -> (forall n, c <> user_code n) ->
  translate_of text_of [] default_translations c ts
  = Ok (words c ++ match ts with [] => [] | _ :: _ => b ": " ++ joined_of text_of (b ", ") ts end).
Proof.
  intros H1 H2. destruct (words_entry c H1 H2) as [E P].
  rewrite (translates text_of [] default_translations c ts (Template (words c) [])); [reflexivity| | |].
  - cbn [app]. now rewrite written_plain.
  - split; [exact P|constructor].
  - intros [|x before] h after Eq; discriminate.
Qed.

Lemma told_translated c ts m : told_of text_of c ts m -> translate_of text_of [] default_translations c ts = Ok m.
Proof.
  assert (S : forall ts, translate_of text_of [] default_translations unknown_argument_with_suggestion ts
      = Ok (message_of text_of (Template (b "Unknown argument: ") [([], b ". Did you mean "); (b " ", b "?")]) ts)).
  { clear. intros ts.
    rewrite (translates text_of [] default_translations _ _
              (Template (b "Unknown argument: ") [([], b ". Did you mean "); (b " ", b "?")])); [reflexivity|..].
    - apply (default_entry 9); vm_compute; reflexivity.
    - split; [apply plain_check; reflexivity|]. repeat constructor; apply plain_check; reflexivity.
    - intros [|x [|y before]] h after E Hn; cbn [tp_holes app] in E.
      + injection E as <- <-. now elim Hn.
      + injection E as _ _ <-. reflexivity.
      + injection E as _ _ E. now destruct before. }
  intros [c' H1 H2|c' ts' H1 H2 H3| |t ss].
  - rewrite told_plain by assumption. now rewrite app_nil_r.
  - rewrite told_plain by assumption. destruct ts' as [|t ts']; [contradiction|reflexivity].
  - rewrite S. reflexivity.
  - rewrite S. unfold message_of. cbn [tp_holes tp_text filled_of]. now rewrite app_nil_r.
Qed.

Lemma told_total c ts : (forall n, c <> user_code n) -> exists m, told_of text_of c ts m.
Proof.
  intros H. assert (D : c = unknown_argument_with_suggestion \/ c <> unknown_argument_with_suggestion)
    by (destruct c; (now left) || (right; discriminate)).
  destruct D as [->|D].
  - destruct ts as [|t ss]; eexists; [apply told_suggestion_bare|apply told_suggestion].
  - destruct ts as [|t ts]; eexists; [now apply told_bare|apply told_tokens; auto; discriminate].
Qed.

Lemma seen_as x s : sees_of text_of x s -> caller_sees_of text_of [] default_translations x = s.
Proof.
  intros H. destruct H as [|c ts m H| | | | |]; try reflexivity.
  cbn [caller_sees_of]. now rewrite (told_translated c ts m H).
Qed.

Lemma seen_total x : (forall n ts, x <> Throw (EML (user_code n) ts)) -> exists s, sees_of text_of x s.
Proof.
  intros H. destruct x as [[]|[c ts| |]| | |]; try (eexists; constructor; fail).
  destruct (told_total c ts) as (m & Hm); [intros n ->; now elim (H n ts)|]. exists (ParseError m). now constructor.
Qed.
End Texts.

Lemma sees_call r mem argv s : sees (o_res (root_parse_strings r mem argv)) s ->
  parse_call [] default_translations r mem argv = s.
Proof. exact (seen_as token_str _ s). Qed.

Lemma help_no_return h root vals tr : ~ In PRouter (n_pols h) -> snd (help_parse h [root] vals tr) <> Ok None
  /\ forall v, snd (help_parse h [root] vals tr) <> Ok v.
Proof.
  intros H. assert (R : has_router h = false).
  { unfold has_router. destruct (existsb _ (n_pols h)) eqn:E; [|reflexivity].
    apply existsb_exists in E as (p & Hin & Hp). destruct p; try discriminate. contradiction. }
  assert (G : forall v, snd (help_parse h [root] vals tr) <> Ok v).
  { intros v. unfold help_parse. cbn [rev app]. unfold ebind, elift, emit.
    destruct (find_help_target vals root) as [t| | | |]; try discriminate. rewrite R. discriminate. }
  split; [apply G|exact G].
Qed.

Lemma returns_iff r mem argv : fresh r mem (to_tokens argv) ->
  (forall h, In h (n_children r) -> n_kind h = KHelp -> ~ In PRouter (n_pols h)) ->
  (parse_call [] default_translations r mem argv = Returned
   <-> exists n vs, routes r (to_tokens argv) n vs).
Proof.
  intros [Hw Hun Hf Hne] Hh. unfold parse_call, root_parse_strings.
  destruct (root_outcome r mem (to_tokens argv) Hw Hun Hf Hne)
    as [(n & vs & Hr & _ & ->)|(Hn & H)].
  - split; [|reflexivity]. intros _. now exists n, vs.
  - split; [|intros (n & vs & Hr); now elim (Hn n vs)]. intros E. exfalso.
    destruct H as [(h & vals & W & _ & _ & Eo)|(x & _ & _ & Ho)].
    + rewrite Eo in E. destruct W as (bf & af & lb & Hcs & _ & Hk & _).
      assert (Hin : In h (n_children r)) by (rewrite Hcs; apply in_elt).
      destruct (help_no_return h r vals [] (Hh h Hin Hk)) as [_ G].
      destruct (snd (help_parse h [r] vals [])) as [v|[c ts| |]| | |]; cbn [rbind caller_sees_of] in E; try discriminate.
      * now elim (G v).
      * destruct (translate [] default_translations c ts); discriminate.
    + destruct (o_res (root_parse r mem (to_tokens argv))) as [v|[c ts| |]| | |]; cbn [caller_sees_of] in E; try discriminate.
      * exact Ho.
      * destruct (translate [] default_translations c ts); discriminate.
Qed.

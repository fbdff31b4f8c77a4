(** C65: what the caller of parse() is told. *)
From Verif Require Import Bytes Token Result CodePoint Utf8 Tree PreParse Parse Root Build Validator Message Caller.
From Verif Require Import SpecTokens SpecSuggest SpecTake SpecMode SpecDeliver SpecRoot SpecReading SpecClaims SpecFault SpecOutcome.
From Verif Require Import SpecMessage SpecTold ReadProofs ExactProofs BlameProofs ToldProofs Demo PropsFault.

(** How a parse ends is what the caller sees, with the library's own words. *)
Theorem c65_seen : forall r mem argv s,
  sees (o_res (root_parse_strings r mem argv)) s -> parse_call [] default_translations r mem argv = s.
Proof. exact sees_call. Qed.
Print Assumptions c65_seen.

(** Every end but an exception of the user's own is covered. *)
Theorem c65_seen_total : forall x, (forall n ts, x <> Throw (EML (user_code n) ts)) -> exists s, sees x s.
Proof. exact (seen_total token_str). Qed.
Print Assumptions c65_seen_total.

(** The call returns exactly if the command line is correct (a help argument with a router of its own,
    which also returns, aside). *)
Theorem c65_returns : forall r mem argv, fresh r mem (to_tokens argv) ->
  (forall h, In h (n_children r) -> n_kind h = KHelp -> ~ In PRouter (n_pols h)) ->
  (parse_call [] default_translations r mem argv = Returned
   <-> exists n vs, routes r (to_tokens argv) n vs).
Proof. exact returns_iff. Qed.
Print Assumptions c65_returns.

(** For a wrong command line the message says what is wrong with it. *)
Theorem c65_wrong : forall r mem argv c ts m, fresh r mem (to_tokens argv) ->
  fails r (to_tokens argv) (Throw (EML c ts)) -> told c ts m ->
  parse_call [] default_translations r mem argv = ParseError m.
Proof.
  intros r mem argv c ts m Hf Hx Hm. apply sees_call. unfold root_parse_strings.
  rewrite (proj1 (c62_reported r mem _ _ Hf Hx)). now constructor.
Qed.
Print Assumptions c65_wrong.

Example c65_example :
  let argv := map b ["copy"; "a"; "--"; "b"; "--wodth"]%string in
  fresh f_root [] (to_tokens argv)
  /\ fails f_root (to_tokens argv) (Throw (EML unknown_argument_with_suggestion [Tok PNone (b "--wodth"); Tok PLong (b "width")]))
  /\ parse_call [] default_translations f_root [] argv = ParseError (b "Unknown argument: --wodth. Did you mean --width?")
  /\ parse_call [] default_translations f_root [] (map b ["remote"; "add"; "x"; "y"; "z"]%string)
     = ParseError (b "Unhandled arguments: y, z").
Proof.
  cbv zeta. destruct (a_mistake ["copy"; "a"; "--"; "b"; "--wodth"]%string unknown_argument_with_suggestion
    [Tok PNone (b "--wodth"); Tok PLong (b "width")]) as [H1 H2];
    [discriminate|vm_compute; reflexivity|vm_compute; reflexivity|].
  split; [exact H1|]. split; [exact H2|]. split; vm_compute; reflexivity.
Qed.

(** Proofs for C91: the program custom_policy_and_node. *)
From Verif Require Import Bytes Token Result CodePoint Utf8 Utf8Proofs Tree PreParse Root TokenProofs NodeProofs.
From Verif Require Import Digits SpecNumeral DigitProofs.
From Verif Require Import Build Demo RunProofs SpecTokens SpecTake SpecMode SpecDeliver SpecRoot SpecReading SpecClaims.
From Verif Require Import SpecFault SpecOutcome PropsFault.
From Verif Require Import Examples SpecExamples ExampleProofs Message Caller ExampleEven.
From Verif Require PropsText SpecMessage.
Local Open Scope nat_scope.

Section Reader.
Variable read : bytes -> res value.
(** It makes numbers. *)
Hypothesis numbers : forall s v, read s = Ok v -> exists z, v = VInt z.

Lemma ev_well_formed : well_formed (ev_tree read).
Proof. apply well_formed_b_spec. vm_compute. reflexivity. Qed.
Lemma ev_top : named_top (ev_tree read).
Proof. intros c [<-|[<-|[<-|[]]]]; [right|right|left]; reflexivity. Qed.
Lemma ev_help_simple : simple_named ev_help. Proof. is_simple. Qed.
Lemma ev_version_simple : simple_named ev_version. Proof. is_simple. Qed.
Lemma ev_plain : plain (ev_value read). Proof. is_plain. Qed.
Lemma ev_positional : positional (ev_value read). Proof. is_positional. Qed.

Lemma rem_even z : Z.rem z 2 = 0%Z <-> Z.Even z.
Proof.
  rewrite Z.rem_mod_eq_0 by lia. split.
  - intros H. exists (z / 2)%Z. assert (E := Z.div_mod z 2 ltac:(lia)). lia.
  - intros [k ->]. rewrite Z.mul_comm. apply Z.mod_mul. lia.
Qed.

Lemma even_read s v : read_even read s = Ok v <-> exists z, read s = Ok (VInt z) /\ Z.Even z /\ v = VInt z.
Proof.
  unfold read_even. split.
  - intros H. destruct (read s) as [v'|e| | |] eqn:R; try discriminate H.
    destruct (numbers s v' R) as [z ->]. destruct (Z.rem z 2 =? 0)%Z eqn:E; [|discriminate H].
    injection H as <-. exists z. split; [reflexivity|]. split; [now apply rem_even, Z.eqb_eq|reflexivity].
  - intros (z & -> & He & ->). now rewrite (proj2 (Z.eqb_eq _ _) (proj2 (rem_even z) He)).
Qed.

Lemma ev_value_of t v : value_of (ev_value read) [t] v <-> exists z, read (t_name t) = Ok (VInt z) /\ Z.Even z /\ v = VInt z.
Proof.
  rewrite <- even_read. split.
  - intros H. inversion H as [vals' H'|c t' ts' v' _ _ Hr|c H1|c ts vs H1 H2]; subst.
    + destruct H' as [H'|H']; discriminate H'.
    + exact Hr.
    + discriminate H2.
  - intros H. apply (value_single _ APositional); [reflexivity|reflexivity|exact H|apply any_in_range, ev_plain].
Qed.

Lemma ev_entries : entries (ev_mode read) = [(0, ev_value read)].
Proof. reflexivity. Qed.

Lemma ev_assigned label t : flat_map (assigned (ev_mode read)) [Item (ev_value read) label [t]] = [(ev_value read, [t])].
Proof. reflexivity. Qed.

Lemma ev_reading t : exists label, reading (ev_mode read) [] [t] [Item (ev_value read) label [t]].
Proof.
  destruct (proj2 (positional_consumes (ev_value read) [t] [t] [] ev_positional)) as [label Hc].
  { split; [discriminate|]. apply one_counted; [reflexivity..|]. exists t. now split. }
  exists label. apply (reading_cons _ [] [t] [] 0 (ev_value read) [] label [t] [] [] ev_entries).
  - intros j k [].
  - apply positional_chokes, ev_positional.
  - exact (po_enabled _ ev_positional).
  - exact Hc.
  - split; [right; intros [? []]|]. intros [(c & inst & X & Y) _]. injection X as <-. discriminate Y.
  - intros ns d Hin. now apply (pl_dep _ ev_plain) in Hin.
  - constructor.
Qed.

Lemma ev_values us vs :
  (exists items, reading (ev_mode read) [] us items /\ deliveries (ev_mode read) (flat_map (assigned (ev_mode read)) items) vs)
  <-> exists t z, us = [t] /\ read (t_name t) = Ok (VInt z) /\ Z.Even z /\ vs = [VInt z].
Proof.
  split.
  - intros (items & Hr & Hd). inversion Hr as [done|done ts before i l after label vals rest items' E Hp Hch He Hc Hal Hdp Hr']; subst.
    + exfalso. destruct Hd as [_ Hd]. cbn [flat_map] in Hd. change (router_children (ev_mode read)) with [ev_value read] in Hd.
      inversion Hd as [|c v cs vs' Hv _]; subst. inversion Hv as [v' Hg|v' _ Hm]; subst.
      * cbn in Hg. inversion Hg.
      * apply Hm. left. right. left. reflexivity.
    + rewrite ev_entries in E. destruct before as [|x before]; [|injection E as _ E; now destruct before].
      injection E as <- <- <-.
      destruct (proj1 (positional_consumes _ _ _ _ ev_positional) (ex_intro _ label Hc)) as [_ Hcn].
      apply one_counted in Hcn as (t & -> & ->); [|reflexivity..].
      inversion Hr' as [done|done ts before i l after label' vals' rest' items'' E Hp' Hch' He' Hc' Hal' Hdp' Hr'']; subst.
      2: { exfalso. rewrite ev_entries in E. destruct before as [|x before]; [|injection E as _ E; now destruct before].
           injection E as <- <- <-. destruct Hal' as [[X|X] _]; [discriminate X|]. apply X. eexists. left. reflexivity. }
      rewrite ev_assigned in Hd. destruct Hd as [_ Hd]. change (router_children (ev_mode read)) with [ev_value read] in Hd.
      inversion Hd as [|c v cs vs' Hv Hn]; subst. inversion Hn; subst. inversion Hv as [v' Hg _|v' X]; subst; [|discriminate X].
      change (for_child (ev_value read) [(ev_value read, [t])]) with [(ev_value read, [t])] in Hg.
      inversion Hg as [|o l vals v0 merge more r _ X|l vals v0 more r Hv0 _ Hg']; subst; [discriminate X|].
      inversion Hg'; subst. apply ev_value_of in Hv0 as (z & A & B & ->). exists t, z. now repeat split.
  - intros (t & z & -> & Hr & He & ->).
    assert (Hv : value_of (ev_value read) [t] (VInt z)) by (apply ev_value_of; exists z; now repeat split).
    destruct (ev_reading t) as [label Hrd]. exists [Item (ev_value read) label [t]]. split; [exact Hrd|].
    rewrite ev_assigned. split.
      * constructor; [|constructor]. exists (VInt z). exact Hv.
      * change (router_children (ev_mode read)) with [ev_value read]. constructor; [|constructor].
        apply delivered_typed.
        -- change (for_child (ev_value read) [(ev_value read, [t])]) with [(ev_value read, [t])].
           apply (gathered_once _ _ (VInt z)); [exact Hv|reflexivity|constructor].
        -- intros _. apply any_in_range, ev_plain.
Qed.

Lemma ev_help_passed words : passed_over (map (Tok PNone) words) ev_help <->
               forall w, nth_error words 0 = Some w -> w <> b "--help" /\ w <> b "-h".
Proof.
  rewrite (simple_passed ev_help _ ev_help_simple eq_refl). split.
    - intros H w E. destruct words as [|w' words]; [discriminate E|]. injection E as ->.
      apply (named_word ev_help (b "help") "h"%char w eq_refl eq_refl eq_refl ltac:(discriminate)). exact (H _ _ eq_refl).
    - intros H t us E. destruct words as [|w words]; [discriminate E|]. injection E as <- _.
      apply (named_word ev_help (b "help") "h"%char w eq_refl eq_refl eq_refl ltac:(discriminate)). exact (H w eq_refl).
Qed.

Lemma ev_version_passed words : passed_over (map (Tok PNone) words) ev_version <-> forall w, nth_error words 0 = Some w -> w <> b "--version".
Proof.
  rewrite (simple_passed ev_version _ ev_version_simple eq_refl). split.
    - intros H w E ->. destruct words as [|w' words]; [discriminate E|]. injection E as ->.
      specialize (H _ _ eq_refl). vm_compute in H. discriminate H.
    - intros H t us E. destruct words as [|w words]; [discriminate E|]. injection E as <- _.
      destruct (match_node ev_version (norm_token ev_version (Tok PNone w))) eqn:M; [|reflexivity].
      exfalso. apply (H w eq_refl). now apply (long_match ev_version (b "version") eq_refl eq_refl eq_refl).
Qed.

Lemma ev_routes words n vs : in_memory words -> routes (ev_tree read) (map (Tok PNone) words) n vs <->
  (words = [b "--version"] /\ n = ev_version /\ vs = [VBool true])
  \/ (exists w z, words = [w] /\ ~ In w [b "--help"; b "-h"; b "--version"] /\ read w = Ok (VInt z) /\ Z.Even z
       /\ n = ev_mode read /\ vs = [VInt z]).
Proof.
  intros Hw. assert (K := kept_words words Hw).
  assert (Hh := ev_help_passed words). assert (Hv := ev_version_passed words).
  split.
  - intros (before & c & after & E & Hb & Hm). destruct before as [|x1 before].
    { injection E as <- _. exfalso. inversion Hm as [m ps ts' items vs' Hmd|label vals v Hmd Hk]; [discriminate Hmd|now apply Hk]. }
    injection E as <- E. assert (P1 := proj1 Hh (Hb ev_help (or_introl eq_refl))). destruct before as [|x2 before].
    { injection E as <- _. left. inversion Hm as [m ps ts' items vs' Hmd|label vals v Hmd Hk Hch He Hc Hval]; [discriminate Hmd|]. subst.
      destruct words as [|w words].
      { exfalso. inversion Hc as [t value us t' us' vals' rest _ Hf|vals' rest Hx]; [inversion Hf|discriminate Hx]. }
      destruct (proj1 (simple_consumes ev_version _ _ vals [] ev_version_simple) (ex_intro _ label Hc)) as [M Hcnt].
      apply (long_match ev_version (b "version") eq_refl eq_refl eq_refl) in M. subst w.
      apply (all_counted_zero ev_version) in Hcnt; [|reflexivity..]. destruct Hcnt as [-> E]. destruct words; [|discriminate E].
      split; [reflexivity|]. split; [reflexivity|]. inversion Hval as [? _|? ? ? ? X|? X|? ? ? X]; subst; [reflexivity|discriminate X..]. }
    injection E as <- E. assert (P2 := proj1 Hv (Hb ev_version (or_intror (or_introl eq_refl)))). destruct before as [|x3 before].
    { injection E as <- _. right.
      assert (Hn : forall w, nth_error words 0 = Some w -> ~ In w [b "--help"; b "-h"; b "--version"]).
      { intros w Hw0 Hin. destruct Hin as [X|[X|[X|[]]]]; subst w; [now apply (proj1 (P1 _ Hw0))|now apply (proj2 (P1 _ Hw0))|now apply (P2 _ Hw0)]. }
      { inversion Hm as [m ps ts' items vs' Hmd Hs Hr Hrd Hd|label vals v Hmd]; [|discriminate Hmd]. subst.
        assert (n = (ev_mode read) /\ ts' = map (Tok PNone) words) as [-> ->].
        { inversion Hs as [m0 ps0 ts0 Hx|m0 ps0 ts0 rest (_ & nm & Hx & _)|m0 ps0 ts0 rest bf d af m1 ps1 ts1 (_ & nm & Hx & _)]; subst; [now split|discriminate Hx..]. }
        destruct (proj1 (ev_values _ vs) (ex_intro _ items (conj Hrd Hd))) as (t & z & A & Hr' & He & B).
        destruct words as [|w [|w' words]]; try discriminate A. injection A as <-. exists w, z.
        split; [reflexivity|]. split; [exact (Hn w eq_refl)|]. now repeat split. } }
    exfalso. injection E as _ E. now destruct before.
  - intros [(-> & -> & ->)|(w0 & z & -> & Hn & Hr0 & He & -> & ->)].
    + exists [ev_help], ev_version, [(ev_mode read)]. split; [reflexivity|]. split.
      * intros d [<-|[]]. apply Hh. intros w E. injection E as <-. split; discriminate.
      * destruct (proj2 (simple_consumes ev_version (Tok PNone (b "--version")) [] [] [] ev_version_simple)) as [label Hc].
        { split; [now apply (long_match ev_version (b "version") eq_refl eq_refl eq_refl)|]. now apply (all_counted_zero ev_version). }
        apply (means_argument (ev_tree read) ev_version _ label [] (VBool true)); auto; try reflexivity; try discriminate.
        -- now apply simple_chokes, ev_version_simple.
        -- apply value_flag. now left.
    + exists [ev_help; ev_version], (ev_mode read), []. split; [reflexivity|]. split.
      * intros d [<-|[<-|[]]].
        -- apply Hh. intros w E. injection E as <-. split; intros ->; apply Hn; cbn; tauto.
        -- apply Hv. intros w E ->. injection E as ->. apply Hn. cbn; tauto.
      * destruct (proj2 (ev_values (map (Tok PNone) [w0]) [VInt z])) as (items & Hr & Hd).
        { exists (Tok PNone w0), z. now repeat split. }
        apply (means_mode (ev_tree read) (ev_mode read) _ (ev_mode read) [(ev_tree read)] (map (Tok PNone) [w0]) items); auto. now constructor.
Qed.

Lemma ev_calls words n vs : in_memory words ->
  calls_router (ev_tree read) [] (map (Tok PNone) words) n vs <->
  (words = [b "--version"] /\ n = ev_version /\ vs = [VBool true])
  \/ (exists w z, words = [w] /\ ~ In w [b "--help"; b "-h"; b "--version"] /\ read w = Ok (VInt z) /\ Z.Even z
       /\ n = ev_mode read /\ vs = [VInt z]).
Proof.
  intros Hm. rewrite (fresh_routes _ _ _ n vs (example_fresh (ev_tree read) words ev_well_formed ev_top Hm)).
  exact (ev_routes words n vs Hm).
Qed.

Lemma ev_unread w x : in_memory [w] -> ~ In w [b "--help"; b "-h"; b "--version"] ->
  same_failure (read_even read w) x -> o_res (root_parse_strings (ev_tree read) [] [w]) = x.
Proof.
  intros Hm Hn Hx. destruct (ev_reading (Tok PNone w)) as [label Hr].
  apply (c62_bad_value (ev_tree read) [] [Tok PNone w] (ev_mode read) [Tok PNone w] [Item (ev_value read) label [Tok PNone w]]
           [] (ev_value read) [Tok PNone w] [] x (example_fresh (ev_tree read) [w] ev_well_formed ev_top Hm)).
  - exists [ev_help; ev_version], (ev_mode read), [], [ev_tree read]. split; [reflexivity|]. split.
    + intros d [<-|[<-|[]]].
      * apply (ev_help_passed [w]). intros w' E. injection E as <-. split; intros ->; apply Hn; cbn; tauto.
      * apply (ev_version_passed [w]). intros w' E ->. injection E as ->. apply Hn. cbn; tauto.
    + split; [reflexivity|]. split; [now constructor|exact Hr].
  - rewrite ev_assigned. reflexivity.
  - split; [constructor|]. intros c _. exists None. constructor.
  - apply (unread_single _ APositional); [reflexivity|reflexivity|exact Hx].
Qed.

Lemma ev_odd w z : in_memory [w] -> ~ In w [b "--help"; b "-h"; b "--version"] -> read w = Ok (VInt z) -> Z.Odd z ->
  ev_main read [w] = ParseError (b "Value not even: " ++ int_text z).
Proof.
  intros Hm Hn Hr Ho. unfold ev_main, parse_call.
  rewrite (ev_unread w (Throw (EML not_even [Tok PNone (int_text z)])) Hm Hn).
  - cbn [caller_sees_of].
    rewrite (PropsText.c33_user ev_errors default_translations not_even _ (SpecMessage.Template (b "Value not even") [])).
    + generalize (int_text z). intros s. cbn. now rewrite ?app_nil_r.
    + exists [], not_even, []. split; [reflexivity|]. split; [reflexivity|]. intros e [].
    + split; [|constructor]. split; intros I; cbn in I; repeat (destruct I as [I|I]; [discriminate I|]); exact I.
    + intros [|x before] h after E; discriminate E.
  - unfold read_even. rewrite Hr. destruct (Z.rem z 2 =? 0)%Z eqn:E; [|reflexivity].
    exfalso. apply Z.eqb_eq in E. apply rem_even in E. exact (Z.Even_Odd_False z E Ho).
Qed.

Lemma ev_unreadable w : in_memory [w] -> ~ In w [b "--help"; b "-h"; b "--version"] ->
  read w = Throw (EML failed_to_parse [Tok PNone w]) -> ev_main read [w] = ParseError (b "Failed to parse: " ++ w).
Proof.
  intros Hm Hn Hr. unfold ev_main, parse_call.
  rewrite (ev_unread w (Throw (EML failed_to_parse [Tok PNone w])) Hm Hn).
  - cbn [caller_sees_of].
    rewrite (PropsText.c33_fallback ev_errors default_translations failed_to_parse _ (SpecMessage.Template (b "Failed to parse") [])).
    + cbn. now rewrite ?app_nil_r.
    + intros e [<-|[]]. discriminate.
    + exists (firstn 3 default_translations), failed_to_parse, (skipn 4 default_translations).
      split; [reflexivity|]. split; [reflexivity|]. intros e He. cbn in He. repeat (destruct He as [<-|He]; [discriminate|]). destruct He.
    + split; [|constructor]. split; intros I; cbn in I; repeat (destruct I as [I|I]; [discriminate I|]); exact I.
    + intros [|x before] h after E; discriminate E.
  - unfold read_even. now rewrite Hr.
Qed.

Lemma ev_excluded done : ~ excluded (ev_mode read) done 0 (ev_value read).
Proof. intros [(c & inst & X & Y) _]. injection X as <-. discriminate Y. Qed.

Lemma ev_more w u us : in_memory (w :: u :: us) -> ~ In w [b "--help"; b "-h"; b "--version"] ->
  ev_main read (w :: u :: us) = ParseError (b "Unhandled arguments: " ++ SpecMessage.joined (b ", ") (map (Tok PNone) (u :: us))).
Proof using read.
  clear numbers.
  intros Hm Hn.
  assert (H : o_res (root_parse_strings (ev_tree read) [] (w :: u :: us)) = Throw (EML unhandled_arguments (map (Tok PNone) (u :: us)))).
  { apply (c62_bad_line (ev_tree read) [] (map (Tok PNone) (w :: u :: us)) [ev_help; ev_version] (ev_mode read) [] (ev_mode read) [ev_tree read]
      (map (Tok PNone) (w :: u :: us)) _ (example_fresh (ev_tree read) (w :: u :: us) ev_well_formed ev_top Hm) eq_refl).
    - intros d [<-|[<-|[]]].
      + apply (ev_help_passed (w :: u :: us)). intros w' E. injection E as <-. split; intros ->; apply Hn; cbn; tauto.
      + apply (ev_version_passed (w :: u :: us)). intros w' E ->. injection E as ->. apply Hn. cbn; tauto.
    - reflexivity.
    - now constructor.
    - destruct (proj2 (positional_consumes (ev_value read) (map (Tok PNone) (w :: u :: us)) [Tok PNone w] (map (Tok PNone) (u :: us)) ev_positional)) as [label Hc].
      { split; [discriminate|]. apply one_counted; [reflexivity..|]. exists (Tok PNone w). now split. }
      apply (stuck_later _ [] _ [] 0 (ev_value read) [] label [Tok PNone w] (map (Tok PNone) (u :: us)) _ ev_entries).
      + intros j k [].
      + apply positional_chokes, ev_positional.
      + exact (po_enabled _ ev_positional).
      + exact Hc.
      + split; [right; intros [? []]|apply ev_excluded].
      + intros ns d Hin. now apply (pl_dep _ ev_plain) in Hin.
      + apply stuck_unhandled; [discriminate| |].
        * intros j k. rewrite ev_entries. intros [E|[]]. injection E as <- <-. split; [apply positional_chokes, ev_positional|].
          right; right. split; [reflexivity|]. split; [reflexivity|]. split; [eexists; left; reflexivity|apply ev_excluded].
        * intros i Hi. destruct i as [|i]; [eexists; left; reflexivity|]. cbn in Hi. lia. }
  unfold ev_main, parse_call. rewrite H. cbn [caller_sees_of].
  rewrite (PropsText.c33_fallback ev_errors default_translations unhandled_arguments _ (SpecMessage.Template (b "Unhandled arguments") [])).
  + reflexivity.
  + intros e [<-|[]]. discriminate.
  + exists (firstn 1 default_translations), unhandled_arguments, (skipn 2 default_translations).
    split; [reflexivity|]. split; [reflexivity|]. intros e He. cbn in He. repeat (destruct He as [<-|He]; [discriminate|]). destruct He.
  + split; [|constructor]. split; intros I; cbn in I; repeat (destruct I as [I|I]; [discriminate I|]); exact I.
  + intros [|x before] h after E; discriminate E.
Qed.
End Reader.

Lemma int_text_writes z ds : writes (Z.abs_N z) ds -> int_text z = (if (z <? 0)%Z then b "-" else []) ++ digits_text ds.
Proof.
  intros H. unfold int_text. destruct (lexical_writes (Z.abs_N z)) as (ds' & H' & ->).
  f_equal. f_equal. exact (writes_unique _ _ _ H' H).
Qed.

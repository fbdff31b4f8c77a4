(** C23 and C24. *)
From Verif Require Import Bytes Token Result CodePoint Utf8 Tree Levenshtein Build.
From Verif Require Import SpecEdit SpecSuggest LevProofs SuggestProofs.

(** C23: the distance of two strings is the least number of insertions, deletions and substitutions
    of grapheme clusters that turns one into the other. *)
Theorem c23_levenshtein_is_edit_distance : forall x y gx gy,
  graphemes x = Some gx -> graphemes y = Some gy ->
  exists d, levenshtein_distance x y = Some d /\ edit_distance_is d gx gy.
Proof. exact levenshtein_distance_ok. Qed.
Print Assumptions c23_levenshtein_is_edit_distance.

(** C23 on any alphabet: the algorithm itself. *)
Theorem c23_algorithm_any_alphabet : forall A (eqb : A -> A -> bool),
  (forall x y, eqb x y = true <-> x = y) ->
  forall as_ bs, edit_distance_is (lev eqb as_ bs) as_ bs.
Proof. exact @lev_distance. Qed.
Print Assumptions c23_algorithm_any_alphabet.

Example c23_example :
  levenshtein_distance (b "kitten") (b "sitting") = Some 3
  /\ graphemes (b "kitten") = Some [b "k"; b "i"; b "t"; b "t"; b "e"; b "n"].
Proof. split; vm_compute; reflexivity. Qed.

(** C24: the error for an unknown argument names the first closest of all the names below the node
    that are not disabled, with the way to it; and no name only if there is none. *)
Theorem c24_closest_suggestion : forall (n : node) (t : token),
  decodable (typed_name t) ->
  (forall c, In c (names_below [] n) -> decodable (t_name (snd c))) ->
  (enabledb n = false \/ names_below [] n = []
   -> @unknown_argument_exception unit n t = Throw (EML unknown_argument [t]))
  /\ (enabledb n = true -> names_below [] n <> [] ->
      exists c, first_closest (typed_name t) (names_below [] n) c
                /\ @unknown_argument_exception unit n t
                   = Throw (EML unknown_argument_with_suggestion (t :: fst c ++ [snd c]))).
Proof. exact (fun n t => suggestion_ok n t). Qed.
Print Assumptions c24_closest_suggestion.

Definition c24_tree : node :=
  root [] [flag 1 [PLongName (b "force"); PRouter];
           mode 2 [PNoneName (b "copy"); PRouter]
                [flag 3 [PLongName (b "recursive"); PShortName (b "r")];
                 flag 4 [PLongName (b "secret"); PRuntimeEnable false]]].

Example c24_example :
  names_below [] c24_tree
  = [([], Tok PLong (b "force")); ([], Tok PNone (b "copy"));
     ([Tok PNone (b "copy")], Tok PLong (b "recursive"));
     ([Tok PNone (b "copy")], Tok PShort (b "r"))]
  /\ @unknown_argument_exception unit c24_tree (Tok PNone (b "--secret"))
     = Throw (EML unknown_argument_with_suggestion [Tok PNone (b "--secret"); Tok PLong (b "force")])
  /\ forallb (fun c => match graphemes (t_name (snd c)) with Some _ => true | None => false end)
             (names_below [] c24_tree) = true.
Proof. repeat split; vm_compute; reflexivity. Qed.

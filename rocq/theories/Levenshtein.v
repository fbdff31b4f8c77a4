(** Model of utility/utf8/levenshtein_distance.hpp and parsing/unknown_argument_handling.hpp. *)
From Verif Require Import Bytes Token Result CodePoint Utf8 Tree.

(** utility/utf8/levenshtein_distance.hpp:42-53, the inner loop: [left] is [costs[j]] (already
    updated), [corner] the running corner, [uppers] the not yet updated [costs[j+1..]].  Returns the
    new [costs[j+1..]].  Lengths agree by construction, so no out-of-range access arises. *)
Fixpoint lev_row {A} (eqb : A -> A -> bool) (c1 : A) (bs : list A) (left corner : nat)
         (uppers : list nat) : list nat :=
  match bs, uppers with
  | c2 :: bs', upper :: uppers' =>
      let x := if eqb c1 c2 then corner else Nat.min left (Nat.min upper corner) + 1 in
      x :: lev_row eqb c1 bs' x upper uppers'
  | _, _ => []
  end.

(** utility/utf8/levenshtein_distance.hpp:36-55, the outer loop; [i] and [costs] as there. *)
Fixpoint lev_rows {A} (eqb : A -> A -> bool) (as_ bs : list A) (i : nat) (costs : list nat)
  : list nat :=
  match as_ with
  | [] => costs
  | c1 :: as' =>
      lev_rows eqb as' bs (S i) ((i + 1) :: lev_row eqb c1 bs (i + 1) i (tl costs))
  end.

(** utility/utf8/levenshtein_distance.hpp:22-58 on the two sequences of characters.  The two early
    returns (lines 24-29) give the length of the other string. *)
Definition lev {A} (eqb : A -> A -> bool) (as_ bs : list A) : nat :=
  match as_, bs with
  | [], _ => List.length bs
  | _, [] => List.length as_
  | _, _ => last (lev_rows eqb as_ bs 0 (seq 0 (S (List.length bs)))) 0
  end.

(** utility/utf8/levenshtein_distance.hpp:22-58; characters are grapheme clusters
    ([utility::utf8::iterator::range]); [None] is the undefined behaviour of decoding a truncated
    string. *)
Definition levenshtein_distance (x y : bytes) : option nat :=
  match graphemes x, graphemes y with
  | Some gx, Some gy => Some (lev beq gx gy)
  | _, _ => None
  end.

(** utility/utf8/levenshtein_distance.hpp:77-78: best tokens so far with their score ([None] is the
    initial SIZE_MAX; a distance can never reach it). *)
Definition best := option (nat * list token).

(** utility/utf8/levenshtein_distance.hpp:117-123 and the two repetitions of it. *)
Definition try_name (tok : bytes) (p : prefix) (nm : option bytes) (above : list node) (bst : best)
  : res best :=
  match nm with
  | None => Ok bst
  | Some s =>
      match levenshtein_distance tok s with
      | None => UB
      | Some d =>
          let better := match bst with None => true | Some (d0, _) => Nat.ltb d d0 end in
          Ok (if better then Some (d, Tok p s :: map node_token above) else bst)
      end
  end.

(** utility/utf8/levenshtein_distance.hpp:86-144: the visitor; [parents] ends with the start node,
    which [mp_pop_back] removes. *)
Definition closest_visit (tok : bytes) (np : node * list node) (bst : best) : res best :=
  let '(n, parents) := np in
  match parents with
  | [] => Ok bst
  | _ =>
      if is_runtime_disabled (n :: parents) then Ok bst
      else
        let above := removelast parents in
        (b1 <- try_name tok PLong (long_name n) above bst ;;
         b2 <- try_name tok PShort (short_name n) above b1 ;;
         try_name tok PNone (none_name n) above b2)%res
  end.

Fixpoint closest_fold (tok : bytes) (l : list (node * list node)) (bst : best) : res best :=
  match l with
  | [] => Ok bst
  | np :: l' => (b' <- closest_visit tok np bst ;; closest_fold tok l' b')%res
  end.

(** utility/utf8/levenshtein_distance.hpp:70-148 *)
Definition closest_matching_child_node (n : node) (t : token) : res (list token) :=
  let t' := match t_prefix t with PNone => get_token_type (t_name t) | _ => t end in
  (bst <- closest_fold (t_name t') (preorder n []) None ;;
   Ok match bst with None => [] | Some (_, ts) => ts end)%res.

(** parsing/unknown_argument_handling.hpp:20-35; the outcome is never [Ok]. *)
Definition unknown_argument_exception {A} (n : node) (unknown : token) : res A :=
  (ms <- closest_matching_child_node n unknown ;;
   match ms with
   | [] => Throw (EML unknown_argument [unknown])
   | _ => Throw (EML unknown_argument_with_suggestion (unknown :: rev ms))
   end)%res.

(** Compile-time strings: utility/compile_time_string.hpp, and what a parse tree whose names are such strings
    has to fulfil to compile. *)
From Verif Require Import Bytes Token Result CodePoint Utf8 Tree PreParse Validator.
Local Open Scope list_scope.

Definition nul : ascii := "000".

(** ** C++20: lines 12-310 *)

(** The characters of [compile_time_string_storage<N>::value], the template argument of [str] (lines 22-76).
    Two [str] are the same type iff these are equal. *)
Definition storage := bytes.

(** Line 40: [str<"...">] and ["..."_S] (literals.hpp:18-22).  A C array has the terminating null
    character. *)
Definition from_literal (s : bytes) : storage := s ++ [nul].
(** Lines 48, 79: [str<'c'>]. *)
Definition from_char (c : ascii) : storage := [c].
(** Lines 31, 34: from a [std::array] or [std::span]; AR_STRING_SV (line 309). *)
Definition from_array (s : bytes) : storage := s.
(** Line 95: [str<>]. *)
Definition no_string : storage := [].

(** Lines 175-184 [calculate_size], 104 [size]. *)
Fixpoint ct_size (s : storage) : nat :=
  match s with
  | [] => 0
  | c :: s' => if Ascii.eqb c nul then 0 else S (ct_size s')
  end.

(** Line 110 [empty]. *)
Definition ct_empty (s : storage) : bool := Nat.eqb (ct_size s) 0.

(** Lines 116-119 [get]. *)
Definition ct_text (s : storage) : bytes := firstn (ct_size s) s.

(** Lines 127-136 [operator+] and 160-163 [append]. *)
Definition ct_join (s s' : storage) : storage := firstn (ct_size s) s ++ firstn (ct_size s') s' ++ [nul].

(** Lines 145-151 [substr] and 186-190 [substr_impl]; [None]: the static_assert fails. *)
Definition ct_substr (pos count : nat) (s : storage) : option storage :=
  if Nat.ltb (pos + count) (ct_size s)
  then Some (map (fun i => nth (pos + i) s nul) (seq 0 count) ++ [nul])
  else None.

(** Lines 208-227 [create_sequence_cts]. *)
Definition ct_sequence (n : nat) (c : ascii) : storage := map (fun _ => c) (seq 0 n).

(** ** C++17: lines 313-580 *)

(** The template arguments of [compile_time_string]; [size], [empty] and [get] (lines 345-360) are those of
    the list. *)
Definition pack := bytes.

(** Lines 490-504 [get]. *)
Definition pack_get (s : bytes) (i : nat) : ascii := nth i s nul.

(** Lines 507-529 [builder] and 554-574 [S_], with AR_MAX_CTS_SIZE [limit]: that many characters, of which the
    null characters are removed.  For a literal [s] includes the terminating one.  [None]: the static_assert
    fails. *)
Definition pack_of (limit : nat) (s : bytes) : option pack :=
  let stripped := filter (fun c => negb (Ascii.eqb c nul)) (map (pack_get s) (seq 0 limit)) in
  if Nat.ltb (List.length stripped) limit then Some stripped else None.

(** Lines 366-389 [append], [operator+]. *)
Definition pack_join (s s' : pack) : pack := s ++ s'.

(** Lines 401-416 [create_sequence_cts]. *)
Definition pack_sequence (n : nat) (c : ascii) : pack := repeat c n.

(** ** Names that are made of other names *)

(** dependency/detail.hpp:16-72 [generate_string_of_child_names] with C++20: [display] is the type of the
    display name or of the default, [names] are the children's tokens, as prefix and name. *)
Definition group_name20 (display : storage) (names : list (bytes * bytes)) : option storage :=
  let built := map (fun pn => ct_join (from_array (fst pn)) (from_array (snd pn))) names in    (* 33-38 *)
  let joined := map (fun s => ct_join s (from_char ",")) built in                              (* 43-50 *)
  let all := ct_join display (fold_left ct_join joined no_string) in                           (* 23-25 *)
  ct_substr 0 (ct_size all - 1) all.                                                           (* 66-67 *)

(** The same with C++17. *)
Definition group_name17 (limit : nat) (display : pack) (names : list (bytes * bytes)) : option pack :=
  let built := map (fun pn => match pack_of limit (fst pn), pack_of limit (snd pn) with
                              | Some p, Some n => Some (pack_join p n)
                              | _, _ => None
                              end) names in
  if existsb (fun o => match o with None => true | Some _ => false end) built then None
  else
    let all := display ++ List.concat (map (fun o => match o with Some s => s ++ [","%char] | None => [] end) built) in
    Some (firstn (List.length all - 1) all).                                                   (* 69-70 *)

(** ** Parse trees with C++20 names *)

(** In a tree of storages, the strings of the long, short and none names, and of the names that aliases and
    dependents refer to, are storages.  (The types of other strings are not compared by the library, except
    as parts of node types; there they stay texts.)  [named f] applies [f] to those strings. *)
Definition ref_named (f : bytes -> bytes) (r : nameref) : nameref :=
  match r with NLong s => NLong (f s) | NShort s => NShort (f s) end.
Definition pol_named (f : bytes -> bytes) (p : policy) : policy :=
  match p with
  | PLongName s => PLongName (f s)
  | PShortName s => PShortName (f s)
  | PNoneName s => PNoneName (f s)
  | PAlias ns => PAlias (map (ref_named f) ns)
  | PDependent ns => PDependent (map (ref_named f) ns)
  | _ => p
  end.
Fixpoint named (f : bytes -> bytes) (n : node) : node :=
  match n with Node k i t ps cs => Node k i t (map (pol_named f) ps) (map (named f) cs) end.

(** policy/long_name.hpp:39, short_name.hpp:44, none_name.hpp:42: what a name policy returns. *)
Definition with_texts (r : node) : node := named ct_text r.

(** The static_asserts of a policy in a tree of storages: those about characters look at the text, those
    that look for the nodes referred to compare types. *)
Definition policy_static20 (p : policy) (owner : node) (parents : list node) : bool :=
  match p with
  | PAlias _ | PDependent _ => policy_static p owner parents
  | _ => policy_static (pol_named ct_text p) owner parents
  end.

(** {!Validator.node_ok} and {!Validator.accepted} for a tree of storages.  The rules that compare names
    (validator.hpp:215) compare types; all others do not look at the names. *)
Definition node_ok20 (np : node * list node) : bool :=
  let '(n, parents) := np in
  node_static n parents && node_rules n parents
  && forallb (fun p => policy_static20 p n parents && policy_rules p n parents) (n_pols n).
Definition accepted20 (r : node) : bool := is_root r && forallb node_ok20 (preorder r []).

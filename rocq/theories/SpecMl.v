(** Specifications for C90: what the program simple_ml understands in a language. *)
From Verif Require Import Bytes SpecUtf8.

(** The words for "copy", "move" and "force" for the name of a language. *)
Inductive vocabulary (name : bytes) : bytes -> bytes -> bytes -> Prop :=
| in_french : name = b "fr" ->
    vocabulary name (b "copier") (b "d" ++ encode_all [0xE9%N] ++ b "placer") (b "forcer")
| in_japanese : name = b "ja" ->
    vocabulary name (encode_all [0x30B3; 0x30D4; 0x30FC]%N) (encode_all [0x79FB; 0x52D5]%N) (encode_all [0x5F37; 0x5236]%N)
| in_english : name <> b "fr" -> name <> b "ja" -> vocabulary name (b "copy") (b "move") (b "force").

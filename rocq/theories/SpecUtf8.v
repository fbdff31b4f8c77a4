(** Specifications for C25-C31: the UTF-8 encoding (RFC 3629) and related notions. *)
From Verif Require Import Bytes.
Local Open Scope N_scope.

(** Unicode scalar values. *)
Definition scalar (c : N) : Prop := c < 55296 \/ (57344 <= c /\ c < 1114112).

(** RFC 3629, section 3. *)
Definition byte (x : N) : ascii := ascii_of_N x.
Definition encode (c : N) : bytes :=
  if c <? 128 then [byte c]
  else if c <? 2048 then [byte (192 + c / 64); byte (128 + c mod 64)]
  else if c <? 65536
  then [byte (224 + c / 4096); byte (128 + c / 64 mod 64); byte (128 + c mod 64)]
  else [byte (240 + c / 262144); byte (128 + c / 4096 mod 64); byte (128 + c / 64 mod 64);
        byte (128 + c mod 64)].

(** The scalar values whose encoding begins with the last two-byte lead (0xDF: U+07C0..U+07FF) or the
    last three-byte lead (0xEF: U+F000..U+FFFF). *)
Definition boundary_lead (c : N) : Prop := (1984 <= c /\ c < 2048) \/ (61440 <= c /\ c < 65536).

(** A well-formed string is the concatenation of the encodings of scalar values. *)
Definition encode_all (cs : list N) : bytes := List.concat (map encode cs).

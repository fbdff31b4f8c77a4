(** Lemmas on code points: packing and decoding. *)
From Verif Require Import Bytes CodePoint SpecUtf8.
From Coq Require Import ZifyBool ZifyNat ZifyN.
Local Open Scope N_scope.

Lemma land_mod x k : N.land x (N.ones k) = x mod 2 ^ k.
Proof. apply N.land_ones. Qed.
Lemma land255 x : N.land x 255 = x mod 256. Proof. exact (land_mod x 8). Qed.
Lemma land63 x : N.land x 63 = x mod 64. Proof. exact (land_mod x 6). Qed.
Lemma land31 x : N.land x 31 = x mod 32. Proof. exact (land_mod x 5). Qed.
Lemma land15 x : N.land x 15 = x mod 16. Proof. exact (land_mod x 4). Qed.
Lemma land7 x : N.land x 7 = x mod 8. Proof. exact (land_mod x 3). Qed.
Lemma land3 x : N.land x 3 = x mod 4. Proof. exact (land_mod x 2). Qed.

Lemma lor_add x y k : x < 2 ^ k -> N.lor x (y * 2 ^ k) = x + y * 2 ^ k.
Proof.
  intros H. rewrite <- N.shiftl_mul_pow2.
  assert (E : N.land x (N.shiftl y k) = 0).
  { apply N.bits_inj_0. intros i. rewrite N.land_spec. destruct (N.lt_ge_cases i k) as [Hi|Hi].
    - rewrite N.shiftl_spec_low by exact Hi. apply andb_false_r.
    - replace x with (x mod 2 ^ k) by (now apply N.mod_small).
      now rewrite N.mod_pow2_bits_high by exact Hi. }
  rewrite <- N.lxor_lor by exact E. symmetry. now apply N.add_nocarry_lxor.
Qed.

Lemma lor_add' x y k m : m = 2 ^ k -> x < m -> N.lor x (y * m) = x + y * m.
Proof. intros ->. apply lor_add. Qed.

Ltac bits_to_arith :=
  unfold u8; rewrite ?N.shiftr_div_pow2, ?N.shiftl_mul_pow2;
  rewrite ?land255, ?land63, ?land31, ?land15, ?land7, ?land3;
  change (2 ^ 2) with 4; change (2 ^ 3) with 8; change (2 ^ 5) with 32; change (2 ^ 6) with 64;
  change (2 ^ 8) with 256; change (2 ^ 11) with 2048; change (2 ^ 16) with 65536;
  change (2 ^ 19) with 524288.

Ltac Zify.zify_post_hook ::= Z.div_mod_to_equations.

(** The six bytes written by the packing constructor, arithmetically. *)
Lemma pack_arith f l m :
  f < 2097152 -> l < 2097152 -> m < 64 ->
  pack f l m = mk_range (f mod 256) (f / 256 mod 256) (f / 65536 + (l mod 8) * 32)
                        (l / 8 mod 256) (l / 2048 mod 256) (l / 524288 + m * 4).
Proof.
  intros Hf Hl Hm. unfold pack. bits_to_arith.
  f_equal.
  - lia.
  - lia.
  - rewrite (lor_add' _ _ 5 32) by (reflexivity || lia). lia.
  - lia.
  - lia.
  - rewrite (lor_add' _ _ 2 4) by (reflexivity || lia). lia.
Qed.

Lemma pack_first f l m :
  f < 2097152 -> l < 2097152 -> m < 64 -> r_first (pack f l m) = f.
Proof.
  intros Hf Hl Hm. rewrite pack_arith by assumption. unfold r_first; cbn [d0 d1 d2]. bits_to_arith.
  rewrite (lor_add' _ _ 8 256) by (reflexivity || lia).
  rewrite (lor_add' _ _ 16 65536) by (reflexivity || lia). lia.
Qed.

Lemma pack_last f l m :
  f < 2097152 -> l < 2097152 -> m < 64 -> r_last (pack f l m) = l.
Proof.
  intros Hf Hl Hm. rewrite pack_arith by assumption. unfold r_last; cbn [d2 d3 d4 d5]. bits_to_arith.
  assert (E : (f / 65536 + l mod 8 * 32) / 32 mod 8 = l mod 8) by lia.
  assert (E' : (l / 524288 + m * 4) mod 4 = l / 524288) by lia.
  rewrite E, E'.
  rewrite (lor_add' _ _ 3 8) by (reflexivity || lia).
  rewrite (lor_add' _ _ 11 2048) by (reflexivity || lia).
  rewrite (lor_add' _ _ 19 524288) by (reflexivity || lia). lia.
Qed.

Lemma pack_meta f l m :
  f < 2097152 -> l < 2097152 -> m < 64 -> r_meta (pack f l m) = m.
Proof.
  intros Hf Hl Hm. rewrite pack_arith by assumption. unfold r_meta; cbn [d5]. bits_to_arith. lia.
Qed.

(** Every stored component is a byte. *)
Lemma pack_bytes f l m :
  f < 2097152 -> l < 2097152 -> m < 64 ->
  let r := pack f l m in
  d0 r < 256 /\ d1 r < 256 /\ d2 r < 256 /\ d3 r < 256 /\ d4 r < 256 /\ d5 r < 256.
Proof.
  intros Hf Hl Hm. cbv zeta. rewrite pack_arith by assumption. cbn [d0 d1 d2 d3 d4 d5]. lia.
Qed.

(** ** Decoding *)

Lemma byte_val_byte x : x < 256 -> byte_val (byte x) = x.
Proof. apply N_ascii_embedding. Qed.

Lemma lead_size_ascii x : x < 128 -> lead_size x = 1%nat.
Proof.
  intros H. unfold lead_size. replace (N.land x 128) with 0; [easy|].
  symmetry. apply N.bits_inj_0. intros i. rewrite N.land_spec.
  change 128 with (2 ^ 7). destruct (N.eq_dec i 7) as [->|Hi].
  - replace x with (x mod 2 ^ 7) by (apply N.mod_small; exact H).
    now rewrite N.mod_pow2_bits_high by easy.
  - rewrite N.pow2_bits_false by congruence. apply andb_false_r.
Qed.

Lemma land128 x : 128 <= x < 256 -> N.land x 128 = 128.
Proof.
  intros H. replace x with (N.lor (x - 128) (1 * 2 ^ 7)).
  - rewrite N.land_lor_distr_l. change (N.land (1 * 2 ^ 7) 128) with 128.
    replace (N.land (x - 128) 128) with 0; [easy|].
    symmetry. apply N.bits_inj_0. intros i. rewrite N.land_spec.
    change 128 with (2 ^ 7) at 2. destruct (N.eq_dec i 7) as [->|Hi].
    + replace (x - 128) with ((x - 128) mod 2 ^ 7) by (apply N.mod_small; change (2 ^ 7) with 128; lia).
      now rewrite N.mod_pow2_bits_high by easy.
    + rewrite N.pow2_bits_false by congruence. apply andb_false_r.
  - rewrite lor_add; change (2 ^ 7) with 128; lia.
Qed.

Lemma lead_size_high x : 128 <= x < 256 ->
  lead_size x = if x <? 223 then 2%nat else if x <? 239 then 3%nat else 4%nat.
Proof. intros H. unfold lead_size. now rewrite land128 by exact H. Qed.

Lemma cp_fold_step acc x tl : x < 256 ->
  cp_fold acc (byte x :: tl) = cp_fold (acc * 64 + x mod 64) tl.
Proof.
  intros H. unfold cp_fold. cbn [fold_left]. rewrite byte_val_byte by exact H. f_equal.
  rewrite land63, N.shiftl_mul_pow2. rewrite N.lor_comm, lor_add; change (2 ^ 6) with 64; lia.
Qed.

Lemma cp_fold_nil acc : cp_fold acc [] = acc.
Proof. reflexivity. Qed.

Lemma encode_size c rest :
  scalar c -> ~ boundary_lead c -> cp_size (encode c ++ rest) = List.length (encode c).
Proof.
  unfold scalar, boundary_lead, encode. intros Hs Hb.
  destruct (N.ltb_spec c 128); [|destruct (N.ltb_spec c 2048); [|destruct (N.ltb_spec c 65536)]];
    cbn [app cp_size List.length]; rewrite byte_val_byte by lia.
  - apply lead_size_ascii; lia.
  - rewrite lead_size_high by lia. now replace (_ <? 223) with true by lia.
  - rewrite lead_size_high by lia. replace (_ <? 223) with false by lia.
    now replace (_ <? 239) with true by lia.
  - rewrite lead_size_high by lia. replace (_ <? 223) with false by lia.
    now replace (_ <? 239) with false by lia.
Qed.

Lemma encode_size_boundary c rest :
  boundary_lead c -> cp_size (encode c ++ rest) = S (List.length (encode c)).
Proof.
  unfold boundary_lead, encode. intros Hb.
  destruct (N.ltb_spec c 128); [lia|]. destruct (N.ltb_spec c 2048).
  - cbn [app cp_size List.length]. rewrite byte_val_byte by lia.
    rewrite lead_size_high by lia. replace (_ <? 223) with false by lia.
    now replace (_ <? 239) with true by lia.
  - destruct (N.ltb_spec c 65536); [|lia].
    cbn [app cp_size List.length]. rewrite byte_val_byte by lia.
    rewrite lead_size_high by lia. replace (_ <? 223) with false by lia.
    now replace (_ <? 239) with false by lia.
Qed.

Lemma cont_mod x : x < 64 -> (128 + x) mod 64 = x.
Proof. intros H. lia. Qed.

Lemma encode_decode c rest :
  scalar c -> ~ boundary_lead c -> cp_decode (encode c ++ rest) = Some c.
Proof.
  intros Hs Hb. pose proof (encode_size c rest Hs Hb) as Hz.
  revert Hz Hs Hb. unfold scalar, boundary_lead, encode.
  destruct (N.ltb_spec c 128); [|destruct (N.ltb_spec c 2048); [|destruct (N.ltb_spec c 65536)]];
    cbn [app]; intros Hz Hs Hb; unfold cp_decode; cbv zeta; rewrite Hz; cbn [List.length Nat.eqb];
    [rewrite byte_val_byte by lia; reflexivity|..];
    match goal with |- context [Nat.ltb ?x ?y] => destruct (Nat.ltb_spec x y); [lia|] end;
    cbn [Nat.sub firstn]; rewrite byte_val_byte by lia.
  - change (N.shiftr 31 (N.of_nat 0)) with 31. rewrite land31.
    rewrite cp_fold_step by lia. rewrite cp_fold_nil. f_equal. lia.
  - change (N.shiftr 31 (N.of_nat 1)) with 15. rewrite land15.
    rewrite !cp_fold_step by lia. rewrite cp_fold_nil. f_equal.
    rewrite !cont_mod by lia. replace ((224 + c / 4096) mod 16) with (c / 4096) by lia.
    pose proof (N.div_mod c 64). pose proof (N.div_mod (c / 64) 64).
    rewrite N.div_div in * by lia. change (64 * 64) with 4096 in *. lia.
  - change (N.shiftr 31 (N.of_nat 2)) with 7. rewrite land7.
    rewrite !cp_fold_step by lia. rewrite cp_fold_nil. f_equal.
    rewrite !cont_mod by lia. replace ((240 + c / 262144) mod 8) with (c / 262144) by lia.
    assert (E1 := N.div_mod c 64 ltac:(lia)). assert (E2 := N.div_mod (c / 64) 64 ltac:(lia)).
    assert (E3 := N.div_mod (c / 4096) 64 ltac:(lia)).
    rewrite N.div_div in E2, E3 by lia. change (64 * 64) with 4096 in *.
    change (4096 * 64) with 262144 in *. lia.
Qed.

(** ** Counting *)

Lemma cp_count_app s t : cp_count (s ++ t) = (cp_count s + cp_count t)%nat.
Proof. induction s as [|c s IH]; [reflexivity|]. cbn [app cp_count]. rewrite IH. lia. Qed.

Lemma continuation_all : forallb (fun k => Bool.eqb (N.land (N.of_nat k) 192 =? 128)%N
                                           ((128 <=? N.of_nat k)%N && (N.of_nat k <? 192)%N)) (seq 0 256) = true.
Proof. vm_compute. reflexivity. Qed.
Lemma continuation x : (x < 256)%N -> (N.land x 192 =? 128)%N = ((128 <=? x) && (x <? 192))%N.
Proof.
  intros H. pose proof continuation_all as A. rewrite forallb_forall in A. specialize (A (N.to_nat x)).
  rewrite Nnat.N2Nat.id in A. apply Bool.eqb_prop. apply A. apply in_seq. lia.
Qed.

Lemma count_encode c : scalar c -> cp_count (encode c) = 1%nat.
Proof.
  intros Hs. assert (Hc : (c < 1114112)%N) by (unfold scalar in Hs; lia). unfold encode.
  assert (Hb : forall x, (x < 256)%N -> byte_val (byte x) = x) by (intros x Hx; now apply N_ascii_embedding).
  assert (Hin : forall y, cp_count [byte (128 + y mod 64)] = 0%nat).
  { intros y. pose proof (N.mod_upper_bound y 64 ltac:(lia)). cbn [cp_count]. rewrite Hb, continuation by lia.
    destruct (N.leb_spec 128 (128 + y mod 64)), (N.ltb_spec (128 + y mod 64) 192); try lia. reflexivity. }
  assert (Hlead : forall x, (x < 128 \/ 192 <= x)%N -> (x < 256)%N -> cp_count [byte x] = 1%nat).
  { intros x Hx Hl. cbn [cp_count]. rewrite Hb, continuation by exact Hl.
    destruct (N.leb_spec 128 x), (N.ltb_spec x 192); try lia; reflexivity. }
  destruct (N.ltb_spec c 128); [apply Hlead; lia|].
  destruct (N.ltb_spec c 2048).
  { change [byte (192 + c / 64); byte (128 + c mod 64)] with ([byte (192 + c / 64)] ++ [byte (128 + c mod 64)]).
    assert (c / 64 < 32)%N by (apply N.div_lt_upper_bound; lia).
    rewrite cp_count_app, Hin, Hlead by lia. reflexivity. }
  destruct (N.ltb_spec c 65536).
  { change [byte (224 + c / 4096); byte (128 + c / 64 mod 64); byte (128 + c mod 64)]
      with ([byte (224 + c / 4096)] ++ [byte (128 + c / 64 mod 64)] ++ [byte (128 + c mod 64)]).
    assert (c / 4096 < 16)%N by (apply N.div_lt_upper_bound; lia).
    rewrite !cp_count_app, !Hin, Hlead by lia. reflexivity. }
  change [byte (240 + c / 262144); byte (128 + c / 4096 mod 64); byte (128 + c / 64 mod 64); byte (128 + c mod 64)]
    with ([byte (240 + c / 262144)] ++ [byte (128 + c / 4096 mod 64)] ++ [byte (128 + c / 64 mod 64)] ++ [byte (128 + c mod 64)]).
  assert (c / 262144 < 16)%N by (apply N.div_lt_upper_bound; lia).
  rewrite !cp_count_app, !Hin, Hlead by lia. reflexivity.
Qed.

Lemma count_encode_all cs : Forall scalar cs -> cp_count (encode_all cs) = List.length cs.
Proof.
  unfold encode_all. induction 1 as [|c cs Hc _ IH]; [reflexivity|]. cbn [map List.concat List.length].
  now rewrite cp_count_app, count_encode, IH.
Qed.

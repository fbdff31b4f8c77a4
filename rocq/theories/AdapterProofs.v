(** Lemmas on the token adapter. *)
From Verif Require Import Bytes Token Adapter SpecAdapter.
From Coq Require Import ZifyBool ZifyNat.
Local Open Scope Z_scope.

Lemma zlen_nonneg {A} (l : list A) : 0 <= zlen l.
Proof. unfold zlen. lia. Qed.

Lemma zlen_app {A} (l m : list A) : zlen (l ++ m) = zlen l + zlen m.
Proof. unfold zlen. rewrite app_length. lia. Qed.

Lemma a_size_all a : a_size a = zlen (a_all a).
Proof. unfold a_size, a_all. now rewrite zlen_app. Qed.

Lemma transfer_all a it : a_all (transfer a it) = a_all a.
Proof.
  unfold transfer. destruct (_ || _); [easy|]. unfold a_all; cbn [a_proc a_unproc].
  now rewrite <- app_assoc, firstn_skipn.
Qed.

Lemma transfer_size a it : a_size (transfer a it) = a_size a.
Proof. now rewrite !a_size_all, transfer_all. Qed.

(** Where the boundary between the two vectors ends up. *)
Lemma transfer_proc_len a i :
  0 <= i < a_size a -> zlen (a_proc (transfer a (IAt i))) = Z.max (zlen (a_proc a)) (i + 1).
Proof.
  intros H. unfold transfer. destruct (Z.leb_spec (a_size a) i); [lia|].
  destruct (Z.ltb_spec i 0); [lia|]. cbn [orb].
  destruct (Z.ltb_spec i (zlen (a_proc a))); [lia|]. cbn [a_proc].
  rewrite zlen_app. unfold zlen at 2. rewrite firstn_length.
  unfold a_size, zlen in *. lia.
Qed.

Lemma transfer_end a it : is_end a it = true -> transfer a it = Adp (a_all a) [].
Proof.
  intros H. unfold transfer.
  assert (E : match it with IEnd => a_size a - 1 | IAt i => if a_size a <=? i then a_size a - 1 else i end
              = a_size a - 1).
  { destruct it; cbn [is_end] in H; [easy|]. now rewrite H. }
  rewrite E. unfold a_size.
  pose proof (zlen_nonneg (a_proc a)). pose proof (zlen_nonneg (a_unproc a)).
  destruct a as [p u]; cbn [a_proc a_unproc] in *.
  destruct u as [|t u].
  - assert (zlen (@nil token) = 0) as Hz by easy. rewrite Hz.
    replace (zlen p + 0 - 1 <? zlen p) with true by lia. rewrite orb_true_r.
    unfold a_all; cbn [a_proc a_unproc]. now rewrite app_nil_r.
  - assert (1 <= zlen (t :: u)) by (unfold zlen; cbn [List.length]; lia).
    replace (_ <? 0) with false by lia. replace (_ <? zlen p) with false by lia. cbn [orb].
    replace (Z.to_nat _) with (List.length (t :: u)) by (unfold zlen in *; lia).
    now rewrite firstn_all, skipn_all.
Qed.

(** What [transfer a (IAt i)] leaves in the two vectors, for a boundary not before [i]. *)
Lemma transfer_at a i :
  0 <= i < a_size a -> zlen (a_proc a) <= i + 1 ->
  transfer a (IAt i) = Adp (firstn (Z.to_nat (i + 1)) (a_all a)) (skipn (Z.to_nat (i + 1)) (a_all a)).
Proof.
  intros H Hp. unfold transfer.
  destruct (Z.leb_spec (a_size a) i); [lia|].
  destruct (Z.ltb_spec i 0); [lia|]. cbn [orb].
  destruct a as [p u]; unfold a_all; cbn [a_proc a_unproc] in *.
  rewrite firstn_app, skipn_app.
  destruct (Z.ltb_spec i (zlen p)) as [Hi|Hi].
  - replace (Z.to_nat (i + 1)) with (List.length p) by (unfold zlen in *; lia).
    now rewrite firstn_all, skipn_all, Nat.sub_diag, app_nil_r.
  - rewrite (firstn_all2 p) by (unfold zlen in *; lia).
    rewrite (skipn_all2 p) by (unfold zlen in *; lia).
    replace (Z.to_nat (i + 1 - zlen p)) with (Z.to_nat (i + 1) - List.length p)%nat
      by (unfold zlen in *; lia).
    easy.
Qed.

Lemma transfer_neg a i : i < 0 -> a_size a > i -> transfer a (IAt i) = a.
Proof.
  intros H Hs. unfold transfer. destruct (Z.leb_spec (a_size a) i); [lia|].
  now replace (i <? 0) with true by lia.
Qed.

Lemma a_size_nonneg a : 0 <= a_size a.
Proof. unfold a_size, zlen. lia. Qed.

Lemma deref_all a i : a_deref a (IAt i) = at_pos (a_all a) (Some i).
Proof.
  unfold a_deref, at_pos, znth, a_all. destruct (Z.leb_spec (zlen (a_proc a)) i) as [H|H].
  - pose proof (zlen_nonneg (a_proc a)). replace (i - zlen (a_proc a) <? 0) with false by lia.
    replace (i <? 0) with false by lia. rewrite nth_error_app2 by (unfold zlen in *; lia).
    f_equal. unfold zlen in *; lia.
  - destruct (Z.ltb_spec i 0); [easy|]. rewrite nth_error_app1; [easy|]. unfold zlen in *; lia.
Qed.

Lemma upd_firstn {A} (l : list A) i v :
  (i < List.length l)%nat -> upd l i v = firstn i l ++ [v] ++ skipn (S i) l.
Proof.
  revert i; induction l as [|x l IH]; intros [|i] H; cbn [List.length] in *; try lia; [easy|].
  cbn [upd firstn]. rewrite IH by lia. easy.
Qed.

Lemma upd_app {A} (l m : list A) i v : (i < List.length l)%nat -> upd (l ++ m) i v = upd l i v ++ m.
Proof.
  revert i; induction l as [|x l IH]; intros [|i] H; cbn [List.length] in *; try lia; [easy|].
  cbn. now rewrite IH by lia.
Qed.

Lemma upd_length {A} (l : list A) i v : List.length (upd l i v) = List.length l.
Proof. revert i; induction l as [|x l IH]; intros [|i]; cbn; auto. Qed.

Lemma set_all a i v :
  option_map a_all (a_set a (IAt i) v)
  = if (0 <=? i) && (i <? a_size a) then Some (upd (a_all a) (Z.to_nat i) v) else None.
Proof.
  unfold a_set. set (a' := transfer a (IAt i)).
  assert (Ha : a_all a' = a_all a) by apply transfer_all.
  destruct (Z.ltb_spec i 0) as [Hn|Hn].
  - replace (0 <=? i) with false by lia. easy.
  - replace (0 <=? i) with true by lia. cbn [orb andb].
    destruct (Z.ltb_spec i (a_size a)) as [H|H].
    + assert (zlen (a_proc a') = Z.max (zlen (a_proc a)) (i + 1)) by (apply transfer_proc_len; lia).
      replace (zlen (a_proc a') <=? i) with false by lia. cbn [option_map].
      unfold a_all at 1; cbn [a_proc a_unproc]. rewrite <- Ha. unfold a_all.
      rewrite upd_app; [easy|]. unfold zlen in *; lia.
    + assert (E : a' = Adp (a_all a) []) by (apply transfer_end; cbn; lia).
      rewrite E; cbn [a_proc]. rewrite <- a_size_all. now replace (a_size a <=? i) with true by lia.
Qed.

Lemma insert_at_all a i vs :
  0 <= i ->
  option_map (fun p => a_all (fst p)) (a_insert a (IAt i) vs)
  = let k := Nat.min (Z.to_nat i) (List.length (a_all a)) in
    Some (firstn k (a_all a) ++ vs ++ skipn k (a_all a)).
Proof.
  intros Hi. unfold a_insert. cbn [i_add]. set (a' := transfer a (IAt (i + -1))). cbv zeta.
  assert (Ha : a_all a' = a_all a) by apply transfer_all.
  assert (Hs : a_size a' = a_size a) by apply transfer_size.
  assert (Hz := a_size_all a). unfold zlen in Hz.
  cbn [is_end]. rewrite Hs. destruct (Z.leb_spec (a_size a) i) as [H|H].
  - cbn [option_map fst]. unfold a_all at 1; cbn [a_proc a_unproc].
    assert (E : a_unproc a' = []).
    { destruct (Z.eq_dec (a_size a) i) as [He|He].
      - destruct (Z.eq_dec i 0) as [H0|H0].
        + subst a'. rewrite transfer_neg by lia.
          unfold a_size, zlen in *. destruct (a_unproc a); [easy|]. cbn [List.length] in *. lia.
        + subst a'.
          assert (Hl : zlen (a_proc (transfer a (IAt (i + -1)))) = a_size a).
          { rewrite transfer_proc_len by lia. unfold a_size, zlen in *. lia. }
          pose proof (transfer_size a (IAt (i + -1))) as Hs'.
          unfold a_size at 1 in Hs'. unfold zlen in *.
          destruct (a_unproc (transfer a _)); [easy|]. cbn [List.length] in *; lia.
      - subst a'. rewrite transfer_end; [easy|]. cbn; lia. }
    unfold a_all in Ha at 1. rewrite E, app_nil_r in Ha. rewrite E, Ha, app_nil_r.
    replace (Nat.min _ _) with (List.length (a_all a)) by lia.
    now rewrite firstn_all, skipn_all, app_nil_r.
  - assert (Hp : i <= zlen (a_proc a')).
    { destruct (Z.eq_dec i 0); [unfold zlen; lia|]. subst a'. rewrite transfer_proc_len by lia. lia. }
    replace (i <? 0) with false by lia. replace (zlen (a_proc a') <? i) with false by lia.
    cbn [orb option_map fst]. unfold a_all at 1; cbn [a_proc a_unproc].
    replace (Nat.min _ _) with (Z.to_nat i) by lia.
    rewrite <- Ha. unfold a_all. rewrite firstn_app, skipn_app.
    replace (Z.to_nat i - _)%nat with 0%nat by (unfold zlen in *; lia).
    cbn [firstn skipn]. now rewrite app_nil_r, <- !app_assoc.
Qed.

Lemma erase_at_all a i :
  0 <= i ->
  option_map a_all (a_erase a (IAt i))
  = let k := Nat.min (Z.to_nat i) (List.length (a_all a)) in
    Some (firstn k (a_all a) ++ skipn (S k) (a_all a)).
Proof.
  intros Hi. unfold a_erase. cbn [is_end]. cbv zeta.
  assert (Hz := a_size_all a). unfold zlen in Hz.
  destruct (Z.leb_spec (a_size a) i) as [H|H].
  - cbn [option_map]. replace (Nat.min _ _) with (List.length (a_all a)) by lia.
    rewrite firstn_all, skipn_all2 by lia. now rewrite app_nil_r.
  - replace (i <? 0) with false by lia. replace (Nat.min _ _) with (Z.to_nat i) by lia.
    unfold a_all. destruct (Z.ltb_spec i (zlen (a_proc a))) as [Hp|Hp]; cbn [option_map a_proc a_unproc];
      unfold remove_at; rewrite firstn_app, skipn_app; unfold zlen in *.
    + replace (Z.to_nat i - List.length (a_proc a))%nat with 0%nat by lia.
      replace (S (Z.to_nat i) - List.length (a_proc a))%nat with 0%nat by lia.
      cbn [firstn]. now rewrite app_nil_r, app_assoc.
    + rewrite (firstn_all2 (a_proc a)) by lia. rewrite (skipn_all2 (a_proc a)) by lia.
      replace (Z.to_nat (i - _)) with (Z.to_nat i - List.length (a_proc a))%nat by lia.
      replace (S (Z.to_nat i) - List.length (a_proc a))%nat
        with (S (Z.to_nat i - List.length (a_proc a)))%nat by lia.
      cbn [app]. now rewrite app_assoc.
Qed.

Lemma insert_neg a i vs : i < 0 -> a_insert a (IAt i) vs = None.
Proof.
  intros H. unfold a_insert. cbn [i_add]. pose proof (a_size_nonneg a).
  rewrite transfer_neg by lia. cbn [is_end]. destruct (Z.leb_spec (a_size a) i); [lia|].
  now replace (i <? 0) with true by lia.
Qed.

Lemma erase_neg a i : i < 0 -> a_erase a (IAt i) = None.
Proof.
  intros H. unfold a_erase. cbn [is_end]. pose proof (a_size_nonneg a).
  destruct (Z.leb_spec (a_size a) i); [lia|]. now replace (i <? 0) with true by lia.
Qed.

Lemma adp_step_refines a o :
  match adp_step a o with
  | Some (a', r) => seq_step (a_all a) o = Some (a_all a', r)
  | None => seq_step (a_all a) o = None
  end.
Proof.
  destruct o as [i|i v|i vs|i|i]; cbn [adp_step seq_step].
  - destruct i as [i|]; cbn [to_iter].
    + rewrite deref_all. destruct (at_pos _ _); easy.
    + easy.
  - destruct i as [i|]; cbn [to_iter]; [|easy].
    pose proof (set_all a i v) as H. unfold at_pos.
    assert (Hz := a_size_all a). unfold zlen in Hz.
    destruct (Z.ltb_spec i 0) as [Hn|Hn].
    + replace (0 <=? i) with false in H by lia. cbn [andb] in H.
      destruct (a_set a (IAt i) v); [discriminate|easy].
    + replace (0 <=? i) with true in H by lia. cbn [andb] in H.
      destruct (Z.ltb_spec i (a_size a)) as [Hl|Hl].
      * destruct (a_set a (IAt i) v) as [a'|]; [|discriminate]. cbn [option_map] in *.
        injection H as H. destruct (nth_error (a_all a) (Z.to_nat i)) eqn:E.
        -- rewrite H, upd_firstn by lia. easy.
        -- apply nth_error_None in E. lia.
      * destruct (a_set a (IAt i) v); [discriminate|]. cbn [option_map].
        destruct (nth_error (a_all a) (Z.to_nat i)) eqn:E; [|easy].
        assert (nth_error (a_all a) (Z.to_nat i) <> None) as E' by congruence.
        apply nth_error_Some in E'. lia.
  - destruct i as [i|]; cbn [to_iter clamp].
    + destruct (Z.ltb_spec i 0) as [Hn|Hn].
      * rewrite insert_neg by lia. easy.
      * pose proof (insert_at_all a i vs Hn) as H. cbv zeta in H.
        destruct (a_insert a (IAt i) vs) as [[a' it']|]; [|discriminate].
        cbn [option_map fst] in *. injection H as H. now rewrite H.
    + unfold a_insert. cbn [i_add is_end option_map fst].
      rewrite transfer_end by easy. cbn [a_proc a_unproc].
      change (a_all (Adp (a_all a ++ vs) [])) with ((a_all a ++ vs) ++ []).
      now rewrite firstn_all, skipn_all, !app_nil_r.
  - destruct i as [i|]; cbn [to_iter clamp].
    + destruct (Z.ltb_spec i 0) as [Hn|Hn].
      * rewrite erase_neg by lia. easy.
      * pose proof (erase_at_all a i Hn) as H. cbv zeta in H.
        destruct (a_erase a (IAt i)) as [a'|]; [|discriminate].
        cbn [option_map] in *. injection H as H. now rewrite H.
    + unfold a_erase. cbn [is_end option_map].
      now rewrite firstn_all, skipn_all2, app_nil_r by lia.
  - now rewrite transfer_all.
Qed.

Lemma adp_run_refines os : forall a,
  match adp_run a os with
  | Some (a', rs) => seq_run (a_all a) os = Some (a_all a', rs)
  | None => seq_run (a_all a) os = None
  end.
Proof.
  induction os as [|o os IH]; intros a; cbn [adp_run seq_run]; [easy|].
  pose proof (adp_step_refines a o) as H.
  destruct (adp_step a o) as [[a' r]|]; rewrite H; [|easy].
  specialize (IH a'). destruct (adp_run a' os) as [[a'' rs]|]; now rewrite IH.
Qed.

(** Size and emptiness. *)
Lemma a_empty_all a : a_empty a = true <-> a_all a = [].
Proof. destruct a as [[|p ps] [|u us]]; cbn; split; easy. Qed.

(** ** Comparison and loops *)

Lemma is_end_spec a i k : clamp (a_all a) i = Some k ->
  (is_end a (to_iter i) = true /\ k = List.length (a_all a)) \/
  (is_end a (to_iter i) = false /\ exists z, i = Some z /\ z = Z.of_nat k /\ (k < List.length (a_all a))%nat).
Proof.
  destruct i as [z|]; cbn [clamp to_iter is_end]; intros H; [|left; split; [reflexivity|congruence]].
  rewrite a_size_all. unfold zlen. destruct (Z.ltb_spec z 0); [discriminate|]. injection H as <-.
  destruct (Z.leb_spec (Z.of_nat (List.length (a_all a))) z); [left|right]; (split; [reflexivity|]); [lia|].
  exists z. split; [reflexivity|]. lia.
Qed.

Lemma i_eqb_spec a i j ki kj : clamp (a_all a) i = Some ki -> clamp (a_all a) j = Some kj ->
  (i_eqb a (to_iter i) (to_iter j) = true <-> ki = kj).
Proof.
  intros Hi Hj. unfold i_eqb.
  destruct (is_end_spec a i ki Hi) as [[Ei Ki]|[Ei (x & -> & Kx & Lx)]];
  destruct (is_end_spec a j kj Hj) as [[Ej Kj]|[Ej (y & -> & Ky & Ly)]]; rewrite Ei, Ej; cbn [andb orb to_iter];
    (split; intros H; try easy; try lia).
Qed.

Lemma loop_eq k a it : adp_loop (S k) a it
  = if i_eqb a it IEnd then Some []
    else match a_deref a it with Some t => option_map (cons t) (adp_loop k a (i_add it 1)) | None => None end.
Proof. reflexivity. Qed.

Lemma loop_spec a : forall k i, (k + i = List.length (a_all a))%nat ->
  adp_loop (S k) a (IAt (Z.of_nat i)) = Some (skipn i (a_all a)).
Proof.
  induction k as [|k IH]; intros i H; rewrite loop_eq.
  - replace (i_eqb a (IAt (Z.of_nat i)) IEnd) with true; [rewrite skipn_all2 by lia; reflexivity|].
    unfold i_eqb, is_end. rewrite a_size_all. unfold zlen. destruct (Z.leb_spec (Z.of_nat (List.length (a_all a))) (Z.of_nat i)); [reflexivity|lia].
  - replace (i_eqb a (IAt (Z.of_nat i)) IEnd) with false.
    2:{ unfold i_eqb, is_end. rewrite a_size_all. unfold zlen.
        destruct (Z.leb_spec (Z.of_nat (List.length (a_all a))) (Z.of_nat i)); [lia|reflexivity]. }
    assert (E : a_deref a (IAt (Z.of_nat i)) = nth_error (a_all a) i).
    { unfold a_deref, znth, a_all, zlen. destruct (Z.leb_spec (Z.of_nat (List.length (a_proc a))) (Z.of_nat i)).
      - destruct (Z.ltb_spec (Z.of_nat i - Z.of_nat (List.length (a_proc a))) 0); [lia|].
        rewrite nth_error_app2 by lia. f_equal. lia.
      - destruct (Z.ltb_spec (Z.of_nat i) 0); [lia|]. rewrite nth_error_app1 by lia. f_equal. lia. }
    rewrite E. destruct (nth_error (a_all a) i) as [t|] eqn:En; [|apply nth_error_None in En; lia].
    replace (i_add (IAt (Z.of_nat i)) 1) with (IAt (Z.of_nat (S i))) by (cbn [i_add]; f_equal; lia).
    rewrite IH by lia. cbn [option_map]. f_equal. clear -En. revert i En. induction (a_all a) as [|x l IHl]; intros [|i] En; try discriminate.
    + cbn in En. injection En as ->. reflexivity.
    + cbn [nth_error] in En. cbn [skipn]. now apply IHl.
Qed.

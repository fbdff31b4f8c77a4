(** Lemmas on token prefixes. *)
From Verif Require Import Bytes Token.

Lemma skipn_app_len {A} (p r : list A) : skipn (List.length p) (p ++ r) = r.
Proof. induction p; cbn; auto. Qed.

Lemma starts_with_skipn p s : starts_with p s = true -> p ++ skipn (List.length p) s = s.
Proof. intros H. apply starts_with_app in H as [r ->]. now rewrite skipn_app_len. Qed.

Lemma long_is_short s : starts_with long_prefix s = true -> starts_with short_prefix s = true.
Proof.
  intros H. apply starts_with_app in H as [r ->]. reflexivity.
Qed.

Lemma get_token_type_str s : token_str (get_token_type s) = s.
Proof.
  unfold get_token_type, token_str.
  destruct (starts_with long_prefix s) eqn:E1; cbn [t_prefix t_name prefix_str].
  - now apply starts_with_skipn.
  - destruct (starts_with short_prefix s) eqn:E2; cbn [t_prefix t_name prefix_str].
    + now apply starts_with_skipn.
    + easy.
Qed.

Lemma get_token_type_for_str hl hs s : token_str (get_token_type_for hl hs s) = s.
Proof.
  unfold get_token_type_for, token_str.
  destruct (hl && starts_with long_prefix s) eqn:E1; cbn [t_prefix t_name prefix_str].
  - apply andb_true_iff in E1 as [_ E1]. now apply starts_with_skipn.
  - destruct (hs && _) eqn:E2; cbn [t_prefix t_name prefix_str].
    + apply andb_true_iff in E2 as [_ E2]. apply andb_true_iff in E2 as [E2 _].
      now apply starts_with_skipn.
    + easy.
Qed.

Lemma get_token_type_long s :
  t_prefix (get_token_type s) = PLong <-> exists r, s = long_prefix ++ r.
Proof.
  unfold get_token_type. rewrite <- starts_with_app.
  destruct (starts_with long_prefix s); [easy|]. destruct (starts_with short_prefix s); easy.
Qed.

Lemma get_token_type_short s :
  t_prefix (get_token_type s) = PShort
  <-> (exists r, s = short_prefix ++ r) /\ ~ (exists r, s = long_prefix ++ r).
Proof.
  unfold get_token_type. rewrite <- !starts_with_app.
  destruct (starts_with long_prefix s); [|destruct (starts_with short_prefix s)];
    cbn [t_prefix]; intuition congruence.
Qed.

Lemma get_token_type_for_long hl hs s :
  t_prefix (get_token_type_for hl hs s) = PLong <-> hl = true /\ exists r, s = long_prefix ++ r.
Proof.
  unfold get_token_type_for. rewrite <- starts_with_app.
  destruct hl, hs, (starts_with long_prefix s), (starts_with short_prefix s);
    cbn [t_prefix andb negb]; intuition congruence.
Qed.

Lemma get_token_type_for_short hl hs s :
  t_prefix (get_token_type_for hl hs s) = PShort
  <-> hs = true /\ (exists r, s = short_prefix ++ r) /\ ~ (exists r, s = long_prefix ++ r).
Proof.
  unfold get_token_type_for. rewrite <- !starts_with_app.
  destruct hl, hs, (starts_with long_prefix s), (starts_with short_prefix s);
    cbn [t_prefix andb negb]; intuition congruence.
Qed.

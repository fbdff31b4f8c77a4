(** Proofs about dynamic_string_view (C71). *)
From Coq Require Import Lia.
From Verif Require Import Bytes StringView SpecView.

Lemma upd_same {A} (f : nat -> option A) k x : upd f k x k = x.
Proof. unfold upd. now rewrite Nat.eqb_refl. Qed.
Lemma upd_other {A} (f : nat -> option A) k x j : j <> k -> upd f k x j = f j.
Proof. intros H. unfold upd. now destruct (Nat.eqb_spec j k). Qed.

Section Small.
Variable small : nat.
Notation make_string := (make_string small).
Notation assign_text := (assign_text small).

(** ** Blocks belong to exactly one object *)
Record owned (m : memory_of_views) : Prop := {
  ow_live : forall o v p, mv_objects m o = Some v -> v_str v = Allocated p -> p < mv_next m /\ mv_blocks m p <> None;
  ow_one : forall o o' v v' p, mv_objects m o = Some v -> mv_objects m o' = Some v' ->
             v_str v = Allocated p -> v_str v' = Allocated p -> o = o';
  ow_used : forall p, mv_blocks m p <> None -> p < mv_next m /\ exists o v, mv_objects m o = Some v /\ v_str v = Allocated p
}.

(** [m'] is [m] except for object [o], which has this text in its string. *)
Record changed (m m' : memory_of_views) (o : nat) (pl : place) (n : nat) (x : bytes) : Prop := {
  ch_owned : owned m';
  ch_outside : mv_outside m' = mv_outside m;
  ch_objects : forall j, j <> o -> mv_objects m' j = mv_objects m j;
  ch_texts : forall j v, j <> o -> mv_objects m j = Some v -> string_text m' (v_str v) = string_text m (v_str v);
  ch_this : exists s, mv_objects m' o = Some (SView pl n s) /\ string_text m' s = Some x
}.

Lemma put_changed m o pl n x : owned m -> mv_objects m o = None ->
  let '(m', s) := make_string m x in changed m (set_object m' o (Some (SView pl n s))) o pl n x.
Proof.
  intros [H1 H2 H3] Ho. unfold StringView.make_string. destruct (Nat.leb _ _).
  - split; [|reflexivity| | |].
    + split; cbn [set_object mv_objects mv_blocks mv_next].
      * intros j v p Hj Hp. destruct (Nat.eq_dec j o) as [->|Hne]; [rewrite upd_same in Hj; injection Hj as <-; discriminate|].
        rewrite upd_other in Hj by exact Hne. eauto.
      * intros j j' v v' p Hj Hj' Hp Hp'.
        destruct (Nat.eq_dec j o) as [->|Hne]; [rewrite upd_same in Hj; injection Hj as <-; discriminate|].
        destruct (Nat.eq_dec j' o) as [->|Hne']; [rewrite upd_same in Hj'; injection Hj' as <-; discriminate|].
        rewrite upd_other in Hj, Hj' by assumption. eauto.
      * intros p Hp. destruct (H3 p Hp) as (Hlt & j & v & Hj & Hv). split; [exact Hlt|]. exists j, v. split; [|exact Hv].
        rewrite upd_other; [exact Hj|]. intros ->. congruence.
    + intros j Hj. cbn. now apply upd_other.
    + reflexivity.
    + eexists. split; [cbn; apply upd_same|reflexivity].
  - assert (Hn : forall j v, mv_objects m j = Some v -> v_str v <> Allocated (mv_next m)).
    { intros j v Hj E. destruct (H1 j v _ Hj E). lia. }
    split; [|reflexivity| | |].
    + split; cbn [set_object mv_objects mv_blocks mv_next].
      * intros j v p Hj Hp. destruct (Nat.eq_dec j o) as [->|Hne].
        -- rewrite upd_same in Hj. injection Hj as <-. cbn in Hp. injection Hp as <-. rewrite upd_same. split; [lia|discriminate].
        -- rewrite upd_other in Hj by exact Hne. destruct (H1 _ _ _ Hj Hp) as [Hlt Hb]. rewrite upd_other by lia. split; [lia|exact Hb].
      * intros j j' v v' p Hj Hj' Hp Hp'.
        destruct (Nat.eq_dec j o) as [->|Hne]; destruct (Nat.eq_dec j' o) as [->|Hne']; [reflexivity| | |].
        -- rewrite upd_same in Hj. injection Hj as <-. cbn in Hp. injection Hp as <-. rewrite upd_other in Hj' by exact Hne'.
           destruct (Hn _ _ Hj' Hp').
        -- rewrite upd_same in Hj'. injection Hj' as <-. cbn in Hp'. injection Hp' as <-. rewrite upd_other in Hj by exact Hne.
           destruct (Hn _ _ Hj Hp).
        -- rewrite upd_other in Hj, Hj' by assumption. eauto.
      * intros p Hp. destruct (Nat.eq_dec p (mv_next m)) as [->|Hne].
        -- split; [lia|]. eexists o, _. rewrite upd_same. split; reflexivity.
        -- rewrite upd_other in Hp by exact Hne. destruct (H3 p Hp) as (Hlt & j & v & Hj & Hv). split; [lia|]. exists j, v. split; [|exact Hv].
           rewrite upd_other; [exact Hj|]. intros ->. congruence.
    + intros j Hj. cbn. now apply upd_other.
    + intros j v Hj Hv. cbn [set_object string_text mv_blocks]. destruct (v_str v) as [s|p] eqn:E; [reflexivity|]. cbn.
      apply upd_other. intros ->. exact (Hn _ _ Hv E).
    + eexists. split; [cbn; apply upd_same|]. cbn. apply upd_same.
Qed.

Lemma reassign_changed keep m o v pl n x : owned m -> mv_objects m o = Some v ->
  let '(m', s) := assign_text keep m (v_str v) x in changed m (set_object m' o (Some (SView pl n s))) o pl n x.
Proof.
  intros Hown Ho. assert (Hkeep := Hown). destruct Hkeep as [H1 H2 H3]. unfold StringView.assign_text. destruct (v_str v) as [s0|p0] eqn:Es.
  - (* as if the object were made *)
    assert (Hd : owned (set_object m o None)).
    { split; cbn [set_object mv_objects mv_blocks mv_next].
      - intros j w p Hj Hp. destruct (Nat.eq_dec j o) as [->|Hne]; [rewrite upd_same in Hj; discriminate|].
        rewrite upd_other in Hj by exact Hne. eauto.
      - intros j j' w w' p Hj Hj' Hp Hp'.
        destruct (Nat.eq_dec j o) as [->|Hne]; [rewrite upd_same in Hj; discriminate|].
        destruct (Nat.eq_dec j' o) as [->|Hne']; [rewrite upd_same in Hj'; discriminate|].
        rewrite upd_other in Hj, Hj' by assumption. eauto.
      - intros p Hp. destruct (H3 p Hp) as (Hlt & j & w & Hj & Hw). split; [exact Hlt|]. exists j, w. split; [|exact Hw].
        rewrite upd_other; [exact Hj|]. intros ->. congruence. }
    assert (P := put_changed (set_object m o None) o pl n x Hd (upd_same _ _ _)).
    unfold StringView.make_string in P |- *. cbn [set_object mv_objects mv_blocks mv_next mv_outside] in P |- *.
    destruct (Nat.leb _ _); destruct P as [P1 P2 P3 P4 P5]; (split; [|exact P2| | |]).
    + destruct P1 as [Q1 Q2 Q3]. split.
      * intros j w p Hj. apply (Q1 j w p). revert Hj. cbn. unfold upd. now destruct (Nat.eqb j o).
      * intros j j' w w' p Hj Hj'. apply (Q2 j j' w w' p); [revert Hj|revert Hj']; cbn; unfold upd; [now destruct (Nat.eqb j o)|now destruct (Nat.eqb j' o)].
      * intros p Hp. destruct (Q3 p Hp) as (Hlt & j & w & Hj & Hw). split; [exact Hlt|]. exists j, w. split; [|exact Hw].
        revert Hj. cbn. unfold upd. now destruct (Nat.eqb j o).
    + intros j Hj. cbn. now apply upd_other.
    + intros j w Hj Hw. apply (P4 j w Hj). cbn. now rewrite upd_other.
    + eexists. split; [cbn; apply upd_same|reflexivity].
    + destruct P1 as [Q1 Q2 Q3]. split.
      * intros j w p Hj. apply (Q1 j w p). revert Hj. cbn. unfold upd. now destruct (Nat.eqb j o).
      * intros j j' w w' p Hj Hj'. apply (Q2 j j' w w' p); [revert Hj|revert Hj']; cbn; unfold upd; [now destruct (Nat.eqb j o)|now destruct (Nat.eqb j' o)].
      * intros p Hp. destruct (Q3 p Hp) as (Hlt & j & w & Hj & Hw). split; [exact Hlt|]. exists j, w. split; [|exact Hw].
        revert Hj. cbn. unfold upd. now destruct (Nat.eqb j o).
    + intros j Hj. cbn. now apply upd_other.
    + intros j w Hj Hw. apply (P4 j w Hj). cbn. now rewrite upd_other.
    + eexists. split; [cbn; apply upd_same|]. cbn. apply upd_same.
  - destruct (H1 _ _ _ Ho Es) as [Hp0 Hb0].
    assert (Hother : forall j w, j <> o -> mv_objects m j = Some w -> v_str w <> Allocated p0).
    { intros j w Hj Hw E. apply Hj. exact (H2 _ _ _ _ _ Hw Ho E Es). }
    destruct keep.
    + split; [|reflexivity| | |].
      * split; cbn [set_object set_block mv_objects mv_blocks mv_next].
        -- intros j w p Hj Hp. destruct (Nat.eq_dec j o) as [->|Hne].
           ++ rewrite upd_same in Hj. injection Hj as <-. cbn in Hp. injection Hp as <-. rewrite upd_same. split; [lia|discriminate].
           ++ rewrite upd_other in Hj by exact Hne. destruct (H1 _ _ _ Hj Hp) as [Hlt Hb]. split; [exact Hlt|].
              rewrite upd_other; [exact Hb|]. intros ->. exact (Hother _ _ Hne Hj Hp).
        -- intros j j' w w' p Hj Hj' Hp Hp'.
           destruct (Nat.eq_dec j o) as [->|Hne]; destruct (Nat.eq_dec j' o) as [->|Hne']; [reflexivity| | |].
           ++ rewrite upd_same in Hj. injection Hj as <-. cbn in Hp. injection Hp as <-. rewrite upd_other in Hj' by exact Hne'.
              destruct (Hother _ _ Hne' Hj' Hp').
           ++ rewrite upd_same in Hj'. injection Hj' as <-. cbn in Hp'. injection Hp' as <-. rewrite upd_other in Hj by exact Hne.
              destruct (Hother _ _ Hne Hj Hp).
           ++ rewrite upd_other in Hj, Hj' by assumption. eauto.
        -- intros p Hp. destruct (Nat.eq_dec p p0) as [->|Hne].
           ++ split; [lia|]. eexists o, _. rewrite upd_same. split; reflexivity.
           ++ rewrite upd_other in Hp by exact Hne. destruct (H3 p Hp) as (Hlt & j & w & Hj & Hw). split; [lia|]. exists j, w. split; [|exact Hw].
              rewrite upd_other; [exact Hj|]. intros ->. congruence.
      * intros j Hj. cbn. now apply upd_other.
      * intros j w Hj Hw. cbn [set_object set_block string_text mv_blocks]. destruct (v_str w) as [s|p] eqn:E; [reflexivity|]. cbn.
        apply upd_other. intros ->. exact (Hother _ _ Hj Hw E).
      * eexists. split; [cbn; apply upd_same|]. cbn. apply upd_same.
    + assert (Hn : forall j w, mv_objects m j = Some w -> v_str w <> Allocated (mv_next m)).
      { intros j w Hj E. destruct (H1 j w _ Hj E). lia. }
      split; [|reflexivity| | |].
      * split; cbn [set_object set_block mv_objects mv_blocks mv_next].
        -- intros j w p Hj Hp. destruct (Nat.eq_dec j o) as [->|Hne].
           ++ rewrite upd_same in Hj. injection Hj as <-. cbn in Hp. injection Hp as <-. rewrite upd_same. split; [lia|discriminate].
           ++ rewrite upd_other in Hj by exact Hne. destruct (H1 _ _ _ Hj Hp) as [Hlt Hb]. split; [lia|].
              rewrite upd_other by lia. rewrite upd_other; [exact Hb|]. intros ->. exact (Hother _ _ Hne Hj Hp).
        -- intros j j' w w' p Hj Hj' Hp Hp'.
           destruct (Nat.eq_dec j o) as [->|Hne]; destruct (Nat.eq_dec j' o) as [->|Hne']; [reflexivity| | |].
           ++ rewrite upd_same in Hj. injection Hj as <-. cbn in Hp. injection Hp as <-. rewrite upd_other in Hj' by exact Hne'.
              destruct (Hn _ _ Hj' Hp').
           ++ rewrite upd_same in Hj'. injection Hj' as <-. cbn in Hp'. injection Hp' as <-. rewrite upd_other in Hj by exact Hne.
              destruct (Hn _ _ Hj Hp).
           ++ rewrite upd_other in Hj, Hj' by assumption. eauto.
        -- intros p Hp. destruct (Nat.eq_dec p (mv_next m)) as [->|Hne].
           ++ split; [lia|]. eexists o, _. rewrite upd_same. split; reflexivity.
           ++ rewrite upd_other in Hp by exact Hne. destruct (Nat.eq_dec p p0) as [->|Hne0]; [rewrite upd_same in Hp; now destruct Hp|].
              rewrite upd_other in Hp by exact Hne0. destruct (H3 p Hp) as (Hlt & j & w & Hj & Hw). split; [lia|]. exists j, w. split; [|exact Hw].
              rewrite upd_other; [exact Hj|]. intros ->. congruence.
      * intros j Hj. cbn. now apply upd_other.
      * intros j w Hj Hw. cbn [set_object set_block string_text mv_blocks]. destruct (v_str w) as [s|p] eqn:E; [reflexivity|]. cbn.
        rewrite upd_other by (intros ->; exact (Hn _ _ Hw E)). apply upd_other. intros ->. exact (Hother _ _ Hj Hw E).
      * eexists. split; [cbn; apply upd_same|]. cbn. apply upd_same.
Qed.

(** ** Objects and values *)

Definition well_stored (m : memory_of_views) (w : world) (c : content) (v : sview) : Prop :=
  match c with
  | Owned x => string_text m (v_str v) = Some x /\ (x = [] -> v_size v = 0)
  | Borrowed k => string_text m (v_str v) = Some []
                  /\ forall x, w_outside w k = Some x -> v_size v = List.length x /\ (x <> [] -> v_place v = Outside k)
  end.
Definition represents (m : memory_of_views) (w : world) (o : nat) (c : content) (v : sview) : Prop :=
  well_stored m w c v
  /\ match c with
     | Owned x => x <> [] -> v_place v = data_of o (v_str v) /\ v_size v = List.length x
     | Borrowed _ => True
     end.

Record related (w : world) (m : memory_of_views) : Prop := {
  re_owned : owned m;
  re_outside : mv_outside m = w_outside w;
  re_objects : forall o, match w_objects w o, mv_objects m o with
                         | Some c, Some v => represents m w o c v
                         | None, None => True
                         | _, _ => False
                         end
}.

Lemma related_some w m o c : related w m -> w_objects w o = Some c -> exists v, mv_objects m o = Some v /\ represents m w o c v.
Proof. intros R Hc. assert (H := re_objects w m R o). rewrite Hc in H. destruct (mv_objects m o) as [v|]; [eauto|easy]. Qed.
Lemma related_none w m o : related w m -> w_objects w o = None -> mv_objects m o = None.
Proof. intros R Hc. assert (H := re_objects w m R o). rewrite Hc in H. now destruct (mv_objects m o). Qed.

Lemma represents_text m w o c v t : owned m -> mv_outside m = w_outside w -> mv_objects m o = Some v ->
  represents m w o c v -> text_of w c = Some t -> read_object m o = Some t.
Proof.
  intros Hown Hout Hv [Hs Hp] Ht. unfold read_object. rewrite Hv. destruct c as [k|x]; cbn [text_of well_stored] in *.
  - destruct Hs as [_ Hs]. destruct (Hs t Ht) as [Hn Hpl]. rewrite Hn. destruct t as [|a t]; [reflexivity|].
    rewrite Hpl by discriminate. unfold read_view. cbn [List.length chars_at]. rewrite Hout, Ht.
    cbn [List.length]. rewrite Nat.leb_refl. now rewrite firstn_all2.
  - injection Ht as ->. destruct Hs as [Hs Hz]. destruct t as [|a t]; [now rewrite Hz|].
    destruct Hp as [Hpl Hn]; [discriminate|]. rewrite Hn, Hpl. unfold read_view. cbn [List.length].
    assert (E : chars_at m (data_of o (v_str v)) = Some (a :: t)).
    { destruct (v_str v) as [s|p] eqn:Es; cbn [data_of chars_at string_text] in *; [|exact Hs]. rewrite Hv, Es. exact Hs. }
    rewrite E. cbn [List.length]. rewrite Nat.leb_refl. now rewrite firstn_all2.
Qed.

Lemma related_text w m o t : related w m -> text w o = Some t -> read_object m o = Some t.
Proof.
  intros R Ht. unfold text in Ht. destruct (w_objects w o) as [c|] eqn:Ec; [|discriminate].
  destruct (related_some w m o c R Ec) as (v & Hv & Hr). destruct R as [R1 R2 R3]. now apply (represents_text m w o c v).
Qed.

Lemma represents_ext m m' w w' o c v : w_outside w' = w_outside w -> string_text m' (v_str v) = string_text m (v_str v) ->
  represents m w o c v -> represents m' w' o c v.
Proof. intros E1 E2. unfold represents, well_stored. rewrite E1, E2. easy. Qed.

Lemma related_changed w m m' o pl n x c : related w m -> changed m m' o pl n x ->
  (forall v, mv_objects m' o = Some v -> represents m' w o c v) -> related (put w o (Some c)) m'.
Proof.
  intros [R1 R2 R3] [C1 C2 C3 C4 (s & C5 & C6)] Hr. split; [exact C1|cbn; congruence|].
  intros j. cbn [put w_objects]. destruct (Nat.eq_dec j o) as [->|Hne].
  - rewrite upd_same, C5. apply (represents_ext m' m' w); [reflexivity|reflexivity|]. now apply Hr.
  - rewrite upd_other, C3 by exact Hne. assert (H := R3 j). destruct (w_objects w j) as [cj|]; destruct (mv_objects m j) as [vj|] eqn:Ej; try easy.
    apply (represents_ext m m' w); [reflexivity|now apply (C4 j)|exact H].
Qed.

Lemma set_view_owned m o v v' : owned m -> mv_objects m o = Some v -> v_str v' = v_str v -> owned (set_object m o (Some v')).
Proof.
  intros [H1 H2 H3] Ho Es.
  assert (A : forall j u, mv_objects (set_object m o (Some v')) j = Some u -> exists u0, mv_objects m j = Some u0 /\ v_str u0 = v_str u).
  { intros j u Hj. cbn in Hj. destruct (Nat.eq_dec j o) as [->|Hne].
    - rewrite upd_same in Hj. injection Hj as <-. eauto.
    - rewrite upd_other in Hj by exact Hne. eauto. }
  split.
  - intros j u p Hj Hp. destruct (A j u Hj) as (u0 & Hu & Eu). apply (H1 j u0 p); congruence.
  - intros j j' u u' p Hj Hj' Hp Hp'. destruct (A j u Hj) as (u0 & Hu & Eu). destruct (A j' u' Hj') as (u0' & Hu' & Eu').
    apply (H2 j j' u0 u0' p); congruence.
  - intros p Hp. destruct (H3 p Hp) as (Hlt & j & u & Hj & Hu). split; [exact Hlt|]. exists j. cbn.
    destruct (Nat.eq_dec j o) as [->|Hne].
    + exists v'. rewrite upd_same. split; [reflexivity|]. congruence.
    + exists u. now rewrite upd_other.
Qed.

Lemma update_changed m m1 o pl n x : changed m m1 o pl n x ->
  exists m2 s, update_view m1 o = Some m2 /\ changed m m2 o (data_of o s) (List.length x) x
    /\ mv_objects m2 o = Some (SView (data_of o s) (List.length x) s) /\ string_text m2 s = Some x.
Proof.
  intros [C1 C2 C3 C4 (s & C5 & C6)]. unfold update_view. rewrite C5. cbn [v_str]. rewrite C6.
  eexists _, s. split; [reflexivity|]. split; [|split; [cbn; apply upd_same|]].
  2:{ destruct s; exact C6. }
  split.
  - now apply (set_view_owned m1 o (SView pl n s)).
  - exact C2.
  - intros j Hj. cbn. rewrite upd_other by exact Hj. now apply C3.
  - intros j v Hj Hv. rewrite <- (C4 j v Hj Hv). now destruct (v_str v).
  - exists s. split; [cbn; apply upd_same|]. now destruct s.
Qed.

Lemma owned_value m w o s x : string_text m s = Some x -> represents m w o (Owned x) (SView (data_of o s) (List.length x) s).
Proof. intros H. split; cbn; [split; [exact H|now intros ->]|]. easy. Qed.

(** The object's view is set right where it has a text of its own. *)
Lemma fix_up m w o c v : owned m -> mv_objects m o = Some v -> well_stored m w c v ->
  exists m' v', update_if_filled m o = Some m' /\ owned m' /\ mv_outside m' = mv_outside m
    /\ (forall j, j <> o -> mv_objects m' j = mv_objects m j) /\ mv_blocks m' = mv_blocks m
    /\ mv_objects m' o = Some v' /\ v_str v' = v_str v /\ represents m' w o c v'.
Proof.
  intros Hown Hv Hs. unfold update_if_filled. rewrite Hv.
  assert (Hx : exists x, string_text m (v_str v) = Some x) by (destruct c; destruct Hs as [Hs _]; eauto).
  destruct Hx as (x & Hx). rewrite Hx. destruct x as [|a x].
  - exists m, v. do 7 (split; [first [reflexivity|assumption]|]). split; [exact Hs|]. destruct c as [k|y]; [easy|].
    intros Hy. exfalso. apply Hy. cbn in Hs. destruct Hs as [Hs _]. congruence.
  - unfold update_view. rewrite Hv, Hx. eexists _, _. split; [reflexivity|]. split; [now apply (set_view_owned m o v)|].
    split; [reflexivity|]. split; [intros j Hj; cbn; now apply upd_other|]. split; [reflexivity|]. split; [cbn; apply upd_same|].
    split; [reflexivity|]. destruct c as [k|y]; cbn in Hs; destruct Hs as [Hs Hs'].
    + congruence.
    + assert (y = a :: x) as -> by congruence. apply owned_value. destruct (v_str v); exact Hx.
Qed.

Lemma string_text_blocks m m' s : mv_blocks m' = mv_blocks m -> string_text m' s = string_text m s.
Proof. intros E. destruct s; cbn; [reflexivity|now rewrite E]. Qed.

Lemma swap_owned m a c va vc : owned m -> mv_objects m a = Some va -> mv_objects m c = Some vc ->
  owned (set_object (set_object m a (Some vc)) c (Some va)).
Proof.
  intros Hown Ha Hc. destruct (Nat.eq_dec a c) as [->|Hne].
  - assert (va = vc) as <- by congruence. apply (set_view_owned _ c va); [|cbn; apply upd_same|reflexivity].
    now apply (set_view_owned m c va).
  - destruct Hown as [H1 H2 H3].
    set (sw := fun j => if Nat.eqb j a then c else if Nat.eqb j c then a else j).
    assert (A : forall j u, mv_objects (set_object (set_object m a (Some vc)) c (Some va)) j = Some u -> mv_objects m (sw j) = Some u).
    { intros j u. cbn. unfold upd, sw. destruct (Nat.eqb_spec j c) as [->|Hjc].
      - destruct (Nat.eqb_spec c a); [congruence|]. congruence.
      - destruct (Nat.eqb_spec j a); congruence. }
    assert (B : forall j u, mv_objects m j = Some u -> mv_objects (set_object (set_object m a (Some vc)) c (Some va)) (sw j) = Some u).
    { intros j u. cbn. unfold upd, sw. destruct (Nat.eqb_spec j a) as [->|Hja].
      - rewrite Nat.eqb_refl. congruence.
      - destruct (Nat.eqb_spec j c) as [->|Hjc].
        + rewrite Nat.eqb_refl. destruct (Nat.eqb_spec a c); congruence.
        + destruct (Nat.eqb_spec j c); [congruence|]. destruct (Nat.eqb_spec j a); congruence. }
    assert (I : forall j j', sw j = sw j' -> j = j').
    { intros j j'. unfold sw. destruct (Nat.eqb_spec j a), (Nat.eqb_spec j c), (Nat.eqb_spec j' a), (Nat.eqb_spec j' c); congruence. }
    split.
    + intros j u p Hj. apply A in Hj. exact (H1 _ _ _ Hj).
    + intros j j' u u' p Hj Hj' Hp Hp'. apply A in Hj, Hj'. apply I. exact (H2 _ _ _ _ _ Hj Hj' Hp Hp').
    + intros p Hp. destruct (H3 p Hp) as (Hlt & j & u & Hj & Hu). split; [exact Hlt|]. exists (sw j), u. split; [now apply B|exact Hu].
Qed.

Lemma swap_related w m a c x y : related w m -> w_objects w a = Some x -> w_objects w c = Some y ->
  exists m', view_swap m a c = Some m' /\ related (put (put w a (Some y)) c (Some x)) m'.
Proof.
  intros R Hx Hy. destruct (related_some w m a x R Hx) as (va & Ha & Ra). destruct (related_some w m c y R Hy) as (vc & Hc & Rc).
  assert (R' := R). destruct R' as [R1 R2 R3]. unfold view_swap. rewrite Ha, Hc.
  set (m1 := set_object (set_object m a (Some vc)) c (Some va)).
  assert (O1 : owned m1) by now apply swap_owned.
  (* after the exchange of the members *)
  assert (Ea : exists v1 z, mv_objects m1 a = Some v1 /\ well_stored m1 w z v1 /\ v1 = vc /\ z = y).
  { exists vc, y. split; [|split; [apply Rc|easy]]. unfold m1. cbn. destruct (Nat.eq_dec a c) as [->|Hne].
    - rewrite upd_same. congruence.
    - rewrite upd_other by exact Hne. apply upd_same. }
  destruct Ea as (v1 & z & Hv1 & W1 & -> & ->).
  destruct (fix_up m1 w a y vc O1 Hv1 W1) as (m2 & v2 & E2 & O2 & Out2 & Oth2 & Bl2 & Hv2 & Sv2 & Rep2).
  rewrite E2.
  assert (Ec : exists v3, mv_objects m2 c = Some v3 /\ well_stored m2 w x v3 /\ (c = a -> v3 = v2) /\ (c <> a -> v3 = va)).
  { destruct (Nat.eq_dec c a) as [->|Hne].
    - exists v2. split; [exact Hv2|]. split; [|easy]. assert (y = x) as <- by congruence. apply Rep2.
    - exists va. rewrite Oth2 by exact Hne. split; [unfold m1; cbn; apply upd_same|]. split; [|easy].
      destruct Ra as [Ra _]. unfold well_stored in *. destruct x; rewrite (string_text_blocks m m2) by (rewrite Bl2; reflexivity); exact Ra. }
  destruct Ec as (v3 & Hv3 & W3 & E3 & E3').
  destruct (fix_up m2 w c x v3 O2 Hv3 W3) as (m3 & v4 & E4 & O3 & Out3 & Oth3 & Bl3 & Hv4 & Sv4 & Rep4).
  exists m3. split; [exact E4|]. split; [exact O3|cbn; rewrite Out3, Out2; exact R2|].
  intros j. cbn [put w_objects]. destruct (Nat.eq_dec j c) as [->|Hjc].
  { rewrite upd_same, Hv4. apply (represents_ext m3 m3 w); [reflexivity|reflexivity|exact Rep4]. }
  rewrite upd_other, Oth3 by exact Hjc. destruct (Nat.eq_dec j a) as [->|Hja].
  { rewrite upd_same, Hv2. apply (represents_ext m2 m3 w); [reflexivity|now apply string_text_blocks|exact Rep2]. }
  rewrite upd_other, Oth2 by exact Hja. unfold m1. cbn. rewrite !upd_other by assumption.
  assert (H := R3 j). destruct (w_objects w j) as [cj|]; destruct (mv_objects m j) as [vj|]; try easy.
  apply (represents_ext m m3 w); [reflexivity| |exact H]. apply string_text_blocks. now rewrite Bl3, Bl2.
Qed.

Lemma destroy_related w m o c : related w m -> w_objects w o = Some c ->
  exists m', view_destroy m o = Some m' /\ related (put w o None) m'.
Proof.
  intros R Hc. destruct (related_some w m o c R Hc) as (v & Hv & Hr). destruct R as [R1 R2 R3].
  unfold view_destroy. rewrite Hv. eexists. split; [reflexivity|]. destruct R1 as [H1 H2 H3].
  assert (T : forall j u, j <> o -> mv_objects m j = Some u ->
            string_text (set_object (destroy_string m (v_str v)) o None) (v_str u) = string_text m (v_str u)).
  { intros j u Hj Hu. destruct (v_str v) as [s|p] eqn:Es; destruct (v_str u) as [s'|p'] eqn:Eu; try reflexivity. cbn.
    apply upd_other. intros ->. apply Hj. exact (H2 _ _ _ _ _ Hu Hv Eu Es). }
  split.
  - split.
    + intros j u p Hj Hp. cbn in Hj. assert (Hne : j <> o) by (intros ->; destruct (v_str v); cbn in Hj; rewrite upd_same in Hj; discriminate).
      assert (Hj' : mv_objects m j = Some u) by (destruct (v_str v); cbn in Hj; rewrite upd_other in Hj by exact Hne; exact Hj).
      destruct (H1 _ _ _ Hj' Hp) as [Hlt Hb]. assert (E := T j u Hne Hj'). rewrite Hp in E. cbn [string_text] in E. rewrite E.
      split; [|exact Hb]. destruct (v_str v); exact Hlt.
    + intros j j' u u' p Hj Hj' Hp Hp'.
      assert (G : forall i t, mv_objects (set_object (destroy_string m (v_str v)) o None) i = Some t -> mv_objects m i = Some t).
      { intros i t Hi. destruct (Nat.eq_dec i o) as [->|Hne].
        - destruct (v_str v); cbn in Hi; rewrite upd_same in Hi; discriminate.
        - destruct (v_str v); cbn in Hi; rewrite upd_other in Hi by exact Hne; exact Hi. }
      exact (H2 _ _ _ _ _ (G _ _ Hj) (G _ _ Hj') Hp Hp').
    + intros p Hp. destruct (v_str v) as [s|p0] eqn:Es; cbn in Hp |- *.
      * destruct (H3 p Hp) as (Hlt & j & u & Hj & Hu). split; [exact Hlt|]. exists j, u. rewrite upd_other; [easy|]. intros ->. congruence.
      * destruct (Nat.eq_dec p p0) as [->|Hne]; [rewrite upd_same in Hp; now destruct Hp|]. rewrite upd_other in Hp by exact Hne.
        destruct (H3 p Hp) as (Hlt & j & u & Hj & Hu). split; [exact Hlt|]. exists j, u. rewrite upd_other; [easy|]. intros ->. congruence.
  - destruct (v_str v); exact R2.
  - intros j. cbn [put w_objects]. destruct (Nat.eq_dec j o) as [->|Hne].
    + rewrite upd_same. destruct (v_str v); cbn; rewrite upd_same; exact I.
    + rewrite upd_other by exact Hne. assert (H := R3 j). assert (E := T j).
      assert (Eo : mv_objects (set_object (destroy_string m (v_str v)) o None) j = mv_objects m j)
        by (destruct (v_str v); cbn; now rewrite upd_other).
      rewrite Eo. destruct (w_objects w j) as [cj|]; destruct (mv_objects m j) as [vj|]; try easy.
      apply (represents_ext m _ w); [reflexivity|now apply E|exact H].
Qed.

(** ** Every operation *)

Lemma related_eq w w' m : related w m -> (forall j, w_objects w' j = w_objects w j) -> w_outside w' = w_outside w -> related w' m.
Proof.
  intros [R1 R2 R3] E Eo. split; [exact R1|congruence|]. intros j. rewrite E. assert (H := R3 j).
  destruct (w_objects w j) as [c|]; destruct (mv_objects m j) as [v|]; try easy. now apply (represents_ext m m w).
Qed.

Lemma empty_related w m o : related w m -> w_objects w o = None ->
  exists m', view_empty m o = Some m' /\ related (put w o (Some (Owned []))) m'.
Proof.
  intros R Ho. assert (Hm := related_none w m o R Ho). unfold view_empty. rewrite Hm. eexists. split; [reflexivity|].
  assert (P := put_changed m o (Outside 0) 0 [] (re_owned w m R) Hm). unfold StringView.make_string in P. cbn [List.length Nat.leb] in P.
  apply (related_changed w m _ o _ _ _ _ R P). intros v Hv. cbn in Hv. rewrite upd_same in Hv. injection Hv as <-. easy.
Qed.

Lemma from_related w m o k x : related w m -> w_objects w o = None -> w_outside w k = Some x ->
  exists m', view_from m o k = Some m' /\ related (put w o (Some (Borrowed k))) m'.
Proof.
  intros R Ho Hk. assert (Hm := related_none w m o R Ho). unfold view_from. rewrite Hm, (re_outside w m R), Hk.
  eexists. split; [reflexivity|].
  assert (P := put_changed m o (Outside k) (List.length x) [] (re_owned w m R) Hm). unfold StringView.make_string in P. cbn [List.length Nat.leb] in P.
  apply (related_changed w m _ o _ _ _ _ R P). intros v Hv. cbn in Hv. rewrite upd_same in Hv. injection Hv as <-.
  split; [|exact I]. split; [reflexivity|]. intros y Hy. cbn. split; [congruence|reflexivity].
Qed.

Lemma string_related w m o x : related w m -> w_objects w o = None ->
  exists m', view_string small m o x = Some m' /\ related (put w o (Some (Owned x))) m'.
Proof.
  intros R Ho. assert (Hm := related_none w m o R Ho). unfold view_string. rewrite Hm.
  assert (P := put_changed m o (Outside 0) 0 x (re_owned w m R) Hm). destruct (make_string m x) as [m1 s1].
  destruct (update_changed _ _ _ _ _ _ P) as (m2 & s & E & C & Hv & Ht). exists m2. split; [exact E|].
  apply (related_changed w m m2 o _ _ _ _ R C). intros v Hv'. rewrite Hv in Hv'. injection Hv' as <-. now apply owned_value.
Qed.

Lemma copy_related w m o other c : related w m -> w_objects w o = None -> w_objects w other = Some c ->
  exists m', view_copy small m o other = Some m' /\ related (put w o (Some c)) m'.
Proof.
  intros R Ho Hc. assert (Hm := related_none w m o R Ho). destruct (related_some w m other c R Hc) as (v & Hv & [Hw Hp]).
  unfold view_copy. rewrite Hm, Hv.
  assert (Hx : exists x, string_text m (v_str v) = Some x) by (destruct c; destruct Hw as [Hw _]; eauto).
  destruct Hx as (x & Hx). rewrite Hx.
  assert (P := put_changed m o (v_place v) (v_size v) x (re_owned w m R) Hm). destruct (make_string m x) as [m1 s1].
  destruct x as [|a x].
  - assert (P' := P). destruct P' as [_ _ _ _ (s & P5 & P6)]. unfold update_if_filled. rewrite P5. cbn [v_str]. rewrite P6.
    eexists. split; [reflexivity|]. apply (related_changed w m _ o _ _ _ _ R P). intros v' Hv'. rewrite P5 in Hv'. injection Hv' as <-.
    destruct c as [k|y]; destruct Hw as [Hw1 Hw2]; split; cbn.
    + split; [exact P6|exact Hw2].
    + exact I.
    + assert (y = []) as -> by congruence. split; [exact P6|exact Hw2].
    + intros Hy. exfalso. apply Hy. congruence.
  - assert (Hcc : c = Owned (a :: x)) by (destruct c; destruct Hw as [Hw _]; congruence). subst c.
    assert (P' := P). destruct P' as [_ _ _ _ (s & P5 & P6)]. unfold update_if_filled. rewrite P5. cbn [v_str]. rewrite P6.
    destruct (update_changed _ _ _ _ _ _ P) as (m2 & s2 & E & C & Hv2 & Ht). exists m2. split; [exact E|].
    apply (related_changed w m m2 o _ _ _ _ R C). intros v' Hv'. rewrite Hv2 in Hv'. injection Hv' as <-. now apply owned_value.
Qed.

Lemma move_related w m o other c : related w m -> w_objects w o = None -> w_objects w other = Some c ->
  exists m', view_move m o other = Some m' /\ related (put (put w o (Some c)) other (Some (Owned []))) m'.
Proof.
  intros R Ho Hc. destruct (empty_related w m o R Ho) as (m1 & E1 & R1). unfold view_move. rewrite E1.
  assert (Hne : other <> o) by congruence.
  destruct (swap_related _ m1 o other (Owned []) c R1) as (m2 & E2 & R2); [cbn; apply upd_same|cbn; rewrite upd_other; assumption|].
  exists m2. split; [exact E2|]. apply (related_eq _ _ m2 R2); [|reflexivity]. intros j. cbn. unfold upd.
  destruct (Nat.eqb_spec j other), (Nat.eqb_spec j o); congruence.
Qed.

Lemma assign_related moved w m o other x c : related w m -> w_objects w 0 = None -> w_objects w o = Some x -> w_objects w other = Some c ->
  exists m', view_assign small moved 0 m o other = Some m'
    /\ related (put (if moved then put w other (Some (Owned [])) else w) o (Some c)) m'.
Proof.
  intros R H0 Hx Hc. unfold view_assign.
  assert (Ho : o <> 0) by congruence. assert (Hot : other <> 0) by congruence.
  set (w1 := if moved then put (put w 0 (Some c)) other (Some (Owned [])) else put w 0 (Some c)).
  assert (S1 : exists m1, (if moved then view_move m 0 other else view_copy small m 0 other) = Some m1 /\ related w1 m1).
  { unfold w1. destruct moved; [now apply move_related|now apply copy_related]. }
  destruct S1 as (m1 & E1 & R1). rewrite E1.
  assert (Hx1 : exists x1, w_objects w1 o = Some x1).
  { unfold w1. destruct moved; cbn; unfold upd; destruct (Nat.eqb_spec o other), (Nat.eqb_spec o 0); eauto; congruence. }
  destruct Hx1 as (x1 & Hx1).
  assert (H01 : w_objects w1 0 = Some c).
  { unfold w1. destruct moved; cbn; unfold upd; destruct (Nat.eqb_spec 0 other); try congruence; reflexivity. }
  destruct (swap_related w1 m1 o 0 x1 c R1 Hx1 H01) as (m2 & E2 & R2). rewrite E2.
  destruct (destroy_related _ m2 0 x1 R2) as (m3 & E3 & R3); [reflexivity|].
  exists m3. split; [exact E3|]. apply (related_eq _ _ m3 R3); [|unfold w1; now destruct moved].
  intros j. unfold w1. destruct moved; cbn; unfold upd;
    destruct (Nat.eqb_spec j 0), (Nat.eqb_spec j o), (Nat.eqb_spec j other); congruence.
Qed.

Lemma convert_related keep w m o t : related w m -> text w o = Some t ->
  exists m', view_convert small keep m o = Some m' /\ related (put w o (Some (Owned t))) m'.
Proof.
  intros R Ht. assert (Hr := related_text w m o t R Ht). unfold text in Ht. destruct (w_objects w o) as [c|] eqn:Ec; [|discriminate].
  destruct (related_some w m o c R Ec) as (v & Hv & Hrep). unfold read_object in Hr. rewrite Hv in Hr.
  unfold view_convert. rewrite Hv, Hr.
  assert (Hx : exists x, string_text m (v_str v) = Some x) by (destruct Hrep as [Hw _]; destruct c; destruct Hw as [Hw _]; eauto).
  destruct Hx as (x & Hx). rewrite Hx. destruct x as [|a x].
  - assert (P := reassign_changed keep m o v (v_place v) (v_size v) t (re_owned w m R) Hv). destruct (assign_text keep m (v_str v) t) as [m1 s1].
    destruct (update_changed _ _ _ _ _ _ P) as (m2 & s2 & E & C & Hv2 & Ht2). exists m2. split; [exact E|].
    apply (related_changed w m m2 o _ _ _ _ R C). intros v' Hv'. rewrite Hv2 in Hv'. injection Hv' as <-. now apply owned_value.
  - exists m. split; [reflexivity|].
    assert (Hcc : c = Owned (a :: x)) by (destruct Hrep as [Hw _]; destruct c; destruct Hw as [Hw _]; congruence). subst c.
    cbn [text_of] in Ht. injection Ht as <-. apply (related_eq w _ m R); [|reflexivity]. intros j. cbn. unfold upd.
    destruct (Nat.eqb_spec j o) as [->|]; congruence.
Qed.

Lemma extend_related keep w m o t u : related w m -> w_objects w o = Some (Owned t) ->
  exists m', view_extend small keep m o u = Some m' /\ related (put w o (Some (Owned (t ++ u)))) m'.
Proof.
  intros R Ho. destruct (related_some w m o _ R Ho) as (v & Hv & [[Hw _] _]). unfold view_extend. rewrite Hv, Hw.
  assert (P := reassign_changed keep m o v (v_place v) (v_size v) (t ++ u) (re_owned w m R) Hv).
  destruct (assign_text keep m (v_str v) (t ++ u)) as [m1 s1].
  destruct (update_changed _ _ _ _ _ _ P) as (m2 & s2 & E & C & Hv2 & Ht2). exists m2. split; [exact E|].
  apply (related_changed w m m2 o _ _ _ _ R C). intros v' Hv'. rewrite Hv2 in Hv'. injection Hv' as <-. now apply owned_value.
Qed.

Lemma append_world w m o t u : related (put (put w o (Some (Owned t))) o (Some (Owned u))) m -> related (put w o (Some (Owned u))) m.
Proof.
  intros R. apply (related_eq _ _ m R); [|reflexivity]. intros j. cbn. unfold upd. now destruct (Nat.eqb j o).
Qed.

Lemma step_related w m x w' : related w m -> w_objects w 0 = None -> value_step w x = Some w' ->
  exists m', view_step small m x = Some m' /\ related w' m' /\ w_objects w' 0 = None.
Proof.
  intros R H0 H. assert (Hput : forall u o c, w_objects u 0 = None -> o <> 0 -> w_objects (put u o c) 0 = None).
  { intros u o c Hu Ho. cbn. rewrite upd_other; [exact Hu|congruence]. }
  assert (Hlive : forall u o c, w_objects u 0 = None -> w_objects u o = Some c -> o <> 0) by (intros u o c Hu Hc ->; congruence).
  assert (Htext : forall o t, text w o = Some t -> o <> 0).
  { intros o t Ht ->. unfold text in Ht. now rewrite H0 in Ht. }
  destruct x; cbn [value_step view_step] in *.
  - destruct (w_outside w k) as [y|] eqn:Ek; [|discriminate]. destruct (Nat.eqb_spec o 0) as [|Ho]; [discriminate|].
    destruct (w_objects w o) eqn:Eo; [discriminate|]. injection H as <-.
    destruct (from_related w m o k y R Eo Ek) as (m' & E & R'). exists m'. auto.
  - destruct (Nat.eqb_spec o 0) as [|Ho]; [discriminate|]. destruct (w_objects w o) eqn:Eo; [discriminate|]. injection H as <-.
    destruct (string_related w m o x R Eo) as (m' & E & R'). exists m'. auto.
  - destruct (w_objects w other) as [c|] eqn:Ec; [|discriminate]. destruct (Nat.eqb_spec o 0) as [|Ho]; [discriminate|].
    destruct (w_objects w o) eqn:Eo; [discriminate|]. injection H as <-.
    destruct (copy_related w m o other c R Eo Ec) as (m' & E & R'). exists m'. auto.
  - destruct (w_objects w other) as [c|] eqn:Ec; [|discriminate]. destruct (Nat.eqb_spec o 0) as [|Ho]; [discriminate|].
    destruct (w_objects w o) eqn:Eo; [discriminate|]. injection H as <-.
    destruct (move_related w m o other c R Eo Ec) as (m' & E & R'). exists m'. eauto 6.
  - destruct (w_objects w o) as [x|] eqn:Eo; [|discriminate]. destruct (w_objects w other) as [c|] eqn:Ec; [|discriminate]. injection H as <-.
    destruct (assign_related false w m o other x c R H0 Eo Ec) as (m' & E & R'). exists m'. eauto 6.
  - destruct (w_objects w o) as [x|] eqn:Eo; [|discriminate]. destruct (w_objects w other) as [c|] eqn:Ec; [|discriminate]. injection H as <-.
    destruct (assign_related true w m o other x c R H0 Eo Ec) as (m' & E & R'). exists m'. eauto 7.
  - destruct (w_objects w a) as [x|] eqn:Eo; [|discriminate]. destruct (w_objects w c) as [y|] eqn:Ec; [|discriminate]. injection H as <-.
    destruct (swap_related w m a c x y R Eo Ec) as (m' & E & R'). exists m'. eauto 7.
  - destruct (text w o) as [t|] eqn:Et; [|discriminate]. injection H as <-.
    destruct (convert_related keep w m o t R Et) as (m' & E & R'). exists m'. eauto 6.
  - destruct (text w o) as [t|] eqn:Et; [|discriminate]. destruct (w_outside w k) as [u|] eqn:Ek; [|discriminate]. injection H as <-.
    destruct (convert_related k1 w m o t R Et) as (m1 & E1 & R1). unfold view_append. rewrite E1.
    rewrite (re_outside _ _ R1). cbn [put w_outside]. rewrite Ek.
    destruct (extend_related k2 _ m1 o t u R1 (upd_same _ _ _)) as (m2 & E2 & R2). exists m2. split; [exact E2|].
    split; [now apply append_world in R2|eauto].
  - destruct (text w o) as [t|] eqn:Et; [|discriminate]. destruct (text w other) as [u|] eqn:Eu; [|discriminate]. injection H as <-.
    destruct (convert_related k1 w m o t R Et) as (m1 & E1 & R1). unfold view_append_view. rewrite E1.
    assert (Er : read_object m1 other = Some u).
    { apply (related_text _ m1 other u R1). unfold text. cbn [put w_objects]. destruct (Nat.eq_dec other o) as [->|Hne].
      - rewrite upd_same. cbn. congruence.
      - rewrite upd_other by exact Hne. exact Eu. }
    rewrite Er. destruct (extend_related k2 _ m1 o t u R1 (upd_same _ _ _)) as (m2 & E2 & R2). exists m2. split; [exact E2|].
    split; [now apply append_world in R2|eauto].
  - destruct (w_objects w o) as [c|] eqn:Ec; [|discriminate]. injection H as <-.
    destruct (destroy_related w m o c R Ec) as (m' & E & R'). exists m'. eauto 6.
  - injection H as <-. eexists. split; [reflexivity|]. split; [|exact H0]. destruct R as [R1 R2 R3]. split.
    + destruct R1 as [Q1 Q2 Q3]. split; assumption.
    + cbn. now rewrite R2.
    + intros j. assert (H := R3 j). cbn [w_objects mv_objects]. destruct (w_objects w j) as [c|]; destruct (mv_objects m j) as [v|]; try easy.
      destruct H as [H1 H2]. split; [|exact H2]. destruct c as [b|y]; [|destruct (v_str v); exact H1]. destruct H1 as [H1 H3].
      split; [destruct (v_str v); exact H1|]. intros y Hy. apply H3. cbn in Hy. unfold upd in Hy. now destruct (Nat.eqb b k).
Qed.

Lemma run_related l : forall w m w', related w m -> w_objects w 0 = None -> value_run w l = Some w' ->
  exists m', view_run small m l = Some m' /\ related w' m'.
Proof.
  induction l as [|x l IH]; intros w m w' R H0 H; cbn [value_run view_run] in *.
  - injection H as <-. eauto.
  - destruct (value_step w x) as [w1|] eqn:E; [|discriminate].
    destruct (step_related w m x w1 R H0 E) as (m1 & E1 & R1 & H1). rewrite E1. exact (IH _ _ _ R1 H1 H).
Qed.

Lemma start_related texts : related (value_start texts) (view_start texts).
Proof. split; [split; cbn; [discriminate|discriminate|congruence]|reflexivity|]. intros j. exact I. Qed.

Lemma related_storage w m o c : related w m -> w_objects w o = Some c ->
  storage_size m o = Some match c with Owned x => List.length x | Borrowed _ => 0 end.
Proof.
  intros R Hc. destruct (related_some w m o c R Hc) as (v & Hv & [Hw _]). unfold storage_size. rewrite Hv.
  destruct c; destruct Hw as [-> _]; reflexivity.
Qed.

Lemma related_released w m : related w m -> (forall o, w_objects w o = None) -> forall p, mv_blocks m p = None.
Proof.
  intros R H p. destruct (mv_blocks m p) eqn:E; [|reflexivity]. exfalso.
  destruct (ow_used m (re_owned w m R) p) as (_ & o & v & Ho & _); [congruence|].
  rewrite (related_none w m o R (H o)) in Ho. discriminate.
Qed.
End Small.

(** The search for capstones (C30, C33-C36). *)
From Verif Require Import Base Lib ModelImage ModelGeometry ModelDetect SpecImage SpecScan FloodProofs RegionProofs ScanProofs.
From Coq Require Import ZifyBool ZifyNat ZifyN.
Ltac Zify.zify_post_hook ::= Z.div_mod_to_equations.

(** * Loops that may stop with a panic of a known reason *)

Lemma zfor_or {E St} (Q : Prop) (P : Z -> St -> Prop) (body : Z -> St -> res E St) lo hi s :
  lo <= hi -> P lo s ->
  (forall i s, lo <= i < hi -> P i s ->
     (exists s', body i s = Ok s' /\ P (i + 1) s') \/ (body i s = Panic /\ Q)) ->
  (exists s', for_each (zrange lo hi) body s = Ok s' /\ P hi s')
  \/ (for_each (zrange lo hi) body s = Panic /\ Q).
Proof.
  intros Hl H0 Hs. remember (Z.to_nat (hi - lo)) as n eqn:Hn. revert lo s Hl H0 Hs Hn.
  induction n as [|n IH]; intros lo s Hl H0 Hs Hn.
  - rewrite zrange_nil by lia. left. exists s. replace hi with lo by lia. auto.
  - rewrite zrange_cons by lia. cbn [for_each].
    destruct (Hs lo s ltac:(lia) H0) as [(s1 & -> & H1)|[-> HQ]]; [|right; auto].
    cbn [bind]. apply (IH (lo + 1) s1); try lia; [assumption|]. intros i t Hi. apply Hs. lia.
Qed.

Lemma for_or {E I St} (Q : Prop) (P : list I -> St -> Prop) (body : I -> St -> res E St) l : forall seen s,
  P seen s ->
  (forall seen i s, In i l -> P seen s -> (exists s', body i s = Ok s' /\ P (seen ++ [i]) s') \/ (body i s = Panic /\ Q)) ->
  (exists s', for_each l body s = Ok s' /\ P (seen ++ l) s') \/ (for_each l body s = Panic /\ Q).
Proof.
  induction l as [|i l IH]; intros seen s H0 Hs.
  - left. exists s. rewrite app_nil_r. auto.
  - cbn [for_each]. destruct (Hs seen i s (or_introl eq_refl) H0) as [(s1 & -> & H1)|[-> HQ]]; [|right; auto].
    cbn [bind]. destruct (IH (seen ++ [i]) s1 H1) as [(s2 & E2 & H2)|X]; [|left; exists s2; rewrite <- app_assoc in H2; auto|right; exact X].
    intros seen' i' s' Hi. apply Hs. right. assumption.
Qed.

(** * The scanner on an image being searched *)

Definition tracks (l : list color) (s : scanner) : Prop :=
  exists s0, scanned l s0 /\ s_buf s = s_buf s0 /\ s_run s = s_run s0 /\ s_changes s = s_changes s0
    /\ s_pos s = s_pos s0 /\ (s_last s = White <-> s_last s0 = White).

Lemma scanned_last l s : scanned l s -> forall d, last l d = s_last s.
Proof.
  intros (prev & k & n & E & ->) d. cbn [s_last].
  pose proof (runs_width color_eqb l) as W. rewrite E, width_app in W. cbn [width fold_right snd] in W.
  assert (Hn : 1 <= n) by (apply (runs_pos color_eqb l (k, n)); rewrite E; apply in_or_app; right; left; reflexivity).
  pose proof (width_pos l prev _ E) as Wp.
  pose proof (runs_values color_eqb color_eqb_ok l prev k n [] E (Z.of_nat (length l) - 1) ltac:(lia)) as V.
  destruct l as [|a l] using rev_ind; [cbn in W; lia|]. rewrite last_last.
  rewrite app_length in V. cbn [length] in V. rewrite nth_error_app2 in V by lia.
  replace (Z.to_nat (Z.of_nat (length l + 1) - 1) - length l)%nat with 0%nat in V by lia.
  cbn in V. congruence.
Qed.

Lemma advance_tracks l s c c' : tracks l s ->
  (s_last s = c <-> last l White = c') -> (c = White <-> c' = White) ->
  exists o s', advance s c = Ok (o, s') /\ tracks (l ++ [c']) s' /\ s_last s' = c
    /\ forall p, o = Some p <-> completes l c' p.
Proof.
  intros (s0 & H0 & E1 & E2 & E3 & E4 & E5) Hl Hc.
  destruct (advance_ok l s0 c' H0) as (o & s0' & Ea & H0' & Ho).
  rewrite (scanned_last l s0 H0) in Hl.
  unfold advance in *.
  destruct (color_eqb (s_last s) c) eqn:Ek.
  - apply color_eqb_ok in Ek. assert (Ek' : s_last s0 = c') by (apply Hl; assumption).
    assert (Q : color_eqb (s_last s0) c' = true) by (apply color_eqb_ok; assumption). rewrite Q in Ea.
    injection Ea as <- <-. exists None, (MkScanner (s_buf s) (s_last s) (s_run s + 1) (s_changes s) (s_pos s + 1)).
    split; [reflexivity|]. split; [|split; [exact Ek|exact Ho]].
    eexists. split; [exact H0'|]. cbn. rewrite E1, E2, E3, E4. repeat split; try reflexivity; apply E5.
  - apply color_eqb_neq in Ek. assert (Ek' : s_last s0 <> c') by (intros X; apply Ek, Hl; assumption).
    assert (Q : color_eqb (s_last s0) c' = false) by (apply color_eqb_neq; assumption). rewrite Q in Ea.
    rewrite E1, E2, E3, E4. set (buf := tl (s_buf s0) ++ [s_run s0]) in *.
    set (S := MkScanner buf c 1 (s_changes s0 + 1) (s_pos s0 + 1)).
    set (S' := MkScanner buf c' 1 (s_changes s0 + 1) (s_pos s0 + 1)) in *.
    assert (Et : test_for_capstone S = test_for_capstone S').
    { unfold test_for_capstone. cbn [S S' s_last s_changes s_buf].
      assert (is_white c = is_white c') as ->; [|reflexivity].
      destruct (is_white c) eqn:W; symmetry.
      - apply is_white_ok. apply Hc. apply is_white_ok. assumption.
      - apply not_true_iff_false. intros X. apply is_white_ok, Hc, is_white_ok in X. congruence. }
    rewrite Et.
    assert (T : tracks (l ++ [c']) S).
    { assert (s0' = S').
      { apply bind_ok_inv in Ea. destruct Ea as (b & _ & Ea). destruct b; [|congruence].
        apply bind_ok_inv in Ea. destruct Ea as (? & _ & Ea). apply bind_ok_inv in Ea. destruct Ea as (? & _ & Ea).
        apply bind_ok_inv in Ea. destruct Ea as (? & _ & Ea). apply bind_ok_inv in Ea. destruct Ea as (? & _ & Ea). congruence. }
      subst s0'. exists S'. split; [exact H0'|]. cbn. repeat split; try reflexivity; apply Hc. }
    apply bind_ok_inv in Ea. destruct Ea as (b & Eb & Ea). rewrite Eb. cbn [bind]. destruct b.
    + apply bind_ok_inv in Ea. destruct Ea as (l1 & El1 & Ea). rewrite El1. cbn [bind].
      apply bind_ok_inv in Ea. destruct Ea as (l2 & El2 & Ea). rewrite El2. cbn [bind].
      apply bind_ok_inv in Ea. destruct Ea as (l3 & El3 & Ea). rewrite El3. cbn [bind].
      apply bind_ok_inv in Ea. destruct Ea as (l4 & El4 & Ea). rewrite El4. cbn [bind].
      injection Ea as <- _. eexists _, _. split; [reflexivity|]. split; [exact T|]. split; [reflexivity|exact Ho].
    + injection Ea as <- _. eexists _, _. split; [reflexivity|]. split; [exact T|]. split; [reflexivity|exact Ho].
Qed.

(** The row as black and white, with white past the end. *)
Definition bit (I0 : image) (y x : Z) : color :=
  if (x <? im_w I0) && negb (pix I0 (x, y) =? 0) then Black else White.
Definition row_upto (I0 : image) (y x : Z) : list color := map (bit I0 y) (zrange 0 x).

(** A candidate of the search: at column [x] of row [y] a pattern is complete. *)
Definition candidate (I0 : image) (y x : Z) (l : linepos) : Prop :=
  completes (row_upto I0 y x) (bit I0 y x) l.

Lemma bit_nonwhite I0 y x : bit I0 y x <> White -> x < im_w I0 /\ pix I0 (x, y) <> 0.
Proof. unfold bit. destruct (x <? im_w I0) eqn:E1, (pix I0 (x, y) =? 0) eqn:E2; cbn; intros H; try congruence. lia. Qed.

Lemma bit_cases I0 y x : bit I0 y x = White \/ bit I0 y x = Black.
Proof. unfold bit. destruct (_ && _); auto. Qed.

Lemma row_upto_length I0 y x : 0 <= x -> Z.of_nat (length (row_upto I0 y x)) = x.
Proof. intros H. unfold row_upto. rewrite map_length, length_zrange. lia. Qed.

Lemma row_upto_nth I0 y x i k : 0 <= i -> nth_error (row_upto I0 y x) (Z.to_nat i) = Some k -> i < x /\ k = bit I0 y i.
Proof.
  intros Hi H. assert (L : (Z.to_nat i < length (row_upto I0 y x))%nat) by (apply nth_error_Some; congruence).
  unfold row_upto in *. rewrite map_length, length_zrange in L. split; [lia|].
  rewrite nth_error_map in H. destruct (nth_error (zrange 0 x) (Z.to_nat i)) as [j|] eqn:E; [|discriminate].
  cbn in H. injection H as <-. apply (nth_error_nth _ _ 0) in E. rewrite nth_zrange in E by lia. f_equal. lia.
Qed.

Lemma row_upto_snoc I0 y x : 0 <= x -> row_upto I0 y (x + 1) = row_upto I0 y x ++ [bit I0 y x].
Proof.
  intros H. unfold row_upto. rewrite (@zrange_app 0 x (x + 1)) by lia.
  rewrite (@zrange_cons x), (@zrange_nil (x + 1)) by lia. rewrite map_app. reflexivity.
Qed.

Lemma row_upto_last I0 y x : 1 <= x -> last (row_upto I0 y x) White = bit I0 y (x - 1).
Proof. intros H. replace x with (x - 1 + 1) at 1 by lia. rewrite row_upto_snoc by lia. apply last_last. Qed.

(** C33: the three positions of a candidate are dark pixels left of the column. *)
Lemma candidate_dark I0 y x l : candidate I0 y x l ->
  (0 <= l_left l < x /\ bit I0 y (l_left l) = Black)
  /\ (0 <= l_stone l < x /\ bit I0 y (l_stone l) = Black)
  /\ (0 <= l_right l < x /\ bit I0 y (l_right l) = Black)
  /\ l_left l < l_stone l < l_right l.
Proof.
  intros (_ & pre & k1 & n1 & k2 & n2 & k3 & n3 & k4 & n4 & k5 & n5 & E & N5 & _ & ->).
  set (L := row_upto I0 y x) in *. cbn [l_left l_stone l_right].
  assert (P : forall r, In r (runs color_eqb L) -> 1 <= snd r) by apply runs_pos.
  assert (In5 : forall r, In r [(k1, n1); (k2, n2); (k3, n3); (k4, n4); (k5, n5)] -> In r (runs color_eqb L)) by (intros r H; rewrite E; apply in_or_app; right; assumption).
  assert (P1 : 1 <= n1) by (apply (P (k1, n1)), In5; cbn; tauto).
  assert (P2 : 1 <= n2) by (apply (P (k2, n2)), In5; cbn; tauto).
  assert (P3 : 1 <= n3) by (apply (P (k3, n3)), In5; cbn; tauto).
  assert (P4 : 1 <= n4) by (apply (P (k4, n4)), In5; cbn; tauto).
  assert (P5 : 1 <= n5) by (apply (P (k5, n5)), In5; cbn; tauto).
  pose proof (width_pos L pre _ E) as Wp.
  assert (E3 : runs color_eqb L = (pre ++ [(k1, n1); (k2, n2)]) ++ (k3, n3) :: [(k4, n4); (k5, n5)]) by (rewrite E, <- app_assoc; reflexivity).
  assert (E5 : runs color_eqb L = (pre ++ [(k1, n1); (k2, n2); (k3, n3); (k4, n4)]) ++ (k5, n5) :: []) by (rewrite E, <- app_assoc; reflexivity).
  assert (E2 : runs color_eqb L = (pre ++ [(k1, n1)]) ++ (k2, n2) :: (k3, n3) :: [(k4, n4); (k5, n5)]) by (rewrite E, <- app_assoc; reflexivity).
  assert (E4 : runs color_eqb L = (pre ++ [(k1, n1); (k2, n2); (k3, n3)]) ++ (k4, n4) :: (k5, n5) :: []) by (rewrite E, <- app_assoc; reflexivity).
  assert (V : forall pre k n post i, runs color_eqb L = pre ++ (k, n) :: post -> 0 <= width pre -> width pre <= i < width pre + n -> i < x /\ k = bit I0 y i).
  { intros pre' k n post i H W Hi. apply row_upto_nth; [lia|]. eapply runs_values; [exact color_eqb_ok|exact H|exact Hi]. }
  assert (W3 : width (pre ++ [(k1, n1); (k2, n2)]) = width pre + n1 + n2) by (rewrite width_app; cbn [width fold_right snd]; lia).
  assert (W5 : width (pre ++ [(k1, n1); (k2, n2); (k3, n3); (k4, n4)]) = width pre + n1 + n2 + n3 + n4) by (rewrite width_app; cbn [width fold_right snd]; lia).
  assert (W2 : width (pre ++ [(k1, n1)]) = width pre + n1) by (rewrite width_app; cbn [width fold_right snd]; lia).
  assert (W4 : width (pre ++ [(k1, n1); (k2, n2); (k3, n3)]) = width pre + n1 + n2 + n3) by (rewrite width_app; cbn [width fold_right snd]; lia).
  destruct (V _ _ _ _ (width pre) E) as [V1 B1]; try lia.
  destruct (V _ _ _ _ (width pre + n1) E2) as [V2 B2]; try lia.
  destruct (V _ _ _ _ (width pre + n1 + n2) E3) as [V3 B3]; try lia.
  destruct (V _ _ _ _ (width pre + n1 + n2 + n3) E4) as [V4 B4]; try lia.
  destruct (V _ _ _ _ (width pre + n1 + n2 + n3 + n4) E5) as [V5 B5]; try lia.
  assert (A12 : k1 <> k2) by (eapply (runs_alternate color_eqb color_eqb_ok L); exact E).
  assert (A23 : k2 <> k3) by (eapply (runs_alternate color_eqb color_eqb_ok L); exact E2).
  assert (A34 : k3 <> k4) by (eapply (runs_alternate color_eqb color_eqb_ok L); exact E3).
  assert (A45 : k4 <> k5) by (eapply (runs_alternate color_eqb color_eqb_ok L); exact E4).
  pose proof (bit_cases I0 y (width pre)). pose proof (bit_cases I0 y (width pre + n1)).
  pose proof (bit_cases I0 y (width pre + n1 + n2)). pose proof (bit_cases I0 y (width pre + n1 + n2 + n3)).
  pose proof (bit_cases I0 y (width pre + n1 + n2 + n3 + n4)).
  assert (C5 : k5 = Black) by (destruct H3; congruence).
  assert (C4 : k4 = White) by (destruct H2; congruence).
  assert (C3 : k3 = Black) by (destruct H1; congruence).
  assert (C2 : k2 = White) by (destruct H0; congruence).
  assert (C1 : k1 = Black) by (destruct H; congruence).
  repeat split; try lia; congruence.
Qed.

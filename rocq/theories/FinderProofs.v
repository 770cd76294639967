(** The search in terms of SpecFinder: which patterns are found (C33, C34, C46). *)
From Verif Require Import Base Lib ModelImage ModelGeometry ModelDetect SpecImage SpecScan SpecFinder
  FloodProofs RegionProofs ScanProofs DetectProofs CornerProofs SearchProofs.
From Coq Require Import ZifyBool ZifyNat ZifyN.
Ltac Zify.zify_post_hook ::= Z.div_mod_to_equations.
Open Scope Z_scope.
Set Bullet Behavior "Strict Subproofs".

(** * Runs of a row *)

Lemma runs_append_run {A} (eqb : A -> A -> bool) (Heq : forall a b, eqb a b = true <-> a = b) l k d : forall n,
  (l = [] \/ last l d <> k) -> runs eqb (l ++ repeat k (S n)) = runs eqb l ++ [(k, Z.of_nat (S n))].
Proof.
  induction n as [|n IH]; intros H.
  - cbn [repeat]. destruct l as [|a l]; [reflexivity|].
    destruct H as [H|H]; [discriminate|].
    destruct (runs_snoc eqb Heq (a :: l) k ltac:(discriminate)) as (pre & k' & m & E1 & E2). rewrite E2, E1.
    destruct (eqb k' k) eqn:E; [|rewrite <- app_assoc; reflexivity]. exfalso. apply Heq in E. subst k'. apply H.
    assert (V : nth_error (a :: l) (length l) = Some k).
    { assert (P : 1 <= m) by (apply (runs_pos eqb (a :: l) (k, m)); rewrite E1; apply in_or_app; right; left; reflexivity).
      pose proof (runs_width eqb (a :: l)) as W. rewrite E1, width_app in W. unfold width at 2 in W. cbn [fold_right snd] in W. cbn [length] in W.
      replace (length l) with (Z.to_nat (width pre + m - 1)) by lia.
      apply (runs_values eqb Heq (a :: l) pre k m []); [exact E1|lia]. }
    clear - V. revert a V. induction l as [|b l IH]; intros a V; cbn in V; [injection V as ->; reflexivity|].
    change (last (a :: b :: l) d) with (last (b :: l) d). apply IH. exact V.
  - replace (repeat k (S (S n))) with (repeat k (S n) ++ [k]).
    2: { change [k] with (repeat k 1). rewrite <- repeat_app. f_equal. lia. }
    rewrite app_assoc. destruct (runs_snoc eqb Heq (l ++ repeat k (S n)) k) as (pre & k' & m & E1 & E2).
    { intros X. apply app_eq_nil in X. destruct X. discriminate. }
    rewrite E2. rewrite IH in E1 by assumption. apply app_inj_tail in E1. destruct E1 as [<- E1]. injection E1 as <- <-.
    replace (eqb k k) with true by (symmetry; apply Heq; reflexivity). do 2 f_equal. f_equal. lia.
Qed.

Lemma row_split I0 y a n k : 0 <= a -> 1 <= n -> (forall x, a <= x < a + n -> bit I0 y x = k) ->
  row_upto I0 y (a + n) = row_upto I0 y a ++ repeat k (S (Z.to_nat (n - 1))).
Proof.
  intros Ha Hn H. unfold row_upto. rewrite (@zrange_app 0 a (a + n)) by lia. rewrite map_app. f_equal.
  replace (S (Z.to_nat (n - 1))) with (length (zrange a (a + n))) by (rewrite length_zrange; lia).
  assert (G : forall l, (forall x, In x l -> bit I0 y x = k) -> map (bit I0 y) l = repeat k (length l)).
  { clear. induction l as [|x l IH]; intros H; [reflexivity|]. cbn [map length repeat]. rewrite (H x) by (left; reflexivity).
    f_equal. apply IH. intros x' Hx'. apply H. right. assumption. }
  apply G. intros x Hx. apply in_zrange in Hx. apply H. lia.
Qed.

Lemma row_upto_nil I0 y : row_upto I0 y 0 = [].
Proof. reflexivity. Qed.

Lemma bit_dark I0 y x : x < im_w I0 -> (bit I0 y x = Black <-> pix I0 (x, y) <> 0) /\ (bit I0 y x = White <-> pix I0 (x, y) = 0).
Proof.
  intros Hx. unfold bit. replace (x <? im_w I0) with true by lia. cbn [andb]. destruct (pix I0 (x, y) =? 0) eqn:E; cbn [negb].
  - split; split; intros H; try discriminate; try lia; reflexivity.
  - split; split; intros H; try discriminate; try lia; reflexivity.
Qed.

Lemma bit_edge I0 y : bit I0 y (im_w I0) = White.
Proof. unfold bit. replace (im_w I0 <? im_w I0) with false by lia. reflexivity. Qed.

(** A candidate is a row pattern of the picture. *)
Lemma candidate_row I0 y x l : 0 <= x <= im_w I0 ->
  (candidate I0 y x l <-> finder_row (im_w I0) (pix I0) y (l_left l) (l_stone l) (l_right l) x).
Proof.
  intros Hx. split.
  - intros (Wh & pre & k1 & n1 & k2 & n2 & k3 & n3 & k4 & n4 & k5 & n5 & E & K5 & Ra & ->). cbn [l_left l_stone l_right].
    assert (P : forall r, In r [(k1, n1); (k2, n2); (k3, n3); (k4, n4); (k5, n5)] -> 1 <= snd r).
    { intros r Hr. apply (runs_pos color_eqb (row_upto I0 y x)). rewrite E. apply in_or_app. right. assumption. }
    pose proof (P (k1, n1) ltac:(cbn; tauto)) as N1. pose proof (P (k2, n2) ltac:(cbn; tauto)) as N2. pose proof (P (k3, n3) ltac:(cbn; tauto)) as N3.
    pose proof (P (k4, n4) ltac:(cbn; tauto)) as N4. pose proof (P (k5, n5) ltac:(cbn; tauto)) as N5. clear P. cbn [snd] in *.
    pose proof (width_pos _ _ _ E) as W0.
    pose proof (runs_width color_eqb (row_upto I0 y x)) as Wt. rewrite E, width_app, row_upto_length in Wt by lia.
    unfold width at 2 in Wt. cbn [fold_right snd] in Wt.
    set (a := width pre) in *.
    (* the values of a run *)
    assert (V : forall pre' k n post, runs color_eqb (row_upto I0 y x) = pre' ++ (k, n) :: post ->
                0 <= width pre' -> forall i, width pre' <= i < width pre' + n -> i < x /\ k = bit I0 y i).
    { intros pre' k n post E' Wp i Hi. pose proof (runs_values color_eqb color_eqb_ok _ _ _ _ _ E' i Hi) as X. apply row_upto_nth in X; [assumption|lia]. }
    assert (Al : forall pre' k n k' n' post, runs color_eqb (row_upto I0 y x) = pre' ++ (k, n) :: (k', n') :: post -> k <> k')
      by (apply (runs_alternate color_eqb color_eqb_ok)).
    assert (Sp : forall u v, pre ++ u ++ v = (pre ++ u) ++ v) by (intros; apply app_assoc).
    assert (W1 : width (pre ++ [(k1, n1)]) = a + n1) by (rewrite width_app; unfold width at 2; cbn [fold_right snd]; lia).
    assert (W2 : width (pre ++ [(k1, n1); (k2, n2)]) = a + n1 + n2) by (rewrite width_app; unfold width at 2; cbn [fold_right snd]; lia).
    assert (W3 : width (pre ++ [(k1, n1); (k2, n2); (k3, n3)]) = a + n1 + n2 + n3) by (rewrite width_app; unfold width at 2; cbn [fold_right snd]; lia).
    assert (W4 : width (pre ++ [(k1, n1); (k2, n2); (k3, n3); (k4, n4)]) = a + n1 + n2 + n3 + n4) by (rewrite width_app; unfold width at 2; cbn [fold_right snd]; lia).
    pose proof (V pre k1 n1 _ E W0) as V1. fold a in V1.
    pose proof (V (pre ++ [(k1, n1)]) k2 n2 [(k3, n3); (k4, n4); (k5, n5)]) as V2. rewrite W1 in V2. specialize (V2 ltac:(rewrite <- app_assoc; exact E) ltac:(lia)).
    pose proof (V (pre ++ [(k1, n1); (k2, n2)]) k3 n3 [(k4, n4); (k5, n5)]) as V3. rewrite W2 in V3. specialize (V3 ltac:(rewrite <- app_assoc; exact E) ltac:(lia)).
    pose proof (V (pre ++ [(k1, n1); (k2, n2); (k3, n3)]) k4 n4 [(k5, n5)]) as V4. rewrite W3 in V4. specialize (V4 ltac:(rewrite <- app_assoc; exact E) ltac:(lia)).
    pose proof (V (pre ++ [(k1, n1); (k2, n2); (k3, n3); (k4, n4)]) k5 n5 []) as V5. rewrite W4 in V5. specialize (V5 ltac:(rewrite <- app_assoc; exact E) ltac:(lia)).
    pose proof (Al pre k1 n1 k2 n2 _ E) as A1.
    pose proof (Al (pre ++ [(k1, n1)]) k2 n2 k3 n3 [(k4, n4); (k5, n5)] ltac:(rewrite <- app_assoc; exact E)) as A2.
    pose proof (Al (pre ++ [(k1, n1); (k2, n2)]) k3 n3 k4 n4 [(k5, n5)] ltac:(rewrite <- app_assoc; exact E)) as A3.
    pose proof (Al (pre ++ [(k1, n1); (k2, n2); (k3, n3)]) k4 n4 k5 n5 [] ltac:(rewrite <- app_assoc; exact E)) as A4.
    assert (BW : forall i k, k = bit I0 y i -> k = White \/ k = Black) by (intros i k ->; apply bit_cases).
    pose proof (BW a k1 ltac:(apply V1; lia)) as B1. pose proof (BW (a + n1) k2 ltac:(apply V2; lia)) as B2. pose proof (BW (a + n1 + n2) k3 ltac:(apply V3; lia)) as B3.
    pose proof (BW (a + n1 + n2 + n3) k4 ltac:(apply V4; lia)) as B4. pose proof (BW (a + n1 + n2 + n3 + n4) k5 ltac:(apply V5; lia)) as B5.
    assert (E5 : k5 = Black) by tauto. assert (E4 : k4 = White) by (destruct B4; congruence). assert (E3 : k3 = Black) by (destruct B3; congruence).
    assert (E2 : k2 = White) by (destruct B2; congruence). assert (E1 : k1 = Black) by (destruct B1; congruence).
    exists n1, n2, n3, n4, n5. do 5 (split; [assumption|]). split; [exact W0|]. split; [lia|]. split; [lia|]. split; [lia|]. split; [lia|].
    split. { intros i Hi. destruct (V1 i Hi) as [L1 L2]. apply bit_dark; [lia|congruence]. }
    split. { intros i Hi. destruct (V2 i Hi) as [L1 L2]. apply bit_dark; [lia|congruence]. }
    split. { intros i Hi. destruct (V3 i Hi) as [L1 L2]. apply bit_dark; [lia|congruence]. }
    split. { intros i Hi. destruct (V4 i Hi) as [L1 L2]. apply bit_dark; [lia|congruence]. }
    split. { intros i Hi. destruct (V5 i Hi) as [L1 L2]. apply bit_dark; [lia|congruence]. }
    split.
    { destruct pre as [|r pre0]; [left; reflexivity|]. right.
      destruct (@exists_last _ (r :: pre0) ltac:(discriminate)) as (pre' & (k0 & n0) & Ep).
      assert (E' : runs color_eqb (row_upto I0 y x) = pre' ++ (k0, n0) :: (k1, n1) :: [(k2, n2); (k3, n3); (k4, n4); (k5, n5)]).
      { rewrite E, Ep, <- app_assoc. reflexivity. }
      pose proof (Al _ _ _ _ _ _ E') as A0.
      assert (N0 : 1 <= n0).
      { apply (runs_pos color_eqb (row_upto I0 y x) (k0, n0)). rewrite E'. apply in_or_app. right. left. reflexivity. }
      pose proof (width_pos _ _ _ E') as W0'.
      assert (Wa : a = width pre' + n0) by (unfold a; rewrite Ep, width_app; unfold width at 2; cbn [fold_right snd]; lia).
      destruct (V pre' k0 n0 _ E' W0' (a - 1)) as [L1 L2]; [lia|].
      apply bit_dark; [lia|]. destruct (BW _ _ L2) as [-> | -> ]; congruence. }
    split; [|assumption].
    destruct (Z.eq_dec x (im_w I0)) as [->|Nx]; [left; reflexivity|right]. apply bit_dark; [lia|assumption].
  - intros (n1 & n2 & n3 & n4 & n5 & N1 & N2 & N3 & N4 & N5 & L0 & Es & Er & Ex & Lw & D1 & D2 & D3 & D4 & D5 & El & Et & Ra).
    destruct l as [a s r]. cbn [l_left l_stone l_right] in *.
    split. { destruct Et as [->|Et]; [apply bit_edge|]. destruct (Z.eq_dec x (im_w I0)) as [->|Nx]; [apply bit_edge|]. apply bit_dark; [lia|assumption]. }
    assert (Bd : forall b n, b + n <= im_w I0 -> dark_run (pix I0) y b n -> forall i, b <= i < b + n -> bit I0 y i = Black).
    { intros b n Hb D i Hi. apply bit_dark; [lia|]. apply D. assumption. }
    assert (Bw : forall b n, b + n <= im_w I0 -> white_run (pix I0) y b n -> forall i, b <= i < b + n -> bit I0 y i = White).
    { intros b n Hb D i Hi. apply bit_dark; [lia|]. apply D. assumption. }
    assert (R0 : row_upto I0 y a = [] \/ last (row_upto I0 y a) White <> Black).
    { destruct (Z.eq_dec a 0) as [->|Na]; [left; reflexivity|right]. rewrite row_upto_last by lia.
      destruct El as [->|El]; [lia|]. replace (bit I0 y (a - 1)) with White; [discriminate|]. symmetry. apply bit_dark; [lia|assumption]. }
    (* one more run *)
    assert (Ext : forall b n k pre, 0 <= b -> 1 <= n -> (forall i, b <= i < b + n -> bit I0 y i = k) -> (row_upto I0 y b = [] \/ last (row_upto I0 y b) White <> k) ->
              runs color_eqb (row_upto I0 y b) = pre -> runs color_eqb (row_upto I0 y (b + n)) = pre ++ [(k, n)]).
    { intros b n k pre Hb Hn Hk Hl <-. rewrite (row_split I0 y b n k Hb Hn Hk).
      rewrite (runs_append_run color_eqb color_eqb_ok _ _ White) by assumption. repeat f_equal. lia. }
    assert (La : forall b n k k', 0 <= b -> 1 <= n -> (forall i, b <= i < b + n -> bit I0 y i = k) -> k <> k' ->
              row_upto I0 y (b + n) = [] \/ last (row_upto I0 y (b + n)) White <> k').
    { intros b n k k' Hb Hn Hk Hd. right. rewrite row_upto_last by lia. rewrite Hk by lia. assumption. }
    pose proof (Bd a n1 ltac:(lia) D1) as B1. pose proof (Bw (a + n1) n2 ltac:(lia) D2) as B2. pose proof (Bd s n3 ltac:(lia) D3) as B3.
    pose proof (Bw (s + n3) n4 ltac:(lia) D4) as B4. pose proof (Bd r n5 ltac:(lia) D5) as B5.
    pose proof (Ext a n1 Black _ L0 N1 B1 R0 eq_refl) as X1.
    pose proof (Ext (a + n1) n2 White _ ltac:(lia) N2 B2 (La a n1 Black White L0 N1 B1 ltac:(discriminate)) X1) as X2. rewrite <- Es in X2.
    pose proof (La (a + n1) n2 White Black ltac:(lia) N2 B2 ltac:(discriminate)) as L2. rewrite <- Es in L2.
    pose proof (Ext s n3 Black _ ltac:(lia) N3 B3 L2 X2) as X3.
    pose proof (Ext (s + n3) n4 White _ ltac:(lia) N4 B4 (La s n3 Black White ltac:(lia) N3 B3 ltac:(discriminate)) X3) as X4. rewrite <- Er in X4.
    pose proof (La (s + n3) n4 White Black ltac:(lia) N4 B4 ltac:(discriminate)) as L4. rewrite <- Er in L4.
    pose proof (Ext r n5 Black _ ltac:(lia) N5 B5 L4 X4) as X5. rewrite <- Ex in X5.
    exists (runs color_eqb (row_upto I0 y a)), Black, n1, White, n2, Black, n3, White, n4, Black, n5.
    split. { rewrite X5, <- !app_assoc. reflexivity. }
    split; [discriminate|]. split; [assumption|]. rewrite runs_width, row_upto_length by assumption. f_equal; lia.
Qed.

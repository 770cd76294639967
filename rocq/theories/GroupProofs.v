(** Which finder patterns are neighbours, for patterns drawn as squares. *)
From Coq Require Import Reals Lra SpecFloat.
From Flocq Require Import Core.
From Verif Require Import Base Lib ModelImage ModelGeometry ModelDetect ModelIdentify SpecImage SpecIdentify
  CornerProofs SearchProofs FloatProofs CenterProofs IdentifyProofs NeighborProofs ApproxProofs FrameProofs SquareProofs PatternProofs.
Open Scope Z_scope.
Set Bullet Behavior "Strict Subproofs".

(** * A pattern with its transform *)

Definition posed (c : capstone spec_float) (x y L a b : Z) : Prop :=
  cap_corners c = square x y L a b /\ affine (cap_c c) (IZR L / 7) a b x y.

Definition centred (m : Z) (s : pixel) (p : point) : Prop :=
  Z.abs (2 * px p - (2 * fst s + (7 * m - 1))) <= 1 /\ Z.abs (2 * py p - (2 * snd s + (7 * m - 1))) <= 1.

Lemma half_bound x z : (Rabs (IZR z - IZR x / 2) <= / 2 + 1 / 200)%R -> Z.abs (2 * z - x) <= 1.
Proof.
  intros H. apply Rabs_le_inv in H. assert (H1 : (-2 < IZR (2 * z - x) < 2)%R) by (rewrite minus_IZR, mult_IZR; lra).
  destruct H1 as [H1 H2]. apply lt_IZR in H1. apply lt_IZR in H2. lia.
Qed.

Lemma posed_bounds L : 13 <= L <= 32767 -> (1 <= IZR L / 7 <= 40000)%R.
Proof. intros H. assert (13 <= IZR L <= 32767)%R by (split; apply IZR_le; lia). lra. Qed.

Lemma square_posed m s c : 2 <= m -> 0 <= fst s -> 0 <= snd s -> fst s + 7 * m <= 32768 -> snd s + 7 * m <= 32768 -> square_cap m s c ->
  centred m s (cap_center c) /\
  (posed c (fst s) (snd s) (7 * m - 1) 1 0 \/ posed c (fst s) (snd s + (7 * m - 1)) (7 * m - 1) 0 (-1)).
Proof.
  intros M X Y X' Y' [Fr [Cr Mp]]. set (L := 7 * m - 1) in *.
  assert (Sm : small_corners (cap_corners c)) by (apply (frame_small m s); try assumption; lia).
  pose proof (posed_bounds L ltac:(unfold L; lia)) as BK.
  assert (N7 : near (n_ratio (Num := F64) 7 2) (7 / 2) (1 / 100000000)) by (eapply near_weaken; [apply near_rep; exact half7|lra]).
  assert (G : forall x y a b, axis a b -> cap_corners c = square x y L a b -> 0 <= x <= 40000 -> 0 <= y <= 40000 ->
    posed c x y L a b /\ Z.abs (2 * px (cap_center c) - (2 * x + L * (a - b))) <= 1 /\ Z.abs (2 * py (cap_center c) - (2 * y + L * (b + a))) <= 1).
  { intros x y a b Ax Ek Hx Hy. rewrite Ek in Sm, Cr. destruct (create_square x y L 7 a b Ax ltac:(lia) ltac:(unfold L; lia) Sm) as (c' & E' & Af).
    assert (c' = cap_c c) by congruence. subst c'. split; [split; assumption|].
    destruct (map_affine (cap_c c) (IZR L / 7) a b x y _ _ (7 / 2) (7 / 2) Af Ax BK Hx Hy N7 N7) as (p & q & Em & B1 & B2); [apply Rabs_le'; lra|apply Rabs_le'; lra|].
    assert (Ec : cap_center c = MkPoint p q) by congruence. rewrite Ec. cbn [px py]. split.
    - apply half_bound. rewrite plus_IZR, !mult_IZR, minus_IZR.
      replace ((2 * IZR x + IZR L * (IZR a - IZR b)) / 2)%R with (IZR x + IZR L / 7 * (IZR a * (7 / 2) - IZR b * (7 / 2)))%R by field. exact B1.
    - apply half_bound. rewrite plus_IZR, !mult_IZR, plus_IZR.
      replace ((2 * IZR y + IZR L * (IZR b + IZR a)) / 2)%R with (IZR y + IZR L / 7 * (IZR b * (7 / 2) + IZR a * (7 / 2)))%R by field. exact B2. }
  destruct Fr as [Ek|Ek]; apply G in Ek; try reflexivity; try lia.
  - destruct Ek as (P & C1 & C2). split; [split; lia|left; exact P].
  - destruct Ek as (P & C1 & C2). split; [split; lia|right; exact P].
Qed.

(** * Offsets *)

Lemma offset_near c L a b x y p : affine c (IZR L / 7) a b x y -> axis a b -> 13 <= L <= 32767 -> 0 <= x <= 32767 -> 0 <= y <= 32767 ->
  0 <= px p <= 32767 -> 0 <= py p <= 32767 ->
  let du := a * (2 * px p - 2 * x) + b * (2 * py p - 2 * y) - L in
  let dv := a * (2 * py p - 2 * y) - b * (2 * px p - 2 * x) - L in
  near (n_abs (Num := F64) (n_sub (fst (persp_unmap (N := F64) c p)) (n_ratio 7 2))) (IZR (Z.abs du) * (7 / (2 * IZR L))) (1 / 50000000) /\
  near (n_abs (Num := F64) (n_sub (snd (persp_unmap (N := F64) c p)) (n_ratio 7 2))) (IZR (Z.abs dv) * (7 / (2 * IZR L))) (1 / 50000000).
Proof.
  intros Af Ax HL Hx Hy Hp Hq du dv. destruct (unmap_affine c (IZR L / 7) a b x y p Af Ax (posed_bounds L HL) Hx Hy Hp Hq) as [U V].
  assert (LR : (13 <= IZR L <= 32767)%R) by (split; apply IZR_le; lia).
  assert (Kp : (0 < 7 / (2 * IZR L))%R) by (apply Rdiv_lt_0_compat; lra).
  assert (Kb : (7 / (2 * IZR L) <= 7 / 26)%R) by (apply Rmult_le_compat_l; [lra|apply Rinv_le_contravar; lra]).
  assert (Bd : forall d, Z.abs d <= 200000 -> (Rabs (IZR d * (7 / (2 * IZR L))) <= 100000)%R).
  { intros d Hd. rewrite Rabs_mult, (Rabs_pos_eq (7 / _)) by lra. rewrite <- abs_IZR.
    assert (0 <= IZR (Z.abs d) <= 200000)%R by (split; apply IZR_le; lia). nra. }
  assert (Ab : forall d, (IZR (Z.abs d) * (7 / (2 * IZR L)) = Rabs (IZR d * (7 / (2 * IZR L))))%R).
  { intros d. rewrite Rabs_mult, (Rabs_pos_eq (7 / _)) by lra. rewrite abs_IZR. reflexivity. }
  assert (St : forall f z d, near f (z / (IZR L / 7)) (1 / 110000000) -> (2 * z - IZR L)%R = IZR d -> Z.abs d <= 200000 ->
    near (n_abs (Num := F64) (n_sub f (n_ratio 7 2))) (IZR (Z.abs d) * (7 / (2 * IZR L))) (1 / 50000000)).
  { intros f z d N Ez Hd. rewrite Ab. apply near_abs.
    assert (Q : (z / (IZR L / 7) - 7 / 2 = IZR d * (7 / (2 * IZR L)))%R) by (rewrite <- Ez; field; lra).
    rewrite <- Q. apply near_sub with (ex := (1 / 110000000)%R) (ey := 0%R) (B := 200000%R); [exact N|apply near_rep; exact half7| |lra|lra].
    rewrite Q. pose proof (Bd d Hd). lra. }
  split.
  - eapply St; [exact U| |].
    + unfold du. rewrite !minus_IZR, plus_IZR, !mult_IZR, !minus_IZR, !mult_IZR. ring.
    + destruct (axis_cases a b Ax) as [[-> ->]|[[-> ->]|[[-> ->]|[-> ->]]]]; unfold du; lia.
  - eapply St; [exact V| |].
    + unfold dv. rewrite !minus_IZR, !mult_IZR, !minus_IZR, !mult_IZR. ring.
    + destruct (axis_cases a b Ax) as [[-> ->]|[[-> ->]|[[-> ->]|[-> ->]]]]; unfold dv; lia.
Qed.

(** * Comparisons *)

Section Compare.
Context (L : Z) (HL : 13 <= L <= 32767).
Notation k := (7 / (2 * IZR L))%R.

Lemma k_bounds : (7 / 65534 <= k <= 7 / 26)%R.
Proof using HL.
  assert (LR : (13 <= IZR L <= 32767)%R) by (split; apply IZR_le; lia).
  split; apply Rmult_le_compat_l; try lra; apply Rinv_le_contravar; lra.
Qed.

Lemma fifth_near V B : near V (IZR B * k) (1 / 50000000) -> 0 <= B <= 200000 ->
  near (n_mul (Num := F64) (n_ratio 2 10) V) (IZR B * k / 5) (1 / 1000000).
Proof using HL.
  intros N HB. pose proof k_bounds as Kb. assert (BR : (0 <= IZR B <= 200000)%R) by (split; apply IZR_le; lia).
  assert (P : (0 <= IZR B * k <= 100000)%R) by nra.
  replace (IZR B * k / 5)%R with (IZR 2 / IZR 10 * (IZR B * k))%R by (generalize (IZR B * k)%R; intros; field).
  apply near_mul with (ex := (1 / 900000000000)%R) (ey := (1 / 50000000)%R) (X := 1%R) (Y := 100000%R); [apply near_ratio; lia|exact N|apply Rabs_le'; lra|apply Rabs_le'; lra|lra|lra|lra|lra].
Qed.

Lemma much_less U V A B : near U (IZR A * k) (1 / 50000000) -> near V (IZR B * k) (1 / 50000000) -> 0 <= A <= 2 -> 50 <= B <= 200000 ->
  n_ltb (N := F64) U (n_mul (n_ratio 2 10) V) = true.
Proof using HL.
  intros NU NV HA HB. pose proof k_bounds as Kb. eapply near_ltb; [exact NU|apply fifth_near; [exact NV|lia]|].
  assert (BR : (50 <= IZR B)%R) by (apply IZR_le; lia). assert (AR : (IZR A <= 2)%R) by (apply IZR_le; lia). nra.
Qed.

Lemma not_much_less U V A B : near U (IZR A * k) (1 / 50000000) -> near V (IZR B * k) (1 / 50000000) -> 0 <= B <= 200000 -> 4 <= A -> B <= 2 * A ->
  n_ltb (N := F64) U (n_mul (n_ratio 2 10) V) = false.
Proof using HL.
  intros NU NV HB HA HAB. pose proof k_bounds as Kb. eapply near_nltb; [exact NU|apply fifth_near; [exact NV|lia]|].
  assert (BR : (IZR B <= 2 * IZR A)%R) by (rewrite <- mult_IZR; apply IZR_le; lia). assert (AR : (4 <= IZR A)%R) by (apply IZR_le; lia). nra.
Qed.

Lemma close_score U V A B : near U (IZR A * k) (1 / 50000000) -> near V (IZR B * k) (1 / 50000000) -> 50 <= A <= 200000 -> 50 <= B <= 200000 -> Z.abs (A - B) <= 4 ->
  n_ltb (N := F64) (neighbor_score U V) (n_ratio 1 4) = true.
Proof using HL.
  assert (G : forall U V A B, near U (IZR A * k) (1 / 50000000) -> near V (IZR B * k) (1 / 50000000) -> 50 <= A <= 200000 -> 50 <= B <= 200000 -> Z.abs (A - B) <= 4 ->
    n_ltb (N := F64) (n_abs (Num := F64) (n_sub (n_of 1) (n_div U V))) (n_ratio 1 4) = true).
  { clear U V A B. intros U V A B NU NV HA HB HAB. pose proof k_bounds as Kb.
    assert (AR : (50 <= IZR A <= 200000)%R) by (split; apply IZR_le; lia). assert (BR : (50 <= IZR B <= 200000)%R) by (split; apply IZR_le; lia).
    assert (DR : (-4 <= IZR A - IZR B <= 4)%R) by (rewrite <- minus_IZR; split; apply IZR_le; lia).
    set (q := (IZR A / IZR B)%R).
    assert (Q : (9 / 10 <= q <= 11 / 10)%R).
    { unfold q. assert (E : (IZR A / IZR B * IZR B = IZR A)%R) by (field; lra). split; apply Rmult_le_reg_r with (IZR B); try lra; rewrite E; lra. }
    assert (E : (IZR A * k / (IZR B * k) = q)%R) by (assert (13 <= IZR L)%R by (apply IZR_le; lia); unfold q; field; repeat split; lra).
    assert (N : near (n_div (Num := F64) U V) q (1 / 1000)).
    { rewrite <- E. apply near_div with (ex := (1 / 50000000)%R) (ey := (1 / 50000000)%R) (Q := 2%R) (Y := (1 / 200)%R) (e1 := (1 / 10000)%R); try assumption; try lra.
      - rewrite E. apply Rabs_le'; lra.
      - rewrite Rabs_pos_eq; nra. }
    assert (N1 : near (n_sub (Num := F64) (n_of 1) (n_div U V)) (1 - q) (1 / 500)).
    { apply near_sub with (ex := 0%R) (ey := (1 / 1000)%R) (B := 10%R); [apply near_of; lia|exact N| |lra|lra].
      apply Rplus_le_reg_r with (-0 - 1 / 1000)%R. ring_simplify. apply Rabs_le'; lra. }
    apply near_abs in N1. eapply near_ltb; [exact N1|apply near_ratio; lia|].
    assert (Rabs (1 - q) <= 1 / 10)%R by (apply Rabs_le'; lra). lra. }
  intros NU NV HA HB HAB. unfold neighbor_score. destruct (n_ltb U V); [apply (G U V A B)|apply (G V U B A)]; assumption || lia.
Qed.
End Compare.

(** * Who is a neighbour of whom *)

(** Twice the distance, along the two axes of the picture, from the middle of a pattern to a point. *)
Definition off_x (m : Z) (s : pixel) (p : point) : Z := Z.abs (2 * px p - (2 * fst s + (7 * m - 1))).
Definition off_y (m : Z) (s : pixel) (p : point) : Z := Z.abs (2 * py p - (2 * snd s + (7 * m - 1))).

Definition placed (s : pixel) (m : Z) : Prop := 0 <= fst s /\ 0 <= snd s /\ fst s + 7 * m <= 32768 /\ snd s + 7 * m <= 32768.
Definition on_picture (p : point) : Prop := 0 <= px p <= 32767 /\ 0 <= py p <= 32767.

Lemma offsets_square caps i m s ci : 2 <= m -> placed s m -> nth_error caps i = Some ci -> square_cap m s ci -> exists sw : bool,
  forall j cj, nth_error caps j = Some cj -> on_picture (cap_center cj) -> exists u v, offsets caps i j = Some (u, v) /\
    near u (IZR (if sw then off_y m s (cap_center cj) else off_x m s (cap_center cj)) * (7 / (2 * IZR (7 * m - 1)))) (1 / 50000000) /\
    near v (IZR (if sw then off_x m s (cap_center cj) else off_y m s (cap_center cj)) * (7 / (2 * IZR (7 * m - 1)))) (1 / 50000000).
Proof.
  intros M (P1 & P2 & P3 & P4) Ei Sq. destruct (square_posed m s ci M P1 P2 P3 P4 Sq) as [_ [[_ Af]|[_ Af]]].
  - exists false. intros j cj Ej [Hp Hq]. unfold offsets. rewrite Ei, Ej.
    destruct (offset_near (cap_c ci) (7 * m - 1) 1 0 (fst s) (snd s) (cap_center cj) Af eq_refl ltac:(lia) ltac:(lia) ltac:(lia) Hp Hq) as [U V].
    destruct (persp_unmap (cap_c ci) (cap_center cj)) as [u v]. cbn [fst snd] in U, V. eexists _, _. split; [reflexivity|]. split.
    + replace (off_x m s (cap_center cj)) with (Z.abs (1 * (2 * px (cap_center cj) - 2 * fst s) + 0 * (2 * py (cap_center cj) - 2 * snd s) - (7 * m - 1))) by (unfold off_x; f_equal; ring). exact U.
    + replace (off_y m s (cap_center cj)) with (Z.abs (1 * (2 * py (cap_center cj) - 2 * snd s) - 0 * (2 * px (cap_center cj) - 2 * fst s) - (7 * m - 1))) by (unfold off_y; f_equal; ring). exact V.
  - exists true. intros j cj Ej [Hp Hq]. unfold offsets. rewrite Ei, Ej.
    destruct (offset_near (cap_c ci) (7 * m - 1) 0 (-1) (fst s) (snd s + (7 * m - 1)) (cap_center cj) Af eq_refl ltac:(lia) ltac:(lia) ltac:(lia) Hp Hq) as [U V].
    destruct (persp_unmap (cap_c ci) (cap_center cj)) as [u v]. cbn [fst snd] in U, V. eexists _, _. split; [reflexivity|]. split.
    + replace (off_y m s (cap_center cj)) with (Z.abs (0 * (2 * px (cap_center cj) - 2 * fst s) + -1 * (2 * py (cap_center cj) - 2 * (snd s + (7 * m - 1))) - (7 * m - 1))) by (unfold off_y; rewrite <- Z.abs_opp; f_equal; ring). exact U.
    + replace (off_x m s (cap_center cj)) with (Z.abs (0 * (2 * py (cap_center cj) - 2 * (snd s + (7 * m - 1))) - -1 * (2 * px (cap_center cj) - 2 * fst s) - (7 * m - 1))) by (unfold off_x; f_equal; ring). exact V.
Qed.

Lemma off_bound m s p : 2 <= m -> placed s m -> on_picture p -> 0 <= off_x m s p <= 200000 /\ 0 <= off_y m s p <= 200000.
Proof. unfold placed, on_picture, off_x, off_y. lia. Qed.

(** [p] lies far off along one axis only, or far off along both alike. *)
Definition far_x m s p := 50 <= off_x m s p /\ off_y m s p <= 2.
Definition far_y m s p := 50 <= off_y m s p /\ off_x m s p <= 2.
Definition far_both m s p := 50 <= off_x m s p /\ 50 <= off_y m s p /\ off_x m s p <= 2 * off_y m s p /\ off_y m s p <= 2 * off_x m s p.

Section Three.
Context (caps : list (capstone spec_float)) (m : Z) (s : pixel) (i j k : nat) (ci cj ck : capstone spec_float).
Context (M : 2 <= m) (Pl : placed s m) (Ei : nth_error caps i = Some ci) (Ej : nth_error caps j = Some cj) (Ek : nth_error caps k = Some ck).
Context (Sq : square_cap m s ci) (Oj : on_picture (cap_center cj)) (Ok' : on_picture (cap_center ck)).
Context (Only : forall t, (t < length caps)%nat -> t = i \/ t = j \/ t = k) (Dij : i <> j) (Dik : i <> k).

Lemma seven_m : 13 <= 7 * m - 1 <= 32767.
Proof using M Pl Ei Ej Ek Sq Oj Ok' Only Dij Dik. unfold placed in Pl. lia. Qed.

Lemma index_of x d : offsets caps i x = Some d -> x <> i -> x = j \/ x = k.
Proof using M Pl Ei Ej Ek Sq Oj Ok' Only Dij Dik.
  intros E Hx. destruct (Only x) as [H|H]; [|contradiction|exact H]. apply nth_error_Some. unfold offsets in E. destruct (nth_error caps i); [|discriminate]. destruct (nth_error caps x); discriminate.
Qed.

Lemma viable_none : (far_x m s (cap_center cj) \/ far_y m s (cap_center cj)) -> far_both m s (cap_center ck) -> forall a b sc, ~ viable caps i a b sc.
Proof using M Pl Ei Ej Ek Sq Oj Ok' Only Dij Dik.
  intros Fj Fk a b sc (da & db & [Na (u & Ea & La)] & [Nb (v & Eb & Lb)] & _).
  destruct (offsets_square caps i m s ci M Pl Ei Sq) as (sw & O). destruct (O j cj Ej Oj) as (uj & vj & Oj1 & Uj & Vj). destruct (O k ck Ek Ok') as (uk & vk & Ok1 & Uk & Vk).
  pose proof (off_bound m s _ M Pl Oj) as [Bj1 Bj2]. pose proof (off_bound m s _ M Pl Ok') as [Bk1 Bk2]. pose proof seven_m as H7.
  destruct (index_of a _ Ea Na) as [-> | ->]; destruct (index_of b _ Eb Nb) as [-> | ->].
  - assert (u = uj /\ da = vj /\ v = vj /\ db = uj) as (-> & -> & -> & ->) by (repeat split; congruence).
    unfold far_x, far_y in Fj.
    destruct (Z_le_gt_dec 50 (if sw then off_y m s (cap_center cj) else off_x m s (cap_center cj))) as [G|G].
    + erewrite (not_much_less (7 * m - 1) H7 uj vj _ _ Uj Vj) in La; [discriminate|destruct sw; lia|lia|destruct sw; lia].
    + erewrite (not_much_less (7 * m - 1) H7 vj uj _ _ Vj Uj) in Lb; [discriminate|destruct sw; lia|destruct sw; lia|destruct sw; lia].
  - assert (v = vk /\ db = uk) as (-> & ->) by (repeat split; congruence). unfold far_both in Fk.
    erewrite (not_much_less (7 * m - 1) H7 vk uk _ _ Vk Uk) in Lb; [discriminate|destruct sw; lia|destruct sw; lia|destruct sw; lia].
  - assert (u = uk /\ da = vk) as (-> & ->) by (repeat split; congruence). unfold far_both in Fk.
    erewrite (not_much_less (7 * m - 1) H7 uk vk _ _ Uk Vk) in La; [discriminate|destruct sw; lia|destruct sw; lia|destruct sw; lia].
  - assert (u = uk /\ da = vk) as (-> & ->) by (repeat split; congruence). unfold far_both in Fk.
    erewrite (not_much_less (7 * m - 1) H7 uk vk _ _ Uk Vk) in La; [discriminate|destruct sw; lia|destruct sw; lia|destruct sw; lia].
Qed.

Lemma viable_only : far_x m s (cap_center cj) -> far_y m s (cap_center ck) -> Z.abs (off_x m s (cap_center cj) - off_y m s (cap_center ck)) <= 4 ->
  exists a b, (a = j /\ b = k \/ a = k /\ b = j) /\ (exists sc, viable caps i a b sc) /\ forall a' b' sc, viable caps i a' b' sc -> a' = a /\ b' = b.
Proof using M Pl Ei Ej Ek Sq Oj Ok' Only Dij Dik.
  intros [Fj1 Fj2] [Fk1 Fk2] Cl.
  destruct (offsets_square caps i m s ci M Pl Ei Sq) as (sw & O). destruct (O j cj Ej Oj) as (uj & vj & Oj1 & Uj & Vj). destruct (O k ck Ek Ok') as (uk & vk & Ok1 & Uk & Vk).
  pose proof (off_bound m s _ M Pl Oj) as [Bj1 Bj2]. pose proof (off_bound m s _ M Pl Ok') as [Bk1 Bk2]. pose proof seven_m as H7.
  pose proof (much_less (7 * m - 1) H7) as Le. pose proof (not_much_less (7 * m - 1) H7) as Nl. pose proof (close_score (7 * m - 1) H7) as Cs.
  destruct sw.
  - exists j, k. split; [left; split; reflexivity|]. split.
    + exists (neighbor_score vj uk), vj, uk. split; [split; [congruence|exists uj; split; [exact Oj1|eapply Le; [exact Uj|exact Vj|lia|lia]]]|].
      split; [split; [congruence|exists vk; split; [exact Ok1|eapply Le; [exact Vk|exact Uk|lia|lia]]]|].
      split; [reflexivity|]. eapply Cs; [exact Vj|exact Uk|lia|lia|lia].
    + intros a b sc (da & db & [Na (u & Ea & La)] & [Nb (v & Eb & Lb)] & _). split.
      * destruct (index_of a _ Ea Na) as [-> | ->]; [reflexivity|]. assert (u = uk /\ da = vk) as (-> & ->) by (repeat split; congruence).
        erewrite Nl in La; [discriminate|exact Uk|exact Vk|lia|lia|lia].
      * destruct (index_of b _ Eb Nb) as [-> | ->]; [|reflexivity]. assert (v = vj /\ db = uj) as (-> & ->) by (repeat split; congruence).
        erewrite Nl in Lb; [discriminate|exact Vj|exact Uj|lia|lia|lia].
  - exists k, j. split; [right; split; reflexivity|]. split.
    + exists (neighbor_score vk uj), vk, uj. split; [split; [congruence|exists uk; split; [exact Ok1|eapply Le; [exact Uk|exact Vk|lia|lia]]]|].
      split; [split; [congruence|exists vj; split; [exact Oj1|eapply Le; [exact Vj|exact Uj|lia|lia]]]|].
      split; [reflexivity|]. eapply Cs; [exact Vk|exact Uj|lia|lia|lia].
    + intros a b sc (da & db & [Na (u & Ea & La)] & [Nb (v & Eb & Lb)] & _). split.
      * destruct (index_of a _ Ea Na) as [-> | ->]; [|reflexivity]. assert (u = uj /\ da = vj) as (-> & ->) by (repeat split; congruence).
        erewrite Nl in La; [discriminate|exact Uj|exact Vj|lia|lia|lia].
      * destruct (index_of b _ Eb Nb) as [-> | ->]; [reflexivity|]. assert (v = vk /\ db = uk) as (-> & ->) by (repeat split; congruence).
        erewrite Nl in Lb; [discriminate|exact Vk|exact Uk|lia|lia|lia].
Qed.
End Three.

(** * One group *)

Section Once.
Context {Srt : Sorter spec_float}.
Context (p : prepared) (caps : list (capstone spec_float)) (i a b : nat) (ca ci cb : capstone spec_float).
Context (Len : length caps = 3%nat) (Ea : nth_error caps a = Some ca) (Ei : nth_error caps i = Some ci) (Eb : nth_error caps b = Some cb).
Context (Cov : forall t, (t < 3)%nat -> t = i \/ t = a \/ t = b).
Context (Some_ : exists sc, viable caps i a b sc) (Only : forall a' b' sc, viable caps i a' b' sc -> a' = a /\ b' = b).
Context (None_ : forall t a' b' sc, (t < 3)%nat -> t <> i -> ~ viable caps t a' b' sc).

Let step (idx : nat) (s : list nat * list (triple * group spec_float)) : out (list nat * list (triple * group spec_float)) :=
  if used_in (fst s) idx then Ok s
  else let* pairs := find_and_rank_possible_neighbors caps idx in for_each pairs (try_pair p caps idx) s.
Let fin : list nat * list (triple * group spec_float) := ([a; i; b], [((a, i, b), MkGroup ca ci cb)]).

Lemma aget_some {A} (l : list A) t x : nth_error l t = Some x -> aget (E := Empty_set) l t = Ok x.
Proof. intros H. unfold aget. rewrite H. reflexivity. Qed.

Lemma step_none t : (t < 3)%nat -> t <> i -> step t ([], []) = Ok ([], []).
Proof using Len Ea Ei Eb Cov Some_ Only None_.
  intros Ht Hi. unfold step. cbn [used_in fst existsb]. destruct (rank_f64 caps t ltac:(lia)) as (ranked & -> & _ & R).
  destruct ranked as [|[sc [x y]] l]; [reflexivity|]. exfalso. apply (None_ t x y sc Ht Hi). apply R. left. reflexivity.
Qed.

Lemma step_used t : (t < 3)%nat -> step t fin = Ok fin.
Proof using Len Ea Ei Eb Cov Some_ Only None_.
  intros Ht. unfold step. replace (used_in (fst fin) t) with true; [reflexivity|]. symmetry. apply used_in_spec.
  destruct (Cov t Ht) as [-> |[-> | ->]]; cbn; auto.
Qed.

Lemma step_panic : from_group (clone p) (MkGroup ca ci cb) = Panic -> step i ([], []) = Panic.
Proof using Len Ea Ei Eb Cov Some_ Only None_.
  intros Group. unfold step. cbn [used_in fst existsb]. destruct (rank_f64 caps i) as (ranked & -> & _ & R).
  { apply nth_error_Some. congruence. }
  cbn [bind]. assert (Al : forall pr, In pr (map snd ranked) -> pr = (a, b)).
  { intros [x y] H. apply in_map_iff in H as ([sc [x' y']] & E & H). cbn in E. inversion E; subst. apply R in H. destruct (Only _ _ _ H) as [-> ->]. reflexivity. }
  assert (Ne : map snd ranked <> []).
  { destruct Some_ as [sc V]. apply R in V. destruct ranked; [destruct V|discriminate]. }
  destruct (map snd ranked) as [|pr l]; [congruence|]. rewrite (Al pr) by (left; reflexivity). cbn [for_each].
  replace (try_pair p caps i (a, b) ([], [])) with (@Panic Empty_set (list nat * list (triple * group spec_float))); [reflexivity|].
  unfold try_pair. cbn [used_in existsb orb]. rewrite (aget_some _ _ _ Ea), (aget_some _ _ _ Ei), (aget_some _ _ _ Eb). cbn [bind].
  rewrite Group. reflexivity.
Qed.

Lemma step_hit : (exists l p', from_group (clone p) (MkGroup ca ci cb) = Ok (Some l, p')) -> step i ([], []) = Ok fin.
Proof using Len Ea Ei Eb Cov Some_ Only None_.
  intros Group. unfold step. cbn [used_in fst existsb]. destruct (rank_f64 caps i) as (ranked & -> & _ & R).
  { apply nth_error_Some. congruence. }
  cbn [bind]. assert (Al : forall pr, In pr (map snd ranked) -> pr = (a, b)).
  { intros [x y] H. apply in_map_iff in H as ([sc [x' y']] & E & H). cbn in E. inversion E; subst. apply R in H. destruct (Only _ _ _ H) as [-> ->]. reflexivity. }
  assert (Ne : map snd ranked <> []).
  { destruct Some_ as [sc V]. apply R in V. destruct ranked; [destruct V|discriminate]. }
  destruct (map snd ranked) as [|pr l]; [congruence|]. rewrite (Al pr) by (left; reflexivity). cbn [for_each].
  replace (try_pair p caps i (a, b) ([], [])) with (@Ok Empty_set _ fin).
  - cbn [bind]. assert (Al' : forall pr, In pr l -> pr = (a, b)) by (intros; apply Al; right; assumption). clear Al Ne R pr.
    induction l as [|pr l IH]; [reflexivity|]. cbn [for_each]. rewrite (Al' pr) by (left; reflexivity).
    replace (try_pair p caps i (a, b) fin) with (@Ok Empty_set _ fin).
    + cbn [bind]. apply IH. intros q Hq. apply Al'. right. exact Hq.
    + unfold try_pair, fin. replace (used_in [a; i; b] a) with true; [reflexivity|]. symmetry. apply used_in_spec. left. reflexivity.
  - unfold try_pair. cbn [used_in existsb orb]. rewrite (aget_some _ _ _ Ea), (aget_some _ _ _ Ei), (aget_some _ _ _ Eb). cbn [bind].
    destruct Group as (l0 & p' & ->). cbn [bind fst]. reflexivity.
Qed.

Lemma one_group : (exists l p', from_group (clone p) (MkGroup ca ci cb) = Ok (Some l, p')) -> find_groupings p caps = Ok [MkGroup ca ci cb].
Proof using Len Ea Ei Eb Cov Some_ Only None_.
  intros Group. unfold find_groupings, find_groupings_indexed. rewrite Len. change (range 0 3) with [0%nat; 1%nat; 2%nat].
  assert (Hi : (i < 3)%nat) by (rewrite <- Len; apply nth_error_Some; congruence).
  assert (G : for_each [0%nat; 1%nat; 2%nat] step ([], []) = Ok fin).
  { cbn [for_each]. pose proof (step_hit Group) as Hit. assert (D : (i = 0 \/ i = 1 \/ i = 2)%nat) by lia.
    destruct D as [D|[D|D]]; rewrite D in Hit.
    - rewrite Hit. cbn [bind]. rewrite step_used by lia. cbn [bind]. rewrite step_used by lia. reflexivity.
    - rewrite step_none by lia. cbn [bind]. rewrite Hit. cbn [bind]. rewrite step_used by lia. reflexivity.
    - rewrite step_none by lia. cbn [bind]. rewrite step_none by lia. cbn [bind]. rewrite Hit. reflexivity. }
  apply (f_equal (fun r => bind (bind r (fun t => Ok (rev (snd t)))) (fun l => Ok (map snd l)))) in G. exact G.
Qed.

Lemma no_group : from_group (clone p) (MkGroup ca ci cb) = Panic -> find_groupings p caps = Panic.
Proof using Len Ea Ei Eb Cov Some_ Only None_.
  intros Group. unfold find_groupings, find_groupings_indexed. rewrite Len. change (range 0 3) with [0%nat; 1%nat; 2%nat].
  assert (Hi : (i < 3)%nat) by (rewrite <- Len; apply nth_error_Some; congruence).
  assert (G : for_each [0%nat; 1%nat; 2%nat] step ([], []) = Panic).
  { cbn [for_each]. pose proof (step_panic Group) as Hit. assert (D : (i = 0 \/ i = 1 \/ i = 2)%nat) by lia.
    destruct D as [D|[D|D]]; rewrite D in Hit.
    - rewrite Hit. reflexivity.
    - rewrite step_none by lia. cbn [bind]. rewrite Hit. reflexivity.
    - rewrite step_none by lia. cbn [bind]. rewrite step_none by lia. cbn [bind]. rewrite Hit. reflexivity. }
  apply (f_equal (fun r => bind (bind r (fun t => Ok (rev (snd t)))) (fun l => Ok (map snd l)))) in G. exact G.
Qed.
End Once.

(** Counting the modules of the timing patterns. *)
From Coq Require Import Reals Lra SpecFloat.
From Flocq Require Import Core.
From Verif Require Import Base Lib ModelImage ModelGeometry ModelDetect ModelIdentify SpecQR SpecImage SpecIdentify SpecFinder SpecPicture
  FloodProofs RegionProofs CornerProofs SearchProofs ScanProofs FloatProofs CenterProofs GeometryProofs SpiralProofs SampleProofs ApproxProofs FrameProofs SquareProofs TurnProofs GroupProofs OrientProofs.
Open Scope Z_scope.
Set Bullet Behavior "Strict Subproofs".

(** * Scan lines along an axis *)

Lemma bres_straight x y dx dy k : axis dx dy -> 1 <= k -> Z.abs x < 2 ^ 28 -> Z.abs y < 2 ^ 28 -> k < 2 ^ 28 ->
  bres_points (MkPoint x y) (MkPoint (x + k * dx) (y + k * dy)) = Ok (map (fun i => MkPoint (x + i * dx) (y + i * dy)) (zrange 0 (k + 1))).
Proof.
  intros Ax K Hx Hy Hk. pose proof (axis_cases dx dy Ax) as C.
  destruct (bres_points_ok (MkPoint x y) (MkPoint (x + k * dx) (y + k * dy))) as (xdom & ds & ns & d & n & E & D1 & D2 & D3 & D4 & D5 & D6); cbn [px py] in *;
    try (destruct C as [[-> ->]|[[-> ->]|[[-> ->]|[-> ->]]]]; lia).
  rewrite E. clear E.
  assert (F : d = k /\ n = 0 /\ if xdom then ds = dx /\ dy = 0 else dx = 0 /\ ds = dy).
  { destruct xdom; destruct C as [[-> ->]|[[-> ->]|[[-> ->]|[-> ->]]]]; destruct (Z.abs_eq_or_opp ds), (Z.abs_eq_or_opp ns); nia. }
  destruct F as (-> & -> & F). f_equal. apply map_ext_in. intros i Hi. apply in_zrange in Hi. unfold bres_point.
  replace (0 =? k) with false by lia. rewrite Z.mul_0_r, Z.div_0_l by lia.
  destruct xdom; destruct F as [F1 F2]; subst; f_equal; lia.
Qed.

(** * Counting *)

Section Count.
Context (I0 : image) (p : prepared) (RI : reg_inv I0 p) (Hw : 1 <= im_w I0 <= 2 ^ 31) (Hh : 1 <= im_h I0 <= 2 ^ 31).

Lemma sample_at q : in_image I0 q -> get_pixel_at_point p (pt q) = Ok (color_of (pix (p_buf p) q)).
Proof using RI Hw Hh.
  intros I. assert (Sz : p_w p = im_w I0 /\ p_h p = im_h I0) by apply (bi_size _ _ (ri_base _ _ RI)). destruct Sz as [Sw Sh].
  unfold get_pixel_at_point, usub. rewrite Sw, Sh.
  replace (1 <=? im_w I0) with true by (symmetry; apply Z.leb_le; lia).
  replace (1 <=? im_h I0) with true by (symmetry; apply Z.leb_le; lia). cbn [bind pt px py].
  assert (A : forall n, 1 <= n <= 2 ^ 31 -> as_i32 (n - 1) = n - 1).
  { intros n Hn. unfold as_i32. rewrite Z.mod_small; lia. }
  rewrite !A by lia. destruct I as [I1 I2].
  assert (B : forall n z, 0 <= z < n -> n <= 2 ^ 31 -> as_usize (Z.max 0 (Z.min (n - 1) z)) = z).
  { intros n z Hn Hn'. unfold as_usize. rewrite Z.mod_small; lia. }
  rewrite !B by lia. destruct (pix_color I0 p (fst q) (snd q) RI) as [E _]; [assumption|assumption|].
  destruct q as [x y]. cbn [fst snd] in *. exact E.
Qed.

Lemma color_differs q r : in_image I0 q -> in_image I0 r -> (pix I0 q = 0 <-> pix I0 r <> 0) -> color_eqb (color_of (pix (p_buf p) q)) (color_of (pix (p_buf p) r)) = false.
Proof using RI Hw Hh.
  intros Iq Ir D. apply color_eqb_neq. intros C. pose proof (white_color I0 p q RI Iq) as Wq. pose proof (white_color I0 p r RI Ir) as Wr.
  rewrite C in Wq. rewrite Wr in Wq. destruct (Z.eq_dec (pix I0 q) 0); tauto.
Qed.

Lemma color_same q r : in_image I0 q -> in_image I0 r -> adjacent q r -> (pix I0 q = 0 <-> pix I0 r = 0) -> color_eqb (color_of (pix (p_buf p) q)) (color_of (pix (p_buf p) r)) = true.
Proof using RI Hw Hh.
  intros Iq Ir Ad D. apply color_eqb_ok. f_equal. pose proof (ri_base _ _ RI) as B. pose proof (bi_white _ _ B q Iq) as Wq. pose proof (bi_white _ _ B r Ir) as Wr.
  destruct (Z.eq_dec (pix I0 q) 0) as [Z0|Z0].
  - assert (pix (p_buf p) q = 0) by tauto. assert (pix (p_buf p) r = 0) by tauto. congruence.
  - apply (bi_mono _ _ B); try assumption; tauto.
Qed.

(** Along a line of pixels [f], in modules of [m] pixels whose colours [g] alternate. *)
Context (f : Z -> pixel) (g : Z -> bool) (m lo hi : Z).
Context (M : 1 <= m) (Le : lo <= hi).
Context (Fi : forall i, lo <= i <= hi -> in_image I0 (f i) /\ (pix I0 (f i) <> 0 <-> g (i / m) = true)).
Context (Fa : forall i, lo <= i < hi -> adjacent (f i) (f (i + 1))).
Context (Alt : forall k, lo / m <= k < hi / m -> g k = negb (g (k + 1))).

Definition scan_body (q : point) (s : Z * option color) : out (Z * option color) :=
  let '(count, previous) := s in
  let* pixel := get_pixel_at_point p q in
  let count := match previous with
               | Some c => if color_eqb c pixel then count else count + 1
               | None => count
               end in
  Ok (count, Some pixel).

Lemma scan_count : exists c, for_each (map (fun i => pt (f i)) (zrange lo (hi + 1))) scan_body (0, None) = Ok (hi / m - lo / m, c).
Proof using RI Hw Hh M Le Fi Fa Alt.
  rewrite for_each_map.
  destruct (@zfor_ok Empty_set _ (fun i s => i = lo /\ s = (0, None) \/ lo < i /\ s = ((i - 1) / m - lo / m, Some (color_of (pix (p_buf p) (f (i - 1))))))
    (fun i => scan_body (pt (f i))) lo (hi + 1) (0, None)) as (s' & E & P); [lia|left; split; reflexivity| |].
  - intros i s Hi P. destruct (Fi i ltac:(lia)) as [Ii Di]. unfold scan_body. rewrite (sample_at _ Ii). cbn [bind].
    destruct P as [[-> ->]|[Hlo ->]].
    + eexists. split; [reflexivity|]. right. split; [lia|]. replace (lo + 1 - 1) with lo by ring. f_equal. lia.
    + eexists. split; [reflexivity|]. right. split; [lia|]. replace (i + 1 - 1) with i by ring. f_equal.
      destruct (Fi (i - 1) ltac:(lia)) as [Ij Dj]. pose proof (Fa (i - 1) ltac:(lia)) as Ad. replace (i - 1 + 1) with i in Ad by ring.
      pose proof (Z.div_mod i m ltac:(lia)) as Q1. pose proof (Z.mod_pos_bound i m ltac:(lia)) as Q2.
      destruct (Z.eq_dec (i mod m) 0) as [Z0|Z0].
      * assert (E1 : (i - 1) / m = i / m - 1) by (symmetry; apply Z.div_unique with (r := m - 1); [lia|]; nia).
        rewrite color_differs; [lia|assumption|assumption|].
        assert (G : g (i / m - 1) = negb (g (i / m - 1 + 1))).
        { apply Alt. rewrite <- E1. split; [apply Z.div_le_mono; lia|]. assert (i / m <= hi / m) by (apply Z.div_le_mono; lia). lia. }
        replace (i / m - 1 + 1) with (i / m) in G by ring. rewrite E1 in Dj. rewrite G in Dj.
        destruct (g (i / m)); cbn [negb] in Dj; destruct (Z.eq_dec (pix I0 (f (i - 1))) 0); intuition congruence.
      * assert (E1 : (i - 1) / m = i / m) by (symmetry; apply Z.div_unique with (r := i mod m - 1); [lia|]; nia).
        rewrite color_same; [lia|assumption|assumption|assumption|].
        rewrite E1 in Dj. destruct (g (i / m)); destruct (Z.eq_dec (pix I0 (f (i - 1))) 0); destruct (Z.eq_dec (pix I0 (f i)) 0); intuition congruence.
  - rewrite E. destruct P as [[P _]|[_ ->]]; [lia|]. eexists. do 2 f_equal. f_equal. f_equal. lia.
Qed.
End Count.

(** * Landing on pixels *)

Lemma axis_dir r : axis (dir_a r) (dir_b r).
Proof. destruct r as [|[|[|r]]]; reflexivity. Qed.

Lemma map_place r e ox oy c K S0 T0 u v U V :
  let q := place r e ox oy S0 T0 in
  affine c K (dir_a r) (dir_b r) (fst q) (snd q) -> (1 <= K <= 40000)%R -> 0 <= fst q <= 40000 -> 0 <= snd q <= 40000 ->
  near u U (1 / 100000000) -> near v V (1 / 100000000) -> (Rabs U <= 200)%R -> (Rabs V <= 200)%R ->
  exists s t, persp_map (N := F64) c u v = Ok (pt (place r e ox oy s t)) /\
    (Rabs (IZR s - (IZR S0 + K * U)) <= / 2 + 1 / 200)%R /\ (Rabs (IZR t - (IZR T0 + K * V)) <= / 2 + 1 / 200)%R.
Proof.
  intros q Af HK Hx Hy Nu Nv HU HV.
  destruct (map_affine c K _ _ _ _ u v U V Af (axis_dir r) HK Hx Hy Nu Nv HU HV) as (x & y & E & B1 & B2).
  exists (row_part r e ox oy (x, y)), (col_part r e ox oy (x, y)). rewrite place_parts. split; [exact E|]. clear E Af.
  unfold q, place, row_part, col_part in *. cbn [fst snd] in *.
  destruct r as [|[|[|r']]]; cbn [dir_a dir_b org_x org_y] in *; apply Rabs_le_inv in B1, B2; rewrite ?minus_IZR, ?plus_IZR, ?mult_IZR, ?minus_IZR, ?plus_IZR in *;
    split; apply Rabs_le'; lra.
Qed.

(** Distances in the transform of a finder pattern, 7 modules on 7 m - 1 pixel steps. *)
Lemma land_int S0 L s c d : 1 <= d -> (Rabs (IZR s - (IZR S0 + IZR L / 7 * (IZR c / IZR d))) <= / 2 + 1 / 200)%R ->
  (7 * d <= 40) -> Z.abs (2 * (7 * d * (s - S0) - L * c)) <= 7 * d.
Proof.
  intros Hd H Hd'. apply Rabs_le_inv in H. assert (D0 : (1 <= IZR d <= 6)%R) by (split; apply IZR_le; lia).
  assert (E : (IZR (2 * (7 * d * (s - S0) - L * c)) = 2 * (7 * IZR d) * (IZR s - (IZR S0 + IZR L / 7 * (IZR c / IZR d))))%R).
  { rewrite !mult_IZR, minus_IZR, !mult_IZR, minus_IZR. field. lra. }
  assert (B : (- (7 * IZR d + 1) < IZR (2 * (7 * d * (s - S0) - L * c)) < 7 * IZR d + 1)%R).
  { rewrite E. set (z := (IZR s - (IZR S0 + IZR L / 7 * (IZR c / IZR d)))%R) in *. clearbody z. split; nra. }
  replace (7 * IZR d + 1)%R with (IZR (7 * d + 1)) in B by (rewrite plus_IZR, mult_IZR; ring). rewrite <- opp_IZR in B.
  destruct B as [B1 B2]. apply lt_IZR in B1, B2. lia.
Qed.

Lemma home_corner v m ox oy r c d : home (dir_a r) (dir_b r) (7 * m - 1) (corner_px v m ox oy r c d) = place r (symbol_size v * m - 1) ox oy (c * m) (d * m).
Proof.
  unfold home, corner_px, place. destruct r as [|[|[|r']]]; cbn [dir_a dir_b org_x org_y fst snd]; cbn [Z.min Z.compare Z.opp]; f_equal; ring.
Qed.

Section Measure.
Context (I0 : image) (p : prepared) (RI : reg_inv I0 p) (Hw : 1 <= im_w I0 <= 32768) (Hh : 1 <= im_h I0 <= 32768).
Context (v : Z) (sym : Z -> Z -> bool) (m ox oy : Z) (r : nat).
Notation n := (symbol_size v).
Notation E := (symbol_size v * m - 1).
Notation at_ := (place r E ox oy).
Notation L := (7 * m - 1).
Context (Sh : legible (im_w I0) (im_h I0) (pix I0) v sym m ox oy r) (Hv : 1 <= v <= 40) (Fp : function_patterns v sym) (M : 2 <= m).

Definition standing (c : capstone spec_float) (q : pixel) : Prop := posed c (fst q) (snd q) L (dir_a r) (dir_b r).

Lemma at_range s t : 0 <= s < n * m -> 0 <= t < n * m -> 0 <= fst (at_ s t) <= 32767 /\ 0 <= snd (at_ s t) <= 32767.
Proof using RI Hw Hh Sh Hv Fp M.
  intros Hs Ht. pose proof (place_inside _ _ _ _ _ _ _ _ _ Sh s t Hs Ht) as I. unfold inside in I. lia.
Qed.

Lemma unit_room : 0 < m /\ 17 * m <= n * m - 4 * m /\ n * m <= 32768.
Proof using RI Hw Hh Sh Hv Fp M.
  clear Fp. pose proof (lg_right _ _ _ _ _ _ _ _ _ Sh). pose proof (lg_left _ _ _ _ _ _ _ _ _ Sh). unfold symbol_size in *. nia.
Qed.

Lemma L_range : 13 <= L <= 32767.
Proof using RI Hw Hh Sh Hv Fp M. pose proof unit_room. lia. Qed.

Lemma standing_map c s0 t0 cu cv : standing c (at_ s0 t0) -> 0 <= s0 < n * m -> 0 <= t0 < n * m -> 0 <= cu <= 200 -> 0 <= cv <= 200 ->
  exists s t, persp_map (N := F64) (cap_c c) (n_ratio cu 2) (n_ratio cv 2) = Ok (pt (at_ s t)) /\
    Z.abs (14 * (s - s0) - L * cu) <= 7 /\ Z.abs (14 * (t - t0) - L * cv) <= 7.
Proof using RI Hw Hh Sh Hv Fp M.
  intros [_ Af] Hs Ht Hu Hcv. pose proof (at_range s0 t0 Hs Ht) as [Rx Ry]. pose proof (posed_bounds L L_range) as HK.
  assert (Nr : forall z, 0 <= z <= 200 -> near (n_ratio (Num := F64) z 2) (IZR z / IZR 2) (1 / 100000000) /\ (Rabs (IZR z / IZR 2) <= 200)%R).
  { intros z Hz. split; [eapply near_weaken; [apply near_ratio; lia|lra]|]. assert (0 <= IZR z <= 200)%R by (split; apply IZR_le; lia). apply Rabs_le'; lra. }
  destruct (Nr cu Hu) as [N1 B1]. destruct (Nr cv Hcv) as [N2 B2].
  destruct (map_place r E ox oy (cap_c c) (IZR L / 7) s0 t0 _ _ _ _ Af HK ltac:(lia) ltac:(lia) N1 N2 B1 B2) as (s & t & Em & C1 & C2).
  exists s, t. split; [exact Em|]. apply land_int in C1; [|lia|lia]. apply land_int in C2; [|lia|lia]. lia.
Qed.

(** The row and the column in which the timing patterns are followed. *)
Definition mid6 : Z := (91 * m - 6) / 14.

Lemma mid6_module : 6 * m <= mid6 < 7 * m /\ mid6 / m = 6.
Proof using RI Hw Hh Sh Hv Fp M.
  assert (H : 6 * m <= mid6 < 7 * m) by (unfold mid6; clear -M; lia). split; [exact H|].
  symmetry. apply Z.div_unique with (r := mid6 - 6 * m); lia.
Qed.

Lemma timing_alternates k : 6 <= k < n - 7 -> sym 6 k = negb (sym 6 (k + 1)) /\ sym k 6 = negb (sym (k + 1) 6).
Proof using RI Hw Hh Sh Hv Fp M.
  assert (Sz : n = 17 + 4 * v) by reflexivity. set (sz := n) in *.
  assert (T : forall k, 6 <= k <= sz - 7 -> sym 6 k = Z.even k /\ sym k 6 = Z.even k).
  { intros j Hj. assert (C : j = 6 \/ j = 7 \/ 8 <= j <= sz - 9 \/ j = sz - 8 \/ j = sz - 7) by lia.
    pose proof (fp_finder _ _ Fp) as Fd. pose proof (fp_separator _ _ Fp) as Fs. unfold finder_centres in Fd, Fs. fold sz in Fd, Fs. cbv zeta in Fd, Fs. cbn [In] in Fd, Fs.
    assert (Ev : Z.even sz = false) by (rewrite Sz; rewrite Z.even_add, Z.even_mul; reflexivity).
    destruct C as [-> |[-> |[C|[-> | ->]]]].
    - pose proof (Fd 3 3 3 3 ltac:(tauto) ltac:(unfold ring_no; lia)) as H. cbn in H. split; exact H.
    - split.
      + pose proof (Fs 3 3 3 4 ltac:(tauto) ltac:(reflexivity) ltac:(lia) ltac:(lia)) as H. exact H.
      + pose proof (Fs 3 3 4 3 ltac:(tauto) ltac:(reflexivity) ltac:(lia) ltac:(lia)) as H. exact H.
    - apply (fp_timing _ _ Fp). exact C.
    - replace (Z.even (sz - 8)) with false by (rewrite Z.even_sub, Ev; reflexivity). split.
      + pose proof (Fs 3 (sz - 4) 3 (-4) ltac:(tauto) ltac:(reflexivity) ltac:(lia) ltac:(lia)) as H. replace (sz - 4 + -4) with (sz - 8) in H by ring. exact H.
      + pose proof (Fs (sz - 4) 3 (-4) 3 ltac:(tauto) ltac:(reflexivity) ltac:(lia) ltac:(lia)) as H. replace (sz - 4 + -4) with (sz - 8) in H by ring. exact H.
    - replace (Z.even (sz - 7)) with true by (rewrite Z.even_sub, Ev; reflexivity). split.
      + pose proof (Fd 3 (sz - 4) 3 (-3) ltac:(tauto) ltac:(unfold ring_no; lia)) as H. replace (sz - 4 + -3) with (sz - 7) in H by ring. exact H.
      + pose proof (Fd (sz - 4) 3 (-3) 3 ltac:(tauto) ltac:(unfold ring_no; lia)) as H. replace (sz - 4 + -3) with (sz - 7) in H by ring. exact H. }
  intros Hk. destruct (T k ltac:(lia)) as [-> ->]. destruct (T (k + 1) ltac:(lia)) as [-> ->]. rewrite Z.even_add. destruct (Z.even k); split; reflexivity.
Qed.

Lemma dark_at s t : 0 <= s < n * m -> 0 <= t < n * m -> in_image I0 (at_ s t) /\ (seen v m s t -> (pix I0 (at_ s t) <> 0 <-> sym (t / m) (s / m) = true)).
Proof using RI Hw Hh Sh Hv Fp M.
  intros Hs Ht. split; [exact (place_inside _ _ _ _ _ _ _ _ _ Sh s t Hs Ht)|exact (place_dark _ _ _ _ _ _ _ _ _ Sh s t Hs Ht)].
Qed.

Lemma scan_along (f : Z -> pixel) (g : Z -> bool) dx dy lo hi : axis dx dy -> lo < hi -> 0 <= lo -> hi < n * m ->
  (forall i j, f (i + j) = (fst (f i) + j * dx, snd (f i) + j * dy)) ->
  (forall i, lo <= i <= hi -> in_image I0 (f i) /\ (pix I0 (f i) <> 0 <-> g (i / m) = true)) ->
  (forall k, lo / m <= k < hi / m -> g k = negb (g (k + 1))) ->
  timing_scan p (pt (f lo)) (pt (f hi)) = Ok (hi / m - lo / m).
Proof using RI Hw Hh Sh Hv Fp M.
  intros Ax Lt Lo Hi Fs Fi Al. pose proof unit_room as U. unfold timing_scan.
  replace (pt (f hi)) with (MkPoint (fst (f lo) + (hi - lo) * dx) (snd (f lo) + (hi - lo) * dy)).
  2: { replace hi with (lo + (hi - lo)) at 3 by ring. rewrite (Fs lo (hi - lo)). reflexivity. }
  destruct (Fi lo ltac:(lia)) as [[I1 I2] _].
  change (pt (f lo)) with (MkPoint (fst (f lo)) (snd (f lo))). rewrite (bres_straight (fst (f lo)) (snd (f lo)) dx dy (hi - lo) Ax); [|lia|lia|lia|lia]. cbn [bind].
  destruct (scan_count I0 p RI ltac:(lia) ltac:(lia) f g m lo hi ltac:(lia) ltac:(lia) Fi) as (c & Ec).
  - intros i Hi'. rewrite (Fs i 1). unfold adjacent. cbn [fst snd]. destruct (axis_cases dx dy Ax) as [[-> ->]|[[-> ->]|[[-> ->]|[-> ->]]]]; lia.
  - exact Al.
  - replace (map (fun i => pt (f i)) (zrange lo (hi + 1))) with (map (fun i => MkPoint (fst (f lo) + i * dx) (snd (f lo) + i * dy)) (zrange 0 (hi - lo + 1))) in Ec.
    + apply (f_equal (fun r => bind r (fun t => Ok (fst t)))) in Ec. exact Ec.
    + apply nth_ext_lt with (d := MkPoint 0 0).
      * rewrite !map_length, !length_zrange. f_equal. lia.
      * intros i Hi'. rewrite map_length, length_zrange in Hi'.
        rewrite (nth_indep (map (fun i => MkPoint (fst (f lo) + i * dx) (snd (f lo) + i * dy)) _) _ (MkPoint (fst (f lo) + 0 * dx) (snd (f lo) + 0 * dy))) by (rewrite map_length, length_zrange; lia).
        rewrite (nth_indep (map (fun i => pt (f i)) _) _ (pt (f 0))) by (rewrite map_length, length_zrange; lia).
        rewrite (map_nth (fun i => MkPoint (fst (f lo) + i * dx) (snd (f lo) + i * dy)) _ 0), (map_nth (fun i => pt (f i)) _ 0).
        rewrite !nth_zrange by lia. rewrite (Fs lo (Z.of_nat i)). reflexivity.
Qed.

Lemma measure_square A' B' C' : standing A' (at_ 0 0) -> standing B' (at_ ((n - 7) * m) 0) -> standing C' (at_ 0 ((n - 7) * m)) ->
  measure_timing_pattern p (MkGroup C' A' B') = Ok n.
Proof using RI Hw Hh Sh Hv Fp M.
  intros SA SB SC. pose proof unit_room as U. assert (Sz : n = 17 + 4 * v) by reflexivity.
  assert (Nm : 0 <= (n - 7) * m /\ (n - 7) * m = n * m - 7 * m) by (split; nia).
  unfold measure_timing_pattern. cbn [gr0 gr1 gr2].
  destruct (standing_map C' 0 ((n - 7) * m) 13 1 SC ltac:(lia) ltac:(lia) ltac:(lia) ltac:(lia)) as (s0 & t0 & -> & X0 & Y0).
  destruct (standing_map A' 0 0 13 13 SA ltac:(lia) ltac:(lia) ltac:(lia) ltac:(lia)) as (s1 & t1 & -> & X1 & Y1).
  destruct (standing_map B' ((n - 7) * m) 0 1 13 SB ltac:(lia) ltac:(lia) ltac:(lia) ltac:(lia)) as (s2 & t2 & -> & X2 & Y2).
  cbn [bind].
  assert (H6 : forall z, Z.abs (14 * (z - 0) - L * 13) <= 7 -> z = mid6) by (intros z Hz; unfold mid6; clear - Hz; lia).
  assert (H1 : forall z z', Z.abs (14 * (z - z') - L * 1) <= 7 -> z = z' + m / 2) by (intros z z' Hz; clear - Hz; lia).
  apply H6 in X0, X1, Y1, Y2. apply H1 in Y0, X2. subst s0 t0 s1 t1 s2 t2. clear H6 H1.
  set (far := (n - 7) * m + m / 2). destruct mid6_module as [M6 M6'].
  assert (Fr : (n - 7) * m <= far < (n - 6) * m /\ far / m = n - 7).
  { assert (H : (n - 7) * m <= far < (n - 6) * m) by (unfold far; lia). split; [exact H|]. symmetry. apply Z.div_unique with (r := far - (n - 7) * m); lia. }
  destruct Fr as [Fr Fr']. assert (Bd : mid6 < far < n * m) by lia.
  rewrite (scan_along (fun i => at_ i mid6) (fun k => sym 6 k) (dir_a r) (dir_b r) mid6 far (axis_dir r)); [|lia|lia|lia| | |].
  - cbn [bind]. rewrite (scan_along (fun i => at_ mid6 i) (fun k => sym k 6) (- dir_b r) (dir_a r) mid6 far); [| |lia|lia|lia| | |].
    + cbn [bind]. rewrite Z.max_id, Fr', M6'. replace (1 <=? n - 7 - 6) with true by lia. cbn [assert_ bind]. f_equal. rewrite Sz. clear - Hv. lia.
    + pose proof (axis_dir r) as Ar. unfold axis in *. lia.
    + intros i j. unfold place. cbn [fst snd]. f_equal; ring.
    + intros i Hi. destruct (dark_at mid6 i ltac:(lia) ltac:(lia)) as [In D]. unfold seen, pattern_module in D. rewrite M6' in D. split; [exact In|apply D; tauto].
    + rewrite M6', Fr'. intros k Hk. apply timing_alternates. exact Hk.
  - intros i j. unfold place. cbn [fst snd]. f_equal; ring.
  - intros i Hi. destruct (dark_at i mid6 ltac:(lia) ltac:(lia)) as [In D]. unfold seen, pattern_module in D. rewrite M6' in D. split; [exact In|apply D; tauto].
  - rewrite M6', Fr'. intros k Hk. apply timing_alternates. exact Hk.
Qed.
End Measure.

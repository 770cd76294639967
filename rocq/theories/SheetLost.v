(** Symbols whose finder patterns are taken together wrongly: none of them is found. *)
From Coq Require Import Reals Lra SpecFloat.
From Flocq Require Import Core.
From Coq Require Import Permutation.
From Verif Require Import Base Lib VersionDb ModelDecode ModelImage ModelGeometry ModelDetect ModelIdentify SpecQR SpecImage SpecFinder SpecPicture SpecSheet
  FloodProofs RegionProofs CornerProofs SearchProofs ScanProofs HistoryProofs FloatProofs CenterProofs GeometryProofs SpiralProofs SampleProofs ApproxProofs FrameProofs SquareProofs TurnProofs PatternProofs GroupProofs OrientProofs TimingProofs AlignProofs
  IdentifyProofs NeighborProofs ImageFacts FinderFacts PictureProofs GridProofs JiggleProofs JiggleTotal SheetSearch SheetGroup SheetProofs SpecQR.
From Coq Require Import ZifyBool.
Open Scope Z_scope.
Set Bullet Behavior "Strict Subproofs".

(** * Changes of colour along a line *)

Section Blocks.
Context (I0 : image) (p : prepared) (RI : reg_inv I0 p) (Hw : 1 <= im_w I0 <= 32768) (Hh : 1 <= im_h I0 <= 32768).
Context (f : Z -> pixel) (blk : Z -> Z) (g : Z -> bool) (lo hi dx dy : Z) (Le : lo < hi) (Ax : axis dx dy).
Context (Fs : forall i j, f (i + j) = (fst (f i) + j * dx, snd (f i) + j * dy)).
Context (Fi : forall i, lo <= i <= hi -> in_image I0 (f i) /\ (pix I0 (f i) <> 0 <-> g (blk i) = true)).
Context (Bs : forall i, lo <= i < hi -> blk (i + 1) = blk i \/ blk (i + 1) = blk i + 1 /\ g (blk i) = negb (g (blk i + 1))).

Lemma blocks_adjacent i : adjacent (f i) (f (i + 1)).
Proof using Fs Ax. rewrite (Fs i 1). unfold adjacent. cbn [fst snd]. clear - Ax. destruct (axis_cases dx dy Ax) as [[-> ->]|[[-> ->]|[[-> ->]|[-> ->]]]]; lia. Qed.

Lemma blocks_count : exists c, for_each (map (fun i => pt (f i)) (zrange lo (hi + 1))) (scan_body p) (0, None) = Ok (blk hi - blk lo, c).
Proof using RI Hw Hh Le Fs Ax Fi Bs.
  rewrite for_each_map.
  destruct (@zfor_ok Empty_set _ (fun i s => i = lo /\ s = (0, None) \/ lo < i /\ s = (blk (i - 1) - blk lo, Some (color_of (pix (p_buf p) (f (i - 1))))))
    (fun i => scan_body p (pt (f i))) lo (hi + 1) (0, None)) as (s' & E & P); [lia|left; split; reflexivity| |].
  - intros i s Hi P. destruct (Fi i ltac:(lia)) as [Ii Di]. unfold scan_body. rewrite (sample_at I0 p RI ltac:(lia) ltac:(lia) _ Ii). cbn [bind].
    destruct P as [[-> ->]|[Hlo ->]].
    + eexists. split; [reflexivity|]. right. split; [lia|]. replace (lo + 1 - 1) with lo by ring. f_equal. lia.
    + eexists. split; [reflexivity|]. right. split; [lia|]. replace (i + 1 - 1) with i by ring. f_equal.
      destruct (Fi (i - 1) ltac:(lia)) as [Ij Dj]. pose proof (blocks_adjacent (i - 1)) as Ad. pose proof (Bs (i - 1) ltac:(lia)) as B. replace (i - 1 + 1) with i in Ad, B by ring.
      destruct B as [B|[B G]].
      * rewrite (color_same I0 p RI ltac:(lia) ltac:(lia)); [lia|assumption|assumption|assumption|]. rewrite B in Di.
        destruct (g (blk (i - 1))); destruct (Z.eq_dec (pix I0 (f (i - 1))) 0); destruct (Z.eq_dec (pix I0 (f i)) 0); intuition congruence.
      * rewrite (color_differs I0 p RI ltac:(lia) ltac:(lia)); [lia|assumption|assumption|]. rewrite B in Di. rewrite G in Dj.
        destruct (g (blk (i - 1) + 1)); cbn [negb] in Dj; destruct (Z.eq_dec (pix I0 (f (i - 1))) 0); intuition congruence.
  - rewrite E. destruct P as [[P _]|[_ ->]]; [lia|]. eexists. do 2 f_equal. f_equal. f_equal. lia.
Qed.

Lemma blocks_scan : timing_scan p (pt (f lo)) (pt (f hi)) = Ok (blk hi - blk lo).
Proof using RI Hw Hh Le Fs Ax Fi Bs.
  unfold timing_scan.
  replace (pt (f hi)) with (MkPoint (fst (f lo) + (hi - lo) * dx) (snd (f lo) + (hi - lo) * dy)).
  2: { replace hi with (lo + (hi - lo)) at 3 by ring. rewrite (Fs lo (hi - lo)). reflexivity. }
  destruct (Fi lo ltac:(lia)) as [[I1 I2] _]. destruct (Fi hi ltac:(lia)) as [[I3 I4] _].
  assert (Far : hi - lo < 2 ^ 28).
  { replace hi with (lo + (hi - lo)) in I3, I4 by ring. rewrite (Fs lo (hi - lo)) in I3, I4. cbn [fst snd] in I3, I4. revert I1 I2 I3 I4. generalize (fst (f lo)) (snd (f lo)).
    destruct (axis_cases dx dy Ax) as [[-> ->]|[[-> ->]|[[-> ->]|[-> ->]]]]; clear - Hw Hh; intros; lia. }
  change (pt (f lo)) with (MkPoint (fst (f lo)) (snd (f lo))). rewrite (bres_straight (fst (f lo)) (snd (f lo)) dx dy (hi - lo) Ax); [|lia|lia|lia|lia]. cbn [bind].
  destruct blocks_count as (c & Ec).
  replace (map (fun i => pt (f i)) (zrange lo (hi + 1))) with (map (fun i => MkPoint (fst (f lo) + i * dx) (snd (f lo) + i * dy)) (zrange 0 (hi - lo + 1))) in Ec.
  - apply (f_equal (fun r => bind r (fun t => Ok (fst t)))) in Ec. exact Ec.
  - apply nth_ext_lt with (d := MkPoint 0 0).
    + rewrite !map_length, !length_zrange. f_equal. lia.
    + intros i Hi'. rewrite map_length, length_zrange in Hi'.
      rewrite (nth_indep (map (fun i => MkPoint (fst (f lo) + i * dx) (snd (f lo) + i * dy)) _) _ (MkPoint (fst (f lo) + 0 * dx) (snd (f lo) + 0 * dy))) by (rewrite map_length, length_zrange; lia).
      rewrite (nth_indep (map (fun i => pt (f i)) _) _ (pt (f 0))) by (rewrite map_length, length_zrange; lia).
      rewrite (map_nth (fun i => MkPoint (fst (f lo) + i * dx) (snd (f lo) + i * dy)) _ 0), (map_nth (fun i => pt (f i)) _ 0).
      rewrite !nth_zrange by lia. rewrite (Fs lo (Z.of_nat i)). reflexivity.
Qed.
End Blocks.

(** * Three patterns of different symbols *)

(** [sB] is [D] below, [sC] is [D] to the left of [sA], and the paper between them is white. *)
Section Stray.
Context (I0 : image) (p : prepared) (RI : reg_inv I0 p) (Hw : 1 <= im_w I0 <= 32768) (Hh : 1 <= im_h I0 <= 32768).
Context (m D : Z) (sA : pixel) (cA cB cC : capstone spec_float) (M : 2 <= m) (HD : 14 * m <= D).
Notation sB := (fst sA, snd sA + D).
Notation sC := (fst sA - D, snd sA).
Notation fsq s := (finder_square (im_w I0) (im_h I0) (pix I0) m (fst s) (snd s)).
Context (FA : fsq sA) (FB : fsq sB) (FC : fsq sC).
Context (QA : square_cap m sA cA) (QB : square_cap m sB cB) (QC : square_cap m sC cC).
Context (Below : forall x y, fst sA <= x < fst sA + m -> snd sA + 7 * m <= y < snd sA + D -> pix I0 (x, y) = 0).
Context (Left : forall x y, fst sA - D + 7 * m <= x < fst sA -> snd sA + 6 * m <= y < snd sA + 7 * m -> pix I0 (x, y) = 0).

Lemma stray_map c x y cu cv : posed c x y (7 * m - 1) 0 1 -> 0 <= x <= 32767 -> 0 <= y <= 32767 -> 0 <= cu <= 200 -> 0 <= cv <= 200 -> 7 * m <= 32768 ->
  exists s t, persp_map (N := F64) (cap_c c) (n_ratio cu 2) (n_ratio cv 2) = Ok (MkPoint (x - t) (y + s)) /\
    Z.abs (14 * s - (7 * m - 1) * cu) <= 7 /\ Z.abs (14 * t - (7 * m - 1) * cv) <= 7.
Proof using RI Hw Hh M HD FA FB FC QA QB QC Below Left.
  intros [_ Af] Hx Hy Hu Hcv Hm.
  assert (HK : (1 <= IZR (7 * m - 1) / 7 <= 40000)%R) by (apply posed_bounds; lia).
  assert (Nr : forall z, 0 <= z <= 200 -> near (n_ratio (Num := F64) z 2) (IZR z / IZR 2) (1 / 100000000) /\ (Rabs (IZR z / IZR 2) <= 200)%R).
  { intros z Hz. split; [eapply near_weaken; [apply near_ratio; lia|lra]|]. assert (0 <= IZR z <= 200)%R by (split; apply IZR_le; lia). apply Rabs_le'; lra. }
  destruct (Nr cu Hu) as [N1 B1]. destruct (Nr cv Hcv) as [N2 B2].
  destruct (map_affine (cap_c c) _ 0 1 x y _ _ _ _ Af eq_refl HK ltac:(lia) ltac:(lia) N1 N2 B1 B2) as (a & b & Em & C1 & C2).
  exists (b - y), (x - a). split; [rewrite Em; f_equal; f_equal; ring|].
  assert (G : forall z, (Rabs (IZR z - (IZR 0 + IZR (7 * m - 1) / 7 * (IZR cu / IZR 2))) <= / 2 + 1 / 200)%R -> Z.abs (14 * z - (7 * m - 1) * cu) <= 7).
  { intros z Hz. apply land_int in Hz; [|lia|lia]. lia. }
  assert (G' : forall z, (Rabs (IZR z - (IZR 0 + IZR (7 * m - 1) / 7 * (IZR cv / IZR 2))) <= / 2 + 1 / 200)%R -> Z.abs (14 * z - (7 * m - 1) * cv) <= 7).
  { intros z Hz. apply land_int in Hz; [|lia|lia]. lia. }
  split.
  - apply G. apply Rabs_le_inv in C2. rewrite minus_IZR. apply Rabs_le'; lra.
  - apply G'. apply Rabs_le_inv in C1. rewrite minus_IZR. apply Rabs_le'; lra.
Qed.

Lemma stray_edge s q : fsq s -> box (fst s) (snd s) (7 * m) q -> fst q < fst s + m \/ snd s + 6 * m <= snd q -> inside (im_w I0) (im_h I0) q /\ pix I0 q <> 0.
Proof using RI Hw Hh M HD FA FB FC QA QB QC Below Left.
  intros F B H. split; [apply (in_pattern _ _ _ _ _ _ F); exact B|]. apply (fs_dark _ _ _ _ _ _ F q B). left. split; [exact B|]. unfold box in *. lia.
Qed.

Lemma stray_places : 0 <= fst sA - D /\ fst sA + 7 * m <= im_w I0 /\ 0 <= snd sA /\ snd sA + D + 7 * m <= im_h I0.
Proof using RI Hw Hh M HD FA FB FC QA QB QC Below Left. destruct FA, FB, FC. cbn [fst snd] in *. lia. Qed.

Lemma stray_measure A' B' C' : posed A' (fst sA + (7 * m - 1)) (snd sA) (7 * m - 1) 0 1 -> posed B' (fst sA + (7 * m - 1)) (snd sA + D) (7 * m - 1) 0 1 ->
  posed C' (fst sA - D + (7 * m - 1)) (snd sA) (7 * m - 1) 0 1 -> measure_timing_pattern p (MkGroup C' A' B') = Ok 17.
Proof using RI Hw Hh M HD FA FB FC QA QB QC Below Left.
  intros SA SB SC. pose proof stray_places as (P1 & P2 & P3 & P4). unfold measure_timing_pattern. cbn [gr0 gr1 gr2].
  destruct (stray_map C' _ _ 13 1 SC ltac:(lia) ltac:(lia) ltac:(lia) ltac:(lia) ltac:(lia)) as (s0 & t0 & -> & X0 & Y0).
  destruct (stray_map A' _ _ 13 13 SA ltac:(lia) ltac:(lia) ltac:(lia) ltac:(lia) ltac:(lia)) as (s1 & t1 & -> & X1 & Y1).
  destruct (stray_map B' _ _ 1 13 SB ltac:(lia) ltac:(lia) ltac:(lia) ltac:(lia) ltac:(lia)) as (s2 & t2 & -> & X2 & Y2).
  cbn [bind].
  assert (H6 : forall z, Z.abs (14 * z - (7 * m - 1) * 13) <= 7 -> z = mid6 m) by (intros z Hz; unfold mid6; clear - Hz; lia).
  assert (H1 : forall z, Z.abs (14 * z - (7 * m - 1) * 1) <= 7 -> z = m / 2) by (intros z Hz; clear - Hz; lia).
  apply H6 in X0, X1, Y1, Y2. apply H1 in Y0, X2. subst s0 t0 s1 t1 s2 t2. clear H6 H1.
  assert (M6 : 6 * m <= mid6 m < 7 * m) by (unfold mid6; clear - M; lia). set (c := mid6 m) in *. clearbody c.
  assert (M2 : 0 <= m / 2 < m) by (clear - M; lia). set (e := m / 2) in *. clearbody e.
  set (xc := fst sA + (7 * m - 1) - c). set (yc := snd sA + c).
  assert (Bx : fst sA <= xc < fst sA + m) by (unfold xc; lia). assert (By : snd sA + 6 * m <= yc < snd sA + 7 * m) by (unfold yc; lia).
  assert (V : timing_scan p (MkPoint xc yc) (MkPoint xc (snd sA + D + e)) = Ok 2).
  { pose proof (blocks_scan I0 p RI Hw Hh (fun i => (xc, i)) (fun i => if i <? snd sA + 7 * m then 0 else if i <? snd sA + D then 1 else 2) (fun k => negb (k =? 1))
      yc (snd sA + D + e) 0 1 ltac:(lia) eq_refl) as S. cbv beta in S.
    replace (yc <? snd sA + 7 * m) with true in S by lia. replace (snd sA + D + e <? snd sA + 7 * m) with false in S by lia. replace (snd sA + D + e <? snd sA + D) with false in S by lia.
    apply S; clear S.
    - intros i j. cbn [fst snd]. f_equal; lia.
    - intros i Hi. destruct (Z.ltb_spec i (snd sA + 7 * m)) as [H|H]; [|destruct (Z.ltb_spec i (snd sA + D)) as [H'|H']].
      + destruct (stray_edge sA (xc, i) FA) as [I1 I2]; [unfold box; cbn [fst snd]; lia|cbn [fst snd]; lia|]. split; [exact I1|]. cbn. tauto.
      + split; [unfold in_image, inside; cbn [fst snd]; lia|]. rewrite (Below xc i Bx ltac:(lia)). cbn. intuition discriminate.
      + destruct (stray_edge sB (xc, i) FB) as [I1 I2]; [unfold box; cbn [fst snd]; lia|cbn [fst snd]; lia|]. split; [exact I1|]. cbn. tauto.
    - intros i Hi. destruct (Z.ltb_spec i (snd sA + 7 * m)), (Z.ltb_spec (i + 1) (snd sA + 7 * m)), (Z.ltb_spec i (snd sA + D)), (Z.ltb_spec (i + 1) (snd sA + D)); auto; exfalso; clear - H H0 H1 H2 HD M; lia. }
  assert (H : timing_scan p (MkPoint xc yc) (MkPoint (fst sA - D + (7 * m - 1) - e) yc) = Ok 2).
  { pose proof (blocks_scan I0 p RI Hw Hh (fun i => (- i, yc)) (fun i => if i <? 1 - fst sA then 0 else if i <? D - fst sA - 7 * m + 1 then 1 else 2) (fun k => negb (k =? 1))
      (- xc) (D - fst sA - (7 * m - 1) + e) (-1) 0 ltac:(lia) eq_refl) as S. cbv beta in S.
    replace (- xc <? 1 - fst sA) with true in S by lia. replace (D - fst sA - (7 * m - 1) + e <? 1 - fst sA) with false in S by lia.
    replace (D - fst sA - (7 * m - 1) + e <? D - fst sA - 7 * m + 1) with false in S by lia.
    replace (pt (- - xc, yc)) with (MkPoint xc yc) in S by (unfold pt; cbn [fst snd]; f_equal; ring).
    replace (pt (- (D - fst sA - (7 * m - 1) + e), yc)) with (MkPoint (fst sA - D + (7 * m - 1) - e) yc) in S by (unfold pt; cbn [fst snd]; f_equal; ring).
    apply S; clear S.
    - intros i j. cbn [fst snd]. f_equal; lia.
    - intros i Hi. destruct (Z.ltb_spec i (1 - fst sA)) as [H|H]; [|destruct (Z.ltb_spec i (D - fst sA - 7 * m + 1)) as [H'|H']].
      + destruct (stray_edge sA (- i, yc) FA) as [I1 I2]; [unfold box; cbn [fst snd]; lia|cbn [fst snd]; lia|]. split; [exact I1|]. cbn. tauto.
      + split; [unfold in_image, inside; cbn [fst snd]; lia|]. rewrite (Left (- i) yc ltac:(lia) By). cbn. intuition discriminate.
      + destruct (stray_edge sC (- i, yc) FC) as [I1 I2]; [unfold box; cbn [fst snd]; lia|cbn [fst snd]; lia|]. split; [exact I1|]. cbn. tauto.
    - intros i Hi. destruct (Z.ltb_spec i (1 - fst sA)), (Z.ltb_spec (i + 1) (1 - fst sA)), (Z.ltb_spec i (D - fst sA - 7 * m + 1)), (Z.ltb_spec (i + 1) (D - fst sA - 7 * m + 1)); auto; exfalso; clear - H H0 H1 H2 HD M; lia. }
  fold xc. fold yc. rewrite V. cbn [bind]. rewrite H. reflexivity.
Qed.

(** The group is accepted, as a square of 17 modules. *)
Lemma stray_fitness c : calm c 40000 -> exists s, fitness_all (N := F64) p c 17 = Ok s.
Proof using RI Hw Hh M HD FA FB FC QA QB QC Below Left.
  intros C. destruct (nth_error VERSION_DATA_BASE 0) as [ver|] eqn:Ev; [|discriminate Ev].
  destruct (all_total I0 p RI ltac:(lia) ltac:(lia) 0 ver c ltac:(lia) Ev) as (s & Es & _); [|exact C|exists s; exact Es].
  intros a. injection Ev as <-. cbn. contradiction.
Qed.

Lemma stray_calm c x y : affine c (IZR D / IZR 10) 0 1 x y -> 0 <= x <= 32767 -> 0 <= y <= 32767 -> D <= 32767 -> calm c 33000.
Proof using RI Hw Hh M HD FA FB FC QA QB QC Below Left.
  intros [A0 A1 A2 A3 A4 A5 A6 A7] Hx Hy Hd. assert (K : (0 <= IZR D / IZR 10 <= 3277)%R).
  { assert (0 <= IZR D <= 32767)%R by (split; apply IZR_le; lia). lra. }
  set (K' := (IZR D / IZR 10)%R) in *. clearbody K'. clear - A0 A1 A2 A3 A4 A5 A6 A7 Hx Hy K.
  assert (Pt : forall z, 0 <= z <= 32767 -> (Rabs (IZR z) + 0 <= 33000)%R).
  { intros z Hz. rewrite Rabs_pos_eq by (apply IZR_le; lia). assert (IZR z <= 32767)%R by (apply IZR_le; lia). lra. }
  constructor; try assumption.
  - eapply upto_near; [exact A0|]. rewrite Rmult_0_l, Rabs_R0. lra.
  - eapply upto_near; [exact A1|]. rewrite Ropp_mult_distr_l_reverse, Rmult_1_l, Rabs_Ropp, Rabs_pos_eq by lra. lra.
  - eapply upto_near; [apply near_rep; exact A2|]. apply Pt. exact Hx.
  - eapply upto_near; [exact A3|]. rewrite Rmult_1_l, Rabs_pos_eq by lra. lra.
  - eapply upto_near; [exact A4|]. rewrite Rmult_0_l, Rabs_R0. lra.
  - eapply upto_near; [apply near_rep; exact A5|]. apply Pt. exact Hy.
Qed.

Lemma stray_group g : g = MkGroup cB cA cC \/ g = MkGroup cC cA cB -> (7 * m - 1) * (7 * m - 1) * Z.max (fst sA - D + (7 * m - 1)) (snd sA + D) < 2 ^ 31 ->
  exists c, from_group (N := F64) p g = Ok (Some (MkLoc 17 c), p) /\ calm c 40000.
Proof using RI Hw Hh M HD FA FB FC QA QB QC Below Left.
  intros Hg Pr. pose proof stray_places as (P1 & P2 & P3 & P4).
  destruct (orient_square m D 0 1 sA sB sC cA cB cC M ltac:(lia) eq_refl) with (g := g) as (A' & B' & C' & Eo & SA & SB & SC & _); try assumption.
  - unfold placed. lia.
  - unfold placed. cbn [fst snd]. lia.
  - unfold placed. cbn [fst snd]. lia.
  - cbn [fst snd]. f_equal; ring.
  - cbn [fst snd]. f_equal; ring.
  - assert (Hm : forall s : pixel, home 0 1 (7 * m - 1) s = (fst s + (7 * m - 1), snd s)) by (intros s; unfold home; cbn [Z.min Z.compare Z.opp]; f_equal; ring).
    rewrite Hm in SA, SB, SC. cbn [fst snd] in SA, SB, SC.
    unfold from_group. rewrite Eo. cbn [bind]. rewrite (stray_measure A' B' C' SA SB SC). cbn [bind gr0 gr2]. destruct SA as [EA _], SB as [EB _], SC as [EC _]. rewrite EB, EC.
    unfold square at 1 2 3 4. cbn [k0 k1 k3].
    pose proof (intersect_axes 0 1 (7 * m - 1) (fst sA - D + (7 * m - 1)) (snd sA) (fst sA + (7 * m - 1)) (snd sA + D) 32768 eq_refl ltac:(lia) ltac:(lia) ltac:(lia) ltac:(lia) ltac:(lia) ltac:(lia) ltac:(lia) ltac:(lia) ltac:(lia) ltac:(lia)) as Ex.
    rewrite Ex. clear Ex. cbn [Z.eqb fst snd]. replace (_ <? 2 ^ 31) with true by (symmetry; apply Z.ltb_lt; exact Pr). cbn [bind]. change (21 <? 17) with false. cbn [bind].
    change (version_from_grid_size 17) with (Ok (E := Empty_set) 0). cbn [bind]. change (Z.of_nat (length VERSION_DATA_BASE) <=? 0) with false.
    unfold setup_perspective. change (usub 17 7) with (Ok (E := Empty_set) 10). cbn [bind gr0 gr1 gr2]. rewrite EA, EB, EC. unfold square at 1 2 3. cbn [k0].
    replace (Corners _ _ _ _) with (square (fst sA + (7 * m - 1)) (snd sA) D 0 1) by (unfold square; f_equal; f_equal; ring).
    destruct (create_square (fst sA + (7 * m - 1)) (snd sA) D 10 0 1 eq_refl ltac:(lia) ltac:(lia)) as (c & Ec & Af).
    { unfold small_corners, small_pt, max_dim, square. cbn [k0 k1 k2 k3 px py]. lia. }
    rewrite Ec. destruct (jiggle_ok p 17 stray_fitness c) as (c' & Ej & Cc); [apply (stray_calm c _ _ Af); lia|].
    unfold out in *. rewrite Ej. cbn [bind]. exists c'. split; [reflexivity|exact Cc].
Qed.
End Stray.

(** * The groups *)

Lemma skip_pairs (p : prepared) (caps : list (capstone spec_float)) idx l s : (forall a b, In (a, b) l -> used_in (fst s) a = true \/ used_in (fst s) b = true) ->
  for_each l (try_pair p caps idx) s = Ok s.
Proof.
  induction l as [|[a b] l IH]; intros H; [reflexivity|]. cbn [for_each].
  replace (try_pair p caps idx (a, b) s) with (@Ok Empty_set _ s); [cbn [bind]; apply IH; intros; apply H; right; assumption|].
  destruct s as [used groups]. unfold try_pair. cbn [fst] in H. destruct (H a b ltac:(left; reflexivity)) as [-> | -> ]; rewrite ?orb_true_r; reflexivity.
Qed.

Section Lost.
Context {Srt : Sorter spec_float}.
Context (fs : list finder) (caps : list (capstone spec_float)) (F2 : Forall2 f_cap fs caps).
Context (Pl : forall f, In f fs -> 2 <= fst f /\ placed (snd f) (fst f)).
Context (Dj : forall f g q, In f fs -> In g fs -> f_box f q -> f_box g q -> f = g).
Context (Ord : ForallOrdPairs sooner_finder fs) (p : prepared) (f0 g0 h0 : finder) (D : Z).
Context (In0 : In f0 fs) (In1 : In g0 fs) (In2 : In h0 fs) (HD : 28 <= D) (Hm : 7 * fst f0 <= 2 * D - 1).
Context (Gap : gap_x f0 g0 = 2 * D /\ gap_y f0 g0 = 0 /\ gap_x f0 h0 = 0 /\ gap_y f0 h0 = 2 * D).
Notation three f := (f = f0 \/ f = g0 \/ f = h0).
Context (Only : forall f g h, In f fs -> In g fs -> In h fs -> g <> f -> h <> f -> may_pair f g h ->
  f = f0 /\ g = g0 /\ h = h0 \/ sooner_finder f0 f /\ (three f \/ three g \/ three h)).

(** The group of the three. *)
Definition stray (g : ModelIdentify.group spec_float) : Prop :=
  exists cf cg ch, f_cap f0 cf /\ f_cap g0 cg /\ f_cap h0 ch /\ (g = MkGroup cg cf ch \/ g = MkGroup ch cf cg).

Context (Accepted : forall g, stray g -> exists l p', from_group (N := F64) (clone p) g = Ok (Some l, p')).

Lemma lost_nodup : NoDup fs.
Proof using Ord.
  revert Ord. clear. generalize fs. intros l O. induction O as [|f gs A O IH]; constructor; [|exact IH]. intros Hin. rewrite Forall_forall in A. apply (sooner_asym f f (A f Hin) (A f Hin)).
Qed.

Lemma lost_order i j f g : nth_error fs i = Some f -> nth_error fs j = Some g -> (i <= j)%nat -> ~ sooner_finder g f.
Proof using Ord.
  intros Ei Ej Hij. revert i j f g Ei Ej Hij. revert Ord. clear. generalize fs. intros l O. induction O as [|e gs A O IH]; intros [|i] [|j] f g Ei Ej H S; try discriminate.
  - injection Ei as <-. injection Ej as <-. exact (sooner_asym _ _ S S).
  - injection Ei as <-. rewrite Forall_forall in A. cbn [nth_error] in Ej. exact (sooner_asym _ _ S (A g (nth_error_In gs j Ej))).
  - lia.
  - apply (IH i j f g Ei Ej ltac:(lia) S).
Qed.

Lemma lost_index i j f : nth_error fs i = Some f -> nth_error fs j = Some f -> i = j.
Proof using Ord.
  intros Ei Ej. apply (proj1 (NoDup_nth_error fs) lost_nodup); [apply nth_error_Some; congruence|congruence].
Qed.

(** What pairs can be tried. *)
Lemma lost_viable i a b sc f : nth_error fs i = Some f -> viable caps i a b sc ->
  exists ga gb, nth_error fs a = Some ga /\ nth_error fs b = Some gb /\
    (f = f0 /\ (ga = g0 /\ gb = h0 \/ ga = h0 /\ gb = g0) \/ sooner_finder f0 f /\ (three f \/ three ga \/ three gb)).
Proof using F2 Pl Dj Ord Only In1 In2 Gap D.
  intros Ef V. destruct (viable_may fs caps F2 Pl lost_nodup Dj i a b sc f Ef V) as (ga & gb & g & h & o & o' & Ea & Eb & Na & Nb & Hgh & Mp & _).
  exists ga, gb. split; [exact Ea|]. split; [exact Eb|].
  assert (H : In g fs /\ In h fs /\ g <> f /\ h <> f).
  { pose proof (nth_error_In _ _ Ea). pose proof (nth_error_In _ _ Eb). destruct Hgh as [[-> -> ]|[-> -> ]]; auto. }
  destruct H as (H1 & H2 & H3 & H4).
  destruct (Only f g h (nth_error_In _ _ Ef) H1 H2 H3 H4 Mp) as [(E1 & E2 & E3)|[S T]].
  - left. split; [exact E1|]. subst g h. destruct Hgh as [[-> -> ]|[-> -> ]]; auto.
  - right. split; [exact S|]. destruct Hgh as [[-> -> ]|[-> -> ]]; tauto.
Qed.

Definition spoiled (s : list nat * list ((nat * nat * nat) * ModelIdentify.group spec_float)) : Prop :=
  (forall j f, nth_error fs j = Some f -> three f -> used_in (fst s) j = true) /\ exists t g, snd s = [(t, g)] /\ stray g.

Theorem lost_groups : exists g, find_groupings (N := F64) p caps = Ok [g] /\ stray g.
Proof using F2 Pl Dj Ord In0 In1 In2 HD Hm Gap Only Accepted.
  assert (Len : length caps = length fs) by (symmetry; apply (Forall2_len _ _ _ _ _ F2)).
  destruct (In_nth_error _ _ In0) as [i0 E0]. destruct (In_nth_error _ _ In1) as [i1 E1]. destruct (In_nth_error _ _ In2) as [i2 E2].
  assert (L0 : (i0 < length fs)%nat) by (apply nth_error_Some; congruence).
  destruct (@for_range_ok Empty_set _ (fun t s => (t <= i0)%nat /\ s = ([], []) \/ (i0 < t)%nat /\ spoiled s) (fun idx s => if used_in (fst s) idx then Ok s
      else let* pairs := find_and_rank_possible_neighbors (N := F64) caps idx in for_each pairs (try_pair p caps idx) s) 0 (length caps) ([], [])) as (s & Es & G).
  - lia.
  - left. split; [lia|reflexivity].
  - intros t s Ht P. assert (Lt : (t < length fs)%nat) by lia.
    destruct (nth_error fs t) as [f|] eqn:Ef; [|apply nth_error_None in Ef; lia].
    destruct (used_in (fst s) t) eqn:Ut.
    { exists s. split; [reflexivity|]. destruct P as [[_ -> ]|[P1 P2]]; [discriminate Ut|right; split; [lia|exact P2]]. }
    destruct (rank_f64 caps t ltac:(lia)) as (ranked & Ek & _ & R). unfold out in *. rewrite Ek. cbn [bind].
    destruct (Nat.lt_trichotomy t i0) as [H|[H|H]].
    + (* before *)
      destruct P as [[_ -> ]|[P _]]; [|lia].
      assert (Em : ranked = []).
      { destruct ranked as [|[sc [a b]] ranked]; [reflexivity|]. exfalso.
        assert (V : viable caps t a b sc) by (apply R; left; reflexivity).
        destruct (lost_viable t a b sc f Ef V) as (ga & gb & _ & _ & [[-> _]|[S _]]).
        * pose proof (lost_index _ _ _ Ef E0). lia.
        * exact (lost_order t i0 f f0 Ef E0 ltac:(lia) S). }
      rewrite Em. exists ([], []). split; [reflexivity|]. left. split; [lia|reflexivity].
    + (* the pattern itself *)
      subst t. assert (f = f0) by congruence. subst f. clear Ef. destruct P as [[_ -> ]|[P _]]; [|lia].
      assert (All : forall sc a b, In (sc, (a, b)) ranked -> a = i1 /\ b = i2 \/ a = i2 /\ b = i1).
      { intros sc a b H. apply R in H. destruct (lost_viable i0 a b sc f0 E0 H) as (ga & gb & Ea & Eb & [[_ [[-> -> ]|[-> -> ]]]|[S _]]).
        * left. split; eapply lost_index; eassumption.
        * right. split; eapply lost_index; eassumption.
        * exfalso. exact (lost_order i0 i0 f0 f0 E0 E0 ltac:(lia) S). }
      destruct Gap as (X1 & Y1 & X2 & Y2).
      destruct (viable_own fs caps F2 Pl lost_nodup Dj i0 i1 i2 f0 g0 h0 D E0 E1 E2 HD Hm X1 Y1 X2 Y2) as (a' & b' & sc' & r & _ & V & _).
      apply R in V. destruct ranked as [|[sc [a b]] ranked]; [contradiction V|]. clear V.
      pose proof (All sc a b ltac:(left; reflexivity)) as Hab.
      destruct (Forall2_nth' _ _ _ _ _ F2 E0) as (cf & Cf & Qf). destruct (Forall2_nth' _ _ _ _ _ F2 E1) as (cg & Cg & Qg). destruct (Forall2_nth' _ _ _ _ _ F2 E2) as (ch & Ch & Qh).
      assert (Ca : exists ca cb, nth_error caps a = Some ca /\ nth_error caps b = Some cb /\ stray (MkGroup ca cf cb)).
      { destruct Hab as [[-> -> ]|[-> -> ]]; [exists cg, ch|exists ch, cg]; (split; [assumption|]; split; [assumption|]); exists cf, cg, ch; auto. }
      destruct Ca as (ca & cb & Ca & Cb & St). destruct (Accepted _ St) as (l & p' & Eg). set (g := MkGroup ca cf cb) in *.
      assert (K : try_pair p caps i0 (a, b) ([], []) = Ok ([a; i0; b], [((a, i0, b), g)])).
      { unfold try_pair. cbn [used_in existsb orb]. rewrite (aget_some _ _ _ Ca), (aget_some _ _ _ Cf), (aget_some _ _ _ Cb). cbn [bind]. fold g. unfold out in *. rewrite Eg. reflexivity. }
      assert (U : forall j, j = i0 \/ j = i1 \/ j = i2 -> used_in [a; i0; b] j = true) by (intros j Hj; apply used_in_spec; cbn [In]; destruct Hab as [[-> -> ]|[-> -> ]]; intuition congruence).
      assert (Sk : for_each (map snd ranked) (try_pair p caps i0) ([a; i0; b], [((a, i0, b), g)]) = Ok ([a; i0; b], [((a, i0, b), g)])).
      { apply skip_pairs. intros x y H. apply in_map_iff in H as ([sc1 [x' y']] & Ee & H). cbn [snd] in Ee. injection Ee as -> ->. left. cbn [fst]. apply U.
        destruct (All sc1 x y ltac:(right; exact H)) as [[-> _]|[-> _]]; auto. }
      cbn [map snd for_each]. unfold out in *. rewrite K. cbn [bind]. rewrite Sk. eexists. split; [reflexivity|]. right. split; [lia|]. split; [|exists (a, i0, b), g; auto].
      intros j f Ej [-> |[-> | -> ]]; cbn [fst]; apply U; [left|right; left|right; right]; eapply lost_index; eassumption.
    + (* after *)
      destruct P as [[P _]|[_ P]]; [lia|]. destruct P as [P1 P2].
      assert (Sk : for_each (map snd ranked) (try_pair p caps t) s = Ok s).
      { apply skip_pairs. intros x y H'. apply in_map_iff in H' as ([sc1 [x' y']] & Ee & H'). cbn [snd] in Ee. injection Ee as -> ->. apply R in H'.
        destruct (lost_viable t x y sc1 f Ef H') as (ga & gb & Ea & Eb & [[-> _]|[_ [T|[T|T]]]]).
        * pose proof (lost_index _ _ _ Ef E0). lia.
        * pose proof (P1 t f Ef T). congruence.
        * left. apply (P1 x ga Ea T).
        * right. apply (P1 y gb Eb T). }
      unfold out in *. rewrite Sk. exists s. split; [reflexivity|]. right. split; [lia|]. split; [exact P1|exact P2].
  - destruct G as [[G _]|[_ [_ (t & g & Eg & St)]]]; [lia|]. exists g. split; [|exact St].
    unfold find_groupings, find_groupings_indexed. unfold out in *. rewrite Es. cbn [bind]. rewrite Eg. reflexivity.
Qed.
End Lost.

(** * Three symbols astray *)

(** The patterns, in modules, in the order of [all_finders]. *)
Definition spots : list (Z * Z) := [(52, 14); (38, 14); (52, 0); (14, 28); (0, 28); (14, 14); (38, 38); (52, 38); (38, 52)].
Definition spot (m ox oy : Z) (c : Z * Z) : finder := (m, (ox + fst c * m, oy + snd c * m)).

Lemma spot_list s1 s2 s3 m ox oy : all_finders (astray s1 s2 s3 m ox oy) = map (spot m ox oy) spots.
Proof.
  unfold astray, all_finders, spots, spot. cbn [flat_map finders app map fst snd]. unfold corner_finder, row_finder, column_finder, finder_of. cbn [mk_v mk_m mk_ox mk_oy mk_r].
  change (symbol_size 1) with 21.
  repeat (apply f_equal2; [apply f_equal2; [reflexivity|apply f_equal2; ring]|]). reflexivity.
Qed.

Definition same_spot (c d : Z * Z) : bool := (fst c =? fst d) && (snd c =? snd d).
Definition spots_pair (c d e : Z * Z) : bool :=
  let dx := Z.abs (fst d - fst c) in let dy := Z.abs (snd e - snd c) in
  (5 * Z.abs (snd d - snd c) - dx <=? 1) && (5 * Z.abs (fst e - fst c) - dy <=? 1) && (3 * Z.max dx dy - 4 * Z.min dx dy <=? 1).
Definition special (c : Z * Z) : bool := same_spot c (38, 14) || same_spot c (14, 14) || same_spot c (38, 38).
Definition later_spot (c : Z * Z) : bool := (14 <? snd c) || (14 =? snd c) && (38 <? fst c).

Definition spots_only (t : (Z * Z) * ((Z * Z) * (Z * Z))) : bool :=
  let '(c, (d, e)) := t in
  same_spot d c || same_spot e c || negb (spots_pair c d e)
  || same_spot c (38, 14) && same_spot d (14, 14) && same_spot e (38, 38) || later_spot c && (special c || special d || special e).

Lemma spots_checked : forall c d e, In c spots -> In d spots -> In e spots -> spots_only (c, (d, e)) = true.
Proof.
  intros c d e Hc Hd He. assert (A : forallb spots_only (list_prod spots (list_prod spots spots)) = true) by (vm_compute; reflexivity).
  rewrite forallb_forall in A. apply A. apply in_prod; [exact Hc|]. apply in_prod; assumption.
Qed.

Lemma same_spot_eq c d : same_spot c d = true -> c = d.
Proof. destruct c, d. unfold same_spot. cbn [fst snd]. intros H. f_equal; lia. Qed.

Lemma scale_abs m a b : 0 <= m -> Z.abs (a * m - b * m) = Z.abs (a - b) * m.
Proof. intros H. rewrite <- Z.mul_sub_distr_r, Z.abs_mul, (Z.abs_eq m H). reflexivity. Qed.

Lemma spot_gaps m ox oy c d : 0 <= m -> gap_x (spot m ox oy c) (spot m ox oy d) = 2 * (Z.abs (fst d - fst c) * m)
  /\ gap_y (spot m ox oy c) (spot m ox oy d) = 2 * (Z.abs (snd d - snd c) * m).
Proof.
  intros H. unfold gap_x, gap_y, spot. cbn [fst snd]. rewrite <- !(scale_abs m) by exact H. generalize (fst d * m) (fst c * m) (snd d * m) (snd c * m). clear. intros. lia.
Qed.

Lemma spots_may m ox oy c d e : 2 <= m -> may_pair (spot m ox oy c) (spot m ox oy d) (spot m ox oy e) -> spots_pair c d e = true.
Proof.
  intros M (H1 & H2 & H3). destruct (spot_gaps m ox oy c d ltac:(lia)) as [X1 Y1]. destruct (spot_gaps m ox oy c e ltac:(lia)) as [X2 Y2]. rewrite X1, Y1 in *. rewrite X2, Y2 in *.
  unfold spots_pair. revert H1 H2 H3. generalize (Z.abs (fst d - fst c)) (Z.abs (snd d - snd c)) (Z.abs (fst e - fst c)) (Z.abs (snd e - snd c)). cbv zeta. clear - M. intros a b x y H1 H2 H3.
  assert (5 * b - a <= 1) by nia. assert (5 * x - y <= 1) by nia. assert (3 * Z.max a y - 4 * Z.min a y <= 1); [|lia].
  destruct (Z.le_gt_cases a y); [rewrite Z.max_r, Z.min_l in * by nia|rewrite Z.max_l, Z.min_r in * by nia]; nia.
Qed.

Lemma spot_later m ox oy c : 1 <= m -> later_spot c = true -> sooner_finder (spot m ox oy (38, 14)) (spot m ox oy c).
Proof. intros M H. unfold later_spot in H. unfold sooner_finder, spot. cbn [fst snd]. destruct c as [a b]. cbn [fst snd] in *. nia. Qed.

Lemma spots_astray m ox oy f g h : 2 <= m -> In f (map (spot m ox oy) spots) -> In g (map (spot m ox oy) spots) -> In h (map (spot m ox oy) spots) -> g <> f -> h <> f -> may_pair f g h ->
  let f0 := spot m ox oy (38, 14) in let g0 := spot m ox oy (14, 14) in let h0 := spot m ox oy (38, 38) in let three f := f = f0 \/ f = g0 \/ f = h0 in
  f = f0 /\ g = g0 /\ h = h0 \/ sooner_finder f0 f /\ (three f \/ three g \/ three h).
Proof.
  cbv zeta. intros M Hf Hg Hh N1 N2 P. apply in_map_iff in Hf as (c & <- & Hc). apply in_map_iff in Hg as (d & <- & Hd). apply in_map_iff in Hh as (e & <- & He).
  apply spots_may in P; [|exact M]. pose proof (spots_checked c d e Hc Hd He) as A. cbn [spots_only] in A. unfold spots_only in A. rewrite P in A. cbn [negb] in A. rewrite orb_false_r in A.
  assert (Sp : forall c, special c = true -> spot m ox oy c = spot m ox oy (38, 14) \/ spot m ox oy c = spot m ox oy (14, 14) \/ spot m ox oy c = spot m ox oy (38, 38)).
  { intros c0 H. unfold special in H. apply orb_prop in H as [H|H]; [apply orb_prop in H as [H|H]|]; apply same_spot_eq in H; subst c0; auto. }
  apply orb_prop in A as [A|A]; [apply orb_prop in A as [A|A]; [apply orb_prop in A as [A|A]|]|].
  - apply same_spot_eq in A. subst d. contradiction.
  - apply same_spot_eq in A. subst e. contradiction.
  - left. apply andb_prop in A as [A A3]. apply andb_prop in A as [A1 A2]. apply same_spot_eq in A1, A2, A3. subst. auto.
  - right. apply andb_prop in A as [A B]. split; [apply spot_later; [lia|exact A]|]. apply orb_prop in B as [B|B]; [apply orb_prop in B as [B|B]|]; auto.
Qed.

Section Astray.
Context {Srt : Sorter spec_float}.
Context (I0 : image) (p0 : prepared) (Fr : fresh I0 p0) (s1 s2 s3 : Z -> Z -> bool) (m ox oy : Z).
Notation ks := (astray s1 s2 s3 m ox oy).
Context (Fs : fair_sheet (im_w I0) (im_h I0) (pix I0) ks) (Bl : blank_outside (im_w I0) (im_h I0) (pix I0) ks).

Lemma astray_unit : 2 <= m.
Proof using Fs. apply (ck_unit _ _ _ _ (cs_marks _ _ _ _ Fs (Mark 1 s1 m (ox + 38 * m) oy 2) ltac:(left; reflexivity))). Qed.

Lemma astray_white x y : inside (im_w I0) (im_h I0) (x, y) -> (forall k, In k ks -> ~ mark_square k (x, y)) -> pix I0 (x, y) = 0.
Proof using Bl. intros I N. destruct (Z.eq_dec (pix I0 (x, y)) 0) as [E|E]; [exact E|]. destruct (Bl (x, y) I E) as (k & Hk & Sq). destruct (N k Hk Sq). Qed.

Lemma astray_finder c : In c spots -> finder_square (im_w I0) (im_h I0) (pix I0) m (ox + fst c * m) (oy + snd c * m).
Proof using Fs.
  intros H. assert (A : In (spot m ox oy c) (all_finders ks)) by (rewrite spot_list; apply in_map; exact H).
  apply in_flat_map in A as (k & Hk & A). apply (mark_finder_square _ _ _ k (cs_marks _ _ _ _ Fs k Hk) _ A).
Qed.

Lemma astray_group p g : reg_inv I0 p -> stray (spot m ox oy (38, 14)) (spot m ox oy (14, 14)) (spot m ox oy (38, 38)) g ->
  exists c, from_group (N := F64) p g = Ok (Some (MkLoc 17 c), p) /\ calm c 40000.
Proof using Fs Bl.
  intros RI (cf & cg & ch & Qf & Qg & Qh & Hg). pose proof astray_unit as M.
  unfold f_cap, spot in Qf, Qg, Qh. cbn [fst snd] in Qf, Qg, Qh.
  pose proof (astray_finder (38, 14) ltac:(cbn; auto 10)) as FA. pose proof (astray_finder (38, 38) ltac:(cbn; auto 10)) as FB. pose proof (astray_finder (14, 14) ltac:(cbn; auto 10)) as FC.
  cbn [fst snd] in FA, FB, FC.
  apply (stray_group I0 p RI (cs_width _ _ _ _ Fs) (cs_height _ _ _ _ Fs) m (24 * m) (ox + 38 * m, oy + 14 * m) cf ch cg M) with (g := g); cbn [fst snd];
    try (replace (oy + 14 * m + 24 * m) with (oy + 38 * m) by ring); try (replace (ox + 38 * m - 24 * m) with (ox + 14 * m) by ring); try assumption.
  - lia.
  - intros x y Hx Hy. apply astray_white.
    + destruct FA, FB. unfold inside. cbn [fst snd]. lia.
    + intros k [<-|[<-|[<-|[]]]]; unfold mark_square, in_square; cbn [mk_v mk_m mk_ox mk_oy fst snd]; change (symbol_size 1) with 21; lia.
  - intros x y Hx Hy. apply astray_white.
    + destruct FA, FC. unfold inside. cbn [fst snd]. lia.
    + intros k [<-|[<-|[<-|[]]]]; unfold mark_square, in_square; cbn [mk_v mk_m mk_ox mk_oy fst snd]; change (symbol_size 1) with 21; lia.
  - tauto.
  - pose proof (ck_product _ _ _ _ (cs_marks _ _ _ _ Fs (Mark 1 s3 m (ox + 38 * m) (oy + 38 * m) 0) ltac:(right; right; left; reflexivity))) as Pr.
    cbn [mk_v mk_m mk_ox mk_oy mk_r] in Pr. eapply Z.le_lt_trans; [|exact Pr]. apply Z.mul_le_mono_nonneg_l; [apply Z.mul_nonneg_nonneg; lia|].
    unfold furthest, step_at. change (symbol_size 1) with 21. cbn [fst snd]. lia.
Qed.

Theorem detect_astray : exists l p', detect_grids (N := F64) p0 = Ok ([l], p') /\ loc_size (lg_loc l) = 17.
Proof using Fr Fs Bl.
  pose proof astray_unit as M. destruct (sheet_search I0 p0 Fr ks Fs) as (caps & p1 & fs & Es & RI & Pm & F2 & Od & _ & _). unfold detect_grids. rewrite Es. cbn [bind].
  assert (InF : forall f, In f fs -> In f (all_finders ks)) by (intros f; apply Permutation_in; apply Permutation_sym; exact Pm).
  assert (InS : forall c, In c spots -> In (spot m ox oy c) fs) by (intros c Hc; apply (Permutation_in _ Pm); rewrite spot_list; apply in_map; exact Hc).
  destruct (lost_groups fs caps F2 ltac:(eauto using all_placed) ltac:(eauto using all_apart) Od p1 (spot m ox oy (38, 14)) (spot m ox oy (14, 14)) (spot m ox oy (38, 38)) (24 * m)) as (g & Eg & Sg).
  - apply InS. cbn. auto 10.
  - apply InS. cbn. auto 10.
  - apply InS. cbn. auto 10.
  - lia.
  - cbn [spot fst]. lia.
  - destruct (spot_gaps m ox oy (38, 14) (14, 14) ltac:(lia)) as [-> ->]. destruct (spot_gaps m ox oy (38, 14) (38, 38) ltac:(lia)) as [-> ->]. cbn [fst snd]. clear. lia.
  - intros f g h Hf Hg Hh N1 N2 P. apply InF in Hf, Hg, Hh. rewrite spot_list in Hf, Hg, Hh. exact (spots_astray m ox oy f g h M Hf Hg Hh N1 N2 P).
  - intros g Sg. destruct (clone_inv I0 p1 RI) as [C1 _]. destruct (astray_group (clone p1) g C1 Sg) as (c & -> & _). eauto.
  - unfold out in *. rewrite Eg. cbn [bind for_each]. destruct (astray_group p1 g RI Sg) as (c & Ef & Cc). unfold out in *. rewrite Ef. cbn [bind app for_each].
    assert (N0 : near (n_of (N := F64) 0) (IZR 0) (1 / 100000000)) by (eapply near_weaken; [apply (near_of 0); lia|lra]).
    assert (N1 : near (n_add (Num := F64) (n_of 17) (n_of 1)) (IZR (17 + 1)) (1 / 100000000)).
    { rewrite plus_IZR. apply near_add with (ex := 0%R) (ey := 0%R) (B := 200%R); [apply near_of; lia|apply (near_of 1); lia| |lra|lra]. rewrite Rabs_pos_eq by lra. lra. }
    assert (B0 : (Rabs (IZR 0) <= 200)%R) by (rewrite Rabs_R0; lra). assert (B1 : (Rabs (IZR (17 + 1)) <= 200)%R) by (rewrite plus_IZR, Rabs_pos_eq; lra).
    unfold grid_bounds. cbn [loc_size loc_c].
    destruct (calm_map c _ _ _ _ Cc N0 N0 B0 B0) as (q0 & E0). destruct (calm_map c _ _ _ _ Cc N1 N0 B1 B0) as (q1 & E1).
    destruct (calm_map c _ _ _ _ Cc N1 N1 B1 B1) as (q2 & E2). destruct (calm_map c _ _ _ _ Cc N0 N1 B0 B1) as (q3 & E3).
    unfold out in *. rewrite E0, E1, E2, E3. cbn [bind app]. eexists _, _. split; [reflexivity|reflexivity].
Qed.
End Astray.

Theorem astray_bitmap {Srt : Sorter spec_float} w h fill s1 s2 s3 m ox oy : fair_sheet w h (ink fill) (astray s1 s2 s3 m ox oy) -> blank_outside w h (ink fill) (astray s1 s2 s3 m ox oy) ->
  exists p, prepare_from_bitmap w h fill = Ok p /\ exists l p', detect_grids (T := spec_float) p = Ok ([l], p') /\ g_size (ref_grid p' (lg_loc l)) = 17.
Proof.
  intros C Bl. pose proof (cs_width _ _ _ _ C) as Hw. pose proof (cs_height _ _ _ _ C) as Hh.
  destruct (bitmap_ok w h fill ltac:(lia) ltac:(lia)) as (p & E & S1 & S2 & F & P); [unfold usize_max; nia|].
  exists p. split; [exact E|]. pose proof (prepared_pixels w h p fill F S1 S2 P) as Px.
  apply (detect_astray (p_buf p) p F s1 s2 s3 m ox oy).
  - destruct (fresh_size w h p F S1 S2) as [-> ->]. eapply fair_sheet_same; [|exact C]. exact Px.
  - destruct (fresh_size w h p F S1 S2) as [-> ->]. intros q Hq D. apply (Bl q Hq). specialize (Px q Hq). tauto.
Qed.

(** A grid too small for any version is not decoded. *)
Lemma small_fails W (wr : W -> list Z -> W * bool) g w w' meta : g_size g <= 20 -> grid_decode_to wr g w <> (w', Ok meta).
Proof.
  intros Sz. assert (N : forall g : BitGrid, g_size g <= 20 -> forall t, decode_inner g <> Ok t).
  { clear. intros g Sz t E. unfold decode_inner, get_raw, read_format in E. apply bind_ok_inv in E as ([m r] & E & _). apply bind_ok_inv in E as (m' & E & _).
    apply bind_ok_inv in E as (f & _ & E). apply bind_ok_inv in E as (f' & _ & E). apply bind_ok_inv in E as (v & E & _). apply version_from_size_ok in E. lia. }
  unfold grid_decode_to, decode. pose proof (N g Sz) as N1. pose proof (N (MirroredGrid g) Sz) as N2.
  destruct (decode_inner g) as [t|e| |]; [destruct (N1 t eq_refl)| |discriminate|discriminate].
  destruct (decode_inner (MirroredGrid g)) as [t|e'| |]; [destruct (N2 t eq_refl)|discriminate|discriminate|discriminate].
Qed.

(** * Any three messages *)

From Verif Require Import EncodeProofs SymbolProofs DrawProofs DotProofs SheetRender SheetScan SpecQR.

Lemma lost_furthest m ox oy r : 2 <= m -> (r = 0 \/ r = 2)%nat -> furthest 1 m ox oy r <= Z.max (ox + 21 * m) (oy + 21 * m).
Proof.
  intros M [-> | -> ]; unfold furthest, step_at; change (symbol_size 1) with 21; cbn [fst snd]; lia.
Qed.

Theorem lost_messages {Srt : Sorter spec_float} w h d m ox oy ec1 ec2 ec3 k1 k2 k3 t1 t2 t3 : 1 <= w <= 32768 -> 1 <= h <= 32768 -> 1 <= d -> 2 * d + 2 <= m ->
  0 <= ox -> 0 <= oy -> ox + 59 * m <= w -> oy + 59 * m <= h ->
  (7 * m - 1) * (7 * m - 1) * (Z.max (ox + 59 * m) (oy + 59 * m)) < 2 ^ 31 ->
  let ks := astray (encode 1 ec1 k1 t1) (encode 1 ec2 k2 t2) (encode 1 ec3 k3 t3) m ox oy in
  fair_sheet w h (ink (overlay (dots d) ks)) ks /\
  exists p, prepare_from_bitmap w h (overlay (dots d) ks) = Ok p /\
    exists l p', detect_grids (T := spec_float) p = Ok ([l], p') /\ g_size (ref_grid p' (lg_loc l)) = 17 /\
      forall W (wr : W -> list Z -> W * bool) out out' meta, grid_decode_to wr (ref_grid p' (lg_loc l)) out <> (out', Ok meta).
Proof.
  intros Hw Hh Hd Hm Ox Oy Rw Rh Pr. cbv zeta. set (ks := astray _ _ _ m ox oy).
  assert (Al : forall k, In k ks -> clear_alone w h (dots d k) k).
  { intros k Hk. assert (K : mk_v k = 1 /\ mk_m k = m /\ (mk_r k = 0 \/ mk_r k = 2)%nat /\ 0 <= mk_ox k /\ 0 <= mk_oy k /\ mk_ox k + 21 * m <= ox + 59 * m /\ mk_oy k + 21 * m <= oy + 59 * m
      /\ function_patterns 1 (mk_sym k)).
    { destruct Hk as [<-|[<-|[<-|[]]]]; cbn [mk_v mk_m mk_r mk_ox mk_oy mk_sym]; (split; [reflexivity|]; split; [reflexivity|]; split; [auto|]; split; [lia|]; split; [lia|]; split; [lia|]; split; [lia|]); apply encode_patterns; lia. }
    destruct K as (K1 & K2 & K3 & K4 & K5 & K6 & K7 & K8). apply dotted_alone. rewrite K1, K2. change (symbol_size 1) with 21 in *.
    apply dotted_clear; try assumption; try lia; change (symbol_size 1) with 21; try lia.
    eapply Z.le_lt_trans; [|exact Pr]. apply Z.mul_le_mono_nonneg_l; [apply Z.mul_nonneg_nonneg; lia|].
    pose proof (lost_furthest m (mk_ox k) (mk_oy k) (mk_r k) ltac:(lia) K3) as Lf. revert Lf. generalize (furthest 1 m (mk_ox k) (mk_oy k) (mk_r k)). clear - K6 K7. intros; lia. }
  assert (Sp : ForallOrdPairs spaced ks).
  { unfold ks, astray, spaced, side. repeat first [unfold symbol_size; progress cbn [mk_v mk_m mk_ox mk_oy]; lia | constructor]. }
  pose proof (overlay_fair w h (dots d) ks Al Sp Hw Hh) as Fs. split; [exact Fs|].
  destruct (astray_bitmap w h (overlay (dots d) ks) _ _ _ m ox oy Fs) as (p & E & l & p' & Ed & Sz).
  - intros q _ D. apply (drawn_dark w h (dots d) ks Al Sp) in D as (k & Hk & D). exists k. split; [exact Hk|]. apply (pic_square w h (dots d) ks Al Sp k q Hk D).
  - exists p. split; [exact E|]. exists l, p'. split; [exact Ed|]. split; [exact Sz|]. intros. apply small_fails. lia.
Qed.

Theorem lost_every {Srt : Sorter spec_float} : ~ (forall w h fill ks, fair_sheet w h (ink fill) ks -> exists p, prepare_from_bitmap w h fill = Ok p /\ finds_sheet p ks).
Proof.
  intros A. destruct (lost_messages 236 236 1 4 0 0 EcM EcM EcM 0 0 0 [] [] []) as (Fs & p & E & l & p' & Ed & _); try lia.
  destruct (A _ _ _ _ Fs) as (p1 & E1 & found & ls & p2 & Ed' & Pm & _ & Fl). rewrite E in E1. injection E1 as <-.
  rewrite Ed in Ed'. injection Ed' as <- <-. apply Permutation_length in Pm. apply (Forall2_len _ _ _ _ _) in Fl. cbn [length astray] in *. lia.
Qed.

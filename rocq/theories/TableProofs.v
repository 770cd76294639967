(** Four labels in two rows of two: the outermost patterns of three of them are taken for one large symbol. *)
From Coq Require Import Reals Lra SpecFloat.
From Flocq Require Import Core.
From Coq Require Import Permutation Sorting.Sorted.
From Verif Require Import Base Lib VersionDb ModelDecode ModelImage ModelGeometry ModelDetect ModelIdentify SpecQR SpecImage SpecIdentify SpecFinder SpecPicture SpecSheet SpecTable
  FloodProofs RegionProofs CornerProofs SearchProofs ScanProofs HistoryProofs FloatProofs CenterProofs GeometryProofs SpiralProofs SampleProofs ApproxProofs FrameProofs SquareProofs TurnProofs PatternProofs GroupProofs OrientProofs TimingProofs AlignProofs TotalProofs
  IdentifyProofs NeighborProofs ImageFacts FinderFacts PictureProofs GridProofs FitnessProofs LayoutProofs JiggleProofs JiggleTotal WholeProofs SheetSearch SheetGroup SheetProofs SheetLost SpecQR.
From Coq Require Import ZifyBool.
Open Scope Z_scope.
Set Bullet Behavior "Strict Subproofs".

(** * The timing row through two symbols *)

(** The modules of row 6, and of column 6, of a symbol of [n] by [n] modules. *)
Definition line_dark (n k : Z) : bool := (k <=? 6) || (n - 7 <=? k) || Z.even k.

Lemma row6 v sym k : 1 <= v -> function_patterns v sym -> 0 <= k < symbol_size v -> sym 6 k = line_dark (symbol_size v) k /\ sym k 6 = line_dark (symbol_size v) k.
Proof.
  intros Hv Fp Hk. assert (Sz : symbol_size v = 17 + 4 * v) by reflexivity. set (sz := symbol_size v) in *.
  pose proof (fp_finder _ _ Fp) as Fd. pose proof (fp_separator _ _ Fp) as Fs. unfold finder_centres in Fd, Fs. fold sz in Fd, Fs. cbv zeta in Fd, Fs. cbn [In] in Fd, Fs.
  assert (Ev : Z.even sz = false) by (rewrite Sz; rewrite Z.even_add, Z.even_mul; reflexivity).
  assert (C : k <= 6 \/ k = 7 \/ 8 <= k <= sz - 9 \/ k = sz - 8 \/ sz - 7 <= k) by lia. unfold line_dark.
  destruct C as [C|[-> |[C|[-> |C]]]].
  - replace (k <=? 6) with true by lia. cbn [orb]. split.
    + pose proof (Fd 3 3 3 (k - 3) ltac:(tauto) ltac:(unfold ring_no; lia)) as H. replace (3 + (k - 3)) with k in H by ring. cbn in H. rewrite H. unfold finder_dark, ring_no. lia.
    + pose proof (Fd 3 3 (k - 3) 3 ltac:(tauto) ltac:(unfold ring_no; lia)) as H. replace (3 + (k - 3)) with k in H by ring. cbn in H. rewrite H. unfold finder_dark, ring_no. lia.
  - replace (sz - 7 <=? 7) with false by lia. split.
    + pose proof (Fs 3 3 3 4 ltac:(tauto) ltac:(reflexivity) ltac:(lia) ltac:(lia)) as H. exact H.
    + pose proof (Fs 3 3 4 3 ltac:(tauto) ltac:(reflexivity) ltac:(lia) ltac:(lia)) as H. exact H.
  - replace (k <=? 6) with false by lia. replace (sz - 7 <=? k) with false by lia. cbn [orb]. apply (fp_timing _ _ Fp). exact C.
  - replace (sz - 8 <=? 6) with false by lia. replace (sz - 7 <=? sz - 8) with false by lia. replace (Z.even (sz - 8)) with false by (rewrite Z.even_sub, Ev; reflexivity). cbn [orb]. split.
    + pose proof (Fs 3 (sz - 4) 3 (-4) ltac:(tauto) ltac:(reflexivity) ltac:(lia) ltac:(lia)) as H. replace (sz - 4 + -4) with (sz - 8) in H by ring. exact H.
    + pose proof (Fs (sz - 4) 3 (-4) 3 ltac:(tauto) ltac:(reflexivity) ltac:(lia) ltac:(lia)) as H. replace (sz - 4 + -4) with (sz - 8) in H by ring. exact H.
  - replace (sz - 7 <=? k) with true by lia. rewrite orb_true_r. cbn [orb]. split.
    + pose proof (Fd 3 (sz - 4) 3 (k - (sz - 4)) ltac:(tauto) ltac:(unfold ring_no; lia)) as H. replace (sz - 4 + (k - (sz - 4))) with k in H by ring. cbn in H. rewrite H. unfold finder_dark, ring_no. lia.
    + pose proof (Fd (sz - 4) 3 (k - (sz - 4)) 3 ltac:(tauto) ltac:(unfold ring_no; lia)) as H. replace (sz - 4 + (k - (sz - 4))) with k in H by ring. cbn in H. rewrite H. unfold finder_dark, ring_no. lia.
Qed.

Lemma div_next m i : 1 <= m -> (i + 1) / m = i / m \/ (i + 1) / m = i / m + 1.
Proof. intros M. pose proof (Z.div_mod i m ltac:(lia)). pose proof (Z.mod_pos_bound i m ltac:(lia)). pose proof (Z.div_mod (i + 1) m ltac:(lia)). pose proof (Z.mod_pos_bound (i + 1) m ltac:(lia)). nia. Qed.

Definition stretch (n m P i : Z) : Z :=
  if i <? n * m then Z.min (i / m) (n - 7) - 6 else if i <? P then n - 12 else n - 11 + (Z.max 6 (Z.min ((i - P) / m) (n - 7)) - 6).

Section Line.
Context (I0 : image) (p : prepared) (RI : reg_inv I0 p) (Hw : 1 <= im_w I0 <= 32768) (Hh : 1 <= im_h I0 <= 32768).
Context (v m P dx dy : Z) (f : Z -> pixel) (Ax : axis dx dy) (Fs : forall i j, f (i + j) = (fst (f i) + j * dx, snd (f i) + j * dy)).
Notation n := (symbol_size v).
Context (Hv : 1 <= v) (M : 2 <= m) (HP : n * m < P).
Context (D1 : forall i, 6 * m <= i < n * m -> in_image I0 (f i) /\ (pix I0 (f i) <> 0 <-> line_dark n (i / m) = true)).
Context (D2 : forall i, n * m <= i < P -> in_image I0 (f i) /\ pix I0 (f i) = 0).
Context (D3 : forall i, P <= i < P + n * m -> in_image I0 (f i) /\ (pix I0 (f i) <> 0 <-> line_dark n ((i - P) / m) = true)).

Lemma double_scan lo hi : 6 * m <= lo -> lo < hi < P + n * m -> timing_scan p (pt (f lo)) (pt (f hi)) = Ok (stretch n m P hi - stretch n m P lo).
Proof using RI Hw Hh Ax Fs Hv M HP D1 D2 D3.
  intros Lo Hi. assert (Sz : n = 17 + 4 * v) by reflexivity. set (nn := n) in *. clearbody nn.
  assert (Ev : forall z, Z.even (nn + z) = negb (Z.even z)) by (intros z; rewrite Sz, !Z.even_add, Z.even_mul; cbn; destruct (Z.even z); reflexivity).
  assert (Es : forall z, Z.even (z - 6) = Z.even z) by (intros z; rewrite Z.even_sub; cbn; destruct (Z.even z); reflexivity).
  apply (blocks_scan I0 p RI Hw Hh f (stretch nn m P) Z.even lo hi dx dy ltac:(lia) Ax Fs).
  - intros i Hi'. unfold stretch. destruct (Z.ltb_spec i (nn * m)) as [A|A]; [|destruct (Z.ltb_spec i P) as [B|B]].
    + destruct (D1 i ltac:(lia)) as [I1 I2]. split; [exact I1|]. rewrite I2.
      assert (G : 6 <= i / m < nn) by (split; [apply Z.div_le_lower_bound; lia|apply Z.div_lt_upper_bound; lia]).
      replace (Z.even (Z.min (i / m) (nn - 7) - 6)) with (line_dark nn (i / m)); [tauto|]. rewrite Es. unfold line_dark. revert G. generalize (i / m). intros k G.
      destruct (Z.leb_spec (nn - 7) k) as [K|K].
      * rewrite orb_true_r. rewrite Z.min_r by lia. replace (nn - 7) with (nn + -7) by ring. rewrite Ev. reflexivity.
      * rewrite Z.min_l by lia. rewrite orb_false_r. destruct (Z.leb_spec k 6) as [J|J]; [|reflexivity]. replace k with 6 by lia. reflexivity.
    + destruct (D2 i ltac:(lia)) as [I1 I2]. split; [exact I1|]. rewrite I2. replace (nn - 12) with (nn + -12) by ring. rewrite Ev. cbn. intuition discriminate.
    + destruct (D3 i ltac:(lia)) as [I1 I2]. split; [exact I1|]. rewrite I2.
      assert (G : 0 <= (i - P) / m < nn) by (split; [apply Z.div_le_lower_bound; lia|apply Z.div_lt_upper_bound; lia]).
      replace (Z.even (nn - 11 + (Z.max 6 (Z.min ((i - P) / m) (nn - 7)) - 6))) with (line_dark nn ((i - P) / m)); [tauto|]. unfold line_dark. revert G. generalize ((i - P) / m). intros k G.
      rewrite Z.even_add, Es. replace (nn - 11) with (nn + -11) by ring. rewrite Ev. cbn [Z.even negb Z.opp].
      destruct (Z.leb_spec (nn - 7) k) as [K|K].
      * rewrite orb_true_r, Z.min_r, Z.max_r by lia. replace (nn - 7) with (nn + -7) by ring. rewrite Ev. reflexivity.
      * rewrite Z.min_l by lia. rewrite orb_false_r. destruct (Z.leb_spec k 6) as [J|J]; [rewrite Z.max_l by lia; reflexivity|]. rewrite Z.max_r by lia. cbn. destruct (Z.even k); reflexivity.
  - intros i Hi'. assert (Sw : forall z, Z.even z = negb (Z.even (z + 1))) by (clear; intros z; rewrite Z.even_add; cbn; destruct (Z.even z); reflexivity).
    unfold stretch. pose proof (div_next m i ltac:(lia)) as N1. pose proof (div_next m (i - P) ltac:(lia)) as N2. replace (i - P + 1) with (i + 1 - P) in N2 by ring.
    destruct (Z.ltb_spec i (nn * m)) as [A|A], (Z.ltb_spec (i + 1) (nn * m)) as [A'|A']; try (exfalso; clear - A A'; lia).
    + destruct N1 as [-> | -> ]; [auto|]. set (z := i / m). assert (C : Z.min (z + 1) (nn - 7) - 6 = Z.min z (nn - 7) - 6 \/ Z.min (z + 1) (nn - 7) - 6 = Z.min z (nn - 7) - 6 + 1) by (clear; lia).
      destruct C as [-> | -> ]; auto.
    + replace (i + 1 <? P) with true by (clear - A A' HP; lia). right. replace (i / m) with (nn - 1) by (apply Z.div_unique with (r := m - 1); clear - M A A'; lia).
      rewrite Z.min_r by (clear; lia). split; [ring|apply Sw].
    + destruct (Z.ltb_spec i P) as [B|B], (Z.ltb_spec (i + 1) P) as [B'|B']; try (exfalso; clear - B B'; lia); auto.
      * right. replace (i + 1 - P) with 0 by (clear - B B'; lia). rewrite Z.div_0_l by (clear - M; lia). cbn [Z.max Z.min Z.compare]. rewrite Z.max_l by (clear - Sz Hv; lia). split; [ring|apply Sw].
      * destruct N2 as [-> | -> ]; [auto|]. set (z := (i - P) / m).
        assert (C : Z.max 6 (Z.min (z + 1) (nn - 7)) = Z.max 6 (Z.min z (nn - 7)) \/ Z.max 6 (Z.min (z + 1) (nn - 7)) = Z.max 6 (Z.min z (nn - 7)) + 1) by (clear; lia).
        destruct C as [-> | -> ]; [auto|]. right. split; [ring|]. apply Sw.
Qed.
End Line.

Lemma used_app u u' j : used_in (u ++ u') j = used_in u j || used_in u' j.
Proof. unfold used_in. apply existsb_app. Qed.

Lemma used_of a b c j : used_in [a; b; c] j = true <-> j = a \/ j = b \/ j = c.
Proof. rewrite used_in_spec. cbn [In]. intuition congruence. Qed.

(** * The patterns *)

Section Table.
Context {Srt : Sorter spec_float}.
Context (I0 : image) (p0 : prepared) (Fr : fresh I0 p0) (v : Z) (s1 s2 s3 s4 : Z -> Z -> bool) (m P ox oy : Z).
Notation n := (symbol_size v).
Notation d := ((symbol_size v - 7) * m).
Notation L := (7 * m - 1).
Notation kA := (Mark v s1 m ox oy 0).
Notation kB := (Mark v s2 m (ox + P) oy 0).
Notation kC := (Mark v s3 m ox (oy + P) 0).
Notation kD := (Mark v s4 m (ox + P) (oy + P) 0).
Notation ks := (table v s1 s2 s3 s4 m P ox oy).
Context (Fs : fair_sheet (im_w I0) (im_h I0) (pix I0) ks) (Bl : blank_outside (im_w I0) (im_h I0) (pix I0) ks).
Context (V2 : 2 <= v) (Cb : close_by v m P).

Lemma tb_numbers : 2 <= m /\ n = 17 + 4 * v /\ v <= 18 /\ d = n * m - 7 * m /\ 25 * m <= n * m <= 91 * m /\ n * m < P <= 2 * (n * m) /\ P + n * m <= 183 * m /\ 0 <= ox /\ 0 <= oy
  /\ ox + P + n * m <= im_w I0 /\ oy + P + n * m <= im_h I0 /\ im_w I0 <= 32768 /\ im_h I0 <= 32768.
Proof using Fs V2 Cb.
  pose proof (cs_marks _ _ _ _ Fs kA ltac:(left; reflexivity)) as CA. pose proof (cs_marks _ _ _ _ Fs kD ltac:(right; right; right; left; reflexivity)) as CD.
  destruct CA as [_ M _ _ [_ A1 A2 _ _ _ _]]. destruct CD as [_ _ _ _ [_ _ _ D3 D4 _ _]]. pose proof (cs_width _ _ _ _ Fs). pose proof (cs_height _ _ _ _ Fs).
  cbn [mk_v mk_m mk_ox mk_oy mk_r] in *. destruct Cb as [C1 C2]. assert (Sz : n = 17 + 4 * v) by reflexivity. clear - C1 C2 Sz M A1 A2 D3 D4 H H0 V2.
  assert (N1 : n <= 91) by (destruct (Z.le_gt_cases n 91) as [G|G]; [exact G|exfalso; assert (92 * m <= n * m) by (apply Z.mul_le_mono_nonneg_r; lia); lia]).
  assert (N2 : 25 * m <= n * m <= 91 * m) by (split; apply Z.mul_le_mono_nonneg_r; lia). rewrite Z.mul_sub_distr_r. lia.
Qed.

Lemma tb_legible k : In k ks -> clear_mark (im_w I0) (im_h I0) (pix I0) k.
Proof using Fs. apply (cs_marks _ _ _ _ Fs). Qed.

Lemma tb_white x y : inside (im_w I0) (im_h I0) (x, y) -> (forall k, In k ks -> ~ mark_square k (x, y)) -> pix I0 (x, y) = 0.
Proof using Bl. intros I N. destruct (Z.eq_dec (pix I0 (x, y)) 0) as [E|E]; [exact E|]. destruct (Bl (x, y) I E) as (k & Hk & Sq). destruct (N k Hk Sq). Qed.

Lemma upright e x y s t : place 0 e x y s t = (x + s, y + t).
Proof. unfold place. cbn [dir_a dir_b org_x org_y]. f_equal; ring. Qed.

(** The timing row and column of each. *)
Lemma tb_line p sym x y i : reg_inv I0 p -> In (Mark v sym m x y 0) ks -> 0 <= i < n * m ->
  (in_image I0 (x + i, y + mid6 m) /\ (pix I0 (x + i, y + mid6 m) <> 0 <-> line_dark n (i / m) = true))
  /\ (in_image I0 (x + mid6 m, y + i) /\ (pix I0 (x + mid6 m, y + i) <> 0 <-> line_dark n (i / m) = true)).
Proof using Fs V2 Cb.
  intros RI Hk Hi. destruct (tb_legible _ Hk) as [[Hv _] M _ Fp Sh]. cbn [mk_v mk_m mk_ox mk_oy mk_r mk_sym] in *. pose proof tb_numbers as (_ & Sz & _ & _ & B & _).
  assert (M6 : 6 * m <= mid6 m < 7 * m /\ mid6 m / m = 6).
  { apply (mid6_module I0 p RI (cs_width _ _ _ _ Fs) (cs_height _ _ _ _ Fs) v sym m x y 0 Sh Hv Fp M). }
  destruct M6 as [M6 M6']. assert (Hk' : 0 <= i / m < n) by (split; [apply Z.div_le_lower_bound; lia|apply Z.div_lt_upper_bound; lia]).
  destruct (row6 v sym (i / m) ltac:(lia) Fp Hk') as [R1 R2]. split.
  - destruct (dark_at I0 p RI (cs_width _ _ _ _ Fs) (cs_height _ _ _ _ Fs) v sym m x y 0 Sh Hv Fp M i (mid6 m) Hi ltac:(lia)) as [In D]. unfold seen, pattern_module in D. rewrite M6', R1, upright in D.
    rewrite upright in In. split; [exact In|apply D; tauto].
  - destruct (dark_at I0 p RI (cs_width _ _ _ _ Fs) (cs_height _ _ _ _ Fs) v sym m x y 0 Sh Hv Fp M (mid6 m) i ltac:(lia) Hi) as [In D]. unfold seen, pattern_module in D. rewrite M6', R2, upright in D.
    rewrite upright in In. split; [exact In|apply D; tauto].
Qed.

Lemma tb_map c x y cu cv : posed c x y L 1 0 -> 0 <= x <= 32767 -> 0 <= y <= 32767 -> 0 <= cu <= 200 -> 0 <= cv <= 200 ->
  exists s t, persp_map (N := F64) (cap_c c) (n_ratio cu 2) (n_ratio cv 2) = Ok (MkPoint (x + s) (y + t)) /\
    Z.abs (14 * s - L * cu) <= 7 /\ Z.abs (14 * t - L * cv) <= 7.
Proof using Fs V2 Cb.
  intros [_ Af] Hx Hy Hu Hcv. pose proof tb_numbers as (M & _ & _ & _ & B & C & _ & O1 & _ & W1 & _ & W3 & _).
  assert (HK : (1 <= IZR L / 7 <= 40000)%R) by (apply posed_bounds; lia).
  assert (Nr : forall z, 0 <= z <= 200 -> near (n_ratio (Num := F64) z 2) (IZR z / IZR 2) (1 / 100000000) /\ (Rabs (IZR z / IZR 2) <= 200)%R).
  { intros z Hz. split; [eapply near_weaken; [apply near_ratio; lia|lra]|]. assert (0 <= IZR z <= 200)%R by (split; apply IZR_le; lia). apply Rabs_le'; lra. }
  destruct (Nr cu Hu) as [N1 B1]. destruct (Nr cv Hcv) as [N2 B2]. clear Nr.
  assert (Q : forall z, 0 <= z <= 32767 -> 0 <= z <= 40000) by (clear; intros; lia).
  assert (Af' : affine (cap_c c) (IZR L / 7) (dir_a 0) (dir_b 0) (fst (place 0 0 x y 0 0)) (snd (place 0 0 x y 0 0))) by (rewrite upright; cbn [fst snd dir_a dir_b]; rewrite !Z.add_0_r; exact Af).
  assert (P1 : 0 <= fst (place 0 0 x y 0 0) <= 40000) by (rewrite upright; cbn [fst]; rewrite Z.add_0_r; auto).
  assert (P2 : 0 <= snd (place 0 0 x y 0 0) <= 40000) by (rewrite upright; cbn [snd]; rewrite Z.add_0_r; auto).
  destruct (map_place 0 0 x y (cap_c c) _ 0 0 _ _ _ _ Af' HK P1 P2 N1 N2 B1 B2) as (s & t & Em & C1 & C2).
  rewrite upright in Em. exists s, t. split; [exact Em|]. clear - C1 C2. split.
  - apply land_int in C1; [|lia|lia]. rewrite Z.sub_0_r in C1. lia.
  - apply land_int in C2; [|lia|lia]. rewrite Z.sub_0_r in C2. lia.
Qed.

Definition counted (E0 : Z) : Z := stretch n m P (E0 + m / 2) - stretch n m P (mid6 m).

Lemma tb_scan p E0 : reg_inv I0 p -> P <= E0 <= P + d ->
  timing_scan p (MkPoint (ox + mid6 m) (oy + mid6 m)) (MkPoint (ox + E0 + m / 2) (oy + mid6 m)) = Ok (counted E0)
  /\ timing_scan p (MkPoint (ox + mid6 m) (oy + mid6 m)) (MkPoint (ox + mid6 m) (oy + E0 + m / 2)) = Ok (counted E0).
Proof using Fs Bl V2 Cb.
  intros RI HE. pose proof tb_numbers as (M & Sz & V3 & Ed & B & C & T & O1 & O2 & W1 & W2 & W3 & W4).
  assert (M6 : 6 * m <= mid6 m < 7 * m) by (unfold mid6; clear - M; lia). assert (M2 : 0 <= m / 2 < m) by (clear - M; lia).
  pose proof (fun i => tb_line p s1 ox oy i RI ltac:(left; reflexivity)) as LA. pose proof (fun i => tb_line p s2 (ox + P) oy i RI ltac:(right; left; reflexivity)) as LB.
  pose proof (fun i => tb_line p s3 ox (oy + P) i RI ltac:(right; right; left; reflexivity)) as LC.
  assert (Wt : forall x y, inside (im_w I0) (im_h I0) (x, y) -> (ox + n * m <= x < ox + P \/ oy + n * m <= y < oy + P) -> pix I0 (x, y) = 0).
  { intros x y I H. apply tb_white; [exact I|]. intros k Hk Sq. unfold table in Hk. cbn [In] in Hk. unfold mark_square, in_square in Sq.
    destruct Hk as [<-|[<-|[<-|[<-|[]]]]]; cbn [mk_v mk_m mk_ox mk_oy mk_r fst snd] in Sq; clear - H Sq C; lia. }
  unfold counted. set (c := mid6 m) in *. set (e := m / 2) in *. clearbody c e. rewrite <- !Z.add_assoc.
  split.
  - apply (double_scan I0 p RI (cs_width _ _ _ _ Fs) (cs_height _ _ _ _ Fs) v m P 1 0 (fun i => (ox + i, oy + c)) eq_refl); [| | | | | | |lia|lia].
    + intros i j. cbn [fst snd]. f_equal; ring.
    + lia.
    + exact M.
    + lia.
    + intros i Hi. apply (LA i). lia.
    + intros i Hi. assert (Ii : in_image I0 (ox + i, oy + c)) by (unfold in_image, inside; cbn [fst snd]; lia). split; [exact Ii|]. apply Wt; [exact Ii|left; lia].
    + intros i Hi. replace (ox + i) with (ox + P + (i - P)) by ring. apply (LB (i - P)). lia.
  - apply (double_scan I0 p RI (cs_width _ _ _ _ Fs) (cs_height _ _ _ _ Fs) v m P 0 1 (fun i => (ox + c, oy + i)) eq_refl); [| | | | | | |lia|lia].
    + intros i j. cbn [fst snd]. f_equal; ring.
    + lia.
    + exact M.
    + lia.
    + intros i Hi. apply (LA i). lia.
    + intros i Hi. assert (Ii : in_image I0 (ox + c, oy + i)) by (unfold in_image, inside; cbn [fst snd]; lia). split; [exact Ii|]. apply Wt; [exact Ii|right; lia].
    + intros i Hi. replace (oy + i) with (oy + P + (i - P)) by ring. apply (LC (i - P)). lia.
Qed.

Lemma tb_counted : counted P = n - 11 /\ counted (P + d) = 2 * n - 24.
Proof using Fs V2 Cb.
  pose proof tb_numbers as (M & Sz & V3 & Ed & B & C & T & _). unfold counted, stretch.
  assert (M6 : mid6 m / m = 6) by (symmetry; apply Z.div_unique with (r := mid6 m - 6 * m); unfold mid6; clear - M; lia).
  assert (M6' : mid6 m < 7 * m) by (unfold mid6; clear - M; lia). assert (M2 : 0 <= m / 2 < m) by (clear - M; lia).
  replace (mid6 m <? n * m) with true by lia. rewrite M6. set (e := m / 2) in *. clearbody e. clear M6. rewrite (Z.min_l 6) by lia.
  replace (P + e <? n * m) with false by lia. replace (P + d + e <? n * m) with false by lia. replace (P + e <? P) with false by lia. replace (P + d + e <? P) with false by lia.
  replace ((P + e - P) / m) with 0 by (apply Z.div_unique with (r := e); lia). replace ((P + d + e - P) / m) with (n - 7) by (apply Z.div_unique with (r := e); lia). lia.
Qed.

(** What happens to a group of the first corner and two patterns [E0] to the right of it and below. *)
Definition kind (E0 : Z) (g : ModelIdentify.group spec_float) : Prop :=
  exists cA cB cC, square_cap m (ox, oy) cA /\ square_cap m (ox + E0, oy) cB /\ square_cap m (ox, oy + E0) cC /\ (g = MkGroup cB cA cC \/ g = MkGroup cC cA cB).

Lemma tb_open p E0 g : reg_inv I0 p -> P <= E0 <= P + d -> kind E0 g ->
  exists A' B' C' hd, orient_group g = Ok (MkGroup C' A' B', hd) /\ posed A' ox oy L 1 0 /\ posed B' (ox + E0) oy L 1 0 /\ posed C' ox (oy + E0) L 1 0
    /\ in_reach (px hd) /\ in_reach (py hd) /\ 0 < dir_b 0 * px hd - dir_a 0 * py hd /\ 0 < dir_a 0 * px hd + dir_b 0 * py hd
    /\ measure_timing_pattern p (MkGroup C' A' B') = Ok (Z.max 0 (counted E0 + 13 - 15) / 4 * 4 + 17)
    /\ line_intersect (k0 (cap_corners C')) (k1 (cap_corners C')) (k0 (cap_corners B')) (k3 (cap_corners B')) = Ok (Some (MkPoint (ox + E0) (oy + E0))).
Proof using Fs Bl V2 Cb.
  intros RI HE (cA & cB & cC & QA & QB & QC & Hg). pose proof tb_numbers as (M & Sz & V3 & Ed & B & C & T & O1 & O2 & W1 & W2 & W3 & W4).
  destruct (orient_square m E0 1 0 (ox, oy) (ox + E0, oy) (ox, oy + E0) cA cB cC M ltac:(lia) eq_refl) with (g := g) as (A' & B' & C' & Eo & SA & SB & SC & R1 & R2 & R3 & R4); try assumption.
  - unfold placed. cbn [fst snd]. lia.
  - unfold placed. cbn [fst snd]. lia.
  - unfold placed. cbn [fst snd]. lia.
  - cbn [fst snd]. f_equal; ring.
  - cbn [fst snd]. f_equal; ring.
  - assert (Hm : forall s : pixel, home 1 0 L s = s) by (intros [x y]; unfold home; cbn [fst snd Z.min Z.compare Z.opp]; f_equal; ring).
    rewrite Hm in SA, SB, SC. cbn [fst snd] in SA, SB, SC. eexists A', B', C', _. split; [exact Eo|]. split; [exact SA|]. split; [exact SB|]. split; [exact SC|].
    split; [exact R1|]. split; [exact R2|]. split; [exact R3|]. split; [exact R4|]. split.
    + unfold measure_timing_pattern. cbn [gr0 gr1 gr2].
      destruct (tb_map C' _ _ 13 1 SC ltac:(lia) ltac:(lia) ltac:(lia) ltac:(lia)) as (u0 & t0 & -> & X0 & Y0).
      destruct (tb_map A' _ _ 13 13 SA ltac:(lia) ltac:(lia) ltac:(lia) ltac:(lia)) as (u1 & t1 & -> & X1 & Y1).
      destruct (tb_map B' _ _ 1 13 SB ltac:(lia) ltac:(lia) ltac:(lia) ltac:(lia)) as (u2 & t2 & -> & X2 & Y2).
      cbn [bind].
      assert (H6 : forall z, Z.abs (14 * z - L * 13) <= 7 -> z = mid6 m) by (intros z Hz; unfold mid6; clear - Hz; lia).
      assert (H1 : forall z, Z.abs (14 * z - L * 1) <= 7 -> z = m / 2) by (intros z Hz; clear - Hz; lia).
      apply H6 in X0, X1, Y1, Y2. apply H1 in Y0, X2. subst u0 t0 u1 t1 u2 t2. clear H6 H1.
      destruct (tb_scan p E0 RI HE) as [-> ->]. cbn [bind]. rewrite Z.max_id.
      assert (H1 : 1 <= counted E0).
      { unfold counted, stretch. assert (M6 : 6 * m <= mid6 m < 7 * m) by (unfold mid6; clear - M; lia). assert (M2 : 0 <= m / 2 < m) by (clear - M; lia).
        replace (mid6 m <? n * m) with true by lia. replace (E0 + m / 2 <? n * m) with false by lia. replace (E0 + m / 2 <? P) with false by lia.
        replace (mid6 m / m) with 6 by (apply Z.div_unique with (r := mid6 m - 6 * m); lia). clear - Sz V2. lia. }
      replace (1 <=? counted E0) with true by lia. reflexivity.
    + destruct SB as [EB _], SC as [EC _]. rewrite EB, EC. unfold square. cbn [k0 k1 k3].
      pose proof (intersect_axes 1 0 L ox (oy + E0) (ox + E0) oy 32768 eq_refl ltac:(lia) ltac:(lia) ltac:(lia) ltac:(lia) ltac:(lia) ltac:(lia) ltac:(lia) ltac:(lia) ltac:(lia) ltac:(lia)) as Ex.
      rewrite Ex. clear Ex. cbn [Z.eqb fst snd]. replace (_ <? 2 ^ 31) with true; [reflexivity|]. symmetry. apply Z.ltb_lt.
      pose proof (ck_product _ _ _ _ (tb_legible kD ltac:(right; right; right; left; reflexivity))) as Pr. cbn [mk_v mk_m mk_ox mk_oy mk_r] in Pr.
      eapply Z.le_lt_trans; [|exact Pr]. apply Z.mul_le_mono_nonneg_l; [apply Z.mul_nonneg_nonneg; lia|]. unfold furthest, step_at. cbn [fst snd]. lia.
Qed.

Lemma tb_versions p c : reg_inv I0 p -> calm c 40000 -> exists s, fitness_all (N := F64) p c (8 * v + 25) = Ok s.
Proof using Fs V2 Cb.
  intros RI C. pose proof tb_numbers as (M & Sz & V3 & _). pose proof (cs_width _ _ _ _ Fs). pose proof (cs_height _ _ _ _ Fs). pose proof apat_sweep as Sw. rewrite forallb_forall in Sw.
  specialize (Sw (2 * v + 2) ltac:(apply in_or_app; rewrite !in_zrange; lia)). unfold apat_agrees in Sw.
  destruct (nth_error VERSION_DATA_BASE (Z.to_nat (2 * v + 2))) as [ver|] eqn:Ev; [|discriminate].
  destruct (list_eq_dec Z.eq_dec (take_nonzero (vi_apat ver)) (alignment_positions (2 * v + 2))) as [E|]; [|discriminate].
  replace (8 * v + 25) with (symbol_size (2 * v + 2)) by (unfold symbol_size; ring).
  destruct (all_total I0 p RI ltac:(lia) ltac:(lia) (2 * v + 2) ver c ltac:(lia) Ev) as (s & Es & _); [|exact C|exists s; exact Es].
  intros a Ha. rewrite E in Ha. apply positions_range; [lia|exact Ha].
Qed.

Lemma tb_calm c x y D0 w : affine c (IZR D0 / IZR w) 1 0 x y -> 10 <= w -> 0 <= x <= 32767 -> 0 <= y <= 32767 -> 0 <= D0 <= 32767 -> calm c 33000.
Proof.
  intros [A0 A1 A2 A3 A4 A5 A6 A7] Hw Hx Hy Hd. assert (K : (0 <= IZR D0 / IZR w <= 3277)%R).
  { assert (0 <= IZR D0 <= 32767)%R by (split; apply IZR_le; lia). assert (10 <= IZR w)%R by (apply IZR_le; lia).
    assert (I1 : (0 < / IZR w)%R) by (apply Rinv_0_lt_compat; lra). assert (I2 : (/ IZR w <= / 10)%R) by (apply Rinv_le_contravar; lra). unfold Rdiv. split; [apply Rmult_le_pos; lra|].
    apply Rle_trans with (32767 * / 10)%R; [apply Rmult_le_compat; lra|lra]. }
  set (K' := (IZR D0 / IZR w)%R) in *. clearbody K'. clear - A0 A1 A2 A3 A4 A5 A6 A7 Hx Hy K.
  assert (Pt : forall z, 0 <= z <= 32767 -> (Rabs (IZR z) + 0 <= 33000)%R).
  { intros z Hz. rewrite Rabs_pos_eq by (apply IZR_le; lia). assert (IZR z <= 32767)%R by (apply IZR_le; lia). lra. }
  constructor; try assumption.
  - eapply upto_near; [exact A0|]. rewrite Rmult_1_l, Rabs_pos_eq by lra. lra.
  - eapply upto_near; [exact A1|]. rewrite Ropp_mult_distr_l_reverse, Rmult_0_l, Rabs_Ropp, Rabs_R0. lra.
  - eapply upto_near; [apply near_rep; exact A2|]. apply Pt. exact Hx.
  - eapply upto_near; [exact A3|]. rewrite Rmult_0_l, Rabs_R0. lra.
  - eapply upto_near; [exact A4|]. rewrite Rmult_1_l, Rabs_pos_eq by lra. lra.
  - eapply upto_near; [apply near_rep; exact A5|]. apply Pt. exact Hy.
Qed.

(** The first corner with the outermost patterns of the second and the third: accepted, as one large symbol. *)
Lemma tb_great p g : reg_inv I0 p -> ~ claimed p (fourth kD) -> kind (P + d) g ->
  exists p' c, from_group (N := F64) p g = Ok (Some (MkLoc (8 * v + 25) c), p') /\ reg_inv I0 p' /\ calm c 40000
    /\ forall a, in_image I0 a -> claimed p' a -> claimed p a \/ mark_square kD a.
Proof using Fs Bl V2 Cb.
  intros RI Nc Kg. pose proof tb_numbers as (M & Sz & V3 & Ed & B & C & T & O1 & O2 & W1 & W2 & W3 & W4).
  destruct (tb_open p (P + d) g RI ltac:(lia) Kg) as (A' & B' & C' & hd & Eo & SA & SB & SC & R1 & R2 & R3 & R4 & Em & Ei).
  destruct tb_counted as [_ Ec]. rewrite Ec in Em. replace (Z.max 0 (2 * n - 24 + 13 - 15) / 4 * 4 + 17) with (8 * v + 25) in Em by (rewrite Sz; clear - V2; lia).
  unfold from_group. rewrite Eo. cbn [bind]. rewrite Em. cbn [bind gr0 gr2]. rewrite Ei. cbn [bind]. replace (21 <? 8 * v + 25) with true by lia.
  destruct (tb_legible kD ltac:(right; right; right; left; reflexivity)) as [[Hv _] _ _ Fp Sh]. cbn [mk_v mk_m mk_ox mk_oy mk_r mk_sym] in *.
  assert (Lf : exists p', locate_alignment p (MkGroup C' A' B') hd (pt (place 0 (n * m - 1) (ox + P) (oy + P) d d)) = Ok (Some (pt (place 0 (n * m - 1) (ox + P) (oy + P) d d)), p')
    /\ reg_inv I0 p' /\ forall a, in_image I0 a -> claimed p' a -> claimed p a \/ in_square n m (ox + P) (oy + P) a).
  { apply (locate_far I0 p RI (cs_width _ _ _ _ Fs) (cs_height _ _ _ _ Fs) v s4 m (ox + P) (oy + P) 0 Sh Hv Fp M C' B' A' hd (- P) (- P)); try assumption.
    - unfold standing. rewrite upright. cbn [fst snd dir_a dir_b]. replace (ox + P + d) with (ox + (P + d)) by ring. replace (oy + P + - P) with oy by ring. exact SB.
    - unfold standing. rewrite upright. cbn [fst snd dir_a dir_b]. replace (oy + P + d) with (oy + (P + d)) by ring. replace (ox + P + - P) with ox by ring. exact SC.
    - unfold on_paper. rewrite upright. cbn [fst snd]. lia.
    - unfold on_paper. rewrite upright. cbn [fst snd]. lia.
    - lia.
    - lia. }
  destruct Lf as (p' & El & RI' & Cl). rewrite upright in El. unfold pt in El. cbn [fst snd] in El. rewrite <- !Z.add_assoc in El. unfold out in *. rewrite El. cbn [bind].
  unfold version_from_grid_size. replace (usub (8 * v + 25) 17) with (Ok (E := Empty_set) (8 * v + 8)) by (unfold usub; replace (17 <=? 8 * v + 25) with true by lia; f_equal; ring). cbn [bind].
  replace ((8 * v + 8) / 4) with (2 * v + 2) by (apply Z.div_unique with (r := 0); lia). change (Z.of_nat (length VERSION_DATA_BASE)) with 41. replace (41 <=? 2 * v + 2) with false by lia.
  unfold setup_perspective. replace (usub (8 * v + 25) 7) with (Ok (E := Empty_set) (8 * v + 18)) by (unfold usub; replace (7 <=? 8 * v + 25) with true by lia; f_equal; ring). cbn [bind gr0 gr1 gr2].
  destruct SA as [EA _], SB as [EB _], SC as [EC _]. rewrite EA, EB, EC. unfold square at 1 2 3. cbn [k0].
  replace (Corners _ _ _ _) with (square ox oy (P + d) 1 0) by (unfold square; f_equal; f_equal; ring).
  assert (Wd : n * 2 <= n * m) by (apply Z.mul_le_mono_nonneg_l; lia).
  destruct (create_square ox oy (P + d) (8 * v + 18) 1 0 eq_refl ltac:(lia) ltac:(lia)) as (c & Ecr & Af).
  { unfold small_corners, small_pt, max_dim, square. cbn [k0 k1 k2 k3 px py]. lia. }
  rewrite Ecr. destruct (jiggle_ok p' (8 * v + 25) (fun c => tb_versions p' c RI') c) as (c' & Ej & Cc); [apply (tb_calm c _ _ _ _ Af); lia|].
  unfold out in *. rewrite Ej. cbn [bind]. exists p', c'. auto.
Qed.

(** The first corner with the corners of the second and the third: the search for an alignment pattern starts on the
    corner of the fourth and does not get away. *)
Lemma tb_stuck p g : reg_inv I0 p -> claimed p (ox + P, oy + P) -> kind P g -> exists p', from_group (N := F64) p g = Ok (None, p').
Proof using Fs Bl V2 Cb.
  intros RI Nc Kg. pose proof tb_numbers as (M & Sz & V3 & Ed & B & C & T & O1 & O2 & W1 & W2 & W3 & W4).
  destruct (tb_open p P g RI ltac:(lia) Kg) as (A' & B' & C' & hd & Eo & SA & SB & SC & R1 & R2 & R3 & R4 & Em & Ei).
  destruct tb_counted as [Ec _]. rewrite Ec in Em. replace (Z.max 0 (n - 11 + 13 - 15) / 4 * 4 + 17) with (4 * v + 21) in Em by (rewrite Sz; clear - V2; lia).
  unfold from_group. rewrite Eo. cbn [bind]. rewrite Em. cbn [bind gr0 gr2]. rewrite Ei. cbn [bind]. replace (21 <? 4 * v + 21) with true by lia.
  destruct (tb_legible kD ltac:(right; right; right; left; reflexivity)) as [[Hv _] _ _ Fp Sh]. cbn [mk_v mk_m mk_ox mk_oy mk_r mk_sym] in *.
  destruct (step_map I0 p RI (cs_width _ _ _ _ Fs) (cs_height _ _ _ _ Fs) v s4 m (ox + P) (oy + P) 0 Sh Hv Fp M C' (- P) 0 0 0) as [E1 _]; try lia.
  { unfold standing. rewrite upright. cbn [fst snd dir_a dir_b]. replace (oy + P + 0) with (oy + P) by ring. replace (ox + P + - P) with ox by ring. exact SC. }
  { unfold on_paper. rewrite upright. cbn [fst snd]. lia. }
  destruct (step_map I0 p RI (cs_width _ _ _ _ Fs) (cs_height _ _ _ _ Fs) v s4 m (ox + P) (oy + P) 0 Sh Hv Fp M B' 0 (- P) 0 0) as [_ E2]; try lia.
  { unfold standing. rewrite upright. cbn [fst snd dir_a dir_b]. replace (ox + P + 0) with (ox + P) by ring. replace (oy + P + - P) with oy by ring. exact SB. }
  { unfold on_paper. rewrite upright. cbn [fst snd]. lia. }
  rewrite !upright in E1, E2. unfold pt in E1, E2. cbn [fst snd] in E1, E2. rewrite !Z.add_0_r in E1, E2.
  unfold locate_alignment, find_alignment_pattern. cbn [gr0 gr2].
  destruct (persp_unmap (cap_c C') (MkPoint (ox + P) (oy + P))) as [ua va]. destruct (persp_unmap (cap_c B') (MkPoint (ox + P) (oy + P))) as [ub vb].
  cbn [fst snd] in E1, E2. rewrite E1. cbn [bind]. rewrite E2. cbn [bind]. clear E1 E2 ua va ub vb.
  assert (Mm : m <= 1311) by lia. assert (Q : 4 <= m * m <= 1311 * 1311) by (clear - M Mm; nia).
  rewrite (ival_is _ (m * m)).
  - cbn [bind]. rewrite Z.abs_eq by lia.
    destruct (alignment_spiral I0 p (m * m) (ox + P, oy + P) RI) as (legs & r & p' & Hl & Es & Fh); cbn [fst snd]; try lia.
    unfold pt in Es. cbn [fst snd] in Es. rewrite Es. cbn [bind].
    assert (En : r = None).
    { assert (L0 : (0 < legs)%nat) by (apply Hl; cbn; lia). destruct legs as [|legs]; [lia|]. unfold spiral in Fh. cbn [seq flat_map leg_steps leg_len Nat.div2 repeat app places] in Fh.
      inversion Fh as [|q l G N|q l G|q l r' G N F]; subst; [|reflexivity|]; exfalso; apply N; (split; [unfold in_image, inside; cbn [fst snd]; lia|exact Nc]). }
    subst r. cbn [option_map bind]. exists p'. reflexivity.
  - cbn [ibound iexact]. cbn [px py]. unfold i32_max. clear - Q M Mm O1 O2 W1 W2 W3 W4. repeat split; try lia; nia.
  - cbn [iexact px py]. ring.
Qed.

(** * The groups *)

Definition spot_at (X Y : Z) : finder := (m, (ox + X, oy + Y)).
Notation fA := (spot_at 0 0).

Definition offsets : list (Z * Z) :=
  [(0, 0); (d, 0); (0, d); (P, 0); (P + d, 0); (P, d); (0, P); (d, P); (0, P + d); (P, P); (P + d, P); (P, P + d)].

Lemma tb_list : all_finders ks = map (fun c => spot_at (fst c) (snd c)) offsets.
Proof.
  unfold table, all_finders, offsets, spot_at. cbn [flat_map finders app map fst snd]. unfold corner_finder, row_finder, column_finder, finder_of. cbn [mk_v mk_m mk_ox mk_oy mk_r].
  repeat (apply f_equal2; [apply f_equal2; [reflexivity|apply f_equal2; ring]|]). reflexivity.
Qed.

Lemma tb_gaps X Y : 0 <= X -> 0 <= Y -> gap_x fA (spot_at X Y) = 2 * X /\ gap_y fA (spot_at X Y) = 2 * Y.
Proof. intros H1 H2. unfold gap_x, gap_y, spot_at. cbn [fst snd]. clear - H1 H2. lia. Qed.

(** Which pairs may be tried with the first corner. *)
Lemma tb_pairs g h : In g (all_finders ks) -> In h (all_finders ks) -> g <> fA -> h <> fA -> may_pair fA g h ->
  (exists X, (X = d \/ X = P \/ X = P + d) /\ g = spot_at X 0 /\ h = spot_at 0 X)
  \/ (g = spot_at d 0 /\ h = spot_at 0 P \/ g = spot_at P 0 /\ h = spot_at 0 d) /\ less_square fA g h.
Proof using Fs V2 Cb.
  intros Hg Hh Ng Nh Mp. pose proof tb_numbers as (M & Sz & V3 & Ed & B & C & T & _). rewrite tb_list in Hg, Hh. apply in_map_iff in Hg as ([X Y] & <- & Hg). apply in_map_iff in Hh as ([X' Y'] & <- & Hh).
  cbn [fst snd] in *.
  assert (P1 : 0 <= X /\ 0 <= Y /\ 0 <= X' /\ 0 <= Y').
  { unfold offsets in Hg, Hh. cbn [In] in Hg, Hh. repeat split.
    - repeat (destruct Hg as [Hg|Hg]; [injection Hg as <- <-; clear - Ed B C M; lia|]). contradiction.
    - repeat (destruct Hg as [Hg|Hg]; [injection Hg as <- <-; clear - Ed B C M; lia|]). contradiction.
    - repeat (destruct Hh as [Hh|Hh]; [injection Hh as <- <-; clear - Ed B C M; lia|]). contradiction.
    - repeat (destruct Hh as [Hh|Hh]; [injection Hh as <- <-; clear - Ed B C M; lia|]). contradiction. }
  destruct P1 as (G1 & G2 & G3 & G4). destruct (tb_gaps X Y G1 G2) as [E1 E2]. destruct (tb_gaps X' Y' G3 G4) as [E3 E4].
  unfold may_pair in Mp. rewrite E1, E2, E3, E4 in Mp. destruct Mp as (Q1 & Q2 & Q3). unfold less_square. rewrite E1, E4. clear E1 E2 E3 E4.
  assert (Cg : Y = 0 /\ (X = d \/ X = P \/ X = P + d)).
  { unfold offsets in Hg. cbn [In] in Hg. clear - Hg Q1 Ed B C M Ng.
    repeat (destruct Hg as [Hg|Hg]; [injection Hg as <- <-; first [contradiction | lia]|]). contradiction. }
  assert (Ch : X' = 0 /\ (Y' = d \/ Y' = P \/ Y' = P + d)).
  { unfold offsets in Hh. cbn [In] in Hh. clear - Hh Q2 Ed B C M Nh.
    repeat (destruct Hh as [Hh|Hh]; [injection Hh as <- <-; first [contradiction | lia]|]). contradiction. }
  destruct Cg as [-> Cg], Ch as [-> Ch]. clear Hg Hh Ng Nh Q1 Q2 G1 G2 G3 G4.
  destruct Cg as [-> |[-> | -> ]], Ch as [-> |[-> | -> ]]; try (left; eexists; split; [|split; reflexivity]; tauto).
  - right. split; [left; auto|]. clear - Q3 Ed B C M T. lia.
  - exfalso. clear - Q3 Ed B C M T. lia.
  - right. split; [right; auto|]. clear - Q3 Ed B C M T. lia.
  - exfalso. clear - Q3 Ed B C M T. lia.
  - exfalso. clear - Q3 Ed B C M T. lia.
  - exfalso. clear - Q3 Ed B C M T. lia.
Qed.

Section Groups.
Context (fs : list finder) (caps : list (capstone spec_float)) (F2 : Forall2 f_cap fs caps) (Pm : Permutation (all_finders ks) fs) (Ord : ForallOrdPairs sooner_finder fs) (p : prepared).
Context (AcO : forall g, kind d g -> exists l p', from_group (N := F64) (clone p) g = Ok (Some l, p')).
Context (AcG : forall g, kind (P + d) g -> exists l p', from_group (N := F64) (clone p) g = Ok (Some l, p')).
Context (AcS : forall g, kind P g -> exists p', from_group (N := F64) (clone p) g = Ok (None, p')).

Lemma tb_inf f : In f fs -> In f (all_finders ks).
Proof using Pm. apply Permutation_in. apply Permutation_sym. exact Pm. Qed.

Lemma tb_spot X Y : In (X, Y) offsets -> In (spot_at X Y) fs.
Proof using Pm. intros H. apply (Permutation_in _ Pm). rewrite tb_list. apply in_map_iff. exists (X, Y). auto. Qed.

Lemma tb_same X Y X' Y' : spot_at X Y = spot_at X' Y' -> X = X' /\ Y = Y'.
Proof. intros E. injection E as E1 E2. lia. Qed.

Lemma tb_some X Y X' Y' : Some (spot_at X Y) = Some (spot_at X' Y') -> X = X' /\ Y = Y'.
Proof. intros E. apply tb_same. congruence. Qed.

Lemma tb_first : nth_error fs 0 = Some fA.
Proof using Fs V2 Cb F2 Pm Ord.
  pose proof tb_numbers as (M & Sz & V3 & Ed & B & C & T & _).
  destruct (In_nth_error fs fA (tb_spot 0 0 ltac:(left; reflexivity))) as [i Ei]. destruct i as [|i]; [exact Ei|]. exfalso.
  destruct (nth_error fs 0) as [f|] eqn:E0; [|destruct fs; discriminate].
  apply (lost_order fs Ord 0 (S i) f fA E0 Ei ltac:(lia)).
  assert (Nf : f <> fA) by (intros ->; pose proof (lost_index fs Ord 0 (S i) _ E0 Ei); discriminate).
  pose proof (tb_inf f (nth_error_In _ _ E0)) as Hf. rewrite tb_list in Hf. apply in_map_iff in Hf as ([X Y] & <- & Hf). cbn [fst snd] in *.
  assert (G : Y > 0 \/ Y = 0 /\ X > 0).
  { unfold offsets in Hf. cbn [In] in Hf. clear - Hf Ed B C M Nf. repeat (destruct Hf as [Hf|Hf]; [injection Hf as <- <-; first [contradiction | lia]|]). contradiction. }
  unfold sooner_finder, spot_at. cbn [fst snd]. clear - G. lia.
Qed.

Notation state := (list nat * list ((nat * nat * nat) * ModelIdentify.group spec_float))%type.

Record held (done : list Z) (s : state) : Prop := {
  hd_used : forall j f, nth_error fs j = Some f -> (used_in (fst s) j = true <-> exists X, In X done /\ (f = fA \/ f = spot_at X 0 \/ f = spot_at 0 X));
  hd_groups : Forall2 (fun X e => kind X (snd e)) done (snd s);
  hd_nodup : NoDup done;
  hd_which : forall X, In X done -> X = d \/ X = P + d
}.

Definition pair_of (X : Z) (e : spec_float * (nat * nat)) : Prop :=
  nth_error fs (fst (snd e)) = Some (spot_at X 0) /\ nth_error fs (snd (snd e)) = Some (spot_at 0 X)
  \/ nth_error fs (fst (snd e)) = Some (spot_at 0 X) /\ nth_error fs (snd (snd e)) = Some (spot_at X 0).

Definition entry (X : Z) (e : spec_float * (nat * nat)) : Prop := pair_of X e /\ exists r, near (fst e) r (1 / 10000000) /\ (r <= 2 / 57)%R.

Lemma tb_group X e : pair_of X e -> exists ca cf cb, nth_error caps (fst (snd e)) = Some ca /\ nth_error caps 0 = Some cf /\ nth_error caps (snd (snd e)) = Some cb /\ kind X (MkGroup ca cf cb).
Proof using Fs V2 Cb F2 Pm Ord.
  intros Pe. destruct (Forall2_nth' _ _ _ _ _ F2 tb_first) as (cf & Cf & Qf). unfold f_cap, spot_at in Qf. cbn [fst snd] in Qf. rewrite !Z.add_0_r in Qf.
  destruct Pe as [[H1 H2]|[H1 H2]]; destruct (Forall2_nth' _ _ _ _ _ F2 H1) as (ca & Ca & Qa); destruct (Forall2_nth' _ _ _ _ _ F2 H2) as (cb & Cb' & Qb);
    unfold f_cap, spot_at in Qa, Qb; cbn [fst snd] in Qa, Qb; rewrite !Z.add_0_r in Qa, Qb; exists ca, cf, cb; (split; [exact Ca|]; split; [exact Cf|]; split; [exact Cb'|]).
  - exists cf, ca, cb. auto.
  - exists cf, cb, ca. auto.
Qed.

(** One pair. *)
Lemma tb_try done s e : held done s ->
  (forall X, X = d \/ X = P + d -> pair_of X e -> exists done' s', try_pair p caps 0 (snd e) s = Ok s' /\ held done' s' /\ In X done' /\ forall Y, In Y done -> In Y done')
  /\ (pair_of P e -> try_pair p caps 0 (snd e) s = Ok s).
Proof using Fs V2 Cb F2 Pm Ord AcO AcG AcS.
  intros [U G Nd Wh]. pose proof tb_numbers as (M & Sz & V3 & Ed & B & C & T & _). destruct s as [used groups]. cbn [fst snd] in *. destruct e as [sc [a b]]. split.
  - intros X HX Pe. destruct (in_dec Z.eq_dec X done) as [Hd|Hd].
    + exists done, (used, groups). split; [|split; [constructor; assumption|auto]].
      unfold try_pair. cbn [snd].
      assert (Ua : used_in used a = true) by (destruct Pe as [[H1 H2]|[H1 H2]]; cbn [fst snd] in H1; apply (U a _ H1); exists X; auto). rewrite Ua. reflexivity.
    + assert (Nu : forall j f, nth_error fs j = Some f -> f = spot_at X 0 \/ f = spot_at 0 X -> used_in used j = false).
      { intros j f Ej Hf. destruct (used_in used j) eqn:Eu; [|reflexivity]. exfalso. apply (U j f Ej) in Eu as (Y & HY & Hy). pose proof (Wh Y HY) as HY'.
        assert (Ne : X <> Y) by (intros ->; contradiction).
        destruct Hf as [-> | -> ]; destruct Hy as [E|[E|E]]; apply tb_same in E as [E1 E2]; clear - E1 E2 Ne HX HY' Ed B C M; lia. }
      destruct (tb_group X _ Pe) as (ca & cf & cb & Ca & Cf & Cb' & Kg). cbn [fst snd] in Ca, Cb'.
      assert (Ac : exists l p', from_group (N := F64) (clone p) (MkGroup ca cf cb) = Ok (Some l, p')) by (destruct HX as [-> | -> ]; [apply AcO|apply AcG]; exact Kg).
      destruct Ac as (l & p' & Eg). exists (X :: done), (used ++ [a; 0%nat; b], ((a, 0%nat, b), MkGroup ca cf cb) :: groups). split; [|split; [|split; [left; reflexivity|intros; right; assumption]]].
      * unfold try_pair. cbn [snd].
        assert (Ua : used_in used a = false) by (destruct Pe as [[H1 H2]|[H1 H2]]; cbn [fst snd] in H1; apply (Nu a _ H1); auto).
        assert (Ub : used_in used b = false) by (destruct Pe as [[H1 H2]|[H1 H2]]; cbn [fst snd] in H2; apply (Nu b _ H2); auto).
        rewrite Ua, Ub. cbn [orb]. rewrite (aget_some _ _ _ Ca), (aget_some _ _ _ Cf), (aget_some _ _ _ Cb'). cbn [bind]. unfold out in *. rewrite Eg. reflexivity.
      * constructor; cbn [fst snd].
        -- intros j f Ej. rewrite used_app, orb_true_iff, used_of, (U j f Ej). split.
           ++ intros [(Y & HY & Hy)|Hj]; [exists Y; split; [right; exact HY|exact Hy]|]. exists X. split; [left; reflexivity|].
              pose proof tb_first as E0. destruct Pe as [[H1 H2]|[H1 H2]]; cbn [fst snd] in H1, H2; destruct Hj as [-> |[-> | -> ]];
                first [rewrite E0 in Ej | rewrite H1 in Ej | rewrite H2 in Ej]; injection Ej as <-; auto.
           ++ intros (Y & [<-|HY] & Hy); [|left; exists Y; auto]. right. pose proof tb_first as E0.
              destruct Pe as [[H1 H2]|[H1 H2]]; cbn [fst snd] in H1, H2; destruct Hy as [-> |[-> | -> ]];
                first [left; exact (lost_index fs Ord _ _ _ Ej H1) | right; right; exact (lost_index fs Ord _ _ _ Ej H2) | right; left; exact (lost_index fs Ord _ _ _ Ej E0)].
        -- constructor; [exact Kg|exact G].
        -- constructor; assumption.
        -- intros Y [<-|HY]; auto.
  - intros Pe. destruct (tb_group P _ Pe) as (ca & cf & cb & Ca & Cf & Cb' & Kg). cbn [fst snd] in Ca, Cb'. destruct (AcS _ Kg) as (p' & Eg).
    unfold try_pair. cbn [snd]. destruct (used_in used a || used_in used b); [reflexivity|].
    rewrite (aget_some _ _ _ Ca), (aget_some _ _ _ Cf), (aget_some _ _ _ Cb'). cbn [bind]. unfold out in *. rewrite Eg. reflexivity.
Qed.

Context (Pl : forall f, In f fs -> 2 <= fst f /\ placed (snd f) (fst f)) (Dj : forall f g q, In f fs -> In g fs -> f_box f q -> f_box g q -> f = g).

Lemma tb_loop l : StronglySorted no_more l -> (forall e, In e l -> viable caps 0 (fst (snd e)) (snd (snd e)) (fst e)) -> forall done s, held done s ->
  (forall X, X = d \/ X = P + d -> In X done \/ exists e, In e l /\ entry X e) ->
  exists done' s', for_each (map snd l) (try_pair p caps 0) s = Ok s' /\ held done' s' /\ forall X, X = d \/ X = P + d -> In X done'.
Proof using Fs V2 Cb F2 Pm Ord AcO AcG AcS Pl Dj.
  induction 1 as [|e l Ss IH Fa]; intros Va done s Hs Ex.
  - exists done, s. split; [reflexivity|]. split; [exact Hs|]. intros X HX. destruct (Ex X HX) as [H|(e & [] & _)]. exact H.
  - pose proof tb_numbers as (M & Sz & V3 & Ed & B & C & T & _). cbn [map for_each].
    assert (Go : forall done' s', try_pair p caps 0 (snd e) s = Ok s' -> held done' s' -> (forall Y, In Y done -> In Y done') -> (forall X, X = d \/ X = P + d -> entry X e -> In X done') ->
      exists done' s', bind (try_pair p caps 0 (snd e) s) (fun s => for_each (map snd l) (try_pair p caps 0) s) = Ok s' /\ held done' s' /\ forall X, X = d \/ X = P + d -> In X done').
    { intros done' s' Et Hs' Su En. unfold out in *. rewrite Et. cbn [bind]. apply (IH ltac:(intros e' He'; apply Va; right; exact He') done' s' Hs').
      intros X HX. destruct (Ex X HX) as [H|(e' & [<-|He'] & Ee)]; [left; apply Su; exact H|left; apply En; assumption|right; exists e'; auto]. }
    pose proof (Va e ltac:(left; reflexivity)) as Ve.
    destruct (viable_may fs caps F2 Pl (lost_nodup fs Ord) Dj 0 _ _ _ fA tb_first Ve) as (ga & gb & g & h & o & o' & Ea & Eb & Na & Nb & Hgh & Mp & O1 & O2 & G1 & G2 & Ns).
    assert (Pg : forall X, g = spot_at X 0 -> h = spot_at 0 X -> pair_of X e).
    { intros X -> ->. unfold pair_of. destruct Hgh as [[<- <-]|[<- <-]]; auto. }
    assert (Iga : In ga fs) by (apply (nth_error_In _ _ Ea)). assert (Igb : In gb fs) by (apply (nth_error_In _ _ Eb)).
    assert (Cl : (exists X, (X = d \/ X = P \/ X = P + d) /\ g = spot_at X 0 /\ h = spot_at 0 X)
      \/ (g = spot_at d 0 /\ h = spot_at 0 P \/ g = spot_at P 0 /\ h = spot_at 0 d) /\ less_square fA g h).
    { destruct Hgh as [[-> -> ]|[-> -> ]]; apply tb_pairs; auto using tb_inf. }
    assert (Pu : forall X Y, 0 < X -> 0 < Y -> pair_of X e -> pair_of Y e -> X = Y).
    { intros X Y HX HY [[A1 A2]|[A1 A2]] [[B1 B2]|[B1 B2]]; rewrite A1 in B1; apply tb_some in B1 as [Q1 Q2]; clear - Q1 Q2 HX HY; lia. }
    destruct Cl as [(X & HX & Eg & Eh)|[Mx Ls]].
    + pose proof (Pg X Eg Eh) as Pe. destruct (tb_try done s e Hs) as [T1 T2].
      assert (Px : 0 < X) by (clear - HX Ed B C M; lia).
      assert (HX' : X = P \/ (X = d \/ X = P + d)) by tauto. destruct HX' as [-> |HX'].
      * apply (Go done s (T2 Pe) Hs ltac:(auto)). intros X HX' [Pe' _]. exfalso. pose proof (Pu X P ltac:(clear - HX' Ed B C M; lia) Px Pe' Pe). clear - H HX' Ed B C M. lia.
      * destruct (T1 X HX' Pe) as (done' & s' & Et & Hs' & Hi & Su). apply (Go done' s' Et Hs' Su). intros Y HY [Pe' _].
        rewrite (Pu Y X ltac:(clear - HY Ed B C M; lia) Px Pe' Pe). exact Hi.
    + (* less square: the patterns of the first symbol are taken *)
      assert (Sk : (1 / 26 <= skew o o')%R) by (apply (less_square_skew fs caps F2 Pl (lost_nodup fs Ord) Dj fA g h); [lia|lia|exact O1|exact O2|exact Ls]).
      assert (Nd : forall e', entry d e' -> no_more e e' -> False).
      { intros e' (_ & r & N1 & R1) (x & x' & E1 & E2 & Le). destruct Ns as (x1 & X1 & X2). destruct N1 as (x2 & X3 & X4).
        assert (x = x1) by (eapply rep_fun; eassumption). assert (x' = x2) by (eapply rep_fun; eassumption). subst x1 x2. apply Rabs_le_inv in X2, X4. lra. }
      assert (Hd : In d done).
      { destruct (Ex d ltac:(left; reflexivity)) as [H|(e' & [<-|He'] & Ee)]; [exact H| |].
        - exfalso. destruct Ee as [Pe _]. unfold pair_of in Pe. rewrite Ea, Eb in Pe. destruct Mx as [[-> -> ]|[-> -> ]];
          destruct Hgh as [[<- <-]|[<- <-]]; destruct Pe as [[Q1 Q2]|[Q1 Q2]]; apply tb_some in Q1 as [Q1 Q1']; apply tb_some in Q2 as [Q2 Q2']; clear - Q1 Q1' Q2 Q2' Ed B C M; lia.
        - exfalso. rewrite Forall_forall in Fa. exact (Nd e' Ee (Fa e' He')). }
      assert (Et : try_pair p caps 0 (snd e) s = Ok s).
      { destruct s as [used groups], e as [sc [a b]]. cbn [fst snd] in *. unfold try_pair.
        assert (Us : used_in used a = true \/ used_in used b = true).
        { pose proof (hd_used _ _ Hs) as U. cbn [fst] in U.
          assert (Q : exists j f, (j = a \/ j = b) /\ nth_error fs j = Some f /\ (f = spot_at d 0 \/ f = spot_at 0 d)).
          { destruct Mx as [[-> -> ]|[-> -> ]]; destruct Hgh as [[<- <-]|[<- <-]]; first [exists a; eexists; split; [auto|]; split; [eassumption|auto; fail]|exists b; eexists; split; [auto|]; split; [eassumption|auto; fail]]. }
          destruct Q as (j & f & Hj & Ej & Hf). assert (Uj : used_in used j = true) by (apply (U j f Ej); exists d; split; [exact Hd|tauto]). destruct Hj as [-> | -> ]; auto. }
        destruct Us as [-> | -> ]; rewrite ?orb_true_r; reflexivity. }
      apply (Go done s Et Hs ltac:(auto)). intros X HX [Pe _].
      assert (X = d).
      { destruct HX as [-> | -> ]; [reflexivity|]. exfalso. unfold pair_of in Pe. rewrite Ea, Eb in Pe. destruct Mx as [[-> -> ]|[-> -> ]];
          destruct Hgh as [[<- <-]|[<- <-]]; destruct Pe as [[Q1 Q2]|[Q1 Q2]]; apply tb_some in Q1 as [Q1 Q1']; apply tb_some in Q2 as [Q2 Q2']; clear - Q1 Q1' Q2 Q2' Ed B C M; lia. }
      subst X. exact Hd.
Qed.

(** The first two groups. *)
Lemma tb_groups groups : find_groupings (N := F64) p caps = Ok groups ->
  exists g g' rest, groups = g :: g' :: rest /\ (kind d g /\ kind (P + d) g' \/ kind (P + d) g /\ kind d g').
Proof using Fs V2 Cb F2 Pm Ord AcO AcG AcS Pl Dj.
  intros E. pose proof tb_numbers as (M & Sz & V3 & Ed & B & C & T & _). unfold find_groupings, find_groupings_indexed in E.
  apply bind_ok_inv in E as (t & E & Em). injection Em as <-. apply bind_ok_inv in E as (s & E & Em). injection Em as <-.
  assert (Len : length caps = length fs) by (symmetry; apply (Forall2_len _ _ _ _ _ F2)).
  assert (L0 : (0 < length fs)%nat) by (apply nth_error_Some; rewrite tb_first; discriminate).
  destruct (length caps) as [|k] eqn:Lc; [lia|]. unfold range in E. rewrite Nat.sub_0_r in E. cbn [seq for_each] in E.
  apply bind_ok_inv in E as (s0 & E0 & E). cbn [fst used_in existsb] in E0.
  destruct (rank_f64 caps 0 ltac:(lia)) as (ranked & Ek & So & R). unfold out in *. rewrite Ek in E0. cbn [bind] in E0.
  assert (Va : forall e, In e ranked -> viable caps 0 (fst (snd e)) (snd (snd e)) (fst e)) by (intros [sc [a b]] He; apply R; exact He).
  assert (Ss : StronglySorted no_more ranked).
  { apply ranked_sorted; [exact So|]. intros e He. destruct (viable_may fs caps F2 Pl (lost_nodup fs Ord) Dj 0 _ _ _ fA tb_first (Va e He)) as (? & ? & ? & ? & ? & ? & ? & ? & ? & ? & ? & ? & ? & ? & ? & ? & (r & Rr & _)). exists r. exact Rr. }
  destruct (tb_loop ranked Ss Va [] ([], [])) as (done & s0' & Ed' & Hs & Al).
  - constructor; [|constructor|constructor|contradiction]. intros j f Ej. cbn [fst used_in existsb]. split; [discriminate|intros (X & [] & _)].
  - intros X HX. right.
    assert (I1 : In (spot_at X 0) fs) by (apply tb_spot; destruct HX as [-> | -> ]; cbn; auto 12).
    assert (I2 : In (spot_at 0 X) fs) by (apply tb_spot; destruct HX as [-> | -> ]; cbn; auto 12).
    destruct (In_nth_error _ _ I1) as [i1 E1]. destruct (In_nth_error _ _ I2) as [i2 E2].
    assert (Xp : 18 * m <= X) by (clear - HX Ed B C M; lia).
    destruct (tb_gaps X 0 ltac:(lia) ltac:(lia)) as [X1 Y1]. destruct (tb_gaps 0 X ltac:(lia) ltac:(lia)) as [X2 Y2].
    destruct (viable_own fs caps F2 Pl (lost_nodup fs Ord) Dj 0 i1 i2 fA (spot_at X 0) (spot_at 0 X) X tb_first E1 E2 ltac:(lia) ltac:(cbn [spot_at fst]; lia) X1 Y1 X2 Y2) as (a' & b' & sc & r & Hab & V & N1 & R1).
    exists (sc, (a', b')). split; [apply R; exact V|]. split; [|exists r; auto]. unfold pair_of. cbn [fst snd]. destruct Hab as [[-> -> ]|[-> -> ]]; auto.
  - rewrite Ed' in E0. injection E0 as <-.
    assert (G : exists more, snd s = more ++ snd s0').
    { apply (for_list_inv (fun s : state => exists more, snd s = more ++ snd s0')) in E; [exact E|exists []; reflexivity|].
      intros i t t' _ (more & Hm) Et. destruct (used_in (fst t) i); [injection Et as <-; exists more; exact Hm|].
      apply bind_ok_inv in Et as (pairs & _ & Et). apply (for_list_inv (fun s : state => exists more, snd s = more ++ snd s0')) in Et; [exact Et|exists more; exact Hm|].
      clear. intros [a b] [used groups] t' _ (more & Hm) Et. unfold try_pair in Et. destruct (used_in used a || used_in used b); [injection Et as <-; exists more; exact Hm|].
      apply bind_ok_inv in Et as (ca & _ & Et). apply bind_ok_inv in Et as (ci & _ & Et). apply bind_ok_inv in Et as (cb & _ & Et). apply bind_ok_inv in Et as ([o q] & _ & Et). cbn [fst] in Et.
      destruct o; injection Et as <-; [|exists more; exact Hm]. cbn [snd] in *. rewrite Hm. eexists (_ :: more). reflexivity. }
    destruct G as (more & ->). destruct Hs as [_ Gr Nd Wh]. rewrite rev_app_distr, map_app.
    assert (Ne : d <> P + d) by lia.
    assert (Sh : done = [d; P + d] \/ done = [P + d; d]).
    { pose proof (Al d ltac:(auto)) as I1. pose proof (Al (P + d) ltac:(auto)) as I2. clear Al Gr. destruct done as [|x [|y [|z done]]].
      - contradiction.
      - exfalso. destruct I1 as [I1|[]], I2 as [I2|[]]. clear - I1 I2 Ne. congruence.
      - cbn [In] in I1, I2. clear - I1 I2 Ne. destruct I1 as [I1|[I1|[]]], I2 as [I2|[I2|[]]]; first [exfalso; congruence | left; congruence | right; congruence].
      - exfalso. inversion Nd as [|? ? N1 N2]; subst. inversion N2 as [|? ? N3 N4]; subst. cbn [In] in N1, N3.
        destruct (Wh x ltac:(cbn; auto)), (Wh y ltac:(cbn; auto)), (Wh z ltac:(cbn; auto)); subst; tauto. }
    destruct Sh as [-> | -> ]; inversion Gr as [|? e1 ? ? K1 Gr1]; subst; inversion Gr1 as [|? e2 ? ? K2 Gr2]; subst; inversion Gr2; subst; cbn [rev app map]; eexists _, _, _; (split; [reflexivity|auto]).
Qed.
End Groups.

(** * The whole *)

Lemma tb_own g : kind d g -> group_for kA g.
Proof.
  intros (cA & cB & cC & QA & QB & QC & Hg). exists cA, cB, cC. unfold f_cap, corner_finder, row_finder, column_finder, finder_of. cbn [mk_v mk_m mk_ox mk_oy mk_r fst snd]. rewrite !Z.add_0_r. auto.
Qed.

Lemma tb_marks : In kA ks /\ In kD ks /\ kA <> kD.
Proof using Fs V2 Cb.
  pose proof tb_numbers as (M & Sz & V3 & Ed & B & C & T & _). split; [left; reflexivity|]. split; [right; right; right; left; reflexivity|]. intros E. injection E as E1 E2. clear - E2 B C M. lia.
Qed.

Definition add_bounds (l : location spec_float) (acc : list (located spec_float)) : out (list (located spec_float)) := let* b := grid_bounds (N := F64) l in Ok (acc ++ [MkLocated l b]).

Lemma tb_rest groups p l1 l2 p2 locs : reg_inv I0 p -> for_each groups add_located (p, [l1; l2]) = Ok (p2, locs) -> reg_inv I0 p2 /\ exists more, locs = l1 :: l2 :: more.
Proof.
  intros RI E. apply (for_list_inv (fun s : prepared * list (location spec_float) => reg_inv I0 (fst s) /\ exists more, snd s = l1 :: l2 :: more)) in E; [exact E|split; [exact RI|exists []; reflexivity]|].
  clear. intros g [p locs] t _ (RI & more & Em) Et. cbn [fst snd] in RI, Em. unfold add_located in Et. apply bind_ok_inv in Et as ([o q] & Ef & Et). pose proof (from_group_kept I0 p g o q RI Ef) as RI'.
  destruct o as [l|]; injection Et as <-; cbn [fst snd]; (split; [exact RI'|]); [exists (more ++ [l]); rewrite Em; reflexivity|exists more; exact Em].
Qed.

Lemma tb_bounds l1 l2 more grids : for_each (l1 :: l2 :: more) add_bounds [] = Ok grids ->
  exists b1 b2 rest, grid_bounds (N := F64) l1 = Ok b1 /\ grid_bounds (N := F64) l2 = Ok b2 /\ grids = MkLocated l1 b1 :: MkLocated l2 b2 :: rest.
Proof.
  intros E. cbn [for_each] in E. apply bind_ok_inv in E as (a1 & E1 & E). unfold add_bounds at 1 in E1. apply bind_ok_inv in E1 as (b1 & B1 & E1). injection E1 as <-.
  apply bind_ok_inv in E as (a2 & E2 & E). unfold add_bounds at 1 in E2. apply bind_ok_inv in E2 as (b2 & B2 & E2). injection E2 as <-. cbn [app] in E.
  exists b1, b2. assert (G : exists rest, grids = MkLocated l1 b1 :: MkLocated l2 b2 :: rest).
  { apply (for_list_inv (fun acc : list (located spec_float) => exists rest, acc = MkLocated l1 b1 :: MkLocated l2 b2 :: rest)) in E; [exact E|exists []; reflexivity|].
    clear. intros l acc t _ (rest & ->) Et. unfold add_bounds in Et. apply bind_ok_inv in Et as (b & _ & Et). injection Et as <-. eexists. cbn [app]. reflexivity. }
  destruct G as (rest & ->). exists rest. auto.
Qed.

Theorem detect_table : detect_grids (N := F64) p0 = Panic
  \/ exists la lg rest p', (detect_grids (N := F64) p0 = Ok (la :: lg :: rest, p') \/ detect_grids (N := F64) p0 = Ok (lg :: la :: rest, p')) /\ reg_inv I0 p'
       /\ found_at_mark kA la /\ loc_size (lg_loc lg) = 8 * v + 25.
Proof using Fr Fs Bl V2 Cb.
  destruct tb_marks as (IA & ID & NAD).
  destruct (detect_ends I0 p0 (reached_fresh I0 p0 Fr)) as [(grids & p' & E)|E]; [right|left; exact E].
  pose proof E as E0. unfold detect_grids in E.
  destruct (sheet_search I0 p0 Fr ks Fs) as (caps & p1 & fs & Es & RI & Pm & F2 & Od & Nc & Cl). rewrite Es in E. cbn [bind] in E.
  assert (InF : forall f, In f fs -> In f (all_finders ks)) by (intros f; apply Permutation_in; apply Permutation_sym; exact Pm).
  apply bind_ok_inv in E as (groups & Eg & E). destruct (clone_inv I0 p1 RI) as [C1 C2].
  assert (Cq : forall q, claimed (clone p1) q <-> claimed p1 q) by (intros q; unfold claimed; rewrite C2; reflexivity).
  destruct (mark_fourth _ _ _ kA (tb_legible kA IA)) as (SA & IiA & _). destruct (mark_fourth _ _ _ kD (tb_legible kD ID)) as (SD & IiD & _). fold (fourth kA) in SA, IiA. fold (fourth kD) in SD, IiD.
  apply (tb_groups fs caps F2 Pm Od p1) in Eg.
  - destruct Eg as (g & g' & rest & -> & Kg). apply bind_ok_inv in E as ([p2 locs] & E1 & E). change (for_each (g :: g' :: rest) add_located (p1, []) = Ok (p2, locs)) in E1. cbn [for_each] in E1.
    apply bind_ok_inv in E as (gs & Eb & E). injection E as <- <-. change (for_each locs add_bounds [] = Ok gs) in Eb.
    destruct Kg as [[K1 K2]|[K1 K2]].
    + destruct (sheet_group I0 ks Fs p1 kA g IA RI (Nc kA IA) (tb_own g K1)) as (q1 & c1 & Ef1 & R1 & Fa & Cl1). unfold add_located at 1 in E1. unfold out in *. rewrite Ef1 in E1. cbn [bind app] in E1.
      destruct (tb_great q1 g' R1) with (2 := K2) as (q2 & c2 & Ef2 & R2 & _).
      { intros Cc. destruct (Cl1 _ IiD Cc) as [Cc'|Sq]; [exact (Nc kD ID Cc')|]. apply NAD. apply (marks_apart I0 ks Fs kA kD (fourth kD) IA ID Sq SD). }
      unfold add_located at 1 in E1. unfold out in *. rewrite Ef2 in E1. cbn [bind app] in E1. apply tb_rest in E1 as (R3 & more & ->); [|exact R2].
      apply tb_bounds in Eb as (b1 & b2 & rest' & B1 & _ & ->). eexists _, _, rest', p2. split; [left; exact E0|]. split; [exact R3|]. split; [|reflexivity].
      destruct (bounds_all I0 ks Fs q1 R1 [kA] [MkLoc (symbol_size (mk_v kA)) c1]) with (acc := @nil (located spec_float)) as (gs' & Eg' & Fg').
      { constructor; [exists c1; auto|constructor]. }
      { intros k [<-|[]]. exact IA. }
      cbn [for_each bind app] in Eg'. rewrite B1 in Eg'. cbn [bind app] in Eg'. injection Eg' as <-. inversion Fg'. assumption.
    + destruct (tb_great p1 g RI (Nc kD ID) K1) as (q1 & c1 & Ef1 & R1 & _ & Cl1). unfold add_located at 1 in E1. unfold out in *. rewrite Ef1 in E1. cbn [bind app] in E1.
      destruct (sheet_group I0 ks Fs q1 kA g' IA R1) with (2 := tb_own g' K2) as (q2 & c2 & Ef2 & R2 & Fa & _).
      { intros Cc. destruct (Cl1 _ IiA Cc) as [Cc'|Sq]; [exact (Nc kA IA Cc')|]. apply NAD. symmetry. apply (marks_apart I0 ks Fs kD kA (fourth kA) ID IA Sq SA). }
      unfold add_located at 1 in E1. unfold out in *. rewrite Ef2 in E1. cbn [bind app] in E1. apply tb_rest in E1 as (R3 & more & ->); [|exact R2].
      apply tb_bounds in Eb as (b1 & b2 & rest' & _ & B2 & ->). eexists _, _, rest', p2. split; [right; exact E0|]. split; [exact R3|]. split; [|reflexivity].
      destruct (bounds_all I0 ks Fs q1 R1 [kA] [MkLoc (symbol_size (mk_v kA)) c2]) with (acc := @nil (located spec_float)) as (gs' & Eg' & Fg').
      { constructor; [exists c2; auto|constructor]. }
      { intros k [<-|[]]. exact IA. }
      cbn [for_each bind app] in Eg'. rewrite B2 in Eg'. cbn [bind app] in Eg'. injection Eg' as <-. inversion Fg'. assumption.
  - intros h Kh. destruct (sheet_group I0 ks Fs (clone p1) kA h IA C1) with (2 := tb_own h Kh) as (q & c & Ef & _); [rewrite Cq; exact (Nc kA IA)|]. eauto.
  - intros h Kh. destruct (tb_great (clone p1) h C1) with (2 := Kh) as (q & c & Ef & _); [rewrite Cq; exact (Nc kD ID)|]. eauto.
  - intros h Kh. apply (tb_stuck (clone p1) h C1); [|exact Kh]. rewrite Cq. apply (Cl (spot_at P P)). rewrite tb_list. apply in_map_iff. exists (P, P). split; [reflexivity|]. unfold offsets. cbn [In]. auto 20.
  - eauto using all_placed.
  - eauto using all_apart.
Qed.
End Table.

(** * Pictures *)

From Verif Require Import SpecPayload SpecThreshold FormatProofs EndToEnd EncodeProofs SymbolProofs PayloadProofs DrawProofs DotProofs RenderProofs SheetRender SheetScan SpecQR.

(** What is found of the table: symbol [s1], read as it is, and a grid of [8 * v + 25] modules. *)
Definition finds_first {Srt : Sorter spec_float} (p : prepared) (v : Z) (s1 : Z -> Z -> bool) (m ox oy : Z) : Prop :=
  exists la lg rest p', (detect_grids (T := spec_float) p = Ok (la :: lg :: rest, p') \/ detect_grids (T := spec_float) p = Ok (lg :: la :: rest, p'))
    /\ lg_bounds la = bounds_at (symbol_size v) m ox oy 0 /\ g_size (ref_grid p' (lg_loc la)) = symbol_size v /\ readable (ref_grid p' (lg_loc la)) s1
    /\ g_size (ref_grid p' (lg_loc lg)) = 8 * v + 25.

Lemma table_fresh {Srt : Sorter spec_float} p v s1 s2 s3 s4 m d ox oy : fresh (p_buf p) p -> let ks := table v s1 s2 s3 s4 m d ox oy in
  fair_sheet (p_w p) (p_h p) (pix (p_buf p)) ks -> blank_outside (p_w p) (p_h p) (pix (p_buf p)) ks -> 2 <= v -> close_by v m d ->
  detect_grids (T := spec_float) p = Panic \/ finds_first p v s1 m ox oy.
Proof.
  intros F ks Fs Bl V2 Cb. destruct (detect_table (p_buf p) p F v s1 s2 s3 s4 m d ox oy Fs Bl V2 Cb) as [E|(la & lg & rest & p' & E & RI & (c & -> & Af) & Sz)]; [left; exact E|right].
  eexists _, lg, rest, p'. split; [exact E|]. cbn [lg_bounds lg_loc mk_v mk_m mk_ox mk_oy mk_r]. split; [apply bounds_frame|]. split; [reflexivity|]. split; [|exact Sz].
  intros y x Hy Hx. destruct (cs_marks _ _ _ _ Fs (Mark v s1 m ox oy 0) ltac:(left; reflexivity)) as [[Hv V21] M Sz' Fp Sh].
  cbn [mk_v mk_sym mk_m mk_ox mk_oy mk_r] in *. apply (framed_bits (p_buf p) (cs_width _ _ _ _ Fs) (cs_height _ _ _ _ Fs) v s1 m ox oy 0 Sh Hv Fp M V21 Sz' p' c y x RI Af Hx Hy).
Qed.

Lemma table_unfound {Srt : Sorter spec_float} p v s1 s2 s3 s4 m d ox oy : 1 <= v -> detect_grids (T := spec_float) p = Panic \/ finds_first p v s1 m ox oy -> ~ finds_sheet p (table v s1 s2 s3 s4 m d ox oy).
Proof.
  intros Hv A (found & ls & p1 & E & Pm & _ & Fl). destruct A as [A|(la & lg & rest & p' & A & _ & _ & _ & Sz)]; [congruence|].
  assert (Hl : In lg ls /\ p1 = p') by (destruct A as [A|A]; rewrite A in E; injection E as <- <-; cbn; auto). destruct Hl as [Hl ->]. clear A E.
  assert (InK : forall k, In k found -> mk_v k = v) by (intros k Hk; apply (Permutation_in _ (Permutation_sym Pm)) in Hk; destruct Hk as [<-|[<-|[<-|[<-|[]]]]]; reflexivity).
  clear Pm. induction Fl as [|k l found ls (_ & S & _) Fl IH]; [destruct Hl|]. destruct Hl as [<-|Hl].
  - rewrite (InK k ltac:(left; reflexivity)) in S. unfold symbol_size in S. lia.
  - apply IH; [exact Hl|]. intros k' H. apply InK. right. exact H.
Qed.

Theorem table_bitmap {Srt : Sorter spec_float} w h fill v s1 s2 s3 s4 m d ox oy : let ks := table v s1 s2 s3 s4 m d ox oy in
  fair_sheet w h (ink fill) ks -> blank_outside w h (ink fill) ks -> 2 <= v -> close_by v m d ->
  exists p, prepare_from_bitmap w h fill = Ok p /\ (detect_grids (T := spec_float) p = Panic \/ finds_first p v s1 m ox oy) /\ ~ finds_sheet p ks.
Proof.
  intros ks C Bl V2 Cb. pose proof (cs_width _ _ _ _ C) as Hw. pose proof (cs_height _ _ _ _ C) as Hh.
  destruct (bitmap_ok w h fill ltac:(lia) ltac:(lia)) as (p & E & S1 & S2 & F & P); [unfold usize_max; nia|].
  exists p. split; [exact E|]. pose proof (prepared_pixels w h p fill F S1 S2 P) as Px.
  assert (A : detect_grids (T := spec_float) p = Panic \/ finds_first p v s1 m ox oy).
  { apply (table_fresh p v s1 s2 s3 s4 m d ox oy F); try assumption; rewrite S1, S2.
    - eapply fair_sheet_same; [|exact C]. exact Px.
    - intros q Hq D. apply (Bl q Hq). specialize (Px q Hq). tauto. }
  split; [exact A|]. apply table_unfound; [lia|exact A].
Qed.

Theorem table_greyscale {Srt : Sorter spec_float} w h fill v s1 s2 s3 s4 m d ox oy : let ks := table v s1 s2 s3 s4 m d ox oy in
  (forall x y, inside w h (x, y) -> 0 <= fill x y <= 255) ->
  fair_sheet w h (shade w fill) ks -> blank_outside w h (shade w fill) ks -> 2 <= v -> close_by v m d ->
  exists p, prepare_from_greyscale w h fill = Ok p /\ (detect_grids (T := spec_float) p = Panic \/ finds_first p v s1 m ox oy) /\ ~ finds_sheet p ks.
Proof.
  intros ks G C Bl V2 Cb. pose proof (cs_width _ _ _ _ C) as Hw. pose proof (cs_height _ _ _ _ C) as Hh.
  destruct (greyscale_exact w h fill ltac:(lia) ltac:(lia)) as (p & E & S1 & S2 & F & P); [unfold usize_max; nia|assumption|].
  exists p. split; [exact E|]. pose proof (prepared_pixels w h p (fun x y => is_dark w (fun z => fill (fst z) (snd z)) (x, y)) F S1 S2 P) as Px.
  assert (A : detect_grids (T := spec_float) p = Panic \/ finds_first p v s1 m ox oy).
  { apply (table_fresh p v s1 s2 s3 s4 m d ox oy F); try assumption; rewrite S1, S2.
    - eapply fair_sheet_same; [|exact C]. intros [x y]. exact (Px (x, y)).
    - intros [x y] Hq D. apply (Bl (x, y) Hq). specialize (Px (x, y) Hq). change (pix (p_buf p) (x, y)) with (pix (p_buf p) (x, y)) in D.
      intros Z. apply D. apply Px. exact Z. }
  split; [exact A|]. apply table_unfound; [lia|exact A].
Qed.

(** * Any four messages *)

Theorem table_messages {Srt : Sorter spec_float} w h d v m p ox oy e1 e2 e3 e4 k1 k2 k3 k4 t1 t2 t3 t4 : 1 <= w <= 32768 -> 1 <= h <= 32768 -> 1 <= d -> 2 * d + 2 <= m ->
  2 <= v <= 40 -> v <> 21 -> close_by v m p -> 0 <= ox -> 0 <= oy -> ox + p + symbol_size v * m <= w -> oy + p + symbol_size v * m <= h ->
  (7 * m - 1) * (7 * m - 1) * (Z.max (ox + p) (oy + p) + symbol_size v * m) < 2 ^ 31 ->
  0 <= k1 < 8 -> message_ok v t1 -> fits v e1 t1 ->
  let ks := table v (encode v e1 k1 t1) (encode v e2 k2 t2) (encode v e3 k3 t3) (encode v e4 k4 t4) m p ox oy in
  fair_sheet w h (ink (overlay (dots d) ks)) ks /\
  exists q, prepare_from_bitmap w h (overlay (dots d) ks) = Ok q /\ ~ finds_sheet q ks /\
    (detect_grids (T := spec_float) q = Panic \/
     exists la lg rest q', (detect_grids (T := spec_float) q = Ok (la :: lg :: rest, q') \/ detect_grids (T := spec_float) q = Ok (lg :: la :: rest, q'))
       /\ decodes_print (ref_grid q' (lg_loc la)) (Print (Mark v (encode v e1 k1 t1) m ox oy 0) e1 k1 t1) /\ g_size (ref_grid q' (lg_loc lg)) = 8 * v + 25).
Proof.
  intros Hw Hh Hd Hm Hv V21 Cb Ox Oy Rw Rh Pr K1 O1 F1. cbv zeta. set (ks := table v _ _ _ _ m p ox oy).
  assert (Al : forall k, In k ks -> clear_alone w h (dots d k) k).
  { intros k Hk. assert (K : mk_v k = v /\ mk_m k = m /\ mk_r k = 0%nat /\ 0 <= mk_ox k <= ox + p /\ 0 <= mk_oy k <= oy + p /\ function_patterns v (mk_sym k)).
    { destruct Cb as [Cb _]. assert (0 < p) by (unfold symbol_size in Cb; nia).
      destruct Hk as [<-|[<-|[<-|[<-|[]]]]]; cbn [mk_v mk_m mk_r mk_ox mk_oy mk_sym]; (split; [reflexivity|]; split; [reflexivity|]; split; [reflexivity|]; split; [lia|]; split; [lia|]); apply encode_patterns; lia. }
    destruct K as (E1 & E2 & E3 & E4 & E5 & E6). apply dotted_alone. rewrite E1, E2, E3. revert Rw Rh Pr. intros Rw Rh Pr.
    apply dotted_clear; try assumption; try lia.
    eapply Z.le_lt_trans; [|exact Pr]. apply Z.mul_le_mono_nonneg_l; [apply Z.mul_nonneg_nonneg; lia|].
    unfold furthest, step_at. cbn [fst snd]. replace ((symbol_size v - 7) * m) with (symbol_size v * m - 7 * m) by ring. clear - E4 E5 Hm Hd. generalize (symbol_size v * m). intros; lia. }
  assert (Sp : ForallOrdPairs spaced ks).
  { destruct Cb as [Cb _]. unfold ks, table, spaced, side. repeat first [progress cbn [mk_v mk_m mk_ox mk_oy]; lia | constructor]. }
  pose proof (overlay_fair w h (dots d) ks Al Sp Hw Hh) as Fs. split; [exact Fs|].
  destruct (table_bitmap w h (overlay (dots d) ks) _ _ _ _ _ m p ox oy Fs) as (q & E & A & N); [|lia|exact Cb|].
  - intros q _ D. apply (drawn_dark w h (dots d) ks Al Sp) in D as (k & Hk & D). exists k. split; [exact Hk|]. apply (pic_square w h (dots d) ks Al Sp k q Hk D).
  - exists q. split; [exact E|]. split; [exact N|]. destruct A as [A|(la & lg & rest & q' & A & _ & S & R & Sz)]; [left; exact A|right].
    exists la, lg, rest, q'. split; [exact A|]. split; [|exact Sz].
    assert (V1 : 1 <= v <= 40) by (clear - Hv; lia). pose proof (symbol_writes _ _ _ _ _ V1 K1 O1 F1 ltac:(apply encode_is_symbol; assumption) _ S R) as H. unfold decodes_print. cbv zeta. cbn [pr_text pr_mark pr_level pr_mask mk_v]. split; [exact H|].
    destruct (writes_message_vec _ _ _ H) as [H1 H2]. split; [exact H1|]. rewrite H2. split; intros Hu.
    + apply utf8_valid_iff in Hu. rewrite Hu. reflexivity.
    + rewrite <- utf8_valid_iff in Hu. destruct (utf8_valid _); [congruence|reflexivity].
Qed.

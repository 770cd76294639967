(** The alignment pattern nearest the fourth corner. *)
From Coq Require Import Reals Lra SpecFloat.
From Flocq Require Import Core.
From Verif Require Import Base Lib ModelImage ModelGeometry ModelDetect ModelIdentify SpecQR SpecImage SpecIdentify SpecFinder SpecPicture
  FloodProofs RegionProofs CornerProofs SearchProofs ScanProofs HistoryProofs FloatProofs CenterProofs GeometryProofs SpiralProofs SampleProofs ApproxProofs FrameProofs FitnessProofs SquareProofs TurnProofs GroupProofs OrientProofs TimingProofs.
Open Scope Z_scope.
Set Bullet Behavior "Strict Subproofs".

(** * Where the sides of two patterns meet *)

Lemma ival_is e z : ibound e i32_max -> iexact e = z -> ival e = Ok z.
Proof. intros B <-. apply (ival_exact e i32_max); [lia|exact B]. Qed.

Lemma idiv_mul a b : b <> 0 -> i32_min <= a <= i32_max -> idiv (a * b) b = Ok a.
Proof. intros B A. unfold idiv. replace (b =? 0) with false by lia. rewrite Z.quot_mul by exact B. apply i32_ok. exact A. Qed.

(** A value that does not fit panics. *)
Lemma ival_over e z : match e with IZ _ => False | _ => True end -> iexact e = z -> i32_max < z -> ival e = Panic.
Proof.
  intros Hc <- Hz. destruct (ival e) as [r|[]| |] eqn:E; [|reflexivity|].
  - exfalso. rewrite <- (ival_inv e r E) in Hz. destruct e; [destruct Hc| | | |]; cbn [ival] in E;
      repeat match goal with H : bind ?m _ = Ok _ |- _ => destruct m; cbn [bind] in H; try discriminate end; apply i32_inv in E as [-> E]; lia.
  - exfalso. destruct (SearchProofs.total_ival e) as [[r Er]|Er]; unfold out in *; congruence.
Qed.

Lemma intersect_axes a b L x y x' y' W : axis a b -> 1 <= L -> 0 <= x < W -> 0 <= y < W -> 0 <= x' < W -> 0 <= y' < W ->
  0 <= x + L * a < W -> 0 <= y + L * b < W -> 0 <= x' - L * b < W -> 0 <= y' + L * a < W -> W <= 32768 ->
  let c := if b =? 0 then (x', y) else (x, y') in
  line_intersect (MkPoint x y) (MkPoint (x + L * a) (y + L * b)) (MkPoint x' y') (MkPoint (x' - L * b) (y' + L * a)) =
    if L * L * Z.max (fst c) (snd c) <? 2 ^ 31 then Ok (Some (MkPoint (fst c) (snd c))) else Panic.
Proof.
  intros Ax HL Hx Hy Hx' Hy' H1 H2 H3 H4 HW. unfold line_intersect. cbn [px py].
  assert (Lw : L < W) by (destruct (axis_cases a b Ax) as [[-> ->]|[[-> ->]|[[-> ->]|[-> ->]]]]; lia).
  assert (P1 : forall z, 0 <= z < W -> 0 <= L * z <= 1073741824) by (intros z Hz; nia).
  pose proof (P1 x Hx). pose proof (P1 y Hy). pose proof (P1 x' Hx'). pose proof (P1 y' Hy').
  assert (L2 : 1 <= L * L <= 1073741824) by nia.
  pose proof (P1 _ H1). pose proof (P1 _ H2). pose proof (P1 _ H3). pose proof (P1 _ H4). clear P1.
  assert (Q : forall z k, 0 <= z < W -> k = z * (L * L) -> idiv k (L * L) = Ok z) by (intros z k Hz ->; apply idiv_mul; unfold i32_min, i32_max; lia).
  assert (Cmp : forall s t, 0 <= s < W -> 0 <= t < W -> (L * L * Z.max s t <? 2 ^ 31) = (L * L * s <? 2 ^ 31) && (L * L * t <? 2 ^ 31)).
  { intros s t Hs Ht. destruct (Z.max_spec s t) as [[Hm ->]|[Hm ->]].
    - assert (L * L * s <= L * L * t) by (apply Z.mul_le_mono_nonneg_l; lia). lia.
    - assert (L * L * t <= L * L * s) by (apply Z.mul_le_mono_nonneg_l; lia). lia. }
  assert (Sq : forall z, 0 <= z < W -> 0 <= L * L * z) by (intros z Hz; nia).
  pose proof (Sq x Hx). pose proof (Sq y Hy). pose proof (Sq x' Hx'). pose proof (Sq y' Hy'). clear Sq.
  Local Ltac go z := rewrite (ival_is _ z); [cbn [bind]|cbn [ibound iexact]; unfold i32_max; repeat split; lia|cbn [iexact]; ring].
  Local Ltac over z := rewrite (ival_over _ z); [reflexivity|exact I|cbn [iexact]; ring|unfold i32_max; lia].
  destruct (axis_cases a b Ax) as [[-> ->]|[[-> ->]|[[-> ->]|[-> ->]]]]; cbn [Z.eqb fst snd].
  - rewrite Cmp by assumption. go 0. go L. go (- L). go 0. go (L * y). go (- (L * x')). go (L * L). replace (L * L =? 0) with false by lia.
    destruct (Z.ltb_spec (L * L * x') (2 ^ 31)) as [G1|G1]; cbn [andb].
    + go (L * L * x'). rewrite (Q x') by lia. cbn [bind]. destruct (Z.ltb_spec (L * L * y) (2 ^ 31)) as [G2|G2].
      * go (L * L * y). rewrite (Q y) by lia. reflexivity.
      * over (L * L * y).
    + over (L * L * x').
  - rewrite Cmp by assumption. go (- L). go 0. go 0. go (- L). go (- (L * x)). go (- (L * y')). go (L * L). replace (L * L =? 0) with false by lia.
    destruct (Z.ltb_spec (L * L * x) (2 ^ 31)) as [G1|G1]; cbn [andb].
    + go (L * L * x). rewrite (Q x) by lia. cbn [bind]. destruct (Z.ltb_spec (L * L * y') (2 ^ 31)) as [G2|G2].
      * go (L * L * y'). rewrite (Q y') by lia. reflexivity.
      * over (L * L * y').
    + over (L * L * x).
  - rewrite Cmp by assumption. go 0. go (- L). go L. go 0. go (- (L * y)). go (L * x'). go (L * L). replace (L * L =? 0) with false by lia.
    destruct (Z.ltb_spec (L * L * x') (2 ^ 31)) as [G1|G1]; cbn [andb].
    + go (L * L * x'). rewrite (Q x') by lia. cbn [bind]. destruct (Z.ltb_spec (L * L * y) (2 ^ 31)) as [G2|G2].
      * go (L * L * y). rewrite (Q y) by lia. reflexivity.
      * over (L * L * y).
    + over (L * L * x').
  - rewrite Cmp by assumption. go L. go 0. go 0. go L. go (L * x). go (L * y'). go (L * L). replace (L * L =? 0) with false by lia.
    destruct (Z.ltb_spec (L * L * x) (2 ^ 31)) as [G1|G1]; cbn [andb].
    + go (L * L * x). rewrite (Q x) by lia. cbn [bind]. destruct (Z.ltb_spec (L * L * y') (2 ^ 31)) as [G2|G2].
      * go (L * L * y'). rewrite (Q y') by lia. reflexivity.
      * over (L * L * y').
    + over (L * L * x).
Qed.

(** * One dark module surrounded by light ones *)

Lemma lone_box w h col x y k p q : 1 <= k -> (forall q, box x y k q -> inside w h q /\ col q <> 0) ->
  (forall a b, box x y k a -> adjacent a b -> inside w h b -> ~ box x y k b -> col b = 0) ->
  box x y k p -> (blob w h col p q <-> box x y k q).
Proof.
  intros K Din Out Bp.
  assert (G : forall q, box x y k q -> linked (fun r => inside w h r /\ col r <> 0) (x, y) q).
  { intros [a b] B. apply linked_ext with (S := box x y k); [exact Din|]. unfold box in B. cbn [fst snd] in B.
    apply linked_trans with (q := (a, y)).
    - apply walk_row; [lia|]. intros z Hz. unfold box. cbn [fst snd]. lia.
    - apply walk_col; [lia|]. intros z Hz. unfold box. cbn [fst snd]. lia. }
  split; intros H.
  - revert H. apply linked_closed; [exact Bp|]. intros a b Ra _ [Ib Db] A.
    destruct (box_dec x y k b) as [B|B]; [exact B|]. exfalso. apply Db. exact (Out a b Ra A Ib B).
  - unfold blob. apply linked_trans with (q := (x, y)); [apply linked_sym|]; apply G; assumption.
Qed.

Lemma last_align v : 2 <= v <= 40 -> align_centre v (symbol_size v - 7) (symbol_size v - 7).
Proof.
  intros Hv. unfold align_centre. cbv zeta.
  assert (I : In (symbol_size v - 7) (alignment_positions v)).
  { destruct (positions_shape v ltac:(lia)) as [E|(mid & E & _)]; rewrite E.
    - exfalso. revert E. set (ok := fun v => match alignment_positions v with [] => false | _ => true end).
      assert (A : forallb ok (map (fun k => Z.of_nat k + 2) (seq 0 39)) = true) by (vm_compute; reflexivity).
      rewrite forallb_forall in A. specialize (A v). unfold ok in A. intros E. rewrite E in A. discriminate A.
      apply in_map_iff. exists (Z.to_nat (v - 2)). split; [lia|]. apply in_seq. lia.
    - right. apply in_or_app. right. left. reflexivity. }
  unfold symbol_size in *. split; [exact I|]. split; [exact I|]. lia.
Qed.

Section Locate.
Context (I0 : image) (p : prepared) (RI : reg_inv I0 p) (Hw : 1 <= im_w I0 <= 32768) (Hh : 1 <= im_h I0 <= 32768).
Context (v : Z) (sym : Z -> Z -> bool) (m ox oy : Z) (r : nat).
Notation n := (symbol_size v).
Notation E := (symbol_size v * m - 1).
Notation at_ := (place r E ox oy).
Notation L := (7 * m - 1).
Context (Sh : legible (im_w I0) (im_h I0) (pix I0) v sym m ox oy r) (Hv : 1 <= v <= 40) (Fp : function_patterns v sym) (M : 2 <= m).
Notation D := ((symbol_size v - 7) * m).
Notation standing := (standing m r).

Lemma room : 14 * m <= D /\ D + 7 * m = n * m /\ n * m <= 32768 /\ D <= 170 * m.
Proof using RI Hw Hh Sh Hv Fp M.
  destruct (unit_room I0 p RI Hw Hh v sym m ox oy r Sh Hv Fp M) as (A & B & C). unfold symbol_size in *. nia.
Qed.

(** The upper left pixel in the picture of the module in column [c] and row [d]. *)
Definition mod_px (c d : Z) : pixel :=
  match r with
  | O => at_ (c * m) (d * m)
  | 1%nat => at_ (c * m) (d * m + m - 1)
  | 2%nat => at_ (c * m + m - 1) (d * m + m - 1)
  | _ => at_ (c * m + m - 1) (d * m)
  end.

Lemma mod_box c d s t : box (fst (mod_px c d)) (snd (mod_px c d)) m (at_ s t) <-> c * m <= s < c * m + m /\ d * m <= t < d * m + m.
Proof using RI Hw Hh Sh Hv Fp M.
  unfold box, mod_px, place. generalize (c * m) (d * m) (n * m). intros cm dm nm.
  destruct r as [|[|[|r']]]; cbn [dir_a dir_b org_x org_y fst snd]; lia.
Qed.

Lemma place_adjacent s t s' t' : adjacent (at_ s t) (at_ s' t') -> Z.abs (s - s') + Z.abs (t - t') = 1.
Proof using RI Hw Hh Sh Hv Fp M. unfold adjacent, place. generalize (n * m). intros nm. destruct r as [|[|[|r']]]; cbn [dir_a dir_b org_x org_y fst snd]; lia. Qed.

Lemma cell_div c s : c * m <= s < c * m + m -> s / m = c.
Proof using RI Hw Hh Sh Hv Fp M. intros H. symmetry. apply Z.div_unique with (r := s - c * m); lia. Qed.

Lemma near_div c s s' : c * m <= s < c * m + m -> Z.abs (s - s') <= 1 -> Z.abs (s' / m - c) <= 1 /\ (s' / m = c -> c * m <= s' < c * m + m).
Proof using RI Hw Hh Sh Hv Fp M.
  intros H A. pose proof (ge_div m (c - 1) s' ltac:(lia)). pose proof (lt_div m (c + 2) s' ltac:(lia)).
  pose proof (ge_div m c s' ltac:(lia)). pose proof (lt_div m (c + 1) s' ltac:(lia)). lia.
Qed.

(** The centre module of the alignment pattern is a region of its own. *)
Lemma align_blob q : 2 <= v -> (iblob I0 (at_ D D) q <-> box (fst (mod_px (n - 7) (n - 7))) (snd (mod_px (n - 7) (n - 7))) m q).
Proof using RI Hw Hh Sh Hv Fp M.
  intros V2. pose proof room as (R1 & R2 & R3 & R4). pose proof (fp_align _ _ Fp (n - 7) (n - 7)) as Al.
  assert (Al' : forall y x, ring_no (y - (n - 7)) (x - (n - 7)) <= 2 -> sym y x = align_dark (y - (n - 7)) (x - (n - 7))).
  { intros y x H. rewrite <- (Al (y - (n - 7)) (x - (n - 7)) (last_align v (conj V2 (proj2 Hv))) H). f_equal; ring. }
  clear Al.
  apply lone_box; [lia| | |].
  - intros a Ba. rewrite <- (place_parts r E ox oy a) in Ba |- *. apply mod_box in Ba. revert Ba.
    generalize (row_part r E ox oy a) (col_part r E ox oy a). intros s t [Bs Bt].
    destruct (dark_at I0 p RI Hw Hh v sym m ox oy r Sh Hv Fp M s t ltac:(lia) ltac:(lia)) as [In Dk]. split; [exact In|].
    apply Dk; [left; right; right; right; exists (n - 7), (n - 7); split; [apply last_align; lia|rewrite (cell_div _ _ Bs), (cell_div _ _ Bt), !Z.sub_diag; discriminate]|].
    rewrite (cell_div _ _ Bs), (cell_div _ _ Bt). rewrite Al' by (rewrite !Z.sub_diag; discriminate). rewrite !Z.sub_diag. reflexivity.
  - intros a b Ba Ad Ib Nb. rewrite <- (place_parts r E ox oy a) in Ba, Ad. rewrite <- (place_parts r E ox oy b) in Nb, Ad |- *.
    revert Ba Ad Nb. generalize (row_part r E ox oy a) (col_part r E ox oy a) (row_part r E ox oy b) (col_part r E ox oy b). clear a b Ib.
    intros s t s' t' Ba Ad Nb. apply mod_box in Ba as [Bs Bt]. apply place_adjacent in Ad. rewrite mod_box in Nb.
    destruct (dark_at I0 p RI Hw Hh v sym m ox oy r Sh Hv Fp M s' t' ltac:(lia) ltac:(lia)) as [_ Dk].
    destruct (near_div _ _ s' Bs ltac:(lia)) as [As Es]. destruct (near_div _ _ t' Bt ltac:(lia)) as [At Et].
    destruct (Z.eq_dec (pix I0 (at_ s' t')) 0) as [Q|Q]; [exact Q|]. exfalso.
    apply Dk in Q; [|left; right; right; right; exists (n - 7), (n - 7); split; [apply last_align; lia|unfold ring_no; lia]].
    assert (Ne : ~ (s' / m = n - 7 /\ t' / m = n - 7)) by (intros [U1 U2]; apply Nb; split; [apply Es|apply Et]; assumption).
    assert (Rn : ring_no (t' / m - (n - 7)) (s' / m - (n - 7)) = 1) by (unfold ring_no; revert As At Ne; generalize (t' / m) (s' / m); clear; intros; lia).
    rewrite (Al' (t' / m) (s' / m)) in Q by (rewrite Rn; lia). unfold align_dark in Q. rewrite Rn in Q. discriminate Q.
  - apply mod_box. clear - M. lia.
Qed.

(** * Coordinates in the frame of a finder pattern *)

Lemma frame_parts s t s0 t0 : let q := at_ s t in let o := at_ s0 t0 in
  dir_a r * (fst q - fst o) + dir_b r * (snd q - snd o) = s - s0 /\ dir_a r * (snd q - snd o) - dir_b r * (fst q - fst o) = t - t0.
Proof using RI Hw Hh Sh Hv Fp M.
  cbv zeta. unfold place. generalize (n * m). intros nm. destruct r as [|[|[|r']]]; cbn [dir_a dir_b org_x org_y fst snd]; lia.
Qed.

Definition on_paper (q : pixel) : Prop := 0 <= fst q <= 32767 /\ 0 <= snd q <= 32767.

Lemma standing_unmap c s0 t0 s t : standing c (at_ s0 t0) -> on_paper (at_ s0 t0) -> 0 <= s < n * m -> 0 <= t < n * m ->
  near (fst (persp_unmap (N := F64) (cap_c c) (pt (at_ s t)))) (IZR (s - s0) / (IZR L / 7)) (1 / 110000000) /\
  near (snd (persp_unmap (N := F64) (cap_c c) (pt (at_ s t)))) (IZR (t - t0) / (IZR L / 7)) (1 / 110000000).
Proof using RI Hw Hh Sh Hv Fp M.
  intros [_ Af] [B1 B2] H3 H4.
  pose proof (at_range I0 p RI Hw Hh v sym m ox oy r Sh Hv Fp M s t H3 H4) as [B3 B4].
  pose proof (posed_bounds L (L_range I0 p RI Hw Hh v sym m ox oy r Sh Hv Fp M)) as HK.
  destruct (unmap_affine (cap_c c) (IZR L / 7) (dir_a r) (dir_b r) _ _ (pt (at_ s t)) Af (axis_dir r) HK B1 B2 B3 B4) as [U V].
  destruct (frame_parts s t s0 t0) as [F1 F2]. unfold pt in *. cbn [px py] in U, V.
  rewrite <- !mult_IZR, <- plus_IZR, F1 in U. rewrite <- !mult_IZR, <- minus_IZR, F2 in V. split; assumption.
Qed.

Lemma unit_near f x : near f x (1 / 110000000) -> (Rabs x <= 190)%R -> near (n_add (Num := F64) f (n_of 1)) (x + 1) (1 / 100000000).
Proof using RI Hw Hh Sh Hv Fp M.
  intros N B. apply near_add with (ex := (1 / 110000000)%R) (ey := 0%R) (B := 200%R); [exact N|apply (near_of 1); lia| |lra|lra].
  eapply Rle_trans; [apply Rplus_le_compat_r, Rplus_le_compat_r, Rabs_triang|]. rewrite (Rabs_pos_eq 1) by lra. lra.
Qed.

Lemma ratio_small : (0 <= IZR (176 * m) / (IZR L / 7) <= 190)%R.
Proof using RI Hw Hh Sh Hv Fp M.
  assert (A : (0 <= IZR (176 * m))%R) by (apply IZR_le; lia).
  assert (B : (IZR (176 * m) = 176 * IZR m)%R) by (rewrite <- mult_IZR; reflexivity).
  assert (Cl : (2 <= IZR m)%R) by (apply IZR_le; lia). assert (El : (IZR L = 7 * IZR m - 1)%R) by (rewrite minus_IZR, mult_IZR; reflexivity).
  assert (K : (0 < IZR L / 7)%R) by (rewrite El; lra). split; [apply Rmult_le_pos; [lra|apply Rlt_le, Rinv_0_lt_compat; lra]|].
  apply Rmult_le_reg_r with (r := (IZR L / 7)%R); [exact K|]. unfold Rdiv at 1. rewrite Rmult_assoc, Rinv_l, Rmult_1_r by lra. rewrite El. lra.
Qed.

(** One module further along a column or a row of the symbol, in the frame of a pattern anywhere in the picture. *)
Lemma step_map c s0 t0 s t : standing c (at_ s0 t0) -> on_paper (at_ s0 t0) -> 0 <= s < n * m -> 0 <= t < n * m ->
  Z.abs (s - s0) <= 176 * m -> Z.abs (t - t0) <= 176 * m -> let u := persp_unmap (N := F64) (cap_c c) (pt (at_ s t)) in
  persp_map (N := F64) (cap_c c) (fst u) (n_add (snd u) (n_of 1)) = Ok (pt (at_ s (t + m))) /\
  persp_map (N := F64) (cap_c c) (n_add (fst u) (n_of 1)) (snd u) = Ok (pt (at_ (s + m) t)).
Proof using RI Hw Hh Sh Hv Fp M.
  intros St Op H3 H4 B1 B2 u. destruct (standing_unmap c s0 t0 s t St Op H3 H4) as [U V].
  pose proof St as [_ Af]. destruct Op as [Q1 Q2].
  pose proof (posed_bounds L (L_range I0 p RI Hw Hh v sym m ox oy r Sh Hv Fp M)) as HK. pose proof ratio_small as Rs.
  assert (El : (IZR L / 7 = IZR m - 1 / 7)%R) by (rewrite minus_IZR, mult_IZR; field).
  assert (Bd : forall d, Z.abs d <= 176 * m -> (Rabs (IZR d / (IZR L / 7)) <= 190)%R).
  { intros d Hd. unfold Rdiv at 1. rewrite Rabs_mult, <- abs_IZR, (Rabs_pos_eq (/ (IZR L / 7))) by (apply Rlt_le, Rinv_0_lt_compat; lra).
    apply IZR_le in Hd. eapply Rle_trans; [apply Rmult_le_compat_r; [apply Rlt_le, Rinv_0_lt_compat; lra|exact Hd]|]. apply Rs. }
  pose proof (Bd _ B1) as C1. pose proof (Bd _ B2) as C2.
  assert (Cp : forall x, (Rabs x <= 190 -> Rabs (x + 1) <= 200)%R) by (intros x Hx; apply Rabs_le_inv in Hx; apply Rabs_le'; lra).
  assert (Cq : forall x, (Rabs x <= 190 -> Rabs x <= 200)%R) by (intros x Hx; lra).
  assert (W : forall f x, near f x (1 / 110000000) -> near f x (1 / 100000000)) by (intros f x N; eapply near_weaken; [exact N|lra]).
  assert (La : forall z z0 z1, (Rabs (IZR z1 - (IZR z0 + IZR L / 7 * (IZR (z - z0) / (IZR L / 7)))) <= / 2 + 1 / 200)%R -> z1 = z).
  { intros z z0 z1. revert HK. generalize (IZR L / 7)%R. intros K HK A. replace (IZR z1 - _)%R with (IZR (z1 - z)) in A by (rewrite !minus_IZR; field; lra).
    apply Rabs_le_inv in A as [A1 A2]. assert (IZR (z1 - z) < 1)%R by lra. assert (-1 < IZR (z1 - z))%R by lra. apply lt_IZR in H, H0. lia. }
  assert (Lb : forall z z0 z1, (Rabs (IZR z1 - (IZR z0 + IZR L / 7 * (IZR (z - z0) / (IZR L / 7) + 1))) <= / 2 + 1 / 200)%R -> z1 = z + m).
  { intros z z0 z1. revert HK El. generalize (IZR L / 7)%R. intros K HK El A. replace (IZR z1 - _)%R with (IZR (z1 - z - m) + 1 / 7)%R in A.
    2: { rewrite !minus_IZR. replace (IZR m) with (K + 1 / 7)%R by lra. field. lra. }
    apply Rabs_le_inv in A as [A1 A2]. assert (IZR (z1 - z - m) < 1)%R by lra. assert (-1 < IZR (z1 - z - m))%R by lra. apply lt_IZR in H, H0. lia. }
  split.
  - destruct (map_place r E ox oy (cap_c c) (IZR L / 7) s0 t0 _ _ _ _ Af HK ltac:(lia) ltac:(lia) (W _ _ U) (unit_near _ _ V C2) (Cq _ C1) (Cp _ C2)) as (s1 & t1 & Em & D1 & D2).
    apply La in D1. apply Lb in D2. rewrite <- D1, <- D2. exact Em.
  - destruct (map_place r E ox oy (cap_c c) (IZR L / 7) s0 t0 _ _ _ _ Af HK ltac:(lia) ltac:(lia) (unit_near _ _ U C1) (W _ _ V) (Cp _ C1) (Cq _ C2)) as (s1 & t1 & Em & D1 & D2).
    apply Lb in D1. apply La in D2. rewrite <- D1, <- D2. exact Em.
Qed.

(** The search starts and ends at the corner of the centre module of the alignment pattern. *)
Lemma find_alignment A' B' sa tB : standing B' (at_ D tB) -> standing A' (at_ sa D) -> on_paper (at_ D tB) -> on_paper (at_ sa D) ->
  Z.abs (D - tB) <= 176 * m -> Z.abs (D - sa) <= 176 * m -> 2 <= v -> ~ claimed p (at_ D D) ->
  exists p', find_alignment_pattern p (pt (at_ D D)) A' B' = Ok (Some (pt (at_ D D)), p') /\ reg_inv I0 p' /\ same_claims I0 p p'.
Proof using RI Hw Hh Sh Hv Fp M.
  intros SB SA OB OA NB NA V2 Nc. pose proof room as (R1 & R2 & R3 & R4). unfold find_alignment_pattern.
  destruct (step_map A' sa D D D SA OA ltac:(lia) ltac:(lia) ltac:(lia) ltac:(lia)) as [EA _].
  destruct (step_map B' D tB D D SB OB ltac:(lia) ltac:(lia) ltac:(lia) ltac:(lia)) as [_ EB].
  destruct (persp_unmap (cap_c A') (pt (at_ D D))) as [ua va]. destruct (persp_unmap (cap_c B') (pt (at_ D D))) as [ub vb].
  cbn [fst snd] in EA, EB. rewrite EA. cbn [bind]. rewrite EB. cbn [bind]. clear EA EB ua va ub vb.
  destruct (at_range I0 p RI Hw Hh v sym m ox oy r Sh Hv Fp M D D ltac:(lia) ltac:(lia)) as [X1 X2].
  assert (M2 : 4 <= m * m <= 32768 * 32768) by nia.
  rewrite (ival_is _ (m * m)).
  - cbn [bind]. rewrite Z.abs_eq by lia. replace (Z.to_nat (2 * Z.sqrt (m * m * 100) + 4)) with (S (Z.to_nat (2 * Z.sqrt (m * m * 100) + 3))) by (pose proof (Z.sqrt_nonneg (m * m * 100)); lia).
    cbn [align_spiral]. replace (1 * 1 <? m * m * 100) with true by lia. change (range 0 (Z.to_nat 1)) with [0%nat]. cbn [for_each].
    destruct (dark_at I0 p RI Hw Hh v sym m ox oy r Sh Hv Fp M D D ltac:(lia) ltac:(lia)) as [In Dk].
    assert (Dark : pix I0 (at_ D D) <> 0).
    { apply (blob_in I0 (at_ D D) (at_ D D)). apply align_blob; [exact V2|]. apply mod_box. lia. }
    assert (Cd : candidate I0 p (m * m) (at_ D D)).
    { split; [exact In|]. split; [exact Dark|]. split; [exact Nc|]. exists (m * m). split.
      - apply (area_ext (box (fst (mod_px (n - 7) (n - 7))) (snd (mod_px (n - 7) (n - 7))) m)); [|apply box_area; lia].
        intros q. symmetry. apply align_blob. exact V2.
      - split; [apply Z.div_le_upper_bound; lia|lia]. }
    change 0%nat with (Nat.modulo 0 4).
    destruct (pass_ok I0 p (m * m) 0 (at_ D D) RI ltac:(lia) ltac:(lia) ltac:(unfold near_pt; lia)) as [(_ & _ & p' & Ep & R' & Sc)|[(Ob & _)|(Nn & _)]].
    + rewrite Ep. cbn [bind]. exists p'. auto.
    + exfalso. destruct Ob as [_ Ob]. contradiction.
    + contradiction.
  - cbn [ibound iexact]. unfold pt. cbn [px py]. unfold i32_max. revert X1 X2 M2. unfold place. cbn [fst snd]. generalize (n * m) D. intros nm d.
    destruct r as [|[|[|r']]]; cbn [dir_a dir_b org_x org_y fst snd]; intros; repeat split; try lia; nia.
  - cbn [iexact]. unfold pt. cbn [px py]. unfold place. cbn [fst snd].
    destruct r as [|[|[|r']]]; cbn [dir_a dir_b org_x org_y fst snd]; ring.
Qed.

(** * The corner of the alignment pattern *)

Definition lean (hd : point) (q : pixel) : Z := - py hd * fst q + px hd * snd q.

Lemma lean_ok hd x y : in_reach (px hd) -> in_reach (py hd) -> 0 <= x <= 32767 -> 0 <= y <= 32767 ->
  ival (- py hd * x + px hd * y)%iexp = Ok (lean hd (x, y)).
Proof using RI Hw Hh Sh Hv Fp M.
  unfold in_reach, lean. intros H1 H2 H3 H4. cbn [fst snd].
  pose proof (mul_range (- py hd) x 32767 ltac:(lia) ltac:(lia) ltac:(lia)) as M1.
  pose proof (mul_range (px hd) y 32767 ltac:(lia) ltac:(lia) ltac:(lia)) as M2.
  apply ival_is; [|reflexivity]. cbn [ibound iexact]. unfold i32_max. repeat split; lia.
Qed.

Lemma lean_grows hd s t s' t' : 0 < dir_b r * px hd - dir_a r * py hd -> 0 < dir_a r * px hd + dir_b r * py hd ->
  s <= s' -> t <= t' -> lean hd (at_ s t) <= lean hd (at_ s' t').
Proof using RI Hw Hh Sh Hv Fp M.
  intros H1 H2 Hs Ht. unfold lean, place. cbn [fst snd].
  assert (G : forall z z', - py hd * (org_x r E ox + z * dir_a r - z' * dir_b r) + px hd * (org_y r E oy + z * dir_b r + z' * dir_a r) =
    - py hd * org_x r E ox + px hd * org_y r E oy + z * (dir_b r * px hd - dir_a r * py hd) + z' * (dir_a r * px hd + dir_b r * py hd)) by (intros; ring).
  rewrite !G. revert H1 H2. generalize (dir_b r * px hd - dir_a r * py hd) (dir_a r * px hd + dir_b r * py hd). intros g g' H1 H2.
  assert (s * g <= s' * g) by (apply Z.mul_le_mono_nonneg_r; lia). assert (t * g' <= t' * g') by (apply Z.mul_le_mono_nonneg_r; lia). lia.
Qed.

Lemma as_i32_id z : 0 <= z <= 32767 -> as_i32 z = z.
Proof using RI Hw Hh Sh Hv Fp M. intros H. apply as_i32_small. unfold max_dim. lia. Qed.

Lemma locate_far A' B' g1 hd sa tB : standing B' (at_ D tB) -> standing A' (at_ sa D) -> on_paper (at_ D tB) -> on_paper (at_ sa D) ->
  Z.abs (D - tB) <= 176 * m -> Z.abs (D - sa) <= 176 * m -> 2 <= v -> ~ claimed p (at_ D D) ->
  in_reach (px hd) -> in_reach (py hd) -> 0 < dir_b r * px hd - dir_a r * py hd -> 0 < dir_a r * px hd + dir_b r * py hd ->
  exists p', locate_alignment p (MkGroup A' g1 B') hd (pt (at_ D D)) = Ok (Some (pt (at_ D D)), p') /\ reg_inv I0 p'
    /\ forall a, in_image I0 a -> claimed p' a -> claimed p a \/ in_square n m ox oy a.
Proof using RI Hw Hh Sh Hv Fp M.
  intros SB SA OB OA NB NA V2 Nc H1 H2 H3 H4. pose proof room as (R1 & R2 & R3 & R4). unfold locate_alignment. cbn [gr0 gr2].
  destruct (find_alignment A' B' sa tB SB SA OB OA NB NA V2 Nc) as (p1 & E1 & RI1 & Sc). rewrite E1. cbn [bind].
  destruct (at_range I0 p RI Hw Hh v sym m ox oy r Sh Hv Fp M D D ltac:(lia) ltac:(lia)) as [X1 X2].
  destruct (dark_at I0 p RI Hw Hh v sym m ox oy r Sh Hv Fp M D D ltac:(lia) ltac:(lia)) as [Ii _].
  assert (Sd : box (fst (mod_px (n - 7) (n - 7))) (snd (mod_px (n - 7) (n - 7))) m (at_ D D)) by (apply mod_box; lia).
  assert (Dark : pix I0 (at_ D D) <> 0) by (apply (blob_in I0 (at_ D D) (at_ D D)); apply align_blob; [exact V2|exact Sd]).
  set (q := at_ D D) in *. unfold pt. cbn [px py]. rewrite lean_ok by assumption. cbn [bind].
  assert (Ux : as_usize (fst q) = fst q) by (unfold as_usize; apply Z.mod_small; lia).
  assert (Uy : as_usize (snd q) = snd q) by (unfold as_usize; apply Z.mod_small; lia). rewrite Ux, Uy.
  assert (Eq : q = (fst q, snd q)) by (destruct q; reflexivity).
  assert (P1 : pix (p_buf p1) q <> 0) by (intros Z0; apply Dark; apply (bi_white _ _ (ri_base _ _ RI1) q Ii); exact Z0).
  assert (P2 : ~ claimed p1 q) by (intros C; apply Nc; apply (Sc q Ii); exact C).
  assert (Cb : exists tb, color_byte CAlignment = Ok tb /\ 2 <= tb <= 4) by (eexists; split; [reflexivity|lia]). destruct Cb as (tb & Eb & Hb).
  rewrite Eq in Ii, P1, P2. unfold claimed in P2.
  destruct (repaint_inv I0 p1 (fst q) (snd q) CAlignment tb RI1 Ii Eb ltac:(lia) P1 ltac:(lia)) as (p2 & rows & RI2 & Pd & _ & Cells & Ord & Rp).
  rewrite <- Eq in Cells. rewrite Rp. clear Rp.
  assert (Cl : forall a, in_image I0 a -> claimed p2 a -> claimed p a \/ in_square n m ox oy a).
  { intros a Ia Ca. destruct (Pd a Ia) as [Pd1 Pd2].
    assert (Dec : iblob I0 q a \/ ~ iblob I0 q a).
    { destruct (in_dec pixel_eq_dec a (rows_cells rows)) as [Hc|Hc]; [left; apply Cells; exact Hc|right; intros B; apply Hc; apply Cells; exact B]. }
    destruct Dec as [B|B].
    - right. apply align_blob in B; [|exact V2]. rewrite <- (place_parts r E ox oy a) in B |- *. apply mod_box in B.
      apply (place_square (im_w I0) (im_h I0) (pix I0) v sym m ox oy r Sh); clear - B R1 R2 M; lia.
    - left. apply (Sc a Ia). unfold claimed in *. rewrite <- Pd2; [exact Ca|]. rewrite <- Eq. exact B. }
  assert (K : for_each rows (leftmost_update hd) (MkPoint (fst q) (snd q), lean hd q) = Ok (MkPoint (fst q) (snd q), lean hd q)).
  { assert (End : forall w, In w rows -> forall z, r_left w <= z <= r_right w -> box (fst (mod_px (n - 7) (n - 7))) (snd (mod_px (n - 7) (n - 7))) m (z, r_y w)).
    { intros w Hw' z Hz. apply align_blob; [exact V2|]. apply Cells. unfold rows_cells. apply in_flat_map. exists w. split; [exact Hw'|].
      unfold row_cells. apply in_segment. cbn [fst snd]. lia. }
    assert (Far : forall z y, box (fst (mod_px (n - 7) (n - 7))) (snd (mod_px (n - 7) (n - 7))) m (z, y) -> 0 <= z <= 32767 /\ 0 <= y <= 32767 /\ lean hd q <= lean hd (z, y)).
    { intros z y Bx. rewrite <- (place_parts r E ox oy (z, y)) in Bx. apply mod_box in Bx. 
      pose proof (place_parts r E ox oy (z, y)) as Ep. revert Bx Ep. generalize (row_part r E ox oy (z, y)) (col_part r E ox oy (z, y)). intros s t Bx Ep.
      pose proof (at_range I0 p RI Hw Hh v sym m ox oy r Sh Hv Fp M s t ltac:(lia) ltac:(lia)) as [Y1 Y2]. rewrite Ep in Y1, Y2. cbn [fst snd] in Y1, Y2.
      split; [exact Y1|]. split; [exact Y2|]. rewrite <- Ep. apply lean_grows; try assumption; lia. }
    clear Cells. induction rows as [|w rows IH]; [reflexivity|]. cbn [for_each]. inversion Ord as [|? ? Ow Or]; subst.
    unfold leftmost_update at 1. cbn [snd].
    destruct (Far _ _ (End w ltac:(left; reflexivity) (r_left w) ltac:(lia))) as (Z1 & Z2 & Z3).
    destruct (Far _ _ (End w ltac:(left; reflexivity) (r_right w) ltac:(lia))) as (Z4 & _ & Z5).
    rewrite !as_i32_id by assumption. rewrite !lean_ok by assumption. cbn [bind].
    replace (lean hd (r_left w, r_y w) <? lean hd q) with false by lia. cbn [snd].
    replace (lean hd (r_right w, r_y w) <? lean hd q) with false by lia. cbn [bind].
    apply IH; [exact Or|]. intros w' Hw'. apply End. right. exact Hw'. }
  rewrite <- Eq. rewrite K. cbn [bind]. exists p2. split; [reflexivity|]. split; [exact RI2|exact Cl].
Qed.

Lemma locate_square A' B' g1 hd : standing B' (at_ D 0) -> standing A' (at_ 0 D) -> 2 <= v -> ~ claimed p (at_ D D) ->
  in_reach (px hd) -> in_reach (py hd) -> 0 < dir_b r * px hd - dir_a r * py hd -> 0 < dir_a r * px hd + dir_b r * py hd ->
  exists p', locate_alignment p (MkGroup A' g1 B') hd (pt (at_ D D)) = Ok (Some (pt (at_ D D)), p') /\ reg_inv I0 p'
    /\ forall a, in_image I0 a -> claimed p' a -> claimed p a \/ in_square n m ox oy a.
Proof using RI Hw Hh Sh Hv Fp M.
  intros SB SA. pose proof room as (R1 & R2 & R3 & R4). apply (locate_far A' B' g1 hd 0 0); try assumption; try lia; apply (at_range I0 p RI Hw Hh v sym m ox oy r Sh Hv Fp M); lia.
Qed.

(** The seed of the search. *)
Lemma seed_cases A' B' g1 : standing B' (at_ D 0) -> standing A' (at_ 0 D) ->
  line_intersect (k0 (cap_corners (gr0 (MkGroup A' g1 B')))) (k1 (cap_corners (gr0 (MkGroup A' g1 B'))))
                 (k0 (cap_corners (gr2 (MkGroup A' g1 B')))) (k3 (cap_corners (gr2 (MkGroup A' g1 B')))) =
    if L * L * furthest v m ox oy r <? 2 ^ 31 then Ok (Some (pt (at_ D D))) else Panic.
Proof using RI Hw Hh Sh Hv Fp M.
  intros [EB _] [EA _]. pose proof room as (R1 & R2 & R3 & R4). cbn [gr0 gr2]. rewrite EA, EB. unfold square. cbn [k0 k1 k3].
  set (W := Z.max (im_w I0) (im_h I0)) in *.
  assert (Rg : forall s t, 0 <= s < n * m -> 0 <= t < n * m -> 0 <= fst (at_ s t) < W /\ 0 <= snd (at_ s t) < W).
  { intros s t Hs Ht. destruct (dark_at I0 p RI Hw Hh v sym m ox oy r Sh Hv Fp M s t Hs Ht) as [In _]. unfold in_image, inside in In. unfold W. lia. }
  pose proof (Rg 0 D ltac:(lia) ltac:(lia)) as [A1 A2]. pose proof (Rg D 0 ltac:(lia) ltac:(lia)) as [A3 A4].
  pose proof (Rg L D ltac:(lia) ltac:(lia)) as [A5 A6]. pose proof (Rg D L ltac:(lia) ltac:(lia)) as [A7 A8].
  assert (P1 : fst (at_ 0 D) + L * dir_a r = fst (at_ L D) /\ snd (at_ 0 D) + L * dir_b r = snd (at_ L D)) by (unfold place; cbn [fst snd]; split; ring).
  assert (P2 : fst (at_ D 0) - L * dir_b r = fst (at_ D L) /\ snd (at_ D 0) + L * dir_a r = snd (at_ D L)) by (unfold place; cbn [fst snd]; split; ring).
  rewrite (intersect_axes (dir_a r) (dir_b r) L _ _ _ _ W (axis_dir r)); [|lia|assumption|assumption|assumption|assumption|lia|lia|lia|lia|unfold W; lia].
  assert (C : (if dir_b r =? 0 then (fst (at_ D 0), snd (at_ 0 D)) else (fst (at_ 0 D), snd (at_ D 0))) = at_ D D).
  { unfold place. cbn [fst snd]. generalize (n * m) D. intros nm d. destruct r as [|[|[|r']]]; cbn [dir_a dir_b org_x org_y fst snd Z.eqb]; f_equal; ring. }
  rewrite C. replace (furthest v m ox oy r) with (Z.max (fst (at_ D D)) (snd (at_ D D))); [reflexivity|].
  unfold furthest, step_at, place. cbn [fst snd]. generalize (n * m) D. intros nm d. destruct r as [|[|[|r']]]; cbn [dir_a dir_b org_x org_y fst snd]; f_equal; ring.
Qed.

Lemma seed_square A' B' g1 : standing B' (at_ D 0) -> standing A' (at_ 0 D) -> L * L * furthest v m ox oy r < 2 ^ 31 ->
  line_intersect (k0 (cap_corners (gr0 (MkGroup A' g1 B')))) (k1 (cap_corners (gr0 (MkGroup A' g1 B'))))
                 (k0 (cap_corners (gr2 (MkGroup A' g1 B')))) (k3 (cap_corners (gr2 (MkGroup A' g1 B')))) = Ok (Some (pt (at_ D D))).
Proof using RI Hw Hh Sh Hv Fp M.
  intros SB SA HL. rewrite (seed_cases A' B' g1 SB SA). replace (L * L * furthest v m ox oy r <? 2 ^ 31) with true; [reflexivity|]. symmetry. apply Z.ltb_lt. exact HL.
Qed.

Lemma seed_overflow A' B' g1 : standing B' (at_ D 0) -> standing A' (at_ 0 D) -> 2 ^ 31 <= L * L * furthest v m ox oy r ->
  line_intersect (k0 (cap_corners (gr0 (MkGroup A' g1 B')))) (k1 (cap_corners (gr0 (MkGroup A' g1 B'))))
                 (k0 (cap_corners (gr2 (MkGroup A' g1 B')))) (k3 (cap_corners (gr2 (MkGroup A' g1 B')))) = Panic.
Proof using RI Hw Hh Sh Hv Fp M.
  intros SB SA HL. rewrite (seed_cases A' B' g1 SB SA). replace (L * L * furthest v m ox oy r <? 2 ^ 31) with false; [reflexivity|]. symmetry. apply Z.ltb_ge. exact HL.
Qed.
End Locate.

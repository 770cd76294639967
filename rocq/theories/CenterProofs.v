(** The centre of a finder pattern: with corners found by the corner finders the
    binary64 transform maps the middle of the pattern without panicking. *)
From Coq Require Import Reals Lra SpecFloat.
From Flocq Require Import Core.
From Verif Require Import Base Lib ModelImage ModelGeometry ModelDetect SpecImage FloodProofs RegionProofs CornerProofs SearchProofs FloatProofs.
Open Scope Z_scope.
Set Bullet Behavior "Strict Subproofs".

(** * Convexity of the quadrilateral *)

(** Twice the signed area of the triangle a, b, c. *)
Definition tri (a b c : point) : Z :=
  (px b - px a) * (py c - py a) - (py b - py a) * (px c - px a).

Definition area0 (k : corners) : Z := tri (k1 k) (k2 k) (k3 k).
Definition area1 (k : corners) : Z := tri (k0 k) (k2 k) (k3 k).
Definition area2 (k : corners) : Z := tri (k0 k) (k1 k) (k3 k).
Definition area3 (k : corners) : Z := tri (k0 k) (k1 k) (k2 k).

Lemma turn b p q r : tri p q r * (px b * px b + py b * py b) =
  (par b q - par b p) * (ort b r - ort b p) - (ort b q - ort b p) * (par b r - par b p).
Proof. unfold tri, par, ort. ring. Qed.

Lemma two_squares a b : a * a + b * b <= 0 -> a = 0 /\ b = 0.
Proof. intros H. assert (0 <= b * b) by nia. assert (0 <= a * a) by nia. assert (a * a = 0) by lia. assert (b * b = 0) by lia. nia. Qed.

Lemma quad_convex (S : pixel -> Prop) start k : corners_of S start k -> 0 < area0 k ->
  0 <= area1 k /\ 0 <= area2 k /\ 0 <= area3 k.
Proof.
  intros (c & _ & F & (q0 & q1 & q2 & q3 & S0 & S1 & S2 & S3 & ->) & E) P.
  set (b := MkPoint (fst c - fst start) (snd c - snd start)) in *. cbv zeta in E. fold b in E.
  unfold area0, area1, area2, area3 in *. cbn [k0 k1 k2 k3] in *.
  pose proof (E _ S0) as (A1 & A2 & A3 & A4). pose proof (E _ S1) as (B1 & B2 & B3 & B4).
  pose proof (E _ S2) as (C1 & C2 & C3 & C4). pose proof (E _ S3) as (D1 & D2 & D3 & D4).
  set (n := px b * px b + py b * py b).
  assert (N : 0 < n \/ n = 0) by (unfold n; nia). destruct N as [N|N].
  - assert (G : forall p q r, 0 <= (par b q - par b p) * (ort b r - ort b p) - (ort b q - ort b p) * (par b r - par b p) -> 0 <= tri p q r).
    { intros p q r H. rewrite <- turn in H. fold n in H. nia. }
    split; [|split]; apply G; nia.
  - destruct (two_squares (px b) (py b)) as [X0 Y0]; [unfold n in N; lia|].
    unfold par, ort in *. exfalso.
    assert (Z0 : sqdist (pt_of c) (pt_of start) = 0) by (unfold sqdist, pt_of; cbn in *; nia).
    assert (G : forall q, S q -> fst q = fst start /\ snd q = snd start).
    { intros q Hq. specialize (F q Hq). rewrite Z0 in F. unfold sqdist, pt_of in F. cbn in F. apply two_squares in F. lia. }
    pose proof (G _ S1) as [G1 G2]. pose proof (G _ S2) as [G3 G4]. pose proof (G _ S3) as [G5 G6].
    unfold tri, pt_of in P. cbn in P. rewrite G1, G2, G3, G4, G5, G6 in P. lia.
Qed.

Lemma area_sum k : area0 k + area2 k = area1 k + area3 k.
Proof. unfold area0, area1, area2, area3, tri. ring. Qed.

(** * The coefficients *)

Ltac ir :=
  lazymatch goal with
  | |- irep (SFadd _ _ _ _) _ _ => eapply irep_add; [ir|ir|vm_compute; discriminate]
  | |- irep (SFsub _ _ _ _) _ _ => eapply irep_sub; [ir|ir|vm_compute; discriminate]
  | |- irep (SFmul _ _ _ _) _ _ => eapply irep_mul; [ir|ir|vm_compute; discriminate]
  | |- irep (SFopp _) _ _ => eapply irep_opp; ir
  | |- _ => eassumption
  end.

Definition small_corners (k : corners) : Prop := small_pt (k0 k) /\ small_pt (k1 k) /\ small_pt (k2 k) /\ small_pt (k3 k).

(** Numerators of the coefficients over the common denominator [w * area0]. *)
Definition num_c (f : point -> Z) (k : corners) : Z * Z :=
  (area1 k * f (k1 k) - area0 k * f (k0 k), area3 k * f (k3 k) - area0 k * f (k0 k)).

Lemma irep_eq f a b B : irep f a B -> a = b -> irep f b B.
Proof. intros H ->. assumption. Qed.

Lemma den_positive f z B : irep f z B ->
  n_ltb f (n_ratio (Num := F64) 1 4503599627370496) = false -> 1 <= z.
Proof.
  intros [R _] H. unfold n_ltb in H. cbn [n_compare n_ratio F64] in H.
  assert (E : rep (SFdiv f_prec f_emax (f64_of_Z 1) (f64_of_Z 4503599627370496)) (bpow radix2 (-52))).
  { replace (bpow radix2 (-52)) with (rnd (IZR 1 / IZR 4503599627370496)).
    - apply rep_div; [apply (irep_of 1 1); lia|apply (irep_of 4503599627370496 4503599627370496); lia| |].
      + intros X. apply eq_IZR in X. lia.
      + rewrite Rabs_right by lra. apply Rle_trans with 1%R; [lra|]. change 1%R with (bpow radix2 0). apply bpow_le. lia.
    - unfold rnd. replace (IZR 1 / IZR 4503599627370496)%R with (bpow radix2 (-52)) by (cbn; lra).
      apply round_generic; [apply valid_rnd_N|]. apply generic_format_bpow. unfold FLT_exp. lia. }
  rewrite (rep_compare _ _ _ _ R E) in H. destruct (Rcompare_spec (IZR z) (bpow radix2 (-52))) as [L|L|L]; try discriminate.
  - exfalso. assert (X : (IZR 0 < IZR z)%R) by (rewrite L; apply bpow_gt_0). apply lt_IZR in X.
    assert (Y : (IZR z < 1)%R) by (rewrite L; cbn; lra). apply lt_IZR in Y. lia.
  - assert (X : (IZR 0 < IZR z)%R) by (eapply Rlt_trans; [|exact L]; apply bpow_gt_0). apply lt_IZR in X. lia.
Qed.

(** The eight coefficients before their division. *)
Lemma create_values k w c : small_corners k -> 1 <= w <= 200 ->
  persp_create (N := F64) k (n_of w) (n_of w) = Some c ->
  1 <= area0 k /\
  exists d d' f0 f1 f3 f4 f6 f7,
    irep d (w * area0 k) (2 ^ 48) /\ irep d' (w * area0 k) (2 ^ 48) /\
    irep f0 (fst (num_c px k)) (2 ^ 53) /\ irep f1 (snd (num_c px k)) (2 ^ 53) /\
    irep f3 (fst (num_c py k)) (2 ^ 53) /\ irep f4 (snd (num_c py k)) (2 ^ 53) /\
    irep f6 (fst (num_c (fun _ => 1) k)) (2 ^ 53) /\ irep f7 (snd (num_c (fun _ => 1) k)) (2 ^ 53) /\
    irep (c2 c) (px (k0 k)) max_dim /\ irep (c5 c) (py (k0 k)) max_dim /\
    c0 c = n_div f0 d /\ c1 c = n_div f1 d' /\ c3 c = n_div f3 d /\ c4 c = n_div f4 d' /\
    c6 c = n_div f6 d /\ c7 c = n_div f7 d'.
Proof.
  intros ((H0x & H0y) & (H1x & H1y) & (H2x & H2y) & H3x & H3y) Hw. unfold persp_create, n_of.
  cbn [n_add n_sub n_mul n_opp n_ratio F64].
  unfold max_dim in *.
  assert (X0 := irep_div1 (px (k0 k)) 32767 ltac:(lia) ltac:(lia)). assert (Y0 := irep_div1 (py (k0 k)) 32767 ltac:(lia) ltac:(lia)).
  assert (X1 := irep_div1 (px (k1 k)) 32767 ltac:(lia) ltac:(lia)). assert (Y1 := irep_div1 (py (k1 k)) 32767 ltac:(lia) ltac:(lia)).
  assert (X2 := irep_div1 (px (k2 k)) 32767 ltac:(lia) ltac:(lia)). assert (Y2 := irep_div1 (py (k2 k)) 32767 ltac:(lia) ltac:(lia)).
  assert (X3 := irep_div1 (px (k3 k)) 32767 ltac:(lia) ltac:(lia)). assert (Y3 := irep_div1 (py (k3 k)) 32767 ltac:(lia) ltac:(lia)).
  assert (W := irep_div1 w 200 ltac:(lia) ltac:(lia)).
  set (x0 := SFdiv _ _ (f64_of_Z (px (k0 k))) _) in *. set (y0 := SFdiv _ _ (f64_of_Z (py (k0 k))) _) in *.
  set (x1 := SFdiv _ _ (f64_of_Z (px (k1 k))) _) in *. set (y1 := SFdiv _ _ (f64_of_Z (py (k1 k))) _) in *.
  set (x2 := SFdiv _ _ (f64_of_Z (px (k2 k))) _) in *. set (y2 := SFdiv _ _ (f64_of_Z (py (k2 k))) _) in *.
  set (x3 := SFdiv _ _ (f64_of_Z (px (k3 k))) _) in *. set (y3 := SFdiv _ _ (f64_of_Z (py (k3 k))) _) in *.
  set (ww := SFdiv _ _ (f64_of_Z w) _) in *.
  clearbody x0 y0 x1 y1 x2 y2 x3 y3 ww.
  set (d := SFmul _ _ ww _). set (d' := SFmul _ _ ww _).
  intros E. destruct (n_ltb d _) eqn:L1; [discriminate|]. destruct (n_ltb d' _) eqn:L2; [discriminate|].
  cbn [orb] in E. injection E as <-. cbn [c0 c1 c2 c3 c4 c5 c6 c7].
  assert (Rw : forall f a B b B', irep f a B -> a = b -> B <= B' -> irep f b B') by (intros f a B b B' [F1 F2] -> Hb; split; [assumption|lia]).
  assert (D : irep d (w * area0 k) (2 ^ 48)).
  { subst d. eapply Rw; [ir|unfold area0, tri; ring|vm_compute; discriminate]. }
  assert (D' : irep d' (w * area0 k) (2 ^ 48)).
  { subst d'. eapply Rw; [ir|unfold area0, tri; ring|vm_compute; discriminate]. }
  assert (A1 : 1 <= area0 k) by (pose proof (den_positive d _ _ D L1); nia).
  split; [assumption|].
  do 8 eexists.
  repeat match goal with |- _ /\ _ => split end.
  all: match goal with |- irep _ _ _ => idtac | _ => reflexivity end.
  all: first [exact D|exact D'|exact X0|exact Y0|idtac].
  all: eapply Rw; [ir|cbn [num_c fst snd]; unfold area0, area1, area3, tri; ring|vm_compute; discriminate].
Qed.

(** * The middle of the pattern *)

Local Open Scope R_scope.

Lemma rnd_near x K : 1 <= K -> Rabs x <= 10 * K -> Rabs (rnd x - x) <= K / 500000000000000.
Proof.
  intros H1 H. eapply Rle_trans; [apply rnd_error|].
  assert (A : bpow radix2 (-53) <= / 9007199254740992) by (cbn; lra).
  assert (B : bpow radix2 (-1074) <= / 10000000000000000) by (eapply Rle_trans; [apply bpow_le with (e2 := (-54)%Z); lia|cbn; lra]).
  assert (C : bpow radix2 (-53) * Rabs x <= / 9007199254740992 * (10 * K)).
  { apply Rmult_le_compat; [apply bpow_ge_0|apply Rabs_pos|assumption|assumption]. }
  lra.
Qed.

Lemma huge K x : 1 <= K -> K <= IZR (2 ^ 60) -> Rabs x <= 10 * K -> Rabs x <= bpow radix2 1000.
Proof.
  intros H1 H2 H. apply Rle_trans with (bpow radix2 70); [|apply bpow_le; lia].
  change (bpow radix2 70) with (IZR (2 ^ 70)). eapply Rle_trans; [exact H|].
  apply Rle_trans with (10 * IZR (2 ^ 60)); [lra|]. rewrite <- mult_IZR. apply IZR_le. lia.
Qed.

Lemma Rabs_le' a b : - b <= a -> a <= b -> Rabs a <= b.
Proof. intros. apply Rabs_le. lra. Qed.

Lemma half7 : rep (n_ratio (Num := F64) 7 2) (7 / 2).
Proof.
  cbn [n_ratio F64]. replace (7 / 2) with (rnd (IZR 7 / IZR 2)).
  - apply rep_div; [apply (irep_of 7 7); lia|apply (irep_of 2 2); lia|lra|].
    rewrite Rabs_right by lra. apply Rle_trans with (bpow radix2 2); [cbn; lra|apply bpow_le; lia].
  - apply round_generic; [apply valid_rnd_N|]. apply generic_format_FLT.
    exists (Float radix2 7 (-1)); [unfold F2R; cbn; lra|cbn; lia|cbn; lia].
Qed.

(** One linear form [a * u + b * v + c] at u = v = 7/2, with quotients as coefficients. *)
Lemma linear_form fa fb fc fd fd' na nb d c K :
  rep fa na -> rep fb nb -> rep fd d -> rep fd' d -> rep fc c -> d <> 0 ->
  1 <= K -> K <= IZR (2 ^ 60) ->
  Rabs (na / d) <= K / 7 -> Rabs (nb / d) <= K / 7 -> Rabs c <= K ->
  exists s, rep (n_add (Num := F64) (n_add (n_mul (n_div fa fd) (n_ratio 7 2)) (n_mul (n_div fb fd') (n_ratio 7 2))) fc) s
    /\ Rabs (s - (7 / 2 * (na / d) + 7 / 2 * (nb / d) + c)) <= K / 40000000000000.
Proof.
  intros Fa Fb Fd Fd' Fc Hd K1 K2 Ha Hb Hc. cbn [n_add n_mul n_div F64]. pose proof half7 as F7.
  set (u := na / d) in *. set (v := nb / d) in *.
  assert (Ra := rep_div _ _ _ _ Fa Fd Hd (huge K u K1 K2 ltac:(lra))). fold u in Ra.
  assert (Rb := rep_div _ _ _ _ Fb Fd' Hd (huge K v K1 K2 ltac:(lra))). fold v in Rb.
  pose proof (rnd_near u K K1 ltac:(lra)) as E1. pose proof (rnd_near v K K1 ltac:(lra)) as E2.
  apply Rabs_le_inv in Ha, Hb, Hc, E1, E2.
  assert (M1 : Rabs (rnd u * (7 / 2)) <= 10 * K) by (apply Rabs_le'; lra).
  assert (M2 : Rabs (rnd v * (7 / 2)) <= 10 * K) by (apply Rabs_le'; lra).
  assert (Pa := rep_mul _ _ _ _ Ra F7 (huge K _ K1 K2 M1)). assert (Pb := rep_mul _ _ _ _ Rb F7 (huge K _ K1 K2 M2)).
  pose proof (rnd_near _ K K1 M1) as E3. pose proof (rnd_near _ K K1 M2) as E4. apply Rabs_le_inv in E3, E4.
  set (p := rnd (rnd u * (7 / 2))) in *. set (q := rnd (rnd v * (7 / 2))) in *.
  assert (M3 : Rabs (p + q) <= 10 * K) by (apply Rabs_le'; lra).
  assert (Pc := rep_add _ _ _ _ Pa Pb (huge K _ K1 K2 M3)). pose proof (rnd_near _ K K1 M3) as E5. apply Rabs_le_inv in E5.
  set (s1 := rnd (p + q)) in *.
  assert (M4 : Rabs (s1 + c) <= 10 * K) by (apply Rabs_le'; lra).
  assert (Pd := rep_add _ _ _ _ Pc Fc (huge K _ K1 K2 M4)). pose proof (rnd_near _ K K1 M4) as E6. apply Rabs_le_inv in E6.
  exists (rnd (s1 + c)). split; [exact Pd|]. apply Rabs_le'; lra.
Qed.

Lemma form_value (a0 a1 a3 f0 f1 f3 w : R) : a0 <> 0 -> w = 7 ->
  7 / 2 * ((a1 * f1 - a0 * f0) / (w * a0)) + 7 / 2 * ((a3 * f3 - a0 * f0) / (w * a0)) + f0 = (a1 * f1 + a3 * f3) / (2 * a0).
Proof. intros H ->. field. assumption. Qed.

(** [z] is the coordinate [f] of the intersection of the diagonals, rounded to the nearest
    integer up to an error of a hundred-millionth. *)
Definition near_cross (k : corners) (f : point -> Z) (z : Z) : Prop :=
  (100000000 * Z.abs (2 * (z * (area1 k + area3 k) - (area1 k * f (k1 k) + area3 k * f (k3 k)))) <= 100000002 * (area1 k + area3 k))%Z.

Theorem center_near k c : small_corners k -> (0 <= area1 k)%Z -> (0 <= area2 k)%Z -> (0 <= area3 k)%Z ->
  persp_create (T := spec_float) k (n_of 7) (n_of 7) = Some c ->
  exists pt, persp_map c (n_ratio 7 2) (n_ratio 7 2) = Ok pt /\ near_cross k px (px pt) /\ near_cross k py (py pt).
Proof.
  intros Sm P1 P2 P3 Hc.
  destruct (create_values k 7 c Sm ltac:(lia) Hc) as (A0 & d & d' & f0 & f1 & f3 & f4 & f6 & f7 & [D Db] & [D' _] & [F0 _] & [F1 _] & [F3 _] & [F4 _] & [F6 _] & [F7 _] & [C2 _] & [C5 _] & E0 & E1 & E3 & E4 & E6 & E7).
  pose proof (area_sum k) as Sum. unfold near_cross.
  destruct Sm as ((B0x & B0y) & (B1x & B1y) & (B2x & B2y) & B3x & B3y).
  unfold persp_map, persp_apply. rewrite E0, E1, E3, E4, E6, E7.
  set (a0 := area0 k) in *. set (a1 := area1 k) in *. set (a2 := area2 k) in *. set (a3 := area3 k) in *.
  set (sg := (IZR (a1 + a3) / IZR a0)).
  assert (A0r : 1 <= IZR a0) by (apply IZR_le; assumption).
  assert (Sg1 : 1 <= sg).
  { unfold sg. apply Rmult_le_reg_r with (IZR a0); [lra|]. unfold Rdiv. rewrite Rmult_assoc, Rinv_l, Rmult_1_r, Rmult_1_l by lra.
    apply IZR_le. lia. }
  assert (S3b : (a1 + a3 <= 2 ^ 34)%Z).
  { subst a1 a3. unfold area1, area3, tri, max_dim in *. nia. }
  assert (Sg2 : sg <= IZR (2 ^ 34)).
  { unfold sg. apply Rmult_le_reg_r with (IZR a0); [lra|]. unfold Rdiv. rewrite Rmult_assoc, Rinv_l, Rmult_1_r by lra.
    rewrite <- mult_IZR. apply IZR_le. nia. }
  assert (Dz : IZR (7 * a0) <> 0) by (rewrite mult_IZR; lra).
  (* a quotient of the kind that occurs *)
  assert (Quot : forall n M, (0 <= M)%Z -> (Z.abs n <= M * (a1 + a3))%Z -> Rabs (IZR n / IZR (7 * a0)) <= IZR M * sg / 7).
  { intros n M HM Hn. unfold Rdiv. rewrite Rabs_mult, <- abs_IZR, (Rabs_right (/ _)).
    2: { apply Rle_ge, Rlt_le, Rinv_0_lt_compat. rewrite mult_IZR. lra. }
    rewrite mult_IZR, Rinv_mult_distr by lra. unfold sg, Rdiv.
    apply IZR_le in Hn. rewrite mult_IZR in Hn.
    apply Rmult_le_compat_r with (r := / 7 * / IZR a0) in Hn.
    2: { apply Rmult_le_pos; [lra|]. apply Rlt_le, Rinv_0_lt_compat. lra. }
    eapply Rle_trans; [exact Hn|]. apply Req_le. ring. }
  assert (Coord : forall f fa fb fc, (0 <= f (k0 k) <= max_dim)%Z -> (0 <= f (k1 k) <= max_dim)%Z -> (0 <= f (k3 k) <= max_dim)%Z ->
    rep fa (IZR (fst (num_c f k))) -> rep fb (IZR (snd (num_c f k))) -> rep fc (IZR (f (k0 k))) ->
    exists s, rep (n_add (Num := F64) (n_add (n_mul (n_div fa d) (n_ratio 7 2)) (n_mul (n_div fb d') (n_ratio 7 2))) fc) s
      /\ Rabs (s - IZR (a1 * f (k1 k) + a3 * f (k3 k)) / (2 * IZR a0)) <= IZR max_dim * sg / 40000000000000
      /\ 0 <= IZR (a1 * f (k1 k) + a3 * f (k3 k)) / (2 * IZR a0) <= IZR max_dim * sg / 2).
  { intros f fa fb fc G0 G1 G3 Fa Fb Fc.
    set (K := IZR max_dim * sg).
    assert (K1 : 1 <= K) by (unfold K, max_dim; lra).
    assert (K2 : K <= IZR (2 ^ 60)).
    { unfold K. apply Rle_trans with (IZR max_dim * IZR (2 ^ 34)); [apply Rmult_le_compat_l; [unfold max_dim; lra|assumption]|].
      rewrite <- mult_IZR. apply IZR_le. unfold max_dim. lia. }
    destruct (linear_form fa fb fc d d' (IZR (fst (num_c f k))) (IZR (snd (num_c f k))) (IZR (7 * a0)) (IZR (f (k0 k))) K Fa Fb D D' Fc Dz K1 K2) as (s & Rs & Es).
    - apply Quot; [unfold max_dim; lia|]. unfold num_c. cbn [fst]. fold a0 a1. unfold max_dim in *. nia.
    - apply Quot; [unfold max_dim; lia|]. unfold num_c. cbn [snd]. fold a0 a3. unfold max_dim in *. nia.
    - rewrite Rabs_right by (apply Rle_ge, IZR_le; lia). apply Rle_trans with (IZR max_dim * 1); [rewrite Rmult_1_r; apply IZR_le; lia|].
      unfold K. apply Rmult_le_compat_l; [unfold max_dim; lra|assumption].
    - exists s. split; [exact Rs|].
      assert (V : 7 / 2 * (IZR (fst (num_c f k)) / IZR (7 * a0)) + 7 / 2 * (IZR (snd (num_c f k)) / IZR (7 * a0)) + IZR (f (k0 k)) = IZR (a1 * f (k1 k) + a3 * f (k3 k)) / (2 * IZR a0)).
      { unfold num_c. cbn [fst snd]. fold a0 a1 a3. rewrite !minus_IZR, plus_IZR, !mult_IZR. rewrite form_value by lra. reflexivity. }
      rewrite V in Es. split; [exact Es|].
      { rewrite plus_IZR, !mult_IZR.
        split.
        - apply Rmult_le_pos; [|apply Rlt_le, Rinv_0_lt_compat; lra]. rewrite <- !mult_IZR, <- plus_IZR. apply IZR_le. nia.
        - unfold K, sg. unfold Rdiv. rewrite Rinv_mult_distr by lra.
          assert (X : IZR a1 * IZR (f (k1 k)) + IZR a3 * IZR (f (k3 k)) <= IZR max_dim * IZR (a1 + a3)).
          { rewrite <- !mult_IZR, <- plus_IZR. apply IZR_le. nia. }
          apply Rmult_le_compat_r with (r := / 2 * / IZR a0) in X.
          2: { apply Rmult_le_pos; [lra|]. apply Rlt_le, Rinv_0_lt_compat. lra. }
          eapply Rle_trans; [exact X|]. apply Req_le. ring. } }
  (* the denominator *)
  assert (Den : exists s, rep (n_add (Num := F64) (n_add (n_mul (n_div f6 d) (n_ratio 7 2)) (n_mul (n_div f7 d') (n_ratio 7 2))) (n_of 1)) s
      /\ Rabs (s - sg / 2) <= sg / 40000000000000).
  { destruct (linear_form f6 f7 (n_of 1) d d' (IZR (fst (num_c (fun _ => 1%Z) k))) (IZR (snd (num_c (fun _ => 1%Z) k))) (IZR (7 * a0)) (IZR 1) sg F6 F7 D D') as (s & Rs & Es).
    - apply (irep_div1 1 1); lia.
    - assumption.
    - assumption.
    - eapply Rle_trans; [exact Sg2|]. apply IZR_le. lia.
    - rewrite <- (Rmult_1_l sg). apply Quot; [lia|]. unfold num_c. cbn [fst]. fold a0 a1. nia.
    - rewrite <- (Rmult_1_l sg). apply Quot; [lia|]. unfold num_c. cbn [snd]. fold a0 a3. nia.
    - rewrite Rabs_right by lra. assumption.
    - exists s. split; [exact Rs|].
      assert (V : 7 / 2 * (IZR (fst (num_c (fun _ => 1%Z) k)) / IZR (7 * a0)) + 7 / 2 * (IZR (snd (num_c (fun _ => 1%Z) k)) / IZR (7 * a0)) + IZR 1 = sg / 2).
      { unfold num_c. cbn [fst snd]. fold a0 a1 a3. rewrite !minus_IZR, !mult_IZR. rewrite form_value by lra.
        unfold sg. rewrite plus_IZR. field. lra. }
      rewrite V in Es. exact Es. }
  destruct Den as (den & Rden & Hden).
  apply Rabs_le_inv in Hden.
  assert (Div : forall f fa s, (0 <= f (k1 k) <= max_dim)%Z -> (0 <= f (k3 k) <= max_dim)%Z ->
      rep fa s -> Rabs (s - IZR (a1 * f (k1 k) + a3 * f (k3 k)) / (2 * IZR a0)) <= IZR max_dim * sg / 40000000000000 ->
      0 <= IZR (a1 * f (k1 k) + a3 * f (k3 k)) / (2 * IZR a0) <= IZR max_dim * sg / 2 ->
      forall g, rep g den -> exists z, to_i32 (N := F64) (n_div (Num := F64) fa g) = Ok z
        /\ (100000000 * Z.abs (2 * (z * (a1 + a3) - (a1 * f (k1 k) + a3 * f (k3 k)))) <= 100000002 * (a1 + a3))%Z).
  { intros f fa s G1 G3 Rs Hs Hv g Rg. set (X := IZR (a1 * f (k1 k) + a3 * f (k3 k)) / (2 * IZR a0)) in *.
    apply Rabs_le_inv in Hs. unfold max_dim in *.
    set (t := X / (sg / 2)).
    assert (T0 : 0 <= t <= 32767).
    { unfold t. split.
      - apply Rmult_le_pos; [lra|]. apply Rlt_le, Rinv_0_lt_compat. lra.
      - apply Rmult_le_reg_r with (sg / 2); [lra|]. unfold Rdiv at 1. rewrite Rmult_assoc, Rinv_l, Rmult_1_r by lra. lra. }
    assert (Xt : X = t * (sg / 2)) by (unfold t; field; lra).
    assert (Dt : Rabs (s / den - t) <= / 120000000).
    { assert (Ed : s / den - t = (s - t * den) / den) by (field; lra). rewrite Ed.
      unfold Rdiv. rewrite Rabs_mult, (Rabs_right (/ den)) by (apply Rle_ge, Rlt_le, Rinv_0_lt_compat; lra).
      apply Rmult_le_reg_r with den; [lra|]. rewrite Rmult_assoc, Rinv_l, Rmult_1_r by lra.
      apply Rabs_le'; nra. }
    apply Rabs_le_inv in Dt.
    assert (Q : Rabs (s / den) <= 40000) by (apply Rabs_le'; lra).
    assert (R1 : rep (n_div (Num := F64) fa g) (rnd (s / den))).
    { apply rep_div; try assumption; [lra|]. eapply Rle_trans; [exact Q|]. eapply Rle_trans; [|apply (int_small 40000); lia].
      apply Rle_abs. }
    assert (Q' : Rabs (rnd (s / den)) <= IZR (2 ^ 30)).
    { change (IZR (2 ^ 30)) with (bpow radix2 30). apply rnd_bound; [lia|]. eapply Rle_trans; [exact Q|].
      change (bpow radix2 30) with (IZR (2 ^ 30)). apply IZR_le. lia. }
    pose proof (rnd_near (s / den) 40000 ltac:(lra) ltac:(lra)) as En. apply Rabs_le_inv in En.
    destruct (rep_round _ _ _ R1 Q' ltac:(lia)) as (z & Ez & Hz). pose proof (round_half _ _ _ R1 Ez) as Hr. apply Rabs_le_inv in Hr.
    exists z. split.
    - unfold to_i32. change (@n_round spec_float F64) with f64_round. rewrite Ez. unfold i32_max, i32_min.
      replace ((z <=? 2147483647)%Z && (-2147483648 <=? z)%Z) with true by lia. reflexivity.
    - assert (S13 : IZR (a1 + a3) = sg * IZR a0) by (unfold sg; field; lra).
      assert (Sp : 0 < IZR (a1 + a3)) by (rewrite S13; nra).
      assert (N13 : IZR (a1 * f (k1 k) + a3 * f (k3 k)) = t * IZR (a1 + a3)).
      { rewrite S13. apply Rmult_eq_reg_r with (/ (2 * IZR a0)); [|apply Rinv_neq_0_compat; lra].
        change (X = t * (sg * IZR a0) * / (2 * IZR a0)). rewrite Xt. field. lra. }
      apply le_IZR. rewrite mult_IZR, abs_IZR, mult_IZR, minus_IZR, !(mult_IZR _ (a1 + a3)), N13.
      replace (2 * (IZR z * IZR (a1 + a3) - t * IZR (a1 + a3))) with (2 * (IZR z - t) * IZR (a1 + a3)) by ring.
      rewrite Rabs_mult, (Rabs_right (IZR (a1 + a3))) by lra.
      rewrite <- Rmult_assoc. apply Rmult_le_compat_r; [lra|].
      assert (Hz2 : Rabs (2 * (IZR z - t)) <= 100000002 / 100000000) by (apply Rabs_le'; lra).
      lra. }
  destruct (Coord px f0 f1 (c2 c) B0x B1x B3x F0 F1 C2) as (sx & Rx & Hx & Vx).
  destruct (Coord py f3 f4 (c5 c) B0y B1y B3y F3 F4 C5) as (sy & Ry & Hy & Vy).
  destruct (Div px _ _ B1x B3x Rx Hx Vx _ Rden) as (zx & Ex & Zx). destruct (Div py _ _ B1y B3y Ry Hy Vy _ Rden) as (zy & Ey & Zy).
  unfold out in *. rewrite Ex. cbn [bind]. rewrite Ey. cbn [bind]. eexists. split; [reflexivity|]. split; assumption.
Qed.

Lemma region_small (S : pixel -> Prop) start k : (forall q, S q -> 0 <= fst q <= max_dim /\ 0 <= snd q <= max_dim)%Z -> corners_of S start k -> small_corners k.
Proof.
  intros HS (c' & _ & _ & (q0 & q1 & q2 & q3 & S0 & S1 & S2 & S3 & ->) & _).
  assert (G : forall q, S q -> small_pt (pt_of q)) by (intros q Hq; apply (HS q Hq)).
  unfold small_corners. cbn [k0 k1 k2 k3]. auto.
Qed.

(** The centre of a region's corners. *)
Theorem region_center (S : pixel -> Prop) start k c : (forall q, S q -> 0 <= fst q <= max_dim /\ 0 <= snd q <= max_dim)%Z -> corners_of S start k ->
  persp_create (T := spec_float) k (n_of 7) (n_of 7) = Some c ->
  (0 < area0 k)%Z /\ (0 <= area1 k)%Z /\ (0 <= area2 k)%Z /\ (0 <= area3 k)%Z /\
  exists pt, persp_map c (n_ratio 7 2) (n_ratio 7 2) = Ok pt /\ near_cross k px (px pt) /\ near_cross k py (py pt).
Proof.
  intros HS Hk Hc. pose proof (region_small S start k HS Hk) as Sm.
  destruct (create_values k 7 c Sm ltac:(lia) Hc) as (A0 & _).
  destruct (quad_convex S start k Hk ltac:(lia)) as (P1 & P2 & P3).
  split; [lia|]. split; [assumption|]. split; [assumption|]. split; [assumption|]. apply center_near; assumption.
Qed.

Theorem center_maps_f64 I0 : (im_w I0 <= max_dim + 1)%Z -> (im_h I0 <= max_dim + 1)%Z -> center_maps (T := spec_float) I0.
Proof.
  intros Hw Hh S start k c HS Hk Hc.
  destruct (region_center S start k c) as (_ & _ & _ & _ & pt & E & _); try assumption; [|exists pt; exact E].
  intros q Hq. destruct (HS q Hq). lia.
Qed.

(** * Degenerate corners *)

Open Scope Z_scope.

Lemma eps_rep : rep (SFdiv f_prec f_emax (f64_of_Z 1) (f64_of_Z 4503599627370496)) (bpow radix2 (-52)).
Proof.
  replace (bpow radix2 (-52)) with (rnd (IZR 1 / IZR 4503599627370496)).
  - apply rep_div; [apply (irep_of 1 1); lia|apply (irep_of 4503599627370496 4503599627370496); lia| |].
    + intros X. apply eq_IZR in X. lia.
    + rewrite Rabs_right by lra. apply Rle_trans with 1%R; [lra|]. change 1%R with (bpow radix2 0). apply bpow_le. lia.
  - unfold rnd. replace (IZR 1 / IZR 4503599627370496)%R with (bpow radix2 (-52)) by (cbn; lra).
    apply round_generic; [apply valid_rnd_N|]. apply generic_format_bpow. unfold FLT_exp. lia.
Qed.

Lemma den_sign f z B : irep f z B ->
  n_ltb f (n_ratio (Num := F64) 1 4503599627370496) = (z <=? 0).
Proof.
  intros [R Hz]. destruct (n_ltb f _) eqn:E; symmetry.
  - apply Z.leb_le. unfold n_ltb in E. cbn [n_compare n_ratio F64] in E. rewrite (rep_compare _ _ _ _ R eps_rep) in E.
    destruct (Rcompare_spec (IZR z) (bpow radix2 (-52))) as [L|L|L]; try discriminate.
    assert (X : (IZR z < 1)%R) by (eapply Rlt_trans; [exact L|]; cbn; lra). apply lt_IZR in X. lia.
  - apply Z.leb_gt. pose proof (den_positive f z B (conj R Hz) E). lia.
Qed.

(** A transform exists exactly when the last three corners turn the right way. *)
Theorem create_iff k w : small_corners k -> 1 <= w <= 200 ->
  (persp_create (N := F64) k (n_of w) (n_of w) = None <-> area0 k <= 0).
Proof.
  intros ((H0x & H0y) & (H1x & H1y) & (H2x & H2y) & H3x & H3y) Hw. unfold persp_create, n_of.
  cbn [n_add n_sub n_mul n_opp n_ratio F64].
  unfold max_dim in *.
  assert (X0 := irep_div1 (px (k0 k)) 32767 ltac:(lia) ltac:(lia)). assert (Y0 := irep_div1 (py (k0 k)) 32767 ltac:(lia) ltac:(lia)).
  assert (X1 := irep_div1 (px (k1 k)) 32767 ltac:(lia) ltac:(lia)). assert (Y1 := irep_div1 (py (k1 k)) 32767 ltac:(lia) ltac:(lia)).
  assert (X2 := irep_div1 (px (k2 k)) 32767 ltac:(lia) ltac:(lia)). assert (Y2 := irep_div1 (py (k2 k)) 32767 ltac:(lia) ltac:(lia)).
  assert (X3 := irep_div1 (px (k3 k)) 32767 ltac:(lia) ltac:(lia)). assert (Y3 := irep_div1 (py (k3 k)) 32767 ltac:(lia) ltac:(lia)).
  assert (W := irep_div1 w 200 ltac:(lia) ltac:(lia)).
  set (x0 := SFdiv _ _ (f64_of_Z (px (k0 k))) _) in *. set (y0 := SFdiv _ _ (f64_of_Z (py (k0 k))) _) in *.
  set (x1 := SFdiv _ _ (f64_of_Z (px (k1 k))) _) in *. set (y1 := SFdiv _ _ (f64_of_Z (py (k1 k))) _) in *.
  set (x2 := SFdiv _ _ (f64_of_Z (px (k2 k))) _) in *. set (y2 := SFdiv _ _ (f64_of_Z (py (k2 k))) _) in *.
  set (x3 := SFdiv _ _ (f64_of_Z (px (k3 k))) _) in *. set (y3 := SFdiv _ _ (f64_of_Z (py (k3 k))) _) in *.
  set (ww := SFdiv _ _ (f64_of_Z w) _) in *.
  clearbody x0 y0 x1 y1 x2 y2 x3 y3 ww.
  set (d := SFmul _ _ ww _). set (d' := SFmul _ _ ww _).
  assert (Rw : forall f a B b B', irep f a B -> a = b -> B <= B' -> irep f b B') by (intros f a B b B' [F1 F2] -> Hb; split; [assumption|lia]).
  assert (D : irep d (w * area0 k) (2 ^ 48)).
  { subst d. eapply Rw; [ir|unfold area0, tri; ring|vm_compute; discriminate]. }
  assert (D' : irep d' (w * area0 k) (2 ^ 48)).
  { subst d'. eapply Rw; [ir|unfold area0, tri; ring|vm_compute; discriminate]. }
  pose proof (den_sign _ _ _ D) as S1. pose proof (den_sign _ _ _ D') as S2. cbn [n_ratio F64] in S1, S2. rewrite S1, S2.
  rewrite Bool.orb_diag. destruct (w * area0 k <=? 0) eqn:E.
  - split; [intros _; nia|reflexivity].
  - split; [discriminate|intros H; nia].
Qed.

Lemma area0_nonneg (S : pixel -> Prop) start k : corners_of S start k -> 0 <= area0 k.
Proof.
  intros (c & _ & F & (q0 & q1 & q2 & q3 & S0 & S1 & S2 & S3 & ->) & E).
  set (b := MkPoint (fst c - fst start) (snd c - snd start)) in *. cbv zeta in E. fold b in E.
  unfold area0. cbn [k0 k1 k2 k3] in *.
  pose proof (E _ S1) as (B1 & B2 & B3 & B4). pose proof (E _ S2) as (C1 & C2 & C3 & C4). pose proof (E _ S3) as (D1 & D2 & D3 & D4).
  set (n := px b * px b + py b * py b).
  assert (N : 0 < n \/ n = 0) by (unfold n; nia). destruct N as [N|N].
  - pose proof (turn b (pt_of q1) (pt_of q2) (pt_of q3)) as T. fold n in T.
    assert (0 <= (par b (pt_of q2) - par b (pt_of q1)) * (ort b (pt_of q3) - ort b (pt_of q1)) - (ort b (pt_of q2) - ort b (pt_of q1)) * (par b (pt_of q3) - par b (pt_of q1))) by nia.
    nia.
  - destruct (two_squares (px b) (py b)) as [X0 Y0]; [unfold n in N; lia|].
    assert (Z0 : sqdist (pt_of c) (pt_of start) = 0) by (unfold sqdist, pt_of; cbn in *; nia).
    assert (G : forall q, S q -> fst q = fst start /\ snd q = snd start).
    { intros q Hq. specialize (F q Hq). rewrite Z0 in F. unfold sqdist, pt_of in F. cbn in F. apply two_squares in F. lia. }
    pose proof (G _ S1) as [G1 G2]. pose proof (G _ S2) as [G3 G4]. pose proof (G _ S3) as [G5 G6].
    unfold tri, pt_of. cbn. rewrite G1, G2, G3, G4, G5, G6. lia.
Qed.

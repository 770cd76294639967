(** The transforms of squares with sides along the axes: [Perspective::create], [map] and
    [unmap] in binary64. *)
From Coq Require Import Reals Lra SpecFloat.
From Flocq Require Import Core.
From Verif Require Import Base Lib ModelImage ModelGeometry ModelDetect SpecImage FloodProofs RegionProofs CornerProofs SearchProofs FloatProofs CenterProofs ApproxProofs.
Open Scope R_scope.
Set Bullet Behavior "Strict Subproofs".

(** A unit vector along an axis. *)
Definition axis (a b : Z) : Prop := (a * a + b * b = 1)%Z.

Lemma axis_cases a b : axis a b -> (a = 1 /\ b = 0 \/ a = 0 /\ b = 1 \/ a = -1 /\ b = 0 \/ a = 0 /\ b = -1)%Z.
Proof. unfold axis. intros H. assert (-1 <= a <= 1)%Z by nia. assert (-1 <= b <= 1)%Z by nia. assert (a = -1 \/ a = 0 \/ a = 1)%Z as [-> | [-> | -> ]] by lia; lia. Qed.

(** The square with corner (x, y) and sides [L] (a, b) and [L] (-b, a). *)
Definition square (x y L a b : Z) : corners :=
  Corners (MkPoint x y) (MkPoint (x + L * a) (y + L * b)) (MkPoint (x + L * a - L * b) (y + L * b + L * a)) (MkPoint (x - L * b) (y + L * a)).

(** The transform (u, v) -> (x, y) + K u (a, b) + K v (-b, a). *)
Record affine (c : perspective spec_float) (K : R) (a b x y : Z) : Prop := {
  af0 : near (c0 c) (IZR a * K) (K / 500000000000000);
  af1 : near (c1 c) (- IZR b * K) (K / 500000000000000);
  af2 : rep (c2 c) (IZR x);
  af3 : near (c3 c) (IZR b * K) (K / 500000000000000);
  af4 : near (c4 c) (IZR a * K) (K / 500000000000000);
  af5 : rep (c5 c) (IZR y);
  af6 : rep (c6 c) 0;
  af7 : rep (c7 c) 0
}.

Lemma rep_zero_div f g x : rep f 0 -> rep g x -> x <> 0 -> rep (n_div (Num := F64) f g) 0.
Proof.
  intros Hf Hg Hx. cbn [n_div F64]. replace 0 with (rnd (0 / x)).
  - apply rep_div; [assumption|assumption|assumption|]. unfold Rdiv. rewrite Rmult_0_l, Rabs_R0. apply bpow_ge_0.
  - unfold Rdiv. rewrite Rmult_0_l. apply round_0, valid_rnd_N.
Qed.

Lemma near_quot f g n d (K : R) (s : Z) : (Z.abs s <= 1)%Z -> 1 <= K <= 40000 -> rep f (IZR n) -> rep g (IZR d) -> (1 <= d)%Z -> IZR n / IZR d = IZR s * K ->
  near (n_div (Num := F64) f g) (IZR s * K) (K / 500000000000000).
Proof.
  intros Hs HK Hf Hg Hd E. rewrite <- E.
  assert (Hs1 : Rabs (IZR s) <= 1) by (rewrite <- abs_IZR; apply IZR_le; assumption).
  apply near_div with (ex := 0) (ey := 0) (Q := K) (Y := 1) (e1 := 0).
  - apply near_rep; assumption.
  - apply near_rep; assumption.
  - rewrite E, Rabs_mult, (Rabs_pos_eq K) by lra. nra.
  - lra.
  - rewrite Rabs_pos_eq; apply IZR_le; lia.
  - lra.
  - lra.
  - lra.
  - lra.
Qed.

Theorem create_square x y L w a b : axis a b -> (1 <= w <= 200)%Z -> (w <= L)%Z -> small_corners (square x y L a b) ->
  exists c, persp_create (N := F64) (square x y L a b) (n_of w) (n_of w) = Some c
    /\ affine c (IZR L / IZR w) a b x y.
Proof.
  intros Ax Hw HL Sm.
  assert (A0 : area0 (square x y L a b) = (L * L)%Z).
  { unfold area0, tri, square, axis in *. cbn [k0 k1 k2 k3 px py]. rewrite <- (Z.mul_1_r (L * L)), <- Ax. ring. }
  assert (A1 : area1 (square x y L a b) = (L * L)%Z).
  { unfold area1, tri, square, axis in *. cbn [k0 k1 k2 k3 px py]. rewrite <- (Z.mul_1_r (L * L)), <- Ax. ring. }
  assert (A3 : area3 (square x y L a b) = (L * L)%Z).
  { unfold area3, tri, square, axis in *. cbn [k0 k1 k2 k3 px py]. rewrite <- (Z.mul_1_r (L * L)), <- Ax. ring. }
  assert (Lmax : (L <= 32767)%Z).
  { unfold small_corners, square, small_pt, max_dim in Sm. cbn [k0 k1 k2 k3 px py] in Sm.
    destruct (axis_cases a b Ax) as [(-> & ->)|[(-> & ->)|[(-> & ->)|(-> & ->)]]]; lia. }
  pose proof (create_iff (square x y L a b) w Sm Hw) as I. rewrite A0 in I.
  destruct (persp_create (N := F64) (square x y L a b) (n_of w) (n_of w)) as [c|] eqn:Ec.
  2: { exfalso. assert (L * L <= 0)%Z by (apply I; reflexivity). nia. }
  exists c. split; [reflexivity|].
  destruct (create_values _ w c Sm Hw Ec) as (_ & d & d' & f0 & f1 & f3 & f4 & f6 & f7 & [D _] & [D' _] & [F0 _] & [F1 _] & [F3 _] & [F4 _] & [F6 _] & [F7 _] & [C2 _] & [C5 _] & E0 & E1 & E3 & E4 & E6 & E7).
  unfold num_c in F0, F1, F3, F4, F6, F7. cbn [fst snd] in *. rewrite A0, A1 in *. rewrite A3 in *.
  assert (W1 : 1 <= IZR w) by (apply IZR_le; lia). assert (L1 : 1 <= IZR L) by (apply IZR_le; lia).
  assert (WL : IZR w <= IZR L) by (apply IZR_le; lia).
  assert (L2 : IZR L <= 32767) by (apply IZR_le; lia).
  assert (HK : 1 <= IZR L / IZR w <= 40000).
  { unfold Rdiv. split; apply Rmult_le_reg_r with (IZR w); try lra; rewrite Rmult_assoc, Rinv_l, Rmult_1_r by lra; nra. }
  assert (Dp : (1 <= w * (L * L))%Z) by nia.
  assert (Hab : (Z.abs a <= 1 /\ Z.abs b <= 1 /\ Z.abs (- b) <= 1)%Z) by (unfold axis in Ax; nia).
  assert (Val : forall n s, n = (L * L * L * s)%Z -> IZR n / IZR (w * (L * L)) = IZR s * (IZR L / IZR w)).
  { intros n s ->. rewrite !mult_IZR. field. split; lra. }
  constructor.
  - rewrite E0. apply (near_quot _ _ _ _ _ _ (proj1 Hab) HK F0 D Dp). apply Val. unfold square. cbn [k0 k1 px]. ring.
  - rewrite E1, <- opp_IZR. apply (near_quot _ _ _ _ _ _ (proj2 (proj2 Hab)) HK F1 D' Dp). apply Val. unfold square. cbn [k0 k3 px]. ring.
  - exact C2.
  - rewrite E3. apply (near_quot _ _ _ _ _ _ (proj1 (proj2 Hab)) HK F3 D Dp). apply Val. unfold square. cbn [k0 k1 py]. ring.
  - rewrite E4. apply (near_quot _ _ _ _ _ _ (proj1 Hab) HK F4 D' Dp). apply Val. unfold square. cbn [k0 k3 py]. ring.
  - exact C5.
  - rewrite E6. apply rep_zero_div with (IZR (w * (L * L))); [|assumption|apply not_0_IZR; lia].
    replace (L * L * 1 - L * L * 1)%Z with 0%Z in F6 by ring. exact F6.
  - rewrite E7. apply rep_zero_div with (IZR (w * (L * L))); [|assumption|apply not_0_IZR; lia].
    replace (L * L * 1 - L * L * 1)%Z with 0%Z in F7 by ring. exact F7.
Qed.

(** * [map] *)

Lemma rep_one_add f g : rep f 0 -> rep g 1 -> rep (n_add (Num := F64) f g) 1.
Proof.
  intros Hf Hg. cbn [n_add F64]. replace 1 with (rnd (0 + 1)).
  - apply rep_add; [assumption|assumption|]. rewrite Rplus_0_l. apply (int_small 1). lia.
  - rewrite Rplus_0_l. apply (rnd_int 1). lia.
Qed.

(** The linear forms of a transform whose denominator is 1. *)
Lemma den_one c u v U V eu ev : rep (c6 c) 0 -> rep (c7 c) 0 -> near u U eu -> near v V ev ->
  rep (n_add (Num := F64) (n_add (n_mul (c6 c) u) (n_mul (c7 c) v)) (n_of 1)) 1.
Proof.
  intros H6 H7 (ru & Ru & _) (rv & Rv & _). apply rep_one_add.
  - apply rep_zero_add; eapply rep_mul_zero; eassumption.
  - apply (irep_div1 1 1); lia.
Qed.

Lemma form_near f g h A B X u v U V e : near f A (1 / 1000000000) -> near g B (1 / 1000000000) -> rep h X ->
  near u U e -> near v V e -> 0 <= e <= 1 / 100000000 ->
  Rabs A <= 40000 -> Rabs B <= 40000 -> Rabs X <= 40000 -> Rabs U <= 200 -> Rabs V <= 200 ->
  near (n_add (Num := F64) (n_add (n_mul f u) (n_mul g v)) h) (A * U + B * V + X) (40000 * e + 40000 * e + 1 / 900000).
Proof.
  intros HA HB HX Hu Hv He BA BB BX BU BV.
  assert (M1 : near (n_mul (Num := F64) f u) (A * U) (40000 * e + 1 / 2000000)).
  { apply near_mul with (ex := 1 / 1000000000) (ey := e) (X := 40000) (Y := 200); try assumption; lra. }
  assert (M2 : near (n_mul (Num := F64) g v) (B * V) (40000 * e + 1 / 2000000)).
  { apply near_mul with (ex := 1 / 1000000000) (ey := e) (X := 40000) (Y := 200); try assumption; lra. }
  assert (P1 : Rabs (A * U) <= 8000000).
  { rewrite Rabs_mult. replace 8000000 with (40000 * 200) by lra. apply Rmult_le_compat; try apply Rabs_pos; assumption. }
  assert (P2 : Rabs (B * V) <= 8000000).
  { rewrite Rabs_mult. replace 8000000 with (40000 * 200) by lra. apply Rmult_le_compat; try apply Rabs_pos; assumption. }
  assert (S1 : near (n_add (Num := F64) (n_mul f u) (n_mul g v)) (A * U + B * V) (40000 * e + 40000 * e + 1 / 950000)).
  { eapply near_add with (B := 20000000); [exact M1|exact M2| | |]; [|lra|lra].
    pose proof (Rabs_triang (A * U) (B * V)). lra. }
  eapply near_add with (B := 20000000); [exact S1|apply near_rep; exact HX| | |]; [|lra|lra].
  pose proof (Rabs_triang (A * U) (B * V)). pose proof (Rabs_triang (A * U + B * V) X). lra.
Qed.

Lemma div_by_one f g x e : near f x e -> rep g 1 -> Rabs x <= 20000000 -> 0 <= e <= 1 -> near (n_div (Num := F64) f g) x (2 * e + 1 / 10000000).
Proof.
  intros Hf Hg Hx He. apply near_eq with (x / 1); [|field].
  apply near_div with (ex := e) (ey := 0) (Q := 20000000) (Y := 1) (e1 := 2 * e).
  - exact Hf.
  - apply near_rep; assumption.
  - unfold Rdiv. rewrite Rinv_1, Rmult_1_r. assumption.
  - lra.
  - rewrite Rabs_R1. lra.
  - lra.
  - lra.
  - lra.
  - lra.
Qed.

(** A point is mapped to a pixel at most a little over half a pixel away. *)
Lemma map_close c A B X C D Y u v U V e :
  near (c0 c) A (1 / 1000000000) -> near (c1 c) B (1 / 1000000000) -> rep (c2 c) X ->
  near (c3 c) C (1 / 1000000000) -> near (c4 c) D (1 / 1000000000) -> rep (c5 c) Y -> rep (c6 c) 0 -> rep (c7 c) 0 ->
  Rabs A <= 40000 -> Rabs B <= 40000 -> Rabs C <= 40000 -> Rabs D <= 40000 -> Rabs X <= 40000 -> Rabs Y <= 40000 ->
  near u U e -> near v V e -> 0 <= e <= 1 / 100000000 -> Rabs U <= 200 -> Rabs V <= 200 ->
  exists p q, persp_map (N := F64) c u v = Ok (MkPoint p q)
    /\ Rabs (IZR p - (A * U + B * V + X)) <= / 2 + 1 / 200
    /\ Rabs (IZR q - (C * U + D * V + Y)) <= / 2 + 1 / 200.
Proof.
  intros H0 H1 H2 H3 H4 H5 H6 H7 BA BB BC BD BX BY Hu Hv He BU BV.
  pose proof (den_one c u v U V e e H6 H7 Hu Hv) as Dn.
  assert (P : forall S T, Rabs S <= 40000 -> Rabs T <= 200 -> Rabs (S * T) <= 8000000).
  { intros S T HS HT. rewrite Rabs_mult. replace 8000000 with (40000 * 200) by lra. apply Rmult_le_compat; try apply Rabs_pos; assumption. }
  assert (Q : forall S T Z, Rabs S <= 8000000 -> Rabs T <= 8000000 -> Rabs Z <= 40000 -> Rabs (S + T + Z) <= 20000000).
  { intros S T Z HS HT HZ. pose proof (Rabs_triang S T). pose proof (Rabs_triang (S + T) Z). lra. }
  pose proof (form_near _ _ _ _ _ _ _ _ _ _ _ H0 H1 H2 Hu Hv ltac:(lra) BA BB BX BU BV) as F1.
  pose proof (form_near _ _ _ _ _ _ _ _ _ _ _ H3 H4 H5 Hu Hv ltac:(lra) BC BD BY BU BV) as F2.
  pose proof (div_by_one _ _ _ _ F1 Dn (Q _ _ _ (P _ _ BA BU) (P _ _ BB BV) BX) ltac:(lra)) as G1.
  pose proof (div_by_one _ _ _ _ F2 Dn (Q _ _ _ (P _ _ BC BU) (P _ _ BD BV) BY) ltac:(lra)) as G2.
  destruct (near_i32 _ _ _ G1 ltac:(lra) ltac:(pose proof (Q _ _ _ (P _ _ BA BU) (P _ _ BB BV) BX); lra)) as (p & Ep & Hp).
  destruct (near_i32 _ _ _ G2 ltac:(lra) ltac:(pose proof (Q _ _ _ (P _ _ BC BU) (P _ _ BD BV) BY); lra)) as (q & Eq & Hq).
  exists p, q. unfold persp_map, persp_apply. rewrite Ep. cbn [bind]. rewrite Eq. cbn [bind].
  split; [reflexivity|]. split; lra.
Qed.

Theorem map_affine c K a b x y u v U V : affine c K a b x y -> axis a b -> 1 <= K <= 40000 -> (0 <= x <= 40000)%Z -> (0 <= y <= 40000)%Z ->
  near u U (1 / 100000000) -> near v V (1 / 100000000) -> Rabs U <= 200 -> Rabs V <= 200 ->
  exists p q, persp_map (N := F64) c u v = Ok (MkPoint p q)
    /\ Rabs (IZR p - (IZR x + K * (IZR a * U - IZR b * V))) <= / 2 + 1 / 200
    /\ Rabs (IZR q - (IZR y + K * (IZR b * U + IZR a * V))) <= / 2 + 1 / 200.
Proof.
  intros [H0 H1 H2 H3 H4 H5 H6 H7] Ax HK Hx Hy Hu Hv BU BV.
  assert (Ka : Rabs (IZR a * K) <= 40000 /\ Rabs (IZR b * K) <= 40000 /\ Rabs (- IZR b * K) <= 40000).
  { destruct (axis_cases a b Ax) as [(-> & ->)|[(-> & ->)|[(-> & ->)|(-> & ->)]]]; repeat split; apply Rabs_le'; lra. }
  destruct Ka as (Ka & Kb & Kb').
  assert (Xr : 0 <= IZR x <= 40000) by (split; apply IZR_le; lia). assert (Yr : 0 <= IZR y <= 40000) by (split; apply IZR_le; lia).
  assert (Kw : forall f r, near f r (K / 500000000000000) -> near f r (1 / 1000000000)) by (intros f r H; apply near_weaken with (1 := H); lra).
  destruct (map_close c _ _ _ _ _ _ u v U V (1 / 100000000)
    (Kw _ _ H0) (Kw _ _ H1) H2 (Kw _ _ H3) (Kw _ _ H4) H5 H6 H7
    Ka Kb' Kb Ka ltac:(apply Rabs_le'; lra) ltac:(apply Rabs_le'; lra) Hu Hv ltac:(lra) BU BV) as (p & q & E & Hp & Hq).
  exists p, q. split; [exact E|]. split.
  - replace (IZR x + K * (IZR a * U - IZR b * V)) with (IZR a * K * U + - IZR b * K * V + IZR x) by ring. exact Hp.
  - replace (IZR y + K * (IZR b * U + IZR a * V)) with (IZR b * K * U + IZR a * K * V + IZR y) by ring. exact Hq.
Qed.

(** * [unmap] *)

Theorem unmap_affine c K a b x y p : affine c K a b x y -> axis a b -> 1 <= K <= 40000 -> (0 <= x <= 32767)%Z -> (0 <= y <= 32767)%Z ->
  (0 <= px p <= 32767)%Z -> (0 <= py p <= 32767)%Z ->
  near (fst (persp_unmap (N := F64) c p)) ((IZR a * IZR (px p - x) + IZR b * IZR (py p - y)) / K) (1 / 110000000)
  /\ near (snd (persp_unmap (N := F64) c p)) ((IZR a * IZR (py p - y) - IZR b * IZR (px p - x)) / K) (1 / 110000000).
Proof.
  intros [H0 H1 H2 H3 H4 H5 H6 H7] Ax HK Hx Hy Hpx Hpy.
  unfold persp_unmap. cbn zeta. cbn [fst snd].
  set (X := n_of (px p)). set (Y := n_of (py p)).
  assert (RX : rep X (IZR (px p))) by (apply (irep_div1 (px p) 32767); lia).
  assert (RY : rep Y (IZR (py p))) by (apply (irep_div1 (py p) 32767); lia).
  assert (Bx : 0 <= IZR x <= 32767) by (split; apply IZR_le; lia). assert (By : 0 <= IZR y <= 32767) by (split; apply IZR_le; lia).
  assert (Bp : 0 <= IZR (px p) <= 32767) by (split; apply IZR_le; lia). assert (Bq : 0 <= IZR (py p) <= 32767) by (split; apply IZR_le; lia).
  rewrite !minus_IZR. set (P := IZR (px p)) in *. set (Q := IZR (py p)) in *. set (x' := IZR x) in *. set (y' := IZR y) in *.
  assert (Ba : Rabs (IZR a * K) <= K /\ Rabs (IZR b * K) <= K /\ Rabs (- IZR b * K) <= K).
  { destruct (axis_cases a b Ax) as [(-> & ->)|[(-> & ->)|[(-> & ->)|(-> & ->)]]]; repeat split; apply Rabs_le'; lra. }
  destruct Ba as (Ba & Bb & Bb').
  assert (KK : 1 <= K * K <= 1600000000) by nra. assert (K1 : K <= K * K) by nra.
  assert (A2 : IZR a * IZR a + IZR b * IZR b = 1) by (rewrite <- !mult_IZR, <- plus_IZR, Ax; reflexivity).
  (* the parts that vanish *)
  destruct H0 as (r0 & R0 & E0). destruct H1 as (r1 & R1 & E1). destruct H3 as (r3 & R3 & E3). destruct H4 as (r4 & R4 & E4).
  assert (N0 : near (c0 c) (IZR a * K) (K / 500000000000000)) by (exists r0; auto).
  assert (N1 : near (c1 c) (- IZR b * K) (K / 500000000000000)) by (exists r1; auto).
  assert (N3 : near (c3 c) (IZR b * K) (K / 500000000000000)) by (exists r3; auto).
  assert (N4 : near (c4 c) (IZR a * K) (K / 500000000000000)) by (exists r4; auto).
  assert (Z1 : rep (n_mul (Num := F64) (n_mul (n_opp (c0 c)) (c7 c)) Y) 0).
  { eapply rep_mul_zero; [eapply rep_zero_mul; [apply rep_opp; exact R0|exact H7]|exact RY]. }
  assert (Z2 : rep (n_mul (Num := F64) (n_mul (c1 c) (c6 c)) Y) 0).
  { eapply rep_mul_zero; [eapply rep_zero_mul; [exact R1|exact H6]|exact RY]. }
  assert (Z3 : rep (n_mul (Num := F64) (n_sub (n_mul (c3 c) (c7 c)) (n_mul (c4 c) (c6 c))) X) 0).
  { eapply rep_mul_zero; [apply rep_zero_sub; eapply rep_zero_mul; eassumption|exact RX]. }
  assert (Z4 : rep (n_mul (Num := F64) (n_mul (c2 c) (c7 c)) Y) 0).
  { eapply rep_mul_zero; [eapply rep_zero_mul; [exact H2|exact H7]|exact RY]. }
  assert (Z5 : rep (n_mul (Num := F64) (n_mul (c2 c) (c6 c)) Y) 0).
  { eapply rep_mul_zero; [eapply rep_zero_mul; [exact H2|exact H6]|exact RY]. }
  assert (Z6 : rep (n_mul (Num := F64) (c5 c) (c7 c)) 0) by (eapply rep_zero_mul; [exact H5|exact H7]).
  assert (Z7 : rep (n_mul (Num := F64) (c5 c) (c6 c)) 0) by (eapply rep_zero_mul; [exact H5|exact H6]).
  (* the denominator *)
  assert (Dn : forall z, rep z 0 -> near (n_sub (Num := F64) (n_add z (n_mul (c0 c) (c4 c))) (n_mul (c1 c) (c3 c))) (K * K) (K * K / 35000000000000)).
  { intros z Rz.
    assert (M1 : near (n_mul (Num := F64) (c0 c) (c4 c)) (IZR a * K * (IZR a * K)) (K * K / 90000000000000)).
    { eapply near_mul with (X := K) (Y := K); [exact N0|exact N4|assumption|assumption|lra|lra|lra|lra]. }
    assert (M2 : near (n_mul (Num := F64) (c1 c) (c3 c)) (- IZR b * K * (IZR b * K)) (K * K / 90000000000000)).
    { eapply near_mul with (X := K) (Y := K); [exact N1|exact N3|assumption|assumption|lra|lra|lra|lra]. }
    assert (S1 : near (n_add (Num := F64) z (n_mul (c0 c) (c4 c))) (0 + IZR a * K * (IZR a * K)) (K * K / 70000000000000)).
    { eapply near_add with (B := 2 * (K * K)); [apply near_rep; exact Rz|exact M1| |lra|lra].
      rewrite Rplus_0_l, Rabs_mult. assert (Rabs (IZR a * K) * Rabs (IZR a * K) <= K * K) by (apply Rmult_le_compat; try apply Rabs_pos; assumption). lra. }
    apply near_eq with (0 + IZR a * K * (IZR a * K) - - IZR b * K * (IZR b * K)).
    2: { transitivity ((IZR a * IZR a + IZR b * IZR b) * (K * K)); [ring|]. rewrite A2. ring. }
    eapply near_sub with (B := 2 * (K * K)); [exact S1|exact M2| |lra|lra].
    replace (0 + IZR a * K * (IZR a * K) - - IZR b * K * (IZR b * K)) with ((IZR a * IZR a + IZR b * IZR b) * (K * K)) by ring.
    rewrite A2, Rmult_1_l, Rabs_pos_eq by lra. lra. }
  assert (Dy : near (n_sub (Num := F64) Y (c5 c)) (Q - y') (1 / 10000000000)).
  { eapply near_sub with (B := 40000); [apply near_rep; exact RY|apply near_rep; exact H5| |lra|lra].
    assert (Rabs (Q - y') <= 32767) by (apply Rabs_le'; lra). lra. }
  assert (Byy : Rabs (Q - y') <= 40000) by (apply Rabs_le'; lra).
  assert (Num : forall f g A B z (f0 f1 : spec_float), near f A (K / 500000000000000) -> near g B (K / 500000000000000) -> Rabs A <= K -> Rabs B <= K ->
    rep z 0 -> rep f0 0 -> rep f1 0 ->
    near (n_add (Num := F64) (n_add (n_sub (n_mul f (n_sub Y (c5 c))) z) (n_mul (n_sub f0 g) X)) (n_mul (c2 c) g))
      (A * (Q - y') - B * (P - x')) (K / 630000000)).
  { intros f g A B z f0 f1 Nf Ng BA BB Rz R7 _.
    assert (T1 : near (n_mul (Num := F64) f (n_sub Y (c5 c))) (A * (Q - y')) (K / 2300000000)).
    { eapply near_mul with (X := K) (Y := 40000); [exact Nf|exact Dy|assumption|assumption|lra|lra|lra|lra]. }
    assert (PA : Rabs (A * (Q - y')) <= 40000 * K).
    { rewrite Rabs_mult, (Rmult_comm 40000). apply Rmult_le_compat; try apply Rabs_pos; assumption. }
    assert (T2 : near (n_sub (Num := F64) (n_mul f (n_sub Y (c5 c))) z) (A * (Q - y') - 0) (K / 2000000000)).
    { eapply near_sub with (B := 50000 * K); [exact T1|apply near_rep; exact Rz| |lra|lra]. rewrite Rminus_0_r. lra. }
    assert (T3 : near (n_sub (Num := F64) f0 g) (0 - B) (K / 190000000000000)).
    { eapply near_sub with (B := 2 * K); [apply near_rep; exact R7|exact Ng| |lra|lra].
      rewrite Rminus_0_l, Rabs_Ropp. lra. }
    assert (Bn : Rabs (0 - B) <= K) by (rewrite Rminus_0_l, Rabs_Ropp; assumption).
    assert (T4 : near (n_mul (Num := F64) (n_sub f0 g) X) ((0 - B) * P) (K / 1700000000)).
    { eapply near_mul with (X := K) (Y := 40000); [exact T3|apply near_rep; exact RX|assumption|apply Rabs_le'; lra|lra|lra|lra|lra]. }
    assert (PB : Rabs ((0 - B) * P) <= 40000 * K).
    { rewrite Rabs_mult, (Rmult_comm 40000). apply Rmult_le_compat; try apply Rabs_pos; [assumption|apply Rabs_le'; lra]. }
    assert (T5 : near (n_mul (Num := F64) (c2 c) g) (x' * B) (K / 4000000000)).
    { eapply near_mul with (X := 40000) (Y := K); [apply near_rep; exact H2|exact Ng|apply Rabs_le'; lra|assumption|lra|lra|lra|lra]. }
    assert (PC : Rabs (x' * B) <= 40000 * K).
    { rewrite Rabs_mult. apply Rmult_le_compat; try apply Rabs_pos; [apply Rabs_le'; lra|assumption]. }
    assert (T6 : near (n_add (Num := F64) (n_sub (n_mul f (n_sub Y (c5 c))) z) (n_mul (n_sub f0 g) X)) (A * (Q - y') - 0 + (0 - B) * P) (K / 840000000)).
    { eapply near_add with (B := 90000 * K); [exact T2|exact T4| |lra|lra].
      pose proof (Rabs_triang (A * (Q - y') - 0) ((0 - B) * P)) as T. rewrite Rminus_0_r in T at 2. lra. }
    apply near_eq with (A * (Q - y') - 0 + (0 - B) * P + x' * B); [|ring].
    eapply near_add with (B := 130000 * K); [exact T6|exact T5| |lra|lra].
    pose proof (Rabs_triang (A * (Q - y') - 0) ((0 - B) * P)) as T. rewrite Rminus_0_r in T at 2.
    pose proof (Rabs_triang (A * (Q - y') - 0 + (0 - B) * P) (x' * B)). lra. }
  assert (Fin : forall f g n, near f n (K / 630000000) -> near g (K * K) (K * K / 35000000000000) -> Rabs n <= 80000 * K ->
    near (n_div (Num := F64) f g) (n / (K * K)) (1 / 110000000)).
  { intros f g n Nf Ng Bn. eapply near_div with (Q := 80000) (Y := K * K) (e1 := 1 / 115000000); [exact Nf|exact Ng| | | | | |lra|lra].
    - unfold Rdiv. rewrite Rabs_mult, Rabs_inv, (Rabs_pos_eq (K * K)) by lra.
      apply Rmult_le_reg_r with (K * K); [lra|]. rewrite Rmult_assoc, Rinv_l, Rmult_1_r by lra. lra.
    - lra.
    - rewrite Rabs_pos_eq by lra. lra.
    - lra.
    - lra. }
  assert (Bnum : forall A B, Rabs A <= K -> Rabs B <= K -> Rabs (A * (Q - y') - B * (P - x')) <= 80000 * K).
  { intros A B BA BB. replace (A * (Q - y') - B * (P - x')) with (A * (Q - y') + - (B * (P - x'))) by ring. eapply Rle_trans; [apply Rabs_triang|]. rewrite Rabs_Ropp, !Rabs_mult.
    assert (Rabs (P - x') <= 40000) by (apply Rabs_le'; lra).
    assert (Rabs A * Rabs (Q - y') <= K * 40000) by (apply Rmult_le_compat; try apply Rabs_pos; assumption).
    assert (Rabs B * Rabs (P - x') <= K * 40000) by (apply Rmult_le_compat; try apply Rabs_pos; assumption). lra. }
  pose proof (Num (c1 c) (c4 c) _ _ _ _ _ N1 N4 Bb' Ba Z4 Z6 Z6) as Nu.
  pose proof (Num (c0 c) (c3 c) _ _ _ _ _ N0 N3 Ba Bb Z5 Z7 Z7) as Nv.
  assert (Zd : rep (n_add (Num := F64) (n_add (n_mul (n_mul (n_opp (c0 c)) (c7 c)) Y) (n_mul (n_mul (c1 c) (c6 c)) Y)) (n_mul (n_sub (n_mul (c3 c) (c7 c)) (n_mul (c4 c) (c6 c))) X)) 0).
  { apply rep_zero_add; [apply rep_zero_add; assumption|assumption]. }
  specialize (Dn _ Zd).
  split.
  - apply near_eq with (- (- IZR b * K * (Q - y') - IZR a * K * (P - x')) / (K * K)); [|field; lra].
    apply Fin; [apply near_opp; exact Nu|exact Dn|rewrite Rabs_Ropp; apply Bnum; assumption].
  - apply near_eq with ((IZR a * K * (Q - y') - IZR b * K * (P - x')) / (K * K)); [|field; lra].
    apply Fin; [exact Nv|exact Dn|apply Bnum; assumption].
Qed.

(** Perspective transforms in exact arithmetic (C38). *)
From Coq Require Import QArith Qround Qfield Qabs ZifyBool Lqa.
From Verif Require Import Base ModelImage ModelGeometry SpecGeometry.
Set Bullet Behavior "Strict Subproofs".

(** The rational numbers as the number type of the model; a quotient by zero is zero, as
    in the library.  [n_round] rounds half away from zero. *)
Definition QNum : Num Q := {|
  n_add := Qplus; n_sub := Qminus; n_mul := Qmult; n_div := Qdiv; n_opp := Qopp; n_abs := Qabs;
  n_compare := fun a b => Some (Qcompare a b);
  n_ratio := fun p q => Qmake p (Z.to_pos q);
  n_round := fun q => Some (if Qle_bool 0 q then Qfloor (q + (1 # 2)) else (- Qfloor (- q + (1 # 2)))%Z) |}.

Open Scope Q_scope.

(** The denominator of a transform at (u, v). *)
Definition den (c : perspective Q) (u v : Q) : Q := c6 c * u + c7 c * v + 1.

(** The denominator of the inverse at (x, y). *)
Definition den' (c : perspective Q) (x y : Q) : Q :=
  - c0 c * c7 c * y + c1 c * c6 c * y + (c3 c * c7 c - c4 c * c6 c) * x + c0 c * c4 c - c1 c * c3 c.

Definition num_u (c : perspective Q) (x y : Q) : Q :=
  - (c1 c * (y - c5 c) - c2 c * c7 c * y + (c5 c * c7 c - c4 c) * x + c2 c * c4 c).
Definition num_v (c : perspective Q) (x y : Q) : Q :=
  c0 c * (y - c5 c) - c2 c * c6 c * y + (c5 c * c6 c - c3 c) * x + c2 c * c3 c.

Definition det (c : perspective Q) : Q :=
  c0 c * (c4 c - c5 c * c7 c) - c1 c * (c3 c - c5 c * c6 c) + c2 c * (c3 c * c7 c - c4 c * c6 c).

Lemma apply_den c u v :
  persp_apply (N := QNum) c u v = ((c0 c * u + c1 c * v + c2 c) / den c u v, (c3 c * u + c4 c * v + c5 c) / den c u v).
Proof. reflexivity. Qed.

Lemma unmap_den c p :
  persp_unmap (N := QNum) c p = (num_u c (inject_Z (px p)) (inject_Z (py p)) / den' c (inject_Z (px p)) (inject_Z (py p)),
                                 num_v c (inject_Z (px p)) (inject_Z (py p)) / den' c (inject_Z (px p)) (inject_Z (py p))).
Proof. reflexivity. Qed.

Lemma unmap_apply c u v x y : ~ den c u v == 0 -> ~ det c == 0 ->
  x == (c0 c * u + c1 c * v + c2 c) / den c u v -> y == (c3 c * u + c4 c * v + c5 c) / den c u v ->
  num_u c x y / den' c x y == u /\ num_v c x y / den' c x y == v.
Proof.
  intros D M Ex Ey.
  assert (Dn : den' c x y == det c / den c u v).
  { unfold den'. rewrite Ex, Ey. unfold det. unfold den in *. field. assumption. }
  assert (Nu : num_u c x y == u * (det c / den c u v)).
  { unfold num_u. rewrite Ex, Ey. unfold det. unfold den in *. field. assumption. }
  assert (Nv : num_v c x y == v * (det c / den c u v)).
  { unfold num_v. rewrite Ex, Ey. unfold det. unfold den in *. field. assumption. }
  rewrite Dn, Nu, Nv. split; field; split; assumption.
Qed.

Lemma apply_unmap c x y : ~ den' c x y == 0 -> ~ det c == 0 ->
  let u := num_u c x y / den' c x y in
  let v := num_v c x y / den' c x y in
  (c0 c * u + c1 c * v + c2 c) / den c u v == x /\ (c3 c * u + c4 c * v + c5 c) / den c u v == y /\ ~ den c u v == 0.
Proof.
  intros D M u v.
  assert (Dn : den c u v == det c / den' c x y).
  { unfold den, u, v. unfold den', det, num_u, num_v in *. field. assumption. }
  assert (Nx : c0 c * u + c1 c * v + c2 c == x * (det c / den' c x y)).
  { unfold u, v. unfold den', det, num_u, num_v in *. field. assumption. }
  assert (Ny : c3 c * u + c4 c * v + c5 c == y * (det c / den' c x y)).
  { unfold u, v. unfold den', det, num_u, num_v in *. field. assumption. }
  rewrite Dn, Nx, Ny. split; [|split].
  - field. split; assumption.
  - field. split; assumption.
  - intros X. apply M. assert (det c == det c / den' c x y * den' c x y) as -> by (field; assumption). rewrite X. ring.
Qed.

(** Twice the areas of the triangles left when corner 0, 1, 2, 3 is taken away. *)
Definition t0 (k : corners) : Z := cross (px (k1 k)) (py (k1 k)) (px (k2 k)) (py (k2 k)) (px (k3 k)) (py (k3 k)).
Definition t1 (k : corners) : Z := cross (px (k0 k)) (py (k0 k)) (px (k2 k)) (py (k2 k)) (px (k3 k)) (py (k3 k)).
Definition t2 (k : corners) : Z := cross (px (k0 k)) (py (k0 k)) (px (k1 k)) (py (k1 k)) (px (k3 k)) (py (k3 k)).
Definition t3 (k : corners) : Z := cross (px (k0 k)) (py (k0 k)) (px (k1 k)) (py (k1 k)) (px (k2 k)) (py (k2 k)).

(** The coefficients. *)
Definition coefs (k : corners) (w h : Q) (c : perspective Q) : Prop :=
  let X i := inject_Z (px i) in
  let Y i := inject_Z (py i) in
  let a0 := inject_Z (t0 k) in
  let a1 := inject_Z (t1 k) in
  let a3 := inject_Z (t3 k) in
  c0 c == (a1 * X (k1 k) - a0 * X (k0 k)) / (w * a0) /\ c1 c == (a3 * X (k3 k) - a0 * X (k0 k)) / (h * a0) /\ c2 c == X (k0 k)
  /\ c3 c == (a1 * Y (k1 k) - a0 * Y (k0 k)) / (w * a0) /\ c4 c == (a3 * Y (k3 k) - a0 * Y (k0 k)) / (h * a0) /\ c5 c == Y (k0 k)
  /\ c6 c == (a1 - a0) / (w * a0) /\ c7 c == (a3 - a0) / (h * a0).

Ltac qz := unfold t0, t1, t2, t3, cross, Z.sub; repeat first [rewrite inject_Z_plus | rewrite inject_Z_mult | rewrite inject_Z_opp].

Lemma create_exact k w h : 0 < w -> 0 < h -> (0 < t0 k)%Z -> (1 # 4503599627370496) <= w * inject_Z (t0 k) ->
  (1 # 4503599627370496) <= h * inject_Z (t0 k) -> exists c, persp_create (N := QNum) k w h = Some c /\ coefs k w h c.
Proof.
  intros Hw Hh A Ew Eh. unfold persp_create, n_of. cbn [n_ratio n_mul n_add n_sub n_div n_opp QNum].
  change (Z.to_pos 1) with 1%positive.
  set (X0 := px (k0 k) # 1). set (Y0 := py (k0 k) # 1). set (X1 := px (k1 k) # 1). set (Y1 := py (k1 k) # 1).
  set (X2 := px (k2 k) # 1). set (Y2 := py (k2 k) # 1). set (X3 := px (k3 k) # 1). set (Y3 := py (k3 k) # 1).
  match goal with |- exists _, (if n_ltb ?a ?e || n_ltb ?b ?e then _ else _) = _ /\ _ => set (wden := a); set (hden := b) end.
  assert (A0 : inject_Z (t0 k) == (X2 - X1) * (Y3 - Y1) - (Y2 - Y1) * (X3 - X1)) by (qz; unfold X1, X2, X3, Y1, Y2, Y3, inject_Z; ring).
  assert (A1 : inject_Z (t1 k) == (X2 - X0) * (Y3 - Y0) - (Y2 - Y0) * (X3 - X0)) by (qz; unfold X0, X2, X3, Y0, Y2, Y3, inject_Z; ring).
  assert (A3 : inject_Z (t3 k) == (X1 - X0) * (Y2 - Y0) - (Y1 - Y0) * (X2 - X0)) by (qz; unfold X1, X2, X0, Y1, Y2, Y0, inject_Z; ring).
  assert (Ew' : wden == w * inject_Z (t0 k)) by (rewrite A0; unfold wden; ring).
  assert (Eh' : hden == h * inject_Z (t0 k)) by (rewrite A0; unfold hden; ring).
  assert (Lt : forall a, (1 # 4503599627370496) <= a -> n_ltb (N := QNum) a (1 # 4503599627370496) = false).
  { intros a Ha. unfold n_ltb. cbn [n_compare QNum]. destruct (Qcompare_spec a (1 # 4503599627370496)) as [E|E|E]; try reflexivity. lra. }
  change (Z.to_pos 4503599627370496) with 4503599627370496%positive.
  rewrite (Lt wden) by (rewrite Ew'; assumption). rewrite (Lt hden) by (rewrite Eh'; assumption). cbn [orb].
  eexists. split; [reflexivity|].
  assert (P : 0 < inject_Z (t0 k)) by (change 0 with (inject_Z 0); rewrite <- Zlt_Qlt; assumption).
  unfold coefs. cbv zeta. cbn [c0 c1 c2 c3 c4 c5 c6 c7]. fold X0. fold Y0.
  change (inject_Z (px (k0 k))) with X0. change (inject_Z (py (k0 k))) with Y0. change (inject_Z (px (k1 k))) with X1. change (inject_Z (py (k1 k))) with Y1.
  change (inject_Z (px (k3 k))) with X3. change (inject_Z (py (k3 k))) with Y3.
  rewrite !Ew', !Eh'. set (a0 := inject_Z (t0 k)) in *. set (a1 := inject_Z (t1 k)) in *. set (a3 := inject_Z (t3 k)) in *.
  assert (Hwn : ~ w == 0) by (intros Z; rewrite Z in Hw; discriminate (Qlt_irrefl _ Hw) || (apply (Qlt_irrefl 0); assumption)).
  assert (Hhn : ~ h == 0) by (intros Z; rewrite Z in Hh; apply (Qlt_irrefl 0); assumption).
  assert (Han : ~ a0 == 0) by (intros Z; rewrite Z in P; apply (Qlt_irrefl 0); assumption).
  assert (Eq : forall p q d, ~ d == 0 -> p == q -> p / d == q / d) by (intros p q d _ E; rewrite E; reflexivity).
  assert (W0 : ~ w * a0 == 0) by (intros Z; apply Qmult_integral in Z; tauto).
  assert (H0 : ~ h * a0 == 0) by (intros Z; apply Qmult_integral in Z; tauto).
  split; [apply Eq; [assumption|rewrite A0, A1; ring]|].
  split; [apply Eq; [assumption|rewrite A0, A3; ring]|].
  split; [reflexivity|].
  split; [apply Eq; [assumption|rewrite A0, A1; ring]|].
  split; [apply Eq; [assumption|rewrite A0, A3; ring]|].
  split; [reflexivity|].
  split; [apply Eq; [assumption|rewrite A0, A1; ring]|].
  apply Eq; [assumption|rewrite A0, A3; ring].
Qed.

Section Map.
Variables (k : corners) (w h : Q) (c : perspective Q).
Let X (i : point) := inject_Z (px i).
Let Y (i : point) := inject_Z (py i).
Let a0 := inject_Z (t0 k).
Let a1 := inject_Z (t1 k).
Let a2 := inject_Z (t2 k).
Let a3 := inject_Z (t3 k).
Hypothesis Hw : 0 < w.
Hypothesis Hh : 0 < h.
Hypothesis Hc : coefs k w h c.
Hypothesis A0 : 0 < a0.
Hypothesis A1 : 0 < a1.
Hypothesis A2 : 0 < a2.
Hypothesis A3 : 0 < a3.

Lemma a_sum : a2 == a1 + a3 - a0.
Proof. unfold a0, a1, a2, a3. qz. ring. Qed.

Lemma a_x : a2 * X (k2 k) == a1 * X (k1 k) + a3 * X (k3 k) - a0 * X (k0 k).
Proof. unfold a0, a1, a2, a3, X. qz. ring. Qed.

Lemma a_y : a2 * Y (k2 k) == a1 * Y (k1 k) + a3 * Y (k3 k) - a0 * Y (k0 k).
Proof. unfold a0, a1, a2, a3, Y. qz. ring. Qed.

Lemma nz q : 0 < q -> ~ q == 0.
Proof. intros P Z. rewrite Z in P. exact (Qlt_irrefl _ P). Qed.

Lemma den_bilinear u v :
  den c u v == ((w - u) * (h - v) * a0 + u * (h - v) * a1 + u * v * a2 + (w - u) * v * a3) / (w * h * a0).
Proof.
  destruct Hc as (_ & _ & _ & _ & _ & _ & E6 & E7). unfold den. rewrite E6, E7, a_sum. fold a0 a1 a3.
  pose proof (nz w Hw). pose proof (nz h Hh). pose proof (nz a0 A0). field. tauto.
Qed.

Lemma num_bilinear_x u v : c0 c * u + c1 c * v + c2 c ==
  ((w - u) * (h - v) * (a0 * X (k0 k)) + u * (h - v) * (a1 * X (k1 k)) + u * v * (a2 * X (k2 k)) + (w - u) * v * (a3 * X (k3 k))) / (w * h * a0).
Proof.
  destruct Hc as (E0 & E1 & E2 & _). rewrite E0, E1, E2, a_x. fold a0 a1 a3. fold (X (k0 k)). fold (X (k1 k)). fold (X (k3 k)).
  pose proof (nz w Hw). pose proof (nz h Hh). pose proof (nz a0 A0). field. tauto.
Qed.

Lemma num_bilinear_y u v : c3 c * u + c4 c * v + c5 c ==
  ((w - u) * (h - v) * (a0 * Y (k0 k)) + u * (h - v) * (a1 * Y (k1 k)) + u * v * (a2 * Y (k2 k)) + (w - u) * v * (a3 * Y (k3 k))) / (w * h * a0).
Proof.
  destruct Hc as (_ & _ & _ & E0 & E1 & E2 & _). rewrite E0, E1, E2, a_y. fold a0 a1 a3. fold (Y (k0 k)). fold (Y (k1 k)). fold (Y (k3 k)).
  pose proof (nz w Hw). pose proof (nz h Hh). pose proof (nz a0 A0). field. tauto.
Qed.

Lemma den_pos u v : 0 <= u <= w -> 0 <= v <= h -> 0 < den c u v.
Proof.
  intros Hu Hv. rewrite den_bilinear. apply Qlt_shift_div_l.
  - apply Qmult_lt_0_compat; [apply Qmult_lt_0_compat|]; assumption.
  - rewrite Qmult_0_l.
    assert (P : forall a b, 0 <= a -> 0 <= b -> 0 <= a * b) by (intros; apply Qmult_le_0_compat; assumption).
    assert (0 <= (w - u) * (h - v)) by (apply P; lra). assert (0 <= u * (h - v)) by (apply P; lra).
    assert (0 <= u * v) by (apply P; lra). assert (0 <= (w - u) * v) by (apply P; lra).
    assert (S : (w - u) * (h - v) + u * (h - v) + u * v + (w - u) * v == w * h) by ring.
    assert (0 < w * h) by (apply Qmult_lt_0_compat; assumption).
    set (p := (w - u) * (h - v)) in *. set (q := u * (h - v)) in *. set (r := u * v) in *. set (s := (w - u) * v) in *.
    clearbody p q r s.
    assert (M : exists m, 0 < m /\ m <= a0 /\ m <= a1 /\ m <= a2 /\ m <= a3).
    { destruct (Qlt_le_dec a0 a1), (Qlt_le_dec a0 a2), (Qlt_le_dec a0 a3), (Qlt_le_dec a1 a2), (Qlt_le_dec a1 a3), (Qlt_le_dec a2 a3);
        first [exists a0; repeat split; lra | exists a1; repeat split; lra | exists a2; repeat split; lra | exists a3; repeat split; lra]. }
    destruct M as (m & M0 & M1 & M2 & M3 & M4).
    assert (L : forall t a, 0 <= t -> m <= a -> t * m <= t * a) by (intros t a T Ta; rewrite (Qmult_comm t m), (Qmult_comm t a); apply Qmult_le_compat_r; assumption).
    pose proof (L p a0 ltac:(assumption) M1). pose proof (L q a1 ltac:(assumption) M2). pose proof (L r a2 ltac:(assumption) M3). pose proof (L s a3 ltac:(assumption) M4).
    assert (0 < w * h * m) by (apply Qmult_lt_0_compat; assumption).
    assert (w * h * m == p * m + q * m + r * m + s * m) by (rewrite <- S; ring). lra.
Qed.

(** The four corners. *)
Lemma maps_corners :
  Qeq2 (persp_apply (N := QNum) c 0 0) (X (k0 k), Y (k0 k)) /\ Qeq2 (persp_apply (N := QNum) c w 0) (X (k1 k), Y (k1 k))
  /\ Qeq2 (persp_apply (N := QNum) c w h) (X (k2 k), Y (k2 k)) /\ Qeq2 (persp_apply (N := QNum) c 0 h) (X (k3 k), Y (k3 k)).
Proof.
  pose proof (nz w Hw). pose proof (nz h Hh). pose proof (nz a0 A0). pose proof (nz a1 A1). pose proof (nz a2 A2). pose proof (nz a3 A3).
  rewrite !apply_den. unfold Qeq2. cbn [fst snd]. rewrite !den_bilinear, !num_bilinear_x, !num_bilinear_y.
  clearbody a0 a1 a2 a3.
  assert (R : forall a b d x, ~ a == 0 -> ~ d == 0 -> b == a * x -> b / d / (a / d) == x) by (intros a b d x Ha Hd ->; field; tauto).
  assert (D : ~ w * h * a0 == 0) by (intros Z; apply Qmult_integral in Z; destruct Z as [Z|Z]; [apply Qmult_integral in Z|]; tauto).
  assert (N : forall p q r z, ~ p == 0 -> ~ q == 0 -> ~ r == 0 -> z == p * q * r -> ~ z == 0).
  { intros p q r z P0 Q0 R0 -> Z. apply Qmult_integral in Z; destruct Z as [Z|Z]; [apply Qmult_integral in Z|]; tauto. }
  repeat split; apply R; try assumption; try ring.
  all: first [apply (N w h a0); try assumption; ring | apply (N w h a1); try assumption; ring
             | apply (N w h a2); try assumption; ring | apply (N w h a3); try assumption; ring].
Qed.

Lemma det_value : det c == a1 * a2 * a3 / (w * h * a0 * a0).
Proof.
  assert (T2 : a2 == (X (k1 k) - X (k0 k)) * (Y (k3 k) - Y (k0 k)) - (Y (k1 k) - Y (k0 k)) * (X (k3 k) - X (k0 k))) by (unfold a2, X, Y; qz; ring).
  destruct Hc as (E0 & E1 & E2 & E3 & E4 & E5 & E6 & E7). unfold det. rewrite E0, E1, E2, E3, E4, E5, E6, E7, T2.
  fold a0 a1 a3. fold (X (k0 k)). fold (X (k1 k)). fold (X (k3 k)). fold (Y (k0 k)). fold (Y (k1 k)). fold (Y (k3 k)).
  pose proof (nz w Hw). pose proof (nz h Hh). pose proof (nz a0 A0). field. tauto.
Qed.

Lemma det_pos : 0 < det c.
Proof.
  rewrite det_value. apply Qlt_shift_div_l; rewrite ?Qmult_0_l; repeat apply Qmult_lt_0_compat; assumption.
Qed.

(** At the corners the inverse has a positive denominator. *)
Lemma at_corner u v x y : 0 <= u <= w -> 0 <= v <= h ->
  Qeq2 (persp_apply (N := QNum) c u v) (x, y) -> 0 < den' c x y /\ num_u c x y == u * den' c x y /\ num_v c x y == v * den' c x y.
Proof.
  intros Hu Hv [E1 E2]. rewrite apply_den in E1, E2. cbn [fst snd] in E1, E2. pose proof (den_pos u v Hu Hv) as D. pose proof det_pos as M.
  pose proof (nz _ D) as D0.
  assert (Dn : den' c x y == det c / den c u v).
  { unfold den'. rewrite <- E1, <- E2. unfold det. unfold den in *. field. assumption. }
  split; [|split].
  - rewrite Dn. apply Qlt_shift_div_l; rewrite ?Qmult_0_l; assumption.
  - rewrite Dn. unfold num_u. rewrite <- E1, <- E2. unfold det. unfold den in *. field. assumption.
  - rewrite Dn. unfold num_v. rewrite <- E1, <- E2. unfold det. unfold den in *. field. assumption.
Qed.

Lemma hull_inverse p :
  in_hull (px p) (py p) (px (k0 k)) (py (k0 k)) (px (k1 k)) (py (k1 k)) (px (k2 k)) (py (k2 k)) (px (k3 k)) (py (k3 k)) ->
  let uv := persp_unmap (N := QNum) c p in
  0 <= fst uv <= w /\ 0 <= snd uv <= h /\ Qeq2 (persp_apply (N := QNum) c (fst uv) (snd uv)) (inject_Z (px p), inject_Z (py p)).
Proof.
  intros (s & t & u & v & S0 & T0 & U0 & V0 & Sum & Ex & Ey). cbv zeta. rewrite unmap_den. cbn [fst snd].
  set (x := inject_Z (px p)) in *. set (y := inject_Z (py p)) in *.
  fold (X (k0 k)) in Ex. fold (X (k1 k)) in Ex. fold (X (k2 k)) in Ex. fold (X (k3 k)) in Ex.
  fold (Y (k0 k)) in Ey. fold (Y (k1 k)) in Ey. fold (Y (k2 k)) in Ey. fold (Y (k3 k)) in Ey.
  destruct maps_corners as (M0 & M1 & M2 & M3).
  apply at_corner in M0 as (D0 & U_0 & V_0); [|lra|lra]. apply at_corner in M1 as (D1 & U_1 & V_1); [|lra|lra].
  apply at_corner in M2 as (D2 & U_2 & V_2); [|lra|lra]. apply at_corner in M3 as (D3 & U_3 & V_3); [|lra|lra].
  set (d0 := den' c (X (k0 k)) (Y (k0 k))) in *. set (d1 := den' c (X (k1 k)) (Y (k1 k))) in *.
  set (d2 := den' c (X (k2 k)) (Y (k2 k))) in *. set (d3 := den' c (X (k3 k)) (Y (k3 k))) in *.
  assert (Sv : s == 1 - t - u - v) by lra.
  assert (Dd : den' c x y == s * d0 + t * d1 + u * d2 + v * d3).
  { unfold d0, d1, d2, d3, den'. rewrite Ex, Ey, Sv. ring. }
  assert (Du : num_u c x y == t * (w * d1) + u * (w * d2)).
  { transitivity (s * num_u c (X (k0 k)) (Y (k0 k)) + t * num_u c (X (k1 k)) (Y (k1 k)) + u * num_u c (X (k2 k)) (Y (k2 k)) + v * num_u c (X (k3 k)) (Y (k3 k))).
    - unfold num_u. rewrite Ex, Ey, Sv. ring.
    - rewrite U_0, U_1, U_2, U_3. ring. }
  assert (Dv : num_v c x y == u * (h * d2) + v * (h * d3)).
  { transitivity (s * num_v c (X (k0 k)) (Y (k0 k)) + t * num_v c (X (k1 k)) (Y (k1 k)) + u * num_v c (X (k2 k)) (Y (k2 k)) + v * num_v c (X (k3 k)) (Y (k3 k))).
    - unfold num_v. rewrite Ex, Ey, Sv. ring.
    - rewrite V_0, V_1, V_2, V_3. ring. }
  clearbody d0 d1 d2 d3.
  assert (P : forall a b, 0 <= a -> 0 <= b -> 0 <= a * b) by (intros; apply Qmult_le_0_compat; assumption).
  assert (Ps : 0 <= s * d0) by (apply P; lra). assert (Pt : 0 <= t * d1) by (apply P; lra).
  assert (Pu : 0 <= u * d2) by (apply P; lra). assert (Pv : 0 <= v * d3) by (apply P; lra).
  assert (Pos : 0 < den' c x y).
  { rewrite Dd.
    assert (Z : forall a d, 0 <= a -> 0 < d -> a * d == 0 -> a == 0).
    { intros a d _ Dp E. apply Qmult_integral in E. destruct E as [E|E]; [assumption|]. rewrite E in Dp. elim (Qlt_irrefl _ Dp). }
    destruct (Qlt_le_dec 0 (s * d0 + t * d1 + u * d2 + v * d3)) as [L|L]; [assumption|exfalso].
    pose proof (Z s d0 S0 D0 ltac:(lra)). pose proof (Z t d1 T0 D1 ltac:(lra)). pose proof (Z u d2 U0 D2 ltac:(lra)). pose proof (Z v d3 V0 D3 ltac:(lra)). lra. }
  split; [|split].
  - split.
    + apply Qle_shift_div_l; [assumption|]. rewrite Qmult_0_l, Du.
      setoid_replace (t * (w * d1) + u * (w * d2)) with (w * (t * d1 + u * d2)) by ring. apply P; lra.
    + apply Qle_shift_div_r; [assumption|]. rewrite Du, Dd.
      setoid_replace (t * (w * d1) + u * (w * d2)) with (w * (t * d1 + u * d2)) by ring.
      rewrite !(Qmult_comm w). apply Qmult_le_compat_r; lra.
  - split.
    + apply Qle_shift_div_l; [assumption|]. rewrite Qmult_0_l, Dv.
      setoid_replace (u * (h * d2) + v * (h * d3)) with (h * (u * d2 + v * d3)) by ring. apply P; lra.
    + apply Qle_shift_div_r; [assumption|]. rewrite Dv, Dd.
      setoid_replace (u * (h * d2) + v * (h * d3)) with (h * (u * d2 + v * d3)) by ring.
      rewrite !(Qmult_comm h). apply Qmult_le_compat_r; lra.
  - rewrite apply_den. destruct (apply_unmap c x y (nz _ Pos) (nz _ det_pos)) as (R1 & R2 & _). split; assumption.
Qed.
End Map.

(** C38. *)
Theorem perspective_exact k w h :
  1 <= w -> 1 <= h ->
  strictly_convex (px (k0 k)) (py (k0 k)) (px (k1 k)) (py (k1 k)) (px (k2 k)) (py (k2 k)) (px (k3 k)) (py (k3 k)) ->
  exists c, persp_create (N := QNum) k w h = Some c
    /\ Qeq2 (persp_apply (N := QNum) c 0 0) (inject_Z (px (k0 k)), inject_Z (py (k0 k)))
    /\ Qeq2 (persp_apply (N := QNum) c w 0) (inject_Z (px (k1 k)), inject_Z (py (k1 k)))
    /\ Qeq2 (persp_apply (N := QNum) c w h) (inject_Z (px (k2 k)), inject_Z (py (k2 k)))
    /\ Qeq2 (persp_apply (N := QNum) c 0 h) (inject_Z (px (k3 k)), inject_Z (py (k3 k)))
    /\ (forall u v p, 0 <= u <= w -> 0 <= v <= h ->
          Qeq2 (persp_apply (N := QNum) c u v) (inject_Z (px p), inject_Z (py p)) -> Qeq2 (persp_unmap (N := QNum) c p) (u, v))
    /\ (forall p, in_hull (px p) (py p) (px (k0 k)) (py (k0 k)) (px (k1 k)) (py (k1 k)) (px (k2 k)) (py (k2 k)) (px (k3 k)) (py (k3 k)) ->
          let uv := persp_unmap (N := QNum) c p in
          0 <= fst uv <= w /\ 0 <= snd uv <= h /\ Qeq2 (persp_apply (N := QNum) c (fst uv) (snd uv)) (inject_Z (px p), inject_Z (py p))).
Proof.
  intros Hw Hh (S0 & S1 & S2 & S3).
  assert (Hw0 : 0 < w) by lra. assert (Hh0 : 0 < h) by lra.
  change (0 < t0 k)%Z in S0. change (0 < t1 k)%Z in S1. change (0 < t2 k)%Z in S2. change (0 < t3 k)%Z in S3.
  assert (B : forall q, 1 <= q -> (1 # 4503599627370496) <= q * inject_Z (t0 k)).
  { intros q Hq. apply Qle_trans with (1 * 1); [discriminate|].
    assert (1 <= inject_Z (t0 k)) by (change 1 with (inject_Z 1); rewrite <- Zle_Qle; lia). nra. }
  destruct (create_exact k w h Hw0 Hh0 S0 (B w Hw) (B h Hh)) as (c & E & C). exists c. split; [exact E|].
  assert (Zp : forall z, (0 < z)%Z -> 0 < inject_Z z) by (intros z Hz; change 0 with (inject_Z 0); rewrite <- Zlt_Qlt; assumption).
  apply Zp in S0, S1, S2, S3.
  destruct (maps_corners k w h c Hw0 Hh0 C S0 S1 S2 S3) as (M0 & M1 & M2 & M3).
  split; [exact M0|]. split; [exact M1|]. split; [exact M2|]. split; [exact M3|]. split.
  - intros u v p Hu Hv [E1 E2]. rewrite apply_den in E1, E2. cbn [fst snd] in E1, E2. rewrite unmap_den.
    apply unmap_apply; try (symmetry; assumption).
    + apply nz, (den_pos k w h c Hw0 Hh0 C); assumption.
    + apply nz, (det_pos k w h c Hw0 Hh0 C); assumption.
  - intros p Hp. apply (hull_inverse k w h c Hw0 Hh0 C); assumption.
Qed.

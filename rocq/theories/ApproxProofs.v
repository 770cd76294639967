(** Error bounds for binary64 expressions, and the transforms of squares: [Perspective::create],
    [map] and [unmap] for four corners that form a square with sides along the axes. *)
From Coq Require Import Reals Lra SpecFloat.
From Flocq Require Import Core IEEE754.BinarySingleNaN.
From Verif Require Import Base Lib ModelImage ModelGeometry ModelDetect SpecImage FloodProofs RegionProofs CornerProofs SearchProofs FloatProofs CenterProofs.
Open Scope R_scope.
Set Bullet Behavior "Strict Subproofs".

(** * Numbers close to a real number *)

Definition near (f : spec_float) (x e : R) : Prop := exists r, rep f r /\ Rabs (r - x) <= e.

Lemma near_rep f x : rep f x -> near f x 0.
Proof. intros H. exists x. split; [exact H|]. rewrite Rminus_diag_eq, Rabs_R0 by reflexivity. lra. Qed.

Lemma near_weaken f x e e' : near f x e -> e <= e' -> near f x e'.
Proof. intros (r & R & H) L. exists r. split; [exact R|lra]. Qed.

Lemma near_eq f x y e : near f x e -> x = y -> near f y e.
Proof. intros H <-. exact H. Qed.

Lemma rnd_rel x B : 0 <= B -> Rabs x <= B -> Rabs (rnd x - x) <= (B + 1) / 1000000000000000.
Proof.
  intros B0 H. eapply Rle_trans; [apply rnd_error|].
  assert (A : bpow radix2 (-53) <= / 9007199254740992) by (cbn; lra).
  assert (C : bpow radix2 (-1074) <= / 10000000000000000) by (eapply Rle_trans; [apply bpow_le with (e2 := (-54)%Z); lia|cbn; lra]).
  assert (D : bpow radix2 (-53) * Rabs x <= / 9007199254740992 * B).
  { apply Rmult_le_compat; [apply bpow_ge_0|apply Rabs_pos|assumption|assumption]. }
  lra.
Qed.

Lemma not_huge x B : Rabs x <= B -> B <= 1000000000000000000 -> Rabs x <= bpow radix2 1000.
Proof.
  intros H1 H2. apply Rle_trans with (bpow radix2 70); [|apply bpow_le; lia].
  change (bpow radix2 70) with (IZR (2 ^ 70)). eapply Rle_trans; [exact H1|]. eapply Rle_trans; [exact H2|]. apply IZR_le. lia.
Qed.

Lemma near_add f g x y ex ey B e : near f x ex -> near g y ey ->
  Rabs (x + y) + ex + ey <= B -> B <= 1000000000000000000 ->
  ex + ey + (B + 1) / 1000000000000000 <= e -> near (n_add (Num := F64) f g) (x + y) e.
Proof.
  intros (a & Ra & Ha) (b & Rb & Hb) HB Hh He.
  assert (S : Rabs (a + b) <= B).
  { replace (a + b) with ((x + y) + ((a - x) + (b - y))) by ring.
    eapply Rle_trans; [apply Rabs_triang|]. pose proof (Rabs_triang (a - x) (b - y)). lra. }
  exists (rnd (a + b)). split; [apply rep_add; [assumption|assumption|]; apply not_huge with B; assumption|].
  pose proof (rnd_rel (a + b) B ltac:(pose proof (Rabs_pos (a + b)); lra) S) as E.
  apply Rabs_le_inv in E, Ha, Hb. apply Rabs_le'; lra.
Qed.

Lemma near_sub f g x y ex ey B e : near f x ex -> near g y ey ->
  Rabs (x - y) + ex + ey <= B -> B <= 1000000000000000000 ->
  ex + ey + (B + 1) / 1000000000000000 <= e -> near (n_sub (Num := F64) f g) (x - y) e.
Proof.
  intros (a & Ra & Ha) (b & Rb & Hb) HB Hh He.
  assert (S : Rabs (a - b) <= B).
  { replace (a - b) with ((x - y) + ((a - x) + - (b - y))) by ring.
    eapply Rle_trans; [apply Rabs_triang|]. pose proof (Rabs_triang (a - x) (- (b - y))). rewrite Rabs_Ropp in H. lra. }
  exists (rnd (a - b)). split; [apply rep_sub; [assumption|assumption|]; apply not_huge with B; assumption|].
  pose proof (rnd_rel (a - b) B ltac:(pose proof (Rabs_pos (a - b)); lra) S) as E.
  apply Rabs_le_inv in E, Ha, Hb. apply Rabs_le'; lra.
Qed.

Lemma mul_close a b x y ex ey X Y : Rabs (a - x) <= ex -> Rabs (b - y) <= ey -> Rabs x <= X -> Rabs y <= Y ->
  Rabs (a * b - x * y) <= ex * (Y + ey) + ey * X.
Proof.
  intros Ha Hb HX HY. replace (a * b - x * y) with ((a - x) * b + x * (b - y)) by ring.
  eapply Rle_trans; [apply Rabs_triang|]. rewrite !Rabs_mult.
  assert (Hbb : Rabs b <= Y + ey).
  { replace b with (y + (b - y)) by ring. eapply Rle_trans; [apply Rabs_triang|]. lra. }
  apply Rplus_le_compat.
  - apply Rmult_le_compat; [apply Rabs_pos|apply Rabs_pos|assumption|assumption].
  - rewrite Rmult_comm. apply Rmult_le_compat; [apply Rabs_pos|apply Rabs_pos|assumption|assumption].
Qed.

Lemma near_mul f g x y ex ey X Y e : near f x ex -> near g y ey ->
  Rabs x <= X -> Rabs y <= Y -> ex <= X -> ey <= Y -> 4 * (X * Y) <= 1000000000000000000 ->
  2 * (ex * Y) + ey * X + (4 * (X * Y) + 1) / 1000000000000000 <= e -> near (n_mul (Num := F64) f g) (x * y) e.
Proof.
  intros (a & Ra & Ha) (b & Rb & Hb) HX HY Hex Hey Hh He.
  assert (X0 : 0 <= X) by (pose proof (Rabs_pos x); lra). assert (Y0 : 0 <= Y) by (pose proof (Rabs_pos y); lra).
  assert (ex0 : 0 <= ex) by (pose proof (Rabs_pos (a - x)); lra). assert (ey0 : 0 <= ey) by (pose proof (Rabs_pos (b - y)); lra).
  assert (Aa : Rabs a <= 2 * X).
  { replace a with (x + (a - x)) by ring. eapply Rle_trans; [apply Rabs_triang|]. lra. }
  assert (Bb : Rabs b <= 2 * Y).
  { replace b with (y + (b - y)) by ring. eapply Rle_trans; [apply Rabs_triang|]. lra. }
  assert (S : Rabs (a * b) <= 4 * (X * Y)).
  { rewrite Rabs_mult. replace (4 * (X * Y)) with ((2 * X) * (2 * Y)) by ring.
    apply Rmult_le_compat; [apply Rabs_pos|apply Rabs_pos|assumption|assumption]. }
  exists (rnd (a * b)). split; [apply rep_mul; [assumption|assumption|]; apply not_huge with (4 * (X * Y)); assumption|].
  pose proof (rnd_rel (a * b) (4 * (X * Y)) ltac:(pose proof (Rabs_pos (a * b)); lra) S) as E.
  pose proof (mul_close a b x y ex ey X Y Ha Hb HX HY) as M.
  assert (ex * (Y + ey) <= 2 * (ex * Y)) by nra.
  replace (rnd (a * b) - x * y) with ((rnd (a * b) - a * b) + (a * b - x * y)) by ring.
  eapply Rle_trans; [apply Rabs_triang|]. lra.
Qed.

Lemma near_div f g x y ex ey Q Y e1 e : near f x ex -> near g y ey -> Rabs (x / y) <= Q ->
  0 < Y -> Y <= Rabs y -> 2 * ey <= Y -> 2 * (ex + Q * ey) <= e1 * Y -> Q + e1 <= 1000000000000000000 ->
  e1 + (Q + e1 + 1) / 1000000000000000 <= e -> near (n_div (Num := F64) f g) (x / y) e.
Proof.
  intros (a & Ra & Ha) (b & Rb & Hb) HQ Y0 HY Hey He1 Hh He.
  assert (y0 : y <> 0) by (intros ->; rewrite Rabs_R0 in HY; lra).
  assert (Bb : Y / 2 <= Rabs b).
  { assert (Rabs y <= Rabs b + ey) by (replace y with (b + - (b - y)) by ring; eapply Rle_trans; [apply Rabs_triang|]; rewrite Rabs_Ropp; lra). lra. }
  assert (b0 : b <> 0) by (intros ->; rewrite Rabs_R0 in Bb; lra).
  assert (D : Rabs (a / b - x / y) <= e1).
  { replace (a / b - x / y) with (((a - x) + - (x / y) * (b - y)) / b) by (field; split; assumption).
    unfold Rdiv at 1. rewrite Rabs_mult, Rabs_inv.
    apply Rmult_le_reg_r with (Rabs b); [lra|]. rewrite Rmult_assoc, Rinv_l, Rmult_1_r by (pose proof (Rabs_no_R0 b b0); assumption).
    eapply Rle_trans; [apply Rabs_triang|]. rewrite Rabs_mult, Rabs_Ropp.
    assert (Rabs (x / y) * Rabs (b - y) <= Q * ey) by (apply Rmult_le_compat; [apply Rabs_pos|apply Rabs_pos|assumption|assumption]).
    assert (0 <= e1).
    { assert (0 <= 2 * (ex + Q * ey)).
      { pose proof (Rabs_pos (a - x)). pose proof (Rabs_pos (x / y)). pose proof (Rabs_pos (b - y)).
        assert (0 <= Q * ey) by (apply Rmult_le_pos; lra). lra. }
      destruct (Rle_lt_dec 0 e1) as [L|L]; [exact L|]. exfalso. assert (e1 * Y < 0) by (clear - L Y0; nra). lra. }
    assert (e1 * (Y / 2) <= e1 * Rabs b) by (apply Rmult_le_compat_l; assumption).
    lra. }
  assert (S : Rabs (a / b) <= Q + e1).
  { replace (a / b) with (x / y + (a / b - x / y)) by ring. eapply Rle_trans; [apply Rabs_triang|]. lra. }
  exists (rnd (a / b)). split; [apply rep_div; [assumption|assumption|assumption|]; apply not_huge with (Q + e1); assumption|].
  pose proof (rnd_rel (a / b) (Q + e1) ltac:(pose proof (Rabs_pos (a / b)); lra) S) as E.
  replace (rnd (a / b) - x / y) with ((rnd (a / b) - a / b) + (a / b - x / y)) by ring.
  eapply Rle_trans; [apply Rabs_triang|]. lra.
Qed.

Lemma near_opp f x e : near f x e -> near (n_opp (Num := F64) f) (- x) e.
Proof.
  intros (a & Ra & Ha). exists (- a). split; [apply rep_opp; assumption|].
  replace (- a - - x) with (- (a - x)) by ring. rewrite Rabs_Ropp. assumption.
Qed.

Lemma rep_abs f x : rep f x -> rep (SFabs f) (Rabs x).
Proof.
  intros (b & -> & Fb & <-). destruct b as [s|s| |s m e p]; try discriminate.
  - exists (B754_zero false). split; [reflexivity|]. split; [reflexivity|]. cbn. rewrite Rabs_R0. reflexivity.
  - exists (B754_finite false m e p). split; [reflexivity|]. split; [reflexivity|]. cbn. rewrite <- F2R_Zabs. cbn. destruct s; reflexivity.
Qed.

Lemma near_abs f x e : near f x e -> near (n_abs (Num := F64) f) (Rabs x) e.
Proof.
  intros (a & Ra & Ha). exists (Rabs a). split; [apply rep_abs; assumption|].
  eapply Rle_trans; [apply Rabs_triang_inv2|assumption].
Qed.

Lemma near_ltb f g x y ex ey : near f x ex -> near g y ey -> x + ex < y - ey -> n_ltb (N := F64) f g = true.
Proof.
  intros (a & Ra & Ha) (b & Rb & Hb) H. unfold n_ltb. cbn [n_compare F64]. rewrite (rep_compare _ _ _ _ Ra Rb).
  apply Rabs_le_inv in Ha, Hb. rewrite Rcompare_Lt by lra. reflexivity.
Qed.

Lemma near_nltb f g x y ex ey : near f x ex -> near g y ey -> y + ey <= x - ex -> n_ltb (N := F64) f g = false.
Proof.
  intros (a & Ra & Ha) (b & Rb & Hb) H. unfold n_ltb. cbn [n_compare F64]. rewrite (rep_compare _ _ _ _ Ra Rb).
  apply Rabs_le_inv in Ha, Hb. destruct (Rcompare_spec a b); [lra|reflexivity|reflexivity].
Qed.

(** Small integers and decimal literals. *)
Lemma near_of z : (Z.abs z <= 2 ^ 53)%Z -> near (n_of (N := F64) z) (IZR z) 0.
Proof. intros H. apply near_rep. apply (irep_div1 z (2 ^ 53)); [assumption|lia]. Qed.

Lemma near_ratio p q : (0 <= p <= 1000)%Z -> (1 <= q <= 1000)%Z ->
  near (n_ratio (Num := F64) p q) (IZR p / IZR q) (1 / 900000000000).
Proof.
  intros Hp Hq. cbn [n_ratio F64].
  assert (Qp : 1 <= IZR q) by (apply IZR_le; lia). assert (Pp : 0 <= IZR p) by (apply IZR_le; lia).
  assert (P2 : IZR p <= 1000) by (apply IZR_le; lia).
  assert (B : Rabs (IZR p / IZR q) <= 1000).
  { unfold Rdiv. rewrite Rabs_mult, Rabs_inv, !Rabs_pos_eq by lra.
    apply Rmult_le_reg_r with (IZR q); [lra|]. rewrite Rmult_assoc, Rinv_l, Rmult_1_r by lra. nra. }
  exists (rnd (IZR p / IZR q)). split.
  - apply rep_div; [apply (irep_of p 1000); lia|apply (irep_of q 1000); lia|lra|]. apply not_huge with 1000; [assumption|lra].
  - eapply Rle_trans; [apply rnd_rel with (B := 1000); [lra|assumption]|]. lra.
Qed.

Lemma rep_zero_mul f g x : rep f x -> rep g 0 -> rep (n_mul (Num := F64) f g) 0.
Proof.
  intros Hf Hg. cbn [n_mul F64]. replace 0 with (rnd (x * 0)).
  - apply rep_mul; [assumption|assumption|]. rewrite Rmult_0_r, Rabs_R0. apply bpow_ge_0.
  - rewrite Rmult_0_r. apply round_0, valid_rnd_N.
Qed.

Lemma rep_mul_zero f g x : rep f 0 -> rep g x -> rep (n_mul (Num := F64) f g) 0.
Proof.
  intros Hf Hg. cbn [n_mul F64]. replace 0 with (rnd (0 * x)).
  - apply rep_mul; [assumption|assumption|]. rewrite Rmult_0_l, Rabs_R0. apply bpow_ge_0.
  - rewrite Rmult_0_l. apply round_0, valid_rnd_N.
Qed.

Lemma rep_zero_add f g : rep f 0 -> rep g 0 -> rep (n_add (Num := F64) f g) 0.
Proof.
  intros Hf Hg. cbn [n_add F64]. replace 0 with (rnd (0 + 0)) at 1.
  - apply rep_add; [assumption|assumption|]. rewrite Rplus_0_r, Rabs_R0. apply bpow_ge_0.
  - rewrite Rplus_0_r. apply round_0, valid_rnd_N.
Qed.

Lemma rep_zero_sub f g : rep f 0 -> rep g 0 -> rep (n_sub (Num := F64) f g) 0.
Proof.
  intros Hf Hg. cbn [n_sub F64]. replace 0 with (rnd (0 - 0)) at 1.
  - apply rep_sub; [assumption|assumption|]. rewrite Rminus_0_r, Rabs_R0. apply bpow_ge_0.
  - rewrite Rminus_0_r. apply round_0, valid_rnd_N.
Qed.

(** Rounding to an integer. *)
Lemma near_i32 f x e : near f x e -> e <= 1 / 4 -> Rabs x <= 1000000000 ->
  exists z, to_i32 (N := F64) f = Ok z /\ Rabs (IZR z - x) <= / 2 + e.
Proof.
  intros (a & Ra & Ha) He Hx.
  assert (B : Rabs a <= IZR 1000000001).
  { replace a with (x + (a - x)) by ring. eapply Rle_trans; [apply Rabs_triang|]. lra. }
  destruct (rep_round f a 1000000001 Ra B ltac:(lia)) as (z & Ez & Hz).
  exists z. unfold to_i32. cbn [n_round F64]. rewrite Ez. split.
  - destruct (Z.leb_spec z i32_max); destruct (Z.leb_spec i32_min z); unfold i32_max, i32_min in *; cbn [andb]; try reflexivity; lia.
  - pose proof (round_half f a z Ra Ez) as Hh. replace (IZR z - x) with ((IZR z - a) + (a - x)) by ring.
    eapply Rle_trans; [apply Rabs_triang|]. lra.
Qed.

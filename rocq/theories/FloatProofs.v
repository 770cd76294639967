(** The IEEE binary64 operations of [ModelGeometry.F64] as rounded operations on
    the real numbers, through Flocq. *)
From Verif Require Import Base Lib ModelImage ModelGeometry.
From Coq Require Import Reals Lra SpecFloat.
From Flocq Require Import Core BinarySingleNaN Relative.
Open Scope Z_scope.
Set Bullet Behavior "Strict Subproofs".

#[local] Instance Hprec : FLX.Prec_gt_0 f_prec := eq_refl _.
#[local] Instance Hmax : Prec_lt_emax f_prec f_emax := eq_refl _.

Notation float64 := (binary_float f_prec f_emax).

(** * The operations on [spec_float] are those of Flocq *)

Lemma round_even_equiv s m l : round_nearest_even m l = choice_mode mode_NE s m l.
Proof. case l; [reflexivity|intro c]. case c; [|reflexivity..]. now simpl; unfold Round.cond_incr; case Z.even. Qed.

Lemma round_aux_equiv sx mx ex lx :
  SpecFloat.binary_round_aux f_prec f_emax sx mx ex lx = binary_round_aux f_prec f_emax mode_NE sx mx ex lx.
Proof.
  unfold SpecFloat.binary_round_aux, binary_round_aux. set (mrse' := shr_fexp _ _ _ _ _).
  case mrse'; intros mrs' e'; simpl. now rewrite (round_even_equiv sx).
Qed.

Lemma round_equiv s m e : SpecFloat.binary_round f_prec f_emax s m e = binary_round f_prec f_emax mode_NE s m e.
Proof.
  unfold SpecFloat.binary_round, binary_round, shl_align_fexp. set (mez := shl_align _ _ _); case mez as [mz ez].
  apply round_aux_equiv.
Qed.

Lemma normalize_equiv m e sz :
  SpecFloat.binary_normalize f_prec f_emax m e sz = B2SF (binary_normalize f_prec f_emax Hprec Hmax mode_NE m e sz).
Proof.
  case m as [|p|p]; [now simpl|simpl; rewrite B2SF_SF2B; apply round_equiv..].
Qed.

Lemma mul_equiv (x y : float64) : SFmul f_prec f_emax (B2SF x) (B2SF y) = B2SF (Bmult mode_NE x y).
Proof.
  case x as [sx|sx| |sx mx ex Bx]; case y as [sy|sy| |sy my ey By]; [now trivial..|].
  simpl. rewrite B2SF_SF2B. apply round_aux_equiv.
Qed.

Lemma add_equiv (x y : float64) : SFadd f_prec f_emax (B2SF x) (B2SF y) = B2SF (Bplus mode_NE x y).
Proof.
  case x as [sx|sx| |sx mx ex Bx]; case y as [sy|sy| |sy my ey By]; [now (trivial || simpl; case Bool.eqb)..|].
  apply normalize_equiv.
Qed.

Lemma sub_equiv (x y : float64) : SFsub f_prec f_emax (B2SF x) (B2SF y) = B2SF (Bminus mode_NE x y).
Proof.
  case x as [sx|sx| |sx mx ex Bx]; case y as [sy|sy| |sy my ey By]; [now (trivial || simpl; case Bool.eqb)..|].
  simpl. unfold Zminus. rewrite <- cond_Zopp_negb. apply normalize_equiv.
Qed.

Lemma div_equiv (x y : float64) : SFdiv f_prec f_emax (B2SF x) (B2SF y) = B2SF (Bdiv mode_NE x y).
Proof.
  case x as [sx|sx| |sx mx ex Bx]; case y as [sy|sy| |sy my ey By]; [now (trivial || simpl; case Bool.eqb)..|].
  simpl. rewrite B2SF_SF2B. set (melz := SFdiv_core_binary _ _ _ _ _ _). case melz as [[mz ez] lz].
  apply round_aux_equiv.
Qed.

(** * Values *)

Local Open Scope R_scope.

(** [f] is a finite number of value [r]. *)
Definition rep (f : spec_float) (r : R) : Prop :=
  exists b : float64, f = B2SF b /\ is_finite b = true /\ B2R b = r.

(** Rounding to binary64. *)
Definition rnd (x : R) : R := round radix2 (FLT_exp (-1074) 53) ZnearestE x.

Lemma rnd_bound x e : (-1074 <= e - 1)%Z -> Rabs x <= bpow radix2 e -> Rabs (rnd x) <= bpow radix2 e.
Proof.
  intros He H. unfold rnd. apply abs_round_le_generic; [now apply FLT_exp_valid|now apply valid_rnd_N| |assumption].
  apply generic_format_bpow. unfold FLT_exp. lia.
Qed.

Lemma rnd_small x : Rabs x <= bpow radix2 1000 -> Rlt_bool (Rabs (rnd x)) (bpow radix2 f_emax) = true.
Proof.
  intros H. apply Rlt_bool_true. eapply Rle_lt_trans; [apply (rnd_bound x 1000); [lia|assumption]|].
  apply bpow_lt. reflexivity.
Qed.

Lemma rep_add f g x y : rep f x -> rep g y -> Rabs (x + y) <= bpow radix2 1000 ->
  rep (SFadd f_prec f_emax f g) (rnd (x + y)).
Proof.
  intros (a & -> & Fa & <-) (b & -> & Fb & <-) H. exists (Bplus mode_NE a b). split; [apply add_equiv|].
  pose proof (Bplus_correct f_prec f_emax Hprec Hmax mode_NE a b Fa Fb) as C.
  change (round radix2 (SpecFloat.fexp f_prec f_emax) (round_mode mode_NE)) with rnd in C.
  rewrite rnd_small in C by assumption. tauto.
Qed.

Lemma rep_sub f g x y : rep f x -> rep g y -> Rabs (x - y) <= bpow radix2 1000 ->
  rep (SFsub f_prec f_emax f g) (rnd (x - y)).
Proof.
  intros (a & -> & Fa & <-) (b & -> & Fb & <-) H. exists (Bminus mode_NE a b). split; [apply sub_equiv|].
  pose proof (Bminus_correct f_prec f_emax Hprec Hmax mode_NE a b Fa Fb) as C.
  change (round radix2 (SpecFloat.fexp f_prec f_emax) (round_mode mode_NE)) with rnd in C.
  rewrite rnd_small in C by assumption. tauto.
Qed.

Lemma rep_mul f g x y : rep f x -> rep g y -> Rabs (x * y) <= bpow radix2 1000 ->
  rep (SFmul f_prec f_emax f g) (rnd (x * y)).
Proof.
  intros (a & -> & Fa & <-) (b & -> & Fb & <-) H. exists (Bmult mode_NE a b). split; [apply mul_equiv|].
  pose proof (Bmult_correct f_prec f_emax Hprec Hmax mode_NE a b) as C.
  change (round radix2 (SpecFloat.fexp f_prec f_emax) (round_mode mode_NE)) with rnd in C.
  rewrite rnd_small in C by assumption. rewrite Fa, Fb in C. tauto.
Qed.

Lemma rep_div f g x y : rep f x -> rep g y -> y <> 0 -> Rabs (x / y) <= bpow radix2 1000 ->
  rep (SFdiv f_prec f_emax f g) (rnd (x / y)).
Proof.
  intros (a & -> & Fa & <-) (b & -> & Fb & <-) Hy H. exists (Bdiv mode_NE a b). split; [apply div_equiv|].
  pose proof (Bdiv_correct f_prec f_emax Hprec Hmax mode_NE a b Hy) as C.
  change (round radix2 (SpecFloat.fexp f_prec f_emax) (round_mode mode_NE)) with rnd in C.
  rewrite rnd_small in C by assumption. rewrite Fa in C. tauto.
Qed.

Lemma rep_opp f x : rep f x -> rep (SFopp f) (- x).
Proof.
  intros (a & -> & Fa & <-). exists (Bopp a). split; [destruct a; reflexivity|].
  rewrite is_finite_Bopp, B2R_Bopp. auto.
Qed.

Lemma rep_compare f g x y : rep f x -> rep g y -> SFcompare f g = Some (Rcompare x y).
Proof.
  intros (a & -> & Fa & <-) (b & -> & Fb & <-). apply (Bcompare_correct f_prec f_emax a b Fa Fb).
Qed.

Lemma rep_unique f x y : rep f x -> rep f y -> x = y.
Proof. intros (a & -> & Fa & <-) (b & E & Fb & <-). apply B2SF_inj in E. subst. reflexivity. Qed.

(** * Integers are exact *)

Lemma rnd_int z : (Z.abs z <= 2 ^ 53)%Z -> rnd (IZR z) = IZR z.
Proof.
  intros H. unfold rnd. apply round_generic; [now apply valid_rnd_N|].
  assert (D : (Z.abs z < 2 ^ 53 \/ Z.abs z = 2 ^ 53)%Z) by lia. destruct D as [D|D].
  - apply generic_format_FLT. exists (Float radix2 z 0); [unfold F2R; cbn [Fnum Fexp bpow]; ring|exact D|cbn; lia].
  - assert (z = 2 ^ 53 \/ z = - 2 ^ 53)%Z by lia. destruct H0 as [-> | -> ].
    + change (IZR (2 ^ 53)) with (bpow radix2 53). apply generic_format_bpow. unfold FLT_exp. lia.
    + replace (IZR (- 2 ^ 53)) with (- bpow radix2 53) by (rewrite <- (IZR_Zpower radix2 53) by lia; rewrite <- opp_IZR; reflexivity).
      apply generic_format_opp, generic_format_bpow. unfold FLT_exp. lia.
Qed.

Lemma int_small z : (Z.abs z <= 2 ^ 53)%Z -> Rabs (IZR z) <= bpow radix2 1000.
Proof.
  intros H. rewrite <- abs_IZR. apply Rle_trans with (bpow radix2 53); [|apply bpow_le; lia].
  change (bpow radix2 53) with (IZR (2 ^ 53)). apply IZR_le. assumption.
Qed.

(** [f] is the integer [z], and [z] is at most [B] in size. *)
Definition irep (f : spec_float) (z B : Z) : Prop := rep f (IZR z) /\ (Z.abs z <= B)%Z.

Lemma irep_of z B : (Z.abs z <= B)%Z -> (B <= 2 ^ 53)%Z -> irep (f64_of_Z z) z B.
Proof.
  intros H HB. split; [|assumption]. unfold f64_of_Z. rewrite normalize_equiv.
  exists (binary_normalize f_prec f_emax Hprec Hmax mode_NE z 0 false). split; [reflexivity|].
  pose proof (binary_normalize_correct f_prec f_emax Hprec Hmax mode_NE z 0 false) as C.
  change (round radix2 (SpecFloat.fexp f_prec f_emax) (round_mode mode_NE)) with rnd in C.
  assert (E : F2R (Float radix2 z 0) = IZR z) by (unfold F2R; cbn [Fnum Fexp bpow]; ring). cbv zeta in C. rewrite E in C.
  rewrite rnd_small, rnd_int in C; [tauto|lia|apply int_small; lia].
Qed.

Lemma irep_div1 z B : (Z.abs z <= B)%Z -> (B <= 2 ^ 53)%Z -> irep (SFdiv f_prec f_emax (f64_of_Z z) (f64_of_Z 1)) z B.
Proof.
  intros H HB. split; [|assumption].
  replace (IZR z) with (rnd (IZR z / IZR 1)) by (unfold Rdiv; rewrite Rinv_1, Rmult_1_r; apply rnd_int; lia).
  apply rep_div; [apply (irep_of z B); assumption|apply (irep_of 1 1); lia|apply R1_neq_R0|].
  unfold Rdiv. rewrite Rinv_1, Rmult_1_r. apply int_small. lia.
Qed.

Lemma irep_add f g a b A B : irep f a A -> irep g b B -> (A + B <= 2 ^ 53)%Z ->
  irep (SFadd f_prec f_emax f g) (a + b) (A + B).
Proof.
  intros [F Ha] [G Hb] H. split; [|lia]. rewrite <- (rnd_int (a + b)) by lia. rewrite plus_IZR.
  apply rep_add; try assumption. rewrite <- plus_IZR. apply int_small. lia.
Qed.

Lemma irep_sub f g a b A B : irep f a A -> irep g b B -> (A + B <= 2 ^ 53)%Z ->
  irep (SFsub f_prec f_emax f g) (a - b) (A + B).
Proof.
  intros [F Ha] [G Hb] H. split; [|lia]. rewrite <- (rnd_int (a - b)) by lia. rewrite minus_IZR.
  apply rep_sub; try assumption. rewrite <- minus_IZR. apply int_small. lia.
Qed.

Lemma irep_mul f g a b A B : irep f a A -> irep g b B -> (A * B <= 2 ^ 53)%Z ->
  irep (SFmul f_prec f_emax f g) (a * b) (A * B).
Proof.
  intros [F Ha] [G Hb] H. assert (Z.abs (a * b) <= A * B)%Z by (rewrite Z.abs_mul; apply Z.mul_le_mono_nonneg; lia).
  split; [|assumption]. rewrite <- (rnd_int (a * b)) by lia. rewrite mult_IZR.
  apply rep_mul; try assumption. rewrite <- mult_IZR. apply int_small. lia.
Qed.

Lemma irep_opp f a A : irep f a A -> irep (SFopp f) (- a) A.
Proof. intros [F Ha]. split; [|lia]. rewrite opp_IZR. apply rep_opp. assumption. Qed.

(** * The rounding error *)


Lemma rnd_error x : Rabs (rnd x - x) <= bpow radix2 (-53) * Rabs x + bpow radix2 (-1074).
Proof.
  destruct (error_N_FLT radix2 (-1074) 53 ltac:(lia) (fun z => negb (Z.even z)) x) as (eps & eta & He & Ht & _ & E).
  unfold rnd. rewrite E. replace (x * (1 + eps) + eta - x) with (x * eps + eta) by ring.
  eapply Rle_trans; [apply Rabs_triang|]. rewrite Rabs_mult. apply Rplus_le_compat.
  - rewrite Rmult_comm. apply Rmult_le_compat_r; [apply Rabs_pos|]. eapply Rle_trans; [exact He|].
    replace (bpow radix2 (-(53) + 1)) with (bpow radix2 (-53) * 2) by (rewrite bpow_plus; reflexivity).
    apply Req_le. field.
  - eapply Rle_trans; [exact Ht|]. pose proof (bpow_gt_0 radix2 (-1074)). lra.
Qed.

(** * Rounding to an integer *)

(** Half away from zero. *)
Lemma rep_round f x B : rep f x -> Rabs x <= IZR B -> (0 <= B)%Z -> exists z, f64_round f = Some z /\ (Z.abs z <= B)%Z.
Proof.
  intros (b & -> & F & <-) H HB. destruct b as [s|s| |s m e Hm]; try discriminate; cbn [B2SF f64_round].
  - exists 0%Z. split; [reflexivity|]. lia.
  - assert (A : F2R (Float radix2 (Z.pos m) e) <= IZR B).
    { cbn [B2R] in H. rewrite <- F2R_Zabs in H. destruct s; exact H. }
    set (a := if (0 <=? e)%Z then (Z.pos m * 2 ^ e)%Z else ((Z.pos m + 2 ^ (- e - 1)) / 2 ^ (- e))%Z).
    assert (0 <= a <= B)%Z.
    { subst a. destruct (Z.leb_spec 0 e).
      - split; [lia|]. apply le_IZR. rewrite mult_IZR, (IZR_Zpower radix2) by lia. exact A.
      - assert (P : (0 < 2 ^ (- e))%Z) by (apply Z.pow_pos_nonneg; lia).
        assert (D : (2 ^ (- e) = 2 * 2 ^ (- e - 1))%Z) by (rewrite <- Z.pow_succ_r by lia; f_equal; lia).
        assert (M : (Z.pos m <= B * 2 ^ (- e))%Z).
        { apply le_IZR. rewrite mult_IZR, (IZR_Zpower radix2) by lia. unfold F2R in A. cbn [Fnum Fexp] in A.
          apply Rmult_le_compat_r with (r := bpow radix2 (- e)) in A; [|apply bpow_ge_0].
          rewrite Rmult_assoc, <- bpow_plus in A. replace (e + - e)%Z with 0%Z in A by lia. rewrite Rmult_1_r in A. exact A. }
        split; [apply Z.div_pos; lia|]. apply Z.lt_succ_r, Z.div_lt_upper_bound; [lia|]. nia. }
    exists (if s then - a else a)%Z. split; [reflexivity|]. destruct s; lia.
Qed.

(** The result is at most a half away. *)
Lemma round_half f x z : rep f x -> f64_round f = Some z -> Rabs (IZR z - x) <= / 2.
Proof.
  intros (b & -> & F & <-) E. destruct b as [s|s| |s m e Hm]; try discriminate; cbn [B2SF f64_round] in E.
  - injection E as <-. cbn [B2R]. rewrite Rminus_0_r, Rabs_R0. lra.
  - set (a := if (0 <=? e)%Z then (Z.pos m * 2 ^ e)%Z else ((Z.pos m + 2 ^ (- e - 1)) / 2 ^ (- e))%Z).
    assert (z = (if s then - a else a)%Z) as ->.
    { apply (f_equal (fun o => match o with Some v => v | None => 0%Z end)) in E. symmetry. exact E. }
    assert (H : Rabs (IZR a - F2R (Float radix2 (Z.pos m) e)) <= / 2).
    { subst a. unfold F2R. cbn [Fnum Fexp]. destruct (Z.leb_spec 0 e).
      - rewrite mult_IZR, (IZR_Zpower radix2) by lia. unfold Rminus. rewrite Rplus_opp_r, Rabs_R0. lra.
      - assert (P : (0 < 2 ^ (- e))%Z) by (apply Z.pow_pos_nonneg; lia).
        assert (D : (2 ^ (- e) = 2 * 2 ^ (- e - 1))%Z) by (rewrite <- Z.pow_succ_r by lia; f_equal; lia).
        set (q := ((Z.pos m + 2 ^ (- e - 1)) / 2 ^ (- e))%Z).
        assert (Q : (- 2 ^ (- e) < 2 * (Z.pos m - q * 2 ^ (- e)) + 1 /\ 2 * (Z.pos m - q * 2 ^ (- e)) < 2 ^ (- e))%Z).
        { pose proof (Z.div_mod (Z.pos m + 2 ^ (- e - 1)) (2 ^ (- e)) ltac:(lia)) as D1.
          pose proof (Z.mod_pos_bound (Z.pos m + 2 ^ (- e - 1)) (2 ^ (- e)) P) as D2. fold q in D1. lia. }
        assert (B : (2 * Z.abs (q * 2 ^ (- e) - Z.pos m) <= 2 ^ (- e))%Z) by lia.
        apply IZR_le in B. rewrite mult_IZR, abs_IZR, minus_IZR, mult_IZR, (IZR_Zpower radix2) in B by lia.
        pose proof (bpow_gt_0 radix2 (- e)) as G. pose proof (bpow_gt_0 radix2 e) as G'.
        assert (I : bpow radix2 (- e) * bpow radix2 e = 1) by (rewrite <- bpow_plus; replace (- e + e)%Z with 0%Z by lia; reflexivity).
        replace (IZR q - IZR (Z.pos m) * bpow radix2 e) with ((IZR q * bpow radix2 (- e) - IZR (Z.pos m)) * bpow radix2 e).
        2: { rewrite Rmult_minus_distr_r, Rmult_assoc, I. ring. }
        rewrite Rabs_mult, (Rabs_right (bpow radix2 e)) by lra. nra. }
    clearbody a. clear E. cbn [B2R]. destruct s; cbn [cond_Zopp].
    + change (Z.neg m) with (- Z.pos m)%Z. rewrite F2R_Zopp, opp_IZR.
      replace (- IZR a - - F2R (Float radix2 (Z.pos m) e)) with (- (IZR a - F2R (Float radix2 (Z.pos m) e))) by ring.
      rewrite Rabs_Ropp. exact H.
    + exact H.
Qed.

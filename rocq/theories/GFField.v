(** GF(256) as a mathcomp field. *)
From mathcomp Require Import all_ssreflect all_algebra.
From Coq Require Import ZArith Lia.
From Verif Require Import Base Lib ModelGF GFProofs.
From mathcomp Require ssrZ.
Import ssrZ.ZInstances.

Set Implicit Arguments.
Unset Strict Implicit.
Unset Printing Implicit Defensive.
Import GRing.Theory.
Local Open Scope ring_scope.

Record gf256 := GFel { gfval : Z; gfP : byteb gfval }.

Canonical gf256_subType := Eval hnf in [subType for gfval].
Definition gf256_eqMixin := Eval hnf in [eqMixin of gf256 by <:].
Canonical gf256_eqType := Eval hnf in EqType gf256 gf256_eqMixin.
Definition gf256_choiceMixin := [choiceMixin of gf256 by <:].
Canonical gf256_choiceType := Eval hnf in ChoiceType gf256 gf256_choiceMixin.

Definition gf0 : gf256 := @GFel 0%Z isT.
Definition gf1 : gf256 := @GFel 1%Z isT.
Definition gf2 : gf256 := @GFel 2%Z isT.
Definition gfadd (a b : gf256) : gf256 := GFel (byteb_lxor _ _ (gfP a) (gfP b)).
Definition gfmul (a b : gf256) : gf256 := GFel (gmul_byte _ (gfval b) (gfP a)).
Definition gfinv (a : gf256) : gf256 := GFel (ginv_byte _ (gfP a)).

Lemma gfaddA : associative gfadd.
Proof. by move=> a b c; apply: val_inj; rewrite /= Z.lxor_assoc. Qed.
Lemma gfaddC : commutative gfadd.
Proof. by move=> a b; apply: val_inj; rewrite /= Z.lxor_comm. Qed.
Lemma gfadd0 : left_id gf0 gfadd.
Proof. by move=> a; apply: val_inj. Qed.
Lemma gfaddN : left_inverse gf0 id gfadd.
Proof. by move=> a; apply: val_inj; rewrite /= Z.lxor_nilpotent. Qed.

Definition gf256_zmodMixin := ZmodMixin gfaddA gfaddC gfadd0 gfaddN.
Canonical gf256_zmodType := Eval hnf in ZmodType gf256 gf256_zmodMixin.

Lemma gfmulA : associative gfmul.
Proof. by move=> a b c; apply: val_inj; rewrite /= gmul_assoc ?gfP. Qed.
Lemma gfmulC : commutative gfmul.
Proof. by move=> a b; apply: val_inj; rewrite /= gmul_comm ?gfP. Qed.
Lemma gfmul1 : left_id gf1 gfmul.
Proof. by move=> a; apply: val_inj; rewrite /= gmul_1_l ?gfP. Qed.
Lemma gfmulDl : left_distributive gfmul gfadd.
Proof. by move=> a b c; apply: val_inj; rewrite /= gmul_lxor_l. Qed.
Lemma gf1_neq0 : gf1 != 0.
Proof. by []. Qed.

Definition gf256_ringMixin := ComRingMixin gfmulA gfmulC gfmul1 gfmulDl gf1_neq0.
Canonical gf256_ringType := Eval hnf in RingType gf256 gf256_ringMixin.
Canonical gf256_comRingType := Eval hnf in ComRingType gf256 gfmulC.

Lemma gfmulV (a : gf256) : a != 0 -> gfmul (gfinv a) a = 1.
Proof.
move=> Ha; apply: val_inj; rewrite /= ginv_l ?gfP // => H0.
by case/negP: Ha; apply/eqP; apply: val_inj.
Qed.
Lemma gfinv0 : gfinv 0 = 0.
Proof. by apply: val_inj; vm_compute. Qed.

Definition gf256_unitMixin := FieldUnitMixin gfmulV gfinv0.
Canonical gf256_unitRingType := Eval hnf in UnitRingType gf256 gf256_unitMixin.
Canonical gf256_comUnitRingType := Eval hnf in [comUnitRingType of gf256].

Lemma gf256_fieldMixin : GRing.Field.mixin_of [unitRingType of gf256].
Proof. by []. Qed.
Definition gf256_idomainMixin := FieldIdomainMixin gf256_fieldMixin.
Canonical gf256_idomainType := Eval hnf in IdomainType gf256 gf256_idomainMixin.
Canonical gf256_fieldType := Eval hnf in FieldType gf256 gf256_fieldMixin.

Lemma gf256_char2 (a : gf256) : a + a = 0.
Proof. exact: gfaddN. Qed.

(** GF(256) as used by the code (ModelGF.v) is a field in which 2 has order 255. *)
From Verif Require Import Base Lib ModelGF.
From Coq Require Import ZifyBool ZifyNat ZifyN.
Ltac Zify.zify_post_hook ::= Z.div_mod_to_equations.

Definition byteb (z : Z) : bool := (0 <=? z) && (z <? 256).
Definition all256 : list Z := zrange 0 256.

Lemma byteb_in z : byteb z = true -> In z all256.
Proof. unfold byteb, all256. rewrite in_zrange. lia. Qed.

Lemma sweep1 (P : Z -> bool) : forallb P all256 = true -> forall a, byteb a = true -> P a = true.
Proof. intros H a Ha. rewrite forallb_forall in H. apply H, byteb_in, Ha. Qed.

(** * XOR *)
Lemma lxor_bound n a b : 0 <= n -> 0 <= a < 2 ^ n -> 0 <= b < 2 ^ n -> 0 <= Z.lxor a b < 2 ^ n.
Proof.
  intros Hn Ha Hb. assert (0 <= Z.lxor a b) by (apply Z.lxor_nonneg; lia). split; [assumption|].
  destruct (Z.eq_dec (Z.lxor a b) 0) as [->|Hne]; [lia|].
  apply Z.log2_lt_pow2; [lia|].
  pose proof (Z.log2_lxor a b ltac:(lia) ltac:(lia)).
  destruct (Z.eq_dec a 0) as [->|]; [rewrite Z.lxor_0_l in *; apply Z.log2_lt_pow2; lia|].
  destruct (Z.eq_dec b 0) as [->|]; [rewrite Z.lxor_0_r in *; apply Z.log2_lt_pow2; lia|].
  assert (Z.log2 a < n) by (apply Z.log2_lt_pow2; lia).
  assert (Z.log2 b < n) by (apply Z.log2_lt_pow2; lia). lia.
Qed.

Lemma byteb_lxor a b : byteb a = true -> byteb b = true -> byteb (Z.lxor a b) = true.
Proof. unfold byteb. pose proof (lxor_bound 8 a b). lia. Qed.

(** * Linear maps are determined by their values on the powers of two *)
Definition xlin (f : Z -> Z) : Prop := f 0 = 0 /\ forall a b, f (Z.lxor a b) = Z.lxor (f a) (f b).

Lemma xlin_ext (f g : Z -> Z) (n : nat) : xlin f -> xlin g ->
  (forall k, (k < n)%nat -> f (2 ^ Z.of_nat k) = g (2 ^ Z.of_nat k)) ->
  forall x, 0 <= x < 2 ^ Z.of_nat n -> f x = g x.
Proof.
  intros [Hf0 Hf] [Hg0 Hg]. induction n as [|n IH]; intros Hb x Hx.
  - replace x with 0 by (cbn in Hx; lia). congruence.
  - assert (Hp : 2 ^ Z.of_nat (S n) = 2 * 2 ^ Z.of_nat n)
      by (rewrite Nat2Z.inj_succ, Z.pow_succ_r by lia; reflexivity).
    assert (0 < 2 ^ Z.of_nat n) by (apply Z.pow_pos_nonneg; lia).
    destruct (Z_lt_le_dec x (2 ^ Z.of_nat n)) as [Hlt|Hge].
    + apply IH; [intros; apply Hb; lia|lia].
    + set (p := 2 ^ Z.of_nat n) in *.
      assert (Hx' : x = Z.lxor (x - p) p).
      { assert (Hland : Z.land (x - p) p = 0).
        { apply Z.bits_inj'. intros m Hm. rewrite Z.land_spec, Z.bits_0.
          unfold p at 2. rewrite Z.pow2_bits_eqb by lia.
          destruct (Z.eqb_spec (Z.of_nat n) m) as [<-|]; [|apply andb_false_r].
          rewrite andb_true_r.
          destruct (Z.eq_dec (x - p) 0) as [->|]; [apply Z.bits_0|].
          apply Z.bits_above_log2; [lia|]. apply Z.log2_lt_pow2; unfold p in *; lia. }
        rewrite <- Z.add_nocarry_lxor by exact Hland. lia. }
      rewrite Hx', Hf, Hg. f_equal; [apply IH; [intros; apply Hb; lia|lia]|apply Hb; lia].
Qed.

Lemma xlin_ext8 f g : xlin f -> xlin g ->
  forallb (fun k => f (2 ^ k) =? g (2 ^ k)) (zrange 0 8) = true ->
  forall x, byteb x = true -> f x = g x.
Proof.
  intros Hf Hg H x Hx. apply (xlin_ext f g 8 Hf Hg).
  - intros k Hk. rewrite forallb_forall in H. apply Z.eqb_eq, H, in_zrange. lia.
  - unfold byteb in Hx. change (2 ^ Z.of_nat 8) with 256. lia.
Qed.

(** * The product is bilinear *)
Lemma xtime_lin d m : xlin (gf2_xtime d m).
Proof.
  split.
  - unfold gf2_xtime. cbn zeta. rewrite Z.bits_0. reflexivity.
  - intros a b. unfold gf2_xtime. cbn zeta.
    assert (H2 : 2 * Z.lxor a b = Z.lxor (2 * a) (2 * b)).
    { rewrite <- !(Z.mul_comm _ 2), <- !(Z.shiftl_mul_pow2 _ 1) by lia. apply Z.shiftl_lxor. }
    rewrite H2, Z.lxor_spec.
    destruct (Z.testbit (2 * a) d), (Z.testbit (2 * b) d); cbn [xorb];
      apply Z.bits_inj'; intros k Hk; rewrite ?Z.lxor_spec;
      destruct (Z.testbit (2 * a) k), (Z.testbit (2 * b) k), (Z.testbit m k); reflexivity.
Qed.

Lemma lxor_swap a b c d : Z.lxor (Z.lxor a b) (Z.lxor c d) = Z.lxor (Z.lxor a c) (Z.lxor b d).
Proof. rewrite !Z.lxor_assoc. f_equal. rewrite <- !Z.lxor_assoc. f_equal. apply Z.lxor_comm. Qed.

Lemma mul_bits_lin_l d m n b : xlin (fun a => gf2_mul_bits d m a b n).
Proof.
  revert b. induction n as [|n IH]; intros b; split; cbn [gf2_mul_bits]; auto.
  - destruct (IH (Z.div2 b)) as [H0 _]. rewrite H0. destruct (xtime_lin d m) as [-> _].
    destruct (Z.odd b); reflexivity.
  - intros a a'. destruct (IH (Z.div2 b)) as [_ ->]. destruct (xtime_lin d m) as [_ ->].
    destruct (Z.odd b); [|reflexivity]. apply lxor_swap.
Qed.

Lemma div2_lxor a b : Z.div2 (Z.lxor a b) = Z.lxor (Z.div2 a) (Z.div2 b).
Proof. rewrite !Z.div2_spec. apply Z.shiftr_lxor. Qed.

Lemma odd_lxor a b : Z.odd (Z.lxor a b) = xorb (Z.odd a) (Z.odd b).
Proof. rewrite <- !Z.bit0_odd. apply Z.lxor_spec. Qed.

Lemma mul_bits_lin_r d m n a : xlin (fun b => gf2_mul_bits d m a b n).
Proof.
  induction n as [|n [IH0 IH]]; split; cbn [gf2_mul_bits]; auto.
  - change (Z.div2 0) with 0. rewrite IH0. destruct (xtime_lin d m) as [-> _]. reflexivity.
  - intros b b'. rewrite div2_lxor, IH, odd_lxor. destruct (xtime_lin d m) as [_ ->].
    set (X := gf2_xtime _ _ _). set (Y := gf2_xtime _ _ _). clearbody X Y.
    destruct (Z.odd b), (Z.odd b'); cbn [xorb].
    + rewrite lxor_swap, Z.lxor_nilpotent, Z.lxor_0_r. reflexivity.
    + rewrite !Z.lxor_assoc. f_equal. apply Z.lxor_comm.
    + rewrite Z.lxor_assoc. reflexivity.
    + reflexivity.
Qed.

Definition gmul : Z -> Z -> Z := gf2_mul 8 285.

Lemma gmul_lin_l b : xlin (fun a => gmul a b).
Proof. apply mul_bits_lin_l. Qed.
Lemma gmul_lin_r a : xlin (gmul a).
Proof. exact (mul_bits_lin_r (Z.of_nat 8) 285 8 a). Qed.

Lemma xlin_comp f g : xlin f -> xlin g -> xlin (fun x => f (g x)).
Proof. intros [F0 F] [G0 G]. split; intros; rewrite ?G0, ?G; auto. Qed.

Lemma byteb_pow2 k : In k (zrange 0 8) -> byteb (2 ^ k) = true.
Proof.
  rewrite in_zrange. intros H. unfold byteb.
  assert (0 < 2 ^ k) by (apply Z.pow_pos_nonneg; lia).
  assert (2 ^ k < 2 ^ 8) by (apply Z.pow_lt_mono_r; lia). lia.
Qed.

Lemma gmul_0_l b : gmul 0 b = 0.
Proof. apply (gmul_lin_l b). Qed.
Lemma gmul_0_r a : gmul a 0 = 0.
Proof. apply (gmul_lin_r a). Qed.
Lemma gmul_lxor_l a a' b : gmul (Z.lxor a a') b = Z.lxor (gmul a b) (gmul a' b).
Proof. apply (gmul_lin_l b). Qed.
Lemma gmul_lxor_r a b b' : gmul a (Z.lxor b b') = Z.lxor (gmul a b) (gmul a b').
Proof. apply (gmul_lin_r a). Qed.

Lemma gmul_comm a b : byteb a = true -> byteb b = true -> gmul a b = gmul b a.
Proof.
  intros Ha Hb.
  apply (xlin_ext8 (fun a => gmul a b) (gmul b) (gmul_lin_l b) (gmul_lin_r b)); [|exact Ha].
  apply forallb_forall. intros k Hk. apply Z.eqb_eq.
  apply (xlin_ext8 (gmul (2 ^ k)) (fun b => gmul b (2 ^ k)) (gmul_lin_r _) (gmul_lin_l _)); [|exact Hb].
  revert k Hk. apply forallb_forall. vm_compute. reflexivity.
Qed.

Lemma gmul_assoc a b c : byteb a = true -> byteb b = true -> byteb c = true ->
  gmul a (gmul b c) = gmul (gmul a b) c.
Proof.
  intros Ha Hb Hc.
  apply (xlin_ext8 (fun c => gmul a (gmul b c)) (gmul (gmul a b))); auto using gmul_lin_r.
  { apply (xlin_comp (gmul a)); apply gmul_lin_r. }
  apply forallb_forall. intros k Hk. apply Z.eqb_eq.
  apply (xlin_ext8 (fun b => gmul a (gmul b (2 ^ k))) (fun b => gmul (gmul a b) (2 ^ k))); auto.
  { apply (xlin_comp (gmul a)); [apply gmul_lin_r|apply gmul_lin_l]. }
  { apply (xlin_comp (fun x => gmul x (2 ^ k)) (gmul a)); [apply gmul_lin_l|apply gmul_lin_r]. }
  apply forallb_forall. intros j Hj. apply Z.eqb_eq.
  apply (xlin_ext8 (fun a => gmul a (gmul (2 ^ j) (2 ^ k))) (fun a => gmul (gmul a (2 ^ j)) (2 ^ k)));
    auto using gmul_lin_l.
  { apply (xlin_comp (fun x => gmul x (2 ^ k)) (fun a => gmul a (2 ^ j))); apply gmul_lin_l. }
  revert j Hj. apply forallb_forall. revert k Hk. apply forallb_forall. vm_compute. reflexivity.
Qed.

Lemma gmul_byte a b : byteb a = true -> byteb (gmul a b) = true.
Proof.
  intros Ha. change (gmul a b) with (gf2_mul_bits (Z.of_nat 8) 285 a b 8).
  set (n := 8%nat) at 2. clearbody n. revert b.
  induction n as [|n IH]; intros b; cbn [gf2_mul_bits]; [reflexivity|].
  assert (Hx : byteb (gf2_xtime (Z.of_nat 8) 285 (gf2_mul_bits (Z.of_nat 8) 285 a (Z.div2 b) n)) = true).
  { generalize (IH (Z.div2 b)). generalize (gf2_mul_bits (Z.of_nat 8) 285 a (Z.div2 b) n).
    apply (sweep1 (fun z => byteb (gf2_xtime (Z.of_nat 8) 285 z))). vm_compute. reflexivity. }
  destruct (Z.odd b); [apply byteb_lxor; assumption|exact Hx].
Qed.

Lemma gmul_1_l a : byteb a = true -> gmul 1 a = a.
Proof. intros Ha. apply Z.eqb_eq. revert a Ha. apply sweep1. vm_compute. reflexivity. Qed.

(** * Powers and inverses *)
Definition gpow_z (x : Z) (n : nat) : Z := gf_pow GF256 x n.

Definition ginv (b : Z) : Z := gf_pow GF256 b 254.

Lemma gf_pow_base_irrel x n :
  gf_pow (mkGF Z 0 1 2 Z.lxor (gf2_mul 8 285) (fun _ _ => None) Z.eqb) x n = gf_pow GF256 x n.
Proof.
  unfold gf_pow. destruct (N.of_nat n) as [|p]; [reflexivity|].
  induction p as [p IH|p IH|]; cbn [gf_pow_pos]; rewrite ?IH; reflexivity.
Qed.

Lemma gf256_div a b : gf_div GF256 a b = if b =? 0 then None else Some (gmul a (ginv b)).
Proof.
  unfold GF256 at 1. unfold gf2_field. cbn [gf_div].
  change (2 ^ 8 - 2)%nat with 254%nat.
  rewrite gf_pow_base_irrel. unfold gmul, ginv. reflexivity.
Qed.

Lemma ginv_l a : byteb a = true -> a <> 0 -> gmul (ginv a) a = 1.
Proof.
  intros Ha Hn.
  assert (H : forall a, byteb a = true -> (a =? 0) || (gmul (ginv a) a =? 1) = true).
  { apply sweep1. vm_compute. reflexivity. }
  specialize (H a Ha). lia.
Qed.

Lemma ginv_byte a : byteb a = true -> byteb (ginv a) = true.
Proof. revert a. apply (sweep1 (fun a => byteb (ginv a))). vm_compute. reflexivity. Qed.

(** A block accepted with more errors than half its check bytes. *)
From Verif Require Import Base Lib VersionDb ModelGF ModelRS SpecQR RSBytes RSEncode RSFacts RSNearest.
From Coq Require Import List ZArith Bool Lia.
Import ListNotations.
Open Scope Z_scope.
Set Bullet Behavior "Strict Subproofs".

(** Damage to four bytes of a block of 26. *)
Definition four_wrong : list Z :=
  [0; 0; 0; 0; 0; 0; 0; 0; 0; 70; 0; 178; 71; 238; 0; 0; 0; 0; 0; 0; 0; 0; 0; 0; 0; 0].

Lemma zip_xor_zero (c : list Z) n : length c = n -> zip_xor (repeat 0 n) c = c.
Proof.
  revert n. induction c as [|x c IH]; intros n H; subst n; cbn [length repeat zip_xor]; [reflexivity|].
  rewrite Z.lxor_0_l, IH by reflexivity. reflexivity.
Qed.

Lemma four_wrong_alone : correct_block GF256 four_wrong (mkRS 26 19 1) = Ok (repeat 0 26).
Proof. vm_compute. reflexivity. Qed.

Lemma four_wrong_bytes : Forall is_byte four_wrong.
Proof. repeat constructor; unfold is_byte; lia. Qed.

Lemma distance_zip_xor (e c : list Z) : length e = length c ->
  distance (zip_xor e c) c = length (filter (fun x => negb (x =? 0)) e).
Proof.
  revert c. induction e as [|x e IH]; intros [|y c] H; cbn [length] in H; try discriminate; [reflexivity|].
  cbn [zip_xor distance filter].
  replace (Z.lxor x y =? y) with (x =? 0).
  - rewrite IH by congruence. destruct (x =? 0); reflexivity.
  - destruct (x =? 0) eqn:E.
    + apply Z.eqb_eq in E. subst x. rewrite Z.lxor_0_l, Z.eqb_refl. reflexivity.
    + symmetry. apply Z.eqb_neq. apply Z.eqb_neq in E. intros K. apply E.
      apply (f_equal (fun z => Z.lxor z y)) in K.
      rewrite Z.lxor_assoc, Z.lxor_nilpotent, Z.lxor_0_r in K. exact K.
Qed.

Lemma four_wrong_restored (c : list Z) : length c = 26%nat -> rs_codeword 7 c ->
  let r := zip_xor four_wrong c in
  distance r c = 4%nat /\ correct_block GF256 r (mkRS 26 19 1) = Ok c.
Proof.
  intros Hl Hc r. split.
  - unfold r. rewrite distance_zip_xor by (rewrite Hl; reflexivity). reflexivity.
  - unfold r. rewrite (correct_block_xor (bs := 26) (dw := 19) 1 (r := four_wrong) (c := c)); try lia; try assumption.
    + rewrite four_wrong_alone. cbn [res_map]. rewrite zip_xor_zero by exact Hl. reflexivity.
    + reflexivity.
    + exact four_wrong_bytes.
Qed.

Lemma correct_block_every (bs dw ns : nat) (r c : list Z) :
  length r = bs -> length c = bs -> (dw < bs)%nat -> (bs <= 255)%nat -> (bs - dw < 64)%nat ->
  Forall is_byte r -> rs_codeword (bs - dw) c ->
  correct_block GF256 (zip_xor r c) (mkRS bs dw ns)
  = match correct_block GF256 r (mkRS bs dw ns) with Ok b => Ok (zip_xor b c) | other => other end.
Proof.
  intros H1 H2 H3 H4 H5 H6 H7. rewrite (correct_block_xor ns H1 H2 H3 H4 H5 H6 H7).
  destruct (correct_block GF256 r (mkRS bs dw ns)); reflexivity.
Qed.

Lemma only_within_capacity_false :
  ~ (forall (bs dw ns : nat) (r c : list Z),
       length r = bs -> (dw < bs)%nat -> (bs <= 255)%nat -> (bs - dw < 64)%nat -> Forall is_byte r ->
       correct_block GF256 r (mkRS bs dw ns) = Ok c -> (2 * distance r c <= bs - dw)%nat).
Proof.
  intros H.
  specialize (H 26%nat 19%nat 1%nat four_wrong (repeat 0 26) eq_refl ltac:(lia) ltac:(lia) ltac:(lia)
                four_wrong_bytes four_wrong_alone).
  change (distance four_wrong (repeat 0 26)) with 4%nat in H. lia.
Qed.

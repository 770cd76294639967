(** The version database against the block structure of the standard. *)
From Verif Require Import Base Lib VersionDb SpecQR CountProofs.
From Coq Require Import ZifyBool ZifyNat ZifyN.
Ltac Zify.zify_post_hook ::= Z.div_mod_to_equations.

(** * The version database *)

Definition levels : list level := [EcL; EcM; EcQ; EcH].

Lemma in_levels e : In e levels.
Proof. destruct e; cbn; auto. Qed.

Definition db_check (v : Z) : bool :=
  let t := Z.to_nat (fst (capacity v)) in
  match nth_error VERSION_DATA_BASE (Z.to_nat v) with
  | None => false
  | Some ver =>
      (vi_data_bytes ver =? Z.of_nat t) && (Z.of_nat t <? 8896 - 255) &&
      forallb (fun e =>
        let nb := num_blocks v e in
        let ec := ecc_per_block v e in
        match nth_error (vi_ecc ver) (Z.to_nat (level_bits e)) with
        | None => false
        | Some p =>
            Nat.eqb (rs_ns p) (nb - t mod nb) && Nat.eqb (rs_dw p) (t / nb - ec)
            && Nat.eqb (rs_bs p) (t / nb) && (0 <? nb)%nat && (2 <=? ec)%nat && (ec <? 64)%nat
            && (ec <? t / nb)%nat && (t / nb <? 255)%nat
        end) levels
  end.

Lemma db_sweep : forallb db_check (zrange 1 41) = true.
Proof. vm_cast_no_check (eq_refl true). Qed.

(** The parameters of a version and level. *)
Record params_ok (v : Z) (e : level) (ver : VersionInfo) (p : RSParameters) : Prop := {
  po_ver : nth_error VERSION_DATA_BASE (Z.to_nat v) = Some ver;
  po_ecc : nth_error (vi_ecc ver) (Z.to_nat (level_bits e)) = Some p;
  po_bytes : vi_data_bytes ver = Z.of_nat (total_codewords v);
  po_total : Z.of_nat (total_codewords v) < 8896 - 255;
  po_ns : rs_ns p = short_blocks v e;
  po_dw : rs_dw p = (total_codewords v / num_blocks v e - ecc_per_block v e)%nat;
  po_bs : rs_bs p = (total_codewords v / num_blocks v e)%nat;
  po_nb : (0 < num_blocks v e)%nat;
  po_ec : (2 <= ecc_per_block v e < 64)%nat;
  po_lt : (ecc_per_block v e < rs_bs p < 255)%nat
}.

Theorem db_params v e : 1 <= v <= 40 -> exists ver p, params_ok v e ver p.
Proof.
  intros Hv. pose proof db_sweep as S. rewrite forallb_forall in S.
  specialize (S v (proj2 (in_zrange 1 41 v) ltac:(lia))). unfold db_check in S. cbn zeta in S. rewrite <- total_codewords_eq in S by exact Hv.
  destruct (nth_error VERSION_DATA_BASE (Z.to_nat v)) as [ver|] eqn:Ev; [|discriminate].
  rewrite !andb_true_iff in S. destruct S as [[S1 S2] S3].
  rewrite forallb_forall in S3. specialize (S3 e (in_levels e)).
  destruct (nth_error (vi_ecc ver) (Z.to_nat (level_bits e))) as [p|] eqn:Ep; [|discriminate].
  exists ver, p. unfold short_blocks.
  rewrite !andb_true_iff in S3. destruct S3 as [[[[[[[A1 A2] A3] A4] A5] A6] A7] A8].
  constructor; unfold short_blocks; try assumption; lia.
Qed.

(** Arithmetic consequences. *)
Section Params.
  Variables (v : Z) (e : level) (ver : VersionInfo) (p : RSParameters).
  Hypothesis P : params_ok v e ver p.
  Notation nb := (num_blocks v e).
  Notation ec := (ecc_per_block v e).
  Notation ns := (rs_ns p).
  Notation d := (rs_dw p).

  Lemma ns_le : (ns <= nb)%nat.
  Proof. rewrite (po_ns _ _ _ _ P). unfold short_blocks. lia. Qed.

  Lemma ns_pos : (0 < ns)%nat.
  Proof.
    rewrite (po_ns _ _ _ _ P). unfold short_blocks. pose proof (po_nb _ _ _ _ P).
    pose proof (Nat.mod_upper_bound (total_codewords v) nb ltac:(lia)). lia.
  Qed.

  Lemma bs_eq : rs_bs p = (d + ec)%nat.
  Proof. pose proof (po_lt _ _ _ _ P). rewrite (po_dw _ _ _ _ P), <- (po_bs _ _ _ _ P) in *. lia. Qed.

  Lemma d_pos : (0 < d)%nat.
  Proof. pose proof (po_lt _ _ _ _ P). pose proof bs_eq. lia. Qed.

  Lemma total_eq : total_codewords v = (d * nb + (nb - ns) + ec * nb)%nat.
  Proof.
    pose proof (po_nb _ _ _ _ P) as Hnb. pose proof bs_eq as Hb.
    pose proof (Nat.div_mod (total_codewords v) nb ltac:(lia)) as D.
    rewrite <- (po_bs _ _ _ _ P) in D. rewrite (po_ns _ _ _ _ P). unfold short_blocks.
    pose proof (Nat.mod_upper_bound (total_codewords v) nb ltac:(lia)). nia.
  Qed.

  Lemma block_data_eq i : block_data v e i = (if (i <? ns)%nat then d else d + 1)%nat.
  Proof.
    unfold block_data. rewrite <- (po_ns _ _ _ _ P), <- (po_dw _ _ _ _ P).
    destruct (i <? ns)%nat; lia.
  Qed.

  Lemma lb_count_eq :
    Z.to_nat ((vi_data_bytes ver - Z.of_nat (rs_bs p * ns)) / Z.of_nat (rs_bs p + 1)) = (nb - ns)%nat
    /\ Z.of_nat (rs_bs p * ns) <= vi_data_bytes ver.
  Proof.
    rewrite (po_bytes _ _ _ _ P), total_eq, bs_eq. pose proof ns_le as Hn.
    replace (Z.of_nat (d * nb + (nb - ns) + ec * nb) - Z.of_nat ((d + ec) * ns))
      with (Z.of_nat (nb - ns) * Z.of_nat (d + ec + 1)) by nia.
    split; [|nia]. rewrite Z.div_mul by lia. lia.
  Qed.
End Params.


(** The corrected data stream. *)
From Verif Require Import Base Lib VersionDb ModelGF ModelRS ModelDecode SpecQR StreamProofs RSBytes RSEncode EccDb EccProofs.
From Coq Require Import ZifyBool ZifyNat ZifyN.
Ltac Zify.zify_post_hook ::= Z.div_mod_to_equations.
Open Scope Z_scope.

Lemma block_corrects bs dw ns (c r : list Z) :
  length c = bs -> length r = bs -> (dw < bs)%nat -> (bs <= 255)%nat -> (bs - dw < 64)%nat ->
  Forall is_byte r -> rs_codeword (bs - dw)%nat c ->
  (2 * distance r c <= bs - dw)%nat ->
  correct_block GF256 r (mkRS bs dw ns) = Ok c.
Proof. intros. apply correct_block_corrects; assumption. Qed.

Lemma block_sound bs dw ns (r : list Z) :
  length r = bs -> (dw < bs)%nat -> (bs <= 255)%nat -> (bs - dw < 64)%nat ->
  Forall is_byte r ->
  (exists c, correct_block GF256 r (mkRS bs dw ns) = Ok c /\ length c = bs /\ rs_codeword (bs - dw)%nat c)
  \/ correct_block GF256 r (mkRS bs dw ns) = Err DataEcc.
Proof. intros. apply correct_block_sound; assumption. Qed.

(** Filling consecutive entries from an array. *)
Lemma fill_loop {E} (raw : list Z) (f : nat -> nat) k n : forall pre rest,
  length pre = k -> (n <= length rest)%nat -> (forall j, (j < n)%nat -> (f j < length raw)%nat) ->
  for_each (range 0 n) (fun j dst => let* v := aget raw (f j) in aset dst (k + j)%nat v) (pre ++ rest)
  = @Ok E _ (pre ++ map (fun j => nth (f j) raw 0) (seq 0 n) ++ skipn n rest).
Proof.
  induction n as [|n IH]; intros pre rest Hk Hn Hf; [reflexivity|].
  rewrite range_snoc by lia. rewrite for_each_app, IH; [|exact Hk|lia|intros j Hj; apply Hf; lia].
  cbn [bind for_each]. rewrite (aget_ok raw 0) by (apply Hf; lia). cbn [bind].
  rewrite seq_S, map_app, <- !app_assoc. cbn [plus map app].
  set (a := map _ _). assert (La : length a = n) by (unfold a; rewrite map_length, seq_length; reflexivity).
  destruct (skipn n rest) as [|y rest'] eqn:Er.
  { assert (L := skipn_length n rest). rewrite Er in L. cbn in L. lia. }
  rewrite aset_ok by (rewrite !app_length; cbn [length]; lia). cbn [bind]. f_equal.
  rewrite app_assoc, app_assoc.
  assert (Eu : forall (l1 l2 : list Z) m v, length l1 = m -> upd (l1 ++ l2) m v = l1 ++ upd l2 0 v).
  { intros l1 l2 m v <-. induction l1 as [|b l1 IHl]; cbn; [reflexivity|]. rewrite IHl. reflexivity. }
  rewrite Eu by (rewrite app_length; lia). f_equal. cbn [upd]. f_equal.
  replace (S n) with (1 + n)%nat by lia.
  clear -Er. revert rest Er. induction n as [|n IHn]; intros [|z rest] Er; cbn in *; try discriminate.
  - congruence.
  - apply IHn. exact Er.
Qed.

(** Parameters of block [i] and the words the library gathers for it. *)
Definition block_params (p : RSParameters) (i : nat) : RSParameters :=
  if (i <? rs_ns p)%nat then p else mkRS (rs_bs p + 1) (rs_dw p + 1) (rs_ns p).

Definition gathered (p : RSParameters) (bc off : nat) (raw : list Z) (i : nat) : list Z :=
  map (fun j => nth (j * bc + i) raw 0) (seq 0 (rs_dw (block_params p i)))
  ++ map (fun j => nth (off + j * bc + i) raw 0) (seq 0 (rs_bs (block_params p i) - rs_dw (block_params p i))).

Lemma ecc_block_eq raw p bc off i out dst :
  let q := block_params p i in
  (dst + rs_bs q <= length out)%nat -> (rs_dw q <= rs_bs q)%nat ->
  (forall j, (j < rs_dw q)%nat -> (j * bc + i < length raw)%nat) ->
  (forall j, (j < rs_bs q - rs_dw q)%nat -> (off + j * bc + i < length raw)%nat) ->
  ecc_block raw p bc off i (out, dst)
  = let* c := correct_block GF256 (gathered p bc off raw i) q in
    Ok (firstn dst out ++ c ++ skipn (dst + rs_bs q) out, (dst + rs_dw q)%nat).
Proof.
  intros q Hd Hq H1 H2. unfold ecc_block. fold (block_params p i). fold q.
  replace (dst + rs_bs q <=? length out)%nat with true by (symmetry; apply Nat.leb_le; exact Hd).
  cbn [assert_ bind]. unfold nsub. replace (rs_dw q <=? rs_bs q)%nat with true by (symmetry; apply Nat.leb_le; exact Hq).
  cbn [bind]. set (d0 := firstn (rs_bs q) (skipn dst out)).
  assert (L0 : length d0 = rs_bs q) by (unfold d0; rewrite firstn_length, skipn_length; lia).
  pose proof (fill_loop (E := deqr_error) raw (fun j => (j * bc + i)%nat) 0 (rs_dw q) [] d0 eq_refl ltac:(lia) H1) as F1.
  cbn [app plus] in F1. rewrite F1. cbn [bind].
  pose proof (fill_loop (E := deqr_error) raw (fun j => (off + j * bc + i)%nat) (rs_dw q) (rs_bs q - rs_dw q)
    (map (fun j => nth (j * bc + i) raw 0) (seq 0 (rs_dw q))) (skipn (rs_dw q) d0)) as F2.
  rewrite F2; [|rewrite map_length, seq_length; reflexivity|rewrite skipn_length; lia|exact H2].
  cbn [bind].
  assert (En : skipn (rs_bs q - rs_dw q) (skipn (rs_dw q) d0) = []).
  { apply length_zero_iff_nil. rewrite !skipn_length. lia. }
  rewrite En, app_nil_r. reflexivity.
Qed.

(** * All the blocks *)
Section Stream.
  Variables (v : Z) (e : level) (ver : VersionInfo) (p : RSParameters).
  Hypothesis P : params_ok v e ver p.
  Notation nb := (num_blocks v e).
  Notation ec := (ecc_per_block v e).
  Notation ns := (rs_ns p).
  Notation d := (rs_dw p).
  Notation off := (d * nb + (nb - ns))%nat.
  Variable raw : list Z.
  Hypothesis Hraw : Z.of_nat (length raw) = MAX_PAYLOAD_SIZE.
  Hypothesis Hbytes : Forall is_byte raw.

  Notation q i := (block_params p i).
  Notation blk i := (gathered p nb off raw i).

  Lemma q_facts i : rs_dw (q i) = block_data v e i /\ rs_bs (q i) = (block_data v e i + ec)%nat
    /\ (rs_dw (q i) < rs_bs (q i) <= 255)%nat /\ (rs_bs (q i) - rs_dw (q i) = ec)%nat /\ (ec < 64)%nat
    /\ q i = mkRS (rs_bs (q i)) (rs_dw (q i)) (rs_ns (q i)).
  Proof.
    pose proof (bs_eq _ _ _ _ P) as Hb. pose proof (po_lt _ _ _ _ P). pose proof (po_ec _ _ _ _ P).
    rewrite (block_data_eq _ _ _ _ P). unfold block_params.
    destruct (i <? ns)%nat; cbn [rs_bs rs_dw rs_ns]; repeat split; try lia; destruct p; reflexivity.
  Qed.

  Lemma index_facts i : (i < nb)%nat ->
    (forall j, (j < rs_dw (q i))%nat -> (j * nb + i < length raw)%nat) /\
    (forall j, (j < rs_bs (q i) - rs_dw (q i))%nat -> (off + j * nb + i < length raw)%nat).
  Proof.
    intros Hi. destruct (q_facts i) as (Hd & _ & _ & He & _). rewrite (block_data_eq _ _ _ _ P) in Hd.
    pose proof (total_eq _ _ _ _ P) as Ht. pose proof (po_total _ _ _ _ P). pose proof (ns_le _ _ _ _ P).
    pose proof (po_ec _ _ _ _ P). unfold MAX_PAYLOAD_SIZE in Hraw.
    split; intros j Hj.
    - assert (j <= d)%nat by (rewrite Hd in Hj; destruct (i <? ns)%nat; lia). nia.
    - rewrite He in Hj. nia.
  Qed.

  Lemma blk_ok i : (i < nb)%nat -> length (blk i) = rs_bs (q i) /\ Forall is_byte (blk i).
  Proof.
    intros Hi. destruct (q_facts i) as (_ & _ & Hlt & _). destruct (index_facts i Hi) as [I1 I2].
    assert (Hn : forall k, (k < length raw)%nat -> is_byte (nth k raw 0)).
    { intros k Hk. rewrite Forall_forall in Hbytes. apply Hbytes, nth_In, Hk. }
    unfold gathered. split.
    - rewrite app_length, !map_length, !seq_length. lia.
    - apply Forall_app. split; apply Forall_forall; intros x Hx; apply in_map_iff in Hx;
        destruct Hx as (j & <- & Hj); apply in_seq in Hj; apply Hn; [apply I1|apply I2]; lia.
  Qed.

  Lemma blk_sound i : (i < nb)%nat ->
    (exists c, correct_block GF256 (blk i) (q i) = Ok c /\ length c = rs_bs (q i) /\ rs_codeword ec c)
    \/ correct_block GF256 (blk i) (q i) = Err DataEcc.
  Proof.
    intros Hi. destruct (q_facts i) as (_ & _ & Hlt & He & H64 & Eq). destruct (blk_ok i Hi) as [L B].
    pose proof (block_sound (rs_bs (q i)) (rs_dw (q i)) (rs_ns (q i)) (blk i) L ltac:(lia) ltac:(lia) ltac:(lia) B) as S.
    rewrite <- Eq, He in S. exact S.
  Qed.

  Definition dsum (n : nat) : nat := list_sum (map (block_data v e) (seq 0 n)).

  Lemma dsum_S n : dsum (S n) = (dsum n + block_data v e n)%nat.
  Proof. unfold dsum. rewrite seq_S, map_app, list_sum_app. cbn. lia. Qed.

  Lemma dsum_bound n : (n <= nb)%nat -> (dsum n <= n * (d + 1))%nat.
  Proof.
    induction n as [|n IH]; intros Hn; [cbn; lia|]. rewrite dsum_S, (block_data_eq _ _ _ _ P).
    specialize (IH ltac:(lia)). destruct (n <? ns)%nat; lia.
  Qed.

  Lemma room n : (n < nb)%nat -> Z.of_nat (dsum n + rs_bs (q n)) < MAX_PAYLOAD_SIZE.
  Proof.
    intros Hn. pose proof (dsum_bound n ltac:(lia)) as Hb. destruct (q_facts n) as (_ & Hbs & _).
    rewrite (block_data_eq _ _ _ _ P) in Hbs.
    assert (Hq : (rs_bs (q n) <= d + 1 + ec)%nat) by (rewrite Hbs; destruct (n <? ns)%nat; lia).
    pose proof (total_eq _ _ _ _ P) as Ht. pose proof (po_total _ _ _ _ P). pose proof (po_ec _ _ _ _ P).
    unfold MAX_PAYLOAD_SIZE.
    assert (H1 : (n * (d + 1) + (d + 1) <= nb * (d + 1))%nat) by (clear -Hn; nia).
    assert (H2 : (nb * (d + 1) <= d * nb + ec * nb)%nat) by (clear -H0; nia).
    clear -H1 H2 Ht H H0 Hb Hq. lia.
  Qed.

  Lemma capacity_dsum : dsum nb = data_capacity v e.
  Proof. reflexivity. Qed.

  Lemma blocks_loop n : (n <= nb)%nat ->
    (exists (c : nat -> list Z) out,
        (forall i, (i < n)%nat -> correct_block GF256 (blk i) (q i) = Ok (c i) /\ length (c i) = rs_bs (q i)
                                  /\ rs_codeword ec (c i)) /\
        for_each (range 0 n) (ecc_block raw p nb off) (zero_payload, 0%nat) = Ok (out, dsum n) /\
        Z.of_nat (length out) = MAX_PAYLOAD_SIZE /\ Forall is_byte out /\
        firstn (dsum n) out = concat (map (fun i => firstn (block_data v e i) (c i)) (seq 0 n)))
    \/ ((exists i, (i < n)%nat /\ correct_block GF256 (blk i) (q i) = Err DataEcc) /\
        for_each (range 0 n) (ecc_block raw p nb off) (zero_payload, 0%nat) = Err DataEcc).
  Proof.
    induction n as [|n IH]; intros Hn.
    - left. exists (fun _ => []), zero_payload. split; [intros i Hi; lia|]. split; [reflexivity|].
      unfold zero_payload. rewrite repeat_length. split; [apply Z2Nat.id; discriminate|]. split; [|reflexivity].
      apply Forall_forall. intros b Hb. apply repeat_spec in Hb. subst b. unfold is_byte. lia.
    - rewrite range_snoc by lia. rewrite for_each_app.
      destruct (IH ltac:(lia)) as [(c & out & Hc & -> & Hlen & Hob & Hpre)|((i & Hi & Ei) & ->)].
      2:{ right. split; [exists i; split; [lia|exact Ei]|reflexivity]. }
      cbn [bind for_each]. pose proof (room n ltac:(lia)) as Hroom.
      destruct (q_facts n) as (Hdw & Hbs & Hlt & He & H64 & Eq).
      destruct (index_facts n ltac:(lia)) as [I1 I2].
      rewrite ecc_block_eq; [|unfold MAX_PAYLOAD_SIZE in *; lia|lia|exact I1|exact I2].
      destruct (blk_sound n ltac:(lia)) as [(cn & En & Ln & Cn)|En]; rewrite En; cbn [bind].
      + left. exists (fun i => if (i =? n)%nat then cn else c i), (firstn (dsum n) out ++ cn ++ skipn (dsum n + rs_bs (q n)) out).
        split.
        { intros i Hi. destruct (Nat.eqb_spec i n) as [->|Hne]; [auto|]. apply Hc. lia. }
        split. { rewrite dsum_S, Hdw. reflexivity. }
        assert (Lf : length (firstn (dsum n) out) = dsum n) by (rewrite firstn_length; unfold MAX_PAYLOAD_SIZE in *; lia).
        split. { rewrite !app_length, Lf, Ln, skipn_length. unfold MAX_PAYLOAD_SIZE in *. lia. }
        split.
        { apply Forall_app. split; [|apply Forall_app; split].
          - apply Forall_forall. intros x Hx. rewrite Forall_forall in Hob. apply Hob.
            rewrite <- (firstn_skipn (dsum n) out). apply in_or_app. left. exact Hx.
          - apply Cn.
          - apply Forall_forall. intros x Hx. rewrite Forall_forall in Hob. apply Hob.
            rewrite <- (firstn_skipn (dsum n + rs_bs (q n)) out). apply in_or_app. right. exact Hx. }
        rewrite dsum_S, <- Hdw. rewrite <- Lf at 1. rewrite firstn_app_2.
        rewrite seq_S, map_app, concat_app. cbn [plus map concat]. rewrite app_nil_r, Nat.eqb_refl.
        rewrite (map_ext_in _ (fun i => firstn (block_data v e i) (c i))).
        2:{ intros i Hi. apply in_seq in Hi. replace (i =? n)%nat with false by (symmetry; apply Nat.eqb_neq; lia). reflexivity. }
        rewrite Hpre. f_equal. rewrite <- Hdw, firstn_app. replace (rs_dw (q n) - length cn)%nat with O by lia.
        cbn [firstn]. apply app_nil_r.
      + right. split; [exists n; split; [lia|exact En]|reflexivity].
  Qed.

  Theorem codestream_spec meta len : md_version meta = v -> md_ecc_level meta = level_bits e ->
    (exists (c : nat -> list Z) ds,
        (forall i, (i < nb)%nat -> correct_block GF256 (blk i) (q i) = Ok (c i) /\ length (c i) = rs_bs (q i)
                                  /\ rs_codeword ec (c i)) /\
        codestream_ecc meta (mkRaw raw len) = Ok ds /\
        at_bits ds (bytes_bits (concat (map (fun i => firstn (block_data v e i) (c i)) (seq 0 nb)))))
    \/ ((exists i, (i < nb)%nat /\ correct_block GF256 (blk i) (q i) = Err DataEcc) /\
        codestream_ecc meta (mkRaw raw len) = Err DataEcc).
  Proof.
    intros Hv He. unfold codestream_ecc, db_get, aget. rewrite Hv, (po_ver _ _ _ _ P). cbn [bind].
    rewrite He, (po_ecc _ _ _ _ P). cbn [bind].
    destruct (lb_count_eq _ _ _ _ P) as [El Hle]. unfold usub.
    replace (Z.of_nat (rs_bs p * ns) <=? vi_data_bytes ver) with true by lia. cbn [bind].
    rewrite El. pose proof (ns_le _ _ _ _ P) as Hns. replace (nb - ns + ns)%nat with nb by lia.
    cbn [rd_data].
    destruct (blocks_loop nb (le_n _)) as [(c & out & Hc & -> & Hlen & Hob & Hpre)|(Hbad & ->)]; cbn [bind].
    - left. exists c, (mkDS out 0 (Z.of_nat (dsum nb * 8))). split; [exact Hc|]. split; [reflexivity|].
      assert (Hs : (dsum nb <= length out)%nat).
      { pose proof (dsum_bound nb (le_n _)). pose proof (total_eq _ _ _ _ P). pose proof (po_total _ _ _ _ P).
        pose proof (po_ec _ _ _ _ P). unfold MAX_PAYLOAD_SIZE in *. nia. }
      rewrite <- Hpre.
      assert (Eb : bytes_bits (firstn (dsum nb) out) = firstn (dsum nb * 8) (bytes_bits out)).
      { rewrite <- (firstn_skipn (dsum nb) out) at 2. rewrite bytes_bits_app.
        replace (dsum nb * 8)%nat with (length (bytes_bits (firstn (dsum nb) out)) + 0)%nat
          by (rewrite length_bytes_bits, firstn_length; lia).
        rewrite firstn_app_2. cbn [firstn]. rewrite app_nil_r. reflexivity. }
      rewrite Eb. apply at_bits_start. lia.
    - right. split; [exact Hbad|reflexivity].
  Qed.

  (** * The gathered words against the blocks of the standard *)
  Notation received := (firstn (total_codewords v) raw).

  Lemma received_length : length received = total_codewords v.
  Proof. rewrite firstn_length. pose proof (po_total _ _ _ _ P). unfold MAX_PAYLOAD_SIZE in Hraw. lia. Qed.

  Lemma nth_received k : (k < total_codewords v)%nat -> nth k received 0 = nth k raw 0.
  Proof. intros H. apply nth_firstn, H. Qed.

  Theorem gathered_short i : (i < ns)%nat -> blk i = received_block v e received i.
  Proof.
    intros Hi. pose proof (ns_le _ _ _ _ P) as Hn. pose proof (total_eq _ _ _ _ P) as Ht.
    rewrite (received_block_eq _ _ _ _ P) by (try apply received_length; lia).
    destruct (q_facts i) as (Hd & _ & _ & He & _). unfold gathered. rewrite He, Hd, (block_data_eq _ _ _ _ P).
    replace (i <? ns)%nat with true by (symmetry; apply Nat.ltb_lt; exact Hi). cbn [app]. f_equal.
    - apply map_ext_in. intros j Hj. apply in_seq in Hj. symmetry. apply nth_received. nia.
    - apply map_ext_in. intros j Hj. apply in_seq in Hj. rewrite nth_received by nia. f_equal. lia.
  Qed.

  (** In a long block one word, the last data word, is taken from another place. *)
  Theorem gathered_long i : (ns <= i < nb)%nat ->
    blk i = upd (received_block v e received i) d (nth (d * nb + i) raw 0).
  Proof.
    intros Hi. pose proof (ns_le _ _ _ _ P) as Hn. pose proof (total_eq _ _ _ _ P) as Ht.
    rewrite (received_block_eq _ _ _ _ P) by (try apply received_length; lia).
    destruct (q_facts i) as (Hd & _ & _ & He & _). unfold gathered. rewrite He, Hd, (block_data_eq _ _ _ _ P).
    replace (i <? ns)%nat with false by (symmetry; apply Nat.ltb_ge; lia).
    rewrite seq_app, map_app, <- app_assoc. cbn [plus seq map app].
    assert (Eu : forall (l1 l2 : list Z) m v, length l1 = m -> upd (l1 ++ l2) m v = l1 ++ upd l2 0 v).
    { intros l1 l2 m x <-. induction l1 as [|b l1 IHl]; cbn; [reflexivity|]. rewrite IHl. reflexivity. }
    rewrite Eu by (rewrite map_length, seq_length; reflexivity). cbn [upd]. f_equal; [|f_equal].
    - apply map_ext_in. intros j Hj. apply in_seq in Hj. symmetry. apply nth_received. nia.
    - apply map_ext_in. intros j Hj. apply in_seq in Hj. rewrite nth_received by nia. f_equal. lia.
  Qed.

  Lemma distance_upd (l c : list Z) k x : (distance (upd l k x) c <= distance l c + 1)%nat.
  Proof.
    revert c k. induction l as [|a l IH]; intros [|b c] [|k]; cbn [upd distance]; try lia.
    - destruct (x =? b), (a =? b); lia.
    - specialize (IH c k). lia.
  Qed.

  (** Errors tolerated: half the check codewords, one less in long blocks. *)
  Definition slack (i : nat) : nat := if (i <? short_blocks v e)%nat then 0%nat else 1%nat.

  Theorem codestream_corrects data meta len : length data = data_capacity v e -> Forall is_byte data ->
    md_version meta = v -> md_ecc_level meta = level_bits e ->
    (forall i, (i < nb)%nat ->
       (2 * (distance (received_block v e received i) (nth i (symbol_blocks v e data) []) + slack i) <= ec)%nat) ->
    exists ds, codestream_ecc meta (mkRaw raw len) = Ok ds /\ at_bits ds (bytes_bits data).
  Proof.
    intros Hdl Hdb Hv He Hdist.
    set (b := fun i => nth i (cut (block_data_lengths v e) data) []).
    assert (Hblk : forall i, (i < nb)%nat -> nth i (symbol_blocks v e data) [] = b i ++ rs_parity ec (b i)).
    { intros i Hi. unfold symbol_blocks.
      rewrite (nth_indep _ [] ((fun b => b ++ rs_parity ec b) [])) by (rewrite map_length, blocks_length; assumption).
      rewrite (map_nth (fun b => b ++ rs_parity ec b)). reflexivity. }
    assert (Hok : forall i, (i < nb)%nat -> correct_block GF256 (blk i) (q i) = Ok (b i ++ rs_parity ec (b i))).
    { intros i Hi. destruct (q_facts i) as (Hd & Hbs & Hlt & Hec & H64 & Eq). destruct (blk_ok i Hi) as [L B].
      assert (Hbb : Forall is_byte (b i)) by (apply blocks_bytes; assumption).
      destruct (rs_parity_codeword ec Hbb) as [Lp Cp].
      assert (Lb : length (b i) = block_data v e i) by (apply block_length; assumption).
      rewrite Eq. apply block_corrects.
      - rewrite app_length, Lp, Lb. lia.
      - exact L.
      - lia.
      - lia.
      - lia.
      - exact B.
      - rewrite Hec. exact Cp.
      - rewrite Hec. specialize (Hdist i Hi). rewrite (Hblk i Hi) in Hdist. unfold slack in Hdist.
        rewrite <- (po_ns _ _ _ _ P) in Hdist.
        destruct (Nat.ltb_spec i ns) as [Hs|Hs].
        + rewrite gathered_short by exact Hs. lia.
        + rewrite gathered_long by lia.
          pose proof (distance_upd (received_block v e received i) (b i ++ rs_parity ec (b i)) d (nth (d * nb + i) raw 0)).
          lia. }
    destruct (codestream_spec meta len Hv He) as [(c & ds & Hc & E & Hat)|((i & Hi & Ei) & _)].
    2:{ rewrite (Hok i Hi) in Ei. discriminate. }
    exists ds. split; [exact E|].
    assert (Ed : concat (map (fun i => firstn (block_data v e i) (c i)) (seq 0 nb)) = data).
    { transitivity (concat (cut (block_data_lengths v e) data)).
      2:{ apply concat_cut. rewrite Hdl. unfold data_capacity. lia. }
      f_equal. rewrite <- (map_nth_seq [] (cut (block_data_lengths v e) data)).
      rewrite blocks_length by assumption. apply map_ext_in. intros i Hi. apply in_seq in Hi.
      destruct (Hc i ltac:(lia)) as [Ec _]. rewrite (Hok i ltac:(lia)) in Ec. injection Ec as <-.
      assert (Lb : length (b i) = block_data v e i) by (apply block_length; try assumption; lia).
      rewrite <- Lb, firstn_app, firstn_all, Nat.sub_diag. cbn [firstn]. apply app_nil_r. }
    rewrite Ed in Hat. exact Hat.
  Qed.
End Stream.

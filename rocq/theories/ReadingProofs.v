(** What decoding does with any square of modules of the size of a symbol. *)
From Verif Require Import Base Lib VersionDb ModelGF ModelRS ModelDecode SpecQR SpecPayload StreamProofs
  PayloadProofs MessageProofs FormatProofs LayoutProofs RSEncode RSNearest EccDb EccProofs EccStream V21Proofs EndToEnd GridProofs
  RSBeyond SpecReading.
From Coq Require Import ZifyBool ZifyNat ZifyN.
Ltac Zify.zify_post_hook ::= Z.div_mod_to_equations.
Open Scope Z_scope.

Lemma format_data_split d : 0 <= d < 32 -> exists e mask, 0 <= mask < 8 /\ d = format_data e mask.
Proof.
  intros Hd. exists (match d / 8 with 0 => EcM | 1 => EcL | 2 => EcH | _ => EcQ end), (d mod 8).
  split; [lia|]. unfold format_data.
  assert (d / 8 = 0 \/ d / 8 = 1 \/ d / 8 = 2 \/ d / 8 = 3) as [E|[E|[E|E]]] by lia;
    rewrite E; cbn [level_bits]; lia.
Qed.

Lemma correct_copy loc sym :
  (exists e mask, copy_says loc sym e mask /\
     correct_format (Z.lxor (copy_word loc sym) 21522) = Ok (bch_codeword (format_data e mask)))
  \/ (copy_lost loc sym /\ correct_format (Z.lxor (copy_word loc sym) 21522) = Err FormatEcc).
Proof.
  destruct (correct_format_sound _ (masked_range loc sym)) as [(d & Hd & Hc & E)|[Hn E]].
  - left. destruct (format_data_split d Hd) as (e & mask & Hm & ->). exists e, mask.
    split; [|exact E]. split; [exact Hm|]. apply correctable_unmask in Hc. exact Hc.
  - right. split; [|exact E]. intros e mask [Hm Hc].
    apply (Hn (format_data e mask)); [apply format_data_range, Hm|].
    apply correctable_unmask. exact Hc.
Qed.

Lemma format_reading g sym : readable g sym -> 9 <= g_size g ->
  (exists e mask, 0 <= mask < 8 /\ format_says (g_size g) sym e mask /\
     read_format g = let* v := version_from_size (g_size g) in Ok (mkMeta v (level_bits e) mask))
  \/ (format_lost (g_size g) sym /\ read_format g = Err FormatEcc).
Proof.
  intros Hr Hs. unfold read_format. rewrite (read_first_ok g sym Hr Hs). cbn [bind].
  destruct (correct_copy format_module_1 sym) as [(e & mask & H & ->)|[H1 ->]].
  - left. exists e, mask. split; [apply H|]. split; [left; exact H|]. cbn [bind].
    destruct (format_fields e mask (proj1 H)) as [-> ->]. reflexivity.
  - rewrite (read_second_ok g sym Hr Hs). cbn [bind].
    destruct (correct_copy (format_module_2 (g_size g)) sym) as [(e & mask & H & ->)|[H2 ->]].
    + left. exists e, mask. split; [apply H|]. split; [right; assumption|]. cbn [bind].
      destruct (format_fields e mask (proj1 H)) as [-> ->]. reflexivity.
    + right. split; [split; assumption|reflexivity].
Qed.

Section Blocks.
  Variables (v : Z) (e : level) (ver : VersionInfo) (p : RSParameters).
  Hypothesis P : params_ok v e ver p.
  Variable raw : list Z.
  Hypothesis Hraw : Z.of_nat (length raw) = MAX_PAYLOAD_SIZE.
  Hypothesis Hbytes : Forall is_byte raw.
  Notation nb := (num_blocks v e).
  Notation off := (rs_dw p * nb + (nb - rs_ns p))%nat.

  Lemma gathered_is i : (i < nb)%nat ->
    gathered p nb off raw i = gathered_block v e (firstn (total_codewords v) raw) i.
  Proof using All.
    intros Hi. unfold gathered_block. rewrite <- (po_ns _ _ _ _ P).
    assert (E0 : block_data v e 0 = rs_dw p).
    { rewrite (block_data_eq _ _ _ _ P). pose proof (ns_pos _ _ _ _ P).
      replace (0 <? rs_ns p)%nat with true by lia. reflexivity. }
    rewrite E0. destruct (Nat.ltb_spec i (rs_ns p)) as [H|H].
    - apply (gathered_short v e ver p P raw Hraw i H).
    - rewrite (gathered_long v e ver p P raw Hraw i ltac:(lia)). f_equal.
      symmetry. apply nth_received. pose proof (total_eq _ _ _ _ P). pose proof (po_ec _ _ _ _ P). nia.
  Qed.

  Lemma block_reading i c : (i < nb)%nat ->
    correct_block GF256 (gathered p nb off raw i) (block_params p i) = Ok c ->
    nearest_word (ecc_per_block v e) (gathered_block v e (firstn (total_codewords v) raw) i) c.
  Proof using All.
    intros Hi E. rewrite <- gathered_is by exact Hi.
    destruct (q_facts v e ver p P raw i) as (_ & _ & Hlt & He & H64 & Eq).
    destruct (blk_ok v e ver p P raw Hraw Hbytes i Hi) as [L B].
    destruct (blk_sound v e ver p P raw Hraw Hbytes i Hi) as [(c' & E' & L' & C')|E']; rewrite E in E'; [|discriminate].
    injection E' as <-. split; [congruence|]. split; [exact C'|].
    rewrite Eq in E.
    destruct (@correct_block_nearest _ (rs_dw (block_params p i)) (rs_ns (block_params p i)) _ c
                L ltac:(lia) ltac:(lia) ltac:(lia) B E) as [_ N0].
    assert (N : forall c0, length c0 = rs_bs (block_params p i) ->
              rs_codeword (rs_bs (block_params p i) - rs_dw (block_params p i)) c0 ->
              (distance (gathered p nb off raw i) c <= distance (gathered p nb off raw i) c0)%nat) by exact N0.
    rewrite He in N.
    intros c0 L0 C0. apply N; [congruence|exact C0].
  Qed.

  Lemma block_lost i : (i < nb)%nat ->
    correct_block GF256 (gathered p nb off raw i) (block_params p i) = Err DataEcc ->
    out_of_reach (ecc_per_block v e) (gathered_block v e (firstn (total_codewords v) raw) i).
  Proof using All.
    intros Hi E c L C. rewrite <- gathered_is in * by exact Hi.
    destruct (q_facts v e ver p P raw i) as (_ & _ & Hlt & He & H64 & Eq).
    destruct (blk_ok v e ver p P raw Hraw Hbytes i Hi) as [Lb B].
    destruct (Nat.lt_ge_cases (ecc_per_block v e) (2 * distance (gathered p nb off raw i) c)) as [H|H]; [exact H|exfalso].
    rewrite Eq in E. rewrite (block_corrects _ _ _ c (gathered p nb off raw i)) in E; try rewrite He; try assumption; try lia; try congruence; discriminate.
  Qed.
End Blocks.

(** One reading of the grid. *)
Definition reading_result (v : Z) (o : reading) (r : res deqr_error (MetaData * CorrectedDataStream)) : Prop :=
  match o with
  | Data e mask data => exists ds, r = Ok (mkMeta v (level_bits e) mask, ds) /\ at_bits ds (bytes_bits data)
  | NoFormat => r = Err FormatEcc
  | NoData => r = Err DataEcc
  end.

Theorem inner_reading g sym v : readable g sym -> g_size g = symbol_size v -> 1 <= v <= 40 -> v <> 21 ->
  exists o, reads v sym o /\ reading_result v o (decode_inner g).
Proof.
  intros Hr Hs Hv N. assert (H9 : 9 <= g_size g) by (unfold symbol_size in Hs; lia).
  destruct (format_reading g sym Hr H9) as [(e & mask & Hm & Hf & E)|[Hf E]].
  2:{ exists NoFormat. split; [constructor; rewrite <- Hs; exact Hf|].
      cbn. unfold decode_inner, get_raw. rewrite E. reflexivity. }
  rewrite Hs in Hf, E. rewrite (version_of_symbol v Hv) in E. cbn [bind] in E.
  destruct (data_codewords_read g sym (mkMeta v (level_bits e) mask) v Hr Hs Hv eq_refl Hm) as (rd & Erd & Hrd).
  cbn [md_mask] in Hrd. rewrite scan_data_modules in Hrd by assumption.
  change (map (cell_bit true mask sym) (data_modules v)) with (read_modules v mask sym) in Hrd.
  pose proof (raw_received rd v mask sym Hrd) as Hw.
  destruct Hrd as (_ & Hlen & Hbytes & _). destruct rd as [raw len]. cbn [rd_data rd_len] in *.
  destruct (db_params v e Hv) as (ver & p & P).
  assert (Ei : decode_inner g = let* stream := codestream_ecc (mkMeta v (level_bits e) mask) (mkRaw raw len) in
                                Ok (mkMeta v (level_bits e) mask, stream)).
  { unfold decode_inner, get_raw. rewrite E. cbn [bind]. rewrite Erd. reflexivity. }
  destruct (codestream_spec v e ver p P raw Hlen Hbytes (mkMeta v (level_bits e) mask) len eq_refl eq_refl)
    as [(c & ds & Hc & Ec & Hat)|((i & Hi & Hbad) & Ec)].
  - eexists. split.
    + apply (reads_data v sym e mask c Hf). intros i Hi. rewrite <- Hw.
      apply (block_reading v e ver p P raw Hlen Hbytes i _ Hi). apply Hc, Hi.
    + cbn [reading_result]. exists ds. split; [|exact Hat]. rewrite Ei, Ec. reflexivity.
  - exists NoData. split.
    + apply (reads_no_data v sym e mask i Hf Hi). rewrite <- Hw.
      apply (block_lost v e ver p P raw Hlen Hbytes i Hi Hbad).
    + cbn. rewrite Ei, Ec. reflexivity.
Qed.

(** * The outcome of decoding *)
Definition ending_result (meta : MetaData) (e : ending) : res deqr_error MetaData :=
  match e with Complete => Ok meta | Underflow => Err DataUnderflow | UnknownMode => Err UnknownDataType end.

(** The data are decoded, for every writer: the bytes, in pieces, and the result. *)
Definition answers (g : BitGrid) (v : Z) (e : level) (mask : Z) (data : list Z) : Prop :=
  exists chunks, concat chunks = fst (ref_decode v (bytes_bits data)) /\
    forall W (wr : W -> list Z -> W * bool) w,
      grid_decode_to wr g w = feed wr chunks (ending_result (mkMeta v (level_bits e) mask) (snd (ref_decode v (bytes_bits data)))) w.

Definition fails (g : BitGrid) (x : deqr_error) : Prop :=
  forall W (wr : W -> list Z -> W * bool) w, grid_decode_to wr g w = (w, Err x).

Lemma answers_stream g v e mask ds data :
  (decode_inner g = Ok (mkMeta v (level_bits e) mask, ds)
   \/ (exists x, decode_inner g = Err x) /\ decode_inner (MirroredGrid g) = Ok (mkMeta v (level_bits e) mask, ds)) ->
  at_bits ds (bytes_bits data) -> answers g v e mask data.
Proof.
  intros Hd Hat. destruct (decode_stream g _ ds _ Hd Hat) as (chunks & Hc & Hw). cbn [md_version] in *.
  exists chunks. split; [exact Hc|]. intros W wr w. unfold grid_decode_to. rewrite Hw.
  destruct (snd (ref_decode v (bytes_bits data))); reflexivity.
Qed.

(** What becomes of the reading of the grid and that of its mirror image. *)
Definition decided (g : BitGrid) (v : Z) (o o' : reading) : Prop :=
  match o, o' with
  | Data e mask data, _ => answers g v e mask data
  | _, Data e mask data => answers g v e mask data
  | NoFormat, _ => fails g FormatEcc
  | NoData, _ => fails g DataEcc
  end.

Theorem decode_decided g sym v : readable g sym -> g_size g = symbol_size v -> 1 <= v <= 40 -> v <> 21 ->
  exists o o', reads v sym o /\ reads v (mirrored sym) o' /\ decided g v o o'.
Proof.
  intros Hr Hs Hv N.
  destruct (inner_reading g sym v Hr Hs Hv N) as (o & Ho & Eo).
  destruct (inner_reading (MirroredGrid g) (mirrored sym) v (readable_mirror g sym Hr) Hs Hv N) as (o' & Ho' & Eo').
  exists o, o'. split; [exact Ho|]. split; [exact Ho'|].
  destruct o as [e mask data| |]; cbn [reading_result] in Eo.
  - destruct Eo as (ds & Eo & Hat). exact (answers_stream g v e mask ds data (or_introl Eo) Hat).
  - destruct o' as [e mask data| |]; cbn [reading_result] in Eo'; cbn [decided].
    + destruct Eo' as (ds & Eo' & Hat).
      apply (answers_stream g v e mask ds data); [right; split; [eexists; exact Eo|exact Eo']|exact Hat].
    + intros W wr w. unfold grid_decode_to, decode. rewrite Eo, Eo'. reflexivity.
    + intros W wr w. unfold grid_decode_to, decode. rewrite Eo, Eo'. reflexivity.
  - destruct o' as [e mask data| |]; cbn [reading_result] in Eo'; cbn [decided].
    + destruct Eo' as (ds & Eo' & Hat).
      apply (answers_stream g v e mask ds data); [right; split; [eexists; exact Eo|exact Eo']|exact Hat].
    + intros W wr w. unfold grid_decode_to, decode. rewrite Eo, Eo'. reflexivity.
    + intros W wr w. unfold grid_decode_to, decode. rewrite Eo, Eo'. reflexivity.
Qed.

(** * Sizes that no symbol has *)
Theorem bad_size g sym : readable g sym -> 9 <= g_size g -> ~ 21 <= g_size g <= 180 ->
  (format_lost (g_size g) sym /\ fails g FormatEcc) \/
  (exists e mask, format_says (g_size g) sym e mask) /\ fails g InvalidVersion.
Proof.
  intros Hr Hs Hb. apply version_from_size_err in Hb.
  assert (Hm : forall x, decode_inner g = Err x -> fails g x).
  { intros x Ex W wr w. unfold grid_decode_to, decode. rewrite Ex.
    assert (exists x', decode_inner (MirroredGrid g) = Err x') as [x' ->].
    { unfold decode_inner, get_raw.
      destruct (format_reading (MirroredGrid g) _ (readable_mirror g sym Hr) Hs) as [(e & mask & _ & _ & E)|[_ E]];
        rewrite E; cbn [bind]; [|eexists; reflexivity].
      change (g_size (MirroredGrid g)) with (g_size g). rewrite Hb. eexists. reflexivity. }
    reflexivity. }
  destruct (format_reading g sym Hr Hs) as [(e & mask & _ & Hf & E)|[Hf E]].
  - right. split; [exists e, mask; exact Hf|]. apply Hm. unfold decode_inner, get_raw. rewrite E, Hb. reflexivity.
  - left. split; [exact Hf|]. apply Hm. unfold decode_inner, get_raw. rewrite E. reflexivity.
Qed.

(** * The errors there can be *)
Lemma feed_io {W} (wr : W -> list Z -> W * bool) chunks (r : res deqr_error MetaData) w w' x :
  feed wr chunks r w = (w', Err x) ->
  r = Err x \/ (x = IoError /\ exists w1 c, In c chunks /\ wr w1 c = (w', false)).
Proof.
  revert w. induction chunks as [|c chunks IH]; intros w; cbn [feed].
  - intros [= _ ->]. left. reflexivity.
  - destruct (wr w c) as [w1 [|]] eqn:E; intros H.
    + destruct (IH w1 H) as [->|(-> & w2 & c' & Hc & E')]; [left; reflexivity|].
      right. split; [reflexivity|]. exists w2, c'. split; [right; exact Hc|exact E'].
    + injection H as <- <-. right. split; [reflexivity|]. exists w, c. split; [left; reflexivity|exact E].
Qed.

Theorem error_possible g : total_grid g -> 9 <= g_size g ->
  forall W (wr : W -> list Z -> W * bool) w w' x, grid_decode_to wr g w = (w', Err x) ->
    (In x [FormatEcc; InvalidVersion; DataEcc] /\ w' = w) \/
    In x [DataUnderflow; UnknownDataType] \/
    (x = IoError /\ exists w1 c, wr w1 c = (w', false)).
Proof.
  intros Ht Hs W wr w w' x E. pose proof (total_readable g Ht) as Hr.
  assert (D : forall meta ds bs, (decode_inner g = Ok (meta, ds) \/
      (exists x, decode_inner g = Err x) /\ decode_inner (MirroredGrid g) = Ok (meta, ds)) -> at_bits ds bs ->
      In x [DataUnderflow; UnknownDataType] \/ (x = IoError /\ exists w1 c, wr w1 c = (w', false))).
  { intros meta ds bs H Hat. destruct (decode_stream g meta ds bs H Hat) as (chunks & _ & Hw).
    unfold grid_decode_to in E. rewrite Hw in E. apply feed_io in E. destruct E as [E|(-> & w1 & c & _ & E)].
    - left. destruct (snd (ref_decode (md_version meta) bs)); cbn in E; [discriminate| |]; injection E as <-; cbn; tauto.
    - right. split; [reflexivity|]. exists w1, c. exact E. }
  destruct (decode_inner_cases g _ Hr Hs) as [(meta & ds & bs & Hm & Ei & Hat)|(y & Hy & Ei)].
  - right. apply (D meta ds bs); [left; exact Ei|exact Hat].
  - destruct (decode_inner_cases (MirroredGrid g) _ (total_readable _ (total_mirror g Ht)) Hs)
      as [(meta & ds & bs & Hm & E' & Hat)|(y' & Hy' & E')].
    + right. apply (D meta ds bs); [right; split; [eexists; exact Ei|exact E']|exact Hat].
    + left. unfold grid_decode_to, decode in E. rewrite Ei, E' in E. cbn in E. injection E as <- <-.
      split; [cbn; intuition congruence|reflexivity].
Qed.

(** * Damage within the capacity leaves one reading *)
Lemma copy_says_unique loc sym e mask e' mask' :
  copy_says loc sym e mask -> copy_says loc sym e' mask' -> e = e' /\ mask = mask'.
Proof.
  intros [Hm Hc] [Hm' Hc'].
  assert (E : bch_codeword (format_data e mask) = bch_codeword (format_data e' mask')).
  { apply correctable_unmask in Hc. apply correctable_unmask in Hc'.
    pose proof (correct_format_complete _ _ (masked_range loc sym) (format_data_range e mask Hm) Hc) as E1.
    pose proof (correct_format_complete _ _ (masked_range loc sym) (format_data_range e' mask' Hm') Hc') as E2.
    rewrite E1 in E2. injection E2 as ->. reflexivity. }
  pose proof (format_fields e mask Hm) as [F1 F2]. pose proof (format_fields e' mask' Hm') as [F1' F2'].
  rewrite E in F1, F2. rewrite F1' in F1. rewrite F2' in F2. split; [|congruence].
  destruct e, e'; cbn in F1; try discriminate; reflexivity.
Qed.

Theorem format_says_unique size sym e mask e' mask' :
  format_says size sym e mask -> format_says size sym e' mask' -> e = e' /\ mask = mask'.
Proof.
  intros [H|L H] [H'|L' H'].
  - eapply copy_says_unique; eassumption.
  - destruct (L' _ _ H).
  - destruct (L _ _ H').
  - eapply copy_says_unique; eassumption.
Qed.

Lemma received_words v mask sym : Forall is_byte (received_codewords v mask sym)
  /\ length (received_codewords v mask sym) = total_codewords v.
Proof.
  unfold received_codewords. split.
  - assert (G : forall f bits, Forall is_byte (group8 f bits)).
    { induction f as [|f IH]; intros bits; [constructor|].
      destruct bits as [|x bits]; [constructor|].
      change (group8 (S f) (x :: bits)) with (value_of (firstn 8 (x :: bits)) :: group8 f (skipn 8 (x :: bits))).
      constructor; [|apply IH].
      pose proof (value_of_range (firstn 8 (x :: bits))) as R. rewrite firstn_length in R.
      assert (2 ^ Z.of_nat (Nat.min 8 (length (x :: bits))) <= 2 ^ 8) by (apply Z.pow_le_mono_r; lia).
      change (2 ^ 8) with 256 in H. unfold is_byte. lia. }
    apply Forall_forall. intros b Hb.
    assert (Hi : In b (group8 (S (total_codewords v)) (read_modules v mask sym))).
    { rewrite <- (firstn_skipn (total_codewords v)). apply in_or_app. left. exact Hb. }
    exact (proj1 (Forall_forall _ _) (G _ _) b Hi).
  - rewrite firstn_length, length_group8. unfold read_modules. rewrite map_length. unfold total_codewords. lia.
Qed.

(** The gathered blocks, through the library's buffer. *)
Lemma buffer_of (words : list Z) v e ver p : params_ok v e ver p -> Forall is_byte words ->
  length words = total_codewords v ->
  exists raw, Z.of_nat (length raw) = MAX_PAYLOAD_SIZE /\ Forall is_byte raw /\ firstn (total_codewords v) raw = words.
Proof.
  intros P Hb Hl. pose proof (po_total _ _ _ _ P) as Ht.
  exists (words ++ repeat 0 (Z.to_nat MAX_PAYLOAD_SIZE - total_codewords v)). split; [|split].
  - rewrite app_length, repeat_length, Hl. unfold MAX_PAYLOAD_SIZE in *. lia.
  - apply Forall_app. split; [exact Hb|]. apply Forall_forall. intros b Hr. apply repeat_spec in Hr. subst b.
    unfold is_byte. lia.
  - rewrite <- Hl at 1. rewrite firstn_app, firstn_all, Nat.sub_diag. cbn [firstn]. apply app_nil_r.
Qed.

Lemma gathered_distance v e ver p words i c : params_ok v e ver p ->
  (distance (gathered_block v e words i) c
   <= distance (received_block v e words i) c + (if (i <? short_blocks v e)%nat then 0 else 1))%nat.
Proof.
  intros P. unfold gathered_block. destruct (i <? short_blocks v e)%nat; [lia|]. exact (distance_upd [] _ _ _ _).
Qed.

Theorem reads_within_capacity v sym e mask data o : 1 <= v <= 40 -> v <> 21 ->
  format_says (symbol_size v) sym e mask ->
  length data = data_capacity v e -> Forall is_byte data ->
  within_capacity v e data (received_codewords v mask sym) ->
  reads v sym o -> o = Data e mask data.
Proof.
  intros Hv N Hf Hl Hb Hw Ho.
  destruct (db_params v e Hv) as (ver & p & P).
  destruct (received_words v mask sym) as [Wb Wl].
  destruct (buffer_of _ v e ver p P Wb Wl) as (raw & Rl & Rb & Rw).
  set (words := received_codewords v mask sym) in *.
  set (b := fun i => nth i (cut (block_data_lengths v e) data) []).
  assert (Hblk : forall i, (i < num_blocks v e)%nat ->
            nth i (symbol_blocks v e data) [] = b i ++ rs_parity (ecc_per_block v e) (b i)).
  { intros i Hi. unfold symbol_blocks.
    rewrite (nth_indep _ [] ((fun b => b ++ rs_parity (ecc_per_block v e) b) [])) by (rewrite map_length, blocks_length; assumption).
    rewrite (map_nth (fun b => b ++ rs_parity (ecc_per_block v e) b)). reflexivity. }
  assert (Hnear : forall i, (i < num_blocks v e)%nat ->
            let r := gathered_block v e words i in
            length (b i ++ rs_parity (ecc_per_block v e) (b i)) = length r /\
            rs_codeword (ecc_per_block v e) (b i ++ rs_parity (ecc_per_block v e) (b i)) /\
            (2 * distance r (b i ++ rs_parity (ecc_per_block v e) (b i)) <= ecc_per_block v e)%nat /\
            length (b i) = block_data v e i /\
            forall c, length c = length r -> rs_codeword (ecc_per_block v e) c ->
              (2 * distance r c <= ecc_per_block v e)%nat -> c = b i ++ rs_parity (ecc_per_block v e) (b i)).
  { intros i Hi r.
    assert (Hbb : Forall is_byte (b i)) by (apply blocks_bytes; assumption).
    destruct (rs_parity_codeword (ecc_per_block v e) Hbb) as [Lp Cp].
    assert (Lb : length (b i) = block_data v e i) by (apply block_length; assumption).
    destruct (q_facts v e ver p P raw i) as (Hd & Hbs & Hlt & Hec & H64 & Eq).
    destruct (blk_ok v e ver p P raw Rl Rb i Hi) as [L B].
    rewrite (gathered_is v e ver p P raw Rl Rb i Hi), Rw in L, B. fold r in L, B.
    assert (L1 : length (b i ++ rs_parity (ecc_per_block v e) (b i)) = length r).
    { rewrite app_length, Lp, Lb, L. lia. }
    assert (D1 : (2 * distance r (b i ++ rs_parity (ecc_per_block v e) (b i)) <= ecc_per_block v e)%nat).
    { specialize (Hw i Hi). rewrite (Hblk i Hi) in Hw. unfold misread in Hw.
      replace (v =? 21) with false in Hw by lia.
      pose proof (gathered_distance v e ver p words i (b i ++ rs_parity (ecc_per_block v e) (b i)) P) as G.
      fold r in G. destruct (i <? short_blocks v e)%nat; lia. }
    split; [exact L1|]. split; [exact Cp|]. split; [exact D1|]. split; [exact Lb|].
    intros c Lc Cc Dc.
    assert (G : forall x, length x = length r -> rs_codeword (ecc_per_block v e) x ->
              (2 * distance r x <= ecc_per_block v e)%nat ->
              correct_block GF256 r (mkRS (rs_bs (block_params p i)) (rs_dw (block_params p i)) 0) = Ok x).
    { intros x Lx Cx Dx. apply block_corrects; try rewrite Hec; try assumption; try lia; congruence. }
    pose proof (G c Lc Cc Dc) as E1. rewrite (G _ L1 Cp D1) in E1. injection E1 as E1. symmetry. exact E1. }
  destruct Ho as [e' mask' c Hf' Hc|[Hl1 Hl2]|e' mask' i Hf' Hi Hout].
  - destruct (format_says_unique _ _ _ _ _ _ Hf Hf') as [<- <-]. f_equal.
    transitivity (concat (cut (block_data_lengths v e) data)).
    2:{ apply concat_cut. rewrite Hl. unfold data_capacity. lia. }
    f_equal. rewrite <- (map_nth_seq [] (cut (block_data_lengths v e) data)).
    rewrite blocks_length by assumption. apply map_ext_in. intros i Hi. apply in_seq in Hi.
    destruct (Hnear i ltac:(lia)) as (L1 & C1 & D1 & Lb & U).
    destruct (Hc i ltac:(lia)) as (Lc & Cc & Mc).
    rewrite (U (c i) Lc Cc) by (specialize (Mc _ L1 C1); fold words in Mc; lia).
    fold (b i). rewrite <- Lb, firstn_app, firstn_all, Nat.sub_diag. cbn [firstn]. apply app_nil_r.
  - destruct Hf as [H|_ H]; [destruct (Hl1 _ _ H)|destruct (Hl2 _ _ H)].
  - destruct (format_says_unique _ _ _ _ _ _ Hf Hf') as [<- <-].
    destruct (Hnear i Hi) as (L1 & C1 & D1 & _ & _). specialize (Hout _ L1 C1). fold words in Hout. lia.
Qed.

(** The errors of [decode]. *)
Theorem decode_errors g x : total_grid g -> 9 <= g_size g -> grid_decode g = Err x ->
  In x [FormatEcc; InvalidVersion; DataEcc; DataUnderflow; UnknownDataType; EncodingError].
Proof.
  intros Ht Hs. unfold grid_decode. destruct (grid_decode_to vec_writer g []) as [w' [m|y| |]] eqn:E; cbn [bind]; try discriminate.
  - destruct (utf8_valid w'); [discriminate|]. intros [= <-]. cbn. tauto.
  - intros [= <-]. destruct (error_possible g Ht Hs _ _ _ _ _ E) as [[H _]|[H|(_ & w1 & c & H)]].
    + cbn in *. tauto.
    + cbn in *. tauto.
    + discriminate H.
Qed.

(** Consequences of the round trip and of the tables, in the form of the property statements. *)
From Verif Require Import Base Lib VersionDb ModelGF ModelRS ModelDecode SpecQR SpecPayload CountProofs StreamProofs
  PayloadProofs MessageProofs FormatProofs LayoutProofs EccDb EccProofs EccStream V21Proofs EndToEnd EncodeProofs
  GridProofs Refuted.
From Coq Require Import ZifyBool ZifyNat ZifyN.
Ltac Zify.zify_post_hook ::= Z.div_mod_to_equations.
Open Scope Z_scope.
Set Bullet Behavior "Strict Subproofs".

(** The symbol of the library's test [test_rqrr], one number per row. *)
Definition rqrr_rows : list Z := [2081919; 1072193; 1526621; 1524061; 1530717; 1068609; 2086271; 1024; 1392914; 1245865; 749295; 1613747; 381673; 7241; 2084115; 1068098; 1528155; 1526442; 1530593; 1066938; 2085607].

Theorem roundtrip v e mask m : 1 <= v <= 40 -> 0 <= mask < 8 -> message_ok v m -> fits v e m ->
  exists g, @simple_from_func deqr_error (symbol_size v) (fun x y => encode v e mask m y x) = Ok g /\
    grid_decode_to vec_writer (simple_grid g) [] = (message_bytes m, Ok (mkMeta v (level_bits e) mask)) /\
    (utf8_text (message_bytes m) ->
     grid_decode (simple_grid g) = Ok (mkMeta v (level_bits e) mask, message_bytes m)) /\
    (~ utf8_text (message_bytes m) -> grid_decode (simple_grid g) = Err EncodingError).
Proof.
  intros Hv Hm Hok Hfit.
  destruct (simple_grid_readable (symbol_size v) (fun x y => encode v e mask m y x)) as (g & E & Hs & Hr);
    [unfold symbol_size; lia|].
  exists g. split; [exact E|].
  assert (Hw : writes_message (simple_grid g) (message_bytes m) (mkMeta v (level_bits e) mask)).
  { apply (decode_symbol _ (encode v e mask m)); try assumption. apply encode_is_symbol; assumption. }
  destruct (writes_message_vec _ _ _ Hw) as [H1 H2]. split; [exact H1|]. rewrite H2. split; intros Hu.
  - apply utf8_valid_iff in Hu. rewrite Hu. reflexivity.
  - rewrite <- utf8_valid_iff in Hu. destruct (utf8_valid (message_bytes m)); [congruence|reflexivity].
Qed.

Lemma misread_values v e : 1 <= v <= 40 -> v <> 21 ->
  (forall i, (i < short_blocks v e)%nat -> misread v e i = 0%nat) /\
  (forall i, (short_blocks v e <= i)%nat -> misread v e i = 1%nat).
Proof.
  intros Hv N. unfold misread. replace (v =? 21)%Z with false by lia. split; intros i Hi.
  - apply Nat.ltb_lt in Hi. rewrite Hi. reflexivity.
  - apply Nat.ltb_ge in Hi. rewrite Hi. reflexivity.
Qed.

Lemma size9 v : 1 <= v -> 9 <= symbol_size v.
Proof. unfold symbol_size. lia. Qed.

Theorem format_first_three g sym v e mask :
  readable g sym -> g_size g = symbol_size v -> 1 <= v <= 40 -> 0 <= mask < 8 ->
  (bit_distance (format_read format_module_1 sym) (format_bits (format_word e mask)) <= 3)%nat ->
  read_format g = Ok (mkMeta v (level_bits e) mask).
Proof.
  intros Hr Hs Hv Hm Hd. apply (read_format_first_copy g sym); try assumption.
  - rewrite Hs. apply size9. lia.
  - rewrite Hs. apply version_of_symbol, Hv.
  - left. rewrite (proj1 (copy_word_bits _ _)). exact Hd.
Qed.

Theorem format_second_three g sym v e mask :
  readable g sym -> g_size g = symbol_size v -> 1 <= v <= 40 -> 0 <= mask < 8 ->
  correct_format (Z.lxor (copy_word format_module_1 sym) 21522) = Err FormatEcc ->
  (bit_distance (format_read (format_module_2 (symbol_size v)) sym) (format_bits (format_word e mask)) <= 3)%nat ->
  read_format g = Ok (mkMeta v (level_bits e) mask).
Proof.
  intros Hr Hs Hv Hm Hx Hd. apply (read_format_second_copy g sym); try assumption.
  - rewrite Hs. apply size9. lia.
  - rewrite Hs. apply version_of_symbol, Hv.
  - intros e' mask' Hm' Hc. unfold format_word in Hc. apply correctable_unmask in Hc.
    rewrite (correct_format_complete _ _ (masked_range _ _) (format_data_range e' mask' Hm') Hc) in Hx. discriminate.
  - left. rewrite (proj1 (copy_word_bits _ _)), Hs. exact Hd.
Qed.

Theorem format_characterised u : 0 <= u < 32768 ->
  (exists d, 0 <= d < 32 /\ correctable u (bch_codeword d) /\ correct_format u = Ok (bch_codeword d) /\
     forall d', 0 <= d' < 32 ->
       (bit_distance (format_bits u) (format_bits (bch_codeword d))
        <= bit_distance (format_bits u) (format_bits (bch_codeword d')))%nat) \/
  ((forall d, 0 <= d < 32 -> ~ correctable u (bch_codeword d)) /\ correct_format u = Err FormatEcc).
Proof.
  intros Hu. destruct (correct_format_sound u Hu) as [(d & Hd & Hc & E)|H]; [left|right; exact H].
  exists d. split; [exact Hd|split; [exact Hc|split; [exact E|]]]. intros d' Hd'.
  apply correctable_nearest; assumption.
Qed.

Theorem mirrored_symbol code sym v e mask m :
  readable code (fun y x => sym x y) -> g_size code = symbol_size v -> 1 <= v <= 40 -> 0 <= mask < 8 ->
  message_ok v m -> fits v e m -> is_symbol v e mask m sym -> (exists x, decode_inner code = Err x) ->
  writes_message code (message_bytes m) (mkMeta v (level_bits e) mask).
Proof.
  intros Hr Hs Hv Hm Hok Hfit (Hrec & Hf1 & Hf2) Hx.
  destruct (data_codewords_ok v (data_capacity v e) m Hfit) as (Hl & Hb & _).
  assert (Hr' : readable (MirroredGrid code) sym) by exact (readable_mirror code _ Hr).
  apply (decode_message_mirrored code sym); try assumption.
  - apply (read_format_first_copy _ sym); try assumption.
    + cbn [g_size MirroredGrid]. rewrite Hs. apply size9. lia.
    + cbn [g_size MirroredGrid]. rewrite Hs. apply version_of_symbol, Hv.
    + rewrite (copy_word_of_bits _ _ _ _ Hm Hf1). apply correctable_refl.
  - rewrite Hrec. apply undamaged; assumption.
Qed.

Theorem block_table v e : 1 <= v <= 40 -> exists ver p,
  nth_error VERSION_DATA_BASE (Z.to_nat v) = Some ver /\
  nth_error (vi_ecc ver) (Z.to_nat (level_bits e)) = Some p /\
  vi_data_bytes ver = Z.of_nat (total_codewords v) /\
  (rs_ns p = short_blocks v e)%nat /\
  (rs_bs p - rs_dw p = ecc_per_block v e)%nat /\
  (forall i, block_data v e i = if (i <? rs_ns p)%nat then rs_dw p else rs_dw p + 1)%nat /\
  (total_codewords v = rs_ns p * rs_bs p + (num_blocks v e - rs_ns p) * (rs_bs p + 1))%nat /\
  (rs_ns p <= num_blocks v e)%nat /\ (0 < rs_dw p < rs_bs p)%nat /\ (rs_bs p + 1 <= 255)%nat.
Proof.
  intros Hv. destruct (db_params v e Hv) as (ver & p & P). exists ver, p.
  pose proof (bs_eq _ _ _ _ P) as Hb. pose proof (ns_le _ _ _ _ P) as Hn. pose proof (d_pos _ _ _ _ P) as Hd.
  pose proof (po_lt _ _ _ _ P) as Hlt. pose proof (po_ec _ _ _ _ P) as Hec.
  split; [apply P|split; [apply P|split; [apply P|split; [apply P|]]]].
  split; [lia|]. split; [exact (block_data_eq _ _ _ _ P)|].
  split; [rewrite (total_eq _ _ _ _ P), Hb; nia|]. lia.
Qed.

Theorem reserved_standard v y x : 1 <= v <= 40 -> v <> 21 ->
  0 <= y < symbol_size v -> 0 <= x < symbol_size v -> reserved_cell v y x = Ok (function_module v y x).
Proof.
  intros Hv N Hy Hx. rewrite <- (reserved_function v y x) by assumption.
  apply reserved_cell_ok. lia.
Qed.

Theorem long_blocks_refuted :
  ~ (forall v e mask sym data, 1 <= v <= 40 -> 0 <= mask < 8 ->
       length data = data_capacity v e -> Forall is_byte data ->
       format_read format_module_1 sym = format_bits (format_word e mask) ->
       (forall i, (i < num_blocks v e)%nat ->
          (2 * distance (received_block v e (received_codewords v mask sym) i) (nth i (symbol_blocks v e data) [])
           <= ecc_per_block v e)%nat) ->
       grid_decode (grid_of (symbol_size v) sym) <> Err DataEcc).
Proof.
  intros H. specialize (H 5 EcQ 0 v5q_symbol v5q_data ltac:(lia) ltac:(lia)).
  destruct (data_codewords_ok 5 (data_capacity 5 EcQ) rqrr_message) as (Hl & Hb & _).
  { apply Nat.leb_le. vm_compute. reflexivity. }
  specialize (H Hl Hb v5q_format). apply H; [|exact v5q_not_decoded].
  destruct v5q_distances as [D E]. rewrite E. change (num_blocks 5 EcQ) with 4%nat in *. intros i Hi.
  assert (Hn : nth i (map (fun i => distance (received_block 5 EcQ (received_codewords 5 0 v5q_symbol) i)
                                             (nth i (symbol_blocks 5 EcQ v5q_data) [])) (seq 0 4)) O
               = nth i [0; 0; 9; 0]%nat O) by (rewrite D; reflexivity).
  rewrite (nth_indep _ O (distance (received_block 5 EcQ (received_codewords 5 0 v5q_symbol) 0)
                                             (nth 0 (symbol_blocks 5 EcQ v5q_data) []))) in Hn
    by (rewrite map_length, seq_length; exact Hi).
  rewrite (map_nth (fun i => distance (received_block 5 EcQ (received_codewords 5 0 v5q_symbol) i)
                                             (nth i (symbol_blocks 5 EcQ v5q_data) []))) in Hn.
  rewrite seq_nth in Hn by exact Hi. cbn [plus] in Hn. rewrite Hn.
  destruct i as [|[|[|[|i]]]]; cbn [nth]; lia.
Qed.

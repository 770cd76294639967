(** Properties of decoding whole symbols: C01, C02, C05, C06, C21-C24, C44, C45.
    Every theorem is followed by its assumptions and by a case meeting its hypotheses. *)
From Verif Require Import Base Lib VersionDb ModelGF ModelRS ModelDecode SpecQR SpecPayload CountProofs StreamProofs
  PayloadProofs MessageProofs FormatProofs LayoutProofs EccDb EccProofs EccStream V21Proofs EndToEnd EncodeProofs
  GridProofs Refuted SymbolProofs.
From Coq Require Import ZifyBool ZifyNat ZifyN.
Open Scope Z_scope.
Set Bullet Behavior "Strict Subproofs".

(** * Messages used in the examples *)

(** "12345" in numeric mode, then "A-7" alphanumeric, then an ECI header and two bytes. *)
Definition mixed_message : list segment :=
  [Numeric [1; 2; 3; 4; 5]; Alphanumeric [10; 41; 7]; Eci 26; ByteMode [195; 164]].

Example mixed_message_ok : message_ok 1 mixed_message /\ fits 1 EcL mixed_message /\ utf8_text (message_bytes mixed_message).
Proof.
  split; [|split].
  - unfold message_ok, mixed_message, segment_ok, is_byte. repeat constructor; cbn; lia.
  - unfold fits. apply Nat.leb_le. vm_compute. reflexivity.
  - apply utf8_valid_iff. vm_compute. reflexivity.
Qed.

(** * C01 *)

(** For every version, level, mask and message: any grid holding an undamaged symbol of the message
    decodes to the message's bytes, for every writer. *)
Theorem C01_undamaged_symbol code sym v e mask m :
  readable code sym -> g_size code = symbol_size v -> 1 <= v <= 40 -> 0 <= mask < 8 ->
  message_ok v m -> fits v e m -> is_symbol v e mask m sym ->
  writes_message code (message_bytes m) (mkMeta v (level_bits e) mask).
Proof. exact (decode_symbol code sym v e mask m). Qed.
Print Assumptions C01_undamaged_symbol.

(** The same through the API: the symbol drawn by the reference encoder, stored in a [SimpleGrid],
    given to [Grid::decode_to] with a vector and to [Grid::decode]. *)
Theorem C01_roundtrip v e mask m :
  1 <= v <= 40 -> 0 <= mask < 8 -> message_ok v m -> fits v e m ->
  exists g, @simple_from_func deqr_error (symbol_size v) (fun x y => encode v e mask m y x) = Ok g /\
    grid_decode_to vec_writer (simple_grid g) [] = (message_bytes m, Ok (mkMeta v (level_bits e) mask)) /\
    (utf8_text (message_bytes m) ->
     grid_decode (simple_grid g) = Ok (mkMeta v (level_bits e) mask, message_bytes m)) /\
    (~ utf8_text (message_bytes m) -> grid_decode (simple_grid g) = Err EncodingError).
Proof. exact (roundtrip v e mask m). Qed.
Print Assumptions C01_roundtrip.

Example C01_example : exists g,
  @simple_from_func deqr_error 21 (fun x y => encode 1 EcL 3 mixed_message y x) = Ok g /\
  grid_decode (simple_grid g) = Ok (mkMeta 1 1 3, [49; 50; 51; 52; 53; 65; 45; 55; 195; 164]).
Proof.
  destruct mixed_message_ok as (H1 & H2 & H3).
  destruct (C01_roundtrip 1 EcL 3 mixed_message ltac:(lia) ltac:(lia) H1 H2) as (g & E & _ & H & _).
  exists g. split; [exact E|]. exact (H H3).
Qed.

(** * C02 *)

(** Damage: the codewords carried by the symbol may differ from those encoded.  [within_capacity]
    asks that in every block the damaged codewords together with the ones misread by the library
    ([misread]: one in a long block, and a fixed number in version 21) are at most half the number
    of check codewords. *)
Theorem C02_damaged_symbol code sym v e mask m :
  readable code sym -> g_size code = symbol_size v -> 1 <= v <= 40 -> 0 <= mask < 8 ->
  message_ok v m -> fits v e m ->
  read_format code = Ok (mkMeta v (level_bits e) mask) ->
  within_capacity v e (data_codewords v (data_capacity v e) m) (received_codewords v mask sym) ->
  writes_message code (message_bytes m) (mkMeta v (level_bits e) mask).
Proof. exact (decode_message code sym v e mask m). Qed.
Print Assumptions C02_damaged_symbol.

(** Except in version 21, the full capacity of the standard is available in the short blocks, hence
    in all blocks when they have equal lengths. *)
Theorem C02_full_capacity v e : 1 <= v <= 40 -> v <> 21 ->
  (forall i, (i < short_blocks v e)%nat -> misread v e i = 0%nat) /\
  (forall i, (short_blocks v e <= i)%nat -> misread v e i = 1%nat).
Proof. exact (misread_values v e). Qed.
Print Assumptions C02_full_capacity.

(** * C05 *)

(** At most three wrong modules in the first copy. *)
Theorem C05_first_copy g sym v e mask :
  readable g sym -> g_size g = symbol_size v -> 1 <= v <= 40 -> 0 <= mask < 8 ->
  (bit_distance (format_read format_module_1 sym) (format_bits (format_word e mask)) <= 3)%nat ->
  read_format g = Ok (mkMeta v (level_bits e) mask).
Proof. exact (format_first_three g sym v e mask). Qed.
Print Assumptions C05_first_copy.

(** A first copy that is too far from every format word, and at most three wrong modules in the
    second one. *)
Theorem C05_second_copy g sym v e mask :
  readable g sym -> g_size g = symbol_size v -> 1 <= v <= 40 -> 0 <= mask < 8 ->
  correct_format (Z.lxor (copy_word format_module_1 sym) 21522) = Err FormatEcc ->
  (bit_distance (format_read (format_module_2 (symbol_size v)) sym) (format_bits (format_word e mask)) <= 3)%nat ->
  read_format g = Ok (mkMeta v (level_bits e) mask).
Proof. exact (format_second_three g sym v e mask). Qed.
Print Assumptions C05_second_copy.

(** A symbol of version 2 whose first copy has been overwritten with a word far from the code, and
    whose second copy has three wrong modules. *)
Definition torn_symbol (y x : Z) : bool :=
  if (y <? 9) && (x <? 9) then Z.testbit (Z.lxor 15 21522) (match find (fun i => let p := format_module_1 i in (fst p =? y) && (snd p =? x)) (seq 0 15) with Some i => Z.of_nat i | None => 0 end)
  else xorb (match find (fun i => let p := format_module_2 25 i in (fst p =? y) && (snd p =? x)) (seq 0 15) with
             | Some i => Z.testbit (format_word EcQ 5) (Z.of_nat i) | None => false end)
            ((y =? 8) && (22 <=? x)).
Example C05_example : read_format (grid_of 25 torn_symbol) = Ok (mkMeta 2 3 5).
Proof.
  apply (C05_second_copy _ torn_symbol 2 EcQ 5); try lia; [apply grid_of_readable|reflexivity|vm_compute; reflexivity|].
  apply Nat.leb_le. vm_compute. reflexivity.
Qed.

(** C02: *)
(** A version 1-M symbol (26 codewords, 10 of them check codewords) with five wrong codewords. *)
Definition damaged_codewords : list Z :=
  damaged (symbol_codewords 1 EcM (data_codewords 1 (data_capacity 1 EcM) rqrr_message)) [0; 3; 7; 20; 25]%nat.

Example C02_example : writes_message (grid_of 21 (draw 1 EcM 0 damaged_codewords)) [114; 113; 114; 114] (mkMeta 1 0 0).
Proof.
  assert (Hl : length damaged_codewords = total_codewords 1) by (vm_compute; reflexivity).
  assert (Hb : Forall is_byte damaged_codewords).
  { apply Forall_forall. intros x Hx.
    assert (H : forallb (fun z => (0 <=? z) && (z <? 256)) damaged_codewords = true) by (vm_compute; reflexivity).
    rewrite forallb_forall in H. specialize (H x Hx). unfold is_byte. lia. }
  apply (C02_damaged_symbol _ (draw 1 EcM 0 damaged_codewords) 1 EcM 0 rqrr_message); try lia.
  - apply grid_of_readable.
  - reflexivity.
  - unfold message_ok, rqrr_message, segment_ok, is_byte. repeat constructor; cbn; lia.
  - unfold fits. apply Nat.leb_le. vm_compute. reflexivity.
  - apply (C05_first_copy _ (draw 1 EcM 0 damaged_codewords)); try lia; [apply grid_of_readable|reflexivity|].
    rewrite draw_format_1 by lia. apply Nat.leb_le. vm_compute. reflexivity.
  - rewrite draw_codewords; [|lia|assumption|assumption].
    intros i Hi. change (num_blocks 1 EcM) with 1%nat in Hi. assert (i = 0%nat) by lia. subst i. apply Nat.leb_le. vm_compute. reflexivity.
Qed.

(** * C06 *)

(** Exactly which words are accepted: those from which a valid word is reached by at most three bit
    errors or by one of 18 particular patterns of four or five.  The answer is a nearest valid
    word. *)
Theorem C06_format_correction u : 0 <= u < 32768 ->
  (exists d, 0 <= d < 32 /\ correctable u (bch_codeword d) /\ correct_format u = Ok (bch_codeword d) /\
     forall d', 0 <= d' < 32 ->
       (bit_distance (format_bits u) (format_bits (bch_codeword d))
        <= bit_distance (format_bits u) (format_bits (bch_codeword d')))%nat) \/
  ((forall d, 0 <= d < 32 -> ~ correctable u (bch_codeword d)) /\ correct_format u = Err FormatEcc).
Proof. exact (format_characterised u). Qed.
Print Assumptions C06_format_correction.

Theorem C06_within_three u d : 0 <= u < 32768 -> 0 <= d < 32 ->
  (bit_distance (format_bits u) (format_bits (bch_codeword d)) <= 3)%nat -> correct_format u = Ok (bch_codeword d).
Proof. exact (fun Hu Hd H => correct_format_complete u d Hu Hd (or_introl H)). Qed.
Print Assumptions C06_within_three.

Example C06_example : correct_format (Z.lxor (bch_codeword 19) 16389) = Ok (bch_codeword 19) /\ correct_format 15 = Err FormatEcc.
Proof. split; vm_compute; reflexivity. Qed.

(** * C44: words further than three errors from the code are also accepted *)
Theorem C44_beyond_three_refuted :
  ~ (forall u w, 0 <= u < 32768 -> correct_format u = Ok w ->
       (bit_distance (format_bits u) (format_bits w) <= 3)%nat).
Proof.
  intros H. specialize (H 209 0 ltac:(lia)).
  assert (E : correct_format 209 = Ok 0) by (vm_compute; reflexivity).
  specialize (H E). apply Nat.leb_le in H. vm_compute in H. discriminate H.
Qed.
Print Assumptions C44_beyond_three_refuted.

(** * C21 *)

(** The transposed grid is consulted exactly when the direct attempt fails before the payload, and
    its outcome is used unless it fails too. *)
Theorem C21_mirrored code :
  (forall x, decode_inner code = Err x ->
     (forall s, decode_inner (MirroredGrid code) = Ok s ->
        forall W (wr : W -> list Z -> W * bool) w, decode wr code w = decode wr (MirroredGrid code) w) /\
     (forall x', decode_inner (MirroredGrid code) = Err x' ->
        forall W (wr : W -> list Z -> W * bool) w, decode wr code w = (w, Err x))) /\
  (forall meta ds, decode_inner code = Ok (meta, ds) ->
     forall W (wr : W -> list Z -> W * bool) w,
       decode wr code w = (do* _ := decode_payload wr meta ds in io_ret meta) w).
Proof. exact (decode_mirrored code). Qed.
Print Assumptions C21_mirrored.

Theorem C21_mirrored_symbol code sym v e mask m :
  readable code (fun y x => sym x y) -> g_size code = symbol_size v -> 1 <= v <= 40 -> 0 <= mask < 8 ->
  message_ok v m -> fits v e m -> is_symbol v e mask m sym -> (exists x, decode_inner code = Err x) ->
  writes_message code (message_bytes m) (mkMeta v (level_bits e) mask).
Proof. exact (mirrored_symbol code sym v e mask m). Qed.
Print Assumptions C21_mirrored_symbol.

(** The transposed version 1-M symbol of the library's tests ("rqrr"): its direct reading fails. *)
Definition mirrored_rqrr : BitGrid := MirroredGrid (grid_of 21 (table_symbol 21 rqrr_rows)).
Example C21_example : (exists x, decode_inner mirrored_rqrr = Err x) /\
  grid_decode mirrored_rqrr = Ok (mkMeta 1 0 0, [114; 113; 114; 114]).
Proof. split; [eexists|]; vm_compute; reflexivity. Qed.

(** * C22 *)

(** Outside version 21 the library's function patterns are the standard's. *)
Theorem C22_function_patterns v y x : 1 <= v <= 40 -> v <> 21 ->
  0 <= y < symbol_size v -> 0 <= x < symbol_size v -> reserved_cell v y x = Ok (function_module v y x).
Proof. exact (reserved_standard v y x). Qed.
Print Assumptions C22_function_patterns.

Theorem C22_version_21_refuted :
  ~ (forall v y x, 1 <= v <= 40 -> 0 <= y < symbol_size v -> 0 <= x < symbol_size v ->
       reserved_cell v y x = Ok (function_module v y x)).
Proof.
  intros H. specialize (H 21 50 90 ltac:(lia) ltac:(unfold symbol_size; lia) ltac:(unfold symbol_size; lia)).
  vm_compute in H. discriminate H.
Qed.
Print Assumptions C22_version_21_refuted.

(** In both directions: a data module taken for a function pattern and the reverse. *)
Example C22_example :
  (reserved_cell 21 50 90 = Ok true /\ function_module 21 50 90 = false) /\
  (reserved_cell 21 50 96 = Ok false /\ function_module 21 50 96 = true).
Proof. repeat split; vm_compute; reflexivity. Qed.

(** The damage this does: in version 21 these many codewords of every block may be misread; all of
    them are corrected in an undamaged symbol (C01), at level L with nothing to spare. *)
Theorem C22_misread_codewords mask sym e i c : (i < num_blocks 21 e)%nat ->
  (distance (received_block 21 e (firstn (total_codewords 21) (group8 (S (total_codewords 21))
       (map (cell_bit true mask sym) (unreserved 21 (scan 101))))) i) c
   <= distance (received_block 21 e (received_codewords 21 mask sym) i) c + nth i (v21_lost e) O)%nat.
Proof. exact (received_v21 mask sym e i c). Qed.
Print Assumptions C22_misread_codewords.

(** * C23 *)

(** For all 160 pairs of version and level the decoder's table holds the standard's numbers. *)
Theorem C23_block_table v e : 1 <= v <= 40 -> exists ver p,
  nth_error VERSION_DATA_BASE (Z.to_nat v) = Some ver /\
  nth_error (vi_ecc ver) (Z.to_nat (level_bits e)) = Some p /\
  vi_data_bytes ver = Z.of_nat (total_codewords v) /\
  (rs_ns p = short_blocks v e)%nat /\
  (rs_bs p - rs_dw p = ecc_per_block v e)%nat /\
  (forall i, block_data v e i = if (i <? rs_ns p)%nat then rs_dw p else rs_dw p + 1)%nat /\
  (total_codewords v = rs_ns p * rs_bs p + (num_blocks v e - rs_ns p) * (rs_bs p + 1))%nat /\
  (rs_ns p <= num_blocks v e)%nat /\ (0 < rs_dw p < rs_bs p)%nat /\ (rs_bs p + 1 <= 255)%nat.
Proof. exact (block_table v e). Qed.
Print Assumptions C23_block_table.

Example C23_example : num_blocks 5 EcQ = 4%nat /\ short_blocks 5 EcQ = 2%nat /\ block_data_lengths 5 EcQ = [15; 15; 16; 16]%nat.
Proof. repeat split; vm_compute; reflexivity. Qed.

(** * C24 *)

(** Nine errors in a block with 18 check codewords are within the code's capacity, yet this symbol
    of version 5-Q is rejected: the block is a long one. *)
Theorem C24_long_blocks_refuted :
  ~ (forall v e mask sym data, 1 <= v <= 40 -> 0 <= mask < 8 ->
       length data = data_capacity v e -> Forall is_byte data ->
       format_read format_module_1 sym = format_bits (format_word e mask) ->
       (forall i, (i < num_blocks v e)%nat ->
          (2 * distance (received_block v e (received_codewords v mask sym) i) (nth i (symbol_blocks v e data) [])
           <= ecc_per_block v e)%nat) ->
       grid_decode (grid_of (symbol_size v) sym) <> Err DataEcc).
Proof. exact long_blocks_refuted. Qed.
Print Assumptions C24_long_blocks_refuted.

(** Properties of decoding arbitrary grids: C07-C13, C20, C25, C26. *)
From Verif Require Import Base Lib VersionDb ModelGF ModelRS ModelDecode SpecQR CountProofs StreamProofs FormatProofs
  LayoutProofs EncodeProofs GridProofs Refuted SymbolProofs RawProofs.
From Coq Require Import ZifyBool ZifyNat ZifyN.
Open Scope Z_scope.
Set Bullet Behavior "Strict Subproofs".

(** A grid used in the examples: 21x21, the symbol of the library's own test. *)
Definition rqrr_grid : BitGrid := grid_of 21 (table_symbol 21 rqrr_rows).
Example rqrr_grid_total : total_grid rqrr_grid /\ 9 <= g_size rqrr_grid.
Proof. split; [intros y x _ _; eexists; reflexivity|cbn; lia]. Qed.

(** * C07 *)
Theorem C07_decode_to_returns g : total_grid g -> 9 <= g_size g ->
  forall W (wr : W -> list Z -> W * bool) w, returns (snd (grid_decode_to wr g w)).
Proof. exact (decode_to_returns g). Qed.
Print Assumptions C07_decode_to_returns.

Theorem C07_decode_returns g : total_grid g -> 9 <= g_size g -> returns (grid_decode g).
Proof. exact (decode_returns g). Qed.
Print Assumptions C07_decode_returns.

Theorem C07_raw_returns g : total_grid g -> 9 <= g_size g -> returns (grid_get_raw_data g).
Proof. exact (raw_returns g). Qed.
Print Assumptions C07_raw_returns.

(** Every grid built with [SimpleGrid::from_func] meets the first hypothesis. *)
Theorem C07_simple_grid_total size f : 0 <= size < 2 ^ 32 -> exists g,
  @simple_from_func deqr_error size f = Ok g /\ total_grid (simple_grid g) /\ g_size (simple_grid g) = size.
Proof. exact (simple_grid_total size f). Qed.
Print Assumptions C07_simple_grid_total.

Example C07_example : returns (grid_decode rqrr_grid).
Proof. apply C07_decode_returns; apply rqrr_grid_total. Qed.

(** * C08 *)
Theorem C08_tiny_grids_refuted :
  ~ (forall size f g, 0 <= size -> @simple_from_func deqr_error size f = Ok g ->
       returns (snd (grid_decode_to vec_writer (simple_grid g) []))).
Proof. exact tiny_grids_refuted. Qed.
Print Assumptions C08_tiny_grids_refuted.

(** More precisely: every grid of size at most 8 panics. *)
Theorem C08_tiny_grids_panic size f : 0 <= size <= 8 -> exists g,
  @simple_from_func deqr_error size f = Ok g /\
  forall W (wr : W -> list Z -> W * bool) w, grid_decode_to wr (simple_grid g) w = (w, Panic).
Proof. exact (tiny_grid_panics size f). Qed.
Print Assumptions C08_tiny_grids_panic.

(** * C09 *)

(** The raw stream is the sequence of the symbol's data modules... *)
Theorem C09_data_module_order g sym v meta rd :
  readable g sym -> g_size g = symbol_size v -> 1 <= v <= 40 -> v <> 21 ->
  grid_get_raw_data g = Ok (meta, rd) -> raw_bits rd = map (fun p => sym (fst p) (snd p)) (data_modules v).
Proof. exact (raw_data_modules g sym v meta rd). Qed.
Print Assumptions C09_data_module_order.

(** ... which are the modules outside the function patterns, each once. *)
Theorem C09_data_modules v : 1 <= v <= 40 -> NoDup (data_modules v) /\
  forall y x, In (y, x) (data_modules v) <->
    0 <= y < symbol_size v /\ 0 <= x < symbol_size v /\ function_module v y x = false.
Proof. exact (fun Hv => conj (data_modules_NoDup v) (fun y x => data_modules_iff v y x Hv)). Qed.
Print Assumptions C09_data_modules.

Example C09_example : firstn 6 (data_modules 1) = [(20, 20); (20, 19); (19, 20); (19, 19); (18, 20); (18, 19)] /\
  is_ok (grid_get_raw_data rqrr_grid) = true.
Proof. split; vm_compute; reflexivity. Qed.

(** * C10 *)
Theorem C10_raw_length g sym v meta rd :
  readable g sym -> g_size g = symbol_size v -> 1 <= v <= 40 -> grid_get_raw_data g = Ok (meta, rd) ->
  rd_len rd = Z.of_nat (length (data_modules v)) /\ Forall (fun b => b = false) (raw_rest rd) /\
  Z.of_nat (length (rd_data rd)) = MAX_PAYLOAD_SIZE /\ Forall is_byte (rd_data rd).
Proof. exact (raw_data_length g sym v meta rd). Qed.
Print Assumptions C10_raw_length.

(** The number of data modules is that of Table 1 of the standard. *)
Theorem C10_capacity v : 1 <= v <= 40 ->
  Z.of_nat (length (data_modules v)) = 8 * Z.of_nat (total_codewords v) + snd (capacity v) /\
  Z.of_nat (total_codewords v) = fst (capacity v) /\ In (snd (capacity v)) [0; 3; 4; 7].
Proof. exact (capacity_table v). Qed.
Print Assumptions C10_capacity.

Example C10_example : capacity 7 = (196, 0) /\ capacity 40 = (3706, 0).
Proof. split; vm_compute; reflexivity. Qed.

(** * C11 *)

(** The decoder works on the raw stream with the mask of the format information removed, module by
    module. *)
Theorem C11_mask_removal g sym : readable g sym -> 9 <= g_size g ->
  forall meta rd, grid_get_raw_data g = Ok (meta, rd) ->
  exists cells rd', get_raw g true = Ok (meta, rd') /\
    raw_bits rd = map (fun p => sym (fst p) (snd p)) cells /\
    raw_bits rd' = map (fun p => xorb (sym (fst p) (snd p)) (mask_pattern (md_mask meta) (fst p) (snd p))) cells /\
    decode_inner g = (let* stream := codestream_ecc meta rd' in Ok (meta, stream)).
Proof. exact (raw_masked g sym). Qed.
Print Assumptions C11_mask_removal.

(** * C12 *)
Theorem C12_metadata g : total_grid g -> 9 <= g_size g ->
  forall W (wr : W -> list Z -> W * bool) w w' meta, grid_decode_to wr g w = (w', Ok meta) ->
  1 <= md_version meta <= 40 /\ 17 + 4 * md_version meta <= g_size g < 21 + 4 * md_version meta /\
  0 <= md_ecc_level meta < 4 /\ 0 <= md_mask meta < 8.
Proof. exact (decode_meta_ok g). Qed.
Print Assumptions C12_metadata.

Theorem C12_raw_metadata g : total_grid g -> 9 <= g_size g ->
  forall meta rd, grid_get_raw_data g = Ok (meta, rd) ->
  1 <= md_version meta <= 40 /\ 17 + 4 * md_version meta <= g_size g < 21 + 4 * md_version meta /\
  0 <= md_ecc_level meta < 4 /\ 0 <= md_mask meta < 8.
Proof. exact (raw_meta_ok g). Qed.
Print Assumptions C12_raw_metadata.

Example C12_example : exists out, grid_decode_to vec_writer rqrr_grid [] = (out, Ok (mkMeta 1 0 0)).
Proof. eexists. vm_compute. reflexivity. Qed.

(** * C13 *)
Theorem C13_roundtrip v : 1 <= v <= 40 -> version_from_size (version_to_size v) = Ok v.
Proof. exact (version_roundtrip v). Qed.
Print Assumptions C13_roundtrip.

(** [to_size] gives the smallest of the four sizes that stand for a version. *)
Theorem C13_to_size v b : 1 <= v <= 40 -> (version_from_size b = Ok v <-> version_to_size v <= b <= version_to_size v + 3).
Proof. exact (version_least v b). Qed.
Print Assumptions C13_to_size.

Theorem C13_accepted b v : version_from_size b = Ok v <-> 1 <= v <= 40 /\ 17 + 4 * v <= b < 21 + 4 * v.
Proof. exact (version_from_size_ok b v). Qed.
Print Assumptions C13_accepted.

Theorem C13_rejected b : version_from_size b = Err InvalidVersion <-> ~ 21 <= b <= 180.
Proof. exact (version_from_size_err b). Qed.
Print Assumptions C13_rejected.

Theorem C13_monotone b b' v v' :
  version_from_size b = Ok v -> version_from_size b' = Ok v' -> b <= b' -> v <= v'.
Proof. exact (version_monotone b b' v v'). Qed.
Print Assumptions C13_monotone.

Example C13_example : version_from_size 177 = Ok 40 /\ version_from_size 180 = Ok 40 /\ version_from_size 181 = Err InvalidVersion.
Proof. repeat split; vm_compute; reflexivity. Qed.

(** * C20 *)

(** There is one sequence of writes, the same for every writer; decoding performs it up to the first
    write that fails. *)
Theorem C20_writers g : total_grid g -> 9 <= g_size g -> exists chunks r, returns r /\
  forall W (wr : W -> list Z -> W * bool) w,
    (exists w', accepts wr w chunks w' /\ grid_decode_to wr g w = (w', r)) \/
    (exists done c rest w1 w2, chunks = done ++ c :: rest /\ accepts wr w done w1 /\
       wr w1 c = (w2, false) /\ grid_decode_to wr g w = (w2, Err IoError)).
Proof. exact (decode_writers g). Qed.
Print Assumptions C20_writers.

(** A writer that takes two pieces and then fails. *)
Example C20_example : grid_decode_to (fun n (_ : list Z) => (S n, (n <? 2)%nat)) rqrr_grid O = (3%nat, Err IoError).
Proof. vm_compute. reflexivity. Qed.

(** * C25 *)
Theorem C25_decode_ok g meta s :
  grid_decode g = Ok (meta, s) <-> grid_decode_to vec_writer g [] = (s, Ok meta) /\ utf8_text s.
Proof. exact (decode_string g meta s). Qed.
Print Assumptions C25_decode_ok.

Theorem C25_decode_err g x :
  grid_decode g = Err x <->
  (exists out, grid_decode_to vec_writer g [] = (out, Err x)) \/
  (x = EncodingError /\ exists out meta, grid_decode_to vec_writer g [] = (out, Ok meta) /\ ~ utf8_text out).
Proof. exact (decode_string_err g x). Qed.
Print Assumptions C25_decode_err.

Example C25_example : utf8_text [206; 187; 120; 226; 130; 172; 240; 159; 152; 128] /\ ~ utf8_text [237; 160; 128].
Proof.
  split; [apply utf8_valid_iff; vm_compute; reflexivity|].
  rewrite <- utf8_valid_iff. vm_compute. discriminate.
Qed.

(** * C26 *)
Theorem C26_simple_grid size f : 0 <= size < 2 ^ 32 -> exists g, @simple_from_func deqr_error size f = Ok g /\
  g_size (simple_grid g) = size /\
  forall y x, 0 <= y < size -> 0 <= x < size -> g_bit (simple_grid g) y x = Ok (f x y).
Proof. exact (simple_grid_stores size f). Qed.
Print Assumptions C26_simple_grid.

(** The bound is that of the number of modules: a larger side panics. *)
Theorem C26_too_big size f : 2 ^ 32 <= size -> @simple_from_func deqr_error size f = Panic.
Proof. exact (huge_grid_panics size f). Qed.
Print Assumptions C26_too_big.

Example C26_example : exists g, @simple_from_func deqr_error 5 (fun x y => (x <? y)) = Ok g /\
  g_bit (simple_grid g) 4 1 = Ok true /\ g_bit (simple_grid g) 1 4 = Ok false.
Proof. eexists. repeat split; vm_compute; reflexivity. Qed.

(** Properties of the modules decoding looks at: C80.
    Every theorem is followed by its assumptions and by a case meeting its hypotheses. *)
From Verif Require Import Base Lib ModelDecode SpecNeeded SpecPayload
  FormatProofs EndToEnd EncodeProofs GridProofs RawProofs Refuted SymbolProofs NeededProofs PropSymbol SpecQR.
From Coq Require Import ZifyBool.
Open Scope Z_scope.
Set Bullet Behavior "Strict Subproofs".

(** * C80 *)

(** Two grids that agree on the modules of the codewords and of the format information are decoded alike, whatever they
    have, or do, elsewhere: finder, timing and alignment patterns and the version information are never looked at. *)
Theorem C80_decode v g g' : 1 <= v <= 40 -> v <> 21 -> agree_where_needed v g g' ->
  (forall W (wr : W -> list Z -> W * bool) w, grid_decode_to wr g w = grid_decode_to wr g' w)
  /\ grid_decode g = grid_decode g' /\ grid_get_raw_data g = grid_get_raw_data g'.
Proof. exact (decode_agree v g g'). Qed.
Print Assumptions C80_decode.

(** Panicking elsewhere makes no difference. *)
Theorem C80_never_asked v g : 1 <= v <= 40 -> v <> 21 -> g_size g = symbol_size v ->
  (forall W (wr : W -> list Z -> W * bool) w, grid_decode_to wr (only_needed v g) w = grid_decode_to wr g w)
  /\ grid_decode (only_needed v g) = grid_decode g /\ grid_get_raw_data (only_needed v g) = grid_get_raw_data g.
Proof. exact (never_asked v g). Qed.
Print Assumptions C80_never_asked.

(** Neither does painting another picture over the other modules. *)
Theorem C80_repainted v sym other g : 1 <= v <= 40 -> v <> 21 -> g_size g = symbol_size v -> readable g (repainted v sym other) ->
  grid_decode g = grid_decode (mkGrid (symbol_size v) (fun y x => Ok (sym y x)))
  /\ grid_get_raw_data g = grid_get_raw_data (mkGrid (symbol_size v) (fun y x => Ok (sym y x))).
Proof. exact (repainted_decode v sym other g). Qed.
Print Assumptions C80_repainted.

(** Every module of the codewords does make a difference: another colour, other raw data. *)
Theorem C80_data_matter v sym sym' g g' meta meta' rd rd' y x : 1 <= v <= 40 -> v <> 21 ->
  readable g sym -> g_size g = symbol_size v -> readable g' sym' -> g_size g' = symbol_size v ->
  grid_get_raw_data g = Ok (meta, rd) -> grid_get_raw_data g' = Ok (meta', rd') ->
  0 <= y < symbol_size v -> 0 <= x < symbol_size v -> function_module v y x = false -> sym y x <> sym' y x -> raw_bits rd <> raw_bits rd'.
Proof. exact (data_matter v sym sym' g g' meta meta' rd rd' y x). Qed.
Print Assumptions C80_data_matter.

(** So does every needed module of the format information: a blank grid that panics there makes decoding panic. *)
Theorem C80_format_matter v y x : 1 <= v <= 40 -> 0 <= y < symbol_size v -> 0 <= x < symbol_size v ->
  format_module v y x = true -> timing_module y x = false -> grid_decode (blank_except v y x) = Panic.
Proof. exact (format_matter v y x). Qed.
Print Assumptions C80_format_matter.

(** "rqrr" with all the other modules black. *)
Definition bare_rqrr : BitGrid := grid_of 21 (repainted 1 (table_symbol 21 rqrr_rows) (fun _ _ => true)).

Example C80_example : grid_decode bare_rqrr = Ok (mkMeta 1 0 0, [114; 113; 114; 114]).
Proof.
  destruct (C80_repainted 1 (table_symbol 21 rqrr_rows) (fun _ _ => true) bare_rqrr) as [E _]; [lia|lia|reflexivity|apply grid_of_readable|].
  rewrite E. vm_compute. reflexivity.
Qed.

Example C80_example_never_asked : grid_decode (only_needed 1 (grid_of 21 (table_symbol 21 rqrr_rows))) = Ok (mkMeta 1 0 0, [114; 113; 114; 114])
  /\ g_bit (only_needed 1 (grid_of 21 (table_symbol 21 rqrr_rows))) 0 0 = Panic.
Proof.
  split; [|reflexivity]. destruct (C80_never_asked 1 (grid_of 21 (table_symbol 21 rqrr_rows))) as (_ & E & _); [lia|lia|reflexivity|].
  rewrite E. vm_compute. reflexivity.
Qed.

(** Of the 441 modules of version 1, 239 are needed: 208 for codewords, 30 for format information, and the dark one. *)
Example C80_example_count : length (filter (fun q => needed 1 (fst q) (snd q)) (list_prod (rows 21) (rows 21))) = 239%nat /\ length (data_modules 1) = 208%nat.
Proof. split; vm_compute; reflexivity. Qed.

Example C80_example_matter : needed 7 37 8 = true /\ grid_decode (blank_except 7 37 8) = Panic.
Proof. split; [vm_compute; reflexivity|]. apply C80_format_matter; [lia|cbn; lia|cbn; lia|reflexivity|reflexivity]. Qed.

(** In version 21, where the library has alignment patterns in wrong places (C22), modules of function patterns are looked at. *)
Theorem C80_version_21_refuted : ~ (forall v g, 1 <= v <= 40 -> g_size g = symbol_size v -> grid_get_raw_data (only_needed v g) = grid_get_raw_data g).
Proof.
  intros H. specialize (H 21 (grid_of 101 (fun y x => Z.odd ((y + x) / 2))) ltac:(lia) eq_refl).
  assert (E : match grid_get_raw_data (only_needed 21 (grid_of 101 (fun y x => Z.odd ((y + x) / 2)))) with Panic => true | _ => false end = true) by (vm_compute; reflexivity).
  assert (E' : match grid_get_raw_data (grid_of 101 (fun y x => Z.odd ((y + x) / 2))) with Panic => true | _ => false end = false) by (vm_compute; reflexivity).
  rewrite H, E' in E. discriminate E.
Qed.
Print Assumptions C80_version_21_refuted.

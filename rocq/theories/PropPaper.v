(** Properties of greyscale pictures of symbols printed in dots: C60.
    Every theorem is followed by its assumptions and by a case meeting its hypotheses. *)
From Coq Require Import SpecFloat.
From Verif Require Import Base Lib ModelDecode ModelImage ModelGeometry ModelDetect ModelIdentify SpecPayload SpecImage SpecThreshold SpecFinder SpecPicture
  FormatProofs EndToEnd EncodeProofs GridProofs Refuted SymbolProofs DrawProofs PictureProofs PaperProofs PropSymbol PropPicture SpecQR.
From Coq Require Import ZifyBool.
Open Scope Z_scope.
Set Bullet Behavior "Strict Subproofs".

(** * C60 *)

(** Black dots on light paper, with a quiet zone of four modules to the left and to the right: beside every dark
    pixel the row is light enough for the running means of the thresholding. *)
Theorem C60_two_toned v sym m k ox oy r w h fill : 1 <= v <= 40 -> function_patterns v sym -> 1 <= k -> 2 * k + 2 <= m -> m <= 8 * k ->
  4 * m <= ox -> ox + symbol_size v * m + 4 * m <= w ->
  (forall x y, inside w h (x, y) -> if dotted v sym m k ox oy r x y then fill x y = 0 else 241 <= fill x y <= 255) ->
  two_toned w h fill.
Proof. exact (paper_two_toned v sym m k ox oy r w h fill). Qed.
Print Assumptions C60_two_toned.

(** So every message that fits, printed like this, is scanned from the greyscale picture. *)
Theorem C60_scan {Srt : Sorter spec_float} w h fill v e mask msg m k ox oy r :
  1 <= w <= 32768 -> 1 <= h <= 32768 -> 1 <= v <= 40 -> v <> 21 -> 1 <= k -> 2 * k + 2 <= m <= 8 * k -> (7 * m - 1) * (7 * m - 1) * furthest v m ox oy r < 2 ^ 31 ->
  4 * m <= ox -> 0 <= oy -> ox + symbol_size v * m + 4 * m <= w -> oy + symbol_size v * m <= h ->
  0 <= mask < 8 -> message_ok v msg -> fits v e msg ->
  (forall x y, inside w h (x, y) -> if dotted v (encode v e mask msg) m k ox oy r x y then fill x y = 0 else 241 <= fill x y <= 255) ->
  exists p, prepare_from_greyscale w h fill = Ok p /\ scans_to p (message_bytes msg) (mkMeta v (level_bits e) mask).
Proof. exact (scan_paper w h fill v e mask msg m k ox oy r). Qed.
Print Assumptions C60_scan.

(** "rqrr" on uneven paper, turned by a quarter. *)
Definition printed (x y : Z) : Z := if dotted 1 (encode 1 EcM 0 rqrr_message) 4 1 20 3 1 x y then 0 else 241 + (x + 5 * y) mod 15.

Example C60_example {Srt : Sorter spec_float} : exists p, prepare_from_greyscale 120 90 printed = Ok p
  /\ exists l p', detect_grids (T := spec_float) p = Ok ([l], p')
       /\ grid_decode (ref_grid p' (lg_loc l)) = Ok (mkMeta 1 0 0, [114; 113; 114; 114]).
Proof.
  destruct rqrr_message_ok as (H1 & H2 & H3).
  destruct (C60_scan 120 90 printed 1 EcM 0 rqrr_message 4 1 20 3 1) as (p & E & l & p' & Ed & _ & _ & Hd & _); try (cbn; lia); try assumption.
  - intros x y _. unfold printed. destruct (dotted 1 (encode 1 EcM 0 rqrr_message) 4 1 20 3 1 x y); [reflexivity|].
    pose proof (Z.mod_pos_bound (x + 5 * y) 15 ltac:(lia)). lia.
  - exists p. split; [exact E|]. exists l, p'. split; [exact Ed|]. exact (Hd H3).
Qed.

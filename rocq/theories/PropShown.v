(** Properties of what is decoded and what the picture shows: C72.
    Every theorem is followed by its assumptions and by a case meeting its hypotheses. *)
From Coq Require Import SpecFloat.
From Verif Require Import Base Lib ModelDecode ModelImage ModelGeometry ModelDetect ModelIdentify SpecPayload SpecImage SpecThreshold SpecIdentify SpecFinder SpecPicture SpecReading
  FormatProofs EndToEnd EncodeProofs GridProofs Refuted SymbolProofs ReadingProofs FloodProofs RegionProofs HistoryProofs SampleProofs TotalProofs DrawProofs RenderProofs PictureProofs ShownProofs ImageFacts PropSymbol PropPicture SpecQR.
From Coq Require Import ZifyBool.
Open Scope Z_scope.
Set Bullet Behavior "Strict Subproofs".

(** * C72 *)

(** Whatever the picture, and wherever a grid was located on it: let [sym] be the modules seen there ([pictured]).
    Unless reading a module panics, decoding does what the readings of [sym] and of its mirror image allow (C64). *)
Theorem C72_outcome I0 p l v sym : reached64 I0 p -> 1 <= im_w I0 <= 2 ^ 31 -> 1 <= im_h I0 <= 2 ^ 31 ->
  pictured (im_w I0) (im_h I0) (pix I0) l sym -> loc_size l = symbol_size v -> 1 <= v <= 40 -> v <> 21 ->
  exists g o o', reads v sym o /\ reads v (mirrored sym) o' /\ decided g v o o'
    /\ (forall W (wr : W -> list Z -> W * bool) w, grid_decode_to wr (ref_grid p l) w = grid_decode_to wr g w \/ grid_decode_to wr (ref_grid p l) w = (w, Panic))
    /\ below (grid_decode (ref_grid p l)) (grid_decode g).
Proof. intros R. exact (pictured_outcome I0 p l v sym (reached_inv I0 p R)). Qed.
Print Assumptions C72_outcome.

(** Every answer that scanning a black and white picture gives is read off the picture: the format from the modules seen
    there, the data from the blocks they make up, corrected to nearest words of the code, the bytes by the
    standard's rules. *)
Theorem C72_bitmap {Srt : Sorter spec_float} w h fill p ls p' l sym meta bytes : 1 <= w <= 2 ^ 31 -> 1 <= h <= 2 ^ 31 ->
  prepare_from_bitmap w h fill = Ok p -> detect_grids (T := spec_float) p = Ok (ls, p') -> In l ls -> pictured w h (ink fill) (lg_loc l) sym ->
  grid_decode (ref_grid p' (lg_loc l)) = Ok (meta, bytes) -> loc_size (lg_loc l) <> symbol_size 21 ->
  exists v e mask data, meta = mkMeta v (level_bits e) mask /\ 1 <= v <= 40 /\ loc_size (lg_loc l) = symbol_size v
    /\ (reads v sym (Data e mask data) \/ reads v (mirrored sym) (Data e mask data))
    /\ ref_decode v (bytes_bits data) = (bytes, Complete) /\ utf8_text bytes.
Proof. exact (bitmap_answer w h fill p ls p' l sym meta bytes). Qed.
Print Assumptions C72_bitmap.

(** The same for greyscale pictures; what is seen is the picture after thresholding ([shade], C45). *)
Theorem C72_greyscale {Srt : Sorter spec_float} w h fill p ls p' l sym meta bytes : 1 <= w < 2 ^ 31 -> 1 <= h <= 2 ^ 31 ->
  (forall x y, inside w h (x, y) -> 0 <= fill x y <= 255) ->
  prepare_from_greyscale w h fill = Ok p -> detect_grids (T := spec_float) p = Ok (ls, p') -> In l ls -> pictured w h (shade w fill) (lg_loc l) sym ->
  grid_decode (ref_grid p' (lg_loc l)) = Ok (meta, bytes) -> loc_size (lg_loc l) <> symbol_size 21 ->
  exists v e mask data, meta = mkMeta v (level_bits e) mask /\ 1 <= v <= 40 /\ loc_size (lg_loc l) = symbol_size v
    /\ (reads v sym (Data e mask data) \/ reads v (mirrored sym) (Data e mask data))
    /\ ref_decode v (bytes_bits data) = (bytes, Complete) /\ utf8_text bytes.
Proof. exact (greyscale_answer w h fill p ls p' l sym meta bytes). Qed.
Print Assumptions C72_greyscale.

(** The modules seen always exist. *)
Theorem C72_pictured w h col l : exists sym, pictured w h col l sym.
Proof. exact (pictured_exists w h col l). Qed.
Print Assumptions C72_pictured.

(** "rqrr", scanned from the picture of C54_example: what is seen there reads as data that say "rqrr". *)
Example C72_example {Srt : Sorter spec_float} : exists p l p' sym data, prepare_from_bitmap 50 46 (rendered 21 (encode 1 EcM 0 rqrr_message) 2 5 3 0) = Ok p
  /\ detect_grids (T := spec_float) p = Ok ([l], p') /\ pictured 50 46 (ink (rendered 21 (encode 1 EcM 0 rqrr_message) 2 5 3 0)) (lg_loc l) sym
  /\ (reads 1 sym (Data EcM 0 data) \/ reads 1 (mirrored sym) (Data EcM 0 data)) /\ ref_decode 1 (bytes_bits data) = ([114; 113; 114; 114], Complete).
Proof.
  destruct rqrr_message_ok as (H1 & H2 & H3).
  destruct (C54_rendered 50 46 1 EcM 0 rqrr_message 2 5 3 0) as (p & E & l & p' & Ed & Wm & _ & Hd & _); try (cbn; lia); try assumption.
  { apply rqrr_plain. left. split; reflexivity. }
  destruct (C53_bitmap 50 46 (rendered 21 (encode 1 EcM 0 rqrr_message) 2 5 3 0) 1 (encode 1 EcM 0 rqrr_message) 2 5 3 0) as (p0 & E0 & l0 & p0' & Ed0 & _ & S0 & _).
  { apply (C53_rendered 50 46 1 _ 2 5 3 0); try (cbn; lia); [apply encode_patterns; lia|]. apply rqrr_plain. left. split; reflexivity. }
  change (symbol_size 1) with 21 in E. rewrite E in E0. assert (Q : p0 = p) by congruence. subst p0. rewrite Ed in Ed0. assert (Q : l0 = l) by congruence. subst l0.
  specialize (Hd H3). destruct (C72_pictured 50 46 (ink (rendered 21 (encode 1 EcM 0 rqrr_message) 2 5 3 0)) (lg_loc l)) as (sym & P).
  destruct (C72_bitmap 50 46 _ p [l] p' l sym _ _ ltac:(lia) ltac:(lia) E Ed ltac:(left; reflexivity) P Hd) as (v & e & mask & data & Em & _ & _ & Rd & Dd & _).
  { cbn [g_size ref_grid] in S0. rewrite S0. discriminate. }
  exists p, l, p', sym, data. split; [exact E|]. split; [exact Ed|]. split; [exact P|]. injection Em as <- Ee <-. assert (e = EcM) by (destruct e; (reflexivity || discriminate)). subst e.
  split; [exact Rd|exact Dd].
Qed.

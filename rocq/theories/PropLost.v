(** Symbols that are not found because of the patterns of others: C67.
    Every theorem is followed by its assumptions and by a case meeting its hypotheses. *)
From Coq Require Import SpecFloat Permutation.
From Verif Require Import Base Lib ModelDecode ModelImage ModelGeometry ModelDetect ModelIdentify SpecPayload SpecImage SpecThreshold SpecFinder SpecPicture SpecSheet
  FormatProofs EndToEnd EncodeProofs GridProofs Refuted SymbolProofs DrawProofs DotProofs RenderProofs PictureProofs SheetProofs SheetRender SheetOrder SheetScan SheetLost PropSymbol PropPicture SpecQR.
From Coq Require Import ZifyBool.
Open Scope Z_scope.
Set Bullet Behavior "Strict Subproofs".

(** * C67 *)

(** Three symbols astray, on blank paper, whatever is in them: [detect_grids] returns one grid, of 17 modules; it is
    none of the symbols. *)
Theorem C67_astray {Srt : Sorter spec_float} w h fill s1 s2 s3 m ox oy : fair_sheet w h (ink fill) (astray s1 s2 s3 m ox oy) -> blank_outside w h (ink fill) (astray s1 s2 s3 m ox oy) ->
  exists p, prepare_from_bitmap w h fill = Ok p /\ exists l p', detect_grids (T := spec_float) p = Ok ([l], p') /\ g_size (ref_grid p' (lg_loc l)) = 17.
Proof. exact (astray_bitmap w h fill s1 s2 s3 m ox oy). Qed.
Print Assumptions C67_astray.

(** Nothing is decoded from such a grid. *)
Theorem C67_small W (wr : W -> list Z -> W * bool) g w w' meta : g_size g <= 20 -> grid_decode_to wr g w <> (w', Ok meta).
Proof. exact (small_fails W wr g w w' meta). Qed.
Print Assumptions C67_small.

Example C67_small_example : exists g : BitGrid, g_size g = 17 /\ grid_decode_to vec_writer g [] = ([], Err FormatEcc).
Proof. exists {| g_size := 17; g_bit := fun _ _ => Ok false |}. split; [reflexivity|]. vm_compute. reflexivity. Qed.

(** Any three messages: printed with dots, each symbol alone would be read (C57), together none is. *)
Theorem C67_messages {Srt : Sorter spec_float} w h d m ox oy ec1 ec2 ec3 k1 k2 k3 t1 t2 t3 : 1 <= w <= 32768 -> 1 <= h <= 32768 -> 1 <= d -> 2 * d + 2 <= m ->
  0 <= ox -> 0 <= oy -> ox + 59 * m <= w -> oy + 59 * m <= h ->
  (7 * m - 1) * (7 * m - 1) * (Z.max (ox + 59 * m) (oy + 59 * m)) < 2 ^ 31 ->
  let ks := astray (encode 1 ec1 k1 t1) (encode 1 ec2 k2 t2) (encode 1 ec3 k3 t3) m ox oy in
  fair_sheet w h (ink (overlay (dots d) ks)) ks /\
  exists p, prepare_from_bitmap w h (overlay (dots d) ks) = Ok p /\
    exists l p', detect_grids (T := spec_float) p = Ok ([l], p') /\ g_size (ref_grid p' (lg_loc l)) = 17 /\
      forall W (wr : W -> list Z -> W * bool) out out' meta, grid_decode_to wr (ref_grid p' (lg_loc l)) out <> (out', Ok meta).
Proof. exact (lost_messages w h d m ox oy ec1 ec2 ec3 k1 k2 k3 t1 t2 t3). Qed.
Print Assumptions C67_messages.

(** Three symbols of "rqrr", four pixels per module, in a picture of 236 by 236 pixels. *)
Example C67_example {Srt : Sorter spec_float} : let ks := astray (encode 1 EcM 0 rqrr_message) (encode 1 EcM 1 rqrr_message) (encode 1 EcM 2 rqrr_message) 4 0 0 in
  fair_sheet 236 236 (ink (overlay (dots 1) ks)) ks /\
  exists p l p', prepare_from_bitmap 236 236 (overlay (dots 1) ks) = Ok p /\ detect_grids (T := spec_float) p = Ok ([l], p') /\ g_size (ref_grid p' (lg_loc l)) = 17.
Proof.
  cbv zeta. destruct (C67_messages 236 236 1 4 0 0 EcM EcM EcM 0 1 2 rqrr_message rqrr_message rqrr_message) as (Fs & p & E & l & p' & Ed & Sz & _); try lia.
  split; [exact Fs|]. exists p, l, p'. auto.
Qed.

(** So it is not true that every symbol of a fair sheet is found. *)
Theorem C67_every_symbol_refuted {Srt : Sorter spec_float} : ~ (forall w h fill ks, fair_sheet w h (ink fill) ks -> exists p, prepare_from_bitmap w h fill = Ok p /\ finds_sheet p ks).
Proof. exact lost_every. Qed.
Print Assumptions C67_every_symbol_refuted.

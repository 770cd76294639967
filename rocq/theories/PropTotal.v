(** Properties of scanning any picture whatever: C58.
    Every theorem is followed by its assumptions and by a case meeting its hypotheses. *)
From Coq Require Import SpecFloat.
From Verif Require Import Base Lib ModelDecode ModelImage ModelGeometry ModelDetect ModelIdentify SpecImage SpecIdentify
  RegionProofs HistoryProofs FloodProofs ImageFacts IdentifyProofs NeighborProofs TotalProofs PropImage PropDetect.
From Coq Require Import ZifyBool.
Open Scope Z_scope.
Set Bullet Behavior "Strict Subproofs".

(** * C58 *)

(** Detection ends: in any reached state, of a picture of any size, it returns or panics. *)
Theorem C58_detect {Srt : Sorter spec_float} I0 p : reached64 I0 p ->
  (exists grids p', detect_grids (T := spec_float) p = Ok (grids, p')) \/ detect_grids (T := spec_float) p = Panic.
Proof. exact (detect_ends I0 p). Qed.
Print Assumptions C58_detect.

(** The three ways of reading a grid that was detected end as well, whatever the image has become by then: each
    gives a value, an error of the library, or a panic. *)
Theorem C58_decode {Srt : Sorter spec_float} p grids p' g q : detect_grids (T := spec_float) p = Ok (grids, p') -> In g grids ->
  (forall W (wr : W -> list Z -> W * bool) w, answered (snd (grid_decode_to wr (ref_grid q (lg_loc g)) w)))
  /\ answered (grid_decode (ref_grid q (lg_loc g)))
  /\ answered (grid_get_raw_data (ref_grid q (lg_loc g))).
Proof. exact (detected_ends p grids p' g q). Qed.
Print Assumptions C58_decode.

(** From the picture on, for every picture: a bitmap. *)
Theorem C58_bitmap {Srt : Sorter spec_float} w h fill : 0 <= w -> 0 <= h ->
  let scan := let* p := prepare_from_bitmap w h fill in detect_grids (T := spec_float) p in
  (exists grids p', scan = Ok (grids, p')) \/ scan = Panic.
Proof. exact (bitmap_ends w h fill). Qed.
Print Assumptions C58_bitmap.

(** And a greyscale picture, whose rows may not be 2^31 pixels or longer. *)
Theorem C58_greyscale {Srt : Sorter spec_float} w h fill : 0 <= w < 2 ^ 31 -> 0 <= h -> (forall x y, inside w h (x, y) -> 0 <= fill x y <= 255) ->
  let scan := let* p := prepare_from_greyscale w h fill in detect_grids (T := spec_float) p in
  (exists grids p', scan = Ok (grids, p')) \/ scan = Panic.
Proof. exact (greyscale_ends w h fill). Qed.
Print Assumptions C58_greyscale.

(** One finder pattern and no symbol; and a picture of no columns, whose scan panics. *)
Example C58_example {Srt : Sorter spec_float} :
  (exists p', (let* p := prepare_from_bitmap 9 9 (drawing finder_rows) in detect_grids (T := spec_float) p) = Ok ([], p'))
  /\ (let* p := prepare_from_bitmap 0 3 (fun _ _ => true) in detect_grids (T := spec_float) p) = Panic.
Proof. split; [eexists; apply forced_scan; [|discriminate]|]; vm_compute; reflexivity. Qed.

Example C58_greyscale_example {Srt : Sorter spec_float} :
  exists p', (let* p := prepare_from_greyscale 9 9 (fun x y => if drawing finder_rows x y then 20 else 230) in detect_grids (T := spec_float) p) = Ok ([], p').
Proof. eexists. apply forced_scan; [|discriminate]. vm_compute. reflexivity. Qed.

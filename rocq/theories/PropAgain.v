(** Properties of detecting more than once: C61.
    Every theorem is followed by its assumptions and by a case meeting its hypotheses. *)
From Coq Require Import SpecFloat.
From Verif Require Import Base Lib ModelDecode ModelImage ModelGeometry ModelDetect ModelIdentify SpecPayload SpecImage SpecThreshold
  RegionProofs FloodProofs HistoryProofs SearchProofs ImageFacts AgainProofs PropDots
  FormatProofs EndToEnd EncodeProofs Refuted SymbolProofs DrawProofs RenderProofs PictureProofs DotProofs DottedProofs PropSymbol PropPicture SpecPicture SpecQR.
From Coq Require Import ZifyBool.
Open Scope Z_scope.
Set Bullet Behavior "Strict Subproofs".

(** * C61 *)

(** Once [detect_grids] has returned, every later call on the same image returns without a panic and finds
    nothing: whatever was cloned or detected in between. *)
Theorem C61_again {Srt : Sorter spec_float} I0 p grids p' p'' : reached64 I0 p -> 1 <= im_w I0 <= 32768 -> im_h I0 <= 32768 ->
  detect_grids (T := spec_float) p = Ok (grids, p') -> later p' p'' ->
  exists q, detect_grids (T := spec_float) p'' = Ok ([], q).
Proof. exact (detect_again I0 p grids p' p''). Qed.
Print Assumptions C61_again.

(** The reason: what is claimed (by a finder pattern, an alignment pattern) stays claimed. *)
Theorem C61_claims I0 p p' : reached64 I0 p -> later p p' ->
  forall q, in_image I0 q -> 2 <= pix (p_buf p) q <= 4 -> 2 <= pix (p_buf p') q <= 4.
Proof. intros R L. exact (proj2 (later_grown I0 p p' R L)). Qed.
Print Assumptions C61_claims.

(** From the picture on: a bitmap. *)
Theorem C61_bitmap {Srt : Sorter spec_float} w h fill p grids p' p'' : 1 <= w <= 32768 -> 0 <= h <= 32768 ->
  prepare_from_bitmap w h fill = Ok p -> detect_grids (T := spec_float) p = Ok (grids, p') -> later p' p'' ->
  exists q, detect_grids (T := spec_float) p'' = Ok ([], q).
Proof. exact (bitmap_again w h fill p grids p' p''). Qed.
Print Assumptions C61_bitmap.

(** And a greyscale picture. *)
Theorem C61_greyscale {Srt : Sorter spec_float} w h fill p grids p' p'' : 1 <= w <= 32768 -> 0 <= h <= 32768 ->
  (forall x y, inside w h (x, y) -> 0 <= fill x y <= 255) ->
  prepare_from_greyscale w h fill = Ok p -> detect_grids (T := spec_float) p = Ok (grids, p') -> later p' p'' ->
  exists q, detect_grids (T := spec_float) p'' = Ok ([], q).
Proof. exact (greyscale_again w h fill p grids p' p''). Qed.
Print Assumptions C61_greyscale.

(** "rqrr" in dots (C57): found and decoded, and neither found again in the image nor in a clone of it. *)
Example C61_example {Srt : Sorter spec_float} : exists p l p' q q',
  prepare_from_bitmap 90 100 (dotted 1 (encode 1 EcM 0 rqrr_message) 4 1 5 16 3) = Ok p
  /\ detect_grids (T := spec_float) p = Ok ([l], p')
  /\ detect_grids (T := spec_float) p' = Ok ([], q) /\ detect_grids (T := spec_float) (clone q) = Ok ([], q').
Proof.
  destruct C57_example as (p & E & l & p' & D & _). assert (L : later p' p') by constructor.
  destruct (C61_bitmap 90 100 _ p [l] p' p' ltac:(lia) ltac:(lia) E D L) as (q & Q).
  destruct (C61_bitmap 90 100 _ p [l] p' (clone q) ltac:(lia) ltac:(lia) E D) as (q' & Q').
  { apply later_clone. eapply later_detect; [exact L|exact Q]. }
  exists p, l, p', q, q'. repeat split; assumption.
Qed.

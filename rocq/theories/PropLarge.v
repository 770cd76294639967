(** Properties of pictures of large symbols: C59.
    Every theorem is followed by its assumptions and by a case meeting its hypotheses. *)
From Coq Require Import SpecFloat.
From Verif Require Import Base Lib ModelDecode ModelImage ModelGeometry ModelDetect ModelIdentify SpecPayload SpecImage SpecThreshold SpecFinder SpecPicture
  FormatProofs EndToEnd EncodeProofs Refuted SymbolProofs DrawProofs RenderProofs PictureProofs DotProofs DottedProofs LitProofs LargeProofs PropSymbol PropPicture PropThreshold SpecQR.
From Coq Require Import ZifyBool.
Open Scope Z_scope.
Set Bullet Behavior "Strict Subproofs".

(** * C59 *)

(** A picture of a symbol that is clear but for its size: the symbol is found if the 32-bit product in the estimate
    of its fourth corner fits, and detection panics otherwise. *)
Theorem C59_bitmap {Srt : Sorter spec_float} w h fill v sym m ox oy r :
  1 <= w <= 32768 -> 1 <= h <= 32768 -> 1 <= v <= 40 -> v <> 21 -> 2 <= m -> function_patterns v sym ->
  legible w h (ink fill) v sym m ox oy r -> no_other_finder w h (ink fill) v m ox oy r ->
  exists p, prepare_from_bitmap w h fill = Ok p
    /\ (finds_symbol p v sym m ox oy r <-> (7 * m - 1) * (7 * m - 1) * furthest v m ox oy r < 2 ^ 31)
    /\ (detect_grids (T := spec_float) p = Panic <-> 2 ^ 31 <= (7 * m - 1) * (7 * m - 1) * furthest v m ox oy r).
Proof. exact (bitmap_size w h fill v sym m ox oy r). Qed.
Print Assumptions C59_bitmap.

(** The same for a greyscale picture. *)
Theorem C59_greyscale {Srt : Sorter spec_float} w h fill v sym m ox oy r : (forall x y, inside w h (x, y) -> 0 <= fill x y <= 255) ->
  1 <= w <= 32768 -> 1 <= h <= 32768 -> 1 <= v <= 40 -> v <> 21 -> 2 <= m -> function_patterns v sym ->
  legible w h (shade w fill) v sym m ox oy r -> no_other_finder w h (shade w fill) v m ox oy r ->
  exists p, prepare_from_greyscale w h fill = Ok p
    /\ (finds_symbol p v sym m ox oy r <-> (7 * m - 1) * (7 * m - 1) * furthest v m ox oy r < 2 ^ 31)
    /\ (detect_grids (T := spec_float) p = Panic <-> 2 ^ 31 <= (7 * m - 1) * (7 * m - 1) * furthest v m ox oy r).
Proof. exact (greyscale_size w h fill v sym m ox oy r). Qed.
Print Assumptions C59_greyscale.

(** Every message drawn in dots, of any version, is too much if it is too large. *)
Theorem C59_dotted {Srt : Sorter spec_float} w h v e mask msg m k ox oy r :
  1 <= w <= 32768 -> 1 <= h <= 32768 -> 1 <= v <= 40 -> 1 <= k -> 2 * k + 2 <= m ->
  0 <= ox -> 0 <= oy -> ox + symbol_size v * m <= w -> oy + symbol_size v * m <= h ->
  2 ^ 31 <= (7 * m - 1) * (7 * m - 1) * furthest v m ox oy r ->
  exists p, prepare_from_bitmap w h (dotted v (encode v e mask msg) m k ox oy r) = Ok p /\ detect_grids (T := spec_float) p = Panic.
Proof. exact (large_dotted w h v e mask msg m k ox oy r). Qed.
Print Assumptions C59_dotted.

(** A version 1 symbol with 146 pixels to the module is found; 147 are too many. *)
Example C59_example {Srt : Sorter spec_float} : (exists p, prepare_from_bitmap 3087 3087 (dotted 1 (encode 1 EcM 0 rqrr_message) 146 40 0 0 0) = Ok p
    /\ finds_symbol p 1 (encode 1 EcM 0 rqrr_message) 146 0 0 0)
  /\ exists p, prepare_from_bitmap 3087 3087 (dotted 1 (encode 1 EcM 0 rqrr_message) 147 40 0 0 0) = Ok p /\ detect_grids (T := spec_float) p = Panic.
Proof.
  split; [|apply C59_dotted; cbn; lia].
  assert (Fp : function_patterns 1 (encode 1 EcM 0 rqrr_message)) by (apply encode_patterns; lia).
  destruct (C59_bitmap 3087 3087 (dotted 1 (encode 1 EcM 0 rqrr_message) 146 40 0 0 0) 1 (encode 1 EcM 0 rqrr_message) 146 0 0 0) as (p & E & O & _); try (cbn; lia); try assumption.
  - apply dotted_legible; try assumption; cbn; lia.
  - apply dotted_only; try assumption; cbn; lia.
  - exists p. split; [exact E|]. apply O. cbn. lia.
Qed.

(** The uneven greys of C56. *)
Example C59_greyscale_example {Srt : Sorter spec_float} : exists p, prepare_from_greyscale 64 52 (grey_paper (encode 1 EcM 0 rqrr_message)) = Ok p
  /\ finds_symbol p 1 (encode 1 EcM 0 rqrr_message) 2 8 5 0.
Proof.
  pose proof grey_paper_two_toned as T. set (f := grey_paper (encode 1 EcM 0 rqrr_message)) in *.
  assert (C : clear_picture 64 52 (shade 64 f) 1 (encode 1 EcM 0 rqrr_message) 2 8 5 0).
  { eapply clear_picture_same; [|exact grey_paper_clear]. intros [x y] Hq. unfold shade, ink. fold f.
    rewrite (two_toned_dark 64 52 f); [reflexivity|lia|lia|unfold usize_max; lia|exact T|exact Hq]. }
  destruct C as [A1 A2 A3 A4 A5 A6 A7 A8].
  destruct (C59_greyscale 64 52 f 1 (encode 1 EcM 0 rqrr_message) 2 8 5 0) as (p & E & O & _); try lia; try assumption.
  - intros x y Hq. destruct (T x y Hq); lia.
  - exists p. split; [exact E|]. apply O. exact A5.
Qed.

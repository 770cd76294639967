(** Properties of pictures of symbols drawn in dots: C57.
    Every theorem is followed by its assumptions and by a case meeting its hypotheses. *)
From Coq Require Import SpecFloat.
From Verif Require Import Base Lib ModelDecode ModelImage ModelGeometry ModelDetect ModelIdentify SpecPayload SpecImage SpecThreshold SpecFinder SpecPicture
  FormatProofs EndToEnd EncodeProofs GridProofs Refuted SymbolProofs DrawProofs RenderProofs PictureProofs DotProofs DottedProofs PropSymbol PropPicture SpecQR.
From Coq Require Import ZifyBool.
Open Scope Z_scope.
Set Bullet Behavior "Strict Subproofs".

(** * C57 *)

(** Only the function patterns, the pixels in the middle of the other modules and the pixels around the finder
    patterns matter: a second picture that agrees with the first there, and in which nothing else looks like a
    finder pattern either, gives the same modules and the same bounds. *)
Theorem C57_middles {Srt : Sorter spec_float} w h f f' v sym m ox oy r :
  clear_picture w h (ink f) v sym m ox oy r ->
  (forall q, inside w h q -> in_square (symbol_size v) m ox oy q ->
     let c := module_at r (symbol_size v) m ox oy q in
     pattern_module v (fst c) (snd c) \/ in_middle m ox oy q -> f (fst q) (snd q) = f' (fst q) (snd q)) ->
  (forall q q', inside w h q -> ~ in_square (symbol_size v) m ox oy q -> in_finder v m ox oy r q' ->
     Z.abs (fst q - fst q') <= 1 -> Z.abs (snd q - snd q') <= 1 -> f (fst q) (snd q) = f' (fst q) (snd q)) ->
  no_other_finder w h (ink f') v m ox oy r ->
  exists p p', prepare_from_bitmap w h f = Ok p /\ prepare_from_bitmap w h f' = Ok p'
    /\ finds_symbol p v sym m ox oy r /\ finds_symbol p' v sym m ox oy r.
Proof. exact (middles_matter w h f f' v sym m ox oy r). Qed.
Print Assumptions C57_middles.

(** A symbol whose data modules are drawn as square dots, with the function patterns solid, makes a clear picture. *)
Theorem C57_clear w h v sym m k ox oy r : 1 <= w <= 32768 -> 1 <= h <= 32768 -> 1 <= v <= 40 -> v <> 21 -> 1 <= k -> 2 * k + 2 <= m ->
  (7 * m - 1) * (7 * m - 1) * furthest v m ox oy r < 2 ^ 31 -> 0 <= ox -> 0 <= oy -> ox + symbol_size v * m <= w -> oy + symbol_size v * m <= h ->
  function_patterns v sym -> clear_picture w h (ink (dotted v sym m k ox oy r)) v sym m ox oy r.
Proof. exact (dotted_clear w h v sym m k ox oy r). Qed.
Print Assumptions C57_clear.

(** So every message that fits, drawn in dots, is scanned: no condition on the data is left. *)
Theorem C57_dotted {Srt : Sorter spec_float} w h v e mask msg m k ox oy r :
  1 <= w <= 32768 -> 1 <= h <= 32768 -> 1 <= v <= 40 -> v <> 21 -> 1 <= k -> 2 * k + 2 <= m -> (7 * m - 1) * (7 * m - 1) * furthest v m ox oy r < 2 ^ 31 ->
  0 <= ox -> 0 <= oy -> ox + symbol_size v * m <= w -> oy + symbol_size v * m <= h ->
  0 <= mask < 8 -> message_ok v msg -> fits v e msg ->
  exists p, prepare_from_bitmap w h (dotted v (encode v e mask msg) m k ox oy r) = Ok p
    /\ scans_to p (message_bytes msg) (mkMeta v (level_bits e) mask).
Proof. exact (scan_dotted w h v e mask msg m k ox oy r). Qed.
Print Assumptions C57_dotted.

(** "rqrr" in dots of two by two pixels, turned by three quarters. *)
Example C57_example {Srt : Sorter spec_float} : exists p, prepare_from_bitmap 90 100 (dotted 1 (encode 1 EcM 0 rqrr_message) 4 1 5 16 3) = Ok p
  /\ exists l p', detect_grids (T := spec_float) p = Ok ([l], p')
       /\ grid_decode (ref_grid p' (lg_loc l)) = Ok (mkMeta 1 0 0, [114; 113; 114; 114]).
Proof.
  destruct rqrr_message_ok as (H1 & H2 & H3).
  destruct (C57_dotted 90 100 1 EcM 0 rqrr_message 4 1 5 16 3) as (p & E & l & p' & Ed & _ & _ & Hd & _); try (cbn; lia); try assumption.
  exists p. split; [exact E|]. exists l, p'. split; [exact Ed|]. exact (Hd H3).
Qed.

(** Smaller dots show the same symbol. *)
Example C57_middles_example {Srt : Sorter spec_float} : exists p p',
  prepare_from_bitmap 150 150 (dotted 1 (encode 1 EcM 0 rqrr_message) 6 1 5 16 2) = Ok p /\ prepare_from_bitmap 150 150 (dotted 1 (encode 1 EcM 0 rqrr_message) 6 2 5 16 2) = Ok p'
  /\ finds_symbol p 1 (encode 1 EcM 0 rqrr_message) 6 5 16 2 /\ finds_symbol p' 1 (encode 1 EcM 0 rqrr_message) 6 5 16 2.
Proof.
  assert (C : forall k, 1 <= k <= 2 -> clear_picture 150 150 (ink (dotted 1 (encode 1 EcM 0 rqrr_message) 6 k 5 16 2)) 1 (encode 1 EcM 0 rqrr_message) 6 5 16 2).
  { intros k Hk. apply C57_clear; [lia|lia|lia|lia|lia|lia|cbn; lia|lia|lia|cbn; lia|cbn; lia|]. apply encode_patterns. lia. }
  apply C57_middles; [apply C; lia| | |apply (cp_only _ _ _ _ _ _ _ _ _ (C 2 ltac:(lia)))].
  - intros q _ Sq c Hc. unfold dotted. cbv zeta. rewrite <- surjective_pairing. fold c.
    destruct Hc as [Hc|[Hx Hy]].
    + apply solid_iff in Hc. rewrite Hc. reflexivity.
    + unfold inset, central in *. f_equal. f_equal. revert Hx Hy. generalize ((fst q - 5) mod 6) ((snd q - 16) mod 6). clear. intros. lia.
  - intros q q' _ N _ _ _. unfold dotted. cbv zeta. unfold in_square in N. 
    replace ((5 <=? fst q) && (fst q <? 5 + symbol_size 1 * 6) && (16 <=? snd q) && (snd q <? 16 + symbol_size 1 * 6)) with false by lia. reflexivity.
Qed.

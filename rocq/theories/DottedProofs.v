(** Scanning symbols drawn in dots, and what of a picture matters. *)
From Coq Require Import SpecFloat.
From Verif Require Import Base Lib ModelDecode ModelImage ModelGeometry ModelDetect ModelIdentify SpecQR SpecPayload SpecImage SpecFinder SpecPicture
  EncodeProofs DrawProofs RenderProofs PictureProofs DotProofs SpecQR.
Open Scope Z_scope.

Theorem scan_dotted {Srt : Sorter spec_float} w h v e mask msg m k ox oy r :
  1 <= w <= 32768 -> 1 <= h <= 32768 -> 1 <= v <= 40 -> v <> 21 -> 1 <= k -> 2 * k + 2 <= m -> (7 * m - 1) * (7 * m - 1) * furthest v m ox oy r < 2 ^ 31 ->
  0 <= ox -> 0 <= oy -> ox + symbol_size v * m <= w -> oy + symbol_size v * m <= h ->
  0 <= mask < 8 -> message_ok v msg -> fits v e msg ->
  exists p, prepare_from_bitmap w h (dotted v (encode v e mask msg) m k ox oy r) = Ok p
    /\ scans_to p (message_bytes msg) (mkMeta v (level_bits e) mask).
Proof.
  intros Hw Hh Hv V21 K Mk Pr Ox Oy Rw Rh Hm Hok Hf. apply (scan_bitmap _ _ _ v e mask msg (encode v e mask msg) m ox oy r); try assumption.
  - apply dotted_clear; try assumption. apply encode_patterns. exact Hv.
  - apply encode_is_symbol; assumption.
Qed.

Theorem middles_matter {Srt : Sorter spec_float} w h f f' v sym m ox oy r :
  clear_picture w h (ink f) v sym m ox oy r ->
  (forall q, inside w h q -> in_square (symbol_size v) m ox oy q ->
     let c := module_at r (symbol_size v) m ox oy q in
     pattern_module v (fst c) (snd c) \/ in_middle m ox oy q -> f (fst q) (snd q) = f' (fst q) (snd q)) ->
  (forall q q', inside w h q -> ~ in_square (symbol_size v) m ox oy q -> in_finder v m ox oy r q' ->
     Z.abs (fst q - fst q') <= 1 -> Z.abs (snd q - snd q') <= 1 -> f (fst q) (snd q) = f' (fst q) (snd q)) ->
  no_other_finder w h (ink f') v m ox oy r ->
  exists p p', prepare_from_bitmap w h f = Ok p /\ prepare_from_bitmap w h f' = Ok p'
    /\ finds_symbol p v sym m ox oy r /\ finds_symbol p' v sym m ox oy r.
Proof.
  intros C H1 H2 H3.
  assert (C' : clear_picture w h (ink f') v sym m ox oy r).
  { destruct C as [A1 A2 A3 A4 A5 A6 [S1 S2 S3 S4 S5 S6 S7] A8]. constructor; try assumption. constructor; try assumption.
    - intros q Hq c Hc. specialize (S6 q Hq Hc). fold c in S6. rewrite <- S6. unfold ink.
      rewrite (H1 q); [tauto| |exact Hq|exact Hc]. unfold inside, in_square in *. lia.
    - intros q q' Hq N Fq Hx Hy. specialize (S7 q q' Hq N Fq Hx Hy). unfold ink in *. rewrite <- (H2 q q' Hq N Fq Hx Hy). exact S7. }
  destruct (picture_bitmap _ _ _ _ _ _ _ _ _ C) as (p & E & F). destruct (picture_bitmap _ _ _ _ _ _ _ _ _ C') as (p' & E' & F').
  exists p, p'. auto.
Qed.

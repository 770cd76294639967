(** Labels in rows and columns: C73.
    Every theorem is followed by its assumptions and by a case meeting its hypotheses. *)
From Coq Require Import SpecFloat.
From Verif Require Import Base Lib ModelDecode ModelImage ModelGeometry ModelDetect ModelIdentify SpecPayload SpecImage SpecThreshold SpecFinder SpecPicture SpecSheet SpecTable
  FormatProofs EndToEnd EncodeProofs GridProofs Refuted SymbolProofs DrawProofs DotProofs RenderProofs PictureProofs SheetProofs SheetRender SheetOrder SheetScan SheetLost TableProofs
  PropSymbol PropPicture PropSheet SpecQR.
From Coq Require Import ZifyBool.
Open Scope Z_scope.
Set Bullet Behavior "Strict Subproofs".

(** * C73 *)

(** Four upright symbols of one version (2 or more) and size in two rows of two on blank paper, at most a symbol's width
    apart, whatever is in them.  If [detect_grids] returns, the first two grids are the first symbol, read module for
    module, and one of [8 * v + 25] modules, which is none of the symbols: the corner pattern of the first symbol taken
    together with the far patterns of its two neighbours.  So the four are never all found. *)
Theorem C73_bitmap {Srt : Sorter spec_float} w h fill v s1 s2 s3 s4 m d ox oy : let ks := table v s1 s2 s3 s4 m d ox oy in
  fair_sheet w h (ink fill) ks -> blank_outside w h (ink fill) ks -> 2 <= v -> close_by v m d ->
  exists p, prepare_from_bitmap w h fill = Ok p /\ (detect_grids (T := spec_float) p = Panic \/ finds_first p v s1 m ox oy) /\ ~ finds_sheet p ks.
Proof. exact (table_bitmap w h fill v s1 s2 s3 s4 m d ox oy). Qed.
Print Assumptions C73_bitmap.

Theorem C73_greyscale {Srt : Sorter spec_float} w h fill v s1 s2 s3 s4 m d ox oy : let ks := table v s1 s2 s3 s4 m d ox oy in
  (forall x y, inside w h (x, y) -> 0 <= fill x y <= 255) ->
  fair_sheet w h (shade w fill) ks -> blank_outside w h (shade w fill) ks -> 2 <= v -> close_by v m d ->
  exists p, prepare_from_greyscale w h fill = Ok p /\ (detect_grids (T := spec_float) p = Panic \/ finds_first p v s1 m ox oy) /\ ~ finds_sheet p ks.
Proof. exact (table_greyscale w h fill v s1 s2 s3 s4 m d ox oy). Qed.
Print Assumptions C73_greyscale.

(** Any four messages, printed with dots: the first is decoded, the four are not all found. *)
Theorem C73_messages {Srt : Sorter spec_float} w h d v m p ox oy e1 e2 e3 e4 k1 k2 k3 k4 t1 t2 t3 t4 : 1 <= w <= 32768 -> 1 <= h <= 32768 -> 1 <= d -> 2 * d + 2 <= m ->
  2 <= v <= 40 -> v <> 21 -> close_by v m p -> 0 <= ox -> 0 <= oy -> ox + p + symbol_size v * m <= w -> oy + p + symbol_size v * m <= h ->
  (7 * m - 1) * (7 * m - 1) * (Z.max (ox + p) (oy + p) + symbol_size v * m) < 2 ^ 31 ->
  0 <= k1 < 8 -> message_ok v t1 -> fits v e1 t1 ->
  let ks := table v (encode v e1 k1 t1) (encode v e2 k2 t2) (encode v e3 k3 t3) (encode v e4 k4 t4) m p ox oy in
  fair_sheet w h (ink (overlay (dots d) ks)) ks /\
  exists q, prepare_from_bitmap w h (overlay (dots d) ks) = Ok q /\ ~ finds_sheet q ks /\
    (detect_grids (T := spec_float) q = Panic \/
     exists la lg rest q', (detect_grids (T := spec_float) q = Ok (la :: lg :: rest, q') \/ detect_grids (T := spec_float) q = Ok (lg :: la :: rest, q'))
       /\ decodes_print (ref_grid q' (lg_loc la)) (Print (Mark v (encode v e1 k1 t1) m ox oy 0) e1 k1 t1) /\ g_size (ref_grid q' (lg_loc lg)) = 8 * v + 25).
Proof. exact (table_messages w h d v m p ox oy e1 e2 e3 e4 k1 k2 k3 k4 t1 t2 t3 t4). Qed.
Print Assumptions C73_messages.

(** Four symbols of "rqrr" of version 2, four pixels per module, four pixels apart, in a picture of 204 by 204 pixels. *)
Example C73_example {Srt : Sorter spec_float} :
  let s k := encode 2 EcM k rqrr_message in let ks := table 2 (s 0) (s 1) (s 2) (s 3) 4 104 0 0 in
  fair_sheet 204 204 (ink (overlay (dots 1) ks)) ks /\
  exists q, prepare_from_bitmap 204 204 (overlay (dots 1) ks) = Ok q /\ ~ finds_sheet q ks.
Proof.
  cbv zeta. destruct rqrr_message_ok2 as (O1 & O2).
  destruct (C73_messages 204 204 1 2 4 104 0 0 EcM EcM EcM EcM 0 1 2 3 rqrr_message rqrr_message rqrr_message rqrr_message) as (Fs & q & E & N & _);
    try (unfold close_by); try (change (symbol_size 2) with 25); try assumption; try lia.
  split; [exact Fs|]. exists q. auto.
Qed.

(** The second symbol, the third and the fourth are each found if the others are not there (C57): it is the arrangement
    that is at fault.  Side by side in one row the same symbols are all found. *)
Example C73_row {Srt : Sorter spec_float} :
  let t k ox := Print (Mark 2 (encode 2 EcM k rqrr_message) 4 ox 0 0) EcM k rqrr_message in
  let ts := [t 0 0; t 1 104; t 2 208; t 3 312] in
  exists p, prepare_from_bitmap 412 100 (overlay (dots 1) (map pr_mark ts)) = Ok p /\ scans_sheet p ts.
Proof.
  cbv zeta. destruct rqrr_message_ok2 as (O1 & O2).
  set (ts := [_; _; _; _]).
  assert (Sp : ForallOrdPairs spaced (map pr_mark ts)).
  { unfold ts, spaced, side. cbn [map pr_mark mk_v mk_m mk_ox mk_oy]. change (symbol_size 2) with 25. repeat first [unfold symbol_size; progress cbn [mk_v mk_m mk_ox mk_oy]; lia | constructor]. }
  apply C66_messages; try lia; [|exact Sp|].
  - intros t [<-|[<-|[<-|[<-|[]]]]]; unfold side; cbn [pr_mark pr_level pr_mask pr_text mk_v mk_m mk_ox mk_oy mk_r mk_sym]; cbv zeta; change (symbol_size 2) with 25;
      (split; [lia|]; split; [lia|]; split; [lia|]; split; [lia|]; split; [lia|]; split; [lia|]; split; [lia|]; split; [vm_compute; reflexivity|]; split; [reflexivity|]; split; [lia|]; split; assumption).
  - apply (C66_row _ 2 4 0); [lia|lia| |exact Sp|].
    + intros k [<-|[<-|[<-|[<-|[]]]]]; auto.
    + intros k [<-|[<-|[<-|[<-|[]]]]]; reflexivity.
Qed.

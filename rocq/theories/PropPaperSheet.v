(** Properties of greyscale pictures of several symbols printed in dots: C77.
    Every theorem is followed by its assumptions and by a case meeting its hypotheses. *)
From Coq Require Import SpecFloat Permutation.
From Verif Require Import Base Lib ModelDecode ModelImage ModelGeometry ModelDetect ModelIdentify SpecPayload SpecImage SpecThreshold SpecFinder SpecPicture SpecSheet SpecPaperSheet
  FormatProofs EndToEnd EncodeProofs GridProofs Refuted SymbolProofs DrawProofs PictureProofs SheetProofs SheetScan PaperSheetProofs PropSymbol PropPicture PropSheet SpecQR.
From Coq Require Import ZifyBool.
Open Scope Z_scope.
Set Bullet Behavior "Strict Subproofs".

(** * C77 *)

(** Any number of symbols in black dots on light paper, each with a quiet zone of four modules to the left and to the
    right in which no other symbol lies: beside every dark pixel the row is light enough for thresholding. *)
Theorem C77_two_toned w h d fill ks : 1 <= d -> (forall k, In k ks -> 1 <= mk_v k <= 40 /\ function_patterns (mk_v k) (mk_sym k) /\ labelled w d k) ->
  ForallOrdPairs quiet_between ks ->
  (forall x y, inside w h (x, y) -> if overlay (dots d) ks x y then fill x y = 0 else 241 <= fill x y <= 255) ->
  two_toned w h fill.
Proof. exact (sheet_two_toned w h d fill ks). Qed.
Print Assumptions C77_two_toned.

(** So all their messages are scanned from the greyscale picture, if the arrangement is orderly. *)
Theorem C77_scan {Srt : Sorter spec_float} w h d fill ts : 16 <= w <= 32768 -> 1 <= h <= 32768 -> 1 <= d ->
  (forall t, In t ts -> let k := pr_mark t in
     1 <= mk_v k <= 40 /\ mk_v k <> 21 /\ labelled w d k /\ 0 <= mk_oy k /\ mk_oy k + side k <= h
     /\ (7 * mk_m k - 1) * (7 * mk_m k - 1) * furthest (mk_v k) (mk_m k) (mk_ox k) (mk_oy k) (mk_r k) < 2 ^ 31
     /\ mk_sym k = encode (mk_v k) (pr_level t) (pr_mask t) (pr_text t)
     /\ 0 <= pr_mask t < 8 /\ message_ok (mk_v k) (pr_text t) /\ fits (mk_v k) (pr_level t) (pr_text t)) ->
  ForallOrdPairs quiet_between (map pr_mark ts) -> orderly (map pr_mark ts) ->
  (forall x y, inside w h (x, y) -> if overlay (dots d) (map pr_mark ts) x y then fill x y = 0 else 241 <= fill x y <= 255) ->
  exists p, prepare_from_greyscale w h fill = Ok p /\ scans_sheet p ts.
Proof. exact (scan_labels w h d fill ts). Qed.
Print Assumptions C77_scan.

(** Labels in a row: any number of messages, printed upright in one version and size, side by side. *)
Theorem C77_row {Srt : Sorter spec_float} w h d fill v m oy ts : 16 <= w <= 32768 -> 1 <= h <= 32768 -> 1 <= d -> 2 * d + 2 <= m <= 8 * d ->
  1 <= v <= 40 -> v <> 21 -> 0 <= oy -> oy + symbol_size v * m <= h -> (7 * m - 1) * (7 * m - 1) * (w + h) < 2 ^ 31 ->
  (forall t, In t ts -> let k := pr_mark t in mk_v k = v /\ mk_m k = m /\ mk_r k = 0%nat /\ mk_oy k = oy
     /\ 4 * m <= mk_ox k /\ mk_ox k + symbol_size v * m + 4 * m <= w
     /\ mk_sym k = encode v (pr_level t) (pr_mask t) (pr_text t)
     /\ 0 <= pr_mask t < 8 /\ message_ok v (pr_text t) /\ fits v (pr_level t) (pr_text t)) ->
  ForallOrdPairs (fun t t' => let gap k k' := mk_ox k + symbol_size v * m + 4 * m <= mk_ox k' in
    gap (pr_mark t) (pr_mark t') \/ gap (pr_mark t') (pr_mark t)) ts ->
  (forall x y, inside w h (x, y) -> if overlay (dots d) (map pr_mark ts) x y then fill x y = 0 else 241 <= fill x y <= 255) ->
  exists p, prepare_from_greyscale w h fill = Ok p /\ scans_sheet p ts.
Proof. exact (scan_label_row w h d fill v m oy ts). Qed.
Print Assumptions C77_row.

(** Labels one above the other, with a row of paper between them. *)
Theorem C77_column {Srt : Sorter spec_float} w h d fill v m ox ts : 16 <= w <= 32768 -> 1 <= h <= 32768 -> 1 <= d -> 2 * d + 2 <= m <= 8 * d ->
  1 <= v <= 40 -> v <> 21 -> 4 * m <= ox -> ox + symbol_size v * m + 4 * m <= w -> (7 * m - 1) * (7 * m - 1) * (w + h) < 2 ^ 31 ->
  (forall t, In t ts -> let k := pr_mark t in mk_v k = v /\ mk_m k = m /\ mk_r k = 0%nat /\ mk_ox k = ox
     /\ 0 <= mk_oy k /\ mk_oy k + symbol_size v * m <= h
     /\ mk_sym k = encode v (pr_level t) (pr_mask t) (pr_text t)
     /\ 0 <= pr_mask t < 8 /\ message_ok v (pr_text t) /\ fits v (pr_level t) (pr_text t)) ->
  ForallOrdPairs (fun t t' => let gap k k' := mk_oy k + symbol_size v * m < mk_oy k' in
    gap (pr_mark t) (pr_mark t') \/ gap (pr_mark t') (pr_mark t)) ts ->
  (forall x y, inside w h (x, y) -> if overlay (dots d) (map pr_mark ts) x y then fill x y = 0 else 241 <= fill x y <= 255) ->
  exists p, prepare_from_greyscale w h fill = Ok p /\ scans_sheet p ts.
Proof. exact (scan_label_column w h d fill v m ox ts). Qed.
Print Assumptions C77_column.

(** Three labels of "rqrr" in a row on uneven paper. *)
Definition label (mask ox : Z) : print := Print (Mark 1 (encode 1 EcM mask rqrr_message) 4 ox 3 0) EcM mask rqrr_message.
Definition labels : list print := [label 3 216; label 0 16; label 7 116].
Definition label_sheet (x y : Z) : Z := if overlay (dots 1) (map pr_mark labels) x y then 0 else 241 + (x + 5 * y) mod 15.

Example C77_example {Srt : Sorter spec_float} : exists p, prepare_from_greyscale 316 90 label_sheet = Ok p /\ scans_sheet p labels.
Proof.
  destruct rqrr_message_ok as (Ok1 & Ok2 & _).
  apply (C77_row 316 90 1 label_sheet 1 4 3); try lia.
  - cbn. lia.
  - intros t [<-|[<-|[<-|[]]]]; unfold label; cbn [pr_mark pr_level pr_mask pr_text mk_v mk_m mk_ox mk_oy mk_r mk_sym]; cbv zeta; change (symbol_size 1) with 21;
      (split; [reflexivity|]; split; [reflexivity|]; split; [reflexivity|]; split; [reflexivity|]; split; [lia|]; split; [lia|]; split; [reflexivity|]; split; [lia|]; split; [exact Ok1|exact Ok2]).
  - unfold labels, label. change (symbol_size 1) with 21. repeat first [progress cbn [pr_mark mk_ox]; lia | constructor].
  - intros x y _. unfold label_sheet. destruct (overlay _ _ _ _); [reflexivity|]. pose proof (Z.mod_pos_bound (x + 5 * y) 15 ltac:(lia)). lia.
Qed.

(** Two of them, one above the other. *)
Definition column_label (mask oy : Z) : print := Print (Mark 1 (encode 1 EcM mask rqrr_message) 4 16 oy 0) EcM mask rqrr_message.
Definition column_labels : list print := [column_label 3 2; column_label 6 87].
Definition column_sheet (x y : Z) : Z := if overlay (dots 1) (map pr_mark column_labels) x y then 0 else 241 + (x + 5 * y) mod 15.

Example C77_column_example {Srt : Sorter spec_float} : exists p, prepare_from_greyscale 120 180 column_sheet = Ok p /\ scans_sheet p column_labels.
Proof.
  destruct rqrr_message_ok as (Ok1 & Ok2 & _).
  apply (C77_column 120 180 1 column_sheet 1 4 16); try lia.
  - cbn. lia.
  - intros t [<-|[<-|[]]]; unfold column_label; cbn [pr_mark pr_level pr_mask pr_text mk_v mk_m mk_ox mk_oy mk_r mk_sym]; cbv zeta; change (symbol_size 1) with 21;
      (split; [reflexivity|]; split; [reflexivity|]; split; [reflexivity|]; split; [reflexivity|]; split; [lia|]; split; [lia|]; split; [reflexivity|]; split; [lia|]; split; [exact Ok1|exact Ok2]).
  - unfold column_labels, column_label. change (symbol_size 1) with 21. repeat first [progress cbn [pr_mark mk_oy]; lia | constructor].
  - intros x y _. unfold column_sheet. destruct (overlay _ _ _ _); [reflexivity|]. pose proof (Z.mod_pos_bound (x + 5 * y) 15 ltac:(lia)). lia.
Qed.

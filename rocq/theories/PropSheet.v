(** Properties of pictures of several symbols: C66.
    Every theorem is followed by its assumptions and by a case meeting its hypotheses. *)
From Coq Require Import SpecFloat Permutation.
From Verif Require Import Base Lib ModelDecode ModelImage ModelGeometry ModelDetect ModelIdentify SpecPayload SpecImage SpecThreshold SpecFinder SpecPicture SpecSheet
  FormatProofs EndToEnd EncodeProofs GridProofs Refuted SymbolProofs DrawProofs RenderProofs PictureProofs SheetProofs SheetRender SheetOrder SheetScan PropSymbol PropPicture SpecQR.
From Coq Require Import ZifyBool.
Open Scope Z_scope.
Set Bullet Behavior "Strict Subproofs".

(** * C66 *)

(** A black and white picture of any number of symbols, of any versions but 21, sizes and quarter turns, with nothing
    else that looks like a finder pattern, and orderly: [detect_grids] returns exactly one grid for each symbol, in the order in
    which the symbols' corner patterns are come upon, and each grid reads its symbol. *)
Theorem C66_bitmap {Srt : Sorter spec_float} w h fill ks : clear_sheet w h (ink fill) ks ->
  exists p, prepare_from_bitmap w h fill = Ok p /\ finds_sheet p ks.
Proof. exact (sheet_bitmap w h fill ks). Qed.
Print Assumptions C66_bitmap.

Theorem C66_greyscale {Srt : Sorter spec_float} w h fill ks : (forall x y, inside w h (x, y) -> 0 <= fill x y <= 255) -> clear_sheet w h (shade w fill) ks ->
  exists p, prepare_from_greyscale w h fill = Ok p /\ finds_sheet p ks.
Proof. exact (sheet_greyscale w h fill ks). Qed.
Print Assumptions C66_greyscale.

(** To the messages: every grid decodes to the message of its symbol. *)
Theorem C66_scan {Srt : Sorter spec_float} w h fill ts : clear_sheet w h (ink fill) (map pr_mark ts) -> (forall t, In t ts -> print_ok t) ->
  exists p, prepare_from_bitmap w h fill = Ok p /\ scans_sheet p ts.
Proof. exact (scan_sheet_bitmap w h fill ts). Qed.
Print Assumptions C66_scan.

Theorem C66_scan_greyscale {Srt : Sorter spec_float} w h fill ts : (forall x y, inside w h (x, y) -> 0 <= fill x y <= 255) -> clear_sheet w h (shade w fill) (map pr_mark ts) -> (forall t, In t ts -> print_ok t) ->
  exists p, prepare_from_greyscale w h fill = Ok p /\ scans_sheet p ts.
Proof. exact (scan_sheet_greyscale w h fill ts). Qed.
Print Assumptions C66_scan_greyscale.

(** Clear pictures of single symbols (C53), put together with at least a row or a column of pixels between the
    squares, make a clear sheet if they are orderly. *)
Theorem C66_overlay w h pics ks : (forall k, In k ks -> clear_alone w h (pics k) k) -> ForallOrdPairs spaced ks ->
  1 <= w <= 32768 -> 1 <= h <= 32768 -> orderly ks -> clear_sheet w h (ink (overlay pics ks)) ks.
Proof. exact (overlay_clear w h pics ks). Qed.
Print Assumptions C66_overlay.

(** * Orderly arrangements *)

(** Any number of upright symbols of one version and size, side by side. *)
Theorem C66_row ks v m oy : 1 <= v <= 40 -> 1 <= m -> alike v m ks -> ForallOrdPairs spaced ks -> (forall k, In k ks -> mk_oy k = oy) -> orderly ks.
Proof. exact (fun V M E S => row_orderly ks v m V M E S oy). Qed.
Print Assumptions C66_row.

(** The same, one above the other. *)
Theorem C66_column ks v m ox : 1 <= v <= 40 -> 1 <= m -> alike v m ks -> ForallOrdPairs spaced ks -> (forall k, In k ks -> mk_ox k = ox) -> orderly ks.
Proof. exact (fun V M E S => column_orderly ks v m V M E S ox). Qed.
Print Assumptions C66_column.

(** Any number of symbols of any versions, sizes and turns within [s] rows (columns), if they are far enough apart. *)
Theorem C66_rows ks s y0 : (forall k, In k ks -> sized k) -> within_rows s y0 ks -> orderly ks.
Proof. exact (fun Z => strip_orderly ks s Z y0). Qed.
Print Assumptions C66_rows.

Theorem C66_columns ks s x0 : (forall k, In k ks -> sized k) -> within_columns s x0 ks -> orderly ks.
Proof. exact (fun Z => pillar_orderly ks s Z x0). Qed.
Print Assumptions C66_columns.

(** * Any messages *)

(** Whatever the messages, a sheet of their symbols printed with dots scans to all of them. *)
Theorem C66_messages {Srt : Sorter spec_float} w h d ts : 1 <= w <= 32768 -> 1 <= h <= 32768 -> 1 <= d ->
  (forall t, In t ts -> let k := pr_mark t in
     1 <= mk_v k <= 40 /\ mk_v k <> 21 /\ 2 * d + 2 <= mk_m k
     /\ 0 <= mk_ox k /\ 0 <= mk_oy k /\ mk_ox k + side k <= w /\ mk_oy k + side k <= h
     /\ (7 * mk_m k - 1) * (7 * mk_m k - 1) * furthest (mk_v k) (mk_m k) (mk_ox k) (mk_oy k) (mk_r k) < 2 ^ 31
     /\ mk_sym k = encode (mk_v k) (pr_level t) (pr_mask t) (pr_text t)
     /\ 0 <= pr_mask t < 8 /\ message_ok (mk_v k) (pr_text t) /\ fits (mk_v k) (pr_level t) (pr_text t)) ->
  ForallOrdPairs spaced (map pr_mark ts) -> orderly (map pr_mark ts) ->
  exists p, prepare_from_bitmap w h (overlay (dots d) (map pr_mark ts)) = Ok p /\ scans_sheet p ts.
Proof. exact (scan_dots w h d ts). Qed.
Print Assumptions C66_messages.

(** Three symbols of "rqrr" with different masks and four pixels per module, side by side with gaps of one and of
    three pixels. *)
Definition row_print (mask ox : Z) : print := Print (Mark 1 (encode 1 EcM mask rqrr_message) 4 ox 5 0) EcM mask rqrr_message.
Definition row_prints : list print := [row_print 3 0; row_print 0 172; row_print 7 85].

Example C66_example_row {Srt : Sorter spec_float} : exists p, prepare_from_bitmap 256 90 (overlay (dots 1) (map pr_mark row_prints)) = Ok p /\ scans_sheet p row_prints.
Proof.
  assert (Sp : ForallOrdPairs spaced (map pr_mark row_prints)).
  { unfold row_prints, row_print, spaced, side. cbn [map pr_mark mk_v mk_m mk_ox mk_oy]. change (symbol_size 1) with 21. repeat first [unfold symbol_size; progress cbn [mk_v mk_m mk_ox mk_oy]; lia | constructor]. }
  destruct rqrr_message_ok as (Ok1 & Ok2 & _).
  apply C66_messages; try lia; [|exact Sp|].
  - intros t [<-|[<-|[<-|[]]]]; unfold row_print, side; cbn [pr_mark pr_level pr_mask pr_text mk_v mk_m mk_ox mk_oy mk_r mk_sym]; cbv zeta; change (symbol_size 1) with 21;
      (split; [lia|]; split; [lia|]; split; [lia|]; split; [lia|]; split; [lia|]; split; [lia|]; split; [lia|]; split; [vm_compute; reflexivity|]; split; [reflexivity|]; split; [lia|]; split; [exact Ok1|exact Ok2]).
  - apply (C66_row _ 1 4 5); [lia|lia| |exact Sp|].
    + intros k [<-|[<-|[<-|[]]]]; auto.
    + intros k [<-|[<-|[<-|[]]]]; reflexivity.
Qed.

(** Two symbols of different sizes and turns, one a version 2. *)
Definition strip_prints : list print :=
  [Print (Mark 1 (encode 1 EcM 0 rqrr_message) 6 3 0 3) EcM 0 rqrr_message; Print (Mark 2 (encode 2 EcM 5 rqrr_message) 4 310 28 2) EcM 5 rqrr_message].

Lemma rqrr_message_ok2 : message_ok 2 rqrr_message /\ fits 2 EcM rqrr_message.
Proof.
  split; [unfold message_ok, rqrr_message, segment_ok, is_byte; repeat constructor; cbn; lia|].
  unfold fits. apply Nat.leb_le. vm_compute. reflexivity.
Qed.

Example C66_example_strip {Srt : Sorter spec_float} : exists p, prepare_from_bitmap 420 130 (overlay (dots 1) (map pr_mark strip_prints)) = Ok p /\ scans_sheet p strip_prints.
Proof.
  destruct rqrr_message_ok as (Ok1 & Ok2 & _). destruct rqrr_message_ok2 as (Ok3 & Ok4).
  apply C66_messages; try lia.
  - intros t [<-|[<-|[]]]; unfold side; cbn [pr_mark pr_level pr_mask pr_text mk_v mk_m mk_ox mk_oy mk_r mk_sym]; cbv zeta; change (symbol_size 1) with 21; change (symbol_size 2) with 25;
      (split; [lia|]; split; [lia|]; split; [lia|]; split; [lia|]; split; [lia|]; split; [lia|]; split; [lia|]; split; [vm_compute; reflexivity|]; split; [reflexivity|]; split; [lia|]; split; assumption).
  - unfold strip_prints, spaced, side. cbn [map pr_mark mk_v mk_m mk_ox mk_oy]. change (symbol_size 1) with 21. change (symbol_size 2) with 25. repeat first [unfold symbol_size; progress cbn [mk_v mk_m mk_ox mk_oy]; lia | constructor].
  - apply (C66_rows _ 128 0).
    + intros k [<-|[<-|[]]]; unfold sized; cbn; lia.
    + unfold within_rows, strip_prints, side. cbn [map pr_mark mk_v mk_m mk_ox mk_oy]. split.
      * intros k [<-|[<-|[]]]; cbn [mk_v mk_m mk_oy]; unfold symbol_size; lia.
      * unfold symbol_size. repeat first [unfold symbol_size; progress cbn [mk_v mk_m mk_ox mk_oy]; lia | constructor].
Qed.

(** An arrangement that is not orderly: four equal symbols, two by two.  The corner patterns of three of them make a
    square. *)
Example C66_not_orderly sym : ~ orderly [Mark 1 sym 2 0 0 0; Mark 1 sym 2 50 0 0; Mark 1 sym 2 0 50 0; Mark 1 sym 2 50 50 0].
Proof.
  intros O. destruct (O (2, (0, 0)) (2, (50, 0)) (2, (0, 50))) as (k & Hk & E & H).
  - left. reflexivity.
  - right; right; right. left. reflexivity.
  - do 6 right. left. reflexivity.
  - intros Q. discriminate (f_equal (fun f => fst (snd f)) Q).
  - intros Q. discriminate (f_equal (fun f => snd (snd f)) Q).
  - intros (k & [<-|[<-|[<-|[<-|[]]]]] & _ & S); unfold sooner_finder in S; cbn in S; lia.
  - intros (k & [<-|[<-|[<-|[<-|[]]]]] & _ & S); unfold sooner_finder in S; cbn in S; lia.
  - intros (k & [<-|[<-|[<-|[<-|[]]]]] & _ & S); unfold sooner_finder in S; cbn in S; lia.
  - unfold may_pair. vm_compute. repeat split; discriminate.
  - cbv zeta in H. destruct Hk as [<-|[<-|[<-|[<-|[]]]]]; try discriminate E. destruct H as [[[H|H] _]|[[[H|H]|[H|H]] _]]; discriminate H.
Qed.

(** Properties of pictures of symbols: C53-C55.
    Every theorem is followed by its assumptions and by a case meeting its hypotheses. *)
From Coq Require Import SpecFloat.
From Verif Require Import Base Lib ModelDecode ModelImage ModelGeometry ModelDetect ModelIdentify SpecPayload SpecImage SpecThreshold SpecFinder SpecPicture
  FormatProofs EndToEnd EncodeProofs GridProofs Refuted SymbolProofs DrawProofs RenderProofs PictureProofs ExtProofs PropSymbol SpecQR.
From Coq Require Import ZifyBool.
Open Scope Z_scope.
Set Bullet Behavior "Strict Subproofs".

(** * The picture used in the examples *)

(** The version 1-M symbol of the library's tests ("rqrr") is the one the reference encoder draws. *)
Lemma rqrr_encoded y x : 0 <= y < symbol_size 1 -> 0 <= x < symbol_size 1 -> table_symbol 21 rqrr_rows y x = encode 1 EcM 0 rqrr_message y x.
Proof.
  change (symbol_size 1) with 21. intros Hy Hx.
  assert (H : forallb (fun y => forallb (fun x => Bool.eqb (table_symbol 21 rqrr_rows y x) (encode 1 EcM 0 rqrr_message y x)) (zrange 0 21)) (zrange 0 21) = true) by (vm_compute; reflexivity).
  rewrite forallb_forall in H. specialize (H y ltac:(apply in_zrange; lia)). rewrite forallb_forall in H. specialize (H x ltac:(apply in_zrange; lia)).
  apply Bool.eqb_prop. exact H.
Qed.

(** Its connected dark regions, numbered. *)
Definition rqrr_regions : list (list Z) :=
  [[1; 1; 1; 1; 1; 1; 1; 0; 0; 0; 2; 0; 0; 0; 3; 3; 3; 3; 3; 3; 3];
   [1; 0; 0; 0; 0; 0; 1; 0; 2; 2; 2; 0; 0; 0; 3; 0; 0; 0; 0; 0; 3];
   [1; 0; 4; 4; 4; 0; 1; 0; 0; 2; 0; 5; 5; 0; 3; 0; 6; 6; 6; 0; 3];
   [1; 0; 4; 4; 4; 0; 1; 0; 0; 0; 0; 0; 5; 0; 3; 0; 6; 6; 6; 0; 3];
   [1; 0; 4; 4; 4; 0; 1; 0; 5; 5; 0; 5; 5; 0; 3; 0; 6; 6; 6; 0; 3];
   [1; 0; 0; 0; 0; 0; 1; 0; 0; 5; 5; 5; 0; 0; 3; 0; 0; 0; 0; 0; 3];
   [1; 1; 1; 1; 1; 1; 1; 0; 7; 0; 5; 0; 8; 0; 3; 3; 3; 3; 3; 3; 3];
   [0; 0; 0; 0; 0; 0; 0; 0; 0; 0; 5; 0; 0; 0; 0; 0; 0; 0; 0; 0; 0];
   [9; 0; 10; 0; 11; 0; 12; 0; 0; 0; 0; 0; 13; 0; 0; 0; 14; 0; 0; 15; 0];
   [9; 0; 0; 11; 11; 0; 0; 0; 0; 0; 0; 16; 0; 16; 0; 16; 0; 17; 0; 0; 17];
   [0; 18; 0; 11; 11; 0; 19; 19; 0; 16; 16; 16; 0; 16; 16; 16; 0; 17; 17; 17; 17];
   [18; 18; 0; 0; 0; 20; 0; 0; 16; 16; 16; 16; 16; 16; 0; 16; 16; 0; 0; 17; 17];
   [0; 0; 21; 0; 20; 20; 20; 0; 16; 0; 0; 16; 0; 16; 16; 16; 0; 22; 0; 0; 17];
   [0; 0; 0; 0; 0; 0; 0; 0; 16; 16; 16; 0; 0; 0; 16; 0; 0; 22; 0; 0; 17];
   [23; 23; 23; 23; 23; 23; 23; 0; 0; 16; 16; 0; 24; 0; 0; 0; 25; 0; 0; 17; 17];
   [23; 0; 0; 0; 0; 0; 23; 0; 0; 16; 16; 0; 0; 0; 26; 0; 0; 0; 0; 17; 0];
   [23; 0; 27; 27; 27; 0; 23; 0; 28; 0; 0; 0; 29; 0; 26; 0; 30; 30; 0; 17; 17];
   [23; 0; 27; 27; 27; 0; 23; 0; 0; 31; 0; 32; 0; 32; 0; 32; 0; 30; 0; 17; 0];
   [23; 0; 27; 27; 27; 0; 23; 0; 31; 31; 0; 32; 0; 32; 32; 32; 0; 0; 0; 0; 33];
   [23; 0; 0; 0; 0; 0; 23; 0; 0; 0; 32; 32; 32; 32; 0; 32; 32; 32; 0; 34; 0];
   [23; 23; 23; 23; 23; 23; 23; 0; 35; 0; 0; 32; 0; 32; 32; 32; 0; 0; 34; 34; 34]].

Definition region_at (regions : list (list Z)) (r : nat) (j i : Z) : Z :=
  let q := turned r 21 i j in nth (Z.to_nat (snd q)) (nth (Z.to_nat (fst q)) regions []) 0.

Lemma rqrr_plain m r : (m = 2 /\ r = 0%nat) \/ (m = 3 /\ r = 1%nat) -> plain 1 (encode 1 EcM 0 rqrr_message) m r.
Proof.
  intros H. apply (plain_ext 1 (table_symbol 21 rqrr_rows)); [exact rqrr_encoded|]. apply (plain_checked 1 _ (region_at rqrr_regions r)).
  destruct H as [[-> -> ]|[-> -> ]]; vm_compute; reflexivity.
Qed.

Lemma rqrr_message_ok : message_ok 1 rqrr_message /\ fits 1 EcM rqrr_message /\ utf8_text (message_bytes rqrr_message).
Proof.
  split; [|split].
  - unfold message_ok, rqrr_message, segment_ok, is_byte. repeat constructor; cbn; lia.
  - unfold fits. apply Nat.leb_le. vm_compute. reflexivity.
  - apply utf8_valid_iff. vm_compute. reflexivity.
Qed.

(** * C53 *)

(** A black and white picture of a symbol, of any version but 21, any unit of at least two pixels, anywhere in the
    picture and turned by any number of quarter turns: [detect_grids] returns exactly one grid, its size is the
    symbol's, every module read through it is the symbol's, and the bounds are those of [bounds_at]: the first is
    the corner of the symbol, the others are one module too far out. *)
Theorem C53_bitmap {Srt : Sorter spec_float} w h fill v sym m ox oy r :
  clear_picture w h (ink fill) v sym m ox oy r ->
  exists p, prepare_from_bitmap w h fill = Ok p /\ finds_symbol p v sym m ox oy r.
Proof. exact (picture_bitmap w h fill v sym m ox oy r). Qed.
Print Assumptions C53_bitmap.

(** The same for a greyscale picture that shows the symbol after thresholding. *)
Theorem C53_greyscale {Srt : Sorter spec_float} w h fill v sym m ox oy r :
  (forall x y, inside w h (x, y) -> 0 <= fill x y <= 255) ->
  clear_picture w h (shade w fill) v sym m ox oy r ->
  exists p, prepare_from_greyscale w h fill = Ok p /\ finds_symbol p v sym m ox oy r.
Proof. exact (picture_greyscale w h fill v sym m ox oy r). Qed.
Print Assumptions C53_greyscale.

(** When a symbol drawn on white makes a clear picture. *)
Theorem C53_rendered w h v sym m ox oy r : 1 <= w <= 32768 -> 1 <= h <= 32768 -> 1 <= v <= 40 -> v <> 21 -> 2 <= m ->
  (7 * m - 1) * (7 * m - 1) * furthest v m ox oy r < 2 ^ 31 -> 0 <= ox -> 0 <= oy -> ox + symbol_size v * m <= w -> oy + symbol_size v * m <= h ->
  function_patterns v sym -> plain v sym m r -> clear_picture w h (ink (rendered (symbol_size v) sym m ox oy r)) v sym m ox oy r.
Proof. exact (rendered_clear w h v sym m ox oy r). Qed.
Print Assumptions C53_rendered.

Theorem C53_encoded_patterns v e mask msg : 1 <= v <= 40 -> function_patterns v (encode v e mask msg).
Proof. exact (encode_patterns v e mask msg). Qed.
Print Assumptions C53_encoded_patterns.

(** "rqrr" with three pixels per module, turned clockwise, its left edge at the edge of the picture. *)
Example C53_example :
  clear_picture 64 70 (ink (rendered 21 (encode 1 EcM 0 rqrr_message) 3 0 4 1)) 1 (encode 1 EcM 0 rqrr_message) 3 0 4 1
  /\ bounds_at 21 3 0 4 1 = Corners (MkPoint 62 4) (MkPoint 62 70) (MkPoint (-4) 70) (MkPoint (-4) 4).
Proof.
  split; [|reflexivity]. apply (C53_rendered 64 70 1 _ 3 0 4 1); try (cbn; lia).
  - apply C53_encoded_patterns. lia.
  - apply rqrr_plain. right. split; reflexivity.
Qed.

(** * C54 *)

(** From the picture to the message: preparing, detecting and decoding a picture of a symbol of the message returns
    the message, and nothing else is detected. *)
Theorem C54_symbol {Srt : Sorter spec_float} w h fill v e mask msg sym m ox oy r :
  clear_picture w h (ink fill) v sym m ox oy r ->
  0 <= mask < 8 -> message_ok v msg -> fits v e msg -> is_symbol v e mask msg sym ->
  exists p, prepare_from_bitmap w h fill = Ok p /\ scans_to p (message_bytes msg) (mkMeta v (level_bits e) mask).
Proof. exact (scan_bitmap w h fill v e mask msg sym m ox oy r). Qed.
Print Assumptions C54_symbol.

Theorem C54_greyscale {Srt : Sorter spec_float} w h fill v e mask msg sym m ox oy r :
  (forall x y, inside w h (x, y) -> 0 <= fill x y <= 255) ->
  clear_picture w h (shade w fill) v sym m ox oy r ->
  0 <= mask < 8 -> message_ok v msg -> fits v e msg -> is_symbol v e mask msg sym ->
  exists p, prepare_from_greyscale w h fill = Ok p /\ scans_to p (message_bytes msg) (mkMeta v (level_bits e) mask).
Proof. exact (scan_greyscale w h fill v e mask msg sym m ox oy r). Qed.
Print Assumptions C54_greyscale.

(** The symbol of the reference encoder, drawn on white. *)
Theorem C54_rendered {Srt : Sorter spec_float} w h v e mask msg m ox oy r :
  1 <= w <= 32768 -> 1 <= h <= 32768 -> 1 <= v <= 40 -> v <> 21 -> 2 <= m -> (7 * m - 1) * (7 * m - 1) * furthest v m ox oy r < 2 ^ 31 ->
  0 <= ox -> 0 <= oy -> ox + symbol_size v * m <= w -> oy + symbol_size v * m <= h ->
  0 <= mask < 8 -> message_ok v msg -> fits v e msg -> plain v (encode v e mask msg) m r ->
  exists p, prepare_from_bitmap w h (rendered (symbol_size v) (encode v e mask msg) m ox oy r) = Ok p
    /\ scans_to p (message_bytes msg) (mkMeta v (level_bits e) mask).
Proof. exact (scan_rendered w h v e mask msg m ox oy r). Qed.
Print Assumptions C54_rendered.

(** Damaged symbols: the function patterns are intact, at most three modules of the first format copy are wrong, and
    the damaged codewords are within the capacity (as in C02). *)
Theorem C54_damaged {Srt : Sorter spec_float} w h fill v e mask msg sym m ox oy r :
  clear_picture w h (ink fill) v sym m ox oy r ->
  0 <= mask < 8 -> message_ok v msg -> fits v e msg ->
  (bit_distance (format_read format_module_1 sym) (format_bits (format_word e mask)) <= 3)%nat ->
  within_capacity v e (data_codewords v (data_capacity v e) msg) (received_codewords v mask sym) ->
  exists p, prepare_from_bitmap w h fill = Ok p /\ scans_to p (message_bytes msg) (mkMeta v (level_bits e) mask).
Proof. exact (scan_damaged w h fill v e mask msg sym m ox oy r). Qed.
Print Assumptions C54_damaged.

(** The symbol of C02_example, with five wrong codewords, upside down. *)
Definition damaged_rows : list Z := [2081919; 1072193; 1526621; 1524061; 1530717; 1068609; 2086271; 1024; 1392914; 1245865; 749295; 1613747; 1430241; 7273; 2084115; 1068098; 1530203; 1526440; 1530593; 1066938; 2085607].
Definition damaged_regions : list (list Z) :=
  [[1; 1; 1; 1; 1; 1; 1; 0; 0; 0; 2; 0; 0; 0; 3; 3; 3; 3; 3; 3; 3];
   [1; 0; 0; 0; 0; 0; 1; 0; 2; 2; 2; 0; 0; 0; 3; 0; 0; 0; 0; 0; 3];
   [1; 0; 4; 4; 4; 0; 1; 0; 0; 2; 0; 5; 5; 0; 3; 0; 6; 6; 6; 0; 3];
   [1; 0; 4; 4; 4; 0; 1; 0; 0; 0; 0; 0; 5; 0; 3; 0; 6; 6; 6; 0; 3];
   [1; 0; 4; 4; 4; 0; 1; 0; 5; 5; 0; 5; 5; 0; 3; 0; 6; 6; 6; 0; 3];
   [1; 0; 0; 0; 0; 0; 1; 0; 0; 5; 5; 5; 0; 0; 3; 0; 0; 0; 0; 0; 3];
   [1; 1; 1; 1; 1; 1; 1; 0; 7; 0; 5; 0; 8; 0; 3; 3; 3; 3; 3; 3; 3];
   [0; 0; 0; 0; 0; 0; 0; 0; 0; 0; 5; 0; 0; 0; 0; 0; 0; 0; 0; 0; 0];
   [9; 0; 10; 0; 11; 0; 12; 0; 0; 0; 0; 0; 13; 0; 0; 0; 14; 0; 0; 15; 0];
   [9; 0; 0; 11; 11; 0; 0; 0; 0; 0; 0; 16; 0; 16; 0; 16; 0; 17; 0; 0; 17];
   [0; 18; 0; 11; 11; 0; 19; 19; 0; 16; 16; 16; 0; 16; 16; 16; 0; 17; 17; 17; 17];
   [18; 18; 0; 0; 0; 20; 0; 0; 16; 16; 16; 16; 16; 16; 0; 16; 16; 0; 0; 17; 17];
   [18; 0; 21; 0; 20; 20; 20; 0; 16; 0; 0; 16; 0; 16; 16; 16; 0; 0; 0; 0; 17];
   [0; 0; 0; 0; 0; 0; 0; 0; 16; 16; 16; 0; 0; 0; 16; 16; 0; 22; 0; 0; 17];
   [23; 23; 23; 23; 23; 23; 23; 0; 0; 16; 16; 0; 24; 0; 0; 0; 25; 0; 0; 17; 17];
   [23; 0; 0; 0; 0; 0; 23; 0; 0; 16; 16; 0; 0; 0; 26; 0; 0; 0; 0; 17; 0];
   [23; 0; 27; 27; 27; 0; 23; 0; 16; 16; 0; 0; 28; 0; 26; 0; 29; 29; 0; 17; 17];
   [23; 0; 27; 27; 27; 0; 23; 0; 0; 16; 0; 30; 0; 30; 0; 30; 0; 29; 0; 0; 0];
   [23; 0; 27; 27; 27; 0; 23; 0; 16; 16; 0; 30; 0; 30; 30; 30; 0; 0; 0; 0; 31];
   [23; 0; 0; 0; 0; 0; 23; 0; 0; 0; 30; 30; 30; 30; 0; 30; 30; 30; 0; 32; 0];
   [23; 23; 23; 23; 23; 23; 23; 0; 33; 0; 0; 30; 0; 30; 30; 30; 0; 0; 32; 32; 32]].

Lemma damaged_drawn y x : 0 <= y < symbol_size 1 -> 0 <= x < symbol_size 1 -> table_symbol 21 damaged_rows y x = draw 1 EcM 0 damaged_codewords y x.
Proof.
  change (symbol_size 1) with 21. intros Hy Hx.
  assert (H : forallb (fun y => forallb (fun x => Bool.eqb (table_symbol 21 damaged_rows y x) (draw 1 EcM 0 damaged_codewords y x)) (zrange 0 21)) (zrange 0 21) = true) by (vm_compute; reflexivity).
  rewrite forallb_forall in H. specialize (H y ltac:(apply in_zrange; lia)). rewrite forallb_forall in H. specialize (H x ltac:(apply in_zrange; lia)).
  apply Bool.eqb_prop. exact H.
Qed.

Example C54_damaged_example {Srt : Sorter spec_float} : exists p, prepare_from_bitmap 46 46 (rendered 21 (draw 1 EcM 0 damaged_codewords) 2 1 2 2) = Ok p
  /\ scans_to p [114; 113; 114; 114] (mkMeta 1 0 0).
Proof.
  destruct rqrr_message_ok as (H1 & H2 & _).
  assert (Hl : length damaged_codewords = total_codewords 1) by (vm_compute; reflexivity).
  assert (Hb : Forall is_byte damaged_codewords).
  { apply Forall_forall. intros x Hx.
    assert (H : forallb (fun z => (0 <=? z) && (z <? 256)) damaged_codewords = true) by (vm_compute; reflexivity).
    rewrite forallb_forall in H. specialize (H x Hx). unfold is_byte. lia. }
  apply (C54_damaged 46 46 _ 1 EcM 0 rqrr_message (draw 1 EcM 0 damaged_codewords) 2 1 2 2); try lia; try assumption.
  - apply (C53_rendered 46 46 1 _ 2 1 2 2); try (cbn; lia); [apply draw_patterns; lia|].
    apply (plain_ext 1 (table_symbol 21 damaged_rows)); [exact damaged_drawn|]. apply (plain_checked 1 _ (region_at damaged_regions 2)). vm_compute. reflexivity.
  - rewrite draw_format_1 by lia. apply Nat.leb_le. vm_compute. reflexivity.
  - rewrite draw_codewords; [|lia|assumption|assumption].
    intros i Hi. change (num_blocks 1 EcM) with 1%nat in Hi. assert (i = 0%nat) by lia. subst i. apply Nat.leb_le. vm_compute. reflexivity.
Qed.

(** Pictures of the mirror image of a symbol, if its direct reading fails. *)
Theorem C54_mirrored {Srt : Sorter spec_float} w h fill v e mask msg sym m ox oy r :
  clear_picture w h (ink fill) v (fun y x => sym x y) m ox oy r ->
  0 <= mask < 8 -> message_ok v msg -> fits v e msg -> is_symbol v e mask msg sym ->
  (forall g, g_size g = symbol_size v -> readable g (fun y x => sym x y) -> exists x, decode_inner g = Err x) ->
  exists p, prepare_from_bitmap w h fill = Ok p /\ scans_to p (message_bytes msg) (mkMeta v (level_bits e) mask).
Proof. exact (scan_mirrored w h fill v e mask msg sym m ox oy r). Qed.
Print Assumptions C54_mirrored.

Example C54_example {Srt : Sorter spec_float} : exists p, prepare_from_bitmap 50 46 (rendered 21 (encode 1 EcM 0 rqrr_message) 2 5 3 0) = Ok p
  /\ exists l p', detect_grids (T := spec_float) p = Ok ([l], p')
       /\ grid_decode (ref_grid p' (lg_loc l)) = Ok (mkMeta 1 0 0, [114; 113; 114; 114]).
Proof.
  destruct rqrr_message_ok as (H1 & H2 & H3).
  destruct (C54_rendered 50 46 1 EcM 0 rqrr_message 2 5 3 0) as (p & E & l & p' & Ed & _ & _ & Hd & _); try (cbn; lia); try assumption.
  - apply rqrr_plain. left. split; reflexivity.
  - exists p. split; [exact E|]. exists l, p'. split; [exact Ed|]. exact (Hd H3).
Qed.

(** * C55 *)

(** Decoding looks at nothing but the modules: two grids of the same size (at least 9) that answer alike for every
    module are decoded alike, by [decode], by [decode_to] with any writer, and by [get_raw_data]. *)
Theorem C55_modules_only g g' : same_modules g g' -> 9 <= g_size g ->
  (forall W (wr : W -> list Z -> W * bool) w, grid_decode_to wr g w = grid_decode_to wr g' w)
  /\ grid_decode g = grid_decode g' /\ grid_get_raw_data g = grid_get_raw_data g'.
Proof. exact (decode_same g g'). Qed.
Print Assumptions C55_modules_only.

(** A grid that is readable only inside the symbol. *)
Definition guarded (size : Z) (sym : Z -> Z -> bool) : BitGrid :=
  mkGrid size (fun y x => if (0 <=? y) && (y <? size) && (0 <=? x) && (x <? size) then Ok (sym y x) else Panic).

Example C55_example : grid_decode (guarded 21 (table_symbol 21 rqrr_rows)) = Ok (mkMeta 1 0 0, [114; 113; 114; 114]).
Proof.
  destruct (C55_modules_only (guarded 21 (table_symbol 21 rqrr_rows)) (grid_of 21 (encode 1 EcM 0 rqrr_message))) as (_ & -> & _).
  - split; [reflexivity|]. cbn [g_size g_bit guarded grid_of]. intros y x Hy Hx. replace ((0 <=? y) && (y <? 21) && (0 <=? x) && (x <? 21)) with true by lia.
    rewrite rqrr_encoded by assumption. reflexivity.
  - cbn. lia.
  - destruct rqrr_message_ok as (H1 & H2 & H3).
    assert (W : writes_message (grid_of 21 (encode 1 EcM 0 rqrr_message)) (message_bytes rqrr_message) (mkMeta 1 0 0)).
    { apply (decode_symbol _ (encode 1 EcM 0 rqrr_message) 1 EcM 0); [apply grid_of_readable|reflexivity|lia|lia|assumption|assumption|]. apply encode_is_symbol; [lia|assumption]. }
    destruct (writes_message_vec _ _ _ W) as [_ ->]. apply utf8_valid_iff in H3. rewrite H3. reflexivity.
Qed.

(** C54: the direct reading of the mirrored "rqrr" fails, whatever grid holds it. *)
Example C54_mirrored_example g : g_size g = symbol_size 1 -> readable g (fun y x => table_symbol 21 rqrr_rows x y) -> exists x, decode_inner g = Err x.
Proof.
  intros S R. rewrite (decode_inner_same g (grid_of 21 (fun y x => table_symbol 21 rqrr_rows x y))).
  - eexists. vm_compute. reflexivity.
  - split; [exact S|]. intros y x Hy Hx. apply R; assumption.
  - rewrite S. cbn. lia.
Qed.

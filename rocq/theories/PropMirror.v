(** Properties of symbols seen the wrong way round: C71.
    Every theorem is followed by its assumptions and by a case meeting its hypotheses. *)
From Coq Require Import SpecFloat Permutation.
From Verif Require Import Base Lib ModelDecode ModelImage ModelGeometry ModelDetect ModelIdentify SpecPayload SpecImage SpecThreshold SpecFinder SpecPicture SpecSheet SpecReading SpecMirror
  FormatProofs EndToEnd EncodeProofs GridProofs Refuted SymbolProofs ReadingProofs ExtProofs DrawProofs RenderProofs PictureProofs SheetProofs SheetRender SheetOrder SheetScan DotProofs MirrorProofs
  PropSymbol PropPicture PropDots PropSheet SpecQR.
From Coq Require Import ZifyBool.
Open Scope Z_scope.
Set Bullet Behavior "Strict Subproofs".

(** * C71 *)

(** The format information of the mirror image of a symbol is never lost and never right: it is read, and always
    as that of some other level or mask. *)
Theorem C71_format g sym v e mask : readable g (mirrored sym) -> g_size g = symbol_size v -> 1 <= v <= 40 -> 0 <= mask < 8 ->
  format_read format_module_1 sym = format_bits (format_word e mask) ->
  exists e' mask' rd, (e', mask') <> (e, mask) /\ copy_says format_module_1 (mirrored sym) e' mask'
    /\ grid_get_raw_data g = Ok (mkMeta v (level_bits e') mask', rd).
Proof. exact (mirrored_format g sym v e mask). Qed.
Print Assumptions C71_format.

(** So decoding the mirror image of a symbol of a message answers with a reading of the data under that other
    format, if there is one, and with the message if there is none. *)
Theorem C71_reading g sym v e mask msg : readable g (mirrored sym) -> g_size g = symbol_size v -> 1 <= v <= 40 -> v <> 21 -> 0 <= mask < 8 ->
  message_ok v msg -> fits v e msg -> is_symbol v e mask msg sym ->
  (exists e' mask' data, (e', mask') <> (e, mask) /\ reads v (mirrored sym) (Data e' mask' data) /\ ReadingProofs.answers g v e' mask' data)
  \/ (reads v (mirrored sym) NoData /\ writes_message g (message_bytes msg) (mkMeta v (level_bits e) mask)).
Proof. exact (mirrored_reading g sym v e mask msg). Qed.
Print Assumptions C71_reading.

(** Both happen.  The mirror image of "rqrr" says level Q and mask 4 instead of M and 0, under which nothing can be read... *)
Definition format_of (r : res deqr_error (MetaData * RawData)) : option MetaData := match r with Ok (meta, _) => Some meta | _ => None end.

Example C71_example_rqrr : format_of (grid_get_raw_data (grid_of 21 (mirrored (table_symbol 21 rqrr_rows)))) = Some (mkMeta 1 3 4)
  /\ decode_inner (grid_of 21 (mirrored (table_symbol 21 rqrr_rows))) = Err DataEcc.
Proof. split; vm_compute; reflexivity. Qed.

(** ...while this symbol of a text of seventeen characters, seen in a mirror, is a symbol of another text of as many
    bytes, without an error in the data and with three in the format information. *)
Definition glass_text : list segment := [ByteMode [126; 39; 102; 80; 39; 10; 86; 111; 45; 80; 53; 79; 114; 102; 104; 103; 99]].
Definition other_text : list segment := [ByteMode [53; 115; 67; 195; 136; 85; 86; 46; 75; 80; 77; 85; 71; 85; 45; 85; 81]].
Definition glass : Z -> Z -> bool := encode 1 EcL 1 glass_text.
Definition glass_rows : list Z := [2086527; 1072705; 1525597; 1525085; 1531485; 1072705; 2086271; 4352; 1891827; 1616345; 420115; 1579289; 1760152; 5099; 2082137; 1071002; 1526887; 1523714; 1531391; 1070640; 2085145].
Definition glass_regions : list (list Z) :=
  [[1; 1; 1; 1; 1; 1; 1; 0; 2; 0; 2; 2; 0; 0; 3; 3; 3; 3; 3; 3; 3];
   [1; 0; 0; 0; 0; 0; 1; 0; 2; 2; 2; 2; 0; 0; 3; 0; 0; 0; 0; 0; 3];
   [1; 0; 4; 4; 4; 0; 1; 0; 0; 0; 2; 2; 2; 0; 3; 0; 5; 5; 5; 0; 3];
   [1; 0; 4; 4; 4; 0; 1; 0; 0; 0; 2; 0; 2; 0; 3; 0; 5; 5; 5; 0; 3];
   [1; 0; 4; 4; 4; 0; 1; 0; 2; 2; 2; 2; 0; 0; 3; 0; 5; 5; 5; 0; 3];
   [1; 0; 0; 0; 0; 0; 1; 0; 2; 2; 2; 2; 0; 0; 3; 0; 0; 0; 0; 0; 3];
   [1; 1; 1; 1; 1; 1; 1; 0; 2; 0; 2; 0; 6; 0; 3; 3; 3; 3; 3; 3; 3];
   [0; 0; 0; 0; 0; 0; 0; 0; 2; 0; 0; 0; 6; 0; 0; 0; 0; 0; 0; 0; 0];
   [7; 7; 7; 0; 0; 8; 8; 0; 2; 2; 2; 0; 6; 6; 6; 6; 6; 0; 0; 9; 9];
   [7; 7; 0; 0; 0; 8; 0; 10; 0; 2; 0; 0; 6; 6; 6; 0; 6; 6; 0; 0; 9];
   [0; 0; 11; 11; 0; 0; 10; 10; 0; 2; 0; 0; 6; 0; 0; 0; 6; 0; 0; 9; 9];
   [12; 12; 0; 0; 0; 0; 0; 0; 2; 2; 0; 0; 6; 0; 0; 0; 6; 6; 0; 0; 9];
   [12; 12; 0; 13; 0; 14; 14; 0; 2; 2; 0; 6; 6; 6; 0; 0; 6; 6; 0; 0; 0];
   [0; 0; 0; 0; 0; 0; 0; 0; 2; 0; 0; 6; 6; 6; 6; 6; 0; 6; 0; 15; 15];
   [16; 16; 16; 16; 16; 16; 16; 0; 0; 0; 6; 0; 6; 0; 6; 0; 6; 6; 0; 0; 15];
   [16; 0; 0; 0; 0; 0; 16; 0; 17; 0; 6; 6; 6; 6; 0; 0; 6; 6; 0; 18; 0];
   [16; 0; 19; 19; 19; 0; 16; 0; 0; 6; 6; 0; 0; 0; 20; 20; 0; 0; 18; 18; 18];
   [16; 0; 19; 19; 19; 0; 16; 0; 0; 0; 0; 0; 0; 0; 0; 0; 0; 0; 0; 18; 0];
   [16; 0; 19; 19; 19; 0; 16; 0; 21; 21; 21; 0; 18; 18; 18; 18; 18; 18; 18; 18; 18];
   [16; 0; 0; 0; 0; 0; 16; 0; 21; 0; 21; 21; 0; 0; 0; 18; 18; 0; 0; 0; 0];
   [16; 16; 16; 16; 16; 16; 16; 0; 21; 0; 0; 0; 22; 0; 0; 0; 18; 18; 0; 0; 23]].

Lemma glass_drawn y x : 0 <= y < symbol_size 1 -> 0 <= x < symbol_size 1 -> table_symbol 21 glass_rows y x = glass y x.
Proof.
  change (symbol_size 1) with 21. intros Hy Hx.
  assert (H : forallb (fun y => forallb (fun x => Bool.eqb (table_symbol 21 glass_rows y x) (glass y x)) (zrange 0 21)) (zrange 0 21) = true) by (vm_compute; reflexivity).
  rewrite forallb_forall in H. specialize (H y ltac:(apply in_zrange; lia)). rewrite forallb_forall in H. specialize (H x ltac:(apply in_zrange; lia)).
  apply Bool.eqb_prop. exact H.
Qed.

Lemma glass_plain : plain 1 glass 4 0 /\ plain 1 (mirrored glass) 4 0.
Proof.
  split.
  - apply (plain_ext 1 (table_symbol 21 glass_rows)); [exact glass_drawn|]. apply (plain_checked 1 _ (region_at glass_regions 0)). vm_compute. reflexivity.
  - apply (plain_ext 1 (mirrored (table_symbol 21 glass_rows))); [intros y x Hy Hx; apply glass_drawn; assumption|].
    apply (plain_checked 1 _ (fun j i => region_at glass_regions 0 i j)). vm_compute. reflexivity.
Qed.

Lemma glass_ok : message_ok 1 glass_text /\ fits 1 EcL glass_text /\ message_ok 1 other_text /\ fits 1 EcL other_text.
Proof.
  split; [|split; [|split]]; try (unfold fits; apply Nat.leb_le; vm_compute; reflexivity); unfold message_ok, glass_text, other_text, segment_ok, is_byte; repeat constructor; cbn; lia.
Qed.

Lemma glass_clear : clear_picture 100 98 (ink (rendered 21 (mirrored glass) 4 7 5 0)) 1 (mirrored glass) 4 7 5 0.
Proof.
  apply (C53_rendered 100 98 1 (mirrored glass) 4 7 5 0); try (cbn; lia); [|apply glass_plain].
  apply (patterns_transposed 1 glass). apply encode_patterns. lia.
Qed.

Theorem C71_two_texts {Srt : Sorter spec_float} : exists p p',
  prepare_from_bitmap 100 98 (rendered 21 glass 4 7 5 0) = Ok p /\ scans_to p (message_bytes glass_text) (mkMeta 1 1 1)
  /\ prepare_from_bitmap 100 98 (rendered 21 (mirrored glass) 4 7 5 0) = Ok p' /\ scans_to p' (message_bytes other_text) (mkMeta 1 1 4).
Proof.
  destruct glass_ok as (O1 & F1 & O2 & F2).
  destruct (C54_rendered 100 98 1 EcL 1 glass_text 4 7 5 0) as (p & E & Sc); try (cbn; lia); try assumption; [apply glass_plain|].
  destruct (C54_damaged 100 98 (rendered 21 (mirrored glass) 4 7 5 0) 1 EcL 4 other_text (mirrored glass) 4 7 5 0) as (p' & E' & Sc'); try lia; try assumption.
  - exact glass_clear.
  - apply Nat.leb_le. vm_compute. reflexivity.
  - intros i Hi. change (num_blocks 1 EcL) with 1%nat in Hi. assert (i = 0%nat) by lia. subst i. apply Nat.leb_le. vm_compute. reflexivity.
  - exists p, p'. split; [exact E|]. split; [exact Sc|]. split; [exact E'|exact Sc'].
Qed.
Print Assumptions C71_two_texts.

(** Refuted: a clear picture of the mirror image of any symbol is scanned as its message. *)
Theorem C71_every_mirror_image_refuted {Srt : Sorter spec_float} :
  ~ (forall w h fill v e mask msg sym m ox oy r, clear_picture w h (ink fill) v (mirrored sym) m ox oy r ->
       0 <= mask < 8 -> message_ok v msg -> fits v e msg -> is_symbol v e mask msg sym ->
       exists p, prepare_from_bitmap w h fill = Ok p /\ scans_to p (message_bytes msg) (mkMeta v (level_bits e) mask)).
Proof.
  intros H. destruct glass_ok as (O1 & F1 & _).
  destruct (H 100 98 (rendered 21 (mirrored glass) 4 7 5 0) 1 EcL 1 glass_text glass 4 7 5 0%nat glass_clear ltac:(lia) O1 F1 ltac:(apply encode_is_symbol; [lia|exact F1])) as (p & E & Sc).
  destruct C71_two_texts as (_ & p' & _ & _ & E' & Sc'). rewrite E in E'. assert (Q : p' = p) by congruence. subst p'.
  destruct (scans_one_text _ _ _ _ _ Sc Sc') as [_ Q]. discriminate.
Qed.
Print Assumptions C71_every_mirror_image_refuted.

(** Sheets may show symbols either way round: each grid decodes to the message of its symbol, if the first reading of
    those that are the wrong way round gives nothing. *)
Theorem C71_sheet {Srt : Sorter spec_float} w h fill ts : clear_sheet w h (ink fill) (map pr_mark ts) -> (forall t, In t ts -> either_way t) ->
  exists p, prepare_from_bitmap w h fill = Ok p /\ scans_sheet p ts.
Proof. exact (either_way_bitmap w h fill ts). Qed.
Print Assumptions C71_sheet.

Theorem C71_sheet_greyscale {Srt : Sorter spec_float} w h fill ts : (forall x y, inside w h (x, y) -> 0 <= fill x y <= 255) -> clear_sheet w h (shade w fill) (map pr_mark ts) -> (forall t, In t ts -> either_way t) ->
  exists p, prepare_from_greyscale w h fill = Ok p /\ scans_sheet p ts.
Proof. exact (either_way_greyscale w h fill ts). Qed.
Print Assumptions C71_sheet_greyscale.

(** "rqrr" and its mirror image, side by side, in dots. *)
Definition both_prints : list print :=
  [Print (Mark 1 (encode 1 EcM 3 rqrr_message) 4 0 5 0) EcM 3 rqrr_message; Print (Mark 1 (mirrored (encode 1 EcM 0 rqrr_message)) 4 172 5 0) EcM 0 rqrr_message].

Example C71_example_sheet {Srt : Sorter spec_float} : exists p, prepare_from_bitmap 256 90 (overlay (dots 1) (map pr_mark both_prints)) = Ok p /\ scans_sheet p both_prints.
Proof.
  destruct rqrr_message_ok as (Ok1 & Ok2 & _).
  assert (Sp : ForallOrdPairs spaced (map pr_mark both_prints)).
  { unfold both_prints, spaced, side. cbn [map pr_mark mk_v mk_m mk_ox mk_oy]. change (symbol_size 1) with 21. repeat first [unfold symbol_size; progress cbn [mk_v mk_m mk_ox mk_oy]; lia | constructor]. }
  apply C71_sheet.
  - apply C66_overlay; [|exact Sp|lia|lia|].
    + intros k [<-|[<-|[]]]; apply dotted_alone; cbn [pr_mark mk_v mk_m mk_ox mk_oy mk_r mk_sym]; apply dotted_clear; try lia; try (vm_compute; congruence).
      * apply encode_patterns. lia.
      * apply (patterns_transposed 1 (encode 1 EcM 0 rqrr_message)). apply encode_patterns. lia.
    + apply (C66_row _ 1 4 5); [lia|lia| |exact Sp|].
      * intros k [<-|[<-|[]]]; auto.
      * intros k [<-|[<-|[]]]; reflexivity.
  - intros t [<-|[<-|[]]].
    + left. unfold print_ok. cbn [pr_mark pr_level pr_mask pr_text mk_v mk_sym]. split; [lia|]. split; [exact Ok1|]. split; [exact Ok2|]. apply encode_is_symbol; [lia|exact Ok2].
    + right. split.
      * unfold mirrored_print_ok. cbn [pr_mark pr_level pr_mask pr_text mk_v mk_sym]. split; [lia|]. split; [exact Ok1|]. split; [exact Ok2|].
        apply (encode_is_symbol 1 EcM 0 rqrr_message); [lia|exact Ok2].
      * intros g S R. cbn [pr_mark mk_v mk_sym] in S, R. apply (C54_mirrored_example g S). intros y x Hy Hx.
        rewrite (R y x Hy Hx). unfold mirrored. rewrite rqrr_encoded by (rewrite <- S; assumption). reflexivity.
Qed.

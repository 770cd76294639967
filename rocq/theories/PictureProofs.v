(** Pictures of symbols, from the public operations that prepare them to the decoded message. *)
From Coq Require Import SpecFloat.
From Verif Require Import Base Lib ModelDecode ModelImage ModelGeometry ModelDetect ModelIdentify SpecQR SpecPayload SpecImage SpecThreshold SpecFinder SpecPicture
  FloodProofs RegionProofs FormatProofs EndToEnd EncodeProofs GridProofs SymbolProofs PayloadProofs HistoryProofs SpiralProofs TurnProofs WholeProofs DrawProofs RenderProofs ImageFacts FinderFacts SpecQR.
From Coq Require Import ZifyBool.
Open Scope Z_scope.
Set Bullet Behavior "Strict Subproofs".

(** The points [detect_grids] reports for a symbol: the outermost pixel of module (0, 0), and the
    points [n + 1] modules along the rows, along both, and along the columns. *)
Definition bounds_at (n m ox oy : Z) (r : nat) : corners :=
  let p s t := let q := step_at r n m ox oy s t in MkPoint (fst q) (snd q) in
  let far := (n + 1) * m in Corners (p 0 0) (p far 0) (p far far) (p 0 far).

Lemma bounds_frame v m ox oy r : frame_bounds v m ox oy r = bounds_at (symbol_size v) m ox oy r.
Proof.
  unfold frame_bounds, bounds_at, step_at, place. cbv zeta.
  unfold pt. destruct r as [|[|[|r']]]; cbn [org_x org_y dir_a dir_b fst snd]; f_equal; f_equal; ring.
Qed.

(** What [detect_grids] returns for the picture: one grid, which reads the symbol. *)
Definition finds_symbol {Srt : Sorter spec_float} (p : prepared) (v : Z) (sym : Z -> Z -> bool) (m ox oy : Z) (r : nat) : Prop :=
  exists l p', detect_grids (T := spec_float) p = Ok ([l], p') /\ lg_bounds l = bounds_at (symbol_size v) m ox oy r
    /\ g_size (ref_grid p' (lg_loc l)) = symbol_size v /\ readable (ref_grid p' (lg_loc l)) sym.

Lemma picture_fresh {Srt : Sorter spec_float} p v sym m ox oy r : fresh (p_buf p) p ->
  clear_picture (p_w p) (p_h p) (pix (p_buf p)) v sym m ox oy r -> finds_symbol p v sym m ox oy r.
Proof.
  intros F [A1 A2 [A3 A3'] A4 A5 A6 A7 A8]. unfold finds_symbol.
  destruct (detect_reads (p_buf p) p F A1 A2 v sym m ox oy r A7 A3 A6 A4 A8 A3' A5) as (l & p' & E & B & S & R).
  exists l, p'. split; [exact E|]. split; [rewrite B; apply bounds_frame|]. split; [exact S|].
  intros y x Hy Hx. unfold out in *. rewrite S in *. apply R; assumption.
Qed.

(** The dark pixels of a prepared picture. *)
Lemma prepared_pixels w h p (dark : Z -> Z -> bool) : fresh (p_buf p) p -> p_w p = w -> p_h p = h ->
  (forall x y, inside w h (x, y) -> get_pixel_at p x y = Ok (if dark x y then Black else White)) ->
  forall q, inside w h q -> ((if dark (fst q) (snd q) then 1 else 0) = 0 <-> pix (p_buf p) q = 0).
Proof.
  intros F S1 S2 P [x y] Hq. specialize (P x y Hq). unfold p_w, p_h in *.
  assert (Hi : in_image (p_buf p) (x, y)) by (destruct Hq; split; rewrite ?S1, ?S2; assumption).
  unfold get_pixel_at in P. rewrite get_pixel_ok in P; [|apply F|exact Hi].
  cbn [bind] in P. cbn [fst snd]. destruct F as (_ & _ & _ & B). destruct (B (x, y) Hi) as [Z|Z].
  - rewrite Z in *. cbn in P. destruct (dark x y); [discriminate|]. tauto.
  - rewrite Z in *. cbn in P. destruct (dark x y); [|discriminate]. lia.
Qed.

Theorem picture_bitmap {Srt : Sorter spec_float} w h fill v sym m ox oy r :
  clear_picture w h (ink fill) v sym m ox oy r ->
  exists p, prepare_from_bitmap w h fill = Ok p /\ finds_symbol p v sym m ox oy r.
Proof.
  intros C. pose proof (cp_width _ _ _ _ _ _ _ _ _ C) as Hw. pose proof (cp_height _ _ _ _ _ _ _ _ _ C) as Hh.
  destruct (bitmap_ok w h fill ltac:(lia) ltac:(lia)) as (p & E & S1 & S2 & F & P); [unfold usize_max; nia|].
  exists p. split; [exact E|]. apply picture_fresh; [exact F|]. rewrite S1, S2.
  eapply clear_picture_same; [|exact C]. exact (prepared_pixels w h p fill F S1 S2 P).
Qed.

Theorem picture_greyscale {Srt : Sorter spec_float} w h fill v sym m ox oy r :
  (forall x y, inside w h (x, y) -> 0 <= fill x y <= 255) ->
  clear_picture w h (shade w fill) v sym m ox oy r ->
  exists p, prepare_from_greyscale w h fill = Ok p /\ finds_symbol p v sym m ox oy r.
Proof.
  intros G C. pose proof (cp_width _ _ _ _ _ _ _ _ _ C) as Hw. pose proof (cp_height _ _ _ _ _ _ _ _ _ C) as Hh.
  destruct (greyscale_exact w h fill ltac:(lia) ltac:(lia)) as (p & E & S1 & S2 & F & P); [unfold usize_max; nia|assumption|].
  exists p. split; [exact E|]. apply picture_fresh; [exact F|]. rewrite S1, S2.
  eapply clear_picture_same; [|exact C]. intros [x y] Hq.
  apply (prepared_pixels w h p (fun x y => is_dark w (fun z => fill (fst z) (snd z)) (x, y)) F S1 S2 P (x, y) Hq).
Qed.

(** * Decoding what was found *)

(** Detecting and decoding: exactly one grid is found, and it decodes to the bytes, for every writer, into a
    vector, and to a string if they are valid UTF-8. *)
Definition scans_to {Srt : Sorter spec_float} (p : prepared) (bytes : list Z) (meta : MetaData) : Prop :=
  exists l p', detect_grids (T := spec_float) p = Ok ([l], p')
    /\ let g := ref_grid p' (lg_loc l) in
       writes_message g bytes meta
       /\ grid_decode_to vec_writer g [] = (bytes, Ok meta)
       /\ (utf8_text bytes -> grid_decode g = Ok (meta, bytes))
       /\ (~ utf8_text bytes -> grid_decode g = Err EncodingError).

Lemma scans_found {Srt : Sorter spec_float} p v sym m ox oy r bytes meta : finds_symbol p v sym m ox oy r ->
  (forall g, g_size g = symbol_size v -> readable g sym -> writes_message g bytes meta) -> scans_to p bytes meta.
Proof.
  intros (l & p' & E & _ & S & R) H. exists l, p'. split; [exact E|]. cbv zeta. set (g := ref_grid p' (lg_loc l)) in *. clearbody g.
  specialize (H g S R). split; [exact H|]. destruct (writes_message_vec _ _ _ H) as [H1 H2]. split; [exact H1|]. rewrite H2. split; intros Hu.
  - apply utf8_valid_iff in Hu. rewrite Hu. reflexivity.
  - rewrite <- utf8_valid_iff in Hu. destruct (utf8_valid bytes); [congruence|reflexivity].
Qed.

(** Symbols of a message. *)
Lemma symbol_writes v e mask msg sym : 1 <= v <= 40 -> 0 <= mask < 8 -> message_ok v msg -> fits v e msg -> is_symbol v e mask msg sym ->
  forall g, g_size g = symbol_size v -> readable g sym -> writes_message g (message_bytes msg) (mkMeta v (level_bits e) mask).
Proof. intros Hv Hm Hok Hf Hs g S R. apply (decode_symbol g sym); assumption. Qed.

Theorem scan_bitmap {Srt : Sorter spec_float} w h fill v e mask msg sym m ox oy r :
  clear_picture w h (ink fill) v sym m ox oy r ->
  0 <= mask < 8 -> message_ok v msg -> fits v e msg -> is_symbol v e mask msg sym ->
  exists p, prepare_from_bitmap w h fill = Ok p /\ scans_to p (message_bytes msg) (mkMeta v (level_bits e) mask).
Proof.
  intros C Hm Hok Hf Hs. destruct (picture_bitmap w h fill v _ m ox oy r C) as (p & E & Fs). exists p. split; [exact E|].
  pose proof (cp_version _ _ _ _ _ _ _ _ _ C) as [Hv _].
  apply (scans_found p v _ m ox oy r _ _ Fs). apply (symbol_writes v e mask msg sym); assumption.
Qed.

Theorem scan_greyscale {Srt : Sorter spec_float} w h fill v e mask msg sym m ox oy r :
  (forall x y, inside w h (x, y) -> 0 <= fill x y <= 255) ->
  clear_picture w h (shade w fill) v sym m ox oy r ->
  0 <= mask < 8 -> message_ok v msg -> fits v e msg -> is_symbol v e mask msg sym ->
  exists p, prepare_from_greyscale w h fill = Ok p /\ scans_to p (message_bytes msg) (mkMeta v (level_bits e) mask).
Proof.
  intros G C Hm Hok Hf Hs. destruct (picture_greyscale w h fill v _ m ox oy r G C) as (p & E & Fs). exists p. split; [exact E|].
  pose proof (cp_version _ _ _ _ _ _ _ _ _ C) as [Hv _].
  apply (scans_found p v _ m ox oy r _ _ Fs). apply (symbol_writes v e mask msg sym); assumption.
Qed.

(** The reference symbol, drawn on white. *)
Theorem scan_rendered {Srt : Sorter spec_float} w h v e mask msg m ox oy r :
  1 <= w <= 32768 -> 1 <= h <= 32768 -> 1 <= v <= 40 -> v <> 21 -> 2 <= m -> (7 * m - 1) * (7 * m - 1) * furthest v m ox oy r < 2 ^ 31 ->
  0 <= ox -> 0 <= oy -> ox + symbol_size v * m <= w -> oy + symbol_size v * m <= h ->
  0 <= mask < 8 -> message_ok v msg -> fits v e msg -> plain v (encode v e mask msg) m r ->
  exists p, prepare_from_bitmap w h (rendered (symbol_size v) (encode v e mask msg) m ox oy r) = Ok p
    /\ scans_to p (message_bytes msg) (mkMeta v (level_bits e) mask).
Proof.
  intros Hw Hh Hv V21 M Pr Ox Oy Rw Rh Hm Hok Hf Pl. apply (scan_bitmap _ _ _ v e mask msg (encode v e mask msg) m ox oy r); try assumption.
  - apply rendered_clear; try assumption. apply encode_patterns. exact Hv.
  - apply encode_is_symbol; assumption.
Qed.

(** Damaged symbols: wrong modules outside the function patterns, within the capacity. *)
Theorem scan_damaged {Srt : Sorter spec_float} w h fill v e mask msg sym m ox oy r :
  clear_picture w h (ink fill) v sym m ox oy r ->
  0 <= mask < 8 -> message_ok v msg -> fits v e msg ->
  (bit_distance (format_read format_module_1 sym) (format_bits (format_word e mask)) <= 3)%nat ->
  within_capacity v e (data_codewords v (data_capacity v e) msg) (received_codewords v mask sym) ->
  exists p, prepare_from_bitmap w h fill = Ok p /\ scans_to p (message_bytes msg) (mkMeta v (level_bits e) mask).
Proof.
  intros C Hm Hok Hf F3 Wc. destruct (picture_bitmap w h fill v _ m ox oy r C) as (p & E & Fs). exists p. split; [exact E|].
  pose proof (cp_version _ _ _ _ _ _ _ _ _ C) as [Hv _].
  apply (scans_found p v _ m ox oy r _ _ Fs). intros g S R. apply (decode_message g sym); try assumption.
  apply (format_first_three g sym v e mask); assumption.
Qed.

(** Mirrored symbols: the function patterns are symmetric, so the transposed symbol is found and read, and decoded
    if the direct reading fails before the payload. *)
Lemma patterns_transposed v sym : function_patterns v sym -> function_patterns v (fun y x => sym x y).
Proof.
  assert (Rs : forall a b, ring_no a b = ring_no b a) by (intros; unfold ring_no; lia).
  assert (Fs : forall a b, In (a, b) (finder_centres v) -> In (b, a) (finder_centres v)).
  { intros a b. unfold finder_centres. cbv zeta. cbn [In]. intros [Q|[Q|[Q|[]]]]; injection Q as <- <-; auto. }
  intros [F1 F2 F3 F4]. constructor.
  - intros cy cx dy dx Hc R. rewrite (F1 cx cy dx dy); [unfold finder_dark; rewrite Rs; reflexivity|apply Fs; exact Hc|rewrite Rs; exact R].
  - intros cy cx dy dx Hc R Hy Hx. apply F2; [apply Fs; exact Hc|rewrite Rs; exact R|exact Hx|exact Hy].
  - intros k Hk. destruct (F3 k Hk). split; assumption.
  - intros cy cx dy dx (H1 & H2 & N1 & N2 & N3) R. rewrite (F4 cx cy dx dy); [unfold align_dark; rewrite Rs; reflexivity| |rewrite Rs; exact R].
    unfold align_centre. cbv zeta. tauto.
Qed.

Theorem scan_mirrored {Srt : Sorter spec_float} w h fill v e mask msg sym m ox oy r :
  clear_picture w h (ink fill) v (fun y x => sym x y) m ox oy r ->
  0 <= mask < 8 -> message_ok v msg -> fits v e msg -> is_symbol v e mask msg sym ->
  (forall g, g_size g = symbol_size v -> readable g (fun y x => sym x y) -> exists x, decode_inner g = Err x) ->
  exists p, prepare_from_bitmap w h fill = Ok p /\ scans_to p (message_bytes msg) (mkMeta v (level_bits e) mask).
Proof.
  intros C Hm Hok Hf Hs Fail. destruct (picture_bitmap w h fill v _ m ox oy r C) as (p & E & Fs). exists p. split; [exact E|].
  pose proof (cp_version _ _ _ _ _ _ _ _ _ C) as [Hv _].
  apply (scans_found p v _ m ox oy r _ _ Fs). intros g S R. apply (mirrored_symbol g sym); try assumption. apply Fail; assumption.
Qed.

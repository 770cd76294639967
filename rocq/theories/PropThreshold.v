(** Properties of greyscale pictures: C56.
    Every theorem is followed by its assumptions and by a case meeting its hypotheses. *)
From Coq Require Import SpecFloat.
From Verif Require Import Base Lib ModelDecode ModelImage ModelGeometry ModelDetect ModelIdentify SpecPayload SpecImage SpecThreshold SpecFinder SpecPicture
  FormatProofs EndToEnd EncodeProofs GridProofs Refuted SymbolProofs DrawProofs RenderProofs PictureProofs ExtProofs PropSymbol PropPicture LitProofs SpecQR.
From Coq Require Import ZifyBool.
Open Scope Z_scope.
Set Bullet Behavior "Strict Subproofs".

(** * C56 *)

(** A dark pixel with enough light pixels beside it becomes black. *)
Theorem C56_dark w h lum q : 16 <= w -> (forall q, inside w h q -> 0 <= lum q) -> inside w h q -> lit w lum q -> is_dark w lum q = true.
Proof. intros H1 H2. exact (lit_dark w h lum H1 H2 q). Qed.
Print Assumptions C56_dark.

(** Thresholding separates the light pixels from the dark ones. *)
Theorem C56_threshold w h fill : 16 <= w < 2 ^ 31 -> 0 <= h -> w * h <= 2 ^ 64 - 1 -> two_toned w h fill ->
  exists p, prepare_from_greyscale w h fill = Ok p
    /\ forall x y, inside w h (x, y) -> get_pixel_at p x y = Ok (if fill x y <? 241 then Black else White).
Proof. exact (two_toned_threshold w h fill). Qed.
Print Assumptions C56_threshold.

(** Scanning such a greyscale picture of a symbol. *)
Theorem C56_scan {Srt : Sorter spec_float} w h fill v e mask msg sym m ox oy r : 16 <= w -> two_toned w h fill ->
  clear_picture w h (ink (fun x y => fill x y <? 241)) v sym m ox oy r ->
  0 <= mask < 8 -> message_ok v msg -> fits v e msg -> is_symbol v e mask msg sym ->
  exists p, prepare_from_greyscale w h fill = Ok p /\ scans_to p (message_bytes msg) (mkMeta v (level_bits e) mask).
Proof. exact (two_toned_scan w h fill v e mask msg sym m ox oy r). Qed.
Print Assumptions C56_scan.

(** "rqrr" in uneven dark grey on uneven light grey. *)
Definition grey_paper (sym : Z -> Z -> bool) (x y : Z) : Z :=
  if rendered 21 sym 2 8 5 0 x y then 2 + (3 * x + y) mod 9 else 241 + (x + 5 * y) mod 15.

Lemma grey_two_toned : two_toned 64 52 (grey_paper (table_symbol 21 rqrr_rows)).
Proof.
  intros x y [Hx Hy]. cbn [fst snd] in *.
  assert (H : forallb (fun y => forallb (fun x => let f := grey_paper (table_symbol 21 rqrr_rows) in
     ((241 <=? f x y) || lit_check 64 4 (fun q => f (fst q) (snd q)) (x, y)) && (f x y <=? 255) && (0 <=? f x y)) (zrange 0 64)) (zrange 0 52) = true) by (vm_compute; reflexivity).
  rewrite forallb_forall in H. specialize (H y ltac:(apply in_zrange; lia)). rewrite forallb_forall in H. specialize (H x ltac:(apply in_zrange; lia)).
  cbv zeta in H. apply andb_true_iff in H. destruct H as [H B2]. apply andb_true_iff in H. destruct H as [H B1]. apply orb_true_iff in H.
  destruct H as [H|H]; [left; lia|right]. split; [lia|exact (lit_checked 64 4 _ (x, y) Hx H)].
Qed.

Lemma grey_same x y : grey_paper (table_symbol 21 rqrr_rows) x y = grey_paper (encode 1 EcM 0 rqrr_message) x y.
Proof.
  unfold grey_paper, rendered. destruct ((8 <=? x) && (x <? 8 + 21 * 2) && (5 <=? y) && (y <? 5 + 21 * 2)) eqn:E; [|reflexivity].
  cbn [andb]. unfold look. cbn [turned fst snd]. rewrite rqrr_encoded; [reflexivity| |]; change (symbol_size 1) with 21.
  - split; [apply Z.div_pos; lia|apply Z.div_lt_upper_bound; lia].
  - split; [apply Z.div_pos; lia|apply Z.div_lt_upper_bound; lia].
Qed.

Lemma grey_paper_two_toned : two_toned 64 52 (grey_paper (encode 1 EcM 0 rqrr_message)).
Proof.
  intros x y Hq. rewrite <- !grey_same. destruct (grey_two_toned x y Hq) as [L|[L1 L2]]; [left; exact L|right]. split; [exact L1|].
  apply (lit_ext _ _ _ _ (fun q => grey_same (fst q) (snd q)) L2).
Qed.

Lemma grey_paper_clear : clear_picture 64 52 (ink (fun x y => grey_paper (encode 1 EcM 0 rqrr_message) x y <? 241)) 1 (encode 1 EcM 0 rqrr_message) 2 8 5 0.
Proof.
  eapply clear_picture_same; [|apply (C53_rendered 64 52 1 (encode 1 EcM 0 rqrr_message) 2 8 5 0); try (cbn; lia)].
  - intros [x y] _. unfold ink, grey_paper. cbn [fst snd]. change (symbol_size 1) with 21.
    destruct (rendered 21 (encode 1 EcM 0 rqrr_message) 2 8 5 0 x y).
    + pose proof (Z.mod_pos_bound (3 * x + y) 9 ltac:(lia)). destruct (_ <? 241) eqn:E; [split; intros; lia|lia].
    + pose proof (Z.mod_pos_bound (x + 5 * y) 15 ltac:(lia)). destruct (_ <? 241) eqn:E; [lia|split; intros; lia].
  - apply C53_encoded_patterns. lia.
  - apply rqrr_plain. left. split; reflexivity.
Qed.

Example C56_example {Srt : Sorter spec_float} : exists p, prepare_from_greyscale 64 52 (grey_paper (encode 1 EcM 0 rqrr_message)) = Ok p
  /\ exists l p', detect_grids (T := spec_float) p = Ok ([l], p')
       /\ grid_decode (ref_grid p' (lg_loc l)) = Ok (mkMeta 1 0 0, [114; 113; 114; 114]).
Proof.
  destruct rqrr_message_ok as (H1 & H2 & H3).
  destruct (C56_scan 64 52 (grey_paper (encode 1 EcM 0 rqrr_message)) 1 EcM 0 rqrr_message (encode 1 EcM 0 rqrr_message) 2 8 5 0) as (p & E & l & p' & Ed & _ & _ & Hd & _);
    try (cbn; lia); try assumption.
  - exact grey_paper_two_toned.
  - exact grey_paper_clear.
  - apply encode_is_symbol; (assumption || lia).
  - exists p. split; [exact E|]. exists l, p'. split; [exact Ed|]. exact (Hd H3).
Qed.

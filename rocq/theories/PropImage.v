(** Properties of image preparation, flood fill and the region cache: C27-C31, C45.
    Every theorem is followed by its assumptions and by a case meeting its hypotheses. *)
From Verif Require Import Base Lib ModelImage ModelGeometry ModelDetect ModelIdentify SpecImage SpecScan SpecThreshold SpecFinder
  FloodProofs RegionProofs PrepareProofs ThresholdProofs ScanProofs DetectProofs CornerProofs SearchProofs HistoryProofs CenterProofs
  FinderProofs ImageFacts FinderFacts.
From Coq Require Import SpecFloat.
Open Scope Z_scope.
Set Bullet Behavior "Strict Subproofs".

(** * Pictures used in the examples *)

Definition picture (rows : list (list Z)) (x y : Z) : Z := nth (Z.to_nat x) (nth (Z.to_nat y) rows []) 0.
Definition drawing (rows : list (list Z)) (x y : Z) : bool := negb (picture rows x y =? 0).

(** A ring, a dot inside it and a dot beside it. *)
Definition small_rows : list (list Z) :=
  [[1; 1; 1; 0; 0];
   [1; 0; 1; 0; 1];
   [1; 1; 1; 0; 0]].

Definition small_image : prepared := MkPrepared (image_of 5 3 (fun x y => if drawing small_rows x y then 1 else 0)) [].

Example small_prepared : prepare_from_bitmap 5 3 (drawing small_rows) = Ok small_image.
Proof. vm_compute. reflexivity. Qed.

(** * C27 *)

(** [prepare_from_bitmap]: same size, black exactly where the function says so.  The prepared image
    is the start of a history (the hypothesis of C30 and C31). *)
Theorem C27_bitmap w h fill : 0 <= w -> 0 <= h -> w * h <= 2 ^ 64 - 1 ->
  exists p, prepare_from_bitmap w h fill = Ok p /\ p_w p = w /\ p_h p = h /\ fresh (p_buf p) p
    /\ forall x y, inside w h (x, y) -> get_pixel_at p x y = Ok (if fill x y then Black else White).
Proof. exact (bitmap_ok w h fill). Qed.
Print Assumptions C27_bitmap.

Theorem C27_bitmap_too_big w h fill : 2 ^ 64 - 1 < w * h -> prepare_from_bitmap w h fill = Panic.
Proof. exact (bitmap_too_big w h fill). Qed.
Print Assumptions C27_bitmap_too_big.

(** [prepare_from_greyscale]: same size, every pixel black or white. *)
Theorem C27_greyscale w h fill : 0 <= w < 2 ^ 31 -> 0 <= h -> w * h <= 2 ^ 64 - 1 ->
  (forall x y, inside w h (x, y) -> 0 <= fill x y <= 255) ->
  exists p, prepare_from_greyscale w h fill = Ok p /\ p_w p = w /\ p_h p = h /\ fresh (p_buf p) p
    /\ (forall x y, inside w h (x, y) -> get_pixel_at p x y = Ok White \/ get_pixel_at p x y = Ok Black)
    /\ (forall x y M, inside w h (x, y) -> (forall x' y', inside w h (x', y') -> y' <= y -> fill x' y' <= M) ->
          95 * M / 100 <= fill x y -> get_pixel_at p x y = Ok White).
Proof. exact (greyscale_ok w h fill). Qed.
Print Assumptions C27_greyscale.

(** [prepare] on any image buffer. *)
Theorem C27_prepare im : wf_image im -> im_w im < 2 ^ 31 -> im_w im * im_h im <= 2 ^ 64 - 1 -> gray im ->
  exists p, prepare im = Ok p /\ p_w p = im_w im /\ p_h p = im_h im /\ fresh (p_buf p) p
    /\ (forall x y, in_image im (x, y) -> get_pixel_at p x y = Ok White \/ get_pixel_at p x y = Ok Black)
    /\ (forall x y M, in_image im (x, y) -> bounded_upto im y M -> 95 * M / 100 <= pix im (x, y) -> get_pixel_at p x y = Ok White).
Proof. exact (prepare_ok im). Qed.
Print Assumptions C27_prepare.

Example C27_example : exists p, prepare_from_bitmap 5 3 (drawing small_rows) = Ok p /\
  get_pixel_at p 2 1 = Ok Black /\ get_pixel_at p 1 1 = Ok White /\ get_pixel_at p 4 1 = Ok Black.
Proof. eexists. split; [vm_compute; reflexivity|]. vm_compute. auto. Qed.

(** Luminances of a picture of 16 columns and 3 rows: light, with a dark bar in the last row. *)
Definition grey_rows : list (list Z) :=
  [repeat 200 16; repeat 200 16; repeat 200 5 ++ repeat 30 6 ++ repeat 200 5].

Example grey_rows_ok : forall x y, inside 16 3 (x, y) -> 0 <= picture grey_rows x y <= 255.
Proof.
  intros x y [Hx Hy]. cbn in Hx, Hy.
  assert (H : forallb (fun y => forallb (fun x => (0 <=? picture grey_rows x y) && (picture grey_rows x y <=? 255)) (zrange 0 16)) (zrange 0 3) = true) by (vm_compute; reflexivity).
  rewrite forallb_forall in H. specialize (H y ltac:(apply in_zrange; lia)).
  rewrite forallb_forall in H. specialize (H x ltac:(apply in_zrange; lia)). lia.
Qed.

Example C27_grey_example : exists p, prepare_from_greyscale 16 3 (picture grey_rows) = Ok p /\
  map (fun x => get_pixel_at p x 2) (zrange 0 16) =
  repeat (Ok White) 5 ++ repeat (Ok Black) 6 ++ repeat (Ok White) 5.
Proof. eexists. split; [vm_compute; reflexivity|]. vm_compute. reflexivity. Qed.

(** * C28 *)

(** Luminance 241 and above is never black. *)
Theorem C28_bright w h fill : 0 <= w < 2 ^ 31 -> 0 <= h -> w * h <= 2 ^ 64 - 1 ->
  (forall x y, inside w h (x, y) -> 0 <= fill x y <= 255) ->
  exists p, prepare_from_greyscale w h fill = Ok p /\
    forall x y, inside w h (x, y) -> 241 <= fill x y -> get_pixel_at p x y = Ok White.
Proof. exact (greyscale_bright_sharp w h fill). Qed.
Print Assumptions C28_bright.

(** Nothing is black in a picture of one luminance. *)
Theorem C28_uniform w h fill : 0 <= w < 2 ^ 31 -> 0 <= h -> w * h <= 2 ^ 64 - 1 ->
  (forall x y, inside w h (x, y) -> 0 <= fill x y <= 255) ->
  exists p, prepare_from_greyscale w h fill = Ok p /\
    (forall x y, inside w h (x, y) -> 242 <= fill x y -> get_pixel_at p x y = Ok White) /\
    ((forall x y x' y', inside w h (x, y) -> inside w h (x', y') -> fill x y = fill x' y') ->
       forall x y, inside w h (x, y) -> get_pixel_at p x y = Ok White).
Proof. exact (greyscale_bright w h fill). Qed.
Print Assumptions C28_uniform.

(** The colours of the first rows depend on those rows only. *)
Theorem C28_causal w h1 h2 f1 f2 Y p1 p2 : 0 <= w < 2 ^ 31 -> 0 <= Y <= h1 -> Y <= h2 ->
  (forall x y, inside w h1 (x, y) -> 0 <= f1 x y <= 255) -> (forall x y, inside w h2 (x, y) -> 0 <= f2 x y <= 255) ->
  (forall x y, inside w Y (x, y) -> f1 x y = f2 x y) ->
  prepare_from_greyscale w h1 f1 = Ok p1 -> prepare_from_greyscale w h2 f2 = Ok p2 ->
  forall x y, inside w Y (x, y) -> get_pixel_at p1 x y = get_pixel_at p2 x y.
Proof. exact (greyscale_causal w h1 h2 f1 f2 Y p1 p2). Qed.
Print Assumptions C28_causal.

(** Luminance 240 can be black: the bound is sharp. *)
Example C28_sharp : exists p, prepare_from_greyscale 640 4 (fun x y => if (x =? 320) && (y =? 3) then 240 else 255) = Ok p /\
  get_pixel_at p 320 3 = Ok Black /\ get_pixel_at p 321 3 = Ok White.
Proof. eexists. split; [vm_compute; reflexivity|]. vm_compute. auto. Qed.

(** * C45 *)

(** Thresholding in full: a pixel is black iff it is darker than 95% of the mean of the two running
    means along the snakes through the rows (one starting on the left, one on the right). *)
Theorem C45_threshold w h fill : 0 <= w < 2 ^ 31 -> 0 <= h -> w * h <= 2 ^ 64 - 1 ->
  (forall x y, inside w h (x, y) -> 0 <= fill x y <= 255) ->
  exists p, prepare_from_greyscale w h fill = Ok p /\ p_w p = w /\ p_h p = h /\ fresh (p_buf p) p
    /\ forall x y, inside w h (x, y) ->
         get_pixel_at p x y = Ok (if is_dark w (fun q => fill (fst q) (snd q)) (x, y) then Black else White).
Proof. exact (greyscale_exact w h fill). Qed.
Print Assumptions C45_threshold.

Theorem C45_threshold_buffer im : wf_image im -> gray im -> im_w im < 2 ^ 31 ->
  exists im', threshold im = Ok im' /\ wf_image im' /\ same_size im im' /\
    forall q, in_image im q -> pix im' q = if is_dark (im_w im) (pix im) q then 1 else 0.
Proof. exact (threshold_exact im). Qed.
Print Assumptions C45_threshold_buffer.

Example C45_example : map (fun x => is_dark 16 (fun q => picture grey_rows (fst q) (snd q)) (x, 2)) (zrange 0 16) =
  repeat false 5 ++ repeat true 6 ++ repeat false 5.
Proof. vm_compute. reflexivity. Qed.

(** * C48 *)

(** In a picture of fewer than 16 columns nothing is ever black, whatever it shows. *)
Theorem C48_narrow w h fill : 0 <= w < 16 -> 0 <= h -> w * h <= 2 ^ 64 - 1 ->
  (forall x y, inside w h (x, y) -> 0 <= fill x y <= 255) ->
  exists p, prepare_from_greyscale w h fill = Ok p /\ forall x y, inside w h (x, y) -> get_pixel_at p x y = Ok White.
Proof. exact (greyscale_narrow w h fill). Qed.
Print Assumptions C48_narrow.

(** A black square of 5 by 5 on white, in 15 columns: all white.  In 16 columns it is seen. *)
Definition square (x y : Z) : Z := if (5 <=? x) && (x <=? 9) && (5 <=? y) && (y <=? 9) then 0 else 255.

Example C48_example :
  (exists p, prepare_from_greyscale 15 15 square = Ok p /\ get_pixel_at p 7 7 = Ok White) /\
  (exists p, prepare_from_greyscale 16 15 square = Ok p /\ get_pixel_at p 7 7 = Ok Black).
Proof. split; eexists; (split; [vm_compute; reflexivity|]); vm_compute; reflexivity. Qed.

(** * C29 *)

(** Repainting recolours exactly the 4-connected component of equal colour, and hands the update function
    rows that partition it. *)
Theorem C29_flood p x y c tb F (update : row -> F -> out F) f :
  wf_image (p_buf p) -> in_image (p_buf p) (x, y) -> color_byte c = Ok tb ->
  pix (p_buf p) (x, y) <> 0 -> pix (p_buf p) (x, y) <> tb ->
  let C := component (p_w p) (p_h p) (pix (p_buf p)) (x, y) in
  exists im' rows, wf_image im' /\ im_w im' = p_w p /\ im_h im' = p_h p /\
    (forall q, in_image (p_buf p) q -> (C q -> pix im' q = tb) /\ (~ C q -> pix im' q = pix (p_buf p) q)) /\
    NoDup (rows_cells rows) /\ (forall q, In q (rows_cells rows) <-> C q) /\
    Forall (fun r => r_left r <= r_right r) rows /\
    repaint_and_apply p x y c update f = (let* f' := for_each rows update f in Ok (MkPrepared im' (p_cache p), f')).
Proof. exact (repaint_exact p x y c tb F update f). Qed.
Print Assumptions C29_flood.

(** The area counter counts the pixels of the component. *)
Theorem C29_area p x y c tb : wf_image (p_buf p) -> p_w p * p_h p <= 2 ^ 64 - 1 ->
  in_image (p_buf p) (x, y) -> color_byte c = Ok tb ->
  pix (p_buf p) (x, y) <> 0 -> pix (p_buf p) (x, y) <> tb ->
  exists p' n, repaint_and_apply p x y c count_row 0 = Ok (p', n)
    /\ area (component (p_w p) (p_h p) (pix (p_buf p)) (x, y)) n.
Proof. exact (repaint_count p x y c tb). Qed.
Print Assumptions C29_area.

(** White pixels, and pixels that have the target colour already, are refused. *)
Theorem C29_refused p x y c tb F (update : row -> F -> out F) f :
  wf_image (p_buf p) -> in_image (p_buf p) (x, y) -> color_byte c = Ok tb ->
  pix (p_buf p) (x, y) = 0 \/ pix (p_buf p) (x, y) = tb -> repaint_and_apply p x y c update f = Panic.
Proof. exact (repaint_panics p x y c tb F update f). Qed.
Print Assumptions C29_refused.

(** The ring of the drawing has eight pixels; the dot beside it keeps its colour. *)
Example C29_example : exists p, repaint_and_apply small_image 0 0 CAlignment count_row 0 = Ok (p, 8) /\
  get_pixel_at p 2 2 = Ok CAlignment /\ get_pixel_at p 4 1 = Ok Black /\ get_pixel_at p 1 1 = Ok White.
Proof. eexists. split; [vm_compute; reflexivity|]. vm_compute. auto. Qed.

(** * C30 *)

(** [reached I0 p]: [p] comes from the freshly prepared picture [I0] by any sequence of region queries,
    repaints, capstone searches, groupings, whole detections and clones. *)
Theorem C30_white_stays I0 p : reached64 I0 p ->
  p_w p = im_w I0 /\ p_h p = im_h I0 /\
  (forall x y, in_image I0 (x, y) -> exists c, get_pixel_at p x y = Ok c /\ (c = White <-> pix I0 (x, y) = 0)) /\
  (forall x y x' y', blob (im_w I0) (im_h I0) (pix I0) (x, y) (x', y') -> get_pixel_at p x y = get_pixel_at p x' y').
Proof. exact (history_white I0 p). Qed.
Print Assumptions C30_white_stays.

(** Query the ring, repaint the dot, clone. *)
Example C30_example : exists p, reached64 (p_buf small_image) p /\
  get_pixel_at p 0 0 = Ok (Discarded 0) /\ get_pixel_at p 4 1 = Ok CAlignment /\ get_pixel_at p 3 0 = Ok White.
Proof.
  assert (F : fresh (p_buf small_image) small_image).
  { destruct (C27_bitmap 5 3 (drawing small_rows)) as (p & E & _ & _ & F & _); [lia|lia|vm_compute; discriminate|].
    rewrite small_prepared in E. injection E as <-. exact F. }
  eexists. split.
  - eapply reached_clone. eapply (reached_repaint _ _ 4 1 CAlignment Z count_row 0).
    + eapply (reached_query _ _ 0 0); [apply reached_fresh; exact F|split; cbn; lia|vm_compute; reflexivity].
    + split; cbn; lia.
    + unfold reserved. auto.
    + vm_compute. reflexivity.
  - vm_compute. auto.
Qed.

(** * C31 *)

(** In any reached state a region query of a non-white pixel succeeds; unless its component is claimed it
    returns the component's size and a colour that exactly the component's pixels have afterwards. *)
Theorem C31_region I0 p x y : reached64 I0 p -> in_image I0 (x, y) -> pix I0 (x, y) <> 0 ->
  exists reg p', get_region p x y = Ok (reg, p') /\ reached64 I0 p' /\
    match get_pixel_at p x y with
    | Ok CCapStone => reg = RCapStone | Ok CAlignment => reg = RAlignment | Ok CTmp1 => reg = RTmp1
    | _ => exists c sx sy n, reg = Unclaimed c sx sy n /\
        blob (im_w I0) (im_h I0) (pix I0) (x, y) (sx, sy) /\
        area (blob (im_w I0) (im_h I0) (pix I0) (x, y)) n /\
        (forall x' y', in_image I0 (x', y') ->
           (get_pixel_at p' x' y' = Ok c <-> blob (im_w I0) (im_h I0) (pix I0) (x, y) (x', y')))
    end.
Proof. exact (history_region I0 p x y). Qed.
Print Assumptions C31_region.

Theorem C31_white I0 p x y : reached64 I0 p -> in_image I0 (x, y) -> pix I0 (x, y) = 0 -> get_region p x y = Panic.
Proof. exact (history_region_white I0 p x y). Qed.
Print Assumptions C31_white.

(** The ring, then the dot, then the ring again through another pixel. *)
Example C31_example :
  (let* r1 := get_region small_image 0 0 in
   let* r2 := get_region (snd r1) 4 1 in
   let* r3 := get_region (snd r2) 2 2 in
   Ok (fst r1, fst r2, fst r3))
  = Ok (Unclaimed (Discarded 0) 0 0 8, Unclaimed (Discarded 1) 4 1 1, Unclaimed (Discarded 0) 0 0 8).
Proof. vm_compute. reflexivity. Qed.

(** More components than the cache holds: 252 dots in a row; the first one is evicted, asking for it again works. *)
Definition dots : prepared := MkPrepared (image_of 511 1 (fun x _ => if Z.even x then 1 else 0)) [].

Definition query_all (xs : list Z) (p : prepared) : out prepared :=
  for_each xs (fun x p => let* a := get_region p x 0 in Ok (snd a)) p.

Example C31_eviction :
  (let* p := query_all (map (fun k => 2 * k) (zrange 0 252)) dots in
   let* c0 := get_pixel_at p 0 0 in
   let* c2 := get_pixel_at p 2 0 in
   let* r0 := get_region p 0 0 in
   let* r2 := get_region (snd r0) 2 0 in
   Ok (c0, c2, fst r0, fst r2)) = Ok (Black, Discarded 1, Unclaimed (Discarded 1) 0 0 1, Unclaimed (Discarded 2) 2 0 1).
Proof. vm_compute. reflexivity. Qed.

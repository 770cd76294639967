(** Properties of the finder pattern search: C32-C37, C46, C47.
    Every theorem is followed by its assumptions and by a case meeting its hypotheses. *)
From Verif Require Import Base Lib ModelImage ModelGeometry ModelDetect ModelIdentify SpecImage SpecScan SpecThreshold SpecFinder
  FloodProofs RegionProofs PrepareProofs ThresholdProofs ScanProofs DetectProofs CornerProofs SearchProofs HistoryProofs CenterProofs
  FinderProofs ImageFacts FinderFacts PropImage.
From Coq Require Import SpecFloat.
Open Scope Z_scope.
Set Bullet Behavior "Strict Subproofs".

(** * Pictures used in the examples *)

(** A finder pattern: a ring of 7 by 7 around a stone of 3 by 3. *)
Definition finder_rows : list (list Z) :=
  [[0; 0; 0; 0; 0; 0; 0; 0; 0];
   [0; 1; 1; 1; 1; 1; 1; 1; 0];
   [0; 1; 0; 0; 0; 0; 0; 1; 0];
   [0; 1; 0; 1; 1; 1; 0; 1; 0];
   [0; 1; 0; 1; 1; 1; 0; 1; 0];
   [0; 1; 0; 1; 1; 1; 0; 1; 0];
   [0; 1; 0; 0; 0; 0; 0; 1; 0];
   [0; 1; 1; 1; 1; 1; 1; 1; 0];
   [0; 0; 0; 0; 0; 0; 0; 0; 0]].

(** The middle row of it. *)
Definition finder_line : list color := [White; Black; White; Black; Black; Black; White; Black; White].

(** * C32 *)

(** Feeding colours to the scanner: after a white pixel, and only then, a pattern is reported iff
    the last five runs ended just before it, the fifth one not white, with lengths about 1:1:3:1:1;
    the reported columns are the starts of the first, third and fifth run. *)
Theorem C32_scanner c l : exists os s, feed (scan_new c) l = Ok (os, s) /\ length os = length l /\
  forall i p, (i < length l)%nat ->
    (nth i os None = Some p <->
     nth i l White = White /\
     exists pre k1 n1 k2 n2 k3 n3 k4 n4 k5 n5,
       runs color_eqb (c :: firstn i l) = pre ++ [(k1, n1); (k2, n2); (k3, n3); (k4, n4); (k5, n5)] /\ k5 <> White
       /\ finder_ratio n1 n2 n3 n4 n5 /\ p = MkLine (width pre) (width pre + n1 + n2) (width pre + n1 + n2 + n3 + n4)).
Proof.
  destruct (feed_ok l [c] (scan_new c) (scanned_new c)) as (os & s & E & _ & L & H).
  exists os, s. split; [exact E|]. split; [exact L|exact H].
Qed.
Print Assumptions C32_scanner.

(** In the search: along row [y] of any reached state the scanner, fed white after the row, reports exactly
    the rows of the picture that look like a finder pattern. *)
Theorem C32_row I0 p y : reached64 I0 p -> 1 <= im_w I0 -> 0 <= y < im_h I0 ->
  exists cs, length cs = Z.to_nat (im_w I0) /\ (forall x, 0 <= x < im_w I0 -> get_pixel_at p x y = Ok (nth (Z.to_nat x) cs White)) /\
  exists os s, feed (scan_new (nth 0 cs White)) (tl cs ++ [White]) = Ok (os, s) /\ length os = Z.to_nat (im_w I0) /\
    forall x l, 1 <= x <= im_w I0 ->
      (nth (Z.to_nat (x - 1)) os None = Some l <->
       finder_row (im_w I0) (pix I0) y (l_left l) (l_stone l) (l_right l) x).
Proof. exact (row_reports_spec I0 p y). Qed.
Print Assumptions C32_row.

Example C32_example : exists s,
  feed (scan_new White) (tl finder_line ++ [White]) =
  Ok ([None; None; None; None; None; None; None; Some (MkLine 1 3 7); None], s).
Proof. eexists. vm_compute. reflexivity. Qed.

(** * C33 *)

(** The three pixels of a reported pattern are inside the picture and not white, and a region query on
    them cannot panic. *)
Theorem C33_candidates I0 y left stone right stop : 0 <= y < im_h I0 ->
  finder_row (im_w I0) (pix I0) y left stone right stop ->
  0 <= left < stone /\ stone < right /\ right < stop /\ stop <= im_w I0 /\
  forall x p, x = left \/ x = stone \/ x = right -> reached64 I0 p ->
    in_image I0 (x, y) /\ pix I0 (x, y) <> 0 /\ exists r p', get_region p x y = Ok (r, p').
Proof. exact (row_regions I0 y left stone right stop). Qed.
Print Assumptions C33_candidates.

Example C33_example : finder_row 9 (fun q => picture finder_rows (fst q) (snd q)) 4 1 3 7 8.
Proof.
  exists 1, 1, 3, 1, 1. do 10 (split; [lia|]).
  assert (D : forall a n, forallb (fun x => negb (picture finder_rows x 4 =? 0)) (zrange a (a + n)) = true ->
                dark_run (fun q => picture finder_rows (fst q) (snd q)) 4 a n).
  { intros a n H x Hx. rewrite forallb_forall in H. specialize (H x). rewrite in_zrange in H. specialize (H Hx). cbn [fst snd]. lia. }
  assert (W : forall a n, forallb (fun x => picture finder_rows x 4 =? 0) (zrange a (a + n)) = true ->
                white_run (fun q => picture finder_rows (fst q) (snd q)) 4 a n).
  { intros a n H x Hx. rewrite forallb_forall in H. specialize (H x). rewrite in_zrange in H. specialize (H Hx). cbn [fst snd]. lia. }
  split; [apply D; reflexivity|]. split; [apply W; reflexivity|]. split; [apply D; reflexivity|]. split; [apply W; reflexivity|].
  split; [apply D; reflexivity|]. split; [right; reflexivity|]. split; [right; reflexivity|].
  unfold finder_ratio. vm_compute. repeat split; discriminate.
Qed.

(** * C34 and C36 *)

(** Any search, from any reached state of a picture of up to 32768 by 32768 pixels, succeeds; every
    returned pattern has a ring of its own which was unclaimed before, what was claimed stays so,
    and a second search finds nothing. *)
Theorem C34_claimed_once I0 p0 : reached64 I0 p0 -> 1 <= im_w I0 <= 32768 -> im_h I0 <= 32768 ->
  exists caps p', capstones_from_image p0 = Ok (caps, p') /\ reached64 I0 p' /\ claims_grow I0 p0 p'
     /\ (exists rings, Forall2 (ring_of I0 p0 p') rings caps /\ ForallOrdPairs (fun a b => ~ iblob I0 a b) rings)
     /\ (forall y x l, 0 <= y < im_h I0 -> 1 <= x <= im_w I0 -> candidate I0 y x l -> ~ accepted I0 p' y l)
     /\ (forall q, in_image I0 q -> claimed p' q -> ~ claimed p0 q -> claim_made I0 p0 p' caps q)
     /\ exists p'', capstones_from_image (T := spec_float) p' = Ok ([], p'').
Proof. exact (search64 I0 p0). Qed.
Print Assumptions C34_claimed_once.

Theorem C36_search_returns I0 p0 : reached64 I0 p0 -> 1 <= im_w I0 <= 32768 -> im_h I0 <= 32768 ->
  exists caps p', capstones_from_image (T := spec_float) p0 = Ok (caps, p').
Proof. exact (search_returns I0 p0). Qed.
Print Assumptions C36_search_returns.

(** The search of the picture of one pattern, and a second search. *)
Example C34_example :
  (let* p := prepare_from_bitmap 9 9 (drawing finder_rows) in
   let* r := capstones_from_image (T := spec_float) p in
   let* r' := capstones_from_image (T := spec_float) (snd r) in
   Ok (map (fun c => (cap_corners c, cap_center c)) (fst r), length (fst r')))
  = Ok ([(Corners (MkPoint 1 7) (MkPoint 1 1) (MkPoint 7 1) (MkPoint 7 7), MkPoint 4 4)], 0%nat).
Proof. vm_compute. reflexivity. Qed.

(** * C35 *)

(** The corner finders, on rows covering a region once or more: the first corner is a point of the region
    farthest from the start; the four corners are points of the region extreme in the four directions. *)
Theorem C35_corners (S : pixel -> Prop) start rows1 rows2 :
  (forall q, S q -> 0 <= fst q <= 32767 /\ 0 <= snd q <= 32767) -> S start ->
  (forall q, In q (rows_cells rows1) <-> S q) -> (forall q, In q (rows_cells rows2) <-> S q) ->
  Forall (fun r => r_left r <= r_right r) rows1 -> Forall (fun r => r_left r <= r_right r) rows2 ->
  exists f a0 a k,
    for_each rows1 first_update (first_new (pt_of start)) = Ok f
    /\ all_new (pt_of start) (fc_best f) = Ok a0
    /\ for_each rows2 all_update a0 = Ok a /\ all_best a = Ok k
    /\ region_corners S start (px_of (k0 k)) (px_of (k1 k)) (px_of (k2 k)) (px_of (k3 k)).
Proof. exact (corners_spec S start rows1 rows2). Qed.
Print Assumptions C35_corners.

(** A lozenge. *)
Example C35_example :
  let rows := [MkRow 3 3 0; MkRow 2 4 1; MkRow 1 5 2; MkRow 2 4 3; MkRow 3 3 4] in
  (let* f := for_each rows first_update (first_new (MkPoint 5 2)) in
   let* a0 := all_new (MkPoint 5 2) (fc_best f) in
   let* a := for_each rows all_update a0 in
   all_best a) = Ok (Corners (MkPoint 1 2) (MkPoint 3 0) (MkPoint 5 2) (MkPoint 3 4)).
Proof. vm_compute. reflexivity. Qed.

(** * C37 *)

(** A picture without columns but with rows makes the search panic; one without rows does not. *)
Theorem C37_no_columns_refuted {Srt : Sorter spec_float} p : wf_image (p_buf p) -> p_w p = 0 -> 0 < p_h p ->
  capstones_from_image (T := spec_float) p = Panic /\ detect_grids (T := spec_float) p = Panic.
Proof. exact (no_columns p). Qed.
Print Assumptions C37_no_columns_refuted.

Theorem C37_no_rows p : p_h p = 0 -> capstones_from_image (T := spec_float) p = Ok ([], p).
Proof. exact (search_no_rows p). Qed.
Print Assumptions C37_no_rows.

Example C37_example {Srt : Sorter spec_float} : (let* p := prepare_from_bitmap 0 3 (fun _ _ => true) in detect_grids (T := spec_float) p) = Panic.
Proof. vm_compute. reflexivity. Qed.

(** * C46 *)

(** What the first search of a picture finds.  Every returned pattern is [found]: a row crosses its ring and
    its stone with lengths 1:1:3:1:1, the areas are right, its corners are corners of the ring and its centre
    the intersection of the diagonals; different patterns have different rings.  Nothing is missed: for every
    [finder_at] of the picture the ring or the stone belongs to the ring of a returned pattern or of one whose corners
    are on a line ([flat]). *)
Theorem C46_bitmap w h fill : 1 <= w <= 32768 -> 0 <= h <= 32768 ->
  exists p caps p', prepare_from_bitmap w h fill = Ok p /\ capstones_from_image (T := spec_float) p = Ok (caps, p')
    /\ searched w h (fun q => if fill (fst q) (snd q) then 1 else 0) caps.
Proof. exact (search_bitmap w h fill). Qed.
Print Assumptions C46_bitmap.

Theorem C46_greyscale w h fill : 1 <= w <= 32768 -> 0 <= h <= 32768 ->
  (forall x y, inside w h (x, y) -> 0 <= fill x y <= 255) ->
  exists p caps p', prepare_from_greyscale w h fill = Ok p /\ capstones_from_image (T := spec_float) p = Ok (caps, p')
    /\ searched w h (fun q => if is_dark w (fun r => fill (fst r) (snd r)) q then 1 else 0) caps.
Proof. exact (search_greyscale w h fill). Qed.
Print Assumptions C46_greyscale.

(** The picture of one pattern: [found] and [finder_at] hold of it, and the corners are as in C34_example. *)
Example C46_example : let col := fun q => if drawing finder_rows (fst q) (snd q) then 1 else 0 in
  exists q left stone, finder_at 9 9 col (snd q) left stone (fst q) /\ found 9 9 col q (1, 7) (1, 1) (7, 1) (7, 7) (4, 4).
Proof.
  intros col. destruct (C46_bitmap 9 9 (drawing finder_rows)) as (p & caps & p' & E1 & E2 & (rings & F & _) & _); [lia|lia|].
  pose proof C34_example as X. unfold out in *. rewrite E1 in X. cbn [bind] in X. rewrite E2 in X. cbn [bind fst snd] in X.
  destruct (capstones_from_image p') as [r| | |]; try discriminate. cbn [bind] in X. injection X as X _.
  destruct caps as [|c [|c2 caps]]; try discriminate. injection X as X1 X2.
  inversion F as [|q c' rings' caps' Hc Hr]; subst. destruct Hc as ((left & stone & A) & B).
  exists q, left, stone. split; [exact A|]. rewrite X1, X2 in B. split; [exists left, stone; exact A|exact B].
Qed.

(** * C47 *)

(** The centre of a region's corners, with binary64 arithmetic: the intersection of the diagonals, off by at most
    half a pixel and a hundred-millionth in each coordinate. *)
Theorem C47_center (S : pixel -> Prop) start k c :
  (forall q, S q -> 0 <= fst q <= 32767 /\ 0 <= snd q <= 32767) -> corners_of S start k ->
  persp_create (T := spec_float) k (n_of 7) (n_of 7) = Some c ->
  exists m, persp_map c (n_ratio 7 2) (n_ratio 7 2) = Ok m /\
    diagonals_meet (px_of (k0 k)) (px_of (k1 k)) (px_of (k2 k)) (px_of (k3 k)) (px_of m).
Proof. exact (center_spec S start k c). Qed.
Print Assumptions C47_center.

(** A transform exists iff the last three corners are not on a line. *)
Theorem C47_exists (S : pixel -> Prop) start k :
  (forall q, S q -> 0 <= fst q <= 32767 /\ 0 <= snd q <= 32767) -> corners_of S start k ->
  (persp_create (T := spec_float) k (n_of 7) (n_of 7) = None <-> triangle2 (px_of (k1 k)) (px_of (k2 k)) (px_of (k3 k)) = 0).
Proof. exact (create_spec S start k). Qed.
Print Assumptions C47_exists.

Example C47_example :
  let k := Corners (MkPoint 10 83) (MkPoint 12 9) (MkPoint 91 15) (MkPoint 80 70) in
  match persp_create (T := spec_float) k (n_of 7) (n_of 7) with
  | Some c => persp_map c (n_ratio 7 2) (n_ratio 7 2) = Ok (MkPoint 54 46)
  | None => False
  end.
Proof. vm_compute. reflexivity. Qed.

(** Properties of grouping, locating and the alignment search: C41-C43, C50-C52.
    Every theorem is followed by its assumptions and by a case meeting its hypotheses. *)
From Coq Require Import Sorted SpecFloat.
From Verif Require Import Base Lib VersionDb ModelDecode ModelImage ModelGeometry ModelDetect ModelIdentify SpecImage SpecIdentify
  FloodProofs RegionProofs HistoryProofs PrepareProofs IdentifyProofs NeighborProofs SpiralProofs SampleProofs SpecLocate LocateProofs ImageFacts PropImage PropDetect.
Open Scope Z_scope.
Set Bullet Behavior "Strict Subproofs".

(** * Pictures used in the examples *)

(** A finder pattern of 7 by 7 pixels at [(ox, oy)]. *)
Definition finder_at (ox oy x y : Z) : bool :=
  let u := x - ox in let v := y - oy in
  (0 <=? u) && (u <=? 6) && (0 <=? v) && (v <=? 6) && (picture finder_rows (u + 1) (v + 1) =? 1).

(** Three finder patterns in a corner, nothing else. *)
Definition corner_picture (x y : Z) : bool := finder_at 1 1 x y || finder_at 10 1 x y || finder_at 1 10 x y.

(** Five finder patterns in a cross. *)
Definition cross_picture (x y : Z) : bool :=
  finder_at 10 1 x y || finder_at 1 10 x y || finder_at 10 10 x y || finder_at 19 10 x y || finder_at 10 19 x y.

(** * C41 *)

(** Every grid that [detect_grids] returns has a side of 17 + 4v modules, v at most 40. *)
Theorem C41_sizes {Srt : Sorter spec_float} p grids p' : detect_grids (T := spec_float) p = Ok (grids, p') ->
  Forall (fun g => exists v, 0 <= v <= 40 /\ loc_size (lg_loc g) = side_of_version v) grids.
Proof. exact (detect_sizes p grids p'). Qed.
Print Assumptions C41_sizes.

(** Version 0 does occur: three finder patterns with nothing between them. *)
Example C41_version_0 :
  (let* p := prepare_from_bitmap 18 18 corner_picture in
   let* t := capstones_from_image (T := spec_float) p in
   let* a := aget (fst t) 1 in let* i := aget (fst t) 0 in let* b := aget (fst t) 2 in
   let* g := orient_group (MkGroup a i b) in
   measure_timing_pattern (snd t) (fst g)) = Ok 17.
Proof. vm_compute. reflexivity. Qed.

(** * C42 *)

(** The groups formed from the finder patterns of an image: three different patterns each, plausible
    neighbours of the corner pattern, that locate a grid; a later group shares no pattern with an earlier
    one, except that both may have the same corner; and no plausible triple of unused patterns that locates
    a grid is left. *)
Theorem C42_groups {Srt : Sorter spec_float} q caps p l : capstones_from_image (T := spec_float) q = Ok (caps, p) ->
  find_groupings_indexed p caps = Ok l ->
  Forall (fun e => NoDup (members (fst e)) /\ formed p caps e) l
  /\ each_later (fun e e' => shares_only_corner (fst e) (fst e')) l
  /\ forall idx, (idx < length caps)%nat -> exhausted p caps idx l.
Proof.
  intros Es Eg. apply search_proper in Es. destruct (groupings_inv p caps l Eg) as (F & O & X).
  split; [|split; assumption]. rewrite Forall_forall in *. intros e I. split; [|apply F; assumption].
  specialize (F e I). destruct e as [[[a i] b] g]. destruct F as (ca & ci & cb & _ & _ & _ & _ & (s & V) & _).
  pose proof (sides_differ caps i a b s (proj2 (Forall_forall _ _) Es) V) as D.
  destruct V as (da & db & (Na & _) & (Nb & _) & _). cbn [fst members].
  constructor; [intros [H|[H|[]]]; congruence|]. constructor; [intros [H|[]]; congruence|]. constructor; [intros []|constructor].
Qed.
Print Assumptions C42_groups.

(** * C43 *)

(** The alignment search, in any reached state: it follows the square spiral from the seed, legs as long as
    their squared length stays below a hundred times the size estimate, the area of the module at the seed as the
    two finder patterns see it; the result is the first place in an
    unclaimed component of about the estimated size, unless the spiral meets a claimed pixel before: then
    there is no result. *)
Theorem C43_spiral I0 p q (cap0 cap2 : capstone spec_float) o p' : reached64 I0 p -> im_w I0 <= 2 ^ 62 -> im_h I0 <= 2 ^ 62 ->
  Z.abs (fst q) <= 2 ^ 30 -> Z.abs (snd q) <= 2 ^ 30 ->
  find_alignment_pattern p (pt q) cap0 cap2 = Ok (o, p') ->
  exists a c legs r, beside_seed cap0 cap2 (pt q) a c /\ legs_of (spanned q a c) legs /\ o = option_map pt r
    /\ first_hit (candidate I0 p (spanned q a c)) (obstacle I0 p) (spiral q legs) r
    /\ forall z, in_image I0 z -> (claimed p z <-> claimed p' z).
Proof. intros R H1 H2 H3 H4 E. exact (find_alignment_claims I0 p q cap0 cap2 o p' (reached_inv I0 p R) H1 H2 H3 H4 E). Qed.
Print Assumptions C43_spiral.

(** A dot and another one up and to the right of it. *)
Definition two_dots (x y : Z) : bool := ((x =? 2) && (y =? 2)) || ((x =? 3) && (y =? 1)).

(** A finder pattern whose transform is the identity. *)
Definition unit_cap : capstone spec_float :=
  MkCap (Corners (MkPoint 0 0) (MkPoint 7 0) (MkPoint 7 7) (MkPoint 0 7)) (MkPoint 4 4)
    (Persp (n_of 1) (n_of 0) (n_of 0) (n_of 0) (n_of 1) (n_of 0) (n_of 0) (n_of 0)).

(** And one whose modules are two pixels wide. *)
Definition double_cap : capstone spec_float :=
  MkCap (Corners (MkPoint 0 0) (MkPoint 14 0) (MkPoint 14 14) (MkPoint 0 14)) (MkPoint 7 7)
    (Persp (n_of 2) (n_of 0) (n_of 0) (n_of 0) (n_of 2) (n_of 0) (n_of 0) (n_of 0)).

Definition found_from (x y : Z) : out (option point) :=
  let* p := prepare_from_bitmap 6 5 two_dots in
  let* t := repaint_and_apply p 2 2 CCapStone (fun _ u => Ok u) tt in
  let* t := find_alignment_pattern (fst t) (MkPoint x y) unit_cap unit_cap in
  Ok (fst t).

(** Coming from the left the search finds the second dot; starting on the first dot, which is claimed, it
    never leaves it although the second dot is on the spiral. *)
Example C43_found : found_from 2 1 = Ok (Some (MkPoint 3 1)).
Proof. vm_compute. reflexivity. Qed.
Example C43_stuck : found_from 2 2 = Ok None.
Proof. vm_compute. reflexivity. Qed.

(** What becomes of it: the pixel of the component found that is furthest to the left of the line between the
    outer finder patterns; and the component is claimed, and nothing else. *)
Theorem C43_corner I0 p (g : group spec_float) hd q o p' : reached64 I0 p -> im_w I0 <= 32768 -> im_h I0 <= 32768 ->
  Z.abs (fst q) <= 2 ^ 30 -> Z.abs (snd q) <= 2 ^ 30 ->
  locate_alignment p g hd (pt q) = Ok (o, p') ->
  exists a c legs r, beside_seed (gr0 g) (gr2 g) (pt q) a c /\ legs_of (spanned q a c) legs
    /\ first_hit (candidate I0 p (spanned q a c)) (obstacle I0 p) (spiral q legs) r
    /\ match r with
       | None => o = None /\ forall z, in_image I0 z -> (claimed p' z <-> claimed p z)
       | Some s => exists b, o = Some (pt b) /\ iblob I0 s b
           /\ (forall z, iblob I0 s z -> rightness (px hd, py hd) b <= rightness (px hd, py hd) z)
           /\ (forall z, in_image I0 z -> (claimed p' z <-> claimed p z \/ iblob I0 s z))
           /\ (forall z, in_image I0 z -> iblob I0 s z -> get_pixel_at p' (fst z) (snd z) = Ok CAlignment)
       end.
Proof. intros R. exact (locate_exact I0 p g hd q o p' (reached_inv I0 p R)). Qed.
Print Assumptions C43_corner.

(** A square of two by two found from its right, and each of its corners as the direction turns. *)
Definition corner_towards (x y : Z) : out (option point) :=
  let* p := prepare_from_bitmap 6 5 (fun x y => (2 <=? x) && (x <=? 3) && (1 <=? y) && (y <=? 2)) in
  let* t := locate_alignment p (MkGroup double_cap double_cap double_cap) (MkPoint x y) (MkPoint 3 3) in
  Ok (fst t).
Example C43_corners :
  corner_towards 1 1 = Ok (Some (MkPoint 3 1)) /\ corner_towards 1 (-1) = Ok (Some (MkPoint 2 1))
  /\ corner_towards (-1) (-1) = Ok (Some (MkPoint 2 2)) /\ corner_towards (-1) 1 = Ok (Some (MkPoint 3 2)).
Proof. vm_compute. auto. Qed.

(** Refuted: that the search finds a candidate whenever there is one on the spiral. *)
Theorem C43_whole_spiral_refuted :
  ~ (forall I0 p est q legs, reached64 I0 p -> im_w I0 <= 2 ^ 62 -> im_h I0 <= 2 ^ 62 ->
       legs_of est legs -> (exists r, In r (spiral q legs) /\ candidate I0 p est r) ->
       exists o p', align_spiral (Z.to_nat (2 * Z.sqrt (est * 100) + 4)) est 0 1 p (pt q) = Ok (Some o, p')).
Proof.
  intros H. set (I0 := image_of 6 5 (fun x y => if two_dots x y then 1 else 0)).
  assert (W : exists p, repaint_and_apply (MkPrepared I0 []) 2 2 CCapStone (fun _ u => Ok u) tt = Ok (p, tt)
     /\ align_spiral (Z.to_nat (2 * Z.sqrt (1 * 100) + 4)) 1 0 1 p (pt (2, 2)) = Ok (None, p)
     /\ pix (p_buf p) (3, 1) = 1).
  { eexists. split; [vm_compute; reflexivity|]. split; vm_compute; reflexivity. }
  destruct W as (p & E1 & E2 & E3).
  assert (F : fresh I0 (MkPrepared I0 [])).
  { split; [reflexivity|]. split; [repeat split; vm_compute; congruence|]. split; [vm_compute; congruence|].
    intros [x y] [[X1 X2] [Y1 Y2]]. cbn [im_w im_h I0 image_of fst snd] in *.
    assert (A : forallb (fun y => forallb (fun x => (pix I0 (x, y) =? 0) || (pix I0 (x, y) =? 1)) (zrange 0 6)) (zrange 0 5) = true) by (vm_compute; reflexivity).
    rewrite forallb_forall in A. specialize (A y ltac:(apply in_zrange; lia)). rewrite forallb_forall in A.
    specialize (A x ltac:(apply in_zrange; lia)). apply orb_true_iff in A as [A|A]; apply Z.eqb_eq in A; auto. }
  assert (R : reached64 I0 p).
  { eapply reached_repaint; [apply reached_fresh; exact F| | |exact E1]; [split; cbn; lia|right; left; reflexivity]. }
  destruct (legs_exist 1) as (legs & HL & _).
  assert (L4 : (3 < legs)%nat) by (apply HL; vm_compute; reflexivity).
  destruct (H I0 p 1 (2, 2) legs R) as (o & p' & E).
  - vm_compute; congruence.
  - vm_compute; congruence.
  - assumption.
  - exists (3, 1). split.
    + unfold spiral. destruct legs as [|[|[|n]]]; [lia..|]. cbn. right. right. left. reflexivity.
    + split; [split; cbn; lia|]. split; [vm_compute; congruence|]. split; [unfold claimed; rewrite E3; lia|].
      exists 1. split; [|vm_compute; split; congruence].
      exists [(3, 1)]. split; [constructor; [intros []|constructor]|]. split; [|reflexivity].
      intros r. split.
      * intros [<-|[]]. constructor. split; [split; cbn; lia|vm_compute; congruence].
      * intros B. left. symmetry.
        assert (N : forall a b, adjacent a b -> in_image I0 b -> pix I0 b <> 0 -> a = (3, 1) -> False).
        { intros a [x y] A [[X1 X2] [Y1 Y2]] Nb ->. cbn [im_w im_h I0 image_of fst snd] in *.
          unfold adjacent in A. cbn [fst snd] in A.
          assert (Hxy : (x, y) = (2, 1) \/ (x, y) = (4, 1) \/ (x, y) = (3, 0) \/ (x, y) = (3, 2)).
          { assert (x = 2 /\ y = 1 \/ x = 4 /\ y = 1 \/ x = 3 /\ y = 0 \/ x = 3 /\ y = 2) as [[-> ->]|[[-> ->]|[[-> ->]|[-> ->]]]] by lia; auto. }
          destruct Hxy as [H1 | [H1 | [H1 | H1]]]; rewrite H1 in Nb; apply Nb; vm_compute; reflexivity. }
        revert B. unfold iblob, blob. intros B. induction B as [S|q r B IH A [I Nb]]; [reflexivity|].
        exfalso. exact (N q r A I Nb IH).
  - unfold out in *. rewrite E2 in E. discriminate.
Qed.
Print Assumptions C43_whole_spiral_refuted.

(** * C50 *)

(** Ranking the neighbours of a finder pattern never panics, whatever the transforms (the comparison of two
    scores never meets a NaN, and is a total order, as the sort demands); the result lists exactly the plausible
    pairs, best score first. *)
Theorem C50_ranking {Srt : Sorter spec_float} (caps : list (capstone spec_float)) idx : (idx < length caps)%nat ->
  exists ranked, find_and_rank_possible_neighbors caps idx = Ok (map snd ranked) /\ Sorted in_order ranked
  /\ (forall s a b, In (s, (a, b)) ranked <-> viable caps idx a b s).
Proof. exact (rank_f64 caps idx). Qed.
Print Assumptions C50_ranking.

(** There is such a sort: insertion. *)
Example C50_sort : inhabited (Sorter spec_float).
Proof. exact (inhabits Insert64). Qed.

(** With it: in the cross the middle pattern has four plausible pairs, the one above it two plausible ones in other
    columns; in the corner there is one pair and the other patterns have none. *)
Example C50_example :
  (let* p := prepare_from_bitmap 27 27 cross_picture in
   let* t := capstones_from_image (T := spec_float) p in
   find_and_rank_possible_neighbors (Srt := Insert64) (fst t) 2) = Ok [(1, 0); (1, 4); (3, 0); (3, 4)]%nat /\
  (let* p := prepare_from_bitmap 18 18 corner_picture in
   let* t := capstones_from_image (T := spec_float) p in
   let* a := find_and_rank_possible_neighbors (Srt := Insert64) (fst t) 0 in
   let* b := find_and_rank_possible_neighbors (Srt := Insert64) (fst t) 1 in
   let* c := find_and_rank_possible_neighbors (Srt := Insert64) (fst t) 2 in Ok (a, b, c)) = Ok ([(1, 2)], [], [])%nat.
Proof. split; vm_compute; reflexivity. Qed.

(** * C51 *)

(** A ring open at the bottom with a foot on its left side, around a stone. *)
Definition foot_rows : list (list Z) :=
  [[0; 1; 1; 1; 1; 1; 1; 1; 1; 1; 1; 1; 1; 1; 1];
   [0; 1; 1; 0; 0; 0; 0; 0; 0; 0; 0; 0; 0; 1; 1];
   [1; 1; 1; 0; 0; 1; 1; 1; 1; 1; 1; 0; 0; 1; 1];
   [0; 0; 0; 0; 0; 1; 1; 1; 1; 1; 1; 0; 0; 0; 0]].

(** Two finder patterns with modules of 2 pixels and that ring. *)
Definition foot_picture (x y : Z) : bool :=
  let square (ox oy : Z) :=
    (0 <=? x - ox) && (x - ox <=? 13) && (0 <=? y - oy) && (y - oy <=? 13)
    && (picture finder_rows ((x - ox) / 2 + 1) ((y - oy) / 2 + 1) =? 1) in
  square 2 2 || square 2 20
  || ((20 <=? x) && (2 <=? y) && (picture foot_rows (x - 20) (y - 2) =? 1)).

(** Refuted: that [detect_grids] never panics on an image with at least one pixel.  The corners found in the
    open ring are such that the transform exists for one order of the corners and not for the one
    [rotate_capstone] chooses: its [expect] panics. *)
Theorem C51_no_panic_refuted {Srt : Sorter spec_float} :
  ~ (forall w h fill p, 1 <= w <= 100 -> 1 <= h <= 100 -> prepare_from_bitmap w h fill = Ok p ->
       detect_grids (T := spec_float) p <> Panic).
Proof.
  intros H. specialize (H 36 35 foot_picture).
  assert (W : (let* p := prepare_from_bitmap 36 35 foot_picture in detect_grids (T := spec_float) p) = Panic) by (apply forced_scan; [vm_compute; reflexivity|discriminate]).
  assert (P : match prepare_from_bitmap 36 35 foot_picture with Ok _ => true | _ => false end = true) by (vm_compute; reflexivity).
  destruct (prepare_from_bitmap 36 35 foot_picture) as [p| | |]; try discriminate P.
  exact (H p ltac:(lia) ltac:(lia) eq_refl W).
Qed.
Print Assumptions C51_no_panic_refuted.

(** * C52 *)

(** The module of a located grid that [bit] reads, in any reached state: the pixel of the picture nearest to
    the mapped centre of the module. *)
Theorem C52_bit I0 p (l : location spec_float) y x b : reached64 I0 p -> 1 <= im_w I0 <= 2 ^ 31 -> 1 <= im_h I0 <= 2 ^ 31 ->
  (g_bit (ref_grid p l) y x = Ok b <->
   exists q, module_center l y x = Ok (pt q) /\ b = negb (pix I0 (nearest_pixel (im_w I0) (im_h I0) q) =? 0)).
Proof. intros R. apply ref_grid_bit. exact (reached_inv I0 p R). Qed.
Print Assumptions C52_bit.

(** So painting and detecting further symbols does not change what is read. *)
Theorem C52_stable I0 p p' (l : location spec_float) y x b : reached64 I0 p -> reached64 I0 p' ->
  1 <= im_w I0 <= 2 ^ 31 -> 1 <= im_h I0 <= 2 ^ 31 ->
  g_bit (ref_grid p l) y x = Ok b -> g_bit (ref_grid p' l) y x = Ok b.
Proof. intros R R' Hw Hh H. apply (C52_bit I0 p' l y x b R' Hw Hh). apply (C52_bit I0 p l y x b R Hw Hh). exact H. Qed.
Print Assumptions C52_stable.

(** Modules of two pixels; module 3 of row 1 is black, module 9 is outside and the last column is read. *)
Example C52_example :
  let l := MkLoc 21 (Persp (n_of 2) (n_of 0) (n_of 0) (n_of 0) (n_of 2) (n_of 0) (n_of 0) (n_of 0)) : location spec_float in
  (let* p := prepare_from_bitmap 9 5 (fun x y => (x =? 7) && (y =? 3) || (x =? 8) && (y =? 1)) in
   let* t := repaint_and_apply p 7 3 CCapStone (fun _ u => Ok u) tt in
   let g := ref_grid (fst t) l in
   Ok (g_bit g 1 3, g_bit g 1 2, g_bit g 0 9, g_bit g 1 9)) = Ok (Ok true, Ok false, Ok true, Ok false).
Proof. vm_compute. reflexivity. Qed.

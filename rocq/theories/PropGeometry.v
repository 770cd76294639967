(** The geometry: theorems C38-C40 and C49.  Vocabulary in [SpecGeometry]. *)
From Coq Require Import QArith.
From Verif Require Import Base ModelImage ModelGeometry SpecGeometry ExactProofs GeometryProofs.
Open Scope Z_scope.

(** ** C38: the transform through four corners, in exact arithmetic *)

(** [QNum] is the model's number type instantiated with the rational numbers. *)
Theorem C38_perspective : forall k w h,
  (1 <= w)%Q -> (1 <= h)%Q ->
  strictly_convex (px (k0 k)) (py (k0 k)) (px (k1 k)) (py (k1 k)) (px (k2 k)) (py (k2 k)) (px (k3 k)) (py (k3 k)) ->
  exists c, persp_create (N := QNum) k w h = Some c
    /\ Qeq2 (persp_apply (N := QNum) c 0%Q 0%Q) (inject_Z (px (k0 k)), inject_Z (py (k0 k)))
    /\ Qeq2 (persp_apply (N := QNum) c w 0%Q) (inject_Z (px (k1 k)), inject_Z (py (k1 k)))
    /\ Qeq2 (persp_apply (N := QNum) c w h) (inject_Z (px (k2 k)), inject_Z (py (k2 k)))
    /\ Qeq2 (persp_apply (N := QNum) c 0%Q h) (inject_Z (px (k3 k)), inject_Z (py (k3 k)))
    /\ (forall u v p, (0 <= u <= w)%Q -> (0 <= v <= h)%Q ->
          Qeq2 (persp_apply (N := QNum) c u v) (inject_Z (px p), inject_Z (py p)) -> Qeq2 (persp_unmap (N := QNum) c p) (u, v))
    /\ (forall p, in_hull (px p) (py p) (px (k0 k)) (py (k0 k)) (px (k1 k)) (py (k1 k)) (px (k2 k)) (py (k2 k)) (px (k3 k)) (py (k3 k)) ->
          let uv := persp_unmap (N := QNum) c p in
          (0 <= fst uv <= w)%Q /\ (0 <= snd uv <= h)%Q
          /\ Qeq2 (persp_apply (N := QNum) c (fst uv) (snd uv)) (inject_Z (px p), inject_Z (py p))).
Proof. exact perspective_exact. Qed.
Print Assumptions C38_perspective.

(** A trapezium: convex, and (30, 20) is the mean of its corners. *)
Definition trapezium : corners := Corners (MkPoint 10 0) (MkPoint 50 0) (MkPoint 60 40) (MkPoint 0 40).

Example C38_case :
  strictly_convex 10 0 50 0 60 40 0 40 /\ in_hull 30 20 10 0 50 0 60 40 0 40
  /\ option_map (fun c => map Qred (let '(u, v) := persp_unmap (N := QNum) c (MkPoint 30 20) in [u; v]))
       (persp_create (N := QNum) trapezium (7 # 1) (7 # 1)) = Some [(7 # 2)%Q; (21 # 5)%Q].
Proof.
  split; [repeat split; reflexivity|]. split.
  - exists (1 # 4)%Q, (1 # 4)%Q, (1 # 4)%Q, (1 # 4)%Q. repeat split; discriminate.
  - vm_compute. reflexivity.
Qed.

(** ** C39: the intersection of two lines *)

(** Whenever no intermediate value leaves [i32] the result is exact: [None] for parallel
    lines, else the intersection with both coordinates truncated towards zero. *)
Theorem C39_intersection : forall p0 p1 q0 q1 o, line_intersect p0 p1 q0 q1 = Ok o ->
  let n := (px p1 - px p0) * (py q1 - py q0) - (py p1 - py p0) * (px q1 - px q0) in
  (o = None <-> n = 0) /\
  forall r, o = Some r ->
    exists x y, on_line x y n (px p0) (py p0) (px p1) (py p1) /\ on_line x y n (px q0) (py q0) (px q1) (py q1)
      /\ px r = Z.quot x n /\ py r = Z.quot y n.
Proof. exact line_intersect_exact. Qed.
Print Assumptions C39_intersection.

(** This is so for all pixels of a picture of at most 1024 x 1024 pixels. *)
Theorem C39_pixels : forall p0 p1 q0 q1,
  (forall p, In p [p0; p1; q0; q1] -> 0 <= px p <= 1023 /\ 0 <= py p <= 1023) ->
  exists o, line_intersect p0 p1 q0 q1 = Ok o.
Proof. exact line_intersect_pixels. Qed.
Print Assumptions C39_pixels.

Example C39_case :
  line_intersect (MkPoint 0 0) (MkPoint 10 1) (MkPoint 7 0) (MkPoint 8 20) = Ok (Some (MkPoint 7 0))
  /\ line_intersect (MkPoint 0 0) (MkPoint 10 5) (MkPoint 7 0) (MkPoint 27 10) = Ok None
  /\ line_intersect (MkPoint 0 900) (MkPoint 48 900) (MkPoint 1000 3) (MkPoint 1001 52) = Ok (Some (MkPoint 1018 900)).
Proof. vm_compute. auto. Qed.

(** ** C40: the points of a scan line *)

Theorem C40_bresenham : forall p q,
  Z.abs (px p) < 2 ^ 29 -> Z.abs (py p) < 2 ^ 29 -> Z.abs (px q) < 2 ^ 29 -> Z.abs (py q) < 2 ^ 29 ->
  exists l, bres_points p q = Ok l /\ walk (px p) (py p) (px q) (py q) (map (fun r => (px r, py r)) l).
Proof. exact bres_walk. Qed.
Print Assumptions C40_bresenham.

Example C40_case :
  bres_points (MkPoint 3 4) (MkPoint (-4) 1)
  = Ok [MkPoint 3 4; MkPoint 2 4; MkPoint 1 3; MkPoint 0 3; MkPoint (-1) 2; MkPoint (-2) 2; MkPoint (-3) 1; MkPoint (-4) 1].
Proof. vm_compute. reflexivity. Qed.

(** ** C49: "no overflow for the pixels of any picture" is refuted *)

(** The corners of the finder patterns of an upright version 1 symbol with 150 pixels
    per module: the estimate of the fourth corner leaves [i32]. *)
Theorem C49_overflow_refuted :
  line_intersect (MkPoint 0 2100) (MkPoint 1049 2100) (MkPoint 2100 0) (MkPoint 2100 1049) = Panic.
Proof. vm_compute. reflexivity. Qed.
Print Assumptions C49_overflow_refuted.

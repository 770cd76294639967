(** Properties of the count of modules along the timing patterns: C62.
    Every theorem is followed by its assumptions and by a case meeting its hypotheses. *)
From Coq Require Import SpecFloat.
From Verif Require Import Base Lib ModelDecode ModelImage ModelGeometry ModelDetect ModelIdentify SpecImage SpecGeometry SpecIdentify SpecChanges
  RegionProofs FloodProofs HistoryProofs SearchProofs ImageFacts SpiralProofs ChangesProofs PropImage.
From Coq Require Import ZifyBool.
Open Scope Z_scope.
Set Bullet Behavior "Strict Subproofs".

(** * C62 *)

(** A scan counts how often the colour byte changes along a lattice walk (see C40) between the two places;
    places outside the picture read the nearest pixel. *)
Theorem C62_scan I0 p a b : reached64 I0 p -> 1 <= im_w I0 <= 2 ^ 31 -> 1 <= im_h I0 <= 2 ^ 31 ->
  Z.abs (fst a) < 2 ^ 29 -> Z.abs (snd a) < 2 ^ 29 -> Z.abs (fst b) < 2 ^ 29 -> Z.abs (snd b) < 2 ^ 29 ->
  exists l, walk (fst a) (snd a) (fst b) (snd b) l
    /\ timing_scan p (pt a) (pt b) = Ok (changes (map (fun q => pix (p_buf p) (nearest_pixel (im_w I0) (im_h I0) q)) l)).
Proof. exact (scan_walk I0 p a b). Qed.
Print Assumptions C62_scan.

(** In a freshly prepared image these are the changes between black and white, *)
Theorem C62_fresh I0 p a b : fresh I0 p -> 1 <= im_w I0 <= 2 ^ 31 -> 1 <= im_h I0 <= 2 ^ 31 ->
  Z.abs (fst a) < 2 ^ 29 -> Z.abs (snd a) < 2 ^ 29 -> Z.abs (fst b) < 2 ^ 29 -> Z.abs (snd b) < 2 ^ 29 ->
  exists l, walk (fst a) (snd a) (fst b) (snd b) l /\ timing_scan p (pt a) (pt b) = Ok (changes (map (dark_at I0) l)).
Proof. exact (fresh_walk I0 p a b). Qed.
Print Assumptions C62_fresh.

(** in a later state they are at least those changes, and exactly those if no step of the walk leads from one dark
    component straight into another. *)
Theorem C62_reached I0 p a b : reached64 I0 p -> 1 <= im_w I0 <= 2 ^ 31 -> 1 <= im_h I0 <= 2 ^ 31 ->
  Z.abs (fst a) < 2 ^ 29 -> Z.abs (snd a) < 2 ^ 29 -> Z.abs (fst b) < 2 ^ 29 -> Z.abs (snd b) < 2 ^ 29 ->
  exists l n, walk (fst a) (snd a) (fst b) (snd b) l /\ timing_scan p (pt a) (pt b) = Ok n
    /\ changes (map (dark_at I0) l) <= n <= Z.of_nat (length l) - 1
    /\ (consecutive (joined I0) l -> n = changes (map (dark_at I0) l)).
Proof. exact (reached_walk I0 p a b). Qed.
Print Assumptions C62_reached.

(** The size of a grid: version [k] stands for a larger count of 4k + 2 to 4k + 5 (a perfect symbol has 4k + 4). *)
Theorem C62_size p (g : group spec_float) s :
  measure_timing_pattern p g = Ok s <->
  exists t0 t1 t2 h v, persp_map (cap_c (gr0 g)) (n_ratio 13 2) (n_ratio 1 2) = Ok t0
    /\ persp_map (cap_c (gr1 g)) (n_ratio 13 2) (n_ratio 13 2) = Ok t1
    /\ persp_map (cap_c (gr2 g)) (n_ratio 1 2) (n_ratio 13 2) = Ok t2
    /\ timing_scan p t1 t2 = Ok h /\ timing_scan p t1 t0 = Ok v
    /\ 1 <= Z.max h v
    /\ exists k, s = side_of_version k /\ 0 <= k /\ (k = 0 \/ 4 * k + 2 <= Z.max h v) /\ Z.max h v <= 4 * k + 5.
Proof. exact (measure_size p g s). Qed.
Print Assumptions C62_size.

(** Three dark pixels in a row of four, and a walk with a knee. *)
Example C62_example :
  (let* p := prepare_from_bitmap 5 2 (fun x y => (y =? 0) && (x <? 2) || (y =? 1) && (x =? 4)) in
   let* c := timing_scan p (MkPoint 0 0) (MkPoint 4 1) in
   let* d := timing_scan p (MkPoint (-3) 0) (MkPoint 9 0) in
   Ok (c, d)) = Ok (2, 1)
  /\ changes [1; 1; 0; 0; 1] = 2.
Proof. split; vm_compute; reflexivity. Qed.

(** Refuted: that the count depends on the picture alone.  Two dark pixels touching at a corner: once the region of
    one of them has been asked for, the step between them counts as a change. *)
Theorem C62_picture_only_refuted :
  ~ (forall I0 p p' a b n n', reached64 I0 p -> reached64 I0 p' ->
       (forall q, in_image I0 q -> (claimed p q <-> claimed p' q)) ->
       timing_scan p a b = Ok n -> timing_scan p' a b = Ok n' -> n = n').
Proof.
  intros H. set (I0 := MkImage 2 2 [1; 0; 0; 1]).
  assert (F : fresh I0 (MkPrepared I0 [])).
  { split; [reflexivity|]. split; [repeat split; cbn; try lia; repeat constructor; lia|]. split; [cbn; unfold usize_max; lia|].
    intros [x y] [X Y]. cbn in X, Y. assert (A : (x = 0 \/ x = 1) /\ (y = 0 \/ y = 1)) by lia.
    destruct A as [[-> | -> ] [-> | -> ]]; cbn; auto. }
  assert (R : reached64 I0 (MkPrepared I0 [])) by (apply reached_fresh; exact F).
  destruct (get_region (MkPrepared I0 []) 0 0) as [[r p']| | |] eqn:E; try (vm_compute in E; discriminate E).
  assert (R' : reached64 I0 p') by (eapply reached_query; [exact R| |exact E]; split; cbn; lia).
  vm_compute in E. injection E as _ <-.
  assert (C := H I0 _ _ (MkPoint 0 0) (MkPoint 1 1) 0 1 R R'). cbv beta in C. discriminate C.
  - intros [x y] [X Y]. cbn in X, Y. assert (A : (x = 0 \/ x = 1) /\ (y = 0 \/ y = 1)) by lia.
    destruct A as [[-> | -> ] [-> | -> ]]; split; intros Z0; exfalso; revert Z0; vm_compute; intros [U V]; first [exact (U eq_refl)|exact (V eq_refl)].
  - vm_compute. reflexivity.
  - vm_compute. reflexivity.
Qed.
Print Assumptions C62_picture_only_refuted.

(** Properties of fitting a transform to a picture: C68.
    Every theorem is followed by its assumptions and by a case meeting its hypotheses. *)
From Coq Require Import SpecFloat.
From Verif Require Import Base Lib ModelDecode ModelImage ModelGeometry ModelDetect ModelIdentify SpecImage SpecFit
  FloodProofs HistoryProofs ImageFacts FitProofs SpecClimb ClimbProofs AffineFit GridProofs PropSymbol Refuted SymbolProofs SpecPicture SpecQR.
From Coq Require Import ZifyBool.
Open Scope Z_scope.
Set Bullet Behavior "Strict Subproofs".

(** * C68 *)

(** The fitness of a transform, in any reached state of a picture: there is one exactly if the samples of the function patterns
    can be computed, and then it is the number of samples that agree with the picture less the number of those that do not. *)
Theorem C68_fitness I0 p (c : perspective spec_float) v s : reached64 I0 p -> 1 <= im_w I0 <= 2 ^ 31 -> 1 <= im_h I0 <= 2 ^ 31 ->
  1 <= v <= 40 -> v <> 21 ->
  (fitness_all p c (symbol_size v) = Ok s <-> samples_land c v /\ s = score I0 c v).
Proof. intros R Hw Hh. apply fitness_score; [exact (reached_inv I0 p R)|exact Hw|exact Hh]. Qed.
Print Assumptions C68_fitness.

(** The modules compared have the same colour in every symbol of the version. *)
Theorem C68_colours v sym y x d : 1 <= v <= 40 -> function_patterns v sym -> In (y, x, d) (expected_modules v) -> sym y x = d.
Proof. exact (expected_colour v sym y x d). Qed.
Print Assumptions C68_colours.

(** Bounds of the score; it is best exactly if all nine samples of every compared module lie in the picture and have its colour. *)
Theorem C68_bounds I0 (c : perspective spec_float) v : 1 <= v <= 40 -> - best_score v <= score I0 c v <= best_score v.
Proof. exact (score_bounds I0 c v). Qed.
Print Assumptions C68_bounds.

Theorem C68_best I0 (c : perspective spec_float) v : 1 <= v <= 40 ->
  (score I0 c v = best_score v <-> forall y x d, In (y, x, d) (expected_modules v) -> module_fits I0 c y x d).
Proof. exact (score_perfect I0 c v). Qed.
Print Assumptions C68_best.

(** Adjusting a transform never lowers its score, and changes it only to raise the score. *)
Theorem C68_never_worse I0 p (c c' : perspective spec_float) v : reached64 I0 p -> 1 <= im_w I0 <= 2 ^ 31 -> 1 <= im_h I0 <= 2 ^ 31 ->
  1 <= v <= 40 -> v <> 21 -> jiggle_perspective p c (symbol_size v) = Ok c' ->
  samples_land c v /\ samples_land c' v /\ score I0 c v <= score I0 c' v /\ (score I0 c' v = score I0 c v -> c' = c).
Proof. intros R Hw Hh. apply adjust_score; [exact Hw|exact Hh|exact (reached_inv I0 p R)]. Qed.
Print Assumptions C68_never_worse.

(** Exactly how it is adjusted: eighty trials, each of one coefficient, each kept iff its score is higher than that of the transform at hand. *)
Theorem C68_climb I0 p (c c' : perspective spec_float) v : reached64 I0 p -> 1 <= im_w I0 <= 2 ^ 31 -> 1 <= im_h I0 <= 2 ^ 31 -> 1 <= v <= 40 -> v <> 21 ->
  (jiggle_perspective p c (symbol_size v) = Ok c' <-> samples_land c v /\ climb I0 v (trials c) c c').
Proof. intros R Hw Hh Hv H21. exact (adjust_climb I0 p (reached_inv I0 p R) Hw Hh v Hv H21 c c'). Qed.
Print Assumptions C68_climb.

(** A transform of the best score is kept. *)
Theorem C68_best_kept I0 p (c c' : perspective spec_float) v : reached64 I0 p -> 1 <= im_w I0 <= 2 ^ 31 -> 1 <= im_h I0 <= 2 ^ 31 ->
  1 <= v <= 40 -> v <> 21 -> jiggle_perspective p c (symbol_size v) = Ok c' -> score I0 c v = best_score v -> c' = c.
Proof. intros R Hw Hh. apply perfect_kept; [exact Hw|exact Hh|exact (reached_inv I0 p R)]. Qed.
Print Assumptions C68_best_kept.

(** So the transform of every grid that [detect_grids] returns is one made from four corners, or one that fits the picture better. *)
Theorem C68_detected {Srt : Sorter spec_float} I0 p grids p' g v : reached64 I0 p -> 1 <= im_w I0 <= 2 ^ 31 -> 1 <= im_h I0 <= 2 ^ 31 ->
  detect_grids (T := spec_float) p = Ok (grids, p') -> In g grids ->
  1 <= v <= 40 -> v <> 21 -> loc_size (lg_loc g) = symbol_size v ->
  samples_land (loc_c (lg_loc g)) v
  /\ exists k c, persp_create k (n_of (symbol_size v - 7)) (n_of (symbol_size v - 7)) = Some c
      /\ score I0 c v <= score I0 (loc_c (lg_loc g)) v
      /\ (score I0 (loc_c (lg_loc g)) v = score I0 c v -> loc_c (lg_loc g) = c).
Proof. intros R Hw Hh E Hg. exact (detect_adjusted I0 Hw Hh p grids p' (reached_inv I0 p R) E g Hg v). Qed.
Print Assumptions C68_detected.

(** And reading a module of a function pattern of such a grid never panics, in any reached state. *)
Theorem C68_read {Srt : Sorter spec_float} I0 p grids p' q g v y x d : reached64 I0 p -> reached64 I0 q ->
  1 <= im_w I0 <= 2 ^ 31 -> 1 <= im_h I0 <= 2 ^ 31 ->
  detect_grids (T := spec_float) p = Ok (grids, p') -> In g grids ->
  1 <= v <= 40 -> v <> 21 -> loc_size (lg_loc g) = symbol_size v -> In (y, x, d) (expected_modules v) ->
  exists b, g_bit (ref_grid q (lg_loc g)) y x = Ok b.
Proof.
  intros R R' Hw Hh E Hg Hv H21 Sz Hi. apply (reads_landed I0 q _ v y x d (reached_inv I0 q R') Hw Hh); [|exact Hi].
  apply (detect_adjusted I0 Hw Hh p grids p' (reached_inv I0 p R) E g Hg v Hv H21 Sz).
Qed.
Print Assumptions C68_read.

(** A transform of the best score reads the function patterns as they are. *)
Theorem C68_best_read I0 p (l : location spec_float) v y x d : reached64 I0 p -> 1 <= im_w I0 <= 2 ^ 31 -> 1 <= im_h I0 <= 2 ^ 31 ->
  1 <= v <= 40 -> score I0 (loc_c l) v = best_score v -> In (y, x, d) (expected_modules v) -> g_bit (ref_grid p l) y x = Ok d.
Proof. intros R. exact (reads_perfect I0 p l v y x d (reached_inv I0 p R)). Qed.
Print Assumptions C68_best_read.

(** The best scores of some versions: 9 times 161, 194 (one alignment pattern), 359 (six) and 1623 (46). *)
Example C68_scores : map best_score [1; 2; 7; 40] = [1449; 1746; 3231; 14607].
Proof. vm_compute. reflexivity. Qed.

(** The symbol of the library's tests at two pixels per module: the transform that doubles has the best score, the one that is a pixel off
    has a lower one. *)
Definition fit_picture (x y : Z) : bool := table_symbol 21 rqrr_rows (y / 2) (x / 2).
Definition doubling (d : Z) : perspective spec_float := Persp (n_of 2) (n_of 0) (n_of d) (n_of 0) (n_of 2) (n_of 0) (n_of 0) (n_of 0).

Example C68_example p : prepare_from_bitmap 42 42 fit_picture = Ok p ->
  score (p_buf p) (doubling 0) 1 = 1449 /\ score (p_buf p) (doubling 1) 1 = 108.
Proof.
  intros Ep.
  assert (A : match prepare_from_bitmap 42 42 fit_picture with
              | Ok p => (score (p_buf p) (doubling 0) 1 =? 1449) && (score (p_buf p) (doubling 1) 1 =? 108) | _ => false end = true) by (vm_compute; reflexivity).
  rewrite Ep in A. apply andb_true_iff in A as [A B]. split; [apply Z.eqb_eq; exact A|apply Z.eqb_eq; exact B].
Qed.

(** Transforms with integer coefficients and no perspective can always be adjusted (a transform in perspective may send a
    sample beyond the range of [i32], which is a panic). *)
Theorem C68_affine I0 p a b d e f g v : reached64 I0 p -> 1 <= im_w I0 <= 2 ^ 31 -> 1 <= im_h I0 <= 2 ^ 31 -> 1 <= v <= 40 -> v <> 21 ->
  (forall z, In z [a; b; d; e; f; g] -> -33000 <= z <= 33000) ->
  exists c', jiggle_perspective p (Persp (n_of a) (n_of b) (n_of d) (n_of e) (n_of f) (n_of g) (n_of 0) (n_of 0)) (symbol_size v) = Ok (c' : perspective spec_float).
Proof. intros R. exact (affine_total I0 p a b d e f g v (reached_inv I0 p R)). Qed.
Print Assumptions C68_affine.

(** Adjusting the better one in that picture gives it back; adjusting the other gives a transform of at least 108. *)
Example C68_adjusted : exists p c', prepare_from_bitmap 42 42 fit_picture = Ok p
  /\ jiggle_perspective p (doubling 0) 21 = Ok (doubling 0)
  /\ jiggle_perspective p (doubling 1) 21 = Ok c' /\ 108 <= score (p_buf p) c' 1.
Proof.
  destruct (bitmap_ok 42 42 fit_picture ltac:(lia) ltac:(lia) ltac:(vm_compute; discriminate)) as (p & Ep & Pw & Ph & F & _).
  destruct (C68_example p Ep) as [E0 E1].
  assert (R : reached64 (p_buf p) p) by (apply reached_fresh; exact F).
  assert (Hw : 1 <= im_w (p_buf p) <= 2 ^ 31) by (unfold p_w in Pw; lia). assert (Hh : 1 <= im_h (p_buf p) <= 2 ^ 31) by (unfold p_h in Ph; lia).
  destruct (C68_affine _ p 2 0 0 0 2 0 1 R Hw Hh ltac:(lia) ltac:(lia)) as (c0 & J0); [intros z Hz; cbn in Hz; lia|].
  destruct (C68_affine _ p 2 0 1 0 2 0 1 R Hw Hh ltac:(lia) ltac:(lia)) as (c1 & J1); [intros z Hz; cbn in Hz; lia|].
  exists p, c1. split; [exact Ep|]. split; [|split; [exact J1|]].
  - assert (c0 = doubling 0) by (eapply (C68_best_kept _ p _ c0 1 R Hw Hh); [lia|lia|exact J0|exact E0]). subst c0. exact J0.
  - apply (C68_never_worse _ p _ c1 1 R Hw Hh ltac:(lia) ltac:(lia)) in J1 as (_ & _ & L & _). change (score (p_buf p) (doubling 1) 1 <= score (p_buf p) c1 1) in L. rewrite E1 in L. exact L.
Qed.

(** The climb from the transform a pixel off. *)
Example C68_climbed : exists p c', prepare_from_bitmap 42 42 fit_picture = Ok p /\ length (trials (doubling 1)) = 80%nat
  /\ samples_land (doubling 1) 1 /\ climb (p_buf p) 1 (trials (doubling 1)) (doubling 1) c' /\ 108 <= score (p_buf p) c' 1.
Proof.
  destruct C68_adjusted as (p & c' & Ep & _ & J & S).
  destruct (bitmap_ok 42 42 fit_picture ltac:(lia) ltac:(lia) ltac:(vm_compute; discriminate)) as (p1 & Ep1 & Pw & Ph & F & _).
  assert (p1 = p) by (unfold out in *; congruence). subst p1.
  assert (R : reached64 (p_buf p) p) by (apply reached_fresh; exact F).
  exists p, c'. split; [exact Ep|]. split; [reflexivity|].
  apply (C68_climb (p_buf p) p (doubling 1) c' 1 R) in J as [L C]; [auto|unfold p_w in Pw; lia|unfold p_h in Ph; lia|lia|lia].
Qed.

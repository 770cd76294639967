(** The corner finders return extreme points of the region (C35). *)
From Verif Require Import Base Lib ModelImage ModelGeometry ModelDetect SpecImage FloodProofs.
From Coq Require Import ZifyBool ZifyNat ZifyN.
Ltac Zify.zify_post_hook ::= Z.div_mod_to_equations.

Definition max_dim : Z := 32767.

Definition pt_of (q : pixel) : point := MkPoint (fst q) (snd q).

Definition small_row (r : row) : Prop :=
  0 <= r_left r <= r_right r /\ r_right r <= max_dim /\ 0 <= r_y r <= max_dim.
Definition small_pt (p : point) : Prop := 0 <= px p <= max_dim /\ 0 <= py p <= max_dim.

Lemma as_i32_small z : 0 <= z <= max_dim -> as_i32 z = z.
Proof. unfold as_i32, max_dim. lia. Qed.

Lemma i32_ok z : i32_min <= z <= i32_max -> i32 z = Ok z.
Proof. intros H. unfold i32. replace ((i32_min <=? z) && (z <=? i32_max)) with true by lia. reflexivity. Qed.

Lemma mul_range a b m : 0 <= m -> - m <= a <= m -> - m <= b <= m -> - (m * m) <= a * b <= m * m.
Proof. intros Hm Ha Hb. nia. Qed.

(** * The first corner *)

Definition sqdist (p q : point) : Z := (px p - px q) * (px p - px q) + (py p - py q) * (py p - py q).

(** The state after the rows seen so far. *)
Definition first_inv (start : point) (cells : list pixel) (f : first_corner) : Prop :=
  fc_initial f = start
  /\ (forall q, In q cells -> sqdist (pt_of q) start <= fc_score f)
  /\ ((cells = [] /\ fc_score f = -1) \/ (exists q, In q cells /\ fc_best f = pt_of q /\ fc_score f = sqdist (pt_of q) start)).

Lemma square_between a l x r : l <= x <= r -> (x - a) * (x - a) <= Z.max ((l - a) * (l - a)) ((r - a) * (r - a)).
Proof. intros H. destruct (Z_le_gt_dec x a); nia. Qed.

Lemma first_update_ok start cells r f : small_pt start -> small_row r -> first_inv start cells f ->
  exists f', first_update r f = Ok f' /\ first_inv start (cells ++ row_cells r) f'.
Proof.
  intros [S1 S2] (R1 & R2 & R3) (I1 & I2 & I3). unfold first_update. rewrite I1.
  rewrite !as_i32_small by (unfold max_dim in *; lia).
  set (dy := r_y r - py start). set (dl := r_left r - px start). set (dr := r_right r - px start).
  unfold max_dim in *.
  assert (Bdy : - 32767 <= dy <= 32767) by (unfold dy; lia).
  assert (Bdl : - 32767 <= dl <= 32767) by (unfold dl; lia).
  assert (Bdr : - 32767 <= dr <= 32767) by (unfold dr; lia).
  pose proof (mul_range dy dy 32767 ltac:(lia) Bdy Bdy). pose proof (mul_range dl dl 32767 ltac:(lia) Bdl Bdl).
  pose proof (mul_range dr dr 32767 ltac:(lia) Bdr Bdr).
  assert (0 <= dy * dy) by nia. assert (0 <= dl * dl) by nia. assert (0 <= dr * dr) by nia.
  cbn [ival bind]. fold dy dl dr.
  assert (M : 32767 * 32767 = 1073676289) by reflexivity.
  rewrite (i32_ok dy) by (unfold i32_min, i32_max; lia). cbn [bind ival].
  rewrite (i32_ok dl) by (unfold i32_min, i32_max; lia). cbn [bind ival].
  rewrite (i32_ok dr) by (unfold i32_min, i32_max; lia). cbn [bind ival].
  rewrite (i32_ok (dl * dl)) by (unfold i32_min, i32_max; lia). cbn [bind ival].
  rewrite (i32_ok (dy * dy)) by (unfold i32_min, i32_max; lia). cbn [bind ival].
  rewrite (i32_ok (dl * dl + dy * dy)) by (unfold i32_min, i32_max; lia). cbn [bind ival].
  rewrite (i32_ok (dr * dr)) by (unfold i32_min, i32_max; lia). cbn [bind ival].
  rewrite (i32_ok (dr * dr + dy * dy)) by (unfold i32_min, i32_max; lia). cbn [bind ival].
  eexists. split; [reflexivity|].
  set (f1 := if fc_score f <? dl * dl + dy * dy then MkFirst start (MkPoint (r_left r) (r_y r)) (dl * dl + dy * dy) else f).
  set (f2 := if fc_score f1 <? dr * dr + dy * dy then _ else f1).
  assert (L : In (r_left r, r_y r) (row_cells r)) by (apply in_segment; cbn; lia).
  assert (R : In (r_right r, r_y r) (row_cells r)) by (apply in_segment; cbn; lia).
  assert (F1 : fc_initial f1 = start /\ fc_score f <= fc_score f1 /\ dl * dl + dy * dy <= fc_score f1
     /\ ((fc_best f1 = fc_best f /\ fc_score f1 = fc_score f) \/ (fc_best f1 = MkPoint (r_left r) (r_y r) /\ fc_score f1 = dl * dl + dy * dy))).
  { unfold f1. destruct (fc_score f <? dl * dl + dy * dy) eqn:E; cbn; repeat split; try lia; try assumption; auto. }
  destruct F1 as (F11 & F12 & F13 & F14).
  assert (F2 : fc_initial f2 = start /\ fc_score f1 <= fc_score f2 /\ dr * dr + dy * dy <= fc_score f2
     /\ ((fc_best f2 = fc_best f1 /\ fc_score f2 = fc_score f1) \/ (fc_best f2 = MkPoint (r_right r) (r_y r) /\ fc_score f2 = dr * dr + dy * dy))).
  { unfold f2. destruct (fc_score f1 <? dr * dr + dy * dy) eqn:E; cbn; repeat split; try lia; try assumption; auto. }
  destruct F2 as (F21 & F22 & F23 & F24).
  split; [assumption|]. split.
  - intros q Hq. apply in_app_or in Hq. destruct Hq as [Hq|Hq]; [specialize (I2 q Hq); lia|].
    apply in_segment in Hq. destruct q as [x y]. cbn in Hq. destruct Hq as [-> Hx].
    unfold sqdist. cbn [pt_of px py fst snd].
    pose proof (square_between (px start) _ _ _ Hx). fold dl dr in H5. fold dy. lia.
  - right. assert (Hl : sqdist (pt_of (r_left r, r_y r)) start = dl * dl + dy * dy) by reflexivity.
    assert (Hr : sqdist (pt_of (r_right r, r_y r)) start = dr * dr + dy * dy) by reflexivity.
    destruct F24 as [[A B]|[A B]]; [|exists (r_right r, r_y r); split; [apply in_or_app; right; exact R|split; [exact A|congruence]]].
    destruct F14 as [[C D]|[C D]]; [|exists (r_left r, r_y r); split; [apply in_or_app; right; exact L|split; [rewrite A; exact C|rewrite B; exact D]]].
    destruct I3 as [[-> I3]|(q & Q1 & Q2 & Q3)].
    + exfalso. lia.
    + exists q. split; [apply in_or_app; left; assumption|]. split; congruence.
Qed.

Lemma first_rows start : forall rows cells f, small_pt start -> Forall small_row rows -> first_inv start cells f ->
  exists f', for_each rows first_update f = Ok f' /\ first_inv start (cells ++ rows_cells rows) f'.
Proof.
  induction rows as [|r rows IH]; intros cells f S F I.
  - exists f. split; [reflexivity|]. cbn. rewrite app_nil_r. assumption.
  - inversion F; subst. destruct (first_update_ok start cells r f) as (f1 & E1 & I1); try assumption.
    cbn [for_each]. rewrite E1. cbn [bind]. destruct (IH _ _ S H2 I1) as (f2 & E2 & I2).
    exists f2. split; [exact E2|]. cbn [rows_cells flat_map]. rewrite app_assoc. exact I2.
Qed.

(** * The four corners *)

Definition par (b p : point) : Z := px p * px b + py p * py b.
Definition ort (b p : point) : Z := py p * px b - px p * py b.

(** The four directions of the search. *)
Definition dirs (b p : point) : list Z := [par b p; ort b p; - par b p; - ort b p].

Definition small_base (b : point) : Prop := - max_dim <= px b <= max_dim /\ - max_dim <= py b <= max_dim.

Lemma scores_ok b p : small_base b -> small_pt p -> corner_scores b (px p) (py p) = Ok (dirs b p).
Proof.
  intros [B1 B2] [P1 P2]. unfold max_dim in *. unfold corner_scores, dirs, par, ort.
  destruct p as [x y], b as [bx by_]. cbn [px py] in *.
  pose proof (mul_range x bx 32767 ltac:(lia) ltac:(lia) B1). pose proof (mul_range y by_ 32767 ltac:(lia) ltac:(lia) B2).
  pose proof (mul_range x by_ 32767 ltac:(lia) ltac:(lia) B2). pose proof (mul_range y bx 32767 ltac:(lia) ltac:(lia) B1).
  assert (M : 32767 * 32767 = 1073676289) by reflexivity. assert (N : - x * by_ = - (x * by_)) by lia.
  cbn [ival bind].
  rewrite (i32_ok (x * bx)) by (unfold i32_min, i32_max; lia). cbn [bind ival].
  rewrite (i32_ok (y * by_)) by (unfold i32_min, i32_max; lia). cbn [bind ival].
  rewrite (i32_ok (x * bx + y * by_)) by (unfold i32_min, i32_max; lia). cbn [bind ival].
  rewrite (i32_ok (- x)) by (unfold i32_min, i32_max; lia). cbn [bind ival].
  rewrite (i32_ok (- x * by_)) by (unfold i32_min, i32_max; lia). cbn [bind ival].
  rewrite (i32_ok (y * bx)) by (unfold i32_min, i32_max; lia). cbn [bind ival].
  rewrite (i32_ok (- x * by_ + y * bx)) by (unfold i32_min, i32_max; lia). cbn [bind ival].
  rewrite (i32_ok (- (x * bx + y * by_))) by (unfold i32_min, i32_max; lia). cbn [bind ival].
  rewrite (i32_ok (- (- x * by_ + y * bx))) by (unfold i32_min, i32_max; lia). cbn [bind ival].
  f_equal. repeat (f_equal; try lia).
Qed.

(** One direction: [s] is the value of the point [p], no point seen is better. *)
Definition best_in (d : point -> Z) (cells : list pixel) (e : point * Z) : Prop :=
  (exists q, In q cells /\ fst e = pt_of q) /\ snd e = d (fst e) /\ forall q, In q cells -> d (pt_of q) <= snd e.

Definition all_inv (b : point) (cells : list pixel) (f : all_corners) : Prop :=
  ac_baseline f = b /\ exists e0 e1 e2 e3, ac_best f = [e0; e1; e2; e3]
    /\ best_in (par b) cells e0 /\ best_in (ort b) cells e1
    /\ best_in (fun p => - par b p) cells e2 /\ best_in (fun p => - ort b p) cells e3.

(** A direction is linear along a row. *)
Definition linear (d : point -> Z) : Prop :=
  forall y l x r, l <= x <= r -> d (MkPoint x y) <= Z.max (d (MkPoint l y)) (d (MkPoint r y)).

Lemma linear_slope a b c : forall l x r, l <= x <= r -> a * x + b <= Z.max (a * l + c) (a * r + c) + (b - c).
Proof. intros l x r H. destruct (Z_le_gt_dec 0 a); [assert (a * x <= a * r) by nia|assert (a * x <= a * l) by nia]; lia. Qed.

Lemma par_linear b : linear (par b).
Proof. intros y l x r H. unfold par. cbn. pose proof (linear_slope (px b) (y * py b) (y * py b) l x r H). lia. Qed.
Lemma ort_linear b : linear (ort b).
Proof. intros y l x r H. unfold ort. cbn. pose proof (linear_slope (- py b) (y * px b) (y * px b) l x r H). lia. Qed.
Lemma npar_linear b : linear (fun p => - par b p).
Proof. intros y l x r H. unfold par. cbn. pose proof (linear_slope (- px b) (- (y * py b)) (- (y * py b)) l x r H). lia. Qed.
Lemma nort_linear b : linear (fun p => - ort b p).
Proof. intros y l x r H. unfold ort. cbn. pose proof (linear_slope (py b) (- (y * px b)) (- (y * px b)) l x r H). lia. Qed.

Lemma better_ok d cells r e : linear d -> r_left r <= r_right r -> best_in d cells e ->
  let pl := MkPoint (r_left r) (r_y r) in let pr := MkPoint (r_right r) (r_y r) in
  best_in d (cells ++ row_cells r) (better pl pr (d pl, d pr) e).
Proof.
  intros Hd Hr ((q0 & Q1 & Q2) & S1 & S2) pl pr.
  assert (L : In (r_left r, r_y r) (row_cells r)) by (apply in_segment; cbn; lia).
  assert (R : In (r_right r, r_y r) (row_cells r)) by (apply in_segment; cbn; lia).
  unfold better. cbn [fst snd].
  set (e1 := if snd e <? d pl then (pl, d pl) else e).
  assert (H1 : (exists q, In q (cells ++ row_cells r) /\ fst e1 = pt_of q) /\ snd e1 = d (fst e1) /\ snd e <= snd e1 /\ d pl <= snd e1).
  { unfold e1. destruct (snd e <? d pl) eqn:E; cbn.
    - split; [exists (r_left r, r_y r); split; [apply in_or_app; right; exact L|reflexivity]|]. split; [reflexivity|lia].
    - split; [exists q0; split; [apply in_or_app; left; assumption|assumption]|]. split; [assumption|lia]. }
  destruct H1 as (H11 & H12 & H13 & H14).
  set (e2 := if snd e1 <? d pr then (pr, d pr) else e1).
  assert (H2 : (exists q, In q (cells ++ row_cells r) /\ fst e2 = pt_of q) /\ snd e2 = d (fst e2) /\ snd e1 <= snd e2 /\ d pr <= snd e2).
  { unfold e2. destruct (snd e1 <? d pr) eqn:E; cbn.
    - split; [exists (r_right r, r_y r); split; [apply in_or_app; right; exact R|reflexivity]|]. split; [reflexivity|lia].
    - split; [assumption|]. split; [assumption|lia]. }
  destruct H2 as (H21 & H22 & H23 & H24).
  split; [assumption|]. split; [assumption|]. intros q Hq. apply in_app_or in Hq. destruct Hq as [Hq|Hq]; [specialize (S2 q Hq); lia|].
  apply in_segment in Hq. destruct q as [x y]. cbn in Hq. destruct Hq as [-> Hx].
  pose proof (Hd (r_y r) (r_left r) x (r_right r) Hx) as X. fold pl pr in X. unfold pt_of. cbn. lia.
Qed.

Lemma all_update_ok b cells r f : small_base b -> small_row r -> all_inv b cells f ->
  exists f', all_update r f = Ok f' /\ all_inv b (cells ++ row_cells r) f'.
Proof.
  intros Hb (R1 & R2 & R3) (I1 & e0 & e1 & e2 & e3 & E & A0 & A1 & A2 & A3). unfold all_update. rewrite I1.
  rewrite !as_i32_small by (unfold max_dim in *; lia).
  set (pl := MkPoint (r_left r) (r_y r)). set (pr := MkPoint (r_right r) (r_y r)).
  assert (Sl : small_pt pl) by (unfold small_pt, pl; cbn; lia). assert (Sr : small_pt pr) by (unfold small_pt, pr; cbn; lia).
  pose proof (scores_ok b pl Hb Sl) as El. pose proof (scores_ok b pr Hb Sr) as Er. cbn [px py pl pr] in El, Er.
  unfold out in *. rewrite El, Er. cbn [bind]. eexists. split; [reflexivity|]. split; [reflexivity|].
  rewrite E. unfold dirs. cbn [combine map fst snd ac_best].
  eexists _, _, _, _. split; [reflexivity|].
  pose proof (better_ok (par b) cells r e0 (par_linear b) ltac:(lia) A0).
  pose proof (better_ok (ort b) cells r e1 (ort_linear b) ltac:(lia) A1).
  pose proof (better_ok (fun p => - par b p) cells r e2 (npar_linear b) ltac:(lia) A2).
  pose proof (better_ok (fun p => - ort b p) cells r e3 (nort_linear b) ltac:(lia) A3).
  split; [assumption|]. split; [assumption|]. split; assumption.
Qed.

Lemma all_rows b : forall rows cells f, small_base b -> Forall small_row rows -> all_inv b cells f ->
  exists f', for_each rows all_update f = Ok f' /\ all_inv b (cells ++ rows_cells rows) f'.
Proof.
  induction rows as [|r rows IH]; intros cells f S F I.
  - exists f. split; [reflexivity|]. cbn. rewrite app_nil_r. assumption.
  - inversion F; subst. destruct (all_update_ok b cells r f) as (f1 & E1 & I1); try assumption.
    cbn [for_each]. rewrite E1. cbn [bind]. destruct (IH _ _ S H2 I1) as (f2 & E2 & I2).
    exists f2. split; [exact E2|]. cbn [rows_cells flat_map]. rewrite app_assoc. exact I2.
Qed.

Lemma all_new_ok start corner : small_pt (pt_of start) -> small_pt corner ->
  let b := MkPoint (px corner - fst start) (py corner - snd start) in
  exists f, all_new (pt_of start) corner = Ok f /\ small_base b /\ all_inv b [start] f.
Proof.
  intros S C b. assert (Hb : small_base b). { destruct S, C. unfold small_base, b, max_dim in *. cbn in *. lia. }
  unfold all_new. cbn [ival bind]. rewrite i32_ok, i32_ok; cbn [bind];
    try (destruct S, C; unfold max_dim, i32_min, i32_max in *; cbn in *; lia).
  pose proof (scores_ok b (pt_of start) Hb S) as Es. cbn [px py pt_of] in Es |- *. fold b.
  unfold out in *. rewrite Es. cbn [bind].
  eexists. split; [reflexivity|]. split; [assumption|]. split; [reflexivity|].
  unfold dirs. cbn [map ac_best]. eexists _, _, _, _. split; [reflexivity|].
  assert (G : forall d, best_in d [start] (pt_of start, d (pt_of start))).
  { intros d. split; [exists start; split; [left; reflexivity|reflexivity]|]. split; [reflexivity|].
    intros q [<-|[]]. cbn. lia. }
  split; [apply G|]. split; [apply G|]. split; [apply (G (fun p => - par b p))|apply (G (fun p => - ort b p))].
Qed.

(** * Both passes over a region *)

(** The four corners found for a region with a reference point: the first corner
    [c] is as far from the reference point as any point of the region; the four
    are extreme along and across the line from the reference point to [c]. *)
Definition corners_of (S : pixel -> Prop) (start : pixel) (k : corners) : Prop :=
  exists c, S c /\ (forall q, S q -> sqdist (pt_of q) (pt_of start) <= sqdist (pt_of c) (pt_of start))
    /\ let b := MkPoint (fst c - fst start) (snd c - snd start) in
       (exists q0 q1 q2 q3, S q0 /\ S q1 /\ S q2 /\ S q3 /\ k = Corners (pt_of q0) (pt_of q1) (pt_of q2) (pt_of q3))
       /\ forall q, S q -> par b (pt_of q) <= par b (k0 k) /\ ort b (pt_of q) <= ort b (k1 k)
                        /\ par b (k2 k) <= par b (pt_of q) /\ ort b (k3 k) <= ort b (pt_of q).

Lemma corners_ok (S : pixel -> Prop) start rows1 rows2 :
  (forall q, S q -> 0 <= fst q <= max_dim /\ 0 <= snd q <= max_dim) -> S start ->
  (forall q, In q (rows_cells rows1) <-> S q) -> (forall q, In q (rows_cells rows2) <-> S q) ->
  Forall (fun r => r_left r <= r_right r) rows1 -> Forall (fun r => r_left r <= r_right r) rows2 ->
  exists f a0 a k,
    for_each rows1 first_update (first_new (pt_of start)) = Ok f
    /\ all_new (pt_of start) (fc_best f) = Ok a0
    /\ for_each rows2 all_update a0 = Ok a
    /\ all_best a = Ok k /\ corners_of S start k.
Proof.
  intros Hs S0 H1 H2 F1 F2.
  assert (Small : forall rows, (forall q, In q (rows_cells rows) <-> S q) -> Forall (fun r => r_left r <= r_right r) rows -> Forall small_row rows).
  { intros rows H F. apply Forall_forall. intros r Hr. rewrite Forall_forall in F. specialize (F r Hr).
    assert (L : S (r_left r, r_y r)). { apply H. apply in_flat_map. exists r. split; [assumption|]. apply in_segment. cbn. lia. }
    assert (R : S (r_right r, r_y r)). { apply H. apply in_flat_map. exists r. split; [assumption|]. apply in_segment. cbn. lia. }
    apply Hs in L. apply Hs in R. unfold small_row. cbn in *. lia. }
  assert (Sp : small_pt (pt_of start)) by (apply Hs; assumption).
  destruct (first_rows (pt_of start) rows1 [] (first_new (pt_of start)) Sp (Small _ H1 F1)) as (f & E1 & I1 & I2 & I3).
  { split; [reflexivity|]. split; [contradiction|]. left. split; reflexivity. }
  cbn [app] in I2, I3.
  destruct I3 as [[N _]|(c & C1 & C2 & C3)].
  { exfalso. apply H1 in S0. rewrite N in S0. contradiction. }
  assert (Sc : S c) by (apply H1; assumption).
  destruct (all_new_ok start (fc_best f)) as (a0 & E2 & Hb & A0); [assumption|rewrite C2; apply Hs; assumption|].
  rewrite C2 in Hb, A0. cbn [px py pt_of] in Hb, A0. set (b := MkPoint (fst c - fst start) (snd c - snd start)) in *.
  destruct (all_rows b rows2 [start] a0 Hb (Small _ H2 F2) A0) as (a & E3 & I4 & e0 & e1 & e2 & e3 & Ea & B0 & B1 & B2 & B3).
  exists f, a0, a, (Corners (fst e0) (fst e1) (fst e2) (fst e3)).
  split; [exact E1|]. split; [exact E2|]. split; [exact E3|]. split; [unfold all_best; rewrite Ea; reflexivity|].
  exists c. split; [assumption|]. split. { intros q Hq. rewrite <- C3. apply I2, H1. assumption. }
  assert (In2 : forall q, In q ([start] ++ rows_cells rows2) <-> S q).
  { intros q. cbn. rewrite H2. split; [intros [<-|X]; assumption|tauto]. }
  fold b. cbn [k0 k1 k2 k3]. destruct B0 as ((q0 & X0 & Y0) & V0 & M0), B1 as ((q1 & X1 & Y1) & V1 & M1),
    B2 as ((q2 & X2 & Y2) & V2 & M2), B3 as ((q3 & X3 & Y3) & V3 & M3).
  split.
  - exists q0, q1, q2, q3. rewrite <- !In2. repeat (split; [assumption|]). congruence.
  - intros q Hq. apply In2 in Hq. specialize (M0 q Hq). specialize (M1 q Hq). specialize (M2 q Hq). specialize (M3 q Hq).
    cbn beta in *. lia.
Qed.

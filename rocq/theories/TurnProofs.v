(** A picture of a symbol in the coordinates of the symbol, and its finder patterns as squares. *)
From Verif Require Import Base Lib SpecQR SpecImage SpecScan SpecFinder SpecPicture SquareProofs.
Open Scope Z_scope.
Set Bullet Behavior "Strict Subproofs".

(** * Symbol coordinates *)

(** The direction of a row of modules in the picture, and the pixel at the symbol's origin. *)
Definition dir_a (r : nat) : Z := match r with O => 1 | 1%nat => 0 | 2%nat => -1 | _ => 0 end.
Definition dir_b (r : nat) : Z := match r with O => 0 | 1%nat => 1 | 2%nat => 0 | _ => -1 end.
Definition org_x (r : nat) (e ox : Z) : Z := match r with O => ox | 1%nat => ox + e | 2%nat => ox + e | _ => ox end.
Definition org_y (r : nat) (e oy : Z) : Z := match r with O => oy | 1%nat => oy | 2%nat => oy + e | _ => oy + e end.

Section Turn.
Context (r : nat) (e ox oy : Z).
Notation a := (dir_a r).
Notation b := (dir_b r).
Notation X := (org_x r e ox).
Notation Y := (org_y r e oy).

(** The pixel [s] along the rows and [t] along the columns of the symbol. *)
Definition place (s t : Z) : pixel := (X + s * a - t * b, Y + s * b + t * a).

Definition row_part (q : pixel) : Z := a * (fst q - X) + b * (snd q - Y).
Definition col_part (q : pixel) : Z := a * (snd q - Y) - b * (fst q - X).

Lemma place_parts q : place (row_part q) (col_part q) = q.
Proof. destruct q as [x y]. unfold place, row_part, col_part. destruct r as [|[|[|r']]]; cbn [dir_a dir_b fst snd]; f_equal; lia. Qed.

Lemma row_place s t : row_part (place s t) = s.
Proof. unfold place, row_part. destruct r as [|[|[|r']]]; cbn [dir_a dir_b fst snd]; lia. Qed.

Lemma col_place s t : col_part (place s t) = t.
Proof. unfold place, col_part. destruct r as [|[|[|r']]]; cbn [dir_a dir_b fst snd]; lia. Qed.
End Turn.

Lemma ge_div m k z : 1 <= m -> (k <= z / m <-> k * m <= z).
Proof.
  intros M. pose proof (Z.div_mod z m ltac:(lia)) as D. pose proof (Z.mod_pos_bound z m ltac:(lia)) as B.
  split; intros H; [nia|]. apply Z.div_le_lower_bound; lia.
Qed.

Lemma lt_div m k z : 1 <= m -> (z / m < k <-> z < k * m).
Proof. intros M. pose proof (ge_div m k z M). lia. Qed.

Lemma div_back n m t : 1 <= m -> (n * m - 1 - t) / m = n - 1 - t / m.
Proof.
  intros M. symmetry. apply Z.div_unique with (r := m - 1 - t mod m).
  - pose proof (Z.mod_pos_bound t m ltac:(lia)). lia.
  - pose proof (Z.div_mod t m ltac:(lia)). nia.
Qed.

Lemma band m c k s : 1 <= m -> (c * m + k * m <= s < c * m + 7 * m - k * m <-> Z.abs (s / m - (c + 3)) <= 3 - k).
Proof.
  intros M. pose proof (ge_div m (c + k) s M) as A. pose proof (lt_div m (c + 7 - k) s M) as B.
  rewrite Z.mul_add_distr_r in A. rewrite Z.mul_sub_distr_r, Z.mul_add_distr_r in B. rewrite <- A, <- B. clear A B. lia.
Qed.

(** The nearest column of a finder pattern. *)
Lemma clamp m c s : 1 <= m -> c * m - 1 <= s <= c * m + 7 * m -> exists s', c * m <= s' < c * m + 7 * m /\ Z.abs (s - s') <= 1 /\ Z.abs (s' / m - (c + 3)) <= 3.
Proof.
  intros M H. assert (G : exists s', c * m <= s' < c * m + 7 * m /\ Z.abs (s - s') <= 1).
  { exists (Z.max (c * m) (Z.min (c * m + 7 * m - 1) s)). revert H. generalize (c * m). clear - M. intros. lia. }
  destruct G as (s' & H1 & H2). exists s'. split; [exact H1|]. split; [exact H2|].
  pose proof (proj1 (band m c 0 s' M)) as B. rewrite Z.mul_0_l, Z.add_0_r, Z.sub_0_r in B. apply B. exact H1.
Qed.

Section Shown.
Context (w h : Z) (col : pixel -> Z) (v : Z) (sym : Z -> Z -> bool) (m ox oy : Z) (r : nat).
Notation n := (symbol_size v).
Notation E := (symbol_size v * m - 1).
Context (Sh : legible w h col v sym m ox oy r).
Notation at_ := (place r E ox oy).

Lemma size_v : n = 17 + 4 * v.
Proof using. reflexivity. Qed.

Lemma place_square s t : in_square n m ox oy (at_ s t) <-> 0 <= s < n * m /\ 0 <= t < n * m.
Proof using Sh. unfold in_square, place. destruct r as [|[|[|r']]]; cbn [dir_a dir_b org_x org_y fst snd]; lia. Qed.

Lemma place_module s t : module_at r n m ox oy (at_ s t) = (t / m, s / m).
Proof using Sh.
  pose proof (lg_unit _ _ _ _ _ _ _ _ _ Sh) as M. unfold module_at, turned, place.
  destruct r as [|[|[|r']]]; cbn [dir_a dir_b org_x org_y fst snd]; f_equal.
  - f_equal. lia.
  - f_equal. lia.
  - replace (ox + (n * m - 1) + s * 0 - t * 1 - ox) with (n * m - 1 - t) by ring. rewrite div_back by exact M. ring.
  - f_equal. ring.
  - replace (oy + (n * m - 1) + s * 0 + t * -1 - oy) with (n * m - 1 - t) by ring. rewrite div_back by exact M. ring.
  - replace (ox + (n * m - 1) + s * -1 - t * 0 - ox) with (n * m - 1 - s) by ring. rewrite div_back by exact M. ring.
  - f_equal. ring.
  - replace (oy + (n * m - 1) + s * -1 + t * 0 - oy) with (n * m - 1 - s) by ring. rewrite div_back by exact M. ring.
Qed.

Lemma place_inside s t : 0 <= s < n * m -> 0 <= t < n * m -> inside w h (at_ s t).
Proof using Sh.
  destruct Sh as [M L T R B _ _]. unfold inside, place. intros Hs Ht.
  destruct r as [|[|[|r']]]; cbn [dir_a dir_b org_x org_y fst snd]; lia.
Qed.

(** The pixels whose colour is right: those of the function patterns and those in the middle of a module. *)
Definition seen (s t : Z) : Prop := pattern_module v (t / m) (s / m) \/ central m s /\ central m t.

Lemma central_back z : central m (n * m - 1 - z) <-> central m z.
Proof using Sh.
  pose proof (lg_unit _ _ _ _ _ _ _ _ _ Sh) as M. unfold central.
  replace ((n * m - 1 - z) mod m) with (m - 1 - z mod m); [lia|].
  pose proof (Z.div_mod z m ltac:(lia)) as D. apply Z.mod_unique with (q := n - 1 - z / m).
  - pose proof (Z.mod_pos_bound z m ltac:(lia)). lia.
  - nia.
Qed.

Lemma place_middle s t : in_middle m ox oy (at_ s t) <-> central m s /\ central m t.
Proof using Sh.
  pose proof central_back as Cb. unfold in_middle, place. destruct r as [|[|[|r']]]; cbn [dir_a dir_b org_x org_y fst snd].
  - replace (ox + s * 1 - t * 0 - ox) with s by ring. replace (oy + s * 0 + t * 1 - oy) with t by ring. tauto.
  - replace (ox + E + s * 0 - t * 1 - ox) with (E - t) by ring. replace (oy + s * 1 + t * 0 - oy) with s by ring. rewrite Cb. tauto.
  - replace (ox + E + s * -1 - t * 0 - ox) with (E - s) by ring. replace (oy + E + s * 0 + t * -1 - oy) with (E - t) by ring. rewrite !Cb. tauto.
  - replace (ox + s * 0 - t * -1 - ox) with t by ring. replace (oy + E + s * -1 + t * 0 - oy) with (E - s) by ring. rewrite Cb. tauto.
Qed.

Lemma place_dark s t : 0 <= s < n * m -> 0 <= t < n * m -> seen s t -> (col (at_ s t) <> 0 <-> sym (t / m) (s / m) = true).
Proof using Sh.
  intros Hs Ht Sn. pose proof (lg_module _ _ _ _ _ _ _ _ _ Sh (at_ s t)) as D. cbv zeta in D. rewrite place_module, place_middle in D. cbn [fst snd] in D.
  apply D; [|exact Sn]. apply place_square. lia.
Qed.

Lemma place_quiet s t s' t' : inside w h (at_ s t) -> ~ (0 <= s < n * m /\ 0 <= t < n * m) -> in_finder v m ox oy r (at_ s' t') ->
  Z.abs (s - s') <= 1 -> Z.abs (t - t') <= 1 -> col (at_ s t) = 0.
Proof using Sh.
  intros I N Fi Hs Ht. apply (lg_quiet _ _ _ _ _ _ _ _ _ Sh _ (at_ s' t')); [exact I| |exact Fi| |].
  - rewrite place_square. exact N.
  - unfold place. destruct r as [|[|[|r']]]; cbn [dir_a dir_b org_x org_y fst snd]; lia.
  - unfold place. destruct r as [|[|[|r']]]; cbn [dir_a dir_b org_x org_y fst snd]; lia.
Qed.

(** The upper left pixel (in the picture) of the square of 7 by 7 modules whose first module
    is in column [c] and row [d]. *)
Definition corner_px (c d : Z) : pixel :=
  match r with
  | O => at_ (c * m) (d * m)
  | 1%nat => at_ (c * m) (d * m + 7 * m - 1)
  | 2%nat => at_ (c * m + 7 * m - 1) (d * m + 7 * m - 1)
  | _ => at_ (c * m + 7 * m - 1) (d * m)
  end.

Lemma corner_box c d k s t : box (fst (corner_px c d) + k) (snd (corner_px c d) + k) (7 * m - 2 * k) (at_ s t) <->
  c * m + k <= s < c * m + 7 * m - k /\ d * m + k <= t < d * m + 7 * m - k.
Proof using Sh.
  unfold box, corner_px, place. generalize (c * m) (d * m) (n * m). intros cm dm nm.
  destruct r as [|[|[|r']]]; cbn [dir_a dir_b org_x org_y fst snd]; lia.
Qed.

Definition corners3 : list (Z * Z) := [(0, 0); (n - 7, 0); (0, n - 7)].

Lemma centres3 c d : In (c, d) corners3 <-> In (d + 3, c + 3) (finder_centres v).
Proof using Sh.
  unfold corners3, finder_centres. cbv zeta. cbn [In]. split.
  - intros [H|[H|[H|[]]]]; injection H as <- <-; [left|right; left|right; right; left]; f_equal; lia.
  - intros [H|[H|[H|[]]]]; injection H as H1 H2; [left|right; left|right; right; left]; f_equal; lia.
Qed.

Context (Hv : 1 <= v <= 40) (Fp : function_patterns v sym).

Lemma corner_square c d : In (c, d) corners3 -> finder_square w h col m (fst (corner_px c d)) (snd (corner_px c d)).
Proof using Sh Hv Fp.
  intros Hc. pose proof (lg_unit _ _ _ _ _ _ _ _ _ Sh) as M. pose proof size_v as Sz.
  assert (Rg : 0 <= c * m /\ c * m + 7 * m <= n * m /\ 0 <= d * m /\ d * m + 7 * m <= n * m).
  { unfold corners3 in Hc. cbn [In] in Hc. destruct Hc as [H|[H|[H|[]]]]; injection H as <- <-; nia. }
  apply centres3 in Hc.
  assert (Box0 : forall s t, box (fst (corner_px c d)) (snd (corner_px c d)) (7 * m) (at_ s t) <-> c * m <= s < c * m + 7 * m /\ d * m <= t < d * m + 7 * m).
  { intros s t. pose proof (corner_box c d 0 s t) as B. rewrite !Z.add_0_r, Z.mul_0_r, !Z.sub_0_r in B. exact B. }
  constructor.
  - exact M.
  - destruct Sh as [_ L T R B _ _]. unfold corner_px, place. revert Rg. generalize (c * m) (d * m) (n * m). intros. destruct r as [|[|[|r']]]; cbn [dir_a dir_b org_x org_y fst snd]; lia.
  - destruct Sh as [_ L T R B _ _]. unfold corner_px, place. revert Rg. generalize (c * m) (d * m) (n * m). intros. destruct r as [|[|[|r']]]; cbn [dir_a dir_b org_x org_y fst snd]; lia.
  - destruct Sh as [_ L T R B _ _]. unfold corner_px, place. revert Rg R. generalize (c * m) (d * m) (n * m). intros. destruct r as [|[|[|r']]]; cbn [dir_a dir_b org_x org_y fst snd]; lia.
  - destruct Sh as [_ L T R B _ _]. unfold corner_px, place. revert Rg B. generalize (c * m) (d * m) (n * m). intros. destruct r as [|[|[|r']]]; cbn [dir_a dir_b org_x org_y fst snd]; lia.
  - intros q Hq. rewrite <- (place_parts r E ox oy q) in Hq |- *.
    set (s := row_part r E ox oy q) in *. set (t := col_part r E ox oy q) in *. apply Box0 in Hq.
    assert (Sn : seen s t).
    { left. left. exists (d + 3), (c + 3). split; [exact Hc|]. pose proof (proj1 (band m c 0 s M)) as Sa. pose proof (proj1 (band m d 0 t M)) as Ta.
      unfold ring_no. clear - Hq Sa Ta. lia. }
    rewrite place_dark by (exact Sn || lia). unfold ring, stone. clear Sn.
    pose proof (corner_box c d m s t) as B1. pose proof (corner_box c d (2 * m) s t) as B2.
    replace (5 * m) with (7 * m - 2 * m) by ring. replace (3 * m) with (7 * m - 2 * (2 * m)) by ring. rewrite B1, B2, Box0. clear B1 B2 Box0 Rg.
    pose proof (fp_finder _ _ Fp (d + 3) (c + 3) (t / m - (d + 3)) (s / m - (c + 3)) Hc) as Ff.
    replace (d + 3 + (t / m - (d + 3))) with (t / m) in Ff by ring. replace (c + 3 + (s / m - (c + 3))) with (s / m) in Ff by ring.
    pose proof (band m c 0 s M) as Sa. pose proof (band m c 1 s M) as Sb. pose proof (band m c 2 s M) as Sc.
    pose proof (band m d 0 t M) as Ta. pose proof (band m d 1 t M) as Tb. pose proof (band m d 2 t M) as Tc.
    rewrite Z.mul_0_l, Z.add_0_r, Z.sub_0_r in Sa, Ta. rewrite Z.mul_1_l in Sb, Tb.
    rewrite Sa, Ta in Hq |- *. rewrite Sb, Tb, Sc, Tc. clear Sa Sb Sc Ta Tb Tc.
    unfold finder_dark, ring_no in *. revert Hq Ff. generalize (Z.abs (t / m - (d + 3))) (Z.abs (s / m - (c + 3))). clear.
    intros U V Hq Ff. rewrite Ff by lia. clear Ff.
    destruct (Z.eqb_spec (Z.max U V) 2); cbn [negb]; split; intros Q; try discriminate; try reflexivity; lia.
  - intros q I Hq Nq. rewrite <- (place_parts r E ox oy q) in I, Hq, Nq |- *.
    set (s := row_part r E ox oy q) in *. set (t := col_part r E ox oy q) in *. rewrite Box0 in Nq.
    pose proof (corner_box c d (-1) s t) as B1. replace (7 * m - 2 * -1) with (7 * m + 2) in B1 by ring.
    change (fst (corner_px c d) + -1) with (fst (corner_px c d) - 1) in B1. change (snd (corner_px c d) + -1) with (snd (corner_px c d) - 1) in B1.
    apply B1 in Hq. clear B1.
    assert (Out : ~ (0 <= s < n * m /\ 0 <= t < n * m) -> col (at_ s t) = 0).
    { intros N. destruct (clamp m c s M ltac:(clear - Hq; lia)) as (s' & Hs' & As & Rs). destruct (clamp m d t M ltac:(clear - Hq; lia)) as (t' & Ht' & At & Rt).
      apply (place_quiet s t s' t' I N); [|exact As|exact At].
      split; [apply place_square; clear - Rg Hs' Ht'; lia|]. exists (d + 3), (c + 3). split; [exact Hc|]. rewrite place_module. cbn [fst snd].
      unfold ring_no. clear - Rs Rt. lia. }
    destruct (Z_lt_dec s 0) as [S0|S0]; [apply Out; lia|].
    destruct (Z_lt_dec t 0) as [T0|T0]; [apply Out; lia|].
    destruct (Z_lt_dec s (n * m)) as [S1|S1]; [|apply Out; lia].
    destruct (Z_lt_dec t (n * m)) as [T1|T1]; [|apply Out; lia]. clear Out.
    assert (Sn : seen s t).
    { left. left. exists (d + 3), (c + 3). split; [exact Hc|]. pose proof (proj1 (band m c (-1) s M)) as Sa. pose proof (proj1 (band m d (-1) t M)) as Ta.
      unfold ring_no. clear - Hq M Sa Ta. lia. }
    destruct (Z.eq_dec (col (at_ s t)) 0) as [Q|Q]; [exact Q|]. exfalso. apply place_dark in Q; [|lia|lia|exact Sn]. clear Sn.
    assert (Qs : 0 <= s / m < n) by (pose proof (ge_div m 0 s M); pose proof (lt_div m n s M); clear - S0 S1 H H0; lia).
    assert (Qt : 0 <= t / m < n) by (pose proof (ge_div m 0 t M); pose proof (lt_div m n t M); clear - T0 T1 H H0; lia).
    pose proof (fp_separator _ _ Fp (d + 3) (c + 3) (t / m - (d + 3)) (s / m - (c + 3)) Hc) as Ff.
    replace (d + 3 + (t / m - (d + 3))) with (t / m) in Ff by ring. replace (c + 3 + (s / m - (c + 3))) with (s / m) in Ff by ring.
    assert (Ws : Z.abs (s / m - (c + 3)) <= 4) by (apply (band m c (-1) s M); clear - Hq M; lia).
    assert (Wt : Z.abs (t / m - (d + 3)) <= 4) by (apply (band m d (-1) t M); clear - Hq M; lia).
    pose proof (band m c 0 s M) as Sa. pose proof (band m d 0 t M) as Ta.
    rewrite Z.mul_0_l, Z.add_0_r, Z.sub_0_r in Sa, Ta. rewrite Sa, Ta in Nq. clear Sa Ta.
    rewrite Ff in Q; [discriminate| |exact Qt|exact Qs]. unfold ring_no. revert Nq Ws Wt. clear. lia.
Qed.

Definition squares3 : list pixel := map (fun p => corner_px (fst p) (snd p)) corners3.

Lemma in_squares s : In s squares3 <-> exists c d, In (c, d) corners3 /\ s = corner_px c d.
Proof using Sh Hv Fp.
  unfold squares3. rewrite in_map_iff. split.
  - intros ([c d] & <- & H). exists c, d. auto.
  - intros (c & d & H & ->). exists (c, d). auto.
Qed.

Lemma box_part c d s t : box (fst (corner_px c d)) (snd (corner_px c d)) (7 * m) (at_ s t) <-> c * m <= s < c * m + 7 * m /\ d * m <= t < d * m + 7 * m.
Proof using Sh Hv Fp. pose proof (corner_box c d 0 s t) as B. rewrite !Z.add_0_r, Z.mul_0_r, !Z.sub_0_r in B. exact B. Qed.

Lemma squares_apart s s' q : In s squares3 -> In s' squares3 -> box (fst s) (snd s) (7 * m) q -> box (fst s') (snd s') (7 * m) q -> s = s'.
Proof using Sh Hv Fp.
  pose proof (lg_unit _ _ _ _ _ _ _ _ _ Sh) as M. pose proof size_v as Sz. assert (A : 7 * m <= (n - 7) * m) by nia.
  rewrite !in_squares. intros (c & d & Hc & ->) (c' & d' & Hc' & ->). rewrite <- (place_parts r E ox oy q), !box_part.
  unfold corners3 in *. cbn [In] in *.
  destruct Hc as [H1|[H1|[H1|[]]]]; injection H1 as <- <-; destruct Hc' as [H2|[H2|[H2|[]]]]; injection H2 as <- <-; intros; try reflexivity; exfalso; lia.
Qed.

Lemma squares_nodup : NoDup squares3.
Proof using Sh Hv Fp.
  pose proof (lg_unit _ _ _ _ _ _ _ _ _ Sh) as M. pose proof size_v as Sz. assert (A : 7 * m <= (n - 7) * m) by nia.
  assert (Ne : forall c d c' d', c * m <> c' * m \/ d * m <> d' * m -> corner_px c d <> corner_px c' d').
  { intros c d c' d' N Q. apply (f_equal fst) in Q as Q1. apply (f_equal snd) in Q as Q2. clear Q.
    unfold corner_px, place in Q1, Q2. destruct r as [|[|[|r']]]; cbn [dir_a dir_b org_x org_y fst snd] in Q1, Q2; lia. }
  unfold squares3, corners3. cbn [map fst snd]. repeat constructor; cbn [In].
  - intros [Q|[Q|[]]]; revert Q; apply Ne; lia.
  - intros [Q|[]]; revert Q; apply Ne; lia.
  - auto.
Qed.

Lemma finder_in_square q : in_finder v m ox oy r q -> exists s, In s squares3 /\ box (fst s) (snd s) (7 * m) q.
Proof using Sh Hv Fp.
  pose proof (lg_unit _ _ _ _ _ _ _ _ _ Sh) as M. intros (Iq & cy & cx & Hc & Rn).
  rewrite <- (place_parts r E ox oy q) in Iq, Rn |- *. set (s := row_part r E ox oy q) in *. set (t := col_part r E ox oy q) in *.
  rewrite place_module in Rn. cbn [fst snd] in Rn.
  exists (corner_px (cx - 3) (cy - 3)). split.
  - apply in_squares. exists (cx - 3), (cy - 3). split; [|reflexivity]. apply centres3. replace (cy - 3 + 3) with cy by ring. replace (cx - 3 + 3) with cx by ring. exact Hc.
  - apply box_part. unfold ring_no in Rn.
    pose proof (ge_div m (cx - 3) s M). pose proof (lt_div m (cx - 3 + 7) s M). pose proof (ge_div m (cy - 3) t M). pose proof (lt_div m (cy - 3 + 7) t M). lia.
Qed.
End Shown.

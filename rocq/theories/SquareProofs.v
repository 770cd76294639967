(** A finder pattern drawn with square modules: its regions, how rows cross it, its corners. *)
From Verif Require Import Base Lib SpecImage SpecScan SpecFinder ModelImage ModelGeometry ModelDetect FloodProofs CornerProofs.
Open Scope Z_scope.
Set Bullet Behavior "Strict Subproofs".

(** * Boxes *)

Definition box (x y n : Z) (q : pixel) : Prop := x <= fst q < x + n /\ y <= snd q < y + n.

Lemma box_dec x y n q : box x y n q \/ ~ box x y n q.
Proof. unfold box. lia. Qed.

Lemma walk_right (S : pixel -> Prop) y a : forall n, 0 <= n -> (forall x, a <= x <= a + n -> S (x, y)) -> linked S (a, y) (a + n, y).
Proof.
  apply (natlike_ind (fun n => (forall x, a <= x <= a + n -> S (x, y)) -> linked S (a, y) (a + n, y))).
  - intros H. rewrite Z.add_0_r. constructor. apply H. lia.
  - intros n Hn IH H. eapply linked_step; [apply IH; intros x Hx; apply H; lia|unfold adjacent; cbn; lia|apply H; lia].
Qed.

Lemma walk_down (S : pixel -> Prop) x a : forall n, 0 <= n -> (forall y, a <= y <= a + n -> S (x, y)) -> linked S (x, a) (x, a + n).
Proof.
  apply (natlike_ind (fun n => (forall y, a <= y <= a + n -> S (x, y)) -> linked S (x, a) (x, a + n))).
  - intros H. rewrite Z.add_0_r. constructor. apply H. lia.
  - intros n Hn IH H. eapply linked_step; [apply IH; intros y Hy; apply H; lia|unfold adjacent; cbn; lia|apply H; lia].
Qed.

Lemma walk_row (S : pixel -> Prop) y a b : a <= b -> (forall x, a <= x <= b -> S (x, y)) -> linked S (a, y) (b, y).
Proof. intros L H. replace b with (a + (b - a)) by ring. apply walk_right; [lia|]. intros x Hx. apply H. lia. Qed.

Lemma walk_col (S : pixel -> Prop) x a b : a <= b -> (forall y, a <= y <= b -> S (x, y)) -> linked S (x, a) (x, b).
Proof. intros L H. replace b with (a + (b - a)) by ring. apply walk_down; [lia|]. intros y Hy. apply H. lia. Qed.

(** * Areas *)

Lemma box_area x y n : 0 <= n -> area (box x y n) (n * n).
Proof.
  intros Hn. exists (flat_map (fun r => segment x (x + n - 1) r) (zrange y (y + n))).
  assert (L : forall k a, length (flat_map (fun r => segment x (x + n - 1) r) (zrange a (a + Z.of_nat k))) = (k * Z.to_nat n)%nat).
  { induction k as [|k IH]; intros a.
    - rewrite Z.add_0_r. unfold zrange. rewrite Z.sub_diag. reflexivity.
    - replace (zrange a (a + Z.of_nat (Datatypes.S k))) with (a :: zrange (a + 1) (a + 1 + Z.of_nat k)).
      + cbn [flat_map]. rewrite app_length, IH. unfold segment. rewrite map_length, seq_length.
        replace (x + n - 1 + 1 - x) with n by lia. lia.
      + rewrite (@zrange_app a (a + 1) (a + Z.of_nat (Datatypes.S k))) by lia.
        replace (a + 1 + Z.of_nat k) with (a + Z.of_nat (Datatypes.S k)) by lia.
        replace (zrange a (a + 1)) with [a]; [reflexivity|].
        unfold zrange. replace (Z.to_nat (a + 1 - a)) with 1%nat by lia. cbn. f_equal. lia. }
  split; [|split].
  - assert (G : forall l : list Z, NoDup l -> NoDup (flat_map (fun r => segment x (x + n - 1) r) l)).
    { induction l as [|a l IH]; intros D; [constructor|]. cbn [flat_map]. inversion D as [|? ? Na Dl]; subst.
      apply NoDup_app_intro; [apply segment_nodup|apply IH; exact Dl|].
      intros q H1 H2. apply in_segment in H1 as [E1 _]. apply in_flat_map in H2 as (r & Hr & H2). apply in_segment in H2 as [E2 _].
      apply Na. replace a with r by lia. exact Hr. }
    apply G. unfold zrange. apply FinFun.Injective_map_NoDup; [|apply seq_NoDup]. intros i j E. lia.
  - intros q. rewrite in_flat_map. unfold box. split.
    + intros (r & Hr & Hq). apply in_zrange in Hr. apply in_segment in Hq as [E H]. lia.
    + intros [H1 H2]. exists (snd q). split; [apply in_zrange; lia|apply in_segment; lia].
  - replace (y + n) with (y + Z.of_nat (Z.to_nat n)) by lia. rewrite L. nia.
Qed.

Lemma area_diff (P Q : pixel -> Prop) a b : area P a -> area Q b -> (forall q, Q q -> P q) -> (forall q, P q -> Q q \/ ~ Q q) ->
  area (fun q => P q /\ ~ Q q) (a - b).
Proof.
  intros (l & Dl & Il & <-) (k & Dk & Ik & <-) Sub Dec.
  set (dec := fun (u v : pixel) => ltac:(destruct u as [a b], v as [c d]; destruct (Z.eq_dec a c); [destruct (Z.eq_dec b d); [left; congruence|right; congruence]|right; congruence]) : {u = v} + {u <> v}).
  set (f := fun q => if in_dec dec q k then false else true).
  exists (filter f l). split; [apply NoDup_filter; exact Dl|]. split.
  - intros q. rewrite filter_In, Il. unfold f. destruct (in_dec dec q k) as [H|H]; rewrite Ik in H; intuition congruence.
  - assert (Q1 : length (filter (fun q => negb (f q)) l) = length k).
    { apply Nat.le_antisymm.
      - apply NoDup_incl_length; [apply NoDup_filter; exact Dl|]. intros q H. apply filter_In in H as [_ H]. unfold f in H.
        destruct (in_dec dec q k); [assumption|discriminate].
      - apply NoDup_incl_length; [exact Dk|]. intros q H. apply filter_In. split; [apply Il, Sub, Ik, H|].
        unfold f. destruct (in_dec dec q k); [reflexivity|contradiction]. }
    assert (T : (length (filter f l) + length (filter (fun q => negb (f q)) l) = length l)%nat).
    { clear. induction l as [|q l IH]; [reflexivity|]. cbn [filter]. destruct (f q); cbn [negb length]; lia. }
    lia.
Qed.

(** * The pattern *)

Section Square.
Context (w h : Z) (col : pixel -> Z) (m x0 y0 : Z).

Definition ring (q : pixel) : Prop := box x0 y0 (7 * m) q /\ ~ box (x0 + m) (y0 + m) (5 * m) q.
Definition stone (q : pixel) : Prop := box (x0 + 2 * m) (y0 + 2 * m) (3 * m) q.

Record finder_square : Prop := {
  fs_unit : 1 <= m;
  fs_left : 0 <= x0;
  fs_top : 0 <= y0;
  fs_right : x0 + 7 * m <= w;
  fs_bottom : y0 + 7 * m <= h;
  fs_dark : forall q, box x0 y0 (7 * m) q -> (col q <> 0 <-> ring q \/ stone q);
  fs_around : forall q, inside w h q -> box (x0 - 1) (y0 - 1) (7 * m + 2) q -> ~ box x0 y0 (7 * m) q -> col q = 0
}.

Context (F : finder_square).

Lemma in_pattern q : box x0 y0 (7 * m) q -> inside w h q.
Proof using F. destruct F as [? ? ? ? ? _ _]. unfold box, inside. lia. Qed.

Lemma ring_in q : ring q -> inside w h q /\ col q <> 0.
Proof using F. intros [B N]. split; [apply in_pattern; exact B|]. apply (fs_dark F q B). left. split; assumption. Qed.

Lemma stone_box q : stone q -> box x0 y0 (7 * m) q.
Proof using F. destruct F as [? ? ? ? ? _ _]. unfold stone, box. lia. Qed.

Lemma stone_in q : stone q -> inside w h q /\ col q <> 0.
Proof using F. intros B. pose proof (stone_box q B) as B'. split; [apply in_pattern; exact B'|]. apply (fs_dark F q B'). right. exact B. Qed.

(** A dark pixel next to the pattern belongs to it. *)
Lemma dark_near q r : box x0 y0 (7 * m) q -> adjacent q r -> inside w h r -> col r <> 0 -> ring r \/ stone r.
Proof using F.
  intros B A I D. destruct (box_dec x0 y0 (7 * m) r) as [B'|B']; [apply (fs_dark F r B'); exact D|].
  exfalso. apply D. apply (fs_around F r I); [|exact B']. unfold box, adjacent in *. lia.
Qed.

Lemma ring_not_stone q : ring q -> ~ stone q.
Proof using F. destruct F as [? ? ? ? ? _ _]. unfold ring, stone, box. lia. Qed.

Lemma ring_apart q r : ring q -> stone r -> ~ adjacent q r.
Proof using F. destruct F as [? ? ? ? ? _ _]. unfold ring, stone, box, adjacent. lia. Qed.

Lemma ring_linked q : ring q -> linked (fun r => inside w h r /\ col r <> 0) (x0, y0) q.
Proof using F.
  pose proof (fs_unit F) as M. intros R. apply linked_ext with (S := ring); [exact ring_in|].
  destruct q as [x y]. assert (R' := R). unfold ring, box in R'. cbn [fst snd] in R'.
  destruct (Z.lt_ge_cases y (y0 + m)); [|destruct (Z.lt_ge_cases x (x0 + m)); [|destruct (Z.le_gt_cases (y0 + 6 * m) y)]].
  - apply linked_trans with (q := (x0, y)).
    + apply walk_col; [lia|]. intros z Hz. unfold ring, box. cbn [fst snd]. lia.
    + apply walk_row; [lia|]. intros z Hz. unfold ring, box. cbn [fst snd]. lia.
  - apply linked_trans with (q := (x, y0)).
    + apply walk_row; [lia|]. intros z Hz. unfold ring, box. cbn [fst snd]. lia.
    + apply walk_col; [lia|]. intros z Hz. unfold ring, box. cbn [fst snd]. lia.
  - apply linked_trans with (q := (x0, y)).
    + apply walk_col; [lia|]. intros z Hz. unfold ring, box. cbn [fst snd]. lia.
    + apply walk_row; [lia|]. intros z Hz. unfold ring, box. cbn [fst snd]. lia.
  - apply linked_trans with (q := (x, y0)).
    + apply walk_row; [lia|]. intros z Hz. unfold ring, box. cbn [fst snd]. lia.
    + apply walk_col; [lia|]. intros z Hz. unfold ring, box. cbn [fst snd]. lia.
Qed.

Lemma ring_blob p q : ring p -> (blob w h col p q <-> ring q).
Proof using F.
  intros R. split; intros H.
  - revert H. apply linked_closed; [exact R|]. intros a b Ra _ [Ib Db] A.
    destruct (dark_near a b (proj1 Ra) A Ib Db) as [Rb|Sb]; [exact Rb|]. exfalso. exact (ring_apart a b Ra Sb A).
  - unfold blob. apply linked_trans with (q := (x0, y0)); [apply linked_sym|]; apply ring_linked; assumption.
Qed.

Lemma stone_linked q : stone q -> linked (fun r => inside w h r /\ col r <> 0) (x0 + 2 * m, y0 + 2 * m) q.
Proof using F.
  pose proof (fs_unit F) as M. intros R. apply linked_ext with (S := stone); [exact stone_in|].
  destruct q as [x y]. unfold stone, box in R. cbn [fst snd] in R.
  apply linked_trans with (q := (x, y0 + 2 * m)).
  - apply walk_row; [lia|]. intros z Hz. unfold stone, box. cbn [fst snd]. lia.
  - apply walk_col; [lia|]. intros z Hz. unfold stone, box. cbn [fst snd]. lia.
Qed.

Lemma stone_blob p q : stone p -> (blob w h col p q <-> stone q).
Proof using F.
  intros R. split; intros H.
  - revert H. apply linked_closed; [exact R|]. intros a b Ra _ [Ib Db] A.
    destruct (dark_near a b (stone_box a Ra) A Ib Db) as [Rb|Sb]; [|exact Sb]. exfalso. exact (ring_apart b a Rb Ra (adjacent_sym _ _ A)).
  - unfold blob. apply linked_trans with (q := (x0 + 2 * m, y0 + 2 * m)); [apply linked_sym|]; apply stone_linked; assumption.
Qed.

Lemma ring_area : area ring (24 * (m * m)).
Proof using F.
  pose proof (fs_unit F) as M. replace (24 * (m * m)) with (7 * m * (7 * m) - 5 * m * (5 * m)) by ring.
  apply area_diff; [apply box_area; lia|apply box_area; lia| |].
  - intros q. unfold box. lia.
  - intros q _. apply box_dec.
Qed.

Lemma stone_area : area stone (9 * (m * m)).
Proof using F. pose proof (fs_unit F) as M. replace (9 * (m * m)) with (3 * m * (3 * m)) by ring. apply box_area. lia. Qed.

(** The rows through the stone cross the pattern as the search expects. *)
Lemma crossed y : y0 + 2 * m <= y < y0 + 5 * m -> finder_at w h col y x0 (x0 + 2 * m) (x0 + 6 * m).
Proof using F.
  intros Hy. pose proof (fs_unit F) as M. pose proof (fs_left F). pose proof (fs_top F). pose proof (fs_right F). pose proof (fs_bottom F).
  assert (Rr : ring (x0 + 6 * m, y)) by (unfold ring, box; cbn [fst snd]; lia).
  assert (Rl : ring (x0, y)) by (unfold ring, box; cbn [fst snd]; lia).
  assert (St : stone (x0 + 2 * m, y)) by (unfold stone, box; cbn [fst snd]; lia).
  assert (Rg : forall x, ring (x, y) -> col (x, y) <> 0) by (intros x Hx; apply ring_in; exact Hx).
  assert (Wh : forall x, x0 <= x < x0 + 7 * m -> ~ ring (x, y) -> ~ stone (x, y) -> col (x, y) = 0).
  { intros x Hx N1 N2. destruct (Z.eq_dec (col (x, y)) 0) as [E|N]; [exact E|]. exfalso.
    apply (fs_dark F (x, y)) in N; [tauto|]. unfold box. cbn [fst snd]. lia. }
  split; [lia|]. split.
  - exists (x0 + 7 * m), m, m, (3 * m), m, m. repeat (split; [lia|]).
    split. { intros x Hx. apply Rg. unfold ring, box. cbn [fst snd]. lia. }
    split. { intros x Hx. apply Wh; [lia| |]; unfold ring, stone, box; cbn [fst snd]; lia. }
    split. { intros x Hx. apply stone_in. unfold stone, box. cbn [fst snd]. lia. }
    split. { intros x Hx. apply Wh; [lia| |]; unfold ring, stone, box; cbn [fst snd]; lia. }
    split. { intros x Hx. apply Rg. unfold ring, box. cbn [fst snd]. lia. }
    split. { destruct (Z.eq_dec x0 0) as [E|N]; [left; exact E|right]. apply (fs_around F); unfold inside, box; cbn [fst snd]; lia. }
    split. { destruct (Z.eq_dec (x0 + 7 * m) w) as [E|N]; [left; exact E|right]. apply (fs_around F); unfold inside, box; cbn [fst snd]; lia. }
    unfold finder_ratio. replace (m + m + m + m) with (m * 4) by ring. rewrite Z.div_mul by lia.
    pose proof (Z.div_pos (m * 3) 4 ltac:(lia) ltac:(lia)). cbv zeta. lia.
  - split; [apply ring_blob; assumption|]. split.
    { intros B. apply (ring_blob _ _ Rr) in B. exact (ring_not_stone _ B St). }
    exists (24 * (m * m)), (9 * (m * m)).
    split; [apply (area_ext ring); [intros q; symmetry; apply ring_blob; exact Rr|exact ring_area]|].
    split; [apply (area_ext stone); [intros q; symmetry; apply stone_blob; exact St|exact stone_area]|].
    replace (9 * (m * m) * 100) with (12 * (m * m) + 37 * (24 * (m * m))) by ring.
    rewrite Z.div_add by nia. rewrite Z.div_small by nia. lia.
Qed.

(** Nothing else in the pattern does. *)
Lemma crossed_only y left st right : finder_at w h col y left st right -> box x0 y0 (7 * m) (right, y) ->
  left = x0 /\ st = x0 + 2 * m /\ right = x0 + 6 * m /\ y0 + 2 * m <= y < y0 + 5 * m.
Proof using F.
  intros (Hy & (stop & n1 & n2 & n3 & n4 & n5 & N1 & N2 & N3 & N4 & N5 & L0 & Es & Er & Ep & Lw & D1 & W2 & D3 & W4 & D5 & El & _) & B & _) Bx.
  pose proof (fs_unit F) as M. pose proof (fs_left F). pose proof (fs_top F). pose proof (fs_right F). pose proof (fs_bottom F).
  assert (Rg : forall x, ring (x, y) -> col (x, y) <> 0) by (intros x Hx; apply ring_in; exact Hx).
  assert (Sg : forall x, stone (x, y) -> col (x, y) <> 0) by (intros x Hx; apply stone_in; exact Hx).
  pose proof (W2 (left + n1) ltac:(lia)) as Wa. pose proof (W4 (right - 1) ltac:(lia)) as Wb. pose proof (D3 st ltac:(lia)) as Ds.
  pose proof (D5 right ltac:(lia)) as Dr. apply (fs_dark F _ Bx) in Dr. destruct Dr as [Rr|Sr].
  - apply (ring_blob _ _ Rr) in B.
    assert (A1 : ~ ring (left + n1, y)) by (intros R; apply Rg in R; contradiction).
    assert (A2 : ~ ring (right - 1, y)) by (intros R; apply Rg in R; contradiction).
    assert (A4 : left = 0 \/ ~ ring (left - 1, y)) by (destruct El as [E|E]; [left; exact E|right; intros R; apply Rg in R; contradiction]).
    assert (A5 : right = x0 + 6 * m /\ left = x0 /\ y0 + m <= y < y0 + 6 * m).
    { unfold ring, box in Rr, B, A1, A2, A4. cbn [fst snd] in Rr, B, A1, A2, A4. lia. }
    destruct A5 as (-> & -> & Hm).
    assert (Bs : box x0 y0 (7 * m) (st, y)) by (unfold box; cbn [fst snd]; lia).
    apply (fs_dark F _ Bs) in Ds.
    assert (A6 : ~ ring (st - 1, y)) by (intros R; apply Rg in R; apply R; apply W2; lia).
    assert (A7 : ~ stone (st - 1, y)) by (intros R; apply Sg in R; apply R; apply W2; lia).
    unfold ring, stone, box in Ds, A6, A7. cbn [fst snd] in Ds, A6, A7.
    assert (A8 : st < x0 + 6 * m) by lia. assert (A9 : x0 + 1 <= st) by lia. lia.
  - apply (stone_blob _ _ Sr) in B. exfalso. apply (Sg (right - 1)); [|exact Wb].
    assert (Q : ~ stone (left + n1, y)) by (intros R; apply Sg in R; contradiction).
    unfold stone, box in *. cbn [fst snd] in *. lia.
Qed.

(** The corners of the ring as the search determines them. *)
Lemma ring_corners y k : y0 + 2 * m <= y < y0 + 5 * m -> corners_of ring (x0 + 6 * m, y) k ->
  let L := 7 * m - 1 in
  k = Corners (MkPoint x0 y0) (MkPoint (x0 + L) y0) (MkPoint (x0 + L) (y0 + L)) (MkPoint x0 (y0 + L))
  \/ k = Corners (MkPoint x0 (y0 + L)) (MkPoint x0 y0) (MkPoint (x0 + L) y0) (MkPoint (x0 + L) (y0 + L)).
Proof using F.
  intros Hy ([fx fy] & Sc & Far & (q0 & q1 & q2 & q3 & S0 & S1 & S2 & S3 & ->) & Ex) L. cbn [k0 k1 k2 k3] in Ex.
  pose proof (fs_unit F) as M.
  assert (TL : ring (x0, y0)) by (unfold ring, box; cbn [fst snd]; lia).
  assert (TR : ring (x0 + L, y0)) by (unfold ring, box, L; cbn [fst snd]; lia).
  assert (BR : ring (x0 + L, y0 + L)) by (unfold ring, box, L; cbn [fst snd]; lia).
  assert (BL : ring (x0, y0 + L)) by (unfold ring, box, L; cbn [fst snd]; lia).
  destruct q0 as [ax ay], q1 as [bx by_], q2 as [cx cy], q3 as [dx dy].
  assert (FF : fx = x0 /\ (fy = y0 \/ fy = y0 + L)).
  { pose proof (Far _ TL) as F1. pose proof (Far _ BL) as F2. clear Ex. unfold sqdist, pt_of in F1, F2. cbn [px py fst snd] in F1, F2.
    unfold ring, box in Sc. cbn [fst snd] in Sc. destruct Sc as [Sc _]. unfold L in *.
    set (u := fx - x0) in *. set (v := fy - y0) in *. set (d := y - y0) in *.
    replace (fx - (x0 + 6 * m)) with (u - 6 * m) in * by (unfold u; ring). replace (fy - y) with (v - d) in * by (unfold v, d; ring).
    replace (x0 - (x0 + 6 * m)) with (- 6 * m) in * by ring. replace (y0 - y) with (- d) in * by (unfold d; ring).
    replace (y0 + (7 * m - 1) - y) with (7 * m - 1 - d) in * by (unfold d; ring).
    assert (Hu : 0 <= u < 7 * m) by (unfold u; lia). assert (Hv : 0 <= v < 7 * m) by (unfold v; lia). assert (Hd : 2 * m <= d < 5 * m) by (unfold d; lia).
    enough (u = 0 /\ (v = 0 \/ v = 7 * m - 1)) by (unfold u, v in *; lia). clear - F1 F2 Hu Hv Hd M.
    assert (V : (v - d) * (v - d) <= d * d \/ (v - d) * (v - d) <= (7 * m - 1 - d) * (7 * m - 1 - d)).
    { destruct (Z.le_gt_cases v d); [left|right]; nia. }
    assert (U : (u - 6 * m) * (u - 6 * m) <= 36 * (m * m)) by nia.
    assert (U0 : u = 0). { destruct (Z.eq_dec u 0) as [E|N]; [exact E|]. exfalso.
      assert ((u - 6 * m) * (u - 6 * m) < 36 * (m * m)) by nia. destruct V; nia. }
    split; [exact U0|]. subst u. destruct (Z.eq_dec v 0) as [E|N0]; [left; exact E|]. destruct (Z.eq_dec v (7 * m - 1)) as [E|N1]; [right; exact E|]. exfalso.
    destruct (Z.le_gt_cases v d); nia. }
  destruct FF as [-> Fy]. clear Far.
  pose proof (Ex _ TL) as E1. pose proof (Ex _ TR) as E2. pose proof (Ex _ BR) as E3. pose proof (Ex _ BL) as E4. clear Ex.
  unfold par, ort, pt_of in E1, E2, E3, E4. cbn [px py fst snd k0 k1 k2 k3] in E1, E2, E3, E4.
  unfold ring, box in S0, S1, S2, S3. cbn [fst snd] in S0, S1, S2, S3.
  destruct S0 as [S0 _], S1 as [S1 _], S2 as [S2 _], S3 as [S3 _].
  unfold pt_of. cbn [fst snd].
  assert (Corner : forall A B s t, 0 < A -> 0 < B -> 0 <= s -> 0 <= t -> A * s + B * t <= 0 -> s = 0 /\ t = 0) by (clear; intros; nia).
  destruct Fy as [-> | ->]; [left|right].
  - set (B := y - y0) in *. assert (HB : 0 < B) by (unfold B; lia).
    replace (x0 - (x0 + 6 * m)) with (- (6 * m)) in * by ring. replace (y0 - y) with (- B) in * by (unfold B; ring).
    destruct E1 as (E1 & _). destruct E2 as (_ & E2 & _). destruct E3 as (_ & _ & E3 & _). destruct E4 as (_ & _ & _ & E4).
    destruct (Corner (6 * m) B (ax - x0) (ay - y0)) as [X1 Y1]; [lia|lia|lia|lia|nia|].
    destruct (Corner B (6 * m) (x0 + L - bx) (by_ - y0)) as [X2 Y2]; [lia|lia|unfold L; lia|lia|nia|].
    destruct (Corner (6 * m) B (x0 + L - cx) (y0 + L - cy)) as [X3 Y3]; [lia|lia|unfold L; lia|unfold L; lia|nia|].
    destruct (Corner B (6 * m) (dx - x0) (y0 + L - dy)) as [X4 Y4]; [lia|lia|lia|unfold L; lia|nia|].
    f_equal; f_equal; lia.
  - set (B := y0 + L - y) in *. assert (HB : 0 < B) by (unfold B, L; lia).
    replace (x0 - (x0 + 6 * m)) with (- (6 * m)) in * by ring.
    destruct E4 as (E4 & _). destruct E1 as (_ & E1 & _). destruct E2 as (_ & _ & E2 & _). destruct E3 as (_ & _ & _ & E3).
    destruct (Corner (6 * m) B (ax - x0) (y0 + L - ay)) as [X1 Y1]; [lia|lia|lia|unfold L; lia|nia|].
    destruct (Corner B (6 * m) (bx - x0) (by_ - y0)) as [X2 Y2]; [lia|lia|lia|lia|nia|].
    destruct (Corner (6 * m) B (x0 + L - cx) (cy - y0)) as [X3 Y3]; [lia|lia|unfold L; lia|lia|nia|].
    destruct (Corner B (6 * m) (x0 + L - dx) (y0 + L - dy)) as [X4 Y4]; [lia|lia|unfold L; lia|unfold L; lia|nia|].
    f_equal; f_equal; lia.
Qed.

End Square.

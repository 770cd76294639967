(** Pictures drawn on a white background: when nothing else looks like a finder pattern. *)
From Verif Require Import Base Lib SpecQR SpecImage SpecScan SpecFinder SpecPicture.
From Coq Require Import ZifyBool.
Open Scope Z_scope.
Set Bullet Behavior "Strict Subproofs".

Section Render.
Context (n : Z) (sym : Z -> Z -> bool) (m ox oy : Z) (r : nat) (w h : Z).
Context (M : 1 <= m) (N : 1 <= n) (Ox : 0 <= ox) (Oy : 0 <= oy) (Rw : ox + n * m <= w) (Rh : oy + n * m <= h).
Notation pic := (rendered n sym m ox oy r).

Lemma cell a : 0 <= a < n * m -> 0 <= a / m < n.
Proof using M N Ox Oy Rw Rh sym r. intros H. split; [apply Z.div_pos; lia|apply Z.div_lt_upper_bound; lia]. Qed.

Lemma ink_in x y : ox <= x < ox + n * m -> oy <= y < oy + n * m -> ink pic (x, y) = if look r n sym ((y - oy) / m) ((x - ox) / m) then 1 else 0.
Proof using M N Ox Oy Rw Rh sym r.
  intros Hx Hy. unfold ink, rendered. cbn [fst snd].
  replace ((ox <=? x) && (x <? ox + n * m) && (oy <=? y) && (y <? oy + n * m)) with true by (clear - Hx Hy; lia). reflexivity.
Qed.

Lemma ink_out x y : ~ (ox <= x < ox + n * m /\ oy <= y < oy + n * m) -> ink pic (x, y) = 0.
Proof using M N Ox Oy Rw Rh sym r.
  intros H. unfold ink, rendered. cbn [fst snd].
  replace ((ox <=? x) && (x <? ox + n * m) && (oy <=? y) && (y <? oy + n * m)) with false by (clear - H; lia). reflexivity.
Qed.

Lemma rendered_shows : shows w h (ink pic) n sym m ox oy r.
Proof using M N Ox Oy Rw Rh sym r.
  constructor; try assumption.
  - intros [x y] [Hx Hy]. cbn [fst snd] in *. rewrite ink_in by assumption. unfold look, module_at. cbn [fst snd]. destruct (sym _ _); split; intros; (reflexivity || discriminate || lia).
  - intros [x y] _ Hn _ _. apply ink_out. exact Hn.
Qed.

(** A change of colour in a row is a boundary of modules. *)
Lemma boundary x y : ink pic (x - 1, y) <> ink pic (x, y) -> oy <= y < oy + n * m /\ exists i, 0 <= i <= n /\ x = ox + i * m.
Proof using M N Ox Oy Rw Rh sym r.
  intros H. assert (Hy : oy <= y < oy + n * m).
  { destruct (Z_le_gt_dec oy y); [destruct (Z_lt_ge_dec y (oy + n * m)); [lia|]|]; exfalso; apply H; rewrite !ink_out; lia. }
  split; [exact Hy|].
  destruct (Z_le_gt_dec x ox) as [L|L].
  { destruct (Z.eq_dec x ox) as [-> | Q]; [exists 0; split; lia|]. exfalso. apply H. rewrite !ink_out by lia. reflexivity. }
  destruct (Z_lt_ge_dec (ox + n * m) x) as [G|G].
  { exfalso. apply H. rewrite !ink_out by lia. reflexivity. }
  destruct (Z.eq_dec x (ox + n * m)) as [-> | Q]; [exists n; split; lia|].
  rewrite !ink_in in H by lia. exists ((x - ox) / m). pose proof (cell (x - ox) ltac:(lia)) as C. split; [lia|].
  destruct (Z.eq_dec ((x - ox) mod m) 0) as [Z0|Z0]; [pose proof (Z.div_mod (x - ox) m ltac:(lia)); lia|]. exfalso. apply H.
  replace ((x - 1 - ox) / m) with ((x - ox) / m); [reflexivity|].
  pose proof (Z.div_mod (x - ox) m ltac:(lia)) as E. pose proof (Z.mod_pos_bound (x - ox) m ltac:(lia)) as B.
  apply Z.div_unique with ((x - ox) mod m - 1); [left; lia|]. clear - E. lia.
Qed.

Lemma mul_lt a b : a * m < b * m -> a < b.
Proof using M N Ox Oy Rw Rh sym r. intros H. apply Zmult_lt_reg_r with m; lia. Qed.

Lemma span_of y a k col : oy <= y < oy + n * m -> 0 <= a -> a + k <= n -> (forall x, ox + a * m <= x < ox + a * m + k * m -> (ink pic (x, y) <> 0 <-> col = true)) ->
  span (look r n sym ((y - oy) / m)) a k col.
Proof using M N Ox Oy Rw Rh sym r.
  intros Hy Ha Hk H i Hi. assert (B1 : a * m <= i * m) by (apply Z.mul_le_mono_nonneg_r; lia). assert (B2 : (i + 1) * m <= (a + k) * m) by (apply Z.mul_le_mono_nonneg_r; lia).
  assert (B3 : (a + k) * m <= n * m) by (apply Z.mul_le_mono_nonneg_r; lia). assert (B4 : 0 <= a * m) by (apply Z.mul_nonneg_nonneg; lia).
  specialize (H (ox + i * m) ltac:(lia)). rewrite ink_in in H by lia. replace ((ox + i * m - ox) / m) with i in H by (replace (ox + i * m - ox) with (i * m) by ring; rewrite Z.div_mul; lia).
  destruct (look _ _ _ _ _), col; try reflexivity; exfalso; destruct H as [H1 H2]; [discriminate (H1 ltac:(lia))|apply (H2 eq_refl); reflexivity].
Qed.

Lemma look_at y i : oy <= y < oy + n * m -> 0 <= i < n -> (ink pic (ox + i * m, y) <> 0 <-> look r n sym ((y - oy) / m) i = true).
Proof using M N Ox Oy Rw Rh sym r.
  intros Hy Hi. assert (B2 : (i + 1) * m <= n * m) by (apply Z.mul_le_mono_nonneg_r; lia). assert (B4 : 0 <= i * m) by (apply Z.mul_nonneg_nonneg; lia).
  rewrite ink_in by lia. replace ((ox + i * m - ox) / m) with i by (replace (ox + i * m - ox) with (i * m) by ring; rewrite Z.div_mul; lia).
  destruct (look _ _ _ _ _); split; intros; (reflexivity || discriminate || lia).
Qed.

(** A finder-like row of pixels comes from a finder-like row of modules. *)
Lemma row_of_modules y left stone right stop : 0 <= y < h -> finder_row w (ink pic) y left stone right stop ->
  oy <= y < oy + n * m /\ exists a k1 k2 k3 k4 k5, finder_like m n (look r n sym ((y - oy) / m)) a k1 k2 k3 k4 k5 /\ left = ox + a * m /\ right = ox + (a + k1 + k2 + k3 + k4) * m.
Proof using M N Ox Oy Rw Rh sym r.
  intros Hy0 (n1 & n2 & n3 & n4 & n5 & P1 & P2 & P3 & P4 & P5 & L0 & Es & Er & Ex & Lw & D1 & D2 & D3 & D4 & D5 & El & Et & Ra).
  subst stone right stop.
  assert (B1 : ink pic (left + n1 - 1, y) <> ink pic (left + n1, y)) by (rewrite (D2 (left + n1)) by lia; apply D1; lia).
  assert (B2 : ink pic (left + n1 + n2 - 1, y) <> ink pic (left + n1 + n2, y)) by (rewrite (D2 (left + n1 + n2 - 1)) by lia; apply not_eq_sym, D3; lia).
  assert (B3 : ink pic (left + n1 + n2 + n3 - 1, y) <> ink pic (left + n1 + n2 + n3, y)) by (rewrite (D4 (left + n1 + n2 + n3)) by lia; apply D3; lia).
  assert (B4 : ink pic (left + n1 + n2 + n3 + n4 - 1, y) <> ink pic (left + n1 + n2 + n3 + n4, y)) by (rewrite (D4 (left + n1 + n2 + n3 + n4 - 1)) by lia; apply not_eq_sym, D5; lia).
  apply boundary in B1 as [Hy (i1 & I1 & E1)]. apply boundary in B2 as [_ (i2 & I2 & E2)]. apply boundary in B3 as [_ (i3 & I3 & E3)]. apply boundary in B4 as [_ (i4 & I4 & E4)].
  assert (Dk : forall x, ink pic (x, y) <> 0 -> ox <= x < ox + n * m).
  { intros x Hx. destruct (Z_le_gt_dec ox x); [destruct (Z_lt_ge_dec x (ox + n * m)); [lia|]|]; exfalso; apply Hx; apply ink_out; lia. }
  assert (B0 : exists i, 0 <= i <= n /\ left = ox + i * m /\ (i = 0 \/ look r n sym ((y - oy) / m) (i - 1) = false)).
  { destruct El as [-> | El].
    - pose proof (Dk 0 (D1 0 ltac:(lia))). exists 0. split; [lia|]. split; [lia|]. left. reflexivity.
    - destruct (boundary left y) as [_ (i & Hi & Ei)]; [rewrite El; apply not_eq_sym, D1; lia|]. exists i. split; [exact Hi|]. split; [exact Ei|].
      destruct (Z.eq_dec i 0) as [-> | Q]; [left; reflexivity|right].
      apply (span_of y (i - 1) 1 false Hy); [lia|lia| |lia]. intros x Hx. replace (ink pic (x, y)) with 0; [split; [congruence|discriminate]|].
      assert (Hl : look r n sym ((y - oy) / m) (i - 1) = false).
      { assert (K : ink pic (left - 1, y) = if look r n sym ((y - oy) / m) ((left - 1 - ox) / m) then 1 else 0).
        { apply ink_in; [|exact Hy]. assert (m <= i * m) by nia. assert (i * m <= n * m) by nia. lia. }
        rewrite El in K. replace ((left - 1 - ox) / m) with (i - 1) in K; [destruct (look _ _ _ _ _); [discriminate|reflexivity]|].
        apply Z.div_unique with (m - 1); [left; lia|]. rewrite Ei. ring. }
      assert (0 <= (i - 1) * m) by nia. assert ((i - 1) * m + 1 * m <= n * m) by nia.
      rewrite ink_in by lia. replace ((x - ox) / m) with (i - 1); [rewrite Hl; reflexivity|]. apply Z.div_unique with (x - ox - (i - 1) * m); [left; lia|ring]. }
  assert (B5 : exists i, 0 <= i <= n /\ left + n1 + n2 + n3 + n4 + n5 = ox + i * m /\ (i = n \/ look r n sym ((y - oy) / m) i = false)).
  { pose proof (Dk _ (D5 (left + n1 + n2 + n3 + n4 + n5 - 1) ltac:(lia))) as Hl.
    assert (K : exists i, 0 <= i <= n /\ left + n1 + n2 + n3 + n4 + n5 = ox + i * m).
    { destruct (Z.eq_dec (left + n1 + n2 + n3 + n4 + n5) (ox + n * m)) as [Q|Q]; [exists n; split; [lia|exact Q]|].
      destruct Et as [Et|Et]; [exfalso; lia|].
      destruct (boundary (left + n1 + n2 + n3 + n4 + n5) y) as [_ X]; [rewrite Et; apply D5; lia|exact X]. }
    destruct K as (i & Hi & Ei). exists i. split; [exact Hi|]. split; [exact Ei|]. destruct (Z.eq_dec i n) as [Q|Q]; [left; exact Q|right].
    destruct Et as [Et|Et]; [exfalso; assert (i * m < n * m) by (apply Zmult_lt_compat_r; lia); lia|].
    rewrite Ei in Et. pose proof (look_at y i Hy ltac:(lia)) as Lk. destruct (look _ _ _ _ _); [|reflexivity]. exfalso. apply Lk; [reflexivity|exact Et]. }
  destruct B0 as (i0 & I0 & E0 & F0). destruct B5 as (i5 & I5 & E5 & F5). split; [exact Hy|].
  assert (O1 : i0 < i1) by (apply mul_lt; lia). assert (O2 : i1 < i2) by (apply mul_lt; lia). assert (O3 : i2 < i3) by (apply mul_lt; lia).
  assert (O4 : i3 < i4) by (apply mul_lt; lia). assert (O5 : i4 < i5) by (apply mul_lt; lia).
  exists i0, (i1 - i0), (i2 - i1), (i3 - i2), (i4 - i3), (i5 - i4).
  replace (i0 + (i1 - i0)) with i1 by ring. replace (i1 + (i2 - i1)) with i2 by ring. replace (i2 + (i3 - i2)) with i3 by ring. replace (i3 + (i4 - i3)) with i4 by ring.
  unfold finder_like.
  replace (i0 + (i1 - i0)) with i1 by ring. replace (i1 + (i2 - i1)) with i2 by ring. replace (i2 + (i3 - i2)) with i3 by ring. replace (i3 + (i4 - i3)) with i4 by ring. replace (i4 + (i5 - i4)) with i5 by ring.
  assert (Dr : forall a b k x0, dark_run (ink pic) y x0 k -> x0 = ox + a * m -> x0 + k = ox + b * m -> 0 <= a -> b <= n -> span (look r n sym ((y - oy) / m)) a (b - a) true).
  { intros a b k x0 D Q1 Q2 A1 A2. apply span_of; [exact Hy|lia|lia|]. intros x Hx. specialize (D x). rewrite Z.mul_sub_distr_r in Hx. split; [reflexivity|]. intros _. apply D. lia. }
  assert (Lr : forall a b k x0, white_run (ink pic) y x0 k -> x0 = ox + a * m -> x0 + k = ox + b * m -> 0 <= a -> b <= n -> span (look r n sym ((y - oy) / m)) a (b - a) false).
  { intros a b k x0 D Q1 Q2 A1 A2. apply span_of; [exact Hy|lia|lia|]. intros x Hx. rewrite Z.mul_sub_distr_r in Hx. rewrite (D x) by lia. split; [congruence|discriminate]. }
  split; [|split; [exact E0|lia]]. do 7 (split; [lia|]).
  split; [apply (Dr _ _ _ _ D1 E0 E1); lia|]. split; [apply (Lr _ _ _ _ D2 E1 E2); lia|]. split; [apply (Dr _ _ _ _ D3 E2 E3); lia|].
  split; [apply (Lr _ _ _ _ D4 E3 E4); lia|]. split; [apply (Dr _ _ _ _ D5 E4 E5); lia|]. split; [exact F0|]. split; [exact F5|].
  replace (m * (i1 - i0)) with n1 by (rewrite Z.mul_sub_distr_l; lia). replace (m * (i2 - i1)) with n2 by (rewrite Z.mul_sub_distr_l; lia).
  replace (m * (i3 - i2)) with n3 by (rewrite Z.mul_sub_distr_l; lia). replace (m * (i4 - i3)) with n4 by (rewrite Z.mul_sub_distr_l; lia).
  replace (m * (i5 - i4)) with n5 by (rewrite Z.mul_sub_distr_l; lia). exact Ra.
Qed.

(** Connected pixels are in connected modules. *)
Lemma div_near a b : Z.abs (a - b) <= 1 -> Z.abs (a / m - b / m) <= Z.abs (a - b).
Proof using M N Ox Oy Rw Rh sym r.
  intros H. assert (G : forall c, c / m <= (c + 1) / m <= c / m + 1).
  { intros c. split; [apply Z.div_le_mono; lia|]. rewrite <- (Z_div_plus_full c 1 m) by lia. apply Z.div_le_mono; lia. }
  assert (C : a = b \/ a = b + 1 \/ b = a + 1) by (clear - H; lia).
  destruct C as [-> | [-> | -> ]]; [lia| |]; [specialize (G b)|specialize (G a)]; lia.
Qed.

Lemma module_blob p q : blob w h (ink pic) p q ->
  blob n n (modules r n sym) ((fst p - ox) / m, (snd p - oy) / m) ((fst q - ox) / m, (snd q - oy) / m).
Proof using M N Ox Oy Rw Rh sym r.
  assert (In1 : forall q, ink pic q <> 0 -> inside n n ((fst q - ox) / m, (snd q - oy) / m) /\ modules r n sym ((fst q - ox) / m, (snd q - oy) / m) <> 0).
  { intros [x y] Hq. destruct (Z_le_gt_dec ox x) as [A1|A1]; [|exfalso; apply Hq, ink_out; lia]. destruct (Z_lt_ge_dec x (ox + n * m)) as [A2|A2]; [|exfalso; apply Hq, ink_out; lia].
    destruct (Z_le_gt_dec oy y) as [A3|A3]; [|exfalso; apply Hq, ink_out; lia]. destruct (Z_lt_ge_dec y (oy + n * m)) as [A4|A4]; [|exfalso; apply Hq, ink_out; lia].
    rewrite ink_in in Hq by lia. cbn [fst snd]. split; [|exact Hq].
    pose proof (cell (x - ox) ltac:(lia)). pose proof (cell (y - oy) ltac:(lia)). split; cbn [fst snd]; assumption. }
  intros B. unfold blob in B. induction B as [[I Q]|q q' L IH A [I Q]].
  - apply linked_here. apply In1. exact Q.
  - pose proof (linked_S _ _ _ L) as [_ Q0].
    pose proof (div_near (fst q - ox) (fst q' - ox)) as D1. pose proof (div_near (snd q - oy) (snd q' - oy)) as D2.
    unfold adjacent in A. replace (fst q - ox - (fst q' - ox)) with (fst q - fst q') in D1 by ring. replace (snd q - oy - (snd q' - oy)) with (snd q - snd q') in D2 by ring.
    specialize (D1 ltac:(clear - A; lia)). specialize (D2 ltac:(clear - A; lia)).
    set (c := (fst q - ox) / m) in *. set (d := (snd q - oy) / m) in *. set (c' := (fst q' - ox) / m) in *. set (d' := (snd q' - oy) / m) in *.
    destruct (Z.eq_dec (Z.abs (c - c') + Z.abs (d - d')) 1) as [E|E].
    + eapply linked_step; [exact IH|exact E|]. apply In1. exact Q.
    + replace (c', d') with (c, d); [exact IH|]. clearbody c d c' d'. revert D1 D2 E A. generalize (Z.abs (fst q - fst q')) (Z.abs (snd q - snd q')). clear. intros; f_equal; lia.
Qed.
End Render.

Theorem rendered_only v sym m ox oy r w h : 1 <= m -> 1 <= v -> 0 <= ox -> 0 <= oy -> ox + symbol_size v * m <= w -> oy + symbol_size v * m <= h ->
  plain v sym m r -> no_other_finder w h (ink (rendered (symbol_size v) sym m ox oy r)) v m ox oy r.
Proof.
  intros M V Ox Oy Rw Rh P y left stone right (Hy & (stop & Row) & Bl & _).
  assert (N : 1 <= symbol_size v) by (unfold symbol_size; lia).
  destruct (row_of_modules _ sym m ox oy r w h M N Ox Oy Rw Rh y left stone right stop Hy Row) as (Hy' & a & k1 & k2 & k3 & k4 & k5 & F & -> & ->).
  pose proof (cell _ sym m ox oy r w h M N Ox Oy Rw Rh (y - oy) ltac:(lia)) as Cy.
  pose proof (P _ _ _ _ _ _ _ Cy F) as X. cbv zeta in X.
  destruct F as (K1 & K2 & K3 & K4 & K5 & A0 & An & _).
  apply (module_blob _ sym m ox oy r w h M N Ox Oy Rw Rh) in Bl. cbn [fst snd] in Bl.
  assert (Dv : forall i, (ox + i * m - ox) / m = i) by (intros i; replace (ox + i * m - ox) with (i * m) by ring; apply Z.div_mul; lia).
  rewrite !Dv in Bl. specialize (X Bl). clear Bl.
  assert (G : 0 <= a + k1 + k2 + k3 + k4 < symbol_size v) by lia. revert G X. generalize (a + k1 + k2 + k3 + k4). intros i G X. unfold in_finder. cbv zeta.
  assert (0 <= i * m) by (apply Z.mul_nonneg_nonneg; lia). assert ((i + 1) * m <= symbol_size v * m) by (apply Z.mul_le_mono_nonneg_r; lia).
  split; [split; cbn [fst snd]; lia|]. unfold module_at. cbn [fst snd]. rewrite Dv. exact X.
Qed.

Theorem rendered_clear w h v sym m ox oy r : 1 <= w <= 32768 -> 1 <= h <= 32768 -> 1 <= v <= 40 -> v <> 21 -> 2 <= m ->
  (7 * m - 1) * (7 * m - 1) * furthest v m ox oy r < 2 ^ 31 -> 0 <= ox -> 0 <= oy -> ox + symbol_size v * m <= w -> oy + symbol_size v * m <= h ->
  function_patterns v sym -> plain v sym m r -> clear_picture w h (ink (rendered (symbol_size v) sym m ox oy r)) v sym m ox oy r.
Proof.
  intros Hw Hh Hv V21 M Pr Ox Oy Rw Rh Fp Pl. constructor; auto.
  - apply shows_legible. apply rendered_shows; try assumption; try lia. unfold symbol_size. lia.
  - apply rendered_only; try assumption; lia.
Qed.

(** * Checking [plain] by computation *)

Fixpoint run (f : Z -> bool) (b : bool) (fuel : nat) (i : Z) : Z :=
  match fuel with
  | O => 0
  | S k => if Bool.eqb (f i) b then 1 + run f b k (i + 1) else 0
  end.

Lemma run_span f b fuel : forall a k, span f a k b -> 0 <= k <= Z.of_nat fuel -> k = Z.of_nat fuel \/ f (a + k) = negb b -> run f b fuel a = k.
Proof.
  induction fuel as [|fuel IH]; intros a k Sp Hk E; cbn [run]; [lia|].
  destruct (Z.eq_dec k 0) as [-> | Q].
  - destruct E as [E|E]; [lia|]. rewrite Z.add_0_r in E. rewrite E. destruct b; reflexivity.
  - rewrite (Sp a) by lia. rewrite Bool.eqb_reflx. rewrite (IH (a + 1) (k - 1)); [lia| |lia|].
    + intros i Hi. apply Sp. lia.
    + destruct E as [E|E]; [left; lia|right]. replace (a + 1 + (k - 1)) with (a + k) by ring. exact E.
Qed.

Definition ratio_ok (n1 n2 n3 n4 n5 : Z) : bool :=
  let m := (n1 + n2 + n4 + n5) / 4 in
  let e := m * 3 / 4 in
  (Z.abs (n1 - m) <=? e) && (Z.abs (n2 - m) <=? e) && (Z.abs (n3 - 3 * m) <=? e) && (Z.abs (n4 - m) <=? e) && (Z.abs (n5 - m) <=? e).

Definition near_finder (v : Z) (q : Z * Z) : bool :=
  existsb (fun c => ring_no (fst q - fst c) (snd q - snd c) <=? 3) (finder_centres v).

(** A labelling of the modules that agrees on adjacent dark modules tells regions apart. *)
Definition agrees (r : nat) (n : Z) (sym : Z -> Z -> bool) (lab : Z -> Z -> Z) : bool :=
  forallb (fun j => forallb (fun i =>
    implb (look r n sym j i && look r n sym j (i + 1)) (lab j i =? lab j (i + 1))
    && implb (look r n sym j i && look r n sym (j + 1) i) (lab j i =? lab (j + 1) i)) (zrange 0 n)) (zrange 0 n).

Lemma agrees_blob r n sym lab p q : agrees r n sym lab = true -> blob n n (modules r n sym) p q -> lab (snd p) (fst p) = lab (snd q) (fst q).
Proof.
  intros A B. unfold agrees in A. rewrite forallb_forall in A.
  assert (St : forall i j, 0 <= i < n -> 0 <= j < n -> look r n sym j i = true ->
    (look r n sym j (i + 1) = true -> lab j i = lab j (i + 1)) /\ (look r n sym (j + 1) i = true -> lab j i = lab (j + 1) i)).
  { intros i j Hi Hj D. specialize (A j ltac:(apply in_zrange; exact Hj)). rewrite forallb_forall in A. specialize (A i ltac:(apply in_zrange; exact Hi)).
    rewrite D in A. cbn [andb] in A. split; intros D'; rewrite D' in A; cbn [implb] in A; lia. }
  unfold blob in B. induction B as [|q q' L IH Ad [I Q]]; [reflexivity|]. rewrite IH. pose proof (linked_S _ _ _ L) as [I0 Q0].
  unfold modules in Q, Q0. unfold inside in I, I0. unfold adjacent in Ad. destruct q as [x y], q' as [x' y']. cbn [fst snd] in *.
  destruct (look r n sym y x) eqn:D0; [|congruence]. destruct (look r n sym y' x') eqn:D1; [|congruence].
  assert (C : x' = x + 1 /\ y' = y \/ x = x' + 1 /\ y' = y \/ x' = x /\ y' = y + 1 \/ x' = x /\ y = y' + 1) by (clear - Ad; lia).
  destruct C as [[-> -> ]|[[-> -> ]|[[-> -> ]|[-> -> ]]]].
  - apply (St x y); [lia|lia|exact D0|exact D1].
  - symmetry. apply (St x' y); [lia|lia|exact D1|exact D0].
  - apply (St x y); [lia|lia|exact D0|exact D1].
  - symmetry. apply (St x y'); [lia|lia|exact D1|exact D0].
Qed.

Definition plain_from (v : Z) (sym : Z -> Z -> bool) (lab : Z -> Z -> Z) (m : Z) (r : nat) (j a : Z) : bool :=
  let n := symbol_size v in
  let f := look r n sym j in
  if (a =? 0) || negb (f (a - 1)) then
    let len b i := run f b (Z.to_nat (n - i)) i in
    let k1 := len true a in
    let k2 := len false (a + k1) in
    let k3 := len true (a + k1 + k2) in
    let k4 := len false (a + k1 + k2 + k3) in
    let k5 := len true (a + k1 + k2 + k3 + k4) in
    let i := a + k1 + k2 + k3 + k4 in
    if (1 <=? k1) && (1 <=? k2) && (1 <=? k3) && (1 <=? k4) && (1 <=? k5) && ratio_ok (m * k1) (m * k2) (m * k3) (m * k4) (m * k5)
       && (lab j i =? lab j a)
    then near_finder v (turned r n i j)
    else true
  else true.

Definition plain_check (v : Z) (sym : Z -> Z -> bool) (lab : Z -> Z -> Z) (m : Z) (r : nat) : bool :=
  let n := symbol_size v in
  agrees r n sym lab && forallb (fun j => forallb (fun a => plain_from v sym lab m r j a) (zrange 0 n)) (zrange 0 n).

Lemma plain_checked v sym lab m r : plain_check v sym lab m r = true -> plain v sym m r.
Proof.
  intros H. unfold plain_check in H. cbv zeta in H. apply andb_prop in H as [Ag H]. rewrite forallb_forall in H. unfold plain. cbv zeta. set (n := symbol_size v) in *. intros j a k1 k2 k3 k4 k5 Hj F Bl.
  specialize (H j ltac:(apply in_zrange; exact Hj)). rewrite forallb_forall in H.
  destruct F as (K1 & K2 & K3 & K4 & K5 & A0 & An & S1 & S2 & S3 & S4 & S5 & L0 & L1 & Ra).
  specialize (H a ltac:(apply in_zrange; lia)). unfold plain_from in H. cbv zeta in H. fold n in H. set (f := look r n sym j) in *.
  replace ((a =? 0) || negb (f (a - 1))) with true in H by (destruct L0 as [-> | -> ]; [reflexivity|destruct (a =? 0); reflexivity]).
  rewrite (run_span f true _ a k1 S1) in H by (lia || (right; apply S2; lia)).
  rewrite (run_span f false _ _ k2 S2) in H by (lia || (right; apply S3; lia)).
  rewrite (run_span f true _ _ k3 S3) in H by (lia || (right; apply S4; lia)).
  rewrite (run_span f false _ _ k4 S4) in H by (lia || (right; apply S5; lia)).
  rewrite (run_span f true _ _ k5 S5) in H by (lia || (destruct L1 as [L1|L1]; [left; lia|right; exact L1])).
  assert (R : ratio_ok (m * k1) (m * k2) (m * k3) (m * k4) (m * k5) = true).
  { destruct Ra as (R1 & R2 & R3 & R4 & R5). unfold ratio_ok. cbv zeta. apply Z.leb_le in R1, R2, R3, R4, R5. rewrite R1, R2, R3, R4, R5. reflexivity. }
  apply (agrees_blob r n sym lab _ _ Ag) in Bl. cbn [fst snd] in Bl. rewrite Bl, Z.eqb_refl in H.
  rewrite R in H. replace ((1 <=? k1) && (1 <=? k2) && (1 <=? k3) && (1 <=? k4) && (1 <=? k5)) with true in H by lia. cbn [andb] in H.
  unfold near_finder in H. apply existsb_exists in H as ([cy cx] & Hc & Hr). exists cy, cx. split; [exact Hc|]. cbn [fst snd] in Hr. apply Z.leb_le. exact Hr.
Qed.

(** Only the modules of the symbol matter. *)
Lemma turned_range r n i j : 0 <= i < n -> 0 <= j < n -> 0 <= fst (turned r n i j) < n /\ 0 <= snd (turned r n i j) < n.
Proof. intros Hi Hj. unfold turned. destruct r as [|[|[|r']]]; cbn [fst snd]; lia. Qed.

Lemma plain_ext v f g m r : (forall y x, 0 <= y < symbol_size v -> 0 <= x < symbol_size v -> f y x = g y x) -> plain v f m r -> plain v g m r.
Proof.
  intros E P. unfold plain in *. cbv zeta in *. set (n := symbol_size v) in *. intros j a k1 k2 k3 k4 k5 Hj F Bl.
  assert (L : forall i j, 0 <= i < n -> 0 <= j < n -> look r n f j i = look r n g j i).
  { intros i j' Hi Hj'. unfold look. destruct (turned_range r n i j' Hi Hj'). apply E; assumption. }
  apply (P j a k1 k2 k3 k4 k5 Hj).
  - destruct F as (K1 & K2 & K3 & K4 & K5 & A0 & An & S1 & S2 & S3 & S4 & S5 & L0 & L1 & Ra).
    assert (Sp : forall s k b, 0 <= s -> s + k <= n -> span (look r n g j) s k b -> span (look r n f j) s k b).
    { intros s k b H1 H2 S i Hi. rewrite L by lia. apply S. exact Hi. }
    unfold finder_like. do 7 (split; [assumption|]). do 5 (split; [apply Sp; [lia|lia|assumption]|]).
    split; [destruct (Z.eq_dec a 0); [left; assumption|right; destruct L0 as [L0|L0]; [contradiction|rewrite L by lia; exact L0]]|].
    split; [|exact Ra]. destruct (Z.eq_dec (a + k1 + k2 + k3 + k4 + k5) n); [left; assumption|right].
    destruct L1 as [L1|L1]; [contradiction|rewrite L by lia; exact L1].
  - revert Bl. apply linked_ext. intros q [I Q]. split; [exact I|]. unfold modules in *. rewrite L by apply I. exact Q.
Qed.

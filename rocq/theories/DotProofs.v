(** Pictures in which the data modules are dots: nothing but the finder patterns looks like one. *)
From Verif Require Import Base Lib SpecQR SpecImage SpecScan SpecFinder SpecPicture FitnessProofs JiggleProofs DrawProofs RenderProofs.
From Coq Require Import ZifyBool.
Open Scope Z_scope.
Set Bullet Behavior "Strict Subproofs".

(** * Function patterns do not touch *)

Lemma ring_le a b k : ring_no a b <= k <-> - k <= a <= k /\ - k <= b <= k.
Proof. unfold ring_no. lia. Qed.

Lemma ring_eq a b k : ring_no a b = k <-> (- k <= a <= k /\ - k <= b <= k) /\ (a = k \/ a = - k \/ b = k \/ b = - k).
Proof. unfold ring_no. lia. Qed.

Lemma step_cases y x y' x' : Z.abs (y - y') + Z.abs (x - x') = 1 -> y' = y /\ (x' = x + 1 \/ x' = x - 1) \/ x' = x /\ (y' = y + 1 \/ y' = y - 1).
Proof. lia. Qed.

Section Patterns.
Context (v : Z) (sym : Z -> Z -> bool) (Hv : 1 <= v <= 40) (Fp : function_patterns v sym).
Notation n := (symbol_size v).

(** A set of modules is closed if it contains the dark function modules beside its function modules. *)
Definition closed (S : Z -> Z -> Prop) : Prop := forall y x y' x', S y x -> Z.abs (y - y') + Z.abs (x - x') = 1 -> 0 <= y' < n -> 0 <= x' < n ->
  pattern_module v y x -> pattern_module v y' x' -> sym y' x' = true -> S y' x'.

Definition in_pattern (c : Z * Z) (k y x : Z) : Prop := ring_no (y - fst c) (x - snd c) <= k.

Lemma finder_light c y x : In c (finder_centres v) -> ring_no (y - fst c) (x - snd c) = 4 -> 0 <= y < n -> 0 <= x < n -> sym y x = false.
Proof using Hv Fp.
  intros Hc R Hy Hx. destruct c as [cy cx]. cbn [fst snd] in *. pose proof (fp_separator _ _ Fp cy cx (y - cy) (x - cx) Hc R) as H.
  replace (cy + (y - cy)) with y in H by ring. replace (cx + (x - cx)) with x in H by ring. apply H; assumption.
Qed.

Lemma finder_closed c : In c (finder_centres v) -> closed (in_pattern c 3).
Proof using Hv Fp.
  intros Hc y x y' x' Hs A Hy Hx _ _ D. unfold in_pattern in *. apply step_cases in A.
  destruct (Z_le_dec (ring_no (y' - fst c) (x' - snd c)) 3) as [L|L]; [exact L|]. exfalso.
  rewrite (finder_light c y' x' Hc) in D; [discriminate| |exact Hy|exact Hx]. rewrite ring_le in *. rewrite ring_eq. clear - Hs A L. lia.
Qed.

Lemma size_n : n = 17 + 4 * v.
Proof using. reflexivity. Qed.

(** Where the centres of alignment patterns are. *)
Lemma centre_places cy cx : align_centre v cy cx ->
  (cy = 6 \/ 18 <= cy <= n - 7) /\ (cx = 6 \/ 18 <= cx <= n - 7) /\ (cy = 6 -> 18 <= cx <= n - 19) /\ (cx = 6 -> 18 <= cy <= n - 19) /\ Z.even cy = true /\ Z.even cx = true.
Proof using Hv Fp.
  intros (Hy & Hx & N1 & N2 & N3). cbv zeta in *.
  assert (Ne : alignment_positions v <> []) by (intros E; rewrite E in Hy; contradiction).
  destruct (positions_ends v Hv Ne) as [P6 Pn].
  pose proof (positions_apart v cy 6 Hv Hy P6) as A1. pose proof (positions_apart v cx 6 Hv Hx P6) as A2.
  pose proof (positions_apart v cy _ Hv Hy Pn) as A3. pose proof (positions_apart v cx _ Hv Hx Pn) as A4.
  pose proof (positions_range v cy Hv Hy) as R1. pose proof (positions_range v cx Hv Hx) as R2.
  pose proof (positions_even v cy Hv Hy) as E1. pose proof (positions_even v cx Hv Hx) as E2.
  clear Hy Hx P6 Pn Ne. revert A1 A2 A3 A4 R1 R2 N1 N2 N3. generalize n. intros s A1 A2 A3 A4 R1 R2 N1 N2 N3. clear - A1 A2 A3 A4 R1 R2 N1 N2 N3 E1 E2.
  assert (B1 : cy = 6 \/ 18 <= cy) by lia. assert (B2 : cx = 6 \/ 18 <= cx) by lia.
  assert (B3 : cy = s - 7 \/ cy <= s - 19) by lia. assert (B4 : cx = s - 7 \/ cx <= s - 19) by lia. clear A1 A2 A3 A4.
  repeat split; try assumption; lia.
Qed.

(** No finder pattern is near an alignment pattern. *)
Lemma align_far cy cx fy fx y x : align_centre v cy cx -> In (fy, fx) (finder_centres v) -> ring_no (y - fy) (x - fx) <= 4 -> ring_no (y - cy) (x - cx) <= 3 -> False.
Proof using Hv Fp.
  intros Hc Hf Rf R. destruct (centre_places cy cx Hc) as (P1 & P2 & P3 & P4 & _). pose proof size_n as Sn. rewrite ring_le in *.
  unfold finder_centres in Hf. cbv zeta in Hf. cbn [In] in Hf. clear Hc. revert P1 P2 P3 P4 Hf Sn. generalize n. intros s P1 P2 P3 P4 Hf Sn.
  destruct Hf as [Q|[Q|[Q|[]]]]; injection Q as <- <-; lia.
Qed.

Lemma align_one cy cx dy dx y x : align_centre v cy cx -> align_centre v dy dx -> ring_no (y - cy) (x - cx) <= 3 -> ring_no (y - dy) (x - dx) <= 2 -> cy = dy /\ cx = dx.
Proof using Hv Fp.
  intros (C1 & C2 & _) (D1 & D2 & _) R1 R2. rewrite ring_le in *.
  pose proof (positions_apart v cy dy Hv C1 D1) as A1. pose proof (positions_apart v cx dx Hv C2 D2) as A2. clear - R1 R2 A1 A2. lia.
Qed.

Lemma align_closed c : align_centre v (fst c) (snd c) -> closed (in_pattern c 2).
Proof using Hv Fp.
  intros Hc y x y' x' Hs A Hy Hx _ F D. unfold in_pattern in *. destruct c as [cy cx]. cbn [fst snd] in *. apply step_cases in A.
  destruct (Z_le_dec (ring_no (y' - cy) (x' - cx)) 2) as [L|L]; [exact L|]. exfalso.
  assert (R : ring_no (y' - cy) (x' - cx) <= 3) by (rewrite ring_le in *; clear - Hs A; lia).
  destruct F as [(fy & fx & Hf & Rf)|[F|[F|(dy & dx & Hd & Rd)]]].
  - exact (align_far cy cx fy fx y' x' Hc Hf Rf R).
  - destruct (centre_places cy cx Hc) as (P1 & P2 & P3 & P4 & E1 & E2). rewrite ring_le in *.
    assert (G : cy = 6 /\ 8 <= x' <= n - 9 /\ (x' = cx + 3 \/ x' = cx - 3)).
    { revert P1 P2 P3 P4 Hx. generalize n. clear - R L F. intros. lia. }
    destruct G as (-> & G1 & G2). rewrite F in D. destruct (fp_timing _ _ Fp x' G1) as [T _].
    rewrite T in D. destruct G2 as [-> | -> ]; [rewrite Z.even_add in D|rewrite Z.even_sub in D]; rewrite E2 in D; discriminate.
  - destruct (centre_places cy cx Hc) as (P1 & P2 & P3 & P4 & E1 & E2). rewrite ring_le in *.
    assert (G : cx = 6 /\ 8 <= y' <= n - 9 /\ (y' = cy + 3 \/ y' = cy - 3)).
    { revert P1 P2 P3 P4 Hy. generalize n. clear - R L F. intros. lia. }
    destruct G as (-> & G1 & G2). rewrite F in D. destruct (fp_timing _ _ Fp y' G1) as [_ T].
    rewrite T in D. destruct G2 as [-> | -> ]; [rewrite Z.even_add in D|rewrite Z.even_sub in D]; rewrite E1 in D; discriminate.
  - destruct (align_one cy cx dy dx y' x' Hc Hd R Rd) as [-> -> ]. contradiction.
Qed.

(** A timing module outside the other patterns is dark alone. *)
Lemma timing_closed y x : 0 <= y < n -> 0 <= x < n -> y = 6 \/ x = 6 -> sym y x = true ->
  (forall c, In c (finder_centres v) -> ~ in_pattern c 4 y x) -> (forall c, align_centre v (fst c) (snd c) -> ~ in_pattern c 2 y x) ->
  closed (fun y' x' => y' = y /\ x' = x).
Proof using Hv Fp.
  intros Hy Hx T D Nf Na. pose proof size_n as Sn.
  assert (I1 : In (3, 3) (finder_centres v)) by (unfold finder_centres; cbn; auto).
  assert (I2 : In (3, n - 4) (finder_centres v)) by (unfold finder_centres; cbn; auto).
  assert (I3 : In (n - 4, 3) (finder_centres v)) by (unfold finder_centres; cbn; auto).
  assert (Rg : y = 6 /\ 8 <= x <= n - 9 \/ x = 6 /\ 8 <= y <= n - 9).
  { pose proof (Nf _ I1) as N1. pose proof (Nf _ I2) as N2. pose proof (Nf _ I3) as N3. unfold in_pattern in *. cbn [fst snd] in *. rewrite ring_le in *.
    clear I1 I2 I3 Nf Na D. revert Hy Hx Sn N1 N2 N3. generalize n. clear - T. intros. lia. }
  intros y0 x0 y' x' [-> -> ] A Hy' Hx' _ F D'. exfalso. apply step_cases in A.
  assert (Sep : forall c, In c (finder_centres v) -> ring_no (y' - fst c) (x' - snd c) = 4 -> False).
  { intros c Hc R. rewrite (finder_light c y' x' Hc R Hy' Hx') in D'. discriminate. }
  pose proof (Sep _ I1) as S1. pose proof (Sep _ I2) as S2. pose proof (Sep _ I3) as S3. cbn [fst snd] in *. clear Sep.
  assert (Ev : forall a, Z.even (a + 1) = negb (Z.even a) /\ Z.even (a - 1) = negb (Z.even a)) by (intros a; rewrite Z.even_add, Z.even_sub; destruct (Z.even a); auto).
  assert (Along : y = 6 /\ y' = 6 \/ x = 6 /\ x' = 6 -> False).
  { intros [[-> -> ]|[-> -> ]].
    - assert (Q : 8 <= x <= n - 9) by (clear - Rg; lia). destruct (fp_timing _ _ Fp x Q) as [T1 _]. rewrite T1 in D.
      assert (O : x' = x + 1 \/ x' = x - 1) by (clear - A; lia). rewrite ring_eq in S1, S2.
      destruct (Z_le_dec 8 x') as [B1|B1]; [destruct (Z_le_dec x' (n - 9)) as [B2|B2]|].
      + destruct (fp_timing _ _ Fp x' (conj B1 B2)) as [T2 _]. rewrite T2 in D'. destruct (Ev x) as [G1 G2]. destruct O as [-> | -> ]; rewrite ?G1, ?G2, D in D'; discriminate.
      + apply S2. revert Q B2. generalize n. clear - O. intros. lia.
      + apply S1. clear - Q O B1. lia.
    - assert (Q : 8 <= y <= n - 9) by (clear - Rg; lia). destruct (fp_timing _ _ Fp y Q) as [_ T1]. rewrite T1 in D.
      assert (O : y' = y + 1 \/ y' = y - 1) by (clear - A; lia). rewrite ring_eq in S1, S3.
      destruct (Z_le_dec 8 y') as [B1|B1]; [destruct (Z_le_dec y' (n - 9)) as [B2|B2]|].
      + destruct (fp_timing _ _ Fp y' (conj B1 B2)) as [_ T2]. rewrite T2 in D'. destruct (Ev y) as [G1 G2]. destruct O as [-> | -> ]; rewrite ?G1, ?G2, D in D'; discriminate.
      + apply S3. revert Q B2. generalize n. clear - O. intros. lia.
      + apply S1. clear - Q O B1. lia. }
  assert (Across : y = 6 /\ x' = x /\ (y' = 5 \/ y' = 7) /\ 8 <= x <= n - 9 \/ x = 6 /\ y' = y /\ (x' = 5 \/ x' = 7) /\ 8 <= y <= n - 9).
  { destruct Rg as [[G1 G2]|[G1 G2]].
    - left. destruct (Z.eq_dec y' 6) as [Y'|Y']; [exfalso; apply Along; auto|]. clear - G1 G2 A Y'. lia.
    - right. destruct (Z.eq_dec x' 6) as [X'|X']; [exfalso; apply Along; auto|]. clear - G1 G2 A X'. lia. }
  clear Along Rg S1 S2 S3 Ev I1 I2 I3.
  destruct F as [(fy & fx & Hf & Rf)|[F|[F|(dy & dx & Hd & Rd)]]].
  - unfold finder_centres in Hf. cbv zeta in Hf. cbn [In] in Hf. rewrite ring_le in Rf. revert Hf Across Sn. generalize n. clear - Hv Rf.
    intros s Hf Ac Sn. destruct Hf as [Q|[Q|[Q|[]]]]; injection Q as <- <-; lia.
  - clear - Across F. lia.
  - clear - Across F. lia.
  - destruct (centre_places dy dx Hd) as (P1 & P2 & P3 & P4 & _). apply (Na (dy, dx)); [exact Hd|]. unfold in_pattern. cbn [fst snd]. rewrite ring_le in *.
    clear - Across Rd P1 P2. lia.
Qed.
End Patterns.

(** * Dots are regions of their own *)

(** Columns of modules, relative to the column [i0]. *)
Lemma cell m ox x c d : 0 < m -> (ox + c * m <= x < ox + d * m <-> c <= (x - ox) / m < d).
Proof.
  intros M. pose proof (Z.div_mod (x - ox) m ltac:(lia)) as E. pose proof (Z.mod_pos_bound (x - ox) m M) as B.
  revert E B. generalize ((x - ox) / m) ((x - ox) mod m). intros q t E B. split; intros H; nia.
Qed.

Lemma cells m ox i0 x : 0 < m -> let a := ox + (i0 - 1) * m in
  (a - m <= x < a + 4 * m <-> -2 <= (x - ox) / m - i0 <= 2) /\ (a <= x < a + m <-> (x - ox) / m - i0 = -1)
  /\ (a + m <= x < a + 2 * m <-> (x - ox) / m - i0 = 0) /\ (a + 2 * m <= x < a + 3 * m <-> (x - ox) / m - i0 = 1).
Proof.
  intros M a.
  assert (E : forall c, a + c * m = ox + (i0 - 1 + c) * m) by (intros c; unfold a; ring).
  replace (a - m) with (a + -1 * m) by ring. replace (a + m) with (a + 1 * m) by ring. replace (a <= x < a + 1 * m) with (a + 0 * m <= x < a + 1 * m) by (rewrite Z.add_0_r at 1; reflexivity).
  rewrite !E, !cell by exact M. generalize ((x - ox) / m). clear. intros. lia.
Qed.

(** A row through an alignment pattern does not have the proportions of a finder pattern. *)
Lemma align_line (f : Z -> Z) m ox n i0 e left n1 n2 n3 n4 n5 : 0 < m -> let a := ox + (i0 - 1) * m in
  1 <= n1 -> 1 <= n2 -> 1 <= n3 -> 1 <= n4 -> 1 <= n5 ->
  f left <> 0 -> f (left + n1 - 1) <> 0 -> f (left + n1) = 0 -> f (left + n1 + n2 - 1) = 0 -> f (left + n1 + n2) <> 0 -> f (left + n1 + n2 + n3 - 1) <> 0 ->
  f (left + n1 + n2 + n3) = 0 -> f (left + n1 + n2 + n3 + n4 - 1) = 0 -> f (left + n1 + n2 + n3 + n4) <> 0 ->
  (forall x, x < ox -> f x = 0) -> (left = 0 \/ f (left - 1) = 0) -> 0 <= ox -> finder_ratio n1 n2 n3 n4 n5 ->
  a - m <= left -> left + n1 + n2 + n3 + n4 < a + 4 * m ->
  ox <= left -> left + n1 + n2 + n3 + n4 < ox + n * m ->
  (forall x, a - m <= x < a + 4 * m -> ox <= x < ox + n * m -> (f x <> 0 <-> ring_no e ((x - ox) / m - i0) <> 1)) -> False.
Proof.
  intros M a N1 N2 N3 N4 N5 Xl Xl1 Xw Xw1 Xs Xs1 Xv Xv1 Xr Out El Ox Ra Bl Br S1 S2 Dk.
  assert (Cs : forall x, (a - m <= x < a + 4 * m <-> -2 <= (x - ox) / m - i0 <= 2) /\ (a <= x < a + m <-> (x - ox) / m - i0 = -1)
    /\ (a + m <= x < a + 2 * m <-> (x - ox) / m - i0 = 0) /\ (a + 2 * m <= x < a + 3 * m <-> (x - ox) / m - i0 = 1)) by (intros x; apply (cells m ox i0 x M)).
  assert (Edge : a - m < left < a -> ox <= left - 1).
  { intros H. destruct (Z_le_dec ox (left - 1)) as [L|L]; [exact L|]. exfalso. assert (X : left = ox) by (clear - L S1; lia).
    unfold a in H. rewrite X in H. clear - H M. assert (i0 - 2 < 0) by nia. assert (0 < i0 - 1) by nia. lia. }
  clearbody a. revert S2 Dk. generalize (n * m). intros nm S2 Dk.
  assert (Al : forall x, left <= x <= left + n1 + n2 + n3 + n4 -> a - m <= x < a + 4 * m /\ ox <= x < ox + nm) by (clear - Bl Br S1 S2; intros; lia).
  assert (Q : forall x, a - m <= x < a + 4 * m -> ring_no e ((x - ox) / m - i0) = 1 <-> (e = 0 /\ (a <= x < a + m \/ a + 2 * m <= x < a + 3 * m)) \/ ((e = 1 \/ e = -1) /\ a <= x < a + 3 * m)).
  { intros x Hx. rewrite ring_eq. destruct (Cs x) as (C0 & C1 & C2 & C3). revert C0 C1 C2 C3. generalize ((x - ox) / m - i0). clear - Hx M. intros g C0 C1 C2 C3.
    assert (P : a <= x < a + 3 * m <-> -1 <= g <= 1).
    { split; intros H; [assert (G : g = -1 \/ g = 0 \/ g = 1) by (rewrite <- C1, <- C2, <- C3; clear - H M; lia); clear - G; lia|].
      assert (G : g = -1 \/ g = 0 \/ g = 1) by (clear - H; lia). rewrite <- C1, <- C2, <- C3 in G. clear - G M. lia. }
    rewrite C1, C3, P. clear. lia. }
  assert (Dw : forall x, left <= x <= left + n1 + n2 + n3 + n4 -> f x = 0 -> (e = 0 /\ (a <= x < a + m \/ a + 2 * m <= x < a + 3 * m)) \/ ((e = 1 \/ e = -1) /\ a <= x < a + 3 * m)).
  { intros x Hx Z0. destruct (Al x Hx) as [A1 A2]. apply (Q x A1). destruct (Z.eq_dec (ring_no e ((x - ox) / m - i0)) 1) as [E|E]; [exact E|]. exfalso. apply (Dk x A1 A2); assumption. }
  assert (Dd : forall x, a - m <= x < a + 4 * m -> ox <= x < ox + nm -> f x <> 0 <-> ~ ((e = 0 /\ (a <= x < a + m \/ a + 2 * m <= x < a + 3 * m)) \/ ((e = 1 \/ e = -1) /\ a <= x < a + 3 * m))).
  { intros x A1 A2. rewrite <- (Q x A1). apply Dk; assumption. }
  assert (Db : forall x, left <= x <= left + n1 + n2 + n3 + n4 -> f x <> 0 -> ~ ((e = 0 /\ (a <= x < a + m \/ a + 2 * m <= x < a + 3 * m)) \/ ((e = 1 \/ e = -1) /\ a <= x < a + 3 * m))).
  { intros x Hx Z0. destruct (Al x Hx) as [A1 A2]. apply (Dd x A1 A2). exact Z0. }
  apply Dw in Xw, Xw1, Xv, Xv1; [|clear - N1 N2 N3 N4; lia ..]. apply Db in Xl1, Xs, Xs1, Xr; [|clear - N1 N2 N3 N4; lia ..].
  pose proof Xl as Yl. apply Db in Yl; [|clear - N1 N2 N3 N4; lia].
  assert (E0 : e = 0) by (clear - Yl Xw Xs Xv N1 N2 N3 N4 Bl M; lia).
  assert (Sw : forall x, (e = 0 /\ (a <= x < a + m \/ a + 2 * m <= x < a + 3 * m)) \/ ((e = 1 \/ e = -1) /\ a <= x < a + 3 * m) -> a <= x < a + m \/ a + 2 * m <= x < a + 3 * m) by (clear - E0; intros; lia).
  assert (Sd : forall x, ~ ((e = 0 /\ (a <= x < a + m \/ a + 2 * m <= x < a + 3 * m)) \/ ((e = 1 \/ e = -1) /\ a <= x < a + 3 * m)) -> x < a \/ a + m <= x < a + 2 * m \/ a + 3 * m <= x) by (clear - E0; intros; lia).
  apply Sw in Xw, Xw1, Xv, Xv1. apply Sd in Xl1, Xs, Xs1, Xr, Yl. clear Sw Sd.
  assert (F1 : a <= left + n1 < a + m) by (clear - Xw Xs Xv N1 N2 N3 N4 M; lia).
  assert (F2 : a + m <= left + n1 + n2 < a + 2 * m) by (clear - F1 Xs Xv N1 N2 N3 N4 M; lia).
  assert (F3 : a + 2 * m <= left + n1 + n2 + n3 < a + 3 * m) by (clear - F2 Xv N1 N2 N3 N4 M; lia).
  assert (F4 : a + 3 * m <= left + n1 + n2 + n3 + n4) by (clear - F3 Xr N1 N2 N3 N4 M; lia).
  assert (G1 : left + n1 = a) by (clear - F1 Xl1 N1 M; lia).
  assert (G2 : left + n1 + n2 = a + m) by (clear - F2 Xw1 N1 M; lia).
  assert (G3 : left + n1 + n2 + n3 = a + 2 * m) by (clear - F3 Xs1 N1 M; lia).
  assert (G4 : left + n1 + n2 + n3 + n4 = a + 3 * m) by (clear - F4 Xv1 N1 M; lia).
  assert (I3 : left = a - m).
  { destruct (Z.eq_dec left (a - m)) as [E|E]; [exact E|]. exfalso.
    assert (Lt : a - m < left < a) by (clear - G1 N1 Bl E; lia). specialize (Edge Lt).
    assert (Xp : f (left - 1) <> 0) by (apply Dd; clear - Lt Edge E0 S1 S2 N1 N2 N3 N4 M; lia).
    destruct El as [El|El]; [|contradiction]. clear - El Edge Ox. lia. }
  assert (G : n1 = m /\ n2 = m /\ n3 = m /\ n4 = m) by (clear - I3 G1 G2 G3 G4; lia).
  destruct G as (-> & -> & -> & -> ). unfold finder_ratio in Ra. clear - Ra N5 M. lia.
Qed.

Section Dots.
Context (v : Z) (sym : Z -> Z -> bool) (m k ox oy : Z) (r : nat) (w h : Z).
Context (Hv : 1 <= v <= 40) (Fp : function_patterns v sym) (K : 1 <= k) (Mk : 2 * k + 2 <= m).
Context (Ox : 0 <= ox) (Oy : 0 <= oy) (Rw : ox + symbol_size v * m <= w) (Rh : oy + symbol_size v * m <= h).
Notation n := (symbol_size v).
Notation pic := (dotted v sym m k ox oy r).
Notation md := (module_at r (symbol_size v) m ox oy).

Definition inner (q : pixel) : Prop := inset m k (fst q - ox) = true /\ inset m k (snd q - oy) = true.

Lemma dot_iff q : ink pic q <> 0 <-> in_square n m ox oy q /\ sym (fst (md q)) (snd (md q)) = true /\ (pattern_module v (fst (md q)) (snd (md q)) \/ inner q).
Proof using v sym m k ox oy r w h Hv Fp K Mk Ox Oy Rw Rh.
  destruct q as [x y]. unfold ink, dotted, in_square, inner. cbn [fst snd]. cbv zeta. set (c := md (x, y)). rewrite <- solid_iff.
  destruct (sym (fst c) (snd c)), (solid v (fst c) (snd c)), (inset m k (x - ox)), (inset m k (y - oy));
    rewrite ?andb_true_r, ?andb_false_r, ?orb_true_r, ?orb_false_r; cbn [orb andb];
    destruct ((ox <=? x) && (x <? ox + n * m) && (oy <=? y) && (y <? oy + n * m)) eqn:E; split; intros H;
    try (repeat split; auto; lia); try lia; intuition (try discriminate; try lia).
Qed.

Lemma inset_div z z' : inset m k z = true -> Z.abs (z - z') <= 1 -> z / m = z' / m.
Proof using v sym m k ox oy r w h Hv Fp K Mk Ox Oy Rw Rh.
  unfold inset. intros H A. pose proof (Z.div_mod z m ltac:(lia)) as D. apply Z.div_unique with (z mod m + (z' - z)); [left; lia|lia].
Qed.

Lemma square_module q : in_square n m ox oy q -> 0 <= fst (md q) < n /\ 0 <= snd (md q) < n.
Proof using v sym m k ox oy r w h Hv Fp K Mk Ox Oy Rw Rh.
  intros [Hx Hy]. unfold module_at. apply turned_range; (split; [apply Z.div_pos; lia|apply Z.div_lt_upper_bound; lia]).
Qed.

Lemma turned_step i j i' j' : Z.abs (fst (turned r n i j) - fst (turned r n i' j')) + Z.abs (snd (turned r n i j) - snd (turned r n i' j')) = Z.abs (i - i') + Z.abs (j - j').
Proof using v sym m k ox oy r w h Hv Fp K Mk Ox Oy Rw Rh. unfold turned. generalize n. clear. intros s. destruct r as [|[|[|r']]]; cbn [fst snd]; lia. Qed.

Lemma div_step a b : Z.abs (a - b) <= 1 -> Z.abs (a / m - b / m) <= Z.abs (a - b).
Proof using v sym m k ox oy r w h Hv Fp K Mk Ox Oy Rw Rh.
  intros H. assert (G : forall c, c / m <= (c + 1) / m <= c / m + 1).
  { intros c. split; [apply Z.div_le_mono; lia|]. rewrite <- (Z_div_plus_full c 1 m) by lia. apply Z.div_le_mono; lia. }
  assert (C : a = b \/ a = b + 1 \/ b = a + 1) by (clear - H; lia).
  destruct C as [-> | [-> | -> ]]; [lia| |]; [specialize (G b)|specialize (G a)]; lia.
Qed.

(** Adjacent dark pixels of different modules are in function patterns. *)
Lemma dark_step q q' : ink pic q <> 0 -> ink pic q' <> 0 -> adjacent q q' ->
  md q = md q' \/ (Z.abs (fst (md q) - fst (md q')) + Z.abs (snd (md q) - snd (md q')) = 1 /\ pattern_module v (fst (md q)) (snd (md q)) /\ pattern_module v (fst (md q')) (snd (md q'))).
Proof using v sym m k ox oy r w h Hv Fp K Mk Ox Oy Rw Rh.
  rewrite !dot_iff. intros (S1 & D1 & F1) (S2 & D2 & F2) A. unfold adjacent in A.
  assert (In : inner q \/ inner q' -> md q = md q').
  { intros H. unfold module_at. f_equal; destruct H as [[H1 H2]|[H1 H2]].
    - apply inset_div; [exact H1|lia].
    - symmetry. apply inset_div; [exact H1|lia].
    - apply inset_div; [exact H2|lia].
    - symmetry. apply inset_div; [exact H2|lia]. }
  destruct F1 as [F1|F1]; [|left; apply In; left; exact F1]. destruct F2 as [F2|F2]; [|left; apply In; right; exact F2]. clear In.
  unfold module_at. rewrite turned_step.
  pose proof (div_step (fst q - ox) (fst q' - ox) ltac:(lia)) as G1. pose proof (div_step (snd q - oy) (snd q' - oy) ltac:(lia)) as G2.
  set (i := (fst q - ox) / m) in *. set (i' := (fst q' - ox) / m) in *. set (j := (snd q - oy) / m) in *. set (j' := (snd q' - oy) / m) in *.
  destruct (Z.eq_dec (Z.abs (i - i') + Z.abs (j - j')) 1) as [E|E]; [right; auto|left]. clearbody i i' j j'. f_equal; clear - A G1 G2 E; lia.
Qed.

Lemma confined S p q : closed v sym S -> S (fst (md p)) (snd (md p)) -> blob w h (ink pic) p q -> S (fst (md q)) (snd (md q)).
Proof using v sym m k ox oy r w h Hv Fp K Mk Ox Oy Rw Rh.
  intros C H B. unfold blob in B. induction B as [|q q' L IH A [I Q]]; [exact H|].
  pose proof (linked_S _ _ _ L) as [_ Q0]. destruct (dark_step q q' Q0 Q A) as [<- | (St & F1 & F2)]; [exact IH|].
  pose proof Q as Q'. apply dot_iff in Q' as (Sq & D & _). destruct (square_module q' Sq) as [R1 R2].
  exact (C _ _ _ _ IH St R1 R2 F1 F2 D).
Qed.

Lemma inset_between a c b : inset m k a = true -> inset m k c = true -> a <= b <= c -> a / m = c / m -> b / m = a / m -> inset m k b = true.
Proof using v sym m k ox oy r w h Hv Fp K Mk Ox Oy Rw Rh.
  unfold inset. intros H1 H2 B E1 E2. pose proof (Z.div_mod a m ltac:(lia)) as D1. pose proof (Z.div_mod b m ltac:(lia)) as D2. pose proof (Z.div_mod c m ltac:(lia)) as D3.
  rewrite E2 in D2. rewrite <- E1 in D3. revert D1 D2 D3 H1 H2. generalize (m * (a / m)) (a mod m) (b mod m) (c mod m). clear - B. intros. lia.
Qed.

(** Between two dark pixels of a row in the same module there is no white one. *)
Lemma module_row x x' z y : ink pic (x, y) <> 0 -> ink pic (x', y) <> 0 -> md (x, y) = md (x', y) -> x <= z <= x' -> ink pic (z, y) <> 0.
Proof using v sym m k ox oy r w h Hv Fp K Mk Ox Oy Rw Rh.
  rewrite !dot_iff. intros (S1 & D1 & F1) (S2 & D2 & F2) E Hz.
  assert (Ei : (x - ox) / m = (x' - ox) / m).
  { unfold module_at in E. apply (f_equal (fun c => Z.abs (fst c - fst (turned r n ((x' - ox) / m) ((y - oy) / m))) + Z.abs (snd c - snd (turned r n ((x' - ox) / m) ((y - oy) / m))))) in E.
    cbn [fst snd] in E. rewrite !turned_step in E. clear - E. lia. }
  assert (Ez : (z - ox) / m = (x - ox) / m).
  { pose proof (Z.div_le_mono (x - ox) (z - ox) m ltac:(lia) ltac:(lia)). pose proof (Z.div_le_mono (z - ox) (x' - ox) m ltac:(lia) ltac:(lia)). lia. }
  assert (Em : md (z, y) = md (x, y)) by (unfold module_at; cbn [fst snd]; rewrite Ez; reflexivity).
  rewrite Em. split; [unfold in_square in *; cbn [fst snd] in *; lia|]. split; [exact D1|].
  destruct F1 as [F1|[I1 I2]]; [left; exact F1|]. rewrite E in *. destruct F2 as [F2|[I3 I4]]; [left; exact F2|right].
  split; [|exact I2]. apply (inset_between (x - ox) (x' - ox) (z - ox)); [exact I1|exact I3|lia|exact Ei|exact Ez].
Qed.

(** The picture as seen around an alignment pattern. *)
Lemma turned_centre cy cx : exists i0 j0, forall i j, 
  ring_no (fst (turned r n i j) - cy) (snd (turned r n i j) - cx) = ring_no (j - j0) (i - i0).
Proof using v sym m k ox oy r w h Hv Fp K Mk Ox Oy Rw Rh.
  generalize n. intros s. unfold turned, ring_no.
  destruct r as [|[|[|r']]]; [exists cx, cy|exists (s - 1 - cy), cx|exists (s - 1 - cx), (s - 1 - cy)|exists cy, (s - 1 - cx)]; intros i j; cbn [fst snd]; clear; lia.
Qed.

Lemma align_row cy cx y left stone right stop : align_centre v cy cx -> finder_row w (ink pic) y left stone right stop ->
  in_square n m ox oy (left, y) -> in_square n m ox oy (right, y) ->
  in_pattern (cy, cx) 2 (fst (md (left, y))) (snd (md (left, y))) -> in_pattern (cy, cx) 2 (fst (md (right, y))) (snd (md (right, y))) -> False.
Proof using v sym m k ox oy r w h Hv Fp K Mk Ox Oy Rw Rh.
  intros Hc (n1 & n2 & n3 & n4 & n5 & N1 & N2 & N3 & N4 & N5 & L0 & Es & Er & Ex & Lw & D1 & W2 & D3 & W4 & D5 & El & _ & Ra) S1 S2 P1 P2.
  destruct (turned_centre cy cx) as (i0 & j0 & Tc). unfold in_pattern, module_at in P1, P2. cbn [fst snd] in P1, P2. rewrite Tc in P1, P2.
  set (J := (y - oy) / m) in *. set (a := ox + (i0 - 1) * m).
  assert (M : 0 < m) by (clear - K Mk; lia).
  assert (Box : forall x, a - m <= x < a + 4 * m <-> -2 <= (x - ox) / m - i0 <= 2) by (intros x; apply (cells m ox i0 x M)).
  assert (Wh1 : forall x, a <= x < a + m <-> (x - ox) / m - i0 = -1) by (intros x; apply (cells m ox i0 x M)).
  assert (Wh2 : forall x, a + m <= x < a + 2 * m <-> (x - ox) / m - i0 = 0) by (intros x; apply (cells m ox i0 x M)).
  assert (Wh3 : forall x, a + 2 * m <= x < a + 3 * m <-> (x - ox) / m - i0 = 1) by (intros x; apply (cells m ox i0 x M)).
  assert (Dk : forall x, a - m <= x < a + 4 * m -> ox <= x < ox + n * m -> (ink pic (x, y) <> 0 <-> ring_no (J - j0) ((x - ox) / m - i0) <> 1)).
  { intros x Hx Hs. apply Box in Hx.
    assert (R : ring_no (J - j0) ((x - ox) / m - i0) <= 2) by (rewrite ring_le in *; clear - P1 Hx; lia).
    assert (Md : md (x, y) = turned r n ((x - ox) / m) J) by reflexivity.
    pose proof (fp_align _ _ Fp cy cx (fst (md (x, y)) - cy) (snd (md (x, y)) - cx) Hc) as Al. unfold align_dark in Al. rewrite !Md, Tc in Al.
    replace (cy + (fst (turned r n ((x - ox) / m) J) - cy)) with (fst (turned r n ((x - ox) / m) J)) in Al by ring.
    replace (cx + (snd (turned r n ((x - ox) / m) J) - cx)) with (snd (turned r n ((x - ox) / m) J)) in Al by ring. specialize (Al R).
    rewrite dot_iff, Md, Al.
    assert (Sq : in_square n m ox oy (x, y)) by (destruct S1 as [_ S1]; split; [exact Hs|exact S1]).
    assert (Fm : pattern_module v (fst (turned r n ((x - ox) / m) J)) (snd (turned r n ((x - ox) / m) J))) by (right; right; right; exists cy, cx; split; [exact Hc|rewrite Tc; exact R]).
    destruct (Z.eqb_spec (ring_no (J - j0) ((x - ox) / m - i0)) 1); cbn [negb]; intuition congruence. }
  assert (Bl : a - m <= left < a + 4 * m) by (apply Box; rewrite ring_le in P1; clear - P1; lia).
  assert (Br : a - m <= right < a + 4 * m) by (apply Box; rewrite ring_le in P2; clear - P2; lia).
  destruct S1 as [S1 _]. destruct S2 as [S2 _]. cbn [fst snd] in S1, S2.
  assert (Out : forall x, x < ox -> ink pic (x, y) = 0).
  { intros x Hx. unfold ink, dotted. cbn [fst snd]. replace (ox <=? x) with false by (clear - Hx; lia). reflexivity. }
  clearbody J. subst stone right stop. clear Tc Wh1 Wh2 Wh3 Box P1 P2.
  apply (align_line (fun x => ink pic (x, y)) m ox n i0 (J - j0) left n1 n2 n3 n4 n5 M); try assumption;
    first [exact (proj1 Bl)|exact (proj2 Br)|exact (proj1 S1)|exact (proj2 S2)|exact Dk|solve [first [apply D1|apply W2]; clear - N1 N2 N3 N4 N5; lia]
      |solve [first [apply D3|apply W4]; clear - N1 N2 N3 N4 N5; lia]|apply D5; clear - N1 N2 N3 N4 N5; lia].
Qed.

Theorem dotted_only : no_other_finder w h (ink pic) v m ox oy r.
Proof using v sym m k ox oy r w h Hv Fp K Mk Ox Oy Rw Rh.
  intros y left stone right (Hy & (stop & Row) & Bl & _).
  pose proof Row as (n1 & n2 & n3 & n4 & n5 & N1 & N2 & N3 & N4 & N5 & L0 & Es & Er & Ex & Lw & D1 & W2 & D3 & W4 & D5 & _).
  assert (Xl : ink pic (left, y) <> 0) by (apply D1; lia). assert (Xr : ink pic (right, y) <> 0) by (apply D5; lia). assert (Xw : ink pic (left + n1, y) = 0) by (apply W2; lia).
  assert (Sym : blob w h (ink pic) (left, y) (right, y)) by (apply linked_sym; exact Bl).
  pose proof Xl as (Sl & Dl & Fl)%dot_iff. pose proof Xr as (Sr & Dr & Fr)%dot_iff. destruct (square_module _ Sl) as [R1 R2].
  assert (One : closed v sym (fun y' x' => y' = fst (md (left, y)) /\ x' = snd (md (left, y))) -> False).
  { intros C. destruct (confined _ _ _ C (conj eq_refl eq_refl) Sym) as [E1 E2].
    apply (module_row left right (left + n1) y Xl Xr); [|lia|exact Xw]. destruct (md (left, y)), (md (right, y)). cbn [fst snd] in *. congruence. }
  destruct (solid v (fst (md (left, y))) (snd (md (left, y)))) eqn:So.
  2: { exfalso. apply One. intros y0 x0 y' x' [-> -> ] _ _ _ F. apply solid_iff in F. congruence. }
  apply solid_iff in So. set (y0 := fst (md (left, y))) in *. set (x0 := snd (md (left, y))) in *.
  assert (Fi : forall c, In c (finder_centres v) -> in_pattern c 4 y0 x0 -> in_finder v m ox oy r (right, y)).
  { intros c Hc P. assert (P3 : in_pattern c 3 y0 x0).
    { unfold in_pattern in *. destruct (Z_le_dec (ring_no (y0 - fst c) (x0 - snd c)) 3) as [L|L]; [exact L|]. exfalso.
      rewrite (finder_light v sym Hv Fp c y0 x0 Hc) in Dl; [discriminate|lia|exact R1|exact R2]. }
    split; [exact Sr|]. destruct c as [cy cx]. exists cy, cx. split; [exact Hc|].
    exact (confined _ _ _ (finder_closed v sym Hv Fp (cy, cx) Hc) P3 Sym). }
  assert (Al : forall c, align_centre v (fst c) (snd c) -> in_pattern c 2 y0 x0 -> False).
  { intros [cy cx] Hc P. apply (align_row cy cx y left stone right stop Hc Row Sl Sr P). exact (confined _ _ _ (align_closed v sym Hv Fp (cy, cx) Hc) P Sym). }
  destruct So as [(cy & cx & Hc & P)|[T|[T|(cy & cx & Hc & P)]]].
  - apply (Fi (cy, cx) Hc P).
  - destruct (existsb (fun c => ring_no (y0 - fst c) (x0 - snd c) <=? 4) (finder_centres v)) eqn:Ex4.
    + apply existsb_exists in Ex4 as (c & Hc & P). apply (Fi c Hc). apply Z.leb_le. exact P.
    + exfalso. apply One. apply (timing_closed v sym Hv Fp y0 x0 R1 R2 (or_introl T) Dl); [|exact Al].
      intros c Hc P. assert (X : existsb (fun c => ring_no (y0 - fst c) (x0 - snd c) <=? 4) (finder_centres v) = true) by (apply existsb_exists; exists c; split; [exact Hc|apply Z.leb_le; exact P]). congruence.
  - destruct (existsb (fun c => ring_no (y0 - fst c) (x0 - snd c) <=? 4) (finder_centres v)) eqn:Ex4.
    + apply existsb_exists in Ex4 as (c & Hc & P). apply (Fi c Hc). apply Z.leb_le. exact P.
    + exfalso. apply One. apply (timing_closed v sym Hv Fp y0 x0 R1 R2 (or_intror T) Dl); [|exact Al].
      intros c Hc P. assert (X : existsb (fun c => ring_no (y0 - fst c) (x0 - snd c) <=? 4) (finder_centres v) = true) by (apply existsb_exists; exists c; split; [exact Hc|apply Z.leb_le; exact P]). congruence.
  - exfalso. exact (Al (cy, cx) Hc P).
Qed.

Lemma dotted_legible : legible w h (ink pic) v sym m ox oy r.
Proof using v sym m k ox oy r w h Hv Fp K Mk Ox Oy Rw Rh.
  constructor; try assumption; [lia| |].
  - intros q Hq c Hc. rewrite dot_iff. fold c. split; [tauto|]. intros D. split; [exact Hq|]. split; [exact D|].
    destruct Hc as [Hc|[H1 H2]]; [left; exact Hc|right]. unfold central in *. unfold inner, inset.
    pose proof (Z.mod_pos_bound (fst q - ox) m ltac:(lia)). pose proof (Z.mod_pos_bound (snd q - oy) m ltac:(lia)).
    revert H1 H2 H H0. generalize ((fst q - ox) mod m) ((snd q - oy) mod m). clear - K Mk. intros. lia.
  - intros q q' _ N _ _ _. destruct (Z.eq_dec (ink pic q) 0) as [E|E]; [exact E|]. apply dot_iff in E as (Sq & _). contradiction.
Qed.
End Dots.

Theorem dotted_clear w h v sym m k ox oy r : 1 <= w <= 32768 -> 1 <= h <= 32768 -> 1 <= v <= 40 -> v <> 21 -> 1 <= k -> 2 * k + 2 <= m ->
  (7 * m - 1) * (7 * m - 1) * furthest v m ox oy r < 2 ^ 31 -> 0 <= ox -> 0 <= oy -> ox + symbol_size v * m <= w -> oy + symbol_size v * m <= h ->
  function_patterns v sym -> clear_picture w h (ink (dotted v sym m k ox oy r)) v sym m ox oy r.
Proof.
  intros Hw Hh Hv V21 K Mk Pr Ox Oy Rw Rh Fp. constructor; auto; [lia| |].
  - apply dotted_legible; assumption.
  - apply dotted_only; assumption.
Qed.

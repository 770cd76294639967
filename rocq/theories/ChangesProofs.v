(** The count of modules along a timing pattern. *)
From Coq Require Import SpecFloat.
From Verif Require Import Base Lib ModelImage ModelGeometry ModelDetect ModelIdentify SpecImage SpecGeometry SpecIdentify SpecChanges
  FloodProofs RegionProofs ScanProofs DetectProofs CornerProofs SearchProofs HistoryProofs ImageFacts SpiralProofs SampleProofs PropGeometry.
From Coq Require Import ZifyBool ZifyNat ZifyN.
Open Scope Z_scope.
Set Bullet Behavior "Strict Subproofs".

(** The byte of the image that is read for a place. *)
Definition byte_at (p : prepared) (q : Z * Z) : Z := pix (p_buf p) (nearest_pixel (p_w p) (p_h p) q).

Lemma sample_byte I0 p q : reg_inv I0 p -> 1 <= im_w I0 <= 2 ^ 31 -> 1 <= im_h I0 <= 2 ^ 31 ->
  get_pixel_at_point p (pt q) = Ok (color_of (byte_at p q)) /\ 0 <= byte_at p q.
Proof.
  intros R Hw Hh. assert (Sz : p_w p = im_w I0 /\ p_h p = im_h I0) by apply (bi_size _ _ (ri_base _ _ R)). destruct Sz as [Sw Sh].
  set (r := nearest_pixel (im_w I0) (im_h I0) q).
  pose proof (nearest_in (im_w I0) (im_h I0) q ltac:(lia) ltac:(lia)) as I. fold r in I. unfold byte_at. rewrite Sw, Sh.
  split; [|apply (color_nonneg I0 p); assumption].
  unfold get_pixel_at_point, usub. rewrite Sw, Sh.
  replace (1 <=? im_w I0) with true by (symmetry; apply Z.leb_le; lia).
  replace (1 <=? im_h I0) with true by (symmetry; apply Z.leb_le; lia). cbn [bind pt px py].
  assert (A : forall n, 1 <= n <= 2 ^ 31 -> as_i32 (n - 1) = n - 1).
  { intros n Hn. unfold as_i32. rewrite Z.mod_small; lia. }
  rewrite !A by lia.
  assert (B : forall n z, 1 <= n <= 2 ^ 31 -> as_usize (Z.max 0 (Z.min (n - 1) z)) = Z.max 0 (Z.min (n - 1) z)).
  { intros n z Hn. unfold as_usize. apply Z.mod_small. lia. }
  rewrite !B by lia. destruct (pix_color I0 p (fst r) (snd r) R) as [E _]; [apply I|apply I|].
  unfold r in *. cbn [fst snd nearest_pixel] in *. exact E.
Qed.

Lemma changes_nonneg l : 0 <= changes l.
Proof. induction l as [|a [|b t] IH]; [reflexivity|reflexivity|]. change (0 <= (if a =? b then 0 else 1) + changes (b :: t)). destruct (a =? b); lia. Qed.

Lemma changes_length l : changes l <= Z.max 0 (Z.of_nat (length l) - 1).
Proof.
  induction l as [|a [|b t] IH]; [cbn; lia|cbn; lia|]. change (changes (a :: b :: t)) with ((if a =? b then 0 else 1) + changes (b :: t)).
  cbn [length] in *. destruct (a =? b); lia.
Qed.

Lemma scan_changes I0 p : reg_inv I0 p -> 1 <= im_w I0 <= 2 ^ 31 -> 1 <= im_h I0 <= 2 ^ 31 ->
  forall l, exists o, for_each (map pt l) (fun q s =>
    let '(count, previous) := s in
    let* pixel := get_pixel_at_point p q in
    let count := match previous with
                 | Some c => if color_eqb c pixel then count else count + 1
                 | None => count
                 end in
    Ok (count, Some pixel)) (0, None) = Ok (changes (map (byte_at p) l), o).
Proof.
  intros R Hw Hh. set (body := fun (q : point) (s : Z * option color) => _).
  assert (Bd : forall q n o, body (pt q) (n, o) = Ok (match o with Some c => if color_eqb c (color_of (byte_at p q)) then n else n + 1 | None => n end, Some (color_of (byte_at p q)))).
  { intros q n o. destruct (sample_byte I0 p q R Hw Hh) as [E _]. unfold body. unfold out in *. rewrite E. reflexivity. }
  clearbody body.
  assert (G : forall l a n, 0 <= a -> exists o, for_each (map pt l) body (n, Some (color_of a)) = Ok (n + changes (a :: map (byte_at p) l), o)).
  { intros l. induction l as [|q l IH]; intros a n Ha.
    - exists (Some (color_of a)). cbn. f_equal. f_equal. lia.
    - destruct (sample_byte I0 p q R Hw Hh) as [_ B]. cbn [map for_each]. rewrite Bd. cbn [bind].
      destruct (IH (byte_at p q) (if color_eqb (color_of a) (color_of (byte_at p q)) then n else n + 1) B) as (o & Eo).
      exists o. rewrite Eo. f_equal. f_equal.
      change (changes (a :: byte_at p q :: map (byte_at p) l)) with ((if a =? byte_at p q then 0 else 1) + changes (byte_at p q :: map (byte_at p) l)).
      destruct (color_eqb _ _) eqn:Ec.
      + apply color_eqb_ok, color_of_inj in Ec; [|assumption|assumption]. replace (a =? byte_at p q) with true by lia. lia.
      + destruct (a =? byte_at p q) eqn:Ea; [|lia]. apply Z.eqb_eq in Ea. rewrite <- Ea in Ec.
        rewrite (proj2 (color_eqb_ok _ _) eq_refl) in Ec. discriminate. }
  intros [|q l]; [exists None; reflexivity|].
  destruct (sample_byte I0 p q R Hw Hh) as [_ B]. cbn [map for_each]. rewrite Bd. cbn [bind].
  destruct (G l (byte_at p q) 0 B) as (o & Eo). exists o. rewrite Eo. reflexivity.
Qed.

Theorem timing_count I0 p a b l : reg_inv I0 p -> 1 <= im_w I0 <= 2 ^ 31 -> 1 <= im_h I0 <= 2 ^ 31 ->
  bres_points a b = Ok (map pt l) -> timing_scan p a b = Ok (changes (map (byte_at p) l)).
Proof.
  intros R Hw Hh E. unfold timing_scan. rewrite E. cbn [bind]. destruct (scan_changes I0 p R Hw Hh l) as (o & Eo).
  unfold out in *. rewrite Eo. reflexivity.
Qed.

Lemma map_pt (l : list point) : map pt (map (fun r => (px r, py r)) l) = l.
Proof. rewrite map_map. rewrite (map_ext _ (fun r => r)); [apply map_id|]. intros []; reflexivity. Qed.

(** Black and white. *)
Definition dark_at (I0 : image) (q : Z * Z) : Z := if pix I0 (nearest_pixel (im_w I0) (im_h I0) q) =? 0 then 0 else 1.

(** Places next to each other that are both dark lie in one component. *)
Definition joined (I0 : image) (q r : Z * Z) : Prop :=
  dark_at I0 q = 1 -> dark_at I0 r = 1 ->
  iblob I0 (nearest_pixel (im_w I0) (im_h I0) q) (nearest_pixel (im_w I0) (im_h I0) r).

Lemma byte_white I0 p q : reg_inv I0 p -> 1 <= im_w I0 -> 1 <= im_h I0 -> (byte_at p q = 0 <-> dark_at I0 q = 0).
Proof.
  intros R Hw Hh. assert (Sz : p_w p = im_w I0 /\ p_h p = im_h I0) by apply (bi_size _ _ (ri_base _ _ R)). destruct Sz as [Sw Sh].
  unfold byte_at, dark_at. rewrite Sw, Sh. pose proof (nearest_in (im_w I0) (im_h I0) q Hw Hh) as I.
  rewrite (bi_white _ _ (ri_base _ _ R) _ I). destruct (_ =? 0) eqn:E; lia.
Qed.

Lemma dark_two I0 q : dark_at I0 q = 0 \/ dark_at I0 q = 1.
Proof. unfold dark_at. destruct (_ =? 0); auto. Qed.

Lemma count_above I0 p : reg_inv I0 p -> 1 <= im_w I0 -> 1 <= im_h I0 ->
  forall l, changes (map (dark_at I0) l) <= changes (map (byte_at p) l).
Proof.
  intros R Hw Hh l. induction l as [|q [|r l] IH]; [cbn; lia|cbn; lia|].
  cbn [map] in *. change (changes (dark_at I0 q :: dark_at I0 r :: map (dark_at I0) l)) with ((if dark_at I0 q =? dark_at I0 r then 0 else 1) + changes (dark_at I0 r :: map (dark_at I0) l)).
  change (changes (byte_at p q :: byte_at p r :: map (byte_at p) l)) with ((if byte_at p q =? byte_at p r then 0 else 1) + changes (byte_at p r :: map (byte_at p) l)).
  pose proof (byte_white I0 p q R Hw Hh). pose proof (byte_white I0 p r R Hw Hh). pose proof (dark_two I0 q). pose proof (dark_two I0 r).
  destruct (dark_at I0 q =? dark_at I0 r) eqn:E1, (byte_at p q =? byte_at p r) eqn:E2; lia.
Qed.

Lemma count_same I0 p : reg_inv I0 p -> 1 <= im_w I0 -> 1 <= im_h I0 ->
  forall l, consecutive (joined I0) l -> changes (map (byte_at p) l) = changes (map (dark_at I0) l).
Proof.
  intros R Hw Hh l. assert (Sz : p_w p = im_w I0 /\ p_h p = im_h I0) by apply (bi_size _ _ (ri_base _ _ R)). destruct Sz as [Sw Sh].
  induction l as [|q [|r l] IH]; intros J; [reflexivity|reflexivity|]. destruct J as [J J']. specialize (IH J').
  cbn [map] in *. change (changes (dark_at I0 q :: dark_at I0 r :: map (dark_at I0) l)) with ((if dark_at I0 q =? dark_at I0 r then 0 else 1) + changes (dark_at I0 r :: map (dark_at I0) l)).
  change (changes (byte_at p q :: byte_at p r :: map (byte_at p) l)) with ((if byte_at p q =? byte_at p r then 0 else 1) + changes (byte_at p r :: map (byte_at p) l)).
  pose proof (byte_white I0 p q R Hw Hh) as B1. pose proof (byte_white I0 p r R Hw Hh) as B2. pose proof (dark_two I0 q) as D1. pose proof (dark_two I0 r) as D2.
  assert (S : dark_at I0 q = 1 -> dark_at I0 r = 1 -> byte_at p q = byte_at p r).
  { intros X Y. unfold byte_at. rewrite Sw, Sh. symmetry. apply (blob_color I0 _ _ _ (ri_base _ _ R)). exact (J X Y). }
  destruct (dark_at I0 q =? dark_at I0 r) eqn:E1, (byte_at p q =? byte_at p r) eqn:E2; lia.
Qed.

Lemma fresh_count I0 p : fresh I0 p -> 1 <= im_w I0 -> 1 <= im_h I0 -> forall l, changes (map (byte_at p) l) = changes (map (dark_at I0) l).
Proof.
  intros (-> & _ & _ & B) Hw Hh l. f_equal. apply map_ext. intros q. unfold byte_at, dark_at, p_w, p_h. cbn [p_buf].
  destruct (B _ (nearest_in (im_w I0) (im_h I0) q Hw Hh)) as [-> | -> ]; reflexivity.
Qed.

(** The size of the grid follows from the larger count. *)
Section Numbers.
Context {T : Type} {N : Num T}.

Theorem measure_size p (g : group T) s :
  measure_timing_pattern p g = Ok s <->
  exists t0 t1 t2 h v, persp_map (cap_c (gr0 g)) (n_ratio 13 2) (n_ratio 1 2) = Ok t0
    /\ persp_map (cap_c (gr1 g)) (n_ratio 13 2) (n_ratio 13 2) = Ok t1
    /\ persp_map (cap_c (gr2 g)) (n_ratio 1 2) (n_ratio 13 2) = Ok t2
    /\ timing_scan p t1 t2 = Ok h /\ timing_scan p t1 t0 = Ok v
    /\ 1 <= Z.max h v
    /\ exists k, s = side_of_version k /\ 0 <= k /\ (k = 0 \/ 4 * k + 2 <= Z.max h v) /\ Z.max h v <= 4 * k + 5.
Proof.
  unfold measure_timing_pattern, side_of_version. unfold out in *. split.
  - destruct (persp_map _ _ _) as [t0|[]| |]; cbn [bind]; try discriminate.
    destruct (persp_map _ _ _) as [t1|[]| |]; cbn [bind]; try discriminate.
    destruct (persp_map _ _ _) as [t2|[]| |]; cbn [bind]; try discriminate.
    destruct (timing_scan p t1 t2) as [h|[]| |] eqn:Eh; cbn [bind]; try discriminate.
    destruct (timing_scan p t1 t0) as [v|[]| |] eqn:Ev; cbn [bind]; try discriminate.
    destruct (1 <=? Z.max h v) eqn:E1; cbn [assert_ bind]; try discriminate. intros E. injection E as <-.
    exists t0, t1, t2, h, v. do 6 (split; [first [reflexivity|assumption|lia]|]).
    exists (Z.max 0 (Z.max h v + 13 - 15) / 4). clear - E1. lia.
  - intros (t0 & t1 & t2 & h & v & -> & -> & -> & E1 & E2 & H & k & -> & Hk & Lo & Hi). cbn [bind]. rewrite E1. cbn [bind]. rewrite E2. cbn [bind].
    replace (1 <=? Z.max h v) with true by lia. cbn [assert_ bind]. f_equal. clear - H Hk Lo Hi. lia.
Qed.
End Numbers.

(** Along a walk. *)
Lemma scan_walk I0 p a b : reached64 I0 p -> 1 <= im_w I0 <= 2 ^ 31 -> 1 <= im_h I0 <= 2 ^ 31 ->
  Z.abs (fst a) < 2 ^ 29 -> Z.abs (snd a) < 2 ^ 29 -> Z.abs (fst b) < 2 ^ 29 -> Z.abs (snd b) < 2 ^ 29 ->
  exists l, walk (fst a) (snd a) (fst b) (snd b) l
    /\ timing_scan p (pt a) (pt b) = Ok (changes (map (fun q => pix (p_buf p) (nearest_pixel (im_w I0) (im_h I0) q)) l)).
Proof.
  intros R Hw Hh A1 A2 B1 B2. apply reached_inv in R. destruct (C40_bresenham (pt a) (pt b)) as (l & E & W); try assumption.
  exists (map (fun r => (px r, py r)) l). split; [exact W|].
  rewrite (timing_count I0 p (pt a) (pt b) (map (fun r => (px r, py r)) l) R Hw Hh) by (rewrite map_pt; exact E).
  assert (Sz : p_w p = im_w I0 /\ p_h p = im_h I0) by apply (bi_size _ _ (ri_base _ _ R)). destruct Sz as [Sw Sh].
  unfold byte_at. rewrite Sw, Sh. reflexivity.
Qed.

Lemma byte_map I0 p l : reg_inv I0 p -> map (fun q => pix (p_buf p) (nearest_pixel (im_w I0) (im_h I0) q)) l = map (byte_at p) l.
Proof.
  intros R. assert (Sz : p_w p = im_w I0 /\ p_h p = im_h I0) by apply (bi_size _ _ (ri_base _ _ R)). destruct Sz as [Sw Sh].
  unfold byte_at. rewrite Sw, Sh. reflexivity.
Qed.

Lemma fresh_walk I0 p a b : fresh I0 p -> 1 <= im_w I0 <= 2 ^ 31 -> 1 <= im_h I0 <= 2 ^ 31 ->
  Z.abs (fst a) < 2 ^ 29 -> Z.abs (snd a) < 2 ^ 29 -> Z.abs (fst b) < 2 ^ 29 -> Z.abs (snd b) < 2 ^ 29 ->
  exists l, walk (fst a) (snd a) (fst b) (snd b) l /\ timing_scan p (pt a) (pt b) = Ok (changes (map (dark_at I0) l)).
Proof.
  intros F Hw Hh A1 A2 B1 B2. assert (R : reached64 I0 p) by (apply reached_fresh; exact F).
  destruct (scan_walk I0 p a b R Hw Hh A1 A2 B1 B2) as (l & W & E). exists l. split; [exact W|].
  rewrite E, (byte_map I0 p l (reached_inv I0 p R)). f_equal. apply fresh_count; [exact F|lia|lia].
Qed.

Lemma reached_walk I0 p a b : reached64 I0 p -> 1 <= im_w I0 <= 2 ^ 31 -> 1 <= im_h I0 <= 2 ^ 31 ->
  Z.abs (fst a) < 2 ^ 29 -> Z.abs (snd a) < 2 ^ 29 -> Z.abs (fst b) < 2 ^ 29 -> Z.abs (snd b) < 2 ^ 29 ->
  exists l n, walk (fst a) (snd a) (fst b) (snd b) l /\ timing_scan p (pt a) (pt b) = Ok n
    /\ changes (map (dark_at I0) l) <= n <= Z.of_nat (length l) - 1
    /\ (consecutive (joined I0) l -> n = changes (map (dark_at I0) l)).
Proof.
  intros R Hw Hh A1 A2 B1 B2. destruct (scan_walk I0 p a b R Hw Hh A1 A2 B1 B2) as (l & W & E). apply reached_inv in R.
  exists l. eexists. split; [exact W|]. split; [exact E|]. rewrite (byte_map I0 p l R). split; [split|].
  - apply count_above; [exact R|lia|lia].
  - pose proof (changes_length (map (byte_at p) l)) as C. rewrite map_length in C. destruct W as (Ln & _). lia.
  - apply count_same; [exact R|lia|lia].
Qed.

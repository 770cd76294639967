(** The image properties in terms of the public operations. *)
From Verif Require Import Base Lib ModelImage ModelGeometry ModelDetect ModelIdentify SpecImage SpecScan FloodProofs RegionProofs PrepareProofs ScanProofs DetectProofs CornerProofs SearchProofs HistoryProofs CenterProofs.
From Coq Require Import SpecFloat.
Open Scope Z_scope.
Set Bullet Behavior "Strict Subproofs".

(** * Preparation *)

Lemma color_bw b : b = 0 \/ b = 1 -> color_of b = if b =? 0 then White else Black.
Proof. intros [-> | -> ]; reflexivity. Qed.

Lemma bitmap_ok w h fill : 0 <= w -> 0 <= h -> w * h <= usize_max ->
  exists p, prepare_from_bitmap w h fill = Ok p /\ p_w p = w /\ p_h p = h /\ fresh (p_buf p) p
    /\ forall x y, inside w h (x, y) -> get_pixel_at p x y = Ok (if fill x y then Black else White).
Proof.
  intros Hw Hh U. unfold prepare_from_bitmap. rewrite usz_ok by assumption. cbn [bind].
  set (f := fun x y => if fill x y then 1 else 0). change (MkImage w h (collect w h f)) with (image_of w h f).
  pose proof (image_of_wf w h f Hw Hh) as W.
  assert (B : forall q, in_image (image_of w h f) q -> pix (image_of w h f) q = 0 \/ pix (image_of w h f) q = 1).
  { intros q Hq. rewrite pix_image_of by exact Hq. unfold f. destruct (fill _ _); auto. }
  rewrite without_preparation_ok by assumption. eexists. split; [reflexivity|]. split; [reflexivity|]. split; [reflexivity|].
  split. { repeat split; try apply W; try assumption. }
  intros x y Hq. unfold get_pixel_at. cbn [p_buf]. rewrite get_pixel_ok by assumption. cbn [bind].
  rewrite pix_image_of by assumption. cbn [fst snd]. unfold f. destruct (fill x y); reflexivity.
Qed.

Lemma bitmap_too_big w h fill : usize_max < w * h -> prepare_from_bitmap w h fill = Panic.
Proof. intros H. unfold prepare_from_bitmap, usz. replace (w * h <=? usize_max) with false by lia. reflexivity. Qed.

(** [M] bounds the luminance of the rows up to [y]. *)
Definition bounded_upto (im : image) (y M : Z) : Prop :=
  forall q, in_image im q -> snd q <= y -> pix im q <= M.

Lemma prepare_ok im : wf_image im -> im_w im < 2 ^ 31 -> im_w im * im_h im <= usize_max -> gray im ->
  exists p, prepare im = Ok p /\ p_w p = im_w im /\ p_h p = im_h im /\ fresh (p_buf p) p
    /\ (forall x y, in_image im (x, y) -> get_pixel_at p x y = Ok White \/ get_pixel_at p x y = Ok Black)
    /\ (forall x y M, in_image im (x, y) -> bounded_upto im y M -> 95 * M / 100 <= pix im (x, y) -> get_pixel_at p x y = Ok White).
Proof.
  intros W Hw U G.
  destruct (threshold_ok im (fun _ => 255)) as (im' & E & W' & S' & P'); try assumption; try lia.
  unfold prepare. rewrite E. cbn [bind]. eexists. split; [reflexivity|]. destruct S' as [S1 S2].
  assert (S' : same_size im im') by (split; assumption).
  split; [exact S1|]. split; [exact S2|].
  assert (B : forall q, in_image im' q -> pix im' q = 0 \/ pix im' q = 1) by (intros q Hq; apply P'; apply (same_size_in _ _ _ S'); assumption).
  split. { repeat split; try apply W'; try assumption. cbn. rewrite S1, S2. assumption. }
  assert (Px : forall x y, in_image im (x, y) -> get_pixel_at (MkPrepared im' []) x y = Ok (color_of (pix im' (x, y)))).
  { intros x y Hq. unfold get_pixel_at. cbn [p_buf]. rewrite get_pixel_ok; [reflexivity|assumption|apply (same_size_in _ _ _ S'); assumption]. }
  split.
  - intros x y Hq. rewrite Px by assumption. destruct (P' _ Hq) as [[-> | -> ] _]; auto.
  - intros x y M Hq HM Hb. rewrite Px by assumption.
    destruct (threshold_ok im (fun y' => if y' <=? y then Z.min 255 (Z.max 0 M) else 255)) as (im2 & E2 & W2 & S2' & P2); try assumption.
    + intros y'. destruct (y' <=? y); lia.
    + intros y' y'' Hy. destruct (Z.leb_spec y' y), (Z.leb_spec y'' y); lia.
    + intros q Hq'. pose proof (G _ Hq'). destruct (Z.leb_spec (snd q) y); [|lia]. specialize (HM q Hq' H0). lia.
    + rewrite E in E2. injection E2 as <-. destruct (P2 _ Hq) as [_ P3]. rewrite P3; [reflexivity|].
      cbn [snd]. replace (y <=? y) with true by lia. pose proof (G _ Hq).
      assert (95 * Z.min 255 (Z.max 0 M) / 100 <= Z.max 0 (95 * M / 100)); [|lia].
      destruct (Z_le_gt_dec 0 M).
      * assert (95 * Z.min 255 (Z.max 0 M) / 100 <= 95 * M / 100) by (apply Z.div_le_mono; lia). lia.
      * replace (Z.min 255 (Z.max 0 M)) with 0 by lia. cbn. lia.
Qed.

Lemma greyscale_ok w h fill : 0 <= w < 2 ^ 31 -> 0 <= h -> w * h <= usize_max ->
  (forall x y, inside w h (x, y) -> 0 <= fill x y <= 255) ->
  exists p, prepare_from_greyscale w h fill = Ok p /\ p_w p = w /\ p_h p = h /\ fresh (p_buf p) p
    /\ (forall x y, inside w h (x, y) -> get_pixel_at p x y = Ok White \/ get_pixel_at p x y = Ok Black)
    /\ (forall x y M, inside w h (x, y) -> (forall x' y', inside w h (x', y') -> y' <= y -> fill x' y' <= M) ->
          95 * M / 100 <= fill x y -> get_pixel_at p x y = Ok White).
Proof.
  intros Hw Hh U G. unfold prepare_from_greyscale. rewrite usz_ok by assumption. cbn [bind].
  change (MkImage w h (collect w h fill)) with (image_of w h fill).
  assert (Px : forall q, inside w h q -> pix (image_of w h fill) q = fill (fst q) (snd q)) by (intros; apply pix_image_of; assumption).
  destruct (prepare_ok (image_of w h fill)) as (p & E & S1 & S2 & F & P1 & P2).
  - apply image_of_wf; lia.
  - cbn; lia.
  - exact U.
  - intros [x y] Hq. rewrite Px by exact Hq. apply G, Hq.
  - exists p. split; [exact E|]. split; [exact S1|]. split; [exact S2|]. split; [exact F|]. split; [exact P1|].
    intros x y M Hq HM Hb. apply (P2 x y M Hq).
    + intros [x' y'] Hq' Hy. rewrite Px by exact Hq'. apply HM; assumption.
    + rewrite Px by exact Hq. assumption.
Qed.

(** Luminance 242 and above is never black; neither is anything in a uniform picture. *)
Lemma greyscale_bright w h fill : 0 <= w < 2 ^ 31 -> 0 <= h -> w * h <= usize_max ->
  (forall x y, inside w h (x, y) -> 0 <= fill x y <= 255) ->
  exists p, prepare_from_greyscale w h fill = Ok p /\
    (forall x y, inside w h (x, y) -> 242 <= fill x y -> get_pixel_at p x y = Ok White) /\
    ((forall x y x' y', inside w h (x, y) -> inside w h (x', y') -> fill x y = fill x' y') ->
       forall x y, inside w h (x, y) -> get_pixel_at p x y = Ok White).
Proof.
  intros Hw Hh U G. destruct (greyscale_ok w h fill Hw Hh U G) as (p & E & _ & _ & _ & _ & P).
  exists p. split; [exact E|]. split.
  - intros x y Hq Hb. apply (P x y 255 Hq); [intros; apply G; assumption|]. cbn. lia.
  - intros H x y Hq. pose proof (G _ _ Hq). apply (P x y (fill x y) Hq).
    + intros x' y' Hq' _. rewrite (H x' y' x y Hq' Hq). lia.
    + apply Z.div_le_upper_bound; lia.
Qed.

(** The result for a row depends on the rows up to it. *)
Lemma greyscale_causal w h1 h2 f1 f2 Y p1 p2 : 0 <= w < 2 ^ 31 -> 0 <= Y <= h1 -> Y <= h2 ->
  (forall x y, inside w h1 (x, y) -> 0 <= f1 x y <= 255) -> (forall x y, inside w h2 (x, y) -> 0 <= f2 x y <= 255) ->
  (forall x y, inside w Y (x, y) -> f1 x y = f2 x y) ->
  prepare_from_greyscale w h1 f1 = Ok p1 -> prepare_from_greyscale w h2 f2 = Ok p2 ->
  forall x y, inside w Y (x, y) -> get_pixel_at p1 x y = get_pixel_at p2 x y.
Proof.
  intros Hw HY HY2 G1 G2 Heq E1 E2 x y Hq.
  assert (Px : forall h f q, inside w h q -> pix (image_of w h f) q = f (fst q) (snd q)) by (intros; apply pix_image_of; assumption).
  unfold prepare_from_greyscale in *. destruct (usz (w * h1)); cbn [bind] in E1; try discriminate.
  destruct (usz (w * h2)); cbn [bind] in E2; try discriminate. clear a a0.
  change (MkImage w h1 (collect w h1 f1)) with (image_of w h1 f1) in E1. change (MkImage w h2 (collect w h2 f2)) with (image_of w h2 f2) in E2.
  unfold prepare in *.
  assert (Gr1 : gray (image_of w h1 f1)) by (intros [x' y'] Hq'; rewrite Px by exact Hq'; apply G1, Hq').
  assert (Gr2 : gray (image_of w h2 f2)) by (intros [x' y'] Hq'; rewrite Px by exact Hq'; apply G2, Hq').
  assert (W1 : wf_image (image_of w h1 f1)) by (apply image_of_wf; lia).
  assert (W2 : wf_image (image_of w h2 f2)) by (apply image_of_wf; lia).
  destruct (threshold_ok (image_of w h1 f1) (fun _ => 255)) as (r1 & T1 & V1 & S1 & _); try assumption; try lia; [cbn; lia|].
  destruct (threshold_ok (image_of w h2 f2) (fun _ => 255)) as (r2 & T2 & V2 & S2 & _); try assumption; try lia; [cbn; lia|].
  rewrite T1 in E1. rewrite T2 in E2. cbn [bind] in *. injection E1 as <-. injection E2 as <-.
  assert (I1 : in_image (image_of w h1 f1) (x, y)) by (destruct Hq; split; cbn in *; lia).
  assert (I2 : in_image (image_of w h2 f2) (x, y)) by (destruct Hq; split; cbn in *; lia).
  unfold get_pixel_at. cbn [p_buf].
  rewrite !get_pixel_ok; try assumption; try (eapply same_size_in; eassumption). cbn [bind]. do 2 f_equal.
  apply (threshold_causal (image_of w h1 f1) (image_of w h2 f2) Y r1 r2); try assumption; try reflexivity; try (cbn; lia).
  - intros [x' y'] Hq' Hy. rewrite !Px. + apply Heq. destruct Hq'. split; cbn in *; lia. + destruct Hq'. split; cbn in *; lia. + exact Hq'.
  - destruct Hq. cbn in *. lia.
Qed.

(** * Flood fill *)

Lemma repaint_exact p x y c tb F (update : row -> F -> out F) f :
  wf_image (p_buf p) -> in_image (p_buf p) (x, y) -> color_byte c = Ok tb ->
  pix (p_buf p) (x, y) <> 0 -> pix (p_buf p) (x, y) <> tb ->
  let C := component (p_w p) (p_h p) (pix (p_buf p)) (x, y) in
  exists im' rows, wf_image im' /\ im_w im' = p_w p /\ im_h im' = p_h p /\
    (forall q, in_image (p_buf p) q -> (C q -> pix im' q = tb) /\ (~ C q -> pix im' q = pix (p_buf p) q)) /\
    NoDup (rows_cells rows) /\ (forall q, In q (rows_cells rows) <-> C q) /\
    Forall (fun r => r_left r <= r_right r) rows /\
    repaint_and_apply p x y c update f = (let* f' := for_each rows update f in Ok (MkPrepared im' (p_cache p), f')).
Proof.
  intros W I Eb N0 N1 C.
  destruct (flood_fill_ok (p_buf p) x y (pix (p_buf p) (x, y)) tb W I N1) as (im' & rows & W' & [S1 S2] & P & D & R & O & E).
  exists im', rows. split; [assumption|]. split; [assumption|]. split; [assumption|]. split; [exact P|].
  split; [assumption|]. split; [exact R|]. split; [assumption|].
  unfold repaint_and_apply. rewrite get_pixel_ok by assumption. cbn [bind]. rewrite Eb. cbn [bind].
  replace (0 =? pix (p_buf p) (x, y)) with false by lia. replace (tb =? pix (p_buf p) (x, y)) with false by lia. cbn [orb].
  unfold out in *. rewrite E. destruct (for_each rows update f); reflexivity.
Qed.

(** The area counter counts the pixels. *)
Lemma repaint_count p x y c tb : wf_image (p_buf p) -> p_w p * p_h p <= usize_max ->
  in_image (p_buf p) (x, y) -> color_byte c = Ok tb ->
  pix (p_buf p) (x, y) <> 0 -> pix (p_buf p) (x, y) <> tb ->
  exists p' n, repaint_and_apply p x y c count_row 0 = Ok (p', n)
    /\ area (component (p_w p) (p_h p) (pix (p_buf p)) (x, y)) n.
Proof.
  intros W U I Eb N0 N1.
  destruct (repaint_exact p x y c tb Z count_row 0 W I Eb N0 N1) as (im' & rows & _ & _ & _ & _ & D & R & O & E).
  assert (L : Z.of_nat (length (rows_cells rows)) <= p_w p * p_h p).
  { apply pixels_bound; try assumption; try apply W. intros q Hq. apply R in Hq. apply linked_S in Hq. apply Hq. }
  rewrite count_rows in E by (try assumption; lia). cbn [bind] in E.
  eexists. exists (0 + Z.of_nat (length (rows_cells rows))). split; [exact E|].
  exists (rows_cells rows). split; [assumption|]. split; [exact R|lia].
Qed.

Lemma color_disc k : 0 <= k -> color_of (k + 5) = Discarded k.
Proof.
  intros H. unfold color_of. repeat match goal with |- context [?a =? ?c] => replace (a =? c) with false by lia end.
  f_equal. lia.
Qed.

Section Numbers.
Context {T : Type} {N : Num T}.
Notation reached := (reached (T := T)).

(** * Histories *)

Lemma history_white I0 p : reached I0 p ->
  p_w p = im_w I0 /\ p_h p = im_h I0 /\
  (forall x y, in_image I0 (x, y) -> exists c, get_pixel_at p x y = Ok c /\ (c = White <-> pix I0 (x, y) = 0)) /\
  (forall x y x' y', blob (im_w I0) (im_h I0) (pix I0) (x, y) (x', y') -> get_pixel_at p x y = get_pixel_at p x' y').
Proof.
  intros H. pose proof (reached_inv I0 p H) as R. pose proof (ri_base _ _ R) as B.
  destruct (bi_size _ _ B) as [S1 S2]. split; [exact S1|]. split; [exact S2|].
  assert (Px : forall x y, in_image I0 (x, y) -> get_pixel_at p x y = Ok (color_of (pix (p_buf p) (x, y)))).
  { intros x y I. destruct I as [I1 I2]. apply (pix_color I0 p x y R I2 I1). }
  split.
  - intros x y I. eexists. split; [apply Px, I|]. pose proof (color_nonneg I0 p _ R I) as P.
    rewrite <- (bi_white _ _ B) by assumption. split; [|intros ->; reflexivity].
    intros E. apply color_of_inj; [assumption|lia|exact E].
  - intros x y x' y' L. assert (I' := linked_S _ _ _ L). assert (I := linked_start _ _ _ L).
    rewrite !Px by (apply I || apply I'). do 2 f_equal. symmetry. apply (blob_color I0 (p_buf p)); assumption.
Qed.

(** A region query in any reached state. *)
Lemma history_region I0 p x y : reached I0 p -> in_image I0 (x, y) -> pix I0 (x, y) <> 0 ->
  exists reg p', get_region p x y = Ok (reg, p') /\ reached I0 p' /\
    match get_pixel_at p x y with
    | Ok CCapStone => reg = RCapStone | Ok CAlignment => reg = RAlignment | Ok CTmp1 => reg = RTmp1
    | _ => exists c sx sy n, reg = Unclaimed c sx sy n /\
        blob (im_w I0) (im_h I0) (pix I0) (x, y) (sx, sy) /\
        area (blob (im_w I0) (im_h I0) (pix I0) (x, y)) n /\
        (forall x' y', in_image I0 (x', y') ->
           (get_pixel_at p' x' y' = Ok c <-> blob (im_w I0) (im_h I0) (pix I0) (x, y) (x', y')))
    end.
Proof.
  intros H I N0. pose proof (reached_inv I0 p H) as R. pose proof (ri_base _ _ R) as B.
  assert (N1 : pix (p_buf p) (x, y) <> 0) by (rewrite (bi_white _ _ B) by assumption; assumption).
  destruct (get_region_ok I0 p x y R I N1) as (reg & p' & E & R' & _ & A & _).
  exists reg, p'. split; [exact E|]. split; [eapply reached_query; eassumption|].
  assert (Px : forall p, reg_inv I0 p -> forall x y, in_image I0 (x, y) -> get_pixel_at p x y = Ok (color_of (pix (p_buf p) (x, y)))).
  { intros p2 R2 x' y' [I1 I2]. apply (pix_color I0 p2 x' y' R2 I2 I1). }
  rewrite (Px p R x y I). pose proof (color_nonneg I0 p _ R I) as P.
  set (b := pix (p_buf p) (x, y)) in *.
  assert (Gen : (exists k sx sy n, reg = Unclaimed (Discarded k) sx sy n /\ 0 <= k < cache_cap /\
      iblob I0 (x, y) (sx, sy) /\ area (iblob I0 (x, y)) n /\
      (forall r, in_image I0 r -> (pix (p_buf p') r = k + 5 <-> iblob I0 (x, y) r))) ->
    exists c sx sy n, reg = Unclaimed c sx sy n /\
        blob (im_w I0) (im_h I0) (pix I0) (x, y) (sx, sy) /\
        area (blob (im_w I0) (im_h I0) (pix I0) (x, y)) n /\
        (forall x' y', in_image I0 (x', y') ->
           (get_pixel_at p' x' y' = Ok c <-> blob (im_w I0) (im_h I0) (pix I0) (x, y) (x', y')))).
  { intros (k & sx & sy & n & -> & Hk & Hs & Ha & Hc). exists (Discarded k), sx, sy, n. split; [reflexivity|]. split; [exact Hs|].
    split; [exact Ha|]. intros x' y' I'. fold (iblob I0 (x, y)). rewrite (Px p' R' x' y' I'). rewrite <- Hc by assumption.
    pose proof (color_nonneg I0 p' _ R' I') as P'. split; intros X.
    - injection X as X. apply color_of_inj; [assumption|lia|]. rewrite X, color_disc by lia. reflexivity.
    - rewrite X, color_disc by lia. reflexivity. }
  unfold region_answer in A.
  destruct (Z.eq_dec b 2) as [-> |D2]; [exact A|]. destruct (Z.eq_dec b 3) as [-> |D3]; [exact A|]. destruct (Z.eq_dec b 4) as [-> |D4]; [exact A|].
  assert (A' : exists k sx sy n, reg = Unclaimed (Discarded k) sx sy n /\ 0 <= k < cache_cap /\
      iblob I0 (x, y) (sx, sy) /\ area (iblob I0 (x, y)) n /\
      (forall r, in_image I0 r -> (pix (p_buf p') r = k + 5 <-> iblob I0 (x, y) r))).
  { destruct b as [|[[b|b|]|[b|[b|b|]|]|]|b]; try exact A; try lia. }
  specialize (Gen A').
  unfold color_of. repeat match goal with |- context [b =? ?c] => destruct (b =? c) eqn:?; try lia end; exact Gen.
Qed.

(** A query of a white pixel panics. *)
Lemma history_region_white I0 p x y : reached I0 p -> in_image I0 (x, y) -> pix I0 (x, y) = 0 -> get_region p x y = Panic.
Proof.
  intros H I E. pose proof (reached_inv I0 p H) as R. pose proof (ri_base _ _ R) as B.
  apply get_region_white; [apply B|apply (same_size_in _ _ _ (bi_size _ _ B)); assumption|apply (bi_white _ _ B); assumption].
Qed.

(** * A row of the search *)

(** What the scanner reports along row [y] of a reached image, white being fed after its end. *)
Lemma row_reports I0 p y : reached I0 p -> 1 <= im_w I0 -> 0 <= y < im_h I0 ->
  exists cs, length cs = Z.to_nat (im_w I0) /\ (forall x, 0 <= x < im_w I0 -> get_pixel_at p x y = Ok (nth (Z.to_nat x) cs White)) /\
  exists os s, feed (scan_new (nth 0 cs White)) (tl cs ++ [White]) = Ok (os, s) /\ length os = Z.to_nat (im_w I0) /\
    forall x l, 1 <= x <= im_w I0 -> (nth (Z.to_nat (x - 1)) os None = Some l <-> candidate I0 y x l).
Proof.
  intros H Hw Hy. pose proof (reached_inv I0 p H) as R. pose proof (ri_base _ _ R) as B.
  set (f := fun x => color_of (pix (p_buf p) (x, y))). exists (map f (zrange 0 (im_w I0))).
  split; [rewrite map_length, length_zrange; lia|]. split.
  { intros x Hx. rewrite (nth_indep _ White (f 0)) by (rewrite map_length, length_zrange; lia). rewrite map_nth, nth_zrange by lia.
    replace (0 + Z.of_nat (Z.to_nat x)) with x by lia. apply (pix_color I0 p x y R Hy Hx). }
  rewrite (@zrange_cons 0 (im_w I0)) by lia. cbn [map nth tl].
  assert (G : forall n x s, 1 <= x -> x + Z.of_nat n = im_w I0 -> tracks (row_upto I0 y x) s ->
      (s_last s <> White -> s_last s = f (x - 1)) ->
      exists os s', feed s (map f (zrange x (im_w I0)) ++ [White]) = Ok (os, s') /\ length os = S n /\
        forall x' l, x <= x' <= im_w I0 -> (nth (Z.to_nat (x' - x)) os None = Some l <-> candidate I0 y x' l)).
  { induction n as [|n IH]; intros x s Hx En Tr La.
    - rewrite zrange_nil by lia. cbn [map app feed].
      destruct (advance_tracks (row_upto I0 y x) s White (bit I0 y x) Tr) as (o & s' & Ea & _ & _ & Ho).
      + rewrite row_upto_last by lia.
        assert (W : bit I0 y x = White) by (unfold bit; replace (x <? im_w I0) with false by lia; reflexivity).
        rewrite W. destruct Tr as (s0 & S0 & _ & _ & _ & _ & Wl). rewrite Wl. rewrite <- (scanned_last _ _ S0 White), row_upto_last by lia. reflexivity.
      + unfold bit. replace (x <? im_w I0) with false by lia. tauto.
      + rewrite Ea. cbn [bind fst snd]. eexists. eexists. split; [reflexivity|]. split; [reflexivity|].
        intros x' l Hx'. assert (x' = x) by lia. subst x'. replace (Z.to_nat (x - x)) with O by lia. cbn [nth]. apply Ho.
    - rewrite zrange_cons by lia. cbn [map app feed].
      destruct (pix_color I0 p x y R Hy ltac:(lia)) as [E C]. fold (f x) in *.
      destruct (advance_tracks (row_upto I0 y x) s (f x) (bit I0 y x) Tr) as (o & s' & Ea & Tr' & La' & Ho).
      + rewrite row_upto_last by lia.
        assert (L0 : s_last s = White <-> bit I0 y (x - 1) = White).
        { destruct Tr as (s0 & S0 & _ & _ & _ & _ & W). rewrite W. rewrite <- (scanned_last _ _ S0 White), row_upto_last by lia. reflexivity. }
        destruct (bit_cases I0 y (x - 1)) as [B1|B1], (bit_cases I0 y x) as [B2|B2].
        * rewrite B1, B2. apply L0 in B1. apply C in B2. rewrite B1, B2. tauto.
        * rewrite B1, B2. apply L0 in B1. rewrite B1. split; [|discriminate]. intros X. symmetry in X. apply C in X. congruence.
        * rewrite B1, B2. apply C in B2. rewrite B2. split; [|discriminate]. intros X. apply L0 in X. congruence.
        * rewrite B1, B2. split; [reflexivity|]. intros _. rewrite La by (intros X; apply L0 in X; congruence).
          unfold f. f_equal. destruct (bit_nonwhite I0 y (x - 1)) as [_ N1]; [congruence|]. destruct (bit_nonwhite I0 y x) as [_ N2]; [congruence|].
          assert (I1 : in_image I0 (x - 1, y)) by (split; cbn; lia). assert (I2 : in_image I0 (x, y)) by (split; cbn; lia).
          apply (bi_mono _ _ B); try assumption; [unfold adjacent; cbn; lia| |]; rewrite (bi_white _ _ B) by assumption; assumption.
      + exact C.
      + rewrite Ea. cbn [bind fst snd].
        destruct (IH (x + 1) s') as (os & s2 & E2 & L2 & H2); [lia|lia|rewrite row_upto_snoc by lia; exact Tr'|intros _; rewrite La'; f_equal; lia|].
        rewrite E2. cbn [bind fst snd]. eexists. eexists. split; [reflexivity|]. split; [cbn [length]; lia|].
        intros x' l Hx'. destruct (Z.eq_dec x' x) as [-> |D].
        * replace (Z.to_nat (x - x)) with O by lia. cbn [nth]. apply Ho.
        * replace (Z.to_nat (x' - x)) with (S (Z.to_nat (x' - (x + 1)))) by lia. cbn [nth]. apply H2. lia. }
  destruct (G (Z.to_nat (im_w I0 - 1)) 1 (scan_new (f 0))) as (os & s & E & L & Ho); [lia|lia| | |].
  - change 1 with (0 + 1). rewrite row_upto_snoc by lia. unfold row_upto. change (zrange 0 0) with (@nil Z). cbn [map app].
    destruct (pix_color I0 p 0 y R Hy ltac:(lia)) as [_ C].
    exists (scan_new (bit I0 y 0)). split; [apply scanned_new|]. cbn. repeat split; apply C.
  - reflexivity.
  - exists os, s. split; [exact E|]. split; [lia|]. exact Ho.
Qed.

Lemma candidate_inside I0 y x l : 0 <= y < im_h I0 -> candidate I0 y x l ->
  0 <= l_left l /\ l_left l < l_stone l < l_right l /\ l_right l < x /\
  (in_image I0 (l_left l, y) /\ pix I0 (l_left l, y) <> 0) /\
  (in_image I0 (l_stone l, y) /\ pix I0 (l_stone l, y) <> 0) /\
  (in_image I0 (l_right l, y) /\ pix I0 (l_right l, y) <> 0).
Proof.
  intros Hy C. destruct (candidate_dark I0 y x l C) as ((A1 & A2) & (B1 & B2) & (C1 & C2) & D).
  destruct (bit_nonwhite I0 y (l_left l)) as [E1 E2]; [congruence|].
  destruct (bit_nonwhite I0 y (l_stone l)) as [F1 F2]; [congruence|].
  destruct (bit_nonwhite I0 y (l_right l)) as [G1 G2]; [congruence|].
  unfold in_image, inside. cbn [fst snd]. repeat split; try assumption; lia.
Qed.
End Numbers.

(** * The search, with binary64 arithmetic *)

Notation reached64 := (reached (T := spec_float)).

Lemma safe64 I0 : im_w I0 <= 32768 -> im_h I0 <= 32768 -> safe (T := spec_float) I0.
Proof. intros Hw Hh. split; [|split]; try (unfold max_dim; lia). apply center_maps_f64; unfold max_dim; lia. Qed.

Lemma fits I0 p : reached64 I0 p -> im_w I0 <= 32768 -> im_h I0 <= 32768 -> 100 * (im_w I0 * im_h I0) <= usize_max.
Proof.
  intros H Hw Hh. pose proof (bi_wf _ _ (ri_base _ _ (reached_inv I0 p H))) as (A & B & _).
  destruct (bi_size _ _ (ri_base _ _ (reached_inv I0 p H))) as [S1 S2]. rewrite S1 in A. rewrite S2 in B. unfold usize_max. nia.
Qed.

Theorem search64 I0 p0 : reached64 I0 p0 -> 1 <= im_w I0 <= 32768 -> im_h I0 <= 32768 ->
  exists caps p', capstones_from_image p0 = Ok (caps, p') /\ reached64 I0 p' /\ claims_grow I0 p0 p'
     /\ (exists rings, Forall2 (ring_of I0 p0 p') rings caps /\ ForallOrdPairs (fun a b => ~ iblob I0 a b) rings)
     /\ (forall y x l, 0 <= y < im_h I0 -> 1 <= x <= im_w I0 -> candidate I0 y x l -> ~ accepted I0 p' y l)
     /\ (forall q, in_image I0 q -> claimed p' q -> ~ claimed p0 q -> claim_made I0 p0 p' caps q)
     /\ exists p'', capstones_from_image (T := spec_float) p' = Ok ([], p'').
Proof.
  intros H Hw Hh. pose proof (reached_inv I0 p0 H) as R. pose proof (safe64 I0 ltac:(lia) Hh) as Sf. pose proof (fits I0 p0 H ltac:(lia) Hh) as Ft.
  destruct (search_ok (T := spec_float) I0 p0 R ltac:(lia)) as [(caps & p' & E & R' & G & Rg & Nn & _ & Nw)|[_ [X|X]]]; [|exfalso; auto|exfalso; auto].
  exists caps, p'. split; [exact E|]. assert (H' : reached64 I0 p') by (eapply reached_search; eassumption).
  split; [exact H'|]. split; [exact G|]. split; [exact Rg|]. split; [exact Nn|]. split; [exact Nw|].
  destruct (search_ok (T := spec_float) I0 p' R' ltac:(lia)) as [(c2 & p2 & E2 & _ & _ & _ & _ & H2 & _)|[_ [X|X]]]; [|exfalso; auto|exfalso; auto].
  exists p2. rewrite E2. rewrite (H2 Nn). reflexivity.
Qed.

(** Thresholding of pictures with light and dark pixels. *)
From Verif Require Import Base Lib ModelImage SpecImage SpecThreshold.
From Coq Require Import ZifyBool.
Open Scope Z_scope.
Set Bullet Behavior "Strict Subproofs".

Section Smooth.
Context (ts : Z) (f : Z -> Z) (Ht : 2 <= ts) (Hf : forall k, 0 <= k -> 0 <= f k).
Definition lifted (n : nat) : Z := smooth ts f n + (ts - 1).

Lemma smooth_nonneg n : 0 <= smooth ts f n.
Proof using Ht Hf.
  induction n as [|n IH]; cbn [smooth]; [lia|]. pose proof (Hf (Z.of_nat n) ltac:(lia)).
  assert (0 <= smooth ts f n * (ts - 1) / ts) by (apply Z.div_pos; nia). lia.
Qed.

Lemma lifted_step n : (ts - 1) * lifted n + ts * f (Z.of_nat n) <= ts * lifted (S n).
Proof using Ht Hf.
  unfold lifted. cbn [smooth]. set (s := smooth ts f n). pose proof (Z.div_mod (s * (ts - 1)) ts ltac:(lia)) as E.
  pose proof (Z.mod_pos_bound (s * (ts - 1)) ts ltac:(lia)) as B. revert E B. generalize (s * (ts - 1) / ts) (s * (ts - 1) mod ts). intros q r E B. nia.
Qed.

Lemma pow_nonneg a (k : nat) : 0 <= a -> 0 <= a ^ Z.of_nat k.
Proof using Ht Hf. intros H. apply Z.pow_nonneg. exact H. Qed.

Lemma pow_S a (k : nat) : a ^ Z.of_nat (S k) = a * a ^ Z.of_nat k.
Proof using Ht Hf. rewrite Nat2Z.inj_succ. apply Z.pow_succ_r. lia. Qed.

(** The samples from [n] on, summed up. *)
Fixpoint total (n c : nat) : Z := match c with O => f (Z.of_nat n) | S c' => total n c' + f (Z.of_nat (n + c)) end.

Lemma total_front n c : total n (S c) = f (Z.of_nat n) + total (S n) c.
Proof using Ht Hf.
  induction c as [|c IH]; [cbn [total]; rewrite Nat.add_1_r; reflexivity|].
  cbn [total] in *. rewrite IH. replace (S n + S c)%nat with (n + S (S c))%nat by lia. lia.
Qed.

Lemma total_left n c : total n c * (ts - 1) ^ Z.of_nat c <= ts ^ Z.of_nat c * lifted (S (n + c)).
Proof using Ht Hf.
  induction c as [|c IH].
  - rewrite Nat.add_0_r. change (Z.of_nat 0) with 0. rewrite !Z.pow_0_r. cbn [total]. pose proof (lifted_step n) as St.
    assert (0 <= lifted n) by (unfold lifted; pose proof (smooth_nonneg n); lia). assert (0 <= (ts - 1) * lifted n) by (apply Z.mul_nonneg_nonneg; lia).
    assert (f (Z.of_nat n) * ts <= lifted (S n) * ts) by lia. assert (f (Z.of_nat n) <= lifted (S n)) by (apply Zmult_le_reg_r with ts; lia). lia.
  - cbn [total]. pose proof (lifted_step (n + S c)) as St. pose proof (Hf (Z.of_nat (n + S c)) ltac:(lia)) as F0. rewrite !pow_S.
    replace (S (n + c)) with (n + S c)%nat in IH by lia.
    pose proof (pow_nonneg (ts - 1) c ltac:(lia)) as P1. pose proof (pow_nonneg ts c ltac:(lia)) as P2.
    assert (P3 : (ts - 1) ^ Z.of_nat c <= ts ^ Z.of_nat c) by (apply Z.pow_le_mono_l; lia).
    revert P1 P2 P3 IH St F0. generalize ((ts - 1) ^ Z.of_nat c) (ts ^ Z.of_nat c) (lifted (n + S c)) (lifted (S (n + S c))) (f (Z.of_nat (n + S c))) (total n c).
    intros A B T T' F C P1 P2 P3 IH St F0.
    assert (Q1 : B * ((ts - 1) * T + ts * F) <= B * (ts * T')) by (apply Z.mul_le_mono_nonneg_l; lia).
    assert (Q2 : (ts - 1) * (C * A) <= (ts - 1) * (B * T)) by (apply Z.mul_le_mono_nonneg_l; lia).
    assert (Q3 : F * ((ts - 1) * A) <= F * (ts * B)) by (apply Z.mul_le_mono_nonneg_l; [lia|]; apply Z.mul_le_mono_nonneg; lia).
    lia.
Qed.

Lemma bernoulli j : (ts - Z.of_nat j) * ts ^ Z.of_nat j <= ts * (ts - 1) ^ Z.of_nat j.
Proof using Ht Hf.
  induction j as [|j IH]; [change (Z.of_nat 0) with 0; rewrite !Z.pow_0_r; lia|]. rewrite !pow_S. replace (Z.of_nat (S j)) with (Z.of_nat j + 1) by lia.
  pose proof (pow_nonneg ts j ltac:(lia)) as P. assert (P0 : 0 <= Z.of_nat j) by lia. revert IH P P0. generalize (Z.of_nat j) (ts ^ Z.of_nat j) ((ts - 1) ^ Z.of_nat j). intros J A B IH P P0.
  assert (Q : (ts - 1) * ((ts - J) * A) <= (ts - 1) * (ts * B)) by (apply Z.mul_le_mono_nonneg_l; lia). assert (0 <= J * A) by (apply Z.mul_nonneg_nonneg; assumption). lia.
Qed.

(** Half the memory at most halves the weight. *)
Lemma half_weight : ts ^ (ts / 2) <= 2 * (ts - 1) ^ (ts / 2).
Proof using Ht Hf.
  assert (H0 : 0 <= ts / 2) by (apply Z.div_pos; lia). pose proof (bernoulli (Z.to_nat (ts / 2))) as B. rewrite Z2Nat.id in B by exact H0.
  assert (H1 : 2 * (ts / 2) <= ts) by (apply Z.mul_div_le; lia). pose proof (Z.pow_nonneg ts (ts / 2) ltac:(lia)) as P.
  revert B P H1. generalize (ts / 2) (ts ^ (ts / 2)) ((ts - 1) ^ (ts / 2)). intros h A C B P H1.
  assert (ts * A <= ts * (2 * C)) by nia. nia.
Qed.

Lemma halves_weight k : 0 <= k -> ts ^ (k * (ts / 2)) <= 2 ^ k * (ts - 1) ^ (k * (ts / 2)).
Proof using Ht Hf.
  intros Hk. assert (H0 : 0 <= ts / 2) by (apply Z.div_pos; lia). rewrite (Z.mul_comm k), !Z.pow_mul_r by lia. rewrite <- Z.pow_mul_l.
  apply Z.pow_le_mono_l. split; [apply Z.pow_nonneg; lia|exact half_weight].
Qed.

Lemma weight k d : 0 <= k -> 0 <= d <= k * (ts / 2) -> ts ^ d <= 2 ^ k * (ts - 1) ^ d.
Proof using Ht Hf.
  intros Hk Hd. pose proof (halves_weight k Hk) as H. replace (k * (ts / 2)) with (d + (k * (ts / 2) - d)) in H by ring.
  rewrite !Z.pow_add_r in H by lia. set (e := k * (ts / 2) - d) in *. assert (He : 0 <= e) by (unfold e; lia). clearbody e.
  assert (P : 0 < ts ^ e) by (apply Z.pow_pos_nonneg; lia). assert (P1 : (ts - 1) ^ e <= ts ^ e) by (apply Z.pow_le_mono_l; lia).
  pose proof (Z.pow_nonneg (ts - 1) d ltac:(lia)) as P2. pose proof (Z.pow_nonneg 2 k ltac:(lia)) as P3.
  revert H P P1 P2 P3. generalize (ts ^ d) ((ts - 1) ^ d) (ts ^ e) ((ts - 1) ^ e) (2 ^ k). intros A B C D K H P P1 P2 P3.
  assert (Q : K * (B * D) <= K * (B * C)) by (apply Z.mul_le_mono_nonneg_l; [lia|apply Z.mul_le_mono_nonneg_l; lia]).
  assert (A * C <= (K * B) * C) by lia. apply Zmult_le_reg_r with C; lia.
Qed.

Lemma light_left n c k : 0 <= k -> Z.of_nat c <= k * (ts / 2) -> total n c <= 2 ^ k * (smooth ts f (S (n + c)) + (ts - 1)).
Proof using Ht Hf.
  intros Hk Hd. pose proof (total_left n c) as R. change (smooth ts f (S (n + c)) + (ts - 1)) with (lifted (S (n + c))).
  pose proof (weight k (Z.of_nat c) Hk ltac:(lia)) as W.
  assert (P1 : 0 < (ts - 1) ^ Z.of_nat c) by (apply Z.pow_pos_nonneg; lia). 
  assert (P5 : 0 <= lifted (S (n + c))) by (unfold lifted; pose proof (smooth_nonneg (S (n + c))); lia).
  revert R W P1 P5. generalize ((ts - 1) ^ Z.of_nat c) (ts ^ Z.of_nat c) (lifted (S (n + c))) (2 ^ k) (total n c).
  intros A A' U K C R W P1 P5.
  assert (Q3 : A' * U <= K * A * U) by (apply Z.mul_le_mono_nonneg_r; lia).
  apply Zmult_le_reg_r with A; lia.
Qed.
End Smooth.

Section Lit.
Context (w h : Z) (lum : pixel -> Z) (Hw : 16 <= w) (G : forall q, inside w h q -> 0 <= lum q).

Lemma memory_two : 2 <= memory w.
Proof using Hw G. unfold memory. assert (2 <= w / 8) by (apply Z.div_le_lower_bound; lia). lia. Qed.

(** Samples beyond the last row do not matter. *)
Definition kept (q : pixel) : Z := Z.max 0 (lum q).

Lemma smooth_ext ts f g n : (forall k, 0 <= k < Z.of_nat n -> f k = g k) -> smooth ts f n = smooth ts g n.
Proof using Hw G. induction n as [|n IH]; intros H; cbn [smooth]; [reflexivity|]. rewrite IH, (H (Z.of_nat n)) by (lia || (intros; apply H; lia)). reflexivity. Qed.

Lemma snake_inside mirror k q : inside w h q -> 0 <= k <= place w mirror q -> inside w h (snake w mirror k).
Proof using Hw G.
  intros [Hx Hy] Hk. unfold snake, inside, place in *. cbv zeta. cbn [fst snd].
  assert (B : (if xorb (Z.odd (snd q)) mirror then w - 1 - fst q else fst q) <= w - 1) by (destruct (xorb _ _); lia).
  pose proof (Z.mod_pos_bound k w ltac:(lia)) as M. assert (D : 0 <= k / w) by (apply Z.div_pos; lia).
  assert (D2 : k / w < h). { apply Z.div_lt_upper_bound; [lia|]. assert (snd q * w + w <= w * h) by nia. lia. }
  split; [clear -M; destruct (xorb (Z.odd (k / w)) mirror); lia|lia].
Qed.

Lemma place_range mirror q : inside w h q -> 0 <= place w mirror q.
Proof using Hw G. intros [Hx Hy]. unfold place. assert (0 <= snd q * w) by nia. destruct (xorb _ _); lia. Qed.

Lemma mean_kept mirror q : inside w h q -> local_mean w lum mirror q = local_mean w kept mirror q.
Proof using Hw G.
  intros Hq. unfold local_mean. apply smooth_ext. intros k Hk. pose proof (place_range mirror q Hq).
  pose proof (G _ (snake_inside mirror k q Hq ltac:(lia))). unfold kept. lia.
Qed.

Lemma mean_nonneg mirror q : inside w h q -> 0 <= local_mean w lum mirror q.
Proof using Hw G.
  intros Hq. rewrite mean_kept by exact Hq. apply smooth_nonneg; [exact memory_two|]. intros k _. unfold kept. lia.
Qed.

(** The samples before [q]. *)
Lemma snake_back mirror q i : inside w h q -> let side := if xorb (Z.odd (snd q)) mirror then 1 else -1 in
  0 <= fst q + side * i < w -> snake w mirror (place w mirror q - i) = (fst q + side * i, snd q).
Proof using Hw G.
  intros [Hx Hy] side Hi. rewrite <- (place_snake w mirror (fst q + side * i, snd q)) by (cbn [fst snd]; lia). f_equal.
  unfold place. cbn [fst snd]. unfold side. destruct (xorb _ _); lia.
Qed.

Lemma beside_total mirror q d : inside w h q -> let side := if xorb (Z.odd (snd q)) mirror then 1 else -1 in
  0 <= fst q + side * Z.of_nat d < w ->
  Z.of_nat d <= place w mirror q /\
  beside lum q side d = total (fun k => kept (snake w mirror k)) (Z.to_nat (place w mirror q - Z.of_nat d)) d.
Proof using Hw G.
  intros Hq side Hd. pose proof (place_range mirror q Hq) as P0.
  assert (HP : Z.of_nat d <= place w mirror q).
  { unfold place in *. destruct Hq as [Hx Hy]. assert (0 <= snd q * w) by nia. unfold side in Hd. destruct (xorb _ _); lia. }
  split; [exact HP|].
  assert (At : forall i, 0 <= i <= Z.of_nat d -> kept (snake w mirror (place w mirror q - i)) = lum (fst q + side * i, snd q)).
  { intros i Hi. assert (Hi2 : 0 <= fst q + side * i < w) by (destruct Hq as [Hx Hy]; unfold side in *; destruct (xorb _ _); lia).
    rewrite (snake_back mirror q i Hq Hi2). fold side. unfold kept. pose proof (G (fst q + side * i, snd q)) as G1. destruct Hq as [Hx Hy].
    specialize (G1 ltac:(split; [exact Hi2|exact Hy])). lia. }
  assert (Gen : forall n e, (n + e)%nat = Z.to_nat (place w mirror q) -> (e <= d)%nat ->
     total (fun k => kept (snake w mirror k)) n e = beside lum q side e).
  { intros n e. revert n. induction e as [|e IH]; intros n En Le.
    - cbn [total beside]. replace (Z.of_nat n) with (place w mirror q - 0) by lia. rewrite At by lia. f_equal. rewrite Z.mul_0_r, Z.add_0_r. destruct q; reflexivity.
    - cbn [beside]. rewrite <- (IH (S n)) by lia.
      replace (lum (fst q + side * Z.of_nat (S e), snd q)) with (kept (snake w mirror (Z.of_nat n))) by (rewrite <- At by lia; do 2 f_equal; lia).
      rewrite (total_front (memory w) (fun k => kept (snake w mirror k)) memory_two ltac:(intros; unfold kept; lia)). lia. }
  symmetry. apply Gen; lia.
Qed.

Lemma lit_dark q : inside w h q -> lit w lum q -> is_dark w lum q = true.
Proof using Hw G.
  intros Hq (k & d1 & d2 & Hk & Hd1 & Hd2 & Hl & Hr & Hsum).
  pose proof memory_two as Hm. set (ts := memory w) in *.
  assert (Main : forall mirror d, Z.of_nat d <= k * (ts / 2) -> 0 <= fst q + (if xorb (Z.odd (snd q)) mirror then 1 else -1) * Z.of_nat d < w ->
    beside lum q (if xorb (Z.odd (snd q)) mirror then 1 else -1) d <= 2 ^ k * (local_mean w lum mirror q + (ts - 1))).
  { intros mirror d Hd Hi. destruct (beside_total mirror q d Hq Hi) as [HP ->]. rewrite mean_kept by exact Hq. unfold local_mean. fold ts.
    set (P := place w mirror q) in *.
    pose proof (light_left ts (fun k0 => kept (snake w mirror k0)) Hm ltac:(intros; unfold kept; lia) (Z.to_nat (P - Z.of_nat d)) d k Hk Hd) as L.
    replace (S (Z.to_nat (P - Z.of_nat d) + d)) with (S (Z.to_nat P)) in L by lia. exact L. }
  pose proof Hq as [Hx Hy].
  assert (Both : beside lum q (-1) d1 + beside lum q 1 d2 <= 2 ^ k * (local_mean w lum false q + local_mean w lum true q + 2 * (ts - 1))).
  { destruct (Z.odd (snd q)) eqn:Eo.
    - pose proof (Main false d2 Hd2) as M2. pose proof (Main true d1 Hd1) as M1. cbn [xorb] in M1, M2. specialize (M1 ltac:(lia)). specialize (M2 ltac:(lia)). lia.
    - pose proof (Main false d1 Hd1) as M1. pose proof (Main true d2 Hd2) as M2. cbn [xorb] in M1, M2. specialize (M1 ltac:(lia)). specialize (M2 ltac:(lia)). lia. }
  unfold is_dark. fold ts. apply Z.ltb_lt.
  pose proof (G q Hq) as L0. assert (Pk : 0 < 2 ^ k) by (apply Z.pow_pos_nonneg; lia).
  revert Both Hsum Pk L0. generalize (beside lum q (-1) d1 + beside lum q 1 d2) (local_mean w lum false q + local_mean w lum true q) (2 ^ k) (lum q). clear - Hm.
  intros B A K L Both Hsum Pk L0.
  assert (Big : 200 * ts * (L + 1) <= A * 95).
  { assert (Q : (ts * (200 * L + 390)) * K <= (95 * (A + 2 * (ts - 1))) * K) by lia.
    assert (ts * (200 * L + 390) <= 95 * (A + 2 * (ts - 1))) by (apply Zmult_le_reg_r with K; lia). lia. }
  apply Z.lt_le_trans with (L + 1); [lia|]. apply Z.div_le_lower_bound; lia.
Qed.
End Lit.

(** * Pictures of light and dark pixels *)
From Verif Require Import ModelDecode ModelGeometry ModelDetect ModelIdentify SpecPayload SpecFinder SpecPicture FinderFacts PictureProofs EndToEnd SymbolProofs SpecQR.

Lemma two_toned_dark w h fill : 16 <= w < 2 ^ 31 -> 0 <= h -> w * h <= usize_max -> two_toned w h fill ->
  forall x y, inside w h (x, y) -> is_dark w (fun q => fill (fst q) (snd q)) (x, y) = (fill x y <? 241).
Proof.
  intros Hw Hh Hs T x y Hq.
  assert (G : forall x y, inside w h (x, y) -> 0 <= fill x y <= 255) by (intros x' y' H'; destruct (T x' y' H'); lia).
  destruct (greyscale_exact w h fill ltac:(lia) Hh Hs G) as (p & E & _ & _ & _ & P).
  destruct (greyscale_bright_sharp w h fill ltac:(lia) Hh Hs G) as (p' & E' & B). rewrite E in E'. injection E' as <-.
  specialize (P x y Hq). specialize (B x y Hq).
  assert (D : ~ 241 <= fill x y -> is_dark w (fun q => fill (fst q) (snd q)) (x, y) = true).
  { intros N. apply (lit_dark w h); [lia|intros [a b] H'; apply G; exact H'|exact Hq|]. destruct (T x y Hq) as [?|[_ L]]; [lia|exact L]. }
  destruct (fill x y <? 241) eqn:E1.
  - apply D. lia.
  - rewrite B in P by lia. destruct (is_dark _ _ _); [discriminate P|reflexivity].
Qed.

Theorem two_toned_threshold w h fill : 16 <= w < 2 ^ 31 -> 0 <= h -> w * h <= usize_max -> two_toned w h fill ->
  exists p, prepare_from_greyscale w h fill = Ok p
    /\ forall x y, inside w h (x, y) -> get_pixel_at p x y = Ok (if fill x y <? 241 then Black else White).
Proof.
  intros Hw Hh Hs T.
  assert (G : forall x y, inside w h (x, y) -> 0 <= fill x y <= 255) by (intros x' y' H'; destruct (T x' y' H'); lia).
  destruct (greyscale_exact w h fill ltac:(lia) Hh Hs G) as (p & E & _ & _ & _ & P). exists p. split; [exact E|].
  intros x y Hq. rewrite (P x y Hq), (two_toned_dark w h fill Hw Hh Hs T x y Hq). reflexivity.
Qed.

Theorem two_toned_scan {Srt : Sorter SpecFloat.spec_float} w h fill v e mask msg sym m ox oy r : 16 <= w -> two_toned w h fill ->
  clear_picture w h (ink (fun x y => fill x y <? 241)) v sym m ox oy r ->
  0 <= mask < 8 -> message_ok v msg -> fits v e msg -> is_symbol v e mask msg sym ->
  exists p, prepare_from_greyscale w h fill = Ok p /\ scans_to p (message_bytes msg) (mkMeta v (level_bits e) mask).
Proof.
  intros Hw T C. pose proof (cp_width _ _ _ _ _ _ _ _ _ C) as Ww. pose proof (cp_height _ _ _ _ _ _ _ _ _ C) as Wh.
  apply scan_greyscale with (m := m) (ox := ox) (oy := oy) (r := r); [intros x y H'; destruct (T x y H'); lia|].
  eapply clear_picture_same; [|exact C]. intros [x y] Hq. unfold ink, shade. cbn [fst snd].
  rewrite (two_toned_dark w h fill) by (try assumption; unfold usize_max; nia). tauto.
Qed.

(** * Checking *)

(** Some number of half memories below [n] will do, as far as the row reaches. *)
Definition lit_check (w : Z) (n : Z) (lum : pixel -> Z) (q : pixel) : bool :=
  existsb (fun k =>
    let d1 := Z.to_nat (Z.min (k * (memory w / 2)) (fst q)) in
    let d2 := Z.to_nat (Z.min (k * (memory w / 2)) (w - 1 - fst q)) in
    2 ^ k * memory w * (200 * lum q + 390) <=? 95 * (beside lum q (-1) d1 + beside lum q 1 d2)) (zrange 0 n).

Lemma lit_checked w n lum q : 0 <= fst q < w -> lit_check w n lum q = true -> lit w lum q.
Proof.
  intros Hq H. apply existsb_exists in H. destruct H as (k & Hk & H). cbv zeta in H. apply in_zrange in Hk. apply Z.leb_le in H.
  assert (0 <= memory w / 2) by (apply Z.div_pos; unfold memory; lia). assert (0 <= k * (memory w / 2)) by (apply Z.mul_nonneg_nonneg; lia).
  eexists k, _, _. split; [lia|]. split; [|split; [|split; [|split; [|exact H]]]]; rewrite Z2Nat.id by lia; lia.
Qed.

Lemma lit_ext w f g q : (forall q, f q = g q) -> lit w f q -> lit w g q.
Proof.
  intros E (k & d1 & d2 & H1 & H2 & H3 & H4 & H5 & H6).
  assert (B : forall side d, beside f q side d = beside g q side d) by (intros side d; induction d as [|d IH]; cbn [beside]; [apply E|rewrite IH, E; reflexivity]).
  exists k, d1, d2. rewrite !B, E in H6. repeat (split; [assumption|]). exact H6.
Qed.

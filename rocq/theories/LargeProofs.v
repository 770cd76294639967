(** Symbols that are too large: the estimate of the fourth corner overflows. *)
From Coq Require Import SpecFloat.
From Verif Require Import Base Lib ModelDecode ModelImage ModelGeometry ModelDetect ModelIdentify SpecQR SpecPayload SpecImage SpecThreshold SpecFinder SpecPicture
  FloodProofs HistoryProofs EncodeProofs DrawProofs RenderProofs WholeProofs PictureProofs DotProofs ImageFacts FinderFacts SpecQR.
From Coq Require Import ZifyBool.
Open Scope Z_scope.
Set Bullet Behavior "Strict Subproofs".

Lemma legible_same w h f g v sym m ox oy r : (forall q, inside w h q -> (f q = 0 <-> g q = 0)) -> legible w h f v sym m ox oy r -> legible w h g v sym m ox oy r.
Proof.
  intros E [S1 S2 S3 S4 S5 S6 S7]. constructor; try assumption.
  - intros q Hq c Hc. specialize (S6 q Hq Hc). fold c in S6. rewrite <- S6. specialize (E q). unfold inside, in_square in *. intuition lia.
  - intros q q' Hq N Fq Hx Hy. apply (E q Hq). apply (S7 q q'); assumption.
Qed.

Lemma only_same w h f g v m ox oy r : (forall q, inside w h q -> (f q = 0 <-> g q = 0)) -> no_other_finder w h f v m ox oy r -> no_other_finder w h g v m ox oy r.
Proof.
  intros E A y left stone right F. apply (A y left stone right). apply (finder_at_same1 w h g f); [|exact F]. intros q Hq. specialize (E q Hq). tauto.
Qed.

(** The outcome for a legible picture of any size. *)
Definition found_or_overflow {Srt : Sorter spec_float} (p : prepared) (v : Z) (sym : Z -> Z -> bool) (m ox oy : Z) (r : nat) : Prop :=
  ((7 * m - 1) * (7 * m - 1) * furthest v m ox oy r < 2 ^ 31 -> v <> 21 -> finds_symbol p v sym m ox oy r)
  /\ (2 ^ 31 <= (7 * m - 1) * (7 * m - 1) * furthest v m ox oy r -> detect_grids (T := spec_float) p = Panic).

Lemma outcome_fresh {Srt : Sorter spec_float} p v sym m ox oy r : fresh (p_buf p) p -> 1 <= p_w p <= 32768 -> 1 <= p_h p <= 32768 -> 1 <= v <= 40 -> 2 <= m -> function_patterns v sym ->
  legible (p_w p) (p_h p) (pix (p_buf p)) v sym m ox oy r -> no_other_finder (p_w p) (p_h p) (pix (p_buf p)) v m ox oy r -> found_or_overflow p v sym m ox oy r.
Proof.
  intros F Hw Hh Hv Hm Fp Sh On. split.
  - intros Sm V21. apply picture_fresh; [exact F|]. constructor; auto.
  - apply (detect_overflow (p_buf p) p F Hw Hh v sym m ox oy r Sh Hv Fp Hm On).
Qed.

Theorem outcome_bitmap {Srt : Sorter spec_float} w h fill v sym m ox oy r : 1 <= w <= 32768 -> 1 <= h <= 32768 -> 1 <= v <= 40 -> 2 <= m -> function_patterns v sym ->
  legible w h (ink fill) v sym m ox oy r -> no_other_finder w h (ink fill) v m ox oy r ->
  exists p, prepare_from_bitmap w h fill = Ok p /\ found_or_overflow p v sym m ox oy r.
Proof.
  intros Hw Hh Hv Hm Fp Sh On. destruct (bitmap_ok w h fill ltac:(lia) ltac:(lia)) as (p & E & S1 & S2 & F & P); [unfold usize_max; nia|].
  exists p. split; [exact E|]. pose proof (prepared_pixels w h p fill F S1 S2 P) as Same.
  apply outcome_fresh; try assumption; rewrite ?S1, ?S2; try assumption.
  - eapply legible_same; [exact Same|exact Sh].
  - eapply only_same; [exact Same|exact On].
Qed.

Theorem outcome_greyscale {Srt : Sorter spec_float} w h fill v sym m ox oy r : (forall x y, inside w h (x, y) -> 0 <= fill x y <= 255) ->
  1 <= w <= 32768 -> 1 <= h <= 32768 -> 1 <= v <= 40 -> 2 <= m -> function_patterns v sym ->
  legible w h (shade w fill) v sym m ox oy r -> no_other_finder w h (shade w fill) v m ox oy r ->
  exists p, prepare_from_greyscale w h fill = Ok p /\ found_or_overflow p v sym m ox oy r.
Proof.
  intros G Hw Hh Hv Hm Fp Sh On. destruct (greyscale_exact w h fill ltac:(lia) ltac:(lia)) as (p & E & S1 & S2 & F & P); [unfold usize_max; nia|assumption|].
  exists p. split; [exact E|].
  assert (Same : forall q, inside w h q -> (shade w fill q = 0 <-> pix (p_buf p) q = 0)).
  { intros [x y] Hq. apply (prepared_pixels w h p (fun x y => is_dark w (fun z => fill (fst z) (snd z)) (x, y)) F S1 S2 P (x, y) Hq). }
  apply outcome_fresh; try assumption; rewrite ?S1, ?S2; try assumption.
  - eapply legible_same; [exact Same|exact Sh].
  - eapply only_same; [exact Same|exact On].
Qed.

(** Symbols in dots: no condition but the size. *)
Theorem large_dotted {Srt : Sorter spec_float} w h v e mask msg m k ox oy r :
  1 <= w <= 32768 -> 1 <= h <= 32768 -> 1 <= v <= 40 -> 1 <= k -> 2 * k + 2 <= m ->
  0 <= ox -> 0 <= oy -> ox + symbol_size v * m <= w -> oy + symbol_size v * m <= h ->
  2 ^ 31 <= (7 * m - 1) * (7 * m - 1) * furthest v m ox oy r ->
  exists p, prepare_from_bitmap w h (dotted v (encode v e mask msg) m k ox oy r) = Ok p /\ detect_grids (T := spec_float) p = Panic.
Proof.
  intros Hw Hh Hv K Mk Ox Oy Rw Rh Big. pose proof (encode_patterns v e mask msg Hv) as Fp.
  destruct (outcome_bitmap w h (dotted v (encode v e mask msg) m k ox oy r) v (encode v e mask msg) m ox oy r Hw Hh Hv ltac:(lia) Fp) as (p & E & _ & O).
  - apply dotted_legible; assumption.
  - apply dotted_only; assumption.
  - exists p. auto.
Qed.

(** In one condition: found if the product fits, a panic otherwise. *)
Lemma outcome_iff {Srt : Sorter spec_float} p v sym m ox oy r : found_or_overflow p v sym m ox oy r -> v <> 21 ->
  (finds_symbol p v sym m ox oy r <-> (7 * m - 1) * (7 * m - 1) * furthest v m ox oy r < 2 ^ 31)
  /\ (detect_grids (T := spec_float) p = Panic <-> 2 ^ 31 <= (7 * m - 1) * (7 * m - 1) * furthest v m ox oy r).
Proof.
  intros [A B] V21. destruct (Z_lt_le_dec ((7 * m - 1) * (7 * m - 1) * furthest v m ox oy r) (2 ^ 31)) as [S|S].
  - specialize (A S V21). split; split; intros X; try assumption; try lia.
    exfalso. destruct A as (l & p' & E & _). rewrite E in X. discriminate X.
  - specialize (B S). split; split; intros X; try assumption; try lia.
    exfalso. destruct X as (l & p' & E & _). rewrite E in B. discriminate B.
Qed.

Theorem bitmap_size {Srt : Sorter spec_float} w h fill v sym m ox oy r : 1 <= w <= 32768 -> 1 <= h <= 32768 -> 1 <= v <= 40 -> v <> 21 -> 2 <= m -> function_patterns v sym ->
  legible w h (ink fill) v sym m ox oy r -> no_other_finder w h (ink fill) v m ox oy r ->
  exists p, prepare_from_bitmap w h fill = Ok p
    /\ (finds_symbol p v sym m ox oy r <-> (7 * m - 1) * (7 * m - 1) * furthest v m ox oy r < 2 ^ 31)
    /\ (detect_grids (T := spec_float) p = Panic <-> 2 ^ 31 <= (7 * m - 1) * (7 * m - 1) * furthest v m ox oy r).
Proof.
  intros Hw Hh Hv V21 Hm Fp Sh On. destruct (outcome_bitmap w h fill v sym m ox oy r Hw Hh Hv Hm Fp Sh On) as (p & E & O).
  exists p. split; [exact E|]. exact (outcome_iff p v sym m ox oy r O V21).
Qed.

Theorem greyscale_size {Srt : Sorter spec_float} w h fill v sym m ox oy r : (forall x y, inside w h (x, y) -> 0 <= fill x y <= 255) ->
  1 <= w <= 32768 -> 1 <= h <= 32768 -> 1 <= v <= 40 -> v <> 21 -> 2 <= m -> function_patterns v sym ->
  legible w h (shade w fill) v sym m ox oy r -> no_other_finder w h (shade w fill) v m ox oy r ->
  exists p, prepare_from_greyscale w h fill = Ok p
    /\ (finds_symbol p v sym m ox oy r <-> (7 * m - 1) * (7 * m - 1) * furthest v m ox oy r < 2 ^ 31)
    /\ (detect_grids (T := spec_float) p = Panic <-> 2 ^ 31 <= (7 * m - 1) * (7 * m - 1) * furthest v m ox oy r).
Proof.
  intros G Hw Hh Hv V21 Hm Fp Sh On. destruct (outcome_greyscale w h fill v sym m ox oy r G Hw Hh Hv Hm Fp Sh On) as (p & E & O).
  exists p. split; [exact E|]. exact (outcome_iff p v sym m ox oy r O V21).
Qed.

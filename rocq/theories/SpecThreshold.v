(** Vocabulary of thresholding: two running means along snake-shaped paths.

    Independent of the model: a picture is a width and a luminance function. *)
From Coq Require Import List ZArith Lia Bool.
From Verif Require Import SpecImage.
Open Scope Z_scope.

(** The [k]-th pixel of the snake through rows of width [w]: the first row is walked
    from left to right, the next one back, and so on; mirrored, from right to left first. *)
Definition snake (w : Z) (mirror : bool) (k : Z) : pixel :=
  let y := k / w in
  let i := k mod w in
  (if xorb (Z.odd y) mirror then w - 1 - i else i, y).

(** The place of a pixel on the snake. *)
Definition place (w : Z) (mirror : bool) (q : pixel) : Z :=
  snd q * w + (if xorb (Z.odd (snd q)) mirror then w - 1 - fst q else fst q).

(** The running mean (scaled by [ts]) of the first [n] samples, with memory [ts]. *)
Fixpoint smooth (ts : Z) (f : Z -> Z) (n : nat) : Z :=
  match n with
  | O => 0
  | S k => smooth ts f k * (ts - 1) / ts + f (Z.of_nat k)
  end.

(** The memory is an eighth of the width, at least one. *)
Definition memory (w : Z) : Z := Z.max (w / 8) 1.

(** The running mean when the walk has just passed [q]. *)
Definition local_mean (w : Z) (lum : pixel -> Z) (mirror : bool) (q : pixel) : Z :=
  smooth (memory w) (fun k => lum (snake w mirror k)) (S (Z.to_nat (place w mirror q))).

(** A pixel is dark if it is below 95% of the mean of both running means. *)
Definition is_dark (w : Z) (lum : pixel -> Z) (q : pixel) : bool :=
  lum q <? (local_mean w lum false q + local_mean w lum true q) * 95 / (200 * memory w).

(** The snake visits every pixel exactly once. *)
Lemma place_snake w mirror q : 0 <= fst q < w -> 0 <= snd q -> snake w mirror (place w mirror q) = q.
Proof.
  intros Hx Hy. unfold snake, place. destruct q as [x y]. cbn [fst snd] in *.
  set (i := if xorb (Z.odd y) mirror then w - 1 - x else x).
  assert (Hi : 0 <= i < w) by (unfold i; destruct (xorb _ _); lia).
  replace ((y * w + i) / w) with y by (apply Z.div_unique with i; [left; lia|lia]).
  replace ((y * w + i) mod w) with i by (apply Z.mod_unique with y; [left; lia|lia]).
  f_equal. unfold i. destruct (xorb _ _); lia.
Qed.

Lemma snake_place w mirror k : 0 < w -> 0 <= k -> place w mirror (snake w mirror k) = k.
Proof.
  intros Hw Hk. unfold snake, place. cbn [fst snd].
  pose proof (Z.div_mod k w ltac:(lia)). destruct (xorb _ _); lia.
Qed.

(** * Dark pixels near light ones *)

(** The luminances of [q] and of its [d] neighbours to one side, in its row, summed up. *)
Fixpoint beside (lum : pixel -> Z) (q : pixel) (side : Z) (d : nat) : Z :=
  match d with
  | O => lum q
  | S d' => beside lum q side d' + lum (fst q + side * Z.of_nat d, snd q)
  end.

(** The pixels beside [q], up to [k] half memories to the left and to the right, are light
    enough for the darkness of [q]: each half memory halves their weight. *)
Definition lit (w : Z) (lum : pixel -> Z) (q : pixel) : Prop :=
  exists k d1 d2, 0 <= k /\ Z.of_nat d1 <= k * (memory w / 2) /\ Z.of_nat d2 <= k * (memory w / 2)
    /\ 0 <= fst q - Z.of_nat d1 /\ fst q + Z.of_nat d2 < w
    /\ 2 ^ k * memory w * (200 * lum q + 390) <= 95 * (beside lum q (-1) d1 + beside lum q 1 d2).

(** Every pixel is light, or dark with light pixels near it. *)
Definition two_toned (w h : Z) (fill : Z -> Z -> Z) : Prop :=
  forall x y, inside w h (x, y) -> 241 <= fill x y <= 255 \/ (0 <= fill x y <= 255 /\ lit w (fun q => fill (fst q) (snd q)) (x, y)).

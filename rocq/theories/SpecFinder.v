(** Vocabulary of the finder pattern search.

    Independent of the model: a picture is a width, a height and a function giving
    the colour of a pixel, 0 being white; anything else is dark. *)
From Coq Require Import List ZArith Lia.
From Verif Require Import SpecImage SpecScan.
Import ListNotations.
Open Scope Z_scope.

(** The [n] pixels of row [y] from column [a] on are all dark (all white). *)
Definition dark_run (col : pixel -> Z) (y a n : Z) : Prop := forall x, a <= x < a + n -> col (x, y) <> 0.
Definition white_run (col : pixel -> Z) (y a n : Z) : Prop := forall x, a <= x < a + n -> col (x, y) = 0.

(** In row [y], a dark, a white, a dark, a white and a dark run of lengths about
    1:1:3:1:1 follow each other; the dark ones start at the columns [left], [stone]
    and [right], and the last one ends just before column [stop].  White or the edge of
    the picture is on both sides. *)
Definition finder_row (w : Z) (col : pixel -> Z) (y left stone right stop : Z) : Prop :=
  exists n1 n2 n3 n4 n5,
    1 <= n1 /\ 1 <= n2 /\ 1 <= n3 /\ 1 <= n4 /\ 1 <= n5
    /\ 0 <= left /\ stone = left + n1 + n2 /\ right = stone + n3 + n4 /\ stop = right + n5 /\ stop <= w
    /\ dark_run col y left n1 /\ white_run col y (left + n1) n2 /\ dark_run col y stone n3
    /\ white_run col y (stone + n3) n4 /\ dark_run col y right n5
    /\ (left = 0 \/ col (left - 1, y) = 0) /\ (stop = w \/ col (stop, y) = 0)
    /\ finder_ratio n1 n2 n3 n4 n5.

(** A finder pattern crossed by row [y]: the outer runs belong to one connected region
    (the ring), the inner one to another (the stone), and the stone's area is more than 10
    and less than 70 percent of the ring's (integer division). *)
Definition finder_at (w h : Z) (col : pixel -> Z) (y left stone right : Z) : Prop :=
  0 <= y < h /\ (exists stop, finder_row w col y left stone right stop)
  /\ blob w h col (right, y) (left, y) /\ ~ blob w h col (right, y) (stone, y)
  /\ exists ring inner, area (blob w h col (right, y)) ring /\ area (blob w h col (stone, y)) inner
       /\ 10 < inner * 100 / ring < 70.

(** * Corners of a region *)

Definition distance2 (p q : pixel) : Z := (fst p - fst q) * (fst p - fst q) + (snd p - snd q) * (snd p - snd q).

(** Components along and across a direction. *)
Definition along (b p : pixel) : Z := fst p * fst b + snd p * snd b.
Definition across (b p : pixel) : Z := snd p * fst b - fst p * snd b.

(** The four corners of the region [S] seen from [start]: the direction is that from
    [start] to a farthest point of the region, and the corners are points of the region
    extreme along it, across it, against it and across it the other way. *)
Definition region_corners (S : pixel -> Prop) (start a b c d : pixel) : Prop :=
  S a /\ S b /\ S c /\ S d
  /\ exists far, S far /\ (forall q, S q -> distance2 q start <= distance2 far start)
     /\ let dir := (fst far - fst start, snd far - snd start) in
        forall q, S q -> along dir q <= along dir a /\ across dir q <= across dir b
                      /\ along dir c <= along dir q /\ across dir d <= across dir q.

(** Twice the signed area of the triangle of three points. *)
Definition triangle2 (a b c : pixel) : Z :=
  (fst b - fst a) * (snd c - snd a) - (fst c - fst a) * (snd b - snd a).

(** [m] is the intersection of the lines [a c] and [b d], each coordinate being off by at
    most half a pixel and a hundred-millionth of a pixel.  The intersection is the point
    ([x] / [n], [y] / [n]). *)
Definition diagonals_meet (a b c d m : pixel) : Prop :=
  exists x y n, 0 < n
    /\ (x - n * fst a) * (snd c - snd a) = (y - n * snd a) * (fst c - fst a)
    /\ (x - n * fst b) * (snd d - snd b) = (y - n * snd b) * (fst d - fst b)
    /\ 100000000 * (2 * Z.abs (n * fst m - x)) <= 100000002 * n
    /\ 100000000 * (2 * Z.abs (n * snd m - y)) <= 100000002 * n.

(** A pattern as the search reports it: corners [a], [b], [c], [d] and centre [m] of the
    ring through [q]. *)
Definition found (w h : Z) (col : pixel -> Z) (q a b c d m : pixel) : Prop :=
  (exists left stone, finder_at w h col (snd q) left stone (fst q))
  /\ region_corners (blob w h col q) q a b c d
  /\ 0 < triangle2 b c d /\ 0 <= triangle2 a c d /\ 0 <= triangle2 a b d /\ 0 <= triangle2 a b c
  /\ diagonals_meet a b c d m.

(** The ring through [q] has corners, and those of them that span the transform are on a line. *)
Definition flat (w h : Z) (col : pixel -> Z) (q : pixel) : Prop :=
  (exists left stone, finder_at w h col (snd q) left stone (fst q))
  /\ exists a b c d, region_corners (blob w h col q) q a b c d /\ triangle2 b c d = 0.

(** * Only the places of the dark pixels matter *)

Section Ext.
Context (w h : Z) (f g : pixel -> Z) (E : forall q, inside w h q -> (f q = 0 <-> g q = 0)).

Lemma blob_same p q : blob w h f p q <-> blob w h g p q.
Proof. split; apply linked_ext; intros r [I N]; (split; [exact I|]); specialize (E r I); tauto. Qed.

Lemma finder_row_same y left stone right stop : 0 <= y < h ->
  finder_row w f y left stone right stop -> finder_row w g y left stone right stop.
Proof.
  intros Hy (n1 & n2 & n3 & n4 & n5 & N1 & N2 & N3 & N4 & N5 & L0 & Es & Er & Ex & Lw & D1 & D2 & D3 & D4 & D5 & El & Et & Ra).
  assert (D : forall a n, 0 <= a -> a + n <= w -> dark_run f y a n -> dark_run g y a n).
  { intros a n Ha Hn H x Hx. specialize (H x Hx). specialize (E (x, y)). unfold inside in E. cbn in E. intuition lia. }
  assert (W : forall a n, 0 <= a -> a + n <= w -> white_run f y a n -> white_run g y a n).
  { intros a n Ha Hn H x Hx. specialize (H x Hx). specialize (E (x, y)). unfold inside in E. cbn in E. intuition lia. }
  exists n1, n2, n3, n4, n5. repeat (split; [first [assumption | apply D; [lia|lia|assumption] | apply W; [lia|lia|assumption]]|]).
  split. { destruct El as [->|El]; [left; reflexivity|]. destruct (Z.eq_dec left 0); [left; assumption|right].
    apply (E (left - 1, y)); [split; cbn; lia|assumption]. }
  split; [|assumption]. destruct Et as [->|Et]; [left; reflexivity|]. destruct (Z.eq_dec stop w); [left; assumption|right].
  apply (E (stop, y)); [split; cbn; lia|assumption].
Qed.

Lemma finder_at_same1 y left stone right : finder_at w h f y left stone right -> finder_at w h g y left stone right.
Proof.
  intros (Hy & (stop & R) & B1 & B2 & ring & inner & A1 & A2 & A3). split; [exact Hy|].
  split; [exists stop; apply finder_row_same; assumption|]. split; [apply blob_same; assumption|].
  split; [rewrite <- blob_same; assumption|]. exists ring, inner.
  split; [apply (area_ext _ _ _ (blob_same _)); assumption|]. split; [apply (area_ext _ _ _ (blob_same _)); assumption|assumption].
Qed.

Lemma region_corners_same start a b c d p : region_corners (blob w h f p) start a b c d -> region_corners (blob w h g p) start a b c d.
Proof.
  intros (Sa & Sb & Sc & Sd & far & F & D & X).
  unfold region_corners. rewrite <- !blob_same. do 4 (split; [assumption|]). exists far. rewrite <- blob_same. split; [assumption|].
  split; intros q Hq; [apply D|apply X]; apply blob_same; assumption.
Qed.

Lemma found_same1 q a b c d m : found w h f q a b c d m -> found w h g q a b c d m.
Proof.
  intros ((l & s & F) & R & X). split; [exists l, s; apply finder_at_same1; assumption|]. split; [apply region_corners_same; assumption|assumption].
Qed.

Lemma flat_same1 q : flat w h f q -> flat w h g q.
Proof.
  intros ((l & s & F) & a & b & c & d & R & X). split; [exists l, s; apply finder_at_same1; assumption|].
  exists a, b, c, d. split; [apply region_corners_same; assumption|assumption].
Qed.
End Ext.

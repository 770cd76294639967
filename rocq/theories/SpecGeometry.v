(** Vocabulary of the geometric properties: rational points, lines, lattice walks. *)
From Coq Require Import List ZArith QArith Lia.
Import ListNotations.
Open Scope Z_scope.

(** Twice the signed area of the triangle a, b, c. *)
Definition cross (ax ay bx by_ cx cy : Z) : Z := (bx - ax) * (cy - ay) - (by_ - ay) * (cx - ax).

(** The point (x / n, y / n) is on the line through (ax, ay) and (bx, by). *)
Definition on_line (x y n ax ay bx by_ : Z) : Prop := (x - n * ax) * (by_ - ay) = (y - n * ay) * (bx - ax).

(** A walk on the lattice from [a] to [b], one step per unit of the longer side; the
    [i]-th point is off the straight line by less than one unit in the other coordinate. *)
Definition walk (ax ay bx by_ : Z) (l : list (Z * Z)) : Prop :=
  let dx := bx - ax in
  let dy := by_ - ay in
  let n := Z.max (Z.abs dx) (Z.abs dy) in
  Z.of_nat (length l) = n + 1
  /\ nth 0 l (0, 0) = (ax, ay)
  /\ last l (0, 0) = (bx, by_)
  /\ forall i x y, 0 <= i <= n -> nth (Z.to_nat i) l (0, 0) = (x, y) ->
       (Z.abs dy < Z.abs dx -> x = ax + i * Z.sgn dx /\ Z.abs ((y - ay) * n - i * dy) < n)
       /\ (Z.abs dx <= Z.abs dy -> y = ay + i * Z.sgn dy /\ (n = 0 \/ Z.abs ((x - ax) * n - i * dx) < n)).

(** Equality of pairs of rational numbers. *)
Definition Qeq2 (p q : Q * Q) : Prop := (fst p == fst q)%Q /\ (snd p == snd q)%Q.

(** The quadrilateral a, b, c, d has its corners in the order in which a clockwise turn on
    the screen (y pointing down) meets them, and no three of them are on a line. *)
Definition strictly_convex (ax ay bx by_ cx cy dx dy : Z) : Prop :=
  0 < cross bx by_ cx cy dx dy /\ 0 < cross ax ay cx cy dx dy
  /\ 0 < cross ax ay bx by_ dx dy /\ 0 < cross ax ay bx by_ cx cy.

(** The point (x, y) is a convex combination of the four points. *)
Definition in_hull (x y ax ay bx by_ cx cy dx dy : Z) : Prop :=
  exists s t u v : Q, (0 <= s)%Q /\ (0 <= t)%Q /\ (0 <= u)%Q /\ (0 <= v)%Q /\ (s + t + u + v == 1)%Q
    /\ (inject_Z x == s * inject_Z ax + t * inject_Z bx + u * inject_Z cx + v * inject_Z dx)%Q
    /\ (inject_Z y == s * inject_Z ay + t * inject_Z by_ + u * inject_Z cy + v * inject_Z dy)%Q.

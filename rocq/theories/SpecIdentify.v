(** What the grouping of finder patterns and the located grids are compared with. *)
From Coq Require Import List ZArith Lia.
Import ListNotations.

(** Every entry of a list stands in relation [R] to every later entry. *)
Definition each_later {A} (R : A -> A -> Prop) (l : list A) : Prop := ForallOrdPairs R l.

(** Three finder patterns, by index: the corner one in the middle. *)
Notation triple := (nat * nat * nat)%type.
Definition members (t : triple) : list nat := let '(a, i, b) := t in [a; i; b].
Definition corner_of (t : triple) : nat := let '(a, i, b) := t in i.
Definition sides (t : triple) : list nat := let '(a, i, b) := t in [a; b].

(** A later triple takes no finder pattern of an earlier one, except that both may
    have the same corner. *)
Definition shares_only_corner (t t' : triple) : Prop :=
  (forall x, In x (sides t') -> ~ In x (members t)) /\ ~ In (corner_of t') (sides t).

(** Side length of a symbol of version [v], and the sizes with a version. *)
Definition side_of_version (v : Z) : Z := (17 + 4 * v)%Z.

(** A square spiral: legs of unit steps.  Legs come in pairs of equal length
    1, 1, 2, 2, 3, 3 .. in the directions right, up, left, down. *)
Definition leg_dir (n : nat) : Z * Z :=
  match Nat.modulo n 4 with O => (1, 0) | 1%nat => (0, -1) | 2%nat => (-1, 0) | _ => (0, 1) end%Z.
Definition leg_len (n : nat) : nat := S (Nat.div2 n).
Definition leg_steps (n : nat) : list (Z * Z) := repeat (leg_dir n) (leg_len n).

(** The places from which the steps are taken. *)
Fixpoint places (q : Z * Z) (steps : list (Z * Z)) : list (Z * Z) :=
  match steps with
  | [] => []
  | d :: t => q :: places (fst q + fst d, snd q + snd d)%Z t
  end.

Definition spiral (q : Z * Z) (legs : nat) : list (Z * Z) := places q (flat_map leg_steps (seq 0 legs)).

(** The first place of a list that is good, unless an obstacle comes before it. *)
Inductive first_hit (good obstacle : Z * Z -> Prop) : list (Z * Z) -> option (Z * Z) -> Prop :=
| hit_none : first_hit good obstacle [] None
| hit_good q l : good q -> ~ obstacle q -> first_hit good obstacle (q :: l) (Some q)
| hit_stop q l : obstacle q -> first_hit good obstacle (q :: l) None
| hit_next q l r : ~ good q -> ~ obstacle q -> first_hit good obstacle l r -> first_hit good obstacle (q :: l) r.

(** The pixel of a picture of [w] by [h] nearest to a place. *)
Definition nearest_pixel (w h : Z) (q : Z * Z) : Z * Z :=
  (Z.max 0 (Z.min (w - 1) (fst q)), Z.max 0 (Z.min (h - 1) (snd q)))%Z.

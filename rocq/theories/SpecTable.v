(** Sheets of labels: symbols of one version and size in rows and columns.

    Independent of the model. *)
From Coq Require Import List ZArith.
From Verif Require Import SpecImage SpecFinder SpecPicture SpecSheet SpecQR.
Import ListNotations.
Open Scope Z_scope.

(** Four upright symbols of [m] pixels per module in two rows of two, [p] pixels from each to the next: the first
    at (ox, oy), the second to its right, the third below it, the fourth diagonally opposite. *)
Definition table (v : Z) (s1 s2 s3 s4 : Z -> Z -> bool) (m p ox oy : Z) : list mark :=
  [Mark v s1 m ox oy 0; Mark v s2 m (ox + p) oy 0; Mark v s3 m ox (oy + p) 0; Mark v s4 m (ox + p) (oy + p) 0].

(** There is white between them, at most as much as a symbol is wide; and two of them side by side measure at most
    183 modules. *)
Definition close_by (v m p : Z) : Prop :=
  symbol_size v * m < p <= 2 * (symbol_size v * m) /\ p + symbol_size v * m <= 183 * m.

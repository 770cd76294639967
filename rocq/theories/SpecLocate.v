(** What the corner of the alignment pattern is compared with. *)
From Coq Require Import ZArith.
Open Scope Z_scope.

(** How far a place is to the right of the direction [hd] (rows count downwards). *)
Definition rightness (hd q : Z * Z) : Z := fst hd * snd q - snd hd * fst q.

(** The area of the parallelogram with the sides from [q] to [a] and from [q] to [c]. *)
Definition spanned (q a c : Z * Z) : Z := Z.abs ((fst a - fst q) * (snd c - snd q) - (snd a - snd q) * (fst c - fst q)).

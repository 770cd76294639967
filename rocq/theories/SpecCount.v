(** Sets of finder patterns of a picture, and how many grids they can make. *)
From Coq Require Import List ZArith.
From Verif Require Import SpecImage SpecFinder.
Import ListNotations.
Open Scope Z_scope.

(** A list of pixels, each on the right of a finder pattern, no two on the same connected region: so the patterns differ. *)
Definition patterns (w h : Z) (col : pixel -> Z) (rings : list pixel) : Prop :=
  (forall q, In q rings -> exists left stone, finder_at w h col (snd q) left stone (fst q))
  /\ ForallOrdPairs (fun a b => ~ blob w h col a b) rings.

(** The picture has no more than [k] finder patterns. *)
Definition at_most (w h : Z) (col : pixel -> Z) (k : nat) : Prop :=
  forall rings, patterns w h col rings -> (length rings <= k)%nat.

(** What the count of modules along a timing pattern is compared with. *)
From Coq Require Import List ZArith.
Import ListNotations.
Open Scope Z_scope.

(** How often neighbours in a list differ. *)
Fixpoint changes (l : list Z) : Z :=
  match l with
  | a :: ((b :: _) as t) => (if a =? b then 0 else 1) + changes t
  | _ => 0
  end.

(** Any two neighbours in a list are in relation [R]. *)
Fixpoint consecutive {A} (R : A -> A -> Prop) (l : list A) : Prop :=
  match l with
  | a :: ((b :: _) as t) => R a b /\ consecutive R t
  | _ => True
  end.

(** What the user's function is asked, and in which order. *)
From Verif Require Import Base ModelImage ModelCalls.
Open Scope Z_scope.

(** Row by row: the [k]-th place asked for is column [k mod w] of row [k / w], and every place has its turn. *)
Definition row_by_row (w h : Z) (l : list (Z * Z)) : Prop :=
  Z.of_nat (length l) = w * h /\ forall k, 0 <= k < w * h -> nth_error l (Z.to_nat k) = Some (k mod w, k / w).

(** Asking for these places one after the other: the final state and the answers in order.  A call that panics ends it. *)
Fixpoint ask {S A : Type} (fill : callback S A) (s : S) (l : list (Z * Z)) : out (S * list A) :=
  match l with
  | [] => Ok (s, [])
  | (x, y) :: l =>
      let* r := fill s x y in
      let* t := ask fill (fst r) l in
      Ok (fst t, snd r :: snd t)
  end.

(** The picture that the answers make. *)
Definition answer_at {A : Type} (w : Z) (l : list A) (d : A) (x y : Z) : A := nth (Z.to_nat (y * w + x)) l d.

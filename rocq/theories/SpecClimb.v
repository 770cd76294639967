(** How a transform is adjusted: eighty trials, each changing one coefficient a little up or down, each kept iff it fits better. *)
From Verif Require Import Base ModelImage ModelGeometry SpecFit SpecQR.
Open Scope Z_scope.

Section Numbers.
Context {T : Type} {N : Num T}.

Definition coefficients (c : perspective T) : list T := [c0 c; c1 c; c2 c; c3 c; c4 c; c5 c; c6 c; c7 c].

(** [t] is [c] with coefficient [j] changed by the step [j] of [steps], up or down. *)
Definition nudged (c : perspective T) (steps : list T) (j : nat) (up : bool) (t : perspective T) : Prop :=
  forall k d, (k < 8)%nat ->
    nth k (coefficients t) d =
      if (k =? j)%nat then (if up then n_add else n_sub) (nth j (coefficients c) d) (nth j steps d)
      else nth k (coefficients c) d.

(** One pass: each coefficient in turn, first down, then up. *)
Definition pass (steps : list T) : list (list T * nat * bool) :=
  flat_map (fun j => [(steps, j, false); (steps, j, true)]) [0; 1; 2; 3; 4; 5; 6; 7]%nat.

(** [n] passes, each with half the steps of the one before. *)
Fixpoint passes (n : nat) (steps : list T) : list (list T * nat * bool) :=
  match n with
  | O => []
  | S n => pass steps ++ passes n (map (fun t => n_mul t (n_ratio 1 2)) steps)
  end.

(** Five passes; the first steps are a fiftieth of the coefficients. *)
Definition trials (c : perspective T) : list (list T * nat * bool) :=
  passes 5 (map (fun t => n_mul t (n_ratio 2 100)) (coefficients c)).

(** From [c] to [c'] by a list of trials: the samples of each can be computed, and it is kept iff its score is higher than that of the transform at hand. *)
Inductive climb (I : image) (v : Z) : list (list T * nat * bool) -> perspective T -> perspective T -> Prop :=
| climb_done c : climb I v [] c c
| climb_up steps j up l c t c' : nudged c steps j up t -> samples_land t v -> score I c v < score I t v ->
    climb I v l t c' -> climb I v ((steps, j, up) :: l) c c'
| climb_stay steps j up l c t c' : nudged c steps j up t -> samples_land t v -> score I t v <= score I c v ->
    climb I v l c c' -> climb I v ((steps, j, up) :: l) c c'.
End Numbers.

(** Properties of the operations that take a function of the user's: C75.
    Every theorem is followed by its assumptions and by a case meeting its hypotheses. *)
From Verif Require Import Base Lib ModelDecode ModelImage ModelCalls SpecCalls CallProofs.
From Coq Require Import ZifyBool.
Open Scope Z_scope.

(** * C75 *)

(** There is one order of the places that goes row by row, and it has every place of the picture once. *)
Theorem C75_order w h : 0 <= w -> 0 <= h -> exists l, row_by_row w h l /\ (forall l', row_by_row w h l' -> l' = l)
  /\ NoDup l /\ forall x y, In (x, y) l <-> 0 <= x < w /\ 0 <= y < h.
Proof. exact (order_once w h). Qed.
Print Assumptions C75_order.

(** Whatever the function remembers, and whether it panics or not: it is called for every place once, row by row, and then
    no more; if a call panics, so does the operation; else the picture is that of the answers. *)
Theorem C75_bitmap S w h (fill : callback S bool) s l : 0 <= w -> 0 <= h -> w * h <= usize_max -> row_by_row w h l ->
  bitmap_by w h fill s = (let* t := ask fill s l in let* p := prepare_from_bitmap w h (answer_at w (snd t) false) in Ok (p, fst t)).
Proof. exact (bitmap_calls S w h fill s l). Qed.
Print Assumptions C75_bitmap.

Theorem C75_greyscale S w h (fill : callback S Z) s l : 0 <= w -> 0 <= h -> w * h <= usize_max -> row_by_row w h l ->
  greyscale_by w h fill s = (let* t := ask fill s l in let* p := prepare_from_greyscale w h (answer_at w (snd t) 0) in Ok (p, fst t)).
Proof. exact (greyscale_calls S w h fill s l). Qed.
Print Assumptions C75_greyscale.

(** The same for [SimpleGrid::from_func]. *)
Theorem C75_grid S size (fill : callback S bool) s l : 0 <= size < 2 ^ 32 -> row_by_row size size l ->
  simple_by size fill s = (let* t := ask fill s l in let* g := simple_from_func size (answer_at size (snd t) false) in Ok (g, fst t)).
Proof. exact (simple_calls S size fill s l). Qed.
Print Assumptions C75_grid.

(** Too many pixels or modules to count: all three panic whatever the function would do. *)
Theorem C75_too_big S w h size (f1 : callback S bool) (f2 : callback S Z) (f3 : callback S bool) s : usize_max < w * h -> 2 ^ 32 <= size ->
  bitmap_by w h f1 s = Panic /\ greyscale_by w h f2 s = Panic /\ simple_by size f3 s = Panic.
Proof. intros H1 H2. destruct (calls_too_big S w h f1 f2 s H1) as [A1 A2]. repeat split; [exact A1|exact A2|exact (simple_calls_too_big S size f3 s H2)]. Qed.
Print Assumptions C75_too_big.

(** Functions that remember nothing: the operations of C27. *)
Theorem C75_pure S w h (f1 : Z -> Z -> bool) (f2 : Z -> Z -> Z) (s : S) :
  bitmap_by w h (fun s x y => Ok (s, f1 x y)) s = (let* p := prepare_from_bitmap w h f1 in Ok (p, s))
  /\ greyscale_by w h (fun s x y => Ok (s, f2 x y)) s = (let* p := prepare_from_greyscale w h f2 in Ok (p, s)).
Proof. exact (pure_calls S w h f1 f2 s). Qed.
Print Assumptions C75_pure.

(** A function that writes down what it was asked and answers "dark" to every third call; one that panics when asked for
    the middle; and one that gives out the bytes of a stream of rows. *)
Example C75_example :
  row_by_row 3 2 [(0, 0); (1, 0); (2, 0); (0, 1); (1, 1); (2, 1)]
  /\ bitmap_by 3 2 (fun s x y => Ok (s ++ [(x, y)], Z.of_nat (length s) mod 3 =? 0)) [] = Ok (MkPrepared (MkImage 3 2 [1; 0; 0; 1; 0; 0]) [], [(0, 0); (1, 0); (2, 0); (0, 1); (1, 1); (2, 1)])
  /\ greyscale_by 3 3 (fun s x y => if (x =? 1) && (y =? 1) then Panic else Ok (s, 255)) tt = Panic
  /\ fill_pixels 2 2 (fun s (_ _ : Z) => match s with [] => Panic | c :: s => Ok (s, c) end) (fun c => c) [9; 8; 7; 6; 5] = Ok ([5], [9; 8; 7; 6]).
Proof.
  split; [|repeat split; vm_compute; reflexivity]. split; [reflexivity|]. intros k Hk.
  assert (D : k = 0 \/ k = 1 \/ k = 2 \/ k = 3 \/ k = 4 \/ k = 5) by lia. destruct D as [-> |[-> |[-> |[-> |[-> | -> ]]]]]; reflexivity.
Qed.

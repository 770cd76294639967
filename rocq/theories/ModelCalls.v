(** Model of the operations that take a function of the user's, for functions that remember things ([FnMut], or [Fn] with
    interior mutability) and may panic.  A function of type [F] is modelled by its state and what one call does. *)
From Verif Require Import Base ModelDecode ModelImage.
Open Scope Z_scope.

(** One call of the user's function: the new state and the answer. *)
Definition callback (S A : Type) := S -> Z -> Z -> out (S * A).

(** The loops of /repo/src/prepare.rs:511-520 ([prepare_from_bitmap]) and 536-540 ([prepare_from_greyscale]): the state is
    that of the function and the pixels pushed so far; [byte] is what is pushed for an answer. *)
Definition fill_pixels {S A} (w h : Z) (fill : callback S A) (byte : A -> Z) (s : S) : out (S * list Z) :=
  for_each (zrange 0 h) (fun y t =>
    for_each (zrange 0 w) (fun x t =>
      let '(s, pixels) := t in
      let* r := fill s x y in
      let '(s, a) := r in
      Ok (s, pixels ++ [byte a])) t) (s, []).

(** prepare.rs:504-524 [prepare_from_bitmap].  The result is the prepared image and the final state of [fill]. *)
Definition bitmap_by {S} (w h : Z) (fill : callback S bool) (s : S) : out (prepared * S) :=
  let* _ := usz (w * h) in
  let* t := fill_pixels w h fill (fun b : bool => if b then 1 else 0) s in
  let '(s, pixels) := t in
  let* p := without_preparation (MkImage w h pixels) in
  Ok (p, s).

(** prepare.rs:530-544 [prepare_from_greyscale]. *)
Definition greyscale_by {S} (w h : Z) (fill : callback S Z) (s : S) : out (prepared * S) :=
  let* _ := usz (w * h) in
  let* t := fill_pixels w h fill (fun b => b) s in
  let '(s, pixels) := t in
  let* p := prepare (MkImage w h pixels) in
  Ok (p, s).

(** /repo/src/lib.rs:258-274 [SimpleGrid::from_func]. *)
Definition simple_by {S} (size : Z) (fill_func : callback S bool) (s : S) : out (SimpleGrid * S) :=
  let* _ := assert_ (size * size <? 2 ^ 64) in
  let* t :=
    for_each (zrange 0 size) (fun y t =>
      for_each (zrange 0 size) (fun x t =>
        let '(s, bm, c) := t in
        let* r := fill_func s x y in
        let '(s, b) := r in
        let* bm :=
          if b : bool then
            let* old := aget bm (Z.to_nat (Z.shiftr c 3)) in
            aset bm (Z.to_nat (Z.shiftr c 3)) (Z.lor old (Z.shiftl 1 (Z.land c 7)))
          else Ok bm in
        Ok (s, bm, c + 1)) t) (s, repeat 0 (Z.to_nat ((size * size + 7) / 8)), 0) in
  let '(s, bm, _) := t in
  Ok (mkSimple bm size, s).

(** Which modules of a symbol decoding depends on (C80). *)
From Verif Require Import Base Lib ModelDecode SpecQR.
Open Scope Z_scope.

(** The modules of the codewords, and those of the format information.  The dark module is counted among the latter: it is
    one of them in the transposed symbol.  The timing patterns' modules in row 8 and column 8 are not. *)
Definition needed (v y x : Z) : bool :=
  negb (function_module v y x) || format_module v y x && negb (timing_module y x).

(** Two grids that give the same answers for these modules.  For the others they can answer differently, or panic. *)
Definition agree_where_needed (v : Z) (g g' : BitGrid) : Prop :=
  g_size g = symbol_size v /\ g_size g' = symbol_size v
  /\ forall y x, 0 <= y < symbol_size v -> 0 <= x < symbol_size v -> needed v y x = true -> g_bit g y x = g_bit g' y x.

(** [g], with a panic for every module that is not needed. *)
Definition only_needed (v : Z) (g : BitGrid) : BitGrid :=
  mkGrid (g_size g) (fun y x => if needed v y x then g_bit g y x else Panic).

(** A symbol with the modules that are not needed drawn in the colours of another picture. *)
Definition repainted (v : Z) (sym other : Z -> Z -> bool) (y x : Z) : bool :=
  if needed v y x then sym y x else other y x.

(** A blank grid that panics for one module. *)
Definition blank_except (v y x : Z) : BitGrid :=
  mkGrid (symbol_size v) (fun y' x' => if (y' =? y) && (x' =? x) then Panic else Ok false).

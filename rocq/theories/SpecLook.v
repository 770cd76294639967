(** Which modules a grid is asked for. *)
From Verif Require Import Base ModelDecode ModelImage ModelCalls ModelLook SpecCalls SpecReading SpecQR.
Open Scope Z_scope.

(** A copy of the format information, most significant bit first. *)
Definition copy_order (loc : nat -> Z * Z) : list (Z * Z) := map loc (rev (seq 0 15)).

(** What a reader of a symbol of version [v] asks for, if [sym] is what it sees: the first copy of the format information;
    the second one only if the first says nothing; the data modules, in the order of the standard, only if the format is
    known. *)
Inductive asked_for (v : Z) (sym : Z -> Z -> bool) : list (Z * Z) -> Prop :=
| asked_first e mask : copy_says format_module_1 sym e mask ->
    asked_for v sym (copy_order format_module_1 ++ data_modules v)
| asked_second e mask : copy_lost format_module_1 sym -> copy_says (format_module_2 (symbol_size v)) sym e mask ->
    asked_for v sym (copy_order format_module_1 ++ copy_order (format_module_2 (symbol_size v)) ++ data_modules v)
| asked_nothing : format_lost (symbol_size v) sym ->
    asked_for v sym (copy_order format_module_1 ++ copy_order (format_module_2 (symbol_size v))).

Definition inside (v : Z) (q : Z * Z) : Prop := 0 <= fst q < symbol_size v /\ 0 <= snd q < symbol_size v.
Definition see (sym : Z -> Z -> bool) (q : Z * Z) : bool := sym (fst q) (snd q).
Definition swap (q : Z * Z) : Z * Z := (snd q, fst q).

(** The grid that shows [sym] and remembers nothing. *)
Definition showing (v : Z) (sym : Z -> Z -> bool) : BitGrid := mkGrid (symbol_size v) (fun y x => Ok (sym y x)).

(** From the state [s], [g] is asked for [l], answers what [sym] shows and is then in the state [s']. *)
Definition shown {S} (g : WatchedGrid S) (s : S) (l : list (Z * Z)) (sym : Z -> Z -> bool) (s' : S) : Prop :=
  ask (wg_bit g) s l = Ok (s', map (see sym) l).

(** A call panics (or does not return) when [l] is asked for. *)
Definition call_ends {S A} (g : WatchedGrid S) (s : S) (l : list (Z * Z)) (o : out A) : Prop :=
  (ask (wg_bit g) s l = Panic /\ o = Panic) \/ (ask (wg_bit g) s l = Diverge /\ o = Diverge).

(** Whatever [g] remembers, it answers as [p] does. *)
Definition steady {S} (g : WatchedGrid S) (p : BitGrid) : Prop :=
  wg_size g = g_size p /\ forall s y x,
  match g_bit p y x with
  | Ok b => exists s', wg_bit g s y x = Ok (s', b)
  | Err _ => False
  | Panic => wg_bit g s y x = Panic
  | Diverge => wg_bit g s y x = Diverge
  end.

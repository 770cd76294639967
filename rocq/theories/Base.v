(** Shared vocabulary of the model: outcomes of Rust computations, arrays, loops.

    Nothing in this file models a particular function of /repo; it fixes how
    Rust's control flow is represented (see DESIGN.md, "Approach"). *)
From Coq Require Export List ZArith Bool Lia.
Export ListNotations.
Open Scope Z_scope.

(** /repo/src/lib.rs:290-309 [enum DeQRError]. *)
Inductive deqr_error :=
| IoError | DataUnderflow | DataOverflow | UnknownDataType | DataEcc
| FormatEcc | InvalidVersion | InvalidGridSize | EncodingError.

(** Outcome of a Rust computation returning [Result<A, E>]:
    - [Ok a] / [Err e]: the two constructors of [Result];
    - [Panic]: the computation panics (failed assert, index out of bounds,
      arithmetic underflow/overflow, unwrap of None, division by zero, ...);
    - [Diverge]: the fuel of a [while] loop of the model ran out.  It never
      stands for normal termination. *)
Inductive res (E A : Type) :=
| Ok (a : A) | Err (e : E) | Panic | Diverge.
Arguments Ok {E A} a.
Arguments Err {E A} e.
Arguments Panic {E A}.
Arguments Diverge {E A}.

Definition bind {E A B} (m : res E A) (k : A -> res E B) : res E B :=
  match m with
  | Ok a => k a
  | Err e => Err e
  | Panic => Panic
  | Diverge => Diverge
  end.

Declare Scope res_scope.
Delimit Scope res_scope with res.
Notation "'let*' x ':=' m 'in' k" := (bind m (fun x => k))
  (at level 200, x pattern, right associativity) : res_scope.
Open Scope res_scope.

(** [assert!(b)] *)
Definition assert_ {E} (b : bool) : res E unit := if b then Ok tt else Panic.

(** [usize] subtraction: underflow panics. *)
Definition usub {E} (a b : Z) : res E Z := if b <=? a then Ok (a - b) else Panic.

(** Array/slice read [l[i]] with a [usize] index. *)
Definition aget {E A} (l : list A) (i : nat) : res E A :=
  match nth_error l i with Some a => Ok a | None => Panic end.

(** Array/slice write [l[i] = v]. *)
Fixpoint upd {A} (l : list A) (i : nat) (v : A) : list A :=
  match l, i with
  | [], _ => []
  | _ :: t, O => v :: t
  | h :: t, S i' => h :: upd t i' v
  end.

Definition aset {E A} (l : list A) (i : nat) (v : A) : res E (list A) :=
  if (i <? length l)%nat then Ok (upd l i v) else Panic.

(** A [for] loop: run [body] over the listed indices, threading the state. *)
Fixpoint for_each {E I S} (l : list I) (body : I -> S -> res E S) (s : S) : res E S :=
  match l with
  | [] => Ok s
  | i :: t => let* s' := body i s in for_each t body s'
  end.

(** The indices of [for i in lo..hi] (empty when [hi <= lo]). *)
Definition range (lo hi : nat) : list nat := seq lo (hi - lo).

(** The same over [Z], used for coordinates. *)
Definition zrange (lo hi : Z) : list Z :=
  map (fun k => lo + Z.of_nat k) (seq 0 (Z.to_nat (hi - lo))).

(** The computation returned a value of the [Result] type (no panic, no divergence). *)
Definition returns {E A} (r : res E A) : Prop :=
  match r with Ok _ | Err _ => True | Panic | Diverge => False end.

Definition is_ok {E A} (r : res E A) : bool :=
  match r with Ok _ => true | _ => false end.

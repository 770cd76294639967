(** Model of /repo/src/geometry.rs.

    The floating point type is a parameter: [Num T] lists the operations the
    code uses.  [F64] below is the instance with IEEE binary64 arithmetic
    (round to nearest, ties to even) from the standard library's [SpecFloat];
    theorems that hold for every [Num T] hold for it in particular. *)
From Verif Require Import Base ModelImage.
From Coq Require Import SpecFloat.

(** * i32 expressions *)

(** An [i32] expression of the source; [ival] computes it in the debug profile:
    every intermediate result out of range panics. *)
Inductive iexp :=
| IZ (z : Z) | IAdd (a b : iexp) | ISub (a b : iexp) | IMul (a b : iexp) | INeg (a : iexp).
Coercion IZ : Z >-> iexp.
Declare Scope iexp_scope.
Delimit Scope iexp_scope with iexp.
Bind Scope iexp_scope with iexp.
Infix "+" := IAdd : iexp_scope.
Infix "-" := ISub : iexp_scope.
Infix "*" := IMul : iexp_scope.
Notation "- a" := (INeg a) : iexp_scope.

Definition i32 (z : Z) : out Z := if (i32_min <=? z) && (z <=? i32_max) then Ok z else Panic.

Fixpoint ival (e : iexp) : out Z :=
  match e with
  | IZ z => Ok z
  | IAdd a b => let* x := ival a in let* y := ival b in i32 (x + y)
  | ISub a b => let* x := ival a in let* y := ival b in i32 (x - y)
  | IMul a b => let* x := ival a in let* y := ival b in i32 (x * y)
  | INeg a => let* x := ival a in i32 (- x)
  end.

(** [a / b] on [i32]: truncated, panics on zero and on [i32::MIN / -1]. *)
Definition idiv (a b : Z) : out Z := if b =? 0 then Panic else i32 (Z.quot a b).

(** * Floating point numbers *)

Class Num (T : Type) := {
  n_add : T -> T -> T;
  n_sub : T -> T -> T;
  n_mul : T -> T -> T;
  n_div : T -> T -> T;
  n_opp : T -> T;
  n_abs : T -> T;
  (** [partial_cmp]: [None] when an operand is NaN *)
  n_compare : T -> T -> option comparison;
  (** the literal p/q *)
  n_ratio : Z -> Z -> T;
  (** [f64::round]: half away from zero; [None] for NaN and infinities *)
  n_round : T -> option Z
}.

(** An integer converted to [f64]. *)
Definition n_of {T} {N : Num T} (z : Z) : T := n_ratio z 1.

(** [a < b]: false when an operand is NaN. *)
Definition n_ltb {T} {N : Num T} (a b : T) : bool :=
  match n_compare a b with Some Lt => true | _ => false end.

Declare Scope num_scope.
Delimit Scope num_scope with num.
Infix "+" := n_add : num_scope.
Infix "-" := n_sub : num_scope.
Infix "*" := n_mul : num_scope.
Infix "/" := n_div : num_scope.
Notation "- a" := (n_opp a) : num_scope.

(** IEEE binary64. *)
Definition f_prec : Z := 53.
Definition f_emax : Z := 1024.

Definition f64_of_Z (z : Z) : spec_float := binary_normalize f_prec f_emax z 0 false.

Definition f64_round (f : spec_float) : option Z :=
  match f with
  | S754_zero _ => Some 0
  | S754_infinity _ | S754_nan => None
  | S754_finite s m e =>
      let a := if 0 <=? e then Z.pos m * 2 ^ e
               else (Z.pos m + 2 ^ (- e - 1)) / 2 ^ (- e) in
      Some (if s then - a else a)
  end.

(** Division is correctly rounded, so the quotient of two exactly representable
    integers is the nearest double of a decimal literal. *)
#[export] Instance F64 : Num spec_float := {
  n_add := SFadd f_prec f_emax;
  n_sub := SFsub f_prec f_emax;
  n_mul := SFmul f_prec f_emax;
  n_div := SFdiv f_prec f_emax;
  n_opp := SFopp;
  n_abs := SFabs;
  n_compare := SFcompare;
  n_ratio := fun p q => SFdiv f_prec f_emax (f64_of_Z p) (f64_of_Z q);
  n_round := f64_round
}.

(** * Perspective transforms *)

(** geometry.rs:3-4 [struct Perspective([f64; 8])]. *)
Record perspective (T : Type) := Persp { c0 : T; c1 : T; c2 : T; c3 : T; c4 : T; c5 : T; c6 : T; c7 : T }.
Arguments Persp {T}.
Arguments c0 {T}. Arguments c1 {T}. Arguments c2 {T}. Arguments c3 {T}.
Arguments c4 {T}. Arguments c5 {T}. Arguments c6 {T}. Arguments c7 {T}.

(** Four points, as [[Point; 4]]. *)
Record corners := Corners { k0 : point; k1 : point; k2 : point; k3 : point }.

Section Numbers.
Context {T : Type} {N : Num T}.
Local Open Scope num_scope.

(** geometry.rs:7-45 [Perspective::create]; [f64::EPSILON] is 2^-52. *)
Definition persp_create (rect : corners) (w h : T) : option (perspective T) :=
  let x0 := n_of (px (k0 rect)) in
  let y0 := n_of (py (k0 rect)) in
  let x1 := n_of (px (k1 rect)) in
  let y1 := n_of (py (k1 rect)) in
  let x2 := n_of (px (k2 rect)) in
  let y2 := n_of (py (k2 rect)) in
  let x3 := n_of (px (k3 rect)) in
  let y3 := n_of (py (k3 rect)) in
  let wden := w * (x2 * y3 - x3 * y2 + (x3 - x2) * y1 + x1 * (y2 - y3)) in
  let hden := h * (x2 * y3 + x1 * (y2 - y3) - x3 * y2 + (x3 - x2) * y1) in
  let eps := n_ratio 1 4503599627370496 in
  if n_ltb wden eps || n_ltb hden eps then None
  else Some (Persp
    ((x1 * (x2 * y3 - x3 * y2)
        + x0 * (- x2 * y3 + x3 * y2 + (x2 - x3) * y1)
        + x1 * (x3 - x2) * y0) / wden)
    (- (x0 * (x2 * y3 + x1 * (y2 - y3) - x2 * y1) - x1 * x3 * y2
        + x2 * x3 * y1
        + (x1 * x3 - x2 * x3) * y0) / hden)
    x0
    ((y0 * (x1 * (y3 - y2) - x2 * y3 + x3 * y2)
        + y1 * (x2 * y3 - x3 * y2)
        + x0 * y1 * (y2 - y3)) / wden)
    ((x0 * (y1 * y3 - y2 * y3) + x1 * y2 * y3 - x2 * y1 * y3
        + y0 * (x3 * y2 - x1 * y2 + (x2 - x3) * y1)) / hden)
    y0
    ((x1 * (y3 - y2) + x0 * (y2 - y3) + (x2 - x3) * y1 + (x3 - x2) * y0) / wden)
    ((- x2 * y3 + x1 * y3 + x3 * y2 + x0 * (y1 - y2) - x3 * y1 + (x2 - x1) * y0) / hden)).

(** geometry.rs:48-50: the image of a point before rounding. *)
Definition persp_apply (c : perspective T) (u v : T) : T * T :=
  let den := c6 c * u + c7 c * v + n_of 1 in
  ((c0 c * u + c1 c * v + c2 c) / den, (c3 c * u + c4 c * v + c5 c) / den).

(** geometry.rs:52-62: round one coordinate and convert it to [i32]. *)
Definition to_i32 (t : T) : out Z :=
  match n_round t with
  | None => Panic
  | Some z => if (z <=? i32_max) && (i32_min <=? z) then Ok z else Panic
  end.

(** geometry.rs:47-63 [Perspective::map]. *)
Definition persp_map (c : perspective T) (u v : T) : out point :=
  let '(x, y) := persp_apply c u v in
  let* x := to_i32 x in
  let* y := to_i32 y in
  Ok (MkPoint x y).

(** geometry.rs:65-83 [Perspective::unmap]. *)
Definition persp_unmap (c : perspective T) (p : point) : T * T :=
  let x := n_of (px p) in
  let y := n_of (py p) in
  let den := - c0 c * c7 c * y
             + c1 c * c6 c * y
             + (c3 c * c7 c - c4 c * c6 c) * x
             + c0 c * c4 c
             - c1 c * c3 c in
  (- (c1 c * (y - c5 c) - c2 c * c7 c * y
        + (c5 c * c7 c - c4 c) * x
        + c2 c * c4 c) / den,
   (c0 c * (y - c5 c) - c2 c * c6 c * y
        + (c5 c * c6 c - c3 c) * x
        + c2 c * c3 c) / den).

End Numbers.

(** * Integer geometry *)

(** geometry.rs:86-113 [line_intersect]. *)
Definition line_intersect (p0 p1 q0 q1 : point) : out (option point) :=
  let* a := ival (- (py p1 - py p0))%iexp in
  let* b := ival (px p1 - px p0)%iexp in
  let* c := ival (- (py q1 - py q0))%iexp in
  let* d := ival (px q1 - px q0)%iexp in
  let* e := ival (a * px p1 + b * py p1)%iexp in
  let* f := ival (c * px q1 + d * py q1)%iexp in
  let* det := ival (a * d - b * c)%iexp in
  if det =? 0 then Ok None
  else
    let* nx := ival (d * e - b * f)%iexp in
    let* x := idiv nx det in
    let* ny := ival (- c * e + a * f)%iexp in
    let* y := idiv ny det in
    Ok (Some (MkPoint x y)).

(** geometry.rs:115-126 [struct BresenhamScan]. *)
Record bresenham := MkBres {
  b_x : Z; b_y : Z; b_dom_step : Z; b_non_step : Z; b_i : Z; b_d : Z; b_n : Z; b_a : Z; b_xdom : bool }.

(** [n.abs()] on [i32]. *)
Definition iabs (z : Z) : out Z := i32 (Z.abs z).

(** geometry.rs:129-156 [BresenhamScan::new]. *)
Definition bres_new (from to : point) : out bresenham :=
  let* n := ival (px to - px from)%iexp in
  let* d := ival (py to - py from)%iexp in
  let* an := iabs n in
  let* ad := iabs d in
  let '(x_dom, n, d) := if ad <? an then (true, d, n) else (false, n, d) in
  let* t := (if n <? 0 then let* m := ival (- n)%iexp in Ok (m, -1) else Ok (n, 1)) in
  let '(n, non_step) := t in
  let* t := (if d <? 0 then let* m := ival (- d)%iexp in Ok (m, -1) else Ok (d, 1)) in
  let '(d, dom_step) := t in
  Ok (MkBres (px from) (py from) dom_step non_step 0 d n n x_dom).

(** geometry.rs:162-185 [BresenhamScan::next]. *)
Definition bres_next (b : bresenham) : out (option (point * bresenham)) :=
  if b_d b <? b_i b then Ok None
  else
    let ret := MkPoint (b_x b) (b_y b) in
    let* a := ival (b_a b + b_n b)%iexp in
    let '(dom, non) := if b_xdom b then (b_x b, b_y b) else (b_y b, b_x b) in
    let* dom := ival (dom + b_dom_step b)%iexp in
    let* t := (if b_d b <=? a then
                 let* non := ival (non + b_non_step b)%iexp in
                 let* a := ival (a - b_d b)%iexp in
                 Ok (non, a)
               else Ok (non, a)) in
    let '(non, a) := t in
    let* i := ival (b_i b + 1)%iexp in
    let '(x, y) := if b_xdom b then (dom, non) else (non, dom) in
    Ok (Some (ret, MkBres x y (b_dom_step b) (b_non_step b) i (b_d b) (b_n b) a (b_xdom b))).

(** Iterating to the end: the points of [for p in scan]. *)
Fixpoint bres_collect (fuel : nat) (b : bresenham) : out (list point) :=
  match fuel with
  | O => Diverge
  | S fuel' =>
      let* t := bres_next b in
      match t with
      | None => Ok []
      | Some (p, b') => let* r := bres_collect fuel' b' in Ok (p :: r)
      end
  end.

Definition bres_points (from to : point) : out (list point) :=
  let* b := bres_new from to in
  bres_collect (Z.to_nat (b_d b + 2)) b.

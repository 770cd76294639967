(** The Galois fields used by /repo/src/decode.rs (lines 4-10), provided by the crate [g2p].

    [g2p!(GF16, 4, modulus: 0b1_0011)] and [g2p!(GF256, 8, modulus: 0b1_0001_1101)]
    generate newtypes over an unsigned integer whose addition is XOR, whose
    multiplication is carry-less multiplication modulo the modulus, whose
    [GENERATOR] is the class of the polynomial [x] (the integer 2, which is
    primitive for both moduli) and whose [pow] is the mathematical power.
    The crate's source is not part of /repo: this reading is part of the
    trusted base. *)
From Verif Require Import Base.

(** The trait [g2p::GaloisField], as far as decode.rs uses it. *)
Record GaloisField (T : Type) := mkGF {
  gf_zero : T;
  gf_one : T;
  gf_gen : T;
  gf_add : T -> T -> T;
  gf_mul : T -> T -> T;
  gf_div : T -> T -> option T;   (* None: division by zero, which panics *)
  gf_eqb : T -> T -> bool
}.
Arguments gf_zero {T} g.
Arguments gf_one {T} g.
Arguments gf_gen {T} g.
Arguments gf_add {T} g a b.
Arguments gf_mul {T} g a b.
Arguments gf_div {T} g a b.
Arguments gf_eqb {T} g a b.

(** [GaloisField::pow]: square-and-multiply on the binary exponent. *)
Fixpoint gf_pow_pos {T} (G : GaloisField T) (x : T) (p : positive) : T :=
  match p with
  | xH => x
  | xO q => let y := gf_pow_pos G x q in gf_mul G y y
  | xI q => let y := gf_pow_pos G x q in gf_mul G x (gf_mul G y y)
  end.

Definition gf_pow {T} (G : GaloisField T) (x : T) (n : nat) : T :=
  match N.of_nat n with
  | N0 => gf_one G
  | Npos p => gf_pow_pos G x p
  end.

(** Carry-less multiplication modulo a polynomial of degree [deg] given by the bits of [modulus]. *)
Definition gf2_xtime (deg modulus a : Z) : Z :=
  let a2 := 2 * a in
  if Z.testbit a2 deg then Z.lxor a2 modulus else a2.

Fixpoint gf2_mul_bits (deg modulus a b : Z) (nbits : nat) : Z :=
  (* Horner scheme over the bits [nbits-1 .. 0] of [b] *)
  match nbits with
  | O => 0
  | S k =>
      let hi := gf2_mul_bits deg modulus a (Z.div2 b) k in
      let acc := gf2_xtime deg modulus hi in
      if Z.odd b then Z.lxor acc a else acc
  end.

Definition gf2_mul (deg : nat) (modulus a b : Z) : Z :=
  gf2_mul_bits (Z.of_nat deg) modulus a b deg.

(** Inverse by Fermat: a^(2^deg - 2). *)
Definition gf2_field (deg : nat) (modulus : Z) : GaloisField Z :=
  let mul := gf2_mul deg modulus in
  let base := mkGF Z 0 1 2 Z.lxor mul (fun _ _ => None) Z.eqb in
  mkGF Z 0 1 2 Z.lxor mul
    (fun a b => if b =? 0 then None
                else Some (mul a (gf_pow base b (Nat.pow 2 deg - 2))))
    Z.eqb.

(** /repo/src/decode.rs:9 *)
Definition GF16 : GaloisField Z := gf2_field 4 19.      (* 0b1_0011 *)
(** /repo/src/decode.rs:10 *)
Definition GF256 : GaloisField Z := gf2_field 8 285.    (* 0b1_0001_1101 *)

(** How much a symbol can hold (the capacities of table 7 of the standard, as formulas). *)
From Coq Require Import List ZArith.
From Verif Require Import SpecQR.
Import ListNotations.
Open Scope Z_scope.

(** The bits left for the characters of a single segment: without the mode indicator and a character count of [w] bits. *)
Definition spare_bits (v : Z) (e : level) (w : nat) : Z := 8 * Z.of_nat (data_capacity v e) - 4 - Z.of_nat w.

(** Three digits take 10 bits, two 7, one 4. *)
Definition most_digits (v : Z) (e : level) : Z :=
  let r := spare_bits v e (count_bits v (Numeric [])) in
  3 * (r / 10) + (if 7 <=? r mod 10 then 2 else if 4 <=? r mod 10 then 1 else 0).

(** Two alphanumeric characters take 11 bits, one 6. *)
Definition most_letters (v : Z) (e : level) : Z :=
  let r := spare_bits v e (count_bits v (Alphanumeric [])) in 2 * (r / 11) + (if 6 <=? r mod 11 then 1 else 0).

Definition most_bytes (v : Z) (e : level) : Z := spare_bits v e (count_bits v (ByteMode [])) / 8.

(** A kanji takes 13 bits. *)
Definition most_kanji (v : Z) (e : level) : Z := spare_bits v e (count_bits v (Kanji [])) / 13.

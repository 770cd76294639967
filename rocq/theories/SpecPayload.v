(** Reference decoder for arbitrary payload bit streams, on plain lists of bits.  It imports
    nothing of the model.  It describes what decoding does even for streams no encoder produces:
    a count field cut off by the end of the stream is read short, a three-digit group above 999
    contributes its last three digits, and so on. *)
From Coq Require Import List ZArith Bool.
From Verif Require Import SpecQR.
Import ListNotations.
Open Scope Z_scope.

(** How decoding a stream ends. *)
Inductive ending := Complete | Underflow | UnknownMode.

(** Output bytes, and the remaining bits unless the stream was too short. *)
Definition parsed : Type := (list Z * option (list bool))%type.

Definition prepend (out : list Z) (p : parsed) : parsed := (out ++ fst p, snd p).

(** A group of [n] bits, rendered by [f]. *)
Definition group (n : nat) (bs : list bool) (f : Z -> list Z) (k : list bool -> parsed) : parsed :=
  if (length bs <? n)%nat then ([], None)
  else prepend (f (value_of (firstn n bs))) (k (skipn n bs)).

Definition stop (bs : list bool) : parsed := ([], Some bs).

Definition ascii_digit (d : Z) : Z := 48 + d mod 10.

Fixpoint ref_numeric (count : nat) (bs : list bool) : parsed :=
  match count with
  | S (S (S n)) =>
      group 10 bs (fun t => [ascii_digit (t / 100); ascii_digit (t / 10); ascii_digit t])
            (ref_numeric n)
  | S (S O) => group 7 bs (fun t => [ascii_digit (t / 10); ascii_digit t]) stop
  | S O => group 4 bs (fun t => [ascii_digit t]) stop
  | O => stop bs
  end.

Definition ref_char (t : Z) : Z := alphanumeric_char (t mod 45).

Fixpoint ref_alphanumeric (count : nat) (bs : list bool) : parsed :=
  match count with
  | S (S n) => group 11 bs (fun t => [ref_char (t / 45); ref_char t]) (ref_alphanumeric n)
  | S O => group 6 bs (fun t => [ref_char t]) stop
  | O => stop bs
  end.

(** Byte and kanji segments check the whole length before producing anything. *)
Fixpoint ref_chars (width : nat) (f : Z -> list Z) (count : nat) (bs : list bool) : parsed :=
  match count with
  | S n => prepend (f (value_of (firstn width bs))) (ref_chars width f n (skipn width bs))
  | O => stop bs
  end.
Definition ref_fixed (width : nat) (f : Z -> list Z) (count : Z) (bs : list bool) : parsed :=
  if Z.of_nat (length bs) <? count * Z.of_nat width then ([], None)
  else ref_chars width f (Z.to_nat count) bs.

Definition ref_sjis (d : Z) : list Z :=
  let a := d / 192 * 256 + d mod 192 + 33088 in
  let c := if a <=? 40956 then a else a + 16384 in
  [c / 256; c mod 256].

(** ECI designator: one byte, plus one when it begins 10, plus two when it begins 110. *)
Definition ref_eci (bs : list bool) : parsed :=
  if (length bs <? 8)%nat then ([], None)
  else
    let extra := match bs with
                 | true :: false :: _ => 8
                 | true :: true :: false :: _ => 16
                 | _ => 0
                 end%nat in
    if (length bs <? 8 + extra)%nat then ([], None) else ([], Some (skipn (8 + extra) bs)).

Definition ref_count (w1 w2 w3 : nat) (v : Z) : nat :=
  if v <=? 9 then w1 else if v <=? 26 then w2 else w3.

(** [None]: unknown mode. *)
Definition ref_segment (v mode : Z) (bs : list bool) : option parsed :=
  let counted w (k : Z -> list bool -> parsed) :=
    Some (k (value_of (firstn w bs)) (skipn w bs)) in
  if mode =? 1 then counted (ref_count 10 12 14 v) (fun n => ref_numeric (Z.to_nat n))
  else if mode =? 2 then counted (ref_count 9 11 13 v) (fun n => ref_alphanumeric (Z.to_nat n))
  else if mode =? 4 then counted (ref_count 8 16 16 v) (ref_fixed 8 (fun b => [b]))
  else if mode =? 8 then counted (ref_count 8 10 12 v) (ref_fixed 13 ref_sjis)
  else if mode =? 7 then Some (ref_eci bs)
  else None.

(** Segments until the terminator or fewer than four bits; [fuel] at least the number of bits. *)
Fixpoint ref_payload (fuel : nat) (v : Z) (bs : list bool) : list Z * ending :=
  match fuel with
  | O => ([], Complete)
  | S fuel' =>
      if (length bs <? 4)%nat then ([], Complete)
      else
        let mode := value_of (firstn 4 bs) in
        if mode =? 0 then ([], Complete)
        else match ref_segment v mode (skipn 4 bs) with
             | None => ([], UnknownMode)
             | Some (out, None) => (out, Underflow)
             | Some (out, Some rest) =>
                 let '(out', e) := ref_payload fuel' v rest in (out ++ out', e)
             end
  end.
Definition ref_decode (v : Z) (bs : list bool) : list Z * ending := ref_payload (S (length bs)) v bs.

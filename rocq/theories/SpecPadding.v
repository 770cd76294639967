(** What may follow the message in the data codewords of a symbol.

    The standard asks for a terminator (four zero bits, fewer if there is no room for them), zeros up to the next
    codeword and the alternating codewords 236 and 17.  Here whatever follows the terminator is arbitrary.
    Independent of the model. *)
From Coq Require Import List ZArith Bool.
From Verif Require Import SpecQR.
Import ListNotations.
Open Scope Z_scope.

Definition terminated (rest : list bool) : Prop :=
  (length rest < 4)%nat \/ exists anything, rest = [false; false; false; false] ++ anything.

(** Data codewords that begin with the message and its terminator. *)
Definition carries (v : Z) (e : level) (m : list segment) (data : list Z) : Prop :=
  length data = data_capacity v e /\ Forall is_byte data
  /\ exists rest, bytes_bits data = message_bits v m ++ rest /\ terminated rest.

(** The symbol of given data codewords. *)
Definition symbol_of (v : Z) (e : level) (mask : Z) (data : list Z) : Z -> Z -> bool :=
  draw v e mask (symbol_codewords v e data).

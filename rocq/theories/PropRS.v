(** Properties of Reed-Solomon block correction: C03, C04, C63. *)
From Verif Require Import Base VersionDb ModelGF ModelRS SpecQR RSBytes RSEncode RSFacts RSNearest RSBeyond.
From Coq Require Import List ZArith Bool Lia.
Import ListNotations.
Open Scope Z_scope.
Set Bullet Behavior "Strict Subproofs".

(** * C03 *)

(** Any received block within half the number of parity bytes of a codeword is turned into it.
    ([mkRS bs dw ns]: block size, data words, number of short blocks, the last one unused here.) *)
Theorem C03_corrects_to_codeword (bs dw ns : nat) (c r : list Z) :
  length c = bs -> length r = bs -> (dw < bs)%nat -> (bs <= 255)%nat -> (bs - dw < 64)%nat ->
  Forall is_byte r -> rs_codeword (bs - dw) c -> (2 * distance r c <= bs - dw)%nat ->
  correct_block GF256 r (mkRS bs dw ns) = Ok c.
Proof. exact (@correct_block_corrects bs dw ns c r). Qed.
Print Assumptions C03_corrects_to_codeword.

(** Codewords exist: the reference encoder produces one for every data. *)
Theorem C03_encoder npar data : Forall is_byte data ->
  length (rs_parity npar data) = npar /\ rs_codeword npar (data ++ rs_parity npar data).
Proof. exact (rs_parity_is_codeword npar data). Qed.
Print Assumptions C03_encoder.

(** Five data bytes, six check bytes, three errors. *)
Example C03_example :
  correct_block GF256 (let c := [1; 2; 3; 4; 5] ++ rs_parity 6 [1; 2; 3; 4; 5] in
                       map (fun p => if Nat.even (fst p) && (fst p <? 5)%nat then Z.lxor (snd p) 77 else snd p)
                           (combine (seq 0 11) c)) (mkRS 11 5 1)
  = Ok ([1; 2; 3; 4; 5] ++ rs_parity 6 [1; 2; 3; 4; 5]).
Proof. vm_compute. reflexivity. Qed.

(** * C04 *)
Theorem C04_accepted_is_codeword (bs dw ns : nat) (r : list Z) :
  length r = bs -> (dw < bs)%nat -> (bs <= 255)%nat -> (bs - dw < 64)%nat -> Forall is_byte r ->
  (exists c, correct_block GF256 r (mkRS bs dw ns) = Ok c /\ length c = bs /\ rs_codeword (bs - dw) c) \/
  correct_block GF256 r (mkRS bs dw ns) = Err DataEcc.
Proof. exact (@correct_block_sound bs dw ns r). Qed.
Print Assumptions C04_accepted_is_codeword.

(** A codeword is returned unchanged. *)
Theorem C04_codeword_unchanged (bs dw ns : nat) (c : list Z) :
  length c = bs -> (dw < bs)%nat -> (bs <= 255)%nat -> (bs - dw < 64)%nat ->
  rs_codeword (bs - dw) c -> correct_block GF256 c (mkRS bs dw ns) = Ok c.
Proof. exact (codeword_unchanged bs dw ns c). Qed.
Print Assumptions C04_codeword_unchanged.

(** A block that cannot be corrected. *)
Example C04_example : correct_block GF256 [1; 2; 3; 4; 5; 6; 7; 8] (mkRS 8 4 1) = Err DataEcc.
Proof. vm_compute. reflexivity. Qed.

(** * C63 *)

(** Whatever was received, a block that is accepted is restored to a nearest word of the code, and
    at most [bs - dw] bytes of it are changed. *)
Theorem C63_nearest (bs dw ns : nat) (r b : list Z) :
  length r = bs -> (dw < bs)%nat -> (bs <= 255)%nat -> (bs - dw < 64)%nat -> Forall is_byte r ->
  correct_block GF256 r (mkRS bs dw ns) = Ok b ->
  (distance r b <= bs - dw)%nat /\
  forall c, length c = bs -> rs_codeword (bs - dw) c -> (distance r b <= distance r c)%nat.
Proof. exact (@correct_block_nearest bs dw ns r b). Qed.
Print Assumptions C63_nearest.

(** Whether damage is repaired does not depend on the message: adding a word of the code to what is
    received adds it to what is returned. *)
Theorem C63_every_message (bs dw ns : nat) (r c : list Z) :
  length r = bs -> length c = bs -> (dw < bs)%nat -> (bs <= 255)%nat -> (bs - dw < 64)%nat ->
  Forall is_byte r -> rs_codeword (bs - dw) c ->
  correct_block GF256 (zip_xor r c) (mkRS bs dw ns)
  = match correct_block GF256 r (mkRS bs dw ns) with Ok b => Ok (zip_xor b c) | other => other end.
Proof. exact (@correct_block_every bs dw ns r c). Qed.
Print Assumptions C63_every_message.

(** A block is accepted with more wrong bytes than half the check bytes: with the seven check bytes
    of version 1 level L this happens to every word of the code, at four wrong bytes. *)
Theorem C63_beyond_capacity (c : list Z) : length c = 26%nat -> rs_codeword 7 c ->
  let r := zip_xor four_wrong c in
  distance r c = 4%nat /\ correct_block GF256 r (mkRS 26 19 1) = Ok c.
Proof. exact (four_wrong_restored c). Qed.
Print Assumptions C63_beyond_capacity.

(** So it is not true that only damage within the capacity is repaired. *)
Theorem C63_only_within_capacity_refuted :
  ~ (forall (bs dw ns : nat) (r c : list Z),
       length r = bs -> (dw < bs)%nat -> (bs <= 255)%nat -> (bs - dw < 64)%nat -> Forall is_byte r ->
       correct_block GF256 r (mkRS bs dw ns) = Ok c -> (2 * distance r c <= bs - dw)%nat).
Proof. exact only_within_capacity_false. Qed.
Print Assumptions C63_only_within_capacity_refuted.

(** Four wrong bytes in the block of the symbol saying "Hello"; the other choice of the last byte is
    not repaired. *)
Example C63_example :
  let data := [64; 84; 134; 86; 198; 198; 240; 236; 17; 236; 17; 236; 17; 236; 17; 236; 17; 236; 17] in
  let c := data ++ rs_parity 7 data in
  correct_block GF256 (zip_xor four_wrong c) (mkRS 26 19 1) = Ok c /\
  correct_block GF256 (zip_xor (upd four_wrong 13 1) c) (mkRS 26 19 1) = Err DataEcc.
Proof. split; vm_compute; reflexivity. Qed.

(** Properties of the payload decoder: C14-C19. *)
From Verif Require Import Base Lib ModelDecode SpecQR SpecPayload StreamProofs PayloadProofs MessageProofs RawProofs.
From Coq Require Import ZifyBool ZifyNat ZifyN.
Open Scope Z_scope.
Set Bullet Behavior "Strict Subproofs".

(** [at_bits ds bs]: the stream [ds] is well formed and [bs] are its remaining bits.
    [feed wr chunks r w]: write the pieces in turn, stopping with [IoError] at the first failure,
    then return [r].  [skipn 4] removes the mode indicator, already consumed by the caller. *)

(** Such streams exist for every list of whole bytes. *)
Example stream_of_bytes : at_bits (mkDS (repeat 165 20) 3 160) (skipn 3 (bytes_bits (repeat 165 20))).
Proof. split; [vm_compute; repeat split; discriminate|vm_compute; reflexivity]. Qed.

(** * C14 *)
Theorem C14_numeric meta ds digits rest : let v := md_version meta in
  segment_ok v (Numeric digits) -> at_bits ds (skipn 4 (segment_bits v (Numeric digits)) ++ rest) ->
  exists chunks ds', concat chunks = map (fun d => 48 + d) digits /\ at_bits ds' rest /\
    forall W (wr : W -> list Z -> W * bool) w, decode_numeric wr meta ds w = feed wr chunks (Ok ds') w.
Proof. exact (segment_decodes meta ds (Numeric digits) rest). Qed.
Print Assumptions C14_numeric.

Example C14_example : segment_ok 1 (Numeric [0; 0; 7; 9; 2]) /\
  skipn 4 (segment_bits 1 (Numeric [0; 0; 7; 9; 2])) = bits_of 10 5 ++ bits_of 10 7 ++ bits_of 7 92.
Proof. split; [split; [cbn; lia|repeat constructor; lia]|vm_compute; reflexivity]. Qed.

(** * C15 *)
Theorem C15_alphanumeric meta ds chars rest : let v := md_version meta in
  segment_ok v (Alphanumeric chars) -> at_bits ds (skipn 4 (segment_bits v (Alphanumeric chars)) ++ rest) ->
  exists chunks ds', concat chunks = map alphanumeric_char chars /\ at_bits ds' rest /\
    forall W (wr : W -> list Z -> W * bool) w, decode_alpha wr meta ds w = feed wr chunks (Ok ds') w.
Proof. exact (segment_decodes meta ds (Alphanumeric chars) rest). Qed.
Print Assumptions C15_alphanumeric.

Example C15_example : segment_ok 10 (Alphanumeric [12; 44; 35]) /\ map alphanumeric_char [12; 44; 35] = [67; 58; 90].
Proof. split; [split; [cbn; lia|repeat constructor; lia]|vm_compute; reflexivity]. Qed.

(** * C16 *)
Theorem C16_bytes meta ds bytes rest : let v := md_version meta in
  segment_ok v (ByteMode bytes) -> at_bits ds (skipn 4 (segment_bits v (ByteMode bytes)) ++ rest) ->
  exists chunks ds', concat chunks = bytes /\ at_bits ds' rest /\
    forall W (wr : W -> list Z -> W * bool) w, decode_byte wr meta ds w = feed wr chunks (Ok ds') w.
Proof. exact (segment_decodes meta ds (ByteMode bytes) rest). Qed.
Print Assumptions C16_bytes.

Example C16_example : segment_ok 40 (ByteMode (repeat 255 300)).
Proof. split; [cbn; lia|]. apply Forall_forall. intros b H. apply repeat_spec in H. subst. unfold is_byte. lia. Qed.

(** * C17 *)
Theorem C17_kanji meta ds codes rest : let v := md_version meta in
  segment_ok v (Kanji codes) -> at_bits ds (skipn 4 (segment_bits v (Kanji codes)) ++ rest) ->
  exists chunks ds', concat chunks = flat_map (fun c => [c / 256; c mod 256]) codes /\ at_bits ds' rest /\
    forall W (wr : W -> list Z -> W * bool) w, decode_kanji wr meta ds w = feed wr chunks (Ok ds') w.
Proof. exact (segment_decodes meta ds (Kanji codes) rest). Qed.
Print Assumptions C17_kanji.

(** The two examples of the standard: 935F and E4AA (hexadecimal). *)
Example C17_example : segment_ok 1 (Kanji [37727; 58538]) /\ map kanji_value [37727; 58538] = [3487; 6826].
Proof. split; [split; [cbn; lia|apply Forall_cons; [unfold sjis_char; cbn; lia|apply Forall_cons; [unfold sjis_char; cbn; lia|apply Forall_nil]]]|vm_compute; reflexivity]. Qed.

(** * C18 *)
Theorem C18_eci meta ds n rest : let v := md_version meta in
  segment_ok v (Eci n) -> at_bits ds (skipn 4 (segment_bits v (Eci n)) ++ rest) ->
  exists chunks ds', concat chunks = [] /\ at_bits ds' rest /\
    forall W (wr : W -> list Z -> W * bool) w, decode_eci ds w = feed wr chunks (Ok ds') w.
Proof. exact (segment_decodes meta ds (Eci n) rest). Qed.
Print Assumptions C18_eci.

(** Wherever the header stands, the output is that of the message without it. *)
Theorem C18_header_skipped m1 n m2 : message_bytes (m1 ++ Eci n :: m2) = message_bytes (m1 ++ m2).
Proof. exact (eci_no_bytes m1 n m2). Qed.
Print Assumptions C18_header_skipped.

Example C18_example : segment_ok 1 (Eci 26) /\ segment_ok 1 (Eci 899) /\ segment_ok 1 (Eci 999999) /\
  map (fun n => length (eci_bits n)) [26; 899; 999999] = [8; 16; 24]%nat.
Proof. repeat split; cbn; lia. Qed.

(** Whole messages, ended by the terminator or by the end of the stream. *)
Theorem C14_C18_message meta ds m tail : let v := md_version meta in
  at_bits ds (message_bits v m ++ tail) -> message_ok v m -> ends_here tail ->
  payload_outcome meta ds (message_bytes m) (Ok tt).
Proof. exact (payload_complete meta ds m tail). Qed.
Print Assumptions C14_C18_message.

(** * C19 *)

(** On every stream the decoder does what the reference decoder of SpecPayload.v says. *)
Theorem C19_reference meta ds bs : at_bits ds bs ->
  payload_outcome meta ds (fst (ref_decode (md_version meta) bs)) (ending_res (snd (ref_decode (md_version meta) bs))).
Proof. exact (decode_payload_reference meta ds bs). Qed.
Print Assumptions C19_reference.

Theorem C19_unknown_mode meta ds m k rest : let v := md_version meta in
  at_bits ds (message_bits v m ++ bits_of 4 k ++ rest) -> message_ok v m ->
  0 <= k < 16 -> ~ In k [0; 1; 2; 4; 7; 8] ->
  payload_outcome meta ds (message_bytes m) (Err UnknownDataType).
Proof. exact (payload_unknown_mode meta ds m k rest). Qed.
Print Assumptions C19_unknown_mode.

Theorem C19_byte_underflow meta ds m n rest : let v := md_version meta in
  let w := if v <=? 9 then 8%nat else 16%nat in
  at_bits ds (message_bits v m ++ bits_of 4 4 ++ bits_of w n ++ rest) -> message_ok v m ->
  0 <= n < 2 ^ Z.of_nat w -> Z.of_nat (length rest) < 8 * n ->
  payload_outcome meta ds (message_bytes m) (Err DataUnderflow).
Proof. exact (payload_byte_underflow meta ds m n rest). Qed.
Print Assumptions C19_byte_underflow.

Theorem C19_kanji_underflow meta ds m n rest : let v := md_version meta in
  let w := if v <=? 9 then 8%nat else if v <=? 26 then 10%nat else 12%nat in
  at_bits ds (message_bits v m ++ bits_of 4 8 ++ bits_of w n ++ rest) -> message_ok v m ->
  0 <= n < 2 ^ Z.of_nat w -> Z.of_nat (length rest) < 13 * n ->
  payload_outcome meta ds (message_bytes m) (Err DataUnderflow).
Proof. exact (payload_kanji_underflow meta ds m n rest). Qed.
Print Assumptions C19_kanji_underflow.

Theorem C19_numeric_underflow meta ds m n rest : let v := md_version meta in
  let w := if v <=? 9 then 10%nat else if v <=? 26 then 12%nat else 14%nat in
  at_bits ds (message_bits v m ++ bits_of 4 1 ++ bits_of w (Z.of_nat n) ++ rest) -> message_ok v m ->
  Z.of_nat n < 2 ^ Z.of_nat w -> (length rest < numeric_length n)%nat ->
  exists out, payload_outcome meta ds (message_bytes m ++ out) (Err DataUnderflow).
Proof. exact (payload_numeric_underflow meta ds m n rest). Qed.
Print Assumptions C19_numeric_underflow.

Theorem C19_alphanumeric_underflow meta ds m n rest : let v := md_version meta in
  let w := if v <=? 9 then 9%nat else if v <=? 26 then 11%nat else 13%nat in
  at_bits ds (message_bits v m ++ bits_of 4 2 ++ bits_of w (Z.of_nat n) ++ rest) -> message_ok v m ->
  Z.of_nat n < 2 ^ Z.of_nat w -> (length rest < alphanumeric_length n)%nat ->
  exists out, payload_outcome meta ds (message_bytes m ++ out) (Err DataUnderflow).
Proof. exact (payload_alphanumeric_underflow meta ds m n rest). Qed.
Print Assumptions C19_alphanumeric_underflow.

(** Reading [n] bits gives the number they stand for, fewer at the end of the stream; more than 64 panic. *)
Theorem C19_take_bits ds bs n : at_bits ds bs -> 0 <= n ->
  if Z.min (Z.of_nat (length bs)) n <=? 64
  then exists ds', take_bits ds n = Ok (value_of (firstn (Z.to_nat n) bs), ds') /\ at_bits ds' (skipn (Z.to_nat n) bs)
  else take_bits ds n = Panic.
Proof. exact (take_bits_exact ds bs n). Qed.
Print Assumptions C19_take_bits.

Example C19_take_bits_example :
  take_bits (mkDS [64; 54; 16] 4 20) 64 = Ok (865, mkDS [64; 54; 16] 20 20)
  /\ take_bits (mkDS (repeat 255 9) 0 72) 65 = Panic.
Proof. split; vm_compute; reflexivity. Qed.

(** One byte announced as three: nothing of it is written; seven digits in 20 bits: six come out. *)
Example C19_example :
  decode_payload vec_writer (mkMeta 1 0 0) (mkDS [64; 54; 16] 0 24) [] = ([], Err DataUnderflow) /\
  decode_payload vec_writer (mkMeta 1 0 0) (mkDS [16; 28; 123; 114; 0] 0 34) [] = ([49; 50; 51; 52; 53; 54], Err DataUnderflow).
Proof. split; vm_compute; reflexivity. Qed.

(** Properties of symbols with unusual padding: C78.
    Every theorem is followed by its assumptions and by a case meeting its hypotheses. *)
From Coq Require Import SpecFloat.
From Verif Require Import Base Lib ModelDecode ModelImage ModelGeometry ModelDetect ModelIdentify SpecPayload SpecImage SpecThreshold SpecFinder SpecPicture SpecPadding
  FormatProofs EndToEnd EncodeProofs GridProofs Refuted SymbolProofs DrawProofs PictureProofs DotProofs PaddingProofs PropSymbol PropPicture SpecQR.
From Coq Require Import ZifyBool.
Open Scope Z_scope.
Set Bullet Behavior "Strict Subproofs".

(** * C78 *)

(** The padding of the standard is one of the possibilities. *)
Theorem C78_standard v e m : fits v e m -> carries v e m (data_codewords v (data_capacity v e) m).
Proof. exact (standard_carries v e m). Qed.
Print Assumptions C78_standard.

(** Whatever follows the terminator, the message is decoded and nothing else; damage is corrected as usual. *)
Theorem C78_ignored code sym v e mask m data : readable code sym -> g_size code = symbol_size v ->
  1 <= v <= 40 -> 0 <= mask < 8 -> message_ok v m -> carries v e m data ->
  read_format code = Ok (mkMeta v (level_bits e) mask) ->
  within_capacity v e data (received_codewords v mask sym) ->
  writes_message code (message_bytes m) (mkMeta v (level_bits e) mask).
Proof. exact (decode_carried code sym v e mask m data). Qed.
Print Assumptions C78_ignored.

Theorem C78_drawn code v e mask m data : readable code (symbol_of v e mask data) -> g_size code = symbol_size v ->
  1 <= v <= 40 -> 0 <= mask < 8 -> message_ok v m -> carries v e m data ->
  writes_message code (message_bytes m) (mkMeta v (level_bits e) mask).
Proof. exact (decode_drawn code v e mask m data). Qed.
Print Assumptions C78_drawn.

(** Any bits can follow the terminator. *)
Theorem C78_any_rest v e m rest : terminated rest -> (length (message_bits v m) + length rest = 8 * data_capacity v e)%nat ->
  exists data, carries v e m data /\ bytes_bits data = message_bits v m ++ rest.
Proof. exact (any_rest v e m rest). Qed.
Print Assumptions C78_any_rest.

(** In a symbol of one block, the modules of what follows the terminator can have any colours one likes. *)
Theorem C78_any_picture v e mask m want : 1 <= v <= 40 -> num_blocks v e = 1%nat -> (length (message_bits v m) + 4 <= 8 * data_capacity v e)%nat ->
  exists data, carries v e m data
    /\ forall i, (length (message_bits v m) + 4 <= i < 8 * data_capacity v e)%nat ->
         let q := nth i (data_modules v) (0, 0) in symbol_of v e mask data (fst q) (snd q) = want (fst q) (snd q).
Proof. exact (any_picture v e mask m want). Qed.
Print Assumptions C78_any_picture.

(** From a greyscale picture. *)
Theorem C78_scan {Srt : Sorter spec_float} w h fill v e mask msg data m k ox oy r :
  1 <= w <= 32768 -> 1 <= h <= 32768 -> 1 <= v <= 40 -> v <> 21 -> 1 <= k -> 2 * k + 2 <= m <= 8 * k -> (7 * m - 1) * (7 * m - 1) * furthest v m ox oy r < 2 ^ 31 ->
  4 * m <= ox -> 0 <= oy -> ox + symbol_size v * m + 4 * m <= w -> oy + symbol_size v * m <= h ->
  0 <= mask < 8 -> message_ok v msg -> carries v e msg data ->
  (forall x y, inside w h (x, y) -> if dotted v (symbol_of v e mask data) m k ox oy r x y then fill x y = 0 else 241 <= fill x y <= 255) ->
  exists p, prepare_from_greyscale w h fill = Ok p /\ scans_to p (message_bytes msg) (mkMeta v (level_bits e) mask).
Proof. exact (scan_carried w h fill v e mask msg data m k ox oy r). Qed.
Print Assumptions C78_scan.

(** "rqrr", followed after the terminator by the segment "secret". *)
Definition secret : list bool := segment_bits 1 (ByteMode [115; 101; 99; 114; 101; 116]) ++ repeat false 20.

Definition with_secret : list Z := group8 16 (message_bits 1 rqrr_message ++ repeat false 4 ++ secret).

Lemma with_secret_carries : carries 1 EcM rqrr_message with_secret.
Proof.
  split; [vm_compute; reflexivity|]. split.
  - apply Forall_forall. intros x Hx.
    assert (H : forallb (fun z => (0 <=? z) && (z <? 256)) with_secret = true) by (vm_compute; reflexivity).
    rewrite forallb_forall in H. specialize (H x Hx). unfold is_byte. lia.
  - exists (repeat false 4 ++ secret). split; [vm_compute; reflexivity|]. right. exists secret. reflexivity.
Qed.

Example C78_example : with_secret <> data_codewords 1 16 rqrr_message
  /\ writes_message (grid_of 21 (symbol_of 1 EcM 5 with_secret)) [114; 113; 114; 114] (mkMeta 1 0 5).
Proof.
  split; [vm_compute; discriminate|]. destruct rqrr_message_ok as (H1 & _).
  apply (C78_drawn (grid_of 21 (symbol_of 1 EcM 5 with_secret)) 1 EcM 5 rqrr_message with_secret); try lia; [apply grid_of_readable|reflexivity|exact H1|exact with_secret_carries].
Qed.

(** "rqrr" with all modules after the terminator dark. *)
Example C78_example_picture : exists data, writes_message (grid_of 21 (symbol_of 1 EcL 0 data)) [114; 113; 114; 114] (mkMeta 1 1 0)
  /\ forall i, (48 <= i < 152)%nat -> let q := nth i (data_modules 1) (0, 0) in symbol_of 1 EcL 0 data (fst q) (snd q) = true.
Proof.
  destruct rqrr_message_ok as (H1 & _).
  destruct (C78_any_picture 1 EcL 0 rqrr_message (fun _ _ => true)) as (data & C & A); [lia|reflexivity|apply Nat.leb_le; vm_compute; reflexivity|].
  exists data. split; [|exact A].
  apply (C78_drawn (grid_of 21 (symbol_of 1 EcL 0 data)) 1 EcL 0 rqrr_message data); try lia; [apply grid_of_readable|reflexivity|exact H1|exact C].
Qed.

(** The first, on uneven paper. *)
Definition secret_page (x y : Z) : Z := if dotted 1 (symbol_of 1 EcM 5 with_secret) 4 1 20 3 2 x y then 0 else 241 + (x + 5 * y) mod 15.

Example C78_example_scan {Srt : Sorter spec_float} : exists p, prepare_from_greyscale 120 90 secret_page = Ok p
  /\ scans_to p [114; 113; 114; 114] (mkMeta 1 0 5).
Proof.
  destruct rqrr_message_ok as (H1 & _).
  apply (C78_scan 120 90 secret_page 1 EcM 5 rqrr_message with_secret 4 1 20 3 2); try (cbn; lia); [exact H1|exact with_secret_carries|].
  intros x y _. unfold secret_page. destruct (dotted _ _ _ _ _ _ _ _ _); [reflexivity|]. pose proof (Z.mod_pos_bound (x + 5 * y) 15 ltac:(lia)). lia.
Qed.

(** How much a symbol can hold: C70.
    Every theorem is followed by its assumptions and by a case meeting its hypotheses. *)
From Coq Require Import SpecFloat.
From Verif Require Import Base Lib ModelDecode ModelImage ModelGeometry ModelDetect ModelIdentify SpecPayload SpecImage SpecPicture SpecHold
  MessageProofs EncodeProofs FormatProofs GridProofs CountProofs HoldProofs PictureProofs DotProofs DottedProofs PropSymbol PropDots SpecQR.
From Coq Require Import ZifyBool.
Open Scope Z_scope.
Set Bullet Behavior "Strict Subproofs".

(** * C70 *)

(** No grid whatever decodes to more bytes than the digits its version and level have room for, 7089 at the most; nor does it write more before an error. *)
Theorem C70_most g out r : total_grid g -> 9 <= g_size g -> grid_decode_to vec_writer g [] = (out, r) ->
  Z.of_nat (length out) <= 7089
  /\ forall meta, r = Ok meta -> exists e, md_ecc_level meta = level_bits e /\ Z.of_nat (length out) <= most_digits (md_version meta) e.
Proof. exact (grid_most g out r). Qed.
Print Assumptions C70_most.

(** What fits: exactly the capacities of the standard. *)
Theorem C70_fits v e : 1 <= v <= 40 ->
  (forall ds, fits v e [Numeric ds] <-> Z.of_nat (length ds) <= most_digits v e)
  /\ (forall cs, fits v e [Alphanumeric cs] <-> Z.of_nat (length cs) <= most_letters v e)
  /\ (forall bs, fits v e [ByteMode bs] <-> Z.of_nat (length bs) <= most_bytes v e)
  /\ (forall cs, fits v e [Kanji cs] <-> Z.of_nat (length cs) <= most_kanji v e).
Proof.
  intros Hv. split; [intros ds; apply fits_digits; exact Hv|]. split; [intros cs; apply fits_letters; exact Hv|].
  split; [intros bs; apply fits_bytes; exact Hv|intros cs; apply fits_kanji; exact Hv].
Qed.
Print Assumptions C70_fits.

Definition levels_table (v : Z) : list (Z * Z * Z * Z) := map (fun e => (most_digits v e, most_letters v e, most_bytes v e, most_kanji v e)) [EcL; EcM; EcQ; EcH].

(** Rows of table 7 of the standard. *)
Example C70_table : levels_table 1 = [(41, 25, 17, 10); (34, 20, 14, 8); (27, 16, 11, 7); (17, 10, 7, 4)]
  /\ levels_table 10 = [(652, 395, 271, 167); (513, 311, 213, 131); (364, 221, 151, 93); (288, 174, 119, 74)]
  /\ levels_table 40 = [(7089, 4296, 2953, 1817); (5596, 3391, 2331, 1435); (3993, 2420, 1663, 1024); (3057, 1852, 1273, 784)].
Proof.
  unfold levels_table, most_digits, most_letters, most_bytes, most_kanji, spare_bits. cbn [map].
  rewrite !capacity_codewords by lia. vm_compute. repeat split.
Qed.

(** Everything of that length is scanned back from a picture of it: a segment of any kind, of any length that fits. *)
Theorem C70_scanned {Srt : Sorter spec_float} v e mask s : 1 <= v <= 40 -> v <> 21 -> 0 <= mask < 8 -> fits v e [s] ->
  match s with
  | Numeric ds => Forall (fun d => 0 <= d < 10) ds
  | Alphanumeric cs => Forall (fun c => 0 <= c < 45) cs
  | ByteMode bs => Forall is_byte bs
  | Kanji cs => Forall sjis_char cs
  | Eci n => 0 <= n < 1000000
  end ->
  exists p, prepare_from_bitmap (symbol_size v * 4) (symbol_size v * 4) (dotted v (encode v e mask [s]) 4 1 0 0 0) = Ok p
    /\ scans_to p (segment_bytes s) (mkMeta v (level_bits e) mask).
Proof.
  intros Hv H21 Hm F S.
  assert (E : message_bytes [s] = segment_bytes s) by (unfold message_bytes; cbn [flat_map]; apply app_nil_r). rewrite <- E.
  assert (Fu : furthest v 4 0 0 0 = (symbol_size v - 7) * 4) by (unfold furthest, step_at; cbn [fst snd]; lia).
  apply C57_dotted; try (unfold symbol_size; lia); [rewrite Fu; unfold symbol_size; lia| |exact F].
  constructor; [|constructor]. split; [|exact S]. destruct s as [ds|cs|bs|cs|n]; [| | | |cbn; lia]; (apply (counts_ok v e); [exact Hv|exact F|exact I]).
Qed.
Print Assumptions C70_scanned.

(** So every string of up to 2953 bytes has a picture from which it is read back. *)
Theorem C70_bytes {Srt : Sorter spec_float} bs : Forall is_byte bs -> Z.of_nat (length bs) <= 2953 ->
  exists p, prepare_from_bitmap 708 708 (dotted 40 (encode 40 EcL 0 [ByteMode bs]) 4 1 0 0 0) = Ok p /\ scans_to p bs (mkMeta 40 1 0).
Proof.
  intros B L. apply (C70_scanned 40 EcL 0 (ByteMode bs)); try lia; [|exact B].
  apply C70_fits; [lia|]. unfold most_bytes, spare_bits. rewrite capacity_codewords by lia.
  assert (X : (8 * codewords 40 EcL - 4 - Z.of_nat (count_bits 40 (ByteMode []))) / 8 = 2953) by (vm_compute; reflexivity). lia.
Qed.
Print Assumptions C70_bytes.

(** And every string of up to 7089 digits: the bound of C70_most is reached. *)
Theorem C70_digits {Srt : Sorter spec_float} ds : Forall (fun d => 0 <= d < 10) ds -> Z.of_nat (length ds) <= 7089 ->
  exists p, prepare_from_bitmap 708 708 (dotted 40 (encode 40 EcL 0 [Numeric ds]) 4 1 0 0 0) = Ok p
    /\ scans_to p (map (fun d => 48 + d) ds) (mkMeta 40 1 0).
Proof.
  intros B L. apply (C70_scanned 40 EcL 0 (Numeric ds)); try lia; [|exact B].
  apply C70_fits; [lia|]. assert (X : most_digits 40 EcL = 7089); [|lia].
  unfold most_digits, spare_bits. rewrite capacity_codewords by lia. vm_compute. reflexivity.
Qed.
Print Assumptions C70_digits.

Example C70_longest {Srt : Sorter spec_float} : exists p l p', detect_grids (T := spec_float) p = Ok ([l], p')
  /\ grid_decode (ref_grid p' (lg_loc l)) = Ok (mkMeta 40 1 0, repeat 55 (Z.to_nat 7089)).
Proof.
  destruct (C70_digits (repeat 7 (Z.to_nat 7089))) as (p & _ & l & p' & E & _ & _ & H & _).
  - apply Forall_forall. intros d Hd. apply repeat_spec in Hd. lia.
  - rewrite repeat_length. lia.
  - exists p, l, p'. split; [exact E|].
    assert (R : map (fun d => 48 + d) (repeat 7 (Z.to_nat 7089)) = repeat 55 (Z.to_nat 7089)) by (clear; induction (Z.to_nat 7089) as [|n IH]; [reflexivity|cbn [repeat map]; rewrite IH; reflexivity]).
    rewrite R in H. apply H. exists (repeat 55 (Z.to_nat 7089)). split.
    + apply Forall_forall. intros d Hd. apply repeat_spec in Hd. subst d. vm_compute. intuition discriminate.
    + clear. induction (Z.to_nat 7089) as [|n IH]; [reflexivity|]. cbn [repeat flat_map]. rewrite <- IH. reflexivity.
Qed.

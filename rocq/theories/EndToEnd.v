(** From a grid to the message. *)
From Verif Require Import Base Lib VersionDb ModelGF ModelRS ModelDecode SpecQR SpecPayload StreamProofs
  PayloadProofs MessageProofs FormatProofs LayoutProofs EccDb EccProofs EccStream V21Proofs.
From Coq Require Import ZifyBool ZifyNat ZifyN.
Ltac Zify.zify_post_hook ::= Z.div_mod_to_equations.
Open Scope Z_scope.

(** * Codewords from bits *)
Lemma app_inj_len {A} (a a' b b' : list A) : length a = length a' -> a ++ b = a' ++ b' -> a = a' /\ b = b'.
Proof.
  revert a'. induction a as [|x a IH]; intros [|x' a'] L E; cbn in *; try discriminate; [auto|].
  injection E as -> E. destruct (IH a' ltac:(lia) E) as [-> ->]. auto.
Qed.

Lemma group8_prefix t : forall data bits z f, Forall is_byte data -> bytes_bits data = bits ++ z ->
  (8 * t <= length bits)%nat -> (t <= f)%nat -> firstn t data = firstn t (group8 f bits).
Proof.
  induction t as [|t IH]; intros data bits z f Hb E Hl Hf; [reflexivity|].
  destruct f as [|f]; [lia|].
  destruct data as [|b data].
  { assert (L := f_equal (@length bool) E). rewrite app_length in L. cbn in L. lia. }
  assert (Eg : group8 (S f) bits = value_of (firstn 8 bits) :: group8 f (skipn 8 bits))
    by (destruct bits; [cbn in Hl; lia|reflexivity]).
  rewrite Eg, !firstn_cons. clear Eg.
  pose proof (Forall_inv Hb) as Hb0. pose proof (Forall_inv_tail Hb) as Hb'.
  rewrite bytes_bits_cons in E.
  rewrite <- (firstn_skipn 8 bits), <- app_assoc in E.
  destruct (app_inj_len (bits_of 8 b) (firstn 8 bits) (bytes_bits data) (skipn 8 bits ++ z)) as [E1 E2];
    [rewrite length_bits_of, firstn_length; lia|exact E|].
  rewrite <- E1, value_of_bits by exact Hb0. f_equal.
  apply (IH data (skipn 8 bits) z f Hb'); [exact E2|rewrite skipn_length; lia|lia].
Qed.

Lemma raw_received rd v mask sym : raw_holds rd (read_modules v mask sym) ->
  firstn (total_codewords v) (rd_data rd) = received_codewords v mask sym.
Proof.
  intros (_ & _ & Hb & E). unfold received_codewords.
  apply (group8_prefix _ _ _ _ _ Hb E); [|lia].
  unfold read_modules. rewrite map_length. unfold total_codewords. lia.
Qed.

Lemma version_of_symbol v : 1 <= v <= 40 -> version_from_size (symbol_size v) = Ok v.
Proof.
  intros Hv. unfold version_from_size, symbol_size.
  replace (Z.max 0 (17 + 4 * v - 17) / 4) with v by lia.
  replace ((0 <? v) && (v <=? 40)) with true by lia. reflexivity.
Qed.

(** * The decoding attempt *)

(** Codewords of a block that the library itself reads from the wrong place: the last data codeword
    of a long block, and in version 21 those displaced by the wrong alignment pattern position. *)
Definition misread (v : Z) (e : level) (i : nat) : nat :=
  ((if (v =? 21)%Z then nth i (v21_lost e) O else 0) + (if (i <? short_blocks v e)%nat then 0 else 1))%nat.

(** The error condition of a received symbol: in every block the wrong codewords, together with the
    misread ones, are at most half as many as there are check codewords. *)
Definition within_capacity (v : Z) (e : level) (data received : list Z) : Prop :=
  forall i, (i < num_blocks v e)%nat ->
    (2 * (distance (received_block v e received i) (nth i (symbol_blocks v e data) []) + misread v e i)
     <= ecc_per_block v e)%nat.

Lemma data_codewords_read code sym meta v : readable code sym -> g_size code = symbol_size v ->
  1 <= v <= 40 -> md_version meta = v -> 0 <= md_mask meta < 8 ->
  exists rd, read_data code meta true = Ok rd /\
    raw_holds rd (map (cell_bit true (md_mask meta) sym) (unreserved v (scan (symbol_size v)))).
Proof.
  intros Hr Hs Hv Hmv Hm.
  destruct (read_data_ok code sym meta true Hr) as (rd & E & H); [unfold symbol_size in Hs; lia|lia|exact Hm|].
  exists rd. split; [exact E|]. rewrite Hmv, Hs in H. exact H.
Qed.

Lemma unreserved_enough v : 1 <= v <= 40 -> (8 * total_codewords v <= length (unreserved v (scan (symbol_size v))))%nat.
Proof.
  intros Hv. destruct (Z.eq_dec v 21) as [->|N].
  - pose proof v21_scan_length as L. apply Nat.eqb_eq in L. change (symbol_size 21) with 101. rewrite L, total21.
    apply Nat.le_add_r.
  - rewrite scan_data_modules by assumption. unfold total_codewords. lia.
Qed.

Lemma raw_blocks rd v mask sym e i c : 1 <= v <= 40 -> (i < num_blocks v e)%nat ->
  raw_holds rd (map (cell_bit true mask sym) (unreserved v (scan (symbol_size v)))) ->
  (distance (received_block v e (firstn (total_codewords v) (rd_data rd)) i) c
   <= distance (received_block v e (received_codewords v mask sym) i) c
      + (if (v =? 21)%Z then nth i (v21_lost e) O else 0))%nat.
Proof.
  intros Hv Hi (_ & _ & Hb & E).
  rewrite (group8_prefix (total_codewords v) _ _ _ (S (total_codewords v)) Hb E);
    [|rewrite map_length; apply unreserved_enough, Hv|apply Nat.le_succ_diag_r].
  destruct (Z.eqb_spec v 21) as [->|N].
  - apply received_v21, Hi.
  - rewrite scan_data_modules by assumption. rewrite Nat.add_0_r. apply Nat.le_refl.
Qed.

Theorem decode_inner_corrects code sym v e mask data : readable code sym -> g_size code = symbol_size v ->
  1 <= v <= 40 -> 0 <= mask < 8 ->
  read_format code = Ok (mkMeta v (level_bits e) mask) ->
  length data = data_capacity v e -> Forall is_byte data ->
  within_capacity v e data (received_codewords v mask sym) ->
  exists ds, decode_inner code = Ok (mkMeta v (level_bits e) mask, ds) /\ at_bits ds (bytes_bits data).
Proof.
  intros Hr Hs Hv Hm Hf Hl Hb Hw. unfold decode_inner, get_raw. rewrite Hf. cbn [bind].
  destruct (data_codewords_read code sym (mkMeta v (level_bits e) mask) v Hr Hs Hv eq_refl Hm)
    as (rd & -> & Hrd). cbn [bind md_mask] in *.
  pose proof (fun i c Hi => raw_blocks rd v mask sym e i c Hv Hi Hrd) as Hd.
  destruct Hrd as (_ & Hlen & Hbytes & _). destruct rd as [raw len]. cbn [rd_data rd_len] in *.
  destruct (db_params v e Hv) as (ver & p & P).
  destruct (codestream_corrects v e ver p P raw Hlen Hbytes data (mkMeta v (level_bits e) mask) len Hl Hb eq_refl eq_refl)
    as (ds & -> & Hds).
  { intros i Hi. specialize (Hw i Hi). specialize (Hd i (nth i (symbol_blocks v e data) []) Hi).
    unfold misread in Hw. unfold slack. clear -Hw Hd.
    generalize dependent (distance (received_block v e (firstn (total_codewords v) raw) i) (nth i (symbol_blocks v e data) [])).
    generalize dependent (distance (received_block v e (received_codewords v mask sym) i) (nth i (symbol_blocks v e data) [])).
    intros d Hw d' Hd. destruct (i <? short_blocks v e)%nat; lia. }
  cbn [bind]. exists ds. split; [reflexivity|exact Hds].
Qed.

(** The writes of a decode are those of the payload decoder. *)
Lemma feed_then {W A B} (wr : W -> list Z -> W * bool) chunks (r : res deqr_error A) (f : A -> B) w :
  io_bind (feed wr chunks r) (fun a => io_ret (f a)) w = feed wr chunks (res_map f r) w.
Proof.
  rewrite feed_bind. destruct r as [a|x| |]; try reflexivity. cbn [res_map].
  pose proof (feed_app wr chunks [] (@Ok deqr_error _ (f a)) w) as F. rewrite app_nil_r in F. rewrite F.
  destruct (feed wr chunks (Ok tt) w) as [w' [| | |]]; reflexivity.
Qed.

Lemma io_bind_ext {W A B} (m m' : io W A) (k : A -> io W B) w : m w = m' w -> io_bind m k w = io_bind m' k w.
Proof. intros H. unfold io_bind. rewrite H. reflexivity. Qed.

Lemma decode_stream code meta ds bs : 
  (decode_inner code = Ok (meta, ds)
   \/ (exists x, decode_inner code = Err x) /\ decode_inner (MirroredGrid code) = Ok (meta, ds)) ->
  at_bits ds bs ->
  exists chunks, concat chunks = fst (ref_decode (md_version meta) bs) /\
    forall W (wr : W -> list Z -> W * bool) w,
      decode wr code w
      = feed wr chunks (res_map (fun _ => meta) (ending_res (snd (ref_decode (md_version meta) bs)))) w.
Proof.
  intros Hd Hat. destruct (decode_payload_reference meta ds bs Hat) as (chunks & Hc & Hw).
  exists chunks. split; [exact Hc|]. intros W wr w. unfold decode.
  assert (E : match decode_inner code with
              | Err original => match decode_inner (MirroredGrid code) with Err _ => Err original | r => r end
              | r => r end = Ok (meta, ds)).
  { destruct Hd as [->|[[x ->] ->]]; reflexivity. }
  rewrite E. cbn [io_lift io_bind]. rewrite <- feed_then.
  change (io_bind (decode_payload wr meta ds) (fun _ => io_ret meta) w
    = io_bind (feed wr chunks (ending_res (snd (ref_decode (md_version meta) bs)))) (fun _ => io_ret meta) w).
  apply io_bind_ext. apply Hw.
Qed.

(** The writes carry the bytes of the message, for every writer. *)
Definition writes_message (code : BitGrid) (bytes : list Z) (meta : MetaData) : Prop :=
  exists chunks, concat chunks = bytes /\
    forall W (wr : W -> list Z -> W * bool) w, decode wr code w = feed wr chunks (Ok meta) w.

Theorem decode_message code sym v e mask m : readable code sym -> g_size code = symbol_size v ->
  1 <= v <= 40 -> 0 <= mask < 8 -> message_ok v m -> fits v e m ->
  read_format code = Ok (mkMeta v (level_bits e) mask) ->
  within_capacity v e (data_codewords v (data_capacity v e) m) (received_codewords v mask sym) ->
  writes_message code (message_bytes m) (mkMeta v (level_bits e) mask).
Proof.
  intros Hr Hs Hv Hm Hmsg Hfit Hf Hw.
  destruct (data_codewords_ok v (data_capacity v e) m Hfit) as (Hl & Hb & tail & Et & Hend).
  destruct (decode_inner_corrects code sym v e mask _ Hr Hs Hv Hm Hf Hl Hb Hw) as (ds & Ed & Hat).
  rewrite Et in Hat.
  destruct (decode_stream code _ ds _ (or_introl Ed) Hat) as (chunks & Hc & Hwr).
  exists chunks. cbn [md_version] in *. rewrite message_roundtrip in Hc, Hwr by assumption.
  cbn [fst snd ending_res res_map] in *. split; assumption.
Qed.

(** Mirrored: the transposed grid holds the symbol and the direct attempt fails. *)
Theorem decode_message_mirrored code sym v e mask m : readable (MirroredGrid code) sym ->
  g_size code = symbol_size v ->
  1 <= v <= 40 -> 0 <= mask < 8 -> message_ok v m -> fits v e m ->
  read_format (MirroredGrid code) = Ok (mkMeta v (level_bits e) mask) ->
  within_capacity v e (data_codewords v (data_capacity v e) m) (received_codewords v mask sym) ->
  (exists x, decode_inner code = Err x) ->
  writes_message code (message_bytes m) (mkMeta v (level_bits e) mask).
Proof.
  intros Hr Hs Hv Hm Hmsg Hfit Hf Hw Hx.
  destruct (data_codewords_ok v (data_capacity v e) m Hfit) as (Hl & Hb & tail & Et & Hend).
  destruct (decode_inner_corrects (MirroredGrid code) sym v e mask _ Hr Hs Hv Hm Hf Hl Hb Hw) as (ds & Ed & Hat).
  rewrite Et in Hat.
  destruct (decode_stream code _ ds _ (or_intror (conj Hx Ed)) Hat) as (chunks & Hc & Hwr).
  exists chunks. cbn [md_version] in *. rewrite message_roundtrip in Hc, Hwr by assumption.
  cbn [fst snd ending_res res_map] in *. split; assumption.
Qed.

(** Into a vector. *)
Lemma feed_vec {A} chunks (r : res deqr_error A) out : feed vec_writer chunks r out = (out ++ concat chunks, r).
Proof.
  revert out. induction chunks as [|c chunks IH]; intros out; cbn [feed concat].
  - rewrite app_nil_r. reflexivity.
  - unfold vec_writer at 1. rewrite IH, app_assoc. reflexivity.
Qed.

Lemma writes_message_vec code bytes meta : writes_message code bytes meta ->
  grid_decode_to vec_writer code [] = (bytes, Ok meta) /\
  grid_decode code = if utf8_valid bytes then Ok (meta, bytes) else Err EncodingError.
Proof.
  intros (chunks & Hc & Hw). assert (E : grid_decode_to vec_writer code [] = (bytes, Ok meta)).
  { unfold grid_decode_to. rewrite Hw, feed_vec, Hc. reflexivity. }
  split; [exact E|]. unfold grid_decode. rewrite E. reflexivity.
Qed.

(** * Undamaged symbols are within capacity *)
Lemma distance_refl l : distance l l = 0%nat.
Proof. induction l as [|a l IH]; cbn [distance]; [reflexivity|]. rewrite Z.eqb_refl, IH. reflexivity. Qed.

Lemma undamaged v e data : 1 <= v <= 40 -> length data = data_capacity v e -> Forall is_byte data ->
  within_capacity v e data (symbol_codewords v e data).
Proof.
  intros Hv Hl Hb i Hi. destruct (db_params v e Hv) as (ver & p & P).
  rewrite (received_sent _ _ _ _ P data Hl i Hb Hi), distance_refl.
  pose proof (po_ec _ _ _ _ P) as Hec. unfold misread. destruct (Z.eqb_spec v 21) as [->|N].
  - rewrite Nat.add_0_l. apply lost_capacity, Hi.
  - destruct (i <? short_blocks v e)%nat; lia.
Qed.

Lemma correctable_refl w : correctable w w.
Proof.
  left. assert (G : forall l, bit_distance l l = 0%nat).
  { induction l as [|b l IH]; cbn [bit_distance]; [reflexivity|]. rewrite IH. destruct b; reflexivity. }
  rewrite G. lia.
Qed.

Lemma copy_word_of_bits loc sym e mask : 0 <= mask < 8 ->
  format_read loc sym = format_bits (format_word e mask) -> copy_word loc sym = format_word e mask.
Proof.
  intros Hm E. unfold copy_word. rewrite E, format_bits_rev, rev_involutive. apply value_of_bits.
  change (2 ^ Z.of_nat 15) with 32768. unfold format_word. apply (GFProofs.lxor_bound 15); [lia| |lia].
  apply bch_facts, format_data_range, Hm.
Qed.

Theorem decode_symbol code sym v e mask m : readable code sym -> g_size code = symbol_size v ->
  1 <= v <= 40 -> 0 <= mask < 8 -> message_ok v m -> fits v e m ->
  is_symbol v e mask m sym ->
  writes_message code (message_bytes m) (mkMeta v (level_bits e) mask).
Proof.
  intros Hr Hs Hv Hm Hmsg Hfit (Hrec & Hf1 & Hf2).
  destruct (data_codewords_ok v (data_capacity v e) m Hfit) as (Hl & Hb & _).
  apply (decode_message code sym); try assumption.
  - apply (read_format_first_copy code sym).
    + exact Hr.
    + rewrite Hs. unfold symbol_size. lia.
    + rewrite Hs. apply version_of_symbol, Hv.
    + exact Hm.
    + rewrite (copy_word_of_bits _ _ _ _ Hm Hf1). apply correctable_refl.
  - rewrite Hrec. apply undamaged; assumption.
Qed.

(** The raw stream as a list of bits, coverage of the zigzag, and payload streams with a well-formed
    beginning. *)
From Verif Require Import Base Lib VersionDb ModelGF ModelRS ModelDecode SpecQR SpecPayload CountProofs StreamProofs
  PayloadProofs MessageProofs FormatProofs LayoutProofs V21Proofs EndToEnd EncodeProofs GridProofs.
From Coq Require Import ZifyBool ZifyNat ZifyN.
Ltac Zify.zify_post_hook ::= Z.div_mod_to_equations.
Open Scope Z_scope.
Set Bullet Behavior "Strict Subproofs".

(** * Raw data *)

(** The bits of a raw stream, and what follows them in the buffer. *)
Definition raw_bits (rd : RawData) : list bool := firstn (Z.to_nat (rd_len rd)) (bytes_bits (rd_data rd)).
Definition raw_rest (rd : RawData) : list bool := skipn (Z.to_nat (rd_len rd)) (bytes_bits (rd_data rd)).

Lemma raw_holds_bits rd bs : raw_holds rd bs ->
  raw_bits rd = bs /\ rd_len rd = Z.of_nat (length bs) /\ Forall (fun b => b = false) (raw_rest rd) /\
  Z.of_nat (length (rd_data rd)) = MAX_PAYLOAD_SIZE /\ Forall is_byte (rd_data rd).
Proof.
  intros (Hl & Hm & Hb & E). unfold raw_bits, raw_rest. rewrite E, Hl, Nat2Z.id.
  split; [|split; [reflexivity|split; [|split; assumption]]].
  - rewrite firstn_app, Nat.sub_diag, firstn_all. apply app_nil_r.
  - rewrite skipn_app, Nat.sub_diag, skipn_all. cbn [app skipn]. apply Forall_forall. intros b Hb'.
    apply repeat_spec in Hb'. exact Hb'.
Qed.

(** * The zigzag visits every module outside the vertical timing pattern *)
Lemma rows_in s y : In y (rows s) <-> 0 <= y < s.
Proof.
  unfold rows. rewrite in_map_iff. split.
  - intros (k & <- & H). apply in_seq in H. lia.
  - intros H. exists (Z.to_nat y). split; [lia|]. apply in_seq. lia.
Qed.

Lemma column_modules_iff s k y x : In (y, x) (column_modules s k) <->
  0 <= y < s /\ (x = column_right s k \/ x = column_right s k - 1).
Proof.
  split.
  - intros H. apply column_modules_in in H. rewrite rows_in in H. exact H.
  - intros [Hy Hx]. unfold column_modules. cbn zeta. apply in_flat_map. exists y. split.
    + rewrite <- rows_in in Hy. destruct (Nat.even k); [apply in_rev; rewrite rev_involutive|]; exact Hy.
    + destruct Hx as [->| ->]; cbn; auto.
Qed.

Lemma zigzag_iff s y x : 9 <= s -> s mod 2 = 1 ->
  (In (y, x) (zigzag s) <-> 0 <= y < s /\ 0 <= x < s /\ x <> 6).
Proof.
  intros Hs Ho. unfold zigzag. rewrite in_flat_map. split.
  - intros (k & Hk & H). apply in_seq in Hk. apply column_modules_iff in H. destruct H as [Hy Hx].
    unfold column_right in Hx. destruct (Z.leb_spec (s - 1 - 2 * Z.of_nat k) 6); lia.
  - intros (Hy & Hx & N).
    set (k := if x <? 6 then (s - 2 - x) / 2 else (s - 1 - x) / 2).
    exists (Z.to_nat k). split; [apply in_seq; unfold k; destruct (x <? 6) eqn:E; lia|].
    apply column_modules_iff. split; [exact Hy|]. unfold column_right, k.
    destruct (Z.ltb_spec x 6) as [H6|H6];
      match goal with |- context [?a <=? 6] => destruct (Z.leb_spec a 6) end; lia.
Qed.

(** The data modules are exactly the modules outside the function patterns. *)
Theorem data_modules_iff v y x : 1 <= v <= 40 ->
  (In (y, x) (data_modules v) <-> 0 <= y < symbol_size v /\ 0 <= x < symbol_size v /\ function_module v y x = false).
Proof.
  intros Hv. unfold data_modules. rewrite filter_In, zigzag_iff by (unfold symbol_size; lia). cbn [fst snd].
  split.
  - intros ((Hy & Hx & _) & H). destruct (function_module v y x); [discriminate|auto].
  - intros (Hy & Hx & H). rewrite H. repeat split; try lia. intros ->.
    unfold function_module, timing_module in H. cbn [Z.eqb Pos.eqb] in H.
    rewrite !orb_true_r in H. discriminate.
Qed.

(** Reading a grid of a symbol's size. *)
Theorem raw_data_modules g sym v meta rd : readable g sym -> g_size g = symbol_size v -> 1 <= v <= 40 -> v <> 21 ->
  grid_get_raw_data g = Ok (meta, rd) -> raw_bits rd = map (fun p => sym (fst p) (snd p)) (data_modules v).
Proof.
  intros Hr Hs Hv N H. unfold grid_get_raw_data in H.
  assert (H9 : 9 <= g_size g) by (rewrite Hs; unfold symbol_size; lia).
  destruct (get_raw_cases g sym Hr H9) as [(meta' & e & cells & Hm & He & Ec & Hc)|(x & _ & Hx)];
    [|rewrite Hx in H; discriminate].
  destruct (Hc false) as (rd' & E & Hh). rewrite E in H. injection H as -> ->.
  destruct (raw_holds_bits _ _ Hh) as [-> _].
  assert (Ev : md_version meta = v) by (destruct Hm as (H1 & H2 & _); unfold symbol_size in Hs; lia).
  rewrite Ec, Ev, Hs, scan_data_modules by assumption.
  apply map_ext. intros p. unfold cell_bit. cbn [andb]. apply xorb_false_r.
Qed.

Theorem raw_data_length g sym v meta rd : readable g sym -> g_size g = symbol_size v -> 1 <= v <= 40 ->
  grid_get_raw_data g = Ok (meta, rd) ->
  rd_len rd = Z.of_nat (length (data_modules v)) /\ Forall (fun b => b = false) (raw_rest rd) /\
  Z.of_nat (length (rd_data rd)) = MAX_PAYLOAD_SIZE /\ Forall is_byte (rd_data rd).
Proof.
  intros Hr Hs Hv H. unfold grid_get_raw_data in H.
  assert (H9 : 9 <= g_size g) by (rewrite Hs; unfold symbol_size; lia).
  destruct (get_raw_cases g sym Hr H9) as [(meta' & e & cells & Hm & He & Ec & Hc)|(x & _ & Hx)];
    [|rewrite Hx in H; discriminate].
  destruct (Hc false) as (rd' & E & Hh). rewrite E in H. injection H as -> ->.
  destruct (raw_holds_bits _ _ Hh) as (_ & -> & H2 & H3 & H4). split; [|auto].
  assert (Ev : md_version meta = v) by (destruct Hm as (H1 & H2' & _); unfold symbol_size in Hs; lia).
  rewrite map_length, Ec, Ev, Hs. f_equal. destruct (Z.eq_dec v 21) as [->|N].
  - pose proof v21_scan_length as L. apply Nat.eqb_eq in L. change (symbol_size 21) with 101. rewrite L.
    pose proof (data_modules_capacity 21 ltac:(lia)) as C. change (capacity 21) with (1156, 4) in C.
    cbn [fst snd] in C. lia.
  - rewrite scan_data_modules by assumption. reflexivity.
Qed.

(** The stream with and without the mask. *)
Theorem raw_masked g sym : readable g sym -> 9 <= g_size g -> forall meta rd, grid_get_raw_data g = Ok (meta, rd) ->
  exists cells rd', get_raw g true = Ok (meta, rd') /\
    raw_bits rd = map (fun p => sym (fst p) (snd p)) cells /\
    raw_bits rd' = map (fun p => xorb (sym (fst p) (snd p)) (mask_pattern (md_mask meta) (fst p) (snd p))) cells /\
    decode_inner g = (let* stream := codestream_ecc meta rd' in Ok (meta, stream)).
Proof.
  intros Hr H9 meta rd H. unfold grid_get_raw_data in H.
  destruct (get_raw_cases g sym Hr H9) as [(meta' & e & cells & Hm & He & Ec & Hc)|(x & _ & Hx)];
    [|rewrite Hx in H; discriminate].
  destruct (Hc false) as (rd1 & E1 & Hh1). destruct (Hc true) as (rd2 & E2 & Hh2).
  rewrite E1 in H. injection H as -> ->. exists cells, rd2.
  destruct (raw_holds_bits _ _ Hh1) as [-> _]. destruct (raw_holds_bits _ _ Hh2) as [-> _].
  split; [exact E2|split; [|split]].
  - apply map_ext. intros p. unfold cell_bit. cbn [andb]. apply xorb_false_r.
  - apply map_ext. intros p. reflexivity.
  - unfold decode_inner. rewrite E2. reflexivity.
Qed.

(** * Payload streams *)
Lemma ref_segment_shorter v mode bs out rest : ref_segment v mode bs = Some (out, Some rest) -> (length rest <= length bs)%nat.
Proof.
  assert (N : forall n l o r, ref_numeric n l = (o, Some r) -> (length r <= length l)%nat).
  { intros n. induction n as [n IH] using lt_wf_ind. intros l o r.
    destruct n as [|[|[|n]]]; cbn [ref_numeric]; unfold group, stop, prepend.
    - intros [= <- <-]. lia.
    - destruct (_ <? _)%nat; cbn [fst snd]; [discriminate|]; intros H; match type of H with (_, Some ?x) = _ => assert (r = x) by congruence end; subst r; rewrite skipn_length; lia.
    - destruct (_ <? _)%nat; cbn [fst snd]; [discriminate|]; intros H; match type of H with (_, Some ?x) = _ => assert (r = x) by congruence end; subst r; rewrite skipn_length; lia.
    - destruct (_ <? _)%nat; [discriminate|]. intros H. apply (f_equal snd) in H. cbn [snd] in H.
      destruct (ref_numeric n (skipn 10 l)) as [o' r'] eqn:E. cbn [snd] in H. subst r'. apply IH in E; [|lia].
      rewrite skipn_length in E. lia. }
  assert (A : forall n l o r, ref_alphanumeric n l = (o, Some r) -> (length r <= length l)%nat).
  { intros n. induction n as [n IH] using lt_wf_ind. intros l o r.
    destruct n as [|[|n]]; cbn [ref_alphanumeric]; unfold group, stop, prepend.
    - intros [= <- <-]. lia.
    - destruct (_ <? _)%nat; cbn [fst snd]; [discriminate|]; intros H; match type of H with (_, Some ?x) = _ => assert (r = x) by congruence end; subst r; rewrite skipn_length; lia.
    - destruct (_ <? _)%nat; [discriminate|]. intros H. apply (f_equal snd) in H. cbn [snd] in H.
      destruct (ref_alphanumeric n (skipn 11 l)) as [o' r'] eqn:E. cbn [snd] in H. subst r'. apply IH in E; [|lia].
      rewrite skipn_length in E. lia. }
  assert (C : forall w f n l o r, ref_chars w f n l = (o, Some r) -> (length r <= length l)%nat).
  { intros w f n. induction n as [|n IH]; intros l o r; cbn [ref_chars]; unfold stop, prepend.
    - intros [= <- <-]. lia.
    - intros H. apply (f_equal snd) in H. cbn [snd] in H. destruct (ref_chars w f n (skipn w l)) as [o' r'] eqn:E. cbn [snd] in H. subst r'.
      apply IH in E. rewrite skipn_length in E. lia. }
  assert (F : forall w f n l o r, ref_fixed w f n l = (o, Some r) -> (length r <= length l)%nat).
  { intros w f n l o r. unfold ref_fixed. destruct (_ <? _); [discriminate|]. apply C. }
  unfold ref_segment.
  repeat match goal with |- context [if mode =? ?k then _ else _] => destruct (mode =? k) end; intros [= H].
  - apply N in H. rewrite skipn_length in H. lia.
  - apply A in H. rewrite skipn_length in H. lia.
  - apply F in H. rewrite skipn_length in H. lia.
  - apply F in H. rewrite skipn_length in H. lia.
  - unfold ref_eci in H. destruct (_ <? 8)%nat; [discriminate|]. destruct (_ <? _)%nat; [discriminate|].
    match type of H with (_, Some ?x) = _ => assert (rest = x) by congruence end. subst rest. rewrite skipn_length. lia.
Qed.

(** Enough fuel makes no difference. *)
Lemma ref_payload_fuel v : forall n n' bs, (length bs < n)%nat -> (length bs < n')%nat ->
  ref_payload n v bs = ref_payload n' v bs.
Proof.
  induction n as [|n IH]; intros [|n'] bs H H'; try lia. cbn [ref_payload].
  destruct (Nat.ltb_spec (length bs) 4); [reflexivity|]. destruct (_ =? 0); [reflexivity|].
  destruct (ref_segment v (value_of (firstn 4 bs)) (skipn 4 bs)) as [[out [rest|]]|] eqn:E; try reflexivity.
  apply ref_segment_shorter in E. rewrite skipn_length in E.
  rewrite (IH n' rest) by lia. reflexivity.
Qed.

(** A well-formed beginning contributes its bytes, whatever follows. *)
Theorem message_prefix v m tail : message_ok v m ->
  ref_decode v (message_bits v m ++ tail)
  = (message_bytes m ++ fst (ref_decode v tail), snd (ref_decode v tail)).
Proof.
  unfold ref_decode. intros Hm.
  assert (G : forall fuel, (length (message_bits v m ++ tail) < fuel)%nat ->
    ref_payload fuel v (message_bits v m ++ tail)
    = (message_bytes m ++ fst (ref_payload (S (length tail)) v tail), snd (ref_payload (S (length tail)) v tail))).
  { induction Hm as [|s m Hs _ IH]; intros fuel Hf.
    - cbn [message_bits flat_map app message_bytes] in *.
      rewrite (ref_payload_fuel v fuel (S (length tail))) by lia. apply surjective_pairing.
    - unfold message_bits, message_bytes in *. cbn [flat_map] in *. rewrite <- app_assoc in *.
      destruct fuel as [|fuel]; [lia|]. rewrite app_length in Hf.
      pose proof (segment_bits_length v s) as Hl.
      rewrite segment_bits_split, <- !app_assoc.
      assert (E : forall bs, (4 <= length bs)%nat -> ref_payload (S fuel) v bs =
        if value_of (firstn 4 bs) =? 0 then ([], Complete)
        else match ref_segment v (value_of (firstn 4 bs)) (skipn 4 bs) with
             | None => ([], UnknownMode)
             | Some (out, None) => (out, Underflow)
             | Some (out, Some rest) => let '(out', e) := ref_payload fuel v rest in (out ++ out', e)
             end).
      { intros bs Hb. cbn [ref_payload]. destruct (Nat.ltb_spec (length bs) 4); [lia|reflexivity]. }
      rewrite E by (rewrite app_length, length_bits_of; lia). clear E.
      rewrite firstn_bits, skipn_bits, mode_value.
      replace (mode_indicator s =? 0) with false by (destruct s; reflexivity).
      rewrite segment_roundtrip by exact Hs. rewrite IH by lia. rewrite app_assoc. reflexivity. }
  apply G. lia.
Qed.

(** Streams that go wrong. *)
Lemma firstn4_bits k rest : firstn 4 (bits_of 4 k ++ rest) = bits_of 4 k.
Proof. apply firstn_bits. Qed.

Lemma unknown_mode v k rest : 0 <= k < 16 -> ~ In k [0; 1; 2; 4; 7; 8] ->
  ref_decode v (bits_of 4 k ++ rest) = ([], UnknownMode).
Proof.
  intros Hk Hn. unfold ref_decode. rewrite app_length, length_bits_of. cbn [plus ref_payload].
  rewrite app_length, length_bits_of. replace (4 + length rest <? 4)%nat with false by lia.
  rewrite firstn_bits, skipn_bits, value_of_bits by (change (2 ^ Z.of_nat 4) with 16; lia).
  cbn [In] in Hn. unfold ref_segment.
  assert (k <> 0 /\ k <> 1 /\ k <> 2 /\ k <> 4 /\ k <> 7 /\ k <> 8) as (N0 & N1 & N2 & N4 & N7 & N8) by (repeat split; intros ->; tauto).
  apply Z.eqb_neq in N0, N1, N2, N4, N7, N8. rewrite N0, N1, N2, N4, N8, N7. reflexivity.
Qed.

Lemma one_segment v mode n w body out : 0 < mode < 16 ->
  0 <= n < 2 ^ Z.of_nat w ->
  ref_segment v mode (bits_of w n ++ body) = Some (out, None) ->
  ref_decode v (bits_of 4 mode ++ bits_of w n ++ body) = (out, Underflow).
Proof.
  intros Hk Hn H. unfold ref_decode. rewrite app_length, length_bits_of. cbn [plus ref_payload].
  rewrite app_length, length_bits_of. replace (4 + length (bits_of w n ++ body) <? 4)%nat with false by lia.
  rewrite firstn_bits, skipn_bits, value_of_bits by (change (2 ^ Z.of_nat 4) with 16; lia).
  replace (mode =? 0) with false by lia. rewrite H. reflexivity.
Qed.

Lemma fixed_underflow w f n body : Z.of_nat (length body) < n * Z.of_nat w -> ref_fixed w f n body = ([], None).
Proof. intros H. unfold ref_fixed. replace (_ <? _) with true by lia. reflexivity. Qed.

(** Number of bits a numeric or alphanumeric segment of [n] characters needs. *)
Definition numeric_length (n : nat) : nat := (10 * (n / 3) + match n mod 3 with 2 => 7 | 1 => 4 | _ => 0 end)%nat.
Definition alphanumeric_length (n : nat) : nat := (11 * (n / 2) + 6 * (n mod 2))%nat.

Lemma numeric_underflow : forall n body, (length body < numeric_length n)%nat -> exists out, ref_numeric n body = (out, None).
Proof.
  intros n. induction n as [n IH] using lt_wf_ind. intros body H.
  destruct n as [|[|[|n]]]; cbn [ref_numeric]; unfold group.
  - cbn in H. lia.
  - replace (length body <? 4)%nat with true by (cbn in H; lia). eauto.
  - replace (length body <? 7)%nat with true by (cbn in H; lia). eauto.
  - destruct (Nat.ltb_spec (length body) 10) as [L|L]; [eauto|].
    destruct (IH n ltac:(lia) (skipn 10 body)) as (out & E).
    + unfold numeric_length in *. rewrite skipn_length.
      replace (S (S (S n)) / 3)%nat with (S (n / 3)) in H by lia.
      replace (S (S (S n)) mod 3)%nat with (n mod 3)%nat in H by lia. lia.
    + rewrite E. eexists. reflexivity.
Qed.

Lemma alphanumeric_underflow : forall n body, (length body < alphanumeric_length n)%nat ->
  exists out, ref_alphanumeric n body = (out, None).
Proof.
  intros n. induction n as [n IH] using lt_wf_ind. intros body H.
  destruct n as [|[|n]]; cbn [ref_alphanumeric]; unfold group.
  - cbn in H. lia.
  - replace (length body <? 6)%nat with true by (cbn in H; lia). eauto.
  - destruct (Nat.ltb_spec (length body) 11) as [L|L]; [eauto|].
    destruct (IH n ltac:(lia) (skipn 11 body)) as (out & E).
    + unfold alphanumeric_length in *. rewrite skipn_length.
      replace (S (S n) / 2)%nat with (S (n / 2)) in H by lia.
      replace (S (S n) mod 2)%nat with (n mod 2)%nat in H by lia. lia.
    + rewrite E. eexists. reflexivity.
Qed.

(** What decoding a payload stream does: the bytes written, in pieces, and the outcome. *)
Definition payload_outcome (meta : MetaData) (ds : CorrectedDataStream) (bytes : list Z) (r : res deqr_error unit) : Prop :=
  exists chunks, concat chunks = bytes /\
    forall W (wr : W -> list Z -> W * bool) w, decode_payload wr meta ds w = feed wr chunks r w.

Lemma payload_prefix meta ds m tail : at_bits ds (message_bits (md_version meta) m ++ tail) ->
  message_ok (md_version meta) m ->
  payload_outcome meta ds (message_bytes m ++ fst (ref_decode (md_version meta) tail))
    (ending_res (snd (ref_decode (md_version meta) tail))).
Proof.
  intros Hat Hm. destruct (decode_payload_reference meta ds _ Hat) as (chunks & Hc & Hw).
  rewrite message_prefix in Hc, Hw by exact Hm. exists chunks. split; [exact Hc|exact Hw].
Qed.

Theorem payload_complete meta ds m tail : at_bits ds (message_bits (md_version meta) m ++ tail) ->
  message_ok (md_version meta) m -> ends_here tail -> payload_outcome meta ds (message_bytes m) (Ok tt).
Proof.
  intros Hat Hm Ht. pose proof (payload_prefix meta ds m tail Hat Hm) as P. unfold ref_decode in P.
  rewrite ref_payload_terminal in P by exact Ht. cbn [fst snd ending_res] in P. rewrite app_nil_r in P. exact P.
Qed.

Theorem payload_unknown_mode meta ds m k rest :
  at_bits ds (message_bits (md_version meta) m ++ bits_of 4 k ++ rest) -> message_ok (md_version meta) m ->
  0 <= k < 16 -> ~ In k [0; 1; 2; 4; 7; 8] -> payload_outcome meta ds (message_bytes m) (Err UnknownDataType).
Proof.
  intros Hat Hm Hk Hn. pose proof (payload_prefix meta ds m _ Hat Hm) as P.
  rewrite unknown_mode in P by assumption. cbn [fst snd ending_res] in P. rewrite app_nil_r in P. exact P.
Qed.

Theorem payload_byte_underflow meta ds m n rest : let v := md_version meta in let w := if v <=? 9 then 8%nat else 16%nat in
  at_bits ds (message_bits v m ++ bits_of 4 4 ++ bits_of w n ++ rest) -> message_ok v m ->
  0 <= n < 2 ^ Z.of_nat w -> Z.of_nat (length rest) < 8 * n ->
  payload_outcome meta ds (message_bytes m) (Err DataUnderflow).
Proof.
  cbn zeta. intros Hat Hm Hn Hl. pose proof (payload_prefix meta ds m _ Hat Hm) as P.
  rewrite (one_segment _ 4 n _ rest []) in P; [cbn [fst snd ending_res] in P; rewrite app_nil_r in P; exact P|lia|exact Hn|].
  unfold ref_segment. cbn [Z.eqb Pos.eqb].
  assert (Ew : ref_count 8 16 16 (md_version meta) = (if md_version meta <=? 9 then 8%nat else 16%nat)).
  { unfold ref_count. destruct (md_version meta <=? 9); [reflexivity|]. destruct (md_version meta <=? 26); reflexivity. }
  rewrite Ew.
  rewrite firstn_bits, skipn_bits, value_of_bits by exact Hn. rewrite fixed_underflow by lia. reflexivity.
Qed.

Theorem payload_kanji_underflow meta ds m n rest : let v := md_version meta in
  let w := if v <=? 9 then 8%nat else if v <=? 26 then 10%nat else 12%nat in
  at_bits ds (message_bits v m ++ bits_of 4 8 ++ bits_of w n ++ rest) -> message_ok v m ->
  0 <= n < 2 ^ Z.of_nat w -> Z.of_nat (length rest) < 13 * n ->
  payload_outcome meta ds (message_bytes m) (Err DataUnderflow).
Proof.
  cbn zeta. intros Hat Hm Hn Hl. pose proof (payload_prefix meta ds m _ Hat Hm) as P.
  rewrite (one_segment _ 8 n _ rest []) in P; [cbn [fst snd ending_res] in P; rewrite app_nil_r in P; exact P|lia|exact Hn|].
  unfold ref_segment. cbn [Z.eqb Pos.eqb]. fold (ref_count 8 10 12 (md_version meta)).
  rewrite firstn_bits, skipn_bits, value_of_bits by exact Hn. rewrite fixed_underflow by lia. reflexivity.
Qed.

(** Digits and letters are written as they are read, so some of them precede the error. *)
Theorem payload_numeric_underflow meta ds m n rest : let v := md_version meta in
  let w := if v <=? 9 then 10%nat else if v <=? 26 then 12%nat else 14%nat in
  at_bits ds (message_bits v m ++ bits_of 4 1 ++ bits_of w (Z.of_nat n) ++ rest) -> message_ok v m ->
  Z.of_nat n < 2 ^ Z.of_nat w -> (length rest < numeric_length n)%nat ->
  exists out, payload_outcome meta ds (message_bytes m ++ out) (Err DataUnderflow).
Proof.
  cbn zeta. intros Hat Hm Hn Hl. pose proof (payload_prefix meta ds m _ Hat Hm) as P.
  destruct (numeric_underflow n rest Hl) as (out & E). exists out.
  rewrite (one_segment _ 1 (Z.of_nat n) _ rest out) in P; [exact P|lia|lia|].
  unfold ref_segment. cbn [Z.eqb Pos.eqb]. fold (ref_count 10 12 14 (md_version meta)) in *.
  rewrite firstn_bits, skipn_bits, value_of_bits by lia. rewrite Nat2Z.id, E. reflexivity.
Qed.

Theorem payload_alphanumeric_underflow meta ds m n rest : let v := md_version meta in
  let w := if v <=? 9 then 9%nat else if v <=? 26 then 11%nat else 13%nat in
  at_bits ds (message_bits v m ++ bits_of 4 2 ++ bits_of w (Z.of_nat n) ++ rest) -> message_ok v m ->
  Z.of_nat n < 2 ^ Z.of_nat w -> (length rest < alphanumeric_length n)%nat ->
  exists out, payload_outcome meta ds (message_bytes m ++ out) (Err DataUnderflow).
Proof.
  cbn zeta. intros Hat Hm Hn Hl. pose proof (payload_prefix meta ds m _ Hat Hm) as P.
  destruct (alphanumeric_underflow n rest Hl) as (out & E). exists out.
  rewrite (one_segment _ 2 (Z.of_nat n) _ rest out) in P; [exact P|lia|lia|].
  unfold ref_segment. cbn [Z.eqb Pos.eqb]. fold (ref_count 9 11 13 (md_version meta)) in *.
  rewrite firstn_bits, skipn_bits, value_of_bits by lia. rewrite Nat2Z.id, E. reflexivity.
Qed.

(** One segment: its bytes are written and exactly its bits are consumed. *)
Definition segment_decoder (s : segment) {W} (wr : W -> list Z -> W * bool) (meta : MetaData) (ds : CorrectedDataStream) : io W CorrectedDataStream :=
  match s with
  | Numeric _ => decode_numeric wr meta ds
  | Alphanumeric _ => decode_alpha wr meta ds
  | ByteMode _ => decode_byte wr meta ds
  | Kanji _ => decode_kanji wr meta ds
  | Eci _ => decode_eci ds
  end.

Theorem segment_decodes meta ds s rest : let v := md_version meta in
  segment_ok v s -> at_bits ds (skipn 4 (segment_bits v s) ++ rest) ->
  exists chunks ds', concat chunks = segment_bytes s /\ at_bits ds' rest /\
    forall W (wr : W -> list Z -> W * bool) w, segment_decoder s wr meta ds w = feed wr chunks (Ok ds') w.
Proof.
  cbn zeta. intros Hs Hat. rewrite segment_bits_split in Hat. rewrite skipn_bits, <- app_assoc in Hat.
  pose proof (segment_roundtrip (md_version meta) s rest Hs) as R.
  set (bits := bits_of _ _ ++ _ ++ rest) in *.
  assert (G : refines (fun W wr => segment_decoder s wr meta ds) (segment_bytes s, Some rest)).
  { destruct s as [l|l|l|l|n]; cbn [segment_decoder mode_indicator] in *;
      unfold ref_segment in R; cbn [Z.eqb Pos.eqb] in R; injection R as R.
    - pose proof (decode_numeric_refines meta ds bits Hat) as D. cbn zeta in D. rewrite R in D. exact D.
    - pose proof (decode_alpha_refines meta ds bits Hat) as D. cbn zeta in D. rewrite R in D. exact D.
    - pose proof (decode_byte_refines meta ds bits Hat) as D. cbn zeta in D. rewrite R in D. exact D.
    - pose proof (decode_kanji_refines meta ds bits Hat) as D. cbn zeta in D. rewrite R in D. exact D.
    - pose proof (decode_eci_refines ds bits Hat) as D. rewrite R in D. exact D. }
  destruct G as (chunks & Hc & G). cbn [fst snd] in *. destruct G as (ds' & H1 & H2).
  exists chunks, ds'. split; [exact Hc|split; [exact H1|exact H2]].
Qed.

Lemma eci_no_bytes m1 n m2 : message_bytes (m1 ++ Eci n :: m2) = message_bytes (m1 ++ m2).
Proof. unfold message_bytes. rewrite !flat_map_app. reflexivity. Qed.

(** * Grids *)
Lemma simple_grid_stores size f : 0 <= size < 2 ^ 32 -> exists g, @simple_from_func deqr_error size f = Ok g /\
  g_size (simple_grid g) = size /\
  forall y x, 0 <= y < size -> 0 <= x < size -> g_bit (simple_grid g) y x = Ok (f x y).
Proof.
  intros Hs. destruct (simple_grid_readable size f Hs) as (g & E & Hg & Hr). exists g. split; [exact E|].
  split; [exact Hg|]. intros y x Hy Hx. apply Hr; rewrite Hg; assumption.
Qed.

Lemma simple_grid_total size f : 0 <= size < 2 ^ 32 -> exists g,
  @simple_from_func deqr_error size f = Ok g /\ total_grid (simple_grid g) /\ g_size (simple_grid g) = size.
Proof.
  intros Hs. destruct (simple_grid_readable size f Hs) as (g & E & Hg & Hr). exists g. split; [exact E|].
  split; [|exact Hg]. intros y x Hy Hx. eexists. apply Hr; assumption.
Qed.

Lemma tiny_grids_refuted :
  ~ (forall size f g, 0 <= size -> @simple_from_func deqr_error size f = Ok g ->
       returns (snd (grid_decode_to vec_writer (simple_grid g) []))).
Proof.
  intros H. destruct (tiny_grid_panics 0 (fun _ _ => false) ltac:(lia)) as (g & E & P).
  specialize (H 0 (fun _ _ => false) g ltac:(lia) E). rewrite P in H. exact H.
Qed.

Lemma capacity_table v : 1 <= v <= 40 ->
  Z.of_nat (length (data_modules v)) = 8 * Z.of_nat (total_codewords v) + snd (capacity v) /\
  Z.of_nat (total_codewords v) = fst (capacity v) /\ In (snd (capacity v)) [0; 3; 4; 7].
Proof.
  intros Hv. pose proof (capacity_facts v Hv) as F. rewrite data_modules_capacity, total_codewords_eq by exact Hv.
  cbn [In]. lia.
Qed.

(** Whatever follows the terminator of a message is ignored. *)
From Coq Require Import SpecFloat.
From Verif Require Import Base Lib VersionDb ModelGF ModelRS ModelDecode ModelImage ModelGeometry ModelDetect ModelIdentify SpecPayload SpecImage SpecThreshold SpecFinder SpecPicture SpecPadding
  StreamProofs PayloadProofs MessageProofs FormatProofs LayoutProofs EccDb EccProofs EccStream EndToEnd EncodeProofs GridProofs SymbolProofs
  DrawProofs RenderProofs PictureProofs LitProofs DotProofs PaperProofs SpecQR.
From Coq Require Import ZifyBool ZifyNat.
Open Scope Z_scope.
Set Bullet Behavior "Strict Subproofs".

Lemma terminated_ends rest : terminated rest <-> ends_here rest.
Proof.
  unfold terminated, ends_here. split; (intros [H|H]; [left; exact H|right]).
  - destruct H as [t ->]. reflexivity.
  - exists (skipn 4 rest). rewrite <- H. symmetry. apply firstn_skipn.
Qed.

Theorem standard_carries v e m : fits v e m -> carries v e m (data_codewords v (data_capacity v e) m).
Proof.
  intros F. destruct (data_codewords_ok v (data_capacity v e) m F) as (L & B & rest & E & T).
  split; [exact L|]. split; [exact B|]. exists rest. split; [exact E|]. apply terminated_ends, T.
Qed.

Lemma carries_fits v e m data : carries v e m data -> fits v e m.
Proof.
  intros (L & _ & rest & E & _). unfold fits. apply (f_equal (@length bool)) in E. rewrite length_bytes_bits, app_length, L in E. lia.
Qed.

Theorem decode_carried code sym v e mask m data : readable code sym -> g_size code = symbol_size v ->
  1 <= v <= 40 -> 0 <= mask < 8 -> message_ok v m -> carries v e m data ->
  read_format code = Ok (mkMeta v (level_bits e) mask) ->
  within_capacity v e data (received_codewords v mask sym) ->
  writes_message code (message_bytes m) (mkMeta v (level_bits e) mask).
Proof.
  intros Hr Hs Hv Hm Hmsg (Hl & Hb & rest & Et & Hend) Hf Hw. apply terminated_ends in Hend.
  destruct (decode_inner_corrects code sym v e mask data Hr Hs Hv Hm Hf Hl Hb Hw) as (ds & Ed & Hat). rewrite Et in Hat.
  destruct (decode_stream code _ ds _ (or_introl Ed) Hat) as (chunks & Hc & Hwr).
  exists chunks. cbn [md_version] in *. rewrite message_roundtrip in Hc, Hwr by assumption.
  cbn [fst snd ending_res res_map] in *. split; assumption.
Qed.

Lemma drawn_carried v e mask data : 1 <= v <= 40 -> length data = data_capacity v e -> Forall is_byte data ->
  received_codewords v mask (symbol_of v e mask data) = symbol_codewords v e data
  /\ format_read format_module_1 (symbol_of v e mask data) = format_bits (format_word e mask).
Proof.
  intros Hv Hl Hb. destruct (db_params v e Hv) as (ver & p & P).
  pose proof (symbol_codewords_length _ _ _ _ P data Hl Hb) as L. pose proof (symbol_codewords_bytes v e data Hb) as B.
  split; [apply draw_codewords; assumption|apply draw_format_1; assumption].
Qed.

Theorem decode_drawn code v e mask m data : readable code (symbol_of v e mask data) -> g_size code = symbol_size v ->
  1 <= v <= 40 -> 0 <= mask < 8 -> message_ok v m -> carries v e m data ->
  writes_message code (message_bytes m) (mkMeta v (level_bits e) mask).
Proof.
  intros Hr Hs Hv Hm Hmsg Hc. pose proof Hc as (Hl & Hb & _). destruct (drawn_carried v e mask data Hv Hl Hb) as [Hrec Hf].
  apply (decode_carried code (symbol_of v e mask data) v e mask m data); try assumption.
  - apply (read_format_first_copy code (symbol_of v e mask data)).
    + exact Hr.
    + rewrite Hs. unfold symbol_size. lia.
    + rewrite Hs. apply version_of_symbol, Hv.
    + exact Hm.
    + rewrite (copy_word_of_bits _ _ _ _ Hm Hf). apply correctable_refl.
  - rewrite Hrec. apply undamaged; assumption.
Qed.

(** * Choosing what follows *)
Theorem any_rest v e m rest : terminated rest -> (length (message_bits v m) + length rest = 8 * data_capacity v e)%nat ->
  exists data, carries v e m data /\ bytes_bits data = message_bits v m ++ rest.
Proof.
  intros T L. destruct (group8_bits (data_capacity v e) (message_bits v m ++ rest) (data_capacity v e)) as (E1 & E2 & E3); [rewrite app_length; exact L|apply Nat.le_refl|].
  eexists. split; [|exact E1]. split; [exact E2|]. split; [exact E3|]. exists rest. split; [exact E1|exact T].
Qed.

Lemma interleave_one {A} (b : list A) : interleave [b] = b.
Proof.
  unfold interleave. cbn [map list_max fold_right]. rewrite Nat.max_0_r. cbn [flat_map].
  assert (G : forall (l p : list A), flat_map (fun j => match nth_error (p ++ l) j with Some a => [a] | None => [] end ++ []) (seq (length p) (length l)) = l).
  { induction l as [|a l IH]; intros p; [reflexivity|]. cbn [length seq flat_map].
    rewrite nth_error_app2, Nat.sub_diag by lia. cbn [nth_error app]. f_equal.
    specialize (IH (p ++ [a])). rewrite app_length, <- app_assoc in IH. cbn [length app] in IH. rewrite Nat.add_1_r in IH. exact IH. }
  apply (G b []).
Qed.

Lemma one_block_codewords v e data : num_blocks v e = 1%nat -> length data = data_capacity v e ->
  symbol_codewords v e data = data ++ rs_parity (ecc_per_block v e) data.
Proof.
  intros N L. unfold symbol_codewords. unfold data_capacity, block_data_lengths in *. rewrite N in *. cbn [seq map cut] in *.
  assert (E : firstn (block_data v e 0) data = data). { apply firstn_all2. rewrite L. unfold List.list_sum. cbn [fold_right]. lia. }
  rewrite E. cbn [map]. rewrite !interleave_one. reflexivity.
Qed.

(** In a symbol of one block the modules after the terminator can have any colours at all. *)
Theorem any_picture v e mask m want : 1 <= v <= 40 -> num_blocks v e = 1%nat -> (length (message_bits v m) + 4 <= 8 * data_capacity v e)%nat ->
  exists data, carries v e m data
    /\ forall i, (length (message_bits v m) + 4 <= i < 8 * data_capacity v e)%nat ->
         let q := nth i (data_modules v) (0, 0) in symbol_of v e mask data (fst q) (snd q) = want (fst q) (snd q).
Proof.
  intros Hv N F.
  set (n := length (message_bits v m)) in *. set (cap := data_capacity v e) in *.
  set (f := fun i => let q := nth i (data_modules v) (0, 0) in xorb (want (fst q) (snd q)) (mask_pattern mask (fst q) (snd q))).
  set (art := map f (seq (n + 4) (8 * cap - (n + 4)))).
  destruct (any_rest v e m ([false; false; false; false] ++ art)) as (data & C & E).
  - right. exists art. reflexivity.
  - rewrite app_length. unfold art. rewrite map_length, seq_length. cbn [length]. fold n cap. lia.
  - exists data. split; [exact C|]. intros i Hi. pose proof C as (Hl & Hb & _).
    destruct (db_params v e Hv) as (ver & p & P).
    pose proof (symbol_codewords_length _ _ _ _ P data Hl Hb) as L. pose proof (symbol_codewords_bytes v e data Hb) as B.
    assert (Lt : (8 * cap <= length (data_modules v))%nat).
    { rewrite (one_block_codewords v e data N Hl), app_length, Hl in L. fold cap in L. unfold total_codewords in L. lia. }
    cbv zeta. pose proof (draw_data v e mask (symbol_codewords v e data) Hv L i ltac:(lia)) as D. cbv zeta in D. fold (symbol_of v e mask data) in D.
    set (q := nth i (data_modules v) (0, 0)) in *.
    assert (R : nth i (bytes_bits (symbol_codewords v e data) ++ repeat false 7) false = xorb (want (fst q) (snd q)) (mask_pattern mask (fst q) (snd q))).
    { rewrite (one_block_codewords v e data N Hl), bytes_bits_app, E, <- !app_assoc.
      rewrite app_nth2 by (fold n; lia). fold n. rewrite app_nth2 by (cbn [length]; lia). cbn [length].
      rewrite app_nth1 by (unfold art; rewrite map_length, seq_length; lia).
      unfold art. rewrite (nth_indep _ false (f 0%nat)) by (rewrite map_length, seq_length; lia).
      rewrite map_nth, seq_nth by lia. replace (n + 4 + (i - n - 4))%nat with i by lia. reflexivity. }
    rewrite R in D. apply (f_equal (fun b => xorb b (mask_pattern mask (fst q) (snd q)))) in D.
    rewrite !xorb_assoc, !xorb_nilpotent, !xorb_false_r in D. exact D.
Qed.

(** * From a picture *)
Theorem scan_carried {Srt : Sorter spec_float} w h fill v e mask msg data m k ox oy r :
  1 <= w <= 32768 -> 1 <= h <= 32768 -> 1 <= v <= 40 -> v <> 21 -> 1 <= k -> 2 * k + 2 <= m <= 8 * k -> (7 * m - 1) * (7 * m - 1) * furthest v m ox oy r < 2 ^ 31 ->
  4 * m <= ox -> 0 <= oy -> ox + symbol_size v * m + 4 * m <= w -> oy + symbol_size v * m <= h ->
  0 <= mask < 8 -> message_ok v msg -> carries v e msg data ->
  (forall x y, inside w h (x, y) -> if dotted v (symbol_of v e mask data) m k ox oy r x y then fill x y = 0 else 241 <= fill x y <= 255) ->
  exists p, prepare_from_greyscale w h fill = Ok p /\ scans_to p (message_bytes msg) (mkMeta v (level_bits e) mask).
Proof.
  intros Hw Hh Hv V21 K [Mk Km] Pr Ox Oy Rw Rh Hmask Ok1 Ca Ink. set (sym := symbol_of v e mask data) in *.
  assert (Fp : function_patterns v sym) by (apply draw_patterns; exact Hv).
  assert (W16 : 16 <= w) by (assert (29 * m <= w) by (unfold symbol_size in Rw; clear - Rw Ox Hv K Mk; nia); lia).
  pose proof (paper_two_toned v sym m k ox oy r w h fill Hv Fp K Mk Km Ox Rw Ink) as T.
  assert (C : clear_picture w h (ink (fun x y => fill x y <? 241)) v sym m ox oy r).
  { eapply clear_picture_same; [|apply (dotted_clear w h v sym m k ox oy r); try assumption; lia].
    intros [x y] Hq. pose proof (Ink x y Hq) as I. unfold ink. cbn [fst snd]. destruct (dotted v sym m k ox oy r x y).
    + rewrite I. cbn. split; intros; lia.
    + replace (fill x y <? 241) with false by lia. reflexivity. }
  destruct (picture_greyscale w h fill v sym m ox oy r) as (p & E & Fs).
  - intros x y H'. destruct (T x y H'); lia.
  - eapply clear_picture_same; [|exact C]. intros [x y] Hq. unfold ink, shade. cbn [fst snd].
    rewrite (two_toned_dark w h fill) by (try assumption; unfold usize_max; nia). tauto.
  - exists p. split; [exact E|]. apply (scans_found p v sym m ox oy r _ _ Fs). intros g S R.
    apply (decode_drawn g v e mask msg data); assumption.
Qed.

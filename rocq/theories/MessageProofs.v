(** The reference decoder inverts the encoder of SpecQR.v. *)
From Verif Require Import Base Lib SpecQR SpecPayload.
From Verif Require Import ModelGF ModelRS ModelDecode GFProofs StreamProofs.
From Coq Require Import ZifyBool ZifyNat ZifyN.
Ltac Zify.zify_post_hook ::= Z.div_mod_to_equations.

Lemma firstn_bits n x r : firstn n (bits_of n x ++ r) = bits_of n x.
Proof. rewrite firstn_app, length_bits_of, Nat.sub_diag, firstn_all2, app_nil_r by (rewrite length_bits_of; lia). reflexivity. Qed.
Lemma skipn_bits n x r : skipn n (bits_of n x ++ r) = r.
Proof. rewrite skipn_app, length_bits_of, Nat.sub_diag, skipn_all2 by (rewrite length_bits_of; lia). reflexivity. Qed.

Lemma group_bits n x r f k : 0 <= x < 2 ^ Z.of_nat n ->
  group n (bits_of n x ++ r) f k = prepend (f x) (k r).
Proof.
  intros Hx. unfold group. rewrite app_length, length_bits_of.
  replace (_ <? _)%nat with false by lia. rewrite firstn_bits, skipn_bits, value_of_bits by exact Hx.
  reflexivity.
Qed.

Lemma prepend_stop out r : prepend out (stop r) = (out, Some r).
Proof. unfold prepend, stop. cbn. rewrite app_nil_r. reflexivity. Qed.

Lemma prepend_pair out o r : prepend out (o, r) = (out ++ o, r).
Proof. reflexivity. Qed.

Lemma numeric_roundtrip ds rest : Forall (fun d => 0 <= d < 10) ds -> forall n, (length ds <= n)%nat ->
  ref_numeric (length ds) (numeric_bits n ds ++ rest) = (map (fun d => 48 + d) ds, Some rest).
Proof.
  remember (length ds) as k eqn:Ek. revert ds Ek.
  induction k as [k IH] using lt_wf_ind. intros ds Ek Hd n Hn.
  destruct ds as [|a [|b [|c ds]]]; cbn [length] in Ek; subst k; (destruct n as [|n]; [try lia|]);
    cbn [numeric_bits ref_numeric]; try reflexivity.
  - inversion_clear Hd. rewrite group_bits by (change (2 ^ Z.of_nat 4) with 16; lia).
    rewrite prepend_stop. unfold ascii_digit. cbn [map]. rewrite Z.mod_small by lia. reflexivity.
  - inversion_clear Hd. inversion_clear H0.
    rewrite group_bits by (change (2 ^ Z.of_nat 7) with 128; lia).
    rewrite prepend_stop. unfold ascii_digit. cbn [map]. repeat f_equal; lia.
  - inversion_clear Hd. inversion_clear H0. inversion_clear H2.
    rewrite <- app_assoc, group_bits by (change (2 ^ Z.of_nat 10) with 1024; lia).
    rewrite (IH (length ds) ltac:(lia) ds eq_refl H3 n ltac:(lia)), prepend_pair.
    unfold ascii_digit. cbn [map app]. repeat f_equal; lia.
Qed.

Lemma alnum_roundtrip cs rest : Forall (fun c => 0 <= c < 45) cs -> forall n, (length cs <= n)%nat ->
  ref_alphanumeric (length cs) (alphanumeric_bits n cs ++ rest) = (map alphanumeric_char cs, Some rest).
Proof.
  remember (length cs) as k eqn:Ek. revert cs Ek.
  induction k as [k IH] using lt_wf_ind. intros cs Ek Hd n Hn.
  destruct cs as [|a [|b cs]]; cbn [length] in Ek; subst k; (destruct n as [|n]; [try lia|]);
    cbn [alphanumeric_bits ref_alphanumeric]; try reflexivity.
  - inversion_clear Hd. rewrite group_bits by (change (2 ^ Z.of_nat 6) with 64; lia).
    rewrite prepend_stop. unfold ref_char. cbn [map]. rewrite Z.mod_small by lia. reflexivity.
  - inversion_clear Hd. inversion_clear H0.
    rewrite <- app_assoc, group_bits by (change (2 ^ Z.of_nat 11) with 2048; lia).
    rewrite (IH (length cs) ltac:(lia) cs eq_refl H2 n ltac:(lia)), prepend_pair.
    unfold ref_char. cbn [map app]. repeat f_equal; lia.
Qed.

Lemma chars_roundtrip {A} w f (g : A -> Z) (xs : list A) rest :
  Forall (fun x => 0 <= g x < 2 ^ Z.of_nat w) xs ->
  ref_chars w f (length xs) (flat_map (fun x => bits_of w (g x)) xs ++ rest)
  = (flat_map (fun x => f (g x)) xs, Some rest).
Proof.
  induction 1 as [|x xs Hx _ IH]; cbn [length ref_chars flat_map]; [reflexivity|].
  rewrite <- app_assoc, firstn_bits, skipn_bits, value_of_bits by exact Hx. rewrite IH. reflexivity.
Qed.

Lemma length_flat_map {A B} (h : A -> list B) w xs : (forall x, length (h x) = w) ->
  length (flat_map h xs) = (length xs * w)%nat.
Proof. intros H. induction xs as [|x xs IH]; cbn [flat_map length]; [reflexivity|]. rewrite app_length, H, IH. lia. Qed.

Lemma fixed_roundtrip {A} w f (g : A -> Z) (xs : list A) rest :
  Forall (fun x => 0 <= g x < 2 ^ Z.of_nat w) xs ->
  ref_fixed w f (Z.of_nat (length xs)) (flat_map (fun x => bits_of w (g x)) xs ++ rest)
  = (flat_map (fun x => f (g x)) xs, Some rest).
Proof.
  intros H. unfold ref_fixed. rewrite app_length, (length_flat_map _ w) by (intros; apply length_bits_of).
  replace (_ <? _) with false by lia. rewrite Nat2Z.id. apply chars_roundtrip, H.
Qed.

Lemma kanji_value_range c : sjis_char c -> 0 <= kanji_value c < 8192.
Proof. unfold sjis_char, kanji_value. intros H. destruct (Z.leb_spec c 40956); lia. Qed.

Lemma sjis_kanji_value c : sjis_char c -> ref_sjis (kanji_value c) = [c / 256; c mod 256].
Proof.
  unfold sjis_char. intros [Hr Hl]. unfold kanji_value, ref_sjis. cbn zeta.
  assert (G : forall d, 0 <= d -> d mod 256 < 192 ->
    (d / 256 * 192 + d mod 256) / 192 * 256 + (d / 256 * 192 + d mod 256) mod 192 = d).
  { intros d Hd Hm. assert (0 <= d mod 256) by lia.
    rewrite Z.add_comm, (Z.add_comm _ (d mod 256)), Z.div_add, Z_mod_plus_full by lia.
    rewrite Z.div_small, Z.mod_small by lia. lia. }
  destruct (Z.leb_spec c 40956).
  - rewrite G by lia. replace (c - 33088 + 33088) with c by lia.
    replace (c <=? 40956) with true by lia. reflexivity.
  - rewrite G by lia. replace (c - 49472 + 33088) with (c - 16384) by lia.
    replace (c - 16384 <=? 40956) with false by lia.
    replace (c - 16384 + 16384) with c by lia. reflexivity.
Qed.

Lemma eci_roundtrip n rest : 0 <= n < 1000000 -> ref_eci (eci_bits n ++ rest) = ([], Some rest).
Proof.
  intros Hn. unfold eci_bits, ref_eci.
  destruct (Z.ltb_spec n 128) as [H|H]; [|destruct (Z.ltb_spec n 16384) as [H2|H2]].
  - rewrite app_length, length_bits_of. replace (_ <? 8)%nat with false by lia.
    assert (E : bits_of 8 n = false :: bits_of 7 n).
    { cbn [bits_of]. f_equal. change (Z.of_nat 7) with 7.
      destruct (Z.eq_dec n 0) as [->|]; [reflexivity|].
      apply Z.bits_above_log2; [lia|]. apply Z.log2_lt_pow2; [lia|]. change (2 ^ 7) with 128. lia. }
    rewrite E. cbn [app]. change (8 + 0)%nat with 8%nat. replace (_ <? _)%nat with false by lia.
    change (false :: bits_of 7 n ++ rest) with ((false :: bits_of 7 n) ++ rest). rewrite <- E, skipn_bits.
    reflexivity.
  - rewrite !app_length, length_bits_of. cbn [length]. replace (_ <? 8)%nat with false by lia.
    cbn [app]. replace (_ <? _)%nat with false by lia.
    change (skipn (8 + 8) (true :: false :: bits_of 14 n ++ rest)) with (skipn 14 (bits_of 14 n ++ rest)).
    rewrite skipn_bits. reflexivity.
  - rewrite !app_length, length_bits_of. cbn [length]. replace (_ <? 8)%nat with false by lia.
    cbn [app]. replace (_ <? _)%nat with false by lia.
    change (skipn (8 + 16) (true :: true :: false :: bits_of 21 n ++ rest)) with (skipn 21 (bits_of 21 n ++ rest)).
    rewrite skipn_bits. reflexivity.
Qed.

Definition segment_body (s : segment) : list bool :=
  match s with
  | Numeric ds => numeric_bits (length ds) ds
  | Alphanumeric cs => alphanumeric_bits (length cs) cs
  | ByteMode bs => bytes_bits bs
  | Kanji cs => flat_map (fun c => bits_of 13 (kanji_value c)) cs
  | Eci n => eci_bits n
  end.

Lemma segment_bits_split v s : segment_bits v s =
  bits_of 4 (mode_indicator s) ++ bits_of (count_bits v s) (Z.of_nat (char_count s)) ++ segment_body s.
Proof. destruct s; reflexivity. Qed.

Lemma segment_roundtrip v s rest : segment_ok v s ->
  ref_segment v (mode_indicator s)
    (bits_of (count_bits v s) (Z.of_nat (char_count s)) ++ segment_body s ++ rest)
  = Some (segment_bytes s, Some rest).
Proof.
  intros [Hc Hs].
  assert (Hn : 0 <= Z.of_nat (char_count s) < 2 ^ Z.of_nat (count_bits v s)) by lia.
  destruct s as [ds|cs|bs|cs|n]; cbn [mode_indicator char_count count_bits segment_body segment_bytes] in *.
  - unfold ref_segment. cbn [Z.eqb Pos.eqb].
    change (if v <=? 9 then 10%nat else if v <=? 26 then 12%nat else 14%nat) with (ref_count 10 12 14 v) in *.
    rewrite firstn_bits, skipn_bits, value_of_bits, Nat2Z.id by exact Hn. f_equal.
    apply numeric_roundtrip; [exact Hs|lia].
  - unfold ref_segment. cbn [Z.eqb Pos.eqb].
    change (if v <=? 9 then 9%nat else if v <=? 26 then 11%nat else 13%nat) with (ref_count 9 11 13 v) in *.
    rewrite firstn_bits, skipn_bits, value_of_bits, Nat2Z.id by exact Hn. f_equal.
    apply alnum_roundtrip; [exact Hs|lia].
  - unfold ref_segment. cbn [Z.eqb Pos.eqb].
    change (if v <=? 9 then 8%nat else if v <=? 26 then 16%nat else 16%nat) with (ref_count 8 16 16 v) in *.
    rewrite firstn_bits, skipn_bits, value_of_bits by exact Hn. f_equal.
    transitivity (flat_map (fun b : Z => [b]) bs, Some rest).
    + apply (fixed_roundtrip 8 (fun b => [b]) (fun b => b)). exact Hs.
    + f_equal. clear. induction bs; cbn; congruence.
  - unfold ref_segment. cbn [Z.eqb Pos.eqb].
    change (if v <=? 9 then 8%nat else if v <=? 26 then 10%nat else 12%nat) with (ref_count 8 10 12 v) in *.
    rewrite firstn_bits, skipn_bits, value_of_bits by exact Hn. f_equal.
    rewrite (fixed_roundtrip 13 ref_sjis kanji_value).
    + f_equal. induction Hs as [|c cs Hc1 _ IH]; cbn [flat_map]; [reflexivity|].
      rewrite sjis_kanji_value by exact Hc1. f_equal. apply IH; cbn [length] in *; lia.
    + eapply Forall_impl; [|exact Hs]. intros c. apply kanji_value_range.
  - unfold ref_segment. cbn [Z.eqb Pos.eqb]. cbn [bits_of app]. f_equal. apply eci_roundtrip, Hs.
Qed.

Lemma mode_value s : value_of (bits_of 4 (mode_indicator s)) = mode_indicator s.
Proof. destruct s; reflexivity. Qed.

(** Bits that end the message: fewer than four, or a terminator. *)
Definition ends_here (tail : list bool) : Prop :=
  (length tail < 4)%nat \/ firstn 4 tail = [false; false; false; false].

Lemma ref_payload_terminal fuel v tail : ends_here tail -> ref_payload fuel v tail = ([], Complete).
Proof.
  intros H. destruct fuel as [|fuel]; [reflexivity|]. cbn [ref_payload].
  destruct (Nat.ltb_spec (length tail) 4); [reflexivity|]. destruct H as [H|H]; [lia|].
  rewrite H. reflexivity.
Qed.

Lemma segment_bits_length v s : (4 <= length (segment_bits v s))%nat.
Proof. rewrite segment_bits_split, app_length, length_bits_of. lia. Qed.

Lemma message_roundtrip_loop v m tail : message_ok v m -> ends_here tail ->
  forall fuel, (length (message_bits v m ++ tail) < fuel)%nat ->
  ref_payload fuel v (message_bits v m ++ tail) = (message_bytes m, Complete).
Proof.
  intros Hm Ht. induction Hm as [|s m Hs _ IH]; intros fuel Hf.
  - apply ref_payload_terminal, Ht.
  - unfold message_bits, message_bytes in *. cbn [flat_map] in *. rewrite <- app_assoc in *.
    destruct fuel as [|fuel]; [lia|]. rewrite app_length in Hf.
    pose proof (segment_bits_length v s) as Hl.
    rewrite segment_bits_split, <- !app_assoc. cbn [ref_payload].
    rewrite !app_length, length_bits_of. replace (_ <? 4)%nat with false by lia.
    rewrite firstn_bits, skipn_bits, mode_value.
    replace (mode_indicator s =? 0) with false by (destruct s; reflexivity).
    rewrite segment_roundtrip by exact Hs. rewrite IH by lia. reflexivity.
Qed.

Theorem message_roundtrip v m tail : message_ok v m -> ends_here tail ->
  ref_decode v (message_bits v m ++ tail) = (message_bytes m, Complete).
Proof. intros Hm Ht. apply message_roundtrip_loop; auto. Qed.

(** * Data codewords *)
Lemma group8_bits cap : forall bits k, length bits = (8 * k)%nat -> (k <= cap)%nat ->
  bytes_bits (group8 cap bits) = bits /\ length (group8 cap bits) = k /\ Forall is_byte (group8 cap bits).
Proof.
  induction cap as [|cap IH]; intros bits k Hl Hk.
  - replace k with O in * by lia. destruct bits; [|discriminate]. repeat split; constructor.
  - cbn [group8]. destruct bits as [|b bits].
    + cbn in Hl. replace k with O in * by lia. repeat split; constructor.
    + set (l := b :: bits) in *. destruct k as [|k]; [cbn in Hl; lia|].
      destruct (IH (skipn 8 l) k) as (H1 & H2 & H3); [rewrite skipn_length; lia|lia|].
      assert (E8 : length (firstn 8 l) = 8%nat) by (rewrite firstn_length; lia).
      split; [|split].
      * rewrite bytes_bits_cons, H1. pose proof (bits_of_value (firstn 8 l)) as E. rewrite E8 in E.
        rewrite E. apply firstn_skipn.
      * cbn [length]. rewrite H2. reflexivity.
      * constructor; [|exact H3]. pose proof (value_of_range (firstn 8 l)) as R. rewrite E8 in R.
        exact R.
Qed.

Lemma pad_bytes_ok n : length (pad_bytes n) = n /\ Forall is_byte (pad_bytes n).
Proof.
  induction n as [n IH] using lt_wf_ind. destruct n as [|[|n]]; cbn [pad_bytes length].
  - split; constructor.
  - split; [reflexivity|]. repeat constructor; unfold is_byte; lia.
  - destruct (IH n ltac:(lia)) as [-> H]. split; [reflexivity|].
    repeat constructor; unfold is_byte; try lia. exact H.
Qed.

Lemma data_codewords_ok v cap m : (length (message_bits v m) <= 8 * cap)%nat ->
  length (data_codewords v cap m) = cap /\ Forall is_byte (data_codewords v cap m) /\
  exists tail, bytes_bits (data_codewords v cap m) = message_bits v m ++ tail /\ ends_here tail.
Proof.
  intros Hl. unfold data_codewords. set (bits := message_bits v m) in *.
  set (n := length bits) in *. set (t := Nat.min 4 (8 * cap - n)).
  set (term := repeat false t).
  set (p := ((8 - length (bits ++ term) mod 8) mod 8)%nat). cbn zeta. fold term. fold p.
  set (all := (bits ++ term) ++ repeat false p).
  assert (Hall : length all = (n + t + p)%nat).
  { unfold all, term. rewrite !app_length, !repeat_length. reflexivity. }
  assert (Ht : length (bits ++ term) = (n + t)%nat).
  { unfold term. rewrite app_length, repeat_length. reflexivity. }
  assert (Hp : exists k, (n + t + p = 8 * k)%nat /\ (k <= cap)%nat).
  { unfold p. rewrite Ht. exists ((n + t + 7) / 8)%nat. lia. }
  destruct Hp as (k & Hk & Hkc). 
  destruct (group8_bits cap all k ltac:(lia) Hkc) as (E1 & E2 & E3).
  destruct (pad_bytes_ok (cap - length (group8 cap all))) as (P1 & P2).
  rewrite E2 in *. set (pads := pad_bytes (cap - k)) in *.
  split; [|split].
  - rewrite app_length, P1, E2. lia.
  - apply Forall_app. auto.
  - rewrite bytes_bits_app, E1. unfold all. rewrite <- !app_assoc.
    eexists. split; [reflexivity|].
    destruct (Nat.lt_ge_cases (8 * cap - n) 4) as [H|H].
    + left. assert (p = 0%nat) by (unfold p, t in *; lia).
      rewrite !app_length, repeat_length, length_bytes_bits, P1. unfold term. rewrite repeat_length.
      unfold t in *. lia.
    + right. unfold term. replace t with 4%nat by (unfold t; lia). reflexivity.
Qed.

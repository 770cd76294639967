(** Nothing longer than the standard's capacity is ever decoded. *)
From Verif Require Import Base Lib VersionDb ModelGF ModelRS ModelDecode SpecPayload SpecHold StreamProofs PayloadProofs MessageProofs RSBytes EccDb EccProofs EccStream
  LayoutProofs CountProofs RawProofs FormatProofs EndToEnd GridProofs SpecQR.
From Coq Require Import ZifyBool ZifyNat ZifyN.
Ltac Zify.zify_post_hook ::= Z.div_mod_to_equations.
Open Scope Z_scope.
Set Bullet Behavior "Strict Subproofs".

Notation len l := (Z.of_nat (length l)).

(** * The capacity in codewords *)

Definition codewords (v : Z) (e : level) : Z := fst (capacity v) - Z.of_nat (ecc_per_block v e) * Z.of_nat (num_blocks v e).

Lemma list_sum_split (d ns nb : nat) : (ns <= nb)%nat ->
  list_sum (map (fun i => if (i <? ns)%nat then d else (d + 1)%nat) (seq 0 nb)) = (d * nb + (nb - ns))%nat.
Proof.
  intros L. assert (E : forall n, (n <= nb)%nat -> list_sum (map (fun i => if (i <? ns)%nat then d else (d + 1)%nat) (seq 0 n)) = (d * n + (n - ns))%nat).
  { induction n as [|n IH]; intros Hn; [cbn; lia|]. rewrite seq_S, map_app. unfold list_sum in *. rewrite fold_right_app. cbn [map plus fold_right].
    assert (F : forall l k, fold_right Nat.add k l = (fold_right Nat.add 0%nat l + k)%nat) by (induction l as [|a l IHl]; intros k; cbn [fold_right]; [lia|rewrite IHl; lia]).
    rewrite F, IH by lia. destruct (Nat.ltb_spec n ns); nia. }
  apply E. lia.
Qed.

Lemma capacity_codewords v e : 1 <= v <= 40 -> Z.of_nat (data_capacity v e) = codewords v e.
Proof.
  intros Hv. destruct (db_params v e Hv) as (ver & p & P). pose proof (total_eq _ _ _ _ P) as Ht. pose proof (ns_le _ _ _ _ P) as Hn.
  unfold codewords. destruct (capacity_table v Hv) as (_ & <- & _).
  assert (E : data_capacity v e = (rs_dw p * num_blocks v e + (num_blocks v e - rs_ns p))%nat).
  { unfold data_capacity, block_data_lengths. rewrite <- (list_sum_split _ _ _ Hn). f_equal. apply map_ext. intros i. apply (block_data_eq _ _ _ _ P). }
  rewrite E. lia.
Qed.

Definition spare' (v : Z) (e : level) (w : nat) : Z := 8 * codewords v e - 4 - Z.of_nat w.

Lemma spare_eq v e w : 1 <= v <= 40 -> spare_bits v e w = spare' v e w.
Proof. intros Hv. unfold spare_bits, spare'. rewrite capacity_codewords by exact Hv. reflexivity. Qed.

Definition pow_fits (n : Z) (w : nat) : bool := n <? 2 ^ Z.of_nat w.

Definition hold_sweep : bool :=
  forallb (fun v => forallb (fun e =>
    let r w := spare' v e w in
    let wn := count_bits v (Numeric []) in let wa := count_bits v (Alphanumeric []) in let wb := count_bits v (ByteMode []) in let wk := count_bits v (Kanji []) in
    (0 <=? r wn) && (0 <=? r wb) && (0 <=? r wk) && (0 <=? r wa)
    && (r wn * 3 / 10 <? 2 ^ Z.of_nat wn) && (r wa * 2 / 11 <? 2 ^ Z.of_nat wa) && (r wb / 8 <? 2 ^ Z.of_nat wb) && (r wk / 13 <? 2 ^ Z.of_nat wk)
    && (r wn * 3 / 10 <=? 7089))
    [EcL; EcM; EcQ; EcH]) (zrange 1 41).

Lemma hold_facts v e : 1 <= v <= 40 ->
  let r := spare_bits v e in
  let wn := count_bits v (Numeric []) in let wa := count_bits v (Alphanumeric []) in let wb := count_bits v (ByteMode []) in let wk := count_bits v (Kanji []) in
  (0 <= r wn /\ 0 <= r wb /\ 0 <= r wk /\ 0 <= r wa)
  /\ r wn * 3 / 10 < 2 ^ Z.of_nat wn /\ r wa * 2 / 11 < 2 ^ Z.of_nat wa /\ r wb / 8 < 2 ^ Z.of_nat wb /\ r wk / 13 < 2 ^ Z.of_nat wk
  /\ r wn * 3 / 10 <= 7089.
Proof.
  intros Hv. cbv zeta. rewrite !spare_eq by exact Hv.
  assert (S : hold_sweep = true) by (vm_compute; reflexivity). unfold hold_sweep in S. rewrite forallb_forall in S.
  specialize (S v (proj2 (in_zrange 1 41 v) ltac:(lia))). rewrite forallb_forall in S.
  specialize (S e ltac:(destruct e; cbn; tauto)). cbv zeta in S. rewrite !andb_true_iff, !Z.leb_le, !Z.ltb_lt in S. tauto.
Qed.

(** * What a stream of bits can give *)

Definition header (v : Z) : Z := 4 + Z.of_nat (count_bits v (Numeric [])).

(** Output and rest against the bits taken: ten thirds of a bit for each byte, at least. *)
Definition pays (bs : list bool) (r : parsed) : Prop :=
  match snd r with
  | Some rest => 10 * len (fst r) + 3 * len rest <= 3 * len bs
  | None => 10 * len (fst r) <= 3 * len bs
  end.

Lemma pays_group n k bs f g : (forall t, length (f t) = k) -> 10 * Z.of_nat k <= 3 * Z.of_nat n -> (forall bs, pays bs (g bs)) -> pays bs (group n bs f g).
Proof.
  intros F K G. unfold group. destruct (Nat.ltb_spec (length bs) n); [unfold pays; cbn [fst snd length]; lia|].
  specialize (G (skipn n bs)). unfold pays, prepend in *. cbn [fst snd]. rewrite app_length, F.
  destruct (snd (g (skipn n bs))); rewrite skipn_length in G; lia.
Qed.

Lemma pays_stop bs : pays bs (stop bs).
Proof. unfold pays, stop. cbn [fst snd length]. lia. Qed.

Lemma pays_numeric : forall n bs, pays bs (ref_numeric n bs).
Proof.
  assert (S : forall m n, (n <= m)%nat -> forall bs, pays bs (ref_numeric n bs)).
  { induction m as [|m IH]; intros n Hn bs.
    - destruct n; [apply pays_stop|lia].
    - destruct n as [|[|[|n]]]; [apply pays_stop| | |]; cbn [ref_numeric].
      + apply (pays_group 4 1); [reflexivity|lia|apply pays_stop].
      + apply (pays_group 7 2); [reflexivity|lia|apply pays_stop].
      + apply (pays_group 10 3); [reflexivity|lia|]. intros bs'. apply IH. lia. }
  intros n. apply (S n). lia.
Qed.

Lemma pays_alphanumeric : forall n bs, let r := ref_alphanumeric n bs in pays bs r /\ (fst r <> [] -> match snd r with
    | Some rest => 10 * len (fst r) + 3 + 3 * len rest <= 3 * len bs | None => 10 * len (fst r) + 3 <= 3 * len bs end).
Proof.
  assert (S : forall m n, (n <= m)%nat -> forall bs, pays bs (ref_alphanumeric n bs) /\ (fst (ref_alphanumeric n bs) <> [] -> match snd (ref_alphanumeric n bs) with
    | Some rest => 10 * len (fst (ref_alphanumeric n bs)) + 3 + 3 * len rest <= 3 * len bs | None => 10 * len (fst (ref_alphanumeric n bs)) + 3 <= 3 * len bs end)).
  { induction m as [|m IH]; intros n Hn bs.
    - destruct n; [|lia]. split; [apply pays_stop|]. intros H. elim H. reflexivity.
    - destruct n as [|[|n]]; cbn [ref_alphanumeric].
      + split; [apply pays_stop|]. intros H. elim H. reflexivity.
      + unfold group. destruct (Nat.ltb_spec (length bs) 6).
        * split; [unfold pays; cbn [fst snd length]; lia|]. intros X. elim X. reflexivity.
        * unfold pays, prepend, stop. cbn [fst snd app length]. rewrite skipn_length. lia.
      + unfold group. destruct (Nat.ltb_spec (length bs) 11).
        * split; [unfold pays; cbn [fst snd length]; lia|]. intros X. elim X. reflexivity.
        * destruct (IH n ltac:(lia) (skipn 11 bs)) as [A _]. unfold pays, prepend in *. cbn [fst snd app length].
          destruct (snd (ref_alphanumeric n (skipn 11 bs))); rewrite skipn_length in A; lia. }
  intros n bs. apply (S n). lia.
Qed.

Lemma chars_lengths width f k : (forall t, length (f t) = k) -> forall n bs, (n * width <= length bs)%nat ->
  length (fst (ref_chars width f n bs)) = (n * k)%nat /\ exists rest, snd (ref_chars width f n bs) = Some rest /\ (length rest + n * width = length bs)%nat.
Proof.
  intros F. induction n as [|n IH]; intros bs L; cbn [ref_chars].
  - split; [reflexivity|]. exists bs. split; [reflexivity|]. lia.
  - destruct (IH (skipn width bs)) as [A (rest & B & C)]; [rewrite skipn_length; nia|]. unfold prepend. cbn [fst snd].
    split; [rewrite app_length, F, A; lia|]. exists rest. split; [exact B|]. rewrite skipn_length in C. nia.
Qed.

Lemma fixed_lengths width f k count bs : (forall t, length (f t) = k) -> 0 <= count -> let r := ref_fixed width f count bs in
  (fst r = [] /\ snd r = None) \/ exists rest, snd r = Some rest /\ len (fst r) = count * Z.of_nat k /\ len rest + count * Z.of_nat width = len bs.
Proof.
  intros F C. cbv zeta. unfold ref_fixed. destruct (Z.ltb_spec (len bs) (count * Z.of_nat width)) as [L|L]; [left; auto|right].
  destruct (chars_lengths width f k F (Z.to_nat count) bs) as [A (rest & B & D)]; [nia|].
  exists rest. split; [exact B|]. split; [rewrite A; nia|nia].
Qed.

(** A segment, its mode indicator included, that gives anything at all pays its header too. *)
Definition pays_all (v : Z) (bs : list bool) (r : parsed) : Prop :=
  match snd r with
  | Some rest => (length rest <= length bs)%nat /\ (fst r = [] \/ 10 * len (fst r) + 3 * header v + 3 * len rest <= 3 * (len bs + 4))
  | None => fst r = [] \/ 10 * len (fst r) + 3 * header v <= 3 * (len bs + 4)
  end.

Lemma segment_pays v mode bs r : ref_segment v mode bs = Some r -> pays_all v bs r.
Proof.
  unfold ref_segment. intros E.
  assert (Hdr : header v = 4 + Z.of_nat (ref_count 10 12 14 v)) by reflexivity.
  assert (Val : forall w, 0 <= value_of (firstn w bs)) by (intros w; apply value_of_range).
  destruct (mode =? 1).
  { injection E as <-. set (w := ref_count 10 12 14 v) in *. pose proof (pays_numeric (Z.to_nat (value_of (firstn w bs))) (skipn w bs)) as P.
    unfold pays, pays_all in *.
    assert (Sh : (length bs <= w)%nat -> fst (ref_numeric (Z.to_nat (value_of (firstn w bs))) (skipn w bs)) = []).
    { intros L. rewrite (skipn_all2 bs L). destruct (Z.to_nat _) as [|[|[|n]]]; reflexivity. }
    destruct (ref_numeric _ _) as [out [rest|]]; cbn [fst snd] in *; rewrite skipn_length in P.
    - split; [lia|]. destruct (Nat.leb_spec (length bs) w) as [L|L]; [left; apply Sh; exact L|right; lia].
    - destruct (Nat.leb_spec (length bs) w) as [L|L]; [left; apply Sh; exact L|right; lia]. }
  destruct (mode =? 2).
  { injection E as <-. set (w := ref_count 9 11 13 v) in *. destruct (pays_alphanumeric (Z.to_nat (value_of (firstn w bs))) (skipn w bs)) as [P Q].
    assert (W : Z.of_nat (ref_count 10 12 14 v) = Z.of_nat w + 1) by (unfold w, ref_count; destruct (v <=? 9), (v <=? 26); reflexivity).
    unfold pays, pays_all in *.
    assert (Sh : (length bs <= w)%nat -> fst (ref_alphanumeric (Z.to_nat (value_of (firstn w bs))) (skipn w bs)) = []).
    { intros L. rewrite (skipn_all2 bs L). destruct (Z.to_nat _) as [|[|n]]; reflexivity. }
    destruct (ref_alphanumeric _ _) as [out [rest|]]; cbn [fst snd] in *; rewrite skipn_length in P, Q.
    - split; [lia|]. destruct (Nat.leb_spec (length bs) w) as [L|L]; [left; apply Sh; exact L|]. destruct out as [|o out]; [left; reflexivity|right].
      specialize (Q ltac:(discriminate)). lia.
    - destruct (Nat.leb_spec (length bs) w) as [L|L]; [left; apply Sh; exact L|]. destruct out as [|o out]; [left; reflexivity|right].
      specialize (Q ltac:(discriminate)). lia. }
  destruct (mode =? 4).
  { injection E as <-. set (w := ref_count 8 16 16 v) in *.
    assert (W : Z.of_nat (ref_count 10 12 14 v) <= Z.of_nat w + 2) by (unfold w, ref_count; destruct (v <=? 9), (v <=? 26); lia).
    destruct (fixed_lengths 8 (fun b => [b]) 1 (value_of (firstn w bs)) (skipn w bs) ltac:(reflexivity) (Val w)) as [[A B]|(rest & B & A & C)];
      unfold pays_all; rewrite B; [left; exact A|]. rewrite skipn_length in C. split; [lia|].
    destruct (fst _) as [|o out]; [left; reflexivity|right]. cbn [length] in *. lia. }
  destruct (mode =? 8).
  { injection E as <-. set (w := ref_count 8 10 12 v) in *.
    assert (W : Z.of_nat (ref_count 10 12 14 v) <= Z.of_nat w + 2) by (unfold w, ref_count; destruct (v <=? 9), (v <=? 26); lia).
    destruct (fixed_lengths 13 ref_sjis 2 (value_of (firstn w bs)) (skipn w bs) ltac:(reflexivity) (Val w)) as [[A B]|(rest & B & A & C)];
      unfold pays_all; rewrite B; [left; exact A|]. rewrite skipn_length in C. split; [lia|].
    destruct (fst _) as [|o out]; [left; reflexivity|right]. cbn [length] in *. lia. }
  destruct (mode =? 7); [|discriminate]. injection E as <-. unfold ref_eci. destruct (length bs <? 8)%nat; [left; reflexivity|].
  set (x := match bs with true :: false :: _ => _ | _ => _ end). destruct (length bs <? 8 + x)%nat; [left; reflexivity|].
  unfold pays_all. cbn [fst snd]. rewrite skipn_length. split; [lia|left; reflexivity].
Qed.

Lemma payload_pays v : forall fuel bs, let out := fst (ref_payload fuel v bs) in out = [] \/ 10 * len out + 3 * header v <= 3 * len bs.
Proof.
  assert (H0 : 0 <= header v) by (unfold header; lia).
  induction fuel as [|fuel IH]; intros bs; cbv zeta; cbn [ref_payload]; [left; reflexivity|].
  destruct (Nat.ltb_spec (length bs) 4) as [L|L]; [left; reflexivity|]. destruct (_ =? 0); [left; reflexivity|].
  destruct (ref_segment v _ _) as [[out [rest|]]|] eqn:E; [| |left; reflexivity]; apply segment_pays in E; unfold pays_all in E; cbn [fst snd] in E; rewrite skipn_length in E.
  - specialize (IH rest). cbv zeta in IH. destruct (ref_payload fuel v rest) as [out' en]. cbn [fst] in *. rewrite app_length. destruct E as [Ls E].
    destruct IH as [->|IH]; destruct E as [->|E]; cbn [app length]; [left; reflexivity|right..].
    + cbn [length] in *. lia.
    + cbn [length] in *. lia.
    + lia.
  - cbn [fst]. destruct E as [->|E]; [left; reflexivity|right; lia].
Qed.

(** * What a grid can give *)

Lemma digits_floor v e : 1 <= v <= 40 -> most_digits v e = 3 * spare_bits v e (count_bits v (Numeric [])) / 10.
Proof.
  intros Hv. unfold most_digits. cbv zeta. set (r := spare_bits _ _ _). destruct (7 <=? r mod 10) eqn:A; [lia|]. destruct (4 <=? r mod 10) eqn:B; lia.
Qed.

Lemma stream_most v e bs : 1 <= v <= 40 -> len bs = 8 * Z.of_nat (data_capacity v e) -> len (fst (ref_decode v bs)) <= most_digits v e.
Proof.
  intros Hv L. rewrite digits_floor by exact Hv. destruct (hold_facts v e Hv) as ((H0 & _) & _). cbv zeta in H0.
  unfold ref_decode. destruct (payload_pays v (S (length bs)) bs) as [E|E]; cbv zeta in E; [rewrite E; cbn [length]; lia|].
  unfold spare_bits in *. unfold header in E. rewrite L in E. lia.
Qed.

Theorem inner_most g sym : readable g sym -> 9 <= g_size g ->
  (exists meta e ds bs, meta_ok g meta /\ md_ecc_level meta = level_bits e /\ decode_inner g = Ok (meta, ds) /\ at_bits ds bs
     /\ len bs = 8 * Z.of_nat (data_capacity (md_version meta) e))
  \/ exists x, decode_inner g = Err x.
Proof.
  intros Hr Hs. unfold decode_inner.
  destruct (get_raw_cases g sym Hr Hs) as [(meta & e & cells & Hm & He & _ & H)|(x & Hx & H)].
  2:{ right. exists x. rewrite H. reflexivity. }
  destruct (H true) as ([raw n] & -> & Hlen & Hl & Hb & _). cbn [bind rd_data rd_len] in *.
  destruct (db_params (md_version meta) e) as (ver & p & P); [apply Hm|].
  destruct (codestream_spec _ _ _ _ P raw Hl Hb meta n eq_refl He) as [(c & ds & Hc & E & Hat)|(_ & E)]; rewrite E; cbn [bind]; [left|right; eauto].
  exists meta, e, ds. eexists. split; [exact Hm|]. split; [exact He|]. split; [reflexivity|]. split; [exact Hat|].
  rewrite length_bytes_bits.
  assert (Q : forall k, (k <= num_blocks (md_version meta) e)%nat ->
     length (concat (map (fun i => firstn (block_data (md_version meta) e i) (c i)) (seq 0 k))) = list_sum (map (block_data (md_version meta) e) (seq 0 k))).
  { induction k as [|k IHk]; intros Hk; [reflexivity|]. rewrite seq_S, !map_app, concat_app, app_length, IHk by lia. unfold list_sum. rewrite fold_right_app. cbn [plus map concat fold_right].
    assert (F : forall l x, fold_right Nat.add x l = (fold_right Nat.add 0%nat l + x)%nat) by (induction l as [|a l IHl]; intros x; cbn [fold_right]; [lia|rewrite IHl; lia]).
    rewrite (F _ (_ + 0)%nat), app_nil_r, firstn_length. destruct (Hc k ltac:(lia)) as (_ & L & _). rewrite L. rewrite (block_data_eq _ _ _ _ P).
    pose proof (po_lt _ _ _ _ P) as Lt. pose proof (bs_eq _ _ _ _ P) as Eb. unfold block_params. destruct (k <? rs_ns p)%nat; cbn [rs_bs]; lia. }
  rewrite Q by lia. unfold data_capacity, block_data_lengths. lia.
Qed.

Lemma digits_most v e : 1 <= v <= 40 -> 0 <= most_digits v e <= 7089.
Proof. intros Hv. rewrite digits_floor by exact Hv. destruct (hold_facts v e Hv) as ((H0 & _) & _ & _ & _ & _ & H1). cbv zeta in *. lia. Qed.

Theorem grid_most g out r : total_grid g -> 9 <= g_size g -> grid_decode_to vec_writer g [] = (out, r) ->
  len out <= 7089 /\ forall meta, r = Ok meta -> exists e, md_ecc_level meta = level_bits e /\ len out <= most_digits (md_version meta) e.
Proof.
  intros Ht Hs Ed. pose proof (total_readable g Ht) as Hr.
  assert (St : forall g', total_grid g' -> 9 <= g_size g' -> forall meta e ds bs, meta_ok g' meta -> md_ecc_level meta = level_bits e -> at_bits ds bs ->
    len bs = 8 * Z.of_nat (data_capacity (md_version meta) e) ->
    (decode_inner g = Ok (meta, ds) \/ (exists x, decode_inner g = Err x) /\ decode_inner (MirroredGrid g) = Ok (meta, ds)) ->
    len out <= 7089 /\ forall meta, r = Ok meta -> exists e, md_ecc_level meta = level_bits e /\ len out <= most_digits (md_version meta) e).
  { intros g' _ _ meta e ds bs Hm He Hat L E. destruct (decode_stream g meta ds bs E Hat) as (chunks & Hc & Hd).
    assert (Hv : 1 <= md_version meta <= 40) by apply Hm.
    unfold grid_decode_to in Ed. rewrite Hd, feed_vec in Ed. cbn [app] in Ed. injection Ed as <- <-. rewrite Hc.
    pose proof (stream_most (md_version meta) e bs Hv L) as M. pose proof (digits_most (md_version meta) e Hv) as M2. split; [lia|].
    intros meta' E'. destruct (snd (ref_decode (md_version meta) bs)); cbn in E'; try discriminate. injection E' as <-. exists e. split; [exact He|exact M]. }
  destruct (inner_most g _ Hr Hs) as [(meta & e & ds & bs & Hm & He & E & Hat & L)|(x & E)].
  - apply (St g Ht Hs meta e ds bs Hm He Hat L). left. exact E.
  - destruct (inner_most (MirroredGrid g) _ (total_readable _ (total_mirror g Ht)) Hs) as [(meta & e & ds & bs & Hm & He & E' & Hat & L)|(x' & E')].
    + apply (St (MirroredGrid g) (total_mirror g Ht) Hs meta e ds bs Hm He Hat L). right. split; [eauto|exact E'].
    + unfold grid_decode_to, decode in Ed. rewrite E, E' in Ed. cbn in Ed. injection Ed as <- <-. split; [cbn; lia|discriminate].
Qed.

(** * What fits *)

Lemma numeric_bits_length : forall n ds, (length ds <= n)%nat -> length (numeric_bits n ds) = numeric_length (length ds).
Proof.
  assert (S : forall n k ds, (length ds <= n)%nat -> (n <= k)%nat -> length (numeric_bits n ds) = numeric_length (length ds)).
  2:{ intros n ds L. apply (S n n ds L). lia. }
  intros n k. revert n. induction k as [|k IH]; intros n ds L K.
  - destruct n; [|lia]. destruct ds; [reflexivity|cbn in L; lia].
  - destruct n as [|n]; [destruct ds; [reflexivity|cbn in L; lia]|]. destruct ds as [|a [|b [|c t]]]; cbn [numeric_bits]; [reflexivity| | |].
    + rewrite length_bits_of. reflexivity.
    + rewrite length_bits_of. reflexivity.
    + rewrite app_length, length_bits_of, IH by (cbn [length] in L; lia). cbn [length]. unfold numeric_length.
      replace (S (S (S (length t)))) with (length t + 1 * 3)%nat by lia. rewrite Nat.div_add, Nat.mod_add by lia. lia.
Qed.

Lemma alphanumeric_bits_length : forall n cs, (length cs <= n)%nat -> length (alphanumeric_bits n cs) = alphanumeric_length (length cs).
Proof.
  assert (S : forall n k ds, (length ds <= n)%nat -> (n <= k)%nat -> length (alphanumeric_bits n ds) = alphanumeric_length (length ds)).
  2:{ intros n ds L. apply (S n n ds L). lia. }
  intros n k. revert n. induction k as [|k IH]; intros n ds L K.
  - destruct n; [|lia]. destruct ds; [reflexivity|cbn in L; lia].
  - destruct n as [|n]; [destruct ds; [reflexivity|cbn in L; lia]|]. destruct ds as [|a [|b t]]; cbn [alphanumeric_bits]; [reflexivity| |].
    + rewrite length_bits_of. reflexivity.
    + rewrite app_length, length_bits_of, IH by (cbn [length] in L; lia). cbn [length]. unfold alphanumeric_length.
      replace (S (S (length t))) with (length t + 1 * 2)%nat by lia. rewrite Nat.div_add, Nat.mod_add by lia. lia.
Qed.

Lemma kanji_bits_length cs : length (flat_map (fun c => bits_of 13 (kanji_value c)) cs) = (13 * length cs)%nat.
Proof. induction cs as [|c cs IH]; cbn [flat_map]; [reflexivity|]. rewrite app_length, length_bits_of, IH. cbn [length]. lia. Qed.

Lemma one_segment v s : length (message_bits v [s]) = (4 + count_bits v s + length (match s with
  | Numeric ds => numeric_bits (length ds) ds
  | Alphanumeric cs => alphanumeric_bits (length cs) cs
  | ByteMode bs => bytes_bits bs
  | Kanji cs => flat_map (fun c => bits_of 13 (kanji_value c)) cs
  | Eci n => eci_bits n
  end))%nat.
Proof. unfold message_bits. cbn [flat_map]. rewrite app_nil_r. unfold segment_bits. rewrite !app_length, !length_bits_of. lia. Qed.

Lemma fits_digits v e ds : 1 <= v <= 40 -> (fits v e [Numeric ds] <-> len ds <= most_digits v e).
Proof.
  intros Hv. unfold fits. rewrite one_segment, numeric_bits_length by lia. unfold most_digits, spare_bits. cbv zeta.
  change (count_bits v (Numeric ds)) with (count_bits v (Numeric [])). set (w := count_bits v (Numeric [])). unfold numeric_length.
  destruct (hold_facts v e Hv) as ((H0 & _) & _). cbv zeta in H0. fold w in H0. unfold spare_bits in H0.
  set (D := data_capacity v e) in *. clearbody w D. set (n := length ds). clearbody n.
  assert (M : (n mod 3 = 0 \/ n mod 3 = 1 \/ n mod 3 = 2)%nat) by lia.
  destruct M as [M|[M|M]]; rewrite M; destruct (7 <=? _) eqn:A; [|destruct (4 <=? _) eqn:B| |destruct (4 <=? _) eqn:B| |destruct (4 <=? _) eqn:B]; lia.
Qed.

Lemma fits_letters v e cs : 1 <= v <= 40 -> (fits v e [Alphanumeric cs] <-> len cs <= most_letters v e).
Proof.
  intros Hv. unfold fits. rewrite one_segment, alphanumeric_bits_length by lia. unfold most_letters, spare_bits. cbv zeta.
  change (count_bits v (Alphanumeric cs)) with (count_bits v (Alphanumeric [])). set (w := count_bits v (Alphanumeric [])). unfold alphanumeric_length.
  destruct (hold_facts v e Hv) as ((_ & _ & _ & H0) & _). cbv zeta in H0. fold w in H0. unfold spare_bits in H0.
  set (D := data_capacity v e) in *. clearbody w D. set (n := length cs). clearbody n.
  assert (M : (n mod 2 = 0 \/ n mod 2 = 1)%nat) by lia.
  destruct M as [M|M]; rewrite M; destruct (6 <=? _) eqn:A; lia.
Qed.

Lemma fits_bytes v e bs : 1 <= v <= 40 -> (fits v e [ByteMode bs] <-> len bs <= most_bytes v e).
Proof.
  intros Hv. unfold fits. rewrite one_segment, length_bytes_bits. unfold most_bytes, spare_bits.
  change (count_bits v (ByteMode bs)) with (count_bits v (ByteMode [])). lia.
Qed.

Lemma fits_kanji v e cs : 1 <= v <= 40 -> (fits v e [Kanji cs] <-> len cs <= most_kanji v e).
Proof.
  intros Hv. unfold fits. rewrite one_segment, kanji_bits_length. unfold most_kanji, spare_bits.
  change (count_bits v (Kanji cs)) with (count_bits v (Kanji [])). lia.
Qed.

(** The character counts of what fits can be written. *)
Lemma counts_ok v e s : 1 <= v <= 40 -> fits v e [s] -> match s with Eci _ => False | _ => True end -> Z.of_nat (char_count s) < 2 ^ Z.of_nat (count_bits v s).
Proof.
  intros Hv F T. destruct (hold_facts v e Hv) as ((A0 & B0 & K0 & L0) & A1 & L1 & B1 & K1 & _). cbv zeta in *.
  destruct s as [ds|cs|bs|cs|n]; [| | | |contradiction]; cbn [char_count].
  - apply fits_digits in F; [|exact Hv]. rewrite digits_floor in F by exact Hv. change (count_bits v (Numeric ds)) with (count_bits v (Numeric [])). lia.
  - apply fits_letters in F; [|exact Hv]. unfold most_letters in F. cbv zeta in F. change (count_bits v (Alphanumeric cs)) with (count_bits v (Alphanumeric [])).
    destruct (6 <=? _) eqn:E in F; lia.
  - apply fits_bytes in F; [|exact Hv]. unfold most_bytes in F. change (count_bits v (ByteMode bs)) with (count_bits v (ByteMode [])). lia.
  - apply fits_kanji in F; [|exact Hv]. unfold most_kanji in F. change (count_bits v (Kanji cs)) with (count_bits v (Kanji [])). lia.
Qed.

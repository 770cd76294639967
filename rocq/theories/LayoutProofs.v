(** Reading the data modules of a grid: the scan visits the standard's placement order. *)
From Verif Require Import Base Lib VersionDb ModelGF ModelRS ModelDecode SpecQR CountProofs StreamProofs FormatProofs.
From Coq Require Import ZifyBool ZifyNat ZifyN.
Ltac Zify.zify_post_hook ::= Z.div_mod_to_equations.

(** * The scan as a list of cells *)

(** One two-column sweep. *)
Definition sweep_rows (ys : list Z) (x : Z) : list (Z * Z) := flat_map (fun y => [(y, x); (y, x - 1)]) ys.
Definition sweep (size x : Z) (up : bool) : list (Z * Z) :=
  sweep_rows (if up then rev (rows size) else rows size) x.

(** All the sweeps, starting at column [x]. *)
Fixpoint sweeps (n : nat) (size x : Z) (up : bool) : list (Z * Z) :=
  match n with
  | O => []
  | S n' =>
      if 0 <? x then
        let x := if x =? 6 then x - 1 else x in
        sweep size x up ++ sweeps n' size (Z.max 0 (x - 2)) (negb up)
      else []
  end.

Definition rows_upto (n : nat) : list Z := map Z.of_nat (seq 0 n).

Lemma rows_upto_S n : rows_upto (S n) = rows_upto n ++ [Z.of_nat n].
Proof. unfold rows_upto. rewrite seq_S, map_app. reflexivity. Qed.

Lemma sweep_rows_cons y ys x : sweep_rows (y :: ys) x = [(y, x); (y, x - 1)] ++ sweep_rows ys x.
Proof. reflexivity. Qed.

Section Scan.
  Variables (code : BitGrid) (meta : MetaData) (rm : bool).
  Notation loop := (fun fuel y x up ds => read_data_loop fuel code meta rm y x up ds).
  Definition cells (l : list (Z * Z)) (ds : RawData) : res deqr_error RawData :=
    for_each l (fun p ds => read_cell code meta rm (fst p) (snd p) ds) ds.

  Lemma cells_app l1 l2 ds : cells (l1 ++ l2) ds = let* ds := cells l1 ds in cells l2 ds.
  Proof. apply for_each_app. Qed.

  (** Climbing from row [n]. *)
  Lemma climb n : forall fuel x ds, 0 < x -> x <> 6 ->
    loop (S n + fuel)%nat (Z.of_nat n) x true ds
    = let* ds := cells (sweep_rows (rev (rows_upto (S n))) x) ds in
      loop fuel 0 (Z.max 0 (x - 2)) false ds.
  Proof.
    induction n as [|n IH]; intros fuel x ds Hx H6.
    - cbn [plus read_data_loop]. replace (0 <? x) with true by lia. replace (x =? 6) with false by lia.
      change (rev (rows_upto 1)) with [0]. unfold cells, sweep_rows. cbn [flat_map app for_each fst snd].
      rewrite !bind_assoc. apply bind_ext. intros d1 _. rewrite bind_assoc. apply bind_ext. intros d2 _.
      reflexivity.
    - rewrite rows_upto_S, rev_app_distr. cbn [rev app]. unfold sweep_rows. cbn [flat_map].
      fold (sweep_rows (rev (rows_upto (S n))) x). rewrite cells_app.
      cbn [plus read_data_loop]. replace (0 <? x) with true by lia. replace (x =? 6) with false by lia.
      unfold cells at 1. cbn [for_each fst snd]. rewrite !bind_assoc. apply bind_ext. intros d1 _.
      rewrite !bind_assoc. apply bind_ext. intros d2 _. cbn [bind].
      replace (Z.of_nat (S n) =? 0) with false by lia. cbn [andb negb].
      replace (Z.of_nat (S n) - 1) with (Z.of_nat n) by lia.
      apply (IH fuel x d2 Hx H6).
  Qed.

  (** Descending to the last row: [k] rows remain. *)
  Lemma descend k : forall fuel x ds, 0 < x -> x <> 6 -> Z.of_nat k < g_size code ->
    loop (S k + fuel)%nat (g_size code - 1 - Z.of_nat k) x false ds
    = let* ds := cells (sweep_rows (map (fun i => g_size code - 1 - Z.of_nat k + Z.of_nat i) (seq 0 (S k))) x) ds in
      loop fuel (g_size code - 1) (Z.max 0 (x - 2)) true ds.
  Proof.
    induction k as [|k IH]; intros fuel x ds Hx H6 Hk.
    - cbn [plus read_data_loop]. replace (0 <? x) with true by lia. replace (x =? 6) with false by lia.
      cbn [seq map]. unfold cells, sweep_rows. cbn [flat_map app for_each fst snd].
      replace (g_size code - 1 - Z.of_nat 0 + Z.of_nat 0) with (g_size code - 1 - Z.of_nat 0) by lia.
      rewrite !bind_assoc. apply bind_ext. intros d1 _. rewrite bind_assoc. apply bind_ext. intros d2 _.
      cbn [bind]. rewrite andb_false_r. cbn [negb andb].
      replace (g_size code - 1 - Z.of_nat 0 =? g_size code - 1) with true by lia. reflexivity.
    - change (seq 0 (S (S k))) with (0%nat :: seq 1 (S k)). rewrite map_cons, sweep_rows_cons.
      rewrite cells_app. cbn [plus read_data_loop].
      replace (0 <? x) with true by lia. replace (x =? 6) with false by lia.
      replace (g_size code - 1 - Z.of_nat (S k) + Z.of_nat 0) with (g_size code - 1 - Z.of_nat (S k)) by lia.
      unfold cells at 1. cbn [for_each fst snd]. rewrite !bind_assoc. apply bind_ext. intros d1 _.
      rewrite !bind_assoc. apply bind_ext. intros d2 _. cbn [bind].
      rewrite andb_false_r. cbn [negb andb].
      replace (g_size code - 1 - Z.of_nat (S k) =? g_size code - 1) with false by lia.
      replace (g_size code - 1 - Z.of_nat (S k) + 1) with (g_size code - 1 - Z.of_nat k) by lia.
      etransitivity; [apply (IH fuel x d2 Hx H6); lia|].
      apply (f_equal (fun l => let* ds := cells l d2 in loop fuel (g_size code - 1) (Z.max 0 (x - 2)) true ds)).
      apply (f_equal (fun l => sweep_rows l x)). rewrite <- seq_shift, map_map. apply map_ext. intros i. lia.
  Qed.

  Lemma one_sweep (up : bool) fuel x ds : 0 < x -> x <> 6 -> 1 <= g_size code ->
    loop (Z.to_nat (g_size code) + fuel)%nat (if up then g_size code - 1 else 0) x up ds
    = let* ds := cells (sweep (g_size code) x up) ds in
      loop fuel (if negb up then g_size code - 1 else 0) (Z.max 0 (x - 2)) (negb up) ds.
  Proof.
    intros Hx H6 Hs. unfold sweep, rows. destruct up; cbn [negb].
    - pose proof (climb (Z.to_nat (g_size code) - 1) fuel x ds Hx H6) as C. cbn beta in C.
      replace (S (Z.to_nat (g_size code) - 1)) with (Z.to_nat (g_size code)) in C by lia.
      replace (Z.of_nat (Z.to_nat (g_size code) - 1)) with (g_size code - 1) in C by lia.
      exact C.
    - pose proof (descend (Z.to_nat (g_size code) - 1) fuel x ds Hx H6 ltac:(lia)) as C. cbn beta in C.
      replace (S (Z.to_nat (g_size code) - 1)) with (Z.to_nat (g_size code)) in C by lia.
      replace (g_size code - 1 - Z.of_nat (Z.to_nat (g_size code) - 1)) with 0 in C by lia.
      cbn [Z.add] in C. rewrite (map_ext (fun i => 0 + Z.of_nat i) Z.of_nat) in C by (intros; lia).
      exact C.
  Qed.

  Lemma skip6 fuel y x (up : bool) ds : loop fuel y x up ds = loop fuel y (if x =? 6 then 5 else x) up ds.
  Proof.
    destruct fuel as [|fuel]; [reflexivity|]. destruct (Z.eqb_spec x 6) as [->|Hx]; [|reflexivity].
    reflexivity.
  Qed.

  Lemma all_sweeps n : forall fuel x (up : bool) ds, 1 <= g_size code -> 0 <= x -> x <= 2 * Z.of_nat n ->
    loop (S (n * Z.to_nat (g_size code) + fuel))%nat (if up then g_size code - 1 else 0) x up ds
    = cells (sweeps n (g_size code) x up) ds.
  Proof.
    induction n as [|n IH]; intros fuel x up ds Hs H0 Hx.
    - replace x with 0 by lia. reflexivity.
    - cbn [sweeps]. destruct (Z.ltb_spec 0 x) as [Hp|Hp].
      2:{ replace x with 0 by lia. reflexivity. }
      rewrite skip6. set (x' := if x =? 6 then 5 else x).
      assert (Ex : (if x =? 6 then x - 1 else x) = x') by (unfold x'; destruct (x =? 6) eqn:E; lia).
      rewrite Ex, cells_app.
      replace (S (S n * Z.to_nat (g_size code) + fuel))%nat
        with (Z.to_nat (g_size code) + S (n * Z.to_nat (g_size code) + fuel))%nat by lia.
      rewrite one_sweep.
      + apply bind_ext. intros d _. apply IH; [exact Hs|lia|].
        unfold x'. destruct (x =? 6) eqn:E; lia.
      + unfold x'. destruct (x =? 6) eqn:E; lia.
      + unfold x'. destruct (x =? 6) eqn:E; lia.
      + exact Hs.
  Qed.

  Lemma read_data_cells : 1 <= g_size code ->
    read_data code meta rm
    = cells (sweeps (Z.to_nat ((g_size code + 1) / 2)) (g_size code) (g_size code - 1) true) (mkRaw zero_payload 0).
  Proof.
    intros Hs. unfold read_data, usub. replace (1 <=? g_size code) with true by lia. cbn [bind].
    unfold read_data_fuel.
    replace (S (Z.to_nat (g_size code * ((g_size code + 1) / 2))))
      with (S (Z.to_nat ((g_size code + 1) / 2) * Z.to_nat (g_size code) + 0)) by nia.
    apply (all_sweeps _ 0 (g_size code - 1) true); lia.
  Qed.
End Scan.

(** * Every visited cell is inside the grid *)
Lemma in_rows s y : In y (rows s) <-> 0 <= y < s.
Proof.
  unfold rows. rewrite in_map_iff. split.
  - intros (n & <- & Hn). apply in_seq in Hn. lia.
  - intros H. exists (Z.to_nat y). rewrite in_seq. lia.
Qed.

Lemma sweep_in s x up y c : 1 <= x < s -> In (y, c) (sweep s x up) -> 0 <= y < s /\ 0 <= c < s.
Proof.
  intros Hx H. unfold sweep, sweep_rows in H. apply in_flat_map in H. destruct H as (y' & Hy & Hc).
  assert (Hr : 0 <= y' < s). { apply in_rows. destruct up; [apply in_rev|]; exact Hy. }
  destruct Hc as [E|[E|[]]]; inversion E; subst; lia.
Qed.

Lemma sweeps_in s n : forall x up p, x < s -> In p (sweeps n s x up) -> 0 <= fst p < s /\ 0 <= snd p < s.
Proof.
  induction n as [|n IH]; intros x up [y c] Hx H; cbn [sweeps] in H; [destruct H|].
  destruct (Z.ltb_spec 0 x) as [Hp|]; [|destruct H].
  apply in_app_or in H. destruct H as [H|H].
  - apply sweep_in in H; [exact H|]. destruct (x =? 6) eqn:E; lia.
  - apply IH in H; [exact H|]. destruct (x =? 6) eqn:E; lia.
Qed.

Lemma sweep_length s x up : length (sweep s x up) = (2 * Z.to_nat s)%nat.
Proof.
  unfold sweep, sweep_rows.
  assert (G : forall l : list Z, length (flat_map (fun y => [(y, x); (y, x - 1)]) l) = (2 * length l)%nat).
  { induction l as [|a l IH]; cbn [flat_map app length]; lia. }
  rewrite G. destruct up; rewrite ?rev_length; unfold rows; rewrite map_length, seq_length; reflexivity.
Qed.

Lemma sweeps_length s n : forall x up, (length (sweeps n s x up) <= n * (2 * Z.to_nat s))%nat.
Proof.
  induction n as [|n IH]; intros x up; cbn [sweeps]; [cbn; lia|].
  destruct (0 <? x); [|cbn; lia]. rewrite app_length, sweep_length. specialize (IH (Z.max 0 ((if x =? 6 then x - 1 else x) - 2)) (negb up)). lia.
Qed.

(** * For odd sizes it is the standard's zigzag *)
Lemma sweeps_zigzag_from s : forall n k, 9 <= s -> s mod 2 = 1 -> (Z.of_nat n + Z.of_nat k) = (s - 1) / 2 ->
  forall m, (n <= m)%nat ->
  sweeps m s (let x := s - 1 - 2 * Z.of_nat k in Z.max 0 (if x <? 6 then x - 1 else x)) (Nat.even k)
  = flat_map (column_modules s) (seq k n).
Proof.
  induction n as [|n IH]; intros k Hs Hodd Hk m Hm; cbn zeta.
  - replace (s - 1 - 2 * Z.of_nat k) with 0 by lia. change (Z.max 0 (if 0 <? 6 then 0 - 1 else 0)) with 0.
    destruct m; reflexivity.
  - destruct m as [|m]; [lia|]. cbn [seq flat_map sweeps].
    set (x := s - 1 - 2 * Z.of_nat k) in *.
    assert (Hx : 2 <= x) by (unfold x; lia).
    assert (Hev : x mod 2 = 0) by (unfold x; lia).
    replace (0 <? Z.max 0 (if x <? 6 then x - 1 else x)) with true by (destruct (x <? 6) eqn:E; lia).
    assert (Ex : (if Z.max 0 (if x <? 6 then x - 1 else x) =? 6
                  then Z.max 0 (if x <? 6 then x - 1 else x) - 1
                  else Z.max 0 (if x <? 6 then x - 1 else x)) = column_right s k).
    { unfold column_right. fold x. destruct (x <? 6) eqn:E1, (x <=? 6) eqn:E2; try lia.
      - replace (Z.max 0 (x - 1) =? 6) with false by lia. lia.
      - replace (Z.max 0 x =? 6) with true by lia. lia.
      - replace (Z.max 0 x =? 6) with false by lia. lia. }
    rewrite Ex. f_equal.
    specialize (IH (S k) Hs Hodd ltac:(lia) m ltac:(lia)). cbn zeta in IH.
    rewrite <- IH. rewrite Nat.even_succ, <- Nat.negb_even. f_equal.
    unfold column_right. fold x. replace (s - 1 - 2 * Z.of_nat (S k)) with (x - 2) by (unfold x; lia).
    destruct (x <=? 6) eqn:E1, (x - 2 <? 6) eqn:E2; lia.
Qed.

Lemma sweeps_zigzag v : 1 <= v ->
  sweeps (Z.to_nat ((symbol_size v + 1) / 2)) (symbol_size v) (symbol_size v - 1) true = zigzag (symbol_size v).
Proof.
  intros Hv. unfold zigzag.
  pose proof (sweeps_zigzag_from (symbol_size v) (Z.to_nat ((symbol_size v - 1) / 2)) 0) as G.
  unfold symbol_size in *. specialize (G ltac:(lia) ltac:(lia) ltac:(lia)
    (Z.to_nat ((17 + 4 * v + 1) / 2)) ltac:(lia)). cbn zeta in G. rewrite <- G.
  change (Nat.even 0) with true. f_equal. destruct (_ <? 6) eqn:E; lia.
Qed.

(** * The raw bit buffer *)

(** The buffer holds exactly the bits [bs], most significant bit first, and zeros after them. *)
Definition raw_holds (rd : RawData) (bs : list bool) : Prop :=
  rd_len rd = Z.of_nat (length bs) /\ Z.of_nat (length (rd_data rd)) = MAX_PAYLOAD_SIZE /\
  Forall is_byte (rd_data rd) /\
  bytes_bits (rd_data rd) = bs ++ repeat false (8 * length (rd_data rd) - length bs).

Lemma bytes_bits_zeros n : bytes_bits (repeat 0 n) = repeat false (8 * n).
Proof.
  induction n as [|n IH]; [reflexivity|]. replace (8 * S n)%nat with (8 + 8 * n)%nat by lia.
  rewrite repeat_app, <- IH. reflexivity.
Qed.

Lemma raw_holds_nil : raw_holds (mkRaw zero_payload 0) [].
Proof.
  unfold raw_holds. cbn [rd_data rd_len]. unfold zero_payload.
  rewrite repeat_length. split; [reflexivity|]. split; [apply Z2Nat.id; discriminate|]. split.
  - apply Forall_forall. intros b Hb. apply repeat_spec in Hb. subst b. unfold is_byte. lia.
  - rewrite bytes_bits_zeros. cbn [app length]. rewrite Nat.sub_0_r. reflexivity.
Qed.

Lemma nth_repeat_false k n d : (k < n)%nat -> nth k (repeat false n) d = false.
Proof. revert k. induction n as [|n IH]; intros [|k] H; cbn; try lia; auto. apply IH. lia. Qed.

Lemma Forall_upd {A} (P : A -> Prop) l i v : Forall P l -> P v -> Forall P (upd l i v).
Proof.
  intros Hl Hv. revert i. induction Hl as [|a l Ha Hl IH]; intros i; cbn [upd].
  - constructor.
  - destruct i; constructor; auto.
Qed.

Lemma lor_byte a b : is_byte a -> is_byte b -> is_byte (Z.lor a b).
Proof.
  unfold is_byte. intros Ha Hb. split; [apply Z.lor_nonneg; lia|].
  destruct (Z.eq_dec (Z.lor a b) 0) as [->|Hn]; [lia|].
  apply (Z.log2_lt_pow2 _ 8); [pose proof (proj2 (Z.lor_nonneg a b) ltac:(lia)); lia|].
  rewrite Z.log2_lor by lia.
  assert (La : Z.log2 a < 8).
  { destruct (Z.eq_dec a 0) as [->|]; [cbn; lia|]. apply Z.log2_lt_pow2; [|change (2 ^ 8) with 256]; lia. }
  assert (Lb : Z.log2 b < 8).
  { destruct (Z.eq_dec b 0) as [->|]; [cbn; lia|]. apply Z.log2_lt_pow2; [|change (2 ^ 8) with 256]; lia. }
  lia.
Qed.

Lemma shiftr128 n : 0 <= n <= 7 -> Z.shiftr 128 n = 2 ^ (7 - n).
Proof.
  intros H. rewrite Z.shiftr_div_pow2 by lia. change 128 with (2 ^ 7).
  rewrite <- Z.pow_sub_r by lia. reflexivity.
Qed.

Lemma raw_push_ok rd bs b : raw_holds rd bs -> Z.of_nat (length bs) < 8 * MAX_PAYLOAD_SIZE ->
  exists rd', raw_push rd b = Ok rd' /\ raw_holds rd' (bs ++ [b]).
Proof.
  intros (Hlen & Hcap & Hb & Hbits) Hn. unfold MAX_PAYLOAD_SIZE in *.
  destruct rd as [data len]. cbn [rd_data rd_len] in *. subst len.
  unfold raw_push. cbn [rd_data rd_len]. unfold MAX_PAYLOAD_SIZE.
  set (n := length bs) in *.
  replace (Z.of_nat n / 8 <? 8896) with true by lia. cbn [assert_ bind].
  rewrite Z.shiftr_div_pow2 by lia. change (2 ^ 3) with 8.
  change 7 with (Z.ones 3). rewrite Z.land_ones by lia. change (2 ^ 3) with 8.
  replace (Z.to_nat (Z.of_nat n / 8)) with (n / 8)%nat by lia.
  assert (Hin : (n / 8 < length data)%nat) by lia.
  destruct b.
  - rewrite (aget_ok data 0 Hin). cbn [bind].
    set (old := nth (n / 8) data 0).
    rewrite (aset_ok _ (Z.lor old (Z.shiftr 128 (Z.of_nat n mod 8))) Hin). cbn [bind].
    eexists. split; [reflexivity|]. unfold raw_holds. cbn [rd_data rd_len].
    rewrite app_length. cbn [length]. fold n. rewrite length_upd.
    split; [lia|]. split; [unfold MAX_PAYLOAD_SIZE; lia|]. split.
    { apply Forall_upd; [exact Hb|]. apply lor_byte.
      - rewrite Forall_forall in Hb. apply Hb, nth_In, Hin.
      - rewrite shiftr128 by lia. unfold is_byte. split; [apply Z.pow_nonneg; lia|].
        apply (Z.pow_lt_mono_r 2 (7 - Z.of_nat n mod 8) 8); lia. }
    apply (nth_ext _ _ false false).
    { rewrite length_bytes_bits, length_upd, !app_length, repeat_length. cbn [length]. fold n. lia. }
    rewrite length_bytes_bits, length_upd. intros k Hk.
    rewrite nth_bytes_bits by (rewrite length_upd; exact Hk).
    rewrite nth_upd by exact Hin.
    assert (Hold : nth k (bytes_bits data) false = Z.testbit (nth (k / 8) data 0) (7 - Z.of_nat k mod 8))
      by (apply nth_bytes_bits; exact Hk).
    rewrite Hbits in Hold.
    assert (Enew : (if (k / 8 =? n / 8)%nat then Z.lor old (Z.shiftr 128 (Z.of_nat n mod 8)) else nth (k / 8) data 0)
      = Z.lor (nth (k / 8) data 0) (if (k / 8 =? n / 8)%nat then 2 ^ (7 - Z.of_nat n mod 8) else 0)).
    { destruct (Nat.eqb_spec (k / 8) (n / 8)) as [E|E].
      - rewrite E. fold old. rewrite shiftr128 by lia. reflexivity.
      - rewrite Z.lor_0_r. reflexivity. }
    rewrite Enew, Z.lor_spec, <- Hold.
    destruct (Nat.lt_trichotomy k n) as [Hlt|[Heq|Hgt]].
    + rewrite !app_nth1; try (rewrite ?app_length; fold n; cbn [length]; lia).
      replace (Z.testbit (if (k / 8 =? n / 8)%nat then 2 ^ (7 - Z.of_nat n mod 8) else 0) (7 - Z.of_nat k mod 8)) with false.
      { rewrite orb_false_r. reflexivity. }
      symmetry. destruct (Nat.eqb_spec (k / 8) (n / 8)) as [E|E]; [|apply Z.bits_0].
      apply Z.pow2_bits_false. lia.
    + subst k. rewrite Nat.eqb_refl, Z.pow2_bits_true by lia. rewrite orb_true_r.
      rewrite <- app_assoc. rewrite app_nth2 by (fold n; lia). fold n. rewrite Nat.sub_diag. reflexivity.
    + rewrite (app_nth2 bs) by (fold n; lia). rewrite nth_repeat_false by (fold n; lia).
      rewrite (app_nth2 (bs ++ [true])) by (rewrite app_length; cbn [length]; fold n; lia).
      rewrite nth_repeat_false by (rewrite app_length; cbn [length]; fold n; lia).
      cbn [orb]. destruct (Nat.eqb_spec (k / 8) (n / 8)) as [E|E]; [|apply Z.bits_0].
      apply Z.pow2_bits_false. lia.
  - cbn [bind]. eexists. split; [reflexivity|]. unfold raw_holds. cbn [rd_data rd_len].
    rewrite app_length. cbn [length]. fold n.
    split; [lia|]. split; [exact Hcap|]. split; [exact Hb|].
    rewrite Hbits, <- app_assoc. f_equal. cbn [app].
    replace (8 * length data - n)%nat with (S (8 * length data - (n + 1))) by lia. reflexivity.
Qed.

(** * Masks and function patterns *)
Lemma mask_bit_ok m y x : 0 <= m < 8 -> mask_bit m y x = Ok (mask_pattern m y x).
Proof.
  intros H. unfold mask_bit.
  assert (m = 0 \/ m = 1 \/ m = 2 \/ m = 3 \/ m = 4 \/ m = 5 \/ m = 6 \/ m = 7) as Hm by lia.
  destruct Hm as [E|[E|[E|[E|[E|[E|[E|E]]]]]]]; subst m; cbn [Z.eqb Pos.eqb mask_pattern]; f_equal;
    try apply Z.eqb_sym.
  rewrite (Z.add_comm ((y + x) mod 2)). apply (Z.eqb_sym 0).
Qed.

(** The reserved cells according to the library's tables. *)
Definition reservedb (v y x : Z) : bool :=
  match nth_error VERSION_DATA_BASE (Z.to_nat v) with
  | Some ver => reserved_cell_in ver v y x
  | None => false
  end.

Lemma db_length : length VERSION_DATA_BASE = 41%nat.
Proof. reflexivity. Qed.

Lemma reserved_cell_ok v y x : 0 <= v <= 40 -> reserved_cell v y x = Ok (reservedb v y x).
Proof.
  intros Hv. unfold reserved_cell, db_get, aget, reservedb.
  destruct (nth_error VERSION_DATA_BASE (Z.to_nat v)) as [ver|] eqn:E; [reflexivity|].
  apply nth_error_None in E. rewrite db_length in E. lia.
Qed.

(** The scan over the table finds, for each coordinate, the (last) entry within two modules. *)
Fixpoint last_near (l : list Z) (a i : Z) : option Z :=
  match l with
  | [] => None
  | p :: t => match last_near t (a + 1) i with
              | Some k => Some k
              | None => if near p i then Some a else None
              end
  end.

Definition or_else (o d : option Z) : option Z := match o with Some k => Some k | None => d end.

Lemma apat_scan_eq l : forall a i j ai aj len,
  apat_scan l a i j (ai, aj, len)
  = (or_else (last_near l a i) ai, or_else (last_near l a j) aj,
     match l with [] => len | _ => a + Z.of_nat (length l) - 1 end).
Proof.
  induction l as [|p l IH]; intros a i j ai aj len; [reflexivity|]. cbn [apat_scan last_near]. rewrite IH.
  fold (near p i) (near p j). apply f_equal2; [apply f_equal2|].
  - destruct (last_near l (a + 1) i), (near p i); reflexivity.
  - destruct (last_near l (a + 1) j), (near p j); reflexivity.
  - cbn [length]. destruct l; cbn [length]; lia.
Qed.

Lemma last_near_some l : forall a i k, last_near l a i = Some k ->
  a <= k < a + Z.of_nat (length l) /\ near (nth (Z.to_nat (k - a)) l 0) i = true.
Proof.
  induction l as [|p l IH]; intros a i k H; [discriminate|]. cbn [last_near] in H.
  destruct (last_near l (a + 1) i) as [k'|] eqn:E.
  - injection H as <-. destruct (IH _ _ _ E) as [H1 H2]. cbn [length]. split; [lia|].
    replace (Z.to_nat (k' - a)) with (S (Z.to_nat (k' - (a + 1)))) by lia. exact H2.
  - destruct (near p i) eqn:En; [|discriminate]. injection H as <-. cbn [length]. split; [lia|].
    replace (Z.to_nat (a - a)) with O by lia. exact En.
Qed.

Lemma last_near_none l : forall a i, last_near l a i = None -> forall p, In p l -> near p i = false.
Proof.
  induction l as [|q l IH]; intros a i H p Hp; [destruct Hp|]. cbn [last_near] in H.
  destruct (last_near l (a + 1) i) eqn:E; [discriminate|]. destruct (near q i) eqn:En; [discriminate|].
  destruct Hp as [<-|Hp]; [exact En|]. exact (IH _ _ E p Hp).
Qed.

Lemma in_nth0 (l : list Z) p : In p l -> exists n, (n < length l)%nat /\ nth n l 0 = p.
Proof. apply In_nth. Qed.

(** Reserved by the table of alignment coordinates: the alignment patterns of the standard. *)
Lemma apat_alignment v y x : 1 <= v <= 40 ->
  (let '(ai, aj, len) := apat_scan (alignment_positions v) 0 y x (None, None, 0) in
    match ai, aj with
    | Some a, Some b =>
        if (a =? len) && (b =? len) then true
        else if (0 <? a) && (a <? len) then true
        else if (0 <? b) && (b <? len) then true
        else false
    | _, _ => false
    end) = alignment_module v y x.
Proof.
  intros Hv. destruct (alignment_facts v Hv) as [Hsp Hpos Hends]. rewrite apat_scan_eq.
  set (ps := alignment_positions v) in *. set (s := symbol_size v) in *.
  set (len := match ps with [] => 0 | _ => 0 + Z.of_nat (length ps) - 1 end).
  assert (Uniq : forall n m i, (n < length ps)%nat -> (m < length ps)%nat ->
    near (nth n ps 0) i = true -> near (nth m ps 0) i = true -> n = m).
  { intros n m i Hn Hm H1 H2. apply Hsp; try assumption. unfold near in *. lia. }
  destruct (last_near ps 0 y) as [a|] eqn:Ea; cbn [or_else].
  2:{ symmetry. apply not_true_iff_false. intros H. apply alignment_module_iff in H.
      destruct H as (cy & cx & Iy & _ & _ & Ny & _). rewrite (last_near_none ps 0 y Ea cy Iy) in Ny. discriminate. }
  destruct (last_near ps 0 x) as [b|] eqn:Eb; cbn [or_else].
  2:{ symmetry. apply not_true_iff_false. intros H. apply alignment_module_iff in H.
      destruct H as (cy & cx & _ & Ix & _ & _ & Nx). rewrite (last_near_none ps 0 x Eb cx Ix) in Nx. discriminate. }
  apply last_near_some in Ea, Eb. rewrite Z.sub_0_r in Ea, Eb. destruct Ea as [La Na], Eb as [Lb Nb].
  destruct Hends as [->|(L2 & H0 & Hl)]; [cbn [length] in La; lia|].
  assert (Elen : len = Z.of_nat (length ps) - 1) by (unfold len; destruct ps; [cbn in L2; lia|lia]). rewrite Elen.
  assert (Six : forall n, (n < length ps)%nat -> nth n ps 0 = 6 -> n = 0%nat).
  { intros n Hn E. apply Hsp; [exact Hn|lia|rewrite H0, E; lia]. }
  assert (Last : forall n, (n < length ps)%nat -> nth n ps 0 = s - 7 -> n = (length ps - 1)%nat).
  { intros n Hn E. apply Hsp; [exact Hn|lia|rewrite Hl, E; lia]. }
  destruct (alignment_module v y x) eqn:Em.
  - apply alignment_module_iff in Em. destruct Em as (cy & cx & Iy & Ix & Hc & Ny & Nx).
    apply in_nth0 in Iy, Ix. destruct Iy as (n & Hn & <-), Ix as (m & Hm & <-).
    fold ps in Hn, Hm, Hc, Ny, Nx. fold s in Hc.
    assert (n = Z.to_nat a) by (apply (Uniq _ _ y); auto; lia).
    assert (m = Z.to_nat b) by (apply (Uniq _ _ x); auto; lia). subst n m.
    assert (Hcs : ~ (a = 0 /\ b = 0) /\ ~ (a = 0 /\ b = Z.of_nat (length ps) - 1) /\ ~ (a = Z.of_nat (length ps) - 1 /\ b = 0)).
    { unfold corner in Hc. repeat split; intros [-> ->].
      - change (Z.to_nat 0) with O in Hc. rewrite H0 in Hc. cbn in Hc. discriminate.
      - change (Z.to_nat 0) with O in Hc. replace (Z.to_nat (Z.of_nat (length ps) - 1)) with (length ps - 1)%nat in Hc by lia.
        rewrite H0, Hl in Hc. lia.
      - change (Z.to_nat 0) with O in Hc. replace (Z.to_nat (Z.of_nat (length ps) - 1)) with (length ps - 1)%nat in Hc by lia.
        rewrite H0, Hl in Hc. lia. }
    destruct ((a =? Z.of_nat (length ps) - 1) && (b =? Z.of_nat (length ps) - 1)) eqn:E1; [reflexivity|].
    destruct ((0 <? a) && (a <? Z.of_nat (length ps) - 1)) eqn:E2; [reflexivity|].
    destruct ((0 <? b) && (b <? Z.of_nat (length ps) - 1)) eqn:E3; [reflexivity|]. lia.
  - assert (Hcor : corner s (nth (Z.to_nat a) ps 0) (nth (Z.to_nat b) ps 0) = true).
    { apply not_false_iff_true. intros Hc. assert (alignment_module v y x = true); [|congruence].
      apply alignment_module_iff. exists (nth (Z.to_nat a) ps 0), (nth (Z.to_nat b) ps 0).
      fold ps s. split; [apply nth_In; lia|]. split; [apply nth_In; lia|]. auto. }
    unfold corner in Hcor.
    assert (Sa : nth (Z.to_nat a) ps 0 = 6 -> a = 0) by (intros E; apply Six in E; lia).
    assert (Sb : nth (Z.to_nat b) ps 0 = 6 -> b = 0) by (intros E; apply Six in E; lia).
    assert (Ta : nth (Z.to_nat a) ps 0 = s - 7 -> a = Z.of_nat (length ps) - 1) by (intros E; apply Last in E; lia).
    assert (Tb : nth (Z.to_nat b) ps 0 = s - 7 -> b = Z.of_nat (length ps) - 1) by (intros E; apply Last in E; lia).
    destruct ((a =? Z.of_nat (length ps) - 1) && (b =? Z.of_nat (length ps) - 1)) eqn:E1; [lia|].
    destruct ((0 <? a) && (a <? Z.of_nat (length ps) - 1)) eqn:E2; [lia|].
    destruct ((0 <? b) && (b <? Z.of_nat (length ps) - 1)) eqn:E3; [lia|]. reflexivity.
Qed.

Definition apat_agrees (v : Z) : bool :=
  match nth_error VERSION_DATA_BASE (Z.to_nat v) with
  | Some ver => if list_eq_dec Z.eq_dec (take_nonzero (vi_apat ver)) (alignment_positions v) then true else false
  | None => false
  end.

Lemma apat_sweep : forallb apat_agrees (zrange 1 21 ++ zrange 22 41) = true.
Proof. vm_compute. reflexivity. Qed.

Lemma reserved_function v y x : 1 <= v <= 40 -> v <> 21 ->
  0 <= y < symbol_size v -> 0 <= x < symbol_size v -> reservedb v y x = function_module v y x.
Proof.
  intros Hv H21 Hy Hx. pose proof apat_sweep as S. rewrite forallb_forall in S.
  specialize (S v ltac:(apply in_or_app; rewrite !in_zrange; lia)). unfold apat_agrees in S. unfold reservedb.
  destruct (nth_error VERSION_DATA_BASE (Z.to_nat v)) as [ver|]; [|discriminate].
  destruct (list_eq_dec Z.eq_dec (take_nonzero (vi_apat ver)) (alignment_positions v)) as [E|]; [|discriminate].
  unfold reserved_cell_in. cbn zeta. rewrite E.
  pose proof (apat_alignment v y x Hv) as A. destruct (apat_scan (alignment_positions v) 0 y x (None, None, 0)) as [[ai aj] len].
  rewrite A. clear A E. unfold function_module.
  destruct (alignment_module v y x); rewrite ?orb_true_r, ?orb_false_r;
    unfold finder_module, timing_module, format_module, version_module, in_rect, symbol_size in *; cbn zeta.
  - repeat (match goal with |- (if ?b then true else _) = true => destruct b; [reflexivity|] end). reflexivity.
  - destruct ((y <? 9) && (x <? 9)) eqn:E1; [lia|].
    destruct ((v * 4 + 17 <=? y + 8) && (x <? 9)) eqn:E2; [lia|].
    destruct ((y <? 9) && (v * 4 + 17 <=? x + 8)) eqn:E3; [lia|].
    destruct ((y =? 6) || (x =? 6)) eqn:E4; [lia|].
    destruct ((7 <=? v) && (y <? 6) && (v * 4 + 17 <=? x + 11)) eqn:E5; [lia|].
    destruct ((7 <=? v) && (v * 4 + 17 <=? y + 11) && (x <? 6)) eqn:E6; [lia|]. lia.
Qed.

(** * Reading the data modules *)

Definition cell_bit (rm : bool) (mask : Z) (sym : Z -> Z -> bool) (p : Z * Z) : bool :=
  xorb (sym (fst p) (snd p)) (rm && mask_pattern mask (fst p) (snd p)).

Definition unreserved (v : Z) (l : list (Z * Z)) : list (Z * Z) :=
  filter (fun p => negb (reservedb v (fst p) (snd p))) l.

Lemma cells_ok code sym meta rm l : readable code sym -> 0 <= md_version meta <= 40 -> 0 <= md_mask meta < 8 ->
  (forall p, In p l -> 0 <= fst p < g_size code /\ 0 <= snd p < g_size code) ->
  forall ds bs, raw_holds ds bs -> Z.of_nat (length bs + length l) <= 8 * MAX_PAYLOAD_SIZE ->
  exists ds', cells code meta rm l ds = Ok ds' /\
    raw_holds ds' (bs ++ map (cell_bit rm (md_mask meta) sym) (unreserved (md_version meta) l)).
Proof.
  intros Hr Hv Hm. induction l as [|p l IH]; intros Hin ds bs Hds Hlen.
  - exists ds. split; [reflexivity|]. cbn. rewrite app_nil_r. exact Hds.
  - unfold cells. cbn [for_each]. unfold read_cell at 1. rewrite reserved_cell_ok by exact Hv. cbn [bind].
    cbn [unreserved filter]. cbn [length] in Hlen.
    destruct (reservedb (md_version meta) (fst p) (snd p)); cbn [negb].
    + cbn [bind]. apply IH; [|exact Hds|lia]. intros q Hq. apply Hin. right. exact Hq.
    + assert (Eb : read_bit code meta (fst p) (snd p) rm = Ok (cell_bit rm (md_mask meta) sym p)).
      { unfold read_bit. destruct (Hin p (or_introl eq_refl)) as [Hy Hx]. rewrite (Hr _ _ Hy Hx). cbn [bind].
        unfold cell_bit. destruct rm; cbn [andb].
        - rewrite mask_bit_ok by exact Hm. cbn [bind]. f_equal.
          destruct (mask_pattern _ _ _), (sym _ _); reflexivity.
        - rewrite xorb_false_r. reflexivity. }
      rewrite Eb. cbn [bind].
      destruct (raw_push_ok ds bs (cell_bit rm (md_mask meta) sym p) Hds ltac:(lia)) as (ds1 & -> & Hds1).
      cbn [bind map]. 
      destruct (IH ltac:(intros q Hq; apply Hin; right; exact Hq) ds1 _ Hds1) as (ds2 & E2 & H2).
      { rewrite app_length. cbn [length]. lia. }
      exists ds2. split; [exact E2|]. rewrite <- app_assoc in H2. exact H2.
Qed.

(** The cells visited in a grid of a given size. *)
Definition scan (size : Z) : list (Z * Z) := sweeps (Z.to_nat ((size + 1) / 2)) size (size - 1) true.

Theorem read_data_ok code sym meta rm : readable code sym -> 1 <= g_size code <= 180 ->
  0 <= md_version meta <= 40 -> 0 <= md_mask meta < 8 ->
  exists rd, read_data code meta rm = Ok rd /\
    raw_holds rd (map (cell_bit rm (md_mask meta) sym) (unreserved (md_version meta) (scan (g_size code)))).
Proof.
  intros Hr Hs Hv Hm. rewrite read_data_cells by lia.
  apply (cells_ok code sym meta rm _ Hr Hv Hm) with (bs := []).
  - intros p Hp. apply (sweeps_in (g_size code)) in Hp; [exact Hp|lia].
  - apply raw_holds_nil.
  - cbn [length plus].
    pose proof (sweeps_length (g_size code) (Z.to_nat ((g_size code + 1) / 2)) (g_size code - 1) true) as L.
    unfold MAX_PAYLOAD_SIZE. nia.
Qed.

Lemma scan_data_modules v : 1 <= v <= 40 -> v <> 21 -> unreserved v (scan (symbol_size v)) = data_modules v.
Proof.
  intros Hv H21. unfold data_modules, scan. rewrite <- sweeps_zigzag by lia. unfold unreserved.
  apply filter_ext_in. intros p Hp. apply sweeps_in in Hp; [|lia].
  rewrite reserved_function; try assumption; try lia. reflexivity.
Qed.

Theorem read_data_modules code sym meta rm v : readable code sym -> g_size code = symbol_size v ->
  1 <= v <= 40 -> v <> 21 -> md_version meta = v -> 0 <= md_mask meta < 8 ->
  exists rd, read_data code meta rm = Ok rd /\
    raw_holds rd (map (cell_bit rm (md_mask meta) sym) (data_modules v)).
Proof.
  intros Hr Hs Hv H21 Hmv Hm.
  destruct (read_data_ok code sym meta rm Hr) as (rd & E & H); [unfold symbol_size in Hs; lia|lia|exact Hm|].
  exists rd. split; [exact E|]. rewrite Hmv, Hs, scan_data_modules in H by assumption. exact H.
Qed.

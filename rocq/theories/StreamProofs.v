(** Reading bits from the corrected stream, and traces of write_all calls. *)
From Verif Require Import Base Lib VersionDb ModelGF ModelRS ModelDecode GFProofs SpecQR.
From Coq Require Import ZifyBool ZifyNat ZifyN.
Ltac Zify.zify_post_hook ::= Z.div_mod_to_equations.

(** * Lists of bits *)
Lemma value_of_app a b : value_of (a ++ b) = value_of a * 2 ^ Z.of_nat (length b) + value_of b.
Proof.
  unfold value_of. rewrite fold_left_app. generalize (fold_left (fun acc b0 => 2 * acc + Z.b2z b0) a 0).
  induction b as [|x b IH] using rev_ind; intros z; cbn [fold_left length].
  - cbn. lia.
  - rewrite !fold_left_app, app_length. cbn [fold_left length]. rewrite IH.
    rewrite Nat2Z.inj_add, Z.pow_add_r by lia. change (2 ^ Z.of_nat 1) with 2. lia.
Qed.

Lemma value_of_cons b bs : value_of (b :: bs) = Z.b2z b * 2 ^ Z.of_nat (length bs) + value_of bs.
Proof. apply (value_of_app [b] bs). Qed.

Lemma value_of_snoc a b : value_of (a ++ [b]) = 2 * value_of a + Z.b2z b.
Proof. unfold value_of. rewrite fold_left_app. reflexivity. Qed.

Lemma value_of_range bs : 0 <= value_of bs < 2 ^ Z.of_nat (length bs).
Proof.
  induction bs as [|b bs IH] using rev_ind; [cbn; lia|].
  rewrite value_of_snoc, app_length. cbn [length].
  rewrite Nat2Z.inj_add, Z.pow_add_r by lia. change (2 ^ Z.of_nat 1) with 2.
  destruct b; cbn [Z.b2z]; lia.
Qed.

Lemma length_bits_of n v : length (bits_of n v) = n.
Proof. induction n as [|n IH]; cbn [bits_of length]; auto. Qed.

Lemma nth_bits_of n v k d : (k < n)%nat -> nth k (bits_of n v) d = Z.testbit v (Z.of_nat (n - 1 - k)).
Proof.
  revert k. induction n as [|n IH]; intros k Hk; [lia|]. cbn [bits_of].
  destruct k as [|k]; cbn [nth]; [do 2 f_equal; lia|]. rewrite IH by lia. do 2 f_equal. lia.
Qed.

Lemma value_of_bits_of n v : value_of (bits_of n v) = v mod 2 ^ Z.of_nat n.
Proof.
  induction n as [|n IH]; [cbn; rewrite Z.mod_1_r; reflexivity|].
  cbn [bits_of]. rewrite value_of_cons, length_bits_of, IH.
  rewrite Z.testbit_spec' by lia. rewrite Nat2Z.inj_succ, Z.pow_succ_r, (Z.mul_comm 2) by lia.
  rewrite Z.rem_mul_r by lia. lia.
Qed.

Lemma value_of_bits n v : 0 <= v < 2 ^ Z.of_nat n -> value_of (bits_of n v) = v.
Proof. intros H. rewrite value_of_bits_of. apply Z.mod_small, H. Qed.

Lemma bits_of_value bs : bits_of (length bs) (value_of bs) = bs.
Proof.
  assert (G : forall n b v, bits_of n (v * 2 ^ Z.of_nat n + b) = bits_of n b).
  { induction n as [|n IH]; intros b v; [reflexivity|]. cbn [bits_of].
    replace (v * 2 ^ Z.of_nat (S n) + b) with ((2 * v) * 2 ^ Z.of_nat n + b)
      by (rewrite Nat2Z.inj_succ, Z.pow_succ_r by lia; lia).
    rewrite IH. f_equal. apply Z.b2z_inj. rewrite !Z.testbit_spec' by lia.
    rewrite Z.add_comm, Z.div_add by (apply Z.pow_nonzero; lia).
    rewrite (Z.mul_comm 2), Z_mod_plus_full. reflexivity. }
  induction bs as [|b bs IH]; [reflexivity|].
  cbn [length bits_of].
  rewrite value_of_cons, G, IH. f_equal.
  apply Z.b2z_inj. rewrite Z.testbit_spec' by lia.
  rewrite Z.add_comm, Z.div_add by (apply Z.pow_nonzero; lia).
  pose proof (value_of_range bs). rewrite Z.div_small by lia. destruct b; reflexivity.
Qed.

Lemma length_bytes_bits l : length (bytes_bits l) = (8 * length l)%nat.
Proof.
  unfold bytes_bits. induction l as [|b l IH]; [reflexivity|].
  cbn [flat_map length]. rewrite app_length, length_bits_of, IH. lia.
Qed.

Lemma bytes_bits_app a b : bytes_bits (a ++ b) = bytes_bits a ++ bytes_bits b.
Proof. apply flat_map_app. Qed.

Lemma bytes_bits_cons a l : bytes_bits (a :: l) = bits_of 8 a ++ bytes_bits l.
Proof. reflexivity. Qed.

Lemma nth_bytes_bits l k d : (k < 8 * length l)%nat ->
  nth k (bytes_bits l) d = Z.testbit (nth (k / 8) l 0) (7 - Z.of_nat k mod 8).
Proof.
  revert k. induction l as [|b l IH]; intros k Hk; [cbn in Hk; lia|].
  rewrite bytes_bits_cons. destruct (Nat.lt_ge_cases k 8) as [H|H].
  - rewrite app_nth1 by (rewrite length_bits_of; lia). rewrite nth_bits_of by lia.
    rewrite Nat.div_small by lia. cbn [nth]. f_equal. lia.
  - rewrite app_nth2 by (rewrite length_bits_of; lia). rewrite length_bits_of.
    cbn [length] in Hk. rewrite IH by lia.
    replace (k / 8)%nat with (S ((k - 8) / 8)).
    + cbn [nth]. f_equal. lia.
    + replace k with ((k - 8) + 1 * 8)%nat at 2 by lia. rewrite Nat.div_add by lia. lia.
Qed.

(** * The stream *)
Definition ds_wf (ds : CorrectedDataStream) : Prop :=
  0 <= ds_ptr ds <= ds_bit_len ds /\ ds_bit_len ds <= 8 * Z.of_nat (length (ds_data ds)).

(** The bits still to be read. *)
Definition remaining (ds : CorrectedDataStream) : list bool :=
  firstn (Z.to_nat (ds_bit_len ds - ds_ptr ds)) (skipn (Z.to_nat (ds_ptr ds)) (bytes_bits (ds_data ds))).

(** [ds] is well formed and [bs] is what remains to be read. *)
Definition at_bits (ds : CorrectedDataStream) (bs : list bool) : Prop := ds_wf ds /\ remaining ds = bs.

Definition advance (ds : CorrectedDataStream) (n : nat) : CorrectedDataStream :=
  mkDS (ds_data ds) (ds_ptr ds + Z.of_nat n) (ds_bit_len ds).

Lemma length_remaining ds : ds_wf ds ->
  Z.of_nat (length (remaining ds)) = ds_bit_len ds - ds_ptr ds.
Proof.
  intros (H1 & H2). unfold remaining. rewrite firstn_length, skipn_length, length_bytes_bits. lia.
Qed.

Lemma bits_remaining_ok ds bs : at_bits ds bs -> bits_remaining ds = Ok (Z.of_nat (length bs)).
Proof.
  intros [Hw <-]. rewrite length_remaining by exact Hw. destruct Hw as (H1 & H2).
  unfold bits_remaining, assert_. replace (_ <=? _) with true by lia. reflexivity.
Qed.

Lemma advance_0 ds : advance ds 0 = ds.
Proof. destruct ds. unfold advance. cbn. rewrite Z.add_0_r. reflexivity. Qed.

Lemma advance_advance ds a b : advance (advance ds a) b = advance ds (a + b).
Proof. unfold advance. cbn. f_equal. lia. Qed.

Lemma skipn_firstn' {A} n m (l : list A) : skipn n (firstn m l) = firstn (m - n) (skipn n l).
Proof.
  revert m l. induction n as [|n IH]; intros m l; cbn [skipn].
  - rewrite Nat.sub_0_r. reflexivity.
  - destruct m; [destruct l; reflexivity|]. destruct l; cbn; [rewrite firstn_nil; reflexivity|]. apply IH.
Qed.

Lemma skipn_skipn' {A} n m (l : list A) : skipn n (skipn m l) = skipn (m + n) l.
Proof. revert l. induction m as [|m IH]; intros l; cbn; auto. destruct l; cbn; auto. destruct n; auto. Qed.

Lemma at_bits_advance ds bs n : at_bits ds bs -> (n <= length bs)%nat ->
  at_bits (advance ds n) (skipn n bs).
Proof.
  intros [Hw <-] Hn. pose proof (length_remaining ds Hw). destruct Hw as (H1 & H2). split.
  - unfold advance, ds_wf. cbn [ds_ptr ds_bit_len ds_data]. lia.
  - unfold remaining, advance. cbn [ds_data ds_ptr ds_bit_len].
    rewrite skipn_firstn', skipn_skipn'. f_equal; [lia|]. f_equal. lia.
Qed.

Lemma at_bits_hd ds b bs : at_bits ds (b :: bs) ->
  exists c, @aget deqr_error Z (ds_data ds) (Z.to_nat (Z.shiftr (ds_ptr ds) 3)) = Ok c
    /\ b = Z.testbit c (7 - ds_ptr ds mod 8).
Proof.
  intros [Hw Hr]. pose proof (length_remaining ds Hw) as Hl. rewrite Hr in Hl. cbn [length] in Hl.
  destruct Hw as (H1 & H2).
  rewrite Z.shiftr_div_pow2 by lia. change (2 ^ 3) with 8.
  exists (nth (Z.to_nat (ds_ptr ds / 8)) (ds_data ds) 0). split.
  - apply aget_ok. lia.
  - assert (Hb : nth 0 (remaining ds) false = b) by (rewrite Hr; reflexivity).
    unfold remaining in Hb. rewrite nth_firstn, nth_skipn in Hb by lia.
    rewrite nth_bytes_bits in Hb by lia. rewrite <- Hb. f_equal.
    + f_equal. rewrite Nat.add_0_r. rewrite Z2Nat.inj_div by lia. reflexivity.
    + f_equal. lia.
Qed.

Lemma land_top_bit c p : 0 <= p < 8 ->
  (Z.land (Z.shiftl c p mod 256) 128 =? 0) = negb (Z.testbit c (7 - p)).
Proof.
  intros Hp. change 256 with (2 ^ 8). rewrite <- Z.land_ones by lia.
  assert (E : Z.land (Z.land (Z.shiftl c p) (Z.ones 8)) 128 = if Z.testbit c (7 - p) then 128 else 0).
  { apply Z.bits_inj'. intros k Hk. rewrite !Z.land_spec.
    change 128 with (2 ^ 7). rewrite Z.pow2_bits_eqb by lia.
    destruct (Z.eqb_spec 7 k) as [<-|Hne].
    - rewrite Z.ones_spec_low, Z.shiftl_spec by lia. rewrite !andb_true_r.
      destruct (Z.testbit c (7 - p)); reflexivity.
    - rewrite andb_false_r. destruct (Z.testbit c (7 - p)); [|symmetry; apply Z.bits_0].
      rewrite Z.pow2_bits_eqb by lia. symmetry. apply Z.eqb_neq. exact Hne. }
  rewrite E. destruct (Z.testbit c (7 - p)); reflexivity.
Qed.

Lemma take_bits_loop_ok n : forall ds bs ret, at_bits ds bs -> (n <= length bs)%nat ->
  take_bits_loop n ret ds = Ok (ret * 2 ^ Z.of_nat n + value_of (firstn n bs), advance ds n).
Proof.
  induction n as [|n IH]; intros ds bs ret Hb Hn.
  - cbn [take_bits_loop firstn]. rewrite advance_0. do 2 f_equal. cbn. lia.
  - destruct bs as [|b bs]; [cbn in Hn; lia|]. cbn [take_bits_loop].
    destruct (at_bits_hd _ _ _ Hb) as (c & -> & Eb). cbn [bind].
    change 7 with (Z.ones 3) at 1. rewrite Z.land_ones by lia. change (2 ^ 3) with 8.
    rewrite land_top_bit by lia. rewrite <- Eb.
    change (mkDS (ds_data ds) (ds_ptr ds + 1) (ds_bit_len ds)) with (advance ds 1).
    rewrite (IH _ bs).
    + rewrite advance_advance. do 2 f_equal. cbn [firstn].
      rewrite value_of_cons, firstn_length_le by (cbn in Hn; lia).
      assert (Eret : (if negb b then 2 * ret else Z.lor (2 * ret) 1) = 2 * ret + Z.b2z b).
      { destruct b; cbn [negb Z.b2z]; [|lia].
        assert (Hl : Z.land (2 * ret) 1 = 0).
        { change 1 with (Z.ones 1). rewrite Z.land_ones by lia. change (2 ^ 1) with 2.
          rewrite Z.mul_comm. apply Z.mod_mul. lia. }
        rewrite Z.add_nocarry_lxor, Z.lxor_lor by exact Hl. reflexivity. }
      rewrite Eret, Nat2Z.inj_succ, Z.pow_succ_r by lia. lia.
    + apply (at_bits_advance ds (b :: bs) 1 Hb). cbn. lia.
    + cbn in Hn. lia.
Qed.

Lemma firstn_min {A} n (l : list A) : firstn (Nat.min (length l) n) l = firstn n l.
Proof.
  destruct (Nat.le_ge_cases n (length l)).
  - rewrite Nat.min_r by lia. reflexivity.
  - rewrite Nat.min_l by lia. rewrite !firstn_all2 by lia. reflexivity.
Qed.
Lemma skipn_min {A} n (l : list A) : skipn (Nat.min (length l) n) l = skipn n l.
Proof.
  destruct (Nat.le_ge_cases n (length l)).
  - rewrite Nat.min_r by lia. reflexivity.
  - rewrite Nat.min_l by lia. rewrite !skipn_all2 by lia. reflexivity.
Qed.

(** [take_bits]: short reads at the end of the stream. *)
Lemma take_bits_ok ds bs n : at_bits ds bs -> 0 <= n <= 64 ->
  exists ds', take_bits ds n = Ok (value_of (firstn (Z.to_nat n) bs), ds')
    /\ at_bits ds' (skipn (Z.to_nat n) bs).
Proof.
  intros Hb Hn. unfold take_bits. rewrite (bits_remaining_ok _ _ Hb). cbn [bind].
  unfold assert_. replace (_ <=? _) with true by lia. cbn [bind].
  replace (Z.to_nat (Z.min (Z.of_nat (length bs)) n)) with (Nat.min (length bs) (Z.to_nat n)) by lia.
  rewrite (take_bits_loop_ok _ _ _ 0 Hb) by lia. rewrite firstn_min. cbn [Z.mul Z.add].
  eexists. split; [reflexivity|]. rewrite <- skipn_min. apply at_bits_advance; [exact Hb|lia].
Qed.

(** Exactly: more than 64 bits at once panic. *)
Lemma take_bits_exact ds bs n : at_bits ds bs -> 0 <= n ->
  if Z.min (Z.of_nat (length bs)) n <=? 64
  then exists ds', take_bits ds n = Ok (value_of (firstn (Z.to_nat n) bs), ds') /\ at_bits ds' (skipn (Z.to_nat n) bs)
  else take_bits ds n = Panic.
Proof.
  intros Hb Hn. unfold take_bits. rewrite (bits_remaining_ok _ _ Hb). cbn [bind].
  destruct (_ <=? 64); unfold assert_; cbn [bind]; [|reflexivity].
  replace (Z.to_nat (Z.min (Z.of_nat (length bs)) n)) with (Nat.min (length bs) (Z.to_nat n)) by lia.
  rewrite (take_bits_loop_ok _ _ _ 0 Hb) by lia. rewrite firstn_min. cbn [Z.mul Z.add].
  eexists. split; [reflexivity|]. rewrite <- skipn_min. apply at_bits_advance; [exact Hb|lia].
Qed.

(** A stream positioned at given bits exists for all bytes. *)
Lemma at_bits_start data len : (len <= 8 * length data)%nat ->
  at_bits (mkDS data 0 (Z.of_nat len)) (firstn len (bytes_bits data)).
Proof.
  intros H. split.
  - unfold ds_wf. cbn [ds_ptr ds_bit_len ds_data]. lia.
  - unfold remaining. cbn [ds_data ds_ptr ds_bit_len]. cbn [Z.to_nat skipn]. f_equal. lia.
Qed.

(** * Traces of write_all calls *)

(** Hand [chunks] to the writer one by one; stop with IoError at the first failure, otherwise end
    with [r]. *)
Fixpoint feed {W A} (wr : W -> list Z -> W * bool) (chunks : list (list Z)) (r : res deqr_error A)
  (w : W) : W * res deqr_error A :=
  match chunks with
  | [] => (w, r)
  | c :: t => let '(w', ok) := wr w c in if ok then feed wr t r w' else (w', Err IoError)
  end.

(** The computation performs exactly these writes and ends with [r], whatever the writer. *)
Definition traced {A} (m : forall W, (W -> list Z -> W * bool) -> io W A)
  (chunks : list (list Z)) (r : res deqr_error A) : Prop :=
  forall W (wr : W -> list Z -> W * bool) w, m W wr w = feed wr chunks r w.

Lemma traced_lift {A} (r : res deqr_error A) : traced (fun W _ => io_lift r) [] r.
Proof. intros W wr w. reflexivity. Qed.
Lemma traced_ret {A} (a : A) : traced (fun W _ => io_ret a) [] (Ok a).
Proof. intros W wr w. reflexivity. Qed.
Lemma traced_write c : traced (fun W wr => io_write wr c) [c] (Ok tt).
Proof. intros W wr w. unfold io_write. cbn. destruct (wr w c) as [w' []]; reflexivity. Qed.

Lemma feed_bind {W A B} (wr : W -> list Z -> W * bool) cs (r : res deqr_error A) (k : A -> io W B) w :
  io_bind (feed wr cs r) k w
  = match r with
    | Ok a => let '(w', q) := feed wr cs (Ok tt) w in
              match q with Ok _ => k a w' | Err e => (w', Err e) | Panic => (w', Panic)
                      | Diverge => (w', Diverge) end
    | Err e => feed wr cs (Err e) w
    | Panic => feed wr cs Panic w
    | Diverge => feed wr cs Diverge w
    end.
Proof.
  revert w. induction cs as [|c cs IH]; intros w; unfold io_bind in *; cbn [feed].
  - destruct r; reflexivity.
  - destruct (wr w c) as [w' []]; [apply IH|]. destruct r; reflexivity.
Qed.

Lemma feed_app {W B} (wr : W -> list Z -> W * bool) cs cs' (q : res deqr_error B) w :
  feed wr (cs ++ cs') q w
  = let '(w', r) := feed wr cs (Ok tt) w in
    match r with Ok _ => feed wr cs' q w' | Err e => (w', Err e) | Panic => (w', Panic)
            | Diverge => (w', Diverge) end.
Proof.
  revert w. induction cs as [|c cs IH]; intros w; cbn [feed app]; [reflexivity|].
  destruct (wr w c) as [w' []]; [apply IH|reflexivity].
Qed.

Lemma traced_bind_ok {A B} (m : forall W, (W -> list Z -> W * bool) -> io W A)
  (k : forall W, (W -> list Z -> W * bool) -> A -> io W B) cs a cs' q :
  traced m cs (Ok a) -> traced (fun W wr => k W wr a) cs' q ->
  traced (fun W wr => io_bind (m W wr) (k W wr)) (cs ++ cs') q.
Proof.
  intros Hm Hk W wr w. unfold io_bind at 1. rewrite (Hm W wr w).
  pose proof (feed_bind wr cs (Ok a) (k W wr) w) as H. unfold io_bind in H. rewrite H.
  rewrite feed_app. destruct (feed wr cs (Ok tt) w) as [w' [| | |]]; auto.
Qed.

Lemma traced_bind_err {A B} (m : forall W, (W -> list Z -> W * bool) -> io W A)
  (k : forall W, (W -> list Z -> W * bool) -> A -> io W B) cs e :
  traced m cs (Err e) -> traced (fun W wr => io_bind (m W wr) (k W wr)) cs (Err e).
Proof.
  intros Hm W wr w. unfold io_bind. rewrite (Hm W wr w).
  pose proof (feed_bind wr cs (Err e) (k W wr) w) as H. unfold io_bind in H. exact H.
Qed.

Lemma traced_bind_lift {A B} (r : res deqr_error A)
  (k : forall W, (W -> list Z -> W * bool) -> A -> io W B) a cs q :
  r = Ok a -> traced (fun W wr => k W wr a) cs q ->
  traced (fun W wr => io_bind (io_lift r) (k W wr)) cs q.
Proof. intros -> Hk W wr w. apply Hk. Qed.

Lemma traced_write_bind {B} c (k : forall W, (W -> list Z -> W * bool) -> unit -> io W B) cs q :
  traced (fun W wr => k W wr tt) cs q ->
  traced (fun W wr => io_bind (io_write wr c) (k W wr)) (c :: cs) q.
Proof. intros Hk. apply (traced_bind_ok _ k [c] tt cs q (traced_write c) Hk). Qed.

(** The reference encoder draws symbols. *)
From Verif Require Import Base Lib SpecQR RSBytes RSEncode StreamProofs MessageProofs FormatProofs EccDb EccProofs EndToEnd.
From Coq Require Import ZifyBool ZifyNat ZifyN FinFun.
Ltac Zify.zify_post_hook ::= Z.div_mod_to_equations.
Open Scope Z_scope.

(** * No module is visited twice *)
Lemma NoDup_flat_map {A B} (f : A -> list B) l : NoDup l -> (forall a, In a l -> NoDup (f a)) ->
  (forall a b x, In a l -> In b l -> In x (f a) -> In x (f b) -> a = b) -> NoDup (flat_map f l).
Proof.
  intros Hl. induction Hl as [|a l Ha Hl IH]; intros Hf Hd; cbn [flat_map]; [constructor|].
  assert (Happ : forall l1 l2 : list B, NoDup l1 -> NoDup l2 -> (forall x, In x l1 -> In x l2 -> False) -> NoDup (l1 ++ l2)).
  { intros l1 l2 H1 H2 Hx. induction H1 as [|x l1 Hin H1 IH1]; cbn [app]; [exact H2|]. constructor.
    - intros Hc. apply in_app_or in Hc. destruct Hc as [Hc|Hc]; [contradiction|].
      apply (Hx x); [left; reflexivity|exact Hc].
    - apply IH1. intros y Hy. apply Hx. right. exact Hy. }
  apply Happ.
  - apply Hf. left. reflexivity.
  - apply IH; [intros b Hb; apply Hf; right; exact Hb|]. intros b c x Hb Hc. apply Hd; right; assumption.
  - intros x H1 H2. apply in_flat_map in H2. destruct H2 as (b & Hb & Hx).
    assert (a = b) by (apply (Hd a b x); [left; reflexivity|right; exact Hb|exact H1|exact Hx]). subst b. contradiction.
Qed.

Lemma column_modules_in s k y x : In (y, x) (column_modules s k) ->
  In y (rows s) /\ (x = column_right s k \/ x = column_right s k - 1).
Proof.
  unfold column_modules. cbn zeta. intros H. apply in_flat_map in H. destruct H as (y' & Hy & Hx).
  assert (Hr : In y' (rows s)) by (destruct (Nat.even k); [apply in_rev|]; exact Hy).
  destruct Hx as [E|[E|[]]]; inversion E; subst; auto.
Qed.

Lemma rows_NoDup s : NoDup (rows s).
Proof. unfold rows. apply Injective_map_NoDup; [intros a b; lia|]. apply seq_NoDup. Qed.

Lemma column_modules_NoDup s k : NoDup (column_modules s k).
Proof.
  unfold column_modules. cbn zeta. apply NoDup_flat_map.
  - destruct (Nat.even k); [apply NoDup_rev|]; apply rows_NoDup.
  - intros y _. constructor; [|constructor; [|constructor]].
    + intros [E|[]]. inversion E. lia.
    + intros [].
  - intros a b [y x] _ _ Ha Hb. destruct Ha as [E|[E|[]]], Hb as [F|[F|[]]]; congruence.
Qed.

Lemma zigzag_NoDup s : s mod 2 = 1 -> NoDup (zigzag s).
Proof.
  intros Hs. unfold zigzag. apply NoDup_flat_map.
  - apply seq_NoDup.
  - intros k _. apply column_modules_NoDup.
  - intros a b [y x] Ha Hb Hxa Hxb. apply in_seq in Ha, Hb.
    apply column_modules_in in Hxa, Hxb. destruct Hxa as [_ Hxa], Hxb as [_ Hxb].
    unfold column_right in *.
    destruct (s - 1 - 2 * Z.of_nat a <=? 6) eqn:E1, (s - 1 - 2 * Z.of_nat b <=? 6) eqn:E2; lia.
Qed.

Lemma data_modules_NoDup v : NoDup (data_modules v).
Proof. unfold data_modules. apply NoDup_filter, zigzag_NoDup. unfold symbol_size. lia. Qed.

(** * Looking modules up *)
Lemma lookup_app {A} q (l1 l2 : list ((Z * Z) * A)) :
  lookup q (l1 ++ l2) = match lookup q l1 with Some a => Some a | None => lookup q l2 end.
Proof.
  induction l1 as [|[r a] l1 IH]; cbn [app lookup]; [reflexivity|].
  destruct ((fst q =? fst r) && (snd q =? snd r)); [reflexivity|exact IH].
Qed.

Lemma lookup_none {A} q (ks : list (Z * Z)) (vs : list A) : ~ In q ks -> lookup q (combine ks vs) = None.
Proof.
  revert vs. induction ks as [|k ks IH]; intros [|a vs] H; cbn [combine lookup]; try reflexivity.
  destruct ((fst q =? fst k) && (snd q =? snd k)) eqn:E.
  - exfalso. apply H. left. destruct q, k. cbn [fst snd] in E. f_equal; lia.
  - apply IH. intros Hq. apply H. right. exact Hq.
Qed.

Lemma lookup_nth {A} (x : A) (ks : list (Z * Z)) (vs : list A) k : NoDup ks ->
  (k < length ks)%nat -> (length ks <= length vs)%nat ->
  lookup (nth k ks (0, 0)) (combine ks vs) = Some (nth k vs x).
Proof.
  intros Hn. revert vs k. induction Hn as [|q ks Hq Hn IH]; intros [|a vs] k Hk Hl; cbn [length] in *; try lia.
  cbn [combine lookup]. destruct k as [|k]; cbn [nth].
  - rewrite !Z.eqb_refl. reflexivity.
  - destruct ((fst (nth k ks (0, 0)) =? fst q) && (snd (nth k ks (0, 0)) =? snd q)) eqn:E.
    + exfalso. apply Hq. replace q with (nth k ks (0, 0)); [apply nth_In; lia|].
      destruct (nth k ks (0, 0)), q. cbn [fst snd] in E. f_equal; lia.
    + apply IH; lia.
Qed.

(** * Codewords of a bit string *)
Lemma group8_bytes l : forall r f, Forall is_byte l -> (length l <= f)%nat ->
  firstn (length l) (group8 f (bytes_bits l ++ r)) = l.
Proof.
  intros r f Hl Hf. symmetry. rewrite <- (firstn_all l) at 1.
  assert (G : forall l r f, Forall is_byte l -> (length l <= f)%nat ->
    firstn (length l) l = firstn (length l) (group8 f (bytes_bits l ++ r))).
  { clear. induction l as [|b l IH]; intros r f Hl Hf; [reflexivity|]. cbn [length] in *.
    destruct f as [|f]; [lia|]. rewrite bytes_bits_cons, <- app_assoc.
    replace (group8 (S f) (bits_of 8 b ++ bytes_bits l ++ r))
      with (b :: group8 f (bytes_bits l ++ r)).
    - rewrite !firstn_cons. f_equal. apply IH; [exact (Forall_inv_tail Hl)|lia].
    - cbn [group8]. change (bits_of 8 b ++ bytes_bits l ++ r)
        with (Z.testbit b 7 :: (bits_of 7 b ++ bytes_bits l ++ r)) at 1. cbn match.
      assert (F : firstn 8 (bits_of 8 b ++ bytes_bits l ++ r) = bits_of 8 b).
      { rewrite firstn_app, length_bits_of, Nat.sub_diag.
        rewrite (firstn_all2 (bits_of 8 b)) by (rewrite length_bits_of; lia). apply app_nil_r. }
      assert (K : skipn 8 (bits_of 8 b ++ bytes_bits l ++ r) = bytes_bits l ++ r) by reflexivity.
      rewrite F, K, value_of_bits by exact (Forall_inv Hl). reflexivity. }
  apply G; assumption.
Qed.

(** * Format modules *)
Definition fmt1 : list (Z * Z) := map format_module_1 (seq 0 15).
Definition fmt2 (s : Z) : list (Z * Z) := map (format_module_2 s) (seq 0 15).

Lemma fmt1_NoDup : NoDup fmt1.
Proof.
  assert (H : forall l : list (Z * Z), forallb (fun k => negb (existsb (fun q => (fst q =? fst (nth k l (0,0))) && (snd q =? snd (nth k l (0,0))))
     (skipn (S k) l))) (seq 0 (length l)) = true -> NoDup l).
  { induction l as [|a l IH]; intros H; [constructor|]. cbn [length] in H. rewrite forallb_forall in H. constructor.
    - intros Hin. specialize (H O ltac:(apply in_seq; lia)). cbn [nth skipn] in H. apply negb_true_iff in H.
      apply Bool.not_true_iff_false in H. apply H. apply existsb_exists. exists a. split; [exact Hin|]. rewrite !Z.eqb_refl. reflexivity.
    - apply IH. rewrite forallb_forall. intros k Hk. apply in_seq in Hk.
      exact (H (S k) ltac:(apply in_seq; lia)). }
  apply H. vm_compute. reflexivity.
Qed.

Lemma fmt2_NoDup s : 21 <= s -> NoDup (fmt2 s).
Proof.
  intros Hs.
  unfold fmt2. assert (G : forall l, NoDup l -> (forall i, In i l -> (i < 15)%nat) -> NoDup (map (format_module_2 s) l)).
  { intros l Hl. induction Hl as [|a l Ha Hl IH]; intros Hb; cbn [map]; constructor.
    - intros Hin. apply in_map_iff in Hin. destruct Hin as (b & Eb & Hbin). unfold format_module_2 in Eb.
      assert (a = b).
      { specialize (Hb a (or_introl eq_refl)). destruct (b <? 8)%nat eqn:E1, (a <? 8)%nat eqn:E2; inversion Eb; lia. }
      subst b. contradiction.
    - apply IH. intros i Hi. apply Hb. right. exact Hi. }
  apply G; [apply seq_NoDup|]. intros i Hi. apply in_seq in Hi. lia.
Qed.

Lemma fmt1_low q : In q fmt1 -> 0 <= fst q <= 8 /\ 0 <= snd q <= 8.
Proof.
  intros H. assert (G : forallb (fun q => (0 <=? fst q) && (fst q <=? 8) && (0 <=? snd q) && (snd q <=? 8)) fmt1 = true)
    by (vm_compute; reflexivity).
  rewrite forallb_forall in G. specialize (G q H). lia.
Qed.

Lemma fmt2_high v q : 1 <= v -> In q (fmt2 (symbol_size v)) ->
  (fst q = 8 /\ symbol_size v - 8 <= snd q < symbol_size v) \/ (snd q = 8 /\ symbol_size v - 7 <= fst q < symbol_size v).
Proof.
  intros Hv H. apply in_map_iff in H. destruct H as (i & <- & Hi). apply in_seq in Hi. unfold format_module_2.
  destruct (i <? 8)%nat eqn:E; cbn [fst snd]; lia.
Qed.

Lemma fmt_function v q : 1 <= v -> In q fmt1 \/ In q (fmt2 (symbol_size v)) ->
  function_module v (fst q) (snd q) = true.
Proof.
  intros Hv [H|H].
  - unfold function_module.
    assert (G : forallb (fun q => format_module 1 (fst q) (snd q) && ((fst q =? 8) && (snd q <? 9) || (snd q =? 8) && (fst q <? 9))) fmt1 = true)
      by (vm_compute; reflexivity).
    rewrite forallb_forall in G. specialize (G q H). apply andb_true_iff in G. destruct G as [_ G].
    assert (F : format_module v (fst q) (snd q) = true) by (unfold format_module; lia).
    rewrite F, !orb_true_r. reflexivity.
  - apply fmt2_high in H; [|exact Hv].
    assert (F : format_module v (fst q) (snd q) = true) by (unfold format_module; lia).
    unfold function_module. rewrite F, !orb_true_r. reflexivity.
Qed.

Lemma format_bits_length w : length (format_bits w) = 15%nat.
Proof. reflexivity. Qed.

Lemma data_module_plain v y x : In (y, x) (data_modules v) -> function_module v y x = false.
Proof. intros H. apply filter_In in H. destruct H as [_ H]. cbn [fst snd] in H. apply negb_true_iff, H. Qed.

(** * The drawing carries the codewords *)
Section Draw.
  Variables (v : Z) (e : level) (mask : Z) (cws : list Z).
  Hypothesis Hv : 1 <= v <= 40.
  Hypothesis Hc : length cws = total_codewords v.
  Hypothesis Hb : Forall is_byte cws.
  Notation sym := (draw v e mask cws).
  Notation bits := (bytes_bits cws ++ repeat false 7).

  Lemma dm_length : (length (data_modules v) <= length bits)%nat.
  Proof.
    rewrite app_length, length_bytes_bits, repeat_length, Hc. unfold total_codewords.
    pose proof (Nat.div_mod (length (data_modules v)) 8 ltac:(lia)).
    pose proof (Nat.mod_upper_bound (length (data_modules v)) 8 ltac:(lia)). lia.
  Qed.

  Lemma draw_data k : (k < length (data_modules v))%nat ->
    let q := nth k (data_modules v) (0, 0) in
    xorb (sym (fst q) (snd q)) (mask_pattern mask (fst q) (snd q)) = nth k bits false.
  Proof.
    intros Hk q. assert (Hq : In q (data_modules v)) by (apply nth_In; exact Hk).
    destruct q as [y x] eqn:Eq. cbn [fst snd]. pose proof (data_module_plain v y x Hq) as Hf.
    unfold draw. cbn zeta.
    rewrite lookup_app, lookup_none, lookup_none.
    - unfold function_module in Hf. rewrite !orb_false_iff in Hf. destruct Hf as [[[[-> Ht] Hfm] ->] ->].
      rewrite Hfm, Ht. cbn [andb]. rewrite <- Eq. unfold q. rewrite (lookup_nth false).
      + rewrite xorb_assoc, xorb_nilpotent, xorb_false_r. reflexivity.
      + apply data_modules_NoDup.
      + exact Hk.
      + apply dm_length.
    - intros Hin. pose proof (fmt_function v (y, x) ltac:(lia) (or_intror Hin)) as F. cbn [fst snd] in F. congruence.
    - intros Hin. pose proof (fmt_function v (y, x) ltac:(lia) (or_introl Hin)) as F. cbn [fst snd] in F. congruence.
  Qed.

  Lemma draw_modules : read_modules v mask sym = firstn (length (data_modules v)) bits.
  Proof.
    unfold read_modules. set (f := fun q : Z * Z => xorb (sym (fst q) (snd q)) (mask_pattern mask (fst q) (snd q))).
    apply (nth_ext _ _ (f (0, 0)) false).
    - rewrite map_length, firstn_length. pose proof dm_length. lia.
    - rewrite map_length. intros k Hk. rewrite map_nth, nth_firstn by exact Hk. apply (draw_data k Hk).
  Qed.

  Lemma draw_codewords : received_codewords v mask sym = cws.
  Proof.
    unfold received_codewords. rewrite draw_modules.
    assert (E : exists r, firstn (length (data_modules v)) bits = bytes_bits cws ++ r).
    { rewrite firstn_app, firstn_all2; [eexists; reflexivity|].
      rewrite length_bytes_bits, Hc. unfold total_codewords. 
      pose proof (Nat.div_mod (length (data_modules v)) 8 ltac:(lia)). lia. }
    destruct E as [r ->]. rewrite <- Hc. apply group8_bytes; [exact Hb|lia].
  Qed.

  Lemma draw_format_1 : format_read format_module_1 sym = format_bits (format_word e mask).
  Proof.
    unfold format_read. set (f := fun i => sym (fst (format_module_1 i)) (snd (format_module_1 i))).
    apply (nth_ext _ _ (f 0%nat) false); [rewrite map_length, seq_length; reflexivity|].
    rewrite map_length, seq_length. intros k Hk. rewrite map_nth, seq_nth by exact Hk. cbn [plus]. unfold f.
    unfold draw. cbn zeta. rewrite <- surjective_pairing. rewrite lookup_app.
    assert (E : format_module_1 k = nth k fmt1 (0, 0)).
    { unfold fmt1. rewrite (nth_indep _ _ (format_module_1 0)) by (rewrite map_length, seq_length; exact Hk).
      rewrite map_nth, seq_nth by exact Hk. reflexivity. }
    rewrite E. change (map format_module_1 (seq 0 15)) with fmt1. rewrite (lookup_nth false).
    - reflexivity.
    - apply fmt1_NoDup.
    - exact Hk.
    - rewrite format_bits_length. cbn. lia.
  Qed.

  Lemma draw_format_2 : format_read (format_module_2 (symbol_size v)) sym = format_bits (format_word e mask).
  Proof.
    unfold format_read. set (f := fun i => sym (fst (format_module_2 (symbol_size v) i)) (snd (format_module_2 (symbol_size v) i))).
    apply (nth_ext _ _ (f 0%nat) false); [rewrite map_length, seq_length; reflexivity|].
    rewrite map_length, seq_length. intros k Hk. rewrite map_nth, seq_nth by exact Hk. cbn [plus]. unfold f.
    unfold draw. cbn zeta. rewrite <- surjective_pairing. rewrite lookup_app.
    assert (E : format_module_2 (symbol_size v) k = nth k (fmt2 (symbol_size v)) (0, 0)).
    { unfold fmt2. rewrite (nth_indep _ _ (format_module_2 (symbol_size v) 0)) by (rewrite map_length, seq_length; exact Hk).
      rewrite map_nth, seq_nth by exact Hk. reflexivity. }
    rewrite E. rewrite lookup_none.
    - change (map (format_module_2 (symbol_size v)) (seq 0 15)) with (fmt2 (symbol_size v)). rewrite (lookup_nth false).
      + reflexivity.
      + apply fmt2_NoDup. unfold symbol_size. lia.
      + unfold fmt2. rewrite map_length, seq_length. exact Hk.
      + rewrite format_bits_length. unfold fmt2. rewrite map_length, seq_length. lia.
    - intros Hin. apply fmt1_low in Hin.
      assert (H2 : In (nth k (fmt2 (symbol_size v)) (0, 0)) (fmt2 (symbol_size v)))
        by (apply nth_In; unfold fmt2; rewrite map_length, seq_length; exact Hk).
      apply fmt2_high in H2; [|lia]. unfold symbol_size in *. lia.
  Qed.
End Draw.

(** The codewords of a symbol are bytes. *)
Lemma Forall_interleave {A} (P : A -> Prop) blocks : Forall (Forall P) blocks -> Forall P (interleave blocks).
Proof.
  intros H. unfold interleave. apply Forall_forall. intros a Ha. apply in_flat_map in Ha.
  destruct Ha as (j & _ & Ha). apply in_flat_map in Ha. destruct Ha as (b & Hb & Ha).
  rewrite Forall_forall in H. specialize (H b Hb). rewrite Forall_forall in H. apply H.
  destruct (nth_error b j) as [a'|] eqn:E; [|destruct Ha]. destruct Ha as [<-|[]]. exact (nth_error_In _ _ E).
Qed.

Lemma Forall_cut {A} (P : A -> Prop) lens : forall l, Forall P l -> Forall (Forall P) (cut lens l).
Proof.
  induction lens as [|n lens IH]; intros l Hl; cbn [cut]; constructor.
  - apply Forall_forall. intros a Ha. rewrite Forall_forall in Hl. apply Hl.
    rewrite <- (firstn_skipn n l). apply in_or_app. left. exact Ha.
  - apply IH. apply Forall_forall. intros a Ha. rewrite Forall_forall in Hl. apply Hl.
    rewrite <- (firstn_skipn n l). apply in_or_app. right. exact Ha.
Qed.

Lemma symbol_codewords_bytes v e data : Forall is_byte data -> Forall is_byte (symbol_codewords v e data).
Proof.
  intros Hb. unfold symbol_codewords. pose proof (Forall_cut _ (block_data_lengths v e) _ Hb) as Hc.
  apply Forall_app. split; apply Forall_interleave; [exact Hc|].
  apply Forall_forall. intros p Hp. apply in_map_iff in Hp. destruct Hp as (b & <- & Hin).
  rewrite Forall_forall in Hc. specialize (Hc b Hin).
  destruct (rs_parity_codeword (ecc_per_block v e) Hc) as [_ [H _]].
  apply Forall_app in H. apply H.
Qed.

(** Every message that fits is drawn as a symbol. *)
Theorem encode_is_symbol v e mask m : 1 <= v <= 40 -> fits v e m -> is_symbol v e mask m (encode v e mask m).
Proof.
  intros Hv Hfit. destruct (data_codewords_ok v (data_capacity v e) m Hfit) as (Hl & Hb & _).
  destruct (db_params v e Hv) as (ver & p & P).
  assert (L : length (symbol_codewords v e (data_codewords v (data_capacity v e) m)) = total_codewords v)
    by (apply (symbol_codewords_length _ _ _ _ P); assumption).
  assert (B : Forall is_byte (symbol_codewords v e (data_codewords v (data_capacity v e) m)))
    by (apply symbol_codewords_bytes; assumption).
  unfold is_symbol, encode. split; [|split].
  - apply draw_codewords; assumption.
  - apply draw_format_1; assumption.
  - apply draw_format_2; assumption.
Qed.

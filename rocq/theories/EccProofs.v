(** Block structure, interleaving and the corrected data stream. *)
From Verif Require Import Base Lib VersionDb ModelGF ModelRS ModelDecode SpecQR StreamProofs RSBytes RSEncode EccDb.
From Coq Require Import ZifyBool ZifyNat ZifyN.
Ltac Zify.zify_post_hook ::= Z.div_mod_to_equations.
Open Scope Z_scope.

(** * Interleaving by rows *)

Lemma flat_map_ext_in {A B} (f g : A -> list B) l : (forall a, In a l -> f a = g a) -> flat_map f l = flat_map g l.
Proof.
  induction l as [|a l IH]; intros H; cbn; [reflexivity|].
  rewrite H by (left; reflexivity). rewrite IH; [reflexivity|]. intros b Hb. apply H. right. exact Hb.
Qed.

Lemma pick_all {A} (x : A) bs j : (forall b, In b bs -> (j < length b)%nat) ->
  flat_map (fun b => match nth_error b j with Some a => [a] | None => [] end) bs = map (fun b => nth j b x) bs.
Proof.
  induction bs as [|b bs IH]; intros H; cbn [flat_map map]; [reflexivity|].
  rewrite (nth_error_nth' b x) by (apply H; left; reflexivity).
  rewrite IH; [reflexivity|]. intros b' Hb. apply H. right. exact Hb.
Qed.

Lemma pick_none {A} (bs : list (list A)) j : (forall b, In b bs -> (length b <= j)%nat) ->
  flat_map (fun b => match nth_error b j with Some a => [a] | None => [] end) bs = [].
Proof.
  induction bs as [|b bs IH]; intros H; cbn [flat_map]; [reflexivity|].
  rewrite (proj2 (nth_error_None b j)) by (apply H; left; reflexivity).
  rewrite IH; [reflexivity|]. intros b' Hb. apply H. right. exact Hb.
Qed.

Lemma list_max_const n l : l <> [] -> (forall a, In a l -> a = n) -> list_max l = n.
Proof.
  intros Hne H. destruct l as [|a l]; [congruence|].
  rewrite (H a (or_introl eq_refl)) in *. clear Hne.
  assert (G : (list_max l <= n)%nat).
  { apply list_max_le, Forall_forall. intros b Hb. rewrite (H b (or_intror Hb)). lia. }
  cbn. change (fold_right Nat.max 0%nat l) with (list_max l). lia.
Qed.

Lemma list_max_app' l1 l2 : list_max (l1 ++ l2) = Nat.max (list_max l1) (list_max l2).
Proof. apply list_max_app. Qed.

(** Rows of a family of short blocks [S] (length [d]) followed by long ones [L] (length [d + 1]). *)
Lemma interleave_rows {A} (x : A) (d : nat) (S L : list (list A)) :
  (forall b, In b S -> length b = d) -> (forall b, In b L -> length b = (d + 1)%nat) ->
  interleave (S ++ L) = flat_map (fun j => map (fun b => nth j b x) (S ++ L)) (seq 0 d)
                        ++ map (fun b => nth d b x) L.
Proof.
  intros HS HL. unfold interleave. rewrite map_app, list_max_app'.
  destruct (list_eq_dec Nat.eq_dec (map (@length A) L) []) as [EL|NL].
  - assert (L = []) by (destruct L; [reflexivity|discriminate]). subst L. cbn [map list_max]. rewrite !app_nil_r.
    destruct S as [|b S].
    + cbn. induction (seq 0 d); cbn; auto.
    + rewrite (list_max_const d).
      * cbn [list_max]. rewrite Nat.max_0_r. apply flat_map_ext_in. intros j Hj. apply in_seq in Hj.
        apply pick_all. intros b' Hb. rewrite (HS b' Hb). lia.
      * discriminate.
      * intros a Ha. apply in_map_iff in Ha. destruct Ha as (b' & <- & Hb). apply HS, Hb.
  - assert (EL : list_max (map (@length A) L) = (d + 1)%nat).
    { apply list_max_const; [exact NL|]. intros a Ha. apply in_map_iff in Ha. destruct Ha as (b & <- & Hb). apply HL, Hb. }
    assert (ES : (list_max (map (@length A) S) <= d)%nat).
    { apply list_max_le, Forall_forall. intros a Ha. apply in_map_iff in Ha. destruct Ha as (b & <- & Hb).
      rewrite (HS b Hb). lia. }
    rewrite EL, Nat.max_r by lia. rewrite seq_app, flat_map_app. f_equal.
    + apply flat_map_ext_in. intros j Hj. apply in_seq in Hj. apply pick_all. intros b Hb.
      apply in_app_or in Hb. destruct Hb as [Hb|Hb]; [rewrite (HS b Hb)|rewrite (HL b Hb)]; lia.
    + cbn [plus seq flat_map]. rewrite app_nil_r, flat_map_app.
      rewrite pick_none by (intros b Hb; rewrite (HS b Hb); lia). cbn [app].
      apply pick_all. intros b Hb. rewrite (HL b Hb). lia.
Qed.

(** Selecting the entries of one block from a row. *)
Definition select {A} (i : nat) (own : list nat) (w : list A) : list A :=
  map snd (filter (fun p => Nat.eqb (fst p) i) (combine own w)).

Lemma select_app {A} i own1 own2 (w1 w2 : list A) : length own1 = length w1 ->
  select i (own1 ++ own2) (w1 ++ w2) = select i own1 w1 ++ select i own2 w2.
Proof.
  intros H. unfold select.
  assert (E : combine (own1 ++ own2) (w1 ++ w2) = combine own1 w1 ++ combine own2 w2).
  { revert w1 H. induction own1 as [|a own1 IH]; intros [|b w1] H; cbn in *; try discriminate; [reflexivity|].
    rewrite IH by lia. reflexivity. }
  rewrite E, filter_app, map_app. reflexivity.
Qed.

Lemma select_row {A} (x : A) i a w : (a <= i < a + length w)%nat ->
  select i (seq a (length w)) w = [nth (i - a) w x].
Proof.
  revert a. induction w as [|y w IH]; intros a H; cbn [length] in H; [lia|].
  unfold select in *. cbn [length seq combine filter fst].
  destruct (Nat.eqb_spec a i) as [->|Hne].
  - cbn [map snd]. rewrite Nat.sub_diag. cbn [nth].
    assert (E : filter (fun p : nat * A => (fst p =? i)%nat) (combine (seq (S i) (length w)) w) = []).
    { assert (G : forall b l, (i < b)%nat -> filter (fun p : nat * A => (fst p =? i)%nat) (combine (seq b (length l)) l) = []).
      { intros b l. revert b. induction l as [|z l IHl]; intros b Hb; [reflexivity|].
        cbn [length seq combine filter fst]. replace (b =? i)%nat with false by (symmetry; apply Nat.eqb_neq; lia).
        apply IHl. lia. }
      apply G. lia. }
    rewrite E. reflexivity.
  - rewrite IH by lia. replace (i - a)%nat with (S (i - S a)) by lia. reflexivity.
Qed.

Lemma select_row_out {A} i a (w : list A) n : ~ (a <= i < a + n)%nat -> select i (seq a n) w = [].
Proof.
  revert a w. induction n as [|n IH]; intros a w H; [reflexivity|].
  destruct w as [|y w]; [reflexivity|]. unfold select in *. cbn [seq combine filter fst].
  replace (a =? i)%nat with false by (symmetry; apply Nat.eqb_neq; lia). apply IH. lia.
Qed.

Lemma select_rows {A} (x : A) i n d : (i < n)%nat -> forall (w : list A), length w = (d * n)%nat ->
  select i (flat_map (fun _ : nat => seq 0 n) (seq 0 d)) w = map (fun j => nth (j * n + i) w x) (seq 0 d).
Proof.
  intros Hi. induction d as [|d IH]; intros w Hw.
  - cbn. destruct w; reflexivity.
  - replace (S d) with (d + 1)%nat by lia. rewrite seq_app, flat_map_app, map_app.
    rewrite <- (firstn_skipn (d * n) w) at 1.
    rewrite select_app.
    + rewrite IH by (rewrite firstn_length; lia). f_equal.
      * apply map_ext_in. intros j Hj. apply in_seq in Hj. apply nth_firstn. nia.
      * cbn [plus seq flat_map map]. rewrite app_nil_r.
        assert (L : length (skipn (d * n) w) = n) by (rewrite skipn_length; lia).
        rewrite <- L at 1. rewrite (select_row x) by lia. rewrite Nat.sub_0_r, nth_skipn. reflexivity.
    + rewrite firstn_length. rewrite Nat.min_l by lia.
      clear. induction d as [|d IH]; [reflexivity|]. replace (S d) with (d + 1)%nat by lia.
      rewrite seq_app, flat_map_app, app_length, IH. cbn [plus seq flat_map]. rewrite app_nil_r, seq_length. lia.
Qed.

Lemma select_flat_rows {A B} (x : A) (y : B) i n d (f : nat -> B -> A) (bs : list B) : (i < n)%nat -> length bs = n ->
  select i (flat_map (fun _ : nat => seq 0 n) (seq 0 d)) (flat_map (fun j => map (f j) bs) (seq 0 d))
  = map (fun j => f j (nth i bs y)) (seq 0 d).
Proof.
  intros Hi Hl. induction (seq 0 d) as [|j l IH]; [reflexivity|]. cbn [flat_map map].
  rewrite select_app by (rewrite seq_length, map_length; lia).
  assert (E : seq 0 n = seq 0 (length (map (f j) bs))) by (rewrite map_length, Hl; reflexivity).
  rewrite E at 1. rewrite (select_row (f j y)) by (rewrite map_length; lia).
  rewrite Nat.sub_0_r, map_nth, IH. reflexivity.
Qed.

Lemma length_flat_rows n l : length (flat_map (fun _ : nat => seq 0 n) l) = (length l * n)%nat.
Proof. induction l as [|j l IH]; [reflexivity|]. cbn [flat_map length]. rewrite app_length, seq_length, IH. lia. Qed.

Lemma length_flat_rows' {A B} (f : nat -> B -> A) (bs : list B) l :
  length (flat_map (fun j => map (f j) bs) l) = (length l * length bs)%nat.
Proof. induction l as [|j l IH]; [reflexivity|]. cbn [flat_map length]. rewrite app_length, map_length, IH. lia. Qed.

Lemma map_nth_seq {A} (x : A) l : map (fun j => nth j l x) (seq 0 (length l)) = l.
Proof.
  apply (nth_ext _ _ x x); [rewrite map_length, seq_length; reflexivity|].
  rewrite map_length, seq_length. intros k Hk.
  rewrite (nth_indep _ x (nth 0 l x)) by (rewrite map_length, seq_length; exact Hk).
  rewrite (map_nth (fun j => nth j l x)), seq_nth by exact Hk. reflexivity.
Qed.

Section Blocks.
  Variables (v : Z) (e : level) (ver : VersionInfo) (p : RSParameters).
  Hypothesis P : params_ok v e ver p.
  Notation nb := (num_blocks v e).
  Notation ec := (ecc_per_block v e).
  Notation ns := (rs_ns p).
  Notation d := (rs_dw p).

  Lemma split_blocks : seq 0 nb = seq 0 ns ++ seq ns (nb - ns).
  Proof. pose proof (ns_le _ _ _ _ P). rewrite <- seq_app. f_equal. lia. Qed.

  Lemma owners_rows : owners v e
    = flat_map (fun _ => seq 0 nb) (seq 0 d) ++ seq ns (nb - ns) ++ flat_map (fun _ => seq 0 nb) (seq 0 ec).
  Proof.
    unfold owners.
    assert (Er : forall n l j, (j < n)%nat -> map (fun b => nth j b O) (map (fun i => repeat i n) l) = l).
    { intros n l j Hj. rewrite map_map. rewrite <- (map_id l) at 2. apply map_ext. intros i.
      clear -Hj. revert j Hj. induction n as [|n IH]; intros [|j] Hj; cbn; try lia; auto. apply IH. lia. }
    rewrite (map_ext_in (fun i => repeat i (block_data v e i)) (fun i => repeat i (if (i <? ns)%nat then d else d + 1)%nat)).
    2:{ intros i _. rewrite (block_data_eq _ _ _ _ P). reflexivity. }
    rewrite split_blocks, (map_app (fun i => repeat i (if (i <? ns)%nat then d else d + 1)%nat)).
    rewrite (map_ext_in _ (fun i => repeat i d)) with (l := seq 0 ns).
    2:{ intros i Hi. apply in_seq in Hi. replace (i <? ns)%nat with true by (symmetry; apply Nat.ltb_lt; lia). reflexivity. }
    rewrite (map_ext_in _ (fun i => repeat i (d + 1)%nat)) with (l := seq ns (nb - ns)).
    2:{ intros i Hi. apply in_seq in Hi. replace (i <? ns)%nat with false by (symmetry; apply Nat.ltb_ge; lia). reflexivity. }
    rewrite (interleave_rows O d).
    2:{ intros b Hb. apply in_map_iff in Hb. destruct Hb as (i & <- & _). apply repeat_length. }
    2:{ intros b Hb. apply in_map_iff in Hb. destruct Hb as (i & <- & _). apply repeat_length. }
    rewrite <- app_assoc. f_equal; [|f_equal].
    - apply flat_map_ext_in. intros j Hj. apply in_seq in Hj. rewrite map_app, !Er by lia. reflexivity.
    - apply Er. lia.
    - rewrite <- (app_nil_r (map (fun i : nat => repeat i ec) _)).
      rewrite (interleave_rows O ec).
      2:{ intros b Hb. apply in_map_iff in Hb. destruct Hb as (i & <- & _). apply repeat_length. }
      2:{ intros b []. }
      cbn [map]. rewrite !app_nil_r. apply flat_map_ext_in. intros j Hj. apply in_seq in Hj.
      rewrite !Er by lia. reflexivity.
  Qed.

  (** What the owned positions are. *)
  Theorem received_block_eq w i : (i < nb)%nat -> length w = total_codewords v ->
    received_block v e w i
    = map (fun j => nth (j * nb + i) w 0) (seq 0 d)
      ++ (if (i <? ns)%nat then [] else [nth (d * nb + (i - ns)) w 0])
      ++ map (fun j => nth (d * nb + (nb - ns) + (j * nb + i)) w 0) (seq 0 ec).
  Proof.
    intros Hi Hw. rewrite (total_eq _ _ _ _ P) in Hw. change (received_block v e w i) with (select i (owners v e) w).
    rewrite owners_rows. pose proof (ns_le _ _ _ _ P) as Hn.
    rewrite <- (firstn_skipn (d * nb) w) at 1.
    rewrite select_app by (rewrite length_flat_rows, seq_length, firstn_length; lia).
    rewrite (select_rows 0) by (try rewrite firstn_length; lia).
    rewrite <- (firstn_skipn (nb - ns) (skipn (d * nb) w)) at 1.
    rewrite select_app by (rewrite seq_length, firstn_length, skipn_length; lia).
    f_equal; [|f_equal].
    - apply map_ext_in. intros j Hj. apply in_seq in Hj. apply nth_firstn. nia.
    - assert (L : length (firstn (nb - ns) (skipn (d * nb) w)) = (nb - ns)%nat)
        by (rewrite firstn_length, skipn_length; lia).
      destruct (Nat.ltb_spec i ns) as [Hs|Hs].
      + apply select_row_out. lia.
      + rewrite <- L at 1. rewrite (select_row 0) by lia. rewrite nth_firstn, nth_skipn by lia. reflexivity.
    - rewrite (select_rows 0) by (try rewrite !skipn_length; lia).
      apply map_ext. intros j. rewrite !nth_skipn. f_equal. lia.
  Qed.

  (** * Sent blocks *)
  Lemma cut_lengths {A} lens : forall l : list A, (list_sum lens <= length l)%nat ->
    map (@length A) (cut lens l) = lens.
  Proof.
    induction lens as [|n lens IH]; intros l H; cbn [cut map]; [reflexivity|].
    cbn [list_sum fold_right] in H. change (fold_right Nat.add 0%nat lens) with (list_sum lens) in H.
    rewrite firstn_length, IH by (rewrite skipn_length; lia). f_equal. lia.
  Qed.

  Lemma concat_cut {A} lens : forall l : list A, (length l <= list_sum lens)%nat -> concat (cut lens l) = l.
  Proof.
    induction lens as [|n lens IH]; intros l H; cbn [cut concat].
    - destruct l; [reflexivity|cbn in H; lia].
    - cbn [list_sum fold_right] in H. change (fold_right Nat.add 0%nat lens) with (list_sum lens) in H.
      rewrite IH by (rewrite skipn_length; lia). apply firstn_skipn.
  Qed.

  Variable data : list Z.
  Hypothesis Hdata : length data = data_capacity v e.
  Notation blocks := (cut (block_data_lengths v e) data).

  Lemma blocks_length : length blocks = nb.
  Proof.
    rewrite <- (map_length (@length Z)), cut_lengths by (rewrite Hdata; unfold data_capacity; lia).
    unfold block_data_lengths. rewrite map_length, seq_length. reflexivity.
  Qed.

  Lemma block_length i : (i < nb)%nat -> length (nth i blocks []) = block_data v e i.
  Proof.
    intros Hi. change O with (length (@nil Z)). rewrite <- (map_nth (@length Z)).
    rewrite cut_lengths by (rewrite Hdata; unfold data_capacity; lia). unfold block_data_lengths.
    rewrite (nth_indep _ _ (block_data v e 0)) by (rewrite map_length, seq_length; exact Hi).
    rewrite map_nth, seq_nth by exact Hi. reflexivity.
  Qed.

  Lemma in_nth_ex {A} (x : A) b l : In b l -> exists i, (i < length l)%nat /\ nth i l x = b.
  Proof. intros H. apply In_nth with (d := x) in H. exact H. Qed.

  Lemma symbol_rows : Forall is_byte data -> symbol_codewords v e data
    = flat_map (fun j => map (fun b => nth j b 0) blocks) (seq 0 d)
      ++ map (fun b => nth d b 0) (skipn ns blocks)
      ++ flat_map (fun j => map (fun b => nth j (rs_parity ec b) 0) blocks) (seq 0 ec).
  Proof.
    intros Hb. unfold symbol_codewords. pose proof (ns_le _ _ _ _ P) as Hn.
    rewrite <- (firstn_skipn ns blocks) at 1. rewrite (interleave_rows 0 d).
    - rewrite firstn_skipn, <- app_assoc. do 2 f_equal.
      rewrite <- (app_nil_r (map (rs_parity ec) _)). rewrite (interleave_rows 0 ec).
      + cbn [map]. rewrite !app_nil_r. apply flat_map_ext_in. intros j Hj. rewrite map_map. reflexivity.
      + intros b Hin. apply in_map_iff in Hin. destruct Hin as (b' & <- & Hb').
        apply rs_parity_codeword.
        apply (in_nth_ex []) in Hb'. destruct Hb' as (i & Hi & <-).
        apply Forall_forall. intros x Hx. rewrite Forall_forall in Hb. apply Hb.
        rewrite <- (concat_cut (block_data_lengths v e) data) by (rewrite Hdata; unfold data_capacity; lia).
        apply in_concat. exists (nth i blocks []). split; [apply nth_In; exact Hi|exact Hx].
      + intros b [].
    - intros b Hin. apply (in_nth_ex []) in Hin. destruct Hin as (i & Hi & <-).
      rewrite firstn_length, blocks_length in Hi. rewrite nth_firstn by lia.
      rewrite block_length by lia. rewrite (block_data_eq _ _ _ _ P).
      replace (i <? ns)%nat with true by (symmetry; apply Nat.ltb_lt; lia). reflexivity.
    - intros b Hin. apply (in_nth_ex []) in Hin. destruct Hin as (i & Hi & <-).
      rewrite skipn_length, blocks_length in Hi. rewrite nth_skipn.
      rewrite block_length by lia. rewrite (block_data_eq _ _ _ _ P).
      replace (ns + i <? ns)%nat with false by (symmetry; apply Nat.ltb_ge; lia). reflexivity.
  Qed.

  Lemma blocks_bytes : Forall is_byte data -> forall i, Forall is_byte (nth i blocks []).
  Proof.
    intros Hb i. destruct (Nat.lt_ge_cases i (length blocks)) as [Hi|Hi].
    2:{ rewrite nth_overflow by exact Hi. constructor. }
    apply Forall_forall. intros x Hx. rewrite Forall_forall in Hb. apply Hb.
    rewrite <- (concat_cut (block_data_lengths v e) data) by (rewrite Hdata; unfold data_capacity; lia).
    apply in_concat. exists (nth i blocks []). split; [apply nth_In; exact Hi|exact Hx].
  Qed.

  Lemma symbol_codewords_length : Forall is_byte data -> length (symbol_codewords v e data) = total_codewords v.
  Proof.
    intros Hb. rewrite symbol_rows by exact Hb. rewrite !app_length, !length_flat_rows', map_length, !seq_length.
    rewrite skipn_length, blocks_length, (total_eq _ _ _ _ P). lia.
  Qed.

  (** De-interleaving the sent sequence gives back the blocks. *)
  Theorem received_sent i : Forall is_byte data -> (i < nb)%nat ->
    received_block v e (symbol_codewords v e data) i = nth i (symbol_blocks v e data) [].
  Proof.
    intros Hb Hi. rewrite symbol_rows by exact Hb.
    match goal with |- received_block _ _ ?w _ = _ => change (received_block v e w i) with (select i (owners v e) w) end.
    rewrite owners_rows. pose proof (ns_le _ _ _ _ P) as Hn.
    rewrite select_app by (rewrite length_flat_rows, length_flat_rows', blocks_length; reflexivity).
    rewrite (select_flat_rows 0 []) by (try apply blocks_length; lia).
    rewrite select_app by (rewrite seq_length, map_length, skipn_length, blocks_length; lia).
    rewrite (select_flat_rows 0 []) by (try apply blocks_length; lia).
    set (b := nth i blocks []).
    assert (Es : nth i (symbol_blocks v e data) [] = b ++ rs_parity ec b).
    { unfold symbol_blocks.
      rewrite (nth_indep _ [] ((fun b => b ++ rs_parity ec b) [])) by (rewrite map_length, blocks_length; exact Hi).
      rewrite (map_nth (fun b => b ++ rs_parity ec b)). reflexivity. }
    rewrite Es.
    destruct (rs_parity_codeword ec (blocks_bytes Hb i)) as [Lp _]. fold b in Lp.
    pose proof (map_nth_seq 0 (rs_parity ec b)) as Ep. rewrite Lp in Ep. rewrite Ep, app_assoc. f_equal.
    pose proof (block_length i Hi) as Lb. fold b in Lb. rewrite (block_data_eq _ _ _ _ P) in Lb.
    pose proof (map_nth_seq 0 b) as Eb. rewrite Lb in Eb.
    assert (Ls : length (map (fun b => nth d b 0) (skipn ns blocks)) = (nb - ns)%nat)
      by (rewrite map_length, skipn_length, blocks_length; reflexivity).
    destruct (Nat.ltb_spec i ns) as [Hs|Hs].
    - rewrite select_row_out by lia. rewrite app_nil_r. exact Eb.
    - rewrite seq_app, map_app in Eb. cbn [plus seq map] in Eb. etransitivity; [|exact Eb]. f_equal.
      rewrite <- Ls at 1. rewrite (select_row (nth d [] 0)) by lia.
      rewrite (map_nth (fun b => nth d b 0)), nth_skipn. replace (ns + (i - ns))%nat with i by lia. reflexivity.
  Qed.
End Blocks.

(** Version 21: the table entry for the alignment patterns is wrong, so some modules are read in
    the wrong place.  How many codewords of every block this affects. *)
From Verif Require Import Base Lib VersionDb ModelGF ModelRS ModelDecode SpecQR CountProofs StreamProofs FormatProofs
  LayoutProofs EccDb EccProofs.
From Coq Require Import ZifyBool ZifyNat ZifyN.
Ltac Zify.zify_post_hook ::= Z.div_mod_to_equations.
Open Scope Z_scope.

(** * Codewords of a bit string, one by one *)
Lemma nth_group8 f : forall bits j, (j < f)%nat -> (8 * j < length bits)%nat ->
  nth j (group8 f bits) 0 = value_of (firstn 8 (skipn (8 * j) bits)).
Proof.
  induction f as [|f IH]; intros bits j Hj Hb; [lia|].
  assert (E : group8 (S f) bits = value_of (firstn 8 bits) :: group8 f (skipn 8 bits))
    by (destruct bits; [cbn in Hb; lia|reflexivity]).
  rewrite E. destruct j as [|j]; [reflexivity|].
  change (nth (S j) (value_of (firstn 8 bits) :: group8 f (skipn 8 bits)) 0) with (nth j (group8 f (skipn 8 bits)) 0).
  rewrite IH by (rewrite ?skipn_length; lia). rewrite skipn_skipn'. do 3 f_equal. lia.
Qed.

Lemma length_group8 f : forall bits, length (group8 f bits) = Nat.min f ((length bits + 7) / 8).
Proof.
  induction f as [|f IH]; intros bits; [reflexivity|]. destruct bits as [|b bits]; [reflexivity|].
  cbn [group8 length]. rewrite IH, skipn_length. cbn [length]. lia.
Qed.

(** * Distances under changes at known positions *)
Fixpoint zip3 (own : list nat) (bad : list bool) (i : nat) : nat :=
  match own, bad with
  | o :: own', b :: bad' => ((if Nat.eqb o i && b then 1 else 0) + zip3 own' bad' i)%nat
  | _, _ => O
  end.

Lemma distance_changed i : forall own bad (r r' c : list Z),
  length own = length bad -> length r = length own -> length r' = length own ->
  (forall j, (j < length own)%nat -> nth j bad false = false -> nth j r 0 = nth j r' 0) ->
  (distance (map snd (filter (fun p => Nat.eqb (fst p) i) (combine own r'))) c
   <= distance (map snd (filter (fun p => Nat.eqb (fst p) i) (combine own r))) c + zip3 own bad i)%nat.
Proof.
  induction own as [|o own IH]; intros [|b bad] [|x r] [|x' r'] c L1 L2 L3 H; cbn [length] in *; try lia.
  cbn [combine filter fst zip3].
  assert (H' : forall j, (j < length own)%nat -> nth j bad false = false -> nth j r 0 = nth j r' 0)
    by (intros j Hj; apply (H (S j)); lia).
  destruct (Nat.eqb o i); cbn [andb plus].
  - cbn [map snd distance]. destruct c as [|y c]; [lia|].
    specialize (IH bad r r' c ltac:(lia) ltac:(lia) ltac:(lia) H'). specialize (H O ltac:(lia)). cbn [nth] in H.
    destruct b; [destruct (x =? y), (x' =? y); lia|]. rewrite (H eq_refl). lia.
  - apply IH; try lia. exact H'.
Qed.

(** * The misread codewords of version 21 *)
Definition cell_eqb (p q : Z * Z) : bool := (fst p =? fst q) && (snd p =? snd q).

(** Does one of the first eight pairs differ?  For every group of eight. *)
Fixpoint bad_groups (n : nat) (l : list ((Z * Z) * (Z * Z))) : list bool :=
  match n with
  | O => []
  | S n' => existsb (fun p => negb (cell_eqb (fst p) (snd p))) (firstn 8 l) :: bad_groups n' (skipn 8 l)
  end.

Lemma bad_groups_length n : forall l, length (bad_groups n l) = n.
Proof. induction n as [|n IH]; intros l; cbn; [reflexivity|]. rewrite IH. reflexivity. Qed.

Lemma bad_groups_good n : forall (a b : list (Z * Z)) j, length a = length b -> (j < n)%nat ->
  nth j (bad_groups n (combine a b)) false = false ->
  firstn 8 (skipn (8 * j) a) = firstn 8 (skipn (8 * j) b).
Proof.
  assert (E8 : forall k (a b : list (Z * Z)), length a = length b ->
    existsb (fun p => negb (cell_eqb (fst p) (snd p))) (firstn k (combine a b)) = false -> firstn k a = firstn k b).
  { induction k as [|k IH]; intros a b Hl H; [reflexivity|].
    destruct a as [|p a], b as [|q b]; try discriminate; [reflexivity|].
    cbn [combine firstn existsb fst snd] in H. apply orb_false_iff in H. destruct H as [H1 H2].
    cbn [firstn]. f_equal; [|apply IH; [cbn in Hl; lia|exact H2]].
    unfold cell_eqb in H1. destruct p, q. cbn [fst snd] in H1. f_equal; lia. }
  assert (Sk : forall k (a b : list (Z * Z)), skipn k (combine a b) = combine (skipn k a) (skipn k b)).
  { induction k as [|k IH]; intros a b; [reflexivity|]. destruct a, b; cbn [combine skipn]; try reflexivity.
    - destruct (skipn k a); reflexivity.
    - apply IH. }
  induction n as [|n IH]; intros a b j Hl Hj H; [lia|]. cbn [bad_groups] in H. destruct j as [|j].
  - apply E8; [exact Hl|exact H].
  - cbn [nth] in H. rewrite Sk in H. apply IH in H; [|rewrite !skipn_length; lia|lia].
    rewrite !skipn_skipn' in H. replace (8 + 8 * j)%nat with (8 * S j)%nat in H by lia. exact H.
Qed.

Definition v21_bad : list bool := bad_groups 1156 (combine (unreserved 21 (scan 101)) (data_modules 21)).

(** Number of misread codewords of every block. *)
Definition v21_lost (e : level) : list nat :=
  match e with
  | EcL => [14; 13; 13; 11; 10; 10; 10; 13]
  | EcM => [5; 5; 6; 7; 7; 5; 7; 6; 4; 5; 4; 4; 4; 7; 7; 5; 6]
  | EcQ => [5; 5; 4; 4; 4; 6; 5; 4; 5; 4; 4; 3; 3; 3; 3; 4; 4; 4; 4; 3; 5; 5; 3]
  | EcH => [5; 3; 3; 3; 3; 3; 3; 4; 4; 4; 4; 5; 3; 3; 3; 3; 3; 4; 4; 4; 5; 4; 5; 4; 5]
  end%nat.

(** The positions of the misread codewords. *)
Definition v21_positions : list nat :=
  (seq 47 79 ++ [319; 320; 322; 360; 361; 563; 598; 599; 601; 602; 839; 840; 842; 880; 881])%nat.

Fixpoint marks (n : nat) (start : nat) (ps : list nat) : list bool :=
  match n with O => [] | S n' => existsb (Nat.eqb start) ps :: marks n' (S start) ps end.

Fixpoint flags_eqb (a b : list bool) : bool :=
  match a, b with
  | [], [] => true
  | x :: a', y :: b' => Bool.eqb x y && flags_eqb a' b'
  | _, _ => false
  end.

Lemma flags_eqb_eq : forall a b, flags_eqb a b = true -> a = b.
Proof.
  induction a as [|x a IH]; intros [|y b] H; cbn [flags_eqb] in H; try discriminate; [reflexivity|].
  apply andb_true_iff in H. destruct H as [H1 H2]. apply Bool.eqb_prop in H1. rewrite H1, (IH b H2). reflexivity.
Qed.

Lemma v21_bad_flags : flags_eqb v21_bad (marks 1156 0 v21_positions) = true.
Proof. vm_cast_no_check (eq_refl true). Qed.

Lemma v21_bad_eq : v21_bad = marks 1156 0 v21_positions.
Proof. exact (flags_eqb_eq _ _ v21_bad_flags). Qed.

Lemma v21_scan_length : Nat.eqb (length (unreserved 21 (scan 101))) (8 * 1156 + 4) = true.
Proof. vm_cast_no_check (eq_refl true). Qed.

Definition owner_rows (nb ns d ec : nat) : list nat :=
  flat_map (fun _ => seq 0 nb) (seq 0 d) ++ seq ns (nb - ns) ++ flat_map (fun _ => seq 0 nb) (seq 0 ec).

Definition lost_check (e : level) : bool :=
  match nth_error VERSION_DATA_BASE 21 with
  | Some ver =>
      match nth_error (vi_ecc ver) (Z.to_nat (level_bits e)) with
      | Some p =>
          let nb := num_blocks 21 e in
          let own := owner_rows nb (rs_ns p) (rs_dw p) (ecc_per_block 21 e) in
          let bad := marks 1156 0 v21_positions in
          Nat.eqb (length own) 1156 &&
          forallb (fun i => Nat.eqb (zip3 own bad i) (nth i (v21_lost e) O)
                            && (2 * (nth i (v21_lost e) O + (if (i <? rs_ns p)%nat then 0 else 1)) <=? ecc_per_block 21 e)%nat)
                  (seq 0 nb)
      | None => false
      end
  | None => false
  end.

Lemma lost_sweep : forallb lost_check levels = true.
Proof. vm_cast_no_check (eq_refl true). Qed.

Lemma lost_facts e : length (owners 21 e) = 1156%nat /\ forall i, (i < num_blocks 21 e)%nat ->
  zip3 (owners 21 e) v21_bad i = nth i (v21_lost e) O /\
  (2 * (nth i (v21_lost e) O + (if (i <? short_blocks 21 e)%nat then 0 else 1)) <= ecc_per_block 21 e)%nat.
Proof.
  pose proof lost_sweep as S. rewrite forallb_forall in S. specialize (S e (in_levels e)). unfold lost_check in S.
  destruct (db_params 21 e ltac:(lia)) as (ver & p & P).
  pose proof (po_ver _ _ _ _ P) as Hv. change (Z.to_nat 21) with 21%nat in Hv. rewrite Hv in S.
  rewrite (po_ecc _ _ _ _ P) in S. cbn zeta in S. rewrite (owners_rows _ _ _ _ P), <- (po_ns _ _ _ _ P), v21_bad_eq.
  unfold owner_rows in S. apply andb_true_iff in S. destruct S as [S1 S2]. split; [apply Nat.eqb_eq, S1|].
  intros i Hi. rewrite forallb_forall in S2. specialize (S2 i ltac:(apply in_seq; lia)).
  apply andb_true_iff in S2. destruct S2 as [S2 S3]. split; [apply Nat.eqb_eq, S2|apply Nat.leb_le, S3].
Qed.

Lemma total21 : total_codewords 21 = 1156%nat.
Proof. rewrite total_codewords_eq by lia. reflexivity. Qed.

(** Two readings of a symbol agree on the codewords all of whose modules agree. *)
Lemma received_changed (f : Z * Z -> bool) (a b : list (Z * Z)) t own i c :
  length a = length b -> (8 * t <= length a)%nat -> length own = t ->
  (distance (map snd (filter (fun p => Nat.eqb (fst p) i) (combine own (firstn t (group8 (S t) (map f a)))))) c
   <= distance (map snd (filter (fun p => Nat.eqb (fst p) i) (combine own (firstn t (group8 (S t) (map f b)))))) c
      + zip3 own (bad_groups t (combine a b)) i)%nat.
Proof.
  intros Hl Ht Ho.
  assert (L : forall l : list (Z * Z), length l = length a -> length (firstn t (group8 (S t) (map f l))) = length own).
  { intros l El. rewrite firstn_length, length_group8, map_length, El. lia. }
  apply distance_changed.
  - rewrite bad_groups_length. exact Ho.
  - apply L. congruence.
  - apply L. reflexivity.
  - intros j Hj Hb. apply bad_groups_good in Hb; [|exact Hl|lia].
    rewrite !nth_firstn by lia. rewrite !nth_group8 by (rewrite ?map_length; lia).
    rewrite !skipn_map, !firstn_map, Hb. reflexivity.
Qed.

(** What the library reads of a version 21 symbol, block by block. *)
Theorem received_v21 mask sym e i c : (i < num_blocks 21 e)%nat ->
  (distance (received_block 21 e (firstn (total_codewords 21) (group8 (S (total_codewords 21))
       (map (cell_bit true mask sym) (unreserved 21 (scan 101))))) i) c
   <= distance (received_block 21 e (received_codewords 21 mask sym) i) c + nth i (v21_lost e) O)%nat.
Proof.
  intros Hi. destruct (lost_facts e) as [Lo Hz]. destruct (Hz i Hi) as [<- _].
  pose proof v21_scan_length as La. apply Nat.eqb_eq in La.
  assert (Lb : length (data_modules 21) = (8 * 1156 + 4)%nat).
  { pose proof (data_modules_capacity 21 ltac:(lia)) as H. change (capacity 21) with (1156, 4) in H. cbn [fst snd] in H. lia. }
  rewrite total21.
  assert (E : received_codewords 21 mask sym
              = firstn 1156 (group8 (S 1156) (map (cell_bit true mask sym) (data_modules 21)))).
  { unfold received_codewords. rewrite total21. reflexivity. }
  rewrite E. unfold received_block, v21_bad. apply received_changed.
  - rewrite La, Lb. reflexivity.
  - rewrite La. apply Nat.le_add_r.
  - exact Lo.
Qed.

(** Every block of version 21 stays within its capacity. *)
Lemma lost_capacity e i : (i < num_blocks 21 e)%nat ->
  (2 * (nth i (v21_lost e) O + (if (i <? short_blocks 21 e)%nat then 0 else 1)) <= ecc_per_block 21 e)%nat.
Proof. intros Hi. apply (lost_facts e), Hi. Qed.

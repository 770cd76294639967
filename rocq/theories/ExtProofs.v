(** Decoding looks at the modules of the grid and at nothing else. *)
From Verif Require Import Base Lib ModelDecode.
From Coq Require Import ZifyBool.
Open Scope Z_scope.
Set Bullet Behavior "Strict Subproofs".

(** Two grids of the same size that answer alike for every module. *)
Definition same_modules (g g' : BitGrid) : Prop :=
  g_size g = g_size g' /\ forall y x, 0 <= y < g_size g -> 0 <= x < g_size g -> g_bit g y x = g_bit g' y x.

Section Same.
Context (g g' : BitGrid) (S : same_modules g g') (H9 : 9 <= g_size g).

Lemma read_cell_same meta rm y x ds : 0 <= y < g_size g -> 0 <= x < g_size g -> read_cell g meta rm y x ds = read_cell g' meta rm y x ds.
Proof using S H9. intros Hy Hx. unfold read_cell, read_bit. destruct S as [_ B]. rewrite (B y x Hy Hx). reflexivity. Qed.

Lemma read_loop_same meta rm fuel : forall y x neg ds, 0 <= y < g_size g -> x < g_size g ->
  read_data_loop fuel g meta rm y x neg ds = read_data_loop fuel g' meta rm y x neg ds.
Proof using S H9.
  destruct S as [Z0 B]. induction fuel as [|fuel IH]; intros y x neg ds Hy Hx; cbn [read_data_loop]; [reflexivity|].
  destruct (Z.ltb_spec 0 x) as [P|P]; [|reflexivity]. set (x' := if x =? 6 then x - 1 else x).
  assert (Hx' : 1 <= x' < g_size g) by (unfold x'; destruct (Z.eqb_spec x 6); lia).
  rewrite (read_cell_same meta rm y x' ds Hy) by lia. apply bind_ext. intros ds1 _.
  rewrite (read_cell_same meta rm y (x' - 1) ds1 Hy) by lia. apply bind_ext. intros ds2 _. rewrite <- Z0.
  destruct (Z.eqb_spec y 0), neg, (Z.eqb_spec y (g_size g - 1)); cbn [andb negb]; apply IH; lia.
Qed.

Lemma read_data_same meta rm : read_data g meta rm = read_data g' meta rm.
Proof using S H9.
  unfold read_data. destruct S as [Z0 B]. rewrite <- Z0. unfold usub. replace (1 <=? g_size g) with true by lia. cbn [bind]. apply read_loop_same; lia.
Qed.

Lemma read_format_same : read_format g = read_format g'.
Proof using S H9.
  destruct S as [Z0 B]. unfold read_format.
  assert (E1 : read_format_first g = read_format_first g').
  { unfold read_format_first. f_equal. apply for_each_ext. intros i f Hi. apply in_rev in Hi. unfold range in Hi. apply in_seq in Hi.
    assert (R : forall l, (length l = 15)%nat -> forallb (fun z => (0 <=? z) && (z <=? 8)) l = true -> exists z, aget (E := deqr_error) l i = Ok z /\ 0 <= z <= 8).
    { intros l Hl Hf. rewrite forallb_forall in Hf. destruct (nth_error l i) as [z|] eqn:En.
      - exists z. split; [unfold aget; rewrite En; reflexivity|]. specialize (Hf z (nth_error_In _ _ En)). lia.
      - apply nth_error_None in En. lia. }
    destruct (R YS eq_refl eq_refl) as (y & -> & Hy). destruct (R XS eq_refl eq_refl) as (x & -> & Hx). cbn [bind]. rewrite (B y x) by lia. reflexivity. }
  assert (E2 : read_format_second g = read_format_second g').
  { unfold read_format_second. rewrite <- Z0.
    rewrite (for_each_ext (zrange 0 7) _ (fun i format => let* s1 := usub (g_size g) 1 in let* y := usub s1 i in let* b := g_bit g' y 8 in Ok (push_format_bit format b))).
    - apply bind_ext. intros f _. f_equal. apply for_each_ext. intros i f' Hi. apply in_zrange in Hi. unfold usub. replace (8 <=? g_size g) with true by lia. cbn [bind]. rewrite (B 8 (g_size g - 8 + i)) by lia. reflexivity.
    - intros i f Hi. apply in_zrange in Hi. unfold usub. replace (1 <=? g_size g) with true by lia. cbn [bind]. replace (i <=? g_size g - 1) with true by lia. cbn [bind]. rewrite (B (g_size g - 1 - i) 8) by lia. reflexivity. }
  rewrite E1, E2, Z0. reflexivity.
Qed.

Lemma get_raw_same rm : get_raw g rm = get_raw g' rm.
Proof using S H9. unfold get_raw. rewrite read_format_same. apply bind_ext. intros meta _. rewrite read_data_same. reflexivity. Qed.

Lemma decode_inner_same : decode_inner g = decode_inner g'.
Proof using S H9. unfold decode_inner. rewrite get_raw_same. reflexivity. Qed.
End Same.

Lemma same_mirrored g g' : same_modules g g' -> same_modules (MirroredGrid g) (MirroredGrid g').
Proof. intros [Z0 B]. split; [exact Z0|]. cbn [g_size g_bit MirroredGrid]. intros y x Hy Hx. apply B; assumption. Qed.

Theorem decode_same g g' : same_modules g g' -> 9 <= g_size g ->
  (forall W (wr : W -> list Z -> W * bool) w, grid_decode_to wr g w = grid_decode_to wr g' w)
  /\ grid_decode g = grid_decode g' /\ grid_get_raw_data g = grid_get_raw_data g'.
Proof.
  intros S H9. assert (D : forall W (wr : W -> list Z -> W * bool) w, grid_decode_to wr g w = grid_decode_to wr g' w).
  { intros W wr w. unfold grid_decode_to, decode. rewrite (decode_inner_same g g' S H9), (decode_inner_same _ _ (same_mirrored g g' S) H9). reflexivity. }
  split; [exact D|]. split; [|apply get_raw_same; assumption]. unfold grid_decode. rewrite D. reflexivity.
Qed.

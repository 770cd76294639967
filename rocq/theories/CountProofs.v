(** Alignment pattern tables and the number of data modules of every version.  The counts are
    evaluated column by column; only the columns near an alignment pattern look at the table. *)
From Verif Require Import Base Lib SpecQR.
From Coq Require Import ZifyBool ZifyNat ZifyN.
Ltac Zify.zify_post_hook ::= Z.div_mod_to_equations.
Open Scope Z_scope.

(** * The tables *)
Definition near (p y : Z) : bool := Z.abs (p - y) <? 3.

Definition table_ok (v : Z) : bool :=
  let ps := alignment_positions v in
  let n := length ps in
  forallb (fun i => forallb (fun j => (Nat.eqb i j) || (5 <=? Z.abs (nth i ps 0 - nth j ps 0))) (seq 0 n)) (seq 0 n)
  && forallb (fun p => 0 <? p) ps
  && (if v =? 1 then Nat.eqb n 0
      else (2 <=? n)%nat && (nth 0 ps 0 =? 6) && (nth (n - 1) ps 0 =? symbol_size v - 7)).

Lemma table_sweep : forallb table_ok (zrange 1 41) = true.
Proof. vm_compute. reflexivity. Qed.

Record table_facts (v : Z) (ps : list Z) : Prop := {
  tf_spaced : forall i j, (i < length ps)%nat -> (j < length ps)%nat ->
    Z.abs (nth i ps 0 - nth j ps 0) <= 4 -> i = j;
  tf_pos : Forall (fun p => 0 < p) ps;
  tf_ends : ps = [] \/ (2 <= length ps)%nat /\ nth 0 ps 0 = 6 /\ nth (length ps - 1) ps 0 = symbol_size v - 7
}.

Lemma alignment_facts v : 1 <= v <= 40 -> table_facts v (alignment_positions v).
Proof.
  intros Hv. pose proof table_sweep as S. rewrite forallb_forall in S.
  specialize (S v (proj2 (in_zrange 1 41 v) ltac:(lia))). unfold table_ok in S. cbn zeta in S.
  set (ps := alignment_positions v) in *. rewrite !andb_true_iff in S. destruct S as [[S1 S2] S3]. constructor.
  - intros i j Hi Hj Hd. rewrite forallb_forall in S1. specialize (S1 i ltac:(apply in_seq; lia)).
    rewrite forallb_forall in S1. specialize (S1 j ltac:(apply in_seq; lia)). lia.
  - rewrite forallb_forall in S2. apply Forall_forall. intros p Hp. specialize (S2 p Hp). lia.
  - destruct (v =? 1); [left; destruct ps; [reflexivity|cbn in S3; lia]|right; lia].
Qed.

(** * Alignment modules *)
Definition corner (s cy cx : Z) : bool :=
  (cy =? 6) && (cx =? 6) || (cy =? 6) && (cx =? s - 7) || (cy =? s - 7) && (cx =? 6).

Lemma in_rect5 y x cy cx : in_rect y x (cy - 2) (cx - 2) 5 5 = near cy y && near cx x.
Proof. unfold in_rect, near. lia. Qed.

Lemma alignment_module_iff v y x : alignment_module v y x = true <->
  exists cy cx, In cy (alignment_positions v) /\ In cx (alignment_positions v) /\
    corner (symbol_size v) cy cx = false /\ near cy y = true /\ near cx x = true.
Proof.
  unfold alignment_module. cbn zeta. rewrite existsb_exists. split.
  - intros (cy & Hy & H). apply existsb_exists in H. destruct H as (cx & Hx & H).
    rewrite in_rect5 in H. unfold corner. exists cy, cx. rewrite !andb_true_iff, negb_true_iff in H. tauto.
  - intros (cy & cx & Hy & Hx & Hc & Ny & Nx). exists cy. split; [exact Hy|]. apply existsb_exists.
    exists cx. split; [exact Hx|]. rewrite in_rect5. unfold corner in Hc. rewrite Hc, Ny, Nx. reflexivity.
Qed.

(** * Counting *)
Definition col_test (v : Z) (x : Z) : Z -> bool :=
  let s := symbol_size v in
  let ps := alignment_positions v in
  let xs := filter (fun cx => near cx x) ps in
  let left8 := x <? 8 in
  let right8 := s - 8 <=? x in
  let timing := x =? 6 in
  let fx := (x <? 9) || (s - 8 <=? x) in
  let col8 := x =? 8 in
  let v7 := 7 <=? v in
  let vx := v7 && (s - 11 <=? x) && (x <? s - 8) in
  let vy := v7 && (x <? 6) in
  fun y =>
    (y <? 8) && (left8 || right8) || (s - 8 <=? y) && left8 ||
    timing || (y =? 6) ||
    (y =? 8) && fx || col8 && ((y <? 9) || (s - 8 <=? y)) ||
    vx && (y <? 6) || vy && (s - 11 <=? y) && (y <? s - 8) ||
    existsb (fun cx => existsb (fun cy => negb (corner s cy cx) && near cy y) ps) xs.

Lemma col_test_ok v y x : 0 <= y < symbol_size v -> 0 <= x < symbol_size v ->
  function_module v y x = col_test v x y.
Proof.
  intros Hy Hx. unfold function_module, col_test. cbn zeta.
  assert (A : alignment_module v y x =
    existsb (fun cx => existsb (fun cy => negb (corner (symbol_size v) cy cx) && near cy y) (alignment_positions v))
      (filter (fun cx => near cx x) (alignment_positions v))).
  { apply eq_true_iff_eq. rewrite alignment_module_iff, existsb_exists. split.
    - intros (cy & cx & Iy & Ix & Hc & Ny & Nx). exists cx. split; [apply filter_In; auto|].
      apply existsb_exists. exists cy. rewrite Hc, Ny. auto.
    - intros (cx & Ix & H). apply existsb_exists in H. destruct H as (cy & Iy & H).
      apply filter_In in Ix. rewrite andb_true_iff, negb_true_iff in H. exists cy, cx. tauto. }
  rewrite A. clear A. f_equal.
  unfold finder_module, timing_module, format_module, version_module, in_rect. cbn zeta.
  set (s := symbol_size v) in *. lia.
Qed.

Definition col_count (v s x : Z) : Z :=
  let t := col_test v x in fold_right (fun y acc => if t y then acc else 1 + acc) 0 (rows s).

Definition data_count (v : Z) : Z :=
  let s := symbol_size v in
  fold_right (fun k acc => let x := column_right s k in col_count v s x + col_count v s (x - 1) + acc) 0
    (seq 0 (Z.to_nat ((s - 1) / 2))).

Lemma in_rows' s y : In y (rows s) <-> 0 <= y < s.
Proof.
  unfold rows. rewrite in_map_iff. split.
  - intros (n & <- & H). apply in_seq in H. lia.
  - intros H. exists (Z.to_nat y). rewrite in_seq. lia.
Qed.

Lemma filter_length_app {A} (f : A -> bool) l1 l2 :
  length (filter f (l1 ++ l2)) = (length (filter f l1) + length (filter f l2))%nat.
Proof. rewrite filter_app, app_length. reflexivity. Qed.

Lemma col_pair_count v x l : 
  (forall y, In y l -> function_module v y x = col_test v x y /\ function_module v y (x - 1) = col_test v (x - 1) y) ->
  Z.of_nat (length (filter (fun p => negb (function_module v (fst p) (snd p))) (flat_map (fun y => [(y, x); (y, x - 1)]) l)))
  = fold_right (fun y acc => if col_test v x y then acc else 1 + acc) 0 l
    + fold_right (fun y acc => if col_test v (x - 1) y then acc else 1 + acc) 0 l.
Proof.
  induction l as [|y l IH]; intros H; [reflexivity|]. cbn [flat_map fold_right].
  rewrite filter_length_app. specialize (IH ltac:(intros y' Hy'; apply H; right; exact Hy')).
  destruct (H y (or_introl eq_refl)) as [E1 E2]. cbn [filter fst snd]. rewrite E1, E2.
  destruct (col_test v x y), (col_test v (x - 1) y); cbn [negb length]; lia.
Qed.

Lemma fold_right_count_rev v x l :
  fold_right (fun y acc => if col_test v x y then acc else 1 + acc) 0 (rev l)
  = fold_right (fun y acc => if col_test v x y then acc else 1 + acc) 0 l.
Proof.
  assert (G : forall l a, fold_right (fun y acc => if col_test v x y then acc else 1 + acc) a l
    = a + fold_right (fun y acc => if col_test v x y then acc else 1 + acc) 0 l).
  { clear. induction l as [|y l IH]; intros a; cbn [fold_right]; [lia|]. rewrite IH.
    destruct (col_test v x y); lia. }
  induction l as [|y l IH]; [reflexivity|]. cbn [rev fold_right]. rewrite fold_right_app. cbn [fold_right].
  rewrite G, IH. destruct (col_test v x y); lia.
Qed.

Theorem data_modules_count v : 1 <= v -> Z.of_nat (length (data_modules v)) = data_count v.
Proof.
  intros Hv. unfold data_modules, data_count, zigzag. cbn zeta. set (s := symbol_size v).
  assert (Hs : s = 17 + 4 * v) by reflexivity.
  assert (G : forall l, (forall k, In k l -> (k < Z.to_nat ((s - 1) / 2))%nat) ->
    Z.of_nat (length (filter (fun p => negb (function_module v (fst p) (snd p))) (flat_map (column_modules s) l)))
    = fold_right (fun k acc => col_count v s (column_right s k) + col_count v s (column_right s k - 1) + acc) 0 l).
  { induction l as [|k l IH]; intros Hl; [reflexivity|]. cbn [flat_map fold_right].
    rewrite filter_length_app, Nat2Z.inj_add. rewrite IH by (intros k' Hk'; apply Hl; right; exact Hk').
    f_equal. specialize (Hl k (or_introl eq_refl)). unfold column_modules. cbn zeta.
    rewrite col_pair_count.
    - unfold col_count. cbn zeta. destruct (Nat.even k); [rewrite !fold_right_count_rev|]; reflexivity.
    - intros y Hy. assert (Hy' : In y (rows s)) by (destruct (Nat.even k); [apply in_rev|]; exact Hy).
      apply in_rows' in Hy'.
      assert (Hc : 1 <= column_right s k < s) by (unfold column_right; destruct (_ <=? 6) eqn:E; lia).
      split; apply col_test_ok; fold s; lia. }
  apply G. intros k Hk. apply in_seq in Hk. lia.
Qed.

(** Table 1 of the standard: data modules (codewords and remainder bits). *)
Definition capacities : list (Z * Z) :=
  [(26, 0); (44, 7); (70, 7); (100, 7); (134, 7); (172, 7); (196, 0); (242, 0); (292, 0); (346, 0);
   (404, 0); (466, 0); (532, 0); (581, 3); (655, 3); (733, 3); (815, 3); (901, 3); (991, 3); (1085, 3);
   (1156, 4); (1258, 4); (1364, 4); (1474, 4); (1588, 4); (1706, 4); (1828, 4); (1921, 3); (2051, 3);
   (2185, 3); (2323, 3); (2465, 3); (2611, 3); (2761, 3); (2876, 0); (3034, 0); (3196, 0); (3362, 0);
   (3532, 0); (3706, 0)].
Definition capacity (v : Z) : Z * Z := nth (Z.to_nat (v - 1)) capacities (0, 0).

Lemma count_sweep :
  forallb (fun v => data_count v =? 8 * fst (capacity v) + snd (capacity v)) (zrange 1 41) = true.
Proof. vm_cast_no_check (eq_refl true). Qed.

Lemma remainder_sweep : forallb (fun c => existsb (Z.eqb (snd c)) [0; 3; 4; 7] && (0 <? fst c) && (fst c <? 8896 - 255)) capacities = true.
Proof. vm_compute. reflexivity. Qed.

Lemma capacity_facts v : 1 <= v <= 40 ->
  (snd (capacity v) = 0 \/ snd (capacity v) = 3 \/ snd (capacity v) = 4 \/ snd (capacity v) = 7) /\ 0 < fst (capacity v) < 8896 - 255.
Proof.
  intros Hv. pose proof remainder_sweep as S. rewrite forallb_forall in S.
  specialize (S (capacity v) ltac:(apply nth_In; change (length capacities) with 40%nat; lia)).
  rewrite !andb_true_iff in S. destruct S as [[S1 S2] S3]. cbn [existsb] in S1. lia.
Qed.

Theorem data_modules_capacity v : 1 <= v <= 40 ->
  Z.of_nat (length (data_modules v)) = 8 * fst (capacity v) + snd (capacity v).
Proof.
  intros Hv. rewrite data_modules_count by lia. pose proof count_sweep as S. rewrite forallb_forall in S.
  specialize (S v (proj2 (in_zrange 1 41 v) ltac:(lia))). cbn beta in S. lia.
Qed.

Theorem total_codewords_eq v : 1 <= v <= 40 -> total_codewords v = Z.to_nat (fst (capacity v)).
Proof.
  intros Hv. unfold total_codewords. pose proof (data_modules_capacity v Hv). pose proof (capacity_facts v Hv).
  lia.
Qed.

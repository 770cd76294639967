(** The fitness of a transform: a sum over the modules of the function patterns. *)
From Verif Require Import Base Lib VersionDb ModelDecode ModelImage ModelGeometry ModelDetect ModelIdentify SpecQR SpecPicture LayoutProofs.
Open Scope Z_scope.
Set Bullet Behavior "Strict Subproofs".

(** * Expected modules: (column, row, sign), sign 1 for dark and -1 for light *)

Definition planned : Type := Z * Z * Z.

Definition ring_plan (cx cy radius s : Z) : list planned :=
  flat_map (fun i => [(cx - radius + i, cy - radius, s); (cx - radius, cy + radius - i, s);
                      (cx + radius, cy - radius + i, s); (cx + radius - i, cy + radius, s)]) (zrange 0 (radius * 2)).

Definition apat_plan (cx cy : Z) : list planned := (cx, cy, 1) :: ring_plan cx cy 1 (-1) ++ ring_plan cx cy 2 1.

Definition cap_plan (x y : Z) : list planned :=
  (x + 3, y + 3, 1) :: ring_plan (x + 3) (y + 3) 1 1 ++ ring_plan (x + 3) (y + 3) 2 (-1) ++ ring_plan (x + 3) (y + 3) 3 1.

Definition plan (n : Z) (ps : list Z) : list planned :=
  flat_map (fun i => let e := if Z.odd i then 1 else -1 in [(i + 7, 6, e); (6, i + 7, e)]) (zrange 0 (n - 14))
  ++ cap_plan 0 0 ++ cap_plan (n - 7) 0 ++ cap_plan 0 (n - 7)
  ++ flat_map (fun i => apat_plan 6 (nth i ps 0) ++ apat_plan (nth i ps 0) 6) (range 1 (length ps - 1))
  ++ flat_map (fun i => flat_map (fun j => apat_plan (nth i ps 0) (nth j ps 0)) (range 1 (length ps))) (range 1 (length ps)).

Definition total (g : Z -> Z -> Z) (l : list planned) : Z :=
  fold_right (fun e acc => let '(x, y, s) := e in s * g x y + acc) 0 l.

Lemma total_app g l l' : total g (l ++ l') = total g l + total g l'.
Proof. induction l as [|[[x y] s] l IH]; cbn [app total fold_right]; [reflexivity|]. fold (total g). unfold total in *. rewrite IH. lia. Qed.

Lemma total_neg g cx cy r s : total g (ring_plan cx cy r (- s)) = - total g (ring_plan cx cy r s).
Proof.
  unfold ring_plan. induction (zrange 0 (r * 2)) as [|i l IH]; [reflexivity|]. cbn [flat_map]. rewrite !total_app, IH.
  cbn [total fold_right]. lia.
Qed.

(** Sums in loops. *)
Lemma for_sum {E I} (l : list I) (body : I -> Z -> res E Z) (f : I -> list planned) g :
  (forall i s, In i l -> body i s = Ok (s + total g (f i))) -> forall s, for_each l body s = Ok (s + total g (flat_map f l)).
Proof.
  induction l as [|i l IH]; intros H s; cbn [for_each flat_map].
  - cbn. f_equal. lia.
  - rewrite H by (left; reflexivity). cbn [bind]. rewrite IH by (intros; apply H; right; assumption). rewrite total_app. f_equal. lia.
Qed.

Section Score.
Context {T : Type} {N : Num T} (p : prepared) (c : perspective T) (n : Z) (g : Z -> Z -> Z).
Hypothesis Cells : forall x y, 0 <= x < n -> 0 <= y < n -> fitness_cell p c x y = Ok (g x y).

Definition within (cx cy r : Z) : Prop := 0 <= r /\ 0 <= cx - r /\ cx + r < n /\ 0 <= cy - r /\ cy + r < n.

Lemma ring_sum cx cy r : within cx cy r -> fitness_ring p c cx cy r = Ok (total g (ring_plan cx cy r 1)).
Proof.
  intros (R & A & B & C & D). unfold fitness_ring, ring_plan.
  rewrite (for_sum _ _ (fun i => [(cx - r + i, cy - r, 1); (cx - r, cy + r - i, 1); (cx + r, cy - r + i, 1); (cx + r - i, cy + r, 1)]) g); [reflexivity|].
  intros i s Hi. apply in_zrange in Hi. rewrite !Cells by lia. cbn [bind total fold_right]. f_equal. lia.
Qed.

Lemma apat_sum cx cy : within cx cy 2 -> fitness_apat p c cx cy = Ok (total g (apat_plan cx cy)).
Proof.
  intros (_ & A & B & C & D). unfold fitness_apat, apat_plan. rewrite Cells by lia.
  rewrite !ring_sum by (unfold within; lia). cbn [bind].
  change ((cx, cy, 1) :: ring_plan cx cy 1 (-1) ++ ring_plan cx cy 2 1) with ([(cx, cy, 1)] ++ ring_plan cx cy 1 (- (1)) ++ ring_plan cx cy 2 1).
  rewrite !total_app, total_neg. cbn [total fold_right]. f_equal. fold (total g). lia.
Qed.

Lemma cap_sum x y : 0 <= x -> x + 7 <= n -> 0 <= y -> y + 7 <= n -> fitness_capstone p c x y = Ok (total g (cap_plan x y)).
Proof.
  intros A B C D. unfold fitness_capstone, cap_plan. rewrite Cells by lia. rewrite !ring_sum by (unfold within; lia). cbn [bind].
  change ((x + 3, y + 3, 1) :: ?l) with ([(x + 3, y + 3, 1)] ++ l).
  change (ring_plan (x + 3) (y + 3) 2 (-1)) with (ring_plan (x + 3) (y + 3) 2 (- (1))).
  rewrite !total_app, total_neg. cbn [total fold_right]. f_equal. lia.
Qed.

Lemma apat_count_length l : apat_count l = length (take_nonzero l).
Proof. induction l as [|a l IH]; cbn; [reflexivity|]. destruct (a =? 0); cbn; [reflexivity|]. rewrite IH. reflexivity. Qed.

Lemma nth_take_nonzero l : forall i, (i < length (take_nonzero l))%nat -> aget (E := Empty_set) l i = Ok (nth i (take_nonzero l) 0).
Proof.
  induction l as [|a l IH]; cbn [take_nonzero]; intros i Hi; [cbn in Hi; lia|].
  destruct (a =? 0) eqn:E; [cbn in Hi; lia|]. destruct i; [reflexivity|]. cbn in *. apply IH. lia.
Qed.

Theorem fitness_sum v ver : n = 17 + 4 * v -> 0 <= v <= 40 -> nth_error VERSION_DATA_BASE (Z.to_nat v) = Some ver ->
  (forall a, In a (take_nonzero (vi_apat ver)) -> 6 <= a <= n - 7) ->
  fitness_all p c n = Ok (total g (plan n (take_nonzero (vi_apat ver)))).
Proof.
  intros Hn Hv Ev Hp. unfold fitness_all.
  assert (V : version_from_grid_size n = Ok v).
  { unfold version_from_grid_size, usub. destruct (Z.leb_spec 17 n); [|lia]. cbn [bind]. f_equal.
    replace (n - 17) with (v * 4) by lia. apply Z.div_mul. lia. }
  rewrite V. cbn [bind]. unfold aget at 1. rewrite Ev. cbn [bind].
  rewrite (for_sum _ _ (fun i => let e := if Z.odd i then 1 else -1 in [(i + 7, 6, e); (6, i + 7, e)]) g).
  2: { intros i s Hi. apply in_zrange in Hi. rewrite !Cells by lia. cbn [bind total fold_right]. f_equal. destruct (Z.odd i); lia. }
  cbn [bind]. rewrite !cap_sum by lia. cbn [bind]. rewrite apat_count_length.
  set (ps := take_nonzero (vi_apat ver)) in *.
  assert (Nth : forall i, (i < length ps)%nat -> 6 <= nth i ps 0 <= n - 7) by (intros i Hi; apply Hp; apply nth_In; exact Hi).
  rewrite (for_sum _ _ (fun i => apat_plan 6 (nth i ps 0) ++ apat_plan (nth i ps 0) 6) g).
  2: { intros i s Hi. apply in_range_iff in Hi. rewrite nth_take_nonzero by (fold ps; lia). fold ps. cbn [bind].
    pose proof (Nth i ltac:(lia)). rewrite !apat_sum by (unfold within; lia). cbn [bind]. rewrite total_app. f_equal. lia. }
  cbn [bind].
  rewrite (for_sum _ _ (fun i => flat_map (fun j => apat_plan (nth i ps 0) (nth j ps 0)) (range 1 (length ps))) g).
  2: { intros i s Hi. apply in_range_iff in Hi. rewrite nth_take_nonzero by (fold ps; lia). fold ps. cbn [bind].
    rewrite (for_sum _ _ (fun j => apat_plan (nth i ps 0) (nth j ps 0)) g); [reflexivity|].
    intros j s' Hj. apply in_range_iff in Hj. rewrite nth_take_nonzero by (fold ps; lia). fold ps. cbn [bind].
    pose proof (Nth i ltac:(lia)). pose proof (Nth j ltac:(lia)). rewrite apat_sum by (unfold within; lia). reflexivity. }
  unfold plan. rewrite !total_app. rewrite Z.add_0_l, <- !Z.add_assoc. reflexivity.
Qed.

End Score.

(** * The best possible score *)

Definition signed (l : list planned) : Prop := Forall (fun e => snd e = 1 \/ snd e = -1) l.

Lemma total_bound g l : signed l -> (forall x y s, In (x, y, s) l -> - 9 <= g x y <= 9) -> total g l <= 9 * Z.of_nat (length l).
Proof.
  intros Sg. induction Sg as [|[[x y] s] l Hs Sg IH]; intros H; cbn [total fold_right length]; [lia|].
  specialize (IH (fun x' y' s' Hin => H x' y' s' (or_intror Hin))). specialize (H x y s (or_introl eq_refl)).
  fold (total g l). cbn [snd] in Hs. destruct Hs as [-> | -> ]; lia.
Qed.

Lemma total_best g l : signed l -> (forall x y s, In (x, y, s) l -> g x y = 9 * s) -> total g l = 9 * Z.of_nat (length l).
Proof.
  intros Sg. induction Sg as [|[[x y] s] l Hs Sg IH]; intros H; cbn [total fold_right length]; [lia|].
  specialize (IH (fun x' y' s' Hin => H x' y' s' (or_intror Hin))). specialize (H x y s (or_introl eq_refl)).
  fold (total g l). cbn [snd] in Hs. rewrite H. destruct Hs as [-> | -> ]; lia.
Qed.

(** Which modules are expected dark and which light. *)
Lemma in_ring_plan cx cy r s x y s' : 0 <= r -> In (x, y, s') (ring_plan cx cy r s) -> s' = s /\ ring_no (y - cy) (x - cx) = r.
Proof.
  intros Hr H. unfold ring_plan in H. apply in_flat_map in H as (i & Hi & H). apply in_zrange in Hi. unfold ring_no.
  cbn [In] in H. destruct H as [H|[H|[H|[H|[]]]]]; injection H as <- <- <-; (split; [reflexivity|lia]).
Qed.

Lemma in_apat_plan cx cy x y s : In (x, y, s) (apat_plan cx cy) ->
  ring_no (y - cy) (x - cx) <= 2 /\ s = if align_dark (y - cy) (x - cx) then 1 else -1.
Proof.
  unfold apat_plan. intros [H|H].
  - injection H as <- <- <-. rewrite !Z.sub_diag. cbn. split; [lia|reflexivity].
  - apply in_app_iff in H as [H|H]; apply in_ring_plan in H as (-> & R); try lia; unfold align_dark; rewrite R; cbn; (split; [lia|reflexivity]).
Qed.

Lemma in_cap_plan x0 y0 x y s : In (x, y, s) (cap_plan x0 y0) ->
  ring_no (y - (y0 + 3)) (x - (x0 + 3)) <= 3 /\ s = if finder_dark (y - (y0 + 3)) (x - (x0 + 3)) then 1 else -1.
Proof.
  unfold cap_plan. intros [H|H].
  - injection H as <- <- <-. rewrite !Z.sub_diag. cbn. split; [lia|reflexivity].
  - rewrite !in_app_iff in H. destruct H as [H|[H|H]]; apply in_ring_plan in H as (-> & R); try lia; unfold finder_dark; rewrite R; cbn; (split; [lia|reflexivity]).
Qed.

(** Every expected module of a symbol with the right function patterns has the expected colour. *)
Lemma positions_shape v : 1 <= v <= 40 -> alignment_positions v = [] \/ (exists mid, alignment_positions v = 6 :: mid ++ [symbol_size v - 7] /\ Forall (fun a => 6 < a < symbol_size v - 7) mid /\ v <> 1).
Proof.
  intros Hv.
  set (ok := fun v => match alignment_positions v with
    | [] => true
    | a :: t => match rev t with [] => false | z :: r => (a =? 6) && (z =? symbol_size v - 7) && negb (v =? 1) && forallb (fun b => (6 <? b) && (b <? symbol_size v - 7)) r end end).
  assert (S : forallb ok (zrange 1 41) = true) by (vm_compute; reflexivity).
  rewrite forallb_forall in S. specialize (S v ltac:(apply in_zrange; lia)). unfold ok in S.
  destruct (alignment_positions v) as [|a t]; [left; reflexivity|right].
  destruct (rev t) as [|z r] eqn:E; [discriminate|]. apply (f_equal (@rev Z)) in E. rewrite rev_involutive in E. cbn in E.
  rewrite !andb_true_iff in S. destruct S as (((A & B) & C) & D). apply Z.eqb_eq in A, B. subst a z.
  exists (rev r). rewrite E. split; [reflexivity|]. split.
  - apply Forall_forall. intros b Hb. rewrite <- in_rev in Hb. rewrite forallb_forall in D. specialize (D b Hb). lia.
  - lia.
Qed.

Lemma plan_expected v sym : 1 <= v <= 40 -> function_patterns v sym -> forall x y s,
  In (x, y, s) (plan (symbol_size v) (alignment_positions v)) ->
  0 <= x < symbol_size v /\ 0 <= y < symbol_size v /\ pattern_module v y x /\ s = if sym y x then 1 else -1.
Proof.
  intros Hv [Ff Fs Ft Fa] x y s H. set (n := symbol_size v) in *. assert (Hn : n = 17 + 4 * v) by reflexivity.
  unfold plan in H. rewrite !in_app_iff in H.
  assert (Fin : forall x0 y0, In (y0 + 3, x0 + 3) (finder_centres v) -> 0 <= x0 -> x0 + 7 <= n -> 0 <= y0 -> y0 + 7 <= n ->
     In (x, y, s) (cap_plan x0 y0) -> 0 <= x < n /\ 0 <= y < n /\ pattern_module v y x /\ s = if sym y x then 1 else -1).
  { intros x0 y0 C X1 X2 Y1 Y2 Hin. apply in_cap_plan in Hin as (R & ->).
    assert (Md : pattern_module v y x) by (left; exists (y0 + 3), (x0 + 3); split; [exact C|lia]). specialize (Ff _ _ _ _ C R).
    replace (y0 + 3 + (y - (y0 + 3))) with y in Ff by ring. replace (x0 + 3 + (x - (x0 + 3))) with x in Ff by ring. rewrite Ff.
    unfold ring_no in R. split; [lia|]. split; [lia|]. split; [exact Md|reflexivity]. }
  destruct H as [H|[H|[H|[H|[H|H]]]]].
  - apply in_flat_map in H as (i & Hi & H). apply in_zrange in Hi. cbn zeta in H.
    assert (E : sym 6 (i + 7) = Z.odd i /\ sym (i + 7) 6 = Z.odd i).
    { assert (Od : Z.odd i = Z.even (i + 7)) by (rewrite Z.even_add; cbn; rewrite <- Z.negb_odd; destruct (Z.odd i); reflexivity).
      destruct (Z.eq_dec i 0) as [->|N0].
      - cbn. split.
        + apply (Fs 3 3 3 4); [left; reflexivity|reflexivity|lia|lia].
        + apply (Fs 3 3 4 3); [left; reflexivity|reflexivity|lia|lia].
      - destruct (Z.eq_dec i (n - 15)) as [->|N1].
        + assert (Ev : Z.odd (n - 15) = false) by (rewrite Hn; replace (17 + 4 * v - 15) with (2 * (2 * v + 1)) by ring; rewrite Z.odd_mul; reflexivity).
          rewrite Ev. replace (n - 15 + 7) with (n - 4 + -4) by ring. split.
          * apply (Fs 3 (n - 4) 3 (-4)); [right; left; reflexivity|reflexivity|lia|lia].
          * apply (Fs (n - 4) 3 (-4) 3); [right; right; left; reflexivity|reflexivity|lia|lia].
        + rewrite Od. apply Ft. lia. }
    destruct E as (E1 & E2). cbn [In] in H. destruct H as [H|[H|[]]]; injection H as <- <- <-; rewrite ?E1, ?E2; (split; [lia|]; split; [lia|]; split; [right; tauto|reflexivity]).
  - apply (Fin 0 0); try lia; [left; reflexivity|assumption].
  - apply (Fin (n - 7) 0); try lia; [|assumption]. right; left. f_equal. unfold n. lia.
  - apply (Fin 0 (n - 7)); try lia; [|assumption]. right; right; left. f_equal. unfold n. lia.
  - apply in_flat_map in H as (i & Hi & H). apply in_range_iff in Hi.
    destruct (positions_shape v Hv) as [E|(mid & E & Fm & V1)]; rewrite E in *; [cbn in Hi; lia|].
    cbn [length] in Hi. rewrite app_length in Hi. cbn [length] in Hi.
    destruct i as [|i]; [lia|]. cbn [nth] in H. rewrite app_nth1 in H by lia. set (a := nth i mid 0) in *.
    assert (Ha : In a mid) by (apply nth_In; lia). rewrite Forall_forall in Fm. specialize (Fm a Ha). fold n in Fm.
    assert (In6 : In 6 (alignment_positions v)) by (rewrite E; left; reflexivity).
    assert (InA : In a (alignment_positions v)) by (rewrite E; right; apply in_or_app; left; assumption).
    apply in_app_iff in H as [H|H]; apply in_apat_plan in H as (R & ->).
    + assert (Md : pattern_module v y x) by (right; right; right; exists a, 6; split; [repeat split; try assumption; fold n; lia|exact R]).
      specialize (Fa a 6 (y - a) (x - 6) ltac:(repeat split; try assumption; fold n; lia) R).
      replace (a + (y - a)) with y in Fa by ring. replace (6 + (x - 6)) with x in Fa by ring. rewrite Fa.
      unfold ring_no in R. split; [lia|]. split; [lia|]. split; [exact Md|reflexivity].
    + assert (Md : pattern_module v y x) by (right; right; right; exists 6, a; split; [repeat split; try assumption; fold n; lia|exact R]).
      specialize (Fa 6 a (y - 6) (x - a) ltac:(repeat split; try assumption; fold n; lia) R).
      replace (a + (x - a)) with x in Fa by ring. replace (6 + (y - 6)) with y in Fa by ring. rewrite Fa.
      unfold ring_no in R. split; [lia|]. split; [lia|]. split; [exact Md|reflexivity].
  - apply in_flat_map in H as (i & Hi & H). apply in_flat_map in H as (j & Hj & H). apply in_range_iff in Hi, Hj.
    destruct (positions_shape v Hv) as [E|(mid & E & Fm & V1)]; rewrite E in *; [cbn in Hi; lia|].
    cbn [length] in Hi, Hj. destruct i as [|i]; [lia|]. destruct j as [|j]; [lia|]. cbn [nth] in H.
    set (l := mid ++ [symbol_size v - 7]) in *. set (a := nth i l 0) in *. set (b := nth j l 0) in *.
    assert (Rl : forall k, In k l -> 6 < k <= n - 7).
    { intros k Hk. apply in_app_iff in Hk as [Hk|[<-|[]]]; [rewrite Forall_forall in Fm; specialize (Fm k Hk); fold n in Fm; lia|].
      fold n. lia. }
    assert (Ia : In a l) by (apply nth_In; lia). assert (Ib : In b l) by (apply nth_In; lia).
    pose proof (Rl a Ia). pose proof (Rl b Ib).
    apply in_apat_plan in H as (R & ->).
    assert (A1 : In a (alignment_positions v)) by (rewrite E; right; assumption).
    assert (B1 : In b (alignment_positions v)) by (rewrite E; right; assumption).
    assert (Md : pattern_module v y x) by (right; right; right; exists b, a; split; [repeat split; try assumption; fold n; lia|exact R]).
    specialize (Fa b a (y - b) (x - a) ltac:(repeat split; try assumption; fold n; lia) R).
    replace (a + (x - a)) with x in Fa by ring. replace (b + (y - b)) with y in Fa by ring. rewrite Fa.
    unfold ring_no in R. split; [lia|]. split; [lia|]. split; [exact Md|reflexivity].
Qed.

Lemma plan_signed n ps : signed (plan n ps).
Proof.
  apply Forall_forall. intros [[x y] s] H. cbn [snd]. unfold plan in H. rewrite !in_app_iff in H.
  assert (A : forall cx cy, In (x, y, s) (apat_plan cx cy) -> s = 1 \/ s = -1).
  { intros cx cy Hin. apply in_apat_plan in Hin as (_ & ->). destruct (align_dark _ _); auto. }
  assert (C : forall cx cy, In (x, y, s) (cap_plan cx cy) -> s = 1 \/ s = -1).
  { intros cx cy Hin. apply in_cap_plan in Hin as (_ & ->). destruct (finder_dark _ _); auto. }
  destruct H as [H|[H|[H|[H|[H|H]]]]]; try (eapply C; eassumption).
  - apply in_flat_map in H as (i & _ & H). cbn zeta in H. cbn [In] in H. destruct H as [H|[H|[]]]; injection H as _ _ <-; destruct (Z.odd i); auto.
  - apply in_flat_map in H as (i & _ & H). apply in_app_iff in H as [H|H]; eapply A; eassumption.
  - apply in_flat_map in H as (i & _ & H). apply in_flat_map in H as (j & _ & H). eapply A; eassumption.
Qed.

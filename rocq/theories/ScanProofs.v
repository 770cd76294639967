(** The line scanner (C32). *)
From Verif Require Import Base Lib ModelImage ModelGeometry ModelDetect SpecImage SpecScan.
From Coq Require Import ZifyBool ZifyNat ZifyN.
Ltac Zify.zify_post_hook ::= Z.div_mod_to_equations.

Lemma color_eqb_ok a b : color_eqb a b = true <-> a = b.
Proof.
  destruct a, b; cbn; split; intros H; try reflexivity; try discriminate.
  - f_equal. lia.
  - injection H as ->. apply Z.eqb_refl.
Qed.

Lemma color_eqb_neq a b : color_eqb a b = false <-> a <> b.
Proof. rewrite <- not_true_iff_false, color_eqb_ok. reflexivity. Qed.

Lemma is_white_ok c : is_white c = true <-> c = White.
Proof. unfold is_white. rewrite color_eqb_ok. split; congruence. Qed.

(** The last five elements, padded with zeros. *)
Definition last5 (d : list Z) : list Z := skipn (length d) ([0; 0; 0; 0; 0] ++ d).

Lemma skipn_tl {A} n (l : list A) : skipn (S n) l = tl (skipn n l).
Proof. revert l. induction n as [|n IH]; intros [|a l]; try reflexivity. cbn [skipn]. apply IH. Qed.

Lemma last5_snoc d n : last5 (d ++ [n]) = tl (last5 d) ++ [n].
Proof.
  unfold last5. rewrite app_length. cbn [length]. rewrite Nat.add_1_r, skipn_tl.
  rewrite app_assoc, skipn_app.
  replace (length d - length ([0; 0; 0; 0; 0]%Z ++ d))%nat with 0%nat by (rewrite app_length; cbn [length]; lia).
  cbn [skipn]. remember (skipn (length d) ([0; 0; 0; 0; 0] ++ d)) as t eqn:E. destruct t as [|a t]; [|reflexivity].
  exfalso. assert (L : length (skipn (length d) ([0; 0; 0; 0; 0]%Z ++ d)) = 0%nat) by (rewrite <- E; reflexivity).
  rewrite skipn_length, app_length in L. cbn [length] in L. lia.
Qed.

Lemma split5 {A} (l : list A) : (5 <= length l)%nat -> exists pre a b c d e, l = pre ++ [a; b; c; d; e].
Proof.
  intros H. exists (firstn (length l - 5) l).
  pose proof (firstn_skipn (length l - 5) l) as E. pose proof (skipn_length (length l - 5) l) as L.
  destruct (skipn (length l - 5) l) as [|a [|b [|c [|d [|e [|f t]]]]]]; cbn [length] in L; try lia.
  exists a, b, c, d, e. symmetry. exact E.
Qed.

Lemma last5_app pre a b c d e : last5 (pre ++ [a; b; c; d; e]) = [a; b; c; d; e].
Proof.
  unfold last5. rewrite skipn_app, app_length. cbn [length].
  replace (length pre + 5 - 5)%nat with (length pre) by lia.
  rewrite skipn_all2 by (cbn [length]; lia). cbn [app]. rewrite skipn_app, skipn_all, Nat.sub_diag. reflexivity.
Qed.

(** What the scanner remembers about the colours seen so far. *)
Definition scanned (l : list color) (s : scanner) : Prop :=
  exists prev k n, runs color_eqb l = prev ++ [(k, n)]
    /\ s = MkScanner (last5 (map snd prev)) k n (Z.of_nat (length prev)) (Z.of_nat (length l) - 1).

Lemma scanned_new c : scanned [c] (scan_new c).
Proof. exists [], c, 1. split; reflexivity. Qed.

Lemma check_ok m e l : 0 <= e <= m -> (forall c n, In (c, n) l -> 1 <= c) ->
  exists b, check_runs m e l = Ok b /\ (b = true <-> forall c n, In (c, n) l -> Z.abs (n - c * m) <= e).
Proof.
  intros He. induction l as [|[c n] l IH]; intros Hc.
  - exists true. split; [reflexivity|]. split; [contradiction|reflexivity].
  - cbn [check_runs]. assert (Hc1 : 1 <= c) by (apply (Hc c n); left; reflexivity).
    unfold usub. replace (e <=? c * m) with true by nia. cbn [bind].
    destruct ((n <? c * m - e) || (c * m + e <? n)) eqn:E.
    + exists false. split; [reflexivity|]. split; [discriminate|]. intros H. specialize (H c n (or_introl eq_refl)). lia.
    + destruct IH as (b & Hb & Hi). { intros c' n' H'. apply (Hc c' n'). right. assumption. }
      exists b. split; [exact Hb|]. rewrite Hi. split; intros H c' n' H'.
      * destruct H' as [[= <- <-]|H']; [lia|apply H; assumption].
      * apply H. right. assumption.
Qed.

Lemma test_ok n1 n2 n3 n4 n5 run ch pos : 5 <= ch -> 1 <= n1 -> 1 <= n2 -> 1 <= n3 -> 1 <= n4 -> 1 <= n5 ->
  exists b, test_for_capstone (MkScanner [n1; n2; n3; n4; n5] White run ch pos) = Ok b
    /\ (b = true <-> finder_ratio n1 n2 n3 n4 n5).
Proof.
  intros Hc H1 H2 H3 H4 H5. unfold test_for_capstone. cbn [s_last s_changes s_buf].
  replace (is_white White && (5 <=? ch)) with true by (cbn; lia).
  cbn [aget nth_error bind combine]. set (m := (n1 + n2 + n4 + n5) / 4). set (e := m * 3 / 4).
  destruct (check_ok m e [(1, n1); (1, n2); (3, n3); (1, n4); (1, n5)]) as (b & Hb & Hi).
  - unfold e, m. lia.
  - intros c n H. cbn in H. repeat (destruct H as [[= <- <-]|H]; [lia|]). contradiction.
  - exists b. split; [exact Hb|]. rewrite Hi. unfold finder_ratio. fold m. fold e. split.
    + intros H. rewrite <- (Z.mul_1_l m) at 1 2 4 5. repeat split; apply H; cbn; tauto.
    + intros (A1 & A2 & A3 & A4 & A5) c n H. cbn in H.
      repeat (destruct H as [[= <- <-]|H]; [rewrite ?Z.mul_1_l; assumption|]). contradiction.
Qed.

(** When the next colour completes a finder pattern. *)
Definition completes (l : list color) (c : color) (o : linepos) : Prop :=
  c = White /\ exists pre k1 n1 k2 n2 k3 n3 k4 n4 k5 n5,
    runs color_eqb l = pre ++ [(k1, n1); (k2, n2); (k3, n3); (k4, n4); (k5, n5)]
    /\ k5 <> White /\ finder_ratio n1 n2 n3 n4 n5
    /\ o = MkLine (width pre) (width pre + n1 + n2) (width pre + n1 + n2 + n3 + n4).

Lemma width_pos l pre post : runs color_eqb l = pre ++ post -> 0 <= width pre.
Proof.
  intros H. assert (F : forall r, In r pre -> 1 <= snd r).
  { intros r Hr. apply (runs_pos color_eqb l). rewrite H. apply in_or_app. left. assumption. }
  clear H. induction pre as [|r p IHp]; cbn [width fold_right]; [lia|].
  specialize (IHp (fun r' H' => F r' (or_intror H'))). specialize (F r (or_introl eq_refl)). unfold width in *. lia.
Qed.

Lemma advance_ok l s c : scanned l s ->
  exists o s', advance s c = Ok (o, s') /\ scanned (l ++ [c]) s'
    /\ forall p, o = Some p <-> completes l c p.
Proof.
  intros (prev & k & n & Er & ->).
  assert (Nl : l <> []) by (intros ->; cbn in Er; destruct prev; discriminate).
  destruct (runs_snoc color_eqb color_eqb_ok l c Nl) as (pre & k' & n' & Er' & En).
  rewrite Er in Er'. apply app_inj_tail in Er'. destruct Er' as [<- [= <- <-]].
  unfold advance. cbn [s_last s_pos s_buf s_run s_changes].
  destruct (color_eqb k c) eqn:Ek.
  - eexists None, _. split; [reflexivity|]. split.
    + exists prev, k, (n + 1). split; [exact En|]. f_equal. rewrite app_length. cbn [length]. lia.
    + intros p. split; [discriminate|]. intros (Ec & pre & k1 & n1 & k2 & n2 & k3 & n3 & k4 & n4 & k5 & n5 & E & N5 & _).
      exfalso. apply color_eqb_ok in Ek. rewrite Er in E.
      change [(k1, n1); (k2, n2); (k3, n3); (k4, n4); (k5, n5)] with ([(k1, n1); (k2, n2); (k3, n3); (k4, n4)] ++ [(k5, n5)]) in E.
      rewrite app_assoc in E. apply app_inj_tail in E. destruct E as [_ [= -> ->]]. congruence.
  - rewrite <- last5_snoc. change [n] with (map (@snd color Z) [(k, n)]). rewrite <- map_app, <- Er.
    set (R := runs color_eqb l) in *.
    assert (Hs : scanned (l ++ [c]) (MkScanner (last5 (map snd R)) c 1 (Z.of_nat (length prev) + 1) (Z.of_nat (length l) - 1 + 1))).
    { exists R, c, 1. split.
      - rewrite En, Er. rewrite <- app_assoc. reflexivity.
      - f_equal; [rewrite Er, app_length; cbn [length]; lia|rewrite app_length; cbn [length]; lia]. }
    assert (LR : Z.of_nat (length R) = Z.of_nat (length prev) + 1) by (rewrite Er, app_length; cbn [length]; lia).
    pose proof (runs_width color_eqb l) as WR. fold R in WR.
    destruct (color_eqb White c && (5 <=? Z.of_nat (length R))) eqn:Et.
    + apply andb_true_iff in Et. destruct Et as [Et1 Et2]. apply color_eqb_ok in Et1. subst c.
      destruct (split5 R ltac:(lia)) as (pre & [k1 n1] & [k2 n2] & [k3 n3] & [k4 n4] & [k5 n5] & E5).
      assert (P : forall r, In r R -> 1 <= snd r) by apply runs_pos.
      assert (In5 : forall r, In r [(k1, n1); (k2, n2); (k3, n3); (k4, n4); (k5, n5)] -> In r R) by (intros r H; rewrite E5; apply in_or_app; right; assumption).
      assert (P1 : 1 <= n1) by (apply (P (k1, n1)), In5; cbn; tauto).
      assert (P2 : 1 <= n2) by (apply (P (k2, n2)), In5; cbn; tauto).
      assert (P3 : 1 <= n3) by (apply (P (k3, n3)), In5; cbn; tauto).
      assert (P4 : 1 <= n4) by (apply (P (k4, n4)), In5; cbn; tauto).
      assert (P5 : 1 <= n5) by (apply (P (k5, n5)), In5; cbn; tauto).
      pose proof (width_pos l pre _ E5) as Wp.
      rewrite E5 in WR. rewrite width_app in WR. cbn [width fold_right snd] in WR.
      assert (Eb : last5 (map snd R) = [n1; n2; n3; n4; n5]) by (rewrite E5, map_app; apply last5_app).
      rewrite Eb in *.
      destruct (test_ok n1 n2 n3 n4 n5 1 (Z.of_nat (length prev) + 1) (Z.of_nat (length l) - 1 + 1)) as (b & Hb & Hi); try assumption; try lia.
      rewrite Hb. cbn [bind].
      assert (Kk : (k5, n5) = (k, n)).
      { rewrite E5 in Er. change [(k1, n1); (k2, n2); (k3, n3); (k4, n4); (k5, n5)] with ([(k1, n1); (k2, n2); (k3, n3); (k4, n4)] ++ [(k5, n5)]) in Er.
        rewrite app_assoc in Er. apply app_inj_tail in Er. apply Er. }
      injection Kk as -> ->. apply color_eqb_neq in Ek.
      assert (U : forall q, completes l White q <-> finder_ratio n1 n2 n3 n4 n
                 /\ q = MkLine (width pre) (width pre + n1 + n2) (width pre + n1 + n2 + n3 + n4)).
      { intros q. split.
        - intros (_ & pre' & a1 & m1 & a2 & m2 & a3 & m3 & a4 & m4 & a5 & m5 & E' & _ & F' & Q').
          fold R in E'. rewrite E5 in E'.
          assert (L : length pre = length pre') by (apply (f_equal (@length _)) in E'; rewrite !app_length in E'; cbn [length] in E'; lia).
          pose proof (f_equal (firstn (length pre)) E') as F1. rewrite L in F1 at 2.
          rewrite !firstn_app, !firstn_all, !Nat.sub_diag in F1. cbn [firstn] in F1. rewrite !app_nil_r in F1. subst pre'.
          apply app_inv_head in E'. injection E' as -> -> -> -> -> -> -> -> -> ->. split; assumption.
        - intros [F ->]. split; [reflexivity|]. exists pre, k1, n1, k2, n2, k3, n3, k4, n4, k, n.
          split; [exact E5|]. split; [exact Ek|]. split; [exact F|reflexivity]. }
      destruct b.
      * unfold usub. cbn [list_sum fold_right skipn aget nth_error].
        replace (n1 + (n2 + (n3 + (n4 + (n + 0)))) <=? Z.of_nat (length l) - 1 + 1) with true by lia. cbn [bind].
        replace (n3 + (n4 + (n + 0)) <=? Z.of_nat (length l) - 1 + 1) with true by lia. cbn [bind].
        replace (n <=? Z.of_nat (length l) - 1 + 1) with true by lia. cbn [bind].
        eexists (Some _), _. split; [reflexivity|]. split; [exact Hs|]. intros p. rewrite U. split.
        -- intros [= <-]. split; [apply Hi; reflexivity|]. f_equal; lia.
        -- intros [_ ->]. do 2 f_equal; lia.
      * eexists None, _. split; [reflexivity|]. split; [exact Hs|]. intros p. rewrite U. split; [discriminate|].
        intros [F _]. apply Hi in F. discriminate.
    + unfold test_for_capstone at 1. cbn [s_last s_changes]. rewrite LR in Et.
      unfold is_white. rewrite Et. cbn [bind].
      eexists None, _. split; [reflexivity|]. split; [exact Hs|].
      intros p. split; [discriminate|]. intros (-> & pre & k1 & n1 & k2 & n2 & k3 & n3 & k4 & n4 & k5 & n5 & E & _).
      exfalso. fold R in E. rewrite E, app_length in LR. cbn [length] in LR. cbn in Et. lia.
Qed.

(** Feeding a whole row. *)
Fixpoint feed (s : scanner) (l : list color) : out (list (option linepos) * scanner) :=
  match l with
  | [] => Ok ([], s)
  | c :: t =>
      let* r := advance s c in
      let* q := feed (snd r) t in
      Ok (fst r :: fst q, snd q)
  end.

Lemma feed_ok l : forall seen s, scanned seen s ->
  exists os s', feed s l = Ok (os, s') /\ scanned (seen ++ l) s' /\ length os = length l
    /\ forall i p, (i < length l)%nat -> nth i os None = Some p <-> completes (seen ++ firstn i l) (nth i l White) p.
Proof.
  induction l as [|c l IH]; intros seen s H.
  - exists [], s. rewrite app_nil_r. cbn [feed length]. repeat split; try assumption; lia.
  - destruct (advance_ok seen s c H) as (o & s1 & E1 & S1 & O1).
    destruct (IH (seen ++ [c]) s1 S1) as (os & s2 & E2 & S2 & L2 & O2).
    exists (o :: os), s2. cbn [feed]. rewrite E1. cbn [bind snd fst]. rewrite E2. cbn [bind snd fst].
    split; [reflexivity|]. split; [rewrite <- app_assoc in S2; exact S2|]. split; [cbn [length]; lia|].
    intros [|i] p Hi; cbn [nth firstn].
    + rewrite app_nil_r. apply O1.
    + cbn [length] in Hi. rewrite O2 by lia. rewrite <- app_assoc. reflexivity.
Qed.

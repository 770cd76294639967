(** Preparation of images: thresholding and bitmaps (C27, C28). *)
From Verif Require Import Base Lib ModelImage SpecImage FloodProofs RegionProofs.
From Coq Require Import ZifyBool ZifyNat ZifyN.
Ltac Zify.zify_post_hook ::= Z.div_mod_to_equations.

(** * One row of thresholding *)

Lemma decay_bound a p M ts : 1 <= ts -> 0 <= M -> 0 <= a <= M * ts -> 0 <= p <= M ->
  0 <= a * (ts - 1) / ts + p <= M * ts /\ 0 <= a * (ts - 1) <= M * ts * ts.
Proof.
  intros Hts HM Ha Hp.
  assert (H1 : 0 <= a * (ts - 1) <= M * (ts - 1) * ts) by nia.
  assert (H2 : 0 <= a * (ts - 1) / ts) by (apply Z.div_pos; lia).
  assert (H3 : a * (ts - 1) / ts <= M * (ts - 1)).
  { apply Z.le_trans with (M * (ts - 1) * ts / ts); [apply Z.div_le_mono; lia|]. rewrite Z.div_mul by lia. lia. }
  split; nia.
Qed.

Lemma usz_ok z : z <= usize_max -> usz z = Ok z.
Proof. intros H. unfold usz. replace (z <=? usize_max) with true by lia. reflexivity. Qed.

Lemma cap_bound M ts : 0 <= M <= 255 -> 1 <= ts <= 2 ^ 28 ->
  M * ts * ts <= usize_max /\ M * ts <= 255 * ts /\ 510 * ts * 95 <= usize_max /\ 200 * ts <= usize_max.
Proof.
  intros HM Ht. change (2 ^ 28) with 268435456 in Ht. unfold usize_max.
  assert (M * ts <= 255 * ts) by nia. assert (M * ts * ts <= 255 * ts * ts) by nia.
  assert (255 * ts * ts <= 255 * 268435456 * 268435456) by nia. lia.
Qed.

Definition row_bounded (im : image) (y M : Z) : Prop :=
  forall x, 0 <= x < im_w im -> 0 <= pix im (x, y) <= M.

Definition touched (w y x i : Z) : Z :=
  (if w - 1 - i <? x then 1 else 0) + (if i <? x then 1 else 0).

Definition row_state (w y B x : Z) (s : list Z * Z * Z) : Prop :=
  let '(ra, av, au) := s in
  Z.of_nat (length ra) = w /\ 0 <= av <= B /\ 0 <= au <= B
  /\ forall i, 0 <= i < w -> 0 <= nth (Z.to_nat i) ra 0 <= B * touched w y x i.

Lemma average_step_ok im ts y M x s : wf_image im -> 0 <= y < im_h im -> row_bounded im y M ->
  0 <= M <= 255 -> 1 <= ts <= 2 ^ 28 -> 0 <= x < im_w im ->
  row_state (im_w im) y (M * ts) x s ->
  exists s', average_step im ts y x s = Ok s' /\ row_state (im_w im) y (M * ts) (x + 1) s'.
Proof.
  intros W Hy Hr HM Ht Hx. destruct s as [[ra av] au]. intros (L & Hv & Hu & Hra).
  destruct (cap_bound M ts HM Ht) as (C1 & C2 & C3 & C4).
  unfold average_step. set (w := im_w im) in *.
  unfold usub at 1. replace (1 <=? w) with true by lia. cbn [bind].
  unfold usub at 1. replace (x <=? w - 1) with true by lia. cbn [bind].
  assert (G : forall v u, (v = w - 1 - x /\ u = x) \/ (v = x /\ u = w - 1 - x) ->
     exists s', (let* mv := usz (av * (ts - 1)) in
       let* pv := get_pixel im v y in
       let* avg_v := usz (mv / ts + pv) in
       let* mu := usz (au * (ts - 1)) in
       let* pu := get_pixel im u y in
       let* avg_u := usz (mu / ts + pu) in
       let* cv := aget ra (Z.to_nat v) in
       let* nv := usz (cv + avg_v) in
       let* ra := aset ra (Z.to_nat v) nv in
       let* cu := aget ra (Z.to_nat u) in
       let* nu := usz (cu + avg_u) in
       let* ra := aset ra (Z.to_nat u) nu in
       Ok (ra, avg_v, avg_u)) = Ok s' /\ row_state w y (M * ts) (x + 1) s').
  { intros v u Hvu. assert (Bv : 0 <= v < w) by lia. assert (Bu : 0 <= u < w) by lia.
    pose proof (Hr v Bv) as Pv. pose proof (Hr u Bu) as Pu.
    destruct (decay_bound av (pix im (v, y)) M ts) as [D1 D2]; try lia.
    destruct (decay_bound au (pix im (u, y)) M ts) as [D3 D4]; try lia.
    set (nav := av * (ts - 1) / ts + pix im (v, y)) in *. set (nau := au * (ts - 1) / ts + pix im (u, y)) in *.
    rewrite usz_ok by lia. cbn [bind]. rewrite get_pixel_ok; [|assumption|unfold in_image, inside; cbn; lia].
    cbn [bind]. rewrite usz_ok by (fold nav; lia). cbn [bind]. rewrite usz_ok by lia. cbn [bind].
    rewrite get_pixel_ok; [|assumption|unfold in_image, inside; cbn; lia]. cbn [bind].
    rewrite usz_ok by (fold nau; lia). cbn [bind]. fold nav nau.
    rewrite (@aget_ok _ _ ra (Z.to_nat v) 0) by lia. cbn [bind].
    pose proof (Hra v Bv) as Rv. pose proof (Hra u Bu) as Ru.
    assert (T1 : forall i, 0 <= touched w y x i <= 2) by (intros i; unfold touched; destruct (_ <? _), (_ <? _); lia).
    assert (T2 : forall i, M * ts * touched w y x i <= M * ts * 2) by (intros i; apply Z.mul_le_mono_nonneg_l; [lia|apply T1]).
    assert (Q1 : nth (Z.to_nat v) ra 0 <= 255 * ts * 2) by (specialize (T2 v); lia).
    assert (Q2 : nth (Z.to_nat u) ra 0 <= 255 * ts * 2) by (specialize (T2 u); lia).
    rewrite usz_ok by lia. cbn [bind]. rewrite aset_ok by lia. cbn [bind].
    set (ra1 := upd ra (Z.to_nat v) (nth (Z.to_nat v) ra 0 + nav)).
    assert (L1 : Z.of_nat (length ra1) = w) by (unfold ra1; rewrite length_upd; assumption).
    rewrite (@aget_ok _ _ ra1 (Z.to_nat u) 0) by lia. cbn [bind].
    assert (N1 : forall i, 0 <= i < w -> nth (Z.to_nat i) ra1 0 = nth (Z.to_nat i) ra 0 + if i =? v then nav else 0).
    { intros i Hi. unfold ra1. rewrite nth_upd by lia. destruct (i =? v) eqn:E.
      - replace (Nat.eqb (Z.to_nat i) (Z.to_nat v)) with true by (symmetry; apply Nat.eqb_eq; lia).
        replace i with v by lia. reflexivity.
      - replace (Nat.eqb (Z.to_nat i) (Z.to_nat v)) with false by (symmetry; apply Nat.eqb_neq; lia). lia. }
    pose proof (N1 u Bu) as N1u.
    assert (Q3 : nth (Z.to_nat u) ra1 0 <= 255 * ts * 3) by (destruct (u =? v); lia).
    rewrite usz_ok by lia. cbn [bind]. rewrite aset_ok by lia. cbn [bind].
    eexists. split; [reflexivity|]. unfold row_state. rewrite length_upd.
    split; [assumption|]. split; [assumption|]. split; [assumption|].
    intros i Hi. rewrite nth_upd by lia.
    assert (Ni : nth (Z.to_nat i) ra 0 + (if i =? v then nav else 0) + (if i =? u then nau else 0)
                 = if Nat.eqb (Z.to_nat i) (Z.to_nat u) then nth (Z.to_nat u) ra1 0 + nau else nth (Z.to_nat i) ra1 0).
    { destruct (i =? u) eqn:E.
      - replace (Nat.eqb (Z.to_nat i) (Z.to_nat u)) with true by (symmetry; apply Nat.eqb_eq; lia).
        replace i with u by lia. rewrite N1u. reflexivity.
      - replace (Nat.eqb (Z.to_nat i) (Z.to_nat u)) with false by (symmetry; apply Nat.eqb_neq; lia).
        rewrite N1 by assumption. lia. }
    rewrite <- Ni. specialize (Hra i Hi).
    assert (Ti : touched w y (x + 1) i = touched w y x i + (if i =? v then 1 else 0) + (if i =? u then 1 else 0)).
    { unfold touched. destruct Hvu as [[Hv1 Hv2]|[Hv1 Hv2]]; destruct (w - 1 - i <? x + 1) eqn:?, (i <? x + 1) eqn:?, (w - 1 - i <? x) eqn:?, (i <? x) eqn:?, (i =? v) eqn:?, (i =? u) eqn:?; lia. }
    rewrite Ti. rewrite !Z.mul_add_distr_l.
    destruct (i =? v), (i =? u); lia. }
  destruct (y mod 2 =? 0); apply G; lia.
Qed.

Lemma averages_ok im ts y M av au : wf_image im -> 0 <= y < im_h im -> row_bounded im y M ->
  0 <= M <= 255 -> 1 <= ts <= 2 ^ 28 -> 0 <= av <= M * ts -> 0 <= au <= M * ts ->
  exists ra av' au', for_each (zrange 0 (im_w im)) (average_step im ts y) (repeat 0 (Z.to_nat (im_w im)), av, au)
      = Ok (ra, av', au')
    /\ Z.of_nat (length ra) = im_w im /\ 0 <= av' <= M * ts /\ 0 <= au' <= M * ts
    /\ forall i, 0 <= i < im_w im -> 0 <= nth (Z.to_nat i) ra 0 <= 2 * (M * ts).
Proof.
  intros W Hy Hr HM Ht Hv Hu. pose proof W as (W1 & _).
  destruct (@zfor_ok _ _ (row_state (im_w im) y (M * ts)) (average_step im ts y) 0 (im_w im)
              (repeat 0 (Z.to_nat (im_w im)), av, au) W1) as (((ra & av') & au') & E & R).
  - split; [rewrite repeat_length; lia|]. split; [lia|]. split; [lia|].
    intros i Hi. rewrite nth_repeat_lt by lia. unfold touched. destruct (_ <? _), (_ <? _); lia.
  - intros i s Hi Hs. apply average_step_ok; try assumption.
  - destruct R as (R1 & R2 & R3 & R4). exists ra, av', au'. split; [exact E|].
    split; [assumption|]. split; [assumption|]. split; [assumption|].
    intros i Hi. specialize (R4 i Hi). unfold touched in R4. destruct (_ <? _), (_ <? _); lia.
Qed.

(** The second loop: the colours of the row. *)
Definition dark (ra : list Z) (ts p x : Z) : bool := p <? nth (Z.to_nat x) ra 0 * 95 / (200 * ts).

Lemma fill_ok ra ts y im B : wf_image im -> 0 <= y < im_h im -> 1 <= ts <= 2 ^ 28 ->
  Z.of_nat (length ra) = im_w im -> B <= 510 * ts ->
  (forall i, 0 <= i < im_w im -> 0 <= nth (Z.to_nat i) ra 0 <= B) ->
  exists im', for_each (zrange 0 (im_w im)) (fill_step ra ts y) im = Ok im'
    /\ wf_image im' /\ same_size im im'
    /\ forall q, in_image im q ->
         pix im' q = if snd q =? y then (if dark ra ts (pix im q) (fst q) then 1 else 0) else pix im q.
Proof.
  intros W Hy Ht L HB Hra. pose proof W as (W1 & _).
  destruct (cap_bound 0 ts ltac:(lia) Ht) as (_ & _ & C3 & C4).
  destruct (@zfor_ok _ _ (fun x im' => wf_image im' /\ same_size im im' /\ forall q, in_image im q ->
       pix im' q = if (snd q =? y) && (fst q <? x) then (if dark ra ts (pix im q) (fst q) then 1 else 0) else pix im q)
      (fill_step ra ts y) 0 (im_w im) im W1) as (im' & E & P1 & P2 & P3).
  - split; [assumption|]. split; [split; reflexivity|]. intros q [I1 I2]. replace (fst q <? 0) with false by lia.
    rewrite andb_false_r. reflexivity.
  - intros x cur Hx (Q1 & Q2 & Q3). unfold fill_step.
    assert (Ix : in_image im (x, y)) by (split; cbn; lia).
    assert (Ix' : in_image cur (x, y)) by (apply (same_size_in _ _ _ Q2); assumption).
    rewrite get_pixel_ok by assumption. cbn [bind]. rewrite (@aget_ok _ _ ra (Z.to_nat x) 0) by lia. cbn [bind].
    specialize (Hra x Hx). rewrite usz_ok by lia. cbn [bind]. rewrite usz_ok by lia. cbn [bind].
    assert (Px : pix cur (x, y) = pix im (x, y)).
    { rewrite Q3 by assumption. cbn. replace (x <? x) with false by lia. rewrite andb_false_r. reflexivity. }
    rewrite Px. fold (dark ra ts (pix im (x, y)) x).
    assert (Ec : color_byte (if dark ra ts (pix im (x, y)) x then Black else White) = @Ok Empty_set Z (if dark ra ts (pix im (x, y)) x then 1 else 0))
      by (destruct (dark ra ts (pix im (x, y)) x); reflexivity).
    unfold out in *. rewrite Ec. cbn [bind]. rewrite set_pixel_ok by assumption.
    eexists. split; [reflexivity|]. split; [apply put_wf; assumption|].
    split. { destruct Q2 as [S1 S2]. split; cbn; assumption. }
    intros q Iq. destruct (pix_put cur (x, y) (if dark ra ts (pix im (x, y)) x then 1 else 0) q Q1 Ix') as [A1 A2].
    { apply (same_size_in _ _ _ Q2). assumption. }
    destruct (pixel_eq_dec q (x, y)) as [->|Nq].
    + rewrite A1 by reflexivity. cbn. rewrite Z.eqb_refl. replace (x <? x + 1) with true by lia. reflexivity.
    + rewrite A2, Q3 by assumption. destruct q as [a b]. cbn. destruct (b =? y) eqn:Eb; [|reflexivity]. cbn.
      assert (a <> x) by (intros ->; apply Nq; f_equal; lia).
      replace (a <? x + 1) with (a <? x) by lia. reflexivity.
  - exists im'. split; [exact E|]. split; [assumption|]. split; [assumption|].
    intros q Iq. rewrite P3 by assumption. destruct Iq as [I1 I2]. replace (fst q <? im_w im) with true by lia.
    rewrite andb_true_r. reflexivity.
Qed.

Lemma dark_bright ra ts M p x : 1 <= ts -> 0 <= nth (Z.to_nat x) ra 0 <= 2 * (M * ts) ->
  95 * M / 100 <= p -> dark ra ts p x = false.
Proof.
  intros Ht Hr Hp. unfold dark. apply Z.ltb_ge. refine (Z.le_trans _ _ _ _ Hp).
  apply Z.le_trans with ((95 * M) * (2 * ts) / (100 * (2 * ts))).
  - replace (100 * (2 * ts)) with (200 * ts) by lia. apply Z.div_le_mono; lia.
  - rewrite Z.div_mul_cancel_r by lia. lia.
Qed.

Lemma prepare_row_ok im ts y M av au : wf_image im -> 0 <= y < im_h im -> row_bounded im y M ->
  0 <= M <= 255 -> 1 <= ts <= 2 ^ 28 -> 0 <= av <= M * ts -> 0 <= au <= M * ts ->
  exists im' av' au', prepare_row ts y (im, av, au) = Ok (im', av', au')
    /\ wf_image im' /\ same_size im im' /\ 0 <= av' <= M * ts /\ 0 <= au' <= M * ts
    /\ (forall q, in_image im q -> snd q <> y -> pix im' q = pix im q)
    /\ (forall q, in_image im q -> snd q = y -> (pix im' q = 0 \/ pix im' q = 1)
          /\ (95 * M / 100 <= pix im q -> pix im' q = 0)).
Proof.
  intros W Hy Hr HM Ht Hv Hu. unfold prepare_row.
  destruct (averages_ok im ts y M av au W Hy Hr HM Ht Hv Hu) as (ra & av' & au' & E & L & Bv & Bu & R).
  unfold out in *. rewrite E. cbn [bind].
  destruct (cap_bound M ts HM Ht) as (C1 & C2 & C3 & C4).
  destruct (fill_ok ra ts y im (2 * (M * ts)) W Hy Ht L ltac:(lia) R) as (im' & E' & W' & S' & P').
  unfold out in *. rewrite E'. cbn [bind]. exists im', av', au'.
  split; [reflexivity|]. split; [assumption|]. split; [assumption|]. split; [assumption|]. split; [assumption|].
  split; intros q Iq Eq; rewrite P' by assumption.
  - replace (snd q =? y) with false by lia. reflexivity.
  - replace (snd q =? y) with true by lia. split; [destruct (dark _ _ _ _); auto|].
    intros Hp. destruct Iq as [I1 I2]. rewrite (dark_bright ra ts M); [reflexivity|lia|apply R; lia|assumption].
Qed.

(** * The whole image *)

Definition gray (im : image) : Prop := forall q, in_image im q -> 0 <= pix im q <= 255.

(** [M y] bounds the luminance of the rows up to [y]. *)
Lemma threshold_ok im (M : Z -> Z) : wf_image im -> im_w im < 2 ^ 31 ->
  (forall y, 0 <= M y <= 255) -> (forall y y', y <= y' -> M y <= M y') ->
  (forall q, in_image im q -> 0 <= pix im q <= M (snd q)) ->
  exists im', threshold im = Ok im' /\ wf_image im' /\ same_size im im'
    /\ forall q, in_image im q -> (pix im' q = 0 \/ pix im' q = 1)
         /\ (95 * M (snd q) / 100 <= pix im q -> pix im' q = 0).
Proof.
  intros W Hw HM Hmono Hg. pose proof W as (W1 & W2 & W3). unfold threshold.
  set (ts := Z.max (im_w im / 8) 1).
  assert (Ht : 1 <= ts <= 2 ^ 28) by (unfold ts; change (2 ^ 28) with 268435456; change (2 ^ 31) with 2147483648 in Hw; lia).
  destruct (@zfor_ok _ _ (fun y s => let '(cur, av, au) := s in
       wf_image cur /\ same_size im cur /\ 0 <= av <= M y * ts /\ 0 <= au <= M y * ts
       /\ (forall q, in_image im q -> y <= snd q -> pix cur q = pix im q)
       /\ (forall q, in_image im q -> snd q < y -> (pix cur q = 0 \/ pix cur q = 1)
             /\ (95 * M (snd q) / 100 <= pix im q -> pix cur q = 0)))
      (prepare_row ts) 0 (im_h im) (im, 0, 0) W2) as (((im' & av) & au) & E & P).
  - specialize (HM 0). split; [assumption|]. split; [split; reflexivity|]. split; [nia|]. split; [nia|].
    split; [reflexivity|]. intros q [I1 I2]. lia.
  - intros y ((cur & av) & au) Hy (Q1 & Q2 & Q3 & Q4 & Q5 & Q6).
    pose proof Q2 as [S1 S2].
    destruct (prepare_row_ok cur ts y (M y) av au) as (cur' & av' & au' & E & R1 & R2 & R3 & R4 & R5 & R6); try assumption.
    + rewrite S2. assumption.
    + intros x Hx. rewrite S1 in Hx. assert (I : in_image im (x, y)) by (split; cbn; lia).
      rewrite Q5 by (assumption || cbn; lia). apply (Hg (x, y)). assumption.
    + apply HM.
    + assert (M y <= M (y + 1)) by (apply Hmono; lia). exists (cur', av', au'). split; [exact E|].
      split; [assumption|]. split; [destruct R2; split; congruence|]. split; [nia|]. split; [nia|].
      split; intros q Iq Hq; assert (Iq' : in_image cur q) by (apply (same_size_in _ _ _ Q2); assumption).
      * rewrite R5 by (assumption || lia). apply Q5; [assumption|lia].
      * destruct (Z.eq_dec (snd q) y) as [Ey|Ny].
        -- destruct (R6 q Iq' Ey) as [A1 A2]. split; [assumption|]. intros Hb. apply A2. rewrite Q5 by (assumption || lia).
           rewrite Ey in Hb. assumption.
        -- rewrite R5 by assumption. apply Q6; [assumption|lia].
  - unfold out in *. rewrite E. cbn [bind]. destruct P as (P1 & P2 & _ & _ & _ & P6).
    exists im'. split; [reflexivity|]. split; [assumption|]. split; [assumption|].
    intros q Iq. apply P6; [assumption|]. apply Iq.
Qed.

(** * Rows do not depend on the rows below them *)

Lemma prepare_row_rel im1 im2 ts y av au : wf_image im1 -> wf_image im2 -> im_w im1 = im_w im2 ->
  0 <= y < im_h im1 -> 0 <= y < im_h im2 -> row_bounded im1 y 255 ->
  (forall x, 0 <= x < im_w im1 -> pix im1 (x, y) = pix im2 (x, y)) ->
  1 <= ts <= 2 ^ 28 -> 0 <= av <= 255 * ts -> 0 <= au <= 255 * ts ->
  exists r1 r2 av' au', prepare_row ts y (im1, av, au) = Ok (r1, av', au')
    /\ prepare_row ts y (im2, av, au) = Ok (r2, av', au')
    /\ (forall x, 0 <= x < im_w im1 -> pix r1 (x, y) = pix r2 (x, y)).
Proof.
  intros W1 W2 Ew Hy1 Hy2 Hb Hp Ht Hv Hu. unfold prepare_row.
  destruct (averages_ok im1 ts y 255 av au W1 Hy1 Hb ltac:(lia) Ht Hv Hu) as (ra & av' & au' & E & L & Bv & Bu & R).
  assert (E2 : for_each (zrange 0 (im_w im2)) (average_step im2 ts y) (repeat 0 (Z.to_nat (im_w im2)), av, au) = Ok (ra, av', au')).
  { rewrite <- Ew, <- E. apply for_each_ext. intros x s Hx. apply in_zrange in Hx.
    assert (G : forall x, 0 <= x < im_w im1 -> get_pixel im2 x y = get_pixel im1 x y).
    { intros x' Hx'. rewrite !get_pixel_ok; try assumption; try (split; cbn; lia). rewrite Hp by assumption. reflexivity. }
    unfold average_step. destruct s as [[ra' av0] au0]. rewrite Ew.
    unfold usub at 1 3. replace (1 <=? im_w im2) with true by lia. cbn [bind].
    unfold usub. replace (x <=? im_w im2 - 1) with true by lia. cbn [bind].
    destruct (y mod 2 =? 0); rewrite !G by lia; reflexivity. }
  assert (R2 : forall i, 0 <= i < im_w im2 -> 0 <= nth (Z.to_nat i) ra 0 <= 2 * (255 * ts)) by (rewrite <- Ew; exact R).
  destruct (fill_ok ra ts y im1 (2 * (255 * ts)) W1 Hy1 Ht L ltac:(lia) R) as (r1 & E1 & _ & _ & P1).
  destruct (fill_ok ra ts y im2 (2 * (255 * ts)) W2 Hy2 Ht ltac:(lia) ltac:(lia) R2) as (r2 & E2' & _ & _ & P2).
  exists r1, r2, av', au'. unfold out in *. rewrite E, E2. cbn [bind]. rewrite E1, E2'. cbn [bind].
  split; [reflexivity|]. split; [reflexivity|]. intros x Hx.
  rewrite P1, P2 by (split; cbn; lia). cbn. rewrite Z.eqb_refl, Hp by assumption. reflexivity.
Qed.

Lemma zrange_snoc lo hi : lo <= hi -> zrange lo (hi + 1) = zrange lo hi ++ [hi].
Proof. intros H. rewrite (@zrange_app lo hi (hi + 1)) by lia. rewrite (@zrange_cons hi), (@zrange_nil (hi + 1)) by lia. reflexivity. Qed.

Lemma prefix_rel im1 im2 ts Y : wf_image im1 -> wf_image im2 -> im_w im1 = im_w im2 ->
  0 <= Y <= im_h im1 -> Y <= im_h im2 -> gray im1 -> gray im2 -> 1 <= ts <= 2 ^ 28 ->
  (forall q, in_image im1 q -> snd q < Y -> pix im1 q = pix im2 q) ->
  exists c1 c2 av au,
    for_each (zrange 0 Y) (prepare_row ts) (im1, 0, 0) = Ok (c1, av, au)
    /\ for_each (zrange 0 Y) (prepare_row ts) (im2, 0, 0) = Ok (c2, av, au)
    /\ wf_image c1 /\ wf_image c2 /\ same_size im1 c1 /\ same_size im2 c2
    /\ 0 <= av <= 255 * ts /\ 0 <= au <= 255 * ts
    /\ (forall q, in_image im1 q -> Y <= snd q -> pix c1 q = pix im1 q)
    /\ (forall q, in_image im2 q -> Y <= snd q -> pix c2 q = pix im2 q)
    /\ (forall q, in_image im1 q -> snd q < Y -> pix c1 q = pix c2 q).
Proof.
  intros W1 W2 Ew HY1 HY2 G1 G2 Ht.
  assert (HY : 0 <= Y) by lia. revert HY1 HY2. pattern Y. apply natlike_ind; [| |exact HY].
  - intros _ _ _. exists im1, im2, 0, 0. rewrite zrange_nil by lia. cbn [for_each].
    do 10 (split; [first [reflexivity|assumption|lia|split; reflexivity]|]).
    intros q [_ I2]. lia.
  - clear Y HY. intros Y HY IH HY1 HY2 Hp. unfold Z.succ in *.
    destruct IH as (c1 & c2 & av & au & E1 & E2 & V1 & V2 & S1 & S2 & Bv & Bu & F1 & F2 & A); try lia.
    pose proof S1 as [S11 S12]. pose proof S2 as [S21 S22].
    assert (Row : forall x, 0 <= x < im_w c1 -> 0 <= pix c1 (x, Y) <= 255 /\ pix c1 (x, Y) = pix c2 (x, Y)).
    { intros x Hx. assert (I1 : in_image im1 (x, Y)) by (split; cbn; lia).
      assert (I2 : in_image im2 (x, Y)) by (split; cbn; lia).
      rewrite F1, F2 by (assumption || cbn; lia). split; [apply G1; assumption|]. apply Hp; [assumption|cbn; lia]. }
    destruct (prepare_row_ok c1 ts Y 255 av au) as (d1 & a1 & u1 & P1 & D1 & T1 & B1 & C1 & N1 & _); try assumption; try lia.
    { intros x Hx. apply Row. assumption. }
    destruct (prepare_row_ok c2 ts Y 255 av au) as (d2 & a2 & u2 & P2 & D2 & T2 & B2 & C2 & N2 & _); try assumption; try lia.
    { intros x Hx. destruct (Row x) as [R1 R2]; [lia|]. rewrite <- R2. assumption. }
    destruct (prepare_row_rel c1 c2 ts Y av au) as (r1 & r2 & av' & au' & Q1 & Q2 & Q3); try assumption; try lia.
    { intros x Hx. apply Row. assumption. }
    rewrite P1 in Q1. injection Q1 as <- <- <-. rewrite P2 in Q2. injection Q2 as <- -> ->.
    exists d1, d2, a1, u1. rewrite !zrange_snoc, !for_each_app by lia.
    unfold out in *. rewrite E1, E2. cbn [bind for_each]. rewrite P1, P2. cbn [bind].
    split; [reflexivity|]. split; [reflexivity|]. split; [assumption|]. split; [assumption|].
    destruct T1 as [T11 T12], T2 as [T21 T22].
    split; [split; congruence|]. split; [split; congruence|]. split; [assumption|]. split; [assumption|].
    split; [|split]; intros q Iq Hq.
    + rewrite N1; [apply F1; [assumption|lia]|apply (same_size_in _ _ _ S1); assumption|lia].
    + rewrite N2; [apply F2; [assumption|lia]|apply (same_size_in _ _ _ S2); assumption|lia].
    + assert (Iq2 : snd q < im_h im2 -> in_image im2 q) by (destruct Iq; split; lia).
      destruct (Z.eq_dec (snd q) Y) as [Ey|Ny].
      * destruct q as [x y]. cbn in Ey. subst y. apply Q3. destruct Iq. cbn in *. lia.
      * rewrite N1; [|apply (same_size_in _ _ _ S1); assumption|assumption].
        rewrite N2; [|apply (same_size_in _ _ _ S2), Iq2; lia|assumption]. apply A; [assumption|lia].
Qed.

Lemma suffix_frame im ts Y h av au : wf_image im -> 0 <= Y <= h -> h = im_h im -> 1 <= ts <= 2 ^ 28 ->
  0 <= av <= 255 * ts -> 0 <= au <= 255 * ts ->
  (forall q, in_image im q -> Y <= snd q -> 0 <= pix im q <= 255) ->
  exists im' av' au', for_each (zrange Y h) (prepare_row ts) (im, av, au) = Ok (im', av', au')
    /\ forall q, in_image im q -> snd q < Y -> pix im' q = pix im q.
Proof.
  intros W HY Hh Ht Hv Hu G.
  destruct (@zfor_ok _ _ (fun y s => let '(cur, av, au) := s in
       wf_image cur /\ same_size im cur /\ 0 <= av <= 255 * ts /\ 0 <= au <= 255 * ts
       /\ (forall q, in_image im q -> snd q < Y \/ y <= snd q -> pix cur q = pix im q))
      (prepare_row ts) Y h (im, av, au)) as (((im' & av') & au') & E & P).
  - lia.
  - split; [assumption|]. split; [split; reflexivity|]. split; [assumption|]. split; [assumption|]. reflexivity.
  - intros y ((cur & a) & u) Hy (Q1 & Q2 & Q3 & Q4 & Q5). pose proof Q2 as [S1 S2].
    destruct (prepare_row_ok cur ts y 255 a u) as (d & a' & u' & E & R1 & R2 & R3 & R4 & R5 & _); try assumption; try lia.
    { intros x Hx. rewrite S1 in Hx. assert (I : in_image im (x, y)) by (split; cbn; lia).
      rewrite Q5; [|assumption|cbn; lia]. apply G; [assumption|cbn; lia]. }
    exists (d, a', u'). split; [exact E|]. split; [assumption|]. split; [destruct R2; split; congruence|].
    split; [assumption|]. split; [assumption|]. intros q Iq Hq.
    rewrite R5; [|apply (same_size_in _ _ _ Q2); assumption|lia]. apply Q5; [assumption|lia].
  - destruct P as (_ & _ & _ & _ & P). exists im', av', au'. split; [exact E|].
    intros q Iq Hq. apply P; [assumption|left; assumption].
Qed.

Lemma threshold_causal im1 im2 Y r1 r2 : wf_image im1 -> wf_image im2 -> im_w im1 = im_w im2 -> im_w im1 < 2 ^ 31 ->
  gray im1 -> gray im2 -> 0 <= Y <= im_h im1 -> Y <= im_h im2 ->
  (forall q, in_image im1 q -> snd q < Y -> pix im1 q = pix im2 q) ->
  threshold im1 = Ok r1 -> threshold im2 = Ok r2 ->
  forall q, in_image im1 q -> snd q < Y -> pix r1 q = pix r2 q.
Proof.
  intros W1 W2 Ew Hw G1 G2 HY1 HY2 Hp. unfold threshold. rewrite <- Ew.
  set (ts := Z.max (im_w im1 / 8) 1).
  assert (Ht : 1 <= ts <= 2 ^ 28) by (unfold ts; change (2 ^ 28) with 268435456; change (2 ^ 31) with 2147483648 in Hw; lia).
  destruct (prefix_rel im1 im2 ts Y W1 W2 Ew HY1 HY2 G1 G2 Ht Hp)
    as (c1 & c2 & av & au & E1 & E2 & V1 & V2 & S1 & S2 & Bv & Bu & F1 & F2 & A).
  pose proof S1 as [S11 S12]. pose proof S2 as [S21 S22].
  rewrite (@zrange_app 0 Y (im_h im1)), (@zrange_app 0 Y (im_h im2)), !for_each_app by lia.
  unfold out in *. rewrite E1, E2. cbn [bind].
  destruct (suffix_frame c1 ts Y (im_h im1) av au) as (d1 & a1 & u1 & P1 & D1); try assumption; try lia.
  { intros q Iq Hq. apply (same_size_in _ _ _ S1) in Iq. rewrite F1 by assumption. apply G1. assumption. }
  destruct (suffix_frame c2 ts Y (im_h im2) av au) as (d2 & a2 & u2 & P2 & D2); try assumption; try lia.
  { intros q Iq Hq. apply (same_size_in _ _ _ S2) in Iq. rewrite F2 by assumption. apply G2. assumption. }
  unfold out in *. rewrite P1, P2. cbn [bind]. intros [= <-] [= <-] q Iq Hq.
  rewrite D1, D2; [apply A; assumption| |assumption| |assumption].
  - apply (same_size_in _ _ _ S2). destruct Iq. split; lia.
  - apply (same_size_in _ _ _ S1). assumption.
Qed.

(** * Building images *)

Lemma collect_length w h f : 0 <= w -> 0 <= h -> Z.of_nat (length (collect w h f)) = w * h.
Proof.
  intros Hw Hh. unfold collect.
  assert (G : forall l, Z.of_nat (length (flat_map (fun y => map (fun x => f x y) (zrange 0 w)) l)) = w * Z.of_nat (length l)).
  { induction l as [|a l IH]; cbn [flat_map length]; [lia|]. rewrite app_length, map_length, length_zrange. lia. }
  rewrite G, length_zrange. lia.
Qed.

Lemma nth_collect w h f x y : 0 <= x < w -> 0 <= y < h -> nth (Z.to_nat (y * w + x)) (collect w h f) 0 = f x y.
Proof.
  intros Hx Hy. unfold collect. rewrite (@zrange_app 0 y h), flat_map_app by lia.
  assert (L : forall n, 0 <= n -> length (flat_map (fun y => map (fun x => f x y) (zrange 0 w)) (zrange 0 n)) = Z.to_nat (n * w)).
  { intros n Hn. pose proof (collect_length w n f ltac:(lia) Hn). unfold collect in *. lia. }
  rewrite app_nth2 by (rewrite L by lia; nia). rewrite L by lia.
  rewrite (@zrange_cons y) by lia. cbn [flat_map].
  replace (Z.to_nat (y * w + x) - Z.to_nat (y * w))%nat with (Z.to_nat x) by nia.
  rewrite app_nth1 by (rewrite map_length, length_zrange; lia).
  rewrite (nth_indep _ 0 (f 0 y)) by (rewrite map_length, length_zrange; lia).
  rewrite (map_nth (fun x => f x y)). rewrite nth_zrange by lia. f_equal. lia.
Qed.

Definition image_of (w h : Z) (f : Z -> Z -> Z) : image := MkImage w h (collect w h f).

Lemma image_of_wf w h f : 0 <= w -> 0 <= h -> wf_image (image_of w h f).
Proof. intros Hw Hh. split; [exact Hw|]. split; [exact Hh|]. apply collect_length; assumption. Qed.

Lemma pix_image_of w h f q : inside w h q -> pix (image_of w h f) q = f (fst q) (snd q).
Proof. intros [H1 H2]. unfold pix, image_of. cbn. apply nth_collect; assumption. Qed.

Lemma without_preparation_ok im : wf_image im -> (forall q, in_image im q -> pix im q = 0 \/ pix im q = 1) ->
  without_preparation im = Ok (MkPrepared im []).
Proof.
  intros W H. pose proof W as (W1 & W2 & _). unfold without_preparation.
  destruct (@zfor_ok _ _ (fun _ (_ : unit) => True) (fun y _ =>
    for_each (zrange 0 (im_w im)) (fun x _ => let* p := get_pixel im x y in assert_ (p <? 2)) tt) 0 (im_h im) tt W2 I)
    as ([] & E & _).
  - intros y [] Hy _.
    destruct (@zfor_ok _ _ (fun _ (_ : unit) => True) (fun x _ => let* p := get_pixel im x y in assert_ (p <? 2)) 0 (im_w im) tt W1 I)
      as ([] & E & _).
    + intros x [] Hx _. assert (Ix : in_image im (x, y)) by (split; cbn; lia).
      rewrite get_pixel_ok by assumption. cbn [bind]. exists tt. split; [|exact I].
      destruct (H _ Ix) as [-> | ->]; reflexivity.
    + exists tt. split; [exact E|exact I].
  - unfold out in *. rewrite E. reflexivity.
Qed.

(** Anything else is rejected by a panic. *)
Lemma without_preparation_panics im : wf_image im -> (exists q, in_image im q /\ 2 <= pix im q) ->
  without_preparation im = Panic.
Proof.
  intros W ((x0 & y0) & [I1 I2] & H). cbn in I1, I2. unfold without_preparation.
  assert (G : for_each (zrange 0 (im_h im)) (fun y _ =>
    for_each (zrange 0 (im_w im)) (fun x _ => let* p := get_pixel im x y in @assert_ Empty_set (p <? 2)) tt) tt = Panic).
  { assert (U : forall (body : Z -> unit -> out unit) n lo hi k, n = Z.to_nat (hi - lo) -> lo <= k < hi ->
        (forall i, lo <= i < hi -> body i tt = Ok tt \/ body i tt = Panic) -> body k tt = Panic ->
        for_each (zrange lo hi) body tt = Panic).
    { clear. induction n as [|n IH]; intros lo hi k Hn Hk Hb E; [lia|]. rewrite zrange_cons by lia. cbn [for_each].
      destruct (Hb lo ltac:(lia)) as [X|X]; rewrite X; [|reflexivity]. cbn [bind].
      assert (k <> lo) by (intros ->; congruence). apply (IH (lo + 1) hi k); try assumption; try lia.
      intros i Hi. apply Hb. lia. }
    assert (In1 : forall y x, 0 <= y < im_h im -> 0 <= x < im_w im ->
        (fun x (_ : unit) => let* p := get_pixel im x y in @assert_ Empty_set (p <? 2)) x tt = (if pix im (x, y) <? 2 then Ok tt else Panic)).
    { intros y x Hy Hx. cbn beta. rewrite get_pixel_ok; [|assumption|split; cbn; lia]. cbn [bind]. destruct (_ <? _); reflexivity. }
    refine (U _ _ 0 (im_h im) y0 eq_refl I2 _ _).
    - intros y Hy. cbn beta.
      destruct (forallb (fun x => pix im (x, y) <? 2) (zrange 0 (im_w im))) eqn:F.
      + left. rewrite forallb_forall in F.
        destruct (@zfor_ok _ _ (fun _ (_ : unit) => True) (fun x _ => let* p := get_pixel im x y in @assert_ Empty_set (p <? 2)) 0 (im_w im) tt) as ([] & E & _).
        * lia.
        * exact I.
        * intros x [] Hx _. exists tt. split; [|exact I]. rewrite In1 by assumption. rewrite F; [reflexivity|]. apply in_zrange. assumption.
        * exact E.
      + right. assert (X : exists x, 0 <= x < im_w im /\ 2 <= pix im (x, y)).
        { apply not_true_iff_false in F. rewrite forallb_forall in F.
          destruct (existsb (fun x => 2 <=? pix im (x, y)) (zrange 0 (im_w im))) eqn:Ex.
          - apply existsb_exists in Ex. destruct Ex as (x & Hx & Hp). apply in_zrange in Hx. exists x. lia.
          - exfalso. apply F. intros x Hx. destruct (pix im (x, y) <? 2) eqn:Q; [reflexivity|].
            assert (T : existsb (fun x => 2 <=? pix im (x, y)) (zrange 0 (im_w im)) = true) by (apply existsb_exists; exists x; split; [assumption|lia]).
            congruence. }
        destruct X as (x & Hx & Hp). refine (U _ _ 0 (im_w im) x eq_refl Hx _ _).
        * intros i Hi. rewrite In1 by assumption. destruct (_ <? _); auto.
        * rewrite In1 by assumption. replace (pix im (x, y) <? 2) with false by lia. reflexivity.
    - cbn beta. refine (U _ _ 0 (im_w im) x0 eq_refl I1 _ _).
      + intros i Hi. rewrite In1 by assumption. destruct (_ <? _); auto.
      + rewrite In1 by assumption. replace (pix im (x0, y0) <? 2) with false by lia. reflexivity. }
  unfold out in *. rewrite G. reflexivity.
Qed.

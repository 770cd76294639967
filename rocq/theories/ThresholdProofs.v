(** Thresholding computes exactly the running means of SpecThreshold (C45). *)
From Verif Require Import Base Lib ModelImage SpecImage SpecThreshold FloodProofs RegionProofs PrepareProofs.
From Coq Require Import ZifyBool ZifyNat ZifyN.
Ltac Zify.zify_post_hook ::= Z.div_mod_to_equations.
Open Scope Z_scope.
Set Bullet Behavior "Strict Subproofs".

(** Smoothing, indexed by [Z]. *)
Definition sm (ts : Z) (f : Z -> Z) (k : Z) : Z := smooth ts f (Z.to_nat k).

Lemma sm_step ts f k : 0 <= k -> sm ts f (k + 1) = sm ts f k * (ts - 1) / ts + f k.
Proof.
  intros Hk. unfold sm. replace (Z.to_nat (k + 1)) with (S (Z.to_nat k)) by lia. cbn [smooth].
  rewrite Z2Nat.id by assumption. reflexivity.
Qed.

Lemma sm_bound ts f n : 1 <= ts -> (forall k, 0 <= k < n -> 0 <= f k <= 255) -> forall k, 0 <= k <= n -> 0 <= sm ts f k <= 255 * ts.
Proof.
  intros Ht Hf k [Hk0 Hkn]. revert Hkn. pattern k. apply natlike_ind; [change (sm ts f 0) with 0; lia| |exact Hk0].
  clear k Hk0. intros k Hk IH Hn. unfold Z.succ in *. rewrite sm_step by assumption.
  specialize (IH ltac:(lia)). specialize (Hf k ltac:(lia)). apply (decay_bound (sm ts f k) (f k) 255 ts); lia.
Qed.

Section Image.
Variable im : image.
Hypothesis W : wf_image im.
Hypothesis Gr : gray im.
Let w := im_w im.
Variable ts : Z.
Hypothesis Ht : 1 <= ts <= 2 ^ 28.

Definition path (mirror : bool) (k : Z) : Z := pix im (snake w mirror k).

Lemma path_bound m k : 0 <= k < w * im_h im -> 0 <= path m k <= 255.
Proof.
  intros Hk. apply Gr. pose proof W as (W1 & W2 & _). fold w in W1.
  unfold in_image, inside, snake. fold w. cbn [fst snd].
  assert (0 < w) by nia. pose proof (Z.div_mod k w ltac:(lia)) as D. pose proof (Z.mod_pos_bound k w ltac:(lia)) as M.
  assert (0 <= k / w) by (apply Z.div_pos; lia).
  assert (k / w < im_h im) by (apply Z.div_lt_upper_bound; lia).
  destruct (xorb _ _); lia.
Qed.

(** The step at which column [i] of row [y] is passed. *)
Definition turn (m : bool) (y i : Z) : Z := if xorb (Z.odd y) m then w - 1 - i else i.

Definition part (m : bool) (y x i : Z) : Z :=
  if turn m y i <? x then sm ts (path m) (y * w + turn m y i + 1) else 0.

Definition exact_state (y x : Z) (s : list Z * Z * Z) : Prop :=
  let '(ra, av, au) := s in
  Z.of_nat (length ra) = w /\ av = sm ts (path true) (y * w + x) /\ au = sm ts (path false) (y * w + x)
  /\ forall i, 0 <= i < w -> nth (Z.to_nat i) ra 0 = part false y x i + part true y x i.

Lemma mean_bound m k : 0 <= k <= w * im_h im -> 0 <= sm ts (path m) k <= 255 * ts.
Proof. apply sm_bound; [lia|]. intros j Hj. apply path_bound. lia. Qed.

Lemma part_bound m y x i : 0 <= y < im_h im -> 0 <= x <= w -> 0 <= i < w -> 0 <= part m y x i <= 255 * ts.
Proof.
  intros Hy Hx Hi. unfold part. destruct (_ <? _); [|lia]. apply mean_bound. unfold turn. destruct (xorb _ _); nia.
Qed.

(** The sample at a step. *)
Lemma path_at m y x : 0 <= y -> 0 <= x < w -> path m (y * w + x) = pix im (turn m y x, y).
Proof.
  intros Hy Hx. unfold path, snake.
  replace ((y * w + x) / w) with y by (apply Z.div_unique with x; [left; lia|lia]).
  replace ((y * w + x) mod w) with x by (apply Z.mod_unique with y; [left; lia|lia]). reflexivity.
Qed.

Lemma turn_turn m y i : turn m y (turn m y i) = i.
Proof. unfold turn. destruct (xorb _ _); lia. Qed.
Lemma turn_range m y i : 0 <= i < w -> 0 <= turn m y i < w.
Proof. unfold turn. destruct (xorb _ _); lia. Qed.

(** Passing step [x] changes the entry of the column passed, and only that one. *)
Lemma part_step m y x i : 0 <= x < w -> 0 <= i < w ->
  part m y (x + 1) i = part m y x i + if i =? turn m y x then sm ts (path m) (y * w + x + 1) else 0.
Proof.
  intros Hx Hi. unfold part. destruct (i =? turn m y x) eqn:E.
  - assert (i = turn m y x) by lia. subst i. rewrite turn_turn.
    replace (x <? x + 1) with true by lia. replace (x <? x) with false by lia. lia.
  - assert (turn m y i <> x) by (intros X; apply (f_equal (turn m y)) in X; rewrite turn_turn in X; lia).
    replace (turn m y i <? x + 1) with (turn m y i <? x) by lia. lia.
Qed.

Lemma average_exact cur y x s : wf_image cur -> same_size im cur -> 0 <= y < im_h im ->
  (forall i, 0 <= i < w -> pix cur (i, y) = pix im (i, y)) -> 0 <= x < w ->
  exact_state y x s -> exists s', average_step cur ts y x s = Ok s' /\ exact_state y (x + 1) s'.
Proof.
  intros Wc Sc Hy Hp Hx. pose proof Sc as [S1 S2]. destruct s as [[ra av] au]. intros (L & Hv & Hu & Hra).
  destruct (cap_bound 255 ts ltac:(lia) Ht) as (C1 & C2 & C3 & C4).
  unfold average_step. rewrite S1. fold w.
  unfold usub at 1. replace (1 <=? w) with true by lia. cbn [bind].
  unfold usub at 1. replace (x <=? w - 1) with true by lia. cbn [bind].
  replace (if y mod 2 =? 0 then (w - 1 - x, x) else (x, w - 1 - x)) with (turn true y x, turn false y x).
  2: { unfold turn. rewrite Bool.xorb_true_r, Bool.xorb_false_r. rewrite (Zmod_odd y). destruct (Z.odd y); reflexivity. }
  set (v := turn true y x). set (u := turn false y x).
  assert (Bv : 0 <= v < w) by (apply turn_range; assumption). assert (Bu : 0 <= u < w) by (apply turn_range; assumption).
  assert (Rg : 0 <= y * w + x + 1 <= w * im_h im) by nia.
  pose proof (mean_bound true (y * w + x) ltac:(nia)) as Mv. pose proof (mean_bound false (y * w + x) ltac:(nia)) as Mu.
  rewrite <- Hv in Mv. rewrite <- Hu in Mu.
  pose proof (path_bound true (y * w + x) ltac:(nia)) as Pv. pose proof (path_bound false (y * w + x) ltac:(nia)) as Pu.
  pose proof (sm_step ts (path true) (y * w + x) ltac:(nia)) as Nv. pose proof (sm_step ts (path false) (y * w + x) ltac:(nia)) as Nu.
  rewrite (path_at true) in Pv, Nv by lia. rewrite (path_at false) in Pu, Nu by lia. fold v in Pv, Nv. fold u in Pu, Nu.
  rewrite <- Hv in Nv. rewrite <- Hu in Nu.
  pose proof (mean_bound true (y * w + x + 1) Rg) as Mv'. pose proof (mean_bound false (y * w + x + 1) Rg) as Mu'.
  destruct (decay_bound av (pix im (v, y)) 255 ts) as [_ D2]; try lia.
  destruct (decay_bound au (pix im (u, y)) 255 ts) as [_ D4]; try lia.
  rewrite usz_ok by lia. cbn [bind]. rewrite get_pixel_ok; [|assumption|unfold in_image, inside; cbn; lia]. cbn [bind].
  rewrite Hp by assumption. rewrite <- Nv. rewrite usz_ok by lia. cbn [bind]. rewrite usz_ok by lia. cbn [bind].
  rewrite get_pixel_ok; [|assumption|unfold in_image, inside; cbn; lia]. cbn [bind].
  rewrite Hp by assumption. rewrite <- Nu. rewrite usz_ok by lia. cbn [bind].
  rewrite (@aget_ok _ _ ra (Z.to_nat v) 0) by lia. cbn [bind].
  assert (PB : forall i, 0 <= i < w -> 0 <= nth (Z.to_nat i) ra 0 <= 510 * ts).
  { intros i Hi. rewrite Hra by assumption. pose proof (part_bound false y x i Hy ltac:(lia) Hi). pose proof (part_bound true y x i Hy ltac:(lia) Hi). lia. }
  pose proof (PB v Bv) as Q1. pose proof (PB u Bu) as Q2.
  rewrite usz_ok by lia. cbn [bind]. rewrite aset_ok by lia. cbn [bind].
  set (nav := sm ts (path true) (y * w + x + 1)) in *. set (nau := sm ts (path false) (y * w + x + 1)) in *.
  set (ra1 := upd ra (Z.to_nat v) (nth (Z.to_nat v) ra 0 + nav)).
  assert (L1 : Z.of_nat (length ra1) = w) by (unfold ra1; rewrite length_upd; assumption).
  rewrite (@aget_ok _ _ ra1 (Z.to_nat u) 0) by lia. cbn [bind].
  assert (N1 : forall i, 0 <= i < w -> nth (Z.to_nat i) ra1 0 = nth (Z.to_nat i) ra 0 + if i =? v then nav else 0).
  { intros i Hi. unfold ra1. rewrite nth_upd by lia. destruct (i =? v) eqn:E.
    - replace (Nat.eqb (Z.to_nat i) (Z.to_nat v)) with true by (symmetry; apply Nat.eqb_eq; lia).
      replace i with v by lia. reflexivity.
    - replace (Nat.eqb (Z.to_nat i) (Z.to_nat v)) with false by (symmetry; apply Nat.eqb_neq; lia). lia. }
  pose proof (N1 u Bu) as N1u.
  rewrite usz_ok by (destruct (u =? v); lia). cbn [bind]. rewrite aset_ok by lia. cbn [bind].
  eexists. split; [reflexivity|]. unfold exact_state. rewrite length_upd, Z.add_assoc.
  split; [assumption|]. split; [reflexivity|]. split; [reflexivity|].
  intros i Hi. rewrite nth_upd by lia. rewrite !part_step by assumption. fold v u. fold nav nau.
  destruct (i =? u) eqn:E.
  - replace (Nat.eqb (Z.to_nat i) (Z.to_nat u)) with true by (symmetry; apply Nat.eqb_eq; lia).
    assert (i = u) by lia. subst i. rewrite N1u, Hra by assumption. lia.
  - replace (Nat.eqb (Z.to_nat i) (Z.to_nat u)) with false by (symmetry; apply Nat.eqb_neq; lia).
    rewrite N1, Hra by assumption. lia.
Qed.

Definition dark_at (q : pixel) : bool :=
  pix im q <? (sm ts (path false) (place w false q + 1) + sm ts (path true) (place w true q + 1)) * 95 / (200 * ts).

Lemma row_exact cur y : wf_image cur -> same_size im cur -> 0 <= y < im_h im ->
  (forall q, in_image im q -> y <= snd q -> pix cur q = pix im q) ->
  exists cur', prepare_row ts y (cur, sm ts (path true) (y * w), sm ts (path false) (y * w))
      = Ok (cur', sm ts (path true) ((y + 1) * w), sm ts (path false) ((y + 1) * w))
    /\ wf_image cur' /\ same_size im cur'
    /\ forall q, in_image im q -> pix cur' q = if snd q =? y then (if dark_at q then 1 else 0) else pix cur q.
Proof.
  intros Wc Sc Hy Hp. pose proof Sc as [S1 S2]. pose proof W as (W1 & _). fold w in W1. unfold prepare_row. rewrite S1. fold w.
  destruct (@zfor_ok _ _ (exact_state y) (average_step cur ts y) 0 w
     (repeat 0 (Z.to_nat w), sm ts (path true) (y * w), sm ts (path false) (y * w)) W1) as (((ra & av) & au) & E & L & Ev & Eu & R).
  - split; [rewrite repeat_length; lia|]. rewrite Z.add_0_r. split; [reflexivity|]. split; [reflexivity|].
    intros i Hi. rewrite nth_repeat_lt by lia. unfold part.
    pose proof (turn_range false y i Hi). pose proof (turn_range true y i Hi).
    replace (turn false y i <? 0) with false by lia. replace (turn true y i <? 0) with false by lia. reflexivity.
  - intros x s Hx Hs. apply average_exact; try assumption. intros i Hi. apply Hp; [split; cbn; fold w; lia|cbn; lia].
  - unfold out in *. rewrite E. cbn [bind].
    assert (RB : forall i, 0 <= i < w -> 0 <= nth (Z.to_nat i) ra 0 <= 510 * ts).
    { intros i Hi. rewrite R by assumption. pose proof (part_bound false y w i Hy ltac:(lia) Hi). pose proof (part_bound true y w i Hy ltac:(lia) Hi). lia. }
    assert (A1 : Z.of_nat (length ra) = im_w cur) by (rewrite S1; exact L).
    assert (A2 : forall i, 0 <= i < im_w cur -> 0 <= nth (Z.to_nat i) ra 0 <= 510 * ts) by (rewrite S1; exact RB).
    assert (A3 : 0 <= y < im_h cur) by (rewrite S2; exact Hy).
    destruct (fill_ok ra ts y cur (510 * ts) Wc A3 Ht A1 (Z.le_refl _) A2) as (cur' & E' & W' & S' & P').
    rewrite S1 in E'. fold w in E'. unfold out in *. rewrite E'. cbn [bind]. exists cur'.
    rewrite Ev, Eu. replace (y * w + w) with ((y + 1) * w) by lia. split; [reflexivity|]. split; [assumption|].
    split; [destruct S' as [A B]; split; congruence|].
    intros q Iq. rewrite P' by (apply (same_size_in _ _ _ Sc); assumption).
    destruct (snd q =? y) eqn:Ey; [|reflexivity]. destruct q as [x y']. cbn [fst snd] in *. assert (y' = y) by lia. subst y'.
    assert (Hx : 0 <= x < w) by apply Iq. unfold dark, dark_at. rewrite Hp by (assumption || cbn; lia).
    rewrite R by assumption. unfold part.
    pose proof (turn_range false y x Hx). pose proof (turn_range true y x Hx).
    replace (turn false y x <? w) with true by lia. replace (turn true y x <? w) with true by lia.
    unfold place. cbn [fst snd]. fold (turn false y x) (turn true y x). reflexivity.
Qed.

Lemma rows_exact : exists im' av au, for_each (zrange 0 (im_h im)) (prepare_row ts) (im, 0, 0) = Ok (im', av, au)
  /\ wf_image im' /\ same_size im im' /\ forall q, in_image im q -> pix im' q = if dark_at q then 1 else 0.
Proof.
  pose proof W as (_ & W2 & _).
  destruct (@zfor_ok _ _ (fun y s => let '(cur, av, au) := s in
       wf_image cur /\ same_size im cur /\ av = sm ts (path true) (y * w) /\ au = sm ts (path false) (y * w)
       /\ forall q, in_image im q -> pix cur q = if snd q <? y then (if dark_at q then 1 else 0) else pix im q)
      (prepare_row ts) 0 (im_h im) (im, 0, 0) W2) as (((im' & av) & au) & E & P1 & P2 & _ & _ & P5).
  - split; [assumption|]. split; [split; reflexivity|]. split; [reflexivity|]. split; [reflexivity|].
    intros q [_ I2]. replace (snd q <? 0) with false by lia. reflexivity.
  - intros y ((cur & av) & au) Hy (Q1 & Q2 & -> & -> & Q5).
    destruct (row_exact cur y Q1 Q2 Hy) as (cur' & E & R1 & R2 & R3).
    { intros q Iq Hq. rewrite Q5 by assumption. replace (snd q <? y) with false by lia. reflexivity. }
    eexists. split; [exact E|]. split; [assumption|]. split; [assumption|]. split; [reflexivity|]. split; [reflexivity|].
    intros q Iq. rewrite R3, Q5 by assumption. destruct (snd q =? y) eqn:E1, (snd q <? y) eqn:E2, (snd q <? y + 1) eqn:E3; try reflexivity; lia.
  - exists im', av, au. split; [exact E|]. split; [assumption|]. split; [assumption|].
    intros q Iq. rewrite P5 by assumption. replace (snd q <? im_h im) with true by (destruct Iq; lia). reflexivity.
Qed.
End Image.

Lemma dark_at_spec im q : in_image im q -> dark_at im (memory (im_w im)) q = is_dark (im_w im) (pix im) q.
Proof.
  intros [Ix Iy]. unfold dark_at, is_dark, local_mean, sm.
  assert (P : forall m, 0 <= place (im_w im) m q) by (intros m; unfold place; destruct (xorb _ _); nia).
  pose proof (P false) as Pf. pose proof (P true) as Pt.
  replace (Z.to_nat (place (im_w im) false q + 1)) with (S (Z.to_nat (place (im_w im) false q))) by lia.
  replace (Z.to_nat (place (im_w im) true q + 1)) with (S (Z.to_nat (place (im_w im) true q))) by lia. reflexivity.
Qed.

Theorem threshold_exact im : wf_image im -> gray im -> im_w im < 2 ^ 31 ->
  exists im', threshold im = Ok im' /\ wf_image im' /\ same_size im im'
    /\ forall q, in_image im q -> pix im' q = if is_dark (im_w im) (pix im) q then 1 else 0.
Proof.
  intros W G Hw. pose proof W as (W1 & _). unfold threshold. fold (memory (im_w im)).
  assert (Ht : 1 <= memory (im_w im) <= 2 ^ 28) by (unfold memory; change (2 ^ 28) with 268435456; change (2 ^ 31) with 2147483648 in Hw; lia).
  destruct (rows_exact im W G (memory (im_w im)) Ht) as (im' & av & au & E & A & B & C).
  unfold out in *. rewrite E. cbn [bind]. exists im'. split; [reflexivity|]. split; [assumption|]. split; [assumption|].
  intros q Iq. rewrite C by assumption. rewrite dark_at_spec by assumption. reflexivity.
Qed.

(** Running means depend only on the samples. *)
Lemma smooth_ext ts f g n : (forall k, 0 <= k < Z.of_nat n -> f k = g k) -> smooth ts f n = smooth ts g n.
Proof.
  induction n as [|n IH]; intros H; [reflexivity|]. cbn [smooth]. rewrite IH by (intros; apply H; lia). rewrite H by lia. reflexivity.
Qed.

Lemma is_dark_ext w h f g q : inside w h q -> (forall p, inside w h p -> f p = g p) -> is_dark w f q = is_dark w g q.
Proof.
  intros [Ix Iy] H. unfold is_dark, local_mean.
  assert (M : forall m, smooth (memory w) (fun k => f (snake w m k)) (S (Z.to_nat (place w m q))) =
                        smooth (memory w) (fun k => g (snake w m k)) (S (Z.to_nat (place w m q)))).
  { intros m. apply smooth_ext. intros k Hk. apply H.
    assert (Hp : 0 <= place w m q < w * h) by (unfold place; destruct (xorb _ _); nia).
    assert (0 <= k < w * h) by lia. unfold inside, snake. cbn [fst snd].
    pose proof (Z.div_mod k w ltac:(lia)) as D. pose proof (Z.mod_pos_bound k w ltac:(lia)) as Mo.
    assert (0 <= k / w) by (apply Z.div_pos; lia). assert (k / w < h) by (apply Z.div_lt_upper_bound; lia).
    destruct (xorb _ _); lia. }
  rewrite !M, (H q); [reflexivity|split; assumption].
Qed.

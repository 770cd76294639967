(** The flood fill repaints exactly the connected component (C29). *)
From Verif Require Import Base Lib ModelImage SpecImage.
From Coq Require Import ZifyBool ZifyNat ZifyN.
Ltac Zify.zify_post_hook ::= Z.div_mod_to_equations.

(** * Pixels of an image *)

Definition wf_image (im : image) : Prop :=
  0 <= im_w im /\ 0 <= im_h im /\ Z.of_nat (length (im_px im)) = im_w im * im_h im.

Definition pix (im : image) (q : pixel) : Z :=
  nth (Z.to_nat (snd q * im_w im + fst q)) (im_px im) 0.

Definition in_image (im : image) (q : pixel) : Prop := inside (im_w im) (im_h im) q.

Definition same_size (im im' : image) : Prop := im_w im' = im_w im /\ im_h im' = im_h im.

Lemma same_size_in im im' q : same_size im im' -> in_image im' q <-> in_image im q.
Proof. intros [H1 H2]. unfold in_image. rewrite H1, H2. reflexivity. Qed.

Lemma index_bounds im q : wf_image im -> in_image im q ->
  0 <= snd q * im_w im + fst q < Z.of_nat (length (im_px im)).
Proof. intros (Hw & Hh & Hl) [Hx Hy]. rewrite Hl. nia. Qed.

Lemma index_inj w x y x' y' : 0 <= x < w -> 0 <= x' < w -> y * w + x = y' * w + x' -> x = x' /\ y = y'.
Proof. intros H H' E. assert (y = y') by nia. split; lia. Qed.

Lemma get_pixel_ok im x y : wf_image im -> in_image im (x, y) -> get_pixel im x y = Ok (pix im (x, y)).
Proof.
  intros W I. pose proof (index_bounds im _ W I) as B. cbn in B.
  unfold get_pixel, pix. cbn. replace (0 <=? y * im_w im + x) with true by lia.
  apply aget_ok. lia.
Qed.

Definition put (im : image) (q : pixel) (v : Z) : image :=
  MkImage (im_w im) (im_h im) (upd (im_px im) (Z.to_nat (snd q * im_w im + fst q)) v).

Lemma set_pixel_ok im x y v : wf_image im -> in_image im (x, y) -> set_pixel im x y v = Ok (put im (x, y) v).
Proof.
  intros W I. pose proof (index_bounds im _ W I) as B. cbn in B.
  unfold set_pixel, put. cbn. replace (0 <=? y * im_w im + x) with true by lia.
  rewrite aset_ok by lia. reflexivity.
Qed.

Lemma put_size im q v : same_size im (put im q v).
Proof. split; reflexivity. Qed.

Lemma put_wf im q v : wf_image im -> wf_image (put im q v).
Proof. intros (H1 & H2 & H3). unfold wf_image, put. cbn. rewrite length_upd. auto. Qed.

Lemma pix_put im q v r : wf_image im -> in_image im q -> in_image im r ->
  (r = q -> pix (put im q v) r = v) /\ (r <> q -> pix (put im q v) r = pix im r).
Proof.
  intros W Iq Ir. pose proof (index_bounds im _ W Iq) as Bq. pose proof (index_bounds im _ W Ir) as Br.
  unfold pix, put. cbn. rewrite nth_upd by lia. split; intros H.
  - subst r. rewrite Nat.eqb_refl. reflexivity.
  - destruct (Nat.eqb_spec (Z.to_nat (snd r * im_w im + fst r)) (Z.to_nat (snd q * im_w im + fst q))) as [E|E];
      [|reflexivity].
    exfalso. apply H. destruct Iq as [Iq1 Iq2], Ir as [Ir1 Ir2]. destruct q as [a b], r as [c d]. cbn in *.
    destruct (index_inj (im_w im) c d a b) as [-> ->]; [lia..|reflexivity].
Qed.

(** * Counting pixels *)

Definition cnt (v : Z) (l : list Z) : nat := length (filter (Z.eqb v) l).

Lemma cnt_upd v l i w : (i < length l)%nat -> nth i l 0 = v -> w <> v -> S (cnt v (upd l i w)) = cnt v l.
Proof.
  unfold cnt. revert i. induction l as [|a l IH]; intros [|i] Hi Hn Hw; cbn in *; try lia.
  - subst a. replace (v =? w) with false by lia. replace (v =? v) with true by lia. reflexivity.
  - specialize (IH i ltac:(lia) Hn Hw). destruct (v =? a); cbn; lia.
Qed.

Lemma cnt_le v l : (cnt v l <= length l)%nat.
Proof. unfold cnt. induction l as [|a l IH]; cbn; [lia|]. destruct (v =? a); cbn; lia. Qed.

Definition left_over (v : Z) (im : image) : nat := cnt v (im_px im).

Lemma left_over_put im q v w : wf_image im -> in_image im q -> pix im q = v -> w <> v ->
  S (left_over v (put im q w)) = left_over v im.
Proof.
  intros W I P Hw. pose proof (index_bounds im _ W I) as B. unfold left_over, put. cbn.
  apply cnt_upd; [lia|exact P|exact Hw].
Qed.

(** * The pieces of one iteration *)

Lemma go_left_ok im from y fuel : forall x,
  wf_image im -> in_image im (x, y) -> pix im (x, y) = from -> (Z.to_nat x <= fuel)%nat ->
  exists l, go_left fuel im from y x = Ok l /\ 0 <= l <= x
    /\ (forall i, l <= i <= x -> pix im (i, y) = from)
    /\ (0 < l -> pix im (l - 1, y) <> from).
Proof.
  induction fuel as [|fuel IH]; intros x W I P F; pose proof I as [Ix Iy]; cbn in Ix, Iy.
  - exists x. cbn. replace (0 <? x) with false by lia.
    repeat split; try lia. intros i Hi. replace i with x by lia. exact P.
  - cbn. destruct (0 <? x) eqn:E.
    + assert (I' : in_image im (x - 1, y)) by (split; cbn; lia).
      rewrite get_pixel_ok by assumption. cbn.
      destruct (pix im (x - 1, y) =? from) eqn:E2.
      * destruct (IH (x - 1) W I' ltac:(lia) ltac:(lia)) as (l & -> & Hl & Hr & He).
        exists l. repeat split; try lia; try assumption.
        intros i Hi. destruct (Z.eq_dec i x) as [->|]; [exact P|]. apply Hr. lia.
      * exists x. repeat split; try lia. intros i Hi. replace i with x by lia. exact P.
    + exists x. repeat split; try lia. intros i Hi. replace i with x by lia. exact P.
Qed.

Lemma go_right_ok im from y fuel : forall x,
  wf_image im -> in_image im (x, y) -> pix im (x, y) = from -> (Z.to_nat (im_w im - x) < fuel)%nat ->
  exists r, go_right fuel im from y x = Ok r /\ x <= r < im_w im
    /\ (forall i, x <= i <= r -> pix im (i, y) = from)
    /\ (r + 1 < im_w im -> pix im (r + 1, y) <> from).
Proof.
  induction fuel as [|fuel IH]; intros x W I P F; [lia|]. pose proof I as [Ix Iy]; cbn in Ix, Iy.
  cbn. unfold usub. replace (1 <=? im_w im) with true by lia. cbn.
  destruct (x <? im_w im - 1) eqn:E.
  - assert (I' : in_image im (x + 1, y)) by (split; cbn; lia).
    rewrite get_pixel_ok by assumption. cbn.
    destruct (pix im (x + 1, y) =? from) eqn:E2.
    + destruct (IH (x + 1) W I' ltac:(lia) ltac:(lia)) as (r & -> & Hl & Hr & He).
      exists r. repeat split; try lia; try assumption.
      intros i Hi. destruct (Z.eq_dec i x) as [->|]; [exact P|]. apply Hr. lia.
    + exists x. repeat split; try lia. intros i Hi. replace i with x by lia. exact P.
  - exists x. repeat split; try lia. intros i Hi. replace i with x by lia. exact P.
Qed.

Lemma paint_ok from to y r : forall n l im,
  from <> to -> n = Z.to_nat (r + 1 - l) -> wf_image im -> 0 <= l -> r < im_w im -> 0 <= y < im_h im ->
  (forall i, l <= i <= r -> pix im (i, y) = from) ->
  exists im', paint im l r y to = Ok im' /\ wf_image im' /\ same_size im im'
    /\ (left_over from im' + n = left_over from im)%nat
    /\ (forall q, in_image im q ->
         (snd q = y /\ l <= fst q <= r -> pix im' q = to)
         /\ (~ (snd q = y /\ l <= fst q <= r) -> pix im' q = pix im q)).
Proof.
  induction n as [|n IH]; intros l im Hft Hn W Hl Hr Hy Hp.
  - exists im. unfold paint. rewrite zrange_nil by lia. cbn. split; [reflexivity|]. split; [assumption|].
    split; [split; reflexivity|]. split; [lia|]. intros q _. split; [lia|reflexivity].
  - assert (I : in_image im (l, y)) by (split; cbn; lia).
    destruct (IH (l + 1) (put im (l, y) to)) as (im' & E & W' & S' & C' & Q'); try assumption; try lia.
    { apply put_wf; assumption. }
    { intros i Hi. destruct (pix_put im (l, y) to (i, y) W I ltac:(split; cbn; lia)) as [_ H].
      rewrite H by congruence || (intros [= ?]; lia). apply Hp. lia. }
    exists im'. unfold paint in *. rewrite zrange_cons by lia. cbn [for_each].
    rewrite set_pixel_ok by assumption. cbn [bind].
    split; [exact E|]. split; [assumption|]. split; [exact S'|].
    split. { pose proof (left_over_put im (l, y) from to W I (Hp l ltac:(lia)) ltac:(congruence)). lia. }
    intros q Iq. destruct (Q' q Iq) as [Q1 Q2].
    destruct (pix_put im (l, y) to q W I Iq) as [P1 P2]. split.
    + intros [Hq1 Hq2]. destruct (Z.eq_dec (fst q) l) as [Hl'|Hl'].
      * rewrite Q2 by lia. apply P1. destruct q; cbn in *; congruence.
      * apply Q1. lia.
    + intros Hq. rewrite Q2 by lia. apply P2. intros ->. cbn in Hq. lia.
Qed.

Definition seed_body (im : image) (from y' : Z) (x : Z) (s : list (Z * Z) * bool) : out (list (Z * Z) * bool) :=
  let '(q, prev) := s in
  let* p := get_pixel im x y' in
  if p =? from then Ok (if prev : bool then q else (x, y') :: q, true)
  else Ok (q, false).

Lemma seed_ok im from l r y' queue :
  wf_image im -> 0 <= l <= r -> r < im_w im -> 0 <= y' < im_h im ->
  exists new, seed im from l r y' queue = Ok (new ++ queue)
    /\ (Z.of_nat (length new) <= r + 1 - l)
    /\ (forall s, In s new -> snd s = y' /\ l <= fst s <= r /\ pix im s = from)
    /\ (forall x, l <= x <= r -> pix im (x, y') = from ->
          exists s, In s new /\ fst s <= x /\ forall i, fst s <= i <= x -> pix im (i, y') = from).
Proof.
  intros W Hlr Hr Hy. unfold seed. change (fun x s => let '(q, prev) := s in _) with (seed_body im from y').
  pose (P := fun k (s : list (Z * Z) * bool) => exists new, fst s = new ++ queue
    /\ Z.of_nat (length new) <= k - l
    /\ (forall s, In s new -> snd s = y' /\ l <= fst s < k /\ pix im s = from)
    /\ (snd s = true -> k > l /\ pix im (k - 1, y') = from)
    /\ (snd s = false -> k > l -> pix im (k - 1, y') <> from)
    /\ (forall x, l <= x < k -> pix im (x, y') = from ->
          exists s, In s new /\ fst s <= x /\ forall i, fst s <= i <= x -> pix im (i, y') = from)).
  destruct (@zfor_ok _ _ P (seed_body im from y') l (r + 1) (queue, false)) as ((q & prev) & E & HP).
  - lia.
  - exists []. cbn. repeat split; try lia; try contradiction. 
  - intros k [q prev] Hk (new & H1 & H2 & H3 & H4 & H5 & H6). cbn [fst snd] in *.
    assert (I : in_image im (k, y')) by (split; cbn; lia).
    unfold seed_body. rewrite get_pixel_ok by assumption. cbn [bind].
    destruct (pix im (k, y') =? from) eqn:Ep.
    + destruct prev.
      * exists (q, true). split; [reflexivity|]. exists new. cbn [fst snd]. split; [assumption|]. split; [lia|].
        split. { intros s Hs. specialize (H3 s Hs). repeat split; try tauto; lia. }
        replace (k + 1 - 1) with k by lia.
        split; [lia|]. split; [discriminate|]. intros x Hx Hpx.
        destruct (Z.eq_dec x k) as [->|Hne]; [|apply H6; lia || assumption].
        destruct (H4 eq_refl) as [Hkl Hprev]. destruct (H6 (k - 1) ltac:(lia) Hprev) as (s & Hs & Hs1 & Hs2).
        exists s. split; [assumption|]. split; [lia|]. intros i Hi.
        destruct (Z.eq_dec i k) as [->|]; [assumption|]. apply Hs2. lia.
      * exists ((k, y') :: q, true). split; [reflexivity|]. exists ((k, y') :: new). cbn [fst snd length].
        split. { rewrite H1. reflexivity. } split; [lia|].
        split. { intros s [<-|Hs]; [cbn; repeat split; lia|]. specialize (H3 s Hs). repeat split; try tauto; lia. }
        replace (k + 1 - 1) with k by lia.
        split; [lia|]. split; [discriminate|]. intros x Hx Hpx.
        destruct (Z.eq_dec x k) as [->|Hne].
        -- exists (k, y'). split; [left; reflexivity|]. cbn. split; [lia|]. intros i Hi.
           replace i with k by lia. assumption.
        -- destruct (H6 x ltac:(lia) Hpx) as (s & Hs & Hs1 & Hs2). exists s. split; [right; assumption|]. auto.
    + exists (q, false). split; [reflexivity|]. exists new. cbn [fst snd]. split; [assumption|]. split; [lia|].
      split. { intros s Hs. specialize (H3 s Hs). repeat split; try tauto; lia. }
      replace (k + 1 - 1) with k by lia.
      split; [discriminate|]. split; [lia|]. intros x Hx Hpx.
      apply H6; [|assumption]. assert (x <> k) by (intros ->; lia). lia.
  - cbn in E. rewrite E. cbn. destruct HP as (new & H1 & H2 & H3 & _ & _ & H6). cbn in H1. subst q.
    exists new. split; [reflexivity|]. split; [lia|]. split.
    + intros s Hs. specialize (H3 s Hs). repeat split; try tauto; lia.
    + intros x Hx. apply H6. lia.
Qed.

(** * The loop *)

Definition row_cells (r : row) : list pixel := segment (r_left r) (r_right r) (r_y r).
Definition rows_cells (l : list row) : list pixel := flat_map row_cells l.

Section Loop.
Variables (I0 : image) (from to : Z) (start : pixel).
Hypothesis W0 : wf_image I0.
Hypothesis Hft : from <> to.

Let S0 (q : pixel) : Prop := in_image I0 q /\ pix I0 q = from.
Let C (q : pixel) : Prop := linked S0 start q.

(** All pixels of row [y] between the columns [a] and [b] have the colour [from] initially. *)
Definition run (y a b : Z) : Prop := forall i, Z.min a b <= i <= Z.max a b -> pix I0 (i, y) = from.

Record inv (im : image) (queue : list pixel) : Prop := {
  inv_wf : wf_image im;
  inv_size : same_size I0 im;
  inv_pix : forall q, in_image I0 q -> pix im q = pix I0 q \/ (pix im q = to /\ C q);
  inv_queue : forall s, In s queue -> C s;
  inv_row : forall x y, in_image I0 (x, y) -> in_image I0 (x + 1, y) ->
    pix I0 (x, y) = from -> pix I0 (x + 1, y) = from -> (pix im (x, y) = from <-> pix im (x + 1, y) = from);
  inv_next : forall p q, C p -> C q -> pix im q = from -> pix im p <> from -> fst p = fst q -> adjacent p q ->
    exists s, In s queue /\ snd s = snd q /\ run (snd q) (fst s) (fst q);
  inv_start : pix im start = from -> In start queue
}.

Lemma C_in q : C q -> in_image I0 q /\ pix I0 q = from.
Proof. intros H. exact (linked_S _ _ _ H). Qed.

Lemma run_iff_le im queue y : inv im queue -> forall n a b, n = Z.to_nat (b - a) -> a <= b ->
  in_image I0 (a, y) -> in_image I0 (b, y) -> run y a b ->
  (pix im (a, y) = from <-> pix im (b, y) = from).
Proof.
  intros J. induction n as [|n IH]; intros a b Hn Hab Ia Ib R.
  - replace b with a by lia. reflexivity.
  - destruct Ia as [Ia1 Ia2], Ib as [Ib1 Ib2]; cbn in *.
    rewrite (inv_row _ _ J a y).
    + apply IH; try lia; try (split; cbn; lia). intros i Hi. apply R. lia.
    + split; cbn; lia.
    + split; cbn; lia.
    + apply R. lia.
    + apply R. lia.
Qed.

Lemma run_sym y a b : run y a b -> run y b a.
Proof. intros H i Hi. apply H. lia. Qed.

Lemma run_iff im queue y a b : inv im queue ->
  in_image I0 (a, y) -> in_image I0 (b, y) -> run y a b ->
  (pix im (a, y) = from <-> pix im (b, y) = from).
Proof.
  intros J Ia Ib R. destruct (Z.le_ge_cases a b) as [H|H].
  - eapply run_iff_le; eauto.
  - symmetry. eapply run_iff_le; eauto using run_sym.
Qed.

Lemma C_run y a b : C (a, y) -> in_image I0 (b, y) -> run y a b -> C (b, y).
Proof.
  intros Ha Ib R. destruct (C_in _ Ha) as [[Iax Iay] _]. destruct Ib as [Ibx Iby]. cbn in *.
  assert (G : forall n k, 0 <= k -> n = Z.to_nat k -> k <= Z.abs (b - a) ->
              C (a + Z.sgn (b - a) * k, y)).
  { induction n as [|n IH]; intros k Hk Hn Hle.
    - replace (a + Z.sgn (b - a) * k) with a by nia. exact Ha.
    - eapply linked_step; [apply (IH (k - 1)); lia|unfold adjacent; cbn; nia|].
      split; [split; cbn; nia|]. apply R. nia. }
  specialize (G _ (Z.abs (b - a)) ltac:(lia) eq_refl ltac:(lia)).
  replace (a + Z.sgn (b - a) * Z.abs (b - a)) with b in G by nia. exact G.
Qed.

(** Discarding a queue entry that is already painted. *)
Lemma inv_drop im s queue : inv im (s :: queue) -> pix im s <> from -> inv im queue.
Proof.
  intros J Hs. destruct J as [J1 J2 J3 J4 J5 J6 J7] eqn:EJ. split; try assumption.
  - intros t Ht. apply J4. right; assumption.
  - intros p q Cp Cq Hq Hp Hf Ha. destruct (J6 p q Cp Cq Hq Hp Hf Ha) as (t & [<-|Ht] & H1 & H2); [|eauto].
    exfalso. apply Hs. destruct (C_in _ (J4 s (or_introl eq_refl))) as [Is _].
    destruct (C_in _ Cq) as [Iq _]. destruct s as [sx sy], q as [qx qy]. cbn in *. subst sy.
    apply (run_iff im ((sx, qy) :: queue) qy sx qx); assumption.
  - intros Hst. destruct (J7 Hst) as [->|H]; [contradiction|assumption].
Qed.

(** Painting the run around a queue entry and seeding its neighbour rows. *)
Lemma inv_paint im x y queue l r im' up down :
  inv im ((x, y) :: queue) ->
  0 <= l <= x -> x <= r < im_w I0 ->
  (forall i, l <= i <= r -> pix im (i, y) = from) ->
  (0 < l -> pix im (l - 1, y) <> from) ->
  (r + 1 < im_w I0 -> pix im (r + 1, y) <> from) ->
  wf_image im' -> same_size I0 im' ->
  (forall q, in_image I0 q ->
     (snd q = y /\ l <= fst q <= r -> pix im' q = to)
     /\ (~ (snd q = y /\ l <= fst q <= r) -> pix im' q = pix im q)) ->
  (forall s, In s up -> 0 < y /\ snd s = y - 1 /\ l <= fst s <= r /\ pix im' s = from) ->
  (0 < y -> forall x, l <= x <= r -> pix im' (x, y - 1) = from ->
     exists s, In s up /\ fst s <= x /\ forall i, fst s <= i <= x -> pix im' (i, y - 1) = from) ->
  (forall s, In s down -> y + 1 < im_h I0 /\ snd s = y + 1 /\ l <= fst s <= r /\ pix im' s = from) ->
  (y + 1 < im_h I0 -> forall x, l <= x <= r -> pix im' (x, y + 1) = from ->
     exists s, In s down /\ fst s <= x /\ forall i, fst s <= i <= x -> pix im' (i, y + 1) = from) ->
  inv im' (down ++ up ++ queue).
Proof.
  intros J Hl Hr Hrun Hle Hre W' S' Q' U1 U2 D1 D2.
  pose proof J as [J1 J2 J3 J4 J5 J6 J7].
  assert (Cx : C (x, y)) by (apply J4; left; reflexivity).
  destruct (C_in _ Cx) as [[Ix Iy] Px]; cbn in Ix, Iy.
  assert (FI : forall q, in_image I0 q -> pix im q = from -> pix I0 q = from).
  { intros q Iq Hq. destruct (J3 q Iq) as [E|[E _]]; congruence. }
  assert (Cl : forall i, l <= i <= r -> C (i, y)).
  { intros i Hi. apply (C_run y x i Cx); [split; cbn; lia|]. intros j Hj. apply FI; [split; cbn; lia|].
    apply Hrun. lia. }
  assert (J3' : forall q, in_image I0 q -> pix im' q = pix I0 q \/ (pix im' q = to /\ C q)).
  { intros q Iq. destruct (Q' q Iq) as [Q1 Q2].
    destruct (Z.eq_dec (snd q) y) as [Hy|Hy].
    - destruct (Z_le_dec l (fst q)) as [H1|H1].
      + destruct (Z_le_dec (fst q) r) as [H2|H2].
        * right. split; [apply Q1; lia|]. destruct q as [a b]. cbn in *. subst b. apply Cl. lia.
        * rewrite Q2 by lia. apply J3. assumption.
      + rewrite Q2 by lia. apply J3. assumption.
    - rewrite Q2 by lia. apply J3. assumption. }
  assert (FI' : forall q, in_image I0 q -> pix im' q = from -> pix I0 q = from).
  { intros q Iq Hq. destruct (J3' q Iq) as [E|[E _]]; congruence. }
  (* pixels keeping [from] were not in the run *)
  assert (K : forall q, in_image I0 q -> pix im' q = from -> ~ (snd q = y /\ l <= fst q <= r) /\ pix im q = from).
  { intros q Iq Hq. destruct (Q' q Iq) as [Q1 Q2].
    assert (N : ~ (snd q = y /\ l <= fst q <= r)) by (intros H; rewrite (Q1 H) in Hq; congruence).
    split; [assumption|]. rewrite <- Q2; assumption. }
  (* a pixel of row y joined to (x, y) by a run lies in [l, r] *)
  assert (X : forall b, in_image I0 (b, y) -> run y x b -> l <= b <= r).
  { intros b Ib R. destruct Ib as [Ib _]; cbn in Ib.
    assert (Pb : forall i, Z.min x b <= i <= Z.max x b -> pix im (i, y) = from).
    { intros i Hi. apply (run_iff im _ y x i J); [split; cbn; lia|split; cbn; lia| |apply Hrun; lia].
      intros j Hj. apply R. lia. }
    split.
    - destruct (Z_le_dec l b) as [|N]; [assumption|]. exfalso. apply Hle; [lia|]. apply Pb. lia.
    - destruct (Z_le_dec b r) as [|N]; [assumption|]. exfalso. apply Hre; [lia|]. apply Pb. lia. }
  split.
  - exact W'.
  - exact S'.
  - exact J3'.
  - intros s Hs. apply in_app_or in Hs. destruct Hs as [Hs|Hs]; [|apply in_app_or in Hs; destruct Hs as [Hs|Hs]].
    + destruct (D1 s Hs) as (H1 & H2 & H3 & H4). destruct s as [a b]; cbn in *. subst b.
      assert (Is : in_image I0 (a, y + 1)) by (split; cbn; lia).
      eapply linked_step; [apply (Cl a); lia|unfold adjacent; cbn; lia|]. split; auto.
    + destruct (U1 s Hs) as (H1 & H2 & H3 & H4). destruct s as [a b]; cbn in *. subst b.
      assert (Is : in_image I0 (a, y - 1)) by (split; cbn; lia).
      eapply linked_step; [apply (Cl a); lia|unfold adjacent; cbn; lia|]. split; auto.
    + apply J4. right; assumption.
  - intros a b Ia Ib Pa Pb. destruct (Q' _ Ia) as [A1 A2], (Q' _ Ib) as [B1 B2]. cbn in *.
    pose proof (J5 a b Ia Ib Pa Pb) as E. destruct Ia as [Ia _], Ib as [Ib _]; cbn in Ia, Ib.
    destruct (Z.eq_dec b y) as [->|Hb]; [|rewrite A2, B2 by lia; exact E].
    assert (in_a : l <= a <= r \/ ~ l <= a <= r) by lia.
    assert (in_b : l <= a + 1 <= r \/ ~ l <= a + 1 <= r) by lia.
    destruct in_a as [Ha|Ha], in_b as [Hb|Hb].
    + rewrite A1, B1 by lia. split; congruence.
    + exfalso. assert (a = r) by lia. subst a. apply Hre; [lia|]. apply E. apply Hrun. lia.
    + exfalso. assert (a = l - 1) by lia. subst a. apply Hle; [lia|]. apply E.
      replace (l - 1 + 1) with l by lia. apply Hrun. lia.
    + rewrite A2, B2 by lia. exact E.
  - intros p q Cp Cq Hq Hp Hf Ha.
    destruct (C_in _ Cp) as [Ip _], (C_in _ Cq) as [Iq _].
    destruct (K q Iq Hq) as [Nq Hq'].
    assert (D : (snd p = y /\ l <= fst p <= r) \/ ~ (snd p = y /\ l <= fst p <= r)) by lia.
    destruct D as [D|D].
    + destruct p as [pa pb], q as [qa qb]. unfold adjacent in Ha. cbn in *. subst qa. destruct D as [-> D].
      destruct Iq as [Iqx Iqy]; cbn in Iqx, Iqy.
      assert (qb = y - 1 \/ qb = y + 1) as [-> | ->] by lia.
      * destruct (U2 ltac:(lia) pa ltac:(lia) Hq) as (s & Hs & H1 & H2). exists s.
        destruct (U1 s Hs) as (_ & H3 & H4 & _).
        split; [apply in_or_app; right; apply in_or_app; left; assumption|]. split; [exact H3|].
        intros i Hi. apply FI'; [split; cbn; lia|]. apply H2. lia.
      * destruct (D2 ltac:(lia) pa ltac:(lia) Hq) as (s & Hs & H1 & H2). exists s.
        destruct (D1 s Hs) as (_ & H3 & H4 & _).
        split; [apply in_or_app; left; assumption|]. split; [exact H3|].
        intros i Hi. apply FI'; [split; cbn; lia|]. apply H2. lia.
    + destruct (Q' p Ip) as [_ Q2]. rewrite (Q2 D) in Hp.
      destruct (J6 p q Cp Cq Hq' Hp Hf Ha) as (s & [<-|Hs] & H1 & H2).
      * exfalso. cbn in H1, H2. apply Nq. split; [congruence|]. destruct q as [qa qb]; cbn in *. subst qb.
        apply X; assumption.
      * exists s. split; [apply in_or_app; right; apply in_or_app; right; assumption|]. auto.
  - intros Hs. destruct (C_in _ (linked_here _ start (linked_start _ _ _ Cx))) as [Is _].
    destruct (K _ Is Hs) as [Ns Hs']. apply in_or_app; right; apply in_or_app; right.
    destruct (J7 Hs') as [E|H]; [|assumption]. exfalso. apply Ns. rewrite <- E. cbn. lia.
Qed.

(** At the end exactly the component is painted. *)
Lemma inv_done im : S0 start -> inv im [] -> forall q, in_image I0 q ->
  (C q -> pix im q = to) /\ (~ C q -> pix im q = pix I0 q).
Proof.
  intros Hst J q Iq. pose proof J as [J1 J2 J3 J4 J5 J6 J7]. split.
  - intros Cq.
    assert (D : pix im q <> from).
    { revert Cq. apply (linked_closed S0 (fun q => C q /\ pix im q <> from) start).
      - split; [constructor; assumption|]. intros E. exact (J7 E).
      - intros a b [Ca Ha] [Ia Pa] [Ib Pb] Hab.
        assert (Cb : C b) by (eapply linked_step; [exact Ca|exact Hab|split; assumption]).
        split; [assumption|]. intros Hb.
        destruct (Z.eq_dec (fst a) (fst b)) as [E|E].
        + destruct (J6 a b Ca Cb Hb Ha E Hab) as (s & [] & _).
        + destruct a as [ax ay], b as [bx by_]. unfold adjacent in Hab. cbn in *. assert (by_ = ay) by lia. subst by_.
          apply Ha. apply (run_iff im [] ay ax bx J Ia Ib); [|exact Hb].
          intros i Hi. assert (i = ax \/ i = bx) as [-> | ->] by lia; assumption. }
    destruct (J3 q Iq) as [E|[E _]]; [|assumption]. exfalso. apply D. rewrite E. apply (C_in _ Cq).
  - intros N. destruct (J3 q Iq) as [E|[_ E]]; [assumption|contradiction].
Qed.

Lemma rows_snoc rows r : rows_cells (rows ++ [r]) = rows_cells rows ++ row_cells r.
Proof. unfold rows_cells. rewrite flat_map_app. cbn. rewrite app_nil_r. reflexivity. Qed.

(** The rows reported so far are the painted pixels, each once. *)
Definition reported (im : image) (rows : list row) : Prop :=
  NoDup (rows_cells rows)
  /\ (forall q, In q (rows_cells rows) <-> in_image I0 q /\ pix I0 q = from /\ pix im q <> from)
  /\ Forall (fun r => r_left r <= r_right r) rows.

Lemma NoDup_app_intro {A} (l l' : list A) :
  NoDup l -> NoDup l' -> (forall a, In a l -> ~ In a l') -> NoDup (l ++ l').
Proof.
  intros H1 H2 H. induction H1 as [|a l Ha H1 IH]; [assumption|]. cbn. constructor.
  - rewrite in_app_iff. intros [X|X]; [contradiction|]. apply (H a); [left; reflexivity|assumption].
  - apply IH. intros b Hb. apply H. right; assumption.
Qed.

Lemma loop_ok fuel : forall im queue rows0,
  S0 start -> inv im queue -> reported im rows0 ->
  (length queue + 3 * left_over from im < fuel)%nat ->
  exists im' rows, inv im' [] /\ reported im' (rows0 ++ rows)
    /\ forall F (update : row -> F -> out F) f,
         flood_loop fuel update from to queue im f
         = let* f' := for_each rows update f in Ok (im', f').
Proof.
  induction fuel as [|fuel IH]; intros im queue rows0 Hst J R Hm; [lia|].
  destruct queue as [|[x y] queue].
  { exists im, []. rewrite app_nil_r. split; [assumption|]. split; [assumption|]. reflexivity. }
  pose proof J as [J1 J2 J3 J4 J5 J6 J7].
  destruct (C_in _ (J4 _ (or_introl eq_refl))) as [I P].
  assert (Iim : in_image im (x, y)) by (apply (same_size_in _ _ _ J2); assumption).
  destruct J2 as [Sw Sh].
  destruct (Z.eq_dec (pix im (x, y)) from) as [Hp|Hp].
  2:{ (* already painted *)
    destruct (IH im queue rows0 Hst (inv_drop _ _ _ J Hp) R) as (im' & rows & A & B & E).
    { cbn in Hm. lia. }
    exists im', rows. split; [assumption|]. split; [assumption|]. intros F update f. cbn [flood_loop].
    rewrite get_pixel_ok by assumption. cbn [bind].
    replace ((pix im (x, y) =? to) || negb (pix im (x, y) =? from)) with true by lia. apply E. }
  destruct (go_left_ok im from y (Z.to_nat x) x J1 Iim Hp (Nat.le_refl _)) as (l & El & Hl & Hlr & Hle).
  destruct (go_right_ok im from y (S (Z.to_nat (im_w im))) x J1 Iim Hp ltac:(lia)) as (r & Er & Hr & Hrr & Hre).
  pose proof I as [Ix Iy]; cbn in Ix, Iy.
  assert (Hrun : forall i, l <= i <= r -> pix im (i, y) = from).
  { intros i Hi. destruct (Z_le_dec i x); [apply Hlr|apply Hrr]; lia. }
  destruct (paint_ok from to y r _ l im Hft eq_refl J1 ltac:(lia) ltac:(lia) ltac:(lia) Hrun)
    as (im1 & Ep & W1 & S1 & L1 & Q1).
  assert (S1' : same_size I0 im1) by (destruct S1; split; congruence).
  assert (Q1' : forall q, in_image I0 q ->
     (snd q = y /\ l <= fst q <= r -> pix im1 q = to)
     /\ (~ (snd q = y /\ l <= fst q <= r) -> pix im1 q = pix im q)).
  { intros q Iq. apply Q1. unfold in_image. rewrite Sw, Sh. exact Iq. }
  destruct S1' as [Sw1 Sh1].
  (* seeding the row above *)
  assert (U : exists up, (if 0 <? y then seed im1 from l r (y - 1) queue else Ok queue) = Ok (up ++ queue)
    /\ (Z.of_nat (length up) <= r + 1 - l)
    /\ (forall s, In s up -> 0 < y /\ snd s = y - 1 /\ l <= fst s <= r /\ pix im1 s = from)
    /\ (0 < y -> forall x, l <= x <= r -> pix im1 (x, y - 1) = from ->
         exists s, In s up /\ fst s <= x /\ forall i, fst s <= i <= x -> pix im1 (i, y - 1) = from)).
  { destruct (0 <? y) eqn:Ey.
    - destruct (seed_ok im1 from l r (y - 1) queue W1 ltac:(lia) ltac:(lia) ltac:(lia)) as (up & E & Hn & A & B).
      exists up. split; [exact E|]. split; [exact Hn|]. split; [|intros _; exact B].
      intros s Hs. specialize (A s Hs). split; [lia|exact A].
    - exists []. cbn. split; [reflexivity|]. split; [lia|]. split; [contradiction|lia]. }
  destruct U as (up & EU & NU & U1 & U2).
  assert (D : exists down, (if y <? im_h im1 - 1 then seed im1 from l r (y + 1) (up ++ queue) else Ok (up ++ queue))
                           = Ok (down ++ up ++ queue)
    /\ (Z.of_nat (length down) <= r + 1 - l)
    /\ (forall s, In s down -> y + 1 < im_h I0 /\ snd s = y + 1 /\ l <= fst s <= r /\ pix im1 s = from)
    /\ (y + 1 < im_h I0 -> forall x, l <= x <= r -> pix im1 (x, y + 1) = from ->
         exists s, In s down /\ fst s <= x /\ forall i, fst s <= i <= x -> pix im1 (i, y + 1) = from)).
  { destruct (y <? im_h im1 - 1) eqn:Ey.
    - destruct (seed_ok im1 from l r (y + 1) (up ++ queue) W1 ltac:(lia) ltac:(lia) ltac:(lia)) as (down & E & Hn & A & B).
      exists down. split; [exact E|]. split; [exact Hn|]. split; [|intros _; exact B].
      intros s Hs. specialize (A s Hs). split; [lia|exact A].
    - exists []. cbn. split; [reflexivity|]. split; [lia|]. split; [contradiction|lia]. }
  destruct D as (down & ED & ND & D1 & D2).
  assert (J' : inv im1 (down ++ up ++ queue)).
  { apply (inv_paint im x y queue l r im1 up down J); try assumption; try lia.
    all: first [ solve [split; assumption] | intros H; apply Hre; lia ]. }
  assert (R' : reported im1 (rows0 ++ [MkRow l r y])).
  { destruct R as (R1 & R2 & R3). unfold reported. rewrite rows_snoc. split; [|split].
    - apply NoDup_app_intro; [assumption|apply segment_nodup|].
      intros a Ha Hb. apply R2 in Ha. apply in_segment in Hb. cbn in Hb. destruct a as [ax ay]; cbn in Hb.
      destruct Hb as [-> Hb]. apply Ha. apply Hrun. lia.
    - intros q. rewrite in_app_iff, R2. unfold row_cells. rewrite in_segment. cbn [r_left r_right r_y].
      assert (X : (snd q = y /\ l <= fst q <= r) \/ ~ (snd q = y /\ l <= fst q <= r)) by lia.
      destruct X as [X|X].
      + split; [intros _|intros _; right; assumption].
        assert (Iq : in_image I0 q) by (split; lia).
        split; [assumption|]. destruct (Q1' q Iq) as [A _]. rewrite (A X). split; [|congruence].
        destruct (J3 q Iq) as [E|[E _]].
        * rewrite <- E. destruct q; cbn in X. destruct X as [-> X]. apply Hrun. lia.
        * exfalso. destruct q; cbn in X. destruct X as [-> X]. rewrite Hrun in E by lia. congruence.
      + split.
        * intros [(A & B & E)|A]; [|contradiction]. split; [assumption|]. split; [assumption|].
          destruct (Q1' q A) as [_ A']. rewrite (A' X). assumption.
        * intros (A & B & E). left. split; [assumption|]. split; [assumption|].
          destruct (Q1' q A) as [_ A']. rewrite (A' X) in E. assumption.
    - apply Forall_app. split; [assumption|]. constructor; [cbn; lia|constructor]. }
  destruct (IH im1 _ _ Hst J' R') as (im' & rows & A & B & E).
  { rewrite !app_length. cbn [length] in Hm. lia. }
  exists im', (MkRow l r y :: rows). rewrite <- app_assoc in B. cbn in B.
  split; [assumption|]. split; [assumption|]. intros F update f. cbn [flood_loop].
  rewrite get_pixel_ok by assumption. cbn [bind].
  replace ((pix im (x, y) =? to) || negb (pix im (x, y) =? from)) with false by lia.
  rewrite El, Er. cbn [bind]. rewrite Ep. cbn [bind for_each].
  rewrite bind_assoc. apply bind_ext. intros f1 _.
  unfold pixel, out in *. rewrite EU. cbn [bind]. unfold usub. replace (1 <=? im_h im1) with true by lia. cbn [bind].
  rewrite ED. cbn [bind]. apply E.
Qed.

End Loop.

(** * The flood fill *)

Lemma inv_initial I0 from to start : wf_image I0 -> in_image I0 start -> pix I0 start = from ->
  inv I0 from to start I0 [start].
Proof.
  intros W I P.
  assert (C0 : linked (fun q => in_image I0 q /\ pix I0 q = from) start start) by (constructor; auto).
  split.
  - assumption.
  - split; reflexivity.
  - intros q _. left; reflexivity.
  - intros s [<-|[]]. assumption.
  - intros x y _ _ A B. rewrite A, B. reflexivity.
  - intros p q Cp _ _ N _ _. exfalso. apply N. apply (linked_S _ _ _ Cp).
  - intros _. left; reflexivity.
Qed.

(** [flood_fill] paints the pixels linked to the start through pixels of colour [from],
    changes no other pixel, and feeds the filler rows that partition the painted pixels. *)
Theorem flood_fill_ok im x y from to :
  wf_image im -> in_image im (x, y) -> from <> to ->
  let C := linked (fun q => in_image im q /\ pix im q = from) (x, y) in
  exists im' rows, wf_image im' /\ same_size im im'
    /\ (forall q, in_image im q -> (C q -> pix im' q = to) /\ (~ C q -> pix im' q = pix im q))
    /\ NoDup (rows_cells rows) /\ (forall q, In q (rows_cells rows) <-> C q)
    /\ Forall (fun r => r_left r <= r_right r) rows
    /\ forall F (update : row -> F -> out F) f,
         flood_fill im x y from to update f = let* f' := for_each rows update f in Ok (im', f').
Proof.
  intros W I Hft C. destruct (Z.eq_dec (pix im (x, y)) from) as [P|P].
  - assert (R0 : reported im from im []).
    { split; [constructor|]. split; [|constructor]. cbn. intros q. split; [contradiction|]. intros (_ & A & B). contradiction. }
    destruct (loop_ok im from to (x, y) Hft (flood_fuel im) im [(x, y)] [] ltac:(split; assumption)
                (inv_initial im from to (x, y) W I P) R0) as (im' & rows & J & R & E).
    { unfold flood_fuel. pose proof (cnt_le from (im_px im)). unfold left_over. cbn [length]. lia. }
    cbn in R. destruct R as (R1 & R2 & R3).
    pose proof (inv_done im from to (x, y) im' ltac:(split; assumption) J) as D.
    exists im', rows. split; [apply J|]. split; [apply J|]. split; [exact D|]. split; [assumption|].
    split; [|split; [assumption|]].
    + intros q. rewrite R2. split.
      * intros (A & B & B'). destruct (inv_pix _ _ _ _ _ _ J q A) as [X|[_ X]]; [congruence|exact X].
      * intros Cq. destruct (linked_S _ _ _ Cq) as [A B]. split; [assumption|]. split; [assumption|].
        destruct (D q A) as [X _]. rewrite (X Cq). congruence.
    + intros F update f. unfold flood_fill. replace (from =? to) with false by lia. cbn [negb assert_ bind]. apply E.
  - assert (N : forall q, ~ C q). { intros q Cq. apply linked_start in Cq. destruct Cq. contradiction. }
    exists im, []. split; [assumption|]. split; [split; reflexivity|].
    split. { intros q _. split; [intros Cq; exfalso; exact (N q Cq)|reflexivity]. }
    split; [constructor|]. split. { intros q. split; [contradiction|]. intros Cq. exfalso; exact (N q Cq). }
    split; [constructor|]. intros F update f. unfold flood_fill. replace (from =? to) with false by lia.
    cbn [negb assert_ bind]. unfold flood_fuel. cbn [flood_loop for_each bind].
    rewrite get_pixel_ok by assumption. cbn [bind].
    replace ((pix im (x, y) =? to) || negb (pix im (x, y) =? from)) with true by lia.
    destruct (3 * length (im_px im))%nat; reflexivity.
Qed.

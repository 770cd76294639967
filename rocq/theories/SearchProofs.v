(** Claiming capstones (C30, C34, C36). *)
From Verif Require Import Base Lib ModelImage ModelGeometry ModelDetect SpecImage SpecScan FloodProofs RegionProofs ScanProofs
  DetectProofs CornerProofs.
From Coq Require Import ZifyBool ZifyNat ZifyN.
Ltac Zify.zify_post_hook ::= Z.div_mod_to_equations.

Definition claimed (p : prepared) (q : pixel) : Prop := 2 <= pix (p_buf p) q <= 4.

(** The shape of a finder pattern, in the picture alone: left and right belong to
    the same component, the stone to another one, the areas are right. *)
Definition finder_shape (I0 : image) (y : Z) (l : linepos) : Prop :=
  iblob I0 (l_right l, y) (l_left l, y) /\ ~ iblob I0 (l_right l, y) (l_stone l, y)
  /\ exists ring stone, area (iblob I0 (l_right l, y)) ring /\ area (iblob I0 (l_stone l, y)) stone
       /\ 10 < stone * 100 / ring < 70.

Definition dark_line (I0 : image) (y : Z) (l : linepos) : Prop :=
  forall x, x = l_left l \/ x = l_stone l \/ x = l_right l -> in_image I0 (x, y) /\ pix I0 (x, y) <> 0.

Definition byte_of (c : color) : Z :=
  match c with White => 0 | Black => 1 | CCapStone => 2 | CAlignment => 3 | CTmp1 => 4 | Discarded x => x + 5 end.

Lemma byte_of_color a : 0 <= a -> byte_of (color_of a) = a.
Proof.
  intros Ha. unfold color_of. destruct (a =? 0) eqn:E0; [cbn; lia|]. destruct (a =? 1) eqn:E1; [cbn; lia|].
  destruct (a =? 2) eqn:E2; [cbn; lia|]. destruct (a =? 3) eqn:E3; [cbn; lia|]. destruct (a =? 4) eqn:E4; cbn; lia.
Qed.

Lemma color_of_inj a b : 0 <= a -> 0 <= b -> color_of a = color_of b -> a = b.
Proof. intros Ha Hb H. rewrite <- (byte_of_color a Ha), <- (byte_of_color b Hb), H. reflexivity. Qed.

Lemma color_nonneg I0 p q : reg_inv I0 p -> in_image I0 q -> 0 <= pix (p_buf p) q.
Proof. intros [B X2 X3 X4 X5 X6 X7] Iq. destruct (X7 q Iq) as [H|H]; [lia|]. apply X5 in H. lia. Qed.

Lemma area_pos I0 q n : in_image I0 q -> pix I0 q <> 0 -> area (iblob I0 q) n -> 1 <= n.
Proof.
  intros Iq Nq (l & _ & H & <-). assert (In q l) by (apply H, blob_here; assumption). destruct l; [contradiction|]. cbn [length]. lia.
Qed.

Lemma area_bound I0 q n : 0 <= im_w I0 -> 0 <= im_h I0 -> area (iblob I0 q) n -> n <= im_w I0 * im_h I0.
Proof.
  intros Hw Hh (l & N & H & <-). apply pixels_bound; try assumption. intros r Hr. apply H in Hr. apply blob_in in Hr. apply Hr.
Qed.

Definition unclaimed (p : prepared) (q : pixel) : Prop := ~ claimed p q.

Lemma is_capstone_ok I0 p l y : reg_inv I0 p -> dark_line I0 y l ->
  (exists b p', is_capstone p l y = Ok (b, p') /\ reg_inv I0 p' /\ claims_kept I0 p p'
     /\ (b = true <-> unclaimed p (l_right l, y) /\ unclaimed p (l_stone l, y) /\ finder_shape I0 y l))
  \/ (is_capstone p l y = Panic /\ ~ (100 * (im_w I0 * im_h I0) <= usize_max)).
Proof.
  intros R D.
  destruct (D (l_right l) ltac:(tauto)) as [Ir Nr]. destruct (D (l_stone l) ltac:(tauto)) as [Is Ns].
  destruct (D (l_left l) ltac:(tauto)) as [Il Nl].
  assert (NW : forall p q, reg_inv I0 p -> in_image I0 q -> pix I0 q <> 0 -> pix (p_buf p) q <> 0).
  { intros p' q R' Iq Nq. rewrite (bi_white _ _ (ri_base _ _ R')) by assumption. assumption. }
  unfold is_capstone.
  destruct (get_region_ok I0 p _ _ R Ir (NW _ _ R Ir Nr)) as (ring & p1 & E1 & R1 & K1 & A1 & _ & Q1).
  rewrite E1. cbn [bind].
  destruct (get_region_ok I0 p1 _ _ R1 Is (NW _ _ R1 Is Ns)) as (stone & p2 & E2 & R2 & K2 & A2 & T2 & _).
  rewrite E2. cbn [bind].
  assert (Inw : forall q, in_image I0 q -> in_image (p_buf p2) q) by (intros q Hq; apply (same_size_in _ _ _ (bi_size _ _ (ri_base _ _ R2))); assumption).
  unfold get_pixel_at. rewrite !get_pixel_ok; try apply (bi_wf _ _ (ri_base _ _ R2)); try (apply Inw; assumption). cbn [bind].
  set (b := pix (p_buf p) (l_right l, y)) in *. set (b1 := pix (p_buf p1) (l_stone l, y)) in *.
  assert (KK : claims_kept I0 p p2).
  { intros r Ir' H. rewrite (K2 r Ir'); [apply (K1 r Ir')|]; destruct H as [H|[H|H]].
    - auto.
    - auto.
    - right. right. rewrite <- (K2 r Ir'); [assumption|]. auto.
    - left. rewrite (K1 r Ir'); auto.
    - right. left. rewrite (K1 r Ir'); auto.
    - auto. }
  assert (C1 : claimed p (l_stone l, y) <-> 2 <= b1 <= 4).
  { unfold claimed, b1. split; intros H.
    - rewrite (K1 _ Is); [assumption|auto].
    - rewrite <- (K1 _ Is); [assumption|auto]. }
  pose proof (color_nonneg I0 p (l_right l, y) R Ir) as B0. fold b in B0.
  pose proof (color_nonneg I0 p1 (l_stone l, y) R1 Is) as B1. fold b1 in B1.
  assert (Cases : forall z reg q p', 0 <= z -> z <> 0 -> region_answer I0 q z reg p' ->
     (2 <= z <= 4 /\ (reg = RCapStone \/ reg = RAlignment \/ reg = RTmp1)) \/
     (~ (2 <= z <= 4) /\ exists k sx sy n, reg = Unclaimed (Discarded k) sx sy n /\ 0 <= k < cache_cap
           /\ iblob I0 q (sx, sy) /\ area (iblob I0 q) n
           /\ forall r, in_image I0 r -> (pix (p_buf p') r = k + 5 <-> iblob I0 q r))).
  { clear. intros z reg q p' H0 N0 H. unfold region_answer in H. destruct z as [|[[z|z|]|[z|[z|z|]|]|]|]; try lia; try (right; split; [lia|exact H]); left; split; auto; lia. }
  assert (False1 : forall P : Prop, ~ P -> (exists b p', @Ok Empty_set _ (false, p2) = Ok (b, p') /\ reg_inv I0 p' /\ claims_kept I0 p p' /\ (b = true <-> P))).
  { intros P NP. exists false, p2. split; [reflexivity|]. split; [assumption|]. split; [assumption|]. split; [discriminate|contradiction]. }
  destruct (Cases b ring _ _ B0 (NW _ _ R Ir Nr) A1) as [[Hb Hreg]|[Hb (k & sx & sy & n & -> & Hk & Hsrc & Harea & Hpix)]].
  - left. assert (NU : ~ (unclaimed p (l_right l, y) /\ unclaimed p (l_stone l, y) /\ finder_shape I0 y l)) by (intros (U & _); apply U; exact Hb).
    destruct (negb _); [apply False1; exact NU|].
    destruct Hreg as [-> | [-> | -> ]]; apply False1; exact NU.
  - destruct (Cases b1 stone _ _ B1 (NW _ _ R1 Is Ns) A2) as [[Hb1 Hreg]|[Hb1 (k' & sx' & sy' & n' & -> & Hk' & Hsrc' & Harea' & Hpix')]].
    + left. assert (NU : ~ (unclaimed p (l_right l, y) /\ unclaimed p (l_stone l, y) /\ finder_shape I0 y l)) by (intros (_ & U & _); apply U, C1; exact Hb1).
      destruct (negb _); [apply False1; exact NU|].
      destruct Hreg as [-> | [-> | -> ]]; apply False1; exact NU.
    + (* both regions are unclaimed *)
      destruct (Q1 _ _ _ _ eq_refl) as (cc & Hcc).
      assert (Pr : pix (p_buf p2) (l_right l, y) = k + 5).
      { apply (T2 _ _ _ Hcc _ Ir). apply Hpix; [assumption|]. apply blob_here; assumption. }
      assert (Left : color_of (pix (p_buf p2) (l_left l, y)) = color_of (pix (p_buf p2) (l_right l, y)) <-> iblob I0 (l_right l, y) (l_left l, y)).
      { split; intros H.
        - apply color_of_inj in H; try (apply (color_nonneg I0 p2); assumption).
          apply (same_discarded I0 p2); try assumption. lia.
        - f_equal. apply (blob_color I0 _ _ _ (ri_base _ _ R2) H). }
      assert (Stone : k = k' <-> iblob I0 (l_right l, y) (l_stone l, y)).
      { split; intros H.
        - subst k'. apply blob_sym. apply Hpix'; [assumption|]. exact Pr.
        - apply blob_sym in H. apply Hpix' in H; [|assumption]. lia. }
      assert (Rn : 1 <= n) by (eapply area_pos; [exact Ir|exact Nr|exact Harea]).
      assert (Rn' : 1 <= n') by (eapply area_pos; [exact Is|exact Ns|exact Harea']).
      destruct (negb (color_eqb _ _)) eqn:El.
      * left. apply False1. intros (_ & _ & S1 & _). apply Left in S1. rewrite S1 in El.
        rewrite (proj2 (color_eqb_ok _ _) eq_refl) in El. discriminate.
      * apply negb_false_iff, color_eqb_ok in El. apply Left in El.
        destruct (Z_le_gt_dec (n' * 100) usize_max) as [Hu|Hu].
        -- left. unfold usz. replace (n' * 100 <=? usize_max) with true by lia. cbn [bind].
           replace (n =? 0) with false by lia. cbn [color_eqb].
           eexists _, p2. split; [reflexivity|]. split; [assumption|]. split; [assumption|].
           rewrite !andb_true_iff, negb_true_iff. split.
           ++ intros [[H1 H2] H3]. split; [exact Hb|]. split; [rewrite <- C1 in Hb1; exact Hb1|]. split; [exact El|].
              split; [rewrite <- Stone; lia|]. exists n, n'. split; [exact Harea|]. split; [exact Harea'|lia].
           ++ intros (_ & _ & _ & S2 & rn & sn & S3 & S4 & S5). rewrite <- Stone in S2.
              assert (rn = n) by (eapply area_unique; [exact S3|exact Harea]). assert (sn = n') by (eapply area_unique; [exact S4|exact Harea']).
              subst. lia.
        -- right. unfold usz. replace (n' * 100 <=? usize_max) with false by lia. split; [reflexivity|].
           pose proof (ri_base _ _ R) as [(W1 & W2 & _) [S1 S2] _ _].
           assert (n' <= im_w I0 * im_h I0) by (eapply area_bound; [lia|lia|exact Harea']). lia.
Qed.

Section Numbers.
Context {T : Type} {N : Num T}.

(** The transforms of the corners of a region can be evaluated in the centre. *)
Definition center_maps (I0 : image) : Prop := forall (S : pixel -> Prop) start k (c : perspective T),
  (forall q, S q -> in_image I0 q) -> corners_of S start k ->
  persp_create k (n_of 7) (n_of 7) = Some c -> exists pt, persp_map c (n_ratio 7 2) (n_ratio 7 2) = Ok pt.

(** Conditions under which the search cannot panic. *)
Definition safe (I0 : image) : Prop :=
  im_w I0 <= max_dim + 1 /\ im_h I0 <= max_dim + 1 /\ center_maps I0.

(** Only panics are possible. *)
Definition total {A} (m : out A) : Prop := (exists a, m = Ok a) \/ m = Panic.

Lemma total_bind {A B} (m : out A) (k : A -> out B) : total m -> (forall a, total (k a)) -> total (bind m k).
Proof. intros [[a ->]| ->] H; [apply H|right; reflexivity]. Qed.
Lemma total_ok {A} (a : A) : total (Ok a).
Proof. left. eauto. Qed.
Lemma total_i32 z : total (i32 z).
Proof. unfold i32. destruct (_ && _); [apply total_ok|right; reflexivity]. Qed.
Lemma total_ival e : total (ival e).
Proof. induction e; cbn [ival]; repeat (apply total_bind; [assumption|intros ?]); try apply total_i32. apply total_ok. Qed.
Lemma total_for {I S} (l : list I) (body : I -> S -> out S) : (forall i s, total (body i s)) -> forall s, total (for_each l body s).
Proof. intros H. induction l as [|i l IH]; intros s; [apply total_ok|]. cbn [for_each]. apply total_bind; [apply H|apply IH]. Qed.

Lemma total_first r f : total (first_update r f).
Proof. unfold first_update. repeat (apply total_bind; [apply total_ival|intros ?]). apply total_ok. Qed.
Lemma total_scores b x y : total (corner_scores b x y).
Proof. unfold corner_scores. repeat (apply total_bind; [apply total_ival|intros ?]). apply total_ok. Qed.
Lemma total_all r f : total (all_update r f).
Proof. unfold all_update. repeat (apply total_bind; [apply total_scores|intros ?]). apply total_ok. Qed.
Lemma total_new a b : total (all_new a b).
Proof.
  unfold all_new. repeat (apply total_bind; [apply total_ival|intros ?]).
  apply total_bind; [apply total_scores|intros ?]. apply total_ok.
Qed.
Lemma total_best f : total (all_best f).
Proof. unfold all_best. destruct (ac_best f) as [|a [|b [|c [|d [|e t]]]]]; first [apply total_ok|right; reflexivity]. Qed.
Lemma total_map (c : perspective T) u v : total (persp_map c u v).
Proof.
  unfold persp_map. destruct (persp_apply c u v) as [a b].
  assert (H : forall t : T, total (to_i32 t)).
  { intros t. unfold to_i32. destruct (n_round t) as [z|]; [|right; reflexivity]. destruct (_ && _); [apply total_ok|right; reflexivity]. }
  repeat (apply total_bind; [apply H|intros ?]). apply total_ok.
Qed.

(** [k] are the corners of the component of [q] (in an image of supported size). *)
Definition corners_at (I0 : image) (q : pixel) (k : corners) : Prop :=
  im_w I0 <= max_dim + 1 -> im_h I0 <= max_dim + 1 -> corners_of (iblob I0 q) q k.

(** The transform and the centre of a capstone come from its corners. *)
Definition cap_ok (c : capstone T) : Prop :=
  persp_create (cap_corners c) (n_of 7) (n_of 7) = Some (cap_c c)
  /\ persp_map (cap_c c) (n_ratio 7 2) (n_ratio 7 2) = Ok (cap_center c).

(** The outcome for the ring [q]: a capstone, or none because its corners admit no transform. *)
Definition made (I0 : image) (q : pixel) (o : option (capstone T)) : Prop :=
  match o with
  | Some c => corners_at I0 q (cap_corners c) /\ cap_ok c
  | None => exists k, corners_at I0 q k /\ persp_create (T := T) k (n_of 7) (n_of 7) = None
  end.

Lemma create_capstone_ok I0 p l y : reg_inv I0 p -> dark_line I0 y l -> unclaimed p (l_right l, y) ->
  (exists o p', create_capstone p l y = Ok (o, p') /\ reg_inv I0 p'
     /\ painted I0 (p_buf p) (p_buf p') (l_right l, y) 2
     /\ (forall r, iblob I0 (l_right l, y) r \/ ~ iblob I0 (l_right l, y) r)
     /\ made I0 (l_right l, y) o)
  \/ (create_capstone (T := T) p l y = Panic /\ ~ safe I0).
Proof.
  intros R D U. destruct (D (l_right l) ltac:(tauto)) as [Ir Nr]. set (q := (l_right l, y)) in *.
  assert (Nq : pix (p_buf p) q <> 0) by (rewrite (bi_white _ _ (ri_base _ _ R)) by assumption; assumption).
  unfold unclaimed, claimed in U.
  destruct (repaint_inv I0 p (l_right l) y CTmp1 4 R Ir eq_refl ltac:(lia) Nq) as (p1 & rows1 & R1 & P1 & N1 & C1 & F1 & E1).
  { intros X. apply U. fold q in X. lia. }
  fold q in P1, C1.
  assert (Q1 : pix (p_buf p1) q = 4) by (apply (P1 q Ir), blob_here; assumption).
  destruct (repaint_inv I0 p1 (l_right l) y CCapStone 2 R1 Ir eq_refl ltac:(lia)) as (p2 & rows2 & R2 & P2 & N2 & C2 & F2 & E2).
  { fold q. lia. } { fold q. lia. }
  fold q in P2, C2.
  assert (P : painted I0 (p_buf p) (p_buf p2) q 2).
  { intros r Hr. destruct (P1 r Hr) as [A1 A2], (P2 r Hr) as [A3 A4]. split; intros H; [apply A3; assumption|]. rewrite A4, A2 by assumption. reflexivity. }
  assert (Dec : forall r, iblob I0 q r \/ ~ iblob I0 q r) by (intros r; destruct (cells_dec_blob _ _ _ C1 r); [left|right]; assumption).
  unfold create_capstone. rewrite E1.
  assert (Fin : forall k, (im_w I0 <= max_dim + 1 -> im_h I0 <= max_dim + 1 -> corners_of (iblob I0 q) q k) ->
    (exists o p', match persp_create k (n_of 7) (n_of 7) with
     | None => Ok (None, p2)
     | Some c => let* center := persp_map c (n_ratio 7 2) (n_ratio 7 2) in Ok (Some (MkCap k center c), p2)
     end = Ok (o, p') /\ reg_inv I0 p' /\ painted I0 (p_buf p) (p_buf p') q 2
     /\ (forall r, iblob I0 q r \/ ~ iblob I0 q r) /\ made I0 q o)
   \/ (match persp_create k (n_of 7) (n_of 7) with
     | None => Ok (None, p2)
     | Some c => let* center := persp_map c (n_ratio 7 2) (n_ratio 7 2) in Ok (Some (MkCap k center c), p2)
     end = Panic /\ ~ safe I0)).
  { intros k Hk. destruct (persp_create k (n_of 7) (n_of 7)) as [c|] eqn:Ec.
    - destruct (total_map c (n_ratio 7 2) (n_ratio 7 2)) as [[pt Ep]|Ep]; rewrite Ep; cbn [bind].
      + left. eexists _, _. split; [reflexivity|]. do 3 (split; [assumption|]). split; [exact Hk|]. split; cbn; assumption.
      + right. split; [reflexivity|]. intros (S1 & S2 & S3).
        destruct (S3 (iblob I0 q) q k c) as [pt Ep']; try assumption; [|exact (Hk S1 S2)|congruence].
        intros r Hr. apply blob_in in Hr. apply Hr.
    - left. eexists _, _. split; [reflexivity|]. do 3 (split; [assumption|]). exists k. split; [exact Hk|exact Ec]. }
  assert (Sz : im_w I0 <= max_dim + 1 /\ im_h I0 <= max_dim + 1 \/ ~ (im_w I0 <= max_dim + 1 /\ im_h I0 <= max_dim + 1)) by lia.
  destruct Sz as [[S1 S2]|NS].
  - assert (Ey : as_i32 (l_right l) = l_right l /\ as_i32 y = y).
    { destruct Ir as [I1 I2]. cbn in I1, I2. rewrite !as_i32_small by (unfold max_dim in *; lia). auto. }
    destruct Ey as [-> ->]. change (MkPoint (l_right l) y) with (pt_of q).
    destruct (corners_ok (iblob I0 q) q rows1 rows2) as (f & a0 & a & k & Ef & En & Ea & Eb & K); try assumption.
    { intros r Hr. apply blob_in in Hr. destruct Hr as [[I1 I2] _]. lia. }
    { apply blob_here; assumption. }
    unfold out in *. rewrite Ef. cbn [bind]. rewrite En. cbn [bind]. rewrite E2, Ea. cbn [bind]. rewrite Eb. cbn [bind].
    apply Fin. intros _ _. exact K.
  - assert (NS' : ~ safe I0) by (intros (A & B & _); tauto).
    destruct (total_for rows1 first_update total_first (first_new (MkPoint (as_i32 (l_right l)) (as_i32 y)))) as [[f Ef]|Ef];
      unfold out in *; rewrite Ef; cbn [bind]; [|right; auto].
    destruct (total_new (MkPoint (as_i32 (l_right l)) (as_i32 y)) (fc_best f)) as [[a0 En]|En];
      unfold out in *; rewrite En; cbn [bind]; [|right; auto].
    rewrite E2. destruct (total_for rows2 all_update total_all a0) as [[a Ea]|Ea];
      unfold out in *; rewrite Ea; cbn [bind]; [|right; auto].
    destruct (total_best a) as [[k Eb]|Eb]; unfold out in *; rewrite Eb; cbn [bind]; [|right; auto].
    apply Fin. intros A B. tauto.
Qed.

(** * The state of a search *)

(** One ring per capstone: rings are different components, unclaimed in [p0], and
    claimed now; a scanned row goes through the pattern; the corners of the capstone
    are those of its ring. *)
Definition ring_of (I0 : image) (p0 p : prepared) (q : pixel) (c : capstone T) : Prop :=
  in_image I0 q /\ pix I0 q <> 0 /\ ~ claimed p0 q /\ pix (p_buf p) q = 2
  /\ (exists y x l, 0 <= y < im_h I0 /\ 1 <= x <= im_w I0 /\ q = (l_right l, y) /\ candidate I0 y x l /\ finder_shape I0 y l)
  /\ corners_at I0 q (cap_corners c) /\ cap_ok c.

Definition claims_grow (I0 : image) (p p' : prepared) : Prop :=
  forall q, in_image I0 q -> claimed p q -> pix (p_buf p') q = pix (p_buf p) q.

Definition accepted (I0 : image) (p : prepared) (y : Z) (l : linepos) : Prop :=
  unclaimed p (l_right l, y) /\ unclaimed p (l_stone l, y) /\ finder_shape I0 y l.

(** [Done y x]: the candidates before column [x] of row [y]. *)
Definition before (y x y' x' : Z) : Prop := y' < y \/ (y' = y /\ x' < x).

(** Why a pixel is claimed: it belongs to the ring of a pattern on a scanned row, whose
    parts were unclaimed; a capstone was made of it, or it has degenerate corners. *)
Definition claim_made (I0 : image) (p0 p : prepared) (caps : list (capstone T)) (q : pixel) : Prop :=
  pix (p_buf p) q = 2 /\
  exists y x l, 0 <= y < im_h I0 /\ 1 <= x <= im_w I0 /\ candidate I0 y x l /\ accepted I0 p0 y l
    /\ iblob I0 (l_right l, y) q
    /\ exists o, made I0 (l_right l, y) o /\ forall c, o = Some c -> In c caps.

(** Where a capstone was found: it was made of the pattern ending at column [x] of row [y], whose
    parts were unclaimed then, while no candidate further up or further left in the same row was
    acceptable any more. *)
Definition spot : Type := Z * Z * linepos.
Definition sooner (a b : spot) : Prop := before (fst (fst b)) (snd (fst b)) (fst (fst a)) (snd (fst a)).
Definition found_at (I0 : image) (p0 p : prepared) (s : spot) (c : capstone T) : Prop :=
  let '(y, x, l) := s in
  0 <= y < im_h I0 /\ 1 <= x <= im_w I0 /\ candidate I0 y x l /\ made I0 (l_right l, y) (Some c)
  /\ exists pq, reg_inv I0 pq /\ claims_grow I0 p0 pq /\ claims_grow I0 pq p /\ accepted I0 pq y l
     /\ forall y' x' l', 0 <= y' < im_h I0 -> 1 <= x' <= im_w I0 -> before y x y' x' -> candidate I0 y' x' l' -> ~ accepted I0 pq y' l'.

Record search_inv (I0 : image) (p0 : prepared) (y x : Z) (p : prepared) (caps : list (capstone T)) : Prop := {
  si_reg : reg_inv I0 p;
  si_grow : claims_grow I0 p0 p;
  si_rings : exists rings, Forall2 (ring_of I0 p0 p) rings caps
    /\ ForallOrdPairs (fun a b => ~ iblob I0 a b) rings;
  si_done : forall y' x' l, 0 <= y' < im_h I0 -> 1 <= x' <= im_w I0 -> before y x y' x' ->
    candidate I0 y' x' l -> ~ accepted I0 p y' l;
  si_none : (forall y' x' l, 0 <= y' < im_h I0 -> 1 <= x' <= im_w I0 -> candidate I0 y' x' l -> ~ accepted I0 p0 y' l) -> caps = [];
  si_new : forall q, in_image I0 q -> claimed p q -> ~ claimed p0 q -> claim_made I0 p0 p caps q;
  si_spots : exists spots, Forall2 (found_at I0 p0 p) spots caps /\ ForallOrdPairs (fun a b => sooner b a) spots
    /\ Forall (fun a => before y x (fst (fst a)) (snd (fst a))) spots
}.

Lemma Forall2_weaken {A B} (P Q : A -> B -> Prop) l l' : Forall2 P l l' -> (forall a b, P a b -> Q a b) -> Forall2 Q l l'.
Proof. intros F H. induction F; constructor; auto. Qed.

Lemma claims_kept_grow I0 p p' : claims_kept I0 p p' -> claims_grow I0 p p'.
Proof. intros K q Iq H. apply K; auto. Qed.

Lemma grow_trans I0 p p' p'' : claims_grow I0 p p' -> claims_grow I0 p' p'' -> claims_grow I0 p p''.
Proof. intros A B q Iq H. rewrite B; [apply A; assumption|assumption|]. unfold claimed in *. rewrite A; assumption. Qed.

Lemma found_grow I0 p0 p p' s c : claims_grow I0 p p' -> found_at I0 p0 p s c -> found_at I0 p0 p' s c.
Proof.
  intros G. destruct s as [[y x] l]. cbn. intros (A1 & A2 & A3 & A4 & pq & A5 & A6 & A7 & A8).
  do 4 (split; [assumption|]). exists pq. split; [assumption|]. split; [assumption|]. split; [|assumption]. eapply grow_trans; eassumption.
Qed.

Lemma accepted_back I0 p p' y l : claims_grow I0 p p' -> dark_line I0 y l -> accepted I0 p' y l -> accepted I0 p y l.
Proof.
  intros G D (A1 & A2 & A3). destruct (D (l_right l) ltac:(tauto)) as [Ir _]. destruct (D (l_stone l) ltac:(tauto)) as [Is _].
  unfold accepted, unclaimed, claimed in *. split; [|split; [|assumption]]; intros H.
  - apply A1. rewrite (G _ Ir); assumption.
  - apply A2. rewrite (G _ Is); assumption.
Qed.

Lemma candidate_line I0 y x l : 0 <= y < im_h I0 -> candidate I0 y x l -> dark_line I0 y l.
Proof.
  intros Hy C. apply candidate_dark in C. destruct C as ([C1 D1] & [C2 D2] & [C3 D3] & _).
  assert (G : forall z, 0 <= z < x -> bit I0 y z = Black -> in_image I0 (z, y) /\ pix I0 (z, y) <> 0).
  { intros z Hz B. destruct (bit_nonwhite I0 y z) as [X1 X2]; [congruence|]. split; [split; cbn; lia|assumption]. }
  intros z [-> | [-> | -> ]]; apply G; assumption.
Qed.

Lemma examine_ok I0 p0 y x p caps o : search_inv I0 p0 y x p caps -> 0 <= y < im_h I0 -> 1 <= x <= im_w I0 ->
  (forall l, o = Some l <-> candidate I0 y x l) ->
  (exists p' caps', examine y o (p, caps) = Ok (p', caps') /\ search_inv I0 p0 y (x + 1) p' caps'
      /\ (bit I0 y x <> White -> p' = p))
  \/ (examine (T := T) y o (p, caps) = Panic /\ (~ safe I0 \/ ~ 100 * (im_w I0 * im_h I0) <= usize_max)).
Proof.
  intros SI Hy Hx Ho. pose proof SI as [R G (rings & Rf & Rd) Dn Nn Nw (spots & Sf & So & Sb)]. unfold examine.
  assert (Step : forall p' caps', reg_inv I0 p' -> claims_grow I0 p p' ->
     (exists rings, Forall2 (ring_of I0 p0 p') rings caps' /\ ForallOrdPairs (fun a b => ~ iblob I0 a b) rings) ->
     (forall l, candidate I0 y x l -> ~ accepted I0 p' y l) ->
     ((forall y' x' l, 0 <= y' < im_h I0 -> 1 <= x' <= im_w I0 -> candidate I0 y' x' l -> ~ accepted I0 p0 y' l) -> caps' = []) ->
     (forall q, in_image I0 q -> claimed p' q -> ~ claimed p0 q -> claim_made I0 p0 p' caps' q) ->
     (caps' = caps \/ exists l c, caps' = c :: caps /\ found_at I0 p0 p' (y, x, l) c) ->
     search_inv I0 p0 y (x + 1) p' caps').
  { intros p' caps' R' G' Rg A Nn' Nw' Sp. split; try assumption.
    - eapply grow_trans; eassumption.
    - intros y' x' l Hy' Hx' Hb C Acc.
      destruct Hb as [Hb|[-> Hb]]; [|destruct (Z.eq_dec x' x) as [->|Nx]].
      + apply (Dn y' x' l Hy' Hx' (or_introl Hb) C). eapply accepted_back; [exact G'|eapply candidate_line; eassumption|exact Acc].
      + exact (A l C Acc).
      + apply (Dn y x' l Hy Hx' ltac:(right; lia) C). eapply accepted_back; [exact G'|eapply candidate_line; eassumption|exact Acc].
    - assert (Sf' : Forall2 (found_at I0 p0 p') spots caps) by (refine (Forall2_weaken _ _ _ _ Sf _); intros a c; apply found_grow; assumption).
      assert (Sb' : Forall (fun a : spot => before y (x + 1) (fst (fst a)) (snd (fst a))) spots) by (eapply Forall_impl; [|exact Sb]; intros a; unfold before; lia).
      destruct Sp as [->|(l & c & -> & Fc)].
      + exists spots. auto.
      + exists ((y, x, l) :: spots). split; [constructor; assumption|]. split.
        * constructor; [|assumption]. eapply Forall_impl; [|exact Sb]. intros a. unfold sooner. cbn [fst snd]. auto.
        * constructor; [unfold before; cbn [fst snd]; lia|assumption]. }
  assert (Keep : forall p', claims_grow I0 p p' -> exists rings, Forall2 (ring_of I0 p0 p') rings caps /\ ForallOrdPairs (fun a b => ~ iblob I0 a b) rings).
  { intros p' G'. exists rings. split; [|assumption]. refine (Forall2_weaken _ _ _ _ Rf _). intros q c (A1 & A2 & A3 & A4 & A5).
    split; [assumption|]. split; [assumption|]. split; [assumption|]. split; [|assumption]. rewrite (G' q A1); [assumption|]. unfold claimed. lia. }
  (* claims made before *)
  assert (Old : forall p' caps' q, claims_grow I0 p p' -> incl caps caps' -> in_image I0 q -> claimed p q -> ~ claimed p0 q ->
            claim_made I0 p0 p' caps' q).
  { intros p' caps' q G' Inc Iq H H0. destruct (Nw q Iq H H0) as (V & y' & x' & l & A1 & A2 & A3 & A4 & A5 & o' & A6 & A7).
    split; [rewrite (G' q Iq H); assumption|]. exists y', x', l.
    do 5 (split; [assumption|]). exists o'. split; [assumption|]. intros c Hc. apply Inc, A7, Hc. }
  destruct o as [l|].
  2: { left. exists p, caps. split; [reflexivity|]. split; [|reflexivity]. apply Step; try assumption.
       - intros q Iq H. reflexivity.
       - apply Keep. intros q Iq H. reflexivity.
       - intros l C. exfalso. apply Ho in C. discriminate.
       - left. reflexivity. }
  assert (C : candidate I0 y x l) by (apply Ho; reflexivity).
  assert (Wh : bit I0 y x = White) by apply C.
  assert (Uq : forall l', candidate I0 y x l' -> l' = l) by (intros l' C'; apply Ho in C'; congruence).
  pose proof (candidate_line I0 y x l Hy C) as D.
  destruct (is_capstone_ok I0 p l y R D) as [(b & p1 & E1 & R1 & K1 & B1)|[E1 X]]; unfold out in *; rewrite E1; cbn [bind].
  2: { right. split; [reflexivity|]. right. assumption. }
  pose proof (claims_kept_grow _ _ _ K1) as G1.
  destruct b; cbn [negb].
  - destruct B1 as [B1 _]. specialize (B1 eq_refl).
    assert (U1 : unclaimed p1 (l_right l, y)).
    { destruct (D (l_right l) ltac:(tauto)) as [Ir _]. intros H. apply (proj1 B1). unfold claimed in *. rewrite <- (K1 _ Ir); auto. }
    destruct (create_capstone_ok I0 p1 l y R1 D U1) as [(o2 & p2 & E2 & R2 & P2 & Dec2 & K2)|[E2 X]]; unfold out in *; rewrite E2; cbn [bind].
    2: { right. split; [reflexivity|]. left. assumption. }
    left. destruct (D (l_right l) ltac:(tauto)) as [Ir Nr].
    assert (Q2 : pix (p_buf p2) (l_right l, y) = 2) by (apply (P2 _ Ir), blob_here; assumption).
    assert (G2 : claims_grow I0 p1 p2).
    { intros q Iq H. apply (P2 q Iq). intros L. apply U1. unfold claimed in *.
      rewrite <- (blob_color I0 _ _ _ (ri_base _ _ R1) L). assumption. }
    assert (G12 : claims_grow I0 p p2) by (eapply grow_trans; eassumption).
    assert (Rej : forall l', candidate I0 y x l' -> ~ accepted I0 p2 y l').
    { intros l' C' (A1 & _). rewrite (Uq l' C') in A1. apply A1. unfold claimed. lia. }
    assert (Some0 : ~ (forall y' x' l, 0 <= y' < im_h I0 -> 1 <= x' <= im_w I0 -> candidate I0 y' x' l -> ~ accepted I0 p0 y' l)).
    { intros H. apply (H y x l Hy Hx C). eapply accepted_back; [exact G|exact D|exact B1]. }
    assert (New : forall caps', incl caps caps' -> (forall c, o2 = Some c -> In c caps') ->
              forall q, in_image I0 q -> claimed p2 q -> ~ claimed p0 q -> claim_made I0 p0 p2 caps' q).
    { intros caps' Inc Inew q Iq H H0.
      assert (Hp : claimed p q \/ ~ claimed p q) by (unfold claimed; lia).
      destruct Hp as [Hp|Hp]; [apply Old; assumption|].
      assert (H1 : ~ claimed p1 q) by (intros X; apply Hp; unfold claimed in *; rewrite <- (K1 q Iq); auto).
      assert (Hb : iblob I0 (l_right l, y) q).
      { destruct (P2 q Iq) as [_ P2b].
        destruct (Dec2 q) as [Hb|Hb]; [assumption|]. exfalso. apply H1. unfold claimed in *. rewrite <- P2b; assumption. }
      split; [apply (P2 q Iq); assumption|]. exists y, x, l. do 3 (split; [assumption|]).
      split; [eapply accepted_back; [exact G|exact D|exact B1]|]. split; [assumption|]. exists o2. split; assumption. }
    destruct o2 as [c|].
    + exists p2, (c :: caps). split; [reflexivity|]. split; [|intros X; congruence].
      apply Step; try assumption; [|intros H; exfalso; exact (Some0 H)|apply New; [intros c' Hc'; right; assumption|intros c' [= <-]; left; reflexivity]|].
      2: { right. exists l, c. split; [reflexivity|]. cbn. split; [assumption|]. split; [assumption|]. split; [assumption|]. split; [assumption|].
           exists p. split; [assumption|]. split; [assumption|]. split; [assumption|]. split; [exact B1|]. intros. eapply Dn; eassumption. }
      destruct (Keep p2 G12) as (rg & F1 & F2).
      (* the old rings are claimed before, the new one is not *)
      exists ((l_right l, y) :: rings). split.
      * constructor.
        -- split; [assumption|]. split; [assumption|]. split; [|split; [assumption|]].
           ++ intros H. apply (proj1 B1). unfold claimed in *. rewrite (G _ Ir); assumption.
           ++ split; [|exact K2]. exists y, x, l. do 3 (split; [assumption || reflexivity|]). split; [assumption|apply B1].
        -- refine (Forall2_weaken _ _ _ _ Rf _). intros q c' (A1 & A2 & A3 & A4 & A5).
           split; [assumption|]. split; [assumption|]. split; [assumption|]. split; [|assumption].
           rewrite (G12 q A1); [assumption|]. unfold claimed. lia.
      * constructor; [|assumption]. apply Forall_forall. intros q Hq L.
        assert (A4 : pix (p_buf p) q = 2).
        { clear - Rf Hq. induction Rf as [|q' c' rs cs H Rf IH]; [contradiction|]. destruct Hq as [->|Hq]; [apply H|apply IH; assumption]. }
        apply (proj1 B1). unfold claimed. rewrite <- (blob_color I0 _ _ _ (ri_base _ _ R) L), A4. lia.
    + exists p2, caps. split; [reflexivity|]. split; [|intros X; congruence].
      apply Step; try assumption; [apply Keep; assumption|apply New; [apply incl_refl|discriminate]|left; reflexivity].
  - left. exists p1, caps. split; [reflexivity|]. split; [|intros X; congruence].
    apply Step; try assumption.
    + apply Keep. assumption.
    + intros l' C' A. rewrite (Uq l' C') in A. apply (accepted_back I0 p p1 y l G1 D) in A.
      apply B1 in A. discriminate.
    + intros q Iq H H0. apply Old; try assumption; [apply incl_refl|]. unfold claimed in *. rewrite <- (K1 q Iq); auto.
    + left. reflexivity.
Qed.

(** * Rows and images *)

Lemma pix_color I0 p x y : reg_inv I0 p -> 0 <= y < im_h I0 -> 0 <= x < im_w I0 ->
  get_pixel_at p x y = Ok (color_of (pix (p_buf p) (x, y)))
  /\ (color_of (pix (p_buf p) (x, y)) = White <-> bit I0 y x = White).
Proof.
  intros R Hy Hx. assert (I : in_image I0 (x, y)) by (split; cbn; lia).
  unfold get_pixel_at. rewrite get_pixel_ok; [|apply (ri_base _ _ R)|apply (same_size_in _ _ _ (bi_size _ _ (ri_base _ _ R))); assumption].
  split; [reflexivity|]. unfold bit. replace (x <? im_w I0) with true by lia. cbn [andb].
  pose proof (bi_white _ _ (ri_base _ _ R) _ I) as W. pose proof (color_nonneg I0 p _ R I) as N0.
  split; intros H.
  - assert (pix (p_buf p) (x, y) = 0) by (apply color_of_inj; [assumption|lia|exact H]).
    replace (pix I0 (x, y) =? 0) with true by lia. reflexivity.
  - destruct (pix I0 (x, y) =? 0) eqn:E; [|discriminate]. replace (pix (p_buf p) (x, y)) with 0 by lia. reflexivity.
Qed.

(** The state inside a row, before column [x]. *)
Definition row_inv (I0 : image) (p0 : prepared) (y x : Z) (t : scanner * (prepared * list (capstone T))) : Prop :=
  let '(s, (p, caps)) := t in
  search_inv I0 p0 y x p caps /\ tracks (row_upto I0 y x) s
  /\ (s_last s <> White -> s_last s = color_of (pix (p_buf p) (x - 1, y))).

Lemma row_step I0 p0 y x s p caps : 0 <= y < im_h I0 -> 1 <= x < im_w I0 -> row_inv I0 p0 y x (s, (p, caps)) ->
  (exists t, (let* c := get_pixel_at p x y in
     let* r := advance s c in
     let '(o, s) := r in
     let* t := examine y o (p, caps) in
     Ok (s, t)) = Ok t /\ row_inv I0 p0 y (x + 1) t)
  \/ ((let* c := get_pixel_at p x y in
     let* r := advance s c in
     let '(o, s) := r in
     let* t := examine (T := T) y o (p, caps) in
     Ok (s, t)) = Panic /\ (~ safe I0 \/ ~ 100 * (im_w I0 * im_h I0) <= usize_max)).
Proof.
  intros Hy Hx (SI & Tr & La). pose proof (si_reg _ _ _ _ _ _ SI) as R.
  destruct (pix_color I0 p x y R Hy ltac:(lia)) as [E C]. rewrite E. cbn [bind].
  destruct (advance_tracks (row_upto I0 y x) s (color_of (pix (p_buf p) (x, y))) (bit I0 y x) Tr) as (o & s' & Ea & Tr' & La' & Ho).
  - rewrite row_upto_last by lia.
    assert (L0 : s_last s = White <-> bit I0 y (x - 1) = White).
    { destruct Tr as (s0 & S0 & _ & _ & _ & _ & W). rewrite W. rewrite <- (scanned_last _ _ S0 White), row_upto_last by lia. reflexivity. }
    destruct (bit_cases I0 y (x - 1)) as [B1|B1], (bit_cases I0 y x) as [B2|B2].
    + rewrite B1, B2. apply L0 in B1. apply C in B2. rewrite B1, B2. tauto.
    + rewrite B1, B2. apply L0 in B1. rewrite B1. split; [|discriminate]. intros H. symmetry in H. apply C in H. congruence.
    + rewrite B1, B2. apply C in B2. rewrite B2. split; [|discriminate]. intros H. apply L0 in H. congruence.
    + rewrite B1, B2. split; [reflexivity|]. intros _. rewrite La by (intros H; apply L0 in H; congruence).
      f_equal. destruct (bit_nonwhite I0 y (x - 1)) as [_ N1]; [congruence|]. destruct (bit_nonwhite I0 y x) as [_ N2]; [congruence|].
      assert (I1 : in_image I0 (x - 1, y)) by (split; cbn; lia). assert (I2 : in_image I0 (x, y)) by (split; cbn; lia).
      pose proof (ri_base _ _ R) as B.
      apply (bi_mono _ _ B); try assumption; [unfold adjacent; cbn; lia| |];
        rewrite (bi_white _ _ B) by assumption; assumption.
  - exact C.
  - rewrite Ea. cbn [bind].
    destruct (examine_ok I0 p0 y x p caps o SI Hy ltac:(lia) Ho) as [(p' & caps' & Ee & SI' & Same)|[Ee X]];
      unfold out in *; rewrite Ee; cbn [bind]; [|right; auto].
    left. eexists. split; [reflexivity|]. split; [assumption|]. rewrite row_upto_snoc by lia. split; [assumption|].
    rewrite La'. intros NW. replace (x + 1 - 1) with x by lia. rewrite Same; [reflexivity|]. intros H. apply NW, C, H.
Qed.

Lemma scan_row_ok I0 p0 y p caps : 1 <= im_w I0 -> 0 <= y < im_h I0 -> search_inv I0 p0 y 1 p caps ->
  (exists p' caps', scan_row y (p, caps) = Ok (p', caps') /\ search_inv I0 p0 (y + 1) 1 p' caps')
  \/ (scan_row (T := T) y (p, caps) = Panic /\ (~ safe I0 \/ ~ 100 * (im_w I0 * im_h I0) <= usize_max)).
Proof.
  intros Hw Hy SI. pose proof (si_reg _ _ _ _ _ _ SI) as R. unfold scan_row.
  destruct (pix_color I0 p 0 y R Hy ltac:(lia)) as [E C]. rewrite E. cbn [bind].
  assert (Hw' : p_w p = im_w I0) by (apply (bi_size _ _ (ri_base _ _ R))). rewrite Hw'.
  destruct (@zfor_or _ _ (~ safe I0 \/ ~ 100 * (im_w I0 * im_h I0) <= usize_max) (row_inv I0 p0 y) (fun x t =>
    let '(finder, (p, caps)) := t in
    let* c := get_pixel_at p x y in
    let* r := advance finder c in
    let '(o, finder) := r in
    let* s := examine y o (p, caps) in
    Ok (finder, s)) 1 (im_w I0) (scan_new (color_of (pix (p_buf p) (0, y))), (p, caps))) as [((s & (p1 & caps1)) & El & SI1 & Tr & La)|[El X]].
  - lia.
  - split; [assumption|]. split.
    + change 1 with (0 + 1). rewrite row_upto_snoc by lia. unfold row_upto. change (zrange 0 0) with (@nil Z). cbn [map app].
      exists (scan_new (bit I0 y 0)). split; [apply scanned_new|]. cbn. repeat split; apply C.
    + intros _. reflexivity.
  - intros x (s & (p1 & caps1)) Hx Hi. apply row_step; assumption.
  - unfold out in *. rewrite El. cbn [bind].
    pose proof (si_reg _ _ _ _ _ _ SI1) as R1.
    destruct (advance_tracks (row_upto I0 y (im_w I0)) s White (bit I0 y (im_w I0)) Tr) as (o & s' & Ea & Tr' & La' & Ho).
    + rewrite row_upto_last by lia.
      assert (W : bit I0 y (im_w I0) = White) by (unfold bit; replace (im_w I0 <? im_w I0) with false by lia; reflexivity).
      rewrite W. destruct Tr as (s0 & S0 & _ & _ & _ & _ & Wl). rewrite Wl. rewrite <- (scanned_last _ _ S0 White), row_upto_last by lia. reflexivity.
    + unfold bit. replace (im_w I0 <? im_w I0) with false by lia. tauto.
    + rewrite Ea. cbn [bind fst].
      destruct (examine_ok I0 p0 y (im_w I0) p1 caps1 o SI1 Hy ltac:(lia) Ho) as [(p' & caps' & Ee & SI' & _)|[Ee X]];
        unfold out in *; rewrite Ee; [|right; auto].
      left. exists p', caps'. split; [reflexivity|]. destruct SI' as [A1 A2 A3 A4 A5 A6 (spots & S1 & S2 & S3)]. split; try assumption.
      * intros y' x' l Hy' Hx' Hb. apply A4; try assumption. unfold before in *. lia.
      * exists spots. split; [assumption|]. split; [assumption|]. eapply Forall_impl; [|exact S3]. intros a. unfold before. lia.
  - right. unfold out in *. rewrite El. auto.
Qed.

Lemma ordered_rev {A} (R : A -> A -> Prop) l : ForallOrdPairs R l -> ForallOrdPairs (fun a b => R b a) (rev l).
Proof.
  intros F. induction F as [|a l Ha F IH]; cbn [rev]; [constructor|].
  assert (G : forall l1 a, ForallOrdPairs (fun a b => R b a) l1 -> (forall b, In b l1 -> R a b) -> ForallOrdPairs (fun a b => R b a) (l1 ++ [a])).
  { clear. intros l1 a F H. induction F as [|b l1 Hb F IH]; cbn [app].
    - constructor; constructor.
    - constructor; [apply Forall_app; split; [assumption|constructor; [apply H; left; reflexivity|constructor]]|].
      apply IH. intros c Hc. apply H. right. assumption. }
  apply G; [assumption|]. intros b Hb. rewrite Forall_forall in Ha. apply Ha. apply in_rev. assumption.
Qed.

(** The whole search, and the order in which the patterns are found. *)
Theorem search_full I0 p0 : reg_inv I0 p0 -> 1 <= im_w I0 ->
  (exists caps p', capstones_from_image p0 = Ok (caps, p') /\ reg_inv I0 p' /\ claims_grow I0 p0 p'
     /\ (exists rings, Forall2 (ring_of I0 p0 p') rings caps /\ ForallOrdPairs (fun a b => ~ iblob I0 a b) rings)
     /\ (forall y x l, 0 <= y < im_h I0 -> 1 <= x <= im_w I0 -> candidate I0 y x l -> ~ accepted I0 p' y l)
     /\ ((forall y x l, 0 <= y < im_h I0 -> 1 <= x <= im_w I0 -> candidate I0 y x l -> ~ accepted I0 p0 y l) -> caps = [])
     /\ (forall q, in_image I0 q -> claimed p' q -> ~ claimed p0 q -> claim_made I0 p0 p' caps q)
     /\ (exists spots, Forall2 (found_at I0 p0 p') spots caps /\ ForallOrdPairs sooner spots))
  \/ (capstones_from_image (T := T) p0 = Panic /\ (~ safe I0 \/ ~ 100 * (im_w I0 * im_h I0) <= usize_max)).
Proof.
  intros R Hw. unfold capstones_from_image.
  assert (Hh : p_h p0 = im_h I0) by (apply (bi_size _ _ (ri_base _ _ R))). rewrite Hh.
  assert (H0 : 0 <= im_h I0). { pose proof (bi_wf _ _ (ri_base _ _ R)) as (_ & X & _). unfold p_h in Hh. lia. }
  destruct (@zfor_or _ _ (~ safe I0 \/ ~ 100 * (im_w I0 * im_h I0) <= usize_max)
     (fun y (s : prepared * list (capstone T)) => search_inv I0 p0 y 1 (fst s) (snd s)) scan_row 0 (im_h I0) (p0, [])) as [((p' & caps) & E & SI)|[E X]].
  - assumption.
  - split.
    + assumption.
    + intros q _ _. reflexivity.
    + exists []. split; constructor.
    + intros y' x' l Hy' Hx' Hb. unfold before in Hb. lia.
    + reflexivity.
    + intros q _ A B. contradiction.
    + exists []. repeat split; constructor.
  - intros y (p & caps) Hy Hs. cbn [fst snd] in Hs.
    destruct (scan_row_ok I0 p0 y p caps Hw Hy Hs) as [(p' & caps' & E & S')|X]; [left; exists (p', caps'); auto|right; exact X].
  - left. unfold out in *. rewrite E. cbn [bind fst snd] in *. destruct SI as [A1 A2 (rings & F1 & F2) A4 A5 A6 (spots & S1 & S2 & _)].
    exists (rev caps), p'. split; [reflexivity|]. split; [assumption|]. split; [assumption|].
    split. { exists (rev rings). split.
      - clear - F1. induction F1; cbn [rev]; [constructor|]. apply Forall2_app; [assumption|]. constructor; [assumption|constructor].
      - clear - F2. assert (S : forall a b, ~ iblob I0 a b -> ~ iblob I0 b a) by (intros a b H X; apply H, blob_sym, X).
        apply ordered_rev in F2. clear - F2 S. induction F2 as [|a l H F IH]; constructor; [|assumption].
        eapply Forall_impl; [|exact H]. intros b. apply S. }
    split. { intros y x l Hy Hx C. apply (A4 y x l Hy Hx); [unfold before; lia|assumption]. }
    split. { intros H. rewrite (A5 H). reflexivity. }
    split.
    2: { exists (rev spots). split; [|exact (ordered_rev _ _ S2)]. clear - S1. induction S1; cbn [rev]; [constructor|].
         apply Forall2_app; [assumption|]. constructor; [assumption|constructor]. }
    intros q Iq H H0'. destruct (A6 q Iq H H0') as (V & y & x & l & B1 & B2 & B3 & B4 & B5 & o & B6 & B7).
    split; [assumption|]. exists y, x, l. do 5 (split; [assumption|]). exists o. split; [assumption|]. intros c Hc. apply in_rev. rewrite rev_involutive. apply B7, Hc.
  - right. unfold out in *. rewrite E. auto.
Qed.

(** C30, C34, C36: the whole search. *)
Theorem search_ok I0 p0 : reg_inv I0 p0 -> 1 <= im_w I0 ->
  (exists caps p', capstones_from_image p0 = Ok (caps, p') /\ reg_inv I0 p' /\ claims_grow I0 p0 p'
     /\ (exists rings, Forall2 (ring_of I0 p0 p') rings caps /\ ForallOrdPairs (fun a b => ~ iblob I0 a b) rings)
     /\ (forall y x l, 0 <= y < im_h I0 -> 1 <= x <= im_w I0 -> candidate I0 y x l -> ~ accepted I0 p' y l)
     /\ ((forall y x l, 0 <= y < im_h I0 -> 1 <= x <= im_w I0 -> candidate I0 y x l -> ~ accepted I0 p0 y l) -> caps = [])
     /\ (forall q, in_image I0 q -> claimed p' q -> ~ claimed p0 q -> claim_made I0 p0 p' caps q))
  \/ (capstones_from_image (T := T) p0 = Panic /\ (~ safe I0 \/ ~ 100 * (im_w I0 * im_h I0) <= usize_max)).
Proof.
  intros R Hw. destruct (search_full I0 p0 R Hw) as [(caps & p' & A1 & A2 & A3 & A4 & A5 & A6 & A7 & _)|X]; [left|right; exact X].
  exists caps, p'. auto 10.
Qed.

(** A second search finds nothing. *)
Theorem search_again I0 p0 caps p' : reg_inv I0 p0 -> 1 <= im_w I0 ->
  capstones_from_image (T := T) p0 = Ok (caps, p') ->
  (exists p'', capstones_from_image (T := T) p' = Ok ([], p'')) \/ capstones_from_image (T := T) p' = Panic.
Proof.
  intros R Hw E. destruct (search_ok I0 p0 R Hw) as [(c1 & p1 & E1 & R1 & G1 & _ & Nn & _)|[E1 _]]; [|congruence].
  rewrite E in E1. injection E1 as <- <-.
  destruct (search_ok I0 p' R1 Hw) as [(c2 & p2 & E2 & _ & _ & _ & _ & H2 & _)|[E2 X]].
  - left. exists p2. rewrite E2. rewrite (H2 Nn). reflexivity.
  - right. assumption.
Qed.
End Numbers.

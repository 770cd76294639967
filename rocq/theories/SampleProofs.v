(** Sampling a picture through a transform. *)
From Verif Require Import Base Lib ModelDecode ModelImage ModelGeometry ModelDetect ModelIdentify SpecImage SpecIdentify
  FloodProofs RegionProofs CornerProofs SearchProofs HistoryProofs SpiralProofs.
Open Scope Z_scope.
Set Bullet Behavior "Strict Subproofs".

Lemma nearest_in w h q : 1 <= w -> 1 <= h -> inside w h (nearest_pixel w h q).
Proof. intros. unfold nearest_pixel, inside. cbn [fst snd]. lia. Qed.

Lemma white_color I0 p q : reg_inv I0 p -> in_image I0 q -> (is_white (color_of (pix (p_buf p) q)) = true <-> pix I0 q = 0).
Proof.
  intros R I. rewrite <- (bi_white _ _ (ri_base _ _ R) q I). split.
  - intros W. destruct (pix (p_buf p) q) as [|[[?|?|]|[?|[?|?|]|]|]|]; try reflexivity; discriminate W.
  - intros ->. reflexivity.
Qed.

Lemma sample_ok I0 p q : reg_inv I0 p -> 1 <= im_w I0 <= 2 ^ 31 -> 1 <= im_h I0 <= 2 ^ 31 ->
  let r := nearest_pixel (im_w I0) (im_h I0) q in
  exists c, get_pixel_at_point p (pt q) = Ok c /\ (is_white c = true <-> pix I0 r = 0).
Proof.
  intros R Hw Hh r. assert (Sz : p_w p = im_w I0 /\ p_h p = im_h I0) by apply (bi_size _ _ (ri_base _ _ R)). destruct Sz as [Sw Sh].
  pose proof (nearest_in (im_w I0) (im_h I0) q ltac:(lia) ltac:(lia)) as I. fold r in I.
  exists (color_of (pix (p_buf p) r)). split; [|apply white_color; assumption].
  unfold get_pixel_at_point, usub. rewrite Sw, Sh.
  replace (1 <=? im_w I0) with true by (symmetry; apply Z.leb_le; lia).
  replace (1 <=? im_h I0) with true by (symmetry; apply Z.leb_le; lia). cbn [bind pt px py].
  assert (A : forall n, 1 <= n <= 2 ^ 31 -> as_i32 (n - 1) = n - 1).
  { intros n Hn. unfold as_i32. rewrite Z.mod_small; lia. }
  rewrite !A by lia.
  assert (B : forall n z, 1 <= n <= 2 ^ 31 -> as_usize (Z.max 0 (Z.min (n - 1) z)) = Z.max 0 (Z.min (n - 1) z)).
  { intros n z Hn. unfold as_usize. apply Z.mod_small. lia. }
  rewrite !B by lia. destruct (pix_color I0 p (fst r) (snd r) R) as [E _]; [apply I|apply I|].
  unfold r in *. cbn [fst snd nearest_pixel] in *. exact E.
Qed.

Section Numbers.
Context {T : Type} {N : Num T}.

(** The centre of a module, mapped. *)
Definition module_center (l : location T) (y x : Z) : out point :=
  persp_map (loc_c l) (n_add (n_of x) (n_ratio 1 2)) (n_add (n_of y) (n_ratio 1 2)).

Lemma ref_grid_bit I0 p (l : location T) y x b : reg_inv I0 p -> 1 <= im_w I0 <= 2 ^ 31 -> 1 <= im_h I0 <= 2 ^ 31 ->
  (g_bit (ref_grid p l) y x = Ok b <->
   exists q, module_center l y x = Ok (pt q) /\ b = negb (pix I0 (nearest_pixel (im_w I0) (im_h I0) q) =? 0)).
Proof.
  intros R Hw Hh. unfold ref_grid. cbn [g_bit]. fold (module_center l y x).
  assert (Q : forall q, pt (px q, py q) = q) by (intros []; reflexivity).
  split.
  - destruct (module_center l y x) as [q|[]| |] eqn:E; cbn [lift bind]; try discriminate.
    destruct (sample_ok I0 p (px q, py q) R Hw Hh) as (c & Ec & W). rewrite Q in Ec. unfold out in *. rewrite Ec. cbn [lift bind].
    intros Eb. injection Eb as <-. exists (px q, py q). split; [rewrite Q; reflexivity|].
    f_equal. apply eq_true_iff_eq. rewrite W. symmetry. apply Z.eqb_eq.
  - intros (q & E & ->). rewrite E. cbn [lift bind].
    destruct (sample_ok I0 p q R Hw Hh) as (c & Ec & W). unfold out in *. rewrite Ec. cbn [lift bind]. do 2 f_equal.
    apply eq_true_iff_eq. rewrite W. symmetry. apply Z.eqb_eq.
Qed.
End Numbers.

(** The alignment pattern exactly: the size it is looked for with, the corner taken of it, what is claimed. *)
From Verif Require Import Base Lib ModelImage ModelGeometry ModelDetect ModelIdentify SpecImage SpecIdentify SpecLocate FloodProofs RegionProofs CornerProofs SearchProofs HistoryProofs SpiralProofs GeometryProofs.
From Coq Require Import ZifyBool.
Open Scope Z_scope.
Set Bullet Behavior "Strict Subproofs".

Lemma i32_is z v : i32 z = Ok v -> v = z /\ - 2 ^ 31 <= z < 2 ^ 31.
Proof. unfold i32, i32_min, i32_max. destruct (_ && _) eqn:B; [|discriminate]. intros E. injection E as ->. lia. Qed.

Lemma ival_value e v : ival e = Ok v -> v = iexact e.
Proof.
  revert v. induction e; intros r E; cbn [ival iexact] in *.
  1: injection E as <-; reflexivity.
  all: repeat match goal with H : bind _ _ = Ok _ |- _ => apply bind_ok_inv in H as (? & ? & H) end;
    apply i32_is in E as [-> _]; repeat match goal with IH : forall v, ?m = Ok v -> _, H : ?m = Ok _ |- _ => apply IH in H; rewrite H; clear IH end; reflexivity.
Qed.

Section Numbers.
Context {T : Type} {N : Num T}.

(** The two other corners the size is estimated with. *)
Definition beside_seed (cap0 cap2 : capstone T) (seed : point) (a c : pixel) : Prop :=
  persp_map (cap_c cap0) (fst (persp_unmap (cap_c cap0) seed)) (n_add (snd (persp_unmap (cap_c cap0) seed)) (n_of 1)) = Ok (pt a)
  /\ persp_map (cap_c cap2) (n_add (fst (persp_unmap (cap_c cap2) seed)) (n_of 1)) (snd (persp_unmap (cap_c cap2) seed)) = Ok (pt c).

Lemma find_alignment_exact I0 p q (cap0 cap2 : capstone T) o p' : reg_inv I0 p -> im_w I0 <= 2 ^ 62 -> im_h I0 <= 2 ^ 62 ->
  Z.abs (fst q) <= 2 ^ 30 -> Z.abs (snd q) <= 2 ^ 30 ->
  find_alignment_pattern p (pt q) cap0 cap2 = Ok (o, p') ->
  exists a c legs r, beside_seed cap0 cap2 (pt q) a c /\ legs_of (spanned q a c) legs /\ o = option_map pt r
    /\ first_hit (candidate I0 p (spanned q a c)) (obstacle I0 p) (spiral q legs) r /\ reg_inv I0 p' /\ same_claims I0 p p'.
Proof.
  intros R Bw Bh Bx By E. unfold find_alignment_pattern in E. unfold beside_seed.
  destruct (persp_unmap (cap_c cap0) (pt q)) as [u v]. apply bind_ok_inv in E as (a & Ea & E).
  destruct (persp_unmap (cap_c cap2) (pt q)) as [u' v']. apply bind_ok_inv in E as (c & Ec & E). cbn [fst snd].
  apply bind_ok_inv in E as (s & Es & E). exists (px a, py a), (px c, py c).
  assert (Bs : - 2 ^ 31 <= s < 2 ^ 31).
  { cbn [ival] in Es. repeat (apply bind_ok_inv in Es as (? & _ & Es)). apply i32_is in Es. lia. }
  apply ival_value in Es. cbn [iexact pt px py] in Es.
  assert (Est : Z.abs s = spanned q (px a, py a) (px c, py c)).
  { unfold spanned. cbn [fst snd]. rewrite <- (Z.abs_opp s). f_equal. rewrite Es. ring. }
  rewrite Est in E. destruct (legs_exist (spanned q (px a, py a) (px c, py c))) as (legs & HL & Hf).
  destruct (spiral_ok I0 p (spanned q (px a, py a) (px c, py c)) legs q Bw Bh HL Bx By ltac:(lia) legs 0%nat _ p eq_refl Hf R (same_claims_refl _ _)) as (r & p2 & E2 & R2 & S2 & F).
  assert (Q : shift q (leg_start 0) = q) by (unfold shift; cbn; rewrite !Z.add_0_r; destruct q; reflexivity).
  rewrite Q in E2, F.
  assert (E3 : align_spiral (Z.to_nat (2 * Z.sqrt (spanned q (px a, py a) (px c, py c) * 100) + 4)) (spanned q (px a, py a) (px c, py c)) 0 1 p (pt q) = Ok (option_map pt r, p2)) by exact E2.
  unfold out in *. rewrite E in E3. injection E3 as -> ->. exists legs, r. destruct a, c. split; [split; assumption|]. auto 6.
Qed.

Lemma find_alignment_claims I0 p q (cap0 cap2 : capstone T) o p' : reg_inv I0 p -> im_w I0 <= 2 ^ 62 -> im_h I0 <= 2 ^ 62 ->
  Z.abs (fst q) <= 2 ^ 30 -> Z.abs (snd q) <= 2 ^ 30 ->
  find_alignment_pattern p (pt q) cap0 cap2 = Ok (o, p') ->
  exists a c legs r, beside_seed cap0 cap2 (pt q) a c /\ legs_of (spanned q a c) legs /\ o = option_map pt r
    /\ first_hit (candidate I0 p (spanned q a c)) (obstacle I0 p) (spiral q legs) r
    /\ forall z, in_image I0 z -> (claimed p z <-> claimed p' z).
Proof.
  intros R Bw Bh Bx By E. destruct (find_alignment_exact I0 p q cap0 cap2 o p' R Bw Bh Bx By E) as (a & c & legs & r & H1 & H2 & H3 & H4 & _ & S).
  exists a, c, legs, r. auto 6.
Qed.

(** The corner the fill ends with. *)
Lemma leftmost_rows hd rows : (forall w, In w rows -> r_left w <= r_right w /\ 0 <= r_left w /\ r_right w <= 32767 /\ 0 <= r_y w <= 32767) ->
  forall b f, for_each rows (leftmost_update hd) (pt b, rightness (px hd, py hd) b) = Ok f ->
  exists b', f = (pt b', rightness (px hd, py hd) b') /\ (b' = b \/ In b' (rows_cells rows))
    /\ rightness (px hd, py hd) b' <= rightness (px hd, py hd) b
    /\ forall z, In z (rows_cells rows) -> rightness (px hd, py hd) b' <= rightness (px hd, py hd) z.
Proof.
  induction rows as [|w rows IH]; intros Hr b f E; cbn [for_each] in E.
  - injection E as <-. exists b. repeat split; auto; [lia|]. intros z [].
  - apply bind_ok_inv in E as ([b1 s1] & E1 & E).
    destruct (Hr w (or_introl eq_refl)) as (H1 & H2 & H3 & H4).
    assert (Il : as_i32 (r_left w) = r_left w) by (apply as_i32_small; unfold max_dim; lia).
    assert (Ir : as_i32 (r_right w) = r_right w) by (apply as_i32_small; unfold max_dim; lia).
    assert (Iy : as_i32 (r_y w) = r_y w) by (apply as_i32_small; unfold max_dim; lia).
    unfold leftmost_update in E1. rewrite Il, Ir, Iy in E1. apply bind_ok_inv in E1 as (ld & El & E1). apply bind_ok_inv in E1 as (rd & Er & E1).
    apply ival_value in El, Er. cbn [iexact] in El, Er. cbn [snd] in E1.
    set (hp := (px hd, py hd)) in *.
    assert (Ld : ld = rightness hp (r_left w, r_y w)) by (rewrite El; unfold hp, rightness; cbn [fst snd]; ring).
    assert (Rd : rd = rightness hp (r_right w, r_y w)) by (rewrite Er; unfold hp, rightness; cbn [fst snd]; ring).
    assert (K : exists b2, (b1, s1) = (pt b2, rightness hp b2) /\ (b2 = b \/ b2 = (r_left w, r_y w) \/ b2 = (r_right w, r_y w))
      /\ rightness hp b2 <= rightness hp b /\ rightness hp b2 <= ld /\ rightness hp b2 <= rd).
    { injection E1 as E1. rewrite <- E1. destruct (Z.ltb_spec ld (rightness hp b)) as [C|C]; cbn [snd].
      - destruct (Z.ltb_spec rd ld) as [C'|C'].
        + exists (r_right w, r_y w). rewrite <- Rd. repeat split; auto; lia.
        + exists (r_left w, r_y w). rewrite <- Ld. repeat split; auto; lia.
      - destruct (Z.ltb_spec rd (rightness hp b)) as [C'|C'].
        + exists (r_right w, r_y w). rewrite <- Rd. repeat split; auto; lia.
        + exists b. repeat split; auto; lia. }
    destruct K as (b2 & K1 & K2 & K3 & K4 & K5). injection K1 as -> ->.
    destruct (IH (fun w' Hw => Hr w' (or_intror Hw)) b2 f E) as (b' & F1 & F2 & F3 & F4). exists b'. split; [exact F1|].
    cbn [rows_cells flat_map]. change (flat_map row_cells rows) with (rows_cells rows).
    assert (Cl : forall x, r_left w <= x <= r_right w -> In (x, r_y w) (row_cells w)) by (intros x Hx; unfold row_cells; apply in_segment; cbn [fst snd]; lia).
    split; [|split; [lia|]].
    + destruct F2 as [-> |F2]; [|right; apply in_or_app; right; exact F2].
      destruct K2 as [-> |[-> | -> ]]; [left; reflexivity|right; apply in_or_app; left; apply Cl; lia..].
    + intros z Hz. apply in_app_or in Hz as [Hz|Hz]; [|apply F4; exact Hz].
      unfold row_cells in Hz. apply in_segment in Hz as [Hy Hx]. destruct z as [zx zy]. cbn [fst snd] in Hy, Hx. subst zy.
      assert (Mn : rightness hp (r_left w, r_y w) <= rightness hp (zx, r_y w) \/ rightness hp (r_right w, r_y w) <= rightness hp (zx, r_y w)).
      { unfold rightness. cbn [fst snd]. destruct (Z_le_dec 0 (snd hp)); [right|left]; nia. }
      lia.
Qed.

Theorem locate_exact I0 p (g : group T) hd q o p' : reg_inv I0 p -> im_w I0 <= 32768 -> im_h I0 <= 32768 ->
  Z.abs (fst q) <= 2 ^ 30 -> Z.abs (snd q) <= 2 ^ 30 ->
  locate_alignment p g hd (pt q) = Ok (o, p') ->
  exists a c legs r, beside_seed (gr0 g) (gr2 g) (pt q) a c /\ legs_of (spanned q a c) legs
    /\ first_hit (candidate I0 p (spanned q a c)) (obstacle I0 p) (spiral q legs) r
    /\ match r with
       | None => o = None /\ forall z, in_image I0 z -> (claimed p' z <-> claimed p z)
       | Some s => exists b, o = Some (pt b) /\ iblob I0 s b
           /\ (forall z, iblob I0 s z -> rightness (px hd, py hd) b <= rightness (px hd, py hd) z)
           /\ (forall z, in_image I0 z -> (claimed p' z <-> claimed p z \/ iblob I0 s z))
           /\ (forall z, in_image I0 z -> iblob I0 s z -> get_pixel_at p' (fst z) (snd z) = Ok CAlignment)
       end.
Proof.
  intros R Bw Bh Bx By E. unfold locate_alignment in E. apply bind_ok_inv in E as ([o1 p1] & E1 & E).
  destruct (find_alignment_exact I0 p q _ _ _ _ R ltac:(lia) ltac:(lia) Bx By E1) as (a & c & legs & r & A & L & Eo & F & R1 & S1).
  exists a, c, legs, r. split; [exact A|]. split; [exact L|]. split; [exact F|]. destruct r as [s|]; cbn [option_map] in Eo; subst o1.
  2:{ injection E as <- <-. split; [reflexivity|]. intros z Hz. destruct (S1 z Hz). split; assumption. }
  assert (C : candidate I0 p (spanned q a c) s).
  { clear -F. remember (spiral q legs) as l eqn:El. clear El. remember (Some s) as r eqn:Er. induction F; try discriminate; [injection Er as ->; assumption|auto]. }
  destruct C as (Is & Ds & Nc & _).
  apply bind_ok_inv in E as (score & Es & E). apply bind_ok_inv in E as ([p2 [b' s']] & E2 & E). injection E as <- <-.
  apply ival_value in Es. cbn [iexact pt px py] in Es.
  assert (Hs : score = rightness (px hd, py hd) s) by (rewrite Es; unfold rightness; cbn [fst snd]; ring).
  assert (Bs : 0 <= fst s < im_w I0 /\ 0 <= snd s < im_h I0) by (unfold in_image, inside in Is; lia).
  assert (Ux : as_usize (px (pt s)) = fst s) by (unfold as_usize; cbn [pt px]; apply Z.mod_small; lia).
  assert (Uy : as_usize (py (pt s)) = snd s) by (unfold as_usize; cbn [pt py]; apply Z.mod_small; lia). rewrite Ux, Uy in E2.
  assert (Sp : s = (fst s, snd s)) by (destruct s; reflexivity).
  assert (P1 : pix (p_buf p1) (fst s, snd s) <> 0).
  { rewrite <- Sp. intros Z0. apply Ds. apply (bi_white _ _ (ri_base _ _ R1) s Is). exact Z0. }
  assert (P2 : pix (p_buf p1) (fst s, snd s) <> 3).
  { rewrite <- Sp. intros Z0. apply Nc. apply (S1 s Is). unfold claimed. lia. }
  destruct (repaint_inv I0 p1 (fst s) (snd s) CAlignment 3 R1 ltac:(rewrite <- Sp; exact Is) eq_refl ltac:(lia) P1 P2) as (p3 & rows & R3 & Pd & _ & Cells & Ord & Rp).
  rewrite <- Sp in Pd, Cells. rewrite Rp in E2. apply bind_ok_inv in E2 as (f & Ef & E2). injection E2 as -> ->.
  assert (Rb : forall w, In w rows -> r_left w <= r_right w /\ 0 <= r_left w /\ r_right w <= 32767 /\ 0 <= r_y w <= 32767).
  { intros w Hw. rewrite Forall_forall in Ord. specialize (Ord w Hw).
    assert (Ic : forall x, r_left w <= x <= r_right w -> 0 <= x <= 32767 /\ 0 <= r_y w <= 32767).
    { intros x Hx. assert (Bl : iblob I0 s (x, r_y w)).
      { apply Cells. unfold rows_cells. apply in_flat_map. exists w. split; [exact Hw|]. unfold row_cells. apply in_segment. cbn [fst snd]. lia. }
      assert (Hi : in_image I0 (x, r_y w)) by (eapply blob_in; exact Bl). unfold in_image, inside in Hi. cbn [fst snd] in Hi. lia. }
    pose proof (Ic (r_left w) ltac:(lia)). pose proof (Ic (r_right w) ltac:(lia)). lia. }
  rewrite Hs in Ef. destruct (leftmost_rows hd rows Rb s _ Ef) as (b & Eb & Inb & _ & Mb). injection Eb as -> _. exists b.
  assert (Ssb : iblob I0 s s) by (apply blob_here; assumption).
  split; [reflexivity|]. split; [destruct Inb as [-> |Inb]; [exact Ssb|apply Cells; exact Inb]|].
  split; [intros z Hz; apply Mb, Cells; exact Hz|].
  assert (Dec : forall z, iblob I0 s z \/ ~ iblob I0 s z) by (apply (cells_dec_blob I0 s rows); exact Cells).
  split.
  - intros z Hz. destruct (Pd z Hz) as [Q1 Q2]. pose proof (S1 z Hz) as Sz. unfold claimed in *. destruct (Dec z) as [D|D].
    + rewrite (Q1 D). split; [right; exact D|lia].
    + rewrite (Q2 D). rewrite <- Sz. split; [left; assumption|intros [?|?]; [assumption|contradiction]].
  - intros z Hz Bz. destruct (Pd z Hz) as [Q1 _]. unfold get_pixel_at. destruct z as [zx zy]. cbn [fst snd].
    rewrite get_pixel_ok; [cbn [bind]; rewrite (Q1 Bz); reflexivity|apply (bi_wf _ _ (ri_base _ _ R3))|].
    apply (same_size_in _ _ _ (bi_size _ _ (ri_base _ _ R3))). exact Hz.
Qed.
End Numbers.

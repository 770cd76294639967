(** The adjustment of a transform: it never panics on the transforms that occur and leaves a
    transform alone whose fitness cannot be improved. *)
From Coq Require Import Reals Lra SpecFloat.
From Flocq Require Import Core.
From Verif Require Import Base Lib VersionDb ModelDecode ModelImage ModelGeometry ModelDetect ModelIdentify SpecImage SpecIdentify SpecQR SpecPicture FloodProofs RegionProofs CornerProofs SearchProofs SpiralProofs SampleProofs FloatProofs CenterProofs ApproxProofs FrameProofs LayoutProofs FitnessProofs.
Open Scope Z_scope.
Set Bullet Behavior "Strict Subproofs".

(** * Transforms with denominator 1 and bounded coefficients *)

Definition upto (f : spec_float) (M : R) : Prop := exists r, rep f r /\ (Rabs r <= M)%R.

Record calm (c : perspective spec_float) (M : R) : Prop := {
  ca0 : upto (c0 c) M; ca1 : upto (c1 c) M; ca2 : upto (c2 c) M;
  ca3 : upto (c3 c) M; ca4 : upto (c4 c) M; ca5 : upto (c5 c) M;
  ca6 : rep (c6 c) 0; ca7 : rep (c7 c) 0
}.

Lemma upto_weaken f M M' : upto f M -> (M <= M')%R -> upto f M'.
Proof. intros (r & R & B) H. exists r. split; [exact R|lra]. Qed.

Lemma calm_weaken c M M' : calm c M -> (M <= M')%R -> calm c M'.
Proof. intros [A0 A1 A2 A3 A4 A5 A6 A7] H. constructor; try assumption; eapply upto_weaken; eassumption. Qed.

Lemma upto_near f x e M : near f x e -> (Rabs x + e <= M)%R -> upto f M.
Proof.
  intros (r & R & H) B. exists r. split; [exact R|]. replace r with (x + (r - x))%R by ring.
  eapply Rle_trans; [apply Rabs_triang|]. lra.
Qed.

Lemma rep_near0 f r : rep f r -> near f r (1 / 1000000000).
Proof. intros H. eapply near_weaken; [apply near_rep; exact H|lra]. Qed.

Lemma calm_map c u v U V : calm c 40000 -> near u U (1 / 100000000) -> near v V (1 / 100000000) -> (Rabs U <= 200)%R -> (Rabs V <= 200)%R ->
  exists q, persp_map (N := F64) c u v = Ok q.
Proof.
  intros [(r0 & R0 & B0) (r1 & R1 & B1) (r2 & R2 & B2) (r3 & R3 & B3) (r4 & R4 & B4) (r5 & R5 & B5) A6 A7] Hu Hv BU BV.
  destruct (map_close c r0 r1 r2 r3 r4 r5 u v U V (1 / 100000000) (rep_near0 _ _ R0) (rep_near0 _ _ R1) R2 (rep_near0 _ _ R3) (rep_near0 _ _ R4) R5 A6 A7
    B0 B1 B3 B4 B2 B5 Hu Hv ltac:(lra) BU BV) as (p & q & E & _). exists (MkPoint p q). exact E.
Qed.

(** The coordinates of a sample. *)
Lemma sample_coord x u : 0 <= x <= 180 -> u = 3 \/ u = 5 \/ u = 7 ->
  near (n_add (Num := F64) (n_of x) (n_ratio u 10)) (IZR x + IZR u / 10) (1 / 100000000) /\ (Rabs (IZR x + IZR u / 10) <= 200)%R.
Proof.
  intros Hx Hu. assert (Xr : (0 <= IZR x <= 180)%R) by (split; apply IZR_le; lia).
  assert (Ur : (3 <= IZR u <= 7)%R) by (split; apply IZR_le; lia).
  assert (B : (Rabs (IZR x + IZR u / 10) <= 190)%R) by (apply Rabs_le'; lra).
  split; [|lra].
  apply near_add with (ex := 0%R) (ey := (1 / 900000000000)%R) (B := 200%R); [apply near_of; lia|apply near_ratio; lia|lra|lra|lra].
Qed.

Lemma three_bound (f : Z -> Z -> out Z) s k : (forall u s, u = 3 \/ u = 5 \/ u = 7 -> exists s', f u s = Ok s' /\ s - k <= s' <= s + k) ->
  exists s', for_each [3; 5; 7] f s = Ok s' /\ s - 3 * k <= s' <= s + 3 * k.
Proof.
  intros F. cbn [for_each].
  destruct (F 3 s ltac:(lia)) as (s1 & E1 & B1). unfold out in *. rewrite E1. cbn [bind].
  destruct (F 5 s1 ltac:(lia)) as (s2 & E2 & B2). rewrite E2. cbn [bind].
  destruct (F 7 s2 ltac:(lia)) as (s3 & E3 & B3). rewrite E3. cbn [bind].
  exists s3. split; [reflexivity|lia].
Qed.

Lemma three_exact (f : Z -> Z -> out Z) s d : (forall u s, u = 3 \/ u = 5 \/ u = 7 -> f u s = Ok (s + d)) ->
  for_each [3; 5; 7] f s = Ok (s + 3 * d).
Proof.
  intros F. cbn [for_each]. unfold out in *. rewrite (F 3) by lia. cbn [bind]. rewrite (F 5) by lia. cbn [bind].
  rewrite (F 7) by lia. cbn [bind]. f_equal. lia.
Qed.

Section Cells.
Context (I0 : image) (p : prepared) (RI : reg_inv I0 p) (W : 1 <= im_w I0 <= 2 ^ 31) (H : 1 <= im_h I0 <= 2 ^ 31).

Lemma cell_total c x y : calm c 40000 -> 0 <= x <= 180 -> 0 <= y <= 180 ->
  exists s, fitness_cell p c x y = Ok s /\ -9 <= s <= 9.
Proof using RI W H.
  intros C Hx Hy. unfold fitness_cell.
  apply (three_bound _ 0 3). intros v s Hv. apply (three_bound _ s 1). clear s. intros u s Hu.
  destruct (sample_coord x u Hx Hu) as (N1 & B1). destruct (sample_coord y v Hy Hv) as (N2 & B2).
  destruct (calm_map c _ _ _ _ C N1 N2 B1 B2) as (q & Eq). unfold out in *. rewrite Eq. cbn [bind].
  destruct (negb _); [|exists s; split; [reflexivity|lia]].
  destruct (sample_ok I0 p (px q, py q) RI W H) as (col & Ec & _).
  replace (SpiralProofs.pt (px q, py q)) with q in Ec by (destruct q; reflexivity). unfold out in *. rewrite Ec. cbn [bind].
  destruct (is_white col); eexists; (split; [reflexivity|lia]).
Qed.

Lemma cell_best c x y (dark : bool) :
  (forall u v, u = 3 \/ u = 5 \/ u = 7 -> v = 3 \/ v = 5 \/ v = 7 -> exists q,
     persp_map (N := F64) c (n_add (n_of x) (n_ratio u 10)) (n_add (n_of y) (n_ratio v 10)) = Ok (SpiralProofs.pt q) /\
     in_image I0 q /\ (pix I0 q <> 0 <-> dark = true)) ->
  fitness_cell p c x y = Ok (9 * (if dark then 1 else -1)).
Proof using RI W H.
  intros F. unfold fitness_cell. replace (9 * (if dark then 1 else -1)) with (0 + 3 * (3 * (if dark then 1 else -1))) by lia.
  apply three_exact. intros v s Hv. apply three_exact. clear s. intros u s Hu.
  destruct (F u v Hu Hv) as (q & Eq & Iq & D). unfold out in *. rewrite Eq. cbn [bind].
  assert (Sz : p_w p = im_w I0 /\ p_h p = im_h I0) by apply (bi_size _ _ (ri_base _ _ RI)). destruct Sz as [Sw Sh]. rewrite Sw, Sh.
  destruct (sample_ok I0 p q RI W H) as (col & Ec & Wc).
  destruct q as [a b]. unfold in_image, inside in Iq. cbn [fst snd] in Iq. cbn [SpiralProofs.pt px py fst snd] in *.
  assert (As : forall z, 0 <= z < 2 ^ 31 -> as_usize z = z) by (intros z Hz; unfold as_usize; apply Z.mod_small; lia).
  rewrite !As by lia.
  replace (b <? 0) with false by (symmetry; apply Z.ltb_ge; lia). replace (a <? 0) with false by (symmetry; apply Z.ltb_ge; lia).
  replace (im_h I0 <=? b) with false by (symmetry; apply Z.leb_gt; lia). replace (im_w I0 <=? a) with false by (symmetry; apply Z.leb_gt; lia).
  cbn [orb negb]. rewrite Ec. cbn [bind]. f_equal.
  replace (nearest_pixel (im_w I0) (im_h I0) (a, b)) with (a, b) in Wc.
  2:{ unfold nearest_pixel. cbn [fst snd]. f_equal; lia. }
  destruct (is_white col), dark; lia.
Qed.
End Cells.

(** * The adjustment *)

Lemma upto_scale f g x e M M' : upto f M -> near g x e -> (1 <= M <= 40000)%R -> (0 <= x <= 1)%R -> (0 <= e <= 1 / 900000000000)%R ->
  (M * x + 1 / 1000 <= M')%R -> upto (n_mul (Num := F64) f g) M'.
Proof.
  intros (r & R & B) G HM Hx He Q.
  assert (N : near (n_mul (Num := F64) f g) (r * x) (1 / 1000)).
  { apply near_mul with (ex := 0%R) (ey := e) (X := M) (Y := 1%R); [apply near_rep; exact R|exact G|exact B|apply Rabs_le'; lra|lra|lra|lra|].
    assert (e * M <= 1 / 900000000000 * 40000)%R by nra. lra. }
  eapply upto_near; [exact N|]. rewrite Rabs_mult, (Rabs_pos_eq x) by lra.
  assert (Rabs r * x <= M * x)%R by (apply Rmult_le_compat_r; lra). lra.
Qed.

Lemma calm_scale c t x e M M' : calm c M -> near t x e -> (1 <= M <= 40000)%R -> (0 <= x <= 1)%R -> (0 <= e <= 1 / 900000000000)%R ->
  (M * x + 1 / 1000 <= M')%R -> calm (persp_scale c t) M'.
Proof.
  intros [A0 A1 A2 A3 A4 A5 A6 A7] N HM Hx He Q. assert (T := N). destruct T as (r & R & _).
  constructor; unfold persp_scale; cbn [c0 c1 c2 c3 c4 c5 c6 c7].
  1-6: eapply upto_scale; eassumption.
  - eapply rep_mul_zero; eassumption.
  - eapply rep_mul_zero; eassumption.
Qed.

Lemma upto_step (up : bool) f g M1 M2 : upto f M1 -> upto g M2 -> (0 <= M1)%R -> (0 <= M2)%R -> (M1 + M2 <= 40000 - 1)%R ->
  upto (if up then n_add (Num := F64) f g else n_sub (Num := F64) f g) 40000.
Proof.
  intros (r & R & B) (s & S & C) P1 P2 HM. destruct up.
  - assert (T : (Rabs (r + s) <= M1 + M2)%R) by (eapply Rle_trans; [apply Rabs_triang|lra]).
    apply (upto_near _ (r + s) (1 / 1000)); [|lra].
    apply near_add with (ex := 0%R) (ey := 0%R) (B := 40000%R); [apply near_rep; exact R|apply near_rep; exact S|lra|lra|lra].
  - assert (T : (Rabs (r - s) <= M1 + M2)%R).
    { unfold Rminus. eapply Rle_trans; [apply Rabs_triang|]. rewrite Rabs_Ropp. lra. }
    apply (upto_near _ (r - s) (1 / 1000)); [|lra].
    apply near_sub with (ex := 0%R) (ey := 0%R) (B := 40000%R); [apply near_rep; exact R|apply near_rep; exact S|lra|lra|lra].
Qed.

Lemma calm_step (up : bool) c adj j : calm c 39000 -> calm adj 800 ->
  calm (persp_set c j (if up then n_add (Num := F64) (persp_get c j) (persp_get adj j) else n_sub (Num := F64) (persp_get c j) (persp_get adj j))) 40000.
Proof.
  intros C A. assert (C' : calm c 40000) by (apply calm_weaken with (1 := C); lra).
  assert (St : forall f g, upto f 39000 -> upto g 800 -> upto (if up then n_add (Num := F64) f g else n_sub (Num := F64) f g) 40000).
  { intros f g F G. eapply upto_step; try eassumption; lra. }
  assert (Sz : forall f g, rep f 0 -> rep g 0 -> rep (if up then n_add (Num := F64) f g else n_sub (Num := F64) f g) 0).
  { intros f g F G. destruct up; [apply rep_zero_add|apply rep_zero_sub]; assumption. }
  destruct C as [C0 C1 C2 C3 C4 C5 C6 C7]. destruct A as [A0 A1 A2 A3 A4 A5 A6 A7]. destruct C' as [D0 D1 D2 D3 D4 D5 D6 D7].
  destruct c as [k0 k1 k2 k3 k4 k5 k6 k7]. cbn [c0 c1 c2 c3 c4 c5 c6 c7] in *.
  do 7 (destruct j as [|j]; [constructor; cbn [persp_set persp_get c0 c1 c2 c3 c4 c5 c6 c7]; auto|]).
  constructor; cbn [persp_set persp_get c0 c1 c2 c3 c4 c5 c6 c7]; auto.
Qed.

Lemma positions_range v a : 1 <= v <= 40 -> In a (alignment_positions v) -> 6 <= a <= symbol_size v - 7.
Proof.
  intros Hv Ha. assert (Hn : symbol_size v = 17 + 4 * v) by reflexivity.
  destruct (positions_shape v Hv) as [E|(mid & E & Fm & V1)]; rewrite E in Ha; [contradiction|].
  destruct Ha as [<- |Ha]; [lia|]. apply in_app_iff in Ha as [Ha|[<- |[]]]; [|lia].
  rewrite Forall_forall in Fm. specialize (Fm a Ha). lia.
Qed.

Section Jiggle.
Context (I0 : image) (p : prepared) (RI : reg_inv I0 p) (W : 1 <= im_w I0 <= 2 ^ 31) (H : 1 <= im_h I0 <= 2 ^ 31).

(** The score of a calm transform is at most 9 per planned module. *)
Lemma all_total v ver c : 0 <= v <= 40 -> nth_error VERSION_DATA_BASE (Z.to_nat v) = Some ver ->
  (forall a, In a (take_nonzero (vi_apat ver)) -> 6 <= a <= symbol_size v - 7) -> calm c 40000 ->
  exists s, fitness_all p c (symbol_size v) = Ok s /\ s <= 9 * Z.of_nat (length (plan (symbol_size v) (take_nonzero (vi_apat ver)))).
Proof using RI W H.
  intros Hv Ev Hp C.
  set (g := fun x y => match fitness_cell p c x y with Ok s => Z.max (-9) (Z.min 9 s) | _ => 0 end).
  assert (G : forall x y, 0 <= x <= 180 -> 0 <= y <= 180 -> fitness_cell p c x y = Ok (g x y)).
  { intros x y Hx Hy. destruct (cell_total I0 p RI W H c x y C Hx Hy) as (s & E & B). unfold g. unfold out in *. rewrite E. f_equal. lia. }
  exists (total g (plan (symbol_size v) (take_nonzero (vi_apat ver)))).
  assert (Hn : symbol_size v = 17 + 4 * v) by reflexivity.
  split.
  - eapply fitness_sum; [|exact Hn|exact Hv|exact Ev|exact Hp]. intros x y Hx Hy. apply G; lia.
  - apply total_bound; [apply plan_signed|]. intros x y s Hin.
    unfold g. destruct (fitness_cell p c x y) as [t| | |]; lia.
Qed.

Lemma all_best v ver c sym : 1 <= v <= 40 -> calm c 40000 -> nth_error VERSION_DATA_BASE (Z.to_nat v) = Some ver ->
  take_nonzero (vi_apat ver) = alignment_positions v -> function_patterns v sym ->
  (forall x y, 0 <= x < symbol_size v -> 0 <= y < symbol_size v -> pattern_module v y x -> fitness_cell p c x y = Ok (9 * (if sym y x then 1 else -1))) ->
  fitness_all p c (symbol_size v) = Ok (9 * Z.of_nat (length (plan (symbol_size v) (take_nonzero (vi_apat ver))))).
Proof using RI W H.
  intros Hv C Ev Ep Fp G. assert (Hn : symbol_size v = 17 + 4 * v) by reflexivity.
  set (g := fun x y => match fitness_cell p c x y with Ok s => s | _ => 0 end).
  rewrite <- (total_best g); [|apply plan_signed|].
  2: { intros x y s Hin. rewrite Ep in Hin. destruct (plan_expected v sym Hv Fp x y s Hin) as (Hx & Hy & Fm & ->). unfold g. rewrite (G x y Hx Hy Fm). reflexivity. }
  eapply fitness_sum; [|exact Hn|lia|exact Ev|].
  - intros x y Hx Hy. destruct (cell_total I0 p RI W H c x y C ltac:(lia) ltac:(lia)) as (s & E & _). unfold g. unfold out in *. rewrite E. reflexivity.
  - intros a Ha. rewrite Ep in Ha. apply positions_range; assumption.
Qed.

(** A calm transform of the best score is kept. *)
Lemma jiggle_fixed c n best : calm c 33000 -> fitness_all p c n = Ok best ->
  (forall c', calm c' 40000 -> exists s, fitness_all p c' n = Ok s /\ s <= best) ->
  jiggle_perspective (N := F64) p c n = Ok c.
Proof using.
  intros C E T. unfold jiggle_perspective. unfold out in *. rewrite E. cbn [bind].
  assert (Cc : calm c 39000) by (apply calm_weaken with (1 := C); lra).
  assert (Step : forall adj, calm adj 800 -> for_each (range 0 16) (jiggle_step (N := F64) p n adj) (c, best) = Ok (c, best)).
  { intros adj A. generalize (range 0 16). induction l as [|i l IH]; [reflexivity|]. cbn [for_each].
    assert (J : jiggle_step (N := F64) p n adj i (c, best) = Ok (c, best)).
    { unfold jiggle_step. destruct (T _ (calm_step (Nat.odd i) c adj (Nat.div2 i) Cc A)) as (s & Es & Bs). unfold out in *.
      rewrite Es. cbn [bind]. replace (best <? s) with false by (symmetry; apply Z.ltb_ge; lia). reflexivity. }
    rewrite J. cbn [bind]. exact IH. }
  assert (Half : near (n_ratio (Num := F64) 1 2) (IZR 1 / IZR 2) (1 / 900000000000)) by (apply near_ratio; lia).
  assert (Two : near (n_ratio (Num := F64) 2 100) (IZR 2 / IZR 100) (1 / 900000000000)) by (apply near_ratio; lia).
  assert (Loop : forall l adj, calm adj 800 -> exists adj',
    for_each l (fun (_ : nat) s => let '(c, best, adj) := s in
      let* t := for_each (range 0 16) (jiggle_step (N := F64) p n adj) (c, best) in
      let '(c, best) := t in Ok (c, best, persp_scale adj (n_ratio 1 2))) (c, best, adj) = Ok (c, best, adj')).
  { induction l as [|i l IH]; intros adj A; [exists adj; reflexivity|]. cbn [for_each]. rewrite (Step adj A). cbn [bind].
    apply IH. eapply calm_scale; [exact A|exact Half|lra|lra|lra|lra]. }
  destruct (Loop (range 0 5) (persp_scale c (n_ratio 2 100))) as (adj' & El).
  { eapply calm_scale; [exact C|exact Two|lra|lra|lra|lra]. }
  rewrite El. reflexivity.
Qed.

Theorem jiggle_keeps v sym c : 1 <= v <= 40 -> v <> 21 -> function_patterns v sym -> calm c 33000 ->
  (forall x y u z, 0 <= x < symbol_size v -> 0 <= y < symbol_size v -> pattern_module v y x -> u = 3 \/ u = 5 \/ u = 7 -> z = 3 \/ z = 5 \/ z = 7 -> exists q,
     persp_map (N := F64) c (n_add (n_of x) (n_ratio u 10)) (n_add (n_of y) (n_ratio z 10)) = Ok (SpiralProofs.pt q) /\
     in_image I0 q /\ (pix I0 q <> 0 <-> sym y x = true)) ->
  jiggle_perspective (N := F64) p c (symbol_size v) = Ok c.
Proof using RI W H.
  intros Hv H21 Fp C Sm. pose proof apat_sweep as Sw. rewrite forallb_forall in Sw.
  specialize (Sw v ltac:(apply in_or_app; rewrite !in_zrange; lia)). unfold apat_agrees in Sw.
  destruct (nth_error VERSION_DATA_BASE (Z.to_nat v)) as [ver|] eqn:Ev; [|discriminate].
  destruct (list_eq_dec Z.eq_dec (take_nonzero (vi_apat ver)) (alignment_positions v)) as [E|]; [|discriminate].
  eapply jiggle_fixed; [exact C| |].
  - assert (C4 : calm c 40000) by (apply calm_weaken with (1 := C); lra). apply (all_best v ver c sym Hv C4 Ev E Fp). intros x y Hx Hy Fm. apply (cell_best I0 p RI W H).
    intros u z Hu Hz. apply Sm; assumption.
  - intros c' C'. apply all_total; [lia|exact Ev| |exact C']. intros a Ha. rewrite E in Ha. apply positions_range; assumption.
Qed.
End Jiggle.

(** Locating the grid of a symbol drawn square to the pixels. *)
From Coq Require Import Reals Lra SpecFloat.
From Flocq Require Import Core.
From Coq Require Import Permutation.
From Verif Require Import Base Lib VersionDb ModelDecode ModelImage ModelGeometry ModelDetect ModelIdentify SpecQR SpecImage SpecIdentify SpecFinder SpecPicture
  FloodProofs RegionProofs CornerProofs SearchProofs ScanProofs HistoryProofs FloatProofs CenterProofs GeometryProofs SpiralProofs SampleProofs ApproxProofs FrameProofs FitnessProofs JiggleProofs SquareProofs TurnProofs PatternProofs GroupProofs OrientProofs TimingProofs AlignProofs ImageFacts FinderFacts IdentifyProofs.
Open Scope Z_scope.
Set Bullet Behavior "Strict Subproofs".

Lemma nearest_self w h q : inside w h q -> nearest_pixel w h q = q.
Proof. unfold inside, nearest_pixel. destruct q as [x y]. cbn [fst snd]. intros H. f_equal; lia. Qed.

Section Whole.
Context (I0 : image) (p : prepared) (RI : reg_inv I0 p) (Hw : 1 <= im_w I0 <= 32768) (Hh : 1 <= im_h I0 <= 32768).
Context (v : Z) (sym : Z -> Z -> bool) (m ox oy : Z) (r : nat).
Notation n := (symbol_size v).
Notation E := (symbol_size v * m - 1).
Notation at_ := (place r E ox oy).
Notation L := (7 * m - 1).
Context (Sh : legible (im_w I0) (im_h I0) (pix I0) v sym m ox oy r) (Hv : 1 <= v <= 40) (Fp : function_patterns v sym) (M : 2 <= m).
Notation D := ((symbol_size v - 7) * m).
Notation standing := (standing m r).

Definition framed (c : perspective spec_float) : Prop := affine c (IZR m) (dir_a r) (dir_b r) (fst (at_ 0 0)) (snd (at_ 0 0)).

Lemma unit_range : (2 <= IZR m <= 2000)%R.
Proof using RI Hw Hh Sh Hv Fp M.
  pose proof (room I0 p RI Hw Hh v sym m ox oy r Sh Hv Fp M) as (R1 & R2 & R3 & R4). split; apply IZR_le; lia.
Qed.

Lemma origin_range : 0 <= fst (at_ 0 0) <= 32767 /\ 0 <= snd (at_ 0 0) <= 32767.
Proof using RI Hw Hh Sh Hv Fp M.
  pose proof (room I0 p RI Hw Hh v sym m ox oy r Sh Hv Fp M) as (R1 & R2 & R3 & R4).
  apply (at_range I0 p RI Hw Hh v sym m ox oy r Sh Hv Fp M); lia.
Qed.

(** A point well inside a module is mapped to a pixel of that module. *)
Lemma module_sample c x y u w f g : framed c -> 0 <= x < n -> 0 <= y < n ->
  near u (IZR x + f) (1 / 100000000) -> near w (IZR y + g) (1 / 100000000) -> (3 / 10 <= f <= 7 / 10)%R -> (3 / 10 <= g <= 7 / 10)%R ->
  exists s t, persp_map (N := F64) c u w = Ok (pt (at_ s t)) /\ x * m <= s < x * m + m /\ y * m <= t < y * m + m
    /\ (f = (1 / 2)%R -> central m s) /\ (g = (1 / 2)%R -> central m t).
Proof using RI Hw Hh Sh Hv Fp M.
  intros Fr Hx Hy Nu Nw Hf Hg. pose proof unit_range as MR. pose proof origin_range as [O1 O2].
  assert (Bd : forall z k, 0 <= z < n -> (3 / 10 <= k <= 7 / 10)%R -> (Rabs (IZR z + k) <= 200)%R).
  { intros z k Hz Hk. assert (0 <= IZR z <= 177)%R by (split; apply IZR_le; unfold symbol_size in Hz; lia). apply Rabs_le'; lra. }
  destruct (map_place r E ox oy c (IZR m) 0 0 u w _ _ Fr ltac:(lra) ltac:(lia) ltac:(lia) Nu Nw (Bd x f Hx Hf) (Bd y g Hy Hg)) as (s & t & Em & D1 & D2).
  exists s, t. split; [exact Em|].
  assert (La : forall z z' k, (3 / 10 <= k <= 7 / 10)%R -> (Rabs (IZR z' - (0 + IZR m * (IZR z + k))) <= / 2 + 1 / 200)%R -> z * m <= z' < z * m + m).
  { intros z z' k Hk A. apply Rabs_le_inv in A as [A1 A2].
    assert (Km : (6 / 10 <= IZR m * k <= IZR m - 6 / 10)%R) by nra.
    assert (G1 : (IZR (z * m) < IZR (z' + 1))%R) by (rewrite mult_IZR, plus_IZR; nra).
    assert (G2 : (IZR z' < IZR (z * m + m))%R) by (rewrite plus_IZR, mult_IZR; nra).
    apply lt_IZR in G1, G2. lia. }
  assert (Lc : forall z z' k, (Rabs (IZR z' - (0 + IZR m * (IZR z + k))) <= / 2 + 1 / 200)%R -> z * m <= z' < z * m + m -> k = (1 / 2)%R -> central m z').
  { intros z z' k A B ->. apply Rabs_le_inv in A as [A1 A2]. unfold central.
    replace (z' mod m) with (z' - z * m) by (apply Z.mod_unique with (q := z); lia).
    assert (G1 : (IZR (2 * z') < IZR (2 * (z * m) + m + 2))%R) by (rewrite !plus_IZR, !mult_IZR; lra).
    assert (G2 : (IZR (2 * (z * m) + m) < IZR (2 * z' + 2))%R) by (rewrite !plus_IZR, !mult_IZR; lra).
    apply lt_IZR in G1, G2. lia. }
  pose proof (La x s f Hf D1) as B1. pose proof (La y t g Hg D2) as B2. split; [exact B1|]. split; [exact B2|].
  split; intros Ef; [apply (Lc x s f)|apply (Lc y t g)]; assumption.
Qed.

Lemma sample_dark s t x y : x * m <= s < x * m + m -> y * m <= t < y * m + m -> 0 <= x < n -> 0 <= y < n ->
  in_image I0 (at_ s t) /\ (pattern_module v y x \/ central m s /\ central m t -> (pix I0 (at_ s t) <> 0 <-> sym y x = true)).
Proof using RI Hw Hh Sh Hv Fp M.
  intros Hs Ht Hx Hy. assert (Q : forall z, 0 <= z < n -> 0 <= z * m /\ z * m + m <= n * m) by (intros z Hz; nia).
  pose proof (Q x Hx). pose proof (Q y Hy).
  destruct (dark_at I0 p RI Hw Hh v sym m ox oy r Sh Hv Fp M s t ltac:(lia) ltac:(lia)) as [In Dk]. split; [exact In|]. unfold seen in Dk.
  rewrite (cell_div I0 p RI Hw Hh v sym m ox oy r Sh Hv Fp M x s Hs), (cell_div I0 p RI Hw Hh v sym m ox oy r Sh Hv Fp M y t Ht) in Dk. exact Dk.
Qed.

Lemma framed_calm c : framed c -> calm c 33000.
Proof using RI Hw Hh Sh Hv Fp M.
  intros [F0 F1 F2 F3 F4 F5 F6 F7]. pose proof unit_range as MR. pose proof origin_range as [O1 O2].
  assert (Bd : forall k : Z, Z.abs k <= 1 -> (Rabs (IZR k * IZR m) <= IZR m)%R).
  { intros k Hk. rewrite Rabs_mult, (Rabs_pos_eq (IZR m)) by lra. rewrite <- abs_IZR. apply IZR_le in Hk. nra. }
  assert (Ax : Z.abs (dir_a r) <= 1 /\ Z.abs (dir_b r) <= 1 /\ Z.abs (- dir_b r) <= 1) by (destruct r as [|[|[|r']]]; cbn; lia).
  destruct Ax as (A1 & A2 & A3). rewrite <- opp_IZR in F1.
  assert (Pt : forall z, 0 <= z <= 32767 -> (Rabs (IZR z) + 0 <= 33000)%R).
  { intros z Hz. rewrite Rabs_pos_eq by (apply IZR_le; lia). assert (IZR z <= 32767)%R by (apply IZR_le; lia). lra. }
  constructor; try assumption.
  - eapply upto_near; [exact F0|]. pose proof (Bd _ A1). lra.
  - eapply upto_near; [exact F1|]. pose proof (Bd _ A3). lra.
  - eapply upto_near; [apply near_rep; exact F2|]. apply Pt. exact O1.
  - eapply upto_near; [exact F3|]. pose proof (Bd _ A2). lra.
  - eapply upto_near; [exact F4|]. pose proof (Bd _ A1). lra.
  - eapply upto_near; [apply near_rep; exact F5|]. apply Pt. exact O2.
Qed.

Lemma jiggle_framed c : v <> 21 -> framed c -> jiggle_perspective (N := F64) p c n = Ok c.
Proof using RI Hw Hh Sh Hv Fp M.
  intros V21 Fr. apply (jiggle_keeps I0 p RI ltac:(lia) ltac:(lia) v sym c Hv V21 Fp (framed_calm c Fr)).
  intros x y u z Hx Hy Fm Hu Hz.
  assert (Fr' : forall k, k = 3 \/ k = 5 \/ k = 7 -> (3 / 10 <= IZR k / 10 <= 7 / 10)%R) by (intros k [-> | [-> | -> ]]; lra).
  destruct (sample_coord x u ltac:(unfold symbol_size in Hx; lia) Hu) as [N1 _]. destruct (sample_coord y z ltac:(unfold symbol_size in Hy; lia) Hz) as [N2 _].
  destruct (module_sample c x y _ _ _ _ Fr Hx Hy N1 N2 (Fr' u Hu) (Fr' z Hz)) as (s & t & Em & Hs & Ht & _).
  exists (at_ s t). split; [exact Em|]. destruct (sample_dark s t x y Hs Ht Hx Hy) as [In Dk]. split; [exact In|]. apply Dk. left. exact Fm.
Qed.

Lemma initial_square A' B' C' : standing A' (at_ 0 0) -> standing B' (at_ D 0) -> standing C' (at_ 0 D) ->
  exists c, persp_create (N := F64) (Corners (k0 (cap_corners A')) (k0 (cap_corners B')) (pt (at_ D D)) (k0 (cap_corners C'))) (n_of (n - 7)) (n_of (n - 7)) = Some c /\ framed c.
Proof using RI Hw Hh Sh Hv Fp M.
  intros [EA _] [EB _] [EC _]. rewrite EA, EB, EC. unfold square at 1 2 3. cbn [k0].
  pose proof (room I0 p RI Hw Hh v sym m ox oy r Sh Hv Fp M) as (R1 & R2 & R3 & R4).
  assert (Q : forall s t, 0 <= s < n * m -> 0 <= t < n * m -> 0 <= fst (at_ s t) <= 32767 /\ 0 <= snd (at_ s t) <= 32767) by (apply (at_range I0 p RI Hw Hh v sym m ox oy r Sh Hv Fp M)).
  assert (Sq : Corners (MkPoint (fst (at_ 0 0)) (snd (at_ 0 0))) (MkPoint (fst (at_ D 0)) (snd (at_ D 0))) (pt (at_ D D)) (MkPoint (fst (at_ 0 D)) (snd (at_ 0 D))) =
    square (fst (at_ 0 0)) (snd (at_ 0 0)) D (dir_a r) (dir_b r)).
  { unfold square, pt, place. cbn [fst snd]. f_equal; f_equal; ring. }
  destruct (create_square (fst (at_ 0 0)) (snd (at_ 0 0)) D (n - 7) (dir_a r) (dir_b r) (axis_dir r)) as (c & Ec & Af).
  - unfold symbol_size. lia.
  - unfold symbol_size in *. nia.
  - rewrite <- Sq. unfold small_corners, small_pt, pt. cbn [k0 k1 k2 k3 px py].
    pose proof (Q 0 0 ltac:(lia) ltac:(lia)). pose proof (Q D 0 ltac:(lia) ltac:(lia)). pose proof (Q D D ltac:(lia) ltac:(lia)). pose proof (Q 0 D ltac:(lia) ltac:(lia)).
    unfold max_dim. tauto.
  - exists c. rewrite Sq. split; [exact Ec|]. unfold framed. replace (IZR m) with (IZR D / IZR (n - 7))%R; [exact Af|].
    rewrite mult_IZR. field. apply not_0_IZR. unfold symbol_size. lia.
Qed.

Lemma version_square : version_from_grid_size n = Ok v.
Proof using RI Hw Hh Sh Hv Fp M.
  unfold version_from_grid_size, usub, symbol_size. replace (17 <=? 17 + 4 * v) with true by lia. cbn [bind]. f_equal. replace (17 + 4 * v - 17) with (v * 4) by ring. apply Z.div_mul. lia.
Qed.

Lemma set_up A' B' C' : v <> 21 -> standing A' (at_ 0 0) -> standing B' (at_ D 0) -> standing C' (at_ 0 D) ->
  exists c, setup_perspective (N := F64) p (MkGroup C' A' B') (pt (at_ D D)) n = Ok (Some c) /\ framed c.
Proof using RI Hw Hh Sh Hv Fp M.
  intros V21 SA SB SC. destruct (initial_square A' B' C' SA SB SC) as (c & Ec & Fr). exists c. split; [|exact Fr].
  unfold setup_perspective. unfold usub. replace (7 <=? n) with true by (unfold symbol_size; lia). cbn [bind gr0 gr1 gr2]. rewrite Ec.
  rewrite (jiggle_framed c V21 Fr). reflexivity.
Qed.
End Whole.

Section FromGroup.
Context (I0 : image) (Hw : 1 <= im_w I0 <= 32768) (Hh : 1 <= im_h I0 <= 32768).
Context (v : Z) (sym : Z -> Z -> bool) (m ox oy : Z) (r : nat).
Notation n := (symbol_size v).
Notation E := (symbol_size v * m - 1).
Notation at_ := (place r E ox oy).
Notation L := (7 * m - 1).
Context (Sh : legible (im_w I0) (im_h I0) (pix I0) v sym m ox oy r) (Hv : 1 <= v <= 40) (Fp : function_patterns v sym) (M : 2 <= m).
Context (V21 : v <> 21) (Size : L * L * furthest v m ox oy r < 2 ^ 31).
Notation D := ((symbol_size v - 7) * m).
Notation standing := (standing m r).
Notation framed := (framed v m ox oy r).

Theorem from_group_square p g A' B' C' hd : reg_inv I0 p -> ~ claimed p (at_ D D) -> orient_group g = Ok (MkGroup C' A' B', hd) ->
  standing A' (at_ 0 0) -> standing B' (at_ D 0) -> standing C' (at_ 0 D) ->
  in_reach (px hd) -> in_reach (py hd) -> 0 < dir_b r * px hd - dir_a r * py hd -> 0 < dir_a r * px hd + dir_b r * py hd ->
  exists p' c, from_group (N := F64) p g = Ok (Some (MkLoc n c), p') /\ reg_inv I0 p' /\ framed c
    /\ forall a, in_image I0 a -> claimed p' a -> claimed p a \/ in_square n m ox oy a.
Proof using Hw Hh Sh Hv Fp M V21 Size.
  intros RI Nc Eo SA SB SC H1 H2 H3 H4. unfold from_group. rewrite Eo. cbn [bind].
  rewrite (measure_square I0 p RI Hw Hh v sym m ox oy r Sh Hv Fp M A' B' C' SA SB SC). cbn [bind].
  rewrite (seed_square I0 p RI Hw Hh v sym m ox oy r Sh Hv Fp M C' B' A' SB SC Size). cbn [bind].
  assert (Fin : forall p', reg_inv I0 p' -> exists c, (let* v := version_from_grid_size n in
     if Z.of_nat (length VERSION_DATA_BASE) <=? v then Ok (None, p')
     else let* o := setup_perspective (N := F64) p' (MkGroup C' A' B') (pt (at_ D D)) n in
          match o with None => Ok (None, p') | Some c => Ok (Some (MkLoc n c), p') end) = Ok (Some (MkLoc n c), p') /\ framed c).
  { intros p' RI'. destruct (set_up I0 p' RI' Hw Hh v sym m ox oy r Sh Hv Fp M A' B' C' V21 SA SB SC) as (c & Es & Fr). exists c. split; [|exact Fr].
    rewrite (version_square I0 p' RI' Hw Hh v sym m ox oy r Sh Hv Fp M). cbn [bind].
    replace (Z.of_nat (length VERSION_DATA_BASE)) with 41 by reflexivity. replace (41 <=? v) with false by lia. rewrite Es. reflexivity. }
  destruct (Z.ltb_spec 21 n) as [N21|N21].
  - destruct (locate_square I0 p RI Hw Hh v sym m ox oy r Sh Hv Fp M C' B' A' hd SB SC ltac:(unfold symbol_size in N21; lia) Nc H1 H2 H3 H4) as (p' & El & RI' & Cl).
    rewrite El. cbn [bind]. destruct (Fin p' RI') as (c & Ef & Fr). exists p', c. auto.
  - cbn [bind]. destruct (Fin p RI) as (c & Ef & Fr). exists p, c. auto.
Qed.

(** The grid reads the symbol. *)
Lemma framed_bits p c y x : reg_inv I0 p -> framed c -> 0 <= x < n -> 0 <= y < n -> g_bit (ref_grid (N := F64) p (MkLoc n c)) y x = Ok (sym y x).
Proof using Hw Hh Sh Hv Fp M V21 Size.
  intros RI Fr Hx Hy. apply (ref_grid_bit I0 p (MkLoc n c) y x); [exact RI|lia|lia|].
  assert (Nc : forall z, 0 <= z < n -> near (n_add (Num := F64) (n_of z) (n_ratio 1 2)) (IZR z + 1 / 2) (1 / 100000000)).
  { intros z Hz. assert (0 <= IZR z <= 177)%R by (split; apply IZR_le; unfold symbol_size in Hz; lia).
    apply near_add with (ex := 0%R) (ey := (1 / 900000000000)%R) (B := 200%R); [apply near_of; unfold symbol_size in Hz; lia|apply (near_ratio 1 2); lia| |lra|lra].
    rewrite Rabs_pos_eq by lra. lra. }
  destruct (module_sample I0 p RI Hw Hh v sym m ox oy r Sh Hv Fp M c x y _ _ _ _ Fr Hx Hy (Nc x Hx) (Nc y Hy) ltac:(lra) ltac:(lra)) as (s & t & Em & Hs & Ht & Cs & Ct).
  exists (at_ s t). split; [exact Em|].
  destruct (sample_dark I0 p RI Hw Hh v sym m ox oy r Sh Hv Fp M s t x y Hs Ht Hx Hy) as [In Dk]. specialize (Dk (or_intror (conj (Cs eq_refl) (Ct eq_refl)))).
  rewrite nearest_self by exact In. destruct (Z.eqb_spec (pix I0 (at_ s t)) 0) as [Q|Q]; cbn [negb].
  - destruct (sym y x); [|reflexivity]. exfalso. apply Dk; [reflexivity|exact Q].
  - apply Dk. exact Q.
Qed.

Definition frame_bounds : corners :=
  let far := (n + 1) * m in Corners (pt (at_ 0 0)) (pt (at_ far 0)) (pt (at_ far far)) (pt (at_ 0 far)).

Lemma framed_bounds p c : reg_inv I0 p -> framed c -> grid_bounds (N := F64) (MkLoc n c) = Ok frame_bounds.
Proof using Hw Hh Sh Hv Fp M V21 Size.
  intros RI Fr. unfold grid_bounds. cbn [loc_size loc_c].
  pose proof (unit_range I0 p RI Hw Hh v sym m ox oy r Sh Hv Fp M) as MR. pose proof (origin_range I0 p RI Hw Hh v sym m ox oy r Sh Hv Fp M) as [O1 O2].
  assert (Nr : (17 <= IZR n <= 177)%R) by (split; apply IZR_le; unfold symbol_size; lia).
  assert (Ns : near (n_add (Num := F64) (n_of n) (n_of 1)) (IZR (n + 1)) (1 / 100000000)).
  { rewrite plus_IZR. apply near_add with (ex := 0%R) (ey := 0%R) (B := 200%R); [apply near_of; unfold symbol_size; lia|apply (near_of 1); lia| |lra|lra].
    rewrite Rabs_pos_eq by lra. lra. }
  assert (Nz : near (n_of (N := F64) 0) (IZR 0) (1 / 100000000)) by (eapply near_weaken; [apply (near_of 0); lia|lra]).
  assert (Bs : (Rabs (IZR (n + 1)) <= 200)%R) by (rewrite plus_IZR; apply Rabs_le'; lra). assert (Bz : (Rabs (IZR 0) <= 200)%R) by (rewrite Rabs_R0; lra).
  assert (Map : forall u w i j, near u (IZR i) (1 / 100000000) -> near w (IZR j) (1 / 100000000) -> (Rabs (IZR i) <= 200)%R -> (Rabs (IZR j) <= 200)%R ->
    persp_map (N := F64) c u w = Ok (pt (at_ (i * m) (j * m)))).
  { intros u w i j Nu Nw Bi Bj.
    destruct (map_place r E ox oy c (IZR m) 0 0 u w _ _ Fr ltac:(lra) ltac:(lia) ltac:(lia) Nu Nw Bi Bj) as (s & t & Em & D1 & D2).
    assert (Rd : forall a z, (Rabs (IZR a - (IZR 0 + IZR m * IZR z)) <= / 2 + 1 / 200)%R -> a = z * m).
    { clear. intros a z H. rewrite Rplus_0_l, <- mult_IZR, <- minus_IZR, <- abs_IZR in H.
      assert (Q : (IZR (Z.abs (a - m * z)) < IZR 1)%R) by lra. apply lt_IZR in Q. lia. }
    rewrite Em, (Rd s i D1), (Rd t j D2). reflexivity. }
  rewrite (Map _ _ 0 0 Nz Nz Bz Bz). cbn [bind]. rewrite (Map _ _ (n + 1) 0 Ns Nz Bs Bz). cbn [bind].
  rewrite (Map _ _ (n + 1) (n + 1) Ns Ns Bs Bs). cbn [bind]. rewrite (Map _ _ 0 (n + 1) Nz Ns Bz Bs). reflexivity.
Qed.
End FromGroup.

(** * The group of a symbol *)

Section SymbolGroup.
Context (I0 : image) (Hw : 1 <= im_w I0 <= 32768) (Hh : 1 <= im_h I0 <= 32768).
Context (v : Z) (sym : Z -> Z -> bool) (m ox oy : Z) (r : nat).
Notation n := (symbol_size v).
Notation E := (symbol_size v * m - 1).
Notation at_ := (place r E ox oy).
Notation L := (7 * m - 1).
Context (Sh : legible (im_w I0) (im_h I0) (pix I0) v sym m ox oy r) (Hv : 1 <= v <= 40) (Fp : function_patterns v sym) (M : 2 <= m).
Notation D := ((symbol_size v - 7) * m).
Notation sA := (corner_px v m ox oy r 0 0).
Notation sB := (corner_px v m ox oy r (symbol_size v - 7) 0).
Notation sC := (corner_px v m ox oy r 0 (symbol_size v - 7)).

Lemma square_room : placed sA m /\ placed sB m /\ placed sC m.
Proof using Hw Hh Sh Hv Fp M.
  assert (G : forall c d, In (c, d) (corners3 v) -> placed (corner_px v m ox oy r c d) m).
  { intros c d Hc. destruct (corner_square (im_w I0) (im_h I0) (pix I0) v sym m ox oy r Sh Hv Fp c d Hc) as [? ? ? ? ? _ _]. unfold placed. lia. }
  split; [apply G; left; reflexivity|]. split; [apply G; right; left; reflexivity|]. apply G; right; right; left; reflexivity.
Qed.

Lemma square_steps : sB = (fst sA + D * dir_a r, snd sA + D * dir_b r) /\ sC = (fst sA - D * dir_b r, snd sA + D * dir_a r).
Proof using Hw Hh Sh Hv Fp M.
  unfold corner_px, place. destruct r as [|[|[|r']]]; cbn [dir_a dir_b org_x org_y fst snd]; split; f_equal; ring.
Qed.

Lemma unit_D : 28 <= D.
Proof using Hw Hh Sh Hv Fp M. clear - Hv M. unfold symbol_size. nia. Qed.

Context (V21 : v <> 21) (Size : L * L * furthest v m ox oy r < 2 ^ 31).

(** A triple of finder patterns, in the order of the symbol's corners. *)
Lemma symbol_group p g cA cB cC : reg_inv I0 p -> ~ claimed p (at_ D D) -> square_cap m sA cA -> square_cap m sB cB -> square_cap m sC cC ->
  g = MkGroup cB cA cC \/ g = MkGroup cC cA cB -> exists p' c, from_group (N := F64) p g = Ok (Some (MkLoc n c), p') /\ reg_inv I0 p' /\ framed v m ox oy r c
    /\ forall a, in_image I0 a -> claimed p' a -> claimed p a \/ in_square n m ox oy a.
Proof using Hw Hh Sh Hv Fp M V21 Size.
  intros RI Nc QA QB QC Hg. destruct square_room as (PA & PB & PC). destruct square_steps as (EB & EC).
  destruct (orient_square m D (dir_a r) (dir_b r) sA sB sC cA cB cC M unit_D (axis_dir r) PA PB PC EB EC QA QB QC g Hg) as (A' & B' & C' & Eo & SA & SB & SC & H1 & H2 & H3 & H4).
  rewrite home_corner in SA, SB, SC. 
  apply (from_group_square I0 Hw Hh v sym m ox oy r Sh Hv Fp M V21 Size p g A' B' C' _ RI Nc Eo SA SB SC H1 H2 H3 H4).
Qed.

End SymbolGroup.

(** * The whole search *)

Section Detect.
Context {Srt : Sorter spec_float}.
Context (I0 : image) (p0 : prepared) (Fr : fresh I0 p0) (Hw : 1 <= im_w I0 <= 32768) (Hh : 1 <= im_h I0 <= 32768).
Context (v : Z) (sym : Z -> Z -> bool) (m ox oy : Z) (r : nat).
Notation n := (symbol_size v).
Notation E := (symbol_size v * m - 1).
Notation at_ := (place r E ox oy).
Notation L := (7 * m - 1).
Context (Sh : legible (im_w I0) (im_h I0) (pix I0) v sym m ox oy r) (Hv : 1 <= v <= 40) (Fp : function_patterns v sym) (M : 2 <= m).
Context (Only : no_other_finder (im_w I0) (im_h I0) (pix I0) v m ox oy r).
Notation D := ((symbol_size v - 7) * m).
Notation sA := (corner_px v m ox oy r 0 0).
Notation sB := (corner_px v m ox oy r (symbol_size v - 7) 0).
Notation sC := (corner_px v m ox oy r 0 (symbol_size v - 7)).

Lemma search_symbol : exists caps p', capstones_from_image (T := spec_float) p0 = Ok (caps, p') /\ reg_inv I0 p' /\
  (exists sqs, Permutation (squares3 v m ox oy r) sqs /\ Forall2 (square_cap m) sqs caps) /\ ~ claimed p' (at_ D D).
Proof using Fr Hw Hh Sh Hv Fp M Only.
  destruct (search_squares I0 p0 m (squares3 v m ox oy r) Fr Hw ltac:(lia) M) as (caps & p' & Ec & Rc & Sq & Cl).
  - apply (squares_nodup (im_w I0) (im_h I0) (pix I0) v sym m ox oy r Sh Hv Fp).
  - intros s Hs. apply (in_squares (im_w I0) (im_h I0) (pix I0) v sym m ox oy r Sh Hv Fp) in Hs as (c & d & Hc & ->).
    apply (corner_square (im_w I0) (im_h I0) (pix I0) v sym m ox oy r Sh Hv Fp). exact Hc.
  - apply (squares_apart (im_w I0) (im_h I0) (pix I0) v sym m ox oy r Sh Hv Fp).
  - intros y l st r' F. apply (finder_in_square (im_w I0) (im_h I0) (pix I0) v sym m ox oy r Sh Hv Fp). exact (Only y l st r' F).
  - exists caps, p'. assert (RI : reg_inv I0 p') by (apply (reached_inv I0 p'); exact Rc).
    split; [exact Ec|]. split; [exact RI|]. split; [exact Sq|]. intros C.
    pose proof (room I0 p' RI Hw Hh v sym m ox oy r Sh Hv Fp M) as (R1 & R2 & R3 & R4).
    destruct (dark_at I0 p' RI Hw Hh v sym m ox oy r Sh Hv Fp M D D ltac:(lia) ltac:(lia)) as [Ii _].
    destruct (Cl _ Ii C) as (s & Hs & [Rb _]). apply (in_squares (im_w I0) (im_h I0) (pix I0) v sym m ox oy r Sh Hv Fp) in Hs as (c & d & Hc & ->).
    apply (box_part (im_w I0) (im_h I0) (pix I0) v sym m ox oy r Sh Hv Fp) in Rb.
    unfold corners3 in Hc. cbn [In] in Hc. destruct Hc as [Q|[Q|[Q|[]]]]; injection Q as <- <-; lia.
Qed.

Lemma offset_of s s' p e f : centred m s' p -> fst s' - fst s = D * e -> snd s' - snd s = D * f ->
  (2 * (D * Z.abs e) - 1 <= off_x m s p <= 2 * (D * Z.abs e) + 1) /\ (2 * (D * Z.abs f) - 1 <= off_y m s p <= 2 * (D * Z.abs f) + 1).
Proof using Fr Hw Hh Sh Hv Fp M Only.
  pose proof (unit_D I0 Hw Hh v sym m ox oy r Sh Hv Fp M) as HD. intros [C1 C2] E1 E2.
  assert (G : forall z, D * Z.abs z = Z.abs (D * z)) by (intros z; rewrite Z.abs_mul, (Z.abs_eq D) by lia; reflexivity).
  rewrite !G, <- E1, <- E2. unfold off_x, off_y. revert C1 C2. generalize (7 * m). clear. intros; lia.
Qed.

Lemma indexed sqs caps s : Forall2 (square_cap m) sqs caps -> In s sqs -> exists i c, nth_error sqs i = Some s /\ nth_error caps i = Some c /\ square_cap m s c.
Proof using Fr Hw Hh Sh Hv Fp M Only.
  intros F. induction F as [|s' c sqs caps Q F IH]; intros Hs; [contradiction|]. destruct Hs as [-> | Hs].
  - exists 0%nat, c. auto.
  - destruct (IH Hs) as (i & c' & A & B & C). exists (Datatypes.S i), c'. auto.
Qed.

(** Which triple is tried, and what becomes of it. *)
Lemma groups_tried p caps :
  (exists sqs, Permutation (squares3 v m ox oy r) sqs /\ Forall2 (square_cap m) sqs caps) ->
  exists g cA cB cC, square_cap m sA cA /\ square_cap m sB cB /\ square_cap m sC cC /\ (g = MkGroup cB cA cC \/ g = MkGroup cC cA cB) /\
    ((exists l p', from_group (N := F64) (clone p) g = Ok (Some l, p')) -> find_groupings (N := F64) p caps = Ok [g]) /\
    (from_group (N := F64) (clone p) g = Panic -> find_groupings (N := F64) p caps = Panic).
Proof using Fr Hw Hh Sh Hv Fp M Only.
  intros (sqs & Pm & F2). destruct (square_room I0 Hw Hh v sym m ox oy r Sh Hv Fp M) as (PA & PB & PC). destruct (square_steps I0 Hw Hh v sym m ox oy r Sh Hv Fp M) as (EB & EC).
  pose proof (squares_nodup (im_w I0) (im_h I0) (pix I0) v sym m ox oy r Sh Hv Fp) as Nd.
  assert (Mem : forall s, In s (squares3 v m ox oy r) -> In s sqs) by (intros s; apply Permutation_in; exact Pm).
  assert (Sq3 : squares3 v m ox oy r = [sA; sB; sC]) by reflexivity. rewrite Sq3 in *.
  destruct (indexed sqs caps sA F2 ltac:(apply Mem; left; reflexivity)) as (i & ci & Ni & Ci & Qi).
  destruct (indexed sqs caps sB F2 ltac:(apply Mem; right; left; reflexivity)) as (j & cj & Nj & Cj & Qj).
  destruct (indexed sqs caps sC F2 ltac:(apply Mem; right; right; left; reflexivity)) as (k & ck & Nk & Ck & Qk).
  assert (Len : length caps = 3%nat) by (assert (LL : length sqs = length caps) by (clear - F2; induction F2; cbn; congruence); rewrite <- LL, <- (Permutation_length Pm); reflexivity).
  assert (Ne : sA <> sB /\ sA <> sC /\ sB <> sC).
  { inversion Nd as [|? ? N1 Nd1]; subst. inversion Nd1 as [|? ? N2 _]; subst. cbn [In] in N1, N2. repeat split; intros Q; [apply N1; left|apply N1; right; left|apply N2; left]; symmetry; exact Q. }
  destruct Ne as (Nab & Nac & Nbc).
  assert (Dij : i <> j) by (intros ->; rewrite Ni in Nj; injection Nj as Q; contradiction).
  assert (Dik : i <> k) by (intros ->; rewrite Ni in Nk; injection Nk as Q; contradiction).
  assert (Djk : j <> k) by (intros ->; rewrite Nj in Nk; injection Nk as Q; contradiction).
  assert (Li : (i < 3)%nat) by (rewrite <- Len; apply nth_error_Some; congruence).
  assert (Lj : (j < 3)%nat) by (rewrite <- Len; apply nth_error_Some; congruence).
  assert (Lk : (k < 3)%nat) by (rewrite <- Len; apply nth_error_Some; congruence).
  assert (Cov : forall t, (t < 3)%nat -> t = i \/ t = j \/ t = k) by (clear - Li Lj Lk Dij Dik Djk; lia).
  destruct (centre_of m M sA ci PA Qi) as [CA OA]. destruct (centre_of m M sB cj PB Qj) as [CB OB]. destruct (centre_of m M sC ck PC Qk) as [CC OC].
  pose proof (unit_D I0 Hw Hh v sym m ox oy r Sh Hv Fp M) as HD.
  destruct (offset_of sA _ _ (dir_a r) (dir_b r) CB) as [AB1 AB2]; [rewrite EB; cbn [fst]; ring|rewrite EB; cbn [snd]; ring|].
  destruct (offset_of sA _ _ (- dir_b r) (dir_a r) CC) as [AC1 AC2]; [rewrite EC; cbn [fst]; ring|rewrite EC; cbn [snd]; ring|].
  destruct (offset_of sB _ _ (- dir_a r) (- dir_b r) CA) as [BA1 BA2]; [rewrite EB; cbn [fst]; ring|rewrite EB; cbn [snd]; ring|].
  destruct (offset_of sC _ _ (dir_b r) (- dir_a r) CA) as [CA1 CA2]; [rewrite EC; cbn [fst]; ring|rewrite EC; cbn [snd]; ring|].
  destruct (offset_of sB _ _ (- dir_b r - dir_a r) (dir_a r - dir_b r) CC) as [BC1 BC2]; [rewrite EB, EC; cbn [fst]; ring|rewrite EB, EC; cbn [snd]; ring|].
  destruct (offset_of sC _ _ (dir_b r + dir_a r) (dir_b r - dir_a r) CB) as [CB1 CB2]; [rewrite EB, EC; cbn [fst]; ring|rewrite EB, EC; cbn [snd]; ring|].
  assert (Far : (far_x m sB (cap_center ci) \/ far_y m sB (cap_center ci)) /\ far_both m sB (cap_center ck) /\
                (far_x m sC (cap_center ci) \/ far_y m sC (cap_center ci)) /\ far_both m sC (cap_center cj) /\
                ((far_x m sA (cap_center cj) /\ far_y m sA (cap_center ck) /\ Z.abs (off_x m sA (cap_center cj) - off_y m sA (cap_center ck)) <= 4) \/
                 (far_x m sA (cap_center ck) /\ far_y m sA (cap_center cj) /\ Z.abs (off_x m sA (cap_center ck) - off_y m sA (cap_center cj)) <= 4))).
  { unfold far_x, far_y, far_both. clear - AB1 AB2 AC1 AC2 BA1 BA2 BC1 BC2 CA1 CA2 CB1 CB2 HD.
    revert AB1 AB2 AC1 AC2 BA1 BA2 BC1 BC2 CA1 CA2 CB1 CB2.
    generalize (off_x m sA (cap_center cj)) (off_y m sA (cap_center cj)) (off_x m sA (cap_center ck)) (off_y m sA (cap_center ck)).
    generalize (off_x m sB (cap_center ci)) (off_y m sB (cap_center ci)) (off_x m sB (cap_center ck)) (off_y m sB (cap_center ck)).
    generalize (off_x m sC (cap_center ci)) (off_y m sC (cap_center ci)) (off_x m sC (cap_center cj)) (off_y m sC (cap_center cj)).
    revert HD. generalize D. intros d HD.
    assert (Hr : Z.abs (dir_a r) = 1 /\ Z.abs (- dir_a r) = 1 /\ Z.abs (dir_b r) = 0 /\ Z.abs (- dir_b r) = 0 \/
                 Z.abs (dir_a r) = 0 /\ Z.abs (- dir_a r) = 0 /\ Z.abs (dir_b r) = 1 /\ Z.abs (- dir_b r) = 1) by (destruct r as [|[|[|r']]]; cbn; auto).
    assert (Hs : Z.abs (- dir_b r - dir_a r) = 1 /\ Z.abs (dir_a r - dir_b r) = 1 /\ Z.abs (dir_b r + dir_a r) = 1 /\ Z.abs (dir_b r - dir_a r) = 1) by (destruct r as [|[|[|r']]]; cbn; auto).
    destruct Hs as (-> & -> & -> & -> ).
    destruct Hr as [(-> & -> & -> & -> )|(-> & -> & -> & -> )]; rewrite ?Z.mul_1_r, ?Z.mul_0_r; intros.
    - split; [left; lia|]. split; [lia|]. split; [right; lia|]. split; [lia|]. left. split; [lia|]. split; lia.
    - split; [right; lia|]. split; [lia|]. split; [left; lia|]. split; [lia|]. right. split; [lia|]. split; lia. }
  destruct Far as (FB & FB2 & FC & FC2 & FA).
  assert (OnlyB : forall t, (t < length caps)%nat -> t = j \/ t = i \/ t = k) by (rewrite Len; clear - Cov; intros t Ht; specialize (Cov t Ht); tauto).
  assert (OnlyC : forall t, (t < length caps)%nat -> t = k \/ t = i \/ t = j) by (rewrite Len; clear - Cov; intros t Ht; specialize (Cov t Ht); tauto).
  pose proof (viable_none caps m sB j i k cj ci ck M PB Cj Ci Ck Qj OA OC OnlyB (not_eq_sym Dij) Djk FB FB2) as NoB.
  pose proof (viable_none caps m sC k i j ck ci cj M PC Ck Ci Cj Qk OA OB OnlyC (not_eq_sym Dik) (not_eq_sym Djk) FC FC2) as NoC.
  assert (None_ : forall t a' b' sc, (t < 3)%nat -> t <> i -> ~ viable caps t a' b' sc).
  { intros t a' b' sc Ht Hi. destruct (Cov t Ht) as [-> | [-> | -> ]]; [contradiction|apply NoB|apply NoC]. }
  assert (Pair : exists a b, (a = j /\ b = k \/ a = k /\ b = j) /\ (exists sc, viable caps i a b sc) /\ forall a' b' sc, viable caps i a' b' sc -> a' = a /\ b' = b).
  { destruct FA as [(F1 & F3 & F4)|(F1 & F3 & F4)].
    - assert (OnlyA : forall t, (t < length caps)%nat -> t = i \/ t = j \/ t = k) by (rewrite Len; exact Cov).
      apply (viable_only caps m sA i j k ci cj ck M PA Ci Cj Ck Qi OB OC OnlyA Dij Dik F1 F3 F4).
    - assert (OnlyA : forall t, (t < length caps)%nat -> t = i \/ t = k \/ t = j) by (rewrite Len; clear - Cov; intros t Ht; specialize (Cov t Ht); tauto).
      destruct (viable_only caps m sA i k j ci ck cj M PA Ci Ck Cj Qi OC OB OnlyA Dik Dij F1 F3 F4) as (a & b & Hab & Vi & Un).
      exists a, b. split; [tauto|]. auto. }
  destruct Pair as (a & b & Hab & Vi & Un).
  destruct Hab as [[-> -> ]|[-> -> ]].
  - exists (MkGroup cj ci ck), ci, cj, ck. split; [exact Qi|]. split; [exact Qj|]. split; [exact Qk|]. split; [left; reflexivity|].
    split; [apply (one_group p caps i j k cj ci ck Len Cj Ci Ck Cov Vi Un None_)|apply (no_group p caps i j k cj ci ck Len Cj Ci Ck Cov Vi Un None_)].
  - exists (MkGroup ck ci cj), ci, cj, ck. split; [exact Qi|]. split; [exact Qj|]. split; [exact Qk|]. split; [right; reflexivity|].
    assert (Cov' : forall t, (t < 3)%nat -> t = i \/ t = k \/ t = j) by (clear - Cov; intros t Ht; specialize (Cov t Ht); tauto).
    split; [apply (one_group p caps i k j ck ci cj Len Ck Ci Cj Cov' Vi Un None_)|apply (no_group p caps i k j ck ci cj Len Ck Ci Cj Cov' Vi Un None_)].
Qed.

(** The group of a symbol too far away or too large. *)
Lemma symbol_overflow p g cA cB cC : 2 ^ 31 <= L * L * furthest v m ox oy r -> reg_inv I0 p -> square_cap m sA cA -> square_cap m sB cB -> square_cap m sC cC ->
  g = MkGroup cB cA cC \/ g = MkGroup cC cA cB -> from_group (N := F64) p g = Panic.
Proof using Fr Hw Hh Sh Hv Fp M Only.
  intros Big RI QA QB QC Hg. destruct (square_room I0 Hw Hh v sym m ox oy r Sh Hv Fp M) as (PA & PB & PC). destruct (square_steps I0 Hw Hh v sym m ox oy r Sh Hv Fp M) as (EB & EC).
  destruct (orient_square m D (dir_a r) (dir_b r) sA sB sC cA cB cC M (unit_D I0 Hw Hh v sym m ox oy r Sh Hv Fp M) (axis_dir r) PA PB PC EB EC QA QB QC g Hg) as (A' & B' & C' & Eo & SA & SB & SC & _).
  rewrite home_corner in SA, SB, SC. unfold from_group. rewrite Eo. cbn [bind].
  rewrite (measure_square I0 p RI Hw Hh v sym m ox oy r Sh Hv Fp M A' B' C' SA SB SC). cbn [bind].
  rewrite (seed_overflow I0 p RI Hw Hh v sym m ox oy r Sh Hv Fp M C' B' A' SB SC Big). reflexivity.
Qed.

Theorem detect_overflow : 2 ^ 31 <= L * L * furthest v m ox oy r -> detect_grids (N := F64) p0 = Panic.
Proof using Fr Hw Hh Sh Hv Fp M Only.
  intros Big. destruct search_symbol as (caps & p1 & Es & RI & Sq & _). unfold detect_grids. rewrite Es. cbn [bind].
  destruct (groups_tried p1 caps Sq) as (g & cA & cB & cC & QA & QB & QC & Hg & _ & No).
  rewrite No; [reflexivity|]. apply (symbol_overflow (clone p1) g cA cB cC Big); try assumption. apply (clone_inv I0 p1 RI).
Qed.

Context (V21 : v <> 21) (Size : L * L * furthest v m ox oy r < 2 ^ 31).

Lemma groups_symbol p caps : reg_inv I0 p -> ~ claimed p (at_ D D) ->
  (exists sqs, Permutation (squares3 v m ox oy r) sqs /\ Forall2 (square_cap m) sqs caps) ->
  exists g cA cB cC, square_cap m sA cA /\ square_cap m sB cB /\ square_cap m sC cC /\ (g = MkGroup cB cA cC \/ g = MkGroup cC cA cB) /\ find_groupings (N := F64) p caps = Ok [g].
Proof using Fr Hw Hh Sh Hv Fp M Only V21 Size.
  intros RI Nc Sq. destruct (groups_tried p caps Sq) as (g & cA & cB & cC & QA & QB & QC & Hg & Yes & _).
  exists g, cA, cB, cC. split; [exact QA|]. split; [exact QB|]. split; [exact QC|]. split; [exact Hg|]. apply Yes.
  destruct (clone_inv I0 p RI) as [C1 C2].
  destruct (symbol_group I0 Hw Hh v sym m ox oy r Sh Hv Fp M V21 Size (clone p) g cA cB cC C1 ltac:(unfold claimed in *; rewrite C2; exact Nc) QA QB QC Hg) as (p' & c & Eg & _).
  exists (MkLoc n c), p'. exact Eg.
Qed.

Theorem detect_symbol : exists c p', detect_grids (N := F64) p0 = Ok ([MkLocated (MkLoc n c) (frame_bounds v m ox oy r)], p') /\ reg_inv I0 p' /\ framed v m ox oy r c.
Proof using Fr Hw Hh Sh Hv Fp M Only V21 Size.
  destruct search_symbol as (caps & p1 & Es & RI & Sq & Nc). unfold detect_grids. rewrite Es. cbn [bind].
  destruct (groups_symbol p1 caps RI Nc Sq) as (g & cA & cB & cC & QA & QB & QC & Hg & Eg). rewrite Eg. cbn [bind for_each].
  destruct (symbol_group I0 Hw Hh v sym m ox oy r Sh Hv Fp M V21 Size p1 g cA cB cC RI Nc QA QB QC Hg) as (p2 & c & Ef & RI2 & Af & _). rewrite Ef. cbn [bind app for_each].
  rewrite (framed_bounds I0 Hw Hh v sym m ox oy r Sh Hv Fp M V21 Size p2 c RI2 Af). cbn [bind app].
  exists c, p2. auto.
Qed.

(** The one grid found reads the symbol. *)
Theorem detect_reads : exists l p', detect_grids (N := F64) p0 = Ok ([l], p') /\ lg_bounds l = frame_bounds v m ox oy r /\ g_size (ref_grid (N := F64) p' (lg_loc l)) = n /\
  forall y x, 0 <= x < n -> 0 <= y < n -> g_bit (ref_grid (N := F64) p' (lg_loc l)) y x = Ok (sym y x).
Proof using Fr Hw Hh Sh Hv Fp M Only V21 Size.
  destruct detect_symbol as (c & p' & Ed & RI & Af). exists (MkLocated (MkLoc n c) (frame_bounds v m ox oy r)), p'. split; [exact Ed|]. split; [reflexivity|]. split; [reflexivity|].
  intros y x Hx Hy. cbn [lg_loc]. apply (framed_bits I0 Hw Hh v sym m ox oy r Sh Hv Fp M V21 Size p' c y x RI Af Hx Hy).
Qed.
End Detect.

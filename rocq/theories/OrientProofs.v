(** Putting three finder patterns into the order and orientation of the symbol. *)
From Coq Require Import Reals SpecFloat.
From Flocq Require Import Core.
From Verif Require Import Base Lib ModelImage ModelGeometry ModelDetect ModelIdentify SpecImage SpecIdentify SpecFinder
  CornerProofs CenterProofs GeometryProofs FrameProofs SquareProofs PatternProofs GroupProofs.
Open Scope Z_scope.
Set Bullet Behavior "Strict Subproofs".

(** The corner of a square of side [L] from which the directions (a, b) and (- b, a) run along its sides. *)
Definition home (a b L : Z) (s : pixel) : pixel :=
  (fst s - L * Z.min 0 a - L * Z.min 0 (- b), snd s - L * Z.min 0 b - L * Z.min 0 a).

Definition in_reach (z : Z) : Prop := - 32767 <= z <= 32767.

Definition ckey (h0 hd p : point) : Z := (px p - px h0) * - py hd + (py p - py h0) * px hd.

Lemma key_ok h0 hd p : on_picture h0 -> on_picture p -> in_reach (px hd) -> in_reach (py hd) -> corner_key h0 hd p = Ok (ckey h0 hd p).
Proof.
  intros [A1 A2] [B1 B2] H1 H2. unfold in_reach in *. unfold corner_key.
  pose proof (mul_range (px p - px h0) (- py hd) 32767 ltac:(lia) ltac:(lia) ltac:(lia)) as M1.
  pose proof (mul_range (py p - py h0) (px hd) 32767 ltac:(lia) ltac:(lia) ltac:(lia)) as M2.
  rewrite (ival_exact _ 2147483647).
  - reflexivity.
  - unfold i32_max. lia.
  - cbn [ibound iexact]. set (u := (px p - px h0) * - py hd) in *. set (v := (py p - py h0) * px hd) in *. clearbody u v.
    repeat split; lia.
Qed.

Lemma argmin3 a b c d i : (i < 4)%nat -> (forall j, (j < 4)%nat -> j <> i -> nth i [a; b; c; d] 0 < nth j [a; b; c; d] 0) -> argmin 0 a 1 [b; c; d] = i.
Proof.
  intros Hi H. pose proof (H 0%nat ltac:(lia)) as H0. pose proof (H 1%nat ltac:(lia)) as H1. pose proof (H 2%nat ltac:(lia)) as H2. pose proof (H 3%nat ltac:(lia)) as H3. clear H.
  unfold argmin. destruct i as [|[|[|[|i]]]]; [| | | |lia]; cbn [nth] in *;
    repeat match goal with
    | |- context [if ?x <? ?y then _ else _] => destruct (Z.ltb_spec x y)
    end; try reflexivity; exfalso; lia.
Qed.

Lemma rotate_square m s c a b h0 hd : 2 <= m -> placed s m -> square_cap m s c -> axis a b -> on_picture h0 -> in_reach (px hd) -> in_reach (py hd) ->
  0 < b * px hd - a * py hd -> 0 < a * px hd + b * py hd ->
  exists c', rotate_capstone c h0 hd = Ok c' /\ posed c' (fst (home a b (7 * m - 1) s)) (snd (home a b (7 * m - 1) s)) (7 * m - 1) a b.
Proof.
  intros M (P1 & P2 & P3 & P4) [Fr _] Ax O0 R1 R2 A B. unfold corner_frame in Fr. cbv zeta in Fr. set (L := 7 * m - 1) in *.
  assert (HL : 13 <= L) by (unfold L; lia).
  assert (G : exists i, (i < 4)%nat /\ rotate_corners (cap_corners c) i = square (fst (home a b L s)) (snd (home a b L s)) L a b /\
     let k := cap_corners c in (forall j, (j < 4)%nat -> j <> i ->
       nth i [ckey h0 hd (k0 k); ckey h0 hd (k1 k); ckey h0 hd (k2 k); ckey h0 hd (k3 k)] 0 <
       nth j [ckey h0 hd (k0 k); ckey h0 hd (k1 k); ckey h0 hd (k2 k); ckey h0 hd (k3 k)] 0) /\
     on_picture (k0 k) /\ on_picture (k1 k) /\ on_picture (k2 k) /\ on_picture (k3 k)).
  { assert (Bx : 0 <= fst s /\ fst s + L <= 32767 /\ 0 <= snd s /\ snd s + L <= 32767) by (unfold L; lia).
    clearbody L. clear - HL Fr Ax A B Bx. set (base := (fst s - px h0) * - py hd + (snd s - py h0) * px hd).
    assert (K : forall x y, ckey h0 hd (MkPoint (fst s + x) (snd s + y)) = base - x * py hd + y * px hd) by (intros; unfold ckey, base; cbn [px py]; ring).
    assert (Kx : forall x y x' y', x = fst s + x' -> y = snd s + y' -> ckey h0 hd (MkPoint x y) = base - x' * py hd + y' * px hd) by (intros; subst; apply K).
    assert (C0 : ckey h0 hd (MkPoint (fst s) (snd s)) = base) by (rewrite (Kx _ _ 0 0) by lia; ring).
    assert (C1 : ckey h0 hd (MkPoint (fst s + L) (snd s)) = base - L * py hd) by (rewrite (Kx _ _ L 0) by lia; ring).
    assert (C2 : ckey h0 hd (MkPoint (fst s + L) (snd s + L)) = base - L * py hd + L * px hd) by (rewrite (Kx _ _ L L) by lia; ring).
    assert (C3 : ckey h0 hd (MkPoint (fst s) (snd s + L)) = base + L * px hd) by (rewrite (Kx _ _ 0 L) by lia; ring).
    clearbody base. clear K Kx.
    assert (E1 : square (fst s) (snd s) L 1 0 = Corners (MkPoint (fst s) (snd s)) (MkPoint (fst s + L) (snd s)) (MkPoint (fst s + L) (snd s + L)) (MkPoint (fst s) (snd s + L)))
      by (unfold square; f_equal; f_equal; ring).
    assert (E2 : square (fst s) (snd s + L) L 0 (-1) = Corners (MkPoint (fst s) (snd s + L)) (MkPoint (fst s) (snd s)) (MkPoint (fst s + L) (snd s)) (MkPoint (fst s + L) (snd s + L)))
      by (unfold square; f_equal; f_equal; ring).
    assert (E3 : square (fst s + L) (snd s + L) L (-1) 0 = Corners (MkPoint (fst s + L) (snd s + L)) (MkPoint (fst s) (snd s + L)) (MkPoint (fst s) (snd s)) (MkPoint (fst s + L) (snd s)))
      by (unfold square; f_equal; f_equal; ring).
    assert (E4 : square (fst s + L) (snd s) L 0 1 = Corners (MkPoint (fst s + L) (snd s)) (MkPoint (fst s + L) (snd s + L)) (MkPoint (fst s) (snd s + L)) (MkPoint (fst s) (snd s)))
      by (unfold square; f_equal; f_equal; ring).
    assert (Sx : forall z, 0 < z -> 0 < L * z) by (intros; nia).
    assert (On : on_picture (MkPoint (fst s) (snd s)) /\ on_picture (MkPoint (fst s + L) (snd s)) /\ on_picture (MkPoint (fst s + L) (snd s + L)) /\ on_picture (MkPoint (fst s) (snd s + L)))
      by (unfold on_picture; cbn [px py]; lia).
    assert (U : L * (b * px hd - a * py hd) > 0) by (apply Z.lt_gt, Sx, A). assert (V : L * (a * px hd + b * py hd) > 0) by (apply Z.lt_gt, Sx, B).
    unfold home. destruct Fr as [Fr|Fr]; rewrite ?E1, ?E2 in Fr; rewrite Fr; clear Fr; destruct (axis_cases a b Ax) as [[-> ->]|[[-> ->]|[[-> ->]|[-> ->]]]].
    all: cbn [Z.min Z.compare Z.opp fst snd] in *.
    all: cbn [k0 k1 k2 k3] in *; rewrite ?C0, ?C1, ?C2, ?C3.
    - exists 0%nat. split; [lia|]. split; [replace (fst s - L * 0 - L * 0) with (fst s) by ring; replace (snd s - L * 0 - L * 0) with (snd s) by ring; rewrite E1; reflexivity|]. split; [|tauto]. intros [|[|[|[|j]]]] Hj Nj; cbn [nth]; lia.
    - exists 1%nat. split; [lia|]. split; [replace (fst s - L * 0 - L * -1) with (fst s + L) by ring; replace (snd s - L * 0 - L * 0) with (snd s) by ring; rewrite E4; reflexivity|].
      split; [|tauto]. intros [|[|[|[|j]]]] Hj Nj; cbn [nth]; lia.
    - exists 2%nat. split; [lia|]. split; [replace (fst s - L * -1 - L * 0) with (fst s + L) by ring; replace (snd s - L * 0 - L * -1) with (snd s + L) by ring; rewrite E3; reflexivity|].
      split; [|tauto]. intros [|[|[|[|j]]]] Hj Nj; cbn [nth]; lia.
    - exists 3%nat. split; [lia|]. split; [replace (fst s - L * 0 - L * 0) with (fst s) by ring; replace (snd s - L * -1 - L * 0) with (snd s + L) by ring; rewrite E2; reflexivity|].
      split; [|tauto]. intros [|[|[|[|j]]]] Hj Nj; cbn [nth]; lia.
    - exists 1%nat. split; [lia|]. split; [replace (fst s - L * 0 - L * 0) with (fst s) by ring; replace (snd s - L * 0 - L * 0) with (snd s) by ring; rewrite E1; reflexivity|].
      split; [|tauto]. intros [|[|[|[|j]]]] Hj Nj; cbn [nth]; lia.
    - exists 2%nat. split; [lia|]. split; [replace (fst s - L * 0 - L * -1) with (fst s + L) by ring; replace (snd s - L * 0 - L * 0) with (snd s) by ring; rewrite E4; reflexivity|].
      split; [|tauto]. intros [|[|[|[|j]]]] Hj Nj; cbn [nth]; lia.
    - exists 3%nat. split; [lia|]. split; [replace (fst s - L * -1 - L * 0) with (fst s + L) by ring; replace (snd s - L * 0 - L * -1) with (snd s + L) by ring; rewrite E3; reflexivity|].
      split; [|tauto]. intros [|[|[|[|j]]]] Hj Nj; cbn [nth]; lia.
    - exists 0%nat. split; [lia|]. split; [replace (fst s - L * 0 - L * 0) with (fst s) by ring; replace (snd s - L * -1 - L * 0) with (snd s + L) by ring; rewrite E2; reflexivity|].
      split; [|tauto]. intros [|[|[|[|j]]]] Hj Nj; cbn [nth]; lia. }
  destruct G as (i & Hi & Er & Mn & O1 & O2 & O3 & O4). unfold rotate_capstone.
  rewrite !key_ok by assumption. cbn [bind]. rewrite (argmin3 _ _ _ _ i Hi Mn), Er.
  destruct (create_square (fst (home a b L s)) (snd (home a b L s)) L 7 a b Ax ltac:(lia) ltac:(lia)) as (c' & Ec & Af).
  { unfold small_corners, home, small_pt, max_dim, square. cbn [k0 k1 k2 k3 px py fst snd]. unfold L.
    destruct (axis_cases a b Ax) as [[-> ->]|[[-> ->]|[[-> ->]|[-> ->]]]]; cbn [Z.min Z.compare Z.opp]; lia. }
  rewrite Ec. eexists. split; [reflexivity|]. split; [reflexivity|exact Af].
Qed.

(** * The group *)

Lemma wide_side D e f u v : 28 <= D -> -1 <= e <= 1 -> - (D + 1) <= f <= D + 1 -> D - 1 <= u -> D - 1 <= v -> e * f - u * v < 0.
Proof.
  intros HD He Hf Hu Hv. assert (e * f <= D + 1) by nia. assert ((D - 1) * (D - 1) <= u * v) by nia. nia.
Qed.

Section Orient.
Context (m D a b : Z) (sA sB sC : pixel) (cA cB cC : capstone spec_float).
Context (M : 2 <= m) (HD : 28 <= D) (Ax : axis a b).
Context (PA : placed sA m) (PB : placed sB m) (PC : placed sC m).
Context (EB : sB = (fst sA + D * a, snd sA + D * b)) (EC : sC = (fst sA - D * b, snd sA + D * a)).
Context (QA : square_cap m sA cA) (QB : square_cap m sB cB) (QC : square_cap m sC cC).

Lemma centre_of s c : placed s m -> square_cap m s c -> centred m s (cap_center c) /\ on_picture (cap_center c).
Proof using M.
  intros (P1 & P2 & P3 & P4) Q. destruct (square_posed m s c M P1 P2 P3 P4 Q) as [C _]. split; [exact C|].
  unfold centred in C. unfold on_picture. lia.
Qed.

Let hd : point := MkPoint (px (cap_center cB) - px (cap_center cC)) (py (cap_center cB) - py (cap_center cC)).

Lemma orient_square g : g = MkGroup cB cA cC \/ g = MkGroup cC cA cB ->
  exists A' B' C', orient_group g = Ok (MkGroup C' A' B', hd) /\
    posed A' (fst (home a b (7 * m - 1) sA)) (snd (home a b (7 * m - 1) sA)) (7 * m - 1) a b /\
    posed B' (fst (home a b (7 * m - 1) sB)) (snd (home a b (7 * m - 1) sB)) (7 * m - 1) a b /\
    posed C' (fst (home a b (7 * m - 1) sC)) (snd (home a b (7 * m - 1) sC)) (7 * m - 1) a b /\
    in_reach (px hd) /\ in_reach (py hd) /\ 0 < b * px hd - a * py hd /\ 0 < a * px hd + b * py hd.
Proof using M HD Ax PA PB PC EB EC QA QB QC.
  destruct (centre_of sA cA PA QA) as [[A1 A2] OA]. destruct (centre_of sB cB PB QB) as [[B1 B2] OB]. destruct (centre_of sC cC PC QC) as [[C1 C2] OC].
  set (pA := cap_center cA) in *. set (pB := cap_center cB) in *. set (pC := cap_center cC) in *.
  rewrite EB in B1, B2. rewrite EC in C1, C2. cbn [fst snd] in *.
  assert (ex : exists e1 e2, px pB = px pA + D * a + e1 /\ py pB = py pA + D * b + e2 /\ -1 <= e1 <= 1 /\ -1 <= e2 <= 1).
  { exists (px pB - px pA - D * a), (py pB - py pA - D * b). lia. }
  assert (ey : exists e1 e2, px pC = px pA - D * b + e1 /\ py pC = py pA + D * a + e2 /\ -1 <= e1 <= 1 /\ -1 <= e2 <= 1).
  { exists (px pC - px pA + D * b), (py pC - py pA - D * a). lia. }
  assert (ez : exists e1 e2, px pB - px pC = D * (a + b) + e1 /\ py pB - py pC = D * (b - a) + e2 /\ -1 <= e1 <= 1 /\ -1 <= e2 <= 1).
  { exists (px pB - px pC - D * (a + b)), (py pB - py pC - D * (b - a)). lia. }
  assert (R1 : in_reach (px hd)) by (unfold in_reach, hd; cbn [px]; unfold on_picture in OB, OC; fold pB pC; lia).
  assert (R2 : in_reach (py hd)) by (unfold in_reach, hd; cbn [py]; unfold on_picture in OB, OC; fold pB pC; lia).
  assert (S1 : 0 < b * px hd - a * py hd).
  { unfold hd. cbn [px py]. fold pB pC. destruct ez as (e1 & e2 & -> & -> & He1 & He2). clear - Ax He1 He2 HD.
    destruct (axis_cases a b Ax) as [[-> ->]|[[-> ->]|[[-> ->]|[-> ->]]]]; lia. }
  assert (S2 : 0 < a * px hd + b * py hd).
  { unfold hd. cbn [px py]. fold pB pC. destruct ez as (e1 & e2 & -> & -> & He1 & He2). clear - Ax He1 He2 HD.
    destruct (axis_cases a b Ax) as [[-> ->]|[[-> ->]|[[-> ->]|[-> ->]]]]; lia. }
  intros Hg.
  assert (G : forall h0, on_picture h0 -> exists A' B' C', (let* x := rotate_capstone cC h0 hd in let* y := rotate_capstone cA h0 hd in let* z := rotate_capstone cB h0 hd in Ok (MkGroup x y z, hd)) = Ok (MkGroup C' A' B', hd) /\
    posed A' (fst (home a b (7 * m - 1) sA)) (snd (home a b (7 * m - 1) sA)) (7 * m - 1) a b /\
    posed B' (fst (home a b (7 * m - 1) sB)) (snd (home a b (7 * m - 1) sB)) (7 * m - 1) a b /\
    posed C' (fst (home a b (7 * m - 1) sC)) (snd (home a b (7 * m - 1) sC)) (7 * m - 1) a b /\
    in_reach (px hd) /\ in_reach (py hd) /\ 0 < b * px hd - a * py hd /\ 0 < a * px hd + b * py hd).
  { intros h0 O0. destruct (rotate_square m sA cA a b h0 hd M PA QA Ax O0 R1 R2 S1 S2) as (A' & EA' & FA).
    destruct (rotate_square m sB cB a b h0 hd M PB QB Ax O0 R1 R2 S1 S2) as (B' & EB' & FB). destruct (rotate_square m sC cC a b h0 hd M PC QC Ax O0 R1 R2 S1 S2) as (C' & EC' & FC).
    exists A', B', C'. rewrite EA', EB', EC'. cbn [bind]. split; [reflexivity|]. split; [exact FA|]. split; [exact FB|]. split; [exact FC|]. split; [exact R1|]. split; [exact R2|]. split; [exact S1|exact S2]. }
  assert (St : forall x y : point, on_picture x -> on_picture y -> ival (px x - px y)%iexp = Ok (px x - px y) /\ ival (py x - py y)%iexp = Ok (py x - py y)).
  { intros x y Hx Hy. unfold on_picture in Hx, Hy. split; rewrite (ival_exact _ 32767) by (unfold i32_max; cbn [ibound iexact]; lia); reflexivity. }
  assert (Sd : forall h0 p z : point, on_picture h0 -> on_picture p -> in_reach (px z) -> in_reach (py z) ->
    ival ((px p - px h0) * - py z + (py p - py h0) * px z)%iexp = Ok (ckey h0 z p)) by (intros; apply key_ok; assumption).
  unfold orient_group. destruct Hg as [-> | ->]; cbn [gr0 gr1 gr2]; fold pA pB pC.
  - (* in the other order *)
    destruct (St pC pB OC OB) as [-> ->]. cbn [bind].
    assert (Q1 : in_reach (px pC - px pB)) by (unfold in_reach, hd in *; cbn [px] in R1; fold pB pC in R1; lia).
    assert (Q2 : in_reach (py pC - py pB)) by (unfold in_reach, hd in *; cbn [py] in R2; fold pB pC in R2; lia).
    pose proof (Sd pB pA (MkPoint (px pC - px pB) (py pC - py pB)) OB OA Q1 Q2) as Es. cbn [px py] in Es. rewrite Es. clear Es. cbn [bind].
    assert (Sg : 0 < ckey pB (MkPoint (px pC - px pB) (py pC - py pB)) pA).
    { unfold ckey. cbn [px py]. destruct ex as (e1 & e2 & X1 & X2 & He1 & He2). destruct ez as (f1 & f2 & Z1 & Z2 & Hf1 & Hf2).
      replace (px pC - px pB) with (- (D * (a + b) + f1)) by lia. replace (py pC - py pB) with (- (D * (b - a) + f2)) by lia.
      replace (px pA - px pB) with (- (D * a + e1)) by lia. replace (py pA - py pB) with (- (D * b + e2)) by lia.
      clear - Ax He1 He2 Hf1 Hf2 HD. destruct (axis_cases a b Ax) as [[-> ->]|[[-> ->]|[[-> ->]|[-> ->]]]].
      - pose proof (wide_side D (- e2) (D + f1) (D + e1) (D - f2) HD). lia.
      - pose proof (wide_side D (e1) (D + f2) (D + e2) (D + f1) HD). lia.
      - pose proof (wide_side D (e2) (D - f1) (D - e1) (D + f2) HD). lia.
      - pose proof (wide_side D (- e1) (D - f2) (D - e2) (D - f1) HD). lia. }
    replace (0 <? ckey pB (MkPoint (px pC - px pB) (py pC - py pB)) pA) with true by lia.
    rewrite (ival_exact (- (px pC - px pB)%Z)%iexp 32767) by (unfold i32_max; cbn [ibound iexact]; unfold in_reach in Q1; lia).
    rewrite (ival_exact (- (py pC - py pB)%Z)%iexp 32767) by (unfold i32_max; cbn [ibound iexact]; unfold in_reach in Q2; lia).
    cbn [bind iexact gr0 gr1 gr2]. replace (MkPoint (- (px pC - px pB)) (- (py pC - py pB))) with hd by (unfold hd; f_equal; fold pB pC; ring).
    exact (G pB OB).
  - destruct (St pB pC OB OC) as [-> ->]. cbn [bind]. change (MkPoint (px pB - px pC) (py pB - py pC)) with hd.
    pose proof (Sd pC pA hd OC OA R1 R2) as Es. change (px hd) with (px pB - px pC) in Es. change (py hd) with (py pB - py pC) in Es. rewrite Es. clear Es. cbn [bind].
    assert (Sg : ckey pC hd pA < 0).
    { unfold ckey, hd. cbn [px py]. fold pB pC. destruct ey as (e1 & e2 & X1 & X2 & He1 & He2). destruct ez as (f1 & f2 & -> & -> & Hf1 & Hf2).
      replace (px pA - px pC) with (D * b - e1) by lia. replace (py pA - py pC) with (- (D * a + e2)) by lia.
      clear - Ax He1 He2 Hf1 Hf2 HD. destruct (axis_cases a b Ax) as [[-> ->]|[[-> ->]|[[-> ->]|[-> ->]]]].
      - pose proof (wide_side D (- e1) (D - f2) (D + e2) (D + f1) HD). lia.
      - pose proof (wide_side D (- e2) (D + f1) (D - e1) (D + f2) HD). lia.
      - pose proof (wide_side D (e1) (D + f2) (D - e2) (D - f1) HD). lia.
      - pose proof (wide_side D (e2) (D - f1) (D + e1) (D - f2) HD). lia. }
    replace (0 <? ckey pC hd pA) with false by lia. cbn [bind gr0 gr1 gr2]. exact (G pC OC).
Qed.
End Orient.

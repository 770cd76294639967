(** The adjustment of a transform never fails and moves it only a little. *)
From Coq Require Import Reals Lra SpecFloat.
From Flocq Require Import Core.
From Verif Require Import Base Lib VersionDb ModelDecode ModelImage ModelGeometry ModelDetect ModelIdentify SpecQR SpecImage
  FloodProofs RegionProofs HistoryProofs FloatProofs GeometryProofs SpiralProofs SampleProofs ApproxProofs FrameProofs FitnessProofs JiggleProofs.
From Coq Require Import ZifyBool.
Open Scope Z_scope.
Set Bullet Behavior "Strict Subproofs".

Lemma upto_move (up : bool) f g M1 M2 : upto f M1 -> upto g M2 -> (0 <= M1)%R -> (0 <= M2)%R -> (M1 + M2 <= 40000 - 1)%R ->
  upto (if up then n_add (Num := F64) f g else n_sub (Num := F64) f g) (M1 + M2 + 1 / 1000).
Proof.
  intros (r & R & B) (s & S & C) P1 P2 HM. destruct up.
  - assert (T : (Rabs (r + s) <= M1 + M2)%R) by (eapply Rle_trans; [apply Rabs_triang|lra]).
    apply (upto_near _ (r + s) (1 / 1000)); [|lra].
    apply near_add with (ex := 0%R) (ey := 0%R) (B := 40000%R); [apply near_rep; exact R|apply near_rep; exact S|lra|lra|lra].
  - assert (T : (Rabs (r - s) <= M1 + M2)%R).
    { unfold Rminus. eapply Rle_trans; [apply Rabs_triang|]. rewrite Rabs_Ropp. lra. }
    apply (upto_near _ (r - s) (1 / 1000)); [|lra].
    apply near_sub with (ex := 0%R) (ey := 0%R) (B := 40000%R); [apply near_rep; exact R|apply near_rep; exact S|lra|lra|lra].
Qed.

(** Bounds for each coefficient. *)
Definition bnd (c : perspective spec_float) (B : nat -> R) : Prop :=
  (forall k, (k < 6)%nat -> upto (persp_get c k) (B k)) /\ rep (persp_get c 6) 0 /\ rep (persp_get c 7) 0.

Lemma bnd_calm c B M : bnd c B -> (forall k, (k < 6)%nat -> B k <= M)%R -> calm c M.
Proof.
  intros (H & H6 & H7) Le. constructor; try assumption;
    [apply (upto_weaken _ (B 0%nat)); [apply (H 0%nat)|apply Le]|apply (upto_weaken _ (B 1%nat)); [apply (H 1%nat)|apply Le]|apply (upto_weaken _ (B 2%nat)); [apply (H 2%nat)|apply Le]
    |apply (upto_weaken _ (B 3%nat)); [apply (H 3%nat)|apply Le]|apply (upto_weaken _ (B 4%nat)); [apply (H 4%nat)|apply Le]|apply (upto_weaken _ (B 5%nat)); [apply (H 5%nat)|apply Le]]; lia.
Qed.

Lemma calm_bnd c M : calm c M -> bnd c (fun _ => M).
Proof.
  intros [A0 A1 A2 A3 A4 A5 A6 A7]. split; [|split; assumption]. intros k Hk. do 6 (destruct k as [|k]; [assumption|]). lia.
Qed.

Lemma get_set (c : perspective spec_float) j k t : (j < 8)%nat -> (k < 8)%nat -> persp_get (persp_set c j t) k = if Nat.eqb k j then t else persp_get c k.
Proof.
  intros Hj Hk. destruct c. do 8 (destruct j as [|j]; [do 8 (destruct k as [|k]; [reflexivity|]); lia|]). lia.
Qed.

(** After the first [i] of the 16 trials. *)
Definition bump (M N : R) (i k : nat) : R := if (2 * k + 2 <=? i)%nat then (M + 2 * (N + 1 / 1000))%R else if (2 * k + 1 <=? i)%nat then (M + (N + 1 / 1000))%R else M.

Lemma bump_grows M N i k : (0 <= N)%R -> (bump M N i k <= bump M N (i + 1) k)%R.
Proof.
  intros H. unfold bump. destruct (Nat.leb_spec (2 * k + 2) i), (Nat.leb_spec (2 * k + 1) i), (Nat.leb_spec (2 * k + 2) (i + 1)), (Nat.leb_spec (2 * k + 1) (i + 1)); try lia; lra.
Qed.
Lemma bump_top M N i k : (0 <= N)%R -> (bump M N i k <= M + 2 * (N + 1 / 1000))%R.
Proof. intros H. unfold bump. destruct (_ <=? _)%nat; [lra|]. destruct (_ <=? _)%nat; lra. Qed.
Lemma bump_low M N i k : (0 <= N)%R -> (0 <= M)%R -> (0 <= bump M N i k)%R.
Proof. intros H H'. unfold bump. destruct (_ <=? _)%nat; [lra|]. destruct (_ <=? _)%nat; lra. Qed.

Section Total.
Context (p : prepared) (n : Z) (T : forall c, calm c 40000 -> exists s, fitness_all (N := F64) p c n = Ok s).

Lemma step_total M N adj i c best : (i < 16)%nat -> (0 <= M)%R -> (0 <= N)%R -> (M + 2 * (N + 1 / 1000) <= 40000 - 1)%R -> calm adj N -> bnd c (bump M N i) ->
  exists s, jiggle_step (N := F64) p n adj i (c, best) = Ok s /\ bnd (fst s) (bump M N (i + 1)).
Proof using T.
  intros Hi HM HN Top A C. unfold jiggle_step. pose proof (calm_bnd adj N A) as (A0 & A6 & A7). assert (C' := C). destruct C' as (C0 & C6 & C7).
  set (j := Nat.div2 i). assert (Hj : (j < 8)%nat) by (unfold j; rewrite Nat.div2_div; apply Nat.div_lt_upper_bound; lia).
  set (new := if Nat.odd i then _ else _).
  assert (Ij : (i = 2 * j \/ i = 2 * j + 1)%nat) by (unfold j; pose proof (Nat.div2_odd i) as E; destruct (Nat.odd i); cbn [Nat.b2n] in E; lia).
  assert (Bj : bump M N i j = if Nat.eqb i (2 * j) then M else (M + (N + 1 / 1000))%R) by (unfold bump; destruct (Nat.eqb_spec i (2 * j)), (Nat.leb_spec (2 * j + 2) i), (Nat.leb_spec (2 * j + 1) i); try lia; reflexivity).
  assert (Bj' : (bump M N i j + N + 1 / 1000 <= bump M N (i + 1) j)%R).
  { unfold bump. destruct (Nat.leb_spec (2 * j + 2) i), (Nat.leb_spec (2 * j + 1) i), (Nat.leb_spec (2 * j + 2) (i + 1)), (Nat.leb_spec (2 * j + 1) (i + 1)); try lia; lra. }
  assert (Ba : (bump M N i j <= M + (N + 1 / 1000))%R) by (rewrite Bj; destruct (Nat.eqb i (2 * j)); lra).
  assert (New : bnd (persp_set c j new) (bump M N (i + 1))).
  { split.
    - intros k Hk. rewrite get_set by lia. destruct (Nat.eqb_spec k j) as [-> |Ne].
      + apply (upto_weaken _ (bump M N i j + N + 1 / 1000)); [|exact Bj']. apply (upto_move (Nat.odd i)); [apply C0; exact Hk|apply (A0 j Hk)|apply bump_low; assumption|exact HN|lra].
      + apply (upto_weaken _ (bump M N i k)); [apply C0; exact Hk|apply bump_grows; exact HN].
    - split.
      + rewrite get_set by lia. destruct (Nat.eqb_spec 6 j) as [E|Ne]; [|exact C6]. unfold new. rewrite <- E. destruct (Nat.odd i); [apply rep_zero_add|apply rep_zero_sub]; assumption.
      + rewrite get_set by lia. destruct (Nat.eqb_spec 7 j) as [E|Ne]; [|exact C7]. unfold new. rewrite <- E. destruct (Nat.odd i); [apply rep_zero_add|apply rep_zero_sub]; assumption. }
  destruct (T (persp_set c j new)) as (s & Es).
  { apply (bnd_calm _ (bump M N (i + 1))); [exact New|]. intros k _. pose proof (bump_top M N (i + 1) k HN). lra. }
  unfold out in *. rewrite Es. cbn [bind]. destruct (best <? s).
  - eexists. split; [reflexivity|exact New].
  - eexists. split; [reflexivity|]. cbn [fst]. split; [|split; assumption]. intros k Hk. apply (upto_weaken _ (bump M N i k)); [apply C0; exact Hk|apply bump_grows; exact HN].
Qed.

Lemma pass_total M N adj c best : (0 <= M)%R -> (0 <= N)%R -> (M + 2 * (N + 1 / 1000) <= 40000 - 1)%R -> calm adj N -> calm c M ->
  exists s, for_each (range 0 16) (jiggle_step (N := F64) p n adj) (c, best) = Ok s /\ calm (fst s) (M + 2 * (N + 1 / 1000)).
Proof using T.
  intros HM HN Top A C.
  destruct (@for_range_ok Empty_set _ (fun i s => bnd (fst s) (bump M N i)) (jiggle_step (N := F64) p n adj) 0 16 (c, best)) as (s & Es & P).
  - lia.
  - cbn [fst]. destruct (calm_bnd c M C) as (C0 & C6 & C7). split; [|split; assumption]. intros k Hk. unfold bump. destruct (Nat.leb_spec (2 * k + 2) 0); [lia|]. destruct (Nat.leb_spec (2 * k + 1) 0); [lia|]. apply C0. exact Hk.
  - intros i [c' b] Hi P. apply (step_total M N adj i c' b); try assumption. lia.
  - exists s. split; [exact Es|]. apply (bnd_calm _ _ _ P). intros k _. apply bump_top. exact HN.
Qed.

(** Starting from coefficients up to 33000, the adjustment ends with coefficients below 40000. *)
Theorem jiggle_ok c : calm c 33000 -> exists c', jiggle_perspective (N := F64) p c n = Ok c' /\ calm c' 40000.
Proof using T.
  intros C. unfold jiggle_perspective. destruct (T c) as (best & Eb); [apply (calm_weaken _ 33000); [exact C|lra]|]. unfold out in *. rewrite Eb. cbn [bind].
  assert (Half : near (n_ratio (Num := F64) 1 2) (IZR 1 / IZR 2) (1 / 900000000000)) by (apply near_ratio; lia).
  assert (Two : near (n_ratio (Num := F64) 2 100) (IZR 2 / IZR 100) (1 / 900000000000)) by (apply near_ratio; lia).
  destruct (@for_range_ok Empty_set _ (fun i s => calm (fst (fst s)) (33000 + IZR (Z.of_nat i) * 1323) /\ calm (snd s) 661)
    (fun (_ : nat) s => let '(c, best, adj) := s in
      let* t := for_each (range 0 16) (jiggle_step (N := F64) p n adj) (c, best) in
      let '(c, best) := t in Ok (c, best, persp_scale adj (n_ratio 1 2))) 0 5 (c, best, persp_scale c (n_ratio 2 100))) as ([[c' b'] adj'] & El & P & _).
  - lia.
  - cbn [fst snd]. split; [apply (calm_weaken _ 33000); [exact C|cbn [Z.of_nat]; lra]|]. eapply calm_scale; [exact C|exact Two|lra|lra|lra|lra].
  - intros i [[c1 b1] adj] Hi [P1 P2]. cbn [fst snd] in P1, P2. assert (Hr : (0 <= IZR (Z.of_nat i) <= 4)%R) by (split; apply IZR_le; lia).
    destruct (pass_total (33000 + IZR (Z.of_nat i) * 1323) 661 adj c1 b1) as ([c2 b2] & E2 & Q2); try assumption; try lra.
    unfold out in *. rewrite E2. cbn [bind]. eexists. split; [reflexivity|]. cbn [fst snd] in *. split.
    + apply (calm_weaken _ _ _ Q2). rewrite Nat2Z.inj_add, plus_IZR. cbn [Z.of_nat Pos.of_succ_nat]. lra.
    + eapply calm_scale; [exact P2|exact Half|lra|lra|lra|lra].
  - unfold out in *. rewrite El. cbn [bind fst]. exists c'. split; [reflexivity|]. cbn [fst] in P. apply (calm_weaken _ _ _ P). cbn [Z.of_nat Pos.of_succ_nat Pos.succ]. lra.
Qed.
End Total.

(** Adjusting a transform is the climb of SpecClimb. *)
From Coq Require Import SpecFloat.
From Verif Require Import Base Lib ModelDecode ModelImage ModelGeometry ModelDetect ModelIdentify SpecImage SpecFit SpecClimb FloodProofs RegionProofs FitProofs SpecQR.
From Coq Require Import ZifyBool.
Open Scope Z_scope.
Set Bullet Behavior "Strict Subproofs".

Section Climb.
Context {T : Type} {N : Num T} (I0 : image) (p : prepared) (RI : reg_inv I0 p) (W : 1 <= im_w I0 <= 2 ^ 31) (H : 1 <= im_h I0 <= 2 ^ 31)
  (v : Z) (Hv : 1 <= v <= 40) (H21 : v <> 21).

Lemma get_coefficient (c : perspective T) j d : (j < 8)%nat -> nth j (coefficients c) d = persp_get c j.
Proof using. intros L. do 8 (destruct j as [|j]; [reflexivity|]). lia. Qed.

Lemma nudge_set (c adj : perspective T) i t : (i < 16)%nat ->
  nudged c (coefficients adj) (Nat.div2 i) (Nat.odd i) t <->
  t = persp_set c (Nat.div2 i) ((if Nat.odd i then n_add else n_sub) (persp_get c (Nat.div2 i)) (persp_get adj (Nat.div2 i))).
Proof using.
  intros L. assert (J : (Nat.div2 i < 8)%nat) by (do 16 (destruct i as [|i]; [cbn; lia|]); lia).
  remember (Nat.div2 i) as j eqn:Ej. clear Ej. remember (Nat.odd i) as up eqn:Eu. clear Eu L i. unfold nudged. split.
  - intros X. destruct t as [t0 t1 t2 t3 t4 t5 t6 t7].
    pose proof (X 0%nat t0 ltac:(lia)) as X0. pose proof (X 1%nat t0 ltac:(lia)) as X1. pose proof (X 2%nat t0 ltac:(lia)) as X2. pose proof (X 3%nat t0 ltac:(lia)) as X3.
    pose proof (X 4%nat t0 ltac:(lia)) as X4. pose proof (X 5%nat t0 ltac:(lia)) as X5. pose proof (X 6%nat t0 ltac:(lia)) as X6. pose proof (X 7%nat t0 ltac:(lia)) as X7.
    clear X. rewrite (get_coefficient c j), (get_coefficient adj j) in X0, X1, X2, X3, X4, X5, X6, X7 by exact J.
    destruct c as [a0 a1 a2 a3 a4 a5 a6 a7].
    do 8 (destruct j as [|j]; [cbn in *; congruence|]). lia.
  - intros -> k d K. rewrite (get_coefficient c j), (get_coefficient adj j) by exact J. rewrite !get_coefficient by exact K.
    destruct c as [a0 a1 a2 a3 a4 a5 a6 a7].
    do 8 (destruct j as [|j]; [do 8 (destruct k as [|k]; [reflexivity|]); lia|]). lia.
Qed.

Lemma climb_app l l' (c c' : perspective T) : climb I0 v (l ++ l') c c' <-> exists c1, climb I0 v l c c1 /\ climb I0 v l' c1 c'.
Proof using.
  split.
  - revert c. induction l as [|e l IH]; intros c E.
    + exists c. split; [constructor|exact E].
    + cbn [app] in E. inversion E as [|steps j up l0 c0 t c'0 Nt S L C|steps j up l0 c0 t c'0 Nt S L C]; subst; destruct (IH _ C) as (c1 & A & B); exists c1; (split; [|exact B]).
      * eapply climb_up; eassumption.
      * eapply climb_stay; eassumption.
  - intros (c1 & A & B). induction A as [|? ? ? ? ? t ? Nt S L A IH|? ? ? ? ? t ? Nt S L A IH]; [exact B| |]; cbn [app].
    + eapply climb_up; try eassumption. apply IH. exact B.
    + eapply climb_stay; try eassumption. apply IH. exact B.
Qed.

Lemma step_climb (adj c : perspective T) i st : (i < 16)%nat ->
  jiggle_step p (symbol_size v) adj i (c, score I0 c v) = Ok st <->
  climb I0 v [(coefficients adj, Nat.div2 i, Nat.odd i)] c (fst st) /\ snd st = score I0 (fst st) v.
Proof using RI W H Hv H21.
  intros L. unfold jiggle_step. set (new := if Nat.odd i then _ else _).
  assert (En : new = (if Nat.odd i then n_add else n_sub) (persp_get c (Nat.div2 i)) (persp_get adj (Nat.div2 i))) by (unfold new; destruct (Nat.odd i); reflexivity).
  split.
  - intros E. apply bind_ok_inv in E as (s & Es & E). apply (fitness_score I0 p RI W H _ v _ Hv H21) in Es as [Ld ->].
    assert (Nu : nudged c (coefficients adj) (Nat.div2 i) (Nat.odd i) (persp_set c (Nat.div2 i) new)) by (apply (nudge_set c adj i _ L); rewrite En; reflexivity).
    destruct (Z.ltb_spec (score I0 c v) (score I0 (persp_set c (Nat.div2 i) new) v)) as [X|X]; injection E as <-; cbn [fst snd]; (split; [|reflexivity]).
    + eapply climb_up; [exact Nu|exact Ld|exact X|constructor].
    + eapply climb_stay; [exact Nu|exact Ld|exact X|constructor].
  - destruct st as [c2 b2]. cbn [fst snd]. intros [C ->].
    assert (X : exists t, t = persp_set c (Nat.div2 i) new /\ samples_land t v
      /\ ((score I0 c v < score I0 t v /\ c2 = t) \/ (score I0 t v <= score I0 c v /\ c2 = c))).
    { inversion C as [|steps j up l0 x t x' Nt Ld X C0|steps j up l0 x t x' Nt Ld X C0]; subst steps j up l0 x x'; inversion C0; subst; (match type of Nt with nudged _ _ _ _ ?y => exists y end);
        (split; [rewrite En; apply (nudge_set _ adj i _ L) in Nt; exact Nt|]); auto. }
    destruct X as (t & -> & Ld & D). rewrite (proj2 (fitness_score I0 p RI W H _ v _ Hv H21) (conj Ld eq_refl)). cbn [bind].
    destruct (Z.ltb_spec (score I0 c v) (score I0 (persp_set c (Nat.div2 i) new) v)); destruct D as [[A ->]|[A ->]]; try lia; reflexivity.
Qed.

Lemma pass_climb (adj : perspective T) l : (forall i, In i l -> (i < 16)%nat) -> forall c st,
  for_each l (jiggle_step p (symbol_size v) adj) (c, score I0 c v) = Ok st <->
  climb I0 v (map (fun i => (coefficients adj, Nat.div2 i, Nat.odd i)) l) c (fst st) /\ snd st = score I0 (fst st) v.
Proof using RI W H Hv H21.
  induction l as [|i l IH]; intros Hl c st.
  - cbn [for_each map]. split.
    + intros E. injection E as <-. split; [constructor|reflexivity].
    + intros [C Sc]. inversion C; subst. destruct st as [c2 b2]. cbn [fst snd] in *. subst. reflexivity.
  - cbn [for_each map]. assert (Li : (i < 16)%nat) by (apply Hl; left; reflexivity). assert (Hl' : forall j, In j l -> (j < 16)%nat) by (intros j Hj; apply Hl; right; exact Hj).
    change (?x :: ?y) with ([x] ++ y). rewrite climb_app. split.
    + intros E. apply bind_ok_inv in E as ([c1 b1] & E1 & E). apply (step_climb adj c i _ Li) in E1 as [C1 S1]. cbn [fst snd] in *. subst b1.
      apply (IH Hl') in E as [C2 S2]. split; [exists c1; split; assumption|exact S2].
    + intros [(c1 & C1 & C2) S2].
      rewrite (proj2 (step_climb adj c i (c1, score I0 c1 v) Li) (conj C1 eq_refl)). cbn [bind]. apply (IH Hl'). split; assumption.
Qed.

Lemma pass_map (adj : perspective T) : map (fun i => (coefficients adj, Nat.div2 i, Nat.odd i)) (range 0 16) = pass (coefficients adj).
Proof using. reflexivity. Qed.

Lemma scale_coefficients (c : perspective T) t : coefficients (persp_scale c t) = map (fun x => n_mul x t) (coefficients c).
Proof using. reflexivity. Qed.

Lemma passes_climb (l : list nat) : forall (adj c : perspective T) st,
  for_each l (fun _ s =>
    let '(c, best, adj) := s in
    let* t := for_each (range 0 16) (jiggle_step p (symbol_size v) adj) (c, best) in
    let '(c, best) := t in
    Ok (c, best, persp_scale adj (n_ratio 1 2))) (c, score I0 c v, adj) = Ok st ->
  climb I0 v (passes (length l) (coefficients adj)) c (fst (fst st)).
Proof using RI W H Hv H21.
  induction l as [|i l IH]; intros adj c st E.
  - injection E as <-. constructor.
  - cbn [for_each] in E. apply bind_ok_inv in E as ([[c1 b1] adj1] & E1 & E). apply bind_ok_inv in E1 as ([c2 b2] & E2 & E1). injection E1 as -> -> <-.
    apply pass_climb in E2 as [C1 S1]; [|intros j Hj; apply in_range_iff in Hj; lia]. cbn [fst snd] in *. subst b1.
    rewrite pass_map in C1. cbn [length passes]. apply climb_app. exists c1. split; [exact C1|]. rewrite <- scale_coefficients. apply IH in E. exact E.
Qed.

Lemma climb_passes (l : list nat) : forall (adj c c' : perspective T),
  climb I0 v (passes (length l) (coefficients adj)) c c' ->
  exists st, for_each l (fun _ s =>
    let '(c, best, adj) := s in
    let* t := for_each (range 0 16) (jiggle_step p (symbol_size v) adj) (c, best) in
    let '(c, best) := t in
    Ok (c, best, persp_scale adj (n_ratio 1 2))) (c, score I0 c v, adj) = Ok st /\ fst (fst st) = c'.
Proof using RI W H Hv H21.
  induction l as [|i l IH]; intros adj c c' C.
  - inversion C; subst. eexists. split; [reflexivity|reflexivity].
  - cbn [length passes] in C. apply climb_app in C as (c1 & C1 & C2). rewrite <- pass_map in C1.
    assert (E1 : for_each (range 0 16) (jiggle_step p (symbol_size v) adj) (c, score I0 c v) = Ok (c1, score I0 c1 v)).
    { apply pass_climb; [intros j Hj; apply in_range_iff in Hj; lia|]. split; [exact C1|reflexivity]. }
    rewrite <- scale_coefficients in C2. destruct (IH _ _ _ C2) as (st & E2 & F). exists st. split; [|exact F].
    cbn [for_each]. unfold out in *. rewrite E1. cbn [bind]. exact E2.
Qed.

Theorem adjust_climb (c c' : perspective T) :
  jiggle_perspective p c (symbol_size v) = Ok c' <-> samples_land c v /\ climb I0 v (trials c) c c'.
Proof using RI W H Hv H21.
  unfold jiggle_perspective, trials. rewrite <- scale_coefficients. split.
  - intros E. apply bind_ok_inv in E as (s & Es & E). apply (fitness_score I0 p RI W H _ v _ Hv H21) in Es as [Ld ->].
    apply bind_ok_inv in E as (st & Et & E). injection E as <-. split; [exact Ld|]. apply passes_climb in Et. exact Et.
  - intros [Ld C]. rewrite (proj2 (fitness_score I0 p RI W H _ v _ Hv H21) (conj Ld eq_refl)). cbn [bind].
    destruct (climb_passes (range 0 5) _ _ _ C) as (st & E & F). unfold out in *. rewrite E. cbn [bind]. rewrite F. reflexivity.
Qed.
End Climb.

Lemma climb_rises {T} {N : Num T} I v l (c c' : perspective T) : climb I v l c c' -> score I c v <= score I c' v.
Proof. intros C. induction C; lia. Qed.

(** Which finder patterns are taken together on a sheet of several symbols. *)
From Coq Require Import Reals Lra SpecFloat.
From Flocq Require Import Core.
From Coq Require Import Permutation Sorting.Sorted.
From Verif Require Import Base Lib ModelImage ModelGeometry ModelDetect ModelIdentify SpecQR SpecImage SpecIdentify SpecSheet
  CornerProofs SearchProofs FloatProofs CenterProofs IdentifyProofs NeighborProofs ApproxProofs FrameProofs SquareProofs PatternProofs GroupProofs OrientProofs TimingProofs SheetSearch.
Open Scope Z_scope.
Set Bullet Behavior "Strict Subproofs".

(** * Comparisons *)

(** How far two distances are from being equal: the difference in parts of the larger one. *)
Definition skew (A B : Z) : R := (1 - IZR (Z.min A B) / IZR (Z.max A B))%R.

Section Compare.
Context (L : Z) (HL : 13 <= L <= 32767).
Notation k := (7 / (2 * IZR L))%R.

Lemma no_less U V A B : near U (IZR A * k) (1 / 50000000) -> near V (IZR B * k) (1 / 50000000) -> 0 <= B <= 200000 -> B + 1 <= 5 * A ->
  n_ltb (N := F64) U (n_mul (n_ratio 2 10) V) = false.
Proof using HL.
  intros NU NV HB HA. pose proof (k_bounds L HL) as Kb. eapply near_nltb; [exact NU|apply (fifth_near L HL); [exact NV|lia]|].
  assert (BR : (IZR B + 1 <= 5 * IZR A)%R) by (rewrite <- mult_IZR, <- plus_IZR; apply IZR_le; lia). nra.
Qed.

Lemma score_near U V A B : near U (IZR A * k) (1 / 50000000) -> near V (IZR B * k) (1 / 50000000) -> L <= A <= 200000 -> L <= B <= 200000 ->
  near (neighbor_score (N := F64) U V) (skew A B) (1 / 10000000).
Proof using HL.
  assert (LR : (13 <= IZR L <= 32767)%R) by (split; apply IZR_le; lia).
  assert (Kb := k_bounds L HL).
  assert (Lk : (IZR L * k = 7 / 2)%R) by (field; lra).
  assert (G : forall U V A B, near U (IZR A * k) (1 / 50000000) -> near V (IZR B * k) (1 / 50000000) -> L <= A <= 200000 -> L <= B <= 200000 -> A <= B ->
    near (n_abs (Num := F64) (n_sub (n_of 1) (n_div U V))) (skew A B) (1 / 10000000)).
  { clear U V A B. intros U V A B NU NV HA HB HAB.
    assert (AR : (IZR L <= IZR A)%R) by (apply IZR_le; lia). assert (BR : (IZR A <= IZR B)%R) by (apply IZR_le; lia).
    set (q := (IZR A / IZR B)%R).
    assert (Q : (0 <= q <= 1)%R).
    { unfold q. assert (E : (IZR A / IZR B * IZR B = IZR A)%R) by (field; lra). split; apply Rmult_le_reg_r with (IZR B); try lra; rewrite E; lra. }
    assert (E : (IZR A * k / (IZR B * k) = q)%R) by (unfold q; field; repeat split; lra).
    assert (N : near (n_div (Num := F64) U V) q (4 / 100000000)).
    { rewrite <- E. apply near_div with (ex := (1 / 50000000)%R) (ey := (1 / 50000000)%R) (Q := 1%R) (Y := 3%R) (e1 := (3 / 100000000)%R); try assumption; try lra.
      - rewrite E. apply Rabs_le'; lra.
      - rewrite Rabs_pos_eq; nra. }
    assert (N1 : near (n_sub (Num := F64) (n_of 1) (n_div U V)) (1 - q) (1 / 10000000)).
    { apply near_sub with (ex := 0%R) (ey := (4 / 100000000)%R) (B := 10%R); [apply near_of; lia|exact N| |lra|lra].
      assert (Rabs (1 - q) <= 1)%R by (apply Rabs_le'; lra). lra. }
    apply near_abs in N1. unfold skew. rewrite Z.min_l, Z.max_r by lia. fold q. rewrite Rabs_pos_eq in N1 by lra. exact N1. }
  intros NU NV HA HB. unfold neighbor_score.
  destruct (Z.lt_trichotomy A B) as [C|[C|C]].
  - rewrite (near_ltb U V _ _ _ _ NU NV); [apply G; assumption || lia|]. assert (IZR A + 1 <= IZR B)%R by (rewrite <- plus_IZR; apply IZR_le; lia). nra.
  - subst B. destruct (n_ltb U V); apply G; assumption || lia.
  - rewrite (near_nltb U V _ _ _ _ NU NV); [|assert (IZR B + 1 <= IZR A)%R by (rewrite <- plus_IZR; apply IZR_le; lia); nra].
    unfold skew. rewrite Z.min_comm, Z.max_comm. apply G; assumption || lia.
Qed.
End Compare.

Lemma skew_quotient A B z w : 1 <= A -> 1 <= B -> 1 <= w -> z * Z.max A B <= w * Z.abs (A - B) -> (IZR z / IZR w <= skew A B)%R.
Proof.
  intros HA HB Hw H. unfold skew. assert (Wp : (1 <= IZR w)%R) by (apply IZR_le; lia). assert (Mp : (1 <= IZR (Z.max A B))%R) by (apply IZR_le; lia).
  replace (Z.abs (A - B)) with (Z.max A B - Z.min A B) in H by lia. apply IZR_le in H. rewrite !mult_IZR, minus_IZR in H.
  apply Rmult_le_reg_r with (IZR w * IZR (Z.max A B))%R; [nra|]. field_simplify; lra.
Qed.

Lemma skew_bound A B z w : 1 <= A -> 1 <= B -> 1 <= w -> w * Z.abs (A - B) <= z * Z.max A B -> (skew A B <= IZR z / IZR w)%R.
Proof.
  intros HA HB Hw H. unfold skew. assert (Wp : (1 <= IZR w)%R) by (apply IZR_le; lia). assert (Mp : (1 <= IZR (Z.max A B))%R) by (apply IZR_le; lia).
  replace (Z.abs (A - B)) with (Z.max A B - Z.min A B) in H by lia. apply IZR_le in H. rewrite !mult_IZR, minus_IZR in H.
  apply Rmult_le_reg_r with (IZR w * IZR (Z.max A B))%R; [nra|]. field_simplify; lra.
Qed.

(** Ranked pairs are sorted by the values of their scores. *)
Definition no_more (e e' : spec_float * (nat * nat)) : Prop := exists r r', rep (fst e) r /\ rep (fst e') r' /\ (r <= r')%R.

Lemma rep_fun f r r' : rep f r -> rep f r' -> r = r'.
Proof.
  intros R R'. pose proof (rep_compare _ _ _ _ R R') as E1. pose proof (rep_compare _ _ _ _ R R) as E2. rewrite E1 in E2. injection E2 as E2.
  rewrite (Rcompare_Eq r r eq_refl) in E2. apply Rcompare_Eq_inv. exact E2.
Qed.

Lemma ranked_sorted l : Sorted in_order l -> (forall e, In e l -> exists r, rep (fst e) r) -> StronglySorted no_more l.
Proof.
  intros S A. apply Sorted_StronglySorted.
  - intros x y z (r1 & r2 & R1 & R2 & H) (r2' & r3 & R2' & R3 & H'). exists r1, r3. split; [exact R1|]. split; [exact R3|]. rewrite (rep_fun _ _ _ R2' R2) in H'. lra.
  - induction S as [|e l S IH Hd]; constructor.
    + apply IH. intros e' He'. apply A. right. exact He'.
    + destruct Hd as [|e' l Hd]; constructor. destruct (A e ltac:(left; reflexivity)) as [r R]. destruct (A e' ltac:(right; left; reflexivity)) as [r' R'].
      exists r, r'. split; [exact R|]. split; [exact R'|]. unfold in_order in Hd. cbn [n_compare F64] in Hd. rewrite (rep_compare _ _ _ _ R' R) in Hd.
      destruct (Rcompare_spec r' r); [congruence|lra|lra].
Qed.

(** * Pairs that may be tried *)

Lemma Forall2_nth {A B} (P : A -> B -> Prop) l l' i b : Forall2 P l l' -> nth_error l' i = Some b -> exists a, nth_error l i = Some a /\ P a b.
Proof.
  intros F. revert i. induction F as [|a' b' l l' H F IH]; intros [|i] E; try discriminate.
  - injection E as <-. exists a'. auto.
  - apply IH. exact E.
Qed.
Lemma Forall2_nth' {A B} (P : A -> B -> Prop) l l' i a : Forall2 P l l' -> nth_error l i = Some a -> exists b, nth_error l' i = Some b /\ P a b.
Proof.
  intros F. revert i. induction F as [|a' b' l l' H F IH]; intros [|i] E; try discriminate.
  - injection E as <-. exists b'. auto.
  - apply IH. exact E.
Qed.

Section Pairs.
Context (fs : list finder) (caps : list (capstone spec_float)) (F2 : Forall2 f_cap fs caps).
Context (Pl : forall f, In f fs -> 2 <= fst f /\ placed (snd f) (fst f)) (Nd : NoDup fs).
Context (Dj : forall f g q, In f fs -> In g fs -> f_box f q -> f_box g q -> f = g).

Lemma finders_apart f g : In f fs -> In g fs -> g <> f -> 7 * (fst f + fst g) <= gap_x f g \/ 7 * (fst f + fst g) <= gap_y f g.
Proof using F2 Pl Nd Dj.
  intros Hf Hg N. destruct (Pl f Hf) as [Mf _]. destruct (Pl g Hg) as [Mg _].
  assert (C : ~ (gap_x f g < 7 * (fst f + fst g) /\ gap_y f g < 7 * (fst f + fst g))); [|lia].
  intros [C1 C2]. apply N. symmetry. unfold gap_x, gap_y in *.
  apply (Dj f g (Z.max (fst (snd f)) (fst (snd g)), Z.max (snd (snd f)) (snd (snd g))) Hf Hg); unfold f_box, box; cbn [fst snd]; lia.
Qed.

Lemma off_gap f g c : In f fs -> In g fs -> f_cap g c -> let p := cap_center c in
  Z.abs (off_x (fst f) (snd f) p - gap_x f g) <= 1 /\ Z.abs (off_y (fst f) (snd f) p - gap_y f g) <= 1 /\ on_picture p.
Proof using F2 Pl Nd Dj.
  intros Hf Hg Fc p. destruct (Pl g Hg) as [Mg Pg]. destruct (centre_of (fst g) Mg (snd g) c Pg Fc) as [[C1 C2] O]. fold p in C1, C2, O.
  unfold off_x, off_y, gap_x, gap_y. split; [|split; [|exact O]]; lia.
Qed.

Lemma viable_may i a b sc f : nth_error fs i = Some f -> viable caps i a b sc ->
  exists ga gb g h o o', nth_error fs a = Some ga /\ nth_error fs b = Some gb /\ ga <> f /\ gb <> f
    /\ (g = ga /\ h = gb \/ g = gb /\ h = ga) /\ may_pair f g h
    /\ Z.abs (o - gap_x f g) <= 1 /\ Z.abs (o' - gap_y f h) <= 1 /\ 27 <= gap_x f g /\ 27 <= gap_y f h /\ near sc (skew o o') (1 / 10000000).
Proof using F2 Pl Nd Dj.
  intros Ef (da & db & [Na (u & Ea & La)] & [Nb (v & Eb & Lb)] & Es & Lq).
  destruct (Forall2_nth' _ _ _ _ _ F2 Ef) as (ci & Ei & Qi). pose proof (nth_error_In _ _ Ef) as Hf. destruct (Pl f Hf) as [Mf Pf].
  assert (Ja : exists ca, nth_error caps a = Some ca) by (unfold offsets in Ea; rewrite Ei in Ea; destruct (nth_error caps a); [eauto|discriminate]). destruct Ja as [ca Ca].
  assert (Jb : exists cb, nth_error caps b = Some cb) by (unfold offsets in Eb; rewrite Ei in Eb; destruct (nth_error caps b); [eauto|discriminate]). destruct Jb as [cb Cb].
  destruct (Forall2_nth _ _ _ _ _ F2 Ca) as (ga & Ga & Qa). destruct (Forall2_nth _ _ _ _ _ F2 Cb) as (gb & Gb & Qb).
  pose proof (nth_error_In _ _ Ga) as Ha. pose proof (nth_error_In _ _ Gb) as Hb.
  assert (Ua : ga <> f). { intros ->. apply Na. apply (proj1 (NoDup_nth_error fs) Nd); [apply nth_error_Some; congruence|congruence]. }
  assert (Ub : gb <> f). { intros ->. apply Nb. apply (proj1 (NoDup_nth_error fs) Nd); [apply nth_error_Some; congruence|congruence]. }
  destruct (off_gap f ga ca Hf Ha Qa) as (Ga1 & Ga2 & Oa). destruct (off_gap f gb cb Hf Hb Qb) as (Gb1 & Gb2 & Ob).
  destruct (offsets_square caps i (fst f) (snd f) ci Mf Pf Ei Qi) as (sw & O).
  destruct (O a ca Ca Oa) as (ua & va & Oa1 & NUa & NVa). destruct (O b cb Cb Ob) as (ub & vb & Ob1 & NUb & NVb).
  assert (u = ua /\ da = va /\ v = vb /\ db = ub) as (-> & -> & -> & ->) by (repeat split; congruence).
  pose proof (off_bound _ _ _ Mf Pf Oa) as [Ba1 Ba2]. pose proof (off_bound _ _ _ Mf Pf Ob) as [Bb1 Bb2].
  assert (H7 : 13 <= 7 * fst f - 1 <= 32767) by (unfold placed in Pf; lia).
  pose proof (no_less (7 * fst f - 1) H7) as Nl. pose proof (score_near (7 * fst f - 1) H7) as Sn.
  assert (Sc : forall o o', near sc (skew o o') (1 / 10000000) -> 1 <= o <= 200000 -> 1 <= o' <= 200000 -> 3 * Z.max o o' <= 4 * Z.min o o').
  { intros o o' Ns Ho Ho'. apply Znot_gt_le. intros Hgt.
    assert (Ss : (1 / 4 + 1 / 800000 <= skew o o')%R) by
       (replace (1 / 4 + 1 / 800000)%R with (IZR 200001 / IZR 800000)%R by lra; apply skew_quotient; lia).
    rewrite (near_nltb sc (n_ratio 1 4) _ _ _ _ Ns (near_ratio 1 4 ltac:(lia) ltac:(lia))) in Lq; [discriminate|lra]. }
  pose proof (finders_apart f ga Hf Ha Ua) as Ap1. pose proof (finders_apart f gb Hf Hb Ub) as Ap2. destruct (Pl ga Ha) as [Ma _]. destruct (Pl gb Hb) as [Mb _].
  set (xa := off_x (fst f) (snd f) (cap_center ca)) in *. set (ya := off_y (fst f) (snd f) (cap_center ca)) in *.
  set (xb := off_x (fst f) (snd f) (cap_center cb)) in *. set (yb := off_y (fst f) (snd f) (cap_center cb)) in *. clearbody xa ya xb yb.
  exists ga, gb. destruct sw.
  - assert (A1 : 5 * ya <= xa).
    { apply Znot_gt_le. intros Hgt. rewrite (Nl ua va _ _ NUa NVa) in La; [discriminate|lia|lia]. }
    assert (A2 : 5 * xb <= yb).
    { apply Znot_gt_le. intros Hgt. rewrite (Nl vb ub _ _ NVb NUb) in Lb; [discriminate|lia|lia]. }
    assert (R1 : 7 * fst f + 13 <= xa) by lia. assert (R2 : 7 * fst f + 13 <= yb) by lia.
    exists ga, gb, xa, yb. rewrite Es. pose proof (Sn va ub _ _ NVa NUb ltac:(lia) ltac:(lia)) as Ns. rewrite Es in Sc. specialize (Sc _ _ Ns ltac:(lia) ltac:(lia)).
    do 4 (split; [assumption|]). split; [left; split; reflexivity|]. split; [unfold may_pair; lia|].
    do 2 (split; [assumption|]). split; [lia|]. split; [lia|]. exact Ns.
  - assert (A1 : 5 * xa <= ya).
    { apply Znot_gt_le. intros Hgt. rewrite (Nl ua va _ _ NUa NVa) in La; [discriminate|lia|lia]. }
    assert (A2 : 5 * yb <= xb).
    { apply Znot_gt_le. intros Hgt. rewrite (Nl vb ub _ _ NVb NUb) in Lb; [discriminate|lia|lia]. }
    assert (R1 : 7 * fst f + 13 <= ya) by lia. assert (R2 : 7 * fst f + 13 <= xb) by lia.
    exists gb, ga, xb, ya. rewrite Es. pose proof (Sn va ub _ _ NVa NUb ltac:(lia) ltac:(lia)) as Ns. rewrite Es in Sc. specialize (Sc _ _ Ns ltac:(lia) ltac:(lia)).
    do 4 (split; [assumption|]). split; [right; split; reflexivity|]. split; [unfold may_pair; lia|].
    do 2 (split; [assumption|]). split; [lia|]. split; [lia|]. replace (skew xb ya) with (skew ya xb) by (unfold skew; rewrite Z.min_comm, Z.max_comm; reflexivity). exact Ns.
Qed.

(** The pair of a symbol. *)
Lemma viable_own i a b f g h D : nth_error fs i = Some f -> nth_error fs a = Some g -> nth_error fs b = Some h -> 28 <= D -> 7 * fst f <= 2 * D - 1 ->
  gap_x f g = 2 * D -> gap_y f g = 0 -> gap_x f h = 0 -> gap_y f h = 2 * D ->
  exists a' b' sc r, (a' = a /\ b' = b \/ a' = b /\ b' = a) /\ viable caps i a' b' sc /\ near sc r (1 / 10000000) /\ (r <= 2 / 57)%R.
Proof using F2 Pl Nd Dj.
  intros Ef Eg Eh HD Hm X1 Y1 X2 Y2. pose proof (nth_error_In _ _ Ef) as Hf. pose proof (nth_error_In _ _ Eg) as Hg. pose proof (nth_error_In _ _ Eh) as Hh.
  destruct (Pl f Hf) as [Mf Pf].
  destruct (Forall2_nth' _ _ _ _ _ F2 Ef) as (ci & Ei & Qi). destruct (Forall2_nth' _ _ _ _ _ F2 Eg) as (ca & Ca & Qa). destruct (Forall2_nth' _ _ _ _ _ F2 Eh) as (cb & Cb & Qb).
  assert (Na : a <> i). { intros ->. assert (g = f) by congruence. subst g. unfold gap_x in X1. lia. }
  assert (Nb : b <> i). { intros ->. assert (h = f) by congruence. subst h. unfold gap_y in Y2. lia. }
  destruct (off_gap f g ca Hf Hg Qa) as (Ga1 & Ga2 & Oa). destruct (off_gap f h cb Hf Hh Qb) as (Gb1 & Gb2 & Ob). rewrite X1, Y1, X2, Y2 in *.
  destruct (offsets_square caps i (fst f) (snd f) ci Mf Pf Ei Qi) as (sw & O).
  destruct (O a ca Ca Oa) as (ua & va & Oa1 & NUa & NVa). destruct (O b cb Cb Ob) as (ub & vb & Ob1 & NUb & NVb).
  pose proof (off_bound _ _ _ Mf Pf Oa) as [Ba1 Ba2]. pose proof (off_bound _ _ _ Mf Pf Ob) as [Bb1 Bb2].
  assert (H7 : 13 <= 7 * fst f - 1 <= 32767) by (unfold placed in Pf; lia).
  pose proof (much_less (7 * fst f - 1) H7) as Le. pose proof (close_score (7 * fst f - 1) H7) as Cs. pose proof (score_near (7 * fst f - 1) H7) as Sn.
  set (xa := off_x (fst f) (snd f) (cap_center ca)) in *. set (ya := off_y (fst f) (snd f) (cap_center ca)) in *.
  set (xb := off_x (fst f) (snd f) (cap_center cb)) in *. set (yb := off_y (fst f) (snd f) (cap_center cb)) in *. clearbody xa ya xb yb.
  assert (Sk : forall o o', Z.abs (o - 2 * D) <= 1 -> Z.abs (o' - 2 * D) <= 1 -> (skew o o' <= 2 / 57)%R) by (intros; apply skew_bound; lia).
  destruct sw.
  - exists a, b, (neighbor_score va ub), (skew xa yb). split; [left; split; reflexivity|]. split; [|split; [|apply Sk; assumption]].
    + exists va, ub. split; [split; [exact Na|exists ua; split; [exact Oa1|eapply Le; [exact NUa|exact NVa|lia|lia]]]|].
      split; [split; [exact Nb|exists vb; split; [exact Ob1|eapply Le; [exact NVb|exact NUb|lia|lia]]]|].
      split; [reflexivity|]. eapply Cs; [exact NVa|exact NUb|lia|lia|lia].
    + apply (Sn va ub _ _ NVa NUb); lia.
  - exists b, a, (neighbor_score vb ua), (skew yb xa). split; [right; split; reflexivity|]. split; [|split; [|apply Sk; assumption]].
    + exists vb, ua. split; [split; [exact Nb|exists ub; split; [exact Ob1|eapply Le; [exact NUb|exact NVb|lia|lia]]]|].
      split; [split; [exact Na|exists va; split; [exact Oa1|eapply Le; [exact NVa|exact NUa|lia|lia]]]|].
      split; [reflexivity|]. eapply Cs; [exact NVb|exact NUa|lia|lia|lia].
    + apply (Sn vb ua _ _ NVb NUa); lia.
Qed.

Lemma less_square_skew f g h o o' : 1 <= gap_x f g - 1 -> 1 <= gap_y f h - 1 -> Z.abs (o - gap_x f g) <= 1 -> Z.abs (o' - gap_y f h) <= 1 -> less_square f g h -> (1 / 26 <= skew o o')%R.
Proof using F2 Pl Nd Dj. unfold less_square. intros. apply (skew_quotient o o' 1 26); lia. Qed.
End Pairs.

(** * The groups *)

Lemma flat_map_owner {A B} (g : A -> list B) l a b x : NoDup (flat_map g l) -> In a l -> In b l -> In x (g a) -> In x (g b) -> a = b.
Proof.
  induction l as [|c l IH]; [contradiction|]. cbn [flat_map]. intros N Ha Hb Xa Xb.
  assert (S : NoDup (flat_map g l) /\ forall y, In y (g c) -> ~ In y (flat_map g l)).
  { clear - N. revert N. induction (g c) as [|y gc IH]; cbn [app]; intros N; [split; [exact N|intros y []]|].
    inversion N as [|? ? N1 N2]; subst. destruct (IH N2) as [I1 I2]. split; [exact I1|]. intros z [-> |Hz]; [|apply I2; exact Hz].
    intros Hin. apply N1. apply in_app_iff. right. exact Hin. }
  destruct S as [S1 S2].
  destruct Ha as [-> |Ha], Hb as [-> |Hb]; [reflexivity| | |apply IH; assumption].
  - exfalso. apply (S2 x Xa). apply in_flat_map. exists b. auto.
  - exfalso. apply (S2 x Xb). apply in_flat_map. exists a. auto.
Qed.

Lemma flat_map_nodup {A B} (g : A -> list B) l : (forall a, g a <> []) -> NoDup (flat_map g l) -> NoDup l.
Proof.
  intros G. induction l as [|c l IH]; [constructor|]. cbn [flat_map]. intros N. destruct (g c) as [|y gc] eqn:E; [exfalso; apply (G c E)|].
  constructor.
  - intros Hc. cbn [app] in N. inversion N as [|? ? N1 _]; subst. apply N1. apply in_app_iff. right. apply in_flat_map. exists c. split; [exact Hc|]. rewrite E. left. reflexivity.
  - apply IH. clear - N. revert N. generalize (y :: gc). intros l1 N. induction l1 as [|z l1 IH1]; cbn [app] in N; [exact N|]. inversion N; subst. apply IH1. assumption.
Qed.

Lemma finder_eq_dec (f g : finder) : {f = g} + {f <> g}.
Proof. repeat (decide equality). Defined.

Lemma Forall2_len A B (P : A -> B -> Prop) l l' : Forall2 P l l' -> length l = length l'.
Proof. induction 1; cbn [length]; congruence. Qed.

Lemma nodup_snoc A (l : list A) a : NoDup l -> ~ In a l -> NoDup (l ++ [a]).
Proof.
  intros N H. apply (Permutation_NoDup (l := a :: l)); [apply Permutation_cons_append|]. constructor; assumption.
Qed.

Lemma sooner_asym f g : sooner_finder f g -> ~ sooner_finder g f.
Proof. unfold sooner_finder. cbv zeta. lia. Qed.

Section Groups.
Context {Srt : Sorter spec_float}.
Context (ks : list mark) (fs : list finder) (caps : list (capstone spec_float)) (F2 : Forall2 f_cap fs caps).
Context (Pl : forall f, In f fs -> 2 <= fst f /\ placed (snd f) (fst f)).
Context (Dj : forall f g q, In f fs -> In g fs -> f_box f q -> f_box g q -> f = g).
Context (Pm : Permutation (all_finders ks) fs) (Ord : ForallOrdPairs sooner_finder fs).
Context (Vs : forall k, In k ks -> 1 <= mk_v k <= 40).

(** The patterns of symbol [k], corner in the middle. *)
Definition group_for (k : mark) (g : group spec_float) : Prop :=
  exists cA cB cC, f_cap (corner_finder k) cA /\ f_cap (row_finder k) cB /\ f_cap (column_finder k) cC
    /\ (g = MkGroup cB cA cC \/ g = MkGroup cC cA cB).

Context (p : prepared).

Lemma fs_nodup : NoDup fs.
Proof using Srt F2 Pl Dj Pm Ord.
  revert Ord. clear. generalize fs. intros l O. induction O as [|f gs A O IH]; constructor; [|exact IH]. intros Hin. rewrite Forall_forall in A. apply (sooner_asym f f (A f Hin) (A f Hin)).
Qed.

Lemma order_index i j f g : nth_error fs i = Some f -> nth_error fs j = Some g -> (sooner_finder f g <-> (i < j)%nat).
Proof using Srt F2 Pl Dj Pm Ord.
  assert (G : forall i j f g, nth_error fs i = Some f -> nth_error fs j = Some g -> (i < j)%nat -> sooner_finder f g).
  { revert Ord. clear. generalize fs. intros l O. induction O as [|e gs A O IH]; intros [|i] [|j] f g Ei Ej H; try lia; try discriminate.
    - injection Ei as <-. rewrite Forall_forall in A. apply A. cbn [nth_error] in Ej. apply (nth_error_In _ _ Ej).
    - apply (IH i j f g Ei Ej). lia. }
  intros Ei Ej. split; [|apply G; assumption]. intros S. destruct (Nat.lt_trichotomy i j) as [H|[H|H]]; [exact H| |].
  - subst j. assert (f = g) by congruence. subst g. exfalso. apply (sooner_asym f f S S).
  - exfalso. apply (sooner_asym f g S). apply (G j i g f Ej Ei H).
Qed.

Lemma same_index i j f : nth_error fs i = Some f -> nth_error fs j = Some f -> i = j.
Proof using Srt F2 Pl Dj Pm Ord.
  intros Ei Ej. apply (proj1 (NoDup_nth_error fs) fs_nodup); [apply nth_error_Some; congruence|congruence].
Qed.

Lemma all_nodup : NoDup (all_finders ks).
Proof using Srt F2 Pl Dj Pm Ord. eapply Permutation_NoDup; [apply Permutation_sym; exact Pm|apply fs_nodup]. Qed.

Lemma owner k k' f : In k ks -> In k' ks -> In f (finders k) -> In f (finders k') -> k = k'.
Proof using Srt F2 Pl Dj Pm Ord. apply (flat_map_owner finders ks). exact all_nodup. Qed.

Lemma listed k f : In k ks -> In f (finders k) -> exists i, nth_error fs i = Some f.
Proof using Srt F2 Pl Dj Pm Ord. intros Hk Hf. apply In_nth_error. apply (Permutation_in _ Pm). apply in_flat_map. exists k. auto. Qed.

Lemma own_gaps k : In k ks -> let D := (symbol_size (mk_v k) - 7) * mk_m k in exists g h,
  (g = row_finder k /\ h = column_finder k \/ g = column_finder k /\ h = row_finder k) /\
  28 <= D /\ 7 * mk_m k <= 2 * D - 1 /\ gap_x (corner_finder k) g = 2 * D /\ gap_y (corner_finder k) g = 0 /\ gap_x (corner_finder k) h = 0 /\ gap_y (corner_finder k) h = 2 * D.
Proof using Srt F2 Pl Dj Pm Ord Vs.
  intros Hk D. assert (Mk : 2 <= mk_m k).
  { destruct (Pl (corner_finder k)) as [M _]; [apply (Permutation_in _ Pm); apply in_flat_map; exists k; split; [exact Hk|left; reflexivity]|].
    unfold corner_finder in M. destruct (mk_r k) as [|[|[|]]]; exact M. }
  pose proof (Vs k Hk) as Hv. assert (HD : 28 <= D /\ 7 * mk_m k <= 2 * D - 1) by (unfold D, symbol_size; nia).
  unfold corner_finder, row_finder, column_finder, finder_of. fold D. clearbody D. unfold gap_x, gap_y.
  destruct (mk_r k) as [|[|[|]]].
  - eexists _, _. split; [left; split; reflexivity|]. cbn [fst snd]. lia.
  - eexists _, _. split; [right; split; reflexivity|]. cbn [fst snd]. lia.
  - eexists _, _. split; [left; split; reflexivity|]. cbn [fst snd]. lia.
  - eexists _, _. split; [right; split; reflexivity|]. cbn [fst snd]. lia.
Qed.

Context (Orderly : orderly ks).
Context (Works : forall k g, In k ks -> group_for k g -> exists l p', from_group (N := F64) (clone p) g = Ok (Some l, p')).

Let state : Type := list nat * list (triple * group spec_float).
Let step (idx : nat) (s : state) : out state :=
  if used_in (fst s) idx then Ok s
  else let* pairs := find_and_rank_possible_neighbors caps idx in for_each pairs (try_pair p caps idx) s.

(** After the first [t] patterns: those used are the patterns of the symbols whose corner was among them. *)
Definition reached_by (t : nat) (k : mark) : Prop := In k ks /\ exists i, nth_error fs i = Some (corner_finder k) /\ (i < t)%nat.

Record so_far (t : nat) (s : state) : Prop := {
  sf_used : forall j f, nth_error fs j = Some f -> (used_in (fst s) j = true <-> exists k, reached_by t k /\ In f (finders k));
  sf_groups : exists done, Forall2 (fun k e => group_for k (snd e)) done (rev (snd s)) /\ NoDup done /\ (forall k, In k done <-> reached_by t k)
    /\ ForallOrdPairs (fun k k' => sooner_finder (corner_finder k) (corner_finder k')) done
}.

Lemma reached_next t k : reached_by (S t) k <-> reached_by t k \/ (In k ks /\ nth_error fs t = Some (corner_finder k)).
Proof using Srt F2 Pl Dj Pm Ord Orderly Vs Works.
  unfold reached_by. split.
  - intros (Hk & i & Ei & Hi). destruct (Nat.eq_dec i t) as [-> |N]; [right; auto|left]. split; [exact Hk|]. exists i. split; [exact Ei|lia].
  - intros [(Hk & i & Ei & Hi)|(Hk & Ei)]; (split; [exact Hk|]); [exists i; split; [exact Ei|lia]|exists t; split; [exact Ei|lia]].
Qed.

Lemma used_spent t s f j g : so_far t s -> nth_error fs t = Some f -> nth_error fs j = Some g -> (used_in (fst s) j = true <-> spent ks f g).
Proof using Srt F2 Pl Dj Pm Ord Orderly Vs Works.
  intros S Ef Eg. rewrite (sf_used _ _ S j g Eg). unfold spent, reached_by. split.
  - intros (k & (Hk & i & Ei & Hi) & Hg). exists k. split; [exact Hk|]. split; [exact Hg|]. apply (order_index i t _ _ Ei Ef). exact Hi.
  - intros (k & Hk & Hg & So). exists k. split; [|exact Hg]. split; [exact Hk|].
    destruct (listed k (corner_finder k) Hk ltac:(left; reflexivity)) as (i & Ei). exists i. split; [exact Ei|]. apply (order_index i t _ _ Ei Ef). exact So.
Qed.

(** Patterns that are not the corner of a symbol change nothing. *)
Lemma keep_going t s : (forall k, In k ks -> nth_error fs t <> Some (corner_finder k)) -> so_far t s -> so_far (S t) s.
Proof using Srt F2 Pl Dj Pm Ord Orderly Vs Works.
  intros N [U (done & G1 & G2 & G3 & G4)].
  assert (R : forall k, reached_by (S t) k <-> reached_by t k).
  { intros k. rewrite reached_next. split; [intros [H|[Hk H]]; [exact H|exfalso; apply (N k Hk H)]|auto]. }
  constructor.
  - intros j f Ej. rewrite (U j f Ej). split; intros (k & H1 & H2); exists k; (split; [apply R; exact H1|exact H2]).
  - exists done. split; [exact G1|]. split; [exact G2|]. split; [intros k; rewrite R; apply G3|exact G4].
Qed.

Lemma tried_used idx a b (s : state) : used_in (fst s) a || used_in (fst s) b = true -> try_pair p caps idx (a, b) s = Ok s.
Proof using Srt F2 Pl Dj Pm Ord Orderly Vs Works. destruct s as [used groups]. unfold try_pair. cbn [fst]. intros ->. reflexivity. Qed.

Lemma tries_used idx l (s : state) : (forall a b, In (a, b) l -> used_in (fst s) a || used_in (fst s) b = true) -> for_each l (try_pair p caps idx) s = Ok s.
Proof using Srt F2 Pl Dj Pm Ord Orderly Vs Works.
  induction l as [|[a b] l IH]; intros H; [reflexivity|]. cbn [for_each]. rewrite tried_used by (apply H; left; reflexivity). cbn [bind].
  apply IH. intros a' b' Hin. apply H. right. exact Hin.
Qed.

(** Up to the first pair with unused patterns. *)
Lemma first_unused (s : state) (l : list (spec_float * (nat * nat))) :
  (forall e, In e l -> used_in (fst s) (fst (snd e)) || used_in (fst s) (snd (snd e)) = true) \/
  exists l1 e l2, l = l1 ++ e :: l2 /\ used_in (fst s) (fst (snd e)) || used_in (fst s) (snd (snd e)) = false
    /\ forall e', In e' l1 -> used_in (fst s) (fst (snd e')) || used_in (fst s) (snd (snd e')) = true.
Proof using Srt F2 Pl Dj Pm Ord Orderly Vs Works.
  induction l as [|e l IH]; [left; intros e []|].
  destruct (used_in (fst s) (fst (snd e)) || used_in (fst s) (snd (snd e))) eqn:E.
  - destruct IH as [IH|(l1 & e1 & l2 & -> & A & B)]; [left; intros e' [<-|H]; [exact E|apply IH; exact H]|].
    right. exists (e :: l1), e1, l2. split; [reflexivity|]. split; [exact A|]. intros e' [<-|H]; [exact E|apply B; exact H].
  - right. exists [], e, l. split; [reflexivity|]. split; [exact E|intros e' []].
Qed.

Lemma sorted_middle {A} (R : A -> A -> Prop) l1 e l2 x : StronglySorted R (l1 ++ e :: l2) -> In x l2 -> R e x.
Proof using Srt F2 Pl Dj Pm Ord Orderly Vs Works.
  induction l1 as [|y l1 IH]; cbn [app]; intros S; inversion S as [|? ? S' F]; subst; [|apply IH; exact S'].
  rewrite Forall_forall in F. apply F.
Qed.

Lemma unused_pair t s f a b sc : so_far t s -> nth_error fs t = Some f -> used_in (fst s) t = false -> viable caps t a b sc ->
  used_in (fst s) a || used_in (fst s) b = false ->
  exists k ga gb, In k ks /\ f = corner_finder k /\ nth_error fs a = Some ga /\ nth_error fs b = Some gb
    /\ let own x := x = row_finder k \/ x = column_finder k in
       (own ga /\ own gb /\ ga <> gb) \/ (own ga \/ own gb) /\ exists r, near sc r (1 / 10000000) /\ (1 / 26 <= r)%R.
Proof using Srt F2 Pl Dj Pm Ord Orderly Vs Works.
  intros S Ef Ut V Uab. apply orb_false_iff in Uab as [Ua Ub].
  destruct (viable_may fs caps F2 Pl fs_nodup Dj t a b sc f Ef V) as (ga & gb & g & h & o & o' & Ea & Eb & Na & Nb & Hgh & Mp & O1 & O2 & G1 & G2 & Ns).
  assert (All : forall i x, nth_error fs i = Some x -> In x (all_finders ks)) by (intros i x Ex; apply (Permutation_in _ (Permutation_sym Pm)); apply (nth_error_In _ _ Ex)).
  assert (Sp : forall j x, nth_error fs j = Some x -> used_in (fst s) j = false -> ~ spent ks f x).
  { intros j x Ej Uj Q. apply (used_spent t s f j x S Ef Ej) in Q. congruence. }
  assert (Ex : In g (all_finders ks) /\ In h (all_finders ks) /\ g <> f /\ h <> f /\ ~ spent ks f g /\ ~ spent ks f h).
  { pose proof (All _ _ Ea). pose proof (All _ _ Eb). pose proof (Sp _ _ Ea Ua). pose proof (Sp _ _ Eb Ub). destruct Hgh as [[-> -> ]|[-> -> ]]; auto 10. }
  destruct Ex as (X1 & X2 & X3 & X4 & X5 & X6).
  destruct (Orderly f g h (All _ _ Ef) X1 X2 X3 X4 (Sp _ _ Ef Ut) X5 X6 Mp) as (k & Hk & Ec & Own). exists k, ga, gb.
  do 4 (split; [assumption|]). cbv zeta in Own |- *. destruct Own as [[O3 O4]|[O3 Ls]].
  - left. assert (Ngh : g <> h).
    { intros ->. unfold may_pair in Mp. lia. }
    destruct Hgh as [[-> -> ]|[-> -> ]]; auto.
  - right. split; [destruct Hgh as [[-> -> ]|[-> -> ]]; tauto|]. exists (skew o o'). split; [exact Ns|].
    apply (less_square_skew fs caps F2 Pl fs_nodup Dj f g h o o'); lia || assumption.
Qed.

Lemma used_in_app u u' j : used_in (u ++ u') j = used_in u j || used_in u' j.
Proof using Srt F2 Pl Dj Pm Ord Orderly Vs Works. unfold used_in. apply existsb_app. Qed.

Lemma used_three a b c j : used_in [a; b; c] j = true <-> j = a \/ j = b \/ j = c.
Proof using Srt F2 Pl Dj Pm Ord Orderly Vs Works. rewrite used_in_spec. cbn [In]. intuition congruence. Qed.

(** The patterns of a symbol whose corner comes now are still unused. *)
Lemma own_unused t s k j g : so_far t s -> In k ks -> nth_error fs t = Some (corner_finder k) -> In g (finders k) -> nth_error fs j = Some g -> used_in (fst s) j = false.
Proof using Srt F2 Pl Dj Pm Ord Orderly Vs Works.
  intros S Hk Et Hg Ej. destruct (used_in (fst s) j) eqn:U; [|reflexivity]. exfalso. apply (sf_used _ _ S j g Ej) in U as (k' & (Hk' & i & Ei & Hi) & Hg').
  assert (k' = k) by (apply (owner k' k g); assumption). subst k'. rewrite (same_index i t _ Ei Et) in Hi. lia.
Qed.

(** The pair of the symbol is among those that can be tried. *)
Lemma own_pair t s k : so_far t s -> In k ks -> nth_error fs t = Some (corner_finder k) ->
  exists a b sc r, viable caps t a b sc /\ used_in (fst s) a || used_in (fst s) b = false /\ near sc r (1 / 10000000) /\ (r <= 2 / 57)%R.
Proof using Srt F2 Pl Dj Pm Ord Orderly Vs Works.
  intros S Hk Et. destruct (own_gaps k Hk) as (g & h & Hgh & HD & Hm & X1 & Y1 & X2 & Y2).
  assert (Hg : In g (finders k)) by (destruct Hgh as [[-> -> ]|[-> -> ]]; cbn [finders In]; auto). assert (Hh : In h (finders k)) by (destruct Hgh as [[-> -> ]|[-> -> ]]; cbn [finders In]; auto).
  destruct (listed k g Hk Hg) as (i & Ei). destruct (listed k h Hk Hh) as (j & Ej).
  assert (Fm : fst (corner_finder k) = mk_m k) by (unfold corner_finder; destruct (mk_r k) as [|[|[|]]]; reflexivity).
  destruct (viable_own fs caps F2 Pl fs_nodup Dj t i j _ _ _ _ Et Ei Ej HD ltac:(rewrite Fm; exact Hm) X1 Y1 X2 Y2) as (a & b & sc & r & Hab & V & Ns & Hr).
  exists a, b, sc, r. split; [exact V|]. split; [|split; assumption].
  pose proof (own_unused t s k i g S Hk Et Hg Ei) as U1. pose proof (own_unused t s k j h S Hk Et Hh Ej) as U2.
  destruct Hab as [[-> -> ]|[-> -> ]]; rewrite U1, U2; reflexivity.
Qed.

Lemma step_ok t s : (t < length fs)%nat -> so_far t s -> exists s', step t s = Ok s' /\ so_far (S t) s'.
Proof using Srt F2 Pl Dj Pm Ord Orderly Vs Works.
  intros Ht Sf. destruct (nth_error fs t) as [f|] eqn:Ef; [|apply nth_error_None in Ef; lia]. unfold step.
  destruct (used_in (fst s) t) eqn:Ut.
  { exists s. split; [reflexivity|]. apply keep_going; [|exact Sf]. intros k Hk Ek.
    rewrite (own_unused t s k t (corner_finder k) Sf Hk Ek ltac:(left; reflexivity) Ek) in Ut. discriminate. }
  destruct (Forall2_nth' _ _ _ _ _ F2 Ef) as (ci & Ci & Qi).
  destruct (rank_f64 caps t ltac:(apply nth_error_Some; congruence)) as (ranked & -> & So & R). cbn [bind].
  assert (St : StronglySorted no_more ranked).
  { apply ranked_sorted; [exact So|]. intros [sc [a b]] He. apply R in He.
    destruct (viable_may fs caps F2 Pl fs_nodup Dj t a b sc f Ef He) as (ga & gb & g & h & o & o' & _ & _ & _ & _ & _ & _ & _ & _ & _ & _ & (r & Hr & _)). exists r. exact Hr. }
  destruct (first_unused s ranked) as [All|(l1 & [sc [a b]] & l2 & -> & Ue & U1)].
  - exists s. split.
    + apply tries_used. intros a b H. apply in_map_iff in H as (e & Ee & He). specialize (All e He). rewrite Ee in All. exact All.
    + apply keep_going; [|exact Sf]. intros k Hk Ek. destruct (own_pair t s k Sf Hk Ek) as (a & b & sc & r & V & U & _).
      apply R in V. apply All in V. cbn [fst snd] in V. congruence.
  - cbn [fst snd] in Ue.
    assert (V : viable caps t a b sc) by (apply R; apply in_app_iff; right; left; reflexivity).
    destruct (unused_pair t s f a b sc Sf Ef Ut V Ue) as (k & ga & gb & Hk & Ec & Ea & Eb & Own). cbv zeta in Own.
    assert (Ek : nth_error fs t = Some (corner_finder k)) by congruence.
    assert (Both : (ga = row_finder k \/ ga = column_finder k) /\ (gb = row_finder k \/ gb = column_finder k) /\ ga <> gb).
    { destruct Own as [Own|[_ (r & Nr & Hr)]]; [exact Own|]. exfalso.
      destruct (own_pair t s k Sf Hk Ek) as (a0 & b0 & sc0 & r0 & V0 & U0 & (z0 & Z0 & A0) & H0). destruct Nr as (z & Z1 & A1).
      assert (Lt : (z0 < z)%R) by (apply Rabs_le_inv in A0, A1; lra).
      apply R in V0. apply in_app_iff in V0 as [V0|[V0|V0]].
      - apply U1 in V0. cbn [fst snd] in V0. congruence.
      - injection V0 as -> -> ->. rewrite (rep_fun _ _ _ Z0 Z1) in Lt. lra.
      - destruct (sorted_middle _ _ _ _ _ St V0) as (z' & z0' & Z' & Z0' & Le). cbn [fst] in Z', Z0'.
        rewrite (rep_fun _ _ _ Z' Z1), (rep_fun _ _ _ Z0' Z0) in Le. lra. }
    destruct (Forall2_nth' _ _ _ _ _ F2 Ea) as (ca & Ca & Qa). destruct (Forall2_nth' _ _ _ _ _ F2 Eb) as (cb & Cb & Qb).
    assert (Gf : group_for k (MkGroup ca ci cb)).
    { subst f. destruct Both as ([-> | -> ] & [-> | -> ] & N); try congruence.
      - exists ci, ca, cb. auto.
      - exists ci, cb, ca. auto. }
    assert (Fin : forall g, In g (finders k) <-> g = corner_finder k \/ g = ga \/ g = gb).
    { intros g. cbn [finders In]. destruct Both as ([-> | -> ] & [-> | -> ] & N); try congruence; intuition congruence. }
    set (s' := (fst s ++ [a; t; b], ((a, t, b), MkGroup ca ci cb) :: snd s) : state).
    exists s'. split.
    + rewrite map_app, for_each_app. rewrite tries_used.
      2: { intros x y H. apply in_map_iff in H as (e & Ee & He). specialize (U1 e He). rewrite Ee in U1. exact U1. }
      cbn [bind map for_each snd].
      replace (try_pair p caps t (a, b) s) with (@Ok Empty_set state s').
      2: { unfold try_pair, s'. destruct s as [used groups]. cbn [fst snd] in *. rewrite Ue. rewrite (aget_some _ _ _ Ca), (aget_some _ _ _ Ci), (aget_some _ _ _ Cb). cbn [bind].
           destruct (Works k _ Hk Gf) as (l0 & p' & ->). reflexivity. }
      cbn [bind]. apply tries_used. intros x y H. apply in_map_iff in H as ([sc' [x' y']] & Ee & He). cbn [snd] in Ee. injection Ee as -> ->.
      unfold s'. cbn [fst]. rewrite !used_in_app.
      destruct (used_in (fst s) x || used_in (fst s) y) eqn:Uxy.
      { apply orb_true_iff in Uxy as [-> | -> ]; rewrite ?orb_true_r; reflexivity. }
      assert (V' : viable caps t x y sc') by (apply R; apply in_app_iff; right; right; exact He).
      destruct (unused_pair t s f x y sc' Sf Ef Ut V' Uxy) as (k' & gx & gy & Hk' & Ec' & Ex & Ey & Own'). cbv zeta in Own'.
      assert (k' = k) by (apply (owner k' k f); [assumption|assumption|rewrite Ec'; left; reflexivity|rewrite Ec; left; reflexivity]). subst k'.
      assert (In3 : forall z gz, nth_error fs z = Some gz -> (gz = row_finder k \/ gz = column_finder k) -> used_in [a; t; b] z = true).
      { intros z gz Ez Hz. apply used_three. assert (G : In gz (finders k)) by (destruct Hz as [-> | -> ]; [right; left|right; right; left]; reflexivity). apply Fin in G as [G|[G|G]]; subst gz.
        - right; left. apply (same_index z t _ Ez Ek).
        - left. apply (same_index z a _ Ez Ea).
        - right; right. apply (same_index z b _ Ez Eb). }
      assert (Ox : (gx = row_finder k \/ gx = column_finder k) \/ (gy = row_finder k \/ gy = column_finder k)) by tauto.
      destruct Ox as [Ox|Ox]; [rewrite (In3 x gx Ex Ox)|rewrite (In3 y gy Ey Ox)]; rewrite ?orb_true_r; reflexivity.
    + destruct Sf as [U (done & G1 & G2 & G3 & G4)]. constructor.
      * intros j g Ej. unfold s'. cbn [fst]. rewrite used_in_app, orb_true_iff, used_three, (U j g Ej). split.
        -- intros [(k' & H1 & H2)|H].
           ++ exists k'. split; [apply reached_next; left; exact H1|exact H2].
           ++ exists k. split; [apply reached_next; right; auto|]. apply Fin. destruct H as [-> |[-> | -> ]]; [right; left|left|right; right]; congruence.
        -- intros (k' & H1 & H2). apply reached_next in H1 as [H1|[Hk' H1]]; [left; exists k'; auto|]. right.
           assert (k' = k) by (apply (owner k' k f); [assumption|assumption|left; congruence|rewrite Ec; left; reflexivity]). subst k'.
           apply Fin in H2 as [-> |[-> | -> ]]; [right; left|left|right; right]; eapply same_index; eassumption.
      * exists (done ++ [k]). unfold s'. cbn [snd rev].
        assert (Nk : ~ In k done).
        { intros H. apply G3 in H as (_ & i & Ei & Hi). rewrite (same_index i t _ Ei Ek) in Hi. lia. }
        split; [apply Forall2_app; [exact G1|constructor; [exact Gf|constructor]]|]. split.
        { apply nodup_snoc; assumption. }
        split.
        { intros k'. rewrite in_app_iff, reached_next, G3. cbn [In]. split.
          - intros [H|[<-|[]]]; [left; exact H|right; auto].
          - intros [H|[Hk' H]]; [left; exact H|right; left]. apply (owner k k' f); [assumption|assumption|rewrite Ec; left; reflexivity|left; congruence]. }
        assert (So' : forall k', In k' done -> sooner_finder (corner_finder k') (corner_finder k)).
        { intros k' H. apply G3 in H as (_ & i & Ei & Hi). apply (order_index i t _ _ Ei Ek). exact Hi. }
        clear - G4 So'. induction G4 as [|k' done A O IH]; cbn [app]; [repeat constructor|]. constructor.
        -- apply Forall_app. split; [exact A|]. constructor; [apply So'; left; reflexivity|constructor].
        -- apply IH. intros k2 H. apply So'. right. exact H.
Qed.

Theorem groups_sheet : exists done groups, find_groupings (N := F64) p caps = Ok groups /\ Permutation ks done /\ Forall2 group_for done groups
  /\ ForallOrdPairs (fun k k' => sooner_finder (corner_finder k) (corner_finder k')) done.
Proof using Srt F2 Pl Dj Pm Ord Orderly Vs Works.
  assert (Len : length caps = length fs) by (symmetry; apply (Forall2_len _ _ _ _ _ F2)).
  assert (G : forall t, (t <= length fs)%nat -> exists s, for_each (range 0 t) step ([], []) = Ok s /\ so_far t s).
  { induction t as [|t IH]; intros Ht.
    - exists ([], []). split; [reflexivity|]. constructor.
      + intros j f _. cbn. split; [discriminate|]. intros (k & (_ & i & _ & Hi) & _). lia.
      + exists []. cbn. split; [constructor|]. split; [constructor|]. split; [|constructor]. intros k. split; [intros []|]. intros (_ & i & _ & Hi). lia.
    - destruct (IH ltac:(lia)) as (s & Es & Ss). rewrite range_snoc by lia. rewrite for_each_app, Es. cbn [bind for_each].
      destruct (step_ok t s ltac:(lia) Ss) as (s' & Es' & Ss'). rewrite Es'. exists s'. split; [reflexivity|exact Ss']. }
  destruct (G (length fs) (Nat.le_refl _)) as (s & Es & [_ (done & G1 & G2 & G3 & G4)]).
  exists done, (map snd (rev (snd s))). split.
  - unfold find_groupings, find_groupings_indexed. rewrite Len.
    apply (f_equal (fun r => bind (bind r (fun t => Ok (rev (snd t)))) (fun l => Ok (map snd l)))) in Es. exact Es.
  - split.
    + apply NoDup_Permutation; [apply (flat_map_nodup finders); [intros k; discriminate|exact all_nodup]|exact G2|].
      intros k. rewrite G3. split; [|intros [H _]; exact H]. intros Hk. split; [exact Hk|].
      destruct (listed k (corner_finder k) Hk ltac:(left; reflexivity)) as (i & Ei). exists i. split; [exact Ei|]. apply nth_error_Some. congruence.
    + split; [|exact G4]. clear - G1. induction G1; cbn [map]; constructor; assumption.
Qed.
End Groups.

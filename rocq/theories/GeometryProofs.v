(** Geometry: perspective transforms in exact arithmetic, line intersection, Bresenham (C38-C40, C49). *)
From Coq Require Import QArith Qround Qfield Qabs ZifyBool ZifyNat.
From Verif Require Import Base Lib ModelImage ModelGeometry SpecGeometry.
Open Scope Z_scope.
Set Bullet Behavior "Strict Subproofs".

Lemma i32_ok z : i32_min <= z <= i32_max -> i32 z = Ok z.
Proof. intros H. unfold i32. replace (i32_min <=? z) with true by lia. replace (z <=? i32_max) with true by lia. reflexivity. Qed.

Lemma i32_inv z r : i32 z = Ok r -> r = z /\ i32_min <= z <= i32_max.
Proof. unfold i32. destruct ((i32_min <=? z) && (z <=? i32_max)) eqn:E; [|discriminate]. intros X. injection X as <-. lia. Qed.

(** The exact value of an expression. *)
Fixpoint iexact (e : iexp) : Z :=
  match e with
  | IZ z => z | IAdd a b => iexact a + iexact b | ISub a b => iexact a - iexact b
  | IMul a b => iexact a * iexact b | INeg a => - iexact a
  end.

Lemma ival_inv e r : ival e = Ok r -> r = iexact e.
Proof.
  revert r. induction e as [z|a IHa b IHb|a IHa b IHb|a IHa b IHb|a IHa]; cbn [ival iexact]; intros r H.
  - injection H as <-. reflexivity.
  - destruct (ival a); try discriminate. cbn [bind] in H. destruct (ival b); try discriminate. cbn [bind] in H.
    apply i32_inv in H. destruct H as [-> _]. rewrite (IHa _ eq_refl), (IHb _ eq_refl). reflexivity.
  - destruct (ival a); try discriminate. cbn [bind] in H. destruct (ival b); try discriminate. cbn [bind] in H.
    apply i32_inv in H. destruct H as [-> _]. rewrite (IHa _ eq_refl), (IHb _ eq_refl). reflexivity.
  - destruct (ival a); try discriminate. cbn [bind] in H. destruct (ival b); try discriminate. cbn [bind] in H.
    apply i32_inv in H. destruct H as [-> _]. rewrite (IHa _ eq_refl), (IHb _ eq_refl). reflexivity.
  - destruct (ival a); try discriminate. cbn [bind] in H. apply i32_inv in H. destruct H as [-> _]. rewrite (IHa _ eq_refl). reflexivity.
Qed.

(** No intermediate value of magnitude above [m]. *)
Fixpoint ibound (e : iexp) (m : Z) : Prop :=
  match e with
  | IZ z => True
  | IAdd a b | ISub a b | IMul a b => ibound a m /\ ibound b m /\ - m <= iexact e <= m
  | INeg a => ibound a m /\ - m <= iexact e <= m
  end.

Lemma ival_exact e m : m <= i32_max -> ibound e m -> ival e = Ok (iexact e).
Proof.
  intros Hm. unfold i32_max in Hm. induction e as [z|a IHa b IHb|a IHa b IHb|a IHa b IHb|a IHa]; cbn [ival ibound].
  - reflexivity.
  - intros (A & B & C). rewrite (IHa A), (IHb B). cbn [bind]. apply i32_ok. unfold i32_min, i32_max. cbn [iexact] in *. lia.
  - intros (A & B & C). rewrite (IHa A), (IHb B). cbn [bind]. apply i32_ok. unfold i32_min, i32_max. cbn [iexact] in *. lia.
  - intros (A & B & C). rewrite (IHa A), (IHb B). cbn [bind]. apply i32_ok. unfold i32_min, i32_max. cbn [iexact] in *. lia.
  - intros (A & C). rewrite (IHa A). cbn [bind]. apply i32_ok. unfold i32_min, i32_max. cbn [iexact] in *. lia.
Qed.

(** * Line intersection *)

(** Numerators and denominator of the intersection. *)
Definition meet_n (p0 p1 q0 q1 : point) : Z :=
  (px p1 - px p0) * (py q1 - py q0) - (py p1 - py p0) * (px q1 - px q0).
Definition meet_x (p0 p1 q0 q1 : point) : Z :=
  (px q1 - px q0) * ((px p1 - px p0) * py p1 - (py p1 - py p0) * px p1)
  - (px p1 - px p0) * ((px q1 - px q0) * py q1 - (py q1 - py q0) * px q1).
Definition meet_y (p0 p1 q0 q1 : point) : Z :=
  (py q1 - py q0) * ((px p1 - px p0) * py p1 - (py p1 - py p0) * px p1)
  - (py p1 - py p0) * ((px q1 - px q0) * py q1 - (py q1 - py q0) * px q1).

Ltac step H x := let E := fresh "E" in
  match type of H with bind ?m _ = _ => destruct m as [x| | |] eqn:E; try discriminate H end; cbn [bind] in H.

Lemma idiv_inv a b r : idiv a b = Ok r -> b <> 0 /\ r = Z.quot a b.
Proof. unfold idiv. destruct (b =? 0) eqn:E; [discriminate|]. intros H. apply i32_inv in H. lia. Qed.

Theorem line_intersect_exact p0 p1 q0 q1 o : line_intersect p0 p1 q0 q1 = Ok o ->
  let n := meet_n p0 p1 q0 q1 in
  (o = None <-> n = 0) /\
  forall r, o = Some r ->
    exists x y, on_line x y n (px p0) (py p0) (px p1) (py p1) /\ on_line x y n (px q0) (py q0) (px q1) (py q1)
      /\ px r = Z.quot x n /\ py r = Z.quot y n.
Proof.
  intros H n. unfold line_intersect in H.
  step H a. step H b. step H c. step H d. step H e. step H f. step H det.
  apply ival_inv in E, E0, E1, E2, E3, E4, E5. cbn [iexact] in *.
  assert (Hd : det = n) by (unfold n, meet_n; subst; ring).
  destruct (det =? 0) eqn:Z0.
  - injection H as <-. split; [split; [intros _; lia|reflexivity]|discriminate].
  - step H nx. step H x. step H ny. step H y. injection H as <-.
    apply ival_inv in E6, E8. apply idiv_inv in E7, E9. cbn [iexact] in *.
    split; [split; [discriminate|lia]|]. intros r Hr. injection Hr as <-. cbn [px py].
    exists nx, ny. rewrite <- Hd. destruct E7 as [_ E7], E9 as [_ E9].
    assert (X : det = a * d - b * c) by assumption.
    split; [unfold on_line; rewrite X; subst e f nx ny; clear - E E0 E1 E2; subst a b c d; ring|].
    split; [unfold on_line; rewrite X; subst e f nx ny; clear - E E0 E1 E2; subst a b c d; ring|].
    split; congruence.
Qed.

Lemma prod3 a b c A B C : 0 <= A -> 0 <= B -> - A <= a <= A -> - B <= b <= B -> A * B <= C -> c = a * b -> - C <= c <= C.
Proof. intros. nia. Qed.

Ltac small := cbn [ibound iexact]; unfold i32_max; repeat split; lia.

(** The pixels of a picture of at most 1024 x 1024 never overflow. *)
Theorem line_intersect_pixels p0 p1 q0 q1 :
  (forall p, In p [p0; p1; q0; q1] -> 0 <= px p <= 1023 /\ 0 <= py p <= 1023) ->
  exists o, line_intersect p0 p1 q0 q1 = Ok o.
Proof.
  intros H.
  destruct (H p0) as [A1 A2]; [cbn; tauto|]. destruct (H p1) as [B1 B2]; [cbn; tauto|].
  destruct (H q0) as [C1 C2]; [cbn; tauto|]. destruct (H q1) as [D1 D2]; [cbn; tauto|]. clear H.
  unfold line_intersect.
  rewrite (ival_exact (- (py p1 - py p0))%iexp 1023) by small. cbn [iexact bind].
  rewrite (ival_exact (px p1 - px p0)%iexp 1023) by small. cbn [iexact bind].
  rewrite (ival_exact (- (py q1 - py q0))%iexp 1023) by small. cbn [iexact bind].
  rewrite (ival_exact (px q1 - px q0)%iexp 1023) by small. cbn [iexact bind].
  assert (P : forall u v M N, 0 <= M -> 0 <= N -> - M <= u <= M -> - N <= v <= N -> - (M * N) <= u * v <= M * N) by (intros; nia).
  assert (P' : forall u v M, 0 <= u <= M -> 0 <= v <= M -> 0 <= u * v <= M * M) by (intros; nia).
  assert (Ee : - (py p1 - py p0) * px p1 + (px p1 - px p0) * py p1 = py p0 * px p1 - px p0 * py p1) by ring.
  assert (Ef : - (py q1 - py q0) * px q1 + (px q1 - px q0) * py q1 = py q0 * px q1 - px q0 * py q1) by ring.
  pose proof (P' (py p0) (px p1) 1023 ltac:(lia) ltac:(lia)). pose proof (P' (px p0) (py p1) 1023 ltac:(lia) ltac:(lia)).
  pose proof (P' (py q0) (px q1) 1023 ltac:(lia) ltac:(lia)). pose proof (P' (px q0) (py q1) 1023 ltac:(lia) ltac:(lia)).
  set (a := - (py p1 - py p0)). set (b := px p1 - px p0). set (c := - (py q1 - py q0)). set (d := px q1 - px q0).
  assert (- 1023 <= a <= 1023) by (unfold a; lia). assert (- 1023 <= b <= 1023) by (unfold b; lia).
  assert (- 1023 <= c <= 1023) by (unfold c; lia). assert (- 1023 <= d <= 1023) by (unfold d; lia). fold a b in Ee. fold c d in Ef. clearbody a b c d.
  pose proof (P a (px p1) 1023 1023 ltac:(lia) ltac:(lia) ltac:(lia) ltac:(lia)). pose proof (P b (py p1) 1023 1023 ltac:(lia) ltac:(lia) ltac:(lia) ltac:(lia)).
  pose proof (P c (px q1) 1023 1023 ltac:(lia) ltac:(lia) ltac:(lia) ltac:(lia)). pose proof (P d (py q1) 1023 1023 ltac:(lia) ltac:(lia) ltac:(lia) ltac:(lia)).
  pose proof (P a d 1023 1023 ltac:(lia) ltac:(lia) ltac:(lia) ltac:(lia)). pose proof (P b c 1023 1023 ltac:(lia) ltac:(lia) ltac:(lia) ltac:(lia)).
  rewrite (ival_exact (a * px p1 + b * py p1)%iexp 2100000) by small. cbn [iexact bind].
  rewrite (ival_exact (c * px q1 + d * py q1)%iexp 2100000) by small. cbn [iexact bind].
  rewrite (ival_exact (a * d - b * c)%iexp 4000000) by small. cbn [iexact bind].
  set (e := a * px p1 + b * py p1) in *. set (f := c * px q1 + d * py q1) in *.
  assert (He : - 1046529 <= e <= 1046529) by (clear - Ee H H0; lia). assert (Hf : - 1046529 <= f <= 1046529) by (clear - Ef H1 H2; lia). clearbody e f.
  destruct (a * d - b * c =? 0) eqn:Z0; [eexists; reflexivity|].
  pose proof (P d e 1023 1046529 ltac:(lia) ltac:(lia) ltac:(lia) ltac:(lia)). pose proof (P b f 1023 1046529 ltac:(lia) ltac:(lia) ltac:(lia) ltac:(lia)).
  pose proof (P (- c) e 1023 1046529 ltac:(lia) ltac:(lia) ltac:(lia) ltac:(lia)). pose proof (P a f 1023 1046529 ltac:(lia) ltac:(lia) ltac:(lia) ltac:(lia)).
  rewrite (ival_exact (d * e - b * f)%iexp 2147483647) by small. cbn [iexact bind].
  assert (Q : forall n m, - 2147483647 <= n <= 2147483647 -> m <> 0 -> idiv n m = Ok (Z.quot n m)).
  { intros n m Hn Hm. unfold idiv. replace (m =? 0) with false by lia. apply i32_ok.
    assert (H17 : 0 <= Z.abs n ÷ Z.abs m <= Z.abs n).
    { split; [apply Z.quot_pos; lia|]. rewrite Z.quot_div_nonneg by lia. apply Z.div_le_upper_bound; [lia|].
      rewrite <- (Z.mul_1_l (Z.abs n)) at 1. apply Z.mul_le_mono_nonneg_r; lia. }
    rewrite (Z.quot_abs n m Hm) in *. set (q := n ÷ m) in *. clearbody q. clear - Hn H17. unfold i32_min, i32_max. lia. }
  rewrite Q by lia. cbn [bind].
  rewrite (ival_exact (- c * e + a * f)%iexp 2147483647) by small. cbn [iexact bind].
  rewrite Q by lia. cbn [bind]. eexists. reflexivity.
Qed.

(** * Bresenham's algorithm *)

(** The state before the [i]-th point. *)
Definition bres_at (fx fy : Z) (xdom : bool) (ds ns d n i : Z) (b : bresenham) : Prop :=
  exists k, b_dom_step b = ds /\ b_non_step b = ns /\ b_d b = d /\ b_n b = n /\ b_xdom b = xdom /\ b_i b = i
    /\ b_a b = n + i * n - d * k
    /\ (n < d -> 0 <= b_a b < d) /\ (n = d -> k = i)
    /\ (b_x b, b_y b) = if xdom then (fx + ds * i, fy + ns * k) else (fx + ns * k, fy + ds * i).

Definition bres_point (fx fy : Z) (xdom : bool) (ds ns d n i : Z) : point :=
  let k := if n =? d then i else (i + 1) * n / d in
  if xdom then MkPoint (fx + ds * i) (fy + ns * k) else MkPoint (fx + ns * k) (fy + ds * i).

Lemma bres_next_ok fx fy xdom ds ns d n i b :
  Z.abs fx < 2 ^ 29 -> Z.abs fy < 2 ^ 29 -> Z.abs ds = 1 -> Z.abs ns = 1 -> 0 <= n <= d -> d < 2 ^ 30 -> 0 <= i <= d ->
  bres_at fx fy xdom ds ns d n i b ->
  exists b', bres_next b = Ok (Some (bres_point fx fy xdom ds ns d n i, b')) /\ bres_at fx fy xdom ds ns d n (i + 1) b'.
Proof.
  intros Bx By Hds Hns Hn Hd Hi (k & E1 & E2 & E3 & E4 & E5 & E6 & E7 & E8 & E9 & E10).
  destruct b as [bx by_ bds bns bi bd bn ba bxd]. cbn [b_x b_y b_dom_step b_non_step b_i b_d b_n b_a b_xdom] in *. subst bds bns bd bn bxd bi.
  assert (Ka : 0 <= ba <= d).
  { destruct (Z.eq_dec n d) as [->|Nd]; [rewrite (E9 eq_refl) in E7; lia|specialize (E8 ltac:(lia)); lia]. }
  assert (Kk : 0 <= k <= i /\ (n < d -> k = (i + 1) * n / d)).
  { destruct (Z.eq_dec n d) as [->|Nd]; [rewrite (E9 eq_refl); lia|]. specialize (E8 ltac:(lia)).
    assert (k = (i + 1) * n / d) by (apply Z.div_unique with ba; [left; lia|lia]). split; [|intros _; assumption].
    split; [nia|]. assert (k < i + 1); [|lia]. subst k. apply Z.div_lt_upper_bound; nia. }
  destruct Kk as [Kk Kv].
  assert (Pt : MkPoint bx by_ = bres_point fx fy xdom ds ns d n i).
  { unfold bres_point. destruct (Z.eqb_spec n d) as [->|Nd].
    - rewrite (E9 eq_refl) in E10. destruct xdom; injection E10 as -> ->; reflexivity.
    - rewrite (Kv ltac:(lia)) in E10. destruct xdom; injection E10 as -> ->; reflexivity. }
  assert (Dom : forall f : Z, Z.abs f < 2 ^ 29 -> ival ((f + ds * i)%Z + ds)%iexp = Ok (f + ds * i + ds)).
  { intros f Hf. clear - Hf Hds Hi Hd. rewrite (ival_exact _ i32_max); [reflexivity|lia|]. cbn [ibound iexact]. unfold i32_max.
    assert (ds = 1 \/ ds = -1) as [-> | -> ] by lia; repeat split; lia. }
  assert (Non : forall f : Z, Z.abs f < 2 ^ 29 -> ival ((f + ns * k)%Z + ns)%iexp = Ok (f + ns * k + ns)).
  { intros f Hf. clear - Hf Hns Kk Hi Hd. rewrite (ival_exact _ i32_max); [reflexivity|lia|]. cbn [ibound iexact]. unfold i32_max.
    assert (ns = 1 \/ ns = -1) as [-> | -> ] by lia; repeat split; lia. }
  assert (A1 : ival (ba + n)%iexp = Ok (ba + n)).
  { clear - Ka Hn Hd. rewrite (ival_exact _ i32_max); [reflexivity|lia|]. small. }
  assert (A2 : d <= ba + n -> ival ((ba + n)%Z - d)%iexp = Ok (ba + n - d)).
  { intros Ld. rewrite (ival_exact _ i32_max); [reflexivity|lia|]. clear - Ka Hn Hd Ld. small. }
  assert (I1 : ival (i + 1)%iexp = Ok (i + 1)).
  { rewrite (ival_exact _ i32_max); [reflexivity|lia|]. clear - Hi Hd. small. }
  set (k' := if d <=? ba + n then k + 1 else k).
  exists (MkBres (if xdom then fx + ds * (i + 1) else fx + ns * k') (if xdom then fy + ns * k' else fy + ds * (i + 1)) ds ns (i + 1) d n
            (n + (i + 1) * n - d * k') xdom).
  split.
  - unfold bres_next. cbn [b_x b_y b_dom_step b_non_step b_i b_d b_n b_a b_xdom]. replace (d <? i) with false by lia.
    rewrite A1. cbn [bind]. rewrite Pt. subst k'.
    destruct xdom; injection E10 as -> ->; rewrite ?(Dom _ Bx), ?(Dom _ By); cbn [bind]; destruct (d <=? ba + n) eqn:Ed;
      rewrite ?(Non _ Bx), ?(Non _ By); cbn [bind]; rewrite ?A2 by lia; cbn [bind]; rewrite I1; cbn [bind]; do 3 f_equal; f_equal; rewrite ?E7; ring.
  - exists k'. cbn [b_x b_y b_dom_step b_non_step b_i b_d b_n b_a b_xdom]. do 7 (split; [reflexivity|]). split; [|split].
    + intros L. specialize (E8 L). unfold k'. destruct (d <=? ba + n) eqn:Ed; lia.
    + intros ->. specialize (E9 eq_refl). assert (Ba : ba = d) by (rewrite E7, E9; ring). clear E7. unfold k'.
      replace (d <=? ba + d) with true by lia. lia.
    + destruct xdom; reflexivity.
Qed.

Lemma bres_collect_ok fx fy xdom ds ns d n :
  Z.abs fx < 2 ^ 29 -> Z.abs fy < 2 ^ 29 -> Z.abs ds = 1 -> Z.abs ns = 1 -> 0 <= n <= d -> d < 2 ^ 30 ->
  forall m fuel b i, 0 <= i -> i + Z.of_nat m = d + 1 -> (m < fuel)%nat -> bres_at fx fy xdom ds ns d n i b ->
  bres_collect fuel b = Ok (map (bres_point fx fy xdom ds ns d n) (zrange i (d + 1))).
Proof.
  intros Bx By Hds Hns Hn Hd. induction m as [|m IH]; intros fuel b i Hi Hm Hf B.
  - destruct B as (k & E1 & E2 & E3 & E4 & E5 & E6 & _).
    destruct fuel as [|fuel]; [lia|]. cbn [bres_collect]. unfold bres_next. rewrite E3, E6. replace (d <? i) with true by lia. cbn [bind].
    rewrite zrange_nil by lia. reflexivity.
  - destruct fuel as [|fuel]; [lia|]. cbn [bres_collect].
    destruct (bres_next_ok fx fy xdom ds ns d n i b Bx By Hds Hns Hn Hd ltac:(lia) B) as (b' & E & B').
    rewrite E. cbn [bind]. rewrite (IH fuel b' (i + 1)) by (lia || assumption). cbn [bind].
    rewrite (@zrange_cons i) by lia. reflexivity.
Qed.

(** All points of the scan. *)
Theorem bres_points_ok p q :
  Z.abs (px p) < 2 ^ 29 -> Z.abs (py p) < 2 ^ 29 -> Z.abs (px q) < 2 ^ 29 -> Z.abs (py q) < 2 ^ 29 ->
  exists xdom ds ns d n,
    bres_points p q = Ok (map (bres_point (px p) (py p) xdom ds ns d n) (zrange 0 (d + 1)))
    /\ Z.abs ds = 1 /\ Z.abs ns = 1 /\ 0 <= n <= d
    /\ (xdom = true <-> Z.abs (py q - py p) < Z.abs (px q - px p))
    /\ (if xdom then px q - px p = ds * d /\ py q - py p = ns * n else px q - px p = ns * n /\ py q - py p = ds * d)
    /\ (xdom = true -> n < d).
Proof.
  intros Hpx Hpy Hqx Hqy. unfold bres_points, bres_new.
  rewrite (ival_exact (px q - px p)%iexp i32_max) by small. cbn [bind iexact].
  rewrite (ival_exact (py q - py p)%iexp i32_max) by small. cbn [bind iexact].
  set (dx := px q - px p). set (dy := py q - py p).
  assert (Dx : Z.abs dx < 2 ^ 30) by (unfold dx; lia). assert (Dy : Z.abs dy < 2 ^ 30) by (unfold dy; lia). clearbody dx dy.
  unfold iabs. rewrite !i32_ok by (unfold i32_min, i32_max; lia). cbn [bind].
  assert (Neg : forall z, Z.abs z < 2 ^ 30 ->
    (if z <? 0 then let* m := ival (- z)%iexp in Ok (m, -1) else Ok (z, 1)) = Ok (Z.abs z, if z <? 0 then -1 else 1) :> out (Z * Z)).
  { intros z Hz. destruct (z <? 0) eqn:E.
    - rewrite (ival_exact (- z)%iexp i32_max) by small. cbn [bind iexact]. do 2 f_equal. lia.
    - do 2 f_equal. lia. }
  assert (Sg : forall z, z = (if z <? 0 then -1 else 1) * Z.abs z) by (intros z; destruct (Z.ltb_spec z 0); lia).
  assert (S1 : forall z, Z.abs (if z <? 0 then -1 else 1) = 1) by (intros z; destruct (z <? 0); reflexivity).
  assert (Fin : forall xdom ds ns d n, Z.abs ds = 1 -> Z.abs ns = 1 -> 0 <= n <= d -> d < 2 ^ 30 ->
     bres_collect (Z.to_nat (b_d (MkBres (px p) (py p) ds ns 0 d n n xdom) + 2)) (MkBres (px p) (py p) ds ns 0 d n n xdom)
     = Ok (map (bres_point (px p) (py p) xdom ds ns d n) (zrange 0 (d + 1)))).
  { intros xdom ds ns d n H1 H2 H3 H4. cbn [b_d]. apply (bres_collect_ok _ _ xdom ds ns d n Hpx Hpy H1 H2 H3 H4 (Z.to_nat (d + 1))); try lia.
    exists 0. cbn. do 6 (split; [reflexivity|]). split; [lia|]. split; [lia|]. split; [reflexivity|].
    destruct xdom; f_equal; lia. }
  destruct (Z.abs dy <? Z.abs dx) eqn:Xd.
  - rewrite Neg by assumption. cbn [bind]. rewrite Neg by assumption. cbn [bind].
    exists true, (if dx <? 0 then -1 else 1), (if dy <? 0 then -1 else 1), (Z.abs dx), (Z.abs dy).
    split; [apply Fin; try apply S1; lia|]. split; [apply S1|]. split; [apply S1|]. split; [lia|]. split; [lia|]. split; [split; apply Sg|lia].
  - rewrite Neg by assumption. cbn [bind]. rewrite Neg by assumption. cbn [bind].
    exists false, (if dy <? 0 then -1 else 1), (if dx <? 0 then -1 else 1), (Z.abs dy), (Z.abs dx).
    split; [apply Fin; try apply S1; lia|]. split; [apply S1|]. split; [apply S1|]. split; [lia|]. split; [split; [discriminate|lia]|]. split; [split; apply Sg|discriminate].
Qed.

(** C40. *)
Theorem bres_walk p q :
  Z.abs (px p) < 2 ^ 29 -> Z.abs (py p) < 2 ^ 29 -> Z.abs (px q) < 2 ^ 29 -> Z.abs (py q) < 2 ^ 29 ->
  exists l, bres_points p q = Ok l /\ walk (px p) (py p) (px q) (py q) (map (fun r => (px r, py r)) l).
Proof.
  intros Hpx Hpy Hqx Hqy. destruct (bres_points_ok p q Hpx Hpy Hqx Hqy) as (xdom & ds & ns & d & n & E & Hds & Hns & Hn & Hx & Hd & Hl).
  eexists. split; [exact E|]. rewrite map_map.
  set (f := fun i => (px (bres_point (px p) (py p) xdom ds ns d n i), py (bres_point (px p) (py p) xdom ds ns d n i))).
  change (walk (px p) (py p) (px q) (py q) (map f (zrange 0 (d + 1)))).
  set (k := fun i => if n =? d then i else (i + 1) * n / d).
  assert (Ff : forall i, f i = if xdom then (px p + ds * i, py p + ns * k i) else (px p + ns * k i, py p + ds * i)).
  { intros i. unfold f, bres_point. fold (k i). destruct xdom; reflexivity. }
  assert (K0 : k 0 = 0).
  { unfold k. destruct (Z.eqb_spec n d); [reflexivity|]. apply Z.div_small. lia. }
  assert (Kd : k d = n).
  { unfold k. destruct (Z.eqb_spec n d); [lia|]. symmetry. apply Z.div_unique with n; [left; lia|lia]. }
  assert (Kb : forall i, 0 <= i <= d -> 0 < d -> Z.abs (k i * d - i * n) < d).
  { intros i Hi Hd0. unfold k. destruct (Z.eqb_spec n d) as [->|Nd]; [replace (i * d - i * d) with 0 by lia; lia|].
    pose proof (Z.div_mod ((i + 1) * n) d ltac:(lia)). pose proof (Z.mod_pos_bound ((i + 1) * n) d ltac:(lia)). nia. }
  assert (Mx : Z.max (Z.abs (px q - px p)) (Z.abs (py q - py p)) = d).
  { destruct xdom; destruct Hd as [-> ->]; rewrite !Z.abs_mul, Hds, Hns; lia. }
  unfold walk. cbv zeta. rewrite Mx.
  assert (Nth : forall i, 0 <= i <= d -> nth (Z.to_nat i) (map f (zrange 0 (d + 1))) (0, 0) = f i).
  { intros i Hi. rewrite (nth_indep _ (0, 0) (f 0)) by (rewrite map_length, length_zrange; lia).
    rewrite map_nth, nth_zrange by lia. f_equal. lia. }
  split; [rewrite map_length, length_zrange; lia|].
  split. { change 0%nat with (Z.to_nat 0). rewrite (Nth 0 ltac:(lia)), Ff, K0. destruct xdom; f_equal; lia. }
  split.
  { rewrite (@zrange_app 0 d (d + 1)) by lia. rewrite map_app, (@zrange_cons d (d + 1)) by lia. rewrite (@zrange_nil (d + 1) (d + 1)) by lia. cbn [map].
    rewrite last_last, Ff, Kd. destruct xdom; destruct Hd as [D1 D2]; f_equal; lia. }
  intros i x y Hi. rewrite Nth by assumption. rewrite Ff.
  assert (Sg : forall s z, Z.abs s = 1 -> 0 <= z -> (z = 0 /\ Z.sgn (s * z) = 0) \/ Z.sgn (s * z) = s).
  { intros s z Hs Hz. assert (s = 1 \/ s = -1) as [-> | -> ] by lia; lia. }
  intros X. split; intros Hc.
  - assert (xdom = true) by (apply Hx; exact Hc). subst xdom. injection X as <- <-. destruct Hd as [D1 D2].
    rewrite D1 in *. rewrite D2 in *. specialize (Hl eq_refl). split.
    + destruct (Sg ds d Hds ltac:(clear - Hn; lia)) as [[S0 _]|S0]; [clear - S0 Hl Hn; lia|]. rewrite S0. ring.
    + pose proof (Kb i Hi ltac:(lia)). replace ((py p + ns * k i - py p) * d - i * (ns * n)) with (ns * (k i * d - i * n)) by ring.
      rewrite Z.abs_mul, Hns. lia.
  - assert (xdom = false) by (destruct xdom; [|reflexivity]; destruct Hx as [Hx _]; specialize (Hx eq_refl); lia). subst xdom. injection X as <- <-. destruct Hd as [D1 D2].
    rewrite D1 in *. rewrite D2 in *. split.
    + destruct (Sg ds d Hds ltac:(clear - Hn; lia)) as [[S0 S1]|S0]; [rewrite S1; assert (I0 : i = 0) by (clear - Hi S0; lia); rewrite I0; ring|]. rewrite S0. ring.
    + destruct (Z.eq_dec d 0) as [D0|D0]; [left; exact D0|right].
      pose proof (Kb i Hi ltac:(lia)). replace ((px p + ns * k i - px p) * d - i * (ns * n)) with (ns * (k i * d - i * n)) by ring.
      rewrite Z.abs_mul, Hns. lia.
Qed.

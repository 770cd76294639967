(** Symbols drawn in black dots on light paper: near every dark pixel the row is light enough for thresholding. *)
From Coq Require Import SpecFloat.
From Verif Require Import Base Lib ModelDecode ModelImage ModelGeometry ModelDetect ModelIdentify SpecQR SpecPayload SpecImage SpecThreshold SpecFinder SpecPicture
  EncodeProofs DrawProofs RenderProofs PictureProofs LitProofs DotProofs SpecQR.
From Coq Require Import ZifyBool.
Open Scope Z_scope.
Set Bullet Behavior "Strict Subproofs".

(** * Eight modules in a row *)

(** A light one, or but five of the patterns. *)
Definition pale (v : Z) (sym : Z -> Z -> bool) (y x : Z) : Prop := ~ (0 <= x < symbol_size v) \/ sym y x = false.

Lemma pale_dec v sym y a : (exists t, 0 <= t < 8 /\ pale v sym y (a + t)) \/ (forall t, 0 <= t < 8 -> 0 <= a + t < symbol_size v /\ sym y (a + t) = true).
Proof.
  destruct (existsb (fun t => negb ((0 <=? a + t) && (a + t <? symbol_size v)) || negb (sym y (a + t))) (zrange 0 8)) eqn:E.
  - left. apply existsb_exists in E. destruct E as (t & Ht & E). apply in_zrange in Ht. exists t. split; [lia|]. unfold pale. apply orb_true_iff in E. destruct E as [E|E]; [left; lia|right].
    destruct (sym y (a + t)); [discriminate E|reflexivity].
  - right. intros t Ht. assert (N : negb ((0 <=? a + t) && (a + t <? symbol_size v)) || negb (sym y (a + t)) = false).
    { destruct (_ || _) eqn:X; [|reflexivity]. rewrite <- E. symmetry. apply existsb_exists. exists t. split; [apply in_zrange; lia|exact X]. }
    apply orb_false_iff in N. destruct N as [N1 N2]. split; [lia|]. destruct (sym y (a + t)); [reflexivity|discriminate N2].
Qed.

Lemma row_block v sym y a : 1 <= v <= 40 -> function_patterns v sym -> 0 <= y < symbol_size v ->
  (exists t, 0 <= t < 8 /\ pale v sym y (a + t)) \/ (exists c, forall t, 0 <= t < 8 -> solid v y (a + t) = true -> c - 2 <= a + t <= c + 2).
Proof.
  intros Hv Fp Hy. destruct (pale_dec v sym y a) as [P|D]; [left; exact P|].
  assert (Sn : symbol_size v = 17 + 4 * v) by (unfold symbol_size; lia).
  assert (R : 0 <= a /\ a + 7 < symbol_size v) by (pose proof (D 0 ltac:(lia)); pose proof (D 7 ltac:(lia)); lia).
  assert (L : forall c x, In c (finder_centres v) -> ring_no (y - fst c) (x - snd c) = 4 -> a <= x < a + 8 -> False).
  { intros c x Hc Hr Hx. destruct (D (x - a) ltac:(lia)) as [Rx E]. replace (a + (x - a)) with x in * by lia.
    rewrite (finder_light v sym Hv Fp c y x Hc Hr Hy Rx) in E. discriminate E. }
  destruct (Z.eq_dec y 6) as [Y6|Y6].
  { exfalso. destruct (Z_le_dec a 7) as [A|A].
    - apply (L (3, 3) 7); [cbn; auto| |lia]. cbn. subst y. reflexivity.
    - destruct (Z_le_dec (symbol_size v - 8) (a + 7)) as [B|B].
      + apply (L (3, symbol_size v - 4) (symbol_size v - 8)); [cbn; auto| |lia]. cbn [fst snd]. unfold ring_no. lia.
      + destruct (fp_timing v sym Fp a ltac:(lia)) as [T0 _]. destruct (fp_timing v sym Fp (a + 1) ltac:(lia)) as [T1 _].
        destruct (D 0 ltac:(lia)) as [_ D0]. destruct (D 1 ltac:(lia)) as [_ D1]. replace (a + 0) with a in D0 by lia. subst y. rewrite D0 in T0. rewrite D1 in T1.
        rewrite Z.even_add in T1. rewrite <- T0 in T1. discriminate T1. }
  assert (NF : forall c x, In c (finder_centres v) -> a <= x < a + 8 -> ring_no (y - fst c) (x - snd c) <= 4 -> False).
  { intros c x Hc Hx Hr. apply ring_le in Hr.
    destruct (Z.eq_dec (Z.abs (y - fst c)) 4) as [Y4|Y4]; [apply (L c x Hc); [unfold ring_no; lia|exact Hx]|].
    destruct (Z.eq_dec (Z.abs (x - snd c)) 4) as [X4|X4]; [apply (L c x Hc); [unfold ring_no; lia|exact Hx]|].
    destruct (Z_le_dec a (snd c - 4)) as [A|A].
    - apply (L c (snd c - 4) Hc); [unfold ring_no; lia|lia].
    - apply (L c (snd c + 4) Hc); [unfold ring_no; lia|lia]. }
  assert (Kind : forall x, a <= x < a + 8 -> solid v y x = true -> x = 6 \/ exists cy cx, align_centre v cy cx /\ cx - 2 <= x <= cx + 2).
  { intros x Hx Hs. apply solid_iff in Hs. destruct Hs as [(cy & cx & Hc & Hr)|[Hs|[Hs|(cy & cx & Hc & Hr)]]].
    - exfalso. exact (NF (cy, cx) x Hc Hx Hr).
    - contradiction.
    - left. exact Hs.
    - right. exists cy, cx. split; [exact Hc|]. apply ring_le in Hr. lia. }
  right. destruct (existsb (fun t => solid v y (a + t) && negb (a + t =? 6)) (zrange 0 8)) eqn:E.
  - apply existsb_exists in E. destruct E as (t0 & Ht0 & E). apply in_zrange in Ht0. apply andb_true_iff in E. destruct E as [E1 E2].
    destruct (Kind (a + t0) ltac:(lia) E1) as [X|(cy & cx & Hc & Hx)]; [lia|]. exists cx. intros t Ht Hs.
    pose proof (centre_places v sym Hv Fp cy cx Hc) as (_ & P & _).
    destruct (Kind (a + t) ltac:(lia) Hs) as [X|(dy & dx & Hd & Hx')].
    + destruct P as [-> |P]; lia.
    + destruct Hc as (_ & Hc & _). destruct Hd as (_ & Hd & _). destruct (positions_apart v cx dx Hv Hc Hd) as [<- |F]; [lia|]. lia.
  - exists 6. intros t Ht Hs. destruct (Z.eq_dec (a + t) 6) as [X|X]; [lia|]. exfalso.
    assert (existsb (fun t => solid v y (a + t) && negb (a + t =? 6)) (zrange 0 8) = true); [|congruence].
    apply existsb_exists. exists t. split; [apply in_zrange; lia|]. rewrite Hs. lia.
Qed.

(** The same for eight modules along a row of the picture. *)
Lemma solid_transposed v y x : solid v x y = solid v y x.
Proof.
  apply Bool.eq_iff_eq_true. rewrite !solid_iff. unfold pattern_module.
  assert (R : forall a b, ring_no a b = ring_no b a) by (intros; unfold ring_no; lia).
  assert (F : forall a b, In (a, b) (finder_centres v) -> In (b, a) (finder_centres v)).
  { unfold finder_centres. cbn [In]. intros a b [H|[H|[H|[]]]]; inversion H; auto. }
  assert (A : forall a b, align_centre v a b -> align_centre v b a) by (unfold align_centre; cbv zeta; intros; intuition).
  split.
  - intros [(cy & cx & Hc & Hr)|[H|[H|(cy & cx & Hc & Hr)]]]; auto; [left|right; right; right]; exists cx, cy; rewrite R; auto.
  - intros [(cy & cx & Hc & Hr)|[H|[H|(cy & cx & Hc & Hr)]]]; auto; [left|right; right; right]; exists cx, cy; rewrite R; auto.
Qed.

Definition look_at (r : nat) (n : Z) (f : Z -> Z -> bool) (j i : Z) : bool := f (fst (turned r n i j)) (snd (turned r n i j)).

Lemma line_block v sym r j a : 1 <= v <= 40 -> function_patterns v sym -> 0 <= j < symbol_size v -> let n := symbol_size v in
  (exists t, 0 <= t < 8 /\ (~ (0 <= a + t < n) \/ look_at r n sym j (a + t) = false))
  \/ (exists c, forall t, 0 <= t < 8 -> look_at r n (solid v) j (a + t) = true -> c - 2 <= a + t <= c + 2).
Proof.
  intros Hv Fp Hj n. pose proof (patterns_transposed v sym Fp) as Ft. unfold look_at, turned.
  destruct r as [|[|[|r]]]; cbn [fst snd].
  - exact (row_block v sym j a Hv Fp Hj).
  - destruct (row_block v _ j (n - 1 - a - 7) Hv Ft Hj) as [(t & Ht & P)|(c & Hc)].
    + left. exists (7 - t). split; [lia|]. unfold pale in P. fold n in P. replace (n - 1 - (a + (7 - t))) with (n - 1 - a - 7 + t) by lia. destruct P as [P|P]; [left; lia|right; exact P].
    + right. exists (n - 1 - c). intros t Ht Hs. specialize (Hc (7 - t) ltac:(lia)). rewrite solid_transposed in Hc.
      replace (n - 1 - a - 7 + (7 - t)) with (n - 1 - (a + t)) in Hc by lia. specialize (Hc Hs). lia.
  - destruct (row_block v _ (n - 1 - j) (n - 1 - a - 7) Hv Fp ltac:(lia)) as [(t & Ht & P)|(c & Hc)].
    + left. exists (7 - t). split; [lia|]. unfold pale in P. fold n in P. replace (n - 1 - (a + (7 - t))) with (n - 1 - a - 7 + t) by lia. destruct P as [P|P]; [left; lia|right; exact P].
    + right. exists (n - 1 - c). intros t Ht Hs. specialize (Hc (7 - t) ltac:(lia)).
      replace (n - 1 - a - 7 + (7 - t)) with (n - 1 - (a + t)) in Hc by lia. specialize (Hc Hs). lia.
  - destruct (row_block v _ (n - 1 - j) a Hv Ft ltac:(lia)) as [(t & Ht & P)|(c & Hc)].
    + left. exists t. split; [lia|]. exact P.
    + right. exists c. intros t Ht Hs. specialize (Hc t Ht). rewrite solid_transposed in Hc. exact (Hc Hs).
Qed.

(** * Sums along a row *)

Fixpoint strip (f : Z -> Z) (a : Z) (l : nat) : Z :=
  match l with
  | O => 0
  | S l' => strip f a l' + f (a + Z.of_nat l')
  end.

Lemma strip_app f a l l' : strip f a (l + l') = strip f a l + strip f (a + Z.of_nat l) l'.
Proof. induction l' as [|l' IH]; [rewrite Nat.add_0_r; cbn; lia|]. rewrite Nat.add_succ_r. cbn [strip]. rewrite IH. replace (a + Z.of_nat (l + l')) with (a + Z.of_nat l + Z.of_nat l') by lia. lia. Qed.

Lemma strip_ge f a l c : (forall x, a <= x < a + Z.of_nat l -> c <= f x) -> c * Z.of_nat l <= strip f a l.
Proof.
  induction l as [|l IH]; intros H; [cbn; lia|]. cbn [strip]. pose proof (IH ltac:(intros x Hx; apply H; lia)). pose proof (H (a + Z.of_nat l) ltac:(lia)). lia.
Qed.

Lemma strip_sub f a l b l' : (forall x, a <= x < a + Z.of_nat l -> 0 <= f x) -> a <= b -> b + Z.of_nat l' <= a + Z.of_nat l -> strip f b l' <= strip f a l.
Proof.
  intros H A B. set (l1 := Z.to_nat (b - a)). set (l3 := Z.to_nat (a + Z.of_nat l - b - Z.of_nat l')).
  assert (E : l = (l1 + l' + l3)%nat) by lia. rewrite E, !strip_app. replace (a + Z.of_nat l1) with b by lia.
  pose proof (strip_ge f a l1 0 ltac:(intros x Hx; apply H; lia)). pose proof (strip_ge f (a + Z.of_nat (l1 + l')) l3 0 ltac:(intros x Hx; apply H; lia)). lia.
Qed.

Lemma beside_right lum q d : beside lum q 1 d = strip (fun x => lum (x, snd q)) (fst q) (S d).
Proof.
  induction d as [|d IH].
  - cbn. replace (fst q + 0) with (fst q) by lia. rewrite <- surjective_pairing. lia.
  - change (strip (fun x => lum (x, snd q)) (fst q) (S (S d))) with (strip (fun x => lum (x, snd q)) (fst q) (S d) + lum (fst q + Z.of_nat (S d), snd q)).
    rewrite <- IH. cbn [beside]. rewrite Z.mul_1_l. reflexivity.
Qed.

Lemma strip_first f a l : strip f a (S l) = f a + strip f (a + 1) l.
Proof. change (S l) with (1 + l)%nat. rewrite strip_app. cbn [strip]. replace (a + Z.of_nat 0) with a by lia. replace (a + Z.of_nat 1) with (a + 1) by lia. lia. Qed.

Lemma beside_left lum q d : beside lum q (-1) d = strip (fun x => lum (x, snd q)) (fst q - Z.of_nat d) (S d).
Proof.
  induction d as [|d IH].
  - cbn. replace (fst q - 0 + 0) with (fst q) by lia. rewrite <- surjective_pairing. lia.
  - rewrite strip_first. cbn [beside]. rewrite IH. replace (fst q - Z.of_nat (S d) + 1) with (fst q - Z.of_nat d) by lia.
    replace (fst q + -1 * Z.of_nat (S d)) with (fst q - Z.of_nat (S d)) by lia. lia.
Qed.

(** Both sides together, the pixel itself being counted once more. *)
Lemma beside_both lum q d1 d2 : 0 <= lum q -> strip (fun x => lum (x, snd q)) (fst q - Z.of_nat d1) (d1 + S d2) <= beside lum q (-1) d1 + beside lum q 1 d2.
Proof.
  intros H. rewrite beside_left, beside_right, strip_app. replace (fst q - Z.of_nat d1 + Z.of_nat d1) with (fst q) by lia.
  cbn [strip]. replace (fst q - Z.of_nat d1 + Z.of_nat d1) with (fst q) by lia. rewrite <- surjective_pairing. lia.
Qed.

(** * Ink on paper *)

Section Paper.
Context (v : Z) (sym : Z -> Z -> bool) (m k ox oy : Z) (r : nat) (w h : Z) (fill : Z -> Z -> Z).
Context (Hv : 1 <= v <= 40) (Fp : function_patterns v sym) (K : 1 <= k) (Mk : 2 * k + 2 <= m) (Km : m <= 8 * k).
Context (Ox : 4 * m <= ox) (Rw : ox + symbol_size v * m + 4 * m <= w).
Notation n := (symbol_size v).
Notation pic := (dotted v sym m k ox oy r).
Context (Ink : forall x y, inside w h (x, y) -> if pic x y then fill x y = 0 else 241 <= fill x y <= 255).

Lemma fill_range x y : inside w h (x, y) -> 0 <= fill x y <= 255.
Proof using v sym m k ox oy r w h fill Hv Fp K Mk Km Ox Rw Ink. intros Hq. pose proof (Ink x y Hq). destruct (pic x y); lia. Qed.

Lemma fill_light x y : inside w h (x, y) -> pic x y = false -> 241 <= fill x y.
Proof using v sym m k ox oy r w h fill Hv Fp K Mk Km Ox Rw Ink. intros Hq E. pose proof (Ink x y Hq). rewrite E in H. lia. Qed.

(** One row. *)
Context (y : Z) (Hy : 0 <= y < h) (Sy : oy <= y < oy + symbol_size v * m).
Notation j := ((y - oy) / m).
Notation row := (fun x => fill x y).

Lemma row_j : 0 <= j < n.
Proof using v sym m k ox oy r w h fill Hv Fp K Mk Km Ox Rw Ink y Hy Sy. split; [apply Z.div_pos; lia|apply Z.div_lt_upper_bound; lia]. Qed.

Lemma pixel_column i x : ox + i * m <= x < ox + (i + 1) * m -> (x - ox) / m = i /\ (x - ox) mod m = x - ox - i * m.
Proof using v sym m k ox oy r w h fill Hv Fp K Mk Km Ox Rw Ink y Hy Sy. intros Hx. split; [symmetry; apply (Z.div_unique_pos _ _ _ (x - ox - i * m)); lia|symmetry; apply (Z.mod_unique_pos _ _ i); lia]. Qed.

(** The light in one module, times four. *)
Definition glow (i : Z) : Z := strip row (ox + i * m) (Z.to_nat m).

Lemma glow_nonneg i : 0 <= ox + i * m -> ox + (i + 1) * m <= w -> 0 <= glow i.
Proof using v sym m k ox oy r w h fill Hv Fp K Mk Km Ox Rw Ink y Hy Sy.
  intros A B. pose proof (strip_ge row (ox + i * m) (Z.to_nat m) 0) as G. unfold glow.
  assert (X : forall x, ox + i * m <= x < ox + i * m + Z.of_nat (Z.to_nat m) -> 0 <= fill x y).
  { intros x Hx. apply fill_range. unfold inside. cbn [fst snd]. lia. }
  specialize (G X). lia.
Qed.

Lemma glow_pale i : 0 <= ox + i * m -> ox + (i + 1) * m <= w -> ~ (0 <= i < n) \/ look_at r n sym j i = false -> 241 * m <= glow i.
Proof using v sym m k ox oy r w h fill Hv Fp K Mk Km Ox Rw Ink y Hy Sy.
  intros A B P. pose proof (strip_ge row (ox + i * m) (Z.to_nat m) 241) as G. unfold glow.
  assert (X : forall x, ox + i * m <= x < ox + i * m + Z.of_nat (Z.to_nat m) -> 241 <= fill x y).
  { intros x Hx. apply fill_light; [unfold inside; cbn [fst snd]; lia|]. unfold dotted. cbv zeta. unfold module_at. cbn [fst snd].
    destruct (pixel_column i x ltac:(lia)) as [-> _].
    destruct P as [P|P]; [|unfold look_at in P; rewrite P; rewrite !andb_false_r; reflexivity].
    assert (O : (ox <=? x) && (x <? ox + n * m) = false) by (clear - P Hx K Mk; nia). rewrite O. reflexivity. }
  specialize (G X). lia.
Qed.

Lemma glow_data i : 0 <= ox + i * m -> ox + (i + 1) * m <= w -> look_at r n (solid v) j i = false -> 241 * m <= 4 * glow i.
Proof using v sym m k ox oy r w h fill Hv Fp K Mk Km Ox Rw Ink y Hy Sy.
  intros A B P. unfold glow.
  assert (Lt : forall x, ox + i * m <= x < ox + i * m + k \/ ox + i * m + m - k <= x < ox + i * m + m -> 241 <= fill x y).
  { intros x Hx. apply fill_light; [unfold inside; cbn [fst snd]; lia|]. unfold dotted. cbv zeta. unfold module_at. cbn [fst snd].
    destruct (pixel_column i x ltac:(lia)) as [-> E]. unfold look_at in P. rewrite P. unfold inset. rewrite E.
    replace ((k <=? x - ox - i * m) && (x - ox - i * m <? m - k)) with false by lia. rewrite !andb_false_r. reflexivity. }
  replace (Z.to_nat m) with (Z.to_nat k + (Z.to_nat (m - 2 * k) + Z.to_nat k))%nat by lia. rewrite !strip_app.
  pose proof (strip_ge row (ox + i * m) (Z.to_nat k) 241 ltac:(intros x Hx; apply Lt; lia)) as G1.
  pose proof (strip_ge row (ox + i * m + Z.of_nat (Z.to_nat k)) (Z.to_nat (m - 2 * k)) 0 ltac:(intros x Hx; apply fill_range; unfold inside; cbn [fst snd]; lia)) as G2.
  pose proof (strip_ge row (ox + i * m + Z.of_nat (Z.to_nat k) + Z.of_nat (Z.to_nat (m - 2 * k))) (Z.to_nat k) 241 ltac:(intros x Hx; apply Lt; lia)) as G3.
  lia.
Qed.

(** Eight modules. *)
Lemma glow_eight i : 0 <= ox + i * m -> ox + (i + 8) * m <= w -> 723 * m <= 4 * strip row (ox + i * m) (Z.to_nat (8 * m)).
Proof using v sym m k ox oy r w h fill Hv Fp K Mk Km Ox Rw Ink y Hy Sy.
  intros A B.
  assert (E : strip row (ox + i * m) (Z.to_nat (8 * m)) = glow (i + 0) + glow (i + 1) + glow (i + 2) + glow (i + 3) + glow (i + 4) + glow (i + 5) + glow (i + 6) + glow (i + 7)).
  { unfold glow. replace (Z.to_nat (8 * m)) with (Z.to_nat m + (Z.to_nat m + (Z.to_nat m + (Z.to_nat m + (Z.to_nat m + (Z.to_nat m + (Z.to_nat m + Z.to_nat m)))))))%nat by lia.
    rewrite !strip_app. rewrite Z2Nat.id by lia.
    replace (ox + (i + 0) * m) with (ox + i * m) by ring. replace (ox + (i + 1) * m) with (ox + i * m + m) by ring. replace (ox + (i + 2) * m) with (ox + i * m + m + m) by ring.
    replace (ox + (i + 3) * m) with (ox + i * m + m + m + m) by ring. replace (ox + (i + 4) * m) with (ox + i * m + m + m + m + m) by ring. replace (ox + (i + 5) * m) with (ox + i * m + m + m + m + m + m) by ring.
    replace (ox + (i + 6) * m) with (ox + i * m + m + m + m + m + m + m) by ring. replace (ox + (i + 7) * m) with (ox + i * m + m + m + m + m + m + m + m) by ring. ring. }
  rewrite E.
  assert (M : 0 < m) by lia.
  assert (In8 : forall t, 0 <= t < 8 -> 0 <= ox + (i + t) * m /\ ox + (i + t + 1) * m <= w) by (clear - A B M; intros t Ht; nia).
  assert (NN : forall t, 0 <= t < 8 -> 0 <= glow (i + t)) by (intros t Ht; apply glow_nonneg; apply In8; exact Ht).
  destruct (line_block v sym r j i Hv Fp row_j) as [(t & Ht & P)|(c & Hc)].
  - destruct (In8 t Ht) as [I1 I2]. pose proof (glow_pale (i + t) I1 I2 P) as G.
    pose proof (NN 0 ltac:(lia)). pose proof (NN 1 ltac:(lia)). pose proof (NN 2 ltac:(lia)). pose proof (NN 3 ltac:(lia)).
    pose proof (NN 4 ltac:(lia)). pose proof (NN 5 ltac:(lia)). pose proof (NN 6 ltac:(lia)). pose proof (NN 7 ltac:(lia)).
    assert (T : t = 0 \/ t = 1 \/ t = 2 \/ t = 3 \/ t = 4 \/ t = 5 \/ t = 6 \/ t = 7) by lia.
    clear - T G H H0 H1 H2 H3 H4 H5 H6 M. destruct T as [-> |[-> |[-> |[-> |[-> |[-> |[-> | -> ]]]]]]]; lia.
  - assert (D : forall t, 0 <= t < 8 -> (c - 2 <= i + t <= c + 2 /\ 0 <= glow (i + t)) \/ 241 * m <= 4 * glow (i + t)).
    { intros t Ht. destruct (look_at r n (solid v) j (i + t)) eqn:S; [left; split; [exact (Hc t Ht S)|exact (NN t Ht)]|right]. apply glow_data; [apply In8; exact Ht|apply In8; exact Ht|exact S]. }
    pose proof (D 0 ltac:(lia)) as D0. pose proof (D 1 ltac:(lia)) as D1. pose proof (D 2 ltac:(lia)) as D2. pose proof (D 3 ltac:(lia)) as D3.
    pose proof (D 4 ltac:(lia)) as D4. pose proof (D 5 ltac:(lia)) as D5. pose proof (D 6 ltac:(lia)) as D6. pose proof (D 7 ltac:(lia)) as D7.
    clear - D0 D1 D2 D3 D4 D5 D6 D7 M. revert D0 D1 D2 D3 D4 D5 D6 D7.
    generalize (glow (i + 0)) (glow (i + 1)) (glow (i + 2)) (glow (i + 3)) (glow (i + 4)) (glow (i + 5)) (glow (i + 6)) (glow (i + 7)). intros. lia.
Qed.

Lemma glow_run i (b : nat) : 0 <= ox + i * m -> ox + (i + 8 * Z.of_nat b) * m <= w -> 723 * (m * Z.of_nat b) <= 4 * strip row (ox + i * m) (Z.to_nat (8 * m * Z.of_nat b)).
Proof using v sym m k ox oy r w h fill Hv Fp K Mk Km Ox Rw Ink y Hy Sy.
  revert i. induction b as [|b IH]; intros i A B; [change (Z.of_nat 0) with 0; rewrite !Z.mul_0_r; cbn; lia|].
  assert (M : 0 < m) by lia.
  replace (Z.to_nat (8 * m * Z.of_nat (S b))) with (Z.to_nat (8 * m) + Z.to_nat (8 * m * Z.of_nat b))%nat by (clear - M; nia).
  rewrite strip_app. pose proof (glow_eight i A ltac:(clear - B M; nia)) as G.
  pose proof (IH (i + 8) ltac:(clear - A M; nia) ltac:(clear - B M; nia)) as G'.
  replace (ox + i * m + Z.of_nat (Z.to_nat (8 * m))) with (ox + (i + 8) * m) by lia.
  replace (m * Z.of_nat (S b)) with (m + m * Z.of_nat b) by lia. lia.
Qed.

Lemma glow_blocks a l b : 0 <= a -> a + Z.of_nat l <= w -> 0 <= b -> m - 1 + 8 * (m * b) <= Z.of_nat l -> 723 * (m * b) <= 4 * strip row a l.
Proof using v sym m k ox oy r w h fill Hv Fp K Mk Km Ox Rw Ink y Hy Sy.
  intros A B Hb L. assert (M : 0 < m) by lia. set (i := - ((ox - a) / m)).
  assert (Hi : a <= ox + i * m <= a + m - 1).
  { unfold i. pose proof (Z.div_mod (ox - a) m ltac:(lia)) as E. pose proof (Z.mod_pos_bound (ox - a) m M). lia. }
  pose proof (glow_run i (Z.to_nat b) ltac:(lia)) as G. rewrite Z2Nat.id in G by lia. specialize (G ltac:(clear - Hi L B; nia)).
  pose proof (strip_sub row a l (ox + i * m) (Z.to_nat (8 * m * b))) as Sb.
  assert (X : forall x, a <= x < a + Z.of_nat l -> 0 <= fill x y) by (intros x Hx; apply fill_range; unfold inside; cbn [fst snd]; lia).
  specialize (Sb X ltac:(lia) ltac:(clear - Hi L Hb M; nia)). lia.
Qed.

(** The quiet zones. *)
Lemma quiet_left l : ox <= Z.of_nat l -> Z.of_nat l <= w -> 964 * m <= strip row 0 l.
Proof using v sym m k ox oy r w h fill Hv Fp K Mk Km Ox Rw Ink y Hy Sy.
  intros A B. assert (M : 0 < m) by lia.
  pose proof (strip_sub row 0 l 0 (Z.to_nat ox) ltac:(intros x Hx; apply fill_range; unfold inside; cbn [fst snd]; lia) ltac:(lia) ltac:(lia)) as Sb.
  pose proof (strip_ge row 0 (Z.to_nat ox) 241) as G.
  assert (X : forall x, 0 <= x < 0 + Z.of_nat (Z.to_nat ox) -> 241 <= fill x y).
  { intros x Hx. apply fill_light; [unfold inside; cbn [fst snd]; lia|]. unfold dotted. cbv zeta. replace (ox <=? x) with false by lia. reflexivity. }
  specialize (G X). lia.
Qed.

Lemma quiet_right a l : 0 <= a <= ox + n * m -> a + Z.of_nat l = w -> 964 * m <= strip row a l.
Proof using v sym m k ox oy r w h fill Hv Fp K Mk Km Ox Rw Ink y Hy Sy.
  intros A B. assert (M : 0 < m) by lia. set (b := ox + n * m) in *.
  pose proof (strip_sub row a l b (Z.to_nat (w - b)) ltac:(intros x Hx; apply fill_range; unfold inside; cbn [fst snd]; lia) ltac:(lia) ltac:(lia)) as Sb.
  pose proof (strip_ge row b (Z.to_nat (w - b)) 241) as G.
  assert (X : forall x, b <= x < b + Z.of_nat (Z.to_nat (w - b)) -> 241 <= fill x y).
  { intros x Hx. apply fill_light; [unfold inside; cbn [fst snd]; lia|]. unfold dotted. cbv zeta. fold b. replace (x <? b) with false by lia. rewrite andb_false_r. reflexivity. }
  specialize (G X). lia.
Qed.
End Paper.

(** * The numbers *)

(** [t]: memory; [s]: the luminance seen up to [e] half memories away; [l]: the number of pixels seen;
    cut off at an edge of the picture or not. *)
Lemma enough_small m w t s l : 4 <= m -> 29 * m <= w -> t = w / 8 -> t <= 5 * m ->
  (964 * m <= s \/ 2 * (3 * (t / 2)) + 1 <= l /\ (forall b, 0 <= b -> m - 1 + 8 * (m * b) <= l -> 723 * (m * b) <= 4 * s)) ->
  2 ^ 3 * t * 390 <= 95 * s.
Proof.
  intros M W T S [Q|[L B]]; [change (2 ^ 3) with 8; lia|]. change (2 ^ 3) with 8.
  assert (8 * t <= w < 8 * t + 8) by (subst t; lia). specialize (B 1 ltac:(lia)). rewrite Z.mul_1_r in B. lia.
Qed.

Lemma enough_large m w t s l : 4 <= m -> 29 * m <= w -> t = w / 8 -> 5 * m < t ->
  (964 * m <= s /\ 2 * (t / 2) + 1 <= l \/ 2 * (2 * (t / 2)) + 1 <= l) -> (forall b, 0 <= b -> m - 1 + 8 * (m * b) <= l -> 723 * (m * b) <= 4 * s) ->
  2 ^ 2 * t * 390 <= 95 * s.
Proof.
  intros M W T S Q B. change (2 ^ 2) with 4. clear T W.
  assert (L1 : t - 1 <= 2 * (t / 2) <= t) by lia.
  assert (B1 : m - 1 + 8 * m <= l -> 723 * m <= 4 * s) by (intros X; specialize (B 1 ltac:(lia)); lia).
  assert (Bl : 0 <= l -> m <= l -> 723 * (l - 9 * m) <= 32 * s).
  { intros X Y. set (b := (l - (m - 1)) / (8 * m)). pose proof (Z.div_mod (l - (m - 1)) (8 * m) ltac:(lia)) as E. fold b in E. pose proof (Z.mod_pos_bound (l - (m - 1)) (8 * m) ltac:(lia)).
    assert (0 <= b) by (apply Z.div_pos; lia). specialize (B b ltac:(lia) ltac:(lia)). lia. }
  destruct Q as [[Q L]|L].
  - destruct (Z_le_dec t (58 * m)) as [X|X]; [lia|]. specialize (Bl ltac:(lia) ltac:(lia)). lia.
  - destruct (Z_le_dec t (11 * m)) as [X|X]; [specialize (B1 ltac:(lia)); lia|]. specialize (Bl ltac:(lia) ltac:(lia)). lia.
Qed.

(** * Every dark pixel *)

Theorem paper_two_toned v sym m k ox oy r w h fill : 1 <= v <= 40 -> function_patterns v sym -> 1 <= k -> 2 * k + 2 <= m -> m <= 8 * k ->
  4 * m <= ox -> ox + symbol_size v * m + 4 * m <= w ->
  (forall x y, inside w h (x, y) -> if dotted v sym m k ox oy r x y then fill x y = 0 else 241 <= fill x y <= 255) ->
  two_toned w h fill.
Proof.
  intros Hv Fp K Mk Km Ox Rw Ink x y Hq. pose proof (Ink x y Hq) as I. destruct (dotted v sym m k ox oy r x y) eqn:D; [right|left; exact I].
  split; [lia|]. destruct Hq as [Hx Hy]. cbn [fst snd] in *.
  assert (Sq : ox <= x < ox + symbol_size v * m /\ oy <= y < oy + symbol_size v * m).
  { unfold dotted in D. cbv zeta in D. rewrite !andb_true_iff in D. lia. }
  destruct Sq as [Sx Sy].
  assert (Wm : 29 * m <= w) by (unfold symbol_size in Rw; clear - Rw Ox Hv K Mk; nia).
  assert (T : memory w = w / 8) by (unfold memory; lia).
  set (t := memory w) in *.
  assert (Sum : forall d1 d2, 0 <= x - Z.of_nat d1 -> x + Z.of_nat d2 < w ->
    let s := strip (fun x => fill x y) (x - Z.of_nat d1) (d1 + S d2) in
    let lum := fun q : pixel => fill (fst q) (snd q) in
    s <= beside lum (x, y) (-1) d1 + beside lum (x, y) 1 d2
    /\ (forall b, 0 <= b -> m - 1 + 8 * (m * b) <= Z.of_nat (d1 + S d2) -> 723 * (m * b) <= 4 * s)
    /\ (Z.of_nat d1 = x \/ Z.of_nat d2 = w - 1 - x -> 964 * m <= s)).
  { intros d1 d2 A B s lum. split; [apply (beside_both lum (x, y) d1 d2); unfold lum; cbn [fst snd]; lia|]. split.
    - intros b Hb L. eapply (glow_blocks v sym m k ox oy r w h fill); try eassumption; lia.
    - intros [E|E]; unfold s.
      + replace (x - Z.of_nat d1) with 0 by lia. eapply (quiet_left v sym m k ox oy r w h fill); try eassumption; lia.
      + eapply (quiet_right v sym m k ox oy r w h fill); try eassumption; lia. }
  set (lum := fun q : pixel => fill (fst q) (snd q)) in *.
  destruct (Z_le_dec t (5 * m)) as [Ts|Tl].
  - set (d1 := Z.to_nat (Z.min (3 * (t / 2)) x)). set (d2 := Z.to_nat (Z.min (3 * (t / 2)) (w - 1 - x))).
    assert (H2 : 0 <= t / 2) by (clear - T Hx; lia).
    exists 3, d1, d2. cbn [fst snd]. destruct (Sum d1 d2 ltac:(lia) ltac:(lia)) as (S1 & S2 & S3). fold lum in S1.
    split; [lia|]. split; [fold t; lia|]. split; [fold t; lia|]. split; [lia|]. split; [lia|]. unfold lum at 1. cbn [fst snd]. rewrite I.
    replace (200 * 0 + 390) with 390 by lia. eapply Z.le_trans; [|apply Z.mul_le_mono_nonneg_l; [lia|exact S1]]. fold t.
    apply (enough_small m w t _ (Z.of_nat (d1 + S d2))); [lia|exact Wm|exact T|exact Ts|].
    destruct (Z_le_dec (3 * (t / 2)) x) as [X1|X1]; [|left; apply S3; lia]. destruct (Z_le_dec (3 * (t / 2)) (w - 1 - x)) as [X2|X2]; [|left; apply S3; lia].
    right. split; [lia|exact S2].
  - set (d1 := Z.to_nat (Z.min (2 * (t / 2)) x)). set (d2 := Z.to_nat (Z.min (2 * (t / 2)) (w - 1 - x))).
    assert (H2 : 0 <= t / 2) by (clear - T Hx; lia).
    exists 2, d1, d2. cbn [fst snd]. destruct (Sum d1 d2 ltac:(lia) ltac:(lia)) as (S1 & S2 & S3). fold lum in S1.
    split; [lia|]. split; [fold t; lia|]. split; [fold t; lia|]. split; [lia|]. split; [lia|]. unfold lum at 1. cbn [fst snd]. rewrite I.
    replace (200 * 0 + 390) with 390 by lia. eapply Z.le_trans; [|apply Z.mul_le_mono_nonneg_l; [lia|exact S1]]. fold t.
    apply (enough_large m w t _ (Z.of_nat (d1 + S d2))); [lia|exact Wm|exact T|lia| |exact S2].
    destruct (Z_le_dec (2 * (t / 2)) x) as [X1|X1]; destruct (Z_le_dec (2 * (t / 2)) (w - 1 - x)) as [X2|X2].
    + right. lia.
    + left. split; [apply S3; lia|lia].
    + left. split; [apply S3; lia|lia].
    + exfalso. clear - X1 X2 T Hx. lia.
Qed.

(** Scanning. *)
Theorem scan_paper {Srt : Sorter spec_float} w h fill v e mask msg m k ox oy r :
  1 <= w <= 32768 -> 1 <= h <= 32768 -> 1 <= v <= 40 -> v <> 21 -> 1 <= k -> 2 * k + 2 <= m <= 8 * k -> (7 * m - 1) * (7 * m - 1) * furthest v m ox oy r < 2 ^ 31 ->
  4 * m <= ox -> 0 <= oy -> ox + symbol_size v * m + 4 * m <= w -> oy + symbol_size v * m <= h ->
  0 <= mask < 8 -> message_ok v msg -> fits v e msg ->
  (forall x y, inside w h (x, y) -> if dotted v (encode v e mask msg) m k ox oy r x y then fill x y = 0 else 241 <= fill x y <= 255) ->
  exists p, prepare_from_greyscale w h fill = Ok p /\ scans_to p (message_bytes msg) (mkMeta v (level_bits e) mask).
Proof.
  intros Hw Hh Hv V21 K [Mk Km] Pr Ox Oy Rw Rh Hmask Ok1 Fit Ink. pose proof (encode_patterns v e mask msg Hv) as Fp.
  apply (two_toned_scan w h fill v e mask msg (encode v e mask msg) m ox oy r); try assumption.
  - assert (29 * m <= w) by (unfold symbol_size in Rw; clear - Rw Ox Hv K Mk; nia). lia.
  - exact (paper_two_toned v (encode v e mask msg) m k ox oy r w h fill Hv Fp K Mk Km Ox Rw Ink).
  - eapply clear_picture_same; [|apply (dotted_clear w h v (encode v e mask msg) m k ox oy r); try assumption; lia].
    intros [x y] Hq. pose proof (Ink x y Hq) as I. unfold ink. cbn [fst snd]. destruct (dotted v (encode v e mask msg) m k ox oy r x y).
    + rewrite I. cbn. split; intros; lia.
    + replace (fill x y <? 241) with false by lia. reflexivity.
  - apply encode_is_symbol; assumption.
Qed.

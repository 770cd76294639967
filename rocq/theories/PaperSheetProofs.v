(** Sheets of symbols drawn in black dots on light paper. *)
From Coq Require Import SpecFloat.
From Verif Require Import Base Lib ModelDecode ModelImage ModelGeometry ModelDetect ModelIdentify SpecQR SpecPayload SpecImage SpecThreshold SpecFinder SpecPicture SpecSheet
  EncodeProofs DrawProofs RenderProofs PictureProofs LitProofs DotProofs PaperProofs SheetProofs SheetRender SheetOrder SheetScan SpecPaperSheet SpecQR.
From Coq Require Import ZifyBool.
Open Scope Z_scope.
Set Bullet Behavior "Strict Subproofs".

Lemma strip_ext f g a l : (forall x, a <= x < a + Z.of_nat l -> f x = g x) -> strip f a l = strip g a l.
Proof. induction l as [|l IH]; intros H; [reflexivity|]. cbn [strip]. rewrite IH by (intros x Hx; apply H; lia). rewrite H by lia. reflexivity. Qed.

(** * One row of the picture *)

Section Row.
Context (d m w h : Z) (fill : Z -> Z -> Z) (ks : list mark) (y : Z).
Definition here (k : mark) : Prop := In k ks /\ mk_oy k <= y < mk_oy k + side k.
Context (D : 1 <= d) (Md : 2 * d + 2 <= m) (Dm : m <= 8 * d) (Hy : 0 <= y < h).
Context (Mk : forall k, here k -> mk_m k = m /\ 1 <= mk_v k <= 40 /\ function_patterns (mk_v k) (mk_sym k) /\ 4 * m <= mk_ox k /\ mk_ox k + side k + 4 * m <= w).
Context (Ap : forall k k', here k -> here k' -> k = k' \/ mk_ox k + side k + 4 * m <= mk_ox k' \/ mk_ox k' + side k' + 4 * m <= mk_ox k).
Context (Ink : forall x, 0 <= x < w -> if overlay (dots d) ks x y then fill x y = 0 else 241 <= fill x y <= 255).
Notation row := (fun x => fill x y).
Notation n k := (symbol_size (mk_v k)).

Definition free (x : Z) : Prop := forall k, here k -> ~ (mk_ox k <= x < mk_ox k + side k).

Lemma row_range x : 0 <= x < w -> 0 <= fill x y <= 255.
Proof using d m w h fill ks y D Md Dm Hy Mk Ap Ink. intros Hx. pose proof (Ink x Hx). destruct (overlay _ _ _ _); lia. Qed.

Lemma dots_square k x : dots d k x y = true -> mk_ox k <= x < mk_ox k + side k /\ mk_oy k <= y < mk_oy k + side k.
Proof using d m w h fill ks y D Md Dm Hy Mk Ap Ink. unfold dots, dotted, side. cbv zeta. rewrite !andb_true_iff. lia. Qed.

Lemma free_light x : 0 <= x < w -> free x -> 241 <= fill x y.
Proof using d m w h fill ks y D Md Dm Hy Mk Ap Ink.
  intros Hx F. pose proof (Ink x Hx) as I. destruct (overlay (dots d) ks x y) eqn:E; [exfalso|lia].
  apply existsb_exists in E as (k & Hk & E). apply dots_square in E. apply (F k); [split; [exact Hk|]; tauto|tauto].
Qed.

Lemma free_dec x : free x \/ exists k, here k /\ mk_ox k <= x < mk_ox k + side k.
Proof using d m w h fill ks y D Md Dm Hy Mk Ap Ink.
  destruct (existsb (fun k => (mk_oy k <=? y) && (y <? mk_oy k + side k) && (mk_ox k <=? x) && (x <? mk_ox k + side k)) ks) eqn:E.
  - right. apply existsb_exists in E as (k & Hk & E). exists k. unfold here. rewrite !andb_true_iff in E. split; [split; [exact Hk|lia]|lia].
  - left. intros k [Hk Hr] Hx. assert (X : existsb (fun k => (mk_oy k <=? y) && (y <? mk_oy k + side k) && (mk_ox k <=? x) && (x <? mk_ox k + side k)) ks = true); [|congruence].
    apply existsb_exists. exists k. split; [exact Hk|]. lia.
Qed.

Lemma around_free k x : here k -> mk_ox k - 4 * m <= x < mk_ox k \/ mk_ox k + side k <= x < mk_ox k + side k + 4 * m -> free x.
Proof using d m w h fill ks y D Md Dm Hy Mk Ap Ink.
  intros Hk Hx k' Hk' Hx'. pose proof (proj2 Hk). destruct (Ap k k' Hk Hk') as [<-|[A|A]]; lia.
Qed.

(** Eight modules of one symbol. *)
Lemma eight k i : here k -> 0 <= i -> i + 8 <= n k -> 723 * m <= 4 * strip row (mk_ox k + i * m) (Z.to_nat (8 * m)).
Proof using d m w h fill ks y D Md Dm Hy Mk Ap Ink.
  intros Hk I0 I8. destruct (Mk k Hk) as (Em & V & Fp & Ox & Rw). assert (M : 0 < m) by lia.
  assert (Sd : side k = n k * m) by (unfold side; rewrite Em; reflexivity).
  set (fill' := fun x y' => if (y' =? y) && (mk_ox k <=? x) && (x <? mk_ox k + side k) then fill x y
    else if dotted (mk_v k) (mk_sym k) m d (mk_ox k) (mk_oy k) (mk_r k) x y' then 0 else 255).
  assert (Ink' : forall x y', inside w h (x, y') -> if dotted (mk_v k) (mk_sym k) m d (mk_ox k) (mk_oy k) (mk_r k) x y' then fill' x y' = 0 else 241 <= fill' x y' <= 255).
  { intros x y' Hq. unfold fill'. destruct ((y' =? y) && (mk_ox k <=? x) && (x <? mk_ox k + side k)) eqn:E.
    - rewrite !andb_true_iff in E. assert (y' = y) by lia. subst y'. pose proof (Ink x ltac:(unfold inside in Hq; cbn [fst snd] in Hq; lia)) as Ix.
      assert (Ov : overlay (dots d) ks x y = dotted (mk_v k) (mk_sym k) m d (mk_ox k) (mk_oy k) (mk_r k) x y).
      { apply Bool.eq_iff_eq_true. split.
        - intros O. apply existsb_exists in O as (k' & Hk' & O). pose proof (dots_square k' x O) as [O1 O2].
          destruct (Ap k k' Hk (conj Hk' O2)) as [<-|[A|A]]; [|lia|lia]. unfold dots in O. rewrite Em in O. exact O.
        - intros O. apply existsb_exists. exists k. split; [exact (proj1 Hk)|]. unfold dots. rewrite Em. exact O. }
      rewrite Ov in Ix. exact Ix.
    - destruct (dotted _ _ _ _ _ _ _ _ _); lia. }
  pose proof (glow_eight (mk_v k) (mk_sym k) m d (mk_ox k) (mk_oy k) (mk_r k) w h fill' V Fp D Md Dm Ox ltac:(lia) Ink' y Hy ltac:(destruct Hk; lia) i ltac:(nia) ltac:(nia)) as G.
  rewrite (strip_ext (fun x => fill' x y) row) in G; [exact G|].
  intros x Hx. unfold fill'. replace ((y =? y) && (mk_ox k <=? x) && (x <? mk_ox k + side k)) with true; [reflexivity|].
  assert (x < mk_ox k + side k) by nia. assert (mk_ox k <= x) by nia. lia.
Qed.

(** The first place that belongs to a symbol. *)
Lemma first_taken (l : nat) a : (forall x, a <= x < a + Z.of_nat l -> free x)
  \/ exists f, 0 <= f < Z.of_nat l /\ (forall x, a <= x < a + f -> free x) /\ exists k, here k /\ mk_ox k <= a + f < mk_ox k + side k.
Proof using d m w h fill ks y D Md Dm Hy Mk Ap Ink.
  induction l as [|l [IH|(f & F1 & F2 & F3)]]; [left; lia| |right; exists f; split; [lia|]; split; assumption].
  destruct (free_dec (a + Z.of_nat l)) as [F|N].
  - left. intros x Hx. destruct (Z.eq_dec x (a + Z.of_nat l)) as [->|Q]; [exact F|apply IH; lia].
  - right. exists (Z.of_nat l). split; [lia|]. split; [exact IH|exact N].
Qed.

Lemma starts k x : here k -> mk_ox k <= x < mk_ox k + side k -> free (x - 1) -> x = mk_ox k.
Proof using d m w h fill ks y D Md Dm Hy Mk Ap Ink. intros Hk Hx F. destruct (Z.eq_dec x (mk_ox k)) as [Q|Q]; [exact Q|]. exfalso. apply (F k Hk). lia. Qed.

(** Where tiles of eight modules may start: between two modules of a symbol, or before a module's width of paper. *)
Definition good (a : Z) : Prop := (exists k i, here k /\ 0 <= i < n k /\ a = mk_ox k + i * m) \/ (forall x, a <= x < a + m -> free x).

Lemma tiles l : forall a, 0 <= a -> a + Z.of_nat l <= w -> good a -> 723 * (m * (Z.of_nat l / (8 * m))) <= 4 * strip row a l.
Proof using d m w h fill ks y D Md Dm Hy Mk Ap Ink.
  assert (M : 0 < m) by lia.
  induction l as [l IH] using (well_founded_induction lt_wf). intros a A B G.
  assert (NN : forall x, a <= x < a + Z.of_nat l -> 0 <= row x) by (intros x Hx; apply row_range; lia).
  destruct (Z_lt_dec (Z.of_nat l) (8 * m)) as [S|S].
  { rewrite Z.div_small by lia. pose proof (strip_ge row a l 0 NN). lia. }
  (* one tile of [t] pixels with the light [L], then the rest *)
  assert (Go : forall t, 0 < t <= Z.of_nat l -> good (a + t) -> forall c, 723 * (m * c) <= 4 * strip row a (Z.to_nat t) -> Z.of_nat l / (8 * m) <= (Z.of_nat l - t) / (8 * m) + c ->
    723 * (m * (Z.of_nat l / (8 * m))) <= 4 * strip row a l).
  { intros t Ht Gt c L Q. pose proof (IH (l - Z.to_nat t)%nat ltac:(lia) (a + t) ltac:(lia) ltac:(lia) Gt) as R.
    replace l with (Z.to_nat t + (l - Z.to_nat t))%nat at 2 by lia. rewrite strip_app. rewrite Z2Nat.id by lia.
    replace (Z.of_nat (l - Z.to_nat t)) with (Z.of_nat l - t) in R by lia.
    assert (m * (Z.of_nat l / (8 * m)) <= m * ((Z.of_nat l - t) / (8 * m)) + m * c) by (clear - Q M; nia). lia. }
  assert (Dv : forall t, t <= 8 * m -> Z.of_nat l / (8 * m) <= (Z.of_nat l - t) / (8 * m) + 1).
  { intros t Ht. transitivity ((Z.of_nat l - t + 1 * (8 * m)) / (8 * m)); [apply Z.div_le_mono; lia|]. rewrite Z.div_add by lia. lia. }
  destruct G as [(k & i & Hk & Hi & Ea)|F].
  - destruct (Mk k Hk) as (Em & V & Fp & Ox & Rw). assert (Sd : side k = n k * m) by (unfold side; rewrite Em; reflexivity).
    destruct (Z_le_dec (i + 8) (n k)) as [I8|I8].
    + apply (Go (8 * m) ltac:(lia)) with (c := 1); [| |apply Dv; lia].
      * destruct (Z.eq_dec (i + 8) (n k)) as [Q|Q]; [right; intros x Hx; apply (around_free k x Hk); right; clear - Hx Ea Sd Q M; nia|].
        left. exists k, (i + 8). split; [exact Hk|]. split; [lia|]. lia.
      * rewrite Ea. pose proof (eight k i Hk ltac:(lia) I8). lia.
    + assert (T8 : (n k - i + 1) * m <= 8 * m) by (clear - I8 M; nia).
      apply (Go ((n k - i + 1) * m)) with (c := 1); [clear - T8 S Hi M; nia| | |apply Dv; exact T8].
      * right. intros x Hx. apply (around_free k x Hk). right. clear - Hx Ea Sd M; nia.
      * pose proof (strip_sub row a (Z.to_nat ((n k - i + 1) * m)) (mk_ox k + side k) (Z.to_nat m)) as Sb.
        pose proof (strip_ge row (mk_ox k + side k) (Z.to_nat m) 241) as Gl.
        assert (X1 : 0 <= (n k - i + 1) * m) by (clear - Hi M; nia).
        assert (X2 : mk_ox k + side k + m = a + (n k - i + 1) * m) by (clear - Ea Sd; nia).
        specialize (Sb ltac:(intros x Hx; apply NN; lia) ltac:(clear - Ea Sd Hi M; nia) ltac:(lia)).
        specialize (Gl ltac:(intros x Hx; apply free_light; [lia|apply (around_free k x Hk); lia])). lia.
  - destruct (first_taken l a) as [Fa|(f & F1 & F2 & k & Hk & Hx)].
    + pose proof (strip_ge row a l 241 ltac:(intros x Hx; apply free_light; [lia|apply Fa; exact Hx])) as Gl.
      assert (8 * m * (Z.of_nat l / (8 * m)) <= Z.of_nat l) by (apply Z.mul_div_le; lia). lia.
    + assert (Fm : m <= f) by (destruct (Z_le_dec m f) as [Q|Q]; [exact Q|exfalso; apply (F (a + f) ltac:(lia) k Hk); exact Hx]).
      pose proof (starts k (a + f) Hk Hx (F2 (a + f - 1) ltac:(lia))) as St.
      destruct (Mk k Hk) as (Em & V & Fp & Ox & Rw).
      apply (Go f ltac:(lia)) with (c := f / (8 * m) + 1).
      * left. exists k, 0. split; [exact Hk|]. split; [unfold symbol_size; lia|]. lia.
      * pose proof (strip_ge row a (Z.to_nat f) 241 ltac:(intros x Hx'; apply free_light; [lia|apply F2; lia])) as Gl.
        assert (8 * m * (f / (8 * m)) <= f) by (apply Z.mul_div_le; lia).
        replace (m * (f / (8 * m) + 1)) with (m * (f / (8 * m)) + m) by lia. lia.
      * pose proof (Z.div_mod (Z.of_nat l) (8 * m) ltac:(lia)) as E1. pose proof (Z.div_mod f (8 * m) ltac:(lia)) as E2. pose proof (Z.div_mod (Z.of_nat l - f) (8 * m) ltac:(lia)) as E3.
        pose proof (Z.mod_pos_bound (Z.of_nat l) (8 * m) ltac:(lia)). pose proof (Z.mod_pos_bound f (8 * m) ltac:(lia)). pose proof (Z.mod_pos_bound (Z.of_nat l - f) (8 * m) ltac:(lia)).
        clear - E1 E2 E3 H H0 H1 M. set (a := Z.of_nat l / (8 * m)) in *. set (b := f / (8 * m)) in *. set (c := (Z.of_nat l - f) / (8 * m)) in *.
        assert (8 * m * a < 8 * m * (c + b + 2)) by lia. assert (a < c + b + 2) by (apply (Z.mul_lt_mono_pos_l (8 * m)); lia). lia.
Qed.

Lemma good_near a : exists a', a <= a' <= a + m - 1 /\ good a'.
Proof using d m w h fill ks y D Md Dm Hy Mk Ap Ink.
  assert (M : 0 < m) by lia. destruct (free_dec a) as [F|(k & Hk & Hx)].
  - destruct (first_taken (Z.to_nat m) a) as [Fa|(f & F1 & F2 & k & Hk & Hx)].
    + exists a. split; [lia|]. right. intros x Hx. apply Fa. lia.
    + assert (0 < f) by (destruct (Z.eq_dec f 0) as [Q|Q]; [exfalso; apply (F k Hk); lia|lia]).
      pose proof (starts k (a + f) Hk Hx (F2 (a + f - 1) ltac:(lia))) as St. exists (a + f). split; [lia|].
      left. exists k, 0. split; [exact Hk|]. destruct (Mk k Hk) as (_ & V & _). split; [unfold symbol_size; lia|]. lia.
  - destruct (Mk k Hk) as (Em & V & Fp & Ox & Rw). assert (Sd : side k = n k * m) by (unfold side; rewrite Em; reflexivity).
    set (i := (a - mk_ox k + (m - 1)) / m). pose proof (Z.div_mod (a - mk_ox k + (m - 1)) m ltac:(lia)) as E. fold i in E. pose proof (Z.mod_pos_bound (a - mk_ox k + (m - 1)) m M).
    exists (mk_ox k + i * m). split; [lia|].
    assert (I0 : 0 <= i) by (apply Z.div_pos; lia). assert (In : i <= n k) by (clear - E H Hx Sd M; nia).
    destruct (Z.eq_dec i (n k)) as [Q|Q].
    + right. intros x Hx'. apply (around_free k x Hk). rewrite Sd, <- Q. lia.
    + left. exists k, i. split; [exact Hk|]. split; [lia|reflexivity].
Qed.

Lemma row_blocks a l b : 0 <= a -> a + Z.of_nat l <= w -> 0 <= b -> m - 1 + 8 * (m * b) <= Z.of_nat l -> 723 * (m * b) <= 4 * strip row a l.
Proof using d m w h fill ks y D Md Dm Hy Mk Ap Ink.
  intros A B Hb L. assert (M : 0 < m) by lia. destruct (good_near a) as (a' & Ha & G). assert (0 <= m * b) by nia.
  pose proof (tiles (Z.to_nat (8 * (m * b))) a' ltac:(lia) ltac:(lia) G) as T. rewrite Z2Nat.id in T by lia.
  replace (8 * (m * b)) with (b * (8 * m)) in T at 1 by ring. rewrite Z.div_mul in T by lia.
  pose proof (strip_sub row a l a' (Z.to_nat (8 * (m * b))) ltac:(intros x Hx; apply row_range; lia) ltac:(lia) ltac:(lia)). lia.
Qed.

(** The quiet zones of the symbol a dark pixel is in. *)
Lemma left_zone k a l : here k -> 0 <= a -> a + Z.of_nat l <= w -> a <= mk_ox k - 4 * m -> mk_ox k <= a + Z.of_nat l -> 964 * m <= strip row a l.
Proof using d m w h fill ks y D Md Dm Hy Mk Ap Ink.
  intros Hk A B C E. destruct (Mk k Hk) as (Em & V & Fp & Ox & Rw).
  pose proof (strip_sub row a l (mk_ox k - 4 * m) (Z.to_nat (4 * m)) ltac:(intros x Hx; apply row_range; lia) ltac:(lia) ltac:(lia)).
  pose proof (strip_ge row (mk_ox k - 4 * m) (Z.to_nat (4 * m)) 241 ltac:(intros x Hx; apply free_light; [lia|apply (around_free k x Hk); lia])). lia.
Qed.

Lemma right_zone k a l : here k -> 0 <= a -> a + Z.of_nat l <= w -> a <= mk_ox k + side k -> mk_ox k + side k + 4 * m <= a + Z.of_nat l -> 964 * m <= strip row a l.
Proof using d m w h fill ks y D Md Dm Hy Mk Ap Ink.
  intros Hk A B C E. destruct (Mk k Hk) as (Em & V & Fp & Ox & Rw).
  pose proof (strip_sub row a l (mk_ox k + side k) (Z.to_nat (4 * m)) ltac:(intros x Hx; apply row_range; lia) ltac:(lia) ltac:(lia)).
  pose proof (strip_ge row (mk_ox k + side k) (Z.to_nat (4 * m)) 241 ltac:(intros x Hx; apply free_light; [lia|apply (around_free k x Hk); lia])). lia.
Qed.

(** Every dark pixel of the row. *)
Lemma row_lit k x : here k -> mk_ox k <= x < mk_ox k + side k -> fill x y = 0 -> lit w (fun q => fill (fst q) (snd q)) (x, y).
Proof using d m w h fill ks y D Md Dm Hy Mk Ap Ink.
  intros Hk Sx I. destruct (Mk k Hk) as (Em & V & Fp & Ox & Rw). assert (Sd : side k = n k * m) by (unfold side; rewrite Em; reflexivity).
  assert (Hx : 0 <= x < w) by lia.
  assert (Wm : 29 * m <= w) by (unfold symbol_size in Sd; clear - Rw Ox V D Md Sd; nia).
  assert (T : memory w = w / 8) by (unfold memory; lia).
  set (t := memory w) in *.
  assert (Sum : forall d1 d2, 0 <= x - Z.of_nat d1 -> x + Z.of_nat d2 < w ->
    let s := strip row (x - Z.of_nat d1) (d1 + S d2) in
    let lum := fun q : pixel => fill (fst q) (snd q) in
    s <= beside lum (x, y) (-1) d1 + beside lum (x, y) 1 d2
    /\ (forall b, 0 <= b -> m - 1 + 8 * (m * b) <= Z.of_nat (d1 + S d2) -> 723 * (m * b) <= 4 * s)
    /\ (Z.of_nat d1 = x \/ Z.of_nat d2 = w - 1 - x -> 964 * m <= s)).
  { intros d1 d2 A B s lum. split; [apply (beside_both lum (x, y) d1 d2); unfold lum; cbn [fst snd]; lia|]. split.
    - intros b Hb L. apply row_blocks; lia.
    - intros [E|E]; unfold s; [apply (left_zone k)|apply (right_zone k)]; try assumption; lia. }
  set (lum := fun q : pixel => fill (fst q) (snd q)) in *.
  destruct (Z_le_dec t (5 * m)) as [Ts|Tl].
  - set (d1 := Z.to_nat (Z.min (3 * (t / 2)) x)). set (d2 := Z.to_nat (Z.min (3 * (t / 2)) (w - 1 - x))).
    assert (H2 : 0 <= t / 2) by (clear - T Hx; lia).
    exists 3, d1, d2. cbn [fst snd]. destruct (Sum d1 d2 ltac:(lia) ltac:(lia)) as (S1 & S2 & S3). fold lum in S1.
    split; [lia|]. split; [fold t; lia|]. split; [fold t; lia|]. split; [lia|]. split; [lia|]. unfold lum at 1. cbn [fst snd]. rewrite I.
    replace (200 * 0 + 390) with 390 by lia. eapply Z.le_trans; [|apply Z.mul_le_mono_nonneg_l; [lia|exact S1]]. fold t.
    apply (enough_small m w t _ (Z.of_nat (d1 + S d2))); [lia|exact Wm|exact T|exact Ts|].
    destruct (Z_le_dec (3 * (t / 2)) x) as [X1|X1]; [|left; apply S3; lia]. destruct (Z_le_dec (3 * (t / 2)) (w - 1 - x)) as [X2|X2]; [|left; apply S3; lia].
    right. split; [lia|exact S2].
  - set (d1 := Z.to_nat (Z.min (2 * (t / 2)) x)). set (d2 := Z.to_nat (Z.min (2 * (t / 2)) (w - 1 - x))).
    assert (H2 : 0 <= t / 2) by (clear - T Hx; lia).
    exists 2, d1, d2. cbn [fst snd]. destruct (Sum d1 d2 ltac:(lia) ltac:(lia)) as (S1 & S2 & S3). fold lum in S1.
    split; [lia|]. split; [fold t; lia|]. split; [fold t; lia|]. split; [lia|]. split; [lia|]. unfold lum at 1. cbn [fst snd]. rewrite I.
    replace (200 * 0 + 390) with 390 by lia. eapply Z.le_trans; [|apply Z.mul_le_mono_nonneg_l; [lia|exact S1]]. fold t.
    apply (enough_large m w t _ (Z.of_nat (d1 + S d2))); [lia|exact Wm|exact T|lia| |exact S2].
    destruct (Z_le_dec (2 * (t / 2)) x) as [X1|X1]; destruct (Z_le_dec (2 * (t / 2)) (w - 1 - x)) as [X2|X2].
    + right. lia.
    + left. split; [apply S3; lia|lia].
    + left. split; [apply S3; lia|lia].
    + exfalso. clear - X1 X2 T Hx. lia.
Qed.
End Row.

(** * Sheets *)

Theorem sheet_two_toned w h d fill ks : 1 <= d -> (forall k, In k ks -> 1 <= mk_v k <= 40 /\ function_patterns (mk_v k) (mk_sym k) /\ labelled w d k) ->
  ForallOrdPairs quiet_between ks ->
  (forall x y, inside w h (x, y) -> if overlay (dots d) ks x y then fill x y = 0 else 241 <= fill x y <= 255) ->
  two_toned w h fill.
Proof.
  intros D K Q Ink x y Hq. pose proof (Ink x y Hq) as I. destruct (overlay (dots d) ks x y) eqn:E; [right|left; exact I]. split; [lia|].
  apply existsb_exists in E as (k & Hk & E).
  assert (Sq : mk_ox k <= x < mk_ox k + side k /\ mk_oy k <= y < mk_oy k + side k).
  { unfold dots, dotted in E. cbv zeta in E. rewrite !andb_true_iff in E. unfold side. lia. }
  destruct (K k Hk) as (V & Fp & [Lm Lx Lr]).
  assert (P : forall k', here ks y k' -> k = k' \/ mk_m k' = mk_m k /\ (mk_ox k + side k + 4 * mk_m k <= mk_ox k' \/ mk_ox k' + side k' + 4 * mk_m k <= mk_ox k)).
  { intros k' [Hk' Hr]. pose proof (ForallOrdPairs_In Q k k' Hk Hk') as [->|[X|X]]; [left; reflexivity| |]; right; unfold quiet_between in X; intuition lia. }
  apply (row_lit d (mk_m k) w h fill ks y) with (k := k); try assumption; try lia.
  - unfold inside in Hq. cbn [fst snd] in Hq. lia.
  - intros k' Hk'. destruct (P k' Hk') as [<-|[Em _]].
    + split; [reflexivity|]. split; [exact V|]. split; [exact Fp|]. lia.
    + destruct (K k' (proj1 Hk')) as (V' & Fp' & [Lm' Lx' Lr']). split; [exact Em|]. split; [exact V'|]. split; [exact Fp'|]. lia.
  - intros k1 k2 H1 H2. pose proof (ForallOrdPairs_In Q k1 k2 (proj1 H1) (proj1 H2)) as [->|X]; [left; reflexivity|].
    assert (E1 : mk_m k1 = mk_m k) by (destruct (P k1 H1) as [<-|[? _]]; [reflexivity|assumption]).
    assert (E2 : mk_m k2 = mk_m k) by (destruct (P k2 H2) as [<-|[? _]]; [reflexivity|assumption]).
    destruct H1 as [_ H1], H2 as [_ H2]. right. destruct X as [X|X]; unfold quiet_between in X; rewrite E1, E2 in X; intuition lia.
  - intros x' Hx'. apply (Ink x' y). unfold inside in *. cbn [fst snd] in *. lia.
  - split; [exact Hk|tauto].
Qed.

Lemma quiet_spaced l : (forall k, In k l -> 1 <= mk_m k) -> ForallOrdPairs quiet_between l -> ForallOrdPairs spaced l.
Proof.
  intros Pm Hl. induction Hl as [|a l Ha Hl IH]; constructor.
  - apply Forall_forall. intros b Hb. rewrite Forall_forall in Ha. specialize (Ha b Hb). pose proof (Pm a (or_introl eq_refl)). unfold quiet_between in Ha. unfold spaced. intuition lia.
  - apply IH. intros k Hk. apply Pm. right. exact Hk.
Qed.

Theorem scan_labels {Srt : Sorter spec_float} w h d fill ts : 16 <= w <= 32768 -> 1 <= h <= 32768 -> 1 <= d ->
  (forall t, In t ts -> let k := pr_mark t in
     1 <= mk_v k <= 40 /\ mk_v k <> 21 /\ labelled w d k /\ 0 <= mk_oy k /\ mk_oy k + side k <= h
     /\ (7 * mk_m k - 1) * (7 * mk_m k - 1) * furthest (mk_v k) (mk_m k) (mk_ox k) (mk_oy k) (mk_r k) < 2 ^ 31
     /\ mk_sym k = encode (mk_v k) (pr_level t) (pr_mask t) (pr_text t)
     /\ 0 <= pr_mask t < 8 /\ message_ok (mk_v k) (pr_text t) /\ fits (mk_v k) (pr_level t) (pr_text t)) ->
  ForallOrdPairs quiet_between (map pr_mark ts) -> orderly (map pr_mark ts) ->
  (forall x y, inside w h (x, y) -> if overlay (dots d) (map pr_mark ts) x y then fill x y = 0 else 241 <= fill x y <= 255) ->
  exists p, prepare_from_greyscale w h fill = Ok p /\ scans_sheet p ts.
Proof.
  intros Hw Hh Hd T Q Od Ink.
  assert (Tt : two_toned w h fill).
  { apply (sheet_two_toned w h d fill (map pr_mark ts) Hd); [|exact Q|exact Ink]. intros k Hk. apply in_map_iff in Hk as (t & <- & Ht).
    destruct (T t Ht) as (V & _ & L & _ & _ & _ & Es & _). split; [exact V|]. split; [rewrite Es; apply encode_patterns; exact V|exact L]. }
  assert (Sp : ForallOrdPairs spaced (map pr_mark ts)) by (apply quiet_spaced; [|exact Q]; intros k Hk; apply in_map_iff in Hk as (t & <- & Ht); destruct (T t Ht) as (_ & _ & [L1 _ _] & _); lia).
  apply scan_sheet_greyscale.
  - intros x y Hq. pose proof (Ink x y Hq) as I. destruct (overlay _ _ _ _); lia.
  - eapply clear_sheet_same; [|apply (overlay_clear w h (dots d))]; try assumption; try lia.
    + intros [x y] Hq. pose proof (Ink x y Hq) as I. unfold ink, shade. cbn [fst snd].
      rewrite (two_toned_dark w h fill) by (try assumption; try lia; unfold usize_max; nia).
      destruct (overlay _ _ _ _).
      * rewrite I. cbn. tauto.
      * replace (fill x y <? 241) with false by lia. tauto.
    + intros k Hk. apply in_map_iff in Hk as (t & <- & Ht).
      destruct (T t Ht) as (V & V21 & [L1 L2 L3] & Oy & Rh & Pr & Es & _). unfold side in L3, Rh. apply dotted_alone. apply dotted_clear; try assumption; try lia.
      rewrite Es. apply encode_patterns. exact V.
  - intros t Ht. destruct (T t Ht) as (V & _ & _ & _ & _ & _ & Es & Mk & Ok_ & Ft). split; [exact Mk|]. split; [exact Ok_|]. split; [exact Ft|].
    rewrite Es. apply encode_is_symbol; assumption.
Qed.

Theorem scan_label_row {Srt : Sorter spec_float} w h d fill v m oy ts : 16 <= w <= 32768 -> 1 <= h <= 32768 -> 1 <= d -> 2 * d + 2 <= m <= 8 * d ->
  1 <= v <= 40 -> v <> 21 -> 0 <= oy -> oy + symbol_size v * m <= h -> (7 * m - 1) * (7 * m - 1) * (w + h) < 2 ^ 31 ->
  (forall t, In t ts -> let k := pr_mark t in mk_v k = v /\ mk_m k = m /\ mk_r k = 0%nat /\ mk_oy k = oy
     /\ 4 * m <= mk_ox k /\ mk_ox k + symbol_size v * m + 4 * m <= w
     /\ mk_sym k = encode v (pr_level t) (pr_mask t) (pr_text t)
     /\ 0 <= pr_mask t < 8 /\ message_ok v (pr_text t) /\ fits v (pr_level t) (pr_text t)) ->
  ForallOrdPairs (fun t t' => let gap k k' := mk_ox k + symbol_size v * m + 4 * m <= mk_ox k' in
    gap (pr_mark t) (pr_mark t') \/ gap (pr_mark t') (pr_mark t)) ts ->
  (forall x y, inside w h (x, y) -> if overlay (dots d) (map pr_mark ts) x y then fill x y = 0 else 241 <= fill x y <= 255) ->
  exists p, prepare_from_greyscale w h fill = Ok p /\ scans_sheet p ts.
Proof.
  intros Hw Hh Hd Hm V V21 Oy Rh Pr T G Ink.
  assert (Q : ForallOrdPairs quiet_between (map pr_mark ts)).
  { revert T. clear - G. induction G as [|a l Ha Hl IH]; intros T; constructor.
    - apply Forall_forall. intros k Hk. apply in_map_iff in Hk as (t & <- & Ht). rewrite Forall_forall in Ha. specialize (Ha t Ht). cbv beta zeta in Ha.
      destruct (T a (or_introl eq_refl)) as (E1 & E2 & _). destruct (T t (or_intror Ht)) as (E3 & E4 & _). unfold quiet_between, side. rewrite E1, E2, E3, E4. right; right. split; [reflexivity|exact Ha].
    - apply IH. intros t Ht. apply T. right. exact Ht. }
  assert (Sp : ForallOrdPairs spaced (map pr_mark ts)) by (apply quiet_spaced; [|exact Q]; intros k Hk; apply in_map_iff in Hk as (t & <- & Ht); destruct (T t Ht) as (_ & E & _); lia).
  apply (scan_labels w h d fill ts Hw Hh Hd); [|exact Q| |exact Ink].
  - intros t Ht. destruct (T t Ht) as (E1 & E2 & E3 & E4 & X1 & X2 & Es & M & O & F). cbv zeta. unfold side. rewrite E1, E2, E3, E4.
    split; [exact V|]. split; [exact V21|]. split; [constructor; unfold side; rewrite ?E1, ?E2; lia|]. split; [exact Oy|]. split; [exact Rh|].
    split; [|split; [exact Es|]; split; [exact M|]; split; [exact O|exact F]].
    eapply Z.le_lt_trans; [|exact Pr]. apply Z.mul_le_mono_nonneg_l; [nia|]. unfold furthest, step_at. cbn [fst snd]. set (n := symbol_size v) in *. lia.
  - apply (row_orderly (map pr_mark ts) v m V ltac:(lia)) with (oy := oy); [|exact Sp|].
    + intros k Hk. apply in_map_iff in Hk as (t & <- & Ht). destruct (T t Ht) as (E1 & E2 & E3 & _). auto.
    + intros k Hk. apply in_map_iff in Hk as (t & <- & Ht). destruct (T t Ht) as (_ & _ & _ & E & _). exact E.
Qed.

Theorem scan_label_column {Srt : Sorter spec_float} w h d fill v m ox ts : 16 <= w <= 32768 -> 1 <= h <= 32768 -> 1 <= d -> 2 * d + 2 <= m <= 8 * d ->
  1 <= v <= 40 -> v <> 21 -> 4 * m <= ox -> ox + symbol_size v * m + 4 * m <= w -> (7 * m - 1) * (7 * m - 1) * (w + h) < 2 ^ 31 ->
  (forall t, In t ts -> let k := pr_mark t in mk_v k = v /\ mk_m k = m /\ mk_r k = 0%nat /\ mk_ox k = ox
     /\ 0 <= mk_oy k /\ mk_oy k + symbol_size v * m <= h
     /\ mk_sym k = encode v (pr_level t) (pr_mask t) (pr_text t)
     /\ 0 <= pr_mask t < 8 /\ message_ok v (pr_text t) /\ fits v (pr_level t) (pr_text t)) ->
  ForallOrdPairs (fun t t' => let gap k k' := mk_oy k + symbol_size v * m < mk_oy k' in
    gap (pr_mark t) (pr_mark t') \/ gap (pr_mark t') (pr_mark t)) ts ->
  (forall x y, inside w h (x, y) -> if overlay (dots d) (map pr_mark ts) x y then fill x y = 0 else 241 <= fill x y <= 255) ->
  exists p, prepare_from_greyscale w h fill = Ok p /\ scans_sheet p ts.
Proof.
  intros Hw Hh Hd Hm V V21 X1 X2 Pr T G Ink.
  assert (Q : ForallOrdPairs quiet_between (map pr_mark ts)).
  { revert T. clear - G. induction G as [|a l Ha Hl IH]; intros T; constructor.
    - apply Forall_forall. intros k Hk. apply in_map_iff in Hk as (t & <- & Ht). rewrite Forall_forall in Ha. specialize (Ha t Ht). cbv beta zeta in Ha.
      destruct (T a (or_introl eq_refl)) as (E1 & E2 & _). destruct (T t (or_intror Ht)) as (E3 & E4 & _). unfold quiet_between, side. rewrite E1, E2, E3, E4. tauto.
    - apply IH. intros t Ht. apply T. right. exact Ht. }
  assert (Sp : ForallOrdPairs spaced (map pr_mark ts)) by (apply quiet_spaced; [|exact Q]; intros k Hk; apply in_map_iff in Hk as (t & <- & Ht); destruct (T t Ht) as (_ & E & _); lia).
  apply (scan_labels w h d fill ts Hw Hh Hd); [|exact Q| |exact Ink].
  - intros t Ht. destruct (T t Ht) as (E1 & E2 & E3 & E4 & Y1 & Y2 & Es & M & O & F). cbv zeta. unfold side. rewrite E1, E2, E3, E4.
    split; [exact V|]. split; [exact V21|]. split; [constructor; unfold side; rewrite ?E1, ?E2, ?E4; lia|]. split; [exact Y1|]. split; [exact Y2|].
    split; [|split; [exact Es|]; split; [exact M|]; split; [exact O|exact F]].
    eapply Z.le_lt_trans; [|exact Pr]. apply Z.mul_le_mono_nonneg_l; [nia|]. unfold furthest, step_at. cbn [fst snd]. set (n := symbol_size v) in *. lia.
  - apply (column_orderly (map pr_mark ts) v m V ltac:(lia)) with (ox := ox); [|exact Sp|].
    + intros k Hk. apply in_map_iff in Hk as (t & <- & Ht). destruct (T t Ht) as (E1 & E2 & E3 & _). auto.
    + intros k Hk. apply in_map_iff in Hk as (t & <- & Ht). destruct (T t Ht) as (_ & _ & _ & E & _). exact E.
Qed.

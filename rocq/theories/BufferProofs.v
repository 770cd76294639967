(** Any buffer that keeps what is written to it is as good as the library's own. *)
From Verif Require Import Base Lib VersionDb ModelDecode ModelImage ModelGeometry ModelDetect ModelIdentify ModelOutput ModelBuffer SpecImage SpecBuffer FloodProofs.
From Coq Require Import ZifyBool.
Open Scope Z_scope.
Set Bullet Behavior "Strict Subproofs".

(** * Outcomes that go together *)

Definition sim {A A'} (R : A -> A' -> Prop) (a : out A) (a' : out A') : Prop :=
  match a, a' with
  | Ok x, Ok x' => R x x'
  | Panic, Panic => True
  | Diverge, Diverge => True
  | _, _ => False
  end.

Lemma sim_refl A (a : out A) : sim eq a a.
Proof. destruct a as [x|[]| |]; cbn; auto. Qed.

Lemma sim_bind A A' C C' (R : A -> A' -> Prop) (Q : C -> C' -> Prop) a a' (k : A -> out C) (k' : A' -> out C') :
  sim R a a' -> (forall x x', R x x' -> sim Q (k x) (k' x')) -> sim Q (bind a k) (bind a' k').
Proof. intros H K. destruct a, a'; cbn in *; try contradiction; auto. Qed.

Lemma sim_same A C C' (Q : C -> C' -> Prop) (a : out A) (k : A -> out C) (k' : A -> out C') :
  (forall x, a = Ok x -> sim Q (k x) (k' x)) -> sim Q (bind a k) (bind a k').
Proof. intros K. destruct a as [x|[]| |]; cbn; auto. Qed.

Lemma sim_for A C C' (R : C -> C' -> Prop) (l : list A) f f' s s' : R s s' -> (forall i t t', In i l -> R t t' -> sim R (f i t) (f' i t')) ->
  sim R (for_each l f s) (for_each l f' s').
Proof.
  revert s s'. induction l as [|i l IH]; intros s s' H F; [exact H|]. cbn [for_each]. apply sim_bind with (R := R); [apply F; [left; reflexivity|exact H]|].
  intros t t' Ht. apply IH; [exact Ht|]. intros j u u' Hj. apply F. right. exact Hj.
Qed.

Lemma sim_weaken A A' (R Q : A -> A' -> Prop) a a' : (forall x x', R x x' -> Q x x') -> sim R a a' -> sim Q a a'.
Proof. intros W. destruct a, a'; cbn; auto. Qed.

Section Buffer.
Context {B : Type} {IB : ImageBuffer B} (valid : B -> Prop) (Lw : lawful valid).
Context (w h : Z) (Hw : 0 <= w <= 2 ^ 31) (Hh : 0 <= h <= 2 ^ 31).

Definition within (x y : Z) : Prop := 0 <= x < w /\ 0 <= y < h.

(** The buffer holds the pixels of the image. *)
Definition holds (b : B) (im : image) : Prop :=
  valid b /\ wf_image im /\ (im_w im = w /\ im_h im = h) /\ (ib_width b = w /\ ib_height b = h)
  /\ forall x y, within x y -> ib_get b x y = get_pixel im x y.

Lemma holds_get b im x y : holds b im -> within x y -> ib_get b x y = get_pixel im x y.
Proof. intros (_ & _ & _ & _ & H). apply H. Qed.

Lemma holds_set b im x y c : holds b im -> within x y -> 0 <= c <= 255 -> sim holds (ib_set b x y c) (set_pixel im x y c).
Proof using Lw.
  intros (V & W & (W1 & W2) & (S1 & S2) & G) [Hx Hy] Hc. destruct (lw_set _ Lw b x y c V) as (b' & E & V' & S1' & S2' & G1 & G2); try lia.
  assert (I : in_image im (x, y)) by (split; cbn; lia). rewrite E. unfold out. rewrite (set_pixel_ok _ _ _ _ W I). cbn. pose proof (put_wf im (x, y) c W) as Wp.
  destruct (put_size im (x, y) c) as [Z1 Z2].
  split; [exact V'|]. split; [exact Wp|]. split; [lia|]. split; [lia|]. intros x' y' [Hx' Hy'].
  assert (I2 : in_image im (x', y')) by (split; cbn; lia). assert (I' : in_image (put im (x, y) c) (x', y')) by exact I2. unfold out in *. rewrite (get_pixel_ok _ _ _ Wp I').
  destruct (pix_put im (x, y) c (x', y') W I I2) as [P1 P2].
  assert (D : (x', y') = (x, y) \/ (x', y') <> (x, y)) by (destruct (Z.eq_dec x' x), (Z.eq_dec y' y); [left|right|right|right]; congruence).
  destruct D as [D|D].
  - rewrite (P1 D). injection D as -> ->. exact G1.
  - rewrite (P2 D), G2 by (assumption || lia). rewrite G by (split; lia). apply (get_pixel_ok _ _ _ W I2).
Qed.

Lemma holds_w b im : holds b im -> ib_width b = im_w im.
Proof. intros (_ & _ & (W1 & W2) & (S1 & S2) & _). lia. Qed.
Lemma holds_h b im : holds b im -> ib_height b = im_h im.
Proof. intros (_ & _ & (W1 & W2) & (S1 & S2) & _). lia. Qed.

(** * Preparation *)

Lemma s_average b im ts y x s : holds b im -> within x y -> b_average_step b ts y x s = average_step im ts y x s.
Proof.
  intros H [Hx Hy]. pose proof H as (_ & _ & (W1 & W2) & (S1 & S2) & _). destruct s as [[ra av] au]. unfold b_average_step, average_step. cbv zeta. rewrite S1, W1.
  unfold usub. replace (1 <=? w) with true by lia. cbn [bind]. replace (x <=? w - 1) with true by lia. cbn [bind].
  destruct (y mod 2 =? 0); rewrite !(holds_get b im) by (try exact H; split; lia); reflexivity.
Qed.

Lemma s_fill ra ts y x b im : holds b im -> within x y -> sim holds (b_fill_step ra ts y x b) (fill_step ra ts y x im).
Proof using Lw.
  intros H I. unfold b_fill_step, fill_step. rewrite (holds_get b im x y H I). apply sim_same. intros p _. apply sim_same. intros a _. apply sim_same. intros m _. apply sim_same. intros d _.
  apply sim_same. intros c Ec. apply holds_set; [exact H|exact I|]. destruct (p <? m / d); cbn in Ec; injection Ec as <-; lia.
Qed.

Lemma for_same A C (l : list A) (f f' : A -> C -> out C) s : (forall i t, In i l -> f i t = f' i t) -> for_each l f s = for_each l f' s.
Proof.
  revert s. induction l as [|i l IH]; intros s F; [reflexivity|]. cbn [for_each]. rewrite (F i s) by (left; reflexivity). destruct (f' i s); cbn [bind]; try reflexivity. apply IH. intros. apply F. right. assumption.
Qed.

Definition held3 (t : B * Z * Z) (t' : image * Z * Z) : Prop := holds (fst (fst t)) (fst (fst t')) /\ snd (fst t) = snd (fst t') /\ snd t = snd t'.

Lemma s_row ts y t t' : held3 t t' -> 0 <= y < h -> sim held3 (b_prepare_row ts y t) (prepare_row ts y t').
Proof using Lw.
  destruct t as [[b av] au], t' as [[im av'] au']. intros (H & E1 & E2) Hy. cbn [fst snd] in H, E1, E2. subst av' au'. unfold b_prepare_row, prepare_row. cbv zeta. rewrite (holds_w b im H).
  pose proof H as (_ & _ & (W1 & W2) & _). rewrite W1.
  rewrite (for_same _ _ _ (b_average_step b ts y) (average_step im ts y)) by (intros x s Hx; apply in_zrange in Hx; apply s_average; [exact H|split; lia]).
  apply sim_same. intros [[ra av'] au'] _. apply sim_bind with (R := holds).
  - apply sim_for; [exact H|]. intros x b1 im1 Hx H1. apply in_zrange in Hx. apply s_fill; [exact H1|split; lia].
  - intros b1 im1 H1. cbn. split; [exact H1|]. auto.
Qed.

(** * Prepared images *)

Definition region_ok (r : region) : Prop := match r with Unclaimed _ x y _ => within x y | _ => True end.
Definition cache_ok (c : cache) : Prop := Forall (fun e => 0 <= fst e /\ region_ok (snd e)) c.
Definition same (p : bprepared B) (q : prepared) : Prop := holds (b_buf p) (p_buf q) /\ b_cache p = p_cache q /\ cache_ok (p_cache q).

Lemma s_prepare b im : holds b im -> sim same (b_prepare b) (prepare im).
Proof using Lw.
  intros H. unfold b_prepare, prepare, b_threshold, threshold. cbv zeta. rewrite (holds_w b im H), (holds_h b im H). pose proof H as (_ & _ & (W1 & W2) & _). rewrite W2.
  apply sim_bind with (R := holds).
  - apply sim_bind with (R := held3).
    + apply sim_for; [split; [exact H|split; reflexivity]|]. intros y t t' Hy Ht. apply in_zrange in Hy. apply s_row; [exact Ht|lia].
    + intros [[b1 a1] c1] [[im1 a2] c2] (H1 & _). exact H1.
  - intros b1 im1 H1. cbn. split; [exact H1|]. split; [reflexivity|constructor].
Qed.

Lemma s_without b im : holds b im -> sim same (b_without_preparation b) (without_preparation im).
Proof.
  intros H. unfold b_without_preparation, without_preparation. rewrite (holds_w b im H), (holds_h b im H). pose proof H as (_ & _ & (W1 & W2) & _). rewrite W1, W2.
  rewrite (for_same _ _ _ (fun y _ => for_each (zrange 0 w) (fun x _ => let* p := ib_get b x y in assert_ (p <? 2)) tt) (fun y _ => for_each (zrange 0 w) (fun x _ => let* p := get_pixel im x y in assert_ (p <? 2)) tt)).
  - apply sim_same. intros _ _. cbn. split; [exact H|]. split; [reflexivity|constructor].
  - intros y _ Hy. apply for_same. intros x _ Hx. apply in_zrange in Hy, Hx. rewrite (holds_get b im x y H) by (split; lia). reflexivity.
Qed.

Lemma remove_ok c k : cache_ok c -> cache_ok (cache_remove c k).
Proof. intros H. unfold cache_remove, cache_ok. apply Forall_forall. intros e He. apply filter_In in He as [He _]. revert e He. apply Forall_forall. exact H. Qed.

Lemma removelast_ok c : cache_ok c -> cache_ok (removelast c).
Proof. intros H. induction c as [|e c IH]; [constructor|]. cbn [removelast]. inversion H; subst. destruct c; constructor; [assumption|apply IH; assumption]. Qed.

Lemma put_ok c k r : cache_ok c -> 0 <= k -> region_ok r -> cache_ok (cache_put c k r).
Proof.
  intros H Hk Hr. unfold cache_put. destruct (cache_find c k); [|destruct (_ =? _)]; (constructor; [split; assumption|]); [apply remove_ok|apply removelast_ok|]; exact H.
Qed.

Lemma find_ok c k r : cache_ok c -> cache_find c k = Some r -> 0 <= k /\ region_ok r.
Proof.
  intros H. induction c as [|[k' r'] c IH]; [discriminate|]. cbn [cache_find]. inversion H as [|? ? [H1 H2] H3]; subst. cbn [fst snd] in *.
  destruct (k' =? k) eqn:E; [|apply IH; exact H3]. intros Q. injection Q as <-. split; [lia|exact H2].
Qed.

Lemma get_ok c k r c' : cache_ok c -> cache_get c k = Some (r, c') -> cache_ok c' /\ region_ok r.
Proof.
  intros H. unfold cache_get. destruct (cache_find c k) as [r'|] eqn:E; [|discriminate]. intros Q. injection Q as <- <-. destruct (find_ok c k r' H E) as [Hk Hr].
  split; [|exact Hr]. constructor; [split; assumption|]. apply remove_ok. exact H.
Qed.

Lemma pop_ok c k r c' : cache_ok c -> cache_pop c = Some ((k, r), c') -> cache_ok c' /\ 0 <= k /\ region_ok r.
Proof.
  intros H. unfold cache_pop. assert (R : cache_ok (rev c)) by (apply Forall_rev; exact H). destruct (rev c) as [|e t]; [discriminate|]. intros Q. injection Q as -> <-.
  inversion R as [|? ? [R1 R2] R3]; subst. split; [|split; assumption]. apply Forall_rev. exact R3.
Qed.

Section State.
Context (p : bprepared B) (q : prepared) (Sm : same p q).

Lemma s_w : b_p_w p = p_w q.
Proof using Sm. apply holds_w. apply Sm. Qed.
Lemma s_h : b_p_h p = p_h q.
Proof using Sm. apply holds_h. apply Sm. Qed.
Lemma q_w : p_w q = w.
Proof using Sm. destruct Sm as ((_ & _ & (W1 & W2) & _) & _). exact W1. Qed.
Lemma q_h : p_h q = h.
Proof using Sm. destruct Sm as ((_ & _ & (W1 & W2) & _) & _). exact W2. Qed.

Lemma s_at x y : within x y -> b_get_pixel_at p x y = get_pixel_at q x y.
Proof using Sm. intros I. unfold b_get_pixel_at, get_pixel_at. rewrite (holds_get _ _ x y (proj1 Sm) I). reflexivity. Qed.

Lemma s_point a : b_get_pixel_at_point p a = get_pixel_at_point q a.
Proof using Sm Hw Hh.
  unfold b_get_pixel_at_point, get_pixel_at_point. rewrite s_w, s_h, q_w, q_h. unfold usub. destruct (1 <=? w) eqn:E1; [|reflexivity]. cbn [bind]. destruct (1 <=? h) eqn:E2; [|reflexivity]. cbn [bind].
  apply s_at. unfold as_usize, as_i32. clear - E1 E2 Hw Hh.
  rewrite (Z.mod_small (w - 1 + _)) by lia. rewrite (Z.mod_small (h - 1 + _)) by lia. rewrite !Z.mod_small by lia. split; lia.
Qed.

Lemma s_clone : same (b_clone p) (clone q).
Proof using Sm.
  destruct Sm as (H & E & C). unfold b_clone, clone. split; [exact H|]. split; [cbn; rewrite E; reflexivity|]. cbn [p_cache].
  assert (G : forall l acc, cache_ok l -> cache_ok acc -> cache_ok (fold_left (fun c e => cache_put c (fst e) (snd e)) l acc)).
  { induction l as [|e l IH]; intros acc Cl Ca; [exact Ca|]. cbn [fold_left]. inversion Cl as [|? ? [C1 C2] C3]; subst. apply IH; [exact C3|]. apply put_ok; assumption. }
  apply G; [exact C|constructor].
Qed.
End State.

(** * Flood fill *)

Lemma left_range fuel im from y l l' : 0 <= l -> go_left fuel im from y l = Ok l' -> 0 <= l' <= l.
Proof.
  revert l. induction fuel as [|fuel IH]; intros l Hl E; cbn [go_left] in E; destruct (0 <? l) eqn:El; try discriminate; try (injection E as <-; lia).
  apply bind_ok_inv in E as (c & _ & E). destruct (c =? from); [|injection E as <-; lia]. apply IH in E; lia.
Qed.

Lemma right_range fuel im from y r r' : im_w im = w -> r < w -> go_right fuel im from y r = Ok r' -> r <= r' < w.
Proof.
  intros W. revert r. induction fuel as [|fuel IH]; intros r Hr E; cbn [go_right] in E; [discriminate|]. rewrite W in E. unfold usub in E. destruct (1 <=? w) eqn:E1; [|discriminate]. cbn [bind] in E.
  destruct (r <? w - 1) eqn:E2; [|injection E as <-; lia].
  apply bind_ok_inv in E as (c & _ & E). destruct (c =? from); [|injection E as <-; lia]. apply IH in E; lia.
Qed.

Lemma s_left fuel b im from y l : holds b im -> 0 <= l < w -> 0 <= y < h -> b_go_left fuel b from y l = go_left fuel im from y l.
Proof.
  intros H. revert l. induction fuel as [|fuel IH]; intros l Hl Hy; [reflexivity|]. cbn [b_go_left go_left]. destruct (0 <? l) eqn:E; [|reflexivity]. rewrite (holds_get b im (l - 1) y H) by (split; lia).
  destruct (get_pixel im (l - 1) y); cbn [bind]; try reflexivity. destruct (_ =? from); [|reflexivity]. apply IH; lia.
Qed.

Lemma s_right fuel b im from y r : holds b im -> 0 <= r < w -> 0 <= y < h -> b_go_right fuel b from y r = go_right fuel im from y r.
Proof.
  intros H. pose proof H as (_ & _ & (W1 & W2) & _). revert r. induction fuel as [|fuel IH]; intros r Hr Hy; [reflexivity|]. cbn [b_go_right go_right]. rewrite (holds_w b im H), W1.
  unfold usub. destruct (1 <=? w); [|reflexivity]. cbn [bind]. destruct (r <? w - 1) eqn:E; [|reflexivity]. rewrite (holds_get b im (r + 1) y H) by (split; lia).
  destruct (get_pixel im (r + 1) y); cbn [bind]; try reflexivity. destruct (_ =? from); [|reflexivity]. apply IH; lia.
Qed.

Lemma s_paint b im l r y to : holds b im -> 0 <= l -> r < w -> 0 <= y < h -> 0 <= to <= 255 -> sim holds (b_paint b l r y to) (paint im l r y to).
Proof using Lw. intros H Hl Hr Hy Ht. apply sim_for; [exact H|]. intros x b1 im1 Hx H1. apply in_zrange in Hx. apply holds_set; [exact H1|split; lia|exact Ht]. Qed.

Lemma s_seed b im from l r y queue : holds b im -> 0 <= l -> r < w -> 0 <= y < h -> b_seed b from l r y queue = seed im from l r y queue.
Proof.
  intros H Hl Hr Hy. unfold b_seed, seed. f_equal. apply for_same. intros x [qu pr] Hx. apply in_zrange in Hx. rewrite (holds_get b im x y H) by (split; lia). reflexivity.
Qed.

Definition all_within (queue : list (Z * Z)) : Prop := Forall (fun q => within (fst q) (snd q)) queue.

Lemma seed_within im from l r y queue queue' : 0 <= l -> r < w -> 0 <= y < h -> all_within queue -> seed im from l r y queue = Ok queue' -> all_within queue'.
Proof.
  intros Hl Hr Hy A E. unfold seed in E. apply bind_ok_inv in E as (t & E & E'). injection E' as <-.
  apply (for_list_inv (fun s : list (Z * Z) * bool => all_within (fst s))) in E; [exact E|exact A|].
  intros x [qu pr] t' Hx At Et. apply in_zrange in Hx. cbn [fst] in At. apply bind_ok_inv in Et as (c & _ & Et). destruct (c =? from); injection Et as <-; cbn [fst]; [|exact At].
  destruct pr; [exact At|]. constructor; [split; cbn; lia|exact At].
Qed.

Definition held2 {F} (t : B * F) (t' : image * F) : Prop := holds (fst t) (fst t') /\ snd t = snd t'.

Lemma s_loop {F} fuel (update : row -> F -> out F) from to queue b im f : holds b im -> all_within queue -> 0 <= to <= 255 ->
  sim held2 (b_flood_loop fuel update from to queue b f) (flood_loop fuel update from to queue im f).
Proof using Lw.
  intros H A Ht. revert queue b im f H A. induction fuel as [|fuel IH]; intros [|[x y] queue] b im f H A; try (split; [exact H|reflexivity]); [exact I|].
  cbn [b_flood_loop flood_loop]. inversion A as [|? ? [A1 A2] A3]; subst. cbn [fst snd] in A1, A2.
  rewrite (holds_get b im x y H) by (split; assumption). apply sim_same. intros c _. destruct (_ || _); [apply IH; assumption|].
  rewrite (s_left _ b im from y x H A1 A2), (holds_w b im H), (s_right _ b im from y x H A1 A2).
  pose proof H as (_ & _ & (W1 & W2) & _).
  apply sim_same. intros l El. apply left_range in El; [|lia]. apply sim_same. intros r Er. apply right_range in Er; [|exact W1|lia].
  apply sim_bind with (R := holds); [apply s_paint; try assumption; lia|]. intros b1 im1 H1. pose proof H1 as (_ & _ & (V1 & V2) & _).
  apply sim_same. intros f1 _. rewrite (holds_h b1 im1 H1), V2.
  apply sim_bind with (R := fun q q' => q = q' /\ all_within q).
  - destruct (0 <? y) eqn:Ey; [|split; [reflexivity|exact A3]]. rewrite (s_seed b1 im1) by (try assumption; lia).
    destruct (seed im1 from l r (y - 1) queue) as [q1|[]| |] eqn:Es; cbn; auto. split; [reflexivity|]. apply seed_within in Es; try assumption; lia.
  - intros q1 q1' (<- & A4). apply sim_same. intros h1 Eh. unfold usub in Eh. destruct (1 <=? h); [|discriminate]. injection Eh as <-.
    apply sim_bind with (R := fun q q' => q = q' /\ all_within q).
    + destruct (y <? h - 1) eqn:Ey; [|split; [reflexivity|exact A4]]. rewrite (s_seed b1 im1) by (try assumption; lia).
      destruct (seed im1 from l r (y + 1) q1) as [q2|[]| |] eqn:Es; cbn; auto. split; [reflexivity|]. apply seed_within in Es; try assumption; lia.
    + intros q2 q2' (<- & A5). apply IH; assumption.
Qed.

Lemma s_flood {F} b im x y from to (update : row -> F -> out F) f : holds b im -> within x y -> 0 <= to <= 255 ->
  sim held2 (b_flood_fill b x y from to update f) (flood_fill im x y from to update f).
Proof using Lw.
  intros H I Ht. unfold b_flood_fill, flood_fill. apply sim_same. intros _ _. pose proof H as (_ & (U1 & U2 & U3) & (W1 & W2) & (S1 & S2) & _).
  replace (b_flood_fuel b) with (flood_fuel im).
  - apply s_loop; [exact H|constructor; [exact I|constructor]|exact Ht].
  - unfold b_flood_fuel, flood_fuel. rewrite S1, S2. do 3 f_equal. rewrite W1, W2 in U3. rewrite <- U3. rewrite Nat2Z.id. reflexivity.
Qed.

(** * Regions *)

Definition same2 {F} (t : bprepared B * F) (t' : prepared * F) : Prop := same (fst t) (fst t') /\ snd t = snd t'.
Definition same2' {F} (t : F * bprepared B) (t' : F * prepared) : Prop := fst t = fst t' /\ same (snd t) (snd t').

Lemma s_repaint {F} p q x y target (update : row -> F -> out F) f : same p q -> within x y -> (forall tb, color_byte target = Ok tb -> 0 <= tb <= 255) ->
  sim same2 (b_repaint_and_apply p x y target update f) (repaint_and_apply q x y target update f).
Proof using Lw.
  intros (H & E & C) I Tb. unfold b_repaint_and_apply, repaint_and_apply. rewrite (holds_get _ _ x y H I). apply sim_same. intros src _. apply sim_same. intros tb Etb.
  destruct (_ || _); [exact Logic.I|]. apply sim_bind with (R := held2); [apply s_flood; auto|]. intros [b1 f1] [im1 f2] [H1 E1]. cbn [fst snd] in *. split; [|exact E1]. cbn [fst]. split; [exact H1|]. split; [exact E|exact C].
Qed.

Lemma byte_range c tb : match c with Discarded x => 0 <= x | _ => True end -> color_byte c = Ok tb -> 0 <= tb <= 255.
Proof. intros H E. destruct c; cbn in E; try (injection E as <-; lia). destruct (x + 5 <=? 255) eqn:El; [|discriminate]. injection E as <-. lia. Qed.

Lemma s_index p q : same p q -> sim (fun t t' => same2' t t' /\ 0 <= fst t') (b_region_index p) (region_index q).
Proof using Lw.
  intros (H & E & C). unfold b_region_index, region_index. cbv zeta. rewrite E. destruct (_ =? cache_cap).
  - destruct (cache_pop (p_cache q)) as [[[k r] c']|] eqn:Ep; [|exact I]. destruct (pop_ok _ _ _ _ C Ep) as (C' & Hk & Hr).
    destruct r as [col sx sy n| | |]; try (cbn; split; [split; [reflexivity|split; [exact H|split; [reflexivity|exact C']]]|exact Hk]).
    apply sim_same. intros cb _. apply sim_bind with (R := held2); [apply s_flood; [exact H|exact Hr|lia]|]. intros [b1 u] [im1 u'] [H1 _]. cbn. split; [split; [reflexivity|split; [exact H1|split; [reflexivity|exact C']]]|exact Hk].
  - cbn. split; [split; [reflexivity|split; [exact H|split; [exact E|exact C]]]|]. apply Z.mod_pos_bound. lia.
Qed.

Lemma s_region p q x y : same p q -> within x y -> sim same2' (b_get_region p x y) (get_region q x y).
Proof using Lw.
  intros Sm I. pose proof Sm as (H & E & C). unfold b_get_region, get_region. rewrite (holds_get _ _ x y H I). apply sim_same. intros c _.
  destruct (color_of c) as [| | | | |r]; try exact Logic.I; try (split; [reflexivity|exact Sm]).
  - apply sim_bind with (R := fun t t' => same2' t t' /\ 0 <= fst t'); [apply s_index; exact Sm|]. intros [i p1] [i' q1] ((Ei & S1) & Hi). cbn [fst snd] in Ei, S1, Hi. subst i'.
    apply sim_bind with (R := same2); [apply s_repaint; [exact S1|exact I|intros tb; apply byte_range; exact Hi]|]. intros [p2 n] [q2 n'] [S2 En]. cbn [fst snd] in S2, En. subst n'.
    cbn. destruct S2 as (H2 & E2 & C2). split; [reflexivity|]. cbn [snd]. split; [exact H2|]. cbn [b_cache p_cache]. rewrite E2. split; [reflexivity|]. apply put_ok; [exact C2|exact Hi|exact I].
  - rewrite E. destruct (cache_get (p_cache q) r) as [[reg c']|] eqn:Eg; [|exact Logic.I]. destruct (get_ok _ _ _ _ C Eg) as [C' _]. split; [reflexivity|]. split; [exact H|split; [reflexivity|exact C']].
Qed.

(** * Finder patterns *)

Lemma s_is_capstone p q l y : same p q -> within (l_left l) y -> within (l_stone l) y -> within (l_right l) y -> sim same2' (b_is_capstone p l y) (is_capstone q l y).
Proof using Lw.
  intros Sm I1 I2 I3. unfold b_is_capstone, is_capstone. apply sim_bind with (R := same2'); [apply s_region; assumption|]. intros [r1 p1] [r1' q1] [E1 S1]. cbn [fst snd] in E1, S1. subst r1'.
  apply sim_bind with (R := same2'); [apply s_region; assumption|]. intros [r2 p2] [r2' q2] [E2 S2]. cbn [fst snd] in E2, S2. subst r2'.
  rewrite (s_at p2 q2 S2 _ _ I1), (s_at p2 q2 S2 _ _ I3). apply sim_same. intros cl _. apply sim_same. intros cr _. destruct (negb _); [split; [reflexivity|exact S2]|].
  destruct r1 as [c1 x1 y1 n1| | |]; try (split; [reflexivity|exact S2]). destruct r2 as [c2 x2 y2 n2| | |]; try (split; [reflexivity|exact S2]).
  apply sim_same. intros m _. destruct (n1 =? 0); [exact Logic.I|]. split; [reflexivity|exact S2].
Qed.

Definition scan_ok (s : scanner) : Prop := length (s_buf s) = 5%nat /\ Forall (fun z => 0 <= z) (s_buf s) /\ 1 <= s_run s.

Lemma sum_nonneg l : Forall (fun z => 0 <= z) l -> 0 <= list_sum l.
Proof. induction 1; cbn; [lia|]. unfold list_sum in *. lia. Qed.

Lemma advance_ok s c o s' : scan_ok s -> advance s c = Ok (o, s') -> scan_ok s' /\ s_pos s' = s_pos s + 1
  /\ forall l, o = Some l -> 0 <= l_left l <= s_pos s /\ 0 <= l_stone l <= s_pos s /\ 0 <= l_right l <= s_pos s.
Proof.
  intros (S1 & S2 & S3) E. unfold advance in E. cbv zeta in E. destruct (color_eqb (s_last s) c).
  - injection E as <- <-. split; [unfold scan_ok; cbn; auto with zarith|]. split; [reflexivity|]. intros l Q. discriminate.
  - apply bind_ok_inv in E as (t & _ & E). destruct (s_buf s) as [|a0 [|a1 [|a2 [|a3 [|a4 [|]]]]]]; try discriminate S1. cbn [tl app] in E.
    apply Forall_cons_iff in S2 as [B0 S2]. apply Forall_cons_iff in S2 as [B1 S2]. apply Forall_cons_iff in S2 as [B2 S2]. apply Forall_cons_iff in S2 as [B3 S2]. apply Forall_cons_iff in S2 as [B4 _].
    assert (O : scan_ok (MkScanner [a1; a2; a3; a4; s_run s] c 1 (s_changes s + 1) (s_pos s + 1))) by (unfold scan_ok; cbn; repeat split; [repeat constructor; assumption || lia|lia]).
    destruct t.
    + apply bind_ok_inv in E as (l & El & E). apply bind_ok_inv in E as (st & Est & E). apply bind_ok_inv in E as (b4 & Eb & E). apply bind_ok_inv in E as (r & Er & E). injection E as <- <-.
      cbn in Eb. injection Eb as <-. cbn [list_sum fold_right skipn] in El, Est. unfold usub in El, Est, Er.
      destruct (_ <=? _) eqn:L1 in El; [|discriminate]. injection El as <-. destruct (_ <=? _) eqn:L2 in Est; [|discriminate]. injection Est as <-. destruct (_ <=? _) eqn:L3 in Er; [|discriminate]. injection Er as <-.
      split; [exact O|]. split; [reflexivity|]. intros l Q. injection Q as <-. cbn [l_left l_stone l_right]. lia.
    + injection E as <- <-. split; [exact O|]. split; [reflexivity|]. intros l Q. discriminate.
Qed.

Section Numbers.
Context {T : Type} {N : Num T}.

Lemma s_create p q l y : same p q -> within (l_right l) y -> sim same2' (b_create_capstone (T := T) p l y) (create_capstone q l y).
Proof using Lw.
  intros Sm I. unfold b_create_capstone, create_capstone. cbv zeta.
  apply sim_bind with (R := same2); [apply s_repaint; [exact Sm|exact I|intros tb; apply byte_range; exact Logic.I]|]. intros [p1 f] [q1 f'] [S1 E1]. cbn [fst snd] in S1, E1. subst f'.
  apply sim_same. intros a _. apply sim_bind with (R := same2); [apply s_repaint; [exact S1|exact I|intros tb; apply byte_range; exact Logic.I]|]. intros [p2 g] [q2 g'] [S2 E2]. cbn [fst snd] in S2, E2. subst g'.
  apply sim_same. intros k _. destruct (persp_create _ _ _); [|split; [reflexivity|exact S2]]. apply sim_same. intros ce _. split; [reflexivity|exact S2].
Qed.

Lemma s_examine y o t t' : same2 t t' -> 0 <= y < h -> (forall l, o = Some l -> 0 <= l_left l < w /\ 0 <= l_stone l < w /\ 0 <= l_right l < w) ->
  sim same2 (b_examine (T := T) y o t) (examine y o t').
Proof using Lw.
  destruct t as [p caps], t' as [q caps']. intros [Sm E] Hy L. cbn [fst snd] in Sm, E. subst caps'. unfold b_examine, examine. destruct o as [l|]; [|split; [exact Sm|reflexivity]].
  destruct (L l eq_refl) as (L1 & L2 & L3). apply sim_bind with (R := same2'); [apply s_is_capstone; [exact Sm|split; assumption|split; assumption|split; assumption]|]. intros [bb p1] [bb' q1] [E1 S1]. cbn [fst snd] in E1, S1. subst bb'.
  destruct (negb bb); [split; [exact S1|reflexivity]|]. apply sim_bind with (R := same2'); [apply s_create; [exact S1|split; assumption]|]. intros [oc p2] [oc' q2] [E2 S2]. cbn [fst snd] in E2, S2. subst oc'.
  destruct oc; (split; [exact S2|reflexivity]).
Qed.

Lemma sim_range C C' (R : Z -> C -> C' -> Prop) lo hi f f' s s' : lo <= hi -> R lo s s' -> (forall i t t', lo <= i < hi -> R i t t' -> sim (R (i + 1)) (f i t) (f' i t')) ->
  sim (R hi) (for_each (zrange lo hi) f s) (for_each (zrange lo hi) f' s').
Proof.
  intros Le. remember (Z.to_nat (hi - lo)) as n eqn:En. revert lo s s' Le En. induction n as [|n IH]; intros lo s s' Le En H F.
  - replace lo with hi in * by lia. rewrite zrange_nil by lia. exact H.
  - rewrite (@zrange_cons lo hi) by lia. cbn [for_each]. apply sim_bind with (R := R (lo + 1)); [apply F; [lia|exact H]|]. intros t t' Ht. apply IH; [lia|lia|exact Ht|]. intros i u u' Hi. apply F. lia.
Qed.

Lemma s_scan_row y t t' : 1 <= w -> same2 t t' -> 0 <= y < h -> sim same2 (b_scan_row (T := T) y t) (scan_row y t').
Proof using Lw.
  destruct t as [p caps], t' as [q caps']. intros W1 [Sm E] Hy. cbn [fst snd] in Sm, E. subst caps'. unfold b_scan_row, scan_row.
  rewrite (s_at p q Sm 0 y) by (split; lia). apply sim_same. intros c0 _. rewrite (s_w p q Sm), (q_w p q Sm).
  apply sim_bind with (R := fun a a' => fst a = fst a' /\ scan_ok (fst a') /\ s_pos (fst a') = w - 1 /\ same2 (snd a) (snd a')).
  - apply (sim_range _ _ (fun x a a' => fst a = fst a' /\ scan_ok (fst a') /\ s_pos (fst a') = x - 1 /\ same2 (snd a) (snd a'))); [lia| |].
    + cbn [fst snd]. split; [reflexivity|]. split; [unfold scan_ok, scan_new; cbn; repeat split; [repeat constructor; lia|lia]|]. split; [reflexivity|]. split; [exact Sm|reflexivity].
    + intros x [fi [p1 c1]] [fi' [q1 c1']] Hx (E1 & O & Ps & (S1 & Ec)). cbn [fst snd] in *. subst fi' c1'. rewrite (s_at p1 q1 S1 x y) by (split; lia). apply sim_same. intros c _.
      apply sim_same. intros [o fi'] Ea. destruct (advance_ok _ _ _ _ O Ea) as (O' & Ps' & L).
      apply sim_bind with (R := same2).
      * apply s_examine; [split; [exact S1|reflexivity]|exact Hy|]. intros l El. specialize (L l El). lia.
      * intros s1 s2 S2. cbn. split; [reflexivity|]. split; [exact O'|]. split; [lia|exact S2].
  - intros [fi s1] [fi' s2] (E1 & O & Ps & S1). cbn [fst snd] in *. subst fi'. apply sim_same. intros [o fi'] Ea. destruct (advance_ok _ _ _ _ O Ea) as (O' & Ps' & L). cbn [fst].
    apply s_examine; [exact S1|exact Hy|]. intros l El. specialize (L l El). lia.
Qed.

Lemma s_capstones p q : 1 <= w -> same p q -> sim same2' (b_capstones_from_image (T := T) p) (capstones_from_image q).
Proof using Lw.
  intros W1 Sm. unfold b_capstones_from_image, capstones_from_image. rewrite (s_h p q Sm), (q_h p q Sm).
  apply sim_bind with (R := same2).
  - apply sim_for; [split; [exact Sm|reflexivity]|]. intros y t t' Hy. apply in_zrange in Hy. intros Ht. apply s_scan_row; assumption.
  - intros [p1 c] [q1 c'] [S1 E]. cbn [fst snd] in *. subst c'. split; [reflexivity|exact S1].
Qed.

(** * Groups and grids *)

Lemma s_timing p q a b : same p q -> b_timing_scan p a b = timing_scan q a b.
Proof using Hw Hh. intros Sm. unfold b_timing_scan, timing_scan. destruct (bres_points a b); cbn [bind]; try reflexivity. f_equal. apply for_same. intros c [n pr] _. rewrite (s_point p q Sm). reflexivity. Qed.

Lemma s_measure p q (g : ModelIdentify.group T) : same p q -> b_measure_timing_pattern p g = measure_timing_pattern q g.
Proof using Hw Hh.
  intros Sm. unfold b_measure_timing_pattern, measure_timing_pattern. destruct (persp_map _ _ _); cbn [bind]; try reflexivity. destruct (persp_map _ _ _); cbn [bind]; try reflexivity. destruct (persp_map _ _ _); cbn [bind]; try reflexivity.
  rewrite !(s_timing p q) by exact Sm. reflexivity.
Qed.

Lemma usize_range z : 0 <= as_usize z.
Proof. apply Z.mod_pos_bound. lia. Qed.

(** The state of the search for the alignment pattern; where it is found, it is in the picture. *)
Definition same3 (t : bprepared B * point * bool) (t' : prepared * point * bool) : Prop :=
  same (fst (fst t)) (fst (fst t')) /\ snd (fst t) = snd (fst t') /\ snd t = snd t' /\ (snd t' = true -> within (as_usize (px (snd (fst t')))) (as_usize (py (snd (fst t'))))).

Lemma s_pass e dir t t' : same3 t t' -> sim same3 (b_align_pass e dir t) (align_pass e dir t').
Proof using Lw.
  destruct t as [[p a] fo], t' as [[q a'] fo']. intros (Sm & E1 & E2 & Wi). cbn [fst snd] in Sm, E1, E2, Wi. subst a' fo'. unfold b_align_pass, align_pass. destruct fo; [unfold same3; cbn; auto|].
  cbv zeta. rewrite (s_w p q Sm), (s_h p q Sm), (q_w p q Sm), (q_h p q Sm).
  assert (St : forall p1 q1, same p1 q1 -> sim same3
    (let* dx := aget dx_map dir in let* dy := aget dy_map dir in let* sx := ival (px a + dx)%iexp in let* sy := ival (py a + dy)%iexp in Ok (p1, MkPoint sx sy, false))
    (let* dx := aget dx_map dir in let* dy := aget dy_map dir in let* sx := ival (px a + dx)%iexp in let* sy := ival (py a + dy)%iexp in Ok (q1, MkPoint sx sy, false))).
  { intros p1 q1 S1. apply sim_same. intros dx _. apply sim_same. intros dy _. apply sim_same. intros sx _. apply sim_same. intros sy _. cbn. split; [exact S1|]. split; [reflexivity|]. split; [reflexivity|discriminate]. }
  destruct ((as_usize (px a) <? w) && (as_usize (py a) <? h)) eqn:El; [|apply St; exact Sm].
  assert (I : within (as_usize (px a)) (as_usize (py a))) by (pose proof (usize_range (px a)); pose proof (usize_range (py a)); split; lia). clear El.
  rewrite (s_at p q Sm _ _ I). apply sim_same. intros c _. destruct (is_white c); [apply St; exact Sm|].
  apply sim_bind with (R := same2'); [apply s_region; assumption|]. intros [r p1] [r' q1] [Er S1]. cbn [fst snd] in Er, S1. subst r'.
  destruct r as [co sx sy n| | |]; try (cbn; split; [exact S1|]; split; [reflexivity|]; split; [reflexivity|discriminate]).
  destruct (_ && _); [|apply St; exact S1]. cbn. split; [exact S1|]. split; [reflexivity|]. split; [reflexivity|]. intros _. exact I.
Qed.

Definition same_found (t : option point * bprepared B) (t' : option point * prepared) : Prop :=
  same2' t t' /\ forall a, fst t' = Some a -> within (as_usize (px a)) (as_usize (py a)).

Lemma s_spiral fuel e dir step p q a : same p q -> sim same_found (b_align_spiral fuel e dir step p a) (align_spiral fuel e dir step q a).
Proof using Lw.
  revert dir step p q a. induction fuel as [|fuel IH]; intros dir step p q a Sm; cbn [b_align_spiral align_spiral]; destruct (_ <? _); try exact I; try (split; [split; [reflexivity|exact Sm]|intros b Q; discriminate]).
  apply sim_bind with (R := same3).
  - apply sim_for; [unfold same3; cbn; split; [exact Sm|split; [reflexivity|split; [reflexivity|discriminate]]]|]. intros i t t' _. apply s_pass.
  - intros [[p1 a1] fo] [[q1 a1'] fo'] (S1 & E1 & E2 & Wi). cbn [fst snd] in S1, E1, E2, Wi. subst a1' fo'. destruct fo.
    + split; [split; [reflexivity|exact S1]|]. intros b Q. injection Q as <-. apply Wi. reflexivity.
    + cbv zeta. apply IH. exact S1.
Qed.

Lemma s_find p q a (c0 c2 : capstone T) : same p q -> sim same_found (b_find_alignment_pattern p a c0 c2) (find_alignment_pattern q a c0 c2).
Proof using Lw.
  intros Sm. unfold b_find_alignment_pattern, find_alignment_pattern. destruct (persp_unmap _ _) as [u v]. apply sim_same. intros x _. destruct (persp_unmap _ _) as [u' v']. apply sim_same. intros y _. apply sim_same. intros e _. cbv zeta. apply s_spiral. exact Sm.
Qed.

Lemma s_cell p q (c : perspective T) x y : same p q -> b_fitness_cell p c x y = fitness_cell q c x y.
Proof using Hw Hh.
  intros Sm. unfold b_fitness_cell, fitness_cell. apply for_same. intros v s _. apply for_same. intros u s1 _. rewrite (s_w p q Sm), (s_h p q Sm). destruct (persp_map _ _ _); cbn [bind]; try reflexivity. rewrite (s_point p q Sm). reflexivity.
Qed.

Lemma s_ring p q (c : perspective T) x y r : same p q -> b_fitness_ring p c x y r = fitness_ring q c x y r.
Proof using Hw Hh. intros Sm. unfold b_fitness_ring, fitness_ring. apply for_same. intros i s _. rewrite !(s_cell p q) by exact Sm. reflexivity. Qed.

Lemma s_apat p q (c : perspective T) x y : same p q -> b_fitness_apat p c x y = fitness_apat q c x y.
Proof using Hw Hh. intros Sm. unfold b_fitness_apat, fitness_apat. rewrite !(s_cell p q), !(s_ring p q) by exact Sm. reflexivity. Qed.

Lemma s_fcap p q (c : perspective T) x y : same p q -> b_fitness_capstone p c x y = fitness_capstone q c x y.
Proof using Hw Hh. intros Sm. unfold b_fitness_capstone, fitness_capstone. rewrite !(s_cell p q), !(s_ring p q) by exact Sm. reflexivity. Qed.

Lemma bind_same A C (a : out A) (k k' : A -> out C) : (forall x, k x = k' x) -> bind a k = bind a k'.
Proof. intros K. destruct a; cbn; auto. Qed.

Lemma bind_first A C (a a' : out A) (k : A -> out C) : a = a' -> bind a k = bind a' k.
Proof. intros ->. reflexivity. Qed.

Lemma s_all p q (c : perspective T) n : same p q -> b_fitness_all p c n = fitness_all q c n.
Proof using Hw Hh.
  intros Sm. unfold b_fitness_all, fitness_all. apply bind_same. intros v. apply bind_same. intros info.
  rewrite (for_same _ _ (zrange 0 (n - 14)) _ (fun i score => let expect := if Z.odd i then 1 else -1 in let* a := fitness_cell q c (i + 7) 6 in let* b := fitness_cell q c 6 (i + 7) in Ok (score + a * expect + b * expect)))
    by (intros i s _; rewrite !(s_cell p q) by exact Sm; reflexivity).
  apply bind_same. intros sc. rewrite !(s_fcap p q) by exact Sm. apply bind_same. intros a. apply bind_same. intros b. apply bind_same. intros d. cbv zeta.
  rewrite (for_same _ _ (range 1 _) _ (fun i score => let* ai := aget (vi_apat info) i in let* a := fitness_apat q c 6 ai in let* b := fitness_apat q c ai 6 in Ok (score + a + b)))
    by (intros i s _; apply bind_same; intros ai; rewrite !(s_apat p q) by exact Sm; reflexivity).
  apply bind_same. intros sc2. apply for_same. intros i s _. apply for_same. intros j s1 _. apply bind_same. intros ai. apply bind_same. intros aj. rewrite (s_apat p q) by exact Sm. reflexivity.
Qed.

Lemma s_jiggle p q (c : perspective T) n : same p q -> b_jiggle_perspective p c n = jiggle_perspective q c n.
Proof using Hw Hh.
  intros Sm. unfold b_jiggle_perspective, jiggle_perspective. rewrite (s_all p q) by exact Sm. apply bind_same. intros best. apply bind_first. apply for_same. intros i [[c1 b1] adj] _. apply bind_first. apply for_same. intros j [c2 b2] _.
  unfold b_jiggle_step, jiggle_step. cbv zeta. rewrite (s_all p q) by exact Sm. reflexivity.
Qed.

Lemma s_setup p q (g : ModelIdentify.group T) a n : same p q -> b_setup_perspective p g a n = setup_perspective q g a n.
Proof using Hw Hh.
  intros Sm. unfold b_setup_perspective, setup_perspective. apply bind_same. intros s. destruct (persp_create _ _ _); [|reflexivity]. rewrite (s_jiggle p q) by exact Sm. reflexivity.
Qed.

Lemma s_locate p q (g : ModelIdentify.group T) hd a : same p q -> sim same2' (b_locate_alignment p g hd a) (locate_alignment q g hd a).
Proof using Lw.
  intros Sm. unfold b_locate_alignment, locate_alignment. apply sim_bind with (R := same_found); [apply s_find; exact Sm|]. intros [o p1] [o' q1] [[E1 S1] Wi]. cbn [fst snd] in E1, S1, Wi. subst o'.
  destruct o as [a1|]; [|split; [reflexivity|exact S1]]. apply sim_same. intros sc _.
  apply sim_bind with (R := same2); [apply s_repaint; [exact S1|apply Wi; reflexivity|intros tb; apply byte_range; exact I]|]. intros [p2 [be sc2]] [q2 [be' sc2']] [S2 E2]. cbn [fst snd] in S2, E2. injection E2 as -> ->. split; [reflexivity|exact S2].
Qed.

Lemma s_from p q (g : ModelIdentify.group T) : same p q -> sim same2' (b_from_group p g) (from_group q g).
Proof using Lw Hw Hh.
  intros Sm. unfold b_from_group, from_group. apply sim_same. intros [g1 hd] _. rewrite (s_measure p q) by exact Sm. apply sim_same. intros n _. apply sim_same. intros o _.
  destruct o as [a|]; [|split; [reflexivity|exact Sm]]. apply sim_bind with (R := same2').
  - destruct (21 <? n); [apply s_locate; exact Sm|split; [reflexivity|exact Sm]].
  - intros [o1 p1] [o1' q1] [E1 S1]. cbn [fst snd] in E1, S1. subst o1'. destruct o1 as [a1|]; [|split; [reflexivity|exact S1]]. apply sim_same. intros v _. destruct (_ <=? v); [split; [reflexivity|exact S1]|].
    rewrite (s_setup p1 q1) by exact S1. apply sim_same. intros o2 _. destruct o2; (split; [reflexivity|exact S1]).
Qed.

Context {Srt : Sorter T}.

Lemma s_groupings p q caps : same p q -> b_find_groupings (T := T) p caps = find_groupings q caps.
Proof using Lw Hw Hh.
  intros Sm. unfold b_find_groupings, find_groupings, b_find_groupings_indexed, find_groupings_indexed. do 2 f_equal. apply for_same. intros idx s _. destruct (used_in _ _); [reflexivity|]. apply bind_same. intros pairs.
  apply for_same. intros [a b] [used groups] _. unfold b_try_pair, try_pair. destruct (_ || _); [reflexivity|]. apply bind_same. intros ca. apply bind_same. intros ci. apply bind_same. intros cb. cbv zeta.
  pose proof (s_from _ _ (MkGroup ca ci cb) (s_clone p q Sm)) as Sf. destruct (b_from_group _ _) as [[o p1]|[]| |], (from_group _ _) as [[o' q1]|[]| |]; cbn in Sf; try contradiction; cbn [bind]; try reflexivity.
  destruct Sf as [Eo _]. cbn [fst] in *. subst o'. reflexivity.
Qed.

Theorem s_detect p q : 1 <= w -> same p q -> sim same2' (b_detect_grids (T := T) p) (detect_grids q).
Proof using Lw Hw Hh.
  intros W1 Sm. unfold b_detect_grids, detect_grids. apply sim_bind with (R := same2'); [apply s_capstones; assumption|]. intros [st p1] [st' q1] [E1 S1]. cbn [fst snd] in E1, S1. subst st'.
  rewrite (s_groupings p1 q1) by exact S1. apply sim_same. intros groups _. apply sim_bind with (R := same2).
  - apply sim_for; [split; [exact S1|reflexivity]|]. intros g [p2 ls] [q2 ls'] _ [S2 E2]. cbn [fst snd] in S2, E2. subst ls'. apply sim_bind with (R := same2'); [apply s_from; exact S2|].
    intros [o p3] [o' q3] [E3 S3]. cbn [fst snd] in E3, S3. subst o'. destruct o; (split; [exact S3|reflexivity]).
  - intros [p2 ls] [q2 ls'] [S2 E2]. cbn [fst snd] in S2, E2. subst ls'. apply sim_same. intros grids _. split; [reflexivity|exact S2].
Qed.

(** The grids read the same modules. *)
Theorem s_bits p q (l : location T) : same p q -> g_size (b_ref_grid p l) = g_size (ref_grid q l) /\ forall y x, g_bit (b_ref_grid p l) y x = g_bit (ref_grid q l) y x.
Proof using Hw Hh.
  intros Sm. split; [reflexivity|]. intros y x. unfold b_ref_grid, ref_grid. cbn [g_bit]. destruct (lift _); cbn [bind]; try reflexivity. rewrite (s_point p q Sm). reflexivity.
Qed.
End Numbers.
End Buffer.

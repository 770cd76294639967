(** Every history of operations on a prepared image keeps the region invariant. *)
From Verif Require Import Base Lib ModelImage ModelGeometry ModelDetect ModelIdentify SpecImage FloodProofs RegionProofs CornerProofs SearchProofs.
Open Scope Z_scope.
Set Bullet Behavior "Strict Subproofs".

(** * Painting with a reserved colour *)

Definition reserved (c : color) : Prop := c = Black \/ c = CCapStone \/ c = CAlignment \/ c = CTmp1.

Lemma repaint_kept I0 p x y c F (update : row -> F -> out F) f p' f' :
  reg_inv I0 p -> in_image I0 (x, y) -> reserved c ->
  repaint_and_apply p x y c update f = Ok (p', f') -> reg_inv I0 p'.
Proof.
  intros R I Hc E. assert (exists tb, color_byte c = Ok tb /\ 1 <= tb <= 4) as (tb & Eb & Hb).
  { destruct Hc as [-> | [-> | [-> | -> ]]]; cbn; eexists; (split; [reflexivity|lia]). }
  pose proof (bi_wf _ _ (ri_base _ _ R)) as W.
  assert (I' : in_image (p_buf p) (x, y)) by (apply (same_size_in _ _ _ (bi_size _ _ (ri_base _ _ R))); assumption).
  destruct (Z.eq_dec (pix (p_buf p) (x, y)) 0) as [E0|E0].
  { rewrite (repaint_panics p x y c tb) in E by auto. discriminate. }
  destruct (Z.eq_dec (pix (p_buf p) (x, y)) tb) as [E1|E1].
  { rewrite (repaint_panics p x y c tb) in E by auto. discriminate. }
  destruct (repaint_inv I0 p x y c tb R I Eb Hb E0 E1) as (p2 & rows & R2 & _ & _ & _ & _ & G).
  rewrite G in E. destruct (for_each rows update f); cbn in E; try discriminate. injection E as <- <-. assumption.
Qed.

(** * The alignment search *)

Lemma as_usize_small z n : as_usize z < n -> n <= 2 ^ 31 -> as_usize z = as_usize z /\ 0 <= as_usize z.
Proof. intros. split; [reflexivity|]. unfold as_usize. apply Z.mod_pos_bound. lia. Qed.

Definition seed_ok (I0 : image) (p : prepared) (seed : point) : Prop :=
  in_image I0 (as_usize (px seed), as_usize (py seed)) /\ pix I0 (as_usize (px seed), as_usize (py seed)) <> 0.

Lemma align_pass_kept I0 est dir p seed found p' seed' found' :
  reg_inv I0 p -> (found = true -> seed_ok I0 p seed) ->
  align_pass est dir (p, seed, found) = Ok (p', seed', found') ->
  reg_inv I0 p' /\ (found' = true -> seed_ok I0 p' seed').
Proof.
  intros R Hf. unfold align_pass. destruct found.
  { intros E. injection E as <- <- <-. auto. }
  set (x := as_usize (px seed)). set (y := as_usize (py seed)).
  pose (step := fun p1 : prepared => (let* dx := aget dx_map dir in
      let* dy := aget dy_map dir in
      let* sx := ival (px seed + dx)%iexp in
      let* sy := ival (py seed + dy)%iexp in
      Ok (p1, MkPoint sx sy, false)) : out (prepared * point * bool)).
  assert (Step : forall p1, reg_inv I0 p1 -> step p1 = Ok (p', seed', found') -> reg_inv I0 p' /\ (found' = true -> seed_ok I0 p' seed')).
  { intros p1 R1. subst step. cbv beta. destruct (aget dx_map dir); cbn [bind]; try discriminate.
    destruct (aget dy_map dir); cbn [bind]; try discriminate.
    destruct (ival _); cbn [bind]; try discriminate. destruct (ival _); cbn [bind]; try discriminate.
    intros E. injection E as <- <- <-. split; [assumption|discriminate]. }
  destruct ((x <? p_w p) && (y <? p_h p)) eqn:B; [|apply Step; assumption].
  assert (Sz : p_w p = im_w I0 /\ p_h p = im_h I0) by apply (bi_size _ _ (ri_base _ _ R)). destruct Sz as [Sw Sh].
  assert (I : in_image I0 (x, y)).
  { unfold x, y, as_usize in *. split; cbn [fst snd]; (split; [apply Z.mod_pos_bound; lia|]); lia. }
  destruct (pix_color I0 p x y R) as [E C]; [apply I|apply I|]. unfold out in *. rewrite E. cbn [bind].
  destruct (is_white (color_of (pix (p_buf p) (x, y)))) eqn:W; [apply Step; assumption|].
  assert (N0 : pix (p_buf p) (x, y) <> 0) by (intros H; rewrite H in W; discriminate).
  destruct (get_region_ok I0 p x y R I N0) as (reg & p1 & Er & R1 & _). unfold out in *. rewrite Er. cbn [bind].
  destruct reg as [c sx sy n| | |].
  - destruct ((est / 2 <=? n) && (n <=? est * 2)); [|apply Step; assumption].
    intros H. injection H as <- <- <-. split; [assumption|]. intros _. split; [exact I|].
    intros H0. apply N0. apply (bi_white _ _ (ri_base _ _ R) _ I). exact H0.
  - intros H. injection H as <- <- <-. split; [assumption|discriminate].
  - intros H. injection H as <- <- <-. split; [assumption|discriminate].
  - intros H. injection H as <- <- <-. split; [assumption|discriminate].
Qed.

Lemma align_passes_kept I0 est dir : forall l p seed found p' seed' found',
  reg_inv I0 p -> (found = true -> seed_ok I0 p seed) ->
  for_each l (fun _ : nat => align_pass est dir) (p, seed, found) = Ok (p', seed', found') ->
  reg_inv I0 p' /\ (found' = true -> seed_ok I0 p' seed').
Proof.
  intros l. induction l as [|a l IH]; intros p seed found p' seed' found' R H E; cbn [for_each] in E.
  - injection E as <- <- <-. auto.
  - destruct (align_pass est dir (p, seed, found)) as [[[p1 seed1] found1]|e| |] eqn:E1; cbn [bind] in E; try discriminate.
    destruct (align_pass_kept I0 est dir _ _ _ _ _ _ R H E1) as [R1 H1]. eapply IH; eassumption.
Qed.

Lemma align_spiral_kept I0 est : forall fuel dir step p seed o p', reg_inv I0 p ->
  align_spiral fuel est dir step p seed = Ok (o, p') ->
  reg_inv I0 p' /\ (forall q, o = Some q -> seed_ok I0 p' q).
Proof.
  intros fuel. induction fuel as [|fuel IH]; intros dir step p seed o p' R E; cbn [align_spiral] in E;
    destruct (step * step <? est * 100); try discriminate; try (injection E as <- <-; split; [assumption|discriminate]).
  destruct (for_each _ _ _) as [[[p1 seed1] found1]|e| |] eqn:E1; cbn [bind] in E; try discriminate.
  assert (K : reg_inv I0 p1 /\ (found1 = true -> seed_ok I0 p1 seed1)).
  { eapply align_passes_kept; [exact R| |exact E1]. discriminate. }
  destruct K as [R1 H1].
  destruct found1.
  - injection E as <- <-. split; [assumption|]. intros q Hq. injection Hq as <-. apply H1. reflexivity.
  - eapply IH; eassumption.
Qed.

Section Numbers.
Context {T : Type} {N : Num T}.

Lemma from_group_kept I0 p (g : group T) o p' : reg_inv I0 p -> from_group p g = Ok (o, p') -> reg_inv I0 p'.
Proof.
  intros R. unfold from_group. destruct (orient_group g) as [[g' hd]| | |]; cbn [bind]; try discriminate.
  destruct (measure_timing_pattern p g') as [size| | |]; cbn [bind]; try discriminate.
  destruct (line_intersect _ _ _ _) as [[align|]| | |]; cbn [bind]; try discriminate.
  2: { intros E. injection E as <- <-. assumption. }
  assert (K : forall o1 p1, (if 21 <? size then locate_alignment p g' hd align else Ok (Some align, p)) = Ok (o1, p1) -> reg_inv I0 p1).
  { intros o1 p1. destruct (21 <? size).
    2: { intros E. injection E as <- <-. assumption. }
    unfold locate_alignment, find_alignment_pattern.
    destruct (persp_unmap _ _) as [u v]. destruct (persp_map _ _ _) as [a| | |]; cbn [bind]; try discriminate.
    destruct (persp_unmap _ _) as [u' v']. destruct (persp_map _ _ _) as [c| | |]; cbn [bind]; try discriminate.
    destruct (ival _) as [s| | |]; cbn [bind]; try discriminate.
    destruct (align_spiral _ _ _ _ _ _) as [[o2 p2]| | |] eqn:Ea; cbn [bind]; try discriminate.
    destruct (align_spiral_kept I0 _ _ _ _ _ _ _ _ R Ea) as [R2 H2].
    destruct o2 as [q|].
    - destruct (ival _) as [s'| | |]; cbn [bind]; try discriminate.
      destruct (repaint_and_apply _ _ _ _ _ _) as [[p3 [best sc]]| | |] eqn:Er; cbn [bind]; try discriminate.
      intros E. injection E as <- <-.
      eapply repaint_kept; [exact R2|apply (H2 q eq_refl)| |exact Er]. right. right. left. reflexivity.
    - intros E. injection E as <- <-. assumption. }
  destruct (if 21 <? size then _ else _) as [[o1 p1]| | |] eqn:E1; cbn [bind]; try discriminate.
  specialize (K o1 p1 eq_refl). destruct o1 as [q|].
  2: { intros E. injection E as <- <-. assumption. }
  destruct (version_from_grid_size size) as [v| | |]; cbn [bind]; try discriminate.
  destruct (_ <=? v).
  { intros E. injection E as <- <-. assumption. }
  destruct (setup_perspective p1 g' q size) as [[c|]| | |]; cbn [bind]; try discriminate;
    intros E; injection E as <- <-; assumption.
Qed.

(** C37: an image without columns but with rows. *)
Lemma search_no_columns (p : prepared) : wf_image (p_buf p) -> p_w p = 0 -> 0 < p_h p ->
  capstones_from_image (T := T) p = Panic.
Proof.
  intros (_ & _ & L) W H. unfold capstones_from_image. rewrite (@zrange_cons 0 (p_h p)) by lia. cbn [for_each].
  unfold scan_row, get_pixel_at, get_pixel. unfold p_w in W. rewrite W in L.
  assert (im_px (p_buf p) = []) by (destruct (im_px (p_buf p)); [reflexivity|cbn in L; lia]). rewrite H0. reflexivity.
Qed.

Lemma search_no_rows (p : prepared) : p_h p = 0 -> capstones_from_image (T := T) p = Ok ([], p).
Proof. intros H. unfold capstones_from_image. rewrite H. reflexivity. Qed.

Lemma search_kept I0 p caps p' : reg_inv I0 p -> capstones_from_image (T := T) p = Ok (caps, p') -> reg_inv I0 p'.
Proof.
  intros R E. pose proof (bi_wf _ _ (ri_base _ _ R)) as W. pose proof (bi_size _ _ (ri_base _ _ R)) as [Sw Sh].
  destruct (Z_lt_ge_dec 0 (im_w I0)) as [Hw|Hw].
  - destruct (search_ok I0 p R ltac:(lia)) as [(c1 & p1 & E1 & R1 & _)|[E1 _]]; [|congruence].
    rewrite E in E1. injection E1 as <- <-. assumption.
  - destruct W as (W1 & W2 & W3). destruct (Z.eq_dec (p_h p) 0) as [H0|H0].
    + rewrite search_no_rows in E by assumption. injection E as <- <-. assumption.
    + rewrite search_no_columns in E; [discriminate|repeat split; assumption|unfold p_w; lia|unfold p_h in *; lia].
Qed.

Lemma detect_kept {Srt : Sorter T} I0 p grids p' : reg_inv I0 p -> detect_grids (T := T) p = Ok (grids, p') -> reg_inv I0 p'.
Proof.
  intros R. unfold detect_grids. destruct (capstones_from_image p) as [[stones p1]| | |] eqn:E1; cbn [bind]; try discriminate.
  apply (search_kept I0) in E1; [|assumption].
  destruct (find_groupings p1 stones) as [groups| | |]; cbn [bind]; try discriminate.
  set (body := fun (g : group T) (s : prepared * list (location T)) => _).
  assert (G : forall gs p1 locs p2 locs', reg_inv I0 p1 -> for_each gs body (p1, locs) = Ok (p2, locs') -> reg_inv I0 p2).
  { intros gs. induction gs as [|g gs IH]; intros q1 locs q2 locs' Rq E; cbn [for_each] in E.
    - injection E as <- <-. assumption.
    - destruct (body g (q1, locs)) as [[q3 l3]| | |] eqn:Eb; cbn [bind] in E; try discriminate.
      apply IH in E; [assumption|]. unfold body in Eb.
      destruct (from_group q1 g) as [[o q4]| | |] eqn:Ef; cbn [bind] in Eb; try discriminate.
      apply (from_group_kept I0) in Ef; [|assumption]. destruct o; injection Eb as <- <-; assumption. }
  destruct (for_each groups body (p1, [])) as [[p2 locs]| | |] eqn:E2; cbn [bind]; try discriminate.
  apply G in E2; [|assumption]. destruct (for_each locs _ []) as [gr| | |]; cbn [bind]; try discriminate.
  intros E. injection E as <- <-. assumption.
Qed.

(** * Histories *)

(** A freshly prepared image: black and white pixels, an empty cache. *)
Definition fresh (I0 : image) (p : prepared) : Prop :=
  p = MkPrepared I0 [] /\ wf_image I0 /\ im_w I0 * im_h I0 <= usize_max
  /\ forall q, in_image I0 q -> pix I0 q = 0 \/ pix I0 q = 1.

(** The states that operations on a prepared image lead to. *)
Inductive reached (I0 : image) : prepared -> Prop :=
| reached_fresh p : fresh I0 p -> reached I0 p
| reached_clone p : reached I0 p -> reached I0 (clone p)
| reached_query p x y r p' : reached I0 p -> in_image I0 (x, y) -> get_region p x y = Ok (r, p') -> reached I0 p'
| reached_repaint p x y c F (update : row -> F -> out F) f p' f' : reached I0 p -> in_image I0 (x, y) ->
    reserved c -> repaint_and_apply p x y c update f = Ok (p', f') -> reached I0 p'
| reached_search p caps p' : reached I0 p -> capstones_from_image (T := T) p = Ok (caps, p') -> reached I0 p'
| reached_group p (g : group T) o p' : reached I0 p -> from_group p g = Ok (o, p') -> reached I0 p'
| reached_detect (Srt : Sorter T) p grids p' : reached I0 p -> detect_grids (T := T) p = Ok (grids, p') -> reached I0 p'.

Lemma reached_inv I0 p : reached I0 p -> reg_inv I0 p.
Proof.
  intros H. induction H as [p F|p H IH|p x y r p' H IH I E|p x y c F update f p' f' H IH I Hc E|p caps p' H IH E|p g o p' H IH E|Srt p grids p' H IH E].
  - destruct F as (-> & W & U & B). apply fresh_inv; assumption.
  - apply clone_inv. assumption.
  - pose proof (bi_wf _ _ (ri_base _ _ IH)) as W.
    assert (I' : in_image (p_buf p) (x, y)) by (apply (same_size_in _ _ _ (bi_size _ _ (ri_base _ _ IH))); assumption).
    destruct (Z.eq_dec (pix (p_buf p) (x, y)) 0) as [E0|E0].
    + rewrite get_region_white in E by assumption. discriminate.
    + destruct (get_region_ok I0 p x y IH I E0) as (r1 & p1 & E1 & R1 & _). rewrite E in E1. injection E1 as <- <-. assumption.
  - eapply repaint_kept; eassumption.
  - eapply search_kept; eassumption.
  - eapply from_group_kept; eassumption.
  - eapply detect_kept; eassumption.
Qed.
End Numbers.

(** Detecting again: what was claimed stays claimed, so nothing is found twice. *)
From Coq Require Import SpecFloat.
From Verif Require Import Base Lib ModelImage ModelGeometry ModelDetect ModelIdentify SpecImage SpecScan FloodProofs RegionProofs PrepareProofs ScanProofs DetectProofs CornerProofs SearchProofs HistoryProofs CenterProofs ImageFacts.
Open Scope Z_scope.
From Coq Require Import ZifyBool ZifyNat ZifyN.
Set Bullet Behavior "Strict Subproofs".

Definition grown (I0 : image) (p p' : prepared) : Prop := forall q, in_image I0 q -> claimed p q -> claimed p' q.

Lemma grown_refl I0 p : grown I0 p p.
Proof. intros q _ H. exact H. Qed.

Lemma grown_trans I0 p p' p'' : grown I0 p p' -> grown I0 p' p'' -> grown I0 p p''.
Proof. intros A B q I H. apply B; [exact I|]. apply A; assumption. Qed.

Lemma kept_grown I0 p p' : claims_kept I0 p p' -> grown I0 p p'.
Proof. intros K q I H. unfold claimed. rewrite (K q I); [exact H|]. right. left. exact H. Qed.

Lemma grow_grown I0 p p' : claims_grow I0 p p' -> grown I0 p p'.
Proof. intros K q I H. unfold claimed. rewrite (K q I H). exact H. Qed.

(** What is claimed is not accepted as a pattern later on. *)
Lemma not_accepted I0 p p' y x l : grown I0 p p' -> 0 <= y < im_h I0 -> candidate I0 y x l -> ~ accepted I0 p y l -> ~ accepted I0 p' y l.
Proof.
  intros G Hy C N0 (A1 & A2 & A3). apply N0. pose proof (candidate_line I0 y x l Hy C) as D.
  split; [|split]; [| |exact A3]; intros X; [apply A1|apply A2]; (apply G; [|exact X]); apply D; auto.
Qed.

Section Numbers.
Context {T : Type} {N : Num T}.

Lemma pass_grown I0 est dir p seed found p' seed' found' : reg_inv I0 p -> align_pass est dir (p, seed, found) = Ok (p', seed', found') -> grown I0 p p'.
Proof.
  intros R. unfold align_pass. destruct found.
  { intros E. injection E as <- _ _. apply grown_refl. }
  set (x := as_usize (px seed)). set (y := as_usize (py seed)).
  pose (step := fun p1 : prepared => (let* dx := aget dx_map dir in
      let* dy := aget dy_map dir in
      let* sx := ival (px seed + dx)%iexp in
      let* sy := ival (py seed + dy)%iexp in
      Ok (p1, MkPoint sx sy, false)) : out (prepared * point * bool)).
  assert (Step : forall p1, grown I0 p p1 -> step p1 = Ok (p', seed', found') -> grown I0 p p').
  { intros p1 R1. subst step. cbv beta. destruct (aget dx_map dir); cbn [bind]; try discriminate.
    destruct (aget dy_map dir); cbn [bind]; try discriminate.
    destruct (ival _); cbn [bind]; try discriminate. destruct (ival _); cbn [bind]; try discriminate.
    intros E. injection E as <- _ _. exact R1. }
  pose proof (grown_refl I0 p) as G0.
  destruct ((x <? p_w p) && (y <? p_h p)) eqn:B; [|apply Step; assumption].
  assert (Sz : p_w p = im_w I0 /\ p_h p = im_h I0) by apply (bi_size _ _ (ri_base _ _ R)). destruct Sz as [Sw Sh].
  assert (I : in_image I0 (x, y)).
  { unfold x, y, as_usize in *. split; cbn [fst snd]; (split; [apply Z.mod_pos_bound; lia|]); lia. }
  destruct (pix_color I0 p x y R) as [E C]; [apply I|apply I|]. unfold out in *. rewrite E. cbn [bind].
  destruct (is_white (color_of (pix (p_buf p) (x, y)))) eqn:W; [apply Step; assumption|].
  assert (N0 : pix (p_buf p) (x, y) <> 0) by (intros H; rewrite H in W; discriminate).
  destruct (get_region_ok I0 p x y R I N0) as (reg & p1 & Er & R1 & K1 & _). apply kept_grown in K1. unfold out in *. rewrite Er. cbn [bind].
  destruct reg as [c sx sy n| | |].
  - destruct ((est / 2 <=? n) && (n <=? est * 2)); [|apply Step; assumption]. intros H. injection H as <- _ _. exact K1.
  - intros H. injection H as <- _ _. exact K1.
  - intros H. injection H as <- _ _. exact K1.
  - intros H. injection H as <- _ _. exact K1.
Qed.

Lemma passes_grown I0 est dir : forall l p seed found p' seed' found', reg_inv I0 p -> (found = true -> seed_ok I0 p seed) ->
  for_each l (fun _ : nat => align_pass est dir) (p, seed, found) = Ok (p', seed', found') -> grown I0 p p'.
Proof.
  intros l. induction l as [|a l IH]; intros p seed found p' seed' found' R H E; cbn [for_each] in E.
  - injection E as <- _ _. apply grown_refl.
  - destruct (align_pass est dir (p, seed, found)) as [[[p1 seed1] found1]|e| |] eqn:E1; cbn [bind] in E; try discriminate.
    destruct (align_pass_kept I0 est dir _ _ _ _ _ _ R H E1) as [R1 H1]. eapply grown_trans; [exact (pass_grown I0 est dir _ _ _ _ _ _ R E1)|]. eapply IH; eassumption.
Qed.

Lemma spiral_grown I0 est : forall fuel dir step p seed o p', reg_inv I0 p -> align_spiral fuel est dir step p seed = Ok (o, p') -> grown I0 p p'.
Proof.
  intros fuel. induction fuel as [|fuel IH]; intros dir step p seed o p' R E; cbn [align_spiral] in E;
    destruct (step * step <? est * 100); try discriminate; try (injection E as _ <-; apply grown_refl).
  destruct (for_each _ _ _) as [[[p1 seed1] found1]|e| |] eqn:E1; cbn [bind] in E; try discriminate.
  assert (K : reg_inv I0 p1 /\ (found1 = true -> seed_ok I0 p1 seed1)) by (eapply align_passes_kept; [exact R| |exact E1]; discriminate).
  assert (G : grown I0 p p1) by (eapply passes_grown; [exact R| |exact E1]; discriminate).
  destruct K as [R1 H1]. destruct found1; [injection E as _ <-; exact G|]. eapply grown_trans; [exact G|]. eapply IH; eassumption.
Qed.

Lemma repaint_grown I0 p x y F (update : row -> F -> out F) f p' f' : reg_inv I0 p -> in_image I0 (x, y) ->
  repaint_and_apply p x y CAlignment update f = Ok (p', f') -> grown I0 p p'.
Proof.
  intros R I E. pose proof (bi_wf _ _ (ri_base _ _ R)) as W.
  assert (I' : in_image (p_buf p) (x, y)) by (apply (same_size_in _ _ _ (bi_size _ _ (ri_base _ _ R))); assumption).
  destruct (Z.eq_dec (pix (p_buf p) (x, y)) 0) as [E0|E0]; [rewrite (repaint_panics p x y CAlignment 3) in E by auto; discriminate|].
  destruct (Z.eq_dec (pix (p_buf p) (x, y)) 3) as [E1|E1]; [rewrite (repaint_panics p x y CAlignment 3) in E by auto; discriminate|].
  destruct (repaint_inv I0 p x y CAlignment 3 R I eq_refl ltac:(lia) E0 E1) as (p2 & rows & R2 & P & _ & Hr & _ & G).
  rewrite G in E. destruct (for_each rows update f); cbn in E; try discriminate. injection E as <- _.
  intros q Iq H. unfold claimed. destruct (P q Iq) as [P1 P2]. destruct (cells_dec_blob I0 (x, y) rows Hr q) as [B|B]; [rewrite (P1 B); lia|rewrite (P2 B); exact H].
Qed.

Lemma from_group_grown I0 p (g : group T) o p' : reg_inv I0 p -> from_group p g = Ok (o, p') -> grown I0 p p'.
Proof.
  intros R. pose proof (grown_refl I0 p) as G0. unfold from_group. destruct (orient_group g) as [[g' hd]| | |]; cbn [bind]; try discriminate.
  destruct (measure_timing_pattern p g') as [size| | |]; cbn [bind]; try discriminate.
  destruct (line_intersect _ _ _ _) as [[align|]| | |]; cbn [bind]; try discriminate.
  2: { intros E. injection E as _ <-. assumption. }
  assert (K : forall o1 p1, (if 21 <? size then locate_alignment p g' hd align else Ok (Some align, p)) = Ok (o1, p1) -> grown I0 p p1).
  { intros o1 p1. destruct (21 <? size).
    2: { intros E. injection E as _ <-. assumption. }
    unfold locate_alignment, find_alignment_pattern.
    destruct (persp_unmap _ _) as [u v]. destruct (persp_map _ _ _) as [a| | |]; cbn [bind]; try discriminate.
    destruct (persp_unmap _ _) as [u' v']. destruct (persp_map _ _ _) as [c| | |]; cbn [bind]; try discriminate.
    destruct (ival _) as [s| | |]; cbn [bind]; try discriminate.
    destruct (align_spiral _ _ _ _ _ _) as [[o2 p2]| | |] eqn:Ea; cbn [bind]; try discriminate.
    destruct (align_spiral_kept I0 _ _ _ _ _ _ _ _ R Ea) as [R2 H2]. pose proof (spiral_grown I0 _ _ _ _ _ _ _ _ R Ea) as G2.
    destruct o2 as [q|].
    - destruct (ival _) as [s'| | |]; cbn [bind]; try discriminate.
      destruct (repaint_and_apply _ _ _ _ _ _) as [[p3 [best sc]]| | |] eqn:Er; cbn [bind]; try discriminate.
      intros E. injection E as _ <-. eapply grown_trans; [exact G2|].
      eapply repaint_grown; [exact R2|apply (H2 q eq_refl)|exact Er].
    - intros E. injection E as _ <-. assumption. }
  destruct (if 21 <? size then _ else _) as [[o1 p1]| | |] eqn:E1; cbn [bind]; try discriminate.
  specialize (K o1 p1 eq_refl). destruct o1 as [q|].
  2: { intros E. injection E as _ <-. assumption. }
  destruct (version_from_grid_size size) as [v| | |]; cbn [bind]; try discriminate.
  destruct (_ <=? v).
  { intros E. injection E as _ <-. assumption. }
  destruct (setup_perspective p1 g' q size) as [[c|]| | |]; cbn [bind]; try discriminate;
    intros E; injection E as _ <-; assumption.
Qed.

(** The state after a detection. *)
Lemma detect_searched {Srt : Sorter T} I0 p grids p' : reg_inv I0 p -> detect_grids (T := T) p = Ok (grids, p') ->
  exists caps p1, capstones_from_image (T := T) p = Ok (caps, p1) /\ grown I0 p1 p'.
Proof.
  intros R. unfold detect_grids. destruct (capstones_from_image p) as [[stones p1]| | |] eqn:E1; cbn [bind]; try discriminate.
  pose proof (search_kept I0 _ _ _ R E1) as R1.
  destruct (find_groupings p1 stones) as [groups| | |]; cbn [bind]; try discriminate.
  set (body := fun (g : group T) (s : prepared * list (location T)) => _).
  assert (G : forall gs p1 locs p2 locs', reg_inv I0 p1 -> for_each gs body (p1, locs) = Ok (p2, locs') -> grown I0 p1 p2).
  { intros gs. induction gs as [|g gs IH]; intros q1 locs q2 locs' Rq E; cbn [for_each] in E.
    - injection E as <- _. apply grown_refl.
    - destruct (body g (q1, locs)) as [[q3 l3]| | |] eqn:Eb; cbn [bind] in E; try discriminate. unfold body in Eb.
      destruct (from_group q1 g) as [[o q4]| | |] eqn:Ef; cbn [bind] in Eb; try discriminate.
      pose proof (from_group_kept I0 _ _ _ _ Rq Ef) as R4. pose proof (from_group_grown I0 _ _ _ _ Rq Ef) as G4.
      assert (q4 = q3) by (destruct o; injection Eb as <- _; reflexivity). subst q4.
      eapply grown_trans; [exact G4|]. eapply IH; eassumption. }
  destruct (for_each groups body (p1, [])) as [[p2 locs]| | |] eqn:E2; cbn [bind]; try discriminate.
  apply G in E2; [|assumption]. destruct (for_each locs _ []) as [gr| | |]; cbn [bind]; try discriminate.
  intros E. injection E as _ <-. exists stones, p1. split; [reflexivity|exact E2].
Qed.

Lemma detect_none {Srt : Sorter T} p p' : capstones_from_image (T := T) p = Ok ([], p') -> detect_grids (T := T) p = Ok ([], p').
Proof. intros E. unfold detect_grids. rewrite E. reflexivity. Qed.
End Numbers.

(** What can be done with a prepared image afterwards. *)
Inductive later : prepared -> prepared -> Prop :=
| later_now p : later p p
| later_clone p p' : later p p' -> later p (clone p')
| later_detect (Srt : Sorter spec_float) p p' grids p'' : later p p' -> detect_grids (T := spec_float) p' = Ok (grids, p'') -> later p p''.

Lemma later_grown I0 p p' : reached64 I0 p -> later p p' -> reached64 I0 p' /\ grown I0 p p'.
Proof.
  intros R L. induction L as [p|p p' L IH|Srt p p' grids p'' L IH E].
  - split; [exact R|apply grown_refl].
  - destruct (IH R) as [R' G]. split; [apply reached_clone; exact R'|]. intros q I H. unfold claimed.
    destruct (clone_inv I0 p' (reached_inv I0 p' R')) as [_ ->]. exact (G q I H).
  - destruct (IH R) as [R' G]. split; [eapply reached_detect; eassumption|]. pose proof (reached_inv I0 p' R') as Ri.
    destruct (detect_searched I0 p' grids p'' Ri E) as (caps & p1 & E1 & G1).
    eapply grown_trans; [exact G|]. eapply grown_trans; [|exact G1]. apply grow_grown.
    destruct (Z.eq_dec (im_h I0) 0) as [H0|H0].
    + assert (X : p_h p' = 0) by (transitivity (im_h I0); [apply (bi_size _ _ (ri_base _ _ Ri))|exact H0]).
      rewrite (search_no_rows p' X) in E1. injection E1 as _ <-. intros q Iq H. reflexivity.
    + assert (Wf : wf_image (p_buf p')) by apply (bi_wf _ _ (ri_base _ _ Ri)).
      assert (Sz : p_w p' = im_w I0 /\ p_h p' = im_h I0) by apply (bi_size _ _ (ri_base _ _ Ri)).
      destruct (Z.eq_dec (im_w I0) 0) as [W0|W0].
      * intros q [Iq _]. lia.
      * destruct (search_ok (T := spec_float) I0 p' Ri) as [(c & p2 & E2 & _ & G2 & _)|[E2 _]].
        -- destruct Wf as (A & B & _). unfold p_w, p_h in Sz. lia.
        -- rewrite E1 in E2. injection E2 as _ <-. exact G2.
        -- congruence.
Qed.

Theorem detect_again {Srt : Sorter spec_float} I0 p grids p' p'' : reached64 I0 p -> 1 <= im_w I0 <= 32768 -> im_h I0 <= 32768 ->
  detect_grids (T := spec_float) p = Ok (grids, p') -> later p' p'' -> exists q, detect_grids (T := spec_float) p'' = Ok ([], q).
Proof.
  intros R Hw Hh E L. pose proof (reached_inv I0 p R) as Ri.
  destruct (search64 I0 p R Hw Hh) as (caps & p1 & E1 & R1 & _ & _ & Nn & _).
  destruct (detect_searched I0 p grids p' Ri E) as (caps' & p1' & E1' & G1). unfold out in *. rewrite E1 in E1'. injection E1' as <- <-.
  assert (R' : reached64 I0 p') by exact (reached_detect I0 _ p grids p' R E).
  destruct (later_grown I0 p' p'' R' L) as [R'' G2].
  destruct (search64 I0 p'' R'' Hw Hh) as (caps2 & p2 & E2 & _).
  destruct (search_ok (T := spec_float) I0 p'' (reached_inv I0 p'' R'') ltac:(lia)) as [(c & q & E3 & _ & _ & _ & _ & H3 & _)|[E3 _]]; [|unfold out in *; congruence].
  exists q. apply detect_none. rewrite E3. rewrite H3; [reflexivity|].
  intros y x l Hy Hx C. apply (not_accepted I0 p1 p'' y x l); [eapply grown_trans; eassumption|exact Hy|exact C|]. exact (Nn y x l Hy Hx C).
Qed.

Lemma bitmap_again {Srt : Sorter spec_float} w h fill p grids p' p'' : 1 <= w <= 32768 -> 0 <= h <= 32768 ->
  prepare_from_bitmap w h fill = Ok p -> detect_grids (T := spec_float) p = Ok (grids, p') -> later p' p'' ->
  exists q, detect_grids (T := spec_float) p'' = Ok ([], q).
Proof.
  intros Hw Hh E. destruct (bitmap_ok w h fill) as (p1 & E1 & W & H & F & _); [lia|lia|unfold usize_max; nia|].
  unfold out in *. rewrite E in E1. injection E1 as <-. unfold p_w, p_h in *.
  apply (detect_again (p_buf p)); [apply reached_fresh; exact F|lia|lia].
Qed.

Lemma greyscale_again {Srt : Sorter spec_float} w h fill p grids p' p'' : 1 <= w <= 32768 -> 0 <= h <= 32768 ->
  (forall x y, inside w h (x, y) -> 0 <= fill x y <= 255) ->
  prepare_from_greyscale w h fill = Ok p -> detect_grids (T := spec_float) p = Ok (grids, p') -> later p' p'' ->
  exists q, detect_grids (T := spec_float) p'' = Ok ([], q).
Proof.
  intros Hw Hh G E. destruct (greyscale_ok w h fill) as (p1 & E1 & W & H & F & _); [lia|lia|unfold usize_max; nia|exact G|].
  unfold out in *. rewrite E in E1. injection E1 as <-. unfold p_w, p_h in *.
  apply (detect_again (p_buf p)); [apply reached_fresh; exact F|lia|lia].
Qed.

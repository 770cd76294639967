(** The loops end: detecting and decoding return or panic, whatever the picture. *)
From Coq Require Import SpecFloat.
From Verif Require Import Base Lib VersionDb ModelDecode ModelImage ModelGeometry ModelDetect ModelIdentify SpecImage SpecIdentify FloodProofs RegionProofs SearchProofs HistoryProofs
  SpiralProofs GridProofs ImageFacts IdentifyProofs.
From Coq Require Import ZifyBool.
Open Scope Z_scope.
Set Bullet Behavior "Strict Subproofs".

(** * Totality *)

Lemma total_panic {A} : total (A := A) Panic.
Proof. right. reflexivity. Qed.

(** A loop whose body is total while an invariant holds. *)
Lemma total_loop {I S} (P : S -> Prop) (l : list I) (body : I -> S -> out S) :
  (forall i s, In i l -> P s -> total (body i s)) -> (forall i s s', In i l -> P s -> body i s = Ok s' -> P s') -> forall s, P s -> total (for_each l body s).
Proof.
  induction l as [|i l IH]; intros H K s Hs; [apply total_ok|]. cbn [for_each].
  destruct (H i s (or_introl eq_refl) Hs) as [[s' E]|E]; unfold out in *; rewrite E; cbn [bind]; [|apply total_panic].
  apply IH; [|intros; eapply K; try eassumption; right; assumption|eapply K; [left; reflexivity|exact Hs|exact E]].
  intros j t Hj Ht. apply H; [right; exact Hj|exact Ht].
Qed.

(** A step whose continuation needs the outcome. *)
Lemma total_then {A B} (m : out A) (k : A -> out B) : total m -> (forall a, m = Ok a -> total (k a)) -> total (bind m k).
Proof. intros [[a E]|E] H; rewrite E; cbn [bind]; [apply H; exact E|apply total_panic]. Qed.

Lemma total_usub a b : total (usub a b).
Proof. unfold usub. destruct (_ <=? _); [apply total_ok|apply total_panic]. Qed.
Lemma total_aget {A} (l : list A) i : total (aget l i).
Proof. unfold aget. destruct (nth_error l i); [apply total_ok|apply total_panic]. Qed.
Lemma total_assert b : total (assert_ b).
Proof. unfold assert_. destruct b; [apply total_ok|apply total_panic]. Qed.
Lemma total_pixel im x y : total (get_pixel im x y).
Proof. unfold get_pixel. destruct (_ <=? _); [apply total_aget|apply total_panic]. Qed.
Lemma total_pixel_at p x y : total (get_pixel_at p x y).
Proof. unfold get_pixel_at. apply total_bind; [apply total_pixel|intros; apply total_ok]. Qed.
Lemma total_pixel_point p q : total (get_pixel_at_point p q).
Proof. unfold get_pixel_at_point. repeat (apply total_bind; [apply total_usub|intros ?]). apply total_pixel_at. Qed.
Lemma total_idiv a b : total (idiv a b).
Proof. unfold idiv. destruct (_ =? _); [apply total_panic|]. apply total_i32. Qed.

Ltac total_step := first
  [ apply total_ok | apply total_panic | apply total_ival | apply total_i32 | apply total_usub | apply total_aget | apply total_assert
  | apply total_pixel_at | apply total_pixel_point | apply total_idiv | apply total_map
  | apply total_bind; [|intros ?] | apply total_for; intros ? ?
  | match goal with |- total (match ?x with _ => _ end) => destruct x end
  | match goal with |- total (if ?x then _ else _) => destruct x end
  | match goal with |- total (let '(_, _) := ?x in _) => destruct x end ].
Ltac total_tac := repeat total_step.

(** * Lines *)

Lemma bres_next_total b : total (bres_next b).
Proof. unfold bres_next. cbv zeta. total_tac. Qed.

Lemma bres_next_step b q b' : bres_next b = Ok (Some (q, b')) -> b_d b' = b_d b /\ b_i b' = b_i b + 1 /\ b_i b <= b_d b.
Proof.
  unfold bres_next. destruct (Z.ltb_spec (b_d b) (b_i b)); [discriminate|]. cbv zeta.
  destruct (ival _) as [a| | |]; cbn [bind]; try discriminate. destruct (if b_xdom b then _ else _) as [dom non].
  destruct (ival _) as [dom'| | |]; cbn [bind]; try discriminate.
  destruct (if b_d b <=? a then _ else _) as [[non' a']| | |]; cbn [bind]; try discriminate.
  destruct (ival (b_i b + 1)%iexp) as [i| | |] eqn:Ei; cbn [bind]; try discriminate.
  destruct (if b_xdom b then (dom', non') else (non', dom')) as [x y]. intros E. injection E as <- <-. cbn [b_d b_i].
  cbn [ival bind] in Ei. unfold i32 in Ei. destruct (_ && _); [|discriminate]. injection Ei as <-. lia.
Qed.

Lemma bres_collect_total fuel : forall b, (Z.to_nat (b_d b + 1 - b_i b) < fuel)%nat -> total (bres_collect fuel b).
Proof.
  induction fuel as [|fuel IH]; intros b Hf; [lia|]. cbn [bres_collect].
  apply total_then; [apply bres_next_total|]. intros [[q b']|] E; [|apply total_ok].
  apply bres_next_step in E as (E1 & E2 & E3). apply total_bind; [apply IH; lia|intros; apply total_ok].
Qed.

Lemma bres_new_total p q : total (bres_new p q).
Proof. unfold bres_new, iabs. total_tac. Qed.

Lemma i32_value z v : i32 z = Ok v -> v = z.
Proof. unfold i32. destruct (_ && _); [|discriminate]. intros E. injection E as ->. reflexivity. Qed.

Lemma bres_new_start p q b : bres_new p q = Ok b -> b_i b = 0 /\ 0 <= b_d b.
Proof.
  unfold bres_new. destruct (ival (px q - px p)%iexp) as [n| | |]; cbn [bind]; try discriminate. destruct (ival (py q - py p)%iexp) as [d| | |]; cbn [bind]; try discriminate.
  destruct (iabs n) as [an| | |]; cbn [bind]; try discriminate. destruct (iabs d) as [ad| | |]; cbn [bind]; try discriminate.
  destruct (if ad <? an then _ else _) as [[xd n'] d']. destruct (if n' <? 0 then _ else _) as [[n2 ns]| | |]; cbn [bind]; try discriminate.
  destruct (Z.ltb_spec d' 0) as [H|H].
  - cbn [ival bind]. destruct (i32 _) as [m| | |] eqn:E; cbn [bind]; try discriminate. apply i32_value in E. intros F. injection F as <-. cbn [b_i b_d]. lia.
  - cbn [bind]. intros F. injection F as <-. cbn [b_i b_d]. lia.
Qed.

Lemma bres_points_total p q : total (bres_points p q).
Proof.
  unfold bres_points. apply total_then; [apply bres_new_total|]. intros b E. apply bres_new_start in E as [E1 E2]. apply bres_collect_total. lia.
Qed.

Lemma timing_scan_total p a b : total (timing_scan p a b).
Proof. unfold timing_scan. apply total_bind; [apply bres_points_total|]. intros l. total_tac. Qed.

(** * The alignment search *)

Lemma align_pass_total I0 est dir s : reg_inv I0 (fst (fst s)) -> total (align_pass est dir s).
Proof.
  destruct s as [[p seed] found]. cbn [fst]. intros R. unfold align_pass. destruct found; [apply total_ok|]. cbv zeta.
  set (x := as_usize (px seed)). set (y := as_usize (py seed)).
  destruct ((x <? p_w p) && (y <? p_h p)) eqn:B; [|total_tac].
  assert (Sz : p_w p = im_w I0 /\ p_h p = im_h I0) by apply (bi_size _ _ (ri_base _ _ R)). destruct Sz as [Sw Sh].
  assert (I : in_image I0 (x, y)) by (unfold x, y, as_usize in *; split; cbn [fst snd]; (split; [apply Z.mod_pos_bound; lia|]); lia).
  destruct (pix_color I0 p x y R) as [E C]; [apply I|apply I|]. unfold out in *. rewrite E. cbn [bind].
  destruct (is_white (color_of (pix (p_buf p) (x, y)))) eqn:W; [total_tac|].
  assert (N0 : pix (p_buf p) (x, y) <> 0) by (intros H; rewrite H in W; discriminate).
  destruct (get_region_ok I0 p x y R I N0) as (reg & p1 & Er & R1 & _). unfold out in *. rewrite Er. cbn [bind]. destruct reg; total_tac.
Qed.

Lemma align_passes_total I0 est dir l p seed found : reg_inv I0 p -> (found = true -> seed_ok I0 p seed) -> total (for_each l (fun _ : nat => align_pass est dir) (p, seed, found)).
Proof.
  intros R H. apply (total_loop (fun s => reg_inv I0 (fst (fst s)) /\ (snd s = true -> seed_ok I0 (fst (fst s)) (snd (fst s))))); [| |split; assumption].
  - intros i s _ [Rs _]. apply (align_pass_total I0). exact Rs.
  - intros i [[p1 s1] f1] [[p2 s2] f2] _ [Rs Hs] E. cbn [fst snd] in *. exact (align_pass_kept I0 est dir _ _ _ _ _ _ Rs Hs E).
Qed.

Lemma align_spiral_total I0 est legs : legs_of est legs -> forall m n fuel p seed, (n + m = legs)%nat -> (m <= fuel)%nat -> reg_inv I0 p ->
  total (align_spiral fuel est (Nat.modulo n 4) (Z.of_nat (leg_len n)) p seed).
Proof.
  intros HL m. induction m as [|m IH]; intros n fuel p seed Hn Hf R.
  - assert (L : (Z.of_nat (leg_len n) * Z.of_nat (leg_len n) <? est * 100) = false) by (apply Z.ltb_ge, Z.nlt_ge; rewrite <- (HL n); lia).
    destruct fuel; cbn [align_spiral]; rewrite L; apply total_ok.
  - assert (L : (Z.of_nat (leg_len n) * Z.of_nat (leg_len n) <? est * 100) = true) by (apply Z.ltb_lt; apply (HL n); lia).
    destruct fuel as [|fuel]; [lia|]. cbn [align_spiral]. rewrite L.
    apply total_then; [apply (align_passes_total I0); [exact R|discriminate]|]. intros [[p1 seed1] found1] E.
    apply (align_passes_kept I0) in E as [R1 _]; [|exact R|discriminate].
    destruct found1; [apply total_ok|]. rewrite next_dir, next_len. apply IH; [lia|lia|exact R1].
Qed.

(** * Locating *)

Section Numbers.
Context {T : Type} {N : Num T}.

Lemma find_alignment_total I0 p seed (a b : capstone T) : reg_inv I0 p -> total (find_alignment_pattern p seed a b).
Proof.
  intros R. unfold find_alignment_pattern. destruct (persp_unmap _ _) as [u v]. apply total_bind; [apply total_map|intros ?].
  destruct (persp_unmap _ _) as [u' v']. apply total_bind; [apply total_map|intros ?]. apply total_bind; [apply total_ival|intros s]. cbv zeta.
  destruct (legs_exist (Z.abs s)) as (legs & HL & Hf). apply (align_spiral_total I0 (Z.abs s) legs HL legs 0%nat); [lia|exact Hf|exact R].
Qed.

Lemma repaint_total I0 p x y c F (update : row -> F -> out F) f : reg_inv I0 p -> in_image I0 (x, y) -> reserved c -> (forall r s, total (update r s)) ->
  total (repaint_and_apply p x y c update f).
Proof.
  intros R I Hc Hu. assert (exists tb, color_byte c = Ok tb /\ 1 <= tb <= 4) as (tb & Eb & Hb).
  { destruct Hc as [-> | [-> | [-> | -> ]]]; cbn; eexists; (split; [reflexivity|lia]). }
  pose proof (bi_wf _ _ (ri_base _ _ R)) as W.
  assert (I' : in_image (p_buf p) (x, y)) by (apply (same_size_in _ _ _ (bi_size _ _ (ri_base _ _ R))); assumption).
  destruct (Z.eq_dec (pix (p_buf p) (x, y)) 0) as [E0|E0]; [rewrite (repaint_panics p x y c tb) by auto; apply total_panic|].
  destruct (Z.eq_dec (pix (p_buf p) (x, y)) tb) as [E1|E1]; [rewrite (repaint_panics p x y c tb) by auto; apply total_panic|].
  destruct (repaint_inv I0 p x y c tb R I Eb Hb E0 E1) as (p2 & rows & R2 & _ & _ & _ & _ & G). rewrite G.
  apply total_bind; [apply total_for; intros; apply Hu|intros; apply total_ok].
Qed.

Lemma locate_total I0 p (g : group T) hd align : reg_inv I0 p -> total (locate_alignment p g hd align).
Proof.
  intros R. unfold locate_alignment. apply total_then; [apply (find_alignment_total I0); exact R|]. intros [[q|] p1] E; [|apply total_ok].
  apply total_bind; [apply total_ival|intros s].
  assert (K : reg_inv I0 p1 /\ seed_ok I0 p1 q).
  { unfold find_alignment_pattern in E. destruct (persp_unmap _ _) as [u v]. destruct (persp_map _ _ _) as [a| | |]; cbn [bind] in E; try discriminate.
    destruct (persp_unmap _ _) as [u' v']. destruct (persp_map _ _ _) as [c| | |]; cbn [bind] in E; try discriminate.
    destruct (ival _) as [s'| | |]; cbn [bind] in E; try discriminate. apply (align_spiral_kept I0) in E as [R1 H1]; [|exact R]. split; [exact R1|apply H1; reflexivity]. }
  destruct K as [R1 [I1 _]]. apply total_bind; [|intros [p2 [best sc]]; apply total_ok].
  apply (repaint_total I0); [exact R1|exact I1|right; right; left; reflexivity|]. intros r s'. unfold leftmost_update. total_tac.
Qed.

Lemma fitness_cell_total p (c : perspective T) x y : total (fitness_cell p c x y).
Proof. unfold fitness_cell. total_tac. Qed.
Lemma fitness_ring_total p (c : perspective T) x y r : total (fitness_ring p c x y r).
Proof. unfold fitness_ring. apply total_for. intros i s. repeat (apply total_bind; [apply fitness_cell_total|intros ?]). apply total_ok. Qed.
Lemma fitness_apat_total p (c : perspective T) x y : total (fitness_apat p c x y).
Proof. unfold fitness_apat. repeat (apply total_bind; [first [apply fitness_cell_total|apply fitness_ring_total]|intros ?]). apply total_ok. Qed.
Lemma fitness_capstone_total p (c : perspective T) x y : total (fitness_capstone p c x y).
Proof. unfold fitness_capstone. repeat (apply total_bind; [first [apply fitness_cell_total|apply fitness_ring_total]|intros ?]). apply total_ok. Qed.
Lemma version_total s : total (version_from_grid_size s).
Proof. unfold version_from_grid_size. total_tac. Qed.

Lemma fitness_all_total p (c : perspective T) n : total (fitness_all p c n).
Proof.
  unfold fitness_all. apply total_bind; [apply version_total|intros v]. apply total_bind; [apply total_aget|intros info].
  apply total_bind; [apply total_for; intros i s; cbv zeta; repeat (apply total_bind; [apply fitness_cell_total|intros ?]); apply total_ok|intros s].
  repeat (apply total_bind; [apply fitness_capstone_total|intros ?]). cbv zeta.
  apply total_bind; [apply total_for; intros i s'; apply total_bind; [apply total_aget|intros ?]; repeat (apply total_bind; [apply fitness_apat_total|intros ?]); apply total_ok|intros s'].
  apply total_for. intros i t. apply total_for. intros j t'. repeat (apply total_bind; [apply total_aget|intros ?]). apply total_bind; [apply fitness_apat_total|intros ?]. apply total_ok.
Qed.

Lemma jiggle_total p (c : perspective T) n : total (jiggle_perspective p c n).
Proof.
  unfold jiggle_perspective. apply total_bind; [apply fitness_all_total|intros best]. apply total_bind; [|intros [[c' b] a]; apply total_ok].
  apply total_for. intros i [[c' b] a]. apply total_bind; [|intros [c'' b']; apply total_ok].
  apply total_for. intros j [c1 b1]. unfold jiggle_step. cbv zeta. apply total_bind; [apply fitness_all_total|intros t]. destruct (b1 <? t); apply total_ok.
Qed.

Lemma setup_total p (g : group T) q n : total (setup_perspective p g q n).
Proof.
  unfold setup_perspective. apply total_bind; [apply total_usub|intros s]. destruct (persp_create _ _ _); [|apply total_ok].
  apply total_bind; [apply jiggle_total|intros c; apply total_ok].
Qed.

Lemma rotate_total (c : capstone T) a b : total (rotate_capstone c a b).
Proof. unfold rotate_capstone, corner_key. cbv zeta. repeat (apply total_bind; [apply total_ival|intros ?]). destruct (persp_create _ _ _); [apply total_ok|apply total_panic]. Qed.

Lemma orient_total (g : group T) : total (orient_group g).
Proof.
  unfold orient_group. cbv zeta. repeat (apply total_bind; [apply total_ival|intros ?]).
  apply total_bind; [destruct (0 <? _); total_tac|intros [g' hd]]. repeat (apply total_bind; [apply rotate_total|intros ?]). apply total_ok.
Qed.

Lemma measure_total p (g : group T) : total (measure_timing_pattern p g).
Proof.
  unfold measure_timing_pattern. repeat (apply total_bind; [apply total_map|intros ?]). repeat (apply total_bind; [apply timing_scan_total|intros ?]). total_tac.
Qed.

Lemma intersect_total a b c d : total (line_intersect a b c d).
Proof. unfold line_intersect. total_tac. Qed.

Theorem from_group_total I0 p (g : group T) : reg_inv I0 p -> total (from_group p g).
Proof.
  intros R. unfold from_group. apply total_bind; [apply orient_total|intros [g' hd]]. apply total_bind; [apply measure_total|intros size].
  apply total_bind; [apply intersect_total|intros [align|]]; [|apply total_ok].
  apply total_bind; [destruct (21 <? size); [apply (locate_total I0); exact R|apply total_ok]|intros [[q|] p1]]; [|apply total_ok].
  apply total_bind; [apply version_total|intros v]. destruct (_ <=? v); [apply total_ok|].
  apply total_bind; [apply setup_total|intros [c|]]; apply total_ok.
Qed.

(** * Groups *)

Lemma neighbors_total (caps : list (capstone T)) i : total (find_possible_neighbors caps i).
Proof.
  unfold find_possible_neighbors. apply total_bind; [apply total_aget|intros cap]. apply total_bind; [|intros t; apply total_ok].
  apply total_for. intros j [h v]. destruct (Nat.eqb j i); [apply total_ok|]. apply total_bind; [apply total_aget|intros other].
  destruct (persp_unmap _ _). apply total_ok.
Qed.

Lemma sort_total {Srt : Sorter T} l : total (sort_ranked l).
Proof. pose proof (sort_ends l) as D. destruct (sort_ranked l) as [l'|[]| |]; [left; eauto|right; reflexivity|congruence]. Qed.

Lemma rank_total {Srt : Sorter T} (caps : list (capstone T)) i : total (find_and_rank_possible_neighbors caps i).
Proof.
  unfold find_and_rank_possible_neighbors. apply total_bind; [apply neighbors_total|intros [h v]]. cbv zeta.
  apply total_bind; [|intros; apply total_ok]. apply sort_total.
Qed.

Lemma groupings_total {Srt : Sorter T} I0 p (caps : list (capstone T)) : reg_inv I0 p -> total (find_groupings p caps).
Proof.
  intros R. unfold find_groupings, find_groupings_indexed. apply total_bind; [|intros; apply total_ok]. apply total_bind; [|intros; apply total_ok].
  apply total_for. intros i s. destruct (used_in (fst s) i); [apply total_ok|]. apply total_bind; [apply rank_total|intros pairs].
  apply total_for. intros [a b] [used groups]. unfold try_pair. destruct (_ || _); [apply total_ok|].
  repeat (apply total_bind; [apply total_aget|intros ?]). cbv zeta.
  apply total_bind; [apply (from_group_total I0), clone_inv; exact R|intros [[l|] p']]; apply total_ok.
Qed.

Lemma bounds_total (l : location T) : total (grid_bounds l).
Proof. unfold grid_bounds. cbv zeta. repeat (apply total_bind; [apply total_map|intros ?]). apply total_ok. Qed.

(** * The search, on every image *)

Lemma search_total I0 p : reg_inv I0 p -> total (capstones_from_image (T := T) p).
Proof.
  intros R. pose proof (bi_wf _ _ (ri_base _ _ R)) as W. pose proof W as (W1 & W2 & _). destruct (bi_size _ _ (ri_base _ _ R)) as [S1 S2].
  destruct (Z_le_dec 1 (im_w I0)) as [H|H].
  - destruct (search_ok (T := T) I0 p R H) as [(caps & p' & E & _)|[E _]]; [left; exists (caps, p'); exact E|right; exact E].
  - assert (p_w p = 0) by (unfold p_w; lia). destruct (Z_le_dec (p_h p) 0) as [Hh|Hh].
    + left. exists ([], p). apply search_no_rows. unfold p_h in *. lia.
    + right. apply search_no_columns; [exact W|assumption|lia].
Qed.

Theorem detect_total {Srt : Sorter T} I0 p : reg_inv I0 p -> total (detect_grids (T := T) p).
Proof.
  intros R. unfold detect_grids. apply total_then; [apply (search_total I0); exact R|]. intros [stones p1] E1.
  apply (search_kept I0) in E1; [|exact R]. apply total_bind; [apply (groupings_total I0); exact E1|intros groups].
  apply total_bind.
  - apply (total_loop (fun s => reg_inv I0 (fst s))); [| |exact E1].
    + intros g [p2 locs] _ R2. apply total_bind; [apply (from_group_total I0); exact R2|intros [[l|] p3]]; apply total_ok.
    + intros g [p2 locs] s' _ R2 E. cbn [fst] in R2. destruct (from_group p2 g) as [[o p3]| | |] eqn:Eg; cbn [bind] in E; try discriminate.
      apply (from_group_kept I0) in Eg; [|exact R2]. destruct o; injection E as <-; exact Eg.
  - intros [p2 locs]. apply total_bind; [|intros; apply total_ok]. apply total_for. intros l acc. apply total_bind; [apply bounds_total|intros; apply total_ok].
Qed.
End Numbers.

(** * Decoding a grid whose modules may panic *)

(** [m] is [m'] or panics. *)
Definition below {E A} (m m' : res E A) : Prop := m = m' \/ m = Panic.

Lemma below_refl {E A} (m : res E A) : below m m.
Proof. left. reflexivity. Qed.

Lemma below_bind {E A B} (m m' : res E A) (k k' : A -> res E B) : below m m' -> (forall a, m' = Ok a -> below (k a) (k' a)) -> below (bind m k) (bind m' k').
Proof. intros [-> | -> ] H; [|right; reflexivity]. destruct m' as [a|e| |]; cbn [bind]; [apply H; reflexivity|left; reflexivity..]. Qed.

Lemma below_for {E I S} (l : list I) (b b' : I -> S -> res E S) : (forall i s, In i l -> below (b i s) (b' i s)) -> forall s, below (for_each l b s) (for_each l b' s).
Proof.
  induction l as [|i l IH]; intros H s; [apply below_refl|]. cbn [for_each]. apply below_bind; [apply H; left; reflexivity|]. intros s' _. apply IH. intros; apply H; right; assumption.
Qed.

(** The grid that answers as [f] says where the other one panics, and white in particular. *)
Definition filled_by (f : Z -> Z -> bool) (g : BitGrid) : BitGrid := mkGrid (g_size g) (fun y x => match g_bit g y x with Ok b => Ok b | _ => Ok (f y x) end).
Definition filled (g : BitGrid) : BitGrid := filled_by (fun _ _ => false) g.

(** Every module is answered or panics. *)
Definition answers (g : BitGrid) : Prop := forall y x, (exists b, g_bit g y x = Ok b) \/ g_bit g y x = Panic.

Section Filled.
Context (f : Z -> Z -> bool) (g : BitGrid) (A : answers g).

Lemma bit_below y x : below (g_bit g y x) (g_bit (filled_by f g) y x).
Proof using A. cbn [g_bit filled_by]. destruct (A y x) as [[b ->]| ->]; [left|right]; reflexivity. Qed.

Lemma read_cell_below meta rm y x ds : below (read_cell g meta rm y x ds) (read_cell (filled_by f g) meta rm y x ds).
Proof using A.
  unfold read_cell. apply below_bind; [apply below_refl|]. intros r _. destruct (negb r); [|apply below_refl].
  apply below_bind; [|intros; apply below_refl]. unfold read_bit. apply below_bind; [apply bit_below|intros; apply below_refl].
Qed.

Lemma read_loop_below meta rm fuel : forall y x neg ds, below (read_data_loop fuel g meta rm y x neg ds) (read_data_loop fuel (filled_by f g) meta rm y x neg ds).
Proof using A.
  induction fuel as [|fuel IH]; intros y x neg ds; cbn [read_data_loop]; [apply below_refl|]. destruct (0 <? x); [|apply below_refl].
  apply below_bind; [apply read_cell_below|]. intros ds1 _. apply below_bind; [apply read_cell_below|]. intros ds2 _. cbn [g_size filled_by].
  destruct (_ && _); [apply IH|]. destruct (_ && _); [apply IH|]. destruct neg; apply IH.
Qed.

Lemma read_format_below : below (read_format g) (read_format (filled_by f g)).
Proof using A.
  unfold read_format. apply below_bind.
  - unfold read_format_first. apply below_bind; [|intros; apply below_refl]. apply below_for. intros i f0 _.
    repeat (apply below_bind; [apply below_refl|intros ? _]). apply below_bind; [apply bit_below|intros; apply below_refl].
  - intros f0 _. apply below_bind; [|intros; apply below_refl]. destruct (correct_format f0); try apply below_refl.
    apply below_bind; [|intros; apply below_refl]. unfold read_format_second. cbn [g_size filled_by]. apply below_bind.
    + apply below_for. intros i f1 _. repeat (apply below_bind; [apply below_refl|intros ? _]). apply below_bind; [apply bit_below|intros; apply below_refl].
    + intros f2 _. apply below_bind; [|intros; apply below_refl]. apply below_for. intros i f1 _. apply below_bind; [apply below_refl|intros ? _].
      apply below_bind; [apply bit_below|intros; apply below_refl].
Qed.

Lemma get_raw_below rm : below (get_raw g rm) (get_raw (filled_by f g) rm).
Proof using A.
  unfold get_raw. apply below_bind; [apply read_format_below|]. intros meta _. apply below_bind; [|intros; apply below_refl].
  unfold read_data. cbn [g_size filled_by]. repeat (apply below_bind; [apply below_refl|intros ? _]). apply read_loop_below.
Qed.

Lemma decode_inner_below : below (decode_inner g) (decode_inner (filled_by f g)).
Proof using A. unfold decode_inner. apply below_bind; [apply get_raw_below|intros; apply below_refl]. Qed.
End Filled.

Lemma answers_mirrored g : answers g -> answers (MirroredGrid g).
Proof. intros H y x. apply H. Qed.

Theorem decode_filled_by f g : answers g ->
  (forall W (wr : W -> list Z -> W * bool) w, grid_decode_to wr g w = grid_decode_to wr (filled_by f g) w \/ grid_decode_to wr g w = (w, Panic))
  /\ below (grid_decode g) (grid_decode (filled_by f g)) /\ below (grid_get_raw_data g) (grid_get_raw_data (filled_by f g)).
Proof.
  intros A. assert (D : forall W (wr : W -> list Z -> W * bool) w, grid_decode_to wr g w = grid_decode_to wr (filled_by f g) w \/ grid_decode_to wr g w = (w, Panic)).
  { intros W wr w. unfold grid_decode_to, decode.
    pose proof (decode_inner_below f g A) as B1. pose proof (decode_inner_below (fun y x => f x y) _ (answers_mirrored g A)) as B2.
    change (filled_by (fun y x => f x y) (MirroredGrid g)) with (MirroredGrid (filled_by f g)) in B2.
    destruct B1 as [-> | -> ]; [|right; reflexivity]. destruct (decode_inner (filled_by f g)) as [a|e| |]; try (left; reflexivity).
    destruct B2 as [-> | -> ]; [left|right]; reflexivity. }
  split; [exact D|]. split; [|apply get_raw_below; exact A]. unfold grid_decode. destruct (D _ vec_writer []) as [-> | -> ]; [left|right]; reflexivity.
Qed.

Theorem decode_filled g : answers g ->
  (forall W (wr : W -> list Z -> W * bool) w, grid_decode_to wr g w = grid_decode_to wr (filled g) w \/ grid_decode_to wr g w = (w, Panic))
  /\ below (grid_decode g) (grid_decode (filled g)) /\ below (grid_get_raw_data g) (grid_get_raw_data (filled g)).
Proof. exact (decode_filled_by (fun _ _ => false) g). Qed.

Lemma filled_total g : 0 <= g_size g -> total_grid (filled g).
Proof. intros H y x _ _. cbn [g_bit filled filled_by]. destruct (g_bit g y x); eexists; reflexivity. Qed.

Definition ends {E A} (m : res E A) : Prop := match m with Diverge => False | _ => True end.

Theorem decode_ends g : answers g -> 9 <= g_size g ->
  (forall W (wr : W -> list Z -> W * bool) w, ends (snd (grid_decode_to wr g w))) /\ ends (grid_decode g) /\ ends (grid_get_raw_data g).
Proof.
  intros A H9. destruct (decode_filled g A) as (D1 & D2 & D3). assert (F : total_grid (filled g)) by (apply filled_total; lia).
  assert (R : forall E X (m : res E X), returns m -> ends m) by (intros E X []; cbn; auto).
  split; [|split].
  - intros W wr w. destruct (D1 W wr w) as [-> | -> ]; [|exact I]. apply R. apply decode_to_returns; [exact F|exact H9].
  - destruct D2 as [-> | -> ]; [|exact I]. apply R. apply decode_returns; [exact F|exact H9].
  - destruct D3 as [-> | -> ]; [|exact I]. apply R. apply raw_returns; [exact F|exact H9].
Qed.

Lemma ref_grid_answers {T} {N : Num T} p (l : location T) : answers (ref_grid p l).
Proof.
  intros y x. cbn [g_bit ref_grid]. destruct (total_map (loc_c l) (n_add (n_of x) (n_ratio 1 2)) (n_add (n_of y) (n_ratio 1 2))) as [[q E]|E]; unfold out in *; rewrite E; cbn [lift bind]; [|right; reflexivity].
  destruct (total_pixel_point p q) as [[c Ec]|Ec]; unfold out in *; rewrite Ec; cbn [lift bind]; [left; eexists; reflexivity|right; reflexivity].
Qed.

(** * From a picture to messages *)

Definition answered {E A} (m : res E A) : Prop := (exists a, m = Ok a) \/ (exists e, m = Err e) \/ m = Panic.

Lemma ends_answered {E A} (m : res E A) : ends m -> answered m.
Proof. destruct m as [a|e| |]; cbn; intros H; [left; eauto|right; left; eauto|right; right; reflexivity|destruct H]. Qed.

Lemma located_ends {T} {N : Num T} (p : prepared) (l : location T) : 9 <= loc_size l ->
  (forall W (wr : W -> list Z -> W * bool) w, answered (snd (grid_decode_to wr (ref_grid p l) w))) /\ answered (grid_decode (ref_grid p l)) /\ answered (grid_get_raw_data (ref_grid p l)).
Proof.
  intros H. destruct (decode_ends (ref_grid p l) (ref_grid_answers p l) H) as (A & B & C).
  split; [|split]; intros; apply ends_answered; auto.
Qed.

Lemma greyscale_too_big w h fill : usize_max < w * h -> prepare_from_greyscale w h fill = Panic.
Proof. intros H. unfold prepare_from_greyscale, usz. replace (w * h <=? usize_max) with false by lia. reflexivity. Qed.

Theorem detect_ends {Srt : Sorter spec_float} I0 p : reached64 I0 p ->
  (exists grids p', detect_grids (T := spec_float) p = Ok (grids, p')) \/ detect_grids (T := spec_float) p = Panic.
Proof. intros R. destruct (detect_total (T := spec_float) I0 p (reached_inv I0 p R)) as [[[gs p'] E]|E]; [left; eauto|right; exact E]. Qed.

Theorem detected_ends {Srt : Sorter spec_float} p grids p' g q : detect_grids (T := spec_float) p = Ok (grids, p') -> In g grids ->
  (forall W (wr : W -> list Z -> W * bool) w, answered (snd (grid_decode_to wr (ref_grid q (lg_loc g)) w)))
  /\ answered (grid_decode (ref_grid q (lg_loc g)))
  /\ answered (grid_get_raw_data (ref_grid q (lg_loc g))).
Proof.
  intros E H. apply detect_sizes in E. rewrite Forall_forall in E. destruct (E g H) as (v & Hv & Es). apply located_ends. rewrite Es. unfold side_of_version. lia.
Qed.

Theorem bitmap_ends {Srt : Sorter spec_float} w h fill : 0 <= w -> 0 <= h ->
  let scan := let* p := prepare_from_bitmap w h fill in detect_grids (T := spec_float) p in
  (exists grids p', scan = Ok (grids, p')) \/ scan = Panic.
Proof.
  intros Hw Hh scan. unfold scan. destruct (Z_le_dec (w * h) usize_max) as [U|U].
  - destruct (bitmap_ok w h fill Hw Hh U) as (p & E & _ & _ & F & _). rewrite E. cbn [bind]. apply (detect_ends (p_buf p)). apply reached_fresh. exact F.
  - rewrite bitmap_too_big by lia. right. reflexivity.
Qed.

Theorem greyscale_ends {Srt : Sorter spec_float} w h fill : 0 <= w < 2 ^ 31 -> 0 <= h -> (forall x y, inside w h (x, y) -> 0 <= fill x y <= 255) ->
  let scan := let* p := prepare_from_greyscale w h fill in detect_grids (T := spec_float) p in
  (exists grids p', scan = Ok (grids, p')) \/ scan = Panic.
Proof.
  intros Hw Hh G scan. unfold scan. destruct (Z_le_dec (w * h) usize_max) as [U|U].
  - destruct (greyscale_ok w h fill Hw Hh U G) as (p & E & _ & _ & F & _). rewrite E. cbn [bind]. apply (detect_ends (p_buf p)). apply reached_fresh. exact F.
  - rewrite greyscale_too_big by lia. right. reflexivity.
Qed.

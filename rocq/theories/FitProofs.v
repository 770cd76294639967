(** The score of a transform is the sum of agreements less disagreements over the function patterns, and the adjustment
    of a transform never lowers it. *)
From Coq Require Import Permutation SpecFloat.
From Verif Require Import Base Lib VersionDb ModelDecode ModelImage ModelGeometry ModelDetect ModelIdentify SpecImage SpecIdentify
  FloodProofs RegionProofs HistoryProofs SpiralProofs SampleProofs LayoutProofs FitnessProofs SpecFit SpecPicture SpecQR.
From Coq Require Import ZifyBool.
Open Scope Z_scope.
Set Bullet Behavior "Strict Subproofs".

(** * Lists with the same entries *)

Section Perm.
Context {A : Type} (eqb : A -> A -> bool) (Eq : forall a b, eqb a b = true -> a = b).

Fixpoint take1 (a : A) (l : list A) : option (list A) :=
  match l with
  | [] => None
  | b :: t => if eqb a b then Some t else option_map (cons b) (take1 a t)
  end.

Fixpoint perm_b (l l' : list A) : bool :=
  match l with
  | [] => match l' with [] => true | _ => false end
  | a :: t => match take1 a l' with Some r => perm_b t r | None => false end
  end.

Lemma take1_perm a l r : take1 a l = Some r -> Permutation l (a :: r).
Proof using Eq.
  revert r. induction l as [|b t IH]; intros r; cbn; [discriminate|]. destruct (eqb a b) eqn:E.
  - intros [= <-]. rewrite (Eq _ _ E). apply Permutation_refl.
  - destruct (take1 a t) as [s|]; cbn; [|discriminate]. intros [= <-].
    eapply Permutation_trans; [apply perm_skip, IH; reflexivity|apply perm_swap].
Qed.

Lemma perm_b_sound l l' : perm_b l l' = true -> Permutation l l'.
Proof using Eq.
  revert l'. induction l as [|a t IH]; intros l'; cbn; [destruct l'; [constructor|discriminate]|].
  destruct (take1 a l') as [r|] eqn:E; [|discriminate]. intros H. apply Permutation_sym.
  eapply Permutation_trans; [apply take1_perm; exact E|]. apply perm_skip, Permutation_sym, IH, H.
Qed.
End Perm.

Definition pair_eqb (a b : Z * Z) : bool := (fst a =? fst b) && (snd a =? snd b).
Lemma pair_eqb_eq a b : pair_eqb a b = true -> a = b.
Proof. destruct a, b. unfold pair_eqb. cbn. intros H. f_equal; lia. Qed.

Definition tri_eqb (a b : Z * Z * bool) : bool := pair_eqb (fst a) (fst b) && Bool.eqb (snd a) (snd b).
Lemma tri_eqb_eq a b : tri_eqb a b = true -> a = b.
Proof.
  destruct a as [a e], b as [b f]. unfold tri_eqb. cbn. rewrite andb_true_iff. intros [H K].
  f_equal; [apply pair_eqb_eq; exact H|apply Bool.eqb_prop; exact K].
Qed.

Lemma flat_flat {A B C} (f : B -> list C) (g : A -> list B) l : flat_map f (flat_map g l) = flat_map (fun a => flat_map f (g a)) l.
Proof. induction l as [|a l IH]; [reflexivity|]. cbn. rewrite flat_map_app, IH. reflexivity. Qed.

Lemma map_flat {A B C} (f : B -> C) (g : A -> list B) l : map f (flat_map g l) = flat_map (fun a => map f (g a)) l.
Proof. induction l as [|a l IH]; [reflexivity|]. cbn. rewrite map_app, IH. reflexivity. Qed.

(** * The planned modules are the expected ones *)

Definition conv (e : planned) : Z * Z * bool := let '(x, y, s) := e in (y, x, s =? 1).

Definition moved (y0 x0 : Z) (e : Z * Z * bool) : Z * Z * bool := let '(a, b, d) := e in (y0 + a, x0 + b, d).

Lemma ring_moved x0 y0 cx cy r s : map conv (ring_plan (x0 + cx) (y0 + cy) r s) = map (moved y0 x0) (map conv (ring_plan cx cy r s)).
Proof.
  unfold ring_plan. rewrite !map_flat. rewrite !flat_map_concat_map. f_equal. apply map_ext. intros i. cbn [map conv moved].
  repeat (apply f_equal2; [f_equal; f_equal; ring|]). reflexivity.
Qed.

Lemma cap_perm x0 y0 : Permutation (map conv (cap_plan x0 y0))
  (map (fun d => (y0 + 3 + fst d, x0 + 3 + snd d, finder_dark (fst d) (snd d))) (square_about 3)).
Proof.
  set (mv := moved y0 x0).
  assert (A : map conv (cap_plan x0 y0) = map mv (map conv (cap_plan 0 0))).
  { unfold cap_plan. cbn [map]. rewrite !map_app. rewrite !ring_moved. reflexivity. }
  assert (B : map (fun d => (y0 + 3 + fst d, x0 + 3 + snd d, finder_dark (fst d) (snd d))) (square_about 3)
            = map mv (map (fun d => (3 + fst d, 3 + snd d, finder_dark (fst d) (snd d))) (square_about 3))).
  { rewrite map_map. apply map_ext. intros [a b]. cbn [mv moved fst snd]. f_equal. f_equal; ring. }
  rewrite A, B. apply Permutation_map. apply (perm_b_sound tri_eqb tri_eqb_eq). vm_compute. reflexivity.
Qed.

Lemma apat_perm cx cy : Permutation (map conv (apat_plan cx cy))
  (map (fun d => (cy + fst d, cx + snd d, align_dark (fst d) (snd d))) (square_about 2)).
Proof.
  set (mv := moved cy cx).
  assert (A : map conv (apat_plan cx cy) = map mv (map conv (apat_plan 0 0))).
  { unfold apat_plan. cbn [map]. rewrite !map_app. pose proof (ring_moved cx cy 0 0) as R. rewrite !Z.add_0_r in R. rewrite !R.
    f_equal. cbn [mv moved conv]. rewrite !Z.add_0_r. reflexivity. }
  assert (B : map (fun d => (cy + fst d, cx + snd d, align_dark (fst d) (snd d))) (square_about 2)
            = map mv (map (fun d => (fst d, snd d, align_dark (fst d) (snd d))) (square_about 2))).
  { rewrite map_map. apply map_ext. intros [a b]. reflexivity. }
  rewrite A, B. apply Permutation_map. apply (perm_b_sound tri_eqb tri_eqb_eq). vm_compute. reflexivity.
Qed.

(** The centres in the order of the program: (row, column). *)
Definition visited (ps : list Z) : list (Z * Z) :=
  flat_map (fun i => [(nth i ps 0, 6); (6, nth i ps 0)]) (range 1 (length ps - 1))
  ++ flat_map (fun i => map (fun j => (nth j ps 0, nth i ps 0)) (range 1 (length ps))) (range 1 (length ps)).

Lemma visited_perm v : 1 <= v <= 40 -> Permutation (visited (alignment_positions v)) (align_centres v).
Proof.
  intros Hv. assert (S : forallb (fun v => perm_b pair_eqb (visited (alignment_positions v)) (align_centres v)) (zrange 1 41) = true) by (vm_compute; reflexivity).
  rewrite forallb_forall in S. apply (perm_b_sound pair_eqb pair_eqb_eq). apply S. apply in_zrange. lia.
Qed.

Lemma perm_flat {A B} (f g : A -> list B) l : (forall a, Permutation (f a) (g a)) -> Permutation (flat_map f l) (flat_map g l).
Proof. intros H. induction l as [|a l IH]; [constructor|]. cbn. apply Permutation_app; [apply H|exact IH]. Qed.

Lemma zrange_shift a lo hi : zrange (lo + a) (hi + a) = map (fun i => i + a) (zrange lo hi).
Proof.
  unfold zrange. rewrite map_map. replace (hi + a - (lo + a)) with (hi - lo) by ring. apply map_ext. intros i. ring.
Qed.

Theorem plan_perm v : 1 <= v <= 40 -> Permutation (map conv (plan (symbol_size v) (alignment_positions v))) (expected_modules v).
Proof.
  intros Hv. unfold plan, expected_modules. set (n := symbol_size v). set (ps := alignment_positions v). rewrite !map_app.
  apply Permutation_app.
  - rewrite map_flat. replace (zrange 7 (n - 7)) with (map (fun i => i + 7) (zrange 0 (n - 14))).
    2: { rewrite <- zrange_shift. f_equal; ring. }
    rewrite flat_map_concat_map, (flat_map_concat_map _ (map _ _)), map_map. apply Permutation_refl'. f_equal. apply map_ext.
    intros i. cbn [map conv].
    assert (Od : Z.even (i + 7) = Z.odd i) by (rewrite Z.even_add; cbn; rewrite <- Z.negb_odd; destruct (Z.odd i); reflexivity).
    rewrite Od. destruct (Z.odd i); reflexivity.
  - rewrite !app_assoc. rewrite <- (app_assoc (_ ++ _)). apply Permutation_app.
    + unfold finder_centres. cbn [flat_map fst snd]. fold n. rewrite app_nil_r, app_assoc.
      pose proof (cap_perm 0 0) as A. pose proof (cap_perm (n - 7) 0) as B. pose proof (cap_perm 0 (n - 7)) as C.
      replace (n - 7 + 3) with (n - 4) in * by ring. rewrite !Z.add_0_l in *.
      apply Permutation_app; [apply Permutation_app|]; assumption.
    + rewrite !map_flat.
      eapply Permutation_trans; [|apply Permutation_flat_map, visited_perm; exact Hv]. fold ps. unfold visited. rewrite flat_map_app, !flat_flat.
      apply Permutation_app; apply perm_flat; intros i.
      * cbn [flat_map fst snd]. rewrite map_app, app_nil_r. apply Permutation_app; apply apat_perm.
      * rewrite map_flat, !flat_map_concat_map, map_map, <- !flat_map_concat_map. apply perm_flat. intros j. apply apat_perm.
Qed.

(** The sum over the plan. *)
Definition tot (g : Z -> Z -> Z) (l : list (Z * Z * bool)) : Z :=
  fold_right (fun e acc => let '(y, x, d) := e in (if d : bool then g x y else - g x y) + acc) 0 l.

Lemma tot_perm g l l' : Permutation l l' -> tot g l = tot g l'.
Proof.
  induction 1 as [|[[y x] d] l l' _ IH|[[y x] d] [[y' x'] d'] l|l l' l'' _ IH1 _ IH2]; cbn [tot fold_right]; fold (tot g); try lia.
  - unfold tot in *. rewrite IH. reflexivity.
Qed.

Lemma total_conv g l : signed l -> total g l = tot g (map conv l).
Proof.
  induction 1 as [|[[x y] s] l Hs _ IH]; [reflexivity|]. cbn [map conv total tot fold_right]. fold (total g l) (tot g (map conv l)).
  rewrite IH. cbn [snd] in Hs. destruct Hs as [-> | -> ]; cbn [Z.eqb]; destruct (g x y); cbn; lia.
Qed.

(** * Inversion of the loops *)

Lemma for_sum_inv {E I} (l : list I) (body : I -> Z -> res E Z) (f : I -> list planned) g (K : planned -> Prop) :
  (forall i s s', In i l -> body i s = Ok s' -> s' = s + total g (f i) /\ Forall K (f i)) ->
  forall s s', for_each l body s = Ok s' -> s' = s + total g (flat_map f l) /\ Forall K (flat_map f l).
Proof.
  induction l as [|i l IH]; intros H s s' E1; cbn [for_each flat_map] in *.
  - injection E1 as <-. cbn. split; [lia|constructor].
  - apply bind_ok_inv in E1 as (t & E1 & E2). apply H in E1 as [-> F1]; [|left; reflexivity].
    apply IH in E2 as [-> F2]; [|intros; apply H; [right; assumption|assumption]]. rewrite total_app. split; [lia|].
    apply Forall_app. split; assumption.
Qed.

Lemma for_val_inv {E I} (l : list I) (body : I -> Z -> res E Z) (f : I -> Z) (K : I -> Prop) :
  (forall i s s', In i l -> body i s = Ok s' -> s' = s + f i /\ K i) ->
  forall s s', for_each l body s = Ok s' -> s' = s + fold_right (fun i acc => f i + acc) 0 l /\ (forall i, In i l -> K i).
Proof.
  induction l as [|i l IH]; intros H s s' E1; cbn [for_each fold_right] in *.
  - injection E1 as <-. split; [lia|intros ? []].
  - apply bind_ok_inv in E1 as (t & E1 & E2). apply H in E1 as [-> F1]; [|left; reflexivity].
    apply IH in E2 as [-> F2]; [|intros; apply H; [right; assumption|assumption]]. split; [lia|].
    intros j [<- |Hj]; [exact F1|apply F2; exact Hj].
Qed.

Lemma for_val {E I} (l : list I) (body : I -> Z -> res E Z) (f : I -> Z) :
  (forall i s, In i l -> body i s = Ok (s + f i)) -> forall s, for_each l body s = Ok (s + fold_right (fun i acc => f i + acc) 0 l).
Proof.
  induction l as [|i l IH]; intros H s; cbn [for_each fold_right].
  - f_equal. lia.
  - rewrite H by (left; reflexivity). cbn [bind]. rewrite IH by (intros; apply H; right; assumption). f_equal. lia.
Qed.

Lemma nth_nonzero l : forall i, (i < length (take_nonzero l))%nat -> aget (E := Empty_set) l i = Ok (nth i (take_nonzero l) 0).
Proof.
  induction l as [|a l IH]; cbn [take_nonzero]; intros i Hi; [cbn in Hi; lia|].
  destruct (a =? 0) eqn:E; [cbn in Hi; lia|]. destruct i; [reflexivity|]. cbn in *. apply IH. lia.
Qed.

Section Score.
Context {T : Type} {N : Num T} (p : prepared) (c : perspective T).

Definition cell_of (x y : Z) : Z := match fitness_cell p c x y with Ok s => s | _ => 0 end.
Definition cell_ok (e : planned) : Prop := let '(x, y, _) := e in exists s, fitness_cell p c x y = Ok s.

Lemma cell_known x y a s : fitness_cell p c x y = Ok a -> a = cell_of x y /\ cell_ok (x, y, s).
Proof. intros E. unfold cell_of, cell_ok. rewrite E. split; [reflexivity|eexists; reflexivity]. Qed.

Lemma ring_inv cx cy r s : fitness_ring p c cx cy r = Ok s -> s = total cell_of (ring_plan cx cy r 1) /\ Forall cell_ok (ring_plan cx cy r 1).
Proof.
  unfold fitness_ring, ring_plan. intros H. eapply for_sum_inv in H; [rewrite Z.add_0_l in H; exact H|]. clear s H. intros i s s' _ H.
  apply bind_ok_inv in H as (a & Ha & H). apply bind_ok_inv in H as (b & Hb & H). apply bind_ok_inv in H as (d & Hd & H). apply bind_ok_inv in H as (e & He & H).
  injection H as <-. apply cell_known with (s := 1) in Ha as [-> Ka], Hb as [-> Kb], Hd as [-> Kd], He as [-> Ke].
  split; [cbn [total fold_right]; lia|]. repeat (constructor; [assumption|]). constructor.
Qed.

Lemma ring_ok_sign cx cy r s s' : Forall cell_ok (ring_plan cx cy r s) -> Forall cell_ok (ring_plan cx cy r s').
Proof.
  unfold ring_plan. induction (zrange 0 (r * 2)) as [|i l IH]; [constructor|]. cbn [flat_map]. rewrite !Forall_app. intros [A B].
  split; [|apply IH; exact B]. inversion A as [|? ? A0 A1]; subst. inversion A1 as [|? ? A2 A3]; subst. inversion A3 as [|? ? A4 A5]; subst.
  inversion A5 as [|? ? A6 A7]; subst. repeat (constructor; [assumption|]). constructor.
Qed.

Lemma apat_inv cx cy s : fitness_apat p c cx cy = Ok s -> s = total cell_of (apat_plan cx cy) /\ Forall cell_ok (apat_plan cx cy).
Proof.
  unfold fitness_apat, apat_plan. intros H.
  apply bind_ok_inv in H as (a & Ha & H). apply bind_ok_inv in H as (b & Hb & H). apply bind_ok_inv in H as (d & Hd & H). injection H as <-.
  apply cell_known with (s := 1) in Ha as [-> Ka]. apply ring_inv in Hb as [-> Kb], Hd as [-> Kd].
  change ((cx, cy, 1) :: ring_plan cx cy 1 (-1) ++ ring_plan cx cy 2 1) with ([(cx, cy, 1)] ++ ring_plan cx cy 1 (- (1)) ++ ring_plan cx cy 2 1).
  split; [rewrite !total_app, total_neg; cbn [total fold_right]; fold (total cell_of); lia|].
  rewrite !Forall_app. split; [constructor; [assumption|constructor]|]. split; [eapply ring_ok_sign; exact Kb|exact Kd].
Qed.

Lemma cap_inv x y s : fitness_capstone p c x y = Ok s -> s = total cell_of (cap_plan x y) /\ Forall cell_ok (cap_plan x y).
Proof.
  unfold fitness_capstone, cap_plan. intros H.
  apply bind_ok_inv in H as (a & Ha & H). apply bind_ok_inv in H as (b & Hb & H). apply bind_ok_inv in H as (d & Hd & H). apply bind_ok_inv in H as (e & He & H).
  injection H as <-. apply cell_known with (s := 1) in Ha as [-> Ka]. apply ring_inv in Hb as [-> Kb], Hd as [-> Kd], He as [-> Ke].
  change ((x + 3, y + 3, 1) :: ?l) with ([(x + 3, y + 3, 1)] ++ l).
  change (ring_plan (x + 3) (y + 3) 2 (-1)) with (ring_plan (x + 3) (y + 3) 2 (- (1))).
  split; [rewrite !total_app, total_neg; cbn [total fold_right]; lia|].
  rewrite !Forall_app. split; [constructor; [assumption|constructor]|]. split; [exact Kb|]. split; [eapply ring_ok_sign; exact Kd|exact Ke].
Qed.

Theorem fitness_inv v ver s : 0 <= v <= 40 -> nth_error VERSION_DATA_BASE (Z.to_nat v) = Some ver ->
  let l := plan (symbol_size v) (take_nonzero (vi_apat ver)) in
  fitness_all p c (symbol_size v) = Ok s -> s = total cell_of l /\ Forall cell_ok l.
Proof.
  intros Hv Ev l. unfold fitness_all. assert (Hn : symbol_size v = 17 + 4 * v) by reflexivity.
  assert (V : version_from_grid_size (symbol_size v) = Ok v).
  { rewrite Hn. unfold version_from_grid_size, usub. destruct (Z.leb_spec 17 (17 + 4 * v)); [|lia]. cbn [bind]. f_equal.
    replace (17 + 4 * v - 17) with (v * 4) by lia. apply Z.div_mul. lia. }
  rewrite V. cbn [bind]. unfold aget at 1. rewrite Ev. cbn [bind]. set (n := symbol_size v) in *. rewrite apat_count_length.
  set (ps := take_nonzero (vi_apat ver)) in *. intros H.
  apply bind_ok_inv in H as (s0 & H0 & H). apply bind_ok_inv in H as (a & Ha & H). apply bind_ok_inv in H as (b & Hb & H). apply bind_ok_inv in H as (d & Hd & H).
  apply bind_ok_inv in H as (s1 & H1 & H).
  apply (for_sum_inv _ _ (fun i => let e := if Z.odd i then 1 else -1 in [(i + 7, 6, e); (6, i + 7, e)]) cell_of cell_ok) in H0 as [-> K0].
  2: { intros i s2 s' _ E. apply bind_ok_inv in E as (a' & Ea & E). apply bind_ok_inv in E as (b' & Eb & E). injection E as <-. cbn zeta.
    apply cell_known with (s := if Z.odd i then 1 else -1) in Ea as [-> Ka], Eb as [-> Kb].
    split; [cbn [total fold_right]; destruct (Z.odd i); lia|]. repeat (constructor; [assumption|]). constructor. }
  apply cap_inv in Ha as [-> Ka], Hb as [-> Kb], Hd as [-> Kd].
  apply (for_sum_inv _ _ (fun i => apat_plan 6 (nth i ps 0) ++ apat_plan (nth i ps 0) 6) cell_of cell_ok) in H1 as [-> K1].
  2: { intros i s2 s' Hi E. apply in_range_iff in Hi. rewrite nth_nonzero in E by (fold ps; lia). fold ps in E. cbn [bind] in E.
    apply bind_ok_inv in E as (a' & Ea & E). apply bind_ok_inv in E as (b' & Eb & E). injection E as <-.
    apply apat_inv in Ea as [-> Ka'], Eb as [-> Kb']. rewrite total_app, Forall_app. split; [lia|split; assumption]. }
  apply (for_sum_inv _ _ (fun i => flat_map (fun j => apat_plan (nth i ps 0) (nth j ps 0)) (range 1 (length ps))) cell_of cell_ok) in H as [-> K2].
  2: { intros i s2 s' Hi E. apply in_range_iff in Hi.
    apply (for_sum_inv _ _ (fun j => apat_plan (nth i ps 0) (nth j ps 0)) cell_of cell_ok) in E; [exact E|].
    intros j s3 s'' Hj E'. apply in_range_iff in Hj. rewrite !nth_nonzero in E' by (fold ps; lia). fold ps in E'. cbn [bind] in E'.
    apply bind_ok_inv in E' as (a' & Ea & E'). injection E' as <-. apply apat_inv in Ea as [-> Ka']. split; [reflexivity|exact Ka']. }
  subst l. unfold plan. fold ps. rewrite !total_app, !Forall_app. split; [rewrite Z.add_0_l, <- !Z.add_assoc; reflexivity|]. repeat split; assumption.
Qed.
End Score.

(** * The loops, if the planned modules can be scored *)

Section Forward.
Context {T : Type} {N : Num T} (p : prepared) (c : perspective T) (g : Z -> Z -> Z).

Definition known (l : list planned) : Prop := forall x y s, In (x, y, s) l -> fitness_cell p c x y = Ok (g x y).

Lemma known_app l l' : known (l ++ l') -> known l /\ known l'.
Proof. intros K. split; intros x y s Hi; apply (K x y s); apply in_or_app; [left|right]; exact Hi. Qed.

Lemma known_flat {I} (f : I -> list planned) l i : known (flat_map f l) -> In i l -> known (f i).
Proof. intros K Hi x y s Hx. apply (K x y s). apply in_flat_map. exists i. split; assumption. Qed.

Lemma ring_forward cx cy r s : known (ring_plan cx cy r s) -> fitness_ring p c cx cy r = Ok (total g (ring_plan cx cy r 1)).
Proof.
  intros K. unfold fitness_ring, ring_plan.
  rewrite (for_sum _ _ (fun i => [(cx - r + i, cy - r, 1); (cx - r, cy + r - i, 1); (cx + r, cy - r + i, 1); (cx + r - i, cy + r, 1)]) g); [reflexivity|].
  intros i t Hi. pose proof (known_flat _ _ i K Hi) as Ki. unfold known in Ki. cbn [In] in Ki.
  rewrite !(Ki _ _ s) by tauto. cbn [bind total fold_right]. f_equal. lia.
Qed.

Lemma apat_forward cx cy : known (apat_plan cx cy) -> fitness_apat p c cx cy = Ok (total g (apat_plan cx cy)).
Proof.
  unfold apat_plan. change ((cx, cy, 1) :: ?l) with ([(cx, cy, 1)] ++ l). intros K.
  apply known_app in K as [K0 K]. apply known_app in K as [K1 K2]. unfold fitness_apat.
  rewrite (K0 cx cy 1) by (left; reflexivity). rewrite (ring_forward _ _ _ _ K1), (ring_forward _ _ _ _ K2). cbn [bind].
  change (ring_plan cx cy 1 (-1)) with (ring_plan cx cy 1 (- (1))).
  rewrite !total_app, total_neg. cbn [total fold_right]. f_equal. fold (total g). lia.
Qed.

Lemma cap_forward x y : known (cap_plan x y) -> fitness_capstone p c x y = Ok (total g (cap_plan x y)).
Proof.
  unfold cap_plan. change ((x + 3, y + 3, 1) :: ?l) with ([(x + 3, y + 3, 1)] ++ l). intros K.
  apply known_app in K as [K0 K]. apply known_app in K as [K1 K]. apply known_app in K as [K2 K3]. unfold fitness_capstone.
  rewrite (K0 (x + 3) (y + 3) 1) by (left; reflexivity). rewrite (ring_forward _ _ _ _ K1), (ring_forward _ _ _ _ K2), (ring_forward _ _ _ _ K3). cbn [bind].
  change (ring_plan (x + 3) (y + 3) 2 (-1)) with (ring_plan (x + 3) (y + 3) 2 (- (1))).
  rewrite !total_app, total_neg. cbn [total fold_right]. f_equal. lia.
Qed.

Theorem fitness_plan v ver : 0 <= v <= 40 -> nth_error VERSION_DATA_BASE (Z.to_nat v) = Some ver ->
  known (plan (symbol_size v) (take_nonzero (vi_apat ver))) ->
  fitness_all p c (symbol_size v) = Ok (total g (plan (symbol_size v) (take_nonzero (vi_apat ver)))).
Proof.
  intros Hv Ev K. unfold fitness_all. assert (Hn : symbol_size v = 17 + 4 * v) by reflexivity.
  assert (V : version_from_grid_size (symbol_size v) = Ok v).
  { rewrite Hn. unfold version_from_grid_size, usub. destruct (Z.leb_spec 17 (17 + 4 * v)); [|lia]. cbn [bind]. f_equal.
    replace (17 + 4 * v - 17) with (v * 4) by lia. apply Z.div_mul. lia. }
  rewrite V. cbn [bind]. unfold aget at 1. rewrite Ev. cbn [bind]. set (n := symbol_size v) in *. rewrite apat_count_length.
  set (ps := take_nonzero (vi_apat ver)) in *. unfold plan in K.
  apply known_app in K as [K0 K]. apply known_app in K as [K1 K]. apply known_app in K as [K2 K]. apply known_app in K as [K3 K]. apply known_app in K as [K4 K5].
  rewrite (for_sum _ _ (fun i => let e := if Z.odd i then 1 else -1 in [(i + 7, 6, e); (6, i + 7, e)]) g).
  2: { intros i s Hi. pose proof (known_flat _ _ i K0 Hi) as Ki. cbn zeta in Ki. unfold known in Ki. cbn [In] in Ki.
    rewrite !(Ki _ _ (if Z.odd i then 1 else -1)) by tauto. cbn [bind total fold_right]. f_equal. destruct (Z.odd i); lia. }
  cbn [bind]. rewrite (cap_forward _ _ K1), (cap_forward _ _ K2), (cap_forward _ _ K3). cbn [bind].
  rewrite (for_sum _ _ (fun i => apat_plan 6 (nth i ps 0) ++ apat_plan (nth i ps 0) 6) g).
  2: { intros i s Hi. pose proof (known_flat _ _ i K4 Hi) as Ki. apply known_app in Ki as [Ka Kb]. apply in_range_iff in Hi.
    rewrite nth_nonzero by (fold ps; lia). fold ps. cbn [bind]. rewrite (apat_forward _ _ Ka), (apat_forward _ _ Kb). cbn [bind]. rewrite total_app. f_equal. lia. }
  cbn [bind].
  rewrite (for_sum _ _ (fun i => flat_map (fun j => apat_plan (nth i ps 0) (nth j ps 0)) (range 1 (length ps))) g).
  2: { intros i s Hi. pose proof (known_flat _ _ i K5 Hi) as Ki. apply in_range_iff in Hi.
    rewrite (for_sum _ _ (fun j => apat_plan (nth i ps 0) (nth j ps 0)) g); [reflexivity|].
    intros j s' Hj. pose proof (known_flat _ _ j Ki Hj) as Kj. apply in_range_iff in Hj. rewrite !nth_nonzero by (fold ps; lia). fold ps. cbn [bind].
    rewrite (apat_forward _ _ Kj). reflexivity. }
  unfold plan. rewrite !total_app. rewrite Z.add_0_l, <- !Z.add_assoc. reflexivity.
Qed.
End Forward.

(** * The score of a cell *)

Section Cells.
Context {T : Type} {N : Num T} (I0 : image) (p : prepared) (RI : reg_inv I0 p) (W : 1 <= im_w I0 <= 2 ^ 31) (H : 1 <= im_h I0 <= 2 ^ 31).

Lemma round_range t z : to_i32 (T := T) t = Ok z -> i32_min <= z <= i32_max.
Proof using. unfold to_i32. destruct (n_round t) as [k|]; [|discriminate]. destruct ((k <=? i32_max) && (i32_min <=? k)) eqn:E; [|discriminate]. intros [= <-]. lia. Qed.

Lemma map_range c u v q : persp_map (T := T) c u v = Ok q -> i32_min <= px q <= i32_max /\ i32_min <= py q <= i32_max.
Proof using.
  clear RI W H.
  unfold persp_map. destruct (persp_apply c u v) as [x y]. intros E. apply bind_ok_inv in E as (a & Ea & E). apply bind_ok_inv in E as (b & Eb & E).
  injection E as <-. cbn [px py]. split; eapply round_range; eassumption.
Qed.

(** One sample. *)
Lemma sample_step c y x o q s : sample_at c y x o = Ok q ->
  (if negb ((py q <? 0) || (p_h p <=? as_usize (py q)) || (px q <? 0) || (p_w p <=? as_usize (px q)))
   then let* col := get_pixel_at_point p q in Ok (if is_white col then s - 1 else s + 1) else Ok s) = Ok (s + sample_value I0 c y x o).
Proof using RI W H.
  intros E. unfold sample_value. rewrite E. apply map_range in E as [Bx By]. change i32_min with (-2147483648) in *. change i32_max with 2147483647 in *.
  assert (Sz : p_w p = im_w I0 /\ p_h p = im_h I0) by apply (bi_size _ _ (ri_base _ _ RI)). destruct Sz as [-> ->].
  destruct (sample_ok I0 p (px q, py q) RI W H) as (col & Ec & Wc).
  replace (pt (px q, py q)) with q in Ec by (destruct q; reflexivity). unfold out in *. rewrite Ec. cbn [bind].
  assert (As : forall z, 0 <= z < 2 ^ 31 -> as_usize z = z) by (intros z Hz; unfold as_usize; apply Z.mod_small; lia).
  destruct (Z.ltb_spec (py q) 0) as [L|L]; cbn [orb negb].
  { replace (0 <=? py q) with false by (symmetry; apply Z.leb_gt; lia). rewrite !andb_false_r. cbn [andb]. f_equal. lia. }
  destruct (Z.ltb_spec (px q) 0) as [L'|L'].
  { rewrite orb_true_r. cbn [orb negb]. replace (0 <=? px q) with false by (symmetry; apply Z.leb_gt; lia). cbn [andb]. f_equal. lia. }
  rewrite !As by lia. replace (0 <=? px q) with true by (symmetry; apply Z.leb_le; lia). replace (0 <=? py q) with true by (symmetry; apply Z.leb_le; lia).
  rewrite !Z.leb_antisym, !orb_false_r, andb_true_r. cbn [andb].
  rewrite <- negb_andb, negb_involutive. rewrite (andb_comm (px q <? _)).
  destruct ((py q <? im_h I0) && (px q <? im_w I0)) eqn:I; [|f_equal; lia].
  replace (nearest_pixel (im_w I0) (im_h I0) (px q, py q)) with (px q, py q) in Wc.
  2:{ unfold nearest_pixel. cbn [fst snd]. f_equal; lia. }
  f_equal. destruct (is_white col), (Z.eqb_spec (pix I0 (px q, py q)) 0); lia.
Qed.

(** A module. *)
Lemma cell_inv c x y s : fitness_cell p c x y = Ok s -> s = tally I0 c y x /\ (forall o, In o samples -> exists q, sample_at c y x o = Ok q).
Proof using RI W H.
  intros E. unfold fitness_cell in E.
  apply (for_val_inv _ _ (fun v => sample_value I0 c y x (v, 3) + (sample_value I0 c y x (v, 5) + sample_value I0 c y x (v, 7)))
           (fun v => forall u, In u [3; 5; 7] -> exists q, sample_at c y x (v, u) = Ok q)) in E as [-> K].
  - split.
    + unfold tally, samples. cbn [list_prod map app fold_right]. lia.
    + intros [v u] Ho. unfold samples in Ho. apply in_prod_iff in Ho as [Hv Hu]. apply K; assumption.
  - clear s E. intros v s s' Hv E.
    apply (for_val_inv _ _ (fun u => sample_value I0 c y x (v, u)) (fun u => exists q, sample_at c y x (v, u) = Ok q)) in E as [-> K].
    + split; [cbn [fold_right]; lia|exact K].
    + clear s s' E. intros u s s' Hu E. apply bind_ok_inv in E as (q & Eq & E).
      rewrite (sample_step c y x (v, u) q s Eq) in E. injection E as <-. split; [reflexivity|]. exists q. exact Eq.
Qed.

Lemma cell_total c x y : (forall o, In o samples -> exists q, sample_at c y x o = Ok q) -> fitness_cell p c x y = Ok (tally I0 c y x).
Proof using RI W H.
  intros K. unfold fitness_cell.
  rewrite (for_val _ _ (fun v => sample_value I0 c y x (v, 3) + (sample_value I0 c y x (v, 5) + sample_value I0 c y x (v, 7)))).
  - f_equal. unfold tally, samples. cbn [list_prod map app fold_right]. lia.
  - intros v s Hv. rewrite (for_val _ _ (fun u => sample_value I0 c y x (v, u))).
    + f_equal. cbn [fold_right]. lia.
    + intros u s' Hu. destruct (K (v, u)) as (q & Eq); [apply in_prod_iff; split; assumption|].
      pose proof (sample_step c y x (v, u) q s' Eq) as St. unfold sample_at in Eq. cbn [fst snd] in Eq. unfold out in *. rewrite Eq. cbn [bind]. exact St.
Qed.

Lemma sample_value_bound c y x o : -1 <= sample_value I0 c y x o <= 1.
Proof using. unfold sample_value. destruct (sample_at c y x o); try lia. destruct (_ && _); [|lia]. destruct (_ =? 0); lia. Qed.

Lemma tally_bound c y x : -9 <= tally I0 c y x <= 9.
Proof using.
  clear RI W H.
  unfold tally, samples. cbn [list_prod map app fold_right].
  pose proof (sample_value_bound c y x (3, 3)). pose proof (sample_value_bound c y x (3, 5)). pose proof (sample_value_bound c y x (3, 7)).
  pose proof (sample_value_bound c y x (5, 3)). pose proof (sample_value_bound c y x (5, 5)). pose proof (sample_value_bound c y x (5, 7)).
  pose proof (sample_value_bound c y x (7, 3)). pose proof (sample_value_bound c y x (7, 5)). pose proof (sample_value_bound c y x (7, 7)). lia.
Qed.

Definition sign (d : bool) : Z := if d then 1 else -1.

Lemma value_fits c y x o d : sample_value I0 c y x o = sign d <->
  exists q, sample_at c y x o = Ok (MkPoint (fst q) (snd q)) /\ in_image I0 q /\ (pix I0 q <> 0 <-> d = true).
Proof using.
  clear RI W H.
  unfold sample_value, sign. split.
  - destruct (sample_at c y x o) as [q| | |]; try (destruct d; discriminate).
    destruct ((0 <=? px q) && (px q <? im_w I0) && (0 <=? py q) && (py q <? im_h I0)) eqn:I; [|destruct d; discriminate].
    intros E. exists (px q, py q). split; [destruct q; reflexivity|]. split; [unfold in_image, inside; cbn [fst snd]; lia|].
    destruct (Z.eqb_spec (pix I0 (px q, py q)) 0) as [P|P], d; try discriminate; split; intros; congruence.
  - intros ([a b] & -> & In & D). unfold in_image, inside in In. cbn [fst snd px py] in *.
    replace ((0 <=? a) && (a <? im_w I0) && (0 <=? b) && (b <? im_h I0)) with true by (symmetry; lia).
    destruct (Z.eqb_spec (pix I0 (a, b)) 0) as [P|P], d; try reflexivity; exfalso; [apply (proj2 D eq_refl P)|discriminate (proj1 D P)].
Qed.

Lemma tally_fits c y x d : tally I0 c y x = 9 * sign d <-> module_fits I0 c y x d.
Proof using.
  clear RI W H.
  assert (Q : tally I0 c y x = 9 * sign d <-> forall o, In o samples -> sample_value I0 c y x o = sign d).
  { split.
    - unfold tally, samples. cbn [list_prod map app fold_right].
      pose proof (sample_value_bound c y x (3, 3)). pose proof (sample_value_bound c y x (3, 5)). pose proof (sample_value_bound c y x (3, 7)).
      pose proof (sample_value_bound c y x (5, 3)). pose proof (sample_value_bound c y x (5, 5)). pose proof (sample_value_bound c y x (5, 7)).
      pose proof (sample_value_bound c y x (7, 3)). pose proof (sample_value_bound c y x (7, 5)). pose proof (sample_value_bound c y x (7, 7)).
      intros E o Ho. cbn [In] in Ho. unfold sign in *. destruct d; repeat (destruct Ho as [<- |Ho]; [lia|]); contradiction.
    - intros A. unfold tally. unfold samples in *. cbn [list_prod map app fold_right In] in *. rewrite !A by tauto. lia. }
  rewrite Q. unfold module_fits. split; intros A o Ho; apply value_fits, A, Ho.
Qed.

(** * The score of a transform *)

Lemma tot_bound g l : (forall y x d, In (y, x, d) l -> -9 <= g x y <= 9) -> - (9 * Z.of_nat (length l)) <= tot g l <= 9 * Z.of_nat (length l).
Proof using.
  clear RI W H.
  induction l as [|[[y x] d] l IH]; intros B; cbn [tot fold_right length]; [lia|]. fold (tot g l).
  specialize (IH (fun y' x' d' Hi => B y' x' d' (or_intror Hi))). specialize (B y x d (or_introl eq_refl)). destruct d; lia.
Qed.

Lemma tot_best g l : (forall y x d, In (y, x, d) l -> -9 <= g x y <= 9) ->
  (tot g l = 9 * Z.of_nat (length l) <-> forall y x d, In (y, x, d) l -> g x y = 9 * sign d).
Proof using.
  clear RI W H.
  induction l as [|[[y x] d] l IH]; intros B; cbn [tot fold_right length]; [split; [intros _ ? ? ? []|lia]|]. fold (tot g l).
  assert (B' : forall y x d, In (y, x, d) l -> -9 <= g x y <= 9) by (intros; eapply B; right; eassumption).
  specialize (IH B'). pose proof (tot_bound g l B') as Tb. pose proof (B y x d (or_introl eq_refl)) as B0. split.
  - intros E y' x' d' [Q|Q].
    + injection Q as <- <- <-. unfold sign. destruct d; lia.
    + apply IH; [destruct d; lia|exact Q].
  - intros A. rewrite (proj2 IH) by (intros; apply A; right; assumption). pose proof (A y x d (or_introl eq_refl)) as A0. unfold sign in A0. destruct d; lia.
Qed.

Lemma score_tot c v : score I0 c v = tot (fun x y => tally I0 c y x) (expected_modules v).
Proof using. reflexivity. Qed.

Lemma version_entry v : 1 <= v <= 40 -> v <> 21 -> exists ver, nth_error VERSION_DATA_BASE (Z.to_nat v) = Some ver /\ take_nonzero (vi_apat ver) = alignment_positions v.
Proof using.
  clear RI W H.
  intros Hv H21. pose proof apat_sweep as Sw. rewrite forallb_forall in Sw.
  specialize (Sw v ltac:(apply in_or_app; rewrite !in_zrange; lia)). unfold apat_agrees in Sw.
  destruct (nth_error VERSION_DATA_BASE (Z.to_nat v)) as [ver|] eqn:Ev; [|discriminate]. exists ver. split; [reflexivity|].
  destruct (list_eq_dec Z.eq_dec (take_nonzero (vi_apat ver)) (alignment_positions v)) as [E|]; [exact E|discriminate].
Qed.

Lemma tot_ext g g' l : (forall y x d, In (y, x, d) l -> g x y = g' x y) -> tot g l = tot g' l.
Proof using.
  clear RI W H.
  induction l as [|[[y x] d] l IH]; intros A; cbn [tot fold_right]; [reflexivity|]. fold (tot g l) (tot g' l).
  rewrite IH by (intros; eapply A; right; eassumption). rewrite (A y x d) by (left; reflexivity). reflexivity.
Qed.

Theorem fitness_score c v s : 1 <= v <= 40 -> v <> 21 ->
  (fitness_all p c (symbol_size v) = Ok s <-> samples_land c v /\ s = score I0 c v).
Proof using RI W H.
  intros Hv H21. destruct (version_entry v Hv H21) as (ver & Ev & Ep). pose proof (plan_perm v Hv) as Pm.
  set (l := plan (symbol_size v) (alignment_positions v)) in *.
  assert (Sg : signed l) by apply plan_signed.
  assert (InE : forall x y s', In (x, y, s') l -> exists d, In (y, x, d) (expected_modules v)).
  { intros x y s' Hi. exists (s' =? 1). apply (Permutation_in _ Pm). apply in_map_iff. exists (x, y, s'). split; [reflexivity|exact Hi]. }
  assert (InP : forall y x d, In (y, x, d) (expected_modules v) -> exists s', In (x, y, s') l).
  { intros y x d Hi. apply (Permutation_in _ (Permutation_sym Pm)) in Hi. apply in_map_iff in Hi as ([[x' y'] s'] & Q & Hi).
    injection Q as <- <- _. exists s'. exact Hi. }
  split.
  - intros E. apply (fitness_inv p c v ver s) in E; [|lia|exact Ev]. rewrite Ep in E. fold l in E. destruct E as [-> K].
    rewrite Forall_forall in K.
    assert (KE : forall y x d, In (y, x, d) (expected_modules v) -> cell_of p c x y = tally I0 c y x /\ (forall o, In o samples -> exists q, sample_at c y x o = Ok q)).
    { intros y x d Hi. destruct (InP y x d Hi) as (s' & Hp). destruct (K _ Hp) as (t & Et). destruct (cell_inv c x y t Et) as [-> L].
      split; [unfold cell_of; unfold out in *; rewrite Et; reflexivity|exact L]. }
    split; [intros y x d o Hi; apply (KE y x d Hi)|].
    rewrite (total_conv _ _ Sg), (tot_perm _ _ _ Pm), score_tot. apply tot_ext. intros y x d Hi. apply (KE y x d Hi).
  - intros [L ->].
    assert (F : fitness_all p c (symbol_size v) = Ok (total (fun x y => tally I0 c y x) l)).
    { unfold l. rewrite <- Ep. apply fitness_plan; [lia|exact Ev|].
      rewrite Ep. fold l. intros x y s' Hi. destruct (InE x y s' Hi) as (d & He). apply cell_total. intros o Ho. exact (L y x d o He Ho). }
    unfold out in *. rewrite F. f_equal. rewrite (total_conv _ _ Sg), (tot_perm _ _ _ Pm). reflexivity.
Qed.

Lemma expected_count v : 1 <= v <= 40 -> 9 * Z.of_nat (length (expected_modules v)) = best_score v.
Proof using.
  clear RI W H.
  intros Hv. assert (S : forallb (fun v => 9 * Z.of_nat (length (expected_modules v)) =? best_score v) (zrange 1 41) = true) by (vm_compute; reflexivity).
  rewrite forallb_forall in S. specialize (S v ltac:(apply in_zrange; lia)). lia.
Qed.

Theorem score_bounds c v : 1 <= v <= 40 -> - best_score v <= score I0 c v <= best_score v.
Proof using. clear RI W H. intros Hv. rewrite <- expected_count by exact Hv. rewrite score_tot. apply tot_bound. intros y x d _. apply tally_bound. Qed.

Theorem score_perfect c v : 1 <= v <= 40 ->
  (score I0 c v = best_score v <-> forall y x d, In (y, x, d) (expected_modules v) -> module_fits I0 c y x d).
Proof using.
  clear RI W H.
  intros Hv. rewrite <- expected_count by exact Hv. rewrite score_tot, tot_best by (intros; apply tally_bound).
  split; intros A y x d Hi; apply tally_fits, (A y x d Hi).
Qed.
End Cells.

(** The expected colours are those of the function patterns. *)
Theorem expected_colour v sym y x d : 1 <= v <= 40 -> function_patterns v sym -> In (y, x, d) (expected_modules v) -> sym y x = d.
Proof.
  intros Hv Fp Hi. apply (Permutation_in _ (Permutation_sym (plan_perm v Hv))) in Hi. apply in_map_iff in Hi as ([[x' y'] s] & Q & Hi).
  injection Q as <- <- <-. destruct (plan_expected v sym Hv Fp x' y' s Hi) as (_ & _ & _ & ->). destruct (sym y' x'); reflexivity.
Qed.

(** * The adjustment *)

Section Never.
Context {T : Type} {N : Num T}.

Theorem never_worse p (c c' : perspective T) n : jiggle_perspective p c n = Ok c' ->
  exists s s', fitness_all p c n = Ok s /\ fitness_all p c' n = Ok s' /\ s <= s' /\ (s' = s -> c' = c).
Proof.
  unfold jiggle_perspective. intros E. apply bind_ok_inv in E as (s & Es & E). apply bind_ok_inv in E as (t & Et & E). injection E as <-.
  exists s. set (Inv := fun st : perspective T * Z => fitness_all p (fst st) n = Ok (snd st) /\ s <= snd st /\ (snd st = s -> fst st = c)).
  assert (I : Inv (fst t)).
  { apply (for_list_inv (fun st => Inv (fst st))) in Et; [exact Et| |].
    - unfold Inv. cbn [fst snd]. split; [exact Es|]. split; [lia|reflexivity].
    - intros i [[c1 b1] adj] st' _ I1 E1. cbn [fst snd] in *. apply bind_ok_inv in E1 as ([c2 b2] & E2 & E1). injection E1 as <-. cbn [fst].
      apply (for_list_inv Inv) in E2; [exact E2|exact I1|].
      intros j [c3 b3] [c4 b4] _ I3 E3. unfold jiggle_step in E3. apply bind_ok_inv in E3 as (tst & E3 & E4).
      destruct (Z.ltb_spec b3 tst) as [L|L]; injection E4 as <- <-; [|exact I3].
      destruct I3 as (A & B & D). unfold Inv. cbn [fst snd] in *. split; [exact E3|]. split; lia. }
  destruct I as (A & B & D). exists (snd (fst t)). auto.
Qed.
End Never.

(** * Located grids *)

Section Located.
Context {T : Type} {N : Num T} (I0 : image) (W : 1 <= im_w I0 <= 2 ^ 31) (H : 1 <= im_h I0 <= 2 ^ 31).

Theorem adjust_score p (c c' : perspective T) v : reg_inv I0 p -> 1 <= v <= 40 -> v <> 21 -> jiggle_perspective p c (symbol_size v) = Ok c' ->
  samples_land c v /\ samples_land c' v /\ score I0 c v <= score I0 c' v /\ (score I0 c' v = score I0 c v -> c' = c).
Proof using W H.
  intros R Hv H21 E. apply never_worse in E as (s & s' & E1 & E2 & L & K).
  apply (fitness_score I0 p R W H _ v _ Hv H21) in E1 as [L1 ->]. apply (fitness_score I0 p R W H _ v _ Hv H21) in E2 as [L2 ->]. auto.
Qed.

Theorem perfect_kept p (c c' : perspective T) v : reg_inv I0 p -> 1 <= v <= 40 -> v <> 21 -> jiggle_perspective p c (symbol_size v) = Ok c' ->
  score I0 c v = best_score v -> c' = c.
Proof using W H.
  intros R Hv H21 E B. destruct (adjust_score p c c' v R Hv H21 E) as (_ & _ & L & K). apply K. pose proof (score_bounds I0 c' v Hv). lia.
Qed.

Theorem setup_score p (g : group T) align v c' : reg_inv I0 p -> 1 <= v <= 40 -> v <> 21 ->
  setup_perspective p g align (symbol_size v) = Ok (Some c') ->
  exists c, persp_create (Corners (k0 (cap_corners (gr1 g))) (k0 (cap_corners (gr2 g))) align (k0 (cap_corners (gr0 g))))
              (n_of (symbol_size v - 7)) (n_of (symbol_size v - 7)) = Some c
    /\ samples_land c' v /\ score I0 c v <= score I0 c' v /\ (score I0 c' v = score I0 c v -> c' = c).
Proof using W H.
  intros R Hv H21 E. unfold setup_perspective in E. apply bind_ok_inv in E as (s & Es & E). unfold usub in Es.
  destruct (Z.leb_spec 7 (symbol_size v)); [|discriminate]. injection Es as <-.
  destruct (persp_create _ _ _) as [c|]; [|discriminate]. apply bind_ok_inv in E as (c1 & Ec & E). injection E as <-.
  exists c. split; [reflexivity|]. destruct (adjust_score p c c1 v R Hv H21 Ec) as (_ & B & C & D). auto.
Qed.

(** The transform of a located grid: an adjusted one. *)
Definition adjusted (l : location T) : Prop := forall v, 1 <= v <= 40 -> v <> 21 -> loc_size l = symbol_size v ->
  samples_land (loc_c l) v
  /\ exists k c, persp_create k (n_of (symbol_size v - 7)) (n_of (symbol_size v - 7)) = Some c
      /\ score I0 c v <= score I0 (loc_c l) v /\ (score I0 (loc_c l) v = score I0 c v -> loc_c l = c).

Lemma group_adjusted p (g : group T) l p' : reg_inv I0 p -> from_group p g = Ok (Some l, p') -> adjusted l.
Proof using W H.
  intros R E. assert (R' : reg_inv I0 p') by (eapply from_group_kept; eassumption). intros v Hv H21 Sz. unfold from_group in E.
  apply bind_ok_inv in E as ([g' hd] & _ & E). apply bind_ok_inv in E as (size & Es & E).
  apply bind_ok_inv in E as ([align|] & _ & E); [|discriminate].
  apply bind_ok_inv in E as ([[al|] p1] & _ & E); [|discriminate].
  apply bind_ok_inv in E as (v' & _ & E). destruct (_ <=? v'); [discriminate|].
  apply bind_ok_inv in E as ([c|] & Ec & E); [|discriminate]. injection E as <- <-. cbn [loc_size loc_c] in *. subst size.
  destruct (setup_score p1 g' al v c R' Hv H21 Ec) as (c0 & Q & A & B & C). split; [exact A|]. eexists _, c0. split; [exact Q|]. auto.
Qed.

Theorem detect_adjusted {Srt : Sorter T} p grids p' : reg_inv I0 p -> detect_grids (T := T) p = Ok (grids, p') ->
  forall g, In g grids -> adjusted (lg_loc g).
Proof using W H.
  intros R E. unfold detect_grids in E.
  apply bind_ok_inv in E as ([stones p1] & E1 & E). apply bind_ok_inv in E as (groups & _ & E).
  apply bind_ok_inv in E as ([p2 locs] & E2 & E). apply bind_ok_inv in E as (gr & E3 & E). injection E as <- <-.
  apply (search_kept I0) in E1; [|assumption].
  apply (for_list_inv (fun s : prepared * list (location T) => reg_inv I0 (fst s) /\ forall l, In l (snd s) -> adjusted l)) in E2 as [R2 F].
  2: { split; [exact E1|intros l []]. }
  2: { intros g [q ls] s' _ [Rq P] Eb. cbn [fst snd] in *. apply bind_ok_inv in Eb as ([o q'] & Ef & Eb).
    pose proof (from_group_kept I0 _ _ _ _ Rq Ef) as Rq'.
    destruct o as [l|]; injection Eb as <-; cbn [fst snd]; (split; [exact Rq'|]); [|exact P].
    intros l' Hl. apply in_app_iff in Hl as [Hl|[<- |[]]]; [apply P; exact Hl|]. exact (group_adjusted q g l q' Rq Ef). }
  cbn [fst snd] in *.
  refine (@for_list_inv _ _ _ (fun s : list (located T) => forall g, In g s -> adjusted (lg_loc g)) _ _ _ _ _ _ E3); [intros g []|].
  intros l acc s' Hl P Eb. apply bind_ok_inv in Eb as (b & _ & Eb). injection Eb as <-.
  intros g Hg. apply in_app_iff in Hg as [Hg|[<- |[]]]; [apply P; exact Hg|]. cbn [lg_loc]. apply F. exact Hl.
Qed.
End Located.

(** What a located grid reads, in binary64: the modules of the function patterns can all be read, and if the score is best
    they read as they should. *)
Lemma centre_sample (l : location spec_float) y x : module_center (N := F64) l y x = sample_at (N := F64) (loc_c l) y x (5, 5).
Proof. unfold module_center, sample_at. cbn [fst snd]. replace (n_ratio (Num := F64) 1 2) with (n_ratio (Num := F64) 5 10) by (vm_compute; reflexivity). reflexivity. Qed.

Lemma centre_in : In (5, 5) samples.
Proof. unfold samples. cbn. tauto. Qed.

Theorem reads_landed I0 p (l : location spec_float) v y x d : reg_inv I0 p -> 1 <= im_w I0 <= 2 ^ 31 -> 1 <= im_h I0 <= 2 ^ 31 ->
  samples_land (N := F64) (loc_c l) v -> In (y, x, d) (expected_modules v) -> exists b, g_bit (ref_grid (N := F64) p l) y x = Ok b.
Proof.
  intros R Hw Hh L Hi. destruct (L y x d (5, 5) Hi centre_in) as (q & Eq). rewrite <- centre_sample in Eq.
  eexists. apply (ref_grid_bit I0 p l y x _ R Hw Hh). exists (px q, py q). split; [rewrite Eq; destruct q; reflexivity|reflexivity].
Qed.

Theorem reads_perfect I0 p (l : location spec_float) v y x d : reg_inv I0 p -> 1 <= im_w I0 <= 2 ^ 31 -> 1 <= im_h I0 <= 2 ^ 31 -> 1 <= v <= 40 ->
  score I0 (N := F64) (loc_c l) v = best_score v -> In (y, x, d) (expected_modules v) -> g_bit (ref_grid (N := F64) p l) y x = Ok d.
Proof.
  intros R Hw Hh Hv B Hi. apply (score_perfect (N := F64) I0 (loc_c l) v Hv) with (1 := B) in Hi.
  destruct (Hi (5, 5) centre_in) as (q & Eq & In & D). rewrite <- centre_sample in Eq.
  apply (ref_grid_bit I0 p l y x _ R Hw Hh). exists q. split; [exact Eq|].
  unfold nearest_pixel, in_image, inside in *. replace (Z.max 0 (Z.min (im_w I0 - 1) (fst q)), Z.max 0 (Z.min (im_h I0 - 1) (snd q))) with q by (destruct q; cbn [fst snd] in *; f_equal; lia).
  destruct (Z.eqb_spec (pix I0 q) 0) as [P|P], d; try reflexivity; exfalso; [apply (proj2 D eq_refl P)|discriminate (proj1 D P)].
Qed.

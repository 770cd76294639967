(** The reference encoder draws the function patterns. *)
From Verif Require Import Base Lib SpecQR SpecPicture FitnessProofs.
From Coq Require Import ZifyBool ZifyNat.
Open Scope Z_scope.
Set Bullet Behavior "Strict Subproofs".

Lemma lookup_none {A} p (l : list ((Z * Z) * A)) : (forall q, In q (map fst l) -> q <> p) -> lookup p l = None.
Proof.
  induction l as [|[q a] l IH]; intros H; [reflexivity|]. cbn [lookup].
  assert (N : q <> p) by (apply H; left; reflexivity).
  destruct ((fst p =? fst q) && (snd p =? snd q)) eqn:E.
  - exfalso. apply N. destruct p, q. cbn [fst snd] in E. f_equal; lia.
  - apply IH. intros q' Hq. apply H. right. exact Hq.
Qed.

Lemma in_combine_fst {A B} (l : list A) (l' : list B) x : In x (map fst (combine l l')) -> In x l.
Proof. intros H. apply in_map_iff in H as ([a b] & <- & H). apply in_combine_l in H. exact H. Qed.

Lemma format_key v y x : 1 <= v -> In (y, x) (map format_module_1 (seq 0 15)) \/ In (y, x) (map (format_module_2 (symbol_size v)) (seq 0 15)) ->
  format_module v y x = true /\ timing_module y x = false.
Proof.
  intros Hv [H|H].
  - cbn in H. unfold format_module, timing_module. cbv zeta. repeat (destruct H as [H|H]; [injection H as <- <-; cbn; lia|]). contradiction.
  - apply in_map_iff in H as (i & H & Hi). apply in_seq in Hi. unfold format_module_2 in H. unfold format_module, timing_module. cbv zeta.
    assert (Hs : 21 <= symbol_size v) by (unfold symbol_size; lia). revert H Hs. generalize (symbol_size v). intros s H Hs.
    destruct (Nat.ltb_spec i 8); injection H as <- <-; lia.
Qed.

(** Where no format module is, the colour is decided by the kind of the module. *)
Lemma draw_kind v e mask cws y x : 1 <= v -> format_module v y x = false \/ timing_module y x = true ->
  draw v e mask cws y x =
    if finder_module v y x then finder_colour v y x
    else if version_module v y x then version_colour v y x
    else if alignment_module v y x then alignment_colour v y x
    else if timing_module y x then Z.even (y + x)
    else match lookup (y, x) (combine (data_modules v) (bytes_bits cws ++ repeat false 7)) with
         | Some b => xorb b (mask_pattern mask y x)
         | None => false
         end.
Proof.
  intros Hv H. unfold draw. cbv zeta. rewrite lookup_none.
  - replace (format_module v y x && negb (timing_module y x)) with false; [reflexivity|].
    destruct H as [-> | -> ]; [reflexivity|]. rewrite andb_false_r. reflexivity.
  - intros q Hq. rewrite map_app in Hq. apply in_app_or in Hq. intros ->.
    assert (K : format_module v y x = true /\ timing_module y x = false).
    { apply format_key; [exact Hv|]. destruct Hq as [Q|Q]; apply in_combine_fst in Q; auto. }
    destruct H as [Q|Q]; rewrite Q in K; destruct K; discriminate.
Qed.

(** * Alignment positions *)

Lemma positions_even v a : 1 <= v <= 40 -> In a (alignment_positions v) -> Z.even a = true.
Proof.
  intros Hv. set (ok := fun v => forallb Z.even (alignment_positions v)).
  assert (A : forallb ok (map (fun k => Z.of_nat k + 1) (seq 0 40)) = true) by (vm_compute; reflexivity).
  rewrite forallb_forall in A. specialize (A v). unfold ok in A. rewrite forallb_forall in A. intros H. apply A; [|exact H].
  apply in_map_iff. exists (Z.to_nat (v - 1)). split; [lia|]. apply in_seq. lia.
Qed.

Lemma positions_apart v a b : 1 <= v <= 40 -> In a (alignment_positions v) -> In b (alignment_positions v) -> a = b \/ 12 <= Z.abs (a - b).
Proof.
  intros Hv. set (ok := fun v => forallb (fun a => forallb (fun b => (a =? b) || (12 <=? Z.abs (a - b))) (alignment_positions v)) (alignment_positions v)).
  assert (A : forallb ok (map (fun k => Z.of_nat k + 1) (seq 0 40)) = true) by (vm_compute; reflexivity).
  rewrite forallb_forall in A. specialize (A v). unfold ok in A. rewrite forallb_forall in A. intros Ha Hb.
  assert (I : In v (map (fun k => Z.of_nat k + 1) (seq 0 40))) by (apply in_map_iff; exists (Z.to_nat (v - 1)); split; [lia|apply in_seq; lia]).
  specialize (A I a Ha). rewrite forallb_forall in A. specialize (A b Hb). lia.
Qed.

Lemma positions_ends v : 1 <= v <= 40 -> alignment_positions v <> [] -> In 6 (alignment_positions v) /\ In (symbol_size v - 7) (alignment_positions v).
Proof.
  intros Hv N. destruct (positions_shape v Hv) as [E|(mid & E & _)]; [contradiction|]. rewrite E. split; [left; reflexivity|].
  right. apply in_or_app. right. left. reflexivity.
Qed.

(** An alignment pattern keeps clear of the finder patterns, and of version and format information. *)
Lemma centre_clear v cy cx : 1 <= v <= 40 -> align_centre v cy cx ->
  let s := symbol_size v in
  6 <= cy <= s - 7 /\ 6 <= cx <= s - 7 /\ (cy = 6 -> 18 <= cx <= s - 19) /\ (cx = 6 -> 18 <= cy <= s - 19)
  /\ (cy <> 6 -> 18 <= cy) /\ (cx <> 6 -> 18 <= cx) /\ (cy <> s - 7 -> cy <= s - 19) /\ (cx <> s - 7 -> cx <= s - 19).
Proof.
  intros Hv (Hy & Hx & N1 & N2 & N3). cbv zeta in *.
  assert (Ne : alignment_positions v <> []) by (intros E; rewrite E in Hy; contradiction).
  destruct (positions_ends v Hv Ne) as [I6 Is]. 
  assert (Rg : forall a, In a (alignment_positions v) -> 6 <= a <= symbol_size v - 7).
  { intros a Ha. destruct (positions_shape v Hv) as [E|(mid & E & Fm & V1)]; [contradiction|]. rewrite E in Ha. rewrite Forall_forall in Fm.
    destruct Ha as [<-|Ha]; [unfold symbol_size; lia|]. apply in_app_or in Ha as [Ha|[<-|[]]]; [specialize (Fm a Ha); lia|unfold symbol_size; lia]. }
  pose proof (Rg _ Hy). pose proof (Rg _ Hx).
  pose proof (positions_apart v _ _ Hv Hy I6). pose proof (positions_apart v _ _ Hv Hx I6). pose proof (positions_apart v _ _ Hv Hy Is). pose proof (positions_apart v _ _ Hv Hx Is).
  lia.
Qed.

Lemma align_here v cy cx y x : align_centre v cy cx -> ring_no (y - cy) (x - cx) <= 2 -> alignment_module v y x = true.
Proof.
  intros (Hy & Hx & N1 & N2 & N3) R. cbv zeta in *. unfold alignment_module. cbv zeta. apply existsb_exists. exists cy. split; [exact Hy|].
  apply existsb_exists. exists cx. split; [exact Hx|]. unfold in_rect, ring_no in *. lia.
Qed.

Lemma align_color v cy cx y x : 1 <= v <= 40 -> align_centre v cy cx -> ring_no (y - cy) (x - cx) <= 2 -> alignment_colour v y x = align_dark (y - cy) (x - cx).
Proof.
  intros Hv (Hy & Hx & _) R. unfold alignment_colour. cbv zeta. unfold align_dark. destruct (ring_no (y - cy) (x - cx) =? 1) eqn:E; cbn [negb].
  - apply not_true_is_false. intros Q. apply existsb_exists in Q as (dy & Hdy & Q). apply existsb_exists in Q as (dx & Hdx & Q).
    pose proof (positions_apart v _ _ Hv Hy Hdy). pose proof (positions_apart v _ _ Hv Hx Hdx). unfold ring, ring_no in *. lia.
  - apply existsb_exists. exists cy. split; [exact Hy|]. apply existsb_exists. exists cx. split; [exact Hx|]. unfold ring, ring_no in *. lia.
Qed.

Lemma align_where v y x : alignment_module v y x = true -> exists cy cx, align_centre v cy cx /\ ring_no (y - cy) (x - cx) <= 2.
Proof.
  unfold alignment_module. cbv zeta. intros Q. apply existsb_exists in Q as (cy & Hy & Q). apply existsb_exists in Q as (cx & Hx & Q).
  exists cy, cx. unfold align_centre, in_rect, ring_no in *. cbv zeta. split; [split; [exact Hy|split; [exact Hx|lia]]|lia].
Qed.

(** * The patterns *)

Lemma ring_far s y x cy cx cy' cx' : 21 <= s -> ring_no (y - cy) (x - cx) <= 4 -> 14 <= Z.abs (cy - cy') \/ 14 <= Z.abs (cx - cx') -> 5 <= ring y x cy' cx'.
Proof. unfold ring, ring_no. lia. Qed.

Lemma finder_nearest v cy cx y x : 1 <= v -> In (cy, cx) (finder_centres v) -> ring_no (y - cy) (x - cx) <= 4 ->
  let d := ring_no (y - cy) (x - cx) in finder_colour v y x = (d <=? 1) || (d =? 3).
Proof.
  intros Hv Hc R d. assert (Hs : 21 <= symbol_size v) by (unfold symbol_size; lia).
  unfold finder_colour. cbv zeta. unfold finder_centres in Hc. cbv zeta in Hc. cbn [In] in Hc. revert Hs Hc. generalize (symbol_size v). intros s Hs Hc.
  assert (E : Z.min (ring y x 3 3) (Z.min (ring y x 3 (s - 4)) (ring y x (s - 4) 3)) = d); [|rewrite E; reflexivity].
  destruct Hc as [Q|[Q|[Q|[]]]]; injection Q as <- <-.
  - pose proof (ring_far s y x 3 3 3 (s - 4) Hs R ltac:(lia)) as A. pose proof (ring_far s y x 3 3 (s - 4) 3 Hs R ltac:(lia)) as B.
    change (ring y x 3 3) with d. fold d in R. clearbody d. lia.
  - pose proof (ring_far s y x 3 (s - 4) 3 3 Hs R ltac:(lia)) as A. pose proof (ring_far s y x 3 (s - 4) (s - 4) 3 Hs R ltac:(lia)) as B.
    change (ring y x 3 (s - 4)) with d. fold d in R. clearbody d. lia.
  - pose proof (ring_far s y x (s - 4) 3 3 3 Hs R ltac:(lia)) as A. pose proof (ring_far s y x (s - 4) 3 3 (s - 4) Hs R ltac:(lia)) as B.
    change (ring y x (s - 4) 3) with d. fold d in R. clearbody d. lia.
Qed.

Lemma draw_patterns v e mask cws : 1 <= v <= 40 -> function_patterns v (draw v e mask cws).
Proof.
  intros Hv. assert (Hs : 21 <= symbol_size v) by (unfold symbol_size; lia).
  assert (off : forall a b, a + b - a = b) by (intros; ring).
  assert (finder_area : forall cy cx y x, In (cy, cx) (finder_centres v) -> ring_no (y - cy) (x - cx) <= 4 ->
     ring_no (y - cy) (x - cx) <= 3 \/ 0 <= y < symbol_size v /\ 0 <= x < symbol_size v ->
     finder_module v y x = true /\ (format_module v y x = false \/ timing_module y x = true)).
  { intros cy cx y x Hc R In_. unfold finder_centres in Hc. cbv zeta in Hc. cbn [In] in Hc. unfold finder_module, format_module, in_rect, ring_no in *. cbv zeta.
    revert Hs Hc In_. generalize (symbol_size v). intros s Hs Hc In_.
    assert (Rg : - 4 <= y - cy <= 4 /\ -4 <= x - cx <= 4) by (clear - R; lia).
    assert (In' : - 3 <= y - cy <= 3 /\ -3 <= x - cx <= 3 \/ 0 <= y < s /\ 0 <= x < s) by (clear - In_; lia). clear R In_ Hv.
    split; [|left]; destruct Hc as [Q|[Q|[Q|[]]]]; injection Q as <- <-; lia. }
  constructor.
  - intros cy cx dy dx Hc R.
    destruct (finder_area cy cx (cy + dy) (cx + dx) Hc) as [Fm Nf]; [rewrite !off; lia|left; rewrite !off; exact R|].
    rewrite draw_kind by (exact Nf || lia). rewrite Fm, (finder_nearest v cy cx) by (rewrite ?off; lia || assumption). rewrite !off. unfold finder_dark. revert R. generalize (ring_no dy dx). clear. intros; lia.
  - intros cy cx dy dx Hc R Hy Hx.
    destruct (finder_area cy cx (cy + dy) (cx + dx) Hc) as [Fm Nf]; [rewrite !off; lia|right; auto|].
    rewrite draw_kind by (exact Nf || lia). rewrite Fm, (finder_nearest v cy cx) by (rewrite ?off; lia || assumption). rewrite !off, R. reflexivity.
  - intros k Hk.
    assert (Go : forall y x, y = 6 /\ x = k \/ y = k /\ x = 6 -> draw v e mask cws y x = Z.even k).
    { intros y x H. assert (Tm : timing_module y x = true) by (unfold timing_module; lia).
      rewrite draw_kind; [|lia|right; exact Tm]. rewrite Tm.
      replace (finder_module v y x) with false by (unfold finder_module, in_rect in *; cbv zeta; lia).
      replace (version_module v y x) with false by (unfold version_module, in_rect in *; cbv zeta; lia).
      assert (Ev : Z.even (y + x) = Z.even k) by (destruct H as [[-> -> ]|[-> -> ]]; rewrite Z.even_add; destruct (Z.even k); reflexivity).
      destruct (alignment_module v y x) eqn:Am; [|exact Ev].
      apply align_where in Am as (cy & cx & Ac & R). rewrite (align_color v cy cx y x Hv Ac R).
      pose proof (centre_clear v cy cx Hv Ac) as Cl. cbv zeta in Cl.
      pose proof Ac as (Hy & Hx & _). pose proof (positions_even v _ Hv Hy) as Ey. pose proof (positions_even v _ Hv Hx) as Ex.
      unfold align_dark, ring_no in *. rewrite <- Ev, Z.even_add.
      assert (Sy : Z.even y = Z.even (y - cy)) by (rewrite Z.even_sub, Ey; destruct (Z.even y); reflexivity).
      assert (Sx : Z.even x = Z.even (x - cx)) by (rewrite Z.even_sub, Ex; destruct (Z.even x); reflexivity).
      rewrite Sy, Sx.
      assert (Rg : -2 <= y - cy <= 2 /\ -2 <= x - cx <= 2) by (clear - R; lia).
      assert (Z0 : y - cy = 0 \/ x - cx = 0) by (destruct Cl as (C1 & C2 & _ & _ & C3 & C4 & _); clear - H Rg C1 C2 C3 C4; destruct H as [[-> -> ]|[-> -> ]]; lia).
      assert (D : (y - cy = -2 \/ y - cy = -1 \/ y - cy = 0 \/ y - cy = 1 \/ y - cy = 2) /\ (x - cx = -2 \/ x - cx = -1 \/ x - cx = 0 \/ x - cx = 1 \/ x - cx = 2)) by (clear - Rg; lia).
      destruct Z0 as [Z0|Z0]; rewrite Z0; destruct D as [D1 D2].
      - destruct D2 as [D2|[D2|[D2|[D2|D2]]]]; rewrite D2; reflexivity.
      - destruct D1 as [D1|[D1|[D1|[D1|D1]]]]; rewrite D1; reflexivity. }
    split; apply Go; auto.
  - intros cy cx dy dx Ac R. pose proof (centre_clear v cy cx Hv Ac) as Cl. cbv zeta in Cl.
    assert (R' : ring_no (cy + dy - cy) (cx + dx - cx) <= 2) by (replace (cy + dy - cy) with dy by ring; replace (cx + dx - cx) with dx by ring; exact R).
    rewrite draw_kind; [|lia|].
    + rewrite (align_here v cy cx _ _ Ac R').
      replace (finder_module v (cy + dy) (cx + dx)) with false by (unfold finder_module, in_rect, ring_no in *; cbv zeta; lia).
      replace (version_module v (cy + dy) (cx + dx)) with false by (unfold version_module, in_rect, ring_no in *; cbv zeta; lia).
      rewrite (align_color v cy cx _ _ Hv Ac R'). f_equal; ring.
    + left. unfold format_module, ring_no in *. cbv zeta. lia.
Qed.

Theorem encode_patterns v e mask m : 1 <= v <= 40 -> function_patterns v (encode v e mask m).
Proof. intros Hv. apply draw_patterns. exact Hv. Qed.

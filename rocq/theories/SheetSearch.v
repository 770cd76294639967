(** The search on a picture whose only finder patterns are given squares, with the order in which they are found. *)
From Coq Require Import Reals Lra SpecFloat.
From Flocq Require Import Core.
From Verif Require Import Base Lib ModelImage ModelGeometry ModelDetect ModelIdentify SpecImage SpecScan SpecFinder SpecSheet
  FloodProofs RegionProofs PrepareProofs ScanProofs DetectProofs CornerProofs SearchProofs HistoryProofs FloatProofs CenterProofs
  FinderProofs ImageFacts FinderFacts ApproxProofs FrameProofs SquareProofs PatternProofs.
From Coq Require Import Permutation Sorting.Sorted.
Open Scope Z_scope.
Set Bullet Behavior "Strict Subproofs".

Definition f_box (f : finder) : pixel -> Prop := box (fst (snd f)) (snd (snd f)) (7 * fst f).
Definition f_cap (f : finder) (c : capstone spec_float) : Prop := square_cap (fst f) (snd f) c.

Lemma frame_inj2 f f' k : 1 <= fst f -> 1 <= fst f' -> corner_frame (fst f) (snd f) k -> corner_frame (fst f') (snd f') k -> f = f'.
Proof.
  destruct f as [m [x y]], f' as [m' [x' y']]. unfold corner_frame, square. cbn [fst snd].
  intros M M'. remember (7 * m - 1) as L eqn:EL. remember (7 * m' - 1) as L' eqn:EL'.
  intros [-> | -> ] [E|E]; injection E; intros;
    (assert (Q : m = m' /\ x = x' /\ y = y') by lia; destruct Q as (-> & -> & ->); reflexivity).
Qed.

Section Search.
Context (I0 : image) (p0 : prepared) (fs : list finder).
Notation W := (im_w I0).
Notation H := (im_h I0).
Context (Fr : fresh I0 p0) (Hw : 1 <= W <= 32768) (Hh : H <= 32768) (M : forall f, In f fs -> 2 <= fst f) (Nd : NoDup fs).
Context (Sq : forall f, In f fs -> finder_square W H (pix I0) (fst f) (fst (snd f)) (snd (snd f))).
Context (Dj : forall f f' q, In f fs -> In f' fs -> f_box f q -> f_box f' q -> f = f').
Context (Only : forall y l st r, finder_at W H (pix I0) y l st r -> exists f, In f fs /\ f_box f (r, y)).

Lemma made_finder f y o : In f fs -> snd (snd f) + 2 * fst f <= y < snd (snd f) + 5 * fst f -> made I0 (fst (snd f) + 6 * fst f, y) o ->
  match o with Some c => f_cap f c | None => False end.
Proof using Fr Hw Hh M Nd Sq Dj Only.
  intros Hs Hy Mo. pose proof (Sq f Hs) as F. pose proof (M f Hs) as M2. destruct f as [m s]. cbn [fst snd] in *. pose proof (fs_left _ _ _ _ _ _ F). pose proof (fs_top _ _ _ _ _ _ F).
  pose proof (fs_right _ _ _ _ _ _ F). pose proof (fs_bottom _ _ _ _ _ _ F).
  assert (Rr : ring m (fst s) (snd s) (fst s + 6 * m, y)) by (unfold ring, box; cbn [fst snd]; lia).
  assert (K : forall k, corners_at I0 (fst s + 6 * m, y) k -> corner_frame m s k).
  { intros k Ck. specialize (Ck ltac:(unfold max_dim; lia) ltac:(unfold max_dim; lia)).
    apply (corners_of_ext _ (ring m (fst s) (snd s))) in Ck; [|intros q; apply (ring_blob _ _ _ _ _ _ F); exact Rr].
    destruct (ring_corners _ _ _ _ _ _ F y k Hy Ck) as [-> | -> ]; [left|right]; unfold square; f_equal; f_equal; lia. }
  destruct o as [c|].
  - destruct Mo as [Ck Co]. split; [apply K; exact Ck|exact Co].
  - destruct Mo as (k & Ck & Cn). apply K in Ck. eapply frame_create; [exact M2| |exact Ck|exact Cn].
    eapply frame_small; [| | | | |exact Ck]; lia.
Qed.

Lemma candidate_finder y x l : 0 <= y < H -> 1 <= x <= W -> candidate I0 y x l -> finder_shape I0 y l ->
  exists f, In f fs /\ (l_right l, y) = (fst (snd f) + 6 * fst f, y) /\ snd (snd f) + 2 * fst f <= y < snd (snd f) + 5 * fst f.
Proof using Fr Hw Hh M Nd Sq Dj Only.
  intros Hy Hx C Sh. pose proof (finder_found I0 y x l Hy ltac:(lia) C Sh) as Fa.
  destruct (Only _ _ _ _ Fa) as (s & Hs & B). destruct (crossed_only _ _ _ _ _ _ (Sq s Hs) _ _ _ _ Fa B) as (_ & _ & Er & Hr).
  exists s. rewrite Er. auto.
Qed.

(** The first row through the middle part of a pattern crosses it. *)
Lemma finder_crossed f y : In f fs -> snd (snd f) + 2 * fst f <= y < snd (snd f) + 5 * fst f ->
  let l := MkLine (fst (snd f)) (fst (snd f) + 2 * fst f) (fst (snd f) + 6 * fst f) in
  0 <= y < H /\ exists stop, 1 <= stop <= W /\ candidate I0 y stop l /\ finder_shape I0 y l.
Proof using Fr Hw Hh M Nd Sq Dj Only.
  intros Hs Hy l. pose proof (Sq f Hs) as Fs.
  destruct (crossed _ _ _ _ _ _ Fs y Hy) as (Hy' & (stop & Row) & B1 & B2 & rg & inner & A1 & A2 & A3). split; [exact Hy'|].
  pose proof (fs_left _ _ _ _ _ _ Fs).
  assert (Hstop : 1 <= stop <= W) by (destruct Row as (n1 & n2 & n3 & n4 & n5 & R); lia).
  exists stop. split; [exact Hstop|]. split; [apply candidate_row; [lia|exact Row]|].
  split; [exact B1|]. split; [exact B2|]. exists rg, inner. auto.
Qed.

Theorem search_finders : exists caps p', capstones_from_image (T := spec_float) p0 = Ok (caps, p')
  /\ reached64 I0 p'
  /\ (exists fs', Permutation fs fs' /\ Forall2 f_cap fs' caps /\ ForallOrdPairs sooner_finder fs')
  /\ (forall q, in_image I0 q -> claimed p' q -> exists f, In f fs /\ ring (fst f) (fst (snd f)) (snd (snd f)) q)
  /\ (forall f q, In f fs -> ring (fst f) (fst (snd f)) (snd (snd f)) q -> claimed p' q).
Proof using Fr Hw Hh M Nd Sq Dj Only.
  assert (R0 : reached64 I0 p0) by (apply reached_fresh; exact Fr).
  destruct (search_full (T := spec_float) I0 p0 (reached_inv I0 p0 R0) ltac:(lia)) as [(caps & p' & E & R' & G & (rings & F2 & O) & Nn & _ & Cl & (spots & Fs & Os))|[_ [X|X]]].
  2: { exfalso. apply X. apply safe64; lia. }
  2: { exfalso. apply X. apply (ImageFacts.fits I0 p0 R0); lia. }
  exists caps, p'. split; [exact E|]. split; [eapply reached_search; eassumption|].
  assert (Un : forall q, in_image I0 q -> ~ claimed p0 q).
  { intros q Iq Cq. destruct Fr as (-> & _ & _ & B). specialize (B q Iq). unfold claimed in Cq. cbn [p_buf] in *. lia. }
  assert (Own : forall q, in_image I0 q -> claimed p' q -> exists f c, In f fs /\ ring (fst f) (fst (snd f)) (snd (snd f)) q /\ In c caps /\ f_cap f c).
  { intros q Iq Cq. destruct (Cl q Iq Cq (Un q Iq)) as (_ & y & x & l & Hy & Hx & C & (_ & _ & Sh) & B & o & Mo & In').
    destruct (candidate_finder y x l Hy Hx C Sh) as (s & Hs & Er & Hr). rewrite Er in Mo, B.
    pose proof (made_finder s y o Hs Hr Mo) as Sc. destruct o as [c|]; [|contradiction]. exists s, c. split; [exact Hs|].
    split; [|split; [apply In'; reflexivity|exact Sc]].
    pose proof (M s Hs). apply (ring_blob _ _ _ _ _ _ (Sq s Hs) (fst (snd s) + 6 * fst s, y)); [|exact B]. unfold ring, box. cbn [fst snd]. lia. }
  assert (Dec : forall p q, claimed p q \/ ~ claimed p q) by (intros p q; unfold claimed; lia).
  (* a stone is never claimed *)
  assert (NoStone : forall f q, In f fs -> stone (fst f) (fst (snd f)) (snd (snd f)) q -> in_image I0 q -> ~ claimed p' q).
  { intros f q Hf St Iq Cq. destruct (Own q Iq Cq) as (f' & c & Hf' & Hr & _).
    assert (f' = f) as -> by (apply (Dj f' f q); [exact Hf'|exact Hf|exact (proj1 Hr)|exact (stone_box _ _ _ _ _ _ (Sq f Hf) _ St)]).
    exact (ring_not_stone _ _ _ _ _ _ (Sq f Hf) _ Hr St). }
  split.
  2: { split.
    - intros q Iq Cq. destruct (Own q Iq Cq) as (s & c & Hs & Hr & _). exists s. auto.
    - intros f q Hf Hq. pose proof (M f Hf) as M2. set (y := snd (snd f) + 2 * fst f).
      destruct (finder_crossed f y Hf ltac:(lia)) as (Hy & stop & Hstop & C & Sh). set (l := MkLine _ _ _) in *.
      assert (N := Nn y stop l Hy Hstop C). assert (D := candidate_line I0 y stop l Hy C). destruct (D (l_stone l) ltac:(tauto)) as [Is _].
      assert (Bl : iblob I0 (l_right l, y) q).
      { apply (ring_blob _ _ _ _ _ _ (Sq f Hf)); [unfold ring, box, l; cbn [fst snd l_right]; lia|exact Hq]. }
      destruct (Dec p' (l_right l, y)) as [Cr|Cr].
      { unfold claimed in *. rewrite (blob_color I0 _ _ _ (ri_base _ _ R') Bl). exact Cr. }
      exfalso. apply N. split; [exact Cr|]. split; [|exact Sh].
      apply (NoStone f (l_stone l, y) Hf); [unfold stone, box, l; cbn [fst snd l_stone]; lia|exact Is]. }
  (* where each capstone was found *)
  assert (P : forall ss cs, Forall2 (found_at I0 p0 p') ss cs -> exists gs, Forall2 f_cap gs cs
    /\ Forall2 (fun (a : spot) f => In f fs /\ fst (fst a) = snd (snd f) + 2 * fst f /\ snd (fst a) = fst (snd f) + 7 * fst f) ss gs).
  { induction 1 as [|[[y x] l] c ss cs Hq _ (gs & F & F')]; [exists []; split; constructor|].
    destruct Hq as (Hy & Hx & C & Mo & pq & Rq & G0 & Gq & (Ac & As & Sh) & First).
    destruct (candidate_finder y x l Hy Hx C Sh) as (f & Hf & Er & Hr). rewrite Er in Mo. pose proof (M f Hf) as M2.
    pose proof (made_finder f y (Some c) Hf Hr Mo) as Sc. exists (f :: gs). split; [constructor; assumption|]. constructor; [|exact F'].
    cbn [fst snd]. split; [exact Hf|].
    assert (Ex : x = fst (snd f) + 7 * fst f).
    { pose proof (proj1 (candidate_row I0 y x l ltac:(lia)) C) as (n1 & n2 & n3 & n4 & n5 & _ & _ & _ & _ & N5 & _ & _ & _ & St & Sw & _ & _ & _ & _ & Dr & _ & We & _).
      apply (f_equal fst) in Er. cbn [fst] in Er. rewrite Er in *. pose proof (fs_right _ _ _ _ _ _ (Sq f Hf)) as Fr'. pose proof (fs_left _ _ _ _ _ _ (Sq f Hf)) as Fl'.
      pose proof (fs_top _ _ _ _ _ _ (Sq f Hf)) as Ft'. pose proof (fs_bottom _ _ _ _ _ _ (Sq f Hf)) as Fb'.
      destruct (Z.lt_trichotomy x (fst (snd f) + 7 * fst f)) as [L|[Q|L]]; [|exact Q|].
      - exfalso. destruct We as [We|We]; [lia|]. revert We. apply (ring_in _ _ _ _ _ _ (Sq f Hf)). unfold ring, box. cbn [fst snd]. lia.
      - exfalso. apply (Dr (fst (snd f) + 7 * fst f)); [lia|].
        apply (fs_around _ _ _ _ _ _ (Sq f Hf)); [unfold inside; cbn [fst snd]; lia|unfold box; cbn [fst snd]; lia|unfold box; cbn [fst snd]; lia]. }
    split; [|exact Ex].
    destruct (Z.eq_dec y (snd (snd f) + 2 * fst f)) as [Q|Q]; [exact Q|]. exfalso.
    set (y0 := snd (snd f) + 2 * fst f) in *.
    destruct (finder_crossed f y0 Hf ltac:(lia)) as (Hy0 & stop & Hstop & C0 & Sh0).
    apply (First y0 stop _ Hy0 Hstop ltac:(left; lia) C0). unfold accepted. cbn [l_right l_stone]. split; [|split; [|exact Sh0]].
    - intros Cq. apply Ac. rewrite Er.
      assert (Bl : iblob I0 (fst (snd f) + 6 * fst f, y0) (fst (snd f) + 6 * fst f, y)).
      { apply (ring_blob _ _ _ _ _ _ (Sq f Hf)); unfold ring, box; cbn [fst snd]; lia. }
      unfold claimed in *. rewrite (blob_color I0 _ _ _ (ri_base _ _ Rq) Bl). exact Cq.
    - intros Cq. assert (D := candidate_line I0 y0 stop _ Hy0 C0). cbn [l_stone] in D.
      destruct (D (fst (snd f) + 2 * fst f) ltac:(tauto)) as [Is _].
      apply (NoStone f (fst (snd f) + 2 * fst f, y0) Hf); [unfold stone, box; cbn [fst snd]; lia|exact Is|].
      unfold claimed in *. rewrite (Gq _ Is Cq). exact Cq. }
  destruct (P _ _ Fs) as (gs & Fc & Fg). exists gs.
  assert (Ord : ForallOrdPairs sooner_finder gs).
  { clear - Fg Os. induction Fg as [|a f ss gs (Hf & Y & X) Fg IH]; [constructor|]. inversion Os as [|? ? A Os']; subst.
    constructor; [|apply IH; exact Os']. clear IH Os Os'. induction Fg as [|b g ss gs (Hg & Y' & X') Fg IH]; [constructor|].
    inversion A as [|? ? B A']; subst. constructor; [|apply IH; exact A'].
    unfold sooner, before in B. unfold sooner_finder. cbv zeta. lia. }
  split; [|split; [exact Fc|exact Ord]].
  assert (Ngs : NoDup gs).
  { clear - Ord. induction Ord as [|f gs A O IH]; constructor; [|exact IH]. intros Hin. rewrite Forall_forall in A. specialize (A f Hin). unfold sooner_finder in A. cbv zeta in A. lia. }
  apply NoDup_Permutation; [exact Nd|exact Ngs|]. intros f. split.
  - intros Hf. pose proof (M f Hf) as M2. set (y := snd (snd f) + 2 * fst f).
    destruct (finder_crossed f y Hf ltac:(lia)) as (Hy & stop & Hstop & C & Sh). set (l := MkLine _ _ _) in *.
    assert (N := Nn y stop l Hy Hstop C). assert (D := candidate_line I0 y stop l Hy C).
    destruct (D (l_right l) ltac:(tauto)) as [Ir _]. destruct (D (l_stone l) ltac:(tauto)) as [Is _].
    assert (Back : forall f' c, In f' fs -> In c caps -> f_cap f' c -> In f' gs).
    { intros f' c Hf' Hc [Fc1 _]. pose proof (M f' Hf') as M'. clear - M M' Hc Fc1 Fc Fg. revert Fg Hc. generalize spots. induction Fc as [|f2 c2 gs cs [Fc2 _] Fc IH]; intros ss Fg Hc; [contradiction|].
      inversion Fg as [|? ? ? ? (Hf2 & _) Fg']; subst. pose proof (M f2 Hf2).
      destruct Hc as [-> |Hc]; [left|right; eapply IH; eassumption]. apply (frame_inj2 _ _ (cap_corners c)); [lia|lia|exact Fc2|exact Fc1]. }
    destruct (Dec p' (l_right l, y)) as [Cr|Cr].
    { destruct (Own _ Ir Cr) as (f' & c & Hf' & Hr & Hc & Sc). replace f with f'; [exact (Back f' c Hf' Hc Sc)|].
      apply (Dj f' f (l_right l, y)); [exact Hf'|exact Hf|exact (proj1 Hr)|]. unfold f_box, box, l. cbn [fst snd l_right]. lia. }
    destruct (Dec p' (l_stone l, y)) as [Cs|Cs].
    { exfalso. apply (NoStone f (l_stone l, y) Hf); [unfold stone, box, l; cbn [fst snd l_stone]; lia|exact Is|exact Cs]. }
    exfalso. apply N. split; [exact Cr|]. split; [exact Cs|exact Sh].
  - clear - Fg. intros Hin. induction Fg as [|a f' ss gs (Hf & _) Fg IH]; [contradiction|]. destruct Hin as [-> |Hin]; [exact Hf|apply IH; exact Hin].
Qed.
End Search.

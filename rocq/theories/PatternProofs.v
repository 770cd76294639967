(** The search on a picture whose only finder patterns are given squares. *)
From Coq Require Import Reals Lra SpecFloat.
From Flocq Require Import Core.
From Verif Require Import Base Lib ModelImage ModelGeometry ModelDetect ModelIdentify SpecImage SpecScan SpecFinder
  FloodProofs RegionProofs PrepareProofs ScanProofs DetectProofs CornerProofs SearchProofs HistoryProofs FloatProofs CenterProofs
  FinderProofs ImageFacts FinderFacts ApproxProofs FrameProofs SquareProofs.
From Coq Require Import Permutation.
Open Scope Z_scope.
Set Bullet Behavior "Strict Subproofs".

Lemma corners_of_ext (S S' : pixel -> Prop) start k : (forall q, S q <-> S' q) -> corners_of S start k -> corners_of S' start k.
Proof.
  intros E (c & Sc & Far & (q0 & q1 & q2 & q3 & S0 & S1 & S2 & S3 & Ek) & Ex). exists c. rewrite <- E. split; [exact Sc|].
  split; [intros q Hq; apply Far; apply E; exact Hq|]. split.
  - exists q0, q1, q2, q3. rewrite <- !E. auto.
  - intros q Hq. apply Ex. apply E. exact Hq.
Qed.

(** The pattern whose upper left pixel is [s], with [m] pixels per module, as the search
    reports it: its corners start at the upper left or at the lower left one. *)
Definition corner_frame (m : Z) (s : pixel) (k : corners) : Prop :=
  let L := 7 * m - 1 in k = square (fst s) (snd s) L 1 0 \/ k = square (fst s) (snd s + L) L 0 (-1).

Definition square_cap (m : Z) (s : pixel) (c : capstone spec_float) : Prop :=
  corner_frame m s (cap_corners c) /\ cap_ok c.

Lemma frame_inj m s s' k : 1 <= m -> corner_frame m s k -> corner_frame m s' k -> s = s'.
Proof.
  intros M. destruct s as [x y], s' as [x' y']. unfold corner_frame, square. cbn [fst snd].
  intros [-> | -> ] [E|E]; injection E; intros; f_equal; lia.
Qed.

Lemma frame_small m s k : 1 <= m -> 0 <= fst s -> 0 <= snd s -> fst s + 7 * m <= 32768 -> snd s + 7 * m <= 32768 -> corner_frame m s k -> small_corners k.
Proof.
  intros M X Y X' Y'. unfold corner_frame, square, small_corners, small_pt, max_dim.
  intros [-> | -> ]; cbn [k0 k1 k2 k3 px py]; lia.
Qed.

Lemma frame_create m s k : 2 <= m -> small_corners k -> corner_frame m s k -> persp_create (N := F64) k (n_of 7) (n_of 7) <> None.
Proof.
  intros M Sm [-> | -> ].
  - destruct (create_square (fst s) (snd s) (7 * m - 1) 7 1 0) as (c & E & _); [reflexivity|lia|lia|exact Sm|]. rewrite E. discriminate.
  - destruct (create_square (fst s) (snd s + (7 * m - 1)) (7 * m - 1) 7 0 (-1)) as (c & E & _); [reflexivity|lia|lia|exact Sm|]. rewrite E. discriminate.
Qed.

Section Search.
Context (I0 : image) (p0 : prepared) (m : Z) (sqs : list pixel).
Notation W := (im_w I0).
Notation H := (im_h I0).
Context (Fr : fresh I0 p0) (Hw : 1 <= W <= 32768) (Hh : H <= 32768) (M : 2 <= m) (Nd : NoDup sqs).
Context (Sq : forall s, In s sqs -> finder_square W H (pix I0) m (fst s) (snd s)).
Context (Dj : forall s s' q, In s sqs -> In s' sqs -> box (fst s) (snd s) (7 * m) q -> box (fst s') (snd s') (7 * m) q -> s = s').
Context (Only : forall y l st r, finder_at W H (pix I0) y l st r -> exists s, In s sqs /\ box (fst s) (snd s) (7 * m) (r, y)).

Lemma made_square s y o : In s sqs -> snd s + 2 * m <= y < snd s + 5 * m -> made I0 (fst s + 6 * m, y) o ->
  match o with Some c => square_cap m s c | None => False end.
Proof using Fr Hw Hh M Nd Sq Dj Only.
  intros Hs Hy Mo. pose proof (Sq s Hs) as F. pose proof (fs_left _ _ _ _ _ _ F). pose proof (fs_top _ _ _ _ _ _ F).
  pose proof (fs_right _ _ _ _ _ _ F). pose proof (fs_bottom _ _ _ _ _ _ F).
  assert (Rr : ring m (fst s) (snd s) (fst s + 6 * m, y)) by (unfold ring, box; cbn [fst snd]; lia).
  assert (K : forall k, corners_at I0 (fst s + 6 * m, y) k -> corner_frame m s k).
  { intros k Ck. specialize (Ck ltac:(unfold max_dim; lia) ltac:(unfold max_dim; lia)).
    apply (corners_of_ext _ (ring m (fst s) (snd s))) in Ck; [|intros q; apply (ring_blob _ _ _ _ _ _ F); exact Rr].
    destruct (ring_corners _ _ _ _ _ _ F y k Hy Ck) as [-> | -> ]; [left|right]; unfold square; f_equal; f_equal; lia. }
  destruct o as [c|].
  - destruct Mo as [Ck Co]. split; [apply K; exact Ck|exact Co].
  - destruct Mo as (k & Ck & Cn). apply K in Ck. eapply frame_create; [exact M| |exact Ck|exact Cn].
    eapply frame_small; [| | | | |exact Ck]; lia.
Qed.

Lemma candidate_square y x l : 0 <= y < H -> 1 <= x <= W -> candidate I0 y x l -> finder_shape I0 y l ->
  exists s, In s sqs /\ (l_right l, y) = (fst s + 6 * m, y) /\ snd s + 2 * m <= y < snd s + 5 * m.
Proof using Fr Hw Hh M Nd Sq Dj Only.
  intros Hy Hx C Sh. pose proof (finder_found I0 y x l Hy ltac:(lia) C Sh) as Fa.
  destruct (Only _ _ _ _ Fa) as (s & Hs & B). destruct (crossed_only _ _ _ _ _ _ (Sq s Hs) _ _ _ _ Fa B) as (_ & _ & Er & Hr).
  exists s. rewrite Er. auto.
Qed.

Theorem search_squares : exists caps p', capstones_from_image (T := spec_float) p0 = Ok (caps, p')
  /\ reached64 I0 p'
  /\ (exists sqs', Permutation sqs sqs' /\ Forall2 (square_cap m) sqs' caps)
  /\ (forall q, in_image I0 q -> claimed p' q -> exists s, In s sqs /\ ring m (fst s) (snd s) q).
Proof using Fr Hw Hh M Nd Sq Dj Only.
  assert (R0 : reached64 I0 p0) by (apply reached_fresh; exact Fr).
  destruct (search64 I0 p0 R0 Hw Hh) as (caps & p' & E & R' & G & (rings & F2 & O) & Nn & Cl & _).
  exists caps, p'. split; [exact E|]. split; [exact R'|].
  assert (Un : forall q, in_image I0 q -> ~ claimed p0 q).
  { intros q Iq Cq. destruct Fr as (-> & _ & _ & B). specialize (B q Iq). unfold claimed in Cq. cbn [p_buf] in *. lia. }
  assert (Own : forall q, in_image I0 q -> claimed p' q -> exists s c, In s sqs /\ ring m (fst s) (snd s) q /\ In c caps /\ square_cap m s c).
  { intros q Iq Cq. destruct (Cl q Iq Cq (Un q Iq)) as (_ & y & x & l & Hy & Hx & C & (_ & _ & Sh) & B & o & Mo & In').
    destruct (candidate_square y x l Hy Hx C Sh) as (s & Hs & Er & Hr). rewrite Er in Mo, B.
    pose proof (made_square s y o Hs Hr Mo) as Sc. destruct o as [c|]; [|contradiction]. exists s, c. split; [exact Hs|].
    split; [|split; [apply In'; reflexivity|exact Sc]].
    apply (ring_blob _ _ _ _ _ _ (Sq s Hs) (fst s + 6 * m, y)); [|exact B]. unfold ring, box. cbn [fst snd]. lia. }
  split.
  2: { intros q Iq Cq. destruct (Own q Iq Cq) as (s & c & Hs & Hr & _). exists s. auto. }
  (* the squares of the rings *)
  assert (P : forall rs cs, Forall2 (ring_of I0 p0 p') rs cs ->
    exists ss, Forall2 (fun q s => In s sqs /\ ring m (fst s) (snd s) q) rs ss /\ Forall2 (square_cap m) ss cs).
  { induction 1 as [|q c rs cs Hq _ (ss & F & F')]; [exists []; split; constructor|].
    destruct Hq as (_ & _ & _ & _ & (y & x & l & Hy & Hx & -> & C & Sh) & K & CO).
    destruct (candidate_square y x l Hy Hx C Sh) as (s & Hs & Er & Hr). rewrite Er in K |- *.
    pose proof (made_square s y (Some c) Hs Hr (conj K CO)) as Sc.
    exists (s :: ss). split; constructor; try assumption. split; [exact Hs|]. unfold ring, box. cbn [fst snd]. lia. }
  destruct (P _ _ F2) as (ss & F & F'). exists ss. split; [|exact F'].
  assert (Nss : NoDup ss).
  { clear - F O Sq. induction F as [|q s rs ss [Hs Hq] F IH]; [constructor|]. inversion O as [|? ? A O']; subst.
    constructor; [|apply IH; exact O']. intros Hin.
    assert (T : exists q', In q' rs /\ ring m (fst s) (snd s) q').
    { clear - F Hin. induction F as [|q' s' rs ss [_ Hq'] F IH]; [contradiction|]. destruct Hin as [-> |Hin].
      - exists q'. split; [left; reflexivity|exact Hq'].
      - destruct (IH Hin) as (q2 & H2 & R2). exists q2. split; [right; exact H2|exact R2]. }
    destruct T as (q' & Hq' & Rq'). rewrite Forall_forall in A. apply (A q' Hq'). apply (ring_blob _ _ _ _ _ _ (Sq s Hs)); assumption. }
  apply NoDup_Permutation; [exact Nd|exact Nss|]. intros s. split.
  - intros Hs. pose proof (Sq s Hs) as Fs. pose proof (fs_left _ _ _ _ _ _ Fs). pose proof (fs_top _ _ _ _ _ _ Fs).
    pose proof (fs_right _ _ _ _ _ _ Fs). pose proof (fs_bottom _ _ _ _ _ _ Fs).
    set (y := snd s + 2 * m). assert (Hy : snd s + 2 * m <= y < snd s + 5 * m) by (unfold y; lia).
    destruct (crossed _ _ _ _ _ _ Fs y Hy) as (Hy' & (stop & Row) & B1 & B2 & rg & inner & A1 & A2 & A3).
    set (l := MkLine (fst s) (fst s + 2 * m) (fst s + 6 * m)).
    assert (Hstop : 1 <= stop <= W) by (destruct Row as (n1 & n2 & n3 & n4 & n5 & R); lia).
    assert (C : candidate I0 y stop l) by (apply candidate_row; [lia|exact Row]).
    assert (Sh : finder_shape I0 y l) by (split; [exact B1|]; split; [exact B2|]; exists rg, inner; auto).
    assert (N := Nn y stop l Hy' Hstop C).
    assert (D := candidate_line I0 y stop l Hy' C).
    assert (Dec : forall q, claimed p' q \/ ~ claimed p' q) by (intros q; unfold claimed; lia).
    destruct (D (l_right l) ltac:(tauto)) as [Ir _]. destruct (D (l_stone l) ltac:(tauto)) as [Is _].
    assert (Back : forall s' c, In c caps -> square_cap m s' c -> In s' ss).
    { intros s' c Hc [Fc _]. clear - M F' Hc Fc. induction F' as [|s2 c2 ss cs [Fc2 _] F' IH]; [contradiction|].
      destruct Hc as [-> |Hc]; [left|right; apply IH; exact Hc]. apply (frame_inj m _ _ (cap_corners c)); [lia|exact Fc2|exact Fc]. }
    destruct (Dec (l_right l, y)) as [Cr|Cr].
    { destruct (Own _ Ir Cr) as (s' & c & Hs' & Hr & Hc & Sc). replace s with s'; [exact (Back s' c Hc Sc)|].
      apply (Dj s' s (l_right l, y)); [exact Hs'|exact Hs|exact (proj1 Hr)|]. unfold box, l. cbn [fst snd l_right]. lia. }
    destruct (Dec (l_stone l, y)) as [Cs|Cs].
    { exfalso. destruct (Own _ Is Cs) as (s' & c & Hs' & Hr & Hc & Sc).
      assert (St : stone m (fst s) (snd s) (l_stone l, y)) by (unfold stone, box, l; cbn [fst snd l_stone]; lia).
      assert (s' = s) as -> by (apply (Dj s' s (l_stone l, y)); [exact Hs'|exact Hs|exact (proj1 Hr)|exact (stone_box _ _ _ _ _ _ Fs _ St)]).
      exact (ring_not_stone _ _ _ _ _ _ Fs _ Hr St). }
    exfalso. apply N. split; [exact Cr|]. split; [exact Cs|exact Sh].
  - clear - F. intros Hin. induction F as [|q s' rs ss [Hs _] F IH]; [contradiction|]. destruct Hin as [-> |Hin]; [exact Hs|apply IH; exact Hin].
Qed.
End Search.

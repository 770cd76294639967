(** How many grids there can be: a group needs three finder patterns, and no two groups share more than a corner. *)
From Coq Require Import SpecFloat.
From Verif Require Import Base Lib ModelDecode ModelImage ModelGeometry ModelDetect ModelIdentify SpecImage SpecThreshold SpecIdentify SpecFinder SpecCount
  FloodProofs RegionProofs HistoryProofs DetectProofs SearchProofs ImageFacts FinderFacts IdentifyProofs NeighborProofs.
From Coq Require Import ZifyBool.
Open Scope Z_scope.
Set Bullet Behavior "Strict Subproofs".

(** * Groups *)

Section Groups.
Context {Srt : Sorter spec_float}.

Lemma no_pairs caps i : Forall proper caps -> (length caps <= 2)%nat -> (i < length caps)%nat ->
  find_and_rank_possible_neighbors caps i = Ok [].
Proof using.
  intros P L Hi. destruct (rank_f64 caps i Hi) as (ranked & E & _ & M). unfold out in *. rewrite E. f_equal.
  destruct ranked as [|[s [a b]] l]; [reflexivity|exfalso]. assert (V : viable caps i a b s) by (apply M; left; reflexivity).
  pose proof (sides_differ caps i a b s P V) as D. destruct V as (da & db & (Na & u & Oa & _) & (Nb & v & Ob & _) & _).
  assert (In_ : forall j o, offsets caps i j = Some o -> (j < length caps)%nat).
  { intros j o. unfold offsets. destruct (nth_error caps i); [|discriminate]. destruct (nth_error caps j) eqn:Ej; [|discriminate].
    intros _. apply nth_error_Some. congruence. }
  apply In_ in Oa, Ob. lia.
Qed.

Lemma few_groups p caps : Forall proper caps -> (length caps <= 2)%nat -> find_groupings p caps = Ok [].
Proof using.
  intros P L. unfold find_groupings, find_groupings_indexed.
  assert (E : forall l, (forall i, In i l -> (i < length caps)%nat) ->
    for_each l (fun idx s => if used_in (fst s) idx then Ok s else
      let* pairs := find_and_rank_possible_neighbors caps idx in for_each pairs (try_pair p caps idx) s) ([], []) = Ok ([], [])).
  { induction l as [|i l IH]; intros Hl; [reflexivity|]. cbn [for_each fst used_in existsb].
    rewrite (no_pairs caps i P L) by (apply Hl; left; reflexivity). cbn [bind for_each]. apply IH. intros j Hj. apply Hl. right. exact Hj. }
  unfold out in *. rewrite E; [reflexivity|]. intros i Hi. apply in_range_iff in Hi. lia.
Qed.

(** The sides of the groups and the corner of the first are all different. *)
Lemma groups_room p caps l : Forall proper caps -> find_groupings_indexed p caps = Ok l -> l <> [] ->
  (2 * length l + 1 <= length caps)%nat.
Proof using.
  intros P E Ne. destruct (groupings_inv p caps l E) as (F & O & _). rewrite Forall_forall in F.
  assert (D : forall e, In e l -> NoDup (members (fst e)) /\ forall x, In x (members (fst e)) -> (x < length caps)%nat).
  { intros e I. specialize (F e I). destruct e as [[[a i] b] g]. destruct F as (ca & ci & cb & Ea & Ei & Eb & _ & (s & V) & _).
    pose proof (sides_differ caps i a b s P V) as D. destruct V as (da & db & (Na & _) & (Nb & _) & _). cbn [fst members]. split.
    - constructor; [intros [H|[H|[]]]; congruence|]. constructor; [intros [H|[]]; congruence|]. constructor; [intros []|constructor].
    - intros x [<-|[<-|[<-|[]]]]; apply nth_error_Some; congruence. }
  destruct l as [|e0 l]; [contradiction|]. clear Ne E F.
  set (all := corner_of (fst e0) :: flat_map (fun e => sides (fst e)) (e0 :: l)).
  assert (N : NoDup all).
  { unfold all. constructor.
    - intros H. apply in_flat_map in H as (e & [<-|I] & H).
      + destruct (D e0 (or_introl eq_refl)) as [N _]. destruct e0 as [[[a i] b] g]. cbn [fst members sides corner_of] in *.
        inversion N as [|? ? N1 N2]; subst. inversion N2 as [|? ? N3 N4]; subst. cbn [In] in *. intuition congruence.
      + inversion O as [|? ? A O']; subst. rewrite Forall_forall in A. destruct (A e I) as [S _]. apply (S _ H).
        destruct e0 as [[[a i] b] g]. cbn. tauto.
    - clear all. assert (D' : forall e, In e (e0 :: l) -> NoDup (members (fst e))) by (intros e I; apply D; exact I). clear D.
      induction O as [|e t A O IH]; [constructor|]. cbn [flat_map]. apply NoDup_app_intro.
      + pose proof (D' e (or_introl eq_refl)) as N. destruct e as [[[a i] b] g]. cbn [fst members sides] in *.
        inversion N as [|? ? N1 N2]; subst. inversion N2 as [|? ? N3 N4]; subst. constructor; [|constructor; [intros []|constructor]].
        cbn [In] in *. intuition congruence.
      + apply IH. intros e' I. apply D'. right. exact I.
      + intros x Hx Hy. apply in_flat_map in Hy as (e' & I & Hy). rewrite Forall_forall in A. destruct (A e' I) as [S _]. apply (S x Hy).
        destruct e as [[[a i] b] g]. cbn [fst sides members In] in *. tauto. }
  assert (B : incl all (seq 0 (length caps))).
  { intros x Hx. apply in_seq. split; [lia|]. cbn [plus]. destruct Hx as [<-|Hx].
    - apply (D e0 (or_introl eq_refl)). destruct e0 as [[[a i] b] g]. cbn. tauto.
    - apply in_flat_map in Hx as (e & I & Hx). apply (D e I). destruct e as [[[a i] b] g]. cbn [fst sides members In] in *. tauto. }
  pose proof (NoDup_incl_length N B) as Le. rewrite seq_length in Le. unfold all in Le. cbn [length] in Le.
  assert (Len : forall t : list (triple * group spec_float), length (flat_map (fun e => sides (fst e)) t) = (2 * length t)%nat).
  { induction t as [|[[[a i] b] g] t IH]; [reflexivity|]. cbn [flat_map fst sides app length]. lia. }
  rewrite Len in Le. cbn [length] in *. lia.
Qed.

(** Grids come from groups. *)
Lemma detect_room p grids p' caps p1 : capstones_from_image (T := spec_float) p = Ok (caps, p1) -> detect_grids (T := spec_float) p = Ok (grids, p') ->
  grids = [] \/ (2 * length grids + 1 <= length caps)%nat.
Proof using.
  intros Es E. unfold detect_grids in E. unfold out in *. rewrite Es in E. cbn [bind] in E. apply search_proper in Es.
  apply bind_ok_inv in E as (groups & Eg & E). apply bind_ok_inv in E as ([p2 locs] & E2 & E). apply bind_ok_inv in E as (gr & E3 & E). injection E as <- <-.
  unfold find_groupings in Eg. apply bind_ok_inv in Eg as (l & El & Eg). injection Eg as <-.
  assert (L2 : (length locs <= length (map snd l))%nat).
  { clear E3 El. revert E2. generalize (map snd l). intros gs.
    match goal with |- for_each gs ?f _ = _ -> _ =>
      assert (K : forall q t, for_each gs f (q, t) = Ok (p2, locs) -> (length locs <= length t + length gs)%nat); [|intros E2; apply K in E2; cbn [length] in E2; lia] end.
    induction gs as [|g gs IH]; intros q t E2; cbn [for_each] in E2; [injection E2 as <- <-; lia|].
    apply bind_ok_inv in E2 as ([p3 t3] & E3 & E2). apply IH in E2. apply bind_ok_inv in E3 as ([o p4] & E4 & E3).
    destruct o; injection E3 as <- <-; rewrite ?app_length in *; cbn [length] in *; lia. }
  assert (L3 : length gr = length locs).
  { clear E2 L2. revert E3.
    match goal with |- for_each locs ?f _ = _ -> _ =>
      assert (K : forall t, for_each locs f t = Ok gr -> length gr = (length t + length locs)%nat); [|intros E3; apply K in E3; cbn [length] in E3; lia] end.
    induction locs as [|a locs IH]; intros t E3; cbn [for_each] in E3; [injection E3 as <-; cbn; lia|].
    apply bind_ok_inv in E3 as (t3 & E4 & E3). apply IH in E3. apply bind_ok_inv in E4 as (b & _ & E4). injection E4 as <-.
    rewrite app_length in E3. cbn [length] in *. lia. }
  rewrite map_length in L2. destruct gr as [|g gr]; [left; reflexivity|right].
  assert (Ne : l <> []) by (intros ->; cbn in L2; cbn [length] in L3; lia).
  pose proof (groups_room p1 caps l Es El Ne). lia.
Qed.

Lemma detect_few p caps p1 : capstones_from_image (T := spec_float) p = Ok (caps, p1) -> (length caps <= 2)%nat -> detect_grids (T := spec_float) p = Ok ([], p1).
Proof using.
  intros Es L. unfold detect_grids. unfold out in *. rewrite Es. cbn [bind]. pose proof (few_groups p1 caps (search_proper _ _ _ Es) L) as G.
  unfold out in *. rewrite G. reflexivity.
Qed.
End Groups.

(** * Pictures *)

(** The finder patterns that a search returns are finder patterns of the picture. *)
Lemma search_patterns I0 p caps p' : reached64 I0 p -> 1 <= im_w I0 <= 32768 -> im_h I0 <= 32768 ->
  capstones_from_image (T := spec_float) p = Ok (caps, p') ->
  exists rings, patterns (im_w I0) (im_h I0) (pix I0) rings /\ length rings = length caps.
Proof.
  intros R Hw Hh E. destruct (search64 I0 p R Hw Hh) as (caps1 & p1 & E1 & _ & _ & (rings & F & O) & _).
  unfold out in *. rewrite E in E1. injection E1 as <- <-. exists rings. split; [|clear - F; induction F; cbn [length]; congruence]. split; [|exact O].
  intros q I. apply In_nth_error in I as (k & Ek).
  assert (exists c, ring_of I0 p p' q c) as (c & Rc).
  { clear - F Ek. revert k Ek. induction F as [|a b l l' H F IH]; intros k Ek; [destruct k; discriminate|].
    destruct k; [injection Ek as ->; exists b; exact H|eapply IH; exact Ek]. }
  destruct Rc as (_ & _ & _ & _ & (y & x & l & Hy & Hx & -> & C & Sh) & _). exists (l_left l), (l_stone l).
  apply (finder_found I0 y x l Hy ltac:(lia) C Sh).
Qed.

Theorem grids_room {Srt : Sorter spec_float} I0 p grids p' : reached64 I0 p -> 1 <= im_w I0 <= 32768 -> im_h I0 <= 32768 ->
  detect_grids (T := spec_float) p = Ok (grids, p') ->
  grids = [] \/ exists rings, patterns (im_w I0) (im_h I0) (pix I0) rings /\ (2 * length grids + 1 <= length rings)%nat.
Proof.
  intros R Hw Hh E. destruct (search_returns I0 p R Hw Hh) as (caps & p1 & Es).
  destruct (detect_room p grids p' caps p1 Es E) as [-> |L]; [left; reflexivity|right].
  destruct (search_patterns I0 p caps p1 R Hw Hh Es) as (rings & P & Len). exists rings. split; [exact P|]. lia.
Qed.

Theorem few_patterns {Srt : Sorter spec_float} I0 p : reached64 I0 p -> 1 <= im_w I0 <= 32768 -> im_h I0 <= 32768 ->
  at_most (im_w I0) (im_h I0) (pix I0) 2 -> exists p', detect_grids (T := spec_float) p = Ok ([], p').
Proof.
  intros R Hw Hh A. destruct (search_returns I0 p R Hw Hh) as (caps & p1 & Es).
  destruct (search_patterns I0 p caps p1 R Hw Hh Es) as (rings & P & Len). exists p1. apply (detect_few p caps p1 Es).
  rewrite <- Len. apply A, P.
Qed.

Lemma patterns_same w h f g rings : (forall q, inside w h q -> (f q = 0 <-> g q = 0)) -> patterns w h f rings -> patterns w h g rings.
Proof.
  intros E [A O]. split.
  - intros q I. destruct (A q I) as (l & s & Fi). exists l, s. apply (finder_at_same1 w h f g E). exact Fi.
  - clear - E O. induction O as [|a l Ha O IH]; constructor; [|exact IH]. eapply Forall_impl; [|exact Ha]. intros b N B. apply N. apply (blob_same w h f g E). exact B.
Qed.

(** * From the picture *)

Lemma bitmap_room {Srt : Sorter spec_float} w h (fill : Z -> Z -> bool) k : 1 <= w <= 32768 -> 0 <= h <= 32768 ->
  at_most w h (fun q => if fill (fst q) (snd q) then 1 else 0) k ->
  exists p, prepare_from_bitmap w h fill = Ok p
    /\ (forall grids p', detect_grids (T := spec_float) p = Ok (grids, p') -> grids = [] \/ (2 * length grids + 1 <= k)%nat)
    /\ ((k <= 2)%nat -> exists p', detect_grids (T := spec_float) p = Ok ([], p')).
Proof.
  intros Hw Hh A. destruct (bitmap_ok w h fill ltac:(lia) ltac:(lia)) as (p & E & S1 & S2 & F & P); [unfold usize_max; nia|].
  exists p. split; [exact E|]. assert (R : reached64 (p_buf p) p) by (apply reached_fresh; exact F).
  unfold p_w, p_h in S1, S2.
  assert (A' : at_most (im_w (p_buf p)) (im_h (p_buf p)) (pix (p_buf p)) k).
  { intros rings Pr. apply A. rewrite S1, S2 in Pr. eapply patterns_same; [|exact Pr]. intros [x y] Hq. specialize (P x y Hq).
    unfold get_pixel_at in P. rewrite get_pixel_ok in P; [|apply F|split; destruct Hq; rewrite ?S1, ?S2; assumption].
    cbn [bind] in P. cbn [fst snd]. destruct F as (_ & _ & _ & B). destruct (B (x, y)) as [Z|Z].
    { split; destruct Hq; rewrite ?S1, ?S2; assumption. }
    - rewrite Z in *. cbn in P. destruct (fill x y); [discriminate|]. tauto.
    - rewrite Z in *. cbn in P. destruct (fill x y); [|discriminate]. lia. }
  split.
  - intros grids p' D. destruct (grids_room (p_buf p) p grids p' R) as [N|(rings & Pr & L)]; [lia|lia|exact D|left; exact N|right].
    specialize (A' rings Pr). lia.
  - intros K. apply (few_patterns (p_buf p) p R); [lia|lia|]. intros rings Pr. specialize (A' rings Pr). lia.
Qed.

Lemma greyscale_room {Srt : Sorter spec_float} w h fill k : 1 <= w <= 32768 -> 0 <= h <= 32768 ->
  (forall x y, inside w h (x, y) -> 0 <= fill x y <= 255) ->
  at_most w h (fun q => if is_dark w (fun r => fill (fst r) (snd r)) q then 1 else 0) k ->
  exists p, prepare_from_greyscale w h fill = Ok p
    /\ (forall grids p', detect_grids (T := spec_float) p = Ok (grids, p') -> grids = [] \/ (2 * length grids + 1 <= k)%nat)
    /\ ((k <= 2)%nat -> exists p', detect_grids (T := spec_float) p = Ok ([], p')).
Proof.
  intros Hw Hh G A. destruct (greyscale_exact w h fill ltac:(lia) ltac:(lia)) as (p & E & S1 & S2 & F & P); [unfold usize_max; nia|assumption|].
  exists p. split; [exact E|]. assert (R : reached64 (p_buf p) p) by (apply reached_fresh; exact F).
  unfold p_w, p_h in S1, S2.
  assert (A' : at_most (im_w (p_buf p)) (im_h (p_buf p)) (pix (p_buf p)) k).
  { intros rings Pr. apply A. rewrite S1, S2 in Pr. eapply patterns_same; [|exact Pr]. intros [x y] Hq. specialize (P x y Hq).
    unfold get_pixel_at in P. rewrite get_pixel_ok in P; [|apply F|split; destruct Hq; rewrite ?S1, ?S2; assumption].
    cbn [bind] in P. destruct F as (_ & _ & _ & B). destruct (B (x, y)) as [Z|Z].
    { split; destruct Hq; rewrite ?S1, ?S2; assumption. }
    - rewrite Z in *. cbn in P. destruct (is_dark _ _ _); [discriminate|]. tauto.
    - rewrite Z in *. cbn in P. destruct (is_dark _ _ _); [|discriminate]. lia. }
  split.
  - intros grids p' D. destruct (grids_room (p_buf p) p grids p' R) as [N|(rings & Pr & L)]; [lia|lia|exact D|left; exact N|right].
    specialize (A' rings Pr). lia.
  - intros K. apply (few_patterns (p_buf p) p R); [lia|lia|]. intros rings Pr. specialize (A' rings Pr). lia.
Qed.

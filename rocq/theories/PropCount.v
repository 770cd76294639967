(** How many grids there can be: C69.
    Every theorem is followed by its assumptions and by a case meeting its hypotheses. *)
From Coq Require Import SpecFloat Permutation.
From Verif Require Import Base Lib ModelDecode ModelImage ModelGeometry ModelDetect ModelIdentify SpecImage SpecScan SpecThreshold SpecIdentify SpecFinder SpecCount
  FloodProofs RegionProofs HistoryProofs ImageFacts SheetGroup SheetScan FinderFacts RoomProofs PropImage PropDetect PropSheet SpecSheet SpecPicture SheetProofs SheetRender.
Open Scope Z_scope.
Set Bullet Behavior "Strict Subproofs".

(** * C69 *)

(** If there are grids at all then the picture has at least one finder pattern more than twice their number, on as many different regions. *)
Theorem C69_room {Srt : Sorter spec_float} I0 p grids p' : reached64 I0 p -> 1 <= im_w I0 <= 32768 -> im_h I0 <= 32768 ->
  detect_grids (T := spec_float) p = Ok (grids, p') ->
  grids = [] \/ exists rings, patterns (im_w I0) (im_h I0) (pix I0) rings /\ (2 * length grids + 1 <= length rings)%nat.
Proof. exact (grids_room I0 p grids p'). Qed.
Print Assumptions C69_room.

(** Where there are no more than two finder patterns nothing is found, and nothing goes wrong. *)
Theorem C69_none {Srt : Sorter spec_float} I0 p : reached64 I0 p -> 1 <= im_w I0 <= 32768 -> im_h I0 <= 32768 ->
  at_most (im_w I0) (im_h I0) (pix I0) 2 -> exists p', detect_grids (T := spec_float) p = Ok ([], p').
Proof. exact (few_patterns I0 p). Qed.
Print Assumptions C69_none.

(** The same of a black and white picture and of a grey one. *)
Theorem C69_bitmap {Srt : Sorter spec_float} w h (fill : Z -> Z -> bool) k : 1 <= w <= 32768 -> 0 <= h <= 32768 ->
  at_most w h (fun q => if fill (fst q) (snd q) then 1 else 0) k ->
  exists p, prepare_from_bitmap w h fill = Ok p
    /\ (forall grids p', detect_grids (T := spec_float) p = Ok (grids, p') -> grids = [] \/ (2 * length grids + 1 <= k)%nat)
    /\ ((k <= 2)%nat -> exists p', detect_grids (T := spec_float) p = Ok ([], p')).
Proof. exact (bitmap_room w h fill k). Qed.
Print Assumptions C69_bitmap.

Theorem C69_greyscale {Srt : Sorter spec_float} w h fill k : 1 <= w <= 32768 -> 0 <= h <= 32768 ->
  (forall x y, inside w h (x, y) -> 0 <= fill x y <= 255) ->
  at_most w h (fun q => if is_dark w (fun r => fill (fst r) (snd r)) q then 1 else 0) k ->
  exists p, prepare_from_greyscale w h fill = Ok p
    /\ (forall grids p', detect_grids (T := spec_float) p = Ok (grids, p') -> grids = [] \/ (2 * length grids + 1 <= k)%nat)
    /\ ((k <= 2)%nat -> exists p', detect_grids (T := spec_float) p = Ok ([], p')).
Proof. exact (greyscale_room w h fill k). Qed.
Print Assumptions C69_greyscale.

(** The finder pattern of [finder_rows] is the only one there: whatever row crosses it, the right end is in column 7, rows 3 to 5. *)
Definition lone (q : pixel) : Z := if drawing finder_rows (fst q) (snd q) then 1 else 0.

Definition lone_row (y left n1 n2 n3 n4 n5 : Z) : bool :=
  forallb (fun x => negb (lone (x, y) =? 0)) (zrange left (left + n1))
  && forallb (fun x => lone (x, y) =? 0) (zrange (left + n1) (left + n1 + n2))
  && forallb (fun x => negb (lone (x, y) =? 0)) (zrange (left + n1 + n2) (left + n1 + n2 + n3))
  && forallb (fun x => lone (x, y) =? 0) (zrange (left + n1 + n2 + n3) (left + n1 + n2 + n3 + n4)).

Definition lone_sweep : bool :=
  forallb (fun y => forallb (fun left => forallb (fun n1 => forallb (fun n2 => forallb (fun n3 => forallb (fun n4 =>
    implb ((left + n1 + n2 + n3 + n4 <? 9) && lone_row y left n1 n2 n3 n4 1 && negb (lone (left + n1 + n2 + n3 + n4, y) =? 0))
      ((left + n1 + n2 + n3 + n4 =? 7) && (3 <=? y) && (y <=? 5)))
    (zrange 1 6)) (zrange 1 6)) (zrange 1 6)) (zrange 1 6)) (zrange 0 9)) (zrange 0 9).

Lemma lone_at y left stone right : finder_at 9 9 lone y left stone right -> right = 7 /\ 3 <= y <= 5.
Proof.
  intros (Hy & (stop & n1 & n2 & n3 & n4 & n5 & N1 & N2 & N3 & N4 & N5 & L & -> & -> & -> & St & D1 & W1 & D2 & W2 & D3 & _) & _).
  assert (Sw : lone_sweep = true) by (vm_compute; reflexivity). unfold lone_sweep in Sw.
  rewrite forallb_forall in Sw. specialize (Sw y ltac:(apply in_zrange; lia)).
  rewrite forallb_forall in Sw. specialize (Sw left ltac:(apply in_zrange; lia)).
  rewrite forallb_forall in Sw. specialize (Sw n1 ltac:(apply in_zrange; lia)).
  rewrite forallb_forall in Sw. specialize (Sw n2 ltac:(apply in_zrange; lia)).
  rewrite forallb_forall in Sw. specialize (Sw n3 ltac:(apply in_zrange; lia)).
  rewrite forallb_forall in Sw. specialize (Sw n4 ltac:(apply in_zrange; lia)).
  assert (R : lone_row y left n1 n2 n3 n4 1 = true).
  { unfold lone_row. rewrite !andb_true_iff. repeat split; apply forallb_forall; intros x Hx; apply in_zrange in Hx.
    - specialize (D1 x Hx). lia.
    - specialize (W1 x Hx). lia.
    - specialize (D2 x Hx). lia.
    - specialize (W2 x Hx). lia. }
  specialize (D3 (left + n1 + n2 + n3 + n4) ltac:(lia)). rewrite R in Sw. lia.
Qed.

Lemma lone_most : at_most 9 9 lone 1.
Proof.
  intros rings [A B].
  assert (C : forall q, In q rings -> blob 9 9 lone (7, 4) q).
  { intros [x y] I. destruct (A _ I) as (l & s & F). cbn [fst snd] in F. apply lone_at in F as [-> Hy].
    assert (G : forall z, 3 <= z <= 5 -> inside 9 9 (7, z) /\ lone (7, z) <> 0).
    { intros z Hz. split; [unfold inside; cbn; lia|]. assert (z = 3 \/ z = 4 \/ z = 5) as [-> | [-> | ->]] by lia; vm_compute; discriminate. }
    assert (H0 : blob 9 9 lone (7, 4) (7, 4)) by (constructor; apply G; lia).
    assert (y = 3 \/ y = 4 \/ y = 5) as [-> | [-> | ->]] by lia; [|exact H0|]; (eapply linked_step; [exact H0| |apply G; lia]); unfold adjacent; cbn; lia. }
  destruct rings as [|a [|b t]]; [cbn; lia|cbn; lia|exfalso]. inversion B as [|? ? Ab _]; subst. inversion Ab as [|? ? N _]; subst. apply N.
  eapply linked_trans; [apply linked_sym, C; left; reflexivity|apply C; right; left; reflexivity].
Qed.

Example C69_lone {Srt : Sorter spec_float} : at_most 9 9 lone 1 /\ ~ at_most 9 9 lone 0
  /\ exists p p', prepare_from_bitmap 9 9 (drawing finder_rows) = Ok p /\ detect_grids (T := spec_float) p = Ok ([], p').
Proof.
  split; [exact lone_most|]. split.
  - intros H. destruct C46_example as (q & left & stone & A & _). specialize (H [q]). cbn [length] in H.
    assert (P : patterns 9 9 lone [q]).
    { split; [intros q' [<-|[]]; exists left, stone; exact A|]. repeat constructor. }
    specialize (H P). lia.
  - destruct (C69_bitmap 9 9 (drawing finder_rows) 1) as (p & E & _ & D); [lia|lia|exact lone_most|].
    destruct D as (p' & D); [lia|]. exists p, p'. split; [exact E|exact D].
Qed.

(** The row of three symbols of C66: three grids, hence at least seven finder patterns. *)
Example C69_three {Srt : Sorter spec_float} : exists p grids p', reached64 (p_buf p) p /\ im_w (p_buf p) = 256 /\ im_h (p_buf p) = 90
  /\ detect_grids (T := spec_float) p = Ok (grids, p') /\ length grids = 3%nat
  /\ exists rings, patterns 256 90 (pix (p_buf p)) rings /\ (7 <= length rings)%nat.
Proof.
  destruct C66_example_row as (p & Ep & found & ls & p' & Ed & Pm & _ & Fl).
  destruct (bitmap_ok 256 90 (overlay (SheetScan.dots 1) (map pr_mark row_prints)) ltac:(lia) ltac:(lia) ltac:(vm_compute; discriminate)) as (p1 & Ep1 & Pw & Ph & F & _).
  assert (p1 = p) by (unfold out in *; congruence). subst p1.
  assert (R : reached64 (p_buf p) p) by (apply reached_fresh; exact F).
  assert (L : length ls = 3%nat).
  { apply Forall2_len in Fl. rewrite <- Fl, <- (Permutation_length Pm). reflexivity. }
  exists p, ls, p'. split; [exact R|]. split; [exact Pw|]. split; [exact Ph|]. split; [exact Ed|]. split; [exact L|].
  unfold p_w, p_h in *. destruct (C69_room (p_buf p) p ls p' R) as [N|(rings & P & N)]; [lia|lia|exact Ed|subst ls; discriminate L|].
  exists rings. rewrite Pw, Ph in P. split; [exact P|lia].
Qed.

(** Sheets put together from pictures of single symbols. *)
From Verif Require Import Base Lib SpecQR SpecImage SpecScan SpecFinder SpecPicture SpecSheet RenderProofs.
From Coq Require Import ZifyBool.
Open Scope Z_scope.
Set Bullet Behavior "Strict Subproofs".

Section Drawn.
Context (w h : Z) (pic : mark -> Z -> Z -> bool) (ks : list mark) (Dr : forall k, In k ks -> clear_alone w h (pic k) k) (Sp : ForallOrdPairs spaced ks).
Notation drawn := (overlay pic).

(** The square of a mark and the pixels around it. *)
Definition around (k : mark) (q : pixel) : Prop :=
  let e := symbol_size (mk_v k) * mk_m k in mk_ox k - 1 <= fst q <= mk_ox k + e /\ mk_oy k - 1 <= snd q <= mk_oy k + e.

Lemma square_around k q : mark_square k q -> around k q.
Proof using Dr Sp. unfold mark_square, in_square, around. cbv zeta. generalize (symbol_size (mk_v k) * mk_m k). intros; lia. Qed.

Lemma around_own k k' q : In k ks -> In k' ks -> around k q -> mark_square k' q -> k = k'.
Proof using Dr Sp.
  intros H H' A B. destruct (ForallOrdPairs_In Sp k k' H H') as [E|[S|S]]; [exact E| |]; exfalso; revert A B S; unfold spaced, side, around, mark_square, in_square; cbv zeta;
    generalize (symbol_size (mk_v k) * mk_m k) (symbol_size (mk_v k') * mk_m k'); clear; intros; lia.
Qed.

Lemma pic_square k q : In k ks -> ink (pic k) q <> 0 -> mark_square k q.
Proof using Dr Sp.
  intros Hk H. destruct (Dr k Hk) as [_ I]. destruct q as [x y]. apply I. unfold ink in H. cbn [fst snd] in H. destruct (pic k x y); [reflexivity|congruence].
Qed.

Lemma drawn_dark q : ink (drawn ks) q <> 0 <-> exists k, In k ks /\ ink (pic k) q <> 0.
Proof using Dr Sp.
  unfold ink, overlay. split.
  - destruct (existsb _ ks) eqn:E; [|congruence]. intros _. apply existsb_exists in E as (k & Hk & E). exists k. rewrite E. split; [exact Hk|discriminate].
  - intros (k & Hk & E). replace (existsb _ ks) with true; [discriminate|]. symmetry. apply existsb_exists. exists k. split; [exact Hk|].
    destruct (pic k (fst q) (snd q)); [reflexivity|congruence].
Qed.

(** Around a symbol, only the symbol is seen. *)
Lemma drawn_around k q : In k ks -> around k q -> ink (drawn ks) q = ink (pic k) q.
Proof using Dr Sp.
  intros Hk A. assert (Q : ink (drawn ks) q <> 0 <-> ink (pic k) q <> 0).
  { rewrite drawn_dark. split; [|exists k; auto]. intros (k' & Hk' & D). rewrite (around_own k k' q Hk Hk' A (pic_square k' q Hk' D)). exact D. }
  revert Q. unfold ink. destruct (drawn ks (fst q) (snd q)), (pic k (fst q) (snd q)); intros [Q1 Q2]; try reflexivity; exfalso.
  - apply Q1; [discriminate|reflexivity].
  - apply Q2; [discriminate|reflexivity].
Qed.

Lemma next_around k q q' : mark_square k q -> adjacent q q' -> around k q'.
Proof using Dr Sp. unfold adjacent, mark_square, in_square, around. cbv zeta. generalize (symbol_size (mk_v k) * mk_m k). intros; lia. Qed.

(** The connected regions of the sheet are those of the symbols. *)
Lemma drawn_blob k p q : In k ks -> mark_square k p -> blob w h (ink (drawn ks)) p q -> mark_square k q /\ blob w h (ink (pic k)) p q.
Proof using Dr Sp.
  intros Hk Hp B. unfold blob in B. induction B as [[I Q]|q q' L IH A [I Q]].
  - split; [exact Hp|]. apply linked_here. split; [exact I|]. rewrite <- (drawn_around k p Hk (square_around k p Hp)). exact Q.
  - destruct IH as [Hq IH]. pose proof (next_around k q q' Hq A) as Aq. rewrite (drawn_around k q' Hk Aq) in Q.
    split; [apply (pic_square k q' Hk Q)|]. eapply linked_step; [exact IH|exact A|]. split; assumption.
Qed.

Lemma blob_drawn k p q : In k ks -> blob w h (ink (pic k)) p q -> blob w h (ink (drawn ks)) p q.
Proof using Dr Sp.
  intros Hk. apply linked_ext. intros q' [I Q]. split; [exact I|]. rewrite (drawn_around k q' Hk (square_around k q' (pic_square k q' Hk Q))). exact Q.
Qed.

Lemma blob_own k p q : In k ks -> mark_square k p -> blob w h (ink (drawn ks)) p q <-> blob w h (ink (pic k)) p q.
Proof using Dr Sp. intros Hk Hp. split; [intros B; apply (drawn_blob k p q Hk Hp B)|apply blob_drawn; exact Hk]. Qed.

Lemma drawn_legible k : In k ks -> legible w h (ink (drawn ks)) (mk_v k) (mk_sym k) (mk_m k) (mk_ox k) (mk_oy k) (mk_r k).
Proof using Dr Sp.
  intros Hk. destruct (Dr k Hk) as [[_ _ _ _ _ _ [A1 A2 A3 A4 A5 A6 A7] _] _]. constructor; try assumption.
  - intros q Hq. rewrite (drawn_around k q Hk (square_around k q Hq)). apply A6. exact Hq.
  - intros q q' I N F X Y. rewrite (drawn_around k q Hk); [apply (A7 q q'); assumption|]. destruct F as [[S1 S2] _]. unfold around. cbv zeta. clear - S1 S2 X Y. lia.
Qed.

Lemma drawn_row k y left stone right stop : In k ks -> mark_square k (left, y) -> mark_square k (right, y) -> finder_row w (ink (drawn ks)) y left stone right stop ->
  finder_row w (ink (pic k)) y left stone right stop /\ mark_square k (stone, y).
Proof using Dr Sp.
  intros Hk Hl Hr (n1 & n2 & n3 & n4 & n5 & P1 & P2 & P3 & P4 & P5 & L0 & Es & Er & Ex & Lw & D1 & D2 & D3 & D4 & D5 & El & Et & Ra).
  assert (Mid : forall x, left <= x <= right -> mark_square k (x, y)).
  { intros x Hx. revert Hl Hr. unfold mark_square, in_square. cbn [fst snd]. generalize (symbol_size (mk_v k) * mk_m k). clear - Hx. intros; lia. }
  assert (Tail : forall i, 0 <= i < n5 -> mark_square k (right + i, y)).
  { intros i [Hi0 Hi1]. revert Hi1. pattern i. apply natlike_ind; [|clear i Hi0|exact Hi0].
    - intros _. rewrite Z.add_0_r. exact Hr.
    - intros i Hi IH Hi1. specialize (IH ltac:(lia)). apply pic_square; [exact Hk|]. rewrite <- (drawn_around k (right + Z.succ i, y) Hk (next_around k (right + i, y) (right + Z.succ i, y) IH ltac:(unfold adjacent; cbn [fst snd]; lia))).
      apply D5. lia. }
  assert (Sq : forall x, left <= x < stop -> mark_square k (x, y)).
  { intros x Hx. destruct (Z_le_gt_dec x right); [apply Mid; lia|]. replace x with (right + (x - right)) by ring. apply Tail. lia. }
  assert (Same : forall x, left <= x < stop -> ink (drawn ks) (x, y) = ink (pic k) (x, y)) by (intros x Hx; apply (drawn_around k _ Hk); apply square_around; apply Sq; exact Hx).
  assert (Wh : forall q, ink (drawn ks) q = 0 -> ink (pic k) q = 0).
  { intros q Hq. destruct (Z.eq_dec (ink (pic k) q) 0) as [E|E]; [exact E|]. exfalso. apply (proj2 (drawn_dark q) (ex_intro _ k (conj Hk E))). exact Hq. }
  split; [|apply Mid; lia]. exists n1, n2, n3, n4, n5. repeat (split; [first [assumption|lia]|]).
  split; [intros x Hx; rewrite <- Same by lia; apply D1; exact Hx|]. split; [intros x Hx; rewrite <- Same by lia; apply D2; exact Hx|].
  split; [intros x Hx; rewrite <- Same by lia; apply D3; exact Hx|]. split; [intros x Hx; rewrite <- Same by lia; apply D4; exact Hx|].
  split; [intros x Hx; rewrite <- Same by lia; apply D5; exact Hx|].
  split; [destruct El as [El|El]; [left; exact El|right; apply Wh; exact El]|]. split; [destruct Et as [Et|Et]; [left; exact Et|right; apply Wh; exact Et]|exact Ra].
Qed.

(** What looks like a finder pattern on the sheet does so in the picture of one symbol. *)
Lemma drawn_finder y left stone right : finder_at w h (ink (drawn ks)) y left stone right ->
  exists k, In k ks /\ finder_at w h (ink (pic k)) y left stone right.
Proof using Dr Sp.
  intros (Hy & (stop & Row) & Bl & Bs & ring & inner & Ar & Ai & Rt).
  pose proof (linked_S _ _ _ Bl) as [_ Dl].
  assert (Drk : ink (drawn ks) (right, y) <> 0).
  { destruct Row as (n1 & n2 & n3 & n4 & n5 & _ & _ & _ & _ & P5 & _ & _ & _ & _ & _ & _ & _ & _ & _ & D5 & _). apply D5. lia. }
  apply drawn_dark in Drk as (k & Hk & Dk). apply pic_square in Dk; [|exact Hk]. exists k. split; [exact Hk|].
  destruct (drawn_blob k _ _ Hk Dk Bl) as [Hl Bl']. destruct (drawn_row k y left stone right stop Hk Hl Dk Row) as [Row' Hs].
  split; [exact Hy|]. split; [exists stop; exact Row'|]. split; [exact Bl'|]. split; [rewrite <- (blob_own k _ _ Hk Dk); exact Bs|].
  exists ring, inner. split; [revert Ar; apply area_ext; intros q; apply (blob_own k _ _ Hk Dk)|].
  split; [revert Ai; apply area_ext; intros q; apply (blob_own k _ _ Hk Hs)|exact Rt].
Qed.

Theorem overlay_fair : 1 <= w <= 32768 -> 1 <= h <= 32768 -> fair_sheet w h (ink (drawn ks)) ks.
Proof using Dr Sp.
  intros Hw Hh. constructor; try assumption.
  - intros k Hk. destruct (Dr k Hk) as [[_ _ B1 B2 B3 B4 _ _] _]. constructor; try assumption. apply drawn_legible. exact Hk.
  - revert Sp. clear. generalize ks. intros l Sq. induction Sq as [|k l A O IH]; [constructor|]. constructor; [|exact IH]. eapply Forall_impl; [|exact A]. intros k' S q B B'. revert S B B'.
    unfold spaced, side, mark_square, in_square. generalize (symbol_size (mk_v k) * mk_m k) (symbol_size (mk_v k') * mk_m k'). clear. intros; lia.
  - intros y left stone right F. destruct (drawn_finder y left stone right F) as (k & Hk & Fk). exists k. split; [exact Hk|].
    destruct (Dr k Hk) as [[_ _ _ _ _ _ _ Only] _]. exact (Only y left stone right Fk).
Qed.

Theorem overlay_clear : 1 <= w <= 32768 -> 1 <= h <= 32768 -> orderly ks -> clear_sheet w h (ink (drawn ks)) ks.
Proof using Dr Sp. intros Hw Hh O. split; [exact (overlay_fair Hw Hh)|exact O]. Qed.
End Drawn.

(** Symbols drawn as usual, or with dots. *)
Lemma rendered_alone w h k : clear_picture w h (ink (rendered (symbol_size (mk_v k)) (mk_sym k) (mk_m k) (mk_ox k) (mk_oy k) (mk_r k))) (mk_v k) (mk_sym k) (mk_m k) (mk_ox k) (mk_oy k) (mk_r k) ->
  clear_alone w h (rendered (symbol_size (mk_v k)) (mk_sym k) (mk_m k) (mk_ox k) (mk_oy k) (mk_r k)) k.
Proof.
  intros C. split; [exact C|]. intros x y. unfold rendered, mark_square, in_square. cbn [fst snd]. generalize (symbol_size (mk_v k) * mk_m k). intros e H.
  apply andb_prop in H as [H _]. lia.
Qed.

Lemma dotted_alone w h d k : clear_picture w h (ink (dotted (mk_v k) (mk_sym k) (mk_m k) d (mk_ox k) (mk_oy k) (mk_r k))) (mk_v k) (mk_sym k) (mk_m k) (mk_ox k) (mk_oy k) (mk_r k) ->
  clear_alone w h (dotted (mk_v k) (mk_sym k) (mk_m k) d (mk_ox k) (mk_oy k) (mk_r k)) k.
Proof.
  intros C. split; [exact C|]. intros x y. unfold dotted, mark_square, in_square. cbv zeta. cbn [fst snd]. generalize (symbol_size (mk_v k) * mk_m k). intros e H.
  apply andb_prop in H as [H _]. apply andb_prop in H as [H _]. lia.
Qed.

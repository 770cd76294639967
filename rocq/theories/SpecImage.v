(** Vocabulary of the image properties: pixels, 4-connectivity, areas, rows.

    Independent of the model: a picture is a width, a height and a function. *)
From Coq Require Import List ZArith Lia FinFun.
Import ListNotations.
Open Scope Z_scope.

Definition pixel : Type := Z * Z.          (* (x, y) *)

Definition inside (w h : Z) (q : pixel) : Prop := 0 <= fst q < w /\ 0 <= snd q < h.

(** Horizontal or vertical neighbours. *)
Definition adjacent (p q : pixel) : Prop :=
  Z.abs (fst p - fst q) + Z.abs (snd p - snd q) = 1.

(** [q] can be reached from [p] by steps between adjacent pixels of [S]. *)
Inductive linked (S : pixel -> Prop) (p : pixel) : pixel -> Prop :=
| linked_here : S p -> linked S p p
| linked_step q r : linked S p q -> adjacent q r -> S r -> linked S p r.

(** The connected component of [p]: pixels of [p]'s colour reachable from it. *)
Definition component (w h : Z) (col : pixel -> Z) (p : pixel) : pixel -> Prop :=
  linked (fun q => inside w h q /\ col q = col p) p.

(** The pixels that are not of colour 0 (white) reachable from [p]. *)
Definition blob (w h : Z) (col : pixel -> Z) (p : pixel) : pixel -> Prop :=
  linked (fun q => inside w h q /\ col q <> 0) p.

(** [P] has exactly [n] elements. *)
Definition area (P : pixel -> Prop) (n : Z) : Prop :=
  exists l, NoDup l /\ (forall q, In q l <-> P q) /\ Z.of_nat (length l) = n.

(** The pixels of the row segment (left, right, y). *)
Definition segment (l r y : Z) : list pixel :=
  map (fun k => (l + Z.of_nat k, y)) (seq 0 (Z.to_nat (r + 1 - l))).

Lemma in_segment l r y q : In q (segment l r y) <-> snd q = y /\ l <= fst q <= r.
Proof.
  unfold segment. rewrite in_map_iff. split.
  - intros [k [<- Hk]]. apply in_seq in Hk. cbn. lia.
  - intros [H1 H2]. destruct q as [x y']. cbn in *. subst y'. exists (Z.to_nat (x - l)).
    split; [f_equal; lia|]. apply in_seq. lia.
Qed.

Lemma segment_nodup l r y : NoDup (segment l r y).
Proof.
  apply Injective_map_NoDup; [|apply seq_NoDup].
  intros a b H. injection H as H. lia.
Qed.

Lemma linked_S S p q : linked S p q -> S q.
Proof. destruct 1; assumption. Qed.

Lemma linked_start S p q : linked S p q -> S p.
Proof. induction 1; assumption. Qed.

Lemma linked_trans S p q r : linked S p q -> linked S q r -> linked S p r.
Proof. intros H1 H2. induction H2; [assumption|]. eapply linked_step; eauto. Qed.

Lemma adjacent_sym p q : adjacent p q -> adjacent q p.
Proof. unfold adjacent. lia. Qed.

Lemma linked_sym S p q : linked S p q -> linked S q p.
Proof.
  intros H. induction H as [H|q r Hl IH Ha Hr]; [constructor; assumption|].
  eapply linked_trans; [|exact IH].
  eapply linked_step; [apply linked_here; assumption|apply adjacent_sym; assumption|].
  eapply linked_S; eassumption.
Qed.

Lemma linked_ext (S S' : pixel -> Prop) p q : (forall r, S r -> S' r) -> linked S p q -> linked S' p q.
Proof. intros H L. induction L; [constructor; auto|eapply linked_step; eauto]. Qed.

(** A set closed under neighbours inside [S] which contains [p] contains everything linked to [p]. *)
Lemma linked_closed (S D : pixel -> Prop) p q :
  D p -> (forall a b, D a -> S a -> S b -> adjacent a b -> D b) -> linked S p q -> D q.
Proof.
  intros Hp Hc L. induction L as [H|q r L IH Ha Hr]; [assumption|].
  apply (Hc q r IH); [eapply linked_S; eassumption|assumption|assumption].
Qed.

Lemma area_unique P n m : area P n -> area P m -> n = m.
Proof.
  intros [l [Hn [Hi <-]]] [l' [Hn' [Hi' <-]]]. f_equal. apply Nat.le_antisymm.
  - apply NoDup_incl_length; [assumption|]. intros q Hq. apply Hi', Hi, Hq.
  - apply NoDup_incl_length; [assumption|]. intros q Hq. apply Hi, Hi', Hq.
Qed.

Lemma area_ext P Q n : (forall q, P q <-> Q q) -> area P n -> area Q n.
Proof. intros H [l [Hn [Hi Hl]]]. exists l. split; [assumption|]. split; [|assumption]. intros q. rewrite Hi. apply H. Qed.

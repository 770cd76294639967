(** Vocabulary of the row search: runs of equal values and the finder ratio. *)
From Coq Require Import List ZArith Lia Bool.
Import ListNotations.
Open Scope Z_scope.

Section Runs.
Context {A : Type} (eqb : A -> A -> bool).

(** The maximal runs of equal values of a list, with their lengths, in order. *)
Fixpoint runs (l : list A) : list (A * Z) :=
  match l with
  | [] => []
  | a :: t =>
      match runs t with
      | (b, n) :: r => if eqb a b then (b, n + 1) :: r else (a, 1) :: (b, n) :: r
      | [] => [(a, 1)]
      end
  end.

(** The number of values in a list of runs: the column at which the next one starts. *)
Definition width (l : list (A * Z)) : Z := fold_right (fun r s => snd r + s) 0 l.

End Runs.

(** 1 : 1 : 3 : 1 : 1, each length off by at most three quarters of the mean of
    the four outer ones (integer division). *)
Definition finder_ratio (n1 n2 n3 n4 n5 : Z) : Prop :=
  let m := (n1 + n2 + n4 + n5) / 4 in
  let e := m * 3 / 4 in
  Z.abs (n1 - m) <= e /\ Z.abs (n2 - m) <= e /\ Z.abs (n3 - 3 * m) <= e
  /\ Z.abs (n4 - m) <= e /\ Z.abs (n5 - m) <= e.

Section Facts.
Context {A : Type} (eqb : A -> A -> bool) (eqb_ok : forall a b, eqb a b = true <-> a = b).
Notation runs := (runs eqb).

Lemma width_app l l' : width (A := A) (l ++ l') = width l + width l'.
Proof. unfold width. induction l as [|r l IH]; cbn; [lia|]. rewrite IH. lia. Qed.

Lemma runs_pos l : forall r, In r (runs l) -> 1 <= snd r.
Proof.
  induction l as [|a l IH]; cbn; [contradiction|].
  destruct (runs l) as [|[b n] t] eqn:E; cbn.
  - intros r [<-|[]]. cbn. lia.
  - assert (Hn : 1 <= n) by (apply (IH (b, n)); left; reflexivity).
    destruct (eqb a b); intros r [<-|H]; cbn; try lia; apply IH; cbn; cbn in H; tauto.
Qed.

Lemma runs_width l : width (runs l) = Z.of_nat (length l).
Proof.
  induction l as [|a l IH]; [reflexivity|]. cbn [SpecScan.runs length].
  destruct (runs l) as [|[b n] t] eqn:E; unfold width in *; cbn [fold_right snd] in *.
  - lia.
  - destruct (eqb a b); cbn [fold_right snd]; lia.
Qed.

Lemma runs_nil l : runs l = [] -> l = [].
Proof. destruct l as [|a l]; [reflexivity|]. cbn. destruct (runs l) as [|[b n] t]; [|destruct (eqb a b)]; discriminate. Qed.

Lemma runs_head a l : exists n t, runs (a :: l) = (a, n) :: t.
Proof.
  cbn. destruct (runs l) as [|[b n] t]; [eauto|]. destruct (eqb a b) eqn:E; [|eauto].
  apply eqb_ok in E. subst. eauto.
Qed.

(** The values of a run. *)
Lemma runs_values l : forall pre k n post, runs l = pre ++ (k, n) :: post ->
  forall i, width pre <= i < width pre + n -> nth_error l (Z.to_nat i) = Some k.
Proof.
  induction l as [|a l IH]; intros pre k n post.
  - cbn. intros H. destruct pre; discriminate.
  - cbn. destruct (runs l) as [|[b m] t] eqn:E.
    + apply runs_nil in E. subst l. intros H i Hi. destruct pre as [|r pre].
      * injection H as <- <- <-. cbn in Hi. replace i with 0 by lia. reflexivity.
      * injection H as _ H. destruct pre; discriminate.
    + assert (Hm : 1 <= m) by (apply (runs_pos l (b, m)); rewrite E; left; reflexivity).
      assert (Pp : forall p p', (b, m) :: t = p ++ p' -> 0 <= width p).
      { intros p p' H. assert (F : forall r, In r p -> 1 <= snd r).
        { intros r Hr. apply (runs_pos l). rewrite E, H. apply in_or_app. left. assumption. }
        clear - F. induction p as [|r p IHp]; cbn; [lia|].
        specialize (IHp (fun r' H' => F r' (or_intror H'))). specialize (F r (or_introl eq_refl)). unfold width in *. lia. }
      destruct (eqb a b) eqn:Eab; intros H i Hi.
      * apply eqb_ok in Eab. subst b. destruct pre as [|r pre].
        -- injection H as <- <- <-. cbn in Hi. destruct (Z.eq_dec i 0) as [->|Hi0]; [reflexivity|].
           replace (Z.to_nat i) with (S (Z.to_nat (i - 1))) by lia. cbn.
           apply (IH [] a m t); [reflexivity|]. cbn. lia.
        -- injection H as <- H. unfold width in Hi. cbn [fold_right snd] in Hi. fold (width pre) in Hi.
           assert (0 <= width pre).
           { assert (0 <= width ((a, m) :: pre)) as Q by (apply (Pp ((a, m) :: pre) ((k, n) :: post)); cbn; f_equal; exact H).
             assert (forall r, In r pre -> 1 <= snd r) as F.
             { intros r Hr. apply (runs_pos l). rewrite E, H. right. apply in_or_app. left. assumption. }
             clear - F. induction pre as [|r p IHp]; cbn; [lia|].
             specialize (IHp (fun r' H' => F r' (or_intror H'))). specialize (F r (or_introl eq_refl)). unfold width in *. lia. }
           replace (Z.to_nat i) with (S (Z.to_nat (i - 1))) by lia. cbn.
           apply (IH ((a, m) :: pre) k n post); [cbn; f_equal; exact H|]. unfold width. cbn [fold_right snd]. fold (width pre). lia.
      * destruct pre as [|r pre].
        -- injection H as <- <- <-. cbn in Hi. replace i with 0 by lia. reflexivity.
        -- injection H as <- H. unfold width in Hi. cbn [fold_right snd] in Hi. fold (width pre) in Hi.
           specialize (Pp _ _ H). replace (Z.to_nat i) with (S (Z.to_nat (i - 1))) by lia. cbn.
           apply (IH pre k n post); [exact H|]. lia.
Qed.

(** Neighbouring runs differ. *)
Lemma runs_alternate l : forall pre k n k' n' post, runs l = pre ++ (k, n) :: (k', n') :: post -> k <> k'.
Proof.
  induction l as [|a l IH]; intros pre k n k' n' post; cbn.
  - destruct pre; discriminate.
  - destruct (runs l) as [|[b m] t] eqn:E.
    + destruct pre as [|r pre]; [discriminate|]. intros H. injection H as _ H. destruct pre; discriminate.
    + destruct (eqb a b) eqn:Eab.
      * destruct pre as [|r pre]; intros H.
        -- injection H as <- <- H. apply (IH [] b m k' n' post). cbn. congruence.
        -- injection H as <- H. apply (IH ((b, m) :: pre) k n k' n' post). cbn. congruence.
      * destruct pre as [|r pre]; intros H.
        -- injection H as <- <- <- <- H. intros X. apply eqb_ok in X. congruence.
        -- injection H as <- H. apply (IH pre k n k' n' post). exact H.
Qed.

(** One more value. *)
Lemma runs_snoc l : forall a, l <> [] -> exists pre k n, runs l = pre ++ [(k, n)] /\
  runs (l ++ [a]) = if eqb k a then pre ++ [(k, n + 1)] else pre ++ [(k, n); (a, 1)].
Proof.
  induction l as [|b l IH]; intros a H; [contradiction|].
  destruct l as [|c l].
  - cbn. exists [], b, 1. split; [reflexivity|]. destruct (eqb b a) eqn:E; [|reflexivity].
    apply eqb_ok in E. subst. reflexivity.
  - destruct (IH a ltac:(discriminate)) as (pre & k & n & E1 & E2).
    set (l' := c :: l) in *. cbn [app SpecScan.runs]. rewrite E1, E2. destruct pre as [|[d m] pre].
    + cbn. destruct (eqb b k) eqn:E.
      * exists [], k, (n + 1). split; [reflexivity|]. destruct (eqb k a) eqn:E'; cbn; rewrite E; reflexivity.
      * exists [(b, 1)], k, n. split; [reflexivity|]. destruct (eqb k a) eqn:E'; cbn; rewrite E; reflexivity.
    + cbn. destruct (eqb b d) eqn:E.
      * exists ((d, m + 1) :: pre), k, n. split; [reflexivity|]. destruct (eqb k a) eqn:E'; cbn; rewrite E; reflexivity.
      * exists ((b, 1) :: (d, m) :: pre), k, n. split; [reflexivity|]. destruct (eqb k a) eqn:E'; cbn; rewrite E; reflexivity.
Qed.

End Facts.

(** Lemmas about the vocabulary of Base.v. *)
From Verif Require Import Base.
From Coq Require Import ZifyBool ZifyNat ZifyN.
Ltac Zify.zify_post_hook ::= Z.div_mod_to_equations.

Set Implicit Arguments.

Definition res_map {E A B} (f : A -> B) (r : res E A) : res E B :=
  match r with Ok a => Ok (f a) | Err e => Err e | Panic => Panic | Diverge => Diverge end.

Lemma bind_assoc {E A B C} (m : res E A) (k : A -> res E B) (q : B -> res E C) :
  bind (bind m k) q = bind m (fun x => bind (k x) q).
Proof. destruct m; reflexivity. Qed.

Lemma bind_ok_inv {E A B} (m : res E A) (k : A -> res E B) b :
  bind m k = Ok b -> exists a, m = Ok a /\ k a = Ok b.
Proof. destruct m; cbn; intros H; try discriminate. eauto. Qed.

Lemma bind_res_map {E A B C} (f : A -> B) (m : res E A) (k : B -> res E C) :
  bind (res_map f m) k = bind m (fun a => k (f a)).
Proof. destruct m; reflexivity. Qed.

Lemma res_map_bind {E A B C} (f : B -> C) (m : res E A) (k : A -> res E B) :
  res_map f (bind m k) = bind m (fun a => res_map f (k a)).
Proof. destruct m; reflexivity. Qed.

Lemma bind_ext {E A B} (m : res E A) (k k' : A -> res E B) :
  (forall a, m = Ok a -> k a = k' a) -> bind m k = bind m k'.
Proof. destruct m; cbn; intros H; auto. Qed.

(** * Arrays *)

Lemma length_upd {A} (l : list A) i v : length (upd l i v) = length l.
Proof. revert i; induction l as [|a l IH]; intros [|i]; cbn; auto. Qed.

Lemma nth_upd {A} (l : list A) i j v d : (i < length l)%nat ->
  nth j (upd l i v) d = if Nat.eqb j i then v else nth j l d.
Proof.
  revert i j; induction l as [|a l IH]; intros [|i] j H; cbn in *; try lia.
  - destruct j; reflexivity.
  - destruct j; cbn; [reflexivity|]. apply IH. lia.
Qed.

Lemma upd_map {A B} (f : A -> B) l i v : upd (map f l) i (f v) = map f (upd l i v).
Proof. revert i; induction l as [|a l IH]; intros [|i]; cbn; congruence. Qed.

Lemma aget_ok {E A} (l : list A) i d : (i < length l)%nat -> @aget E A l i = Ok (nth i l d).
Proof. intros H. unfold aget. rewrite (nth_error_nth' l d H). reflexivity. Qed.

Lemma aget_inv {E A} (l : list A) i a d : @aget E A l i = Ok a -> (i < length l)%nat /\ a = nth i l d.
Proof.
  unfold aget. destruct (nth_error l i) as [b|] eqn:Hn; [|discriminate].
  intros [= <-]. split. { apply nth_error_Some. congruence. }
  symmetry. apply nth_error_nth. exact Hn.
Qed.

Lemma aget_panic {E A} (l : list A) i : (length l <= i)%nat -> @aget E A l i = Panic.
Proof. intros H. unfold aget. apply nth_error_None in H. rewrite H. reflexivity. Qed.

Lemma aset_ok {E A} (l : list A) i v : (i < length l)%nat -> @aset E A l i v = Ok (upd l i v).
Proof. intros H. unfold aset. apply Nat.ltb_lt in H. rewrite H. reflexivity. Qed.

Lemma aget_map {E A B} (f : A -> B) l i : @aget E B (map f l) i = res_map f (aget l i).
Proof. unfold aget. rewrite nth_error_map. destruct (nth_error l i); reflexivity. Qed.

Lemma aset_map {E A B} (f : A -> B) l i v :
  @aset E B (map f l) i (f v) = res_map (map f) (aset l i v).
Proof.
  unfold aset. rewrite map_length. destruct (_ <? _)%nat; cbn; [|reflexivity].
  rewrite upd_map. reflexivity.
Qed.

(** * Loops *)

Lemma range_cons lo hi : (lo < hi)%nat -> range lo hi = lo :: range (S lo) hi.
Proof. intros H. unfold range. replace (hi - lo)%nat with (S (hi - S lo)) by lia. reflexivity. Qed.

Lemma range_nil lo hi : (hi <= lo)%nat -> range lo hi = [].
Proof. intros H. unfold range. replace (hi - lo)%nat with O by lia. reflexivity. Qed.

Lemma range_snoc lo hi : (lo <= hi)%nat -> range lo (S hi) = range lo hi ++ [hi].
Proof.
  intros H. unfold range. replace (S hi - lo)%nat with (S (hi - lo)) by lia.
  rewrite seq_S. do 2 f_equal. lia.
Qed.

Lemma in_range_iff lo hi i : In i (range lo hi) <-> (lo <= i < hi)%nat.
Proof. unfold range. rewrite in_seq. lia. Qed.

Lemma for_each_app {E I St} (l1 l2 : list I) (body : I -> St -> res E St) s :
  for_each (l1 ++ l2) body s = let* s' := for_each l1 body s in for_each l2 body s'.
Proof.
  revert s; induction l1 as [|i l1 IH]; intros s; cbn; [reflexivity|].
  rewrite bind_assoc. apply bind_ext. intros a _. apply IH.
Qed.

Lemma for_each_ext {E I St} (l : list I) (body body' : I -> St -> res E St) s :
  (forall i s, In i l -> body i s = body' i s) ->
  for_each l body s = for_each l body' s.
Proof.
  revert s; induction l as [|i l IH]; intros s H; cbn; [reflexivity|].
  rewrite H by (left; reflexivity). apply bind_ext. intros a _. apply IH.
  intros; apply H; right; assumption.
Qed.

Lemma for_each_map {E I J St} (g : J -> I) (l : list J) (body : I -> St -> res E St) s :
  for_each (map g l) body s = for_each l (fun j => body (g j)) s.
Proof.
  revert s; induction l as [|i l IH]; intros s; cbn; [reflexivity|].
  apply bind_ext; intros; apply IH.
Qed.

(** Loop invariant, success: the state after the indices below [i] satisfies [P i]. *)
Lemma for_range_ok {E St} (P : nat -> St -> Prop) (body : nat -> St -> res E St) lo hi s :
  (lo <= hi)%nat -> P lo s ->
  (forall i s, (lo <= i < hi)%nat -> P i s -> exists s', body i s = Ok s' /\ P (i + 1)%nat s') ->
  exists s', for_each (range lo hi) body s = Ok s' /\ P hi s'.
Proof.
  intros Hle. remember (hi - lo)%nat as n eqn:Hn. revert lo s Hle Hn.
  induction n as [|n IH]; intros lo s Hle Hn HP Hb.
  - rewrite range_nil by lia. exists s. split; [reflexivity|]. replace hi with lo by lia. exact HP.
  - rewrite range_cons by lia. cbn.
    destruct (Hb lo s ltac:(lia) HP) as (s' & -> & HP'). cbn.
    apply IH; try lia.
    + replace (S lo) with (lo + 1)%nat by lia. exact HP'.
    + intros i s0 Hi. apply Hb. lia.
Qed.

(** Loop invariant when the body may also return an error. *)
Lemma for_range_ret {E St} (P : nat -> St -> Prop) (body : nat -> St -> res E St) lo hi s :
  (lo <= hi)%nat -> P lo s ->
  (forall i s, (lo <= i < hi)%nat -> P i s ->
     (exists s', body i s = Ok s' /\ P (i + 1)%nat s') \/ (exists e, body i s = Err e)) ->
  (exists s', for_each (range lo hi) body s = Ok s' /\ P hi s')
  \/ (exists e, for_each (range lo hi) body s = Err e).
Proof.
  intros Hle. remember (hi - lo)%nat as n eqn:Hn. revert lo s Hle Hn.
  induction n as [|n IH]; intros lo s Hle Hn HP Hb.
  - left. rewrite range_nil by lia. exists s. split; [reflexivity|].
    replace hi with lo by lia. exact HP.
  - rewrite range_cons by lia. cbn.
    destruct (Hb lo s ltac:(lia) HP) as [(s' & -> & HP')|(e & ->)]; cbn.
    + apply IH; try lia.
      * replace (S lo) with (lo + 1)%nat by lia. exact HP'.
      * intros i s0 Hi. apply Hb. lia.
    + right. eauto.
Qed.

Lemma for_list_ret {E I St} (P : St -> Prop) (l : list I) (body : I -> St -> res E St) s :
  P s ->
  (forall i s, In i l -> P s -> (exists s', body i s = Ok s' /\ P s') \/ (exists e, body i s = Err e)) ->
  (exists s', for_each l body s = Ok s' /\ P s') \/ (exists e, for_each l body s = Err e).
Proof.
  revert s; induction l as [|i l IH]; intros s HP Hb; cbn.
  - left; eauto.
  - destruct (Hb i s (or_introl eq_refl) HP) as [(s' & -> & HP')|(e & ->)]; cbn.
    + apply IH; auto. intros; apply Hb; auto. right; assumption.
    + right; eauto.
Qed.

Lemma for_list_ok {E I St} (P : St -> Prop) (l : list I) (body : I -> St -> res E St) s :
  P s ->
  (forall i s, In i l -> P s -> exists s', body i s = Ok s' /\ P s') ->
  exists s', for_each l body s = Ok s' /\ P s'.
Proof.
  revert s; induction l as [|i l IH]; intros s HP Hb; cbn.
  - eauto.
  - destruct (Hb i s (or_introl eq_refl) HP) as (s' & -> & HP'); cbn.
    apply IH; auto. intros; apply Hb; auto. right; assumption.
Qed.

(** If the loop succeeded, an invariant preserved by the successful iterations holds at the end. *)
Lemma for_range_inv {E St} (P : nat -> St -> Prop) (body : nat -> St -> res E St) lo hi s s' :
  (lo <= hi)%nat -> P lo s ->
  (forall i s t, (lo <= i < hi)%nat -> P i s -> body i s = Ok t -> P (i + 1)%nat t) ->
  for_each (range lo hi) body s = Ok s' -> P hi s'.
Proof.
  intros Hle. remember (hi - lo)%nat as n eqn:Hn. revert lo s Hle Hn.
  induction n as [|n IH]; intros lo s Hle Hn HP Hb.
  - rewrite range_nil by lia. intros [= <-]. replace hi with lo by lia. exact HP.
  - rewrite range_cons by lia. cbn. intros H.
    apply bind_ok_inv in H. destruct H as (t & Ht & H).
    apply (IH (S lo) t); try lia; auto.
    + replace (S lo) with (lo + 1)%nat by lia. eapply Hb; eauto. lia.
    + intros i s0 t0 Hi. apply Hb. lia.
Qed.

Lemma for_list_inv {E I St} (P : St -> Prop) (l : list I) (body : I -> St -> res E St) s s' :
  P s ->
  (forall i s t, In i l -> P s -> body i s = Ok t -> P t) ->
  for_each l body s = Ok s' -> P s'.
Proof.
  revert s; induction l as [|i l IH]; intros s HP Hb; cbn.
  - intros [= <-]; assumption.
  - intros H. apply bind_ok_inv in H. destruct H as (t & Ht & H).
    apply (IH t); auto.
    + apply (Hb i s); auto. left; reflexivity.
    + intros j s0 t0 Hj; apply Hb; right; exact Hj.
Qed.

(** Two loops in lockstep under a change of representation [f] of the state. *)
Lemma for_each_transport {E I St St'} (f : St -> St') (l : list I)
  (body : I -> St -> res E St) (body' : I -> St' -> res E St') s :
  (forall i s, In i l -> body' i (f s) = res_map f (body i s)) ->
  for_each l body' (f s) = res_map f (for_each l body s).
Proof.
  revert s; induction l as [|i l IH]; intros s H; cbn; [reflexivity|].
  rewrite H by (left; reflexivity). rewrite bind_res_map, res_map_bind.
  apply bind_ext. intros a _. apply IH. intros; apply H; right; assumption.
Qed.

(** * [zrange] *)

Lemma in_zrange lo hi k : In k (zrange lo hi) <-> lo <= k < hi.
Proof.
  unfold zrange. rewrite in_map_iff. split.
  - intros (n & <- & Hn). apply in_seq in Hn. lia.
  - intros H. exists (Z.to_nat (k - lo)). rewrite in_seq. lia.
Qed.

Lemma zrange_cons lo hi : lo < hi -> zrange lo hi = lo :: zrange (lo + 1) hi.
Proof.
  intros H. unfold zrange. replace (Z.to_nat (hi - lo)) with (S (Z.to_nat (hi - (lo + 1)))) by lia.
  cbn [seq map]. f_equal; [lia|]. rewrite <- seq_shift, map_map. apply map_ext. intros; lia.
Qed.

Lemma zrange_nil lo hi : hi <= lo -> zrange lo hi = [].
Proof. intros H. unfold zrange. replace (Z.to_nat (hi - lo)) with O by lia. reflexivity. Qed.

Lemma length_zrange lo hi : length (zrange lo hi) = Z.to_nat (hi - lo).
Proof. unfold zrange. rewrite map_length, seq_length. reflexivity. Qed.

Lemma nth_zrange lo hi n d : (n < Z.to_nat (hi - lo))%nat -> nth n (zrange lo hi) d = lo + Z.of_nat n.
Proof.
  intros H. unfold zrange.
  rewrite (nth_indep _ d (lo + Z.of_nat 0)) by (rewrite map_length, seq_length; exact H).
  rewrite (map_nth (fun k => lo + Z.of_nat k)), seq_nth by exact H. f_equal.
Qed.

Lemma zrange_app lo mid hi : lo <= mid <= hi -> zrange lo hi = zrange lo mid ++ zrange mid hi.
Proof.
  intros H. remember (Z.to_nat (mid - lo)) as n eqn:Hn. revert lo H Hn.
  induction n as [|n IH]; intros lo H Hn.
  - replace mid with lo by lia. rewrite (zrange_nil (lo:=lo) (hi:=lo)) by lia. reflexivity.
  - rewrite (zrange_cons (lo:=lo) (hi:=hi)), (zrange_cons (lo:=lo) (hi:=mid)) by lia.
    cbn. f_equal. apply IH; lia.
Qed.

Lemma zfor_ok {E St} (P : Z -> St -> Prop) (body : Z -> St -> res E St) lo hi s :
  lo <= hi -> P lo s ->
  (forall i s, lo <= i < hi -> P i s -> exists s', body i s = Ok s' /\ P (i + 1) s') ->
  exists s', for_each (zrange lo hi) body s = Ok s' /\ P hi s'.
Proof.
  intros Hle. remember (Z.to_nat (hi - lo)) as n eqn:Hn. revert lo s Hle Hn.
  induction n as [|n IH]; intros lo s Hle Hn HP Hb.
  - rewrite zrange_nil by lia. exists s. split; [reflexivity|]. replace hi with lo by lia. exact HP.
  - rewrite zrange_cons by lia. cbn.
    destruct (Hb lo s ltac:(lia) HP) as (s' & -> & HP'). cbn.
    apply IH; try lia; auto. intros i s0 Hi. apply Hb. lia.
Qed.

(** * Lists *)

Lemma nth_ext_lt {A} (l l' : list A) d :
  length l = length l' -> (forall i, (i < length l)%nat -> nth i l d = nth i l' d) -> l = l'.
Proof. intros H1 H2. eapply nth_ext; eauto. Qed.

Lemma nth_firstn {A} (l : list A) n i d : (i < n)%nat -> nth i (firstn n l) d = nth i l d.
Proof.
  revert n l. induction i as [|i IH]; intros [|n] l H; try lia; destruct l; cbn; auto. apply IH; lia.
Qed.

Lemma nth_skipn {A} (l : list A) n i d : nth i (skipn n l) d = nth (n + i) l d.
Proof. revert l; induction n as [|n IH]; intros l; cbn; auto. destruct l; cbn; auto. destruct i; auto. Qed.

Lemma nth_repeat_lt {A} (a d : A) n i : (i < n)%nat -> nth i (repeat a n) d = a.
Proof. revert i; induction n as [|n IH]; intros [|i] H; cbn; auto; try lia. apply IH; lia. Qed.

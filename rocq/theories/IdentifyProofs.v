(** Grouping of finder patterns and sizes of located grids. *)
From Coq Require Import Permutation Sorted.
From Verif Require Import Base Lib VersionDb ModelDecode ModelImage ModelGeometry ModelDetect ModelIdentify SpecIdentify.

Section Numbers.
Context {T : Type} {N : Num T}.

(** * Sizes *)

Lemma measure_size p (g : group T) s : measure_timing_pattern p g = Ok s -> exists v, 0 <= v /\ s = side_of_version v.
Proof.
  unfold measure_timing_pattern. intros E.
  apply bind_ok_inv in E as (t0 & _ & E). apply bind_ok_inv in E as (t1 & _ & E). apply bind_ok_inv in E as (t2 & _ & E).
  apply bind_ok_inv in E as (h & _ & E). apply bind_ok_inv in E as (v & _ & E). apply bind_ok_inv in E as (u & _ & E).
  injection E as <-. exists (Z.max 0 (Z.max h v + 13 - 15) / 4). unfold side_of_version.
  split; [|lia]. apply Z.div_pos; lia.
Qed.

Lemma from_group_size p (g : group T) l p' : from_group p g = Ok (Some l, p') ->
  exists v, 0 <= v <= 40 /\ loc_size l = side_of_version v.
Proof.
  unfold from_group. intros E.
  apply bind_ok_inv in E as ([g' hd] & _ & E). apply bind_ok_inv in E as (size & Es & E).
  apply measure_size in Es as (v & V & ->).
  apply bind_ok_inv in E as ([align|] & _ & E); [|discriminate].
  apply bind_ok_inv in E as ([[al|] p1] & _ & E); [|discriminate].
  unfold version_from_grid_size, usub, side_of_version in E.
  destruct (17 <=? 17 + 4 * v) eqn:L; [|discriminate]. cbn [bind] in E.
  replace ((17 + 4 * v - 17) / 4) with v in E by lia.
  change (Z.of_nat (length VERSION_DATA_BASE)) with 41 in E.
  destruct (41 <=? v) eqn:L2; [discriminate|]. apply Z.leb_gt in L2.
  apply bind_ok_inv in E as ([c|] & _ & E); [|discriminate].
  assert (El : l = MkLoc (17 + 4 * v) c) by congruence. rewrite El. exists v. cbn [loc_size]. unfold side_of_version. lia.
Qed.

Lemma for_each_last {A B} (f : A -> B -> out B) l s s' (P : B -> Prop) :
  P s -> (forall a s s', In a l -> P s -> f a s = Ok s' -> P s') -> for_each l f s = Ok s' -> P s'.
Proof.
  revert s. induction l as [|a l IH]; intros s P0 H E; cbn [for_each] in E.
  - injection E as <-. assumption.
  - apply bind_ok_inv in E as (s1 & E1 & E). apply (IH s1); [|intros; eapply H; [right|..]; eassumption|assumption].
    eapply H; [left; reflexivity|eassumption..].
Qed.

Lemma detect_sizes {Srt : Sorter T} p grids p' : detect_grids (T := T) p = Ok (grids, p') ->
  Forall (fun g => exists v, 0 <= v <= 40 /\ loc_size (lg_loc g) = side_of_version v) grids.
Proof.
  unfold detect_grids. intros E.
  apply bind_ok_inv in E as ([stones p1] & _ & E). apply bind_ok_inv in E as (groups & _ & E).
  apply bind_ok_inv in E as ([p2 locs] & E2 & E). apply bind_ok_inv in E as (gr & E3 & E). injection E as <- <-.
  assert (F : Forall (fun l : location T => exists v, 0 <= v <= 40 /\ loc_size l = side_of_version v) locs).
  { apply (for_each_last _ _ _ (p2, locs) (fun s : prepared * list (location T) =>
     Forall (fun l => exists v, 0 <= v <= 40 /\ loc_size l = side_of_version v) (snd s))) in E2; [exact E2|constructor|].
    intros g [q ls] s' _ P Eb. apply bind_ok_inv in Eb as ([o q'] & Ef & Eb).
    destruct o as [l|]; injection Eb as <-; cbn [snd] in *; [|assumption].
    apply Forall_app. split; [assumption|]. constructor; [|constructor]. eapply from_group_size. exact Ef. }
  clear E2. rewrite Forall_forall in F.
  refine (for_each_last _ _ _ _ (Forall (fun g : located T => exists v, 0 <= v <= 40 /\ loc_size (lg_loc g) = side_of_version v)) _ _ E3).
  - constructor.
  - intros l acc s' I P Eb. apply bind_ok_inv in Eb as (b & _ & Eb). injection Eb as <-.
    apply Forall_app. split; [assumption|]. constructor; [|constructor]. cbn [lg_loc]. apply F. assumption.
Qed.

(** * Neighbours *)

(** The two distances of pattern [i] from pattern [idx], in modules. *)
Definition offsets (caps : list (capstone T)) (idx i : nat) : option (T * T) :=
  match nth_error caps idx, nth_error caps i with
  | Some cap, Some other =>
      let '(u, v) := persp_unmap (cap_c cap) (cap_center other) in
      Some (n_abs (n_sub u (n_ratio 7 2)), n_abs (n_sub v (n_ratio 7 2)))
  | _, _ => None
  end.

Definition vertical_from caps idx i (d : T) : Prop :=
  i <> idx /\ exists u, offsets caps idx i = Some (u, d) /\ n_ltb u (n_mul (n_ratio 2 10) d) = true.
Definition horizontal_from caps idx i (d : T) : Prop :=
  i <> idx /\ exists v, offsets caps idx i = Some (d, v) /\ n_ltb v (n_mul (n_ratio 2 10) d) = true.

Definition h_entry caps idx i : list (nat * T) :=
  if Nat.eqb i idx then [] else
  match offsets caps idx i with
  | Some (u, v) => if n_ltb u (n_mul (n_ratio 2 10) v) then [(i, v)] else []
  | None => [] end.
Definition v_entry caps idx i : list (nat * T) :=
  if Nat.eqb i idx then [] else
  match offsets caps idx i with
  | Some (u, v) => if n_ltb v (n_mul (n_ratio 2 10) u) then [(i, u)] else []
  | None => [] end.

Lemma aget_nth {A} (l : list A) i : (i < length l)%nat -> exists a, nth_error l i = Some a /\ aget (E := Empty_set) l i = Ok a.
Proof.
  intros H. destruct (nth_error l i) as [a|] eqn:E.
  - exists a. split; [reflexivity|]. unfold aget. rewrite E. reflexivity.
  - apply nth_error_None in E. lia.
Qed.

Lemma neighbors_ok (caps : list (capstone T)) idx : (idx < length caps)%nat ->
  find_possible_neighbors caps idx = Ok (flat_map (h_entry caps idx) (seq 0 (length caps)),
                                         flat_map (v_entry caps idx) (seq 0 (length caps))).
Proof.
  intros H. unfold find_possible_neighbors. destruct (aget_nth caps idx H) as (cap & En & Eg).
  unfold out in *. rewrite Eg. cbn [bind].
  unfold range. rewrite Nat.sub_0_r.
  set (body := fun i s => _).
  assert (G : forall n lo hl vl, (lo + n <= length caps)%nat ->
    for_each (seq lo n) body (hl, vl) = Ok (hl ++ flat_map (h_entry caps idx) (seq lo n), vl ++ flat_map (v_entry caps idx) (seq lo n))).
  { induction n as [|n IH]; intros lo hl vl L; cbn [seq for_each flat_map].
    - rewrite !app_nil_r. reflexivity.
    - assert (B : body lo (hl, vl) = Ok (hl ++ h_entry caps idx lo, vl ++ v_entry caps idx lo)).
      { unfold body, h_entry, v_entry. destruct (Nat.eqb lo idx); [rewrite !app_nil_r; reflexivity|].
        destruct (aget_nth caps lo ltac:(lia)) as (o & Eo & Ego). rewrite Ego. cbn [bind].
        unfold offsets. rewrite En, Eo. destruct (persp_unmap _ _) as [u v].
        destruct (n_ltb _ (n_mul _ (n_abs (n_sub v _)))), (n_ltb (n_abs (n_sub v _)) _);
          rewrite ?app_nil_r; reflexivity. }
      rewrite B. cbn [bind]. rewrite IH by lia. rewrite <- !app_assoc. reflexivity. }
  rewrite G by lia. reflexivity.
Qed.

Lemma in_h_list caps idx i d : (idx < length caps)%nat ->
  In (i, d) (flat_map (h_entry caps idx) (seq 0 (length caps))) <-> vertical_from caps idx i d.
Proof.
  intros H. rewrite in_flat_map. split.
  - intros (j & _ & I). unfold h_entry in I. destruct (Nat.eqb j idx) eqn:E; [destruct I|].
    destruct (offsets caps idx j) as [[u v]|] eqn:O; [|destruct I].
    destruct (n_ltb u _) eqn:L; [|destruct I]. destruct I as [I|[]]. injection I as <- <-.
    split; [apply Nat.eqb_neq; assumption|]. exists u. split; assumption.
  - intros (Ne & u & O & L). exists i. split.
    + apply in_seq. unfold offsets in O. destruct (nth_error caps idx); [|discriminate].
      destruct (nth_error caps i) eqn:Ei; [|discriminate]. assert (i < length caps)%nat by (apply nth_error_Some; congruence). lia.
    + unfold h_entry. rewrite (proj2 (Nat.eqb_neq i idx) Ne), O, L. left. reflexivity.
Qed.

Lemma in_v_list caps idx i d : (idx < length caps)%nat ->
  In (i, d) (flat_map (v_entry caps idx) (seq 0 (length caps))) <-> horizontal_from caps idx i d.
Proof.
  intros H. rewrite in_flat_map. split.
  - intros (j & _ & I). unfold v_entry in I. destruct (Nat.eqb j idx) eqn:E; [destruct I|].
    destruct (offsets caps idx j) as [[u v]|] eqn:O; [|destruct I].
    destruct (n_ltb v _) eqn:L; [|destruct I]. destruct I as [I|[]]. injection I as <- <-.
    split; [apply Nat.eqb_neq; assumption|]. exists v. split; assumption.
  - intros (Ne & v & O & L). exists i. split.
    + apply in_seq. unfold offsets in O. destruct (nth_error caps idx); [|discriminate].
      destruct (nth_error caps i) eqn:Ei; [|discriminate]. assert (i < length caps)%nat by (apply nth_error_Some; congruence). lia.
    + unfold v_entry. rewrite (proj2 (Nat.eqb_neq i idx) Ne), O, L. left. reflexivity.
Qed.

(** * A sort *)

(** Insertion, which leaves entries with equal scores in their order: that there are such sorts. *)
Fixpoint insert_ranked (e : T * (nat * nat)) (l : list (T * (nat * nat))) : out (list (T * (nat * nat))) :=
  match l with
  | [] => Ok [e]
  | a :: t =>
      match n_compare (fst e) (fst a) with
      | None => Panic
      | Some Lt => Ok (e :: l)
      | Some _ => let* t' := insert_ranked e t in Ok (a :: t')
      end
  end.

Definition insert_all (l : list (T * (nat * nat))) : out (list (T * (nat * nat))) := for_each l insert_ranked [].

(** Sorting, when scores are comparable. *)
Definition comparable (l : list (T * (nat * nat))) : Prop :=
  forall e e', In e l -> In e' l -> n_compare (fst e) (fst e') <> None.

Lemma insert_ranked_ok e l : (forall a, In a l -> n_compare (fst e) (fst a) <> None) ->
  exists l', insert_ranked e l = Ok l' /\ Permutation (e :: l) l'.
Proof.
  induction l as [|a l IH]; intros H; cbn [insert_ranked].
  - eexists. split; [reflexivity|]. apply Permutation_refl.
  - destruct IH as (l' & El & P). { intros; apply H; right; assumption. }
    specialize (H a (or_introl eq_refl)).
    destruct (n_compare (fst e) (fst a)) as [[]|]; [|eexists; split; [reflexivity|apply Permutation_refl]| |congruence];
      rewrite El; cbn [bind]; eexists; (split; [reflexivity|]);
      (eapply Permutation_trans; [apply perm_swap|]; constructor; assumption).
Qed.

Lemma insert_ranked_sorted e l l' :
  (forall x y : T, n_compare x y = Some Lt -> n_compare y x <> Some Lt) ->
  Sorted in_order l -> insert_ranked e l = Ok l' -> Sorted in_order l'.
Proof.
  intros Asym. revert l'. induction l as [|a l IH]; intros l' S E; cbn [insert_ranked] in E.
  - injection E as <-. constructor; constructor.
  - destruct (n_compare (fst e) (fst a)) as [[]|] eqn:C; [|injection E as <-; constructor;
      [assumption|constructor; unfold in_order; apply Asym; assumption]| |discriminate];
    apply bind_ok_inv in E as (l1 & E1 & E); injection E as <-; inversion S; subst;
    (constructor; [apply IH; assumption|]);
    (destruct l as [|b l]; cbn [insert_ranked] in E1;
      [injection E1 as <-; constructor; unfold in_order; rewrite C; discriminate|
       destruct (n_compare (fst e) (fst b)) as [[]|] eqn:Cb;
       [apply bind_ok_inv in E1 as (l2 & _ & E1); injection E1 as <-; inversion H2; subst; constructor; assumption|
        injection E1 as <-; constructor; unfold in_order; rewrite C; discriminate|
        apply bind_ok_inv in E1 as (l2 & _ & E1); injection E1 as <-; inversion H2; subst; constructor; assumption|discriminate]]).
Qed.

Lemma insert_all_ok l : comparable l -> exists l', insert_all l = Ok l' /\ Permutation l l'.
Proof.
  intros H. unfold insert_all.
  assert (G : forall r acc, (forall e, In e (r ++ acc) -> In e l) ->
     exists l', for_each r insert_ranked acc = Ok l' /\ Permutation (r ++ acc) l').
  { induction r as [|e r IH]; intros acc K; cbn [for_each app].
    - eexists. split; [reflexivity|]. apply Permutation_refl.
    - destruct (insert_ranked_ok e acc) as (a1 & E1 & P1).
      { intros a I. apply H; apply K; [left; reflexivity|right; apply in_or_app; right; assumption]. }
      rewrite E1. cbn [bind]. destruct (IH a1) as (l' & E2 & P2).
      { intros x I. apply K. apply in_app_or in I as [I|I]; [right; apply in_or_app; left; assumption|].
        apply (Permutation_in x (Permutation_sym P1)) in I. destruct I as [->|I]; [left; reflexivity|right; apply in_or_app; right; assumption]. }
      exists l'. split; [assumption|]. eapply Permutation_trans; [|exact P2].
      eapply Permutation_trans; [apply Permutation_middle|]. apply Permutation_app_head. assumption. }
  destruct (G l []) as (l' & E & P). { intros e. rewrite app_nil_r. auto. }
  exists l'. rewrite app_nil_r in P. split; assumption.
Qed.

Lemma insert_all_sorted l l' : (forall x y : T, n_compare x y = Some Lt -> n_compare y x <> Some Lt) ->
  insert_all l = Ok l' -> Sorted in_order l'.
Proof.
  intros A E. refine (for_each_last insert_ranked l [] l' (Sorted in_order) _ _ E).
  - constructor.
  - intros e s s' _ S Ei. eapply insert_ranked_sorted; eassumption.
Qed.

Lemma insert_all_keeps l l' : insert_all l = Ok l' -> Permutation l l'.
Proof.
  intros E.
  assert (P : forall r acc l', for_each r insert_ranked acc = Ok l' -> Permutation (r ++ acc) l').
  { clear. induction r as [|e r IH]; intros acc l' E'; cbn [for_each app] in *.
    - injection E' as <-. apply Permutation_refl.
    - apply bind_ok_inv in E' as (a1 & E1 & E'). apply IH in E'. eapply Permutation_trans; [|exact E'].
      eapply Permutation_trans; [apply Permutation_middle|]. apply Permutation_app_head.
      clear -E1. revert a1 E1. induction acc as [|b acc IH]; intros a1 E1; cbn [insert_ranked] in E1.
      + injection E1 as <-. apply Permutation_refl.
      + destruct (n_compare (fst e) (fst b)) as [[]|]; [|injection E1 as <-; apply Permutation_refl| |discriminate];
          apply bind_ok_inv in E1 as (l1 & E1 & E2); injection E2 as <-;
          (eapply Permutation_trans; [apply perm_swap|]); constructor; apply IH; assumption. }
  apply P in E. rewrite app_nil_r in E. exact E.
Qed.

Lemma insert_ranked_ends e l : insert_ranked e l <> Diverge.
Proof.
  induction l as [|a l IH]; cbn [insert_ranked]; [discriminate|].
  destruct (n_compare _ _) as [[]|]; try discriminate; destruct (insert_ranked e l); cbn [bind]; congruence.
Qed.

Lemma insert_all_ends l : insert_all l <> Diverge.
Proof.
  unfold insert_all. generalize (@nil (T * (nat * nat))). induction l as [|e l IH]; intros acc; cbn [for_each]; [discriminate|].
  pose proof (insert_ranked_ends e acc) as D. destruct (insert_ranked e acc); cbn [bind]; congruence.
Qed.

Definition insertion (Asym : forall x y : T, n_compare x y = Some Lt -> n_compare y x <> Some Lt) : Sorter T.
Proof.
  refine (MkSorter insert_all insert_all_ends insert_all_keeps _). intros l (Tot & _).
  destruct (insert_all_ok l) as (l' & E & _).
  { intros e e' I I'. destruct (Tot e e' I I') as (c & -> & _). discriminate. }
  exists l'. split; [exact E|]. eapply insert_all_sorted; eassumption.
Defined.

(** * Ranking *)

Context {Srt : Sorter T}.

(** [b] on one side and [a] on the other make a plausible group with corner [idx]:
    their distances differ by less than a quarter. *)
Definition viable caps idx (a b : nat) (score : T) : Prop :=
  exists da db, vertical_from caps idx a da /\ horizontal_from caps idx b db
  /\ score = neighbor_score da db /\ n_ltb score (n_ratio 1 4) = true.

Lemma rank_ok (caps : list (capstone T)) idx : (idx < length caps)%nat ->
  (forall x y : T, n_ltb x (n_ratio 1 4) = true -> n_ltb y (n_ratio 1 4) = true ->
    exists c, n_compare x y = Some c /\ n_compare y x = Some (CompOpp c)) ->
  (forall x y z : T, n_ltb x (n_ratio 1 4) = true -> n_ltb y (n_ratio 1 4) = true -> n_ltb z (n_ratio 1 4) = true ->
    n_compare y x <> Some Lt -> n_compare z y <> Some Lt -> n_compare z x <> Some Lt) ->
  exists ranked, find_and_rank_possible_neighbors caps idx = Ok (map snd ranked) /\ Sorted in_order ranked
  /\ (forall s a b, In (s, (a, b)) ranked <-> viable caps idx a b s).
Proof.
  intros H Tot Trans. unfold find_and_rank_possible_neighbors. rewrite (neighbors_ok caps idx H). cbn [bind].
  set (hl := flat_map (h_entry caps idx) _). set (vl := flat_map (v_entry caps idx) _). set (res := flat_map _ hl).
  assert (V : forall s a b, In (s, (a, b)) res <-> viable caps idx a b s).
  { intros s a b. unfold res. rewrite in_flat_map. split.
    - intros ([h dh] & Ih & I). apply in_flat_map in I as ([v dv] & Iv & I). cbn [fst snd] in I.
      destruct (n_ltb (neighbor_score dh dv) _) eqn:L; [|destruct I]. destruct I as [I|[]]. injection I as <- <- <-.
      apply in_h_list in Ih; [|assumption]. apply in_v_list in Iv; [|assumption]. exists dh, dv. auto.
    - intros (da & db & Va & Hb & -> & L). exists (a, da). split; [apply in_h_list; assumption|].
      apply in_flat_map. exists (b, db). split; [apply in_v_list; assumption|]. cbn [fst snd]. rewrite L. left. reflexivity. }
  destruct (sort_orders res) as (l & E & So).
  { split.
    - intros [s [a b]] [s' [a' b']] I I'. apply V in I as (? & ? & _ & _ & _ & L). apply V in I' as (? & ? & _ & _ & _ & L').
      apply Tot; assumption.
    - intros [s [a b]] [s' [a' b']] [s'' [a'' b'']] I I' I''. apply V in I as (? & ? & _ & _ & _ & L). apply V in I' as (? & ? & _ & _ & _ & L').
      apply V in I'' as (? & ? & _ & _ & _ & L''). unfold in_order. cbn [fst]. apply Trans; assumption. }
  pose proof (sort_keeps res l E) as P.
  rewrite E. cbn [bind]. exists l. split; [reflexivity|]. split; [exact So|].
  intros s a b. rewrite <- V. split; apply Permutation_in; [apply Permutation_sym|]; assumption.
Qed.

(** * Groups *)

Lemma rank_members (caps : list (capstone T)) idx pairs : (idx < length caps)%nat ->
  find_and_rank_possible_neighbors caps idx = Ok pairs ->
  forall a b, In (a, b) pairs <-> exists s, viable caps idx a b s.
Proof.
  intros H. unfold find_and_rank_possible_neighbors. rewrite (neighbors_ok caps idx H). cbn [bind].
  set (hl := flat_map (h_entry caps idx) _). set (vl := flat_map (v_entry caps idx) _). set (res := flat_map _ hl).
  assert (V : forall s a b, In (s, (a, b)) res <-> viable caps idx a b s).
  { intros s a b. unfold res. rewrite in_flat_map. split.
    - intros ([h dh] & Ih & I). apply in_flat_map in I as ([v dv] & Iv & I). cbn [fst snd] in I.
      destruct (n_ltb (neighbor_score dh dv) _) eqn:L; [|destruct I]. destruct I as [I|[]]. injection I as <- <- <-.
      apply in_h_list in Ih; [|assumption]. apply in_v_list in Iv; [|assumption]. exists dh, dv. auto.
    - intros (da & db & Va & Hb & -> & L). exists (a, da). split; [apply in_h_list; assumption|].
      apply in_flat_map. exists (b, db). split; [apply in_v_list; assumption|]. cbn [fst snd]. rewrite L. left. reflexivity. }
  intros E. apply bind_ok_inv in E as (l & E & Em). injection Em as <-.
  apply sort_keeps in E. intros a b. rewrite in_map_iff. split.
  - intros ([s [a' b']] & Eq & I). injection Eq as -> ->. exists s. apply V. eapply Permutation_in; [apply Permutation_sym|]; eassumption.
  - intros (s & Hv). exists (s, (a, b)). split; [reflexivity|]. eapply Permutation_in; [eassumption|]. apply V. assumption.
Qed.

(** A group that was formed: what it consists of and that it locates a grid. *)
Definition formed p (caps : list (capstone T)) (e : triple * group T) : Prop :=
  let '((a, i, b), g) := e in
  exists ca ci cb, nth_error caps a = Some ca /\ nth_error caps i = Some ci /\ nth_error caps b = Some cb
  /\ g = MkGroup ca ci cb /\ (exists s, viable caps i a b s)
  /\ exists l p', from_group (clone p) g = Ok (Some l, p').

Definition taken (l : list (triple * group T)) (x : nat) : Prop := exists e, In e l /\ In x (members (fst e)).

Definition g_inv p caps (s : list nat * list (triple * group T)) : Prop :=
  (forall x, In x (fst s) <-> taken (snd s) x)
  /\ Forall (formed p caps) (snd s)
  /\ ForallOrdPairs (fun e' e => shares_only_corner (fst e) (fst e')) (snd s).

Lemma used_in_spec used i : used_in used i = true <-> In i used.
Proof.
  unfold used_in. rewrite existsb_exists. split.
  - intros (x & I & E). apply Nat.eqb_eq in E. subst. assumption.
  - intros I. exists i. split; [assumption|apply Nat.eqb_refl].
Qed.

Lemma aget_inv {A} (l : list A) i a : aget (E := Empty_set) l i = Ok a -> nth_error l i = Some a.
Proof. unfold aget. destruct (nth_error l i); [congruence|discriminate]. Qed.

(** What one pair leaves behind: used, or without a grid. *)
Definition settled p (caps : list (capstone T)) idx (pr : nat * nat) (used : list nat) : Prop :=
  In (fst pr) used \/ In (snd pr) used \/
  exists ca ci cb p', nth_error caps (fst pr) = Some ca /\ nth_error caps idx = Some ci /\ nth_error caps (snd pr) = Some cb
    /\ from_group (clone p) (MkGroup ca ci cb) = Ok (None, p').

Lemma try_pair_inv p caps idx a b s s' : (exists sc, viable caps idx a b sc) ->
  g_inv p caps s -> (forall e, In e (snd s) -> ~ In idx (sides (fst e))) ->
  try_pair p caps idx (a, b) s = Ok s' ->
  g_inv p caps s' /\ (forall e, In e (snd s') -> ~ In idx (sides (fst e))) /\ incl (fst s) (fst s')
  /\ settled p caps idx (a, b) (fst s').
Proof.
  intros Hv G C. destruct s as [used groups]. unfold try_pair. destruct (used_in used a || used_in used b) eqn:U.
  { intros E. injection E as <-. split; [assumption|]. split; [assumption|]. split; [apply incl_refl|].
    unfold settled. cbn [fst snd]. apply orb_true_iff in U as [U|U]; apply used_in_spec in U; auto. }
  apply orb_false_iff in U as [Ua Ub].
  assert (Na : ~ In a used) by (rewrite <- used_in_spec; congruence).
  assert (Nb : ~ In b used) by (rewrite <- used_in_spec; congruence). clear Ua Ub.
  intros E. apply bind_ok_inv in E as (ca & Ea & E). apply bind_ok_inv in E as (ci & Ei & E). apply bind_ok_inv in E as (cb & Eb & E).
  apply aget_inv in Ea, Ei, Eb. apply bind_ok_inv in E as ([o q] & Ef & E). cbn [fst] in E.
  destruct o as [l|]; injection E as <-.
  2: { split; [assumption|]. split; [assumption|]. split; [apply incl_refl|]. right. right. cbn [fst snd]. exists ca, ci, cb, q. auto. }
  destruct Hv as (sc & Hv). pose proof Hv as (da & db & (Nia & _) & (Nib & _) & _).
  destruct G as (G1 & G2 & G3). cbn [fst snd] in *. split; [|split; [|split]].
  - split; [|split]; cbn [fst snd].
    + intros x. rewrite in_app_iff, G1. split.
      * intros [(e & I & M)|I]; [exists e; split; [right; assumption|assumption]|].
        exists ((a, idx, b), MkGroup ca ci cb). split; [left; reflexivity|exact I].
      * intros (e & [<-|I] & M); [right; exact M|left; exists e; auto].
    + constructor; [|assumption]. exists ca, ci, cb. repeat (split; [assumption || reflexivity|]). split; [exists sc; assumption|].
      exists l, q. assumption.
    + constructor; [|assumption]. apply Forall_forall. intros e I. cbn [fst]. split.
      * intros x [<-|[<-|[]]] M; [apply Na|apply Nb]; apply G1; exists e; auto.
      * cbn [corner_of]. apply C. assumption.
  - intros e [<-|I]; [|apply C; assumption]. cbn [fst sides]. intros [->|[->|[]]]; congruence.
  - intros x I. apply in_or_app. left. assumption.
  - left. cbn [fst]. apply in_or_app. right. left. reflexivity.
Qed.

Lemma settled_mono p caps idx pr u u' : incl u u' -> settled p caps idx pr u -> settled p caps idx pr u'.
Proof. intros I [H|[H|H]]; [left; auto|right; left; auto|right; right; assumption]. Qed.

Lemma inner_inv p caps idx pairs s s' : (forall a b, In (a, b) pairs -> exists sc, viable caps idx a b sc) ->
  g_inv p caps s -> (forall e, In e (snd s) -> ~ In idx (sides (fst e))) ->
  for_each pairs (try_pair p caps idx) s = Ok s' ->
  g_inv p caps s' /\ incl (fst s) (fst s') /\ forall pr, In pr pairs -> settled p caps idx pr (fst s').
Proof.
  revert s. induction pairs as [|[a b] pairs IH]; intros s V G C E; cbn [for_each] in E.
  - injection E as <-. split; [assumption|]. split; [apply incl_refl|]. intros pr [].
  - apply bind_ok_inv in E as (s1 & E1 & E).
    destruct (try_pair_inv p caps idx a b s s1) as (G1 & C1 & I1 & S1); [apply V; left; reflexivity|assumption..|].
    destruct (IH s1) as (G2 & I2 & S2); [intros; apply V; right; assumption|assumption..|].
    split; [assumption|]. split; [eapply incl_tran; eassumption|].
    intros pr [<-|I]; [eapply settled_mono; eassumption|apply S2; assumption].
Qed.

(** No plausible triple is left entirely unused. *)
Definition exhausted p (caps : list (capstone T)) idx (l : list (triple * group T)) : Prop :=
  forall a b s, viable caps idx a b s ->
  taken l a \/ taken l idx \/ taken l b \/
  exists ca ci cb p', nth_error caps a = Some ca /\ nth_error caps idx = Some ci /\ nth_error caps b = Some cb
    /\ from_group (clone p) (MkGroup ca ci cb) = Ok (None, p').

Lemma groupings_inv p (caps : list (capstone T)) l : find_groupings_indexed p caps = Ok l ->
  Forall (formed p caps) l /\ each_later (fun e e' => shares_only_corner (fst e) (fst e')) l
  /\ forall idx, (idx < length caps)%nat -> exhausted p caps idx l.
Proof.
  unfold find_groupings_indexed. intros E. apply bind_ok_inv in E as (s & E & El). injection El as <-.
  set (body := fun idx s => _) in E.
  assert (K : forall n lo s s', (lo + n <= length caps)%nat -> g_inv p caps s ->
    for_each (seq lo n) body s = Ok s' ->
    g_inv p caps s' /\ incl (fst s) (fst s') /\ forall idx, (lo <= idx < lo + n)%nat ->
      In idx (fst s') \/ forall a b sc, viable caps idx a b sc -> settled p caps idx (a, b) (fst s')).
  { clear. induction n as [|n IH]; intros lo s s' L G E; cbn [seq for_each] in E.
    - injection E as <-. split; [assumption|]. split; [apply incl_refl|]. intros; lia.
    - apply bind_ok_inv in E as (s1 & E1 & E).
      assert (S1 : g_inv p caps s1 /\ incl (fst s) (fst s1) /\
         (In lo (fst s1) \/ forall a b sc, viable caps lo a b sc -> settled p caps lo (a, b) (fst s1))).
      { unfold body in E1. destruct (used_in (fst s) lo) eqn:U.
        - injection E1 as <-. apply used_in_spec in U. split; [assumption|]. split; [apply incl_refl|]. left. assumption.
        - apply bind_ok_inv in E1 as (pairs & Ep & E1). pose proof (rank_members caps lo pairs ltac:(lia) Ep) as R.
          assert (Nl : ~ In lo (fst s)) by (rewrite <- used_in_spec; congruence).
          destruct (inner_inv p caps lo pairs s s1) as (G1 & I1 & T1); [intros a b; apply R|assumption| |assumption|].
          { intros e I M. apply Nl. apply (proj1 G). exists e. split; [assumption|].
            destruct e as [[[a i] b] g]. cbn [fst sides members] in *. destruct M as [<-|[<-|[]]]; cbn; auto. }
          split; [assumption|]. split; [assumption|]. right. intros a b sc V. apply T1. apply R. exists sc. assumption. }
      destruct S1 as (G1 & I1 & D1). destruct (IH (S lo) s1 s') as (G2 & I2 & D2); [lia|assumption..|].
      split; [assumption|]. split; [eapply incl_tran; eassumption|]. intros idx H.
      destruct (Nat.eq_dec idx lo) as [->|Ne]; [|apply D2; lia].
      destruct D1 as [D1|D1]; [left; auto|right; intros; eapply settled_mono; eauto]. }
  unfold range in E. rewrite Nat.sub_0_r in E.
  destruct (K (length caps) 0%nat ([], []) s) as ((G1 & G2 & G3) & _ & D); [lia| |assumption|].
  { split; [|split]; [|constructor..]. intros x. cbn. split; [intros []|intros (e & [] & _)]. }
  split; [apply Forall_rev; assumption|]. split.
  - unfold each_later. clear -G3. induction (snd s) as [|e r IH]; cbn [rev]; [constructor|].
    inversion G3; subst. specialize (IH H2). clear -IH H1.
    assert (H1' : Forall (fun e' => shares_only_corner (fst e') (fst e)) (rev r)) by (apply Forall_rev; assumption).
    clear H1. induction (rev r) as [|x q IHq]; cbn [app].
    + constructor; [constructor|constructor].
    + inversion H1'; subst. inversion IH; subst. constructor; [apply Forall_app; split; [assumption|constructor; [assumption|constructor]]|].
      apply IHq; assumption.
  - intros idx H a b sc V. assert (Tk : forall x, In x (fst s) -> taken (rev (snd s)) x).
    { intros x I. apply G1 in I as (e & I & M). exists e. rewrite <- in_rev. auto. }
    destruct (D idx ltac:(lia)) as [I|S]; [right; left; auto|].
    destruct (S a b sc V) as [I|[I|I]]; [left; auto|right; right; left; auto|right; right; right; exact I].
Qed.
End Numbers.

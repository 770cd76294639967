(** Neighbouring finder patterns in binary64 arithmetic: ranking never panics and
    one pattern is never on both sides. *)
From Coq Require Import Permutation Sorted.
From Coq Require Import Reals Lra SpecFloat.
From Flocq Require Import Core BinarySingleNaN Relative.
From Verif Require Import Base Lib ModelImage ModelGeometry ModelDetect ModelIdentify FloatProofs CenterProofs IdentifyProofs.
Open Scope Z_scope.
Set Bullet Behavior "Strict Subproofs".

#[local] Existing Instance FloatProofs.Hprec.
#[local] Existing Instance FloatProofs.Hmax.

(** * Comparisons *)

Lemma compare_some x y : x <> S754_nan -> y <> S754_nan -> SFcompare x y <> None.
Proof.
  destruct x as [sx|sx| |sx mx ex], y as [sy|sy| |sy my ey]; cbn; try congruence; intros _ _;
    try destruct sx; try destruct sy; try discriminate;
    destruct (Z.compare _ _); discriminate.
Qed.

Lemma compare_asym x y : SFcompare x y = Some Lt -> SFcompare y x <> Some Lt.
Proof.
  destruct x as [sx|sx| |sx mx ex], y as [sy|sy| |sy my ey]; cbn; try congruence;
    try destruct sx; try destruct sy; try congruence.
  all: rewrite (Z.compare_antisym ex ey); destruct (Z.compare ex ey) eqn:C; cbn [CompOpp]; try congruence.
  all: change (Pos.compare_cont Eq mx my) with (Pos.compare mx my); change (Pos.compare_cont Eq my mx) with (Pos.compare my mx).
  all: rewrite (Pos.compare_antisym mx my); destruct (Pos.compare mx my); cbn [CompOpp]; congruence.
Qed.

Lemma ltb_nan x y : n_ltb (N := F64) x y = true -> x <> S754_nan /\ y <> S754_nan.
Proof.
  unfold n_ltb. cbn [n_compare F64]. destruct x, y; cbn; try discriminate; split; discriminate.
Qed.

(** Floats that are numbers are compared like triples of integers. *)
Definition rank_of (x : spec_float) : Z * Z * Z :=
  match x with
  | S754_zero _ | S754_nan => (0, 0, 0)
  | S754_infinity s => ((if s then -2 else 2), 0, 0)
  | S754_finite s m e => if s then (-1, - e, - Z.pos m) else (1, e, Z.pos m)
  end.

Definition triple_compare (x y : Z * Z * Z) : comparison :=
  match fst (fst x) ?= fst (fst y) with
  | Eq => match snd (fst x) ?= snd (fst y) with Eq => snd x ?= snd y | c => c end
  | c => c
  end.

Lemma compare_rank x y : x <> S754_nan -> y <> S754_nan -> SFcompare x y = Some (triple_compare (rank_of x) (rank_of y)).
Proof.
  intros Hx Hy. destruct x as [sx|sx| |sx mx ex], y as [sy|sy| |sy my ey]; try congruence;
    try destruct sx; try destruct sy; try reflexivity;
    unfold triple_compare; cbn [rank_of fst snd SFcompare Z.compare Pos.compare Pos.compare_cont].
  change (Pos.compare_cont Eq mx my) with (Pos.compare mx my). rewrite (Z.compare_opp ex ey).
  rewrite (Z.compare_antisym ex ey). destruct (Z.compare ex ey); reflexivity.
Qed.

Lemma triple_antisym x y : triple_compare y x = CompOpp (triple_compare x y).
Proof.
  unfold triple_compare. rewrite (Z.compare_antisym (fst (fst x))), (Z.compare_antisym (snd (fst x))), (Z.compare_antisym (snd x)).
  destruct (Z.compare (fst (fst x)) _); try reflexivity. destruct (Z.compare (snd (fst x)) _); reflexivity.
Qed.

Lemma triple_trans x y z : triple_compare y x <> Lt -> triple_compare z y <> Lt -> triple_compare z x <> Lt.
Proof.
  unfold triple_compare. destruct x as [[a b] c], y as [[a' b'] c'], z as [[a'' b''] c'']. cbn [fst snd].
  destruct (Z.compare_spec a' a), (Z.compare_spec a'' a'), (Z.compare_spec a'' a); try lia; try congruence;
  destruct (Z.compare_spec b' b), (Z.compare_spec b'' b'), (Z.compare_spec b'' b); try lia; try congruence;
  destruct (Z.compare_spec c' c), (Z.compare_spec c'' c'), (Z.compare_spec c'' c); try lia; congruence.
Qed.

Lemma quarter_total (x y : spec_float) : n_ltb x (n_ratio 1 4) = true -> n_ltb y (n_ratio 1 4) = true ->
  exists c, n_compare x y = Some c /\ n_compare y x = Some (CompOpp c).
Proof.
  intros Hx Hy. apply ltb_nan in Hx as [Hx _]. apply ltb_nan in Hy as [Hy _]. exists (triple_compare (rank_of x) (rank_of y)).
  cbn [n_compare F64]. rewrite !compare_rank by assumption. split; [reflexivity|]. f_equal. apply triple_antisym.
Qed.

Lemma quarter_trans (x y z : spec_float) : n_ltb x (n_ratio 1 4) = true -> n_ltb y (n_ratio 1 4) = true -> n_ltb z (n_ratio 1 4) = true ->
  n_compare y x <> Some Lt -> n_compare z y <> Some Lt -> n_compare z x <> Some Lt.
Proof.
  intros Hx Hy Hz. apply ltb_nan in Hx as [Hx _]. apply ltb_nan in Hy as [Hy _]. apply ltb_nan in Hz as [Hz _].
  cbn [n_compare F64]. rewrite !compare_rank by assumption. intros A B C. injection C as C. revert C. apply (triple_trans _ (rank_of y)); congruence.
Qed.

(** Insertion as the sort. *)
Definition Insert64 : Sorter spec_float := insertion compare_asym.

(** * Valid floats *)

Definition valid (f : spec_float) : Prop := exists b : float64, f = B2SF b.

Lemma valid_add f g : valid f -> valid g -> valid (n_add f g).
Proof. intros (a & ->) (b & ->). eexists. apply add_equiv. Qed.
Lemma valid_sub f g : valid f -> valid g -> valid (n_sub f g).
Proof. intros (a & ->) (b & ->). eexists. apply sub_equiv. Qed.
Lemma valid_mul f g : valid f -> valid g -> valid (n_mul f g).
Proof. intros (a & ->) (b & ->). eexists. apply mul_equiv. Qed.
Lemma valid_div f g : valid f -> valid g -> valid (n_div f g).
Proof. intros (a & ->) (b & ->). eexists. apply div_equiv. Qed.
Lemma valid_opp f : valid f -> valid (n_opp f).
Proof. intros (a & ->). exists (Bopp a). destruct a; reflexivity. Qed.
Lemma valid_abs f : valid f -> valid (n_abs f).
Proof. intros (a & ->). exists (Babs a). destruct a; reflexivity. Qed.
Lemma valid_ratio p q : valid (n_ratio (Num := F64) p q).
Proof. apply valid_div; eexists; apply normalize_equiv. Qed.
Lemma valid_of z : valid (n_of (N := F64) z).
Proof. apply valid_ratio. Qed.

Ltac validity := repeat first [assumption | apply valid_of | apply valid_ratio | apply valid_add | apply valid_sub
  | apply valid_mul | apply valid_div | apply valid_opp | apply valid_abs].

Definition valid_persp (c : perspective spec_float) : Prop :=
  valid (c0 c) /\ valid (c1 c) /\ valid (c2 c) /\ valid (c3 c) /\ valid (c4 c) /\ valid (c5 c) /\ valid (c6 c) /\ valid (c7 c).

Lemma create_valid k w h c : valid w -> valid h -> persp_create (N := F64) k w h = Some c -> valid_persp c.
Proof.
  intros Hw Hh. unfold persp_create. destruct (_ || _); [discriminate|]. intros E. injection E as <-.
  unfold valid_persp. cbn [c0 c1 c2 c3 c4 c5 c6 c7].
  repeat split; validity.
Qed.

Lemma unmap_valid c p : valid_persp c -> valid (fst (persp_unmap (N := F64) c p)) /\ valid (snd (persp_unmap (N := F64) c p)).
Proof.
  intros (H0 & H1 & H2 & H3 & H4 & H5 & H6 & H7). unfold persp_unmap. cbn [fst snd]. split; validity.
Qed.

Lemma fifth_rep : exists r, rep (n_ratio (Num := F64) 2 10) r /\ (0 <= r <= 1)%R.
Proof.
  destruct (irep_of 2 2 ltac:(lia) ltac:(lia)) as [R2 _]. destruct (irep_of 10 10 ltac:(lia) ltac:(lia)) as [R10 _].
  assert (B : (Rabs (2 / 10) <= 1)%R) by (rewrite Rabs_pos_eq; lra).
  assert (B' : (Rabs (2 / 10) <= bpow radix2 1000)%R).
  { eapply Rle_trans; [exact B|]. change 1%R with (bpow radix2 0). apply bpow_le. lia. }
  exists (Flocq.Core.Generic_fmt.round radix2 (FLT_exp (-1074) 53) ZnearestE (2 / 10)). split.
  - apply (rep_div _ _ _ _ R2 R10); [lra|assumption].
  - split.
    + apply round_ge_generic; [now apply FLT_exp_valid|now apply valid_rnd_N|apply generic_format_0|lra].
    + apply round_le_generic; [now apply FLT_exp_valid|now apply valid_rnd_N| |lra].
      change 1%R with (bpow radix2 0). apply generic_format_bpow. cbn. lia.
Qed.

(** [u < 0.2 v] and [v < 0.2 u] exclude each other for distances. *)
Lemma not_both (u v : spec_float) : valid u -> valid v ->
  n_ltb (n_abs u) (n_mul (n_ratio 2 10) (n_abs v)) = true ->
  n_ltb (n_abs v) (n_mul (n_ratio 2 10) (n_abs u)) = true -> False.
Proof.
  intros Vu Vv.
  assert (Fin : forall x y, valid x -> valid y -> n_ltb (n_abs x) (n_mul (n_ratio 2 10) (n_abs y)) = true ->
    exists r, rep (n_abs (Num := F64) x) r /\ (0 <= r)%R).
  { intros x y (b & ->) _ L. destruct b as [s|s| |s m e Bd].
    - exists 0%R. split; [exists (B754_zero false); repeat split|lra].
    - unfold n_ltb in L. cbn [n_abs n_compare F64 B2SF SFabs] in L. destruct (n_mul _ _) as [[]|[]| |[]]; cbn in L; discriminate.
    - unfold n_ltb in L. cbn in L. discriminate.
    - exists (B2R (Babs (B754_finite s m e Bd))). split; [exists (Babs (B754_finite s m e Bd)); repeat split|].
      rewrite B2R_Babs. apply Rabs_pos. }
  assert (Le : forall x y rx ry, rep x rx -> rep y ry -> (0 <= ry)%R -> n_ltb x (n_mul (n_ratio 2 10) y) = true -> (rx < ry)%R).
  { intros x y rx ry Rx Ry Py L. destruct fifth_rep as (f & Rf & Bf).
    assert (My : (Rabs (f * ry) <= Rabs ry)%R).
    { rewrite Rabs_mult, (Rabs_pos_eq f) by lra. pose proof (Rabs_pos ry). nra. }
    pose proof Ry as (b & Eb & Fb & Bb). pose proof Rf as (bf & Ef & Ff & Bf').
    assert (Fy : generic_format radix2 (FLT_exp (-1074) 53) ry) by (rewrite <- Bb; apply (generic_format_B2R f_prec f_emax b)).
    assert (Bd : (Rabs ry < bpow radix2 1024)%R) by (rewrite <- Bb; apply (abs_B2R_lt_emax f_prec f_emax b)).
    assert (Rd : (rnd (f * ry) <= ry)%R).
    { unfold rnd. apply round_le_generic; [now apply FLT_exp_valid|now apply valid_rnd_N|assumption|]. nra. }
    assert (Rd0 : (0 <= rnd (f * ry))%R).
    { unfold rnd. apply round_ge_generic; [now apply FLT_exp_valid|now apply valid_rnd_N|apply generic_format_0|]. nra. }
    assert (Rm : rep (n_mul (Num := F64) (n_ratio 2 10) y) (rnd (f * ry))).
    { exists (Bmult mode_NE bf b). split; [cbn [n_mul F64]; rewrite Ef, Eb; apply mul_equiv|].
      pose proof (Bmult_correct f_prec f_emax _ _ mode_NE bf b) as C.
      rewrite Bf', Bb in C. change (Flocq.Core.Generic_fmt.round radix2 (SpecFloat.fexp f_prec f_emax) (round_mode mode_NE) (f * ry)) with (rnd (f * ry)) in C.
      rewrite Rlt_bool_true in C.
      - destruct C as (C1 & C2 & _). rewrite C1, C2, Ff, Fb. auto.
      - rewrite Rabs_pos_eq by assumption. change f_emax with 1024%Z. rewrite Rabs_pos_eq in Bd by assumption. lra. }
    unfold n_ltb in L. cbn [n_compare F64] in L. rewrite (rep_compare _ _ _ _ Rx Rm) in L.
    destruct (Rcompare_spec rx (rnd (f * ry))); try discriminate. lra. }
  intros L1 L2. destruct (Fin u v Vu Vv L1) as (ru & Ru & Pu). destruct (Fin v u Vv Vu L2) as (rv & Rv & Pv).
  pose proof (Le _ _ _ _ Ru Rv Pv L1). pose proof (Le _ _ _ _ Rv Ru Pu L2). lra.
Qed.

(** A pattern with the transform of its corners. *)
Definition proper (c : capstone spec_float) : Prop :=
  persp_create (cap_corners c) (n_of 7) (n_of 7) = Some (cap_c c).

Lemma sides_differ caps idx a b s : Forall proper caps -> viable caps idx a b s -> a <> b.
Proof.
  intros F (da & db & (_ & u & Oa & La) & (_ & v & Ob & Lb) & _) <-. rewrite Oa in Ob. injection Ob as -> ->.
  unfold offsets in Oa. destruct (nth_error caps idx) as [cap|] eqn:Ei; [|discriminate].
  destruct (nth_error caps a) as [o|]; [|discriminate].
  destruct (unmap_valid (cap_c cap) (cap_center o)) as [V1 V2].
  { eapply create_valid; [apply valid_of|apply valid_of|].
    apply nth_error_In in Ei. rewrite Forall_forall in F. apply (F cap Ei). }
  destruct (persp_unmap _ _) as [x y]. cbn [fst snd] in *. injection Oa as <- <-.
  apply (not_both (n_sub x (n_ratio 7 2)) (n_sub y (n_ratio 7 2))); [validity..|exact La|exact Lb].
Qed.

(** Patterns found in an image are proper. *)
Lemma examine_proper y o p caps p' caps' : Forall proper caps -> examine y o (p, caps) = Ok (p', caps') -> Forall proper caps'.
Proof.
  intros F E. unfold examine in E. destruct o as [l|]; [|injection E as <- <-; assumption].
  apply bind_ok_inv in E as ([b p1] & _ & E). destruct (negb b); [injection E as <- <-; assumption|].
  apply bind_ok_inv in E as ([[c|] p2] & Ec & E); injection E as <- <-; [|assumption].
  constructor; [|assumption]. unfold create_capstone in Ec.
  apply bind_ok_inv in Ec as ([p3 f] & _ & Ec). apply bind_ok_inv in Ec as (a & _ & Ec).
  apply bind_ok_inv in Ec as ([p4 a'] & _ & Ec). apply bind_ok_inv in Ec as (k & _ & Ec).
  destruct (persp_create k (n_of 7) (n_of 7)) as [c'|] eqn:Ek; [|discriminate].
  apply bind_ok_inv in Ec as (ct & _ & Ec). injection Ec as <- <-. exact Ek.
Qed.

Lemma search_proper p caps p' : capstones_from_image (T := spec_float) p = Ok (caps, p') -> Forall proper caps.
Proof.
  unfold capstones_from_image. intros E. apply bind_ok_inv in E as ([q cs] & E & E2). injection E2 as <- <-.
  apply Forall_rev. cbn [snd].
  apply (for_each_last _ _ _ _ (fun s : prepared * list (capstone spec_float) => Forall proper (snd s))) in E; [exact E|constructor|].
  intros y [p0 caps] s' _ F E1'. revert E1'. clear -F. intros E. unfold scan_row in E. apply bind_ok_inv in E as (cc & _ & E).
  apply bind_ok_inv in E as ([fi [p1 caps1]] & E1 & E). apply bind_ok_inv in E as (r & _ & E).
  destruct s' as [p2 caps2]. cbn [snd] in *. eapply examine_proper; [|exact E].
  apply (for_each_last _ _ _ _ (fun t : _ * (prepared * list (capstone spec_float)) => Forall proper (snd (snd t)))) in E1; [exact E1|exact F|].
  intros x [fi' [p' caps']] s' _ F' E'. revert F' E'. clear. intros F E. cbn [snd] in F. apply bind_ok_inv in E as (cc & _ & E).
  apply bind_ok_inv in E as ([o fi2] & _ & E). apply bind_ok_inv in E as ([p1 caps1] & E1 & E). injection E as <-. cbn [snd].
  eapply examine_proper; eassumption.
Qed.

Theorem rank_f64 {Srt : Sorter spec_float} (caps : list (capstone spec_float)) idx : (idx < length caps)%nat ->
  exists ranked, find_and_rank_possible_neighbors caps idx = Ok (map snd ranked) /\ Sorted.Sorted in_order ranked
  /\ (forall s a b, In (s, (a, b)) ranked <-> viable caps idx a b s).
Proof. intros H. apply rank_ok; [assumption|apply quarter_total|apply quarter_trans]. Qed.

(** Where no finder pattern has more than one plausible pair, the sort does not matter. *)
Lemma rank_forced {Srt : Sorter spec_float} (caps : list (capstone spec_float)) idx l :
  find_and_rank_possible_neighbors (Srt := Insert64) caps idx = Ok l -> (length l <= 1)%nat ->
  find_and_rank_possible_neighbors (Srt := Srt) caps idx = Ok l.
Proof.
  unfold find_and_rank_possible_neighbors. destruct (find_possible_neighbors caps idx) as [[hl vl]| | |]; cbn [bind]; try discriminate.
  set (res := flat_map _ hl). intros E Len. apply bind_ok_inv in E as (l1 & E & El). injection El as <-. rewrite map_length in Len.
  pose proof (sort_keeps (Sorter := Insert64) res l1 E) as P1.
  assert (O : ordered_scores (N := F64) res).
  { assert (Y : forall e, In e res -> n_ltb (N := F64) (fst e) (n_ratio 1 4) = true).
    { intros e I. unfold res in I. apply in_flat_map in I as ([h dh] & _ & I). apply in_flat_map in I as ([v dv] & _ & I). cbn [fst snd] in I.
      destruct (n_ltb (neighbor_score dh dv) _) eqn:L; [|destruct I]. destruct I as [<-|[]]. exact L. }
    split.
    - intros e e' I I'. apply quarter_total; apply Y; assumption.
    - intros e e' e'' I I' I''. apply quarter_trans; apply Y; assumption. }
  destruct (sort_orders (Sorter := Srt) res O) as (l2 & E2 & _). pose proof (sort_keeps (Sorter := Srt) res l2 E2) as P2.
  unfold out in *. rewrite E2. cbn [bind]. f_equal. f_equal.
  assert (P : Permutation l1 l2) by (eapply Permutation_trans; [apply Permutation_sym; exact P1|exact P2]).
  destruct l1 as [|e [|e' l1]]; cbn [length] in Len; [|apply Permutation_length_1_inv in P; exact P|lia].
  apply Permutation_nil in P. exact P.
Qed.

Definition few_pairs (p : prepared) : bool :=
  match capstones_from_image (T := spec_float) p with
  | Ok (caps, _) => forallb (fun idx => match find_and_rank_possible_neighbors (Srt := Insert64) caps idx with
      | Ok l => Nat.leb (length l) 1 | _ => false end) (range 0 (length caps))
  | _ => false
  end.

Lemma detect_forced {Srt : Sorter spec_float} p : few_pairs p = true -> detect_grids (Srt := Srt) p = detect_grids (Srt := Insert64) p.
Proof.
  unfold few_pairs, detect_grids. destruct (capstones_from_image p) as [[caps p1]| | |]; try discriminate. cbn [bind]. intros F.
  assert (G : find_groupings (Srt := Srt) p1 caps = find_groupings (Srt := Insert64) p1 caps); [|rewrite G; reflexivity].
  unfold find_groupings, find_groupings_indexed. f_equal. f_equal. revert F. generalize (range 0 (length caps)) as is.
  generalize (@nil nat, @nil ((nat * nat * nat) * group spec_float)) as s. intros s is. revert s. induction is as [|i is IH]; intros s F; [reflexivity|].
  cbn [forallb] in F. apply andb_prop in F as [F1 F2]. cbn [for_each].
  destruct (find_and_rank_possible_neighbors (Srt := Insert64) caps i) as [l| | |] eqn:E; try discriminate. apply Nat.leb_le in F1.
  rewrite (rank_forced caps i l E F1). cbn [bind]. destruct (if used_in (fst s) i then Ok s else for_each l (try_pair p1 caps i) s); cbn [bind]; try reflexivity.
  apply IH. exact F2.
Qed.

Lemma forced_scan {Srt : Sorter spec_float} (prepare : out prepared) r :
  (let* p := prepare in if few_pairs p then detect_grids (Srt := Insert64) p else Diverge) = r -> r <> Diverge ->
  (let* p := prepare in detect_grids (Srt := Srt) p) = r.
Proof.
  intros E N. destruct prepare as [p| | |]; cbn [bind] in *; try exact E.
  destruct (few_pairs p) eqn:F; [|congruence]. rewrite (detect_forced p F). exact E.
Qed.

(** The search for the alignment pattern. *)
From Verif Require Import Base Lib ModelImage ModelGeometry ModelDetect ModelIdentify SpecImage SpecIdentify FloodProofs RegionProofs CornerProofs SearchProofs HistoryProofs GeometryProofs.
Open Scope Z_scope.
Set Bullet Behavior "Strict Subproofs".

Definition claimed (p : prepared) (q : pixel) : Prop := 2 <= pix (p_buf p) q <= 4.

(** A place whose component nobody has claimed and has about the right size. *)
Definition candidate (I0 : image) (p : prepared) (est : Z) (q : pixel) : Prop :=
  in_image I0 q /\ pix I0 q <> 0 /\ ~ claimed p q /\ exists n, area (iblob I0 q) n /\ est / 2 <= n <= est * 2.

Definition obstacle (I0 : image) (p : prepared) (q : pixel) : Prop := in_image I0 q /\ claimed p q.

Definition same_claims (I0 : image) (p p' : prepared) : Prop :=
  forall q, in_image I0 q -> (claimed p q <-> claimed p' q).

Lemma same_claims_refl I0 p : same_claims I0 p p.
Proof. intros q _. reflexivity. Qed.

Lemma kept_claims I0 p p' : claims_kept I0 p p' -> same_claims I0 p p'.
Proof.
  intros K q I. unfold claimed. split; intros H.
  - rewrite (K q I); [assumption|]. right. left. exact H.
  - rewrite <- (K q I); [assumption|]. right. right. exact H.
Qed.

Lemma same_claims_trans I0 p1 p2 p3 : same_claims I0 p1 p2 -> same_claims I0 p2 p3 -> same_claims I0 p1 p3.
Proof. intros A B q I. rewrite (A q I). apply B. assumption. Qed.

Lemma candidate_same I0 p p' est q : same_claims I0 p p' -> (candidate I0 p est q <-> candidate I0 p' est q).
Proof.
  intros S. unfold candidate. split; intros (I & N & C & H); (split; [assumption|]); (split; [assumption|]);
    (split; [|assumption]); rewrite <- (S q I) || rewrite (S q I); assumption.
Qed.

Lemma obstacle_same I0 p p' q : same_claims I0 p p' -> (obstacle I0 p q <-> obstacle I0 p' q).
Proof. intros S. unfold obstacle. split; intros (I & C); (split; [assumption|]); apply (S q I); assumption. Qed.

Definition pt (q : pixel) : point := MkPoint (fst q) (snd q).

Definition near_pt (q : pixel) : Prop := - 2 ^ 31 < fst q < 2 ^ 31 - 1 /\ - 2 ^ 31 < snd q < 2 ^ 31 - 1.

(** One pass. *)
Lemma pass_ok I0 p est n q : reg_inv I0 p -> im_w I0 <= 2 ^ 62 -> im_h I0 <= 2 ^ 62 -> near_pt q ->
  (candidate I0 p est q /\ ~ obstacle I0 p q /\ exists p', align_pass est (Nat.modulo n 4) (p, pt q, false) = Ok (p', pt q, true)
     /\ reg_inv I0 p' /\ same_claims I0 p p')
  \/ (obstacle I0 p q /\ exists p', align_pass est (Nat.modulo n 4) (p, pt q, false) = Ok (p', pt q, false)
     /\ reg_inv I0 p' /\ same_claims I0 p p')
  \/ (~ candidate I0 p est q /\ ~ obstacle I0 p q /\ exists p', align_pass est (Nat.modulo n 4) (p, pt q, false)
       = Ok (p', pt (fst q + fst (leg_dir n), snd q + snd (leg_dir n)), false)
     /\ reg_inv I0 p' /\ same_claims I0 p p').
Proof.
  intros R Bw Bh Nq.
  set (q' := (fst q + fst (leg_dir n), snd q + snd (leg_dir n))).
  pose (step := fun p1 : prepared => (let* dx := aget dx_map (Nat.modulo n 4) in
      let* dy := aget dy_map (Nat.modulo n 4) in
      let* sx := ival (px (pt q) + dx)%iexp in
      let* sy := ival (py (pt q) + dy)%iexp in
      Ok (p1, MkPoint sx sy, false)) : out (prepared * point * bool)).
  assert (Step : forall p1, step p1 = Ok (p1, pt q', false)).
  { intros p1. unfold step, q', leg_dir. pose proof (Nat.mod_upper_bound n 4 ltac:(lia)).
    destruct Nq as [[N1 N2] [N3 N4]].
    assert (D : forall z d, - 2 ^ 31 < z < 2 ^ 31 - 1 -> -1 <= d <= 1 -> ival (z + d)%iexp = Ok (z + d)).
    { intros z d Hz Hd. cbn [ival bind]. unfold i32, i32_min, i32_max.
      replace (_ && _) with true; [reflexivity|]. symmetry. apply andb_true_iff. split; apply Z.leb_le; lia. }
    destruct (Nat.modulo n 4) as [|[|[|[|]]]]; [..|lia];
      cbn [aget nth_error dx_map dy_map bind fst snd pt px py]; unfold pt; cbn [px py fst snd];
      (rewrite D by lia); cbn [bind]; (rewrite D by lia); reflexivity. }
  assert (Sz : p_w p = im_w I0 /\ p_h p = im_h I0) by apply (bi_size _ _ (ri_base _ _ R)). destruct Sz as [Sw Sh].
  assert (IQ : in_image I0 q <-> ((as_usize (fst q) <? p_w p) && (as_usize (snd q) <? p_h p) = true)).
  { rewrite Sw, Sh, andb_true_iff, !Z.ltb_lt. unfold in_image, as_usize. destruct Nq as [Q1 Q2]. split.
    - intros [[A B] [C D]]. rewrite !Z.mod_small; lia.
    - intros [A B]. assert (0 <= fst q). { apply Z.nlt_ge. intros L. replace (fst q mod 18446744073709551616) with (fst q + 18446744073709551616) in A; [lia|].
        rewrite <- (Z_mod_plus_full (fst q) 1). rewrite Z.mod_small; lia. }
      assert (0 <= snd q). { apply Z.nlt_ge. intros L. replace (snd q mod 18446744073709551616) with (snd q + 18446744073709551616) in B; [lia|].
        rewrite <- (Z_mod_plus_full (snd q) 1). rewrite Z.mod_small; lia. }
      rewrite Z.mod_small in A, B by lia. unfold inside. lia. }
  unfold align_pass. cbn [pt px py]. change (MkPoint (fst q) (snd q)) with (pt q).
  destruct ((as_usize (fst q) <? p_w p) && (as_usize (snd q) <? p_h p)) eqn:B.
  2: { right. right. assert (NI : ~ in_image I0 q) by (intros H; apply IQ in H; discriminate).
       split; [intros (I & _); contradiction|]. split; [intros (I & _); contradiction|].
       exists p. split; [apply Step|]. split; [assumption|apply same_claims_refl]. }
  assert (I : in_image I0 q) by (apply IQ; reflexivity). clear IQ.
  assert (Ex : as_usize (fst q) = fst q) by (unfold as_usize; destruct I as [[? ?] _]; apply Z.mod_small; lia).
  assert (Ey : as_usize (snd q) = snd q) by (unfold as_usize; destruct I as [_ [? ?]]; apply Z.mod_small; lia).
  rewrite Ex, Ey. assert (Eq : q = (fst q, snd q)) by (destruct q; reflexivity).
  destruct (pix_color I0 p (fst q) (snd q) R) as [E C]; [apply I|apply I|]. unfold out in *. rewrite E. cbn [bind].
  rewrite <- Eq in *.
  destruct (is_white (color_of (pix (p_buf p) q))) eqn:W.
  { right. right. assert (Z0 : pix (p_buf p) q = 0).
    { destruct (pix (p_buf p) q) as [|[[?|?|]|[?|[?|?|]|]|]|]; try reflexivity; try discriminate W. }
    split; [intros (_ & N0 & _); apply N0; apply (bi_white _ _ (ri_base _ _ R) q I); assumption|].
    split; [intros (_ & Cl); unfold claimed in Cl; lia|].
    exists p. split; [apply Step|]. split; [assumption|apply same_claims_refl]. }
  assert (N0 : pix (p_buf p) q <> 0) by (intros H; rewrite H in W; discriminate).
  rewrite Eq in I, N0.
  destruct (get_region_ok I0 p (fst q) (snd q) R I N0) as (reg & p1 & Er & R1 & K & An & _). rewrite <- Eq in *.
  rewrite Er. cbn [bind]. pose proof (kept_claims _ _ _ K) as SC.
  assert (NI0 : pix I0 q <> 0) by (intros H; apply N0; apply (bi_white _ _ (ri_base _ _ R) q I); assumption).
  assert (Cases : (claimed p q /\ (reg = RCapStone \/ reg = RAlignment \/ reg = RTmp1)) \/
     (~ claimed p q /\ exists k sx sy m, reg = Unclaimed (Discarded k) sx sy m /\ area (iblob I0 q) m)).
  { unfold region_answer in An. unfold claimed.
    destruct (Z.eq_dec (pix (p_buf p) q) 2) as [E2|E2]; [rewrite E2 in An; left; split; [lia|auto]|].
    destruct (Z.eq_dec (pix (p_buf p) q) 3) as [E3|E3]; [rewrite E3 in An; left; split; [lia|auto]|].
    destruct (Z.eq_dec (pix (p_buf p) q) 4) as [E4|E4]; [rewrite E4 in An; left; split; [lia|auto]|].
    right. split; [lia|]. destruct (pix (p_buf p) q) as [|[[?|?|]|[?|[?|?|]|]|]|]; try (exfalso; lia);
      destruct An as (k & sx & sy & m & -> & _ & _ & A & _); exists k, sx, sy, m; auto. }
  destruct Cases as [(Cl & Hr)|(NC & k & sx & sy & m & -> & A)].
  - right. left. split; [split; assumption|]. exists p1.
    destruct Hr as [-> | [-> | -> ]]; (split; [reflexivity|]); split; assumption.
  - destruct ((est / 2 <=? m) && (m <=? est * 2)) eqn:L.
    + left. apply andb_true_iff in L as [L1 L2]. apply Z.leb_le in L1, L2.
      split; [split; [assumption|]; split; [assumption|]; split; [assumption|]; exists m; auto|].
      split; [intros (_ & Cl); contradiction|]. exists p1. split; [reflexivity|]. split; assumption.
    + right. right. split.
      { intros (_ & _ & _ & m' & A' & H). assert (m' = m) by (eapply area_unique; eassumption). subst m'.
        destruct H as [H1 H2]. apply Z.leb_le in H1, H2. rewrite H1, H2 in L. discriminate. }
      split; [intros (_ & Cl); contradiction|]. exists p1. split; [apply Step|]. split; assumption.
Qed.

(** * Legs *)

Definition moved (q d : pixel) (k : nat) : pixel := (fst q + Z.of_nat k * fst d, snd q + Z.of_nat k * snd d).

Lemma found_stays est dir l s : for_each l (fun _ : nat => align_pass est dir) (s, true) = Ok (s, true).
Proof. induction l as [|a l IH]; cbn [for_each]; [reflexivity|]. destruct s. cbn [align_pass bind]. exact IH. Qed.

Lemma stuck_leg I0 p0 est n q : im_w I0 <= 2 ^ 62 -> im_h I0 <= 2 ^ 62 -> near_pt q ->
  obstacle I0 p0 q -> forall l p, reg_inv I0 p -> same_claims I0 p0 p ->
  exists p', for_each l (fun _ : nat => align_pass est (Nat.modulo n 4)) (p, pt q, false) = Ok (p', pt q, false)
    /\ reg_inv I0 p' /\ same_claims I0 p0 p'.
Proof.
  intros Bw Bh Nq O l. induction l as [|a l IH]; intros p R S; cbn [for_each].
  - exists p. auto.
  - destruct (pass_ok I0 p est n q R Bw Bh Nq) as [(_ & NO & _)|[(_ & p1 & E & R1 & S1)|(_ & NO & _)]];
      try (exfalso; apply NO; apply (obstacle_same _ _ _ _ S); assumption).
    unfold out in *. rewrite E. cbn [bind]. apply IH; [assumption|]. eapply same_claims_trans; eassumption.
Qed.

Lemma leg_ok I0 p0 est n : im_w I0 <= 2 ^ 62 -> im_h I0 <= 2 ^ 62 -> forall l p q,
  reg_inv I0 p -> same_claims I0 p0 p ->
  (forall k, (k < length l)%nat -> near_pt (moved q (leg_dir n) k)) ->
  let path := places q (repeat (leg_dir n) (length l)) in
  exists p' q' b, for_each l (fun _ : nat => align_pass est (Nat.modulo n 4)) (p, pt q, false) = Ok (p', pt q', b)
   /\ reg_inv I0 p' /\ same_claims I0 p0 p'
   /\ (if b : bool then first_hit (candidate I0 p0 est) (obstacle I0 p0) path (Some q')
       else (In q' path /\ obstacle I0 p0 q' /\ first_hit (candidate I0 p0 est) (obstacle I0 p0) path None)
         \/ (q' = moved q (leg_dir n) (length l)
             /\ Forall (fun r => ~ candidate I0 p0 est r /\ ~ obstacle I0 p0 r) path)).
Proof.
  intros Bw Bh l. induction l as [|a l IH]; intros p q R S Nr path; cbn [for_each].
  { exists p, q, false. split; [reflexivity|]. split; [assumption|]. split; [assumption|]. right.
    split; [unfold moved; cbn; rewrite !Z.add_0_r; destruct q; reflexivity|constructor]. }
  assert (Nq : near_pt q).
  { specialize (Nr 0%nat ltac:(cbn; lia)). unfold moved in Nr. cbn in Nr. rewrite !Z.add_0_r in Nr. destruct q; exact Nr. }
  subst path. cbn [length repeat places].
  destruct (pass_ok I0 p est n q R Bw Bh Nq) as [(G & NO & p1 & E & R1 & S1)|[(O & p1 & E & R1 & S1)|(NG & NO & p1 & E & R1 & S1)]];
    unfold out in *; rewrite E; cbn [bind]; assert (S' : same_claims I0 p0 p1) by (eapply same_claims_trans; eassumption).
  - exists p1, q, true. split; [apply found_stays|]. split; [assumption|]. split; [assumption|].
    constructor; [apply (candidate_same _ _ _ _ _ S); assumption|]. intros H. apply NO. apply (obstacle_same _ _ _ _ S). assumption.
  - assert (O0 : obstacle I0 p0 q) by (apply (obstacle_same _ _ _ _ S); assumption).
    destruct (stuck_leg I0 p0 est n q Bw Bh Nq O0 l p1 R1 S') as (p2 & E2 & R2 & S2).
    exists p2, q, false. split; [exact E2|]. split; [assumption|]. split; [assumption|]. left.
    split; [left; reflexivity|]. split; [assumption|]. apply hit_stop. assumption.
  - set (q1 := (fst q + fst (leg_dir n), snd q + snd (leg_dir n))) in *.
    assert (M : forall k, moved q1 (leg_dir n) k = moved q (leg_dir n) (Datatypes.S k)).
    { intros k. unfold moved, q1. cbn [fst snd]. f_equal; lia. }
    assert (NG0 : ~ candidate I0 p0 est q) by (intros H; apply NG; apply (candidate_same _ _ _ _ _ S); assumption).
    assert (NO0 : ~ obstacle I0 p0 q) by (intros H; apply NO; apply (obstacle_same _ _ _ _ S); assumption).
    destruct (IH p1 q1 R1 S') as (p2 & q2 & b & E2 & R2 & S2 & H).
    { intros k Hk. rewrite M. apply Nr. cbn. lia. }
    exists p2, q2, b. split; [exact E2|]. split; [assumption|]. split; [assumption|]. destruct b.
    + apply hit_next; assumption.
    + destruct H as [(I & O & F)|(Eq & F)]; [left|right].
      * split; [right; exact I|]. split; [assumption|]. apply hit_next; assumption.
      * split; [rewrite Eq; apply M|]. constructor; [split; assumption|exact F].
Qed.

Lemma hit_app good obst l1 l2 r : Forall (fun q => ~ good q /\ ~ obst q) l1 ->
  first_hit good obst l2 r -> first_hit good obst (l1 ++ l2) r.
Proof. intros F H. induction F as [|q l [A B] F IH]; cbn [app]; [assumption|]. apply hit_next; assumption. Qed.

Lemma hit_more good obst l1 l2 r : first_hit good obst l1 r -> (r <> None \/ exists q, In q l1 /\ obst q) ->
  first_hit good obst (l1 ++ l2) r.
Proof.
  intros H. induction H; intros D; cbn [app].
  - destruct D as [D|(q & [] & _)]. congruence.
  - apply hit_good; assumption.
  - apply hit_stop. assumption.
  - apply hit_next; [assumption..|]. apply IHfirst_hit. destruct D as [D|(o & [->|I] & O)]; [left; assumption|contradiction|].
    right. exists o. auto.
Qed.

Lemma places_app q l1 l2 : exists q', places q (l1 ++ l2) = places q l1 ++ places q' l2
  /\ (forall d k, l1 = repeat d k -> q' = moved q d k).
Proof.
  revert q. induction l1 as [|d l1 IH]; intros q; cbn [app places].
  - exists q. split; [reflexivity|]. intros d [|k] E; [|discriminate]. unfold moved. cbn. rewrite !Z.add_0_r. destruct q; reflexivity.
  - destruct (IH (fst q + fst d, snd q + snd d)) as (q' & E & M). exists q'. rewrite E. split; [reflexivity|].
    intros d' [|k] Ek; [discriminate|]. cbn [repeat] in Ek. injection Ek as -> ->. rewrite (M d' k eq_refl). unfold moved. cbn [fst snd]. f_equal; lia.
Qed.

(** * The whole spiral *)

(** The offset at the start of a leg. *)
Definition leg_start (n : nat) : pixel :=
  let k := Z.of_nat (Nat.div n 4) in
  match Nat.modulo n 4 with O => (- k, k) | 1%nat => (k + 1, k) | 2%nat => (k + 1, - k - 1) | _ => (- k - 1, - k - 1) end.

Lemma div2_4 n : Nat.div2 n = (2 * (Nat.div n 4) + (if Nat.ltb (Nat.modulo n 4) 2 then 0 else 1))%nat.
Proof.
  rewrite Nat.div2_div. pose proof (Nat.div_mod n 4 ltac:(lia)) as E. pose proof (Nat.mod_upper_bound n 4 ltac:(lia)) as B.
  set (k := Nat.div n 4) in *. set (r := Nat.modulo n 4) in *.
  symmetry. apply (Nat.div_unique n 2 _ (if Nat.ltb r 2 then r else r - 2)%nat).
  - destruct (Nat.ltb_spec r 2); lia.
  - destruct (Nat.ltb_spec r 2); lia.
Qed.

Lemma mod_succ n : Nat.modulo (S n) 4 = Nat.modulo (Nat.modulo n 4 + 1) 4
  /\ Nat.div (S n) 4 = (Nat.div n 4 + (if Nat.eqb (Nat.modulo n 4) 3 then 1 else 0))%nat.
Proof.
  pose proof (Nat.div_mod n 4 ltac:(lia)) as E. pose proof (Nat.mod_upper_bound n 4 ltac:(lia)) as B.
  set (k := Nat.div n 4) in *. set (r := Nat.modulo n 4) in *. split.
  - rewrite E. replace (S (4 * k + r)) with ((r + 1) + k * 4)%nat by lia. apply Nat.mod_add. lia.
  - symmetry. apply (Nat.div_unique (S n) 4 _ (if Nat.eqb r 3 then 0 else r + 1)%nat); destruct (Nat.eqb_spec r 3); lia.
Qed.

Lemma leg_start_next n : leg_start (S n) = moved (leg_start n) (leg_dir n) (leg_len n).
Proof.
  unfold leg_start, moved, leg_dir, leg_len. rewrite div2_4. destruct (mod_succ n) as [-> ->].
  pose proof (Nat.mod_upper_bound n 4 ltac:(lia)) as B. destruct (Nat.modulo n 4) as [|[|[|[|]]]]; [..|lia];
    cbn [Nat.modulo Nat.divmod Nat.add Nat.sub fst snd Nat.eqb Nat.ltb Nat.leb]; f_equal; lia.
Qed.

Lemma leg_near n k : (k <= leg_len n)%nat ->
  Z.abs (fst (moved (leg_start n) (leg_dir n) k)) <= Z.of_nat (leg_len n) /\
  Z.abs (snd (moved (leg_start n) (leg_dir n) k)) <= Z.of_nat (leg_len n).
Proof.
  unfold leg_start, moved, leg_dir, leg_len. rewrite div2_4. pose proof (Nat.mod_upper_bound n 4 ltac:(lia)) as B.
  destruct (Nat.modulo n 4) as [|[|[|[|]]]]; [..|lia]; cbn [fst snd Nat.ltb Nat.leb]; lia.
Qed.

(** The number of legs: those whose squared length is below a hundred times the estimate. *)
Definition legs_of (est : Z) (legs : nat) : Prop :=
  forall k, (k < legs)%nat <-> Z.of_nat (leg_len k) * Z.of_nat (leg_len k) < est * 100.

Lemma next_dir n : Nat.modulo (Nat.modulo n 4 + 1) 4 = Nat.modulo (S n) 4.
Proof. symmetry. apply (mod_succ n). Qed.

Lemma next_len n : (if Nat.even (Nat.modulo (S n) 4) then Z.of_nat (leg_len n) + 1 else Z.of_nat (leg_len n)) = Z.of_nat (leg_len (S n)).
Proof.
  unfold leg_len. rewrite !div2_4. destruct (mod_succ n) as [-> ->].
  pose proof (Nat.mod_upper_bound n 4 ltac:(lia)) as B. destruct (Nat.modulo n 4) as [|[|[|[|]]]]; [..|lia];
    cbn [Nat.modulo Nat.divmod Nat.add Nat.sub fst snd Nat.eqb Nat.ltb Nat.leb Nat.even]; lia.
Qed.

Definition shift (q o : pixel) : pixel := (fst q + fst o, snd q + snd o).

Lemma moved_shift q o d k : moved (shift q o) d k = shift q (moved o d k).
Proof. unfold moved, shift. cbn [fst snd]. f_equal; lia. Qed.

Lemma spiral_ok I0 p0 est legs base : im_w I0 <= 2 ^ 62 -> im_h I0 <= 2 ^ 62 -> legs_of est legs ->
  Z.abs (fst base) <= 2 ^ 30 -> Z.abs (snd base) <= 2 ^ 30 -> est * 100 <= 2 ^ 58 ->
  forall m n fuel p, (n + m = legs)%nat -> (m <= fuel)%nat -> reg_inv I0 p -> same_claims I0 p0 p ->
  exists r p', align_spiral fuel est (Nat.modulo n 4) (Z.of_nat (leg_len n)) p (pt (shift base (leg_start n))) = Ok (option_map pt r, p')
   /\ reg_inv I0 p' /\ same_claims I0 p0 p'
   /\ first_hit (candidate I0 p0 est) (obstacle I0 p0) (places (shift base (leg_start n)) (flat_map leg_steps (seq n m))) r.
Proof.
  intros Bw Bh HL Bx By Be.
  assert (Near : forall n k, (n < legs)%nat -> (k <= leg_len n)%nat -> near_pt (moved (shift base (leg_start n)) (leg_dir n) k)).
  { intros n k Hn Hk. rewrite moved_shift. pose proof (leg_near n k Hk) as [A B].
    apply HL in Hn. assert (Z.of_nat (leg_len n) < 2 ^ 29) by nia.
    unfold near_pt, shift. cbn [fst snd]. lia. }
  (* stuck at an obstacle: every further leg leaves the place unchanged *)
  assert (Stuck : forall q, obstacle I0 p0 q -> near_pt q -> forall m n fuel p, (n + m = legs)%nat -> (m <= fuel)%nat -> reg_inv I0 p -> same_claims I0 p0 p ->
    exists p', align_spiral fuel est (Nat.modulo n 4) (Z.of_nat (leg_len n)) p (pt q) = Ok (None, p') /\ reg_inv I0 p' /\ same_claims I0 p0 p').
  { intros q O Nq m. induction m as [|m IH]; intros n fuel p Hn Hf R S.
    - assert (L : (Z.of_nat (leg_len n) * Z.of_nat (leg_len n) <? est * 100) = false).
      { apply Z.ltb_ge. apply Z.nlt_ge. rewrite <- (HL n). lia. }
      exists p. destruct fuel; cbn [align_spiral]; rewrite L; auto.
    - assert (L : (Z.of_nat (leg_len n) * Z.of_nat (leg_len n) <? est * 100) = true).
      { apply Z.ltb_lt. rewrite <- (HL n). lia. }
      destruct fuel as [|fuel]; [lia|]. cbn [align_spiral]. rewrite L.
      destruct (stuck_leg I0 p0 est n q Bw Bh Nq O (range 0 (Z.to_nat (Z.of_nat (leg_len n)))) p R S) as (p1 & E1 & R1 & S1).
      unfold out in *. rewrite E1. cbn [bind]. rewrite next_dir, next_len. apply IH; [lia|lia|assumption..]. }
  intros m. induction m as [|m IH]; intros n fuel p Hn Hf R S.
  - assert (L : (Z.of_nat (leg_len n) * Z.of_nat (leg_len n) <? est * 100) = false).
    { apply Z.ltb_ge. apply Z.nlt_ge. rewrite <- (HL n). lia. }
    exists None, p. cbn [seq flat_map places option_map]. split; [destruct fuel; cbn [align_spiral]; rewrite L; reflexivity|].
    split; [assumption|]. split; [assumption|constructor].
  - assert (L : (Z.of_nat (leg_len n) * Z.of_nat (leg_len n) <? est * 100) = true).
    { apply Z.ltb_lt. rewrite <- (HL n). lia. }
    destruct fuel as [|fuel]; [lia|]. cbn [align_spiral]. rewrite L. rewrite Nat2Z.id.
    assert (Ln : length (range 0 (leg_len n)) = leg_len n) by (unfold range; rewrite seq_length; lia).
    destruct (leg_ok I0 p0 est n Bw Bh (range 0 (leg_len n)) p (shift base (leg_start n)) R S) as (p1 & q1 & b & E1 & R1 & S1 & H).
    { rewrite Ln. intros k Hk. apply Near; lia. }
    rewrite Ln in H. unfold out in *. rewrite E1. cbn [bind].
    cbn [seq flat_map]. destruct (places_app (shift base (leg_start n)) (leg_steps n) (flat_map leg_steps (seq (Datatypes.S n) m))) as (q' & Ep & Mq).
    specialize (Mq (leg_dir n) (leg_len n) eq_refl). rewrite Ep. fold (leg_steps n) in H. destruct b.
    + exists (Some q1), p1. split; [reflexivity|]. split; [assumption|]. split; [assumption|]. apply hit_more; [assumption|left; discriminate].
    + rewrite next_dir, next_len. destruct H as [(I & O & F)|(Eq & F)].
      * assert (Nq : near_pt q1).
        { assert (forall q l, In q1 (places q (repeat (leg_dir n) l)) -> exists k, (k < l)%nat /\ q1 = moved q (leg_dir n) k) as K.
          { clear. intros q l. revert q. induction l as [|l IHl]; intros q; cbn [repeat places]; [intros []|]. intros [<-|I].
            - exists 0%nat. split; [lia|]. unfold moved. cbn. rewrite !Z.add_0_r. destruct q; reflexivity.
            - apply IHl in I as (k & Hk & ->). exists (S k). split; [lia|]. unfold moved. cbn [fst snd]. f_equal; lia. }
          apply K in I as (k & Hk & ->). apply Near; lia. }
        destruct (Stuck q1 O Nq m (Datatypes.S n) fuel p1 ltac:(lia) ltac:(lia) R1 S1) as (p2 & E2 & R2 & S2).
        exists None, p2. split; [exact E2|]. split; [assumption|]. split; [assumption|].
        apply hit_more; [assumption|]. right. exists q1. auto.
      * rewrite moved_shift, <- leg_start_next in Eq. rewrite moved_shift, <- leg_start_next in Mq. subst q1 q'.
        destruct (IH (Datatypes.S n) fuel p1 ltac:(lia) ltac:(lia) R1 S1) as (r & p2 & E2 & R2 & S2 & F2).
        exists r, p2. split; [exact E2|]. split; [assumption|]. split; [assumption|]. apply hit_app; assumption.
Qed.

Lemma legs_exist est : exists legs, legs_of est legs /\ (legs <= Z.to_nat (2 * Z.sqrt (est * 100) + 4))%nat.
Proof.
  destruct (Z_le_gt_dec est 0) as [H|H].
  { exists 0%nat. split; [|lia]. intros k. split; [lia|]. intros L. pose proof (Z.square_nonneg (Z.of_nat (leg_len k))). nia. }
  (* the lengths that still count are those up to s *)
  set (s := Z.sqrt (est * 100 - 1)).
  pose proof (Z.sqrt_spec (est * 100 - 1) ltac:(lia)) as S. fold s in S. cbn zeta in S.
  assert (S0 : 0 <= s) by apply Z.sqrt_nonneg.
  exists (Z.to_nat (2 * s)). split.
  - intros k. unfold leg_len. rewrite Nat.div2_div.
    assert (K : (k < Z.to_nat (2 * s))%nat <-> Z.of_nat (Datatypes.S (k / 2)) <= s).
    { pose proof (Nat.div_mod k 2 ltac:(lia)). pose proof (Nat.mod_upper_bound k 2 ltac:(lia)). lia. }
    rewrite K. set (u := Z.of_nat _). assert (0 < u) by (unfold u; lia). nia.
  - assert (s <= Z.sqrt (est * 100)) by (apply Z.sqrt_le_mono; lia). lia.
Qed.

(** C43: what the search over the spiral returns. *)
Theorem alignment_spiral I0 p est q : reg_inv I0 p -> im_w I0 <= 2 ^ 62 -> im_h I0 <= 2 ^ 62 ->
  Z.abs (fst q) <= 2 ^ 30 -> Z.abs (snd q) <= 2 ^ 30 -> est * 100 <= 2 ^ 58 ->
  exists legs r p', legs_of est legs
    /\ align_spiral (Z.to_nat (2 * Z.sqrt (est * 100) + 4)) est 0 1 p (pt q) = Ok (option_map pt r, p')
    /\ first_hit (candidate I0 p est) (obstacle I0 p) (spiral q legs) r.
Proof.
  intros R Bw Bh Bx By Be. destruct (legs_exist est) as (legs & HL & Hf).
  destruct (spiral_ok I0 p est legs q Bw Bh HL Bx By Be legs 0%nat (Z.to_nat (2 * Z.sqrt (est * 100) + 4)) p eq_refl Hf R (same_claims_refl _ _)) as (r & p' & E & _ & _ & F).
  exists legs, r, p'. split; [assumption|].
  assert (Q : shift q (leg_start 0) = q) by (unfold shift; cbn; rewrite !Z.add_0_r; destruct q; reflexivity).
  rewrite Q in E, F. split; [exact E|exact F].
Qed.

Section Numbers.
Context {T : Type} {N : Num T}.

Lemma find_alignment_spiral I0 p q (cap0 cap2 : capstone T) o p' : reg_inv I0 p -> im_w I0 <= 2 ^ 62 -> im_h I0 <= 2 ^ 62 ->
  Z.abs (fst q) <= 2 ^ 30 -> Z.abs (snd q) <= 2 ^ 30 ->
  find_alignment_pattern p (pt q) cap0 cap2 = Ok (o, p') ->
  exists est legs r, 0 <= est /\ legs_of est legs /\ o = option_map pt r
    /\ first_hit (candidate I0 p est) (obstacle I0 p) (spiral q legs) r.
Proof.
  intros R Bw Bh Bx By E. unfold find_alignment_pattern in E.
  destruct (persp_unmap (cap_c cap0) (pt q)) as [u v]. apply bind_ok_inv in E as (a & _ & E).
  destruct (persp_unmap (cap_c cap2) (pt q)) as [u' v']. apply bind_ok_inv in E as (c & _ & E).
  apply bind_ok_inv in E as (s & Es & E).
  assert (Bs : - 2 ^ 31 <= s < 2 ^ 31).
  { cbn [ival] in Es. repeat (apply bind_ok_inv in Es as (? & _ & Es)). unfold i32, i32_min, i32_max in Es.
    destruct (_ && _) eqn:B; [|discriminate]. injection Es as <-. apply andb_true_iff in B as [B1 B2].
    apply Z.leb_le in B1, B2. lia. }
  destruct (alignment_spiral I0 p (Z.abs s) q R Bw Bh Bx By ltac:(lia)) as (legs & r & p2 & HL & Ea & F).
  unfold out in *. rewrite E in Ea. exists (Z.abs s), legs, r. split; [lia|]. split; [assumption|]. split; [congruence|assumption].
Qed.
End Numbers.

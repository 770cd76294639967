(** Format information: BCH correction and the two copies. *)
From Verif Require Import Base Lib VersionDb ModelGF ModelRS ModelDecode GFProofs SpecQR StreamProofs.
From Coq Require Import ZifyBool ZifyNat ZifyN.
Ltac Zify.zify_post_hook ::= Z.div_mod_to_equations.

(** * Syndromes are linear *)
Definition synd_bit (u : Z) (i j : nat) : Z :=
  if Z.testbit u (Z.of_nat j) then gf_pow GF16 (gf_gen GF16) ((i + 1) * j) else 0.
Definition syndrome (l : list nat) (u : Z) (i : nat) : Z :=
  fold_left (fun acc j => Z.lxor acc (synd_bit u i j)) l 0.
Notation synd16 := (syndrome (range 0 15)).

Lemma land_shiftl_bit u j : (Z.land u (Z.shiftl 1 (Z.of_nat j)) =? 0) = negb (Z.testbit u (Z.of_nat j)).
Proof.
  rewrite Z.shiftl_1_l.
  assert (E : Z.land u (2 ^ Z.of_nat j) = if Z.testbit u (Z.of_nat j) then 2 ^ Z.of_nat j else 0).
  { apply Z.bits_inj'. intros k Hk. rewrite Z.land_spec, Z.pow2_bits_eqb by lia.
    destruct (Z.eqb_spec (Z.of_nat j) k) as [<-|Hne].
    - rewrite andb_true_r. destruct (Z.testbit u (Z.of_nat j)) eqn:E; [|rewrite Z.bits_0; reflexivity].
      rewrite Z.pow2_bits_true by lia. reflexivity.
    - rewrite andb_false_r. destruct (Z.testbit u (Z.of_nat j)); [|rewrite Z.bits_0; reflexivity].
      rewrite Z.pow2_bits_false by lia. reflexivity. }
  rewrite E. destruct (Z.testbit u (Z.of_nat j)); cbn [negb]; [|reflexivity].
  apply Z.eqb_neq. apply Z.pow_nonzero; lia.
Qed.

Lemma for_fold {E I St} (l : list I) (body : I -> St -> res E St) (f : St -> I -> St) s (P : St -> Prop) :
  P s -> (forall i s, In i l -> P s -> body i s = Ok (f s i) /\ P (f s i)) ->
  for_each l body s = Ok (fold_left f l s) /\ P (fold_left f l s).
Proof.
  revert s. induction l as [|i l IH]; intros s Hs H; cbn [for_each fold_left]; [auto|].
  destruct (H i s (or_introl eq_refl) Hs) as [-> Hs']. cbn [bind]. apply IH; [exact Hs'|].
  intros j t Hj. apply H. right. exact Hj.
Qed.

Lemma gf16_add a b : gf_add GF16 a b = Z.lxor a b.
Proof. reflexivity. Qed.

Definition synd_list (l : list nat) (u : Z) (n : nat) : list Z :=
  map (syndrome l u) (range 0 n) ++ repeat 0 (64 - n).

Lemma synd_list_length l u n : (n <= 64)%nat -> length (synd_list l u n) = 64%nat.
Proof. intros H. unfold synd_list. rewrite app_length, map_length, repeat_length. unfold range. rewrite seq_length. lia. Qed.

Lemma upd_app_r {A} (l1 l2 : list A) n v : length l1 = n -> upd (l1 ++ l2) n v = l1 ++ upd l2 0 v.
Proof. intros <-. induction l1 as [|a l1 IH]; cbn; [reflexivity|]. rewrite IH. reflexivity. Qed.

Lemma zeros_eq : zeros64 GF16 = repeat 0 64.
Proof. vm_compute. reflexivity. Qed.

Lemma synd_inner {E} u n pre rest : length pre = n -> forall l acc,
  for_each l (fun j result =>
        if Z.land u (Z.shiftl 1 (Z.of_nat j)) =? 0 then Ok result
        else
          let* o := aget result n in
          aset result n (gf_add GF16 o (gf_pow GF16 (gf_gen GF16) ((n + 1) * j))))
    (pre ++ acc :: rest)
  = @Ok E _ (pre ++ fold_left (fun acc j => Z.lxor acc (synd_bit u n j)) l acc :: rest).
Proof.
  intros Hpre. induction l as [|j l IHl]; intros acc; cbn [for_each fold_left]; [reflexivity|].
  rewrite land_shiftl_bit. rewrite <- IHl. unfold synd_bit at 1.
  destruct (Z.testbit u (Z.of_nat j)); cbn [negb].
  2:{ rewrite Z.lxor_0_r. reflexivity. }
  rewrite (aget_ok _ 0) by (rewrite app_length; cbn [length]; lia).
  rewrite app_nth2, Hpre, Nat.sub_diag by lia. cbn [nth bind].
  rewrite aset_ok by (rewrite app_length; cbn [length]; lia).
  rewrite upd_app_r by exact Hpre. cbn [upd bind]. rewrite gf16_add. reflexivity.
Qed.

Lemma synd_outer {E} l u n : (n <= 6)%nat ->
  @for_each E nat (bool * list Z) (range 0 n)
    (fun i '(nonzero, result) =>
       let* result := for_each (l)
         (fun j result =>
            if Z.land u (Z.shiftl 1 (Z.of_nat j)) =? 0 then Ok result
            else
              let* o := aget result i in
              aset result i (gf_add GF16 o (gf_pow GF16 (gf_gen GF16) ((i + 1) * j))))
         result in
       let* ri := aget result i in
       Ok (if ri =? 0 then nonzero else true, result))
    (false, repeat 0 64)
  = Ok (existsb (fun i => negb (syndrome l u i =? 0)) (range 0 n), synd_list l u n).
Proof.
  induction n as [|n IH]; intros Hn; [reflexivity|].
  rewrite range_snoc by lia. rewrite for_each_app, IH by lia. cbn [bind for_each].
  unfold synd_list at 1.
  set (pre := map (syndrome l u) (range 0 n)).
  assert (Hpre : length pre = n) by (unfold pre, range; rewrite map_length, seq_length; lia).
  replace (64 - n)%nat with (S (64 - S n)) by lia. cbn [repeat].
  rewrite (synd_inner u n pre _ Hpre). cbn [bind].
  change (fold_left _ l 0) with (syndrome l u n). rewrite (aget_ok _ 0) by (rewrite app_length; cbn [length]; lia).
  rewrite app_nth2, Hpre, Nat.sub_diag by lia. cbn [nth bind].
  rewrite existsb_app. cbn [existsb]. unfold synd_list. rewrite range_snoc by lia.
  rewrite map_app, <- app_assoc. cbn [map app]. fold pre. generalize (syndrome l u n). intros x.
  destruct (x =? 0); cbn [negb]; rewrite ?orb_false_r, ?orb_true_r; reflexivity.
Qed.

Lemma format_syndromes_eq {E} u :
  @format_syndromes E u = Ok (existsb (fun i => negb (synd16 u i =? 0)) (range 0 6), synd_list (range 0 15) u 6).
Proof. unfold format_syndromes. rewrite zeros_eq. apply synd_outer. lia. Qed.

Lemma synd16_lxor u c i : synd16 (Z.lxor u c) i = Z.lxor (synd16 u i) (synd16 c i).
Proof.
  unfold syndrome. generalize (range 0 15). intros l.
  assert (G : forall a b, fold_left (fun acc j => Z.lxor acc (synd_bit (Z.lxor u c) i j)) l (Z.lxor a b)
    = Z.lxor (fold_left (fun acc j => Z.lxor acc (synd_bit u i j)) l a)
             (fold_left (fun acc j => Z.lxor acc (synd_bit c i j)) l b)).
  { induction l as [|j l IH]; intros a b; cbn [fold_left]; [reflexivity|].
    rewrite <- IH. f_equal. unfold synd_bit. rewrite Z.lxor_spec.
    destruct (Z.testbit u (Z.of_nat j)), (Z.testbit c (Z.of_nat j)); cbn [xorb]; rewrite ?Z.lxor_0_r.
    - rewrite lxor_swap, Z.lxor_nilpotent, Z.lxor_0_r. reflexivity.
    - rewrite !Z.lxor_assoc. f_equal. apply Z.lxor_comm.
    - rewrite !Z.lxor_assoc. reflexivity.
    - reflexivity. }
  apply (G 0 0).
Qed.

Notation zero_synd c := (forallb (fun i => synd16 c i =? 0) (range 0 6)).

Lemma pack_ext {E} (f g : nat -> Z) l n : (forall i, In i l -> f i = g i) ->
  @Ok E _ (existsb (fun i => negb (f i =? 0)) l, map f l ++ repeat 0 n)
  = Ok (existsb (fun i => negb (g i =? 0)) l, map g l ++ repeat 0 n).
Proof.
  intros H. assert (Em : map f l = map g l) by (apply map_ext_in; exact H). rewrite Em.
  do 2 f_equal. induction l as [|i l IH]; cbn [existsb]; [reflexivity|].
  rewrite H by (left; reflexivity). rewrite IH; [reflexivity| |].
  - intros j Hj. apply H. right. exact Hj.
  - cbn [map] in Em. congruence.
Qed.

Lemma format_syndromes_shift {E} u c : zero_synd c = true ->
  @format_syndromes E (Z.lxor u c) = format_syndromes u.
Proof.
  intros Hc. rewrite !format_syndromes_eq. rewrite forallb_forall in Hc.
  assert (Es : forall i, In i (range 0 6) -> synd16 (Z.lxor u c) i = synd16 u i).
  { intros i Hi. rewrite synd16_lxor. apply Hc, Z.eqb_eq in Hi. rewrite Hi. apply Z.lxor_0_r. }
  unfold synd_list. apply pack_ext. exact Es.
Qed.

(** Behaviour depends on the syndrome only. *)
Lemma correct_format_shift u c : zero_synd c = true ->
  correct_format (Z.lxor u c) = res_map (fun w => Z.lxor w c) (correct_format u).
Proof.
  intros Hc. unfold correct_format. rewrite format_syndromes_shift by exact Hc.
  rewrite format_syndromes_eq. cbn [bind]. destruct (existsb _ _); [|reflexivity].
  rewrite res_map_bind. apply bind_ext. intros sigma _.
  rewrite (for_each_transport (fun w => Z.lxor w c) (range 0 15) (fun (i : nat) (word : Z) =>
         let* k := nsub 15 i in
         let* v := poly_eval GF16 sigma (gf_pow GF16 (gf_gen GF16) k) in
         Ok (if v =? 0 then Z.lxor word (Z.shiftl 1 (Z.of_nat i)) else word))).
  - rewrite bind_res_map, res_map_bind. apply bind_ext. intros w _.
    rewrite format_syndromes_shift by exact Hc.
    rewrite format_syndromes_eq. cbn [bind]. destruct (existsb _ _); reflexivity.
  - intros i w _. rewrite res_map_bind. apply bind_ext. intros k _.
    rewrite res_map_bind. apply bind_ext. intros v _. cbn [res_map]. f_equal.
    destruct (v =? 0); [|reflexivity]. rewrite !Z.lxor_assoc. f_equal. apply Z.lxor_comm.
Qed.

(** * Hamming distance *)
Definition weight (x : Z) : nat := bit_distance (format_bits x) (format_bits 0).

Lemma bit_distance_xor a b l :
  bit_distance (map (fun i : nat => Z.testbit a (Z.of_nat i)) l) (map (fun i : nat => Z.testbit b (Z.of_nat i)) l)
  = bit_distance (map (fun i : nat => Z.testbit (Z.lxor a b) (Z.of_nat i)) l) (map (fun i : nat => Z.testbit 0 (Z.of_nat i)) l).
Proof.
  induction l as [|i l IH]; cbn [map bit_distance]; [reflexivity|]. rewrite IH. f_equal.
  rewrite Z.lxor_spec, Z.bits_0. destruct (Z.testbit a _), (Z.testbit b _); reflexivity.
Qed.

Lemma distance_weight a b : bit_distance (format_bits a) (format_bits b) = weight (Z.lxor a b).
Proof. apply bit_distance_xor. Qed.

Definition result_is (r : res deqr_error Z) (w : Z) : bool :=
  match r with Ok x => x =? w | _ => false end.
Definition rejected (r : res deqr_error Z) : bool := match r with Err FormatEcc => true | _ => false end.

Definition beyond_list : list Z := Eval vm_compute in beyond_capacity.
Definition correctableb (x : Z) : bool := (weight x <=? 3)%nat || existsb (Z.eqb x) beyond_list.

Lemma correctableb_iff u w : correctableb (Z.lxor u w) = true <-> correctable u w.
Proof.
  unfold correctableb, correctable. change beyond_list with beyond_capacity. rewrite distance_weight, orb_true_iff, Nat.leb_le, existsb_exists.
  split; (intros [H|H]; [left; exact H|right]).
  - destruct H as (y & Hy & E). apply Z.eqb_eq in E. subst y. exact Hy.
  - exists (Z.lxor u w). split; [exact H|apply Z.eqb_refl].
Qed.

(** The sweep over the coset representatives. *)
Definition format_check (u : Z) : bool :=
  let r := correct_format u in
  forallb (fun d => negb (correctableb (Z.lxor u (bch_codeword d))) || result_is r (bch_codeword d)) (zrange 0 32)
  && (existsb (fun d => correctableb (Z.lxor u (bch_codeword d))) (zrange 0 32) || rejected r).

Lemma format_sweep : forallb format_check (zrange 0 1024) = true.
Proof. vm_cast_no_check (eq_refl true). Qed.

Lemma bch_linear d e : 0 <= d < 32 -> 0 <= e < 32 ->
  Z.lxor (bch_codeword d) (bch_codeword e) = bch_codeword (Z.lxor d e).
Proof.
  intros Hd He.
  assert (G : forallb (fun d => forallb (fun e =>
     Z.lxor (bch_codeword d) (bch_codeword e) =? bch_codeword (Z.lxor d e)) (zrange 0 32)) (zrange 0 32) = true)
    by (vm_compute; reflexivity).
  rewrite forallb_forall in G. specialize (G d (proj2 (in_zrange 0 32 d) Hd)).
  rewrite forallb_forall in G. specialize (G e (proj2 (in_zrange 0 32 e) He)). lia.
Qed.

Lemma bch_facts d : 0 <= d < 32 ->
  zero_synd (bch_codeword d) = true /\ 0 <= bch_codeword d < 32768 /\ bch_codeword d / 1024 = d.
Proof.
  intros Hd.
  assert (G : forallb (fun d => zero_synd (bch_codeword d) && (0 <=? bch_codeword d)
     && (bch_codeword d <? 32768) && (bch_codeword d / 1024 =? d)) (zrange 0 32) = true)
    by (vm_compute; reflexivity).
  rewrite forallb_forall in G. specialize (G d (proj2 (in_zrange 0 32 d) Hd)). 
  rewrite !andb_true_iff in G. destruct G as [[[G1 G2] G3] G4]. split; [exact G1|]. lia.
Qed.

Lemma coset u : 0 <= u < 32768 ->
  let d := u / 1024 in 0 <= d < 32 /\ 0 <= Z.lxor u (bch_codeword d) < 1024.
Proof.
  intros Hu d. assert (Hd : 0 <= d < 32) by (unfold d; lia). split; [exact Hd|].
  destruct (bch_facts d Hd) as (_ & Hc & Ed).
  pose proof (lxor_bound 15 u (bch_codeword d) ltac:(lia) ltac:(lia) ltac:(lia)) as Hb.
  assert (E : Z.shiftr (Z.lxor u (bch_codeword d)) 10 = 0).
  { rewrite Z.shiftr_lxor, !Z.shiftr_div_pow2 by lia. change (2 ^ 10) with 1024. rewrite Ed.
    apply Z.lxor_nilpotent. }
  rewrite Z.shiftr_div_pow2 in E by lia. change (2 ^ 10) with 1024 in E. lia.
Qed.

Theorem correct_format_complete u d : 0 <= u < 32768 -> 0 <= d < 32 ->
  correctable u (bch_codeword d) -> correct_format u = Ok (bch_codeword d).
Proof.
  intros Hu Hd Hw. apply correctableb_iff in Hw.
  destruct (coset u Hu) as [He Hr]. set (e := u / 1024) in *.
  set (r := Z.lxor u (bch_codeword e)) in *.
  destruct (bch_facts e He) as (Hz & _ & _).
  assert (Eu : u = Z.lxor r (bch_codeword e)).
  { unfold r. rewrite Z.lxor_assoc, Z.lxor_nilpotent, Z.lxor_0_r. reflexivity. }
  pose proof format_sweep as S. rewrite forallb_forall in S. specialize (S r (proj2 (in_zrange 0 1024 r) Hr)).
  unfold format_check in S. cbn zeta in S. rewrite andb_true_iff in S. destruct S as [S _].
  assert (Hx : 0 <= Z.lxor e d < 32) by (apply (lxor_bound 5); lia).
  rewrite forallb_forall in S. specialize (S _ (proj2 (in_zrange 0 32 (Z.lxor e d)) Hx)).
  rewrite <- bch_linear in S by assumption.
  rewrite <- Z.lxor_assoc, <- Eu, Hw in S. cbn [negb orb] in S.
  rewrite Eu, correct_format_shift by exact Hz.
  destruct (correct_format r); try discriminate S. cbn [result_is] in S. apply Z.eqb_eq in S. subst a.
  cbn [res_map]. f_equal. rewrite (Z.lxor_comm (bch_codeword e)), Z.lxor_assoc, Z.lxor_nilpotent, Z.lxor_0_r.
  reflexivity.
Qed.

Theorem correct_format_rejects u : 0 <= u < 32768 ->
  (forall d, 0 <= d < 32 -> ~ correctable u (bch_codeword d)) ->
  correct_format u = Err FormatEcc.
Proof.
  intros Hu Hw.
  destruct (coset u Hu) as [He Hr]. set (e := u / 1024) in *.
  set (r := Z.lxor u (bch_codeword e)) in *.
  destruct (bch_facts e He) as (Hz & _ & _).
  assert (Eu : u = Z.lxor r (bch_codeword e)).
  { unfold r. rewrite Z.lxor_assoc, Z.lxor_nilpotent, Z.lxor_0_r. reflexivity. }
  pose proof format_sweep as S. rewrite forallb_forall in S. specialize (S r (proj2 (in_zrange 0 1024 r) Hr)).
  unfold format_check in S. cbn zeta in S. rewrite andb_true_iff in S. destruct S as [_ S].
  apply orb_true_iff in S. destruct S as [S|S].
  - exfalso. apply existsb_exists in S. destruct S as (d & Hd & Hle). apply in_zrange in Hd.
    assert (Hx : 0 <= Z.lxor e d < 32) by (apply (lxor_bound 5); lia).
    apply (Hw _ Hx), correctableb_iff. rewrite <- bch_linear by assumption.
    rewrite <- Z.lxor_assoc. exact Hle.
  - rewrite Eu, correct_format_shift by exact Hz.
    destruct (correct_format r) as [|[]| |]; try discriminate S. reflexivity.
Qed.

(** Together: the answer is always one of the two. *)
Theorem correct_format_sound u : 0 <= u < 32768 ->
  (exists d, 0 <= d < 32 /\ correctable u (bch_codeword d) /\ correct_format u = Ok (bch_codeword d))
  \/ ((forall d, 0 <= d < 32 -> ~ correctable u (bch_codeword d)) /\ correct_format u = Err FormatEcc).
Proof.
  intros Hu.
  destruct (existsb (fun d => correctableb (Z.lxor u (bch_codeword d))) (zrange 0 32)) eqn:E.
  - left. apply existsb_exists in E. destruct E as (d & Hd & Hle). apply in_zrange in Hd.
    apply correctableb_iff in Hle.
    exists d. split; [exact Hd|]. split; [exact Hle|]. apply correct_format_complete; assumption.
  - right.
    assert (H : forall d, 0 <= d < 32 -> ~ correctable u (bch_codeword d)).
    { intros d Hd Hle. apply correctableb_iff in Hle. apply Bool.not_true_iff_false in E. apply E.
      apply existsb_exists. exists d. split; [apply in_zrange; exact Hd|exact Hle]. }
    split; [exact H|]. apply correct_format_rejects; assumption.
Qed.

Lemma weight_triangle x y : (weight y <= weight x + weight (Z.lxor x y))%nat.
Proof.
  unfold weight, format_bits. generalize (seq 0 15). intros l.
  induction l as [|i l IH]; cbn [map bit_distance]; [lia|].
  rewrite Z.lxor_spec, !Z.bits_0. destruct (Z.testbit x _), (Z.testbit y _); cbn [xorb Bool.eqb]; lia.
Qed.

(** An accepted word is a nearest codeword. *)
Lemma correctable_nearest u d d' : 0 <= u < 32768 -> 0 <= d < 32 -> 0 <= d' < 32 ->
  correctable u (bch_codeword d) ->
  (bit_distance (format_bits u) (format_bits (bch_codeword d))
   <= bit_distance (format_bits u) (format_bits (bch_codeword d')))%nat.
Proof.
  intros Hu Hd Hd' Hc. apply correctableb_iff in Hc. rewrite !distance_weight.
  set (x := Z.lxor u (bch_codeword d)) in *.
  assert (Hx : 0 <= x < 32768) by (apply (lxor_bound 15); [lia|exact Hu|apply bch_facts, Hd]).
  replace (Z.lxor u (bch_codeword d')) with (Z.lxor x (bch_codeword (Z.lxor d d'))).
  2:{ unfold x. rewrite <- bch_linear by assumption. rewrite Z.lxor_assoc. f_equal.
      rewrite <- Z.lxor_assoc, Z.lxor_nilpotent, Z.lxor_0_l. reflexivity. }
  assert (Hr : 0 <= Z.lxor d d' < 32) by (apply (lxor_bound 5); lia).
  generalize dependent (Z.lxor d d'). intros r Hr. clearbody x.
  unfold correctableb in Hc. apply orb_true_iff in Hc. destruct Hc as [Hc|Hc].
  - destruct (Z.eq_dec r 0) as [->|Hr0].
    { change (bch_codeword 0) with 0. rewrite Z.lxor_0_r. lia. }
    assert (Hw : (7 <= weight (bch_codeword r))%nat).
    { assert (S : forallb (fun r => (7 <=? weight (bch_codeword r))%nat) (zrange 1 32) = true)
        by (vm_compute; reflexivity).
      rewrite forallb_forall in S. specialize (S r (proj2 (in_zrange 1 32 r) ltac:(lia))). lia. }
    pose proof (weight_triangle x (bch_codeword r)). lia.
  - assert (S : forallb (fun x => forallb (fun r =>
       (weight x <=? weight (Z.lxor x (bch_codeword r)))%nat) (zrange 0 32)) beyond_list = true)
      by (vm_compute; reflexivity).
    apply existsb_exists in Hc. destruct Hc as (y & Hy & Ey). apply Z.eqb_eq in Ey. subst y.
    rewrite forallb_forall in S. specialize (S x Hy). rewrite forallb_forall in S.
    specialize (S r (proj2 (in_zrange 0 32 r) Hr)). lia.
Qed.

(** * Reading the copies *)

(** The grid's [bit] is defined, with value [sym], on all in-range coordinates. *)
Definition readable (g : BitGrid) (sym : Z -> Z -> bool) : Prop :=
  forall y x, 0 <= y < g_size g -> 0 <= x < g_size g -> g_bit g y x = Ok (sym y x).

Lemma push_format_bit_eq f b : push_format_bit f b = 2 * f + Z.b2z b.
Proof.
  unfold push_format_bit. rewrite Z.shiftl_mul_pow2 by lia. change (2 ^ 1) with 2.
  rewrite Z.mul_comm.
  assert (Hl : Z.land (2 * f) (Z.b2z b) = 0).
  { destruct b; [|apply Z.land_0_r]. change (Z.b2z true) with (Z.ones 1). rewrite Z.land_ones by lia.
    change (2 ^ 1) with 2. rewrite Z.mul_comm. apply Z.mod_mul. lia. }
  rewrite Z.add_nocarry_lxor, Z.lxor_lor by exact Hl. reflexivity.
Qed.

Lemma push_loop {E I} (l : list I) (bit : I -> res E bool) (f : I -> bool) : forall acc,
  (forall i, In i l -> bit i = Ok (f i)) ->
  for_each l (fun i fmt => let* b := bit i in Ok (push_format_bit fmt b)) (value_of acc)
  = Ok (value_of (acc ++ map f l)).
Proof.
  induction l as [|i l IH]; intros acc H; cbn [for_each map].
  - rewrite app_nil_r. reflexivity.
  - rewrite H by (left; reflexivity). cbn [bind]. rewrite push_format_bit_eq, <- value_of_snoc.
    rewrite IH by (intros j Hj; apply H; right; exact Hj). rewrite <- app_assoc. reflexivity.
Qed.

Lemma format_bits_rev w : format_bits w = rev (bits_of 15 w).
Proof. reflexivity. Qed.

Lemma copy_word_bits loc sym : format_bits (copy_word loc sym) = format_read loc sym
  /\ 0 <= copy_word loc sym < 32768.
Proof.
  unfold copy_word. set (l := format_read loc sym).
  assert (Hl : length (rev l) = 15%nat) by (rewrite rev_length; reflexivity).
  split.
  - rewrite format_bits_rev. pose proof (bits_of_value (rev l)) as E. rewrite Hl in E. rewrite E.
    apply rev_involutive.
  - pose proof (value_of_range (rev l)) as R. rewrite Hl in R. exact R.
Qed.

Lemma read_first_ok g sym : readable g sym -> 9 <= g_size g ->
  read_format_first g = Ok (Z.lxor (copy_word format_module_1 sym) 21522).
Proof.
  intros Hr Hs. unfold read_format_first.
  rewrite (for_each_ext _ _ (fun i fmt => let* b := (let* y := aget YS i in let* x := aget XS i in g_bit g y x) in
      Ok (push_format_bit fmt b))).
  2:{ intros i s _. rewrite bind_assoc. apply bind_ext. intros y _. rewrite bind_assoc. apply bind_ext.
      intros x _. reflexivity. }
  change (for_each ?l ?b 0) with (for_each l b (value_of [])).
  rewrite (push_loop _ _ (fun i => sym (fst (format_module_1 i)) (snd (format_module_1 i)))).
  - cbn [bind app]. unfold copy_word, format_read. rewrite <- map_rev. change (range 0 15) with (seq 0 15). reflexivity.
  - intros i Hi. apply in_rev in Hi. apply in_range_iff in Hi.
    do 15 (destruct i as [|i]; [cbv [aget YS XS nth_error bind]; apply Hr; cbn [fst snd format_module_1 nth]; lia|]). lia.
Qed.

Lemma read_second_ok g sym : readable g sym -> 9 <= g_size g ->
  read_format_second g = Ok (Z.lxor (copy_word (format_module_2 (g_size g)) sym) 21522).
Proof.
  intros Hr Hs. unfold read_format_second.
  rewrite (for_each_ext (zrange 0 7) _ (fun i fmt => let* b := (let* s1 := usub (g_size g) 1 in
       let* y := usub s1 i in g_bit g y 8) in Ok (push_format_bit fmt b))).
  2:{ intros i s _. rewrite bind_assoc. apply bind_ext. intros y _. rewrite bind_assoc. apply bind_ext.
      intros x _. reflexivity. }
  change (for_each ?l ?b 0) with (for_each l b (value_of [])).
  rewrite (push_loop _ _ (fun i => sym (g_size g - 1 - i) 8)).
  2:{ intros i Hi. apply in_zrange in Hi. unfold usub.
      replace (1 <=? g_size g) with true by lia. cbn [bind].
      replace (i <=? g_size g - 1) with true by lia. cbn [bind]. apply Hr; lia. }
  cbn [bind app].
  rewrite (for_each_ext (zrange 0 8) _ (fun i fmt => let* b := (let* s8 := usub (g_size g) 8 in
       g_bit g 8 (s8 + i)) in Ok (push_format_bit fmt b))).
  2:{ intros i s _. rewrite bind_assoc. reflexivity. }
  rewrite (push_loop _ _ (fun i => sym 8 (g_size g - 8 + i))).
  2:{ intros i Hi. apply in_zrange in Hi. unfold usub.
      replace (8 <=? g_size g) with true by lia. cbn [bind]. apply Hr; lia. }
  cbn [bind]. do 2 f_equal. unfold copy_word, format_read. apply (f_equal value_of).
  set (s := g_size g). 
  change (zrange 0 7) with [0;1;2;3;4;5;6]. change (zrange 0 8) with [0;1;2;3;4;5;6;7].
  cbn [map app rev seq format_module_2 Nat.ltb Nat.leb fst snd].
  repeat (apply f_equal2; [f_equal; lia|]). reflexivity.
Qed.

Lemma bit_distance_sym a b : bit_distance a b = bit_distance b a.
Proof.
  revert b. induction a as [|x a IH]; intros [|y b]; cbn; auto. rewrite IH. destruct x, y; reflexivity.
Qed.

Lemma correctable_unmask u w : correctable (Z.lxor u 21522) w <-> correctable u (Z.lxor w 21522).
Proof.
  unfold correctable. rewrite !distance_weight, !Z.lxor_assoc, (Z.lxor_comm 21522). reflexivity.
Qed.

Lemma masked_range loc sym : 0 <= Z.lxor (copy_word loc sym) 21522 < 32768.
Proof. apply (lxor_bound 15); [lia|apply copy_word_bits|lia]. Qed.

Lemma format_data_range e mask : 0 <= mask < 8 -> 0 <= format_data e mask < 32.
Proof. intros H. unfold format_data. destruct e; cbn [level_bits]; lia. Qed.

Lemma format_fields e mask : 0 <= mask < 8 ->
  Z.shiftr (Z.shiftr (bch_codeword (format_data e mask)) 10) 3 = level_bits e /\
  Z.land (Z.shiftr (bch_codeword (format_data e mask)) 10) 7 = mask.
Proof.
  intros Hm. destruct (bch_facts _ (format_data_range e mask Hm)) as (_ & _ & E).
  rewrite (Z.shiftr_div_pow2 (bch_codeword _)) by lia. change (2 ^ 10) with 1024. rewrite E.
  rewrite Z.shiftr_div_pow2 by lia. change (2 ^ 3) with 8.
  change 7 with (Z.ones 3). rewrite Z.land_ones by lia. change (2 ^ 3) with 8.
  unfold format_data. destruct e; cbn [level_bits]; lia.
Qed.

Theorem read_format_first_copy g sym v e mask : readable g sym -> 9 <= g_size g ->
  version_from_size (g_size g) = Ok v -> 0 <= mask < 8 ->
  correctable (copy_word format_module_1 sym) (format_word e mask) ->
  read_format g = Ok (mkMeta v (level_bits e) mask).
Proof.
  intros Hr Hs Hv Hm Hd. unfold read_format. rewrite (read_first_ok g sym Hr Hs). cbn [bind].
  rewrite (correct_format_complete _ (format_data e mask)).
  - cbn [bind]. destruct (format_fields e mask Hm) as [-> ->]. rewrite Hv. reflexivity.
  - apply masked_range.
  - apply format_data_range, Hm.
  - apply correctable_unmask. exact Hd.
Qed.

Theorem read_format_second_copy g sym v e mask : readable g sym -> 9 <= g_size g ->
  version_from_size (g_size g) = Ok v -> 0 <= mask < 8 ->
  (forall e' mask', 0 <= mask' < 8 ->
     ~ correctable (copy_word format_module_1 sym) (format_word e' mask')) ->
  correctable (copy_word (format_module_2 (g_size g)) sym) (format_word e mask) ->
  read_format g = Ok (mkMeta v (level_bits e) mask).
Proof.
  intros Hr Hs Hv Hm Hbad Hd. unfold read_format. rewrite (read_first_ok g sym Hr Hs). cbn [bind].
  rewrite (correct_format_rejects (Z.lxor (copy_word format_module_1 sym) 21522)).
  - rewrite (read_second_ok g sym Hr Hs). cbn [bind].
    rewrite (correct_format_complete _ (format_data e mask)).
    + cbn [bind]. destruct (format_fields e mask Hm) as [-> ->]. rewrite Hv. reflexivity.
    + apply masked_range.
    + apply format_data_range, Hm.
    + apply correctable_unmask. exact Hd.
  - apply masked_range.
  - intros d Hdr Hc. apply correctable_unmask in Hc.
    assert (Ed : exists e' mask', 0 <= mask' < 8 /\ d = format_data e' mask').
    { exists (match d / 8 with 0 => EcM | 1 => EcL | 2 => EcH | _ => EcQ end), (d mod 8).
      split; [lia|]. unfold format_data.
      assert (d / 8 = 0 \/ d / 8 = 1 \/ d / 8 = 2 \/ d / 8 = 3) as [E|[E|[E|E]]] by lia;
        rewrite E; cbn [level_bits]; lia. }
    destruct Ed as (e' & mask' & Hm' & ->). apply (Hbad e' mask' Hm' Hc).
Qed.

(** What can come out of reading the format information. *)
Theorem read_format_returns g sym : readable g sym -> 9 <= g_size g ->
  (exists v e mask, version_from_size (g_size g) = Ok v /\ 0 <= mask < 8
      /\ read_format g = Ok (mkMeta v (level_bits e) mask))
  \/ read_format g = Err FormatEcc \/ read_format g = Err InvalidVersion.
Proof.
  intros Hr Hs. unfold read_format. rewrite (read_first_ok g sym Hr Hs). cbn [bind].
  assert (G : forall d, 0 <= d < 32 ->
    (exists v e mask, version_from_size (g_size g) = Ok v /\ 0 <= mask < 8 /\
    (let* version := version_from_size (g_size g) in
      Ok (mkMeta version (Z.shiftr (Z.shiftr (bch_codeword d) 10) 3) (Z.land (Z.shiftr (bch_codeword d) 10) 7)))
       = Ok (mkMeta v (level_bits e) mask)) \/
    (let* version := version_from_size (g_size g) in
      Ok (mkMeta version (Z.shiftr (Z.shiftr (bch_codeword d) 10) 3) (Z.land (Z.shiftr (bch_codeword d) 10) 7)))
       = Err InvalidVersion).
  { intros d Hd.
    assert (Ed : exists e' mask', 0 <= mask' < 8 /\ d = format_data e' mask').
    { exists (match d / 8 with 0 => EcM | 1 => EcL | 2 => EcH | _ => EcQ end), (d mod 8).
      split; [lia|]. unfold format_data.
      assert (d / 8 = 0 \/ d / 8 = 1 \/ d / 8 = 2 \/ d / 8 = 3) as [E|[E|[E|E]]] by lia;
        rewrite E; cbn [level_bits]; lia. }
    destruct Ed as (e & mask & Hm & ->). destruct (format_fields e mask Hm) as [-> ->].
    unfold version_from_size. destruct (_ && _); cbn [bind]; [left|right; reflexivity].
    eexists _, e, mask. split; [reflexivity|]. split; [exact Hm|reflexivity]. }
  destruct (correct_format_sound _ (masked_range format_module_1 sym)) as [(d & Hd & _ & ->)|[_ ->]].
  - cbn [bind]. destruct (G d Hd) as [H|H]; auto.
  - rewrite (read_second_ok g sym Hr Hs). cbn [bind].
    destruct (correct_format_sound _ (masked_range (format_module_2 (g_size g)) sym)) as [(d & Hd & _ & ->)|[_ ->]].
    + cbn [bind]. destruct (G d Hd) as [H|H]; auto.
    + cbn [bind]. auto.
Qed.

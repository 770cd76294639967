(** The results of RSProofs.v for [correct_block GF256] on bytes, in the terms of SpecQR.v. *)
From Verif Require Import Base Lib VersionDb ModelGF ModelRS GFProofs RSTransport SpecQR.
From mathcomp Require Import all_ssreflect all_algebra.
From mathcomp Require Import zify.
From Verif Require Import GFField RSProofs.

Set Implicit Arguments.
Unset Strict Implicit.
Unset Printing Implicit Defensive.
Import GRing.Theory.
Local Open Scope ring_scope.
Close Scope Z_scope.

Lemma bytebP z : reflect (is_byte z) (byteb z).
Proof. by apply: (iffP idP); rewrite /byteb /is_byte; lia. Qed.

Lemma times_xE a : byteb a -> times_x a = gmul 2 a.
Proof.
move=> Ha; apply/Z.eqb_eq; move: a Ha.
by apply: (sweep1 (fun a => Z.eqb (times_x a) (gmul 2 a))); vm_compute.
Qed.

Lemma field_mulE a b : byteb a -> byteb b -> field_mul a b = gmul a b.
Proof.
move=> Ha Hb; apply/Z.eqb_eq.
have H : forallb (fun b => Z.eqb (field_mul a b) (gmul a b)) all256 = true.
  move: a Ha; apply: (sweep1 (fun a => forallb (fun b => Z.eqb (field_mul a b) (gmul a b)) all256)).
  by vm_compute.
exact: (sweep1 _ H).
Qed.

Lemma alpha_powE k : gfval (gf2 ^+ k) = alpha_pow k.
Proof. by elim: k => [|k IH] //; rewrite exprS /= -IH times_xE // gfP. Qed.

Lemma gf2_255 : gf2 ^+ 255 = 1.
Proof. by apply: val_inj; apply: etrans (alpha_powE 255) _; vm_compute. Qed.

Fixpoint distinct (l : list Z) : bool :=
  match l with
  | nil => true
  | cons a t => forallb (fun b => negb (Z.eqb a b)) t && distinct t
  end.

Lemma distinct_nth l : distinct l -> forall i j, (i < j)%N -> (j < size l)%N -> nth Z0 l i <> nth Z0 l j.
Proof.
elim: l => [|a l IH] //= /andP[Ha Hd] [|i] [|j] //=; rewrite !ltnS => Hij Hj; last exact: IH.
move/forallb_forall: Ha => Ha E; have := Ha a; rewrite Z.eqb_refl => H.
suff: is_true false by []. by apply: H; rewrite E -LnthE; apply: nth_In; apply/ltP.
Qed.

Lemma nth_alpha n k : (k < n)%N -> nth Z0 (map alpha_pow (iota 0 n)) k = alpha_pow k.
Proof. by move=> H; rewrite (nth_map 0%N) ?size_iota // nth_iota. Qed.

Lemma gf2_inj i j : (i < 255)%N -> (j < 255)%N -> gf2 ^+ i = gf2 ^+ j -> i = j.
Proof.
have Hd : distinct (map alpha_pow (iota 0 255)) by vm_compute.
have Hlt a b : (a < b)%N -> (b < 255)%N -> gf2 ^+ a <> gf2 ^+ b.
  move=> Hab Hb E; have := @distinct_nth _ Hd a b Hab.
  rewrite size_map size_iota => /(_ Hb); apply.
  rewrite nth_alpha; last by lia.
  rewrite nth_alpha; last by lia.
  by rewrite -!alpha_powE E.
move=> Hi Hj E; case: (ltngtP i j) => H.
- case: (Hlt i j H Hj E).
- case: (Hlt j i H Hi (esym E)).
- exact H.
Qed.

(** * Lifting byte strings *)
Definition lift_byte (z : Z) : gf256 :=
  match @idP (byteb z) with ReflectT H => GFel H | ReflectF _ => gf0 end.

Lemma lift_byteK z : byteb z -> gfval (lift_byte z) = z.
Proof. by rewrite /lift_byte; case: {-}_ / idP. Qed.

Lemma lift_bytes (l : list Z) : Forall is_byte l -> exists l' : seq gf256, l = List.map gfval l'.
Proof.
move=> H; exists (List.map lift_byte l); rewrite List.map_map.
elim: H => //= z l0 Hz _ <-; by rewrite lift_byteK //; apply/bytebP.
Qed.

Lemma bytes_lifted (l : seq gf256) : Forall is_byte (List.map gfval l).
Proof. by elim: l => //= a l IH; constructor=> //; apply/bytebP; apply: gfP. Qed.

Lemma gfval_inj : injective gfval.
Proof. exact: val_inj. Qed.

Lemma map_gfval_inj (l l' : seq gf256) : List.map gfval l = List.map gfval l' -> l = l'.
Proof. by elim: l l' => [|a l IH] [|b l'] //= [] /gfval_inj -> /IH ->. Qed.

Lemma h_correct_block256 (block : seq gf256) ecc :
  correct_block GF256 (List.map gfval block) ecc
  = res_map (List.map gfval) (correct_block (GFF gf2) block ecc).
Proof.
apply: h_correct_block => //.
- move=> a b; rewrite gf256_div /=; case: eqP => [->|Hb].
    by rewrite /=.
  have -> : Z.eqb (gfval b) 0 = false.
    apply/Z.eqb_neq => E; apply: Hb; exact: val_inj.
  exact (erefl (Some (gmul (gfval a) (ginv (gfval b))))).
Qed.

(** * Codewords *)
Lemma poly_at_lift (c : seq gf256) (x : gf256) (acc : gf256) :
  fold_left (fun acc a => Z.lxor (field_mul acc (gfval x)) a) (List.map gfval c) (gfval acc)
  = gfval (foldl (fun a b => a * x + b) acc c).
Proof.
elim: c acc => [|b c IH] acc //=.
by rewrite field_mulE ?gfP // -IH.
Qed.

Lemma synd_horner (F : fieldType) (al : F) (c : seq F) i :
  synd al c i = foldl (fun a b => a * (al ^+ i) + b) 0 c.
Proof.
rewrite /synd.
have -> : foldl (fun a b => a * al ^+ i + b) 0 c = (Poly (rev c)).[al ^+ i].
  by rewrite horner_Poly -[c in LHS]revK foldl_rev; elim: (rev c) => //= a l ->.
have Hs : (size (Poly (rev c)) <= size c)%N by rewrite -(size_rev c) size_Poly.
rewrite (horner_coef_wide _ Hs); apply: eq_bigr => j _.
rewrite coef_Poly nth_rev // exprM; congr (_`_ _ * _).
by rewrite -subnDA add1n.
Qed.

Lemma poly_at_synd (c : seq gf256) i :
  poly_at (List.map gfval c) (alpha_pow i) = gfval (synd gf2 c i).
Proof.
rewrite /poly_at -alpha_powE synd_horner.
exact (poly_at_lift c (gf2 ^+ i) gf0).
Qed.

Lemma codeword_lift (c : seq gf256) npar :
  codeword gf2 c npar <-> rs_codeword npar (List.map gfval c).
Proof.
split.
- move=> H; split; first exact: bytes_lifted.
  by move=> i /ltP Hi; rewrite poly_at_synd H.
- by case=> _ H i /ltP /H; rewrite poly_at_synd => E; apply: gfval_inj.
Qed.

Lemma distance_lift (r c : seq gf256) : size r = size c ->
  size [seq i <- iota 0 (size r) | r`_(size r - 1 - i) != c`_(size r - 1 - i)]
  = distance (List.map gfval r) (List.map gfval c).
Proof.
move=> Hs; rewrite size_filter.
have -> : count (fun i => r`_(size r - 1 - i) != c`_(size r - 1 - i)) (iota 0 (size r))
  = count (fun i => r`_i != c`_i) (rev (iota 0 (size r))).
  have -> : rev (iota 0 (size r)) = [seq (size r - 1 - i)%N | i <- iota 0 (size r)].
    apply: (@eq_from_nth _ 0%N); first by rewrite size_rev size_map.
    move=> i; rewrite size_rev size_iota => Hi.
    rewrite nth_rev ?size_iota // (nth_map 0%N) ?size_iota // !nth_iota //; lia.
  by rewrite count_map; apply: eq_count => i.
rewrite count_rev; elim: r c Hs => [|a r IH] [|b c] //= [] Hs.
rewrite -(IH _ Hs); congr (_ + _)%N.
- case: eqP => [->|H]; first by rewrite Z.eqb_refl.
  by have -> : Z.eqb (gfval a) (gfval b) = false by apply/Z.eqb_neq => /gfval_inj.
- by rewrite -[1%N]/(1 + 0)%N iotaDl count_map; apply: eq_count => i.
Qed.

(** * The theorems on bytes *)
Theorem correct_block_corrects (bs dw ns : nat) (c r : list Z) :
  length c = bs -> length r = bs -> (dw < bs)%coq_nat -> (bs <= 255)%coq_nat -> (bs - dw < 64)%coq_nat ->
  Forall is_byte r -> rs_codeword (bs - dw) c ->
  (2 * distance r c <= bs - dw)%coq_nat ->
  correct_block GF256 r (mkRS bs dw ns) = Ok c.
Proof.
move=> Hc Hr Hdw Hbs HN Hrb Hcode Hd.
have [r' Er] := lift_bytes Hrb; have [c' Ec] := lift_bytes (proj1 Hcode).
rewrite Er h_correct_block256.
have Sr : size r' = bs by rewrite -Hr Er map_length.
have Sc : size c' = bs by rewrite -Hc Ec map_length.
have Sd := @distance_lift r' c'; rewrite Sr Sc in Sd.
have -> : correct_block (GFF gf2) r' (mkRS bs dw ns) = Ok c'.
  apply: (@repair_codeword _ gf2 gf256_char2 bs (bs - dw)%N c' r') => //; try lia.
  - exact: gf2_255.
  - exact: gf2_inj.
  - by apply/codeword_lift; rewrite -Ec.
  - rewrite Sd // -Er -Ec; lia.
by rewrite /= Ec.
Qed.

Theorem correct_block_sound (bs dw ns : nat) (r : list Z) :
  length r = bs -> (dw < bs)%coq_nat -> (bs <= 255)%coq_nat -> (bs - dw < 64)%coq_nat ->
  Forall is_byte r ->
  (exists c, correct_block GF256 r (mkRS bs dw ns) = Ok c /\ length c = bs /\ rs_codeword (bs - dw) c)
  \/ correct_block GF256 r (mkRS bs dw ns) = Err DataEcc.
Proof.
move=> Hr Hdw Hbs HN Hrb.
have [r' Er] := lift_bytes Hrb; rewrite Er h_correct_block256.
have Sr : size r' = bs by rewrite -Hr Er map_length.
have H1 : (dw < bs)%N by lia.
have H2 : (bs <= 255)%N by lia.
have H3 : (bs - dw < 64)%N by lia.
case: (@correct_block_returns _ gf2 gf256_char2 bs dw ns r' Sr H1 H2 H3) => [[b [-> [Hb Hcode]]]|->].
- left; exists (List.map gfval b); split=> //; split; first by rewrite map_length.
  by apply/codeword_lift.
- by right.
Qed.

(** Correctness of the error-correction code of ModelRS.v over an arbitrary field of
    characteristic 2 with an element of order at least the block length. *)
From Verif Require Import Base Lib VersionDb ModelGF ModelRS.
From mathcomp Require Import all_ssreflect all_algebra.
From mathcomp Require Import zify.

Set Implicit Arguments.
Unset Strict Implicit.
Unset Printing Implicit Defensive.
Import GRing.Theory.
Local Open Scope ring_scope.
Close Scope Z_scope.

#[local] Arguments Base.range : simpl never.
#[local] Arguments for_each : simpl never.
#[local] Arguments zeros64 : simpl never.
#[local] Arguments Nat.leb : simpl never.
#[local] Arguments Nat.ltb : simpl never.
#[local] Arguments Nat.sub : simpl never.
#[local] Arguments Nat.add : simpl never.
#[local] Arguments Nat.mul : simpl never.

Lemma LnthE {A} (l : list A) i d : List.nth i l d = nth d l i.
Proof. by elim: l i => [|a l IH] [|i] //=. Qed.

Section RS.
Variable F : fieldType.
Variable alpha : F.

Definition GFF : GaloisField F :=
  mkGF F 0 1 alpha +%R *%R (fun a b => if b == 0 then None else Some (a / b)) (fun a b => a == b).

Lemma gf_powE x n : gf_pow GFF x n = x ^+ n.
Proof.
rewrite /gf_pow; case E: (N.of_nat n) => [|p].
  by have -> : n = 0%N by lia.
have -> : n = Pos.to_nat p by lia.
clear E; elim: p => [p IH|p IH|] /=; rewrite ?IH.
- have -> : Pos.to_nat p~1 = ((Pos.to_nat p) + (Pos.to_nat p)).+1 by lia.
  by rewrite exprS exprD.
- have -> : Pos.to_nat p~0 = ((Pos.to_nat p) + (Pos.to_nat p))%N by lia.
  by rewrite exprD.
- by rewrite expr1.
Qed.

Lemma getE {E} (l : seq F) i : (i < size l)%N -> @aget E F l i = Ok (l`_i).
Proof. by move=> H; rewrite (@aget_ok _ _ _ _ 0) ?LnthE //; apply/ltP. Qed.

Lemma setE {E} (l : seq F) i v : (i < size l)%N -> @aset E F l i v = Ok (upd l i v).
Proof. by move=> H; rewrite aset_ok //; apply/ltP. Qed.

Lemma size_upd (l : seq F) i v : size (upd l i v) = size l.
Proof. exact: length_upd. Qed.

Lemma nth_updE (l : seq F) i j v : (i < size l)%N ->
  (upd l i v)`_j = if j == i then v else l`_j.
Proof. by move=> H; rewrite -!LnthE nth_upd; last exact/ltP. Qed.

Lemma size_zeros : size (zeros64 GFF) = 64%N.
Proof. by []. Qed.

Lemma nth_zeros i : (zeros64 GFF)`_i = 0.
Proof.
by rewrite /zeros64 -[repeat _ _]/(nseq 64 0) nth_nseq; case: ifP.
Qed.

Lemma nsubE {E} a b : (b <= a)%N -> @nsub E a b = Ok (a - b)%N.
Proof. by move=> H; rewrite /nsub; have -> : (b <=? a)%nat = true by lia. Qed.

Lemma forP {E St} (P : nat -> St -> Prop) (body : nat -> St -> res E St) lo hi s :
  (lo <= hi)%N -> P lo s ->
  (forall i s, (lo <= i)%N -> (i < hi)%N -> P i s -> exists s', body i s = Ok s' /\ P i.+1 s') ->
  exists s', for_each (Base.range lo hi) body s = Ok s' /\ P hi s'.
Proof.
move=> H1 H2 H3; apply: for_range_ok => //; first exact/leP.
move=> i s1 [/leP H4 /ltP H5] H6; case: (H3 i s1 H4 H5 H6) => s' [-> H7].
by exists s'; split => //; rewrite plusE addn1.
Qed.

(** Put the loop-invariant rule for the (first) loop of the goal on top of the goal. *)
Ltac loop P := match goal with
  |- context [for_each (Base.range ?lo ?hi) ?b ?s] =>
    let H := fresh in pose proof (@forP _ _ P b lo hi s) as H; move: H end.

(** ** poly_add *)
Lemma poly_addP {E} (dst src : seq F) c shift : size dst = 64%N -> size src = 64%N ->
  exists d, @poly_add E F GFF dst src c shift = Ok d /\ size d = 64%N /\
    forall k, (k < 64)%N ->
      d`_k = dst`_k + (if (shift <= k)%N then src`_(k - shift) * c else 0).
Proof.
move=> Hd Hs; rewrite /poly_add /=.
case: eqP => [->|Hc].
  exists dst; split=> //; split=> // k Hk.
  by case: ifP; rewrite ?mulr0 addr0.
pose P i (d : seq F) := size d = 64%N /\ forall k, (k < 64)%N ->
   d`_k = dst`_k + (if (shift <= k)%N && (k - shift < i)%N then src`_(k - shift) * c else 0).
loop P; case=> [//|||d [-> [Hsz Hk]]].
- by split=> // k _; rewrite ltn0 andbF addr0.
- move=> i d _ Hi [Hsz Hk] /=.
  case E1: (64 <=? (i + shift)%coq_nat)%nat.
    exists d; split=> //; split=> // k Hk64; rewrite Hk //.
    by congr (_ + _); have -> : (shift <= k)%N && (k - shift < i)%N =
      (shift <= k)%N && (k - shift < i.+1)%N by lia.
  have Hi2 : (i + shift < 64)%N by lia.
  rewrite getE ?Hs //= getE ?Hsz //= setE ?Hsz //.
  eexists; split; first reflexivity.
  split; first by rewrite size_upd.
  move=> k Hk64; rewrite nth_updE ?Hsz //.
  rewrite !Hk //; case: eqP => [->|Hne].
    have -> : (i + shift - shift)%N = i by lia.
    by rewrite leq_addl ltnn ltnSn /= addr0.
  by congr (_ + _); have -> : (shift <= k)%N && (k - shift < i)%N = (shift <= k)%N && (k - shift < i.+1)%N by lia.
exists d; split=> //; split=> // k Hk64; rewrite Hk //.
have -> : (k - shift < 64)%N by lia.
by rewrite andbT.
Qed.

(** ** poly_eval *)
Lemma poly_evalP {E} (s : seq F) x : size s = 64%N -> @poly_eval E F GFF s x = Ok (Poly s).[x].
Proof.
move=> Hs; rewrite /poly_eval.
pose P i (p : F * F) := p = (\sum_(k < i) s`_k * x ^+ k, x ^+ i).
loop P; case=> [//|||p [-> ->]].
- by rewrite /P big_ord0 expr0.
- move=> i [a b] _ Hi [-> ->]; rewrite getE ?Hs //=.
  eexists; split; first reflexivity.
  by rewrite /P big_ord_recr /= exprSr.
congr Ok; rewrite (@horner_coef_wide _ 64) ?(leq_trans (size_Poly _)) ?Hs //.
by apply: eq_bigr => i _; rewrite coef_Poly.
Qed.

(** ** eloc_poly *)
Lemma eloc_polyP {E} (s sigma : seq F) npar : size s = 64%N -> size sigma = 64%N -> (npar < 64)%N ->
  exists om, @eloc_poly E F GFF s sigma npar = Ok om /\ size om = 64%N /\
    forall k, om`_k = if (k < npar)%N then \sum_(i < k.+1) sigma`_i * s`_((k - i).+1) else 0.
Proof.
move=> Hs Hsi Hn; rewrite /eloc_poly.
pose P i (om : seq F) := size om = 64%N /\ forall k,
  om`_k = if (k < npar)%N then \sum_(i0 < k.+1 | (i0 < i)%N) sigma`_i0 * s`_((k - i0).+1) else 0.
loop P; case=> [//|||om [-> [Hsz Hk]]].
- split=> // k; rewrite nth_zeros; case: ifP => // _.
  by rewrite big_pred0.
- move=> i om _ Hi [Hsz Hk]; rewrite getE ?Hsi //=; last by lia.
  pose Q j (om' : seq F) := size om' = 64%N /\ forall k,
    om'`_k = om`_k + if (i <= k)%N && (k < i + j)%N then sigma`_i * s`_((k - i).+1) else 0.
  loop Q; case=> [//|||om' [-> [Hsz' Hk']]].
  + split=> // k; have -> : (i <= k)%N && (k < i + 0)%N = false by lia.
    by rewrite addr0.
  + move=> j om1 _ Hj [Hsz1 Hk1]; rewrite getE /=; last by lia.
    rewrite getE /=; last by lia.
    rewrite setE; last by lia.
    eexists; split; first reflexivity.
    split; first by rewrite size_upd.
    move=> k; rewrite nth_updE ?Hk1; last by lia.
    case: eqP => [->|Hne].
      have -> : (i <= i + j)%N && (i + j < i + j)%N = false by lia.
      have -> : (i <= i + j)%N && (i + j < i + j.+1)%N = true by lia.
      have -> : (i + j - i).+1 = (j + 1)%N by lia.
      by rewrite addr0.
    by congr (_ + _); have -> : (i <= k)%N && (k < i + j)%N = (i <= k)%N && (k < i + j.+1)%N by lia.
  eexists; split; first reflexivity.
  split=> // k; rewrite Hk' Hk.
  have -> : (i + (npar - i))%N = npar by lia.
  case: (ltnP k npar) => Hkn; last by rewrite andbF addr0.
  case: (leqP i k) => Hik /=.
    rewrite [RHS](bigD1 (Ordinal (n:=k.+1) (m:=i) Hik)) /= ?ltnSn // addrC.
    congr (_ + _); apply: eq_bigl => i0.
    by rewrite -val_eqE /=; lia.
  rewrite addr0; apply: eq_bigl => i0; have := ltn_ord i0; lia.
exists om; split=> //; split=> // k; rewrite Hk; case: ifP => // Hkn.
by apply: eq_bigl => i0; have := ltn_ord i0; lia.
Qed.

(** ** block_syndromes *)
Definition synd (block : seq F) i : F :=
  \sum_(j < size block) block`_(size block - 1 - j) * alpha ^+ (i * j).

Lemma block_syndromesP {E} (block : seq F) npar : (npar <= 64)%N ->
  exists nz s, @block_syndromes E F GFF block npar = Ok (nz, s) /\ size s = 64%N /\
    (forall i, s`_i = if (i < npar)%N then synd block i else 0) /\
    nz = [exists i : 'I_npar, synd block i != 0].
Proof.
move=> Hn; rewrite /block_syndromes.
pose P i (st : bool * seq F) := size st.2 = 64%N /\
    (forall k, st.2`_k = if (k < i)%N then synd block k else 0) /\
    (st.1 <-> exists k, (k < i)%N /\ synd block k != 0).
loop P; case=> [//|||[nz s] [-> [/= Hsz [Hk Hnz]]]].
- split=> //; split=> [k|] /=; first by rewrite nth_zeros.
  by split=> // [[k []]].
- move=> i [nz s] _ Hi [/= Hsz [Hk Hnz]].
  pose Q j (s' : seq F) := size s' = 64%N /\ forall k, s'`_k =
     if k == i then \sum_(j0 < j) block`_(size block - 1 - j0) * alpha ^+ (i * j0) else s`_k.
  loop Q; case=> [//|||s' [-> [Hsz' Hk']]].
  + split=> // k; case: eqP => // ->; rewrite Hk ltnn big_ord0 //.
  + move=> j s1 _ Hj [Hsz1 Hk1]; rewrite nsubE /=; last by lia.
    have Hb : (size block - 1 - j < size block)%N by move: Hj; change (length block) with (size block); lia.
    rewrite getE // /= getE ?Hsz1 /=; last by lia.
    rewrite setE ?Hsz1; last by lia.
    eexists; split; first reflexivity.
    split; first by rewrite size_upd.
    move=> k; rewrite nth_updE ?Hsz1; last by lia.
    case: eqP => [_|Hne]; rewrite Hk1; last by case: eqP.
    by rewrite eqxx gf_powE big_ord_recr.
  rewrite /= getE ?Hsz' /=; last by lia.
  eexists; split; first reflexivity.
  have Hsi : s'`_i = synd block i by rewrite Hk' eqxx.
  rewrite Hsi; split=> //; split.
    move=> k /=; rewrite Hk' ltnS leq_eqVlt; case: eqP => [->|Hne] //=.
  case: eqP => [H0|/eqP Hne] /=.
    rewrite Hnz; split=> [[k [H1 H2]]|[k [H1 H2]]]; exists k; split=> //; first by apply: ltnW.
    move: H1; rewrite ltnS leq_eqVlt => /orP[/eqP E1|//]. by rewrite E1 H0 eqxx in H2.
  by split=> // _; exists i; split.
exists nz, s; split=> //; split=> //; split=> //.
apply/idP/existsP => [/Hnz [k [H1 H2]]|[k H]]; first by exists (Ordinal H1).
by apply/Hnz; exists k; split.
Qed.

(** ** sigma_derivative *)
Lemma sigma_derivativeP {E} (sigma : seq F) : size sigma = 64%N ->
  exists sd, @sigma_derivative E F GFF sigma = Ok sd /\ size sd = 64%N /\
   forall k, sd`_k = if (k < 64)%N && ~~ odd k then sigma`_k.+1 else 0.
Proof.
move=> Hs; rewrite /sigma_derivative for_each_map.
pose P i (sd : seq F) := size sd = 64%N /\
   forall k, sd`_k = if (k < i.*2)%N && ~~ odd k then sigma`_k.+1 else 0.
loop P; case=> [//|||sd [-> [Hsz Hk]]].
- by split=> // k; rewrite nth_zeros.
- move=> i sd _ Hi [Hsz Hk]; rewrite getE /=; last by lia.
  rewrite nsubE /=; last by lia.
  rewrite setE; last by lia.
  eexists; split; first reflexivity.
  split; first by rewrite size_upd.
  move=> k; rewrite nth_updE; last by lia.
  case: eqP => [->|Hne].
    have -> : (((2 * i + 1)%coq_nat - 1 < i.+1.*2)%N && ~~ odd ((2 * i + 1)%coq_nat - 1)) = true by lia.
    by congr (_`_ _); lia.
  rewrite Hk; have -> // : (k < i.*2)%N && ~~ odd k = (k < i.+1.*2)%N && ~~ odd k by lia.
by exists sd; split=> //; split.
Qed.

(** ** Berlekamp-Massey *)
Section BM.
Variables (s : seq F) (N : nat).
Hypothesis Hs : size s = 64%N.
Hypothesis HN : (N < 64)%N.
Let S : {poly F} := Poly s.

(** [C] generates [s] up to index [n] (exclusive) with a register of length [l]. *)
Definition gen (C : {poly F}) l n := forall j, (l <= j)%N -> (j < n)%N -> (C * S)`_j = 0.

Definition minimal l :=
  forall (L : {poly F}) w, L`_0 = 1 -> (size L <= w.+1)%N -> gen L w N -> (l <= w)%N.

Definition bm_inv n (st : bm_state F) :=
  let C := Poly (bm_cs st) in let B := Poly (bm_bs st) in
  let l := bm_l st in let m := bm_m st in
  [/\ size (bm_cs st) = 64%N, size (bm_bs st) = 64%N, (l <= n)%N, (0 < m)%N & C`_0 = 1] /\
  [/\ (size C <= l.+1)%N, bm_b st != 0, gen C l n & minimal l] /\
  [/\ (m + l <= n.+1)%N, (size B <= (n.+1 - l - m).+1)%N,
      (forall j, (n.+1 - l <= j)%N -> (j < n)%N -> ('X^m * B * S)`_j = 0) &
      (l = 0%N /\ m = n.+1) \/ ('X^m * B * S)`_n = bm_b st].

Lemma discrepancyP {E} (cs : seq F) l n : size cs = 64%N -> (l <= n)%N -> (n < 64)%N -> cs`_0 = 1 ->
  (size (Poly cs) <= l.+1)%N ->
  @bm_discrepancy E F GFF s cs l n = Ok (Poly cs * S)`_n.
Proof.
move=> Hcs Hl Hn Hc0 Hdeg; rewrite /bm_discrepancy getE ?Hs //=.
pose P i (d : F) := d = \sum_(k < i) cs`_k * s`_(n - k).
loop P; case=> [|||d [-> Hd]].
- lia.
- by rewrite /P big_ord_recl big_ord0 addr0 Hc0 mul1r subn0.
- move=> i d H1 H2 ->; rewrite getE /=; last by lia.
  rewrite nsubE /=; last by lia.
  rewrite getE /=; last by lia.
  by eexists; split; first reflexivity; rewrite /P big_ord_recr.
congr Ok; rewrite Hd coefM.
have Hle : ((l + 1)%coq_nat <= n.+1)%N by lia.
rewrite (big_ord_widen _ (fun k => cs`_k * s`_(n - k)) Hle).
rewrite big_mkcond /=; apply: eq_bigr => i _; rewrite !coef_Poly.
case: ifP => // Hi; rewrite -[cs`_i]coef_Poly nth_default ?mul0r //.
by apply: leq_trans Hdeg _; lia.
Qed.

(** Massey's lemma. *)
Lemma massey (C L : {poly F}) l w n : C`_0 = 1 -> L`_0 = 1 ->
  (size C <= l.+1)%N -> (size L <= w.+1)%N -> (n < N)%N ->
  gen C l n -> (C * S)`_n != 0 -> gen L w N -> (n.+1 - l <= w)%N.
Proof.
move=> HC0 HL0 HC HL HnN Hgen Hd HgL; rewrite leqNgt; apply/negP => Hlt.
have Hwl : (w + l <= n)%N by lia.
have E1 : (L * (C * S))`_n = (C * S)`_n.
  rewrite coefM big_ord_recl /= HL0 mul1r subn0 big1 ?addr0 // => i _.
  rewrite /bump /= add1n.
  case: (leqP i.+1 w) => Hi.
    by rewrite Hgen ?mulr0 //; have := ltn_ord i; lia.
  by rewrite [L`__]nth_default ?mul0r // (leq_trans HL).
have E2 : (C * (L * S))`_n = 0.
  rewrite coefM big1 // => i _.
  case: (leqP i l) => Hi.
    by rewrite HgL ?mulr0 //; have := ltn_ord i; lia.
  by rewrite [C`__]nth_default ?mul0r // (leq_trans HC).
by move: Hd; rewrite -E1 mulrCA E2 eqxx.
Qed.

Lemma poly_add_poly {E} (dst src : seq F) c shift : size dst = 64%N -> size src = 64%N ->
  (size (Poly src) + shift <= 64)%N ->
  exists d, @poly_add E F GFF dst src c shift = Ok d /\ size d = 64%N /\
    Poly d = Poly dst + c *: ('X^shift * Poly src).
Proof.
move=> Hd Hsr Hsz; have [d [-> [Hds Hk]]] := @poly_addP E dst src c shift Hd Hsr.
exists d; split=> //; split=> //; apply/polyP => k.
rewrite coefD coefZ coefXnM !coef_Poly.
case: (ltnP k 64) => Hk64.
  rewrite Hk //; congr (_ + _); rewrite ltnNge; case: (leqP shift k) => /= _; rewrite ?mulr0 //.
  by rewrite mulrC.
rewrite [d`_k]nth_default ?Hds // [dst`_k]nth_default ?Hd // add0r; case: ifP => Hsk; rewrite ?mulr0 //.
have H1 : (size (Poly src) <= k - shift)%N by lia.
by rewrite -coef_Poly nth_default ?mulr0.
Qed.

Hypothesis char2 : forall a : F, a + a = 0.

Lemma oppE (a : F) : - a = a.
Proof. by apply/eqP; rewrite eq_sym -addr_eq0 char2. Qed.

Lemma bm_stepP {E} n st : (n < N)%N -> bm_inv n st ->
  exists st', @bm_step E F GFF s n st = Ok st' /\ bm_inv n.+1 st'.
Proof.
move=> HnN; case: st => cs bs l m b; rewrite /bm_inv /= => [[[Hcs Hbs Hl Hm0 HC0] [[HC Hb Hgen Hmin] [Hm HB HBz HBn]]]].
have {}HB : (size (Poly bs) <= (n.+1 - l - m).+1)%N by [].
have {}HC : (size (Poly cs) <= l.+1)%N by [].
rewrite /bm_step /=.
have Hc0 : cs`_0 = 1 by rewrite -HC0 coef_Poly.
rewrite discrepancyP //=; last by lia.
set d := (Poly cs * S)`_n.
rewrite /gdiv /= (negbTE Hb) /=.
have [d0|dN0] := eqVneq d 0.
  eexists; split; first reflexivity.
  split; first by split=> //=; lia.
  split.
    split=> //= j H1; rewrite ltnS leq_eqVlt => /orP[/eqP ->|H2] //.
    by apply: Hgen.
  split => /=.
  - lia.
  - by move: HB; have -> : (n.+2 - l - (m + 1)%coq_nat = n.+1 - l - m)%N by lia.
  - case=> [|j] H1 H2; first by lia.
    rewrite plusE addn1 exprS -!mulrA coefXM /=.
    rewrite mulrA; apply: HBz; lia.
  - case: HBn => [[-> ->]|HBn]; [left|right]; first by rewrite plusE addn1.
    by rewrite plusE addn1 exprS -!mulrA coefXM /= mulrA.
have HBsz : (size (Poly bs) + m <= 64)%N by lia.
have [cs' [Hadd [Hcs' HC']]] := @poly_add_poly E cs bs (d / b) m Hcs Hbs HBsz.
have HC'0 : (Poly cs')`_0 = 1.
  rewrite HC' coefD coefZ coefXnM HC0.
  by rewrite Hm0 mulr0 addr0.
have HC'S j : (Poly cs' * S)`_j = (Poly cs * S)`_j + d / b * ('X^m * Poly bs * S)`_j.
  by rewrite HC' mulrDl coefD -scalerAl coefZ.
have HC'sz l' : (l <= l')%N -> (n.+1 - l <= l')%N -> (size (Poly cs') <= l'.+1)%N.
  move=> H1 H2; rewrite HC'; apply: leq_trans (size_add _ _) _.
  rewrite geq_max (leq_trans HC) ?ltnS //=.
  apply: leq_trans (size_scale_leq _ _) _; apply: leq_trans (size_mul_leq _ _) _.
  rewrite size_polyXn; lia.
have HC'n : (Poly cs' * S)`_n = 0 \/ (l = 0%N /\ m = n.+1).
  case: HBn => [|HBn]; [by right|left].
  by rewrite HC'S HBn -/d divfK // char2.
case E1: (_ <=? n)%nat.
  rewrite Hadd /= nsubE /=; last by lia.
  eexists; split; first reflexivity.
  have El' : ((n + 1)%coq_nat - l)%N = (n.+1 - l)%N by lia.
  split; first by split=> //=; lia.
  split; rewrite /= El'.
    split=> //.
    - apply: HC'sz => //; lia.
    - move=> j H1; rewrite ltnS leq_eqVlt => /orP[/eqP Ej|H2] //.
        by case: HC'n => [|[H3 H4]]; [rewrite Ej|lia].
      rewrite HC'S Hgen ?HBz ?mulr0 ?addr0 //; lia.
    - move=> L w HL0 HL HgL; exact: (massey HC0 HL0 HC HL HnN Hgen dN0 HgL).
  split.
  - lia.
  - by move: HC; have -> : (n.+2 - (n.+1 - l) - 1 = l)%N by lia.
  - case=> [|j] H1 H2; first by lia.
    rewrite expr1 -mulrA coefXM /=; apply: Hgen; lia.
  - by right; rewrite expr1 -mulrA coefXM.
rewrite Hadd /=; eexists; split; first reflexivity.
case: HBn => [[H1 H2]|HBn]; first by move: E1; lia.
split; first by split=> //=; lia.
split=> /=.
  split=> //.
  - apply: HC'sz => //; lia.
  - move=> j H1; rewrite ltnS leq_eqVlt => /orP[/eqP ->|H2] //.
      by case: HC'n => // -[H3 H4]; move: E1; lia.
    rewrite HC'S Hgen ?HBz ?mulr0 ?addr0 //; lia.
split.
- lia.
- by move: HB; have -> : (n.+2 - l - (m + 1)%coq_nat = n.+1 - l - m)%N by lia.
- case=> [|j] H1 H2; first by lia.
  rewrite plusE addn1 exprS -!mulrA coefXM /= mulrA; apply: HBz; lia.
- by right; rewrite plusE addn1 exprS -!mulrA coefXM /= mulrA.
Qed.

Lemma bmP {E} : exists cs l, @berlekamp_massey E F GFF s N = Ok cs /\ size cs = 64%N /\
  (Poly cs)`_0 = 1 /\ (size (Poly cs) <= l.+1)%N /\ (l <= N)%N /\ gen (Poly cs) l N /\ minimal l.
Proof.
rewrite /berlekamp_massey; loop bm_inv; case=> [//|||st [-> Hinv]].
- have HP1 : Poly (upd (zeros64 GFF) 0 1) = 1%:P :> {poly F}.
    apply/polyP => i; rewrite coef_Poly nth_updE // coefC nth_zeros; by case: (i == 0%N).
  have Hsz1 : size (upd (zeros64 GFF) 0 1) = 64%N by rewrite size_upd.
  rewrite /bm_inv [bm_cs _]/= [bm_bs _]/= [bm_l _]/= [bm_m _]/= [bm_b _]/= HP1.
  split; first by split; rewrite ?coefC.
  split; first by split; rewrite ?size_poly1 ?oner_eq0.
  split; rewrite ?size_poly1 //.
  by left.
- by move=> n st _ Hn Hi; apply: bm_stepP.
case: Hinv => [[H1 H2 H3 H4 H5] [[H6 H7 H8 H9] _]].
by exists (bm_cs st), (bm_l st).
Qed.
End BM.

(** ** The error locator *)
Section Locator.
Variables (I : seq nat) (X : nat -> F).
Hypothesis Iuniq : uniq I.
Hypothesis Xn0 : forall i, i \in I -> X i != 0.
Hypothesis Xinj : {in I &, injective X}.
Let w := size I.

Definition fac i : {poly F} := 1 - X i *: 'X.
Definition Lambda : {poly F} := \prod_(i <- I) fac i.
Definition Lam_but k : {poly F} := \prod_(i <- I | i != k) fac i.
(** Evaluator polynomial of the error values [Y]. *)
Definition Omega (Y : nat -> F) : {poly F} := \sum_(k <- I) Y k *: Lam_but k.

Lemma size_fac i : (size (fac i) <= 2)%N.
Proof.
apply: leq_trans (size_add _ _) _; rewrite size_opp geq_max size_poly1 /=.
by apply: leq_trans (size_scale_leq _ _) _; rewrite size_polyX.
Qed.

Lemma size_prod_fac (J : seq nat) (P : pred nat) :
  (size (\prod_(i <- J | P i) fac i)%R <= (count P J).+1)%N.
Proof.
elim: J => [|j J IH]; first by rewrite big_nil size_poly1.
rewrite big_cons /=; case: ifP => _; last by rewrite add0n.
apply: leq_trans (size_mul_leq _ _) _; have := size_fac j; move: IH.
set a := size _; set b := size (fac j); lia.
Qed.

Lemma size_Lambda : (size Lambda <= w.+1)%N.
Proof. by rewrite /Lambda /w -(count_predT I); apply: size_prod_fac. Qed.

Lemma size_Lam_but k : k \in I -> (size (Lam_but k) <= w)%N.
Proof.
move=> Hk; apply: leq_trans (size_prod_fac _ _) _.
have := count_predC (pred1 k) I; rewrite count_uniq_mem // Hk /w => <-.
by rewrite add1n ltnS; apply: eq_leq; apply: eq_count.
Qed.

Lemma size_Omega Y : (size (Omega Y) <= w)%N.
Proof.
rewrite /Omega; apply: leq_trans (size_sum _ _ _) _.
apply/bigmax_leqP_seq => k Hk _.
by apply: leq_trans (size_scale_leq _ _) _; apply: size_Lam_but.
Qed.

Lemma fac0 i : (fac i)`_0 = 1.
Proof. by rewrite coefB coefZ coefX mulr0 subr0 coef1. Qed.

Lemma Lambda0 : Lambda`_0 = 1.
Proof.
rewrite /Lambda; elim: I => [|j J IH]; first by rewrite big_nil coef1.
by rewrite big_cons coefM big_ord1 fac0 mul1r IH.
Qed.

Lemma Lambda_split k : k \in I -> Lambda = fac k * Lam_but k.
Proof. by move=> Hk; rewrite /Lambda (bigD1_seq k). Qed.

Lemma fac_eval i x : (fac i).[x] = 1 - X i * x.
Proof. by rewrite hornerD hornerN hornerZ hornerX hornerC. Qed.

Lemma Lam_but_eval k j : k \in I -> j \in I -> ((Lam_but k).[(X j)^-1] == 0) = (j != k).
Proof.
move=> Hk Hj; rewrite /Lam_but horner_prod.
apply/idP/idP => [|Hjk].
  rewrite prodf_seq_eq0 => /hasP[i Hi /andP[Hik]].
  rewrite fac_eval subr_eq0 => /eqP H1.
  have Xij : X i = X j by rewrite -[RHS]mul1r H1 divfK ?Xn0.
  by rewrite -(Xinj Hi Hj Xij).
rewrite prodf_seq_eq0; apply/hasP; exists j => //.
by rewrite Hjk fac_eval divff ?Xn0 ?subrr /=.
Qed.

Lemma Lambda_eval i : X i != 0 -> (forall j, j \in I -> X j = X i -> j = i) ->
  (Lambda.[(X i)^-1] == 0) = (i \in I).
Proof.
move=> Hi Hinj; rewrite /Lambda horner_prod prodf_seq_eq0.
apply/hasP/idP => [[j Hj]|Hin].
  rewrite fac_eval /= subr_eq0 => /eqP H1.
  by rewrite -(Hinj j Hj) // -[RHS]mul1r H1 divfK.
by exists i => //; rewrite fac_eval divff ?subrr /=.
Qed.

Lemma Omega_eval Y k : k \in I -> (Omega Y).[(X k)^-1] = Y k * (Lam_but k).[(X k)^-1].
Proof.
move=> Hk; rewrite /Omega horner_sum (bigD1_seq k) //= hornerZ big_seq_cond big1 ?addr0 //.
move=> i /andP[Hi Hik]; rewrite hornerZ.
have /eqP -> : (Lam_but i).[(X k)^-1] == 0 by rewrite Lam_but_eval // eq_sym.
by rewrite mulr0.
Qed.

(** The key equation: [Lambda] times the power series of the syndromes is [Omega] below [N]. *)
Lemma key_equation (s : seq F) (Y : nat -> F) N :
  (forall j, (j < N)%N -> s`_j = \sum_(k <- I) Y k * X k ^+ j) ->
  forall j, (j < N)%N -> (Lambda * Poly s)`_j = (Omega Y)`_j.
Proof.
move=> Hs j Hj.
pose SN : {poly F} := \sum_(k <- I) Y k *: \sum_(i < N) (X k *: 'X) ^+ i.
have HSN i : (i < N)%N -> (Poly s)`_i = SN`_i.
  move=> Hi; rewrite coef_Poly Hs // /SN coef_sum; apply: eq_bigr => k _.
  rewrite coefZ coef_sum (bigD1 (Ordinal Hi)) //= big1 ?addr0.
    by rewrite exprZn coefZ coefXn eqxx mulr1.
  move=> i0 Hi0; rewrite exprZn coefZ coefXn.
  by rewrite -val_eqE /= eq_sym in Hi0; rewrite (negbTE Hi0) mulr0.
have -> : (Lambda * Poly s)`_j = (Lambda * SN)`_j.
  rewrite !coefM; apply: eq_bigr => i _; rewrite HSN //.
  by apply: leq_ltn_trans Hj; apply: leq_subr.
have -> : Lambda * SN = Omega Y - 'X^N * \sum_(k <- I) (Y k * X k ^+ N) *: Lam_but k.
  rewrite /SN /Omega mulr_sumr mulr_sumr -sumrB big_seq_cond [RHS]big_seq_cond.
  apply: eq_bigr => k /andP[Hk _].
  rewrite (Lambda_split Hk) -scalerAr -!mulrA [Lam_but k * _]mulrC mulrA.
  have -> : fac k * (\sum_(i < N) (X k *: 'X) ^+ i) = 1 - X k ^+ N *: 'X^N.
    by rewrite -exprZn -[X in _ = X - _](expr1n _ N) subrXX /=; congr (_ * _);
       apply: eq_bigr => i _; rewrite expr1n mul1r.
  rewrite mulrBl mul1r scalerBr; congr (_ - _).
  by rewrite -scalerAl scalerA -scalerAr.
by rewrite coefB coefXnM Hj subr0.
Qed.

Section Unique.
Variables (s : seq F) (Y : nat -> F) (N : nat).
Hypothesis Yn0 : forall i, i \in I -> Y i != 0.
Hypothesis Hs : forall j, (j < N)%N -> s`_j = \sum_(k <- I) Y k * X k ^+ j.
Hypothesis HwN : (w + w <= N)%N.

Lemma gen_Lambda : gen s Lambda w N.
Proof.
move=> j H1 H2; rewrite (key_equation Hs) // nth_default //.
by apply: leq_trans (size_Omega _) H1.
Qed.

Lemma locator_unique (C : {poly F}) l :
  C`_0 = 1 -> (size C <= l.+1)%N -> gen s C l N -> minimal s N l -> C = Lambda.
Proof.
move=> HC0 HC Hgen Hmin.
have Hlw : (l <= w)%N by apply: (Hmin Lambda w Lambda0 size_Lambda gen_Lambda).
pose P := \poly_(j < l) (C * Poly s)`_j.
have HP j : (j < N)%N -> (C * Poly s)`_j = P`_j.
  by move=> Hj; rewrite coef_poly; case: ltnP => // Hl; apply: Hgen.
have HPsz : (size P <= l)%N by apply: size_poly.
have Hmul : Lambda * P = C * Omega Y.
  apply/polyP => j; case: (ltnP j N) => Hj.
    have -> : (Lambda * P)`_j = (Lambda * (C * Poly s))`_j.
      rewrite !coefM; apply: eq_bigr => i _; rewrite HP //.
      by apply: leq_ltn_trans Hj; apply: leq_subr.
    rewrite mulrCA !coefM; apply: eq_bigr => i _; rewrite (key_equation Hs) //.
    by apply: leq_ltn_trans Hj; apply: leq_subr.
  rewrite !nth_default //.
    apply: leq_trans (size_mul_leq _ _) _; have := size_Omega Y.
    by move: HC HwN Hlw Hj; set a := size C; set b := size (Omega Y); lia.
  apply: leq_trans (size_mul_leq _ _) _; have := size_Lambda.
  by move: HPsz HwN Hlw Hj; set a := size Lambda; set b := size P; lia.
have Croot k : k \in I -> C.[(X k)^-1] = 0.
  move=> Hk; have := congr1 (fun p => p.[(X k)^-1]) Hmul.
  rewrite !hornerM Omega_eval //.
  have /eqP -> : Lambda.[(X k)^-1] == 0.
    rewrite Lambda_eval ?Xn0 // => j Hj E; exact: Xinj Hj Hk E.
  rewrite mul0r => /esym/eqP; rewrite !mulf_eq0 (negbTE (Yn0 Hk)) /=.
  by rewrite Lam_but_eval // eqxx orbF => /eqP.
have [->//|Hne] := eqVneq C Lambda.
have D0 : C - Lambda != 0 by rewrite subr_eq0.
pose rs := 0 :: [seq (X k)^-1 | k <- I].
have Hall : all (root (C - Lambda)) rs.
  rewrite /= /root horner_coef0 coefB HC0 Lambda0 subrr eqxx /=.
  apply/allP => _ /mapP[k Hk ->]; rewrite hornerD hornerN Croot //.
  have /eqP -> : Lambda.[(X k)^-1] == 0.
    rewrite Lambda_eval ?Xn0 // => j Hj E; exact: Xinj Hj Hk E.
  by rewrite subrr.
have Huniq : uniq rs.
  rewrite /= map_inj_in_uniq ?Iuniq ?andbT.
    apply/mapP => -[k Hk] /esym/eqP; rewrite invr_eq0; apply/negP; exact: Xn0.
  move=> i j Hi Hj /invr_inj; exact: Xinj.
have := max_poly_roots D0 Hall Huniq; rewrite /= size_map -/w.
have : (size (C - Lambda)%R <= w.+1)%N.
  apply: leq_trans (size_add _ _) _; rewrite size_opp geq_max size_Lambda andbT.
  by apply: leq_trans HC _.
by move=> H1 H2; move: (leq_trans H2 H1); rewrite ltnn.
Qed.
End Unique.

Hypothesis char2 : forall a : F, a + a = 0.

Lemma Lambda_deriv k : k \in I -> Lambda^`().[(X k)^-1] = X k * (Lam_but k).[(X k)^-1].
Proof.
move=> Hk; rewrite (Lambda_split Hk) derivM hornerD !hornerM fac_eval divff ?Xn0 // subrr mul0r addr0.
by rewrite /fac derivB derivZ derivX derivC sub0r hornerN hornerZ hornerC mulr1 (oppE char2).
Qed.
End Locator.

(** ** Repairing a block *)
Hypothesis char2 : forall a : F, a + a = 0.

Lemma mulrn_char2 (a : F) n : a *+ n = if odd n then a else 0.
Proof.
rewrite -[n in LHS]odd_double_half mulrnDr -mul2n mulrnA mulr2n char2 mul0rn addr0.
by case: (odd n).
Qed.

Lemma deriv_char2 (p : {poly F}) sd sg : p = Poly sg -> size sg = 64%N ->
  (forall k, sd`_k = if (k < 64)%N && ~~ odd k then sg`_k.+1 else 0) -> Poly sd = p^`().
Proof.
move=> -> Hsz Hk; apply/polyP => k; rewrite coef_deriv !coef_Poly Hk.
case: (ltnP k 64) => H64 /=; last by rewrite nth_default ?mul0rn // Hsz; lia.
rewrite mulrn_char2 /=; by case: (odd k).
Qed.

(** Word [c] belongs to the code with [npar] parity symbols. *)
Definition codeword (c : seq F) npar := forall i, (i < npar)%N -> synd c i = 0.

Lemma syndromes_ok {E} (c : seq F) npar : (npar <= 64)%N -> codeword c npar ->
  exists s, @block_syndromes E F GFF c npar = Ok (false, s).
Proof.
move=> Hn Hc; have [nz [s [-> [_ [_ ->]]]]] := @block_syndromesP E c npar Hn.
exists s; congr (Ok (_, _)); apply/existsP => -[i]; by rewrite Hc ?eqxx.
Qed.

Definition npos (bs : nat) (e : seq F) : seq nat := [seq i <- iota 0 bs | e`_(bs - 1 - i) != 0].

Section Repair.
Variables (bs N : nat) (c r : seq F).
Hypothesis Hc : size c = bs.
Hypothesis Hr : size r = bs.
Hypothesis Hbs : (bs <= 255)%N.
Hypothesis HN : (N < 64)%N.
Hypothesis alpha255 : alpha ^+ 255 = 1.
Hypothesis alpha_inj : forall i j, (i < 255)%N -> (j < 255)%N -> alpha ^+ i = alpha ^+ j -> i = j.
Hypothesis Hcode : codeword c N.

Let err i := r`_(bs - 1 - i) - c`_(bs - 1 - i).
Let I := [seq i <- iota 0 bs | r`_(bs - 1 - i) != c`_(bs - 1 - i)].
Hypothesis Hw : (size I + size I <= N)%N.

Let X i := alpha ^+ i.

Lemma alpha_n0 : alpha != 0.
Proof. by apply/eqP => H; move: alpha255; rewrite H expr0n /= => /esym/eqP; rewrite oner_eq0. Qed.

Lemma in_I i : (i \in I) = (i < bs)%N && (r`_(bs - 1 - i) != c`_(bs - 1 - i)).
Proof. by rewrite mem_filter mem_iota add0n andbC. Qed.

Lemma synd_err i : (i < N)%N -> synd r i = \sum_(k <- I) err k * X k ^+ i.
Proof.
move=> Hi; have -> : synd r i = synd r i - synd c i by rewrite Hcode // subr0.
rewrite /synd Hr Hc -sumrB /I big_filter.
have -> : iota 0 bs = index_iota 0 bs by rewrite /index_iota subn0.
rewrite big_mkord [RHS]big_mkcond /=.
apply: eq_bigr => k _; rewrite -mulrBl /err /X -exprM mulnC.
by case: eqP => [->|] //=; rewrite subrr mul0r.
Qed.

Theorem repair_codeword dw ns : (dw < bs)%N -> N = (bs - dw)%N ->
  correct_block GFF r (mkRS bs dw ns) = Ok c.
Proof.
move=> Hdw EN; rewrite /correct_block /=.
have -> : (dw <? bs)%nat = true by lia.
have Hlr : length r = bs by [].
have -> : (bs <=? length r)%nat = true by rewrite Hlr; lia.
rewrite [bind _ _]/= [bind _ _]/=.
have Hfr (l : seq F) : size l = bs -> firstn bs l = l.
  by move=> <-; exact: firstn_all.
rewrite Hfr //.
have -> : (bs - dw)%coq_nat = N by lia.
have [nz [s [-> [Hs [Hsi ->]]]]] := @block_syndromesP deqr_error r N (ltnW HN).
rewrite /=.
have Xn0 i : X i != 0 by rewrite /X expf_neq0 ?alpha_n0.
have Xinj : {in I &, injective X}.
  by move=> i j; rewrite !in_I => /andP[H1 _] /andP[H2 _]; apply: alpha_inj; lia.
have Yn0 i : i \in I -> err i != 0 by rewrite in_I /err subr_eq0 => /andP[].
have Iuniq : uniq I by apply: filter_uniq; apply: iota_uniq.
have Hsj j : (j < N)%N -> s`_j = \sum_(k <- I) err k * X k ^+ j.
  by move=> Hj; rewrite Hsi Hj synd_err.
case: existsP => [_|Hno] /=; last first.
  (* no syndrome is non-zero: there is no error *)
  have HI : I = [::].
    have H0 j : (j < N)%N -> s`_j = 0.
      move=> Hj; rewrite Hsi Hj; apply/eqP/negPn/negP => H; apply: Hno.
      by exists (Ordinal Hj).
    apply/eqP/negPn/negP => HIne.
    have Hw1 : (0 < size I)%N by case: (I) HIne.
    have HS0 j : (j < N)%N -> (Poly s)`_j = 0 by move=> Hj; rewrite coef_Poly H0.
    have Hg : gen s 1 0 N by move=> j _ Hj; rewrite mul1r HS0.
    have E1 : 1 = Lambda I X.
      have Hmin : minimal s N 0 by [].
      apply: (locator_unique Iuniq _ Xinj Yn0 Hsj Hw _ _ Hg Hmin) => //.
      - by rewrite coef1.
      - by rewrite size_poly1.
    case EI : I Hw1 => [|k J] // _.
    have Hk : k \in I by rewrite EI mem_head.
    have : Lambda I X != 1.
      apply/eqP => E2; have := Lambda_eval (I:=I) (X:=X) (i:=k) (Xn0 k).
      rewrite E2 hornerC oner_eq0 Hk => Hf.
      have : false = true.
        by apply: Hf => j Hj; apply: Xinj.
      by [].
    by rewrite -E1 eqxx.
  congr Ok; apply: (@eq_from_nth _ 0); first by rewrite Hr Hc.
  move=> i; rewrite Hr => Hi; apply/eqP/negPn/negP => Hne.
  have : (bs - 1 - i)%N \in I.
    have Ei : (bs - 1 - (bs - 1 - i))%N = i by lia.
    by rewrite in_I Ei Hne andbT; lia.
  by rewrite HI.
have [cs [l [-> [Hcs [Hcs0 [Hsz [_ [Hgen Hmin]]]]]]]] := @bmP s N Hs HN char2 deqr_error.
have HL : Poly cs = Lambda I X by apply: (locator_unique Iuniq _ Xinj Yn0 Hsj Hw Hcs0 Hsz Hgen Hmin).
rewrite [bind _ _]/=.
have [sd [-> [Hsd Hsdk]]] := @sigma_derivativeP deqr_error cs Hcs.
have Hder : Poly sd = (Lambda I X)^`() by apply: (deriv_char2 (sg:=cs)).
rewrite [bind _ _]/=.
have HN1 : ((N - 1)%coq_nat < 64)%N by lia.
have [om [-> [Hom Homk]]] := @eloc_polyP deqr_error s cs (N - 1)%coq_nat Hs Hcs HN1.
have Hs1 j : (j < N - 1)%N -> (behead s)`_j = \sum_(k <- I) (err k * X k) * X k ^+ j.
  move=> Hj; rewrite nth_behead Hsj; last by lia.
  by apply: eq_bigr => k _; rewrite exprS mulrA.
have HOm : Poly om = Omega I X (fun k => err k * X k).
  apply/polyP => k; rewrite coef_Poly Homk.
  have -> : (k < (N - 1)%coq_nat)%N = (k < N - 1)%N by lia.
  case: ltnP => Hk.
    rewrite -(key_equation Iuniq Hs1) // coefM; apply: eq_bigr => i _.
    by rewrite -HL !coef_Poly nth_behead.
  rewrite nth_default //; apply: leq_trans (size_Omega Iuniq (fun i _ => Xn0 i) _) _.
  have Hw2 : (size I + size I <= N)%N by exact: Hw.
  have Hgoal : (size I <= k)%N by lia.
  exact: Hgoal.
rewrite [bind _ _]/= /repair_loop.
pose P i (b : seq F) := size b = bs /\ forall k, (k < bs)%N ->
   b`_(bs - 1 - k) = if (k < i)%N then c`_(bs - 1 - k) else r`_(bs - 1 - k).
loop P; case=> [//|||b [-> [Hb Hbk]]].
- by split.
- move=> i b _ Hi [Hb Hbk].
  rewrite nsubE; last by lia.
  rewrite [bind _ _]/= gf_powE.
  have -> : alpha ^+ (255 - i) = (X i)^-1.
    by apply: (mulfI (Xn0 i)); rewrite divff // /X -exprD subnKC ?alpha255 //; lia.
  rewrite !poly_evalP // [bind _ _]/= HL Hder HOm.
  have Hroot : ((Lambda I X).[(X i)^-1] == 0) = (i \in I).
    apply: Lambda_eval => // j; rewrite in_I => /andP[Hj _]; apply: alpha_inj; lia.
  rewrite Hroot; case HiI: (i \in I); last first.
    exists b; split=> //; split=> // k Hk; rewrite Hbk //.
    have [->|Hne] := eqVneq k i; last by have -> : (k < i)%N = (k < i.+1)%N by lia.
    rewrite ltnn ltnSn.
    by move: HiI; rewrite in_I Hi /= => /negbT; rewrite negbK => /eqP.
  have HLd := Lambda_deriv Iuniq (fun i _ => Xn0 i) char2 HiI.
  have HLb : (Lam_but I X i).[(X i)^-1] != 0.
    by rewrite Lam_but_eval // eqxx.
  rewrite HLd /= mulf_eq0 (negbTE (Xn0 i)) (negbTE HLb) /=.
  rewrite Omega_eval // /gdiv /= mulf_eq0 (negbTE (Xn0 i)) (negbTE HLb) /=.
  rewrite -(mulrA (err i)) mulfK ?mulf_neq0 //.
  rewrite nsubE /=; last by lia.
  rewrite nsubE /=; last by lia.
  have Ei : (bs - i - 1)%N = (bs - 1 - i)%N by lia.
  rewrite Ei getE ?Hb /=; last by lia.
  rewrite setE ?Hb; last by lia.
  eexists; split; first reflexivity.
  split; first by rewrite size_upd.
  move=> k Hk; rewrite nth_updE ?Hb; last by lia.
  have -> : (bs - 1 - k == bs - 1 - i)%N = (k == i) by lia.
  case: eqP => [->|Hne].
    by rewrite ltnSn Hbk // ltnn /err addrA char2 add0r oppE.
  by rewrite Hbk //; have -> : (k < i)%N = (k < i.+1)%N by lia.
have -> : b = c.
  apply: (@eq_from_nth _ 0); first by rewrite Hb Hc.
  move=> i; rewrite Hb => Hi; have := Hbk (bs - 1 - i)%N.
  have -> : (bs - 1 - (bs - 1 - i))%N = i by lia.
  have Hlt : (bs - 1 - i < bs)%N by lia.
  by rewrite Hlt => ->.
rewrite [bind _ _]/= Hfr //.
by have [s' ->] := @syndromes_ok deqr_error c N (ltnW HN) Hcode.
Qed.
End Repair.

(** ** Arbitrary blocks: no panic, and an accepted block is a codeword *)
Theorem correct_block_returns bs dw ns (r : seq F) :
  size r = bs -> (dw < bs)%N -> (bs <= 255)%N -> (bs - dw < 64)%N ->
  (exists b, correct_block GFF r (mkRS bs dw ns) = Ok b /\ size b = bs /\ codeword b (bs - dw))
  \/ correct_block GFF r (mkRS bs dw ns) = Err DataEcc.
Proof.
move=> Hr Hdw Hbs HN0; pose N := (bs - dw)%N; have HN : (N < 64)%N by [].
rewrite /correct_block /=.
have -> : (dw <? bs)%nat = true by lia.
have Hlr : length r = bs by [].
have -> : (bs <=? length r)%nat = true by rewrite Hlr; lia.
rewrite [bind _ _]/= [bind _ _]/=.
have Hfr (l : seq F) : size l = bs -> firstn bs l = l.
  by move=> <-; exact: firstn_all.
rewrite Hfr //.
have -> : (bs - dw)%coq_nat = N by rewrite /N; lia.
have [nz [s [-> [Hs [Hsi ->]]]]] := @block_syndromesP deqr_error r N (ltnW HN).
rewrite /=; case: existsP => [_|Hno] /=; last first.
  left; exists r; split=> //; split=> // i Hi; apply/eqP/negPn/negP => H; apply: Hno.
  by exists (Ordinal Hi).
have [cs [l [-> [Hcs [Hcs0 [Hsz [_ [Hgen Hmin]]]]]]]] := @bmP s N Hs HN char2 deqr_error.
rewrite [bind _ _]/=.
have [sd [-> [Hsd Hsdk]]] := @sigma_derivativeP deqr_error cs Hcs.
rewrite [bind _ _]/=.
have HN1 : ((N - 1)%coq_nat < 64)%N by lia.
have [om [-> [Hom Homk]]] := @eloc_polyP deqr_error s cs (N - 1)%coq_nat Hs Hcs HN1.
rewrite [bind _ _]/= /repair_loop.
have Hloop : forall n, (n <= bs)%N -> forall b : seq F, size b = bs ->
  let body := (fun i block => bind (nsub 255 i) (fun e =>
       let xinv := gf_pow GFF (gf_gen GFF) e in
       bind (poly_eval GFF cs xinv) (fun sx =>
       if gf_eqb GFF sx (gf_zero GFF) then
         bind (poly_eval GFF sd xinv) (fun sd_x =>
         bind (poly_eval GFF om xinv) (fun omega_x =>
         if gf_eqb GFF sd_x (gf_zero GFF) then Err DataEcc
         else
           bind (gdiv GFF omega_x sd_x) (fun error =>
           bind (nsub bs i) (fun k =>
           bind (nsub k 1) (fun k =>
           bind (aget block k) (fun old =>
           aset block k (gf_add GFF old error)))))))
       else Ok block))) in
  (exists b', for_each (Base.range (bs - n) bs) body b = Ok b' /\ size b' = bs)
  \/ for_each (Base.range (bs - n) bs) body b = Err DataEcc.
  elim=> [|n IH] Hn b Hb body.
    by left; exists b; rewrite range_nil //; lia.
  rewrite range_cons; last by lia.
  have -> : (bs - n.+1).+1 = (bs - n)%N by lia.
  rewrite -[for_each _ _ _]/(bind (body (bs - n.+1)%N b) (fun s' => for_each (Base.range (bs - n) bs) body s')).
  rewrite {1 3}/body nsubE; last by lia.
  rewrite [bind (Ok _) _]/= !poly_evalP //=.
  case: ifP => _; last by apply: IH => //; lia.
  case: eqP => [_|/eqP Hd]; first by right.
  rewrite /gdiv /= (negbTE Hd) /= nsubE /=; last by lia.
  rewrite nsubE /=; last by lia.
  rewrite getE ?Hb /=; last by lia.
  rewrite setE ?Hb /=; last by lia.
  by apply: IH; rewrite ?size_upd //; lia.
have := Hloop bs (leqnn _) r Hr; rewrite /= subnn; case=> [[b [-> Hb]]|->]; last by right.
rewrite [bind _ _]/= Hfr //.
have [nz2 [s2 [-> [_ [_ ->]]]]] := @block_syndromesP deqr_error b N (ltnW HN).
rewrite /=; case: existsP => [_|Hno] /=; first by right.
left; exists b; split=> //; split=> // i Hi; apply/eqP/negPn/negP => H; apply: Hno.
by exists (Ordinal Hi).
Qed.
End RS.

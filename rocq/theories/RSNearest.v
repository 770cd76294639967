(** What [correct_block] returns is never farther from the block received than any other word of
    the code, however many bytes are wrong. *)
From Verif Require Import Base Lib VersionDb ModelGF ModelRS GFProofs RSTransport SpecQR.
From mathcomp Require Import all_ssreflect all_algebra.
From mathcomp Require Import zify.
From Verif Require Import GFField RSProofs RSBytes.

Set Implicit Arguments.
Unset Strict Implicit.
Unset Printing Implicit Defensive.
Import GRing.Theory.
Local Open Scope ring_scope.
Close Scope Z_scope.

#[local] Arguments Base.range : simpl never.
#[local] Arguments for_each : simpl never.
#[local] Arguments zeros64 : simpl never.
#[local] Arguments Nat.leb : simpl never.
#[local] Arguments Nat.ltb : simpl never.
#[local] Arguments Nat.sub : simpl never.
#[local] Arguments Nat.add : simpl never.
#[local] Arguments Nat.mul : simpl never.

Section Nearest.
Variable F : fieldType.
Variable alpha : F.
Hypothesis char2 : forall a : F, a + a = 0.
Hypothesis alpha255 : alpha ^+ 255 = 1.
Hypothesis alpha_inj : forall i j, (i < 255)%N -> (j < 255)%N -> alpha ^+ i = alpha ^+ j -> i = j.

(** The positions, counted from the end, where two words differ. *)
Definition diffs bs (r c : seq F) := [seq i <- iota 0 bs | r`_(bs - 1 - i) != c`_(bs - 1 - i)].

Lemma in_diffs bs r c i : (i \in diffs bs r c) = (i < bs)%N && (r`_(bs - 1 - i) != c`_(bs - 1 - i)).
Proof. by rewrite mem_filter mem_iota add0n andbC. Qed.

(** Any word of the code bounds the length of a shortest register for the syndromes. *)
Lemma minimal_diffs bs N (r c : seq F) s l :
  size r = bs -> size c = bs -> (bs <= 255)%N -> codeword alpha c N ->
  (forall j, (j < N)%N -> s`_j = synd alpha r j) -> minimal s N l -> (l <= size (diffs bs r c))%N.
Proof.
move=> Hr Hc Hbs Hcode Hs Hmin.
pose X i := alpha ^+ i.
have Xn0 i : X i != 0 by rewrite /X expf_neq0 ?(alpha_n0 alpha255).
have Iu : uniq (diffs bs r c) by apply: filter_uniq; apply: iota_uniq.
have Hsj j : (j < N)%N -> s`_j = \sum_(k <- diffs bs r c) (r`_(bs - 1 - k) - c`_(bs - 1 - k)) * X k ^+ j.
  by move=> Hj; rewrite Hs // (synd_err Hc Hr Hcode).
apply: (Hmin (Lambda (diffs bs r c) X)).
- exact: Lambda0.
- exact: size_Lambda.
- exact: (gen_Lambda Iu (fun i _ => Xn0 i) Hsj).
Qed.

(** A loop that only changes positions where the locator vanishes. *)
Lemma roots_bound (p : {poly F}) bs (J : seq nat) :
  p != 0 -> (bs <= 255)%N -> uniq J -> (forall i, i \in J -> (i < bs)%N /\ p.[alpha ^+ (255 - i)] = 0) ->
  (size J < size p)%N.
Proof.
move=> Hp Hbs Hu HJ; rewrite -(size_map (fun i => alpha ^+ (255 - i)) J).
apply: max_poly_roots => //.
- by apply/allP => x /mapP[i Hi ->]; apply/rootP; case: (HJ i Hi).
- rewrite map_inj_in_uniq // => i j Hi Hj.
  have [Hi1 _] := HJ _ Hi; have [Hj1 _] := HJ _ Hj.
  have An0 k : alpha ^+ k != 0 by rewrite expf_neq0 ?(alpha_n0 alpha255).
  have Hinv k : (k < bs)%N -> alpha ^+ (255 - k) = (alpha ^+ k)^-1.
    by move=> Hk; apply: (mulfI (An0 k)); rewrite divff // -exprD subnKC ?alpha255 //; lia.
  rewrite !Hinv // => /invr_inj; apply: alpha_inj; lia.
Qed.

Theorem correct_block_minimal bs dw ns (r b : seq F) :
  size r = bs -> (dw < bs)%N -> (bs <= 255)%N -> (bs - dw < 64)%N ->
  correct_block (GFF alpha) r (mkRS bs dw ns) = Ok b ->
  (size (diffs bs r b) <= bs - dw)%N /\
  forall c, size c = bs -> codeword alpha c (bs - dw) -> (size (diffs bs r b) <= size (diffs bs r c))%N.
Proof.
move=> Hr Hdw Hbs HN0; pose N := (bs - dw)%N; have HN : (N < 64)%N by [].
rewrite /correct_block /=.
have -> : (dw <? bs)%nat = true by lia.
have Hlr : length r = bs by [].
have -> : (bs <=? length r)%nat = true by rewrite Hlr; lia.
rewrite [bind _ _]/= [bind _ _]/=.
have Hfr (l : seq F) : size l = bs -> firstn bs l = l.
  by move=> <-; exact: firstn_all.
rewrite Hfr //.
have -> : (bs - dw)%coq_nat = N by rewrite /N; lia.
have [nz [s [-> [Hs [Hsi ->]]]]] := @block_syndromesP _ alpha deqr_error r N (ltnW HN).
rewrite /=; case: existsP => [_|Hno] /=.
  have [cs [l [-> [Hcs [Hcs0 [Hsz [HlN [Hgen Hmin]]]]]]]] := @bmP _ alpha s N Hs HN char2 deqr_error.
  rewrite [bind _ _]/=.
  have [sd [-> [Hsd Hsdk]]] := @sigma_derivativeP _ alpha deqr_error cs Hcs.
  rewrite [bind _ _]/=.
  have HN1 : ((N - 1)%coq_nat < 64)%N by lia.
  have [om [-> [Hom Homk]]] := @eloc_polyP _ alpha deqr_error s cs (N - 1)%coq_nat Hs Hcs HN1.
  rewrite [bind _ _]/= /repair_loop.
  pose ok (b : seq F) := size b = bs /\ forall i, i \in diffs bs r b -> (Poly cs).[alpha ^+ (255 - i)] = 0.
  have Hloop : forall n, (n <= bs)%N -> forall b0 : seq F, ok b0 ->
    let body := (fun i block => bind (nsub 255 i) (fun e =>
       let xinv := gf_pow (GFF alpha) (gf_gen (GFF alpha)) e in
       bind (poly_eval (GFF alpha) cs xinv) (fun sx =>
       if gf_eqb (GFF alpha) sx (gf_zero (GFF alpha)) then
         bind (poly_eval (GFF alpha) sd xinv) (fun sd_x =>
         bind (poly_eval (GFF alpha) om xinv) (fun omega_x =>
         if gf_eqb (GFF alpha) sd_x (gf_zero (GFF alpha)) then Err DataEcc
         else
           bind (gdiv (GFF alpha) omega_x sd_x) (fun error =>
           bind (nsub bs i) (fun k =>
           bind (nsub k 1) (fun k =>
           bind (aget block k) (fun old =>
           aset block k (gf_add (GFF alpha) old error)))))))
       else Ok block))) in
    forall b', for_each (Base.range (bs - n) bs) body b0 = Ok b' -> ok b'.
    elim=> [|n IH] Hn b0 Hb0 body b'.
      by rewrite range_nil; [case=> <-|lia].
    rewrite range_cons; last by lia.
    have -> : (bs - n.+1).+1 = (bs - n)%N by lia.
    rewrite -[for_each _ _ _]/(bind (body (bs - n.+1)%N b0) (fun s' => for_each (Base.range (bs - n) bs) body s')).
    rewrite {1}/body nsubE; last by lia.
    rewrite [bind (Ok _) _]/= gf_powE !poly_evalP //=.
    case: eqP => Hroot; last by apply: IH => //; lia.
    case: eqP => [//|/eqP Hd].
    rewrite /gdiv /= (negbTE Hd) /= nsubE /=; last by lia.
    rewrite nsubE /=; last by lia.
    case: Hb0 => Hb0 Hall.
    rewrite getE ?Hb0 /=; last by lia.
    rewrite setE ?Hb0 /=; last by lia.
    apply: IH; first by lia.
    split; first by rewrite size_upd.
    move=> i; rewrite in_diffs => /andP[Hi].
    rewrite nth_updE ?Hb0; last by lia.
    case: (@eqP _ (bs - 1 - i)%N (bs - (bs - n.+1) - 1)%N) => [E _|_ Hne].
      have -> : i = (bs - n.+1)%N by lia.
      exact: Hroot.
    by apply: Hall; rewrite in_diffs Hi Hne.
  have Hok0 : ok r by split=> // i; rewrite in_diffs eqxx andbF.
  move/(_ bs (leqnn _) r Hok0): Hloop; rewrite /= subnn.
  case: (for_each _ _ _) => [b'|e| |] Hl //=.
  have [Hb' Hroots] := Hl b' erefl.
  rewrite Hfr //.
  have [nz2 [s2 [-> [_ [_ ->]]]]] := @block_syndromesP _ alpha deqr_error b' N (ltnW HN).
  rewrite /=; case: existsP => [//|_] /= [<-].
  have Hp0 : Poly cs != 0.
    by apply/eqP => E; move: Hcs0; rewrite E coef0 => /esym/eqP; rewrite oner_eq0.
  have Hlt : (size (diffs bs r b') < size (Poly cs))%N.
    apply: (@roots_bound _ bs) => //.
    - by apply: filter_uniq; apply: iota_uniq.
    - move=> i Hi; split; last exact: Hroots.
      by move: Hi; rewrite in_diffs => /andP[].
  have Hd : (size (diffs bs r b') <= l)%N by lia.
  split; first by apply: leq_trans Hd HlN.
  move=> c Hc Hcode; apply: leq_trans Hd _.
  apply: (minimal_diffs Hr Hc Hbs Hcode _ Hmin) => j Hj; by rewrite Hsi Hj.
case=> <-.
have -> : diffs bs r r = [::].
  by apply/eqP; rewrite -size_eq0 size_filter -leqn0 leqNgt -has_count; apply/hasPn => i _ /=; rewrite eqxx.
by split.
Qed.

(** Adding a word of the code to the block received adds it to what is returned. *)
Fixpoint addl (a b : seq F) : seq F :=
  match a, b with
  | x :: a', y :: b' => x + y :: addl a' b'
  | _, _ => [::]
  end.

Lemma size_addl a b : size a = size b -> size (addl a b) = size b.
Proof. by elim: a b => [|x a IH] [|y b] //= [] /IH ->. Qed.

Lemma nth_addl a b i : size a = size b -> (addl a b)`_i = a`_i + b`_i.
Proof.
elim: a b i => [|x a IH] [|y b] // [|i] //=; rewrite ?addr0 //; by case=> /IH ->.
Qed.

Lemma upd_addl a b i v : size a = size b -> (i < size b)%N ->
  addl (upd a i v) b = upd (addl a b) i (v + b`_i).
Proof.
move=> Hs Hi; have Hl : size (addl a b) = size b by exact: size_addl.
have Hu : size (upd a i v) = size b by rewrite size_upd.
apply: (@eq_from_nth _ 0); first by rewrite size_upd Hl size_addl.
move=> j _; rewrite nth_addl // nth_updE ?Hs // nth_updE ?Hl //.
by case: eqP => [->//|_]; rewrite nth_addl.
Qed.

Lemma synd_addl a b i : size a = size b -> synd alpha (addl a b) i = synd alpha a i + synd alpha b i.
Proof.
move=> Hs; rewrite /synd size_addl // Hs -big_split; apply: eq_bigr => j _ /=.
by rewrite nth_addl // mulrDl.
Qed.

Lemma block_syndromes_addl {E} a b N : size a = size b -> (N <= 64)%N -> codeword alpha b N ->
  @block_syndromes E F (GFF alpha) (addl a b) N = block_syndromes (GFF alpha) a N.
Proof.
move=> Hs HN Hb.
have Hsy i : (i < N)%N -> synd alpha (addl a b) i = synd alpha a i.
  by move=> Hi; rewrite synd_addl // Hb // addr0.
have [nz [s [-> [Hz [Hsi ->]]]]] := @block_syndromesP _ alpha E a N HN.
have [nz' [s' [-> [Hz' [Hsi' ->]]]]] := @block_syndromesP _ alpha E (addl a b) N HN.
congr (Ok (_, _)).
- by apply: eq_existsb => i; rewrite Hsy.
- apply: (@eq_from_nth _ 0); first by rewrite Hz Hz'.
  by move=> i _; rewrite Hsi Hsi'; case: ltnP => // /Hsy.
Qed.

Theorem correct_block_addl bs dw ns (r c : seq F) :
  size r = bs -> size c = bs -> (dw < bs)%N -> (bs <= 255)%N -> (bs - dw < 64)%N ->
  codeword alpha c (bs - dw) ->
  correct_block (GFF alpha) (addl r c) (mkRS bs dw ns)
  = res_map (fun b => addl b c) (correct_block (GFF alpha) r (mkRS bs dw ns)).
Proof.
move=> Hr Hc Hdw Hbs HN0; pose N := (bs - dw)%N; have HN : (N < 64)%N by [].
move=> Hcode.
have Ha : size (addl r c) = bs by rewrite size_addl // Hr.
rewrite /correct_block /=.
have -> : (dw <? bs)%nat = true by lia.
have Hlr : length r = bs by [].
have Hla : length (addl r c) = bs by [].
have -> : (bs <=? length r)%nat = true by rewrite Hlr; lia.
have -> : (bs <=? length (addl r c))%nat = true by rewrite Hla; lia.
rewrite [bind _ _]/= [bind _ _]/=.
have Hfr (l : seq F) : size l = bs -> firstn bs l = l.
  by move=> <-; exact: firstn_all.
rewrite !Hfr //.
have -> : (bs - dw)%coq_nat = N by rewrite /N; lia.
rewrite block_syndromes_addl ?Hr //; last by apply: ltnW.
have [nz [s [-> [Hs [Hsi _]]]]] := @block_syndromesP _ alpha deqr_error r N (ltnW HN).
rewrite /=; case: nz => //=.
have [cs [l [Ecs [Hcs _]]]] := @bmP _ alpha s N Hs HN char2 deqr_error.
rewrite Ecs /=.
have [sd [Esd [Hsd Hsdk]]] := @sigma_derivativeP _ alpha deqr_error cs Hcs.
rewrite Esd /=.
have HN1 : ((N - 1)%coq_nat < 64)%N by lia.
have [om [Eom [Hom Homk]]] := @eloc_polyP _ alpha deqr_error s cs (N - 1)%coq_nat Hs Hcs HN1.
rewrite Eom /= /repair_loop.
have Hloop : forall n, (n <= bs)%N -> forall b0 : seq F, size b0 = bs ->
  let body := (fun i block => bind (nsub 255 i) (fun e =>
     let xinv := gf_pow (GFF alpha) (gf_gen (GFF alpha)) e in
     bind (poly_eval (GFF alpha) cs xinv) (fun sx =>
     if gf_eqb (GFF alpha) sx (gf_zero (GFF alpha)) then
       bind (poly_eval (GFF alpha) sd xinv) (fun sd_x =>
       bind (poly_eval (GFF alpha) om xinv) (fun omega_x =>
       if gf_eqb (GFF alpha) sd_x (gf_zero (GFF alpha)) then Err DataEcc
       else
         bind (gdiv (GFF alpha) omega_x sd_x) (fun error =>
         bind (nsub bs i) (fun k =>
         bind (nsub k 1) (fun k =>
         bind (aget block k) (fun old =>
         aset block k (gf_add (GFF alpha) old error)))))))
     else Ok block))) in
  for_each (Base.range (bs - n) bs) body (addl b0 c)
  = res_map (fun b => addl b c) (for_each (Base.range (bs - n) bs) body b0)
  /\ forall b', for_each (Base.range (bs - n) bs) body b0 = Ok b' -> size b' = bs.
  elim=> [|n IH] Hn b0 Hb0 body.
    by rewrite range_nil; [split=> // b' [<-]|lia].
  rewrite range_cons; last by lia.
  have -> : (bs - n.+1).+1 = (bs - n)%N by lia.
  rewrite -[for_each _ _ (addl b0 c)]/(bind (body (bs - n.+1)%N (addl b0 c)) (fun s' => for_each (Base.range (bs - n) bs) body s')).
  rewrite -[for_each _ _ b0]/(bind (body (bs - n.+1)%N b0) (fun s' => for_each (Base.range (bs - n) bs) body s')).
  have Hab : size (addl b0 c) = bs by rewrite size_addl // Hb0.
  have [Hb Hsz] : body (bs - n.+1)%N (addl b0 c) = res_map (fun b => addl b c) (body (bs - n.+1)%N b0)
    /\ forall b', body (bs - n.+1)%N b0 = Ok b' -> size b' = bs.
    rewrite /body nsubE; last by lia.
    rewrite /= !gf_powE !poly_evalP //=.
    case: eqP => Hroot; last by split=> // b' [<-].
    case: eqP => [//|/eqP Hd].
    rewrite /gdiv /= (negbTE Hd) /= nsubE /=; last by lia.
    rewrite nsubE /=; last by lia.
    rewrite !getE ?Hab ?Hb0 /=; try by lia.
    rewrite !setE ?Hab ?Hb0 /=; try by lia.
    split; last by move=> b' [<-]; rewrite size_upd.
    congr Ok; rewrite upd_addl ?Hb0 ?Hc //; last by lia.
    by rewrite nth_addl ?Hb0 // addrAC.
  rewrite Hb; case: (body _ b0) Hsz => [b1|e| |] Hsz //=.
  by apply: IH; [lia|exact: Hsz].
have := Hloop bs (leqnn _) r Hr; rewrite /= subnn => -[-> Hsz].
case: (for_each _ _ _) Hsz => [b|e| |] Hsz //=.
have Hb : size b = bs by exact: Hsz.
have Hab : size (addl b c) = bs by rewrite size_addl // Hb.
rewrite !Hfr // block_syndromes_addl ?Hb //; last by apply: ltnW.
have [nz2 [s2 [E2 _]]] := @block_syndromesP _ alpha deqr_error b N (ltnW HN).
by rewrite E2 /=; case: (nz2).
Qed.
End Nearest.

Theorem correct_block_nearest (bs dw ns : nat) (r b : list Z) :
  length r = bs -> (dw < bs)%coq_nat -> (bs <= 255)%coq_nat -> (bs - dw < 64)%coq_nat ->
  Forall is_byte r ->
  correct_block GF256 r (mkRS bs dw ns) = Ok b ->
  (distance r b <= bs - dw)%coq_nat /\
  forall c, length c = bs -> rs_codeword (bs - dw) c -> (distance r b <= distance r c)%coq_nat.
Proof.
move=> Hr Hdw Hbs HN Hrb.
have [r' Er] := lift_bytes Hrb; rewrite Er h_correct_block256.
have Sr : size r' = bs by rewrite -Hr Er map_length.
have H1 : (dw < bs)%N by lia.
have H2 : (bs <= 255)%N by lia.
have H3 : (bs - dw < 64)%N by lia.
case E : (correct_block _ r' _) => [b'|e| |] //= -[<-].
have Sb : size b' = bs.
  case: (@correct_block_returns _ gf2 gf256_char2 bs dw ns r' Sr H1 H2 H3) => [[b1 [E1 [Hb _]]]|E1];
    rewrite E1 in E; last by [].
  by case: E => <-.
have [D1 D2] := @correct_block_minimal _ gf2 gf256_char2 gf2_255 gf2_inj bs dw ns r' b' Sr H1 H2 H3 E.
have Hdist (x : seq gf256) : size x = bs ->
    size (diffs bs r' x) = distance (List.map gfval r') (List.map gfval x).
  move=> Sx; have := @distance_lift r' x; rewrite Sr Sx; exact.
rewrite -(Hdist b' Sb); split; first by lia.
move=> c Hc Hcode; have [c' Ec] := lift_bytes (proj1 Hcode).
have Sc : size c' = bs by rewrite -Hc Ec map_length.
rewrite Ec -(Hdist c' Sc); apply/leP; apply: D2 => //.
by apply/codeword_lift; rewrite -Ec.
Qed.

Lemma zip_xor_lift (a b : seq gf256) :
  zip_xor (List.map gfval a) (List.map gfval b) = List.map gfval (addl a b).
Proof. by elim: a b => [|x a IH] [|y b] //=; rewrite IH. Qed.

Theorem correct_block_xor (bs dw ns : nat) (r c : list Z) :
  length r = bs -> length c = bs -> (dw < bs)%coq_nat -> (bs <= 255)%coq_nat -> (bs - dw < 64)%coq_nat ->
  Forall is_byte r -> rs_codeword (bs - dw) c ->
  correct_block GF256 (zip_xor r c) (mkRS bs dw ns)
  = res_map (fun b => zip_xor b c) (correct_block GF256 r (mkRS bs dw ns)).
Proof.
move=> Hr Hc Hdw Hbs HN Hrb Hcode.
have [r' Er] := lift_bytes Hrb; have [c' Ec] := lift_bytes (proj1 Hcode).
have Sr : size r' = bs by rewrite -Hr Er map_length.
have Sc : size c' = bs by rewrite -Hc Ec map_length.
have H1 : (dw < bs)%N by lia.
have H2 : (bs <= 255)%N by lia.
have H3 : (bs - dw < 64)%N by lia.
rewrite Er Ec zip_xor_lift !h_correct_block256.
have Hcw : codeword gf2 c' (bs - dw) by apply/codeword_lift; rewrite -Ec.
rewrite (correct_block_addl gf256_char2 gf2_inj ns Sr Sc H1 H2 H3 Hcw).
by case: (correct_block _ _ _) => [b|e| |] //=; rewrite zip_xor_lift.
Qed.

(** The systematic encoder of SpecQR.v produces codewords. *)
From Verif Require Import Base Lib ModelGF GFProofs SpecQR.
From mathcomp Require Import all_ssreflect all_algebra.
From mathcomp Require Import zify.
From Verif Require Import GFField RSProofs RSBytes.

Set Implicit Arguments.
Unset Strict Implicit.
Unset Printing Implicit Defensive.
Import GRing.Theory.
Local Open Scope ring_scope.
Close Scope Z_scope.

Section Enc.
Variable F : fieldType.
Variable alpha : F.
Hypothesis char2 : forall a : F, a + a = 0.

Fixpoint zadd (a b : seq F) : seq F :=
  match a, b with
  | x :: a', y :: b' => (x + y) :: zadd a' b'
  | _, _ => [::]
  end.
Definition genF (t : seq F) (r : F) : seq F := zadd (t ++ [:: 0]) (map (fun y => r * y) (1 :: t)).
Definition generatorF n : seq F := foldl genF [::] [seq alpha ^+ i | i <- iota 0 n].
Definition divF (g r : seq F) (b : F) : seq F :=
  zadd (behead r ++ [:: 0]) (map (fun y => (b + head 0 r) * y) g).
Definition parityF n (data : seq F) : seq F := foldl (divF (generatorF n)) (nseq n 0) data.

Definition ev (x : F) (l : seq F) : F := foldl (fun a b => a * x + b) 0 l.

Lemma ev_acc x l a : foldl (fun a b => a * x + b) a l = a * x ^+ size l + ev x l.
Proof.
rewrite /ev; elim: l a => [|b l IH] a /=; first by rewrite mulr1 addr0.
rewrite IH [in RHS]IH mul0r add0r exprS mulrDl -!mulrA addrA; congr (_ + _ + _).
Qed.
Lemma ev_cons x a l : ev x (a :: l) = a * x ^+ size l + ev x l.
Proof. by rewrite /ev /= mul0r add0r ev_acc. Qed.
Lemma ev_cat x a b : ev x (a ++ b) = ev x a * x ^+ size b + ev x b.
Proof. by rewrite {1}/ev foldl_cat ev_acc. Qed.

Lemma size_zadd a b : size a = size b -> size (zadd a b) = size a.
Proof. by elim: a b => [|x a IH] [|y b] //= [] /IH ->. Qed.
Lemma ev_zadd x a b : size a = size b -> ev x (zadd a b) = ev x a + ev x b.
Proof.
elim: a b => [|y a IH] [|z b] Hs; first (by rewrite /ev /= addr0); try by [].
case: Hs => H; by rewrite [zadd _ _]/= !ev_cons IH // size_zadd // -H mulrDl addrACA.
Qed.
Lemma ev_scale x r a : ev x (map (fun y => r * y) a) = r * ev x a.
Proof.
elim: a => [|y a IH]; first by rewrite /ev /= mulr0.
by rewrite map_cons !ev_cons IH size_map mulrDr mulrA.
Qed.

Lemma size_genF t r : size (genF t r) = (size t).+1.
Proof. by rewrite /genF size_zadd ?size_cat ?size_map /= ?addn1. Qed.

Lemma ev_genF x t r : ev x (1 :: genF t r) = (x + r) * ev x (1 :: t).
Proof.
rewrite ev_cons size_genF mul1r /genF ev_zadd; last by rewrite size_cat size_map /= addn1.
rewrite ev_scale ev_cat -[ev x [:: 0]]/(0 * x + 0) mul0r !addr0 expr1 (ev_cons x 1 t) mul1r exprS.
move: (x ^+ size t) (ev x t) => X V.
by rewrite mulrDl !mulrDr (mulrC V) !addrA.
Qed.

Lemma ev_gens x l t : ev x (1 :: foldl genF t l) = (\prod_(r <- l) (x + r)) * ev x (1 :: t).
Proof.
elim: l t => [|r l IH] t /=; first by rewrite big_nil mul1r.
by rewrite IH ev_genF big_cons mulrA; congr (_ * _); rewrite mulrC.
Qed.
Lemma size_gens l t : size (foldl genF t l) = (size t + size l)%N.
Proof. by elim: l t => [|r l IH] t /=; rewrite ?addn0 // IH size_genF addSnnS. Qed.

Lemma size_generatorF n : size (generatorF n) = n.
Proof. by rewrite /generatorF size_gens size_map size_iota. Qed.

Lemma oppF (a : F) : - a = a.
Proof. by apply/eqP; rewrite eq_sym -subr_eq0 opprK char2. Qed.

Lemma ev_generatorF n i : (i < n)%N -> ev (alpha ^+ i) (generatorF n) = alpha ^+ i ^+ n.
Proof.
move=> Hi; have := ev_gens (alpha ^+ i) [seq alpha ^+ i | i <- iota 0 n] [::].
rewrite -/(generatorF n) (big_rem (alpha ^+ i)) /=; last first.
  by apply/mapP; exists i; rewrite // mem_iota.
rewrite char2 !mul0r ev_cons mul1r size_generatorF => /eqP.
by rewrite addr_eq0 oppF => /eqP ->.
Qed.

Lemma size_divF n r b : size r = n -> (0 < n)%N -> size (divF (generatorF n) r b) = n.
Proof.
move=> Hr Hn; rewrite /divF size_zadd ?size_cat ?size_map ?size_generatorF ?size_behead ?Hr /=; lia.
Qed.

Lemma ev_divF n r b i : (i < n)%N -> size r = n ->
  ev (alpha ^+ i) (divF (generatorF n) r b)
  = ev (alpha ^+ i) r * alpha ^+ i + b * alpha ^+ i ^+ n.
Proof.
move=> Hi Hr; rewrite /divF ev_zadd; last first.
  by rewrite size_cat size_map size_generatorF size_behead Hr /=; lia.
rewrite ev_scale ev_generatorF // ev_cat -[ev _ [:: 0]]/(0 * _ + 0) mul0r !addr0 expr1.
case: r Hr => [|h r] /= Hr; first by move: Hi; rewrite -Hr.
rewrite ev_cons mulrDl -mulrA -exprSr Hr mulrDl.
set X := ev _ r * _; set Y := h * _; set Z := b * _.
by rewrite (addrC Z) addrA (addrC X).
Qed.

Lemma size_parityF n data : size (parityF n data) = n.
Proof.
rewrite /parityF; have : size (nseq n (0 : F)) = n by rewrite size_nseq.
case: (posnP n) => [->|Hn].
  rewrite -[generatorF 0]/[::]; move: (nseq 0 0) => r.
  elim: data r => [|b d IH] r Hr //=.
  by apply: IH; case: r Hr.
move: (nseq n 0) => r.
by elim: data r => [|b d IH] r Hr //=; apply: IH; rewrite size_divF.
Qed.

Lemma ev_parityF n data i : (i < n)%N ->
  ev (alpha ^+ i) (parityF n data) = ev (alpha ^+ i) data * alpha ^+ i ^+ n.
Proof.
move=> Hi.
suff H : forall (d r : seq F) a, size r = n -> ev (alpha ^+ i) r = a * alpha ^+ i ^+ n ->
  ev (alpha ^+ i) (foldl (divF (generatorF n)) r d)
  = foldl (fun a b => a * alpha ^+ i + b) a d * alpha ^+ i ^+ n.
  apply: H; first by rewrite size_nseq.
  rewrite mul0r; elim: n {Hi} => [|n IH] //.
  by rewrite -[nseq n.+1 0]/(0 :: nseq n 0) ev_cons IH mul0r addr0.
elim=> [|b d IH] r a Hr Hs //=.
apply: IH; first by apply: size_divF => //; lia.
by rewrite ev_divF // Hs mulrDl -!mulrA (mulrC (alpha ^+ i ^+ n)).
Qed.

Lemma parity_codeword n data : codeword alpha (data ++ parityF n data) n.
Proof.
move=> i Hi; rewrite synd_horner -/(ev _ _) ev_cat size_parityF ev_parityF //; exact: char2.
Qed.
End Enc.

(** * On bytes *)
Lemma zip_xor_lift a b : zip_xor (List.map gfval a) (List.map gfval b) = List.map gfval (zadd a b).
Proof. by elim: a b => [|x a IH] [|y b] //=; rewrite IH. Qed.

Lemma gen_step_lift t r : gen_step (List.map gfval t) (gfval r) = List.map gfval (genF t r).
Proof.
rewrite /gen_step /genF -zip_xor_lift; congr (zip_xor _ _); first by rewrite List.map_app.
have -> : cons (Zpos xH) (List.map gfval t) = List.map gfval (1 :: t) by [].
by elim: (1 :: t) => //= y l ->; rewrite field_mulE ?gfP.
Qed.

Lemma generator_lift n : generator n = List.map gfval (generatorF gf2 n).
Proof.
rewrite /generator /generatorF.
have -> : List.map alpha_pow (List.seq 0 n) = List.map gfval [seq gf2 ^+ i | i <- iota 0 n].
  have -> : List.seq 0 n = iota 0 n by elim: n 0%N => //= n IH m; rewrite IH.
  by elim: (iota 0 n) => //= i l ->; rewrite -alpha_powE.
rewrite -[nil]/(List.map gfval [::]).
elim: [seq _ | i <- _] [::] => //= r l IH t; by rewrite gen_step_lift IH.
Qed.

Lemma division_lift g r b :
  division_step (List.map gfval g) (List.map gfval r) (gfval b) = List.map gfval (divF g r b).
Proof.
rewrite /division_step /divF -zip_xor_lift; congr (zip_xor _ _).
- by rewrite -[[:: Z0]]/(List.map gfval [:: 0]); case: r => //= a r; rewrite List.map_app.
- have -> : Z.lxor (gfval b) (List.hd Z0 (List.map gfval r)) = gfval (b + head 0 r) by case: r.
  move: (b + head 0 r) => f; by elim: g => //= y l ->; rewrite field_mulE ?gfP.
Qed.

Lemma parity_lift n (data : seq gf256) :
  rs_parity n (List.map gfval data) = List.map gfval (parityF gf2 n data).
Proof.
rewrite /rs_parity /parityF generator_lift.
have -> : List.repeat Z0 n = List.map gfval (nseq n 0) by elim: n => //= n ->.
move: (generatorF gf2 n) (nseq n 0) => g.
by elim: data => //= b d IH r; rewrite division_lift IH.
Qed.

Theorem rs_parity_codeword (n : nat) (data : list Z) : Forall is_byte data ->
  length (rs_parity n data) = n /\ rs_codeword n (data ++ rs_parity n data)%list.
Proof.
move=> H; have [d ->] := lift_bytes H; rewrite parity_lift map_length.
split; first by rewrite -[RHS](@size_parityF gf256_fieldType gf2 gf256_char2 n d).
rewrite -List.map_app; apply/codeword_lift; exact: (@parity_codeword gf256_fieldType gf2 gf256_char2 n d).
Qed.

(** Arrangements of symbols in which no wrong finder patterns are taken together. *)
From Verif Require Import Base Lib SpecImage SpecScan SpecFinder SpecPicture SpecSheet SpecQR.
From Coq Require Import ZifyBool.
Open Scope Z_scope.
Set Bullet Behavior "Strict Subproofs".

Definition reach (k : mark) : Z := (symbol_size (mk_v k) - 7) * mk_m k.
Definition sized (k : mark) : Prop := 1 <= mk_v k <= 40 /\ 1 <= mk_m k.

Lemma reach_range k : sized k -> 14 * mk_m k <= reach k <= 170 * mk_m k /\ side k = reach k + 7 * mk_m k.
Proof. intros [V M]. unfold side, reach, symbol_size. nia. Qed.

Lemma finder_place k f : In f (finders k) -> exists i j, fst f = mk_m k /\ fst (snd f) = mk_ox k + i /\ snd (snd f) = mk_oy k + j /\ (i = 0 \/ i = reach k) /\ (j = 0 \/ j = reach k).
Proof.
  unfold finders, corner_finder, row_finder, column_finder, finder_of, reach. cbv zeta. cbn [In].
  destruct (mk_r k) as [|[|[|r']]]; intros [<-|[<-|[<-|[]]]]; cbn [fst snd];
    (eexists; eexists; split; [reflexivity|]; split; [reflexivity|]; split; [reflexivity|]; auto).
Qed.

(** Among the patterns of one symbol, only the right ones may be tried together. *)
Lemma own_only k f g h : sized k -> In f (finders k) -> In g (finders k) -> In h (finders k) -> g <> f -> h <> f -> may_pair f g h ->
  f = corner_finder k /\ (g = row_finder k \/ g = column_finder k) /\ (h = row_finder k \/ h = column_finder k).
Proof.
  intros S. destruct (reach_range k S) as [R _]. assert (M : 1 <= mk_m k) by apply S. revert R. clear S.
  unfold finders, corner_finder, row_finder, column_finder, finder_of. cbv zeta. fold (reach k). cbn [In]. unfold may_pair, gap_x, gap_y.
  generalize (reach k). intros d R.
  destruct (mk_r k) as [|[|[|r']]]; intros [<-|[<-|[<-|[]]]] [<-|[<-|[<-|[]]]] [<-|[<-|[<-|[]]]] N1 N2; try congruence; cbn [fst snd]; intros (P1 & P2 & P3);
    try (exfalso; clear N1 N2; lia); auto.
Qed.

Lemma unspent_corner ks k f : sized k -> mk_r k = 0%nat -> In k ks -> In f (finders k) -> ~ spent ks f f -> f = corner_finder k.
Proof.
  intros S R Hk Hf N. destruct (reach_range k S) as [B _]. assert (M : 1 <= mk_m k) by apply S.
  destruct Hf as [Hf|Hf]; [symmetry; exact Hf|]. exfalso. apply N. exists k. split; [exact Hk|]. split; [right; exact Hf|].
  revert Hf. unfold row_finder, column_finder, corner_finder, sooner_finder, finder_of. rewrite R. cbv zeta. fold (reach k). cbn [In]. intros [<-|[<-|[]]]; cbn [fst snd]; lia.
Qed.

(** * Equal upright symbols side by side, or one above the other *)

Section Equal.
Context (ks : list mark) (v m : Z) (V : 1 <= v <= 40) (M : 1 <= m).
Context (Eq : alike v m ks) (Sp : ForallOrdPairs spaced ks).
Notation D := ((symbol_size v - 7) * m).

Lemma equal_sized k : In k ks -> sized k /\ reach k = D /\ mk_m k = m /\ mk_r k = 0%nat.
Proof using V M Eq Sp. intros Hk. destruct (Eq k Hk) as (E1 & E2 & E3). unfold sized, reach. rewrite E1, E2. auto 6. Qed.

Lemma equal_gaps k k' : In k ks -> In k' ks -> k = k' \/ let e := D + 7 * m in
  mk_ox k + e < mk_ox k' \/ mk_ox k' + e < mk_ox k \/ mk_oy k + e < mk_oy k' \/ mk_oy k' + e < mk_oy k.
Proof using V M Eq Sp.
  intros H H'. cbv zeta. destruct (Eq k H) as (E1 & E2 & _). destruct (Eq k' H') as (F1 & F2 & _).
  assert (Q : symbol_size v * m = D + 7 * m) by ring.
  destruct (ForallOrdPairs_In Sp k k' H H') as [S|[S|S]]; [left; exact S|right|right]; unfold spaced, side in S; rewrite E1, E2, F1, F2, Q in S; [exact S|].
  clear - S. lia.
Qed.

Lemma equal_places k f : In k ks -> In f (finders k) -> f = (m, (mk_ox k, mk_oy k)) \/ f = (m, (mk_ox k + D, mk_oy k)) /\ f = row_finder k \/ f = (m, (mk_ox k, mk_oy k + D)) /\ f = column_finder k.
Proof using V M Eq Sp.
  intros Hk. destruct (Eq k Hk) as (E1 & E2 & E3). unfold finders, corner_finder, row_finder, column_finder, finder_of. rewrite E1, E2, E3. cbv zeta. rewrite !Z.add_0_r.
  cbn [In]. intuition.
Qed.

Lemma D_range : 14 * m <= D <= 170 * m.
Proof using V M Eq Sp. unfold symbol_size. nia. Qed.

Lemma equal_unspent k k' f : In k ks -> In k' ks -> In f (finders k') -> ~ spent ks (corner_finder k) f -> ~ sooner_finder (corner_finder k') (corner_finder k).
Proof using V M Eq Sp. intros H H' Hf N S. apply N. exists k'. auto. Qed.

Theorem row_orderly oy : (forall k, In k ks -> mk_oy k = oy) -> orderly ks.
Proof using V M Eq Sp.
  intros Ro f g h Hf Hg Hh Ng Nh Nf Ng' Nh' P.
  apply in_flat_map in Hf as (k & Hk & Hf). apply in_flat_map in Hg as (kg & Hkg & Hg). apply in_flat_map in Hh as (kh & Hkh & Hh).
  destruct (equal_sized k Hk) as (Sk & Rk & Mk & Rr). pose proof (unspent_corner ks k f Sk Rr Hk Hf Nf) as ->. exists k. split; [exact Hk|]. split; [reflexivity|]. cbv zeta.
  pose proof (equal_unspent k kg g Hk Hkg Hg Ng') as Sg. pose proof (equal_unspent k kh h Hk Hkh Hh Nh') as Sh.
  assert (Ec : forall k, In k ks -> corner_finder k = (m, (mk_ox k, oy))).
  { intros k0 H0. destruct (equal_sized k0 H0) as (_ & R0 & M0 & T0). unfold corner_finder, finder_of. rewrite T0, M0, (Ro k0 H0). cbv zeta. rewrite !Z.add_0_r. reflexivity. }
  pose proof (equal_gaps k kg Hk Hkg) as Gg. pose proof (equal_gaps k kh Hk Hkh) as Gh. cbv zeta in Gg, Gh.
  pose proof (equal_places kg g Hkg Hg) as Pg. pose proof (equal_places kh h Hkh Hh) as Ph. pose proof D_range as DR.
  rewrite (Ro k Hk), (Ro kg Hkg) in Gg. rewrite (Ro k Hk), (Ro kh Hkh) in Gh. rewrite (Ro kg Hkg) in Pg. rewrite (Ro kh Hkh) in Ph.
  rewrite (Ec k Hk) in *. rewrite (Ec kg Hkg) in Sg. rewrite (Ec kh Hkh) in Sh. unfold sooner_finder in Sg, Sh. cbv zeta in Sg, Sh. cbn [fst snd] in Sg, Sh.
  clear Ec Hf Nf Ng' Nh' Rk Mk Rr Sk Hg Hh. revert P Pg Ph Gg Gh DR Sg Sh. generalize D. intros d P Pg Ph Gg Gh DR Sg Sh.
  unfold may_pair, less_square, gap_x, gap_y in *. cbn [fst snd] in P |- *.
  assert (Hh : kh = k /\ h = (m, (mk_ox k, oy + d)) /\ h = column_finder k).
  { destruct Ph as [-> |[[-> _]|[Eh Ch]]]; cbn [fst snd] in P.
    - exfalso. destruct Gh as [<-|Gh]; [apply Nh; reflexivity|]. clear - P Gh DR M Sh. lia.
    - exfalso. destruct Gh as [<-|Gh]; [clear - P DR M; lia|]. clear - P Gh DR M Sh. lia.
    - destruct Gh as [<-|Gh]; [auto|]. exfalso. rewrite Eh in P. cbn [fst snd] in P. clear - P Gh DR M Sh. lia. }
  destruct Hh as (-> & Eh & Ch). assert (P2 := P). rewrite Eh in P2. cbn [fst snd] in P2.
  destruct Pg as [-> |[[Eg Cg]|[-> _]]]; cbn [fst snd] in P2.
  - right. split; [right; right; exact Ch|]. rewrite Eh. cbn [fst snd]. destruct Gg as [<-|Gg]; [exfalso; apply Ng; reflexivity|]. clear - P2 Gg DR M Sg. lia.
  - destruct Gg as [<-|Gg]; [left; auto|]. exfalso. rewrite Eg in P2. cbn [fst snd] in P2. clear - P2 Gg DR M Sg. lia.
  - exfalso. clear - P2 DR M. lia.
Qed.

Theorem column_orderly ox : (forall k, In k ks -> mk_ox k = ox) -> orderly ks.
Proof using V M Eq Sp.
  intros Ro f g h Hf Hg Hh Ng Nh Nf Ng' Nh' P.
  apply in_flat_map in Hf as (k & Hk & Hf). apply in_flat_map in Hg as (kg & Hkg & Hg). apply in_flat_map in Hh as (kh & Hkh & Hh).
  destruct (equal_sized k Hk) as (Sk & Rk & Mk & Rr). pose proof (unspent_corner ks k f Sk Rr Hk Hf Nf) as ->. exists k. split; [exact Hk|]. split; [reflexivity|]. cbv zeta.
  pose proof (equal_unspent k kg g Hk Hkg Hg Ng') as Sg. pose proof (equal_unspent k kh h Hk Hkh Hh Nh') as Sh.
  assert (Ec : forall k, In k ks -> corner_finder k = (m, (ox, mk_oy k))).
  { intros k0 H0. destruct (equal_sized k0 H0) as (_ & R0 & M0 & T0). unfold corner_finder, finder_of. rewrite T0, M0, (Ro k0 H0). cbv zeta. rewrite !Z.add_0_r. reflexivity. }
  pose proof (equal_gaps k kg Hk Hkg) as Gg. pose proof (equal_gaps k kh Hk Hkh) as Gh. cbv zeta in Gg, Gh.
  pose proof (equal_places kg g Hkg Hg) as Pg. pose proof (equal_places kh h Hkh Hh) as Ph. pose proof D_range as DR.
  rewrite (Ro k Hk), (Ro kg Hkg) in Gg. rewrite (Ro k Hk), (Ro kh Hkh) in Gh. rewrite (Ro kg Hkg) in Pg. rewrite (Ro kh Hkh) in Ph.
  rewrite (Ec k Hk) in *. rewrite (Ec kg Hkg) in Sg. rewrite (Ec kh Hkh) in Sh. unfold sooner_finder in Sg, Sh. cbv zeta in Sg, Sh. cbn [fst snd] in Sg, Sh.
  clear Ec Hf Nf Ng' Nh' Rk Mk Rr Sk Hg Hh. revert P Pg Ph Gg Gh DR Sg Sh. generalize D. intros d P Pg Ph Gg Gh DR Sg Sh.
  unfold may_pair, less_square, gap_x, gap_y in *. cbn [fst snd] in P |- *.
  assert (Hg : kg = k /\ g = (m, (ox + d, mk_oy k)) /\ g = row_finder k).
  { destruct Pg as [-> |[[Eg Cg]|[-> _]]]; cbn [fst snd] in P.
    - exfalso. destruct Gg as [<-|Gg]; [apply Ng; reflexivity|]. clear - P Gg DR M Sg. lia.
    - destruct Gg as [<-|Gg]; [auto|]. exfalso. rewrite Eg in P. cbn [fst snd] in P. clear - P Gg DR M Sg. lia.
    - exfalso. destruct Gg as [<-|Gg]; [clear - P DR M; lia|]. clear - P Gg DR M Sg. lia. }
  destruct Hg as (-> & Eg & Cg). assert (P2 := P). rewrite Eg in P2. cbn [fst snd] in P2.
  destruct Ph as [-> |[[-> _]|[Eh Ch]]]; cbn [fst snd] in P2.
  - right. split; [left; left; exact Cg|]. rewrite Eg. cbn [fst snd]. destruct Gh as [<-|Gh]; [exfalso; apply Nh; reflexivity|]. clear - P2 Gh DR M Sh. lia.
  - exfalso. clear - P2 DR M. lia.
  - destruct Gh as [<-|Gh]; [left; auto|]. exfalso. rewrite Eh in P2. cbn [fst snd] in P2. clear - P2 Gh DR M Sh. lia.
Qed.
End Equal.

(** * Any symbols far apart in a strip *)

Section Strip.
Context (ks : list mark) (S : Z) (Sz : forall k, In k ks -> sized k).

Theorem strip_orderly y0 : within_rows S y0 ks -> orderly ks.
Proof using Sz.
  intros [St Far] f g h Hf Hg Hh Ng Nh _ _ _ P.
  apply in_flat_map in Hf as (k & Hk & Hf). apply in_flat_map in Hg as (kg & Hkg & Hg). apply in_flat_map in Hh as (kh & Hkh & Hh).
  destruct (finder_place k f Hf) as (i & j & F1 & F2 & F3 & F4 & F5). destruct (finder_place kg g Hg) as (ig & jg & G1 & G2 & G3 & G4 & G5). destruct (finder_place kh h Hh) as (ih & jh & H1 & H2 & H3 & H4 & H5).
  destruct (reach_range k (Sz k Hk)) as [Rk Ek]. destruct (reach_range kg (Sz kg Hkg)) as [Rg Eg]. destruct (reach_range kh (Sz kh Hkh)) as [Rh Eh].
  pose proof (St k Hk) as Sk. pose proof (St kg Hkg) as Sg. pose proof (St kh Hkh) as Sh.
  pose proof (proj2 (Sz k Hk)) as Mk. pose proof (proj2 (Sz kg Hkg)) as Mg. pose proof (proj2 (Sz kh Hkh)) as Mh.
  assert (P' := P). unfold may_pair, gap_x, gap_y in P'. rewrite F1, F2, F3, G1, G2, G3, H1, H2, H3 in P'. destruct P' as (P1 & P2 & P3).
  assert (kh = k).
  { destruct (ForallOrdPairs_In Far k kh Hk Hkh) as [E|[E|E]]; [symmetry; exact E| |]; exfalso; clear - E P2 F4 F5 H4 H5 Rk Ek Rh Eh Sk Sh Mk Mh; lia. }
  subst kh.
  assert (kg = k).
  { destruct (ForallOrdPairs_In Far k kg Hk Hkg) as [E|[E|E]]; [symmetry; exact E| |]; exfalso; clear - E P3 F4 F5 G4 G5 H4 H5 Rk Ek Rg Eg Sk Sg Mk Mg; lia. }
  subst kg. exists k. split; [exact Hk|]. destruct (own_only k f g h (Sz k Hk) Hf Hg Hh Ng Nh P) as (E & Og & Oh). split; [exact E|]. cbv zeta. left. auto.
Qed.

Theorem pillar_orderly x0 : within_columns S x0 ks -> orderly ks.
Proof using Sz.
  intros [St Far] f g h Hf Hg Hh Ng Nh _ _ _ P.
  apply in_flat_map in Hf as (k & Hk & Hf). apply in_flat_map in Hg as (kg & Hkg & Hg). apply in_flat_map in Hh as (kh & Hkh & Hh).
  destruct (finder_place k f Hf) as (i & j & F1 & F2 & F3 & F4 & F5). destruct (finder_place kg g Hg) as (ig & jg & G1 & G2 & G3 & G4 & G5). destruct (finder_place kh h Hh) as (ih & jh & H1 & H2 & H3 & H4 & H5).
  destruct (reach_range k (Sz k Hk)) as [Rk Ek]. destruct (reach_range kg (Sz kg Hkg)) as [Rg Eg]. destruct (reach_range kh (Sz kh Hkh)) as [Rh Eh].
  pose proof (St k Hk) as Sk. pose proof (St kg Hkg) as Sg. pose proof (St kh Hkh) as Sh.
  pose proof (proj2 (Sz k Hk)) as Mk. pose proof (proj2 (Sz kg Hkg)) as Mg. pose proof (proj2 (Sz kh Hkh)) as Mh.
  assert (P' := P). unfold may_pair, gap_x, gap_y in P'. rewrite F1, F2, F3, G1, G2, G3, H1, H2, H3 in P'. destruct P' as (P1 & P2 & P3).
  assert (kg = k).
  { destruct (ForallOrdPairs_In Far k kg Hk Hkg) as [E|[E|E]]; [symmetry; exact E| |]; exfalso; clear - E P1 F4 F5 G4 G5 Rk Ek Rg Eg Sk Sg Mk Mg; lia. }
  subst kg.
  assert (kh = k).
  { destruct (ForallOrdPairs_In Far k kh Hk Hkh) as [E|[E|E]]; [symmetry; exact E| |]; exfalso; clear - E P3 F4 F5 G4 G5 H4 H5 Rk Ek Rh Eh Sk Sh Mk Mh; lia. }
  subst kh. exists k. split; [exact Hk|]. destruct (own_only k f g h (Sz k Hk) Hf Hg Hh Ng Nh P) as (E & Og & Oh). split; [exact E|]. cbv zeta. left. auto.
Qed.
End Strip.

(** The generic error-correction code of ModelRS.v commutes with homomorphisms of its field. *)
From Verif Require Import Base Lib VersionDb ModelGF ModelRS.

Section Transport.
  Context {T U : Type} (G : GaloisField T) (H : GaloisField U) (h : T -> U).
  Hypothesis h_zero : gf_zero H = h (gf_zero G).
  Hypothesis h_one : gf_one H = h (gf_one G).
  Hypothesis h_gen : gf_gen H = h (gf_gen G).
  Hypothesis h_add : forall a b, gf_add H (h a) (h b) = h (gf_add G a b).
  Hypothesis h_mul : forall a b, gf_mul H (h a) (h b) = h (gf_mul G a b).
  Hypothesis h_div : forall a b, gf_div H (h a) (h b) = option_map h (gf_div G a b).
  Hypothesis h_eqb : forall a b, gf_eqb H (h a) (h b) = gf_eqb G a b.

  Lemma h_pow_pos x p : gf_pow_pos H (h x) p = h (gf_pow_pos G x p).
  Proof.
    induction p as [p IH|p IH|]; cbn; [rewrite IH, h_mul, h_mul|rewrite IH, h_mul|]; reflexivity.
  Qed.

  Lemma h_pow x n : gf_pow H (h x) n = h (gf_pow G x n).
  Proof. unfold gf_pow. destruct (N.of_nat n); [exact h_one|apply h_pow_pos]. Qed.

  Lemma h_gpow n : gf_pow H (gf_gen H) n = h (gf_pow G (gf_gen G) n).
  Proof. rewrite h_gen. apply h_pow. Qed.

  Lemma h_gdiv {E} a b : @gdiv E U H (h a) (h b) = res_map h (gdiv G a b).
  Proof. unfold gdiv. rewrite h_div. destruct (gf_div G a b); reflexivity. Qed.

  Lemma h_zeros : zeros64 H = map h (zeros64 G).
  Proof. unfold zeros64. rewrite h_zero. reflexivity. Qed.

  Ltac bnd := rewrite bind_res_map, res_map_bind; apply bind_ext; intros ? _.

  Lemma h_poly_add {E} dst src c shift :
    @poly_add E U H (map h dst) (map h src) (h c) shift
    = res_map (map h) (poly_add G dst src c shift).
  Proof.
    unfold poly_add. rewrite h_zero, h_eqb. destruct (gf_eqb G c _); [reflexivity|].
    apply for_each_transport. intros i d _. cbn zeta.
    destruct (64 <=? _)%nat; [reflexivity|].
    rewrite !aget_map. bnd. bnd.
    rewrite h_mul, h_add, aset_map. reflexivity.
  Qed.

  Lemma h_poly_eval {E} s x :
    @poly_eval E U H (map h s) (h x) = res_map h (poly_eval G s x).
  Proof.
    unfold poly_eval. rewrite h_zero, h_one.
    pose (f := fun p : T * T => (h (fst p), h (snd p))).
    change (h (gf_zero G), h (gf_one G)) with (f (gf_zero G, gf_one G)).
    rewrite (for_each_transport f _
      (fun i '(sum, x_pow) => let* si := aget s i in
         Ok (gf_add G sum (gf_mul G si x_pow), gf_mul G x_pow x))).
    - bnd. reflexivity.
    - intros i [sum xp] _. unfold f; cbn [fst snd]. rewrite aget_map. bnd.
      rewrite !h_mul, h_add. reflexivity.
  Qed.

  Lemma h_eloc_poly {E} s sigma npar :
    @eloc_poly E U H (map h s) (map h sigma) npar = res_map (map h) (eloc_poly G s sigma npar).
  Proof.
    unfold eloc_poly. rewrite h_zeros. apply for_each_transport. intros i om _.
    rewrite aget_map. bnd. apply for_each_transport. intros j om' _.
    rewrite !aget_map. bnd. bnd. rewrite h_mul, h_add, aset_map. reflexivity.
  Qed.

  Lemma h_block_syndromes {E} block npar :
    @block_syndromes E U H (map h block) npar
    = res_map (fun p => (fst p, map h (snd p))) (block_syndromes G block npar).
  Proof.
    unfold block_syndromes. rewrite h_zeros.
    pose (f := fun p : bool * list T => (fst p, map h (snd p))).
    change (false, map h (zeros64 G)) with (f (false, zeros64 G)).
    apply (for_each_transport f). intros i [nz s] _. unfold f; cbn [fst snd].
    rewrite map_length.
    rewrite (for_each_transport (map h) _
      (fun j s => let* k := nsub (length block - 1) j in
                  let* c := aget block k in let* si := aget s i in
                  aset s i (gf_add G si (gf_mul G c (gf_pow G (gf_gen G) (i * j)))))).
    - bnd. rewrite aget_map. bnd. rewrite h_zero, h_eqb. reflexivity.
    - intros j s' _. rewrite res_map_bind. apply bind_ext; intros k _.
      rewrite !aget_map. bnd. bnd. rewrite h_gpow, h_mul, h_add, aset_map. reflexivity.
  Qed.

  Lemma h_sigma_derivative {E} sigma :
    @sigma_derivative E U H (map h sigma) = res_map (map h) (sigma_derivative G sigma).
  Proof.
    unfold sigma_derivative. rewrite h_zeros. apply for_each_transport. intros i sd _.
    rewrite aget_map. bnd. rewrite res_map_bind. apply bind_ext; intros k _.
    apply aset_map.
  Qed.

  Definition h_bm (st : bm_state T) : bm_state U :=
    mkBM (map h (bm_cs st)) (map h (bm_bs st)) (bm_l st) (bm_m st) (h (bm_b st)).

  Lemma h_bm_discrepancy {E} s cs l n :
    @bm_discrepancy E U H (map h s) (map h cs) l n = res_map h (bm_discrepancy G s cs l n).
  Proof.
    unfold bm_discrepancy. rewrite aget_map. bnd.
    apply for_each_transport. intros i d _. rewrite aget_map. bnd.
    rewrite res_map_bind. apply bind_ext; intros k _. rewrite aget_map. bnd.
    rewrite h_mul, h_add. reflexivity.
  Qed.

  Lemma h_bm_step {E} s n st :
    @bm_step E U H (map h s) n (h_bm st) = res_map h_bm (bm_step G s n st).
  Proof.
    destruct st as [cs bs l m b]. unfold bm_step, h_bm; cbn [bm_cs bm_bs bm_l bm_m bm_b].
    rewrite h_bm_discrepancy. bnd. rewrite h_gdiv. bnd.
    rewrite h_zero, h_eqb. destruct (gf_eqb G a _); [reflexivity|].
    destruct (_ <=? _)%nat; cbn zeta; rewrite h_poly_add; bnd; [|reflexivity].
    rewrite res_map_bind. apply bind_ext; intros k _. reflexivity.
  Qed.

  Lemma h_berlekamp_massey {E} s n :
    @berlekamp_massey E U H (map h s) n = res_map (map h) (berlekamp_massey G s n).
  Proof.
    unfold berlekamp_massey. cbn zeta.
    replace (mkBM (upd (zeros64 H) 0 (gf_one H)) (upd (zeros64 H) 0 (gf_one H)) 0 1 (gf_one H))
      with (h_bm (mkBM (upd (zeros64 G) 0 (gf_one G)) (upd (zeros64 G) 0 (gf_one G)) 0 1 (gf_one G))).
    2:{ unfold h_bm; cbn [bm_cs bm_bs bm_l bm_m bm_b]. rewrite h_zeros, h_one, upd_map. reflexivity. }
    rewrite (for_each_transport h_bm _ (bm_step G s)).
    - bnd. reflexivity.
    - intros i st _. apply h_bm_step.
  Qed.

  Lemma h_repair_loop bs sigma sd omega block :
    repair_loop H bs (map h sigma) (map h sd) (map h omega) (map h block)
    = res_map (map h) (repair_loop G bs sigma sd omega block).
  Proof.
    unfold repair_loop. apply for_each_transport. intros i b _.
    rewrite res_map_bind. apply bind_ext; intros e _. cbn zeta.
    rewrite h_gpow, h_poly_eval. bnd. rewrite h_zero, h_eqb.
    destruct (gf_eqb G a _); [|reflexivity].
    rewrite h_poly_eval. bnd. rewrite h_poly_eval. bnd. rewrite h_eqb.
    destruct (gf_eqb G a0 _); [reflexivity|].
    rewrite h_gdiv. bnd.
    rewrite res_map_bind; apply bind_ext; intros k1 _.
    rewrite res_map_bind; apply bind_ext; intros k2 _.
    rewrite aget_map. bnd. rewrite h_add, aset_map. reflexivity.
  Qed.

  Lemma firstn_map' n (l : list T) : firstn n (map h l) = map h (firstn n l).
  Proof. apply firstn_map. Qed.

  Theorem h_correct_block block ecc :
    correct_block H (map h block) ecc = res_map (map h) (correct_block G block ecc).
  Proof.
    unfold correct_block. rewrite res_map_bind. apply bind_ext; intros _ _. cbn zeta.
    rewrite map_length, res_map_bind. apply bind_ext; intros _ _.
    rewrite firstn_map', h_block_syndromes. bnd. destruct a as [nz s]; cbn [fst snd].
    destruct (negb nz); [reflexivity|].
    rewrite h_berlekamp_massey. bnd. rewrite h_sigma_derivative. bnd.
    rewrite h_eloc_poly. bnd. rewrite h_repair_loop. bnd.
    rewrite firstn_map', h_block_syndromes. bnd. destruct a3 as [nz2 s2]; cbn [fst snd].
    destruct (negb nz2); reflexivity.
  Qed.
End Transport.

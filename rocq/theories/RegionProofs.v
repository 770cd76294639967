(** The state of an image under search: colours and the region cache (C30, C31). *)
From Verif Require Import Base Lib ModelImage SpecImage FloodProofs.
From Coq Require Import ZifyBool ZifyNat ZifyN.
Ltac Zify.zify_post_hook ::= Z.div_mod_to_equations.

Definition iblob (im : image) (p : pixel) : pixel -> Prop := blob (im_w im) (im_h im) (pix im) p.

(** * One colour per blob *)

Record base_inv (I0 im : image) : Prop := {
  bi_wf : wf_image im;
  bi_size : same_size I0 im;
  bi_white : forall q, in_image I0 q -> (pix im q = 0 <-> pix I0 q = 0);
  bi_mono : forall a b, in_image I0 a -> in_image I0 b -> adjacent a b ->
    pix im a <> 0 -> pix im b <> 0 -> pix im a = pix im b
}.

Lemma blob_in I0 p q : iblob I0 p q -> in_image I0 q /\ pix I0 q <> 0.
Proof. intros H. exact (linked_S _ _ _ H). Qed.

Lemma blob_here I0 p : in_image I0 p -> pix I0 p <> 0 -> iblob I0 p p.
Proof. intros H1 H2. constructor. split; assumption. Qed.

Lemma blob_sym I0 p q : iblob I0 p q -> iblob I0 q p.
Proof. apply linked_sym. Qed.

Lemma blob_trans I0 p q r : iblob I0 p q -> iblob I0 q r -> iblob I0 p r.
Proof. apply linked_trans. Qed.

Lemma blob_color I0 im p q : base_inv I0 im -> iblob I0 p q -> pix im q = pix im p.
Proof.
  intros B L. induction L as [H|q r L IH Ha Hr]; [reflexivity|].
  rewrite <- IH. destruct (linked_S _ _ _ L) as [Iq Nq]. destruct Hr as [Ir Nr].
  symmetry. apply (bi_mono _ _ B); try assumption.
  - rewrite (bi_white _ _ B) by assumption. assumption.
  - rewrite (bi_white _ _ B) by assumption. assumption.
Qed.

(** The pixels of equal colour linked to a non-white pixel are its blob. *)
Lemma same_color_blob I0 im p : base_inv I0 im -> in_image I0 p -> pix im p <> 0 -> forall q,
  linked (fun q => in_image im q /\ pix im q = pix im p) p q <-> iblob I0 p q.
Proof.
  intros B Ip Np q. split; intros H.
  - refine (linked_ext _ _ p q _ H). intros r [Ir Er].
    assert (Ir0 : in_image I0 r) by (apply (same_size_in _ _ _ (bi_size _ _ B)); assumption).
    split; [assumption|]. intros E. apply (bi_white _ _ B r Ir0) in E. congruence.
  - induction H as [H|q r L IH Ha Hr].
    + constructor. split; [|reflexivity]. apply (same_size_in _ _ _ (bi_size _ _ B)). assumption.
    + eapply linked_step; [exact IH|assumption|]. split.
      * apply (same_size_in _ _ _ (bi_size _ _ B)). apply Hr.
      * apply (blob_color I0 im p r B). eapply linked_step; eassumption.
Qed.

Definition painted (I0 im im' : image) (p : pixel) (to : Z) : Prop :=
  forall q, in_image I0 q ->
    (iblob I0 p q -> pix im' q = to) /\ (~ iblob I0 p q -> pix im' q = pix im q).

Lemma pixel_eq_dec (a b : pixel) : {a = b} + {a <> b}.
Proof. destruct a as [a1 a2], b as [b1 b2]. destruct (Z.eq_dec a1 b1), (Z.eq_dec a2 b2); [left; congruence|right; congruence..]. Qed.

(** Flood fill from a non-white pixel: the whole blob changes its colour. *)
Lemma flood_blob I0 im x y to : base_inv I0 im -> in_image I0 (x, y) -> pix im (x, y) <> 0 ->
  pix im (x, y) <> to ->
  exists im' rows, wf_image im' /\ same_size I0 im' /\ painted I0 im im' (x, y) to
    /\ NoDup (rows_cells rows) /\ (forall q, In q (rows_cells rows) <-> iblob I0 (x, y) q)
    /\ Forall (fun r => r_left r <= r_right r) rows
    /\ forall F (update : row -> F -> out F) f,
         flood_fill im x y (pix im (x, y)) to update f = let* f' := for_each rows update f in Ok (im', f').
Proof.
  intros B I N Ht.
  assert (I' : in_image im (x, y)) by (apply (same_size_in _ _ _ (bi_size _ _ B)); assumption).
  destruct (flood_fill_ok im x y (pix im (x, y)) to (bi_wf _ _ B) I' Ht)
    as (im' & rows & W' & S' & Q & R1 & R2 & R3 & E).
  pose proof (same_color_blob I0 im (x, y) B I N) as SC.
  exists im', rows. split; [assumption|].
  split. { destruct (bi_size _ _ B), S'. split; congruence. }
  split; [|split; [assumption|split; [|split; assumption]]].
  - intros q Iq. assert (Iq' : in_image im q) by (apply (same_size_in _ _ _ (bi_size _ _ B)); assumption).
    destruct (Q q Iq') as [Q1 Q2]. split; intros H.
    + apply Q1. apply SC. assumption.
    + apply Q2. intros X. apply H. apply SC. assumption.
  - intros q. rewrite R2. apply SC.
Qed.

Lemma painted_inv I0 im im' p to : base_inv I0 im -> in_image I0 p -> pix im p <> 0 -> to <> 0 ->
  wf_image im' -> same_size I0 im' -> painted I0 im im' p to ->
  (forall q, iblob I0 p q \/ ~ iblob I0 p q) -> base_inv I0 im'.
Proof.
  intros B Ip Np Ht W S P Dec. split; try assumption.
  - intros q Iq. destruct (P q Iq) as [P1 P2]. destruct (Dec q) as [D|D].
    + rewrite (P1 D). split; [contradiction|]. intros E. apply blob_in in D. tauto.
    + rewrite (P2 D). apply (bi_white _ _ B). assumption.
  - intros a b Ia Ib Hab Na Nb. destruct (P a Ia) as [A1 A2], (P b Ib) as [B1 B2].
    assert (Wt : forall q, in_image I0 q -> pix im' q <> 0 -> pix I0 q <> 0).
    { intros q Iq Nq E. apply (bi_white _ _ B q Iq) in E. destruct (P q Iq) as [P1 P2]. destruct (Dec q) as [D|D].
      - apply blob_in in D. apply D. apply (bi_white _ _ B q Iq). assumption.
      - rewrite (P2 D) in Nq. contradiction. }
    assert (Sab : forall a b, in_image I0 b -> pix im' b <> 0 -> adjacent a b -> iblob I0 p a -> iblob I0 p b).
    { intros a' b' Ib' Nb' Hab' Ha. eapply linked_step; [exact Ha|exact Hab'|]. split; [assumption|]. apply Wt; assumption. }
    destruct (Dec a) as [Da|Da].
    + rewrite A1, B1; [reflexivity| |assumption]. exact (Sab a b Ib Nb Hab Da).
    + destruct (Dec b) as [Db|Db].
      * exfalso. apply Da. exact (Sab b a Ia Na (adjacent_sym _ _ Hab) Db).
      * rewrite (A2 Da) in Na |- *. rewrite (B2 Db) in Nb |- *. apply (bi_mono _ _ B); assumption.
Qed.

Lemma in_cells_dec (rows : list row) (q : pixel) : In q (rows_cells rows) \/ ~ In q (rows_cells rows).
Proof. destruct (in_dec pixel_eq_dec q (rows_cells rows)); auto. Qed.

(** * The cache *)

Definition keys (c : cache) : list Z := map fst c.

Record reg_inv (I0 : image) (p : prepared) : Prop := {
  ri_base : base_inv I0 (p_buf p);
  ri_fits : im_w I0 * im_h I0 <= usize_max;
  ri_nodup : NoDup (keys (p_cache p));
  ri_len : Z.of_nat (length (p_cache p)) <= cache_cap;
  ri_keys : forall k, In k (keys (p_cache p)) <-> 0 <= k < Z.of_nat (length (p_cache p));
  ri_entry : forall k reg, In (k, reg) (p_cache p) ->
    exists x y n, reg = Unclaimed (Discarded k) x y n /\ in_image I0 (x, y) /\ pix I0 (x, y) <> 0
      /\ area (iblob I0 (x, y)) n
      /\ forall q, in_image I0 q -> pix (p_buf p) q = k + 5 -> iblob I0 (x, y) q;
  ri_color : forall q, in_image I0 q ->
    0 <= pix (p_buf p) q <= 4 \/ In (pix (p_buf p) q - 5) (keys (p_cache p))
}.

Lemma keys_remove c k : keys (cache_remove c k) = filter (fun a => negb (a =? k)) (keys c).
Proof. unfold keys, cache_remove. induction c as [|[a r] c IH]; cbn; [reflexivity|]. destruct (a =? k); cbn; [assumption|]. f_equal. assumption. Qed.

Lemma cache_find_some c k r : cache_find c k = Some r -> In (k, r) c.
Proof.
  induction c as [|[a s] c IH]; cbn; [discriminate|]. destruct (a =? k) eqn:E.
  - intros [= ->]. left. f_equal. lia.
  - intros H. right. auto.
Qed.

Lemma cache_find_none c k : cache_find c k = None <-> ~ In k (keys c).
Proof.
  induction c as [|[a s] c IH]; cbn; [tauto|]. destruct (a =? k) eqn:E.
  - split; [discriminate|]. intros H. exfalso. apply H. left. lia.
  - rewrite IH. split; intros H; [intros [X|X]; [lia|tauto]|tauto].
Qed.

Lemma cache_find_in c k : In k (keys c) -> exists r, cache_find c k = Some r.
Proof.
  intros H. destruct (cache_find c k) as [r|] eqn:E; [eauto|]. apply cache_find_none in E. contradiction.
Qed.

Lemma in_cache_remove c k e : In e (cache_remove c k) <-> In e c /\ fst e <> k.
Proof. unfold cache_remove. rewrite filter_In. split; intros [H1 H2]; split; try assumption; lia. Qed.

(** The cache after a hit has the same entries. *)
Lemma cache_touch c k r : NoDup (keys c) -> cache_find c k = Some r ->
  let c' := (k, r) :: cache_remove c k in
  NoDup (keys c') /\ length c' = length c /\ (forall e, In e c' <-> In e c).
Proof.
  intros N F c'. pose proof (cache_find_some _ _ _ F) as Hin.
  assert (E : forall e, In e c' <-> In e c).
  { intros e. unfold c'. cbn. rewrite in_cache_remove. split.
    - intros [<-|[H _]]; assumption.
    - intros H. destruct e as [a s]. cbn. destruct (Z.eq_dec a k) as [->|Ha]; [|right; split; assumption].
      left. f_equal. clear c' F. revert N Hin H. unfold keys. induction c as [|[b t] c IH]; cbn; [contradiction|].
      intros N [X|X] [Y|Y].
      + congruence.
      + injection X as -> ->. inversion N as [|? ? N1 N2]. exfalso. apply N1. apply (in_map fst) in Y. exact Y.
      + injection Y as -> ->. inversion N as [|? ? N1 N2]. exfalso. apply N1. apply (in_map fst) in X. exact X.
      + inversion N. apply IH; assumption. }
  assert (N' : NoDup (keys c')).
  { unfold c'. cbn. constructor.
    - intros H. apply in_map_iff in H. destruct H as ((a & s) & H1 & H2). apply in_cache_remove in H2. cbn in *. tauto.
    - rewrite keys_remove. apply NoDup_filter. assumption. }
  split; [assumption|]. split; [|assumption].
  assert (NC : forall c : cache, NoDup (keys c) -> NoDup c) by (intros; eapply NoDup_map_inv; eassumption).
  apply Nat.le_antisymm; apply NoDup_incl_length; auto; intros e He; apply E; assumption.
Qed.

Lemma cache_pop_inv c e c' : cache_pop c = Some (e, c') -> c = c' ++ [e].
Proof.
  unfold cache_pop. destruct (rev c) as [|a t] eqn:E; [discriminate|]. intros [= <- <-].
  rewrite <- (rev_involutive c), E. reflexivity.
Qed.

Lemma cache_pop_some c : c <> [] -> exists e c', cache_pop c = Some (e, c').
Proof.
  intros H. unfold cache_pop. destruct (rev c) as [|a t] eqn:E; [|eauto].
  exfalso. apply H. rewrite <- (rev_involutive c), E. reflexivity.
Qed.

Lemma cache_put_new c k r : ~ In k (keys c) -> Z.of_nat (length c) < cache_cap -> cache_put c k r = (k, r) :: c.
Proof.
  intros H L. unfold cache_put. apply cache_find_none in H. rewrite H.
  replace (Z.of_nat (length c) =? cache_cap) with false by lia. reflexivity.
Qed.

Lemma clone_cache c : NoDup (keys c) -> Z.of_nat (length c) <= cache_cap ->
  fold_left (fun c e => cache_put c (fst e) (snd e)) c [] = rev c.
Proof.
  intros N L.
  assert (G : forall c acc, NoDup (keys (rev acc ++ c)) -> Z.of_nat (length acc + length c) <= cache_cap ->
            fold_left (fun c e => cache_put c (fst e) (snd e)) c acc = rev c ++ acc).
  { clear. induction c as [|[k r] c IH]; intros acc N L; [reflexivity|]. cbn [fold_left fst snd rev].
    cbn [length] in L. rewrite cache_put_new; [| |lia].
    - rewrite IH; [rewrite <- app_assoc; reflexivity| |cbn [length]; lia].
      cbn [rev]. rewrite <- app_assoc. exact N.
    - intros H. unfold keys in N. rewrite map_app in N. cbn in N. apply NoDup_remove_2 in N. apply N.
      apply in_or_app. left. rewrite map_rev. apply -> in_rev. exact H. }
  rewrite G; [apply app_nil_r|exact N|exact L].
Qed.

(** * Repainting *)

Lemma cells_dec_blob I0 p rows : (forall q, In q (rows_cells rows) <-> iblob I0 p q) ->
  forall q, iblob I0 p q \/ ~ iblob I0 p q.
Proof. intros H q. destruct (in_cells_dec rows q) as [X|X]; rewrite H in X; auto. Qed.

(** [repaint_and_apply] on a non-white pixel, in terms of the colour bytes. *)
Lemma repaint_base I0 p x y c tb : base_inv I0 (p_buf p) -> in_image I0 (x, y) ->
  color_byte c = Ok tb -> tb <> 0 -> pix (p_buf p) (x, y) <> 0 -> pix (p_buf p) (x, y) <> tb ->
  exists im' rows, base_inv I0 im' /\ painted I0 (p_buf p) im' (x, y) tb
    /\ NoDup (rows_cells rows) /\ (forall q, In q (rows_cells rows) <-> iblob I0 (x, y) q)
    /\ Forall (fun r => r_left r <= r_right r) rows
    /\ forall F (update : row -> F -> out F) f,
         repaint_and_apply p x y c update f
         = let* f' := for_each rows update f in Ok (MkPrepared im' (p_cache p), f').
Proof.
  intros B I Hc Ht N Hs.
  destruct (flood_blob I0 (p_buf p) x y tb B I N Hs) as (im' & rows & W & S & P & R1 & R2 & R3 & E).
  exists im', rows. split. { exact (painted_inv I0 _ _ _ _ B I N Ht W S P (cells_dec_blob _ _ _ R2)). }
  split; [assumption|]. split; [assumption|]. split; [assumption|]. split; [assumption|].
  intros F update f. unfold repaint_and_apply.
  rewrite get_pixel_ok; [|apply B|apply (same_size_in _ _ _ (bi_size _ _ B)); assumption].
  cbn [bind]. rewrite Hc. cbn [bind].
  replace ((0 =? pix (p_buf p) (x, y)) || (tb =? pix (p_buf p) (x, y))) with false by lia.
  rewrite E, bind_assoc. apply bind_ext. intros f' _. reflexivity.
Qed.

(** Painting with one of the reserved colours keeps the invariant. *)
Lemma repaint_inv I0 p x y c tb : reg_inv I0 p -> in_image I0 (x, y) ->
  color_byte c = Ok tb -> 1 <= tb <= 4 -> pix (p_buf p) (x, y) <> 0 -> pix (p_buf p) (x, y) <> tb ->
  exists p' rows, reg_inv I0 p' /\ painted I0 (p_buf p) (p_buf p') (x, y) tb
    /\ NoDup (rows_cells rows) /\ (forall q, In q (rows_cells rows) <-> iblob I0 (x, y) q)
    /\ Forall (fun r => r_left r <= r_right r) rows
    /\ forall F (update : row -> F -> out F) f,
         repaint_and_apply p x y c update f = let* f' := for_each rows update f in Ok (p', f').
Proof.
  intros R I Hc Ht N Hs.
  destruct (repaint_base I0 p x y c tb (ri_base _ _ R) I Hc ltac:(lia) N Hs) as (im' & rows & B & P & R1 & R2 & R3 & E).
  exists (MkPrepared im' (p_cache p)), rows. split; [|split; [assumption|split; [assumption|split; [assumption|split; assumption]]]].
  pose proof (cells_dec_blob _ _ _ R2) as Dec.
  destruct R as [X1 X2 X3 X4 X5 X6 X7]. split; cbn; try assumption.
  - intros k reg H. destruct (X6 k reg H) as (a & b & n & H1 & H2 & H3 & H4 & H5).
    exists a, b, n. split; [assumption|]. split; [assumption|]. split; [assumption|]. split; [assumption|].
    intros q Iq Eq. destruct (P q Iq) as [P1 P2]. destruct (Dec q) as [D|D].
    + rewrite (P1 D) in Eq. assert (0 <= k) by (apply X5; apply (in_map fst) in H; exact H). lia.
    + rewrite (P2 D) in Eq. apply H5; assumption.
  - intros q Iq. destruct (P q Iq) as [P1 P2]. destruct (Dec q) as [D|D].
    + rewrite (P1 D). lia.
    + rewrite (P2 D). apply X7. assumption.
Qed.

(** Repainting with white's or the pixel's own colour panics. *)
Lemma repaint_panics p x y c tb F (update : row -> F -> out F) f :
  wf_image (p_buf p) -> in_image (p_buf p) (x, y) -> color_byte c = Ok tb ->
  pix (p_buf p) (x, y) = 0 \/ pix (p_buf p) (x, y) = tb -> repaint_and_apply p x y c update f = Panic.
Proof.
  intros W I Hc H. unfold repaint_and_apply. rewrite get_pixel_ok by assumption. cbn [bind]. rewrite Hc. cbn [bind].
  replace ((0 =? pix (p_buf p) (x, y)) || (tb =? pix (p_buf p) (x, y))) with true by lia. reflexivity.
Qed.

(** * Counting *)

Lemma length_segment l r y : l <= r -> Z.of_nat (length (segment l r y)) = r - l + 1.
Proof. intros H. unfold segment. rewrite map_length, seq_length. lia. Qed.

Lemma count_rows rows : forall n, Forall (fun r => r_left r <= r_right r) rows ->
  0 <= n -> n + Z.of_nat (length (rows_cells rows)) <= usize_max ->
  for_each rows count_row n = Ok (n + Z.of_nat (length (rows_cells rows))).
Proof.
  induction rows as [|r rows IH]; intros n F Hn H; cbn [for_each].
  - cbn. f_equal. lia.
  - inversion F as [|? ? F1 F2]; subst. unfold rows_cells in *. cbn [flat_map] in *. rewrite app_length in *.
    unfold row_cells in *. pose proof (length_segment (r_left r) (r_right r) (r_y r) F1) as L.
    unfold count_row at 1, usub, usz.
    replace (r_left r <=? r_right r) with true by lia. cbn [bind].
    replace (n + (r_right r - r_left r + 1) <=? usize_max) with true by lia. cbn [bind].
    rewrite IH; [f_equal; lia|assumption|lia|lia].
Qed.

Lemma pixels_bound w h (l : list pixel) : NoDup l -> (forall q, In q l -> inside w h q) ->
  0 <= w -> 0 <= h -> Z.of_nat (length l) <= w * h.
Proof.
  intros N H Hw Hh.
  assert (L : (length l <= length (list_prod (zrange 0 w) (zrange 0 h)))%nat).
  { apply NoDup_incl_length; [assumption|]. intros [x y] Hq. destruct (H _ Hq) as [A B]. cbn in A, B.
    apply in_prod; apply in_zrange; lia. }
  rewrite prod_length, !length_zrange in L. nia.
Qed.

Lemma count_blob I0 p rows : 0 <= im_w I0 -> 0 <= im_h I0 -> im_w I0 * im_h I0 <= usize_max ->
  NoDup (rows_cells rows) -> (forall q, In q (rows_cells rows) <-> iblob I0 p q) ->
  Forall (fun r => r_left r <= r_right r) rows ->
  exists n, for_each rows count_row 0 = Ok n /\ area (iblob I0 p) n.
Proof.
  intros Hw Hh Hf N H F. exists (Z.of_nat (length (rows_cells rows))). split.
  - rewrite count_rows; [reflexivity|assumption|lia|].
    pose proof (pixels_bound (im_w I0) (im_h I0) (rows_cells rows) N) as B. cbn in B.
    enough (Z.of_nat (length (rows_cells rows)) <= im_w I0 * im_h I0) by lia.
    apply B; try assumption. intros q Hq. apply H in Hq. apply blob_in in Hq. apply Hq.
  - exists (rows_cells rows). split; [assumption|]. split; [assumption|reflexivity].
Qed.

(** * Region queries *)

Lemma snoc_keys (c : cache) k r : keys (c ++ [(k, r)]) = keys c ++ [k].
Proof. unfold keys. rewrite map_app. reflexivity. Qed.

(** A free index is found; at capacity the evicted region becomes black again. *)
Lemma region_index_ok I0 p : reg_inv I0 p ->
  exists k p1, region_index p = Ok (k, p1) /\ base_inv I0 (p_buf p1)
    /\ 0 <= k < cache_cap
    /\ NoDup (k :: keys (p_cache p1))
    /\ Z.of_nat (length (p_cache p1)) < cache_cap
    /\ (forall a, In a (k :: keys (p_cache p1)) <-> 0 <= a < Z.of_nat (length (p_cache p1)) + 1)
    /\ (forall e, In e (p_cache p1) -> In e (p_cache p))
    /\ (forall q, in_image I0 q -> pix (p_buf p) q = k + 5 -> pix (p_buf p1) q = 1)
    /\ (forall q, in_image I0 q -> pix (p_buf p) q <> k + 5 -> pix (p_buf p1) q = pix (p_buf p) q)
    /\ (forall a, In a (keys (p_cache p)) -> a <> k -> In a (keys (p_cache p1)))
    /\ (forall a r c, p_cache p = (a, r) :: c -> a <> k).
Proof.
  intros R. pose proof R as [B X2 X3 X4 X5 X6 X7]. unfold region_index.
  destruct (Z.of_nat (length (p_cache p)) =? cache_cap) eqn:E.
  - destruct (cache_pop_some (p_cache p)) as ((k & reg) & c' & Hp).
    { intros H. rewrite H in E. discriminate E. }
    rewrite Hp. apply cache_pop_inv in Hp.
    assert (Hin : In (k, reg) (p_cache p)) by (rewrite Hp; apply in_or_app; right; left; reflexivity).
    destruct (X6 k reg Hin) as (sx & sy & n & -> & Is & Ns & _ & Hk).
    assert (Kin : In k (keys (p_cache p))) by (apply (in_map fst) in Hin; exact Hin).
    assert (Hk2 : 0 <= k < cache_cap). { apply X5 in Kin. unfold cache_cap in *. lia. }
    cbn [color_byte]. unfold cache_cap in Hk2. replace (k + 5 <=? 255) with true by lia. cbn [bind].
    (* the state after the eviction *)
    assert (F : exists im1, flood_fill (p_buf p) sx sy (k + 5) 1 (fun _ u => Ok u) tt = Ok (im1, tt)
              /\ base_inv I0 im1
              /\ (forall q, in_image I0 q -> pix (p_buf p) q = k + 5 -> pix im1 q = 1)
              /\ (forall q, in_image I0 q -> pix (p_buf p) q <> k + 5 -> pix im1 q = pix (p_buf p) q)).
    { assert (U : forall rows : list row, @for_each Empty_set _ _ rows (fun _ u => Ok u) tt = Ok tt)
        by (induction rows as [|a rows IH]; [reflexivity|exact IH]).
      destruct (Z.eq_dec (pix (p_buf p) (sx, sy)) (k + 5)) as [Es|Es].
      - destruct (flood_blob I0 (p_buf p) sx sy 1 B Is ltac:(lia) ltac:(lia)) as (im1 & rows & W & S & P & R1 & R2 & R3 & Ef).
        pose proof (cells_dec_blob _ _ _ R2) as Dec.
        exists im1. split. { rewrite <- Es. rewrite Ef, U. reflexivity. }
        split. { exact (painted_inv I0 _ _ _ 1 B Is ltac:(lia) ltac:(lia) W S P Dec). }
        split; intros q Iq Eq; destruct (P q Iq) as [P1 P2].
        + apply P1. apply Hk; assumption.
        + apply P2. intros D. apply Eq. rewrite (blob_color I0 _ _ _ B D). assumption.
      - exists (p_buf p).
        assert (Is' : in_image (p_buf p) (sx, sy)) by (apply (same_size_in _ _ _ (bi_size _ _ B)); assumption).
        split.
        { unfold flood_fill. replace (k + 5 =? 1) with false by lia. cbn [negb assert_ bind].
          unfold flood_fuel. cbn [flood_loop]. rewrite get_pixel_ok; [|apply B|assumption]. cbn [bind].
          replace ((pix (p_buf p) (sx, sy) =? 1) || negb (pix (p_buf p) (sx, sy) =? k + 5)) with true by lia.
          destruct (3 * length (im_px (p_buf p)))%nat; reflexivity. }
        split; [assumption|]. split; [|reflexivity]. intros q Iq Eq. exfalso. apply Es.
        rewrite <- Eq. symmetry. apply (blob_color I0 _ _ _ B). apply Hk; assumption. }
    destruct F as (im1 & Ef & B1 & F1 & F2). unfold out. rewrite Ef. cbn [bind fst].
    exists k, (MkPrepared im1 c'). cbn [p_buf p_cache].
    assert (Kc : keys (p_cache p) = keys c' ++ [k]) by (rewrite Hp; apply snoc_keys).
    assert (Lc : length (p_cache p) = S (length c')) by (rewrite Hp, app_length; cbn; lia).
    assert (Nk : NoDup (k :: keys c')).
    { rewrite Kc in X3. apply NoDup_remove in X3. rewrite app_nil_r in X3. constructor; tauto. }
    split; [reflexivity|]. split; [assumption|]. split; [unfold cache_cap; lia|]. split; [assumption|].
    split; [unfold cache_cap in *; lia|].
    split. { intros a. specialize (X5 a). rewrite Kc, in_app_iff, Lc in X5. cbn in *. split; intros H.
      - assert (0 <= a < Z.of_nat (S (length c'))) by (apply X5; tauto). lia.
      - assert (In a (keys c') \/ k = a \/ False) by (apply X5; lia). tauto. }
    split. { intros e He. rewrite Hp. apply in_or_app. left; assumption. }
    split; [assumption|]. split; [assumption|].
    split. { intros a Ha Na. rewrite Kc in Ha. apply in_app_or in Ha. destruct Ha as [Ha|[Ha|[]]]; [assumption|congruence]. }
    intros a r c Hc. destruct c as [|e c]; [rewrite Hc in E; discriminate E|].
    destruct c' as [|[a' r'] c']; [rewrite Hc in Hp; discriminate Hp|].
    rewrite Hc in Hp. injection Hp as <- <- _. inversion Nk as [|? ? Nk1 Nk2]; subst. intros ->. apply Nk1. left. reflexivity.
  - exists (Z.of_nat (length (p_cache p)) mod 256), p. unfold cache_cap in *.
    rewrite Z.mod_small by lia. set (k := Z.of_nat (length (p_cache p))) in *.
    assert (Nk : ~ In k (keys (p_cache p))) by (rewrite X5; lia).
    split; [reflexivity|]. split; [assumption|]. split; [lia|]. split; [constructor; assumption|].
    split; [lia|]. split. { intros a. cbn. rewrite X5. lia. }
    split; [auto|]. split.
    { intros q Iq Eq. exfalso. destruct (X7 q Iq) as [H|H]; [lia|]. rewrite Eq in H. apply Nk.
      replace (k + 5 - 5) with k in H by lia. assumption. }
    split; [reflexivity|]. split; [auto|]. intros a r c Hc ->. apply Nk. rewrite Hc. left. reflexivity.
Qed.

(** What a query tells about the region, by the colour of the pixel before it. *)
Definition region_answer (I0 : image) (q : pixel) (b : Z) (reg : region) (p' : prepared) : Prop :=
  match b with
  | 2 => reg = RCapStone
  | 3 => reg = RAlignment
  | 4 => reg = RTmp1
  | _ => exists k sx sy n, reg = Unclaimed (Discarded k) sx sy n /\ 0 <= k < cache_cap
           /\ iblob I0 q (sx, sy) /\ area (iblob I0 q) n
           /\ forall r, in_image I0 r -> (pix (p_buf p') r = k + 5 <-> iblob I0 q r)
  end.

(** What a query leaves alone: the claimed regions, and white. *)
Definition claims_kept (I0 : image) (p p' : prepared) : Prop :=
  forall r, in_image I0 r -> (pix (p_buf p) r = 0 \/ 2 <= pix (p_buf p) r <= 4 \/ 2 <= pix (p_buf p') r <= 4) ->
    pix (p_buf p') r = pix (p_buf p) r.

(** The region asked for last keeps its colour. *)
Definition recent_kept (I0 : image) (p p' : prepared) : Prop :=
  forall a r c, p_cache p = (a, r) :: c -> forall q, in_image I0 q ->
    pix (p_buf p) q = a + 5 -> pix (p_buf p') q = a + 5.

Lemma blob_area_shift I0 p q n : iblob I0 p q -> area (iblob I0 p) n -> area (iblob I0 q) n.
Proof.
  intros L A. apply (area_ext (iblob I0 p)); [|assumption]. intros r. split; intros H.
  - eapply blob_trans; [apply blob_sym; exact L|exact H].
  - eapply blob_trans; [exact L|exact H].
Qed.

Lemma get_region_ok I0 p x y : reg_inv I0 p -> in_image I0 (x, y) -> pix (p_buf p) (x, y) <> 0 ->
  exists reg p', get_region p x y = Ok (reg, p') /\ reg_inv I0 p' /\ claims_kept I0 p p'
    /\ region_answer I0 (x, y) (pix (p_buf p) (x, y)) reg p'
    /\ recent_kept I0 p p'
    /\ (forall k sx sy n, reg = Unclaimed (Discarded k) sx sy n -> exists c, p_cache p' = (k, reg) :: c).
Proof.
  intros R I N. pose proof R as [B X2 X3 X4 X5 X6 X7].
  assert (N0 : pix I0 (x, y) <> 0) by (rewrite <- (bi_white _ _ B) by assumption; assumption).
  unfold get_region. rewrite get_pixel_ok; [|apply B|apply (same_size_in _ _ _ (bi_size _ _ B)); assumption].
  cbn [bind]. set (b := pix (p_buf p) (x, y)) in *.
  assert (CK : claims_kept I0 p p) by (intros r _ _; reflexivity).
  assert (RK : recent_kept I0 p p) by (intros a r c _ q _ H; exact H).
  destruct (Z.eq_dec b 2) as [->|N2]. { exists RCapStone, p. cbn. repeat (split; [assumption || reflexivity|]). discriminate. }
  destruct (Z.eq_dec b 3) as [->|N3]. { exists RAlignment, p. cbn. repeat (split; [assumption || reflexivity|]). discriminate. }
  destruct (Z.eq_dec b 4) as [->|N4]. { exists RTmp1, p. cbn. repeat (split; [assumption || reflexivity|]). discriminate. }
  assert (RA : forall reg p', (exists k sx sy n, reg = Unclaimed (Discarded k) sx sy n /\ 0 <= k < cache_cap
           /\ iblob I0 (x, y) (sx, sy) /\ area (iblob I0 (x, y)) n
           /\ forall r, in_image I0 r -> (pix (p_buf p') r = k + 5 <-> iblob I0 (x, y) r)) ->
           region_answer I0 (x, y) b reg p').
  { intros reg p' H. unfold region_answer. destruct b as [|q|q]; try exact H.
    destruct q as [[q|q|]|[q|[q|q|]|]|]; first [exact H | exfalso; lia]. }
  destruct (Z.eq_dec b 1) as [E1|N1].
  - (* a black pixel: a new region *)
    replace (color_of b) with Black by (rewrite E1; reflexivity).
    destruct (region_index_ok I0 p R) as (k & p1 & Ei & B1 & Hk & Nk & L1 & K1 & En & P1 & P2 & Ka & Kb).
    rewrite Ei. cbn [bind].
    assert (Q1 : pix (p_buf p1) (x, y) = 1) by (rewrite P2; unfold b in *; lia || assumption).
    destruct (repaint_base I0 p1 x y (Discarded k) (k + 5) B1 I) as (im' & rows & B' & P' & R1 & R2 & R3 & E).
    { cbn. unfold cache_cap in Hk. replace (k + 5 <=? 255) with true by lia. reflexivity. }
    { lia. } { lia. } { lia. }
    rewrite E.
    destruct (count_blob I0 (x, y) rows) as (n & Ec & An); try assumption.
    { destruct B as [(W1 & W2 & W3) [S1 S2] _ _]. lia. }
    { destruct B as [(W1 & W2 & W3) [S1 S2] _ _]. lia. }
    unfold out in *. rewrite Ec. cbn [bind p_buf p_cache].
    pose proof (cells_dec_blob _ _ _ R2) as Dec.
    inversion Nk as [|? ? Nk1 Nk2]; subst.
    rewrite cache_put_new by assumption.
    set (reg := Unclaimed (Discarded k) x y n). set (p' := MkPrepared im' ((k, reg) :: p_cache p1)).
    assert (Kpix : forall r, in_image I0 r -> (pix im' r = k + 5 <-> iblob I0 (x, y) r)).
    { intros r Ir. destruct (P' r Ir) as [A1 A2]. split; intros H; [|exact (A1 H)].
      destruct (Dec r) as [D|D]; [assumption|]. exfalso. rewrite (A2 D) in H.
      destruct (Z.eq_dec (pix (p_buf p) r) (k + 5)) as [Y|Y].
      - rewrite (P1 r Ir Y) in H. lia.
      - rewrite (P2 r Ir Y) in H. contradiction. }
    exists reg, p'. split; [reflexivity|]. split; [|split].
    + split; cbn [p_buf p_cache p']; try assumption.
      * cbn [length]. lia.
      * intros a. cbn [keys map fst length]. rewrite (K1 a). lia.
      * intros a r [H|H].
        -- injection H as <- <-. exists x, y, n. repeat split; try assumption; try apply I. apply Kpix.
        -- destruct (X6 a r (En _ H)) as (sx & sy & m & H1 & H2 & H3 & H4 & H5).
           exists sx, sy, m. split; [assumption|]. split; [assumption|]. split; [assumption|]. split; [assumption|].
           assert (Hak : a <> k) by (intros ->; apply Nk1; apply (in_map fst) in H; exact H).
           assert (Ha : 0 <= a) by (apply (in_map fst) in H; apply (K1 a); right; exact H).
           intros q Iq Eq. destruct (P' q Iq) as [A1 A2]. destruct (Dec q) as [D|D].
           ++ rewrite (A1 D) in Eq. lia.
           ++ rewrite (A2 D) in Eq. apply H5; [assumption|].
              destruct (Z.eq_dec (pix (p_buf p) q) (k + 5)) as [Y|Y].
              ** rewrite (P1 q Iq Y) in Eq. lia.
              ** rewrite <- (P2 q Iq Y). assumption.
      * intros q Iq. destruct (P' q Iq) as [A1 A2]. destruct (Dec q) as [D|D].
        -- right. rewrite (A1 D). left. cbn. lia.
        -- rewrite (A2 D). destruct (Z.eq_dec (pix (p_buf p) q) (k + 5)) as [Y|Y].
           ++ rewrite (P1 q Iq Y). left. lia.
           ++ rewrite (P2 q Iq Y). destruct (X7 q Iq) as [Z0|Z0]; [left; assumption|]. right. right.
              apply Ka; [assumption|lia].
    + intros r Ir H. cbn [p_buf p'] in *. destruct (P' r Ir) as [A1 A2]. destruct (Dec r) as [D|D].
      * exfalso. rewrite (A1 D) in H. assert (pix (p_buf p) r = b) by (apply (blob_color I0 _ _ _ B D)). lia.
      * rewrite (A2 D) in *. destruct (Z.eq_dec (pix (p_buf p) r) (k + 5)) as [Y|Y].
        -- rewrite (P1 r Ir Y) in H. lia.
        -- apply (P2 r Ir Y).
    + split; [|split].
      * apply RA. exists k, x, y, n. split; [reflexivity|]. split; [assumption|]. split; [apply blob_here; assumption|].
        split; assumption.
      * intros a r c Hc q Iq Hq. pose proof (Kb a r c Hc) as Hak. assert (Ha0 : 0 <= a) by (apply X5; rewrite Hc; left; reflexivity).
        cbn [p_buf p']. destruct (P' q Iq) as [A1 A2]. destruct (Dec q) as [D|D].
        -- exfalso. assert (pix (p_buf p) q = b) by (apply (blob_color I0 _ _ _ B D)). lia.
        -- rewrite (A2 D), (P2 q Iq) by lia. assumption.
      * intros k' sx sy n' [= <- <- <- <-]. eexists. reflexivity.
  - (* a known region *)
    destruct (X7 _ I) as [Hb|Hb]; [unfold b in *; lia|]. fold b in Hb.
    assert (Hb0 : 0 <= b - 5 < Z.of_nat (length (p_cache p))) by (apply X5; assumption).
    replace (color_of b) with (Discarded (b - 5))
      by (unfold color_of; destruct b as [|q|q]; try lia; destruct q as [[q|q|]|[q|[q|q|]|]|]; try lia; reflexivity).
    destruct (cache_find_in _ _ Hb) as (reg & Ef). unfold cache_get. rewrite Ef.
    destruct (cache_touch _ _ _ X3 Ef) as (T1 & T2 & T3).
    pose proof (cache_find_some _ _ _ Ef) as Hin.
    destruct (X6 _ _ Hin) as (sx & sy & n & -> & H2 & H3 & H4 & H5).
    assert (Tk : forall a, In a (keys ((b - 5, Unclaimed (Discarded (b - 5)) sx sy n) :: cache_remove (p_cache p) (b - 5))) <-> In a (keys (p_cache p))).
    { intros a. unfold keys. rewrite !in_map_iff. split; intros (e & <- & He); exists e; split; try reflexivity; apply T3; assumption. }
    eexists _, _. split; [reflexivity|]. split; [|split; [exact CK|split; [|split; [intros a r c Hc q _ Hq; exact Hq|]]]].
    + split; cbn [p_buf p_cache]; try assumption.
      * rewrite T2. assumption.
      * intros a. rewrite Tk, T2. apply X5.
      * intros a r H. apply T3 in H. apply X6. assumption.
      * intros q Iq. rewrite Tk. apply X7. assumption.
    + apply RA. assert (L : iblob I0 (sx, sy) (x, y)) by (apply H5; [assumption|unfold b; lia]).
      exists (b - 5), sx, sy, n. split; [reflexivity|]. split; [lia|]. split; [apply blob_sym; assumption|].
      split; [eapply blob_area_shift; eassumption|].
      intros r Ir. cbn [p_buf]. replace (b - 5 + 5) with b by lia. split; intros H.
      * eapply blob_trans; [apply blob_sym; exact L|]. apply H5; [assumption|lia].
      * apply (blob_color I0 _ _ _ B H).
    + intros k' sx' sy' n' [= <- <- <- <-]. eexists. reflexivity.
Qed.

(** Two pixels of the same unclaimed colour are in the same component. *)
Lemma same_discarded I0 p a b : reg_inv I0 p -> in_image I0 a -> in_image I0 b ->
  5 <= pix (p_buf p) a -> pix (p_buf p) b = pix (p_buf p) a -> iblob I0 a b.
Proof.
  intros [B X2 X3 X4 X5 X6 X7] Ia Ib Ha Hb. destruct (X7 a Ia) as [H|H]; [lia|].
  unfold keys in H. apply in_map_iff in H. destruct H as ((k & reg) & Ek & Hin). cbn in Ek.
  destruct (X6 k reg Hin) as (sx & sy & n & _ & _ & _ & _ & Hk).
  eapply blob_trans; [apply blob_sym|]; apply Hk; assumption || lia.
Qed.

(** Querying a white pixel panics (prepare.rs:374). *)
Lemma get_region_white p x y : wf_image (p_buf p) -> in_image (p_buf p) (x, y) -> pix (p_buf p) (x, y) = 0 ->
  get_region p x y = Panic.
Proof. intros W I H. unfold get_region. rewrite get_pixel_ok by assumption. cbn [bind]. rewrite H. reflexivity. Qed.

(** A clone answers like the original. *)
Lemma clone_inv I0 p : reg_inv I0 p -> reg_inv I0 (clone p) /\ p_buf (clone p) = p_buf p.
Proof.
  intros [B X2 X3 X4 X5 X6 X7]. unfold clone. rewrite clone_cache by assumption. split; [|reflexivity].
  assert (Tk : forall a, In a (keys (rev (p_cache p))) <-> In a (keys (p_cache p))).
  { intros a. unfold keys. rewrite map_rev. symmetry. apply in_rev. }
  split; cbn [p_buf p_cache]; try assumption.
  - unfold keys. rewrite map_rev. apply NoDup_rev. assumption.
  - rewrite rev_length. assumption.
  - intros k. rewrite Tk, rev_length. apply X5.
  - intros k reg H. apply in_rev in H. apply X6; assumption.
  - intros q Iq. rewrite Tk. apply X7. assumption.
Qed.

(** A fresh black and white image. *)
Lemma fresh_inv I0 : wf_image I0 -> im_w I0 * im_h I0 <= usize_max ->
  (forall q, in_image I0 q -> pix I0 q = 0 \/ pix I0 q = 1) -> reg_inv I0 (MkPrepared I0 []).
Proof.
  intros W F C. split; cbn [p_buf p_cache].
  - split; [assumption|split; reflexivity|reflexivity|].
    intros a b Ia Ib _ Na Nb. destruct (C a Ia), (C b Ib); congruence.
  - assumption.
  - constructor.
  - cbn. unfold cache_cap. lia.
  - intros k. cbn. lia.
  - contradiction.
  - intros q Iq. left. destruct (C q Iq) as [-> | ->]; lia.
Qed.

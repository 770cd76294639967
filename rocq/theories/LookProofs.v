(** Decoding a grid that remembers things: it sees a picture, module by module. *)
From Verif Require Import Base Lib VersionDb ModelGF ModelRS ModelDecode ModelImage ModelCalls ModelLook SpecCalls SpecReading SpecLook SpecQR StreamProofs FormatProofs LayoutProofs EncodeProofs GridProofs ReadingProofs RawProofs CallProofs.
From Coq Require Import ZifyBool ZifyNat.
Open Scope Z_scope.
Ltac Zify.zify_post_hook ::= Z.div_mod_to_equations.
Set Bullet Behavior "Strict Subproofs".

(** * Grids that always answer alike *)

Definition agrees {S A} (m : look S A) (r : res deqr_error A) : Prop := forall s, exists s', m s = lk_lift r s'.

Section Agree.
Context {S : Type}.

Lemma agrees_lift A (r : res deqr_error A) : agrees (S := S) (lk_lift r) r.
Proof. intros s. exists s. reflexivity. Qed.

Lemma agrees_ret A (a : A) : agrees (S := S) (lk_ret a) (Ok a).
Proof. intros s. exists s. reflexivity. Qed.

Lemma agrees_bind A B (m : look S A) (k : A -> look S B) r pk : agrees m r -> (forall a, agrees (k a) (pk a)) -> agrees (lk_bind m k) (bind r pk).
Proof.
  intros M K s. destruct (M s) as (s1 & E). unfold lk_bind. rewrite E. destruct r as [a|e| |]; cbn [lk_lift bind fst snd].
  - exact (K a s1).
  - exists s1. reflexivity.
  - exists s1. reflexivity.
  - exists s1. reflexivity.
Qed.

Lemma agrees_for I St (l : list I) (b : I -> St -> look S St) pb : (forall i st, agrees (b i st) (pb i st)) -> forall st, agrees (lk_for l b st) (for_each l pb st).
Proof. intros H. induction l as [|i l IH]; intros st; cbn [lk_for for_each]; [apply agrees_ret|]. apply agrees_bind; auto. Qed.

Context (g : WatchedGrid S) (p : BitGrid) (T : steady g p).

Lemma steady_bit y x : agrees (lk_bit g y x) (g_bit p y x).
Proof using T.
  intros s. unfold lk_bit. destruct T as (_ & H). specialize (H s y x). destruct (g_bit p y x) as [b|e| |].
  - destruct H as (s' & ->). exists s'. reflexivity.
  - destruct H.
  - rewrite H. exists s. reflexivity.
  - rewrite H. exists s. reflexivity.
Qed.

Lemma steady_first : agrees (w_format_first g) (read_format_first p).
Proof using T.
  unfold w_format_first, read_format_first. apply agrees_bind; [|intros; apply agrees_ret]. apply agrees_for. intros i st.
  do 2 (apply agrees_bind; [apply agrees_lift|intros ?]). apply agrees_bind; [apply steady_bit|intros; apply agrees_ret].
Qed.

Lemma steady_second : agrees (w_format_second g) (read_format_second p).
Proof using T.
  unfold w_format_second, read_format_second. rewrite (proj1 T). apply agrees_bind; [|intros f; apply agrees_bind; [|intros; apply agrees_ret]]; apply agrees_for; intros i st.
  - do 2 (apply agrees_bind; [apply agrees_lift|intros ?]). apply agrees_bind; [apply steady_bit|intros; apply agrees_ret].
  - apply agrees_bind; [apply agrees_lift|intros ?]. apply agrees_bind; [apply steady_bit|intros; apply agrees_ret].
Qed.

Lemma steady_format : agrees (w_read_format g) (read_format p).
Proof using T.
  unfold w_read_format, read_format. rewrite (proj1 T). apply agrees_bind; [apply steady_first|]. intros f. apply agrees_bind.
  - destruct (correct_format f) as [w|e| |]; try apply agrees_lift. apply agrees_bind; [apply steady_second|]. intros; apply agrees_lift.
  - intros w. cbv zeta. apply agrees_bind; [apply agrees_lift|intros; apply agrees_ret].
Qed.

Lemma steady_cell meta rm y x ds : agrees (w_read_cell g meta rm y x ds) (read_cell p meta rm y x ds).
Proof using T.
  unfold w_read_cell, read_cell. apply agrees_bind; [apply agrees_lift|]. intros r. destruct (negb r); [|apply agrees_ret]. apply agrees_bind; [|intros; apply agrees_lift].
  unfold w_read_bit, read_bit. apply agrees_bind; [apply steady_bit|]. intros b. destruct rm; [|apply agrees_ret]. apply agrees_bind; [apply agrees_lift|intros; apply agrees_ret].
Qed.

Lemma steady_loop meta rm fuel : forall y x neg ds, agrees (w_read_data_loop fuel g meta rm y x neg ds) (read_data_loop fuel p meta rm y x neg ds).
Proof using T.
  induction fuel as [|fuel IH]; intros y x neg ds; cbn [w_read_data_loop read_data_loop]; [apply agrees_lift|]. destruct (0 <? x); [|apply agrees_ret]. cbv zeta.
  apply agrees_bind; [apply steady_cell|]. intros d1. apply agrees_bind; [apply steady_cell|]. intros d2. rewrite (proj1 T).
  destruct ((y =? 0) && neg); [apply IH|]. destruct (negb neg && (y =? g_size p - 1)); [apply IH|]. destruct neg; apply IH.
Qed.

Lemma steady_raw rm : agrees (w_get_raw g rm) (get_raw p rm).
Proof using T.
  unfold w_get_raw, get_raw. apply agrees_bind; [apply steady_format|]. intros meta. apply agrees_bind; [|intros; apply agrees_ret].
  unfold w_read_data, read_data. rewrite (proj1 T). do 2 (apply agrees_bind; [apply agrees_lift|intros ?]). apply steady_loop.
Qed.

Lemma steady_inner : agrees (w_decode_inner g) (decode_inner p).
Proof using T.
  unfold w_decode_inner, decode_inner. apply agrees_bind; [apply steady_raw|]. intros [meta raw]. apply agrees_bind; [apply agrees_lift|intros; apply agrees_ret].
Qed.
End Agree.

Lemma steady_mirrored S (g : WatchedGrid S) p : steady g p -> steady (w_mirrored g) (MirroredGrid p).
Proof. intros (H1 & H2). split; [exact H1|]. intros s y x. exact (H2 s x y). Qed.

Theorem steady_decode S (g : WatchedGrid S) p W (wr : W -> list Z -> W * bool) s w : steady g p ->
  exists s', w_decode_to wr g s w = lk_lift (snd (grid_decode_to wr p w)) (s', fst (grid_decode_to wr p w)).
Proof.
  intros T. unfold w_decode_to, w_decode, grid_decode_to, decode. destruct (steady_inner g p T s) as (s1 & E). rewrite E.
  assert (P : forall (x : MetaData * CorrectedDataStream) (s' : S), (let (meta, stream) := x in let '(w0, r) := (do* _ := decode_payload wr meta stream in io_ret meta)%io w in lk_lift r (s', w0))
    = lk_lift (snd (io_bind (io_lift (Ok x)) (fun '(meta, stream) => io_bind (decode_payload wr meta stream) (fun _ => io_ret meta)) w)) (s', fst (io_bind (io_lift (Ok x)) (fun '(meta, stream) => io_bind (decode_payload wr meta stream) (fun _ => io_ret meta)) w))).
  { intros [meta stream] s'. unfold io_bind at 2 4, io_lift. destruct (io_bind (decode_payload wr meta stream) (fun _ => io_ret meta) w); reflexivity. }
  destruct (decode_inner p) as [x|e| |]; cbn [lk_lift bind fst snd].
  - exists s1. apply P.
  - destruct (steady_inner (w_mirrored g) (MirroredGrid p) (steady_mirrored S g p T) s1) as (s2 & E2). rewrite E2. exists s2. destruct (decode_inner (MirroredGrid p)) as [x'|e'| |]; cbn [lk_lift bind fst snd]; try reflexivity. apply P.
  - exists s1. reflexivity.
  - exists s1. reflexivity.
Qed.

Theorem steady_grid_decode S (g : WatchedGrid S) p s : steady g p -> exists s', w_grid_decode g s = lk_lift (grid_decode p) s'.
Proof.
  intros T. destruct (steady_decode S g p _ vec_writer s [] T) as (s' & E). exists s'. unfold w_grid_decode, grid_decode. unfold out in *. rewrite E.
  destruct (grid_decode_to vec_writer p []) as [o r]. cbn [fst snd]. destruct r as [m|e| |]; cbn [lk_lift bind]; try reflexivity. destruct (utf8_valid o); reflexivity.
Qed.

(** * The order of the questions *)

Section Order.
Context {S : Type} (g : WatchedGrid S) (meta : MetaData) (rm : bool).
Notation loop := (fun fuel y x up ds => w_read_data_loop fuel g meta rm y x up ds).
Definition w_cells (l : list (Z * Z)) (ds : RawData) : look S RawData := lk_for l (fun q ds => w_read_cell g meta rm (fst q) (snd q) ds) ds.

Lemma w_cells_two q q' l ds s : w_cells (q :: q' :: l) ds s
  = lk_bind (w_read_cell g meta rm (fst q) (snd q) ds) (fun ds => lk_bind (w_read_cell g meta rm (fst q') (snd q') ds) (w_cells l)) s.
Proof. reflexivity. Qed.

Lemma lk_bind_assoc A B C (m : look S A) (k : A -> look S B) (k' : B -> look S C) s : lk_bind (lk_bind m k) k' s = lk_bind m (fun a => lk_bind (k a) k') s.
Proof. unfold lk_bind. destruct (m s) as [[s1 [a|e]]|[]| |]; reflexivity. Qed.

Lemma lk_bind_ext A B (m : look S A) (k k' : A -> look S B) s : (forall a s, k a s = k' a s) -> lk_bind m k s = lk_bind m k' s.
Proof. intros H. unfold lk_bind. destruct (m s) as [[s1 [a|e]]|[]| |]; cbn [bind fst snd]; auto. Qed.

Lemma w_cells_app l l' ds s : w_cells (l ++ l') ds s = lk_bind (w_cells l ds) (w_cells l') s.
Proof.
  revert ds s. induction l as [|q l IH]; intros ds s; [reflexivity|]. change (lk_bind (w_read_cell g meta rm (fst q) (snd q) ds) (w_cells (l ++ l')) s = lk_bind (lk_bind (w_read_cell g meta rm (fst q) (snd q) ds) (w_cells l)) (w_cells l') s).
  rewrite lk_bind_assoc. apply lk_bind_ext. intros a s1. apply IH.
Qed.

Lemma w_climb n : forall fuel x ds s, 0 < x -> x <> 6 ->
  loop (Datatypes.S n + fuel)%nat (Z.of_nat n) x true ds s
  = lk_bind (w_cells (sweep_rows (rev (rows_upto (Datatypes.S n))) x) ds) (fun ds => loop fuel 0 (Z.max 0 (x - 2)) false ds) s.
Proof.
  induction n as [|n IH]; intros fuel x ds s Hx H6.
  - cbn [plus w_read_data_loop]. replace (0 <? x) with true by lia. replace (x =? 6) with false by lia.
    change (rev (rows_upto 1)) with [0]. unfold sweep_rows. cbn [flat_map app]. unfold w_cells. cbn [lk_for fst snd].
    rewrite lk_bind_assoc. apply lk_bind_ext. intros d1 s1. rewrite lk_bind_assoc. apply lk_bind_ext. intros d2 s2. reflexivity.
  - rewrite rows_upto_S, rev_app_distr. cbn [rev app]. rewrite sweep_rows_cons. cbn [app].
    cbn [plus w_read_data_loop]. replace (0 <? x) with true by lia. replace (x =? 6) with false by lia.
    unfold w_cells. cbn [lk_for fst snd]. rewrite lk_bind_assoc. apply lk_bind_ext. intros d1 s1. rewrite lk_bind_assoc. apply lk_bind_ext. intros d2 s2.
    replace (Z.of_nat (Datatypes.S n) =? 0) with false by lia. cbn [andb negb]. replace (Z.of_nat (Datatypes.S n) - 1) with (Z.of_nat n) by lia. apply (IH fuel x d2 s2 Hx H6).
Qed.

Lemma w_descend k : forall fuel x ds s, 0 < x -> x <> 6 -> Z.of_nat k < wg_size g ->
  loop (Datatypes.S k + fuel)%nat (wg_size g - 1 - Z.of_nat k) x false ds s
  = lk_bind (w_cells (sweep_rows (map (fun i => wg_size g - 1 - Z.of_nat k + Z.of_nat i) (seq 0 (Datatypes.S k))) x) ds) (fun ds => loop fuel (wg_size g - 1) (Z.max 0 (x - 2)) true ds) s.
Proof.
  induction k as [|k IH]; intros fuel x ds s Hx H6 Hk.
  - cbn [plus w_read_data_loop]. replace (0 <? x) with true by lia. replace (x =? 6) with false by lia.
    cbn [seq map]. unfold sweep_rows. cbn [flat_map app]. unfold w_cells. cbn [lk_for fst snd].
    replace (wg_size g - 1 - Z.of_nat 0 + Z.of_nat 0) with (wg_size g - 1 - Z.of_nat 0) by lia.
    rewrite lk_bind_assoc. apply lk_bind_ext. intros d1 s1. rewrite lk_bind_assoc. apply lk_bind_ext. intros d2 s2.
    rewrite andb_false_r. cbn [negb andb]. replace (wg_size g - 1 - Z.of_nat 0 =? wg_size g - 1) with true by lia. reflexivity.
  - change (seq 0 (Datatypes.S (Datatypes.S k))) with (0%nat :: seq 1 (Datatypes.S k)). rewrite map_cons, sweep_rows_cons. cbn [app].
    cbn [plus w_read_data_loop]. replace (0 <? x) with true by lia. replace (x =? 6) with false by lia.
    replace (wg_size g - 1 - Z.of_nat (Datatypes.S k) + Z.of_nat 0) with (wg_size g - 1 - Z.of_nat (Datatypes.S k)) by lia.
    unfold w_cells. cbn [lk_for fst snd]. rewrite lk_bind_assoc. apply lk_bind_ext. intros d1 s1. rewrite lk_bind_assoc. apply lk_bind_ext. intros d2 s2.
    rewrite andb_false_r. cbn [negb andb]. replace (wg_size g - 1 - Z.of_nat (Datatypes.S k) =? wg_size g - 1) with false by lia.
    replace (wg_size g - 1 - Z.of_nat (Datatypes.S k) + 1) with (wg_size g - 1 - Z.of_nat k) by lia.
    etransitivity; [apply (IH fuel x d2 s2 Hx H6); lia|].
    apply (f_equal (fun l => lk_bind (w_cells l d2) (fun ds => loop fuel (wg_size g - 1) (Z.max 0 (x - 2)) true ds) s2)).
    apply (f_equal (fun l => sweep_rows l x)). rewrite <- seq_shift, map_map. apply map_ext. intros i. lia.
Qed.

Lemma w_one_sweep (up : bool) fuel x ds s : 0 < x -> x <> 6 -> 1 <= wg_size g ->
  loop (Z.to_nat (wg_size g) + fuel)%nat (if up then wg_size g - 1 else 0) x up ds s
  = lk_bind (w_cells (sweep (wg_size g) x up) ds) (fun ds => loop fuel (if negb up then wg_size g - 1 else 0) (Z.max 0 (x - 2)) (negb up) ds) s.
Proof.
  intros Hx H6 Hs. unfold sweep, rows. destruct up; cbn [negb].
  - pose proof (w_climb (Z.to_nat (wg_size g) - 1) fuel x ds s Hx H6) as C. cbn beta in C.
    replace (Datatypes.S (Z.to_nat (wg_size g) - 1)) with (Z.to_nat (wg_size g)) in C by lia.
    replace (Z.of_nat (Z.to_nat (wg_size g) - 1)) with (wg_size g - 1) in C by lia. exact C.
  - pose proof (w_descend (Z.to_nat (wg_size g) - 1) fuel x ds s Hx H6 ltac:(lia)) as C. cbn beta in C.
    replace (Datatypes.S (Z.to_nat (wg_size g) - 1)) with (Z.to_nat (wg_size g)) in C by lia.
    replace (wg_size g - 1 - Z.of_nat (Z.to_nat (wg_size g) - 1)) with 0 in C by lia.
    cbn [Z.add] in C. rewrite (map_ext (fun i => 0 + Z.of_nat i) Z.of_nat) in C by (intros; lia). exact C.
Qed.

Lemma w_skip6 fuel y x (up : bool) ds s : loop fuel y x up ds s = loop fuel y (if x =? 6 then 5 else x) up ds s.
Proof. destruct fuel as [|fuel]; [reflexivity|]. destruct (Z.eqb_spec x 6) as [->|Hx]; reflexivity. Qed.

Lemma w_all_sweeps n : forall fuel x (up : bool) ds s, 1 <= wg_size g -> 0 <= x -> x <= 2 * Z.of_nat n ->
  loop (Datatypes.S (n * Z.to_nat (wg_size g) + fuel))%nat (if up then wg_size g - 1 else 0) x up ds s
  = w_cells (sweeps n (wg_size g) x up) ds s.
Proof.
  induction n as [|n IH]; intros fuel x up ds s Hs H0 Hx.
  - replace x with 0 by lia. reflexivity.
  - cbn [sweeps]. destruct (Z.ltb_spec 0 x) as [Hp|Hp]; [|replace x with 0 by lia; reflexivity].
    rewrite w_skip6. set (x' := if x =? 6 then 5 else x).
    assert (Ex : (if x =? 6 then x - 1 else x) = x') by (unfold x'; destruct (x =? 6) eqn:E; lia). rewrite Ex, w_cells_app.
    replace (Datatypes.S (Datatypes.S n * Z.to_nat (wg_size g) + fuel))%nat with (Z.to_nat (wg_size g) + Datatypes.S (n * Z.to_nat (wg_size g) + fuel))%nat by lia.
    rewrite w_one_sweep.
    + apply lk_bind_ext. intros d s1. apply IH; [exact Hs|lia|]. unfold x'. destruct (x =? 6) eqn:E; lia.
    + unfold x'. destruct (x =? 6) eqn:E; lia.
    + unfold x'. destruct (x =? 6) eqn:E; lia.
    + exact Hs.
Qed.

Lemma w_read_data_cells s : 1 <= wg_size g -> w_read_data g meta rm s = w_cells (scan (wg_size g)) (mkRaw zero_payload 0) s.
Proof.
  intros Hs. unfold w_read_data, lk_bind, usub. replace (1 <=? wg_size g) with true by lia. cbn [lk_lift bind fst snd]. unfold read_data_fuel, scan.
  replace (Datatypes.S (Z.to_nat (wg_size g * ((wg_size g + 1) / 2)))) with (Datatypes.S (Z.to_nat ((wg_size g + 1) / 2) * Z.to_nat (wg_size g) + 0)) by nia.
  apply (w_all_sweeps _ 0 (wg_size g - 1) true); lia.
Qed.

Definition push_seen (qa : (Z * Z) * bool) (ds : RawData) : res deqr_error RawData :=
  raw_push ds (xorb (snd qa) (rm && mask_pattern (md_mask meta) (fst (fst qa)) (snd (fst qa)))).

Lemma w_bit_ask y x s : 0 <= md_mask meta < 8 -> w_read_bit g meta y x rm s = (let* t := wg_bit g s y x in Ok (fst t, inl (xorb (snd t) (rm && mask_pattern (md_mask meta) y x)))).
Proof.
  intros Hm. unfold w_read_bit, lk_bind, lk_bit. destruct (wg_bit g s y x) as [[s1 b]|[]| |]; cbn [bind fst snd]; try reflexivity.
  destruct rm; cbn [andb]; [|rewrite xorb_false_r; reflexivity]. rewrite mask_bit_ok by exact Hm. cbn [lk_lift bind fst snd]. unfold lk_ret. destruct (mask_pattern _ _ _), b; reflexivity.
Qed.

Lemma w_cells_ask : 0 <= md_version meta <= 40 -> 0 <= md_mask meta < 8 -> forall l ds bs s, raw_holds ds bs -> Z.of_nat (length bs + length l) <= 8 * MAX_PAYLOAD_SIZE ->
  w_cells l ds s = (let* t := ask (wg_bit g) s (unreserved (md_version meta) l) in lk_lift (for_each (combine (unreserved (md_version meta) l) (snd t)) push_seen ds) (fst t)).
Proof.
  intros Hv Hm. induction l as [|[y x] l IH]; intros ds bs s Hds Hlen; [reflexivity|]. cbn [length] in Hlen.
  unfold w_cells. cbn [lk_for fst snd]. fold w_cells. unfold unreserved. cbn [filter fst snd]. fold (unreserved (md_version meta) l).
  unfold lk_bind, w_read_cell. unfold lk_bind. rewrite reserved_cell_ok by exact Hv. cbn [lk_lift bind fst snd].
  destruct (reservedb (md_version meta) y x); cbn [negb].
  - cbn [lk_ret bind fst snd]. apply (IH ds bs); [exact Hds|lia].
  - rewrite w_bit_ask by exact Hm. cbn [ask]. destruct (wg_bit g s y x) as [[s1 b]|[]| |]; cbn [bind fst snd]; try reflexivity. set (b' := xorb b _) in *.
    destruct (raw_push_ok ds bs b' Hds ltac:(lia)) as (ds1 & E1 & Hds1). rewrite E1. cbn [lk_lift bind fst snd].
    etransitivity; [apply (IH ds1 (bs ++ [b']) s1 Hds1); rewrite app_length; cbn [length]; lia|]. unfold out.
    destruct (ask (wg_bit g) s1 (unreserved (md_version meta) l)) as [[s2 a]|[]| |]; cbn [bind fst snd]; try reflexivity.
    cbn [combine for_each]. unfold push_seen at 2. cbn [fst snd]. fold b'. rewrite E1. reflexivity.
Qed.

Lemma w_data_ask s : 1 <= wg_size g <= 180 -> 0 <= md_version meta <= 40 -> 0 <= md_mask meta < 8 ->
  w_read_data g meta rm s = (let* t := ask (wg_bit g) s (unreserved (md_version meta) (scan (wg_size g))) in
    lk_lift (for_each (combine (unreserved (md_version meta) (scan (wg_size g))) (snd t)) push_seen (mkRaw zero_payload 0)) (fst t)).
Proof.
  intros Hs Hv Hm. rewrite w_read_data_cells by lia. apply (w_cells_ask Hv Hm) with (bs := []); [apply raw_holds_nil|]. cbn [length plus].
  unfold scan. pose proof (sweeps_length (wg_size g) (Z.to_nat ((wg_size g + 1) / 2)) (wg_size g - 1) true) as L. unfold MAX_PAYLOAD_SIZE. nia.
Qed.
End Order.

(** * Asking *)

Lemma ask_app S A (f : callback S A) l l' s : ask f s (l ++ l') = (let* t := ask f s l in let* t' := ask f (fst t) l' in Ok (fst t', snd t ++ snd t')).
Proof.
  revert s. induction l as [|[x y] l IH]; intros s; cbn [app ask bind fst snd].
  - destruct (ask f s l') as [[s1 a]|[]| |]; reflexivity.
  - destruct (f s x y) as [[s1 a]|[]| |]; cbn [bind fst snd]; try reflexivity. rewrite IH. destruct (ask f s1 l) as [[s2 b]|[]| |]; cbn [bind fst snd]; try reflexivity.
    destruct (ask f s2 l') as [[s3 c]|[]| |]; reflexivity.
Qed.

Lemma lk_for_ask S I (g : WatchedGrid S) (l : list I) (body : I -> Z -> look S Z) (q : I -> Z * Z) :
  (forall i st s, In i l -> body i st s = (let* t := wg_bit g s (fst (q i)) (snd (q i)) in Ok (fst t, inl (push_format_bit st (snd t))))) ->
  forall st s, lk_for l body st s = (let* t := ask (wg_bit g) s (map q l) in Ok (fst t, inl (fold_left push_format_bit (snd t) st))).
Proof.
  induction l as [|i l IH]; intros H st s; [reflexivity|]. cbn [lk_for map ask]. unfold lk_bind. rewrite H by (left; reflexivity). destruct (q i) as [y x]. cbn [fst snd].
  destruct (wg_bit g s y x) as [[s1 b]|[]| |]; cbn [bind fst snd]; try reflexivity. rewrite IH by (intros j st' s' Hj; apply H; right; exact Hj).
  destruct (ask (wg_bit g) s1 (map q l)) as [[s2 a]|[]| |]; reflexivity.
Qed.

Lemma pushed_bits l acc : fold_left push_format_bit l (value_of acc) = value_of (acc ++ l).
Proof. revert acc. induction l as [|b l IH]; intros acc; cbn [fold_left]; [rewrite app_nil_r; reflexivity|]. rewrite push_format_bit_eq, <- value_of_snoc, IH, <- app_assoc. reflexivity. Qed.

Lemma first_ask S (g : WatchedGrid S) s : w_format_first g s = (let* t := ask (wg_bit g) s (copy_order format_module_1) in Ok (fst t, inl (Z.lxor (value_of (snd t)) 21522))).
Proof.
  unfold w_format_first, lk_bind at 1. rewrite (lk_for_ask S nat g (rev (range 0 15)) _ format_module_1).
  - change (map format_module_1 (rev (range 0 15))) with (copy_order format_module_1). destruct (ask (wg_bit g) s (copy_order format_module_1)) as [[s1 a]|[]| |]; cbn [bind fst snd]; try reflexivity.
    unfold lk_ret. change 0 with (value_of []) at 1. rewrite pushed_bits. reflexivity.
  - intros i st s0 Hi. apply in_rev in Hi. apply in_range_iff in Hi.
    do 15 (destruct i as [|i]; [cbv [aget YS XS nth_error lk_lift lk_bind lk_bit lk_ret]; cbn [bind fst snd format_module_1 nth]; destruct (wg_bit g s0 _ _) as [[s1 b]|[]| |]; reflexivity|]). lia.
Qed.

Lemma second_ask S (g : WatchedGrid S) s : 9 <= wg_size g ->
  w_format_second g s = (let* t := ask (wg_bit g) s (copy_order (format_module_2 (wg_size g))) in Ok (fst t, inl (Z.lxor (value_of (snd t)) 21522))).
Proof.
  intros Hs. assert (Eo : copy_order (format_module_2 (wg_size g)) = map (fun i => (wg_size g - 1 - i, 8)) (zrange 0 7) ++ map (fun i => (8, wg_size g - 8 + i)) (zrange 0 8)).
  { change (zrange 0 7) with [0;1;2;3;4;5;6]. change (zrange 0 8) with [0;1;2;3;4;5;6;7]. unfold copy_order. cbn [map app rev seq format_module_2 Nat.ltb Nat.leb].
    repeat (apply f_equal2; [f_equal; lia|]). reflexivity. }
  rewrite Eo, ask_app. unfold w_format_second, lk_bind at 1. rewrite (lk_for_ask S Z g (zrange 0 7) _ (fun i => (wg_size g - 1 - i, 8))).
  2:{ intros i st s0 Hi. apply in_zrange in Hi. unfold lk_bind, usub. replace (1 <=? wg_size g) with true by lia. cbn [lk_lift bind fst snd]. replace (i <=? wg_size g - 1) with true by lia. cbn [lk_lift bind fst snd].
      unfold lk_bit. destruct (wg_bit g s0 _ _) as [[s1 b]|[]| |]; reflexivity. }
  destruct (ask (wg_bit g) s (map _ (zrange 0 7))) as [[s1 a]|[]| |]; cbn [bind fst snd]; try reflexivity.
  unfold lk_bind at 1. rewrite (lk_for_ask S Z g (zrange 0 8) _ (fun i => (8, wg_size g - 8 + i))).
  2:{ intros i st s0 Hi. apply in_zrange in Hi. unfold lk_bind, usub. replace (8 <=? wg_size g) with true by lia. cbn [lk_lift bind fst snd].
      unfold lk_bit. destruct (wg_bit g s0 _ _) as [[s2 b]|[]| |]; reflexivity. }
  destruct (ask (wg_bit g) s1 (map _ (zrange 0 8))) as [[s2 a2]|[]| |]; cbn [bind fst snd]; try reflexivity.
  unfold lk_ret. change 0 with (value_of []) at 1. rewrite !pushed_bits. reflexivity.
Qed.

Lemma seen_word loc sym : value_of (map (see sym) (copy_order loc)) = copy_word loc sym.
Proof. unfold copy_order, copy_word, format_read. rewrite map_map, <- map_rev. reflexivity. Qed.

Lemma app_inj_1 A (a a' b b' : list A) : a ++ b = a' ++ b' -> length a = length a' -> a = a' /\ b = b'.
Proof. revert a'. induction a as [|x a IH]; intros [|x' a'] E L; try discriminate; [split; [reflexivity|exact E]|]. injection E as -> E. injection L as L. destruct (IH a' E L) as [-> -> ]. split; reflexivity. Qed.

Lemma shown_app S (g : WatchedGrid S) s l l' sym s' : shown g s (l ++ l') sym s' <-> exists s1, shown g s l sym s1 /\ shown g s1 l' sym s'.
Proof.
  unfold shown. rewrite ask_app, map_app. split.
  - intros Sh. apply bind_ok_inv in Sh as ([s1 a1] & E1 & Sh). apply bind_ok_inv in Sh as ([s2 a2] & E2 & Sh). cbn [fst snd] in *. injection Sh as -> Ea.
    apply app_inj_1 in Ea; [|rewrite map_length; exact (ask_length _ _ _ _ _ _ _ E1)]. destruct Ea as [-> -> ]. eauto.
  - intros (s1 & E1 & E2). unfold out in *. rewrite E1. cbn [bind fst snd]. rewrite E2. reflexivity.
Qed.

(** * One attempt *)

(** What the answers are worth, for any grid. *)
Definition data_from (v : Z) (rm : bool) (e : level) (mask : Z) (sym : Z -> Z -> bool) : res deqr_error (MetaData * RawData) :=
  let* rd := for_each (combine (data_modules v) (map (see sym) (data_modules v))) (push_seen (mkMeta v (level_bits e) mask) rm) (mkRaw zero_payload 0) in
  Ok (mkMeta v (level_bits e) mask, rd).

Section Attempt.
Context {S : Type} (g : WatchedGrid S) (v : Z) (Hv : 1 <= v <= 40) (H21 : v <> 21) (Hg : wg_size g = symbol_size v).

Lemma size_version : version_from_size (symbol_size v) = Ok v.
Proof using S g Hv H21 Hg. unfold version_from_size, symbol_size. replace (Z.max 0 (17 + 4 * v - 17) / 4) with v by lia. replace ((0 <? v) && (v <=? 40)) with true by lia. reflexivity. Qed.

Lemma data_seen rm e mask sym s s' : 0 <= mask < 8 -> shown g s (data_modules v) sym s' ->
  (let* t := w_read_data g (mkMeta v (level_bits e) mask) rm s in match snd t with inl rd => Ok (fst t, inl (mkMeta v (level_bits e) mask, rd)) | inr x => Ok (fst t, inr x) end)
  = lk_lift (data_from v rm e mask sym) s'.
Proof using S g Hv H21 Hg.
  intros Hm Sh. rewrite w_data_ask by (cbn [md_version md_mask]; unfold symbol_size in *; lia). cbn [md_version]. rewrite Hg, scan_data_modules by assumption. unfold shown in Sh. unfold out in *. rewrite Sh. cbn [bind fst snd].
  unfold data_from. destruct (for_each _ _ _) as [rd|x| |]; reflexivity.
Qed.

Lemma raw_seen_first rm e mask sym s s' : copy_says format_module_1 sym e mask -> shown g s (copy_order format_module_1 ++ data_modules v) sym s' ->
  w_get_raw g rm s = lk_lift (data_from v rm e mask sym) s'.
Proof using S g Hv H21 Hg.
  intros C Sh. apply shown_app in Sh as (s1 & E1 & E2). unfold shown in E1. unfold w_get_raw, w_read_format, lk_bind. rewrite first_ask. unfold out in *. rewrite E1. cbn [bind fst snd]. rewrite seen_word.
  destruct (correct_copy format_module_1 sym) as [(e' & mask' & C' & Ec)|[Lost _]]; [|destruct (Lost e mask C)].
  destruct (copy_says_unique _ _ _ _ _ _ C C') as [<- <- ]. rewrite Ec. cbn [lk_lift bind fst snd]. rewrite Hg, size_version. cbn [lk_lift lk_ret bind fst snd].
  destruct (format_fields e mask (proj1 C)) as [-> -> ]. rewrite <- (data_seen rm e mask sym s1 s' (proj1 C) E2). reflexivity.
Qed.

Lemma raw_seen_second rm e mask sym s s' : copy_lost format_module_1 sym -> copy_says (format_module_2 (symbol_size v)) sym e mask ->
  shown g s (copy_order format_module_1 ++ copy_order (format_module_2 (symbol_size v)) ++ data_modules v) sym s' -> w_get_raw g rm s = lk_lift (data_from v rm e mask sym) s'.
Proof using S g Hv H21 Hg.
  intros Lo C Sh. apply shown_app in Sh as (s1 & E1 & E2). apply shown_app in E2 as (s3 & E3 & E4). unfold shown in E1, E3.
  unfold w_get_raw, w_read_format, lk_bind. rewrite first_ask. unfold out in *. rewrite E1. cbn [bind fst snd]. rewrite seen_word.
  destruct (correct_copy format_module_1 sym) as [(e' & mask' & C' & _)|[_ Ec]]; [destruct (Lo e' mask' C')|]. rewrite Ec. rewrite second_ask by (rewrite Hg; unfold symbol_size; lia). unfold out in *. rewrite Hg, E3. cbn [bind fst snd]. rewrite seen_word.
  destruct (correct_copy (format_module_2 (symbol_size v)) sym) as [(e' & mask' & C' & Ec')|[Lost _]]; [|destruct (Lost e mask C)].
  destruct (copy_says_unique _ _ _ _ _ _ C C') as [<- <- ]. rewrite Ec'. cbn [lk_lift bind fst snd]. rewrite size_version. cbn [lk_lift lk_ret bind fst snd].
  destruct (format_fields e mask (proj1 C)) as [-> -> ]. rewrite <- (data_seen rm e mask sym s3 s' (proj1 C) E4). reflexivity.
Qed.

Lemma raw_seen_nothing rm sym s s' : format_lost (symbol_size v) sym ->
  shown g s (copy_order format_module_1 ++ copy_order (format_module_2 (symbol_size v))) sym s' -> w_get_raw g rm s = lk_lift (Err FormatEcc) s'.
Proof using S g Hv H21 Hg.
  intros [Lo Lo2] Sh. apply shown_app in Sh as (s1 & E1 & E2). unfold shown in E1, E2.
  unfold w_get_raw, w_read_format, lk_bind. rewrite first_ask. unfold out in *. rewrite E1. cbn [bind fst snd]. rewrite seen_word.
  destruct (correct_copy format_module_1 sym) as [(e' & mask' & C' & _)|[_ Ec]]; [destruct (Lo e' mask' C')|]. rewrite Ec. rewrite second_ask by (rewrite Hg; unfold symbol_size; lia). unfold out in *. rewrite Hg, E2. cbn [bind fst snd]. rewrite seen_word.
  destruct (correct_copy (format_module_2 (symbol_size v)) sym) as [(e' & mask' & C' & _)|[_ Ec']]; [destruct (Lo2 e' mask' C')|]. rewrite Ec'. reflexivity.
Qed.
End Attempt.

Lemma lift_inj S A (r r' : res deqr_error A) (s : S) : lk_lift r s = lk_lift r' s -> r = r'.
Proof. destruct r, r'; cbn [lk_lift]; intros E; try discriminate; congruence. Qed.

Theorem raw_seen S (g : WatchedGrid S) v rm sym l s s' : 1 <= v <= 40 -> v <> 21 -> wg_size g = symbol_size v ->
  asked_for v sym l -> shown g s l sym s' -> w_get_raw g rm s = lk_lift (get_raw (showing v sym) rm) s'.
Proof.
  intros Hv H21 Hg A Sh. set (g0 := MkWatched (symbol_size v) (fun (s : unit) y x => Ok (s, sym y x))).
  assert (Sh0 : shown g0 tt l sym tt) by (unfold shown; cbn [wg_bit g0]; rewrite ask_pure; reflexivity).
  assert (T0 : steady g0 (showing v sym)) by (split; [reflexivity|]; intros s0 y x; cbn [g_bit showing]; exists s0; reflexivity).
  destruct (steady_raw g0 _ T0 rm tt) as ([] & E0).
  enough (X : exists r, w_get_raw g rm s = lk_lift r s' /\ w_get_raw g0 rm tt = lk_lift r tt).
  { destruct X as (r & E & E'). rewrite E0 in E'. apply lift_inj in E'. subst r. exact E. }
  destruct A as [e mask C|e mask Lo C|Lo].
  - exists (data_from v rm e mask sym). split; apply raw_seen_first; auto.
  - exists (data_from v rm e mask sym). split; apply raw_seen_second; auto.
  - exists (Err FormatEcc). split; apply (raw_seen_nothing _ v Hv H21) with (sym := sym); auto.
Qed.

(** * There is always a picture *)

Definition snapshot (l : list (Z * Z)) (a : list bool) (y x : Z) : bool := match lookup (y, x) (combine l a) with Some b => b | None => false end.

Lemma snapshot_shows l : NoDup l -> forall a, length a = length l -> map (see (snapshot l a)) l = a.
Proof.
  induction l as [|[y x] l IH]; intros N [|b a] L; try discriminate; [reflexivity|]. inversion N as [|? ? Nin N']; subst. injection L as L. cbn [map]. f_equal.
  - unfold see, snapshot. cbn [combine lookup fst snd]. rewrite !Z.eqb_refl. reflexivity.
  - rewrite <- (IH N' a L) at 2. apply map_ext_in. intros [y' x'] Hq. unfold see, snapshot. cbn [combine lookup fst snd].
    destruct ((y' =? y) && (x' =? x)) eqn:E; [|reflexivity]. exfalso. apply Nin. replace (y, x) with (y', x') by (f_equal; lia). exact Hq.
Qed.

Lemma same_word loc sym sym' : map (see sym) (copy_order loc) = map (see sym') (copy_order loc) -> copy_word loc sym = copy_word loc sym'.
Proof. intros E. rewrite <- !seen_word, E. reflexivity. Qed.

Lemma same_says loc sym sym' e mask : map (see sym) (copy_order loc) = map (see sym') (copy_order loc) -> copy_says loc sym e mask -> copy_says loc sym' e mask.
Proof. intros E [H1 H2]. split; [exact H1|]. rewrite <- (same_word _ _ _ E). exact H2. Qed.

Lemma same_lost loc sym sym' : map (see sym) (copy_order loc) = map (see sym') (copy_order loc) -> copy_lost loc sym -> copy_lost loc sym'.
Proof. intros E L e mask C. apply (L e mask). apply (same_says loc sym'); [symmetry; exact E|exact C]. Qed.

Lemma first_in v q : 1 <= v -> In q (copy_order format_module_1) -> inside v q /\ function_module v (fst q) (snd q) = true.
Proof.
  intros Hv. unfold copy_order. cbn [rev seq app map]. cbn [format_module_1 nth]. intros H. unfold inside, function_module, format_module, in_rect, symbol_size.
  repeat (destruct H as [<-|H]; [cbn [fst snd]; lia|]). destruct H.
Qed.

Lemma second_in v q : 1 <= v -> In q (copy_order (format_module_2 (symbol_size v))) -> inside v q /\ function_module v (fst q) (snd q) = true.
Proof.
  intros Hv. unfold copy_order. cbn [rev seq app map format_module_2 Nat.ltb Nat.leb]. intros H. unfold inside, function_module, format_module, in_rect, symbol_size in *.
  repeat (destruct H as [<-|H]; [cbn [fst snd]; lia|]). destruct H.
Qed.

Lemma copies_once v : 1 <= v -> NoDup (copy_order format_module_1 ++ copy_order (format_module_2 (symbol_size v))).
Proof.
  intros Hv. unfold copy_order. cbn [rev seq app map]. cbn [format_module_1 nth format_module_2 Nat.ltb Nat.leb]. unfold symbol_size.
  repeat (constructor; [cbn [In]; intros H; repeat (destruct H as [H|H]; [apply pair_equal_spec in H; lia|]); exact H|]). constructor.
Qed.

Lemma all_once v : 1 <= v <= 40 -> NoDup (copy_order format_module_1 ++ copy_order (format_module_2 (symbol_size v)) ++ data_modules v).
Proof.
  intros Hv. rewrite app_assoc. pose proof (copies_once v ltac:(lia)) as N1. pose proof (data_modules_NoDup v) as N2.
  assert (D : forall q, In q (copy_order format_module_1 ++ copy_order (format_module_2 (symbol_size v))) -> ~ In q (data_modules v)).
  { intros [y x] Hq Hd. apply data_modules_iff in Hd; [|exact Hv]. apply in_app_or in Hq as [Hq|Hq]; [apply (first_in v) in Hq|apply (second_in v) in Hq]; try lia; destruct Hq as [_ Hq]; cbn [fst snd] in Hq; destruct Hd as (_ & _ & Hd); congruence. }
  revert N1 D. generalize (copy_order format_module_1 ++ copy_order (format_module_2 (symbol_size v))). induction l as [|q l IH]; intros N1 D; [exact N2|]. inversion N1; subst. cbn [app]. constructor.
  - intros H. apply in_app_or in H as [H|H]; [contradiction|]. apply (D q); [left; reflexivity|exact H].
  - apply IH; [assumption|]. intros q' Hq. apply D. right. exact Hq.
Qed.

Lemma once_parts A (a b c : list A) : NoDup (a ++ b ++ c) -> NoDup (a ++ c) /\ NoDup (a ++ b).
Proof.
  intros N. split.
  - induction a as [|x a IH]; cbn [app] in *.
    + induction b as [|y b IH]; [exact N|]. apply IH. inversion N; assumption.
    + inversion N as [|? ? Hn N']; subst. constructor; [|exact (IH N')]. intros H. apply Hn. apply in_app_or in H. apply in_or_app. destruct H; [left|right; apply in_or_app; right]; assumption.
  - rewrite app_assoc in N. clear - N. induction (a ++ b) as [|x l IH]; [constructor|]. cbn [app] in N. inversion N as [|? ? Hn N']; subst. constructor; [|exact (IH N')]. intros H. apply Hn. apply in_or_app. left. exact H.
Qed.

Theorem asked_inside v sym l : 1 <= v <= 40 -> asked_for v sym l -> NoDup l /\ Forall (inside v) l.
Proof.
  intros Hv A. destruct (once_parts _ _ _ _ (all_once v Hv)) as [N1 N2].
  assert (F1 : Forall (inside v) (copy_order format_module_1)) by (apply Forall_forall; intros q Hq; apply (first_in v q ltac:(lia) Hq)).
  assert (F2 : Forall (inside v) (copy_order (format_module_2 (symbol_size v)))) by (apply Forall_forall; intros q Hq; apply (second_in v q ltac:(lia) Hq)).
  assert (F3 : Forall (inside v) (data_modules v)) by (apply Forall_forall; intros [y x] Hq; apply data_modules_iff in Hq; [|exact Hv]; unfold inside; cbn [fst snd]; lia).
  destruct A; (split; [first [exact N1|exact N2|exact (all_once v Hv)]|]); rewrite ?Forall_app; auto.
Qed.

Lemma ends_lift S (g : WatchedGrid S) s l : (exists s' a, ask (wg_bit g) s l = Ok (s', a)) \/ ask (wg_bit g) s l = Panic \/ ask (wg_bit g) s l = Diverge.
Proof. destruct (ask (wg_bit g) s l) as [[s' a]|[]| |]; eauto. Qed.

Section Picture.
Context {S : Type} (g : WatchedGrid S) (v : Z) (Hv : 1 <= v <= 40) (H21 : v <> 21) (Hg : wg_size g = symbol_size v).

(** Asking on after an answered beginning: the data modules. *)
Lemma data_ends rm e mask s : 0 <= mask < 8 -> ask (wg_bit g) s (data_modules v) = Panic \/ ask (wg_bit g) s (data_modules v) = Diverge ->
  forall B (k : S * (RawData + deqr_error) -> out B),
  (ask (wg_bit g) s (data_modules v) = Panic /\ bind (w_read_data g (mkMeta v (level_bits e) mask) rm s) k = Panic) \/ (ask (wg_bit g) s (data_modules v) = Diverge /\ bind (w_read_data g (mkMeta v (level_bits e) mask) rm s) k = Diverge).
Proof using S g Hv H21 Hg.
  intros Hm D B k. rewrite w_data_ask by (cbn [md_version md_mask]; unfold symbol_size in *; lia). cbn [md_version]. rewrite Hg, scan_data_modules by assumption. unfold out in *.
  destruct D as [D|D]; rewrite D; [left|right]; split; reflexivity.
Qed.

Theorem raw_looks rm s : (exists sym l s', asked_for v sym l /\ shown g s l sym s') \/ (exists l, NoDup l /\ Forall (inside v) l /\ call_ends g s l (w_get_raw g rm s)).
Proof using S g Hv H21 Hg.
  set (c1 := copy_order format_module_1). set (c2 := copy_order (format_module_2 (symbol_size v))). pose proof (all_once v Hv) as N. fold c1 c2 in N. destruct (once_parts _ _ _ _ N) as [Nd Nc].
  assert (N1 : NoDup c1) by (revert Nc; clear; generalize c1; intros l; induction l as [|x l IH]; intros N; [constructor|]; cbn [app] in N; inversion N as [|? ? Hn N']; subst; constructor; [intros H; apply Hn, in_or_app; left; exact H|exact (IH N')]).
  assert (F1 : Forall (inside v) c1) by (apply Forall_forall; intros q Hq; apply (first_in v q ltac:(lia) Hq)).
  assert (F2 : Forall (inside v) c2) by (apply Forall_forall; intros q Hq; apply (second_in v q ltac:(lia) Hq)).
  assert (F3 : Forall (inside v) (data_modules v)) by (apply Forall_forall; intros [y x] Hq; apply data_modules_iff in Hq; [|exact Hv]; unfold inside; cbn [fst snd]; lia).
  destruct (ends_lift S g s c1) as [(s1 & a1 & E1)|D].
  2:{ right. exists c1. split; [exact N1|]. split; [exact F1|]. unfold call_ends, w_get_raw, w_read_format, lk_bind. rewrite first_ask. fold c1. unfold out in *. destruct D as [D|D]; rewrite D; [left|right]; split; reflexivity. }
  pose proof (ask_length _ _ _ _ _ _ _ E1) as L1. set (sym1 := snapshot c1 a1). assert (W1 : a1 = map (see sym1) c1) by (symmetry; apply snapshot_shows; assumption).
  assert (Sh1 : forall sym, map (see sym) c1 = a1 -> shown g s c1 sym s1) by (intros sym Es; unfold shown; rewrite Es; exact E1).
  destruct (correct_copy format_module_1 sym1) as [(e & mask & C & Ec)|[Lo Ec]].
  - (* the first copy says something *)
    destruct (ends_lift S g s1 (data_modules v)) as [(s2 & a2 & E2)|D].
    + left. pose proof (ask_length _ _ _ _ _ _ _ E2) as L2. set (sym := snapshot (c1 ++ data_modules v) (a1 ++ a2)).
      assert (Es : map (see sym) (c1 ++ data_modules v) = a1 ++ a2) by (apply snapshot_shows; [exact Nd|rewrite !app_length; lia]).
      rewrite map_app in Es. apply app_inj_1 in Es; [|rewrite map_length; auto]. destruct Es as [Es1 Es2].
      exists sym, (c1 ++ data_modules v), s2. split; [apply (asked_first v sym e mask); apply (same_says _ sym1); [fold c1; congruence|exact C]|].
      apply shown_app. exists s1. split; [exact (Sh1 sym Es1)|]. unfold shown. rewrite Es2. exact E2.
    + right. exists (c1 ++ data_modules v). split; [exact Nd|]. split; [apply Forall_app; auto|]. unfold call_ends. rewrite ask_app.
      assert (R : w_get_raw g rm s = bind (w_read_data g (mkMeta v (level_bits e) mask) rm s1) (fun t => match snd t with inl a => lk_ret (mkMeta v (level_bits e) mask, a) (fst t) | inr x => Ok (fst t, inr x) end)).
      { unfold w_get_raw, w_read_format, lk_bind. rewrite first_ask. fold c1. unfold out in *. rewrite E1. cbn [bind fst snd]. rewrite W1. unfold c1. rewrite seen_word, Ec. cbn [lk_lift bind fst snd].
        rewrite Hg, (size_version g v Hv H21 Hg). cbn [lk_lift lk_ret bind fst snd]. destruct (format_fields e mask (proj1 C)) as [-> -> ]. reflexivity. }
      unfold out in *. rewrite R, E1. cbn [bind fst snd].
      destruct (data_ends rm e mask s1 (proj1 C) D _ (fun t => match snd t with inl a => lk_ret (mkMeta v (level_bits e) mask, a) (fst t) | inr x => Ok (fst t, inr x) end)) as [[Da Db]|[Da Db]]; [left|right]; (split; [unfold out in *; rewrite Da; reflexivity|exact Db]).
  - destruct (ends_lift S g s1 c2) as [(s2 & a2 & E2)|D].
    2:{ right. exists (c1 ++ c2). split; [exact Nc|]. split; [apply Forall_app; auto|]. unfold call_ends. rewrite ask_app.
        assert (R : exists k, w_get_raw g rm s = bind (ask (wg_bit g) s1 c2) k).
        { eexists (fun t => _). unfold w_get_raw, w_read_format, lk_bind. rewrite first_ask. fold c1. unfold out in *. rewrite E1. cbn [bind fst snd]. rewrite W1. unfold c1. rewrite seen_word, Ec.
          rewrite second_ask by (rewrite Hg; unfold symbol_size; lia). rewrite Hg. fold c2. unfold out in *. rewrite !bind_assoc. reflexivity. }
        destruct R as (k & R). unfold out in *. rewrite R, E1. cbn [bind fst snd]. destruct D as [D|D]; rewrite D; [left|right]; split; reflexivity. }
    pose proof (ask_length _ _ _ _ _ _ _ E2) as L2. set (sym2 := snapshot (c1 ++ c2) (a1 ++ a2)).
    assert (Es : map (see sym2) (c1 ++ c2) = a1 ++ a2) by (apply snapshot_shows; [exact Nc|rewrite !app_length; lia]).
    rewrite map_app in Es. apply app_inj_1 in Es; [|rewrite map_length; auto]. destruct Es as [Es1 Es2].
    assert (Lo2 : copy_lost format_module_1 sym2) by (apply (same_lost _ sym1); [fold c1; congruence|exact Lo]).
    destruct (correct_copy (format_module_2 (symbol_size v)) sym2) as [(e & mask & C & Ec2)|[Lo' Ec2]].
    + destruct (ends_lift S g s2 (data_modules v)) as [(s3 & a3 & E3)|D].
      * left. pose proof (ask_length _ _ _ _ _ _ _ E3) as L3. set (sym := snapshot (c1 ++ c2 ++ data_modules v) (a1 ++ a2 ++ a3)).
        assert (Et : map (see sym) (c1 ++ c2 ++ data_modules v) = a1 ++ a2 ++ a3) by (apply snapshot_shows; [exact N|rewrite !app_length; lia]).
        rewrite !map_app in Et. apply app_inj_1 in Et; [|rewrite map_length; auto]. destruct Et as [Et1 Et2]. apply app_inj_1 in Et2; [|rewrite map_length; auto]. destruct Et2 as [Et2 Et3].
        exists sym, (c1 ++ c2 ++ data_modules v), s3. split.
        { apply (asked_second v sym e mask); [apply (same_lost _ sym2); [fold c1; congruence|exact Lo2]|apply (same_says _ sym2); [fold c2; congruence|exact C]]. }
        apply shown_app. exists s1. split; [exact (Sh1 sym Et1)|]. apply shown_app. exists s2. unfold shown. rewrite Et2, Et3. split; assumption.
      * right. exists (c1 ++ c2 ++ data_modules v). split; [exact N|]. split; [rewrite !Forall_app; auto|]. unfold call_ends. rewrite !ask_app.
        assert (R : w_get_raw g rm s = bind (w_read_data g (mkMeta v (level_bits e) mask) rm s2) (fun t => match snd t with inl a => lk_ret (mkMeta v (level_bits e) mask, a) (fst t) | inr x => Ok (fst t, inr x) end)).
        { unfold w_get_raw, w_read_format, lk_bind. rewrite first_ask. fold c1. unfold out in *. rewrite E1. cbn [bind fst snd]. rewrite W1. unfold c1. rewrite seen_word, Ec. rewrite second_ask by (rewrite Hg; unfold symbol_size; lia).
          rewrite Hg. fold c2. unfold out in *. rewrite E2. cbn [bind fst snd]. rewrite <- Es2. unfold c2. rewrite seen_word, Ec2. cbn [lk_lift bind fst snd].
          rewrite (size_version g v Hv H21 Hg). cbn [lk_lift lk_ret bind fst snd]. destruct (format_fields e mask (proj1 C)) as [-> -> ]. reflexivity. }
        unfold out in *. rewrite R, E1. cbn [bind fst snd]. rewrite ask_app. unfold out in *. rewrite E2. cbn [bind fst snd].
        destruct (data_ends rm e mask s2 (proj1 C) D _ (fun t => match snd t with inl a => lk_ret (mkMeta v (level_bits e) mask, a) (fst t) | inr x => Ok (fst t, inr x) end)) as [[Da Db]|[Da Db]]; [left|right]; (split; [unfold out in *; rewrite Da; reflexivity|exact Db]).
    + left. exists sym2, (c1 ++ c2), s2. split; [apply asked_nothing; split; assumption|]. apply shown_app. exists s1. split; [exact (Sh1 sym2 Es1)|]. unfold shown. rewrite Es2. exact E2.
Qed.
End Picture.

(** * Decoding *)

Lemma ask_mirrored S (g : WatchedGrid S) l : forall s, ask (wg_bit (w_mirrored g)) s l = ask (wg_bit g) s (map swap l).
Proof. induction l as [|[y x] l IH]; intros s; [reflexivity|]. cbn [map ask swap fst snd w_mirrored wg_bit]. destruct (wg_bit g s x y) as [[s1 b]|[]| |]; cbn [bind fst snd]; try reflexivity. change (wg_bit (MkWatched (wg_size g) _)) with (wg_bit (w_mirrored g)). rewrite IH. reflexivity. Qed.

Theorem inner_seen S (g : WatchedGrid S) v sym l s s' : 1 <= v <= 40 -> v <> 21 -> wg_size g = symbol_size v ->
  asked_for v sym l -> shown g s l sym s' -> w_decode_inner g s = lk_lift (decode_inner (showing v sym)) s'.
Proof.
  intros Hv H21 Hg A Sh. unfold w_decode_inner, decode_inner, lk_bind at 1. rewrite (raw_seen S g v true sym l s s' Hv H21 Hg A Sh).
  destruct (get_raw (showing v sym) true) as [[meta raw]|e| |]; cbn [lk_lift bind fst snd]; try reflexivity. unfold lk_bind. destruct (codestream_ecc meta raw); reflexivity.
Qed.

Lemma inner_looks S (g : WatchedGrid S) v s : 1 <= v <= 40 -> v <> 21 -> wg_size g = symbol_size v ->
  (exists sym l s', asked_for v sym l /\ shown g s l sym s') \/ (exists l, NoDup l /\ Forall (inside v) l /\ call_ends g s l (w_decode_inner g s)).
Proof.
  intros Hv H21 Hg. destruct (raw_looks g v Hv H21 Hg true s) as [H|(l & N & F & D)]; [left; exact H|right]. exists l. split; [exact N|]. split; [exact F|].
  unfold call_ends, w_decode_inner, lk_bind. destruct D as [[D1 D2]|[D1 D2]]; unfold out in *; rewrite D1, D2; [left|right]; split; reflexivity.
Qed.

Lemma showing_inner v sym : 1 <= v -> (exists x, decode_inner (showing v sym) = Ok x) \/ exists e, decode_inner (showing v sym) = Err e.
Proof.
  intros Hv. destruct (decode_inner_cases (showing v sym) sym) as [(m & ds & bs & _ & E & _)|(x & _ & E)]; eauto; [intros y x _ _; reflexivity|]. cbn [g_size showing]. unfold symbol_size. lia.
Qed.

Theorem decode_looks S W (wr : W -> list Z -> W * bool) v (g : WatchedGrid S) s w : 1 <= v <= 40 -> v <> 21 -> wg_size g = symbol_size v ->
  (exists sym l s', asked_for v sym l /\ shown g s l sym s' /\ (exists x, decode_inner (showing v sym) = Ok x)
     /\ w_decode_to wr g s w = lk_lift (snd (grid_decode_to wr (showing v sym) w)) (s', fst (grid_decode_to wr (showing v sym) w)))
  \/ (exists sym l s' sym2 l2 s'' e, asked_for v sym l /\ shown g s l sym s' /\ decode_inner (showing v sym) = Err e /\ asked_for v sym2 l2 /\ shown (w_mirrored g) s' l2 sym2 s''
     /\ (((exists x, decode_inner (showing v sym2) = Ok x) /\ w_decode_to wr g s w = lk_lift (snd (grid_decode_to wr (showing v sym2) w)) (s'', fst (grid_decode_to wr (showing v sym2) w)))
         \/ ((exists e2, decode_inner (showing v sym2) = Err e2) /\ w_decode_to wr g s w = Ok (s'', w, inr e))))
  \/ (exists l l2, NoDup l /\ NoDup l2 /\ Forall (inside v) (l ++ l2) /\ call_ends g s (l ++ l2) (w_decode_to wr g s w)).
Proof.
  intros Hv H21 Hg. pose proof (inner_looks S g v s Hv H21 Hg) as [(sym & l & s' & A & Sh)|(l & N & F & D)].
  2:{ right. right. exists l, []. rewrite app_nil_r. split; [exact N|]. split; [constructor|]. split; [exact F|]. unfold call_ends, w_decode_to, w_decode. destruct D as [[D1 D2]|[D1 D2]]; unfold out in *; rewrite D1, D2; [left|right]; split; reflexivity. }
  pose proof (inner_seen S g v sym l s s' Hv H21 Hg A Sh) as E. destruct (showing_inner v sym ltac:(lia)) as [(x & Ex)|(e & Ee)].
  - left. exists sym, l, s'. split; [exact A|]. split; [exact Sh|]. split; [eauto|]. unfold w_decode_to, w_decode, grid_decode_to, decode. rewrite E, Ex. cbn [lk_lift bind fst snd]. destruct x as [meta stream].
    unfold io_bind at 2 4, io_lift. destruct (io_bind (decode_payload wr meta stream) (fun _ => io_ret meta) w); reflexivity.
  - right. rewrite Ee in E. cbn [lk_lift] in E. pose proof (inner_looks S (w_mirrored g) v s' Hv H21 Hg) as [(sym2 & l2 & s'' & A2 & Sh2)|(l2 & N2 & F2 & D)].
    + left. exists sym, l, s', sym2, l2, s'', e. do 5 (split; [assumption|]). pose proof (inner_seen S (w_mirrored g) v sym2 l2 s' s'' Hv H21 Hg A2 Sh2) as E2.
      destruct (showing_inner v sym2 ltac:(lia)) as [(x & Ex)|(e2 & Ee2)]; [left|right]; (split; [eauto|]).
      * unfold w_decode_to, w_decode, grid_decode_to, decode. rewrite E. cbn [bind fst snd]. unfold out in *. rewrite E2, Ex. cbn [lk_lift bind fst snd]. destruct x as [meta stream].
        unfold io_bind at 2 4, io_lift. destruct (io_bind (decode_payload wr meta stream) (fun _ => io_ret meta) w); reflexivity.
      * unfold w_decode_to, w_decode. rewrite E. cbn [bind fst snd]. unfold out in *. rewrite E2, Ee2. reflexivity.
    + right. destruct (asked_inside v sym l Hv A) as [N F]. exists l, (map swap l2). split; [exact N|]. split.
      { apply FinFun.Injective_map_NoDup; [|exact N2]. intros [a b] [a' b'] Ep. unfold swap in Ep. cbn [fst snd] in Ep. congruence. }
      split; [apply Forall_app; split; [exact F|]; apply Forall_map; eapply Forall_impl; [|exact F2]; intros q Hq; unfold inside, swap in *; cbn [fst snd]; tauto|].
      unfold call_ends in *. rewrite ask_app, ask_mirrored in *. unfold shown in Sh. unfold w_decode_to, w_decode. unfold out in *. rewrite Sh, E. cbn [bind fst snd].
      destruct D as [[D1 D2]|[D1 D2]]; rewrite D1, D2; [left|right]; split; reflexivity.
Qed.

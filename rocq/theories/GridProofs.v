(** What decoding does on every readable grid, whatever its size and content; writers; mirroring;
    bitmap grids; UTF-8. *)
From Verif Require Import Base Lib VersionDb ModelGF ModelRS ModelDecode SpecQR SpecPayload StreamProofs
  PayloadProofs MessageProofs FormatProofs LayoutProofs EccDb EccProofs EccStream EndToEnd.
From Coq Require Import ZifyBool ZifyNat ZifyN.
Ltac Zify.zify_post_hook ::= Z.div_mod_to_equations.
Open Scope Z_scope.
Set Bullet Behavior "Strict Subproofs".

(** * Versions and sizes *)
Lemma version_from_size_ok b v : version_from_size b = Ok v <-> 1 <= v <= 40 /\ 17 + 4 * v <= b < 21 + 4 * v.
Proof.
  unfold version_from_size. cbn zeta.
  destruct ((0 <? Z.max 0 (b - 17) / 4) && (Z.max 0 (b - 17) / 4 <=? 40)) eqn:E.
  - split; [intros [= <-]; lia|]. intros H. f_equal. lia.
  - split; [discriminate|]. intros H. lia.
Qed.

Lemma version_from_size_err b : version_from_size b = Err InvalidVersion <-> ~ 21 <= b <= 180.
Proof.
  unfold version_from_size. cbn zeta.
  destruct ((0 <? Z.max 0 (b - 17) / 4) && (Z.max 0 (b - 17) / 4 <=? 40)) eqn:E.
  - split; [discriminate|lia].
  - split; [lia|reflexivity].
Qed.

Lemma version_roundtrip v : 1 <= v <= 40 -> version_from_size (version_to_size v) = Ok v.
Proof. intros H. apply version_from_size_ok. unfold version_to_size. lia. Qed.

Lemma version_least v b : 1 <= v <= 40 -> (version_from_size b = Ok v <-> version_to_size v <= b <= version_to_size v + 3).
Proof. intros H. rewrite version_from_size_ok. unfold version_to_size. lia. Qed.

Lemma version_monotone b b' v v' : version_from_size b = Ok v -> version_from_size b' = Ok v' -> b <= b' -> v <= v'.
Proof. rewrite !version_from_size_ok. lia. Qed.

(** * Reading a grid *)

(** [bit] is defined on all in-range coordinates. *)
Definition total_grid (g : BitGrid) : Prop :=
  forall y x, 0 <= y < g_size g -> 0 <= x < g_size g -> exists b, g_bit g y x = Ok b.

Lemma total_readable g : total_grid g -> readable g (fun y x => match g_bit g y x with Ok b => b | _ => false end).
Proof. intros H y x Hy Hx. destruct (H y x Hy Hx) as [b ->]. reflexivity. Qed.

Lemma total_mirror g : total_grid g -> total_grid (MirroredGrid g).
Proof. intros H y x Hy Hx. cbn in *. apply H; assumption. Qed.

Lemma readable_mirror g sym : readable g sym -> readable (MirroredGrid g) (fun y x => sym x y).
Proof. intros H y x Hy Hx. cbn in *. apply H; assumption. Qed.

Definition meta_ok (g : BitGrid) (meta : MetaData) : Prop :=
  1 <= md_version meta <= 40 /\ 17 + 4 * md_version meta <= g_size g < 21 + 4 * md_version meta /\
  0 <= md_ecc_level meta < 4 /\ 0 <= md_mask meta < 8.

Lemma level_bits_range e : 0 <= level_bits e < 4.
Proof. destruct e; cbn; lia. Qed.

Lemma read_format_cases g sym : readable g sym -> 9 <= g_size g ->
  (exists meta e, meta_ok g meta /\ md_ecc_level meta = level_bits e /\ read_format g = Ok meta)
  \/ exists x, read_format g = Err x /\ (x = FormatEcc \/ x = InvalidVersion).
Proof.
  intros Hr Hs. destruct (read_format_returns g sym Hr Hs) as [(v & e & mask & Hv & Hm & E)|[E|E]].
  - left. exists (mkMeta v (level_bits e) mask), e. pose proof (level_bits_range e).
    apply version_from_size_ok in Hv. unfold meta_ok. cbn [md_version md_ecc_level md_mask].
    split; [lia|]. split; [reflexivity|exact E].
  - right. eauto.
  - right. eauto.
Qed.

Theorem get_raw_cases g sym : readable g sym -> 9 <= g_size g ->
  (exists meta e cells, meta_ok g meta /\ md_ecc_level meta = level_bits e /\
     cells = unreserved (md_version meta) (scan (g_size g)) /\
     forall rm, exists rd, get_raw g rm = Ok (meta, rd) /\ raw_holds rd (map (cell_bit rm (md_mask meta) sym) cells))
  \/ exists x, (x = FormatEcc \/ x = InvalidVersion) /\ forall rm, get_raw g rm = Err x.
Proof.
  intros Hr Hs. destruct (read_format_cases g sym Hr Hs) as [(meta & e & Hm & He & E)|(x & E & Hx)].
  - left. exists meta, e, (unreserved (md_version meta) (scan (g_size g))).
    split; [exact Hm|]. split; [exact He|]. split; [reflexivity|]. intros rm.
    destruct Hm as (H1 & H2 & H3 & H4).
    destruct (read_data_ok g sym meta rm Hr ltac:(lia) ltac:(lia) H4) as (rd & Erd & Hrd).
    exists rd. split; [|exact Hrd]. unfold get_raw. rewrite E. cbn [bind]. rewrite Erd. reflexivity.
  - right. exists x. split; [exact Hx|]. intros rm. unfold get_raw. rewrite E. reflexivity.
Qed.

Theorem decode_inner_cases g sym : readable g sym -> 9 <= g_size g ->
  (exists meta ds bs, meta_ok g meta /\ decode_inner g = Ok (meta, ds) /\ at_bits ds bs)
  \/ exists x, (x = FormatEcc \/ x = InvalidVersion \/ x = DataEcc) /\ decode_inner g = Err x.
Proof.
  intros Hr Hs. unfold decode_inner.
  destruct (get_raw_cases g sym Hr Hs) as [(meta & e & cells & Hm & He & _ & H)|(x & Hx & H)].
  2:{ right. exists x. split; [tauto|]. rewrite H. reflexivity. }
  destruct (H true) as ([raw len] & -> & Hlen & Hl & Hb & _). cbn [bind rd_data rd_len] in *.
  destruct (db_params (md_version meta) e) as (ver & p & P); [apply Hm|].
  destruct (codestream_spec _ _ _ _ P raw Hl Hb meta len eq_refl He) as [(c & ds & _ & E & Hat)|(_ & E)]; rewrite E; cbn [bind].
  - left. eauto 6.
  - right. eauto 6.
Qed.

(** * Decoding *)

(** Outcome of decoding, independent of the writer: the chunks written and the result. *)
Definition decodes (g : BitGrid) (chunks : list (list Z)) (r : res deqr_error MetaData) : Prop :=
  forall W (wr : W -> list Z -> W * bool) w, grid_decode_to wr g w = feed wr chunks r w.

Definition outcome_ok (g : BitGrid) (r : res deqr_error MetaData) : Prop :=
  match r with
  | Ok meta => meta_ok g meta
  | Err x => x = FormatEcc \/ x = InvalidVersion \/ x = DataEcc \/ x = DataUnderflow \/ x = UnknownDataType
  | Panic | Diverge => False
  end.

Theorem decode_cases g : total_grid g -> 9 <= g_size g ->
  exists chunks r, decodes g chunks r /\ outcome_ok g r.
Proof.
  intros Ht Hs. pose proof (total_readable g Ht) as Hr.
  destruct (decode_inner_cases g _ Hr Hs) as [(meta & ds & bs & Hm & E & Hat)|(x & Hx & E)].
  - destruct (decode_stream g meta ds bs (or_introl E) Hat) as (chunks & Hc & Hd).
    do 2 eexists. split; [exact Hd|].
    destruct (snd (ref_decode (md_version meta) bs)); cbn; tauto.
  - destruct (decode_inner_cases (MirroredGrid g) _ (total_readable _ (total_mirror g Ht)) Hs)
      as [(meta & ds & bs & Hm & E' & Hat)|(x' & Hx' & E')].
    + destruct (decode_stream g meta ds bs (or_intror (conj (ex_intro _ x E) E')) Hat) as (chunks & Hc & Hd).
      do 2 eexists. split; [exact Hd|].
      destruct (snd (ref_decode (md_version meta) bs)); cbn; try tauto.
    + exists [], (Err x). split.
      * intros W wr w. unfold grid_decode_to, decode. rewrite E, E'. reflexivity.
      * cbn. tauto.
Qed.

Lemma feed_returns {W} (wr : W -> list Z -> W * bool) chunks (r : res deqr_error MetaData) w :
  returns r -> returns (snd (feed wr chunks r w)).
Proof.
  intros Hr. revert w. induction chunks as [|c chunks IH]; intros w; cbn [feed snd]; [exact Hr|].
  destruct (wr w c) as [w' [|]]; [apply IH|exact I].
Qed.

Theorem decode_to_returns g : total_grid g -> 9 <= g_size g ->
  forall W (wr : W -> list Z -> W * bool) w, returns (snd (grid_decode_to wr g w)).
Proof.
  intros Ht Hs W wr w. destruct (decode_cases g Ht Hs) as (chunks & r & Hd & Hr).
  rewrite Hd. apply feed_returns. destruct r; cbn in *; tauto.
Qed.

Theorem decode_returns g : total_grid g -> 9 <= g_size g -> returns (grid_decode g).
Proof.
  intros Ht Hs. pose proof (decode_to_returns g Ht Hs _ vec_writer []) as H. unfold grid_decode.
  destruct (grid_decode_to vec_writer g []) as [out [a|x| |]]; cbn in *; try exact H.
  destruct (utf8_valid out); exact I.
Qed.

Theorem raw_returns g : total_grid g -> 9 <= g_size g -> returns (grid_get_raw_data g).
Proof.
  intros Ht Hs. unfold grid_get_raw_data.
  destruct (get_raw_cases g _ (total_readable g Ht) Hs) as [(meta & e & cells & _ & _ & _ & H)|(x & _ & H)].
  - destruct (H false) as (rd & -> & _). exact I.
  - rewrite H. exact I.
Qed.

Lemma feed_ok {W} (wr : W -> list Z -> W * bool) chunks (r : res deqr_error MetaData) w meta :
  snd (feed wr chunks r w) = Ok meta -> r = Ok meta.
Proof.
  revert w. induction chunks as [|c chunks IH]; intros w; cbn [feed snd]; [auto|].
  destruct (wr w c) as [w' [|]]; [apply IH|discriminate].
Qed.

Theorem decode_meta_ok g : total_grid g -> 9 <= g_size g ->
  forall W (wr : W -> list Z -> W * bool) w w' meta, grid_decode_to wr g w = (w', Ok meta) -> meta_ok g meta.
Proof.
  intros Ht Hs W wr w w' meta E. destruct (decode_cases g Ht Hs) as (chunks & r & Hd & Hr).
  rewrite Hd in E. pose proof (f_equal snd E) as E'. apply feed_ok in E'. subst r. exact Hr.
Qed.

Theorem raw_meta_ok g : total_grid g -> 9 <= g_size g -> forall meta rd, grid_get_raw_data g = Ok (meta, rd) ->
  meta_ok g meta.
Proof.
  intros Ht Hs meta rd. unfold grid_get_raw_data.
  destruct (get_raw_cases g _ (total_readable g Ht) Hs) as [(m & e & cells & Hm & _ & _ & H)|(x & _ & H)].
  - destruct (H false) as (rd' & -> & _). intros [= <- _]. exact Hm.
  - rewrite H. discriminate.
Qed.

(** * Writers *)

(** [accepts wr w cs w']: the writer takes all of [cs], one [write_all] each, ending in [w']. *)
Inductive accepts {W} (wr : W -> list Z -> W * bool) : W -> list (list Z) -> W -> Prop :=
| accepts_nil w : accepts wr w [] w
| accepts_cons w c w1 cs w' : wr w c = (w1, true) -> accepts wr w1 cs w' -> accepts wr w (c :: cs) w'.

Lemma feed_cases {W A} (wr : W -> list Z -> W * bool) chunks (r : res deqr_error A) : forall w,
  (exists w', accepts wr w chunks w' /\ feed wr chunks r w = (w', r)) \/
  (exists done c rest w1 w2, chunks = done ++ c :: rest /\ accepts wr w done w1 /\ wr w1 c = (w2, false)
     /\ feed wr chunks r w = (w2, Err IoError)).
Proof.
  induction chunks as [|c chunks IH]; intros w; cbn [feed].
  - left. exists w. split; [constructor|reflexivity].
  - destruct (wr w c) as [w1 [|]] eqn:E.
    + destruct (IH w1) as [(w' & Ha & Ef)|(done & c' & rest & w2 & w3 & -> & Ha & Ew & Ef)].
      * left. exists w'. split; [econstructor; eassumption|exact Ef].
      * right. exists (c :: done), c', rest, w2, w3. repeat split; [econstructor; eassumption|exact Ew|exact Ef].
    + right. exists [], c, chunks, w, w1. repeat split; [constructor|exact E].
Qed.

Theorem decode_writers g : total_grid g -> 9 <= g_size g -> exists chunks r, returns r /\
  forall W (wr : W -> list Z -> W * bool) w,
    (exists w', accepts wr w chunks w' /\ grid_decode_to wr g w = (w', r)) \/
    (exists done c rest w1 w2, chunks = done ++ c :: rest /\ accepts wr w done w1 /\ wr w1 c = (w2, false)
       /\ grid_decode_to wr g w = (w2, Err IoError)).
Proof.
  intros Ht Hs. destruct (decode_cases g Ht Hs) as (chunks & r & Hd & Hr).
  exists chunks, r. split; [destruct r; cbn in *; tauto|]. intros W wr w. rewrite Hd. apply feed_cases.
Qed.

(** * Mirroring *)

(** Reading (format, modules, error correction) as far as the payload. *)
Theorem decode_mirrored code :
  (forall x, decode_inner code = Err x ->
     (forall s, decode_inner (MirroredGrid code) = Ok s ->
        forall W (wr : W -> list Z -> W * bool) w, decode wr code w = decode wr (MirroredGrid code) w) /\
     (forall x', decode_inner (MirroredGrid code) = Err x' ->
        forall W (wr : W -> list Z -> W * bool) w, decode wr code w = (w, Err x))) /\
  (forall meta ds, decode_inner code = Ok (meta, ds) ->
     forall W (wr : W -> list Z -> W * bool) w,
       decode wr code w = (do* _ := decode_payload wr meta ds in io_ret meta) w).
Proof.
  split.
  - intros x E. split.
    + intros s E' W wr w. unfold decode. rewrite E, E'. reflexivity.
    + intros x' E' W wr w. unfold decode. rewrite E, E'. reflexivity.
  - intros meta ds E W wr w. unfold decode. rewrite E. reflexivity.
Qed.

(** * Bitmap grids *)
Definition bitmap_bit (bm : list Z) (k : Z) : bool := Z.testbit (nth (Z.to_nat (k / 8)) bm 0) (k mod 8).

Lemma shiftr3 c : Z.shiftr c 3 = c / 8.
Proof. rewrite Z.shiftr_div_pow2 by lia. reflexivity. Qed.
Lemma land7 c : Z.land c 7 = c mod 8.
Proof. change 7 with (Z.ones 3). rewrite Z.land_ones by lia. reflexivity. Qed.

Lemma bit_flag b p : 0 <= p -> negb (Z.land b (Z.shiftl 1 p) =? 0) = Z.testbit b p.
Proof.
  intros Hp. rewrite Z.shiftl_mul_pow2, Z.mul_1_l by exact Hp.
  destruct (Z.testbit b p) eqn:E.
  - apply negb_true_iff, Z.eqb_neq. intros H0.
    assert (T : Z.testbit (Z.land b (2 ^ p)) p = true).
    { rewrite Z.land_spec, E, Z.pow2_bits_true by exact Hp. reflexivity. }
    rewrite H0, Z.bits_0 in T. discriminate.
  - apply negb_false_iff, Z.eqb_eq. apply Z.bits_inj'. intros n Hn. rewrite Z.land_spec, Z.bits_0.
    destruct (Z.eq_dec n p) as [->|Hne]; [rewrite E; reflexivity|].
    rewrite Z.pow2_bits_false by lia. apply andb_false_r.
Qed.

Section Bitmap.
  Variables (size : Z) (f : Z -> Z -> bool).
  Hypothesis Hsize : 0 <= size < 2 ^ 32.

  Definition bm_inv (c : Z) (st : list Z * Z) : Prop :=
    snd st = c /\ length (fst st) = Z.to_nat ((size * size + 7) / 8) /\
    forall k, 0 <= k < 8 * Z.of_nat (length (fst st)) ->
      bitmap_bit (fst st) k = (k <? c) && f (k mod size) (k / size).

  Lemma from_func_spec {E} : exists bm, @simple_from_func E size f = Ok (mkSimple bm size) /\
    length bm = Z.to_nat ((size * size + 7) / 8) /\
    forall y x, 0 <= y < size -> 0 <= x < size -> bitmap_bit bm (y * size + x) = f x y.
  Proof.
    unfold simple_from_func. replace (size * size <? 2 ^ 64) with true by (symmetry; apply Z.ltb_lt; nia). cbn [assert_ bind]. cbn zeta.
    destruct (@zfor_ok E _ (fun y st => bm_inv (y * size) st)
      (fun y st => for_each (zrange 0 size)
           (fun x '(bm, c) =>
              let* bm :=
                if f x y then
                  let* old := aget bm (Z.to_nat (Z.shiftr c 3)) in
                  aset bm (Z.to_nat (Z.shiftr c 3)) (Z.lor old (Z.shiftl 1 (Z.land c 7)))
                else Ok bm in
              Ok (bm, c + 1)) st)
      0 size (repeat 0 (Z.to_nat ((size * size + 7) / 8)), 0)) as ([bm c] & Eb & Hi).
    - lia.
    - split; [reflexivity|]. cbn [fst snd]. rewrite repeat_length. split; [reflexivity|].
      intros k Hk. replace (k <? 0 * size) with false by lia. cbn [andb].
      unfold bitmap_bit. rewrite nth_repeat_lt by lia. apply Z.bits_0.
    - intros y st Hy Hst.
      destruct (@zfor_ok E _ (fun x st => bm_inv (y * size + x) st)
        (fun x '(bm, c) =>
              let* bm :=
                if f x y then
                  let* old := aget bm (Z.to_nat (Z.shiftr c 3)) in
                  aset bm (Z.to_nat (Z.shiftr c 3)) (Z.lor old (Z.shiftl 1 (Z.land c 7)))
                else Ok bm in
              Ok (bm, c + 1)) 0 size st) as (st' & Es & Hs').
      + lia.
      + rewrite Z.add_0_r. exact Hst.
      + intros x [bm c] Hx (Hc & Hl & Hb). cbn [fst snd] in *. subst c.
        assert (Hin : 0 <= y * size + x < size * size) by nia.
        set (c := y * size + x) in *.
        assert (Hd : c mod size = x /\ c / size = y).
        { unfold c. rewrite Z.add_comm. rewrite Z.mod_add, Z.div_add by lia.
          rewrite Z.mod_small, Z.div_small by lia. lia. }
        assert (Hidx : (Z.to_nat (c / 8) < length bm)%nat) by lia.
        rewrite shiftr3, land7. destruct (f x y) eqn:Ef.
        * rewrite (aget_ok _ 0 Hidx). cbn [bind]. rewrite (aset_ok _ _ Hidx). cbn [bind].
          eexists. split; [reflexivity|]. unfold bm_inv. cbn [fst snd]. rewrite length_upd.
          split; [lia|]. split; [exact Hl|]. intros k Hk. unfold bitmap_bit.
          rewrite nth_upd by exact Hidx. destruct (Nat.eqb_spec (Z.to_nat (k / 8)) (Z.to_nat (c / 8))) as [Ek|Ek].
          -- rewrite Z.lor_spec. rewrite Z.shiftl_mul_pow2, Z.mul_1_l by lia.
             specialize (Hb k Hk). unfold bitmap_bit in Hb. rewrite Ek in Hb. rewrite Hb.
             destruct (Z.eq_dec k c) as [->|Hne].
             ++ rewrite Z.pow2_bits_true by lia. rewrite orb_true_r.
                replace (c <? y * size + (x + 1)) with true by lia. destruct Hd as [-> ->]. rewrite Ef. reflexivity.
             ++ rewrite Z.pow2_bits_false by lia. rewrite orb_false_r. f_equal. lia.
          -- specialize (Hb k Hk). unfold bitmap_bit in Hb. rewrite Hb. f_equal.
             assert (k <> c) by (intros ->; congruence). lia.
        * cbn [bind]. eexists. split; [reflexivity|]. unfold bm_inv. cbn [fst snd].
          split; [lia|]. split; [exact Hl|]. intros k Hk. rewrite (Hb k Hk).
          destruct (Z.eq_dec k c) as [->|Hne]; [|f_equal; lia].
          destruct Hd as [-> ->]. rewrite Ef, !andb_false_r. reflexivity.
      + exists st'. split; [exact Es|]. replace ((y + 1) * size) with (y * size + size) by lia. exact Hs'.
    - rewrite Eb. cbn [bind]. exists bm. split; [reflexivity|]. destruct Hi as (_ & Hl & Hb). cbn [fst] in *.
      split; [exact Hl|]. intros y x Hy Hx. assert (Hin : 0 <= y * size + x < size * size) by nia.
      rewrite Hb by lia. replace (y * size + x <? size * size) with true by lia. cbn [andb].
      rewrite Z.add_comm, Z.mod_add, Z.div_add by lia. rewrite Z.mod_small, Z.div_small by lia.
      f_equal; lia.
  Qed.
End Bitmap.

Theorem simple_grid_readable size f : 0 <= size < 2 ^ 32 -> exists g, @simple_from_func deqr_error size f = Ok g /\
  g_size (simple_grid g) = size /\ readable (simple_grid g) (fun y x => f x y).
Proof.
  intros Hs. destruct (@from_func_spec size f Hs deqr_error) as (bm & E & Hl & Hb).
  exists (mkSimple bm size). split; [exact E|]. split; [reflexivity|]. intros y x Hy Hx. cbn [g_size simple_grid sg_size g_bit] in *.
  unfold simple_bit. cbn [sg_bitmap sg_size]. cbn zeta. rewrite shiftr3, land7.
  assert (Hin : 0 <= y * size + x < size * size) by nia.
  rewrite (aget_ok _ 0) by lia. cbn [bind]. f_equal. rewrite bit_flag by lia. apply Hb; assumption.
Qed.

(** From [2 ^ 32] modules on a side the number of modules does not fit. *)
Theorem huge_grid_panics {E} size f : 2 ^ 32 <= size -> @simple_from_func E size f = Panic.
Proof. intros Hs. unfold simple_from_func. replace (size * size <? 2 ^ 64) with false by (symmetry; apply Z.ltb_ge; nia). reflexivity. Qed.

(** Grids below 9 modules: the format read runs off the bitmap. *)
Theorem tiny_grid_panics size f : 0 <= size <= 8 -> exists g, @simple_from_func deqr_error size f = Ok g /\
  forall W (wr : W -> list Z -> W * bool) w, grid_decode_to wr (simple_grid g) w = (w, Panic).
Proof.
  intros Hs. destruct (@from_func_spec size f ltac:(lia) deqr_error) as (bm & E & Hl & _).
  exists (mkSimple bm size). split; [exact E|]. intros W wr w.
  assert (Hf : read_format_first (simple_grid (mkSimple bm size)) = Panic).
  { unfold read_format_first.
    change (rev (range 0 15)) with [14%nat;13%nat;12%nat;11%nat;10%nat;9%nat;8%nat;7%nat;6%nat;5%nat;4%nat;3%nat;2%nat;1%nat;0%nat].
    cbn [for_each]. change (@aget deqr_error Z YS 14) with (@Ok deqr_error Z 8). change (@aget deqr_error Z XS 14) with (@Ok deqr_error Z 0).
    cbn [bind]. cbn [g_bit simple_grid]. unfold simple_bit. cbn [sg_bitmap sg_size]. cbn zeta.
    rewrite shiftr3. rewrite aget_panic; [reflexivity|]. rewrite Hl.
    assert (size * size <= 8 * size) by nia. lia. }
  assert (Hi : decode_inner (simple_grid (mkSimple bm size)) = Panic)
    by (unfold decode_inner, get_raw, read_format; rewrite Hf; reflexivity).
  unfold grid_decode_to, decode. rewrite Hi. reflexivity.
Qed.

(** * UTF-8 *)

(** Unicode scalar values and their UTF-8 form. *)
Definition scalar (c : Z) : Prop := 0 <= c <= 55295 \/ 57344 <= c <= 1114111.
Definition utf8_char (c : Z) : list Z :=
  if c <? 128 then [c]
  else if c <? 2048 then [192 + c / 64; 128 + c mod 64]
  else if c <? 65536 then [224 + c / 4096; 128 + c / 64 mod 64; 128 + c mod 64]
  else [240 + c / 262144; 128 + c / 4096 mod 64; 128 + c / 64 mod 64; 128 + c mod 64].
Definition utf8_text (l : list Z) : Prop := exists cs, Forall scalar cs /\ l = flat_map utf8_char cs.

Lemma utf8_valid_char c l : scalar c -> utf8_valid (utf8_char c ++ l) = utf8_valid l.
Proof.
  intros Hc. unfold utf8_char, scalar in *.
  destruct (c <? 128) eqn:E1; [|destruct (c <? 2048) eqn:E2; [|destruct (c <? 65536) eqn:E3]];
    cbn [app utf8_valid]; unfold in_range.
  - replace ((0 <=? c) && (c <=? 127)) with true by lia. reflexivity.
  - replace ((0 <=? 192 + c / 64) && (192 + c / 64 <=? 127)) with false by lia.
    match goal with |- (if ?b then _ else _) = _ => replace b with true by lia end. reflexivity.
  - replace ((0 <=? 224 + c / 4096) && (224 + c / 4096 <=? 127)) with false by lia.
    replace ((194 <=? 224 + c / 4096) && (224 + c / 4096 <=? 223)) with false by lia. cbn [andb].
    match goal with |- (if ?b then _ else _) = _ => replace b with true by lia end. reflexivity.
  - replace ((0 <=? 240 + c / 262144) && (240 + c / 262144 <=? 127)) with false by lia.
    replace ((194 <=? 240 + c / 262144) && (240 + c / 262144 <=? 223)) with false by lia. cbn [andb].
    match goal with |- (if ?b then _ else _) = _ => replace b with false by lia end.
    match goal with |- (if ?b then _ else _) = _ => replace b with true by lia end. reflexivity.
Qed.

Theorem utf8_valid_iff l : utf8_valid l = true <-> utf8_text l.
Proof.
  split.
  - assert (G : forall n l, (length l <= n)%nat -> utf8_valid l = true -> utf8_text l).
    { induction n as [|n IH]; intros [|b0 l1] Hl H; cbn [length] in Hl; try lia; try (exists []; split; [constructor|reflexivity]).
      assert (Cons : forall c l', scalar c -> b0 :: l1 = utf8_char c ++ l' -> (length l' <= n)%nat -> utf8_valid l' = true -> utf8_text (b0 :: l1)).
      { intros c l' Hc E Hl' Hv. destruct (IH l' Hl' Hv) as (cs & Hcs & ->). exists (c :: cs). split; [constructor; assumption|exact E]. }
      cbn [utf8_valid] in H. unfold in_range in H.
      destruct ((0 <=? b0) && (b0 <=? 127)) eqn:E0.
      { apply (Cons b0 l1); [left; lia| |lia|exact H]. unfold utf8_char. replace (b0 <? 128) with true by lia. reflexivity. }
      destruct l1 as [|b1 l2]; [discriminate|]. cbn [length] in Hl.
      match type of H with (if ?b then _ else _) = _ => destruct b eqn:E1 end.
      { set (c := (b0 - 192) * 64 + (b1 - 128)). apply (Cons c l2); [left; lia| |lia|exact H].
        unfold utf8_char. replace (c <? 128) with false by lia. replace (c <? 2048) with true by lia. cbn [app].
        apply f_equal2; [lia|]. apply f_equal2; [lia|reflexivity]. }
      destruct l2 as [|b2 l3]; [discriminate|]. cbn [length] in Hl.
      match type of H with (if ?b then _ else _) = _ => destruct b eqn:E2 end.
      { set (c := (b0 - 224) * 4096 + (b1 - 128) * 64 + (b2 - 128)).
        apply (Cons c l3); [unfold scalar; lia| |lia|exact H].
        unfold utf8_char. replace (c <? 128) with false by lia. replace (c <? 2048) with false by lia.
        replace (c <? 65536) with true by lia. cbn [app].
        apply f_equal2; [lia|]. apply f_equal2; [lia|]. apply f_equal2; [lia|reflexivity]. }
      destruct l3 as [|b3 l4]; [discriminate|]. cbn [length] in Hl.
      match type of H with (if ?b then _ else _) = _ => destruct b eqn:E3 end; [|discriminate].
      set (c := (b0 - 240) * 262144 + (b1 - 128) * 4096 + (b2 - 128) * 64 + (b3 - 128)).
      apply (Cons c l4); [unfold scalar; lia| |lia|exact H].
      unfold utf8_char. replace (c <? 128) with false by lia. replace (c <? 2048) with false by lia.
      replace (c <? 65536) with false by lia. cbn [app].
      apply f_equal2; [lia|]. apply f_equal2; [lia|]. apply f_equal2; [lia|]. apply f_equal2; [lia|reflexivity]. }
    apply (G (length l)). lia.
  - intros (cs & Hcs & ->). induction Hcs as [|c cs Hc Hcs IH]; [reflexivity|]. cbn [flat_map].
    rewrite utf8_valid_char by exact Hc. exact IH.
Qed.

Theorem decode_string g meta s :
  grid_decode g = Ok (meta, s) <-> grid_decode_to vec_writer g [] = (s, Ok meta) /\ utf8_text s.
Proof.
  unfold grid_decode. destruct (grid_decode_to vec_writer g []) as [out r].
  destruct r as [m|x| |]; cbn [bind]; try (split; [discriminate|intros [[=] _]]).
  destruct (utf8_valid out) eqn:E.
  - split; [intros [= <- <-]; split; [reflexivity|apply utf8_valid_iff, E]|intros [[= -> ->] _]; reflexivity].
  - split; [discriminate|]. intros [[= -> ->] Hu]. apply utf8_valid_iff in Hu. congruence.
Qed.

Theorem decode_string_err g x :
  grid_decode g = Err x <->
  (exists out, grid_decode_to vec_writer g [] = (out, Err x)) \/
  (x = EncodingError /\ exists out meta, grid_decode_to vec_writer g [] = (out, Ok meta) /\ ~ utf8_text out).
Proof.
  unfold grid_decode. destruct (grid_decode_to vec_writer g []) as [out r].
  destruct r as [m|y| |]; cbn [bind].
  - destruct (utf8_valid out) eqn:E.
    + split; [discriminate|]. intros [(o & [=])|(_ & o & m' & [= <- <-] & Hu)].
      exfalso. apply Hu, utf8_valid_iff, E.
    + split.
      * intros [= <-]. right. split; [reflexivity|]. exists out, m. split; [reflexivity|].
        intros Hu. apply utf8_valid_iff in Hu. congruence.
      * intros [(o & [=])|(-> & _)]. reflexivity.
  - split; [intros [= ->]; left; eauto|]. intros [(o & [= _ ->])|(_ & o & m' & [=] & _)]. reflexivity.
  - split; [discriminate|]. intros [(o & [=])|(_ & o & m' & [=] & _)].
  - split; [discriminate|]. intros [(o & [=])|(_ & o & m' & [=] & _)].
Qed.

(** What is decoded is what the picture shows. *)
From Coq Require Import SpecFloat.
From Verif Require Import Base Lib ModelDecode ModelImage ModelGeometry ModelDetect ModelIdentify SpecPayload SpecImage SpecThreshold SpecIdentify SpecFinder SpecPicture SpecReading
  StreamProofs FormatProofs EndToEnd GridProofs SymbolProofs ReadingProofs FloodProofs RegionProofs HistoryProofs SpiralProofs SampleProofs IdentifyProofs ImageFacts FinderFacts TotalProofs PictureProofs SpecQR.
From Coq Require Import ZifyBool ZifyNat.
Open Scope Z_scope.
Set Bullet Behavior "Strict Subproofs".

(** The modules seen through the transform of a location: the colour of the pixel nearest to the mapped centre of
    the module, wherever the centre can be mapped.  What [sym] says of other modules does not matter. *)
Definition pictured (w h : Z) (col : pixel -> Z) (l : location spec_float) (sym : Z -> Z -> bool) : Prop :=
  forall y x q, 0 <= y < loc_size l -> 0 <= x < loc_size l -> module_center l y x = Ok (pt q) -> sym y x = negb (col (nearest_pixel w h q) =? 0).

(** Any filling of the modules that cannot be read makes a readable grid. *)
Lemma filled_readable g sym : TotalProofs.answers g -> (forall y x b, 0 <= y < g_size g -> 0 <= x < g_size g -> g_bit g y x = Ok b -> sym y x = b) -> readable (filled_by sym g) sym.
Proof.
  intros A H y x Hy Hx. cbn [g_size g_bit filled_by] in *. destruct (A y x) as [[b E]|E]; rewrite E; [|reflexivity]. rewrite (H y x b Hy Hx E). reflexivity.
Qed.

Lemma pictured_readable I0 p l sym : reg_inv I0 p -> 1 <= im_w I0 <= 2 ^ 31 -> 1 <= im_h I0 <= 2 ^ 31 ->
  pictured (im_w I0) (im_h I0) (pix I0) l sym -> readable (filled_by sym (ref_grid p l)) sym.
Proof.
  intros R Hw Hh P. apply filled_readable; [apply ref_grid_answers|]. intros y x b Hy Hx E. apply (ref_grid_bit I0 p l y x b R Hw Hh) in E as (q & Eq & ->).
  apply P; assumption.
Qed.

(** The outcome of decoding a located grid, for every writer. *)
Theorem pictured_outcome I0 p l v sym : reg_inv I0 p -> 1 <= im_w I0 <= 2 ^ 31 -> 1 <= im_h I0 <= 2 ^ 31 ->
  pictured (im_w I0) (im_h I0) (pix I0) l sym -> loc_size l = symbol_size v -> 1 <= v <= 40 -> v <> 21 ->
  exists g o o', reads v sym o /\ reads v (mirrored sym) o' /\ decided g v o o'
    /\ (forall W (wr : W -> list Z -> W * bool) w, grid_decode_to wr (ref_grid p l) w = grid_decode_to wr g w \/ grid_decode_to wr (ref_grid p l) w = (w, Panic))
    /\ below (grid_decode (ref_grid p l)) (grid_decode g).
Proof.
  intros R Hw Hh P S Hv N. pose proof (pictured_readable I0 p l sym R Hw Hh P) as Rd.
  destruct (decode_decided (filled_by sym (ref_grid p l)) sym v Rd S Hv N) as (o & o' & Ho & Ho' & D).
  destruct (decode_filled_by sym (ref_grid p l) (ref_grid_answers p l)) as (D1 & D2 & _).
  exists (filled_by sym (ref_grid p l)), o, o'. auto.
Qed.

Lemma answers_decode g v e mask data meta bytes : ReadingProofs.answers g v e mask data -> grid_decode g = Ok (meta, bytes) ->
  meta = mkMeta v (level_bits e) mask /\ ref_decode v (bytes_bits data) = (bytes, Complete) /\ utf8_text bytes.
Proof.
  intros (chunks & C & H) E. unfold grid_decode in E. rewrite H, feed_vec in E. cbn [app] in E. rewrite C in E.
  destruct (ref_decode v (bytes_bits data)) as [out en]. cbn [fst snd] in *. destruct en; cbn [ending_result] in E; try discriminate.
  destruct (utf8_valid out) eqn:U; [|discriminate]. injection E as <- <-. split; [reflexivity|]. split; [reflexivity|]. apply utf8_valid_iff. exact U.
Qed.

Lemma fails_decode g x : fails g x -> grid_decode g = Err x.
Proof. intros H. unfold grid_decode. rewrite H. reflexivity. Qed.

(** A located grid that decodes. *)
Theorem pictured_answer I0 p l sym meta bytes : reg_inv I0 p -> 1 <= im_w I0 <= 2 ^ 31 -> 1 <= im_h I0 <= 2 ^ 31 ->
  pictured (im_w I0) (im_h I0) (pix I0) l sym -> (exists v, 0 <= v <= 40 /\ v <> 21 /\ loc_size l = symbol_size v) ->
  grid_decode (ref_grid p l) = Ok (meta, bytes) ->
  exists v e mask data, meta = mkMeta v (level_bits e) mask /\ 1 <= v <= 40 /\ loc_size l = symbol_size v
    /\ (reads v sym (Data e mask data) \/ reads v (mirrored sym) (Data e mask data))
    /\ ref_decode v (bytes_bits data) = (bytes, Complete) /\ utf8_text bytes.
Proof.
  intros R Hw Hh P (v & Hv & N & S) E. destruct (Z.eq_dec v 0) as [-> |V0].
  - exfalso. pose proof (pictured_readable I0 p l sym R Hw Hh P) as Rd. change (symbol_size 0) with 17 in S.
    destruct (decode_filled_by sym (ref_grid p l) (ref_grid_answers p l)) as (_ & D & _).
    assert (Sz : g_size (filled_by sym (ref_grid p l)) = 17) by exact S.
    destruct (bad_size _ sym Rd) as [[_ F]|[_ F]]; try lia; apply fails_decode in F; rewrite F, E in D; destruct D as [D|D]; discriminate.
  - assert (Hv' : 1 <= v <= 40) by lia. destruct (pictured_outcome I0 p l v sym R Hw Hh P S Hv' N) as (g & o & o' & Ho & Ho' & D & _ & B).
    rewrite E in B. destruct B as [B|B]; [|discriminate]. symmetry in B.
    assert (An : forall e mask data, ReadingProofs.answers g v e mask data -> reads v sym (Data e mask data) \/ reads v (mirrored sym) (Data e mask data) ->
      exists v0 e0 mask0 data0, meta = mkMeta v0 (level_bits e0) mask0 /\ 1 <= v0 <= 40 /\ loc_size l = symbol_size v0
        /\ (reads v0 sym (Data e0 mask0 data0) \/ reads v0 (mirrored sym) (Data e0 mask0 data0)) /\ ref_decode v0 (bytes_bits data0) = (bytes, Complete) /\ utf8_text bytes).
    { intros e mask data A Rs. destruct (answers_decode g v e mask data meta bytes A B) as (Em & Er & U). exists v, e, mask, data. split; [exact Em|]. split; [exact Hv'|]. split; [exact S|]. split; [exact Rs|]. split; [exact Er|exact U]. }
    destruct o as [e mask data| |]; cbn [decided] in D; [apply (An e mask data D); auto| |]; destruct o' as [e mask data| |]; try (apply (An e mask data D); auto);
      apply fails_decode in D; rewrite D in B; discriminate.
Qed.

Lemma pictured_same w h f g l sym : 1 <= w -> 1 <= h -> (forall q, inside w h q -> (f q = 0 <-> g q = 0)) -> pictured w h f l sym -> pictured w h g l sym.
Proof.
  intros Hw Hh E P y x q Hy Hx C. rewrite (P y x q Hy Hx C). f_equal. specialize (E _ (nearest_in w h q Hw Hh)).
  destruct (Z.eqb_spec (f (nearest_pixel w h q)) 0), (Z.eqb_spec (g (nearest_pixel w h q)) 0); tauto.
Qed.

Theorem detected_answer {Srt : Sorter spec_float} p w h col ls p' l sym meta bytes : fresh (p_buf p) p -> p_w p = w -> p_h p = h -> 1 <= w <= 2 ^ 31 -> 1 <= h <= 2 ^ 31 ->
  (forall q, inside w h q -> (col q = 0 <-> pix (p_buf p) q = 0)) ->
  detect_grids (T := spec_float) p = Ok (ls, p') -> In l ls -> pictured w h col (lg_loc l) sym ->
  grid_decode (ref_grid p' (lg_loc l)) = Ok (meta, bytes) -> loc_size (lg_loc l) <> symbol_size 21 ->
  exists v e mask data, meta = mkMeta v (level_bits e) mask /\ 1 <= v <= 40 /\ loc_size (lg_loc l) = symbol_size v
    /\ (reads v sym (Data e mask data) \/ reads v (mirrored sym) (Data e mask data))
    /\ ref_decode v (bytes_bits data) = (bytes, Complete) /\ utf8_text bytes.
Proof.
  intros F Sw Sh Hw Hh Cl E Hl P D N. unfold p_w, p_h in Sw, Sh.
  pose proof (detect_kept (p_buf p) p ls p' (reached_inv _ _ (reached_fresh _ _ F)) E) as R. apply detect_sizes in E. rewrite Forall_forall in E. destruct (E l Hl) as (v & Hv & Es).
  apply (pictured_same w h col (pix (p_buf p))) in P; [|lia|lia|exact Cl].
  apply (pictured_answer (p_buf p) p' (lg_loc l) sym meta bytes R); rewrite ?Sw, ?Sh; try assumption. exists v. split; [exact Hv|]. split; [|exact Es].
  intros ->. apply N. exact Es.
Qed.

Theorem bitmap_answer {Srt : Sorter spec_float} w h fill p ls p' l sym meta bytes : 1 <= w <= 2 ^ 31 -> 1 <= h <= 2 ^ 31 ->
  prepare_from_bitmap w h fill = Ok p -> detect_grids (T := spec_float) p = Ok (ls, p') -> In l ls -> pictured w h (ink fill) (lg_loc l) sym ->
  grid_decode (ref_grid p' (lg_loc l)) = Ok (meta, bytes) -> loc_size (lg_loc l) <> symbol_size 21 ->
  exists v e mask data, meta = mkMeta v (level_bits e) mask /\ 1 <= v <= 40 /\ loc_size (lg_loc l) = symbol_size v
    /\ (reads v sym (Data e mask data) \/ reads v (mirrored sym) (Data e mask data))
    /\ ref_decode v (bytes_bits data) = (bytes, Complete) /\ utf8_text bytes.
Proof.
  intros Hw Hh Ep. destruct (bitmap_ok w h fill ltac:(lia) ltac:(lia)) as (p0 & E & S1 & S2 & F & P); [unfold usize_max; nia|].
  rewrite Ep in E. injection E as <-. apply (detected_answer p w h (ink fill)); try assumption.
  exact (prepared_pixels w h p fill F S1 S2 P).
Qed.

Theorem greyscale_answer {Srt : Sorter spec_float} w h fill p ls p' l sym meta bytes : 1 <= w < 2 ^ 31 -> 1 <= h <= 2 ^ 31 ->
  (forall x y, inside w h (x, y) -> 0 <= fill x y <= 255) ->
  prepare_from_greyscale w h fill = Ok p -> detect_grids (T := spec_float) p = Ok (ls, p') -> In l ls -> pictured w h (shade w fill) (lg_loc l) sym ->
  grid_decode (ref_grid p' (lg_loc l)) = Ok (meta, bytes) -> loc_size (lg_loc l) <> symbol_size 21 ->
  exists v e mask data, meta = mkMeta v (level_bits e) mask /\ 1 <= v <= 40 /\ loc_size (lg_loc l) = symbol_size v
    /\ (reads v sym (Data e mask data) \/ reads v (mirrored sym) (Data e mask data))
    /\ ref_decode v (bytes_bits data) = (bytes, Complete) /\ utf8_text bytes.
Proof.
  intros Hw Hh G Ep. destruct (greyscale_exact w h fill ltac:(lia) ltac:(lia)) as (p0 & E & S1 & S2 & F & P); [unfold usize_max; nia|assumption|].
  rewrite Ep in E. injection E as <-. apply (detected_answer p w h (shade w fill)); try assumption; [lia|].
  intros [x y] Hq. apply (prepared_pixels w h p (fun x y => is_dark w (fun z => fill (fst z) (snd z)) (x, y)) F S1 S2 P (x, y) Hq).
Qed.

(** There always is such a square of modules. *)
Lemma pictured_exists w h col l : exists sym, pictured w h col l sym.
Proof.
  exists (fun y x => match module_center l y x with Ok q => negb (col (nearest_pixel w h (px q, py q)) =? 0) | _ => false end).
  intros y x q _ _ E. rewrite E. destruct q. reflexivity.
Qed.
